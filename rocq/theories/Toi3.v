(** The time of impact in space: the current point always belongs to the hull of the simplex. *)
From Coq Require Import Psatz.
From stdpp Require Import prelude.
From Coq Require Import Reals Lra.
From Verif Require Import Res Num Vec AabbModel GeoModel RealGeo PrimModel ShapeSpec MinkModel MinkSpec Gjk3 PropsGjk3 PropsPlane Dist.
Local Open Scope R_scope.

(** The normal of a simplex of three points. *)
Definition tri_n (p0 p1 p2 : P3) : P3 := cross3 (sub3 p1 p2) (sub3 p0 p2).
(** What the loop keeps of the simplex: the current point [v] of a triangle is opposite to
    the normal. *)
Definition toi_state3 (l : list (SupPt P3)) (v : P3) : Prop :=
  (length l <= 2)%nat \/
  exists p0 p1 p2 t, l = [p0; p1; p2] /\ 0 < t /\ v = scale3 (tri_n (sp_v p0) (sp_v p1) (sp_v p2)) (- t) /\
    dot3 (tri_n (sp_v p0) (sp_v p1) (sp_v p2)) (sp_v p2) < 0.

(** A tetrahedron that encloses the origin (cf. [tetra_origin], other strict side). *)
Lemma tetra_origin' (a b c d v : P3) :
  let abc := cross3 (sub3 b a) (sub3 c a) in
  dot3 abc (sub3 d a) < 0 -> dot3 abc (neg3 a) <= 0 -> dot3 (cross3 (sub3 c a) (sub3 d a)) (neg3 a) <= 0 ->
  dot3 (cross3 (sub3 d a) (sub3 b a)) (neg3 a) <= 0 ->
  dot3 v c = dot3 v b -> dot3 v d = dot3 v b -> dot3 v b < 0 -> 0 <= dot3 v a ->
  hull3 [d; c; b; a] zero3.
Proof.
  cbv zeta. set (abc := cross3 (sub3 b a) (sub3 c a)). intros HD H1 H2 H3 Hc Hd Hb Ha. set (D := dot3 abc (sub3 d a)) in *.
  set (acd := cross3 (sub3 c a) (sub3 d a)) in *. set (adb := cross3 (sub3 d a) (sub3 b a)) in *.
  set (δ := dot3 abc (neg3 a) / D). set (β := dot3 acd (neg3 a) / D). set (γ := dot3 adb (neg3 a) / D).
  assert (Hdiv : forall x, x <= 0 -> 0 <= x / D).
  { intros x Hx. unfold Rdiv. replace (x * / D) with ((- x) * / (- D)) by (field; lra).
    apply Rmult_le_pos; [lra|]. left. apply Rinv_0_lt_compat. lra. }
  assert (Hδ : 0 <= δ) by by apply Hdiv. assert (Hβ : 0 <= β) by by apply Hdiv. assert (Hγ : 0 <= γ) by by apply Hdiv.
  assert (Ez : zero3 = add3 (add3 (add3 a (scale3 (sub3 b a) β)) (scale3 (sub3 c a) γ)) (scale3 (sub3 d a) δ)).
  { unfold β, γ, δ. clear -HD. apply V3_eq; unfold D in *; clear D; unfold abc, acd, adb in *; clear abc acd adb; rv0; field; lra. }
  rewrite Ez. apply tetra_hull; [done|done|done|].
  assert (E : dot3 v (zero3 : P3) = 0) by (clear; rv0; ring). rewrite Ez in E.
  assert (E' : dot3 v a + (β + γ + δ) * (dot3 v b - dot3 v a) = 0).
  { rewrite <- E. transitivity (dot3 v a + β * (dot3 v b - dot3 v a) + γ * (dot3 v c - dot3 v a) + δ * (dot3 v d - dot3 v a));
      [rewrite Hc, Hd; ring|]. clear. clearbody β γ δ. rv0. ring. }
  clear -E' Hb Ha Hγ Hβ Hδ. nra.
Qed.

(** The closest point of the plane of a face seen from behind. *)
Lemma closest_on_face_signed eps (a b c r : P3) : 0 <= eps ->
  let n := cross3 (sub3 b a) (sub3 c a) in
  dot3 n a <= 0 -> closest_on_face eps a b c n = Ok r ->
  hull3 [c; b; a] r /\ exists t, 0 <= t /\ r = scale3 n (- t) /\ dot3 n r = dot3 n a.
Proof.
  intros He n Hna. unfold closest_on_face. destruct (plane_from_points eps a b c) as [pl|] eqn:Epl; [|done].
  assert (Hnz : n <> zero3 /\ exists k, 0 < k /\ pl = mkPlane (scale3 n k) (- dot3 a (scale3 n k))).
  { unfold plane_from_points in Epl. destruct (near0_3 _ _) eqn:E; [done|]. apply (Gjk3.near0_3_false eps He) in E. split; [done|].
    apply (inj Some) in Epl. rewrite <- Epl. exists (1 / mag3 n). split; [|done]. apply Rdiv_lt_0_compat; [lra|by apply mag3_pos]. }
  destruct Hnz as [Hnz (k & Hk & ->)]. pose proof (proj1 (vec3_ne n) Hnz) as Hnn.
  unfold plane_ray, plane_ray_t. cbn [pl_n pl_d origin direction]. cbn [nlt nadd nsub nmul ndiv nneg n0 Num_R]. cbv zeta.
  set (t := - (- dot3 a (scale3 n k) + dot3 zero3 (scale3 n k)) / dot3 (neg3 n) (scale3 n k)).
  assert (Et : t * dot3 n n = - dot3 n a).
  { assert (E1 : dot3 a (scale3 n k) = k * dot3 n a) by (clearbody n; clear; rv0; ring).
    assert (E2 : dot3 zero3 (scale3 n k) = 0) by (clearbody n; clear; unfold zero3; rv0; ring).
    assert (E3 : dot3 (neg3 n) (scale3 n k) = - (k * dot3 n n)) by (clearbody n; clear; rv0; ring).
    unfold t. rewrite E1, E2, E3. field. split; lra. }
  assert (Ht : 0 <= t) by nra. clearbody t. rewrite (proj2 (Rltb_false _ _)) by lra.
  set (q := add3 zero3 (scale3 (neg3 n) t)).
  assert (Eq : q = scale3 n (- t)) by (unfold q; clearbody n; clear; unfold zero3; apply V3_eq; rv0; ring).
  assert (Hnq : dot3 n q = dot3 n a).
  { rewrite Eq. transitivity (- (t * dot3 n n)); [clearbody n; clear; rv0; ring|lra]. }
  pose proof (bary3_plane q a b c Hnz ltac:(rewrite dot3_sub; fold n; lra)) as Hb. destruct (bary3 q a b c) as [[u v] w]. destruct Hb as [Hsum Hcomb].
  destruct (in_range u && in_range v && in_range w) eqn:Er; [|done]. intros Eo. assert (q = r) as <- by congruence.
  unfold in_range in Er. cbn [nle n0 n1 Num_R] in Er. rewrite !andb_true_iff, !Rleb_true in Er. destruct Er as [[[Hu _] [Hv _]] [Hw _]].
  split; [|by exists t]. rewrite Hcomb. apply hull3_three; try done; set_solver.
Qed.

(** A triangle left by the reduction is seen from behind. *)
Lemma check_side_sign abc ab ac ao sc sb sa above ign l d :
  abc = cross3 ab ac -> ab = sub3 (sp_v sb) (sp_v sa) -> ac = sub3 (sp_v sc) (sp_v sa) -> ao = neg3 (sp_v sa) ->
  (above = true -> 0 < dot3 abc ao) ->
  check_side (S := R) abc ab ac ao sc sb sa above ign = (l, d) ->
  ((length l <= 2)%nat /\ (1 <= length l)%nat /\ l ⊆ [sc; sb; sa]) \/
  exists p0 p1, l = [p0; p1; sa] /\ d = tri_n (sp_v p0) (sp_v p1) (sp_v sa) /\ dot3 d (sp_v sa) <= 0 /\ l ⊆ [sc; sb; sa].
Proof.
  intros Eabc Eab Eac Eao Hab. unfold check_side. cbv zeta. cbn [nlt n0 Num_R].
  destruct (_ && _). { intros [= <- <-]. left. cbn. split; [lia|]. split; [lia|set_solver]. }
  destruct (Rltb 0 (dot3 (cross3 abc ac) ao)). { intros [= <- <-]. left. cbn. split; [lia|]. split; [lia|set_solver]. }
  destruct (above || Rltb 0 (dot3 abc ao)) eqn:E3; intros E; right.
  - assert (l = [sc; sb; sa]) as -> by congruence. assert (d = abc) as -> by congruence. exists sc, sb.
    split; [done|]. split; [unfold tri_n; by subst|]. split; [|set_solver].
    assert (0 < dot3 abc ao) by (apply orb_true_iff in E3 as [E3|E3]; [by apply Hab|by apply Rltb_true]).
    rewrite Eao, dot3_neg_r in H. lra.
  - apply orb_false_iff in E3 as [_ E3]. apply Rltb_false in E3.
    assert (l = [sb; sc; sa]) as -> by congruence. assert (d = neg3 abc) as -> by congruence. exists sb, sc.
    split; [done|]. split; [unfold tri_n; subst; clear; rv0; f_equal; ring|]. split; [|set_solver].
    rewrite Eao, dot3_neg_r in E3. rewrite (dot3_neg_l abc). lra.
Qed.
Lemma reduce3_sign eps tenth l d l' d' : (1 <= length l <= 4)%nat -> reduce3 eps tenth l d = (l', d', false) ->
  ((length l' <= 2)%nat /\ (1 <= length l')%nat /\ l' ⊆ l) \/
  exists p0 p1 p2, l' = [p0; p1; p2] /\ d' = tri_n (sp_v p0) (sp_v p1) (sp_v p2) /\ dot3 d' (sp_v p2) <= 0 /\ l' ⊆ l.
Proof.
  intros Hl. destruct l as [|x [|y [|z [|t [|]]]]]; cbn in Hl; try lia.
  - intros [= <- <-]. left. cbn. split; [lia|]. split; [lia|set_solver].
  - intros [= <- _]. left. cbn. split; [lia|]. split; [lia|set_solver].
  - unfold reduce3. cbv zeta. destruct (check_side _ _ _ _ _ _ _ _ _) as [m e] eqn:Ec. intros E.
    assert (m = l') as -> by congruence. assert (e = d') as -> by congruence.
    apply check_side_sign in Ec; try done. destruct Ec as [?|(p0 & p1 & ?)]; [by left|]. right. by exists p0, p1, z.
  - unfold reduce3. cbv zeta. cbn [nlt n0 Num_R]. destruct (Rltb 0 _) eqn:E1.
    { apply Rltb_true in E1. destruct (check_side _ _ _ _ _ _ _ _ _) as [m e] eqn:Ec. intros E.
      assert (m = l') as -> by congruence. assert (e = d') as -> by congruence.
      apply check_side_sign in Ec; try done.
      assert (Hs : forall q : list (SupPt P3), q ⊆ [y; z; t] -> q ⊆ [x; y; z; t]) by (intros; set_solver).
      destruct Ec as [(? & ? & ?)|(p0 & p1 & ? & ? & ? & ?)]; [left; eauto|]. right. exists p0, p1, t. eauto. }
    clear E1. destruct (Rltb 0 _) eqn:E1.
    { apply Rltb_true in E1. destruct (check_side _ _ _ _ _ _ _ _ _) as [m e] eqn:Ec. intros E.
      assert (m = l') as -> by congruence. assert (e = d') as -> by congruence.
      apply check_side_sign in Ec; try done.
      assert (Hs : forall q : list (SupPt P3), q ⊆ [x; y; t] -> q ⊆ [x; y; z; t]) by (intros; set_solver).
      destruct Ec as [(? & ? & ?)|(p0 & p1 & ? & ? & ? & ?)]; [left; eauto|]. right. exists p0, p1, t. eauto. }
    clear E1. destruct (Rltb 0 _) eqn:E1; [|done]. apply Rltb_true in E1. intros E.
    assert (l' = [z; x; t]) as -> by congruence.
    assert (d' = cross3 (sub3 (sp_v x) (sp_v t)) (sub3 (sp_v z) (sp_v t))) as -> by congruence. right. exists z, x, t.
    split; [done|]. split; [done|]. split; [|set_solver]. rewrite dot3_neg_r in E1. lra.
Qed.

Lemma hull3_sub (xs ys : list P3) v : xs ⊆ ys -> hull3 xs v -> hull3 ys v.
Proof. intros Hs Hv. induction Hv as [v Hv|a b t _ IHa _ IHb Ht]; [by apply hull3_vertex, Hs|by apply hull3_mix]. Qed.

(** One update of the simplex. *)
Lemma closest3_toi eps tenth l v a l' v' : 0 <= eps ->
  toi_state3 l v -> dot3 v (sp_v a) <= 0 \/ l = [] -> closest3 eps tenth (l ++ [a]) = Ok (l', v') ->
  l' ⊆ l ++ [a] /\ hull3 (sp_v <$> (l ++ [a])) v' /\ (v' = zero3 \/ toi_state3 l' v').
Proof.
  intros He Hst Hd. unfold closest3.
  assert (Hlen : (1 <= length (l ++ [a]) <= 4)%nat).
  { rewrite app_length. cbn. destruct Hst as [?|(p0 & p1 & p2 & t & -> & _)]; cbn; lia. }
  pose proof (reduce3_shape eps tenth (l ++ [a]) zero3 Hlen) as Hsh.
  destruct (reduce3 eps tenth (l ++ [a]) zero3) as [[s d'] inside] eqn:Er. destruct inside.
  - destruct Hsh as [(_ & -> & ->)|(? & _)]; [|done]. intros [= <- <-]. split; [done|]. split; [|by left].
    destruct Hst as [Hl2|(p0 & p1 & p2 & t & -> & Ht & Ev & Hn)].
    { exfalso. destruct l as [|x [|y [|]]]; cbn in Hl2; try lia; cbn [app] in Er; unfold reduce3 in Er; cbv zeta in Er; done. }
    destruct Hd as [Hd|?]; [|done]. cbn [app fmap list_fmap] in *. unfold reduce3 in Er. cbv zeta in Er. cbn [nlt n0 Num_R] in Er.
    set (va := sp_v a) in *. set (vd := sp_v p0) in *. set (vc := sp_v p1) in *. set (vb := sp_v p2) in *.
    destruct (Rltb 0 _) eqn:E1 in Er; [destruct (check_side _ _ _ _ _ _ _ _ _) as [? ?]; congruence|]. apply Rltb_false in E1.
    destruct (Rltb 0 _) eqn:E2 in Er; [destruct (check_side _ _ _ _ _ _ _ _ _) as [? ?]; congruence|]. apply Rltb_false in E2.
    destruct (Rltb 0 _) eqn:E3 in Er; [congruence|]. apply Rltb_false in E3. clear Er.
    set (n := tri_n vd vc vb) in *.
    assert (Hna : 0 <= dot3 n va).
    { assert (dot3 v va = - (t * dot3 n va)) as Hx by (rewrite Ev; clearbody n va; clear; rv0; ring). nra. }
    assert (Hdet : dot3 (cross3 (sub3 vb va) (sub3 vc va)) (sub3 vd va) < 0).
    { pose proof (det_base va vb vc vd) as E. fold (tri_n vd vc vb) in E. fold n in E. rewrite dot3_sub in E. lra. }
    apply (tetra_origin' va vb vc vd n); try done.
    + unfold n, tri_n. clear. rv0. ring.
    + unfold n, tri_n. clear. rv0. ring.
  - apply reduce3_sign in Er; [|done]. destruct Er as [(H2 & H1 & Hsub)|(p0 & p1 & p2 & -> & -> & Hs & Hsub)].
    + assert (Hfs : (sp_v <$> s) ⊆ (sp_v <$> (l ++ [a]))) by (intros y (z & -> & Hz)%elem_of_list_fmap; apply elem_of_list_fmap; eauto).
      destruct s as [|p0 [|p1 [|]]]; cbn in H1, H2; try lia.
      * intros [= <- <-]. split; [done|]. split; [|by right; left]. apply (hull3_sub _ _ _ Hfs), hull3_vertex. cbn. set_solver.
      * intros [= <- <-]. split; [done|]. split; [|by right; left].
        destruct (closest_on_edge3_spec (sp_v p1) (sp_v p0)) as (t & Ht & Ec & _). rewrite Ec. apply (hull3_sub _ _ _ Hfs).
        apply hull3_mix; [apply hull3_vertex; cbn; set_solver|apply hull3_vertex; cbn; set_solver|done].
    + unfold tri_n. destruct (closest_on_face _ _ _ _ _) as [r| |] eqn:Ef; cbn [mbind res_mbind res_bind]; try done. intros [= <- <-].
      destruct (closest_on_face_signed eps (sp_v p2) (sp_v p1) (sp_v p0) r He Hs Ef) as (Hh & t & Ht & Er & Hnr).
      split; [done|]. split.
      { apply (hull3_sub [sp_v p0; sp_v p1; sp_v p2]); [|done]. intros y Hy. apply elem_of_list_fmap.
        assert (y = sp_v p0 \/ y = sp_v p1 \/ y = sp_v p2) as [-> | [-> | ->]] by set_solver; eexists; (split; [done|]); apply Hsub; set_solver. }
      fold (tri_n (sp_v p0) (sp_v p1) (sp_v p2)) in *. set (n := tri_n (sp_v p0) (sp_v p1) (sp_v p2)) in *.
      destruct (Req_dec t 0) as [-> |Ht0].
      { left. rewrite Er. clearbody n. clear. unfold zero3. apply V3_eq; rv0; ring. }
      destruct (Req_dec (dot3 n n) 0) as [Hn0|Hn0].
      { left. rewrite Er. clearbody n. clear -Hn0. assert (n = zero3) as ->; [|unfold zero3; apply V3_eq; rv0; ring].
        apply V3_eq; unfold zero3; rs; rv0; nra. }
      right. right. exists p0, p1, p2, t. split; [done|]. split; [lra|]. split; [done|]. fold n.
      assert (dot3 n r = - (t * dot3 n n)) as Hr by (rewrite Er; clearbody n; clear; rv0; ring).
      assert (0 < dot3 n n) by (pose proof (dot3_nonneg n); lra). rewrite <- Hnr, Hr. nra.
Qed.

(** ** The loop *)
Section loop3.
  Context (A B : P3 -> Prop) (HcA : convex3 A) (HcB : convex3 B).
  Notation K := (mdiff3 A B).
  Lemma mdiff3_convex : convex3 K.
  Proof.
    intros x y t (xa & xb & Hxa & Hxb & ->) (ya & yb & Hya & Hyb & ->) Ht.
    exists (add3 (scale3 xa (1 - t)) (scale3 ya t)), (add3 (scale3 xb (1 - t)) (scale3 yb t)).
    split; [by apply HcA|]. split; [by apply HcB|]. apply V3_eq; rv0; ring.
  Qed.
  Definition toi_inv3 (ro : P3) (l : list (SupPt P3)) (v : P3) : Prop :=
    Forall (fun s => K (add3 (sp_v s) ro)) l /\ toi_state3 l v.
  Lemma hull_K3 ro (ps : list P3) v : Forall (fun p => K (add3 p ro)) ps -> hull3 ps v -> K (add3 v ro).
  Proof.
    intros Hps Hv. induction Hv as [v Hv|a b t _ IHa _ IHb Ht].
    - rewrite Forall_forall in Hps. by apply Hps.
    - replace (add3 (add3 (scale3 a (1 - t)) (scale3 b t)) ro) with (add3 (scale3 (add3 a ro) (1 - t)) (scale3 (add3 b ro) t)).
      { by apply mdiff3_convex. } clear. apply V3_eq; rv0; ring.
  Qed.
  Lemma toi_step3 eps tenth ro l v (p : SupPt P3) l' v' : 0 <= eps ->
    toi_inv3 ro l v -> K (sp_v p) -> dot3 v (sub3 (sp_v p) ro) <= 0 \/ l = [] ->
    closest3 eps tenth (l ++ [sup_sub sub3 p ro]) = Ok (l', v') ->
    K (add3 v' ro) /\ (v' = zero3 \/ toi_inv3 ro l' v').
  Proof.
    intros He [HK Hst] Kp Hd Ec. set (a := sup_sub sub3 p ro) in *.
    assert (Ka : K (add3 (sp_v a) ro)).
    { unfold a, sup_sub. cbn [sp_v]. replace (add3 (sub3 (sp_v p) ro) ro) with (sp_v p); [done|]. clear. apply V3_eq; rv0; ring. }
    change (sub3 (sp_v p) ro) with (sp_v a) in Hd. clearbody a.
    destruct (closest3_toi eps tenth l v a l' v' He Hst Hd Ec) as (Hsub & Hh & Hs).
    assert (Hall : Forall (fun s => K (add3 (sp_v s) ro)) (l ++ [a])) by (apply Forall_app; split; [done|by apply Forall_singleton]).
    split.
    - apply (hull_K3 ro (sp_v <$> (l ++ [a]))); [|done]. by apply Forall_fmap.
    - destruct Hs as [-> |Hs]; [by left|right]. split; [|done]. rewrite Forall_forall in Hall |- *. intros s Hs'. by apply Hall, Hsub.
  Qed.
End loop3.
