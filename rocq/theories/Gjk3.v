(** GJK intersection in space: invariants of the loop. *)
From Coq Require Import Psatz.
From stdpp Require Import prelude.
From Coq Require Import Reals Lra.
From Verif Require Import Res Num Vec AabbModel GeoModel RealGeo PrimModel ShapeSpec MinkModel MinkSpec.
Local Open Scope R_scope.

Lemma vec3_ne (d : P3) : d <> zero3 <-> 0 < dot3 d d.
Proof.
  split; intros Hd.
  - destruct (Rle_lt_dec (dot3 d d) 0); [|done]. exfalso. apply Hd. apply V3_eq; rv0; nra.
  - intros ->. rv0. lra.
Qed.
Lemma dot3_ne_l (d x : P3) : dot3 d x <> 0 -> d <> zero3.
Proof. intros E ->. apply E. rv0. ring. Qed.
Lemma neg3_ne (d : P3) : d <> zero3 -> neg3 d <> zero3.
Proof. rewrite !vec3_ne. intros E. rv0. lra. Qed.
Lemma dot3_neg_r (d x : P3) : dot3 d (neg3 x) = - dot3 d x.
Proof. rv0. ring. Qed.
Lemma dot3_sub (d a b : P3) : dot3 d (sub3 a b) = dot3 d a - dot3 d b.
Proof. rv0. ring. Qed.
Lemma sub3_zero (a b : P3) : sub3 a b = zero3 -> a = b.
Proof.
  intros E. assert (vx a - vx b = 0) by exact (f_equal vx E). assert (vy a - vy b = 0) by exact (f_equal vy E).
  assert (vz a - vz b = 0) by exact (f_equal vz E). apply V3_eq; lra.
Qed.

Lemma hull3_comb2 (vs : list P3) p q s t :
  hull3 vs p -> hull3 vs q -> 0 <= s -> 0 <= t -> s + t = 1 -> hull3 vs (add3 (scale3 p s) (scale3 q t)).
Proof. intros Hp Hq Hs Ht Hst. replace s with (1 - t) by lra. apply hull3_mix; [done|done|lra]. Qed.
Lemma tetra_hull (a b c d : P3) β γ δ :
  0 <= β -> 0 <= γ -> 0 <= δ -> β + γ + δ <= 1 ->
  hull3 [d; c; b; a] (add3 (add3 (add3 a (scale3 (sub3 b a) β)) (scale3 (sub3 c a) γ)) (scale3 (sub3 d a) δ)).
Proof.
  intros Hb Hg Hd Hs. set (vs := [d; c; b; a]).
  assert (Ha : hull3 vs a) by (apply hull3_vertex; set_solver). assert (Hbb : hull3 vs b) by (apply hull3_vertex; set_solver).
  assert (Hc : hull3 vs c) by (apply hull3_vertex; set_solver). assert (Hdd : hull3 vs d) by (apply hull3_vertex; set_solver).
  clearbody vs.
  assert (Hdiv : forall x y, 0 <= x -> x <= y -> 0 < y -> 0 <= x / y /\ 0 <= 1 - x / y).
  { intros x y Hx Hxy Hy. split; [apply Rmult_le_pos; [done|]; left; by apply Rinv_0_lt_compat|].
    apply Rmult_le_reg_r with y; [done|]. field_simplify; lra. }
  destruct (Req_dec (β + γ + δ) 0) as [E|E].
  { assert (β = 0) as -> by lra. assert (γ = 0) as -> by lra. assert (δ = 0) as -> by lra.
    replace (add3 _ _) with a by (apply V3_eq; rv0; ring). done. }
  destruct (Req_dec (γ + δ) 0) as [E2|E2].
  { assert (γ = 0) as -> by lra. assert (δ = 0) as -> by lra.
    replace (add3 _ _) with (add3 (scale3 a (1 - β)) (scale3 b β)) by (apply V3_eq; rv0; ring). apply hull3_mix; [done|done|lra]. }
  set (q := add3 (scale3 c (1 - δ / (γ + δ))) (scale3 d (δ / (γ + δ)))).
  assert (Hq : hull3 vs q).
  { unfold q. destruct (Hdiv δ (γ + δ)) as [H1 H2]; [lra|lra|lra|]. apply hull3_comb2; [done|done|lra|lra|lra]. }
  set (r := add3 (scale3 b (1 - (γ + δ) / (β + γ + δ))) (scale3 q ((γ + δ) / (β + γ + δ)))).
  assert (Hr : hull3 vs r).
  { unfold r. destruct (Hdiv (γ + δ) (β + γ + δ)) as [H1 H2]; [lra|lra|lra|]. apply hull3_comb2; [done|done|lra|lra|lra]. }
  replace (add3 _ _) with (add3 (scale3 a (1 - (β + γ + δ))) (scale3 r (β + γ + δ))).
  2:{ unfold r, q. apply V3_eq; rv0; field; lra. }
  apply hull3_mix; [done|done|lra].
Qed.

Section tetra.
  Context (a b c d : P3).
  Let ab := sub3 b a.
  Let ac := sub3 c a.
  Let ad := sub3 d a.
  Let abc := cross3 ab ac.
  Let acd := cross3 ac ad.
  Let adb := cross3 ad ab.
  (** Orientation: [abc], [acd], [adb] point outwards. *)
  Lemma det_base : dot3 (cross3 (sub3 c b) (sub3 d b)) (sub3 a b) = - dot3 abc ad.
  Proof. unfold abc, ad, ac, ab. rv0. ring. Qed.
  Lemma tetra_origin (v : P3) :
    dot3 abc ad < 0 -> dot3 abc (neg3 a) <= 0 -> dot3 acd (neg3 a) <= 0 -> dot3 adb (neg3 a) <= 0 ->
    dot3 v c = dot3 v b -> dot3 v d = dot3 v b -> dot3 v b <= 0 -> 0 < dot3 v a ->
    hull3 [d; c; b; a] zero3.
  Proof.
    intros HD H1 H2 H3 Hc Hd Hb Ha. set (D := dot3 abc ad) in *.
    set (δ := dot3 abc (neg3 a) / D). set (β := dot3 acd (neg3 a) / D). set (γ := dot3 adb (neg3 a) / D).
    assert (Hdiv : forall x, x <= 0 -> 0 <= x / D).
    { intros x Hx. unfold Rdiv. replace (x * / D) with ((- x) * / (- D)) by (field; lra).
      apply Rmult_le_pos; [lra|]. left. apply Rinv_0_lt_compat. lra. }
    assert (Hδ : 0 <= δ) by by apply Hdiv. assert (Hβ : 0 <= β) by by apply Hdiv. assert (Hγ : 0 <= γ) by by apply Hdiv.
    assert (Ez : zero3 = add3 (add3 (add3 a (scale3 (sub3 b a) β)) (scale3 (sub3 c a) γ)) (scale3 (sub3 d a) δ)).
    { unfold β, γ, δ. clear -HD. apply V3_eq; unfold abc, acd, adb, ab, ac, ad in *; unfold D in *; clear D; 
      unfold abc, acd, adb, ab, ac, ad in *; rv0; field; lra. }
    rewrite Ez. apply tetra_hull; [done|done|done|].
    assert (E : dot3 v (zero3 : P3) = 0) by (rv0; ring). rewrite Ez in E.
    assert (E' : dot3 v a + (β + γ + δ) * (dot3 v b - dot3 v a) = 0).
    { rewrite <- E. transitivity (dot3 v a + β * (dot3 v b - dot3 v a) + γ * (dot3 v c - dot3 v a) + δ * (dot3 v d - dot3 v a));
        [rewrite Hc, Hd; ring|]. clear. clearbody β γ δ. rv0. ring. }
    clear -E' Hb Ha Hγ Hβ Hδ. nra.
  Qed.
End tetra.

(** The direction of an edge towards the origin. *)
Lemma aba_perp (ab ao : P3) : dot3 (cross_aba ab ao) ab = 0.
Proof. unfold cross_aba. rv0. ring. Qed.
Lemma aba_dot (ab ao : P3) : dot3 (cross_aba ab ao) ao = dot3 (cross3 ab ao) (cross3 ab ao).
Proof. unfold cross_aba. rv0. ring. Qed.
Lemma cross_sep (ab n ao : P3) : dot3 (cross3 ab n) ao <> 0 -> 0 < dot3 (cross3 ab ao) (cross3 ab ao).
Proof.
  intros E. apply vec3_ne. intros E0. apply E.
  transitivity (- dot3 n (cross3 ab ao)); [rv0; ring|]. rewrite E0. rv0. ring.
Qed.

Section gjk3.
  Context (eps tenth : R) (Heps : 0 <= eps) (Htenth : 0 < tenth) (A B : P3 -> Prop) (supL supR : P3 -> res P3)
    (HA : supports3 A supL) (HB : supports3 B supR).
  Lemma mink3_spec d : d <> zero3 ->
    exists s, mink3 supL supR d = Ok s /\ witness3 A B s /\
      (forall v, mdiff3 A B v -> dot3 d v <= dot3 d (sp_v s)).
  Proof.
    intros Hd. destruct (HA d Hd) as (l & El & Hl & Hml).
    destruct (HB (neg3 d)) as (r & Er & Hr & Hmr); [by apply neg3_ne|].
    exists (mkSup (sub3 l r) l r). split; [unfold mink3, mink; rewrite El; cbn; by rewrite Er|].
    split; [done|]. cbn [sp_v]. intros v (x & y & Hx & Hy & ->).
    specialize (Hml x Hx). specialize (Hmr y Hy). clear -Hml Hmr. rv0. lra.
  Qed.
  Lemma witness3_mdiff s : witness3 A B s -> mdiff3 A B (sp_v s).
  Proof. intros (Ha & Hb & E). by exists (sp_a s), (sp_b s). Qed.

  (** States of the loop: the search direction after one, two or three points. *)
  Definition start3 (s : list (SupPt P3)) (d : P3) : Prop :=
    exists b, s = [b] /\ witness3 A B b /\ d <> zero3 /\ dot3 d (sp_v b) < 0.
  Definition edge3 (s : list (SupPt P3)) (d : P3) : Prop :=
    exists b a, s = [b; a] /\ witness3 A B b /\ witness3 A B a /\ sp_v b <> sp_v a /\
      dot3 d (sp_v b) = dot3 d (sp_v a) /\ dot3 d (sp_v a) < 0.
  Definition face3 (s : list (SupPt P3)) (d : P3) : Prop :=
    exists c b a, s = [c; b; a] /\ witness3 A B c /\ witness3 A B b /\ witness3 A B a /\
      d = cross3 (sub3 (sp_v b) (sp_v a)) (sub3 (sp_v c) (sp_v a)) /\ d <> zero3 /\ dot3 d (sp_v a) <= 0.
  (** The line through two support points passes close to the origin: distance times the
      square of [|pq|] is at most [sqrt 3 * eps]. *)
  Definition close_line3 (p q : P3) : Prop :=
    p <> q /\ mag3 (cross3 p q) * mag3 (sub3 q p) <= sqrt 3 * eps.
  Definition fallback3 (s : list (SupPt P3)) (d : P3) : Prop :=
    exists b a, s = [b; a] /\ witness3 A B b /\ witness3 A B a /\ d <> zero3 /\ close_line3 (sp_v b) (sp_v a).
  (** Three points on such a line; the search direction has vanished. *)
  Definition flat3 (s : list (SupPt P3)) (d : P3) : Prop :=
    exists c b a, s = [b; c; a] /\ witness3 A B c /\ witness3 A B b /\ witness3 A B a /\ d = zero3 /\
      close_line3 (sp_v c) (sp_v b) /\ cross3 (sub3 (sp_v b) (sp_v a)) (sub3 (sp_v c) (sp_v a)) = zero3.

  Lemma near0_3_spec (v : P3) : near0_3 eps v = true <-> Rabs (vx v) <= eps /\ Rabs (vy v) <= eps /\ Rabs (vz v) <= eps.
  Proof. unfold near0_3, near0. cbn [nle nabs Num_R]. rewrite !andb_true_iff, !Rleb_true. tauto. Qed.
  Lemma near0_3_false (v : P3) : near0_3 eps v = false -> v <> zero3.
  Proof.
    intros E ->. assert (near0_3 eps zero3 = true); [|congruence]. apply near0_3_spec. cbn [vx vy vz zero3]. rs.
    rewrite Rabs_R0. done.
  Qed.
  Lemma near0_3_mag (v : P3) : near0_3 eps v = true -> mag3 v <= sqrt 3 * eps.
  Proof.
    intros E. apply near0_3_spec in E as (Hx & Hy & Hz).
    apply mag3_le_iff; [apply Rmult_le_pos; [apply sqrt_pos|done]|].
    replace (sqrt 3 * eps * (sqrt 3 * eps)) with (3 * (eps * eps)).
    2:{ transitivity ((sqrt 3 * sqrt 3) * (eps * eps)); [rewrite sqrt_sqrt by lra|]; ring. }
    assert (Hsq : forall x, Rabs x <= eps -> x * x <= eps * eps).
    { intros x Hx'. assert (- eps <= x <= eps) by (split; [pose proof (Rle_abs (- x)) as Hn; rewrite Rabs_Ropp in Hn; lra|pose proof (Rle_abs x); lra]). nra. }
    pose proof (Hsq _ Hx). pose proof (Hsq _ Hy). pose proof (Hsq _ Hz). rv0. lra.
  Qed.

  Lemma reduce3_two b a d :
    witness3 A B b -> witness3 A B a -> dot3 d (sp_v b) < 0 -> 0 < dot3 d (sp_v a) ->
    exists d', reduce3 eps tenth [b; a] d = ([b; a], d', false) /\ (edge3 [b; a] d' \/ fallback3 [b; a] d').
  Proof.
    intros Hb Ha Hdb Hda. unfold reduce3. eexists. split; [done|].
    assert (Hne : sp_v b <> sp_v a) by (intros E; rewrite E in Hdb; lra).
    set (vb := sp_v b) in *. set (va := sp_v a) in *.
    destruct (near0_3 eps _) eqn:En.
    - right. exists b, a. repeat (split; [done|]). split.
      + intros E. assert (tenth = 0) by exact (f_equal vx E). lra.
      + split; [done|]. apply near0_3_mag in En.
        replace (mag3 (cross3 vb va) * mag3 (sub3 va vb)) with (mag3 (cross_aba (sub3 vb va) (neg3 va))); [done|].
        unfold mag3. cbn [nsqrt Num_R]. rewrite <- sqrt_mult; [|exact (dot3_nonneg _)|exact (dot3_nonneg _)].
        f_equal. unfold cross_aba. rv0. ring.
    - left. exists b, a. repeat (split; [done|]). fold vb va. apply near0_3_false in En.
      set (ab := sub3 vb va) in *. set (ao := neg3 va) in *.
      pose proof (aba_perp ab ao) as E1. pose proof (aba_dot ab ao) as E2.
      split.
      + unfold ab at 2 in E1. rewrite dot3_sub in E1. lra.
      + unfold ao at 2 in E2. rewrite dot3_neg_r in E2.
        assert (cross3 ab ao <> zero3); [|apply vec3_ne in H; lra].
        intros E. apply En. unfold cross_aba. rewrite E. rv0. f_equal; ring.
  Qed.

  (** The side test on a face with a nonzero normal. *)
  Lemma check_side_face c b a abc above ignore (Hn : above = true -> 0 < dot3 abc (neg3 (sp_v a))) :
    witness3 A B c -> witness3 A B b -> witness3 A B a ->
    abc = cross3 (sub3 (sp_v b) (sp_v a)) (sub3 (sp_v c) (sp_v a)) -> abc <> zero3 ->
    let '(s', d') := check_side abc (sub3 (sp_v b) (sp_v a)) (sub3 (sp_v c) (sp_v a)) (neg3 (sp_v a)) c b a above ignore in
    edge3 s' d' \/ face3 s' d'.
  Proof.
    intros Hc Hb Ha Eabc Hne. unfold check_side. cbn [nlt n0 Num_R].
    set (vc := sp_v c) in *. set (vb := sp_v b) in *. set (va := sp_v a) in *.
    assert (Hedge : forall x (sx : SupPt P3), witness3 A B sx -> sp_v sx = x -> forall n,
      dot3 (cross3 (sub3 x va) n) (neg3 va) <> 0 -> edge3 [sx; a] (cross_aba (sub3 x va) (neg3 va))).
    { intros x sx Hs Ex n Hx. exists sx, a. repeat (split; [done|]). rewrite Ex. fold va.
      set (ab := sub3 x va) in *. set (ao := neg3 va) in *.
      pose proof (cross_sep ab n ao ltac:(lra)) as Hp.
      split.
      { intros E. unfold ab in Hp. rewrite E in Hp. clear -Hp. rv0. lra. }
      pose proof (aba_perp ab ao) as E1. pose proof (aba_dot ab ao) as E2.
      unfold ab at 2 in E1. rewrite dot3_sub in E1. unfold ao at 2 in E2. rewrite dot3_neg_r in E2. split; lra. }
    destruct (negb ignore && Rltb 0 (dot3 (cross3 (sub3 vb va) abc) (neg3 va))) eqn:E1.
    { apply andb_true_iff in E1 as [_ E1]. apply Rltb_true in E1. left. apply (Hedge vb b Hb eq_refl abc). lra. }
    destruct (Rltb 0 (dot3 (cross3 abc (sub3 vc va)) (neg3 va))) eqn:E2.
    { apply Rltb_true in E2. left. apply (Hedge vc c Hc eq_refl (neg3 abc)).
      replace (dot3 (cross3 (sub3 vc va) (neg3 abc)) (neg3 va)) with (dot3 (cross3 abc (sub3 vc va)) (neg3 va)); [lra|].
      clear. rv0. ring. }
    destruct (above || Rltb 0 (dot3 abc (neg3 va))) eqn:E3; right.
    - exists c, b, a. repeat (split; [done|]). fold va. rewrite <- (Ropp_involutive (dot3 abc va)), <- dot3_neg_r.
      apply orb_true_iff in E3 as [E3|E3]; [specialize (Hn E3); fold va in Hn; lra|]. apply Rltb_true in E3. lra.
    - apply orb_false_iff in E3 as [_ E3]. apply Rltb_false in E3.
      exists b, c, a. repeat (split; [done|]). fold va vb vc. split; [rewrite Eabc; clear; rv0; f_equal; ring|].
      split; [by apply neg3_ne|]. rewrite dot3_neg_r in E3. rewrite (dot3_neg_l abc va). lra.
  Qed.

  Definition good3 (s : list (SupPt P3)) (d : P3) : Prop := edge3 s d \/ face3 s d.
  Lemma reduce3_edge b' b a d :
    edge3 [b'; b] d -> witness3 A B a -> 0 < dot3 d (sp_v a) ->
    exists s' d', reduce3 eps tenth [b'; b; a] d = (s', d', false) /\ good3 s' d'.
  Proof.
    intros (c & b0 & [= <- <-] & Hc & Hb & Hne & Hcb & Hdb) Ha Hda. unfold reduce3.
    set (abc := cross3 (sub3 (sp_v b) (sp_v a)) (sub3 (sp_v b') (sp_v a))).
    assert (Hnz : abc <> zero3).
    { unfold abc. intros E. apply Hne. symmetry. apply sub3_zero.
      (* b - c is parallel to b - a, and d kills the first but not the second *)
      assert (K : scale3 (sub3 (sp_v b) (sp_v b')) (dot3 d (sub3 (sp_v b) (sp_v a))) = zero3).
      { assert (E' : cross3 (sub3 (sp_v b) (sp_v a)) (sub3 (sp_v b) (sp_v b')) = zero3).
        { transitivity (neg3 (cross3 (sub3 (sp_v b) (sp_v a)) (sub3 (sp_v b') (sp_v a))));
            [clear; rv0; f_equal; ring|]. rewrite E. clear. rv0. f_equal; ring. }
        transitivity (add3 (cross3 d (cross3 (sub3 (sp_v b) (sp_v b')) (sub3 (sp_v b) (sp_v a))))
          (scale3 (sub3 (sp_v b) (sp_v a)) (dot3 d (sub3 (sp_v b) (sp_v b'))))); [clear; rv0; f_equal; ring|].
        rewrite dot3_sub. rewrite Hcb. 
        replace (cross3 (sub3 (sp_v b) (sp_v b')) (sub3 (sp_v b) (sp_v a))) with (neg3 (cross3 (sub3 (sp_v b) (sp_v a)) (sub3 (sp_v b) (sp_v b'))))
          by (clear; rv0; f_equal; ring).
        rewrite E'. clear. rv0. f_equal; ring. }
      assert (Hk : dot3 d (sub3 (sp_v b) (sp_v a)) <> 0) by (rewrite dot3_sub; lra).
      set (k := dot3 d (sub3 (sp_v b) (sp_v a))) in *. clearbody k.
      generalize dependent (sub3 (sp_v b) (sp_v b')). intros u K.
      pose proof (f_equal vx K) as Kx. pose proof (f_equal vy K) as Ky. pose proof (f_equal vz K) as Kz.
      unfold scale3, zero3 in Kx, Ky, Kz. rs.
      apply V3_eq; unfold zero3; rs; apply (Rmult_eq_reg_r k); lra. }
    pose proof (check_side_face b' b a abc false false ltac:(done) Hc Hb Ha eq_refl Hnz) as Hs.
    fold abc. destruct (check_side _ _ _ _ _ _ _ _ _) as [s' d']. exists s', d'. split; [done|]. exact Hs.
  Qed.
  Lemma reduce3_fallback c b a d :
    fallback3 [c; b] d -> witness3 A B a ->
    exists s' d', reduce3 eps tenth [c; b; a] d = (s', d', false) /\ (good3 s' d' \/ flat3 s' d').
  Proof.
    intros (c0 & b0 & [= <- <-] & Hc & Hb & Hd & Hcl) Ha. unfold reduce3.
    set (abc := cross3 (sub3 (sp_v b) (sp_v a)) (sub3 (sp_v c) (sp_v a))).
    destruct (Rle_lt_dec (dot3 abc abc) 0) as [Hz|Hz].
    - assert (Ez : abc = zero3).
      { apply V3_eq; unfold zero3; rs; rv0; nra. }
      rewrite Ez. unfold check_side. cbn [nlt n0 Num_R].
      rewrite (proj2 (Rltb_false _ _)); [|apply Req_le; clear; rv0; ring]. cbn [negb andb].
      rewrite (proj2 (Rltb_false _ _)); [|apply Req_le; clear; rv0; ring].
      rewrite (proj2 (Rltb_false _ _)); [|apply Req_le; clear; rv0; ring]. cbn [orb].
      eexists _, _. split; [done|]. right. exists c, b, a. repeat (split; [done|]).
      split; [clear; rv0; f_equal; ring|]. split; [done|]. exact Ez.
    - apply vec3_ne in Hz.
      pose proof (check_side_face c b a abc false false ltac:(done) Hc Hb Ha eq_refl Hz) as Hs.
      destruct (check_side _ _ _ _ _ _ _ _ _) as [s' d']. exists s', d'. split; [done|]. left. exact Hs.
  Qed.
  Definition hit3_ok (s : list (SupPt P3)) : Prop :=
    exists d c b a, s = [d; c; b; a] /\ witness3 A B d /\ witness3 A B c /\ witness3 A B b /\ witness3 A B a /\
      hull3 [sp_v d; sp_v c; sp_v b; sp_v a] zero3 /\
      dot3 (cross3 (sub3 (sp_v b) (sp_v a)) (sub3 (sp_v c) (sp_v a))) (sub3 (sp_v d) (sp_v a)) < 0.
  Lemma reduce3_face s a d :
    face3 s d -> witness3 A B a -> 0 < dot3 d (sp_v a) ->
    let '(s', d', inside) := reduce3 eps tenth (s ++ [a]) d in
    if inside then hit3_ok s' else good3 s' d'.
  Proof.
    intros (sd & sc & sb & -> & Hd & Hc & Hb & Ed & Hne & Hdb) Ha Hda. cbn [app]. unfold reduce3. cbn [nlt n0 Num_R].
    set (vd := sp_v sd) in *. set (vc := sp_v sc) in *. set (vb := sp_v sb) in *. set (va := sp_v a) in *.
    set (abc := cross3 (sub3 vb va) (sub3 vc va)). set (acd := cross3 (sub3 vc va) (sub3 vd va)).
    set (adb := cross3 (sub3 vd va) (sub3 vb va)).
    assert (Hdet : dot3 abc (sub3 vd va) < 0).
    { pose proof (det_base va vb vc vd) as E. fold abc in E. rewrite <- Ed in E. rewrite dot3_sub in E. lra. }
    assert (Hdet2 : dot3 acd (sub3 vb va) < 0).
    { replace (dot3 acd (sub3 vb va)) with (dot3 abc (sub3 vd va)) by (unfold acd, abc; clear; rv0; ring). done. }
    assert (Hdet3 : dot3 adb (sub3 vc va) < 0).
    { replace (dot3 adb (sub3 vc va)) with (dot3 abc (sub3 vd va)) by (unfold adb, abc; clear; rv0; ring). done. }
    destruct (Rltb 0 (dot3 abc (neg3 va))) eqn:E1.
    { apply Rltb_true in E1.
      pose proof (check_side_face sc sb a abc true false (fun _ => E1) Hc Hb Ha eq_refl) as Hs.
      fold va vb vc in Hs. destruct (check_side _ _ _ _ _ _ _ _ _) as [s' d']. apply Hs. by apply (dot3_ne_l _ (sub3 vd va)), Rlt_not_eq. }
    apply Rltb_false in E1.
    destruct (Rltb 0 (dot3 acd (neg3 va))) eqn:E2.
    { apply Rltb_true in E2.
      pose proof (check_side_face sd sc a acd true true (fun _ => E2) Hd Hc Ha eq_refl) as Hs.
      fold va vc vd in Hs. destruct (check_side _ _ _ _ _ _ _ _ _) as [s' d']. apply Hs. by apply (dot3_ne_l _ (sub3 vb va)), Rlt_not_eq. }
    apply Rltb_false in E2.
    destruct (Rltb 0 (dot3 adb (neg3 va))) eqn:E3.
    { apply Rltb_true in E3. right. exists sb, sd, a. repeat (split; [done|]).
      split; [by apply (dot3_ne_l _ (sub3 vc va)), Rlt_not_eq|]. fold va. rewrite dot3_neg_r in E3. lra. }
    apply Rltb_false in E3.
    exists sd, sc, sb, a. repeat (split; [done|]). fold va vb vc vd. split; [|exact Hdet].
    apply (tetra_origin va vb vc vd d); try done.
    - rewrite Ed. clear. rv0. ring.
    - rewrite Ed. clear. rv0. ring.
  Qed.

  (** *** The loop *)
  Lemma support_separates3 d s :
    d <> zero3 -> (forall v, mdiff3 A B v -> dot3 d v <= dot3 d (sp_v s)) -> dot3 d (sp_v s) <= 0 -> separated3 A B.
  Proof.
    intros Hd Hm Hle. exists d. split; [done|]. intros x y Hx Hy.
    specialize (Hm (sub3 x y) ltac:(by exists x, y)). clear -Hm Hle. rv0. lra.
  Qed.
  (** All of the three first support points lie on one line, which passes close to the
      origin. *)
  Definition flat_start : Prop := exists p q r, mdiff3 A B p /\ mdiff3 A B q /\ mdiff3 A B r /\
    close_line3 p q /\ cross3 (sub3 q r) (sub3 p r) = zero3.
  Definition outcome3 (o : gjk_out P3) : Prop :=
    match o with Hit s => hit3_ok s | Separated => separated3 A B \/ flat_start | Exhausted => True end.
  Notation loop := (gjk_loop sub3 neg3 dot3 supL supR (reduce3 eps tenth)).
  Lemma dot3_swap (x y : P3) : dot3 x y = dot3 y x.
  Proof. rv0. ring. Qed.
  Ltac step d Hd a Ea Ha Hm E :=
    destruct (mink3_spec d Hd) as (a & Ea & Ha & Hm); cbn [gjk_loop];
    change (mink sub3 neg3 supL supR d) with (mink3 supL supR d); rewrite Ea; cbn [mbind res_mbind res_bind];
    cbn [nle n0 Num_R]; destruct (Rleb (dot3 (sp_v a) d) 0) eqn:E;
    [apply Rleb_true in E; exists Separated; split; [done|]; left; eapply support_separates3; [done|done|by rewrite dot3_swap]
    |apply Rleb_false in E; rewrite dot3_swap in E].
  Lemma edge3_ne s d : edge3 s d -> d <> zero3.
  Proof. intros (b & a & _ & _ & _ & _ & _ & Hd). apply (dot3_ne_l d (sp_v a)). lra. Qed.
  Lemma loop3_good n s d : good3 s d -> exists o, loop n s d = Ok o /\ outcome3 o.
  Proof.
    revert s d. induction n as [|n IH]; intros s d Hs; [by exists Exhausted|].
    assert (Hd : d <> zero3).
    { destruct Hs as [Hs|(c & b & a & _ & _ & _ & _ & _ & Hd & _)]; [by eapply edge3_ne|done]. }
    step d Hd a Ea Ha Hm E. destruct Hs as [Hs|Hs].
    - pose proof Hs as (b' & b & -> & _). cbn [app].
      destruct (reduce3_edge b' b a d Hs Ha E) as (s' & d' & -> & Hg). by apply IH.
    - pose proof (reduce3_face s a d Hs Ha E) as Hr. destruct (reduce3 eps tenth (s ++ [a]) d) as [[s' d'] inside].
      destruct inside; [by exists (Hit s')|]. by apply IH.
  Qed.
  (** With the fallback direction, the outcome may rest on a vanished direction. *)
  Lemma loop3_fallback n s d o : fallback3 s d -> loop n s d = Ok o -> outcome3 o.
  Proof.
    intros Hs. destruct n as [|n]; [by intros [= <-]|].
    assert (Hd : d <> zero3) by (by destruct Hs as (b & a & _ & _ & _ & Hd & _)).
    destruct (mink3_spec d Hd) as (a & Ea & Ha & Hm). cbn [gjk_loop].
    change (mink sub3 neg3 supL supR d) with (mink3 supL supR d). rewrite Ea. cbn [mbind res_mbind res_bind].
    cbn [nle n0 Num_R]. destruct (Rleb (dot3 (sp_v a) d) 0) eqn:E.
    { apply Rleb_true in E. intros [= <-]. left. eapply support_separates3; [done|done|by rewrite dot3_swap]. }
    pose proof Hs as (c & b & -> & _). cbn [app].
    destruct (reduce3_fallback c b a d Hs Ha) as (s' & d' & -> & [Hg|Hf]).
    - intros Eo. destruct (loop3_good n s' d' Hg) as (o' & Eo' & Ho'). by assert (o' = o) as -> by congruence.
    - destruct n as [|n]; [by intros [= <-]|]. destruct Hf as (c' & b' & a' & -> & Hc & Hb & Ha' & -> & Hcl & Hcr).
      cbn [gjk_loop]. destruct (mink sub3 neg3 supL supR zero3) as [p| |]; cbn [mbind res_mbind res_bind]; [|done|done].
      cbn [nle n0 Num_R]. rewrite (proj2 (Rleb_true _ _)); [|apply Req_le; clear; rv0; ring]. intros [= <-]. right.
      exists (sp_v c'), (sp_v b'), (sp_v a'). repeat (split; [by apply witness3_mdiff|]). done.
  Qed.
  Lemma first_dir3_ne lpos rpos : first_dir (splat3 1) sub3 (near0_3 eps) lpos rpos <> zero3.
  Proof.
    unfold first_dir. destruct (near0_3 eps (sub3 rpos lpos)) eqn:E; [|by apply near0_3_false].
    intros E'. assert (1 = 0) by exact (f_equal vx E'). lra.
  Qed.
  Lemma gjk3_sound n lpos rpos o : gjk3_run eps tenth supL supR n lpos rpos = Ok o -> outcome3 o.
  Proof.
    unfold gjk3_run, gjk_run. cbv zeta. cbn [n1 Num_R].
    pose proof (first_dir3_ne lpos rpos) as Hd. set (d := first_dir _ _ _ _ _) in *.
    destruct (mink3_spec d Hd) as (b & Eb & Hb & Hm).
    change (mink sub3 neg3 supL supR d) with (mink3 supL supR d). rewrite Eb. cbn [mbind res_mbind res_bind].
    cbn [nle n0 Num_R]. destruct (Rleb (dot3 (sp_v b) d) 0) eqn:E.
    { apply Rleb_true in E. intros [= <-]. left. eapply support_separates3; [done|done|by rewrite dot3_swap]. }
    apply Rleb_false in E. clearbody d. destruct n as [|n]; [by intros [= <-]|].
    assert (Hd' : neg3 d <> zero3) by by apply neg3_ne.
    destruct (mink3_spec (neg3 d) Hd') as (a & Ea & Ha & Hm'). cbn [gjk_loop].
    change (mink sub3 neg3 supL supR (neg3 d)) with (mink3 supL supR (neg3 d)). rewrite Ea. cbn [mbind res_mbind res_bind].
    cbn [nle n0 Num_R]. destruct (Rleb (dot3 (sp_v a) (neg3 d)) 0) eqn:E2.
    { apply Rleb_true in E2. intros [= <-]. left. eapply support_separates3; [done|done|by rewrite dot3_swap]. }
    apply Rleb_false in E2. rewrite dot3_swap in E2. cbn [app].
    destruct (reduce3_two b a (neg3 d) Hb Ha) as (d' & -> & [He|Hf]); [|done| |].
    - rewrite dot3_neg_l. rewrite dot3_swap. lra.
    - intros Eo. destruct (loop3_good n _ _ (or_introl He)) as (o' & Eo' & Ho'). by assert (o' = o) as -> by congruence.
    - by apply loop3_fallback.
  Qed.
End gjk3.
