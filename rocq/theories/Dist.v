(** Closest points of simplices: what [get_closest_point_to_origin] returns. *)
From Coq Require Import Psatz.
From stdpp Require Import prelude.
From Coq Require Import Reals Lra.
From Verif Require Import Res Num Vec AabbModel GeoModel RealGeo PrimModel ShapeSpec MinkModel MinkSpec Gjk2 Gjk3 PropsGjk2 PropsGjk3 PropsPlane.
Local Open Scope R_scope.

(** ** The plane *)
Lemma closest_on_edge2_spec (a b : P2) :
  let c := closest_on_edge2 a b zero2 in
  exists t, 0 <= t <= 1 /\ c = add2 (scale2 a (1 - t)) (scale2 b t) /\ dot2 c c <= dot2 c a /\ dot2 c c <= dot2 c b.
Proof.
  cbv zeta. unfold closest_on_edge2, normalize2. cbn [nlt nmul n0 n1 ndiv Num_R].
  pose proof (mag2_sqr (sub2 b a)) as Hs. unfold mag2_2. pose proof (mag2_nonneg (sub2 b a)) as Hm0.
  set (m := mag2 (sub2 b a)) in *. set (line := sub2 b a) in *.
  assert (Eb : b = add2 a line) by (unfold line; apply V2_eq; rv0; ring).
  set (d := dot2 (sub2 zero2 a) (scale2 line (1 / m))).
  assert (Ed : d = - (dot2 a line) * (1 / m)) by (unfold d; clearbody line m; clear; unfold zero2; rv0; ring).
  clearbody d. rewrite Eb. clearbody line m. clear Eb b.
  destruct (Req_dec m 0) as [E|E].
  - subst m. assert (line = zero2) as ->.
    { destruct (Req_dec (dot2 line line) 0) as [E|E]; [|lra]. destruct (Rle_lt_dec (dot2 line line) 0) as [Hl|Hl]; [|lra].
      clear -Hl. apply V2_eq; unfold zero2; rs; rv0; nra. }
    assert (d = 0) as ->.
    { rewrite Ed. replace (dot2 a zero2) with 0 by (clear; unfold zero2; rv0; ring). ring. }
    rewrite (proj2 (Rltb_false 0 0)) by lra. rewrite (proj2 (Rltb_false _ _)) by (clear; unfold zero2; rv0; lra).
    exists 0. split; [lra|]. split; [clear; unfold zero2; apply V2_eq; rv0; ring|]. clear. unfold zero2. rv0. split; nra.
  - assert (Hm : 0 < m) by lra. assert (Hdm : dot2 a line = - (d * m)) by (rewrite Ed; field; lra). clear Ed.
    assert (Hla : dot2 line a = - (d * m)) by by rewrite dot2_comm.
    destruct (Rltb d 0) eqn:E1; [apply Rltb_true in E1|apply Rltb_false in E1].
    { exists 0. split; [lra|]. split; [clear; apply V2_eq; rv0; ring|]. split; [lra|].
      replace (dot2 a (add2 a line)) with (dot2 a a + dot2 a line) by (clear; rv0; ring). nra. }
    destruct (Rltb (dot2 line line) (d * d)) eqn:E2; [apply Rltb_true in E2|apply Rltb_false in E2].
    { exists 1. split; [lra|]. split; [clear; apply V2_eq; rv0; ring|]. split; [|lra].
      replace (dot2 (add2 a line) (add2 a line)) with (dot2 (add2 a line) a + dot2 a line + dot2 line line) by (clear; rv0; ring).
      assert (m < d) by nra. nra. }
    assert (Hdm2 : d <= m) by nra. exists (d / m).
    assert (Hq : 0 <= d / m <= 1).
    { split; [apply Rmult_le_pos; [done|left; by apply Rinv_0_lt_compat]|]. apply (Rmult_le_reg_r m); [done|]. field_simplify; lra. }
    split; [done|]. set (q := d / m) in *. assert (Eq : d = q * m) by (unfold q; field; lra). clearbody q. subst d.
    assert (Esc : scale2 (scale2 line (1 / m)) (q * m) = scale2 line q) by (clear -E; apply V2_eq; rv0; field; done). rewrite Esc.
    split; [clear; apply V2_eq; rv0; ring|].
    assert (Hperp : dot2 (add2 a (scale2 line q)) line = 0).
    { transitivity (dot2 a line + q * dot2 line line); [clear; rv0; ring|]. rewrite Hdm, <- Hs. ring. }
    set (c := add2 a (scale2 line q)) in *. assert (Ec : a = sub2 c (scale2 line q)) by (unfold c; clear; apply V2_eq; rv0; ring).
    clearbody c. rewrite Ec. replace (dot2 c (sub2 c (scale2 line q))) with (dot2 c c - q * dot2 c line) by (clear; rv0; ring).
    replace (dot2 c (add2 (sub2 c (scale2 line q)) line)) with (dot2 c c - q * dot2 c line + dot2 c line) by (clear; rv0; ring).
    rewrite Hperp. lra.
Qed.

(** [c] is the point closest to the origin of the hull of two points: it belongs to it and
    no point of it is lower in the direction of [c]. *)
Definition nearest2 (l : list (SupPt P2)) (c : P2) : Prop :=
  hull2 (sp_v <$> l) c /\ forall s, s ∈ l -> dot2 c c <= dot2 c (sp_v s).

Lemma reduce2_shape eps l (d : P2) : (1 <= length l <= 3)%nat ->
  let '(l', d', inside) := reduce2 eps l d in
  (inside = true /\ l' = l /\ d' = d) \/ (inside = false /\ (1 <= length l' <= 2)%nat /\ l' ⊆ l).
Proof.
  intros Hl. destruct l as [|x [|y [|z [|]]]]; cbn in Hl; try lia.
  - right. cbn. split; [done|]. split; [lia|done].
  - right. cbn. split; [done|]. split; [lia|done].
  - unfold reduce2. cbv zeta. destruct (nlt _ _); [right; split; [done|]; split; [cbn; lia|set_solver]|].
    destruct (nlt _ _); [right; split; [done|]; split; [cbn; lia|set_solver]|]. by left.
Qed.
(** In the plane the closest point is computed without panic; it is the closest point of
    what is left of the simplex, unless the simplex is taken to enclose the origin. *)
Lemma closest2_spec eps l : (1 <= length l <= 3)%nat ->
  exists l' c, closest2 eps l = Ok (l', c) /\ l' ⊆ l /\ (1 <= length l' <= 3)%nat /\
    (c = zero2 \/ ((length l' <= 2)%nat /\ nearest2 l' c)).
Proof.
  intros Hl. unfold closest2. pose proof (reduce2_shape eps l zero2 Hl) as Hr.
  destruct (reduce2 eps l zero2) as [[l' d'] inside]. destruct Hr as [(-> & -> & ->)|(-> & Hl' & Hsub)].
  - exists l, zero2. split; [done|]. split; [done|]. split; [lia|by left].
  - destruct l' as [|p0 [|p1 [|]]]; cbn in Hl'; try lia.
    + exists [p0], (sp_v p0). split; [done|]. split; [done|]. split; [cbn; lia|]. right. split; [cbn; lia|]. split.
      * apply hull2_vertex. cbn. set_solver.
      * intros s ->%elem_of_list_singleton. lra.
    + destruct (closest_on_edge2_spec (sp_v p1) (sp_v p0)) as (t & Ht & Ec & H1 & H2). set (c := closest_on_edge2 _ _ _) in *.
      exists [p0; p1], c. split; [done|]. split; [done|]. split; [cbn; lia|]. right. split; [cbn; lia|]. split.
      * rewrite Ec. apply hull2_mix; [apply hull2_vertex; cbn; set_solver|apply hull2_vertex; cbn; set_solver|done].
      * intros s Hs. assert (s = p0 \/ s = p1) as [-> | ->] by set_solver; done.
Qed.
Lemma closest2_two eps p0 p1 : exists c, closest2 eps [p0; p1] = Ok ([p0; p1], c) /\ nearest2 [p0; p1] c.
Proof.
  destruct (closest_on_edge2_spec (sp_v p1) (sp_v p0)) as (t & Ht & Ec & H1 & H2).
  exists (closest_on_edge2 (sp_v p1) (sp_v p0) zero2). split; [done|]. set (c := closest_on_edge2 _ _ _) in *. split.
  - rewrite Ec. apply hull2_mix; [apply hull2_vertex; cbn; set_solver|apply hull2_vertex; cbn; set_solver|done].
  - intros s Hs. assert (s = p0 \/ s = p1) as [-> | ->] by set_solver; done.
Qed.

(** ** Space *)
Lemma closest_on_edge3_spec (a b : P3) :
  let c := closest_on_edge3 a b zero3 in
  exists t, 0 <= t <= 1 /\ c = add3 (scale3 a (1 - t)) (scale3 b t) /\ dot3 c c <= dot3 c a /\ dot3 c c <= dot3 c b.
Proof.
  cbv zeta. unfold closest_on_edge3, normalize3. cbn [nlt nmul n0 n1 ndiv Num_R].
  pose proof (mag3_sqr (sub3 b a)) as Hs. unfold mag2_3. pose proof (mag3_nonneg (sub3 b a)) as Hm0.
  set (m := mag3 (sub3 b a)) in *. set (line := sub3 b a) in *.
  assert (Eb : b = add3 a line) by (unfold line; apply V3_eq; rv0; ring).
  set (d := dot3 (sub3 zero3 a) (scale3 line (1 / m))).
  assert (Ed : d = - (dot3 a line) * (1 / m)) by (unfold d; clearbody line m; clear; unfold zero3; rv0; ring).
  clearbody d. rewrite Eb. clearbody line m. clear Eb b.
  destruct (Req_dec m 0) as [E|E].
  - subst m. assert (line = zero3) as ->.
    { destruct (Req_dec (dot3 line line) 0) as [E|E]; [|lra]. destruct (Rle_lt_dec (dot3 line line) 0) as [Hl|Hl]; [|lra].
      clear -Hl. apply V3_eq; unfold zero3; rs; rv0; nra. }
    assert (d = 0) as ->.
    { rewrite Ed. replace (dot3 a zero3) with 0 by (clear; unfold zero3; rv0; ring). ring. }
    rewrite (proj2 (Rltb_false 0 0)) by lra. rewrite (proj2 (Rltb_false _ _)) by (clear; unfold zero3; rv0; lra).
    exists 0. split; [lra|]. split; [clear; unfold zero3; apply V3_eq; rv0; ring|]. clear. unfold zero3. rv0. split; nra.
  - assert (Hm : 0 < m) by lra. assert (Hdm : dot3 a line = - (d * m)) by (rewrite Ed; field; lra). clear Ed.
    assert (Hla : dot3 line a = - (d * m)) by by rewrite dot3_comm.
    destruct (Rltb d 0) eqn:E1; [apply Rltb_true in E1|apply Rltb_false in E1].
    { exists 0. split; [lra|]. split; [clear; apply V3_eq; rv0; ring|]. split; [lra|].
      replace (dot3 a (add3 a line)) with (dot3 a a + dot3 a line) by (clear; rv0; ring). nra. }
    destruct (Rltb (dot3 line line) (d * d)) eqn:E2; [apply Rltb_true in E2|apply Rltb_false in E2].
    { exists 1. split; [lra|]. split; [clear; apply V3_eq; rv0; ring|]. split; [|lra].
      replace (dot3 (add3 a line) (add3 a line)) with (dot3 (add3 a line) a + dot3 a line + dot3 line line) by (clear; rv0; ring).
      assert (m < d) by nra. nra. }
    assert (Hdm2 : d <= m) by nra. exists (d / m).
    assert (Hq : 0 <= d / m <= 1).
    { split; [apply Rmult_le_pos; [done|left; by apply Rinv_0_lt_compat]|]. apply (Rmult_le_reg_r m); [done|]. field_simplify; lra. }
    split; [done|]. set (q := d / m) in *. assert (Eq : d = q * m) by (unfold q; field; lra). clearbody q. subst d.
    assert (Esc : scale3 (scale3 line (1 / m)) (q * m) = scale3 line q) by (clear -E; apply V3_eq; rv0; field; done). rewrite Esc.
    split; [clear; apply V3_eq; rv0; ring|].
    assert (Hperp : dot3 (add3 a (scale3 line q)) line = 0).
    { transitivity (dot3 a line + q * dot3 line line); [clear; rv0; ring|]. rewrite Hdm, <- Hs. ring. }
    set (c := add3 a (scale3 line q)) in *. assert (Ec : a = sub3 c (scale3 line q)) by (unfold c; clear; apply V3_eq; rv0; ring).
    clearbody c. rewrite Ec. replace (dot3 c (sub3 c (scale3 line q))) with (dot3 c c - q * dot3 c line) by (clear; rv0; ring).
    replace (dot3 c (add3 (sub3 c (scale3 line q)) line)) with (dot3 c c - q * dot3 c line + dot3 c line) by (clear; rv0; ring).
    rewrite Hperp. lra.
Qed.
Definition nearest3 (l : list (SupPt P3)) (c : P3) : Prop :=
  hull3 (sp_v <$> l) c /\ forall s, s ∈ l -> dot3 c c <= dot3 c (sp_v s).

(** Barycentric coordinates of a point of the plane of the triangle. *)
Lemma bary3_plane (p a b c : P3) :
  let n := cross3 (sub3 b a) (sub3 c a) in
  n <> zero3 -> dot3 n (sub3 p a) = 0 ->
  let '(u, v, w) := bary3 p a b c in
  u + v + w = 1 /\ p = add3 (add3 (scale3 a u) (scale3 b v)) (scale3 c w).
Proof.
  cbv zeta. intros Hn Hp. unfold bary3. cbn [nsub nmul ndiv n1 Num_R].
  apply vec3_ne in Hn. set (e := sub3 b a) in *. set (f := sub3 c a) in *. set (g := sub3 p a) in *.
  assert (Eb : b = add3 a e) by (unfold e; clear; apply V3_eq; rv0; ring).
  assert (Ec : c = add3 a f) by (unfold f; clear; apply V3_eq; rv0; ring).
  assert (Ep : p = add3 a g) by (unfold g; clear; apply V3_eq; rv0; ring).
  clearbody e f g. subst b c p.
  assert (Hdet : dot3 (cross3 e f) (cross3 e f) = dot3 e e * dot3 f f - dot3 e f * dot3 e f) by (clear; rv0; ring).
  rewrite <- Hdet. set (D := dot3 (cross3 e f) (cross3 e f)) in *.
  set (v := (dot3 f f * dot3 g e - dot3 e f * dot3 g f) * (1 / D)). set (w := (dot3 e e * dot3 g f - dot3 e f * dot3 g e) * (1 / D)).
  split; [lra|].
  set (q := sub3 g (add3 (scale3 e v) (scale3 f w))).
  assert (Q1 : dot3 q e = 0).
  { transitivity (dot3 g e - v * dot3 e e - w * dot3 e f); [unfold q; clearbody v w; clear; rv0; ring|].
    apply (Rmult_eq_reg_r D); [|lra]. rewrite Rmult_0_l. unfold v, w. field_simplify; [|lra]. rewrite Hdet. ring. }
  assert (Q2 : dot3 q f = 0).
  { transitivity (dot3 g f - v * dot3 e f - w * dot3 f f); [unfold q; clearbody v w; clear; rv0; ring|].
    apply (Rmult_eq_reg_r D); [|lra]. rewrite Rmult_0_l. unfold v, w. field_simplify; [|lra]. rewrite Hdet. ring. }
  assert (Q3 : dot3 q (cross3 e f) = 0).
  { transitivity (dot3 (cross3 e f) g); [unfold q; clearbody v w; clear; rv0; ring|done]. }
  assert (Hz : q = zero3).
  { assert (Hqq : dot3 q q * D = 0).
    { transitivity (dot3 q (cross3 e f) * dot3 q (cross3 e f) + dot3 (cross3 q (cross3 e f)) (cross3 q (cross3 e f))).
      - unfold D. clearbody q. clear. rv0. ring.
      - assert (Ecr : cross3 q (cross3 e f) = sub3 (scale3 e (dot3 q f)) (scale3 f (dot3 q e))) by (clearbody q; clear; apply V3_eq; rv0; ring).
        rewrite Ecr, Q1, Q2, Q3. clear. rv0. ring. }
    apply Rmult_integral in Hqq as [Hqq|]; [|lra]. clearbody q. clear -Hqq. apply V3_eq; unfold zero3; rs; rv0; nra. }
  assert (Eg : g = add3 (scale3 e v) (scale3 f w)).
  { apply sub3_zero. exact Hz. }
  rewrite Eg at 1. clearbody v w. clear. apply V3_eq; rv0; ring.
Qed.
Lemma closest_on_face_spec eps (a b c n r : P3) k : 0 <= eps ->
  n = scale3 (cross3 (sub3 b a) (sub3 c a)) k -> closest_on_face eps a b c n = Ok r ->
  r = zero3 \/ (exists u v w, 0 <= u /\ 0 <= v /\ 0 <= w /\ u + v + w = 1 /\ r = add3 (add3 (scale3 a u) (scale3 b v)) (scale3 c w)) /\
    dot3 r r = dot3 r a /\ dot3 r r = dot3 r b /\ dot3 r r = dot3 r c.
Proof.
  intros He En. unfold closest_on_face. destruct (plane_from_points eps a b c) as [pl|] eqn:Epl; [|done].
  destruct (plane_ray pl _) as [q|] eqn:Eq; [|intros [= <-]; by left].
  assert (Hnz : cross3 (sub3 b a) (sub3 c a) <> zero3 /\ exists k', 0 < k' /\ pl = mkPlane (scale3 (cross3 (sub3 b a) (sub3 c a)) k') (- dot3 a (scale3 (cross3 (sub3 b a) (sub3 c a)) k'))).
  { unfold plane_from_points in Epl. destruct (near0_3 _ _) eqn:E; [done|]. apply (Gjk3.near0_3_false eps He) in E. split; [done|].
    injection Epl as <-. exists (1 / mag3 (cross3 (sub3 b a) (sub3 c a))). split; [|done]. apply Rdiv_lt_0_compat; [lra|by apply mag3_pos]. }
  destruct Hnz as [Hnz (k' & Hk' & Epl')]. set (m := cross3 (sub3 b a) (sub3 c a)) in *.
  pose proof (proj1 (vec3_ne m) Hnz) as Hmm.
  assert (Hq : exists t, q = scale3 m t).
  { unfold plane_ray in Eq. cbv zeta in Eq. destruct (nlt _ _); [done|]. injection Eq as <-. rewrite En. cbn [origin direction].
    assert (Ht : forall t, add3 zero3 (scale3 (neg3 (scale3 m k)) t) = scale3 m (- k * t)) by (intros t; clearbody m; clear; unfold zero3; apply V3_eq; rv0; ring).
    rewrite Ht. by eexists. }
  destruct (Req_dec (dot3 (neg3 n) (pl_n pl)) 0) as [E0|E0].
  { (* the normal given is zero *)
    assert (k = 0) as ->.
    { rewrite Epl' in E0. cbn [pl_n] in E0. rewrite En in E0.
      assert (- (k * k') * dot3 m m = 0) as E0' by (rewrite <- E0; clearbody m; clear; rv0; ring).
      apply Rmult_integral in E0' as [?|?]; [nra|lra]. }
    assert (q = zero3) as ->.
    { unfold plane_ray in Eq. cbv zeta in Eq. destruct (nlt _ _); [done|]. injection Eq as <-. rewrite En. cbn [origin direction].
      assert (Ht : forall t, add3 zero3 (scale3 (neg3 (scale3 m 0)) t) = zero3) by (intros t; clearbody m; clear; unfold zero3; apply V3_eq; rv0; ring).
      by rewrite Ht. }
    destruct (bary3 _ _ _ _) as [[u v] w]. destruct (_ && _); [|done]. intros [= <-]. by left. }
  pose proof (C36_ray_hits_negated_plane pl (mkRay zero3 (neg3 n)) E0) as [Hray _]. rewrite Eq in Hray. destruct Hray as (t & _ & _ & Hpl & _).
  rewrite Epl' in Hpl. cbn [pl_n pl_d] in Hpl.
  assert (Hin : dot3 m (sub3 q a) = 0).
  { assert (k' * dot3 m (sub3 q a) = 0) as E; [|apply Rmult_integral in E as [?|?]; lra].
    transitivity (dot3 (scale3 m k') q - dot3 a (scale3 m k')); [clearbody m; clear; rv0; ring|]. lra. }
  pose proof (bary3_plane q a b c Hnz Hin) as Hb. destruct (bary3 q a b c) as [[u v] w]. destruct Hb as [Hsum Hcomb].
  destruct (in_range u && in_range v && in_range w) eqn:Er; [|done]. intros [= <-]. right.
  unfold in_range in Er. cbn [nle n0 n1 Num_R] in Er. rewrite !andb_true_iff, !Rleb_true in Er. destruct Er as [[[Hu _] [Hv _]] [Hw _]].
  split; [by exists u, v, w|].
  destruct Hq as [s Hs].
  assert (Hperp : forall e, dot3 m e = 0 -> dot3 q e = 0).
  { intros e Hme. rewrite Hs. transitivity (s * dot3 m e); [clearbody m; clear; rv0; ring|]. rewrite Hme. ring. }
  assert (Ha : dot3 q (sub3 q a) = 0) by (by apply Hperp).
  assert (Hbb : dot3 q (sub3 b a) = 0) by (apply Hperp; unfold m; clear; rv0; ring).
  assert (Hc : dot3 q (sub3 c a) = 0) by (apply Hperp; unfold m; clear; rv0; ring).
  rewrite !dot3_sub in Ha, Hbb, Hc. lra.
Qed.

Lemma hull3_three vs (a b c : P3) u v w : a ∈ vs -> b ∈ vs -> c ∈ vs -> 0 <= u -> 0 <= v -> 0 <= w -> u + v + w = 1 ->
  hull3 vs (add3 (add3 (scale3 a u) (scale3 b v)) (scale3 c w)).
Proof.
  intros Ha Hb Hc Hu Hv Hw Hs. destruct (Req_dec (u + v) 0) as [E|E].
  - assert (u = 0) as -> by lra. assert (v = 0) as -> by lra. assert (w = 1) as -> by lra.
    replace (add3 _ _) with c by (clear; apply V3_eq; rv0; ring). by apply hull3_vertex.
  - assert (Hmid : hull3 vs (add3 (scale3 a (u / (u + v))) (scale3 b (v / (u + v))))).
    { apply hull3_comb2; [by apply hull3_vertex|by apply hull3_vertex| | |field; lra].
      - apply Rmult_le_pos; [done|]. left. apply Rinv_0_lt_compat. lra.
      - apply Rmult_le_pos; [done|]. left. apply Rinv_0_lt_compat. lra. }
    replace (add3 (add3 (scale3 a u) (scale3 b v)) (scale3 c w)) with
      (add3 (scale3 (add3 (scale3 a (u / (u + v))) (scale3 b (v / (u + v)))) (u + v)) (scale3 c w)).
    2:{ clear -E. apply V3_eq; rv0; field; lra. }
    apply hull3_comb2; [done|by apply hull3_vertex|lra|lra|lra].
Qed.

Lemma check_side_shape abc ab ac ao sc sb sa above ign :
  let '(l, d) := check_side (S := R) abc ab ac ao sc sb sa above ign in
  (l = [sb; sa] \/ l = [sc; sa]) \/ (l = [sc; sb; sa] /\ d = abc) \/ (l = [sb; sc; sa] /\ d = neg3 abc).
Proof.
  unfold check_side. cbv zeta. destruct (_ && _); [auto|]. destruct (nlt _ _); [auto|]. destruct (_ || _); auto.
Qed.
(** The reduced simplex; if it is a triangle, the direction is normal to it. *)
Lemma reduce3_shape eps tenth l (d : P3) : (1 <= length l <= 4)%nat ->
  let '(l', d', inside) := reduce3 eps tenth l d in
  (inside = true /\ l' = l /\ d' = d) \/
  (inside = false /\ l' ⊆ l /\ ((1 <= length l' <= 2)%nat \/ exists p0 p1 p2 k, l' = [p0; p1; p2] /\
     d' = scale3 (cross3 (sub3 (sp_v p1) (sp_v p2)) (sub3 (sp_v p0) (sp_v p2))) k)).
Proof.
  intros Hl. assert (H1 : forall v : P3, v = scale3 v 1) by (intros; clear; apply V3_eq; rv0; ring).
  assert (Hm1 : forall x y : P3, neg3 (cross3 x y) = scale3 (cross3 y x) 1) by (intros; clear; apply V3_eq; rv0; ring).
  destruct l as [|x [|y [|z [|t [|]]]]]; cbn in Hl; try lia.
  - right. cbn. split; [done|]. split; [done|]. left. cbn. lia.
  - right. cbn. split; [done|]. split; [done|]. left. cbn. lia.
  - unfold reduce3. cbv zeta. pose proof (check_side_shape (cross3 (sub3 (sp_v y) (sp_v z)) (sub3 (sp_v x) (sp_v z))) (sub3 (sp_v y) (sp_v z)) (sub3 (sp_v x) (sp_v z)) (neg3 (sp_v z)) x y z false false) as Hc.
    destruct (check_side _ _ _ _ _ _ _ _ _) as [l' d']. right. split; [done|].
    destruct Hc as [[-> | ->]|[(-> & ->)|(-> & ->)]].
    + split; [set_solver|]. left. cbn. lia.
    + split; [set_solver|]. left. cbn. lia.
    + split; [done|]. right. exists x, y, z, 1. by rewrite <- H1.
    + split; [set_solver|]. right. exists y, x, z, 1. by rewrite <- Hm1.
  - unfold reduce3. cbv zeta. destruct (nlt _ _).
    + pose proof (check_side_shape (cross3 (sub3 (sp_v z) (sp_v t)) (sub3 (sp_v y) (sp_v t))) (sub3 (sp_v z) (sp_v t)) (sub3 (sp_v y) (sp_v t)) (neg3 (sp_v t)) y z t true false) as Hc.
      destruct (check_side _ _ _ _ _ _ _ _ _) as [l' d']. right. split; [done|].
      destruct Hc as [[-> | ->]|[(-> & ->)|(-> & ->)]].
      * split; [set_solver|]. left. cbn. lia.
      * split; [set_solver|]. left. cbn. lia.
      * split; [set_solver|]. right. exists y, z, t, 1. by rewrite <- H1.
      * split; [set_solver|]. right. exists z, y, t, 1. by rewrite <- Hm1.
    + destruct (nlt _ _).
      * pose proof (check_side_shape (cross3 (sub3 (sp_v y) (sp_v t)) (sub3 (sp_v x) (sp_v t))) (sub3 (sp_v y) (sp_v t)) (sub3 (sp_v x) (sp_v t)) (neg3 (sp_v t)) x y t true true) as Hc.
        destruct (check_side _ _ _ _ _ _ _ _ _) as [l' d']. right. split; [done|].
        destruct Hc as [[-> | ->]|[(-> & ->)|(-> & ->)]].
        -- split; [set_solver|]. left. cbn. lia.
        -- split; [set_solver|]. left. cbn. lia.
        -- split; [set_solver|]. right. exists x, y, t, 1. by rewrite <- H1.
        -- split; [set_solver|]. right. exists y, x, t, 1. by rewrite <- Hm1.
      * destruct (nlt _ _); [|by left]. right. split; [done|]. split; [set_solver|]. right. exists z, x, t, 1. by rewrite <- H1.
Qed.
(** In space the computation can panic (a degenerate face); if it returns, the point is the
    closest one of what is left of the simplex, or zero. *)
Lemma closest3_spec eps tenth l l' c : 0 <= eps -> (1 <= length l <= 4)%nat -> closest3 eps tenth l = Ok (l', c) ->
  l' ⊆ l /\ (1 <= length l' <= 4)%nat /\ (c = zero3 \/ ((length l' <= 3)%nat /\ nearest3 l' c)).
Proof.
  intros He Hl. unfold closest3. pose proof (reduce3_shape eps tenth l zero3 Hl) as Hr.
  destruct (reduce3 eps tenth l zero3) as [[s d'] inside]. destruct Hr as [(-> & -> & ->)|(-> & Hsub & Hs)].
  - intros [= <- <-]. split; [done|]. split; [lia|by left].
  - destruct Hs as [Hs|(p0 & p1 & p2 & k & -> & Hd)].
    + destruct s as [|p0 [|p1 [|]]]; cbn in Hs; try lia.
      * intros [= <- <-]. split; [done|]. split; [cbn; lia|]. right. split; [cbn; lia|]. split.
        -- apply hull3_vertex. cbn. set_solver.
        -- intros s ->%elem_of_list_singleton. lra.
      * intros [= <- <-]. destruct (closest_on_edge3_spec (sp_v p1) (sp_v p0)) as (t & Ht & Ec & H1 & H2). set (c' := closest_on_edge3 _ _ _) in *.
        split; [done|]. split; [cbn; lia|]. right. split; [cbn; lia|]. split.
        -- rewrite Ec. apply hull3_mix; [apply hull3_vertex; cbn; set_solver|apply hull3_vertex; cbn; set_solver|done].
        -- intros s Hs'. assert (s = p0 \/ s = p1) as [-> | ->] by set_solver; done.
    + destruct (closest_on_face _ _ _ _ _) as [r| |] eqn:Ef; cbn [mbind res_mbind res_bind]; try done. intros [= <- <-].
      split; [done|]. split; [cbn; lia|].
      destruct (closest_on_face_spec eps _ _ _ _ _ k He Hd Ef) as [->|((u & v & w & Hu & Hv & Hw & Hsum & Er) & E1 & E2 & E3)]; [by left|].
      right. split; [cbn; lia|]. split.
      * rewrite Er. apply hull3_three; try done; cbn; set_solver.
      * intros s Hs'. assert (s = p0 \/ s = p1 \/ s = p2) as [-> | [-> | ->]] by set_solver; lra.
Qed.
