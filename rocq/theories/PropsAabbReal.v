(** C25 (geometric reading), C26, C31: boxes over the reals; and the part of C26 that
    holds for every ordered scalar. *)
From stdpp Require Import prelude.
From Coq Require Import Reals Lra Psatz.
From Verif Require Import Num Vec AabbModel PropsAabb.

Lemma Le_R (x y : R) : Le x y <-> (x <= y)%R. Proof. apply Rleb_true. Qed.
Lemma Lt_R (x y : R) : Lt_ x y <-> (x < y)%R. Proof. apply Rltb_true. Qed.
Lemma Eqn_R (x y : R) : Eqn x y <-> x = y. Proof. apply Reqb_true. Qed.

(** ** C26, any ordered scalar: the result is the least box containing the images of the corners. *)
Section order.
  Context {S : Type} `{NumOrd S}.
  Lemma foldl_grow2 (ps : list (V2 S)) b : box2 b -> Forall ok2 ps ->
    let r := foldl grow2 b ps in
    box2 r /\ subset2 b r /\ Forall (in2 r) ps
    /\ forall c, subset2 b c -> Forall (in2 c) ps -> subset2 r c.
  Proof.
    revert b. induction ps as [|p ps IH]; intros b Hb Hps; simpl.
    - split_and!; auto; by intros ?.
    - apply Forall_cons in Hps as [Hp Hps]. destruct (grow2_spec b p Hb Hp) as (G1 & G2 & G3 & G4).
      destruct (IH _ G1 Hps) as (I1 & I2 & I3 & I4). split_and!; auto.
      + intros q Hq. auto.
      + intros c Hc [? ?]%Forall_cons. apply I4; auto.
  Qed.
  Lemma foldl_grow3 (ps : list (V3 S)) b : box3 b -> Forall ok3 ps ->
    let r := foldl grow3 b ps in
    box3 r /\ subset3 b r /\ Forall (in3 r) ps
    /\ forall c, subset3 b c -> Forall (in3 c) ps -> subset3 r c.
  Proof.
    revert b. induction ps as [|p ps IH]; intros b Hb Hps; simpl.
    - split_and!; auto; by intros ?.
    - apply Forall_cons in Hps as [Hp Hps]. destruct (grow3_spec b p Hb Hp) as (G1 & G2 & G3 & G4).
      destruct (IH _ G1 Hps) as (I1 & I2 & I3 & I4). split_and!; auto.
      + intros q Hq. auto.
      + intros c Hc [? ?]%Forall_cons. apply I4; auto.
  Qed.
  Theorem C26_transform2_least_over_corners (b : Aabb2 S) (T : V2 S -> V2 S) :
    Forall (fun c => ok2 (T c)) (corners2 b) ->
    box2 (transform2 b T) /\ least2 (fun r => Forall (fun c => in2 r (T c)) (corners2 b)) (transform2 b T).
  Proof.
    unfold corners2. rewrite Forall_cons. intros [Hz0 Hps].
    destruct (new2_spec _ _ Hz0 Hz0) as (N1 & N2 & _ & N4).
    apply (proj2 (Forall_fmap T ok2 _)) in Hps.
    destruct (foldl_grow2 _ _ N1 Hps) as (F1 & F2 & F3 & F4).
    rewrite Forall_fmap in F3. split; [exact F1|]. split.
    - unfold least2. apply Forall_cons. split; [|exact F3]. apply F2, N2.
    - intros c [Hc Hcs]%Forall_cons. apply F4; [by apply N4|]. by rewrite Forall_fmap.
  Qed.
  Theorem C26_transform3_least_over_corners (b : Aabb3 S) (T : V3 S -> V3 S) :
    Forall (fun c => ok3 (T c)) (corners3 b) ->
    box3 (transform3 b T) /\ least3 (fun r => Forall (fun c => in3 r (T c)) (corners3 b)) (transform3 b T).
  Proof.
    unfold corners3. cbv zeta. rewrite Forall_cons. intros [Hz0 Hps].
    destruct (new3_spec _ _ Hz0 Hz0) as (N1 & N2 & _ & N4).
    apply (proj2 (Forall_fmap T ok3 _)) in Hps.
    destruct (foldl_grow3 _ _ N1 Hps) as (F1 & F2 & F3 & F4).
    rewrite Forall_fmap in F3. split; [exact F1|]. split.
    - apply Forall_cons. split; [|exact F3]. apply F2, N2.
    - intros c [Hc Hcs]%Forall_cons. apply F4; [by apply N4|]. by rewrite Forall_fmap.
  Qed.
End order.

Local Open Scope R_scope.
(** ** C26 over the reals: affine maps of the plane and of space. *)
Definition affine2 (T : V2 R -> V2 R) : Prop :=
  exists a b e c d f, forall p, T p = mk2 (a * ux p + b * uy p + e) (c * ux p + d * uy p + f).
Definition affine3 (T : V3 R -> V3 R) : Prop :=
  exists a b c t d e f u g h i v, forall p,
    T p = mk3 (a * vx p + b * vy p + c * vz p + t) (d * vx p + e * vy p + f * vz p + u) (g * vx p + h * vy p + i * vz p + v).

Lemma bilin1 (a x0 x1 x : R) : x0 <= x <= x1 -> Rmin (a * x0) (a * x1) <= a * x <= Rmax (a * x0) (a * x1).
Proof.
  intros Hx. destruct (Rle_dec 0 a).
  - rewrite Rmin_left, Rmax_right by nra. nra.
  - rewrite Rmin_right, Rmax_left by nra. nra.
Qed.
Lemma corner_bound2 (a b e x0 x1 y0 y1 x y L U : R) : x0 <= x <= x1 -> y0 <= y <= y1 ->
  (forall u v, u = x0 \/ u = x1 -> v = y0 \/ v = y1 -> L <= a * u + b * v + e <= U) ->
  L <= a * x + b * y + e <= U.
Proof.
  intros Hx Hy Hc. pose proof (bilin1 a _ _ _ Hx) as B1. pose proof (bilin1 b _ _ _ Hy) as B2.
  pose proof (Hc x0 y0 ltac:(auto) ltac:(auto)). pose proof (Hc x1 y0 ltac:(auto) ltac:(auto)).
  pose proof (Hc x0 y1 ltac:(auto) ltac:(auto)). pose proof (Hc x1 y1 ltac:(auto) ltac:(auto)).
  revert B1 B2. unfold Rmin, Rmax. repeat destruct (Rle_dec _ _); lra.
Qed.
Lemma corner_bound3 (a b c e x0 x1 y0 y1 z0 z1 x y z L U : R) : x0 <= x <= x1 -> y0 <= y <= y1 -> z0 <= z <= z1 ->
  (forall u v w, u = x0 \/ u = x1 -> v = y0 \/ v = y1 -> w = z0 \/ w = z1 -> L <= a * u + b * v + c * w + e <= U) ->
  L <= a * x + b * y + c * z + e <= U.
Proof.
  intros Hx Hy Hz Hc.
  assert (Hz' : forall w, w = z0 \/ w = z1 -> L <= a * x + b * y + (c * w + e) <= U).
  { intros w Hw. apply (corner_bound2 a b (c * w + e) x0 x1 y0 y1); auto.
    intros u v Hu Hv. pose proof (Hc u v w Hu Hv Hw). lra. }
  pose proof (bilin1 c _ _ _ Hz) as B. pose proof (Hz' z0 ltac:(auto)). pose proof (Hz' z1 ltac:(auto)).
  revert B. unfold Rmin, Rmax. repeat destruct (Rle_dec _ _); lra.
Qed.

Theorem C26_transform2_tight (b : Aabb2 R) (T : V2 R -> V2 R) : box2 b -> affine2 T ->
  box2 (transform2 b T) /\ least2 (fun r => forall p, in2 b p -> in2 r (T p)) (transform2 b T).
Proof.
  intros Hb (a1 & a2 & a0 & b1 & b2 & b0 & HT).
  pose proof (C26_transform2_least_over_corners b T) as Hl. revert Hl. generalize (transform2 b T). intros r0 Hl.
  destruct Hl as (H1 & H2 & H3); [apply Forall_true; intros; repeat split|].
  split; [done|]. split.
  - intros p Hp. unfold corners2 in H2. rewrite !Forall_cons in H2. destruct H2 as (C1 & C2 & C3 & C4 & _).
    unfold in2 in *. rewrite !Le_R in *. rewrite !HT in *. simpl in *. split.
    + apply (corner_bound2 a1 a2 a0 (ux (min2 b)) (ux (max2 b)) (uy (min2 b)) (uy (max2 b))); try tauto.
      intros u v [-> | ->] [-> | ->]; lra.
    + apply (corner_bound2 b1 b2 b0 (ux (min2 b)) (ux (max2 b)) (uy (min2 b)) (uy (max2 b))); try tauto.
      intros u v [-> | ->] [-> | ->]; lra.
  - intros r Hr. apply H3. destruct Hb as [Hx Hy]. rewrite Le_R in Hx, Hy. unfold corners2.
    repeat (apply Forall_cons; split); try done; apply Hr; unfold in2; rewrite !Le_R; simpl; lra.
Qed.
Theorem C26_transform3_tight (b : Aabb3 R) (T : V3 R -> V3 R) : box3 b -> affine3 T ->
  box3 (transform3 b T) /\ least3 (fun r => forall p, in3 b p -> in3 r (T p)) (transform3 b T).
Proof.
  intros Hb (a1 & a2 & a3 & a0 & b1 & b2 & b3 & b0 & c1 & c2 & c3 & c0 & HT).
  pose proof (C26_transform3_least_over_corners b T) as Hl. revert Hl. generalize (transform3 b T). intros r0 Hl.
  destruct Hl as (H1 & H2 & H3); [apply Forall_true; intros; repeat split|].
  split; [done|]. split.
  - intros p Hp. unfold corners3 in H2. cbv zeta in H2. rewrite !Forall_cons in H2. destruct H2 as (C1 & C2 & C3 & C4 & C5 & C6 & C7 & C8 & _).
    unfold in3 in *. rewrite !Le_R in *. rewrite !HT in *. simpl in *. split; [|split].
    + apply (corner_bound3 a1 a2 a3 a0 (vx (min3 b)) (vx (max3 b)) (vy (min3 b)) (vy (max3 b)) (vz (min3 b)) (vz (max3 b))); try tauto.
      intros u v w [-> | ->] [-> | ->] [-> | ->]; lra.
    + apply (corner_bound3 b1 b2 b3 b0 (vx (min3 b)) (vx (max3 b)) (vy (min3 b)) (vy (max3 b)) (vz (min3 b)) (vz (max3 b))); try tauto.
      intros u v w [-> | ->] [-> | ->] [-> | ->]; lra.
    + apply (corner_bound3 c1 c2 c3 c0 (vx (min3 b)) (vx (max3 b)) (vy (min3 b)) (vy (max3 b)) (vz (min3 b)) (vz (max3 b))); try tauto.
      intros u v w [-> | ->] [-> | ->] [-> | ->]; lra.
  - intros r Hr. apply H3. destruct Hb as (Hx & Hy & Hz). rewrite Le_R in Hx, Hy, Hz. unfold corners3. cbv zeta.
    repeat (apply Forall_cons; split); try done; apply Hr; unfold in3; rewrite !Le_R; simpl; lra.
Qed.

(** ** C25 over the reals: non-flat boxes intersect iff their interiors meet. *)
Definition interior2 (b : Aabb2 R) (p : V2 R) : Prop :=
  ux (min2 b) < ux p < ux (max2 b) /\ uy (min2 b) < uy p < uy (max2 b).
Definition interior3 (b : Aabb3 R) (p : V3 R) : Prop :=
  vx (min3 b) < vx p < vx (max3 b) /\ vy (min3 b) < vy p < vy (max3 b) /\ vz (min3 b) < vz p < vz (max3 b).
Lemma interval_meet (a0 a1 b0 b1 : R) : a0 < a1 -> b0 < b1 ->
  (b0 < a1 /\ a0 < b1) <-> exists x, a0 < x < a1 /\ b0 < x < b1.
Proof.
  intros Ha Hb. split.
  - intros [H1 H2]. exists ((Rmax a0 b0 + Rmin a1 b1) / 2). unfold Rmax, Rmin. repeat destruct (Rle_dec _ _); lra.
  - intros (x & ? & ?). lra.
Qed.
Theorem C25_intersects2_iff_interiors_meet (a b : Aabb2 R) :
  (exists p, interior2 a p) -> (exists p, interior2 b p) ->
  intersects2 a b = true <-> exists p, interior2 a p /\ interior2 b p.
Proof.
  intros (p & Pa) (q & Qb). unfold interior2 in *. unfold intersects2. rewrite !andb_true_iff. cbn [nlt Num_R]. rewrite !Rltb_true.
  split.
  - intros [[[h1 h2] h3] h4].
    destruct (proj1 (interval_meet (ux (min2 a)) (ux (max2 a)) (ux (min2 b)) (ux (max2 b)) ltac:(lra) ltac:(lra)) ltac:(lra)) as (x & ? & ?).
    destruct (proj1 (interval_meet (uy (min2 a)) (uy (max2 a)) (uy (min2 b)) (uy (max2 b)) ltac:(lra) ltac:(lra)) ltac:(lra)) as (y & ? & ?).
    exists (mk2 x y). simpl. tauto.
  - intros (r & ? & ?). lra.
Qed.
Theorem C25_intersects3_iff_interiors_meet (a b : Aabb3 R) :
  (exists p, interior3 a p) -> (exists p, interior3 b p) ->
  intersects3 a b = true <-> exists p, interior3 a p /\ interior3 b p.
Proof.
  intros (p & Pa) (q & Qb). unfold interior3 in *. unfold intersects3. rewrite !andb_true_iff. cbn [nlt Num_R]. rewrite !Rltb_true.
  split.
  - intros [[[[[h1 h2] h3] h4] h5] h6].
    destruct (proj1 (interval_meet (vx (min3 a)) (vx (max3 a)) (vx (min3 b)) (vx (max3 b)) ltac:(lra) ltac:(lra)) ltac:(lra)) as (x & ? & ?).
    destruct (proj1 (interval_meet (vy (min3 a)) (vy (max3 a)) (vy (min3 b)) (vy (max3 b)) ltac:(lra) ltac:(lra)) ltac:(lra)) as (y & ? & ?).
    destruct (proj1 (interval_meet (vz (min3 a)) (vz (max3 a)) (vz (min3 b)) (vz (max3 b)) ltac:(lra) ltac:(lra)) ltac:(lra)) as (z & ? & ?).
    exists (mk3 x y z). simpl. tauto.
  - intros (r & ? & ?). lra.
Qed.

(** ** C31: arithmetic on boxes. *)
Lemma amin_R (x y : R) : amin x y = Rmin x y.
Proof.
  unfold amin, pcmp, Rmin. simpl. destruct (Rltb x y) eqn:E1; [apply Rltb_true in E1|apply Rltb_false in E1].
  - destruct (Rle_dec x y); [done|lra].
  - destruct (Rltb y x) eqn:E2; [apply Rltb_true in E2|apply Rltb_false in E2].
    + destruct (Rle_dec x y); [lra|done].
    + destruct (Reqb x y), (Rle_dec x y); try done; lra.
Qed.
Lemma amax_R (x y : R) : amax x y = Rmax x y.
Proof.
  unfold amax, pcmp, Rmax. simpl. destruct (Rltb x y) eqn:E1; [apply Rltb_true in E1|apply Rltb_false in E1].
  - destruct (Rle_dec x y); [done|lra].
  - destruct (Rltb y x) eqn:E2; [apply Rltb_true in E2|apply Rltb_false in E2].
    + destruct (Rle_dec x y); [lra|done].
    + destruct (Reqb x y), (Rle_dec x y); try done; lra.
Qed.
(** The image of the box under a map, as a set. *)
Definition image2 (b : Aabb2 R) (f : V2 R -> V2 R) (r : V2 R) : Prop := exists p, in2 b p /\ f p = r.
Definition image3 (b : Aabb3 R) (f : V3 R -> V3 R) (r : V3 R) : Prop := exists p, in3 b p /\ f p = r.
(** One axis. *)
Lemma axis_shift (lo hi v x : R) : lo <= hi ->
  (Rmin (lo + v) (hi + v) <= x <= Rmax (lo + v) (hi + v)) <-> exists y, lo <= y <= hi /\ y + v = x.
Proof.
  intros Hl. rewrite Rmin_left, Rmax_right by lra. split; [intros; exists (x - v); lra|intros (y & ? & <-); lra].
Qed.
Lemma axis_scale (lo hi v x : R) : lo <= hi ->
  (Rmin (lo * v) (hi * v) <= x <= Rmax (lo * v) (hi * v)) <-> exists y, lo <= y <= hi /\ y * v = x.
Proof.
  intros Hl. split.
  - intros Hx. destruct (Req_dec v 0) as [->|Hv].
    + exists lo. rewrite !Rmult_0_r in *. unfold Rmin, Rmax in Hx. destruct (Rle_dec 0 0) in Hx; lra.
    + exists (x / v). split; [|by field]. assert (E : x = x / v * v) by by field. revert Hx. rewrite E at 1 2. generalize (x / v). intros y.
      destruct (Rle_dec 0 v); [rewrite Rmin_left, Rmax_right by nra; nra|rewrite Rmin_right, Rmax_left by nra; nra].
  - intros (y & Hy & <-). pose proof (bilin1 v lo hi y Hy). rewrite !(Rmult_comm v) in *. done.
Qed.
Theorem C31_add_v2_translates (b : Aabb2 R) (v r : V2 R) : box2 b ->
  in2 (add_v2 b v) r <-> image2 b (fun p => add2 p v) r.
Proof.
  intros [Hx Hy]. rewrite Le_R in Hx, Hy. unfold image2, in2, add_v2, aabb2_new. simpl. rewrite !amin_R, !amax_R.
  setoid_rewrite Le_R. rewrite !axis_shift by done. split.
  - intros [(x & ? & Ex) (y & ? & Ey)]. exists (mk2 x y). split; [done|]. unfold add2; simpl. rewrite Ex, Ey. by destruct r.
  - intros ([x y] & ? & <-). simpl in *. split; eexists; (split; [|done]); tauto.
Qed.
Theorem C31_add_v3_translates (b : Aabb3 R) (v r : V3 R) : box3 b ->
  in3 (add_v3 b v) r <-> image3 b (fun p => add3 p v) r.
Proof.
  intros (Hx & Hy & Hz). rewrite Le_R in Hx, Hy, Hz. unfold image3, in3, add_v3, aabb3_new. simpl. rewrite !amin_R, !amax_R.
  setoid_rewrite Le_R. rewrite !axis_shift by done. split.
  - intros [(x & ? & Ex) [(y & ? & Ey) (z & ? & Ez)]]. exists (mk3 x y z). split; [done|]. unfold add3; simpl. rewrite Ex, Ey, Ez. by destruct r.
  - intros ([x y z] & ? & <-). simpl in *. split_and!; eexists; (split; [|done]); tauto.
Qed.
(** Component-wise scaling, negative and zero factors included. *)
Theorem C31_mul_v2_scales (b : Aabb2 R) (v r : V2 R) : box2 b ->
  in2 (mul_v2 b v) r <-> image2 b (fun p => mk2 (ux p * ux v) (uy p * uy v)) r.
Proof.
  intros [Hx Hy]. rewrite Le_R in Hx, Hy. unfold image2, in2, mul_v2, aabb2_new. simpl. rewrite !amin_R, !amax_R.
  setoid_rewrite Le_R. rewrite !axis_scale by done. split.
  - intros [(x & ? & Ex) (y & ? & Ey)]. exists (mk2 x y). split; [done|]. simpl. rewrite Ex, Ey. by destruct r.
  - intros ([x y] & ? & <-). simpl in *. split; eexists; (split; [|done]); tauto.
Qed.
Theorem C31_mul_v3_scales (b : Aabb3 R) (v r : V3 R) : box3 b ->
  in3 (mul_v3 b v) r <-> image3 b (fun p => mk3 (vx p * vx v) (vy p * vy v) (vz p * vz v)) r.
Proof.
  intros (Hx & Hy & Hz). rewrite Le_R in Hx, Hy, Hz. unfold image3, in3, mul_v3, aabb3_new. simpl. rewrite !amin_R, !amax_R.
  setoid_rewrite Le_R. rewrite !axis_scale by done. split.
  - intros [(x & ? & Ex) [(y & ? & Ey) (z & ? & Ez)]]. exists (mk3 x y z). split; [done|]. simpl. rewrite Ex, Ey, Ez. by destruct r.
  - intros ([x y z] & ? & <-). simpl in *. split_and!; eexists; (split; [|done]); tauto.
Qed.
Theorem C31_mul_s_scales (b : Aabb2 R) (B : Aabb3 R) (s : R) r R' : box2 b -> box3 B ->
  (in2 (mul_s2 b s) r <-> image2 b (fun p => scale2 p s) r)
  /\ (in3 (mul_s3 B s) R' <-> image3 B (fun p => scale3 p s) R').
Proof.
  intros Hb HB. split.
  - exact (C31_mul_v2_scales b (mk2 s s) r Hb).
  - exact (C31_mul_v3_scales B (mk3 s s s) R' HB).
Qed.
(** A margin of [m] widens each face by [m]; a negative margin shrinks the box, and once the faces
    have crossed it grows again, because the constructor swaps them. *)
Theorem C31_add_margin2 (b : Aabb2 R) (m r : V2 R) : box2 b ->
  let w := dim2 b in
  (- ux w / 2 <= ux m /\ - uy w / 2 <= uy m ->
    in2 (add_margin2 b m) r <-> ux (min2 b) - ux m <= ux r <= ux (max2 b) + ux m /\ uy (min2 b) - uy m <= uy r <= uy (max2 b) + uy m)
  /\ (0 <= ux m -> 0 <= uy m -> subset2 b (add_margin2 b m)).
Proof.
  intros [Hx Hy]. rewrite Le_R in Hx, Hy. unfold subset2, in2, add_margin2, aabb2_new. simpl. rewrite !amin_R, !amax_R. setoid_rewrite Le_R. split.
  - intros [? ?]. rewrite !Rmin_left, !Rmax_right by lra. tauto.
  - intros ? ? p ?. rewrite !Rmin_left, !Rmax_right by lra. lra.
Qed.
Theorem C31_add_margin3 (b : Aabb3 R) (m r : V3 R) : box3 b ->
  let w := dim3 b in
  (- vx w / 2 <= vx m /\ - vy w / 2 <= vy m /\ - vz w / 2 <= vz m ->
    in3 (add_margin3 b m) r <-> vx (min3 b) - vx m <= vx r <= vx (max3 b) + vx m /\ vy (min3 b) - vy m <= vy r <= vy (max3 b) + vy m
      /\ vz (min3 b) - vz m <= vz r <= vz (max3 b) + vz m)
  /\ (0 <= vx m -> 0 <= vy m -> 0 <= vz m -> subset3 b (add_margin3 b m)).
Proof.
  intros (Hx & Hy & Hz). rewrite Le_R in Hx, Hy, Hz. unfold subset3, in3, add_margin3, aabb3_new. simpl. rewrite !amin_R, !amax_R. setoid_rewrite Le_R. split.
  - intros (? & ? & ?). rewrite !Rmin_left, !Rmax_right by lra. tauto.
  - intros ? ? ? p ?. rewrite !Rmin_left, !Rmax_right by lra. lra.
Qed.
Theorem C31_negative_margin_inflates_refuted : exists (b : Aabb2 R) (m : V2 R),
  box2 b /\ ux m < 0 /\ uy m < 0 /\ subset2 b (add_margin2 b m) /\ ~ subset2 (add_margin2 b m) b.
Proof.
  exists (mkAabb2 (mk2 0 0) (mk2 1 1)), (mk2 (-2) (-2)). unfold box2, subset2, in2, add_margin2, aabb2_new. simpl.
  rewrite !amin_R, !amax_R. rewrite !Rmin_right, !Rmax_left by lra. setoid_rewrite Le_R. split_and!; try lra.
  - intros p. lra.
  - intros Hs. specialize (Hs (mk2 2 2)). simpl in Hs. lra.
Qed.
(** The centre is the midpoint: in the box, and the box is symmetric about it. *)
Theorem C31_center (b : Aabb2 R) (B : Aabb3 R) : box2 b -> box3 B ->
  in2 b (center2 b) /\ in3 B (center3 B)
  /\ (forall p, in2 b p <-> in2 b (sub2 (scale2 (center2 b) 2) p))
  /\ (forall p, in3 B p <-> in3 B (sub3 (scale3 (center3 B) 2) p)).
Proof.
  intros [Hx Hy] (HX & HY & HZ). rewrite Le_R in *. unfold in2, in3, center2, center3. simpl. setoid_rewrite Le_R.
  split_and!; try lra; intros p; lra.
Qed.
(** Volume and surface area: products of the edge lengths, never negative, monotone under inclusion. *)
Theorem C31_volume_monotone (a b : Aabb2 R) (A B : Aabb3 R) : box2 a -> box2 b -> box3 A -> box3 B ->
  (subset2 a b -> 0 <= volume2 a <= volume2 b /\ 0 <= surface_area2 a <= surface_area2 b)
  /\ (subset3 A B -> 0 <= volume3 A <= volume3 B /\ 0 <= surface_area3 A <= surface_area3 B).
Proof.
  intros Ha Hb HA HB. rewrite subset2_iff, subset3_iff by done. destruct Ha, Hb, HA as (?&?&?), HB as (?&?&?).
  unfold in2, in3. rewrite !Le_R in *. split.
  - intros (? & ?). unfold volume2, surface_area2, dim2. simpl.
    assert (0 <= (ux (max2 a) - ux (min2 a)) * (uy (max2 a) - uy (min2 a))
      <= (ux (max2 b) - ux (min2 b)) * (uy (max2 b) - uy (min2 b))); [|tauto].
    split; [apply Rmult_le_pos; lra|apply Rmult_le_compat; lra].
  - intros (? & ?). unfold volume3, surface_area3, dim3. simpl.
    set (x := vx (max3 A) - vx (min3 A)). set (y := vy (max3 A) - vy (min3 A)). set (z := vz (max3 A) - vz (min3 A)).
    set (x' := vx (max3 B) - vx (min3 B)). set (y' := vy (max3 B) - vy (min3 B)). set (z' := vz (max3 B) - vz (min3 B)).
    assert (0 <= x <= x') by (unfold x, x'; lra). assert (0 <= y <= y') by (unfold y, y'; lra). assert (0 <= z <= z') by (unfold z, z'; lra).
    assert (Hm : forall u v u' v', 0 <= u <= u' -> 0 <= v <= v' -> 0 <= u * v <= u' * v').
    { intros u v u' v' ? ?. split; [apply Rmult_le_pos; lra|apply Rmult_le_compat; lra]. }
    pose proof (Hm x y x' y' ltac:(done) ltac:(done)) as M1. pose proof (Hm x z x' z' ltac:(done) ltac:(done)).
    pose proof (Hm y z y' z' ltac:(done) ltac:(done)). pose proof (Hm _ z _ z' M1 ltac:(done)). lra.
Qed.
(** The volume is the product of the edge lengths, the surface area the sum of the areas of
    the sides (in two dimensions: the area). *)
Theorem C31_volume_exact x0 y0 z0 x1 y1 z1 :
  volume2 (mkAabb2 (mk2 x0 y0) (mk2 x1 y1)) = (x1 - x0) * (y1 - y0)
  /\ surface_area2 (mkAabb2 (mk2 x0 y0) (mk2 x1 y1)) = (x1 - x0) * (y1 - y0)
  /\ volume3 (mkAabb3 (mk3 x0 y0 z0) (mk3 x1 y1 z1)) = (x1 - x0) * (y1 - y0) * (z1 - z0)
  /\ surface_area3 (mkAabb3 (mk3 x0 y0 z0) (mk3 x1 y1 z1)) =
     (x1 - x0) * (y1 - y0) + (x1 - x0) * (y1 - y0) + (x1 - x0) * (z1 - z0) + (x1 - x0) * (z1 - z0) + (y1 - y0) * (z1 - z0) + (y1 - y0) * (z1 - z0).
Proof. unfold volume2, volume3, surface_area2, surface_area3, dim2, dim3. simpl. split_and!; ring. Qed.
