(** C59: interpolation between rotations and transforms. *)
From Coq Require Import Psatz.
From stdpp Require Import prelude.
From Coq Require Import Reals Lra.
From Verif Require Import Res Num Vec GeoModel RealGeo PrimModel ShapeSpec PropsSupport ComplexModel PropsComplex InterpModel.
Local Open Scope R_scope.

(** * Specification *)
(** The rotation of the plane by [a]. *)
Definition rotation2 (a : R) : M2 (S:=R) := mkM2 (mk2 (cos a) (sin a)) (mk2 (- sin a) (cos a)).
(** The point at [t] on the way from [x] to [y]. *)
Definition mix2 (x y : P2) (t : R) : P2 := add2 (scale2 x (1 - t)) (scale2 y t).
Definition mix3 (x y : P3) (t : R) : P3 := add3 (scale3 x (1 - t)) (scale3 y t).
Definition neg_quat (q : Quat (S:=R)) : Quat := mkQuat (- q_s q) (neg3 (q_v q)).
Notation interp2 := (d2_interp acos cos sin).
Notation move2 T p := (xf_pt (d2_xf 0 T) p).
Notation move3 T p := (xf_pt (d3_xf 0 T) p).

(** * Proofs *)
Lemma lerp2_0 a b : lerp2 (S:=R) a b 0 = a. Proof. apply V2_eq; rv0; ring. Qed.
Lemma lerp2_1 a b : lerp2 (S:=R) a b 1 = b. Proof. apply V2_eq; rv0; ring. Qed.
Lemma lerp3_0 a b : lerp3 (S:=R) a b 0 = a. Proof. apply V3_eq; rv0; ring. Qed.
Lemma lerp3_1 a b : lerp3 (S:=R) a b 1 = b. Proof. apply V3_eq; rv0; ring. Qed.
Lemma quat_interp_0 a b : quat_interp (S:=R) a b 0 = a.
Proof. destruct a as [s [x y z]]. unfold quat_interp. rewrite lerp3_0. cbn [q_s q_v]. f_equal. rv0. ring. Qed.
Lemma quat_interp_1 a b : quat_interp (S:=R) a b 1 = b.
Proof. destruct b as [s [x y z]]. unfold quat_interp. rewrite lerp3_1. cbn [q_s q_v]. f_equal. rv0. ring. Qed.
Lemma quat_interp_same a t : quat_interp (S:=R) a a t = a.
Proof. destruct a as [s [x y z]]. unfold quat_interp. cbn [q_s q_v]. f_equal; [rv0; ring|apply V3_eq; rv0; ring]. Qed.
Lemma scale_interp_0 (a b : R) : scale_interp a b 0 = a. Proof. unfold scale_interp. rv0. ring. Qed.
Lemma scale_interp_1 (a b : R) : scale_interp a b 1 = b. Proof. unfold scale_interp. rv0. ring. Qed.

(** ** Transforms of space (rotations by quaternions) *)
Theorem C59_endpoints3 (a b : D3 R) : d3_interp a b 0 = a /\ d3_interp a b 1 = b.
Proof. destruct a as [sa ra va], b as [sb rb vb]. unfold d3_interp. cbn [d3_s d3_rot d3_disp]. by rewrite scale_interp_0, scale_interp_1, quat_interp_0, quat_interp_1, lerp3_0, lerp3_1. Qed.
(** With the same rotation every point moves on the straight segment, at constant speed. *)
Theorem C59_straight3 (a b : D3 R) t p : d3_rot a = d3_rot b -> move3 (d3_interp a b t) p = mix3 (move3 a p) (move3 b p) t.
Proof.
  destruct a as [sa ra va], b as [sb rb vb]. cbn [d3_rot]. intros <-. unfold d3_interp, d3_xf, decomposed3. cbn [d3_s d3_rot d3_disp xf_pt].
  rewrite quat_interp_same. unfold scale_interp, mix3. destruct ra as [q [x y z]]. unfold quat_rot. cbn [q_s q_v]. apply V3_eq; rv0; ring.
Qed.
(** The scale stays between the two. *)
Theorem C59_scale_between3 (a b : D3 R) t : 0 <= t <= 1 ->
  Rmin (d3_s a) (d3_s b) <= d3_s (d3_interp a b t) <= Rmax (d3_s a) (d3_s b).
Proof.
  intros Ht. cbn [d3_interp d3_s]. unfold scale_interp. cbn [nadd nmul nsub n1 Num_R].
  generalize (d3_s a), (d3_s b). intros x y. unfold Rmin, Rmax. destruct (Rle_dec x y); split; nra.
Qed.
(** The squared length of the quaternion between two unit quaternions. *)
Theorem C59_quaternion_length a b t : unit_quat a -> unit_quat b ->
  quat_mag2 (quat_interp a b t) = 1 - t * (1 - t) * quat_mag2 (mkQuat (q_s b - q_s a) (sub3 (q_v b) (q_v a))).
Proof.
  unfold unit_quat, quat_mag2, quat_interp. destruct a as [sa [xa ya za]], b as [sb [xb yb zb]]. cbn [q_s q_v]. rv0. intros Ha Hb.
  match goal with |- ?l = ?r => assert (E : l - r = (1 - t) * (sa * sa + (xa * xa + ya * ya + za * za) - 1) + t * (sb * sb + (xb * xb + yb * yb + zb * zb) - 1)) by ring end.
  rewrite Ha, Hb in E. lra.
Qed.
(** ** Rotation matrices of space *)
Lemma neg_quat_m3 q : m3_of_quat (neg_quat q) = m3_of_quat q.
Proof. destruct q as [s [x y z]]. unfold m3_of_quat, neg_quat. cbn [q_s q_v]. f_equal; apply V3_eq; rv0; cbn [vx vy vz]; ring. Qed.
Lemma quat_eq (a b : Quat (S:=R)) : q_s a = q_s b -> vx (q_v a) = vx (q_v b) -> vy (q_v a) = vy (q_v b) -> vz (q_v a) = vz (q_v b) -> a = b.
Proof. destruct a as [? []], b as [? []]. cbn. congruence. Qed.
Lemma sqrt_sq4 x : sqrt (4 * (x * x)) = 2 * Rabs x.
Proof. replace (4 * (x * x)) with (Rsqr (2 * x)) by (unfold Rsqr; ring). rewrite sqrt_Rsqr_abs, Rabs_mult, (Rabs_right 2) by lra. done. Qed.
Lemma shep a : a <> 0 -> exists e, (e = 1 \/ e = -1) /\ half (S:=R) * sqrt (4 * (a * a)) = e * a /\
  forall b w, w = 4 * (a * b) -> w * (half (S:=R) / sqrt (4 * (a * a))) = e * b.
Proof.
  intros Ha. rewrite sqrt_sq4. unfold half. rs. destruct (Rlt_dec a 0) as [Hn|Hp].
  - exists (-1). split; [by right|]. rewrite Rabs_left by done. split; [field|]. intros b w ->. field. done.
  - exists 1. split; [by left|]. rewrite Rabs_right by lra. split; [field|]. intros b w ->. field. done.
Qed.
(** The quaternion read off the matrix of a unit quaternion is that quaternion or its opposite,
    which is the same rotation. *)
Theorem C59_quaternion_of_matrix q : unit_quat q -> quat_of_m3 (m3_of_quat q) = q \/ quat_of_m3 (m3_of_quat q) = neg_quat q.
Proof.
  unfold unit_quat, quat_mag2. destruct q as [s [x y z]]. cbn [q_s q_v]. rv0. intros Hu.
  assert (K : exists e, (e = 1 \/ e = -1) /\ quat_of_m3 (m3_of_quat (mkQuat s (mk3 x y z))) = mkQuat (e * s) (mk3 (e * x) (e * y) (e * z))).
  { unfold quat_of_m3, m3_of_quat. cbn [q_s q_v m3_x m3_y m3_z vx vy vz]. rs.
    destruct (Rleb 0 _) eqn:E0.
    - apply Rleb_true in E0. assert (Hs : s <> 0) by (intros ->; nra).
      match goal with |- context[sqrt ?t] => replace t with (4 * (s * s)) by lra end.
      destruct (shep s Hs) as (e & He & E1 & E2). exists e. split; [done|]. rewrite E1. do 2 f_equal; apply E2; ring.
    - apply Rleb_false in E0. destruct (Rltb _ _ && Rltb _ _) eqn:E3; [|destruct (Rltb _ _) eqn:E4 in |- *].
      + apply andb_prop in E3 as [E3 E4]. apply Rltb_true in E3, E4.
        assert (Hs : x <> 0) by (intros ->; nra).
        match goal with |- context[sqrt ?t] => replace t with (4 * (x * x)) by lra end.
        destruct (shep x Hs) as (e & He & E1 & E2). exists e. split; [done|]. rewrite E1. f_equal; [apply E2; ring|].
        f_equal; apply E2; ring.
      + apply Rltb_true in E4. assert (Hs : y <> 0).
        { intros ->. apply andb_false_iff in E3 as [E3|E3]; apply Rltb_false in E3; nra. }
        match goal with |- context[sqrt ?t] => replace t with (4 * (y * y)) by lra end.
        destruct (shep y Hs) as (e & He & E1 & E2). exists e. split; [done|]. rewrite E1. f_equal; [apply E2; ring|].
        f_equal; apply E2; ring.
      + apply Rltb_false in E4. assert (Hs : z <> 0).
        { intros ->. apply andb_false_iff in E3 as [E3|E3]; apply Rltb_false in E3; nra. }
        match goal with |- context[sqrt ?t] => replace t with (4 * (z * z)) by lra end.
        destruct (shep z Hs) as (e & He & E1 & E2). exists e. split; [done|]. rewrite E1. f_equal; [apply E2; ring|].
        f_equal; apply E2; ring. }
  destruct K as (e & [-> | ->] & E); rewrite E; [left|right]; apply quat_eq; cbn [neg_quat q_s q_v]; rv0; ring.
Qed.
(** So interpolated rotation matrices start and end right, and equal ones stay equal. *)
Theorem C59_basis3_endpoints qa qb : unit_quat qa -> unit_quat qb ->
  basis3_interp (m3_of_quat qa) (m3_of_quat qb) 0 = m3_of_quat qa /\
  basis3_interp (m3_of_quat qa) (m3_of_quat qb) 1 = m3_of_quat qb /\
  forall t, basis3_interp (m3_of_quat qa) (m3_of_quat qa) t = m3_of_quat qa.
Proof.
  intros Ha Hb. unfold basis3_interp. rewrite quat_interp_0, quat_interp_1.
  assert (K : forall q, unit_quat q -> m3_of_quat (quat_of_m3 (m3_of_quat q)) = m3_of_quat q).
  { intros q Hq. destruct (C59_quaternion_of_matrix q Hq) as [-> | ->]; [done|apply neg_quat_m3]. }
  split; [by apply K|]. split; [by apply K|]. intros t. rewrite quat_interp_same. by apply K.
Qed.
(** The matrix acts as the quaternion does. *)
Theorem C59_matrix_acts (q : Quat (S:=R)) v : m3_mul (m3_of_quat q) v = quat_rot q v.
Proof.
  unfold m3_mul, m3_of_quat, quat_rot. destruct q as [s [x y z]], v as [a b c]. cbn [q_s q_v m3_x m3_y m3_z].
  apply V3_eq; rv0; ring.
Qed.
(** Between two different rotations the result need not be a rotation: halfway from the identity
    to the half turn about the third axis, the first unit vector becomes [(1/2, 1/2, 0)], which is
    shorter. *)
Theorem C59_quaternion_refuted : exists a b v, unit_quat a /\ unit_quat b /\ dot3 v v = 1 /\
  dot3 (quat_rot (quat_interp a b (1/2)) v) (quat_rot (quat_interp a b (1/2)) v) = 1/2 /\
  dot3 (m3_mul (basis3_interp (m3_of_quat a) (m3_of_quat b) (1/2)) v) (m3_mul (basis3_interp (m3_of_quat a) (m3_of_quat b) (1/2)) v) = 1/2.
Proof.
  exists (mkQuat 1 (mk3 0 0 0)), (mkQuat 0 (mk3 0 0 1)), (mk3 1 0 0).
  split; [unfold unit_quat, quat_mag2; cbn [q_s q_v]; rv0; lra|].
  split; [unfold unit_quat, quat_mag2; cbn [q_s q_v]; rv0; lra|].
  split; [rv0; lra|]. split; [unfold quat_rot, quat_interp; cbn [q_s q_v]; rv0; lra|].
  unfold basis3_interp. rewrite C59_matrix_acts.
  assert (E1 : quat_of_m3 (m3_of_quat (mkQuat 1 (mk3 0 0 0))) = mkQuat 1 (mk3 0 0 0)).
  { unfold quat_of_m3, m3_of_quat. cbn [q_s q_v m3_x m3_y m3_z vx vy vz]. rs.
    destruct (Rleb 0 _) eqn:E; [|apply Rleb_false in E; lra].
    match goal with |- context[sqrt ?t] => replace (sqrt t) with 2 end.
    2:{ match goal with |- _ = sqrt ?t => replace t with (Rsqr 2) by (unfold Rsqr; lra) end. rewrite sqrt_Rsqr; lra. }
    unfold half. rs. apply quat_eq; cbn [q_s q_v vx vy vz]; field. }
  assert (E2 : quat_of_m3 (m3_of_quat (mkQuat 0 (mk3 0 0 1))) = mkQuat 0 (mk3 0 0 1)).
  { unfold quat_of_m3, m3_of_quat. cbn [q_s q_v m3_x m3_y m3_z vx vy vz]. rs.
    destruct (Rleb 0 _) eqn:E; [apply Rleb_true in E; lra|].
    destruct (Rltb _ _ && Rltb _ _) eqn:E3; [apply andb_prop in E3 as [E3 E4]; apply Rltb_true in E3, E4; lra|].
    destruct (Rltb _ _) eqn:E4 in |- *; [apply Rltb_true in E4; lra|].
    match goal with |- context[sqrt ?t] => replace (sqrt t) with 2 end.
    2:{ match goal with |- _ = sqrt ?t => replace t with (Rsqr 2) by (unfold Rsqr; lra) end. rewrite sqrt_Rsqr; lra. }
    unfold half. rs. apply quat_eq; cbn [q_s q_v vx vy vz]; field. }
  rewrite E1, E2. unfold quat_rot, quat_interp. cbn [q_s q_v]. rv0. lra.
Qed.

(** ** Rotations of the plane *)
Lemma rotation2_eq a b : cos a = cos b -> sin a = sin b -> rotation2 a = rotation2 b.
Proof. unfold rotation2. by intros -> ->. Qed.
(** The result is always the rotation by an angle in [0, pi] whose cosine is between the two. *)
Theorem C59_basis2 a b t : 0 <= t <= 1 ->
  exists c, 0 <= c <= PI /\ cos c = (1 - t) * cos a + t * cos b /\ basis2_interp acos cos sin (rotation2 a) (rotation2 b) t = rotation2 c.
Proof.
  intros Ht. exists (acos ((1 - t) * cos a + t * cos b)). split; [apply acos_bound|].
  pose proof (COS_bound a). pose proof (COS_bound b). split; [apply cos_acos; nra|].
  unfold basis2_interp, m2_from_angle, rotation2. cbn [m2_x]. rv0.
  by replace (cos a + (cos b - cos a) * t) with ((1 - t) * cos a + t * cos b) by ring.
Qed.
(** For angles in [0, pi] it starts and ends right and its angle stays between the two; equal
    rotations are kept. *)
Theorem C59_basis2_between a b t : 0 <= a <= b -> b <= PI -> 0 <= t <= 1 ->
  exists c, a <= c <= b /\ (t = 0 -> c = a) /\ (t = 1 -> c = b) /\
    basis2_interp acos cos sin (rotation2 a) (rotation2 b) t = rotation2 c /\
    basis2_interp acos cos sin (rotation2 b) (rotation2 a) (1 - t) = rotation2 c.
Proof.
  intros Ha Hb Ht. destruct (C59_basis2 a b t Ht) as (c & Hc & Ec & E).
  destruct (C59_basis2 b a (1 - t)) as (c' & Hc' & Ec' & E'); [lra|].
  assert (Hcos : cos b <= cos a) by (apply cos_decr_1; lra).
  assert (c' = c) as ->. { rewrite <- (acos_cos c), <- (acos_cos c') by done. f_equal. lra. }
  exists c. split; [split; apply cos_decr_0; try lra; nra|].
  split; [intros ->; rewrite <- (acos_cos c), <- (acos_cos a) by lra; f_equal; lra|].
  split; [intros ->; rewrite <- (acos_cos c), <- (acos_cos b) by lra; f_equal; lra|]. done.
Qed.
(** For an angle between [-pi] and [0] even amount 0 gives another rotation: the mirror image. *)
Theorem C59_basis2_refuted a b : - PI < a < 0 ->
  basis2_interp acos cos sin (rotation2 a) (rotation2 b) 0 = rotation2 (- a) /\ rotation2 (- a) <> rotation2 a.
Proof.
  intros Ha. split.
  - destruct (C59_basis2 a b 0) as (c & Hc & Ec & E); [lra|]. rewrite E. f_equal.
    rewrite <- (acos_cos c), <- (acos_cos (- a)) by lra. rewrite cos_neg. f_equal. lra.
  - unfold rotation2. rewrite sin_neg, cos_neg. intros [= E _].
    assert (0 < sin (- a)) by (apply sin_gt_0; lra). rewrite sin_neg in *. lra.
Qed.
(** Transforms of the plane, with rotations by angles in [0, pi]. *)
Theorem C59_endpoints2 (a b : D2 R) x y : 0 <= x <= PI -> 0 <= y <= PI -> d2_rot a = rotation2 x -> d2_rot b = rotation2 y ->
  interp2 a b 0 = a /\ interp2 a b 1 = b.
Proof.
  destruct a as [sa ra va], b as [sb rb vb]. cbn [d2_rot]. intros Hx Hy -> ->. unfold d2_interp. cbn [d2_s d2_rot d2_disp].
  rewrite scale_interp_0, scale_interp_1, lerp2_0, lerp2_1. unfold basis2_interp. rewrite lerp2_0, lerp2_1. cbn [rotation2 m2_x ux].
  unfold m2_from_angle. rewrite !acos_cos by done. done.
Qed.
Theorem C59_straight2 (a b : D2 R) x t p : 0 <= x <= PI -> d2_rot a = rotation2 x -> d2_rot b = rotation2 x ->
  move2 (interp2 a b t) p = mix2 (move2 a p) (move2 b p) t.
Proof.
  destruct a as [sa ra va], b as [sb rb vb]. cbn [d2_rot]. intros Hx -> ->. unfold d2_interp. cbn [d2_s d2_rot d2_disp].
  assert (E : basis2_interp acos cos sin (rotation2 x) (rotation2 x) t = rotation2 x).
  { unfold basis2_interp. replace (lerp2 (m2_x (rotation2 x)) (m2_x (rotation2 x)) t) with (m2_x (rotation2 x)) by (apply V2_eq; rv0; ring).
    cbn [rotation2 m2_x ux]. unfold m2_from_angle. rewrite !acos_cos by done. done. }
  rewrite E. clear E. unfold d2_xf, decomposed2. cbn [d2_s d2_rot d2_disp xf_pt]. unfold scale_interp, mix2, m2_mul, rotation2. cbn [m2_x m2_y].
  destruct p as [p1 p2], va as [v1 v2], vb as [w1 w2]. apply V2_eq; rv0; ring.
Qed.
(** ** Interpolating the translation only *)
(** Amount 1 gives the second transform; with the same rotation and scale, amount 0 gives the
    first and every point moves straight. *)
Theorem C59_translation3 (a b : D3 R) t p : d3_tinterp a b 1 = b /\
  (d3_rot a = d3_rot b -> d3_s a = d3_s b -> d3_tinterp a b 0 = a /\ move3 (d3_tinterp a b t) p = mix3 (move3 a p) (move3 b p) t).
Proof.
  destruct a as [sa ra va], b as [sb rb vb]. unfold d3_tinterp. cbn [d3_s d3_rot d3_disp]. rewrite lerp3_1, lerp3_0.
  split; [done|]. intros <- <-. split; [done|]. unfold d3_xf, decomposed3. cbn [d3_s d3_rot d3_disp xf_pt]. unfold mix3.
  destruct va as [v1 v2 v3], vb as [w1 w2 w3]. generalize (quat_rot ra (scale3 p sa)). intros [r1 r2 r3]. apply V3_eq; rv0; ring.
Qed.
Theorem C59_translation2 (a b : D2 R) t p : d2_tinterp a b 1 = b /\
  (d2_rot a = d2_rot b -> d2_s a = d2_s b -> d2_tinterp a b 0 = a /\ move2 (d2_tinterp a b t) p = mix2 (move2 a p) (move2 b p) t).
Proof.
  destruct a as [sa ra va], b as [sb rb vb]. unfold d2_tinterp. cbn [d2_s d2_rot d2_disp]. rewrite lerp2_1, lerp2_0.
  split; [done|]. intros <- <-. split; [done|]. unfold d2_xf, decomposed2. cbn [d2_s d2_rot d2_disp xf_pt]. unfold mix2.
  destruct va as [v1 v2], vb as [w1 w2]. generalize (m2_mul ra (scale2 p sa)). intros [r1 r2]. apply V2_eq; rv0; ring.
Qed.
(** With a different rotation or scale amount 0 does not give the first transform, although it
    does give its displacement. *)
Theorem C59_translation_refuted (a b : D3 R) (a' b' : D2 R) :
  ((d3_rot a <> d3_rot b \/ d3_s a <> d3_s b) -> d3_tinterp a b 0 <> a) /\ d3_disp (d3_tinterp a b 0) = d3_disp a /\
  ((d2_rot a' <> d2_rot b' \/ d2_s a' <> d2_s b') -> d2_tinterp a' b' 0 <> a') /\ d2_disp (d2_tinterp a' b' 0) = d2_disp a'.
Proof.
  destruct a as [sa ra va], b as [sb rb vb], a' as [sa' ra' va'], b' as [sb' rb' vb']. unfold d3_tinterp, d2_tinterp.
  cbn [d3_s d3_rot d3_disp d2_s d2_rot d2_disp]. rewrite lerp3_0, lerp2_0. split; [intros [K|K] [= E1 E2]; congruence|].
  split; [done|]. split; [intros [K|K] [= E1 E2]; congruence|done].
Qed.
(** The motion used by the compound time-of-impact query is this interpolation. *)
Lemma toi_motion (a b : D2 R) (a' b' : D3 R) t : lerp_disp2 a b t = d2_tinterp a b t /\ lerp_disp3 a' b' t = d3_tinterp a' b' t.
Proof. done. Qed.

Example C59_hypotheses_met :
  (exists qa qb : Quat (S:=R), unit_quat qa /\ unit_quat qb /\ qa <> qb) /\ (0 <= PI / 3 <= PI / 2 /\ PI / 2 <= PI) /\
  (- PI < - (PI / 4) < 0).
Proof.
  pose proof PI_RGT_0. split; [|lra]. exists (mkQuat 1 (mk3 0 0 0)), (mkQuat 0 (mk3 0 0 1)).
  unfold unit_quat, quat_mag2; cbn [q_s q_v]. split; [rv0; lra|]. split; [rv0; lra|]. intros [= E]. lra.
Qed.
