(** C46: rays against circles and spheres (the primitives). *)
From Coq Require Import Psatz.
From stdpp Require Import prelude.
From Coq Require Import Reals Lra.
From Verif Require Import Res Num Vec AabbModel GeoModel RealGeo PrimModel ShapeSpec RaySpec.
Local Open Scope R_scope.

(** ** One quadratic for both dimensions *)
(** [L]: squared distance of the origin of the ray to the centre; [c]: how far the ray goes
    before it is nearest to the centre. *)
Section quad.
  Context (L c r : R).
  Let q (t : R) := L - 2 * t * c + t * t.
  Lemma root_lo : 0 <= r * r - (L - c * c) -> q (c - sqrt (r * r - (L - c * c))) = r * r.
  Proof. intros Hd. unfold q. pose proof (sqrt_sqrt _ Hd). set (s := sqrt _) in *. nra. Qed.
  Lemma root_first t : 0 <= r * r - (L - c * c) -> q t <= r * r -> c - sqrt (r * r - (L - c * c)) <= t.
  Proof.
    intros Hd Hq. unfold q in Hq. pose proof (sqrt_sqrt _ Hd). pose proof (sqrt_pos (r * r - (L - c * c))). set (s := sqrt _) in *.
    destruct (Rle_dec (c - s) t); [done|]. exfalso. assert (0 < (c - s - t) * (c + s - t)) by nra. nra.
  Qed.
  Lemma root_sign : r * r < L -> 0 <= c -> 0 <= r * r - (L - c * c) -> 0 < c - sqrt (r * r - (L - c * c)).
  Proof.
    intros HL Hc Hd. pose proof (sqrt_sqrt _ Hd). pose proof (sqrt_pos (r * r - (L - c * c))). set (s := sqrt _) in *. nra.
  Qed.
  Lemma root_behind : L < r * r -> 0 <= r * r - (L - c * c) -> c - sqrt (r * r - (L - c * c)) < 0.
  Proof.
    intros HL Hd. pose proof (sqrt_sqrt _ Hd). pose proof (sqrt_pos (r * r - (L - c * c))). set (s := sqrt _) in *. nra.
  Qed.
  Lemma near_some t : 0 <= t -> q t <= r * r -> 0 <= r * r - (L - c * c).
  Proof. unfold q. intros _ Hq. pose proof (Rle_0_sqr (t - c)) as Hs. unfold Rsqr in Hs. lra. Qed.
End quad.

Lemma sqr2 (r : Ray P2) t : dot2 (direction r) (direction r) = 1 ->
  dot2 (along2 r t) (along2 r t) = dot2 (origin r) (origin r) - 2 * t * - dot2 (origin r) (direction r) + t * t.
Proof.
  destruct r as [[a b] [c d]]. unfold along2. cbn [origin direction]. rv0. intros Hu.
  transitivity (a * a + b * b + 2 * t * (a * c + b * d) + t * t * (c * c + d * d)); [ring|]. rewrite Hu. ring.
Qed.
Lemma sqr3 (r : Ray P3) t : dot3 (direction r) (direction r) = 1 ->
  dot3 (along3 r t) (along3 r t) = dot3 (origin r) (origin r) - 2 * t * - dot3 (origin r) (direction r) + t * t.
Proof.
  destruct r as [[a b e] [c d f]]. unfold along3. cbn [origin direction]. rv0. intros Hu.
  transitivity (a * a + b * b + e * e + 2 * t * (a * c + b * d + e * f) + t * t * (c * c + d * d + f * f)); [ring|]. rewrite Hu. ring.
Qed.
(** What the code computes. *)
Lemma circle_ray_eq rad (r : Ray P2) : let L := dot2 (origin r) (origin r) in let c := - dot2 (origin r) (direction r) in
  circle_ray_test rad r = (if Rlt_dec c 0 then false else if Rle_dec (L - c * c) (rad * rad) then true else false) /\
  circle_ray rad r = (if Rlt_dec c 0 then None else if Rle_dec (L - c * c) (rad * rad) then Some (along2 r (c - sqrt (rad * rad - (L - c * c)))) else None).
Proof.
  intros L c. unfold circle_ray_test, circle_ray.
  assert (E1 : dot2 (mk2 (nneg (ux (origin r))) (nneg (uy (origin r)))) (direction r) = c) by (unfold c; clear; rv0; ring).
  assert (E2 : dot2 (mk2 (nneg (ux (origin r))) (nneg (uy (origin r)))) (mk2 (nneg (ux (origin r))) (nneg (uy (origin r)))) = L) by (unfold L; clear; rv0; ring).
  rewrite E1, E2. cbn [nlt nle nsub nmul n0 nsqrt Num_R]. rewrite along2_add.
  destruct (Rlt_dec c 0) as [Hc|Hc]; [rewrite (proj2 (Rltb_true c 0)) by lra; done|]. rewrite (proj2 (Rltb_false c 0)) by lra.
  destruct (Rle_dec (L - c * c) (rad * rad)) as [Hr|Hr].
  - rewrite (proj2 (Rleb_true _ _)) by lra. rewrite (proj2 (Rltb_false _ _)) by lra. done.
  - rewrite (proj2 (Rleb_false _ _)) by lra. rewrite (proj2 (Rltb_true _ _)) by lra. done.
Qed.
Lemma sphere_ray_eq rad (r : Ray P3) : let L := dot3 (origin r) (origin r) in let c := - dot3 (origin r) (direction r) in
  psphere_ray_test rad r = (if Rlt_dec c 0 then false else if Rle_dec (L - c * c) (rad * rad) then true else false) /\
  psphere_ray rad r = (if Rlt_dec c 0 then None else if Rle_dec (L - c * c) (rad * rad) then Some (along3 r (c - sqrt (rad * rad - (L - c * c)))) else None).
Proof.
  intros L c. unfold psphere_ray_test, psphere_ray.
  assert (E1 : dot3 (mk3 (nneg (vx (origin r))) (nneg (vy (origin r))) (nneg (vz (origin r)))) (direction r) = c) by (unfold c; clear; rv0; ring).
  assert (E2 : dot3 (mk3 (nneg (vx (origin r))) (nneg (vy (origin r))) (nneg (vz (origin r)))) (mk3 (nneg (vx (origin r))) (nneg (vy (origin r))) (nneg (vz (origin r)))) = L) by (unfold L; clear; rv0; ring).
  rewrite E1, E2. cbn [nlt nle nsub nmul n0 nsqrt Num_R]. rewrite along3_add.
  destruct (Rlt_dec c 0) as [Hc|Hc]; [rewrite (proj2 (Rltb_true c 0)) by lra; done|]. rewrite (proj2 (Rltb_false c 0)) by lra.
  destruct (Rle_dec (L - c * c) (rad * rad)) as [Hr|Hr].
  - rewrite (proj2 (Rleb_true _ _)) by lra. rewrite (proj2 (Rltb_false _ _)) by lra. done.
  - rewrite (proj2 (Rleb_false _ _)) by lra. rewrite (proj2 (Rltb_true _ _)) by lra. done.
Qed.

(** [intersects] and [intersection] agree, for every ray. *)
Theorem C46_circle_test_iff_hit rad r : circle_ray_test rad r = true <-> is_Some (circle_ray (S:=R) rad r).
Proof.
  destruct (circle_ray_eq rad r) as [-> ->]. destruct (Rlt_dec _ _); [split; [done|by intros [? ?]]|].
  destruct (Rle_dec _ _); [split; [eauto|done]|split; [done|by intros [? ?]]].
Qed.
Theorem C46_sphere_test_iff_hit rad r : psphere_ray_test rad r = true <-> is_Some (psphere_ray (S:=R) rad r).
Proof.
  destruct (sphere_ray_eq rad r) as [-> ->]. destruct (Rlt_dec _ _); [split; [done|by intros [? ?]]|].
  destruct (Rle_dec _ _); [split; [eauto|done]|split; [done|by intros [? ?]]].
Qed.
(** With a unit direction a hit is reported exactly when the ray meets the shape and does not
    point away from its centre. *)
Theorem C46_circle_test_exact rad r : dot2 (direction r) (direction r) = 1 ->
  circle_ray_test rad r = true <-> ray_meets (along2 r) (disc rad) /\ 0 <= - dot2 (origin r) (direction r).
Proof.
  intros Hu. destruct (circle_ray_eq rad r) as [-> _]. set (c := - dot2 _ (direction r)). set (L := dot2 (origin r) (origin r)).
  destruct (Rlt_dec c 0); [split; [done|lra]|]. destruct (Rle_dec (L - c * c) (rad * rad)) as [Hr|Hr].
  - split; [intros _|done]. split; [|lra]. exists c. split; [lra|]. unfold disc. rewrite sqr2 by done. fold c L. lra.
  - split; [done|]. intros [(t & Ht & Hd) _]. unfold disc in Hd. rewrite sqr2 in Hd by done. fold c L in Hd.
    pose proof (near_some L c rad t Ht Hd). lra.
Qed.
Theorem C46_sphere_test_exact rad r : dot3 (direction r) (direction r) = 1 ->
  psphere_ray_test rad r = true <-> ray_meets (along3 r) (ball rad) /\ 0 <= - dot3 (origin r) (direction r).
Proof.
  intros Hu. destruct (sphere_ray_eq rad r) as [-> _]. set (c := - dot3 _ (direction r)). set (L := dot3 (origin r) (origin r)).
  destruct (Rlt_dec c 0); [split; [done|lra]|]. destruct (Rle_dec (L - c * c) (rad * rad)) as [Hr|Hr].
  - split; [intros _|done]. split; [|lra]. exists c. split; [lra|]. unfold ball. rewrite sqr3 by done. fold c L. lra.
  - split; [done|]. intros [(t & Ht & Hd) _]. unfold ball in Hd. rewrite sqr3 in Hd by done. fold c L in Hd.
    pose proof (near_some L c rad t Ht Hd). lra.
Qed.
(** From outside, the answer is the first point of the ray in the shape, and there is one
    exactly when the ray meets the shape. *)
Theorem C46_circle_outside_exact rad r p : dot2 (direction r) (direction r) = 1 -> ~ disc rad (origin r) ->
  circle_ray rad r = Some p <-> ray_first (along2 r) (disc rad) p.
Proof.
  intros Hu Ho. unfold disc in Ho. destruct (circle_ray_eq rad r) as [_ ->]. set (c := - dot2 _ (direction r)). set (L := dot2 (origin r) (origin r)) in *.
  apply Rnot_le_lt in Ho.
  assert (Hneed : ray_meets (along2 r) (disc rad) -> 0 <= c /\ L - c * c <= rad * rad).
  { intros (t & Ht & Hd). unfold disc in Hd. rewrite sqr2 in Hd by done. fold c L in Hd.
    pose proof (near_some L c rad t Ht Hd). split; [|lra]. assert (0 < t) by (destruct Ht as [? | <-]; [done|exfalso; lra]). nra. }
  assert (Hf : 0 <= c -> L - c * c <= rad * rad -> ray_first (along2 r) (disc rad) (along2 r (c - sqrt (rad * rad - (L - c * c))))).
  { intros Hc Hr. exists (c - sqrt (rad * rad - (L - c * c))). split; [left; apply (root_sign L c rad); lra|]. split; [done|]. split.
    - unfold disc. rewrite sqr2 by done. fold c L. rewrite root_lo; lra.
    - intros s Hs Hd. unfold disc in Hd. rewrite sqr2 in Hd by done. fold c L in Hd. pose proof (root_first L c rad s ltac:(lra) Hd). lra. }
  destruct (Rlt_dec c 0) as [Hc|Hc]; [split; [done|]; intros Hm%ray_first_meets; destruct (Hneed Hm); lra|].
  destruct (Rle_dec (L - c * c) (rad * rad)) as [Hr|Hr]; [|split; [done|]; intros Hm%ray_first_meets; destruct (Hneed Hm); lra].
  apply Rnot_lt_le in Hc. split.
  - intros [= <-]. by apply Hf.
  - intros Hp. f_equal. by apply (ray_first_unique _ _ _ _ (Hf Hc Hr)).
Qed.
Theorem C46_sphere_outside_exact rad r p : dot3 (direction r) (direction r) = 1 -> ~ ball rad (origin r) ->
  psphere_ray rad r = Some p <-> ray_first (along3 r) (ball rad) p.
Proof.
  intros Hu Ho. unfold ball in Ho. destruct (sphere_ray_eq rad r) as [_ ->]. set (c := - dot3 _ (direction r)). set (L := dot3 (origin r) (origin r)) in *.
  apply Rnot_le_lt in Ho.
  assert (Hneed : ray_meets (along3 r) (ball rad) -> 0 <= c /\ L - c * c <= rad * rad).
  { intros (t & Ht & Hd). unfold ball in Hd. rewrite sqr3 in Hd by done. fold c L in Hd.
    pose proof (near_some L c rad t Ht Hd). split; [|lra]. assert (0 < t) by (destruct Ht as [? | <-]; [done|exfalso; lra]). nra. }
  assert (Hf : 0 <= c -> L - c * c <= rad * rad -> ray_first (along3 r) (ball rad) (along3 r (c - sqrt (rad * rad - (L - c * c))))).
  { intros Hc Hr. exists (c - sqrt (rad * rad - (L - c * c))). split; [left; apply (root_sign L c rad); lra|]. split; [done|]. split.
    - unfold ball. rewrite sqr3 by done. fold c L. rewrite root_lo; lra.
    - intros s Hs Hd. unfold ball in Hd. rewrite sqr3 in Hd by done. fold c L in Hd. pose proof (root_first L c rad s ltac:(lra) Hd). lra. }
  destruct (Rlt_dec c 0) as [Hc|Hc]; [split; [done|]; intros Hm%ray_first_meets; destruct (Hneed Hm); lra|].
  destruct (Rle_dec (L - c * c) (rad * rad)) as [Hr|Hr]; [|split; [done|]; intros Hm%ray_first_meets; destruct (Hneed Hm); lra].
  apply Rnot_lt_le in Hc. split.
  - intros [= <-]. by apply Hf.
  - intros Hp. f_equal. by apply (ray_first_unique _ _ _ _ (Hf Hc Hr)).
Qed.
(** A reported point is always on the boundary; from inside it lies behind the origin of the
    ray. *)
Theorem C46_circle_hit_on_boundary rad r p : dot2 (direction r) (direction r) = 1 -> circle_ray rad r = Some p ->
  dot2 p p = rad * rad /\ exists t, p = along2 r t /\ (dot2 (origin r) (origin r) < rad * rad -> t < 0).
Proof.
  intros Hu. destruct (circle_ray_eq rad r) as [_ ->]. set (c := - dot2 _ (direction r)). set (L := dot2 (origin r) (origin r)) in *.
  destruct (Rlt_dec c 0) as [Hc|Hc]; [done|]. destruct (Rle_dec (L - c * c) (rad * rad)) as [Hr|Hr]; [|done]. intros [= <-]. split.
  - rewrite sqr2 by done. fold c L. apply root_lo. lra.
  - eexists. split; [done|]. intros. apply (root_behind L c rad); lra.
Qed.
Theorem C46_sphere_hit_on_boundary rad r p : dot3 (direction r) (direction r) = 1 -> psphere_ray rad r = Some p ->
  dot3 p p = rad * rad /\ exists t, p = along3 r t /\ (dot3 (origin r) (origin r) < rad * rad -> t < 0).
Proof.
  intros Hu. destruct (sphere_ray_eq rad r) as [_ ->]. set (c := - dot3 _ (direction r)). set (L := dot3 (origin r) (origin r)) in *.
  destruct (Rlt_dec c 0) as [Hc|Hc]; [done|]. destruct (Rle_dec (L - c * c) (rad * rad)) as [Hr|Hr]; [|done]. intros [= <-]. split.
  - rewrite sqr3 by done. fold c L. apply root_lo. lra.
  - eexists. split; [done|]. intros. apply (root_behind L c rad); lra.
Qed.
(** Refuted: a ray from inside pointing away from the centre is not reported; one pointing to
    the centre is given a point behind it; with a direction of length two, a ray that passes
    the shape is reported. *)
Ltac coords := unfold along2, along3, disc, ball; cbn [origin direction]; rv0; cbn.
Theorem C46_inside_missed_refuted : exists r, dot3 (direction r) (direction r) = 1 /\ ray_meets (along3 r) (ball 1) /\ psphere_ray_test 1 r = false.
Proof.
  exists (mkRay (mk3 (1/2) 0 0) (mk3 1 0 0)). split; [coords; lra|]. split; [exists 0; split; [lra|]; coords; lra|].
  destruct (sphere_ray_eq 1 (mkRay (mk3 (1/2) 0 0) (mk3 1 0 0))) as [-> _]. cbn [origin direction].
  destruct (Rlt_dec _ _) as [?|Hn]; [done|]. exfalso. apply Hn. coords. lra.
Qed.
Theorem C46_inside_behind_refuted : exists r p, dot3 (direction r) (direction r) = 1 /\ psphere_ray 1 r = Some p /\
  ~ exists t, 0 <= t /\ p = along3 r t.
Proof.
  set (r := mkRay (mk3 (1/2) 0 0) (mk3 (-1) 0 0)).
  assert (Hu : dot3 (direction r) (direction r) = 1) by (coords; lra).
  destruct (psphere_ray 1 r) as [p|] eqn:E.
  - exists r, p. split; [done|]. split; [done|]. intros (t & Ht & ->).
    destruct (C46_sphere_hit_on_boundary 1 r _ Hu E) as [_ (t' & Et & Hb)]. apply (f_equal vx) in Et. unfold along3 in Et. cbn in Et.
    assert (t' < 0) by (apply Hb; coords; lra). lra.
  - exfalso. destruct (sphere_ray_eq 1 r) as [_ E']. rewrite E in E'. destruct (Rlt_dec _ _) as [Hn|]; [revert Hn; unfold r; coords; lra|].
    destruct (Rle_dec _ _) as [|Hn]; [done|]. apply Hn. unfold r. coords. lra.
Qed.
Theorem C46_direction_length_refuted : exists r, dot2 (direction r) (direction r) = 4 /\ ~ ray_meets (along2 r) (disc 1) /\ circle_ray_test 1 r = true.
Proof.
  exists (mkRay (mk2 (-3) 2) (mk2 2 0)). split; [coords; lra|]. split.
  - intros (t & Ht & Hd). revert Hd. coords. intros Hd. pose proof (Rle_0_sqr (-3 + 2 * t)) as Hs. unfold Rsqr in Hs. lra.
  - destruct (circle_ray_eq 1 (mkRay (mk2 (-3) 2) (mk2 2 0))) as [-> _]. cbn [origin direction].
    destruct (Rlt_dec _ _) as [Hn|_]; [exfalso; revert Hn; coords; lra|]. destruct (Rle_dec _ _) as [|Hn]; [done|]. exfalso. apply Hn. coords. lra.
Qed.
Example C46_hypotheses_met : let r := mkRay (mk3 (-3) (1/2) 0) (mk3 1 0 0) in
  dot3 (direction r) (direction r) = 1 /\ ~ ball 1 (origin r) /\ ray_meets (along3 r) (ball 1) /\ is_Some (psphere_ray 1 r).
Proof.
  intros r. assert (Hm : ray_meets (along3 r) (ball 1)) by (exists 3; split; [lra|]; unfold r; coords; lra).
  split; [unfold r; coords; lra|]. split; [unfold r; coords; lra|]. split; [done|].
  apply C46_sphere_test_iff_hit, C46_sphere_test_exact; [unfold r; coords; lra|]. split; [done|]. unfold r; coords; lra.
Qed.
