(** C30: bounding spheres over the reals. *)
From stdpp Require Import prelude.
From Coq Require Import Reals Lra Psatz.
From Verif Require Import Num Vec RealGeo AabbModel PropsAabb PropsAabbReal DbvtVisitors GeoModel.
Local Open Scope R_scope.

(** * Specification *)
(** The closed ball of a sphere; a sphere proper has a non-negative radius. *)
Definition ball (s : Sphere R) (p : V3 R) : Prop := dist3 (s_center s) p <= s_radius s.
Definition proper_sphere (s : Sphere R) : Prop := 0 <= s_radius s.
Definition ball_subset (a b : Sphere R) : Prop := forall p, ball a p -> ball b p.
(** The points of a segment. *)
Definition on_segment3 (l : Line (V3 R)) (p : V3 R) : Prop :=
  exists t, 0 <= t <= 1 /\ p = add3 (l_origin l) (scale3 (sub3 (l_dest l) (l_origin l)) t).

(** * Proofs *)
Lemma ball_sqr s p : proper_sphere s -> ball s p <-> dist2_3 (s_center s) p <= s_radius s * s_radius s.
Proof. intros Hs. unfold ball, dist3. rs. apply sqrt_le_iff; [done|apply dot3_nonneg]. Qed.
Lemma dist3_offset c u t : dist3 c (add3 c (scale3 u t)) = Rabs t * mag3 u.
Proof. rewrite dist3_mag, <- mag3_scale. f_equal. veq. Qed.
Lemma ball_along s u t : mag3 u = 1 -> Rabs t <= s_radius s -> ball s (add3 (s_center s) (scale3 u t)).
Proof. intros Hu Ht. unfold ball. rewrite dist3_offset, Hu. lra. Qed.
Definition ex3 : V3 R := mk3 1 0 0.
Lemma mag_ex3 : mag3 ex3 = 1.
Proof. apply unit3. unfold ex3. rv0. ring. Qed.
(** A unit vector from [a] towards [b] (any unit vector when they coincide). *)
Lemma towards a b : exists u, mag3 u = 1 /\ b = add3 a (scale3 u (dist3 a b)).
Proof.
  destruct (Req_dec (dist3 a b) 0) as [E|E].
  - exists ex3. split; [apply mag_ex3|]. rewrite E. apply dist3_zero in E as ->. apply V3_eq; rv0; ring.
  - exists (normalize3 (sub3 b a)). rewrite dist3_mag in *. split.
    + apply mag3_normalize. by rewrite <- mag3_zero_iff.
    + unfold normalize3. revert E. generalize (mag3 (sub3 b a)) as m. intros m E. apply V3_eq; rv0; field; exact E.
Qed.
(** Two antipodal points of a ball along a unit direction are two radii apart. *)
Lemma dist3_on_line c u s t : mag3 u = 1 -> dist3 (add3 c (scale3 u s)) (add3 c (scale3 u t)) = Rabs (t - s).
Proof.
  intros Hu. rewrite dist3_mag. replace (sub3 _ _) with (scale3 u (t - s)) by veq. rewrite mag3_scale, Hu. lra.
Qed.
Lemma ball_subset_radius a b : proper_sphere a -> ball_subset a b -> s_radius a <= s_radius b.
Proof.
  intros Ha Hs. unfold proper_sphere in Ha.
  assert (B1 : ball b (add3 (s_center a) (scale3 ex3 (s_radius a)))) by (apply Hs, ball_along; [apply mag_ex3|rewrite Rabs_pos_eq; lra]).
  assert (B2 : ball b (add3 (s_center a) (scale3 ex3 (- s_radius a)))) by (apply Hs, ball_along; [apply mag_ex3|rewrite Rabs_left1; lra]).
  pose proof (dist3_on_line (s_center a) ex3 (s_radius a) (- s_radius a) mag_ex3) as Hd.
  pose proof (dist3_triangle (add3 (s_center a) (scale3 ex3 (s_radius a))) (s_center b) (add3 (s_center a) (scale3 ex3 (- s_radius a)))) as Ht.
  rewrite Hd in Ht. unfold ball in B1, B2. rewrite (dist3_sym _ (s_center b)) in Ht.
  rewrite Rabs_left1 in Ht by lra. lra.
Qed.

(** ** Intersection *)
Theorem C30_intersects_iff_balls_meet a b : proper_sphere a -> proper_sphere b ->
  sphere_sphere a b = true <-> exists p, ball a p /\ ball b p.
Proof.
  unfold proper_sphere. intros Ha Hb. unfold sphere_sphere. rs. rewrite Rleb_true.
  rewrite <- (sqrt_le_iff _ (s_radius a + s_radius b)); [|lra|apply dot3_nonneg].
  change (dist3 (s_center a) (s_center b) <= s_radius a + s_radius b <-> exists p, ball a p /\ ball b p). split.
  - intros Hd. destruct (towards (s_center a) (s_center b)) as (u & Hu & Eb).
    set (t := Rmin (s_radius a) (dist3 (s_center a) (s_center b))).
    pose proof (dist3_nonneg (s_center a) (s_center b)).
    assert (0 <= t <= s_radius a /\ t <= dist3 (s_center a) (s_center b) /\ dist3 (s_center a) (s_center b) - t <= s_radius b).
    { unfold t, Rmin. destruct (Rle_dec _ _); lra. }
    exists (add3 (s_center a) (scale3 u t)). split.
    + apply ball_along; [done|]. rewrite Rabs_pos_eq; lra.
    + unfold ball. rewrite Eb at 1. rewrite dist3_on_line by done. rewrite Rabs_left1; lra.
  - intros (p & Pa & Pb). unfold ball in *. pose proof (dist3_triangle (s_center a) p (s_center b)) as Ht.
    rewrite (dist3_sym p) in Ht. lra.
Qed.
Theorem C30_intersects_symmetric (a b : Sphere R) : sphere_sphere a b = sphere_sphere b a.
Proof.
  unfold sphere_sphere. rs.
  replace (dist2_3 (s_center b) (s_center a)) with (dist2_3 (s_center a) (s_center b)) by (rv0; ring).
  by replace (s_radius b + s_radius a) with (s_radius a + s_radius b) by ring.
Qed.
(** ** Containment *)
Theorem C30_contains_point s p : proper_sphere s -> sphere_contains_pt s p = true <-> ball s p.
Proof. intros. unfold sphere_contains_pt. rs. by rewrite Rleb_true, ball_sqr. Qed.
Theorem C30_contains_sphere_iff_subset a b : proper_sphere a -> proper_sphere b ->
  sphere_contains a b = true <-> ball_subset b a.
Proof.
  unfold proper_sphere. intros Ha Hb. unfold sphere_contains. rs. rewrite Rleb_true. split.
  - intros Hc p Hp. unfold ball in *. pose proof (dist3_triangle (s_center a) (s_center b) p). lra.
  - intros Hs. destruct (towards (s_center a) (s_center b)) as (u & Hu & Eb).
    set (d := dist3 (s_center a) (s_center b)) in *. assert (0 <= d) by apply dist3_nonneg.
    assert (Hp : ball b (add3 (s_center a) (scale3 u (d + s_radius b)))).
    { unfold ball. rewrite Eb at 1. rewrite dist3_on_line by done. rewrite Rabs_pos_eq; lra. }
    apply Hs in Hp. unfold ball in Hp. rewrite dist3_offset, Hu, Rabs_pos_eq in Hp; lra.
Qed.
Lemma sqr_axis lo hi c x : lo <= x <= hi -> (x - c) * (x - c) <= (lo - c) * (lo - c) \/ (x - c) * (x - c) <= (hi - c) * (hi - c).
Proof. intros Hx. destruct (Rle_dec x c); [left|right]; nra. Qed.
Lemma in3_R (b : Aabb3 R) p : in3 b p <->
  (vx (min3 b) <= vx p <= vx (max3 b)) /\ (vy (min3 b) <= vy p <= vy (max3 b)) /\ (vz (min3 b) <= vz p <= vz (max3 b)).
Proof. unfold in3. by rewrite !Le_R. Qed.
Lemma box3_R (b : Aabb3 R) : box3 b <-> vx (min3 b) <= vx (max3 b) /\ vy (min3 b) <= vy (max3 b) /\ vz (min3 b) <= vz (max3 b).
Proof. unfold box3. by rewrite !Le_R. Qed.
Lemma corners_in b c : box3 b -> In c (corners3 b) -> in3 b c.
Proof.
  rewrite box3_R, in3_R. intros (Hx & Hy & Hz) Hc. unfold corners3 in Hc. simpl in Hc.
  repeat destruct Hc as [<-|Hc]; simpl; try lra.
Qed.
(** A point of the box is no farther from [q] than some corner. *)
Lemma farthest_corner b p q : in3 b p -> exists c, In c (corners3 b) /\ dist2_3 c q >= dist2_3 p q.
Proof.
  rewrite in3_R. intros (Hx & Hy & Hz).
  assert (Hax : forall lo hi x c : R, lo <= x <= hi -> exists y, (y = lo \/ y = hi) /\ (x - c) * (x - c) <= (y - c) * (y - c)).
  { intros lo hi x c Hl. destruct (sqr_axis lo hi c x Hl); eauto. }
  destruct (Hax _ _ _ (vx q) Hx) as (x & Ex & Lx). destruct (Hax _ _ _ (vy q) Hy) as (y & Ey & Ly). destruct (Hax _ _ _ (vz q) Hz) as (z & Ez & Lz).
  exists (mk3 x y z). split.
  - unfold corners3. simpl. destruct b as [[] []]; simpl in *.
    destruct Ex as [-> | ->], Ey as [-> | ->], Ez as [-> | ->]; tauto.
  - rv0. nra.
Qed.
Theorem C30_contains_box_iff_subset s b : proper_sphere s -> box3 b ->
  sphere_contains_box s b = true <-> forall p, in3 b p -> ball s p.
Proof.
  intros Hs Hb. unfold sphere_contains_box. rewrite forallb_forall.
  assert (Hcr : forall c, negb (nlt (s_radius s * s_radius s)%N_ (dist2_3 c (s_center s))) = true <-> ball s c).
  { intros c. rs. rewrite negb_true_iff, Rltb_false, ball_sqr by done.
    by replace (dist2_3 c (s_center s)) with (dist2_3 (s_center s) c) by (rv0; ring). }
  split.
  - intros Hc p Hp. destruct (farthest_corner b p (s_center s) Hp) as (c & Ic & Dc).
    apply Hc, Hcr in Ic. rewrite ball_sqr in * by done.
    replace (dist2_3 c (s_center s)) with (dist2_3 (s_center s) c) in Dc by (rv0; ring).
    replace (dist2_3 p (s_center s)) with (dist2_3 (s_center s) p) in Dc by (rv0; ring). lra.
  - intros Hp c Hc. apply Hcr, Hp. by apply corners_in.
Qed.
Theorem C30_contains_segment_iff_subset s l : proper_sphere s ->
  sphere_contains_line s l = true <-> forall p, on_segment3 l p -> ball s p.
Proof.
  intros Hs. unfold sphere_contains_line. rewrite andb_true_iff, !C30_contains_point by done. split.
  - intros [H1 H2] p (t & Ht & ->). unfold ball in *. rewrite dist3_mag in *.
    replace (sub3 _ (s_center s)) with (add3 (scale3 (sub3 (l_origin l) (s_center s)) (1 - t)) (scale3 (sub3 (l_dest l) (s_center s)) t)) by veq.
    eapply Rle_trans; [apply triangle3|]. rewrite !mag3_scale, !Rabs_pos_eq by lra. nra.
  - intros Hp. split; apply Hp.
    + exists 0. split; [lra|]. apply V3_eq; rv0; ring.
    + exists 1. split; [lra|]. apply V3_eq; rv0; ring.
Qed.
Lemma sum_sqr_abs x y z r : 0 <= r -> x * x + y * y + z * z <= r * r -> (- r <= x <= r) /\ (- r <= y <= r) /\ (- r <= z <= r).
Proof.
  intros Hr Hs. assert (Hax : forall d, d * d <= r * r -> - r <= d <= r) by (intros; nra).
  split; [|split]; apply Hax; nra.
Qed.
Theorem C30_box_contains_sphere_iff_subset b s : proper_sphere s ->
  aabb3_contains_sphere b s = true <-> forall p, ball s p -> in3 b p.
Proof.
  intros Hs. unfold aabb3_contains_sphere. rs. rewrite !andb_true_iff, !Rleb_true. split.
  - intros [[[[[H1 H2] H3] H4] H5] H6] p Hp. rewrite ball_sqr in Hp by done. unfold proper_sphere in Hs. rewrite in3_R. rv0.
    pose proof (sum_sqr_abs _ _ _ _ Hs Hp). lra.
  - intros Hp. unfold proper_sphere in Hs.
    assert (Hin : forall u t, mag3 u = 1 -> Rabs t <= s_radius s -> in3 b (add3 (s_center s) (scale3 u t))) by (intros; apply Hp, ball_along; done).
    assert (Hr : Rabs (s_radius s) <= s_radius s) by (rewrite Rabs_pos_eq; lra).
    assert (Hl : Rabs (- s_radius s) <= s_radius s) by (rewrite Rabs_left1; lra).
    assert (My : mag3 (mk3 0 1 0 : V3 R) = 1) by (apply unit3; rv0; ring). assert (Mz : mag3 (mk3 0 0 1 : V3 R) = 1) by (apply unit3; rv0; ring).
    pose proof (Hin _ _ mag_ex3 Hr) as X1. pose proof (Hin _ _ mag_ex3 Hl) as X2. pose proof (Hin _ _ My Hr) as Y1. pose proof (Hin _ _ My Hl) as Y2.
    pose proof (Hin _ _ Mz Hr) as Z1. pose proof (Hin _ _ Mz Hl) as Z2. rewrite in3_R in *. unfold ex3 in *. rv0. split_and!; lra.
Qed.

(** ** Union *)
(** A sphere encloses two others with the least radius. *)
Theorem C30_union_smallest_enclosing a b : proper_sphere a -> proper_sphere b ->
  ball_subset a (sphere_union a b) /\ ball_subset b (sphere_union a b)
  /\ forall c, ball_subset a c -> ball_subset b c -> s_radius (sphere_union a b) <= s_radius c.
Proof.
  intros Ha Hb. unfold sphere_union.
  destruct (sphere_contains a b) eqn:E1.
  { split; [by intros ?|]. split; [by apply C30_contains_sphere_iff_subset|]. intros c Hc _. by apply ball_subset_radius. }
  destruct (sphere_contains b a) eqn:E2.
  { split; [by apply C30_contains_sphere_iff_subset|]. split; [by intros ?|]. intros c _ Hc. by apply ball_subset_radius. }
  unfold sphere_contains in E1, E2. rs. apply Rleb_false in E1, E2. rewrite (dist3_sym (s_center b)) in E2.
  unfold proper_sphere in Ha, Hb. destruct (towards (s_center a) (s_center b)) as (u & Hu & Eb).
  change (mag3 (sub3 (s_center b) (s_center a))) with (dist3 (s_center a) (s_center b)).
  set (d := dist3 (s_center a) (s_center b)) in *. assert (0 <= d) by apply dist3_nonneg.
  destruct (Req_dec d 0) as [Hd|Hd]; [lra|].
  set (r := (s_radius a + s_radius b + d) / (1 + 1)).
  assert (Er : 2 * r = s_radius a + s_radius b + d) by (unfold r; field).
  assert (Ec : add3 (s_center a) (div3 (scale3 (sub3 (s_center b) (s_center a)) (r - s_radius a)) d) = add3 (s_center a) (scale3 u (r - s_radius a))).
  { rewrite Eb at 1. apply V3_eq; rv0; field; done. }
  rewrite Ec. split; [|split].
  - intros p Hp. unfold ball in *. cbn [s_center s_radius].
    pose proof (dist3_triangle (add3 (s_center a) (scale3 u (r - s_radius a))) (s_center a) p) as Ht.
    rewrite (dist3_sym _ (s_center a)), dist3_offset, Hu, Rabs_pos_eq in Ht by lra. lra.
  - intros p Hp. unfold ball in *. cbn [s_center s_radius].
    pose proof (dist3_triangle (add3 (s_center a) (scale3 u (r - s_radius a))) (s_center b) p) as Ht.
    assert (Hcb : dist3 (add3 (s_center a) (scale3 u (r - s_radius a))) (s_center b) = Rabs (d - (r - s_radius a))).
    { rewrite Eb at 1. by apply dist3_on_line. }
    rewrite Hcb, Rabs_pos_eq in Ht by lra. lra.
  - intros c Hac Hbc. simpl.
    assert (P1 : ball c (add3 (s_center a) (scale3 u (- s_radius a)))) by (apply Hac, ball_along; [done|rewrite Rabs_left1; lra]).
    assert (P2 : ball c (add3 (s_center a) (scale3 u (d + s_radius b)))).
    { apply Hbc. unfold ball. rewrite Eb at 1. rewrite dist3_on_line by done. rewrite Rabs_pos_eq; lra. }
    pose proof (dist3_triangle (add3 (s_center a) (scale3 u (- s_radius a))) (s_center c) (add3 (s_center a) (scale3 u (d + s_radius b)))) as Ht.
    rewrite dist3_on_line, (dist3_sym _ (s_center c)), Rabs_pos_eq in Ht by (done || lra). unfold ball in *. fold r. lra.
Qed.
(** Union with a box.  [box_radius]: of the sphere through the box's corners. *)
Definition box_radius (b : Aabb3 R) : R := dist3 (max3 b) (center3 b).
Lemma center3_R (b : Aabb3 R) : center3 b = mk3 ((vx (min3 b) + vx (max3 b)) / 2) ((vy (min3 b) + vy (max3 b)) / 2) ((vz (min3 b) + vz (max3 b)) / 2).
Proof. unfold center3, dim3. apply V3_eq; rv0; field. Qed.
Lemma box_in_circumscribed b p : in3 b p -> dist3 (center3 b) p <= box_radius b.
Proof.
  intros Hp. unfold box_radius. unfold dist3. rs. apply sqrt_le_1_alt.
  rewrite in3_R in Hp. rewrite center3_R. destruct Hp as (Hx & Hy & Hz). rv0.
  assert (Hax : forall lo hi x : R, lo <= x <= hi -> (x - (lo + hi) / 2) * (x - (lo + hi) / 2) <= ((lo + hi) / 2 - hi) * ((lo + hi) / 2 - hi)) by (intros; nra).
  pose proof (Hax _ _ _ Hx). pose proof (Hax _ _ _ Hy). pose proof (Hax _ _ _ Hz). lra.
Qed.
(** It encloses the sphere and the box, provided the ball is contained in the box or
    sticks out of (or touches) the box's circumscribed sphere. *)
Theorem C30_union_box_encloses s b : proper_sphere s -> box3 b ->
  (forall p, ball s p -> in3 b p) \/ box_radius b <= dist3 (center3 b) (s_center s) + s_radius s ->
  ball_subset s (sphere_union_box s b) /\ forall p, in3 b p -> ball (sphere_union_box s b) p.
Proof.
  intros Hs Hb Hc. unfold sphere_union_box.
  destruct (sphere_contains_box s b) eqn:E1.
  { split; [by intros ?|]. by apply C30_contains_box_iff_subset. }
  destruct (aabb3_contains_sphere b s) eqn:E2.
  { rewrite C30_box_contains_sphere_iff_subset in E2 by done. split.
    - intros p Hp. unfold ball; simpl. by apply box_in_circumscribed, E2.
    - intros p Hp. unfold ball; simpl. by apply box_in_circumscribed. }
  destruct Hc as [Hc|Hc]. { rewrite <- C30_box_contains_sphere_iff_subset in Hc by done. by rewrite Hc in E2. }
  unfold proper_sphere in Hs. destruct (towards (s_center s) (center3 b)) as (u & Hu & Eb).
  fold (box_radius b). rewrite (dist3_sym (center3 b)) in *.
  set (d := dist3 (s_center s) (center3 b)) in *. assert (0 <= d) by apply dist3_nonneg.
  assert (HR : 0 <= box_radius b) by (unfold box_radius; apply dist3_nonneg).
  assert (Hout : s_radius s < d + box_radius b).
  { apply Rnot_le_lt. intros Hle. rewrite <- not_true_iff_false, C30_contains_box_iff_subset in E1 by done. apply E1.
    intros p Hp%box_in_circumscribed. unfold ball. pose proof (dist3_triangle (s_center s) (center3 b) p) as Ht. fold d in Ht. lra. }
  destruct (Req_dec d 0) as [Hd|Hd].
  { exfalso. lra. }
  set (r := ((s_radius s + box_radius b + d) / (1 + 1))).
  assert (Er : 2 * r = s_radius s + box_radius b + d) by (unfold r; field).
  rs. fold r.
  assert (Ec : add3 (s_center s) (div3 (scale3 (sub3 (center3 b) (s_center s)) (r - s_radius s)) d) = add3 (s_center s) (scale3 u (r - s_radius s))).
  { rewrite Eb at 1. apply V3_eq; rv0; field; done. }
  rewrite Ec. split.
  - intros p Hp. unfold ball in *. cbn [s_center s_radius].
    pose proof (dist3_triangle (add3 (s_center s) (scale3 u (r - s_radius s))) (s_center s) p) as Ht.
    rewrite (dist3_sym _ (s_center s)), dist3_offset, Hu, Rabs_pos_eq in Ht by lra. lra.
  - intros p Hp%box_in_circumscribed. unfold ball in *. cbn [s_center s_radius].
    pose proof (dist3_triangle (add3 (s_center s) (scale3 u (r - s_radius s))) (center3 b) p) as Ht.
    assert (Hcb : dist3 (add3 (s_center s) (scale3 u (r - s_radius s))) (center3 b) = Rabs (d - (r - s_radius s))).
    { rewrite Eb at 1. by apply dist3_on_line. }
    rewrite Hcb, Rabs_pos_eq in Ht by lra. lra.
Qed.
(** Otherwise it does not enclose the box. *)
Lemma antipodal_corners b : dist3 (min3 b) (max3 b) = 2 * box_radius b.
Proof.
  unfold box_radius. rewrite (dist3_sym (max3 b)), !dist3_mag.
  replace (sub3 (max3 b) (min3 b)) with (scale3 (sub3 (max3 b) (center3 b)) 2).
  - rewrite mag3_scale, Rabs_pos_eq; lra.
  - rewrite center3_R. apply V3_eq; rv0; field.
Qed.
Lemma ball_around_box b c : box3 b -> (forall p, in3 b p -> ball c p) -> box_radius b <= s_radius c.
Proof.
  intros Hb Hc. assert (P1 : ball c (min3 b)) by (apply Hc, corners_in; [done|simpl; auto]).
  assert (P2 : ball c (max3 b)) by (apply Hc, corners_in; [done|unfold corners3; simpl; tauto]).
  pose proof (dist3_triangle (min3 b) (s_center c) (max3 b)) as Ht. rewrite antipodal_corners, (dist3_sym (min3 b)) in Ht.
  unfold ball in *. lra.
Qed.
Theorem C30_union_box_misses_box_refuted s b : proper_sphere s -> box3 b ->
  ~ (forall p, ball s p -> in3 b p) -> dist3 (center3 b) (s_center s) + s_radius s < box_radius b ->
  exists p, in3 b p /\ ~ ball (sphere_union_box s b) p.
Proof.
  intros Hs Hb Hn Hc. destruct (sphere_contains_box (sphere_union_box s b) b) eqn:E.
  - exfalso. pose proof (dist3_nonneg (center3 b) (s_center s)) as Hd. unfold proper_sphere in Hs.
    assert (Hr : s_radius (sphere_union_box s b) < box_radius b /\ 0 <= s_radius (sphere_union_box s b)).
    { unfold sphere_union_box. destruct (sphere_contains_box s b); [simpl; lra|].
      destruct (aabb3_contains_sphere b s) eqn:E2; [by rewrite C30_box_contains_sphere_iff_subset in E2|].
      fold (box_radius b). cbn [s_radius]. rs.
      assert (0 <= box_radius b) by (unfold box_radius; apply dist3_nonneg).
      set (m := dist3 (center3 b) (s_center s)) in *. split; lra. }
    rewrite C30_contains_box_iff_subset in E by (done || apply Hr). apply ball_around_box in E; [lra|done].
  - unfold sphere_contains_box in E. apply not_true_iff_false in E. rewrite forallb_forall in E.
    assert (Hex : Exists (fun c => negb (nlt (s_radius (sphere_union_box s b) * s_radius (sphere_union_box s b))%N_ (dist2_3 c (s_center (sphere_union_box s b)))) = false) (corners3 b)).
    { apply Classical_Prop.NNPP. intros Hne. apply E. intros c Hin. apply not_false_iff_true. intros Hf. apply Hne.
      apply Exists_exists. exists c. by rewrite elem_of_list_In. }
    apply Exists_exists in Hex as (c & Hin & Hf). rewrite elem_of_list_In in Hin. exists c. split; [by apply corners_in|].
    rewrite negb_false_iff in Hf. rs. apply Rltb_true in Hf. intros Hball.
    assert (0 <= s_radius (sphere_union_box s b)) by (unfold ball in Hball; pose proof (dist3_nonneg (s_center (sphere_union_box s b)) c); lra).
    rewrite ball_sqr in Hball by done.
    replace (dist2_3 c (s_center (sphere_union_box s b))) with (dist2_3 (s_center (sphere_union_box s b)) c) in Hf by (rv0; ring). lra.
Qed.
(** The unit cube and a small sphere just outside one face. *)
Example C30_union_box_witness :
  let s := mkSphere (mk3 (12 / 10) 0 0) (1 / 10) in let b := mkAabb3 (mk3 (-1) (-1) (-1)) (mk3 1 1 1) in
  proper_sphere s /\ box3 b /\ ~ (forall p, ball s p -> in3 b p) /\ dist3 (center3 b) (s_center s) + s_radius s < box_radius b.
Proof.
  intros s b. unfold proper_sphere, s. simpl s_radius. split; [lra|]. split; [unfold b; rewrite box3_R; simpl; lra|]. split.
  - intros Hp. assert (Hi : in3 b (mk3 (12 / 10) 0 0)) by (apply Hp; unfold ball, s; simpl s_center; rewrite dist3_self; simpl; lra).
    rewrite in3_R in Hi. unfold b in Hi. simpl in Hi. lra.
  - unfold box_radius. rewrite !center3_R.
    assert (E1 : dist3 (mk3 ((vx (min3 b) + vx (max3 b)) / 2) ((vy (min3 b) + vy (max3 b)) / 2) ((vz (min3 b) + vz (max3 b)) / 2)) (s_center (mkSphere (mk3 (12 / 10) 0 0) (1 / 10))) <= 12 / 10).
    { unfold b. simpl min3; simpl max3; simpl s_center. apply mag3_le_iff; [lra|]. rv0. lra. }
    assert (E2 : 14 / 10 <= dist3 (max3 b) (mk3 ((vx (min3 b) + vx (max3 b)) / 2) ((vy (min3 b) + vy (max3 b)) / 2) ((vz (min3 b) + vz (max3 b)) / 2))).
    { unfold b. simpl min3; simpl max3. unfold dist3. rs. apply le_sqrt_iff; [lra|apply dot3_nonneg|]. rv0. lra. }
    lra.
Qed.
(** Union of a box and a sphere: the least box enclosing both. *)
Theorem C30_box_union_sphere_least b s : proper_sphere s -> box3 b ->
  box3 (aabb3_union_sphere b s)
  /\ least3 (fun r => subset3 b r /\ forall p, ball s p -> in3 r p) (aabb3_union_sphere b s).
Proof.
  intros Hs Hb. unfold aabb3_union_sphere. unfold proper_sphere in Hs.
  destruct (grow3_spec b (mk3 (vx (s_center s) - s_radius s)%N_ (vy (s_center s) - s_radius s)%N_ (vz (s_center s) - s_radius s)%N_) Hb) as (G1 & G2 & G3 & G4); [done|].
  destruct (grow3_spec _ (add3 (s_center s) (splat3 (s_radius s))) G1) as (K1 & K2 & K3 & K4); [done|].
  assert (Hpts : forall r, aabb3_contains_sphere r s = true <->
    in3 r (mk3 (vx (s_center s) - s_radius s)%N_ (vy (s_center s) - s_radius s)%N_ (vz (s_center s) - s_radius s)%N_)
    /\ in3 r (add3 (s_center s) (splat3 (s_radius s)))).
  { intros r. unfold aabb3_contains_sphere. rs. rewrite !andb_true_iff, !Rleb_true, !in3_R. unfold splat3. rv0. lra. }
  split; [done|]. split; [split|].
  - intros p Hp. by apply K2, G2.
  - apply C30_box_contains_sphere_iff_subset, Hpts; [done|]. split; [by apply K2|done].
  - intros r [Hr1 Hr2]. rewrite <- C30_box_contains_sphere_iff_subset, Hpts in Hr2 by done. destruct Hr2.
    apply K4; [|done]. by apply G4.
Qed.
(** ** Extents, margins, transforms *)
Theorem C30_extents_tight s b : proper_sphere s ->
  (forall p, ball s p -> in3 b p) <-> contains3 b (mkAabb3 (sphere_min s) (sphere_max s)) = true.
Proof.
  intros Hs. rewrite <- C30_box_contains_sphere_iff_subset by done. unfold aabb3_contains_sphere, contains3, sphere_min, sphere_max, splat3.
  unfold add3. cbn [min3 max3]. rs. rewrite !andb_true_iff, !Rleb_true. lra.
Qed.
Lemma fmax_R (x y : R) : fmax x y = Rmax x y.
Proof.
  unfold fmax, Rmax. rs. assert (Hr : forall z, Reqb z z = true) by (intros; by apply Reqb_true). rewrite !Hr. simpl.
  destruct (Rltb x y) eqn:E; [apply Rltb_true in E|apply Rltb_false in E]; destruct (Rle_dec x y); lra.
Qed.
(** A margin with a non-negative component fattens the sphere by its largest component. *)
Theorem C30_margin s m t : proper_sphere s -> 0 <= t -> t = Rmax (Rmax (vx m) (vy m)) (vz m) ->
  sphere_contains (sphere_margin s m) s = true
  /\ forall p, ball (sphere_margin s m) p <-> exists q, ball s q /\ dist3 q p <= t.
Proof.
  intros Hs Ht Et. unfold proper_sphere in Hs. unfold sphere_margin. rewrite !fmax_R, <- Et. split.
  - unfold sphere_contains. cbn [s_center s_radius]. rs. rewrite Rleb_true, dist3_self. lra.
  - intros p. unfold ball. cbn [s_center s_radius]. rs. split.
    + intros Hp. destruct (towards (s_center s) p) as (u & Hu & Ep). set (d := dist3 (s_center s) p) in *.
      assert (0 <= d) by apply dist3_nonneg. pose proof (Rmin_l d (s_radius s)). pose proof (Rmin_r d (s_radius s)).
      assert (0 <= Rmin d (s_radius s) /\ d - Rmin d (s_radius s) <= t) by (unfold Rmin; destruct (Rle_dec _ _); lra).
      exists (add3 (s_center s) (scale3 u (Rmin d (s_radius s)))). rewrite dist3_offset, Hu.
      rewrite Rabs_pos_eq by lra. split; [lra|]. rewrite Ep at 1. rewrite dist3_on_line by done. rewrite Rabs_pos_eq; lra.
    + intros (q & Hq & Hqp). pose proof (dist3_triangle (s_center s) q p). lra.
Qed.
(** Rigid motions move the ball along; [transform_volume] ignores scaling. *)
Theorem C30_transform_rigid s T U : (forall p q, dist3 (T p) (T q) = dist3 p q) -> (forall p, T (U p) = p) ->
  forall p, ball (sphere_transform s T) p <-> exists q, ball s q /\ p = T q.
Proof.
  intros HT HU p. unfold ball, sphere_transform. cbn [s_center s_radius]. split.
  - intros Hp. exists (U p). rewrite <- (HT (s_center s)), HU. done.
  - intros (q & Hq & ->). by rewrite HT.
Qed.
Theorem C30_transform_scaling_refuted : exists s T, proper_sphere s /\ (forall p, T p = scale3 p 2)
  /\ exists q, ball s q /\ ~ ball (sphere_transform s T) (T q).
Proof.
  exists (mkSphere zero3 1), (fun p => scale3 p 2). split; [unfold proper_sphere; simpl; lra|]. split; [done|].
  exists ex3. unfold ball, sphere_transform. cbn [s_center s_radius].
  assert (Hd : forall t, 0 <= t -> dist3 (scale3 (zero3 : V3 R) 2) (scale3 ex3 t) = t).
  { intros t Ht. rewrite dist3_mag. replace (sub3 _ _) with (scale3 ex3 t) by (apply V3_eq; unfold ex3; rv0; ring).
    rewrite mag3_scale, mag_ex3, Rabs_pos_eq; lra. }
  split.
  - replace (zero3 : V3 R) with (scale3 (zero3 : V3 R) 2) by (apply V3_eq; rv0; ring).
    replace ex3 with (scale3 ex3 1) by (apply V3_eq; unfold ex3; rv0; ring). rewrite Hd; lra.
  - rewrite Hd; lra.
Qed.
(** ** Sphere and ray *)
(** The point of a ray at parameter [t]. *)
Definition ray_at (r : Ray (V3 R)) (t : R) : V3 R := add3 (origin r) (scale3 (direction r) t).
Lemma ray_dist_sqr (c o d : V3 R) t : dist2_3 c (add3 o (scale3 d t))
  = dot3 (sub3 c o) (sub3 c o) - 2 * t * dot3 (sub3 c o) d + t * t * dot3 d d.
Proof. rv0. ring. Qed.
Lemma ray_ball_sqr s r t : mag3 (direction r) = 1 -> proper_sphere s ->
  let l := sub3 (s_center s) (origin r) in let tca := dot3 l (direction r) in
  ball s (ray_at r t) <-> (t - tca) * (t - tca) <= s_radius s * s_radius s - (dot3 l l - tca * tca).
Proof.
  intros Hd Hs l tca. rewrite ball_sqr by done.
  assert (E : dot3 (direction r) (direction r) = 1) by (rewrite <- mag3_sqr, Hd; ring).
  unfold ray_at. rewrite ray_dist_sqr, E. fold l. fold tca. split; lra.
Qed.
(** Unit direction.  Origin outside the ball: a hit is reported iff the half-line meets the
    ball, at the first common point.  Origin inside: a hit is reported iff the centre is not behind the origin, and then the
    reported point is the one behind the origin where the line enters the ball. *)
Theorem C30_ray_outside_first_hit s r : proper_sphere s -> mag3 (direction r) = 1 -> ~ ball s (origin r) ->
  match sphere_ray s r with
  | Some q => exists t, 0 <= t /\ q = ray_at r t /\ ball s q /\ forall t', ball s (ray_at r t') -> t <= t'
  | None => forall t, 0 <= t -> ~ ball s (ray_at r t)
  end.
Proof.
  intros Hs Hd Hout. unfold sphere_ray. set (l := sub3 (s_center s) (origin r)). set (tca := dot3 l (direction r)). rs.
  pose proof (fun t => ray_ball_sqr s r t Hd Hs) as HB. cbv zeta in HB. fold l in HB. fold tca in HB.
  assert (H0 : s_radius s * s_radius s < dot3 l l).
  { apply Rnot_le_lt. intros Hle. apply Hout. rewrite ball_sqr by done. unfold dist2_3, mag2_3.
    replace (dot3 (sub3 (origin r) (s_center s)) (sub3 (origin r) (s_center s))) with (dot3 l l) by (unfold l; rv0; ring). done. }
  set (R2 := s_radius s * s_radius s) in *. set (L := dot3 l l) in *.
  destruct (Rltb tca 0) eqn:E1; [apply Rltb_true in E1|apply Rltb_false in E1].
  { intros t Ht. rewrite HB. clearbody L R2 tca. clear -Ht E1 H0. intros ?. nra. }
  destruct (Rltb R2 (L - tca * tca)) eqn:E2; [apply Rltb_true in E2|apply Rltb_false in E2].
  { intros t Ht. rewrite HB. clearbody L R2 tca. clear -E2. intros ?. pose proof (Rle_0_sqr (t - tca)) as Hsq. unfold Rsqr in Hsq. lra. }
  set (q := sqrt (R2 - (L - tca * tca))). assert (Hq : 0 <= q) by apply sqrt_pos.
  assert (Eq : q * q = R2 - (L - tca * tca)) by (apply sqrt_sqrt; lra).
  exists (tca - q). split; [clearbody L R2 tca q; clear -H0 E1 Hq Eq; nra|]. split; [done|]. split.
  - apply HB. lra.
  - intros t' Ht'. rewrite HB in Ht'. clearbody L R2 tca q. clear -Ht' Hq Eq. nra.
Qed.
Theorem C30_ray_inside_reports_point_behind s r : proper_sphere s -> mag3 (direction r) = 1 -> ball s (origin r) ->
  match sphere_ray s r with
  | Some q => 0 <= dot3 (sub3 (s_center s) (origin r)) (direction r)
      /\ exists t, t <= 0 /\ q = ray_at r t /\ ball s q /\ forall t', ball s (ray_at r t') -> t <= t'
  | None => dot3 (sub3 (s_center s) (origin r)) (direction r) < 0
  end.
Proof.
  intros Hs Hd Hin. unfold sphere_ray. set (l := sub3 (s_center s) (origin r)). set (tca := dot3 l (direction r)). rs.
  pose proof (fun t => ray_ball_sqr s r t Hd Hs) as HB. cbv zeta in HB. fold l in HB. fold tca in HB.
  assert (H0 : dot3 l l <= s_radius s * s_radius s).
  { rewrite ball_sqr in Hin by done. unfold dist2_3, mag2_3 in Hin.
    replace (dot3 l l) with (dot3 (sub3 (origin r) (s_center s)) (sub3 (origin r) (s_center s))) by (unfold l; rv0; ring). done. }
  set (R2 := s_radius s * s_radius s) in *. set (L := dot3 l l) in *.
  destruct (Rltb tca 0) eqn:E1; [apply Rltb_true in E1; lra|apply Rltb_false in E1].
  destruct (Rltb R2 (L - tca * tca)) eqn:E2; [apply Rltb_true in E2; clearbody L R2 tca; clear -E2 H0; nra|apply Rltb_false in E2].
  set (q := sqrt (R2 - (L - tca * tca))). assert (Hq : 0 <= q) by apply sqrt_pos.
  assert (Eq : q * q = R2 - (L - tca * tca)) by (apply sqrt_sqrt; lra).
  split; [lra|]. exists (tca - q). split; [clearbody L R2 tca q; clear -H0 E1 Hq Eq; nra|]. split; [done|]. split.
  - apply HB. lra.
  - intros t' Ht'. rewrite HB in Ht'. clearbody L R2 tca q. clear -Ht' Hq Eq. nra.
Qed.
Theorem C30_ray_discrete_iff_continuous (s : Sphere R) r : sphere_ray_test s r = true <-> is_Some (sphere_ray s r).
Proof.
  unfold sphere_ray_test, sphere_ray. rs. destruct (Rltb _ 0); [split; [done|by intros []]|].
  destruct (Rltb (s_radius s * s_radius s) _) eqn:E; [apply Rltb_true in E|apply Rltb_false in E]; rewrite Rleb_true.
  - split; [lra|by intros []].
  - split; [eauto|lra].
Qed.

(** Instances: two spheres that do not touch, a box, a ray that starts outside one and hits it. *)
Example C30_hypotheses_met : exists (a b : Sphere R) (bx : Aabb3 R) (r r' : Ray (V3 R)),
  proper_sphere a /\ proper_sphere b /\ sphere_sphere a b = false /\ box3 bx
  /\ mag3 (direction r) = 1 /\ ~ ball a (origin r) /\ sphere_ray a r = Some (mk3 (-1) 0 0)
  /\ mag3 (direction r') = 1 /\ ball a (origin r') /\ sphere_ray a r' = Some (mk3 (-1) 0 0).
Proof.
  exists (mkSphere zero3 1), (mkSphere (mk3 3 0 0) 1), (mkAabb3 zero3 (mk3 1 2 3)), (mkRay (mk3 (-3) 0 0) ex3), (mkRay zero3 ex3).
  split; [unfold proper_sphere; simpl; lra|]. split; [unfold proper_sphere; simpl; lra|].
  split. { unfold sphere_sphere. rv0. cbn [s_center s_radius vx vy vz]. apply Rleb_false. lra. }
  split. { unfold box3. rewrite !Le_R. simpl. lra. }
  assert (Hb : forall p, ball (mkSphere zero3 1) p <-> dist2_3 zero3 p <= 1).
  { intros p. rewrite ball_sqr by (unfold proper_sphere; simpl; lra). cbn [s_center s_radius]. split; lra. }
  rewrite !Hb. cbn [direction origin]. rewrite mag_ex3. split; [done|].
  split. { unfold ex3. rv0. cbn [vx vy vz origin]. lra. }
  assert (Hr : forall x, x <= 0 -> sphere_ray (mkSphere (zero3 : V3 R) 1) (mkRay (mk3 x 0 0) ex3) = Some (mk3 (-1) 0 0)).
  { intros x Hx. unfold sphere_ray, ex3. rv0. cbn [s_center s_radius vx vy vz origin direction].
    destruct (Rltb _ 0) eqn:E; [apply Rltb_true in E; lra|]. clear E.
    destruct (Rltb (1 * 1) _) eqn:E; [apply Rltb_true in E; lra|]. f_equal.
    match goal with |- context [sqrt ?e] => replace e with 1 by ring end. rewrite sqrt_1. f_equal; ring. }
  split; [apply Hr; lra|]. split; [done|]. split. { unfold dist2_3, mag2_3, dot3, sub3, zero3. rs. lra. } apply Hr. apply Rle_refl.
Qed.
