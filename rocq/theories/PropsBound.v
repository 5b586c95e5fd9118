(** C45: the bounding volumes of the primitives. *)
From Coq Require Import Psatz.
From stdpp Require Import prelude.
From Coq Require Import Reals Lra.
From Verif Require Import Res Num Vec AabbModel PropsAabb PropsAabbReal GeoModel RealGeo PrimModel ShapeSpec PropsSupport MinkModel MinkSpec PropsGjk2 PrimEnum.
From Verif Require PropsSphere.
Local Open Scope R_scope.

(** [b] is the smallest box around the set [A]. *)
Definition smallest2 (A : P2 -> Prop) (b : Aabb2 R) : Prop := least2 (fun r => forall x, A x -> in2 r x) b.
Definition smallest3 (A : P3 -> Prop) (b : Aabb3 R) : Prop := least3 (fun r => forall x, A x -> in3 r x) b.
(** The set together with the origin. *)
Definition with_origin2 (A : P2 -> Prop) (x : P2) : Prop := A x \/ x = zero2.
Definition with_origin3 (A : P3 -> Prop) (x : P3) : Prop := A x \/ x = zero3.

Lemma in2_R (b : Aabb2 R) p : in2 b p <-> (ux (min2 b) <= ux p <= ux (max2 b)) /\ (uy (min2 b) <= uy p <= uy (max2 b)).
Proof. unfold in2. rewrite !Le_R. done. Qed.
Lemma in3_R (b : Aabb3 R) p : in3 b p <-> (vx (min3 b) <= vx p <= vx (max3 b)) /\ (vy (min3 b) <= vy p <= vy (max3 b)) /\ (vz (min3 b) <= vz p <= vz (max3 b)).
Proof. unfold in3. rewrite !Le_R. done. Qed.
Lemma smallest2_intro (A : P2 -> Prop) (x0 x1 y0 y1 : R) :
  (forall p, A p -> (x0 <= ux p <= x1) /\ (y0 <= uy p <= y1)) ->
  (exists p, A p /\ ux p = x0) -> (exists p, A p /\ ux p = x1) -> (exists p, A p /\ uy p = y0) -> (exists p, A p /\ uy p = y1) ->
  smallest2 A (mkAabb2 (mk2 x0 y0) (mk2 x1 y1)).
Proof.
  intros Hin (a & Ha & Ea) (b & Hb & Eb) (c & Hc & Ec) (d & Hd & Ed). split.
  - intros p Hp. apply in2_R. by apply Hin.
  - intros r Hr p Hp. apply in2_R in Hp. cbn in Hp. apply in2_R.
    apply Hr, in2_R in Ha, Hb, Hc, Hd. lra.
Qed.
Lemma smallest3_intro (A : P3 -> Prop) (x0 x1 y0 y1 z0 z1 : R) :
  (forall p, A p -> (x0 <= vx p <= x1) /\ (y0 <= vy p <= y1) /\ (z0 <= vz p <= z1)) ->
  (exists p, A p /\ vx p = x0) -> (exists p, A p /\ vx p = x1) -> (exists p, A p /\ vy p = y0) -> (exists p, A p /\ vy p = y1) ->
  (exists p, A p /\ vz p = z0) -> (exists p, A p /\ vz p = z1) ->
  smallest3 A (mkAabb3 (mk3 x0 y0 z0) (mk3 x1 y1 z1)).
Proof.
  intros Hin (a & Ha & Ea) (b & Hb & Eb) (c & Hc & Ec) (d & Hd & Ed) (e & He & Ee) (f & Hf & Ef). split.
  - intros p Hp. apply in3_R. by apply Hin.
  - intros r Hr p Hp. apply in3_R in Hp. cbn in Hp. apply in3_R.
    apply Hr, in3_R in Ha, Hb, Hc, Hd, He, Hf. lra.
Qed.
Lemma new2_R (a b : P2) : aabb2_new a b = mkAabb2 (mk2 (Rmin (ux a) (ux b)) (Rmin (uy a) (uy b))) (mk2 (Rmax (ux a) (ux b)) (Rmax (uy a) (uy b))).
Proof. unfold aabb2_new, pmin2, pmax2. by rewrite !amin_R, !amax_R. Qed.
Lemma new3_R (a b : P3) : aabb3_new a b = mkAabb3 (mk3 (Rmin (vx a) (vx b)) (Rmin (vy a) (vy b)) (Rmin (vz a) (vz b)))
  (mk3 (Rmax (vx a) (vx b)) (Rmax (vy a) (vy b)) (Rmax (vz a) (vz b))).
Proof. unfold aabb3_new, pmin3, pmax3. by rewrite !amin_R, !amax_R. Qed.
Lemma new2_le (x0 y0 x1 y1 : R) : x0 <= x1 -> y0 <= y1 -> aabb2_new (mk2 x0 y0) (mk2 x1 y1) = mkAabb2 (mk2 x0 y0) (mk2 x1 y1).
Proof. intros. rewrite new2_R. cbn. by rewrite !Rmin_left, !Rmax_right by lra. Qed.
Lemma new3_le (x0 y0 z0 x1 y1 z1 : R) : x0 <= x1 -> y0 <= y1 -> z0 <= z1 ->
  aabb3_new (mk3 x0 y0 z0) (mk3 x1 y1 z1) = mkAabb3 (mk3 x0 y0 z0) (mk3 x1 y1 z1).
Proof. intros. rewrite new3_R. cbn. by rewrite !Rmin_left, !Rmax_right by lra. Qed.
Lemma hull2_in b vs x : (forall v, v ∈ vs -> in2 b v) -> hull2 vs x -> in2 b x.
Proof.
  intros Hv Hx. induction Hx as [v Hin|a c t Ha IHa Hc IHc Ht]; [by apply Hv|]. apply in2_R in IHa, IHc. apply in2_R. rv0. cbn [ux uy].
  destruct IHa as [A1 A2], IHc as [C1 C2].
  assert (forall lo hi p q, lo <= p <= hi -> lo <= q <= hi -> lo <= p * (1 - t) + q * t <= hi) as Hmix by (intros; nra).
  split; by apply Hmix.
Qed.
Lemma hull3_in b vs x : (forall v, v ∈ vs -> in3 b v) -> hull3 vs x -> in3 b x.
Proof.
  intros Hv Hx. induction Hx as [v Hin|a c t Ha IHa Hc IHc Ht]; [by apply Hv|]. apply in3_R in IHa, IHc. apply in3_R. rv0. cbn [vx vy vz].
  destruct IHa as (A1 & A2 & A3), IHc as (C1 & C2 & C3).
  assert (forall lo hi p q, lo <= p <= hi -> lo <= q <= hi -> lo <= p * (1 - t) + q * t <= hi) as Hmix by (intros; nra).
  split; [|split]; by apply Hmix.
Qed.

(** ** The plane *)
Definition is_polygon (p : Primitive2 R) : Prop := match p with ConvexPolygon _ => True | _ => False end.
Definition is_polyhedron (p : Primitive3 R) : Prop := match p with ConvexPolyhedron _ => True | _ => False end.
Lemma disc_abs r (x : P2) : 0 <= r -> disc r x -> (- r <= ux x <= r) /\ (- r <= uy x <= r).
Proof. intros Hr Hx. unfold disc in Hx. rv0. assert (0 <= ux x * ux x) by nra. assert (0 <= uy x * uy x) by nra. nra. Qed.
(** Every primitive except polygons gets the smallest box around it. *)
Theorem C45_bound2_smallest p : prim2_ok p -> ~ is_polygon p -> smallest2 (prim2_set p) (prim2_bound p).
Proof.
  intros Hok Hp. destruct p as [|l|r|dim|s|vs]; cbn [prim2_bound prim2_set prim2_ok is_polygon] in *; [..|done].
  - unfold aabb2_zero. unfold zero2. rewrite new2_le by (cbn; lra).
    apply smallest2_intro; [intros q ->; cbn; lra|..]; (exists zero2; done).
  - unfold line_bound. rewrite new2_R. destruct l as [[a b] [c d]]. cbn [l_origin l_dest ux uy].
    assert (H0 : seg_set (mkLine (mk2 a b) (mk2 c d)) (mk2 a b)) by (exists 0; split; [lra|]; apply V2_eq; rv0; cbn; lra).
    assert (H1 : seg_set (mkLine (mk2 a b) (mk2 c d)) (mk2 c d)) by (exists 1; split; [lra|]; apply V2_eq; rv0; cbn; lra).
    apply smallest2_intro.
    + intros q (t & Ht & ->). cbn [l_origin l_dest]. rv0. cbn [ux uy]. unfold Rmin, Rmax. repeat destruct (Rle_dec _ _); nra.
    + unfold Rmin; destruct (Rle_dec _ _); eauto.
    + unfold Rmax; destruct (Rle_dec _ _); eauto.
    + unfold Rmin; destruct (Rle_dec _ _); eauto.
    + unfold Rmax; destruct (Rle_dec _ _); eauto.
  - unfold circle_bound. cbn [nneg Num_R]. rewrite new2_le by lra.
    apply smallest2_intro; [intros q Hq; by apply disc_abs|..].
    + exists (mk2 (- r) 0). split; [unfold disc; rv0; cbn; lra|done].
    + exists (mk2 r 0). split; [unfold disc; rv0; cbn; lra|done].
    + exists (mk2 0 (- r)). split; [unfold disc; rv0; cbn; lra|done].
    + exists (mk2 0 r). split; [unfold disc; rv0; cbn; lra|done].
  - unfold rect_bound, quad_half, two, div2, neg2. cbn [nneg nadd n1 ndiv Num_R ux uy].
    rewrite new2_le by lra. apply smallest2_intro; [intros q Hq; unfold rect_set in Hq; lra|..].
    + exists (mk2 (- (ux dim / (1 + 1))) 0). split; [unfold rect_set; cbn; lra|done].
    + exists (mk2 (ux dim / (1 + 1)) 0). split; [unfold rect_set; cbn; lra|done].
    + exists (mk2 0 (- (uy dim / (1 + 1)))). split; [unfold rect_set; cbn; lra|done].
    + exists (mk2 0 (uy dim / (1 + 1))). split; [unfold rect_set; cbn; lra|done].
  - unfold rect_bound, quad_half, two, div2, neg2, square_dim. cbn [nneg nadd n1 ndiv Num_R ux uy].
    rewrite new2_le by lra. apply smallest2_intro; [intros q Hq; unfold rect_set in Hq; cbn in Hq; lra|..].
    + exists (mk2 (- (s / (1 + 1))) 0). split; [unfold rect_set; cbn; lra|done].
    + exists (mk2 (s / (1 + 1)) 0). split; [unfold rect_set; cbn; lra|done].
    + exists (mk2 0 (- (s / (1 + 1)))). split; [unfold rect_set; cbn; lra|done].
    + exists (mk2 0 (s / (1 + 1))). split; [unfold rect_set; cbn; lra|done].
Qed.
Lemma zero_box2 : box2 (aabb2_zero : Aabb2 R) /\ forall c, in2 c zero2 -> subset2 (aabb2_zero : Aabb2 R) c.
Proof.
  unfold aabb2_zero, zero2. rewrite new2_le by (cbn; lra). split; [unfold box2; rewrite !Le_R; cbn; lra|].
  intros c Hc p Hp. apply in2_R in Hp, Hc. apply in2_R. cbn in *. lra.
Qed.
Lemma zero_box3 : box3 (aabb3_zero : Aabb3 R) /\ forall c, in3 c zero3 -> subset3 (aabb3_zero : Aabb3 R) c.
Proof.
  unfold aabb3_zero, zero3. rewrite new3_le by (cbn; lra). split; [unfold box3; rewrite !Le_R; cbn; lra|].
  intros c Hc p Hp. apply in3_R in Hp, Hc. apply in3_R. cbn in *. lra.
Qed.
Lemma in_zero2 : in2 (aabb2_zero : Aabb2 R) zero2.
Proof. unfold aabb2_zero, zero2. rewrite new2_le by (cbn; lra). apply in2_R. cbn. lra. Qed.
Lemma in_zero3 : in3 (aabb3_zero : Aabb3 R) zero3.
Proof. unfold aabb3_zero, zero3. rewrite new3_le by (cbn; lra). apply in3_R. cbn. lra. Qed.
(** A polygon (of any number of vertices) gets the smallest box around it and the origin. *)
Theorem C45_polygon_bound vs : smallest2 (with_origin2 (hull2 vs)) (prim2_bound (ConvexPolygon vs)).
Proof.
  cbn [prim2_bound]. unfold polygon_bound, get_bound2. destruct zero_box2 as [Hb Hleast].
  destruct (foldl_grow2 vs aabb2_zero Hb) as (F1 & F2 & F3 & F4); [apply Forall_true; intros; split; exact I|]. rewrite Forall_forall in F3. split.
  - intros x [Hx | ->]; [|apply F2, in_zero2]. eapply hull2_in; [|done]. apply F3.
  - intros c Hc. apply F4; [apply Hleast, Hc; by right|]. apply Forall_forall. intros v Hv. apply Hc. left. by apply hull2_vertex.
Qed.
(** All of them contain the primitive, and so do the transformed boxes. *)
Theorem C45_bound2_contains p x : prim2_ok p -> prim2_set p x -> in2 (prim2_bound p) x.
Proof.
  intros Hok Hx. destruct p as [|l|r|dim|s|vs]; [..|exact (proj1 (C45_polygon_bound vs) x (or_introl Hx))];
    (match goal with |- in2 (prim2_bound ?q) _ => exact (proj1 (C45_bound2_smallest q Hok (fun f => f)) x Hx) end).
Qed.
Theorem C45_transformed_bound2 p (T : Xf P2) x :
  prim2_ok p -> PropsAabbReal.affine2 (xf_pt T) -> world T (prim2_set p) x -> in2 (transform2 (prim2_bound p) (xf_pt T)) x.
Proof.
  intros Hok HT (y & Hy & ->). apply (C45_bound2_contains p y Hok) in Hy.
  assert (Hb : box2 (prim2_bound p)). { apply in2_R in Hy. unfold box2. rewrite !Le_R. lra. }
  destruct (C26_transform2_tight _ _ Hb HT) as [_ [Hin _]]. by apply Hin.
Qed.

(** ** Space *)
Lemma box_mid a : - (a / 2) <= a / 2 -> - (a / 2) <= 0 <= a / 2.
Proof. lra. Qed.
Ltac three := split; [|split].
Theorem C45_bound3_smallest p : prim3_ok p -> ~ is_polyhedron p -> smallest3 (prim3_set p) (prim3_bound p).
Proof.
  intros Hok Hp. destruct p as [|dim|r|dim|s|hh r|hh r|vs]; cbn [prim3_bound prim3_set prim3_ok is_polyhedron] in *; [..|done].
  - unfold aabb3_zero, zero3. rewrite new3_le by (cbn; lra).
    apply smallest3_intro; [intros q ->; cbn; lra|..]; (exists zero3; done).
  - unfold quad_bound, quad_half, two, div2. cbn [nneg nadd n1 n0 ndiv Num_R ux uy].
    rewrite new3_le by lra. apply smallest3_intro; [intros q Hq; unfold quad_set in Hq; lra|..].
    + exists (mk3 (- (ux dim / (1 + 1))) 0 0). split; [unfold quad_set; cbn; lra|done].
    + exists (mk3 (ux dim / (1 + 1)) 0 0). split; [unfold quad_set; cbn; lra|done].
    + exists (mk3 0 (- (uy dim / (1 + 1))) 0). split; [unfold quad_set; cbn; lra|done].
    + exists (mk3 0 (uy dim / (1 + 1)) 0). split; [unfold quad_set; cbn; lra|done].
    + exists zero3. split; [unfold quad_set; cbn; lra|done].
    + exists zero3. split; [unfold quad_set; cbn; lra|done].
  - unfold psphere_bound, splat3. cbn [nneg Num_R]. rewrite new3_le by lra. apply smallest3_intro.
    + intros q Hq. unfold ball in Hq. destruct q as [x y z]. rv0.
      assert (0 <= x * x) by nra. assert (0 <= y * y) by nra. assert (0 <= z * z) by nra. cbn. three; nra.
    + exists (mk3 (- r) 0 0). split; [unfold ball; rv0; cbn; lra|done].
    + exists (mk3 r 0 0). split; [unfold ball; rv0; cbn; lra|done].
    + exists (mk3 0 (- r) 0). split; [unfold ball; rv0; cbn; lra|done].
    + exists (mk3 0 r 0). split; [unfold ball; rv0; cbn; lra|done].
    + exists (mk3 0 0 (- r)). split; [unfold ball; rv0; cbn; lra|done].
    + exists (mk3 0 0 r). split; [unfold ball; rv0; cbn; lra|done].
  - unfold cuboid_bound, cuboid_half, two, div3, neg3. cbn [nneg nadd n1 ndiv Num_R vx vy vz].
    rewrite new3_le by lra. apply smallest3_intro; [intros q Hq; unfold box_set in Hq; lra|..].
    + exists (mk3 (- (vx dim / (1 + 1))) 0 0). split; [unfold box_set; cbn; lra|done].
    + exists (mk3 (vx dim / (1 + 1)) 0 0). split; [unfold box_set; cbn; lra|done].
    + exists (mk3 0 (- (vy dim / (1 + 1))) 0). split; [unfold box_set; cbn; lra|done].
    + exists (mk3 0 (vy dim / (1 + 1)) 0). split; [unfold box_set; cbn; lra|done].
    + exists (mk3 0 0 (- (vz dim / (1 + 1)))). split; [unfold box_set; cbn; lra|done].
    + exists (mk3 0 0 (vz dim / (1 + 1))). split; [unfold box_set; cbn; lra|done].
  - unfold cuboid_bound, cuboid_half, two, div3, neg3, cube_dim. cbn [nneg nadd n1 ndiv Num_R vx vy vz].
    rewrite new3_le by lra. apply smallest3_intro; [intros q Hq; unfold box_set in Hq; cbn in Hq; lra|..].
    + exists (mk3 (- (s / (1 + 1))) 0 0). split; [unfold box_set; cbn; lra|done].
    + exists (mk3 (s / (1 + 1)) 0 0). split; [unfold box_set; cbn; lra|done].
    + exists (mk3 0 (- (s / (1 + 1))) 0). split; [unfold box_set; cbn; lra|done].
    + exists (mk3 0 (s / (1 + 1)) 0). split; [unfold box_set; cbn; lra|done].
    + exists (mk3 0 0 (- (s / (1 + 1)))). split; [unfold box_set; cbn; lra|done].
    + exists (mk3 0 0 (s / (1 + 1))). split; [unfold box_set; cbn; lra|done].
  - unfold cylinder_bound. cbn [nneg Num_R]. destruct Hok. rewrite new3_le by lra. apply smallest3_intro.
    + intros q [Hq Hy]. destruct q as [x y z]. cbn in *.
      assert (0 <= x * x) by nra. assert (0 <= z * z) by nra. three; [nra|lra|nra].
    + exists (mk3 (- r) 0 0). split; [unfold cylinder_set; cbn; split; lra|done].
    + exists (mk3 r 0 0). split; [unfold cylinder_set; cbn; split; lra|done].
    + exists (mk3 0 (- hh) 0). split; [unfold cylinder_set; cbn; split; nra|done].
    + exists (mk3 0 hh 0). split; [unfold cylinder_set; cbn; split; nra|done].
    + exists (mk3 0 0 (- r)). split; [unfold cylinder_set; cbn; split; lra|done].
    + exists (mk3 0 0 r). split; [unfold cylinder_set; cbn; split; lra|done].
  - unfold capsule_bound. cbn [nneg nsub nadd Num_R]. destruct Hok. rewrite new3_le by lra. apply smallest3_intro.
    + intros q (c & Hc & Hq). destruct q as [x y z]. cbn in *.
      pose proof (Rle_0_sqr x) as Sx. pose proof (Rle_0_sqr z) as Sz. pose proof (Rle_0_sqr (y - c)) as Sy. unfold Rsqr in *.
      assert (abs_le : forall a, a * a <= r * r -> - r <= a <= r) by (clear - H0; intros; nra).
      pose proof (abs_le (y - c) ltac:(lra)). three; [apply abs_le; lra|lra|apply abs_le; lra].
    + exists (mk3 (- r) 0 0). split; [exists 0; cbn; split; lra|done].
    + exists (mk3 r 0 0). split; [exists 0; cbn; split; lra|done].
    + exists (mk3 0 (- hh - r) 0). split; [exists (- hh); cbn; split; lra|done].
    + exists (mk3 0 (hh + r) 0). split; [exists hh; cbn; split; lra|done].
    + exists (mk3 0 0 (- r)). split; [exists 0; cbn; split; lra|done].
    + exists (mk3 0 0 r). split; [exists 0; cbn; split; lra|done].
Qed.
Theorem C45_polyhedron_bound vs : smallest3 (with_origin3 (hull3 vs)) (prim3_bound (ConvexPolyhedron vs)).
Proof.
  cbn [prim3_bound]. unfold hull_bound, get_bound3. destruct zero_box3 as [Hb Hleast].
  destruct (foldl_grow3 vs aabb3_zero Hb) as (F1 & F2 & F3 & F4); [apply Forall_true; intros; repeat split|]. rewrite Forall_forall in F3. split.
  - intros x [Hx | ->]; [|apply F2, in_zero3]. eapply hull3_in; [|done]. apply F3.
  - intros c Hc. apply F4; [apply Hleast, Hc; by right|]. apply Forall_forall. intros v Hv. apply Hc. left. by apply hull3_vertex.
Qed.
Theorem C45_bound3_contains p x : prim3_ok p -> prim3_set p x -> in3 (prim3_bound p) x.
Proof.
  intros Hok Hx. destruct p as [|dim|r|dim|s|hh r|hh r|vs]; [..|exact (proj1 (C45_polyhedron_bound vs) x (or_introl Hx))];
    (match goal with |- in3 (prim3_bound ?q) _ => exact (proj1 (C45_bound3_smallest q Hok (fun f => f)) x Hx) end).
Qed.
Theorem C45_transformed_bound3 p (T : Xf P3) x :
  prim3_ok p -> PropsAabbReal.affine3 (xf_pt T) -> world T (prim3_set p) x -> in3 (transform3 (prim3_bound p) (xf_pt T)) x.
Proof.
  intros Hok HT (y & Hy & ->). apply (C45_bound3_contains p y Hok) in Hy.
  assert (Hb : box3 (prim3_bound p)). { apply in3_R in Hy. unfold box3. rewrite !Le_R. lra. }
  destruct (C26_transform3_tight _ _ Hb HT) as [_ [Hin _]]. by apply Hin.
Qed.
(** The transforms of the crate's users are such maps. *)
Lemma C45_decomposed2_affine eps s rot disp : PropsAabbReal.affine2 (xf_pt (decomposed2 eps s rot disp)).
Proof.
  destruct rot as [[a b] [c d]], disp as [e f]. exists (a * s), (c * s), e, (b * s), (d * s), f. intros [x y].
  unfold decomposed2, m2_mul. cbn. rv0. f_equal; ring.
Qed.
Lemma C45_decomposed3_affine eps s rot disp : PropsAabbReal.affine3 (xf_pt (decomposed3 eps s rot disp)).
Proof.
  destruct rot as [w [a b c]], disp as [t u v].
  exists (s * (1 - 2 * (b * b + c * c))), (s * (2 * (a * b - w * c))), (s * (2 * (a * c + w * b))), t,
    (s * (2 * (a * b + w * c))), (s * (1 - 2 * (a * a + c * c))), (s * (2 * (b * c - w * a))), u,
    (s * (2 * (a * c - w * b))), (s * (2 * (b * c + w * a))), (s * (1 - 2 * (a * a + b * b))), v.
  intros [x y z]. unfold decomposed3, quat_rot. cbn. rv0. f_equal; ring.
Qed.
(** The box of a polygon away from the origin is not the smallest one. *)
Theorem C45_polygon_bound_refuted :
  exists vs, prim2_ok (ConvexPolygon vs) /\ ~ smallest2 (prim2_set (ConvexPolygon vs)) (prim2_bound (ConvexPolygon vs)).
Proof.
  exists [mk2 1 1; mk2 2 1; mk2 1 2]. split; [split; [done|cbn; lia]|]. intros [_ Hs].
  assert (Hz : in2 (prim2_bound (ConvexPolygon [mk2 1 1; mk2 2 1; mk2 1 2])) zero2) by (apply (proj1 (C45_polygon_bound _)); by right).
  specialize (Hs (mkAabb2 (mk2 1 1) (mk2 2 2))).
  apply Hs in Hz; [apply in2_R in Hz; cbn in Hz; lra|].
  intros x Hx. eapply hull2_in; [|exact Hx]. intros v Hv. apply in2_R.
  rewrite !elem_of_cons in Hv. destruct Hv as [-> | [-> | [-> | []%elem_of_nil]]]; cbn; lra.
Qed.
(** ** Bounding spheres *)
(** Cuboids and quads get the sphere of their longest half side. *)
Definition fits_sphere (p : Primitive3 R) : Prop :=
  match p with
  | QuadP dim => ux dim = 0 \/ uy dim = 0
  | CuboidP dim => (vx dim = 0 /\ vy dim = 0) \/ (vx dim = 0 /\ vz dim = 0) \/ (vy dim = 0 /\ vz dim = 0)
  | CubeP s => s = 0
  | _ => True
  end.

Lemma dist_origin (x : P3) : dist3 zero3 x = mag3 x.
Proof. rewrite dist3_mag. f_equal. apply V3_eq; rv0; cbn; lra. Qed.
Lemma le_extent (vs : list P3) : forall m, let r := foldl max_by_step (Some m) (map mag3 vs) in
  exists e, r = Some e /\ m <= e /\ (forall v, v ∈ vs -> mag3 v <= e) /\ (e = m \/ exists v, v ∈ vs /\ mag3 v = e).
Proof.
  induction vs as [|v vs IH]; intros m; cbn [foldl map].
  - exists m. split; [done|]. split; [lra|]. split; [intros v []%elem_of_nil|by left].
  - unfold max_by_step at 2. unfold pcmp. cbn [nlt neq Num_R].
    assert (exists m', (match (if Rltb m (mag3 v) then Some Lt else if Rltb (mag3 v) m then Some Gt else if Reqb m (mag3 v) then Some Eq else None)
       with Some Gt => m | _ => mag3 v end) = m' /\ m <= m' /\ mag3 v <= m' /\ (m' = m \/ m' = mag3 v)) as (m' & Em & L1 & L2 & Hor).
    { destruct (Rltb m (mag3 v)) eqn:E1; [apply Rltb_true in E1; eexists; split; [done|]; split; [lra|]; split; [lra|by right]|]. apply Rltb_false in E1.
      destruct (Rltb (mag3 v) m) eqn:E2; [apply Rltb_true in E2; eexists; split; [done|]; split; [lra|]; split; [lra|by left]|]. apply Rltb_false in E2.
      exists (mag3 v). split; [by destruct (Reqb _ _)|]. split; [lra|]. split; [lra|by right]. }
    rewrite Em. destruct (IH m') as (e & Ee & Lm & Hall & Hor'). exists e. split; [exact Ee|]. split; [lra|]. split.
    + intros w [-> | Hw]%elem_of_cons; [lra|by apply Hall].
    + destruct Hor' as [-> | (w & Hw & <-)]; [|right; exists w; split; [by right|done]].
      destruct Hor as [-> | ->]; [by left|]. right. exists v. split; [left|done].
Qed.
Lemma max_extent_spec (vs : list P3) : vs <> [] ->
  (forall v, v ∈ vs -> mag3 v <= max_extent vs) /\ exists v, v ∈ vs /\ mag3 v = max_extent vs.
Proof.
  destruct vs as [|v vs]; [done|]. intros _. unfold max_extent. cbn [foldl map]. unfold max_by_step at 2 4.
  destruct (le_extent vs (mag3 v)) as (e & Ee & Lm & Hall & Hor). rewrite Ee. cbn [default]. split.
  - intros w [-> | Hw]%elem_of_cons; [done|by apply Hall].
  - destruct Hor as [-> | (w & Hw & <-)]; [exists v; split; [left|done]|exists w; split; [by right|done]].
Qed.
Lemma hull3_mag vs r x : (forall v, v ∈ vs -> mag3 v <= r) -> hull3 vs x -> mag3 x <= r.
Proof.
  intros Hv Hx. induction Hx as [v Hin|a c t Ha IHa Hc IHc Ht]; [by apply Hv|].
  pose proof (triangle3 (scale3 a (1 - t)) (scale3 c t)) as Htri. rewrite !mag3_scale in Htri. rewrite !Rabs_pos_eq in Htri by lra. nra.
Qed.
Lemma mag3_le (x : P3) r : 0 <= r -> vx x * vx x + vy x * vy x + vz x * vz x <= r * r -> mag3 x <= r.
Proof. intros Hr Hx. apply mag3_le_iff; [done|]. rv0. lra. Qed.
Lemma mag3_eq (x : P3) r : 0 <= r -> vx x * vx x + vy x * vy x + vz x * vz x = r * r -> mag3 x = r.
Proof. intros Hr Hx. apply Rsqr_inj; [apply mag3_nonneg|done|]. unfold Rsqr. rewrite mag3_sqr. rv0. lra. Qed.
Lemma mag3_gt (x : P3) r : 0 <= r -> r * r < vx x * vx x + vy x * vy x + vz x * vz x -> ~ mag3 x <= r.
Proof. intros Hr Hx Hm. apply mag3_le_iff in Hm; [|done]. rv0. lra. Qed.
Lemma sqr_le_sqr a h : 0 <= h -> - h <= a <= h -> a * a <= h * h.
Proof. intros. nra. Qed.
(** The sphere contains the primitive exactly when the primitive is no box or quad with two
    non-zero sides. *)
Theorem C45_sphere_exact p : prim3_ok p ->
  (forall x, prim3_set p x -> dist3 (s_center (prim3_sphere p)) x <= s_radius (prim3_sphere p)) <-> fits_sphere p.
Proof.
  assert (Hbox : forall dim : P3, 0 <= vx dim /\ 0 <= vy dim /\ 0 <= vz dim ->
    (forall x, box_set dim x -> dist3 (s_center (cuboid_sphere dim)) x <= s_radius (cuboid_sphere dim)) <-> fits_sphere (CuboidP dim)).
  { intros [a b c]. cbn [vx vy vz]. intros (Ha & Hb & Hc). unfold cuboid_sphere, cuboid_half, two, div3. cbn [s_center s_radius vx vy vz nadd n1 ndiv Num_R].
    rewrite !PropsSphere.fmax_R. replace (a / (1 + 1)) with (a / 2) by lra. replace (b / (1 + 1)) with (b / 2) by lra. replace (c / (1 + 1)) with (c / 2) by lra.
    set (m := Rmax (Rmax (a / 2) (b / 2)) (c / 2)).
    assert (Hm : a / 2 <= m /\ b / 2 <= m /\ c / 2 <= m /\ (m = a / 2 \/ m = b / 2 \/ m = c / 2)).
    { unfold m, Rmax. repeat destruct (Rle_dec _ _); lra. }
    clearbody m. destruct Hm as (H1 & H2 & H3 & Hm). cbn [fits_sphere vx vy vz]. split.
    - intros Hall. specialize (Hall (mk3 (a / 2) (b / 2) (c / 2))). rewrite dist_origin in Hall.
      assert (Hl : mag3 (mk3 (a / 2) (b / 2) (c / 2)) <= m) by (apply Hall; unfold box_set; cbn; lra).
      apply mag3_le_iff in Hl; [|lra]. rv0. cbn in Hl. destruct Hm as [-> | [-> | ->]]; [right; right|right; left|left]; split; nra.
    - intros Hz x Hx. rewrite dist_origin. unfold box_set in Hx. cbn in Hx. destruct Hx as (X & Y & Z).
      apply mag3_le; [lra|]. apply sqr_le_sqr in X, Y, Z; [|lra..]. 
      assert (a / 2 * (a / 2) <= m * m) by nra. assert (b / 2 * (b / 2) <= m * m) by nra. assert (c / 2 * (c / 2) <= m * m) by nra.
      destruct Hz as [[-> ->] | [[-> ->] | [-> ->]]]; lra. }
  intros Hok. destruct p as [|dim|r|dim|s|hh r|hh r|vs]; cbn [prim3_set prim3_ok prim3_sphere fits_sphere] in *.
  - split; [done|]. intros _ x ->. cbn [s_center s_radius n0 Num_R]. rewrite dist_origin. right. by apply mag3_zero_iff.
  - destruct dim as [a b]. cbn [ux uy] in *. destruct Hok as [Ha Hb]. unfold quad_sphere, quad_half, two, div2. cbn [s_center s_radius ux uy nadd n1 ndiv Num_R].
    rewrite !PropsSphere.fmax_R. replace (a / (1 + 1)) with (a / 2) by lra. replace (b / (1 + 1)) with (b / 2) by lra.
    set (m := Rmax (a / 2) (b / 2)).
    assert (Hm : a / 2 <= m /\ b / 2 <= m /\ (m = a / 2 \/ m = b / 2)).
    { unfold m, Rmax. repeat destruct (Rle_dec _ _); lra. }
    clearbody m. destruct Hm as (H1 & H2 & Hm). split.
    + intros Hall. specialize (Hall (mk3 (a / 2) (b / 2) 0)). rewrite dist_origin in Hall.
      assert (Hl : mag3 (mk3 (a / 2) (b / 2) 0) <= m) by (apply Hall; unfold quad_set; cbn; lra).
      apply mag3_le_iff in Hl; [|lra]. rv0. cbn in Hl. destruct Hm as [-> | ->]; [right|left]; nra.
    + intros Hz x Hx. rewrite dist_origin. unfold quad_set in Hx. cbn in Hx. destruct Hx as (X & Y & Z).
      apply mag3_le; [lra|]. apply sqr_le_sqr in X, Y; [|lra..]. rewrite Z.
      assert (a / 2 * (a / 2) <= m * m) by nra. assert (b / 2 * (b / 2) <= m * m) by nra.
      destruct Hz as [-> | ->]; lra.
  - split; [done|]. intros _ x Hx. cbn [psphere_sphere s_center s_radius]. rewrite dist_origin. apply mag3_le_iff; done.
  - by apply Hbox.
  - split.
    + intros Hall. apply Hbox in Hall; [|done]. cbn in Hall. tauto.
    + intros ->. apply Hbox; [cbn; lra|]. cbn. tauto.
  - split; [done|]. intros _ x [Hx Hy]. cbn [cylinder_sphere s_center s_radius]. rewrite dist_origin.
    assert (Hs : 0 <= r * r + hh * hh) by nra. cbn [nsqrt nadd nmul Num_R].
    apply mag3_le; [apply sqrt_pos|]. rewrite sqrt_sqrt by done. destruct Hok. apply sqr_le_sqr in Hy; [|done]. lra.
  - split; [done|]. intros _ x (c & Hc & Hx). cbn [capsule_sphere s_center s_radius nadd Num_R]. rewrite dist_origin. destruct Hok as [Hh Hr].
    replace x with (add3 (mk3 0 c 0) (sub3 x (mk3 0 c 0))) by (apply V3_eq; rv0; cbn; lra).
    eapply Rle_trans; [apply triangle3|]. apply Rplus_le_compat.
    + apply mag3_le; [done|]. cbn. pose proof (sqr_le_sqr c hh Hh Hc). lra.
    + apply mag3_le; [done|]. rv0. cbn. lra.
  - split; [done|]. intros _ x Hx. cbn [hull_sphere s_center s_radius]. rewrite dist_origin.
    eapply hull3_mag; [|exact Hx]. apply max_extent_spec. exact Hok.
Qed.
(** No smaller sphere around the origin contains the primitive: a point of it lies on the
    boundary. *)
Theorem C45_sphere_tight p : prim3_ok p ->
  exists x, prim3_set p x /\ dist3 (s_center (prim3_sphere p)) x = s_radius (prim3_sphere p).
Proof.
  intros Hok. destruct p as [|dim|r|dim|s|hh r|hh r|vs]; cbn [prim3_set prim3_ok prim3_sphere] in *.
  - exists zero3. split; [done|]. cbn [s_center s_radius n0 Num_R]. rewrite dist_origin. by apply mag3_zero_iff.
  - destruct dim as [a b]. cbn [ux uy] in *. destruct Hok as [Ha Hb]. unfold quad_sphere, quad_half, two, div2. cbn [s_center s_radius ux uy nadd n1 ndiv Num_R].
    rewrite !PropsSphere.fmax_R. unfold Rmax. destruct (Rle_dec _ _).
    + exists (mk3 0 (b / 2) 0). split; [unfold quad_set; cbn; lra|]. rewrite dist_origin. apply mag3_eq; cbn; lra.
    + exists (mk3 (a / 2) 0 0). split; [unfold quad_set; cbn; lra|]. rewrite dist_origin. apply mag3_eq; cbn; lra.
  - exists (mk3 r 0 0). split; [unfold ball; rv0; cbn; lra|]. cbn [psphere_sphere s_center s_radius]. rewrite dist_origin. apply mag3_eq; cbn; lra.
  - destruct dim as [a b c]. cbn [vx vy vz] in *. destruct Hok as (Ha & Hb & Hc). unfold cuboid_sphere, cuboid_half, two, div3. cbn [s_center s_radius vx vy vz nadd n1 ndiv Num_R].
    rewrite !PropsSphere.fmax_R. unfold Rmax. repeat destruct (Rle_dec _ _);
     (exists (mk3 0 0 (c / 2)) + exists (mk3 0 (b / 2) 0) + exists (mk3 (a / 2) 0 0)); (split; [unfold box_set; cbn; lra|]; rewrite dist_origin; apply mag3_eq; cbn; lra).
  - unfold cuboid_sphere, cuboid_half, two, div3, cube_dim. cbn [s_center s_radius vx vy vz nadd n1 ndiv Num_R].
    rewrite !PropsSphere.fmax_R. rewrite !(Rmax_left (s / (1 + 1)) (s / (1 + 1))) by lra. exists (mk3 (s / 2) 0 0).
    split; [unfold box_set; cbn; lra|]. rewrite dist_origin. apply mag3_eq; cbn; lra.
  - exists (mk3 r hh 0). destruct Hok. split; [unfold cylinder_set; cbn; lra|]. cbn [cylinder_sphere s_center s_radius nsqrt nadd nmul Num_R].
    rewrite dist_origin. apply mag3_eq; [apply sqrt_pos|]. rewrite sqrt_sqrt by nra. cbn. lra.
  - exists (mk3 0 (hh + r) 0). destruct Hok. split; [exists hh; cbn; lra|]. cbn [capsule_sphere s_center s_radius nadd Num_R]. rewrite dist_origin.
    apply mag3_eq; cbn; lra.
  - destruct (max_extent_spec vs Hok) as [_ (v & Hv & E)]. exists v. split; [by apply hull3_vertex|].
    cbn [hull_sphere s_center s_radius]. by rewrite dist_origin.
Qed.
(** The unit cube sticks out of its bounding sphere. *)
Theorem C45_cube_sphere_refuted : exists x, prim3_set (CubeP 1) x /\ s_radius (prim3_sphere (CubeP 1)) < dist3 (s_center (prim3_sphere (CubeP 1))) x.
Proof.
  exists (mk3 (1/2) (1/2) (1/2)). split; [cbn; unfold box_set; cbn; lra|].
  apply Rnot_le_lt. intros Hle. assert (prim3_ok (CubeP 1)) as Hok by (cbn; lra).
  cbn [prim3_sphere] in Hle. unfold cuboid_sphere, cuboid_half, two, div3, cube_dim in Hle. cbn [s_center s_radius vx vy vz nadd n1 ndiv Num_R] in Hle.
  rewrite !PropsSphere.fmax_R in Hle. rewrite !(Rmax_left (1 / (1 + 1)) (1 / (1 + 1))) in Hle by lra. rewrite dist_origin in Hle. revert Hle. apply mag3_gt; cbn; lra.
Qed.
(** The hypotheses are met: a capsule standing on a tilted plane, a moved and scaled polygon. *)
Example C45_hypotheses_met :
  prim3_ok (CapsuleP 2 1) /\ prim3_set (CapsuleP 2 1) (mk3 0 3 0) /\ fits_sphere (CapsuleP 2 1) /\ ~ is_polyhedron (CapsuleP 2 1) /\
  prim2_ok (ConvexPolygon [mk2 1 1; mk2 2 1; mk2 1 2]) /\
  PropsAabbReal.affine2 (xf_pt (decomposed2 0 2 (mkM2 (mk2 0 1) (mk2 (-1) 0)) (mk2 5 6))) /\
  ~ fits_sphere (CubeP 1).
Proof.
  split; [cbn; lra|]. split; [exists 2; cbn; lra|]. split; [done|]. split; [by intros []|]. split; [split; [done|cbn; lia]|].
  split; [apply C45_decomposed2_affine|cbn; lra].
Qed.
