(** Model of /repo/src/primitive/primitive2.rs, primitive3.rs: the enums of primitives and
    the functions they dispatch; and the sets of points they stand for (over the reals). *)
From Coq Require Import Psatz.
From stdpp Require Import prelude.
From Coq Require Import Reals Lra.
From Verif Require Import Res Num Vec AabbModel GeoModel RealGeo PrimModel ShapeSpec PropsSupport MinkModel MinkSpec PropsGjk2.
Local Open Scope R_scope.

Section enums.
  Context {S : Type} `{Num S} `{NumSgn S}.
  (** primitive2.rs 15-32 [Primitive2]. *)
  Inductive Primitive2 :=
    | Particle2 | LineP (l : Line (V2 S)) | Circle (r : S) | Rectangle (dim : V2 S) | Square (s : S)
    | ConvexPolygon (vs : list (V2 S)).
  (** primitive3.rs 19-40 [Primitive3]; a polyhedron built by [ConvexPolyhedron::new] (vertices
      only). *)
  Inductive Primitive3 :=
    | Particle3 | QuadP (dim : V2 S) | SphereP (r : S) | CuboidP (dim : V3 S) | CubeP (s : S)
    | CylinderP (hh r : S) | CapsuleP (hh r : S) | ConvexPolyhedron (vs : list (V3 S)).
  (** primitive2.rs 85-106 [support_point]. *)
  Definition prim2_support (p : Primitive2) (d : V2 S) (T : Xf (V2 S)) : res (V2 S) :=
    match p with
    | Particle2 => particle_support zero2 T
    | LineP l => line_support l d T
    | Circle r => circle_support r d T
    | Rectangle dim => rect_support dim d T
    | Square s => rect_support (square_dim s) d T
    | ConvexPolygon vs => polygon_support vs d T
    end.
  (** primitive3.rs 153-177 [support_point]. *)
  Definition prim3_support (p : Primitive3) (d : V3 S) (T : Xf (V3 S)) : res (V3 S) :=
    match p with
    | Particle3 => particle_support zero3 T
    | QuadP dim => quad_support dim d T
    | SphereP r => sphere_support r d T
    | CuboidP dim => cuboid_support dim d T
    | CubeP s => cuboid_support (cube_dim s) d T
    | CylinderP hh r => cylinder_support hh r d T
    | CapsuleP hh r => capsule_support hh r d T
    | ConvexPolyhedron vs => hull_support vs d T
    end.
  (** primitive2.rs 70-83 [compute_bound]. *)
  Definition prim2_bound (p : Primitive2) : Aabb2 S :=
    match p with
    | Particle2 => aabb2_zero
    | LineP l => line_bound l
    | Circle r => circle_bound r
    | Rectangle dim => rect_bound dim
    | Square s => rect_bound (square_dim s)
    | ConvexPolygon vs => polygon_bound vs
    end.
  (** primitive3.rs 114-129 [compute_bound] (boxes). *)
  Definition prim3_bound (p : Primitive3) : Aabb3 S :=
    match p with
    | Particle3 => aabb3_zero
    | QuadP dim => quad_bound dim
    | SphereP r => psphere_bound r
    | CuboidP dim => cuboid_bound dim
    | CubeP s => cuboid_bound (cube_dim s)
    | CylinderP hh r => cylinder_bound hh r
    | CapsuleP hh r => capsule_bound hh r
    | ConvexPolyhedron vs => hull_bound vs
    end.
  (** primitive3.rs 131-151 [compute_bound] (spheres). *)
  Definition prim3_sphere (p : Primitive3) : Sphere S :=
    match p with
    | Particle3 => mkSphere zero3 n0
    | QuadP dim => quad_sphere dim
    | SphereP r => psphere_sphere r
    | CuboidP dim => cuboid_sphere dim
    | CubeP s => cuboid_sphere (cube_dim s)
    | CylinderP hh r => cylinder_sphere hh r
    | CapsuleP hh r => capsule_sphere hh r
    | ConvexPolyhedron vs => hull_sphere vs
    end.
End enums.
Arguments Primitive2 S : clear implicits.
Arguments Primitive3 S : clear implicits.

(** ** The sets the primitives stand for *)
Definition prim2_set (p : Primitive2 R) : P2 -> Prop :=
  match p with
  | Particle2 => fun x => x = zero2
  | LineP l => seg_set l
  | Circle r => disc r
  | Rectangle dim => rect_set dim
  | Square s => rect_set (mk2 s s)
  | ConvexPolygon vs => hull2 vs
  end.
Definition prim3_set (p : Primitive3 R) : P3 -> Prop :=
  match p with
  | Particle3 => fun x => x = zero3
  | QuadP dim => quad_set dim
  | SphereP r => ball r
  | CuboidP dim => box_set dim
  | CubeP s => box_set (mk3 s s s)
  | CylinderP hh r => cylinder_set hh r
  | CapsuleP hh r => capsule_set hh r
  | ConvexPolyhedron vs => hull3 vs
  end.
(** Lengths are not negative; polygons have a vertex, and fewer than ten (the search for the
    support point of larger ones is wrong, C38). *)
Definition prim2_ok (p : Primitive2 R) : Prop :=
  match p with
  | Particle2 | LineP _ => True
  | Circle r => 0 <= r
  | Rectangle dim => 0 <= ux dim /\ 0 <= uy dim
  | Square s => 0 <= s
  | ConvexPolygon vs => vs <> [] /\ (length vs < 10)%nat
  end.
Definition prim3_ok (p : Primitive3 R) : Prop :=
  match p with
  | Particle3 => True
  | QuadP dim => 0 <= ux dim /\ 0 <= uy dim
  | SphereP r => 0 <= r
  | CuboidP dim => 0 <= vx dim /\ 0 <= vy dim /\ 0 <= vz dim
  | CubeP s => 0 <= s
  | CylinderP hh r | CapsuleP hh r => 0 <= hh /\ 0 <= r
  | ConvexPolyhedron vs => vs <> []
  end.

(** ** Convexity *)
Lemma dot3_sub_r (d x y : P3) : dot3 d (sub3 x y) = dot3 d x - dot3 d y.
Proof. rv0. ring. Qed.
Lemma similar3_mix (T : Xf P3) x y t :
  similar3 T -> xf_pt T (add3 (scale3 x (1 - t)) (scale3 y t)) = add3 (scale3 (xf_pt T x) (1 - t)) (scale3 (xf_pt T y) t).
Proof.
  intros (k & Hk & HT).
  assert (Hd : forall d, dot3 d (xf_pt T (add3 (scale3 x (1 - t)) (scale3 y t))) =
    dot3 d (add3 (scale3 (xf_pt T x) (1 - t)) (scale3 (xf_pt T y) t))).
  { intros d. destruct (HT d) as (d' & _ & _ & HTd).
    pose proof (HTd (add3 (scale3 x (1 - t)) (scale3 y t)) y) as E1. pose proof (HTd x y) as E2.
    rewrite dot3_sub_r in E1, E2.
    replace (dot3 d' (sub3 (add3 (scale3 x (1 - t)) (scale3 y t)) y)) with ((1 - t) * dot3 d' (sub3 x y)) in E1
      by (clear; rv0; ring).
    replace (dot3 d (add3 (scale3 (xf_pt T x) (1 - t)) (scale3 (xf_pt T y) t)))
      with ((1 - t) * (dot3 d (xf_pt T x) - dot3 d (xf_pt T y)) + dot3 d (xf_pt T y)) by (clear; rv0; ring).
    rewrite E2. lra. }
  apply V3_eq; [specialize (Hd (mk3 1 0 0))|specialize (Hd (mk3 0 1 0))|specialize (Hd (mk3 0 0 1))]; revert Hd;
    generalize (xf_pt T (add3 (scale3 x (1 - t)) (scale3 y t))), (add3 (scale3 (xf_pt T x) (1 - t)) (scale3 (xf_pt T y) t));
    intros; rv0; lra.
Qed.
Lemma world_convex3 (T : Xf P3) A : similar3 T -> convex3 A -> convex3 (world T A).
Proof.
  intros HT HA x y t (x' & Hx & ->) (y' & Hy & ->) Ht. rewrite <- similar3_mix by done. eexists. split; [|done]. by apply HA.
Qed.
Lemma hull3_convex vs : convex3 (hull3 vs).
Proof. intros x y t Hx Hy Ht. by apply hull3_mix. Qed.
Lemma box_convex dim : convex3 (box_set dim).
Proof. intros x y t (X1 & Y1 & Z1) (X2 & Y2 & Z2) Ht. unfold box_set. rv0. split; [|split]; split; nra. Qed.
Lemma quad_convex dim : convex3 (quad_set dim).
Proof. intros x y t (X1 & Y1 & Z1) (X2 & Y2 & Z2) Ht. unfold quad_set. rv0. split; [|split]; [split; nra|split; nra|nra]. Qed.
(** A square of a mean is at most the mean of the squares. *)
Lemma mean_sqr a b t : 0 <= t <= 1 -> (a * (1 - t) + b * t) * (a * (1 - t) + b * t) <= (1 - t) * (a * a) + t * (b * b).
Proof. intros Ht. assert (0 <= t * (1 - t) * ((a - b) * (a - b))) by (apply Rmult_le_pos; [apply Rmult_le_pos; lra|apply Rle_0_sqr]). nra. Qed.
Lemma mean_le a b m t : 0 <= t <= 1 -> a <= m -> b <= m -> (1 - t) * a + t * b <= m.
Proof. nra. Qed.
Lemma disc_convex r : convex2 (disc r).
Proof.
  intros x y t Hx Hy Ht. unfold disc in *. rv0.
  pose proof (mean_sqr (ux x) (ux y) t Ht). pose proof (mean_sqr (uy x) (uy y) t Ht).
  pose proof (mean_le _ _ _ t Ht Hx Hy). lra.
Qed.
Lemma ball_convex r : convex3 (ball r).
Proof.
  intros x y t Hx Hy Ht. unfold ball in *. rv0.
  pose proof (mean_sqr (vx x) (vx y) t Ht). pose proof (mean_sqr (vy x) (vy y) t Ht). pose proof (mean_sqr (vz x) (vz y) t Ht).
  pose proof (mean_le _ _ _ t Ht Hx Hy). lra.
Qed.
Lemma cylinder_convex hh r : convex3 (cylinder_set hh r).
Proof.
  intros x y t [Hx Hx'] [Hy Hy'] Ht. unfold cylinder_set in *. rv0.
  pose proof (mean_sqr (vx x) (vx y) t Ht). pose proof (mean_sqr (vz x) (vz y) t Ht).
  pose proof (mean_le _ _ _ t Ht Hx Hy). split; [lra|]. split; nra.
Qed.
Lemma capsule_convex hh r : convex3 (capsule_set hh r).
Proof.
  intros x y t (a & Ha & Hx) (b & Hb & Hy) Ht. exists (a * (1 - t) + b * t). split; [split; nra|]. rv0.
  pose proof (mean_sqr (vx x) (vx y) t Ht). pose proof (mean_sqr (vz x) (vz y) t Ht). pose proof (mean_sqr (vy x - a) (vy y - b) t Ht).
  pose proof (mean_le _ _ _ t Ht Hx Hy).
  replace (vy x * (1 - t) + vy y * t - (a * (1 - t) + b * t)) with ((vy x - a) * (1 - t) + (vy y - b) * t) by ring. lra.
Qed.
Lemma seg_convex l : convex2 (seg_set l).
Proof.
  intros x y t (a & Ha & ->) (b & Hb & ->) Ht. exists (a * (1 - t) + b * t). split; [split; nra|].
  apply V2_eq; rv0; ring.
Qed.
Lemma prim2_convex p : convex2 (prim2_set p).
Proof.
  destruct p; cbn [prim2_set];
    [|apply seg_convex|apply disc_convex|apply rect_convex|apply rect_convex|apply hull2_convex].
  intros x y t -> -> _. apply V2_eq; rv0; ring.
Qed.
Lemma prim3_convex p : convex3 (prim3_set p).
Proof.
  destruct p; cbn [prim3_set];
    [|apply quad_convex|apply ball_convex|apply box_convex|apply box_convex|apply cylinder_convex|apply capsule_convex|apply hull3_convex].
  intros x y t -> -> _. apply V3_eq; rv0; ring.
Qed.
(** ** Support *)
Lemma prim2_supports p T : prim2_ok p -> similar2 T -> supports2 (world T (prim2_set p)) (fun d => prim2_support p d T).
Proof.
  intros Hp HT d Hd. destruct p; cbn [prim2_ok prim2_set prim2_support] in *.
  - apply C38_particle2.
  - by apply C38_line.
  - by apply C38_circle.
  - destruct Hp. by apply C38_rectangle.
  - by apply C38_rectangle.
  - destruct Hp. by apply C38_small_polygon.
Qed.
Lemma prim3_supports p T : prim3_ok p -> similar3 T -> supports3 (world T (prim3_set p)) (fun d => prim3_support p d T).
Proof.
  intros Hp HT d Hd. destruct p; cbn [prim3_ok prim3_set prim3_support] in *.
  - apply C38_particle3.
  - destruct Hp. by apply C38_quad.
  - by apply C38_sphere.
  - destruct Hp as (? & ? & ?). by apply C38_cuboid.
  - by apply C38_cuboid.
  - destruct Hp. by apply C38_cylinder.
  - destruct Hp. by apply C38_capsule.
  - by apply C38_polyhedron.
Qed.
Lemma prim3_world_convex p T : similar3 T -> convex3 (world T (prim3_set p)).
Proof. intros HT. apply world_convex3; [done|apply prim3_convex]. Qed.
Lemma prim2_world_convex p T : similar2 T -> convex2 (world T (prim2_set p)).
Proof. intros HT. apply world_convex2; [done|apply prim2_convex]. Qed.
