(** Specification of shapes as sets of points, over the reals; independent of the model's
    functions except for the vector operations and the transform record. *)
From stdpp Require Import prelude.
From Coq Require Import Reals Lra.
From Verif Require Import Num Vec RealGeo PrimModel.
Local Open Scope R_scope.

Global Instance Rle_trans_inst : Transitive Rle.
Proof. intros x y z. lra. Qed.

Notation P2 := (V2 R).
Notation P3 := (V3 R).
(** Sets of points. *)
Definition disc (r : R) (x : P2) : Prop := dot2 x x <= r * r.
Definition ball (r : R) (x : P3) : Prop := dot3 x x <= r * r.
(** Axis: the y axis; height [2 hh]. *)
Definition cylinder_set (hh r : R) (x : P3) : Prop :=
  vx x * vx x + vz x * vz x <= r * r /\ - hh <= vy x <= hh.
(** All points within [r] of the segment from [(0,-hh,0)] to [(0,hh,0)]. *)
Definition capsule_set (hh r : R) (x : P3) : Prop :=
  exists y, - hh <= y <= hh /\ vx x * vx x + (vy x - y) * (vy x - y) + vz x * vz x <= r * r.
(** A box, a flat quad in the xy plane and a rectangle centred at the origin, given by
    their side lengths. *)
Definition box_set (dim : P3) (x : P3) : Prop :=
  - (vx dim / 2) <= vx x <= vx dim / 2 /\ - (vy dim / 2) <= vy x <= vy dim / 2 /\ - (vz dim / 2) <= vz x <= vz dim / 2.
Definition quad_set (dim : P2) (x : P3) : Prop :=
  - (ux dim / 2) <= vx x <= ux dim / 2 /\ - (uy dim / 2) <= vy x <= uy dim / 2 /\ vz x = 0.
Definition rect_set (dim : P2) (x : P2) : Prop :=
  - (ux dim / 2) <= ux x <= ux dim / 2 /\ - (uy dim / 2) <= uy x <= uy dim / 2.
Definition seg_set (l : Line P2) (x : P2) : Prop :=
  exists t, 0 <= t <= 1 /\ x = add2 (l_origin l) (scale2 (sub2 (l_dest l) (l_origin l)) t).
(** Convex hulls. *)
Inductive hull2 (vs : list P2) : P2 -> Prop :=
  | hull2_vertex v : v ∈ vs -> hull2 vs v
  | hull2_mix a b t : hull2 vs a -> hull2 vs b -> 0 <= t <= 1 -> hull2 vs (add2 (scale2 a (1 - t)) (scale2 b t)).
Inductive hull3 (vs : list P3) : P3 -> Prop :=
  | hull3_vertex v : v ∈ vs -> hull3 vs v
  | hull3_mix a b t : hull3 vs a -> hull3 vs b -> 0 <= t <= 1 -> hull3 vs (add3 (scale3 a (1 - t)) (scale3 b t)).

(** The set [A] after the transform [T]. *)
Definition world {V} (T : Xf V) (A : V -> Prop) (x : V) : Prop := exists y, A y /\ x = xf_pt T y.

(** [s] is a point of [A] that is furthest in the direction [d]. *)
Definition furthest2 (A : P2 -> Prop) (d s : P2) : Prop := A s /\ forall x, A x -> dot2 d x <= dot2 d s.
Definition furthest3 (A : P3 -> Prop) (d s : P3) : Prop := A s /\ forall x, A x -> dot3 d x <= dot3 d s.

(** Transforms made of a rotation or reflection, a uniform scale and a translation: they
    have an inverse, and pulling a direction back by the inverse keeps its products with
    differences of points, up to one positive factor. *)
Definition similar2 (T : Xf P2) : Prop :=
  exists k, 0 < k /\ forall d, exists d', xf_ivec T d = Some d' /\ (d <> zero2 -> d' <> zero2) /\
    forall x y, dot2 d (sub2 (xf_pt T x) (xf_pt T y)) = k * dot2 d' (sub2 x y).
Definition similar3 (T : Xf P3) : Prop :=
  exists k, 0 < k /\ forall d, exists d', xf_ivec T d = Some d' /\ (d <> zero3 -> d' <> zero3) /\
    forall x y, dot3 d (sub3 (xf_pt T x) (xf_pt T y)) = k * dot3 d' (sub3 x y).

(** The Minkowski difference of two sets. *)
Definition mdiff2 (A B : P2 -> Prop) (v : P2) : Prop := exists x y, A x /\ B y /\ v = sub2 x y.
Definition mdiff3 (A B : P3 -> Prop) (v : P3) : Prop := exists x y, A x /\ B y /\ v = sub3 x y.
