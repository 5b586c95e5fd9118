(** Specification vocabulary for the narrow phase, over the reals. *)
From stdpp Require Import prelude.
From Coq Require Import Reals Lra.
From Verif Require Import Res Num Vec RealGeo PrimModel ShapeSpec MinkModel.
Local Open Scope R_scope.

Definition convex2 (A : P2 -> Prop) : Prop :=
  forall x y t, A x -> A y -> 0 <= t <= 1 -> A (add2 (scale2 x (1 - t)) (scale2 y t)).
Definition convex3 (A : P3 -> Prop) : Prop :=
  forall x y t, A x -> A y -> 0 <= t <= 1 -> A (add3 (scale3 x (1 - t)) (scale3 y t)).

(** [sup] is a support function of the set [A]: for every nonzero direction it returns a
    furthest point of [A] (what C38 proves for the primitives of the crate). *)
Definition supports2 (A : P2 -> Prop) (sup : P2 -> res P2) : Prop :=
  forall d, d <> zero2 -> exists s, sup d = Ok s /\ furthest2 A d s.
Definition supports3 (A : P3 -> Prop) (sup : P3 -> res P3) : Prop :=
  forall d, d <> zero3 -> exists s, sup d = Ok s /\ furthest3 A d s.
(** ... and all its results are among the points [vs] of [A] (polygons, polyhedra). *)
Definition vertices2 (A : P2 -> Prop) (sup : P2 -> res P2) (vs : list P2) : Prop :=
  (forall v, v ∈ vs -> A v) /\ forall d s, d <> zero2 -> sup d = Ok s -> s ∈ vs.
Definition vertices3 (A : P3 -> Prop) (sup : P3 -> res P3) (vs : list P3) : Prop :=
  (forall v, v ∈ vs -> A v) /\ forall d s, d <> zero3 -> sup d = Ok s -> s ∈ vs.

(** A support point really is the difference of a point of [A] and a point of [B]. *)
Definition witness2 (A B : P2 -> Prop) (s : SupPt P2) : Prop :=
  A (sp_a s) /\ B (sp_b s) /\ sp_v s = sub2 (sp_a s) (sp_b s).
Definition witness3 (A B : P3 -> Prop) (s : SupPt P3) : Prop :=
  A (sp_a s) /\ B (sp_b s) /\ sp_v s = sub3 (sp_a s) (sp_b s).

(** A line (a plane) weakly separates the two sets: they have no interior point in
    common. *)
Definition separated2 (A B : P2 -> Prop) : Prop :=
  exists d, d <> zero2 /\ forall x y, A x -> B y -> dot2 d x <= dot2 d y.
Definition separated3 (A B : P3 -> Prop) : Prop :=
  exists d, d <> zero3 /\ forall x y, A x -> B y -> dot3 d x <= dot3 d y.
