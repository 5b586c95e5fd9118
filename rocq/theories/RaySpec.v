(** Specification: half-lines and sets of points (over the reals). *)
From Coq Require Import Psatz.
From stdpp Require Import prelude.
From Coq Require Import Reals Lra.
From Verif Require Import Num Vec RealGeo ShapeSpec.
Local Open Scope R_scope.

(** The point of the ray at parameter [t]; the ray is the part with [0 <= t]. *)
Definition along2 (r : Ray P2) (t : R) : P2 := mk2 (ux (origin r) + ux (direction r) * t) (uy (origin r) + uy (direction r) * t).
Definition along3 (r : Ray P3) (t : R) : P3 :=
  mk3 (vx (origin r) + vx (direction r) * t) (vy (origin r) + vy (direction r) * t) (vz (origin r) + vz (direction r) * t).
(** The ray has a point in the set [A]. *)
Definition ray_meets {V} (along : R -> V) (A : V -> Prop) : Prop := exists t, 0 <= t /\ A (along t).
(** [p] is the first point of the ray in the set [A]. *)
Definition ray_first {V} (along : R -> V) (A : V -> Prop) (p : V) : Prop :=
  exists t, 0 <= t /\ p = along t /\ A p /\ forall s, 0 <= s < t -> ~ A (along s).

Lemma ray_first_meets {V} (along : R -> V) A p : ray_first along A p -> ray_meets along A.
Proof. intros (t & Ht & -> & HA & _). by exists t. Qed.
Lemma ray_first_unique {V} (along : R -> V) A p q : ray_first along A p -> ray_first along A q -> p = q.
Proof.
  intros (t & Ht & -> & HA & Hf) (s & Hs & -> & HB & Hg). destruct (Rtotal_order s t) as [Hlt | [-> | Hlt]]; [|done|].
  - by destruct (Hf s).
  - by destruct (Hg t).
Qed.
Lemma along2_add r t : add2 (origin r) (scale2 (direction r) t) = along2 r t.
Proof. by apply V2_eq. Qed.
Lemma along3_add r t : add3 (origin r) (scale3 (direction r) t) = along3 r t.
Proof. by apply V3_eq. Qed.
