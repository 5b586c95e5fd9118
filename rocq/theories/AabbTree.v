(** Model of /repo/src/dbvt/wrapped.rs and the instances of the tree and broad phases
    for axis-aligned boxes. *)
From stdpp Require Import prelude.
From Verif Require Import Res DbvtModel Num Vec AabbModel.

(** dbvt/wrapped.rs 10-22 [TreeValueWrapped]. *)
Record wrapped (V B D : Type) := Wrapped { w_value : V; w_bound : B; w_margin : D }.
Arguments Wrapped {V B D} _ _ _. Arguments w_value {V B D} _. Arguments w_bound {V B D} _. Arguments w_margin {V B D} _.

Section ops.
  Context {S : Type} `{Num S} (V : Type).
  (** [third] is [S::from(SURFACE_AREA_IMPROVEMENT_FOR_ROTATION)], dbvt/mod.rs 107. *)
  Context (third : S).
  Local Open Scope num_scope.
  Definition improves (my mn : S) : bool := (my - mn) / my >? third.
  (** wrapped.rs 39-54 [TreeValue], with [Bound::with_margin] of aabb/mod.rs 164-166. *)
  Definition aabb2_ops : dbvt_ops (wrapped V (Aabb2 S) (V2 S)) (Aabb2 S) S := {|
    tv_bound v := w_bound v;
    tv_fat v := add_margin2 (w_bound v) (w_margin v);
    b_union := union2; b_contains := contains2; b_area := surface_area2;
    s_lt := nlt; s_improves := improves |}.
  Definition aabb3_ops : dbvt_ops (wrapped V (Aabb3 S) (V3 S)) (Aabb3 S) S := {|
    tv_bound v := w_bound v;
    tv_fat v := add_margin3 (w_bound v) (w_margin v);
    b_union := union3; b_contains := contains3; b_area := surface_area3;
    s_lt := nlt; s_improves := improves |}.
  (** wrapped.rs 79-91 [From<(V, B)>]: margin zero. *)
  Definition wrap2 (v : V) (b : Aabb2 S) : wrapped V (Aabb2 S) (V2 S) := Wrapped v b zero2.
  Definition wrap3 (v : V) (b : Aabb3 S) : wrapped V (Aabb3 S) (V3 S) := Wrapped v b zero3.
End ops.

(** [min_extent]/[max_extent] (aabb/mod.rs 156-162) as coordinate lists, for the sweep and prune. *)
Definition coords2 {S} (p : V2 S) : list S := [ux p; uy p].
Definition coords3 {S} (p : V3 S) : list S := [vx p; vy p; vz p].
