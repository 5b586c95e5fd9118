(** Model of /repo/src/dbvt/visitor.rs and /repo/src/dbvt/util.rs. *)
From stdpp Require Import prelude.
From Verif Require Import Res DbvtModel.

(** visitor.rs 39-50 [ContinuousVisitor::accept]; [hit] is [Continuous::intersection]
    against the fixed query object.  The visitor has no state. *)
Definition continuous_visitor {B P} (hit : B -> option P) : visitor unit B P :=
  fun w b _ => (hit b, w).

(** visitor.rs 80-95 [DiscreteVisitor::accept]; [test] is [Discrete::intersects]. *)
Definition discrete_visitor {B} (test : B -> bool) : visitor unit B unit :=
  fun w b _ => (if test b then Some () else None, w).

(** traits.rs/plane.rs [Relation]. *)
Inductive relation3 := RIn | RCross | ROut.
Global Instance relation3_eq_dec : EqDecision relation3.
Proof. solve_decision. Defined.
(** visitor.rs 125-142 [FrustumVisitor::accept]; [rel] is [Frustum::contains]. *)
Definition frustum_visitor {B} (rel : B -> relation3) : visitor unit B relation3 :=
  fun w b _ => (match rel b with ROut => None | r => Some r end, w).

Section ray.
  Context {T B S : Type} (O : dbvt_ops T B S).
  (** [hit b] is [b.intersection(&ray)]; [along p] is
      [(p - ray.origin).dot(ray.direction)]; [lt] is [<] on the scalar; [inf] is
      [S::infinity()]. *)
  Context {P K : Type} (hit : B -> option P) (along : P -> K) (lt : K -> K -> bool) (inf : K).

  (** util.rs 42-72 [RayClosestVisitor::accept]; the state is [self.min]. *)
  Definition closest_visitor : visitor K B P :=
    fun mn b is_leaf =>
      match hit b with
      | Some p =>
          let t := along p in
          if lt t mn then (Some p, if is_leaf then t else mn) else (None, mn)
      | None => (None, mn)
      end.

  (** util.rs 103-113, the loop of [query_ray_closest]. *)
  Fixpoint closest_loop (l : list (T * P)) (tmin : K) (saved : option (T * P)) : option (T * P) :=
    match l with
    | [] => saved
    | (v, p) :: l' =>
        let t := along p in
        if lt t tmin then closest_loop l' t (Some (v, p)) else closest_loop l' tmin saved
    end.
  (** util.rs 84-114 [query_ray_closest]. *)
  Definition query_ray_closest (fuel : nat) (s : dbvt T B) : res (option (T * P)) :=
    l ← query O fuel closest_visitor s inf;
    Ok (closest_loop l inf None).

  (** util.rs 126-144 [query_ray]. *)
  Definition query_ray (fuel : nat) (s : dbvt T B) : res (list (T * P)) :=
    query O fuel (continuous_visitor hit) s ().
End ray.
