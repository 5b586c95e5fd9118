(** Model of transformed ray tests (/repo/src/ray.rs), moving particles
    (/repo/src/primitive/particle.rs) and the ray tests of the [Primitive2] enum. *)
From stdpp Require Import prelude.
From Coq Require Import Reals.
From Verif Require Import Res Num Vec AabbModel GeoModel PrimModel PrimEnum.

Section xform.
  Context {S : Type} `{Num S} {V : Type}.
  Local Open Scope num_scope.
  (** ray.rs 45-55 [Ray::transform]. *)
  Definition ray_xf (T : (V -> V) * (V -> V)) (r : Ray V) : Ray V := mkRay (T.1 (origin r)) (T.2 (direction r)).
  (** ray.rs 115-120 [intersects_transformed], 132-142 [intersection_transformed]: the
      [unwrap] of [inverse_transform] panics without an inverse. *)
  Definition intersects_transformed (test : Ray V -> res bool) (r : Ray V) (T : Xf V) : res bool :=
    match xf_inv T with None => Panic | Some Ti => test (ray_xf Ti r) end.
  Definition intersection_transformed (hit : Ray V -> res (option V)) (r : Ray V) (T : Xf V) : res (option V) :=
    match xf_inv T with None => Panic | Some Ti => o ← hit (ray_xf Ti r); Ok (option_map (xf_pt T) o) end.
  (** particle.rs 51-58, 83-108 (tests), 122-132, 147-166 (points): the sweep of a particle
      from [a] to [b]; [hit] is [intersection] or [intersection_transformed]. *)
  Context (sub : V -> V -> V) (mag2v : V -> S) (normalize : V -> V).
  Definition particle_hit (hit : Ray V -> res (option V)) (a b : V) : res (option V) :=
    let d := sub b a in
    o ← hit (mkRay a (normalize d));
    Ok match o with
       | None => None
       | Some p => if mag2v (sub p a) <=? mag2v d then Some p else None
       end.
  Definition particle_test (hit : Ray V -> res (option V)) (a b : V) : res bool :=
    let d := sub b a in
    o ← hit (mkRay a (normalize d));
    Ok match o with
       | None => false
       | Some p => mag2v (sub p a) <=? mag2v d
       end.
End xform.
