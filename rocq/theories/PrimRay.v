(** Model of the ray operations of the enums [Primitive2] and [Primitive3]
    (/repo/src/primitive/primitive2.rs 106-155, primitive3.rs 178-227) and of
    /repo/src/primitive/particle.rs 61-85 (ray against a particle at rest). *)
From stdpp Require Import prelude.
From Verif Require Import Res Num Vec AabbModel GeoModel PrimModel PrimEnum MeshModel XformModel.

Section primray.
  Context {S : Type} `{Num S} `{NumInf S}.
  Local Open Scope num_scope.
  (** [releq]: approx [relative_eq] with the default tolerances (ray.rs 97-103). *)
  Context (releq : S -> S -> bool).
  (** particle.rs 61-71 (test), 73-85 (point): the ray is tested against the point at the
      origin; ray.rs 72-86: the point itself is the answer. *)
  Definition particle2_ray_test (r : Ray (V2 S)) : bool := pt_ray2_test releq zero2 r.
  Definition particle2_ray (r : Ray (V2 S)) : option (V2 S) := if particle2_ray_test r then Some zero2 else None.
  Definition particle3_ray_test (r : Ray (V3 S)) : bool := pt_ray3_test releq zero3 r.
  Definition particle3_ray (r : Ray (V3 S)) : option (V3 S) := if particle3_ray_test r then Some zero3 else None.
  (** The arms of primitive2.rs 112-131 [intersects_transformed], for a ray in the local frame
      of the primitive; line.rs 59-72 (segments). *)
  Definition prim2_ray_test (p : Primitive2 S) (r : Ray (V2 S)) : res bool :=
    match p with
    | Particle2 => Ok (particle2_ray_test r)
    | LineP l => Ok (bool_decide (is_Some (ray_line2 r l)))
    | Circle rad => Ok (circle_ray_test rad r)
    | Rectangle dim => Ok (rect_ray_test dim r)
    | Square s => Ok (rect_ray_test (square_dim s) r)
    | ConvexPolygon vs => polygon_ray_test vs r
    end.
  (** primitive2.rs 136-155 [intersection_transformed]. *)
  Definition prim2_ray (p : Primitive2 S) (r : Ray (V2 S)) : res (option (V2 S)) :=
    match p with
    | Particle2 => Ok (particle2_ray r)
    | LineP l => Ok (ray_line2 r l)
    | Circle rad => Ok (circle_ray rad r)
    | Rectangle dim => Ok (rect_ray dim r)
    | Square s => Ok (rect_ray (square_dim s) r)
    | ConvexPolygon vs => polygon_ray vs r
    end.
  (** primitive3.rs 184-203, 209-227. A polyhedron of [PrimEnum.Primitive3] was built by
      [ConvexPolyhedron::new]; [mesh] below is one built with faces. *)
  Definition prim3_ray_test (p : Primitive3 S) (r : Ray (V3 S)) : res bool :=
    match p with
    | Particle3 => Ok (particle3_ray_test r)
    | QuadP dim => Ok (quad_ray_test dim r)
    | SphereP rad => Ok (psphere_ray_test rad r)
    | CuboidP dim => Ok (cuboid_ray_test dim r)
    | CubeP s => Ok (cuboid_ray_test (cube_dim s) r)
    | CylinderP hh rad => Ok (cylinder_ray_test hh rad r)
    | CapsuleP hh rad => Ok (capsule_ray_test hh rad r)
    | ConvexPolyhedron vs => polyhedron_ray_test 1 (poly_new vs) r
    end.
  Definition prim3_ray (p : Primitive3 S) (r : Ray (V3 S)) : res (option (V3 S)) :=
    match p with
    | Particle3 => Ok (particle3_ray r)
    | QuadP dim => Ok (quad_ray dim r)
    | SphereP rad => Ok (psphere_ray rad r)
    | CuboidP dim => Ok (cuboid_ray dim r)
    | CubeP s => Ok (cuboid_ray (cube_dim s) r)
    | CylinderP hh rad => Ok (cylinder_ray hh rad r)
    | CapsuleP hh rad => Ok (capsule_ray hh rad r)
    | ConvexPolyhedron vs => polyhedron_ray 1 (poly_new vs) r
    end.
End primray.
