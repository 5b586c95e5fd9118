(** Vectors, points and their operations.  Points and vectors of cgmath (a dependency,
    not in /repo) share one type; a 3-vector has fields [vx vy vz], a 2-vector [ux uy]. *)
From stdpp Require Import prelude.
From Verif Require Import Num.

Record V2 (S : Type) := mk2 { ux : S; uy : S }.
Record V3 (S : Type) := mk3 { vx : S; vy : S; vz : S }.
Arguments mk2 {S} _ _. Arguments ux {S} _. Arguments uy {S} _.
Arguments mk3 {S} _ _ _. Arguments vx {S} _. Arguments vy {S} _. Arguments vz {S} _.

Section vec.
  Context {S : Type} `{Num S}.
  Local Open Scope num_scope.
  (** cgmath [Vector2]: [+ - * /] (by a scalar), [neg], [dot], [perp_dot],
      [magnitude2], [magnitude], [normalize], [lerp], [zero]; [Point2] the same. *)
  Definition zero2 : V2 S := mk2 n0 n0.
  Definition add2 (a b : V2 S) : V2 S := mk2 (ux a + ux b) (uy a + uy b).
  Definition sub2 (a b : V2 S) : V2 S := mk2 (ux a - ux b) (uy a - uy b).
  Definition neg2 (a : V2 S) : V2 S := mk2 (- ux a) (- uy a).
  Definition scale2 (a : V2 S) (s : S) : V2 S := mk2 (ux a * s) (uy a * s).
  Definition div2 (a : V2 S) (s : S) : V2 S := mk2 (ux a / s) (uy a / s).
  Definition dot2 (a b : V2 S) : S := ux a * ux b + uy a * uy b.
  Definition perp_dot (a b : V2 S) : S := ux a * uy b - uy a * ux b.
  Definition mag2_2 (a : V2 S) : S := dot2 a a.
  Definition mag2 (a : V2 S) : S := nsqrt (mag2_2 a).
  Definition normalize2 (a : V2 S) : V2 S := scale2 a (n1 / mag2 a).
  Definition dist2_2 (a b : V2 S) : S := mag2_2 (sub2 b a).
  Definition dist2 (a b : V2 S) : S := nsqrt (dist2_2 a b).
  Definition lerp2 (a b : V2 S) (t : S) : V2 S := add2 a (scale2 (sub2 b a) t).
  (** cgmath [Vector3], [Point3]. *)
  Definition zero3 : V3 S := mk3 n0 n0 n0.
  Definition add3 (a b : V3 S) : V3 S := mk3 (vx a + vx b) (vy a + vy b) (vz a + vz b).
  Definition sub3 (a b : V3 S) : V3 S := mk3 (vx a - vx b) (vy a - vy b) (vz a - vz b).
  Definition neg3 (a : V3 S) : V3 S := mk3 (- vx a) (- vy a) (- vz a).
  Definition scale3 (a : V3 S) (s : S) : V3 S := mk3 (vx a * s) (vy a * s) (vz a * s).
  Definition div3 (a : V3 S) (s : S) : V3 S := mk3 (vx a / s) (vy a / s) (vz a / s).
  Definition mul3 (a b : V3 S) : V3 S := mk3 (vx a * vx b) (vy a * vy b) (vz a * vz b).
  Definition dot3 (a b : V3 S) : S := vx a * vx b + vy a * vy b + vz a * vz b.
  Definition cross3 (a b : V3 S) : V3 S :=
    mk3 (vy a * vz b - vz a * vy b) (vz a * vx b - vx a * vz b) (vx a * vy b - vy a * vx b).
  Definition mag2_3 (a : V3 S) : S := dot3 a a.
  Definition mag3 (a : V3 S) : S := nsqrt (mag2_3 a).
  Definition normalize3 (a : V3 S) : V3 S := scale3 a (n1 / mag3 a).
  Definition dist2_3 (a b : V3 S) : S := mag2_3 (sub3 b a).
  Definition dist3 (a b : V3 S) : S := nsqrt (dist2_3 a b).
  Definition lerp3 (a b : V3 S) (t : S) : V3 S := add3 a (scale3 (sub3 b a) t).
End vec.

(** /repo/src/ray.rs 20-26 [Ray]; /repo/src/line.rs 19-28 [Line]. *)
Record Ray (V : Type) := mkRay { origin : V; direction : V }.
Arguments mkRay {V} _ _. Arguments origin {V} _. Arguments direction {V} _.
Record Line (V : Type) := mkLine { l_origin : V; l_dest : V }.
Arguments mkLine {V} _ _. Arguments l_origin {V} _. Arguments l_dest {V} _.
