(** Model of the functions of /repo/src/algorithm/minkowski/gjk/mod.rs on shapes made of
    several primitives, each with its own local transform.  Transforms are cgmath's
    [Decomposed] (scale, rotation, displacement), whose [concat] is needed here. *)
From stdpp Require Import prelude.
From Verif Require Import Res Num Vec GeoModel PrimModel MinkModel PrimEnum.

Section model.
  Context {S : Type} `{Num S} `{NumSgn S}.
  Local Open Scope num_scope.
  Context (eps tenth : S).
  Record D2 := mkD2 { d2_s : S; d2_rot : M2 (S:=S); d2_disp : V2 S }.
  Record D3 := mkD3 { d3_s : S; d3_rot : Quat (S:=S); d3_disp : V3 S }.
  Definition d2_xf (t : D2) : Xf (V2 S) := decomposed2 eps (d2_s t) (d2_rot t) (d2_disp t).
  Definition d3_xf (t : D3) : Xf (V3 S) := decomposed3 eps (d3_s t) (d3_rot t) (d3_disp t).
  (** cgmath [Matrix2 * Matrix2] and [Quaternion * Quaternion]. *)
  Definition m2_mm (a b : M2 (S:=S)) : M2 := mkM2 (m2_mul a (m2_x b)) (m2_mul a (m2_y b)).
  Definition quat_mul (a b : Quat (S:=S)) : Quat :=
    mkQuat (q_s a * q_s b - dot3 (q_v a) (q_v b))
           (add3 (add3 (scale3 (q_v b) (q_s a)) (scale3 (q_v a) (q_s b))) (cross3 (q_v a) (q_v b))).
  (** cgmath [Decomposed::concat]. *)
  Definition concat2 (a b : D2) : D2 :=
    mkD2 (d2_s a * d2_s b) (m2_mm (d2_rot a) (d2_rot b)) (add2 (m2_mul (d2_rot a) (scale2 (d2_disp b) (d2_s a))) (d2_disp a)).
  Definition concat3 (a b : D3) : D3 :=
    mkD3 (d3_s a * d3_s b) (quat_mul (d3_rot a) (d3_rot b)) (add3 (quat_rot (d3_rot a) (scale3 (d3_disp b) (d3_s a))) (d3_disp a)).
  (** A shape: primitives with local-to-model transforms. *)
  Definition shape2 := list (Primitive2 S * D2).
  Definition shape3 := list (Primitive3 S * D3).
  Definition part2_support (t : D2) (part : Primitive2 S * D2) (d : V2 S) : res (V2 S) :=
    prim2_support part.1 d (d2_xf (concat2 t part.2)).
  Definition part3_support (t : D3) (part : Primitive3 S * D3) (d : V3 S) : res (V3 S) :=
    prim3_support part.1 d (d3_xf (concat3 t part.2)).
  Definition origin2 (t : D2) (part : Primitive2 S * D2) : V2 S := xf_pt (d2_xf (concat2 t part.2)) zero2.
  Definition origin3 (t : D3) (part : Primitive3 S * D3) : V3 S := xf_pt (d3_xf (concat3 t part.2)) zero3.
  (** gjk/mod.rs 413-463 [intersection_complex]. *)
  Definition complex2_intersection (etol : S) (st : strategy) (n : nat) (left : shape2) (TL : D2) (right : shape2) (TR : D2) :=
    intersection_complex (fun '(l, r) => gjk2_intersection eps (part2_support TL l) (part2_support TR r) etol st n
      (origin2 TL l) (origin2 TR r)) st left right.
  Definition complex3_intersection (etol : S) (st : strategy) (n : nat) (left : shape3) (TL : D3) (right : shape3) (TR : D3) :=
    intersection_complex (fun '(l, r) => gjk3_intersection eps tenth (part3_support TL l) (part3_support TR r) etol st n
      (origin3 TL l) (origin3 TR r)) st left right.
  (** gjk/mod.rs 478-519 [distance_complex]. *)
  Definition complex2_distance (tol : S) (n : nat) (left : shape2) (TL : D2) (right : shape2) (TR : D2) :=
    distance_complex (fun '(l, r) => o ← dist2_run eps (part2_support TL l) (part2_support TR r) tol n (origin2 TL l) (origin2 TR r);
      Ok (dist_forget o)) left right.
  Definition complex3_distance (tol : S) (n : nat) (left : shape3) (TL : D3) (right : shape3) (TR : D3) :=
    distance_complex (fun '(l, r) => o ← dist3_run eps tenth (part3_support TL l) (part3_support TR r) tol n (origin3 TL l) (origin3 TR r);
      Ok (dist_forget o)) left right.
  (** gjk/mod.rs 541-592 [intersection_complex_time_of_impact]: the shapes go from [TL], [TR]
      to [TL'], [TR'].  The contact point is computed with the start transform of the right
      part moved towards its end transform ([translation_interpolate], traits.rs 233-246:
      the displacement is interpolated, scale and rotation are those of the end). *)
  Definition lerp_disp2 (a b : D2) (l : S) : D2 :=
    mkD2 (d2_s b) (d2_rot b) (add2 (d2_disp a) (scale2 (sub2 (d2_disp b) (d2_disp a)) l)).
  Definition lerp_disp3 (a b : D3) (l : S) : D3 :=
    mkD3 (d3_s b) (d3_rot b) (add3 (d3_disp a) (scale3 (sub3 (d3_disp b) (d3_disp a)) l)).
  Definition complex2_toi (tol : S) (st : strategy) (fuel : nat) (left : shape2) (TL TL' : D2) (right : shape2) (TR TR' : D2) :=
    complex_toi (fun '(l, r) => gjk2_toi eps (part2_support TL l) (part2_support TR r) fuel tol
      (sub2 (origin2 TL' l) (origin2 TL l)) (sub2 (origin2 TR' r) (origin2 TR r))
      (fun t p => xf_pt (d2_xf (lerp_disp2 (concat2 TR r.2) (concat2 TR' r.2) t)) p)) st left right.
  Definition complex3_toi (tol : S) (st : strategy) (fuel : nat) (left : shape3) (TL TL' : D3) (right : shape3) (TR TR' : D3) :=
    complex_toi (fun '(l, r) => gjk3_toi eps tenth (part3_support TL l) (part3_support TR r) fuel tol
      (sub3 (origin3 TL' l) (origin3 TL l)) (sub3 (origin3 TR' r) (origin3 TR r))
      (fun t p => xf_pt (d3_xf (lerp_disp3 (concat3 TR r.2) (concat3 TR' r.2) t)) p)) st left right.
End model.
Arguments D2 S : clear implicits.
Arguments D3 S : clear implicits.
Arguments shape2 S : clear implicits.
Arguments shape3 S : clear implicits.
