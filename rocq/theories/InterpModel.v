(** Model of /repo/src/traits.rs 142-247: interpolation between rotations and transforms. *)
From stdpp Require Import prelude.
From Verif Require Import Res Num Vec GeoModel PrimModel ComplexModel.

Section interp.
  Context {S : Type} `{Num S}.
  Local Open Scope num_scope.
  (** cgmath [Basis3]: a [Matrix3], columns [x], [y], [z]; its action on vectors. *)
  Record M3 := mkM3 { m3_x : V3 S; m3_y : V3 S; m3_z : V3 S }.
  Definition m3_mul (m : M3) (v : V3 S) : V3 S :=
    add3 (add3 (scale3 (m3_x m) (vx v)) (scale3 (m3_y m) (vy v))) (scale3 (m3_z m) (vz v)).
  (** cgmath [Matrix3::from(Quaternion)]. *)
  Definition m3_of_quat (q : Quat (S:=S)) : M3 :=
    let s := q_s q in let v := q_v q in
    let x2 := vx v + vx v in let y2 := vy v + vy v in let z2 := vz v + vz v in
    let xx2 := x2 * vx v in let xy2 := x2 * vy v in let xz2 := x2 * vz v in
    let yy2 := y2 * vy v in let yz2 := y2 * vz v in let zz2 := z2 * vz v in
    let sy2 := y2 * s in let sz2 := z2 * s in let sx2 := x2 * s in
    mkM3 (mk3 (n1 - yy2 - zz2) (xy2 + sz2) (xz2 - sy2))
         (mk3 (xy2 - sz2) (n1 - xx2 - zz2) (yz2 + sx2))
         (mk3 (xz2 + sy2) (yz2 - sx2) (n1 - xx2 - yy2)).
  (** cgmath [Quaternion::from(Matrix3)] (Shepperd's method). *)
  Definition half : S := n1 / (n1 + n1).
  Definition quat_of_m3 (m : M3) : Quat (S:=S) :=
    let m00 := vx (m3_x m) in let m01 := vy (m3_x m) in let m02 := vz (m3_x m) in
    let m10 := vx (m3_y m) in let m11 := vy (m3_y m) in let m12 := vz (m3_y m) in
    let m20 := vx (m3_z m) in let m21 := vy (m3_z m) in let m22 := vz (m3_z m) in
    let trace := m00 + m11 + m22 in
    if trace >=? n0 then
      let s := nsqrt (n1 + trace) in
      let w := half * s in
      let s := half / s in
      mkQuat w (mk3 ((m12 - m21) * s) ((m20 - m02) * s) ((m01 - m10) * s))
    else if (m00 >? m11) && (m00 >? m22) then
      let s := nsqrt (m00 - m11 - m22 + n1) in
      let x := half * s in
      let s := half / s in
      mkQuat ((m12 - m21) * s) (mk3 x ((m10 + m01) * s) ((m02 + m20) * s))
    else if m11 >? m22 then
      let s := nsqrt (m11 - m00 - m22 + n1) in
      let y := half * s in
      let s := half / s in
      mkQuat ((m20 - m02) * s) (mk3 ((m10 + m01) * s) y ((m21 + m12) * s))
    else
      let s := nsqrt (m22 - m00 - m11 + n1) in
      let z := half * s in
      let s := half / s in
      mkQuat ((m01 - m10) * s) (mk3 ((m02 + m20) * s) ((m21 + m12) * s) z).
  (** cgmath [VectorSpace::lerp] on quaternions; traits.rs 182-189. *)
  Definition quat_interp (a b : Quat (S:=S)) (t : S) : Quat (S:=S) :=
    mkQuat (q_s a + (q_s b - q_s a) * t) (lerp3 (q_v a) (q_v b) t).
  (** traits.rs 191-200 [Basis3]. *)
  Definition basis3_interp (a b : M3) (t : S) : M3 := m3_of_quat (quat_interp (quat_of_m3 a) (quat_of_m3 b) t).
  (** traits.rs 202-217 [Basis2]; [acos], [cos], [sin] of the scalar type; [from_angle] gives
      the columns [(cos, sin)], [(-sin, cos)]. *)
  Context (acosn cosn sinn : S -> S).
  Definition m2_from_angle (a : S) : M2 (S:=S) := mkM2 (mk2 (cosn a) (sinn a)) (mk2 (- sinn a) (cosn a)).
  Definition basis2_interp (a b : M2 (S:=S)) (t : S) : M2 (S:=S) :=
    let c := lerp2 (m2_x a) (m2_x b) t in m2_from_angle (acosn (ux c)).
  (** traits.rs 219-231 [Decomposed::interpolate], with [Basis2] or [Quaternion] rotations. *)
  Definition scale_interp (a b t : S) : S := a * (n1 - t) + b * t.
  Definition d2_interp (a b : D2 S) (t : S) : D2 S :=
    mkD2 (scale_interp (d2_s a) (d2_s b) t) (basis2_interp (d2_rot a) (d2_rot b) t) (lerp2 (d2_disp a) (d2_disp b) t).
  Definition d3_interp (a b : D3 S) (t : S) : D3 S :=
    mkD3 (scale_interp (d3_s a) (d3_s b) t) (quat_interp (d3_rot a) (d3_rot b) t) (lerp3 (d3_disp a) (d3_disp b) t).
  (** traits.rs 233-246 [translation_interpolate]. *)
  Definition d2_tinterp (a b : D2 S) (t : S) : D2 S := mkD2 (d2_s b) (d2_rot b) (lerp2 (d2_disp a) (d2_disp b) t).
  Definition d3_tinterp (a b : D3 S) (t : S) : D3 S := mkD3 (d3_s b) (d3_rot b) (lerp3 (d3_disp a) (d3_disp b) t).
End interp.
Arguments M3 : clear implicits.
