(** Approximate comparisons.  plane.rs 113-165 implements [AbsDiffEq], [RelativeEq], [UlpsEq] for
    planes from those of the scalars; the scalars' are the approx crate's (a dependency, not in
    /repo: version 0.4, the one cgmath 0.18 re-exports), modelled here with their bit patterns. *)
From stdpp Require Import prelude.
From Flocq Require Import Core.Core IEEE754.BinarySingleNaN.
From Verif Require Import Num Vec GeoModel.

Section approx.
  Context {S : Type} {HN : Num S}.
  Local Open Scope num_scope.
  (** approx [abs_diff_eq] of f32, f64: [(if self > other { self - other } else { other - self }) <= epsilon]. *)
  Definition abs_eq (eps a b : S) : bool := (if a >? b then a - b else b - a) <=? eps.
  (** cgmath [Vector3::abs_diff_eq], [relative_eq], [ulps_eq]: componentwise, joined by [&&]. *)
  Definition vec_eq (eq : S -> S -> bool) (v w : V3 S) : bool :=
    eq (vx v) (vx w) && eq (vy v) (vy w) && eq (vz v) (vz w).
  (** plane.rs 127-130 [abs_diff_eq], 144-147 [relative_eq], 160-163 [ulps_eq]: the same comparison
      [eq] on the normals and on the offsets. *)
  Definition plane_eq (eq : S -> S -> bool) (p q : Plane S) : bool :=
    vec_eq eq (pl_n p) (pl_n q) && eq (pl_d p) (pl_d q).
End approx.

(** Floats. *)
Section bits.
  Context (prec emax : Z) {Hprec : FLX.Prec_gt_0 prec} {Hemax : Prec_lt_emax prec emax}.
  Local Open Scope Z_scope.
  Notation fl := (binary_float prec emax).
  Local Existing Instance Num_float.
  (** The exponent and mantissa fields of the bit pattern, read as one integer ([f32::to_bits]
      without the sign bit): exponents are stored from [emin = 3 - emax - prec] on, the leading
      mantissa bit of normal numbers is implicit. *)
  Definition mag_bits (x : fl) : Z :=
    match x with
    | B754_zero _ => 0
    | B754_infinity _ => (2 * emax - 1) * 2 ^ (prec - 1)
    | B754_nan => (2 * emax - 1) * 2 ^ (prec - 1) + 2 ^ (prec - 2)
    | B754_finite _ m e _ => (e - (3 - emax - prec)) * 2 ^ (prec - 1) + Zpos m
    end.
  (** [f32::signum]: 1 for [+0] and above, -1 for [-0] and below, NaN for NaN; compared by [!=]. *)
  Definition sign_differs (x y : fl) : bool := is_nan x || is_nan y || xorb (Bsign x) (Bsign y).
  (** approx [ulps_eq] of f32, f64.  Two numbers of one sign have the same sign bit, so the
      difference of their bit patterns is that of [mag_bits]. *)
  Definition ulps_eq (eps : fl) (max_ulps : Z) (x y : fl) : bool :=
    if abs_eq eps x y then true
    else if sign_differs x y then false
    else Z.abs (mag_bits x - mag_bits y) <=? max_ulps.
  (** approx [relative_eq] of f32, f64. *)
  Definition is_inf (x : fl) : bool := match x with B754_infinity _ => true | _ => false end.
  Definition relative_eq (eps mr x y : fl) : bool :=
    if neq x y then true
    else if is_inf x || is_inf y then false
    else rel_eq eps mr x y.
  (** [f32::EPSILON], [f64::EPSILON]: the distance from 1 to the next float, [2 ^ (1 - prec)]; the
      default epsilon of the three comparisons and the default [max_relative]; [default_max_ulps]
      is 4. *)
  Definition epsilon : fl := Bldexp mode_NE Bone (1 - prec).
  Definition default_max_ulps : Z := 4.
End bits.
