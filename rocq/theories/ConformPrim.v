(** Conformance of the model: the unit tests of the primitives (support points, bounds, rays,
    particles), replayed on the model in IEEE single precision by computation. *)
From stdpp Require Import prelude.
From Flocq Require Import IEEE754.BinarySingleNaN.
From Verif Require Import Res Num Vec AabbModel GeoModel PrimModel MinkModel ApproxModel MeshModel XformModel ConformGjk.
Local Existing Instance Num_float.
Local Instance sgn32cp : NumSgn f32 := NumSgn_float 24 128.
Local Instance inf32cp : NumInf f32 := NumInf_float 24 128.

(** Cosines and sines of the angles of the tests, to twenty digits: 0.3, half of it, minus a
    quarter of pi and half of that, half of pi (all rounded to f32 before). *)
Definition rz2_03 : f32 -> f32 -> Xf (V2 f32) := rot2 (dec 95533648560273054517 20) (dec 29552021804983796827 20).
Definition rz3_03 : f32 -> f32 -> f32 -> Xf (V3 f32) := rot3 (dec 98877107704532163357 20) (dec 14943813836713409904 20).
Definition rz2_mq : f32 -> f32 -> Xf (V2 f32) := rot2 (dec 70710676573223718577 20) (dec (-70710679664085751561) 20).
Definition rz3_mq : f32 -> f32 -> f32 -> Xf (V3 f32) := rot3 (dec 92387952832938047276 20) (dec (-38268344246110436169) 20).
Definition rz3_pi : f32 -> f32 -> f32 -> Xf (V3 f32) := rot3 (dec (-4371139000186) 20) (dec 99999999999999900080 20).
Definition ok {A} (r : res A) (f : A -> bool) : bool := match r with Ok a => f a | _ => false end.
Definition no (r : res bool) : bool := ok r negb.
Definition yes (r : res bool) : bool := ok r (fun b => b).
Definition box2_is (a b c d : Z) (x : Aabb2 f32) : bool := eqv2 (p2 a b) (min2 x) && eqv2 (p2 c d) (max2 x).
Definition box3_is (a b c d e f : Z) (x : Aabb3 f32) : bool := eqv3 (p3 a b c) (min3 x) && eqv3 (p3 d e f) (max3 x).
Definition r2 (a b c d : Z) : Ray (V2 f32) := mkRay (p2 a b) (p2 c d).
Definition r3 (a b c d e f : Z) : Ray (V3 f32) := mkRay (p3 a b c) (p3 d e f).
Definition f2 (x y : f32) : V2 f32 := mk2 x y.
Definition f3 (x y w : f32) : V3 f32 := mk3 x y w.

(** ** primitive/polygon.rs *)
Definition poly17 : list (V2 f32) :=
  [p2 5 5; p2 4 6; p2 3 7; p2 2 6; p2 1 6; p2 0 5; p2 (-1) 4; p2 (-3) 3; p2 (-6) 1; p2 (-5) 0; p2 (-4) (-1); p2 (-2) (-3);
   p2 0 (-7); p2 1 (-8); p2 2 (-5); p2 3 0; p2 4 3].
Example repo_polygon_support :
  let s d := polygon_support poly17 d (tr2 0 0) in
  ok (s (p2 (-1) 0)) (eqv2 (p2 (-5) 0)) && ok (s (p2 0 (-1))) (eqv2 (p2 1 (-8))) && ok (s (p2 0 1)) (eqv2 (p2 3 7)) &&
  ok (s (p2 1 0)) (eqv2 (p2 5 5)) = true.
Proof. vm_compute. reflexivity. Qed.
Example repo_polygon_bound : box2_is (-6) (-8) 5 7 (polygon_bound poly17) = true.
Proof. vm_compute. reflexivity. Qed.
Definition pr1 := r2 0 10 0 (-1). Definition pr2 := r2 0 10 0 1.
Definition pr3 : Ray (V2 f32) := mkRay (f2 n0 (dec 72 1)) (p2 1 0). Definition pr4 : Ray (V2 f32) := mkRay (f2 n0 (dec 68 1)) (p2 1 0).
Example repo_polygon_ray_discrete :
  let t r := polygon_ray_test poly17 r in yes (t pr1) && no (t pr2) && no (t pr3) && yes (t pr4) = true.
Proof. vm_compute. reflexivity. Qed.
Example repo_polygon_ray_discrete_transformed :
  let t r x := intersects_transformed (polygon_ray_test poly17) r x in
  yes (t pr1 (tr2 0 0)) && no (t pr2 (tr2 0 0)) && no (t pr3 (tr2 0 0)) && yes (t pr4 (tr2 0 0)) && no (t pr4 (tr2 0 (-2))) &&
  yes (t pr4 (rz2_03 n0 n0)) = true.
Proof. vm_compute. reflexivity. Qed.
Example repo_polygon_ray_continuous :
  let t r := polygon_ray poly17 r in
  check (t pr1) (eqv2 (p2 0 5)) && none (t pr2) && none (t pr3) && check (t pr4) (near2 (f2 (dec 28 1) (dec 68 1))) = true.
Proof. vm_compute. reflexivity. Qed.
Example repo_polygon_ray_continuous_transformed :
  let t r x := intersection_transformed (polygon_ray poly17) r x in
  check (t pr1 (tr2 0 0)) (eqv2 (p2 0 5)) && none (t pr2 (tr2 0 0)) && none (t pr3 (tr2 0 0)) &&
  check (t pr4 (tr2 0 0)) (near2 (f2 (dec 28 1) (dec 68 1))) && none (t pr4 (tr2 0 (-2))) &&
  check (t pr4 (rz2_03 n0 n0)) (near2 (f2 (dec 38913357 8) (dec 68 1))) = true.
Proof. vm_compute. reflexivity. Qed.

(** ** primitive/capsule.rs, primitive/cylinder.rs: half height 2, radius 1 *)
Definition d1 : V3 f32 := normalize3 (f3 (dec 5 1) (z (-1)) n0).
Definition down : V3 f32 := normalize3 (f3 tenth32 (z (-1)) tenth32).
Definition up : V3 f32 := normalize3 (f3 tenth32 (z 1) tenth32).
Definition vert : V3 f32 := normalize3 (p3 0 (-1) 0).
Example repo_capsule_aabb : box3_is (-1) (-3) (-1) 1 3 1 (capsule_bound (z 2) (z 1)) = true.
Proof. vm_compute. reflexivity. Qed.
Example repo_capsule_support :
  let s d t := capsule_support (z 2) (z 1) d t in
  ok (s (p3 1 0 0) (tr3 0 0 0)) (near3 (p3 1 2 0)) &&
  ok (s d1 (tr3 0 0 0)) (near3 (f3 (dec 44721365 8) (dec (-28944273) 7) n0)) &&
  ok (s (p3 0 1 0) (tr3 0 0 0)) (near3 (p3 0 3 0)) && ok (s (p3 1 0 0) (tr3 10 0 0)) (near3 (p3 11 2 0)) &&
  ok (s (p3 1 0 0) (rz3_pi n0 n0 n0)) (near3 (p3 1 (-2) 0)) = true.
Proof. vm_compute. reflexivity. Qed.
Example repo_capsule_discrete :
  let t r := capsule_ray_test (z 2) (z 1) r in
  t (r3 (-3) 0 0 1 0 0) && negb (t (r3 (-3) 0 0 (-1) 0 0)) && t (mkRay (p3 0 3 0) down) && negb (t (mkRay (p3 0 3 0) up)) &&
  t (mkRay (p3 0 3 0) vert) = true.
Proof. vm_compute. reflexivity. Qed.
Example repo_capsule_continuous :
  let t r := capsule_ray (z 2) (z 1) r in
  hit (t (r3 (-3) 0 0 1 0 0)) (eqv3 (p3 (-1) 0 0)) && isnone (t (r3 (-3) 0 0 (-1) 0 0)) &&
  isnone (t (mkRay (p3 0 3 0) up)) && hit (t (mkRay (p3 0 4 0) vert)) (eqv3 (p3 0 3 0)) = true.
Proof. vm_compute. reflexivity. Qed.
Example repo_cylinder_aabb : box3_is (-1) (-2) (-1) 1 2 1 (cylinder_bound (z 2) (z 1)) = true.
Proof. vm_compute. reflexivity. Qed.
Example repo_cylinder_support :
  let s d t := cylinder_support (z 2) (z 1) d t in
  ok (s (p3 1 0 0) (tr3 0 0 0)) (near3 (p3 1 2 0)) && ok (s d1 (tr3 0 0 0)) (near3 (p3 1 (-2) 0)) &&
  ok (s (p3 0 1 0) (tr3 0 0 0)) (near3 (p3 0 2 0)) && ok (s (p3 1 0 0) (tr3 10 0 0)) (near3 (p3 11 2 0)) &&
  ok (s (p3 1 0 0) (rz3_pi n0 n0 n0)) (near3 (p3 1 (-2) 0)) = true.
Proof. vm_compute. reflexivity. Qed.
Example repo_cylinder_discrete :
  let t r := cylinder_ray_test (z 2) (z 1) r in
  t (r3 (-3) 0 0 1 0 0) && negb (t (r3 (-3) 0 0 (-1) 0 0)) && t (mkRay (p3 0 3 0) down) && negb (t (mkRay (p3 0 3 0) up)) = true.
Proof. vm_compute. reflexivity. Qed.
Example repo_cylinder_continuous :
  let t r := cylinder_ray (z 2) (z 1) r in
  hit (t (r3 (-3) 0 0 1 0 0)) (eqv3 (p3 (-1) 0 0)) && isnone (t (r3 (-3) 0 0 (-1) 0 0)) &&
  isnone (t (mkRay (p3 0 3 0) up)) && hit (t (mkRay (p3 0 3 0) vert)) (eqv3 (p3 0 2 0)) = true.
Proof. vm_compute. reflexivity. Qed.

(** The two tests [test_continuous_3], whose literals are f64. *)
Local Instance sgn64cp : NumSgn f64 := NumSgn_float 53 1024.
Definition ddec (m : Z) (k : nat) : f64 := F64 (m * 2 ^ 120 / 10 ^ Z.of_nat k) (-120).
Definition d64 (n : Z) : f64 := F64 n 0.
Definition eqg (a b : V3 f64) : bool := neq (vx a) (vx b) && neq (vy a) (vy b) && neq (vz a) (vz b).
Definition down64 : V3 f64 := normalize3 (mk3 (ddec 1 1) (d64 (-1)) (ddec 1 1)).
Example repo_capsule_continuous_3 :
  hit (capsule_ray (d64 2) (d64 1) (mkRay (mk3 (d64 0) (d64 4) (d64 0)) down64))
      (eqg (mk3 (ddec 10102588514869944 17) (ddec 2989741148513006 15) (ddec 10102588514869944 17))) = true.
Proof. vm_compute. reflexivity. Qed.
Example repo_cylinder_continuous_3 :
  hit (cylinder_ray (d64 2) (d64 1) (mkRay (mk3 (d64 0) (d64 3) (d64 0)) down64)) (eqg (mk3 (ddec 1 1) (d64 2) (ddec 1 1))) = true.
Proof. vm_compute. reflexivity. Qed.

(** ** primitive/cuboid.rs: sides 10 *)
Definition c10 : V3 f32 := p3 10 10 10.
Example repo_cuboid_bound : box3_is (-5) (-5) (-5) 5 5 5 (cuboid_bound c10) = true.
Proof. vm_compute. reflexivity. Qed.
Example repo_cuboid_ray :
  cuboid_ray_test c10 (r3 10 0 0 (-1) 0 0) && negb (cuboid_ray_test c10 (r3 10 0 0 1 0 0)) &&
  hit (cuboid_ray c10 (r3 10 0 0 (-1) 0 0)) (eqv3 (p3 5 0 0)) && isnone (cuboid_ray c10 (r3 10 0 0 1 0 0)) = true.
Proof. vm_compute. reflexivity. Qed.
Example repo_cuboid_ray_transformed :
  let t r x := intersects_transformed (fun r => Ok (cuboid_ray_test c10 r)) r x in
  let h r x := intersection_transformed (fun r => Ok (cuboid_ray c10 r)) r x in
  let a := r3 10 0 0 (-1) 0 0 in let b := r3 10 0 0 1 0 0 in
  yes (t a (tr3 0 1 0)) && no (t b (tr3 0 1 0)) && yes (t a (rz3_03 n0 n1 n0)) &&
  check (h a (tr3 0 1 0)) (eqv3 (p3 5 0 0)) && none (h b (tr3 0 1 0)) &&
  check (h a (rz3_03 n0 n0 n0)) (near3 (f3 (dec 5233758 6) n0 n0)) = true.
Proof. vm_compute. reflexivity. Qed.

(** ** primitive/sphere.rs: radius 10 *)
Example repo_sphere_support :
  let s d t := sphere_support (z 10) d t in
  let a := dec 5773502691896258 15 in
  ok (s (p3 1 0 0) (tr3 0 0 0)) (near3 (p3 10 0 0)) && ok (s (p3 1 1 1) (tr3 0 0 0)) (near3 (f3 a a a)) &&
  ok (s (p3 1 0 0) (tr3 0 10 0)) (eqv3 (p3 10 10 0)) &&
  ok (s (p3 1 0 0) (rz3_mq n0 n0 n0)) (near3 (f3 (z 10) (dec 9536743 13) n0)) && box3_is (-10) (-10) (-10) 10 10 10 (psphere_bound (z 10)) = true.
Proof. vm_compute. reflexivity. Qed.
Example repo_sphere_ray :
  let t r := psphere_ray_test (z 10) r in let h r := psphere_ray (z 10) r in
  t (r3 20 0 0 (-1) 0 0) && negb (t (r3 20 0 0 1 0 0)) && negb (t (r3 20 (-15) 0 (-1) 0 0)) &&
  hit (h (r3 20 0 0 (-1) 0 0)) (eqv3 (p3 10 0 0)) && isnone (h (r3 20 0 0 1 0 0)) && isnone (h (r3 20 (-15) 0 (-1) 0 0)) = true.
Proof. vm_compute. reflexivity. Qed.
Example repo_sphere_ray_transformed :
  let t r x := intersects_transformed (fun r => Ok (psphere_ray_test (z 10) r)) r x in
  let h r x := intersection_transformed (fun r => Ok (psphere_ray (z 10) r)) r x in
  yes (t (r3 20 0 0 (-1) 0 0) (tr3 0 0 0)) && no (t (r3 20 0 0 1 0 0) (tr3 0 0 0)) && no (t (r3 20 0 0 (-1) 0 0) (tr3 0 15 0)) &&
  check (h (r3 20 0 0 (-1) 0 0) (tr3 0 0 0)) (eqv3 (p3 10 0 0)) && none (h (r3 20 0 0 1 0 0) (tr3 0 0 0)) &&
  none (h (r3 20 0 0 (-1) 0 0) (tr3 0 15 0)) = true.
Proof. vm_compute. reflexivity. Qed.

(** ** primitive/circle.rs: radius 10 *)
Example repo_circle_support :
  let s d t := circle_support (z 10) d t in
  let a := dec 70710677 7 in
  ok (s (p2 1 0) (tr2 0 0)) (near2 (p2 10 0)) && ok (s (p2 1 1) (tr2 0 0)) (near2 (f2 a a)) &&
  ok (s (p2 1 0) (rz2_mq n0 n0)) (near2 (p2 10 0)) && ok (s (p2 1 0) (tr2 0 10)) (eqv2 (p2 10 10)) &&
  box2_is (-10) (-10) 10 10 (circle_bound (z 10)) = true.
Proof. vm_compute. reflexivity. Qed.
Example repo_circle_ray :
  let a := r2 25 0 (-1) 0 in let b := r2 25 (-11) (-1) 0 in
  let t := circle_ray_test (z 10) in let h := circle_ray (z 10) in
  t a && negb (t b) && hit (h a) (eqv2 (p2 10 0)) && isnone (h b) &&
  yes (intersects_transformed (fun r => Ok (t r)) a (tr2 0 0)) && no (intersects_transformed (fun r => Ok (t r)) a (tr2 0 11)) &&
  check (intersection_transformed (fun r => Ok (h r)) a (tr2 0 0)) (eqv2 (p2 10 0)) &&
  none (intersection_transformed (fun r => Ok (h r)) a (tr2 0 11)) = true.
Proof. vm_compute. reflexivity. Qed.

(** ** primitive/rectangle.rs: sides 10 *)
Example repo_rectangle_bound : box2_is (-5) (-5) 5 5 (rect_bound (p2 10 10)) = true.
Proof. vm_compute. reflexivity. Qed.
Example repo_rectangle_ray :
  let a := r2 20 0 (-1) 0 in let b := r2 20 0 0 1 in
  let t := rect_ray_test (p2 10 10) in let h := rect_ray (p2 10 10) in
  t a && negb (t b) && hit (h a) (eqv2 (p2 5 0)) && isnone (h b) &&
  yes (intersects_transformed (fun r => Ok (t r)) a (tr2 0 0)) && no (intersects_transformed (fun r => Ok (t r)) a (tr2 0 20)) &&
  check (intersection_transformed (fun r => Ok (h r)) a (tr2 0 0)) (eqv2 (p2 5 0)) &&
  none (intersection_transformed (fun r => Ok (h r)) a (tr2 0 20)) &&
  check (intersection_transformed (fun r => Ok (h r)) a (rz2_03 n0 n0)) (near2 (f2 (dec 5233758 6) n0)) = true.
Proof. vm_compute. reflexivity. Qed.

(** ** primitive/line.rs, primitive/quad.rs *)
Example repo_line_rectangle_intersect :
  let lt := tr2 1 0 in let rt := rot2 n1 n0 (dec 11 1) n0 in
  some (isect2 (fun d => line_support (mkLine (p2 0 (-1)) (p2 0 1)) d lt) (fun d => rect_support (f2 n1 (dec 2 1)) d rt) lt rt) = true.
Proof. vm_compute. reflexivity. Qed.
Example repo_plane_cuboid_intersect :
  let lt := tr3 0 0 1 in let rt := rot3 n1 n0 n0 n0 (dec 11 1) in
  some (isect3 (fun d => quad_support (p2 2 2) d lt) (box 1 1 1 rt) lt rt) = true.
Proof. vm_compute. reflexivity. Qed.

(** ** primitive/particle.rs: a circle of radius 4 *)
Example repo_particle_discrete :
  let t x a b := particle_test sub2 mag2_2 normalize2 (fun r => intersection_transformed (fun r => Ok (circle_ray (z 4) r)) r x) a b in
  let u a b := particle_test sub2 mag2_2 normalize2 (fun r => Ok (circle_ray (z 4) r)) a b in
  yes (u (p2 (-5) (-5)) (p2 5 5)) && no (u (p2 (-5) (-5)) (p2 (-8) (-8))) &&
  yes (t (tr2 0 0) (p2 (-5) (-5)) (p2 5 5)) && no (t (tr2 0 0) (p2 (-5) (-5)) (p2 (-8) (-8))) &&
  no (t (tr2 10 10) (p2 (-5) (-5)) (p2 5 5)) = true.
Proof. vm_compute. reflexivity. Qed.
Example repo_particle_continuous :
  let t x a b := particle_hit sub2 mag2_2 normalize2 (fun r => intersection_transformed (fun r => Ok (circle_ray (z 4) r)) r x) a b in
  let u a b := particle_hit sub2 mag2_2 normalize2 (fun r => Ok (circle_ray (z 4) r)) a b in
  let q := f2 (dec (-28284271247461903) 16) (dec (-28284271247461903) 16) in
  check (u (p2 (-5) (-5)) (p2 5 5)) (near2 q) && none (u (p2 (-5) (-5)) (p2 (-8) (-8))) &&
  check (t (tr2 0 0) (p2 (-5) (-5)) (p2 5 5)) (near2 q) && none (t (tr2 0 0) (p2 (-5) (-5)) (p2 (-8) (-8))) &&
  none (t (tr2 10 10) (p2 (-5) (-5)) (p2 5 5)) = true.
Proof. vm_compute. reflexivity. Qed.
