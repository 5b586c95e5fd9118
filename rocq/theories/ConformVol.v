(** Conformance of the model: the tests of boxes, bounding spheres, planes, frusta and points
    (tests/aabb.rs, sphere.rs, plane.rs, frustum.rs, point.rs), replayed on the model by
    computation in the precision of the test.  The tests of integer boxes are replayed on the
    same numbers as f32. *)
From stdpp Require Import prelude.
From Flocq Require Import IEEE754.BinarySingleNaN.
From Verif Require Import Res Num Vec DbvtVisitors AabbModel GeoModel PrimModel MinkModel ApproxModel XformModel ConformGjk ConformPrim.
Local Existing Instance Num_float.
Local Instance inf32cv : NumInf f32 := NumInf_float 24 128.
Local Instance inf64cv : NumInf f64 := NumInf_float 53 1024.

Definition b2 (a b c d : Z) : Aabb2 f32 := aabb2_new (p2 a b) (p2 c d).
Definition b3 (a b c d e f : Z) : Aabb3 f32 := aabb3_new (p3 a b c) (p3 d e f).
Definition ln2 (a b c d : Z) : Line (V2 f32) := mkLine (p2 a b) (p2 c d).
Definition ln3 (a b c d e f : Z) : Line (V3 f32) := mkLine (p3 a b c) (p3 d e f).
Definition same2 (a b : Aabb2 f32) : bool := eqv2 (min2 a) (min2 b) && eqv2 (max2 a) (max2 b).
Definition same3 (a b : Aabb3 f32) : bool := eqv3 (min3 a) (min3 b) && eqv3 (max3 a) (max3 b).

(** ** tests/aabb.rs *)
Example repo_general_2 :
  let b := b2 (-20) 30 10 (-10) in
  eqv2 (min2 b) (p2 (-20) (-10)) && eqv2 (max2 b) (p2 10 30) && eqv2 (dim2 b) (p2 30 40) && eq1 (volume2 b) (z 1200) &&
  eqv2 (center2 b) (p2 (-5) 10) && contains2_pt b (p2 0 0) && negb (contains2_pt b (p2 (-50) (-50))) &&
  negb (contains2_pt b (p2 50 50)) && same2 (grow2 b (p2 0 0)) b && same2 (grow2 b (p2 100 100)) (b2 (-20) (-10) 100 100) &&
  same2 (grow2 b (p2 (-100) (-100))) (b2 (-100) (-100) 10 30) && same2 (add_margin2 b (p2 2 2)) (b2 (-22) (-12) 12 32) = true.
Proof. vm_compute. reflexivity. Qed.
Example repo_general_3 :
  let b := b3 (-20) 30 5 10 (-10) (-5) in
  eqv3 (min3 b) (p3 (-20) (-10) (-5)) && eqv3 (max3 b) (p3 10 30 5) && eqv3 (dim3 b) (p3 30 40 10) &&
  eq1 (volume3 b) (z 12000) && eqv3 (center3 b) (p3 (-5) 10 0) && contains3_pt b (p3 0 0 0) &&
  negb (contains3_pt b (p3 (-100) 0 0)) && negb (contains3_pt b (p3 100 0 0)) && contains3_pt b (p3 9 29 (-1)) &&
  negb (contains3_pt b (p3 10 30 5)) && contains3_pt b (p3 (-20) (-10) (-5)) && negb (contains3_pt b (p3 (-21) (-11) (-6))) &&
  same3 (add_v3 b (p3 1 2 3)) (b3 (-19) 32 8 11 (-8) (-2)) && same3 (mul_s3 b (z 2)) (b3 (-40) (-20) (-10) 20 60 10) &&
  same3 (mul_v3 b (p3 1 2 3)) (b3 (-20) (-20) (-15) 10 60 15) && same3 (add_margin3 b (p3 2 2 2)) (b3 (-22) (-12) (-7) 12 32 7) = true.
Proof. vm_compute. reflexivity. Qed.
Definition hits2 (r : Ray (V2 f32)) (b : Aabb2 f32) (p : V2 f32) : bool := hit (ray_aabb2 r b) (eqv2 p) && ray_aabb2_test r b.
Definition misses2 (r : Ray (V2 f32)) (b : Aabb2 f32) : bool := isnone (ray_aabb2 r b) && negb (ray_aabb2_test r b).
Definition hits3 (r : Ray (V3 f32)) (b : Aabb3 f32) (p : V3 f32) : bool := hit (ray_aabb3 r b) (eqv3 p) && ray_aabb3_test r b.
Definition misses3 (r : Ray (V3 f32)) (b : Aabb3 f32) : bool := isnone (ray_aabb3 r b) && negb (ray_aabb3_test r b).
Example repo_ray2_intersect :
  let b := b2 (-5) 5 5 10 in
  hits2 (r2 0 0 0 1) b (p2 0 5) && hits2 (mkRay (p2 (-10) 0) (f2 (dec 25 1) (z 1))) b (f2 (dec 25 1) (z 5)) &&
  misses2 (r2 0 0 (-1) (-1)) b && hits2 (r2 3 7 1 1) b (p2 5 9) = true.
Proof. vm_compute. reflexivity. Qed.
Definition b15 := b3 1 1 1 5 5 5.
Definition cent : f32 := dec 1 2.
Example repo_parallel_ray3_should_not_intersect :
  misses3 (r3 0 0 0 1 0 0) b15 && misses3 (r3 0 0 0 0 1 0) b15 && misses3 (r3 0 0 0 0 0 1) b15 &&
  misses3 (mkRay (p3 0 0 0) (f3 (dec 1 4) (dec 1 4) (z 1))) b15 = true.
Proof. vm_compute. reflexivity. Qed.
Example repo_oblique_ray3_should_intersect :
  hits3 (mkRay (p3 0 0 0) (normalize3 (p3 1 1 1))) b15 (p3 1 1 1) && hits3 (r3 0 6 0 1 (-1) 1) b15 (p3 1 5 1) = true.
Proof. vm_compute. reflexivity. Qed.
Example repo_pointing_to_other_dir_ray3_should_not_intersect :
  misses3 (mkRay (p3 0 2 2) (f3 (z (-1)) cent cent)) b15 && misses3 (mkRay (p3 2 0 2) (f3 cent (z (-1)) cent)) b15 &&
  misses3 (mkRay (p3 2 2 0) (f3 cent cent (z (-1)))) b15 &&
  misses3 (r3 6 2 2 1 0 0) b15 && misses3 (r3 2 6 2 0 1 0) b15 && misses3 (r3 2 2 6 0 0 1) b15 = true.
Proof. vm_compute. reflexivity. Qed.
Example repo_pointing_to_box_dir_ray3_should_intersect :
  hits3 (r3 0 2 2 1 0 0) b15 (p3 1 2 2) && hits3 (r3 2 0 2 0 1 0) b15 (p3 2 1 2) && hits3 (r3 2 2 0 0 0 1) b15 (p3 2 2 1) &&
  hits3 (r3 6 2 2 (-1) 0 0) b15 (p3 5 2 2) && hits3 (r3 2 6 2 0 (-1) 0) b15 (p3 2 5 2) && hits3 (r3 2 2 6 0 0 (-1)) b15 (p3 2 2 5) = true.
Proof. vm_compute. reflexivity. Qed.
Example repo_corners :
  forallb (fun p => existsb (eqv2 p) (corners2 (b2 (-5) 5 5 10))) [p2 (-5) 10; p2 5 5] &&
  forallb (fun p => existsb (eqv3 p) (corners3 (b3 (-20) 30 5 10 (-10) (-5)))) [p3 (-20) 30 (-5); p3 10 30 5; p3 10 (-10) 5] = true.
Proof. vm_compute. reflexivity. Qed.
Definition rel_is (r s : relation3) : bool := bool_decide (r = s).
Example repo_box_bound :
  let b := b3 (-5) 5 0 5 10 1 in
  rel_is (relate_aabb3 b (plane_point_normal (p3 0 0 0) (p3 0 0 1))) RCross &&
  rel_is (relate_aabb3 b (plane_point_normal (p3 (-5) 4 0) (p3 0 1 0))) RIn &&
  rel_is (relate_aabb3 b (plane_point_normal (p3 6 0 0) (p3 1 0 0))) ROut = true.
Proof. vm_compute. reflexivity. Qed.
Definition b10 := b3 0 0 0 10 10 10.
Definition q10 := b2 0 0 10 10.
Example repo_aabb3_intersect :
  negb (intersects3 b10 (b3 15 15 15 25 25 25)) && intersects3 b10 (b3 5 5 5 15 15 15) && negb (intersects3 b10 (b3 5 11 11 15 13 13)) &&
  negb (intersects3 b10 (b3 11 5 11 15 13 13)) && negb (intersects3 b10 (b3 11 11 5 15 13 13)) = true.
Proof. vm_compute. reflexivity. Qed.
Example repo_contains :
  contains2_pt q10 (p2 2 2) && negb (contains2_pt q10 (p2 11 11)) &&
  contains2_line q10 (ln2 1 1 2 2) && negb (contains2_line q10 (ln2 11 11 12 12)) && negb (contains2_line q10 (ln2 1 1 12 12)) &&
  contains2 q10 (b2 1 1 2 2) && negb (contains2 q10 (b2 11 11 12 12)) && negb (contains2 q10 (b2 1 1 12 12)) &&
  contains3_pt b10 (p3 3 3 3) && negb (contains3_pt b10 (p3 11 11 11)) &&
  contains3_line b10 (ln3 1 1 1 2 2 2) && negb (contains3_line b10 (ln3 11 11 11 12 12 12)) && negb (contains3_line b10 (ln3 1 1 1 12 12 12)) &&
  contains3 b10 (b3 1 1 1 2 2 2) && negb (contains3 b10 (b3 11 11 11 12 12 12)) && negb (contains3 b10 (b3 1 1 1 12 12 12)) = true.
Proof. vm_compute. reflexivity. Qed.
Definition sph (x y w r : Z) : Sphere f32 := mkSphere (p3 x y w) (z r).
Example repo_aabb3_contains_sphere :
  aabb3_contains_sphere b10 (sph 5 5 5 1) && negb (aabb3_contains_sphere b10 (sph 20 20 20 1)) &&
  negb (aabb3_contains_sphere b10 (sph 5 5 5 10)) = true.
Proof. vm_compute. reflexivity. Qed.
Example repo_ray_aabb_parallel :
  misses2 (r2 2 0 0 1) (b2 5 5 10 10) && misses2 (r2 0 2 1 0) (b2 5 5 10 10) &&
  misses3 (r3 2 0 2 0 1 0) (b3 5 5 5 10 10 10) && misses3 (r3 0 2 2 1 0 0) (b3 5 5 5 10 10 10) &&
  misses3 (r3 2 2 0 0 0 1) (b3 5 5 5 10 10 10) = true.
Proof. vm_compute. reflexivity. Qed.
Example repo_aabb_unions :
  same2 q10 (union2 q10 (b2 2 2 5 5)) && same2 (b2 0 0 15 15) (union2 q10 (b2 12 12 15 15)) && same2 (b2 0 0 12 12) (union2 q10 (b2 2 2 12 12)) &&
  same3 b10 (union3 b10 (b3 2 2 2 5 5 5)) && same3 (b3 0 0 0 15 15 15) (union3 b10 (b3 12 12 12 15 15 15)) &&
  same3 (b3 0 0 0 12 12 12) (union3 b10 (b3 2 2 2 12 12 12)) &&
  same3 b10 (aabb3_union_sphere b10 (sph 5 5 5 1)) && same3 (b3 0 0 0 15 15 15) (aabb3_union_sphere b10 (sph 14 14 14 1)) &&
  same3 (b3 0 0 0 12 12 12) (aabb3_union_sphere b10 (sph 8 8 8 4)) = true.
Proof. vm_compute. reflexivity. Qed.
Example repo_aabb_surface_area :
  nle (z 200 - surface_area2 (b2 0 0 10 20))%N_ eps32 && nle (z 2200 - surface_area3 (b3 0 0 0 10 20 30))%N_ eps32 = true.
Proof. vm_compute. reflexivity. Qed.
Example repo_aabb_transform :
  same2 (b2 5 3 15 23) (transform2 (b2 0 0 10 20) (xf_pt (tr2 5 3))) &&
  same3 (b3 5 3 1 15 23 31) (transform3 (b3 0 0 0 10 20 30) (xf_pt (tr3 5 3 1))) = true.
Proof. vm_compute. reflexivity. Qed.

(** ** tests/sphere.rs, in f64 except where the test says f32 *)
Definition ddec (m : Z) (k : nat) : f64 := F64 (m * 2 ^ 120 / 10 ^ Z.of_nat k) (-120).
Definition d64 (n : Z) : f64 := F64 n 0.
Definition g3 (x y w : f64) : V3 f64 := mk3 x y w.
Definition i3 (x y w : Z) : V3 f64 := mk3 (d64 x) (d64 y) (d64 w).
Definition eq64 (a b : f64) : bool := neq a b.
Definition eqg (a b : V3 f64) : bool := eq64 (vx a) (vx b) && eq64 (vy a) (vy b) && eq64 (vz a) (vz b).
Definition eps64 : f64 := F64 1 (-52).
Definition near64 (a b : f64) : bool := ulps_eq 53 1024 eps64 4 a b.
Definition nearg (a b : V3 f64) : bool := near64 (vx a) (vx b) && near64 (vy a) (vy b) && near64 (vz a) (vz b).
Definition sphd (c r : f64) : Sphere f64 := mkSphere (g3 c c c) r.
Definition spheq (a b : Sphere f64) : bool := eqg (s_center a) (s_center b) && eq64 (s_radius a) (s_radius b).
Definition cos1 : f64 := ddec 540302305868139717400936607443 30.
Definition sin1 : f64 := ddec 841470984807896506652502321630 30.
Example repo_sphere_intersection :
  let s := sphd (d64 0) (d64 1) in let d := normalize3 (i3 0 0 (-5)) in
  let r x := mkRay (g3 x (d64 0) (d64 5)) d in
  hit (sphere_ray s (r (d64 0))) (eqg (i3 0 0 1)) && sphere_ray_test s (r (d64 0)) &&
  hit (sphere_ray s (r cos1)) (nearg (g3 cos1 (d64 0) sin1)) && sphere_ray_test s (r cos1) &&
  hit (sphere_ray s (r (d64 1))) (eqg (i3 1 0 0)) && sphere_ray_test s (r (d64 1)) &&
  isnone (sphere_ray s (r (d64 2))) && negb (sphere_ray_test s (r (d64 2))) = true.
Proof. vm_compute. reflexivity. Qed.
Example repo_sphere_bound :
  let s := sph 1 2 3 1 in let n := p3 0 0 1 in
  let at_ (k : Z) := plane_point_normal (add3 (p3 1 2 3) (scale3 n (z k))) n in
  rel_is (relate_sphere s (at_ 0%Z)) RCross && rel_is (relate_sphere s (at_ (-3)%Z)) RIn && rel_is (relate_sphere s (at_ 3%Z)) ROut = true.
Proof. vm_compute. reflexivity. Qed.
Example repo_sphere_contains :
  let s := sph 1 2 3 1 in let a := p3 1 2 3 in let b := f3 (z 1) (dec 22 1) (z 3) in
  let c := p3 11 2 3 in let d := f3 (z 11) (dec 22 1) (z 3) in
  sphere_contains_pt s b && negb (sphere_contains_pt s d) &&
  sphere_contains_line s (mkLine a b) && negb (sphere_contains_line s (mkLine c d)) && negb (sphere_contains_line s (mkLine a d)) &&
  sphere_contains s (mkSphere a tenth32) && negb (sphere_contains s (mkSphere c tenth32)) && negb (sphere_contains s (mkSphere a (z 10))) &&
  sphere_contains_box s (aabb3_new a b) && negb (sphere_contains_box s (aabb3_new c d)) && negb (sphere_contains_box s (aabb3_new a d)) &&
  negb (sphere_contains_box s (aabb3_new (f3 (z 1) (dec 101 2) (z 3)) (f3 (dec 199 2) (z 2) (dec 399 2)))) = true.
Proof. vm_compute. reflexivity. Qed.
Example repo_sphere_union_sphere :
  let base := sphd (d64 0) (d64 5) in
  spheq base (sphere_union base (sphd (d64 1) (d64 1))) &&
  spheq (sphd (ddec 28452994616207485 16) (ddec 9928203230275509 15)) (sphere_union base (sphd (d64 8) (d64 1))) &&
  spheq (sphd (ddec 14226497308103743 16) (ddec 7464101615137754 15)) (sphere_union base (sphd (d64 4) (d64 3))) = true.
Proof. vm_compute. reflexivity. Qed.
Example repo_sphere_union_aabb3 :
  let base := sphd (d64 0) (d64 5) in let cube (a b : Z) := aabb3_new (i3 a a a) (i3 b b b) in
  spheq base (sphere_union_box base (cube 0%Z 2%Z)) &&
  spheq (sphd (ddec 30566243270259355 16) (ddec 10294228634059948 15)) (sphere_union_box base (cube 6%Z 9%Z)) &&
  spheq (sphd (ddec 20566243270259355 16) (ddec 856217782649107 14)) (sphere_union_box base (cube 4%Z 7%Z)) = true.
Proof. vm_compute. reflexivity. Qed.
Definition pi64 : f64 := ddec 314159265358979323846264338328 29.
Example repo_sphere_surface_area :
  nle (d64 4 * pi64 * d64 2 * d64 2 - sphere_area pi64 (mkSphere (i3 2 1 (-4)) (d64 2)))%N_ eps64 = true.
Proof. vm_compute. reflexivity. Qed.

(** ** tests/plane.rs, in f64 *)
Definition unit_x := i3 1 0 0. Definition unit_y := i3 0 1 0. Definition unit_z := i3 0 0 1.
Definition facing_x : option (Plane f64) := plane_from_points eps64 (i3 5 0 5) (i3 5 5 5) (i3 5 0 (-1)).
Definition pl_is (p : Plane f64) (n : V3 f64) (d : f64) : bool := eqg (pl_n p) n && eq64 (pl_d p) d.
Example repo_plane_from_points :
  hit facing_x (fun p => pl_is p (i3 (-1) 0 0) (d64 5)) &&
  isnone (plane_from_points eps64 (i3 0 5 (-5)) (i3 0 5 0) (i3 0 5 5)) = true.
Proof. vm_compute. reflexivity. Qed.
Example repo_plane_ray :
  let p := plane_abcd (d64 1) (d64 0) (d64 0) (d64 (-7)) in let r := mkRay (i3 2 3 4) (normalize3 (i3 1 1 1)) in
  let away := mkRay (i3 0 0 0) (normalize3 (i3 (-1) 0 0)) in
  plane_ray_test p r && hit (plane_ray p r) (eqg (i3 7 8 9)) &&
  hit facing_x (fun q => isnone (plane_ray q away) && negb (plane_ray_test q away)) = true.
Proof. vm_compute. reflexivity. Qed.
Example repo_plane2 :
  let p := mkPlane unit_x (d64 1) in let q := mkPlane unit_y (d64 2) in let q1 := mkPlane unit_y (d64 1) in
  hit (plane_plane eps64 p q) (fun r => nearg (origin r) (i3 1 2 0) && nearg (direction r) (i3 0 0 1)) && plane_plane_test eps64 p q &&
  isnone (plane_plane eps64 q1 q) && negb (plane_plane_test eps64 q1 q) = true.
Proof. vm_compute. reflexivity. Qed.
Example repo_plane3 :
  let p := mkPlane unit_x (d64 1) in let q := mkPlane unit_y (d64 2) in let r := mkPlane unit_z (d64 3) in
  let q1 := mkPlane unit_y (d64 1) in
  hit (plane3 eps64 p q r) (nearg (i3 1 2 3)) && plane3_test eps64 p q r && isnone (plane3 eps64 q1 q r) && negb (plane3_test eps64 q1 q r) = true.
Proof. vm_compute. reflexivity. Qed.

(** ** tests/frustum.rs: cotangent of half a radian; tests/point.rs *)
Example repo_frustum_contains :
  ok (fov_to_frustum eps32 (dec 1830487721712451998 18) (z 1) (z 1) (z 10)) (fun f =>
    let c s := frustum_contains f (relate_sphere s) in
    rel_is (c (sph 0 0 (-5) 1)) RIn && rel_is (c (sph 0 3 (-5) 1)) RCross && rel_is (c (sph 0 0 5 1)) ROut) = true.
Proof. vm_compute. reflexivity. Qed.
Example repo_point_bound :
  let p := p3 1 2 3 in let n := f3 (z 0) (dec (-8) 1) (dec (-36) 2) in let pl := plane_point_normal p n in
  rel_is (relate_pt p pl) RCross && rel_is (relate_pt (add3 p n) pl) RIn && rel_is (relate_pt (add3 p (scale3 n (z (-1)))) pl) ROut = true.
Proof. vm_compute. reflexivity. Qed.
Example repo_point_ray :
  let t r := pt_ray3_test (rel_eq eps32 eps32) (p3 1 2 3) r in
  t (r3 1 2 0 0 0 1) && negb (t (r3 1 2 0 0 0 (-1))) && negb (t (r3 1 0 0 0 0 1)) = true.
Proof. vm_compute. reflexivity. Qed.
