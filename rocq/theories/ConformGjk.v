(** Conformance of the model: the unit tests of the crate, replayed on the model in IEEE
    single precision by computation.  Every [Example repo_...] is the test of that name in
    the file cited above it, with the expected values written in the test.  These are tests
    of the model, not theorems about it: they check that the definitions of MinkModel.v
    compute what the tests of the crate say the crate computes, including the order of
    operations where the expected values show rounding. *)
From stdpp Require Import prelude.
From Flocq Require Import IEEE754.BinarySingleNaN.
From Verif Require Import Res Num Vec AabbModel GeoModel PrimModel MinkModel ApproxModel.
Local Existing Instance Num_float.
Local Instance sgn32cf : NumSgn f32 := NumSgn_float 24 128.

(** The decimal literal [m * 10 ^ -k] as an f32; [z] for integers. *)
Definition dec (m : Z) (k : nat) : f32 := F32 (m * 2 ^ 80 / 10 ^ Z.of_nat k) (-80).
Definition z (n : Z) : f32 := F32 n 0.
Definition p2 (x y : Z) : V2 f32 := mk2 (z x) (z y).
Definition p3 (x y w : Z) : V3 f32 := mk3 (z x) (z y) (z w).
Definition eps32 : f32 := F32 1 (-23).
Definition tenth32 : f32 := dec 1 1.
(** [assert_eq!] and [assert_ulps_eq!] with the default tolerances. *)
Definition eq1 (a b : f32) : bool := neq a b.
Definition eqv2 (a b : V2 f32) : bool := eq1 (ux a) (ux b) && eq1 (uy a) (uy b).
Definition eqv3 (a b : V3 f32) : bool := eq1 (vx a) (vx b) && eq1 (vy a) (vy b) && eq1 (vz a) (vz b).
Definition near1 (a b : f32) : bool := ulps_eq 24 128 eps32 4 a b.
Definition near2 (a b : V2 f32) : bool := near1 (ux a) (ux b) && near1 (uy a) (uy b).
Definition near3 (a b : V3 f32) : bool := near1 (vx a) (vx b) && near1 (vy a) (vy b) && near1 (vz a) (vz b).
(** The [transform] functions of the tests: unit scale, a rotation given by its cosine and
    sine, a displacement. *)
Definition rot2 (c s : f32) (x y : f32) : Xf (V2 f32) := decomposed2 eps32 n1 (mkM2 (mk2 c s) (mk2 (nneg s) c)) (mk2 x y).
Definition tr2 (x y : Z) : Xf (V2 f32) := rot2 n1 n0 (z x) (z y).
(** [Quaternion::from_angle_z]: cosine and sine of half the angle. *)
Definition rot3 (c s : f32) (x y w : f32) : Xf (V3 f32) := decomposed3 eps32 n1 (mkQuat c (mk3 n0 n0 s)) (mk3 x y w).
Definition tr3 (x y w : Z) : Xf (V3 f32) := rot3 n1 n0 (z x) (z y) (z w).
(** [GJK2::new()], [GJK3::new()]: gjk/mod.rs 22-24, epa/mod.rs 15-16. *)
Definition iters : nat := 100.
Definition dtol : f32 := dec 1 6.
Definition etol : f32 := dec 1 5.

Definition some {A} (r : res (option A)) : bool := match r with Ok (Some _) => true | _ => false end.
Definition none {A} (r : res (option A)) : bool := match r with Ok None => true | _ => false end.
Definition check {A} (r : res (option A)) (f : A -> bool) : bool := match r with Ok (Some a) => f a | _ => false end.
Definition hit {A} (r : option A) (f : A -> bool) : bool := match r with Some a => f a | None => false end.
Definition isnone {A} (r : option A) : bool := match r with None => true | _ => false end.

(** ** algorithm/minkowski/gjk/mod.rs *)
Definition rect (w h : Z) (t : Xf (V2 f32)) (d : V2 f32) := rect_support (p2 w h) d t.
Definition box (a b c : Z) (t : Xf (V3 f32)) (d : V3 f32) := cuboid_support (p3 a b c) d t.
Definition ball (r : Z) (t : Xf (V3 f32)) (d : V3 f32) := sphere_support (z r) d t.
Definition inter2 (l r : V2 f32 -> res (V2 f32)) (lt rt : Xf (V2 f32)) :=
  gjk2_intersection eps32 l r etol FullResolution iters (xf_pt lt zero2) (xf_pt rt zero2).
Definition inter3 (l r : V3 f32 -> res (V3 f32)) (lt rt : Xf (V3 f32)) :=
  gjk3_intersection eps32 tenth32 l r etol FullResolution iters (xf_pt lt zero3) (xf_pt rt zero3).
Definition isect2 (l r : V2 f32 -> res (V2 f32)) (lt rt : Xf (V2 f32)) :=
  gjk2_intersect eps32 l r iters (xf_pt lt zero2) (xf_pt rt zero2).
Definition isect3 (l r : V3 f32 -> res (V3 f32)) (lt rt : Xf (V3 f32)) :=
  gjk3_intersect eps32 tenth32 l r iters (xf_pt lt zero3) (xf_pt rt zero3).
Definition distance2 (l r : V2 f32 -> res (V2 f32)) (lt rt : Xf (V2 f32)) :=
  o ← dist2_run eps32 l r dtol iters (xf_pt lt zero2) (xf_pt rt zero2); Ok (dist_forget o).
Definition distance3 (l r : V3 f32 -> res (V3 f32)) (lt rt : Xf (V3 f32)) :=
  o ← dist3_run eps32 tenth32 l r dtol iters (xf_pt lt zero3) (xf_pt rt zero3); Ok (dist_forget o).

Example repo_test_gjk_exact :
  let t := tr2 0 0 in let s := rect 1 1 t in some (inter2 s s t t) && none (distance2 s s t t) = true.
Proof. vm_compute. reflexivity. Qed.
Example repo_test_gjk_exact_3d :
  let t := tr3 0 0 0 in let s := box 1 1 1 t in some (inter3 s s t t) && none (distance3 s s t t) = true.
Proof. vm_compute. reflexivity. Qed.
Example repo_test_gjk_sphere :
  let t := tr3 0 0 0 in let s := ball 1 t in some (inter3 s s t t) && none (distance3 s s t t) = true.
Proof. vm_compute. reflexivity. Qed.
Example repo_test_gjk_miss :
  let lt := tr2 15 0 in let rt := tr2 (-15) 0 in
  none (isect2 (rect 10 10 lt) (rect 10 10 rt) lt rt) && none (inter2 (rect 10 10 lt) (rect 10 10 rt) lt rt) = true.
Proof. vm_compute. reflexivity. Qed.
Example repo_test_gjk_hit :
  let lt := tr2 15 0 in let rt := tr2 7 2 in
  some (isect2 (rect 10 10 lt) (rect 10 10 rt) lt rt) &&
  check (inter2 (rect 10 10 lt) (rect 10 10 rt) lt rt) (fun c =>
    eqv2 (p2 (-1) 0) (c_normal c) && nle (nsub (z 2) (c_depth c)) eps32 && eqv2 (p2 10 1) (c_point c)) = true.
Proof. vm_compute. reflexivity. Qed.
Example repo_test_gjk_3d_hit :
  let lt := tr3 15 0 0 in let rt := tr3 7 2 0 in
  some (isect3 (box 10 10 10 lt) (box 10 10 10 rt) lt rt) &&
  check (inter3 (box 10 10 10 lt) (box 10 10 10 rt) lt rt) (fun c =>
    eqv3 (p3 (-1) 0 0) (c_normal c) && nle (nsub (z 2) (c_depth c)) eps32 && near3 (p3 10 1 5) (c_point c)) = true.
Proof. vm_compute. reflexivity. Qed.
Example repo_test_gjk_distance_2d :
  let lt := tr2 15 0 in let rt := tr2 0 0 in let rt' := tr2 7 2 in
  check (distance2 (rect 10 10 lt) (rect 10 10 rt) lt rt) (eq1 (z 5)) &&
  none (distance2 (rect 10 10 lt) (rect 10 10 rt') lt rt') = true.
Proof. vm_compute. reflexivity. Qed.
Example repo_test_gjk_distance_3d :
  let lt := tr3 15 0 0 in let rt := tr3 7 2 0 in let rt' := tr3 1 0 0 in
  none (distance3 (box 10 10 10 lt) (box 10 10 10 rt) lt rt) &&
  check (distance3 (box 10 10 10 lt) (box 10 10 10 rt') lt rt') (eq1 (z 4)) = true.
Proof. vm_compute. reflexivity. Qed.
(** The transforms of the two shapes are interpolated linearly in the displacement; only the
    right one, which rests, enters the answer. *)
Example repo_test_gjk_time_of_impact_2d :
  let l := tr2 0 0 in let r := tr2 15 0 in let toi v := gjk2_toi eps32 (rect 10 20 l) (rect 10 11 r) iters dtol v (p2 0 0) (fun _ p => xf_pt r p) in
  check (toi (p2 30 0)) (fun c =>
    near1 (dec 1666667 7) (c_toi c) && eqv2 (p2 (-1) 0) (c_normal c) && nle (nsub n0 (c_depth c)) eps32 &&
    eqv2 (p2 10 0) (c_point c)) &&
  none (toi (p2 0 0)) = true.
Proof. vm_compute. reflexivity. Qed.
Example repo_test_gjk_time_of_impact_3d :
  let l := tr3 0 0 0 in let r := tr3 15 0 0 in let toi v := gjk3_toi eps32 tenth32 (box 10 11 10 l) (box 10 15 10 r) iters dtol v (p3 0 0 0) (fun _ p => xf_pt r p) in
  check (toi (p3 30 0 0)) (fun c =>
    near1 (dec 1666667 7) (c_toi c) && eqv3 (p3 (-1) 0 0) (c_normal c) && nle (nsub n0 (c_depth c)) eps32 &&
    eqv3 (p3 10 0 0) (c_point c)) &&
  none (toi (p3 0 0 0)) = true.
Proof. vm_compute. reflexivity. Qed.

(** ** algorithm/minkowski/mod.rs *)
Example repo_test_support :
  match mink2 (rect 10 10 (tr2 15 0)) (rect 10 10 (tr2 (-15) 0)) (p2 1 0) with
  | Ok p => eqv2 (p2 40 0) (sp_v p) | _ => false end = true.
Proof. vm_compute. reflexivity. Qed.

(** ** algorithm/minkowski/epa/epa2d.rs *)
Definition sup2 (x y : Z) : SupPt (V2 f32) := mkSup (p2 x y) (p2 0 0) (p2 0 0).
Definition sup3 (x y w : Z) : SupPt (V3 f32) := mkSup (p3 x y w) (p3 0 0 0) (p3 0 0 0).
Example repo_test_closest_edge_012 :
  none (closest_edge (S:=f32) []) && none (closest_edge [sup2 10 10]) && none (closest_edge [sup2 10 10; sup2 (-10) 5]) = true.
Proof. vm_compute. reflexivity. Qed.
Example repo_test_closest_edge_3 :
  check (closest_edge [sup2 10 10; sup2 (-10) 5; sup2 2 (-5)]) (fun e =>
    (e_index e =? 2)%nat && near1 (dec 25607374 7) (e_dist e) &&
    near1 (dec (-6401844) 7) (ux (e_normal e)) && near1 (dec (-7682213) 7) (uy (e_normal e))) = true.
Proof. vm_compute. reflexivity. Qed.
Definition process2 (s : list (SupPt (V2 f32))) :=
  epa2_process (mink2 (rect 10 10 (tr2 15 0)) (rect 10 10 (tr2 7 2))) etol iters s.
Example repo_test_epa_012 :
  none (process2 []) && none (process2 [sup2 (-2) 8]) && none (process2 [sup2 (-2) 8; sup2 18 (-12)]) = true.
Proof. vm_compute. reflexivity. Qed.
Example repo_test_epa_3 :
  check (process2 [sup2 (-2) 8; sup2 18 (-12); sup2 (-2) (-12)]) (fun c =>
    eqv2 (p2 (-1) 0) (c_normal c) && nle (nsub (z 2) (c_depth c)) eps32) = true.
Proof. vm_compute. reflexivity. Qed.

(** ** algorithm/minkowski/epa/epa3d.rs *)
Example repo_test_remove_or_add_edge_added : remove_or_add [(1, 2); (6, 5)] (4, 3) = [(1, 2); (6, 5); (4, 3)].
Proof. vm_compute. reflexivity. Qed.
Example repo_test_remove_or_add_edge_removed : remove_or_add [(1, 2); (6, 5)] (2, 1) = [(6, 5)].
Proof. vm_compute. reflexivity. Qed.
Definition tetra : list (SupPt (V3 f32)) := [sup3 3 (-3) (-1); sup3 (-3) (-3) (-1); sup3 0 3 (-1); sup3 0 0 5].
Definition face_is (a b c : nat) (nx ny nz d : f32) (f : Face3) : bool :=
  bool_decide (f_vs f = (a, b, c)) && near1 nx (vx (f_normal f)) && near1 ny (vy (f_normal f)) && near1 nz (vz (f_normal f)) &&
  near1 d (f_dist f).
Example repo_test_face_impl :
  match faces_new tetra with
  | Ok [f0; f1; f2; f3] =>
      face_is 3 2 1 (dec (-8728715) 7) (dec 43643576 8) (dec 21821788 8) (dec 10910894 7) f0 &&
      face_is 3 1 0 n0 (dec (-89442724) 8) (dec 44721362 8) (dec 2236068 6) f1 &&
      face_is 3 0 2 (dec 8728715 7) (dec 43643576 8) (dec 21821788 8) (dec 10910894 7) f2 &&
      face_is 2 0 1 n0 n0 (z (-1)) n1 f3
  | _ => false end = true.
Proof. vm_compute. reflexivity. Qed.
Example repo_test_polytope_closest_to_origin :
  match (fs ← faces_new tetra; closest_face fs) with Ok f => face_is 2 0 1 n0 n0 (z (-1)) n1 f | _ => false end = true.
Proof. vm_compute. reflexivity. Qed.
Example repo_test_polytope_add :
  match (fs ← faces_new tetra; poly_add tetra fs (sup3 0 0 (-2))) with
  | Ok (vs, fs) => bool_decide (length vs = 5) && bool_decide (length fs = 6) &&
      bool_decide (map f_vs (drop 3 fs) = [(4, 2, 0); (4, 0, 1); (4, 1, 2)])
  | _ => false end = true.
Proof. vm_compute. reflexivity. Qed.
Example repo_test_epa_3d :
  check (epa3_process (mink3 (box 10 10 10 (tr3 15 0 0)) (box 10 10 10 (tr3 7 2 0))) etol iters
      [sup3 18 (-12) 0; sup3 (-2) 8 0; sup3 (-2) (-12) 0; sup3 8 (-2) (-10)]) (fun c =>
    eqv3 (p3 (-1) 0 0) (c_normal c) && nle (nsub (z 2) (c_depth c)) eps32) = true.
Proof. vm_compute. reflexivity. Qed.

(** ** algorithm/minkowski/gjk/simplex/simplex2d.rs *)
Definition red2 (s : list (SupPt (V2 f32))) := reduce2 eps32 s (p2 1 0).
Example repo_simplex2_empty : let '(s, d, b) := red2 [] in negb b && (length s =? 0)%nat && eqv2 (p2 1 0) d = true.
Proof. vm_compute. reflexivity. Qed.
Example repo_simplex2_single : let '(s, d, b) := red2 [sup2 40 0] in negb b && (length s =? 1)%nat && eqv2 (p2 1 0) d = true.
Proof. vm_compute. reflexivity. Qed.
Example repo_simplex2_edge :
  let '(s, d, b) := red2 [sup2 40 10; sup2 (-10) 10] in
  negb b && (length s =? 2)%nat && nle (nsub n0 (ux d)) eps32 && nlt (uy d) n0 = true.
Proof. vm_compute. reflexivity. Qed.
Example repo_simplex2_triangle_outside_ac :
  let '(s, d, b) := red2 [sup2 40 10; sup2 (-10) 10; sup2 0 3] in
  negb b && (length s =? 2)%nat && nlt (ux d) n0 && nlt (uy d) n0 = true.
Proof. vm_compute. reflexivity. Qed.
Example repo_simplex2_triangle_outside_ab :
  let '(s, d, b) := red2 [sup2 40 10; sup2 10 10; sup2 3 (-3)] in
  negb b && (length s =? 2)%nat && nlt (ux d) n0 && nlt n0 (uy d) = true.
Proof. vm_compute. reflexivity. Qed.
Example repo_simplex2_triangle_hit :
  let '(s, d, b) := red2 [sup2 40 10; sup2 (-10) 10; sup2 0 (-3)] in b && (length s =? 3)%nat && eqv2 (p2 1 0) d = true.
Proof. vm_compute. reflexivity. Qed.
Definition clo2 (s : list (SupPt (V2 f32))) (n : nat) (p : V2 f32) : bool :=
  match closest2 eps32 s with Ok (s, v) => (length s =? n)%nat && near2 p v | _ => false end.
Example repo_closest_point_to_origin2 :
  clo2 [sup2 40 10; sup2 (-10) 10; sup2 0 3] 2 (p2 0 3) && clo2 [sup2 40 10; sup2 (-10) 10; sup2 0 (-3)] 3 (p2 0 0) &&
  clo2 [sup2 40 10; sup2 (-10) 10] 2 (p2 0 10) = true.
Proof. vm_compute. reflexivity. Qed.

(** ** algorithm/minkowski/gjk/simplex/simplex3d.rs *)
Definition side (c b a : SupPt (V3 f32)) :=
  let ab := sub3 (sp_v b) (sp_v a) in let ac := sub3 (sp_v c) (sp_v a) in
  check_side (cross3 ab ac) ab ac (neg3 (sp_v a)) c b a false false.
Definition side_is (r : list (SupPt (V3 f32)) * V3 f32) (n : nat) (first v : V3 f32) : bool :=
  (length r.1 =? n)%nat && match head r.1 with Some p => eqv3 first (sp_v p) | None => false end && near3 v r.2.
Example repo_check_side :
  side_is (side (sup3 8 (-10) 0) (sup3 (-1) (-10) 0) (sup3 3 5 0)) 2 (p3 (-1) (-10) 0) (p3 (-375) 100 0) &&
  side_is (side (sup3 2 (-10) 0) (sup3 (-7) (-10) 0) (sup3 (-3) 5 0)) 2 (p3 2 (-10) 0) (p3 300 100 0) &&
  side_is (side (sup3 5 (-10) (-1)) (sup3 (-4) (-10) (-1)) (sup3 0 5 (-1))) 3 (p3 5 (-10) (-1)) (p3 0 0 135) &&
  side_is (side (sup3 5 (-10) 1) (sup3 (-4) (-10) 1) (sup3 0 5 1)) 3 (p3 (-4) (-10) 1) (p3 0 0 (-135)) = true.
Proof. vm_compute. reflexivity. Qed.
Definition red3 (s : list (SupPt (V3 f32))) := reduce3 eps32 tenth32 s (p3 0 0 0).
Definition red3_is (s : list (SupPt (V3 f32))) (hits : bool) (n : nat) (v : V3 f32) (pts : list (nat * V3 f32)) : bool :=
  let '(s, d, b) := red3 s in
  eqb b hits && (length s =? n)%nat && (hits || eqv3 v d) &&
  forallb (fun q => match s !! fst q with Some p => eqv3 (snd q) (sp_v p) | None => false end) pts.
Definition sup3f (x y w : f32) : SupPt (V3 f32) := mkSup (mk3 x y w) (p3 0 0 0) (p3 0 0 0).
Example repo_simplex3 :
  red3_is [] false 0 (p3 0 0 0) [] && red3_is [sup3 8 (-10) 0] false 1 (p3 0 0 0) [] &&
  red3_is [sup3 8 (-10) 0; sup3 (-1) (-10) 0] false 2 (p3 0 810 0) [] &&
  red3_is [sup3 5 (-10) (-1); sup3 (-4) (-10) (-1); sup3 0 5 (-1)] false 3 (p3 0 0 135) [] = true.
Proof. vm_compute. reflexivity. Qed.
Example repo_simplex3_tetrahedron_outside_abc :
  red3_is [sup3 8 (-10) (-1); sup3 (-1) (-10) (-1); sup3 3 5 (-1); sup3 3 (-3) 5] false 3 (p3 (-90) 24 32)
    [(0, p3 (-1) (-10) (-1))] = true.
Proof. vm_compute. reflexivity. Qed.
Example repo_simplex3_tetrahedron_outside_acd :
  red3_is [sup3f (z 8) tenth32 (z (-1)); sup3f (z (-1)) tenth32 (z (-1)); sup3 3 15 (-1); sup3 3 7 5] false 3
    (mk3 n0 (z (-54)) (dec 621 1))
    [(2, p3 3 7 5); (1, mk3 (z (-1)) tenth32 (z (-1))); (0, mk3 (z 8) tenth32 (z (-1)))] = true.
Proof. vm_compute. reflexivity. Qed.
Example repo_simplex3_tetrahedron_outside_adb :
  red3_is [sup3 2 (-10) (-1); sup3 (-7) (-10) (-1); sup3 (-3) 5 (-1); sup3 (-3) (-3) 5] false 3 (p3 90 30 40)
    [(2, p3 (-3) (-3) 5); (1, p3 2 (-10) (-1)); (0, p3 (-3) 5 (-1))] = true.
Proof. vm_compute. reflexivity. Qed.
Example repo_simplex3_tetrahedron_inside : red3_is tetra true 4 (p3 0 0 0) [] = true.
Proof. vm_compute. reflexivity. Qed.

(** ** primitive/util.rs *)
Definition tri3 : list (V2 f32) := [p2 (-1) 1; p2 0 (-1); p2 1 0].
Definition maxpt (d : V2 f32) (t : Xf (V2 f32)) (p : V2 f32) : bool :=
  match get_max_point dot2 zero2 tri3 d t with Ok q => near2 p q | _ => false end.
Definition rsqrt2 : f32 := dec 70710678118654752440 20.
Example repo_test_get_bound : let b := get_bound2 tri3 in eqv2 (p2 (-1) (-1)) (min2 b) && eqv2 (p2 1 1) (max2 b) = true.
Proof. vm_compute. reflexivity. Qed.
Example repo_test_max_point :
  maxpt (p2 0 1) (tr2 0 0) (p2 (-1) 1) && maxpt (p2 (-1) 0) (tr2 0 0) (p2 (-1) 1) && maxpt (p2 0 (-1)) (tr2 0 0) (p2 0 (-1)) &&
  maxpt (p2 1 0) (tr2 0 0) (p2 1 0) && maxpt (p2 10 1) (tr2 0 0) (p2 1 0) && maxpt (p2 2 (-100)) (tr2 0 0) (p2 0 (-1)) &&
  maxpt (p2 0 1) (rot2 rsqrt2 rsqrt2 n0 n0) (mk2 rsqrt2 rsqrt2) && maxpt (p2 0 1) (tr2 0 8) (p2 (-1) 9) = true.
Proof. vm_compute. reflexivity. Qed.
Example repo_test_closest_point_2d :
  near2 (p2 1 1) (closest_on_edge2 (p2 3 (-1)) (p2 (-1) 3) zero2) && near2 (p2 2 0) (closest_on_edge2 (p2 2 (-2)) (p2 2 2) zero2) &&
  near2 (p2 2 2) (closest_on_edge2 (p2 2 4) (p2 2 2) zero2) && near2 (p2 2 (-2)) (closest_on_edge2 (p2 2 (-2)) (p2 2 (-4)) zero2) = true.
Proof. vm_compute. reflexivity. Qed.
