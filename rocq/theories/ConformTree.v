(** Conformance of the model: the tests of the tree and of the broad phases, replayed on the
    model in IEEE single precision by computation, and the tests of convex polyhedra. *)
From stdpp Require Import prelude.
From Flocq Require Import IEEE754.BinarySingleNaN.
From Verif Require Import Res Num Vec AabbModel GeoModel PrimModel MinkModel ApproxModel MeshModel XformModel.
From Verif Require Import DbvtModel DbvtVisitors BroadModel AabbTree AabbTreeExample ConformGjk ConformPrim.
Local Existing Instance Num_float.
Local Instance inf32ct : NumInf f32 := NumInf_float 24 128.
Local Instance sgn32ct : NumSgn f32 := NumSgn_float 24 128.

(** ** tests/dbvt.rs.  The values are boxes given by corner and size with an id, and a fat box
    that adds a margin of zero. *)
Definition tval (id x y w h : Z) : T2 :=
  Wrapped (Z.to_nat id) (aabb2_new (p2 x y) (mk2 (z x + z w)%N_ (z y + z h)%N_)) (p2 0 0).
Definition st := res (dbvt T2 (Aabb2 f32)).
Definition new : st := Ok dbvt_new.
Definition ins (v : T2) (s : st) : st := s ← s; '(s, _) ← insert O2 s v; Ok s.
(** [remove(values()[k].0)] *)
Definition del (k : nat) (s : st) : st :=
  s ← s; v ← Res.get (values s) k; '(s, _) ← remove s v.1; Ok s.
Definition refit (rng : nat -> bool) (s : st) : st := s ← s; do_refit O2 200 rng s.
Definition shape_is (vals size height : nat) (s : st) : bool :=
  ok s (fun s => Nat.eqb (length (values s)) vals && Nat.eqb (dbvt_size s) size &&
                 ok (dbvt_height s) (fun h => Nat.eqb h height)).
(** The test runs with some draws; it is replayed with no rotation, with all and with two others. *)
Definition draws (f : (nat -> bool) -> bool) : bool :=
  f (fun _ => false) && f (fun _ => true) && f Nat.even && f Nat.odd.
Definition v10 := tval 10 5 5 10 10. Definition v11 := tval 11 21 14 23 16. Definition v12 := tval 12 (-12) (-1) 0 0.
Definition v13 := tval 13 (-200) (-26) (-185) (-20). Definition v14 := tval 14 56 58 99 96.
Definition five : st := ins v14 (ins v13 (ins v12 (ins v11 (ins v10 new)))).
Example repo_test_add_1 : shape_is 1 1 1 (ins v10 new) = true.
Proof. vm_compute. reflexivity. Qed.
Example repo_test_add_2 : draws (fun r => shape_is 2 3 2 (refit r (ins v11 (ins v10 new)))) = true.
Proof. vm_compute. reflexivity. Qed.
Example repo_test_add_3 : draws (fun r => shape_is 3 5 3 (refit r (ins v12 (ins v11 (ins v10 new))))) = true.
Proof. vm_compute. reflexivity. Qed.
Example repo_test_add_5 :
  draws (fun r => shape_is 5 9 4 (refit r (ins v14 (refit r (ins v13 (refit r (ins v12 (refit r (ins v11 (refit r (ins v10 new))))))))))) = true.
Proof. vm_compute. reflexivity. Qed.
Example repo_test_remove_leaf_right_side : draws (fun r => shape_is 4 7 4 (refit r (del 4 (refit r five)))) = true.
Proof. vm_compute. reflexivity. Qed.
Example repo_test_remove_leaf_left_side : draws (fun r => shape_is 4 7 3 (refit r (del 3 (refit r five)))) = true.
Proof. vm_compute. reflexivity. Qed.
Example repo_test_remove_leaf_left_side_2 : draws (fun r => shape_is 3 5 3 (refit r (del 0 (del 3 (refit r five))))) = true.
Proof. vm_compute. reflexivity. Qed.
Example repo_test_remove_leaf_left_side_3 : draws (fun r => shape_is 2 3 2 (refit r (del 1 (del 0 (del 3 (refit r five)))))) = true.
Proof. vm_compute. reflexivity. Qed.
Example repo_test_remove_leaf_left_right : draws (fun r => shape_is 2 3 2 (refit r (del 0 (del 0 (del 3 (refit r five)))))) = true.
Proof. vm_compute. reflexivity. Qed.
Example repo_test_remove_second_to_last :
  draws (fun r => shape_is 1 1 1 (refit r (del 0 (del 0 (del 0 (del 3 (refit r five))))))) = true.
Proof. vm_compute. reflexivity. Qed.
Example repo_test_remove_last :
  draws (fun r => shape_is 0 0 0 (refit r (del 0 (del 0 (del 0 (del 0 (del 3 (refit r five)))))))) = true.
Proof. vm_compute. reflexivity. Qed.

Definition halves (a b : Z) : V2 f32 := normalize2 (f2 (dec a 1) (dec b 1)).
Definition closest (r : Ray (V2 f32)) (s : dbvt T2 (Aabb2 f32)) : res (option (T2 * V2 f32)) :=
  query_ray_closest O2 (fun b => ray_aabb2 r b) (fun p => dot2 (sub2 p (origin r)) (direction r)) nlt ninf 100 s.
Example repo_test_ray_closest :
  draws (fun rng =>
    ok (refit rng (ins (tval 99 19 (-12) 3 3) (ins (tval 76 7 3 1 1) (ins (tval 1 22 50 16 16) (ins (tval 66 123 (-10) 10 10)
       (ins (tval 13 (-145) 34 2 2) (ins (tval 33 15 3 3 3) (ins (tval 12 0 0 10 10) new)))))))) (fun s =>
    check (closest (mkRay (p2 12 12) (halves 5 (-5))) s)
          (fun r => Nat.eqb (w_value r.1) 33 && eqv2 (f2 (z 18) (dec 59999995 7)) r.2))) = true.
Proof. vm_compute. reflexivity. Qed.
Definition tall_and_small rng : st := refit rng (ins (tval 11 21 14 2 2) (ins (tval 10 5 5 5 15) new)).
Definition ray_away := mkRay (p2 0 0) (normalize2 (p2 (-1) (-1))).
Definition ray_up := mkRay (p2 6 0) (normalize2 (p2 0 1)).
Example repo_test_ray_discrete :
  draws (fun rng => ok (tall_and_small rng) (fun s =>
    let q r := query O2 100 (discrete_visitor (fun b => ray_aabb2_test r b)) s () in
    ok (q ray_away) (fun l => Nat.eqb (length l) 0) &&
    ok (q ray_up) (fun l => match l with [(v, _)] => Nat.eqb (w_value v) 10 | _ => false end))) = true.
Proof. vm_compute. reflexivity. Qed.
Example repo_test_ray_continuous :
  draws (fun rng => ok (tall_and_small rng) (fun s =>
    let q r := query O2 100 (continuous_visitor (fun b => ray_aabb2 r b)) s () in
    ok (q ray_away) (fun l => Nat.eqb (length l) 0) &&
    ok (q ray_up) (fun l => match l with [(v, p)] => Nat.eqb (w_value v) 10 && eqv2 (p2 6 5) p | _ => false end))) = true.
Proof. vm_compute. reflexivity. Qed.

(** The frustum of the test: cotangent of 30 degrees, aspect 16/9, near 0.1, far 4. *)
Definition tval3 (id : nat) (a b c d e f : f32) : T3 := Wrapped id (aabb3_new (f3 a b c) (f3 d e f)) (p3 3 3 3).
Definition view : res (Frustum f32) :=
  fov_to_frustum eps32 (dec 1732050807568877293 18) (z 16 / z 9)%N_ tenth32 (z 4).
Example repo_test_frustum :
  draws (fun rng =>
    let s := (s ← Ok dbvt_new; '(s, _) ← insert O3 s (tval3 10 (dec 2 1) (dec 2 1) (dec 2 1) (z 10) (z 10) (z 10));
              '(s, _) ← insert O3 s (tval3 11 (dec 2 1) (dec 2 1) (dec (-2) 1) (z 10) (z 10) (z (-10)));
              do_refit O3 100 rng s) in
    ok s (fun s => ok view (fun fr =>
      ok (query O3 100 (frustum_visitor (fun b => frustum_contains fr (relate_aabb3 b))) s ())
         (fun l => match l with [(v, RCross)] => Nat.eqb (w_value v) 11 | _ => false end)))) = true.
Proof. vm_compute. reflexivity. Qed.

(** ** brute_force.rs, sweep_prune.rs: boxes by their corners *)
Definition coll (a b c d : Z) : Aabb2 f32 := aabb2_new (p2 a b) (p2 c d).
Definition brute (l : list (Aabb2 f32)) := brute_force (fun b => b) intersects2 l.
Definition sweep (l : list (Aabb2 f32)) :=
  '(_, _, ps) ← sap_find (fun b => b) intersects2 2 (fun b => coords2 (min2 b)) (fun b => coords2 (max2 b))
                  (fun n => z (Z.of_nat n)) (sap_new (S:=f32) 2) l; Ok ps.
Definition pairs_are (l : list (nat * nat)) (r : res (list (nat * nat))) : bool := ok r (fun p => bool_decide (p = l)).
Definition hit_l := coll 8 8 10 11. Definition miss_r := coll 12 13 18 18. Definition hit_r := coll 9 10 18 18.
Example repo_no_intersection_for_miss :
  pairs_are [] (brute [hit_l; miss_r]) && pairs_are [] (brute [miss_r; hit_l]) &&
  pairs_are [] (sweep [hit_l; miss_r]) && pairs_are [] (sweep [miss_r; hit_l]) = true.
Proof. vm_compute. reflexivity. Qed.
Example repo_intersection_for_hit :
  pairs_are [(0, 1)] (brute [hit_l; hit_r]) && pairs_are [(0, 1)] (brute [hit_r; hit_l]) &&
  pairs_are [(0, 1)] (sweep [hit_l; hit_r]) && pairs_are [(0, 1)] (sweep [hit_r; hit_l]) = true.
Proof. vm_compute. reflexivity. Qed.

(** ** primitive/polyhedron.rs: the tetrahedron *)
Definition tet_vs : list (V3 f32) := [p3 1 0 0; p3 0 1 0; p3 0 0 1; p3 0 0 0].
Definition tet : Polyhedron f32 := match poly_new_faces eps32 tet_vs [(1, 3, 2); (3, 1, 0); (2, 0, 1); (0, 2, 3)] with Ok p => p | _ => poly_new [] end.
Example repo_polytope_half_edge :
  let s p d := polyhedron_support 20 20 p d (tr3 0 0 0) in
  forallb (fun p => ok (s p (p3 1 0 0)) (eqv3 (p3 1 0 0)) && ok (s p (p3 0 1 0)) (eqv3 (p3 0 1 0))) [poly_new tet_vs; tet] = true.
Proof. vm_compute. reflexivity. Qed.
Definition pq : Ray (V3 f32) := mkRay (f3 (dec 25 2) (z 5) (dec 25 2)) (p3 0 (-1) 0).
Definition pu : Ray (V3 f32) := mkRay (f3 (dec 5 1) (z 5) (dec 5 1)) (p3 0 1 0).
Example repo_polytope_ray_discrete :
  let t r := polyhedron_ray_test 20 tet r in yes (t pq) && no (t pu) = true.
Proof. vm_compute. reflexivity. Qed.
Example repo_polytope_ray_discrete_transformed :
  let t r x := intersects_transformed (polyhedron_ray_test 20 tet) r x in
  yes (t pq (tr3 0 0 0)) && no (t pu (tr3 0 0 0)) && yes (t pq (tr3 0 1 0)) && yes (t pq (rz3_03 n0 n0 n0)) = true.
Proof. vm_compute. reflexivity. Qed.
Definition low : V3 f32 := f3 (dec 25000018 8) (dec 4999997 7) (dec 25000018 8).
Example repo_polytope_ray_continuous :
  let t r := polyhedron_ray 20 tet r in
  check (t pq) (near3 low) && none (t pu) && check (t (r3 0 5 0 0 (-1) 0)) (eqv3 (p3 0 1 0)) = true.
Proof. vm_compute. reflexivity. Qed.
Example repo_polytope_ray_continuous_transformed :
  let t r x := intersection_transformed (polyhedron_ray 20 tet) r x in
  check (t pq (tr3 0 0 0)) (near3 low) && none (t pu (tr3 0 0 0)) &&
  check (t pq (tr3 0 1 0)) (near3 (f3 (dec 25000018 8) (dec 14999997 7) (dec 25000018 8))) &&
  check (t pq (rz3_03 n0 n0 n0)) (near3 (f3 (dec 25 2) (dec 4677162 7) (dec 25 2))) = true.
Proof. vm_compute. reflexivity. Qed.
Example repo_intersect_face : ok (polyhedron_ray 20 tet (r3 1 (-1) 1 0 1 0)) (fun _ => true) = true.
Proof. vm_compute. reflexivity. Qed.
