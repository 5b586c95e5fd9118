(** Model of /repo/src/primitive/polyhedron.rs: convex polyhedra given with faces (half
    edges), their support function and their ray tests. *)
From stdpp Require Import prelude fin_maps gmap.
From Verif Require Import Res Num Vec AabbModel GeoModel PrimModel MinkModel MeshSpec.




Section mesh.
  Context {S : Type} `{Num S} `{NumSgn S}.
  Local Open Scope num_scope.
  Context (eps : S).
  (** polyhedron.rs 30-34 [Vertex], 42-49 [Edge], 57-65 [Face] (whose [ready] flag, set with
      the first edge, is left out: the first edge is the one from the third to the first
      vertex). *)
  Record HVertex := mkHV { hv_pos : V3 S; hv_edge : nat; hv_ready : bool }.
  Record HEdge := mkHE { he_target : nat; he_left : nat; he_next : nat; he_prev : nat; he_twin : nat; he_ready : bool }.
  Record HFace := mkHF { hf_edge : nat; hf_vs : tri; hf_plane : Plane S }.
  (** The mutable state of [build_half_edges] apart from the faces. *)
  Record hstate := mkH { h_vertices : list HVertex; h_edges : list HEdge; h_map : gmap (nat * nat) nat }.
  Definition upd {A} (l : list A) (i : nat) (f : A -> A) : res (list A) :=
    x ← get l i; Ok (<[i := f x]> l).

  (** polyhedron.rs 318-341: the half edges from [v0] to [v1] and back, pushed if they are new. *)
  Definition edge_pair (v0 v1 : nat) (s : hstate) : res (nat * nat * list HEdge) :=
    match h_map s !! (v0, v1) with
    | Some e => x ← get (h_edges s) e; Ok (e, he_twin x, h_edges s)
    | None =>
        let n := length (h_edges s) in
        Ok (n, (n + 1)%nat, h_edges s ++ [mkHE v1 0 0 0 (n + 1) false; mkHE v0 0 0 0 n false])
    end.
  (** polyhedron.rs 313-363: the body of the loop over the sides of a face, for the side
      from [v0] to [v1] of the face number [fi]; returns the index of the half edge. *)
  Definition half_edge (fi v0 v1 : nat) (s : hstate) : res (hstate * nat) :=
    '(e01, e10, es) ← edge_pair v0 v1 s;
    let m := <[(v1, v0) := e10]> (<[(v0, v1) := e01]> (h_map s)) in
    es ← upd es e01 (fun x => if he_ready x then x else mkHE (he_target x) fi (he_next x) (he_prev x) (he_twin x) true);
    vs ← upd (h_vertices s) v0 (fun x => if hv_ready x then x else mkHV (hv_pos x) e01 true);
    Ok (mkH vs es m, e01).
  Definition set_next (n : nat) (x : HEdge) : HEdge := mkHE (he_target x) (he_left x) n (he_prev x) (he_twin x) (he_ready x).
  Definition set_prev (n : nat) (x : HEdge) : HEdge := mkHE (he_target x) (he_left x) (he_next x) n (he_twin x) (he_ready x).
  (** polyhedron.rs 367-373: one step of the loop that links the sides of a face. *)
  Definition link (es : list HEdge) (i j : nat) : res (list HEdge) :=
    es ← upd es i (set_next j); upd es j (set_prev i).
  (** polyhedron.rs 297-374: one face.  [unwrap] panics on a degenerate face. *)
  Definition build_face (f : tri) (acc : hstate * list HFace) : res (hstate * list HFace) :=
    let '(a, b, c) := f in
    let '(s, fs) := acc in
    va ← get (h_vertices s) a; vb ← get (h_vertices s) b; vc ← get (h_vertices s) c;
    match plane_from_points eps (hv_pos va) (hv_pos vb) (hv_pos vc) with
    | None => Panic
    | Some pl =>
        '(s, eca) ← half_edge (length fs) c a s;
        '(s, eab) ← half_edge (length fs) a b s;
        '(s, ebc) ← half_edge (length fs) b c s;
        es ← link (h_edges s) eca eab;
        es ← link es eab ebc;
        es ← link es ebc eca;
        Ok (mkH (h_vertices s) es (h_map s), fs ++ [mkHF eca f pl])
    end.
  Fixpoint build_faces (fs : list tri) (acc : hstate * list HFace) : res (hstate * list HFace) :=
    match fs with [] => Ok acc | f :: fs => acc ← build_face f acc; build_faces fs acc end.
  (** polyhedron.rs 278-378 [build_half_edges]. *)
  Definition build_half_edges (vs : list (V3 S)) (fs : list tri) : res (list HVertex * list HEdge * list HFace) :=
    '(s, hfs) ← build_faces fs (mkH (map (fun v => mkHV v 0 false) vs) [] ∅, []);
    Ok (h_vertices s, h_edges s, hfs).
  (** polyhedron.rs 78-92 [ConvexPolyhedron]; 100-122 [new], 125-141 [new_with_faces]. *)
  Record Polyhedron := mkPoly {
    ph_half_edge : bool; ph_vertices : list HVertex; ph_edges : list HEdge; ph_faces : list HFace;
    ph_bound : Aabb3 S; ph_extent : S }.
  Definition poly_new (vs : list (V3 S)) : Polyhedron :=
    mkPoly false (map (fun v => mkHV v 0 true) vs) [] [] (get_bound3 vs) (max_extent vs).
  Definition poly_new_faces (vs : list (V3 S)) (fs : list tri) : res Polyhedron :=
    '(hvs, hes, hfs) ← build_half_edges vs fs;
    let ps := map hv_pos hvs in Ok (mkPoly true hvs hes hfs (get_bound3 ps) (max_extent ps)).
  (** polyhedron.rs 237-257 [dedup_vertices]: the vertices without duplicates, and for each
      duplicate the position of its copy (the last one that is equal to it). *)
  Definition eq3 (a b : V3 S) : bool := (vx a ==? vx b) && (vy a ==? vy b) && (vz a ==? vz b).
  Fixpoint find_dup (vs : list (V3 S)) (j : nat) (v : V3 S) (found : option nat) : option nat :=
    match vs with
    | [] => found
    | x :: vs => find_dup vs (j + 1)%nat v (if eq3 x v then Some j else found)
    end.
  Fixpoint dedup_vertices (input : list (V3 S)) (i : nat) (vs : list (V3 S)) (dup : gmap nat nat)
      : list (V3 S) * gmap nat nat :=
    match input with
    | [] => (vs, dup)
    | v :: input =>
        match find_dup vs 0 v None with
        | Some j => dedup_vertices input (i + 1) vs (<[i := j]> dup)
        | None => dedup_vertices input (i + 1) (vs ++ [v]) dup
        end
    end.
  (** polyhedron.rs 259-274 [dedup_faces]. *)
  Definition dedup_index (dup : gmap nat nat) (i : nat) : nat := default i (dup !! i).
  Definition dedup_faces (fs : list tri) (dup : gmap nat nat) : list tri :=
    map (fun f : tri => let '(a, b, c) := f in (dedup_index dup a, dedup_index dup b, dedup_index dup c)) fs.
  (** polyhedron.rs 145-148 [new_with_faces_dedup]. *)
  Definition poly_new_dedup (vs : list (V3 S)) (fs : list tri) : res Polyhedron :=
    let '(vs', dup) := dedup_vertices vs 0 [] ∅ in poly_new_faces vs' (dedup_faces fs dup).
  (** polyhedron.rs 151-157, 220-234 [faces_iter]: the positions of the vertices of each
      face; the assertion on the mode panics. *)
  Definition face_points (p : Polyhedron) (f : HFace) : res (V3 S * V3 S * V3 S) :=
    let '(a, b, c) := hf_vs f in
    va ← get (ph_vertices p) a; vb ← get (ph_vertices p) b; vc ← get (ph_vertices p) c;
    Ok (hv_pos va, hv_pos vb, hv_pos vc).
  Definition faces_iter (p : Polyhedron) : res (list (V3 S * V3 S * V3 S)) :=
    if ph_half_edge p then mapM_res (face_points p) (ph_faces p) else Panic.

  (** polyhedron.rs 189-202: the walk around a vertex, from the half edge [e] until it is
      back at [start]. *)
  Fixpoint ring_loop (fuel : nat) (p : Polyhedron) (d : V3 S) (start e best : nat) (bd : S) : res (nat * S) :=
    match fuel with
    | O => OutOfFuel
    | Datatypes.S fuel =>
        x ← get (ph_edges p) e;
        v ← get (ph_vertices p) (he_target x);
        let dot := dot3 (hv_pos v) d in
        let '(best, bd) := if dot >? bd then (he_target x, dot) else (best, bd) in
        t ← get (ph_edges p) (he_twin x);
        if decide (start = he_next t) then Ok (best, bd) else ring_loop fuel p d start (he_next t) best bd
    end.
  (** polyhedron.rs 184-208: the outer loop. *)
  Fixpoint climb_loop (rfuel fuel : nat) (p : Polyhedron) (d : V3 S) (best : nat) (bd : S) : res nat :=
    match fuel with
    | O => OutOfFuel
    | Datatypes.S fuel =>
        v ← get (ph_vertices p) best;
        '(best', bd') ← ring_loop rfuel p d (hv_edge v) (hv_edge v) best bd;
        if bd' ==? bd then Ok best' else climb_loop rfuel fuel p d best' bd'
    end.
  (** polyhedron.rs 179-211 [hill_climb_support_point]. *)
  Definition hill_climb (rfuel fuel : nat) (p : Polyhedron) (d : V3 S) : res (V3 S) :=
    v0 ← get (ph_vertices p) 0;
    i ← climb_loop rfuel fuel p d 0 (dot3 (hv_pos v0) d);
    v ← get (ph_vertices p) i; Ok (hv_pos v).
  (** polyhedron.rs 386-399 [support_point] (160-176 [brute_force_support_point]). *)
  Definition polyhedron_support (rfuel fuel : nat) (p : Polyhedron) (d : V3 S) (T : Xf (V3 S)) : res (V3 S) :=
    match xf_ivec T d with
    | None => Panic
    | Some d' =>
        if ph_half_edge p then q ← hill_climb rfuel fuel p d'; Ok (xf_pt T q)
        else Ok (xf_pt T (max_point (fun v => dot3 v d') zero3 (map hv_pos (ph_vertices p))))
    end.

  (** ** Rays *)
  (** polyhedron.rs 565-587 [intersect_ray_face]. *)
  Definition ray_face (p : Polyhedron) (ray : Ray (V3 S)) (f : HFace) : res (option (S * S * S)) :=
    if dot3 (pl_n (hf_plane f)) (direction ray) <? n0 then
      match plane_ray (hf_plane f) ray with
      | None => Ok None
      | Some q => '(a, b, c) ← face_points p f; Ok (Some (bary3 q a b c))
      end
    else Ok None.
  (** polyhedron.rs 497-555 [next_face_classify]; [checked] is the bit set.  Simplification: the
      half edges of the face and their twins are all looked up before the first test, the
      code looks each up when it reaches it (no difference as long as none is out of range). *)
  Fixpoint next_unchecked (fuel : nat) (checked : list nat) (n i : nat) : nat :=
    match fuel with
    | O => i
    | Datatypes.S fuel => if bool_decide (i < n)%nat && bool_decide (i ∈ checked) then next_unchecked fuel checked n (i + 1) else i
    end.
  Fixpoint first_unchecked (is : list nat) (checked : list nat) : option nat :=
    match is with [] => None | i :: is => if bool_decide (i ∈ checked) then first_unchecked is checked else Some i end.
  Fixpoint twin_faces (p : Polyhedron) (es : list nat) : res (list nat) :=
    match es with
    | [] => Ok []
    | e :: es => x ← get (ph_edges p) e; t ← get (ph_edges p) (he_twin x); l ← twin_faces p es; Ok (he_left t :: l)
    end.
  Definition next_face (p : Polyhedron) (i : nat) (uvw : option (S * S * S)) (checked : list nat) : res (option nat) :=
    let n := length (ph_faces p) in
    if (n <? 10)%nat then
      if decide (i = (n - 1)%nat) then Ok None else Ok (Some (i + 1)%nat)
    else match uvw with
    | None =>
        let next := next_unchecked n checked n (i + 1) in
        if decide (next = n) then Ok None else Ok (Some next)
    | Some (u, v, _) =>
        f ← get (ph_faces p) i;
        let '(f0, f1, f2) := hf_vs f in
        let target := if u <? n0 then f2 else if v <? n0 then f0 else f1 in
        fe ← get (ph_edges p) (hf_edge f);
        pe ← get (ph_edges p) (he_prev fe);
        let es :=
          if decide (he_target fe = target) then [hf_edge f; he_next fe; he_prev fe]
          else if decide (he_target pe = target) then [he_prev fe; hf_edge f; he_next fe]
          else [he_next fe; he_prev fe; hf_edge f] in
        ls ← twin_faces p es;
        Ok (first_unchecked (ls ++ seq 0 n) checked)
    end.
  (** polyhedron.rs 458-484 [find_intersecting_face]. *)
  Fixpoint find_face (fuel : nat) (p : Polyhedron) (ray : Ray (V3 S)) (i : nat) (checked : list nat)
      : res (option (nat * (S * S * S))) :=
    match fuel with
    | O => OutOfFuel
    | Datatypes.S fuel =>
        let checked := i :: checked in
        f ← get (ph_faces p) i;
        o ← ray_face p ray f;
        let go := next ← next_face p i o checked; match next with None => Ok None | Some j => find_face fuel p ray j checked end in
        match o with
        | Some (u, v, w) => if in_range u && in_range v && in_range w then Ok (Some (i, (u, v, w))) else go
        | None => go
        end
    end.
  (** polyhedron.rs 425-451 [intersection], [intersects]. *)
  Definition polyhedron_ray (fuel : nat) (p : Polyhedron) (ray : Ray (V3 S)) : res (option (V3 S)) :=
    o ← find_face fuel p ray 0 [];
    match o with
    | None => Ok None
    | Some (i, (u, v, w)) =>
        f ← get (ph_faces p) i;
        '(a, b, c) ← face_points p f;
        Ok (Some (add3 (add3 (scale3 a u) (scale3 b v)) (scale3 c w)))
    end.
  Definition polyhedron_ray_test (fuel : nat) (p : Polyhedron) (ray : Ray (V3 S)) : res bool :=
    o ← find_face fuel p ray 0 []; Ok (bool_decide (is_Some o)).
End mesh.
Arguments HVertex : clear implicits. Arguments HFace : clear implicits. Arguments hstate : clear implicits. Arguments Polyhedron : clear implicits.
