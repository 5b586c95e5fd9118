(** Model of /repo/src/algorithm/minkowski/: GJK intersection, distance and time of
    impact, EPA contact manifolds; with /repo/src/contact.rs and the helpers of
    /repo/src/primitive/util.rs they use. *)
From stdpp Require Import prelude.
From Verif Require Import Res Num Vec AabbModel GeoModel PrimModel.

(** mod.rs 16-23 [SupportPoint]. *)
Record SupPt (V : Type) := mkSup { sp_v : V; sp_a : V; sp_b : V }.
Arguments mkSup {V}. Arguments sp_v {V}. Arguments sp_a {V}. Arguments sp_b {V}.

(** contact.rs 16-22 [CollisionStrategy], 30-47 [Contact]. *)
Inductive strategy := FullResolution | CollisionOnly.
Record Contact (S V : Type) := mkContact {
  c_strategy : strategy; c_normal : V; c_depth : S; c_point : V; c_toi : S }.
Arguments mkContact {S V}. Arguments c_strategy {S V}. Arguments c_normal {S V}. Arguments c_depth {S V}.
Arguments c_point {S V}. Arguments c_toi {S V}.

(** The outcome of the intersection test.  [Separated] and [Exhausted] are both returned
    as [None]; the model remembers which [return] was taken (ghost). *)
Inductive gjk_out (V : Type) := Hit (simplex : list (SupPt V)) | Separated | Exhausted.
Arguments Hit {V}. Arguments Separated {V}. Arguments Exhausted {V}.
Definition gjk_forget {V} (o : gjk_out V) : option (list (SupPt V)) :=
  match o with Hit s => Some s | _ => None end.
(** The outcome of the distance computation: a distance, or [None] because the closest
    point found was the origin, or because the iterations ran out (ghost). *)
Inductive dist_out (S : Type) := Distance (d : S) | Touching | DistExhausted.
Arguments Distance {S}. Arguments Touching {S}. Arguments DistExhausted {S}.
Definition dist_forget {S} (o : dist_out S) : option S := match o with Distance d => Some d | _ => None end.

Section gjk.
  (** The vector operations of the dimension at hand. *)
  Context {S V : Type} `{Num S}.
  Local Open Scope num_scope.
  Context (vzero vone : V) (vadd vsub : V -> V -> V) (vneg : V -> V) (vscale : V -> S -> V) (dot : V -> V -> S)
    (mag : V -> S) (normalize : V -> V) (vnear0 : V -> bool).
  (** The support functions of the two shapes (with their transforms). *)
  Context (supL supR : V -> res V).
  (** mod.rs 40-61 [SupportPoint::from_minkowski]. *)
  Definition mink (d : V) : res (SupPt V) :=
    l ← supL d; r ← supR (vneg d); Ok (mkSup (vsub l r) l r).
  (** gjk/simplex/mod.rs 15-42 [SimplexProcessor]: [reduce_to_closest_feature] returns
      the updated simplex and search direction and whether the origin is enclosed;
      [get_closest_point_to_origin] the updated simplex and the point. *)
  Context (reduce : list (SupPt V) -> V -> list (SupPt V) * V * bool)
    (closest : list (SupPt V) -> res (list (SupPt V) * V)).

  (** gjk/mod.rs 129-142: the loop of [intersect]. *)
  Fixpoint gjk_loop (n : nat) (simplex : list (SupPt V)) (d : V) : res (gjk_out V) :=
    match n with
    | O => Ok Exhausted
    | Datatypes.S n =>
        a ← mink d;
        if dot (sp_v a) d <=? n0 then Ok Separated
        else let '(simplex', d', inside) := reduce (simplex ++ [a]) d in
          if inside then Ok (Hit simplex') else gjk_loop n simplex' d'
    end.
  (** gjk/mod.rs 116-121, 283-288: the initial direction. *)
  Definition first_dir (lpos rpos : V) : V := let d := vsub rpos lpos in if vnear0 d then vone else d.
  (** gjk/mod.rs 100-145 [intersect]; [lpos], [rpos] are the transformed origins. *)
  Definition gjk_run (n : nat) (lpos rpos : V) : res (gjk_out V) :=
    let d := first_dir lpos rpos in
    a ← mink d;
    if dot (sp_v a) d <=? n0 then Ok Separated else gjk_loop n [a] (vneg d).
  Definition gjk_intersect (n : nat) (lpos rpos : V) : res (option (list (SupPt V))) :=
    o ← gjk_run n lpos rpos; Ok (gjk_forget o).

  (** gjk/mod.rs 298-312: the loop of [distance]. *)
  Fixpoint dist_loop (tol : S) (n : nat) (simplex : list (SupPt V)) : res (dist_out S) :=
    match n with
    | O => Ok DistExhausted
    | Datatypes.S n =>
        '(simplex', c) ← closest simplex;
        if vnear0 c then Ok Touching
        else
          let d := vneg c in
          p ← mink d;
          s0 ← get simplex' 0;
          if dot (sp_v p) d - dot (sp_v s0) d <? tol then Ok (Distance (mag d))
          else dist_loop tol n (simplex' ++ [p])
    end.
  (** gjk/mod.rs 262-315 [distance]. *)
  Definition dist_run (tol : S) (n : nat) (lpos rpos : V) : res (dist_out S) :=
    let d := first_dir lpos rpos in
    a ← mink d; b ← mink (vneg d); dist_loop tol n [a; b].
  Definition gjk_distance (tol : S) (n : nat) (lpos rpos : V) : res (option S) :=
    o ← dist_run tol n lpos rpos; Ok (dist_forget o).

  (** mod.rs 63-75 [SupportPoint - P]. *)
  Definition sup_sub (p : SupPt V) (o : V) : SupPt V := mkSup (vsub (sp_v p) o) (sp_a p) (sp_b p).
  (** gjk/mod.rs 198-240: the [while] loop of [intersection_time_of_impact], with fuel;
      the state is [lambda], [normal], [ray_origin], [simplex], [v].  [None]: no hit. *)
  Fixpoint toi_loop (fuel : nat) (tol : S) (ray : V) (lambda : S) (normal ro : V) (simplex : list (SupPt V)) (v : V)
      : res (option (S * V * V * V)) :=
    if dot v v >? tol then
      match fuel with
      | O => OutOfFuel
      | Datatypes.S fuel =>
          p ← mink (vneg v);
          let vp := dot v (sp_v p) in
          let vr := dot v ray in
          let continue lambda normal ro simplex :=
            '(simplex', v') ← closest (simplex ++ [sup_sub p ro]);
            toi_loop fuel tol ray lambda normal ro simplex' v' in
          if vp >? lambda * vr then
            if vr >? n0 then
              let lambda := vp / vr in
              if lambda >? n1 then Ok None
              else continue lambda (vneg v) (vscale ray lambda) []
            else Ok None
          else continue lambda normal ro simplex
      end
    else Ok (Some (lambda, normal, ro, v)).
  (** gjk/mod.rs 163-258 [intersection_time_of_impact]: [lvel], [rvel] are the
      displacements of the transformed origins, [interp lambda] the [transform_point] of
      the interpolated right transform. *)
  Definition gjk_toi (fuel : nat) (tol : S) (lvel rvel : V) (interp : S -> V -> V) : res (option (Contact S V)) :=
    let ray := vsub rvel lvel in
    p ← mink (vneg ray);
    o ← toi_loop fuel tol ray n0 vzero vzero [] (sp_v p);
    match o with
    | None => Ok None
    | Some (lambda, normal, ro, v) =>
        if dot v v <=? tol then
          Ok (Some (mkContact FullResolution (vneg (normalize normal)) (mag v) (interp lambda ro) lambda))
        else Ok None
    end.

  (** gjk/mod.rs 361-389 [intersection]; [epa] is [get_contact_manifold] (319-341). *)
  Definition contact_new (st : strategy) : Contact S V := mkContact st vzero n0 vzero n0.
  Definition gjk_intersection (epa : list (SupPt V) -> res (option (Contact S V))) (st : strategy) (n : nat)
      (lpos rpos : V) : res (option (Contact S V)) :=
    o ← gjk_intersect n lpos rpos;
    match o with
    | None => Ok None
    | Some simplex =>
        match st with CollisionOnly => Ok (Some (contact_new CollisionOnly)) | FullResolution => epa simplex end
    end.
End gjk.

(** ** Shapes made of several primitives *)
Section complex.
  Context {S V : Type} `{Num S} {L R : Type}.
  Local Open Scope num_scope.
  (** [Iterator::max_by], [min_by] on contacts with a key: the last maximum and the first
      minimum; [unwrap] panics on incomparable keys, [unwrap_or(Equal)] does not. *)
  Fixpoint max_by_depth (best : Contact S V) (cs : list (Contact S V)) : res (Contact S V) :=
    match cs with
    | [] => Ok best
    | c :: cs =>
        match pcmp (c_depth best) (c_depth c) with
        | None => Panic
        | Some Gt => max_by_depth best cs
        | Some _ => max_by_depth c cs
        end
    end.
  Fixpoint min_by_toi (best : Contact S V) (cs : list (Contact S V)) : Contact S V :=
    match cs with
    | [] => best
    | c :: cs => min_by_toi (match pcmp (c_toi best) (c_toi c) with Some Gt => c | _ => best end) cs
    end.
  (** The pairs in the order of the nested loops. *)
  Definition pairs (ls : list L) (rs : list R) : list (L * R) := l ← ls; r ← rs; [(l, r)].
  (** gjk/mod.rs 427-458: the loops of [intersection_complex]; [inter l r] is
      [self.intersection(strategy, l.0, left_transform.concat(l.1), r.0, ..)]. *)
  Fixpoint complex_loop (inter : L * R -> res (option (Contact S V))) (st : strategy) (ps : list (L * R))
      (acc : list (Contact S V)) : res (option (Contact S V) * list (Contact S V)) :=
    match ps with
    | [] => Ok (None, acc)
    | p :: ps =>
        o ← inter p;
        match o with
        | None => complex_loop inter st ps acc
        | Some c =>
            match st with
            | CollisionOnly => Ok (Some c, acc)
            | FullResolution => complex_loop inter st ps (acc ++ [c])
            end
        end
    end.
  (** gjk/mod.rs 408-466 [intersection_complex]. *)
  Definition intersection_complex (inter : L * R -> res (option (Contact S V))) (st : strategy) (ls : list L) (rs : list R)
      : res (option (Contact S V)) :=
    '(found, contacts) ← complex_loop inter st (pairs ls rs) [];
    match found with
    | Some c => Ok (Some c)
    | None => match contacts with [] => Ok None | c :: cs => m ← max_by_depth c cs; Ok (Some m) end
    end.
  (** gjk/mod.rs 481-523 [distance_complex]. *)
  Fixpoint dist_complex_loop (dist : L * R -> res (option S)) (ps : list (L * R)) (best : option S) : res (option S) :=
    match ps with
    | [] => Ok best
    | p :: ps =>
        o ← dist p;
        match o with
        | None => Ok None
        | Some d => dist_complex_loop dist ps (Some match best with None => d | Some m => fmin d m end)
        end
    end.
  Definition distance_complex (dist : L * R -> res (option S)) (ls : list L) (rs : list R) : res (option S) :=
    dist_complex_loop dist (pairs ls rs) None.
  (** gjk/mod.rs 545-588 [intersection_complex_time_of_impact]. *)
  Definition set_only (c : Contact S V) : Contact S V :=
    mkContact CollisionOnly (c_normal c) (c_depth c) (c_point c) (c_toi c).
  Definition complex_toi (toi : L * R -> res (option (Contact S V))) (st : strategy) (ls : list L) (rs : list R)
      : res (option (Contact S V)) :=
    '(found, contacts) ← complex_loop toi st (pairs ls rs) [];
    match found with
    | Some c => Ok (Some (set_only c))
    | None => match contacts with [] => Ok None | c :: cs => Ok (Some (min_by_toi c cs)) end
    end.
End complex.

(** ** Simplices, EPA *)
Section simplex.
  Context {S : Type} `{Num S} `{NumSgn S}.
  Local Open Scope num_scope.
  Context (eps : S).
  Definition near0_2 (v : V2 S) : bool := near0 eps (ux v) && near0 eps (uy v).
  (** util.rs 42-49 [triple_product]. *)
  Definition triple (a b c : V2 S) : V2 S :=
    let ac := ux a * ux c + uy a * uy c in
    let bc := ux b * ux c + uy b * uy c in
    mk2 (ux b * ac - ux a * bc) (uy b * ac - uy a * bc).
  (** util.rs 98-114 [get_closest_point_on_edge]. *)
  Definition closest_on_edge2 (start end_ point : V2 S) : V2 S :=
    let line := sub2 end_ start in
    let dir := normalize2 line in
    let d := dot2 (sub2 point start) dir in
    if d <? n0 then start
    else if d * d >? mag2_2 line then end_
    else add2 start (scale2 dir d).
  Definition closest_on_edge3 (start end_ point : V3 S) : V3 S :=
    let line := sub3 end_ start in
    let dir := normalize3 line in
    let d := dot3 (sub3 point start) dir in
    if d <? n0 then start
    else if d * d >? mag2_3 line then end_
    else add3 start (scale3 dir d).
  (** util.rs 53-72 [barycentric_vector] (75-96 [barycentric_point] is the same). *)
  Definition bary3 (p a b c : V3 S) : S * S * S :=
    let v0 := sub3 b a in let v1 := sub3 c a in let v2 := sub3 p a in
    let d00 := dot3 v0 v0 in let d01 := dot3 v0 v1 in let d11 := dot3 v1 v1 in
    let d20 := dot3 v2 v0 in let d21 := dot3 v2 v1 in
    let inv := n1 / (d00 * d11 - d01 * d01) in
    let v := (d11 * d20 - d01 * d21) * inv in
    let w := (d00 * d21 - d01 * d20) * inv in
    (n1 - v - w, v, w).

  (** simplex2d.rs 24-67 [reduce_to_closest_feature]; the newest point is the last. *)
  Definition reduce2 (simplex : list (SupPt (V2 S))) (d : V2 S) : list (SupPt (V2 S)) * V2 S * bool :=
    match simplex with
    | [sc; sb; sa] =>
        let a := sp_v sa in let b := sp_v sb in let c := sp_v sc in
        let ao := neg2 a in let ab := sub2 b a in let ac := sub2 c a in
        let abp := triple ac ab ab in
        if dot2 abp ao >? n0 then ([sb; sa], abp, false)
        else let acp := triple ab ac ac in
          if dot2 acp ao >? n0 then ([sc; sa], acp, false) else (simplex, d, true)
    | [sb; sa] =>
        let a := sp_v sa in let b := sp_v sb in
        let ao := neg2 a in let ab := sub2 b a in
        let d := triple ab ao ab in
        (simplex, if near0_2 d then mk2 (- uy ab) (ux ab) else d, false)
    | _ => (simplex, d, false)
    end.
  (** simplex2d.rs 72-90 [get_closest_point_to_origin]. *)
  Definition closest2 (simplex : list (SupPt (V2 S))) : res (list (SupPt (V2 S)) * V2 S) :=
    let '(s, d, inside) := reduce2 simplex zero2 in
    if inside then Ok (s, d)
    else match s with
    | [p] => Ok (s, sp_v p)
    | p0 :: p1 :: _ => Ok (s, closest_on_edge2 (sp_v p1) (sp_v p0) zero2)
    | [] => Panic
    end.

  (** simplex3d.rs 172-177 [cross_aba]. *)
  Definition cross_aba (a b : V3 S) : V3 S := cross3 (cross3 a b) a.
  (** simplex3d.rs 180-220 [check_side] on the simplex [c; b; a]. *)
  Definition check_side (abc ab ac ao : V3 S) (sc sb sa : SupPt (V3 S)) (above ignore_ab : bool)
      : list (SupPt (V3 S)) * V3 S :=
    let ab_perp := cross3 ab abc in
    if negb ignore_ab && (dot3 ab_perp ao >? n0) then ([sb; sa], cross_aba ab ao)
    else
      let ac_perp := cross3 abc ac in
      if dot3 ac_perp ao >? n0 then ([sc; sa], cross_aba ac ao)
      else if above || (dot3 abc ao >? n0) then ([sc; sb; sa], abc)
      else ([sb; sc; sa], neg3 abc).
  (** simplex3d.rs 24-98 [reduce_to_closest_feature]; [tenth] is [cast(0.1)]. *)
  Context (tenth : S).
  Definition reduce3 (simplex : list (SupPt (V3 S))) (d : V3 S) : list (SupPt (V3 S)) * V3 S * bool :=
    match simplex with
    | [sd; sc; sb; sa] =>
        let a := sp_v sa in let b := sp_v sb in let c := sp_v sc in let d_ := sp_v sd in
        let ao := neg3 a in let ab := sub3 b a in let ac := sub3 c a in
        let abc := cross3 ab ac in
        if dot3 abc ao >? n0 then (check_side abc ab ac ao sc sb sa true false, false)
        else
          let ad := sub3 d_ a in
          let acd := cross3 ac ad in
          if dot3 acd ao >? n0 then (check_side acd ac ad ao sd sc sa true true, false)
          else
            let adb := cross3 ad ab in
            if dot3 adb ao >? n0 then ([sb; sd; sa], adb, false) else (simplex, d, true)
    | [sc; sb; sa] =>
        let a := sp_v sa in let b := sp_v sb in let c := sp_v sc in
        let ao := neg3 a in let ab := sub3 b a in let ac := sub3 c a in
        (check_side (cross3 ab ac) ab ac ao sc sb sa false false, false)
    | [sb; sa] =>
        let a := sp_v sa in let b := sp_v sb in
        let ao := neg3 a in let ab := sub3 b a in
        let v := cross_aba ab ao in
        (simplex, if near0_3 eps v then mk3 tenth (vy v) (vz v) else v, false)
    | _ => (simplex, d, false)
    end.
  (** simplex3d.rs 164-169 [in_range]. *)
  Definition in_range (v : S) : bool := (v >=? n0) && (v <=? n1).
  (** simplex3d.rs 131-161 [get_closest_point_on_face]. *)
  Definition closest_on_face (a b c normal : V3 S) : res (V3 S) :=
    match plane_from_points eps a b c with
    | None => Panic
    | Some plane =>
        match plane_ray plane (mkRay zero3 (neg3 normal)) with
        | Some point =>
            let '(u, v, w) := bary3 point a b c in
            if in_range u && in_range v && in_range w then Ok point else Panic
        | None => Ok zero3
        end
    end.
  (** simplex3d.rs 103-121 [get_closest_point_to_origin]. *)
  Definition closest3 (simplex : list (SupPt (V3 S))) : res (list (SupPt (V3 S)) * V3 S) :=
    let '(s, d, inside) := reduce3 simplex zero3 in
    if inside then Ok (s, d)
    else match s with
    | [p] => Ok (s, sp_v p)
    | [p0; p1] => Ok (s, closest_on_edge3 (sp_v p1) (sp_v p0) zero3)
    | p0 :: p1 :: p2 :: _ => c ← closest_on_face (sp_v p2) (sp_v p1) (sp_v p0) d; Ok (s, c)
    | [] => Panic
    end.

  (** ** EPA in the plane *)
  (** epa2d.rs 110-127 [Edge]. *)
  Record Edge2 := mkEdge { e_normal : V2 S; e_dist : S; e_index : nat }.
  (** epa2d.rs 140-152: one step of the loop of [closest_edge]; [None] stands for the
      initial edge at distance [infinity()]. *)
  Definition edge_at (simplex : list (SupPt (V2 S))) (i : nat) : option Edge2 :=
    let j := if decide (i + 1 = length simplex)%nat then 0%nat else (i + 1)%nat in
    match simplex !! i, simplex !! j with
    | Some sa, Some sb =>
        let a := sp_v sa in let b := sp_v sb in
        let e := sub2 b a in
        let n := normalize2 (triple e a e) in
        Some (mkEdge n (dot2 n a) j)
    | _, _ => None
    end.
  Definition edge_step (simplex : list (SupPt (V2 S))) (best : option Edge2) (i : nat) : option Edge2 :=
    match edge_at simplex i with
    | None => best
    | Some e =>
        if match best with None => nbelow (e_dist e) | Some b => e_dist e <? e_dist b end then Some e else best
    end.
  (** epa2d.rs 132-156 [closest_edge]; the assertion that an edge was found panics. *)
  Definition closest_edge (simplex : list (SupPt (V2 S))) : res (option Edge2) :=
    if (length simplex <? 3)%nat then Ok None
    else match foldl (edge_step simplex) None (seq 0 (length simplex)) with
    | None => Panic
    | Some e => Ok (Some e)
    end.
  (** epa2d.rs 88-108 [point]. *)
  Definition epa_point2 (simplex : list (SupPt (V2 S))) (e : Edge2) : res (V2 S) :=
    b ← get simplex (e_index e);
    a ← get simplex (if decide (e_index e = 0)%nat then (length simplex - 1)%nat else (e_index e - 1)%nat);
    let ab := sub2 (sp_v b) (sp_v a) in
    let t := dot2 (neg2 (sp_v a)) ab / mag2_2 ab in
    Ok (if t <? n0 then sp_a a
        else if t >? n1 then sp_a b
        else add2 (sp_a a) (scale2 (sub2 (sp_a b) (sp_a a)) t)).
  (** [Vec::insert]. *)
  Definition vec_insert {A} (i : nat) (x : A) (l : list A) : list A := take i l ++ x :: drop i l.
  (** epa2d.rs 45-61: the loop of [process]; [mink] computes Minkowski supports.  The
      boolean says that the tolerance was met (ghost). *)
  Fixpoint epa2_loop (mink : V2 S -> res (SupPt (V2 S))) (tol : S) (n : nat) (simplex : list (SupPt (V2 S))) (e : Edge2)
      : res (list (SupPt (V2 S)) * Edge2 * bool) :=
    match n with
    | O => Ok (simplex, e, false)
    | Datatypes.S n =>
        p ← mink (e_normal e);
        if dot2 (sp_v p) (e_normal e) - e_dist e <? tol then Ok (simplex, e, true)
        else
          let simplex := vec_insert (e_index e) p simplex in
          o ← closest_edge simplex;
          match o with None => Panic | Some e => epa2_loop mink tol n simplex e end
    end.
  (** epa2d.rs 27-69 [process]. *)
  Definition epa2_run (mink : V2 S -> res (SupPt (V2 S))) (tol : S) (n : nat) (simplex : list (SupPt (V2 S)))
      : res (option (Contact S (V2 S) * bool)) :=
    o ← closest_edge simplex;
    match o with
    | None => Ok None
    | Some e =>
        '(simplex, e, done) ← epa2_loop mink tol n simplex e;
        p ← epa_point2 simplex e;
        Ok (Some (mkContact FullResolution (e_normal e) (e_dist e) p n0, done))
    end.
  Definition epa2_process (mink : V2 S -> res (SupPt (V2 S))) (tol : S) (n : nat) (simplex : list (SupPt (V2 S))) : res (option (Contact S (V2 S))) :=
    o ← epa2_run mink tol n simplex; Ok (option_map fst o).

  (** ** EPA in space *)
  (** epa3d.rs 172-177 [Face]. *)
  Record Face3 := mkFace { f_vs : nat * nat * nat; f_normal : V3 S; f_dist : S }.
  (** epa3d.rs 183-193 [Face::new_impl]. *)
  Definition face_new (vs : list (SupPt (V3 S))) (a b c : nat) : res Face3 :=
    sa ← get vs a; sb ← get vs b; sc ← get vs c;
    let n := normalize3 (cross3 (sub3 (sp_v sb) (sp_v sa)) (sub3 (sp_v sc) (sp_v sa))) in
    Ok (mkFace (a, b, c) n (dot3 n (sp_v sa))).
  (** epa3d.rs 195-202 [Face::new]. *)
  Definition faces_new (vs : list (SupPt (V3 S))) : res (list Face3) :=
    f1 ← face_new vs 3 2 1; f2 ← face_new vs 3 1 0; f3 ← face_new vs 3 0 2; f4 ← face_new vs 2 0 1;
    Ok [f1; f2; f3; f4].
  (** epa3d.rs 128-136 [closest_face_to_origin]. *)
  Definition closest_face (fs : list Face3) : res Face3 :=
    match fs with
    | [] => Panic
    | f :: fs => Ok (foldl (fun best f => if f_dist f <? f_dist best then f else best) f fs)
    end.
  (** epa3d.rs 205-213 [remove_or_add_edge]: the first opposite edge is removed. *)
  Fixpoint remove_opposite (edges : list (nat * nat)) (e : nat * nat) : option (list (nat * nat)) :=
    match edges with
    | [] => None
    | x :: xs =>
        if bool_decide (e.1 = x.2 /\ e.2 = x.1) then Some xs
        else match remove_opposite xs e with None => None | Some xs' => Some (x :: xs') end
    end.
  Definition remove_or_add (edges : list (nat * nat)) (e : nat * nat) : list (nat * nat) :=
    match remove_opposite edges e with Some es => es | None => edges ++ [e] end.
  (** [Vec::swap_remove]: the last element takes the removed one's place. *)
  Definition swap_remove {A} (i : nat) (l : list A) : list A :=
    match last l with
    | None => l
    | Some x => if decide (i = (length l - 1)%nat) then take i l else take i l ++ x :: take (length l - 1 - (i + 1)) (drop (i + 1) l)
    end.
  (** epa3d.rs 142-154: the loop of [add] removing the faces that see the point. *)
  Fixpoint remove_visible (fuel : nat) (vs : list (SupPt (V3 S))) (p : V3 S) (i : nat) (fs : list Face3)
      (edges : list (nat * nat)) : res (list Face3 * list (nat * nat)) :=
    match fs !! i with
    | None => Ok (fs, edges)
    | Some f =>
        match fuel with
        | O => OutOfFuel
        | Datatypes.S fuel =>
            let '(a, b, c) := f_vs f in
            s ← get vs a;
            if dot3 (f_normal f) (sub3 p (sp_v s)) >? n0 then
              let edges := remove_or_add edges (a, b) in
              let edges := remove_or_add edges (b, c) in
              let edges := remove_or_add edges (c, a) in
              remove_visible fuel vs p i (swap_remove i fs) edges
            else remove_visible fuel vs p (i + 1) fs edges
        end
    end.
  Fixpoint mapM_res {A B} (f : A -> res B) (l : list A) : res (list B) :=
    match l with [] => Ok [] | x :: xs => y ← f x; ys ← mapM_res f xs; Ok (y :: ys) end.
  (** epa3d.rs 138-167 [Polytope::add]. *)
  Definition poly_add (vs : list (SupPt (V3 S))) (fs : list Face3) (sup : SupPt (V3 S))
      : res (list (SupPt (V3 S)) * list Face3) :=
    '(fs', edges) ← remove_visible (length fs) vs (sp_v sup) 0 fs [];
    let n := length vs in
    let vs' := vs ++ [sup] in
    new ← mapM_res (fun e => face_new vs' n e.1 e.2) edges;
    Ok (vs', fs' ++ new).
  (** epa3d.rs 97-110 [point]. *)
  Definition epa_point3 (vs : list (SupPt (V3 S))) (f : Face3) : res (V3 S) :=
    let '(a, b, c) := f_vs f in
    sa ← get vs a; sb ← get vs b; sc ← get vs c;
    let '(u, v, w) := bary3 (scale3 (f_normal f) (f_dist f)) (sp_v sa) (sp_v sb) (sp_v sc) in
    Ok (add3 (add3 (scale3 (sp_a sa) u) (scale3 (sp_a sb) v)) (scale3 (sp_a sc) w)).
  (** epa3d.rs 46-65: the loop of [process]; [left_] is [max_iterations - i].  The boolean
      says that the tolerance was met (ghost). *)
  Fixpoint epa3_loop (mink : V3 S -> res (SupPt (V3 S))) (tol : S) (left_ : nat) (vs : list (SupPt (V3 S))) (fs : list Face3)
      : res (Contact S (V3 S) * bool) :=
    f ← closest_face fs;
    p ← mink (f_normal f);
    let d := dot3 (sp_v p) (f_normal f) in
    if d - f_dist f <? tol then
      c ← epa_point3 vs f; Ok (mkContact FullResolution (f_normal f) (f_dist f) c n0, true)
    else match left_ with
    | O => c ← epa_point3 vs f; Ok (mkContact FullResolution (f_normal f) (f_dist f) c n0, false)
    | Datatypes.S left_ => '(vs', fs') ← poly_add vs fs p; epa3_loop mink tol left_ vs' fs'
    end.
  (** epa3d.rs 27-66 [process]. *)
  Definition epa3_run (mink : V3 S -> res (SupPt (V3 S))) (tol : S) (n : nat) (simplex : list (SupPt (V3 S)))
      : res (option (Contact S (V3 S) * bool)) :=
    if (length simplex <? 4)%nat then Ok None
    else fs ← faces_new simplex; r ← epa3_loop mink tol (n - 1) simplex fs; Ok (Some r).
  Definition epa3_process (mink : V3 S -> res (SupPt (V3 S))) (tol : S) (n : nat) (simplex : list (SupPt (V3 S))) : res (option (Contact S (V3 S))) :=
    o ← epa3_run mink tol n simplex; Ok (option_map fst o).
End simplex.

(** ** The algorithms of the crate: [GJK2] and [GJK3] (gjk/mod.rs 27-31). *)
Section inst.
  Context {S : Type} `{Num S} `{NumSgn S}.
  Context (eps tenth : S).
  Definition mink2 (supL supR : V2 S -> res (V2 S)) := mink sub2 neg2 supL supR.
  Definition mink3 (supL supR : V3 S -> res (V3 S)) := mink sub3 neg3 supL supR.
  Definition gjk2_run (supL supR : V2 S -> res (V2 S)) (n : nat) (lpos rpos : V2 S) :=
    gjk_run (mk2 n1 n1) sub2 neg2 dot2 (near0_2 eps) supL supR (reduce2 eps) n lpos rpos.
  Definition gjk3_run (supL supR : V3 S -> res (V3 S)) (n : nat) (lpos rpos : V3 S) :=
    gjk_run (splat3 n1) sub3 neg3 dot3 (near0_3 eps) supL supR (reduce3 eps tenth) n lpos rpos.
  Definition gjk2_intersect supL supR n lpos rpos : res (option (list (SupPt (V2 S)))) :=
    o ← gjk2_run supL supR n lpos rpos; Ok (gjk_forget o).
  Definition gjk3_intersect supL supR n lpos rpos : res (option (list (SupPt (V3 S)))) :=
    o ← gjk3_run supL supR n lpos rpos; Ok (gjk_forget o).
  Definition dist2_run (supL supR : V2 S -> res (V2 S)) (tol : S) (n : nat) (lpos rpos : V2 S) :=
    dist_run (mk2 n1 n1) sub2 neg2 dot2 mag2 (near0_2 eps) supL supR (closest2 eps) tol n lpos rpos.
  Definition dist3_run (supL supR : V3 S -> res (V3 S)) (tol : S) (n : nat) (lpos rpos : V3 S) :=
    dist_run (splat3 n1) sub3 neg3 dot3 mag3 (near0_3 eps) supL supR (closest3 eps tenth) tol n lpos rpos.
  Definition gjk2_toi supL supR fuel tol lvel rvel interp : res (option (Contact S (V2 S))) :=
    gjk_toi zero2 sub2 neg2 scale2 dot2 mag2 normalize2 supL supR (closest2 eps) fuel tol lvel rvel interp.
  Definition gjk3_toi supL supR fuel tol lvel rvel interp : res (option (Contact S (V3 S))) :=
    gjk_toi zero3 sub3 neg3 scale3 dot3 mag3 normalize3 supL supR (closest3 eps tenth) fuel tol lvel rvel interp.
  (** gjk/mod.rs 361-389 with the EPA of the dimension. *)
  Definition gjk2_intersection supL supR (etol : S) (st : strategy) (n : nat) lpos rpos : res (option (Contact S (V2 S))) :=
    o ← gjk2_intersect supL supR n lpos rpos;
    match o with
    | None => Ok None
    | Some simplex => match st with
        | CollisionOnly => Ok (Some (contact_new zero2 CollisionOnly))
        | FullResolution => epa2_process (mink2 supL supR) etol n simplex end
    end.
  Definition gjk3_intersection supL supR (etol : S) (st : strategy) (n : nat) lpos rpos : res (option (Contact S (V3 S))) :=
    o ← gjk3_intersect supL supR n lpos rpos;
    match o with
    | None => Ok None
    | Some simplex => match st with
        | CollisionOnly => Ok (Some (contact_new zero3 CollisionOnly))
        | FullResolution => epa3_process (mink3 supL supR) etol n simplex end
    end.
End inst.
