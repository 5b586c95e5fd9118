(** Model of /repo/src/volume/sphere.rs, /repo/src/plane.rs, /repo/src/bound.rs,
    /repo/src/frustum.rs, /repo/src/line.rs, /repo/src/ray.rs and the parts of
    /repo/src/volume/aabb/aabb3.rs that involve spheres and planes. *)
From stdpp Require Import prelude.
From Verif Require Import Res Num Vec AabbModel DbvtVisitors.

Section geo.
  Context {S : Type} `{Num S}.
  Local Open Scope num_scope.
  (** [Vector3::from_value], [Vector2::from_value] (cgmath). *)
  Definition splat3 (s : S) : V3 S := mk3 s s s.

  (** * Planes *)
  (** plane.rs 32-37 [Plane]. *)
  Record Plane := mkPlane { pl_n : V3 S; pl_d : S }.
  (** cgmath [Vector4]. *)
  Record V4 := mk4 { w_x : S; w_y : S; w_z : S; w_w : S }.
  (** plane.rs 53-58 [from_abcd], 61-66 [from_vector4], 70-75 [from_vector4_alt]. *)
  Definition plane_abcd (a b c d : S) : Plane := mkPlane (mk3 a b c) d.
  Definition plane_of_v4 (v : V4) : Plane := mkPlane (mk3 (w_x v) (w_y v) (w_z v)) (w_w v).
  Definition plane_of_v4_alt (v : V4) : Plane := mkPlane (mk3 (w_x v) (w_y v) (w_z v)) (- w_w v).
  (** [ulps_eq!(x, 0)] of the approx crate with its default tolerances: since a number
      outside [-eps, eps] is more than 4 units in the last place away from 0, this is
      [|x| <= eps], where [eps] is the machine epsilon.  On vectors: componentwise. *)
  Context (eps : S).
  Definition near0 (x : S) : bool := nabs x <=? eps.
  Definition near0_3 (v : V3 S) : bool := near0 (vx v) && near0 (vy v) && near0 (vz v).
  (** plane.rs 78-95 [from_points]. *)
  Definition plane_from_points (a b c : V3 S) : option Plane :=
    let n := cross3 (sub3 b a) (sub3 c a) in
    if near0_3 n then None
    else let n := normalize3 n in Some (mkPlane n (- dot3 a n)).
  (** plane.rs 99-101 [from_point_normal]. *)
  Definition plane_point_normal (p n : V3 S) : Plane := mkPlane n (dot3 p n).
  (** plane.rs 104-111 [normalize]. *)
  Definition plane_normalize (p : Plane) : option Plane :=
    if near0_3 (pl_n p) then None
    else let denom := n1 / mag3 (pl_n p) in Some (mkPlane (scale3 (pl_n p) denom) (pl_d p * denom)).
  (** plane.rs 176-188 [intersection] (ray), 190-196 [intersects]. *)
  Definition plane_ray_t (p : Plane) (r : Ray (V3 S)) : S :=
    - (pl_d p + dot3 (origin r) (pl_n p)) / dot3 (direction r) (pl_n p).
  Definition plane_ray (p : Plane) (r : Ray (V3 S)) : option (V3 S) :=
    let t := plane_ray_t p r in
    if t <? n0 then None else Some (add3 (origin r) (scale3 (direction r) t)).
  Definition plane_ray_test (p : Plane) (r : Ray (V3 S)) : bool := plane_ray_t p r >=? n0.
  (** plane.rs 199-212 [intersection] (plane), 214-221 [intersects]. *)
  Definition plane_plane (p1 p2 : Plane) : option (Ray (V3 S)) :=
    let d := cross3 (pl_n p1) (pl_n p2) in
    let denom := dot3 d d in
    if near0 denom then None
    else Some (mkRay (div3 (cross3 (sub3 (scale3 (pl_n p2) (pl_d p1)) (scale3 (pl_n p1) (pl_d p2))) d) denom) d).
  Definition plane_plane_test (p1 p2 : Plane) : bool :=
    let d := cross3 (pl_n p1) (pl_n p2) in negb (near0 (dot3 d d)).
  (** plane.rs 224-237 [intersection] (two planes), 239-246 [intersects]. *)
  Definition plane3 (p1 p2 p3 : Plane) : option (V3 S) :=
    let u := cross3 (pl_n p2) (pl_n p3) in
    let denom := dot3 (pl_n p1) u in
    if near0 (nabs denom) then None
    else Some (div3 (add3 (scale3 u (pl_d p1)) (cross3 (pl_n p1) (sub3 (scale3 (pl_n p2) (pl_d p3)) (scale3 (pl_n p3) (pl_d p2))))) denom).
  Definition plane3_test (p1 p2 p3 : Plane) : bool :=
    let u := cross3 (pl_n p2) (pl_n p3) in negb (near0 (nabs (dot3 (pl_n p1) u))).

  (** * Spatial relations; [relation3] (bound.rs 12-21) is ordered In < Cross < Out. *)
  Definition rel_max (a b : relation3) : relation3 :=
    match a, b with ROut, _ | _, ROut => ROut | RCross, _ | _, RCross => RCross | RIn, RIn => RIn end.
  (** bound.rs 53-62 [relate_plane] (point). *)
  Definition relate_pt (p : V3 S) (pl : Plane) : relation3 :=
    let dist := dot3 p (pl_n pl) in
    if dist >? pl_d pl then RIn else if dist <? pl_d pl then ROut else RCross.
  (** aabb3.rs 255-267 [relate_plane] (box). *)
  Definition relate_aabb3 (b : Aabb3 S) (pl : Plane) : relation3 :=
    let first := relate_pt (min3 b) pl in
    if forallb (fun c => bool_decide (relate_pt c pl = first)) (drop 1 (corners3 b)) then first else RCross.

  (** * Spheres *)
  (** sphere.rs 16-21 [Sphere]. *)
  Record Sphere := mkSphere { s_center : V3 S; s_radius : S }.
  (** sphere.rs 29-35 [min_extent], [max_extent]. *)
  Definition sphere_min (s : Sphere) : V3 S := add3 (s_center s) (splat3 (- s_radius s)).
  Definition sphere_max (s : Sphere) : V3 S := add3 (s_center s) (splat3 (s_radius s)).
  (** sphere.rs 37-43 [with_margin]. *)
  Definition sphere_margin (s : Sphere) (add : V3 S) : Sphere :=
    mkSphere (s_center s) (s_radius s + fmax (fmax (vx add) (vy add)) (vz add)).
  (** sphere.rs 45-53 [transform_volume]; [T] is [transform_point]. *)
  Definition sphere_transform (s : Sphere) (T : V3 S -> V3 S) : Sphere := mkSphere (T (s_center s)) (s_radius s).
  (** sphere.rs 63-80 [intersection] (ray), 82-93 [intersects]. *)
  Definition sphere_ray (s : Sphere) (r : Ray (V3 S)) : option (V3 S) :=
    let l := sub3 (s_center s) (origin r) in
    let tca := dot3 l (direction r) in
    if tca <? n0 then None
    else
      let d2 := dot3 l l - tca * tca in
      if d2 >? s_radius s * s_radius s then None
      else
        let thc := nsqrt (s_radius s * s_radius s - d2) in
        Some (add3 (origin r) (scale3 (direction r) (tca - thc))).
  Definition sphere_ray_test (s : Sphere) (r : Ray (V3 S)) : bool :=
    let l := sub3 (s_center s) (origin r) in
    let tca := dot3 l (direction r) in
    if tca <? n0 then false
    else dot3 l l - tca * tca <=? s_radius s * s_radius s.
  (** sphere.rs 95-104 [intersects] (sphere). *)
  Definition sphere_sphere (a b : Sphere) : bool :=
    let radiuses := s_radius a + s_radius b in
    dist2_3 (s_center a) (s_center b) <=? radiuses * radiuses.
  (** sphere.rs 106-117 [relate_plane]. *)
  Definition relate_sphere (s : Sphere) (pl : Plane) : relation3 :=
    let dist := dot3 (s_center s) (pl_n pl) - pl_d pl in
    if dist >? s_radius s then RIn else if dist <? - s_radius s then ROut else RCross.
  (** sphere.rs 119-131, 133-138, 140-145, 147-153 [contains] (box, point, segment, sphere). *)
  Definition sphere_contains_box (s : Sphere) (b : Aabb3 S) : bool :=
    forallb (fun c => negb (dist2_3 c (s_center s) >? s_radius s * s_radius s)) (corners3 b).
  Definition sphere_contains_pt (s : Sphere) (p : V3 S) : bool :=
    dist2_3 (s_center s) p <=? s_radius s * s_radius s.
  Definition sphere_contains_line (s : Sphere) (l : Line (V3 S)) : bool :=
    sphere_contains_pt s (l_origin l) && sphere_contains_pt s (l_dest l).
  Definition sphere_contains (s o : Sphere) : bool :=
    dist3 (s_center s) (s_center o) + s_radius o <=? s_radius s.
  (** sphere.rs 155-174 [union] (sphere). *)
  Definition sphere_union (a b : Sphere) : Sphere :=
    if sphere_contains a b then a
    else if sphere_contains b a then b
    else
      let diff := sub3 (s_center b) (s_center a) in
      let m := mag3 diff in
      let radius := (s_radius a + s_radius b + m) / (n1 + n1) in
      mkSphere (add3 (s_center a) (div3 (scale3 diff (radius - s_radius a)) m)) radius.
  (** aabb3.rs 136-148 [contains] (sphere). *)
  Definition aabb3_contains_sphere (b : Aabb3 S) (s : Sphere) : bool :=
    (vx (s_center s) - s_radius s >=? vx (min3 b)) && (vy (s_center s) - s_radius s >=? vy (min3 b))
    && (vz (s_center s) - s_radius s >=? vz (min3 b))
    && (vx (s_center s) + s_radius s <=? vx (max3 b)) && (vy (s_center s) + s_radius s <=? vy (max3 b))
    && (vz (s_center s) + s_radius s <=? vz (max3 b)).
  (** aabb3.rs 164-175 [union] (sphere). *)
  Definition aabb3_union_sphere (b : Aabb3 S) (s : Sphere) : Aabb3 S :=
    let c := s_center s in let r := s_radius s in
    grow3 (grow3 b (mk3 (vx c - r) (vy c - r) (vz c - r))) (add3 c (splat3 r)).
  (** sphere.rs 176-199 [union] (box). *)
  Definition sphere_union_box (s : Sphere) (b : Aabb3 S) : Sphere :=
    if sphere_contains_box s b then s
    else
      let br := dist3 (max3 b) (center3 b) in
      if aabb3_contains_sphere b s then mkSphere (center3 b) br
      else
        let diff := sub3 (center3 b) (s_center s) in
        let m := dist3 (center3 b) (s_center s) in
        let radius := (s_radius s + br + m) / (n1 + n1) in
        mkSphere (add3 (s_center s) (div3 (scale3 diff (radius - s_radius s)) m)) radius.
  (** sphere.rs 201-212 [surface_area]; [pi] is [S::from(PI)]. *)
  Definition sphere_area (pi : S) (s : Sphere) : S :=
    let two := n1 + n1 in (two + two) * pi * s_radius s * s_radius s.

  (** * Frusta *)
  (** frustum.rs 17-30 [Frustum]. *)
  Record Frustum := mkFrustum { f_left : Plane; f_right : Plane; f_bottom : Plane; f_top : Plane; f_near : Plane; f_far : Plane }.
  (** frustum.rs 83-101 [contains]; [rel] is the bound's [relate_plane]. *)
  Definition frustum_contains (f : Frustum) (rel : Plane -> relation3) : relation3 :=
    foldl (fun cur p => rel_max cur (rel p)) RIn [f_left f; f_right f; f_top f; f_bottom f; f_near f; f_far f].
  (** cgmath [Matrix4], by rows; [row i], and the product with [(p, 1)]. *)
  Record M4 := mkM4 { row0 : V4; row1 : V4; row2 : V4; row3 : V4 }.
  Definition add4 (a b : V4) : V4 := mk4 (w_x a + w_x b) (w_y a + w_y b) (w_z a + w_z b) (w_w a + w_w b).
  Definition sub4 (a b : V4) : V4 := mk4 (w_x a - w_x b) (w_y a - w_y b) (w_z a - w_z b) (w_w a - w_w b).
  (** The product of a row with the homogeneous point [(p, 1)]; cgmath sums
      columns: ((c0 * x + c1 * y) + c2 * z) + c3 * 1. *)
  Definition row_pt (r : V4) (p : V3 S) : S := w_x r * vx p + w_y r * vy p + w_z r * vz p + w_w r * n1.
  (** frustum.rs 53-80 [from_matrix4]. *)
  Definition frustum_of_matrix (m : M4) : option Frustum :=
    match plane_normalize (plane_of_v4_alt (add4 (row3 m) (row0 m))) with None => None | Some l =>
    match plane_normalize (plane_of_v4_alt (sub4 (row3 m) (row0 m))) with None => None | Some r =>
    match plane_normalize (plane_of_v4_alt (add4 (row3 m) (row1 m))) with None => None | Some b =>
    match plane_normalize (plane_of_v4_alt (sub4 (row3 m) (row1 m))) with None => None | Some t =>
    match plane_normalize (plane_of_v4_alt (add4 (row3 m) (row2 m))) with None => None | Some n =>
    match plane_normalize (plane_of_v4_alt (sub4 (row3 m) (row2 m))) with None => None | Some f =>
      Some (mkFrustum l r b t n f) end end end end end end.
  (** bound.rs 28-49 [relate_clip_space], the default method. *)
  Definition relate_clip_space (rel : Plane -> relation3) (m : M4) : relation3 :=
    match frustum_of_matrix m with
    | None => RCross
    | Some f => foldl (fun cur p => rel_max cur (rel p)) RIn [f_left f; f_right f; f_top f; f_bottom f; f_near f; f_far f]
    end.
  (** bound.rs 64-76 [relate_clip_space] (point). *)
  Definition relate_clip_space_pt (p : V3 S) (m : M4) : relation3 :=
    let w := row_pt (row3 m) p in
    match pcmp (nabs (row_pt (row0 m) p)) w, pcmp (nabs (row_pt (row1 m) p)) w, pcmp (nabs (row_pt (row2 m) p)) w with
    | Some Lt, Some Lt, Some Lt => RIn
    | Some Gt, _, _ | _, Some Gt, _ | _, _, Some Gt => ROut
    | _, _, _ => RCross
    end.
  (** cgmath [Ortho]; frustum.rs 150-161 [to_frustum]. *)
  Record Ortho := mkOrtho { o_left : S; o_right : S; o_bottom : S; o_top : S; o_near : S; o_far : S }.
  Definition ortho_frustum (o : Ortho) : Frustum :=
    mkFrustum (plane_abcd n1 n0 n0 (o_left o)) (plane_abcd (- n1) n0 n0 (o_right o))
              (plane_abcd n0 n1 n0 (o_bottom o)) (plane_abcd n0 (- n1) n0 (o_top o))
              (plane_abcd n0 n0 (- n1) (o_near o)) (plane_abcd n0 n0 n1 (o_far o)).
  (** cgmath [From<Ortho> for Matrix4], by rows. *)
  Definition ortho_matrix (o : Ortho) : M4 :=
    let two := n1 + n1 in
    mkM4 (mk4 (two / (o_right o - o_left o)) n0 n0 (- (o_right o + o_left o) / (o_right o - o_left o)))
         (mk4 n0 (two / (o_top o - o_bottom o)) n0 (- (o_top o + o_bottom o) / (o_top o - o_bottom o)))
         (mk4 n0 n0 (- two / (o_far o - o_near o)) (- (o_far o + o_near o) / (o_far o - o_near o)))
         (mk4 n0 n0 n0 n1).

  (** cgmath [Perspective], its matrix (asserts left <= right, bottom <= top, near <= far);
      frustum.rs 143-148 [to_frustum]: [from_matrix4 .. unwrap]. *)
  Record Persp := mkPersp { q_left : S; q_right : S; q_bottom : S; q_top : S; q_near : S; q_far : S }.
  Definition persp_matrix (q : Persp) : M4 :=
    let two := n1 + n1 in
    mkM4 (mk4 (two * q_near q / (q_right q - q_left q)) n0 ((q_right q + q_left q) / (q_right q - q_left q)) n0)
         (mk4 n0 (two * q_near q / (q_top q - q_bottom q)) ((q_top q + q_bottom q) / (q_top q - q_bottom q)) n0)
         (mk4 n0 n0 (- (q_far q + q_near q) / (q_far q - q_near q)) (- (two * q_far q * q_near q) / (q_far q - q_near q)))
         (mk4 n0 n0 (- n1) n0).
  Definition persp_to_frustum (q : Persp) : res Frustum :=
    if (q_left q <=? q_right q) && (q_bottom q <=? q_top q) && (q_near q <=? q_far q) then
      match frustum_of_matrix (persp_matrix q) with Some f => Ok f | None => Panic end
    else Panic.
  (** cgmath [PerspectiveFov], its matrix with [cot = cot (fovy / 2)] (asserts on fovy,
      aspect, near, far are the hypotheses 0 < aspect, 0 < near, 0 < far, 0 < cot of the
      theorems); frustum.rs 136-141 [to_frustum]. *)
  Definition fov_matrix (cot aspect near far : S) : M4 :=
    let two := n1 + n1 in
    mkM4 (mk4 (cot / aspect) n0 n0 n0) (mk4 n0 cot n0 n0)
         (mk4 n0 n0 ((far + near) / (near - far)) ((two * far * near) / (near - far))) (mk4 n0 n0 (- n1) n0).
  Definition fov_to_frustum (cot aspect near far : S) : res Frustum :=
    match frustum_of_matrix (fov_matrix cot aspect near far) with Some f => Ok f | None => Panic end.

  (** * Rays and segments in the plane *)
  (** line.rs 74-121 [Ray2::intersection] (segment); 57-72 forward to it. *)
  Definition ray_line2 (ray : Ray (V2 S)) (line : Line (V2 S)) : option (V2 S) :=
    let p := origin ray in
    let q := l_origin line in
    let r := direction ray in
    let s := mk2 (ux (l_dest line) - ux (l_origin line)) (uy (l_dest line) - uy (l_origin line)) in
    let cross_1 := perp_dot r s in
    let qmp := mk2 (ux q - ux p) (uy q - uy p) in
    let cross_2 := perp_dot qmp r in
    if cross_1 ==? n0 then
      if negb (cross_2 ==? n0) then None
      else
        let q2mp := mk2 (ux (l_dest line) - ux p) (uy (l_dest line) - uy p) in
        let dot_1 := dot2 qmp r in
        let dot_2 := dot2 q2mp r in
        if ((dot_1 <=? n0) && (dot_2 >=? n0)) || ((dot_1 >=? n0) && (dot_2 <=? n0)) then Some p
        else if (dot_1 >=? n0) && (dot_2 >=? n0) then
          if dot_1 <=? dot_2 then Some q else Some (l_dest line)
        else None
    else
      let t := perp_dot qmp s / cross_1 in
      let u := cross_2 / cross_1 in
      if (n0 <=? t) && (u >=? n0) && (u <=? n1) then Some (mk2 (ux p + t * ux r) (uy p + t * uy r))
      else None.
  (** ray.rs 90-103 [intersects] (point and ray), 73-87 [intersection]; [releq] is
      [relative_eq] with the default tolerances. *)
  (** approx [relative_eq] for finite numbers. *)
  Definition rel_eq (eps mr a b : S) : bool :=
    if a ==? b then true
    else let diff := nabs (a - b) in
      if diff <=? eps then true
      else let la := nabs a in let lb := nabs b in
        diff <=? (if lb >? la then lb else la) * mr.
  Definition pt_ray2_test (releq : S -> S -> bool) (p : V2 S) (r : Ray (V2 S)) : bool :=
    let l := sub2 p (origin r) in
    let tca := dot2 l (direction r) in
    (tca >? n0) && releq (tca * tca) (mag2_2 l).
  Definition pt_ray3_test (releq : S -> S -> bool) (p : V3 S) (r : Ray (V3 S)) : bool :=
    let l := sub3 p (origin r) in
    let tca := dot3 l (direction r) in
    (tca >? n0) && releq (tca * tca) (mag2_3 l).
End geo.
Arguments Plane : clear implicits. Arguments Sphere : clear implicits. Arguments Frustum : clear implicits.
Arguments V4 : clear implicits. Arguments M4 : clear implicits. Arguments Ortho : clear implicits. Arguments Persp : clear implicits.
