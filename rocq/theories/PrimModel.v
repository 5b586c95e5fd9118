(** Model of /repo/src/primitive/: the primitive shapes, their support functions, their
    bounding volumes and their ray tests; and of the transforms of cgmath they use. *)
From stdpp Require Import prelude.
From Coq Require Import Reals.
From Verif Require Import Res Num Vec AabbModel GeoModel Xr.
From Flocq Require Import IEEE754.BinarySingleNaN.

(** Sign bits and comparisons with the infinities: [x.is_sign_negative()],
    [x > S::neg_infinity()], [x < S::infinity()]. *)
Class NumSgn (S : Type) := { nsignneg : S -> bool; nabove : S -> bool; nbelow : S -> bool }.
Global Instance NumSgn_R : NumSgn R :=
  { nsignneg := fun x => Rltb x 0; nabove := fun _ => true; nbelow := fun _ => true }.
Global Instance NumSgn_xr : NumSgn xr :=
  { nsignneg := xsign; nabove := fun x => nlt (XInf true) x; nbelow := fun x => nlt x (XInf false) }.
Definition NumSgn_float prec emax : NumSgn (binary_float prec emax) :=
  {| nsignneg := fun x => Bsign x;
     nabove := fun x => Bltb (B754_infinity true) x; nbelow := fun x => Bltb x (B754_infinity false) |}.

(** cgmath [Transform<P>]: [transform_point], [transform_vector],
    [inverse_transform_vector], and [inverse_transform] (given by the [transform_point]
    and [transform_vector] of its result; [None] when there is no inverse). *)
Record Xf (V : Type) := mkXf {
  xf_pt : V -> V; xf_vec : V -> V; xf_ivec : V -> option V; xf_inv : option ((V -> V) * (V -> V)) }.
Arguments mkXf {V}. Arguments xf_pt {V}. Arguments xf_vec {V}. Arguments xf_ivec {V}. Arguments xf_inv {V}.

Section prim.
  Context {S : Type} `{Num S} `{NumSgn S}.
  Local Open Scope num_scope.
  (** [S::one() + S::one()]. *)
  Definition two : S := n1 + n1.
  (** cgmath [InnerSpace::normalize_to]. *)
  Definition normalize_to2 (a : V2 S) (m : S) : V2 S := scale2 a (m / mag2 a).
  Definition normalize_to3 (a : V3 S) (m : S) : V3 S := scale3 a (m / mag3 a).
  (** [Float::signum] (1 for a positive sign bit, -1 for a negative one, NaN for NaN). *)
  Definition signum (x : S) : S := if negb (neq x x) then x else if nsignneg x then - n1 else n1.

  (** ** util.rs *)
  (** util.rs 11-30 [get_max_point]; the second component of the accumulator is the best
      dot product so far, [None] standing for the initial [neg_infinity()]. *)
  Definition max_step {V} (f : V -> S) (acc : V * option S) (v : V) : V * option S :=
    let d := f v in
    if match acc.2 with None => nabove d | Some m => d >? m end then (v, Some d) else acc.
  Definition max_point {V} (f : V -> S) (zero : V) (vs : list V) : V :=
    (foldl (max_step f) (zero, None) vs).1.
  Definition get_max_point {V} (dot : V -> V -> S) (zero : V) (vs : list V) (d : V) (T : Xf V) : res V :=
    match xf_ivec T d with
    | None => Panic
    | Some d' => Ok (xf_pt T (max_point (fun v => dot v d') zero vs))
    end.
  (** util.rs 32-38 [get_bound]. *)
  Definition get_bound2 (vs : list (V2 S)) : Aabb2 S := foldl grow2 aabb2_zero vs.
  Definition get_bound3 (vs : list (V3 S)) : Aabb3 S := foldl grow3 aabb3_zero vs.

  (** ** Support functions ([Primitive::support_point]) *)
  (** circle.rs 34-40, sphere.rs 32-38. *)
  Definition circle_support (r : S) (d : V2 S) (T : Xf (V2 S)) : res (V2 S) :=
    match xf_ivec T d with None => Panic | Some d' => Ok (xf_pt T (normalize_to2 d' r)) end.
  Definition sphere_support (r : S) (d : V3 S) (T : Xf (V3 S)) : res (V3 S) :=
    match xf_ivec T d with None => Panic | Some d' => Ok (xf_pt T (normalize_to3 d' r)) end.
  (** capsule.rs 51-60. *)
  Definition capsule_support (hh r : S) (d : V3 S) (T : Xf (V3 S)) : res (V3 S) :=
    match xf_ivec T d with
    | None => Panic
    | Some d' => Ok (xf_pt T (add3 (mk3 n0 (signum (vy d') * hh) n0) (normalize_to3 d' r)))
    end.
  (** cylinder.rs 51-77. *)
  Definition cylinder_support (hh r : S) (d : V3 S) (T : Xf (V3 S)) : res (V3 S) :=
    match xf_ivec T d with
    | None => Panic
    | Some d' =>
        let flat := mk3 (vx d') n0 (vz d') in
        let res_ :=
          if mag2_3 flat ==? n0 then zero3
          else let n := normalize3 flat in
               if (vx n ==? n0) && (vy n ==? n0) && (vz n ==? n0) then zero3 else scale3 n r in
        Ok (xf_pt T (mk3 (vx res_) (if nsignneg (vy d') then - hh else hh) (vz res_)))
    end.
  (** cuboid.rs 18-23, 35-41, 54-66 [Cuboid] (built by [new_impl] with [generate_corners]);
      74-79. [Cube] (144-181) is the cuboid with equal sides. *)
  Definition cuboid_half (dim : V3 S) : V3 S := div3 dim two.
  Definition cuboid_corners (h : V3 S) : list (V3 S) :=
    [mk3 (vx h) (vy h) (vz h); mk3 (- vx h) (vy h) (vz h); mk3 (- vx h) (- vy h) (vz h); mk3 (vx h) (- vy h) (vz h);
     mk3 (vx h) (vy h) (- vz h); mk3 (- vx h) (vy h) (- vz h); mk3 (- vx h) (- vy h) (- vz h); mk3 (vx h) (- vy h) (- vz h)].
  Definition cuboid_support (dim : V3 S) (d : V3 S) (T : Xf (V3 S)) : res (V3 S) :=
    get_max_point dot3 zero3 (cuboid_corners (cuboid_half dim)) d T.
  Definition cube_dim (s : S) : V3 S := mk3 s s s.
  (** quad.rs 36-42, 55-62, 71-76 [Quad]. *)
  Definition quad_half (dim : V2 S) : V2 S := div2 dim two.
  Definition quad_corners (h : V2 S) : list (V3 S) :=
    [mk3 (ux h) (uy h) n0; mk3 (- ux h) (uy h) n0; mk3 (- ux h) (- uy h) n0; mk3 (ux h) (- uy h) n0].
  Definition quad_support (dim : V2 S) (d : V3 S) (T : Xf (V3 S)) : res (V3 S) :=
    get_max_point dot3 zero3 (quad_corners (quad_half dim)) d T.
  (** rectangle.rs 36-42, 55-62, 71-76 [Rectangle]; [Square] (122-160) has equal sides. *)
  Definition rect_corners (h : V2 S) : list (V2 S) :=
    [mk2 (ux h) (uy h); mk2 (- ux h) (uy h); mk2 (- ux h) (- uy h); mk2 (ux h) (- uy h)].
  Definition rect_support (dim : V2 S) (d : V2 S) (T : Xf (V2 S)) : res (V2 S) :=
    get_max_point dot2 zero2 (rect_corners (quad_half dim)) d T.
  Definition square_dim (s : S) : V2 S := mk2 s s.
  (** line.rs 13-24 (the [Line2] primitive). *)
  Definition line_support (l : Line (V2 S)) (d : V2 S) (T : Xf (V2 S)) : res (V2 S) :=
    match xf_ivec T d with
    | None => Panic
    | Some d' =>
        Ok (xf_pt T (if dot2 d' (sub2 (l_dest l) (l_origin l)) >=? n0 then l_dest l else l_origin l))
    end.
  (** primitive2.rs 96, primitive3.rs 164: particles. *)
  Definition particle_support {V} (zero : V) (T : Xf V) : res V := Ok (xf_pt T zero).

  (** polygon.rs 185-198 [dot_index] (an [i32] index). *)
  Definition dot_index {V} (dot : V -> V -> S) (vs : list V) (i : Z) (d : V) : res S :=
    let n := Z.of_nat (length vs) in
    let j := if (i =? n)%Z then 0%Z else if (i =? -1)%Z then (n - 1)%Z else i in
    match vs !! Z.to_nat j with
    | Some v => if (j <? 0)%Z then Panic else Ok (dot v d)
    | None => Panic
    end.
  (** The wrap-around of the index: polygon.rs 154-159, 169-174. *)
  Definition wrap (n i : Z) : Z := if (i =? n)%Z then 0%Z else if (i =? -1)%Z then (n - 1)%Z else i.
  (** polygon.rs 160-175: the [while] loop, with a bound on the number of iterations. *)
  Fixpoint poly_climb {V} (fuel : nat) (dot : V -> V -> S) (vs : list V) (d : V) (start add index : Z)
      (prev cur : S) : res Z :=
    if (index =? start)%Z then Ok index
    else match fuel with
    | O => OutOfFuel
    | Datatypes.S f =>
        next ← dot_index dot vs (index + add) d;
        if (cur >? prev) && (cur >? next) then Ok index
        else poly_climb f dot vs d start add (wrap (Z.of_nat (length vs)) (index + add)) cur next
    end.
  (** polygon.rs 122-182 [support_point]. *)
  Definition poly_hill {V} (dot : V -> V -> S) (vs : list V) (d : V) (T : Xf V) : res V :=
    match xf_ivec T d with
    | None => Panic
    | Some d' =>
        let n := Z.of_nat (length vs) in
        first ← dot_index dot vs 0 d';
        let start := if first <? n0 then (n / 2)%Z else 0%Z in
        mx ← (if first <? n0 then dot_index dot vs start d' else Ok first);
        left ← dot_index dot vs (start - 1) d';
        right ← dot_index dot vs (start + 1) d';
        i ← (if (start =? 0)%Z && (mx >? left) && (mx >? right) then Ok 0%Z
              else
                let back := (left >? mx) && (left >? right) in
                let add := if back then (-1)%Z else 1%Z in
                let prev := if back then right else left in
                poly_climb (length vs) dot vs d' start add (wrap n (start + add)) prev mx);
        match vs !! Z.to_nat i with Some v => Ok (xf_pt T v) | None => Panic end
    end.
  (** polygon.rs 38-47. *)
  Definition polygon_support (vs : list (V2 S)) (d : V2 S) (T : Xf (V2 S)) : res (V2 S) :=
    if (length vs <? 10)%nat then get_max_point dot2 zero2 vs d T else poly_hill dot2 vs d T.
  (** polyhedron.rs 100-122, 160-176, 392-399: a polyhedron given by its vertices. *)
  Definition hull_support (vs : list (V3 S)) (d : V3 S) (T : Xf (V3 S)) : res (V3 S) :=
    get_max_point dot3 zero3 vs d T.

  (** ** Bounding volumes ([ComputeBound]) *)
  (** circle.rs 47-52; sphere.rs 45-50, 57-62. *)
  Definition circle_bound (r : S) : Aabb2 S := aabb2_new (mk2 (- r) (- r)) (mk2 r r).
  Definition psphere_bound (r : S) : Aabb3 S := aabb3_new (splat3 (- r)) (splat3 r).
  Definition psphere_sphere (r : S) : Sphere S := mkSphere zero3 r.
  (** capsule.rs 67-72, 79-84. *)
  Definition capsule_bound (hh r : S) : Aabb3 S := aabb3_new (mk3 (- r) (- hh - r) (- r)) (mk3 r (hh + r) r).
  Definition capsule_sphere (hh r : S) : Sphere S := mkSphere zero3 (hh + r).
  (** cylinder.rs 84-89, 96-101. *)
  Definition cylinder_bound (hh r : S) : Aabb3 S := aabb3_new (mk3 (- r) (- hh) (- r)) (mk3 r hh r).
  Definition cylinder_sphere (hh r : S) : Sphere S := mkSphere zero3 (nsqrt (r * r + hh * hh)).
  (** cuboid.rs 86-91, 98-104. *)
  Definition cuboid_bound (dim : V3 S) : Aabb3 S := let h := cuboid_half dim in aabb3_new (neg3 h) h.
  Definition cuboid_sphere (dim : V3 S) : Sphere S :=
    let h := cuboid_half dim in mkSphere zero3 (fmax (fmax (vx h) (vy h)) (vz h)).
  (** quad.rs 83-88, 95-100. *)
  Definition quad_bound (dim : V2 S) : Aabb3 S :=
    let h := quad_half dim in aabb3_new (mk3 (- ux h) (- uy h) n0) (mk3 (ux h) (uy h) n0).
  Definition quad_sphere (dim : V2 S) : Sphere S := let h := quad_half dim in mkSphere zero3 (fmax (ux h) (uy h)).
  (** rectangle.rs 83-88; line.rs 31-33; polygon.rs 54-56; polyhedron.rs 113-120, 407, 416-421. *)
  Definition rect_bound (dim : V2 S) : Aabb2 S := let h := quad_half dim in aabb2_new (neg2 h) h.
  Definition line_bound (l : Line (V2 S)) : Aabb2 S := aabb2_new (l_origin l) (l_dest l).
  Definition polygon_bound (vs : list (V2 S)) : Aabb2 S := get_bound2 vs.
  Definition hull_bound (vs : list (V3 S)) : Aabb3 S := get_bound3 vs.
  (** [max_by] with [partial_cmp(..).unwrap_or(Equal)]: the last maximal element wins. *)
  Definition max_by_step (acc : option S) (x : S) : option S :=
    Some match acc with None => x | Some m => match pcmp m x with Some Gt => m | _ => x end end.
  Definition max_extent (vs : list (V3 S)) : S :=
    default n0 (foldl max_by_step None (map mag3 vs)).
  Definition hull_sphere (vs : list (V3 S)) : Sphere S := mkSphere zero3 (max_extent vs).

  (** ** Ray tests *)
  (** circle.rs 59-68, 77-92; sphere.rs 69-78, 87-102. *)
  Definition circle_ray_test (r : S) (ray : Ray (V2 S)) : bool :=
    let l := mk2 (- ux (origin ray)) (- uy (origin ray)) in
    let tca := dot2 l (direction ray) in
    if tca <? n0 then false else (dot2 l l - tca * tca) <=? r * r.
  Definition circle_ray (r : S) (ray : Ray (V2 S)) : option (V2 S) :=
    let l := mk2 (- ux (origin ray)) (- uy (origin ray)) in
    let tca := dot2 l (direction ray) in
    if tca <? n0 then None
    else let d2 := dot2 l l - tca * tca in
      if d2 >? r * r then None
      else let thc := nsqrt (r * r - d2) in
        Some (add2 (origin ray) (scale2 (direction ray) (tca - thc))).
  Definition psphere_ray_test (r : S) (ray : Ray (V3 S)) : bool :=
    let l := mk3 (- vx (origin ray)) (- vy (origin ray)) (- vz (origin ray)) in
    let tca := dot3 l (direction ray) in
    if tca <? n0 then false else (dot3 l l - tca * tca) <=? r * r.
  Definition psphere_ray (r : S) (ray : Ray (V3 S)) : option (V3 S) :=
    let l := mk3 (- vx (origin ray)) (- vy (origin ray)) (- vz (origin ray)) in
    let tca := dot3 l (direction ray) in
    if tca <? n0 then None
    else let d2 := dot3 l l - tca * tca in
      if d2 >? r * r then None
      else let thc := nsqrt (r * r - d2) in
        Some (add3 (origin ray) (scale3 (direction ray) (tca - thc))).
  (** util.rs 116-137 [cylinder_ray_quadratic_solve]. *)
  Definition cyl_solve (ray : Ray (V3 S)) (r : S) : option (S * S) :=
    let d := direction ray in let o := origin ray in
    let a := vx d * vx d + vz d * vz d in
    let b := two * (vx d * vx o + vz d * vz o) in
    let c := vx o * vx o + vz o * vz o - r * r in
    let dr := b * b - (two + two) * a * c in
    if dr <? n0 then None
    else let s := nsqrt dr in Some ((- b + s) / (two * a), (- b - s) / (two * a)).
  (** The common root selection: cylinder.rs 122-134, 196-208; capsule.rs 97-109, 150-162. *)
  Definition pick_root (t1 t2 : S) : option S :=
    if (t1 <? n0) && (t2 <? n0) then None
    else Some (if t1 <? n0 then t2 else if t2 <? n0 then t1 else fmin t1 t2).
  Definition ray_pt3 (ray : Ray (V3 S)) (t : S) : V3 S := add3 (origin ray) (scale3 (direction ray) t).
  Definition unit_y : V3 S := mk3 n0 n1 n0.
  Definition in_disc (r : S) (p : V3 S) : bool := (vx p * vx p + vz p * vz p) <? r * r.
  (** cylinder.rs 108-159. *)
  Definition cylinder_ray_test (hh r : S) (ray : Ray (V3 S)) : bool :=
    let d := direction ray in let o := origin ray in
    if (vx d ==? n0) && (vz d ==? n0) then
      if vy d ==? n0 then false
      else ((vy o >=? - hh) && (vy d <=? n0)) || ((vy o <=? hh) && (vy d >=? n0))
    else match cyl_solve ray r with
    | None => false
    | Some (t1, t2) =>
        match pick_root t1 t2 with
        | None => false
        | Some t =>
            let pc := ray_pt3 ray t in
            if (vy pc <=? hh) && (vy pc >=? - hh) then true
            else
              let n := neg3 unit_y in
              let tp := - (hh + dot3 o n) / dot3 d n in
              if (tp >=? n0) && in_disc r (ray_pt3 ray tp) then true
              else
                let n := unit_y in
                let tb := - (- hh + dot3 o n) / dot3 d n in
                if (tb >=? n0) && in_disc r (ray_pt3 ray tb) then true else false
        end
    end.
  (** cylinder.rs 168-237. *)
  Definition cylinder_ray (hh r : S) (ray : Ray (V3 S)) : option (V3 S) :=
    let d := direction ray in let o := origin ray in
    if (vx d ==? n0) && (vz d ==? n0) then
      if vy d ==? n0 then None
      else if (vy o >=? hh) && (vy d <? n0) then Some (mk3 n0 hh n0)
      else if (vy o >=? - hh) && (vy d <? n0) then Some (mk3 n0 (- hh) n0)
      else if (vy o <=? - hh) && (vy d >? n0) then Some (mk3 n0 (- hh) n0)
      else if (vy o <=? hh) && (vy d >? n0) then Some (mk3 n0 hh n0)
      else None
    else match cyl_solve ray r with
    | None => None
    | Some (t1, t2) =>
        match pick_root t1 t2 with
        | None => None
        | Some t =>
            let n := neg3 unit_y in
            let tp := - (hh + dot3 o n) / dot3 d n in
            let t := if (tp >=? n0) && (tp <? t) && in_disc r (ray_pt3 ray tp) then tp else t in
            let n := unit_y in
            let tb := - (- hh + dot3 o n) / dot3 d n in
            let t := if (tb >=? n0) && (tb <? t) && in_disc r (ray_pt3 ray tb) then tb else t in
            let pc := ray_pt3 ray t in
            if (vy pc >? hh) || (vy pc <? - hh) then None else Some pc
        end
    end.
  (** capsule.rs 91-135. *)
  Definition cap_l (h : S) (ray : Ray (V3 S)) : V3 S :=
    mk3 (- vx (origin ray)) (h - vy (origin ray)) (- vz (origin ray)).
  Definition cap_hit (h r : S) (ray : Ray (V3 S)) : bool :=
    let l := cap_l h ray in
    let tca := dot3 l (direction ray) in
    (tca >? n0) && ((dot3 l l - tca * tca) <=? r * r).
  Definition capsule_ray_test (hh r : S) (ray : Ray (V3 S)) : bool :=
    match cyl_solve ray r with
    | None => false
    | Some (t1, t2) =>
        match pick_root t1 t2 with
        | None => false
        | Some t =>
            let pc := ray_pt3 ray t in
            if (vy pc <=? hh) && (vy pc >=? - hh) then true
            else if cap_hit hh r ray then true
            else if cap_hit (- hh) r ray then true
            else false
        end
    end.
  (** capsule.rs 144-207. *)
  Definition cap_t (h r : S) (ray : Ray (V3 S)) (t : S) : S :=
    let l := cap_l h ray in
    let tca := dot3 l (direction ray) in
    if tca >? n0 then
      let d2 := dot3 l l - tca * tca in
      if d2 <=? r * r then
        let t0 := tca - nsqrt (r * r - d2) in
        if (t0 >=? n0) && (negb (neq t t) || (t0 <? t)) then t0 else t
      else t
    else t.
  Definition capsule_ray (hh r : S) (ray : Ray (V3 S)) : option (V3 S) :=
    match cyl_solve ray r with
    | None => None
    | Some (t1, t2) =>
        match pick_root t1 t2 with
        | None => None
        | Some t =>
            let t := cap_t hh r ray t in
            let t := cap_t (- hh) r ray t in
            if negb (neq t t) then None
            else let pc := ray_pt3 ray t in
              let f := hh + r in
              if (vy pc >? f) || (vy pc <? - f) then None else Some pc
        end
    end.
  (** cuboid.rs 111-117, 126-132; quad.rs 108-111, 121-124; rectangle.rs 96-98, 108-110. *)
  Context `{NumInf S}.
  Definition cuboid_ray_test (dim : V3 S) (ray : Ray (V3 S)) : bool := ray_aabb3_test ray (cuboid_bound dim).
  Definition cuboid_ray (dim : V3 S) (ray : Ray (V3 S)) : option (V3 S) := ray_aabb3 ray (cuboid_bound dim).
  Definition quad_ray_test (dim : V2 S) (ray : Ray (V3 S)) : bool := ray_aabb3_test ray (quad_bound dim).
  Definition quad_ray (dim : V2 S) (ray : Ray (V3 S)) : option (V3 S) := ray_aabb3 ray (quad_bound dim).
  Definition rect_ray_test (dim : V2 S) (ray : Ray (V2 S)) : bool := ray_aabb2_test ray (rect_bound dim).
  Definition rect_ray (dim : V2 S) (ray : Ray (V2 S)) : option (V2 S) := ray_aabb2 ray (rect_bound dim).
End prim.

Section polyray.
  Context {S : Type} `{Num S}.
  Local Open Scope num_scope.
  (** polygon.rs 66-77, 98-109: the edge ending at vertex [j] and the test of its normal. *)
  Definition poly_prev (vs : list (V2 S)) (j : nat) : nat := if decide (j = 0%nat) then (length vs - 1)%nat else (j - 1)%nat.
  Definition poly_edge (vs : list (V2 S)) (j : nat) : option (V2 S * V2 S) :=
    match vs !! poly_prev vs j, vs !! j with Some a, Some b => Some (a, b) | _, _ => None end.
  Definition poly_normal (a b : V2 S) : V2 S := mk2 (uy b - uy a) (ux a - ux b).
  (** polygon.rs 96-117 [intersection]: the loop over [0..len - 1]; subtracting from a
      length of zero panics. *)
  Fixpoint poly_ray_loop (vs : list (V2 S)) (ray : Ray (V2 S)) (js : list nat) : res (option (V2 S)) :=
    match js with
    | [] => Ok None
    | j :: js =>
        match poly_edge vs j with
        | None => Panic
        | Some (a, b) =>
            if dot2 (direction ray) (poly_normal a b) <? n0 then
              match ray_line2 ray (mkLine a b) with
              | Some p => Ok (Some p)
              | None => poly_ray_loop vs ray js
              end
            else poly_ray_loop vs ray js
        end
    end.
  Definition polygon_ray (vs : list (V2 S)) (ray : Ray (V2 S)) : res (option (V2 S)) :=
    if decide (length vs = 0%nat) then Panic else poly_ray_loop vs ray (seq 0 (length vs - 1)).
  (** polygon.rs 64-86 [intersects] runs the same loop. *)
  Definition polygon_ray_test (vs : list (V2 S)) (ray : Ray (V2 S)) : res bool :=
    o ← polygon_ray vs ray; Ok (bool_decide (is_Some o)).
End polyray.

(** ** cgmath transforms used by the crate's tests and documentation *)
Section cgmath.
  Context {S : Type} `{Num S}.
  Local Open Scope num_scope.
  Context (eps : S).
  (** cgmath [Matrix2], [Basis2]: columns [x], [y]. *)
  Record M2 := mkM2 { m2_x : V2 S; m2_y : V2 S }.
  Definition m2_mul (m : M2) (v : V2 S) : V2 S :=
    mk2 (ux (m2_x m) * ux v + ux (m2_y m) * uy v) (uy (m2_x m) * ux v + uy (m2_y m) * uy v).
  Definition m2_det (m : M2) : S := ux (m2_x m) * uy (m2_y m) - ux (m2_y m) * uy (m2_x m).
  (** [Matrix2::invert] (for [Basis2::invert] the determinant is never 0). *)
  Definition m2_invert (m : M2) : M2 :=
    let det := m2_det m in
    mkM2 (mk2 (uy (m2_y m) / det) (- uy (m2_x m) / det)) (mk2 (- ux (m2_y m) / det) (ux (m2_x m) / det)).
  (** cgmath [Quaternion]: scalar and vector parts, [rotate_vector] (the product with a
      vector), [conjugate], [invert]. *)
  Record Quat := mkQuat { q_s : S; q_v : V3 S }.
  Definition quat_rot (q : Quat) (v : V3 S) : V3 S :=
    let tmp := add3 (cross3 (q_v q) v) (scale3 v (q_s q)) in
    add3 (scale3 (cross3 (q_v q) tmp) (n1 + n1)) v.
  Definition quat_mag2 (q : Quat) : S := q_s q * q_s q + dot3 (q_v q) (q_v q).
  Definition quat_invert (q : Quat) : Quat :=
    mkQuat (q_s q / quat_mag2 q) (div3 (neg3 (q_v q)) (quat_mag2 q)).
  (** cgmath [Decomposed]: scale, rotation, displacement. *)
  Definition decomposed2 (s : S) (rot : M2) (disp : V2 S) : Xf (V2 S) :=
    mkXf (fun p => add2 (m2_mul rot (scale2 p s)) disp)
         (fun v => m2_mul rot (scale2 v s))
         (fun v => if near0 eps s then None else Some (m2_mul (m2_invert rot) (div2 v s)))
         (if near0 eps s then None
          else let si := n1 / s in let r := m2_invert rot in
            let d := scale2 (m2_mul r disp) (- si) in
            Some (fun p => add2 (m2_mul r (scale2 p si)) d, fun v => m2_mul r (scale2 v si))).
  Definition decomposed3 (s : S) (rot : Quat) (disp : V3 S) : Xf (V3 S) :=
    mkXf (fun p => add3 (quat_rot rot (scale3 p s)) disp)
         (fun v => quat_rot rot (scale3 v s))
         (fun v => if near0 eps s then None else Some (quat_rot (quat_invert rot) (div3 v s)))
         (if near0 eps s then None
          else let si := n1 / s in let r := quat_invert rot in
            let d := scale3 (quat_rot r disp) (- si) in
            Some (fun p => add3 (quat_rot r (scale3 p si)) d, fun v => quat_rot r (scale3 v si))).
  (** cgmath [Matrix3] as a transform of the plane: a linear part and a displacement
      (last row 0 0 1); [inverse_transform] inverts the matrix, [None] when the
      determinant is zero; [inverse_transform_vector] is that inverse's
      [transform_vector]. *)
  Definition affine2 (m : M2) (disp : V2 S) : Xf (V2 S) :=
    let inv := if m2_det m ==? n0 then None
      else let mi := m2_invert m in
        Some (fun p => add2 (m2_mul mi p) (neg2 (m2_mul mi disp)), m2_mul mi) in
    mkXf (fun p => add2 (m2_mul m p) disp) (m2_mul m) (fun v => option_map (fun t => t.2 v) inv) inv.
  (** [One::one()]: the identity transform. *)
  Definition id_xf {V} : Xf V := mkXf (fun p => p) (fun v => v) (fun v => Some v) (Some (fun p => p, fun v => v)).
End cgmath.
