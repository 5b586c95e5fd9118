(** Model of /repo/src/volume/aabb/. *)
From stdpp Require Import prelude.
From Verif Require Import Num Vec.

Section aabb.
  Context {S : Type} `{Num S}.
  Local Open Scope num_scope.

  (** aabb/mod.rs 21-26 [min]: [Less | Equal | None => lhs]. *)
  Definition amin (l r : S) : S :=
    match pcmp l r with Some Lt | Some Eq | None => l | Some Gt => r end.
  (** aabb/mod.rs 28-33 [max]: [Greater | Equal | None => lhs]. *)
  Definition amax (l r : S) : S :=
    match pcmp l r with Some Gt | Some Eq | None => l | Some Lt => r end.

  (** * Two dimensions *)
  (** aabb2.rs 20-25. *)
  Record Aabb2 := mkAabb2 { min2 : V2 S; max2 : V2 S }.
  (** aabb/mod.rs 47-53 [MinMax] for [Point2]. *)
  Definition pmin2 (a b : V2 S) : V2 S := mk2 (amin (ux a) (ux b)) (amin (uy a) (uy b)).
  Definition pmax2 (a b : V2 S) : V2 S := mk2 (amax (ux a) (ux b)) (amax (uy a) (uy b)).
  (** aabb2.rs 30-35 [new]. *)
  Definition aabb2_new (p q : V2 S) : Aabb2 := mkAabb2 (pmin2 p q) (pmax2 p q).
  (** aabb/mod.rs 83-86 [zero]. *)
  Definition aabb2_zero : Aabb2 := aabb2_new zero2 zero2.
  (** aabb2.rs 39-46 [to_corners]. *)
  Definition corners2 (b : Aabb2) : list (V2 S) :=
    [min2 b; mk2 (ux (max2 b)) (uy (min2 b)); mk2 (ux (min2 b)) (uy (max2 b)); max2 b].
  (** aabb/mod.rs 95-97 [dim], 101-103 [volume], 107-110 [center]. *)
  Definition dim2 (b : Aabb2) : V2 S := sub2 (max2 b) (min2 b).
  Definition volume2 (b : Aabb2) : S := ux (dim2 b) * uy (dim2 b).
  Definition center2 (b : Aabb2) : V2 S := add2 (min2 b) (div2 (dim2 b) (n1 + n1)).
  (** aabb/mod.rs 113-115 [grow]. *)
  Definition grow2 (b : Aabb2) (p : V2 S) : Aabb2 := aabb2_new (pmin2 (min2 b) p) (pmax2 (max2 b) p).
  (** aabb/mod.rs 119-121 [add_v]; aabb2.rs 69-74 [add_margin]; mod.rs 128-130
      [mul_s], 133-137 [mul_v]. *)
  Definition add_v2 (b : Aabb2) (v : V2 S) : Aabb2 := aabb2_new (add2 (min2 b) v) (add2 (max2 b) v).
  Definition add_margin2 (b : Aabb2) (m : V2 S) : Aabb2 := aabb2_new (sub2 (min2 b) m) (add2 (max2 b) m).
  Definition mul_s2 (b : Aabb2) (s : S) : Aabb2 := aabb2_new (scale2 (min2 b) s) (scale2 (max2 b) s).
  Definition mul_v2 (b : Aabb2) (v : V2 S) : Aabb2 :=
    aabb2_new (mk2 (ux (min2 b) * ux v) (uy (min2 b) * uy v)) (mk2 (ux (max2 b) * ux v) (uy (max2 b) * uy v)).
  (** aabb2.rs 77-87 [transform]; [T] is [transform_point]. *)
  Definition transform2 (b : Aabb2) (T : V2 S -> V2 S) : Aabb2 :=
    foldl (fun u c => grow2 u (T c)) (aabb2_new (T (min2 b)) (T (min2 b))) (drop 1 (corners2 b)).
  (** aabb2.rs 97-99, 103-113, 116-121 [contains] (point, box, line segment). *)
  Definition contains2_pt (b : Aabb2) (p : V2 S) : bool :=
    (ux (min2 b) <=? ux p) && (ux p <? ux (max2 b)) && (uy (min2 b) <=? uy p) && (uy p <? uy (max2 b)).
  Definition contains2 (b o : Aabb2) : bool :=
    (ux (min2 o) >=? ux (min2 b)) && (uy (min2 o) >=? uy (min2 b))
    && (ux (max2 o) <=? ux (max2 b)) && (uy (max2 o) <=? uy (max2 b)).
  Definition contains2_line (b : Aabb2) (l : Line (V2 S)) : bool :=
    contains2_pt b (l_origin l) && contains2_pt b (l_dest l).
  (** aabb2.rs 123-129 [union], 131-137 [surface_area]. *)
  Definition union2 (a b : Aabb2) : Aabb2 := grow2 (grow2 a (min2 b)) (max2 b).
  Definition surface_area2 (b : Aabb2) : S := ux (dim2 b) * uy (dim2 b).
  (** aabb2.rs 218-225 [intersects] (box). *)
  Definition intersects2 (a b : Aabb2) : bool :=
    (ux (max2 a) >? ux (min2 b)) && (ux (min2 a) <? ux (max2 b))
    && (uy (max2 a) >? uy (min2 b)) && (uy (min2 a) <? uy (max2 b)).

  (** * Three dimensions *)
  (** aabb3.rs 20-25. *)
  Record Aabb3 := mkAabb3 { min3 : V3 S; max3 : V3 S }.
  (** aabb/mod.rs 60-66 [MinMax] for [Point3]. *)
  Definition pmin3 (a b : V3 S) : V3 S := mk3 (amin (vx a) (vx b)) (amin (vy a) (vy b)) (amin (vz a) (vz b)).
  Definition pmax3 (a b : V3 S) : V3 S := mk3 (amax (vx a) (vx b)) (amax (vy a) (vy b)) (amax (vz a) (vz b)).
  (** aabb3.rs 30-35 [new]. *)
  Definition aabb3_new (p q : V3 S) : Aabb3 := mkAabb3 (pmin3 p q) (pmax3 p q).
  (** aabb/mod.rs 83-86 [zero]. *)
  Definition aabb3_zero : Aabb3 := aabb3_new zero3 zero3.
  (** aabb3.rs 39-50 [to_corners]. *)
  Definition corners3 (b : Aabb3) : list (V3 S) :=
    let m := min3 b in let M := max3 b in
    [m; mk3 (vx M) (vy m) (vz m); mk3 (vx m) (vy M) (vz m); mk3 (vx M) (vy M) (vz m);
     mk3 (vx m) (vy m) (vz M); mk3 (vx M) (vy m) (vz M); mk3 (vx m) (vy M) (vz M); M].
  (** aabb/mod.rs 95-97 [dim], 101-103 [volume], 107-110 [center]. *)
  Definition dim3 (b : Aabb3) : V3 S := sub3 (max3 b) (min3 b).
  Definition volume3 (b : Aabb3) : S := vx (dim3 b) * vy (dim3 b) * vz (dim3 b).
  Definition center3 (b : Aabb3) : V3 S := add3 (min3 b) (div3 (dim3 b) (n1 + n1)).
  (** aabb/mod.rs 113-115 [grow]. *)
  Definition grow3 (b : Aabb3) (p : V3 S) : Aabb3 := aabb3_new (pmin3 (min3 b) p) (pmax3 (max3 b) p).
  (** aabb/mod.rs 119-121 [add_v]; aabb3.rs 74-87 [add_margin]; mod.rs 128-130
      [mul_s], 133-137 [mul_v]. *)
  Definition add_v3 (b : Aabb3) (v : V3 S) : Aabb3 := aabb3_new (add3 (min3 b) v) (add3 (max3 b) v).
  Definition add_margin3 (b : Aabb3) (m : V3 S) : Aabb3 := aabb3_new (sub3 (min3 b) m) (add3 (max3 b) m).
  Definition mul_s3 (b : Aabb3) (s : S) : Aabb3 := aabb3_new (scale3 (min3 b) s) (scale3 (max3 b) s).
  Definition mul_v3 (b : Aabb3) (v : V3 S) : Aabb3 := aabb3_new (mul3 (min3 b) v) (mul3 (max3 b) v).
  (** aabb3.rs 90-100 [transform]. *)
  Definition transform3 (b : Aabb3) (T : V3 S -> V3 S) : Aabb3 :=
    foldl (fun u c => grow3 u (T c)) (aabb3_new (T (min3 b)) (T (min3 b))) (drop 1 (corners3 b)).
  (** aabb3.rs 109-119, 121-134, 149-154 [contains] (point, box, line segment). *)
  Definition contains3_pt (b : Aabb3) (p : V3 S) : bool :=
    (vx (min3 b) <=? vx p) && (vx p <? vx (max3 b)) && (vy (min3 b) <=? vy p) && (vy p <? vy (max3 b))
    && (vz (min3 b) <=? vz p) && (vz p <? vz (max3 b)).
  Definition contains3 (b o : Aabb3) : bool :=
    (vx (min3 o) >=? vx (min3 b)) && (vy (min3 o) >=? vy (min3 b)) && (vz (min3 o) >=? vz (min3 b))
    && (vx (max3 o) <=? vx (max3 b)) && (vy (max3 o) <=? vy (max3 b)) && (vz (max3 o) <=? vz (max3 b)).
  Definition contains3_line (b : Aabb3) (l : Line (V3 S)) : bool :=
    contains3_pt b (l_origin l) && contains3_pt b (l_dest l).
  (** aabb3.rs 156-162 [union], 269-276 [surface_area]. *)
  Definition union3 (a b : Aabb3) : Aabb3 := grow3 (grow3 a (min3 b)) (max3 b).
  Definition surface_area3 (b : Aabb3) : S :=
    let d := dim3 b in (n1 + n1) * (vx d * vy d + vx d * vz d + vy d * vz d).
  (** aabb3.rs 246-253 [intersects] (box). *)
  Definition intersects3 (a b : Aabb3) : bool :=
    (vx (max3 a) >? vx (min3 b)) && (vx (min3 a) <? vx (max3 b))
    && (vy (max3 a) >? vy (min3 b)) && (vy (min3 a) <? vy (max3 b))
    && (vz (max3 a) >? vz (min3 b)) && (vz (min3 a) <? vz (max3 b)).
End aabb.
Arguments Aabb2 : clear implicits.
Arguments Aabb3 : clear implicits.

Section ray.
  Context {S : Type} `{Num S} `{NumInf S}.
  Local Open Scope num_scope.
  (** aabb2.rs 148-155, 157-164 (and 190-206): one axis of the slab test. *)
  Definition slab2 (lo hi o d : S) (t : S * S) : option (S * S) :=
    if negb (d ==? n0) then
      let t1 := (lo - o) / d in
      let t2 := (hi - o) / d in
      Some (fmax t.1 (fmin t1 t2), fmin t.2 (fmax t1 t2))
    else if (o <=? lo) || (o >=? hi) then None else Some t.
  Definition slabs2 (r : Ray (V2 S)) (b : Aabb2 S) : option (S * S) :=
    match slab2 (ux (min2 b)) (ux (max2 b)) (ux (origin r)) (ux (direction r)) (nninf, ninf) with
    | Some t => slab2 (uy (min2 b)) (uy (max2 b)) (uy (origin r)) (uy (direction r)) t
    | None => None
    end.
  (** aabb2.rs 140-173 [intersection] (ray), 175-181 the converse. *)
  Definition ray_aabb2 (r : Ray (V2 S)) (b : Aabb2 S) : option (V2 S) :=
    match slabs2 r b with
    | None => None
    | Some (tmin, tmax) =>
        if ((tmin <? n0) && (tmax <? n0)) || (tmax <? tmin) then None
        else
          let t := if tmin >=? n0 then tmin else tmax in
          Some (add2 (origin r) (scale2 (direction r) t))
    end.
  (** aabb2.rs 183-210 [intersects] (ray), 212-216 the converse. *)
  Definition ray_aabb2_test (r : Ray (V2 S)) (b : Aabb2 S) : bool :=
    match slabs2 r b with
    | None => false
    | Some (tmin, tmax) => (tmax >=? tmin) && ((tmin >=? n0) || (tmax >=? n0))
    end.

  (** aabb3.rs 182-199 (and 220-237): the slab interval. *)
  Definition slabs3 (r : Ray (V3 S)) (b : Aabb3 S) : S * S :=
    let o := origin r in let d := direction r in
    let ix := n1 / vx d in let iy := n1 / vy d in let iz := n1 / vz d in
    let t1 := (vx (min3 b) - vx o) * ix in
    let t2 := (vx (max3 b) - vx o) * ix in
    let tmin := fmin t1 t2 in let tmax := fmax t1 t2 in
    let t1 := (vy (min3 b) - vy o) * iy in
    let t2 := (vy (max3 b) - vy o) * iy in
    let tmin := fmax tmin (fmin t1 t2) in let tmax := fmin tmax (fmax t1 t2) in
    let t1 := (vz (min3 b) - vz o) * iz in
    let t2 := (vz (max3 b) - vz o) * iz in
    (fmax tmin (fmin t1 t2), fmin tmax (fmax t1 t2)).
  (** aabb3.rs 177-206 [intersection] (ray), 208-214 the converse. *)
  Definition ray_aabb3 (r : Ray (V3 S)) (b : Aabb3 S) : option (V3 S) :=
    let '(tmin, tmax) := slabs3 r b in
    if ((tmin <? n0) && (tmax <? n0)) || (tmax <? tmin) then None
    else
      let t := if tmin >=? n0 then tmin else tmax in
      Some (add3 (origin r) (scale3 (direction r) t)).
  (** aabb3.rs 216-238 [intersects] (ray), 240-244 the converse. *)
  Definition ray_aabb3_test (r : Ray (V3 S)) (b : Aabb3 S) : bool :=
    let '(tmin, tmax) := slabs3 r b in
    (tmax >=? tmin) && ((tmin >=? n0) || (tmax >=? n0)).
End ray.
