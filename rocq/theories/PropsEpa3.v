(** C57: contact manifolds in space (EPA). *)
From Coq Require Import Psatz.
From stdpp Require Import prelude.
From Flocq Require Import IEEE754.BinarySingleNaN.
From Coq Require Import Reals Lra.
From Verif Require Import Res Num FloatMono Vec AabbModel GeoModel RealGeo PrimModel ShapeSpec PropsSupport MinkModel MinkSpec Gjk3 PropsGjk3 Dist
  PrimEnum PropsDist PropsNarrow Epa3Chain Epa3Cover Epa3.
Local Open Scope R_scope.

(** Moving the second shape by [t] takes the shapes apart (up to touching). *)
Definition apart3 (A B : P3 -> Prop) (t : P3) : Prop :=
  exists d, d <> zero3 /\ forall x y, A x -> B y -> dot3 d x <= dot3 d (add3 y t).
(** What a contact must say about the two shapes: a unit normal and a depth that no
    separating translation undercuts; and when the second shape is moved by [depth] along
    the normal, the two still have a common point. *)
Definition good_contact3 (A B : P3 -> Prop) (ct : Contact R P3) : Prop :=
  c_strategy ct = FullResolution /\ c_toi ct = 0 /\ mag3 (c_normal ct) = 1 /\ 0 <= c_depth ct /\
  (forall t, apart3 A B t -> c_depth ct <= mag3 t) /\
  exists x y, A x /\ B y /\ x = add3 y (scale3 (c_normal ct) (c_depth ct)).
(** The depth is within [tol] of the true penetration depth, and the normal is a
    direction that achieves it. *)
Definition tight_contact3 (A B : P3 -> Prop) (tol : R) (ct : Contact R P3) : Prop :=
  apart3 A B (scale3 (c_normal ct) (c_depth ct + tol)).

Lemma mag3_one (v : P3) : dot3 v v = 1 -> mag3 v = 1.
Proof. intros E. pose proof (mag3_sqr v) as Hs. pose proof (mag3_nonneg v). rewrite E in Hs. nra. Qed.
Lemma sub3_add (x y v : P3) : v = sub3 x y -> x = add3 y v.
Proof. intros ->. clear. apply V3_eq; rv0; ring. Qed.
Lemma run_good3 (A B : P3 -> Prop) ct :
  c_strategy ct = FullResolution -> c_toi ct = 0 -> dot3 (c_normal ct) (c_normal ct) = 1 -> 0 <= c_depth ct ->
  (forall u, dot3 u u = 1 -> exists v, mdiff3 A B v /\ c_depth ct <= dot3 u v) ->
  mdiff3 A B (scale3 (c_normal ct) (c_depth ct)) -> good_contact3 A B ct.
Proof.
  intros E1 E2 E3 E4 E5 (x0 & y0 & Hx0 & Hy0 & E6). split; [done|]. split; [done|]. split; [by apply mag3_one|]. split; [done|].
  split; [|exists x0, y0; split; [done|]; split; [done|]; by apply sub3_add].
  intros t (d & Hd & Hsep). pose proof (mag3_pos d Hd) as Hm. pose proof (mag3_sqr d) as Hs.
  destruct (E5 (scale3 d (1 / mag3 d))) as (v & (x & y & Hx & Hy & ->) & Hle).
  { transitivity (1 / mag3 d * (1 / mag3 d) * dot3 d d); [clear; rv0; ring|]. rewrite <- Hs. field. lra. }
  specialize (Hsep x y Hx Hy). rewrite Epa3.dot3_scale_l in Hle.
  assert (Hdv : dot3 d (sub3 x y) <= mag3 d * mag3 t).
  { pose proof (cauchy3 d t) as Hc. assert (dot3 d (sub3 x y) <= dot3 d t) by (clear -Hsep; rv0; lra). lra. }
  apply Rle_trans with (1 := Hle). apply (Rmult_le_reg_l (mag3 d)); [done|].
  replace (mag3 d * (1 / mag3 d * dot3 d (sub3 x y))) with (dot3 d (sub3 x y)) by (field; lra). done.
Qed.

Section epa3.
  Context (A B : P3 -> Prop) (supL supR : P3 -> res P3) (HA : supports3 A supL) (HB : supports3 B supR)
    (HcA : convex3 A) (HcB : convex3 B) (eps tenth : R) (Heps : 0 <= eps) (Htenth : 0 < tenth) (tol : R) (Htol : 0 < tol).
  Notation contact := (gjk3_intersection eps tenth supL supR tol).

  Lemma intersection_run3 n lpos rpos ct :
    contact FullResolution n lpos rpos = Ok (Some ct) ->
    exists d c b a dn, witness3 A B d /\ witness3 A B c /\ witness3 A B b /\ witness3 A B a /\
      hull3 [sp_v d; sp_v c; sp_v b; sp_v a] zero3 /\
      dot3 (cross3 (sub3 (sp_v b) (sp_v a)) (sub3 (sp_v c) (sp_v a))) (sub3 (sp_v d) (sp_v a)) < 0 /\
      epa3_run (mink3 supL supR) tol n [d; c; b; a] = Ok (Some (ct, dn)).
  Proof.
    unfold gjk3_intersection. destruct (gjk3_intersect _ _ _ _ _ _ _) as [[s|]| |] eqn:E; cbn [mbind res_mbind res_bind]; try done.
    destruct (C40_hit_encloses_origin A B supL supR HA HB eps tenth Heps Htenth n lpos rpos s E) as (d & c & b & a & -> & Hd & Hc & Hb & Ha & Hh & HV).
    unfold epa3_process. destruct (epa3_run _ _ _ _) as [[[ct' dn]|]| |] eqn:Er; cbn [mbind res_mbind res_bind option_map fst]; try done.
    intros [= <-]. by exists d, c, b, a, dn.
  Qed.

  (** Whatever the iteration limit and the tolerances: a unit normal, a depth no separating
      move undercuts, and shapes that still touch after the move. *)
  Theorem C57_contact_good n lpos rpos ct :
    contact FullResolution n lpos rpos = Ok (Some ct) -> good_contact3 A B ct.
  Proof.
    intros Ec. destruct (intersection_run3 n lpos rpos ct Ec) as (d & c & b & a & dn & Hd & Hc & Hb & Ha & Hh & HV & Er).
    destruct (epa3_run_spec A B supL supR HA HB HcA HcB tol Htol n d c b a) as (ct' & dn' & Er' & E1 & E2 & E3 & E4 & E5 & E6 & _); try done.
    assert (ct' = ct) as -> by congruence. by apply run_good3.
  Qed.
  (** On polyhedra, with enough iterations, the depth is the penetration depth up to the
      tolerance. *)
  Theorem C57_polyhedron_contact_tight n lpos rpos ct vL vR :
    vertices3 A supL vL -> vertices3 B supR vR -> (length vL * length vR < n)%nat ->
    contact FullResolution n lpos rpos = Ok (Some ct) -> tight_contact3 A B tol ct.
  Proof.
    intros HvL HvR Hlen Ec. destruct (intersection_run3 n lpos rpos ct Ec) as (d & c & b & a & dn & Hd & Hc & Hb & Ha & Hh & HV & Er).
    destruct (epa3_run_spec A B supL supR HA HB HcA HcB tol Htol n d c b a) as (ct' & dn' & Er' & E1 & E2 & E3 & E4 & E5 & E6 & E7 & E8 & E9); try done.
    assert (ct' = ct) as -> by congruence. specialize (E8 (E9 vL vR HvL HvR Hlen)).
    exists (c_normal ct). split; [apply vec3_ne; lra|]. intros x y Hx Hy. specialize (E8 (sub3 x y) ltac:(by exists x, y)).
    set (m := c_normal ct) in *. set (k := c_depth ct + tol) in *. clearbody m k.
    assert (Hk : dot3 m (scale3 m k) = k). { transitivity (k * dot3 m m); [clear; rv0; ring|]. rewrite E3. ring. }
    clear -E8 Hk. rv0. lra.
  Qed.
  (** Asking for the collision only gives the same yes or no, without a manifold. *)
  Theorem C57_collision_only n lpos rpos o :
    contact CollisionOnly n lpos rpos = Ok o ->
    (o = None <-> gjk3_intersect eps tenth supL supR n lpos rpos = Ok None) /\
    forall ct, o = Some ct -> ct = mkContact CollisionOnly zero3 0 zero3 0.
  Proof.
    unfold gjk3_intersection. destruct (gjk3_intersect _ _ _ _ _ _ _) as [[s|]| |]; cbn [mbind res_mbind res_bind]; try done.
    - intros [= <-]. split; [done|]. by intros ct [= <-].
    - intros [= <-]. done.
  Qed.
  (** Full resolution reports a contact exactly when the test reports a hit, and never
      panics (if the support functions do not panic on the zero direction). *)
  Theorem C57_no_panic n lpos rpos :
    (exists s, supL zero3 = Ok s) -> (exists s, supR (neg3 zero3) = Ok s) ->
    exists o, contact FullResolution n lpos rpos = Ok o /\
      (o = None <-> gjk3_intersect eps tenth supL supR n lpos rpos = Ok None).
  Proof.
    intros TL TR. unfold gjk3_intersection.
    destruct (C40_no_panic A B supL supR HA HB eps tenth n lpos rpos TL TR) as [o E]. rewrite E. cbn [mbind res_mbind res_bind].
    destruct o as [s|]; [|by eexists].
    destruct (C40_hit_encloses_origin A B supL supR HA HB eps tenth Heps Htenth n lpos rpos s E) as (d & c & b & a & -> & Hd & Hc & Hb & Ha & Hh & HV).
    destruct (epa3_run_spec A B supL supR HA HB HcA HcB tol Htol n d c b a) as (ct' & dn' & Er' & _); try done.
    unfold epa3_process. rewrite Er'. cbn [mbind res_mbind res_bind option_map fst]. by eexists.
  Qed.
  (** The contact point, when one of the shapes is a single point: a point of the first
      shape, [depth] along the normal from a point of the second. *)
  Theorem C57_point n lpos rpos ct :
    (forall x y, A x -> A y -> x = y) \/ (forall x y, B x -> B y -> x = y) ->
    contact FullResolution n lpos rpos = Ok (Some ct) ->
    A (c_point ct) /\ exists y, B y /\ c_point ct = add3 y (scale3 (c_normal ct) (c_depth ct)).
  Proof.
    intros Hone Ec. destruct (intersection_run3 n lpos rpos ct Ec) as (d & c & b & a & dn & Hd & Hc & Hb & Ha & Hh & HV & Er).
    destruct (epa3_run_spec A B supL supR HA HB HcA HcB tol Htol n d c b a)
      as (ct' & dn' & Er' & E1 & E2 & E3 & E4 & E5 & (x0 & y0 & Hx0 & Hy0 & E6) & (s1 & s2 & s3 & u & v & w & (A1 & B1 & V1) & (A2 & B2 & V2) & (A3 & B3 & V3) & Hs & Ep & Ef) & _); try done.
    assert (ct' = ct) as -> by congruence. rewrite Ep. assert (u = 1 - v - w) as -> by lra. clear Er Er' Ec Hh HV.
    destruct Hone as [Hone|Hone].
    - rewrite (Hone _ _ A1 Hx0), (Hone _ _ A2 Hx0), (Hone _ _ A3 Hx0).
      replace (add3 _ _) with x0 by (clear; apply V3_eq; rv0; ring). split; [done|]. exists y0. split; [done|]. by apply sub3_add.
    - rewrite V1, V2, V3, (Hone _ _ B1 Hy0), (Hone _ _ B2 Hy0), (Hone _ _ B3 Hy0) in Ef. rewrite E6 in Ef |- *.
      set (q := add3 (add3 (scale3 (sp_a s1) (1 - v - w)) (scale3 (sp_a s2) v)) (scale3 (sp_a s3) w)) in *.
      assert (Eq : q = x0).
      { transitivity (add3 (add3 (add3 (scale3 (sub3 (sp_a s1) y0) (1 - v - w)) (scale3 (sub3 (sp_a s2) y0) v)) (scale3 (sub3 (sp_a s3) y0) w)) y0);
          [unfold q; clear; apply V3_eq; rv0; ring|]. rewrite <- Ef. clear. apply V3_eq; rv0; ring. }
      rewrite Eq. split; [done|]. exists y0. split; [done|]. clear. apply V3_eq; rv0; ring.
  Qed.
End epa3.

(** ** The primitives of the crate *)
(** The corners of the flat-sided primitives. *)
Definition prim3_corners (p : Primitive3 R) : option (list P3) :=
  match p with
  | Particle3 => Some [zero3]
  | QuadP dim => Some (quad_corners (quad_half dim))
  | CuboidP dim => Some (cuboid_corners (cuboid_half dim))
  | CubeP s => Some (cuboid_corners (cuboid_half (mk3 s s s)))
  | ConvexPolyhedron vs => Some vs
  | SphereP _ | CylinderP _ _ | CapsuleP _ _ => None
  end.
Lemma prim3_vertices p T vs : prim3_ok p -> prim3_corners p = Some vs ->
  vertices3 (world T (prim3_set p)) (fun d => prim3_support p d T) (xf_pt T <$> vs).
Proof.
  intros Hok Ev. destruct p; try done; injection Ev as <-; cbn [prim3_ok prim3_set prim3_support] in *.
  - split.
    + intros v Hv. apply elem_of_list_singleton in Hv as ->. by exists zero3.
    + intros d s _. unfold particle_support. intros [= <-]. by apply elem_of_list_singleton.
  - split; [|intros d s _; by apply get_max3_vertex].
    intros v (x & -> & Hv)%elem_of_list_fmap. exists x. split; [|done]. unfold quad_corners, quad_half, two in Hv. rv0. unfold quad_set.
    repeat (apply elem_of_cons in Hv as [-> |Hv]; [rs; lra|]). by apply elem_of_nil in Hv.
  - split; [|intros d s _; by apply get_max3_vertex].
    intros v (x & -> & Hv)%elem_of_list_fmap. exists x. split; [|done]. unfold cuboid_corners, cuboid_half, div3, two in Hv. rv0. unfold box_set.
    repeat (apply elem_of_cons in Hv as [-> |Hv]; [rs; lra|]). by apply elem_of_nil in Hv.
  - split; [|intros d t _; by apply get_max3_vertex].
    intros v (x & -> & Hv)%elem_of_list_fmap. exists x. split; [|done]. unfold cuboid_corners, cuboid_half, div3, two in Hv. rv0. unfold box_set.
    repeat (apply elem_of_cons in Hv as [-> |Hv]; [rs; lra|]). by apply elem_of_nil in Hv.
  - split; [|intros d s _; by apply get_max3_vertex].
    intros v (x & -> & Hx)%elem_of_list_fmap. exists x. split; [by apply hull3_vertex|done].
Qed.

Section space.
  Context (p q : Primitive3 R) (TL TR : Xf P3) (Hp : prim3_ok p) (Hq : prim3_ok q) (HL : similar3 TL) (HR : similar3 TR)
    (eps tenth tol : R) (Heps : 0 <= eps) (Htenth : 0 < tenth) (Htol : 0 < tol).
  Let A := world TL (prim3_set p).
  Let B := world TR (prim3_set q).
  Let supL d := prim3_support p d TL.
  Let supR d := prim3_support q d TR.
  Let SA : supports3 A supL := prim3_supports p TL Hp HL.
  Let SB : supports3 B supR := prim3_supports q TR Hq HR.
  Let CA : convex3 A := prim3_world_convex p TL HL.
  Let CB : convex3 B := prim3_world_convex q TR HR.
  Notation contact n := (gjk3_intersection eps tenth supL supR tol FullResolution n (xf_pt TL zero3) (xf_pt TR zero3)).
  (** Any two primitives, scaled, rotated and moved: the contact never fails, is there
      exactly when the test hits, and is a good one. *)
  Theorem C57_primitives n :
    exists o, contact n = Ok o /\
      (o = None <-> gjk3_intersect eps tenth supL supR n (xf_pt TL zero3) (xf_pt TR zero3) = Ok None) /\
      forall ct, o = Some ct -> good_contact3 A B ct.
  Proof.
    destruct (C57_no_panic A B supL supR SA SB CA CB eps tenth Heps Htenth tol Htol n (xf_pt TL zero3) (xf_pt TR zero3)) as (o & E & Ho).
    { by apply prim3_total. } { by apply prim3_total. }
    exists o. split; [done|]. split; [done|]. intros ct ->.
    by eapply (C57_contact_good A B supL supR SA SB CA CB eps tenth Heps Htenth tol Htol).
  Qed.
  (** Two flat-sided primitives: the penetration depth up to the tolerance, provided the
      product of the numbers of corners is below the iteration limit (100 in the crate, so
      e.g. any two cuboids). *)
  Theorem C57_flat_primitives n vs ws ct :
    prim3_corners p = Some vs -> prim3_corners q = Some ws -> (length vs * length ws < n)%nat ->
    contact n = Ok (Some ct) -> good_contact3 A B ct /\ tight_contact3 A B tol ct.
  Proof.
    intros Hv Hw Hl Ec. split; [by eapply (C57_contact_good A B supL supR SA SB CA CB eps tenth Heps Htenth tol Htol)|].
    eapply (C57_polyhedron_contact_tight A B supL supR SA SB CA CB eps tenth Heps Htenth tol Htol n _ _ ct); [by apply prim3_vertices|by apply prim3_vertices| |exact Ec].
    by rewrite !fmap_length.
  Qed.
  (** A particle against anything: the reported point is the point of the shape to which the
      contact pushes the particle. *)
  Theorem C57_particle n ct :
    q = Particle3 -> contact n = Ok (Some ct) ->
    A (c_point ct) /\ c_point ct = add3 (xf_pt TR zero3) (scale3 (c_normal ct) (c_depth ct)).
  Proof.
    intros Eq Ec. destruct (C57_point A B supL supR SA SB CA CB eps tenth Heps Htenth tol Htol n (xf_pt TL zero3) (xf_pt TR zero3) ct) as (Ha & y & Hy & Ey).
    - right. unfold B. rewrite Eq. intros x y (x' & -> & ->) (y' & -> & ->). done.
    - exact Ec.
    - split; [done|]. rewrite Ey. unfold B in Hy. rewrite Eq in Hy. by destruct Hy as (y' & -> & ->).
  Qed.
End space.

(** ** The hypotheses are met *)
(** The tetrahedron around the origin of C40 and a particle in it: there is a contact, good
    and tight, and its point is [depth] along the normal from the particle. *)
Example C57_hypotheses_met :
  exists ct, gjk3_intersection 0 (1 / 10) (fun d => prim3_support (ConvexPolyhedron tet1) d (move3 zero3)) (fun d => prim3_support Particle3 d (move3 zero3))
      (1 / 1000) FullResolution 100 (xf_pt (move3 zero3) zero3) (xf_pt (move3 zero3) zero3) = Ok (Some ct) /\
    good_contact3 (world (move3 zero3) (hull3 tet1)) (world (move3 zero3) (fun x => x = zero3)) ct /\
    tight_contact3 (world (move3 zero3) (hull3 tet1)) (world (move3 zero3) (fun x => x = zero3)) (1 / 1000) ct /\
    world (move3 zero3) (hull3 tet1) (c_point ct) /\ c_depth ct <= 1.
Proof.
  destruct C40_hypotheses_met as (Hp & Hq & Hm & s & Es).
  assert (T1 : 0 < 1 / 10) by lra. assert (T2 : 0 < 1 / 1000) by lra.
  destruct (C57_primitives (ConvexPolyhedron tet1) Particle3 (move3 zero3) (move3 zero3) Hp Hq Hm Hm 0 (1 / 10) (1 / 1000) (Rle_refl 0) T1 T2 100) as (o & Eo & Ho & Hg).
  destruct o as [ct|]; [|destruct Ho as [Ho _]; specialize (Ho eq_refl); congruence].
  exists ct. split; [exact Eo|].
  destruct (C57_flat_primitives (ConvexPolyhedron tet1) Particle3 (move3 zero3) (move3 zero3) Hp Hq Hm Hm 0 (1 / 10) (1 / 1000) (Rle_refl 0) T1 T2 100 tet1 [zero3] ct) as [G1 G2];
    [done|done|cbn; lia|exact Eo|].
  destruct (C57_particle (ConvexPolyhedron tet1) Particle3 (move3 zero3) (move3 zero3) Hp Hq Hm Hm 0 (1 / 10) (1 / 1000) (Rle_refl 0) T1 T2 100 ct eq_refl Eo) as [G3 _].
  split; [exact G1|]. split; [exact G2|]. split; [exact G3|]. destruct G1 as (_ & _ & _ & _ & Hle & _).
  transitivity (mag3 (mk3 0 0 (-1))); [|right; apply mag3_one; rv0; ring]. apply Hle. exists (mk3 0 0 (-1)). split; [intros E; assert (-1 = 0) by exact (f_equal vz E); lra|].
  intros x y (x' & Hx & ->) (y' & -> & ->). rewrite !move3_zero.
  assert (Hx' : dot3 (mk3 0 0 (-1)) x' <= 1).
  { eapply hull3_le; [exact Hx|]. apply tet1_case; rv0; lra. }
  clear -Hx'. rv0. lra.
Qed.

(** ** The contact point may lie outside the first shape *)
(** In f32, with the default tolerances.  Two tetrahedra; the first one's top face is the
    triangle (-4,-4), (4,-4), (0,8) of the plane y = 0 (in x and z), the second one's bottom
    face overlaps it 1 below.  The contact is right (depth 1, along y), but the two faces
    meet in a hexagon of the Minkowski difference that EPA has cut into triangles, the foot
    of the perpendicular is not in the triangle it looks at, and the reported point has
    z > 3 x + 9: all of the first shape has z <= 3 x + 8. *)
Local Instance num32t : Num f32 := Num_float 24 128.
Local Instance sgn32t : NumSgn f32 := NumSgn_float 24 128.
Definition ipt (x y z : Z) : V3 f32 := mk3 (F32 x 0) (F32 y 0) (F32 z 0).
Definition tet_low : list (V3 f32) := [ipt (-4) 0 (-4); ipt 4 0 (-4); ipt 0 0 8; ipt 0 (-20) 0].
Definition tet_high : list (V3 f32) := [ipt (-6) 0 1; ipt 5 0 (-4); ipt 3 0 5; ipt 0 20 0].
Local Open Scope num_scope.
Definition left_of (k : Z) (p : V3 f32) : bool := F32 3 0 * vx p + F32 k 0 <? vz p.
Theorem C57_point_outside_refuted :
  forallb (fun v => negb (left_of 8 v)) tet_low = true /\
  match gjk3_intersection (F32 1 (-23)) tenth32 (fun d => hull_support tet_low d (cube_at 0 0 0)) (fun d => hull_support tet_high d (cube_at 0 (-1) 1))
      (F32 1 (-16)) FullResolution 100 (xf_pt (cube_at 0 0 0) zero3) (xf_pt (cube_at 0 (-1) 1) zero3) with
  | Ok (Some ct) => left_of 9 (c_point ct) && (vx (c_normal ct) ==? F32 0 0) && (vz (c_normal ct) ==? F32 0 0) &&
      (vy (c_normal ct) ==? c_depth ct) && (F32 65535 (-16) <? c_depth ct) && (c_depth ct <? F32 65537 (-16))
  | _ => false
  end = true.
Proof. split; by vm_compute. Qed.
