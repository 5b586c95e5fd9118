(** C40: the GJK intersection test in space. *)
From Coq Require Import Psatz.
From stdpp Require Import prelude.
From Coq Require Import Reals Lra.
From Flocq Require Import IEEE754.BinarySingleNaN.
From Verif Require Import Res Num Vec AabbModel GeoModel RealGeo PrimModel ShapeSpec MinkModel MinkSpec Gjk3 PropsSupport.
Local Open Scope R_scope.

Lemma hull3_witness (A B : P3 -> Prop) (ss : list (SupPt P3)) v :
  convex3 A -> convex3 B -> Forall (witness3 A B) ss -> hull3 (sp_v <$> ss) v -> mdiff3 A B v.
Proof.
  intros HA HB Hss Hv. induction Hv as [v Hv|a b t _ IHa _ IHb Ht].
  - apply elem_of_list_fmap in Hv as (s & -> & Hs). rewrite Forall_forall in Hss. by apply witness3_mdiff, Hss.
  - destruct IHa as (xa & ya & Hxa & Hya & ->). destruct IHb as (xb & yb & Hxb & Hyb & ->).
    exists (add3 (scale3 xa (1 - t)) (scale3 xb t)), (add3 (scale3 ya (1 - t)) (scale3 yb t)).
    split; [by apply HA|]. split; [by apply HB|]. apply V3_eq; rv0; ring.
Qed.
Lemma mdiff3_zero (A B : P3 -> Prop) : mdiff3 A B zero3 -> exists x, A x /\ B x.
Proof.
  intros (x & y & Hx & Hy & E). exists x. split; [done|]. replace x with y; [done|].
  assert (E1 : 0 = vx x - vx y) by exact (f_equal vx E). assert (E2 : 0 = vy x - vy y) by exact (f_equal vy E).
  assert (E3 : 0 = vz x - vz y) by exact (f_equal vz E). apply V3_eq; lra.
Qed.

Section c40.
  Context (A B : P3 -> Prop) (supL supR : P3 -> res P3) (HA : supports3 A supL) (HB : supports3 B supR)
    (eps tenth : R) (Heps : 0 <= eps) (Htenth : 0 < tenth).

  (** A returned simplex is a proper tetrahedron of differences of points of the two
      shapes, and encloses the origin, whatever the tolerance. *)
  Theorem C40_hit_encloses_origin n lpos rpos s :
    gjk3_intersect eps tenth supL supR n lpos rpos = Ok (Some s) ->
    exists d c b a, s = [d; c; b; a] /\ witness3 A B d /\ witness3 A B c /\ witness3 A B b /\ witness3 A B a /\
      hull3 [sp_v d; sp_v c; sp_v b; sp_v a] zero3 /\
      dot3 (cross3 (sub3 (sp_v b) (sp_v a)) (sub3 (sp_v c) (sp_v a))) (sub3 (sp_v d) (sp_v a)) < 0.
  Proof.
    unfold gjk3_intersect. destruct (gjk3_run _ _ _ _ _ _ _) as [o| |] eqn:E; [|done|done].
    pose proof (gjk3_sound eps tenth Heps Htenth A B supL supR HA HB n lpos rpos o E) as Ho.
    destruct o as [s'| |]; [|done|done]. cbn. intros [= <-]. exact Ho.
  Qed.
  (** So a hit means that the (convex) shapes have a common point. *)
  Theorem C40_hit_means_overlap n lpos rpos s :
    convex3 A -> convex3 B -> gjk3_intersect eps tenth supL supR n lpos rpos = Ok (Some s) -> exists x, A x /\ B x.
  Proof.
    intros HcA HcB Es. destruct (C40_hit_encloses_origin n lpos rpos s Es) as (d & c & b & a & _ & Hd & Hc & Hb & Ha & Hh & _).
    apply mdiff3_zero. apply (hull3_witness A B [d; c; b; a]); try done. by rewrite !Forall_cons.
  Qed.
  (** No hit: a plane separates the shapes; or three support points found lie on one line
      that passes within the tolerance of the origin; or the iterations ran out. *)
  Theorem C40_none_means_separated n lpos rpos :
    gjk3_intersect eps tenth supL supR n lpos rpos = Ok None ->
    separated3 A B \/
    (exists p q r, mdiff3 A B p /\ mdiff3 A B q /\ mdiff3 A B r /\ p <> q /\
       mag3 (cross3 p q) * mag3 (sub3 q p) <= sqrt 3 * eps /\ cross3 (sub3 q r) (sub3 p r) = zero3) \/
    gjk3_run eps tenth supL supR n lpos rpos = Ok Exhausted.
  Proof.
    unfold gjk3_intersect. destruct (gjk3_run _ _ _ _ _ _ _) as [o| |] eqn:E; [|done|done].
    pose proof (gjk3_sound eps tenth Heps Htenth A B supL supR HA HB n lpos rpos o E) as Ho.
    destruct o as [s'| |]; [done| |]; intros _; [|by right; right].
    destruct Ho as [Ho|(p & q & r & ? & ? & ? & [? ?] & ?)]; [by left|]. right. left. exists p, q, r. done.
  Qed.
  (** The test does not panic, provided the support functions answer the zero direction
      too. *)
  Theorem C40_no_panic n lpos rpos :
    (exists s, supL zero3 = Ok s) -> (exists s, supR (neg3 zero3) = Ok s) ->
    exists o, gjk3_intersect eps tenth supL supR n lpos rpos = Ok o.
  Proof.
    intros [zl EL] [zr ER].
    assert (Hz : forall d, exists p, mink sub3 neg3 supL supR d = Ok p).
    { intros d. destruct (Rlt_dec 0 (dot3 d d)) as [Hd|Hd].
      - apply vec3_ne in Hd. destruct (mink3_spec A B supL supR HA HB d Hd) as (s & Es & _). by exists s.
      - assert (d = zero3) as -> by (apply V3_eq; rv0; nra). unfold mink. rewrite EL. cbn. rewrite ER. cbn. by eexists. }
    assert (Hl : forall n s d, exists o, gjk_loop sub3 neg3 dot3 supL supR (reduce3 eps tenth) n s d = Ok o).
    { clear n. intros n. induction n as [|n IH]; intros s d; [by exists Exhausted|]. cbn [gjk_loop].
      destruct (Hz d) as [p ->]. cbn [mbind res_mbind res_bind]. destruct (nle _ _); [by exists Separated|].
      destruct (reduce3 _ _ _ _) as [[s' d'] inside]. destruct inside; [by eexists|]. apply IH. }
    unfold gjk3_intersect, gjk3_run, gjk_run. cbv zeta.
    destruct (Hz (first_dir (splat3 n1) sub3 (near0_3 eps) lpos rpos)) as [p ->]. cbn [mbind res_mbind res_bind].
    destruct (nle _ _); [by eexists|]. destruct (Hl n [p] (neg3 (first_dir (splat3 n1) sub3 (near0_3 eps) lpos rpos))) as [o ->].
    by eexists.
  Qed.
End c40.

(** ** Overlapping shapes that are missed *)
(** Two equal cubes of side 2, the second displaced by 1 along the x axis, in f32 with the
    default settings: they share the box 0 <= x <= 1, -1 <= y, z <= 1, but the first
    support points are collinear with the origin, the search direction vanishes and the
    answer is "no collision".  Displaced along the y axis instead, the test reports it. *)
Local Instance num32k : Num f32 := Num_float 24 128.
Local Instance sgn32k : NumSgn f32 := NumSgn_float 24 128.
Definition cube_at (x y z : Z) : Xf (V3 f32) :=
  decomposed3 (F32 1 (-23)) (F32 1 0) (mkQuat (F32 1 0) (mk3 (F32 0 0) (F32 0 0) (F32 0 0))) (mk3 (F32 x 0) (F32 y 0) (F32 z 0)).
Definition cube32 : V3 f32 := mk3 (F32 2 0) (F32 2 0) (F32 2 0).
(** The f32 closest to 0.1. *)
Definition tenth32 : f32 := F32 13421773 (-27).
Definition cubes_hit (x y z : Z) : option bool :=
  match gjk3_intersect (F32 1 (-23)) tenth32 (fun d => cuboid_support cube32 d (cube_at 0 0 0))
    (fun d => cuboid_support cube32 d (cube_at x y z)) 100 (xf_pt (cube_at 0 0 0) zero3) (xf_pt (cube_at x y z) zero3) with
  | Ok (Some _) => Some true | Ok None => Some false | _ => None end.
Theorem C40_overlapping_cubes_missed_refuted :
  cubes_hit 1 0 0 = Some false /\ cubes_hit 0 1 0 = Some true.
Proof. split; by vm_compute. Qed.
