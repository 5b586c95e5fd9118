(** C39: the GJK intersection test in the plane. *)
From Coq Require Import Psatz.
From stdpp Require Import prelude.
From Coq Require Import Reals Lra.
From Flocq Require Import IEEE754.BinarySingleNaN.
From Verif Require Import Res Num Vec AabbModel GeoModel RealGeo PrimModel ShapeSpec MinkModel MinkSpec Gjk2 PropsSupport.
Local Open Scope R_scope.

(** The hull of witnesses is witnessed by points of the (convex) shapes. *)
Lemma hull2_witness (A B : P2 -> Prop) (ss : list (SupPt P2)) v :
  convex2 A -> convex2 B -> Forall (witness2 A B) ss -> hull2 (sp_v <$> ss) v -> mdiff2 A B v.
Proof.
  intros HA HB Hss Hv. induction Hv as [v Hv|a b t _ IHa _ IHb Ht].
  - apply elem_of_list_fmap in Hv as (s & -> & Hs). rewrite Forall_forall in Hss. by apply witness2_mdiff, Hss.
  - destruct IHa as (xa & ya & Hxa & Hya & ->). destruct IHb as (xb & yb & Hxb & Hyb & ->).
    exists (add2 (scale2 xa (1 - t)) (scale2 xb t)), (add2 (scale2 ya (1 - t)) (scale2 yb t)).
    split; [by apply HA|]. split; [by apply HB|]. apply V2_eq; rv0; ring.
Qed.
Lemma mdiff2_zero (A B : P2 -> Prop) : mdiff2 A B zero2 -> exists x, A x /\ B x.
Proof.
  intros (x & y & Hx & Hy & E). exists x. split; [done|]. replace x with y; [done|].
  assert (E1 : 0 = ux x - ux y) by exact (f_equal ux E). assert (E2 : 0 = uy x - uy y) by exact (f_equal uy E).
  apply V2_eq; lra.
Qed.

Section c39.
  Context (A B : P2 -> Prop) (supL supR : P2 -> res P2) (HA : supports2 A supL) (HB : supports2 B supR).

  (** The test never panics on shapes with correct support functions. *)
  Theorem C39_no_panic eps n lpos rpos :
    0 <= eps -> exists o, gjk2_intersect eps supL supR n lpos rpos = Ok o.
  Proof.
    intros He. destruct (gjk2_sound eps He A B supL supR HA HB n lpos rpos) as (o & E & _).
    unfold gjk2_intersect. rewrite E. by eexists.
  Qed.

  (** A returned simplex is a triangle of differences of points of the two shapes, and
      encloses the origin - or, when the comparison tolerance [eps] is not zero, one of
      its edges has its line pass near the origin: distance times the edge length squared
      is at most [sqrt 2 * eps]. *)
  Theorem C39_hit_encloses_origin eps n lpos rpos s :
    0 <= eps -> gjk2_intersect eps supL supR n lpos rpos = Ok (Some s) ->
    exists c b a, s = [c; b; a] /\ witness2 A B c /\ witness2 A B b /\ witness2 A B a /\
      (hull2 [sp_v c; sp_v b; sp_v a] zero2 \/
       (0 < eps /\ sp_v c <> sp_v b /\
        Rabs (perp_dot (sp_v c) (sp_v b)) * mag2 (sub2 (sp_v b) (sp_v c)) <= sqrt 2 * eps)).
  Proof.
    intros He Es. destruct (gjk2_sound eps He A B supL supR HA HB n lpos rpos) as (o & E & Ho).
    unfold gjk2_intersect in Es. rewrite E in Es. destruct o as [s'| |]; [|done|done]. cbn in Es.
    injection Es as <-. destruct Ho as (c & b & a & -> & [Hc _] & [Hb _] & [Ha _] & Ho). exists c, b, a. done.
  Qed.

  (** Without a tolerance, a hit means that the (convex) shapes have a common point. *)
  Theorem C39_hit_means_overlap n lpos rpos s :
    convex2 A -> convex2 B -> gjk2_intersect 0 supL supR n lpos rpos = Ok (Some s) -> exists x, A x /\ B x.
  Proof.
    intros HcA HcB Es. destruct (C39_hit_encloses_origin 0 n lpos rpos s ltac:(lra) Es)
      as (c & b & a & _ & Hc & Hb & Ha & [Hh|[? _]]); [|lra].
    apply mdiff2_zero. apply (hull2_witness A B [c; b; a]); try done. rewrite !Forall_cons. done.
  Qed.

  (** No hit: a line separates the shapes (so they have no interior point in common), or
      the iterations ran out. *)
  Theorem C39_none_means_separated eps n lpos rpos :
    0 <= eps -> gjk2_intersect eps supL supR n lpos rpos = Ok None ->
    separated2 A B \/ gjk2_run eps supL supR n lpos rpos = Ok Exhausted.
  Proof.
    intros He Es. destruct (gjk2_sound eps He A B supL supR HA HB n lpos rpos) as (o & E & Ho).
    unfold gjk2_intersect in Es. rewrite E in Es. destruct o as [s'| |]; [done| |]; [by left|by right].
  Qed.

  (** They cannot run out on polygons: each iteration discards a vertex. *)
  Theorem C39_polygons_never_exhausted eps n lpos rpos vL vR :
    0 <= eps -> vertices2 A supL vL -> vertices2 B supR vR -> (length vL * length vR + 2 < n)%nat ->
    gjk2_run eps supL supR n lpos rpos <> Ok Exhausted.
  Proof. intros He HvL HvR Hn. by apply (gjk2_terminates eps He A B supL supR HA HB vL vR HvL HvR). Qed.

  (** So on polygons the test decides: an answer [None] means separated shapes, and
      shapes that share interior points give a hit. *)
  Theorem C39_polygons_none_iff_separated eps n lpos rpos vL vR :
    0 <= eps -> vertices2 A supL vL -> vertices2 B supR vR -> (length vL * length vR + 2 < n)%nat ->
    gjk2_intersect eps supL supR n lpos rpos = Ok None -> separated2 A B.
  Proof.
    intros He HvL HvR Hn Es. destruct (C39_none_means_separated eps n lpos rpos He Es) as [|E]; [done|].
    exfalso. by eapply C39_polygons_never_exhausted.
  Qed.
  Theorem C39_polygons_overlap_detected eps n lpos rpos vL vR p r :
    0 <= eps -> vertices2 A supL vL -> vertices2 B supR vR -> (length vL * length vR + 2 < n)%nat ->
    0 < r -> (forall x, dist2 p x <= r -> A x /\ B x) ->
    exists s, gjk2_intersect eps supL supR n lpos rpos = Ok (Some s).
  Proof.
    intros He HvL HvR Hn Hr Hball. destruct (C39_no_panic eps n lpos rpos He) as ([s|] & E); [by exists s|].
    exfalso. destruct (C39_polygons_none_iff_separated eps n lpos rpos vL vR He HvL HvR Hn E) as (d & Hd & Hsep).
    pose proof (mag2_pos d Hd) as Hm.
    set (k := r / mag2 d). assert (Hk : 0 < k) by (unfold k; apply Rdiv_lt_0_compat; lra).
    assert (Hq : dist2 p (add2 p (scale2 d k)) <= r).
    { replace (dist2 p (add2 p (scale2 d k))) with (mag2 (scale2 d k)).
      2:{ unfold dist2, mag2. f_equal. unfold dist2_2, mag2_2. f_equal; apply V2_eq; rv0; ring. }
      rewrite mag2_scale, Rabs_pos_eq by lra. unfold k. apply Req_le. field. lra. }
    assert (Hp : dist2 p p <= r).
    { replace (dist2 p p) with 0; [lra|]. unfold dist2. cbn [nsqrt Num_R]. replace (dist2_2 p p) with 0 by (rv0; ring). by rewrite sqrt_0. }
    specialize (Hsep _ p (proj1 (Hball _ Hq)) (proj2 (Hball _ Hp))).
    assert (dot2 d (add2 p (scale2 d k)) = dot2 d p + k * dot2 d d) by (clear; clearbody k; rv0; ring).
    apply vec2_ne in Hd. nra.
  Qed.
End c39.

(** ** Rectangles and small polygons with the default 100 iterations *)
Lemma similar2_mix (T : Xf P2) x y t :
  similar2 T -> xf_pt T (add2 (scale2 x (1 - t)) (scale2 y t)) = add2 (scale2 (xf_pt T x) (1 - t)) (scale2 (xf_pt T y) t).
Proof.
  intros (k & Hk & HT).
  assert (Hd : forall d, dot2 d (xf_pt T (add2 (scale2 x (1 - t)) (scale2 y t))) =
    dot2 d (add2 (scale2 (xf_pt T x) (1 - t)) (scale2 (xf_pt T y) t))).
  { intros d. destruct (HT d) as (d' & _ & _ & HTd).
    pose proof (HTd (add2 (scale2 x (1 - t)) (scale2 y t)) y) as E1. pose proof (HTd x y) as E2.
    rewrite dot2_sub_r in E1, E2.
    replace (dot2 d' (sub2 (add2 (scale2 x (1 - t)) (scale2 y t)) y)) with ((1 - t) * dot2 d' (sub2 x y)) in E1
      by (clear; rv0; ring).
    replace (dot2 d (add2 (scale2 (xf_pt T x) (1 - t)) (scale2 (xf_pt T y) t)))
      with ((1 - t) * (dot2 d (xf_pt T x) - dot2 d (xf_pt T y)) + dot2 d (xf_pt T y)) by (clear; rv0; ring).
    rewrite E2. lra. }
  apply V2_eq; [specialize (Hd (mk2 1 0))|specialize (Hd (mk2 0 1))]; revert Hd;
    generalize (xf_pt T (add2 (scale2 x (1 - t)) (scale2 y t))), (add2 (scale2 (xf_pt T x) (1 - t)) (scale2 (xf_pt T y) t));
    intros; rv0; lra.
Qed.
Lemma world_convex2 (T : Xf P2) A : similar2 T -> convex2 A -> convex2 (world T A).
Proof.
  intros HT HA x y t (x' & Hx & ->) (y' & Hy & ->) Ht. rewrite <- similar2_mix by done. eexists. split; [|done]. by apply HA.
Qed.
Lemma rect_convex dim : convex2 (rect_set dim).
Proof. intros x y t [Hx1 Hy1] [Hx2 Hy2] Ht. unfold rect_set. rv0. split; split; nra. Qed.
Lemma hull2_convex vs : convex2 (hull2 vs).
Proof. intros x y t Hx Hy Ht. by apply hull2_mix. Qed.
Lemma get_max2_vertex vs (T : Xf P2) d s :
  vs <> [] -> get_max_point dot2 zero2 vs d T = Ok s -> s ∈ xf_pt T <$> vs.
Proof.
  intros Hne. unfold get_max_point. destruct (xf_ivec T d) as [d'|]; [|done]. intros [= <-].
  apply elem_of_list_fmap. eexists. split; [done|]. exact (proj1 (max_point_spec (fun v => dot2 v d') zero2 vs Hne)).
Qed.

Lemma rect_vertices dim T : 0 <= ux dim -> 0 <= uy dim -> similar2 T ->
  vertices2 (world T (rect_set dim)) (fun d => rect_support dim d T) (xf_pt T <$> rect_corners (quad_half dim)).
Proof.
  intros Hx Hy HT. split.
  - intros v (x & -> & Hv)%elem_of_list_fmap. exists x. split; [|done].
    unfold rect_corners, quad_half, two in Hv. rv0. unfold rect_set.
    repeat (apply elem_of_cons in Hv as [-> |Hv]; [rs; lra|]). by apply elem_of_nil in Hv.
  - intros d s _. by apply get_max2_vertex.
Qed.
Definition polygon2 (vs : list P2) : Prop := vs <> [] /\ (length vs < 10)%nat.
Lemma polygon_vertices vs T : polygon2 vs -> similar2 T ->
  vertices2 (world T (hull2 vs)) (fun d => polygon_support vs d T) (xf_pt T <$> vs).
Proof.
  intros [Hne Hl] HT. split.
  - intros v (x & -> & Hx)%elem_of_list_fmap. exists x. split; [by apply hull2_vertex|done].
  - intros d s _. unfold polygon_support. rewrite (proj2 (Nat.ltb_lt _ _)) by done. by apply get_max2_vertex.
Qed.
Theorem C39_small_polygons (vs ws : list P2) (TL TR : Xf P2) eps :
  polygon2 vs -> polygon2 ws -> similar2 TL -> similar2 TR -> 0 <= eps ->
  let A := world TL (hull2 vs) in let B := world TR (hull2 ws) in
  exists o, gjk2_intersect eps (fun d => polygon_support vs d TL) (fun d => polygon_support ws d TR) 100
      (xf_pt TL zero2) (xf_pt TR zero2) = Ok o /\
    (o = None -> separated2 A B) /\ (o <> None -> eps = 0 -> exists x, A x /\ B x).
Proof.
  intros [Hne1 Hl1] [Hne2 Hl2] HTL HTR He A B.
  assert (SA : supports2 A (fun d => polygon_support vs d TL)) by (intros d _; by apply C38_small_polygon).
  assert (SB : supports2 B (fun d => polygon_support ws d TR)) by (intros d _; by apply C38_small_polygon).
  pose proof (polygon_vertices vs TL (conj Hne1 Hl1) HTL) as VA. pose proof (polygon_vertices ws TR (conj Hne2 Hl2) HTR) as VB.
  destruct (C39_no_panic A B _ _ SA SB eps 100 (xf_pt TL zero2) (xf_pt TR zero2) He) as [o Eo].
  exists o. split; [done|]. split.
  - intros ->. refine (C39_polygons_none_iff_separated A B _ _ SA SB eps 100 _ _ _ _ He VA VB _ Eo).
    rewrite !fmap_length. nia.
  - intros Hn ->. destruct o as [s|]; [|done]. eapply (C39_hit_means_overlap A B _ _ SA SB); [| |exact Eo]; apply world_convex2; try done; apply hull2_convex.
Qed.
Theorem C39_rectangles (dl dr : P2) (TL TR : Xf P2) eps :
  0 <= ux dl -> 0 <= uy dl -> 0 <= ux dr -> 0 <= uy dr -> similar2 TL -> similar2 TR -> 0 <= eps ->
  let A := world TL (rect_set dl) in let B := world TR (rect_set dr) in
  exists o, gjk2_intersect eps (fun d => rect_support dl d TL) (fun d => rect_support dr d TR) 100
      (xf_pt TL zero2) (xf_pt TR zero2) = Ok o /\
    (o = None -> separated2 A B) /\ (o <> None -> eps = 0 -> exists x, A x /\ B x).
Proof.
  intros H1 H2 H3 H4 HTL HTR He A B.
  assert (SA : supports2 A (fun d => rect_support dl d TL)) by (intros d _; by apply C38_rectangle).
  assert (SB : supports2 B (fun d => rect_support dr d TR)) by (intros d _; by apply C38_rectangle).
  pose proof (rect_vertices dl TL H1 H2 HTL) as VA. pose proof (rect_vertices dr TR H3 H4 HTR) as VB.
  destruct (C39_no_panic A B _ _ SA SB eps 100 (xf_pt TL zero2) (xf_pt TR zero2) He) as [o Eo].
  exists o. split; [done|]. split.
  - intros ->. refine (C39_polygons_none_iff_separated A B _ _ SA SB eps 100 _ _ _ _ He VA VB _ Eo). cbn. lia.
  - intros Hn ->. destruct o as [s|]; [|done]. eapply (C39_hit_means_overlap A B _ _ SA SB); [| |exact Eo]; apply world_convex2; try done; apply rect_convex.
Qed.

(** The hypotheses are met, both ways. *)
Definition square_at (x : R) : Xf P2 := decomposed2 0 1 (mkM2 (mk2 1 0) (mk2 0 1)) (mk2 x 0).
Lemma square_at_similar x : similar2 (square_at x).
Proof. apply C38_decomposed2; [lra|rewrite Rabs_pos_eq; lra|]. unfold orthonormal. cbn [m2_x m2_y]. rv0. lra. Qed.
Example C39_hypotheses_met :
  (exists s, gjk2_intersect 0 (fun d => rect_support (mk2 2 2) d (square_at 0)) (fun d => rect_support (mk2 2 2) d (square_at 1)) 100
     (xf_pt (square_at 0) zero2) (xf_pt (square_at 1) zero2) = Ok (Some s)) /\
  gjk2_intersect 0 (fun d => rect_support (mk2 2 2) d (square_at 0)) (fun d => rect_support (mk2 2 2) d (square_at 3)) 100
     (xf_pt (square_at 0) zero2) (xf_pt (square_at 3) zero2) = Ok None.
Proof.
  assert (Hpt : forall x p, xf_pt (square_at x) p = mk2 (ux p + x) (uy p)).
  { intros x p. unfold square_at, decomposed2, m2_mul. cbn [xf_pt m2_x m2_y]. apply V2_eq; rv0; ring. }
  assert (Hset : forall x p, world (square_at x) (rect_set (mk2 2 2)) p <-> x - 1 <= ux p <= x + 1 /\ -1 <= uy p <= 1).
  { intros x p. split.
    - intros (q & [Hq1 Hq2] & ->). rewrite Hpt. rs. lra.
    - intros [H1 H2]. exists (mk2 (ux p - x) (uy p)). split; [split; rs; lra|]. rewrite Hpt. apply V2_eq; rs; ring. }
  split.
  - destruct (C39_rectangles (mk2 2 2) (mk2 2 2) (square_at 0) (square_at 1) 0) as ([s|] & E & Hn & _);
      try (cbn [ux uy]; lra); try apply square_at_similar; [by exists s|].
    exfalso. destruct (Hn eq_refl) as (d & Hd & Hs). clear E Hn. apply vec2_ne in Hd.
    assert (Hx : forall u v : P2, (0 <= ux u <= 1 /\ -1 <= uy u <= 1) -> (0 <= ux v <= 1 /\ -1 <= uy v <= 1) -> dot2 d u <= dot2 d v).
    { intros u v Hu Hv. apply Hs; apply Hset; lra. }
    pose proof (Hx (mk2 1 1) (mk2 0 1) ltac:(rs; lra) ltac:(rs; lra)). pose proof (Hx (mk2 0 1) (mk2 1 1) ltac:(rs; lra) ltac:(rs; lra)).
    pose proof (Hx (mk2 1 1) (mk2 1 0) ltac:(rs; lra) ltac:(rs; lra)). pose proof (Hx (mk2 1 0) (mk2 1 1) ltac:(rs; lra) ltac:(rs; lra)).
    clear -H H0 H1 H2 Hd. rv0. nra.
  - destruct (C39_rectangles (mk2 2 2) (mk2 2 2) (square_at 0) (square_at 3) 0) as ([s|] & E & _ & Hh);
      try (cbn [ux uy]; lra); try apply square_at_similar; [|done].
    destruct (Hh ltac:(done) eq_refl) as (x & Hx1 & Hx2). apply Hset in Hx1, Hx2. lra.
Qed.

(** ** The tolerance makes the test report separated shapes *)
(** Two rectangles of 10 by 1 units, unit 2^-13, the left one at (9, -2), the right one at
    the origin; all numbers exact in f32.  The left one ends at y = -1.5 units, the right
    one starts at y = -0.5 units, yet the f32 test with the default tolerance f32::EPSILON
    and 100 iterations reports a hit. *)
Local Instance num32g : Num f32 := Num_float 24 128.
Local Instance sgn32g : NumSgn f32 := NumSgn_float 24 128.
Definition unit32 (m : Z) : f32 := F32 m (-13).
Definition rect_at (x y : Z) : Xf (V2 f32) :=
  decomposed2 (F32 1 (-23)) (F32 1 0) (mkM2 (mk2 (F32 1 0) (F32 0 0)) (mk2 (F32 0 0) (F32 1 0))) (mk2 (unit32 x) (unit32 y)).
Definition rect32 : V2 f32 := mk2 (unit32 10) (unit32 1).
Theorem C39_tolerance_reports_separated_refuted :
  match gjk2_intersect (F32 1 (-23)) (fun d => rect_support rect32 d (rect_at 9 (-2))) (fun d => rect_support rect32 d (rect_at 0 0))
      100 (xf_pt (rect_at 9 (-2)) zero2) (xf_pt (rect_at 0 0) zero2) with
  | Ok (Some _) => true | _ => false end = true /\
  forallb (fun l => forallb (fun r => nlt (uy (xf_pt (rect_at 9 (-2)) l)) (uy (xf_pt (rect_at 0 0) r)))
    (rect_corners (quad_half rect32))) (rect_corners (quad_half rect32)) = true.
Proof. split; by vm_compute. Qed.
