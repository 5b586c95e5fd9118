(** C62: broad phase over the bounds of moved primitives, then GJK on the candidates. *)
From Coq Require Import Psatz.
From stdpp Require Import prelude gmap fin_maps fin_sets sorting.
From Coq Require Import Reals Lra.
From Verif Require Import Res DbvtModel DbvtSpec PropsDbvt DbvtVisitors BroadModel PropsBroad.
From Verif Require Import Num Vec AabbModel PropsAabb AabbTree PropsAabbTree PropsAabbReal GeoModel RealGeo PrimModel ShapeSpec PropsSupport MinkModel MinkSpec
  PropsGjk2 PropsGjk3 PrimEnum PropsNarrow PropsBound PropsDist PropsSphereTree.
Local Open Scope R_scope.

(** * The specification *)
(** A body: a primitive and where it is; the points it covers. *)
Definition body2 : Type := Primitive2 R * Xf P2.
Definition body3 : Type := Primitive3 R * Xf P3.
Definition points2 (b : body2) : P2 -> Prop := world b.2 (prim2_set b.1).
Definition points3 (b : body3) : P3 -> Prop := world b.2 (prim3_set b.1).
Definition body2_ok (b : body2) : Prop := prim2_ok b.1 /\ similar2 b.2.
Definition body3_ok (b : body3) : Prop := prim3_ok b.1 /\ similar3 b.2.
(** Two sets share a disc (a ball) of some size; they share a point. *)
Definition penetrate2 (A B : P2 -> Prop) : Prop := exists p r, 0 < r /\ forall x, dist2 p x <= r -> A x /\ B x.
Definition penetrate3 (A B : P3 -> Prop) : Prop := exists p r, 0 < r /\ forall x, dist3 p x <= r -> A x /\ B x.
Definition meet {P} (A B : P -> Prop) : Prop := exists x, A x /\ B x.
(** No circle involved. *)
Definition polygonal (b : body2) : Prop := match b.1 with Circle _ => False | _ => True end.

(** * The calls of a user *)
(** The bound of a body: [primitive.compute_bound().transform_volume(&transform)]. *)
Definition box_of2 (b : body2) : Aabb2 R := transform2 (prim2_bound b.1) (xf_pt b.2).
Definition box_of3 (b : body3) : Aabb3 R := transform3 (prim3_bound b.1) (xf_pt b.2).
(** [gjk.intersect(left, left_transform, right, right_transform)], 100 iterations. *)
Definition gjk_hit2 (a b : body2) : Prop :=
  exists s, gjk2_intersect 0 (fun d => prim2_support a.1 d a.2) (fun d => prim2_support b.1 d b.2) 100 (xf_pt a.2 zero2) (xf_pt b.2 zero2) = Ok (Some s).
Definition gjk_hit3 (eps tenth : R) (a b : body3) : Prop :=
  exists s, gjk3_intersect eps tenth (fun d => prim3_support a.1 d a.2) (fun d => prim3_support b.1 d b.2) 100 (xf_pt a.2 zero3) (xf_pt b.2 zero3) = Ok (Some s).

(** What the two phases together must achieve on the pairs of a list of bodies. *)
Definition detects2 (bodies : list body2) (pairs : list (nat * nat)) : Prop :=
  forall i j a b, (i < j)%nat -> bodies !! i = Some a -> bodies !! j = Some b ->
    (penetrate2 (points2 a) (points2 b) -> (i, j) ∈ pairs /\ (polygonal a -> polygonal b -> gjk_hit2 a b))
    /\ ((i, j) ∈ pairs -> gjk_hit2 a b -> meet (points2 a) (points2 b)).
Definition detects3 eps tenth (bodies : list body3) (pairs : list (nat * nat)) : Prop :=
  forall i j a b, (i < j)%nat -> bodies !! i = Some a -> bodies !! j = Some b ->
    (penetrate3 (points3 a) (points3 b) -> (i, j) ∈ pairs)
    /\ ((i, j) ∈ pairs -> gjk_hit3 eps tenth a b -> meet (points3 a) (points3 b)).

(** * Proofs *)
Lemma similar2_affine (T : Xf P2) : similar2 T -> PropsAabbReal.affine2 (xf_pt T).
Proof.
  intros (k & _ & HT). destruct (HT (mk2 1 0)) as (d1 & _ & _ & H1). destruct (HT (mk2 0 1)) as (d2 & _ & _ & H2).
  exists (k * ux d1), (k * uy d1), (ux (xf_pt T zero2)), (k * ux d2), (k * uy d2), (uy (xf_pt T zero2)). intros p.
  specialize (H1 p zero2). specialize (H2 p zero2). revert H1 H2. generalize (xf_pt T zero2) as o, (xf_pt T p) as q. intros. apply V2_eq; rv0; lra.
Qed.
Lemma similar3_affine (T : Xf P3) : similar3 T -> PropsAabbReal.affine3 (xf_pt T).
Proof.
  intros (k & _ & HT). destruct (HT (mk3 1 0 0)) as (d1 & _ & _ & H1). destruct (HT (mk3 0 1 0)) as (d2 & _ & _ & H2). destruct (HT (mk3 0 0 1)) as (d3 & _ & _ & H3).
  exists (k * vx d1), (k * vy d1), (k * vz d1), (vx (xf_pt T zero3)), (k * vx d2), (k * vy d2), (k * vz d2), (vy (xf_pt T zero3)),
    (k * vx d3), (k * vy d3), (k * vz d3), (vz (xf_pt T zero3)). intros p.
  specialize (H1 p zero3). specialize (H2 p zero3). specialize (H3 p zero3). revert H1 H2 H3. generalize (xf_pt T zero3) as o, (xf_pt T p) as q. intros. apply V3_eq; rv0; lra.
Qed.
Lemma body2_in b x : body2_ok b -> points2 b x -> in2 (box_of2 b) x.
Proof. intros [H1 H2] Hx. exact (C45_transformed_bound2 b.1 b.2 x H1 (similar2_affine b.2 H2) Hx). Qed.
Lemma body3_in b x : body3_ok b -> points3 b x -> in3 (box_of3 b) x.
Proof. intros [H1 H2] Hx. exact (C45_transformed_bound3 b.1 b.2 x H1 (similar3_affine b.2 H2) Hx). Qed.
(** Boxes around sets that penetrate each other intersect (strictly). *)
Lemma boxes_meet2 (A B : P2 -> Prop) (a b : Aabb2 R) : (forall x, A x -> in2 a x) -> (forall x, B x -> in2 b x) -> penetrate2 A B -> intersects2 a b = true.
Proof.
  intros HA HB (p & r & Hr & Hp).
  assert (K : forall dx dy, dx * dx + dy * dy = r * r -> dist2 p (mk2 (ux p + dx) (uy p + dy)) <= r).
  { intros dx dy E. apply Req_le. transitivity (sqrt (r * r)); [|apply sqrt_square; lra]. unfold dist2. apply (f_equal sqrt). rewrite <- E. rv0. ring. }
  destruct (Hp _ (K r 0 ltac:(ring))) as [A1 B1]. destruct (Hp _ (K (- r) 0 ltac:(ring))) as [A2 B2].
  destruct (Hp _ (K 0 r ltac:(ring))) as [A3 B3]. destruct (Hp _ (K 0 (- r) ltac:(ring))) as [A4 B4].
  apply HA, PropsBound.in2_R in A1, A2, A3, A4. apply HB, PropsBound.in2_R in B1, B2, B3, B4. cbn [ux uy] in *.
  unfold intersects2. rs. rewrite !andb_true_iff, !Rltb_true. lra.
Qed.
Lemma boxes_meet3 (A B : P3 -> Prop) (a b : Aabb3 R) : (forall x, A x -> in3 a x) -> (forall x, B x -> in3 b x) -> penetrate3 A B -> intersects3 a b = true.
Proof.
  intros HA HB (p & r & Hr & Hp).
  assert (K : forall dx dy dz, dx * dx + dy * dy + dz * dz = r * r -> dist3 p (mk3 (vx p + dx) (vy p + dy) (vz p + dz)) <= r).
  { intros dx dy dz E. apply Req_le. transitivity (sqrt (r * r)); [|apply sqrt_square; lra]. unfold dist3. apply (f_equal sqrt). rewrite <- E. rv0. ring. }
  destruct (Hp _ (K r 0 0 ltac:(ring))) as [A1 B1]. destruct (Hp _ (K (- r) 0 0 ltac:(ring))) as [A2 B2].
  destruct (Hp _ (K 0 r 0 ltac:(ring))) as [A3 B3]. destruct (Hp _ (K 0 (- r) 0 ltac:(ring))) as [A4 B4].
  destruct (Hp _ (K 0 0 r ltac:(ring))) as [A5 B5]. destruct (Hp _ (K 0 0 (- r) ltac:(ring))) as [A6 B6].
  apply HA, PropsBound.in3_R in A1, A2, A3, A4, A5, A6. apply HB, PropsBound.in3_R in B1, B2, B3, B4, B5, B6. cbn [vx vy vz] in *.
  unfold intersects3. rs. rewrite !andb_true_iff, !Rltb_true. lra.
Qed.
Lemma polygonal_vertices b : body2_ok b -> polygonal b ->
  exists vs, (length vs <= 9)%nat /\ vertices2 (points2 b) (fun d => prim2_support b.1 d b.2) vs.
Proof.
  destruct b as [p T]. intros [Hok HT] Hpol. cbn [fst snd] in *. unfold points2, polygonal in *. cbn [fst snd] in *. destruct p as [|l|r|dim|s|vs]; cbn [prim2_set prim2_support prim2_ok] in *.
  - exists [xf_pt T zero2]. split; [cbn; lia|]. split.
    + intros v [-> |[]%elem_of_nil]%elem_of_cons. by exists zero2.
    + intros d s _. unfold particle_support. intros [= <-]. by left.
  - exists [xf_pt T (l_origin l); xf_pt T (l_dest l)]. split; [cbn; lia|]. split.
    + intros v Hv. rewrite !elem_of_cons, elem_of_nil in Hv. destruct Hv as [-> | [-> | []]]; eexists; (split; [|done]); unfold seg_set.
      * exists 0. split; [lra|]. apply V2_eq; rv0; ring.
      * exists 1. split; [lra|]. apply V2_eq; rv0; ring.
    + intros d s _. unfold line_support. destruct (xf_ivec T d) as [d'|]; [|done]. intros [= <-]. destruct (_ : bool); [right; left|left].
  - done.
  - destruct Hok as [H1 H2]. eexists. split; [|exact (rect_vertices dim T H1 H2 HT)]. rewrite fmap_length. cbn. lia.
  - eexists. split; [|exact (rect_vertices (mk2 s s) T Hok Hok HT)]. rewrite fmap_length. cbn. lia.
  - eexists. split; [|exact (polygon_vertices vs T Hok HT)]. rewrite fmap_length. destruct Hok. lia.
Qed.
Lemma narrow2 a b : body2_ok a -> body2_ok b ->
  (penetrate2 (points2 a) (points2 b) -> polygonal a -> polygonal b -> gjk_hit2 a b) /\ (gjk_hit2 a b -> meet (points2 a) (points2 b)).
Proof.
  intros Ha Hb. pose proof Ha as [Ha1 Ha2]. pose proof Hb as [Hb1 Hb2]. split.
  - intros (p & r & Hr & Hp) Hpa Hpb. destruct (polygonal_vertices a Ha Hpa) as (vL & LL & VL). destruct (polygonal_vertices b Hb Hpb) as (vR & LR & VR).
    apply (C39_polygons_overlap_detected (points2 a) (points2 b) _ _ (prim2_supports a.1 a.2 Ha1 Ha2) (prim2_supports b.1 b.2 Hb1 Hb2) 0 100 _ _ vL vR p r); try done; try lra.
    nia.
  - intros [s Hs]. destruct (C39_primitives a.1 b.1 a.2 b.2 Ha1 Hb1 Ha2 Hb2 100) as (o & Eo & Ho & _). apply Ho. rewrite Hs in Eo. by injection Eo as <-.
Qed.
Lemma candidates_detect2 bodies pairs : Forall body2_ok bodies ->
  (forall i j, (i, j) ∈ pairs <-> colliding box_of2 intersects2 bodies i j) -> detects2 bodies pairs.
Proof.
  intros Hok Hc i j a b Hij Hi Hj. assert (Ha : body2_ok a) by (eapply Forall_lookup_1; eauto). assert (Hb : body2_ok b) by (eapply Forall_lookup_1; eauto).
  destruct (narrow2 a b Ha Hb) as [N1 N2]. split; [|auto]. intros Hp. split; [|auto]. apply Hc. split; [done|]. exists a, b. split; [done|]. split; [done|].
  eapply boxes_meet2; [..|exact Hp]; intros; by apply body2_in.
Qed.
Lemma candidates_detect3 eps tenth bodies pairs : 0 <= eps -> 0 < tenth -> Forall body3_ok bodies ->
  (forall i j, (i, j) ∈ pairs <-> colliding box_of3 intersects3 bodies i j) -> detects3 eps tenth bodies pairs.
Proof.
  intros He Ht Hok Hc i j a b Hij Hi Hj. assert (Ha : body3_ok a) by (eapply Forall_lookup_1; eauto). assert (Hb : body3_ok b) by (eapply Forall_lookup_1; eauto).
  destruct Ha as [Ha1 Ha2], Hb as [Hb1 Hb2]. split.
  - intros Hp. apply Hc. split; [done|]. exists a, b. split; [done|]. split; [done|]. eapply boxes_meet3; [..|exact Hp]; intros; by apply body3_in.
  - intros _ [s Hs]. destruct (C40_primitives a.1 b.1 a.2 b.2 Ha1 Hb1 Ha2 Hb2 eps tenth He Ht 100) as (o & Eo & Ho). apply Ho. rewrite Hs in Eo. by injection Eo as <-.
Qed.

(** ** Brute force *)
Theorem C62_brute_force2 bodies : Forall body2_ok bodies ->
  exists pairs, brute_force box_of2 intersects2 bodies = Ok pairs /\ detects2 bodies pairs.
Proof. intros Hok. destruct (C17_brute_force_exact box_of2 intersects2 bodies) as (ps & E & _ & Hc). exists ps. split; [done|by apply candidates_detect2]. Qed.
Theorem C62_brute_force3 eps tenth bodies : 0 <= eps -> 0 < tenth -> Forall body3_ok bodies ->
  exists pairs, brute_force box_of3 intersects3 bodies = Ok pairs /\ detects3 eps tenth bodies pairs.
Proof. intros He Ht Hok. destruct (C17_brute_force_exact box_of3 intersects3 bodies) as (ps & E & _ & Hc). exists ps. split; [done|by apply candidates_detect3]. Qed.

(** ** Sweep and prune: whatever the axis and the variance left by earlier runs; the pairs index the
    reordered list. *)
Lemma coords_len2 (p : P2) k : (k < 2)%nat -> exists x, coords2 p !! k = Some x.
Proof. intros. destruct k as [|[|]]; [..|lia]; eexists; reflexivity. Qed.
Lemma coords_len3 (p : P3) k : (k < 3)%nat -> exists x, coords3 p !! k = Some x.
Proof. intros. destruct k as [|[|[|]]]; [..|lia]; eexists; reflexivity. Qed.
Lemma ok_R (x : R) : ok x.
Proof. exact I. Qed.
Theorem C62_sweep_and_prune2 of_nat axis var bodies : (axis < 2)%nat -> Forall body2_ok bodies ->
  exists s' bodies' pairs,
    sap_find box_of2 intersects2 2 (fun b => coords2 (min2 b)) (fun b => coords2 (max2 b)) of_nat (Sap axis var) bodies = Ok (s', bodies', pairs)
    /\ bodies' ≡ₚ bodies /\ NoDup pairs /\ detects2 bodies' pairs.
Proof.
  intros Hax Hok.
  destruct (C18_sweep_and_prune_exact box_of2 intersects2 2 (fun b => coords2 (min2 b)) (fun b => coords2 (max2 b)) of_nat (Sap axis var) bodies)
    as (s' & shapes' & pairs & E & HP & _ & Hnd & Hc & _); [| |lia|].
  - apply Forall_forall. intros a _. unfold comparable. cbn [sweep_axis].
    destruct (coords_len2 (min2 (box_of2 a)) axis Hax) as [x Ex], (coords_len2 (max2 (box_of2 a)) axis Hax) as [y Ey]. exists x, y. split_and!; try done; apply ok_R.
  - intros a b hi lo. generalize (box_of2 a) as A, (box_of2 b) as B. intros A B. clear a b. unfold coords2, intersects2. cbn [sweep_axis]. rewrite !andb_true_iff. intros [[[H1 H2] H3] H4].
    destruct axis as [|[|]]; [..|lia]; cbn; intros [= <-] [= <-]; by apply lt_le.
  - exists s', shapes', pairs. split; [done|]. split; [done|]. split; [done|]. apply candidates_detect2; [by rewrite HP|done].
Qed.
Theorem C62_sweep_and_prune3 eps tenth of_nat axis var bodies : 0 <= eps -> 0 < tenth -> (axis < 3)%nat -> Forall body3_ok bodies ->
  exists s' bodies' pairs,
    sap_find box_of3 intersects3 3 (fun b => coords3 (min3 b)) (fun b => coords3 (max3 b)) of_nat (Sap axis var) bodies = Ok (s', bodies', pairs)
    /\ bodies' ≡ₚ bodies /\ NoDup pairs /\ detects3 eps tenth bodies' pairs.
Proof.
  intros He Ht Hax Hok.
  destruct (C18_sweep_and_prune_exact box_of3 intersects3 3 (fun b => coords3 (min3 b)) (fun b => coords3 (max3 b)) of_nat (Sap axis var) bodies)
    as (s' & shapes' & pairs & E & HP & _ & Hnd & Hc & _); [| |lia|].
  - apply Forall_forall. intros a _. unfold comparable. cbn [sweep_axis].
    destruct (coords_len3 (min3 (box_of3 a)) axis Hax) as [x Ex], (coords_len3 (max3 (box_of3 a)) axis Hax) as [y Ey]. exists x, y. split_and!; try done; apply ok_R.
  - intros a b hi lo. generalize (box_of3 a) as A, (box_of3 b) as B. intros A B. clear a b. unfold coords3, intersects3. cbn [sweep_axis]. rewrite !andb_true_iff. intros [[[[[H1 H2] H3] H4] H5] H6].
    destruct axis as [|[|[|]]]; [..|lia]; cbn; intros [= <-] [= <-]; by apply lt_le.
  - exists s', shapes', pairs. split; [done|]. split; [done|]. split; [done|]. apply candidates_detect3; [done..|by rewrite HP|done].
Qed.

(** ** The dynamic bounding volume tree: values carrying bodies, each under its body's bound and with a
    non-negative margin; every call history, the tree ticked, every flag set. *)
Definition carries2 (v : wrapped body2 (Aabb2 R) P2) : Prop :=
  body2_ok (w_value v) /\ w_bound v = box_of2 (w_value v) /\ 0 <= ux (w_margin v) /\ 0 <= uy (w_margin v).
Definition carries3 (v : wrapped body3 (Aabb3 R) P3) : Prop :=
  body3_ok (w_value v) /\ w_bound v = box_of3 (w_value v) /\ 0 <= vx (w_margin v) /\ 0 <= vy (w_margin v) /\ 0 <= vz (w_margin v).
Lemma amin_le (x y : R) : amin x y <= x /\ amin x y <= y.
Proof. rewrite amin_R. split; [apply Rmin_l|apply Rmin_r]. Qed.
Lemma amax_le (x y : R) : x <= amax x y /\ y <= amax x y.
Proof. rewrite amax_R. split; [apply Rmax_l|apply Rmax_r]. Qed.
Lemma carries2_fat third (a : astate (wrapped body2 (Aabb2 R) P2)) : map_Forall (fun _ => carries2) (live a) -> fat_ok (aabb2_ops body2 third) a.
Proof.
  intros Hp h v Hv. destruct (Hp h v Hv) as (_ & _ & M1 & M2). cbn [b_contains tv_fat tv_bound aabb2_ops]. unfold contains2, add_margin2, aabb2_new, pmin2, pmax2, sub2, add2.
  cbn [min2 max2 ux uy]. rs. rewrite !andb_true_iff, !Rleb_true.
  pose proof (amin_le (ux (min2 (w_bound v)) - ux (w_margin v)) (ux (max2 (w_bound v)) + ux (w_margin v))).
  pose proof (amin_le (uy (min2 (w_bound v)) - uy (w_margin v)) (uy (max2 (w_bound v)) + uy (w_margin v))).
  pose proof (amax_le (ux (min2 (w_bound v)) - ux (w_margin v)) (ux (max2 (w_bound v)) + ux (w_margin v))).
  pose proof (amax_le (uy (min2 (w_bound v)) - uy (w_margin v)) (uy (max2 (w_bound v)) + uy (w_margin v))). lra.
Qed.
Lemma carries3_fat third (a : astate (wrapped body3 (Aabb3 R) P3)) : map_Forall (fun _ => carries3) (live a) -> fat_ok (aabb3_ops body3 third) a.
Proof.
  intros Hp h v Hv. destruct (Hp h v Hv) as (_ & _ & M1 & M2 & M3). cbn [b_contains tv_fat tv_bound aabb3_ops]. unfold contains3, add_margin3, aabb3_new, pmin3, pmax3, sub3, add3.
  cbn [min3 max3 vx vy vz]. rs. rewrite !andb_true_iff, !Rleb_true.
  pose proof (amin_le (vx (min3 (w_bound v)) - vx (w_margin v)) (vx (max3 (w_bound v)) + vx (w_margin v))).
  pose proof (amin_le (vy (min3 (w_bound v)) - vy (w_margin v)) (vy (max3 (w_bound v)) + vy (w_margin v))).
  pose proof (amin_le (vz (min3 (w_bound v)) - vz (w_margin v)) (vz (max3 (w_bound v)) + vz (w_margin v))).
  pose proof (amax_le (vx (min3 (w_bound v)) - vx (w_margin v)) (vx (max3 (w_bound v)) + vx (w_margin v))).
  pose proof (amax_le (vy (min3 (w_bound v)) - vy (w_margin v)) (vy (max3 (w_bound v)) + vy (w_margin v))).
  pose proof (amax_le (vz (min3 (w_bound v)) - vz (w_margin v)) (vz (max3 (w_bound v)) + vz (w_margin v))). lra.
Qed.
Lemma colliding_fmap {A A' B} (f : A -> A') (b : A -> B) (b' : A' -> B) isect (l : list A) i j : (forall x, x ∈ l -> b x = b' (f x)) ->
  colliding b isect l i j <-> colliding b' isect (f <$> l) i j.
Proof.
  intros Hf. unfold colliding. split.
  - intros (Hij & x & y & Hx & Hy & Hi). split; [done|]. exists (f x), (f y). rewrite !list_lookup_fmap, Hx, Hy. split_and!; try done.
    rewrite <- !Hf; try done; by eapply elem_of_list_lookup_2.
  - intros (Hij & x & y & Hx & Hy & Hi). split; [done|]. rewrite list_lookup_fmap in Hx, Hy.
    destruct (l !! i) as [x'|] eqn:E1; [|done]. destruct (l !! j) as [y'|] eqn:E2; [|done]. cbn in Hx, Hy. injection Hx as <-. injection Hy as <-.
    exists x', y'. split_and!; try done. rewrite !Hf; try done; by eapply elem_of_list_lookup_2.
Qed.
Lemma ticked_live {T B S} (O : dbvt_ops T B S) a s rng fuel s' hv :
  history O a s -> legal a (Tick rng) -> tick O fuel rng s = Ok s' -> hv ∈ values s' -> live a !! hv.1 = Some hv.2.
Proof.
  intros Hh Hl Ht Hin. assert (Hh' : history O (anext a (Tick rng) NoOut) s').
  { eapply (history_step _ _ s (Tick rng) fuel); eauto. cbn. by rewrite Ht. }
  destruct (C01_values_are_the_live_map O _ s' Hh') as (HP & _). rewrite <- HP in Hin. destruct hv. by apply elem_of_map_to_list in Hin.
Qed.
Theorem C62_dbvt2 third a s rng fuel s' fuel' dirty pairs :
  let O := aabb2_ops body2 third in
  history O a s -> legal a (Tick rng) -> unflagged a = ∅ -> tick O fuel rng s = Ok s' ->
  map_Forall (fun _ => carries2) (live a) -> (forall i, (i < length (values s'))%nat -> dirty !! i = Some true) ->
  dbp_find O intersects2 fuel' s' dirty = Ok pairs ->
  detects2 ((fun hv => w_value hv.2) <$> values s') pairs.
Proof.
  intros O Hh Hl Hu Ht Hp Hd Hf.
  assert (Hv : forall hv, hv ∈ values s' -> carries2 hv.2). { intros hv Hin. eapply Hp. by eapply ticked_live. }
  pose proof (C20_agrees_with_brute_force O intersects2 encl2 a s rng fuel s' fuel' dirty pairs Hh Hl Hu Ht (aabb2_enclosure body2 third) (carries2_fat third a Hp)
      intersects2_sym (fun _ v _ v' b _ _ E Hle => intersects2_mono (w_bound v) b (w_bound v') E Hle) Hd Hf) as Hb.
  destruct (C17_brute_force_exact (fun v : nat * wrapped body2 (Aabb2 R) P2 => tv_bound O v.2) intersects2 (values s')) as (ps & E & _ & Hc).
  rewrite E in Hb. injection Hb as ->. apply candidates_detect2.
  - apply Forall_fmap, Forall_forall. intros hv Hin. by apply Hv.
  - intros i j. rewrite Hc. apply colliding_fmap. intros hv Hin. by destruct (Hv hv Hin) as (_ & E1 & _).
Qed.
Theorem C62_dbvt3 eps tenth third a s rng fuel s' fuel' dirty pairs :
  let O := aabb3_ops body3 third in
  0 <= eps -> 0 < tenth ->
  history O a s -> legal a (Tick rng) -> unflagged a = ∅ -> tick O fuel rng s = Ok s' ->
  map_Forall (fun _ => carries3) (live a) -> (forall i, (i < length (values s'))%nat -> dirty !! i = Some true) ->
  dbp_find O intersects3 fuel' s' dirty = Ok pairs ->
  detects3 eps tenth ((fun hv => w_value hv.2) <$> values s') pairs.
Proof.
  intros O He Hte Hh Hl Hu Ht Hp Hd Hf.
  assert (Hv : forall hv, hv ∈ values s' -> carries3 hv.2). { intros hv Hin. eapply Hp. by eapply ticked_live. }
  pose proof (C20_agrees_with_brute_force O intersects3 encl3 a s rng fuel s' fuel' dirty pairs Hh Hl Hu Ht (aabb3_enclosure body3 third) (carries3_fat third a Hp)
      intersects3_sym (fun _ v _ v' b _ _ E Hle => intersects3_mono (w_bound v) b (w_bound v') E Hle) Hd Hf) as Hb.
  destruct (C17_brute_force_exact (fun v : nat * wrapped body3 (Aabb3 R) P3 => tv_bound O v.2) intersects3 (values s')) as (ps & E & _ & Hc).
  rewrite E in Hb. injection Hb as ->. apply candidates_detect3; try done.
  - apply Forall_fmap, Forall_forall. intros hv Hin. by apply Hv.
  - intros i j. rewrite Hc. apply colliding_fmap. intros hv Hin. by destruct (Hv hv Hin) as (_ & E1 & _).
Qed.

(** ** The hypotheses are met, and the conclusion is not empty: a tree of three squares, one pair of
    them overlapping; the pair is reported and GJK confirms it. *)
Definition sq (x : R) : body2 := (Square 2, square_at x).
Lemma sq_ok x : body2_ok (sq x).
Proof. split; [cbn; lra|apply square_at_similar]. Qed.
Lemma abs_le x y : Rabs x <= y -> - y <= x <= y.
Proof. intros H. pose proof (Rle_abs x). pose proof (Rle_abs (- x)) as K. rewrite Rabs_Ropp in K. lra. Qed.
Lemma sq_points x p : Rabs (ux p - x) <= 1 -> Rabs (uy p) <= 1 -> points2 (sq x) p.
Proof.
  intros Hx Hy. exists (mk2 (ux p - x) (uy p)). split.
  - cbn [sq fst prim2_set]. unfold rect_set. cbn [ux uy]. apply abs_le in Hx, Hy. lra.
  - unfold sq. cbn [snd]. rewrite square_atx_pt. apply V2_eq; cbn [ux uy]; lra.
Qed.
Lemma sq_penetrate : penetrate2 (points2 (sq 0)) (points2 (sq 1)).
Proof.
  exists (mk2 (1/2) 0), (1/2). split; [lra|]. intros p Hp.
  assert (H : Rabs (ux p - 1/2) <= 1/2 /\ Rabs (uy p) <= 1/2).
  { unfold dist2 in Hp. split; (eapply Rle_trans; [|exact Hp]); rewrite <- sqrt_Rsqr_abs; apply sqrt_le_1_alt; rv0; unfold Rsqr; rewrite ?Rminus_0_r; pose proof (Rle_0_sqr (ux p - 1 / 2)) as Q1; pose proof (Rle_0_sqr (uy p)) as Q2; unfold Rsqr in Q1, Q2; lra. }
  destruct H as [H1 H2]. apply abs_le in H1, H2. split; apply sq_points; apply Rabs_le; lra.
Qed.
Example C62_hypotheses_met (rng : nat -> bool) :
  let O := aabb2_ops body2 (3 / 10) in
  exists a s fuel s' fuel' dirty pairs i j,
    history O a s /\ legal a (Tick rng) /\ unflagged a = ∅ /\ tick O fuel rng s = Ok s'
    /\ map_Forall (fun _ => carries2) (live a) /\ (forall i, (i < length (values s'))%nat -> dirty !! i = Some true)
    /\ dbp_find O intersects2 fuel' s' dirty = Ok pairs
    /\ length (values s') = 3%nat /\ (i, j) ∈ pairs
    /\ exists x y, ((fun hv => w_value hv.2) <$> values s') !! i = Some x /\ ((fun hv => w_value hv.2) <$> values s') !! j = Some y /\ gjk_hit2 x y.
Proof.
  intros O. set (w x := Wrapped (sq x) (box_of2 (sq x)) zero2 : wrapped body2 (Aabb2 R) P2).
  destruct (insert_all_tick O [w 0; w 1; w 10] rng) as (a & s & fuel & s' & Hh & Hlt & Hu & Ht & Hl).
  assert (Hc : map_Forall (fun _ => carries2) (live a)).
  { intros h v Hv. assert (Hin : v ∈ [w 0; w 1; w 10]). { rewrite <- Hl. apply elem_of_list_fmap. exists (h, v). split; [done|]. by apply elem_of_map_to_list. }
    assert (K : forall x, carries2 (w x)). { intros x. split; [apply sq_ok|]. split; [done|]. cbn. lra. }
    rewrite !elem_of_cons, elem_of_nil in Hin. destruct Hin as [-> | [-> | [-> | []]]]; apply K. }
  assert (Hh' : history O (anext a (Tick rng) NoOut) s'). { eapply (history_step _ _ s (Tick rng) fuel); eauto. cbn. by rewrite Ht. }
  destruct (C01_values_are_the_live_map O _ s' Hh') as (HP & _). cbn [anext live] in HP.
  assert (Hlen : length (values s') = 3%nat). { rewrite <- HP. apply Permutation_length in Hl. rewrite fmap_length in Hl. done. }
  destruct (C20_returns_iff_enough_flags O intersects2 _ s' (replicate 3 true) Hh' ltac:(lia)) as (n & r & Hr & Hok & _).
  destruct Hok as [l ->]; [rewrite replicate_length; lia|]. specialize (Hr n (Nat.le_refl n)).
  assert (Hd : forall i, (i < length (values s'))%nat -> replicate 3 true !! i = Some true). { intros i Hi. apply lookup_replicate. lia. }
  pose proof (C62_dbvt2 (3/10) a s rng fuel s' n _ l Hh Hlt Hu Ht Hc Hd Hr) as D.
  assert (Hv : (fun hv : nat * _ => w_value hv.2) <$> values s' ≡ₚ [sq 0; sq 1; sq 10]).
  { change [sq 0; sq 1; sq 10] with (w_value <$> [w 0; w 1; w 10]). rewrite <- Hl, <- HP, <- list_fmap_compose. done. }
  assert (H0 : exists i, ((fun hv : nat * _ => w_value hv.2) <$> values s') !! i = Some (sq 0)). { apply elem_of_list_lookup. rewrite Hv. left. }
  assert (H1 : exists i, ((fun hv : nat * _ => w_value hv.2) <$> values s') !! i = Some (sq 1)). { apply elem_of_list_lookup. rewrite Hv. right. left. }
  destruct H0 as [i0 H0], H1 as [i1 H1]. destruct (lt_eq_lt_dec i0 i1) as [[L|E]|L].
  - exists a, s, fuel, s', n, (replicate 3 true), l, i0, i1. destruct (D i0 i1 _ _ L H0 H1) as [D1 _]. destruct (D1 sq_penetrate) as [D2 D3].
    do 9 (split; [done|]). exists (sq 0), (sq 1). split; [done|]. split; [done|]. by apply D3.
  - exfalso. rewrite E in H0. rewrite H0 in H1. apply (f_equal (fun o => match o with Some b => ux (xf_pt b.2 zero2) | None => 0 end)) in H1. revert H1. unfold sq. cbn [snd]. rewrite !square_atx_pt. cbn. lra.
  - exists a, s, fuel, s', n, (replicate 3 true), l, i1, i0. destruct (D i1 i0 _ _ L H1 H0) as [D1 _].
    assert (Hp : penetrate2 (points2 (sq 1)) (points2 (sq 0))). { destruct sq_penetrate as (p & r & Hr' & Hp). exists p, r. split; [done|]. intros x Hx. destruct (Hp x Hx). done. }
    destruct (D1 Hp) as [D2 D3]. do 9 (split; [done|]). exists (sq 1), (sq 0). split; [done|]. split; [done|]. by apply D3.
Qed.
(** Two unit balls half a unit apart, in three dimensions: the brute force reports them. *)
Definition bl (x : R) : body3 := (SphereP 1, move3 (mk3 x 0 0)).
Lemma bl_ok x : body3_ok (bl x).
Proof. split; [cbn; lra|apply move3_similar]. Qed.
Lemma bl_points x p : dist3 (mk3 x 0 0) p <= 1 -> points3 (bl x) p.
Proof.
  intros H. exists (sub3 p (mk3 x 0 0)). split.
  - cbn [bl fst prim3_set]. unfold ShapeSpec.ball. rewrite Rmult_1_l. apply Rnot_lt_le. intros Hlt.
    assert (E : dist3 (mk3 x 0 0) p = sqrt (dot3 (sub3 p (mk3 x 0 0)) (sub3 p (mk3 x 0 0)))).
    { unfold dist3. apply (f_equal sqrt). rv0. ring. }
    rewrite E in H. assert (K : sqrt 1 < sqrt (dot3 (sub3 p (mk3 x 0 0)) (sub3 p (mk3 x 0 0)))) by (apply sqrt_lt_1_alt; split; [lra|exact Hlt]). rewrite sqrt_1 in K. lra.
  - unfold bl. cbn [snd]. rewrite move3_pt. apply V3_eq; rv0; ring.
Qed.
Example C62_hypotheses_met3 : Forall body3_ok [bl 0; bl (1/2)] /\ penetrate3 (points3 (bl 0)) (points3 (bl (1/2)))
  /\ brute_force box_of3 intersects3 [bl 0; bl (1/2)] = Ok [(0, 1)]%nat.
Proof.
  assert (Hok : Forall body3_ok [bl 0; bl (1/2)]) by (repeat constructor; apply move3_similar || (cbn; lra)).
  assert (Hp : penetrate3 (points3 (bl 0)) (points3 (bl (1/2)))).
  { exists zero3, (1/2). split; [lra|]. intros x Hx. split; apply bl_points.
    - apply Rle_trans with (1/2); [exact Hx|lra].
    - eapply Rle_trans; [apply (dist3_triangle _ zero3)|]. assert (dist3 (mk3 (1/2) 0 0) zero3 <= 1/2); [|lra].
      apply Req_le. transitivity (sqrt (1/2 * (1/2))); [|apply sqrt_square; lra]. unfold dist3, mag3, mag2_3. apply (f_equal sqrt). rv0. ring. }
  split; [done|]. split; [done|].
  destruct (C17_brute_force_exact box_of3 intersects3 [bl 0; bl (1/2)]) as (ps & E & Hs & Hc). rewrite E. f_equal.
  assert (H01 : (0, 1)%nat ∈ ps).
  { destruct (C62_brute_force3 0 1 [bl 0; bl (1/2)] ltac:(lra) ltac:(lra) Hok) as (ps' & E' & D). rewrite E in E'. injection E' as <-.
    destruct (D 0%nat 1%nat (bl 0) (bl (1/2)) ltac:(lia) eq_refl eq_refl) as [D1 _]. by apply D1. }
  assert (Hall : forall q, q ∈ ps -> q = (0, 1)%nat).
  { intros [i j] Hq. apply Hc in Hq as (Hij & x & y & Hx & Hy & _). apply lookup_lt_Some in Hx, Hy. cbn in Hx, Hy. f_equal; lia. }
  destruct ps as [|q ps]; [by apply elem_of_nil in H01|]. rewrite (Hall q) by left. destruct ps as [|q' ps]; [done|].
  exfalso. apply StronglySorted_inv in Hs as [_ Hs]. rewrite Forall_cons in Hs. destruct Hs as [Hs _].
  rewrite (Hall q) in Hs by left. rewrite (Hall q') in Hs by (right; left). unfold lex in Hs. cbn in Hs. lia.
Qed.
