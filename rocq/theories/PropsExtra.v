(** Further theorems for C18, C24, C30, C31, C36: segments in boxes, exact areas, plane constructors,
    a sweeper used over many frames. *)
From Coq Require Import Psatz.
From stdpp Require Import prelude.
From Coq Require Import Reals Lra.
From Verif Require Import Res Num Vec AabbModel GeoModel BroadModel PropsAabb PropsAabbReal RealGeo PropsSphere PropsPlane PropsBroad DbvtVisitors.

(** ** C24: a box contains a segment when it contains every point of it. *)
Definition on_segment2 (l : Line (V2 R)) (p : V2 R) : Prop :=
  exists t, (0 <= t <= 1)%R /\ p = add2 (l_origin l) (scale2 (sub2 (l_dest l) (l_origin l)) t).
Lemma between lo hi a c t : (lo <= a < hi -> lo <= c < hi -> 0 <= t <= 1 -> lo <= a + (c - a) * t < hi)%R.
Proof.
  intros H1 H2 Ht. assert (0 <= (a - lo) * (1 - t))%R by (apply Rmult_le_pos; lra). assert (0 <= (c - lo) * t)%R by (apply Rmult_le_pos; lra).
  split; [lra|]. destruct (Rle_dec t (1/2)); [assert (0 <= (hi - c) * t)%R by (apply Rmult_le_pos; lra); assert (0 < (hi - a) * (1 - t))%R by (apply Rmult_lt_0_compat; lra); lra|].
  assert (0 < (hi - c) * t)%R by (apply Rmult_lt_0_compat; lra). assert (0 <= (hi - a) * (1 - t))%R by (apply Rmult_le_pos; lra). lra.
Qed.
Theorem C24_contains2_segment (b : Aabb2 R) (l : Line (V2 R)) :
  contains2_line b l = true <-> forall p, on_segment2 l p -> in2_half b p.
Proof.
  unfold contains2_line. rewrite andb_true_iff, !C23_contains2_point_half_open. destruct l as [[a b'] [c d]]. cbn [l_origin l_dest].
  unfold in2_half. setoid_rewrite Le_R. setoid_rewrite Lt_R. split.
  - intros [H1 H2] p (t & Ht & ->). cbn in *. split; apply between; tauto.
  - intros H. split.
    + specialize (H (mk2 a b')). cbn in H. apply H. exists 0%R. split; [lra|]. unfold add2, scale2, sub2, add3, scale3, sub3. cbn. f_equal; ring.
    + specialize (H (mk2 c d)). cbn in H. apply H. exists 1%R. split; [lra|]. unfold add2, scale2, sub2, add3, scale3, sub3. cbn. f_equal; ring.
Qed.
Theorem C24_contains3_segment (b : Aabb3 R) (l : Line (V3 R)) :
  contains3_line b l = true <-> forall p, on_segment3 l p -> in3_half b p.
Proof.
  unfold contains3_line. rewrite andb_true_iff, !C23_contains3_point_half_open. destruct l as [[a b' e] [c d f]]. cbn [l_origin l_dest].
  unfold in3_half. setoid_rewrite Le_R. setoid_rewrite Lt_R. split.
  - intros [H1 H2] p (t & Ht & ->). cbn in *. split; [|split]; apply between; tauto.
  - intros H. split.
    + specialize (H (mk3 a b' e)). cbn in H. apply H. exists 0%R. split; [lra|]. unfold add2, scale2, sub2, add3, scale3, sub3. cbn. f_equal; ring.
    + specialize (H (mk3 c d f)). cbn in H. apply H. exists 1%R. split; [lra|]. unfold add2, scale2, sub2, add3, scale3, sub3. cbn. f_equal; ring.
Qed.
(** The same for floats and every other ordered scalar, in terms of the two ends. *)
Theorem C24_contains_ends {S} `{NumOrd S} (b : Aabb2 S) (l : Line (V2 S)) (B : Aabb3 S) (L : Line (V3 S)) :
  (contains2_line b l = true <-> in2_half b (l_origin l) /\ in2_half b (l_dest l)) /\
  (contains3_line B L = true <-> in3_half B (l_origin L) /\ in3_half B (l_dest L)).
Proof.
  unfold contains2_line, contains3_line. rewrite !andb_true_iff, !C23_contains2_point_half_open, !C23_contains3_point_half_open. done.
Qed.

(** ** C31, C30: areas and volumes *)
(** The 2D "surface area" used to compare branches is the area of the box, not its perimeter: two
    boxes can have equal area zero and different extents. *)
Theorem C31_flat_area_refuted : exists a b : Aabb2 R,
  box2 a /\ box2 b /\ contains2 a b = true /\ contains2 b a = false /\ surface_area2 a = surface_area2 b.
Proof.
  exists (mkAabb2 (mk2 0%R 0%R) (mk2 2%R 0%R)), (mkAabb2 (mk2 0%R 0%R) (mk2 1%R 0%R)).
  unfold box2, contains2, surface_area2, dim2. cbn. setoid_rewrite Le_R. cbn. unfold Rleb.
  repeat destruct (Rle_dec _ _); cbn; split_and!; try lra; try done.
Qed.
Theorem C30_area (s t : Sphere R) : proper_sphere s -> proper_sphere t ->
  sphere_area PI s = (4 * PI * (s_radius s)²)%R /\ (0 <= sphere_area PI s)%R /\
  (sphere_area PI s = 0 <-> s_radius s = 0)%R /\
  ((sphere_area PI s <= sphere_area PI t <-> s_radius s <= s_radius t)%R).
Proof.
  intros Hs Ht. unfold proper_sphere in *. pose proof PI_RGT_0 as Hpi.
  assert (forall u, sphere_area PI u = 4 * PI * (s_radius u)²)%R as E by (intros u; unfold sphere_area, Rsqr; cbn; ring).
  rewrite !E. unfold Rsqr. split_and!; [done|nra| |]; split; intros Hh.
  - assert (s_radius s * s_radius s = 0)%R by nra. nra.
  - rewrite Hh. ring.
  - assert (s_radius s * s_radius s <= s_radius t * s_radius t)%R by nra. nra.
  - assert (s_radius s * s_radius s <= s_radius t * s_radius t)%R by nra. nra.
Qed.

(** ** C36: the constructors from coefficients *)
Theorem C36_constructors (a b c d : R) (p : V3 R) :
  (on_plane (plane_abcd a b c d) p <-> a * vx p + b * vy p + c * vz p - d = 0)%R /\
  (on_plane (plane_of_v4 (mk4 a b c d)) p <-> a * vx p + b * vy p + c * vz p - d = 0)%R /\
  (on_plane (plane_of_v4_alt (mk4 a b c d)) p <-> a * vx p + b * vy p + c * vz p + d = 0)%R.
Proof. unfold on_plane, plane_abcd, plane_of_v4, plane_of_v4_alt. cbn. split_and!; split; lra. Qed.

(** ** C18 over many frames *)
Section frames.
  Context {A Bd S : Type} `{NumOrd S} (bound : A -> Bd) (isect : Bd -> Bd -> bool).
  Context (dim : nat) (mn mx : Bd -> list S) (of_nat : nat -> S).
  (** A sweeper used frame after frame: each frame's call starts from the state the last one left. *)
  Fixpoint frames (s : sap S) (fs : list (list A)) : res (list (list A * list (nat * nat))) :=
    match fs with
    | [] => Ok []
    | shapes :: fs =>
        '(s', shapes', pairs) ← sap_find bound isect dim mn mx of_nat s shapes;
        rest ← frames s' fs;
        Ok ((shapes', pairs) :: rest)
    end.
  (** The right answer for one frame: the same shapes in some order, and each intersecting pair of
      positions once. *)
  Definition right_answer (shapes : list A) (out : list A * list (nat * nat)) : Prop :=
    out.1 ≡ₚ shapes /\ NoDup out.2 /\ forall i j, (i, j) ∈ out.2 <-> colliding bound isect out.1 i j.
  Theorem C18_every_frame (axis : nat) (fs : list (list A)) : axis < dim ->
    (forall ax, ax < dim -> overlaps_on bound isect mn mx ax) ->
    Forall (Forall (fun a => forall ax, ax < dim -> comparable bound mn mx ax a)) fs ->
    (exists outs, frames (sap_with_axis dim axis) fs = Ok outs /\ Forall2 right_answer fs outs) /\
    (exists outs, frames (sap_new dim) fs = Ok outs /\ Forall2 right_answer fs outs).
  Proof.
    intros Hax Hov Hfs.
    assert (forall s, sweep_axis s < dim -> exists outs, frames s fs = Ok outs /\ Forall2 right_answer fs outs) as Hg.
    { induction Hfs as [|shapes fs Hs Hfs IH]; intros s Hsa.
      { exists []. split; [done|]. apply List.Forall2_nil. }
      destruct (C18_sweep_and_prune_exact bound isect dim mn mx of_nat s shapes) as (s' & sh' & ps & E & H1 & H2 & H3 & H4 & H5).
      { eapply Forall_impl; [exact Hs|]. intros a Ha. by apply Ha. }
      { by apply Hov. }
      { lia. }
      destruct (IH s') as (outs & Eo & Ho).
      { destruct (decide (length shapes <= 1)) as [Hl|Hl].
        - unfold sap_find in E. rewrite decide_True in E by done. by simplify_eq.
        - rewrite (C19_axis_always_x bound isect dim mn mx of_nat s shapes s' sh' ps); [lia|lia|lia|done]. }
      exists ((sh', ps) :: outs). cbn [frames]. rewrite E. cbn [mbind res_mbind res_bind]. rewrite Eo. cbn [mbind res_mbind res_bind].
      split; [done|]. apply List.Forall2_cons; [|done]. split; [done|]. split; [done|]. cbn. exact H4. }
    split; apply Hg; cbn; lia.
  Qed.
End frames.

(** Boxes over any ordered scalar (floats, reals): the sweeper is right in every frame as long as no
    coordinate is NaN. *)
Section boxes.
  Context {S : Type} `{NumOrd S} (of_nat : nat -> S).
  Definition lows2 (b : Aabb2 S) : list S := [ux (min2 b); uy (min2 b)].
  Definition highs2 (b : Aabb2 S) : list S := [ux (max2 b); uy (max2 b)].
  Definition lows3 (b : Aabb3 S) : list S := [vx (min3 b); vy (min3 b); vz (min3 b)].
  Definition highs3 (b : Aabb3 S) : list S := [vx (max3 b); vy (max3 b); vz (max3 b)].
  Definition no_nan2 (b : Aabb2 S) : Prop := Forall ok (lows2 b ++ highs2 b).
  Definition no_nan3 (b : Aabb3 S) : Prop := Forall ok (lows3 b ++ highs3 b).
  Theorem C18_every_frame_boxes2 {A} (bound : A -> Aabb2 S) (axis : nat) (fs : list (list A)) : axis < 2 ->
    Forall (Forall (fun a => no_nan2 (bound a))) fs ->
    exists outs, frames bound intersects2 2 lows2 highs2 of_nat (sap_with_axis 2 axis) fs = Ok outs
      /\ Forall2 (right_answer bound intersects2) fs outs.
  Proof.
    intros Hax Hfs. destruct (C18_every_frame bound intersects2 2 lows2 highs2 of_nat axis fs Hax) as [He _]; [| |done].
    - intros ax Hx a b hi lo. unfold intersects2. rewrite !andb_true_iff. intros [[[H1 H2] H3] H4].
      destruct ax as [|[|ax]]; [| |lia]; cbn; intros [= <-] [= <-]; by apply lt_le.
    - eapply Forall_impl; [exact Hfs|]. intros sh Hsh. eapply Forall_impl; [exact Hsh|]. intros a Ha ax Hx.
      unfold no_nan2, lows2, highs2 in Ha. cbn [app] in Ha.
      repeat match goal with H : Forall _ (_ :: _) |- _ => apply Forall_cons in H as [? H] end.
      unfold comparable. destruct ax as [|[|ax]]; [| |lia]; cbn; eauto 10.
  Qed.
  Theorem C18_every_frame_boxes3 {A} (bound : A -> Aabb3 S) (axis : nat) (fs : list (list A)) : axis < 3 ->
    Forall (Forall (fun a => no_nan3 (bound a))) fs ->
    exists outs, frames bound intersects3 3 lows3 highs3 of_nat (sap_with_axis 3 axis) fs = Ok outs
      /\ Forall2 (right_answer bound intersects3) fs outs.
  Proof.
    intros Hax Hfs. destruct (C18_every_frame bound intersects3 3 lows3 highs3 of_nat axis fs Hax) as [He _]; [| |done].
    - intros ax Hx a b hi lo. unfold intersects3. rewrite !andb_true_iff. intros [[[[[H1 H2] H3] H4] H5] H6].
      destruct ax as [|[|[|ax]]]; [| | |lia]; cbn; intros [= <-] [= <-]; by apply lt_le.
    - eapply Forall_impl; [exact Hfs|]. intros sh Hsh. eapply Forall_impl; [exact Hsh|]. intros a Ha ax Hx.
      unfold no_nan3, lows3, highs3 in Ha. cbn [app] in Ha.
      repeat match goal with H : Forall _ (_ :: _) |- _ => apply Forall_cons in H as [? H] end.
      unfold comparable. destruct ax as [|[|[|ax]]]; [| | |lia]; cbn; eauto 10.
  Qed.
End boxes.

(** ** C35 without assuming the matrix usable *)
Section clip.
  Context (eps : R) (Heps : (0 <= eps)%R).
  (** [Frustum::from_matrix4] returns [None] exactly when one of the six clip planes (a row combination
      of the matrix) has a normal within [eps] of zero in each component. *)
  Definition flat_row (v : V4 R) : Prop := (Rabs (w_x v) <= eps /\ Rabs (w_y v) <= eps /\ Rabs (w_z v) <= eps)%R.
  Theorem C35_unusable_matrix (m : M4 R) : frustum_of_matrix eps m = None <->
    Exists flat_row [add4 (row3 m) (row0 m); sub4 (row3 m) (row0 m); add4 (row3 m) (row1 m); sub4 (row3 m) (row1 m);
                     add4 (row3 m) (row2 m); sub4 (row3 m) (row2 m)].
  Proof.
    rewrite !Exists_cons, Exists_nil. unfold flat_row. rewrite <- !(normalize_none eps). unfold frustum_of_matrix.
    repeat match goal with |- context [plane_normalize eps ?v] => destruct (plane_normalize eps v) end; split; try done; try tauto.
    intros Hx. by repeat destruct Hx as [Hx|Hx].
  Qed.
  (** For every matrix: "in" and "out" answers are right, and an unusable matrix gives "cross" whatever the bound. *)
  Theorem C35_every_matrix (m : M4 R) (b : Aabb3 R) (s : Sphere R) (rel : Plane R -> relation3) :
    (frustum_of_matrix eps m = None -> relate_clip_space eps rel m = RCross) /\
    (box3 b -> (relate_clip_space eps (relate_aabb3 b) m = RIn -> forall p, in3 b p -> in_clip m p) /\
               (relate_clip_space eps (relate_aabb3 b) m = ROut -> forall p, in3 b p -> out_clip m p)) /\
    (proper_sphere s -> (relate_clip_space eps (relate_sphere s) m = RIn -> forall p, ball s p -> in_clip m p) /\
               (relate_clip_space eps (relate_sphere s) m = ROut -> forall p, ball s p -> out_clip m p)).
  Proof.
    destruct (frustum_of_matrix eps m) as [f|] eqn:Ef.
    - split; [done|]. split; intros Hb.
      + destruct (C35_box_clip eps Heps m f b Ef Hb) as [H1 H2]. split; [by apply H1|done].
      + destruct (C35_sphere_clip eps Heps m f s Ef Hb) as [H1 H2]. split; [by apply H1|done].
    - unfold relate_clip_space. rewrite Ef. done.
  Qed.
  (** A zero matrix is unusable: no plane, every bound crosses. *)
  Example C35_unusable_met : frustum_of_matrix eps (mkM4 (mk4 0 0 0 0) (mk4 0 0 0 0) (mk4 0 0 0 0) (mk4 0 0 0 1))%R = None.
  Proof. apply C35_unusable_matrix. apply Exists_cons_hd. unfold flat_row. cbn. rewrite Rplus_0_l, Rabs_R0. done. Qed.
End clip.
