(** C34 (relation of bounds to planes and frusta), C35 (clip space and projections),
    C36 (planes), over the reals. *)
From stdpp Require Import prelude.
From Coq Require Import Reals Lra Psatz.
From Verif Require Import Res Num Vec RealGeo AabbModel PropsAabb PropsAabbReal DbvtVisitors GeoModel PropsSphere Xr PropsRayBox.
Local Open Scope R_scope.

(** * Specification *)
(** A plane is the set [n . x = d] (plane.rs 16-25); [above]/[below] are its open sides. *)
Definition on_plane (pl : Plane R) (p : V3 R) : Prop := dot3 (pl_n pl) p = pl_d pl.
Definition above (pl : Plane R) (p : V3 R) : Prop := pl_d pl < dot3 (pl_n pl) p.
Definition below (pl : Plane R) (p : V3 R) : Prop := dot3 (pl_n pl) p < pl_d pl.
(** [rel] is the exact classification of the point set [B] against a plane: [In] when all
    of [B] is above, [Out] when all of it is below, otherwise [Cross]. *)
Definition classifies (B : V3 R -> Prop) (rel : Plane R -> relation3) (pl : Plane R) : Prop :=
  (rel pl = RIn <-> forall p, B p -> above pl p) /\ (rel pl = ROut <-> forall p, B p -> below pl p).

(** * Relation to one plane *)
Lemma dot3_lin n a b t : dot3 n (add3 a (scale3 b t)) = dot3 n a + t * dot3 n b.
Proof. rv0. ring. Qed.
Lemma relate_pt_cases p pl :
  (relate_pt p pl = RIn <-> above pl p) /\ (relate_pt p pl = ROut <-> below pl p) /\ (relate_pt p pl = RCross <-> on_plane pl p).
Proof.
  unfold relate_pt, above, below, on_plane. rewrite (dot3_comm (pl_n pl)). rs.
  destruct (Rltb (pl_d pl) _) eqn:E1; [apply Rltb_true in E1|apply Rltb_false in E1].
  - repeat split; intros; try done; lra.
  - destruct (Rltb _ (pl_d pl)) eqn:E2; [apply Rltb_true in E2|apply Rltb_false in E2]; repeat split; intros; try done; lra.
Qed.
Theorem C34_point_exact p pl : classifies (eq p) (relate_pt p) pl.
Proof.
  destruct (relate_pt_cases p pl) as (Hi & Ho & _). split; [rewrite Hi|rewrite Ho]; split; try naive_solver; intros Hx; by apply Hx.
Qed.
Theorem C34_sphere_exact s pl : proper_sphere s -> mag3 (pl_n pl) = 1 -> classifies (ball s) (relate_sphere s) pl.
Proof.
  intros Hs Hn. set (n := pl_n pl) in *. assert (Hnn : dot3 n n = 1) by (rewrite <- mag3_sqr, Hn; ring).
  assert (Hball : forall t, Rabs t <= s_radius s -> ball s (add3 (s_center s) (scale3 n t))).
  { intros t Ht. unfold ball. rewrite dist3_offset, Hn. lra. }
  assert (Hdot : forall t, dot3 n (add3 (s_center s) (scale3 n t)) = dot3 (s_center s) n + t).
  { intros t. rewrite dot3_lin, Hnn, (dot3_comm n). ring. }
  assert (Hbd : forall p, ball s p -> Rabs (dot3 n p - dot3 (s_center s) n) <= s_radius s).
  { intros p Hp. pose proof (cauchy3_abs n (sub3 p (s_center s))) as Hc. rewrite Hn, <- dist3_mag in Hc.
    replace (dot3 n (sub3 p (s_center s))) with (dot3 n p - dot3 (s_center s) n) in Hc by (rv0; ring). unfold ball in Hp. lra. }
  unfold classifies, relate_sphere, above, below, proper_sphere in *. fold n. set (c := dot3 (s_center s) n) in *. rs.
  set (r := s_radius s) in *. set (d := pl_d pl) in *.
  assert (Hr : Rabs r <= r) by (rewrite Rabs_pos_eq; lra). assert (Hr' : Rabs (- r) <= r) by (rewrite Rabs_Ropp; lra).
  pose proof (Hball _ Hr) as Hb1. pose proof (Hball _ Hr') as Hb2.
  assert (Hbd' : forall p, ball s p -> c - r <= dot3 n p <= c + r).
  { intros p Hp. pose proof (Hbd p Hp). pose proof (Rle_abs (dot3 n p - c)). pose proof (Rle_abs (- (dot3 n p - c))) as Hx.
    rewrite Rabs_Ropp in Hx. lra. }
  destruct (Rltb r _) eqn:E1; [apply Rltb_true in E1|apply Rltb_false in E1].
  - split; (split; [intros Hx; try done|intros Hx]).
    + intros p Hp. specialize (Hbd' p Hp). lra.
    + done.
    + exfalso. specialize (Hx _ Hb1). rewrite Hdot in Hx. lra.
  - destruct (Rltb _ (- r)) eqn:E2; [apply Rltb_true in E2|apply Rltb_false in E2].
    + split; (split; [intros Hx; try done|intros Hx]).
      * exfalso. specialize (Hx _ Hb2). rewrite Hdot in Hx. lra.
      * intros p Hp. specialize (Hbd' p Hp). lra.
      * done.
    + split; (split; [intros Hx; done|intros Hx]); exfalso.
      * specialize (Hx _ Hb2). rewrite Hdot in Hx. lra.
      * specialize (Hx _ Hb1). rewrite Hdot in Hx. lra.
Qed.
Lemma corner_cases (b : Aabb3 R) (c : V3 R) : c ∈ corners3 b <-> (vx c = vx (min3 b) \/ vx c = vx (max3 b)) /\ (vy c = vy (min3 b) \/ vy c = vy (max3 b))
  /\ (vz c = vz (min3 b) \/ vz c = vz (max3 b)).
Proof.
  unfold corners3. split.
  - rewrite !elem_of_cons, elem_of_nil. intros Hc. repeat (destruct Hc as [-> | Hc]); simpl; try tauto. 
  - intros (Hx & Hy & Hz). destruct c as [x y z]; simpl in *. destruct (min3 b), (max3 b); simpl in *.
    rewrite !elem_of_cons. destruct Hx as [-> | ->], Hy as [-> | ->], Hz as [-> | ->]; tauto.
Qed.
(** A linear functional is extremal over a box at its corners. *)
Lemma box_lin_min b n p : in3 b p -> exists c, c ∈ corners3 b /\ dot3 n c <= dot3 n p.
Proof.
  unfold in3. rewrite !Le_R. intros Hp.
  exists (mk3 (if Rltb (vx n) 0 then vx (max3 b) else vx (min3 b)) (if Rltb (vy n) 0 then vy (max3 b) else vy (min3 b))
    (if Rltb (vz n) 0 then vz (max3 b) else vz (min3 b))).
  split.
  - rewrite corner_cases. cbn [vx vy vz]. destruct (Rltb (vx n) 0), (Rltb (vy n) 0), (Rltb (vz n) 0); tauto.
  - unfold dot3. rs.
    assert (Hm : forall a lo hi x, lo <= x <= hi -> a * (if Rltb a 0 then hi else lo) <= a * x).
    { intros a lo hi x Hx. destruct (Rltb a 0) eqn:E; [apply Rltb_true in E|apply Rltb_false in E]; nra. }
    pose proof (Hm (vx n) (vx (min3 b)) (vx (max3 b)) (vx p)). pose proof (Hm (vy n) (vy (min3 b)) (vy (max3 b)) (vy p)).
    pose proof (Hm (vz n) (vz (min3 b)) (vz (max3 b)) (vz p)). lra.
Qed.
Lemma dot3_neg_n (n p : V3 R) : dot3 (neg3 n) p = - dot3 n p.
Proof. rv0. ring. Qed.
Lemma box_lin_max b n p : in3 b p -> exists c, c ∈ corners3 b /\ dot3 n p <= dot3 n c.
Proof.
  intros Hp. destruct (box_lin_min b (neg3 n) p Hp) as (c & Hc & Hl). exists c. split; [done|]. rewrite !dot3_neg_n in Hl. lra.
Qed.
Lemma forallb_corners (f : V3 R -> bool) (b : Aabb3 R) : f (min3 b) = true ->
  forallb f (drop 1 (corners3 b)) = true <-> forall c, c ∈ corners3 b -> f c = true.
Proof.
  intros Hm. rewrite forallb_forall. unfold corners3. cbn [drop]. setoid_rewrite elem_of_list_In. split.
  - intros Hx c [<-|Hc]; [done|]. by apply Hx.
  - intros Hx c Hc. apply Hx. by right.
Qed.
Theorem C34_box_exact b pl : box3 b -> classifies (in3 b) (relate_aabb3 b) pl.
Proof.
  intros Hb. assert (Hmin : min3 b ∈ corners3 b) by (unfold corners3; left).
  assert (Hc : forall c, c ∈ corners3 b -> in3 b c) by (intros c Hc; apply corners_in, elem_of_list_In; done).
  assert (Hall : forall v, relate_aabb3 b pl = v -> v <> RCross -> forall c, c ∈ corners3 b -> relate_pt c pl = v).
  { intros v Hv Hn. unfold relate_aabb3 in Hv. destruct (forallb _ _) eqn:E; [|by rewrite <- Hv in Hn].
    rewrite (forallb_corners (fun c => bool_decide (relate_pt c pl = relate_pt (min3 b) pl))) in E by by rewrite bool_decide_eq_true.
    intros c Hcc. specialize (E c Hcc). rewrite bool_decide_eq_true in E. by rewrite E. }
  assert (Hall' : forall v, (forall c, c ∈ corners3 b -> relate_pt c pl = v) -> relate_aabb3 b pl = v).
  { intros v Hv. unfold relate_aabb3. destruct (forallb _ _) eqn:E; [by apply Hv|].
    apply not_true_iff_false in E. destruct E.
    rewrite (forallb_corners (fun c => bool_decide (relate_pt c pl = relate_pt (min3 b) pl))) by by rewrite bool_decide_eq_true.
    intros c Hcc. rewrite bool_decide_eq_true. by rewrite !Hv. }
  split; split.
  - intros Hr p Hp. destruct (box_lin_min b (pl_n pl) p Hp) as (c & Hcc & Hl).
    pose proof (Hall _ Hr ltac:(done) c Hcc) as Hrc. apply relate_pt_cases in Hrc. unfold above in *. lra.
  - intros Hp. apply Hall'. intros c Hcc. apply relate_pt_cases. auto.
  - intros Hr p Hp. destruct (box_lin_max b (pl_n pl) p Hp) as (c & Hcc & Hl).
    pose proof (Hall _ Hr ltac:(done) c Hcc) as Hrc. apply relate_pt_cases in Hrc. unfold below in *. lra.
  - intros Hp. apply Hall'. intros c Hcc. apply relate_pt_cases. auto.
Qed.

(** * Frusta *)
Definition planes_of (f : Frustum R) : list (Plane R) := [f_left f; f_right f; f_top f; f_bottom f; f_near f; f_far f].
(** Strictly inside all six half-spaces. *)
Definition inside (f : Frustum R) (p : V3 R) : Prop := Forall (fun pl => above pl p) (planes_of f).
Lemma foldl_rel_max (rel : Plane R -> relation3) l r0 :
  (foldl (fun cur p => rel_max cur (rel p)) r0 l = RIn <-> r0 = RIn /\ Forall (fun pl => rel pl = RIn) l)
  /\ (foldl (fun cur p => rel_max cur (rel p)) r0 l = ROut <-> r0 = ROut \/ Exists (fun pl => rel pl = ROut) l).
Proof.
  revert r0. induction l as [|p l IH]; intros r0; simpl.
  - rewrite Forall_nil, Exists_nil. tauto.
  - rewrite !(proj1 (IH _)), !(proj2 (IH _)), Forall_cons, Exists_cons. split; destruct r0, (rel p); simpl; naive_solver.
Qed.
Theorem C34_frustum_in_iff_inside f B rel : (forall pl, pl ∈ planes_of f -> classifies B rel pl) ->
  frustum_contains f rel = RIn <-> forall p, B p -> inside f p.
Proof.
  intros Hc. unfold frustum_contains. rewrite (proj1 (foldl_rel_max rel _ _)). fold (planes_of f). unfold inside.
  setoid_rewrite Forall_forall. split.
  - intros [_ Hf] p Hp pl Hpl. apply (proj1 (Hc pl Hpl)); auto.
  - intros Hp. split; [done|]. intros pl Hpl. apply (proj1 (Hc pl Hpl)). auto.
Qed.
Theorem C34_frustum_out_iff_behind_a_plane f B rel : (forall pl, pl ∈ planes_of f -> classifies B rel pl) ->
  frustum_contains f rel = ROut <-> exists pl, pl ∈ planes_of f /\ forall p, B p -> below pl p.
Proof.
  intros Hc. unfold frustum_contains. rewrite (proj2 (foldl_rel_max rel _ _)), Exists_exists. fold (planes_of f). split.
  - intros [?|(pl & Hin & Hr)]; [done|]. exists pl. split; [done|]. by apply (proj2 (Hc pl Hin)).
  - intros (pl & Hin & Hb). right. exists pl. split; [done|]. by apply (proj2 (Hc pl Hin)).
Qed.
Theorem C34_frustum_out_disjoint f B rel : (forall pl, pl ∈ planes_of f -> classifies B rel pl) ->
  frustum_contains f rel = ROut -> forall p, B p -> ~ inside f p.
Proof.
  intros Hc Ho p Bp Hin. apply (C34_frustum_out_iff_behind_a_plane f B rel Hc) in Ho as (pl & Hpl & Hb).
  unfold inside in Hin. rewrite Forall_forall in Hin. specialize (Hin pl Hpl). specialize (Hb p Bp).
  unfold above, below in *. lra.
Qed.
(** The cube [-1,1]^3 as a frustum: unit normals pointing inwards. *)
Definition cube_frustum : Frustum R :=
  mkFrustum (mkPlane (mk3 1 0 0) (-1)) (mkPlane (mk3 (-1) 0 0) (-1)) (mkPlane (mk3 0 1 0) (-1)) (mkPlane (mk3 0 (-1) 0) (-1))
            (mkPlane (mk3 0 0 1) (-1)) (mkPlane (mk3 0 0 (-1)) (-1)).
Lemma cube_unit pl : pl ∈ planes_of cube_frustum -> mag3 (pl_n pl) = 1.
Proof.
  unfold planes_of, cube_frustum. cbn [f_left f_right f_top f_bottom f_near f_far]. rewrite !elem_of_cons, elem_of_nil. intros Hp.
  apply unit3. repeat (destruct Hp as [->|Hp]; [cbn [pl_n]; rv0; cbn [vx vy vz]; ring|]). done.
Qed.
Lemma cube_inside p : inside cube_frustum p <-> (-1 < vx p < 1) /\ (-1 < vy p < 1) /\ (-1 < vz p < 1).
Proof.
  unfold inside, planes_of, cube_frustum, above. cbn [f_left f_right f_top f_bottom f_near f_far].
  rewrite !Forall_cons, Forall_nil. cbn [pl_n pl_d]. unfold dot3. rs. cbn [vx vy vz]. split; [lra|]. repeat split; lra.
Qed.
(** [Cross] may be reported for a bound that is entirely outside. *)
Theorem C34_cross_is_conservative_refuted : exists s, proper_sphere s
  /\ frustum_contains cube_frustum (relate_sphere s) = RCross /\ forall p, ball s p -> ~ inside cube_frustum p.
Proof.
  exists (mkSphere (mk3 (3/2) (3/2) 0) (6/10)). split; [unfold proper_sphere; simpl; lra|]. split.
  - set (s := mkSphere _ _).
    assert (Hc : forall pl, pl ∈ planes_of cube_frustum -> classifies (ball s) (relate_sphere s) pl).
    { intros pl Hpl. apply C34_sphere_exact; [unfold proper_sphere; simpl; lra|]. by apply cube_unit. }
    destruct (frustum_contains _ _) eqn:E; [|done|]; exfalso.
    + apply (C34_frustum_in_iff_inside cube_frustum _ _ Hc) with (p := mk3 (3/2) (3/2) 0) in E.
      * apply cube_inside in E. simpl in E. lra.
      * unfold ball. cbn [s s_center s_radius]. rewrite dist3_self. lra.
    + unfold frustum_contains in E. apply (proj2 (foldl_rel_max _ _ _)) in E as [?|E]; [done|].
      unfold cube_frustum, relate_sphere in E. cbn [f_left f_right f_top f_bottom f_near f_far] in E.
      rewrite !Exists_cons, Exists_nil in E. subst s. cbn [s_center s_radius pl_n pl_d] in E. unfold dot3 in E. rs. cbn [vx vy vz] in E.
      repeat (destruct E as [E|E]; [destruct (Rltb (6/10) _) eqn:E1 in E; [done|]; destruct (Rltb _ (-(6/10))) eqn:E2 in E; [apply Rltb_true in E2; lra|done]|]). done.
  - intros p Hp. rewrite cube_inside. intros Hi. rewrite ball_sqr in Hp by (unfold proper_sphere; simpl; lra).
    cbn [s_center s_radius] in Hp. unfold dist2_3, mag2_3, dot3, sub3 in Hp. rs. cbn [vx vy vz] in Hp. nra.
Qed.

(** * C35: clip space *)
(** The homogeneous image of a point, and the open clip volume [|x|, |y|, |z| < w]. *)
Definition clip_w (m : M4 R) (p : V3 R) : R := row_pt (row3 m) p.
Definition in_clip (m : M4 R) (p : V3 R) : Prop :=
  Rabs (row_pt (row0 m) p) < clip_w m p /\ Rabs (row_pt (row1 m) p) < clip_w m p /\ Rabs (row_pt (row2 m) p) < clip_w m p.
Definition out_clip (m : M4 R) (p : V3 R) : Prop :=
  clip_w m p < Rabs (row_pt (row0 m) p) \/ clip_w m p < Rabs (row_pt (row1 m) p) \/ clip_w m p < Rabs (row_pt (row2 m) p).
Section clip.
  Context (eps : R) (Heps : 0 <= eps).
  Lemma near0_3_false n : near0_3 eps n = false -> n <> zero3.
  Proof.
    intros Hn ->. unfold near0_3, near0, zero3 in Hn. rs. rewrite Rabs_R0 in Hn.
    rewrite (proj2 (Rleb_true 0 eps)) in Hn by done. done.
  Qed.
  Lemma normalize_some v pl : plane_normalize eps (plane_of_v4_alt v) = Some pl ->
    mag3 (pl_n pl) = 1 /\ (forall p, above pl p <-> 0 < row_pt v p) /\ (forall p, below pl p <-> row_pt v p < 0).
  Proof.
    unfold plane_normalize. destruct (near0_3 _ _) eqn:E; [done|]. intros Hs. apply (inj Some) in Hs as <-. apply near0_3_false in E.
    unfold plane_of_v4_alt in *. cbn [pl_n pl_d] in *. set (n := mk3 _ _ _) in *.
    pose proof (mag3_pos n E) as Hm. set (k := (n1 / mag3 n)%N_).
    assert (Hk : 0 < k). { unfold k. rs. apply Rdiv_lt_0_compat; lra. }
    split; [exact (mag3_normalize n E)|].
    assert (Hd : forall p, dot3 (scale3 n k) p = k * (row_pt v p - w_w v)).
    { intros p. unfold n, row_pt. rv0. ring. }
    unfold above, below. cbn [pl_n pl_d]. setoid_rewrite Hd. split; intros p; rs; split; intros Hp; nra.
  Qed.
  Lemma row_pt_add u v p : row_pt (add4 u v) p = row_pt u p + row_pt v p.
  Proof. unfold row_pt, add4. rs. simpl. ring. Qed.
  Lemma row_pt_sub (u v : V4 R) p : row_pt (sub4 u v) p = row_pt u p - row_pt v p.
  Proof. unfold row_pt, sub4. rs. simpl. ring. Qed.
  Lemma frustum_of_matrix_some m f : frustum_of_matrix eps m = Some f ->
    (forall pl, pl ∈ planes_of f -> mag3 (pl_n pl) = 1)
    /\ (forall p, inside f p <-> in_clip m p) /\ (forall p, Exists (fun pl => below pl p) (planes_of f) <-> out_clip m p).
  Proof.
    unfold frustum_of_matrix.
    destruct (plane_normalize eps (plane_of_v4_alt (add4 (row3 m) (row0 m)))) as [l|] eqn:E1; [|done].
    destruct (plane_normalize eps (plane_of_v4_alt (sub4 (row3 m) (row0 m)))) as [r|] eqn:E2; [|done].
    destruct (plane_normalize eps (plane_of_v4_alt (add4 (row3 m) (row1 m)))) as [b|] eqn:E3; [|done].
    destruct (plane_normalize eps (plane_of_v4_alt (sub4 (row3 m) (row1 m)))) as [t|] eqn:E4; [|done].
    destruct (plane_normalize eps (plane_of_v4_alt (add4 (row3 m) (row2 m)))) as [n|] eqn:E5; [|done].
    destruct (plane_normalize eps (plane_of_v4_alt (sub4 (row3 m) (row2 m)))) as [g|] eqn:E6; [|done].
    intros [= <-]. apply normalize_some in E1 as (U1 & A1 & B1), E2 as (U2 & A2 & B2), E3 as (U3 & A3 & B3),
      E4 as (U4 & A4 & B4), E5 as (U5 & A5 & B5), E6 as (U6 & A6 & B6).
    unfold inside, planes_of, in_clip, out_clip, clip_w. cbn [f_left f_right f_top f_bottom f_near f_far]. split; [|split].
    - intros pl. rewrite !elem_of_cons, elem_of_nil. naive_solver.
    - intros p. rewrite !Forall_cons, Forall_nil, A1, A2, A3, A4, A5, A6, !row_pt_add, !row_pt_sub.
      set (x := row_pt (row0 m) p). set (y := row_pt (row1 m) p). set (z := row_pt (row2 m) p). set (w := row_pt (row3 m) p).
      split.
      + intros Hp. repeat split; apply Rabs_def1; lra.
      + intros (Hx & Hy & Hz). apply Rabs_def2 in Hx, Hy, Hz. repeat split; lra.
    - intros p. rewrite !Exists_cons, Exists_nil, B1, B2, B3, B4, B5, B6, !row_pt_add, !row_pt_sub.
      set (x := row_pt (row0 m) p). set (y := row_pt (row1 m) p). set (z := row_pt (row2 m) p). set (w := row_pt (row3 m) p).
      assert (Ha : forall c, w < Rabs c <-> w + c < 0 \/ w - c < 0) by (intros c; unfold Rabs; destruct (Rcase_abs c); lra).
      rewrite !Ha. tauto.
  Qed.
  Lemma relate_clip_space_pt_cases p (m : M4 R) :
    (relate_clip_space_pt p m = RIn <-> in_clip m p) /\ (relate_clip_space_pt p m = ROut <-> out_clip m p).
  Proof.
    unfold relate_clip_space_pt, in_clip, out_clip, clip_w. 
    set (x := row_pt (row0 m) p). set (y := row_pt (row1 m) p). set (z := row_pt (row2 m) p). set (w := row_pt (row3 m) p).
    assert (Hp : forall c, (pcmp (nabs c) w = Some Lt /\ Rabs c < w) \/ (pcmp (nabs c) w = Some Eq /\ Rabs c = w) \/ (pcmp (nabs c) w = Some Gt /\ w < Rabs c)).
    { intros c. unfold pcmp. rs. destruct (Rltb (Rabs c) w) eqn:E1; [apply Rltb_true in E1; tauto|apply Rltb_false in E1].
      destruct (Rltb w (Rabs c)) eqn:E3; [apply Rltb_true in E3; tauto|apply Rltb_false in E3].
      destruct (Reqb (Rabs c) w) eqn:E2; [apply Reqb_true in E2; tauto|]. exfalso. apply not_true_iff_false in E2. apply E2, Reqb_true. lra. }
    destruct (Hp x) as [[Ex ?]|[[Ex ?]|[Ex ?]]], (Hp y) as [[Ey ?]|[[Ey ?]|[Ey ?]]], (Hp z) as [[Ez ?]|[[Ez ?]|[Ez ?]]];
      rewrite ?Ex, ?Ey, ?Ez; clear Ex Ey Ez; (split; split; intros; try done; lra).
  Qed.
  (** A matrix gives a frustum unless one of the six plane normals is within [eps] of zero. *)
  Theorem C35_frustum_is_the_clip_volume m f : frustum_of_matrix eps m = Some f ->
    forall p, inside f p <-> in_clip m p.
  Proof. intros Hf. apply (frustum_of_matrix_some m f Hf). Qed.
  (** Points: direct classification in clip space, and through the frustum, agree. *)
  Theorem C35_point_exact m p : 
    (relate_clip_space_pt p m = RIn <-> in_clip m p) /\ (relate_clip_space_pt p m = ROut <-> out_clip m p).
  Proof. apply relate_clip_space_pt_cases. Qed.
  Theorem C35_point_agrees_with_frustum m f p : frustum_of_matrix eps m = Some f ->
    frustum_contains f (relate_pt p) = relate_clip_space_pt p m /\ relate_clip_space eps (relate_pt p) m = relate_clip_space_pt p m.
  Proof.
    intros Hf. unfold relate_clip_space. rewrite Hf. fold (frustum_contains f (relate_pt p)).
    assert (frustum_contains f (relate_pt p) = relate_clip_space_pt p m) as Hx; [|done].
    destruct (frustum_of_matrix_some m f Hf) as (_ & Hi & Ho). destruct (relate_clip_space_pt_cases p m) as (Ci & Co).
    pose proof (fun pl (_ : pl ∈ planes_of f) => C34_point_exact p pl) as Hc.
    pose proof (C34_frustum_in_iff_inside f _ _ Hc) as Fi. pose proof (C34_frustum_out_iff_behind_a_plane f _ _ Hc) as Fo.
    assert (Fi' : frustum_contains f (relate_pt p) = RIn <-> in_clip m p). { rewrite Fi, <- Hi. naive_solver. }
    assert (Fo' : frustum_contains f (relate_pt p) = ROut <-> out_clip m p).
    { rewrite Fo, <- Ho, Exists_exists. naive_solver. }
    destruct (frustum_contains f (relate_pt p)) eqn:E, (relate_clip_space_pt p m) eqn:E'; naive_solver.
  Qed.
  (** Boxes and spheres through [relate_clip_space]. *)
  Theorem C35_box_clip m f b : frustum_of_matrix eps m = Some f -> box3 b ->
    (relate_clip_space eps (relate_aabb3 b) m = RIn <-> forall p, in3 b p -> in_clip m p)
    /\ (relate_clip_space eps (relate_aabb3 b) m = ROut -> forall p, in3 b p -> out_clip m p).
  Proof.
    intros Hf Hb. unfold relate_clip_space. rewrite Hf. fold (frustum_contains f (relate_aabb3 b)).
    destruct (frustum_of_matrix_some m f Hf) as (_ & Hi & Ho).
    pose proof (fun pl (_ : pl ∈ planes_of f) => C34_box_exact b pl Hb) as Hc. split.
    - rewrite (C34_frustum_in_iff_inside f _ _ Hc). by setoid_rewrite Hi.
    - rewrite (C34_frustum_out_iff_behind_a_plane f _ _ Hc). intros (pl & Hpl & Hb') p Hp. apply Ho, Exists_exists. eauto.
  Qed.
  Theorem C35_sphere_clip m f s : frustum_of_matrix eps m = Some f -> proper_sphere s ->
    (relate_clip_space eps (relate_sphere s) m = RIn <-> forall p, ball s p -> in_clip m p)
    /\ (relate_clip_space eps (relate_sphere s) m = ROut -> forall p, ball s p -> out_clip m p).
  Proof.
    intros Hf Hb. unfold relate_clip_space. rewrite Hf. fold (frustum_contains f (relate_sphere s)).
    destruct (frustum_of_matrix_some m f Hf) as (Hu & Hi & Ho).
    pose proof (fun pl (Hpl : pl ∈ planes_of f) => C34_sphere_exact s pl Hb (Hu pl Hpl)) as Hc. split.
    - rewrite (C34_frustum_in_iff_inside f _ _ Hc). by setoid_rewrite Hi.
    - rewrite (C34_frustum_out_iff_behind_a_plane f _ _ Hc). intros (pl & Hpl & Hb') p Hp. apply Ho, Exists_exists. eauto.
  Qed.
  Lemma normalize_none v : plane_normalize eps (plane_of_v4_alt v) = None
    <-> Rabs (w_x v) <= eps /\ Rabs (w_y v) <= eps /\ Rabs (w_z v) <= eps.
  Proof.
    unfold plane_normalize, near0_3, near0, plane_of_v4_alt. cbn [pl_n pl_d vx vy vz]. rs. 
    destruct (_ && _) eqn:E.
    - apply andb_true_iff in E as [[E1 E2]%andb_true_iff E3]. rewrite Rleb_true in E1, E2, E3. tauto.
    - split; [done|]. intros (Hx & Hy & Hz). rewrite <- Rleb_true in Hx, Hy, Hz. by rewrite Hx, Hy, Hz in E.
  Qed.
  (** Projection matrices.  A box-shaped orthographic view volume: camera looks along -z. *)
  Theorem C35_ortho_matrix_volume o p : o_left o < o_right o -> o_bottom o < o_top o -> o_near o < o_far o ->
    in_clip (ortho_matrix o) p <-> (o_left o < vx p < o_right o) /\ (o_bottom o < vy p < o_top o) /\ (- o_far o < vz p < - o_near o).
  Proof.
    intros Hx Hy Hz. unfold in_clip, clip_w, ortho_matrix. cbn [row0 row1 row2 row3]. unfold row_pt. rs. cbn [w_x w_y w_z w_w].
    replace (0 * vx p + 0 * vy p + 0 * vz p + 1 * 1) with 1 by ring.
    assert (Ha : forall a b c, a < b -> Rabs ((c - a) * (2 / (b - a)) - 1) < 1 <-> a < c < b).
    { intros a b c Hab. assert (0 < 2 / (b - a)) by (apply Rdiv_lt_0_compat; lra).
      assert ((b - a) * (2 / (b - a)) = 2) by (field; lra). set (k := 2 / (b - a)) in *.
      split; [intros Hc%Rabs_def2|intros Hc; apply Rabs_def1]; nra. }
    rewrite <- (Ha (o_left o) (o_right o) (vx p)), <- (Ha (o_bottom o) (o_top o) (vy p)), <- (Ha (- o_far o) (- o_near o) (vz p)) by lra.
    match goal with |- ?a < 1 /\ ?b < 1 /\ ?c < 1 <-> ?a' < 1 /\ ?b' < 1 /\ ?c' < 1 =>
      assert (a = a') as -> by (f_equal; field; lra); assert (b = b') as -> by (f_equal; field; lra);
      assert (c = c') as -> end; [|done].
    rewrite <- Rabs_Ropp. f_equal. field. lra.
  Qed.
  (** A perspective view volume: the pyramid over the near rectangle, cut at near and far. *)
  Definition in_pyramid (q : Persp R) (p : V3 R) : Prop :=
    (q_left q * - vz p < q_near q * vx p < q_right q * - vz p) /\ (q_bottom q * - vz p < q_near q * vy p < q_top q * - vz p)
    /\ - q_far q < vz p < - q_near q.
  Definition proper_persp (q : Persp R) : Prop :=
    q_left q < q_right q /\ q_bottom q < q_top q /\ 0 < q_near q < q_far q.
  Lemma clip_abs a k w : 0 < k -> Rabs (a / k) < w <-> - (w * k) < a < w * k.
  Proof.
    intros Hk. assert (a = a / k * k) as Ea by (field; lra). set (b := a / k) in *. clearbody b. subst a.
    split; [intros Hb%Rabs_def2|intros Hb; apply Rabs_def1]; nra.
  Qed.
  Lemma persp_clip q p : proper_persp q -> in_clip (persp_matrix q) p <-> in_pyramid q p.
  Proof.
    intros (Hx & Hy & Hz). unfold in_clip, in_pyramid, clip_w, persp_matrix. cbn [row0 row1 row2 row3]. unfold row_pt. rs. cbn [w_x w_y w_z w_w].
    replace (0 * vx p + 0 * vy p + - (1) * vz p + 0 * 1) with (- vz p) by ring. set (w := - vz p).
    replace ((1 + 1) * q_near q / (q_right q - q_left q) * vx p + 0 * vy p + (q_right q + q_left q) / (q_right q - q_left q) * vz p + 0 * 1)
      with ((2 * q_near q * vx p - (q_right q + q_left q) * w) / (q_right q - q_left q)) by (unfold w; field; lra).
    replace (0 * vx p + (1 + 1) * q_near q / (q_top q - q_bottom q) * vy p + (q_top q + q_bottom q) / (q_top q - q_bottom q) * vz p + 0 * 1)
      with ((2 * q_near q * vy p - (q_top q + q_bottom q) * w) / (q_top q - q_bottom q)) by (unfold w; field; lra).
    replace (0 * vx p + 0 * vy p + - (q_far q + q_near q) / (q_far q - q_near q) * vz p + - ((1 + 1) * q_far q * q_near q) / (q_far q - q_near q) * 1)
      with (((q_far q + q_near q) * w - 2 * q_far q * q_near q) / (q_far q - q_near q)) by (unfold w; field; lra).
    rewrite !clip_abs by lra. replace (vz p) with (- w) by (unfold w; ring). clearbody w. split.
    - intros (Ha & Hb & Hc). repeat split; try lra; nra.
    - intros (Ha & Hb & Hc). repeat split; try lra; nra.
  Qed.
  (** [to_frustum] returns the exact view volume when the near plane is not too close. *)
  Theorem C35_perspective_exact q : proper_persp q -> eps < 1 -> eps * (q_right q - q_left q) < 2 * q_near q ->
    eps * (q_top q - q_bottom q) < 2 * q_near q -> eps * (q_far q - q_near q) < 2 * q_near q ->
    exists f, persp_to_frustum eps q = Ok f /\ forall p, inside f p <-> in_pyramid q p.
  Proof.
    intros Hq He Hx Hy Hz. destruct (frustum_of_matrix eps (persp_matrix q)) as [f|] eqn:Ef.
    - exists f. split.
      + unfold persp_to_frustum. rewrite Ef. destruct Hq as (A & B & C). rs.
        rewrite !(proj2 (Rleb_true _ _)) by lra. done.
      + intros p. rewrite (C35_frustum_is_the_clip_volume _ _ Ef). by apply persp_clip.
    - exfalso. destruct Hq as (A & B & C). unfold frustum_of_matrix in Ef.
      assert (Hd : forall a b, 0 < b -> eps * b < a -> ~ Rabs (a / b) <= eps /\ ~ Rabs (- (a / b)) <= eps).
      { intros a b Hb Hab. rewrite Rabs_Ropp. assert (~ Rabs (a / b) <= eps); [|done]. intros Hle.
        pose proof (Rle_abs (a / b)). assert (a = a / b * b) by (field; lra). nra. }
      pose proof (Hd _ (q_right q - q_left q) ltac:(lra) Hx) as [X1 X2]. pose proof (Hd _ (q_top q - q_bottom q) ltac:(lra) Hy) as [Y1 Y2].
      pose proof (Hd _ (q_far q - q_near q) ltac:(lra) Hz) as [Z1 Z2].
      assert (Z3 : ~ Rabs (- (2 * q_far q / (q_far q - q_near q))) <= eps) by (apply Hd; nra).
      repeat match type of Ef with context [plane_normalize eps (plane_of_v4_alt ?v)] =>
        destruct (plane_normalize eps (plane_of_v4_alt v)) eqn:?; [|match goal with H : plane_normalize _ _ = None |- _ => apply normalize_none in H as (N1 & N2 & N3) end] end;
        [done|..]; cbn [add4 sub4 row0 row1 row2 row3 persp_matrix w_x w_y w_z] in N1, N2, N3; rs.
      all: try (apply X1; match type of N1 with Rabs ?a <= _ => replace a with (2 * q_near q / (q_right q - q_left q)) in N1 by (field; lra) end; exact N1).
      all: try (apply X2; match type of N1 with Rabs ?a <= _ => replace a with (- (2 * q_near q / (q_right q - q_left q))) in N1 by (field; lra) end; exact N1).
      all: try (apply Y1; match type of N2 with Rabs ?a <= _ => replace a with (2 * q_near q / (q_top q - q_bottom q)) in N2 by (field; lra) end; exact N2).
      all: try (apply Y2; match type of N2 with Rabs ?a <= _ => replace a with (- (2 * q_near q / (q_top q - q_bottom q))) in N2 by (field; lra) end; exact N2).
      all: try (apply Z3; match type of N3 with Rabs ?a <= _ => replace a with (- (2 * q_far q / (q_far q - q_near q))) in N3 by (field; lra) end; exact N3).
      all: try (apply Z1; match type of N3 with Rabs ?a <= _ => replace a with (2 * q_near q / (q_far q - q_near q)) in N3 by (field; lra) end; exact N3).
  Qed.
  (** ... and panics when the far plane is far away: 2 near <= eps (far - near). *)
  Theorem C35_perspective_far_panics_refuted q : proper_persp q -> 2 * q_near q <= eps * (q_far q - q_near q) ->
    persp_to_frustum eps q = Panic.
  Proof.
    intros (A & B & C) Hz. unfold persp_to_frustum. destruct (_ && _ && _); [|done].
    destruct (frustum_of_matrix eps (persp_matrix q)) as [f|] eqn:Ef; [|done]. exfalso.
    unfold frustum_of_matrix in Ef. repeat case_match; try done.
    assert (plane_normalize eps (plane_of_v4_alt (sub4 (row3 (persp_matrix q)) (row2 (persp_matrix q)))) = None) as Hn; [|congruence].
    apply normalize_none. cbn [sub4 row2 row3 persp_matrix w_x w_y w_z]. rs. rewrite Rminus_0_r, Rabs_R0. split; [done|]. split; [done|].
    replace (- (1) - - (q_far q + q_near q) / (q_far q - q_near q)) with (2 * q_near q / (q_far q - q_near q)) by (field; lra).
    assert (0 < q_far q - q_near q) as Hp by lra. set (b := q_far q - q_near q) in *. 
    assert (2 * q_near q = 2 * q_near q / b * b) as E by (field; lra).
    rewrite Rabs_pos_eq by (apply Rlt_le, Rdiv_lt_0_compat; lra). nra.
  Qed.
  (** Symmetric perspective: returns iff the far plane is not too far. *)
  Theorem C35_fov_exact cot aspect near far : 0 < cot -> 0 < aspect -> 0 < near < far -> eps < 1 ->
    (2 * near <= eps * (far - near) -> fov_to_frustum eps cot aspect near far = Panic)
    /\ (eps * (far - near) < 2 * near -> exists f, fov_to_frustum eps cot aspect near far = Ok f
        /\ forall p, inside f p <-> cot * Rabs (vx p) < aspect * - vz p /\ cot * Rabs (vy p) < - vz p /\ - far < vz p < - near).
  Proof.
    intros Hc Ha Hz He.
    assert (Ef : (far + near) / (near - far) = - ((far + near) / (far - near))) by (field; lra).
    assert (Ev : - (1) - (far + near) / (near - far) = 2 * near / (far - near)) by (field; lra).
    assert (Ew : - (1) + (far + near) / (near - far) = - (2 * far / (far - near))) by (field; lra).
    assert (Hb : 0 < far - near) by lra. split.
    - intros Hf. unfold fov_to_frustum.
      destruct (frustum_of_matrix eps (fov_matrix cot aspect near far)) as [f|] eqn:E; [|done]. exfalso.
      unfold frustum_of_matrix in E. repeat case_match; try done.
      assert (plane_normalize eps (plane_of_v4_alt (sub4 (row3 (fov_matrix cot aspect near far)) (row2 (fov_matrix cot aspect near far)))) = None) as Hn; [|congruence].
      apply normalize_none. cbn [sub4 row2 row3 fov_matrix w_x w_y w_z]. rs. rewrite Rminus_0_r, Rabs_R0. split; [done|]. split; [done|].
      rewrite Ev. set (b := far - near) in *. assert (2 * near = 2 * near / b * b) by (field; lra).
      rewrite Rabs_pos_eq by (apply Rlt_le, Rdiv_lt_0_compat; lra). nra.
    - intros Hf. unfold fov_to_frustum. destruct (frustum_of_matrix eps (fov_matrix cot aspect near far)) as [f|] eqn:E.
      + exists f. split; [done|]. intros p. rewrite (C35_frustum_is_the_clip_volume _ _ E).
        unfold in_clip, clip_w, fov_matrix. cbn [row0 row1 row2 row3]. unfold row_pt. rs. cbn [w_x w_y w_z w_w].
        replace (0 * vx p + 0 * vy p + - (1) * vz p + 0 * 1) with (- vz p) by ring. set (w := - vz p).
        replace (cot / aspect * vx p + 0 * vy p + 0 * vz p + 0 * 1) with (cot * vx p / aspect) by (field; lra).
        replace (0 * vx p + cot * vy p + 0 * vz p + 0 * 1) with (cot * vy p / 1) by (field; lra).
        replace (0 * vx p + 0 * vy p + (far + near) / (near - far) * vz p + (1 + 1) * far * near / (near - far) * 1)
          with (((far + near) * w - 2 * far * near) / (far - near)) by (unfold w; field; lra).
        rewrite !clip_abs by lra. replace (vz p) with (- w) by (unfold w; ring). clearbody w.
        assert (Hab : forall x k, 0 < k -> - k < cot * x < k <-> cot * Rabs x < k).
        { intros x k Hk. unfold Rabs. destruct (Rcase_abs x); split; intros; nra. }
        split.
        * intros (H1 & H2 & H3). assert (0 < w) by nra. rewrite <- (Hab _ (aspect * w)), <- (Hab _ w) by nra. repeat split; nra.
        * intros (H1 & H2 & H3). assert (0 < w) by lra. rewrite <- (Hab _ (aspect * w)) in H1 by nra. rewrite <- (Hab _ w) in H2 by lra.
          repeat split; nra.
      + exfalso. unfold frustum_of_matrix in E.
        assert (Hd : forall a, eps * (far - near) < a -> ~ Rabs (a / (far - near)) <= eps).
        { intros a Hab Hle. pose proof (Rle_abs (a / (far - near))). assert (a = a / (far - near) * (far - near)) by (field; lra). nra. }
        pose proof (Hd _ Hf) as Z1. assert (Z2 : ~ Rabs (2 * far / (far - near)) <= eps) by (apply Hd; nra).
        assert (Z3 : ~ Rabs (- (1) + 0) <= eps) by (rewrite Rplus_0_r, Rabs_Ropp, Rabs_R1; lra).
        assert (Z4 : ~ Rabs (- (1) - 0) <= eps) by (rewrite Rminus_0_r, Rabs_Ropp, Rabs_R1; lra).
        repeat match type of E with context [plane_normalize eps (plane_of_v4_alt ?v)] =>
          destruct (plane_normalize eps (plane_of_v4_alt v)) eqn:?; [|match goal with H : plane_normalize _ _ = None |- _ => apply normalize_none in H as (N1 & N2 & N3) end] end;
          [done|..]; cbn [add4 sub4 row0 row1 row2 row3 fov_matrix w_x w_y w_z] in N1, N2, N3; rs; try tauto.
        * rewrite Ev in N3. tauto.
        * rewrite Ew, Rabs_Ropp in N3. tauto.
  Qed.
End clip.
(** [Ortho::to_frustum]: the region it describes, against the view volume of the projection. *)
Theorem C35_ortho_to_frustum_region o p : inside (ortho_frustum o) p <->
  (o_left o < vx p < - o_right o) /\ (o_bottom o < vy p < - o_top o) /\ (o_far o < vz p < - o_near o).
Proof.
  unfold inside, planes_of, ortho_frustum, above, plane_abcd. cbn [f_left f_right f_top f_bottom f_near f_far].
  rewrite !Forall_cons, Forall_nil. cbn [pl_n pl_d]. unfold dot3. rs. cbn [vx vy vz]. split; [lra|]. repeat split; lra.
Qed.
Theorem C35_ortho_to_frustum_empty_refuted o : 0 <= o_near o -> o_near o < o_far o ->
  (forall p, ~ inside (ortho_frustum o) p) /\ (o_left o < o_right o -> o_bottom o < o_top o -> exists p, in_clip (ortho_matrix o) p).
Proof.
  intros Hn Hf. split.
  - intros p. rewrite C35_ortho_to_frustum_region. lra.
  - intros Hx Hy. exists (mk3 ((o_left o + o_right o) / 2) ((o_bottom o + o_top o) / 2) (- ((o_near o + o_far o) / 2))).
    apply C35_ortho_matrix_volume; [done..|]. cbn [vx vy vz]. lra.
Qed.

(** * C36: planes *)
Section planes.
  Context (eps : R) (Heps : 0 <= eps).
  Lemma dot3_scale_r (a b : V3 R) k : dot3 a (scale3 b k) = dot3 a b * k.
  Proof. rv0. ring. Qed.
  (** [from_points]: the points satisfy [n . x = -d]; so they lie on the documented plane only if [d = 0]. *)
  Theorem C36_from_points_negated_distance a b c pl : plane_from_points eps a b c = Some pl ->
    mag3 (pl_n pl) = 1 /\ (forall p, p = a \/ p = b \/ p = c -> dot3 (pl_n pl) p = - pl_d pl)
    /\ (on_plane pl a <-> pl_d pl = 0).
  Proof.
    unfold plane_from_points. destruct (near0_3 _ _) eqn:E; [done|]. intros Hs. apply (inj Some) in Hs as <-.
    apply near0_3_false in E; [|done]. split; [by apply mag3_normalize|]. unfold on_plane. cbn [pl_n pl_d]. unfold normalize3.
    set (k := (n1 / mag3 (cross3 (sub3 b a) (sub3 c a)))%N_). clearbody k.
    assert (Hp : forall p, p = a \/ p = b \/ p = c -> dot3 (scale3 (cross3 (sub3 b a) (sub3 c a)) k) p = dot3 a (scale3 (cross3 (sub3 b a) (sub3 c a)) k)).
    { intros p Hp. destruct Hp as [-> | [-> | ->]]; rv0; ring. }
    rs. split.
    - intros p Hpp. rewrite (Hp p Hpp). lra.
    - rewrite (Hp a) by tauto. lra.
  Qed.
  Theorem C36_from_points_none_iff_collinear a b c : plane_from_points eps a b c = None
    <-> let n := cross3 (sub3 b a) (sub3 c a) in Rabs (vx n) <= eps /\ Rabs (vy n) <= eps /\ Rabs (vz n) <= eps.
  Proof.
    cbv zeta. unfold plane_from_points, near0_3, near0. set (n := cross3 _ _). rs.
    destruct (_ && _) eqn:E.
    - apply andb_true_iff in E as [[E1 E2]%andb_true_iff E3]. rewrite Rleb_true in E1, E2, E3. tauto.
    - split; [done|]. intros (Hx & Hy & Hz). rewrite <- Rleb_true in Hx, Hy, Hz. by rewrite Hx, Hy, Hz in E.
  Qed.
  Theorem C36_from_point_normal_contains_point p n : on_plane (plane_point_normal p n) p.
  Proof. unfold on_plane, plane_point_normal. cbn [pl_n pl_d]. apply dot3_comm. Qed.
  Theorem C36_normalize_same_plane pl pl' : plane_normalize eps pl = Some pl' ->
    mag3 (pl_n pl') = 1 /\ forall p, (on_plane pl' p <-> on_plane pl p) /\ (above pl' p <-> above pl p).
  Proof.
    unfold plane_normalize. destruct (near0_3 _ _) eqn:E; [done|]. intros Hs. apply (inj Some) in Hs as <-.
    apply near0_3_false in E; [|done]. cbn [pl_n pl_d] in *. pose proof (mag3_pos _ E) as Hm.
    split; [exact (mag3_normalize _ E)|]. set (k := (n1 / mag3 (pl_n pl))%N_).
    assert (Hk : 0 < k). { unfold k. rs. apply Rdiv_lt_0_compat; lra. } clearbody k.
    intros p. unfold on_plane, above. cbn [pl_n pl_d]. rewrite (dot3_comm (scale3 _ _)), dot3_scale_r, (dot3_comm p). rs.
    split; split; intros Hp; nra.
  Qed.
  (** Plane and ray, not parallel: the code solves [n . x = -d]. *)
  Theorem C36_ray_hits_negated_plane (pl : Plane R) r : dot3 (direction r) (pl_n pl) <> 0 ->
    match plane_ray pl r with
    | Some q => exists t, 0 <= t /\ q = ray_at r t /\ dot3 (pl_n pl) q = - pl_d pl
        /\ forall t', dot3 (pl_n pl) (ray_at r t') = - pl_d pl -> t' = t
    | None => forall t, 0 <= t -> dot3 (pl_n pl) (ray_at r t) <> - pl_d pl
    end /\ (plane_ray_test pl r = true <-> is_Some (plane_ray pl r)).
  Proof.
    intros Hd. unfold plane_ray, plane_ray_test, plane_ray_t. rs.
    set (k := dot3 (direction r) (pl_n pl)) in *. set (o := dot3 (origin r) (pl_n pl)). set (t := - (pl_d pl + o) / k).
    assert (Ht : t * k = - (pl_d pl + o)) by (unfold t; field; done).
    assert (Hat : forall t, dot3 (pl_n pl) (ray_at r t) = o + t * k).
    { intros t0. unfold ray_at. rewrite dot3_lin, !(dot3_comm (pl_n pl)). done. }
    assert (Hu : forall t', dot3 (pl_n pl) (ray_at r t') = - pl_d pl -> t' = t).
    { intros t'. rewrite Hat. intros Ht'. apply (Rmult_eq_reg_r k); [lra|done]. }
    destruct (Rltb t 0) eqn:E; [apply Rltb_true in E|apply Rltb_false in E].
    - split.
      + intros t' Ht' Hp. apply Hu in Hp. lra.
      + rewrite Rleb_true. split; [lra|by intros []].
    - split.
      + exists t. split; [done|]. split; [done|]. split; [|done]. fold (ray_at r t). rewrite Hat. lra.
      + rewrite Rleb_true. split; [eauto|lra].
  Qed.
  (** A plane made from a point and a normal is missed by a ray that meets it, and hit by one that does not. *)
  Theorem C36_ray_documented_plane_refuted : exists (pl : Plane R) (r r' : Ray (V3 R)), pl = plane_point_normal (mk3 0 0 1) (mk3 0 0 1)
    /\ (exists t, 0 <= t /\ on_plane pl (ray_at r t)) /\ plane_ray pl r = None
    /\ (forall t, 0 <= t -> ~ on_plane pl (ray_at r' t)) /\ is_Some (plane_ray pl r').
  Proof.
    exists (plane_point_normal (mk3 0 0 1) (mk3 0 0 1)), (mkRay zero3 (mk3 0 0 1)), (mkRay zero3 (mk3 0 0 (-1))).
    unfold on_plane, plane_point_normal, ray_at, plane_ray, plane_ray_t, zero3. cbn [pl_n pl_d origin direction]. rv0. cbn [vx vy vz].
    split; [done|]. split; [exists 1; lra|]. split; [|split].
    - destruct (Rltb _ 0) eqn:E; [done|]. apply Rltb_false in E.
      match type of E with 0 <= ?x => replace x with (-1) in E by field end. lra.
    - intros t Ht. lra.
    - destruct (Rltb _ 0) eqn:E; [|eauto]. apply Rltb_true in E.
      match type of E with ?x < 0 => replace x with 1 in E by field end. lra.
  Qed.
  (** Two planes: the returned line is the intersection of the planes [n . x = d]. *)
  Theorem C36_plane_plane_test p1 p2 : plane_plane_test eps p1 p2 = true <-> is_Some (plane_plane eps p1 p2).
  Proof. unfold plane_plane_test, plane_plane. destruct (near0 _ _); simpl; split; [done|by intros []|eauto|done]. Qed.
  Theorem C36_plane_plane_exact p1 p2 r : plane_plane eps p1 p2 = Some r ->
    direction r <> zero3 /\ forall p, on_plane p1 p /\ on_plane p2 p <-> exists t, p = ray_at r t.
  Proof.
    unfold plane_plane. destruct (near0 _ _) eqn:E; [done|]. intros Hs. apply (inj Some) in Hs as <-.
    unfold near0 in E. rs. apply Rleb_false in E. set (d := cross3 (pl_n p1) (pl_n p2)) in *.
    assert (Hd : 0 < dot3 d d). { pose proof (dot3_nonneg d). rewrite Rabs_pos_eq in E by done. lra. }
    cbn [direction]. split.
    { intros Hz. rewrite Hz in Hd. unfold zero3, dot3 in Hd. rs. lra. }
    set (D := dot3 d d) in *.
    set (o := div3 (cross3 (sub3 (scale3 (pl_n p2) (pl_d p1)) (scale3 (pl_n p1) (pl_d p2))) d) D).
    assert (Ho : on_plane p1 o /\ on_plane p2 o).
    { assert (HD : D <> 0) by lra. unfold on_plane, o. unfold D, d in *. clear -HD.
      destruct (pl_n p1) as [a b c], (pl_n p2) as [a' b' c']. generalize (pl_d p1), (pl_d p2). intros u v.
      rv0. cbn [vx vy vz] in *. split; field; done. }
    assert (Hdn : dot3 (pl_n p1) d = 0 /\ dot3 (pl_n p2) d = 0).
    { unfold d. split; rv0; ring. }
    unfold on_plane, ray_at in *. cbn [origin direction]. destruct Ho as [O1 O2], Hdn as [D1 D2]. intros p. split.
    - intros [P1 P2]. exists (dot3 (sub3 p o) d / D).
      (* the difference is orthogonal to both normals, hence a multiple of d *)
      assert (Q1 : dot3 (pl_n p1) (sub3 p o) = 0). { replace (dot3 (pl_n p1) (sub3 p o)) with (dot3 (pl_n p1) p - dot3 (pl_n p1) o) by (rv0; ring). lra. }
      assert (Q2 : dot3 (pl_n p2) (sub3 p o) = 0). { replace (dot3 (pl_n p2) (sub3 p o)) with (dot3 (pl_n p2) p - dot3 (pl_n p2) o) by (rv0; ring). lra. }
      set (w := sub3 p o) in *.
      assert (Hw : scale3 w D = scale3 d (dot3 w d)).
      { (* d x (d x w) = d (d.w) - w (d.d), and d x w = (n1 x n2) x w = n2 (n1.w) - n1 (n2.w) = 0 *)
        assert (Hc : cross3 d w = zero3).
        { replace (cross3 d w) with (sub3 (scale3 (pl_n p2) (dot3 (pl_n p1) w)) (scale3 (pl_n p1) (dot3 (pl_n p2) w)))
            by (unfold d; apply V3_eq; rv0; ring).
          rewrite Q1, Q2. apply V3_eq; rv0; ring. }
        assert (Hx : sub3 (scale3 d (dot3 w d)) (scale3 w D) = cross3 d (cross3 d w)) by (unfold D; apply V3_eq; rv0; ring).
        rewrite Hc in Hx. assert (Hzz : sub3 (scale3 d (dot3 w d)) (scale3 w D) = zero3) by (rewrite Hx; apply V3_eq; rv0; ring).
        pose proof (f_equal vx Hzz). pose proof (f_equal vy Hzz). pose proof (f_equal vz Hzz). clear Hzz Hx.
        apply V3_eq; rv0; lra. }
      assert (Hp : p = add3 o w) by (unfold w; apply V3_eq; rv0; ring).
      rewrite Hp. clearbody w. assert (Ew : w = scale3 d (dot3 w d / D)); [|by rewrite <- Ew].
      pose proof (f_equal vx Hw) as X. pose proof (f_equal vy Hw) as Y. pose proof (f_equal vz Hw) as Z.
      set (u := dot3 w d) in *. clearbody u D. unfold scale3 in *. rs. cbn [vx vy vz] in *.
      apply V3_eq; cbn [vx vy vz]; apply (Rmult_eq_reg_r D); try lra; [rewrite X|rewrite Y|rewrite Z]; field; lra.
    - intros (t & ->). rewrite !dot3_lin, D1, D2. lra.
  Qed.
  (** Three planes: the returned point is the only common one. *)
  Theorem C36_three_planes_point p1 p2 p3 q : plane3 eps p1 p2 p3 = Some q ->
    forall p, on_plane p1 p /\ on_plane p2 p /\ on_plane p3 p <-> p = q.
  Proof.
    unfold plane3. destruct (near0 _ _) eqn:E; [done|]. intros Hs. apply (inj Some) in Hs as <-.
    unfold near0 in E. rs. apply Rleb_false in E. rewrite Rabs_Rabsolu in E.
    set (D := dot3 (pl_n p1) (cross3 (pl_n p2) (pl_n p3))) in *.
    assert (HD : D <> 0). { intros HD. rewrite HD, Rabs_R0 in E. lra. } clear E. intros p. unfold on_plane. unfold D in *. clear D.
    destruct (pl_n p1) as [a b c], (pl_n p2) as [a' b' c'], (pl_n p3) as [a2 b2 c2].
    generalize (pl_d p1), (pl_d p2), (pl_d p3). intros u v w. clear p1 p2 p3. destruct p as [x y z]. rv0. cbn [vx vy vz] in *. split.
    - intros (<- & <- & <-). f_equal; field; done.
    - intros Hp. injection Hp as -> -> ->. repeat split; field; done.
  Qed.
  Theorem C36_three_planes_test p1 p2 p3 : (plane3_test eps p1 p2 p3 = true <-> is_Some (plane3 eps p1 p2 p3))
    /\ (plane3 eps p1 p2 p3 = None <-> Rabs (dot3 (pl_n p1) (cross3 (pl_n p2) (pl_n p3))) <= eps).
  Proof.
    unfold plane3_test, plane3, near0. rs. rewrite Rabs_Rabsolu.
    destruct (Rleb _ eps) eqn:E; cbn [negb]; [apply Rleb_true in E|apply Rleb_false in E].
    - split; [split; [done|by intros []]|done].
    - split; [split; [eauto|done]|]. split; [done|lra].
  Qed.
End planes.

(** Over numbers with IEEE infinities and NaN: a ray parallel to the plane. *)
Section parallel.
  Definition fin_plane (p : Plane xr) (q : Plane R) : Prop := fin3 (pl_n p) (pl_n q) /\ is_fin (pl_d p) (pl_d q).
  Lemma fin_dot3 a b a' b' : fin3 a a' -> fin3 b b' -> is_fin (dot3 a b) (dot3 a' b').
  Proof. intros (A1 & A2 & A3) (B1 & B2 & B3). unfold dot3. apply fin_add; [apply fin_add|]; by apply fin_mul. Qed.
  (** The ray lies in the plane the code tests ([n . x = -d]): Continuous reports a NaN point, Discrete no hit. *)
  Theorem C36_ray_in_plane_refuted p r p' r' : fin_plane p p' -> fin_ray3 r r' -> dot3 (direction r') (pl_n p') = 0 ->
    dot3 (origin r') (pl_n p') = - pl_d p' ->
    plane_ray p r = Some (mk3 XNaN XNaN XNaN) /\ plane_ray_test p r = false.
  Proof.
    intros [Hn Hd] [Ho Hdir] Hz Hin.
    assert (Ht : plane_ray_t p r = XNaN).
    { unfold plane_ray_t. cbn [nadd nneg ndiv Num_xr].
      pose proof (fin_neg _ _ (fin_add _ _ _ _ Hd (fin_dot3 _ _ _ _ Ho Hn))) as [s ->].
      pose proof (fin_dot3 _ _ _ _ Hdir Hn) as [s' ->]. rewrite Hz, Hin. simpl. unfold Rzero.
      rewrite !(proj2 (Reqb_true _ _)) by lra. done. }
    unfold plane_ray, plane_ray_test. rewrite Ht. split; [|done]. simpl.
    destruct Ho as ([? Ox] & [? Oy] & [? Oz]), Hdir as ([? Dx] & [? Dy] & [? Dz]).
    unfold add3, scale3. rewrite Ox, Oy, Oz, Dx, Dy, Dz. done.
  Qed.
  (** A parallel ray off the plane can be reported as a hit (at infinity). *)
  Theorem C36_parallel_ray_hit_refuted : exists (p : Plane xr) r p' r', fin_plane p p' /\ fin_ray3 r r'
    /\ plane_ray_test p r = true /\ is_Some (plane_ray p r) /\ forall t, dot3 (pl_n p') (ray_at r' t) <> - pl_d p'.
  Proof.
    set (F := fun x => XFin false x).
    exists (mkPlane (mk3 (F 0) (F 0) (F 1)) (XFin true (-1))), (mkRay (mk3 (F 0) (F 0) (F 0)) (mk3 (F 1) (F 0) (F 0))),
      (mkPlane (mk3 0 0 1) (-1)), (mkRay (mk3 0 0 0) (mk3 1 0 0)).
    assert (Hf : forall x, is_fin (F x) x) by (intros x; by exists false).
    split. { repeat split; try apply Hf. by exists true. }
    split. { repeat split; apply Hf. }
    assert (Ht : plane_ray_t (mkPlane (mk3 (F 0) (F 0) (F 1)) (XFin true (-1))) (mkRay (mk3 (F 0) (F 0) (F 0)) (mk3 (F 1) (F 0) (F 0))) = XInf false).
    { unfold plane_ray_t, F. cbn [pl_n pl_d origin direction dot3 vx vy vz nadd nmul nneg ndiv Num_xr xadd xmul xneg xdiv xsign negb].
      unfold Rzero, Rneg. rewrite !(proj2 (Reqb_true _ _)) by lra.
      assert (Hfl : forall x, x <> 0 -> Reqb x 0 = false) by (intros x Hx; apply not_true_iff_false; by rewrite Reqb_true).
      rewrite !(Hfl 1) by lra. rewrite !(Hfl (-1)) by lra.
      assert (Rltb 1 0 = false) as -> by (apply Rltb_false; lra). cbn.
      rewrite !Hfl by lra. rewrite !(proj2 (Reqb_true _ _)) by lra. cbn.
      rewrite (proj2 (Rltb_false _ _)) by lra. done. }
    unfold plane_ray, plane_ray_test. rewrite Ht. split; [done|]. split; [eauto|].
    intros t. unfold ray_at. rv0. cbn [pl_n pl_d vx vy vz origin direction]. lra.
  Qed.
End parallel.
(** Instances. *)
Example C35_hypotheses_met : let q := mkPersp (-1) 1 (-1) 1 1 10 in let eps := 1/1000 in
  proper_persp q /\ eps * (q_right q - q_left q) < 2 * q_near q /\ eps * (q_top q - q_bottom q) < 2 * q_near q
  /\ eps * (q_far q - q_near q) < 2 * q_near q /\ (exists f, frustum_of_matrix eps (persp_matrix q) = Some f) /\ in_pyramid q (mk3 0 1 (-2))
  /\ let q' := mkPersp (-1) 1 (-1) 1 1 10000 in proper_persp q' /\ 2 * q_near q' <= eps * (q_far q' - q_near q').
Proof.
  cbv zeta. set (q := mkPersp (-1) 1 (-1) 1 1 10).
  assert (Hq : proper_persp q) by (unfold proper_persp; simpl; lra).
  split; [done|]. split; [simpl; lra|]. split; [simpl; lra|]. split; [simpl; lra|]. split.
  { destruct (C35_perspective_exact (1/1000) ltac:(lra) q Hq) as (f & Hf & _); [lra|simpl; lra..|].
    unfold persp_to_frustum in Hf. destruct (_ && _); [|done]. destruct (frustum_of_matrix _ _); [eauto|done]. }
  split; [unfold in_pyramid; simpl; lra|]. split; [unfold proper_persp|]; simpl; lra.
Qed.
Example C36_hypotheses_met eps : 0 <= eps < 1 ->
  is_Some (plane_from_points eps (mk3 1 0 0) (mk3 0 1 0) (mk3 0 0 1))
  /\ is_Some (plane_plane eps (mkPlane (mk3 1 0 0) 2) (mkPlane (mk3 0 1 0) 3))
  /\ is_Some (plane3 eps (mkPlane (mk3 1 0 0) 2) (mkPlane (mk3 0 1 0) 3) (mkPlane (mk3 0 0 1) 4)).
Proof.
  intros He. split; [|split].
  - apply not_eq_None_Some. rewrite C36_from_points_none_iff_collinear. rv0. cbn [vx vy vz]. intros (Hx & _).
    match type of Hx with Rabs ?a <= _ => replace a with 1 in Hx by ring end. rewrite Rabs_R1 in Hx. lra.
  - apply C36_plane_plane_test. unfold plane_plane_test, near0. cbn [pl_n pl_d]. rv0. cbn [vx vy vz].
    match goal with |- context [Rabs ?a] => replace a with 1 by ring end. rewrite Rabs_R1. apply negb_true_iff, Rleb_false. lra.
  - apply not_eq_None_Some. rewrite (proj2 (C36_three_planes_test eps _ _ _)). cbn [pl_n pl_d]. rv0. cbn [vx vy vz].
    match goal with |- context [Rabs ?a] => replace a with 1 by ring end. rewrite Rabs_R1. lra.
Qed.
