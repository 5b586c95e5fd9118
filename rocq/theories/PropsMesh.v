(** Polyhedra given with faces: construction (C53) and support function (C54). *)
From Coq Require Import Psatz.
From stdpp Require Import prelude fin_maps gmap.
From Flocq Require Import Core BinarySingleNaN.
From Coq Require Import Reals Lra.
From Verif Require Import Res Num Vec AabbModel GeoModel RealGeo PrimModel ShapeSpec MinkModel PropsPlane PropsSupport PrimEnum PropsBound MeshSpec MeshModel MeshBuild MeshGeo MeshClimb.
Local Open Scope R_scope.

(** ** Specification *)
(** The corners of the triangle [f] are the points [a], [b] and [c]. *)
Definition corners_at {A} (vs : list A) (f : tri) (abc : A * A * A) : Prop :=
  vs !! f.1.1 = Some abc.1.1 /\ vs !! f.1.2 = Some abc.1.2 /\ vs !! f.2 = Some abc.2.
(** A normal of the triangle: seen from its tip the corners turn anticlockwise. *)
Definition tri_normal (abc : P3 * P3 * P3) : P3 := cross3 (sub3 abc.1.2 abc.1.1) (sub3 abc.2 abc.1.1).
(** The indices are in range and the triangle is not thinner than the tolerance. *)
Definition face_ok (eps : R) (vs : list P3) (f : tri) : Prop := exists abc, corners_at vs f abc /\
  (eps < Rabs (vx (tri_normal abc)) \/ eps < Rabs (vy (tri_normal abc)) \/ eps < Rabs (vz (tri_normal abc))).
(** A convex polyhedron: its triangles form a closed surface, no vertex is outside of the
    plane of a triangle, the vertices do not all lie in one plane, and every vertex is a
    corner: some plane through it has all other points strictly on one side. *)
Record convex_mesh (vs : list P3) (fs : list tri) : Prop := {
  cm_surface : closed_surface fs;
  cm_outward f abc q : f ∈ fs -> corners_at vs f abc -> q ∈ vs -> dot3 (tri_normal abc) (sub3 q abc.1.1) <= 0;
  cm_solid n k : n <> zero3 -> exists q, q ∈ vs /\ dot3 n q <> k;
  cm_corner p : p ∈ vs -> exists c, forall q, q ∈ vs -> q <> p -> 0 < dot3 c (sub3 q p);
  cm_used i : (i < length vs)%nat -> exists j, (i, j) ∈ mesh_sides fs
}.

(** ** C53: construction *)
Section construct.
  Context (eps : R) (Heps : 0 <= eps).
  Lemma face_ok_good vs f : face_ok eps vs f <-> good_face eps vs f.
  Proof.
    destruct f as [[i j] k]. unfold face_ok, good_face, corners_at. cbn [fst snd]. split.
    - intros ([[a b] c] & (Ha & Hb & Hc) & Hn). exists a, b, c. split_and!; [done..|]. apply not_eq_None_Some.
      rewrite C36_from_points_none_iff_collinear. unfold tri_normal in Hn. cbn [fst snd] in *. intros (? & ? & ?). lra.
    - intros (a & b & c & Ha & Hb & Hc & Hs). exists (a, b, c). split; [done|]. apply not_eq_None_Some in Hs.
      rewrite C36_from_points_none_iff_collinear in Hs. unfold tri_normal. cbn [fst snd].
      set (n := cross3 _ _) in *. cbn zeta in Hs.
      destruct (Rle_dec (Rabs (vx n)) eps); [|lra]. destruct (Rle_dec (Rabs (vy n)) eps); [|lra]. destruct (Rle_dec (Rabs (vz n)) eps); [tauto|lra].
  Qed.
  Lemma face_ok_proper vs f : face_ok eps vs f -> proper_tris [f].
  Proof.
    intros ([[a b] c] & (Ha & Hb & Hc) & Hn). apply Forall_singleton. destruct f as [[i j] k]. cbn [fst snd] in *. unfold tri_normal in Hn. cbn [fst snd] in Hn.
    split_and!; intros ->; simplify_eq; clear -Hn Heps; revert Hn; rv0;
      match goal with |- _ < Rabs ?x \/ _ < Rabs ?y \/ _ < Rabs ?z -> _ => replace x with 0 by ring; replace y with 0 by ring; replace z with 0 by ring end;
      rewrite Rabs_R0; lra.
  Qed.
  Lemma new_faces_spec vs fs :
    (Forall (face_ok eps vs) fs -> exists s hfs, poly_new_faces eps vs fs = Ok (poly_of vs s hfs) /\ binv eps vs fs s hfs) /\
    (~ Forall (face_ok eps vs) fs -> poly_new_faces eps vs fs = Panic).
  Proof.
    assert (E : Forall (face_ok eps vs) fs <-> Forall (good_face eps vs) fs).
    { rewrite !Forall_forall. split; intros Hf f Hin; by apply face_ok_good, Hf. }
    rewrite E. apply poly_new_faces_spec. intros f _ Hg. apply (face_ok_proper vs). by apply face_ok_good.
  Qed.
  Lemma new_faces_ok vs fs p : poly_new_faces eps vs fs = Ok p ->
    Forall (face_ok eps vs) fs /\ exists s hfs, p = poly_of vs s hfs /\ binv eps vs fs s hfs.
  Proof.
    intros Hp. destruct (new_faces_spec vs fs) as [N1 N2].
    assert (Hall : Forall (face_ok eps vs) fs).
    { assert (Hdec : forall f, face_ok eps vs f \/ ~ face_ok eps vs f).
      { intros f. rewrite !face_ok_good. destruct f as [[a b] c]. unfold good_face. destruct (vs !! a) as [pa|] eqn:Ea; [|right; naive_solver].
        destruct (vs !! b) as [pb|] eqn:Eb; [|right; naive_solver]. destruct (vs !! c) as [pc|] eqn:Ec; [|right; naive_solver].
        destruct (plane_from_points eps pa pb pc) eqn:Epl; [left; exists pa, pb, pc; rewrite Epl; eauto|].
        right. intros (? & ? & ? & ? & ? & ? & [? ?]). simplify_eq. }
      assert (Hd : Forall (face_ok eps vs) fs \/ ~ Forall (face_ok eps vs) fs).
      { clear -Hdec. induction fs as [|f fs IH]; [by left|]. destruct (Hdec f), IH; [left; by constructor|right; intros ?%Forall_cons; tauto..]. }
      destruct Hd as [?|Hn]; [done|]. by rewrite (N2 Hn) in Hp. }
    split; [done|]. destruct (N1 Hall) as (s & hfs & E & Hb). rewrite E in Hp. injection Hp as <-. eauto.
  Qed.
  (** The construction succeeds exactly if all faces have indices in range and are not
      degenerate; otherwise it panics. *)
  Theorem C53_construction vs fs :
    (Forall (face_ok eps vs) fs -> exists p, poly_new_faces eps vs fs = Ok p) /\
    (~ Forall (face_ok eps vs) fs -> poly_new_faces eps vs fs = Panic).
  Proof.
    destruct (new_faces_spec vs fs) as [N1 N2]. split; [|done]. intros Ha. destruct (N1 Ha) as (s & hfs & E & _). eauto.
  Qed.
  Lemma face_points_of vs fs s hfs hf f : binv eps vs fs s hfs -> face_of eps vs s f hf ->
    exists abc, corners_at vs f abc /\ face_points (poly_of vs s hfs) hf = Ok abc.
  Proof.
    intros Hb. destruct f as [[i j] k]. intros (Ev & _ & a & b & c & Ha & Hb' & Hc & _). exists (a, b, c). split; [done|].
    unfold face_points. rewrite Ev. cbn [poly_of ph_vertices]. pose proof (b_inv _ _ _ _ _ Hb) as Hi.
    apply (vertex_pos _ _ _ _ _ _ Hi) in Ha as (ha & Ha & <-), Hb' as (hb & Hb' & <-), Hc as (hc & Hc & <-).
    rewrite (get_Some _ _ _ Ha), (get_Some _ _ _ Hb'), (get_Some _ _ _ Hc). done.
  Qed.
  (** The faces are listed in the order in which they were given, each with the positions
      of its three vertices in the given order. *)
  Theorem C53_faces_in_order vs fs p : poly_new_faces eps vs fs = Ok p ->
    exists l, faces_iter p = Ok l /\ Forall2 (corners_at vs) fs l.
  Proof.
    intros (_ & s & hfs & -> & Hb)%new_faces_ok. unfold faces_iter. cbn [poly_of ph_half_edge ph_faces].
    pose proof (b_faces _ _ _ _ _ Hb) as Hf.
    assert (Hpt : forall f hf, face_of eps vs s f hf -> exists abc, corners_at vs f abc /\ face_points (poly_of vs s hfs) hf = Ok abc).
    { intros f hf. by apply (face_points_of vs fs). }
    change (mkPoly true _ _ _ _ _) with (poly_of vs s hfs). generalize (poly_of vs s hfs) as p, Hpt. intros p Hp. clear -Hf Hp.
    induction Hf as [|f hf fs hfs' Hff _ IH]; [by exists []|]. destruct IH as (l & El & Hl), (Hp _ _ Hff) as (abc & Habc & E).
    exists (abc :: l). cbn [mapM_res]. rewrite E. cbn [mbind res_mbind res_bind]. rewrite El. split; [done|by constructor].
  Qed.
  (** Bounding box and bounding sphere do not depend on the faces; listing the faces of a
      polyhedron given without faces panics. *)
  Theorem C53_bounds_of_vertices vs fs p : poly_new_faces eps vs fs = Ok p ->
    ph_bound p = prim3_bound (ConvexPolyhedron vs) /\ mkSphere zero3 (ph_extent p) = prim3_sphere (ConvexPolyhedron vs).
  Proof. intros (_ & s & hfs & -> & Hb)%new_faces_ok. done. Qed.
  Theorem C53_no_faces (vs : list P3) : faces_iter (poly_new vs) = Panic /\
    ph_bound (poly_new vs) = prim3_bound (ConvexPolyhedron vs) /\ mkSphere zero3 (ph_extent (poly_new vs)) = prim3_sphere (ConvexPolyhedron vs).
  Proof. done. Qed.
End construct.

(** ** C54: support *)
Lemma posn_in (vs : list P3) i : (i < length vs)%nat -> vs !! i = Some (posn vs i) /\ posn vs i ∈ vs.
Proof.
  intros Hi. apply lookup_lt_is_Some in Hi as [q Hq]. unfold posn. rewrite Hq. split; [done|]. by eapply elem_of_list_lookup_2.
Qed.
Lemma corners_posn (vs : list P3) f abc : corners_at vs f abc -> abc = (posn vs f.1.1, posn vs f.1.2, posn vs f.2).
Proof. destruct abc as [[a b] c]. intros (Ha & Hb & Hc). unfold posn. by rewrite Ha, Hb, Hc. Qed.
Section support.
  Context (eps : R) (Heps : 0 <= eps) (vs : list P3) (fs : list tri).
  Hypothesis Hok : Forall (face_ok eps vs) fs.
  Hypothesis Hcm : convex_mesh vs fs.
  Notation P := (posn vs).
  Lemma face_data f : f ∈ fs -> corners_at vs f (P f.1.1, P f.1.2, P f.2) /\ tri_normal (P f.1.1, P f.1.2, P f.2) <> zero3 /\
    forall q, q ∈ vs -> dot3 (tri_normal (P f.1.1, P f.1.2, P f.2)) (sub3 q (P f.1.1)) <= 0.
  Proof.
    intros Hf. pose proof (proj1 (Forall_forall _ _) Hok f Hf) as (abc & Hc & Hn). pose proof (corners_posn _ _ _ Hc) as ->.
    split_and!; [done| |].
    - intros E. rewrite E in Hn. cbn in Hn. rewrite Rabs_R0 in Hn. lra.
    - intros q Hq. by apply (cm_outward _ _ Hcm f _ q Hf Hc).
  Qed.
  Lemma side_lt u v : (u, v) ∈ mesh_sides fs -> (u < length vs)%nat /\ (v < length vs)%nat.
  Proof.
    intros (f & Hf & Hs)%side_face. destruct (face_data f Hf) as ((H1 & H2 & H3) & _). apply lookup_lt_Some in H1, H2, H3.
    destruct f as [[a b] c]. cbn in *. rewrite !elem_of_cons in Hs. destruct Hs as [[= -> ->] | [[= -> ->] | [[= -> ->] | []%elem_of_nil]]]; done.
  Qed.
  Lemma corner_data w v x : (w, v, x) ∈ mesh_corners fs -> cross3 (sub3 (P w) (P v)) (sub3 (P x) (P v)) <> zero3 /\
    forall q, q ∈ vs -> 0 <= det3 (sub3 (P w) (P v)) (sub3 (P x) (P v)) (sub3 q (P v)).
  Proof.
    intros (f & Hf & Hc)%corner_face. destruct (face_data f Hf) as (_ & Hn & Ho). destruct f as [[a b] c]. cbn [fst snd tri_corners] in *.
    unfold tri_normal in *. cbn [fst snd] in *.
    assert (Hneg : forall n : P3, n <> zero3 -> neg3 n <> zero3).
    { clear. intros n Hn E. apply Hn. assert (vx (neg3 n) = 0 /\ vy (neg3 n) = 0 /\ vz (neg3 n) = 0) as (? & ? & ?) by (by rewrite E).
      apply V3_eq; rv0; lra. }
    assert (Hkey : cross3 (sub3 (P w) (P v)) (sub3 (P x) (P v)) = neg3 (cross3 (sub3 (P b) (P a)) (sub3 (P c) (P a))) /\
      forall q, dot3 (cross3 (sub3 (P b) (P a)) (sub3 (P c) (P a))) (sub3 q (P v)) = dot3 (cross3 (sub3 (P b) (P a)) (sub3 (P c) (P a))) (sub3 q (P a))).
    { rewrite !elem_of_cons in Hc. destruct Hc as [[= -> -> ->] | [[= -> -> ->] | [[= -> -> ->] | []%elem_of_nil]]];
        generalize (P a), (P b), (P c); clear; intros a b c; (split; [apply V3_eq; rv0; ring|intros q; rv0; ring]). }
    destruct Hkey as [Ex Eq]. unfold det3. rewrite Ex. split; [by apply Hneg|]. intros q Hq. rewrite dot3_neg_l, Eq. specialize (Ho q Hq). lra.
  Qed.
  (** A vertex that is highest among its neighbours is highest of all. *)
  Lemma local_global d b : (exists w, (b, w) ∈ mesh_sides fs) -> (forall w, (b, w) ∈ mesh_sides fs -> dot3 (P w) d <= dot3 (P b) d) ->
    forall q, q ∈ vs -> dot3 d q <= dot3 d (P b).
  Proof.
    intros (w0 & Hw0) Hloc q Hq. pose proof (cm_surface _ _ Hcm) as Hcs.
    destruct (nb_first fs b w0 Hcs Hw0) as (k & Hk & Ek & _). destruct (side_lt _ _ Hw0) as [Hb _]. destruct (posn_in vs b Hb) as [_ HPb].
    destruct (cm_corner _ _ Hcm _ HPb) as (c & Hc).
    set (e := fun i => sub3 (P (nb fs b w0 i)) (P b)). set (zs := map (fun q => sub3 q (P b)) vs).
    assert (Hsz : forall x y : P3, x <> y -> sub3 x y <> zero3).
    { clear. intros x y Hxy E. apply Hxy. assert (vx (sub3 x y) = 0 /\ vy (sub3 x y) = 0 /\ vz (sub3 x y) = 0) as (? & ? & ?) by (by rewrite E). apply V3_eq; rv0; lra. }
    assert (Hcr : forall i, cross3 (e i) (e (S i)) <> zero3 /\ forall q, q ∈ vs -> 0 <= det3 (e i) (e (S i)) (sub3 q (P b))).
    { intros i. apply corner_data. by apply nb_corner. }
    assert (Hnb : forall i, P (nb fs b w0 i) ∈ vs). { intros i. apply posn_in. by destruct (side_lt _ _ (proj1 (nb_side fs b w0 Hcs Hw0 i))). }
    assert (Hd : dot3 d (sub3 q (P b)) <= 0).
    { apply (fan_global e k) with (c := c) (zs := zs).
      - unfold e. by rewrite Ek.
      - done.
      - intros i. apply Hcr.
      - intros i z (q' & -> & Hq')%elem_of_list_fmap. by apply Hcr.
      - intros i. apply Hc; [apply Hnb|]. intros E. destruct (Hcr i) as [Hn _]. apply Hn. unfold e. rewrite E. generalize (P b), (P (nb fs b w0 (S i))). clear. intros. apply V3_eq; rv0; ring.
      - intros z (q' & -> & Hq')%elem_of_list_fmap Hz. apply Hc; [done|]. intros ->. apply Hz. generalize (P b). clear. intros. apply V3_eq; rv0; ring.
      - intros n Hn. destruct (cm_solid _ _ Hcm n (dot3 n (P b)) Hn) as (q' & Hq' & Hne). exists (sub3 q' (P b)). split.
        + unfold zs. apply elem_of_list_fmap. eauto.
        + intros E. apply Hne. clear -E. revert E. generalize (P b). intros. rv0. lra.
      - intros i. specialize (Hloc _ (proj1 (nb_side fs b w0 Hcs Hw0 i))). unfold e. clear -Hloc. revert Hloc. generalize (P b), (P (nb fs b w0 i)). intros. rv0. lra.
      - unfold zs. apply elem_of_list_fmap. eauto. }
    clear -Hd. revert Hd. generalize (P b). intros. rv0. lra.
  Qed.
  Lemma climb_max s hfs d rfuel fuel : vs <> [] -> binv eps vs fs s hfs -> (3 * length fs <= rfuel)%nat -> (length vs < fuel)%nat ->
    exists q, hill_climb rfuel fuel (poly_of vs s hfs) d = Ok q /\ q ∈ vs /\ forall x, x ∈ vs -> dot3 d x <= dot3 d q.
  Proof.
    intros Hne Hb Hr Hf. assert (H0 : (0 < length vs)%nat) by (destruct vs; cbn; [done|lia]).
    destruct (hill_climbs eps vs fs s hfs Hb (cm_surface _ _ Hcm) d rfuel fuel) as (b & q & -> & Hq & Hu & Hloc); [by apply (cm_used _ _ Hcm)|done|done|].
    exists q. split; [done|]. split; [by eapply elem_of_list_lookup_2|]. assert (P b = q) as <- by (unfold posn; by rewrite Hq).
    apply local_global; done.
  Qed.
End support.
(** The hill climbing ends, does not panic, and finds the same maximum as an exhaustive
    search over the vertices. *)
Theorem C54_support (eps : R) (vs : list P3) (fs : list tri) p (T : Xf P3) d rfuel fuel :
  0 <= eps -> poly_new_faces eps vs fs = Ok p -> vs <> [] -> convex_mesh vs fs -> similar3 T ->
  (3 * length fs <= rfuel)%nat -> (length vs < fuel)%nat ->
  exists s, polyhedron_support rfuel fuel p d T = Ok s /\ furthest3 (world T (hull3 vs)) d s.
Proof.
  intros Heps (Hok & s & hfs & -> & Hb)%new_faces_ok Hne Hcm (k & Hk & HT) Hr Hf; [|done].
  destruct (HT d) as (d' & Ed & _ & Hd). unfold polyhedron_support. rewrite Ed. cbn [poly_of ph_half_edge].
  destruct (climb_max eps Heps vs fs Hok Hcm s hfs d' rfuel fuel Hne Hb Hr Hf) as (q & Eq & Hq & Hmax).
  rewrite Eq. cbn [mbind res_mbind res_bind]. exists (xf_pt T q). split; [done|]. split.
  - exists q. split; [by apply hull3_vertex|done].
  - intros x (y & Hy & ->). pose proof (hull3_le _ d' _ _ Hy Hmax) as Hle.
    specialize (Hd y q). assert (dot3 d (sub3 (xf_pt T y) (xf_pt T q)) <= 0) as Hs.
    { rewrite Hd. assert (dot3 d' (sub3 y q) <= 0) by (clear -Hle; rv0; lra). nra. }
    clear -Hs. revert Hs. generalize (xf_pt T y), (xf_pt T q). intros. rv0. lra.
Qed.
(** A case that meets the hypotheses: a cube made of twelve triangles. *)
Lemma fans_check fs : (forall s1 s2, s1 ∈ mesh_sides fs -> s2 ∈ mesh_sides fs -> s1.1 = s2.1 ->
    exists i, Nat.iter i (succ_at fs s1.1) s1.2 = s2.2) -> closed fs -> fans fs.
Proof.
  intros Hch Hcl v w x Hw Hx. destruct (Hch (v, w) (v, x) Hw Hx eq_refl) as (i & Hi). cbn [fst snd] in Hi. subst x. clear Hx.
  assert (Hgo : (v, Nat.iter i (succ_at fs v) w) ∈ mesh_sides fs /\ rtc (fun w x => (w, v, x) ∈ mesh_corners fs) w (Nat.iter i (succ_at fs v) w)); [|apply Hgo].
  induction i as [|i [IH1 IH2]]; [split; [done|apply rtc_refl]|]. cbn [Nat.iter].
  pose proof (succ_corner fs v _ (Hcl _ _ IH1)) as Hc. split.
  - apply corner_face in Hc as (f & Hf & Hc). apply side_face. exists f. split; [done|]. by apply corner_sides in Hc as (_ & ? & _).
  - by eapply rtc_r.
Qed.
Definition cube_vs : list P3 := [mk3 (-1) (-1) (-1); mk3 (-1) (-1) 1; mk3 (-1) 1 (-1); mk3 (-1) 1 1; mk3 1 (-1) (-1); mk3 1 (-1) 1; mk3 1 1 (-1); mk3 1 1 1].
Definition cube_fs : list tri := [(1, 3, 2); (1, 2, 0); (4, 6, 7); (4, 7, 5); (0, 4, 5); (0, 5, 1); (3, 7, 6); (3, 6, 2); (2, 6, 4); (2, 4, 0); (1, 5, 7); (1, 7, 3)]%nat.
Definition tri_check (fs : list tri) : bool :=
  bool_decide (NoDup (mesh_sides fs)) && forallb (fun s : nat * nat => bool_decide ((s.2, s.1) ∈ mesh_sides fs)) (mesh_sides fs)
  && forallb (fun s1 : nat * nat => forallb (fun s2 : nat * nat =>
       if (s1.1 =? s2.1)%nat then existsb (fun i => (Nat.iter i (succ_at fs s1.1) s1.2 =? s2.2)%nat) (seq 0 (length fs)) else true) (mesh_sides fs)) (mesh_sides fs).
Lemma tri_check_ok fs : tri_check fs = true -> closed_surface fs.
Proof.
  unfold tri_check. intros [[H1 H2]%andb_true_iff H3]%andb_true_iff. apply bool_decide_eq_true in H1.
  assert (Hcl : closed fs).
  { intros u v Huv. rewrite forallb_forall in H2. specialize (H2 (u, v)). rewrite bool_decide_eq_true in H2. apply H2. by apply elem_of_list_In. }
  split_and!; [done|done|]. apply fans_check; [|done]. intros s1 s2 Hs1 Hs2 E. rewrite forallb_forall in H3. specialize (H3 s1 (proj1 (elem_of_list_In _ _) Hs1)).
  rewrite forallb_forall in H3. specialize (H3 s2 (proj1 (elem_of_list_In _ _) Hs2)). rewrite E, Nat.eqb_refl in H3.
  apply existsb_exists in H3 as (i & _ & Hi). exists i. apply Nat.eqb_eq in Hi. by rewrite E.
Qed.
Lemma cube_in q : q ∈ cube_vs <-> (vx q = 1 \/ vx q = -1) /\ (vy q = 1 \/ vy q = -1) /\ (vz q = 1 \/ vz q = -1).
Proof.
  unfold cube_vs. rewrite !elem_of_cons, elem_of_nil. split.
  - intros Hq. repeat (destruct Hq as [-> | Hq]; [cbn; lra|]). done.
  - intros ([E1|E1] & [E2|E2] & [E3|E3]); destruct q as [x y z]; cbn in *; subst; tauto.
Qed.
Lemma cube_convex : convex_mesh cube_vs cube_fs.
Proof.
  split.
  - apply tri_check_ok. by vm_compute.
  - intros f [[a b] c] q Hf (H1 & H2 & H3) (Hx & Hy & Hz)%cube_in. unfold cube_fs in Hf. rewrite !elem_of_cons in Hf.
    repeat (destruct Hf as [-> | Hf]; [cbn in H1, H2, H3; simplify_eq; unfold tri_normal; cbn [fst snd]; rv0; lra|]). by apply elem_of_nil in Hf.
  - intros n k Hn. assert (Hd : Rlt_dec 0 0 = Rlt_dec 0 0) by done. clear Hd.
    assert (Hin : forall x y z, (x = 1 \/ x = -1) -> (y = 1 \/ y = -1) -> (z = 1 \/ z = -1) -> mk3 x y z ∈ cube_vs) by (intros; by apply cube_in).
    destruct (Req_EM_T (vx n) 0) as [Ex|Ex]; [destruct (Req_EM_T (vy n) 0) as [Ey|Ey]; [destruct (Req_EM_T (vz n) 0) as [Ez|Ez]|]|].
    + destruct Hn. by apply V3_eq.
    + destruct (Req_EM_T (dot3 n (mk3 1 1 1)) k) as [E|E]; [|by exists (mk3 1 1 1); split; [apply Hin; lra|]].
      exists (mk3 1 1 (-1)). split; [apply Hin; lra|]. intros E'. apply Ez. rv0. lra.
    + destruct (Req_EM_T (dot3 n (mk3 1 1 1)) k) as [E|E]; [|by exists (mk3 1 1 1); split; [apply Hin; lra|]].
      exists (mk3 1 (-1) 1). split; [apply Hin; lra|]. intros E'. apply Ey. rv0. lra.
    + destruct (Req_EM_T (dot3 n (mk3 1 1 1)) k) as [E|E]; [|by exists (mk3 1 1 1); split; [apply Hin; lra|]].
      exists (mk3 (-1) 1 1). split; [apply Hin; lra|]. intros E'. apply Ex. rv0. lra.
  - intros p (Hx & Hy & Hz)%cube_in. exists (neg3 p). intros q (Hx' & Hy' & Hz')%cube_in Hne.
    destruct p as [px py pz], q as [qx qy qz]. rv0. cbn [vx vy vz] in *.
    assert (Hn : ~ (qx = px /\ qy = py /\ qz = pz)) by (intros (-> & -> & ->); done). clear Hne.
    destruct Hx as [-> | ->], Hy as [-> | ->], Hz as [-> | ->], Hx' as [-> | ->], Hy' as [-> | ->], Hz' as [-> | ->]; try lra; destruct Hn; lra.
  - intros i Hi. cbn in Hi. assert (Hc : forallb (fun i => existsb (fun s : nat * nat => (s.1 =? i)%nat) (mesh_sides cube_fs)) (seq 0 8) = true) by (by vm_compute).
    rewrite forallb_forall in Hc. assert (Hin : List.In i (seq 0 8)) by (apply in_seq; lia). specialize (Hc i Hin). apply existsb_exists in Hc as ([u v] & Hs & E). apply Nat.eqb_eq in E. cbn in E. subst u.
    exists v. by apply elem_of_list_In.
Qed.
Example C54_hypotheses_met : exists p, poly_new_faces (1 / 1000) cube_vs cube_fs = Ok p /\ cube_vs <> [] /\ convex_mesh cube_vs cube_fs /\ similar3 (@id_xf P3).
Proof.
  assert (Hok : Forall (face_ok (1 / 1000) cube_vs) cube_fs).
  { unfold cube_fs. repeat constructor.
    all: eexists (_, _, _); split; [split_and!; cbn; done|]; unfold tri_normal; cbn [fst snd]; rv0;
      match goal with |- _ < Rabs ?x \/ _ < Rabs ?y \/ _ < Rabs ?z => ring_simplify x y z end;
      unfold Rabs; repeat match goal with |- context [Rcase_abs ?x] => destruct (Rcase_abs x) end; lra. }
  destruct (proj1 (C53_construction (1 / 1000) ltac:(lra) cube_vs cube_fs) Hok) as (p & Hp). exists p. split_and!; [done|done|apply cube_convex|].
  exists 1. split; [lra|]. intros d. exists d. split_and!; [done|done|]. intros x y. cbn. rv0. ring.
Qed.

(** ** Where the support function fails *)
(** A single triangle (an open surface): the walk around a vertex never comes back to its
    first edge. *)
Definition tri_edges : list HEdge :=
  [mkHE 0 0 2 4 1 true; mkHE 2 0 0 0 0 false; mkHE 1 0 4 0 3 true; mkHE 0 0 0 0 2 false; mkHE 2 0 0 2 5 true; mkHE 1 0 0 0 4 false].
Lemma build_triangle (eps : R) (a b c : P3) : build_half_edges eps [a; b; c] [(0, 1, 2)%nat] =
  match plane_from_points eps a b c with
  | None => Panic
  | Some pl => Ok ([mkHV a 2 true; mkHV b 4 true; mkHV c 0 true], tri_edges, [mkHF 0 (0, 1, 2)%nat pl])
  end.
Proof.
  unfold build_half_edges, build_faces, build_face. unfold get at 1 2 3. cbn [map h_vertices lookup list_lookup mbind res_mbind res_bind hv_pos].
  destruct (plane_from_points eps a b c) as [pl|]; [|done]. done.
Qed.
Theorem C54_open_surface_refuted (eps : R) (a b c : P3) p (T : Xf P3) d d' rfuel fuel :
  poly_new_faces eps [a; b; c] [(0, 1, 2)%nat] = Ok p -> xf_ivec T d = Some d' ->
  polyhedron_support rfuel fuel p d T = OutOfFuel.
Proof.
  intros Hp Ed. unfold poly_new_faces in Hp. rewrite build_triangle in Hp. destruct (plane_from_points eps a b c) as [pl|]; [|done].
  cbn [mbind res_mbind res_bind] in Hp. injection Hp as <-.
  unfold polyhedron_support. rewrite Ed. cbn [ph_half_edge]. set (p := mkPoly _ _ _ _ _ _).
  assert (Hloop : forall n e b bd, e = 0%nat \/ e = 2%nat -> ring_loop n p d' 2 e b bd = OutOfFuel).
  { induction n as [|n IH]; intros e b0 bd He; [done|]. destruct He as [-> | ->].
    - cbn. destruct (Rltb bd _); apply IH; by left.
    - cbn. destruct (Rltb bd _); apply IH; by left. }
  unfold hill_climb. cbn. destruct fuel as [|fuel]; [done|]. cbn [climb_loop]. cbn [get ph_vertices p]. cbn.
  fold p. rewrite Hloop by (by right). done.
Qed.
(** A direction whose product with the first vertex is NaN: the search never returns. *)
Section nan.
  Context (prec emax : Z) {Hp : FLX.Prec_gt_0 prec} {He : Prec_lt_emax prec emax}.
  Local Instance num_nan : Num (binary_float prec emax) := Num_float prec emax.
  Local Instance sgn_nan : NumSgn (binary_float prec emax) := NumSgn_float prec emax.
  Lemma nan_ring (p : Polyhedron (binary_float prec emax)) d n start e b bd :
    is_nan bd = true -> match ring_loop n p d start e b bd with Ok r => r = (b, bd) | _ => True end.
  Proof.
    intros Hn. revert e. induction n as [|n IH]; intros e; [done|]. cbn [ring_loop].
    destruct (get (ph_edges p) e) as [x| |]; [|done|done]. cbn [mbind res_mbind res_bind].
    destruct (get (ph_vertices p) (he_target x)) as [v| |]; [|done|done]. cbn [mbind res_mbind res_bind].
    assert (nlt bd (dot3 (hv_pos v) d) = false) as ->. { destruct bd; done. }
    destruct (get (ph_edges p) (he_twin x)) as [t| |]; [|done|done]. cbn [mbind res_mbind res_bind].
    case_decide; [done|]. apply IH.
  Qed.
  Theorem C54_nan_direction_refuted (p : Polyhedron (binary_float prec emax)) v0 d T d' rfuel fuel q :
    ph_half_edge p = true -> ph_vertices p !! 0%nat = Some v0 -> xf_ivec T d = Some d' -> is_nan (dot3 (hv_pos v0) d') = true ->
    polyhedron_support rfuel fuel p d T <> Ok q.
  Proof.
    intros Hh Hv Ed Hn. unfold polyhedron_support. rewrite Ed, Hh. unfold hill_climb. rewrite (get_Some _ _ _ Hv). cbn [mbind res_mbind res_bind].
    generalize (dot3 (hv_pos v0) d') as bd, Hn. clear Hn. intros bd Hn.
    assert (Hc : forall n b i, climb_loop rfuel n p d' b bd <> Ok i).
    { induction n as [|n IH]; intros b i; [done|]. cbn [climb_loop]. destruct (get (ph_vertices p) b) as [v| |]; [|done|done]. cbn [mbind res_mbind res_bind].
      pose proof (nan_ring p d' rfuel (hv_edge v) (hv_edge v) b bd Hn) as Hr. destruct (ring_loop rfuel p d' (hv_edge v) (hv_edge v) b bd) as [r| |]; [|done|done].
      subst r. cbn [mbind res_mbind res_bind]. assert (neq bd bd = false) as -> by (destruct bd; done). apply IH. }
    destruct (climb_loop rfuel fuel p d' 0 bd) as [i| |] eqn:E; [|done|done]. by destruct (Hc fuel 0%nat i).
  Qed.
End nan.
(** A vertex in the middle of a flat side of the solid (here: of the bottom of a pyramid,
    [(1, 1, 0)]) is a trap: all its neighbours are at the same height, and the search for
    the highest point stops there, at the very bottom. *)
Local Instance num32m : Num f32 := Num_float 24 128.
Local Instance sgn32m : NumSgn f32 := NumSgn_float 24 128.
Definition F32pt3 (x y z : Z) : V3 f32 := mk3 (F32 x 0) (F32 y 0) (F32 z 0).
Definition pyramid_vs : list (V3 f32) := [F32pt3 1 1 0; F32pt3 0 0 0; F32pt3 4 0 0; F32pt3 0 4 0; F32pt3 1 1 4].
Definition pyramid_fs : list tri := [(0, 2, 1); (0, 3, 2); (0, 1, 3); (1, 2, 4); (2, 3, 4); (3, 1, 4)]%nat.
Theorem C54_flat_vertex_refuted :
  tri_check pyramid_fs = true /\
  match poly_new_faces (F32 1 (-20)) pyramid_vs pyramid_fs with
  | Ok p => match polyhedron_support 18 6 p (F32pt3 0 0 1) id_xf with
            | Ok q => neq (vz q) (F32 0 0) && nlt (dot3 q (F32pt3 0 0 1)) (dot3 (F32pt3 1 1 4) (F32pt3 0 0 1))
            | _ => false
            end
  | _ => false
  end = true.
Proof. split; by vm_compute. Qed.
Example C54_nan_case : match poly_new_faces (F32 1 (-20)) pyramid_vs pyramid_fs with
  | Ok p => match polyhedron_support 18 100 p (mk3 (B754_nan : f32) B754_nan B754_nan) id_xf with OutOfFuel => true | _ => false end
  | _ => false
  end = true.
Proof. by vm_compute. Qed.
