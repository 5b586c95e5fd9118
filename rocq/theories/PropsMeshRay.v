(** Rays and polyhedra given with faces (C55). *)
From Coq Require Import Psatz.
From stdpp Require Import prelude fin_maps gmap.
From Flocq Require Import Core BinarySingleNaN.
From Coq Require Import Reals Lra.
From Verif Require Import Res Num Vec AabbModel GeoModel RealGeo PrimModel ShapeSpec RaySpec MinkModel Dist PropsPlane PropsSupport MeshSpec MeshModel MeshBuild MeshGeo MeshClimb MeshCover PropsMesh MeshRay MeshFind.
Local Open Scope R_scope.


(** ** Specification *)
(** Neighbouring triangles are not coplanar: the corner of [f] that is not on the side it
    shares with [g] is strictly inside of the plane of [g]. *)
Definition strictly_convex (vs : list P3) (fs : list tri) : Prop :=
  forall f g abc u v x px, f ∈ fs -> g ∈ fs -> (u, v) ∈ tri_sides g -> (v, u, x) ∈ tri_corners f ->
    corners_at vs g abc -> vs !! x = Some px -> dot3 (tri_normal abc) (sub3 px abc.1.1) < 0.

Section theorems.
  Context (eps : R) (Heps : 0 <= eps) (vs : list P3) (fs : list tri) (p : Polyhedron R) (ray : Ray P3) (fuel : nat).
  Hypothesis Hp : poly_new_faces eps vs fs = Ok p.
  (** The search always ends, without panic, and the test agrees with the query. *)
  Theorem C55_terminates : fs <> [] -> (length fs < fuel)%nat -> exists o, polyhedron_ray fuel p ray = Ok o /\ polyhedron_ray_test fuel p ray = Ok (bool_decide (is_Some o)).
  Proof.
    intros Hne Hfu. destruct (new_faces_ok eps Heps vs fs p Hp) as (Hok & s & hfs & -> & Hb).
    destruct (find_ends eps Heps vs fs s hfs Hb Hok ray fuel Hne Hfu) as (o & E). pose proof (report eps Heps vs fs s hfs Hb Hok ray fuel) as Hr. rewrite E in Hr.
    destruct o as [o|].
    - destruct Hr as (f & t & _ & _ & _ & _ & E1 & E2). eauto.
    - destruct Hr as (E1 & E2). exists None. done.
  Qed.
  (** A reported point is where the ray first meets the solid, and the ray starts outside. *)
  Theorem C55_sound q : solid_mesh vs fs -> polyhedron_ray fuel p ray = Ok (Some q) ->
    ray_first (along3 ray) (hull3 vs) q /\ forall t, t < 0 -> ~ hull3 vs (along3 ray t).
  Proof.
    intros Hsm Hq. destruct (new_faces_ok eps Heps vs fs p Hp) as (Hok & s & hfs & -> & Hb). pose proof (report eps Heps vs fs s hfs Hb Hok ray fuel) as Hr.
    destruct (find_face fuel (poly_of vs s hfs) ray 0 []) as [[o|]| |]; [|destruct Hr as [E _]; by rewrite E in Hq..].
    destruct Hr as (f & t & Hf & Ht & Hn & Hin & E & _). rewrite E in Hq. injection Hq as <-.
    pose proof (Hok' eps Heps vs fs Hok) as Hk.
    assert (Hsh : forall x, hull3 vs (along3 ray x) -> t <= x) by (intros x; by eapply (shield eps Heps vs fs Hok ray)). split.
    - exists t. split_and!; [done|done| |].
      + by eapply (tri_hull vs fs Hk f).
      + intros x Hx Hh. specialize (Hsh x Hh). lra.
    - intros x Hx Hh. specialize (Hsh x Hh). lra.
  Qed.
  (** Up to nine triangles, or any number if no neighbours are coplanar: the answer is the
      first point on the ray, for every ray that starts outside; a ray that starts in the
      solid or has left it is never reported. *)
  Theorem C55_exact q : solid_mesh vs fs -> (length fs < 10)%nat \/ strictly_convex vs fs -> direction ray <> zero3 -> (length fs < fuel)%nat ->
    polyhedron_ray fuel p ray = Ok (Some q) <-> ray_first (along3 ray) (hull3 vs) q /\ forall t, t < 0 -> ~ hull3 vs (along3 ray t).
  Proof.
    intros Hsm Hcase Hd Hfu. split; [by apply C55_sound|]. intros [Hfst Hneg].
    destruct (new_faces_ok eps Heps vs fs p Hp) as (Hok & s & hfs & Ep & Hb). pose proof (Hok' eps Heps vs fs Hok) as Hk.
    assert (Hhit : exists f t, f ∈ fs /\ front vs ray f t /\ in_tri (posn vs f.1.1) (posn vs f.1.2) (posn vs f.2) (along3 ray t)).
    { destruct Hfst as (t & Ht & -> & Hh & Hfirst). destruct (entry vs fs Hk Hsm _ _ Hh Hd) as (f & Hf & Hen). destruct (enters_point vs f _ _ Hen) as (s0 & _ & Hin).
      assert (Ea : add3 (along3 ray t) (scale3 (direction ray) s0) = along3 ray (t + s0)) by (unfold along3; generalize (origin ray), (direction ray); clear; intros; apply V3_eq; rv0; ring).
      rewrite Ea in Hin. pose proof (tri_hull vs fs Hk f _ Hf Hin) as Hh'.
      assert (0 <= t + s0). { destruct (Rlt_dec (t + s0) 0) as [Hlt|]; [|lra]. by destruct (Hneg _ Hlt). }
      destruct (hits_front vs ray f) as (t' & Hfr & Hin'); [split; [apply Hen|]; eauto|]. eauto. }
    destruct Hhit as (f & t & Hf & Hfr & Hin). apply elem_of_list_lookup in Hf as (k & Hkf).
    assert (Hfound : exists o, find_face fuel p ray 0 [] = Ok (Some o)).
    { subst p. destruct (decide (length fs < 10)%nat) as [Hs|Hs].
      - destruct (find_small eps Heps vs fs s hfs Hb Hok ray Hs (length fs) 0 [] fuel) as (o & E & Ho); [lia|apply lookup_lt_Some in Hkf; lia|lia|].
        destruct o as [o|]; [by exists o|]. destruct (Ho k f); [lia|done|]. destruct Hfr as (? & ? & _). split; [done|]. eauto.
      - destruct Hcase as [?|Hstr]; [lia|].
        assert (Hstr' : forall f g u v x, f ∈ fs -> g ∈ fs -> (u, v) ∈ tri_sides g -> (v, u, x) ∈ tri_corners f -> dot3 (tri_normal (corners vs g)) (sub3 (posn vs x) (posn vs g.1.1)) < 0).
        { intros f' g u v x Hf Hg Hs' Hc. destruct (corners_ok vs fs Hk g Hg) as [Hcg _]. apply (Hstr f' g (corners vs g) u v x (posn vs x) Hf Hg Hs' Hc Hcg).
          destruct (corners_ok vs fs Hk f' Hf) as [(C1 & C2 & C3) _]. destruct f' as [[a b] c]. cbn [fst snd corners tri_corners] in *. rewrite !elem_of_cons in Hc.
          destruct Hc as [[= -> -> ->] | [[= -> -> ->] | [[= -> -> ->] | []%elem_of_nil]]]; done. }
        apply (scan_strict eps Heps vs fs s hfs Hb Hok ray Hsm Hstr' ltac:(lia) k f t Hkf Hfr Hin k 0 [] fuel); [lia| | |].
        + intros j. rewrite elem_of_nil. lia.
        + unfold unchecked. pose proof (filter_length (fun i => i ∉ []) (seq 0 (length fs))) as Hl. rewrite seq_length in Hl. lia.
        + intros j g t' ?. lia. }
    pose proof (report eps Heps vs fs s hfs Hb Hok ray fuel) as Hr. destruct Hfound as (o & Eo). rewrite <- Ep, Eo in Hr. destruct Hr as (_ & x & _ & _ & _ & _ & E & _).
    rewrite E. do 2 f_equal. apply C55_sound in E; [|done]. by eapply ray_first_unique; [apply E|].
  Qed.
End theorems.

(** A polyhedron without faces cannot be queried. *)
Theorem C55_no_faces_panics (vs : list P3) (ray : Ray P3) eps fuel p : (0 < fuel)%nat -> p = poly_new vs \/ poly_new_faces eps vs [] = Ok p ->
  polyhedron_ray fuel p ray = Panic /\ polyhedron_ray_test fuel p ray = Panic.
Proof. intros Hf Hp. destruct fuel as [|fuel]; [lia|]. destruct Hp as [-> | [= <-]]; done. Qed.

(** A double pyramid over a pentagon: ten triangles, no two neighbours coplanar. *)
Definition bipyramid_vs : list P3 := [mk3 4 0 0; mk3 1 4 0; mk3 (-3) 2 0; mk3 (-3) (-2) 0; mk3 1 (-4) 0; mk3 0 0 5; mk3 0 0 (-5)].
Definition bipyramid_fs : list tri :=
  [(0, 1, 5); (1, 2, 5); (2, 3, 5); (3, 4, 5); (4, 0, 5); (1, 0, 6); (2, 1, 6); (3, 2, 6); (4, 3, 6); (0, 4, 6)]%nat.
Lemma bipyramid_solid : solid_mesh bipyramid_vs bipyramid_fs /\ strictly_convex bipyramid_vs bipyramid_fs.
Proof.
  assert (Ht : closed_surface bipyramid_fs) by (apply tri_check_ok; by vm_compute).
  split; [split|].
  - done.
  - apply Ht.
  - apply Ht.
  - intros f [[a b] c] q Hf (H1 & H2 & H3) Hq. unfold bipyramid_fs in Hf. rewrite !elem_of_cons in Hf. unfold bipyramid_vs in Hq. rewrite !elem_of_cons in Hq.
    repeat (destruct Hf as [-> | Hf]; [cbn in H1, H2, H3; simplify_eq; unfold tri_normal; cbn [fst snd]; repeat (destruct Hq as [-> | Hq]; [rv0; lra|]); by apply elem_of_nil in Hq|]). by apply elem_of_nil in Hf.
  - intros n k Hn.
    assert (Hin : mk3 4 0 0 ∈ bipyramid_vs /\ mk3 1 4 0 ∈ bipyramid_vs /\ mk3 1 (-4) 0 ∈ bipyramid_vs /\ mk3 0 0 5 ∈ bipyramid_vs /\ mk3 0 0 (-5) ∈ bipyramid_vs) by (unfold bipyramid_vs; set_solver).
    destruct Hin as (I1 & I2 & I3 & I4 & I5).
    destruct (Req_dec (dot3 n (mk3 4 0 0)) k) as [E1|E1]; [|eauto]. destruct (Req_dec (dot3 n (mk3 1 4 0)) k) as [E2|E2]; [|eauto].
    destruct (Req_dec (dot3 n (mk3 1 (-4) 0)) k) as [E3|E3]; [|eauto]. destruct (Req_dec (dot3 n (mk3 0 0 5)) k) as [E4|E4]; [|eauto].
    destruct (Req_dec (dot3 n (mk3 0 0 (-5))) k) as [E5|E5]; [|eauto]. destruct Hn. clear -E1 E2 E3 E4 E5. apply V3_eq; rv0; lra.
  - intros f g [[a b] c] u v x px Hf Hg Hs Hc (H1 & H2 & H3) Hx. unfold bipyramid_fs in Hg, Hf. rewrite !elem_of_cons in Hg.
    assert (Hcheck : forall g, g ∈ bipyramid_fs -> forall u v, (u, v) ∈ tri_sides g -> forall x, (v, u, x) ∈ mesh_corners bipyramid_fs -> x <> g.1.1 /\ x <> g.1.2 /\ x <> g.2).
    { assert (Hb : forallb (fun g : tri => forallb (fun s : nat * nat => forallb (fun c : tri => implb (bool_decide (c.1 = (s.2, s.1))) (bool_decide (c.2 <> g.1.1) && bool_decide (c.2 <> g.1.2) && bool_decide (c.2 <> g.2))) (mesh_corners bipyramid_fs)) (tri_sides g)) bipyramid_fs = true) by (by vm_compute).
      intros g' Hg' u' v' Hs' x' Hc'. rewrite forallb_forall in Hb. specialize (Hb g' (proj1 (elem_of_list_In _ _) Hg')). rewrite forallb_forall in Hb. specialize (Hb _ (proj1 (elem_of_list_In _ _) Hs')).
      rewrite forallb_forall in Hb. specialize (Hb _ (proj1 (elem_of_list_In _ _) Hc')). cbn [fst snd] in Hb. rewrite bool_decide_eq_true_2 in Hb by done. cbn [implb] in Hb. rewrite !andb_true_iff, !bool_decide_eq_true in Hb. tauto. }
    assert (Hne : x <> g.1.1 /\ x <> g.1.2 /\ x <> g.2).
    { apply (Hcheck g) with u v; [unfold bipyramid_fs; rewrite !elem_of_cons; done|done|]. apply corner_face. eauto. }
    clear Hcheck Hs Hc Hf. destruct x as [|[|[|[|[|[|[|x]]]]]]]; cbn in Hx; simplify_eq;
    repeat (destruct Hg as [-> | Hg]; [cbn in Hne, H1, H2, H3; simplify_eq; unfold tri_normal; cbn [fst snd]; first [lia | rv0; lra]|]); by apply elem_of_nil in Hg.
Qed.
Definition tetra_vs : list P3 := [mk3 0 0 0; mk3 1 0 0; mk3 0 1 0; mk3 0 0 1].
Definition tetra_fs : list tri := [(0, 2, 1); (0, 1, 3); (0, 3, 2); (1, 2, 3)]%nat.
Lemma tetra_solid : solid_mesh tetra_vs tetra_fs.
Proof.
  assert (Ht : closed_surface tetra_fs) by (apply tri_check_ok; by vm_compute). split.
  - done.
  - apply Ht.
  - apply Ht.
  - intros f [[a b] c] q Hf (H1 & H2 & H3) Hq. unfold tetra_fs in Hf. rewrite !elem_of_cons in Hf. unfold tetra_vs in Hq. rewrite !elem_of_cons in Hq.
    repeat (destruct Hf as [-> | Hf]; [cbn in H1, H2, H3; simplify_eq; unfold tri_normal; cbn [fst snd]; repeat (destruct Hq as [-> | Hq]; [rv0; lra|]); by apply elem_of_nil in Hq|]). by apply elem_of_nil in Hf.
  - intros n k Hn.
    assert (Hin : mk3 0 0 0 ∈ tetra_vs /\ mk3 1 0 0 ∈ tetra_vs /\ mk3 0 1 0 ∈ tetra_vs /\ mk3 0 0 1 ∈ tetra_vs) by (unfold tetra_vs; set_solver).
    destruct Hin as (I1 & I2 & I3 & I4).
    destruct (Req_dec (dot3 n (mk3 0 0 0)) k) as [E1|E1]; [|eauto]. destruct (Req_dec (dot3 n (mk3 1 0 0)) k) as [E2|E2]; [|eauto].
    destruct (Req_dec (dot3 n (mk3 0 1 0)) k) as [E3|E3]; [|eauto]. destruct (Req_dec (dot3 n (mk3 0 0 1)) k) as [E4|E4]; [|eauto].
    destruct Hn. clear -E1 E2 E3 E4. apply V3_eq; rv0; lra.
Qed.
Example C55_hypotheses_met : (exists p, poly_new_faces (1 / 1000) bipyramid_vs bipyramid_fs = Ok p) /\ bipyramid_fs <> [] /\
  solid_mesh bipyramid_vs bipyramid_fs /\ strictly_convex bipyramid_vs bipyramid_fs /\ (10 <= length bipyramid_fs)%nat /\
  (exists p, poly_new_faces (1 / 1000) tetra_vs tetra_fs = Ok p) /\ solid_mesh tetra_vs tetra_fs /\ (length tetra_fs < 10)%nat /\
  exists q, ray_first (along3 (mkRay (mk3 0 0 10) (mk3 0 0 (-1)))) (hull3 bipyramid_vs) q /\ forall t, t < 0 -> ~ hull3 bipyramid_vs (along3 (mkRay (mk3 0 0 10) (mk3 0 0 (-1))) t).
Proof.
  destruct bipyramid_solid as [B1 B2].
  assert (Hc : forall vs fs, Forall (face_ok (1 / 1000) vs) fs -> exists p, poly_new_faces (1 / 1000) vs fs = Ok p).
  { intros vs fs Hok. destruct (proj1 (C53_construction (1 / 1000) ltac:(lra) vs fs) Hok) as (p & Hp). eauto. }
  split_and!; [|done..| |apply tetra_solid|cbn; lia|].
  - apply Hc. unfold bipyramid_fs. repeat constructor.
    all: eexists (_, _, _); split; [split_and!; cbn; done|]; unfold tri_normal; cbn [fst snd]; rv0;
      match goal with |- _ < Rabs ?x \/ _ < Rabs ?y \/ _ < Rabs ?z => ring_simplify x y z end;
      unfold Rabs; repeat match goal with |- context [Rcase_abs ?x] => destruct (Rcase_abs x) end; lra.
  - apply Hc. unfold tetra_fs. repeat constructor.
    all: eexists (_, _, _); split; [split_and!; cbn; done|]; unfold tri_normal; cbn [fst snd]; rv0;
      match goal with |- _ < Rabs ?x \/ _ < Rabs ?y \/ _ < Rabs ?z => ring_simplify x y z end;
      unfold Rabs; repeat match goal with |- context [Rcase_abs ?x] => destruct (Rcase_abs x) end; lra.
  - exists (mk3 0 0 5).
    assert (Hle : forall x, hull3 bipyramid_vs x -> dot3 (mk3 0 0 1) x <= 5).
    { intros x Hx. apply (hull3_le bipyramid_vs); [done|]. intros v Hv. unfold bipyramid_vs in Hv. rewrite !elem_of_cons in Hv. repeat (destruct Hv as [-> | Hv]; [rv0; lra|]). by apply elem_of_nil in Hv. }
    split.
    + exists 5. split_and!; [lra| | |].
      * unfold along3. apply V3_eq; cbn; lra.
      * apply hull3_vertex. unfold bipyramid_vs. set_solver.
      * intros s Hs Hh%Hle. unfold along3 in Hh. rv0. cbn in Hh. lra.
    + intros t Ht Hh%Hle. unfold along3 in Hh. rv0. cbn in Hh. lra.
Qed.

(** With coplanar neighbours and ten or more triangles the search can give up too early:
    the top of this pyramid is cut into fourteen triangles, and the ray that comes down on
    the triangle with corners (12, 7, 0), (1, 2, 0) and (16, 0, 0) finds none. *)
Local Instance num32r : Num f32 := Num_float 24 128.
Local Instance sgn32r : NumSgn f32 := NumSgn_float 24 128.
Definition flat_vs : list (V3 f32) := [F32pt3 0 0 0; F32pt3 16 0 0; F32pt3 16 16 0; F32pt3 0 16 0; F32pt3 4 14 0; F32pt3 3 11 0; F32pt3 12 15 0; F32pt3 1 2 0; F32pt3 14 12 0; F32pt3 12 7 0; F32pt3 8 8 (-8)].
Definition flat_fs : list tri := [(9,7,1);(4,3,5);(9,8,4);(0,1,7);(8,9,2);(5,3,0);(5,0,4);(9,4,7);(8,2,6);(3,8,6);(10,2,1);(4,8,3);(0,10,1);(3,6,2);(4,0,7);(3,10,0);(1,2,9);(2,10,3)]%nat.
Definition flat_ray : Ray (V3 f32) := mkRay (mk3 (F32 47 (-2)) (F32 9 0) (F32 1 0)) (F32pt3 0 0 (-1)).
(** The same solid with the first triangle listed last: the ray is found, and the reported
    point is (47/4, 9, 0). *)
Theorem C55_flat_faces_refuted :
  closed_surface flat_fs /\ (10 <= length flat_fs)%nat /\
  match poly_new_faces (F32 1 (-20)) flat_vs flat_fs with
  | Ok p => match polyhedron_ray 19 p flat_ray, polyhedron_ray_test 19 p flat_ray with Ok None, Ok false => true | _, _ => false end
  | _ => false
  end = true /\
  match poly_new_faces (F32 1 (-20)) flat_vs (drop 1 flat_fs ++ take 1 flat_fs) with
  | Ok p => match polyhedron_ray 19 p flat_ray, polyhedron_ray_test 19 p flat_ray with
            | Ok (Some q), Ok true => nlt (nabs (vx q - F32 47 (-2))%N_) (F32 1 (-10)) && nlt (nabs (vy q - F32 9 0)%N_) (F32 1 (-10)) && neq (vz q) (F32 0 0)
            | _, _ => false end
  | _ => false
  end = true.
Proof. split_and!; [apply tri_check_ok; by vm_compute|cbn; lia|by vm_compute|by vm_compute]. Qed.
