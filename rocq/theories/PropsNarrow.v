(** C39-C42 for the primitives of the crate, whatever their kinds. *)
From Coq Require Import Psatz.
From stdpp Require Import prelude.
From Coq Require Import Reals Lra.
From Verif Require Import Res Num Vec AabbModel GeoModel RealGeo PrimModel ShapeSpec PropsSupport MinkModel MinkSpec Gjk2 Gjk3
  PropsGjk2 PropsGjk3 PropsEpa2 Dist PrimEnum PropsDist.
Local Open Scope R_scope.

Lemma prim2_total p T d : similar2 T -> exists s, prim2_support p d T = Ok s.
Proof.
  intros (k & Hk & HT). destruct (HT d) as (d' & E & _).
  destruct p; cbn [prim2_support]; unfold particle_support, line_support, circle_support, rect_support, polygon_support, get_max_point; rewrite ?E; try by eexists.
  destruct (Nat.ltb_spec (length vs) 10) as [Hl|Hl]; [by eexists|].
  destruct (C38_large_polygon_vertex vs T d) as (v & _ & Ev); [lia|by exists k|]. unfold polygon_support in Ev.
  rewrite (proj2 (Nat.ltb_ge _ _)) in Ev by lia. by eexists.
Qed.
Lemma prim3_total p T d : similar3 T -> exists s, prim3_support p d T = Ok s.
Proof.
  intros (k & _ & HT). destruct (HT d) as (d' & E & _).
  destruct p; cbn [prim3_support]; unfold particle_support, quad_support, sphere_support, cuboid_support, cylinder_support,
    capsule_support, hull_support, get_max_point; rewrite ?E; by eexists.
Qed.

Section plane.
  Context (p q : Primitive2 R) (TL TR : Xf P2) (Hp : prim2_ok p) (Hq : prim2_ok q) (HL : similar2 TL) (HR : similar2 TR).
  Let A := world TL (prim2_set p).
  Let B := world TR (prim2_set q).
  Let supL d := prim2_support p d TL.
  Let supR d := prim2_support q d TR.
  Let SA : supports2 A supL := prim2_supports p TL Hp HL.
  Let SB : supports2 B supR := prim2_supports q TR Hq HR.
  Let CA : convex2 A := prim2_world_convex p TL HL.
  Let CB : convex2 B := prim2_world_convex q TR HR.
  (** Any two primitives of the plane (polygons of fewer than ten vertices), scaled, rotated
      and moved: the test ends without a panic; a hit means a common point; no hit means a
      separating line, or that the iterations ran out (which they do not do for polygons,
      above). *)
  Theorem C39_primitives n :
    exists o, gjk2_intersect 0 supL supR n (xf_pt TL zero2) (xf_pt TR zero2) = Ok o /\
      (o <> None -> exists x, A x /\ B x) /\
      (o = None -> separated2 A B \/ gjk2_run 0 supL supR n (xf_pt TL zero2) (xf_pt TR zero2) = Ok Exhausted).
  Proof.
    destruct (C39_no_panic A B supL supR SA SB 0 n (xf_pt TL zero2) (xf_pt TR zero2) (Rle_refl 0)) as [o E].
    exists o. split; [done|]. split.
    - intros Ho. destruct o as [s|]; [|done]. exact (C39_hit_means_overlap A B supL supR SA SB n _ _ s CA CB E).
    - intros ->. exact (C39_none_means_separated A B supL supR SA SB 0 n _ _ (Rle_refl 0) E).
  Qed.
  (** The contact never fails either, and is a good one unless its normal is zero (an edge
      of the simplex passes through the origin). *)
  Theorem C41_primitives tol n :
    0 < tol ->
    exists o, gjk2_intersection 0 supL supR tol FullResolution n (xf_pt TL zero2) (xf_pt TR zero2) = Ok o /\
      (o = None <-> gjk2_intersect 0 supL supR n (xf_pt TL zero2) (xf_pt TR zero2) = Ok None) /\
      forall ct, o = Some ct -> c_normal ct <> zero2 -> good_contact2 A B ct.
  Proof.
    intros Ht. destruct (C41_no_panic A B supL supR SA SB CA CB tol Ht n (xf_pt TL zero2) (xf_pt TR zero2)) as (o & E & Ho).
    { intros d. by apply prim2_total. } { intros d. by apply prim2_total. }
    exists o. split; [done|]. split; [done|]. intros ct -> Hn. by eapply (C41_contact_good A B supL supR SA SB CA CB tol Ht).
  Qed.
  Theorem C42_primitives2 eps tol n :
    0 <= eps ->
    exists o, dist2_run eps supL supR tol n (xf_pt TL zero2) (xf_pt TR zero2) = Ok o /\
      forall D, dist_forget o = Some D -> distance2 A B tol D.
  Proof. intros He. exact (C42_distance2 A B supL supR SA SB CA CB eps tol He n _ _). Qed.
End plane.

Section space.
  Context (p q : Primitive3 R) (TL TR : Xf P3) (Hp : prim3_ok p) (Hq : prim3_ok q) (HL : similar3 TL) (HR : similar3 TR)
    (eps tenth : R) (Heps : 0 <= eps) (Htenth : 0 < tenth).
  Let A := world TL (prim3_set p).
  Let B := world TR (prim3_set q).
  Let supL d := prim3_support p d TL.
  Let supR d := prim3_support q d TR.
  Let SA : supports3 A supL := prim3_supports p TL Hp HL.
  Let SB : supports3 B supR := prim3_supports q TR Hq HR.
  Let CA : convex3 A := prim3_world_convex p TL HL.
  Let CB : convex3 B := prim3_world_convex q TR HR.
  Theorem C40_primitives n :
    exists o, gjk3_intersect eps tenth supL supR n (xf_pt TL zero3) (xf_pt TR zero3) = Ok o /\
      (o <> None -> exists x, A x /\ B x).
  Proof.
    destruct (C40_no_panic A B supL supR SA SB eps tenth n (xf_pt TL zero3) (xf_pt TR zero3)) as [o E].
    { by apply prim3_total. } { by apply prim3_total. }
    exists o. split; [done|]. intros Ho. destruct o as [s|]; [|done].
    exact (C40_hit_means_overlap A B supL supR SA SB eps tenth Heps Htenth n _ _ s CA CB E).
  Qed.
  Theorem C42_primitives3 tol n o D :
    dist3_run eps tenth supL supR tol n (xf_pt TL zero3) (xf_pt TR zero3) = Ok o ->
    dist_forget o = Some D -> distance3 A B tol D.
  Proof. exact (C42_distance3 A B supL supR SA SB CA CB eps tenth tol Heps n _ _ o D). Qed.
End space.

(** ** The hypotheses of C40 are met *)
(** A tetrahedron around the origin and a particle there: the test over the reals hits. *)
Definition tet1 : list P3 := [mk3 4 (-1) (-1); mk3 (-1) 2 (-1); mk3 (-1) (-1) (-1); mk3 (-1) (-1) 3].
Lemma move3_zero p : xf_pt (move3 zero3) p = p.
Proof. rewrite move3_pt. apply V3_eq; rv0; ring. Qed.
Lemma hull_max (vs : list P3) d v : vs <> [] -> v ∈ vs -> (forall w, w ∈ vs -> w <> v -> dot3 d w < dot3 d v) ->
  hull_support vs d (move3 zero3) = Ok v.
Proof.
  intros Hne Hv Hm. destruct (C38_polyhedron vs (move3 zero3) d Hne (move3_similar _)) as (s & Es & Hs & Hmax).
  pose proof (get_max3_vertex vs (move3 zero3) d s Hne Es) as Hin.
  apply elem_of_list_fmap in Hin as (w & -> & Hw). rewrite move3_zero in *.
  assert (Hdv : dot3 d v <= dot3 d w) by (apply Hmax; exists v; split; [by apply hull3_vertex|by rewrite move3_zero]).
  rewrite Es. f_equal. destruct (Req_dec (vx w) (vx v)) as [E1|E1]; [destruct (Req_dec (vy w) (vy v)) as [E2|E2]; [destruct (Req_dec (vz w) (vz v)) as [E3|E3]; [by apply V3_eq|]|]|].
  all: exfalso; assert (w <> v) as Hwv by (intros ->; lra); specialize (Hm w Hw Hwv); lra.
Qed.
Lemma tet1_case (Q : P3 -> Prop) : Q (mk3 4 (-1) (-1)) -> Q (mk3 (-1) 2 (-1)) -> Q (mk3 (-1) (-1) (-1)) -> Q (mk3 (-1) (-1) 3) -> forall w, w ∈ tet1 -> Q w.
Proof. intros ? ? ? ? w Hw. unfold tet1 in Hw. set_solver. Qed.
Lemma tet1_mink d v : v ∈ tet1 -> (forall w, w ∈ tet1 -> w <> v -> dot3 d w < dot3 d v) ->
  mink3 (fun d => prim3_support (ConvexPolyhedron tet1) d (move3 zero3)) (fun d => prim3_support Particle3 d (move3 zero3)) d =
    Ok (mkSup v v zero3).
Proof.
  intros Hv Hm. unfold mink3, mink. cbn [prim3_support]. rewrite (hull_max tet1 d v) by done. cbn [mbind res_mbind res_bind]. unfold particle_support.
  cbn [mbind res_mbind res_bind]. rewrite move3_zero. f_equal. f_equal; apply V3_eq; rv0; ring.
Qed.
Ltac tet1_step d v := rewrite (tet1_mink d v); [|unfold tet1; set_solver|let w := fresh "w" in let Hw := fresh "Hw" in intros w Hw; pattern w; revert w Hw; apply tet1_case; intros ?; try done; rv0; lra].
Example C40_hypotheses_met :
  prim3_ok (ConvexPolyhedron tet1) /\ prim3_ok Particle3 /\ similar3 (move3 zero3) /\
  exists s, gjk3_intersect 0 (1 / 10) (fun d => prim3_support (ConvexPolyhedron tet1) d (move3 zero3)) (fun d => prim3_support Particle3 d (move3 zero3)) 100
    (xf_pt (move3 zero3) zero3) (xf_pt (move3 zero3) zero3) = Ok (Some s).
Proof.
  split; [done|]. split; [done|]. split; [apply move3_similar|].
  rewrite !move3_zero. unfold gjk3_intersect, gjk3_run, gjk_run.
  assert (Ed : first_dir (splat3 n1) sub3 (near0_3 0) (zero3 : P3) zero3 = mk3 1 1 1).
  { unfold first_dir. rewrite (proj2 (Gjk3.near0_3_spec 0 (sub3 zero3 zero3))); [done|]. rv0. rewrite Rminus_0_r, Rabs_R0. lra. }
  rewrite Ed. cbv zeta. change (mink sub3 neg3 ?a ?b) with (mink3 a b).
  tet1_step (mk3 1 1 1 : P3) (mk3 4 (-1) (-1) : P3).
  cbn [mbind res_mbind res_bind sp_v]. cbn [nle n0 Num_R]. rewrite (proj2 (Rleb_false _ _)) by (rv0; lra).
  change 100%nat with (Datatypes.S (Datatypes.S (Datatypes.S 97))). cbn [gjk_loop]. change (mink sub3 neg3 ?a ?b) with (mink3 a b).
  assert (En : neg3 (mk3 1 1 1) = (mk3 (-1) (-1) (-1) : P3)) by (apply V3_eq; rv0; lra). rewrite En.
  tet1_step (mk3 (-1) (-1) (-1) : P3) (mk3 (-1) (-1) (-1) : P3).
  cbn [mbind res_mbind res_bind sp_v app]. cbn [nle n0 Num_R]. rewrite (proj2 (Rleb_false _ _)) by (rv0; lra).
  match goal with |- context [reduce3 0 (1 / 10) [?x; ?y] ?d] => assert (Er : reduce3 0 (1 / 10) [x; y] d = ([x; y], mk3 0 25 25, false)) end.
  { unfold reduce3. cbv zeta. cbn [sp_v].
    assert (Et : cross_aba (sub3 (mk3 4 (-1) (-1)) (mk3 (-1) (-1) (-1))) (neg3 (mk3 (-1) (-1) (-1))) = (mk3 0 25 25 : P3)).
    { unfold cross_aba. apply V3_eq; rv0; lra. }
    rewrite Et. destruct (near0_3 0 (mk3 0 25 25)) eqn:E; [|done]. apply Gjk3.near0_3_spec in E. cbn [vx vy vz] in E. rewrite (Rabs_pos_eq 25) in E by lra. lra. }
  rewrite Er. cbn [gjk_loop]. change (mink sub3 neg3 ?a ?b) with (mink3 a b).
  tet1_step (mk3 0 25 25 : P3) (mk3 (-1) (-1) 3 : P3).
  cbn [mbind res_mbind res_bind sp_v app]. cbn [nle n0 Num_R]. rewrite (proj2 (Rleb_false _ _)) by (rv0; lra).
  match goal with |- context [reduce3 0 (1 / 10) [?x; ?y; ?z] ?d] => assert (Er3 : reduce3 0 (1 / 10) [x; y; z] d = ([y; x; z], mk3 0 20 0, false)) end.
  { unfold reduce3, check_side. cbv zeta. cbn [sp_v negb andb orb]. cbn [nlt n0 Num_R].
    rewrite (proj2 (Rltb_false _ _)) by (rv0; lra). rewrite (proj2 (Rltb_false _ _)) by (rv0; lra).
    rewrite (proj2 (Rltb_false _ _)) by (rv0; lra). f_equal. f_equal. apply V3_eq; rv0; lra. }
  rewrite Er3. cbn [gjk_loop]. change (mink sub3 neg3 ?a ?b) with (mink3 a b).
  tet1_step (mk3 0 20 0 : P3) (mk3 (-1) 2 (-1) : P3).
  cbn [mbind res_mbind res_bind sp_v app]. cbn [nle n0 Num_R]. rewrite (proj2 (Rleb_false _ _)) by (rv0; lra).
  unfold reduce3. cbv zeta. cbn [sp_v]. cbn [nlt n0 Num_R].
  rewrite (proj2 (Rltb_false _ _)) by (rv0; lra). rewrite (proj2 (Rltb_false _ _)) by (rv0; lra). rewrite (proj2 (Rltb_false _ _)) by (rv0; lra).
  by eexists.
Qed.
