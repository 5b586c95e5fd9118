(** C43 in space: at the reported time of impact the shapes are within the tolerance. *)
From Coq Require Import Psatz.
From stdpp Require Import prelude.
From Flocq Require Import IEEE754.BinarySingleNaN.
From Coq Require Import Reals Lra.
From Verif Require Import Res Num Vec AabbModel GeoModel RealGeo PrimModel ShapeSpec MinkModel MinkSpec Gjk3 PropsGjk3 Dist PrimEnum PropsDist
  PropsNarrow PropsToi Toi3 Complex ComplexModel PropsComplex.
Local Open Scope R_scope.

(** Moved by [lvel] and [rvel] for the time [m], the shapes have points whose distance is at
    most [sqrt tol]. *)
Definition near_at3 (A B : P3 -> Prop) (lvel rvel : P3) (m tol : R) : Prop :=
  exists x y, A x /\ B y /\ dist2_3 (add3 x (scale3 lvel m)) (add3 y (scale3 rvel m)) <= tol.

Section toi3.
  Context (A B : P3 -> Prop) (supL supR : P3 -> res P3) (HA : supports3 A supL) (HB : supports3 B supR)
    (HcA : convex3 A) (HcB : convex3 B) (eps tenth tol : R) (Heps : 0 <= eps) (Htol : 0 <= tol).
  Notation K := (mdiff3 A B).
  Notation loop := (toi_loop sub3 neg3 scale3 dot3 supL supR (closest3 eps tenth)).
  Lemma toi_loop3_near fuel ray : forall l n ss v l' n' ro' v',
    K (add3 v (scale3 ray l)) -> (v = zero3 \/ toi_inv3 A B (scale3 ray l) ss v) ->
    loop fuel tol ray l n (scale3 ray l) ss v = Ok (Some (l', n', ro', v')) ->
    ro' = scale3 ray l' /\ K (add3 v' (scale3 ray l')) /\ dot3 v' v' <= tol.
  Proof.
    induction fuel as [|fuel IH]; intros l n ss v l' n' ro' v' Hk Hinv; cbn [toi_loop]; cbn [nlt Num_R].
    { destruct (Rltb tol (dot3 v v)) eqn:Ev; [done|]. apply Rltb_false in Ev. intros [= <- <- <- <-]. done. }
    destruct (Rltb tol (dot3 v v)) eqn:Ev; [apply Rltb_true in Ev|apply Rltb_false in Ev; by intros [= <- <- <- <-]].
    assert (Hv : 0 < dot3 v v) by lra.
    destruct Hinv as [->|Hinv]; [exfalso; clear -Hv; unfold zero3 in Hv; rv0; lra|].
    assert (Hneg : neg3 v <> zero3).
    { apply vec3_ne. clear -Hv. rv0. lra. }
    destruct (mink3_spec A B supL supR HA HB (neg3 v) Hneg) as (p & Ep & Hp & Hm).
    change (mink sub3 neg3 supL supR (neg3 v)) with (mink3 supL supR (neg3 v)). rewrite Ep. cbn [mbind res_mbind res_bind].
    assert (Kp : K (sp_v p)) by by apply witness3_mdiff.
    clear Hm Hp Ep Hneg. cbn [nlt nmul n0 n1 ndiv Num_R].
    destruct (Rltb (l * dot3 v ray) (dot3 v (sp_v p))) eqn:E1; [apply Rltb_true in E1|apply Rltb_false in E1].
    - destruct (Rltb 0 (dot3 v ray)); [|done]. set (l2 := dot3 v (sp_v p) / dot3 v ray).
      destruct (Rltb 1 l2); [done|]. cbn [app].
      destruct (closest3 _ _ _) as [[ss' v2]| |] eqn:Ec; cbn [mbind res_mbind res_bind]; [|done..].
      destruct (toi_step3 A B HcA HcB eps tenth (scale3 ray l2) [] v p ss' v2) as (Hk' & Hi'); try done; [|by right|].
      { split; [done|]. left. cbn. lia. }
      intros E. by apply IH in E.
    - destruct (closest3 _ _ _) as [[ss' v2]| |] eqn:Ec; cbn [mbind res_mbind res_bind]; [|done..].
      destruct (toi_step3 A B HcA HcB eps tenth (scale3 ray l) ss v p ss' v2) as (Hk' & Hi'); try done.
      { left. replace (dot3 v (sub3 (sp_v p) (scale3 ray l))) with (dot3 v (sp_v p) - l * dot3 v ray) by (clear; rv0; ring). lra. }
      intros E. by apply IH in E.
  Qed.
  (** An impact reported in space: within the motion, no meeting before, the shapes within
      the tolerance at that time, a plane between them there. *)
  Theorem C43_impact3 fuel lvel rvel interp ct :
    lvel <> rvel -> gjk3_toi eps tenth supL supR fuel tol lvel rvel interp = Ok (Some ct) ->
    0 <= c_toi ct <= 1 /\ (forall m, 0 <= m < c_toi ct -> ~ meets3 A B lvel rvel m) /\
    near_at3 A B lvel rvel (c_toi ct) tol /\ (0 < c_toi ct -> impact_normal3 A B lvel rvel (c_toi ct) (c_normal ct)) /\
    0 <= c_depth ct /\ c_depth ct * c_depth ct <= tol.
  Proof.
    intros Hne E. destruct (C43_time_of_impact3 A B supL supR HA HB eps tenth tol Htol fuel lvel rvel interp ct E) as (H1 & H2 & H3).
    split; [done|]. split; [done|]. revert E. unfold gjk3_toi, gjk_toi. cbv zeta. set (ray := sub3 rvel lvel).
    assert (Hray : neg3 ray <> zero3).
    { intros E. apply Hne. apply (f_equal vx) in E as E1. apply (f_equal vy) in E as E2. apply (f_equal vz) in E as E3.
      unfold ray, zero3 in E1, E2, E3. clear -E1 E2 E3. rv0. apply V3_eq; lra. }
    destruct (mink3_spec A B supL supR HA HB (neg3 ray) Hray) as (p & Ep & Hp & _).
    change (mink sub3 neg3 supL supR (neg3 ray)) with (mink3 supL supR (neg3 ray)). rewrite Ep. cbn [mbind res_mbind res_bind n0 Num_R].
    assert (E0 : (zero3 : P3) = scale3 ray 0) by (clear; apply V3_eq; rv0; ring).
    replace (toi_loop _ _ _ _ _ _ _ _ _ _ _ _ _ _ (sp_v p)) with (loop fuel tol ray 0 zero3 (scale3 ray 0) [] (sp_v p)) by by rewrite <- E0.
    destruct (loop fuel tol ray 0 zero3 (scale3 ray 0) [] (sp_v p)) as [[[[[l n] ro] v]|]| |] eqn:El; cbn [mbind res_mbind res_bind]; [|done..].
    apply toi_loop3_near in El as (-> & Hk & Hv).
    2:{ replace (add3 (sp_v p) (scale3 ray 0)) with (sp_v p) by (clear; apply V3_eq; rv0; ring). by apply witness3_mdiff, Hp. }
    2:{ right. split; [done|]. left. cbn. lia. }
    cbn [nle Num_R]. rewrite (proj2 (Rleb_true _ _)) by done. intros E. apply (f_equal (fun r => match r with Ok o => o | _ => None end)) in E.
    apply (inj Some) in E. rewrite <- E in H3 |- *. cbn [c_toi c_depth c_normal] in H3 |- *.
    split; [|split; [done|]; split; [apply mag3_nonneg|by rewrite mag3_sqr]].
    destruct Hk as (x & y & Hx & Hy & Exy). exists x, y. split; [done|]. split; [done|].
    assert (Ev : v = sub3 (add3 x (scale3 lvel l)) (add3 y (scale3 rvel l))).
    { assert (X1 : vx v + (vx rvel - vx lvel) * l = vx x - vx y) by exact (f_equal vx Exy).
      assert (X2 : vy v + (vy rvel - vy lvel) * l = vy x - vy y) by exact (f_equal vy Exy).
      assert (X3 : vz v + (vz rvel - vz lvel) * l = vz x - vz y) by exact (f_equal vz Exy). apply V3_eq; rv0; lra. }
    rewrite Ev in Hv. clear -Hv. rv0. lra.
  Qed.
End toi3.

(** The primitives of space, placed by similarities. *)
Theorem C43_primitives3 (p q : Primitive3 R) (TL TR : Xf P3) eps tenth tol fuel lvel rvel interp :
  prim3_ok p -> prim3_ok q -> similar3 TL -> similar3 TR -> 0 <= eps -> 0 <= tol -> lvel <> rvel ->
  let A := world TL (prim3_set p) in let B := world TR (prim3_set q) in
  match gjk3_toi eps tenth (fun d => prim3_support p d TL) (fun d => prim3_support q d TR) fuel tol lvel rvel interp with
  | Panic | OutOfFuel => True
  | Ok None => forall m, 0 <= m <= 1 -> ~ meets3 A B lvel rvel m
  | Ok (Some ct) => 0 <= c_toi ct <= 1 /\ (forall m, 0 <= m < c_toi ct -> ~ meets3 A B lvel rvel m) /\
      near_at3 A B lvel rvel (c_toi ct) tol /\ (0 < c_toi ct -> impact_normal3 A B lvel rvel (c_toi ct) (c_normal ct))
  end.
Proof.
  intros Hp Hq HL HR He Ht Hne A B.
  destruct (gjk3_toi _ _ _ _ _ _ _ _ _) as [[ct|]| |] eqn:E; try done.
  - apply (C43_impact3 A B _ _ (prim3_supports p TL Hp HL) (prim3_supports q TR Hq HR) (prim3_world_convex p TL HL) (prim3_world_convex q TR HR)) in E
      as (H1 & H2 & H3 & H4 & _); done.
  - intros m Hm. by apply (C43_none_means_no_meeting3 A B _ _ (prim3_supports p TL Hp HL) (prim3_supports q TR Hq HR) eps tenth tol Ht fuel lvel rvel interp m E).
Qed.

(** ** Shapes made of several primitives (C44) *)
Section space.
  Context (L M : shape3 R) (TL TR : D3 R) (HL : shape3_ok L) (HM : shape3_ok M) (VL : valid3 TL) (VR : valid3 TR) (tenth : R) (vl vr : P3).
  Notation A := (shape3_set TL L).
  Notation B := (shape3_set TR M).
  Notation moved T v := (mkD3 (d3_s T) (d3_rot T) (add3 (d3_disp T) v)).
  (** At the reported time the shapes are within the tolerance. *)
  Theorem C44_near3 tol st fuel ct : 0 <= tol -> vl <> vr ->
    complex3_toi 0 tenth tol st fuel L TL (moved TL vl) M TR (moved TR vr) = Ok (Some ct) ->
    near_at3 A B vl vr (c_toi ct) tol.
  Proof.
    intros Htol Hv. unfold complex3_toi. set (inter := fun '(l, r) => _). intros E.
    destruct (complex_toi_from _ _ _ _ _ E) as (l & r & c' & Hl & Hr & Ec & Ect).
    assert (Et : c_toi ct = c_toi c') by (rewrite Ect; by destruct st). rewrite Et.
    destruct (part3_spec L TL l HL VL Hl) as (S1 & C1), (part3_spec M TR r HM VR Hr) as (S2 & C2).
    unfold inter in Ec. rewrite !moved_origin3 in Ec; [|done|destruct r; by eapply HM|done|destruct l; by eapply HL].
    apply (C43_impact3 _ _ _ _ S1 S2 C1 C2 0 tenth tol (Rle_refl 0) Htol) in Ec; [|done]. destruct Ec as (_ & _ & (x & y & Hx & Hy & Hd) & _).
    exists x, y. split; [by eapply in_shape3|]. split; [by eapply in_shape3|done].
  Qed.
End space.

(** ** The hypotheses are met *)
(** The tetrahedron of C42 at rest and a particle moving from (-3, -3, -3) to (1, 1, 1): impact
    with the corner (-1, -1, -1) at time 1/2. *)
Local Ltac tet0_step d v := rewrite (tet0_mink d v); [|apply mk3_ne; left; lra|unfold tet0; set_solver|let w := fresh "w" in let Hw := fresh "Hw" in intros w Hw; pattern w; revert w Hw; apply tet0_case; intros ?; try done; rv0; lra].
Lemma dot222 : dot3 (mk3 2 2 2) (mk3 2 2 2 : P3) = 12.
Proof. rv0. lra. Qed.
Lemma C43_met3_aux f : exists ct,
  gjk3_toi 0 (1 / 10) (fun d => hull_support tet0 d (move3 zero3)) (fun _ => particle_support zero3 (move3 (mk3 (-3) (-3) (-3)))) (Datatypes.S f) (1 / 100)
    zero3 (mk3 4 4 4) (fun l p => add3 p (add3 (mk3 (-3) (-3) (-3)) (scale3 (mk3 4 4 4) l))) = Ok (Some ct) /\ c_toi ct = 1 / 2.
Proof.
  eexists. unfold gjk3_toi, gjk_toi. cbv zeta. change (mink sub3 neg3 ?a ?b) with (mink3 a b).
  assert (En : neg3 (sub3 (mk3 4 4 4) zero3) = (mk3 (-4) (-4) (-4) : P3)) by (apply V3_eq; unfold zero3; rv0; lra). rewrite En.
  tet0_step (mk3 (-4) (-4) (-4) : P3) (mk3 (-1) (-1) (-1) : P3).
  cbn [mbind res_mbind res_bind sp_v vx vy vz]. cbn [toi_loop].
  change (mink sub3 neg3 ?a ?b) with (mink3 a b). cbn [nlt Num_R].
  assert (E2 : mk3 (-1 + 3) (-1 + 3) (-1 + 3) = (mk3 2 2 2 : P3)) by (apply V3_eq; rv0; lra). rewrite E2.
  rewrite dot222. rewrite (proj2 (Rltb_true _ _)) by lra.
  assert (En2 : neg3 (mk3 2 2 2) = (mk3 (-2) (-2) (-2) : P3)) by (apply V3_eq; rv0; lra). rewrite En2.
  tet0_step (mk3 (-2) (-2) (-2) : P3) (mk3 (-1) (-1) (-1) : P3).
  cbn [mbind res_mbind res_bind sp_v vx vy vz]. rewrite E2, dot222.
  assert (Er : dot3 (mk3 2 2 2) (sub3 (mk3 4 4 4) zero3) = (24 : R)) by (unfold zero3; rv0; lra). rewrite Er. cbn [n0 n1 nmul ndiv nlt Num_R].
  rewrite (proj2 (Rltb_true _ _)) by lra. rewrite (proj2 (Rltb_true _ _)) by lra. rewrite (proj2 (Rltb_false _ _)) by lra.
  unfold sup_sub at 1. cbn [sp_v sp_a sp_b app].
  assert (Ez : sub3 (mk3 2 2 2) (scale3 (sub3 (mk3 4 4 4) zero3) (12 / 24)) = (zero3 : P3)) by (apply V3_eq; unfold zero3; rv0; lra). rewrite Ez.
  assert (Ec : forall a b, closest3 0 (1 / 10) [mkSup (zero3 : P3) a b] = Ok ([mkSup zero3 a b], zero3)) by done. rewrite Ec. clear Ec.
  cbn [mbind res_mbind res_bind].
  assert (Ef : forall ro ss n, toi_loop sub3 neg3 scale3 dot3 (fun d => hull_support tet0 d (move3 zero3)) (fun _ => particle_support zero3 (move3 (mk3 (-3) (-3) (-3))))
    (closest3 0 (1 / 10)) f (1 / 100) (sub3 (mk3 4 4 4) zero3) (12 / 24) n ro ss zero3 = Ok (Some (12 / 24, n, ro, zero3))).
  { intros. destruct f; cbn [toi_loop nlt Num_R]; rewrite (proj2 (Rltb_false _ _)) by (unfold zero3; rv0; lra); done. }
  rewrite Ef. cbn [mbind res_mbind res_bind nle Num_R]. rewrite (proj2 (Rleb_true _ _)) by (unfold zero3; rv0; lra).
  split; [reflexivity|]. cbn [c_toi]. lra.
Qed.
Example C43_hypotheses_met3 : exists ct,
  supports3 (world (move3 zero3) (hull3 tet0)) (fun d => hull_support tet0 d (move3 zero3)) /\
  supports3 (fun p => p = mk3 (-3) (-3) (-3)) (fun _ => particle_support zero3 (move3 (mk3 (-3) (-3) (-3)))) /\
  convex3 (world (move3 zero3) (hull3 tet0)) /\ convex3 (fun p => p = mk3 (-3) (-3) (-3)) /\ zero3 <> (mk3 4 4 4 : P3) /\
  gjk3_toi 0 (1 / 10) (fun d => hull_support tet0 d (move3 zero3)) (fun _ => particle_support zero3 (move3 (mk3 (-3) (-3) (-3)))) 100 (1 / 100)
    zero3 (mk3 4 4 4) (fun l p => add3 p (add3 (mk3 (-3) (-3) (-3)) (scale3 (mk3 4 4 4) l))) = Ok (Some ct) /\ c_toi ct = 1 / 2.
Proof.
  destruct C42_hypotheses_met3 as (H1 & H2 & H3 & H4 & _). destruct (C43_met3_aux 99) as [ct Hc]. exists ct. repeat (split; [done|]).
  split; [|done]. intros E. apply (f_equal vx) in E. unfold zero3 in E. cbn in E. lra.
Qed.
