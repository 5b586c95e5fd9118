(** C44 in space: the contact of shapes made of several primitives. *)
From Coq Require Import Psatz.
From stdpp Require Import prelude.
From Flocq Require Import IEEE754.BinarySingleNaN.
From Coq Require Import Reals Lra.
From Verif Require Import Res Num FloatMono Vec AabbModel GeoModel RealGeo PrimModel ShapeSpec PropsSupport MinkModel MinkSpec Gjk2 Gjk3 PropsGjk2 PropsGjk3
  PropsEpa2 Dist PrimEnum PropsDist PropsNarrow PropsEpa3 Toi2 PropsToi Complex ComplexModel PropsComplex.
Local Open Scope R_scope.

Section space.
  Context (L M : shape3 R) (TL TR : D3 R) (HL : shape3_ok L) (HM : shape3_ok M) (VL : valid3 TL) (VR : valid3 TR) (tenth : R) (Htenth : 0 < tenth).
  Notation A := (shape3_set TL L).
  Notation B := (shape3_set TR M).
  Notation pair_contact tol n l r := (gjk3_intersection 0 tenth (part3_support 0 TL l) (part3_support 0 TR r) tol FullResolution n (origin3 0 TL l) (origin3 0 TR r)).
  Lemma part3_total (s : shape3 R) T l d : shape3_ok s -> valid3 T -> l ∈ s -> exists x, part3_support 0 T l d = Ok x.
  Proof.
    intros Hs HT Hl. destruct l as [p t]. destruct (Hs p t Hl) as [_ Ht].
    pose proof (valid3_similar _ (concat3_valid T t HT Ht)) as Hsim. by apply prim3_total.
  Qed.
  Lemma pair3_answers tol n l r : 0 < tol -> l ∈ L -> r ∈ M -> exists o, pair_contact tol n l r = Ok o /\
    (o = None <-> gjk3_intersect 0 tenth (part3_support 0 TL l) (part3_support 0 TR r) n (origin3 0 TL l) (origin3 0 TR r) = Ok None).
  Proof.
    intros Ht Hl Hr. destruct (part3_spec L TL l HL VL Hl) as (S1 & C1), (part3_spec M TR r HM VR Hr) as (S2 & C2).
    destruct (part3_total L TL l zero3 HL VL Hl) as [x Ex]. destruct (part3_total M TR r (neg3 zero3) HM VR Hr) as [y Ey].
    apply (C57_no_panic _ _ _ _ S1 S2 C1 C2 0 tenth (Rle_refl 0) Htenth tol Ht n); eauto.
  Qed.
  (** The query answers; a collision is reported only if the shapes share a point, and [None]
      only if for each pair of parts a plane separates them, or the support points found lie
      on one line through the origin, or the iterations ran out. *)
  Theorem C44_intersection3 tol st n : 0 < tol ->
    exists o, complex3_intersection 0 tenth tol st n L TL M TR = Ok o /\
      (o <> None -> exists x, A x /\ B x) /\
      (o = None -> forall l r, l ∈ L -> r ∈ M -> separated3 (part3_set TL l) (part3_set TR r) \/
         (exists p q s, mdiff3 (part3_set TL l) (part3_set TR r) p /\ mdiff3 (part3_set TL l) (part3_set TR r) q /\ mdiff3 (part3_set TL l) (part3_set TR r) s /\
            p <> q /\ cross3 p q = zero3 /\ cross3 (sub3 q s) (sub3 p s) = zero3) \/
         gjk3_run 0 tenth (part3_support 0 TL l) (part3_support 0 TR r) n (origin3 0 TL l) (origin3 0 TR r) = Ok Exhausted).
  Proof.
    intros Ht. unfold complex3_intersection. set (inter := fun '(l, r) => _).
    assert (Hpair : forall l r, l ∈ L -> r ∈ M -> exists o, inter (l, r) = Ok o /\
      (o = None <-> gjk3_intersect 0 tenth (part3_support 0 TL l) (part3_support 0 TR r) n (origin3 0 TL l) (origin3 0 TR r) = Ok None)).
    { intros l r Hl Hr. unfold inter. destruct st; [by apply pair3_answers|].
      destruct (part3_spec L TL l HL VL Hl) as (S1 & C1), (part3_spec M TR r HM VR Hr) as (S2 & C2).
      destruct (part3_total L TL l zero3 HL VL Hl) as [x Ex]. destruct (part3_total M TR r (neg3 zero3) HM VR Hr) as [y Ey].
      destruct (C40_no_panic _ _ _ _ S1 S2 0 tenth n (origin3 0 TL l) (origin3 0 TR r)) as [g Eg]; [by eexists|by eexists|].
      unfold gjk3_intersection. rewrite Eg. cbn [mbind res_mbind res_bind]. destruct g; by eexists. }
    assert (Hret : exists o, intersection_complex inter st L M = Ok o).
    { destruct st.
      - destruct (C44_deepest inter L M) as (o & E & _); [|by eexists]. intros l r Hl Hr. destruct (Hpair l r Hl Hr) as (o & E & _).
        exists o. split; [done|]. intros; apply okR.
      - unfold intersection_complex.
        assert (Hloop : forall ps acc, (forall p, p ∈ ps -> exists o, inter p = Ok o) -> exists o, complex_loop inter CollisionOnly ps acc = Ok o).
        { induction ps as [|p ps IH]; intros acc Hp; rewrite complex_loop_only; [by eexists|].
          destruct (Hp p ltac:(left)) as [[c|] ->]; [by eexists|]. apply IH. intros q Hq. apply Hp. by right. }
        destruct (Hloop (pairs L M) []) as [[o acc] E].
        { intros [l r] Hp. apply pairs_elem in Hp as [Hl Hr]. destruct (Hpair l r Hl Hr) as (o & E & _). by eexists. }
        rewrite E. cbn [mbind res_mbind res_bind]. destruct (complex_loop_only_inv _ _ _ _ _ E) as [-> _]. by destruct o; eexists. }
    destruct Hret as [o E]. exists o. split; [done|]. split.
    - destruct o as [c|]; [|done]. intros _. by apply (C44_hit3 L M TL TR HL HM VL VR tenth Htenth tol st n c).
    - intros ->. intros l r Hl Hr. destruct (part3_spec L TL l HL VL Hl) as (S1 & C1), (part3_spec M TR r HM VR Hr) as (S2 & C2).
      pose proof (intersection_complex_none _ _ _ _ l r E Hl Hr) as En.
      destruct (Hpair l r Hl Hr) as (o & Eo & Ho). assert (o = None) as -> by congruence. destruct Ho as [Ho _]. specialize (Ho eq_refl).
      destruct (C40_none_means_separated _ _ _ _ S1 S2 0 tenth (Rle_refl 0) Htenth n _ _ Ho) as [?|[(p & q & s & Hp & Hq & Hs & Hne & Hc & Hcol)|?]]; [by left| |by right; right].
      right; left. exists p, q, s. do 4 (split; [done|]). split; [|done].
      rewrite Rmult_0_r in Hc. assert (H1 : 0 < mag3 (sub3 q p)).
      { apply mag3_pos. intros E0. apply Hne. assert (E1 : vx q - vx p = 0) by exact (f_equal vx E0). assert (E2 : vy q - vy p = 0) by exact (f_equal vy E0).
        assert (E3 : vz q - vz p = 0) by exact (f_equal vz E0). apply V3_eq; lra. }
      pose proof (mag3_nonneg (cross3 p q)). apply mag3_zero_iff. nra.
  Qed.
  (** The contact reported is that of some pair of parts; it pushes that pair apart, and no
      pair has a deeper one. *)
  Theorem C44_contact3 tol n ct : 0 < tol ->
    complex3_intersection 0 tenth tol FullResolution n L TL M TR = Ok (Some ct) ->
    (exists l r, l ∈ L /\ r ∈ M /\ good_contact3 (part3_set TL l) (part3_set TR r) ct) /\
    forall l r c, l ∈ L -> r ∈ M -> pair_contact tol n l r = Ok (Some c) -> c_depth c <= c_depth ct.
  Proof.
    intros Ht. unfold complex3_intersection. set (inter := fun '(l, r) => _). intros E.
    destruct (C44_deepest inter L M) as (o & Eo & Ho).
    { intros l r Hl Hr. destruct (pair3_answers tol n l r Ht Hl Hr) as (o & Eo & _). exists o. split; [done|]. intros; apply okR. }
    rewrite E in Eo. injection Eo as <-. destruct Ho as [(l & r & Hl & Hr & Ec) Hmax]. split.
    - exists l, r. split; [done|]. split; [done|].
      destruct (part3_spec L TL l HL VL Hl) as (S1 & C1), (part3_spec M TR r HM VR Hr) as (S2 & C2).
      exact (C57_contact_good _ _ _ _ S1 S2 C1 C2 0 tenth (Rle_refl 0) Htenth tol Ht n _ _ ct Ec).
    - intros l' r' c Hl' Hr' Ec'. apply LeR. by apply (Hmax l' r' c).
  Qed.
End space.

(** The hypotheses are met: a cuboid and a ball beside it, seen as one shape. *)
Definition no_rot : Quat (S:=R) := mkQuat 1 zero3.
Definition cube_and_ball : shape3 R := [(CuboidP (mk3 2 2 2), mkD3 1 no_rot zero3); (SphereP 1, mkD3 2 no_rot (mk3 5 0 0))].
Lemma no_rot_id v : quat_rot no_rot v = v.
Proof. destruct v as [x y z]. unfold quat_rot, no_rot, zero3. cbn [q_s q_v]. apply V3_eq; rv0; ring. Qed.
Example C44_hypotheses_met3 : shape3_ok cube_and_ball /\ valid3 (mkD3 2 no_rot (mk3 1 1 1)) /\
  shape3_set (mkD3 2 no_rot (mk3 1 1 1)) cube_and_ball (mk3 7 1 1).
Proof.
  assert (U : unit_quat no_rot) by (unfold unit_quat, quat_mag2, no_rot, zero3; cbn [q_s q_v]; rv0; ring).
  split; [|split].
  - intros p t Hp. unfold cube_and_ball in Hp. apply elem_of_cons in Hp as [[= -> ->]|Hp]; [|apply elem_of_list_singleton in Hp as [= -> ->]].
    + split; [cbn; lra|]. split; [cbn; lra|done].
    + split; [cbn; lra|]. split; [cbn; lra|done].
  - split; [cbn; lra|done].
  - exists (SphereP 1), (mkD3 2 no_rot (mk3 5 0 0)), (mk3 (-1) 0 0). split; [right; left|]. split.
    + cbn. unfold ball. rv0. lra.
    + unfold d3_xf, decomposed3. cbn [xf_pt d3_s d3_rot d3_disp]. rewrite !no_rot_id. apply V3_eq; rv0; lra.
Qed.
