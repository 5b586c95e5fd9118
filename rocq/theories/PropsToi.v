(** C43: time of impact of moving shapes. *)
From Coq Require Import Psatz.
From stdpp Require Import prelude.
From Flocq Require Import IEEE754.BinarySingleNaN.
From Coq Require Import Reals Lra.
From Verif Require Import Res Num Vec AabbModel GeoModel RealGeo PrimModel ShapeSpec PropsSupport MinkModel MinkSpec Gjk2 Gjk3 PropsGjk2 PropsGjk3
  PropsEpa2 Dist PrimEnum PropsDist PropsNarrow Toi2.
Local Open Scope R_scope.

(** The shapes [A] and [B], moving by [lvel] and [rvel] during the unit of time, have a
    common point at time [m]. *)
Definition meets2 (A B : P2 -> Prop) (lvel rvel : P2) (m : R) : Prop :=
  exists x y, A x /\ B y /\ add2 x (scale2 lvel m) = add2 y (scale2 rvel m).
Definition meets3 (A B : P3 -> Prop) (lvel rvel : P3) (m : R) : Prop :=
  exists x y, A x /\ B y /\ add3 x (scale3 lvel m) = add3 y (scale3 rvel m).
(** ... have points whose distance is at most [sqrt tol]. *)
Definition near_at2 (A B : P2 -> Prop) (lvel rvel : P2) (m tol : R) : Prop :=
  exists x y, A x /\ B y /\ dist2_2 (add2 x (scale2 lvel m)) (add2 y (scale2 rvel m)) <= tol.
(** [n] is a unit vector, at time [m] no point of [A] is behind a point of [B] in its
    direction, and [B] moves forward along it (relative to [A]). *)
Definition impact_normal2 (A B : P2 -> Prop) (lvel rvel : P2) (m : R) (n : P2) : Prop :=
  mag2 n = 1 /\ dot2 n lvel < dot2 n rvel /\
  forall x y, A x -> B y -> dot2 n (add2 y (scale2 rvel m)) <= dot2 n (add2 x (scale2 lvel m)).

Lemma meets2_iff A B lvel rvel m : meets2 A B lvel rvel m <-> mdiff2 A B (scale2 (sub2 rvel lvel) m).
Proof.
  split; intros (x & y & Hx & Hy & E); exists x, y; (split; [done|]; split; [done|]).
  - assert (E1 : ux x + ux lvel * m = ux y + ux rvel * m) by exact (f_equal ux E).
    assert (E2 : uy x + uy lvel * m = uy y + uy rvel * m) by exact (f_equal uy E). apply V2_eq; rv0; lra.
  - assert (E1 : (ux rvel - ux lvel) * m = ux x - ux y) by exact (f_equal ux E).
    assert (E2 : (uy rvel - uy lvel) * m = uy x - uy y) by exact (f_equal uy E). apply V2_eq; rv0; lra.
Qed.

Section toi2.
  Context (A B : P2 -> Prop) (supL supR : P2 -> res P2) (HA : supports2 A supL) (HB : supports2 B supR)
    (HcA : convex2 A) (HcB : convex2 B) (eps tol : R) (Htol : 0 <= tol).
  Notation K := (mdiff2 A B).
  Notation loop := (toi_loop sub2 neg2 scale2 dot2 supL supR (closest2 eps)).
  Definition free2 (ray : P2) (l : R) : Prop := forall m, 0 <= m < l -> ~ K (scale2 ray m).
  Definition clipped2 (ray : P2) (l : R) (n : P2) : Prop :=
    (l = 0 /\ n = zero2) \/ (0 < l /\ 0 < dot2 (neg2 n) ray /\ forall w, K w -> 0 <= dot2 (neg2 n) (sub2 w (scale2 ray l))).
  Lemma toi_loop2 fuel ray : forall l n ss v,
    0 <= l <= 1 -> free2 ray l -> clipped2 ray l n -> K (add2 v (scale2 ray l)) -> (v = zero2 \/ toi_inv A B (scale2 ray l) ss v) ->
    match loop fuel tol ray l n (scale2 ray l) ss v with
    | Panic => False
    | OutOfFuel => True
    | Ok None => forall m, 0 <= m <= 1 -> ~ K (scale2 ray m)
    | Ok (Some (l', n', ro', v')) => 0 <= l' <= 1 /\ free2 ray l' /\ clipped2 ray l' n' /\ ro' = scale2 ray l' /\
        K (add2 v' (scale2 ray l')) /\ dot2 v' v' <= tol
    end.
  Proof.
    induction fuel as [|fuel IH]; intros l n ss v Hl Hf Hc Hk Hinv; cbn [toi_loop]; cbn [nlt Num_R].
    { destruct (Rltb tol (dot2 v v)) eqn:Ev; [done|]. apply Rltb_false in Ev. done. }
    destruct (Rltb tol (dot2 v v)) eqn:Ev; [apply Rltb_true in Ev|apply Rltb_false in Ev; done].
    assert (Hv : 0 < dot2 v v) by lra.
    assert (Hv0 : v <> zero2) by by apply vec2_ne.
    destruct Hinv as [->|Hinv]; [done|].
    assert (Hneg : neg2 v <> zero2).
    { apply vec2_ne. clear -Hv. rv0. lra. }
    destruct (mink2_spec A B supL supR HA HB (neg2 v) Hneg) as (p & Ep & Hp & Hm & _).
    change (mink sub2 neg2 supL supR (neg2 v)) with (mink2 supL supR (neg2 v)). rewrite Ep. cbn [mbind res_mbind res_bind].
    assert (Kp : K (sp_v p)) by (by apply witness2_mdiff, Hp).
    assert (Hmin : forall w, K w -> dot2 v (sp_v p) <= dot2 v w).
    { intros w Hw. specialize (Hm w Hw). set (q := sp_v p) in *. clearbody q. clear -Hm. rv0. lra. }
    clear Hm Hp Ep Hneg. cbn [nlt nmul n0 n1 ndiv Num_R].
    destruct (Rltb (l * dot2 v ray) (dot2 v (sp_v p))) eqn:E1; [apply Rltb_true in E1|apply Rltb_false in E1].
    - assert (Hback : dot2 v ray <= 0 -> forall m, 0 <= m <= 1 -> ~ K (scale2 ray m)).
      { intros Hr m Hm Hkm. destruct (Rlt_le_dec m l) as [Hlt|Hge]; [by apply (Hf m); [lra|]|].
        specialize (Hmin _ Hkm). replace (dot2 v (scale2 ray m)) with (m * dot2 v ray) in Hmin by (clear; rv0; ring). nra. }
      destruct (Rltb 0 (dot2 v ray)) eqn:E2; [apply Rltb_true in E2|apply Rltb_false in E2; by apply Hback].
      set (l2 := dot2 v (sp_v p) / dot2 v ray).
      assert (El2 : l2 * dot2 v ray = dot2 v (sp_v p)) by (unfold l2; field; lra).
      assert (Hl2 : l < l2) by nra.
      assert (Hf2 : free2 ray l2).
      { intros m Hm Hkm. specialize (Hmin _ Hkm). replace (dot2 v (scale2 ray m)) with (m * dot2 v ray) in Hmin by (clear; rv0; ring). nra. }
      destruct (Rltb 1 l2) eqn:E3; [apply Rltb_true in E3|apply Rltb_false in E3].
      { intros m Hm. apply Hf2. lra. }
      destruct (toi_step A B HcA HcB eps (scale2 ray l2) [] v p) as (l' & v' & Ec & Hk' & Hi'); try done; [by split; [|left]|by right|by right|].
      cbn [app] in Ec |- *. rewrite Ec. cbn [mbind res_mbind res_bind]. apply IH; try done; [lra|].
      right. assert (Enn : neg2 (neg2 v) = v) by (clear; apply V2_eq; rv0; ring). rewrite Enn. split; [lra|]. split; [done|].
      intros w Hw. specialize (Hmin w Hw). replace (dot2 v (sub2 w (scale2 ray l2))) with (dot2 v w - l2 * dot2 v ray) by (clear; rv0; ring). lra.
    - destruct (toi_step A B HcA HcB eps (scale2 ray l) ss v p) as (l' & v' & Ec & Hk' & Hi'); try done; [by left| |].
      { left. replace (dot2 v (sub2 (sp_v p) (scale2 ray l))) with (dot2 v (sp_v p) - l * dot2 v ray) by (clear; rv0; ring). lra. }
      rewrite Ec. cbn [mbind res_mbind res_bind]. by apply IH.
  Qed.

  (** The result does not depend on the contact-point callback except for the point. *)
  Lemma toi2_spec fuel lvel rvel interp : lvel <> rvel ->
    match gjk2_toi eps supL supR fuel tol lvel rvel interp with
    | Panic => False
    | OutOfFuel => True
    | Ok None => forall m, 0 <= m <= 1 -> ~ meets2 A B lvel rvel m
    | Ok (Some ct) => 0 <= c_toi ct <= 1 /\ (forall m, 0 <= m < c_toi ct -> ~ meets2 A B lvel rvel m) /\
        near_at2 A B lvel rvel (c_toi ct) tol /\ (0 < c_toi ct -> impact_normal2 A B lvel rvel (c_toi ct) (c_normal ct)) /\
        0 <= c_depth ct /\ c_depth ct * c_depth ct <= tol /\
        c_point ct = interp (c_toi ct) (scale2 (sub2 rvel lvel) (c_toi ct)) /\ c_strategy ct = FullResolution
    end.
  Proof.
    intros Hne. unfold gjk2_toi, gjk_toi. cbv zeta. set (ray := sub2 rvel lvel).
    assert (Hray : neg2 ray <> zero2).
    { intros E. apply Hne. assert (E1 : - (ux rvel - ux lvel) = 0) by exact (f_equal ux E).
      assert (E2 : - (uy rvel - uy lvel) = 0) by exact (f_equal uy E). apply V2_eq; lra. }
    destruct (mink2_spec A B supL supR HA HB (neg2 ray) Hray) as (p & Ep & Hp & _).
    change (mink sub2 neg2 supL supR (neg2 ray)) with (mink2 supL supR (neg2 ray)). rewrite Ep. cbn [mbind res_mbind res_bind n0 Num_R].
    assert (E0 : (zero2 : P2) = scale2 ray 0) by (clear; apply V2_eq; rv0; ring).
    pose proof (toi_loop2 fuel ray 0 zero2 [] (sp_v p)) as Hloop.
    replace (toi_loop _ _ _ _ _ _ _ _ _ _ _ _ _ _ (sp_v p)) with (loop fuel tol ray 0 zero2 (scale2 ray 0) [] (sp_v p)) by by rewrite <- E0.
    destruct (loop fuel tol ray 0 zero2 (scale2 ray 0) [] (sp_v p)) as [[[[[l n] ro] v]|]| |] eqn:El; cbn [mbind res_mbind res_bind].
    - destruct Hloop as (Hl & Hf & Hc & -> & Hk & Hv).
      { lra. } { intros m Hm. lra. } { by left. }
      { replace (add2 (sp_v p) (scale2 ray 0)) with (sp_v p) by (clear; apply V2_eq; rv0; ring). by apply witness2_mdiff, Hp. }
      { right. split; [done|by left]. }
      cbn [nle Num_R]. rewrite (proj2 (Rleb_true _ _)) by done.
      cbn [c_toi c_depth c_point c_strategy c_normal]. split; [done|]. split.
      { intros m Hm Hme. apply (Hf m Hm). by apply meets2_iff. }
      split.
      { destruct Hk as (x & y & Hx & Hy & E). exists x, y. split; [done|]. split; [done|].
        assert (Ev : v = sub2 (add2 x (scale2 lvel l)) (add2 y (scale2 rvel l))).
        { assert (X1 : ux v + (ux rvel - ux lvel) * l = ux x - ux y) by exact (f_equal ux E).
          assert (X2 : uy v + (uy rvel - uy lvel) * l = uy x - uy y) by exact (f_equal uy E). apply V2_eq; rv0; lra. }
        rewrite Ev in Hv. clear -Hv. rv0. lra. }
      split.
      { intros Hpos. destruct Hc as [[-> _]|(_ & Hr & Hw)]; [lra|].
        assert (Hn : neg2 n <> zero2).
        { intros E. rewrite E in Hr. clear -Hr. unfold zero2 in Hr. rv0. lra. }
        set (q := neg2 n) in *. pose proof (mag2_pos q Hn) as Hmp.
        assert (Enorm : neg2 (normalize2 n) = scale2 q (1 / mag2 q)).
        { unfold normalize2. assert (mag2 n = mag2 q) as -> by (unfold q, mag2, mag2_2; rs; f_equal; clear; rv0; ring).
          unfold q. clear. apply V2_eq; rv0; ring. }
        rewrite Enorm. assert (Hi : 0 < 1 / mag2 q) by (apply Rdiv_lt_0_compat; lra). set (k := 1 / mag2 q) in *.
        split; [|split].
        - apply mag2_one. replace (dot2 (scale2 q k) (scale2 q k)) with (k * k * dot2 q q) by (clear; rv0; ring).
          rewrite <- mag2_sqr. unfold k. field. lra.
        - assert (0 < k * dot2 q ray) by by apply Rmult_lt_0_compat. unfold ray in *. clearbody k q.
          replace (dot2 (scale2 q k) rvel) with (dot2 (scale2 q k) lvel + k * dot2 q (sub2 rvel lvel)) by (clear; rv0; ring). lra.
        - intros x y Hx Hy. specialize (Hw (sub2 x y) ltac:(by exists x, y)). unfold ray in *. clearbody k q.
          replace (dot2 (scale2 q k) (add2 x (scale2 lvel l))) with
            (dot2 (scale2 q k) (add2 y (scale2 rvel l)) + k * dot2 q (sub2 (sub2 x y) (scale2 (sub2 rvel lvel) l))) by (clear; rv0; ring).
          assert (0 <= k * dot2 q (sub2 (sub2 x y) (scale2 (sub2 rvel lvel) l))) by (apply Rmult_le_pos; lra). lra. }
      split; [apply mag2_nonneg|]. split; [by rewrite mag2_sqr|]. done.
    - intros m Hm Hme. apply meets2_iff in Hme. revert m Hm Hme. apply Hloop.
      { lra. } { intros m Hm. lra. } { by left. }
      { replace (add2 (sp_v p) (scale2 ray 0)) with (sp_v p) by (clear; apply V2_eq; rv0; ring). by apply witness2_mdiff, Hp. }
      { right. split; [done|by left]. }
    - apply Hloop.
      { lra. } { intros m Hm. lra. } { by left. }
      { replace (add2 (sp_v p) (scale2 ray 0)) with (sp_v p) by (clear; apply V2_eq; rv0; ring). by apply witness2_mdiff, Hp. }
      { right. split; [done|by left]. }
    - done.
  Qed.
  (** No panic. *)
  Theorem C43_no_panic fuel lvel rvel interp : lvel <> rvel -> gjk2_toi eps supL supR fuel tol lvel rvel interp <> Panic.
  Proof. intros Hne E. pose proof (toi2_spec fuel lvel rvel interp Hne) as Hs. by rewrite E in Hs. Qed.
  (** No impact reported: the shapes meet at no time of the motion. *)
  Theorem C43_none_means_no_meeting fuel lvel rvel interp m :
    lvel <> rvel -> gjk2_toi eps supL supR fuel tol lvel rvel interp = Ok None -> 0 <= m <= 1 -> ~ meets2 A B lvel rvel m.
  Proof. intros Hne E. pose proof (toi2_spec fuel lvel rvel interp Hne) as Hs. rewrite E in Hs. apply Hs. Qed.
  (** An impact: it is within the motion, the shapes meet at no earlier time, at that time
      they are within the tolerance, and a line separates them there (the normal). *)
  Theorem C43_time_of_impact fuel lvel rvel interp ct :
    lvel <> rvel -> gjk2_toi eps supL supR fuel tol lvel rvel interp = Ok (Some ct) ->
    0 <= c_toi ct <= 1 /\ (forall m, 0 <= m < c_toi ct -> ~ meets2 A B lvel rvel m) /\
    near_at2 A B lvel rvel (c_toi ct) tol /\ (0 < c_toi ct -> impact_normal2 A B lvel rvel (c_toi ct) (c_normal ct)) /\
    0 <= c_depth ct /\ c_depth ct * c_depth ct <= tol.
  Proof.
    intros Hne E. pose proof (toi2_spec fuel lvel rvel interp Hne) as Hs. rewrite E in Hs.
    destruct Hs as (H1 & H2 & H3 & H4 & H5 & H6 & _). done.
  Qed.
  (** Shapes that meet during the motion give an impact, not later than the meeting. *)
  Theorem C43_meeting_found fuel lvel rvel interp m :
    lvel <> rvel -> meets2 A B lvel rvel m -> 0 <= m <= 1 ->
    (exists ct, gjk2_toi eps supL supR fuel tol lvel rvel interp = Ok (Some ct) /\ c_toi ct <= m) \/
    gjk2_toi eps supL supR fuel tol lvel rvel interp = OutOfFuel.
  Proof.
    intros Hne Hme Hm. pose proof (toi2_spec fuel lvel rvel interp Hne) as Hs.
    destruct (gjk2_toi eps supL supR fuel tol lvel rvel interp) as [[ct|]| |]; [|by destruct (Hs m Hm)|done|by right].
    left. exists ct. split; [done|]. destruct (Rle_lt_dec (c_toi ct) m) as [|Hlt]; [done|]. exfalso.
    destruct Hs as (_ & Hf & _). apply (Hf m); [lra|done].
  Qed.
  (** The contact point is where the right transform at that time takes the displacement
      (not a point where the shapes touch, see below). *)
  Theorem C43_contact_point fuel lvel rvel interp ct :
    lvel <> rvel -> gjk2_toi eps supL supR fuel tol lvel rvel interp = Ok (Some ct) ->
    c_point ct = interp (c_toi ct) (scale2 (sub2 rvel lvel) (c_toi ct)).
  Proof.
    intros Hne E. pose proof (toi2_spec fuel lvel rvel interp Hne) as Hs. rewrite E in Hs.
    by destruct Hs as (_ & _ & _ & _ & _ & _ & -> & _).
  Qed.
End toi2.

(** ** The primitives of the plane *)
Section prims.
  Context (p q : Primitive2 R) (TL TR : Xf P2) (Hp : prim2_ok p) (Hq : prim2_ok q) (HL : similar2 TL) (HR : similar2 TR).
  Let A := world TL (prim2_set p).
  Let B := world TR (prim2_set q).
  (** Two primitives starting at [TL], [TR] and translated by [lvel], [rvel]. *)
  Theorem C43_primitives2 eps tol fuel lvel rvel interp :
    0 <= tol -> lvel <> rvel ->
    match gjk2_toi eps (fun d => prim2_support p d TL) (fun d => prim2_support q d TR) fuel tol lvel rvel interp with
    | Panic => False
    | OutOfFuel => True
    | Ok None => forall m, 0 <= m <= 1 -> ~ meets2 A B lvel rvel m
    | Ok (Some ct) => 0 <= c_toi ct <= 1 /\ (forall m, 0 <= m < c_toi ct -> ~ meets2 A B lvel rvel m) /\
        near_at2 A B lvel rvel (c_toi ct) tol /\ (0 < c_toi ct -> impact_normal2 A B lvel rvel (c_toi ct) (c_normal ct))
    end.
  Proof.
    intros Ht Hne.
    pose proof (toi2_spec A B (fun d => prim2_support p d TL) (fun d => prim2_support q d TR) (prim2_supports p TL Hp HL)
      (prim2_supports q TR Hq HR) (prim2_world_convex p TL HL) (prim2_world_convex q TR HR) eps tol Ht fuel lvel rvel interp Hne) as Hs.
    destruct gjk2_toi as [[ct|]| |]; try done. destruct Hs as (H1 & H2 & H3 & H4 & _). done.
  Qed.
End prims.

(** ** Space: the time is never too late and [None] is right, whatever the procedure that
    updates the simplex does. *)
Lemma meets3_iff A B lvel rvel m : meets3 A B lvel rvel m <-> mdiff3 A B (scale3 (sub3 rvel lvel) m).
Proof.
  split; intros (x & y & Hx & Hy & E); exists x, y; (split; [done|]; split; [done|]).
  - assert (E1 : vx x + vx lvel * m = vx y + vx rvel * m) by exact (f_equal vx E).
    assert (E2 : vy x + vy lvel * m = vy y + vy rvel * m) by exact (f_equal vy E).
    assert (E3 : vz x + vz lvel * m = vz y + vz rvel * m) by exact (f_equal vz E). apply V3_eq; rv0; lra.
  - assert (E1 : (vx rvel - vx lvel) * m = vx x - vx y) by exact (f_equal vx E).
    assert (E2 : (vy rvel - vy lvel) * m = vy x - vy y) by exact (f_equal vy E).
    assert (E3 : (vz rvel - vz lvel) * m = vz x - vz y) by exact (f_equal vz E). apply V3_eq; rv0; lra.
Qed.
(** [n] is a unit vector, at time [m] no point of [A] is behind a point of [B] in its
    direction, and [B] moves forward along it (relative to [A]). *)
Definition impact_normal3 (A B : P3 -> Prop) (lvel rvel : P3) (m : R) (n : P3) : Prop :=
  mag3 n = 1 /\ dot3 n lvel < dot3 n rvel /\
  forall x y, A x -> B y -> dot3 n (add3 y (scale3 rvel m)) <= dot3 n (add3 x (scale3 lvel m)).
Section toi3.
  Context (A B : P3 -> Prop) (supL supR : P3 -> res P3) (HA : supports3 A supL) (HB : supports3 B supR)
    (eps tenth tol : R) (Htol : 0 <= tol).
  Notation K := (mdiff3 A B).
  Notation loop := (toi_loop sub3 neg3 scale3 dot3 supL supR (closest3 eps tenth)).
  Definition free3 (ray : P3) (l : R) : Prop := forall m, 0 <= m < l -> ~ K (scale3 ray m).
  Definition clipped3 (ray : P3) (l : R) (n : P3) : Prop :=
    (l = 0 /\ n = zero3) \/ (0 < l /\ 0 < dot3 (neg3 n) ray /\ forall w, K w -> 0 <= dot3 (neg3 n) (sub3 w (scale3 ray l))).
  Lemma toi_loop3 fuel ray : forall l n ss v,
    0 <= l <= 1 -> free3 ray l -> clipped3 ray l n ->
    match loop fuel tol ray l n (scale3 ray l) ss v with
    | Panic | OutOfFuel => True
    | Ok None => forall m, 0 <= m <= 1 -> ~ K (scale3 ray m)
    | Ok (Some (l', n', ro', v')) => 0 <= l' <= 1 /\ free3 ray l' /\ clipped3 ray l' n' /\ ro' = scale3 ray l' /\ dot3 v' v' <= tol
    end.
  Proof.
    induction fuel as [|fuel IH]; intros l n ss v Hl Hf Hc; cbn [toi_loop]; cbn [nlt Num_R].
    { destruct (Rltb tol (dot3 v v)) eqn:Ev; [done|]. apply Rltb_false in Ev. done. }
    destruct (Rltb tol (dot3 v v)) eqn:Ev; [apply Rltb_true in Ev|apply Rltb_false in Ev; done].
    assert (Hv : 0 < dot3 v v) by lra.
    assert (Hneg : neg3 v <> zero3).
    { apply vec3_ne. clear -Hv. rv0. lra. }
    destruct (mink3_spec A B supL supR HA HB (neg3 v) Hneg) as (p & Ep & Hp & Hm).
    change (mink sub3 neg3 supL supR (neg3 v)) with (mink3 supL supR (neg3 v)). rewrite Ep. cbn [mbind res_mbind res_bind].
    assert (Hmin : forall w, K w -> dot3 v (sp_v p) <= dot3 v w).
    { intros w Hw. specialize (Hm w Hw). set (q := sp_v p) in *. clearbody q. clear -Hm. rv0. lra. }
    clear Hm Hp Ep Hneg. cbn [nlt nmul n0 n1 ndiv Num_R].
    destruct (Rltb (l * dot3 v ray) (dot3 v (sp_v p))) eqn:E1; [apply Rltb_true in E1|apply Rltb_false in E1].
    - assert (Hback : dot3 v ray <= 0 -> forall m, 0 <= m <= 1 -> ~ K (scale3 ray m)).
      { intros Hr m Hm Hkm. destruct (Rlt_le_dec m l) as [Hlt|Hge]; [by apply (Hf m); [lra|]|].
        specialize (Hmin _ Hkm). replace (dot3 v (scale3 ray m)) with (m * dot3 v ray) in Hmin by (clear; rv0; ring). nra. }
      destruct (Rltb 0 (dot3 v ray)) eqn:E2; [apply Rltb_true in E2|apply Rltb_false in E2; by apply Hback].
      set (l2 := dot3 v (sp_v p) / dot3 v ray).
      assert (El2 : l2 * dot3 v ray = dot3 v (sp_v p)) by (unfold l2; field; lra).
      assert (Hl2 : l < l2) by nra.
      assert (Hf2 : free3 ray l2).
      { intros m Hm Hkm. specialize (Hmin _ Hkm). replace (dot3 v (scale3 ray m)) with (m * dot3 v ray) in Hmin by (clear; rv0; ring). nra. }
      destruct (Rltb 1 l2) eqn:E3; [apply Rltb_true in E3|apply Rltb_false in E3].
      { intros m Hm. apply Hf2. lra. }
      destruct (closest3 _ _ _) as [[ss' v']| |]; cbn [mbind res_mbind res_bind]; [|done..]. apply IH; try done; [lra|].
      right. assert (Enn : neg3 (neg3 v) = v) by (clear; apply V3_eq; rv0; ring). rewrite Enn. split; [lra|]. split; [done|].
      intros w Hw. specialize (Hmin w Hw). replace (dot3 v (sub3 w (scale3 ray l2))) with (dot3 v w - l2 * dot3 v ray) by (clear; rv0; ring). lra.
    - destruct (closest3 _ _ _) as [[ss' v']| |]; cbn [mbind res_mbind res_bind]; [|done..]. by apply IH.
  Qed.
  Lemma toi3_spec fuel lvel rvel interp :
    match gjk3_toi eps tenth supL supR fuel tol lvel rvel interp with
    | Panic | OutOfFuel => True
    | Ok None => forall m, 0 <= m <= 1 -> ~ meets3 A B lvel rvel m
    | Ok (Some ct) => 0 <= c_toi ct <= 1 /\ (forall m, 0 <= m < c_toi ct -> ~ meets3 A B lvel rvel m) /\
        (0 < c_toi ct -> impact_normal3 A B lvel rvel (c_toi ct) (c_normal ct)) /\
        c_point ct = interp (c_toi ct) (scale3 (sub3 rvel lvel) (c_toi ct)) /\ c_strategy ct = FullResolution
    end.
  Proof.
    unfold gjk3_toi, gjk_toi. cbv zeta. set (ray := sub3 rvel lvel).
    destruct (mink _ _ _ _ _) as [p| |]; cbn [mbind res_mbind res_bind n0 Num_R]; [|done..].
    assert (E0 : (zero3 : P3) = scale3 ray 0) by (clear; apply V3_eq; rv0; ring).
    pose proof (toi_loop3 fuel ray 0 zero3 [] (sp_v p)) as Hloop.
    replace (toi_loop _ _ _ _ _ _ _ _ _ _ _ _ _ _ (sp_v p)) with (loop fuel tol ray 0 zero3 (scale3 ray 0) [] (sp_v p)) by by rewrite <- E0.
    destruct (loop fuel tol ray 0 zero3 (scale3 ray 0) [] (sp_v p)) as [[[[[l n] ro] v]|]| |] eqn:El; cbn [mbind res_mbind res_bind]; [| |done..].
    - destruct Hloop as (Hl & Hf & Hc & -> & Hv).
      { lra. } { intros m Hm. lra. } { by left. }
      cbn [nle Num_R]. rewrite (proj2 (Rleb_true _ _)) by done.
      cbn [c_toi c_depth c_point c_strategy c_normal]. split; [done|]. split.
      { intros m Hm Hme. apply (Hf m Hm). by apply meets3_iff. }
      split; [|done].
      { intros Hpos. destruct Hc as [[-> _]|(_ & Hr & Hw)]; [lra|].
        assert (Hn : neg3 n <> zero3).
        { intros E. rewrite E in Hr. clear -Hr. unfold zero3 in Hr. rv0. lra. }
        set (q := neg3 n) in *. pose proof (mag3_pos q Hn) as Hmp.
        assert (Enorm : neg3 (normalize3 n) = scale3 q (1 / mag3 q)).
        { unfold normalize3. assert (mag3 n = mag3 q) as -> by (unfold q, mag3, mag2_3; rs; f_equal; clear; rv0; ring).
          unfold q. clear. apply V3_eq; rv0; ring. }
        rewrite Enorm. assert (Hi : 0 < 1 / mag3 q) by (apply Rdiv_lt_0_compat; lra). set (k := 1 / mag3 q) in *.
        split; [|split].
        - rewrite mag3_scale, Rabs_pos_eq by lra. unfold k. field. lra.
        - assert (0 < k * dot3 q ray) by by apply Rmult_lt_0_compat. unfold ray in *. clearbody k q.
          replace (dot3 (scale3 q k) rvel) with (dot3 (scale3 q k) lvel + k * dot3 q (sub3 rvel lvel)) by (clear; rv0; ring). lra.
        - intros x y Hx Hy. specialize (Hw (sub3 x y) ltac:(by exists x, y)). unfold ray in *. clearbody k q.
          replace (dot3 (scale3 q k) (add3 x (scale3 lvel l))) with
            (dot3 (scale3 q k) (add3 y (scale3 rvel l)) + k * dot3 q (sub3 (sub3 x y) (scale3 (sub3 rvel lvel) l))) by (clear; rv0; ring).
          assert (0 <= k * dot3 q (sub3 (sub3 x y) (scale3 (sub3 rvel lvel) l))) by (apply Rmult_le_pos; lra). lra. }
    - intros m Hm Hme. apply meets3_iff in Hme. revert m Hm Hme. apply Hloop.
      { lra. } { intros m Hm. lra. } { by left. }
  Qed.
  Theorem C43_none_means_no_meeting3 fuel lvel rvel interp m :
    gjk3_toi eps tenth supL supR fuel tol lvel rvel interp = Ok None -> 0 <= m <= 1 -> ~ meets3 A B lvel rvel m.
  Proof. intros E. pose proof (toi3_spec fuel lvel rvel interp) as Hs. rewrite E in Hs. apply Hs. Qed.
  (** In space the reported time is never after a meeting, and a plane separates the shapes
      there.  (That they are then within the tolerance is [C43_impact3] in PropsToi3.v; a panic
      is possible, since the update of the simplex may fail, C66.) *)
  Theorem C43_time_of_impact3 fuel lvel rvel interp ct :
    gjk3_toi eps tenth supL supR fuel tol lvel rvel interp = Ok (Some ct) ->
    0 <= c_toi ct <= 1 /\ (forall m, 0 <= m < c_toi ct -> ~ meets3 A B lvel rvel m) /\
    (0 < c_toi ct -> impact_normal3 A B lvel rvel (c_toi ct) (c_normal ct)).
  Proof.
    intros E. pose proof (toi3_spec fuel lvel rvel interp) as Hs. rewrite E in Hs. destruct Hs as (H1 & H2 & H3 & _). done.
  Qed.
  (** The contact point is where the right transform at that time takes the displacement. *)
  Theorem C43_contact_point3 fuel lvel rvel interp ct :
    gjk3_toi eps tenth supL supR fuel tol lvel rvel interp = Ok (Some ct) ->
    c_point ct = interp (c_toi ct) (scale3 (sub3 rvel lvel) (c_toi ct)).
  Proof. intros E. pose proof (toi3_spec fuel lvel rvel interp) as Hs. rewrite E in Hs. by destruct Hs as (_ & _ & _ & -> & _). Qed.
End toi3.

(** ** The hypotheses are met *)
(** The triangle of C42 at rest and a particle moving from (-3, -3) to (1, 1): impact with
    the corner (-1, -1) at time 1/2. *)
Lemma dot22 : dot2 (mk2 2 2) (mk2 2 2 : P2) = 8.
Proof. rv0. lra. Qed.
Lemma C43_met_aux f : exists ct,
  supports2 (world (square_at 0) (hull2 tri0)) (fun d => polygon_support tri0 d (square_at 0)) /\
  supports2 (fun p => p = mk2 (-3) (-3)) (fun _ => particle_support zero2 tri0_at) /\
  convex2 (world (square_at 0) (hull2 tri0)) /\ convex2 (fun p => p = mk2 (-3) (-3)) /\
  gjk2_toi 0 (fun d => polygon_support tri0 d (square_at 0)) (fun _ => particle_support zero2 tri0_at) (Datatypes.S f) (1 / 100)
    zero2 (mk2 4 4) (fun l p => add2 p (add2 (mk2 (-3) (-3)) (scale2 (mk2 4 4) l))) = Ok (Some ct) /\ c_toi ct = 1 / 2.
Proof.
  destruct C42_hypotheses_met2 as (H1 & H2 & H3 & H4 & _). eexists. split; [done|]. split; [done|]. split; [done|]. split; [done|].
  unfold gjk2_toi, gjk_toi. cbv zeta. change (mink sub2 neg2 ?a ?b) with (mink2 a b).
  assert (En : neg2 (sub2 (mk2 4 4) zero2) = (mk2 (-4) (-4) : P2)) by (apply V2_eq; unfold zero2; rv0; lra). rewrite En.
  rewrite (tri0_mink3 (mk2 (-4) (-4)) (mk2 (-1) (-1))); [|apply mk2_ne; left; lra|unfold tri0; set_solver|let w := fresh "w" in let Hw := fresh "Hw" in intros w Hw; pattern w; revert w Hw; apply tri0_case; intros ?; try done; rv0; lra].
  cbn [mbind res_mbind res_bind sp_v ux uy]. cbn [toi_loop].
  change (mink sub2 neg2 ?a ?b) with (mink2 a b). cbn [nlt Num_R].
  assert (E2 : mk2 (-1 + 3) (-1 + 3) = (mk2 2 2 : P2)) by (apply V2_eq; rv0; lra). rewrite E2.
  rewrite dot22. rewrite (proj2 (Rltb_true _ _)) by lra.
  assert (En2 : neg2 (mk2 2 2) = (mk2 (-2) (-2) : P2)) by (apply V2_eq; rv0; lra). rewrite En2.
  rewrite (tri0_mink3 (mk2 (-2) (-2)) (mk2 (-1) (-1))); [|apply mk2_ne; left; lra|unfold tri0; set_solver|let w := fresh "w" in let Hw := fresh "Hw" in intros w Hw; pattern w; revert w Hw; apply tri0_case; intros ?; try done; rv0; lra].
  cbn [mbind res_mbind res_bind sp_v ux uy]. rewrite E2, dot22.
  assert (Er : dot2 (mk2 2 2) (sub2 (mk2 4 4) zero2) = (16 : R)) by (unfold zero2; rv0; lra). rewrite Er. cbn [n0 n1 nmul ndiv nlt Num_R].
  rewrite (proj2 (Rltb_true _ _)) by lra. rewrite (proj2 (Rltb_true _ _)) by lra. rewrite (proj2 (Rltb_false _ _)) by lra.
  unfold sup_sub at 1. cbn [sp_v sp_a sp_b app].
  assert (Ez : sub2 (mk2 2 2) (scale2 (sub2 (mk2 4 4) zero2) (8 / 16)) = (zero2 : P2)) by (apply V2_eq; unfold zero2; rv0; lra). rewrite Ez.
  assert (Ec : forall a b, closest2 0 [mkSup (zero2 : P2) a b] = Ok ([mkSup zero2 a b], zero2)) by done. rewrite Ec. clear Ec.
  cbn [mbind res_mbind res_bind].
  assert (Ef : forall ro ss n, toi_loop sub2 neg2 scale2 dot2 (fun d => polygon_support tri0 d (square_at 0)) (fun _ => particle_support zero2 tri0_at)
    (closest2 0) f (1 / 100) (sub2 (mk2 4 4) zero2) (8 / 16) n ro ss zero2 = Ok (Some (8 / 16, n, ro, zero2))).
  { intros. destruct f; cbn [toi_loop nlt Num_R]; rewrite (proj2 (Rltb_false _ _)) by (unfold zero2; rv0; lra); done. }
  rewrite Ef. cbn [mbind res_mbind res_bind nle Num_R]. rewrite (proj2 (Rleb_true _ _)) by (unfold zero2; rv0; lra).
  split; [reflexivity|]. cbn [c_toi]. lra.
Qed.
Example C43_hypotheses_met : exists ct,
  supports2 (world (square_at 0) (hull2 tri0)) (fun d => polygon_support tri0 d (square_at 0)) /\
  supports2 (fun p => p = mk2 (-3) (-3)) (fun _ => particle_support zero2 tri0_at) /\
  convex2 (world (square_at 0) (hull2 tri0)) /\ convex2 (fun p => p = mk2 (-3) (-3)) /\
  gjk2_toi 0 (fun d => polygon_support tri0 d (square_at 0)) (fun _ => particle_support zero2 tri0_at) 100 (1 / 100)
    zero2 (mk2 4 4) (fun l p => add2 p (add2 (mk2 (-3) (-3)) (scale2 (mk2 4 4) l))) = Ok (Some ct) /\ c_toi ct = 1 / 2.
Proof. exact (C43_met_aux 99). Qed.

(** ** Where it fails *)
Local Instance num32t : Num f32 := Num_float 24 128.
Local Instance sgn32t : NumSgn f32 := NumSgn_float 24 128.
Definition f2 (a b : Z) : V2 f32 := mk2 (F32 a 0) (F32 b 0).
Definition is_nan32 (x : f32) : bool := negb (neq x x).
(** Two overlapping unit discs that do not move relative to each other: no impact, because
    the first support point is taken in the direction zero. *)
Theorem C43_resting_discs_refuted :
  (match gjk2_toi (F32 1 (-23)) (fun d => circle_support (F32 1 0) d (frect_at 0 0)) (fun d => circle_support (F32 1 0) d (frect_at 1 0))
     100 (F32 1 (-20)) (f2 0 0) (f2 0 0) (fun l p => add2 p (f2 1 0)) with Ok None => true | _ => false end) = true.
Proof. by vm_compute. Qed.
(** Shapes that overlap at the start: time 0, with a normal that is not a number. *)
Theorem C43_initial_overlap_normal_refuted :
  (match gjk2_toi (F32 1 (-23)) (fun d => circle_support (F32 1 0) d (frect_at 0 0)) (fun d => circle_support (F32 1 0) d (frect_at 1 0))
     100 (F32 1 (-20)) (f2 0 0) (f2 1 0) (fun l p => add2 p (add2 (f2 1 0) (scale2 (f2 1 0) l))) with
   | Ok (Some ct) => neq (c_toi ct) n0 && is_nan32 (ux (c_normal ct)) | _ => false end) = true.
Proof. by vm_compute. Qed.
(** Squares of side 2 at the origin and at (12, 0), the second moving by (-10, 0): they
    touch at time 1 along x = 1; the contact point is (-8, 0), in neither of them. *)
Theorem C43_contact_point_refuted :
  (match gjk2_toi (F32 1 (-23)) (fun d => rect_support (f2 2 2) d (frect_at 0 0)) (fun d => rect_support (f2 2 2) d (frect_at 12 0))
     100 (F32 1 (-20)) (f2 0 0) (f2 (-10) 0) (fun l p => add2 p (add2 (f2 12 0) (scale2 (f2 (-10) 0) l))) with
   | Ok (Some ct) => neq (c_toi ct) n1 && neq (ux (c_point ct)) (F32 (-8) 0) && neq (uy (c_point ct)) n0 | _ => false end) = true.
Proof. by vm_compute. Qed.
