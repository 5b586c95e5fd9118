(** C66 in space, exact arithmetic: [intersection_time_of_impact] need not end. *)
From Coq Require Import Psatz.
From stdpp Require Import prelude.
From Coq Require Import Reals Lra.
From Verif Require Import Res Num Vec AabbModel GeoModel RealGeo PrimModel ShapeSpec MinkModel MinkSpec Gjk3 PropsGjk3 Dist PrimEnum PropsDist
  PropsSupport PropsNarrow PropsToi Toi3.
Local Open Scope R_scope.

(** A pyramid at rest and a particle that starts at (-1, 3, 0) and moves by (3, -6, 0). *)
Definition pyr : list P3 := [mk3 1 0 1; mk3 1 0 (-1); mk3 (-1) 1 1; mk3 (-1) 1 (-1); mk3 (-1) (-1) 0].
Definition pyr_sup (d : P3) : res P3 := hull_support pyr d (move3 zero3).
Definition fly_at : P3 := mk3 (-1) 3 0.
Definition fly_vel : P3 := mk3 3 (-6) 0.
Definition fly_sup (d : P3) : res P3 := particle_support zero3 (move3 fly_at).

Lemma pyr_case (Q : P3 -> Prop) : Q (mk3 1 0 1) -> Q (mk3 1 0 (-1)) -> Q (mk3 (-1) 1 1) -> Q (mk3 (-1) 1 (-1)) -> Q (mk3 (-1) (-1) 0) ->
  forall w, w ∈ pyr -> Q w.
Proof. intros ? ? ? ? ? w Hw. unfold pyr in Hw. set_solver. Qed.
Lemma pyr_mink d v : v ∈ pyr -> (forall w, w ∈ pyr -> w <> v -> dot3 d w < dot3 d v) ->
  mink3 pyr_sup fly_sup d = Ok (mkSup (mk3 (vx v + 1) (vy v - 3) (vz v)) v fly_at).
Proof.
  intros Hv Hm. unfold mink3, mink, pyr_sup, fly_sup. rewrite (hull_max pyr d v) by done. cbn [mbind res_mbind res_bind]. unfold particle_support.
  cbn [mbind res_mbind res_bind]. rewrite move3_pt. unfold fly_at. f_equal. f_equal; apply V3_eq; unfold zero3; rv0; ring.
Qed.

(** The corners of the Minkowski difference used, less [l] times the motion. *)
Definition pa (s l : R) : P3 := mk3 (- 3 * l) (- 2 + 6 * l) s.
Definition pb (s l : R) : P3 := mk3 (2 - 3 * l) (- 3 + 6 * l) s.
(** The point nearest to the origin on the edge from [pa (- s) l] to [pb s l]. *)
Definition pc (s l : R) : P3 := mk3 (- l / 3) (- 2 + 14 * l / 3) (s * (- 1 + 8 * l / 3)).
Lemma V3_ne_dec (a b : P3) : a = b \/ a <> b.
Proof.
  destruct (Req_dec (vx a) (vx b)) as [E1|E1]; [destruct (Req_dec (vy a) (vy b)) as [E2|E2]; [destruct (Req_dec (vz a) (vz b)) as [E3|E3]|]|];
    [left; by apply V3_eq|right; intros ->; lra..].
Qed.
Lemma mink_a s l : s = 1 \/ s = -1 -> 1 / 4 <= l < 9 / 29 ->
  mink3 pyr_sup fly_sup (neg3 (pa (- s) l)) = Ok (mkSup (mk3 2 (-3) s) (mk3 1 0 s) fly_at).
Proof.
  intros Hs Hl. rewrite (pyr_mink _ (mk3 1 0 s)).
  - f_equal. f_equal. apply V3_eq; rv0; lra.
  - unfold pyr. destruct Hs as [-> | ->]; set_solver.
  - intros w Hw. pattern w. revert w Hw. apply pyr_case; intros ?; destruct Hs as [-> | ->]; try done; unfold pa; rv0; lra.
Qed.
Lemma mink_c s l : s = 1 \/ s = -1 -> 1 / 4 <= l < 9 / 29 ->
  mink3 pyr_sup fly_sup (neg3 (pc s l)) = Ok (mkSup (mk3 0 (-2) s) (mk3 (-1) 1 s) fly_at).
Proof.
  intros Hs Hl. rewrite (pyr_mink _ (mk3 (-1) 1 s)).
  - f_equal. f_equal. apply V3_eq; rv0; lra.
  - unfold pyr. destruct Hs as [-> | ->]; set_solver.
  - intros w Hw. pattern w. revert w Hw. apply pyr_case; intros ?; destruct Hs as [-> | ->]; try done; unfold pc; rv0; lra.
Qed.
Lemma edge_c s l : s = 1 \/ s = -1 -> 1 / 4 <= l < 9 / 29 -> closest_on_edge3 (pb s l) (pa (- s) l) zero3 = pc s l.
Proof.
  intros Hs Hl. unfold closest_on_edge3. cbv zeta.
  assert (El : sub3 (pa (- s) l) (pb s l) = mk3 (-2) 1 (- 2 * s)) by (unfold pa, pb; apply V3_eq; rv0; ring). rewrite El.
  assert (Em : mag3 (mk3 (-2) 1 (- 2 * s) : P3) = 3).
  { unfold mag3, mag2_3. cbn [nsqrt Num_R].
    replace (dot3 (mk3 (-2) 1 (- 2 * s)) (mk3 (-2) 1 (- 2 * s))) with (3 * 3) by (destruct Hs as [-> | ->]; rv0; ring). apply sqrt_square; lra. }
  unfold normalize3. rewrite Em. cbn [nlt n0 n1 ndiv nmul Num_R].
  assert (Ed : dot3 (sub3 zero3 (pb s l)) (scale3 (mk3 (-2) 1 (- 2 * s)) (1 / 3)) = 3 - 4 * l).
  { unfold pb, zero3. destruct Hs as [-> | ->]; rv0; field. }
  rewrite Ed. rewrite (proj2 (Rltb_false _ _)) by lra.
  rewrite (proj2 (Rltb_false _ _)) by (unfold mag2_3; destruct Hs as [-> | ->]; rv0; nra).
  unfold pb, pc. apply V3_eq; destruct Hs as [-> | ->]; rv0; field.
Qed.

Section loop.
  Context (eps tenth tol : R) (Htol : tol <= 1 / 4).
  Notation loop := (toi_loop sub3 neg3 scale3 dot3 pyr_sup fly_sup (closest3 eps tenth)).
  (** Two turns of the loop lead to the mirror image, at a later time that stays below 9/29. *)
  Lemma never fuel : forall s l n p, s = 1 \/ s = -1 -> 1 / 4 <= l < 9 / 29 -> sp_v p = pa (- s) l ->
    loop fuel tol fly_vel l n (scale3 fly_vel l) [p] (pa (- s) l) = OutOfFuel.
  Proof.
    induction fuel as [fuel IH] using lt_wf_ind. intros s l n p Hs Hl Ep.
    assert (Hv1 : tol < dot3 (pa (- s) l) (pa (- s) l)).
    { apply Rle_lt_trans with (1 / 4); [done|]. unfold pa. destruct Hs as [-> | ->]; rv0; nra. }
    destruct fuel as [|fuel]; cbn [toi_loop]; cbn [nlt nmul n0 n1 ndiv Num_R]; rewrite (proj2 (Rltb_true _ _)) by done; [done|].
    change (mink sub3 neg3 ?a ?b) with (mink3 a b). rewrite (mink_a s l Hs Hl). cbn [mbind res_mbind res_bind sp_v].
    rewrite (proj2 (Rltb_false _ _)) by (unfold pa, fly_vel; destruct Hs as [-> | ->]; rv0; nra).
    cbn [app]. set (q := sup_sub _ _ _).
    assert (Eq : sp_v q = pb s l) by (unfold q, pb, fly_vel; apply V3_eq; cbn [sup_sub sp_v]; rv0; ring).
    assert (Ec : closest3 eps tenth [p; q] = Ok ([p; q], pc s l)).
    { unfold closest3, reduce3. cbv zeta. rewrite Ep, Eq, (edge_c s l Hs Hl). done. }
    rewrite Ec. cbn [mbind res_mbind res_bind].
    assert (Hv2 : tol < dot3 (pc s l) (pc s l)).
    { apply Rle_lt_trans with (1 / 4); [done|]. unfold pc. destruct Hs as [-> | ->]; rv0; nra. }
    destruct fuel as [|fuel]; cbn [toi_loop]; cbn [nlt nmul n0 n1 ndiv Num_R]; rewrite (proj2 (Rltb_true _ _)) by done; [done|].
    change (mink sub3 neg3 ?a ?b) with (mink3 a b). rewrite (mink_c s l Hs Hl). cbn [mbind res_mbind res_bind sp_v].
    assert (Evp : dot3 (pc s l) (mk3 0 (-2) s) = (9 - 20 * l) / 3) by (unfold pc; destruct Hs as [-> | ->]; rv0; field).
    assert (Evr : dot3 (pc s l) fly_vel = 12 - 29 * l) by (unfold pc, fly_vel; rv0; field).
    rewrite Evp, Evr. rewrite (proj2 (Rltb_true _ _)) by nra. rewrite (proj2 (Rltb_true _ _)) by lra.
    set (l' := (9 - 20 * l) / 3 / (12 - 29 * l)). assert (Hl' : 1 / 4 <= l' < 9 / 29).
    { assert (El : l' * (12 - 29 * l) = (9 - 20 * l) / 3) by (unfold l'; field; lra). clearbody l'. split; [|]; nra. }
    rewrite (proj2 (Rltb_false _ _)) by lra. cbn [app]. set (p' := sup_sub _ _ _).
    assert (Ep' : sp_v p' = pa (- - s) l') by (unfold p', pa, fly_vel; apply V3_eq; cbn [sup_sub sp_v]; rv0; ring).
    assert (Ec' : closest3 eps tenth [p'] = Ok ([p'], pa (- - s) l')) by (unfold closest3; cbn [reduce3]; by rewrite Ep').
    rewrite Ec'. cbn [mbind res_mbind res_bind]. apply IH; [lia|lra|done|done].
  Qed.
End loop.

(** The particle hits the pyramid, yet for no number of turns does the query answer: the
    simplex goes back and forth between two mirror images and the time creeps up to 9/29,
    below the time of impact 4/9. *)
Theorem C66_never_returns_exact3_refuted eps tenth tol interp :
  0 <= tol <= 1 / 4 ->
  meets3 (world (move3 zero3) (hull3 pyr)) (fun p => p = xf_pt (move3 fly_at) zero3) zero3 fly_vel (4 / 9) /\
  forall fuel, gjk3_toi eps tenth (fun d => hull_support pyr d (move3 zero3)) (fun _ => particle_support zero3 (move3 fly_at)) fuel tol
    zero3 fly_vel interp = OutOfFuel.
Proof.
  intros [_ Htol]. split.
  - exists (mk3 (1 / 3) (1 / 3) 0), fly_at. split; [|split].
    + exists (mk3 (1 / 3) (1 / 3) 0). rewrite move3_zero. split; [|done].
      assert (V : forall v, v ∈ pyr -> hull3 pyr v) by (intros v Hv; by apply hull3_vertex).
      assert (H1 : hull3 pyr (mk3 1 0 0)).
      { replace (mk3 1 0 0 : P3) with (add3 (scale3 (mk3 1 0 1) (1 - 1 / 2)) (scale3 (mk3 1 0 (-1)) (1 / 2)) : P3) by (apply V3_eq; rv0; field).
        apply hull3_convex; [apply V; unfold pyr; set_solver..|lra]. }
      assert (H2 : hull3 pyr (mk3 (-1) 1 0)).
      { replace (mk3 (-1) 1 0 : P3) with (add3 (scale3 (mk3 (-1) 1 1) (1 - 1 / 2)) (scale3 (mk3 (-1) 1 (-1)) (1 / 2)) : P3) by (apply V3_eq; rv0; field).
        apply hull3_convex; [apply V; unfold pyr; set_solver..|lra]. }
      replace (mk3 (1 / 3) (1 / 3) 0 : P3) with (add3 (scale3 (mk3 1 0 0) (1 - 1 / 3)) (scale3 (mk3 (-1) 1 0) (1 / 3)) : P3) by (apply V3_eq; rv0; field).
      by apply hull3_convex; [..|lra].
    + rewrite move3_pt. unfold fly_at. apply V3_eq; unfold zero3; rv0; ring.
    + unfold fly_at, fly_vel. apply V3_eq; unfold zero3; rv0; field.
  - intros fuel. change (gjk3_toi eps tenth pyr_sup fly_sup fuel tol zero3 fly_vel interp = OutOfFuel). unfold gjk3_toi, gjk_toi. cbv zeta.
    assert (Er : sub3 fly_vel zero3 = fly_vel) by (unfold fly_vel; apply V3_eq; unfold zero3; rv0; ring). rewrite Er.
    change (mink sub3 neg3 ?a ?b) with (mink3 a b).
    assert (E1 : exists s q, (s = 1 \/ s = -1) /\ mink3 pyr_sup fly_sup (neg3 fly_vel) = Ok q /\ sp_v q = pa s 0).
    { unfold mink3, mink, pyr_sup, fly_sup.
      destruct (C38_polyhedron pyr (move3 zero3) (neg3 fly_vel) ltac:(done) (move3_similar _)) as (w & Ew & _ & Hmax).
      pose proof (get_max3_vertex pyr (move3 zero3) (neg3 fly_vel) w ltac:(done) Ew) as Hin. apply elem_of_list_fmap in Hin as (w' & Hw' & Hin).
      rewrite move3_zero in Hw'. subst w'. rewrite Ew. cbn [mbind res_mbind res_bind]. unfold particle_support. cbn [mbind res_mbind res_bind].
      assert (Hd : dot3 (neg3 fly_vel) (mk3 (-1) 1 1) <= dot3 (neg3 fly_vel) w).
      { apply Hmax. exists (mk3 (-1) 1 1). rewrite move3_zero. split; [apply hull3_vertex; unfold pyr; set_solver|done]. }
      clear Hmax Ew. revert Hd. pattern w. revert w Hin. apply pyr_case; unfold fly_vel; intros Hd.
      1,2,5: exfalso; clear -Hd; rv0; lra.
      - exists 1. eexists. split; [lra|]. split; [done|]. cbn [sp_v]. rewrite move3_pt. unfold fly_at, pa. apply V3_eq; unfold zero3; rv0; ring.
      - exists (-1). eexists. split; [lra|]. split; [done|]. cbn [sp_v]. rewrite move3_pt. unfold fly_at, pa. apply V3_eq; unfold zero3; rv0; ring. }
    destruct E1 as (s & q & Hs & Eq & Ev). rewrite Eq. cbn [mbind res_mbind res_bind]. rewrite Ev.
    assert (H : toi_loop sub3 neg3 scale3 dot3 pyr_sup fly_sup (closest3 eps tenth) fuel tol fly_vel 0 zero3 zero3 [] (pa s 0) = OutOfFuel).
    2:{ cbn [n0 Num_R]. rewrite H. done. }
    assert (Hv1 : tol < dot3 (pa s 0) (pa s 0)).
    { apply Rle_lt_trans with (1 / 4); [done|]. unfold pa. destruct Hs as [-> | ->]; rv0; lra. }
    destruct fuel as [|fuel]; cbn [toi_loop]; cbn [nlt nmul n0 n1 ndiv Num_R]; rewrite (proj2 (Rltb_true _ _)) by done; [done|].
    assert (Ht : exists t, (s = 1 /\ t = -1 \/ s = -1 /\ t = 1) /\ - s = t) by (destruct Hs as [-> | ->]; [exists (-1)|exists 1]; split; lra).
    destruct Ht as (t & Hst & Et).
    change (mink sub3 neg3 ?a ?b) with (mink3 a b). rewrite (pyr_mink _ (mk3 (-1) 1 t)).
    2:{ unfold pyr. destruct Hst as [[-> ->] | [-> ->]]; set_solver. }
    2:{ intros w Hw. pattern w. revert w Hw. apply pyr_case; intros Hne; destruct Hst as [[-> ->] | [-> ->]]; try done; unfold pa; rv0; lra. }
    cbn [mbind res_mbind res_bind sp_v vx vy vz].
    assert (Evp : dot3 (pa s 0) (mk3 (-1 + 1) (1 - 3) t) = 3) by (unfold pa; destruct Hst as [[-> ->] | [-> ->]]; rv0; lra).
    assert (Evr : dot3 (pa s 0) fly_vel = 12) by (unfold pa, fly_vel; rv0; lra).
    rewrite Evp, Evr. rewrite (proj2 (Rltb_true _ _)) by lra. rewrite (proj2 (Rltb_true _ _)) by lra.
    rewrite (proj2 (Rltb_false _ _)) by lra. cbn [app]. set (p' := sup_sub _ _ _).
    assert (Ep' : sp_v p' = pa (- s) (3 / 12)) by (unfold p', pa, fly_vel; apply V3_eq; cbn [sup_sub sp_v]; rv0; lra).
    assert (Ec' : closest3 eps tenth [p'] = Ok ([p'], pa (- s) (3 / 12))) by (unfold closest3; cbn [reduce3]; by rewrite Ep').
    rewrite Ec'. cbn [mbind res_mbind res_bind]. apply (never eps tenth tol Htol); [done|lra|done].
Qed.
