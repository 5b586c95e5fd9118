(** C48: rays against capsules. *)
From Coq Require Import Psatz.
From stdpp Require Import prelude.
From Flocq Require Import IEEE754.BinarySingleNaN.
From Coq Require Import Reals Lra.
From Verif Require Import Res Num Vec AabbModel GeoModel RealGeo Xr PropsRayBox PrimModel ShapeSpec RaySpec PropsPrimRay CylRay PropsCylRay.
Local Open Scope R_scope.

(** The ball of radius [rd] around the point of the axis at height [h]. *)
Definition ball_at (h rd : R) (p : P3) : Prop := vx p * vx p + (vy p - h) * (vy p - h) + vz p * vz p <= rd * rd.

Lemma fin_zero : is_fin (n0 : xr) 0.
Proof. by eexists. Qed.

Section cap.
  Context (r : Ray (V3 xr)) (q : Ray P3) (hx rad : xr) (hh rd : R).
  Context (Hr : fin_ray3 r q) (Hhx : is_fin hx hh) (Hrad : is_fin rad rd) (Hh : 0 <= hh) (Hrd : 0 <= rd).
  Context (Hu : dot3 (direction q) (direction q) = 1).
  Let dy := vy (direction q).
  Let oy := vy (origin q).
  Let Q (t : R) := Qc rd (along3 q t).
  (** ** One ball *)
  Definition toC (h : R) : P3 := mk3 (- vx (origin q)) (h - vy (origin q)) (- vz (origin q)).
  Let tca (h : R) := dot3 (toC h) (direction q).
  Let L (h : R) := dot3 (toC h) (toC h).
  Let t0 (h : R) := tca h - sqrt (rd * rd - (L h - tca h * tca h)).
  Definition bhit (h : R) : Prop := 0 < tca h /\ L h - tca h * tca h <= rd * rd.
  Lemma ball_along h t : ball_at h rd (along3 q t) <-> L h - 2 * t * tca h + t * t <= rd * rd.
  Proof.
    unfold ball_at. replace (vx (along3 q t) * vx (along3 q t) + (vy (along3 q t) - h) * (vy (along3 q t) - h) + vz (along3 q t) * vz (along3 q t))
      with (L h - 2 * t * tca h + t * t * dot3 (direction q) (direction q)); [rewrite Hu; split; intros; lra|].
    unfold L, tca, toC, along3. destruct q as [[a b c] [d e f]]. cbn [origin direction vx vy vz]. unfold dot3. cbn [vx vy vz nadd nmul Num_R]. ring.
  Qed.
  Lemma ball_origin h : ball_at h rd (origin q) <-> L h <= rd * rd.
  Proof. unfold ball_at, L, toC, dot3. cbn [vx vy vz nadd nmul Num_R]. split; intros; lra. Qed.
  (** A ball the origin is not in is met exactly when the code says so, and first at [t0]. *)
  Lemma bhit_iff h : ~ ball_at h rd (origin q) -> bhit h <-> ray_meets (along3 q) (ball_at h rd).
  Proof.
    intros Ho. rewrite ball_origin in Ho. split.
    - intros [Ht Hd]. exists (tca h). split; [lra|]. apply ball_along. lra.
    - intros (t & Ht & Hb%ball_along). pose proof (near_some (L h) (tca h) rd t Ht Hb). split; [|lra].
      assert (0 < t) by (destruct Ht as [? | <-]; [done|exfalso; lra]). nra.
  Qed.
  Lemma bhit_sound h : bhit h -> ray_meets (along3 q) (ball_at h rd).
  Proof. intros [Ht Hd]. exists (tca h). split; [lra|]. apply ball_along. lra. Qed.
  Lemma t0_in h : bhit h -> ball_at h rd (along3 q (t0 h)).
  Proof. intros [Ht Hd]. apply ball_along. unfold t0. rewrite root_lo; lra. Qed.
  Lemma t0_first h t : ball_at h rd (along3 q t) -> t0 h <= t.
  Proof.
    intros Hb%ball_along. unfold t0. apply (root_first (L h) (tca h) rd t); [|done].
    pose proof (Rle_0_sqr (t - tca h)) as Hs. unfold Rsqr in Hs. lra.
  Qed.
  Lemma t0_pos h : ~ ball_at h rd (origin q) -> bhit h -> 0 < t0 h.
  Proof. intros Ho [Ht Hd]. rewrite ball_origin in Ho. unfold t0. apply (root_sign (L h) (tca h) rd); lra. Qed.
  (** ** The code *)
  Section one.
    Context (h : xr) (h' : R) (Fh : is_fin h h').
    Lemma fin_l : fin3 (cap_l h r) (toC h').
    Proof. destruct Hr as [(Ox & Oy & Oz) _]. unfold cap_l, toC. split; [|split]; xn; fin. Qed.
    Lemma fin_tca : is_fin (dot3 (cap_l h r) (direction r)) (tca h').
    Proof. destruct Hr as [_ (Dx & Dy & Dz)]. destruct fin_l as (Fx & Fy & Fz). unfold tca, dot3. xn. cbn [nadd nmul Num_R]. fin. Qed.
    Lemma fin_L : is_fin (dot3 (cap_l h r) (cap_l h r)) (L h').
    Proof. destruct fin_l as (Fx & Fy & Fz). unfold L, dot3. xn. cbn [nadd nmul Num_R]. fin. Qed.
    Lemma fin_d2 : is_fin (nsub (dot3 (cap_l h r) (cap_l h r)) (nmul (dot3 (cap_l h r) (direction r)) (dot3 (cap_l h r) (direction r)))) (L h' - tca h' * tca h').
    Proof. pose proof fin_tca. pose proof fin_L. xn. fin. Qed.
    Lemma cap_hit_bhit : cap_hit h rad r = true <-> bhit h'.
    Proof.
      unfold cap_hit, bhit. cbn zeta. pose proof fin_tca as F1. pose proof fin_d2 as F2. pose proof (fin_mul _ _ _ _ Hrad Hrad) as F3.
      rewrite (nfin_lt n0 _ 0 _ fin_zero F1), andb_true_iff, Rltb_true.
      set (d2 := nsub _ _) in *. change (nle d2 (nmul rad rad)) with (xle d2 (xmul rad rad)). rewrite (fin_le _ _ _ _ F2 F3), Rleb_true. done.
    Qed.
    Lemma cap_t_fin t u : is_fin t u -> (bhit h' /\ 0 <= t0 h' < u /\ is_fin (cap_t h rad r t) (t0 h')) \/
      (~ (bhit h' /\ 0 <= t0 h' < u) /\ is_fin (cap_t h rad r t) u).
    Proof.
      intros Ft. unfold cap_t. cbn zeta. pose proof fin_tca as F1. pose proof fin_d2 as F2. pose proof (fin_mul _ _ _ _ Hrad Hrad) as F3.
      rewrite (nfin_lt n0 _ 0 _ fin_zero F1). destruct (Rltb 0 (tca h')) eqn:E1; [apply Rltb_true in E1|apply Rltb_false in E1; right; split; [unfold bhit; lra|done]].
      set (d2 := nsub _ _) in *. change (nle d2 (nmul rad rad)) with (xle d2 (xmul rad rad)). rewrite (fin_le _ _ _ _ F2 F3).
      destruct (Rleb _ _) eqn:E2; [apply Rleb_true in E2|apply Rleb_false in E2; right; split; [unfold bhit; lra|done]].
      assert (F4 : is_fin (nsub (dot3 (cap_l h r) (direction r)) (nsqrt (nsub (nmul rad rad) d2))) (t0 h')).
      { unfold t0. xn. apply fin_sub; [done|]. apply fin_sqrt; [lra|]. by apply fin_sub. }
      set (s := nsub (dot3 _ _) _) in *. rewrite (fin_ge0 _ _ F4), (nfin_lt _ _ _ _ F4 Ft).
      assert (neq t t = true) as -> by (xn; rewrite (fin_eq _ _ _ _ Ft Ft); by apply Reqb_true). cbn [negb orb].
      destruct (Rleb 0 (t0 h')) eqn:E3; [apply Rleb_true in E3|apply Rleb_false in E3; right; split; [lra|done]].
      destruct (Rltb (t0 h') u) eqn:E4; [apply Rltb_true in E4; left|apply Rltb_false in E4; right; split; [lra|done]]. split; [by split|]. split; [lra|done].
    Qed.
    Lemma cap_t_nan : (bhit h' /\ 0 <= t0 h' /\ is_fin (cap_t h rad r XNaN) (t0 h')) \/
      (~ (bhit h' /\ 0 <= t0 h') /\ cap_t h rad r XNaN = XNaN).
    Proof.
      unfold cap_t. cbn zeta. pose proof fin_tca as F1. pose proof fin_d2 as F2. pose proof (fin_mul _ _ _ _ Hrad Hrad) as F3.
      rewrite (nfin_lt n0 _ 0 _ fin_zero F1). destruct (Rltb 0 (tca h')) eqn:E1; [apply Rltb_true in E1|apply Rltb_false in E1; right; split; [unfold bhit; lra|done]].
      set (d2 := nsub _ _) in *. change (nle d2 (nmul rad rad)) with (xle d2 (xmul rad rad)). rewrite (fin_le _ _ _ _ F2 F3).
      destruct (Rleb _ _) eqn:E2; [apply Rleb_true in E2|apply Rleb_false in E2; right; split; [unfold bhit; lra|done]].
      assert (F4 : is_fin (nsub (dot3 (cap_l h r) (direction r)) (nsqrt (nsub (nmul rad rad) d2))) (t0 h')).
      { unfold t0. xn. apply fin_sub; [done|]. apply fin_sqrt; [lra|]. by apply fin_sub. }
      set (s := nsub (dot3 _ _) _) in *. rewrite (fin_ge0 _ _ F4). cbn [neq Num_xr xeq xle andb negb orb].
      destruct (Rleb 0 (t0 h')) eqn:E3; [apply Rleb_true in E3|apply Rleb_false in E3; right; split; [lra|done]].
      left. split; [by split|]. split; [lra|done].
    Qed.
  End one.
  Let y (t : R) := oy + dy * t.
  (** Along the axis the quadratic has no solution: the parameter is not a number. *)
  Lemma axis_solve : level q = 0 -> exists t1 t2, cyl_solve r rad = Some (t1, t2) /\ pick_root t1 t2 = Some XNaN.
  Proof.
    intros E. destruct Hr as [(Ox & Oy & Oz) (Dx & Dy & Dz)]. unfold cyl_solve. pose proof fin_two as F2.
    assert (Hdx : vx (direction q) = 0) by (unfold level in E; nra). assert (Hdz : vz (direction q) = 0) by (unfold level in E; nra).
    rewrite Hdx in Dx. rewrite Hdz in Dz.
    set (A := nadd (nmul (vx (direction r)) (vx (direction r))) (nmul (vz (direction r)) (vz (direction r)))).
    set (B := nmul two (nadd (nmul (vx (direction r)) (vx (origin r))) (nmul (vz (direction r)) (vz (origin r))))).
    set (C := nsub (nadd (nmul (vx (origin r)) (vx (origin r))) (nmul (vz (origin r)) (vz (origin r)))) (nmul rad rad)).
    assert (FA : is_fin A 0) by (unfold A; replace 0 with (0 * 0 + 0 * 0) at 1 by ring; xn; fin).
    assert (FB : is_fin B 0) by (unfold B; replace 0 with (2 * (0 * vx (origin q) + 0 * vz (origin q))) by ring; xn; fin).
    assert (FC : exists c, is_fin C c) by (eexists; unfold C; xn; fin). destruct FC as [c FC].
    cbn zeta. set (D := nsub (nmul B B) _).
    assert (FD : is_fin D 0) by (unfold D; replace 0 with (0 * 0 - (2 + 2) * 0 * c) by ring; xn; fin).
    rewrite (nfin_lt D n0 0 0 FD fin_zero), (proj2 (Rltb_false 0 0)) by lra.
    assert (FS : is_fin (nsqrt D) 0) by (rewrite <- sqrt_0; apply fin_sqrt; [lra|done]).
    assert (FA2 : is_fin (nmul two A) 0) by (replace 0 with (2 * 0) by ring; xn; fin).
    assert (Hdiv : forall x z, is_fin x 0 -> is_fin z 0 -> ndiv x z = XNaN).
    { intros x z [s ->] [s' ->]. cbn. by rewrite (proj2 (Rzero_true 0) eq_refl). }
    eexists _, _. split; [done|].
    rewrite !Hdiv; [done|replace 0 with (- 0 - 0) by ring; xn; fin|done|replace 0 with (- 0 + 0) by ring; xn; fin|done].
  Qed.
  Lemma slab_nan : (nle (vy (ray_pt3 r XNaN)) hx && nle (nneg hx) (vy (ray_pt3 r XNaN))) = false.
  Proof.
    destruct Hr as [(Ox & Oy & Oz) (Dx & Dy & Dz)]. unfold ray_pt3, add3, scale3. cbn [vy]. destruct Oy as [s ->], Dy as [s' ->]. done.
  Qed.
  (** What [intersects] computes. *)
  Lemma ctest_axis : level q = 0 -> capsule_ray_test hx rad r = true <-> bhit hh \/ bhit (- hh).
  Proof.
    intros E. unfold capsule_ray_test. destruct (axis_solve E) as (t1 & t2 & -> & ->). cbn zeta. rewrite slab_nan.
    pose proof (cap_hit_bhit hx hh Hhx) as H1. pose proof (cap_hit_bhit (nneg hx) (- hh) (fin_neg _ _ Hhx)) as H2.
    rewrite <- H1, <- H2. destruct (cap_hit hx rad r), (cap_hit (nneg hx) rad r); intuition congruence.
  Qed.
  Lemma ctest_char : 0 < level q -> capsule_ray_test hx rad r = true <->
    exists u1 u2, roots rd q u1 u2 /\ 0 <= u1 /\ ((- hh <= y (start u1 u2) <= hh) \/ bhit hh \/ bhit (- hh)).
  Proof.
    intros Ha. unfold capsule_ray_test. pose proof (cyl_solve_spec r q rad rd Hr Hrad Ha) as Hs.
    assert (Huniq : forall u1 u2 w1 w2, roots rd q u1 u2 -> roots rd q w1 w2 -> u1 = w1 /\ u2 = w2).
    { intros u1 u2 w1 w2 H1 H2. pose proof (proj1 (roots_zero q rd u1 u2 w1 Ha H1) (proj2 (roots_zero q rd w1 w2 w1 Ha H2) (or_introl eq_refl))).
      pose proof (proj1 (roots_zero q rd u1 u2 w2 Ha H1) (proj2 (roots_zero q rd w1 w2 w2 Ha H2) (or_intror eq_refl))).
      pose proof (proj1 (roots_zero q rd w1 w2 u1 Ha H2) (proj2 (roots_zero q rd u1 u2 u1 Ha H1) (or_introl eq_refl))).
      pose proof (proj1 (roots_zero q rd w1 w2 u2 Ha H2) (proj2 (roots_zero q rd u1 u2 u2 Ha H1) (or_intror eq_refl))).
      destruct H1 as [L1 _], H2 as [L2 _]. lra. }
    destruct (cyl_solve r rad) as [[t1 t2]|].
    - destruct Hs as (u1 & u2 & F1 & F2 & Hroots). pose proof (pick_root_spec t1 t2 u1 u2 F1 F2 (proj1 Hroots)) as Hp.
      destruct (pick_root t1 t2) as [t|].
      + destruct Hp as [Hu1 Ft]. fold (start u1 u2) in Ft. pose proof (slab_iff r q hx hh rd Hr Hhx t _ Ft) as Hslab.
        pose proof (cap_hit_bhit hx hh Hhx) as H1. pose proof (cap_hit_bhit (nneg hx) (- hh) (fin_neg _ _ Hhx)) as H2.
        transitivity ((- hh <= y (start u1 u2) <= hh) \/ bhit hh \/ bhit (- hh)).
        * unfold y, oy, dy. rewrite <- Hslab, <- H1, <- H2. cbn zeta.
          destruct (nle (vy (ray_pt3 r t)) hx && nle (nneg hx) (vy (ray_pt3 r t))), (cap_hit hx rad r), (cap_hit (nneg hx) rad r); intuition congruence.
        * split; [intros Hor; by exists u1, u2|]. intros (w1 & w2 & Hw & _ & Hor). destruct (Huniq _ _ _ _ Hroots Hw) as [-> ->]. done.
      + split; [done|]. intros (w1 & w2 & Hw & Hw1 & _). destruct (Huniq _ _ _ _ Hroots Hw) as [-> ->]. lra.
    - split; [done|]. intros (w1 & w2 & [_ Hw] & _). specialize (Hs w1). rewrite Hw in Hs. lra.
  Qed.
  (** ** The capsule as a set *)
  Lemma capsule_tube p : capsule_set hh rd p -> Qc rd p <= 0.
  Proof. intros (c & Hc & Hp). unfold Qc. pose proof (Rle_0_sqr (vy p - c)) as Hs. unfold Rsqr in Hs. lra. Qed.
  Lemma capsule_top p : capsule_set hh rd p -> hh <= vy p -> ball_at hh rd p.
  Proof. intros (c & Hc & Hp) Hy. unfold ball_at. assert ((vy p - hh) * (vy p - hh) <= (vy p - c) * (vy p - c)) by nra. lra. Qed.
  Lemma capsule_bottom p : capsule_set hh rd p -> vy p <= - hh -> ball_at (- hh) rd p.
  Proof. intros (c & Hc & Hp) Hy. unfold ball_at. assert ((vy p - - hh) * (vy p - - hh) <= (vy p - c) * (vy p - c)) by nra. lra. Qed.
  Lemma ball_capsule h p : - hh <= h <= hh -> ball_at h rd p -> capsule_set hh rd p.
  Proof. intros Hc Hp. exists h. split; [done|]. unfold ball_at in Hp. lra. Qed.
  Lemma slab_capsule p : Qc rd p <= 0 -> - hh <= vy p <= hh -> capsule_set hh rd p.
  Proof. intros Hq Hy. exists (vy p). split; [done|]. unfold Qc in Hq. replace (vy p - vy p) with 0 by ring. lra. Qed.
  Lemma Q_between a w t : a <= w <= t -> Q a <= 0 -> Q t <= 0 -> Q w <= 0.
  Proof.
    intros Hw Ha Ht. unfold Q in *. destruct (Req_dec a t) as [->|Hne]; [by replace w with t by lra|].
    assert (Hl : 0 <= level q) by (unfold level; nra).
    assert (E : (t - w) * Qc rd (along3 q a) + (w - a) * Qc rd (along3 q t) - (t - a) * Qc rd (along3 q w) = level q * ((t - w) * (w - a)) * (t - a)).
    { rewrite !Qc_along. ring. }
    assert (0 <= level q * ((t - w) * (w - a)) * (t - a)) by (apply Rmult_le_pos; [apply Rmult_le_pos; [done|apply Rmult_le_pos; lra]|lra]).
    assert (H1 : (t - w) * Qc rd (along3 q a) <= 0) by nra. assert (H2 : (w - a) * Qc rd (along3 q t) <= 0) by nra.
    assert ((t - a) * Qc rd (along3 q w) <= 0) by lra. nra.
  Qed.
  (** From above the top end, the capsule is entered through the upper ball. *)
  Lemma cross_top a t : a <= t -> Q a <= 0 -> hh < y a -> capsule_set hh rd (along3 q t) -> exists w, a <= w <= t /\ ball_at hh rd (along3 q w).
  Proof.
    intros Hat Ha Hya Hc. destruct (Rle_dec hh (y t)) as [Hy|Hy]; [exists t; split; [lra|]; by apply capsule_top|].
    assert (Hneg : dy < 0) by (unfold y in *; nra). set (w := (hh - oy) / dy). assert (Ew : y w = hh) by (unfold y, w; field; lra).
    assert (Hw : a <= w <= t) by (unfold y in *; split; nra). exists w. split; [done|].
    assert (HQ : Q w <= 0) by (apply (Q_between a w t); [done|done|by apply capsule_tube]).
    unfold ball_at. unfold Q, Qc in HQ. assert (Ey : vy (along3 q w) = hh) by exact Ew. rewrite Ey. replace (hh - hh) with 0 by ring. lra.
  Qed.
  Lemma cross_bottom a t : a <= t -> Q a <= 0 -> y a < - hh -> capsule_set hh rd (along3 q t) -> exists w, a <= w <= t /\ ball_at (- hh) rd (along3 q w).
  Proof.
    intros Hat Ha Hya Hc. destruct (Rle_dec (y t) (- hh)) as [Hy|Hy]; [exists t; split; [lra|]; by apply capsule_bottom|].
    assert (Hneg : 0 < dy) by (unfold y in *; nra). set (w := (- hh - oy) / dy). assert (Ew : y w = - hh) by (unfold y, w; field; lra).
    assert (Hw : a <= w <= t) by (unfold y in *; split; nra). exists w. split; [done|].
    assert (HQ : Q w <= 0) by (apply (Q_between a w t); [done|done|by apply capsule_tube]).
    unfold ball_at. unfold Q, Qc in HQ. assert (Ey : vy (along3 q w) = - hh) by exact Ew. rewrite Ey. replace (- hh - - hh) with 0 by ring. lra.
  Qed.
  Lemma bhit_capsule h : - hh <= h <= hh -> bhit h -> ray_meets (along3 q) (capsule_set hh rd).
  Proof. intros Hc (t & Ht & Hb)%bhit_sound. exists t. split; [done|]. by apply (ball_capsule h). Qed.
  Lemma Q_zero : Q 0 = Qc rd (origin q).
  Proof. unfold Q, Qc, along3. cbn. ring. Qed.
  Lemma tube_outside : ~ capsule_set hh rd (origin q) -> Q 0 <= 0 -> hh < y 0 \/ y 0 < - hh.
  Proof.
    intros Ho HQ. rewrite Q_zero in HQ. destruct (Rlt_dec hh (y 0)); [by left|]. destruct (Rlt_dec (y 0) (- hh)); [by right|].
    exfalso. apply Ho. apply slab_capsule; [done|]. fold oy. unfold y in *. lra.
  Qed.
  Lemma bhit_meets h w : - hh <= h <= hh -> ~ capsule_set hh rd (origin q) -> 0 <= w -> ball_at h rd (along3 q w) -> bhit h.
  Proof. intros Hc Ho Hw Hb. apply bhit_iff; [intros Hb'; by apply Ho, (ball_capsule h)|by exists w]. Qed.

  (** ** The test *)
  (** From outside, a hit is reported exactly when the ray meets the capsule. *)
  Theorem C48_capsule_test_exact : ~ capsule_set hh rd (origin q) ->
    capsule_ray_test hx rad r = true <-> ray_meets (along3 q) (capsule_set hh rd).
  Proof.
    intros Ho.
    assert (Hin : Q 0 <= 0 -> ray_meets (along3 q) (capsule_set hh rd) -> bhit hh \/ bhit (- hh)).
    { intros HQ (t & Ht & Hc). destruct (tube_outside Ho HQ) as [Hy|Hy].
      - left. destruct (cross_top 0 t Ht HQ Hy Hc) as (w & Hw & Hb). apply (bhit_meets hh w); try done; lra.
      - right. destruct (cross_bottom 0 t Ht HQ Hy Hc) as (w & Hw & Hb). apply (bhit_meets (- hh) w); try done; lra. }
    assert (Hl : 0 <= level q) by (unfold level; nra). destruct Hl as [Ha|Ha].
    - rewrite (ctest_char Ha). split.
      + intros (u1 & u2 & Hro & Hu1 & [Hy | [Hb | Hb]]); [|apply (bhit_capsule hh); [lra|done]|apply (bhit_capsule (- hh)); [lra|done]].
        exists (start u1 u2). split; [by apply start_pos|]. apply slab_capsule; [|exact Hy]. right.
        apply (roots_zero q rd u1 u2 _ Ha Hro). unfold start. destruct (Rlt_dec u2 0); auto.
      + intros (t & Ht & Hc). pose proof (capsule_tube _ Hc) as HQ.
        destruct (get_roots r q rad rd Hr Hrad t Ha HQ) as (u1 & u2 & Hro). exists u1, u2. split; [done|].
        assert (Hbt : u2 <= t <= u1). { pose proof (roots_pos q rd u1 u2 t Ha Hro). destruct (Rle_dec u2 t), (Rle_dec t u1); lra. }
        split; [lra|]. destruct (Rle_dec u2 0) as [H2|H2].
        * right. apply Hin; [|by exists t]. pose proof (roots_pos q rd u1 u2 0 Ha Hro). unfold Q. destruct (Rle_dec (Qc rd (along3 q 0)) 0); lra.
        * assert (Es : start u1 u2 = u2) by (unfold start; destruct (Rlt_dec u2 0); lra). rewrite Es.
          assert (HQ2 : Q u2 <= 0) by (right; apply (roots_zero q rd u1 u2 u2 Ha Hro); by right).
          destruct (Rlt_dec hh (y u2)) as [Hy|Hy].
          { right. left. destruct (cross_top u2 t ltac:(lra) HQ2 Hy Hc) as (w & Hw & Hb). apply (bhit_meets hh w); try done; lra. }
          destruct (Rlt_dec (y u2) (- hh)) as [Hy'|Hy']; [|left; lra].
          right. right. destruct (cross_bottom u2 t ltac:(lra) HQ2 Hy' Hc) as (w & Hw & Hb). apply (bhit_meets (- hh) w); try done; lra.
    - symmetry in Ha. rewrite (ctest_axis Ha). split.
      + intros [Hb | Hb]; [apply (bhit_capsule hh); [lra|done]|apply (bhit_capsule (- hh)); [lra|done]].
      + intros (t & Ht & Hc). apply Hin; [|by exists t]. pose proof (capsule_tube _ Hc) as HQ. rewrite Qc_along in HQ. rewrite Q_zero.
        assert (vx (direction q) = 0) by (unfold level in Ha; nra). assert (vz (direction q) = 0) by (unfold level in Ha; nra).
        rewrite Ha, H, H0 in HQ. lra.
  Qed.
  (** From anywhere, a reported ray does meet the capsule. *)
  Theorem C48_capsule_test_sound : capsule_ray_test hx rad r = true -> ray_meets (along3 q) (capsule_set hh rd).
  Proof.
    assert (Hl : 0 <= level q) by (unfold level; nra). destruct Hl as [Ha|Ha].
    - intros (u1 & u2 & Hro & Hu1 & [Hy | [Hb | Hb]])%(ctest_char Ha); [|apply (bhit_capsule hh); [lra|done]|apply (bhit_capsule (- hh)); [lra|done]].
      exists (start u1 u2). split; [by apply start_pos|]. apply slab_capsule; [|exact Hy]. right.
      apply (roots_zero q rd u1 u2 _ Ha Hro). unfold start. destruct (Rlt_dec u2 0); auto.
    - symmetry in Ha. intros [Hb | Hb]%(ctest_axis Ha); [apply (bhit_capsule hh); [lra|done]|apply (bhit_capsule (- hh)); [lra|done]].
  Qed.

  (** ** The point *)
  Lemma tail_spec t u : is_fin t u ->
    (if negb (neq t t) then None else let pc := ray_pt3 r t in let f := nadd hx rad in
       if nlt f (vy pc) || nlt (vy pc) (nneg f) then None else Some pc) =
    (if Rle_dec (Rabs (y u)) (hh + rd) then Some (ray_pt3 r t) else None).
  Proof.
    intros Ft. assert (neq t t = true) as -> by (xn; rewrite (fin_eq _ _ _ _ Ft Ft); by apply Reqb_true). cbn [negb]. cbn zeta.
    destruct (fin_pt r q Hr t u Ft) as (_ & Fy & _). assert (Ff : is_fin (nadd hx rad) (hh + rd)) by (by apply fin_add). assert (Fn : is_fin (nneg (nadd hx rad)) (- (hh + rd))) by (by apply fin_neg).
    rewrite (nfin_lt (nadd hx rad) _ _ _ Ff Fy), (nfin_lt _ (nneg (nadd hx rad)) _ _ Fy Fn).
    replace (vy (along3 q u)) with (y u) by done. unfold Rabs. destruct (Rcase_abs (y u)); (destruct (Rle_dec _ _) as [Hle|Hle]).
    - rewrite (proj2 (Rltb_false _ _)), (proj2 (Rltb_false _ _)) by lra. done.
    - rewrite (proj2 (Rltb_false _ _)), (proj2 (Rltb_true _ _)) by lra. done.
    - rewrite (proj2 (Rltb_false _ _)), (proj2 (Rltb_false _ _)) by lra. done.
    - rewrite (proj2 (Rltb_true _ _)) by lra. done.
  Qed.
  Lemma ball_height h t : - hh <= h <= hh -> ball_at h rd (along3 q t) -> Rabs (y t) <= hh + rd.
  Proof.
    intros Hc Hb. unfold ball_at in Hb. replace (vy (along3 q t)) with (y t) in Hb by done. pose proof (Rle_0_sqr (vx (along3 q t))) as H1. pose proof (Rle_0_sqr (vz (along3 q t))) as H2.
    unfold Rsqr in *. assert ((y t - h) * (y t - h) <= rd * rd) by lra. assert (- rd <= y t - h <= rd) by (split; nra).
    unfold Rabs. destruct (Rcase_abs (y t)); lra.
  Qed.
  Lemma ball_tube h t : ball_at h rd (along3 q t) -> Q t <= 0.
  Proof. intros Hb. unfold ball_at in Hb. unfold Q, Qc. pose proof (Rle_0_sqr (vy (along3 q t) - h)) as Hs. unfold Rsqr in Hs. lra. Qed.
  (** Starting within the infinite cylinder, above or below the capsule: if the ray meets the
      capsule, the first point is returned. *)
  Lemma first_in_tube : Q 0 <= 0 -> ~ capsule_set hh rd (origin q) -> ray_meets (along3 q) (capsule_set hh rd) ->
    exists h, (h = hh \/ h = - hh) /\ bhit h /\ 0 < t0 h /\ capsule_set hh rd (along3 q (t0 h)) /\ (forall s, 0 <= s < t0 h -> ~ capsule_set hh rd (along3 q s)) .
  Proof.
    intros HQ Ho (t & Ht & Hc). destruct (tube_outside Ho HQ) as [Hy|Hy].
    - exists hh. destruct (cross_top 0 t Ht HQ Hy Hc) as (w & Hw & Hb).
      assert (Hbh : bhit hh) by (apply (bhit_meets hh w); try done; lra). split; [by left|]. split; [done|]. split; [apply t0_pos; [|done]; intros Hb'; by apply Ho, (ball_capsule hh); [lra|]|].
      split; [apply (ball_capsule hh); [lra|by apply t0_in]|]. intros s Hs Hcs. destruct (cross_top 0 s (proj1 Hs) HQ Hy Hcs) as (w' & Hw' & Hb').
      apply t0_first in Hb'. lra.
    - exists (- hh). destruct (cross_bottom 0 t Ht HQ Hy Hc) as (w & Hw & Hb).
      assert (Hbh : bhit (- hh)) by (apply (bhit_meets (- hh) w); try done; lra). split; [by right|]. split; [done|]. split; [apply t0_pos; [|done]; intros Hb'; by apply Ho, (ball_capsule (- hh)); [lra|]|].
      split; [apply (ball_capsule (- hh)); [lra|by apply t0_in]|]. intros s Hs Hcs. destruct (cross_bottom 0 s (proj1 Hs) HQ Hy Hcs) as (w' & Hw' & Hb').
      apply t0_first in Hb'. lra.
  Qed.
  Lemma no_earlier h h2 : - hh <= h2 <= hh -> (forall s, 0 <= s < t0 h -> ~ capsule_set hh rd (along3 q s)) -> bhit h2 -> 0 <= t0 h2 -> t0 h <= t0 h2.
  Proof.
    intros Hc Hf Hb Hp. destruct (Rle_dec (t0 h) (t0 h2)); [done|]. exfalso. apply (Hf (t0 h2)); [lra|]. apply (ball_capsule h2); [done|by apply t0_in].
  Qed.
  Theorem C48_capsule_hit_from_ends : vx (origin q) * vx (origin q) + vz (origin q) * vz (origin q) < rd * rd -> ~ capsule_set hh rd (origin q) ->
    forall p', ray_first (along3 q) (capsule_set hh rd) p' -> exists p, capsule_ray hx rad r = Some p /\ fin3 p p'.
  Proof.
    intros Hin Ho p' Hp'. assert (HQ : Q 0 < 0) by (rewrite Q_zero; unfold Qc; lra).
    destruct (first_in_tube ltac:(lra) Ho (ray_first_meets _ _ _ Hp')) as (h & Hh' & Hbh & Hpos & Hcap & Hfirst).
    assert (Ep : p' = along3 q (t0 h)).
    { apply (ray_first_unique (along3 q) (capsule_set hh rd)); [done|]. exists (t0 h). split; [lra|]. done. }
    pose proof (ball_height h (t0 h) ltac:(destruct Hh'; lra) (t0_in h Hbh)) as Hht.
    assert (Hend : forall t, is_fin t (t0 h) -> exists p, (if negb (neq t t) then None else let pc := ray_pt3 r t in let f := nadd hx rad in
       if nlt f (vy pc) || nlt (vy pc) (nneg f) then None else Some pc) = Some p /\ fin3 p p').
    { intros t Ft. rewrite (tail_spec t _ Ft). destruct (Rle_dec _ _); [|done]. eexists. split; [done|]. rewrite Ep. by apply fin_pt. }
    assert (Fn : is_fin (nneg hx) (- hh)) by (by apply fin_neg).
    unfold capsule_ray. assert (Hl : 0 <= level q) by (unfold level; nra). destruct Hl as [Ha|Ha].
    - pose proof (cyl_solve_spec r q rad rd Hr Hrad Ha) as Hs. destruct (cyl_solve r rad) as [[t1 t2]|]; [|specialize (Hs 0); unfold Q in HQ; lra].
      destruct Hs as (u1 & u2 & F1 & F2 & Hro). pose proof (pick_root_spec t1 t2 u1 u2 F1 F2 (proj1 Hro)) as Hp.
      pose proof (proj1 (roots_neg q rd u1 u2 0 Ha Hro) HQ) as Hin0.
      destruct (pick_root t1 t2) as [t|]; [|lra]. destruct Hp as [Hu1 Ft]. destruct (Rlt_dec u2 0) as [_|]; [|lra].
      assert (Hle : t0 h <= u1).
      { pose proof (ball_tube h _ (t0_in h Hbh)) as Hb. pose proof (roots_pos q rd u1 u2 (t0 h) Ha Hro). unfold Q in Hb. destruct (Rle_dec (t0 h) u1); lra. }
      cbn zeta. apply Hend.
      destruct (cap_t_fin hx hh Hhx t u1 Ft) as [(Hb1 & Ht1 & Fc1) | (Hn1 & Fc1)].
      + pose proof (no_earlier h hh ltac:(lra) Hfirst Hb1 ltac:(lra)) as Hle1.
        destruct (cap_t_fin (nneg hx) (- hh) Fn _ _ Fc1) as [(Hb2 & Ht2 & Fc2) | (Hn2 & Fc2)].
        * pose proof (no_earlier h (- hh) ltac:(lra) Hfirst Hb2 ltac:(lra)) as Hle2. destruct Hh' as [-> | ->]; [lra|done].
        * destruct Hh' as [-> | ->]; [done|]. destruct (Req_dec (t0 (- hh)) (t0 hh)) as [->|Hne]; [done|]. exfalso. apply Hn2. split; [done|lra].
      + destruct (cap_t_fin (nneg hx) (- hh) Fn _ _ Fc1) as [(Hb2 & Ht2 & Fc2) | (Hn2 & Fc2)].
        * pose proof (no_earlier h (- hh) ltac:(lra) Hfirst Hb2 ltac:(lra)) as Hle2. destruct Hh' as [-> | ->]; [|done].
          destruct (Req_dec (t0 hh) u1) as [E|E]; [lra|]. exfalso. apply Hn1. split; [done|lra].
        * destruct (Req_dec (t0 h) u1) as [->|E]; [done|]. exfalso. destruct Hh' as [-> | ->]; [apply Hn1|apply Hn2]; (split; [done|lra]).
    - symmetry in Ha. destruct (axis_solve Ha) as (t1 & t2 & -> & ->). cbn zeta. apply Hend.
      destruct (cap_t_nan hx hh Hhx) as [(Hb1 & Ht1 & Fc1) | (Hn1 & Fc1)].
      + pose proof (no_earlier h hh ltac:(lra) Hfirst Hb1 ltac:(lra)) as Hle1.
        destruct (cap_t_fin (nneg hx) (- hh) Fn _ _ Fc1) as [(Hb2 & Ht2 & Fc2) | (Hn2 & Fc2)].
        * pose proof (no_earlier h (- hh) ltac:(lra) Hfirst Hb2 ltac:(lra)) as Hle2. destruct Hh' as [-> | ->]; [lra|done].
        * destruct Hh' as [-> | ->]; [done|]. destruct (Req_dec (t0 (- hh)) (t0 hh)) as [->|Hne]; [done|]. exfalso. apply Hn2. split; [done|lra].
      + rewrite Fc1. destruct (cap_t_nan (nneg hx) (- hh) Fn) as [(Hb2 & Ht2 & Fc2) | (Hn2 & Fc2)].
        * destruct Hh' as [-> | ->]; [|done]. exfalso. apply Hn1. split; [done|lra].
        * exfalso. destruct Hh' as [-> | ->]; [apply Hn1|apply Hn2]; (split; [done|lra]).
  Qed.
  (** Rays along the axis, from outside: exact. *)
  Theorem C48_capsule_hit_axis : vx (direction q) = 0 -> vz (direction q) = 0 -> ~ capsule_set hh rd (origin q) ->
    match capsule_ray hx rad r with
    | Some p => exists t, 0 <= t /\ fin3 p (along3 q t) /\ capsule_set hh rd (along3 q t)
    | None => ~ ray_meets (along3 q) (capsule_set hh rd) \/ vx (origin q) * vx (origin q) + vz (origin q) * vz (origin q) = rd * rd
    end.
  Proof.
    intros Ex Ez Ho. assert (Ha : level q = 0) by (unfold level; rewrite Ex, Ez; ring).
    destruct (capsule_ray hx rad r) as [p|] eqn:E.
    - unfold capsule_ray in E. destruct (axis_solve Ha) as (t1 & t2 & Es & Ep). rewrite Es, Ep in E. cbn zeta in E.
      assert (Fn : is_fin (nneg hx) (- hh)) by (by apply fin_neg).
      assert (Hend : forall t h, (h = hh \/ h = - hh) -> bhit h -> 0 <= t0 h -> is_fin t (t0 h) -> (if negb (neq t t) then None else let pc := ray_pt3 r t in let f := nadd hx rad in
       if nlt f (vy pc) || nlt (vy pc) (nneg f) then None else Some pc) = Some p -> exists t, 0 <= t /\ fin3 p (along3 q t) /\ capsule_set hh rd (along3 q t)).
      { intros t h Hor Hb Hp Ft. rewrite (tail_spec t _ Ft). destruct (Rle_dec _ _); [|done]. intros [= <-]. exists (t0 h). split; [done|]. split; [by apply fin_pt|].
        apply (ball_capsule h); [destruct Hor; lra|by apply t0_in]. }
      destruct (cap_t_nan hx hh Hhx) as [(Hb1 & Ht1 & Fc1) | (Hn1 & Fc1)].
      + destruct (cap_t_fin (nneg hx) (- hh) Fn _ _ Fc1) as [(Hb2 & Ht2 & Fc2) | (Hn2 & Fc2)].
        * apply (Hend _ (- hh) (or_intror eq_refl) Hb2 ltac:(lra) Fc2 E).
        * apply (Hend _ hh (or_introl eq_refl) Hb1 ltac:(lra) Fc2 E).
      + rewrite Fc1 in E. destruct (cap_t_nan (nneg hx) (- hh) Fn) as [(Hb2 & Ht2 & Fc2) | (Hn2 & Fc2)].
        * apply (Hend _ (- hh) (or_intror eq_refl) Hb2 ltac:(lra) Fc2 E).
        * rewrite Fc2 in E. done.
    - destruct (Req_dec (vx (origin q) * vx (origin q) + vz (origin q) * vz (origin q)) (rd * rd)) as [Eq|Hne]; [by right|]. left.
      intros Hm. pose proof Hm as (t & Ht & Hc). pose proof (capsule_tube _ Hc) as HQ. rewrite Qc_along, Ha, Ex, Ez in HQ. unfold Qc in HQ.
      destruct (first_in_tube ltac:(rewrite Q_zero; unfold Qc; lra) Ho Hm) as (h & Hor & Hb & Hp & Hcap & Hf).
      destruct (C48_capsule_hit_from_ends ltac:(lra) Ho (along3 q (t0 h))) as (p & Ep & _); [|congruence].
      exists (t0 h). split; [lra|]. done.
  Qed.
  (** From outside the infinite cylinder the point where the ray enters it is returned, if its
      height is within the capsule's; it is the first point of the capsule only if it lies on
      the round part. *)
  Theorem C48_capsule_hit_from_side : ~ tube rd (origin q) ->
    match capsule_ray hx rad r with
    | Some p => exists p', fin3 p p' /\ ray_first (along3 q) (tube rd) p' /\ Rabs (vy p') <= hh + rd /\
        (- hh <= vy p' <= hh -> ray_first (along3 q) (capsule_set hh rd) p')
    | None => forall p', ray_first (along3 q) (tube rd) p' -> hh + rd < Rabs (vy p')
    end.
  Proof.
    intros Ho. assert (HQ : 0 < Q 0) by (rewrite Q_zero; unfold Qc, tube in *; lra).
    assert (Fn : is_fin (nneg hx) (- hh)) by (by apply fin_neg). unfold capsule_ray.
    assert (Hl : 0 <= level q) by (unfold level; nra). destruct Hl as [Ha|Ha].
    - pose proof (cyl_solve_spec r q rad rd Hr Hrad Ha) as Hs. destruct (cyl_solve r rad) as [[t1 t2]|].
      2:{ intros p' (t & Ht & -> & Htu & _). specialize (Hs t). unfold tube in Htu. unfold Qc in Hs. lra. }
      destruct Hs as (u1 & u2 & F1 & F2 & Hro). pose proof (pick_root_spec t1 t2 u1 u2 F1 F2 (proj1 Hro)) as Hp.
      pose proof (proj1 (roots_pos q rd u1 u2 0 Ha Hro) HQ) as Hpos0.
      assert (Htube : forall t, tube rd (along3 q t) <-> u2 <= t <= u1).
      { intros t. pose proof (roots_pos q rd u1 u2 t Ha Hro) as Hrp. assert (tube rd (along3 q t) <-> Qc rd (along3 q t) <= 0) as -> by (unfold tube, Qc; lra).
        destruct (Rle_dec u2 t), (Rle_dec t u1); lra. }
      destruct (pick_root t1 t2) as [t|].
      2:{ intros p' (t & Ht & -> & Htu & _). apply Htube in Htu. lra. }
      destruct Hp as [Hu1 Ft]. destruct (Rlt_dec u2 0) as [|Hu2]; [lra|].
      assert (Hf : ray_first (along3 q) (tube rd) (along3 q u2)).
      { exists u2. split; [lra|]. split; [done|]. split; [apply Htube; split; [lra|apply Hro]|]. intros s Hs Htu%Htube. lra. }
      assert (Hno : forall h, ~ (bhit h /\ 0 <= t0 h < u2)).
      { intros h [Hb Ht]. pose proof (ball_tube h _ (t0_in h Hb)) as Hbt. assert (tube rd (along3 q (t0 h))) as Htu by (unfold tube; unfold Q, Qc in Hbt; lra). apply Htube in Htu. lra. }
      cbn zeta. destruct (cap_t_fin hx hh Hhx t u2 Ft) as [(Hb1 & Ht1 & _) | (_ & Fc1)]; [by destruct (Hno hh)|].
      destruct (cap_t_fin (nneg hx) (- hh) Fn _ _ Fc1) as [(Hb2 & Ht2 & _) | (_ & Fc2)]; [by destruct (Hno (- hh))|].
      pose proof (tail_spec _ _ Fc2) as Htail. cbn zeta in Htail. rewrite Htail. clear Htail. destruct (Rle_dec _ _) as [Hle|Hle].
      + exists (along3 q u2). split; [by apply fin_pt|]. split; [done|]. split; [exact Hle|]. intros Hy.
        destruct Hf as (t' & Ht' & Et & Htu & Hbef). exists t'. split; [done|]. split; [done|]. split.
        * apply slab_capsule; [|done]. unfold tube in Htu. unfold Qc. lra.
        * intros s Hs Hcs. apply (Hbef s Hs). apply capsule_tube in Hcs. unfold tube, Qc in *. lra.
      + intros p' Hp'. rewrite (ray_first_unique _ _ _ _ Hp' Hf). apply Rnot_le_lt. exact Hle.
    - symmetry in Ha. destruct (axis_solve Ha) as (t1 & t2 & -> & ->). cbn zeta.
      assert (Ex : vx (direction q) = 0) by (unfold level in Ha; nra). assert (Ez : vz (direction q) = 0) by (unfold level in Ha; nra).
      assert (Hnt : forall t, ~ tube rd (along3 q t)).
      { intros t Htu. apply Ho. unfold tube, along3 in *. cbn [vx vz] in Htu. rewrite Ex, Ez in Htu. rewrite !Rmult_0_l, !Rplus_0_r in Htu. done. }
      assert (Hno : forall h, ~ (bhit h /\ 0 <= t0 h)).
      { intros h [Hb Ht]. pose proof (ball_tube h _ (t0_in h Hb)) as Hbt. apply (Hnt (t0 h)). unfold tube. unfold Q, Qc in Hbt. lra. }
      destruct (cap_t_nan hx hh Hhx) as [(Hb1 & Ht1 & _) | (_ & ->)]; [by destruct (Hno hh)|].
      destruct (cap_t_nan (nneg hx) (- hh) Fn) as [(Hb1 & Ht1 & _) | (_ & ->)]; [by destruct (Hno (- hh))|].
      cbn. intros p' (t & Ht & -> & Htu & _). by destruct (Hnt t).
  Qed.
End cap.

(** ** Where it fails *)
Local Instance num32k : Num f32 := Num_float 24 128.
Local Instance sgn32k : NumSgn f32 := NumSgn_float 24 128.
Definition feq3 (o : option (V3 f32)) (a b c : Z) : bool :=
  match o with Some p => neq (vx p) (F32 a 0) && neq (vy p) (F32 b 0) && neq (vz p) (F32 c 0) | None => false end.
(** A horizontal ray at the height of an end: the reported point lies outside the capsule, in
    front of the real first point. *)
Theorem C48_end_entry_reports_outside_refuted :
  feq3 (capsule_ray (F32 2 0) (F32 2 0) (fray (-5) 3 0 1 0 0)) (-2) 3 0 = true /\
  along3 (rray (-5) 3 0 1 0 0) 3 = mk3 (-2) 3 0 /\ ~ capsule_set 2 2 (mk3 (-2) 3 0) /\
  ray_meets (along3 (rray (-5) 3 0 1 0 0)) (capsule_set 2 2).
Proof.
  split; [by vm_compute|]. split; [unfold along3, rray; cbn; f_equal; ring|]. split.
  - intros (h & Hh & Hd). cbn in Hd. nra.
  - exists 5. split; [lra|]. exists 2. unfold along3, rray; cbn. lra.
Qed.
(** Starting beside an end and moving away: a point is reported, nothing is met. *)
Theorem C48_spurious_point_refuted :
  feq3 (capsule_ray (F32 8 0) (F32 8 0) (fray (-7) 14 0 (-1) 0 0)) (-8) 14 0 = true /\
  ~ ray_meets (along3 (rray (-7) 14 0 (-1) 0 0)) (capsule_set 8 8).
Proof.
  split; [by vm_compute|]. intros (t & Ht & h & Hh & Hd). unfold along3, rray in Hd; cbn in Hd. nra.
Qed.
(** From inside an end, pointing out: missed by both operations. *)
Theorem C48_inside_missed_refuted :
  capsule_ray_test (F32 2 0) (F32 2 0) (fray 0 3 0 0 1 0) = false /\
  (match capsule_ray (F32 2 0) (F32 2 0) (fray 0 3 0 0 1 0) with None => true | _ => false end) = true /\
  capsule_set 2 2 (origin (rray 0 3 0 0 1 0)).
Proof. split; [by vm_compute|]. split; [by vm_compute|]. exists 2. unfold rray; cbn. lra. Qed.
(** Entering the infinite cylinder beyond the end and then the end: [intersects] says yes,
    [intersection] None. *)
Definition slant : Ray P3 := mkRay (mk3 (-4) (36/5) 0) (mk3 (3/5) (-4/5) 0).
Lemma slant_fin : fin_ray3 (xray slant) slant.
Proof. split; [split|split]; repeat split; by eexists. Qed.
Lemma slant_unit : dot3 (direction slant) (direction slant) = 1.
Proof. unfold dot3, slant. cbn. lra. Qed.
Lemma slant_out : ~ capsule_set 2 1 (origin slant).
Proof. intros (h & Hh & Hd). cbn in Hd. nra. Qed.
Lemma slant_meets : ray_meets (along3 slant) (capsule_set 2 1).
Proof. exists (20/3). split; [lra|]. exists (28/15). unfold along3, slant; cbn. lra. Qed.
Theorem C48_end_entry_disagreement_refuted :
  capsule_ray_test (xf 2) (xf 1) (xray slant) = true /\ capsule_ray (xf 2) (xf 1) (xray slant) = None /\
  ray_meets (along3 slant) (capsule_set 2 1).
Proof.
  assert (H2 : is_fin (xf 2) 2) by by eexists. assert (H1 : is_fin (xf 1) 1) by by eexists.
  split; [|split; [|exact slant_meets]].
  - apply (C48_capsule_test_exact (xray slant) slant (xf 2) (xf 1) 2 1); auto using slant_fin, slant_unit, slant_out, slant_meets; lra.
  - assert (Hnt : ~ tube 1 (origin slant)) by (unfold tube; cbn; lra).
    pose proof (C48_capsule_hit_from_side (xray slant) slant (xf 2) (xf 1) 2 1 slant_fin H2 H1 ltac:(lra) ltac:(lra) slant_unit Hnt) as Hh.
    destruct (capsule_ray _ _ _); [|done]. exfalso. destruct Hh as (p' & _ & Hf & Hy & _).
    assert (Hf' : ray_first (along3 slant) (tube 1) (along3 slant 5)).
    { exists 5. split; [lra|]. split; [done|]. split; [unfold tube, along3; cbn; lra|]. intros s Hs. unfold tube, along3. cbn. nra. }
    rewrite (ray_first_unique _ _ _ _ Hf Hf') in Hy. unfold along3 in Hy. cbn in Hy. unfold Rabs in Hy. destruct (Rcase_abs _) in Hy; lra.
Qed.
(** The hypotheses are met: a ray from above and one from the side. *)
Example C48_hypotheses_met :
  (let q := rray 0 5 0 0 (-1) 0 in fin_ray3 (xray q) q /\ dot3 (direction q) (direction q) = 1 /\ ~ capsule_set 2 1 (origin q) /\
     vx (origin q) * vx (origin q) + vz (origin q) * vz (origin q) < 1 * 1 /\
     exists p, capsule_ray (xf 2) (xf 1) (xray q) = Some p /\ fin3 p (mk3 0 3 0)) /\
  (let q := rray (-4) 1 0 1 0 0 in fin_ray3 (xray q) q /\ ~ tube 1 (origin q) /\ ray_first (along3 q) (capsule_set 2 1) (mk3 (-1) 1 0)).
Proof.
  assert (H2 : is_fin (xf 2) 2) by by eexists. assert (H1 : is_fin (xf 1) 1) by by eexists. split.
  - intros q. assert (Hr : fin_ray3 (xray q) q) by (split; [split|split]; repeat split; by eexists).
    assert (Hu : dot3 (direction q) (direction q) = 1) by (unfold dot3; cbn; lra).
    assert (Ho : ~ capsule_set 2 1 (origin q)) by (intros (h & Hh & Hd); cbn in Hd; nra).
    assert (Hi : vx (origin q) * vx (origin q) + vz (origin q) * vz (origin q) < 1 * 1) by (cbn; lra).
    split_and!; try done.
    apply (C48_capsule_hit_from_ends (xray q) q (xf 2) (xf 1) 2 1 Hr H2 H1 ltac:(lra) ltac:(lra) Hu Hi Ho).
    exists 2. split; [lra|]. split; [unfold along3; cbn; f_equal; ring|]. split.
    + exists 2. cbn. lra.
    + intros s Hs (h & Hh & Hd). unfold along3 in Hd; cbn in Hd. assert (1 < 5 - s - h) by lra. assert (1 * 1 < (5 - s - h) * (5 - s - h)) by nra. lra.
  - intros q. split; [split; [split|split]; repeat split; by eexists|]. split; [unfold tube; cbn; lra|].
    exists 3. split; [lra|]. split; [unfold along3; cbn; f_equal; ring|]. split.
    + exists 1. cbn. lra.
    + intros s Hs (h & Hh & Hd). unfold along3 in Hd; cbn in Hd. assert (1 < 4 - s) by lra. assert (1 * 1 < (4 - s) * (4 - s)) by nra. pose proof (Rle_0_sqr (1 - h)) as Hq. unfold Rsqr in Hq. lra.
Qed.
