(** The time-of-impact loop on polygons ends (real arithmetic): the distance to the current
    ray point drops between two clippings, and there are finitely many clippings. *)
From Coq Require Import Psatz.
From stdpp Require Import prelude.
From Coq Require Import Reals Lra.
From Verif Require Import Res Num Vec AabbModel GeoModel RealGeo PrimModel ShapeSpec MinkModel MinkSpec Gjk2 PropsGjk2 Dist Toi2.
Local Open Scope R_scope.

(** ** The distance drops *)
Lemma closer (v a s : P2) (mu tau : R) :
  0 < dot2 v v -> dot2 v a <= 0 -> 0 <= mu <= 1 -> 0 <= tau <= 1 ->
  add2 (scale2 a mu) (scale2 s (1 - mu)) = scale2 v tau ->
  dot2 (closest_on_edge2 a s zero2) (closest_on_edge2 a s zero2) < dot2 v v.
Proof.
  intros Hv Ha Hmu Htau Ez. destruct (closest_on_edge2_spec a s) as (t & Ht & _ & Hca & Hcs). set (c := closest_on_edge2 a s zero2) in *. clearbody c.
  assert (Hz : dot2 c c <= tau * dot2 c v).
  { transitivity (dot2 c (add2 (scale2 a mu) (scale2 s (1 - mu)))); [|rewrite Ez; right; clear; rv0; ring].
    replace (dot2 c (add2 (scale2 a mu) (scale2 s (1 - mu)))) with (mu * dot2 c a + (1 - mu) * dot2 c s) by (clear; rv0; ring). nra. }
  assert (Hcc : 0 <= dot2 c c) by (clear; rv0; nra).
  destruct (Rlt_le_dec (dot2 c c) (dot2 v v)) as [|Hge]; [done|]. exfalso.
  assert (Hcv : dot2 c c <= dot2 c v) by (destruct (Rle_lt_dec 0 (dot2 c v)); nra).
  assert (Hd : dot2 (sub2 c v) (sub2 c v) <= 0).
  { replace (dot2 (sub2 c v) (sub2 c v)) with (dot2 c c - 2 * dot2 c v + dot2 v v) by (clear; rv0; ring). lra. }
  assert (Ecv : c = v).
  { clear -Hd. unfold dot2, sub2 in Hd. cbn [ux uy] in Hd. cbn [nadd nmul nsub Num_R] in Hd.
    destruct (Rplus_sqr_eq_0 (ux c - ux v) (uy c - uy v)) as [E1 E2]; [pose proof (Rle_0_sqr (ux c - ux v)); pose proof (Rle_0_sqr (uy c - uy v)); unfold Rsqr in *; lra|]. apply V2_eq; lra. }
  subst c. lra.
Qed.

Lemma on_ray (v z : P2) tau : 0 < dot2 v v -> perp_dot v z = 0 -> dot2 v z = tau * dot2 v v -> z = scale2 v tau.
Proof.
  intros Hv Hp Hd.
  assert (E1 : dot2 v v * ux z = ux v * dot2 v z - uy v * perp_dot v z) by (clear; rv0; ring).
  assert (E2 : dot2 v v * uy z = uy v * dot2 v z + ux v * perp_dot v z) by (clear; rv0; ring).
  rewrite Hp, Hd in E1, E2. apply V2_eq.
  - apply (Rmult_eq_reg_l (dot2 v v)); [|lra]. rewrite E1. cbn [scale2 ux]. cbn [nmul Num_R]. ring.
  - apply (Rmult_eq_reg_l (dot2 v v)); [|lra]. rewrite E2. cbn [scale2 uy]. cbn [nmul Num_R]. ring.
Qed.

(** A segment [s a] that crosses the half line from the origin through [v] before [v]. *)
Lemma crossing (v a s : P2) : 0 < dot2 v v -> dot2 v a <= 0 ->
  perp_dot v s * perp_dot v a <= 0 -> perp_dot v s - perp_dot v a <> 0 ->
  0 <= (perp_dot v s * dot2 v a - perp_dot v a * dot2 v s) * (perp_dot v s - perp_dot v a) ->
  (perp_dot v s * dot2 v a - perp_dot v a * dot2 v s) * (perp_dot v s - perp_dot v a) <= dot2 v v * ((perp_dot v s - perp_dot v a) * (perp_dot v s - perp_dot v a)) ->
  dot2 (closest_on_edge2 a s zero2) (closest_on_edge2 a s zero2) < dot2 v v.
Proof.
  intros Hv Ha Hsg Hne Hlo Hhi. set (P := perp_dot v s) in *. set (Q := perp_dot v a) in *.
  set (mu := P / (P - Q)). set (h := (P * dot2 v a - Q * dot2 v s) / (P - Q)).
  assert (HPQ : 0 < (P - Q) * (P - Q)) by nra.
  assert (Emu : mu * ((P - Q) * (P - Q)) = P * (P - Q)) by (unfold mu; field; lra).
  assert (Eh : h * ((P - Q) * (P - Q)) = (P * dot2 v a - Q * dot2 v s) * (P - Q)) by (unfold h; field; lra).
  assert (Hmu : 0 <= mu <= 1) by nra.
  assert (Hh : 0 <= h <= dot2 v v) by nra.
  apply (closer v a s mu (h / dot2 v v)); try done.
  { split; [apply Rmult_le_pos; [lra|]; left; apply Rinv_0_lt_compat; lra|]. apply (Rmult_le_reg_r (dot2 v v)); [done|].
    replace (h / dot2 v v * dot2 v v) with h by (field; lra). lra. }
  apply on_ray; [done| |].
  - replace (perp_dot v (add2 (scale2 a mu) (scale2 s (1 - mu)))) with (mu * Q + (1 - mu) * P) by (unfold P, Q; clear; rv0; ring).
    unfold mu. field. lra.
  - replace (dot2 v (add2 (scale2 a mu) (scale2 s (1 - mu)))) with (mu * dot2 v a + (1 - mu) * dot2 v s) by (clear; rv0; ring).
    unfold mu, h. field. lra.
Qed.

Section drop.
  Context (s0 s1 a v : P2) (Hv : 0 < dot2 v v) (Ha : dot2 v a <= 0) (Hn : seg_near s0 s1 v) (Hne : s0 <> s1).
  Let X := perp_dot s0 s1.
  Let Y := perp_dot s1 a.
  Let Z := perp_dot a s0.
  Let D := X + Y + Z.
  Lemma drop_s1 : D * Y < 0 -> dot2 (closest_on_edge2 a s1 zero2) (closest_on_edge2 a s1 zero2) < dot2 v v.
  Proof.
    intros HDY. destruct Hn as [(t & Ht & Ev & E0 & E1)|[-> Hs]].
    - destruct (foot_facts s0 s1 a v t Ev E0 E1) as (Es1 & Es0 & Ee & EX & HD & HY & HZ & HXX). fold X Y Z D in EX, HD, HY, HZ, HXX.
      pose proof (sub_ne s0 s1 Hne) as He. set (e := sub2 s1 s0) in *.
      assert (HX : 0 < X * X) by nra.
      assert (HXY : X * Y < 0).
      { assert (dot2 v v * (D * Y) < 0) by nra.
        assert ((X * Y) * (dot2 v v - dot2 v a) < 0) by (replace ((X * Y) * (dot2 v v - dot2 v a)) with ((X * (dot2 v v - dot2 v a)) * Y) by ring; rewrite <- HD; lra). nra. }
      assert (EP : perp_dot v s1 = t * X) by (rewrite Es1, EX; clear; rv0; ring).
      assert (EXQ : dot2 v v * (X * perp_dot v a) = dot2 v v * (X * Y) + t * (X * X) * dot2 v a).
      { rewrite HY. assert (X * perp_dot v a = dot2 v v * dot2 e a) as ->; [|ring]. rewrite EX.
        transitivity (dot2 v v * dot2 e a - dot2 v a * dot2 v e); [clear; rv0; ring|rewrite Ee; ring]. }
      set (Q := perp_dot v a) in *.
      assert (HXQ : X * Q < 0).
      { assert (0 <= t * (X * X) * - dot2 v a) by (apply Rmult_le_pos; [apply Rmult_le_pos; lra|lra]). nra. }
      apply crossing; try done; rewrite EP; fold Q.
      + nra.
      + intros E. assert (X * (t * X - Q) = 0) by (rewrite E; ring). nra.
      + rewrite E1. assert (X * (t * X * dot2 v a - Q * dot2 v v) = - (dot2 v v * (X * Y))) by nra.
        assert (0 < X * (t * X * dot2 v a - Q * dot2 v v)) by nra. assert (0 < X * (t * X - Q)) by nra.
        assert (0 <= (X * (t * X * dot2 v a - Q * dot2 v v)) * (X * (t * X - Q))) by (apply Rmult_le_pos; lra).
        assert (0 <= (X * X) * ((t * X * dot2 v a - Q * dot2 v v) * (t * X - Q))) by lra. nra.
      + rewrite E1. assert (0 < X * (t * X - Q)) by nra.
        assert (H1 : t * X * dot2 v a - Q * dot2 v v - dot2 v v * (t * X - Q) = t * X * (dot2 v a - dot2 v v)) by ring.
        assert (H2 : X * (t * X * (dot2 v a - dot2 v v)) <= 0).
        { replace (X * (t * X * (dot2 v a - dot2 v v))) with (- (t * (X * X) * (dot2 v v - dot2 v a))) by ring.
          assert (0 <= t * (X * X) * (dot2 v v - dot2 v a)) by (apply Rmult_le_pos; [apply Rmult_le_pos; lra|lra]). lra. }
        assert (H3 : 0 <= - (X * (t * X * (dot2 v a - dot2 v v))) * (X * (t * X - Q))) by (apply Rmult_le_pos; lra).
        rewrite <- H1 in H3. set (m := t * X * dot2 v a - Q * dot2 v v) in *. set (k := t * X - Q) in *. clearbody m k.
        assert (0 <= (X * X) * (dot2 v v * (k * k) - m * k)) by lra. nra.
    - apply (closer s1 a s1 0 1); try lra. clear. apply V2_eq; rv0; ring.
  Qed.
  Lemma drop_s0 : 0 <= D * Y -> D * Z < 0 -> dot2 (closest_on_edge2 a s0 zero2) (closest_on_edge2 a s0 zero2) < dot2 v v.
  Proof.
    intros HDY HDZ. destruct Hn as [(t & Ht & Ev & E0 & E1)|[Ev Hs]].
    - destruct (foot_facts s0 s1 a v t Ev E0 E1) as (Es1 & Es0 & Ee & EX & HD & HY & HZ & HXX). fold X Y Z D in EX, HD, HY, HZ, HXX.
      pose proof (sub_ne s0 s1 Hne) as He. set (e := sub2 s1 s0) in *.
      assert (HX : 0 < X * X) by nra.
      assert (HXZ : X * Z < 0).
      { assert (dot2 v v * (D * Z) < 0) by nra.
        assert ((X * Z) * (dot2 v v - dot2 v a) < 0) by (replace ((X * Z) * (dot2 v v - dot2 v a)) with ((X * (dot2 v v - dot2 v a)) * Z) by ring; rewrite <- HD; lra). nra. }
      assert (EP : perp_dot v s0 = - ((1 - t) * X)) by (rewrite Es0, EX; clear; rv0; ring).
      assert (EXQ : dot2 v v * (X * perp_dot v a) = - (dot2 v v * (X * Z)) - (1 - t) * (X * X) * dot2 v a).
      { rewrite HZ. assert (X * perp_dot v a = dot2 v v * dot2 e a) as ->; [|ring]. rewrite EX.
        transitivity (dot2 v v * dot2 e a - dot2 v a * dot2 v e); [clear; rv0; ring|rewrite Ee; ring]. }
      set (Q := perp_dot v a) in *.
      assert (HXQ : 0 < X * Q).
      { assert (0 <= (1 - t) * (X * X) * - dot2 v a) by (apply Rmult_le_pos; [apply Rmult_le_pos; lra|lra]). nra. }
      assert (Hk : X * (- ((1 - t) * X) - Q) < 0).
      { assert (0 <= (1 - t) * (X * X)) by (apply Rmult_le_pos; lra). nra. }
      apply crossing; try done; rewrite EP; fold Q.
      + assert (0 <= (1 - t) * (X * Q)) by (apply Rmult_le_pos; lra). nra.
      + intros E. assert (X * (- ((1 - t) * X) - Q) = 0) by (rewrite E; ring). lra.
      + rewrite E0. assert (H1 : X * (- ((1 - t) * X) * dot2 v a - Q * dot2 v v) = dot2 v v * (X * Z)) by nra.
        assert (0 < - (X * (- ((1 - t) * X) * dot2 v a - Q * dot2 v v))) by nra.
        set (m := - ((1 - t) * X) * dot2 v a - Q * dot2 v v) in *. set (k := - ((1 - t) * X) - Q) in *. clearbody m k.
        assert (0 <= (- (X * m)) * (- (X * k))) by (apply Rmult_le_pos; lra). assert (0 <= (X * X) * (m * k)) by lra. nra.
      + rewrite E0.
        assert (H1 : - ((1 - t) * X) * dot2 v a - Q * dot2 v v - dot2 v v * (- ((1 - t) * X) - Q) = (1 - t) * X * (dot2 v v - dot2 v a)) by ring.
        assert (H2 : 0 <= X * ((1 - t) * X * (dot2 v v - dot2 v a))).
        { replace (X * ((1 - t) * X * (dot2 v v - dot2 v a))) with ((1 - t) * (X * X) * (dot2 v v - dot2 v a)) by ring.
          apply Rmult_le_pos; [apply Rmult_le_pos; lra|lra]. }
        set (m := - ((1 - t) * X) * dot2 v a - Q * dot2 v v) in *. set (k := - ((1 - t) * X) - Q) in *. rewrite <- H1 in H2. clearbody m k.
        assert (H3 : 0 <= X * (m - dot2 v v * k) * - (X * k)) by (apply Rmult_le_pos; lra).
        assert (0 <= (X * X) * (dot2 v v * (k * k) - m * k)) by lra. nra.
    - subst v. set (h := dot2 s1 s1) in *. set (b := perp_dot s1 s0). set (c := dot2 s1 s0) in *. set (al := perp_dot s1 a). set (w := dot2 s1 a) in *.
      assert (EX : X = - b) by (unfold X, b; clear; rv0; ring).
      assert (EY : Y = al) by done.
      assert (EZ : h * Z = b * w - al * c) by (unfold Z, h, b, c, al, w; clear; rv0; ring).
      assert (ED : h * D = - b * (h - w) - al * (c - h)) by (unfold D; rewrite EX, EY; clear -EZ; lra).
      assert (HDY2 : 0 <= h * (D * Y)) by (apply Rmult_le_pos; lra).
      assert (HDZ2 : (h * D) * (h * Z) < 0).
      { replace ((h * D) * (h * Z)) with ((h * h) * (D * Z)) by ring. assert (0 < h * h) by nra. nra. }
      rewrite EY in HDY2. replace (h * (D * al)) with ((h * D) * al) in HDY2 by ring. rewrite ED, EZ in HDZ2. rewrite ED in HDY2.
      assert (Hba : b * al <= 0).
      { destruct (Rle_lt_dec (b * al) 0) as [|Hp]; [done|]. exfalso.
        assert (0 < (b * al) * (h - w)) by (apply Rmult_lt_0_compat; lra). assert (0 <= (al * al) * (c - h)) by (apply Rmult_le_pos; [nra|lra]). lra. }
      assert (Hb0 : b <> 0).
      { intros ->. assert (0 <= al * al * (c - h)) by (apply Rmult_le_pos; [apply Rle_0_sqr|lra]). assert (0 <= al * al * (c - h) * c) by (apply Rmult_le_pos; lra). lra. }
      apply crossing; try done; fold h b c al w.
      + intros E. assert (Eb : b = al) by lra. rewrite Eb in Hba, Hb0. nra.
      + destruct (Rle_lt_dec 0 ((b * w - al * c) * (b - al))) as [|Hlt]; [done|]. exfalso.
        destruct (Rlt_le_dec 0 b) as [Hb|Hb]; [|assert (b < 0) by lra].
        * assert (al <= 0) by nra. assert (b * w - al * c < 0) by nra. assert (0 < - b * (h - w) - al * (c - h)) by nra. nra.
        * assert (0 <= al) by nra. assert (0 < b * w - al * c) by nra. assert (- b * (h - w) - al * (c - h) < 0) by nra. nra.
      + assert (Hz : 0 <= (h * (b - al) - (b * w - al * c)) * (b - al)); [|nra].
        replace (h * (b - al) - (b * w - al * c)) with (- (- b * (h - w) - al * (c - h))) by ring.
        destruct (Rlt_le_dec 0 b) as [Hb|Hb]; [|assert (b < 0) by lra].
        * assert (al <= 0) by nra. destruct (Rle_lt_dec (- b * (h - w) - al * (c - h)) 0); [nra|]. exfalso.
          assert (b * w - al * c < 0) by nra. nra.
        * assert (0 <= al) by nra. destruct (Rle_lt_dec 0 (- b * (h - w) - al * (c - h))); [nra|]. exfalso.
          assert (0 < b * w - al * c) by nra. nra.
  Qed.
End drop.

(** ** One step between two clippings *)
Definition vof (ps : list P2) : P2 :=
  match ps with [p] => p | [p0; p1] => closest_on_edge2 p1 p0 zero2 | _ => zero2 end.

Section halt.
  Context (A B : P2 -> Prop) (supL supR : P2 -> res P2) (HA : supports2 A supL) (HB : supports2 B supR)
    (HcA : convex2 A) (HcB : convex2 B) (eps tol : R) (Htol : 0 <= tol).
  Context (vL vR : list P2) (HvL : vertices2 A supL vL) (HvR : vertices2 B supR vR) (ray : P2).
  Notation K := (mdiff2 A B).
  Notation W := (diffs vL vR).
  Notation loop := (toi_loop sub2 neg2 scale2 dot2 supL supR (closest2 eps)).

  Lemma step_more ro l v (a : SupPt P2) l' v' :
    toi_inv A B ro l v -> 0 < dot2 v v -> dot2 v (sp_v a) <= 0 -> closest2 eps (l ++ [a]) = Ok (l', v') ->
    dot2 v' v' = 0 \/ (v' = vof (sp_v <$> l') /\
      ((l = [] /\ l' = [a]) \/ exists s, s ∈ l /\ l' = [s; a] /\ dot2 v' v' < dot2 v v)).
  Proof.
    intros [_ Hl] Hv Hd. destruct Hl as [-> |[(s0 & -> & ->)|(s0 & s1 & u & -> & Hn & Hu & _)]]; cbn [app].
    - intros E. assert (E1 : Ok ([a], sp_v a) = Ok (l', v')) by exact E. assert (E2 : ([a], sp_v a) = (l', v')) by congruence.
      assert (l' = [a]) as -> by exact (eq_sym (f_equal fst E2)). assert (v' = sp_v a) as -> by exact (eq_sym (f_equal snd E2)). right. split; [done|]. by left.
    - intros E. assert (E1 : Ok ([s0; a], closest_on_edge2 (sp_v a) (sp_v s0) zero2) = Ok (l', v')) by exact E.
      assert (E2 : ([s0; a], closest_on_edge2 (sp_v a) (sp_v s0) zero2) = (l', v')) by congruence.
      assert (l' = [s0; a]) as -> by exact (eq_sym (f_equal fst E2)). assert (v' = closest_on_edge2 (sp_v a) (sp_v s0) zero2) as -> by exact (eq_sym (f_equal snd E2)).
      right. split; [done|]. right. exists s0. split; [set_solver|]. split; [done|]. apply (closer _ _ _ 0 1); try lra. clear. apply V2_eq; rv0; ring.
    - assert (Hne : sp_v s0 <> sp_v s1) by (intros E; rewrite E in Hu; lra).
      unfold closest2, reduce2. cbv zeta. cbn [nlt n0 Num_R]. rewrite abp_area, acp_area.
      set (X := perp_dot (sp_v s0) (sp_v s1)). set (Y := perp_dot (sp_v s1) (sp_v a)). set (Z := perp_dot (sp_v a) (sp_v s0)).
      destruct (Rltb 0 (- ((X + Y + Z) * Y))) eqn:EY; [apply Rltb_true in EY|apply Rltb_false in EY].
      { intros E. assert (E2 : ([s1; a], closest_on_edge2 (sp_v a) (sp_v s1) zero2) = (l', v')) by congruence.
        assert (l' = [s1; a]) as -> by exact (eq_sym (f_equal fst E2)). assert (v' = closest_on_edge2 (sp_v a) (sp_v s1) zero2) as -> by exact (eq_sym (f_equal snd E2)).
        right. split; [done|]. right. exists s1. split; [set_solver|]. split; [done|]. apply (drop_s1 (sp_v s0) (sp_v s1)); try done. fold X Y Z. lra. }
      destruct (Rltb 0 (- ((X + Y + Z) * Z))) eqn:EZ; [apply Rltb_true in EZ|apply Rltb_false in EZ].
      { intros E. assert (E2 : ([s0; a], closest_on_edge2 (sp_v a) (sp_v s0) zero2) = (l', v')) by congruence.
        assert (l' = [s0; a]) as -> by exact (eq_sym (f_equal fst E2)). assert (v' = closest_on_edge2 (sp_v a) (sp_v s0) zero2) as -> by exact (eq_sym (f_equal snd E2)).
        right. split; [done|]. right. exists s0. split; [set_solver|]. split; [done|]. apply (drop_s0 (sp_v s0) (sp_v s1)); try done; fold X Y Z; lra. }
      intros E. assert (E2 : ([s0; s1; a], zero2) = (l', v')) by congruence. assert (v' = zero2) as -> by exact (eq_sym (f_equal snd E2)).
      left. clear. unfold zero2. rv0. ring.
  Qed.

  (** ** The two kinds of clippings *)
  (** At a foot on an edge the new time is determined by three vertices. *)
  Definition edge_time (x : P2 * P2 * P2) : R :=
    let '(w0, w1, p) := x in perp_dot (sub2 w1 w0) p / perp_dot (sub2 w1 w0) ray.
  Definition edge_times : list R := map edge_time (list_prod (list_prod W W) W).
  Lemma edge_times_elem w0 w1 p : w0 ∈ W -> w1 ∈ W -> p ∈ W -> edge_time (w0, w1, p) ∈ edge_times.
  Proof.
    rewrite !elem_of_list_In. intros H0 H1 H2. unfold edge_times. apply in_map, in_prod; [apply in_prod|]; done.
  Qed.
  Lemma edge_clip ro (s0 s1 v p : P2) : s0 <> s1 -> dot2 v s0 = dot2 v s1 -> 0 < dot2 v ray ->
    dot2 v p / dot2 v ray = edge_time (add2 s0 ro, add2 s1 ro, p).
  Proof.
    intros Hne Hs Hr. unfold edge_time. set (e := sub2 (add2 s1 ro) (add2 s0 ro)).
    assert (Ee : e = sub2 s1 s0) by (unfold e; clear; apply V2_eq; rv0; ring). clearbody e. subst e. set (e := sub2 s1 s0).
    assert (He : dot2 v e = 0) by (transitivity (dot2 v s1 - dot2 v s0); [unfold e; clear; rv0; ring|lra]).
    pose proof (sub_ne s0 s1 Hne) as Hee. fold e in Hee. clearbody e.
    assert (Hk : dot2 v p * perp_dot e ray = dot2 v ray * perp_dot e p).
    { assert (dot2 v p * perp_dot e ray - dot2 v ray * perp_dot e p = dot2 v e * perp_dot p ray) by (clear; rv0; ring). rewrite He in H. lra. }
    assert (Hx : perp_dot e ray <> 0).
    { intros E0. assert (dot2 e e * dot2 v ray = dot2 v e * dot2 e ray + perp_dot e v * perp_dot e ray) by (clear; rv0; ring). rewrite He, E0 in H. nra. }
    apply (Rmult_eq_reg_r (dot2 v ray * perp_dot e ray)); [|nra]. field_simplify; [|done|lra]. rewrite Rmult_comm. lra.
  Qed.
  (** At a vertex [l] with support [m]: the scalar product of the two, as the ray moves. *)
  Definition gprod (x : P2 * P2) (t : R) : R := dot2 (sub2 x.1 (scale2 ray t)) (sub2 x.2 (scale2 ray t)).
  Lemma gprod_once x t1 t2 t3 : t1 <= t2 -> t2 < t3 -> gprod x t1 <= 0 -> 0 < gprod x t2 -> gprod x t3 <= 0 -> False.
  Proof.
    intros H12 H23 G1 G2 G3. destruct x as [l m]. unfold gprod in *. cbn [fst snd] in *.
    assert (Hc : forall t, dot2 (sub2 l (scale2 ray t)) (sub2 m (scale2 ray t)) = dot2 ray ray * t * t - dot2 (add2 l m) ray * t + dot2 l m) by (intros; clear; rv0; ring).
    rewrite Hc in G1, G2, G3. assert (Hr : 0 <= dot2 ray ray) by (clear; rv0; nra).
    set (a := dot2 ray ray) in *. set (b := dot2 (add2 l m) ray) in *. set (c := dot2 l m) in *. clearbody a b c. clear Hc.
    destruct (Req_dec t1 t2) as [-> |Hne]; [lra|]. assert (t1 < t2) by lra.
    assert (Hx : (t3 - t1) * (a * t2 * t2 - b * t2 + c) =
      (t3 - t2) * (a * t1 * t1 - b * t1 + c) + (t2 - t1) * (a * t3 * t3 - b * t3 + c) - a * ((t3 - t2) * (t2 - t1) * (t3 - t1))) by ring.
    assert (0 < (t3 - t1) * (a * t2 * t2 - b * t2 + c)) by (apply Rmult_lt_0_compat; lra).
    assert (0 <= (t3 - t2) * - (a * t1 * t1 - b * t1 + c)) by (apply Rmult_le_pos; lra).
    assert (0 <= (t2 - t1) * - (a * t3 * t3 - b * t3 + c)) by (apply Rmult_le_pos; lra).
    assert (0 <= a * ((t3 - t2) * (t2 - t1) * (t3 - t1))) by (apply Rmult_le_pos; [done|]; apply Rmult_le_pos; [apply Rmult_le_pos|]; lra). lra.
  Qed.
  Lemma gprod_cross l m t t' : t < t' -> dot2 (sub2 l (scale2 ray t)) (sub2 m (scale2 ray t')) = 0 ->
    0 <= dot2 ray (sub2 m (scale2 ray t')) -> gprod (l, m) t' <= 0.
  Proof.
    intros Ht E Hr. unfold gprod. cbn [fst snd].
    replace (dot2 (sub2 l (scale2 ray t')) (sub2 m (scale2 ray t'))) with
      (dot2 (sub2 l (scale2 ray t)) (sub2 m (scale2 ray t')) - (t' - t) * dot2 ray (sub2 m (scale2 ray t'))) by (clear; rv0; ring).
    rewrite E. assert (0 <= (t' - t) * dot2 ray (sub2 m (scale2 ray t'))) by (apply Rmult_le_pos; lra). lra.
  Qed.

  (** ** The histories *)
  Notation pairs := (list_prod W W).
  Definition simplices (ro : P2) : list (list P2) :=
    map (fun w => [sub2 w ro]) W ++ map (fun x => [sub2 x.1 ro; sub2 x.2 ro]) pairs.
  Notation nE := (length edge_times).
  Notation nX := (length pairs).
  Notation nS := (length W + length pairs)%nat.
  Lemma simplices_length ro : length (simplices ro) = nS.
  Proof. unfold simplices. by rewrite app_length, !map_length. Qed.
  Lemma hist_room {T} (h : T) (H U : list T) : NoDup (h :: H) -> (forall x, x ∈ h :: H -> x ∈ U) -> (length H < length U)%nat.
  Proof.
    intros Hn Hs. assert (length (h :: H) <= length U)%nat; [|done].
    apply NoDup_incl_length; [by apply NoDup_ListNoDup|]. intros x Hx. apply elem_of_list_In, Hs. by apply elem_of_list_In.
  Qed.
  Definition histE (l : R) (H : list R) : Prop := NoDup H /\ (forall h, h ∈ H -> h ∈ edge_times) /\ forall h, h ∈ H -> h <= l.
  Definition histX (l : R) (H : list (P2 * P2)) : Prop :=
    NoDup H /\ (forall h, h ∈ H -> h ∈ pairs) /\ forall h, h ∈ H -> exists t, t <= l /\ gprod h t <= 0.
  Lemma histE_up l l' H : l <= l' -> histE l H -> histE l' H.
  Proof. intros Hl (H1 & H2 & H3). split; [done|]. split; [done|]. intros h Hh. specialize (H3 h Hh). lra. Qed.
  Lemma histX_up l l' H : l <= l' -> histX l H -> histX l' H.
  Proof. intros Hl (H1 & H2 & H3). split; [done|]. split; [done|]. intros h Hh. destruct (H3 h Hh) as (t & Ht & Hg). exists t. split; [lra|done]. Qed.
  (** [ph = 2]: the simplex is empty or the vertex of the last clipping; [ph = 1]: and it
      lies against the motion; [ph = 0]: points have been added since the last clipping,
      [H] are the simplices seen since. *)
  Definition fresh (l : R) (ss : list (SupPt P2)) (v : P2) : Prop :=
    (exists w, w ∈ W /\ v = sub2 w (scale2 ray l)) /\ (ss = [] \/ exists s, ss = [s] /\ sp_v s = v).
  Definition used (l : R) (ss : list (SupPt P2)) (v : P2) (H : list (list P2)) : Prop :=
    sp_v <$> ss ∈ simplices (scale2 ray l) /\ v = vof (sp_v <$> ss) /\
    (exists u s, K (add2 u (scale2 ray l)) /\ last ss = Some s /\ dot2 u (sp_v s) <= 0) /\
    NoDup H /\ (forall h, h ∈ H -> h ∈ simplices (scale2 ray l)) /\ (forall h, h ∈ H -> dot2 v v < dot2 (vof h) (vof h)).
  Definition phase (ph : nat) (l : R) (ss : list (SupPt P2)) (v : P2) (H : list (list P2)) : Prop :=
    match ph with
    | 0%nat => used l ss v H
    | 1%nat => fresh l ss v /\ dot2 v ray <= 0 /\ H = []
    | 2%nat => fresh l ss v /\ H = []
    | _ => False
    end.
  Definition todo (HE : list R) (HX : list (P2 * P2)) (ph : nat) (H : list (list P2)) : nat :=
    (nE - length HE) * ((nX + 1) * (3 * (nS + 1))) + (nX - length HX) * (3 * (nS + 1)) + ph * (nS + 1) + (nS - length H).

  Lemma simplices_one ro w : w ∈ W -> [sub2 w ro] ∈ simplices ro.
  Proof. intros Hw. unfold simplices. apply elem_of_app. left. apply elem_of_list_In, in_map_iff. exists w. split; [done|]. by apply elem_of_list_In. Qed.
  Lemma simplices_two ro w0 w1 : w0 ∈ W -> w1 ∈ W -> [sub2 w0 ro; sub2 w1 ro] ∈ simplices ro.
  Proof.
    intros H0 H1. unfold simplices. apply elem_of_app. right. apply elem_of_list_In, in_map_iff. exists (w0, w1). split; [done|].
    apply in_prod; by apply elem_of_list_In.
  Qed.
  Lemma simplices_inv ro ps : ps ∈ simplices ro -> (exists w, w ∈ W /\ ps = [sub2 w ro]) \/
    exists w0 w1, w0 ∈ W /\ w1 ∈ W /\ ps = [sub2 w0 ro; sub2 w1 ro].
  Proof.
    unfold simplices. intros [H|H]%elem_of_app; apply elem_of_list_In, in_map_iff in H.
    - destruct H as (w & <- & Hw%elem_of_list_In). left. by exists w.
    - destruct H as ([w0 w1] & <- & Hw). apply in_prod_iff in Hw as [H0%elem_of_list_In H1%elem_of_list_In]. right. by exists w0, w1.
  Qed.
  Lemma sub_add (w ro : P2) : add2 (sub2 w ro) ro = w.
  Proof. clear. apply V2_eq; rv0; ring. Qed.

  Lemma loop_halts fuel : forall l n ss v HE HX ph H,
    dot2 v v <= tol \/ (toi_inv A B (scale2 ray l) ss v /\ K (add2 v (scale2 ray l)) /\ histE l HE /\ histX l HX /\ phase ph l ss v H) ->
    (todo HE HX ph H < fuel)%nat ->
    loop fuel tol ray l n (scale2 ray l) ss v <> OutOfFuel.
  Proof.
    induction fuel as [|fuel IH]; intros l n ss v HE HX ph H Hst Hm; [lia|]. cbn [toi_loop]. cbn [nlt Num_R].
    destruct (Rltb tol (dot2 v v)) eqn:Ev; [apply Rltb_true in Ev|done].
    destruct Hst as [Hst|(Hinv & HKv & HhE & HhX & Hph)]; [lra|].
    assert (Hv : 0 < dot2 v v) by lra.
    assert (Hneg : neg2 v <> zero2) by (apply vec2_ne; clear -Hv; rv0; lra).
    destruct (mink2_spec A B supL supR HA HB (neg2 v) Hneg) as (p & Ep & Hp & Hmm & _).
    pose proof (mink2_diffs A B supL supR HA HB vL vR HvL HvR (neg2 v) p Hneg Ep) as Hpw.
    change (mink sub2 neg2 supL supR (neg2 v)) with (mink2 supL supR (neg2 v)). rewrite Ep. cbn [mbind res_mbind res_bind].
    assert (Kp : K (sp_v p)) by (by apply witness2_mdiff, Hp).
    assert (Hmin : forall w, K w -> dot2 v (sp_v p) <= dot2 v w).
    { intros w Hw. specialize (Hmm w Hw). set (q := sp_v p) in *. clearbody q. clear -Hmm. rv0. lra. }
    clear Hmm Hp Ep Hneg. cbn [nlt nmul n0 n1 ndiv Num_R].
    destruct (Rltb (l * dot2 v ray) (dot2 v (sp_v p))) eqn:E1; [apply Rltb_true in E1|apply Rltb_false in E1].
    - (* clipping *)
      destruct (Rltb 0 (dot2 v ray)) eqn:E2; [apply Rltb_true in E2|done].
      set (l2 := dot2 v (sp_v p) / dot2 v ray) in *.
      assert (El2 : l2 * dot2 v ray = dot2 v (sp_v p)) by (unfold l2; field; lra).
      assert (Hl2 : l < l2) by nra.
      destruct (Rltb 1 l2) eqn:E3; [done|].
      destruct (toi_step A B HcA HcB eps (scale2 ray l2) [] v p) as (l' & v' & Ec & Hk' & Hi'); try done; [by split; [|left]|by right|by right|].
      set (a := sup_sub sub2 p (scale2 ray l2)) in *.
      assert (Eok : Ok ([a], sp_v a) = Ok (l', v')) by exact Ec. assert (E4 : ([a], sp_v a) = (l', v')) by congruence.
      assert (El' : l' = [a]) by exact (eq_sym (f_equal fst E4)). assert (Ev' : v' = sp_v a) by exact (eq_sym (f_equal snd E4)). subst l' v'. clear Eok E4.
      cbn [app] in Ec |- *. rewrite Ec. cbn [mbind res_mbind res_bind].
      assert (Hfresh : fresh l2 [a] (sp_v a)) by (split; [by exists (sp_v p)|right; by exists a]).
      assert (Hst' : sp_v a = zero2 \/ (toi_inv A B (scale2 ray l2) [a] (sp_v a) /\ K (add2 (sp_v a) (scale2 ray l2)))) by (destruct Hi' as [-> |Hi']; [by left|by right]).
      assert (Hgo : forall HE' HX' ph', histE l2 HE' -> histX l2 HX' -> phase ph' l2 [a] (sp_v a) [] -> (todo HE' HX' ph' [] < fuel)%nat ->
        loop fuel tol ray l2 (neg2 v) (scale2 ray l2) [a] (sp_v a) <> OutOfFuel).
      { intros HE' HX' ph' P1 P2' P3 P4. apply (IH l2 (neg2 v) [a] (sp_v a) HE' HX' ph' []); [|done].
        destruct Hst' as [Hz|[Hz1 Hz2]]; [left; rewrite Hz; transitivity 0; [right; clear; unfold zero2; rv0; ring|done]|by right]. }
      assert (Hvert : forall x, x ∈ W -> v = sub2 x (scale2 ray l) -> (ph <> 0)%nat -> H = [] ->
        loop fuel tol ray l2 (neg2 v) (scale2 ray l2) [a] (sp_v a) <> OutOfFuel).
      { intros x Hx Evx Hph0 HH. subst H.
        assert (Hz : dot2 (sub2 x (scale2 ray l)) (sub2 (sp_v p) (scale2 ray l2)) = 0).
        { rewrite <- Evx. transitivity (dot2 v (sp_v p) - l2 * dot2 v ray); [clear; rv0; ring|lra]. }
        destruct (Rle_lt_dec 0 (dot2 ray (sub2 (sp_v p) (scale2 ray l2)))) as [Hr|Hr].
        - (* the scalar product changes sign *)
          assert (HX2 : histX l2 ((x, sp_v p) :: HX)).
          { destruct HhX as (X1 & X2 & X3). split; [|split].
            - apply NoDup_cons. split; [|done]. intros Hin. destruct (X3 _ Hin) as (t & Ht & Hg).
              apply (gprod_once (x, sp_v p) t l l2); try done; [|by apply (gprod_cross _ _ l)].
              unfold gprod. cbn [fst snd]. rewrite <- Evx. replace (dot2 v (sub2 (sp_v p) (scale2 ray l))) with (dot2 v (sp_v p) - l * dot2 v ray) by (clear; rv0; ring). lra.
            - intros h [-> |Hh]%elem_of_cons; [|by apply X2]. apply elem_of_list_In, in_prod; by apply elem_of_list_In.
            - intros h [-> |Hh]%elem_of_cons; [exists l2; split; [lra|by apply (gprod_cross _ _ l)]|].
              destruct (X3 h Hh) as (t & Ht & Hg). exists t. split; [lra|done]. }
          apply (Hgo HE ((x, sp_v p) :: HX) 2%nat); [by apply (histE_up l); [lra|]|done|done|].
          assert (length HX < nX)%nat by (apply (hist_room (x, sp_v p)); apply HX2).
          unfold todo in *. cbn [length] in *. set (c3 := (nS + 1)%nat) in *. assert (nS < c3)%nat by lia. clearbody c3.
          set (cE := ((nE - length HE) * _)%nat) in *. clearbody cE.
          assert (nX - length HX = Datatypes.S (nX - Datatypes.S (length HX)))%nat as EnX by lia. rewrite EnX in Hm. nia.
        - (* the new vertex lies against the motion *)
          destruct ph as [|[|[|ph]]]; [done| |cbn in Hph|done].
          { destruct Hph as (_ & Hneg & _). lra. }
          apply (Hgo HE HX 1%nat); [by apply (histE_up l); [lra|]|by apply (histX_up l); [lra|]| |].
          { split; [done|]. split; [|done]. rewrite dot2_comm. unfold a, sup_sub. cbn [sp_v]. lra. }
          unfold todo in *. lia. }
      destruct ph as [|[|[|ph]]]; [|destruct Hph as (((x & Hx & Evx) & _) & _ & HH); by apply (Hvert x)|destruct Hph as (((x & Hx & Evx) & _) & HH); by apply (Hvert x)|done].
      (* after additions: only feet on edges are clipped *)
      destruct Hph as (Hsim & Evo & (u & s & Hu & Hlast & Hus) & _).
      assert (Hlastv : v <> sp_v s).
      { intros Es. specialize (Hmin _ Hu). replace (dot2 v (add2 u (scale2 ray l))) with (dot2 v u + l * dot2 v ray) in Hmin by (clear; rv0; ring).
        rewrite Es in Hmin at 2. rewrite dot2_comm in Hus. lra. }
      destruct Hinv as [_ [-> |[(s0 & -> & E0)|(s0 & s1 & d & -> & Hn & Hd & _)]]]; [done| |].
      { cbn in Hlast. apply (inj Some) in Hlast. subst s0. done. }
      cbn in Hlast. apply (inj Some) in Hlast. subst s1.
      destruct Hn as [(t & _ & _ & F0 & F1)|[E0 _]]; [|done].
      assert (Hne : sp_v s0 <> sp_v s) by (intros E; rewrite E in Hd; lra).
      assert (Eet : l2 = edge_time (add2 (sp_v s0) (scale2 ray l), add2 (sp_v s) (scale2 ray l), sp_v p)) by (apply edge_clip; [done|lra|done]).
      cbn [fmap list_fmap] in Hsim. apply simplices_inv in Hsim as [(w & _ & Ew)|(w0 & w1 & Hw0 & Hw1 & Ew)]; [done|].
      assert (Es0 : sp_v s0 = sub2 w0 (scale2 ray l)) by exact (f_equal (fun x => match x with y :: _ => y | _ => sp_v s0 end) Ew).
      assert (Es1 : sp_v s = sub2 w1 (scale2 ray l)) by exact (f_equal (fun x => match x with _ :: y :: _ => y | _ => sp_v s end) Ew).
      rewrite Es0, Es1, !sub_add in Eet.
      assert (HE2 : histE l2 (l2 :: HE)).
      { destruct HhE as (X1 & X2 & X3). split; [|split].
        - apply NoDup_cons. split; [|done]. intros Hin. specialize (X3 _ Hin). lra.
        - intros h [-> |Hh]%elem_of_cons; [|by apply X2]. rewrite Eet. by apply edge_times_elem.
        - intros h [-> |Hh]%elem_of_cons; [lra|]. specialize (X3 _ Hh). lra. }
      apply (Hgo (l2 :: HE) HX 2%nat); [done|by apply (histX_up l); [lra|]|done|].
      assert (length HE < nE)%nat by (apply (hist_room l2); apply HE2).
      unfold todo in *. cbn [length] in *. set (c3 := (nS + 1)%nat) in *. assert (nS < c3)%nat by lia. clearbody c3.
      set (c1 := ((nX + 1) * (3 * c3))%nat) in *. assert (3 * c3 <= c1)%nat by (unfold c1; nia). clearbody c1.
      set (cX := ((nX - length HX) * _)%nat) in *. clearbody cX.
      assert (nE - length HE = Datatypes.S (nE - Datatypes.S (length HE)))%nat as EnE by lia. rewrite EnE in Hm. nia.
    - (* a new point *)
      set (a := sup_sub sub2 p (scale2 ray l)).
      assert (Ha : dot2 v (sp_v a) <= 0).
      { unfold a, sup_sub. cbn [sp_v]. replace (dot2 v (sub2 (sp_v p) (scale2 ray l))) with (dot2 v (sp_v p) - l * dot2 v ray) by (clear; rv0; ring). lra. }
      destruct (toi_step A B HcA HcB eps (scale2 ray l) ss v p) as (l' & v' & Ec & Hk' & Hi'); try done; [by left|by left|].
      fold a in Ec. rewrite Ec. cbn [mbind res_mbind res_bind].
      destruct (step_more (scale2 ray l) ss v a l' v' Hinv Hv Ha Ec) as [Hz|(Evo & Hcase)].
      { destruct fuel; cbn [toi_loop nlt Num_R]; rewrite (proj2 (Rltb_false _ _)) by lra; done. }
      assert (Hst' : dot2 v' v' <= tol \/ (toi_inv A B (scale2 ray l) l' v')).
      { destruct Hi' as [-> |Hi']; [left; transitivity 0; [right; clear; unfold zero2; rv0; ring|done]|by right]. }
      destruct Hst' as [Hz|Hinv'].
      { destruct fuel; cbn [toi_loop nlt Num_R]; rewrite (proj2 (Rltb_false _ _)) by lra; done. }
      assert (Hels : forall s, s ∈ ss -> exists w, w ∈ W /\ sp_v s = sub2 w (scale2 ray l)).
      { intros s Hs. destruct ph as [|[|[|ph]]]; [| | |done].
        - destruct Hph as (Hsim & _). assert (Hs' : sp_v s ∈ sp_v <$> ss) by by apply elem_of_list_fmap_1.
          apply simplices_inv in Hsim as [(w & Hw & Ew)|(w0 & w1 & Hw0 & Hw1 & Ew)]; rewrite Ew in Hs'.
          + apply elem_of_list_singleton in Hs'. by exists w.
          + apply elem_of_cons in Hs' as [Hs'|Hs']; [by exists w0|]. apply elem_of_list_singleton in Hs'. by exists w1.
        - destruct Hph as (((w & Hw & Ew) & [-> |(s' & -> & Es)]) & _); [by apply elem_of_nil in Hs|].
          apply elem_of_list_singleton in Hs. subst s'. exists w. split; [done|]. by rewrite Es.
        - destruct Hph as (((w & Hw & Ew) & [-> |(s' & -> & Es)]) & _); [by apply elem_of_nil in Hs|].
          apply elem_of_list_singleton in Hs. subst s'. exists w. split; [done|]. by rewrite Es. }
      assert (Hused : forall H', NoDup H' -> (forall h, h ∈ H' -> h ∈ simplices (scale2 ray l)) ->
        (forall h, h ∈ H' -> dot2 v' v' < dot2 (vof h) (vof h)) -> used l l' v' H').
      { intros H' N1 N2 N3. split; [|split; [done|split; [|done]]].
        - destruct Hcase as [[_ ->]|(s & Hs & -> & _)]; cbn [fmap list_fmap]; [by apply simplices_one|].
          destruct (Hels s Hs) as (w & Hw & ->). by apply simplices_two.
        - exists v, a. split; [done|]. split; [|done]. destruct Hcase as [[_ ->]|(s & Hs & -> & _)]; done. }
      destruct (decide (ph = 0%nat)) as [-> |Hph0].
      + destruct Hph as (Hsim & Evs & _ & N1 & N2 & N3).
        destruct Hcase as [[-> _]|(s & Hs & _ & Hdec)].
        { apply simplices_inv in Hsim as [(w & _ & Ew)|(w0 & w1 & _ & _ & Ew)]; done. }
        assert (Hnd : NoDup ((sp_v <$> ss) :: H)).
        { apply NoDup_cons. split; [|done]. intros Hin. specialize (N3 _ Hin). rewrite <- Evs in N3. lra. }
        assert (Hin' : forall h, h ∈ (sp_v <$> ss) :: H -> h ∈ simplices (scale2 ray l)).
        { intros h [-> |Hh]%elem_of_cons; [done|by apply N2]. }
        apply (IH l n l' v' HE HX 0%nat ((sp_v <$> ss) :: H)).
        { right. do 4 (split; [done|]). apply Hused; try done.
          intros h [-> |Hh]%elem_of_cons; [by rewrite <- Evs|]. specialize (N3 _ Hh). lra. }
        pose proof (hist_room _ _ _ Hnd Hin') as Hroom. rewrite simplices_length in Hroom. unfold todo in *. cbn [length]. lia.
      + apply (IH l n l' v' HE HX 0%nat []).
        { right. do 4 (split; [done|]). apply Hused; [apply NoDup_nil_2| |]; by intros h Hh%elem_of_nil. }
        unfold todo in *. cbn [length]. set (c3 := (nS + 1)%nat) in *. assert (nS < c3)%nat by lia. clearbody c3.
        set (cE := ((nE - length HE) * _)%nat) in *. set (cX := ((nX - length HX) * _)%nat) in *. clearbody cE cX. nia.
  Qed.
End halt.
