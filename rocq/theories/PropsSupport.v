(** C38: support functions of the primitives. *)
From Coq Require Import Reals Lra Psatz Nsatz.
From stdpp Require Import prelude.
From Flocq Require Import IEEE754.BinarySingleNaN.
From Verif Require Import Res Num Vec AabbModel GeoModel Xr RealGeo PrimModel ShapeSpec.
Local Open Scope R_scope.

(** ** Generic facts *)
Lemma dot2_sub_r (d a b : P2) : dot2 d (sub2 a b) = dot2 d a - dot2 d b.
Proof. rv0. ring. Qed.
Lemma dot3_sub_r (d a b : P3) : dot3 d (sub3 a b) = dot3 d a - dot3 d b.
Proof. rv0. ring. Qed.

(** The set is world-transformed and the local support is furthest in the pulled-back
    direction. *)
Lemma furthest2_world (T : Xf P2) A d k d' s :
  0 < k -> (forall x y, dot2 d (sub2 (xf_pt T x) (xf_pt T y)) = k * dot2 d' (sub2 x y)) ->
  furthest2 A d' s -> furthest2 (world T A) d (xf_pt T s).
Proof.
  intros Hk HT [Hs Hm]. split; [by exists s|]. intros x (y & Hy & ->).
  pose proof (HT y s) as E. rewrite !dot2_sub_r in E. specialize (Hm _ Hy). nra.
Qed.
Lemma furthest3_world (T : Xf P3) A d k d' s :
  0 < k -> (forall x y, dot3 d (sub3 (xf_pt T x) (xf_pt T y)) = k * dot3 d' (sub3 x y)) ->
  furthest3 A d' s -> furthest3 (world T A) d (xf_pt T s).
Proof.
  intros Hk HT [Hs Hm]. split; [by exists s|]. intros x (y & Hy & ->).
  pose proof (HT y s) as E. rewrite !dot3_sub_r in E. specialize (Hm _ Hy). nra.
Qed.

(** The fold keeps the first maximum. *)
Lemma max_fold_spec {V} (f : V -> R) (vs : list V) acc p :
  foldl (max_step f) acc vs = p ->
  (match acc.2 with Some m => m = f acc.1 | None => True end) ->
  (p.2 = None <-> acc.2 = None /\ vs = []) /\
  (match p.2 with Some m => m = f p.1 | None => p.1 = acc.1 end) /\
  (p.1 = acc.1 \/ p.1 ∈ vs) /\ (acc.2 = None -> vs <> [] -> p.1 ∈ vs) /\
  (acc.2 <> None -> f acc.1 <= f p.1) /\ Forall (fun v => f v <= f p.1) vs.
Proof.
  revert acc p. induction vs as [|v vs IH]; intros acc p <- Hacc; cbn [foldl].
  - split; [tauto|]. split; [by destruct acc.2|]. split; [by left|]. split; [done|].
    split; [lra|constructor].
  - set (acc' := max_step f acc v).
    assert (Hacc' : match acc'.2 with Some m => m = f acc'.1 | None => True end).
    { unfold acc', max_step. destruct (match acc.2 with Some m => _ | None => _ end); [done|]. by destruct acc.2. }
    destruct (IH acc' _ eq_refl Hacc') as (Hn & Hm & Hin & Hin' & Hge & Hall). fold acc'.
    assert (Hstep : acc'.2 <> None /\ (acc'.1 = v \/ (acc' = acc /\ acc.2 <> None)) /\ (acc.2 <> None -> f acc.1 <= f acc'.1) /\ f v <= f acc'.1).
    { unfold acc', max_step. destruct (acc.2) as [m|] eqn:E.
      - subst m. cbn. destruct (Rltb (f acc.1) (f v)) eqn:El; cbn.
        + apply Rltb_true in El. split; [done|]. split; [by left|]. lra.
        + apply Rltb_false in El. split; [congruence|]. split; [right; split; congruence|]. lra.
      - cbn. split; [done|]. split; [by left|]. split; [done|lra]. }
    destruct Hstep as (Hsome & Hcase & Hacc1 & Hv).
    assert (f acc'.1 <= f (foldl (max_step f) acc' vs).1) by auto.
    split; [split; [|naive_solver]|].
    { intros E. apply Hn in E as [E _]. done. }
    split; [|split; [|split; [|split]]].
    + destruct ((foldl (max_step f) acc' vs).2) eqn:E; [exact Hm|]. exfalso. by apply Hsome, Hn.
    + destruct Hin as [Hin| Hin]; [|right; by right]. rewrite Hin. destruct Hcase as [-> | [-> _]]; [right; by left|by left].
    + intros Ha _. destruct Hcase as [Hc | [_ Hc]]; [|done].
      destruct Hin as [Hin| Hin]; [|by right]. rewrite Hin, Hc. by left.
    + intros Ha. specialize (Hacc1 Ha). lra.
    + constructor; [lra|done].
Qed.
Lemma max_point_spec {V} (f : V -> R) zero (vs : list V) :
  vs <> [] -> max_point f zero vs ∈ vs /\ forall v, v ∈ vs -> f v <= f (max_point f zero vs).
Proof.
  intros Hne. destruct (max_fold_spec f vs (zero, None) _ eq_refl I) as (_ & _ & _ & Hin & _ & Hall).
  split; [by apply Hin|]. intros v Hv. rewrite Forall_forall in Hall. by apply Hall.
Qed.
Lemma max_point_nil {V} (f : V -> R) zero : max_point f zero [] = zero.
Proof. done. Qed.

Lemma get_max2_support (A : P2 -> Prop) vs (T : Xf P2) d :
  similar2 T -> vs <> [] -> (forall v, v ∈ vs -> A v) ->
  (forall d' x m, A x -> (forall v, v ∈ vs -> dot2 d' v <= m) -> dot2 d' x <= m) ->
  exists s, get_max_point dot2 zero2 vs d T = Ok s /\ furthest2 (world T A) d s.
Proof.
  intros (k & Hk & HT) Hne Hv HA. destruct (HT d) as (d' & E & _ & Hd). unfold get_max_point. rewrite E.
  eexists. split; [done|]. eapply furthest2_world; [done..|].
  destruct (max_point_spec (fun v => dot2 v d') zero2 vs Hne) as [Hin Hmax].
  split; [by apply Hv|]. intros x Hx. apply HA; [done|]. intros v Hvv. rewrite !(dot2_comm d'). by apply Hmax.
Qed.
Lemma get_max3_support (A : P3 -> Prop) vs (T : Xf P3) d :
  similar3 T -> vs <> [] -> (forall v, v ∈ vs -> A v) ->
  (forall d' x m, A x -> (forall v, v ∈ vs -> dot3 d' v <= m) -> dot3 d' x <= m) ->
  exists s, get_max_point dot3 zero3 vs d T = Ok s /\ furthest3 (world T A) d s.
Proof.
  intros (k & Hk & HT) Hne Hv HA. destruct (HT d) as (d' & E & _ & Hd). unfold get_max_point. rewrite E.
  eexists. split; [done|]. eapply furthest3_world; [done..|].
  destruct (max_point_spec (fun v => dot3 v d') zero3 vs Hne) as [Hin Hmax].
  split; [by apply Hv|]. intros x Hx. apply HA; [done|]. intros v Hvv. rewrite !(dot3_comm d'). by apply Hmax.
Qed.

(** * The theorems *)
(** Round shapes: for every nonzero direction. *)
Theorem C38_circle (r : R) (T : Xf P2) d :
  0 <= r -> similar2 T -> d <> zero2 ->
  exists s, circle_support r d T = Ok s /\ furthest2 (world T (disc r)) d s.
Proof.
  intros Hr (k & Hk & HT) Hd. destruct (HT d) as (d' & E & Hd' & HTd). specialize (Hd' Hd).
  unfold circle_support. rewrite E. eexists. split; [done|]. eapply furthest2_world; [done..|].
  pose proof (mag2_pos d' Hd') as Hp. pose proof (mag2_sqr d') as Hs.
  assert (Ed : dot2 d' (normalize_to2 d' r) = r * mag2 d').
  { transitivity (dot2 d' d' * (r / mag2 d')); [unfold normalize_to2; rv0; ring|]. rewrite <- Hs. field. lra. }
  split.
  - unfold disc. transitivity (dot2 d' d' * (r / mag2 d') * (r / mag2 d')).
    { apply Req_le. unfold normalize_to2. rv0. ring. }
    rewrite <- Hs. apply Req_le. field. lra.
  - intros x Hx. rewrite Ed. pose proof (cauchy2 d' x). apply (mag2_le_iff x r Hr) in Hx. nra.
Qed.
Lemma normalize_to3_dot (d : P3) r : d <> zero3 ->
  dot3 d (normalize_to3 d r) = r * mag3 d /\ dot3 (normalize_to3 d r) (normalize_to3 d r) = r * r.
Proof.
  intros Hd. pose proof (mag3_pos d Hd) as Hp. pose proof (mag3_sqr d) as Hs. split.
  - transitivity (dot3 d d * (r / mag3 d)); [unfold normalize_to3; rv0; ring|]. rewrite <- Hs. field. lra.
  - transitivity (dot3 d d * (r / mag3 d) * (r / mag3 d)); [unfold normalize_to3; rv0; ring|]. rewrite <- Hs. field. lra.
Qed.
Theorem C38_sphere (r : R) (T : Xf P3) d :
  0 <= r -> similar3 T -> d <> zero3 ->
  exists s, sphere_support r d T = Ok s /\ furthest3 (world T (ball r)) d s.
Proof.
  intros Hr (k & Hk & HT) Hd. destruct (HT d) as (d' & E & Hd' & HTd). specialize (Hd' Hd).
  unfold sphere_support. rewrite E. eexists. split; [done|]. eapply furthest3_world; [done..|].
  destruct (normalize_to3_dot d' r Hd') as [E1 E2]. split.
  - unfold ball. rewrite E2. lra.
  - intros x Hx. rewrite E1. pose proof (cauchy3 d' x). pose proof (mag3_nonneg d').
    apply (mag3_le_iff x r Hr) in Hx. nra.
Qed.
Lemma signum_R x : signum x = if Rltb x 0 then -1 else 1.
Proof.
  unfold signum. assert (Reqb x x = true) as E by by apply Reqb_true. rs. rewrite E. cbn.
  destruct (Rltb x 0); lra.
Qed.
Theorem C38_capsule (hh r : R) (T : Xf P3) d :
  0 <= hh -> 0 <= r -> similar3 T -> d <> zero3 ->
  exists s, capsule_support hh r d T = Ok s /\ furthest3 (world T (capsule_set hh r)) d s.
Proof.
  intros Hh Hr (k & Hk & HT) Hd. destruct (HT d) as (d' & E & Hd' & HTd). specialize (Hd' Hd).
  unfold capsule_support. rewrite E. eexists. split; [done|]. eapply furthest3_world; [done..|].
  destruct (normalize_to3_dot d' r Hd') as [E1 E2]. rewrite signum_R.
  set (n := normalize_to3 d' r) in *. set (sg := if Rltb (vy d') 0 then -1 else 1).
  assert (Hsg : sg * vy d' = Rabs (vy d') /\ (sg = 1 \/ sg = -1)).
  { unfold sg. destruct (Rltb (vy d') 0) eqn:El.
    - apply Rltb_true in El. rewrite Rabs_left by lra. lra.
    - apply Rltb_false in El. rewrite Rabs_pos_eq by lra. lra. }
  destruct Hsg as [Hsg Hsg']. split.
  - exists (sg * hh). split; [destruct Hsg' as [-> | ->]; lra|]. rv0. lra.
  - intros x (y & Hy & Hx). set (c := mk3 0 y 0 : P3).
    assert (Hb : mag3 (sub3 x c) <= r). { apply mag3_le_iff; [done|]. unfold c. rv0. lra. }
    pose proof (cauchy3 d' (sub3 x c)) as Hc. pose proof (mag3_nonneg d').
    rewrite dot3_sub_r in Hc. assert (dot3 d' c = vy d' * y) as Ec by (unfold c; rv0; ring).
    assert (dot3 d' (add3 (mk3 n0 (nmul sg hh) n0) n) = sg * vy d' * hh + dot3 d' n) as -> by (rv0; ring).
    rewrite E1, Hsg. assert (vy d' * y <= Rabs (vy d') * hh).
    { pose proof (Rle_abs (vy d')). pose proof (Rle_abs (- vy d')) as Hn. rewrite Rabs_Ropp in Hn. nra. }
    nra.
Qed.
Theorem C38_cylinder (hh r : R) (T : Xf P3) d :
  0 <= hh -> 0 <= r -> similar3 T ->
  exists s, cylinder_support hh r d T = Ok s /\ furthest3 (world T (cylinder_set hh r)) d s.
Proof.
  intros Hh Hr (k & Hk & HT). destruct (HT d) as (d' & E & _ & HTd).
  unfold cylinder_support. rewrite E. eexists. split; [done|]. eapply furthest3_world; [done..|].
  set (fl := mk3 (vx d') n0 (vz d')). cbv zeta.
  set (rr := if neq (mag2_3 fl) n0 then zero3 else _).
  assert (Hrr : vx rr * vx rr + vz rr * vz rr <= r * r /\
    forall x z, x * x + z * z <= r * r -> vx d' * x + vz d' * z <= vx d' * vx rr + vz d' * vz rr).
  { unfold rr. destruct (neq (mag2_3 fl) n0) eqn:E0.
    - apply Reqb_true in E0. unfold fl in E0. rv0. cbn [zero3 vx vz]. rs. split; [nra|]. intros x z _.
      assert (vx d' = 0) by nra. assert (vz d' = 0) by nra. nra.
    - apply Reqb_false in E0. assert (Hfl : fl <> zero3).
      { intros Ef. apply E0. rewrite Ef. rv0. ring. }
      pose proof (mag3_normalize fl Hfl) as Hn1. pose proof (mag3_sqr (normalize3 fl)) as Hns. rewrite Hn1 in Hns.
      assert (Hnv : vy (normalize3 fl) = 0). { unfold normalize3, fl. rv0. ring. }
      assert (Hndot : dot3 fl (normalize3 fl) = mag3 fl).
      { pose proof (mag3_pos fl Hfl). transitivity (dot3 fl fl * / mag3 fl); [unfold normalize3; rv0; field; lra|].
        rewrite <- mag3_sqr. field. lra. }
      destruct (neq (vx (normalize3 fl)) n0 && neq (vy (normalize3 fl)) n0 && neq (vz (normalize3 fl)) n0) eqn:Ez.
      { apply andb_true_iff in Ez as [Ez Ez3]. apply andb_true_iff in Ez as [Ez1 _]. apply Reqb_true in Ez1, Ez3.
        exfalso. unfold dot3 in Hns. rs. rewrite Ez1, Ez3, Hnv in Hns. lra. }
      set (n := normalize3 fl) in *. assert (Hx2 : vx n * vx n + vz n * vz n = 1).
      { unfold dot3 in Hns. rs. rewrite Hnv in Hns. lra. }
      cbn [scale3 vx vz]. rs. split; [apply Req_le; transitivity ((vx n * vx n + vz n * vz n) * (r * r)); [ring|rewrite Hx2; ring]|].
      intros x z Hxz. set (q := mk3 x 0 z : P3).
      assert (Hq : mag3 q <= r). { apply mag3_le_iff; [done|]. unfold q. rv0. lra. }
      pose proof (cauchy3 fl q) as Hc. pose proof (mag3_nonneg fl).
      assert (dot3 fl q = vx d' * x + vz d' * z) as Ec by (unfold fl, q; rv0; ring).
      assert (dot3 fl n = vx d' * vx n + vz d' * vz n) as Ec2 by (unfold fl; rv0; ring).
      rewrite Ec in Hc. rewrite Ec2 in Hndot.
      transitivity ((vx d' * vx n + vz d' * vz n) * r); [|apply Req_le; ring]. rewrite Hndot. nra. }
  destruct Hrr as [Hr1 Hr2]. clearbody rr. cbn [nsignneg NumSgn_R].
  set (h := if Rltb (vy d') 0 then nneg hh else hh).
  assert (Hhy : - hh <= h <= hh /\ forall y, - hh <= y <= hh -> vy d' * y <= vy d' * h).
  { unfold h. rs. destruct (Rltb (vy d') 0) eqn:El; [apply Rltb_true in El | apply Rltb_false in El]; (split; [lra|]); intros; nra. }
  destruct Hhy as [Hh1 Hh2]. split.
  - split; [done|]. done.
  - intros x [Hx1 Hx2]. specialize (Hr2 _ _ Hx1). specialize (Hh2 _ Hx2).
    unfold dot3. rs. lra.
Qed.
Lemma lin_le_max a x lo hi : lo <= x <= hi -> a * x <= a * lo \/ a * x <= a * hi.
Proof. intros Hx. destruct (Rle_dec 0 a); [right|left]; nra. Qed.
Theorem C38_rectangle (dim : P2) (T : Xf P2) d :
  0 <= ux dim -> 0 <= uy dim -> similar2 T ->
  exists s, rect_support dim d T = Ok s /\ furthest2 (world T (rect_set dim)) d s.
Proof.
  intros Hx Hy HT. apply get_max2_support; [done|done| |].
  - intros v Hv. unfold rect_corners, quad_half, two in Hv. rv0. unfold rect_set.
    repeat (apply elem_of_cons in Hv as [-> |Hv]; [rs; lra|]). by apply elem_of_nil in Hv.
  - intros d' x m [Hx1 Hy1] Hm. unfold rect_corners, quad_half, two in Hm. rv0.
    replace (1 + 1) with 2 in Hm by lra.
    set (a := ux dim / 2) in *. set (b := uy dim / 2) in *.
    assert (H1 := Hm (mk2 a b) ltac:(set_solver)). assert (H2 := Hm (mk2 (- a) b) ltac:(set_solver)).
    assert (H3 := Hm (mk2 (- a) (- b)) ltac:(set_solver)). assert (H4 := Hm (mk2 a (- b)) ltac:(set_solver)).
    rs. clear Hm. destruct (lin_le_max (ux d') (ux x) (- a) a Hx1), (lin_le_max (uy d') (uy x) (- b) b Hy1); lra.
Qed.
Theorem C38_cuboid (dim : P3) (T : Xf P3) d :
  0 <= vx dim -> 0 <= vy dim -> 0 <= vz dim -> similar3 T ->
  exists s, cuboid_support dim d T = Ok s /\ furthest3 (world T (box_set dim)) d s.
Proof.
  intros Hx Hy Hz HT. apply get_max3_support; [done|done| |].
  - intros v Hv. unfold cuboid_corners, cuboid_half, two in Hv. rv0. unfold box_set.
    repeat (apply elem_of_cons in Hv as [-> |Hv]; [rs; lra|]). by apply elem_of_nil in Hv.
  - intros d' x m (Hx1 & Hy1 & Hz1) Hm. unfold cuboid_corners, cuboid_half, two in Hm. rv0.
    replace (1 + 1) with 2 in Hm by lra.
    set (a := vx dim / 2) in *. set (b := vy dim / 2) in *. set (c := vz dim / 2) in *.
    assert (H1 := Hm (mk3 a b c) ltac:(set_solver)). assert (H2 := Hm (mk3 (- a) b c) ltac:(set_solver)).
    assert (H3 := Hm (mk3 (- a) (- b) c) ltac:(set_solver)). assert (H4 := Hm (mk3 a (- b) c) ltac:(set_solver)).
    assert (H5 := Hm (mk3 a b (- c)) ltac:(set_solver)). assert (H6 := Hm (mk3 (- a) b (- c)) ltac:(set_solver)).
    assert (H7 := Hm (mk3 (- a) (- b) (- c)) ltac:(set_solver)). assert (H8 := Hm (mk3 a (- b) (- c)) ltac:(set_solver)).
    rs. clear Hm. destruct (lin_le_max (vx d') (vx x) (- a) a Hx1), (lin_le_max (vy d') (vy x) (- b) b Hy1), (lin_le_max (vz d') (vz x) (- c) c Hz1); lra.
Qed.
Theorem C38_quad (dim : P2) (T : Xf P3) d :
  0 <= ux dim -> 0 <= uy dim -> similar3 T ->
  exists s, quad_support dim d T = Ok s /\ furthest3 (world T (quad_set dim)) d s.
Proof.
  intros Hx Hy HT. apply get_max3_support; [done|done| |].
  - intros v Hv. unfold quad_corners, quad_half, two in Hv. rv0. unfold quad_set.
    repeat (apply elem_of_cons in Hv as [-> |Hv]; [rs; lra|]). by apply elem_of_nil in Hv.
  - intros d' x m (Hx1 & Hy1 & Hz1) Hm. unfold quad_corners, quad_half, two in Hm. rv0.
    replace (1 + 1) with 2 in Hm by lra.
    set (a := ux dim / 2) in *. set (b := uy dim / 2) in *.
    assert (H1 := Hm (mk3 a b 0) ltac:(set_solver)). assert (H2 := Hm (mk3 (- a) b 0) ltac:(set_solver)).
    assert (H3 := Hm (mk3 (- a) (- b) 0) ltac:(set_solver)). assert (H4 := Hm (mk3 a (- b) 0) ltac:(set_solver)).
    rs. clear Hm. rewrite Hz1. destruct (lin_le_max (vx d') (vx x) (- a) a Hx1), (lin_le_max (vy d') (vy x) (- b) b Hy1); lra.
Qed.
Theorem C38_line (l : Line P2) (T : Xf P2) d :
  similar2 T -> exists s, line_support l d T = Ok s /\ furthest2 (world T (seg_set l)) d s.
Proof.
  intros (k & Hk & HT). destruct (HT d) as (d' & E & _ & HTd).
  unfold line_support. rewrite E. eexists. split; [done|]. eapply furthest2_world; [done..|].
  destruct (nle n0 (dot2 d' (sub2 (l_dest l) (l_origin l)))) eqn:Et.
  - apply Rleb_true in Et. rewrite dot2_sub_r in Et. rs. split.
    + exists 1. split; [lra|]. apply V2_eq; rv0; ring.
    + intros x (t & Ht & ->).
      assert (dot2 d' (add2 (l_origin l) (scale2 (sub2 (l_dest l) (l_origin l)) t)) = dot2 d' (l_origin l) + t * (dot2 d' (l_dest l) - dot2 d' (l_origin l))) as -> by (rv0; ring).
      nra.
  - apply Rleb_false in Et. rewrite dot2_sub_r in Et. rs. split.
    + exists 0. split; [lra|]. apply V2_eq; rv0; ring.
    + intros x (t & Ht & ->).
      assert (dot2 d' (add2 (l_origin l) (scale2 (sub2 (l_dest l) (l_origin l)) t)) = dot2 d' (l_origin l) + t * (dot2 d' (l_dest l) - dot2 d' (l_origin l))) as -> by (rv0; ring).
      nra.
Qed.
Lemma hull2_le vs d m x : hull2 vs x -> (forall v, v ∈ vs -> dot2 d v <= m) -> dot2 d x <= m.
Proof.
  intros Hx Hm. induction Hx as [v Hv|a b t _ IHa _ IHb Ht]; [by apply Hm|].
  assert (dot2 d (add2 (scale2 a (1 - t)) (scale2 b t)) = (1 - t) * dot2 d a + t * dot2 d b) as -> by (rv0; ring). nra.
Qed.
Lemma hull3_le vs d m x : hull3 vs x -> (forall v, v ∈ vs -> dot3 d v <= m) -> dot3 d x <= m.
Proof.
  intros Hx Hm. induction Hx as [v Hv|a b t _ IHa _ IHb Ht]; [by apply Hm|].
  assert (dot3 d (add3 (scale3 a (1 - t)) (scale3 b t)) = (1 - t) * dot3 d a + t * dot3 d b) as -> by (rv0; ring). nra.
Qed.
(** Polygons of fewer than 10 vertices; polyhedra given by vertices only (any number,
    in any order). *)
Theorem C38_small_polygon (vs : list P2) (T : Xf P2) d :
  vs <> [] -> (length vs < 10)%nat -> similar2 T ->
  exists s, polygon_support vs d T = Ok s /\ furthest2 (world T (hull2 vs)) d s.
Proof.
  intros Hne Hlen HT. unfold polygon_support. rewrite (proj2 (Nat.ltb_lt _ _)) by done.
  apply get_max2_support; [done|done|apply hull2_vertex|]. intros d' x m Hx Hm. by eapply hull2_le.
Qed.
Theorem C38_polyhedron (vs : list P3) (T : Xf P3) d :
  vs <> [] -> similar3 T ->
  exists s, hull_support vs d T = Ok s /\ furthest3 (world T (hull3 vs)) d s.
Proof.
  intros Hne HT. apply get_max3_support; [done|done|apply hull3_vertex|]. intros d' x m Hx Hm. by eapply hull3_le.
Qed.
Theorem C38_particle2 (T : Xf P2) d :
  exists s, particle_support zero2 T = Ok s /\ furthest2 (world T (fun x => x = zero2)) d s.
Proof. eexists. split; [done|]. split; [by exists zero2|]. intros x (y & -> & ->). lra. Qed.
Theorem C38_particle3 (T : Xf P3) d :
  exists s, particle_support zero3 T = Ok s /\ furthest3 (world T (fun x => x = zero3)) d s.
Proof. eexists. split; [done|]. split; [by exists zero3|]. intros x (y & -> & ->). lra. Qed.

(** ** Transforms meeting the hypothesis: scale, rotation, displacement. *)
(** Rotation matrices and their mirror images. *)
Definition orthonormal (m : M2 (S:=R)) : Prop :=
  dot2 (m2_x m) (m2_x m) = 1 /\ dot2 (m2_y m) (m2_y m) = 1 /\ dot2 (m2_x m) (m2_y m) = 0.
Lemma ortho_det m : orthonormal m -> m2_det m * m2_det m = 1.
Proof.
  intros (H1 & H2 & H3).
  assert (m2_det m * m2_det m = dot2 (m2_x m) (m2_x m) * dot2 (m2_y m) (m2_y m) - dot2 (m2_x m) (m2_y m) * dot2 (m2_x m) (m2_y m)) as ->.
  { unfold m2_det. rv0. ring. }
  rewrite H1, H2, H3. ring.
Qed.
Lemma ortho_invert_dot m d x : orthonormal m -> dot2 (m2_mul (m2_invert m) d) x = dot2 d (m2_mul m x).
Proof.
  intros Ho. pose proof (ortho_det m Ho) as Hd. destruct Ho as (H1 & H2 & H3). destruct m as [[a b] [c e]].
  unfold m2_invert, m2_mul, m2_det in *. rv0. cbn [m2_x m2_y ux uy] in *.
  assert (a * e - c * b <> 0) as Hne by (intros Hz; rewrite Hz in Hd; lra).
  assert (Ea : e / (a * e - c * b) = a).
  { apply (Rmult_eq_reg_r (a * e - c * b)); [|done]. transitivity e; [field; done|].
    replace (a * (a * e - c * b)) with (e * (a * a + b * b) - b * (a * c + b * e)) by ring. rewrite H1, H3. ring. }
  assert (Eb : - c / (a * e - c * b) = b).
  { apply (Rmult_eq_reg_r (a * e - c * b)); [|done]. transitivity (- c); [field; done|].
    replace (b * (a * e - c * b)) with (a * (a * c + b * e) - c * (a * a + b * b)) by ring. rewrite H1, H3. ring. }
  assert (Ec : - b / (a * e - c * b) = c).
  { apply (Rmult_eq_reg_r (a * e - c * b)); [|done]. transitivity (- b); [field; done|].
    replace (c * (a * e - c * b)) with (e * (a * c + b * e) - b * (c * c + e * e)) by ring. rewrite H2, H3. ring. }
  assert (Ee : a / (a * e - c * b) = e).
  { apply (Rmult_eq_reg_r (a * e - c * b)); [|done]. transitivity a; [field; done|].
    replace (e * (a * e - c * b)) with (a * (c * c + e * e) - c * (a * c + b * e)) by ring. rewrite H2, H3. ring. }
  rewrite Ea, Eb, Ec, Ee. ring.
Qed.
Theorem C38_decomposed2 (eps s : R) rot disp :
  0 <= eps -> eps < Rabs s -> orthonormal rot -> similar2 (decomposed2 eps s rot disp).
Proof.
  intros He Hs Ho. exists (s * s). assert (s <> 0). { intros ->. rewrite Rabs_R0 in Hs. lra. }
  split; [nra|]. intros d. unfold decomposed2, near0. cbn [xf_ivec xf_pt]. rs.
  destruct (Rleb (Rabs s) eps) eqn:El; [apply Rleb_true in El; lra|]. clear El.
  eexists. split; [done|]. split.
  - intros Hd E. apply Hd. assert (Hz : dot2 (m2_mul (m2_invert rot) (div2 d s)) (m2_mul (m2_invert rot) (div2 d s)) = 0).
    { rewrite E. rv0. ring. }
    rewrite ortho_invert_dot in Hz by done.
    assert (Hdd : dot2 (div2 d s) (div2 d s) = 0).
    { (* rotate back *)
      assert (Hr : forall x, m2_mul rot (m2_mul (m2_invert rot) x) = x).
      { intros x. pose proof (ortho_det rot Ho) as Hdet. destruct rot as [[a b] [c e]].
        unfold m2_invert, m2_mul, m2_det in *. cbn [m2_x m2_y ux uy] in *. rs.
        assert (a * e - c * b <> 0) by (intros Hzz; rewrite Hzz in Hdet; lra). apply V2_eq; rs; field; done. }
      rewrite Hr in Hz. done. }
    assert (Hdd2 : dot2 d d = 0).
    { assert (dot2 d d = dot2 (div2 d s) (div2 d s) * (s * s)) as -> by (rv0; field; done). rewrite Hdd. ring. }
    unfold dot2 in Hdd2. clear -Hdd2. rs. apply V2_eq; cbn [zero2 ux uy]; rs; nra.
  - intros x y. rewrite ortho_invert_dot by done. unfold m2_mul. rv0. cbn [ux uy]. field. done.
Qed.
Definition unit_quat (q : Quat (S:=R)) : Prop := quat_mag2 q = 1.
Lemma quat_invert_unit q : unit_quat q -> quat_invert q = mkQuat (q_s q) (neg3 (q_v q)).
Proof. intros Hq. unfold quat_invert. rewrite Hq. f_equal; [rs; field|]. rv0. f_equal; field. Qed.
Lemma quat_dot q d x : unit_quat q -> dot3 (quat_rot (quat_invert q) d) x = dot3 d (quat_rot q x).
Proof.
  intros Hq. rewrite quat_invert_unit by done. destruct q as [s [x0 y0 z0]], d as [d1 d2 d3], x as [x1 x2 x3].
  unfold quat_rot. cbn [q_s q_v]. rv0. cbn [vx vy vz]. ring.
Qed.
Lemma quat_rot_eq (s x0 y0 z0 : R) x :
  quat_rot (mkQuat s (mk3 x0 y0 z0)) x =
  mk3 (vx x + 2 * (s * (y0 * vz x - z0 * vy x) + y0 * (x0 * vy x - y0 * vx x) - z0 * (z0 * vx x - x0 * vz x)))
      (vy x + 2 * (s * (z0 * vx x - x0 * vz x) + z0 * (y0 * vz x - z0 * vy x) - x0 * (x0 * vy x - y0 * vx x)))
      (vz x + 2 * (s * (x0 * vy x - y0 * vx x) + x0 * (z0 * vx x - x0 * vz x) - y0 * (y0 * vz x - z0 * vy x))).
Proof. destruct x as [x1 x2 x3]. unfold quat_rot. cbn [q_s q_v]. rv0. f_equal; ring. Qed.
Lemma quat_rot_conj (s x0 y0 z0 : R) x : s * s + (x0 * x0 + y0 * y0 + z0 * z0) = 1 ->
  quat_rot (mkQuat s (mk3 x0 y0 z0)) (quat_rot (mkQuat s (mk3 (- x0) (- y0) (- z0))) x) = x.
Proof.
  intros Hs. rewrite !quat_rot_eq. destruct x as [x1 x2 x3]. cbn [vx vy vz].
  set (c := 1 - (s * s + (x0 * x0 + y0 * y0 + z0 * z0))). assert (Hc : c = 0) by (unfold c; lra).
  f_equal.
  - transitivity (x1 + 4 * c * (y0 * (x0 * x2 - y0 * x1) - z0 * (z0 * x1 - x0 * x3))); [unfold c; ring|]. rewrite Hc. ring.
  - transitivity (x2 + 4 * c * (z0 * (y0 * x3 - z0 * x2) - x0 * (x0 * x2 - y0 * x1))); [unfold c; ring|]. rewrite Hc. ring.
  - transitivity (x3 + 4 * c * (x0 * (z0 * x1 - x0 * x3) - y0 * (y0 * x3 - z0 * x2))); [unfold c; ring|]. rewrite Hc. ring.
Qed.
Lemma quat_rot_inv q x : unit_quat q -> quat_rot q (quat_rot (quat_invert q) x) = x.
Proof.
  intros Hq. rewrite quat_invert_unit by done. unfold unit_quat, quat_mag2 in Hq. destruct q as [s [x0 y0 z0]].
  cbn [q_s q_v] in *. rv0. cbn [vx vy vz] in *. by apply quat_rot_conj.
Qed.
Lemma div3_zero (d : P3) s : s <> 0 -> dot3 (div3 d s) (div3 d s) = 0 -> d = zero3.
Proof.
  intros Hs Hz. assert (E : dot3 d d = 0).
  { assert (dot3 d d = dot3 (div3 d s) (div3 d s) * (s * s)) as -> by (rv0; field; done). rewrite Hz. ring. }
  unfold dot3 in E. clear -E. rs. apply V3_eq; cbn [zero3 vx vy vz]; rs; nra.
Qed.
Theorem C38_decomposed3 (eps s : R) rot disp :
  0 <= eps -> eps < Rabs s -> unit_quat rot -> similar3 (decomposed3 eps s rot disp).
Proof.
  intros He Hs Ho. exists (s * s). assert (s <> 0). { intros ->. rewrite Rabs_R0 in Hs. lra. }
  split; [nra|]. intros d. unfold decomposed3, near0. cbn [xf_ivec xf_pt]. rs.
  destruct (Rleb (Rabs s) eps) eqn:El; [apply Rleb_true in El; lra|]. clear El.
  eexists. split; [done|]. split.
  - intros Hd E. apply Hd. apply (div3_zero d s); [done|].
    rewrite <- (quat_rot_inv rot (div3 d s)) at 2 by done. rewrite <- quat_dot by done. rewrite E. rv0. ring.
  - intros x y. rewrite quat_dot by done. unfold quat_rot. rv0. cbn [vx vy vz]. field. done.
Qed.
(** A transform without an inverse: every support query with a pulled-back direction
    panics. *)
Theorem C38_singular_panics (eps s : R) rot disp dim d :
  Rabs s <= eps -> rect_support dim d (decomposed2 eps s rot disp) = Panic.
Proof.
  intros Hs. unfold rect_support, get_max_point, decomposed2, near0. cbn [xf_ivec]. rs.
  by rewrite (proj2 (Rleb_true _ _)).
Qed.
Example C38_hypotheses_met :
  similar2 (decomposed2 (1 / 1000) 3 (mkM2 (mk2 (3 / 5) (4 / 5)) (mk2 (- 4 / 5) (3 / 5))) (mk2 7 (-1))) /\
  similar3 (decomposed3 (1 / 1000) (-2) (mkQuat (3 / 5) (mk3 0 (4 / 5) 0)) (mk3 1 2 3)).
Proof.
  split.
  - apply C38_decomposed2; [lra|rewrite Rabs_pos_eq; lra|]. unfold orthonormal. cbn [m2_x m2_y]. rv0. lra.
  - apply C38_decomposed3; [lra|rewrite Rabs_left; lra|]. unfold unit_quat, quat_mag2. cbn [q_s q_v]. rv0. lra.
Qed.

(** ** Where it fails *)
(** A non-uniform scale (the plane stretched by 2 along x): the support point of a segment
    is its wrong end, because directions are pulled back by the inverse, not by the
    transpose. *)
Theorem C38_nonuniform_refuted :
  exists (l : Line P2) (m : M2) (d s : P2),
    line_support l d (affine2 m zero2) = Ok s /\ m2_det m <> 0 /\
    ~ furthest2 (world (affine2 m zero2) (seg_set l)) d s.
Proof.
  exists (mkLine (mk2 3 0) (mk2 0 2)), (mkM2 (mk2 2 0) (mk2 0 1)), (mk2 1 2), (mk2 0 2).
  assert (Hdet : @m2_det R _ (mkM2 (mk2 2 0) (mk2 0 1)) = 2) by (unfold m2_det; cbn [m2_x m2_y]; rs; lra).
  split; [|split].
  - unfold line_support, affine2. cbn [xf_ivec xf_pt]. rewrite Hdet. rs.
    destruct (Reqb 2 0) eqn:E; [apply Reqb_true in E; lra|]. cbn [option_map snd].
    destruct (Rleb 0 _) eqn:El.
    + cbn [l_dest]. f_equal. unfold m2_mul. cbn [m2_x m2_y]. apply V2_eq; rv0; lra.
    + apply Rleb_false in El. exfalso. unfold m2_mul, m2_invert in El. rewrite Hdet in El. cbn [m2_x m2_y l_dest l_origin] in El. rv0. cbn [ux uy] in El. lra.
  - rewrite Hdet. lra.
  - intros [_ Hm]. specialize (Hm (mk2 6 0)). assert (dot2 (mk2 1 2) (mk2 6 0) <= @dot2 R _ (mk2 1 2) (mk2 0 2)).
    { apply Hm. exists (mk2 3 0). split.
      - exists 0. split; [lra|]. cbn [l_origin l_dest]. apply V2_eq; rv0; lra.
      - unfold affine2, m2_mul. cbn [xf_pt m2_x m2_y]. apply V2_eq; rv0; lra. }
    rv0. cbn [ux uy] in *. lra.
Qed.

(** Polygons of ten or more vertices are searched by hill climbing.  The result is always
    one of the vertices ... *)
Lemma dot_index_ok {S V} `{Num S} (dot : V -> V -> S) vs i d :
  (0 < length vs)%nat -> (-1 <= i <= Z.of_nat (length vs))%Z -> exists r, dot_index dot vs i d = Ok r.
Proof.
  intros Hl Hi. unfold dot_index. set (n := Z.of_nat (length vs)).
  set (j := if (i =? n)%Z then 0%Z else if (i =? -1)%Z then (n - 1)%Z else i).
  assert (Hj : (0 <= j < n)%Z).
  { unfold j. destruct (i =? n)%Z eqn:E1; [lia|]. apply Z.eqb_neq in E1. destruct (i =? -1)%Z eqn:E2; [lia|]. apply Z.eqb_neq in E2. lia. }
  destruct (lookup_lt_is_Some_2 vs (Z.to_nat j)) as [v ->]; [lia|].
  destruct (j <? 0)%Z eqn:E; [lia|]. eauto.
Qed.
Lemma wrap_range n i : (0 < n)%Z -> (-1 <= i <= n)%Z -> (0 <= wrap n i < n)%Z.
Proof. intros. unfold wrap. destruct (i =? n)%Z eqn:E1; [lia|]. apply Z.eqb_neq in E1. destruct (i =? -1)%Z eqn:E2; [lia|]. apply Z.eqb_neq in E2. lia. Qed.
(** Distance still to go around the polygon. *)
Definition togo (n start add index : Z) : Z := if (add =? 1)%Z then ((start - index) mod n)%Z else ((index - start) mod n)%Z.
Lemma poly_climb_ok {S V} `{Num S} fuel (dot : V -> V -> S) vs d start add index prev cur :
  let n := Z.of_nat (length vs) in
  (0 < n)%Z -> (add = 1 \/ add = -1)%Z -> (0 <= start < n)%Z -> (0 <= index < n)%Z ->
  (togo n start add index <= Z.of_nat fuel)%Z ->
  exists i, poly_climb fuel dot vs d start add index prev cur = Ok i /\ (0 <= i < n)%Z.
Proof.
  intros n Hn Ha Hs. revert index prev cur. induction fuel as [|fuel IH]; intros index prev cur Hi Ht; cbn [poly_climb].
  - destruct (index =? start)%Z eqn:E; [apply Z.eqb_eq in E; eauto|]. apply Z.eqb_neq in E. exfalso. unfold togo in Ht.
    destruct (add =? 1)%Z.
    + assert ((start - index) mod n = 0)%Z as Hz by (pose proof (Z.mod_pos_bound (start - index) n Hn); lia).
      apply Z.mod_divide in Hz; [|lia]. destruct Hz as [q Hq]. assert (q = 0)%Z by nia. lia.
    + assert ((index - start) mod n = 0)%Z as Hz by (pose proof (Z.mod_pos_bound (index - start) n Hn); lia).
      apply Z.mod_divide in Hz; [|lia]. destruct Hz as [q Hq]. assert (q = 0)%Z by nia. lia.
  - destruct (index =? start)%Z eqn:E; [apply Z.eqb_eq in E; eauto|]. apply Z.eqb_neq in E.
    destruct (dot_index_ok dot vs (index + add) d) as [nx ->]; [lia|lia|]. cbn.
    destruct (nlt prev cur && nlt nx cur); [eauto|]. apply IH; [apply wrap_range; lia|].
    fold n. assert (Hw : exists q, wrap n (index + add) = (index + add + q * n)%Z).
    { unfold wrap. destruct (index + add =? n)%Z eqn:E1; [apply Z.eqb_eq in E1; exists (-1)%Z; lia|].
      destruct (index + add =? -1)%Z eqn:E2; [apply Z.eqb_eq in E2; exists 1%Z; lia|]. exists 0%Z. lia. }
    destruct Hw as [q Hw]. rewrite Hw. unfold togo in *. destruct Ha as [-> | ->]; cbn [Z.eqb Pos.eqb] in *.
    + replace (start - (index + 1 + q * n))%Z with (start - index - 1 + (- q) * n)%Z by ring. rewrite Z_mod_plus_full.
      assert ((start - index) mod n <> 0)%Z as Hnz.
      { intros Hz. apply Z.mod_divide in Hz; [|lia]. destruct Hz as [q' Hq]. assert (q' = 0)%Z by nia. lia. }
      pose proof (Z.mod_pos_bound (start - index) n Hn).
      rewrite <- (Zminus_mod_idemp_l (start - index) 1 n), Z.mod_small by lia. lia.
    + replace (index + -1 + q * n - start)%Z with (index - start - 1 + q * n)%Z by ring. rewrite Z_mod_plus_full.
      assert ((index - start) mod n <> 0)%Z as Hnz.
      { intros Hz. apply Z.mod_divide in Hz; [|lia]. destruct Hz as [q' Hq]. assert (q' = 0)%Z by nia. lia. }
      pose proof (Z.mod_pos_bound (index - start) n Hn).
      rewrite <- (Zminus_mod_idemp_l (index - start) 1 n), Z.mod_small by lia. lia.
Qed.
Lemma poly_hill_ok {S V} `{Num S} (dot : V -> V -> S) (vs : list V) d d' (T : Xf V) :
  (2 <= length vs)%nat -> xf_ivec T d = Some d' -> exists v, v ∈ vs /\ poly_hill dot vs d T = Ok (xf_pt T v).
Proof.
  intros Hl E. unfold poly_hill. rewrite E. set (n := Z.of_nat (length vs)).
  destruct (dot_index_ok dot vs 0 d') as [first ->]; [lia|lia|]. cbn [mbind res_mbind res_bind].
  set (start := if nlt first n0 then (n / 2)%Z else 0%Z).
  assert (Hst : (0 <= start < n)%Z). { unfold start, n. destruct (nlt first n0); [|lia]. split; [apply Z.div_pos; lia|]. apply Z.div_lt; lia. }
  destruct (if nlt first n0 then dot_index dot vs start d' else Ok first) as [mx| |] eqn:Emx.
  2,3: exfalso; destruct (nlt first n0); [|done]; destruct (dot_index_ok dot vs start d'); [lia|lia|congruence].
  cbn [mbind res_mbind res_bind].
  destruct (dot_index_ok dot vs (start - 1) d') as [lf ->]; [lia|lia|]. cbn [mbind res_mbind res_bind].
  destruct (dot_index_ok dot vs (start + 1) d') as [rt ->]; [lia|lia|]. cbn [mbind res_mbind res_bind].
  assert (Hfin : forall m, (exists i, m = Ok i /\ (0 <= i < n)%Z) ->
    exists v, v ∈ vs /\ (i ← m; match vs !! Z.to_nat i with Some v => Ok (xf_pt T v) | None => Panic end) = Ok (xf_pt T v)).
  { intros m (i & -> & Hi). cbn. destruct (lookup_lt_is_Some_2 vs (Z.to_nat i)) as [v Hv]; [lia|].
    rewrite Hv. exists v. split; [|done]. by eapply elem_of_list_lookup_2. }
  apply Hfin. destruct ((start =? 0)%Z && nlt lf mx && nlt rt mx); [exists 0%Z; split; [done|lia]|].
  apply poly_climb_ok; try (fold n).
  - lia.
  - destruct (_ && _); lia.
  - done.
  - apply wrap_range; [lia|]. destruct (_ && _); lia.
  - pose proof (Z.mod_pos_bound (start - wrap n (start + (if nlt mx lf && nlt rt lf then -1 else 1))) n).
    pose proof (Z.mod_pos_bound (wrap n (start + (if nlt mx lf && nlt rt lf then -1 else 1)) - start) n).
    unfold togo. destruct (_ =? 1)%Z; lia.
Qed.
Theorem C38_large_polygon_vertex (vs : list P2) (T : Xf P2) d :
  (2 <= length vs)%nat -> similar2 T ->
  exists v, v ∈ vs /\ polygon_support vs d T = Ok (xf_pt T v).
Proof.
  intros Hl (k & Hk & HT). destruct (HT d) as (d' & E & _ & _). unfold polygon_support.
  destruct (length vs <? 10)%nat eqn:E10.
  - unfold get_max_point. rewrite E. eexists. split; [|done]. apply max_point_spec. intros ->. cbn in Hl. lia.
  - by eapply poly_hill_ok.
Qed.

(** ... but it need not be the furthest: in the decagon below, whose corners have small
    integer coordinates (exact in f32), and for the direction (-1, 0), the search returns
    a corner at x = -3 although there is one at x = -4. *)
Definition decagon : list (Z * Z) :=
  [(4, 0); (3, 2); (1, 3); (-1, 3); (-3, 2); (-4, 0); (-3, -2); (-1, -3); (1, -3); (3, -2)]%Z.
(** Each corner is a strict left turn. *)
Definition left_turn (a b c : Z * Z) : bool :=
  (0 <? (b.1 - a.1) * (c.2 - b.2) - (b.2 - a.2) * (c.1 - b.1))%Z.
Fixpoint left_turns (l : list (Z * Z)) : bool :=
  match l with a :: ((b :: c :: _) as t) => left_turn a b c && left_turns t | _ => true end.
Definition F32pt (p : Z * Z) : V2 f32 := mk2 (F32 p.1 0) (F32 p.2 0).
Local Instance num32s : Num f32 := Num_float 24 128.
Local Instance sgn32s : NumSgn f32 := NumSgn_float 24 128.
Theorem C38_large_polygon_refuted :
  length decagon = 10%nat /\ left_turns (decagon ++ take 2 decagon) = true /\
  (-4, 0)%Z ∈ decagon /\
  match polygon_support (map F32pt decagon) (F32pt (-1, 0)%Z) id_xf with
  | Ok v => nlt (dot2 v (F32pt (-1, 0)%Z)) (dot2 (F32pt (-4, 0)%Z) (F32pt (-1, 0)%Z))
  | _ => false
  end = true.
Proof. split; [done|]. split; [by vm_compute|]. split; [unfold decagon; set_solver|]. by vm_compute. Qed.
