(** C47: rays against cylinders. *)
From Coq Require Import Psatz.
From stdpp Require Import prelude.
From Flocq Require Import IEEE754.BinarySingleNaN.
From Coq Require Import Reals Lra.
From Verif Require Import Res Num Vec AabbModel GeoModel RealGeo Xr PropsRayBox PrimModel ShapeSpec RaySpec CylRay.
Local Open Scope R_scope.

(** The infinite cylinder, its surface, the open top disc, the inside. *)
Definition tube (rd : R) (p : P3) : Prop := vx p * vx p + vz p * vz p <= rd * rd.
Definition tube_surface (rd : R) (p : P3) : Prop := vx p * vx p + vz p * vz p = rd * rd.
Definition top_disc (hh rd : R) (p : P3) : Prop := vx p * vx p + vz p * vz p < rd * rd /\ vy p = hh.
Definition cylinder_inside (hh rd : R) (p : P3) : Prop := vx p * vx p + vz p * vz p < rd * rd /\ - hh < vy p < hh.

Section cyl.
  Context (r : Ray (V3 xr)) (q : Ray P3) (hx rad : xr) (hh rd : R).
  Context (Hr : fin_ray3 r q) (Hhx : is_fin hx hh) (Hrad : is_fin rad rd) (Hh : 0 <= hh).
  Let y (t : R) := vy (origin q) + vy (direction q) * t.
  Let dy := vy (direction q).
  Let oy := vy (origin q).
  Let T := (hh - oy) / dy.
  Let Q (t : R) := Qc rd (along3 q t).
  Definition cap_param (tp : xr) : Prop := (dy <> 0 -> is_fin tp T) /\ (dy = 0 -> forall a, ~ is_fin tp a).
  Lemma nonfin_div x z a : is_fin x a -> is_fin z 0 -> forall b, ~ is_fin (xdiv x z) b.
  Proof.
    intros [s ->] [t ->] b [u E]. cbn in E. rewrite (proj2 (Rzero_true 0) eq_refl) in E. by destruct (Rzero a).
  Qed.
  Lemma cap_top : cap_param (ndiv (nneg (nadd hx (dot3 (origin r) (neg3 unit_y)))) (dot3 (direction r) (neg3 unit_y))).
  Proof.
    destruct Hr as [(Ox & Oy & Oz) (Dx & Dy & Dz)]. unfold dot3, neg3, unit_y. cbn [vx vy vz].
    assert (FN : is_fin (nneg (nadd hx (nadd (nadd (nmul (vx (origin r)) (nneg n0)) (nmul (vy (origin r)) (nneg n1))) (nmul (vz (origin r)) (nneg n0))))) (- (hh - oy))).
    { unfold oy. replace (- (hh - vy (origin q))) with (- (hh + (vx (origin q) * - 0 + vy (origin q) * - (1) + vz (origin q) * - 0))) by ring. xn. fin. }
    assert (FD : is_fin (nadd (nadd (nmul (vx (direction r)) (nneg n0)) (nmul (vy (direction r)) (nneg n1))) (nmul (vz (direction r)) (nneg n0))) (- dy)).
    { unfold dy. replace (- vy (direction q)) with (vx (direction q) * - 0 + vy (direction q) * - (1) + vz (direction q) * - 0) by ring. xn. fin. }
    split.
    - intros Hd. unfold T. replace ((hh - oy) / dy) with (- (hh - oy) / - dy) by (field; done). apply fin_div; [lra|done|done].
    - intros Hd. apply (nonfin_div _ _ _ FN). rewrite Hd in FD. by replace (- 0) with 0 in FD by lra.
  Qed.
  Lemma cap_bot : cap_param (ndiv (nneg (nadd (nneg hx) (dot3 (origin r) unit_y))) (dot3 (direction r) unit_y)).
  Proof.
    destruct Hr as [(Ox & Oy & Oz) (Dx & Dy & Dz)]. unfold dot3, unit_y. cbn [vx vy vz].
    assert (FN : is_fin (nneg (nadd (nneg hx) (nadd (nadd (nmul (vx (origin r)) n0) (nmul (vy (origin r)) n1)) (nmul (vz (origin r)) n0)))) (hh - oy)).
    { unfold oy. replace (hh - vy (origin q)) with (- (- hh + (vx (origin q) * 0 + vy (origin q) * 1 + vz (origin q) * 0))) by ring. xn. fin. }
    assert (FD : is_fin (nadd (nadd (nmul (vx (direction r)) n0) (nmul (vy (direction r)) n1)) (nmul (vz (direction r)) n0)) dy).
    { unfold dy. replace (vy (direction q)) with (vx (direction q) * 0 + vy (direction q) * 1 + vz (direction q) * 0) by ring. xn. fin. }
    split.
    - intros Hd. apply fin_div; done.
    - intros Hd. apply (nonfin_div _ _ _ FN). by rewrite Hd in FD.
  Qed.
  Lemma nfin_lt x z a b : is_fin x a -> is_fin z b -> nlt x z = Rltb a b.
  Proof. apply fin_lt. Qed.
  Lemma fin_ge0 x a : is_fin x a -> nle n0 x = Rleb 0 a.
  Proof. intros. apply fin_le; [eexists; reflexivity|done]. Qed.
  Lemma cap_hit_iff tp : 0 < level q -> cap_param tp -> (nle n0 tp && in_disc rad (ray_pt3 r tp)) = true <-> dy <> 0 /\ 0 <= T /\ Q T < 0.
  Proof.
    intros Ha [Hf Hn]. destruct (Req_dec dy 0) as [E|E].
    - rewrite (in_disc_nonfin r q rad rd Hr Hrad tp Ha (Hn E)), andb_false_r. split; [done|tauto].
    - specialize (Hf E). rewrite (in_disc_fin r q rad rd Hr Hrad tp T Hf), (fin_ge0 tp T Hf), andb_true_iff, Rleb_true, Rltb_true. tauto.
  Qed.
  Lemma cap_less_iff tp t u : 0 < level q -> cap_param tp -> is_fin t u ->
    (nle n0 tp && nlt tp t && in_disc rad (ray_pt3 r tp)) = true <-> dy <> 0 /\ 0 <= T < u /\ Q T < 0.
  Proof.
    intros Ha [Hf Hn] Ft. destruct (Req_dec dy 0) as [E|E].
    - rewrite (in_disc_nonfin r q rad rd Hr Hrad tp Ha (Hn E)), andb_false_r. split; [done|tauto].
    - specialize (Hf E). rewrite (in_disc_fin r q rad rd Hr Hrad tp T Hf), (fin_ge0 tp T Hf), (nfin_lt tp t T u Hf Ft), !andb_true_iff, Rleb_true, !Rltb_true. tauto.
  Qed.
  Lemma slab_iff t u : is_fin t u -> (nle (vy (ray_pt3 r t)) hx && nle (nneg hx) (vy (ray_pt3 r t))) = true <-> - hh <= y u <= hh.
  Proof.
    intros Ft. destruct (fin_pt r q Hr t u Ft) as (_ & Fy & _). xn.
    rewrite (fin_le _ _ _ _ Fy Hhx), (fin_le _ _ (- hh) _ (fin_neg _ _ Hhx) Fy), andb_true_iff, !Rleb_true. unfold along3. cbn [vy]. unfold y. tauto.
  Qed.
  Lemma slab_out_iff t u : is_fin t u -> (nlt hx (vy (ray_pt3 r t)) || nlt (vy (ray_pt3 r t)) (nneg hx)) = true <-> ~ (- hh <= y u <= hh).
  Proof.
    intros Ft. destruct (fin_pt r q Hr t u Ft) as (_ & Fy & _). xn.
    rewrite (fin_lt _ _ _ _ Hhx Fy), (fin_lt _ _ _ (- hh) Fy (fin_neg _ _ Hhx)), orb_true_iff, !Rltb_true. unfold along3. cbn [vy]. unfold y. lra.
  Qed.
  (** The parameter the code starts from: the first crossing of the round surface. *)
  Definition start (u1 u2 : R) : R := if Rlt_dec u2 0 then u1 else u2.
  Lemma axis_test : 0 < level q -> (neq (vx (direction r)) n0 && neq (vz (direction r)) n0) = false.
  Proof.
    intros Ha. destruct Hr as [_ (Dx & Dy & Dz)]. xn.
    rewrite (fin_eq _ n0 _ 0 Dx ltac:(by eexists)), (fin_eq _ n0 _ 0 Dz ltac:(by eexists)).
    destruct (Reqb (vx (direction q)) 0) eqn:E1; [|done]. destruct (Reqb (vz (direction q)) 0) eqn:E2; [|done].
    apply Reqb_true in E1, E2. unfold level in Ha. rewrite E1, E2 in Ha. lra.
  Qed.
  Lemma test_char : 0 < level q -> cylinder_ray_test hx rad r = true <->
    exists u1 u2, roots rd q u1 u2 /\ 0 <= u1 /\ ((- hh <= y (start u1 u2) <= hh) \/ (dy <> 0 /\ 0 <= T /\ Q T < 0)).
  Proof.
    intros Ha. unfold cylinder_ray_test. rewrite (axis_test Ha). pose proof (cyl_solve_spec r q rad rd Hr Hrad Ha) as Hs.
    assert (Huniq : forall u1 u2 w1 w2, roots rd q u1 u2 -> roots rd q w1 w2 -> u1 = w1 /\ u2 = w2).
    { intros u1 u2 w1 w2 [L1 E1] [L2 E2].
      pose proof (E1 w1) as A1. rewrite (E2 w1) in A1. pose proof (E1 w2) as A2. rewrite (E2 w2) in A2. pose proof (E2 u1) as A3. rewrite (E1 u1) in A3. pose proof (E2 u2) as A4. rewrite (E1 u2) in A4.
      assert ((w1 - u1) * (w1 - u2) = 0) by nra. assert ((w2 - u1) * (w2 - u2) = 0) by nra.
      assert ((u1 - w1) * (u1 - w2) = 0) by nra. assert ((u2 - w1) * (u2 - w2) = 0) by nra.
      repeat match goal with H : _ * _ = 0 |- _ => apply Rmult_integral in H; destruct H end; lra. }
    destruct (cyl_solve r rad) as [[t1 t2]|].
    - destruct Hs as (u1 & u2 & F1 & F2 & Hroots). pose proof (pick_root_spec t1 t2 u1 u2 F1 F2 (proj1 Hroots)) as Hp.
      destruct (pick_root t1 t2) as [t|].
      + destruct Hp as [Hu1 Ft]. fold (start u1 u2) in Ft. pose proof (slab_iff t _ Ft) as Hslab. pose proof (cap_hit_iff _ Ha cap_top) as Htop. pose proof (cap_hit_iff _ Ha cap_bot) as Hbot.
        transitivity ((- hh <= y (start u1 u2) <= hh) \/ (dy <> 0 /\ 0 <= T /\ Q T < 0)).
        * rewrite <- Hslab, <- Htop. rewrite <- Htop in Hbot. cbn zeta. set (tp := ndiv (nneg (nadd hx _)) _) in *. set (tb := ndiv (nneg (nadd (nneg hx) _)) _) in *.
          destruct (nle (vy (ray_pt3 r t)) hx && nle (nneg hx) (vy (ray_pt3 r t))); [tauto|].
          destruct (nle n0 tp && in_disc rad (ray_pt3 r tp)); [tauto|].
          destruct (nle n0 tb && in_disc rad (ray_pt3 r tb)); [|intuition congruence]. pose proof (proj1 Hbot eq_refl). done.
        * split; [intros Hor; by exists u1, u2|]. intros (w1 & w2 & Hw & _ & Hor). destruct (Huniq _ _ _ _ Hroots Hw) as [-> ->]. done.
      + split; [done|]. intros (w1 & w2 & Hw & Hw1 & _). destruct (Huniq _ _ _ _ Hroots Hw) as [-> ->]. lra.
    - split; [done|]. intros (w1 & w2 & [_ Hw] & _). specialize (Hs w1). rewrite Hw in Hs. lra.
  Qed.
  Lemma hit_char : 0 < level q ->
    match cylinder_ray hx rad r with
    | None => (forall t, 0 <= t -> 0 < Q t) \/ exists u1 u2, roots rd q u1 u2 /\ 0 <= u1 /\
        ~ (- hh <= y (start u1 u2) <= hh) /\ ~ (dy <> 0 /\ 0 <= T < start u1 u2 /\ Q T < 0)
    | Some p => exists u1 u2, roots rd q u1 u2 /\ 0 <= u1 /\
        ((dy <> 0 /\ 0 <= T < start u1 u2 /\ Q T < 0 /\ fin3 p (along3 q T)) \/
         (~ (dy <> 0 /\ 0 <= T < start u1 u2 /\ Q T < 0) /\ - hh <= y (start u1 u2) <= hh /\ fin3 p (along3 q (start u1 u2))))
    end.
  Proof.
    intros Ha. unfold cylinder_ray. rewrite (axis_test Ha). pose proof (cyl_solve_spec r q rad rd Hr Hrad Ha) as Hs.
    destruct (cyl_solve r rad) as [[t1 t2]|]; [|left; intros; apply Hs].
    destruct Hs as (u1 & u2 & F1 & F2 & Hroots). pose proof (pick_root_spec t1 t2 u1 u2 F1 F2 (proj1 Hroots)) as Hp.
    destruct (pick_root t1 t2) as [t|].
    2:{ left. intros t Ht. unfold Q. destruct Hroots as [Hle E]. rewrite E. apply Rmult_lt_0_compat; [done|]. nra. }
    destruct Hp as [Hu1 Ft]. fold (start u1 u2) in Ft. cbn zeta.
    pose proof (cap_less_iff _ t _ Ha cap_top Ft) as Htop.
    set (tp := ndiv (nneg (nadd hx _)) _) in *. set (tb := ndiv (nneg (nadd (nneg hx) _)) _) in *.
    pose proof cap_top as Ctop. pose proof cap_bot as Cbot. fold tp in Ctop. fold tb in Cbot.
    destruct (nle n0 tp && nlt tp t && in_disc rad (ray_pt3 r tp)) eqn:Et.
    - pose proof (proj1 Htop eq_refl) as (Hdy & HT & HQ). pose proof (proj1 Ctop Hdy) as FT. pose proof (proj1 Cbot Hdy) as FTb.
      assert (Hno : nle n0 tb && nlt tb tp && in_disc rad (ray_pt3 r tb) = false).
      { rewrite (nfin_lt tb tp T T FTb FT). rewrite (proj2 (Rltb_false T T)) by lra. by rewrite andb_false_r. }
      rewrite Hno. pose proof (slab_out_iff tp T FT) as Hout.
      assert (Hin : - hh <= y T <= hh).
      { unfold y. fold oy dy. replace (oy + dy * T) with hh by (unfold T; field; done). lra. }
      destruct (nlt hx _ || _); [by destruct (proj1 Hout eq_refl)|].
      exists u1, u2. split; [done|]. split; [done|]. left. split_and!; try done; try lra. by apply fin_pt.
    - pose proof (cap_less_iff tb t _ Ha Cbot Ft) as Hbot.
      destruct (nle n0 tb && nlt tb t && in_disc rad (ray_pt3 r tb)) eqn:Eb.
      { pose proof (proj2 Htop (proj1 Hbot eq_refl)). congruence. }
      assert (Hn : ~ (dy <> 0 /\ 0 <= T < start u1 u2 /\ Q T < 0)) by (intros Hc; pose proof (proj2 Htop Hc); congruence).
      pose proof (slab_out_iff t _ Ft) as Hout. destruct (nlt hx _ || _).
      + right. exists u1, u2. split_and!; try done. by apply Hout.
      + exists u1, u2. split; [done|]. split; [done|]. right. split; [done|].
        split; [|by apply fin_pt]. destruct (Rle_dec (- hh) (y (start u1 u2))), (Rle_dec (y (start u1 u2)) hh); try lra;
          (assert (false = true) by (apply Hout; lra); done).
  Qed.

  (** ** Reading the quadratic *)
  Lemma roots_neg u1 u2 t : 0 < level q -> roots rd q u1 u2 -> Q t < 0 <-> u2 < t < u1.
  Proof.
    intros Ha [Hle E]. unfold Q. rewrite E. split.
    - intros Hq. assert (Hp : (t - u1) * (t - u2) < 0) by nra. split; nra.
    - intros Ht. assert (Hp : 0 < (u1 - t) * (t - u2)) by nra. nra.
  Qed.
  Lemma roots_pos u1 u2 t : 0 < level q -> roots rd q u1 u2 -> 0 < Q t <-> t < u2 \/ u1 < t.
  Proof.
    intros Ha [Hle E]. unfold Q. rewrite E. split.
    - intros Hq. assert (Hp : 0 < (t - u1) * (t - u2)) by nra. destruct (Rlt_dec t u2); [by left|]. right. nra.
    - intros Ht. assert (Hp : 0 < (t - u1) * (t - u2)) by (destruct Ht; nra). nra.
  Qed.
  Lemma roots_zero u1 u2 t : 0 < level q -> roots rd q u1 u2 -> Q t = 0 <-> t = u1 \/ t = u2.
  Proof.
    intros Ha Hro. pose proof (roots_neg u1 u2 t Ha Hro). pose proof (roots_pos u1 u2 t Ha Hro). destruct Hro as [Hle E]. split.
    - intros Hq. rewrite Hq in *. lra.
    - intros Ht. lra.
  Qed.
  Lemma get_roots t : 0 < level q -> Q t <= 0 -> exists u1 u2, roots rd q u1 u2.
  Proof.
    intros Ha Hq. pose proof (cyl_solve_spec r q rad rd Hr Hrad Ha) as Hs. destruct (cyl_solve r rad) as [[t1 t2]|].
    - destruct Hs as (u1 & u2 & _ & _ & Hro). by exists u1, u2.
    - specialize (Hs t). unfold Q in Hq. lra.
  Qed.
  Lemma start_pos u1 u2 : 0 <= u1 -> 0 <= start u1 u2.
  Proof. unfold start. destruct (Rlt_dec u2 0); lra. Qed.
  Lemma tube_Q t : tube rd (along3 q t) <-> Q t <= 0.
  Proof. unfold tube, Q, Qc. lra. Qed.
  Lemma surface_Q t : tube_surface rd (along3 q t) <-> Q t = 0.
  Proof. unfold tube_surface, Q, Qc. lra. Qed.
  Lemma first_surface u1 u2 : 0 < level q -> roots rd q u1 u2 -> 0 <= u1 -> ray_first (along3 q) (tube_surface rd) (along3 q (start u1 u2)).
  Proof.
    intros Ha Hro Hu. exists (start u1 u2). split; [by apply start_pos|]. split; [done|]. split.
    - rewrite surface_Q, (roots_zero u1 u2) by done. unfold start. destruct (Rlt_dec u2 0); auto.
    - intros s Hs. rewrite surface_Q, (roots_zero u1 u2) by done. destruct Hro as [Hle _]. unfold start in Hs. destruct (Rlt_dec u2 0); lra.
  Qed.
  (** ** The theorems *)
  (** Rays not along the axis: what the test reports, in terms of the cylinder. *)
  Lemma level_pos : vx (direction q) <> 0 \/ vz (direction q) <> 0 -> 0 < level q.
  Proof. unfold level. intros [Hd|Hd]; nra. Qed.
  Theorem C47_cylinder_test_exact : vx (direction q) <> 0 \/ vz (direction q) <> 0 ->
    cylinder_ray_test hx rad r = true <->
      (exists p, ray_first (along3 q) (tube_surface rd) p /\ - hh <= vy p <= hh) \/ ray_meets (along3 q) (top_disc hh rd).
  Proof.
    intros Hd%level_pos. rewrite (test_char Hd). split.
    - intros (u1 & u2 & Hro & Hu1 & Hor). destruct Hor as [Hy | (Hdy & HT & HQ)].
      + left. exists (along3 q (start u1 u2)). split; [by apply first_surface|exact Hy].
      + right. exists T. split; [done|]. unfold Q, Qc in HQ. split; [lra|]. unfold along3. cbn [vy]. fold oy dy. unfold T. field. done.
    - intros [(p & Hf & Hy) | (t & Ht & Hc & Hyt)].
      + pose proof Hf as (t & Ht & -> & Hs & _). apply surface_Q in Hs. destruct (get_roots t Hd ltac:(lra)) as (u1 & u2 & Hro).
        assert (Hu1 : 0 <= u1) by (apply (roots_zero u1 u2 t Hd Hro) in Hs; destruct Hro; lra).
        exists u1, u2. split; [done|]. split; [done|]. left. rewrite <- (ray_first_unique _ _ _ _ (first_surface _ _ Hd Hro Hu1) Hf) in Hy. exact Hy.
      + assert (HQ : Q t < 0) by (unfold Q, Qc; lra). destruct (get_roots t Hd ltac:(lra)) as (u1 & u2 & Hro).
        pose proof (proj1 (roots_neg u1 u2 t Hd Hro) HQ) as Hin. exists u1, u2. split; [done|]. split; [lra|].
        unfold along3 in Hyt. cbn [vy] in Hyt. fold oy dy in Hyt. destruct (Req_dec dy 0) as [E|E].
        * left. unfold y. fold oy dy. rewrite E in *. lra.
        * right. assert (ET : T = t) by (unfold T; rewrite <- Hyt; field; done). rewrite ET. auto.
  Qed.
  (** Nothing is reported that the ray does not meet. *)
  Theorem C47_cylinder_test_sound : vx (direction q) <> 0 \/ vz (direction q) <> 0 ->
    cylinder_ray_test hx rad r = true -> ray_meets (along3 q) (cylinder_set hh rd).
  Proof.
    intros Hd [(p & (t & Ht & -> & Hs & _) & Hy) | (t & Ht & Hc & Hyt)]%C47_cylinder_test_exact; [..|done]; exists t; (split; [done|]); split; [| done | | ].
    - unfold tube_surface in Hs. lra.
    - lra.
    - lra.
  Qed.
  (** A level or downward ray from outside that passes through the inside is reported. *)
  Theorem C47_cylinder_test_complete : vx (direction q) <> 0 \/ vz (direction q) <> 0 -> vy (direction q) <= 0 ->
    ~ cylinder_inside hh rd (origin q) -> ray_meets (along3 q) (cylinder_inside hh rd) -> cylinder_ray_test hx rad r = true.
  Proof.
    intros Hd Hdy Hout (t & Ht & Hc & Hyt). apply (C47_cylinder_test_exact Hd). apply level_pos in Hd. fold dy in Hdy.
    assert (HQ : Q t < 0) by (unfold Q, Qc; lra). destruct (get_roots t Hd ltac:(lra)) as (u1 & u2 & Hro).
    pose proof (proj1 (roots_neg u1 u2 t Hd Hro) HQ) as Hin. unfold along3 in Hyt. cbn [vy] in Hyt. fold oy dy in Hyt.
    assert (Hu1 : 0 <= u1) by lra. pose proof (first_surface u1 u2 Hd Hro Hu1) as Hfirst.
    assert (Htop : forall w, 0 <= w -> u2 < w < u1 -> oy + dy * w = hh -> ray_meets (along3 q) (top_disc hh rd)).
    { intros w Hw Hw' E. exists w. split; [done|]. apply (roots_neg u1 u2 w Hd Hro) in Hw'. unfold Q, Qc in Hw'. split; [lra|exact E]. }
    assert (Hcross : forall a, 0 <= a <= t -> hh < oy + dy * a -> 0 <= T /\ a < T < t /\ oy + dy * T = hh).
    { intros a Hat Hya. assert (Hneg : dy < 0) by nra. assert (ET : oy + dy * T = hh) by (unfold T; field; lra).
      assert (dy * T < dy * a) by lra. assert (dy * t < dy * T) by lra. assert (a < T) by nra. assert (T < t) by nra. split; [lra|done]. }
    destruct (Rle_dec (oy + dy * start u1 u2) hh) as [Hy1|Hy1].
    - destruct (Rle_dec (- hh) (oy + dy * start u1 u2)) as [Hy2|Hy2]; [left; eexists; split; [exact Hfirst|split; assumption]|].
      (* below the bottom *)
      right. apply Rnot_le_lt in Hy2. unfold start in Hy2. destruct (Rlt_dec u2 0) as [H2|H2].
      + destruct (Rle_dec oy hh) as [Ho|Ho].
        * destruct (Req_dec oy hh) as [Eo|Eo]; [apply (Htop 0); [lra|lra|lra]|].
          exfalso. apply Hout. split.
          { assert (H0 : Q 0 < 0) by (apply (roots_neg u1 u2 0 Hd Hro); lra). unfold Q, Qc, along3 in H0. cbn in H0. rewrite !Rmult_0_r, !Rplus_0_r in H0. lra. }
          fold oy. split; [|lra]. nra.
        * destruct (Hcross 0) as (H1 & H3 & H4); [lra|lra|]. apply (Htop T); [done|lra|done].
      + exfalso. nra.
    - apply Rnot_le_lt in Hy1. right. unfold start in Hy1. destruct (Rlt_dec u2 0) as [H2|H2].
      + exfalso. nra.
      + destruct (Hcross u2) as (H1 & H3 & H4); [lra|done|]. apply (Htop T); [done|lra|done].
  Qed.
  (** A reported point is a point of the ray and of the surface of the cylinder. *)
  Theorem C47_cylinder_hit_on_surface p : vx (direction q) <> 0 \/ vz (direction q) <> 0 -> cylinder_ray hx rad r = Some p ->
    exists t, 0 <= t /\ fin3 p (along3 q t) /\ cylinder_set hh rd (along3 q t) /\ (tube_surface rd (along3 q t) \/ vy (along3 q t) = hh).
  Proof.
    intros Hd%level_pos Hp. pose proof (hit_char Hd) as Hc. rewrite Hp in Hc.
    destruct Hc as (u1 & u2 & Hro & Hu1 & [(Hdy & HT & HQ & Hf) | (_ & Hy & Hf)]).
    - exists T. assert (ET : vy (along3 q T) = hh) by (unfold along3; cbn [vy]; fold oy dy; unfold T; field; done).
      split; [lra|]. split; [done|]. split; [|by right]. split; [unfold Q, Qc in HQ; lra|lra].
    - exists (start u1 u2). split; [by apply start_pos|]. split; [done|]. destruct (first_surface u1 u2 Hd Hro Hu1) as (t & _ & Et & Hs & _).
      split; [|by left]. split; [unfold tube_surface in Hs; lra|exact Hy].
  Qed.
  (** From outside the infinite cylinder a hit is reported exactly when the ray enters the
      infinite cylinder at a point of the cylinder; it is then the first point. *)
  Theorem C47_cylinder_hit_from_side : vx (direction q) <> 0 \/ vz (direction q) <> 0 -> ~ tube rd (origin q) ->
    match cylinder_ray hx rad r with
    | Some p => exists p', fin3 p p' /\ ray_first (along3 q) (tube rd) p' /\ ray_first (along3 q) (cylinder_set hh rd) p'
    | None => forall p', ray_first (along3 q) (tube rd) p' -> ~ cylinder_set hh rd p'
    end.
  Proof.
    intros Hd%level_pos Ho. pose proof (hit_char Hd) as Hc.
    assert (H0 : 0 < Q 0). { unfold Q, Qc, along3. unfold tube in Ho. cbn. rewrite !Rmult_0_r, !Rplus_0_r. lra. }
    assert (Hfirst : forall u1 u2, roots rd q u1 u2 -> 0 <= u1 -> 0 < u2 /\ start u1 u2 = u2 /\ ray_first (along3 q) (tube rd) (along3 q u2)).
    { intros u1 u2 Hro Hu1. apply (roots_pos u1 u2 0 Hd Hro) in H0. assert (0 < u2) by lra. split; [done|]. split; [unfold start; destruct (Rlt_dec u2 0); lra|].
      exists u2. split; [lra|]. split; [done|]. split.
      - apply tube_Q. right. apply (roots_zero u1 u2 u2 Hd Hro). by right.
      - intros s Hs Htu. apply tube_Q in Htu. assert (0 < Q s) by (apply (roots_pos u1 u2 s Hd Hro); lra). lra. }
    destruct (cylinder_ray hx rad r) as [p|].
    - destruct Hc as (u1 & u2 & Hro & Hu1 & Hor). destruct (Hfirst u1 u2 Hro Hu1) as (Hp & Es & Hf). rewrite Es in Hor.
      destruct Hor as [(Hdy & HT & HQ & _) | (_ & Hy & Hfin)].
      { exfalso. apply (roots_neg u1 u2 T Hd Hro) in HQ. lra. }
      exists (along3 q u2). split; [done|]. split; [done|]. destruct Hf as (t & Ht & Et & Htu & Hbef).
      assert (t = u2) as ->.
      { destruct (Rtotal_order t u2) as [Hlt | [E | Hlt]]; [|done|].
        - exfalso. assert (0 < Q t) by (apply (roots_pos u1 u2 t Hd Hro); lra). rewrite Et in Htu. apply tube_Q in Htu. lra.
        - exfalso. apply (Hbef u2); [lra|]. done. }
      exists u2. split; [done|]. split; [done|]. split; [split; [exact Htu|exact Hy]|].
      intros s Hs [Hs1 _]. by apply (Hbef s).
    - intros p' Hp' [_ Hy']. destruct Hc as [Hpos | (u1 & u2 & Hro & Hu1 & Hny & _)].
      + destruct Hp' as (t & Ht & -> & Htu & _). apply tube_Q in Htu. specialize (Hpos t Ht). lra.
      + destruct (Hfirst u1 u2 Hro Hu1) as (Hp & Es & Hf). rewrite Es in Hny. apply Hny.
        rewrite (ray_first_unique _ _ _ _ Hp' Hf) in Hy'. exact Hy'.
  Qed.
  (** From above the top cap the answer is exact. *)
  Theorem C47_cylinder_hit_from_above : vx (direction q) <> 0 \/ vz (direction q) <> 0 ->
    vx (origin q) * vx (origin q) + vz (origin q) * vz (origin q) < rd * rd -> hh < vy (origin q) ->
    match cylinder_ray hx rad r with
    | Some p => exists p', fin3 p p' /\ ray_first (along3 q) (cylinder_set hh rd) p'
    | None => ~ ray_meets (along3 q) (cylinder_set hh rd)
    end.
  Proof.
    intros Hd%level_pos Ho Habove. fold oy in Habove. pose proof (hit_char Hd) as Hc.
    assert (H0 : Q 0 < 0). { unfold Q, Qc, along3. cbn. rewrite !Rmult_0_r, !Rplus_0_r. lra. }
    destruct (get_roots 0 Hd ltac:(lra)) as (w1 & w2 & Hw). pose proof (proj1 (roots_neg w1 w2 0 Hd Hw) H0) as Hin0.
    assert (Hmem : forall t, cylinder_set hh rd (along3 q t) <-> w2 <= t <= w1 /\ - hh <= oy + dy * t <= hh).
    { intros t. transitivity (Q t <= 0 /\ - hh <= oy + dy * t <= hh).
      - unfold cylinder_set, Q, Qc. unfold along3. cbn [vx vy vz]. fold oy dy. split; intros [? ?]; split; try done; lra.
      - pose proof (roots_pos w1 w2 t Hd Hw). split; intros [A B]; (split; [|done]); [|destruct (Rle_dec (Q t) 0); lra].
        destruct (Rle_dec w2 t), (Rle_dec t w1); lra. }
    assert (Huniq : forall u1 u2, roots rd q u1 u2 -> u1 = w1 /\ u2 = w2).
    { intros u1 u2 Hro. pose proof (proj1 (roots_zero w1 w2 u1 Hd Hw) (proj2 (roots_zero u1 u2 u1 Hd Hro) (or_introl eq_refl))).
      pose proof (proj1 (roots_zero w1 w2 u2 Hd Hw) (proj2 (roots_zero u1 u2 u2 Hd Hro) (or_intror eq_refl))).
      pose proof (proj1 (roots_neg u1 u2 0 Hd Hro) H0). lra. }
    assert (Es : start w1 w2 = w1) by (unfold start; destruct (Rlt_dec w2 0); lra).
    destruct (cylinder_ray hx rad r) as [p|].
    - destruct Hc as (u1 & u2 & Hro & Hu1 & Hor). destruct (Huniq u1 u2 Hro) as [-> ->]. rewrite Es in Hor.
      destruct Hor as [(Hdy & HT & HQ & Hf) | (Hn & Hy & Hf)].
      + exists (along3 q T). split; [done|]. assert (ET : oy + dy * T = hh) by (unfold T; field; done).
        exists T. split; [lra|]. split; [done|]. split; [apply Hmem; lra|]. intros s Hs Hmem'. apply Hmem in Hmem'. destruct Hmem' as [_ Hys].
        destruct (Req_dec oy hh) as [E|E]; [assert (T = 0) by (unfold T; rewrite E; field; done); lra|].
        assert (dy * T < 0) by lra. assert (dy < 0) by nra. nra.
      + exists (along3 q w1). split; [done|]. exists w1. split; [lra|]. split; [done|]. unfold y in Hy. fold oy dy in Hy.
        split; [apply Hmem; lra|]. intros s Hs Hmem'. apply Hmem in Hmem'. destruct Hmem' as [_ Hys].
        assert (Hneg : dy < 0) by nra. assert (ET : oy + dy * T = hh) by (unfold T; field; lra).
        assert (HT : 0 <= T < w1) by (split; nra).
        apply Hn. split; [lra|]. split; [done|]. apply (roots_neg w1 w2 T Hd Hw). lra.
    - intros (s & Hs & [Hws Hys]%Hmem). destruct Hc as [Hpos | (u1 & u2 & Hro & Hu1 & Hny & Hn)]; [specialize (Hpos 0 ltac:(lra)); lra|].
      destruct (Huniq u1 u2 Hro) as [-> ->]. rewrite Es in *. unfold y in Hny. fold oy dy in Hny.
      assert (Hneg : dy < 0) by nra. assert (ET : oy + dy * T = hh) by (unfold T; field; lra).
      assert (HT : 0 < T) by nra. assert (HT' : T <= s) by nra.
      destruct (Req_dec T w1) as [E|E]; [apply Hny; rewrite <- E; lra|].
      apply Hn. split; [lra|]. split; [lra|]. apply (roots_neg w1 w2 T Hd Hw). lra.
  Qed.
  (** Rays along the axis: the radius is ignored. *)
  Theorem C47_cylinder_axis_test : vx (direction q) = 0 -> vz (direction q) = 0 -> vy (direction q) <> 0 -> 0 <= rd ->
    cylinder_ray_test hx rad r = true <-> ray_meets (fun t => vy (along3 q t)) (fun h => - hh <= h <= hh).
  Proof.
    intros Ex Ez Hdy Hrd. destruct Hr as [(Ox & Oy & Oz) (Dx & Dy & Dz)]. unfold cylinder_ray_test. xn.
    assert (F0 : is_fin (n0 : xr) 0) by (by eexists).
    rewrite (fin_eq _ n0 _ 0 Dx F0), (fin_eq _ n0 _ 0 Dz F0), (fin_eq _ n0 _ 0 Dy F0), Ex, Ez.
    assert (Reqb 0 0 = true) as -> by by apply Reqb_true. rewrite (proj2 (Reqb_false _ _) Hdy). cbn [andb].
    rewrite (fin_le _ _ (- hh) _ (fin_neg _ _ Hhx) Oy), (fin_le _ _ _ _ Dy F0), (fin_le _ _ _ _ Oy Hhx), (fin_le _ _ _ _ F0 Dy).
    fold dy in Hdy. fold oy dy. rewrite orb_true_iff, !andb_true_iff, !Rleb_true. unfold ray_meets, along3. cbn [vy]. fold oy dy. split.
    - intros Hor. assert (Hat : forall g, oy + dy * ((g - oy) / dy) = g) by (intros; field; done).
      assert (Hpos : forall g, (dy < 0 /\ g <= oy) \/ (0 < dy /\ oy <= g) -> 0 <= (g - oy) / dy).
      { intros g [[Hn Hg] | [Hn Hg]]; [replace ((g - oy) / dy) with ((oy - g) * / - dy) by (field; lra)|]; apply Rmult_le_pos; try lra; left; apply Rinv_0_lt_compat; lra. }
      destruct Hor as [[A B] | [A B]].
      + exists ((- hh - oy) / dy). rewrite Hat. split; [apply Hpos; lra|lra].
      + exists ((hh - oy) / dy). rewrite Hat. split; [apply Hpos; lra|lra].
    - intros (t & Ht & Hy). destruct (Rlt_dec dy 0); [left|right]; split; nra.
  Qed.
  Theorem C47_cylinder_axis_hit : direction q = mk3 0 (vy (direction q)) 0 -> origin q = mk3 0 (vy (origin q)) 0 -> vy (direction q) <> 0 ->
    0 <= rd -> vy (origin q) <= - hh \/ hh <= vy (origin q) ->
    match cylinder_ray hx rad r with
    | Some p => exists p', fin3 p p' /\ ray_first (along3 q) (cylinder_set hh rd) p'
    | None => ~ ray_meets (along3 q) (cylinder_set hh rd)
    end.
  Proof.
    intros Ed Eo Hdy Hrd Hout.
    assert (Hmem : forall t, cylinder_set hh rd (along3 q t) <-> - hh <= oy + dy * t <= hh).
    { intros t. unfold cylinder_set, along3. rewrite Ed, Eo. cbn [vx vy vz]. fold oy dy. split; [tauto|]. intros; split; [nra|done]. }
    assert (Hpt : forall t, along3 q t = mk3 0 (oy + dy * t) 0).
    { intros t. unfold along3. rewrite Ed, Eo. cbn [vx vy vz]. fold oy dy. f_equal; ring. }
    destruct Hr as [(Ox & Oy & Oz) (Dx & Dy & Dz)]. unfold cylinder_ray. xn.
    assert (F0 : is_fin (n0 : xr) 0) by (by eexists). pose proof (fin_neg _ _ Hhx) as Fn.
    rewrite Ed in Dx, Dz. cbn [vx vz] in Dx, Dz.
    rewrite (fin_eq _ n0 _ 0 Dx F0), (fin_eq _ n0 _ 0 Dz F0), (fin_eq _ n0 _ 0 Dy F0).
    assert (Reqb 0 0 = true) as -> by by apply Reqb_true. rewrite (proj2 (Reqb_false _ _) Hdy). cbn [andb].
    rewrite (fin_le _ _ _ _ Hhx Oy), (fin_lt _ _ _ _ Dy F0), (fin_le _ _ _ _ Fn Oy), (fin_le _ _ _ _ Oy Fn), (fin_lt _ _ _ _ F0 Dy), (fin_le _ _ _ _ Oy Hhx).
    fold dy in Hdy. fold oy in Hout. fold oy dy.
    assert (Hfirst : forall g t, - hh <= g <= hh -> 0 <= t -> oy + dy * t = g -> (forall s, 0 <= s < t -> ~ (- hh <= oy + dy * s <= hh)) ->
      forall z, is_fin z g -> exists p', fin3 (mk3 n0 z n0) p' /\ ray_first (along3 q) (cylinder_set hh rd) p').
    { intros g t Hg Ht Et Hbef z Fz. exists (along3 q t). split; [rewrite Hpt, Et; split; [done|split; done]|].
      exists t. split; [done|]. split; [done|]. split; [apply Hmem; lra|]. intros s Hs Hm%Hmem. by apply (Hbef s). }
    assert (Hat : forall g, oy + dy * ((g - oy) / dy) = g) by (intros; field; done).
    assert (Hpos : forall g, (dy < 0 /\ g <= oy) \/ (0 < dy /\ oy <= g) -> 0 <= (g - oy) / dy).
    { intros g [[Hn Hg] | [Hn Hg]]; [replace ((g - oy) / dy) with ((oy - g) * / - dy) by (field; lra)|]; apply Rmult_le_pos; try lra; left; apply Rinv_0_lt_compat; lra. }
    destruct (Rleb hh oy) eqn:E1; [apply Rleb_true in E1|apply Rleb_false in E1]; (destruct (Rltb dy 0) eqn:E2; [apply Rltb_true in E2|apply Rltb_false in E2]); cbn [andb].
    - apply (Hfirst hh ((hh - oy) / dy)); [lra|apply Hpos; lra|apply Hat| |done].
      intros s Hs Hy. pose proof (Hat hh). assert (dy * ((hh - oy) / dy) < dy * s) by nra. lra.
    - rewrite andb_false_r. destruct (Rleb oy (- hh)) eqn:E3; [apply Rleb_true in E3|apply Rleb_false in E3].
      + assert (hh = 0) by lra. assert (oy = 0) by lra. rewrite (proj2 (Rltb_true _ _)) by lra. cbn [andb].
        apply (Hfirst (- hh) 0); [lra|lra|lra| |done]. intros; lra.
      + cbn [andb]. destruct (Rleb oy hh) eqn:E4; [apply Rleb_true in E4|apply Rleb_false in E4].
        * rewrite (proj2 (Rltb_true _ _)) by lra. cbn [andb]. apply (Hfirst hh 0); [lra|lra|lra| |done]. intros; lra.
        * cbn [andb]. intros (t & Ht & Hm%Hmem). nra.
    - destruct (Rleb (- hh) oy) eqn:E3; [apply Rleb_true in E3|apply Rleb_false in E3]; cbn [andb].
      + apply (Hfirst (- hh) 0); [lra|lra|lra| |done]. intros; lra.
      + rewrite (proj2 (Rltb_false 0 dy)) by lra. rewrite !andb_false_r. intros (t & Ht & Hm%Hmem). nra.
    - rewrite andb_false_r. rewrite (proj2 (Rleb_true oy (- hh))) by lra. rewrite (proj2 (Rltb_true 0 dy)) by lra. cbn [andb].
      apply (Hfirst (- hh) ((- hh - oy) / dy)); [lra|apply Hpos; lra|apply Hat| |done].
      intros s Hs Hy. pose proof (Hat (- hh)). assert (dy * s < dy * ((- hh - oy) / dy)) by nra. lra.
  Qed.
End cyl.

(** ** Where it fails: single-precision runs; coordinates are whole numbers, so the rays over
    the reals are the same rays. *)
Local Instance num32c : Num f32 := Num_float 24 128.
Local Instance sgn32c : NumSgn f32 := NumSgn_float 24 128.
Definition fray (a b c d e f : Z) : Ray (V3 f32) := mkRay (mk3 (F32 a 0) (F32 b 0) (F32 c 0)) (mk3 (F32 d 0) (F32 e 0) (F32 f 0)).
Definition rray (a b c d e f : Z) : Ray P3 := mkRay (mk3 (IZR a) (IZR b) (IZR c)) (mk3 (IZR d) (IZR e) (IZR f)).
Ltac onray t := exists t; split; [lra|]; unfold rray, along3, cylinder_inside, cylinder_set; cbn; lra.
(** Entering through the top cap from the side: [intersects] says yes, [intersection] None. *)
Theorem C47_top_entry_disagreement_refuted :
  cylinder_ray_test (F32 2 0) (F32 1 0) (fray (-2) 4 0 1 (-1) 0) = true /\
  (match cylinder_ray (F32 2 0) (F32 1 0) (fray (-2) 4 0 1 (-1) 0) with None => true | _ => false end) = true /\
  ray_meets (along3 (rray (-2) 4 0 1 (-1) 0)) (cylinder_inside 2 1).
Proof. split; [by vm_compute|]. split; [by vm_compute|]. onray (5/2). Qed.
(** Entering through the bottom cap, leaving through the round side: missed by both. *)
Theorem C47_bottom_entry_missed_refuted :
  cylinder_ray_test (F32 4 0) (F32 2 0) (fray (-4) (-7) 0 1 1 0) = false /\
  (match cylinder_ray (F32 4 0) (F32 2 0) (fray (-4) (-7) 0 1 1 0) with None => true | _ => false end) = true /\
  ray_meets (along3 (rray (-4) (-7) 0 1 1 0)) (cylinder_inside 4 2).
Proof. split; [by vm_compute|]. split; [by vm_compute|]. onray 4. Qed.
(** From below: the reported point is where the ray leaves (height 2), not where it enters
    (height -2). *)
Theorem C47_from_below_reports_exit_refuted :
  (match cylinder_ray (F32 2 0) (F32 1 0) (fray 0 (-3) 0 1 8 0) with Some p => neq (vy p) (F32 2 0) | None => false end) = true /\
  cylinder_set 2 1 (along3 (rray 0 (-3) 0 1 8 0) (1/8)) /\ vy (along3 (rray 0 (-3) 0 1 8 0) (1/8)) = -2.
Proof. split; [by vm_compute|]. unfold cylinder_set, along3; cbn. lra. Qed.
(** A vertical ray five units away from a cylinder of radius one is reported. *)
Theorem C47_axis_ray_ignores_radius_refuted :
  cylinder_ray_test (F32 2 0) (F32 1 0) (fray 5 5 0 0 (-1) 0) = true /\
  (match cylinder_ray (F32 2 0) (F32 1 0) (fray 5 5 0 0 (-1) 0) with Some p => neq (vx p) n0 | None => false end) = true /\
  ~ ray_meets (along3 (rray 5 5 0 0 (-1) 0)) (cylinder_set 2 1).
Proof.
  split; [by vm_compute|]. split; [by vm_compute|]. intros (t & _ & Hc & _). revert Hc. unfold along3, rray. cbn. lra.
Qed.
(** From inside, leaving through the bottom cap: missed. *)
Theorem C47_inside_missed_refuted :
  cylinder_ray_test (F32 2 0) (F32 1 0) (fray 0 0 0 1 (-8) 0) = false /\ cylinder_inside 2 1 (origin (rray 0 0 0 1 (-8) 0)).
Proof. split; [by vm_compute|]. unfold cylinder_inside, rray. cbn. lra. Qed.
(** The hypotheses are met: a slanted ray from above and from the side. *)
Definition xf (x : R) : xr := XFin false x.
Definition xray (q : Ray P3) : Ray (V3 xr) :=
  mkRay (mk3 (xf (vx (origin q))) (xf (vy (origin q))) (xf (vz (origin q)))) (mk3 (xf (vx (direction q))) (xf (vy (direction q))) (xf (vz (direction q)))).
Example C47_hypotheses_met : let q := rray (-4) 1 0 2 (-1) 0 in
  fin_ray3 (xray q) q /\ is_fin (xf 2) 2 /\ is_fin (xf 1) 1 /\ (vx (direction q) <> 0 \/ vz (direction q) <> 0) /\ vy (direction q) <= 0 /\
  ~ cylinder_inside 2 1 (origin q) /\ ray_meets (along3 q) (cylinder_inside 2 1) /\ ~ tube 1 (origin q) /\
  cylinder_ray_test (xf 2) (xf 1) (xray q) = true /\ is_Some (cylinder_ray (xf 2) (xf 1) (xray q)).
Proof.
  intros q. assert (Hr : fin_ray3 (xray q) q) by (split; [split|split]; repeat split; by eexists).
  assert (H2 : is_fin (xf 2) 2) by by eexists. assert (H1 : is_fin (xf 1) 1) by by eexists.
  assert (Hd : vx (direction q) <> 0 \/ vz (direction q) <> 0) by (left; cbn; lra).
  assert (Hni : ~ cylinder_inside 2 1 (origin q)) by (unfold cylinder_inside; cbn; lra).
  assert (Hm : ray_meets (along3 q) (cylinder_inside 2 1)) by onray 2.
  assert (Hnt : ~ tube 1 (origin q)) by (unfold tube; cbn; lra).
  split_and!; try done; [cbn; lra| |].
  - apply (C47_cylinder_test_complete (xray q) q (xf 2) (xf 1) 2 1); try done; cbn; lra.
  - pose proof (C47_cylinder_hit_from_side (xray q) q (xf 2) (xf 1) 2 1 Hr H2 H1 ltac:(lra) Hd Hnt) as Hh.
    destruct (cylinder_ray (xf 2) (xf 1) (xray q)); [eauto|]. exfalso.
    apply (Hh (along3 q (3/2))).
    + exists (3/2). split; [lra|]. split; [done|]. split; [unfold tube, along3; cbn; lra|]. intros s Hs. unfold tube, along3. cbn. nra.
    + unfold cylinder_set, along3. cbn. lra.
Qed.
