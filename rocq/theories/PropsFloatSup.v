(** C68: support points in IEEE floats of every format: which vertex is taken when products round,
    overflow or are NaN, and how far it can be from the best one. *)
From Coq Require Import Psatz.
From stdpp Require Import prelude.
From Flocq Require Import Core.Core Relative IEEE754.BinarySingleNaN.
From Coq Require Import Reals Lra.
From Verif Require Import Res Num Vec PrimModel FloatMono.
Local Open Scope R_scope.

(** ** Which vertex: every float, overflow and NaN included *)
Section order.
  Context (prec emax : Z) {Hprec : FLX.Prec_gt_0 prec} {Hemax : Prec_lt_emax prec emax}.
  Notation fl := (binary_float prec emax).
  Local Instance num_fs : Num fl := Num_float prec emax.
  Local Instance sgn_fs : NumSgn fl := NumSgn_float prec emax.
  Local Instance ord_fs : NumOrd fl := NumOrd_float prec emax.
  (** [x] counts: neither NaN nor minus infinity. *)
  Definition counts (x : fl) : Prop := is_nan x = false /\ x <> B754_infinity true.
  Lemma nabove_counts (x : fl) : nabove x = true <-> counts x.
  Proof.
    unfold nabove, counts. cbn [NumSgn_float sgn_fs]. change (Bltb ?a x) with (Flt prec emax a x). rewrite Flt_pos.
    destruct x as [s|[]| |s m e H]; cbn; split; intros; try tauto; try (split_and!; done); try (by destruct H as (? & ?)).
    all: try (destruct H0 as (? & ? & ?); split; done). naive_solver. 
  Qed.
  Context {V : Type} (f : V -> fl) (zero : V).
  (** Scanning a list: the first vertex with the largest computed product, among those that count. *)
  Lemma max_step_spec (vs : list V) :
    match foldl (max_step f) (zero, None) vs with
    | (p, None) => p = zero /\ Forall (fun v => ~ counts (f v)) vs
    | (p, Some m) => m = f p /\ counts m /\ Forall (fun w => is_nan (f w) = false -> nle (f w) m = true) vs
        /\ exists l1 l2, vs = l1 ++ p :: l2 /\ Forall (fun w => is_nan (f w) = false -> nlt (f w) m = true) l1
    end.
  Proof.
    induction vs as [|v vs IH] using rev_ind; cbn [foldl]; [done|]. rewrite foldl_app. cbn [foldl].
    destruct (foldl (max_step f) (zero, None) vs) as [p [m|]]; unfold max_step; cbn [fst snd].
    - destruct IH as (Em & Hm & Hall & l1 & l2 & -> & Hl1). destruct (nlt m (f v)) eqn:E.
      + assert (counts (f v)) as Hc.
        { split; [exact (proj2 (ord_lt_ok _ _ E))|]. intros Ev. rewrite Ev in E. apply Flt_pos in E as (_ & _ & E). apply E. cbn. done. }
        split_and!; try done.
        * apply Forall_app. split.
          -- eapply Forall_impl; [exact Hall|]. cbv beta. intros w Hw Nw. specialize (Hw Nw).
             eapply ord_trans; [exact Hw|]. eapply lt_le. exact E.
          -- constructor; [|done]. intros _. apply le_refl. apply Hc.
        * exists (l1 ++ p :: l2), []. split; [done|]. eapply Forall_impl; [exact Hall|]. cbv beta. intros w Hw Nw.
          eapply le_lt_trans; [by apply Hw|exact E].
      + split_and!; try done.
        * apply Forall_app. split; [done|]. constructor; [|done]. intros Nv.
          rewrite ord_lt in E; [|apply Hm|done]. by apply negb_false_iff in E.
        * exists l1, (l2 ++ [v]). split; [by rewrite <- app_assoc|done].
    - destruct IH as (-> & Hall). destruct (nabove (f v)) eqn:E.
      + apply nabove_counts in E. split_and!; try done.
        * apply Forall_app. split.
          -- eapply Forall_impl; [exact Hall|]. cbv beta. intros w Hw Nw. apply Fle_pos. split_and!; [done|apply E|].
             destruct (f w) as [|[]| |]; try done; exfalso; apply Hw; by split.
          -- constructor; [|done]. intros _. apply le_refl. apply E.
        * exists vs, []. split; [done|]. eapply Forall_impl; [exact Hall|]. cbv beta. intros w Hw Nw. apply Flt_pos. split_and!; [done|apply E|].
          assert (f w = B754_infinity true) as ->.
          { destruct (f w) as [|[]| |]; try done; exfalso; apply Hw; by split. }
          destruct E as [E1 E2]. destruct (f v) as [|[]| |]; try done; cbn; tauto.
      + split; [done|]. apply Forall_app. split; [done|]. constructor; [|done]. intros Hc. apply nabove_counts in Hc. congruence.
  Qed.
End order.

(** ** How good the vertex is: rounding errors of the products *)
Section error.
  Context (prec emax : Z) {Hprec : FLX.Prec_gt_0 prec} {Hemax : Prec_lt_emax prec emax}.
  Notation fl := (binary_float prec emax).
  Notation rnd := (rnd prec emax).
  Local Existing Instance num_fs.
  Local Existing Instance sgn_fs.
  Local Existing Instance ord_fs.
  (** Half a unit in the last place of 1, and half the smallest positive float. *)
  Definition u : R := / 2 * bpow radix2 (- prec + 1).
  Definition tiny : R := / 2 * bpow radix2 (SpecFloat.emin prec emax).
  (** Exact products, and the sums of the absolute values of their terms. *)
  Definition xdot2 (a b : V2 fl) : R := B2R (ux a) * B2R (ux b) + B2R (uy a) * B2R (uy b).
  Definition xdot3 (a b : V3 fl) : R := B2R (vx a) * B2R (vx b) + B2R (vy a) * B2R (vy b) + B2R (vz a) * B2R (vz b).
  Definition xabs2 (a b : V2 fl) : R := Rabs (B2R (ux a) * B2R (ux b)) + Rabs (B2R (uy a) * B2R (uy b)).
  Definition xabs3 (a b : V3 fl) : R := Rabs (B2R (vx a) * B2R (vx b)) + Rabs (B2R (vy a) * B2R (vy b)) + Rabs (B2R (vz a) * B2R (vz b)).
  Definition fin2 (a : V2 fl) : Prop := is_finite (ux a) = true /\ is_finite (uy a) = true.
  Definition fin3 (a : V3 fl) : Prop := is_finite (vx a) = true /\ is_finite (vy a) = true /\ is_finite (vz a) = true.
  (** The terms of the product are far from overflow. *)
  Definition big : R := bpow radix2 (emax - 3).
  Definition room2 (a b : V2 fl) : Prop := fin2 a /\ fin2 b /\ Rabs (B2R (ux a) * B2R (ux b)) <= big /\ Rabs (B2R (uy a) * B2R (uy b)) <= big.
  Definition room3 (a b : V3 fl) : Prop := fin3 a /\ fin3 b /\
    Rabs (B2R (vx a) * B2R (vx b)) <= big /\ Rabs (B2R (vy a) * B2R (vy b)) <= big /\ Rabs (B2R (vz a) * B2R (vz b)) <= big.

  Lemma u_pos : 0 < u. Proof. unfold u. pose proof (bpow_gt_0 radix2 (- prec + 1)). lra. Qed.
  Lemma tiny_pos : 0 < tiny. Proof. unfold tiny. pose proof (bpow_gt_0 radix2 (SpecFloat.emin prec emax)). lra. Qed.
  Lemma u_quarter : (2 <= prec)%Z -> u <= / 4.
  Proof.
    intros Hp. unfold u. pose proof (bpow_le radix2 (- prec + 1) (-1) ltac:(lia)) as Hb.
    change (bpow radix2 (-1)) with (/ 2) in Hb. lra.
  Qed.
  Lemma rnd_err x : Rabs (rnd x - x) <= u * Rabs x + tiny.
  Proof.
    destruct (error_N_FLT radix2 (SpecFloat.emin prec emax) prec Hprec (fun n => negb (Z.even n)) x) as (e & t & He & Ht & _ & E).
    unfold FloatMono.rnd, round_mode. change (SpecFloat.fexp prec emax) with (FLT_exp (SpecFloat.emin prec emax) prec).
    change ZnearestE with (Znearest (fun n => negb (Z.even n))). rewrite E.
    replace (x * (1 + e) + t - x) with (x * e + t) by ring.
    eapply Rle_trans; [apply Rabs_triang|]. rewrite Rabs_mult. fold u in He. fold tiny in Ht.
    pose proof (Rabs_pos x). nra.
  Qed.
  Lemma rnd_bound x (e : Z) : (SpecFloat.emin prec emax <= e)%Z -> Rabs x <= bpow radix2 e -> Rabs (rnd x) <= bpow radix2 e.
  Proof.
    intros He Hx. unfold FloatMono.rnd. apply abs_round_le_generic; try done.
    - apply fexp_correct. apply Hprec.
    - apply valid_rnd_round_mode.
    - apply generic_format_bpow. change (SpecFloat.fexp prec emax) with (FLT_exp (SpecFloat.emin prec emax) prec).
      unfold FLT_exp. pose proof Hprec as Hp. unfold Prec_gt_0 in Hp. lia.
  Qed.
  Lemma mul_fin (x y : fl) : is_finite x = true -> is_finite y = true -> Rabs (rnd (B2R x * B2R y)) < bpow radix2 emax ->
    is_finite (Bmult mode_NE x y) = true /\ B2R (Bmult mode_NE x y) = rnd (B2R x * B2R y).
  Proof.
    intros Fx Fy Hb. pose proof (Bmult_correct prec emax Hprec Hemax mode_NE x y) as Hc. unfold FloatMono.rnd in *.
    rewrite Rlt_bool_true in Hc by done. destruct Hc as (E & F & _). rewrite Fx, Fy in F. done.
  Qed.
  Lemma add_fin (x y : fl) : is_finite x = true -> is_finite y = true -> Rabs (rnd (B2R x + B2R y)) < bpow radix2 emax ->
    is_finite (Bplus mode_NE x y) = true /\ B2R (Bplus mode_NE x y) = rnd (B2R x + B2R y).
  Proof.
    intros Fx Fy Hb. pose proof (Bplus_correct prec emax Hprec Hemax mode_NE x y Fx Fy) as Hc. unfold FloatMono.rnd in *.
    rewrite Rlt_bool_true in Hc by done. destruct Hc as (E & F & _). done.
  Qed.
  Lemma emax3 : (2 <= prec)%Z -> (SpecFloat.emin prec emax <= emax - 3)%Z.
  Proof. intros Hp2. unfold SpecFloat.emin. pose proof Hprec as Hp. pose proof Hemax as He. unfold Prec_gt_0, Prec_lt_emax in *. lia. Qed.
  Lemma big_double (k : Z) : bpow radix2 k + bpow radix2 k = bpow radix2 (k + 1).
  Proof. rewrite bpow_plus. change (bpow radix2 1) with 2. lra. Qed.
  Lemma mul_room (x y : fl) : (2 <= prec)%Z -> is_finite x = true -> is_finite y = true -> Rabs (B2R x * B2R y) <= big ->
    is_finite (Bmult mode_NE x y) = true /\ Rabs (B2R (Bmult mode_NE x y)) <= big
    /\ Rabs (B2R (Bmult mode_NE x y) - B2R x * B2R y) <= u * Rabs (B2R x * B2R y) + tiny.
  Proof.
    intros Hp Fx Fy Hb. pose proof (rnd_bound _ (emax - 3) (emax3 Hp) Hb) as Hr.
    destruct (mul_fin x y Fx Fy) as [F E].
    { eapply Rle_lt_trans; [exact Hr|]. apply bpow_lt. lia. }
    rewrite E. split_and!; [done|done|apply rnd_err].
  Qed.
  Lemma add_room (x y : fl) (k : Z) : (2 <= prec)%Z -> (emax - 3 <= k < emax - 1)%Z -> is_finite x = true -> is_finite y = true ->
    Rabs (B2R x) <= bpow radix2 k -> Rabs (B2R y) <= bpow radix2 k ->
    is_finite (Bplus mode_NE x y) = true /\ Rabs (B2R (Bplus mode_NE x y)) <= bpow radix2 (k + 1)
    /\ Rabs (B2R (Bplus mode_NE x y) - (B2R x + B2R y)) <= u * Rabs (B2R x + B2R y) + tiny.
  Proof.
    intros Hp Hk Fx Fy Hx Hy.
    assert (Rabs (B2R x + B2R y) <= bpow radix2 (k + 1)) as Hs.
    { eapply Rle_trans; [apply Rabs_triang|]. rewrite <- big_double. lra. }
    pose proof (rnd_bound _ (k + 1) ltac:(pose proof (emax3 Hp); lia) Hs) as Hr.
    destruct (add_fin x y Fx Fy) as [F E].
    { eapply Rle_lt_trans; [exact Hr|]. apply bpow_lt. lia. }
    rewrite E. split_and!; [done|done|apply rnd_err].
  Qed.
  Lemma quarter (v a : R) : 0 <= a -> v <= / 4 -> v * a <= / 4 * a.
  Proof. intros. apply Rmult_le_compat_r; lra. Qed.
  Lemma dot2_room a b : (2 <= prec)%Z -> room2 a b ->
    is_finite (dot2 a b) = true /\ Rabs (B2R (dot2 a b) - xdot2 a b) <= 3 * u * xabs2 a b + 4 * tiny.
  Proof.
    intros Hp ((A1 & A2) & (B1 & B2) & H1 & H2).
    destruct (mul_room _ _ Hp A1 B1 H1) as (F1 & L1 & E1). destruct (mul_room _ _ Hp A2 B2 H2) as (F2 & L2 & E2).
    destruct (add_room _ _ (emax - 3) Hp ltac:(lia) F1 F2 L1 L2) as (F & _ & E).
    split; [exact F|]. unfold xdot2, xabs2. change (dot2 a b) with (Bplus mode_NE (Bmult mode_NE (ux a) (ux b)) (Bmult mode_NE (uy a) (uy b))).
    set (p := B2R (Bmult mode_NE (ux a) (ux b))) in *. set (q := B2R (Bmult mode_NE (uy a) (uy b))) in *.
    set (x := B2R (ux a) * B2R (ux b)) in *. set (y := B2R (uy a) * B2R (uy b)) in *. set (s := B2R (Bplus _ _ _)) in *.
    clearbody p q x y s. pose proof u_pos as U1. pose proof (u_quarter Hp) as U2. pose proof tiny_pos as U3.
    clear - E1 E2 E U1 U2 U3. revert E1 E2 E U1 U2 U3. generalize u, tiny. intros v t E1 E2 E Hv1 Hv2 Ht.
    assert (Rabs (s - (x + y)) <= Rabs (s - (p + q)) + Rabs (p - x) + Rabs (q - y)) as T1.
    { replace (s - (x + y)) with ((s - (p + q)) + (p - x) + (q - y)) by ring.
      eapply Rle_trans; [apply Rabs_triang|]. pose proof (Rabs_triang (s - (p + q)) (p - x)). lra. }
    assert (Rabs (p + q) <= Rabs x + Rabs y + Rabs (p - x) + Rabs (q - y)) as T2.
    { replace (p + q) with ((x + (p - x)) + (y + (q - y))) by ring.
      eapply Rle_trans; [apply Rabs_triang|]. pose proof (Rabs_triang x (p - x)). pose proof (Rabs_triang y (q - y)). lra. }
    set (X := Rabs x + Rabs y) in *. assert (0 <= X) by (unfold X; pose proof (Rabs_pos x); pose proof (Rabs_pos y); lra).
    assert (Rabs (p - x) + Rabs (q - y) <= v * X + 2 * t) as T3 by (unfold X; lra).
    assert (Rabs (p + q) <= (1 + v) * X + 2 * t) as T4 by lra.
    assert (v * Rabs (p + q) <= v * ((1 + v) * X + 2 * t)) as T5 by (apply Rmult_le_compat_l; lra).
    assert (0 <= v * X) as P1 by (apply Rmult_le_pos; lra). pose proof (quarter v _ P1 Hv2) as P2.
    assert (0 <= t) as P0 by lra. pose proof (quarter v _ P0 Hv2) as P3. lra.
  Qed.
  Lemma dot3_room a b : (2 <= prec)%Z -> room3 a b ->
    is_finite (dot3 a b) = true /\ Rabs (B2R (dot3 a b) - xdot3 a b) <= 4 * u * xabs3 a b + 7 * tiny.
  Proof.
    intros Hp ((A1 & A2 & A3) & (B1 & B2 & B3) & H1 & H2 & H3).
    destruct (mul_room _ _ Hp A1 B1 H1) as (F1 & L1 & E1). destruct (mul_room _ _ Hp A2 B2 H2) as (F2 & L2 & E2).
    destruct (mul_room _ _ Hp A3 B3 H3) as (F3 & L3 & E3).
    destruct (add_room _ _ (emax - 3) Hp ltac:(lia) F1 F2 L1 L2) as (F12 & L12 & E12).
    destruct (add_room _ _ (emax - 3 + 1) Hp ltac:(lia) F12 F3 L12) as (F & _ & E).
    { eapply Rle_trans; [exact L3|]. apply bpow_le. lia. }
    split; [exact F|]. unfold xdot3, xabs3.
    change (dot3 a b) with (Bplus mode_NE (Bplus mode_NE (Bmult mode_NE (vx a) (vx b)) (Bmult mode_NE (vy a) (vy b))) (Bmult mode_NE (vz a) (vz b))).
    set (p := B2R (Bmult mode_NE (vx a) (vx b))) in *. set (q := B2R (Bmult mode_NE (vy a) (vy b))) in *. set (r := B2R (Bmult mode_NE (vz a) (vz b))) in *.
    set (x := B2R (vx a) * B2R (vx b)) in *. set (y := B2R (vy a) * B2R (vy b)) in *. set (z := B2R (vz a) * B2R (vz b)) in *.
    set (s12 := B2R (Bplus mode_NE (Bmult mode_NE (vx a) (vx b)) (Bmult mode_NE (vy a) (vy b)))) in *.
    clearbody p q r x y z s12. set (s := B2R (Bplus _ _ _)) in *. clearbody s. pose proof u_pos as U1. pose proof (u_quarter Hp) as U2. pose proof tiny_pos as U3.
    clear - E1 E2 E3 E12 E U1 U2 U3. revert E1 E2 E3 E12 E U1 U2 U3. generalize u, tiny. intros v t E1 E2 E3 E12 E Hv1 Hv2 Ht.
    assert (Rabs (s12 - (x + y)) <= Rabs (s12 - (p + q)) + Rabs (p - x) + Rabs (q - y)) as T1.
    { replace (s12 - (x + y)) with ((s12 - (p + q)) + (p - x) + (q - y)) by ring.
      eapply Rle_trans; [apply Rabs_triang|]. pose proof (Rabs_triang (s12 - (p + q)) (p - x)). lra. }
    assert (Rabs (p + q) <= Rabs x + Rabs y + Rabs (p - x) + Rabs (q - y)) as T2.
    { replace (p + q) with ((x + (p - x)) + (y + (q - y))) by ring.
      eapply Rle_trans; [apply Rabs_triang|]. pose proof (Rabs_triang x (p - x)). pose proof (Rabs_triang y (q - y)). lra. }
    assert (Rabs (s - (x + y + z)) <= Rabs (s - (s12 + r)) + Rabs (s12 - (x + y)) + Rabs (r - z)) as T6.
    { replace (s - (x + y + z)) with ((s - (s12 + r)) + (s12 - (x + y)) + (r - z)) by ring.
      eapply Rle_trans; [apply Rabs_triang|]. pose proof (Rabs_triang (s - (s12 + r)) (s12 - (x + y))). lra. }
    assert (Rabs (s12 + r) <= (Rabs x + Rabs y) + Rabs z + Rabs (s12 - (x + y)) + Rabs (r - z)) as T7.
    { replace (s12 + r) with ((x + y + (s12 - (x + y))) + (z + (r - z))) by ring.
      eapply Rle_trans; [apply Rabs_triang|]. pose proof (Rabs_triang (x + y) (s12 - (x + y))). pose proof (Rabs_triang z (r - z)). pose proof (Rabs_triang x y). lra. }
    set (X := Rabs x + Rabs y) in *. assert (0 <= X) by (unfold X; pose proof (Rabs_pos x); pose proof (Rabs_pos y); lra).
    set (Z := Rabs z) in *. assert (0 <= Z) by apply Rabs_pos.
    assert (Rabs (p - x) + Rabs (q - y) <= v * X + 2 * t) as T3 by (unfold X; lra).
    assert (v * Rabs (p + q) <= v * ((1 + v) * X + 2 * t)) as T5 by (apply Rmult_le_compat_l; lra).
    assert (0 <= v * X) as P1 by (apply Rmult_le_pos; lra). pose proof (quarter v _ P1 Hv2) as P2.
    assert (0 <= v * Z) as P3 by (apply Rmult_le_pos; lra). pose proof (quarter v _ P3 Hv2) as P4.
    assert (0 <= t) as P0 by lra. pose proof (quarter v _ P0 Hv2) as P5.
    assert (0 <= v * t) as P6 by (apply Rmult_le_pos; lra). pose proof (quarter v _ P6 Hv2) as P7.
    assert (0 <= v * (v * X)) as P8 by (apply Rmult_le_pos; lra). pose proof (quarter v _ P8 Hv2) as P9.
    assert (Rabs (s12 - (x + y)) <= (2 * v + v * v) * X + (3 + 2 * v) * t) as T8 by lra.
    assert (v * Rabs (s12 + r) <= v * (X + Z + ((2 * v + v * v) * X + (3 + 2 * v) * t) + (v * Z + t))) as T9 by (apply Rmult_le_compat_l; lra).
    lra.
  Qed.
End error.

(** ** Claims *)
Section claims.
  Context (prec emax : Z) {Hprec : FLX.Prec_gt_0 prec} {Hemax : Prec_lt_emax prec emax}.
  Notation fl := (binary_float prec emax).
  Local Existing Instance num_fs.
  Local Existing Instance sgn_fs.
  Local Existing Instance ord_fs.
  (** The vertex taken: the first one with the largest computed product, whatever the floats; the local origin
      when every product is NaN or minus infinity. *)
  Theorem C68_vertex {V : Type} (dot : V -> V -> fl) (zero : V) (vs : list V) (d d' : V) (T : Xf V) : xf_ivec T d = Some d' ->
    (exists l1 v l2, vs = l1 ++ v :: l2 /\ get_max_point dot zero vs d T = Ok (xf_pt T v) /\ counts prec emax (dot v d')
      /\ (forall w, w ∈ vs -> is_nan (dot w d') = false -> Fle prec emax (dot w d') (dot v d') = true)
      /\ (forall w, w ∈ l1 -> is_nan (dot w d') = false -> Flt prec emax (dot w d') (dot v d') = true))
    \/ ((forall w, w ∈ vs -> ~ counts prec emax (dot w d')) /\ get_max_point dot zero vs d T = Ok (xf_pt T zero)).
  Proof.
    intros E. unfold get_max_point, max_point. rewrite E. pose proof (max_step_spec prec emax (fun v => dot v d') zero vs) as Hs.
    destruct (foldl _ _ _) as [p [m|]]; cbn [fst].
    - left. destruct Hs as (-> & Hc & Hall & l1 & l2 & -> & Hl1). exists l1, p, l2. split_and!; try done.
      + intros w Hw. by apply (proj1 (Forall_forall _ _) Hall).
      + intros w Hw. by apply (proj1 (Forall_forall _ _) Hl1).
    - right. destruct Hs as (-> & Hall). split; [|done]. by apply Forall_forall.
  Qed.
  Lemma fin_counts (x : fl) : is_finite x = true -> counts prec emax x.
  Proof. by destruct x. Qed.
  Lemma best_real (x y : fl) : is_finite x = true -> is_finite y = true -> Fle prec emax x y = true -> B2R x <= B2R y.
  Proof. intros Fx Fy Hl. apply Fle_pos in Hl as (_ & _ & Hp). by destruct x, y. Qed.
  Lemma fin_nan (x : fl) : is_finite x = true -> is_nan x = false.
  Proof. by destruct x. Qed.
  (** How far from the best vertex: rounding only. *)
  Theorem C68_points2 (vs : list (V2 fl)) (d d' : V2 fl) (T : Xf (V2 fl)) : (2 <= prec)%Z -> vs <> [] ->
    xf_ivec T d = Some d' -> (forall w, w ∈ vs -> room2 prec emax w d') ->
    exists v, v ∈ vs /\ get_max_point dot2 zero2 vs d T = Ok (xf_pt T v)
      /\ forall w, w ∈ vs -> xdot2 prec emax w d' <= xdot2 prec emax v d' + 3 * u prec * (xabs2 prec emax v d' + xabs2 prec emax w d') + 8 * tiny prec emax.
  Proof.
    intros Hp Hne E Hr. destruct (C68_vertex dot2 zero2 vs d d' T E) as [(l1 & v & l2 & Ev & -> & Hc & Hb & _)|[Hn _]].
    - assert (v ∈ vs) as Hv by (rewrite Ev; set_solver). exists v. split_and!; try done. intros w Hw.
      destruct (dot2_room prec emax _ _ Hp (Hr w Hw)) as [Fw Ew]. destruct (dot2_room prec emax _ _ Hp (Hr v Hv)) as [Fv Evv].
      pose proof (best_real _ _ Fw Fv (Hb w Hw (fin_nan _ Fw))) as Hl. apply Rabs_le_inv in Ew, Evv. lra.
    - destruct vs as [|w vs]; [done|]. destruct (Hn w); [set_solver|]. apply fin_counts.
      by destruct (dot2_room prec emax _ _ Hp (Hr w ltac:(set_solver))).
  Qed.
  Theorem C68_points3 (vs : list (V3 fl)) (d d' : V3 fl) (T : Xf (V3 fl)) : (2 <= prec)%Z -> vs <> [] ->
    xf_ivec T d = Some d' -> (forall w, w ∈ vs -> room3 prec emax w d') ->
    exists v, v ∈ vs /\ get_max_point dot3 zero3 vs d T = Ok (xf_pt T v)
      /\ forall w, w ∈ vs -> xdot3 prec emax w d' <= xdot3 prec emax v d' + 4 * u prec * (xabs3 prec emax v d' + xabs3 prec emax w d') + 14 * tiny prec emax.
  Proof.
    intros Hp Hne E Hr. destruct (C68_vertex dot3 zero3 vs d d' T E) as [(l1 & v & l2 & Ev & -> & Hc & Hb & _)|[Hn _]].
    - assert (v ∈ vs) as Hv by (rewrite Ev; set_solver). exists v. split_and!; try done. intros w Hw.
      destruct (dot3_room prec emax _ _ Hp (Hr w Hw)) as [Fw Ew]. destruct (dot3_room prec emax _ _ Hp (Hr v Hv)) as [Fv Evv].
      pose proof (best_real _ _ Fw Fv (Hb w Hw (fin_nan _ Fw))) as Hl. apply Rabs_le_inv in Ew, Evv. lra.
    - destruct vs as [|w vs]; [done|]. destruct (Hn w); [set_solver|]. apply fin_counts.
      by destruct (dot3_room prec emax _ _ Hp (Hr w ltac:(set_solver))).
  Qed.
  (** Boxes: the corner returned against every real point of the box of the half sizes the shape stores. *)
  Definition qual2 (v d' : V2 fl) (h : V2 fl) : Prop :=
    Rabs (B2R (ux v)) = Rabs (B2R (ux h)) /\ Rabs (B2R (uy v)) = Rabs (B2R (uy h))
    /\ forall q1 q2 : R, Rabs q1 <= Rabs (B2R (ux h)) -> Rabs q2 <= Rabs (B2R (uy h)) ->
      q1 * B2R (ux d') + q2 * B2R (uy d') <= xdot2 prec emax v d' + 6 * u prec * xabs2 prec emax h d' + 8 * tiny prec emax.
  Definition qual3 (v d' : V3 fl) (h : V3 fl) : Prop :=
    Rabs (B2R (vx v)) = Rabs (B2R (vx h)) /\ Rabs (B2R (vy v)) = Rabs (B2R (vy h)) /\ Rabs (B2R (vz v)) = Rabs (B2R (vz h))
    /\ forall q1 q2 q3 : R, Rabs q1 <= Rabs (B2R (vx h)) -> Rabs q2 <= Rabs (B2R (vy h)) -> Rabs q3 <= Rabs (B2R (vz h)) ->
      q1 * B2R (vx d') + q2 * B2R (vy d') + q3 * B2R (vz d') <= xdot3 prec emax v d' + 8 * u prec * xabs3 prec emax h d' + 14 * tiny prec emax.
  Definition pick (x a : fl) : fl := if Rle_dec 0 (B2R x * B2R a) then x else Bopp x.
  Lemma pick_best x a q : Rabs q <= Rabs (B2R x) -> q * B2R a <= B2R (pick x a) * B2R a.
  Proof.
    intros Hq. eapply Rle_trans; [apply Rle_abs|]. rewrite Rabs_mult. apply Rle_trans with (Rabs (B2R x) * Rabs (B2R a)).
    { apply Rmult_le_compat_r; [apply Rabs_pos|done]. }
    unfold pick. rewrite <- Rabs_mult. destruct (Rle_dec 0 (B2R x * B2R a)) as [Hp|Hp].
    - rewrite Rabs_pos_eq; lra.
    - rewrite B2R_Bopp, Rabs_left; lra.
  Qed.
  Lemma opp_abs (x : fl) : Rabs (B2R (Bopp x)) = Rabs (B2R x).
  Proof. by rewrite B2R_Bopp, Rabs_Ropp. Qed.
  Lemma opp_fin (x : fl) : is_finite x = true -> is_finite (Bopp x) = true.
  Proof. by rewrite is_finite_Bopp. Qed.
  Lemma rect_in (h w : V2 fl) : w ∈ rect_corners h <-> (ux w = ux h \/ ux w = Bopp (ux h)) /\ (uy w = uy h \/ uy w = Bopp (uy h)).
  Proof.
    destruct h as [h1 h2], w as [w1 w2]. unfold rect_corners. cbn. rewrite !elem_of_cons, elem_of_nil. split.
    - intros [Ew|[Ew|[Ew|[Ew|[]]]]]; injection Ew as -> ->; tauto.
    - intros [[-> | ->] [-> | ->]]; tauto.
  Qed.
  Lemma cuboid_in (h w : V3 fl) : w ∈ cuboid_corners h <->
    (vx w = vx h \/ vx w = Bopp (vx h)) /\ (vy w = vy h \/ vy w = Bopp (vy h)) /\ (vz w = vz h \/ vz w = Bopp (vz h)).
  Proof.
    destruct h as [h1 h2 h3], w as [w1 w2 w3]. unfold cuboid_corners. cbn. rewrite !elem_of_cons, elem_of_nil. split.
    - intros [Ew|[Ew|[Ew|[Ew|[Ew|[Ew|[Ew|[Ew|[]]]]]]]]]; injection Ew as -> -> ->; tauto.
    - intros ([-> | ->] & [-> | ->] & [-> | ->]); tauto.
  Qed.
  Lemma room2_abs (h w d' : V2 fl) : w ∈ rect_corners h -> room2 prec emax h d' ->
    room2 prec emax w d' /\ xabs2 prec emax w d' = xabs2 prec emax h d' /\ Rabs (B2R (ux w)) = Rabs (B2R (ux h)) /\ Rabs (B2R (uy w)) = Rabs (B2R (uy h)).
  Proof.
    intros Hw ((A1 & A2) & (B1 & B2) & H1 & H2). apply rect_in in Hw as [W1 W2]. unfold room2, xabs2, fin2. rewrite !Rabs_mult in *.
    assert (Rabs (B2R (ux w)) = Rabs (B2R (ux h)) /\ is_finite (ux w) = true) as [-> ->]
      by (destruct W1 as [-> | ->]; rewrite ?opp_abs, ?is_finite_Bopp; done).
    assert (Rabs (B2R (uy w)) = Rabs (B2R (uy h)) /\ is_finite (uy w) = true) as [-> ->]
      by (destruct W2 as [-> | ->]; rewrite ?opp_abs, ?is_finite_Bopp; done).
    split_and!; done.
  Qed.
  Lemma room3_abs (h w d' : V3 fl) : w ∈ cuboid_corners h -> room3 prec emax h d' ->
    room3 prec emax w d' /\ xabs3 prec emax w d' = xabs3 prec emax h d' /\ Rabs (B2R (vx w)) = Rabs (B2R (vx h))
    /\ Rabs (B2R (vy w)) = Rabs (B2R (vy h)) /\ Rabs (B2R (vz w)) = Rabs (B2R (vz h)).
  Proof.
    intros Hw ((A1 & A2 & A3) & (B1 & B2 & B3) & H1 & H2 & H3). apply cuboid_in in Hw as (W1 & W2 & W3). unfold room3, xabs3, fin3. rewrite !Rabs_mult in *.
    assert (Rabs (B2R (vx w)) = Rabs (B2R (vx h)) /\ is_finite (vx w) = true) as [-> ->]
      by (destruct W1 as [-> | ->]; rewrite ?opp_abs, ?is_finite_Bopp; done).
    assert (Rabs (B2R (vy w)) = Rabs (B2R (vy h)) /\ is_finite (vy w) = true) as [-> ->]
      by (destruct W2 as [-> | ->]; rewrite ?opp_abs, ?is_finite_Bopp; done).
    assert (Rabs (B2R (vz w)) = Rabs (B2R (vz h)) /\ is_finite (vz w) = true) as [-> ->]
      by (destruct W3 as [-> | ->]; rewrite ?opp_abs, ?is_finite_Bopp; done).
    split_and!; done.
  Qed.
  Theorem C68_box2 (dim d d' : V2 fl) (T : Xf (V2 fl)) : (2 <= prec)%Z -> xf_ivec T d = Some d' -> room2 prec emax (quad_half dim) d' ->
    exists v, rect_support dim d T = Ok (xf_pt T v) /\ qual2 v d' (quad_half dim).
  Proof.
    intros Hp E Hr. unfold rect_support. set (h := quad_half dim) in *. clearbody h.
    destruct (C68_points2 (rect_corners h) d d' T Hp ltac:(done) E) as (v & Hv & Ev & Hb).
    { intros w Hw. by destruct (room2_abs h w d' Hw Hr). }
    exists v. split; [done|]. destruct (room2_abs h v d' Hv Hr) as (_ & Av & A1 & A2). split_and!; try done.
    intros q1 q2 Q1 Q2. set (w := mk2 (pick (ux h) (ux d')) (pick (uy h) (uy d'))).
    assert (w ∈ rect_corners h) as Hw by (apply rect_in; unfold w, pick; cbn; repeat destruct (Rle_dec _ _); auto).
    specialize (Hb w Hw). destruct (room2_abs h w d' Hw Hr) as (_ & Aw & _). rewrite Av, Aw in Hb.
    assert (q1 * B2R (ux d') + q2 * B2R (uy d') <= xdot2 prec emax w d').
    { unfold xdot2, w. cbn [ux uy]. pose proof (pick_best (ux h) (ux d') q1 Q1). pose proof (pick_best (uy h) (uy d') q2 Q2). lra. }
    lra.
  Qed.
  Theorem C68_box3 (dim d d' : V3 fl) (T : Xf (V3 fl)) : (2 <= prec)%Z -> xf_ivec T d = Some d' -> room3 prec emax (cuboid_half dim) d' ->
    exists v, cuboid_support dim d T = Ok (xf_pt T v) /\ qual3 v d' (cuboid_half dim).
  Proof.
    intros Hp E Hr. unfold cuboid_support. set (h := cuboid_half dim) in *. clearbody h.
    destruct (C68_points3 (cuboid_corners h) d d' T Hp ltac:(done) E) as (v & Hv & Ev & Hb).
    { intros w Hw. by destruct (room3_abs h w d' Hw Hr). }
    exists v. split; [done|]. destruct (room3_abs h v d' Hv Hr) as (_ & Av & A1 & A2 & A3). split_and!; try done.
    intros q1 q2 q3 Q1 Q2 Q3. set (w := mk3 (pick (vx h) (vx d')) (pick (vy h) (vy d')) (pick (vz h) (vz d'))).
    assert (w ∈ cuboid_corners h) as Hw by (apply cuboid_in; unfold w, pick; cbn; repeat destruct (Rle_dec _ _); auto).
    specialize (Hb w Hw). destruct (room3_abs h w d' Hw Hr) as (_ & Aw & _). rewrite Av, Aw in Hb.
    assert (q1 * B2R (vx d') + q2 * B2R (vy d') + q3 * B2R (vz d') <= xdot3 prec emax w d').
    { unfold xdot3, w. cbn [vx vy vz]. pose proof (pick_best (vx h) (vx d') q1 Q1). pose proof (pick_best (vy h) (vy d') q2 Q2). pose proof (pick_best (vz h) (vz d') q3 Q3). lra. }
    lra.
  Qed.
  (** The cap a cylinder or a capsule takes is decided by the sign bit of the local direction, zeros and infinities included. *)
  Theorem C68_cap (hh r : fl) (d d' : V3 fl) (T : Xf (V3 fl)) : xf_ivec T d = Some d' ->
    (exists p, cylinder_support hh r d T = Ok (xf_pt T p) /\ vy p = if Bsign (vy d') then Bopp hh else hh)
    /\ (is_nan (vy d') = false ->
        exists p, capsule_support hh r d T = Ok (xf_pt T p)
        /\ vy p = Bplus mode_NE (Bmult mode_NE (if Bsign (vy d') then Bopp (Bone (prec := prec) (emax := emax)) else Bone) hh) (vy (normalize_to3 d' r))).
  Proof.
    intros E. split.
    - unfold cylinder_support. rewrite E. eexists. split; [reflexivity|]. reflexivity.
    - intros Nn. unfold capsule_support. rewrite E. eexists. split; [reflexivity|]. unfold signum.
      change (neq (vy d') (vy d')) with (Feq prec emax (vy d') (vy d')).
      assert (Feq prec emax (vy d') (vy d') = true) as ->.
      { pose proof (le_refl (vy d') Nn) as Hl. change (nle (vy d') (vy d')) with (Fle prec emax (vy d') (vy d')) in Hl.
        unfold Feq, Fle in *. unfold Beqb, Bleb, SpecFloat.SFeqb, SpecFloat.SFleb in *. 
        destruct (vy d') as [[]|[]| |[] m e Hb]; try done; cbn in *; rewrite Z.compare_refl, Pos.compare_cont_refl; done. }
      cbn [negb]. unfold nsignneg, sgn_fs, NumSgn_float. destruct (Bsign (vy d')); reflexivity.
  Qed.
  (** Discs and spheres: when the computed squared length of the local direction is zero, no coordinate of the point is a number
      (a zero direction, or one too short); when it overflows, the point is the centre. *)
  Lemma div_zero (r z : fl) : is_finite_strict r = true -> B2R z = 0 -> is_finite z = true -> exists s, Bdiv mode_NE r z = B754_infinity s.
  Proof.
    intros Hr Hz Fz. destruct z as [s| | |s m e Hb]; [|done|done|].
    - destruct r; try done. by eexists.
    - exfalso. cbn in Hz. destruct s; [apply eq_0_F2R in Hz|apply eq_0_F2R in Hz]; done.
  Qed.
  Lemma mul_inf (x : fl) s : is_finite (Bmult mode_NE x (B754_infinity s)) = false.
  Proof. by destruct x. Qed.
  Lemma sqrt_zero (x : fl) : B2R x = 0 -> is_finite x = true -> B2R (Bsqrt mode_NE x) = 0 /\ is_finite (Bsqrt mode_NE x) = true.
  Proof.
    intros Hx Fx. destruct x as [s| | |s m e Hb]; [done|done|done|]. exfalso. cbn in Hx. destruct s; [apply eq_0_F2R in Hx|apply eq_0_F2R in Hx]; done.
  Qed.
  Theorem C68_disc_short (r : fl) : is_finite_strict r = true ->
    (forall d d' T, xf_ivec T d = Some d' -> is_finite (mag2_2 d') = true -> B2R (mag2_2 d') = 0 ->
      exists p, circle_support r d T = Ok (xf_pt T p) /\ is_finite (ux p) = false /\ is_finite (uy p) = false)
    /\ (forall d d' T, xf_ivec T d = Some d' -> is_finite (mag2_3 d') = true -> B2R (mag2_3 d') = 0 ->
      exists p, sphere_support r d T = Ok (xf_pt T p) /\ is_finite (vx p) = false /\ is_finite (vy p) = false /\ is_finite (vz p) = false).
  Proof.
    intros Hr. split; intros d d' T E F0 E0.
    - unfold circle_support. rewrite E. eexists. split; [reflexivity|].
      destruct (sqrt_zero _ E0 F0) as [E1 F1]. destruct (div_zero _ _ Hr E1 F1) as [s Es].
      unfold normalize_to2, scale2, mag2. cbn [ux uy]. change (ndiv r (nsqrt (mag2_2 d'))) with (Bdiv mode_NE r (Bsqrt mode_NE (mag2_2 d'))).
      rewrite Es. split; apply mul_inf.
    - unfold sphere_support. rewrite E. eexists. split; [reflexivity|].
      destruct (sqrt_zero _ E0 F0) as [E1 F1]. destruct (div_zero _ _ Hr E1 F1) as [s Es].
      unfold normalize_to3, scale3, mag3. cbn [vx vy vz]. change (ndiv r (nsqrt (mag2_3 d'))) with (Bdiv mode_NE r (Bsqrt mode_NE (mag2_3 d'))).
      rewrite Es. split_and!; apply mul_inf.
  Qed.
  Theorem C68_disc_long (r : fl) : is_finite r = true ->
    (forall d d' T, xf_ivec T d = Some d' -> fin2 prec emax d' -> mag2_2 d' = B754_infinity false ->
      exists p, circle_support r d T = Ok (xf_pt T p) /\ fin2 prec emax p /\ B2R (ux p) = 0 /\ B2R (uy p) = 0)
    /\ (forall d d' T, xf_ivec T d = Some d' -> fin3 prec emax d' -> mag2_3 d' = B754_infinity false ->
      exists p, sphere_support r d T = Ok (xf_pt T p) /\ fin3 prec emax p /\ B2R (vx p) = 0 /\ B2R (vy p) = 0 /\ B2R (vz p) = 0).
  Proof.
    intros Hr. assert (exists s, Bdiv mode_NE r (B754_infinity false : fl) = B754_zero s) as [s Es] by (destruct r; try done; by eexists).
    assert (Hm : forall x : fl, is_finite x = true -> is_finite (Bmult mode_NE x (B754_zero s)) = true /\ B2R (Bmult mode_NE x (B754_zero s : fl)) = 0)
      by (intros x; by destruct x).
    split; intros d d' T E Fd E0.
    - unfold circle_support. rewrite E. eexists. split; [reflexivity|].
      unfold normalize_to2, scale2, mag2, fin2. cbn [ux uy]. rewrite E0. change (ndiv r (nsqrt (B754_infinity false : fl))) with (Bdiv mode_NE r (B754_infinity false : fl)).
      rewrite Es. destruct Fd as [A B]. destruct (Hm _ A), (Hm _ B). split_and!; done.
    - unfold sphere_support. rewrite E. eexists. split; [reflexivity|].
      unfold normalize_to3, scale3, mag3, fin3. cbn [vx vy vz]. rewrite E0. change (ndiv r (nsqrt (B754_infinity false : fl))) with (Bdiv mode_NE r (B754_infinity false : fl)).
      rewrite Es. destruct Fd as (A & B & C). destruct (Hm _ A), (Hm _ B), (Hm _ C). split_and!; done.
  Qed.
  (** Discs and spheres with a direction of ordinary length. *)
  Lemma sqrt_room (s : fl) (D : R) : is_finite s = true -> 0 < D -> u prec <= / 16 -> Rabs (B2R s - D) <= 5 * u prec * D -> 2 * tiny prec emax <= u prec * sqrt D ->
    is_finite (Bsqrt mode_NE s) = true /\ Rabs (B2R (Bsqrt mode_NE s) - sqrt D) <= 7 * u prec * sqrt D.
  Proof.
    intros Fs HD Hu Hs Ht. pose proof (u_pos prec) as Hu0. assert (0 < B2R s) as Hp.
    { apply Rabs_le_inv in Hs. assert (5 * u prec * D <= 5 * / 16 * D) by (apply Rmult_le_compat_r; lra). lra. }
    destruct (Bsqrt_correct prec emax Hprec Hemax mode_NE s) as (E & F & _). split.
    { rewrite F. destruct s as [| | |[] m e Hb]; try done. cbn in Hp. exfalso.
      assert (F2R (Float radix2 (Z.neg m) e) < 0) as Hneg by (apply F2R_lt_0; done). exact (Rlt_asym _ _ Hp Hneg). }
    rewrite E. clear E F. pose proof (rnd_err prec emax (sqrt (B2R s))) as He. unfold FloatMono.rnd in He. rewrite (Rabs_pos_eq (sqrt _)) in He by apply sqrt_pos.
    set (m := round _ _ _ _) in *. clearbody m. assert (0 < sqrt D) as HL by by apply sqrt_lt_R0. pose proof (sqrt_sqrt D ltac:(lra)) as HLL. pose proof (sqrt_sqrt (B2R s) ltac:(lra)) as Hqq.
    pose proof (sqrt_pos (B2R s)) as Hq0. set (q := sqrt (B2R s)) in *. set (L := sqrt D) in *. rewrite <- Hqq in Hs. rewrite <- HLL in Hs at 2.
    clearbody q L. rewrite <- HLL in Hs. clear - He Hs Hq0 HL Ht Hu Hu0. revert He Hs Ht Hu Hu0. generalize (u prec), (tiny prec emax). intros v t He Hs Ht Hu Hu0.
    assert (Rabs (q - L) <= 5 * v * L) as Hd.
    { assert (Rabs (q - L) * (q + L) <= 5 * v * L * L) as H1.
      { rewrite <- (Rabs_pos_eq (q + L)) at 1 by lra. rewrite <- Rabs_mult. replace ((q - L) * (q + L)) with (q * q - L * L) by ring. lra. }
      assert (Rabs (q - L) * L <= Rabs (q - L) * (q + L)) as H2 by (apply Rmult_le_compat_l; [apply Rabs_pos|lra]).
      apply Rmult_le_reg_r with L; lra. }
    assert (0 <= v * L) as P by (apply Rmult_le_pos; lra). assert (v * (v * L) <= / 16 * (v * L)) as P2 by (apply Rmult_le_compat_r; lra).
    assert (v * q <= v * (L + 5 * v * L)) as P3 by (apply Rmult_le_compat_l; [lra|]; apply Rabs_le_inv in Hd; lra).
    replace (m - L) with ((m - q) + (q - L)) by ring. eapply Rle_trans; [apply Rabs_triang|]. lra.
  Qed.
  Lemma div_room (r m : fl) (L : R) : is_finite r = true -> is_finite m = true -> 0 <= B2R r -> 0 < L -> u prec <= / 16 -> (2 <= prec)%Z ->
    Rabs (B2R m - L) <= 7 * u prec * L -> 2 * (B2R r / L) <= big emax ->
    is_finite (Bdiv mode_NE r m) = true /\ Rabs (B2R (Bdiv mode_NE r m) - B2R r / L) <= 15 * u prec * (B2R r / L) + tiny prec emax.
  Proof.
    intros Fr Fm Hr HL Hu Hp Hm Hb. pose proof (u_pos prec) as Hu0. set (x := B2R r) in *. set (y := B2R m) in *.
    assert (9 / 16 * L <= y) as Hy.
    { apply Rabs_le_inv in Hm. assert (7 * u prec * L <= 7 * / 16 * L) by (apply Rmult_le_compat_r; lra). lra. }
    assert (0 < y) as Hy0 by lra. assert (0 <= x / L) as Hq by (apply Rmult_le_pos; [done|]; apply Rlt_le; by apply Rinv_0_lt_compat).
    assert (x / y <= 16 / 9 * (x / L)) as Hxy.
    { replace (16 / 9 * (x / L)) with (x * / (9 / 16 * L)) by (field; lra). apply Rmult_le_compat_l; [done|]. apply Rinv_le; lra. }
    assert (0 <= x / y) as Hxy0 by (apply Rmult_le_pos; [done|]; apply Rlt_le; by apply Rinv_0_lt_compat).
    pose proof (Bdiv_correct prec emax Hprec Hemax mode_NE r m ltac:(fold y; lra)) as Hc. fold x y in Hc.
    assert (Rabs (rnd prec emax (x / y)) <= big emax) as Hbig by (apply (rnd_bound prec emax _ (emax - 3)); [exact (emax3 prec emax Hp)|]; rewrite Rabs_pos_eq by done; fold (big emax); lra).
    unfold FloatMono.rnd in Hbig. rewrite Rlt_bool_true in Hc.
    2:{ eapply Rle_lt_trans; [exact Hbig|]. apply bpow_lt. lia. }
    destruct Hc as (E & F & _). split; [by rewrite F|]. rewrite E. pose proof (rnd_err prec emax (x / y)) as He. unfold FloatMono.rnd in He.
    rewrite (Rabs_pos_eq (x / y)) in He by done. set (k := round _ _ _ _) in *. clearbody k.
    assert (Rabs (x / y - x / L) <= 7 * u prec * (x / y)) as Hd.
    { replace (x / y - x / L) with ((x / y) * / L * (L - y)) by (field; lra). rewrite !Rabs_mult, (Rabs_pos_eq (x / y)) by done.
      rewrite (Rabs_pos_eq (/ L)) by (apply Rlt_le; by apply Rinv_0_lt_compat). rewrite Rabs_minus_sym.
      replace (7 * u prec * (x / y)) with (x / y * / L * (7 * u prec * L)) by (field; lra). apply Rmult_le_compat_l; [|done].
      apply Rmult_le_pos; [done|]. apply Rlt_le. by apply Rinv_0_lt_compat. }
    assert (u prec * (x / y) <= u prec * (16 / 9 * (x / L))) as P1 by (apply Rmult_le_compat_l; lra).
    assert (0 <= u prec * (x / L)) as P2 by (apply Rmult_le_pos; lra).
    replace (k - x / L) with ((k - x / y) + (x / y - x / L)) by ring. eapply Rle_trans; [apply Rabs_triang|]. lra.
  Qed.
  Lemma coord_room (x k : fl) (a L : R) : is_finite x = true -> is_finite k = true -> 0 <= a -> 0 < L -> u prec <= / 16 -> (2 <= prec)%Z ->
    Rabs (B2R x) <= L -> Rabs (B2R k - a / L) <= 15 * u prec * (a / L) + tiny prec emax -> 2 * a + tiny prec emax * L <= big emax ->
    is_finite (Bmult mode_NE x k) = true
    /\ Rabs (B2R (Bmult mode_NE x k) - a * (B2R x / L)) <= 17 * u prec * a + tiny prec emax * (2 * L + 1).
  Proof.
    intros Fx Fk Ha HL Hu Hp Hx Hk Hb. pose proof (u_pos prec) as Hu0. pose proof (tiny_pos prec emax) as Ht0.
    assert (0 <= a / L) as Hq by (apply Rmult_le_pos; [done|]; apply Rlt_le; by apply Rinv_0_lt_compat).
    assert (a / L * L = a) as HaL by (field; lra).
    assert (Rabs (B2R x * (B2R k - a / L)) <= 15 * u prec * a + tiny prec emax * L) as H1.
    { rewrite Rabs_mult. eapply Rle_trans; [apply Rmult_le_compat; [apply Rabs_pos|apply Rabs_pos|exact Hx|exact Hk]|].
      rewrite <- HaL at 2. lra. }
    assert (Rabs (B2R x * (a / L)) <= a) as H2.
    { rewrite Rabs_mult, (Rabs_pos_eq (a / L)) by done. rewrite <- HaL at 2. rewrite (Rmult_comm (a / L)). by apply Rmult_le_compat_r. }
    assert (0 <= u prec * a) as P1 by (apply Rmult_le_pos; lra). assert (u prec * a <= / 16 * a) as P2 by (apply Rmult_le_compat_r; lra).
    assert (Rabs (B2R x * B2R k) <= (1 + 15 * u prec) * a + tiny prec emax * L) as H3.
    { replace (B2R x * B2R k) with (B2R x * (B2R k - a / L) + B2R x * (a / L)) by ring. eapply Rle_trans; [apply Rabs_triang|]. lra. }
    destruct (mul_room prec emax x k Hp Fx Fk) as (F & _ & E); [lra|]. split; [done|].
    replace (_ - a * (B2R x / L)) with ((B2R (Bmult mode_NE x k) - B2R x * B2R k) + B2R x * (B2R k - a / L)) by (field; lra).
    eapply Rle_trans; [apply Rabs_triang|].
    assert (u prec * Rabs (B2R x * B2R k) <= u prec * ((1 + 15 * u prec) * a + tiny prec emax * L)) as P3 by (apply Rmult_le_compat_l; lra).
    assert (u prec * (u prec * a) <= / 16 * (u prec * a)) as P4 by (apply Rmult_le_compat_r; lra).
    assert (0 <= tiny prec emax * L) as P5 by (apply Rmult_le_pos; lra). assert (u prec * (tiny prec emax * L) <= / 16 * (tiny prec emax * L)) as P6 by (apply Rmult_le_compat_r; lra).
    lra.
  Qed.
  (** The length of a vector, and directions of ordinary length: no overflow, rounding to zero negligible. *)
  Definition len2 (d : V2 fl) : R := sqrt (xdot2 prec emax d d).
  Definition len3 (d : V3 fl) : R := sqrt (xdot3 prec emax d d).
  Definition ordinary (r L : R) : Prop :=
    0 < L /\ 7 * tiny prec emax <= u prec * (L * L) /\ 2 * tiny prec emax <= u prec * L /\ 0 <= r /\ 2 * (r / L) <= big emax /\ 2 * r + tiny prec emax * L <= big emax.
  Lemma u_small : (4 <= prec)%Z -> u prec <= / 16.
  Proof. intros Hp. unfold u. pose proof (bpow_le radix2 (- prec + 1) (-3) ltac:(lia)) as Hb. change (bpow radix2 (-3)) with (/ 8) in Hb. lra. Qed.
  (** The support point of a disc and of a sphere is within rounding of the exact one, the direction scaled to the radius. *)
  Theorem C68_disc (r : fl) (d d' : V2 fl) (T : Xf (V2 fl)) : (4 <= prec)%Z -> is_finite r = true -> xf_ivec T d = Some d' ->
    room2 prec emax d' d' -> ordinary (B2R r) (len2 d') ->
    exists p, circle_support r d T = Ok (xf_pt T p) /\ fin2 prec emax p
      /\ Rabs (B2R (ux p) - B2R r * (B2R (ux d') / len2 d')) <= 17 * u prec * B2R r + tiny prec emax * (2 * len2 d' + 1)
      /\ Rabs (B2R (uy p) - B2R r * (B2R (uy d') / len2 d')) <= 17 * u prec * B2R r + tiny prec emax * (2 * len2 d' + 1).
  Proof.
    intros Hp Fr E Hroom (HL & Ht1 & Ht2 & Hr & Hb1 & Hb2). pose proof (u_small Hp) as Hu. pose proof (u_pos prec) as Hu0. pose proof (tiny_pos prec emax) as Ht0.
    assert (2 <= prec)%Z as Hp2 by lia. destruct (dot2_room prec emax _ _ Hp2 Hroom) as [Fs Es]. destruct Hroom as ((F1 & F2) & _ & _ & _).
    set (D := xdot2 prec emax d' d') in *. assert (xabs2 prec emax d' d' = D) as Ea.
    { unfold xabs2, D, xdot2. rewrite !Rabs_pos_eq by apply Rle_0_sqr. done. }
    rewrite Ea in Es. assert (0 <= B2R (ux d') * B2R (ux d')) as X0 by apply Rle_0_sqr. assert (0 <= B2R (uy d') * B2R (uy d')) as Y0 by apply Rle_0_sqr.
    assert (D = B2R (ux d') * B2R (ux d') + B2R (uy d') * B2R (uy d')) as ED by done.
    assert (len2 d' * len2 d' = D) as HLL by (apply sqrt_sqrt; fold D; lra).
    assert (len2 d' = sqrt D) as EL by done. set (L := len2 d') in *. clearbody L D. assert (0 < D) as HD by (rewrite <- HLL; by apply Rmult_lt_0_compat).
    assert (forall x, x * x <= L * L -> Rabs x <= L) as Hcoord by (intros x Hx; apply Rsqr_le_abs_0 in Hx; by rewrite (Rabs_pos_eq L) in Hx by lra).
    destruct (sqrt_room _ D Fs HD Hu) as [Fm Em]; [|by rewrite <- EL|].
    { eapply Rle_trans; [exact Es|]. rewrite <- HLL in *. lra. }
    rewrite <- EL in Em. destruct (div_room r _ L Fr Fm Hr HL Hu Hp2 Em Hb1) as [Fk Ek].
    destruct (coord_room (ux d') _ (B2R r) L F1 Fk Hr HL Hu Hp2 (Hcoord (B2R (ux d')) ltac:(lra)) Ek Hb2) as [Fx Ex].
    destruct (coord_room (uy d') _ (B2R r) L F2 Fk Hr HL Hu Hp2 (Hcoord (B2R (uy d')) ltac:(lra)) Ek Hb2) as [Fy Ey].
    exists (normalize_to2 d' r). split; [unfold circle_support; by rewrite E|]. split; [by split|]. split; [exact Ex|exact Ey].
  Qed.
  Theorem C68_ball (r : fl) (d d' : V3 fl) (T : Xf (V3 fl)) : (4 <= prec)%Z -> is_finite r = true -> xf_ivec T d = Some d' ->
    room3 prec emax d' d' -> ordinary (B2R r) (len3 d') ->
    exists p, sphere_support r d T = Ok (xf_pt T p) /\ fin3 prec emax p
      /\ Rabs (B2R (vx p) - B2R r * (B2R (vx d') / len3 d')) <= 17 * u prec * B2R r + tiny prec emax * (2 * len3 d' + 1)
      /\ Rabs (B2R (vy p) - B2R r * (B2R (vy d') / len3 d')) <= 17 * u prec * B2R r + tiny prec emax * (2 * len3 d' + 1)
      /\ Rabs (B2R (vz p) - B2R r * (B2R (vz d') / len3 d')) <= 17 * u prec * B2R r + tiny prec emax * (2 * len3 d' + 1).
  Proof.
    intros Hp Fr E Hroom (HL & Ht1 & Ht2 & Hr & Hb1 & Hb2). pose proof (u_small Hp) as Hu. pose proof (u_pos prec) as Hu0. pose proof (tiny_pos prec emax) as Ht0.
    assert (2 <= prec)%Z as Hp2 by lia. destruct (dot3_room prec emax _ _ Hp2 Hroom) as [Fs Es]. destruct Hroom as ((F1 & F2 & F3) & _ & _ & _).
    set (D := xdot3 prec emax d' d') in *. assert (xabs3 prec emax d' d' = D) as Ea.
    { unfold xabs3, D, xdot3. rewrite !Rabs_pos_eq by apply Rle_0_sqr. done. }
    rewrite Ea in Es. assert (0 <= B2R (vx d') * B2R (vx d')) as X0 by apply Rle_0_sqr. assert (0 <= B2R (vy d') * B2R (vy d')) as Y0 by apply Rle_0_sqr.
    assert (0 <= B2R (vz d') * B2R (vz d')) as Z0 by apply Rle_0_sqr.
    assert (D = B2R (vx d') * B2R (vx d') + B2R (vy d') * B2R (vy d') + B2R (vz d') * B2R (vz d')) as ED by done.
    assert (len3 d' * len3 d' = D) as HLL by (apply sqrt_sqrt; fold D; lra).
    assert (len3 d' = sqrt D) as EL by done. set (L := len3 d') in *. clearbody L D. assert (0 < D) as HD by (rewrite <- HLL; by apply Rmult_lt_0_compat).
    assert (forall x, x * x <= L * L -> Rabs x <= L) as Hcoord by (intros x Hx; apply Rsqr_le_abs_0 in Hx; by rewrite (Rabs_pos_eq L) in Hx by lra).
    destruct (sqrt_room _ D Fs HD Hu) as [Fm Em]; [|by rewrite <- EL|].
    { eapply Rle_trans; [exact Es|]. rewrite <- HLL in *. lra. }
    rewrite <- EL in Em. destruct (div_room r _ L Fr Fm Hr HL Hu Hp2 Em Hb1) as [Fk Ek].
    destruct (coord_room (vx d') _ (B2R r) L F1 Fk Hr HL Hu Hp2 (Hcoord (B2R (vx d')) ltac:(lra)) Ek Hb2) as [Fx Ex].
    destruct (coord_room (vy d') _ (B2R r) L F2 Fk Hr HL Hu Hp2 (Hcoord (B2R (vy d')) ltac:(lra)) Ek Hb2) as [Fy Ey].
    destruct (coord_room (vz d') _ (B2R r) L F3 Fk Hr HL Hu Hp2 (Hcoord (B2R (vz d')) ltac:(lra)) Ek Hb2) as [Fz Ez].
    exists (normalize_to3 d' r). split; [unfold sphere_support; by rewrite E|]. split; [by split_and!|]. split; [exact Ex|]. split; [exact Ey|exact Ez].
  Qed.
End claims.

(** ** Single precision *)
Section f32.
  Local Instance num32s : Num f32 := Num_float 24 128.
  Local Instance sgn32s : NumSgn f32 := NumSgn_float 24 128.
  (** A disc and a sphere of radius 1 for direction vectors too short or too long: their squared length is 0 or infinite.
      The point returned has the coordinates (infinity, NaN), (NaN, NaN), or is the centre. *)
  Theorem C68_disc_refuted :
    circle_support (F32 1 0) (mk2 (F32 1 (-100)) (F32 0 0)) id_xf = Ok (mk2 (B754_infinity false) B754_nan)
    /\ circle_support (F32 1 0) zero2 id_xf = Ok (mk2 B754_nan B754_nan)
    /\ circle_support (F32 1 0) (mk2 (F32 1 100) (F32 0 0)) id_xf = Ok (mk2 (F32 0 0) (F32 0 0))
    /\ sphere_support (F32 1 0) (mk3 (F32 1 (-100)) (F32 0 0) (F32 0 0)) id_xf = Ok (mk3 (B754_infinity false) B754_nan B754_nan)
    /\ sphere_support (F32 1 0) zero3 id_xf = Ok (mk3 B754_nan B754_nan B754_nan)
    /\ sphere_support (F32 1 0) (mk3 (F32 1 100) (F32 0 0) (F32 0 0)) id_xf = Ok (mk3 (F32 0 0) (F32 0 0) (F32 0 0)).
  Proof. split_and!; by vm_compute. Qed.
  (** A triangle whose products all overflow to minus infinity: the local origin, which is not in the triangle. *)
  Theorem C68_overflow_refuted :
    let tri := [mk2 (F32 1 64) (F32 0 0); mk2 (F32 1 65) (F32 0 0); mk2 (F32 1 64) (F32 1 64)] in
    polygon_support tri (mk2 (F32 (-1) 70) (F32 0 0)) id_xf = Ok (mk2 (F32 0 0) (F32 0 0))
    /\ Forall (fun v => nlt (F32 1 63) (ux v) = true) tri.
  Proof. split; [by vm_compute|]. repeat constructor; by vm_compute. Qed.
  Lemma f32_val (m : Z) : (Z.abs m <= 2 ^ 24)%Z -> is_finite (F32 m 0) = true /\ B2R (F32 m 0) = IZR m.
  Proof.
    intros Hm. unfold F32. pose proof (binary_normalize_correct 24 128 prec32 emax32 mode_NE m 0 false) as Hc.
    assert (F2R (Float radix2 m 0) = IZR m) as Ef by (unfold F2R; cbn; ring).
    rewrite Ef in Hc.
    assert (round radix2 (SpecFloat.fexp 24 128) (round_mode mode_NE) (IZR m) = IZR m) as Er.
    { apply round_generic; [apply valid_rnd_round_mode|]. rewrite <- Ef.
      destruct (Z.eq_dec (Z.abs m) (2 ^ 24)) as [Em|Em].
      - assert (F2R (Float radix2 m 0) = F2R (Float radix2 (Z.sgn m) 24)) as ->.
        { unfold F2R. cbn [Fnum Fexp]. change (bpow radix2 24) with 16777216. change (bpow radix2 0) with 1.
          assert (m = 16777216 \/ m = -16777216)%Z as [-> | ->] by lia; cbn; lra. }
        apply generic_format_FLT. exists (Float radix2 (Z.sgn m) 24); [done| |unfold SpecFloat.emin; cbn [Fexp]; lia]. cbn [Fnum]. apply Z.le_lt_trans with 1%Z; [destruct m; cbn; lia|by vm_compute].
      - apply generic_format_FLT. exists (Float radix2 m 0); [done| |unfold SpecFloat.emin; cbn [Fexp]; lia]. cbn [Fnum]. change (radix2 ^ 24)%Z with (2 ^ 24)%Z. lia. }
    cbv zeta in Hc.
    rewrite Er, Rlt_bool_true in Hc.
    - destruct Hc as (A & B & _). exact (conj B A).
    - rewrite <- abs_IZR. apply Rle_lt_trans with 16777216; [apply IZR_le; lia|]. change 16777216 with (bpow radix2 24). apply bpow_lt. lia.
  Qed.
  (** A rectangle of sides 4 and 2 and the direction (3, 1). *)
  Example C68_hypotheses_met :
    room2 24 128 (quad_half (mk2 (F32 4 0) (F32 2 0))) (mk2 (F32 3 0) (F32 1 0))
    /\ rect_support (mk2 (F32 4 0) (F32 2 0)) (mk2 (F32 3 0) (F32 1 0)) id_xf = Ok (mk2 (F32 2 0) (F32 1 0))
    /\ (forall q1 q2 : R, Rabs q1 <= 2 -> Rabs q2 <= 1 -> q1 * 3 + q2 * 1 <= 7 + 42 * u 24 + 8 * tiny 24 128).
  Proof.
    assert (quad_half (mk2 (F32 4 0) (F32 2 0)) = mk2 (F32 2 0) (F32 1 0)) as Eh.
    { assert (forall a b c d : f32, B2SF a = B2SF c -> B2SF b = B2SF d -> mk2 a b = mk2 c d) as Hx
        by (intros a b c d E1 E2; apply B2SF_inj in E1, E2; by subst).
      apply Hx; vm_compute; reflexivity. }
    assert (rect_support (mk2 (F32 4 0) (F32 2 0)) (mk2 (F32 3 0) (F32 1 0)) id_xf = Ok (mk2 (F32 2 0) (F32 1 0))) as Es.
    { unfold rect_support. rewrite Eh.
      assert (match get_max_point dot2 zero2 (rect_corners (mk2 (F32 2 0) (F32 1 0))) (mk2 (F32 3 0) (F32 1 0)) id_xf with
        | Ok v => (B2SF (ux v), B2SF (uy v)) = (B2SF (F32 2 0), B2SF (F32 1 0)) | _ => False end) as Hx by (vm_compute; reflexivity).
      destruct (get_max_point _ _ _ _ _) as [[v1 v2]| |]; [|destruct Hx..]. cbn [ux uy] in Hx.
      assert (B2SF v1 = B2SF (F32 2 0)) as H1 by exact (f_equal fst Hx). assert (B2SF v2 = B2SF (F32 1 0)) as H2 by exact (f_equal snd Hx).
      apply B2SF_inj in H1, H2. by rewrite H1, H2. }
    destruct (f32_val 1 ltac:(lia)) as [F1 E1]. destruct (f32_val 2 ltac:(lia)) as [F2 E2]. destruct (f32_val 3 ltac:(lia)) as [F3 E3].
    assert (room2 24 128 (quad_half (mk2 (F32 4 0) (F32 2 0))) (mk2 (F32 3 0) (F32 1 0))) as Hr.
    { rewrite Eh. assert (8 <= big 128) as Hb by (unfold big; change 8 with (bpow radix2 3); apply bpow_le; lia).
      unfold room2, fin2. generalize dependent (big 128). intros b Hb.
      cbn [ux uy]. rewrite F1, F2, F3, E1, E2, E3. split; [by split|]. split; [by split|]. split; rewrite Rabs_pos_eq; lra. }
    split; [exact Hr|]. split; [exact Es|].
    destruct (C68_box2 24 128 (mk2 (F32 4 0) (F32 2 0)) (mk2 (F32 3 0) (F32 1 0)) _ id_xf ltac:(lia) eq_refl Hr) as (v & Ev & _ & _ & Hq).
    generalize dependent (u 24). generalize dependent (tiny 24 128). intros t w Hq. clear Hr.
    change (num_fs 24 128) with num32s in Ev, Hq. change (sgn_fs 24 128) with sgn32s in Ev.
    rewrite Es in Ev. assert (mk2 (F32 2 0) (F32 1 0) = v) as <- by exact (f_equal (fun r => match r with Ok x => x | _ => v end) Ev). clear Ev. unfold qual2 in *. rewrite Eh in Hq. unfold xdot2, xabs2 in Hq. cbn [ux uy] in Hq. rewrite E1, E2, E3 in Hq.
    intros q1 q2 H1 H2. specialize (Hq q1 q2). rewrite (Rabs_pos_eq 2), (Rabs_pos_eq 1) in Hq by lra. specialize (Hq H1 H2).
    rewrite !Rabs_pos_eq in Hq by lra. lra.
  Qed.
  (** A disc of radius 1 and the direction (3, 4), of length 5. *)
  Example C68_disc_met : room2 24 128 (mk2 (F32 3 0) (F32 4 0)) (mk2 (F32 3 0) (F32 4 0)) /\ len2 24 128 (mk2 (F32 3 0) (F32 4 0)) = 5
    /\ ordinary 24 128 (B2R (F32 1 0)) (len2 24 128 (mk2 (F32 3 0) (F32 4 0))).
  Proof.
    destruct (f32_val 1 ltac:(lia)) as [F1 E1]. destruct (f32_val 4 ltac:(lia)) as [F4 E4]. destruct (f32_val 3 ltac:(lia)) as [F3 E3].
    assert (16 <= big 128) as Hb by (unfold big; change 16 with (bpow radix2 4); apply bpow_le; lia).
    assert (len2 24 128 (mk2 (F32 3 0) (F32 4 0)) = 5) as EL.
    { unfold len2, xdot2. cbn [ux uy]. rewrite E3, E4. replace (3 * 3 + 4 * 4) with (5 * 5) by ring. apply sqrt_square. lra. }
    assert (u 24 = / 16777216) as Eu by (unfold u; change (bpow radix2 (- (24) + 1)) with (/ 8388608); lra).
    assert (tiny 24 128 <= / 1073741824) as Ht.
    { unfold tiny. pose proof (bpow_le radix2 (SpecFloat.emin 24 128) (-30) ltac:(unfold SpecFloat.emin; lia)) as Hl.
      change (bpow radix2 (-30)) with (/ 1073741824) in Hl. pose proof (bpow_gt_0 radix2 (SpecFloat.emin 24 128)). lra. }
    unfold room2, ordinary. rewrite EL, E1, Eu. unfold fin2. cbn [ux uy]. rewrite F3, F4, E3, E4.
    generalize dependent (big 128). generalize dependent (tiny 24 128). intros t Ht b Hb.
    split; [split; [by split|]; split; [by split|]; split; rewrite Rabs_pos_eq; lra|]. split; [done|].
    split; [lra|]. split; [lra|]. split; [lra|]. split; [lra|]. split; lra.
  Qed.
End f32.
