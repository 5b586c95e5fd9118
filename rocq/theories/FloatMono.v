(** Monotonicity of IEEE float arithmetic, overflow included: what survives of the
    order arguments of the exact reals under rounding. *)
From stdpp Require Import prelude.
From Coq Require Import Reals Lra Psatz.
From Flocq Require Import Core.Core IEEE754.BinarySingleNaN.
From Verif Require Import Num.
Local Open Scope R_scope.

Section mono.
  Context (prec emax : Z) {Hprec : FLX.Prec_gt_0 prec} {Hemax : Prec_lt_emax prec emax}.
  Notation fl := (binary_float prec emax).
  Notation pos_of := (posn prec emax).
  Definition rnd (r : R) : R := round radix2 (SpecFloat.fexp prec emax) (round_mode mode_NE) r.
  (** Where a rounded result lands on the extended line. *)
  Definition ext (r : R) : pos :=
    if Rlt_bool (Rabs r) (bpow radix2 emax) then PF r else if Rltb r 0 then PM else PP.
  Lemma rnd_le x y : x <= y -> rnd x <= rnd y.
  Proof. intros. apply round_le; [apply fexp_correct; apply Hprec|apply valid_rnd_round_mode|done]. Qed.
  Lemma rnd_0 : rnd 0 = 0.
  Proof. apply round_0. apply valid_rnd_round_mode. Qed.
  Lemma rnd_B2R (x : fl) : rnd (B2R x) = B2R x.
  Proof. apply round_generic; [apply valid_rnd_round_mode|apply generic_format_B2R]. Qed.
  Lemma ext_le r q : r <= q -> pos_le (ext r) (ext q).
  Proof.
    intros Hle. unfold ext. pose proof (bpow_gt_0 radix2 emax) as Hb.
    destruct (Rlt_bool_spec (Rabs r) (bpow radix2 emax)) as [H1|H1], (Rlt_bool_spec (Rabs q) (bpow radix2 emax)) as [H2|H2]; simpl; try done.
    - destruct (Rltb q 0) eqn:E; [|done]. apply Rltb_true in E. unfold Rabs in *. destruct (Rcase_abs r), (Rcase_abs q); lra.
    - destruct (Rltb r 0) eqn:E; [done|]. apply Rltb_false in E. unfold Rabs in *. destruct (Rcase_abs r), (Rcase_abs q); lra.
    - destruct (Rltb r 0) eqn:E1; [done|]. destruct (Rltb q 0) eqn:E2; [|done]. apply Rltb_true in E2. apply Rltb_false in E1. lra.
  Qed.
  Lemma sign_neg (x : fl) : Bsign x = true -> B2R x <= 0.
  Proof. destruct x as [s|s| |s m e H]; simpl; intros; try lra. subst. apply Rlt_le. apply F2R_lt_0. simpl. lia. Qed.
  Lemma sign_pos (x : fl) : Bsign x = false -> 0 <= B2R x.
  Proof. destruct x as [s|s| |s m e H]; simpl; intros; try lra. subst. apply Rlt_le. apply F2R_gt_0. simpl. lia. Qed.
  Lemma fin_pos (x : fl) : is_finite x = true -> pos_of x = PF (B2R x).
  Proof. by destruct x. Qed.
  Lemma fin_nan (x : fl) : is_finite x = true -> is_nan x = false.
  Proof. by destruct x. Qed.
  Lemma inf_of_SF (z : fl) s : B2SF z = binary_overflow prec emax mode_NE s -> z = B754_infinity s.
  Proof. intros E. destruct z; simpl in E; unfold binary_overflow in E; simpl in E; congruence. Qed.
  Lemma abs_pos r : bpow radix2 emax <= Rabs r -> r <> 0.
  Proof. intros Hr ->. rewrite Rabs_R0 in Hr. pose proof (bpow_gt_0 radix2 emax). lra. Qed.
  (** The value of a finite operation in terms of sign information on overflow. *)
  Lemma ext_overflow r s : bpow radix2 emax <= Rabs (rnd r) -> (s = true -> r <= 0) -> (s = false -> 0 <= r) ->
    ext (rnd r) = if s then PM else PP.
  Proof.
    intros Ho H1 H2. unfold ext. rewrite Rlt_bool_false by done. pose proof (abs_pos _ Ho). destruct s.
    - pose proof (rnd_le r 0 (H1 eq_refl)). rewrite rnd_0 in *. destruct (Rltb (rnd r) 0) eqn:E; [done|]. apply Rltb_false in E. lra.
    - pose proof (rnd_le 0 r (H2 eq_refl)). rewrite rnd_0 in *. destruct (Rltb (rnd r) 0) eqn:E; [|done]. apply Rltb_true in E. lra.
  Qed.
  Lemma add_pos (x y : fl) : is_finite x = true -> is_finite y = true ->
    is_nan (Bplus mode_NE x y) = false /\ pos_of (Bplus mode_NE x y) = ext (rnd (B2R x + B2R y)).
  Proof.
    intros Hx Hy. pose proof (Bplus_correct prec emax Hprec Hemax mode_NE x y Hx Hy) as Hc.
    destruct (Rlt_bool_spec (Rabs (rnd (B2R x + B2R y))) (bpow radix2 emax)) as [Hl|Hl]; unfold rnd in Hl.
    - rewrite Rlt_bool_true in Hc by done. destruct Hc as (Hr & Hf & _). split; [by apply fin_nan|].
      rewrite fin_pos by done. unfold ext. rewrite Rlt_bool_true by done. by rewrite Hr.
    - rewrite Rlt_bool_false in Hc by done. destruct Hc as (Ho & Hs). apply inf_of_SF in Ho as ->. split; [done|].
      rewrite (ext_overflow _ (Bsign x)); [by destruct (Bsign x)|done|..]; intros Hsx; rewrite Hsx in Hs; symmetry in Hs.
      + pose proof (sign_neg _ Hsx). pose proof (sign_neg _ Hs). lra.
      + pose proof (sign_pos _ Hsx). pose proof (sign_pos _ Hs). lra.
  Qed.
  Lemma sub_pos (x y : fl) : is_finite x = true -> is_finite y = true ->
    is_nan (Bminus mode_NE x y) = false /\ pos_of (Bminus mode_NE x y) = ext (rnd (B2R x - B2R y)).
  Proof.
    intros Hx Hy. pose proof (Bminus_correct prec emax Hprec Hemax mode_NE x y Hx Hy) as Hc.
    destruct (Rlt_bool_spec (Rabs (rnd (B2R x - B2R y))) (bpow radix2 emax)) as [Hl|Hl]; unfold rnd in Hl.
    - rewrite Rlt_bool_true in Hc by done. destruct Hc as (Hr & Hf & _). split; [by apply fin_nan|].
      rewrite fin_pos by done. unfold ext. rewrite Rlt_bool_true by done. by rewrite Hr.
    - rewrite Rlt_bool_false in Hc by done. destruct Hc as (Ho & Hs). apply inf_of_SF in Ho as ->. split; [done|].
      rewrite (ext_overflow _ (Bsign x)); [by destruct (Bsign x)|done|..]; intros Hsx; rewrite Hsx in Hs; symmetry in Hs.
      + apply negb_true_iff in Hs. pose proof (sign_neg _ Hsx). pose proof (sign_pos _ Hs). lra.
      + apply negb_false_iff in Hs. pose proof (sign_pos _ Hsx). pose proof (sign_neg _ Hs). lra.
  Qed.
  Lemma mul_pos (x y : fl) : is_finite x = true -> is_finite y = true ->
    is_nan (Bmult mode_NE x y) = false /\ pos_of (Bmult mode_NE x y) = ext (rnd (B2R x * B2R y)).
  Proof.
    intros Hx Hy. pose proof (Bmult_correct prec emax Hprec Hemax mode_NE x y) as Hc.
    destruct (Rlt_bool_spec (Rabs (rnd (B2R x * B2R y))) (bpow radix2 emax)) as [Hl|Hl]; unfold rnd in Hl.
    - rewrite Rlt_bool_true in Hc by done. destruct Hc as (Hr & Hf & _). rewrite Hx, Hy in Hf. split; [by apply fin_nan|].
      rewrite fin_pos by done. unfold ext. rewrite Rlt_bool_true by done. by rewrite Hr.
    - rewrite Rlt_bool_false in Hc by done. apply inf_of_SF in Hc as ->. split; [done|].
      rewrite (ext_overflow _ (xorb (Bsign x) (Bsign y))); [by destruct (xorb _ _)|done|..];
        destruct (Bsign x) eqn:Sx, (Bsign y) eqn:Sy; simpl; try done; intros _;
        try apply sign_neg in Sx; try apply sign_pos in Sx; try apply sign_neg in Sy; try apply sign_pos in Sy; nra.
  Qed.
  Lemma div_pos (x y : fl) : is_finite x = true -> is_finite y = true -> B2R y <> 0 ->
    is_nan (Bdiv mode_NE x y) = false /\ pos_of (Bdiv mode_NE x y) = ext (rnd (B2R x / B2R y)).
  Proof.
    intros Hx Hy Hy0. pose proof (Bdiv_correct prec emax Hprec Hemax mode_NE x y Hy0) as Hc.
    destruct (Rlt_bool_spec (Rabs (rnd (B2R x / B2R y))) (bpow radix2 emax)) as [Hl|Hl]; unfold rnd in Hl.
    - rewrite Rlt_bool_true in Hc by done. destruct Hc as (Hr & Hf & _). rewrite Hx in Hf. split; [by apply fin_nan|].
      rewrite fin_pos by done. unfold ext. rewrite Rlt_bool_true by done. by rewrite Hr.
    - rewrite Rlt_bool_false in Hc by done. apply inf_of_SF in Hc as ->. split; [done|].
      rewrite (ext_overflow _ (xorb (Bsign x) (Bsign y))); [by destruct (xorb _ _)|done|..]; unfold Rdiv;
        destruct (Bsign x) eqn:Sx, (Bsign y) eqn:Sy; simpl; try done; intros _;
        try apply sign_neg in Sx; try apply sign_pos in Sx; try apply sign_neg in Sy; try apply sign_pos in Sy;
        (assert (0 < / B2R y) by (apply Rinv_0_lt_compat; lra); nra) || (assert (/ B2R y < 0) by (apply Rinv_lt_0_compat; lra); nra).
  Qed.

  Lemma posn_total_PP p : pos_le p PP. Proof. by destruct p. Qed.
  Lemma posn_PM p : pos_le PM p. Proof. done. Qed.
  Notation FLe := (@Le fl (Num_float prec emax)).
  Notation "x <=f y" := (FLe x y) (at level 70).
  Lemma FLe_iff x y : x <=f y <-> is_nan x = false /\ is_nan y = false /\ pos_le (pos_of x) (pos_of y).
  Proof. apply Fle_pos. Qed.

  (** Subtracting or adding a margin. *)
  Lemma sub_margin (x m : fl) : is_nan x = false -> (B754_zero false) <=f m -> is_nan (Bminus mode_NE x m) = false ->
    Bminus mode_NE x m <=f x.
  Proof.
    intros Hx (_ & Hm & Hpos)%FLe_iff Hn. apply FLe_iff. split_and!; [done..|].
    destruct (is_finite x) eqn:Fx, (is_finite m) eqn:Fm.
    - destruct (sub_pos x m Fx Fm) as [_ ->]. rewrite (fin_pos m Fm) in Hpos. simpl in Hpos.
      assert (E : pos_of x = ext (rnd (B2R x))).
      { rewrite rnd_B2R, fin_pos by done. unfold ext. rewrite Rlt_bool_true; [done|]. apply abs_B2R_lt_emax. }
      rewrite E. apply ext_le, rnd_le. lra.
    - destruct m as [|[]| |]; try done; destruct x as [[]|[]| |[]]; done.
    - destruct x as [|[]| |]; try done; destruct m as [[]|[]| |[]]; done.
    - destruct x as [|[]| |]; try done; destruct m as [|[]| |]; done.
  Qed.
  Lemma add_margin (x m : fl) : is_nan x = false -> (B754_zero false) <=f m -> is_nan (Bplus mode_NE x m) = false ->
    x <=f Bplus mode_NE x m.
  Proof.
    intros Hx (_ & Hm & Hpos)%FLe_iff Hn. apply FLe_iff. split_and!; [done..|].
    destruct (is_finite x) eqn:Fx, (is_finite m) eqn:Fm.
    - destruct (add_pos x m Fx Fm) as [_ ->]. rewrite (fin_pos m Fm) in Hpos. simpl in Hpos.
      assert (E : pos_of x = ext (rnd (B2R x))).
      { rewrite rnd_B2R, fin_pos by done. unfold ext. rewrite Rlt_bool_true; [done|]. apply abs_B2R_lt_emax. }
      rewrite E. apply ext_le, rnd_le. lra.
    - destruct m as [|[]| |]; try done; destruct x as [[]|[]| |[]]; done.
    - destruct x as [|[]| |]; try done; destruct m as [[]|[]| |[]]; done.
    - destruct x as [|[]| |]; try done; destruct m as [|[]| |]; done.
  Qed.
  (** [x - o] is monotone in [x], for a finite [o]; [x / d], [x * k] for a finite factor. *)
  Lemma sub_mono (x y o : fl) : is_finite o = true -> x <=f y -> Bminus mode_NE x o <=f Bminus mode_NE y o.
  Proof.
    intros Fo (Nx & Ny & Hp)%FLe_iff. apply FLe_iff. destruct (is_finite x) eqn:Fx, (is_finite y) eqn:Fy.
    - destruct (sub_pos x o Fx Fo) as [-> ->], (sub_pos y o Fy Fo) as [-> ->]. split_and!; [done..|].
      rewrite !fin_pos in Hp by done. simpl in Hp. apply ext_le, rnd_le. lra.
    - destruct y as [|[]| |]; try done; [destruct x as [|[]| |]; done|]. destruct (sub_pos x o Fx Fo) as [-> _].
      assert (Bminus mode_NE (B754_infinity false) o = B754_infinity false) as -> by by destruct o as [[]|[]| |[]].
      split_and!; [done..|apply posn_total_PP].
    - destruct x as [|[]| |]; try done; [|destruct y as [|[]| |]; done]. destruct (sub_pos y o Fy Fo) as [-> _].
      assert (Bminus mode_NE (B754_infinity true) o = B754_infinity true) as -> by by destruct o as [[]|[]| |[]].
      split_and!; [done..|apply posn_PM].
    - destruct x as [|[]| |]; try done; destruct y as [|[]| |]; try done; destruct o as [[]|[]| |[]]; done.
  Qed.
  (** A quotient by a finite nonzero [d], and a product with a finite nonzero factor, is never NaN on a
      non-NaN operand and monotone or antitone according to the sign. *)
  Lemma div_mono (x y d : fl) : is_finite d = true -> x <=f y ->
    (0 < B2R d -> Bdiv mode_NE x d <=f Bdiv mode_NE y d) /\ (B2R d < 0 -> Bdiv mode_NE y d <=f Bdiv mode_NE x d).
  Proof.
    intros Fd (Nx & Ny & Hp)%FLe_iff. rewrite !FLe_iff.
    assert (Hneg : B2R d < 0 -> exists m e H, d = B754_finite true m e H).
    { destruct d as [| | |[] m e He]; simpl; try lra; eauto. intros Hd. exfalso.
      pose proof (sign_pos (B754_finite false m e He) eq_refl). simpl in *. lra. }
    assert (Hpos : 0 < B2R d -> exists m e H, d = B754_finite false m e H).
    { destruct d as [| | |[] m e He]; simpl; try lra; eauto. intros Hd. exfalso.
      pose proof (sign_neg (B754_finite true m e He) eq_refl). simpl in *. lra. }
    destruct (is_finite x) eqn:Fx, (is_finite y) eqn:Fy.
    - rewrite !fin_pos in Hp by done. simpl in Hp. split; intros Hd.
      + destruct (div_pos x d Fx Fd) as [-> ->]; [lra|]. destruct (div_pos y d Fy Fd) as [-> ->]; [lra|]. split_and!; [done..|].
        apply ext_le, rnd_le. unfold Rdiv. apply Rmult_le_compat_r; [|done]. apply Rlt_le, Rinv_0_lt_compat. lra.
      + destruct (div_pos x d Fx Fd) as [-> ->]; [lra|]. destruct (div_pos y d Fy Fd) as [-> ->]; [lra|]. split_and!; [done..|].
        apply ext_le, rnd_le. unfold Rdiv. assert (/ B2R d < 0) by (apply Rinv_lt_0_compat; lra). nra.
    - destruct y as [|[]| |]; try done; [destruct x as [|[]| |]; done|].
      split; intros Hd; (destruct (div_pos x d Fx Fd) as [-> _]; [lra|]).
      + destruct (Hpos Hd) as (m & e & H & ->). split_and!; [done..|apply posn_total_PP].
      + destruct (Hneg Hd) as (m & e & H & ->). split_and!; [done..|apply posn_PM].
    - destruct x as [|[]| |]; try done; [|destruct y as [|[]| |]; done].
      split; intros Hd; (destruct (div_pos y d Fy Fd) as [-> _]; [lra|]).
      + destruct (Hpos Hd) as (m & e & H & ->). split_and!; [done..|apply posn_PM].
      + destruct (Hneg Hd) as (m & e & H & ->). split_and!; [done..|apply posn_total_PP].
    - destruct x as [|[]| |]; try done; destruct y as [|[]| |]; try done;
        split; intros Hd; (destruct (Hpos Hd) as (m & e & H & ->) || destruct (Hneg Hd) as (m & e & H & ->)); done.
  Qed.
  Lemma mul_mono (x y d : fl) : is_finite d = true -> x <=f y ->
    (0 < B2R d -> Bmult mode_NE x d <=f Bmult mode_NE y d) /\ (B2R d < 0 -> Bmult mode_NE y d <=f Bmult mode_NE x d).
  Proof.
    intros Fd (Nx & Ny & Hp)%FLe_iff. rewrite !FLe_iff.
    assert (Hneg : B2R d < 0 -> exists m e H, d = B754_finite true m e H).
    { destruct d as [| | |[] m e He]; simpl; try lra; eauto. intros Hd. exfalso.
      pose proof (sign_pos (B754_finite false m e He) eq_refl). simpl in *. lra. }
    assert (Hpos : 0 < B2R d -> exists m e H, d = B754_finite false m e H).
    { destruct d as [| | |[] m e He]; simpl; try lra; eauto. intros Hd. exfalso.
      pose proof (sign_neg (B754_finite true m e He) eq_refl). simpl in *. lra. }
    destruct (is_finite x) eqn:Fx, (is_finite y) eqn:Fy.
    - rewrite !fin_pos in Hp by done. simpl in Hp.
      destruct (mul_pos x d Fx Fd) as [-> ->]. destruct (mul_pos y d Fy Fd) as [-> ->].
      split; intros Hd; split_and!; try done; apply ext_le, rnd_le; nra.
    - destruct y as [|[]| |]; try done; [destruct x as [|[]| |]; done|].
      destruct (mul_pos x d Fx Fd) as [-> _]. split; intros Hd.
      + destruct (Hpos Hd) as (m & e & H & ->). split_and!; [done..|apply posn_total_PP].
      + destruct (Hneg Hd) as (m & e & H & ->). split_and!; [done..|apply posn_PM].
    - destruct x as [|[]| |]; try done; [|destruct y as [|[]| |]; done].
      destruct (mul_pos y d Fy Fd) as [-> _]. split; intros Hd.
      + destruct (Hpos Hd) as (m & e & H & ->). split_and!; [done..|apply posn_PM].
      + destruct (Hneg Hd) as (m & e & H & ->). split_and!; [done..|apply posn_total_PP].
    - destruct x as [|[]| |]; try done; destruct y as [|[]| |]; try done;
        split; intros Hd; (destruct (Hpos Hd) as (m & e & H & ->) || destruct (Hneg Hd) as (m & e & H & ->)); done.
  Qed.
End mono.
