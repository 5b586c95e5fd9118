(** C65: approximate equality of planes, and the comparisons of the approx crate it rests on. *)
From Coq Require Import Psatz.
From stdpp Require Import prelude.
From Flocq Require Import Core.Core IEEE754.BinarySingleNaN.
From Coq Require Import Reals Lra.
From Verif Require Import Num FloatMono Vec GeoModel ApproxModel.

Section bits.
  Context (prec emax : Z) {Hprec : FLX.Prec_gt_0 prec} {Hemax : Prec_lt_emax prec emax}.
  Local Open Scope Z_scope.
  Notation fl := (binary_float prec emax).
  Local Existing Instance Num_float.
  Notation bits := (mag_bits prec emax).
  Notation emin := (3 - emax - prec).

  Lemma prec_pos : 0 < prec. Proof. exact Hprec. Qed.
  Lemma pow2_split : 2 ^ prec = 2 * 2 ^ (prec - 1).
  Proof. pose proof prec_pos. rewrite <- Z.pow_succ_r by lia. f_equal. lia. Qed.
  Lemma bounded_facts m e : SpecFloat.bounded prec emax m e = true ->
    emin <= e <= emax - prec /\ 0 < Zpos m < 2 ^ prec /\ (emin < e -> 2 ^ (prec - 1) <= Zpos m).
  Proof.
    intros [Hc He]%andb_true_iff. apply Zeq_bool_eq in Hc. apply Zle_bool_imp_le in He.
    unfold SpecFloat.fexp, SpecFloat.emin in Hc.
    pose proof (Digits.Zdigits_correct radix2 (Zpos m)) as [H1 H2].
    rewrite Digits.Zpos_digits2_pos in Hc. simpl Z.abs in *. change (Z.pow (radix_val radix2)) with (Z.pow 2) in *.
    change (radix_val radix2) with 2 in *.
    set (d := Digits.Zdigits radix2 (Zpos m)) in *.
    split; [lia|]. split.
    - split; [lia|]. apply Z.lt_le_trans with (1 := H2). apply Z.pow_le_mono_r; lia.
    - intros. apply Z.le_trans with (2 := H1). apply Z.pow_le_mono_r; lia.
  Qed.

  Local Notation val m e := (F2R (Float radix2 (Zpos m) e)).
  Lemma val_lt m1 e1 m2 e2 :
    SpecFloat.bounded prec emax m1 e1 = true -> SpecFloat.bounded prec emax m2 e2 = true ->
    (e1 - emin) * 2 ^ (prec - 1) + Zpos m1 < (e2 - emin) * 2 ^ (prec - 1) + Zpos m2 -> (val m1 e1 < val m2 e2)%R.
  Proof.
    intros B1 B2 Hb. pose proof pow2_split as Hp. pose proof prec_pos as Hpp.
    apply bounded_facts in B1 as (E1 & M1 & N1), B2 as (E2 & M2 & N2).
    assert (0 < 2 ^ (prec - 1)) by (apply Z.pow_pos_nonneg; lia).
    destruct (Ztrichotomy e1 e2) as [Hl|[->|Hg]].
    - apply Rlt_le_trans with (bpow radix2 (prec + e1)).
      + unfold F2R. simpl Fnum. simpl Fexp. rewrite bpow_plus. apply Rmult_lt_compat_r; [apply bpow_gt_0|].
        rewrite <- IZR_Zpower by lia. apply IZR_lt. simpl. lia.
      + apply Rle_trans with (bpow radix2 (prec - 1 + e2)); [apply bpow_le; lia|].
        unfold F2R. simpl Fnum. simpl Fexp. rewrite bpow_plus. apply Rmult_le_compat_r; [apply bpow_ge_0|].
        rewrite <- IZR_Zpower by lia. apply IZR_le. simpl. apply N2. lia.
    - apply F2R_lt. simpl. nia.
    - exfalso. specialize (N1 ltac:(lia)).
      assert ((e2 - emin) * 2 ^ (prec - 1) + 2 ^ (prec - 1) <= (e1 - emin) * 2 ^ (prec - 1)) by nia. lia.
  Qed.
  Lemma val_eq m1 e1 m2 e2 :
    SpecFloat.bounded prec emax m1 e1 = true -> SpecFloat.bounded prec emax m2 e2 = true ->
    (e1 - emin) * 2 ^ (prec - 1) + Zpos m1 = (e2 - emin) * 2 ^ (prec - 1) + Zpos m2 -> m1 = m2 /\ e1 = e2.
  Proof.
    intros B1 B2 Hb. pose proof pow2_split as Hp. pose proof prec_pos as Hpp.
    apply bounded_facts in B1 as (E1 & M1 & N1), B2 as (E2 & M2 & N2).
    assert (0 < 2 ^ (prec - 1)) by (apply Z.pow_pos_nonneg; lia).
    destruct (Ztrichotomy e1 e2) as [Hl|[->|Hg]].
    - exfalso. specialize (N2 ltac:(lia)).
      assert ((e1 - emin) * 2 ^ (prec - 1) + 2 ^ (prec - 1) <= (e2 - emin) * 2 ^ (prec - 1)) by nia. lia.
    - split; [|done]. assert (Zpos m1 = Zpos m2) by lia. congruence.
    - exfalso. specialize (N1 ltac:(lia)).
      assert ((e2 - emin) * 2 ^ (prec - 1) + 2 ^ (prec - 1) <= (e1 - emin) * 2 ^ (prec - 1)) by nia. lia.
  Qed.
  Lemma bits_fin_pos s m e H : 0 < bits (B754_finite s m e H).
  Proof.
    simpl. apply bounded_facts in H as (E1 & M1 & _). pose proof prec_pos.
    assert (0 < 2 ^ (prec - 1)) by (apply Z.pow_pos_nonneg; lia). nia.
  Qed.
  Lemma bits_fin_inf (x : fl) : is_finite x = true -> bits x < (2 * emax - 1) * 2 ^ (prec - 1).
  Proof.
    pose proof prec_pos. assert (0 < 2 ^ (prec - 1)) by (apply Z.pow_pos_nonneg; lia).
    pose proof Hemax as Hm. unfold Prec_lt_emax in Hm. pose proof pow2_split.
    destruct x as [| | |s m e H']; try done; simpl; intros _; [nia|].
    apply bounded_facts in H' as (E1 & M1 & _). nia.
  Qed.
  Lemma bits_nonneg (x : fl) : 0 <= bits x.
  Proof.
    pose proof prec_pos. assert (0 < 2 ^ (prec - 1)) by (apply Z.pow_pos_nonneg; lia).
    pose proof Hemax as Hm. unfold Prec_lt_emax in Hm.
    assert (0 <= 2 ^ (prec - 2)) by (apply Z.pow_nonneg; lia).
    destruct x as [| | |s m e H']; simpl; [nia..|].
    pose proof (bits_fin_pos s m e H'). simpl in *. lia.
  Qed.
  (** Floats of one sign are numbered by their bit patterns. *)
  Lemma bits_inj (x y : fl) : is_nan x = false -> is_nan y = false -> Bsign x = Bsign y -> bits x = bits y -> x = y.
  Proof.
    intros Nx Ny Hs Hb.
    assert (forall z : fl, is_finite z = true -> bits z <> (2 * emax - 1) * 2 ^ (prec - 1)) as Hi.
    { intros z Hz. pose proof (bits_fin_inf z Hz). lia. }
    destruct x as [s|s| |s m e H], y as [s'|s'| |s' m' e' H']; try done; try (cbn in Hs; by subst);
      try (exfalso; first [by eapply Hi; [|exact Hb] | by eapply Hi; [|symmetry; exact Hb]
        | pose proof (bits_fin_pos s' m' e' H'); cbn in *; lia | pose proof (bits_fin_pos s m e H); cbn in *; lia]).
    cbn in Hs. subst s'. destruct (val_eq _ _ _ _ H H' Hb) as [-> ->]. f_equal. apply proof_irrel.
  Qed.
  Lemma bits_abs_lt (x y : fl) : is_finite x = true -> is_finite y = true ->
    bits x < bits y -> (Rabs (B2R x) < Rabs (B2R y))%R.
  Proof.
    intros Fx Fy Hb. destruct y as [s'|s'| |s' m' e' H']; try done.
    { pose proof (bits_nonneg x). cbn in Hb. lia. }
    rewrite <- (B2R_Babs _ _ (B754_finite s' m' e' H')). cbn [Babs B2R cond_Zopp].
    destruct x as [s|s| |s m e H]; try done.
    - cbn [B2R]. rewrite Rabs_R0. by apply F2R_gt_0.
    - rewrite <- (B2R_Babs _ _ (B754_finite s m e H)). cbn [Babs B2R cond_Zopp]. by apply val_lt.
  Qed.
  Lemma bits_abs_le (x y : fl) : is_finite x = true -> is_finite y = true ->
    (Rabs (B2R x) <= Rabs (B2R y))%R -> bits x <= bits y.
  Proof. intros Fx Fy Hr. destruct (Z_le_gt_dec (bits x) (bits y)) as [|Hg]; [done|]. apply Z.gt_lt, (bits_abs_lt y x) in Hg; [lra|done..]. Qed.

  (** One step up from a non-negative float is one more in the bit pattern (up to infinity). *)
  Lemma bits_succ (x : fl) : is_finite x = true -> Bsign x = false ->
    is_nan (Bsucc x) = false /\ Bsign (Bsucc x) = false /\ bits (Bsucc x) = bits x + 1.
  Proof.
    intros Fx Sx. pose proof prec_pos as Hpp. pose proof pow2_split as H2.
    assert (0 < 2 ^ (prec - 1)) as Hpw by (apply Z.pow_pos_nonneg; lia).
    pose proof Hemax as Hm. unfold Prec_lt_emax in Hm.
    pose proof (Bsucc_correct prec emax Hprec Hemax x Fx) as Hc.
    destruct x as [s|s| |s m e H]; try done; cbn in Sx; subst s.
    - cbn. split; [done|]. split; [done|]. unfold SpecFloat.emin. rewrite Z.sub_diag. lia.
    - assert (succ radix2 (SpecFloat.fexp prec emax) (B2R (B754_finite false m e H)) = F2R (Float radix2 (Zpos m + 1) e)) as Hs.
      { pose proof (proj1 (andb_prop _ _ H)) as Cx. apply (canonical_canonical_mantissa _ _ false) in Cx.
        unfold succ, B2R. rewrite Rle_bool_true by by apply F2R_ge_0.
        change (cond_Zopp false (Zpos m)) with (Zpos m) in *.
        rewrite ulp_canonical by done. cbn [Fexp]. unfold F2R. cbn [Fnum Fexp]. rewrite plus_IZR. ring. }
      rewrite Hs in Hc. pose proof (bounded_facts _ _ H) as (E1 & M1 & N1).
      destruct (Rlt_bool_spec (F2R (Float radix2 (Zpos m + 1) e)) (bpow radix2 emax)) as [Hl|Hl].
      + destruct Hc as (Hr & Hf & Hg). rewrite andb_false_l in Hg || cbn [Bsign andb] in Hg.
        destruct (Bsucc (B754_finite false m e H)) as [s'|s'| |s' m' e' H']; try done.
        { exfalso. cbn [B2R] in Hr. assert (0 < F2R (Float radix2 (Zpos m + 1) e))%R by (apply F2R_gt_0; simpl; lia). lra. }
        cbn [Bsign] in Hg. subst s'. cbn [is_nan Bsign mag_bits]. split; [done|]. split; [done|].
        cbn [B2R cond_Zopp] in Hr. pose proof (bounded_facts _ _ H') as (E2 & M2 & N2).
        destruct (Ztrichotomy e' e) as [He|[->|He]].
        * exfalso. specialize (N1 ltac:(lia)). 
          rewrite (F2R_change_exp radix2 e' (Zpos m + 1) e) in Hr by lia. apply eq_F2R in Hr.
          change (Z.pow (radix_val radix2)) with (Z.pow 2) in Hr. change (radix_val radix2) with 2 in Hr.
          assert (2 ^ 1 <= 2 ^ (e - e')) by (apply Z.pow_le_mono_r; lia). nia.
        * apply eq_F2R in Hr. lia.
        * specialize (N2 ltac:(lia)). rewrite (F2R_change_exp radix2 e (Zpos m') e') in Hr by lia. apply eq_F2R in Hr.
          change (radix_val radix2) with 2 in Hr.
          assert (e' = e + 1) as ->.
          { destruct (Z_le_gt_dec e' (e + 1)); [lia|]. exfalso.
            assert (2 ^ 2 <= 2 ^ (e' - e)) by (apply Z.pow_le_mono_r; lia). nia. }
          replace (e + 1 - e) with 1 in Hr by lia. nia.
      + assert (Bsucc (B754_finite false m e H) = B754_infinity false) as ->.
        { destruct (Bsucc (B754_finite false m e H)); cbn in Hc; congruence. }
        cbn [is_nan Bsign mag_bits]. split; [done|]. split; [done|].
        unfold F2R in Hl. cbn [Fnum Fexp] in Hl.
        assert (2 ^ (emax - e) <= Zpos m + 1) as Hge.
        { apply le_IZR. rewrite (IZR_Zpower radix2) by lia.
          apply Rmult_le_reg_r with (bpow radix2 e); [apply bpow_gt_0|]. rewrite <- bpow_plus.
          by replace (emax - e + e) with emax by lia. }
        assert (e = emax - prec) as ->.
        { destruct (Z.eq_dec e (emax - prec)); [done|]. exfalso.
          assert (2 ^ (prec + 1) <= 2 ^ (emax - e)) by (apply Z.pow_le_mono_r; lia).
          rewrite Z.pow_add_r in * by lia. lia. }
        replace (emax - (emax - prec)) with prec in Hge by lia. nia.
  Qed.
End bits.

Section cmp.
  Context (prec emax : Z) {Hprec : FLX.Prec_gt_0 prec} {Hemax : Prec_lt_emax prec emax}.
  Notation fl := (binary_float prec emax).
  Local Existing Instance Num_float.
  Notation rnd := (rnd prec emax).
  Notation ulps := (ulps_eq prec emax).
  Notation rel := (relative_eq prec emax).
  Notation bits := (mag_bits prec emax).

  Lemma lt_fin (x y : fl) : is_finite x = true -> is_finite y = true -> nlt x y = Rltb (B2R x) (B2R y).
  Proof.
    intros Fx Fy. apply eq_true_iff_eq. rewrite Rltb_true. unfold nlt. cbn [Num_float].
    rewrite Flt_pos. rewrite !fin_pos by done. cbn. pose proof (fin_nan _ _ _ Fx). pose proof (fin_nan _ _ _ Fy).
    split; [intros (_ & _ & Hl); lra|]. intros. split_and!; try done. lra.
  Qed.
  Lemma le_fin (x y : fl) : is_finite x = true -> is_finite y = true -> nle x y = Rleb (B2R x) (B2R y).
  Proof.
    intros Fx Fy. apply eq_true_iff_eq. rewrite Rleb_true. unfold nle. cbn [Num_float].
    rewrite Fle_pos. rewrite !fin_pos by done. cbn. pose proof (fin_nan _ _ _ Fx). pose proof (fin_nan _ _ _ Fy).
    split; [by intros (_ & _ & Hl)|]. intros. by split_and!.
  Qed.
  Lemma rnd_opp r : rnd (- r) = (- rnd r)%R.
  Proof. unfold FloatMono.rnd. cbn [round_mode]. apply round_NE_opp. Qed.
  Lemma rnd_abs r : Rabs (rnd r) = rnd (Rabs r).
  Proof.
    destruct (Rle_dec 0 r) as [Hr|Hr].
    - rewrite (Rabs_pos_eq r) by done. apply Rabs_pos_eq. rewrite <- (rnd_0 prec emax). by apply (rnd_le prec emax).
    - rewrite (Rabs_left1 r) by lra. rewrite rnd_opp. apply Rabs_left1. rewrite <- (rnd_0 prec emax). apply (rnd_le prec emax). lra.
  Qed.
  Lemma fin_lt_emax (x : fl) : (Rabs (B2R x) < bpow radix2 emax)%R.
  Proof. apply abs_B2R_lt_emax. Qed.
  (** The difference of two finite floats, compared with a finite tolerance. *)
  Lemma sub_le_fin (x y eps : fl) : is_finite x = true -> is_finite y = true -> is_finite eps = true -> (B2R y <= B2R x)%R ->
    nle (nsub x y) eps = Rleb (rnd (Rabs (B2R x - B2R y))) (B2R eps).
  Proof.
    intros Fx Fy Fe Hle. apply eq_true_iff_eq. rewrite Rleb_true. unfold nle, nsub. cbn [Num_float].
    rewrite Fle_pos. rewrite (fin_pos _ _ eps) by done.
    destruct (sub_pos prec emax x y Fx Fy) as [Hn ->]. rewrite (Rabs_pos_eq (_ - _)) by lra.
    pose proof (fin_nan _ _ _ Fe). pose proof (fin_lt_emax eps) as He. pose proof (Rle_abs (B2R eps)) as He'.
    assert (0 <= rnd (B2R x - B2R y))%R as Hr by (rewrite <- (rnd_0 prec emax); apply (rnd_le prec emax); lra).
    unfold ext. rewrite Rabs_pos_eq by done.
    destruct (Rlt_bool_spec (rnd (B2R x - B2R y)) (bpow radix2 emax)); cbn [pos_le].
    - split; [by intros (_ & _ & ?)|by intros; split_and!].
    - assert (Rltb (rnd (B2R x - B2R y)) 0 = false) as -> by (apply Rltb_false; lra). cbn [pos_le].
      split; [by intros (_ & _ & [])|lra].
  Qed.
  Lemma abs_eq_fin (x y eps : fl) : is_finite x = true -> is_finite y = true -> is_finite eps = true ->
    abs_eq eps x y = Rleb (rnd (Rabs (B2R x - B2R y))) (B2R eps).
  Proof.
    intros Fx Fy Fe. unfold abs_eq. rewrite lt_fin by done. destruct (Rltb (B2R y) (B2R x)) eqn:E.
    - apply Rltb_true in E. apply sub_le_fin; try done. lra.
    - apply Rltb_false in E. rewrite sub_le_fin by done. by rewrite Rabs_minus_sym.
  Qed.
  Lemma le_nan_l (x y : fl) : is_nan x = true -> nle x y = false.
  Proof. intros Hn. apply not_true_is_false. unfold nle. cbn [Num_float]. rewrite Fle_pos. rewrite Hn. by intros [? _]. Qed.
  Lemma sub_nan (x y : fl) : is_nan x = true \/ is_nan y = true -> is_nan (nsub x y) = true.
  Proof. destruct x as [[]|[]| |[]], y as [[]|[]| |[]]; cbn; by intros []. Qed.
  Lemma abs_nan (eps x y : fl) : is_nan x = true \/ is_nan y = true -> abs_eq eps x y = false.
  Proof. intros Hn. unfold abs_eq. apply le_nan_l. destruct (nlt y x); apply sub_nan; tauto. Qed.
  Lemma rel_nan (eps mr x y : fl) : is_nan x = true \/ is_nan y = true -> rel eps mr x y = false.
  Proof.
    intros Hn. assert (neq x y = false) as Hq.
    { unfold neq. cbn [Num_float]. apply not_true_is_false. rewrite Feq_pos. intros (? & ? & _). destruct Hn; congruence. }
    unfold rel, rel_eq. rewrite Hq. destruct (_ || _); [done|].
    rewrite !le_nan_l; [done|..]; unfold nabs; cbn [Num_float]; rewrite is_nan_Babs; by apply sub_nan.
  Qed.
  Lemma ulps_nan (eps : fl) n x y : is_nan x = true \/ is_nan y = true -> ulps eps n x y = false.
  Proof.
    intros Hn. unfold ulps. rewrite abs_nan by done. unfold sign_differs.
    by destruct Hn as [-> | ->]; rewrite ?orb_true_r.
  Qed.
  Lemma inf_cases (x : fl) : is_finite x = true \/ is_nan x = true \/ exists s, x = B754_infinity s.
  Proof. destruct x; cbn; eauto. Qed.
  Lemma abs_inf (eps : fl) x s : abs_eq eps (B754_infinity s) x = abs_eq eps x (B754_infinity s).
  Proof. unfold abs_eq. destruct x as [s'|s'| |s' m e H], s; try destruct s'; reflexivity. Qed.
  Lemma abs_sym (eps x y : fl) : abs_eq eps x y = abs_eq eps y x.
  Proof.
    destruct (inf_cases x) as [Fx|[Nx|[s ->]]]; [|rewrite !abs_nan by auto; done|apply abs_inf].
    destruct (inf_cases y) as [Fy|[Ny|[s ->]]]; [|rewrite !abs_nan by auto; done|symmetry; apply abs_inf].
    destruct (inf_cases eps) as [Fe|[Ne|[s ->]]].
    - rewrite !abs_eq_fin by done. by rewrite Rabs_minus_sym.
    - unfold abs_eq. assert (forall z, nle z eps = false) as Hn; [|by rewrite !Hn].
      intros z. apply not_true_is_false. unfold nle. cbn [Num_float]. rewrite Fle_pos. rewrite Ne. by intros (_ & ? & _).
    - unfold abs_eq. rewrite !lt_fin by done.
      destruct (Rltb (B2R y) (B2R x)) eqn:E1, (Rltb (B2R x) (B2R y)) eqn:E2; try done.
      { apply Rltb_true in E1, E2. lra. }
      destruct (sub_pos prec emax x y Fx Fy) as [N1 P1], (sub_pos prec emax y x Fy Fx) as [N2 P2].
      apply Rltb_false in E1, E2. apply eq_true_iff_eq. unfold nle, nsub. cbn [Num_float]. rewrite !Fle_pos, P1, P2.
      replace (B2R y - B2R x)%R with (B2R x - B2R y)%R by lra. tauto.
  Qed.
  Lemma neq_sym (x y : fl) : neq x y = neq y x.
  Proof. apply eq_true_iff_eq. unfold neq. cbn [Num_float]. rewrite !Feq_pos. tauto. Qed.
  Lemma fin_abs_eq (x y : fl) : is_finite x = true -> is_finite y = true -> Rabs (B2R x) = Rabs (B2R y) -> Babs x = Babs y.
  Proof.
    intros Fx Fy Hr. apply B2R_Bsign_inj; rewrite ?is_finite_Babs; try done.
    - by rewrite !B2R_Babs.
    - by rewrite !Bsign_Babs by by apply (fin_nan prec emax).
  Qed.
  Lemma abs_sub_sym (x y : fl) : is_finite x = true -> is_finite y = true -> nabs (nsub x y) = nabs (nsub y x).
  Proof.
    intros Fx Fy. unfold nabs, nsub. cbn [Num_float].
    pose proof (Bminus_correct prec emax Hprec Hemax mode_NE x y Fx Fy) as H1.
    pose proof (Bminus_correct prec emax Hprec Hemax mode_NE y x Fy Fx) as H2.
    change (round radix2 (SpecFloat.fexp prec emax) (round_mode mode_NE)) with rnd in *.
    assert (rnd (B2R y - B2R x) = - rnd (B2R x - B2R y))%R as Hr by (rewrite <- rnd_opp; f_equal; lra).
    rewrite Hr, Rabs_Ropp in H2.
    destruct (Rlt_bool (Rabs (rnd (B2R x - B2R y))) (bpow radix2 emax)).
    - destruct H1 as (R1 & F1 & _), H2 as (R2 & F2 & _). apply fin_abs_eq; try done. by rewrite R1, R2, Rabs_Ropp.
    - destruct H1 as (O1 & _), H2 as (O2 & _). apply inf_of_SF in O1, O2. by rewrite O1, O2.
  Qed.
  Lemma rel_sym (eps mr x y : fl) : rel eps mr x y = rel eps mr y x.
  Proof.
    destruct (is_nan x) eqn:Nx; [by rewrite !rel_nan by auto|]. destruct (is_nan y) eqn:Ny; [by rewrite !rel_nan by auto|].
    unfold rel. rewrite (neq_sym y x), (orb_comm (is_inf _ _ y)). destruct (neq x y) eqn:Q; [done|].
    destruct (_ || _) eqn:I; [done|]. apply orb_false_iff in I as [Ix Iy].
    assert (is_finite x = true) as Fx by by destruct x. assert (is_finite y = true) as Fy by by destruct y.
    unfold rel_eq. rewrite (neq_sym y x), Q, (abs_sub_sym y x) by done. destruct (nle _ eps); [done|].
    f_equal. f_equal. unfold nabs. cbn [Num_float].
    rewrite !lt_fin by by rewrite is_finite_Babs. rewrite !B2R_Babs.
    destruct (Rltb (Rabs (B2R x)) (Rabs (B2R y))) eqn:E1, (Rltb (Rabs (B2R y)) (Rabs (B2R x))) eqn:E2; try done.
    { apply Rltb_true in E1, E2. lra. }
    apply Rltb_false in E1, E2. apply fin_abs_eq; try done. lra.
  Qed.
  Lemma ulps_sym (eps : fl) n x y : ulps eps n x y = ulps eps n y x.
  Proof.
    unfold ulps. rewrite abs_sym. unfold sign_differs. rewrite (orb_comm (is_nan x)), (xorb_comm (Bsign x)).
    rewrite <- Z.abs_opp. by replace (- (bits x - bits y))%Z with (bits y - bits x)%Z by lia.
  Qed.

  Lemma abs_sub_fin (x y eps : fl) : is_finite x = true -> is_finite y = true -> is_finite eps = true ->
    nle (nabs (nsub x y)) eps = Rleb (rnd (Rabs (B2R x - B2R y))) (B2R eps).
  Proof.
    intros Fx Fy Fe. pose proof (Bminus_correct prec emax Hprec Hemax mode_NE x y Fx Fy) as H1.
    change (round radix2 (SpecFloat.fexp prec emax) (round_mode mode_NE)) with rnd in *.
    rewrite <- rnd_abs. unfold nabs, nsub. cbn [Num_float].
    destruct (Rlt_bool_spec (Rabs (rnd (B2R x - B2R y))) (bpow radix2 emax)) as [Hl|Hl].
    - destruct H1 as (R1 & F1 & _). rewrite le_fin by (rewrite ?is_finite_Babs; done). by rewrite B2R_Babs, R1.
    - destruct H1 as (O1 & _). apply inf_of_SF in O1. rewrite O1.
      pose proof (fin_lt_emax eps). pose proof (Rle_abs (B2R eps)).
      transitivity false; [|symmetry; apply Rleb_false; lra].
      apply not_true_is_false. unfold nle. cbn [Num_float]. rewrite Fle_pos, (fin_pos _ _ eps) by done. by intros (_ & _ & []).
  Qed.

  (** ** The tolerance is the machine epsilon *)
  Lemma epsilon_val : (prec < emax)%Z -> is_finite (epsilon prec emax) = true /\ B2R (epsilon prec emax) = bpow radix2 (1 - prec).
  Proof.
    intros Hpe. pose proof (Bldexp_correct prec emax Hprec Hemax mode_NE Bone (1 - prec)) as Hc.
    rewrite Bone_correct, Rmult_1_l in Hc. pose proof (prec_pos prec) as Hp.
    rewrite round_generic in Hc; [|apply valid_rnd_round_mode|].
    - rewrite Rlt_bool_true in Hc.
      + destruct Hc as (Hr & Hf & _). split; [|done]. unfold epsilon. rewrite Hf. apply is_finite_Bone.
      + rewrite Rabs_pos_eq by apply bpow_ge_0. apply bpow_lt. lia.
    - apply generic_format_bpow. unfold SpecFloat.fexp, SpecFloat.emin. lia.
  Qed.
  Lemma small_bits (x : fl) : (4 <= prec)%Z -> is_finite x = true -> (bits x <= 4)%Z -> (Rabs (B2R x) <= bpow radix2 (1 - prec))%R.
  Proof.
    intros Hp Fx Hb. pose proof Hemax as Hm. unfold Prec_lt_emax in Hm.
    destruct x as [s|s| |s m e H]; try done.
    - cbn. rewrite Rabs_R0. apply bpow_ge_0.
    - rewrite <- (B2R_Babs _ _ (B754_finite s m e H)). cbn [Babs B2R cond_Zopp].
      cbn [mag_bits] in Hb. destruct (bounded_facts prec emax m e H) as (E1 & M1 & N1).
      assert (2 ^ 3 <= 2 ^ (prec - 1))%Z by (apply Z.pow_le_mono_r; lia).
      assert (e = 3 - emax - prec)%Z as -> by nia.
      apply Rle_trans with (F2R (Float radix2 4 (3 - emax - prec))).
      + apply F2R_le. lia.
      + unfold F2R. cbn [Fnum Fexp]. change 4%R with (bpow radix2 2). rewrite <- bpow_plus. apply bpow_le. lia.
  Qed.
  Lemma ulps_zero (x : fl) s : (4 <= prec)%Z ->
    ulps (epsilon prec emax) (default_max_ulps) x (B754_zero s) = near0 (epsilon prec emax) x.
  Proof.
    intros Hp. pose proof Hemax as Hm. unfold Prec_lt_emax in Hm. destruct (epsilon_val Hm) as [Fe Ve].
    destruct (inf_cases x) as [Fx|[Nx|[s' ->]]].
    - unfold ulps. rewrite abs_eq_fin by done. cbn [B2R]. rewrite Rminus_0_r, <- rnd_abs, rnd_B2R.
      unfold near0. rewrite le_fin; [|by unfold nabs; cbn [Num_float]; rewrite is_finite_Babs|done].
      unfold nabs. cbn [Num_float]. rewrite B2R_Babs.
      destruct (Rleb (Rabs (B2R x)) (B2R (epsilon prec emax))) eqn:E; [done|]. destruct (sign_differs _ _ _ _); [done|].
      apply Rleb_false in E. rewrite Ve in E. apply Z.leb_gt.
      destruct (Z_le_gt_dec (bits x) 4) as [Hb|Hb].
      + pose proof (small_bits x Hp Fx Hb). lra.
      + cbn [mag_bits]. unfold default_max_ulps. lia.
    - rewrite ulps_nan by auto. unfold near0. symmetry. apply le_nan_l. unfold nabs. cbn [Num_float]. by rewrite is_nan_Babs.
    - assert (forall z : fl, is_finite z = true -> nle (B754_infinity false) z = false) as Hi.
      { intros z Hz. apply not_true_is_false. unfold nle. cbn [Num_float]. rewrite Fle_pos. rewrite (fin_pos _ _ z) by done. by intros (_ & _ & []). }
      unfold near0. replace (nabs (B754_infinity s')) with (B754_infinity false : fl) by done. rewrite Hi by done.
      unfold ulps. assert (abs_eq (epsilon prec emax) (B754_infinity s') (B754_zero s) = false) as ->.
      { unfold abs_eq. destruct s', s; cbn; by apply Hi. }
      destruct (sign_differs _ _ _ _); [done|]. apply Z.leb_gt. cbn [mag_bits]. unfold default_max_ulps.
      assert (2 ^ 3 <= 2 ^ (prec - 1))%Z by (apply Z.pow_le_mono_r; lia). nia.
  Qed.

  (** ** Units in the last place *)
  Lemma iter_succ (k : nat) (x : fl) : is_finite x = true -> Bsign x = false ->
    let y := Nat.iter k Bsucc x in
    (is_finite y = true /\ Bsign y = false /\ bits y = (bits x + Z.of_nat k)%Z) \/ (y = B754_infinity false /\ (bits (B754_infinity false) <= bits x + Z.of_nat k)%Z).
  Proof.
    intros Fx Sx. induction k as [|k IH]; cbn [Nat.iter nat_rect].
    { left. cbn. split_and!; try done. lia. }
    cbv zeta in *. change (nat_rect (λ _ : nat, fl) x (λ _ : nat, Bsucc) k) with (Nat.iter k Bsucc x).
    destruct IH as [(F & Sg & B)|[E0 HB]].
    - destruct (bits_succ prec emax _ F Sg) as (N' & S' & B').
      destruct (is_finite (Bsucc (Nat.iter k Bsucc x))) eqn:F'.
      + left. split_and!; try done. lia.
      + right. assert (Bsucc (Nat.iter k Bsucc x) = B754_infinity false) as E.
        { destruct (Bsucc (Nat.iter k Bsucc x)); try done. cbn in S'. by subst. }
        split; [exact E|]. rewrite E in B'. lia.
    - right. rewrite E0. split; [done|lia].
  Qed.
  (** [y] is reached from [x] by at most [n] steps to the next larger float, in magnitude. *)
  Definition steps (n : Z) (x y : fl) : Prop := exists k : nat, (Z.of_nat k <= n)%Z /\ Nat.iter k Bsucc (Babs x) = Babs y.
  Lemma bits_Babs (x : fl) : bits (Babs x) = bits x. Proof. by destruct x. Qed.
  Lemma steps_iff n (x y : fl) : is_finite x = true -> is_finite y = true ->
    steps n x y <-> (0 <= bits y - bits x <= n)%Z.
  Proof.
    intros Fx Fy. assert (is_finite (Babs x) = true) as Fx' by by rewrite is_finite_Babs.
    assert (Bsign (Babs x) = false) as Sx' by (apply Bsign_Babs; by apply (fin_nan prec emax)).
    assert (is_finite (Babs y) = true) as Fy' by by rewrite is_finite_Babs.
    assert (Bsign (Babs y) = false) as Sy' by (apply Bsign_Babs; by apply (fin_nan prec emax)).
    rewrite <- (bits_Babs x), <- (bits_Babs y). split.
    - intros (k & Hk & E). destruct (iter_succ k (Babs x) Fx' Sx') as [(F & Sg & B)|[E' _]]; cbv zeta in *.
      + rewrite E in B. lia.
      + rewrite E in E'. rewrite E' in Fy'. done.
    - intros Hb. exists (Z.to_nat (bits (Babs y) - bits (Babs x))). split; [lia|].
      destruct (iter_succ (Z.to_nat (bits (Babs y) - bits (Babs x))) (Babs x) Fx' Sx') as [(F & Sg & B)|[E' HB]]; cbv zeta in *.
      + apply (bits_inj prec emax); [by apply (fin_nan prec emax)..|congruence|]. lia.
      + exfalso. pose proof (bits_fin_inf prec emax _ Fy'). cbn [mag_bits] in HB. lia.
  Qed.
  Lemma ulps_steps (eps : fl) n x y : is_finite x = true -> is_finite y = true ->
    ulps eps n x y = true <-> abs_eq eps x y = true \/ (Bsign x = Bsign y /\ (steps n x y \/ steps n y x)).
  Proof.
    intros Fx Fy. rewrite !steps_iff by done. unfold ulps. destruct (abs_eq eps x y); [tauto|].
    unfold sign_differs. rewrite (fin_nan _ _ _ Fx), (fin_nan _ _ _ Fy). cbn [orb].
    destruct (xorb (Bsign x) (Bsign y)) eqn:X.
    - split; [done|]. intros [?|[E _]]; [done|]. rewrite E, xorb_nilpotent in X. done.
    - apply xorb_eq in X. rewrite Z.leb_le. split; [intros; right; split; [done|lia]|]. intros [?|[_ ?]]; [done|lia].
  Qed.
End cmp.

(** ** C65 *)
(** The four coefficients of a plane. *)
Definition coeffs {S} (p : Plane S) : list S := [vx (pl_n p); vy (pl_n p); vz (pl_n p); pl_d p].
Lemma plane_eq_coeffs {S} (eq : S -> S -> bool) p q :
  plane_eq eq p q = true <-> Forall2 (fun a b => eq a b = true) (coeffs p) (coeffs q).
Proof.
  unfold plane_eq, vec_eq, coeffs. rewrite !andb_true_iff. split.
  - intros [[[? ?] ?] ?]. by repeat (apply List.Forall2_cons; [done|]).
  - intros F. repeat match goal with H : Forall2 _ (_ :: _) (_ :: _) |- _ => apply Forall2_cons_1 in H as [? H] end. tauto.
Qed.
Lemma plane_eq_ext {S} (f g : S -> S -> bool) p q : (forall a b, f a b = g b a) -> plane_eq f p q = plane_eq g q p.
Proof. intros H. unfold plane_eq, vec_eq. by rewrite !H. Qed.
Lemma Forall2_diag {A} (P : A -> A -> Prop) l : Forall2 P l l <-> Forall (fun x => P x x) l.
Proof.
  induction l as [|x l IH]; [split; constructor|]. split.
  - intros [? ?]%Forall2_cons_1. constructor; [done|by apply IH].
  - intros [? ?]%Forall_cons. apply List.Forall2_cons; [done|by apply IH].
Qed.

Lemma Forall2_under {A} (P : A -> Prop) (Q R : A -> A -> Prop) l k : Forall P l -> Forall P k ->
  (forall a b, P a -> P b -> Q a b -> R a b) -> Forall2 Q l k -> Forall2 R l k.
Proof.
  intros Hl Hk H F. induction F as [|a b l k Hab F IH]; [apply List.Forall2_nil|].
  apply Forall_cons in Hl as [? ?], Hk as [? ?]. apply List.Forall2_cons; auto.
Qed.

Section C65.
  Context (prec emax : Z) {Hprec : FLX.Prec_gt_0 prec} {Hemax : Prec_lt_emax prec emax}.
  Notation fl := (binary_float prec emax).
  Local Existing Instance Num_float.
  Notation ulps := (ulps_eq prec emax).
  Notation rel := (relative_eq prec emax).

  (** The test against zero that guards the divisions of the crate is exactly
      "at most the machine epsilon in magnitude", for every float including NaN and infinities. *)
  Theorem C65_ulps_zero (x : fl) : (4 <= prec)%Z ->
    ulps (epsilon prec emax) default_max_ulps x n0 = near0 (epsilon prec emax) x.
  Proof. intros. by apply ulps_zero. Qed.
  Theorem C65_ulps_zero3 (v : V3 fl) : (4 <= prec)%Z ->
    vec_eq (ulps (epsilon prec emax) default_max_ulps) v (mk3 n0 n0 n0) = near0_3 (epsilon prec emax) v.
  Proof. intros Hp. unfold vec_eq, near0_3. cbn [vx vy vz]. by rewrite !C65_ulps_zero. Qed.
  Theorem C65_epsilon : is_finite (epsilon prec emax) = true /\ B2R (epsilon prec emax) = bpow radix2 (1 - prec).
  Proof. by apply epsilon_val. Qed.

  (** Symmetry, for all planes and tolerances. *)
  Theorem C65_symmetric (eps mr : fl) (n : Z) (p q : Plane fl) :
    plane_eq (abs_eq eps) p q = plane_eq (abs_eq eps) q p /\
    plane_eq (rel eps mr) p q = plane_eq (rel eps mr) q p /\
    plane_eq (ulps eps n) p q = plane_eq (ulps eps n) q p.
  Proof.
    split_and!; apply plane_eq_ext; intros; [by apply abs_sym|by apply rel_sym|by apply ulps_sym].
  Qed.

  (** Which planes equal themselves: infinite coefficients break the absolute comparison only,
      NaN breaks all three. *)
  Theorem C65_reflexive (eps mr : fl) (n : Z) (p : Plane fl) : nle n0 eps = true -> (0 <= n)%Z ->
    (plane_eq (abs_eq eps) p p = true <-> Forall (fun c => is_finite c = true) (coeffs p)) /\
    (plane_eq (rel eps mr) p p = true <-> Forall (fun c => is_nan c = false) (coeffs p)) /\
    (plane_eq (ulps eps n) p p = true <-> Forall (fun c => is_nan c = false) (coeffs p)).
  Proof.
    intros He Hn.
    assert (forall x : fl, abs_eq eps x x = true <-> is_finite x = true) as Ha.
    { intros x. destruct (inf_cases prec emax x) as [Fx|[Nx|[s ->]]].
      - split; [done|]. intros _. unfold abs_eq. rewrite lt_fin by done.
        assert (Rltb (B2R x) (B2R x) = false) as -> by (apply Rltb_false; lra).
        revert He. unfold nle, nsub. cbn [Num_float]. rewrite !Fle_pos. intros (_ & Ne & He).
        destruct (sub_pos prec emax x x Fx Fx) as [H1 H2]. split_and!; try done. rewrite H2.
        rewrite Rminus_eq_0, rnd_0. unfold ext. rewrite Rabs_R0, Rlt_bool_true by apply bpow_gt_0. exact He.
      - rewrite abs_nan by auto. destruct x; done.
      - split; [|done]. unfold abs_eq. by destruct s, eps as [[]|[]| |[]]. }
    split_and!; rewrite plane_eq_coeffs, Forall2_diag; apply Forall_iff; intros x.
    - apply Ha.
    - destruct (is_nan x) eqn:Nx; [rewrite rel_nan by auto; done|]. split; [done|]. intros _. unfold rel.
      assert (neq x x = true) as ->; [|done]. unfold neq. cbn [Num_float]. rewrite Feq_pos.
      destruct (pos_le_total (posn prec emax x) (posn prec emax x)); auto.
    - destruct (is_nan x) eqn:Nx; [rewrite ulps_nan by auto; done|]. split; [done|]. intros _. unfold ulps.
      destruct (abs_eq eps x x); [done|]. unfold sign_differs. rewrite Nx, xorb_nilpotent. cbn [orb].
      apply Z.leb_le. rewrite Z.sub_diag. done.
  Qed.
  (** A plane with a NaN coefficient equals no plane. *)
  Theorem C65_nan (eps mr : fl) (n : Z) (p q : Plane fl) : Exists (fun c => is_nan c = true) (coeffs p) ->
    plane_eq (abs_eq eps) p q = false /\ plane_eq (rel eps mr) p q = false /\ plane_eq (ulps eps n) p q = false.
  Proof.
    intros Hx.
    assert (forall eq : fl -> fl -> bool, (forall x y, is_nan x = true -> eq x y = false) -> plane_eq eq p q = false) as Hg.
    { intros eq Hq. apply not_true_is_false. rewrite plane_eq_coeffs. intros F.
      apply Exists_exists in Hx as (c & Hc & Nc). apply elem_of_list_lookup in Hc as [i Hi].
      destruct (Forall2_lookup_l _ _ _ _ _ F Hi) as (d & _ & E). by rewrite Hq in E. }
    split_and!; apply Hg; intros x y Nx; [apply abs_nan|apply rel_nan|apply ulps_nan]; auto.
  Qed.
  (** Planes that pass the absolute test are close: each pair of coefficients differs by less than
      the float after the tolerance, and a difference of at most the tolerance passes. *)
  Theorem C65_abs_close (eps : fl) (p q : Plane fl) : is_finite eps = true ->
    Forall (fun c => is_finite c = true) (coeffs p) -> Forall (fun c => is_finite c = true) (coeffs q) ->
    (plane_eq (abs_eq eps) p q = true ->
     Forall2 (fun a b => Rabs (B2R a - B2R b) < succ radix2 (SpecFloat.fexp prec emax) (B2R eps))%R (coeffs p) (coeffs q)) /\
    (Forall2 (fun a b => Rabs (B2R a - B2R b) <= B2R eps)%R (coeffs p) (coeffs q) -> plane_eq (abs_eq eps) p q = true).
  Proof.
    intros Fe Hp Hq. rewrite !plane_eq_coeffs.
    assert (forall a b : fl, is_finite a = true -> is_finite b = true ->
      (abs_eq eps a b = true -> Rabs (B2R a - B2R b) < succ radix2 (SpecFloat.fexp prec emax) (B2R eps))%R /\
      (Rabs (B2R a - B2R b) <= B2R eps -> abs_eq eps a b = true)%R) as Hk.
    { intros a b Fa Fb. rewrite abs_eq_fin, Rleb_true by done. split.
      - intros Hr. apply Rnot_le_lt. intros Hle. apply (rnd_le prec emax) in Hle.
        assert (rnd prec emax (succ radix2 (SpecFloat.fexp prec emax) (B2R eps)) = succ radix2 (SpecFloat.fexp prec emax) (B2R eps)) as E.
        { apply round_generic; [apply valid_rnd_round_mode|]. apply generic_format_succ; [apply fexp_correct; apply Hprec|apply generic_format_B2R]. }
        rewrite E in Hle. assert (B2R eps < succ radix2 (SpecFloat.fexp prec emax) (B2R eps))%R; [|lra].
        destruct (Req_dec (B2R eps) 0) as [-> | Hne]; [|by apply succ_gt_id].
        rewrite succ_0. change (SpecFloat.fexp prec emax) with (FLT_exp (SpecFloat.emin prec emax) prec).
        rewrite ulp_FLT_0 by done. apply bpow_gt_0.
      - intros Hle. rewrite <- (rnd_B2R prec emax eps). by apply (rnd_le prec emax). }
    split; apply Forall2_under with (P := fun c : fl => is_finite c = true); try done; intros a b Fa Fb; by apply Hk.
  Qed.
  (** Planes that pass the ulps test: each pair of coefficients passes the absolute test, or has one
      sign and is at most [n] neighbouring floats apart. *)
  Theorem C65_ulps_close (eps : fl) (n : Z) (p q : Plane fl) :
    Forall (fun c => is_finite c = true) (coeffs p) -> Forall (fun c => is_finite c = true) (coeffs q) ->
    plane_eq (ulps eps n) p q = true <->
    Forall2 (fun a b => abs_eq eps a b = true \/ (Bsign a = Bsign b /\ (steps prec emax n a b \/ steps prec emax n b a)))
      (coeffs p) (coeffs q).
  Proof.
    intros Hp Hq. rewrite plane_eq_coeffs.
    split; apply Forall2_under with (P := fun c : fl => is_finite c = true); try done; intros a b Fa Fb; by apply ulps_steps.
  Qed.
  (** The absolute test is the strictest. *)
  Theorem C65_abs_strictest (eps mr : fl) (n : Z) (p q : Plane fl) : is_finite eps = true ->
    Forall (fun c => is_finite c = true) (coeffs p) -> Forall (fun c => is_finite c = true) (coeffs q) ->
    plane_eq (abs_eq eps) p q = true -> plane_eq (rel eps mr) p q = true /\ plane_eq (ulps eps n) p q = true.
  Proof.
    intros Fe Hp Hq. rewrite !plane_eq_coeffs. intros F.
    split; revert F; apply Forall2_under with (P := fun c : fl => is_finite c = true); try done; intros a b Fa Fb Ha.
    - unfold rel. destruct (neq a b) eqn:Q; [done|]. assert (is_inf prec emax a || is_inf prec emax b = false) as ->.
      { by destruct a, b. }
      unfold rel_eq. rewrite Q. assert (nle (nabs (nsub a b)) eps = true) as ->; [|done].
      rewrite abs_eq_fin in Ha by done. by rewrite abs_sub_fin.
    - unfold ulps. by rewrite Ha.
  Qed.
End C65.

(** Over the reals: planes within [eps] in every coefficient evaluate alike, up to
    [eps (|x| + |y| + |z| + 1)] at the point [(x, y, z)]. *)
Definition eval_plane (p : Plane R) (v : V3 R) : R :=
  (vx (pl_n p) * vx v + vy (pl_n p) * vy v + vz (pl_n p) * vz v - pl_d p)%R.
Theorem C65_evaluate (eps : R) (p q : Plane R) (v : V3 R) : plane_eq (abs_eq eps) p q = true ->
  (Rabs (eval_plane p v - eval_plane q v) <= eps * (Rabs (vx v) + Rabs (vy v) + Rabs (vz v) + 1))%R.
Proof.
  assert (forall a b, abs_eq eps a b = true -> Rabs (a - b) <= eps)%R as Ha.
  { intros a b. unfold abs_eq, nle, nlt, nsub. cbn [Num_R]. rewrite Rleb_true.
    destruct (Rltb b a) eqn:E; [apply Rltb_true in E; rewrite Rabs_pos_eq by lra; lra|].
    apply Rltb_false in E. rewrite Rabs_left1 by lra. lra. }
  unfold plane_eq, vec_eq. rewrite !andb_true_iff. intros [[[H1%Ha H2%Ha] H3%Ha] H4%Ha].
  unfold eval_plane.
  destruct p as [[a b c] d], q as [[a' b' c'] d'], v as [x y z]. cbn [pl_n pl_d vx vy vz] in *.
  replace (a * x + b * y + c * z - d - (a' * x + b' * y + c' * z - d'))%R
    with ((a - a') * x + (b - b') * y + (c - c') * z + - (d - d'))%R by ring.
  assert (forall u w, Rabs (u - w) <= eps -> forall t, Rabs ((u - w) * t) <= eps * Rabs t)%R as Hm.
  { intros u w Hu t. rewrite Rabs_mult. apply Rmult_le_compat_r; [apply Rabs_pos|done]. }
  pose proof (Hm _ _ H1 x). pose proof (Hm _ _ H2 y). pose proof (Hm _ _ H3 z).
  eapply Rle_trans; [apply Rabs_triang|]. rewrite Rabs_Ropp.
  pose proof (Rabs_triang ((a - a') * x + (b - b') * y) ((c - c') * z)).
  pose proof (Rabs_triang ((a - a') * x) ((b - b') * y)). lra.
Qed.
(** Being approximately equal is not transitive, and the same set of points given by doubled or
    negated coefficients is not recognised. *)
Local Existing Instance Num_float.
Definition px (a d : Z) : Plane f32 := mkPlane (mk3 (F32 a 0) (F32 0 0) (F32 0 0)) (F32 d (-24)).
Theorem C65_transitive_refuted :
  exists p q r : Plane f32, let eq := plane_eq (abs_eq (epsilon 24 128)) in eq p q = true /\ eq q r = true /\ eq p r = false.
Proof. exists (px 1 0), (px 1 2), (px 1 4). by vm_compute. Qed.
Theorem C65_same_plane_refuted :
  exists p q r : Plane f32,
    (forall eq, eq = plane_eq (abs_eq (epsilon 24 128)) \/ eq = plane_eq (relative_eq 24 128 (epsilon 24 128) (epsilon 24 128)) \/
                eq = plane_eq (ulps_eq 24 128 (epsilon 24 128) default_max_ulps) -> eq p q = false /\ eq p r = false) /\
    (forall v : V3 R, let ev (s : Plane f32) := eval_plane (mkPlane (mk3 (B2R (vx (pl_n s))) (B2R (vy (pl_n s))) (B2R (vz (pl_n s)))) (B2R (pl_d s))) v in
       (ev p = 0 <-> ev q = 0)%R /\ (ev p = 0 <-> ev r = 0)%R).
Proof.
  set (z := B754_zero false : f32). set (one := Bone : f32). set (two := Bldexp mode_NE Bone 1 : f32).
  exists (mkPlane (mk3 one z z) one), (mkPlane (mk3 two z z) two), (mkPlane (mk3 (Bopp one) z z) (Bopp one)). split.
  - intros eq [-> | [-> | ->]]; by vm_compute.
  - intros [x y w]. unfold eval_plane. cbn [pl_n pl_d vx vy vz].
    assert (B2R one = 1)%R as H1 by apply Bone_correct.
    assert (B2R two = 2)%R as H2.
    { pose proof (Bldexp_correct 24 128 prec32 emax32 mode_NE Bone 1) as Hc.
      rewrite Bone_correct, Rmult_1_l in Hc.
      rewrite round_generic in Hc; [|apply valid_rnd_round_mode|apply generic_format_bpow; by vm_compute].
      rewrite Rlt_bool_true in Hc by (rewrite Rabs_pos_eq by apply bpow_ge_0; by apply bpow_lt). exact (proj1 Hc). }
    rewrite B2R_Bopp, H1, H2. cbn [z B2R]. split; split; lra.
Qed.
(** Concrete planes meeting the hypotheses. *)
Example C65_hypotheses_met :
  Forall (fun c => is_finite c = true) (coeffs (px 1 2)) /\ Forall (fun c => is_finite c = true) (coeffs (px 1 0)) /\
  is_finite (epsilon 24 128) = true /\ nle n0 (epsilon 24 128) = true /\
  plane_eq (abs_eq (epsilon 24 128)) (px 1 2) (px 1 0) = true /\
  (let u := mkPlane (mk3 (F32 16777215 (-24)) (F32 3 2) (F32 (-5) 7)) (F32 8388611 (-12)) in
   let w := mkPlane (mk3 (F32 1 0) (F32 3 2) (F32 (-5) 7)) (F32 8388608 (-12)) in
   plane_eq (abs_eq (epsilon 24 128)) u w = false /\ plane_eq (ulps_eq 24 128 (epsilon 24 128) default_max_ulps) u w = true).
Proof.
  split; [|split]; [repeat (apply Forall_cons; split; [by vm_compute|]); by apply Forall_nil..|].
  split_and!; by vm_compute.
Qed.
