(** C29: boolean and point-valued ray tests agree.  Stated for every scalar with the order
    laws, hence for all IEEE floats, NaN and infinite coordinates included. *)
From stdpp Require Import prelude.
From Coq Require Import Reals Lra Psatz.
From Flocq Require Import IEEE754.BinarySingleNaN.
From Verif Require Import Num Vec Xr AabbModel PropsAabb PropsRayBox.

Section agree.
  Context {S : Type} `{NumOrd S} `{NumInf S}.
  Context (ok0 : ok (n0 : S)) (ok_inf : ok (ninf : S)) (ok_ninf : ok (nninf : S)).
  Lemma neq_ok (x : S) : neq x x = true <-> ok x.
  Proof.
    rewrite ord_eq, andb_true_iff. split; [intros [Hl _]; by eapply ord_le_ok|].
    intros Hx. split; by apply le_refl.
  Qed.
  Lemma neq_ok_false (x : S) : neq x x = false <-> ~ ok x.
  Proof. rewrite <- neq_ok. by rewrite not_true_iff_false. Qed.
  Lemma ok_fmax (x y : S) : ok (fmax x y) <-> ok x \/ ok y.
  Proof.
    unfold fmax. destruct (neq x x) eqn:Ex; simpl.
    - apply neq_ok in Ex. destruct (neq y y) eqn:Ey; simpl; [|tauto]. apply neq_ok in Ey. destruct (nlt x y); tauto.
    - apply neq_ok_false in Ex. tauto.
  Qed.
  Lemma ok_fmin (x y : S) : ok (fmin x y) <-> ok x \/ ok y.
  Proof.
    unfold fmin. destruct (neq x x) eqn:Ex; simpl.
    - apply neq_ok in Ex. destruct (neq y y) eqn:Ey; simpl; [|tauto]. apply neq_ok in Ey. destruct (nlt y x); tauto.
    - apply neq_ok_false in Ex. tauto.
  Qed.
  Lemma decisions_agree (tm tM : S) : ok tm -> ok tM ->
    (nle tm tM && (nle n0 tm || nle n0 tM))%bool = negb ((nlt tm n0 && nlt tM n0) || nlt tM tm)%bool.
  Proof.
    intros Hm HM. rewrite !ord_lt by done. by destruct (nle tm tM), (nle n0 tm), (nle n0 tM).
  Qed.

  Theorem C29_aabb2_discrete_iff_continuous (r : Ray (V2 S)) (b : Aabb2 S) :
    ray_aabb2_test r b = true <-> is_Some (ray_aabb2 r b).
  Proof.
    unfold ray_aabb2_test, ray_aabb2.
    destruct (slabs2 r b) as [[tm tM]|] eqn:Hs; [|split; [done|by intros []]].
    assert (Hok : forall lo hi o d t t', slab2 lo hi o d t = Some t' -> ok t.1 -> ok t.2 -> ok t'.1 /\ ok t'.2).
    { clear tm tM Hs. intros lo hi o d t t'. unfold slab2. destruct (negb _).
      - intros [= <-] ? ?. simpl. split; [apply ok_fmax|apply ok_fmin]; auto.
      - destruct (_ || _); [done|]. intros [= <-]. auto. }
    unfold slabs2 in Hs. destruct (slab2 _ _ _ _ (nninf, ninf)) as [t1|] eqn:E; [|done].
    apply Hok in E as [? ?]; [|done..]. apply Hok in Hs as [? ?]; [|done..]. simpl in *.
    rewrite decisions_agree by done. destruct (((nlt tm n0 && nlt tM n0) || nlt tM tm)%bool); simpl; split; eauto; [done|by intros []].
  Qed.

  (** The six slab parameters of the 3D test. *)
  Definition params3 (r : Ray (V3 S)) (b : Aabb3 S) : list S :=
    let o := origin r in let d := direction r in
    [((vx (min3 b) - vx o) * (n1 / vx d))%N_; ((vx (max3 b) - vx o) * (n1 / vx d))%N_;
     ((vy (min3 b) - vy o) * (n1 / vy d))%N_; ((vy (max3 b) - vy o) * (n1 / vy d))%N_;
     ((vz (min3 b) - vz o) * (n1 / vz d))%N_; ((vz (max3 b) - vz o) * (n1 / vz d))%N_].
  Theorem C29_aabb3_disagreement_iff_all_nan (r : Ray (V3 S)) (b : Aabb3 S) :
    (ray_aabb3_test r b = true -> is_Some (ray_aabb3 r b))
    /\ (ray_aabb3_test r b = false /\ is_Some (ray_aabb3 r b) <-> Forall (fun t => ~ ok t) (params3 r b)).
  Proof.
    unfold ray_aabb3_test, ray_aabb3. destruct (slabs3 r b) as [tm tM] eqn:Hs.
    assert (Hm : ok tm <-> Exists ok (params3 r b)).
    { unfold slabs3 in Hs. simplify_eq. unfold params3. rewrite !Exists_cons, Exists_nil, !ok_fmax, !ok_fmin. clear. tauto. }
    assert (HM : ok tM <-> Exists ok (params3 r b)).
    { unfold slabs3 in Hs. simplify_eq. unfold params3. rewrite !Exists_cons, Exists_nil, !ok_fmin, !ok_fmax. clear. tauto. }
    clear Hs. rewrite List.Forall_Exists_neg. revert Hm HM. generalize (Exists ok (params3 r b)). intros E0 Hm HM.
    destruct (decide (ok tm)) as [Ok|Nok].
    - assert (ok tM) as OkM by tauto. rewrite decisions_agree by done.
      destruct (((nlt tm n0 && nlt tM n0) || nlt tM tm)%bool); simpl.
      + split; [done|]. split; [intros [_ []]; done|]. tauto.
      + split; [eauto|]. split; [intros [? _]; done|]. tauto.
    - assert (~ ok tM) as NokM by tauto.
      assert (nle tm tM = false) as -> by (destruct (nle tm tM) eqn:E; [|done]; apply ord_le_ok in E; tauto).
      assert (nlt tm n0 = false) as -> by (destruct (nlt tm n0) eqn:E; [|done]; apply ord_lt_ok in E; tauto).
      assert (nlt tM tm = false) as -> by (destruct (nlt tM tm) eqn:E; [|done]; apply ord_lt_ok in E; tauto).
      simpl. split; [done|]. split; [|eauto]. intros _. tauto.
  Qed.
End agree.

(** All floats of every IEEE format. *)
Theorem C29_aabb2_agree_on_floats prec emax {Hprec : Core.FLX.Prec_gt_0 prec} {Hemax : Prec_lt_emax prec emax}
    (r : Ray (V2 (binary_float prec emax))) (b : Aabb2 (binary_float prec emax)) :
  let N := Num_float prec emax in let I := NumInf_float prec emax in
  ray_aabb2_test r b = true <-> is_Some (ray_aabb2 r b).
Proof.
  cbn zeta. apply (@C29_aabb2_discrete_iff_continuous _ (Num_float prec emax) (NumOrd_float prec emax) (NumInf_float prec emax)); done.
Qed.

Local Open Scope R_scope.
(** With finite inputs the disagreement is exactly a point-sized box at the origin of a ray without
    direction. *)
Theorem C29_aabb3_finite_disagreement (r : Ray (V3 xr)) (b : Aabb3 xr) (q : Ray (V3 R)) (c : Aabb3 R) :
  fin_ray3 r q -> fin_box3 b c ->
  (ray_aabb3_test r b = false /\ is_Some (ray_aabb3 r b))
  <-> direction q = zero3 /\ min3 c = origin q /\ max3 c = origin q.
Proof.
  intros [(Ox & Oy & Oz) (Dx & Dy & Dz)] [(Lx & Ly & Lz) (Hx & Hy & Hz)].
  assert (ok (n0 : xr)) as O0 by done.
  rewrite (proj2 (C29_aabb3_disagreement_iff_all_nan (S := xr) O0 r b)).
  assert (Hnan : forall u o d u' o' d', is_fin u u' -> is_fin o o' -> is_fin d d' ->
    ~ ok ((u - o) * (n1 / d))%N_ <-> d' = 0 /\ u' = o').
  { intros u o d u' o' d' Hu Ho Hd. destruct (Req_dec d' 0) as [->|Hne].
    - destruct (fin_sub u o _ _ Hu Ho) as [s1 E]. simpl nsub. rewrite E. destruct Hd as [s ->].
      assert (Hi : (n1 / XFin s 0)%N_ = XInf s).
      { simpl. assert (Rzero 0 = true) as E0 by by apply Rzero_true. rewrite !E0. assert (Rzero 1 = false) as -> by (apply Rzero_false; lra).
        assert (Rneg 1 = false) as -> by (apply Rneg_false; lra). simpl. by destruct s. }
      rewrite Hi. simpl. destruct (Rzero (u' - o')) eqn:E2; [apply Rzero_true in E2|apply Rzero_false in E2]; simpl.
      + split; [|done]. intros _. split; [done|lra].
      + split; [done|]. intros [_ ->]. lra.
    - assert (F0 : is_fin (n1 / d)%N_ (1 / d')) by (apply fin_div; [done|eexists; done|done]).
      destruct (fin_mul _ _ _ _ (fin_sub u o _ _ Hu Ho) F0) as [s E]. simpl nsub. simpl nmul. simpl ndiv in *. rewrite E.
      split; [done|]. by intros []. }
  unfold params3. rewrite !Forall_cons, Forall_nil.
  rewrite (Hnan _ _ _ _ _ _ Lx Ox Dx), (Hnan _ _ _ _ _ _ Hx Ox Dx), (Hnan _ _ _ _ _ _ Ly Oy Dy), (Hnan _ _ _ _ _ _ Hy Oy Dy),
    (Hnan _ _ _ _ _ _ Lz Oz Dz), (Hnan _ _ _ _ _ _ Hz Oz Dz).
  destruct q as [[ox oy oz] [dx dy dz]], c as [[lx ly lz] [hx hy hz]]; simpl. unfold zero3; simpl.
  split; [intros ([-> ->] & [_ ->] & [-> ->] & [_ ->] & [-> ->] & [_ ->] & _); done|].
  intros ([= -> -> ->] & [= -> -> ->] & [= -> -> ->]). done.
Qed.
