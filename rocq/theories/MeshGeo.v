(** The geometry of hill climbing: at a corner of a convex surface, a direction that does
    not increase along any of the edges does not increase towards any vertex. *)
From Coq Require Import Psatz.
From stdpp Require Import prelude.
From Coq Require Import Reals Lra.
From Verif Require Import Num Vec RealGeo ShapeSpec.
Local Open Scope R_scope.

Definition det3 (a b c : P3) : R := dot3 (cross3 a b) c.
(** A sequence that never decreases and comes back to its start is constant. *)
Lemma cyc_mono (f : nat -> R) k : f k = f 0%nat -> (forall i, f i <= f (S i)) -> forall i, (i <= k)%nat -> f i = f 0%nat.
Proof.
  intros Hk Hm.
  assert (Hle : forall i j, (i <= j)%nat -> f i <= f j).
  { intros i j Hij. induction Hij as [|j Hij IH]; [lra|]. specialize (Hm j). lra. }
  intros i Hi. pose proof (Hle 0%nat i (Nat.le_0_l i)). pose proof (Hle i k Hi). lra.
Qed.
Lemma two_functionals (y G a b : P3) : dot3 G y = 0 ->
  dot3 G a * dot3 (cross3 y G) b - dot3 G b * dot3 (cross3 y G) a = dot3 G G * det3 a b y.
Proof.
  intros E. assert (dot3 G a * dot3 (cross3 y G) b - dot3 G b * dot3 (cross3 y G) a = dot3 G G * det3 a b y - dot3 G y * dot3 (cross3 a b) G) as ->.
  { unfold det3. clear E. rv0. ring. }
  rewrite E. lra.
Qed.
Lemma Rle_div_r_alt a b c d : 0 < b -> 0 < d -> a * d <= c * b -> a / b <= c / d.
Proof.
  intros Hb Hd E. apply (Rmult_le_reg_r (b * d)); [nra|]. replace (a / b * (b * d)) with (a * d) by (field; lra).
  replace (c / d * (b * d)) with (c * b) by (field; lra). done.
Qed.
Lemma decompose3 (y G e : P3) : dot3 G y = 0 ->
  scale3 e (dot3 y y * dot3 G G) =
  add3 (add3 (scale3 y (dot3 y e * dot3 G G)) (scale3 G (dot3 G e * dot3 y y))) (scale3 (cross3 y G) (dot3 (cross3 y G) e)).
Proof.
  intros E.
  assert (forall r, add3 (add3 (scale3 y (dot3 y e * dot3 G G - dot3 G e * r)) (scale3 G (dot3 G e * dot3 y y - dot3 y e * r))) (scale3 (cross3 y G) (dot3 (cross3 y G) e))
    = scale3 e (dot3 y y * dot3 G G - r * r) \/ r <> dot3 G y) as Hr.
  { intros r. destruct (Req_dec r (dot3 G y)) as [->|]; [left|by right]. clear E. destruct y as [y1 y2 y3], G as [g1 g2 g3], e as [e1 e2 e3]. apply V3_eq; rv0; ring. }
  destruct (Hr 0) as [H0|H0]; [|lra]. rewrite !Rmult_0_r, !Rminus_0_r in H0. by rewrite H0.
Qed.
Section fan.
  (** The edges at the corner, in cyclic order, seen from the corner. *)
  Context (e : nat -> P3) (k : nat).
  Hypothesis Hcyc : e k = e 0%nat.
  Hypothesis Hk : (0 < k)%nat.
  Lemma slopes (y G : P3) : dot3 G y = 0 -> (forall i, 0 < dot3 G (e i)) -> (forall i, 0 <= det3 (e i) (e (S i)) y) ->
    exists rho, forall i, (i <= k)%nat -> dot3 (cross3 y G) (e i) = rho * dot3 G (e i).
  Proof.
    intros HGy Hg Hd. set (f := fun i => dot3 (cross3 y G) (e i) / dot3 G (e i)).
    exists (f 0%nat). intros i Hi. rewrite <- (cyc_mono f k) with (i := i); [|unfold f; by rewrite Hcyc| |exact Hi].
    - unfold f. specialize (Hg i). field. lra.
    - intros j. unfold f. pose proof (two_functionals y G (e j) (e (S j)) HGy) as Ht. pose proof (Hg j) as H1. pose proof (Hg (S j)) as H2. specialize (Hd j).
      assert (0 <= dot3 G G * det3 (e j) (e (S j)) y) by (apply Rmult_le_pos; [apply dot3_nonneg|done]).
      apply Rle_div_r_alt; [done|done|]. lra.
  Qed.
  Lemma fan_global (c d : P3) (zs : list P3) :
    (forall i, cross3 (e i) (e (S i)) <> zero3) ->
    (forall i z, z ∈ zs -> 0 <= det3 (e i) (e (S i)) z) ->
    (forall i, 0 < dot3 c (e i)) -> (forall z, z ∈ zs -> z <> zero3 -> 0 < dot3 c z) ->
    (forall n, n <> zero3 -> exists z, z ∈ zs /\ dot3 n z <> 0) ->
    (forall i, dot3 d (e i) <= 0) -> forall y, y ∈ zs -> dot3 d y <= 0.
  Proof.
    intros Hnd Hcv Hce Hcz Hnf Hloc y Hy. apply Rnot_lt_le. intros Hdy.
    assert (Hy0 : y <> zero3). { intros ->. clear -Hdy. rv0. lra. }
    pose proof (Hcz y Hy Hy0) as Hcy.
    set (G := sub3 (scale3 c (dot3 d y)) (scale3 d (dot3 c y))).
    assert (HGe : forall x, dot3 G x = dot3 c x * dot3 d y - dot3 d x * dot3 c y). { intros x. unfold G. clear. rv0. ring. }
    assert (HGy : dot3 G y = 0). { rewrite HGe. ring. }
    assert (Hg : forall i, 0 < dot3 G (e i)).
    { intros i. rewrite HGe. specialize (Hce i). specialize (Hloc i).
      assert (0 < dot3 c (e i) * dot3 d y) by (by apply Rmult_lt_0_compat). assert (dot3 d (e i) * dot3 c y <= 0 * dot3 c y) by (apply Rmult_le_compat_r; lra). lra. }
    destruct (slopes y G HGy Hg) as (rho & Hrho). { intros i. by apply Hcv. }
    assert (HG0 : 0 < dot3 G G). { destruct (Req_dec (dot3 G G) 0) as [E|E]; [|pose proof (dot3_nonneg G); lra].
      rewrite <- (mag3_sqr G) in E. apply Rmult_integral in E. assert (G = zero3) as E' by (apply mag3_zero_iff; tauto).
      specialize (Hg 0%nat). rewrite E' in Hg. clear -Hg. revert Hg. generalize (e 0%nat). intros x Hg. rv0. lra. }
    assert (Hyy : 0 < dot3 y y). { pose proof (mag3_pos y Hy0). rewrite <- mag3_sqr. by apply Rmult_lt_0_compat. }
    set (U := add3 (scale3 G (dot3 y y)) (scale3 (cross3 y G) rho)). set (s := dot3 y y * dot3 G G).
    assert (Hs : 0 < s) by (by apply Rmult_lt_0_compat).
    assert (He : forall i, (i <= k)%nat -> scale3 (e i) s = add3 (scale3 y (dot3 y (e i) * dot3 G G)) (scale3 U (dot3 G (e i)))).
    { intros i Hi. unfold s. rewrite (decompose3 y G (e i) HGy), (Hrho i Hi). unfold U.
      generalize (cross3 y G), (dot3 G G), (dot3 G (e i)), (dot3 y y), (dot3 y (e i)), G. clear. intros w g2 g y2 b G.
      apply V3_eq; rv0; ring. }
    assert (Hcr : forall i, (i < k)%nat -> forall z, s * s * det3 (e i) (e (S i)) z =
      dot3 G G * (dot3 y (e i) * dot3 G (e (S i)) - dot3 y (e (S i)) * dot3 G (e i)) * dot3 (cross3 y U) z).
    { intros i Hi z. pose proof (He i ltac:(lia)) as E1. pose proof (He (S i) ltac:(lia)) as E2.
      assert (s * s * det3 (e i) (e (S i)) z = det3 (scale3 (e i) s) (scale3 (e (S i)) s) z) as ->.
      { unfold det3. clear. generalize s, (e i), (e (S i)). intros. rv0. ring. }
      rewrite E1, E2. unfold det3. clear. generalize (dot3 y (e i)), (dot3 y (e (S i))), (dot3 G (e i)), (dot3 G (e (S i))), (dot3 G G), U. intros. rv0. ring. }
    set (tau := fun i => dot3 y (e i) / dot3 G (e i)).
    assert (Htau : forall i, dot3 y (e i) * dot3 G (e (S i)) - dot3 y (e (S i)) * dot3 G (e i) = dot3 G (e i) * dot3 G (e (S i)) * (tau i - tau (S i))).
    { intros i. unfold tau. pose proof (Hg i). pose proof (Hg (S i)). field. split; lra. }
    assert (Hconst : ~ forall i, (i <= k)%nat -> tau i = tau 0%nat).
    { intros Hc. apply (Hnd 0%nat). assert (Hz : forall z, det3 (e 0%nat) (e 1%nat) z = 0).
      { intros z. pose proof (Hcr 0%nat Hk z) as E. rewrite Htau, (Hc 1%nat) in E by lia.
        replace (tau 0%nat - tau 0%nat) with 0 in E by ring. rewrite !Rmult_0_r, Rmult_0_l in E.
        assert (0 < s * s) by (by apply Rmult_lt_0_compat). apply Rmult_integral in E as [E|E]; [lra|done]. }
      apply mag3_zero_iff. pose proof (mag3_sqr (cross3 (e 0%nat) (e 1%nat))) as E. unfold det3 in Hz. rewrite Hz in E. by apply Rmult_integral in E as [?|?]. }
    assert (HU : cross3 y U <> zero3).
    { intros E. apply (Hnd 0%nat). apply mag3_zero_iff. pose proof (mag3_sqr (cross3 (e 0%nat) (e 1%nat))) as E'.
      pose proof (Hcr 0%nat Hk (cross3 (e 0%nat) (e 1%nat))) as E2. rewrite E in E2. unfold det3 in E2. rewrite <- E' in E2.
      assert (dot3 zero3 (cross3 (e 0%nat) (e 1%nat)) = 0) as E3 by (clear; rv0; ring). rewrite E3, Rmult_0_r in E2.
      assert (0 < s * s) by (by apply Rmult_lt_0_compat). apply Rmult_integral in E2 as [E2|E2]; [lra|]. by apply Rmult_integral in E2 as [?|?]. }
    destruct (Hnf _ HU) as (z & Hz & Hzn).
    assert (Hsg : forall i, (i < k)%nat -> 0 <= (tau i - tau (S i)) * dot3 (cross3 y U) z).
    { intros i Hi. specialize (Hcr i Hi z). rewrite Htau in Hcr. specialize (Hcv i z Hz). pose proof (Hg i). pose proof (Hg (S i)).
      assert (0 <= s * s * det3 (e i) (e (S i)) z) as Hp by (apply Rmult_le_pos; [|done]; apply Rlt_le; by apply Rmult_lt_0_compat).
      rewrite Hcr in Hp. apply (Rmult_le_reg_l (dot3 G G * (dot3 G (e i) * dot3 G (e (S i))))).
      - apply Rmult_lt_0_compat; [done|]. by apply Rmult_lt_0_compat.
      - rewrite Rmult_0_r. lra. }
    (* monotone up to [k], constant afterwards *)
    apply Hconst. set (sg := if Rlt_dec (dot3 (cross3 y U) z) 0 then 1 else -1).
    assert (Hsg' : forall i, (i < k)%nat -> sg * tau i <= sg * tau (S i)).
    { intros i Hi. specialize (Hsg i Hi). unfold sg. destruct (Rlt_dec (dot3 (cross3 y U) z) 0); nra. }
    set (f := fun i => sg * tau (Nat.min i k)).
    assert (Hf : forall i, (i <= k)%nat -> f i = f 0%nat).
    { apply cyc_mono.
      - unfold f. rewrite Nat.min_id. unfold tau. rewrite Hcyc. done.
      - intros i. unfold f. destruct (decide (i < k)%nat) as [Hi|Hi].
        + rewrite !Nat.min_l by lia. by apply Hsg'.
        + rewrite !Nat.min_r by lia. lra. }
    intros i Hi. specialize (Hf i Hi). unfold f in Hf. rewrite !Nat.min_l in Hf by lia. unfold sg in Hf. destruct (Rlt_dec _ _); lra.
  Qed.
End fan.
