(** C19: the axis computed from accumulated sums is the first one with the largest spread. *)
From Coq Require Import Psatz.
From stdpp Require Import prelude.
From Coq Require Import Reals Lra.
From Verif Require Import Res Num BroadModel.
Local Open Scope R_scope.

(** The spread along axis [j]: the sum of squares less the squared sum over [n]. *)
Definition spread (v : variance R) (n : R) (j : nat) : R := nth j (csumsq v) 0 - nth j (csum v) 0 * nth j (csum v) 0 / n.

Lemma axis_loop_spec (f : nat -> R) : forall l i axis best,
  (forall k, (k < length l)%nat -> nth k l 0 = f (i + k)%nat) -> (axis < i)%nat -> best = f axis ->
  (forall j, (j < i)%nat -> f j <= best) -> (forall j, (j < axis)%nat -> f j < best) ->
  let '(ax, b) := axis_loop l i axis best in
  (ax < i + length l)%nat /\ b = f ax /\ (forall j, (j < i + length l)%nat -> f j <= b) /\ (forall j, (j < ax)%nat -> f j < b).
Proof.
  induction l as [|v l IH]; intros i axis best Hl Hax Hb H1 H2; cbn [axis_loop length].
  { rewrite Nat.add_0_r. done. }
  assert (Hv : v = f i) by (rewrite <- (Nat.add_0_r i); apply (Hl 0%nat); cbn; lia).
  assert (Hl' : forall k, (k < length l)%nat -> nth k l 0 = f (i + 1 + k)%nat).
  { intros k Hk. replace (i + 1 + k)%nat with (i + S k)%nat by lia. apply (Hl (S k)). cbn. lia. }
  replace (i + S (length l))%nat with (i + 1 + length l)%nat by lia. cbn [nlt Num_R].
  destruct (Rltb best v) eqn:E; [apply Rltb_true in E|apply Rltb_false in E]; apply IH; try done; try lia.
  - intros j Hj. destruct (decide (j = i)) as [->|]; [lra|]. assert (f j <= best) by (apply H1; lia). lra.
  - intros j Hj. assert (f j <= best) by (apply H1; lia). lra.
  - intros j Hj. destruct (decide (j = i)) as [->|]; [lra|]. apply H1; lia.
Qed.

Lemma spread_nth (v : variance R) n k : length (csum v) = length (csumsq v) -> (k < length (csumsq v))%nat ->
  nth k (zip_with nsub (csumsq v) ((fun x => ndiv x n) <$> zip_with nmul (csum v) (csum v))) 0 = spread v n k.
Proof.
  unfold spread. generalize (csum v), (csumsq v). clear v. intros a b. revert a k. induction b as [|y b IH]; intros [|x a] [|k] E Hk; cbn in *; try lia; [done|].
  apply IH; lia.
Qed.
(** [compute_axis]: the first of the axes with the largest spread, and that spread. *)
Theorem C19_compute_axis (v : variance R) (n : R) :
  length (csum v) = length (csumsq v) -> (0 < length (csumsq v))%nat ->
  exists ax best, compute_axis v n = Ok (ax, best) /\ (ax < length (csumsq v))%nat /\ best = spread v n ax /\
    (forall j, (j < length (csumsq v))%nat -> spread v n j <= best) /\ (forall j, (j < ax)%nat -> spread v n j < best).
Proof.
  intros E H0. unfold compute_axis. cbv zeta. pose proof (spread_nth v n) as Hn. set (var := zip_with _ _ _) in *.
  assert (Hlen : length var = length (csumsq v)) by (unfold var; rewrite zip_with_length, fmap_length, zip_with_length; lia).
  clearbody var. destruct var as [|x var]; [cbn in Hlen; lia|]. unfold get. cbn [lookup list_lookup mbind res_mbind res_bind drop].
  pose proof (axis_loop_spec (spread v n) var 1 0 x) as H. destruct (axis_loop var 1 0 x) as [ax best] eqn:Ea.
  exists ax, best. split; [by rewrite drop_0, Ea|]. cbn in Hlen. rewrite <- Hlen.
  assert (Hx : x = spread v n 0) by (exact (Hn 0%nat E H0)).
  apply H; try lia.
  - intros k Hk. cbn [Nat.add]. apply (Hn (S k) E). lia.
  - done.
  - intros j Hj. assert (j = 0)%nat as -> by lia. lra.
Qed.
(** Centres (1, 0) and (3, 10): the sums are (4, 10) and (10, 100); the axis is y. *)
Example C19_compute_axis_met :
  let v := Variance [4; 10] [10; 100] in
  length (csum v) = length (csumsq v) /\ (0 < length (csumsq v))%nat /\ compute_axis v 2 = Ok (1%nat, 50).
Proof.
  cbv zeta. split; [done|]. split; [cbn; lia|]. unfold compute_axis. cbn. rewrite (proj2 (Rltb_true _ _)) by lra. do 2 f_equal. lra.
Qed.
