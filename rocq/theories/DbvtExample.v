(** Concrete instances showing that the hypotheses of the tree theorems are met. *)
From stdpp Require Import prelude gmap fin_maps fin_sets.
From Verif Require Import Res DbvtModel DbvtSpec.

(** Integer intervals, [T] and [B] are (min, max); fat bounds grow by one on both
    sides; surface area is the width; rotate when the area shrinks at all. *)
Definition ival_ops : dbvt_ops (nat * nat) (nat * nat) nat := {|
  tv_bound v := v;
  tv_fat v := (v.1 - 1, v.2 + 1);
  b_union a b := (a.1 `min` b.1, a.2 `max` b.2);
  b_contains a b := bool_decide (a.1 <= b.1) && bool_decide (b.2 <= a.2);
  b_area a := a.2 - a.1;
  s_lt a b := bool_decide (a < b);
  s_improves my mn := bool_decide (mn < my);
|}.
Definition ival_leq (a b : nat * nat) : Prop := b.1 <= a.1 /\ a.2 <= b.2.
Example ival_enclosure : enclosure ival_ops ival_leq.
Proof.
  split; unfold ival_leq; simpl.
  - intros; lia.
  - intros; lia.
  - intros; lia.
  - intros; lia.
  - intros a b.
    destruct (bool_decide_reflect (a.1 <= b.1)), (bool_decide_reflect (b.2 <= a.2)); simpl; intros; try done.
Qed.
Lemma ival_fat_ok a : fat_ok ival_ops a.
Proof. intros h v _. simpl. rewrite !bool_decide_eq_true_2 by lia. done. Qed.

(** Replays a list of calls, tracking the abstract state. *)
Section replay.
  Context {T B S : Type} (O : dbvt_ops T B S).
  Fixpoint replay (fuel : nat) (ops : list (op T)) (a : astate T) (s : dbvt T B) : option (astate T * dbvt T B) :=
    match ops with
    | [] => Some (a, s)
    | o :: ops =>
        match exec O fuel o s with
        | Ok (s', out) => replay fuel ops (anext a o out) s'
        | _ => None
        end
    end.
  (** The boolean part of [legal]. *)
  Definition legalb (a : astate T) (o : op T) : bool :=
    match o with
    | Remove h | UpdateNode h _ | Flag h => bool_decide (h ∈ issued a)
    | Update | Tick _ => bool_decide (pending a ⊆ issued a)
    | Reorder _ => false
    | _ => true
    end.
  Fixpoint replay_legal (fuel : nat) (ops : list (op T)) (a : astate T) (s : dbvt T B) : bool :=
    match ops with
    | [] => true
    | o :: ops =>
        legalb a o &&
        match exec O fuel o s with
        | Ok (s', out) => replay_legal fuel ops (anext a o out) s'
        | _ => false
        end
    end.
  Lemma legalb_legal a o : legalb a o = true -> legal a o.
  Proof. destruct o; simpl; try done; by apply bool_decide_eq_true_1. Qed.
  Lemma replay_history fuel ops a s a' s' :
    history O a s -> replay_legal fuel ops a s = true -> replay fuel ops a s = Some (a', s') ->
    history O a' s'.
  Proof.
    revert a s. induction ops as [|o ops IH]; simpl; intros a s Hh Hl Hr; [by simplify_eq|].
    apply andb_true_iff in Hl as [Hl1 Hl2]. destruct (exec O fuel o s) as [[s1 out]| |] eqn:He; try done.
    eapply IH; [|exact Hl2|exact Hr]. eapply history_step; eauto. by apply legalb_legal.
  Qed.
End replay.

(** Six insertions, two removals, updates, writes, ticks with rotations enabled. *)
Definition demo : list (op (nat * nat)) :=
  [Insert (10, 12); Insert (50, 52); Insert (11, 13); Tick (fun _ => true); Insert (70, 71);
   Insert (20, 30); Insert (51, 60); Refit (fun k => Nat.even k); Remove 3; UpdateNode 5 (100, 110);
   Write 1 (8, 9); Flag 1; Insert (40, 41); Remove 7].
Definition demo_result := replay ival_ops 100 demo astart dbvt_new.
Example demo_legal : replay_legal ival_ops 100 demo astart dbvt_new = true.
Proof. vm_compute. reflexivity. Qed.
Definition demo_state : astate (nat * nat) * dbvt (nat * nat) (nat * nat) :=
  default (astart, dbvt_new) demo_result.
Example demo_history : history ival_ops demo_state.1 demo_state.2.
Proof.
  eapply replay_history; [constructor|exact demo_legal|].
  vm_compute. reflexivity.
Qed.
Example demo_values : values demo_state.2 =
  [(1, (8, 9)); (11, (51, 60)); (5, (100, 110)); (10, (40, 41)); (9, (20, 30))].
Proof. vm_compute. reflexivity. Qed.
Example demo_pending : bool_decide (pending demo_state.1 ⊆ issued demo_state.1) = true
  /\ bool_decide (unflagged demo_state.1 = ∅) = true /\ bool_decide (pending demo_state.1 = ∅) = false.
Proof. vm_compute. done. Qed.
Example demo_stale : bool_decide (7 ∈ issued demo_state.1) = true /\ live demo_state.1 !! 7 = None.
Proof. vm_compute. done. Qed.
