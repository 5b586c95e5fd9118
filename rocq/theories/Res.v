(** Result type of the modelled functions.

    [Panic] is a Rust panic (index out of bounds, explicit [panic!], ...);
    [OutOfFuel] is not a behaviour of the code: it says that the fuel given to
    a modelled loop did not suffice.  Every theorem excludes it. *)
From stdpp Require Import prelude.

Inductive res (A : Type) : Type :=
  | Ok (a : A)
  | Panic
  | OutOfFuel.
Arguments Ok {A} a.
Arguments Panic {A}.
Arguments OutOfFuel {A}.

Definition res_bind {A B} (f : A -> res B) (m : res A) : res B :=
  match m with Ok a => f a | Panic => Panic | OutOfFuel => OutOfFuel end.
Global Instance res_mbind : MBind res := @res_bind.
Global Instance res_mret : MRet res := @Ok.

Lemma res_bind_Ok {A B} (m : res A) (f : A -> res B) b :
  m ≫= f = Ok b -> exists a, m = Ok a /\ f a = Ok b.
Proof. destruct m; simpl; intros; simplify_eq; eauto. Qed.

(** Indexing a [Vec]: out of bounds panics. *)
Definition get {A} (l : list A) (i : nat) : res A :=
  match l !! i with Some x => Ok x | None => Panic end.

Lemma get_Ok {A} (l : list A) i x : get l i = Ok x <-> l !! i = Some x.
Proof. unfold get. destruct (l !! i); naive_solver. Qed.
Lemma get_Some {A} (l : list A) i x : l !! i = Some x -> get l i = Ok x.
Proof. by rewrite get_Ok. Qed.
