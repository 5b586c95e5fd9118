(** Real numbers with IEEE-754 special values but no rounding: signed zeros,
    infinities and NaN behave as in IEEE-754, finite results are exact. *)
From stdpp Require Import prelude.
From Coq Require Import Reals Lra.
From Verif Require Import Num.
Local Open Scope R_scope.

(** [XFin s r]: the finite number [r]; when [r = 0], [s] is the sign of the zero. *)
Inductive xr := XFin (s : bool) (r : R) | XInf (s : bool) | XNaN.

Definition Rneg (r : R) : bool := Rltb r 0.
Definition Rzero (r : R) : bool := Reqb r 0.
(** Sign bit (true: negative); for NaN arbitrary. *)
Definition xsign (x : xr) : bool :=
  match x with XFin s r => if Rzero r then s else Rneg r | XInf s => s | XNaN => false end.
Definition xneg (x : xr) : xr :=
  match x with XFin s r => XFin (negb s) (- r) | XInf s => XInf (negb s) | XNaN => XNaN end.
(** A zero sum is negative only if both operands are negative zeros. *)
Definition xadd (x y : xr) : xr :=
  match x, y with
  | XNaN, _ | _, XNaN => XNaN
  | XInf s, XInf t => if Bool.eqb s t then XInf s else XNaN
  | XInf s, XFin _ _ => XInf s
  | XFin _ _, XInf t => XInf t
  | XFin _ r, XFin _ q => XFin (Rzero r && Rzero q && xsign x && xsign y) (r + q)
  end.
Definition xsub (x y : xr) : xr := xadd x (xneg y).
Definition xmul (x y : xr) : xr :=
  let s := xorb (xsign x) (xsign y) in
  match x, y with
  | XNaN, _ | _, XNaN => XNaN
  | XInf _, XInf _ => XInf s
  | XInf _, XFin _ r | XFin _ r, XInf _ => if Rzero r then XNaN else XInf s
  | XFin _ r, XFin _ q => XFin s (r * q)
  end.
Definition xdiv (x y : xr) : xr :=
  let s := xorb (xsign x) (xsign y) in
  match x, y with
  | XNaN, _ | _, XNaN => XNaN
  | XInf _, XInf _ => XNaN
  | XInf _, XFin _ _ => XInf s
  | XFin _ _, XInf _ => XFin s 0
  | XFin _ r, XFin _ q => if Rzero q then (if Rzero r then XNaN else XInf s) else XFin s (r / q)
  end.
Definition xsqrt (x : xr) : xr :=
  match x with
  | XNaN => XNaN
  | XInf true => XNaN
  | XInf false => XInf false
  | XFin s r => if Rneg r then XNaN else XFin s (sqrt r)
  end.
Definition xabs (x : xr) : xr :=
  match x with XNaN => XNaN | XInf _ => XInf false | XFin _ r => XFin false (Rabs r) end.
(** Position on the extended line; [None] for NaN. *)
Definition xle (x y : xr) : bool :=
  match x, y with
  | XNaN, _ | _, XNaN => false
  | XInf true, _ => true
  | _, XInf false => true
  | XFin _ r, XFin _ q => Rleb r q
  | _, _ => false
  end.
Definition xnan (x : xr) : bool := match x with XNaN => true | _ => false end.
Definition xlt (x y : xr) : bool := negb (xnan x) && negb (xnan y) && negb (xle y x).
Definition xeq (x y : xr) : bool := xle x y && xle y x.

Global Instance Num_xr : Num xr := {
  n0 := XFin false 0; n1 := XFin false 1; nadd := xadd; nsub := xsub; nmul := xmul; ndiv := xdiv;
  nneg := xneg; nsqrt := xsqrt; nabs := xabs; nlt := xlt; nle := xle; neq := xeq }.
Global Instance NumInf_xr : NumInf xr := { ninf := XInf false; nninf := XInf true }.

Global Instance NumOrd_xr : NumOrd xr.
Proof.
  refine {| ok := fun x => xnan x = false; ok_dec := _ |}; simpl.
  - intros [| [] |] [| [] |]; simpl; done.
  - intros x y. unfold xlt. rewrite !andb_true_iff, !negb_true_iff. tauto.
  - intros [| [] |] [| [] |]; simpl; intros; try done; auto. rewrite !Rleb_true. lra.
  - intros [| [] |] [| [] |] [| [] |]; simpl; intros; try done. rewrite !Rleb_true in *. lra.
  - intros x y Hx Hy. unfold xlt. by rewrite Hx, Hy.
  - done.
Defined.

(** [x] is the finite number [r]; the sign bit of a zero is not fixed. *)
Definition is_fin (x : xr) (r : R) : Prop := exists s, x = XFin s r.
Lemma Rzero_true r : Rzero r = true <-> r = 0. Proof. apply Reqb_true. Qed.
Lemma Rzero_false r : Rzero r = false <-> r <> 0. Proof. apply Reqb_false. Qed.
Lemma Rneg_true r : Rneg r = true <-> r < 0. Proof. apply Rltb_true. Qed.
Lemma Rneg_false r : Rneg r = false <-> 0 <= r. Proof. apply Rltb_false. Qed.

Lemma fin_add x y a b : is_fin x a -> is_fin y b -> is_fin (xadd x y) (a + b).
Proof. intros [s ->] [t ->]. simpl. eexists; done. Qed.
Lemma fin_sub x y a b : is_fin x a -> is_fin y b -> is_fin (xsub x y) (a - b).
Proof. intros [s ->] [t ->]. unfold xsub. simpl. eexists; done. Qed.
Lemma fin_mul x y a b : is_fin x a -> is_fin y b -> is_fin (xmul x y) (a * b).
Proof. intros [s ->] [t ->]. simpl. eexists; done. Qed.
Lemma fin_div x y a b : b <> 0 -> is_fin x a -> is_fin y b -> is_fin (xdiv x y) (a / b).
Proof. intros Hb [s ->] [t ->]. simpl. apply Rzero_false in Hb as ->. eexists; done. Qed.
Lemma fin_neg x a : is_fin x a -> is_fin (xneg x) (- a).
Proof. intros [s ->]. eexists; done. Qed.
Lemma fin_sqrt x a : 0 <= a -> is_fin x a -> is_fin (xsqrt x) (sqrt a).
Proof. intros Ha [s ->]. simpl. apply Rneg_false in Ha as ->. eexists; done. Qed.
Lemma fin_abs x a : is_fin x a -> is_fin (xabs x) (Rabs a).
Proof. intros [s ->]. eexists; done. Qed.
Lemma fin_le x y a b : is_fin x a -> is_fin y b -> xle x y = Rleb a b.
Proof. intros [s ->] [t ->]. done. Qed.
Lemma fin_lt x y a b : is_fin x a -> is_fin y b -> xlt x y = Rltb a b.
Proof.
  intros [s ->] [t ->]. unfold xlt. simpl. destruct (Rltb a b) eqn:E.
  - apply Rltb_true in E. apply negb_true_iff, Rleb_false. done.
  - apply Rltb_false in E. apply negb_false_iff, Rleb_true. done.
Qed.
Lemma fin_eq x y a b : is_fin x a -> is_fin y b -> xeq x y = Reqb a b.
Proof.
  intros [s ->] [t ->]. unfold xeq. simpl. destruct (Reqb a b) eqn:E.
  - apply Reqb_true in E as ->. rewrite andb_true_iff, Rleb_true. lra.
  - apply Reqb_false in E. rewrite andb_false_iff, !Rleb_false. lra.
Qed.
Lemma fin_ok x a : is_fin x a -> ok x.
Proof. intros [s ->]. done. Qed.
(** [fmin], [fmax] on finite numbers. *)
Lemma fin_fmin x y a b : is_fin x a -> is_fin y b -> is_fin (fmin x y) (Rmin a b).
Proof.
  intros Hx Hy. unfold fmin. simpl. rewrite (fin_eq x x a a), (fin_eq y y b b), (fin_lt y x b a) by done.
  assert (Reqb a a = true) as -> by by apply Reqb_true. assert (Reqb b b = true) as -> by by apply Reqb_true. simpl.
  destruct (Rltb b a) eqn:E.
  - apply Rltb_true in E. rewrite Rmin_right by lra. done.
  - apply Rltb_false in E. rewrite Rmin_left by lra. done.
Qed.
Lemma fin_fmax x y a b : is_fin x a -> is_fin y b -> is_fin (fmax x y) (Rmax a b).
Proof.
  intros Hx Hy. unfold fmax. simpl. rewrite (fin_eq x x a a), (fin_eq y y b b), (fin_lt x y a b) by done.
  assert (Reqb a a = true) as -> by by apply Reqb_true. assert (Reqb b b = true) as -> by by apply Reqb_true. simpl.
  destruct (Rltb a b) eqn:E.
  - apply Rltb_true in E. rewrite Rmax_right by lra. done.
  - apply Rltb_false in E. rewrite Rmax_left by lra. done.
Qed.
