(** Scalars.  The crate is generic over [BaseNum]/[BaseFloat] scalars (cgmath);
    the model is generic over the operations, which theorems instantiate with
    IEEE-754 binary floats (Flocq), exact reals, or reals extended with signed
    zeros, infinities and NaN. *)
From stdpp Require Import prelude.
From Coq Require Import Reals Lra.
From Flocq Require Import Core.Core IEEE754.BinarySingleNaN.

(** Arithmetic and comparison operators used by the crate: [+ - * / neg sqrt abs],
    [< <= ==]. *)
Class Num (S : Type) := {
  n0 : S; n1 : S;
  nadd : S -> S -> S; nsub : S -> S -> S; nmul : S -> S -> S; ndiv : S -> S -> S;
  nneg : S -> S; nsqrt : S -> S; nabs : S -> S;
  nlt : S -> S -> bool; nle : S -> S -> bool; neq : S -> S -> bool;
}.
(** [S::infinity()], [S::neg_infinity()]. *)
Class NumInf (S : Type) := { ninf : S; nninf : S }.

Declare Scope num_scope.
Delimit Scope num_scope with N_.
Infix "+" := nadd : num_scope.
Infix "-" := nsub : num_scope.
Infix "*" := nmul : num_scope.
Infix "/" := ndiv : num_scope.
Notation "- x" := (nneg x) : num_scope.
Infix "<?" := nlt : num_scope.
Infix "<=?" := nle : num_scope.
Infix "==?" := neq (at level 70) : num_scope.
Notation "a >? b" := (nlt b a) (only parsing) : num_scope.
Notation "a >=? b" := (nle b a) (only parsing) : num_scope.

(** [PartialOrd::partial_cmp] on floats. *)
Definition pcmp {S} `{Num S} (a b : S) : option comparison :=
  if nlt a b then Some Lt else if nlt b a then Some Gt else if neq a b then Some Eq else None.
(** [Float::min], [Float::max]: a NaN operand is ignored.  (On operands that compare
    equal, the sign of a zero result is unspecified in Rust; the model returns the
    first operand.) *)
Definition fmin {S} `{Num S} (a b : S) : S :=
  if negb (neq a a) then b else if negb (neq b b) then a else if nlt b a then b else a.
Definition fmax {S} `{Num S} (a b : S) : S :=
  if negb (neq a a) then b else if negb (neq b b) then a else if nlt a b then b else a.

(** Order laws shared by floats and reals. [ok x]: not a NaN. *)
Class NumOrd (S : Type) `{Num S} := {
  ok : S -> Prop;
  ok_dec : forall x, Decision (ok x);
  ord_le_ok : forall x y, nle x y = true -> ok x /\ ok y;
  ord_lt_ok : forall x y, nlt x y = true -> ok x /\ ok y;
  ord_total : forall x y, ok x -> ok y -> nle x y = true \/ nle y x = true;
  ord_trans : forall x y z, nle x y = true -> nle y z = true -> nle x z = true;
  ord_lt : forall x y, ok x -> ok y -> nlt x y = negb (nle y x);
  ord_eq : forall x y, neq x y = nle x y && nle y x;
}.
Global Existing Instance ok_dec.

(** Propositional order. *)
Definition Le {S} `{Num S} (x y : S) : Prop := nle x y = true.
Definition Lt_ {S} `{Num S} (x y : S) : Prop := nlt x y = true.
(** Numeric equality ([==]). *)
Definition Eqn {S} `{Num S} (x y : S) : Prop := neq x y = true.

Section ord.
  Context {S} `{NumOrd S}.
  Lemma le_refl x : ok x -> Le x x.
  Proof. intros Hx. destruct (ord_total x x Hx Hx); done. Qed.
  Lemma le_trans x y z : Le x y -> Le y z -> Le x z.
  Proof. apply ord_trans. Qed.
  Lemma not_le_lt x y : ok x -> ok y -> nle x y = false -> Lt_ y x.
  Proof. intros Hx Hy Hle. unfold Lt_. rewrite ord_lt by done. by rewrite Hle. Qed.
  Lemma lt_not_le x y : Lt_ x y -> nle y x = false.
  Proof.
    unfold Lt_. intros Hl. destruct (ord_lt_ok _ _ Hl) as [Hx Hy]. rewrite ord_lt in Hl by done.
    by apply negb_true_iff.
  Qed.
  Lemma lt_irrefl x : nlt x x = false.
  Proof.
    destruct (nlt x x) eqn:E; [|done]. pose proof (lt_not_le _ _ E) as Hn.
    destruct (ord_lt_ok _ _ E) as [Hx _]. pose proof (le_refl x Hx) as Hr. unfold Le in Hr. congruence.
  Qed.
  Lemma lt_le x y : Lt_ x y -> Le x y.
  Proof.
    intros Hl. destruct (ord_lt_ok _ _ Hl) as [Hx Hy]. pose proof (lt_not_le _ _ Hl) as Hn.
    destruct (ord_total x y Hx Hy); [done|]. congruence.
  Qed.
  Lemma le_lt_trans x y z : Le x y -> Lt_ y z -> Lt_ x z.
  Proof.
    intros H1 H2. destruct (ord_le_ok _ _ H1), (ord_lt_ok _ _ H2).
    destruct (nle z x) eqn:E; [|by apply not_le_lt].
    pose proof (lt_not_le _ _ H2). pose proof (ord_trans _ _ _ E H1). congruence.
  Qed.
  Lemma lt_le_trans x y z : Lt_ x y -> Le y z -> Lt_ x z.
  Proof.
    intros H1 H2. destruct (ord_lt_ok _ _ H1), (ord_le_ok _ _ H2).
    destruct (nle z x) eqn:E; [|by apply not_le_lt].
    pose proof (lt_not_le _ _ H1). pose proof (ord_trans _ _ _ H2 E). congruence.
  Qed.
  Lemma lt_trans x y z : Lt_ x y -> Lt_ y z -> Lt_ x z.
  Proof. intros H1 H2. eapply lt_le_trans; [done|by apply lt_le]. Qed.
  Lemma eqn_le x y : Eqn x y <-> Le x y /\ Le y x.
  Proof. unfold Eqn, Le. rewrite ord_eq. by rewrite andb_true_iff. Qed.
  Lemma pcmp_spec x y : ok x -> ok y ->
    match pcmp x y with
    | Some Lt => Lt_ x y | Some Gt => Lt_ y x | Some Eq => Eqn x y | None => False end.
  Proof.
    intros Hx Hy. unfold pcmp. destruct (nlt x y) eqn:E1; [done|]. destruct (nlt y x) eqn:E2; [done|].
    assert (Eqn x y) as He.
    { apply eqn_le. rewrite ord_lt in E1, E2 by done. by apply negb_false_iff in E1, E2. }
    unfold Eqn in *. by rewrite He.
  Qed.
  Lemma pcmp_nan x y : ~ ok x \/ ~ ok y -> pcmp x y = None.
  Proof.
    intros Hn. unfold pcmp. destruct (nlt x y) eqn:E1; [apply ord_lt_ok in E1; tauto|].
    destruct (nlt y x) eqn:E2; [apply ord_lt_ok in E2; tauto|].
    destruct (neq x y) eqn:E3; [|done]. rewrite ord_eq in E3. apply andb_true_iff in E3 as [E3 _].
    apply ord_le_ok in E3. tauto.
  Qed.
End ord.

(** Exact reals. *)
Definition Rltb (x y : R) : bool := if Rlt_dec x y then true else false.
Definition Rleb (x y : R) : bool := if Rle_dec x y then true else false.
Definition Reqb (x y : R) : bool := if Req_EM_T x y then true else false.
Global Instance Num_R : Num R := {
  n0 := 0%R; n1 := 1%R; nadd := Rplus; nsub := Rminus; nmul := Rmult; ndiv := Rdiv;
  nneg := Ropp; nsqrt := sqrt; nabs := Rabs; nlt := Rltb; nle := Rleb; neq := Reqb }.
Lemma Rltb_true x y : Rltb x y = true <-> (x < y)%R.
Proof. unfold Rltb. destruct (Rlt_dec x y); split; try done; lra. Qed.
Lemma Rltb_false x y : Rltb x y = false <-> (y <= x)%R.
Proof. unfold Rltb. destruct (Rlt_dec x y); split; try done; lra. Qed.
Lemma Rleb_true x y : Rleb x y = true <-> (x <= y)%R.
Proof. unfold Rleb. destruct (Rle_dec x y); split; try done; lra. Qed.
Lemma Rleb_false x y : Rleb x y = false <-> (y < x)%R.
Proof. unfold Rleb. destruct (Rle_dec x y); split; try done; lra. Qed.
Lemma Reqb_true x y : Reqb x y = true <-> x = y.
Proof. unfold Reqb. destruct (Req_EM_T x y); split; try done; lra. Qed.
Lemma Reqb_false x y : Reqb x y = false <-> x <> y.
Proof. unfold Reqb. destruct (Req_EM_T x y); split; try done; lra. Qed.
Global Instance NumOrd_R : NumOrd R.
Proof.
  refine {| ok := fun _ => True; ok_dec := fun _ => left I |}; simpl.
  - done.
  - done.
  - intros. rewrite !Rleb_true. lra.
  - intros x y z. rewrite !Rleb_true. lra.
  - intros x y _ _. destruct (Rleb y x) eqn:E; simpl.
    + apply Rltb_false. by apply Rleb_true.
    + apply Rltb_true. by apply Rleb_false.
  - intros x y. destruct (Reqb x y) eqn:E; symmetry.
    + apply Reqb_true in E as ->. rewrite andb_true_iff, !Rleb_true. lra.
    + apply Reqb_false in E. rewrite andb_false_iff, !Rleb_false. lra.
Defined.

(** IEEE-754 binary floats of any format (f32: 24 128, f64: 53 1024). *)
Section float.
  Context (prec emax : Z) {Hprec : FLX.Prec_gt_0 prec} {Hemax : Prec_lt_emax prec emax}.
  Notation fl := (binary_float prec emax).
  Definition Flt (x y : fl) : bool := Bltb x y.
  Definition Fle (x y : fl) : bool := Bleb x y.
  Definition Feq (x y : fl) : bool := Beqb x y.
  Definition Num_float : Num fl := {|
    n0 := B754_zero false; n1 := Bone;
    nadd := Bplus mode_NE; nsub := Bminus mode_NE; nmul := Bmult mode_NE; ndiv := Bdiv mode_NE;
    nneg := Bopp; nsqrt := Bsqrt mode_NE; nabs := Babs; nlt := Flt; nle := Fle; neq := Feq |}.
  Definition NumInf_float : NumInf fl := {| ninf := B754_infinity false; nninf := B754_infinity true |}.

  (** Position of a non-NaN float on the extended real line. *)
  Inductive pos := PM | PF (r : R) | PP.
  Definition posn (x : fl) : pos :=
    match x with B754_infinity true => PM | B754_infinity false => PP | _ => PF (B2R x) end.
  Definition pos_le (a b : pos) : Prop :=
    match a, b with PM, _ => True | _, PP => True | PF r, PF q => (r <= q)%R | _, _ => False end.
  Lemma Bcompare_pos x y : is_nan x = false -> is_nan y = false ->
    match Bcompare x y with
    | Some Lt => pos_le (posn x) (posn y) /\ ~ pos_le (posn y) (posn x)
    | Some Gt => pos_le (posn y) (posn x) /\ ~ pos_le (posn x) (posn y)
    | Some Eq => pos_le (posn x) (posn y) /\ pos_le (posn y) (posn x)
    | None => False end.
  Proof.
    intros Hx Hy. destruct (is_finite x) eqn:Fx, (is_finite y) eqn:Fy.
    - rewrite Bcompare_correct by done.
      assert (posn x = PF (B2R x)) as -> by by destruct x.
      assert (posn y = PF (B2R y)) as -> by by destruct y. simpl.
      destruct (Rcompare_spec (B2R x) (B2R y)); lra.
    - destruct y as [|[]| |]; try done; destruct x as [[]|[]| |[]]; try done; simpl; tauto.
    - destruct x as [|[]| |]; try done; destruct y as [[]|[]| |[]]; try done; simpl; tauto.
    - destruct x as [|[]| |]; try done; destruct y as [|[]| |]; try done; simpl; tauto.
  Qed.
  Lemma Bcompare_nan (x y : fl) : is_nan x = true \/ is_nan y = true -> Bcompare x y = None.
  Proof. destruct x as [| | |], y as [| | |]; simpl; intros []; try done; by destruct s. Qed.
  Lemma Fle_pos x y : Fle x y = true <-> is_nan x = false /\ is_nan y = false /\ pos_le (posn x) (posn y).
  Proof.
    assert (Hle : Fle x y = match Bcompare x y with Some Lt | Some Eq => true | _ => false end).
    { done. }
    rewrite Hle. destruct (is_nan x) eqn:Nx; [rewrite Bcompare_nan by auto; naive_solver|].
    destruct (is_nan y) eqn:Ny; [rewrite Bcompare_nan by auto; naive_solver|].
    pose proof (Bcompare_pos x y Nx Ny) as Hc. destruct (Bcompare x y) as [[]|]; naive_solver.
  Qed.
  Lemma Flt_pos x y : Flt x y = true <-> is_nan x = false /\ is_nan y = false /\ ~ pos_le (posn y) (posn x).
  Proof.
    assert (Hle : Flt x y = match Bcompare x y with Some Lt => true | _ => false end).
    { done. }
    rewrite Hle. destruct (is_nan x) eqn:Nx; [rewrite Bcompare_nan by auto; naive_solver|].
    destruct (is_nan y) eqn:Ny; [rewrite Bcompare_nan by auto; naive_solver|].
    pose proof (Bcompare_pos x y Nx Ny) as Hc. destruct (Bcompare x y) as [[]|]; naive_solver.
  Qed.
  Lemma Feq_pos x y : Feq x y = true <->
    is_nan x = false /\ is_nan y = false /\ pos_le (posn x) (posn y) /\ pos_le (posn y) (posn x).
  Proof.
    assert (Hle : Feq x y = match Bcompare x y with Some Eq => true | _ => false end).
    { done. }
    rewrite Hle. destruct (is_nan x) eqn:Nx; [rewrite Bcompare_nan by auto; naive_solver|].
    destruct (is_nan y) eqn:Ny; [rewrite Bcompare_nan by auto; naive_solver|].
    pose proof (Bcompare_pos x y Nx Ny) as Hc. destruct (Bcompare x y) as [[]|]; naive_solver.
  Qed.
  Lemma pos_le_total a b : pos_le a b \/ pos_le b a.
  Proof. destruct a, b; simpl; auto; lra. Qed.
  Lemma pos_le_trans a b c : pos_le a b -> pos_le b c -> pos_le a c.
  Proof. destruct a, b, c; simpl; auto; try done; lra. Qed.
  Definition NumOrd_float : @NumOrd fl Num_float.
  Proof.
    refine (@Build_NumOrd fl Num_float (fun x => is_nan x = false) _ _ _ _ _ _ _); simpl.
    - by intros x y (? & ? & _)%Fle_pos.
    - by intros x y (? & ? & _)%Flt_pos.
    - intros x y Hx Hy. rewrite !Fle_pos. destruct (pos_le_total (posn x) (posn y)); auto.
    - intros x y z (? & ? & ?)%Fle_pos (? & ? & ?)%Fle_pos. apply Fle_pos. split_and!; auto. by eapply pos_le_trans.
    - intros x y Hx Hy. destruct (Fle y x) eqn:E; simpl.
      + apply Fle_pos in E as (_ & _ & E). apply not_true_is_false. rewrite Flt_pos. tauto.
      + apply Flt_pos. split_and!; auto. intros Hp. rewrite <- not_true_iff_false, Fle_pos in E. tauto.
    - intros x y. apply eq_true_iff_eq. rewrite andb_true_iff, !Fle_pos, Feq_pos. tauto.
  Defined.
End float.

Global Instance prec32 : FLX.Prec_gt_0 24. Proof. done. Qed.
Global Instance emax32 : Prec_lt_emax 24 128. Proof. done. Qed.
Global Instance prec64 : FLX.Prec_gt_0 53. Proof. done. Qed.
Global Instance emax64 : Prec_lt_emax 53 1024. Proof. done. Qed.
Notation f32 := (binary_float 24 128).
Notation f64 := (binary_float 53 1024).
Definition Num_f32 : Num f32 := Num_float 24 128.
Definition Num_f64 : Num f64 := Num_float 53 1024.
(** A float from mantissa and exponent (test data). *)
Definition F32 (m e : Z) : f32 := binary_normalize 24 128 prec32 emax32 mode_NE m e false.
Definition F64 (m e : Z) : f64 := binary_normalize 53 1024 prec64 emax64 mode_NE m e false.
