(** Ghost trees, zipper contexts and their representation in the node array.
    Proof machinery only: nothing here is a model of code, and no property
    statement mentions it. *)
From stdpp Require Import prelude.
From Verif Require Import Res DbvtModel.

Inductive shape := SBranch (p l r : nat) | SLeaf (p v : nat).
Definition shp {B} (n : node B) : option shape :=
  match n with
  | Branch p l r _ _ => Some (SBranch p l r)
  | Leaf p v _ => Some (SLeaf p v)
  | Nil => None
  end.
Definition sh {B} (ns : list (node B)) (i : nat) : option shape := (ns !! i) ≫= shp.

Inductive gtree := GLeaf (i v : nat) | GBranch (i : nat) (l r : gtree).
Definition idx (t : gtree) : nat := match t with GLeaf i _ => i | GBranch i _ _ => i end.
Fixpoint idxs (t : gtree) : list nat :=
  match t with GLeaf i _ => [i] | GBranch i l r => i :: idxs l ++ idxs r end.
Fixpoint leaves (t : gtree) : list (nat * nat) :=
  match t with GLeaf i v => [(i, v)] | GBranch _ l r => leaves l ++ leaves r end.
Fixpoint gheight (t : gtree) : nat :=
  match t with GLeaf _ _ => 1 | GBranch _ l r => 1 + max (gheight l) (gheight r) end.

Fixpoint repr (f : nat -> option shape) (p : nat) (t : gtree) : Prop :=
  match t with
  | GLeaf i v => f i = Some (SLeaf p v)
  | GBranch i l r => f i = Some (SBranch p (idx l) (idx r)) /\ repr f i l /\ repr f i r
  end.

Inductive ctx := CHole | CLeft (c : ctx) (i : nat) (r : gtree) | CRight (c : ctx) (i : nat) (l : gtree).
Global Instance gtree_eq_dec : EqDecision gtree.
Proof. solve_decision. Defined.
Global Instance ctx_eq_dec : EqDecision ctx.
Proof. solve_decision. Defined.
Fixpoint plug (c : ctx) (t : gtree) : gtree :=
  match c with
  | CHole => t
  | CLeft c i r => plug c (GBranch i t r)
  | CRight c i l => plug c (GBranch i l t)
  end.
Definition cpar (c : ctx) : nat := match c with CHole => 0 | CLeft _ i _ => i | CRight _ i _ => i end.
Fixpoint cidxs (c : ctx) : list nat :=
  match c with
  | CHole => []
  | CLeft c i r => i :: idxs r ++ cidxs c
  | CRight c i l => i :: idxs l ++ cidxs c
  end.
Fixpoint cleaves (c : ctx) : list (nat * nat) :=
  match c with
  | CHole => []
  | CLeft c i r => leaves r ++ cleaves c
  | CRight c i l => leaves l ++ cleaves c
  end.
Fixpoint reprc (f : nat -> option shape) (c : ctx) (hi : nat) : Prop :=
  match c with
  | CHole => True
  | CLeft c i r => f i = Some (SBranch (cpar c) hi (idx r)) /\ repr f i r /\ reprc f c i
  | CRight c i l => f i = Some (SBranch (cpar c) (idx l) hi) /\ repr f i l /\ reprc f c i
  end.
Fixpoint ccomp (c d : ctx) : ctx :=
  match d with
  | CHole => c
  | CLeft d i r => CLeft (ccomp c d) i r
  | CRight d i l => CRight (ccomp c d) i l
  end.

Lemma idx_in t : idx t ∈ idxs t.
Proof. destruct t; simpl; left. Qed.

Lemma plug_ccomp c d t : plug (ccomp c d) t = plug c (plug d t).
Proof. revert t; induction d; intros; simpl; auto. Qed.

Lemma repr_plug f c t : repr f 0 (plug c t) <-> reprc f c (idx t) /\ repr f (cpar c) t.
Proof.
  revert t; induction c as [|c IH i r|c IH i l]; intros t; simpl.
  - tauto.
  - rewrite IH; simpl. tauto.
  - rewrite IH; simpl. tauto.
Qed.

Lemma idxs_plug c t : idxs (plug c t) ≡ₚ cidxs c ++ idxs t.
Proof.
  revert t; induction c as [|c IH i r|c IH i l]; intros t; simpl; [done| |];
    rewrite IH; simpl; solve_Permutation.
Qed.
Lemma leaves_plug c t : leaves (plug c t) ≡ₚ cleaves c ++ leaves t.
Proof.
  revert t; induction c as [|c IH i r|c IH i l]; intros t; simpl; [done| |];
    rewrite IH; simpl; solve_Permutation.
Qed.

Lemma repr_ext f g p t :
  (forall i, i ∈ idxs t -> g i = f i) -> repr f p t -> repr g p t.
Proof.
  revert p; induction t as [i v|i l IHl r IHr]; intros p Hfg; simpl.
  - intros <-. apply Hfg; simpl; set_solver.
  - intros (H1 & H2 & H3). split_and!.
    + rewrite <- H1. apply Hfg; simpl; set_solver.
    + apply IHl; auto. intros j Hj; apply Hfg; simpl; set_solver.
    + apply IHr; auto. intros j Hj; apply Hfg; simpl; set_solver.
Qed.
Lemma reprc_ext f g c hi :
  (forall i, i ∈ cidxs c -> g i = f i) -> reprc f c hi -> reprc g c hi.
Proof.
  revert hi; induction c as [|c IH i r|c IH i l]; intros hi Hfg; simpl; [done| |];
    intros (H1 & H2 & H3); split_and!.
  - rewrite <- H1. apply Hfg; simpl; set_solver.
  - eapply repr_ext; [|done]. intros j Hj; apply Hfg; simpl; set_solver.
  - apply IH; auto. intros j Hj; apply Hfg; simpl; set_solver.
  - rewrite <- H1. apply Hfg; simpl; set_solver.
  - eapply repr_ext; [|done]. intros j Hj; apply Hfg; simpl; set_solver.
  - apply IH; auto. intros j Hj; apply Hfg; simpl; set_solver.
Qed.

(** Changing what hangs in the hole: only the parent of the hole is touched. *)
Definition redirect_shape (from to : nat) (s : shape) : shape :=
  match s with
  | SBranch p l r => if decide (l = from) then SBranch p to r else SBranch p l to
  | s => s
  end.
Lemma reprc_redirect f g c hi hi' :
  NoDup (cidxs c) -> hi ∉ cidxs c ->
  (forall i, i ∈ cidxs c -> i <> cpar c -> g i = f i) ->
  (c <> CHole -> forall s, f (cpar c) = Some s -> g (cpar c) = Some (redirect_shape hi hi' s)) ->
  reprc f c hi -> reprc g c hi'.
Proof.
  intros Hnd Hhi Hfg Hp. destruct c as [|c i r|c i l]; simpl in *; [done| |].
  - apply NoDup_cons in Hnd as [Hi Hnd].
    intros (H1 & H2 & H3). split_and!.
    + rewrite (Hp ltac:(done) _ H1). simpl. by rewrite decide_True.
    + eapply repr_ext; [|done]. intros j Hj; apply Hfg; set_solver.
    + eapply reprc_ext; [|done]. intros j Hj; apply Hfg; set_solver.
  - apply NoDup_cons in Hnd as [Hi Hnd].
    intros (H1 & H2 & H3). split_and!.
    + rewrite (Hp ltac:(done) _ H1). simpl. rewrite decide_False; [done|].
      intros Heq. pose proof (idx_in l). set_solver.
    + eapply repr_ext; [|done]. intros j Hj; apply Hfg; set_solver.
    + eapply reprc_ext; [|done]. intros j Hj; apply Hfg; set_solver.
Qed.

Lemma cpar_in c : c <> CHole -> cpar c ∈ cidxs c.
Proof. destruct c; simpl; [done|..]; intros _; left. Qed.
Lemma cpar_zero c : 0 ∉ cidxs c -> cpar c = 0 -> c = CHole.
Proof. destruct c; simpl; [done|..]; intros H ->; set_solver. Qed.

Lemma idx_plug_ne c t t' :
  c <> CHole -> idx (plug c t) = idx (plug c t') /\ idx (plug c t) ∈ cidxs c.
Proof.
  revert t t'. induction c as [|c IH i r|c IH i l]; intros t t' Hc; [done|..]; simpl.
  - destruct c as [|c j r'|c j l'].
    + simpl. split; [done|left].
    + destruct (IH (GBranch i t r) (GBranch i t' r)) as [-> ?]; [done|]. split; [done|set_solver].
    + destruct (IH (GBranch i t r) (GBranch i t' r)) as [-> ?]; [done|]. split; [done|set_solver].
  - destruct c as [|c j r'|c j l'].
    + simpl. split; [done|left].
    + destruct (IH (GBranch i l t) (GBranch i l t')) as [-> ?]; [done|]. split; [done|set_solver].
    + destruct (IH (GBranch i l t) (GBranch i l t')) as [-> ?]; [done|]. split; [done|set_solver].
Qed.

Lemma in_decompose t i : i ∈ idxs t -> exists c u, t = plug c u /\ idx u = i.
Proof.
  induction t as [j v|j l IHl r IHr]; simpl; intros Hi.
  - exists CHole, (GLeaf j v). simpl. split; [done|]. set_solver.
  - apply elem_of_cons in Hi as [->|Hi]; [by exists CHole, (GBranch j l r)|].
    apply elem_of_app in Hi as [Hi|Hi].
    + destruct (IHl Hi) as (c & u & -> & Hu).
      exists (ccomp (CLeft CHole j r) c), u. by rewrite plug_ccomp.
    + destruct (IHr Hi) as (c & u & -> & Hu).
      exists (ccomp (CRight CHole j l) c), u. by rewrite plug_ccomp.
Qed.

Lemma repr_idx f p t : repr f p t -> exists s, f (idx t) = Some s /\
  match t with
  | GLeaf i v => s = SLeaf p v
  | GBranch i l r => s = SBranch p (idx l) (idx r)
  end.
Proof. destruct t; simpl; [|intros (H & _ & _)]; eauto. Qed.

(** The tree node at a leaf/branch index. *)
Lemma decompose_leaf f t i p v :
  repr f 0 t -> i ∈ idxs t -> f i = Some (SLeaf p v) ->
  exists c, t = plug c (GLeaf i v) /\ p = cpar c.
Proof.
  intros Hr Hi Hf. destruct (in_decompose t i Hi) as (c & u & -> & Hu).
  apply repr_plug in Hr as [Hc Hu'].
  destruct u as [j w|j l r]; simpl in *; subst.
  - exists c. naive_solver.
  - destruct Hu' as (H & _). congruence.
Qed.
Lemma decompose_branch f t i p l r :
  repr f 0 t -> i ∈ idxs t -> f i = Some (SBranch p l r) ->
  exists c tl tr, t = plug c (GBranch i tl tr) /\ p = cpar c /\ l = idx tl /\ r = idx tr.
Proof.
  intros Hr Hi Hf. destruct (in_decompose t i Hi) as (c & u & -> & Hu).
  apply repr_plug in Hr as [Hc Hu'].
  destruct u as [j w|j tl tr]; simpl in *; subst.
  - congruence.
  - destruct Hu' as (H & _). exists c, tl, tr. naive_solver.
Qed.

Lemma repr_some f p t i : repr f p t -> i ∈ idxs t -> is_Some (f i).
Proof.
  revert p; induction t as [j v|j l IHl r IHr]; intros p; simpl.
  - intros H Hi. apply elem_of_list_singleton in Hi as ->. eauto.
  - intros (H1&H2&H3) Hi. apply elem_of_cons in Hi as [->|Hi]; [eauto|].
    apply elem_of_app in Hi as [Hi|Hi]; eauto.
Qed.

Lemma length_idxs t : length (idxs t) = 2 * length (leaves t) - 1 /\ 0 < length (leaves t).
Proof.
  induction t as [i v|i l IHl r IHr]; simpl; [lia|].
  rewrite !app_length. lia.
Qed.

Lemma leaves_idxs t i v : (i, v) ∈ leaves t -> i ∈ idxs t.
Proof. induction t; simpl; set_solver. Qed.
Lemma leaves_repr f p t i v : repr f p t -> (i, v) ∈ leaves t -> exists q, f i = Some (SLeaf q v).
Proof.
  revert p; induction t as [j w|j l IHl r IHr]; intros p; simpl.
  - intros H Hin. apply elem_of_list_singleton in Hin. simplify_eq. eauto.
  - intros (_&H2&H3) Hin. apply elem_of_app in Hin as [?|?]; eauto.
Qed.
Lemma repr_leaf_in f p t i q v :
  repr f p t -> i ∈ idxs t -> f i = Some (SLeaf q v) -> (i, v) ∈ leaves t.
Proof.
  revert p; induction t as [j w|j l IHl r IHr]; intros p; simpl.
  - intros H Hi Hf. apply elem_of_list_singleton in Hi as ->. set_solver.
  - intros (H1&H2&H3) Hi Hf.
    apply elem_of_cons in Hi as [->|Hi]; [congruence|].
    apply elem_of_app in Hi as [Hi|Hi]; set_solver.
Qed.

(** [sh] of an updated array. *)
Section sh.
  Context {B : Type}.
  Implicit Types ns : list (node B).
  Lemma sh_insert ns i n : i < length ns -> sh (<[i:=n]> ns) i = shp n.
  Proof. intros. unfold sh. by rewrite list_lookup_insert. Qed.
  Lemma sh_insert_ne ns i j n : i <> j -> sh (<[i:=n]> ns) j = sh ns j.
  Proof. intros. unfold sh. by rewrite list_lookup_insert_ne. Qed.
  Lemma sh_lookup ns i n : ns !! i = Some n -> sh ns i = shp n.
  Proof. intros H. unfold sh. by rewrite H. Qed.
  Lemma sh_branch ns i p l r : sh ns i = Some (SBranch p l r) ->
    exists h b, ns !! i = Some (Branch p l r h b).
  Proof. unfold sh. destruct (ns !! i) as [[]|]; simpl; intros; simplify_eq; eauto. Qed.
  Lemma sh_leaf ns i p v : sh ns i = Some (SLeaf p v) ->
    exists b, ns !! i = Some (Leaf p v b).
  Proof. unfold sh. destruct (ns !! i) as [[]|]; simpl; intros; simplify_eq; eauto. Qed.
  Lemma sh_some_node ns i : is_Some (sh ns i) ->
    exists n b, ns !! i = Some n /\ get_bound n = Ok b.
  Proof. unfold sh. destruct (ns !! i) as [[]|]; simpl; intros [? ?]; simplify_eq; eauto. Qed.
  Lemma sh_length ns i : is_Some (sh ns i) -> i < length ns.
  Proof. intros (n&b&H&_)%sh_some_node. by apply lookup_lt_Some in H. Qed.
End sh.
