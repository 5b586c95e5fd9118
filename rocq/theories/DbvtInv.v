(** Well-formedness of the tree and preservation by every operation. *)
From stdpp Require Import prelude sorting.
From Verif Require Import Res DbvtModel DbvtGhost.

(** * Binary search and the refit queue *)
Definition pair_lt (x y : nat * nat) : Prop := x.1 < y.1 \/ (x.1 = y.1 /\ x.2 < y.2).
Lemma pair_cmp_spec x y : CompareSpec (x = y) (pair_lt x y) (pair_lt y x) (pair_cmp x y).
Proof.
  destruct x as [a b], y as [c d]. unfold pair_cmp, pair_lt; simpl.
  destruct (Nat.compare_spec a c); [|constructor; lia..].
  destruct (Nat.compare_spec b d); constructor; [congruence|lia..].
Qed.
Definition qsorted (l : list (nat * nat)) : Prop := StronglySorted pair_lt l.

Lemma qsorted_lookup l i j x y :
  qsorted l -> l !! i = Some x -> l !! j = Some y -> i < j -> pair_lt x y.
Proof.
  intros Hs. revert i j. induction Hs as [|z l Hs IH Hf]; intros i j Hi Hj Hij; [done|].
  destruct j as [|j]; [lia|]. destruct i as [|i]; simpl in *.
  - simplify_eq. rewrite Forall_forall in Hf. apply Hf. by eapply elem_of_list_lookup_2.
  - eapply IH; eauto. lia.
Qed.

Lemma bsearch_loop_spec fuel l x left right :
  qsorted l -> right <= length l -> right - left < fuel ->
  (left <= right) ->
  (forall j y, j < left -> l !! j = Some y -> pair_lt y x) ->
  (forall j y, right <= j -> l !! j = Some y -> pair_lt x y) ->
  match bsearch_loop fuel l x left right with
  | inl k => l !! k = Some x
  | inr k => k <= length l /\ (forall j y, j < k -> l !! j = Some y -> pair_lt y x)
             /\ (forall j y, k <= j -> l !! j = Some y -> pair_lt x y)
  end.
Proof.
  intros Hs. revert left right. induction fuel as [|fuel IH]; intros left right Hr Hf Hlr Hl Hg; [lia|].
  cbn [bsearch_loop]. cbv zeta. destruct (decide (left < right)) as [Hlt|Hge].
  - set (mid := left + (right - left) `div` 2).
    assert (left <= mid < right) as Hmid.
    { unfold mid. pose proof (Nat.div_lt (right - left) 2). lia. }
    destruct (l !! mid) as [y|] eqn:Hy; [|apply lookup_ge_None in Hy; lia].
    destruct (pair_cmp_spec y x) as [Heq|Hyx|Hxy].
    + rewrite <- Heq. exact Hy.
    + apply IH; [lia..| |done].
      intros j z Hj Hz. destruct (decide (j = mid)) as [->|]; [by simplify_eq|].
      assert (pair_lt z y) as Hzy by (eapply (qsorted_lookup l j mid); eauto; lia).
      unfold pair_lt in *; lia.
    + apply IH; [lia..|done|].
      intros j z Hj Hz. destruct (decide (j = mid)) as [->|]; [by simplify_eq|].
      assert (pair_lt y z) as Hzy by (eapply (qsorted_lookup l mid j); eauto; lia).
      unfold pair_lt in *; lia.
  - assert (left = right) as -> by lia. done.
Qed.

Lemma binary_search_spec l x :
  qsorted l ->
  match binary_search l x with
  | inl k => l !! k = Some x
  | inr k => k <= length l /\ (forall j y, j < k -> l !! j = Some y -> pair_lt y x)
             /\ (forall j y, k <= j -> l !! j = Some y -> pair_lt x y)
  end.
Proof.
  intros Hs. apply bsearch_loop_spec; auto; try lia.
  intros j y Hj Hy. apply lookup_lt_Some in Hy. lia.
Qed.

Lemma qsorted_app l1 l2 :
  qsorted l1 -> qsorted l2 -> (forall x y, x ∈ l1 -> y ∈ l2 -> pair_lt x y) -> qsorted (l1 ++ l2).
Proof.
  intros H1 H2 H. induction H1 as [|z l Hs IH Hf]; [done|].
  simpl. constructor.
  - apply IH. intros; apply H; set_solver.
  - rewrite Forall_app. split; [done|]. apply Forall_forall. intros; apply H; set_solver.
Qed.
Lemma qsorted_take n l : qsorted l -> qsorted (take n l).
Proof.
  intros Hs. revert n. induction Hs as [|z l Hs IH Hf]; intros [|n]; simpl; try constructor.
  - apply IH.
  - by apply Forall_take.
Qed.
Lemma qsorted_drop n l : qsorted l -> qsorted (drop n l).
Proof.
  intros Hs. revert n. induction Hs as [|z l Hs IH Hf]; intros [|n]; simpl; try constructor; auto.
Qed.

Section inv.
  Context {T B S : Type} (O : dbvt_ops T B S).
  Implicit Types (s : dbvt T B) (ns : list (node B)) (t u : gtree).

  Definition wf_queue (q : list (nat * nat)) (n : nat) : Prop :=
    qsorted q /\ forall x, x ∈ q -> x.2 < n.

  Lemma mark_spec s i m :
    wf_queue (refit_nodes s) (length (nodes s)) -> i < length (nodes s) ->
    exists q, mark_for_refit s i m = Ok (with_refit s q)
      /\ wf_queue q (length (nodes s))
      /\ i ∈ q.*2
      /\ (q = refit_nodes s \/ exists h, q ≡ₚ (h, i) :: refit_nodes s).
  Proof.
    intros [Hq Hb] Hi. unfold mark_for_refit.
    destruct (lookup_lt_is_Some_2 _ _ Hi) as [n Hn].
    rewrite (get_Some _ _ _ Hn). cbn [mbind res_mbind res_bind].
    set (h := max _ m). pose proof (binary_search_spec (refit_nodes s) (h, i) Hq) as Hbs.
    destruct (binary_search _ _) as [k|k].
    - exists (refit_nodes s). split_and!; auto.
      + by destruct s.
      + by split.
      + apply elem_of_list_fmap. exists (h, i). split; [done|]. by eapply elem_of_list_lookup_2.
    - destruct Hbs as (Hk & Hl & Hg).
      exists (vec_insert k (h, i) (refit_nodes s)). unfold vec_insert.
      assert (take k (refit_nodes s) ++ (h, i) :: drop k (refit_nodes s) ≡ₚ (h, i) :: refit_nodes s) as HP.
      { rewrite <- Permutation_middle. by rewrite take_drop. }
      split_and!; [done|split|..].
      + apply qsorted_app; [by apply qsorted_take| |].
        * constructor; [by apply qsorted_drop|]. apply Forall_forall. intros y Hy.
          apply elem_of_list_lookup in Hy as [j Hj]. rewrite lookup_drop in Hj.
          eapply (Hg (k + j)); [lia|done].
        * intros y z Hy Hz. apply elem_of_list_lookup in Hy as [j Hj].
          assert (j < k) by (apply lookup_lt_Some in Hj; rewrite take_length in Hj; lia).
          rewrite lookup_take in Hj by done.
          pose proof (Hl j y ltac:(done) Hj) as Hyx.
          apply elem_of_cons in Hz as [->|Hz]; [done|].
          apply elem_of_list_lookup in Hz as [j' Hj']. rewrite lookup_drop in Hj'.
          pose proof (Hg (k + j') z ltac:(lia) Hj') as Hxz. unfold pair_lt in *; simpl in *; lia.
      + intros y Hy. rewrite HP in Hy. apply elem_of_cons in Hy as [->|Hy]; [done|by apply Hb].
      + apply elem_of_list_fmap. exists (h, i). split; [done|]. rewrite HP. left.
      + right. eauto.
  Qed.

  (** * Structural well-formedness *)
  Definition vleaves (vs : list (nat * T)) : list (nat * nat) := imap (fun k p => (p.1, k)) vs.

  Definition accounted ns (fl I : list nat) : Prop :=
    0 < length ns /\ fl ++ I ≡ₚ seq 1 (length ns - 1) /\ (forall i, i ∈ fl -> ns !! i = Some Nil).

  Record wf_tree s t : Prop := WfTree {
    wt_zero : nodes s !! 0 = Some Nil;
    wt_root : root_index s = idx t;
    wt_repr : repr (sh (nodes s)) 0 t;
    wt_acc : accounted (nodes s) (free_list s) (idxs t);
    wt_vals : leaves t ≡ₚ vleaves (values s);
  }.
  Definition wf_empty s : Prop :=
    nodes s = [Nil] /\ values s = [] /\ free_list s = [] /\ root_index s = 0.
  Definition wf_struct s : Prop := wf_empty s \/ exists t, wf_tree s t.
  Definition wf s : Prop :=
    wf_struct s /\ wf_queue (refit_nodes s) (length (nodes s)).

  Lemma accounted_nodup ns fl I : accounted ns fl I -> NoDup (fl ++ I).
  Proof. intros (_ & H & _). rewrite H. apply NoDup_seq. Qed.
  Lemma accounted_range ns fl I i : accounted ns fl I -> i ∈ fl ++ I <-> 0 < i < length ns.
  Proof. intros (? & H & _). rewrite H. rewrite elem_of_seq. lia. Qed.
  Lemma wf_tree_nodup s t : wf_tree s t -> NoDup (idxs t).
  Proof. intros []. apply accounted_nodup in wt_acc0. by apply NoDup_app in wt_acc0 as (_&_&?). Qed.
  Lemma wf_tree_range s t i : wf_tree s t -> i ∈ idxs t -> 0 < i < length (nodes s).
  Proof. intros [] Hi. eapply accounted_range; eauto. set_solver. Qed.
  (** Everything that is not nil is in the tree. *)
  Lemma wf_tree_in s t i : wf_tree s t -> is_Some (sh (nodes s) i) -> i ∈ idxs t.
  Proof.
    intros [] Hi. assert (i < length (nodes s)) by by apply sh_length.
    destruct (decide (i = 0)) as [->|].
    { unfold sh in Hi. rewrite wt_zero0 in Hi. simpl in Hi. by destruct Hi. }
    destruct (accounted_range _ _ _ i wt_acc0) as [_ Hin].
    specialize (Hin ltac:(lia)). apply elem_of_app in Hin as [Hin|]; [|done].
    destruct wt_acc0 as (_&_&Hn). unfold sh in Hi. rewrite (Hn i Hin) in Hi. simpl in Hi. by destruct Hi.
  Qed.

  Lemma elem_of_vleaves vs i k : (i, k) ∈ vleaves vs <-> exists v, vs !! k = Some (i, v).
  Proof.
    unfold vleaves. rewrite elem_of_lookup_imap. split.
    - intros (k' & [j v] & ? & ?). simplify_eq/=. eauto.
    - intros [v Hv]. exists k, (i, v). eauto.
  Qed.
  Lemma nodup_vleaves vs : NoDup (vleaves vs).
  Proof.
    apply NoDup_alt. intros a b x. unfold vleaves. rewrite !list_lookup_imap.
    destruct (vs !! a), (vs !! b); simpl; intros; simplify_eq; done.
  Qed.
  Lemma nodup_leaves t : NoDup (idxs t) -> NoDup (leaves t).*1.
  Proof.
    induction t as [i v|i l IHl r IHr]; simpl; intros Hnd.
    - apply NoDup_singleton.
    - apply NoDup_cons in Hnd as [_ Hnd]. apply NoDup_app in Hnd as (Hl & Hd & Hr).
      rewrite fmap_app. apply NoDup_app. split_and!; auto.
      intros j Hj Hj'. apply elem_of_list_fmap in Hj as ([j1 v1]&->&Hj).
      apply elem_of_list_fmap in Hj' as ([j2 v2]&Heq&Hj'). simpl in *; subst.
      eapply Hd; eapply leaves_idxs; eauto.
  Qed.
  Lemma vleaves_perm t vs :
    NoDup (idxs t) -> (forall i k, (i, k) ∈ leaves t <-> exists v, vs !! k = Some (i, v)) ->
    leaves t ≡ₚ vleaves vs.
  Proof.
    intros Hnd H. apply NoDup_Permutation.
    - eapply NoDup_fmap_1. by apply nodup_leaves.
    - apply nodup_vleaves.
    - intros [i k]. by rewrite H, elem_of_vleaves.
  Qed.
  Lemma wf_tree_leaf s t i k :
    wf_tree s t -> (i, k) ∈ leaves t <-> exists v, values s !! k = Some (i, v).
  Proof. intros []. by rewrite wt_vals0, elem_of_vleaves. Qed.
  Lemma wf_tree_leaf_node s t i p k b :
    wf_tree s t -> nodes s !! i = Some (Leaf p k b) -> exists v, values s !! k = Some (i, v).
  Proof.
    intros Hwf Hn. eapply wf_tree_leaf; [done|].
    pose proof (sh_lookup _ _ _ Hn) as Hs.
    eapply repr_leaf_in; [apply Hwf| |done].
    eapply wf_tree_in; [done|]. by rewrite Hs.
  Qed.
  Lemma wf_tree_value_node s t i k v :
    wf_tree s t -> values s !! k = Some (i, v) -> exists p b, nodes s !! i = Some (Leaf p k b).
  Proof.
    intros Hwf Hv.
    assert ((i, k) ∈ leaves t) as Hl by (eapply wf_tree_leaf; eauto).
    destruct (leaves_repr _ _ _ _ _ (wt_repr _ _ Hwf) Hl) as [p Hp].
    apply sh_leaf in Hp as [b Hb]. eauto.
  Qed.

  Lemma wf_new : wf dbvt_new.
  Proof.
    split; [by left|]. split; [constructor|]. intros x Hx. by apply elem_of_nil in Hx.
  Qed.
  Lemma wf_clear s : wf (dbvt_clear s).
  Proof.
    split; [by left|]. split; [constructor|]. intros x Hx. by apply elem_of_nil in Hx.
  Qed.

  Lemma wf_handles_nodup s : wf_struct s -> NoDup (values s).*1.
  Proof.
    intros [(_&->&_&_)|[t Hwf]]; [constructor|].
    pose proof (nodup_leaves t (wf_tree_nodup _ _ Hwf)) as Hnd.
    rewrite (wt_vals _ _ Hwf) in Hnd. unfold vleaves in Hnd.
    replace ((imap (λ (k : nat) (p : nat * T), (p.1, k)) (values s)).*1) with ((values s).*1) in Hnd; [done|].
    apply list_eq. intros i. rewrite !list_lookup_fmap, list_lookup_imap.
    by destruct (values s !! i).
  Qed.

  Lemma wf_empty_root s t : wf_tree s t -> root_index s <> 0.
  Proof.
    intros Hwf. rewrite (wt_root _ _ Hwf).
    pose proof (wf_tree_range _ _ _ Hwf (idx_in t)). lia.
  Qed.

  (** * Relabelling leaves *)
  Fixpoint relabel (g : nat -> nat -> nat) (t : gtree) : gtree :=
    match t with
    | GLeaf i v => GLeaf i (g i v)
    | GBranch i l r => GBranch i (relabel g l) (relabel g r)
    end.
  Lemma idx_relabel g t : idx (relabel g t) = idx t.
  Proof. by destruct t. Qed.
  Lemma idxs_relabel g t : idxs (relabel g t) = idxs t.
  Proof. induction t as [|i l IHl r IHr]; simpl; [done|]. by rewrite IHl, IHr. Qed.
  Lemma leaves_relabel g t : leaves (relabel g t) = (fun x => (x.1, g x.1 x.2)) <$> leaves t.
  Proof. induction t as [|i l IHl r IHr]; simpl; [done|]. by rewrite IHl, IHr, fmap_app. Qed.
  Definition relabel_shape (g : nat -> nat) (x : shape) : shape :=
    match x with SLeaf p v => SLeaf p (g v) | x => x end.
  Lemma repr_relabel f f' p t g :
    (forall i, i ∈ idxs t -> f' i = relabel_shape (g i) <$> f i) ->
    repr f p t -> repr f' p (relabel g t).
  Proof.
    revert p; induction t as [i v|i l IHl r IHr]; intros p H; simpl.
    - intros Hf. rewrite H by (simpl; set_solver). by rewrite Hf.
    - intros (H1 & H2 & H3). rewrite !idx_relabel. split_and!.
      + rewrite H by (simpl; set_solver). by rewrite H1.
      + apply IHl; [|done]. intros; apply H; simpl; set_solver.
      + apply IHr; [|done]. intros; apply H; simpl; set_solver.
  Qed.

  (** * Reparenting a subtree *)
  Definition setp (p : nat) (x : shape) : shape :=
    match x with SLeaf _ v => SLeaf p v | SBranch _ l r => SBranch p l r end.
  Definition spar (x : shape) : nat :=
    match x with SLeaf p v => p | SBranch p l r => p end.
  Lemma repr_reparent f g p p' u :
    NoDup (idxs u) ->
    (forall i, i ∈ idxs u -> i <> idx u -> g i = f i) ->
    (forall x, f (idx u) = Some x -> g (idx u) = Some (setp p' x)) ->
    repr f p u -> repr g p' u.
  Proof.
    destruct u as [i v|i l r]; simpl; intros Hnd H1 H2.
    - intros Hf. by rewrite (H2 _ Hf).
    - apply NoDup_cons in Hnd as [Hi Hnd]. intros (Hf & Hl & Hr).
      rewrite (H2 _ Hf). split_and!; [done|..].
      + eapply repr_ext; [|done]. intros j Hj. apply H1; set_solver.
      + eapply repr_ext; [|done]. intros j Hj. apply H1; set_solver.
  Qed.
  Lemma shp_set_parent p (n : node B) : shp (set_parent p n) = setp p <$> shp n.
  Proof. by destruct n. Qed.
  Lemma shp_redirect a b (n : node B) : shp (redirect_child a b n) = redirect_shape a b <$> shp n.
  Proof. destruct n; simpl; try done. by case_decide. Qed.

  Lemma modify_ok ns i n f : ns !! i = Some n -> modify ns i f = Ok (<[i := f n]> ns).
  Proof. intros H. unfold modify. by rewrite (get_Some _ _ _ H). Qed.

  (** * Parent/child links *)
  Definition linked (f : nat -> option shape) : Prop :=
    forall j p l r, f j = Some (SBranch p l r) ->
      (exists x, f l = Some x /\ spar x = j) /\ (exists x, f r = Some x /\ spar x = j) /\ l <> r /\ j <> l /\ j <> r.
  Lemma linked_of f t :
    NoDup (idxs t) -> repr f 0 t -> (forall i, is_Some (f i) -> i ∈ idxs t) -> linked f.
  Proof.
    intros Hnd Hr Hin j p l r Hj.
    destruct (decompose_branch _ _ _ _ _ _ Hr (Hin j ltac:(eauto)) Hj) as (c & tl & tr & -> & -> & -> & ->).
    apply repr_plug in Hr as [_ (_ & Hl & Hr)].
    rewrite idxs_plug in Hnd. apply NoDup_app in Hnd as (_&_&Hnd). simpl in Hnd.
    apply NoDup_cons in Hnd as [Hj' Hnd]. apply NoDup_app in Hnd as (_&Hd&_).
    pose proof (idx_in tl). pose proof (idx_in tr).
    split_and!.
    - destruct (repr_idx _ _ _ Hl) as (x & Hx & Hs). exists x. split; [done|]. by destruct tl; subst.
    - destruct (repr_idx _ _ _ Hr) as (x & Hx & Hs). exists x. split; [done|]. by destruct tr; subst.
    - intros Heq. eapply Hd; [done|]. by rewrite Heq.
    - set_solver.
    - set_solver.
  Qed.
  Lemma wf_tree_linked s t : wf_tree s t -> linked (sh (nodes s)).
  Proof.
    intros Hwf. eapply linked_of; [by eapply wf_tree_nodup|apply Hwf|].
    intros i Hi. by eapply wf_tree_in.
  Qed.
  Lemma wf_struct_linked s : wf_struct s -> linked (sh (nodes s)).
  Proof.
    intros [(Hn&_)|[t Hwf]]; [|by eapply wf_tree_linked].
    intros j p l r. rewrite Hn. by destruct j.
  Qed.

  (** * Bounds and heights *)
  Definition nbh (n : node B) : option (nat * B) :=
    match n with Branch _ _ _ h b => Some (h, b) | Leaf _ _ b => Some (1, b) | Nil => None end.
  Definition bh ns (i : nat) : option (nat * B) := (ns !! i) ≫= nbh.
  Definition fits ns (l r h : nat) (b : B) : Prop :=
    exists hl bl hr br, bh ns l = Some (hl, bl) /\ bh ns r = Some (hr, br)
      /\ h = 1 + max hl hr /\ b = b_union O bl br.
  Definition fitx ns (X : nat -> Prop) : Prop :=
    forall i p l r h b, ns !! i = Some (Branch p l r h b) -> X i \/ fits ns l r h b.
  Definition fitq s : Prop := fitx (nodes s) (fun i => i ∈ (refit_nodes s).*2).

  Lemma fits_ext ns ns' l r h b :
    bh ns' l = bh ns l -> bh ns' r = bh ns r -> fits ns l r h b -> fits ns' l r h b.
  Proof. unfold fits. by intros -> ->. Qed.
  Lemma fitx_mono ns (X Y : nat -> Prop) : (forall i, X i -> Y i) -> fitx ns X -> fitx ns Y.
  Proof. intros H Hf i p l r h b Hi. destruct (Hf _ _ _ _ _ _ Hi); auto. Qed.
  Lemma bh_insert ns i n : i < length ns -> bh (<[i:=n]> ns) i = nbh n.
  Proof. intros. unfold bh. by rewrite list_lookup_insert. Qed.
  Lemma bh_insert_ne ns i j n : i <> j -> bh (<[i:=n]> ns) j = bh ns j.
  Proof. intros. unfold bh. by rewrite list_lookup_insert_ne. Qed.
  Lemma bh_lookup ns i n : ns !! i = Some n -> bh ns i = nbh n.
  Proof. intros H. unfold bh. by rewrite H. Qed.

  Lemma fitq_new : fitq dbvt_new.
  Proof. intros i p l r h b. by destruct i. Qed.
  Lemma fitq_clear s : fitq (dbvt_clear s).
  Proof. intros i p l r h b. by destruct i. Qed.

  (** Fat bounds. *)
  Definition lb ns (i : nat) : option B :=
    match ns !! i with Some (Leaf _ _ b) => Some b | _ => None end.
  Definition fatok s : Prop :=
    forall i b v, lb (nodes s) i = Some b -> (i, v) ∈ values s ->
      b_contains O b (tv_bound O v) = true \/ i ∈ updated_list s.
  Lemma lb_leaf ns i b : lb ns i = Some b <-> exists p k, ns !! i = Some (Leaf p k b).
  Proof.
    unfold lb. split.
    - destruct (ns !! i) as [[]|]; intros; simplify_eq; eauto.
    - by intros (p & k & ->).
  Qed.
  Definition flags_ok s : Prop := forall i, i ∈ updated_list s -> i < length (nodes s).
End inv.
