(** C17-C20: broad phases. *)
From stdpp Require Import prelude sorting gmap fin_maps fin_sets.
From Verif Require Import Res Num DbvtModel DbvtVisitors DbvtInv DbvtQuery DbvtUpdate DbvtSpec DbvtHistory PropsDbvt BroadModel.

(** The pairs a broad phase must report: [i < j] with intersecting bounds. *)
Definition colliding {A Bd} (bound : A -> Bd) (isect : Bd -> Bd -> bool) (shapes : list A) (i j : nat) : Prop :=
  i < j /\ exists a b, shapes !! i = Some a /\ shapes !! j = Some b /\ isect (bound a) (bound b) = true.
(** Lexicographic order on index pairs. *)
Definition lex (x y : nat * nat) : Prop := x.1 < y.1 \/ x.1 = y.1 /\ x.2 < y.2.

Lemma ssorted_lookup {A} (R : relation A) l i j x y :
  StronglySorted R l -> i < j -> l !! i = Some x -> l !! j = Some y -> R x y.
Proof.
  intros Hs. revert i j. induction Hs as [|z l Hs IH Hf]; intros i j Hij Hi Hj; [done|].
  destruct j as [|j]; [lia|]. simpl in Hj. destruct i as [|i]; simpl in Hi.
  - simplify_eq. eapply Forall_lookup; eauto.
  - eapply (IH i j); eauto. lia.
Qed.
Lemma ssorted_app {A} (R : relation A) l1 l2 :
  StronglySorted R l1 -> StronglySorted R l2 -> (forall x y, x ∈ l1 -> y ∈ l2 -> R x y) -> StronglySorted R (l1 ++ l2).
Proof.
  intros H1 H2 H. induction H1 as [|z l Hs IH Hf]; [done|]. simpl. constructor.
  - apply IH. intros; apply H; [by right|done].
  - apply Forall_app. split; [done|]. apply Forall_forall. intros y Hy. apply H; [left|done].
Qed.
Lemma ssorted_sublist {A} (R : relation A) l1 l2 : sublist l1 l2 -> StronglySorted R l2 -> StronglySorted R l1.
Proof.
  induction 1 as [|x l1 l2 Hsub IH|x l1 l2 Hsub IH]; intros Hs; [constructor|..]; inversion Hs; subst.
  - constructor; [by apply IH|]. apply Forall_forall. intros y Hy. eapply Forall_forall; [done|].
    eapply elem_of_submseteq; [done|]. by apply sublist_submseteq.
  - by apply IH.
Qed.
Lemma ssorted_lt_nodup l : StronglySorted lt l -> NoDup l.
Proof.
  induction 1 as [|x l Hs IH Hf]; constructor; [|done]. intros Hx. eapply Forall_forall in Hf; [|done]. lia.
Qed.

Section brute.
  Context {A Bd : Type} (bound : A -> Bd) (isect : Bd -> Bd -> bool).
  Implicit Types shapes : list A.

  Definition tst shapes (left : A) (r : nat) : bool :=
    match shapes !! r with Some b => isect (bound left) (bound b) | None => false end.
  Lemma brute_inner_spec shapes left li rs pairs :
    (forall r, r ∈ rs -> r < length shapes) ->
    brute_inner bound isect shapes left li rs pairs = Ok (pairs ++ (pair li <$> filter (fun r => tst shapes left r) rs)).
  Proof.
    revert pairs. induction rs as [|r rs IH]; intros pairs Hr; simpl.
    - by rewrite app_nil_r.
    - destruct (lookup_lt_is_Some_2 shapes r (Hr r ltac:(left))) as [b Hb].
      rewrite (get_Some _ _ _ Hb). cbn [mbind res_mbind res_bind].
      rewrite IH by (intros; apply Hr; by right). rewrite filter_cons.
      assert (isect (bound left) (bound b) = tst shapes left r) as -> by (unfold tst; by rewrite Hb).
      case_decide as E; destruct (tst shapes left r); try done.
      by rewrite fmap_cons, <- app_assoc.
  Qed.
  Lemma row_sorted li a n (f : nat -> bool) : qsorted (pair li <$> filter f (seq a n)).
  Proof.
    revert a. induction n as [|n IH]; intros a; simpl; [constructor|]. rewrite filter_cons. case_decide; [|apply IH].
    rewrite fmap_cons. constructor; [apply IH|]. apply Forall_forall. intros x (r & -> & [_ Hr]%elem_of_list_filter)%elem_of_list_fmap.
    apply elem_of_seq in Hr. right. simpl. lia.
  Qed.
  Lemma brute_outer_spec shapes a n pairs :
    a + n + 1 = length shapes ->
    qsorted pairs -> (forall i j, (i, j) ∈ pairs <-> i < a /\ colliding bound isect shapes i j) ->
    exists ps, brute_outer bound isect shapes (seq a n) pairs = Ok ps /\ qsorted ps
      /\ forall i j, (i, j) ∈ ps <-> colliding bound isect shapes i j.
  Proof.
    revert a pairs. induction n as [|n IH]; intros a pairs Ha Hs Hp; simpl.
    - exists pairs. split_and!; [done..|]. intros i j. rewrite Hp. split; [tauto|]. intros Hc. split; [|done].
      destruct Hc as (Hij & x & y & _ & Hj & _). apply lookup_lt_Some in Hj. lia.
    - destruct (lookup_lt_is_Some_2 shapes a ltac:(lia)) as [x Hx].
      rewrite (get_Some _ _ _ Hx). cbn [mbind res_mbind res_bind].
      rewrite brute_inner_spec by (intros r Hr; apply elem_of_seq in Hr; lia). cbn [mbind res_mbind res_bind].
      apply IH; [lia| |].
      + apply qsorted_app; [done|apply row_sorted|]. intros [i j] z Hi (r & -> & Hr)%elem_of_list_fmap.
        apply Hp in Hi as [Hi _]. left. simpl. lia.
      + intros i j. rewrite elem_of_app, Hp. rewrite elem_of_list_fmap. split.
        * intros [[Hi Hc]|(r & [= -> ->] & [Ht Hr]%elem_of_list_filter)]; [split; [lia|done]|].
          apply elem_of_seq in Hr. split; [lia|]. split; [lia|]. unfold tst in Ht.
          destruct (shapes !! r) as [y|] eqn:Hy; [|done]. exists x, y. split_and!; try done. by destruct (isect _ _).
        * intros [Hi Hc]. destruct (decide (i = a)) as [->|]; [right|left; split; [lia|done]].
          destruct Hc as (Hij & x' & y & Hx' & Hy & Hxy). simplify_eq. exists j. split; [done|].
          apply elem_of_list_filter. pose proof (lookup_lt_Some _ _ _ Hy). split; [|apply elem_of_seq; lia].
          unfold tst. by rewrite Hy, Hxy.
  Qed.

  Theorem C17_brute_force_exact shapes :
    exists ps, brute_force bound isect shapes = Ok ps
      /\ StronglySorted lex ps
      /\ forall i j, (i, j) ∈ ps <-> colliding bound isect shapes i j.
  Proof.
    unfold brute_force. case_decide as Hl.
    - exists []. split_and!; [done|constructor|]. intros i j. split; [by intros ?%elem_of_nil|].
      intros (Hij & a & b & _ & Hj & _). apply lookup_lt_Some in Hj. lia.
    - destruct (brute_outer_spec shapes 0 (length shapes - 1) []) as (ps & ? & ? & ?); [lia|constructor| |eauto].
      intros i j. split; [by intros ?%elem_of_nil|]. intros [? _]. lia.
  Qed.
End brute.

Section sap.
  Context {A Bd S : Type} `{NumOrd S} (bound : A -> Bd) (isect : Bd -> Bd -> bool).
  Context (dim : nat) (mn mx : Bd -> list S) (of_nat : nat -> S).
  Implicit Types shapes : list A.

  (** A shape whose extents on [axis] exist and are not NaN. *)
  Definition comparable (axis : nat) (a : A) : Prop :=
    exists lo hi, mn (bound a) !! axis = Some lo /\ mx (bound a) !! axis = Some hi /\ ok lo /\ ok hi.
  (** Ascending by minimum, then by maximum. *)
  Definition before (axis : nat) (a b : A) : Prop :=
    exists lo hi lo' hi', mn (bound a) !! axis = Some lo /\ mx (bound a) !! axis = Some hi
      /\ mn (bound b) !! axis = Some lo' /\ mx (bound b) !! axis = Some hi'
      /\ (Lt_ lo lo' \/ Eqn lo lo' /\ Le hi hi').
  (** What the sweep needs of the bound test: intersecting bounds overlap on the axis. *)
  Definition overlaps_on (axis : nat) : Prop :=
    forall a b hi lo, isect (bound a) (bound b) = true ->
      mx (bound a) !! axis = Some hi -> mn (bound b) !! axis = Some lo -> Le lo hi.

  Lemma sap_cmp_spec axis a b : comparable axis a -> comparable axis b ->
    exists c, sap_cmp bound mn mx axis a b = Ok c
      /\ match c with Gt => before axis b a | _ => before axis a b end.
  Proof.
    intros (la & ha & H1 & H2 & O1 & O2) (lb & hb & H3 & H4 & O3 & O4). unfold sap_cmp.
    rewrite (get_Some _ _ _ H1), (get_Some _ _ _ H3), (get_Some _ _ _ H2), (get_Some _ _ _ H4). cbn [mbind res_mbind res_bind].
    pose proof (pcmp_spec la lb O1 O3) as Hc. destruct (pcmp la lb) as [[]|]; [|..|done].
    - pose proof (pcmp_spec ha hb O2 O4) as Hd. destruct (pcmp ha hb) as [[]|]; [|..|done]; (eexists; split; [done|]); simpl.
      + exists la, ha, lb, hb. split_and!; try done. right. split; [done|]. by apply eqn_le in Hd as [? _].
      + exists la, ha, lb, hb. split_and!; try done. right. split; [done|]. by apply lt_le.
      + exists lb, hb, la, ha. split_and!; try done. right. split; [|by apply lt_le]. apply eqn_le in Hc. apply eqn_le. tauto.
    - eexists; split; [done|]. exists la, ha, lb, hb. auto 10.
    - eexists; split; [done|]. exists lb, hb, la, ha. auto 10.
  Qed.
  Lemma before_trans axis a b c : before axis a b -> before axis b c -> before axis a c.
  Proof.
    intros (l1 & h1 & l2 & h2 & E1 & E2 & E3 & E4 & C1) (l3 & h3 & l4 & h4 & E5 & E6 & E7 & E8 & C2). simplify_eq.
    exists l1, h1, l4, h4. split_and!; try done.
    destruct C1 as [C1|[C1 D1]], C2 as [C2|[C2 D2]].
    - left. by eapply lt_trans.
    - left. eapply lt_le_trans; [done|]. by apply eqn_le in C2 as [? _].
    - left. eapply le_lt_trans; [|done]. by apply eqn_le in C1 as [? _].
    - right. apply eqn_le in C1 as [? ?], C2 as [? ?]. split; [apply eqn_le; split|]; by eapply le_trans.
  Qed.
  Lemma sap_ins_spec axis x l : comparable axis x -> Forall (comparable axis) l -> StronglySorted (before axis) l ->
    exists l', sap_ins bound mn mx axis x l = Ok l' /\ l' ≡ₚ x :: l /\ StronglySorted (before axis) l'.
  Proof.
    intros Hx Hl Hs. induction Hs as [|y l Hs IH Hf]; simpl.
    - eexists; split_and!; [done..|repeat constructor].
    - apply Forall_cons in Hl as [Hy Hl].
      destruct (sap_cmp_spec axis x y Hx Hy) as (c & -> & Hc). cbn [mbind res_mbind res_bind].
      assert (Hle : before axis x y -> StronglySorted (before axis) (x :: y :: l)).
      { intros Hb. constructor; [by constructor|]. constructor; [done|]. eapply Forall_impl; [done|]. intros z Hz. by eapply before_trans. }
      destruct c; [eexists; split_and!; [done|done|by apply Hle]..|].
      destruct (IH Hl) as (l' & -> & HP & Hs'). cbn [mbind res_mbind res_bind].
      eexists; split_and!; [done| |].
      + rewrite HP. apply Permutation_swap.
      + constructor; [done|]. rewrite HP. by constructor.
  Qed.
  Lemma sap_sort_spec axis l : Forall (comparable axis) l ->
    exists l', sap_sort bound mn mx axis l = Ok l' /\ l' ≡ₚ l /\ StronglySorted (before axis) l'.
  Proof.
    induction 1 as [|x l Hx Hl IH]; simpl.
    - eexists; split_and!; [done..|constructor].
    - destruct IH as (l' & -> & HP & Hs). cbn [mbind res_mbind res_bind].
      destruct (sap_ins_spec axis x l' Hx) as (l2 & -> & HP2 & Hs2); [by rewrite HP|done|].
      eexists; split_and!; [done|by rewrite HP2, HP|done].
  Qed.

  (** The shapes that stay active. *)
  Lemma sap_retain_spec axis shapes shape active :
    Forall (comparable axis) shapes -> comparable axis shape -> (forall i, i ∈ active -> i < length shapes) ->
    exists l, sap_retain bound mn mx axis shapes shape active = Ok l /\ sublist l active
      /\ forall i, i ∈ active -> i ∉ l ->
          exists a hi lo, shapes !! i = Some a /\ mx (bound a) !! axis = Some hi /\ mn (bound shape) !! axis = Some lo /\ Lt_ hi lo.
  Proof.
    intros Hall (lo & hi & Hlo & Hhi & Olo & Ohi). induction active as [|i active IH]; intros Hr; simpl.
    - exists []. split_and!; [done|constructor|]. by intros i ?%elem_of_nil.
    - destruct (lookup_lt_is_Some_2 shapes i (Hr i ltac:(left))) as [a Ha].
      pose proof (proj1 (Forall_lookup _ _) Hall _ _ Ha) as (la & ha & H1 & H2 & O1 & O2).
      rewrite (get_Some _ _ _ Ha). cbn [mbind res_mbind res_bind].
      rewrite (get_Some _ _ _ H2). cbn [mbind res_mbind res_bind]. rewrite (get_Some _ _ _ Hlo). cbn [mbind res_mbind res_bind].
      destruct IH as (l & -> & Hsub & Hd). { intros; apply Hr; by right. }
      cbn [mbind res_mbind res_bind]. eexists; split; [done|].
      destruct (nle lo ha) eqn:E.
      + split; [by constructor|]. intros j [->|Hj]%elem_of_cons Hn; [set_solver|]. apply Hd; set_solver.
      + split; [by constructor|]. intros j [->|Hj]%elem_of_cons Hn; [|by apply Hd].
        exists a, ha, lo. split_and!; try done. by apply not_le_lt.
  Qed.

  Definition tstr shapes (shape : A) (i : nat) : bool :=
    match shapes !! i with Some a => isect (bound a) (bound shape) | None => false end.
  Lemma sap_test_ok shapes shape j active pairs :
    (forall i, i ∈ active -> i < length shapes) ->
    sap_test bound isect shapes shape j active pairs
    = Ok (pairs ++ ((fun i => (i, j)) <$> filter (fun i => tstr shapes shape i) active)).
  Proof.
    revert pairs. induction active as [|i active IH]; intros pairs Hr; simpl.
    - by rewrite app_nil_r.
    - destruct (lookup_lt_is_Some_2 shapes i (Hr i ltac:(left))) as [a Ha].
      rewrite (get_Some _ _ _ Ha). cbn [mbind res_mbind res_bind].
      rewrite IH by (intros; apply Hr; by right). rewrite filter_cons.
      assert (isect (bound a) (bound shape) = tstr shapes shape i) as -> by (unfold tstr; by rewrite Ha).
      case_decide as E; destruct (tstr shapes shape i); try done.
      by rewrite fmap_cons, <- app_assoc.
  Qed.

  Lemma before_lo axis a b lo lo' :
    before axis a b -> mn (bound a) !! axis = Some lo -> mn (bound b) !! axis = Some lo' -> Le lo lo'.
  Proof.
    intros (l1 & h1 & l2 & h2 & E1 & E2 & E3 & E4 & [C|[C _]]) Ha Hb; simplify_eq; [by apply lt_le|].
    by apply eqn_le in C as [? _].
  Qed.

  Lemma sap_sweep_spec axis shapes rest j active var pairs :
    overlaps_on axis -> Forall (comparable axis) shapes -> StronglySorted (before axis) shapes ->
    drop j shapes = rest -> 
    (forall i, i ∈ active -> i < j) -> StronglySorted lt active ->
    (forall i k, i < j -> i ∉ active -> j <= k -> ~ colliding bound isect shapes i k) ->
    NoDup pairs -> (forall i k, (i, k) ∈ pairs <-> k < j /\ colliding bound isect shapes i k) ->
    exists ps, sap_sweep bound isect mn mx axis shapes rest j active var pairs = Ok (var, ps)
      /\ NoDup ps /\ forall i k, (i, k) ∈ ps <-> colliding bound isect shapes i k.
  Proof.
    intros Hov Hall Hsort. revert j active var pairs. induction rest as [|shape rest IH];
      intros j active var pairs Hdrop Hact Hsa Hinact Hnd Hp; simpl.
    - exists pairs. split_and!; [done..|]. intros i k. rewrite Hp. split; [tauto|]. intros Hc. split; [|done].
      destruct Hc as (_ & _ & b & _ & Hk & _). apply lookup_lt_Some in Hk.
      assert (length shapes <= j) by (by apply drop_nil_inv || (rewrite <- (Nat.add_0_r (length shapes)); pose proof (drop_length shapes j) as E; rewrite Hdrop in E; simpl in E; lia)). lia.
    - assert (Hj : shapes !! j = Some shape).
      { rewrite <- (Nat.add_0_r j), <- lookup_drop, Hdrop. done. }
      assert (Hlen : j < length shapes) by by eapply lookup_lt_Some.
      pose proof (proj1 (Forall_lookup _ _) Hall _ _ Hj) as Hcj.
      destruct (sap_retain_spec axis shapes shape active Hall Hcj) as (l & -> & Hsub & Hd).
      { intros i Hi. specialize (Hact i Hi). lia. }
      cbn [mbind res_mbind res_bind].
      assert (Hlj : forall i, i ∈ l -> i < j). { intros i Hi. apply Hact. eapply elem_of_submseteq; [done|]. by apply sublist_submseteq. }
      assert (Hinl : forall i k, i < j -> i ∉ l -> j <= k -> ~ colliding bound isect shapes i k).
      { intros i k Hij Hil Hjk Hc. destruct (decide (i ∈ active)) as [Hia|Hia]; [|by apply (Hinact i k)].
        destruct (Hd i Hia Hil) as (a & hi & lo & Ha & Hhi & Hlo & Hlt).
        destruct Hc as (_ & a' & b & Ha' & Hb & Hi). simplify_eq.
        pose proof (proj1 (Forall_lookup _ _) Hall _ _ Hb) as (lb & hb & Hlb & _).
        assert (Hll : Le lo lb).
        { destruct (decide (j = k)) as [->|]; [simplify_eq; apply le_refl; destruct Hcj as (? & ? & ? & ? & ? & ?); by simplify_eq|].
          eapply before_lo; [|done..]. eapply (ssorted_lookup _ _ j k); [exact Hsort|lia|exact Hj|exact Hb]. }
        pose proof (Hov a' b hi lb Hi Hhi Hlb) as Hle.
        pose proof (lt_not_le _ _ (lt_le_trans _ _ _ Hlt Hll)) as Hn. unfold Le in Hle. congruence. }
      rewrite sap_test_ok. 2:{ intros i Hi. specialize (Hlj i Hi). lia. }
      cbn [mbind res_mbind res_bind].
      assert (Hsl : StronglySorted lt l).
      { by eapply ssorted_sublist. }
      apply IH.
      + replace (j + 1) with (Datatypes.S j) by lia. pose proof (drop_S _ _ _ Hj) as E. rewrite Hdrop in E. by simplify_eq.
      + intros i [Hi|Hi]%elem_of_app; [specialize (Hlj i Hi); lia|]. apply elem_of_list_singleton in Hi. lia.
      + apply ssorted_app; [done|repeat constructor|]. intros x y Hx ->%elem_of_list_singleton. by apply Hlj.
      + intros i k Hij Hia Hjk. apply Hinl; [|set_solver|lia]. assert (i <> j) by set_solver. lia.
      + apply NoDup_app. split_and!; [done| |].
        * intros [i k] Hik (i' & [= -> ->] & _)%elem_of_list_fmap. apply Hp in Hik as [? _]. lia.
        * apply NoDup_fmap_2; [intros ? ? [=]; done|]. apply NoDup_filter. by apply ssorted_lt_nodup.
      + intros i k. rewrite elem_of_app, Hp, elem_of_list_fmap. split.
        * intros [[Hk Hc]|(i' & [= -> ->] & [Ht Hi]%elem_of_list_filter)]; [split; [lia|done]|].
          split; [lia|]. split; [by apply Hlj|]. unfold tstr in Ht. destruct (shapes !! i') as [a|] eqn:Ha; [|done].
          exists a, shape. split_and!; try done. by destruct (isect _ _).
        * intros [Hk Hc]. destruct (decide (k = j)) as [->|]; [right|left; split; [lia|done]].
          exists i. split; [done|]. apply elem_of_list_filter. split.
          -- destruct Hc as (_ & a & b & Ha & Hb & Hi). simplify_eq. unfold tstr. by rewrite Ha, Hi.
          -- destruct (decide (i ∈ l)) as [|Hn]; [done|]. exfalso. eapply (Hinl i j); [|done..].
             by destruct Hc as [? _].
  Qed.

  Lemma axis_loop_const n x i : axis_loop (replicate n x) i 0 x = (0, x).
  Proof. revert i. induction n as [|n IH]; intros i; simpl; [done|]. rewrite lt_irrefl. apply IH. Qed.
  Lemma compute_axis_zero n : 0 < dim -> exists x, compute_axis (variance_zero dim) n = Ok (0, x).
  Proof.
    intros Hd. unfold compute_axis, variance_zero. simpl. rewrite zip_with_replicate, fmap_replicate, zip_with_replicate by (by rewrite ?replicate_length).
    destruct dim as [|d]; [lia|]. simpl. rewrite drop_0, axis_loop_const. eauto.
  Qed.

  (** C18 *)
  Theorem C18_sweep_and_prune_exact s shapes :
    Forall (comparable (sweep_axis s)) shapes -> overlaps_on (sweep_axis s) -> 0 < dim ->
    exists s' shapes' pairs, sap_find bound isect dim mn mx of_nat s shapes = Ok (s', shapes', pairs)
      /\ shapes' ≡ₚ shapes /\ StronglySorted (before (sweep_axis s)) shapes'
      /\ NoDup pairs
      /\ (forall i j, (i, j) ∈ pairs <-> colliding bound isect shapes' i j)
      /\ exists ps, brute_force bound isect shapes' = Ok ps /\ pairs ≡ₚ ps.
  Proof.
    intros Hall Hov Hdim.
    assert (Hfind : exists s' shapes' pairs, sap_find bound isect dim mn mx of_nat s shapes = Ok (s', shapes', pairs)
      /\ shapes' ≡ₚ shapes /\ StronglySorted (before (sweep_axis s)) shapes'
      /\ NoDup pairs /\ (forall i j, (i, j) ∈ pairs <-> colliding bound isect shapes' i j)).
    { unfold sap_find. case_decide as Hl.
      - exists s, shapes, []. split_and!; [done|done| |constructor|].
        + destruct shapes as [|x [|y l]]; simpl in Hl; [constructor|repeat constructor|lia].
        + intros i j. split; [by intros ?%elem_of_nil|]. intros (? & a & b & _ & Hb & _). apply lookup_lt_Some in Hb. lia.
      - destruct (sap_sort_spec (sweep_axis s) shapes Hall) as (shapes' & -> & HP & Hs). cbn [mbind res_mbind res_bind].
        assert (Hall' : Forall (comparable (sweep_axis s)) shapes') by by rewrite HP.
        pose proof (Permutation_length HP) as Hlen.
        destruct shapes' as [|x l]; [simpl in Hlen; lia|]. cbn [get lookup list_lookup mbind res_mbind res_bind].
        destruct (sap_sweep_spec (sweep_axis s) (x :: l) (drop 1 (x :: l)) 1 [0]
          (variance_add (variance_zero dim) (mn (bound x)) (mx (bound x))) []) as (ps & -> & Hnd & Hps); try done.
        + intros i ->%elem_of_list_singleton. lia.
        + repeat constructor.
        + intros i k Hi Hn. assert (i = 0) by lia. subst. set_solver.
        + constructor.
        + intros i k. split; [by intros ?%elem_of_nil|]. intros [? [? _]]. lia.
        + cbn [mbind res_mbind res_bind].
          destruct (compute_axis_zero (of_nat (length (x :: l))) Hdim) as [y Hy].
          unfold variance_add. rewrite Hy. cbn [mbind res_mbind res_bind]. eexists _, _, _. split_and!; [done|done|done|done|done]. }
    destruct Hfind as (s' & shapes' & pairs & ? & ? & ? & Hnd & Hp). exists s', shapes', pairs. split_and!; try done.
    destruct (C17_brute_force_exact bound isect shapes') as (ps & ? & Hs & Hps). exists ps. split; [done|].
    apply NoDup_Permutation; [done| |].
    - clear -Hs. induction Hs as [|x l Hs IH Hf]; constructor; [|done]. intros Hx. eapply Forall_forall in Hf; [|done].
      unfold lex in Hf. lia.
    - intros [i j]. by rewrite Hp, Hps.
  Qed.

  (** Beyond the dimension of the bounds the first comparison panics. *)
  Theorem C18_axis_out_of_range_panics s shapes :
    1 < length shapes -> (forall a, a ∈ shapes -> mn (bound a) !! sweep_axis s = None) ->
    sap_find bound isect dim mn mx of_nat s shapes = Panic.
  Proof.
    intros Hl Hn. unfold sap_find. rewrite decide_False by lia.
    assert (Hsort : forall l, (forall a, a ∈ l -> mn (bound a) !! sweep_axis s = None) ->
      sap_sort bound mn mx (sweep_axis s) l = Panic \/ (length l <= 1 /\ sap_sort bound mn mx (sweep_axis s) l = Ok l)).
    { induction l as [|x l IH]; intros Hm; simpl; [right; split; [lia|done]|].
      destruct (IH ltac:(intros; apply Hm; by right)) as [->|[Hle ->]]; [by left|]. cbn [mbind res_mbind res_bind].
      destruct l as [|y l]; [right; simpl; split; [lia|done]|]. left. simpl. unfold sap_cmp.
      assert (get (mn (bound x)) (sweep_axis s) = Panic) as -> by (unfold get; by rewrite (Hm x ltac:(left))). done. }
    destruct (Hsort shapes Hn) as [->|[? _]]; [done|lia].
  Qed.

  (** A fresh algorithm sweeps along the axis it was given ([new]: the first axis), which is
      also what it reports; the first query leaves the objects sorted along it. *)
  Theorem C18_configured_axis axis shapes :
    sweep_axis (sap_with_axis (S:=S) dim axis) = axis /\ sweep_axis (sap_new (S:=S) dim) = 0 /\
    (Forall (comparable axis) shapes -> overlaps_on axis -> 0 < dim ->
     exists s' shapes' pairs, sap_find bound isect dim mn mx of_nat (sap_with_axis dim axis) shapes = Ok (s', shapes', pairs)
       /\ shapes' ≡ₚ shapes /\ StronglySorted (before axis) shapes'
       /\ forall i j, (i, j) ∈ pairs <-> colliding bound isect shapes' i j).
  Proof.
    split; [done|]. split; [done|]. intros Hc Ho Hd.
    destruct (C18_sweep_and_prune_exact (sap_with_axis dim axis) shapes Hc Ho Hd) as (s' & shapes' & pairs & E & Hp & Hs & _ & Hcol & _).
    by exists s', shapes', pairs.
  Qed.

  (** C19 *)
  Theorem C19_axis_always_x s shapes s' shapes' pairs :
    0 < dim -> 1 < length shapes -> sap_find bound isect dim mn mx of_nat s shapes = Ok (s', shapes', pairs) ->
    sweep_axis s' = 0.
  Proof.
    intros Hd Hl. unfold sap_find. rewrite decide_False by lia.
    intros (sh' & _ & Hf)%res_bind_Ok. apply res_bind_Ok in Hf as (x & _ & Hf). apply res_bind_Ok in Hf as ([var ps] & Hw & Hf).
    assert (Hvar : var = variance_zero dim).
    { assert (forall rest j active v pairs r, sap_sweep bound isect mn mx (sweep_axis s) sh' rest j active v pairs = Ok r -> r.1 = v) as Hk.
      { clear. induction rest as [|y rest IH]; intros j active v pairs r; simpl; [by intros [= <-]|].
        intros (a & _ & H1)%res_bind_Ok. apply res_bind_Ok in H1 as (p & _ & H1). by apply IH in H1. }
      by apply Hk in Hw. }
    subst var. destruct (compute_axis_zero (of_nat (length sh')) Hd) as [y Hy].
    rewrite Hy in Hf. cbn [mbind res_mbind res_bind] in Hf. by simplify_eq.
  Qed.
End sap.

Section dbp.
  Context {T B S : Type} (O : dbvt_ops T B S) (isect : B -> B -> bool).
  Implicit Types (s : dbvt T B) (a : astate T).

  Lemma vec_insert_sorted pot p :
    qsorted pot ->
    let pot' := match binary_search pot p with inr pos => vec_insert pos p pot | inl _ => pot end in
    qsorted pot' /\ forall x, x ∈ pot' <-> x = p \/ x ∈ pot.
  Proof.
    intros Hq. pose proof (binary_search_spec pot p Hq) as Hbs. cbn zeta.
    destruct (binary_search pot p) as [k|k].
    - split; [done|]. intros x. apply elem_of_list_lookup_2 in Hbs. naive_solver.
    - destruct Hbs as (Hk & Hl & Hg). unfold vec_insert.
      assert (take k pot ++ p :: drop k pot ≡ₚ p :: pot) as HP.
      { rewrite <- Permutation_middle. by rewrite take_drop. }
      split; [|intros x; rewrite HP; apply elem_of_cons].
      apply qsorted_app; [by apply qsorted_take| |].
      + constructor; [by apply qsorted_drop|]. apply Forall_forall. intros y Hy.
        apply elem_of_list_lookup in Hy as [j Hj]. rewrite lookup_drop in Hj. eapply (Hg (k + j)); [lia|done].
      + intros y z Hy Hz. apply elem_of_list_lookup in Hy as [j Hj].
        assert (j < k) by (apply lookup_lt_Some in Hj; rewrite take_length in Hj; lia).
        rewrite lookup_take in Hj by done. pose proof (Hl j y ltac:(done) Hj) as Hyx.
        apply elem_of_cons in Hz as [->|Hz]; [done|].
        apply elem_of_list_lookup in Hz as [j' Hj']. rewrite lookup_drop in Hj'.
        pose proof (Hg (k + j') z ltac:(lia) Hj') as Hxz. unfold pair_lt in *; simpl in *; lia.
  Qed.
  Lemma dbp_hits_spec i hits pot :
    qsorted pot ->
    qsorted (dbp_hits i hits pot)
    /\ forall x, x ∈ dbp_hits i hits pot <-> x ∈ pot \/ exists k, k ∈ hits.*1 /\ k <> i /\ x = (min i k, max i k).
  Proof.
    revert pot. induction hits as [|[k u] hits IH]; intros pot Hq; simpl.
    - split; [done|]. intros x. split; [by left|]. intros [?|(k & Hk & _)]; [done|by apply elem_of_nil in Hk].
    - assert (Hgen : forall p, p = (min i k, max i k) -> i <> k ->
        let pot' := match binary_search pot p with inr pos => vec_insert pos p pot | inl _ => pot end in
        qsorted (dbp_hits i hits pot') /\ forall x, x ∈ dbp_hits i hits pot' <->
          x ∈ pot \/ exists k', k' ∈ k :: hits.*1 /\ k' <> i /\ x = (min i k', max i k')).
      { intros p Hp Hik. cbn zeta. destruct (vec_insert_sorted pot p Hq) as [H1 H2].
        destruct (IH _ H1) as [H3 H4]. split; [done|]. intros x. rewrite H4, H2. split.
        - intros [[->|?]|(k' & ? & ? & ?)]; [right; exists k; split_and!; [left|done..]|by left|].
          right. exists k'. split_and!; [by right|done..].
        - intros [?|(k' & [->|Hk']%elem_of_cons & ? & ?)]; [auto|left; left; congruence|eauto]. }
      destruct (Nat.compare_spec i k) as [->|Hlt|Hgt].
      + destruct (IH pot Hq) as [H3 H4]. split; [done|]. intros x. rewrite H4. set_solver.
      + apply Hgen; [f_equal; lia|lia].
      + apply Hgen; [f_equal; lia|lia].
  Qed.

  (** Pairs a dirty-driven broad phase must report. *)
  Definition dirty_pair s (dirty : list bool) (i j : nat) : Prop :=
    colliding (fun v : nat * T => tv_bound O v.2) isect (values s) i j
    /\ (dirty !! i = Some true \/ dirty !! j = Some true).

  Lemma dbp_loop_spec fuel s dirty n vs pot l :
    (forall i h v, values s !! i = Some (h, v) -> value_index s h = Ok (Some i)) ->
    (forall x y, isect x y = isect y x) ->
    (forall h v hits w, (h, v) ∈ values s -> query_for_indices O fuel (discrete_visitor (fun b => isect b (tv_bound O v))) s () = Ok (hits, w) ->
       forall k, k ∈ hits.*1 <-> exists u, values s !! k = Some u /\ isect (tv_bound O u.2) (tv_bound O v) = true) ->
    drop n (values s) = vs -> qsorted pot ->
    (forall i j, (i, j) ∈ pot <-> colliding (fun v : nat * T => tv_bound O v.2) isect (values s) i j
        /\ (i < n /\ dirty !! i = Some true \/ j < n /\ dirty !! j = Some true)) ->
    dbp_loop O isect fuel s dirty vs pot = Ok l ->
    qsorted l /\ forall i j, (i, j) ∈ l <-> dirty_pair s dirty i j.
  Proof.
    intros Hvi Hsym Hq. revert n pot. induction vs as [|[h v] vs IH]; intros n pot Hd Hs Hp; simpl.
    - intros [= <-]. split; [done|]. intros i j. rewrite Hp. unfold dirty_pair.
      assert (length (values s) <= n) as Hlen.
      { pose proof (drop_length (values s) n) as E. rewrite Hd in E. simpl in E. lia. }
      split; [naive_solver|]. intros [Hc Hdj]. split; [done|].
      destruct Hc as (Hij & x & y & Hx & Hy & _). apply lookup_lt_Some in Hx, Hy.
      destruct Hdj; [left|right]; split; done || lia.
    - assert (Hn : values s !! n = Some (h, v)).
      { rewrite <- (Nat.add_0_r n), <- lookup_drop, Hd. done. }
      rewrite (Hvi _ _ _ Hn). cbn [mbind res_mbind res_bind].
      intros (d & Hdn%get_Ok & Hf)%res_bind_Ok. apply res_bind_Ok in Hf as (pot' & Hpot & Hf).
      eapply (IH (n + 1)); [| | |exact Hf].
      { replace (n + 1) with (Datatypes.S n) by lia. pose proof (drop_S _ _ _ Hn) as E. rewrite Hd in E. by simplify_eq. }
      { destruct d; [|by simplify_eq]. apply res_bind_Ok in Hpot as ([hits w] & _ & [= <-]). by apply dbp_hits_spec. }
      intros i j. destruct d.
      + apply res_bind_Ok in Hpot as ([hits w] & Hquery & [= <-]).
        destruct (dbp_hits_spec n hits pot Hs) as [_ Hm]. rewrite Hm, Hp. clear Hm.
        pose proof (Hq h _ _ _ (elem_of_list_lookup_2 _ _ _ Hn) Hquery) as Hk. split.
        * intros [[Hc Hdd]|(k & Hkin & Hkn & [= -> ->])].
          { split; [done|]. destruct Hdd as [[? ?]|[? ?]]; [left|right]; (split; [lia|done]). }
          apply Hk in Hkin as (u & Hu & Hi). split.
          -- split; [lia|]. destruct (decide (k < n)).
             ++ rewrite Nat.min_r, Nat.max_l by lia. exists u, (h, v). done.
             ++ rewrite Nat.min_l, Nat.max_r by lia. exists (h, v), u. split_and!; [done..|]. by rewrite Hsym.
          -- destruct (decide (k < n)).
             ++ rewrite Nat.min_r, Nat.max_l by lia. right. split; [lia|done].
             ++ rewrite Nat.min_l, Nat.max_r by lia. left. split; [lia|done].
        * intros [Hc Hdd]. pose proof Hc as (Hij & x & y & Hx & Hy & Hxy).
          destruct (decide (i = n)) as [->|Hin].
          { right. exists j. split_and!; [|lia|f_equal; lia]. apply Hk. simplify_eq. exists y. simpl in Hxy. by rewrite Hsym. }
          destruct (decide (j = n)) as [->|Hjn].
          { right. exists i. split_and!; [|lia|f_equal; lia]. apply Hk. simplify_eq. exists x. done. }
          left. split; [done|]. destruct Hdd as [[? ?]|[? ?]]; [left|right]; (split; [lia|done]).
      + simplify_eq. rewrite Hp. split.
        * intros [Hc Hdd]. split; [done|]. destruct Hdd as [[? ?]|[? ?]]; [left|right]; (split; [lia|done]).
        * intros [Hc Hdd]. split; [done|]. destruct Hdd as [[? E]|[? E]]; [left|right]; (split; [|done]).
          -- assert (i <> n) by (intros ->; congruence). lia.
          -- assert (j <> n) by (intros ->; congruence). lia.
  Qed.

  Lemma handles_index a s i h v : history O a s -> values s !! i = Some (h, v) -> value_index s h = Ok (Some i).
  Proof.
    intros Hh Hi. destruct (C01_values_are_the_live_map O a s Hh) as (HP & Hnd & Hl).
    destruct (Hl h v) as (k & Hk & Hkv).
    { apply elem_of_map_to_list. rewrite HP. by eapply elem_of_list_lookup_2. }
    rewrite Hk. do 2 f_equal. eapply (NoDup_lookup _ _ _ h Hnd); rewrite list_lookup_fmap; [by rewrite Hkv|by rewrite Hi].
  Qed.

  (** C20 *)
  Theorem C20_dbvt_broad_phase_exact (leq : B -> B -> Prop) a s rng fuel s' fuel' dirty l :
    history O a s -> legal a (Tick rng) -> unflagged a = ∅ -> tick O fuel rng s = Ok s' ->
    enclosure O leq -> fat_ok O a ->
    (forall x y, isect x y = isect y x) ->
    (forall h v h' v' b, live a !! h = Some v -> live a !! h' = Some v' -> isect (tv_bound O v) (tv_bound O v') = true ->
       leq (tv_bound O v) b -> isect b (tv_bound O v') = true) ->
    dbp_find O isect fuel' s' dirty = Ok l ->
    StronglySorted lex l /\ forall i j, (i, j) ∈ l <-> dirty_pair s' dirty i j.
  Proof.
    intros Hh Hl Hu Ht He Hfat Hsym Hmono Hf.
    assert (Hh' : history O (anext a (Tick rng) NoOut) s').
    { eapply (history_step _ _ s (Tick rng) fuel); eauto. simpl. by rewrite Ht. }
    eapply (dbp_loop_spec fuel' s' dirty 0 (values s') [] l); [|done| |done|constructor| |exact Hf].
    - intros i h v Hi. by eapply handles_index.
    - intros h' v hits w Hin Hq k.
      assert (Hlv : live a !! h' = Some v).
      { destruct (C01_values_are_the_live_map O _ s' Hh') as (HP & _). rewrite <- HP in Hin. by apply elem_of_map_to_list in Hin. }
      destruct (query_indices_exact O (V := unit) (fun b _ => if isect b (tv_bound O v) then Some () else None) leq
        a s rng fuel s' fuel' () hits w Hh Hl Hu Ht He Hfat) as (HP & _).
      { intros h0 v0 b' H0 [x Hx] Hle. destruct (isect (tv_bound O v0) (tv_bound O v)) eqn:E; [|done]. rewrite (Hmono _ _ _ _ b' H0 Hlv E Hle). eauto. }
      { exact Hq. }
      rewrite HP. clear. rewrite elem_of_list_fmap. split.
      + intros ([k' u] & -> & Hin). unfold DbvtQuery.hits in Hin. apply elem_of_list_omap in Hin as ([i k] & _ & Hx).
        simpl in Hx. destruct (values s' !! k) as [y|] eqn:Hy; simpl in Hx; [|done].
        destruct (isect (tv_bound O y.2) (tv_bound O v)) eqn:E; simplify_eq/=. eauto.
      + intros ([h y] & Hy & Hi). exists (k, ()). split; [done|]. unfold DbvtQuery.hits. apply elem_of_list_omap.
        exists (h, k). split; [apply elem_of_vleaves; eauto|]. simpl. rewrite Hy. simpl. simpl in Hi. by rewrite Hi.
    - intros i j. split; [by intros ?%elem_of_nil|]. intros (_ & [[? _]|[? _]]); lia.
  Qed.
  (** All flags set: the same pairs as the brute force. *)
  Theorem C20_agrees_with_brute_force (leq : B -> B -> Prop) a s rng fuel s' fuel' dirty l :
    history O a s -> legal a (Tick rng) -> unflagged a = ∅ -> tick O fuel rng s = Ok s' ->
    enclosure O leq -> fat_ok O a ->
    (forall x y, isect x y = isect y x) ->
    (forall h v h' v' b, live a !! h = Some v -> live a !! h' = Some v' -> isect (tv_bound O v) (tv_bound O v') = true ->
       leq (tv_bound O v) b -> isect b (tv_bound O v') = true) ->
    (forall i, i < length (values s') -> dirty !! i = Some true) ->
    dbp_find O isect fuel' s' dirty = Ok l ->
    brute_force (fun v : nat * T => tv_bound O v.2) isect (values s') = Ok l.
  Proof.
    intros Hh Hl Hu Ht He Hfat Hsym Hmono Hd Hf.
    destruct (C20_dbvt_broad_phase_exact leq a s rng fuel s' fuel' dirty l Hh Hl Hu Ht He Hfat Hsym Hmono Hf) as [Hs Hm].
    destruct (C17_brute_force_exact (fun v : nat * T => tv_bound O v.2) isect (values s')) as (ps & -> & Hs' & Hm').
    f_equal. assert (Hanti : AntiSymm (=) lex).
    { intros [? ?] [? ?]. unfold lex; simpl; intros; lia. }
    eapply (StronglySorted_unique lex); [done..|].
    assert (Hnd : forall l, StronglySorted lex l -> NoDup l).
    { clear. induction 1 as [|x l Hs IH Hf]; constructor; [|done]. intros Hx. eapply Forall_forall in Hf; [|done].
      unfold lex in Hf. lia. }
    apply NoDup_Permutation; [by apply Hnd..|]. intros [i j]. rewrite Hm, Hm'. unfold dirty_pair. split; [|tauto].
    intros Hc. split; [done|]. left. apply Hd. destruct Hc as (Hij & _ & b & _ & Hb & _). apply lookup_lt_Some in Hb. lia.
  Qed.

  (** It returns when a flag is given for each of at most 256 values, and panics when
      flags are missing. *)
  Theorem C20_returns_iff_enough_flags a s dirty :
    history O a s -> length (values s) <= 256 ->
    exists n r, (forall fuel, n <= fuel -> dbp_find O isect fuel s dirty = r)
      /\ (length (values s) <= length dirty -> exists l, r = Ok l)
      /\ (length dirty < length (values s) -> r = Panic).
  Proof.
    intros Hh Hlen. unfold dbp_find.
    assert (Hgen : forall vs m pot, drop m (values s) = vs ->
      exists n r, (forall fuel, n <= fuel -> dbp_loop O isect fuel s dirty vs pot = r)
        /\ (length (values s) <= length dirty -> exists l, r = Ok l)
        /\ (m <= length dirty < length (values s) -> r = Panic)).
    { induction vs as [|[h v] vs IH]; intros m pot Hd; simpl.
      - exists 0, (Ok pot). split_and!; [done|eauto|]. pose proof (drop_length (values s) m) as E. rewrite Hd in E. simpl in E. lia.
      - assert (Hn : values s !! m = Some (h, v)).
        { rewrite <- (Nat.add_0_r m), <- lookup_drop, Hd. done. }
        pose proof (lookup_lt_Some _ _ _ Hn).
        assert (Hd' : drop (m + 1) (values s) = vs).
        { replace (m + 1) with (Datatypes.S m) by lia. pose proof (drop_S _ _ _ Hn) as E. rewrite Hd in E. by simplify_eq. }
        rewrite (handles_index a s m h v Hh Hn). cbn [mbind res_mbind res_bind].
        destruct (dirty !! m) as [d|] eqn:Hdm.
        + rewrite (get_Some _ _ _ Hdm). cbn [mbind res_mbind res_bind]. pose proof (lookup_lt_Some _ _ _ Hdm).
          destruct d.
          * destruct (C10_query_returns_up_to_256_values O (discrete_visitor (fun b => isect b (tv_bound O v))) a s () Hh Hlen)
              as (n1 & [hits w] & Hq).
            destruct (IH (m + 1) (dbp_hits m hits pot) Hd') as (n2 & r & Hr & H1 & H2).
            exists (max n1 n2), r. split_and!; [|done|intros; apply H2; lia].
            intros fuel Hfu. rewrite Hq by lia. cbn [mbind res_mbind res_bind]. apply Hr. lia.
          * destruct (IH (m + 1) pot Hd') as (n2 & r & Hr & H1 & H2). exists n2, r.
            split_and!; [|done|intros; apply H2; lia]. intros fuel Hfu. cbn [mbind res_mbind res_bind]. by apply Hr.
        + exists 0, Panic. apply lookup_ge_None in Hdm. split_and!; [|lia|done].
          intros. unfold get. destruct (dirty !! m) eqn:E; [|done]. apply lookup_lt_Some in E. lia. }
    destruct (Hgen (values s) 0 [] eq_refl) as (n & r & H1 & H2 & H3). exists n, r. split_and!; auto with lia.
  Qed.
End dbp.
