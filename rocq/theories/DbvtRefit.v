(** [refit_node], [do_refit], [update], [reindex_values], [update_node]. *)
From stdpp Require Import prelude sorting.
From Verif Require Import Res DbvtModel DbvtGhost DbvtInv DbvtRotate.

(** * Depth of a node in a ghost tree *)
Fixpoint gdepth (t : gtree) (j : nat) : option nat :=
  match t with
  | GLeaf i _ => if decide (i = j) then Some 0 else None
  | GBranch i l r =>
      if decide (i = j) then Some 0 else
      match gdepth l j with
      | Some d => Some (S d)
      | None => S <$> gdepth r j
      end
  end.
Fixpoint cdepth (c : ctx) : nat :=
  match c with CHole => 0 | CLeft c _ _ => S (cdepth c) | CRight c _ _ => S (cdepth c) end.

Lemma gdepth_notin t j : j ∉ idxs t -> gdepth t j = None.
Proof.
  induction t as [i v|i l IHl r IHr]; simpl; intros Hj.
  - case_decide; [set_solver|done].
  - case_decide; [set_solver|]. rewrite IHl, IHr by set_solver. done.
Qed.
Lemma gdepth_in t j : j ∈ idxs t -> exists d, gdepth t j = Some d /\ d < length (idxs t).
Proof.
  induction t as [i v|i l IHl r IHr]; simpl; intros Hj.
  - case_decide; [exists 0; split; [done|lia]|]. apply elem_of_list_singleton in Hj. congruence.
  - case_decide as E; [exists 0; split; [done|lia]|].
    rewrite app_length. destruct (decide (j ∈ idxs l)) as [Hl|Hl].
    + destruct (IHl Hl) as (d & -> & ?). exists (S d). split; [done|lia].
    + rewrite (gdepth_notin l) by done. destruct IHr as (d & -> & ?); [set_solver|].
      exists (S d). split; [done|lia].
Qed.
Lemma gdepth_plug_in c u j : j ∉ cidxs c -> NoDup (idxs (plug c u)) ->
  gdepth (plug c u) j = Nat.add (cdepth c) <$> gdepth u j.
Proof.
  revert u. induction c as [|c IH i r|c IH i l]; intros u Hj Hnd; simpl in *.
  - by destruct (gdepth u j).
  - rewrite IH by set_solver. simpl. rewrite decide_False by set_solver.
    rewrite (gdepth_notin r) by set_solver.
    destruct (gdepth u j); simpl; [|done]. f_equal. lia.
  - rewrite IH by set_solver. simpl. rewrite decide_False by set_solver.
    rewrite (gdepth_notin l) by set_solver.
    destruct (gdepth u j); simpl; [|done]. f_equal. lia.
Qed.
Lemma gdepth_ctx_ext c u u' j :
  (gdepth u j = gdepth u' j) -> gdepth (plug c u) j = gdepth (plug c u') j.
Proof.
  revert u u'. induction c as [|c IH i r|c IH i l]; intros u u' H; simpl; [done|..]; apply IH; simpl; by rewrite H.
Qed.

Section refit.
  Context {T B S : Type} (O : dbvt_ops T B S).
  Implicit Types (s : dbvt T B) (ns : list (node B)) (t u : gtree).

  (** Transfer of structural well-formedness along equal shapes. *)
  Lemma wf_tree_transfer s t s' t' :
    wf_tree s t ->
    length (nodes s') = length (nodes s) ->
    (forall j, is_Some (sh (nodes s') j) <-> is_Some (sh (nodes s) j)) ->
    free_list s' = free_list s -> root_index s' = idx t' ->
    repr (sh (nodes s')) 0 t' -> idxs t' ≡ₚ idxs t -> leaves t' ≡ₚ vleaves (values s') ->
    wf_tree s' t'.
  Proof.
    intros [H0 Hr Hrep Hacc Hv] Hlen Hsome Hf Hroot Hrep' Hidx Hv'.
    assert (Hnil : forall j, nodes s !! j = Some Nil -> nodes s' !! j = Some Nil).
    { intros j Hj. assert (j < length (nodes s')) as Hlt by (rewrite Hlen; by apply lookup_lt_Some in Hj).
      destruct (lookup_lt_is_Some_2 _ _ Hlt) as [n Hn].
      destruct n; [..|done]; (assert (is_Some (sh (nodes s') j)) as Hs by (by rewrite (sh_lookup _ _ _ Hn)));
        apply Hsome in Hs; rewrite (sh_lookup _ _ _ Hj) in Hs; by destruct Hs. }
    split; auto. destruct Hacc as (? & HP & Hn). rewrite Hf. split_and!; [lia|by rewrite Hlen, <- HP, Hidx|auto].
  Qed.

  (** What maintenance operations guarantee besides well-formedness. *)
  Record maint s s' : Prop := Maint {
    m_values : values s' = values s;
    m_len : length (nodes s') = length (nodes s);
    m_free : free_list s' = free_list s;
    m_some : forall j, is_Some (sh (nodes s') j) <-> is_Some (sh (nodes s) j);
    m_lb : forall j, lb (nodes s') j = lb (nodes s) j;
    m_upd : updated_list s' = updated_list s;
  }.
  Lemma maint_refl s : maint s s.
  Proof. by split. Qed.
  Lemma maint_trans s1 s2 s3 : maint s1 s2 -> maint s2 s3 -> maint s1 s3.
  Proof.
    intros [] []. split; [congruence|congruence|congruence| | |congruence].
    - intros j. by rewrite m_some1.
    - intros j. by rewrite m_lb1.
  Qed.

  (** One step of the refit loop.  [i] has just been popped from the queue [q]. *)
  Definition refit_progress t (q : list (nat * nat)) i t' (q' : list (nat * nat)) : Prop :=
    length q' <= length q \/
    exists c p tl tr u h,
      t = plug c (GBranch i tl tr) /\ t' = plug c u /\ idx u = i
      /\ idxs u ≡ₚ idxs (GBranch i tl tr) /\ c <> CHole /\ p = cpar c /\ q' ≡ₚ (h, p) :: q.

  Lemma refit_node_spec d s t i :
    wf_tree s t -> wf_queue (refit_nodes s) (length (nodes s)) -> i < length (nodes s) ->
    exists s' t', refit_node O d s i = Ok s'
      /\ wf_tree s' t' /\ wf_queue (refit_nodes s') (length (nodes s'))
      /\ maint s s' /\ refit_progress t (refit_nodes s) i t' (refit_nodes s')
      /\ (fitx O (nodes s) (fun j => j = i \/ j ∈ (refit_nodes s).*2) -> fitq O s').
  Proof.
    intros Hwf Hq Hi. unfold refit_node.
    destruct (lookup_lt_is_Some_2 _ _ Hi) as [n Hn].
    assert ((exists p l r h b, n = Branch p l r h b) \/ ~ (exists p l r h b, n = Branch p l r h b)) as [Hbr|Hnb].
    { destruct n; [left; eauto 10|right; naive_solver..]. }
    2:{ (* not a branch: nothing happens *)
      rewrite (recalc_leaf O _ _ _ Hn); [|by intros p l r h b ->; apply Hnb; eauto 10].
      cbn [mbind res_mbind res_bind]. exists (with_nodes s (nodes s)), t.
      assert (Hrot : rotate O (nodes s) i = Ok (nodes s)).
      { unfold rotate. rewrite (get_Some _ _ _ Hn). simpl. destruct n; try done. exfalso; apply Hnb; eauto 10. }
      assert (with_nodes s (nodes s) = s) as -> by by destruct s.
      split_and!; try done.
      - destruct d; [|done]. rewrite Hrot. simpl. f_equal. by destruct s.
      - by left.
      - intros Hf j p l r h b Hj. destruct (Hf _ _ _ _ _ _ Hj) as [[->|?]|?]; [|by left|by right].
        exfalso. apply Hnb. rewrite Hn in Hj. simplify_eq. eauto 10. }
    destruct Hbr as (p & l & r & h & b & ->).
    pose proof (wf_tree_linked _ _ Hwf) as Hlink.
    destruct (recalc_spec O _ _ _ _ _ _ _ Hlink Hn) as (ns1 & h' & -> & Hlen1 & Hsh1 & Hlb1 & Hfit1).
    cbn [mbind res_mbind res_bind].
    assert (Hsi : sh (nodes s) i = Some (SBranch p l r)) by by rewrite (sh_lookup _ _ _ Hn).
    pose proof (wf_tree_in _ _ i Hwf ltac:(by rewrite Hsi)) as Hit.
    destruct (decompose_branch _ _ _ _ _ _ (wt_repr _ _ Hwf) Hit Hsi) as (c & tl & tr & -> & -> & -> & ->).
    pose proof (wf_tree_nodup _ _ Hwf) as Hnd.
    assert (H0c : 0 ∉ cidxs c).
    { intros H0. pose proof (wf_tree_range _ _ 0 Hwf) as Hr. rewrite idxs_plug in Hr. specialize (Hr ltac:(set_solver + H0)). lia. }
    (* marking the parent *)
    set (s1 := with_nodes s ns1).
    assert (exists q, (if decide (cpar c = 0) then Ok s1 else mark_for_refit s1 (cpar c) (h' + 1)) = Ok (with_refit s1 q)
       /\ wf_queue q (length (nodes s)) /\ (forall j, j ∈ (refit_nodes s).*2 -> j ∈ q.*2)
       /\ (c <> CHole -> cpar c ∈ q.*2)
       /\ (length q <= length (refit_nodes s) \/ (c <> CHole /\ exists h0, q ≡ₚ (h0, cpar c) :: refit_nodes s)))
      as (q & Hmark & Hwq & Hqsub & Hqp & Hqlen).
    { case_decide as Hc0.
      - apply cpar_zero in Hc0 as ->; [|done]. exists (refit_nodes s). split_and!; auto; done.
      - assert (c <> CHole) as Hch by by intros ->.
        destruct (mark_spec s1 (cpar c) (h' + 1)) as (q & Hm & Hwq & Hin & Hor); simpl.
        + by rewrite Hlen1.
        + rewrite Hlen1. pose proof (wf_tree_range _ _ (cpar c) Hwf) as Hr. rewrite idxs_plug in Hr.
          pose proof (cpar_in c Hch) as Hcp. apply Hr. set_solver + Hcp.
        + exists q. simpl in Hwq. rewrite Hlen1 in Hwq. split_and!; auto.
          * intros j Hj. simpl in Hor. destruct Hor as [-> | [h0 ->]]; [done|]. simpl. by right.
          * simpl in Hor. destruct Hor as [-> | [h0 Hor]]; [by left|right; eauto]. }
    rewrite Hmark. cbn [mbind res_mbind res_bind].
    assert (Hfit1' : fitx O (nodes s) (fun j => j = i \/ j ∈ (refit_nodes s).*2) -> fitx O ns1 (fun j => j ∈ q.*2)).
    { intros Hf. apply Hfit1 in Hf. intros j pj lj rj hj bj Hj.
      destruct (Hf _ _ _ _ _ _ Hj) as [[[[->|?] ?]|Hjp]|?]; [done|left; auto| |by right].
      left. subst j. apply Hqp. intros ->. simpl in Hj.
      assert (is_Some (sh ns1 0)) as Hs by by rewrite (sh_lookup _ _ _ Hj).
      rewrite Hsh1 in Hs. destruct Hwf as [H0 _]. rewrite (sh_lookup _ _ _ H0) in Hs. by destruct Hs. }
    assert (Hrepr1 : repr (sh ns1) 0 (plug c (GBranch i tl tr))).
    { eapply repr_ext; [|apply Hwf]. intros; apply Hsh1. }
    assert (Hm1 : forall j, is_Some (sh ns1 j) <-> is_Some (sh (nodes s) j)).
    { intros j. by rewrite Hsh1. }
    (* outcome without rotation *)
    assert (Hnorot : wf_tree (with_refit s1 q) (plug c (GBranch i tl tr))
        /\ wf_queue q (length ns1) /\ maint s (with_refit s1 q)
        /\ refit_progress (plug c (GBranch i tl tr)) (refit_nodes s) i (plug c (GBranch i tl tr)) q
        /\ (fitx O (nodes s) (fun j => j = i \/ j ∈ (refit_nodes s).*2) -> fitq O (with_refit s1 q))).
    { split_and!.
      - eapply wf_tree_transfer; simpl; eauto; try apply Hwf.
      - by rewrite Hlen1.
      - split; simpl; auto.
      - destruct Hqlen as [?|[Hch [h0 HP]]]; [by left|right].
        exists c, (cpar c), tl, tr, (GBranch i tl tr), h0. done.
      - done. }
    destruct Hnorot as (Hwf1 & Hwq1 & Hmt1 & Hpr1 & Hfq1).
    destruct d; [|eexists _, _; split; [done|]; split_and!; done].
    unfold rotate. simpl.
    pose proof (Hsh1 i) as Hsi1. rewrite Hsi in Hsi1. apply sh_branch in Hsi1 as (h1 & b1 & Hi1).
    rewrite (get_Some _ _ _ Hi1). cbn [mbind res_mbind res_bind].
    pose proof Hrepr1 as Hru. apply repr_plug in Hru as (Hcc & _ & Hrl & Hrr).
    destruct (repr_node _ _ _ Hrl) as (nl & bl & Hnl & _).
    destruct (repr_node _ _ _ Hrr) as (nr & br & Hnr & _).
    rewrite (get_Some _ _ _ Hnl), (get_Some _ _ _ Hnr). cbn [mbind res_mbind res_bind].
    rewrite (repr_is_leaf _ _ _ _ Hrl Hnl), (repr_is_leaf _ _ _ _ Hrr Hnr).
    assert (Hid : with_nodes (with_refit s1 q) ns1 = with_refit s1 q) by done.
    destruct (gleaf tl && gleaf tr).
    { cbn [mbind res_mbind res_bind]. rewrite Hid. eexists _, _; split; [done|]; split_and!; done. }
    destruct (best_rotation_ok O ns1 i (b_area O b1) tl tr Hrl Hrr) as (rot & mn & -> & Hrok).
    cbn [mbind res_mbind res_bind].
    destruct (s_improves O (b_area O b1) mn).
    2:{ cbn [mbind res_mbind res_bind]. rewrite Hid. eexists _, _; split; [done|]; split_and!; done. }
    destruct (apply_rotation_ok O ns1 c i tl tr rot) as (ns2 & -> & Hlen2 & Hrepr2 & Hsome2 & Hlb2 & Hfit2); try done.
    { intros j Hj. apply Hm1 in Hj. exact (wf_tree_in _ _ _ Hwf Hj). }
    cbn [mbind res_mbind res_bind].
    eexists _, (plug c (rotated rot i tl tr)). split; [done|].
    assert (HPi : idxs (plug c (rotated rot i tl tr)) ≡ₚ idxs (plug c (GBranch i tl tr))).
    { by rewrite !idxs_plug, idxs_rotated. }
    split_and!.
    - eapply (wf_tree_transfer s); simpl; eauto.
      + lia.
      + intros j. by rewrite Hsome2.
      + rewrite (wt_root _ _ Hwf). destruct (decide (c = CHole)) as [->|Hch].
        * simpl. by rewrite idx_rotated.
        * by apply idx_plug_ne.
      + rewrite leaves_plug, leaves_rotated, <- leaves_plug. apply Hwf.
    - simpl. by rewrite Hlen2.
    - eapply maint_trans; [exact Hmt1|]. by split.
    - simpl. destruct Hqlen as [?|[Hch [h0 HP]]]; [by left|right].
      exists c, (cpar c), tl, tr, (rotated rot i tl tr), h0. split_and!; try done.
      + by rewrite idx_rotated. + by rewrite idxs_rotated.
    - intros Hf. apply Hfit1', Hfit2 in Hf. intros j pj lj rj hj bj Hj. simpl in Hj |- *.
      destruct (Hf _ _ _ _ _ _ Hj) as [[?|Hjp]|?]; [by left| |by right].
      left. subst j. apply Hqp. intros ->. simpl in Hj.
      assert (is_Some (sh ns2 0)) as Hs by by rewrite (sh_lookup _ _ _ Hj).
      apply Hsome2, Hm1 in Hs. destruct Hwf as [H0 _]. rewrite (sh_lookup _ _ _ H0) in Hs. by destruct Hs.
  Qed.

  (** * Termination of [do_refit] *)
  Definition weight (K N : nat) (o : option nat) : nat :=
    match o with None => 0 | Some d => (K + 1) ^ N - (K + 1) ^ (N - d) end.
  Definition potential (K N : nat) t (q : list (nat * nat)) : nat :=
    sum_list ((fun x => weight K N (gdepth t x.2)) <$> q).

  Lemma potential_perm K N t q q' : q ≡ₚ q' -> potential K N t q = potential K N t q'.
  Proof. intros H. unfold potential. by rewrite H. Qed.
  Lemma potential_cons K N t x q : potential K N t (x :: q) = weight K N (gdepth t x.2) + potential K N t q.
  Proof. done. Qed.
  Lemma potential_le K N t t' q e :
    (forall j, weight K N (gdepth t' j) <= weight K N (gdepth t j) + e) ->
    potential K N t' q <= potential K N t q + length q * e.
  Proof.
    intros H. induction q as [|x q IH]; [done|]. rewrite !potential_cons. simpl. specialize (H x.2). lia.
  Qed.

  Lemma weight_step (K N d : nat) : 0 < K -> d < N ->
    weight K N (Some d) + K * (K + 1) ^ (N - Datatypes.S d) <= weight K N (Some (Datatypes.S d)).
  Proof.
    intros HK Hd. unfold weight.
    replace (N - d) with (Datatypes.S (N - Datatypes.S d)) by lia.
    set (e := N - Datatypes.S d).
    assert ((K + 1) ^ Datatypes.S e <= (K + 1) ^ N) by (apply Nat.pow_le_mono_r; lia).
    simpl in *. lia.
  Qed.

  Lemma potential_decrease N c i tl tr u (h : nat) (q : list (nat * nat)) :
    NoDup (idxs (plug c (GBranch i tl tr))) ->
    length (idxs (plug c (GBranch i tl tr))) <= N ->
    idx u = i -> idxs u ≡ₚ idxs (GBranch i tl tr) -> c <> CHole ->
    potential (Datatypes.S (length q)) N (plug c u) ((h, cpar c) :: q)
    < weight (Datatypes.S (length q)) N (gdepth (plug c (GBranch i tl tr)) i)
      + potential (Datatypes.S (length q)) N (plug c (GBranch i tl tr)) q.
  Proof.
    intros Hnd HN Hidx HPu Hch. set (K := Datatypes.S (length q)).
    assert (Hnd' : NoDup (idxs (plug c u))).
    { by rewrite idxs_plug, HPu, <- idxs_plug. }
    assert (Hlen' : length (idxs (plug c u)) <= N).
    { by rewrite idxs_plug, HPu, <- idxs_plug. }
    pose proof Hnd as Hsplit. rewrite idxs_plug in Hsplit. apply NoDup_app3 in Hsplit as (Hndc & Hndu & Hdis).
    assert (Hic : i ∉ cidxs c). { intros Hi. apply (Hdis i Hi). left. }
    (* depth of the popped node and of its parent *)
    assert (Hdi : gdepth (plug c (GBranch i tl tr)) i = Some (cdepth c)).
    { rewrite gdepth_plug_in by done. simpl. rewrite decide_True by done. simpl. f_equal. lia. }
    assert (exists dp, cdepth c = Datatypes.S dp /\ gdepth (plug c u) (cpar c) = Some dp) as (dp & Hdp & Hgp).
    { destruct c as [|c p r|c p l]; [done|..]; simpl in *; exists (cdepth c); (split; [done|]).
      - rewrite gdepth_plug_in; [|by apply NoDup_cons in Hndc as [Hx _]; set_solver + Hx|done].
        simpl. rewrite decide_True by done. simpl. f_equal. lia.
      - rewrite gdepth_plug_in; [|by apply NoDup_cons in Hndc as [Hx _]; set_solver + Hx|done].
        simpl. rewrite decide_True by done. simpl. f_equal. lia. }
    assert (HdN : Datatypes.S dp < N).
    { destruct (gdepth_in (plug c (GBranch i tl tr)) i) as (d' & Hd' & ?).
      - rewrite idxs_plug. set_solver.
      - rewrite Hdi in Hd'. simplify_eq. lia. }
    set (e := (K + 1) ^ (N - Datatypes.S (Datatypes.S dp))).
    assert (Hle : forall j, weight K N (gdepth (plug c u) j) <= weight K N (gdepth (plug c (GBranch i tl tr)) j) + e).
    { intros j. destruct (decide (j ∈ idxs (GBranch i tl tr))) as [Hj|Hj].
      - assert (j ∉ cidxs c) as Hjc. { intros Hjc. by apply (Hdis j Hjc). }
        rewrite !gdepth_plug_in by done. rewrite Hdp.
        assert (j ∈ idxs u) as Hju by by rewrite HPu.
        destruct (gdepth_in _ _ Hj) as (d1 & Hd1 & _). destruct (gdepth_in _ _ Hju) as (d2 & Hd2 & _).
        rewrite Hd1, Hd2. simpl fmap.
        destruct (decide (j = i)) as [->|Hji].
        + simpl in Hd1. rewrite decide_True in Hd1 by done.
          destruct u as [i' v|i' ul ur]; simpl in Hidx, Hd2; subst; rewrite decide_True in Hd2 by done; simplify_eq; lia.
        + assert (0 < d1) as H1.
          { simpl in Hd1. rewrite decide_False in Hd1 by done. destruct (gdepth tl j), (gdepth tr j); simplify_eq/=; lia. }
          unfold weight.
          assert ((K + 1) ^ (N - Datatypes.S (dp + d1)) <= e) as HA.
          { unfold e. apply Nat.pow_le_mono_r; lia. }
          assert (e <= (K + 1) ^ N) as HB.
          { unfold e. apply Nat.pow_le_mono_r; lia. }
          assert (0 < (K + 1) ^ (N - Datatypes.S (dp + d2))) as HC.
          { apply Nat.neq_0_lt_0. apply Nat.pow_nonzero. lia. }
          lia.
      - rewrite (gdepth_ctx_ext c u (GBranch i tl tr) j); [lia|].
        rewrite !gdepth_notin; [done|done|]. by rewrite HPu. }
    rewrite potential_cons. simpl snd. rewrite Hgp, Hdi, Hdp.
    pose proof (potential_le K N _ _ q e Hle) as Hpot.
    pose proof (weight_step K N dp ltac:(lia) ltac:(lia)) as Hw.
    assert (e <= (K + 1) ^ (N - Datatypes.S dp)) as He.
    { unfold e. apply Nat.pow_le_mono_r; lia. }
    assert (0 < e) as He0.
    { unfold e. apply Nat.neq_0_lt_0. apply Nat.pow_nonzero. lia. }
    assert (length q * e < K * (K + 1) ^ (N - Datatypes.S dp)) as Hlt.
    { unfold K at 1. nia. }
    lia.
  Qed.

  Lemma do_refit_tree k M s t rng :
    wf_tree s t -> wf_queue (refit_nodes s) (length (nodes s)) ->
    length (refit_nodes s) = k -> potential k (length (nodes s)) t (refit_nodes s) <= M ->
    exists n s' t', (forall fuel, n <= fuel -> do_refit O fuel rng s = Ok s')
      /\ wf_tree s' t' /\ refit_nodes s' = [] /\ maint s s' /\ (fitq O s -> fitq O s').
  Proof.
    revert M s t rng. induction (lt_wf k) as [k _ IHk]. intros M.
    induction (lt_wf M) as [M _ IHM]. intros s t rng Hwf Hq Hk HM.
    destruct (refit_nodes s) as [|[h i] q] eqn:Hrn.
    { exists 0, s, t. split_and!; try done.
      intros fuel _. destruct fuel; simpl; by rewrite Hrn. }
    assert (Hi : i < length (nodes s)).
    { destruct Hq as [_ Hb]. apply (Hb (h, i)). left. }
    assert (Hwf0 : wf_tree (with_refit s q) t) by by destruct Hwf.
    assert (Hq0 : wf_queue q (length (nodes s))).
    { destruct Hq as [Hs Hb]. split; [by inversion Hs|]. intros x Hx. apply Hb. by right. }
    destruct (refit_node_spec (rng 0) (with_refit s q) t i Hwf0 Hq0 Hi) as
      (s1 & t1 & Hstep & Hwf1 & Hq1 & Hm1 & Hprog & Hfit1).
    assert (Hlen1 : length (nodes s1) = length (nodes s)) by by destruct Hm1.
    assert (Hrec : exists n s' t', (forall fuel, n <= fuel -> do_refit O fuel (fun k => rng (Datatypes.S k)) s1 = Ok s')
      /\ wf_tree s' t' /\ refit_nodes s' = [] /\ maint s1 s' /\ (fitq O s1 -> fitq O s')).
    { simpl in Hprog. destruct Hprog as [Hle|(c & p & tl & tr & u & h0 & -> & -> & Hu & HPu & Hc & -> & HPq)].
      - eapply (IHk (length (refit_nodes s1))); eauto. subst k. simpl. lia.
      - assert (Hlq : length (refit_nodes s1) = k).
        { rewrite HPq. by subst k. }
        eapply (IHM (potential k (length (nodes s1)) (plug c u) (refit_nodes s1))); eauto.
        rewrite Hlen1. rewrite (potential_perm _ _ _ _ _ HPq).
        subst k. simpl length in HM |- *. rewrite potential_cons in HM. simpl snd in HM.
        pose proof (potential_decrease (length (nodes s)) c i tl tr u h0 q) as Hd.
        eapply Nat.lt_le_trans; [apply Hd|exact HM]; auto.
        + by eapply wf_tree_nodup.
        + destruct Hwf as [_ _ _ (_ & HP & _) _]. apply Permutation_length in HP.
          rewrite app_length, seq_length in HP. lia. }
    destruct Hrec as (n & s' & t' & Hrun & Hwf' & Hemp & Hm' & Hfit').
    exists (Datatypes.S n), s', t'. split_and!; auto.
    - intros fuel Hf. destruct fuel as [|fuel]; [lia|]. simpl. rewrite Hrn.
      rewrite Hstep. cbn [mbind res_mbind res_bind]. apply Hrun. lia.
    - eapply maint_trans; [|exact Hm']. destruct Hm1; by split.
    - intros Hf. apply Hfit', Hfit1. intros j pj l r hj b Hj. simpl.
      destruct (Hf _ _ _ _ _ _ Hj) as [Hin|?]; [left|by right].
      rewrite Hrn in Hin. simpl in Hin. apply elem_of_cons in Hin. naive_solver.
  Qed.

  Lemma do_refit_spec s rng :
    wf s -> exists n s', (forall fuel, n <= fuel -> do_refit O fuel rng s = Ok s')
      /\ wf s' /\ refit_nodes s' = [] /\ maint s s' /\ (fitq O s -> fitq O s').
  Proof.
    intros [[He|[t Hwf]] Hq].
    - (* empty tree: queued indices are all 0 *)
      destruct He as (Hn & Hv & Hf & Hr).
      remember (refit_nodes s) as q eqn:Hrn. revert s rng Hn Hv Hf Hr Hq Hrn.
      induction q as [|[h i] q IH]; intros s rng Hn Hv Hf Hr Hq Hrn.
      + exists 0, s. split_and!; try done; [|by split; [left|rewrite <- Hrn]].
        intros fuel _. destruct fuel; simpl; by rewrite <- Hrn.
      + assert (i = 0) as ->.
        { destruct Hq as [_ Hb]. specialize (Hb (h, i) ltac:(left)). rewrite Hn in Hb. simpl in Hb. lia. }
        assert (Hq0 : wf_queue q (length (nodes s))).
        { destruct Hq as [Hs Hb]. split; [by inversion Hs|]. intros x Hx. apply Hb. by right. }
        assert (Hstep : refit_node O (rng 0) (with_refit s q) 0 = Ok (with_refit s q)).
        { unfold refit_node. simpl. rewrite Hn. simpl. unfold with_nodes, with_refit. simpl.
          rewrite Hn. by destruct (rng 0). }
        destruct (IH (with_refit s q) (fun k => rng (Datatypes.S k))) as (n & s' & Hrun & Hwf' & Hemp & Hm & Hfit); try done.
        exists (Datatypes.S n), s'. split_and!; auto.
        * intros fuel Hfuel. destruct fuel as [|fuel]; [lia|]. simpl. rewrite <- Hrn, Hstep.
          cbn [mbind res_mbind res_bind]. apply Hrun. lia.
        * destruct Hm; by split.
        * intros _. apply Hfit. intros j p l r h' b Hj. simpl in Hj. rewrite Hn in Hj. by destruct j.
    - destruct (do_refit_tree _ _ s t rng Hwf Hq eq_refl (le_n _)) as (n & s' & t' & Hrun & Hwf' & Hemp & Hm & Hfit).
      exists n, s'. split_and!; auto. split; [right; eauto|]. rewrite Hemp. split; [constructor|].
      intros x Hx. by apply elem_of_nil in Hx.
  Qed.
End refit.
