(** [update], [update_node], [flag_updated], [reindex_values], [value_index]. *)
From stdpp Require Import prelude sorting.
From Verif Require Import Res DbvtModel DbvtGhost DbvtInv DbvtRotate DbvtRefit.

Section upd.
  Context {T B S : Type} (O : dbvt_ops T B S).
  Implicit Types (s : dbvt T B) (ns : list (node B)) (t u : gtree).

  Lemma vleaves_handles (vs vs' : list (nat * T)) : vs'.*1 = vs.*1 -> vleaves vs' = vleaves vs.
  Proof.
    intros H. unfold vleaves. apply list_eq. intros i. rewrite !list_lookup_imap.
    assert ((vs'.*1) !! i = (vs.*1) !! i) as Hi by by rewrite H.
    rewrite !list_lookup_fmap in Hi. destruct (vs' !! i) as [[]|], (vs !! i) as [[]|]; by simplify_eq/=.
  Qed.

  (** Same shapes, same handles: still structurally well formed. *)
  Lemma wf_struct_same s s' :
    wf_struct s -> length (nodes s') = length (nodes s) ->
    (forall j, sh (nodes s') j = sh (nodes s) j) ->
    free_list s' = free_list s -> root_index s' = root_index s ->
    (values s').*1 = (values s).*1 -> wf_struct s'.
  Proof.
    intros [(Hn & Hv & Hf & Hr)|[t Hwf]] Hlen Hsh Hfl Hrt Hvs.
    - left. rewrite Hv in Hvs. simpl in Hvs. apply fmap_nil_inv in Hvs.
      unfold wf_empty. split_and!; [|congruence..].
      rewrite Hn in Hlen. destruct (nodes s') as [|n [|]] eqn:Hn'; try done.
      specialize (Hsh 0). rewrite Hn in Hsh. unfold sh in Hsh. simpl in Hsh. by destruct n.
    - right. exists t. eapply wf_tree_transfer; eauto.
      + intros j. by rewrite Hsh.
      + rewrite Hrt. apply Hwf.
      + eapply repr_ext; [|apply Hwf]. intros; apply Hsh.
      + rewrite (vleaves_handles _ _ Hvs). apply Hwf.
  Qed.

  Lemma wf_updated s l : wf s -> wf (with_updated s l).
  Proof. intros [Hs Hq]. split; [|done]. eapply wf_struct_same; eauto. Qed.

  Lemma update_collect_spec s l :
    wf_struct s -> (forall i, i ∈ l -> i < length (nodes s)) ->
    exists l', update_collect O s l = Ok l'
      /\ (forall i p b, (i, p, b) ∈ l' -> exists k b0 v, nodes s !! i = Some (Leaf p k b0)
             /\ (i, v) ∈ values s /\ b = tv_fat O v)
      /\ (forall i p k b, i ∈ l -> nodes s !! i = Some (Leaf p k b) ->
             exists v, (i, v) ∈ values s
               /\ (b_contains O b (tv_bound O v) = true \/ (i, p, tv_fat O v) ∈ l')).
  Proof.
    intros Hwf. induction l as [|i l IH]; intros Hl; simpl.
    { exists []. split_and!; [done|..]; intros *; by rewrite elem_of_nil. }
    destruct IH as (l' & Hl' & H1 & H2).
    { intros j Hj. apply Hl. by right. }
    destruct (lookup_lt_is_Some_2 (nodes s) i) as [n Hn]; [apply Hl; left|].
    rewrite (get_Some _ _ _ Hn). cbn [mbind res_mbind res_bind].
    destruct n as [p0 l0 r0 h0 b0|p0 k0 b0|].
    1,3: cbn [mbind res_mbind res_bind]; rewrite Hl'; cbn [mbind res_mbind res_bind]; exists l';
      (split_and!; [done|done|]); intros j p k b Hj Hn';
      apply elem_of_cons in Hj as [->|Hj]; [congruence|eauto].
    assert (exists v, values s !! k0 = Some (i, v)) as [v Hv].
    { destruct Hwf as [(Hns&_)|[t Hwf]]; [|by eapply wf_tree_leaf_node].
      rewrite Hns in Hn. by destruct i. }
    rewrite (get_Some _ _ _ Hv). cbn [mbind res_mbind res_bind]. rewrite Hl'. cbn [mbind res_mbind res_bind].
    assert ((i, v) ∈ values s) as Hin by by eapply elem_of_list_lookup_2.
    simpl. eexists. split_and!; [done|..].
    - intros j p b Hj. destruct (b_contains O b0 (tv_bound O v)); simpl in Hj; [by apply H1|].
      apply elem_of_cons in Hj as [[= -> -> ->]|Hj]; [|by apply H1]. eauto 10.
    - intros j p k b Hj Hn'. apply elem_of_cons in Hj as [->|Hj].
      + rewrite Hn in Hn'. simplify_eq. exists v. split; [done|].
        destruct (b_contains O b (tv_bound O v)); [by left|right; left].
      + destruct (H2 _ _ _ _ Hj Hn') as (v' & ? & [?|?]); exists v'; (split; [done|]); [by left|right].
        destruct (b_contains O b0 (tv_bound O v)); [done|by right].
  Qed.

  Lemma update_apply_spec l s :
    wf s -> (forall i p b, (i, p, b) ∈ l -> exists k, sh (nodes s) i = Some (SLeaf p k)) ->
    exists s', update_apply s l = Ok s' /\ wf s'
      /\ (forall j, sh (nodes s') j = sh (nodes s) j) /\ length (nodes s') = length (nodes s)
      /\ values s' = values s /\ updated_list s' = updated_list s
      /\ (fitq O s -> fitq O s')
      /\ (forall j, (lb (nodes s') j = lb (nodes s) j /\ forall p b, (j, p, b) ∉ l)
           \/ exists p b, (j, p, b) ∈ l /\ lb (nodes s') j = Some b).
  Proof.
    revert s. induction l as [|[[i p] b] l IH]; intros s Hwf Hl.
    { exists s. split_and!; try done. intros j. left. split; [done|]. intros p b. apply not_elem_of_nil. }
    cbn [update_apply].
    destruct (Hl i p b ltac:(left)) as [k Hi].
    destruct (sh_leaf _ _ _ _ Hi) as [b0 Hn].
    assert (Hlt : i < length (nodes s)) by by eapply lookup_lt_Some.
    rewrite (modify_ok _ _ _ _ Hn). cbn [mbind res_mbind res_bind].
    set (ns1 := <[i:=Leaf p k b]> (nodes s)).
    assert (Hlen1 : length ns1 = length (nodes s)) by apply insert_length.
    assert (Hsh1 : forall j, sh ns1 j = sh (nodes s) j).
    { intros j. unfold ns1. destruct (decide (j = i)) as [->|].
      - by rewrite sh_insert.
      - by rewrite sh_insert_ne. }
    destruct Hwf as [Hws Hq].
    assert (Hp : p < length (nodes s)).
    { destruct Hws as [(Hns&_)|[t Hwf]].
      - rewrite Hns in Hn. by destruct i.
      - destruct (decompose_leaf _ _ _ _ _ (wt_repr _ _ Hwf) (wf_tree_in _ _ i Hwf ltac:(by rewrite Hi)) Hi) as (c & -> & ->).
        destruct (decide (c = CHole)) as [->|Hc]; simpl; [lia|].
        apply (wf_tree_range _ _ (cpar c) Hwf). rewrite idxs_plug.
        apply cpar_in in Hc. set_solver + Hc. }
    destruct (mark_spec (with_nodes s ns1) p 2) as (q & Hm & Hwq & Hpq & Hor); simpl; [by rewrite Hlen1..|].
    rewrite Hm. cbn [mbind res_mbind res_bind]. simpl in *.
    set (s1 := with_refit (with_nodes s ns1) q).
    assert (Hws1 : wf_struct s1).
    { eapply (wf_struct_same s); simpl; auto. }
    destruct (IH s1) as (s' & Hrun & Hwf' & Hsh' & Hlen' & Hv' & Hu' & Hfit' & Hlb').
    - split; [done|]. simpl. done.
    - intros j p' b' Hj. simpl. rewrite Hsh1. eapply Hl. by right.
    - exists s'. split_and!; try done.
      + intros j. by rewrite Hsh', Hsh1.
      + rewrite Hlen'. done.
      + intros Hf. apply Hfit'. intros j pj lj rj hj bj Hj. simpl in Hj |- *.
        assert (j <> i) as Hji.
        { intros ->. unfold ns1 in Hj. rewrite list_lookup_insert in Hj by done. congruence. }
        unfold ns1 in Hj. rewrite list_lookup_insert_ne in Hj by done.
        destruct (Hf _ _ _ _ _ _ Hj) as [Hjq|Hfits].
        { left. destruct Hor as [-> | [h0 ->]]; [done|]. simpl. by right. }
        destruct (decide (j = p)) as [->|Hjp]; [by left|].
        right. pose proof (wf_struct_linked _ Hws) as Hlink.
        specialize (Hlink j pj lj rj). rewrite (sh_lookup _ _ _ Hj) in Hlink.
        destruct (Hlink eq_refl) as ((xl & Hxl & Hpl) & (xr & Hxr & Hpr) & _).
        eapply fits_ext; [..|exact Hfits]; unfold ns1; apply bh_insert_ne; intros <-;
          rewrite Hi in *; simplify_eq/=; done.
      + intros j. destruct (Hlb' j) as [[Hlbj Hnin]|(p' & b' & Hin & Hlbj)].
        * destruct (decide (j = i)) as [->|Hji].
          -- right. exists p, b. split; [left|]. rewrite Hlbj. simpl. unfold ns1, lb.
             by rewrite list_lookup_insert.
          -- left. split.
             ++ rewrite Hlbj. simpl. unfold lb, ns1. by rewrite list_lookup_insert_ne.
             ++ intros p' b' Hin. apply elem_of_cons in Hin as [|]; [congruence|by eapply Hnin].
        * right. exists p', b'. split; [by right|done].
  Qed.


  (** Bounds of leaves enclose the bound of their value, except for the handles in [D]
      and for values whose fat bound does not contain their bound. *)
  Definition fatx s (D : nat -> Prop) : Prop :=
    forall i b v, lb (nodes s) i = Some b -> (i, v) ∈ values s ->
      b_contains O (tv_fat O v) (tv_bound O v) = true ->
      b_contains O b (tv_bound O v) = true \/ i ∈ updated_list s \/ D i.

  Lemma values_fun s i v v' : wf_struct s -> (i, v) ∈ values s -> (i, v') ∈ values s -> v = v'.
  Proof.
    intros Hwf H1 H2. apply wf_handles_nodup in Hwf.
    apply elem_of_list_lookup in H1 as [a Ha]. apply elem_of_list_lookup in H2 as [b Hb].
    assert (a = b) as ->.
    { eapply (NoDup_lookup _ _ _ i Hwf); by rewrite list_lookup_fmap, ?Ha, ?Hb. }
    congruence.
  Qed.

  Lemma update_spec s :
    wf s -> flags_ok s -> exists s', update O s = Ok s' /\ wf s'
      /\ (forall j, sh (nodes s') j = sh (nodes s) j) /\ length (nodes s') = length (nodes s)
      /\ values s' = values s /\ updated_list s' = []
      /\ (fitq O s -> fitq O s')
      /\ (forall D, fatx s D -> fatx s' D).
  Proof.
    intros Hwf Hfl. unfold update.
    destruct (update_collect_spec s (updated_list s)) as (l & -> & H1 & H2); [apply Hwf|done|].
    cbn [mbind res_mbind res_bind].
    destruct (update_apply_spec l s Hwf) as (s' & -> & Hwf' & Hsh & Hlen & Hv & Hu & Hfit & Hlb).
    { intros i p b Hi. destruct (H1 _ _ _ Hi) as (k & b0 & v & Hn & _). exists k. by rewrite (sh_lookup _ _ _ Hn). }
    cbn [mbind res_mbind res_bind]. exists (with_updated s' []). split_and!; try done.
    { by apply wf_updated. }
    intros D Hfat i b v Hi Hiv Hlaw. simpl in Hi, Hiv. rewrite Hv in Hiv.
    destruct (Hlb i) as [[Hlbi Hnin]|(p & b' & Hin & Hlbi)].
    - rewrite Hi in Hlbi. symmetry in Hlbi. destruct (Hfat i b v Hlbi Hiv Hlaw) as [?|[Hup|?]]; auto.
      left. apply lb_leaf in Hlbi as (p & k & Hn).
      destruct (H2 _ _ _ _ Hup Hn) as (v' & Hv' & [Hc|Hin]).
      + by rewrite (values_fun s i v v' (proj1 Hwf) Hiv Hv').
      + by destruct (Hnin _ _ Hin).
    - rewrite Hlbi in Hi. simplify_eq. destruct (H1 _ _ _ Hin) as (k & b0 & v' & Hn & Hv' & ->).
      left. by rewrite <- (values_fun s i v v' (proj1 Hwf) Hiv Hv').
  Qed.

  (** * [update_node], in-place writes *)
  Definition write_value s (h : nat) (v : T) : dbvt T B :=
    with_values s ((fun x => if decide (x.1 = h) then (h, v) else x) <$> values s).

  Lemma write_handles (vs : list (nat * T)) h v :
    ((fun x => if decide (x.1 = h) then (h, v) else x) <$> vs).*1 = vs.*1.
  Proof.
    induction vs as [|[i w] vs IH]; [done|]. rewrite !fmap_cons, IH. f_equal. simpl. by case_decide; simplify_eq/=.
  Qed.
  Lemma write_value_wf s h v : wf s -> wf (write_value s h v).
  Proof.
    intros [Hs Hq]. split; [|done]. eapply wf_struct_same; simpl; eauto. apply write_handles.
  Qed.
  Lemma elem_of_write s h v i w :
    (i, w) ∈ values (write_value s h v) <->
    (i <> h /\ (i, w) ∈ values s) \/ (i = h /\ w = v /\ exists w0, (h, w0) ∈ values s).
  Proof.
    unfold write_value. simpl. rewrite elem_of_list_fmap. split.
    - intros ([i' w'] & Heq & Hin). simpl in Heq. case_decide; simplify_eq; [right|left]; eauto.
    - intros [[Hne Hin]|(-> & -> & w0 & Hin)].
      + exists (i, w). simpl. by rewrite decide_False.
      + exists (h, w0). simpl. by rewrite decide_True.
  Qed.

  Lemma write_insert (vs : list (nat * T)) k h v0 v :
    NoDup vs.*1 -> vs !! k = Some (h, v0) ->
    <[k := (h, v)]> vs = (fun x => if decide (x.1 = h) then (h, v) else x) <$> vs.
  Proof.
    revert k. induction vs as [|[i w] vs IH]; intros [|k] Hnd Hk; simplify_eq/=.
    - apply NoDup_cons in Hnd as [Hni Hnd].
      rewrite decide_True by done. f_equal. symmetry. clear IH.
      rewrite <- (list_fmap_id vs) at 2. apply list_fmap_ext. intros j [i w] Hj. simpl.
      rewrite decide_False; [done|]. intros ->. apply Hni. apply elem_of_list_fmap.
      exists (h, w). split; [done|]. by eapply elem_of_list_lookup_2.
    - apply NoDup_cons in Hnd as [Hni Hnd]. rewrite decide_False.
      + f_equal. by apply IH.
      + intros ->. apply Hni. apply elem_of_list_fmap. exists (h, v0). split; [done|].
        by eapply elem_of_list_lookup_2.
  Qed.

  Lemma is_live_leaf s i : wf_struct s ->
    (exists p k b, nodes s !! i = Some (Leaf p k b)) <-> i ∈ (values s).*1.
  Proof.
    intros [(Hn & Hv & _)|[t Hwf]].
    - rewrite Hn, Hv. split; [|by intros ?%elem_of_nil]. destruct i; naive_solver.
    - split.
      + intros (p & k & b & Hn). destruct (wf_tree_leaf_node _ _ _ _ _ _ Hwf Hn) as [v Hv].
        apply elem_of_list_fmap. exists (i, v). split; [done|]. by eapply elem_of_list_lookup_2.
      + intros Hi. apply elem_of_list_fmap in Hi as ([i' v] & -> & Hi). simpl.
        apply elem_of_list_lookup in Hi as [k Hk].
        destruct (wf_tree_value_node _ _ _ _ _ Hwf Hk) as (p & b & ?). eauto.
  Qed.
  Lemma live_lt s i : wf_struct s -> i ∈ (values s).*1 -> i < length (nodes s).
  Proof. intros Hwf (p & k & b & Hn)%is_live_leaf; [|done]. by eapply lookup_lt_Some. Qed.

  Lemma update_node_spec s i v :
    wf s -> i < length (nodes s) ->
    update_node s i v = Ok (flag_updated (if decide (i ∈ (values s).*1) then write_value s i v else s) i).
  Proof.
    intros [Hwf _] Hi. unfold update_node. destruct (lookup_lt_is_Some_2 _ _ Hi) as [n Hn].
    rewrite (get_Some _ _ _ Hn). cbn [mbind res_mbind res_bind].
    case_decide as Hlive.
    - apply (is_live_leaf s i Hwf) in Hlive as (p & k & b & Hl). rewrite Hn in Hl. simplify_eq.
      destruct Hwf as [(Hns&_)|[t Hwf]]; [rewrite Hns in Hn; by destruct i|].
      destruct (wf_tree_leaf_node _ _ _ _ _ _ Hwf Hn) as [v0 Hv0].
      rewrite (get_Some _ _ _ Hv0). cbn [mbind res_mbind res_bind]. simpl.
      unfold write_value. erewrite write_insert; eauto.
      apply wf_handles_nodup. by right; exists t.
    - destruct n; try done. destruct Hlive. apply (is_live_leaf s i Hwf). eauto.
  Qed.

  (** * [reindex_values] after a permutation *)
  Lemma reindex_loop_spec vs ns i0 :
    NoDup vs.*1 -> (forall x, x ∈ vs.*1 -> exists p k b, ns !! x = Some (Leaf p k b)) ->
    exists ns', @reindex_loop T B ns i0 vs = Ok ns' /\ length ns' = length ns
      /\ (forall j, j ∉ vs.*1 -> ns' !! j = ns !! j)
      /\ (forall k x v, vs !! k = Some (x, v) -> exists p k0 b, ns !! x = Some (Leaf p k0 b)
            /\ ns' !! x = Some (Leaf p (i0 + k) b)).
  Proof.
    revert ns i0. induction vs as [|[x v] vs IH]; intros ns i0 Hnd Hall; simpl.
    { exists ns. done. }
    apply NoDup_cons in Hnd as [Hx Hnd].
    destruct (Hall x ltac:(left)) as (p & k & b & Hn).
    rewrite (get_Some _ _ _ Hn). cbn [mbind res_mbind res_bind].
    destruct (IH (<[x:=Leaf p i0 b]> ns) (i0 + 1)) as (ns' & Hrun & Hlen & Ho & Hn'); [done|..].
    { intros y Hy. rewrite list_lookup_insert_ne by (by intros ->). apply Hall. by right. }
    exists ns'. rewrite insert_length in Hlen. split_and!; try done.
    - intros j Hj. rewrite Ho by set_solver. rewrite list_lookup_insert_ne; [done|]. set_solver.
    - intros [|k'] y w Hk; simplify_eq/=.
      + exists p, k, b. split; [done|]. rewrite Ho by done.
        rewrite list_lookup_insert by (by eapply lookup_lt_Some). do 2 f_equal. lia.
      + destruct (Hn' _ _ _ Hk) as (p' & k0 & b' & H1 & H2).
        assert (x <> y). { intros ->. apply Hx. apply elem_of_list_fmap. exists (y, w). split; [done|]. by eapply elem_of_list_lookup_2. }
        rewrite list_lookup_insert_ne in H1 by done. exists p', k0, b'. split; [done|].
        rewrite H2. do 2 f_equal. lia.
  Qed.

  Lemma reindex_spec s vs :
    wf s -> vs ≡ₚ values s ->
    exists s', reindex_values (with_values s vs) = Ok s' /\ wf s' /\ values s' = vs
      /\ updated_list s' = updated_list s /\ length (nodes s') = length (nodes s)
      /\ (forall j, lb (nodes s') j = lb (nodes s) j)
      /\ (fitq O s -> fitq O s').
  Proof.
    intros [Hwf Hq] HP. unfold reindex_values.
    destruct (reindex_loop_spec (values (with_values s vs)) (nodes (with_values s vs)) 0) as (ns & Hrun & Hlen & Ho & Hk); simpl.
    { rewrite HP. by apply wf_handles_nodup. }
    { intros x. rewrite HP. apply (is_live_leaf s x Hwf). }
    simpl in Hrun, Hlen, Ho, Hk. rewrite Hrun. cbn [mbind res_mbind res_bind].
    set (s' := with_nodes (with_values s vs) ns).
    assert (Hcase : forall j, ns !! j = nodes s !! j \/
       exists p k0 k b v, vs !! k = Some (j, v) /\ nodes s !! j = Some (Leaf p k0 b) /\ ns !! j = Some (Leaf p k b)).
    { intros j. destruct (decide (j ∈ vs.*1)) as [Hj|Hj]; [|left; auto].
      apply elem_of_list_fmap in Hj as ([j' v] & -> & Hj). apply elem_of_list_lookup in Hj as [k Hj].
      destruct (Hk _ _ _ Hj) as (p & k0 & b & ? & ?). right. simpl. eauto 10. }
    assert (Hbh : forall j, bh ns j = bh (nodes s) j).
    { intros j. unfold bh. destruct (Hcase j) as [->|(p & k0 & k & b & v & _ & -> & ->)]; done. }
    exists s'. split_and!; try done.
    - split; [|simpl; by rewrite Hlen]. destruct Hwf as [(Hn & Hv & Hf & Hr)|[t Hwf]].
      + left. rewrite Hv in HP. apply Permutation_nil_r in HP as ->. simpl in Hrun. simplify_eq.
        by split_and!.
      + right. set (g := fun i v0 => match ns !! i with Some (Leaf _ k _) => k | _ => v0 end).
        exists (relabel g t).
        assert (Hsh : forall i, sh ns i = relabel_shape (g i) <$> sh (nodes s) i).
        { intros i. unfold sh, g. destruct (Hcase i) as [->|(p & k0 & k & b & v & _ & -> & ->)]; [|done].
          by destruct (nodes s !! i) as [[]|]. }
        eapply wf_tree_transfer; simpl; eauto.
        * intros j. rewrite Hsh. by rewrite fmap_is_Some.
        * rewrite idx_relabel. apply Hwf.
        * eapply repr_relabel; [|apply Hwf]. intros; apply Hsh.
        * by rewrite idxs_relabel.
        * apply vleaves_perm; [rewrite idxs_relabel; by eapply wf_tree_nodup|].
          intros i k. rewrite leaves_relabel, elem_of_list_fmap. split.
          -- intros ([i' k'] & Heq & Hin). simplify_eq/=.
             destruct (proj1 (wf_tree_leaf _ _ _ _ Hwf) Hin) as [v Hv].
             assert ((i', v) ∈ vs) as Hiv by (rewrite HP; by eapply elem_of_list_lookup_2).
             apply elem_of_list_lookup in Hiv as [k Hiv]. exists v.
             destruct (Hk _ _ _ Hiv) as (p & k0 & b & _ & Hn). unfold g. by rewrite Hn.
          -- intros [v Hv]. assert ((i, v) ∈ values s) as Hiv by (rewrite <- HP; by eapply elem_of_list_lookup_2).
             apply elem_of_list_lookup in Hiv as [k' Hiv]. exists (i, k').
             split; [|eapply wf_tree_leaf; eauto]. destruct (Hk _ _ _ Hv) as (p & k0 & b & _ & Hn).
             unfold g. simpl. by rewrite Hn.
    - intros j. unfold lb. simpl. destruct (Hcase j) as [->|(p & k0 & k & b & v & _ & -> & ->)]; done.
    - intros Hfit j p l r h b Hj. simpl in Hj |- *.
      assert (nodes s !! j = Some (Branch p l r h b)) as Hj'.
      { destruct (Hcase j) as [<-|(p' & k0 & k & b' & v & _ & ? & ?)]; [done|congruence]. }
      destruct (Hfit _ _ _ _ _ _ Hj') as [?|?]; [by left|right]. eapply fits_ext; eauto.
  Qed.

  Lemma value_index_spec s i :
    wf_struct s -> i < length (nodes s) ->
    exists o, value_index s i = Ok o
      /\ (forall k, o = Some k <-> exists v, values s !! k = Some (i, v)).
  Proof.
    intros Hwf Hi. unfold value_index. destruct (lookup_lt_is_Some_2 _ _ Hi) as [n Hn].
    rewrite (get_Some _ _ _ Hn). cbn [mbind res_mbind res_bind]. eexists; split; [done|]. intros k. split.
    - destruct n as [|p k' b|]; intros; simplify_eq.
      destruct Hwf as [(Hns&_)|[t Hwf]]; [rewrite Hns in Hn; by destruct i|]. by eapply wf_tree_leaf_node.
    - intros [v Hv]. destruct Hwf as [(_&Hvs&_)|[t Hwf]]; [by rewrite Hvs in Hv|].
      destruct (wf_tree_value_node _ _ _ _ _ Hwf Hv) as (p & b & ?). rewrite Hn in *. by simplify_eq.
  Qed.
End upd.
