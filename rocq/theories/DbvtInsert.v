(** [insert] preserves well-formedness. *)
From stdpp Require Import prelude sorting.
From Verif Require Import Res DbvtModel DbvtGhost DbvtInv.

Section ins.
  Context {T B S : Type} (O : dbvt_ops T B S).
  Implicit Types (s : dbvt T B) (ns : list (node B)) (t u : gtree).

  Lemma insert_find_ok fuel ns p t nb :
    repr (sh ns) p t -> length (idxs t) <= fuel ->
    exists j k, insert_find O fuel ns (idx t) nb = Ok (Some j) /\ (j, k) ∈ leaves t.
  Proof.
    revert p t. induction fuel as [|fuel IH]; intros p t Hr Hf.
    { pose proof (length_idxs t). lia. }
    destruct t as [i v|i l r]; simpl in Hr |- *.
    - apply sh_leaf in Hr as [b Hb]. rewrite (get_Some _ _ _ Hb). simpl.
      exists i, v. split; [done|]. left.
    - destruct Hr as (Hi & Hl & Hr). apply sh_branch in Hi as (h & b & Hi).
      rewrite (get_Some _ _ _ Hi). simpl.
      destruct (repr_idx _ _ _ Hl) as (xl & Hxl & _).
      destruct (repr_idx _ _ _ Hr) as (xr & Hxr & _).
      destruct (sh_some_node ns (idx l)) as (nl & bl & Hnl & Hbl); [eauto|].
      destruct (sh_some_node ns (idx r)) as (nr & br & Hnr & Hbr); [eauto|].
      rewrite (get_Some _ _ _ Hnl). simpl. rewrite Hbl. simpl.
      rewrite (get_Some _ _ _ Hnr). simpl. rewrite Hbr. simpl.
      simpl in Hf. rewrite app_length in Hf.
      destruct (s_lt O _ _).
      + destruct (IH i l Hl ltac:(lia)) as (j & k & ? & ?). exists j, k. split; [done|set_solver].
      + destruct (IH i r Hr ltac:(lia)) as (j & k & ? & ?). exists j, k. split; [done|set_solver].
  Qed.

  Lemma seq_snoc n : 0 < n -> seq 1 (n - 1) ++ [n] = seq 1 n.
  Proof.
    intros. replace n with (n - 1 + 1) at 3 by lia. rewrite seq_app. simpl. do 2 f_equal; lia.
  Qed.

  Lemma take_free_spec s i s' I :
    accounted (nodes s) (free_list s) I -> take_free s = (i, s') ->
    accounted (nodes s') (free_list s') (i :: I)
    /\ nodes s' !! i = Some Nil
    /\ (forall j n, nodes s !! j = Some n -> nodes s' !! j = Some n)
    /\ (forall j n, nodes s' !! j = Some n -> n = Nil \/ nodes s !! j = Some n)
    /\ values s' = values s /\ updated_list s' = updated_list s
    /\ root_index s' = root_index s /\ refit_nodes s' = refit_nodes s
    /\ length (nodes s) <= length (nodes s').
  Proof.
    intros (Hpos & HP & Hnil). unfold take_free.
    destruct (free_list s) as [|j fl] eqn:Hfl; intros [= <- <-]; simpl.
    - split_and!; try done.
      + split_and!.
        * rewrite app_length; simpl; lia.
        * simpl in HP. rewrite Hfl. simpl. rewrite HP, app_length. simpl.
          replace (length (nodes s) + 1 - 1) with (length (nodes s)) by lia.
          rewrite <- (seq_snoc (length (nodes s))) by done. by rewrite <- Permutation_cons_append.
        * rewrite Hfl. intros k Hk. by apply elem_of_nil in Hk.
      + rewrite lookup_app_r by lia. by rewrite Nat.sub_diag.
      + intros k n Hk. by apply lookup_app_l_Some.
      + intros k n Hk. apply lookup_app_Some in Hk as [?|[? Hk]]; [by right|].
        left. destruct (k - length (nodes s)); simpl in Hk; by simplify_eq.
      + rewrite app_length; lia.
    - assert (nodes s !! j = Some Nil) by (apply Hnil; left).
      split_and!; try done.
      + split_and!; [done|..].
        * rewrite <- HP. simpl. by rewrite Permutation_middle.
        * intros k Hk. apply Hnil. by right.
      + intros k n Hk. by right.
  Qed.

  Lemma accounted_shape s fl I i :
    accounted (nodes s) fl I -> nodes s !! 0 = Some Nil -> is_Some (sh (nodes s) i) -> i ∈ I.
  Proof.
    intros Hacc H0 Hi. assert (i < length (nodes s)) by by apply sh_length.
    destruct (decide (i = 0)) as [->|].
    { unfold sh in Hi. rewrite H0 in Hi. simpl in Hi. by destruct Hi. }
    destruct (accounted_range _ _ _ i Hacc) as [_ Hin].
    specialize (Hin ltac:(lia)). apply elem_of_app in Hin as [Hin|]; [|done].
    destruct Hacc as (_&_&Hn). unfold sh in Hi. rewrite (Hn i Hin) in Hi. simpl in Hi. by destruct Hi.
  Qed.

  Definition insert_post s (v : T) s' h : Prop :=
    wf s' /\ (fitq O s -> fitq O s')
    /\ values s' = values s ++ [(h, v)]
    /\ h ∉ (values s).*1 /\ h <> 0
    /\ updated_list s' = updated_list s
    /\ length (nodes s) <= length (nodes s')
    /\ (forall i b, lb (nodes s') i = Some b ->
          (i = h /\ b = tv_fat O v) \/ lb (nodes s) i = Some b).

  Lemma insert_first s v :
    wf s -> wf_empty s -> exists s' h, insert O s v = Ok (s', h) /\ insert_post s v s' h.
  Proof.
    intros [_ Hq] (Hn & Hv & Hf & Hr). unfold insert. rewrite Hn, Hv, Hf, Hr. simpl.
    eexists _, _. split; [done|]. split_and!; simpl.
    - split; simpl.
      + right. exists (GLeaf 1 0). split; simpl; try done.
        split_and!; simpl; [lia|done|]. intros i Hi. by apply elem_of_nil in Hi.
      + rewrite Hn in Hq. destruct Hq as [? Hq]. split; [done|].
        intros x Hx. specialize (Hq x Hx). simpl in Hq. lia.
    - intros _ i p l r h b. simpl. destruct i as [|[|[]]]; simpl; by intros.
    - by rewrite Hv.
    - rewrite Hv. apply not_elem_of_nil.
    - lia.
    - done.
    - rewrite Hn. simpl. lia.
    - intros [|[|[]]] b; simpl; intros [=]; subst. by left.
  Qed.

  Lemma insert_more s t v :
    wf s -> wf_tree s t -> exists s' h, insert O s v = Ok (s', h) /\ insert_post s v s' h.
  Proof.
    intros [_ Hq] Hwf. unfold insert.
    rewrite decide_False by (by eapply wf_empty_root).
    destruct (take_free s) as [bi s1] eqn:Ht1.
    destruct (take_free s1) as [li s2] eqn:Ht2.
    pose proof (wf_tree_nodup _ _ Hwf) as Hnd.
    destruct Hwf as [H0 Hroot Hrepr Hacc Hvals].
    destruct (take_free_spec _ _ _ _ Hacc Ht1) as (Hacc1 & Hbi1 & Hfw1 & Hbw1 & Hv1 & Hu1 & Hr1 & Hq1 & Hl1).
    destruct (take_free_spec _ _ _ _ Hacc1 Ht2) as (Hacc2 & Hli & Hfw2 & Hbw2 & Hv2 & Hu2 & Hr2 & Hq2 & Hl2).
    assert (Hbi : nodes s2 !! bi = Some Nil) by auto.
    assert (H02 : nodes s2 !! 0 = Some Nil) by auto.
    assert (Hsh : forall i, sh (nodes s2) i = sh (nodes s) i).
    { intros i. unfold sh. destruct (nodes s !! i) as [n|] eqn:Hn.
      - by rewrite (Hfw2 _ _ (Hfw1 _ _ Hn)).
      - destruct (nodes s2 !! i) as [n|] eqn:Hn2; [|done].
        destruct (Hbw2 _ _ Hn2) as [->|Hn1]; [done|].
        destruct (Hbw1 _ _ Hn1) as [->|Hn0]; [done|congruence]. }
    assert (Hbh : forall i, bh (nodes s2) i = bh (nodes s) i).
    { intros i. unfold bh. destruct (nodes s !! i) as [n|] eqn:Hn.
      - by rewrite (Hfw2 _ _ (Hfw1 _ _ Hn)).
      - destruct (nodes s2 !! i) as [n|] eqn:Hn2; [|done].
        destruct (Hbw2 _ _ Hn2) as [->|Hn1]; [done|].
        destruct (Hbw1 _ _ Hn1) as [->|Hn0]; [done|congruence]. }
    assert (Hbw : forall i n, nodes s2 !! i = Some n -> n = Nil \/ nodes s !! i = Some n).
    { intros i n Hn. destruct (Hbw2 _ _ Hn) as [?|Hn1]; [by left|]. by apply Hbw1 in Hn1. }
    assert (Hlink : linked (sh (nodes s2))).
    { eapply linked_of; [done| |].
      - eapply repr_ext; [|done]. intros; apply Hsh.
      - intros i Hi. rewrite Hsh in Hi. eapply (wf_tree_in s t); [by constructor|done]. }
    assert (Hrepr2 : repr (sh (nodes s2)) 0 t).
    { eapply repr_ext; [|done]. intros; apply Hsh. }
    pose proof (accounted_nodup _ _ _ Hacc2) as Hndall.
    assert (Hfresh : li ∉ idxs t /\ bi ∉ idxs t /\ li <> bi /\ li <> 0 /\ bi <> 0).
    { apply NoDup_app in Hndall as (_&_&Hnd2). apply NoDup_cons in Hnd2 as [Hn1 Hnd2].
      apply NoDup_cons in Hnd2 as [Hn2 _].
      pose proof (accounted_range _ _ _ li Hacc2) as [R1 _].
      pose proof (accounted_range _ _ _ bi Hacc2) as [R2 _].
      specialize (R1 ltac:(set_solver +)). specialize (R2 ltac:(set_solver +)).
      split_and!; try lia; set_solver + Hn1 Hn2. }
    destruct Hfresh as (Hlit & Hbit & Hlibi & Hli0 & Hbi0).
    destruct (insert_find_ok (length (nodes s2)) (nodes s2) 0 t (tv_fat O v) Hrepr2) as (j & k & Hfind & Hjk).
    { destruct Hacc2 as (? & HP & _). apply Permutation_length in HP.
      rewrite app_length, seq_length in HP. simpl in HP. lia. }
    simpl. rewrite Hr2, Hr1, Hroot, Hfind. simpl.
    destruct (leaves_repr _ _ _ _ _ Hrepr2 Hjk) as [p Hp].
    assert (Hjt : j ∈ idxs t) by (by eapply leaves_idxs).
    destruct (decompose_leaf _ _ _ _ _ Hrepr2 Hjt Hp) as (c & -> & ->).
    apply sh_leaf in Hp as [b Hj]. rewrite (get_Some _ _ _ Hj). simpl.
    pose proof (idxs_plug c (GLeaf j k)) as HPidx. simpl in HPidx.
    assert (Hc : NoDup (cidxs c) /\ j ∉ cidxs c /\ bi ∉ cidxs c /\ li ∉ cidxs c /\ 0 ∉ cidxs c /\ bi <> j /\ li <> j).
    { rewrite HPidx in Hnd, Hlit, Hbit. apply NoDup_app in Hnd as (Hnda&Hndb&_).
      assert (0 ∉ cidxs c).
      { intros H0'. pose proof (accounted_range _ _ _ 0 Hacc2) as [R _].
        assert (0 ∈ free_list s2 ++ li :: bi :: idxs (plug c (GLeaf j k))) as Hin.
        { rewrite HPidx. set_solver + H0'. } specialize (R Hin). lia. }
      split_and!; [done|set_solver + Hndb|set_solver + Hbit|set_solver + Hlit|done|set_solver + Hbit|set_solver + Hlit]. }
    destruct Hc as (Hcnd & Hjc & Hbic & Hlic & H0c & Hbij & Hlij).
    apply repr_plug in Hrepr2 as [Hreprc Hrj]. simpl in Hreprc, Hrj.
    rewrite (modify_ok _ _ _ _ Hj). simpl.
    set (nsA := <[j := Leaf bi k b]> (nodes s2)).
    (* the parent's child pointer *)
    assert (exists nsB, (if decide (cpar c = 0) then Ok nsA else modify nsA (cpar c) (redirect_child j bi)) = Ok nsB
       /\ length nsB = length (nodes s2)
       /\ (forall i, i <> cpar c \/ c = CHole -> nsB !! i = nsA !! i)
       /\ (c <> CHole -> exists n, nodes s2 !! cpar c = Some n /\ nsB !! cpar c = Some (redirect_child j bi n)))
      as (nsB & -> & HlenB & HneB & HparB).
    { case_decide as Hc0.
      - apply cpar_zero in Hc0 as ->; [|done].
        exists nsA. unfold nsA. rewrite insert_length. split_and!; auto; done.
      - assert (c <> CHole) as Hch by (intros ->; done).
        assert (is_Some (sh (nodes s2) (cpar c))) as Hps.
        { destruct c; simpl in *; [done|..]; destruct Hreprc as [-> _]; eauto. }
        apply sh_some_node in Hps as (n & bn & Hn & _).
        pose proof (cpar_in c Hch).
        assert (nsA !! cpar c = Some n) as HnA.
        { unfold nsA. rewrite list_lookup_insert_ne; [done|]. intros ->. done. }
        rewrite (modify_ok _ _ _ _ HnA). eexists. split; [done|].
        unfold nsA. rewrite !insert_length. split_and!; [done|..].
        + intros i [Hi|?]; [|done]. by rewrite list_lookup_insert_ne.
        + intros _. exists n. split; [done|]. rewrite list_lookup_insert; [done|].
          rewrite insert_length. by apply lookup_lt_Some in Hn. }
    cbn [mbind res_mbind res_bind].
    assert (HbiB : nsB !! bi = Some Nil).
    { rewrite HneB. - unfold nsA. by rewrite list_lookup_insert_ne.
      - destruct c; [by right|left..]; simpl in Hbic, Hlic |- *; set_solver + Hbic Hlic. }
    rewrite (modify_ok _ _ _ _ HbiB). cbn [mbind res_mbind res_bind].
    set (nsC := <[bi := Branch (cpar c) j li 2 (b_union O b (tv_fat O v))]> nsB).
    assert (HliC : nsC !! li = Some Nil).
    { unfold nsC. rewrite list_lookup_insert_ne by done. rewrite HneB.
      - unfold nsA. by rewrite list_lookup_insert_ne.
      - destruct c; [by right|left..]; simpl in Hbic, Hlic |- *; set_solver + Hbic Hlic. }
    rewrite (modify_ok _ _ _ _ HliC). cbn [mbind res_mbind res_bind].
    set (nsD := <[li := Leaf bi (length (values s)) (tv_fat O v)]> nsC).
    assert (HlenD : length nsD = length (nodes s2)).
    { unfold nsD, nsC. by rewrite !insert_length. }
    (* lookups in the final array *)
    assert (Lli : nsD !! li = Some (Leaf bi (length (values s)) (tv_fat O v))).
    { unfold nsD. apply list_lookup_insert. unfold nsC. rewrite insert_length, HlenB.
      by apply lookup_lt_Some in Hli. }
    assert (Lbi : nsD !! bi = Some (Branch (cpar c) j li 2 (b_union O b (tv_fat O v)))).
    { unfold nsD. rewrite list_lookup_insert_ne by done. unfold nsC. apply list_lookup_insert.
      rewrite HlenB. by apply lookup_lt_Some in Hbi. }
    assert (Hcparj : c = CHole \/ j <> cpar c).
    { destruct (decide (cpar c = 0)) as [E|E]; [left; by apply cpar_zero|right].
      intros ->. apply Hjc, cpar_in. by intros ->. }
    assert (Lj : nsD !! j = Some (Leaf bi k b)).
    { unfold nsD, nsC. rewrite !list_lookup_insert_ne by done. rewrite HneB by (destruct Hcparj; auto).
      unfold nsA. apply list_lookup_insert. by apply lookup_lt_Some in Hj. }
    assert (Loth : forall i, i <> li -> i <> bi -> i <> j -> i <> cpar c \/ c = CHole -> nsD !! i = nodes s2 !! i).
    { intros i ????. unfold nsD, nsC. rewrite !list_lookup_insert_ne by done. rewrite HneB by done.
      unfold nsA. by rewrite list_lookup_insert_ne. }
    assert (Lpar : c <> CHole -> exists n, nodes s2 !! cpar c = Some n /\ nsD !! cpar c = Some (redirect_child j bi n)).
    { intros Hch. destruct (HparB Hch) as (n & Hn & Hn'). exists n. split; [done|].
      pose proof (cpar_in c Hch). unfold nsD, nsC.
      rewrite !list_lookup_insert_ne; [done|..]; intros ->; done. }
    clearbody nsD. clear nsA nsB nsC HlenB HneB HparB HbiB HliC.
    set (t' := plug c (GBranch bi (GLeaf j k) (GLeaf li (length (values s))))).
    assert (HPt' : idxs t' ≡ₚ bi :: li :: idxs (plug c (GLeaf j k))).
    { unfold t'. rewrite !idxs_plug. simpl. solve_Permutation. }
    assert (Hrepr' : repr (sh nsD) 0 t').
    { apply repr_plug. simpl. split_and!.
      - eapply (reprc_redirect (sh (nodes s2)) _ c j); try done.
        + intros i Hi Hi'. unfold sh. rewrite Loth; [done|..]; [intros -> ; done..|by left].
        + intros Hch x Hx. destruct (Lpar Hch) as (n & Hn & Hn').
          rewrite (sh_lookup _ _ _ Hn) in Hx. rewrite (sh_lookup _ _ _ Hn'), shp_redirect, Hx. done.
      - by rewrite (sh_lookup _ _ _ Lbi).
      - by rewrite (sh_lookup _ _ _ Lj).
      - by rewrite (sh_lookup _ _ _ Lli). }
    assert (Hnd' : NoDup (idxs t')).
    { rewrite HPt'. apply NoDup_cons; split; [set_solver + Hbit Hlibi|]. apply NoDup_cons; by split. }
    assert (Hnil' : forall i, i ∈ free_list s2 -> nsD !! i = Some Nil).
    { intros i Hi. apply NoDup_app in Hndall as (_&Hdis&_).
      assert (i ∉ idxs (plug c (GLeaf j k)) /\ i <> li /\ i <> bi) as (Hnot & ? & ?).
      { specialize (Hdis i Hi). set_solver + Hdis. }
      rewrite HPidx in Hnot.
      rewrite Loth; [|done|done|set_solver + Hnot|].
      - destruct Hacc2 as (_&_&Hn). by apply Hn.
      - destruct c as [|c0 i0 ?|c0 i0 ?]; [by right|left; simpl in Hnot |- *; set_solver + Hnot..]. }
    cbv zeta. set (s4 := with_nodes (with_values s2 (values s2 ++ [(li, v)])) nsD).
    set (s5 := if decide (j = idx (plug c (GLeaf j k))) then with_root s4 bi else s4).
    assert (Hs5 : nodes s5 = nsD /\ values s5 = values s ++ [(li, v)] /\ free_list s5 = free_list s2
        /\ updated_list s5 = updated_list s /\ refit_nodes s5 = refit_nodes s /\ root_index s5 = idx t').
    { unfold s5, s4. case_decide as E; simpl in *; rewrite Hv2, Hv1, Hu2, Hu1, Hq2, Hq1; split_and!; try done;
        rewrite ?Hr2, ?Hr1, ?Hroot; unfold t'.
      - destruct (decide (cpar c = 0)) as [E0|E0]; [apply cpar_zero in E0 as ->; [done|done]|].
        destruct (idx_plug_ne c (GLeaf j k) (GLeaf j k)) as [_ Hin]; [by intros ->|].
        rewrite <- E in Hin. done.
      - destruct (decide (cpar c = 0)) as [E0|E0]; [apply cpar_zero in E0 as ->; [done|done]|].
        apply idx_plug_ne. by intros ->. }
    destruct Hs5 as (Hn5 & Hv5 & Hf5 & Hu5 & Hq5 & Hr5).
    clearbody s5. clear s4.
    assert (Hq0 : wf_queue (refit_nodes s5) (length (nodes s5))).
    { rewrite Hn5, Hq5, HlenD. destruct Hq as [Hqs Hq]. split; [done|].
      intros x Hx. specialize (Hq x Hx). lia. }
    assert (exists q, (if decide (cpar c = 0) then Ok s5 else mark_for_refit s5 (cpar c) 3) = Ok (with_refit s5 q)
      /\ wf_queue q (length nsD) /\ (forall i, i ∈ (refit_nodes s).*2 -> i ∈ q.*2)
      /\ (c <> CHole -> cpar c ∈ q.*2)) as (q & -> & Hwq & Hqsub & Hqp).
    { case_decide as E0.
      - apply cpar_zero in E0 as ->; [|done]. exists (refit_nodes s5). split_and!.
        + by destruct s5.
        + by rewrite <- Hn5.
        + by rewrite Hq5.
        + done.
      - assert (c <> CHole) as Hch by by intros ->.
        destruct (mark_spec s5 (cpar c) 3) as (q & Hm & Hwq & Hin & Hor); [done| |].
        { rewrite Hn5. destruct (Lpar Hch) as (n & _ & Hn). by apply lookup_lt_Some in Hn. }
        exists q. rewrite <- Hn5. split_and!; auto.
        intros i Hi. destruct Hor as [->|[h Hor]].
        + by rewrite Hq5.
        + rewrite Hor. simpl. right. by rewrite Hq5. }
    cbn [mbind res_mbind res_bind].
    eexists _, _. split; [done|]. unfold insert_post. simpl. rewrite Hn5, Hv5, Hu5.
    split_and!.
    - split; [right; exists t'|]; simpl.
      + split; simpl; rewrite ?Hn5, ?Hv5, ?Hf5, ?Hr5; try done.
        * rewrite Loth; [done|lia|lia| |].
          { intros <-. congruence. }
          destruct (decide (c = CHole)) as [|Hch]; [by right|left].
          intros E. apply H0c. rewrite E. by apply cpar_in.
        * split_and!; [destruct Hacc2; lia| |done]. destruct Hacc2 as (_&HP&_). rewrite HlenD, <- HP, HPt'.
          solve_Permutation.
        * unfold t'. rewrite leaves_plug. simpl. rewrite leaves_plug in Hvals. simpl in Hvals.
          unfold vleaves. rewrite imap_app. simpl. rewrite Nat.add_0_r.
          unfold vleaves in Hvals. rewrite <- Hvals. solve_Permutation.
      + by rewrite Hn5.
    - intros Hfit i p l r h0 b0 Hi. simpl in Hi |- *. rewrite Hn5 in Hi |- *.
      assert (HbhD : forall i, i <> li -> i <> bi -> bh nsD i = bh (nodes s) i).
      { intros i' ??. rewrite <- Hbh. destruct (decide (i' = j)) as [->|].
        { by rewrite (bh_lookup _ _ _ Lj), (bh_lookup _ _ _ Hj). }
        destruct (decide (i' = cpar c /\ c <> CHole)) as [[-> Hch]|Hnp].
        { destruct (Lpar Hch) as (np & Hn & Hn').
          rewrite (bh_lookup _ _ _ Hn), (bh_lookup _ _ _ Hn').
          destruct np; simpl; try done. by case_decide. }
        unfold bh. rewrite Loth; try done.
        destruct (decide (c = CHole)); [by right|left]. intros ->. by apply Hnp. }
      destruct (decide (i = li)) as [->|]; [congruence|].
      destruct (decide (i = bi)) as [->|].
      { right. rewrite Lbi in Hi. simplify_eq. exists 1, b, 1, (tv_fat O v).
        by rewrite (bh_lookup _ _ _ Lj), (bh_lookup _ _ _ Lli). }
      destruct (decide (i = j)) as [->|]; [congruence|].
      destruct (decide (i = cpar c /\ c <> CHole)) as [[-> Hch]|Hnp]; [left; auto|].
      rewrite Loth in Hi; [|done|done|done|].
      2:{ destruct (decide (c = CHole)); [by right|left]. intros ->. by apply Hnp. }
      destruct (Hbw _ _ Hi) as [?|Hi0]; [done|].
      destruct (Hlink i p l r) as ((xl & Hxl & _) & (xr & Hxr & _) & _).
      { by rewrite (sh_lookup _ _ _ Hi). }
      assert (Hnn : forall x y, sh (nodes s2) x = Some y -> x <> li /\ x <> bi).
      { intros x y Hx. split; intros ->.
        - by rewrite (sh_lookup _ _ _ Hli) in Hx.
        - by rewrite (sh_lookup _ _ _ Hbi) in Hx. }
      destruct (Hnn _ _ Hxl), (Hnn _ _ Hxr).
      destruct (Hfit _ _ _ _ _ _ Hi0) as [?|Hfits]; [left; auto|right].
      eapply fits_ext; [..|done]; by apply HbhD.
    - done.
    - intros Hin. apply elem_of_list_fmap in Hin as ([i v'] & Heq & Hin). simpl in Heq. subst i.
      apply elem_of_list_lookup in Hin as [k' Hk'].
      apply Hlit. apply (leaves_idxs _ _ k'). rewrite Hvals. apply elem_of_vleaves. eauto.
    - done.
    - done.
    - lia.
    - intros i b' (p & k' & Hi)%lb_leaf. cut ((i = li /\ b' = tv_fat O v) \/ exists p', nodes s !! i = Some (Leaf p' k' b')).
      { intros [?|[p' ?]]; [by left|right]. apply lb_leaf. eauto. }
      destruct (decide (i = li)) as [->|]; [left; rewrite Lli in Hi; by simplify_eq|right].
      destruct (decide (i = bi)) as [->|]; [congruence|].
      destruct (decide (i = j)) as [->|].
      { rewrite Lj in Hi. simplify_eq. destruct (Hbw _ _ Hj) as [?|?]; [done|eauto]. }
      destruct (decide (i = cpar c /\ c <> CHole)) as [[-> Hch]|Hnp].
      { destruct (Lpar Hch) as (np & Hn & Hn'). rewrite Hn' in Hi.
        destruct np as [? l0 r0 ? ?| |]; simpl in Hi; [case_decide; done| |done]. simplify_eq.
        destruct (Hbw _ _ Hn) as [?|?]; [done|eauto]. }
      rewrite Loth in Hi; [|done|done|done|].
      2:{ destruct (decide (c = CHole)); [by right|left]. intros ->. by apply Hnp. }
      destruct (Hbw _ _ Hi) as [?|?]; [done|eauto].
  Qed.

  Lemma insert_spec s v :
    wf s -> exists s' h, insert O s v = Ok (s', h) /\ insert_post s v s' h.
  Proof.
    intros Hwf. pose proof Hwf as [[He|[t Ht]] _].
    - by apply insert_first.
    - by eapply insert_more.
  Qed.
End ins.
