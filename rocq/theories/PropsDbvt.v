(** Properties C01-C10, C15, C16 of the dynamic bounding volume tree. *)
From stdpp Require Import prelude gmap fin_maps fin_sets sorting.
From Verif Require Import Res DbvtModel DbvtGhost DbvtInv DbvtInsert DbvtRemove DbvtRotate DbvtRefit DbvtUpdate DbvtQuery DbvtSpec DbvtHistory.

Section props.
  Context {T B S : Type} (O : dbvt_ops T B S).
  Implicit Types (s : dbvt T B) (a : astate T) (o : op T).

  (** C01 *)
  Theorem C01_values_are_the_live_map a s :
    history O a s ->
    map_to_list (live a) ≡ₚ values s /\ NoDup (values s).*1
    /\ forall h v, live a !! h = Some v ->
         exists k, value_index s h = Ok (Some k) /\ values s !! k = Some (h, v).
  Proof.
    intros Hh%history_inv. split_and!.
    - by apply (inv_perm O).
    - apply wf_handles_nodup, Hh.
    - intros h v Hl. assert (h < length (nodes s)) as Hlt.
      { apply (i_issued _ _ _ Hh), (i_liveiss _ _ _ Hh). eauto. }
      apply (i_live _ _ _ Hh) in Hl. apply elem_of_list_lookup in Hl as [k Hk].
      destruct (value_index_spec s h (proj1 (i_wf _ _ _ Hh)) Hlt) as (o & Ho & Hiff).
      exists k. split; [|done]. rewrite Ho. f_equal. apply Hiff. eauto.
  Qed.
  Theorem C01_outputs_as_expected a s o fuel s' out :
    history O a s -> legal a o -> exec O fuel o s = Ok (s', out) -> expected a o out.
  Proof. intros Hh%history_inv Hl He. by eapply step_inv. Qed.

  (** C02 *)
  Theorem C02_size a s :
    history O a s -> dbvt_size s = if decide (values s = []) then 0 else 2 * length (values s) - 1.
  Proof.
    intros Hh%history_inv. destruct (i_wf _ _ _ Hh) as [[(Hn & Hv & Hf & Hr)|[t Hwf]] _]; unfold dbvt_size.
    - rewrite Hn, Hf, Hv. by rewrite decide_True.
    - pose proof (length_idxs t) as [H1 H2]. pose proof (Permutation_length (wt_vals _ _ Hwf)) as H3.
      unfold vleaves in H3. rewrite imap_length in H3.
      destruct (wt_acc _ _ Hwf) as (H0 & HP & _). apply Permutation_length in HP.
      rewrite app_length, seq_length in HP.
      rewrite decide_False; [lia|]. intros Hv. rewrite Hv in H3. simpl in H3. lia.
  Qed.

  (** C03 *)
  Theorem C03_legal_calls_return a s o :
    history O a s -> legal a o ->
    exists n s' out, forall fuel, n <= fuel -> exec O fuel o s = Ok (s', out).
  Proof.
    intros Hh%history_inv Hl. destruct (step_exec O a s o Hh Hl) as (n & s' & out & ? & _). eauto.
  Qed.
  Theorem C03_accessors_return a s :
    history O a s -> (exists k, dbvt_height s = Ok k)
      /\ forall h, h ∈ issued a -> exists x, value_index s h = Ok x.
  Proof.
    intros Hh%history_inv. split.
    - unfold dbvt_height. destruct (values s) eqn:Hv; [eauto|].
      destruct (i_wf _ _ _ Hh) as [[(Hn & Hv' & Hf & Hr)|[t Hwf]] _]; [congruence|].
      destruct (repr_idx _ _ _ (wt_repr _ _ Hwf)) as (x & Hx & _).
      destruct (sh_some_node (nodes s) (idx t)) as (n & b & Hn & _); [eauto|].
      rewrite (wt_root _ _ Hwf), (get_Some _ _ _ Hn). simpl. eauto.
    - intros h Hi. destruct (value_index_spec s h (proj1 (i_wf _ _ _ Hh))) as (x & ? & _); [|eauto].
      by apply (i_issued _ _ _ Hh).
  Qed.

  (** C04 *)
  Theorem C04_clear_with_pending_flag_then_update_panics a s fuel rng :
    history O a s -> pending a <> ∅ ->
    exists s', exec O fuel Clear s = Ok (s', NoOut)
      /\ exec O fuel Update s' = Panic /\ exec O fuel (Tick rng) s' = Panic.
  Proof.
    intros Hh%history_inv Hp. exists (dbvt_clear s). split; [done|].
    assert (Hu : update O (dbvt_clear s) = Panic).
    { unfold update. simpl. destruct (updated_list s) as [|i l] eqn:Hl.
      - destruct Hp. apply set_eq. intros x. rewrite (i_pend _ _ _ Hh), Hl. set_solver.
      - simpl. destruct i as [|i]; [|done].
        destruct (proj2 (i_nz _ _ _ Hh)). apply (i_pend _ _ _ Hh). rewrite Hl. left. }
    simpl. unfold tick. by rewrite Hu.
  Qed.
  Theorem C04_remove_last_with_pending_flag_then_update_panics a s h v fuel rng :
    history O a s -> live a = {[h := v]} -> pending a <> ∅ ->
    exists s', exec O fuel (Remove h) s = Ok (s', Removed (Some v))
      /\ exec O fuel Update s' = Panic /\ exec O fuel (Tick rng) s' = Panic.
  Proof.
    intros Hh Hlive Hp. pose proof (history_inv _ _ _ Hh) as Hi.
    assert (h ∈ issued a) as His.
    { apply (i_liveiss _ _ _ Hi). rewrite Hlive, lookup_singleton. eauto. }
    assert ((h, v) ∈ values s) as Hin.
    { apply (i_live _ _ _ Hi). by rewrite Hlive, lookup_singleton. }
    assert (h ∈ (values s).*1) as Hin1 by (apply elem_of_list_fmap; by exists (h, v)).
    apply (is_live_leaf s h (proj1 (i_wf _ _ _ Hi))) in Hin1 as (p & k & b & Hn).
    destruct (remove_spec O s h p k b (i_wf _ _ _ Hi) Hn) as (s' & v' & Hrun & Hwf & Hfit & HP & Hu & Hcase & Hlb).
    pose proof (inv_perm O _ _ Hi) as HP'. rewrite Hlive, map_to_list_singleton, HP in HP'.
    symmetry in HP'. apply Permutation_singleton_r in HP'. simplify_eq.
    exists s'. simpl. rewrite Hrun. split; [done|].
    destruct Hcase as [[_ ->]|[Hne _]]; [|done].
    destruct (C04_clear_with_pending_flag_then_update_panics a s fuel rng Hh Hp) as (s' & He & H1 & H2).
    simpl in He. by simplify_eq.
  Qed.

  (** C05 *)
  Theorem C05_do_refit_terminates a s rng :
    history O a s -> exists n s', forall fuel, n <= fuel -> do_refit O fuel rng s = Ok s'.
  Proof.
    intros Hh%history_inv. destruct (step_refit O a s rng Hh) as (n & s' & ? & _). eauto.
  Qed.

  (** C06 *)
  Theorem C06_refit_exact a s rng fuel s' :
    history O a s -> do_refit O fuel rng s = Ok s' -> values s <> [] ->
    exists h b L, exact_tree O s' 0 (root_index s') h b L
      /\ L ≡ₚ (values s').*1 /\ dbvt_height s' = Ok h.
  Proof.
    intros Hh%history_inv Hr Hne. destruct (step_refit O a s rng Hh) as (n & s1 & Hrun & Hinv & Hv & Hq & _).
    pose proof (do_refit_mono O _ (max n fuel) _ _ _ Hr ltac:(lia)) as Hr'.
    rewrite Hrun in Hr' by lia. simplify_eq.
    pose proof (fit_of_empty_queue O _ (i_fit _ _ _ Hinv) Hq) as Hfit.
    destruct (i_wf _ _ _ Hinv) as [[(_ & Hv' & _)|[t Hwf]] _]; [congruence|].
    destruct (exact_of_fit O s' t 0 (wt_repr _ _ Hwf) Hfit) as (b & _ & He).
    { intros i k. apply (wf_tree_leaf _ _ i k Hwf). }
    exists (gheight t), b, (leaves t).*1. rewrite (wt_root _ _ Hwf). split_and!; [done| |].
    - by rewrite (wt_vals _ _ Hwf), vleaves_fst.
    - by eapply wf_tree_height.
  Qed.
  Theorem C06_empty_height a s : history O a s -> values s = [] -> dbvt_height s = Ok 0.
  Proof. intros _ Hv. unfold dbvt_height. by rewrite Hv. Qed.

  (** C07 *)
  Theorem C07_maintenance_keeps_values a s o fuel s' out :
    history O a s -> legal a o -> o = Update \/ (exists rng, o = Refit rng) \/ (exists rng, o = Tick rng) ->
    exec O fuel o s = Ok (s', out) -> values s' = values s.
  Proof.
    intros Hh%history_inv Hl Ho He. destruct Ho as [->|[[rng ->]|[rng ->]]].
    - simpl in He. destruct (step_update O a s Hh Hl) as (s1 & Hr & _ & Hv & _). rewrite Hr in He. simpl in He. congruence.
    - destruct (step_refit O a s rng Hh) as (n & s1 & Hr & _ & Hv & _).
      apply (exec_mono O _ (max n fuel)) in He; [|lia]. simpl in He. rewrite Hr in He by lia. simpl in He. congruence.
    - destruct (step_tick O a s rng Hh Hl) as (n & s1 & Hr & _ & Hv & _).
      apply (exec_mono O _ (max n fuel)) in He; [|lia]. simpl in He. rewrite Hr in He by lia. simpl in He. congruence.
  Qed.

  (** C08 *)
  Theorem C08_query_sound {V R} (vis : visitor V B R) a s fuel vst l vst' :
    history O a s -> query_for_indices O fuel vis s vst = Ok (l, vst') ->
    NoDup l.*1
    /\ forall k r, (k, r) ∈ l -> exists h v w w', values s !! k = Some (h, v) /\ live a !! h = Some v
         /\ vis w (tv_bound O v) true = (Some r, w').
  Proof.
    intros Hh%history_inv Hq.
    destruct (i_wf _ _ _ Hh) as [[He|[t Hwf]] _].
    - destruct fuel as [|fuel]; [by unfold query_for_indices in Hq|].
      rewrite (query_empty O vis) in Hq by (auto; lia). simplify_eq. split; [constructor|].
      intros k r ?%elem_of_nil. done.
    - assert (query_for_indices O (max fuel (length (nodes s))) vis s vst = Ok (l, vst')) as Hq'.
      { eapply query_mono; [exact Hq|lia]. }
      destruct (query_tree O vis (max fuel (length (nodes s))) s t vst Hwf) as [Hv|[Hv _]]; [lia| |congruence].
      rewrite Hq' in Hv. simplify_eq.
      assert (Hl : l = (visit O vis s t vst).1) by by rewrite <- Hv. rewrite Hl. split.
      + pose proof (visit_sub O vis s t vst) as (kk & HPk)%submseteq_Permutation.
        pose proof (leaves_values_nodup s t Hwf) as Hnd. rewrite HPk in Hnd. by apply NoDup_app in Hnd as [? _].
      + intros k r Hin. destruct (visit_sound O vis s t vst k r) as (i & v & w & w' & ? & Hk & Hvis); [|done|].
        { intros i k'. apply (wf_tree_leaf _ _ i k' Hwf). }
        exists i, v, w, w'. split_and!; try done. apply (i_live _ _ _ Hh). by eapply elem_of_list_lookup_2.
  Qed.
  Theorem C08_query_returns_the_values {V R} (vis : visitor V B R) a s fuel vst l vst' :
    history O a s -> query_for_indices O fuel vis s vst = Ok (l, vst') ->
    exists l', query O fuel vis s vst = Ok l'
      /\ Forall2 (fun kr vr => (exists h, values s !! kr.1 = Some (h, vr.1)) /\ vr.2 = kr.2) l l'.
  Proof.
    intros Hh Hq. destruct (C08_query_sound _ _ _ _ _ _ _ Hh Hq) as [_ Hs].
    destruct (lookup_values_ok s l) as (l' & Hl & HF).
    { intros k r Hin. destruct (Hs k r Hin) as (h & v & w & w' & ? & _). eauto. }
    exists l'. unfold query. rewrite Hq. simpl. done.
  Qed.

  (** C09 *)
  Lemma query_indices_exact_nodes {V R} (f : B -> bool -> option R) (leq : B -> B -> Prop)
      a s rng fuel s' fuel' vst (l : list (nat * R)) vst' :
    history O a s -> legal a (Tick rng) -> unflagged a = ∅ ->
    tick O fuel rng s = Ok s' ->
    enclosure O leq -> fat_ok O a ->
    (forall h v j pj lj rj hj b', live a !! h = Some v -> is_Some (f (tv_bound O v) true) ->
       nodes s' !! j = Some (Branch pj lj rj hj b') -> leq (tv_bound O v) b' -> is_Some (f b' false)) ->
    query_for_indices O fuel' (fun (w : V) b leaf => (f b leaf, w)) s' vst = Ok (l, vst') ->
    l ≡ₚ hits O f s' (vleaves (values s')) /\ map_to_list (live a) ≡ₚ values s' /\ wf_struct s'.
  Proof.
    intros Hh%history_inv Hl Hu Ht Henc Hfat Hmono Hq.
    destruct (step_tick O a s rng Hh Hl) as (n & s1 & Hrun & Hinv & Hv & Hrn & Hup & _).
    assert (s1 = s') as ->.
    { assert (exec O fuel (Tick rng) s = Ok (s', NoOut)) as He by (simpl; by rewrite Ht).
      apply (exec_mono O _ (max n fuel)) in He; [|lia]. simpl in He. rewrite Hrun in He by lia. simpl in He. congruence. }
    clear Hrun Ht.
    assert (HPv : map_to_list (live a) ≡ₚ values s') by (rewrite Hv; by apply (inv_perm O)).
    split_and!; [|done|apply Hinv].
    pose proof (fit_of_empty_queue O _ (i_fit _ _ _ Hinv) Hrn) as Hfit.
    destruct (i_wf _ _ _ Hinv) as [[He|[t Hwf]] _].
    - assert (exists fl, fuel' = Datatypes.S fl) as [fl ->].
      { destruct fuel'; [by unfold query_for_indices in Hq|eauto]. }
      rewrite (query_empty O _) in Hq by (auto; lia). simplify_eq.
      destruct He as (_ & -> & _). done.
    - eapply (query_mono _ (max fuel' (length (nodes s')))) in Hq; [|lia].
      destruct (query_tree O (fun (w : V) b leaf => (f b leaf, w)) (max fuel' (length (nodes s'))) s' t vst Hwf) as [Hq'|[Hq' _]]; [lia| |congruence].
      rewrite Hq in Hq'. simplify_eq.
      destruct (visit_exact O leq Henc (V := V) f s' t 0 vst (wt_repr _ _ Hwf) Hfit) as [HP _].
      { intros i k. apply (wf_tree_leaf _ _ i k Hwf). }
      { intros i b v Hi Hiv. destruct (i_fat _ _ _ Hinv i b v Hi Hiv) as [?|[Hx|Hx]]; [|done| |].
        - apply (Hfat i). apply (i_live _ _ _ Hh). by rewrite <- Hv.
        - rewrite Hup in Hx. by apply elem_of_nil in Hx.
        - simpl in Hx. rewrite Hu in Hx. set_solver. }
      { intros i v j pj lj rj hj b' Hiv. apply (Hmono i). apply (i_live _ _ _ Hh). by rewrite <- Hv. }
      fold (stateless (V := V) f) in Hq'. rewrite <- Hq' in HP. simpl in HP.
      assert (HP2 : hits O f s' (leaves t) ≡ₚ hits O f s' (vleaves (values s'))).
      { unfold hits. by rewrite (wt_vals _ _ Hwf). }
      by rewrite HP2 in HP.
  Qed.
  Lemma query_indices_exact {V R} (f : B -> bool -> option R) (leq : B -> B -> Prop)
      a s rng fuel s' fuel' vst (l : list (nat * R)) vst' :
    history O a s -> legal a (Tick rng) -> unflagged a = ∅ ->
    tick O fuel rng s = Ok s' ->
    enclosure O leq -> fat_ok O a ->
    (forall h v b', live a !! h = Some v -> is_Some (f (tv_bound O v) true) -> leq (tv_bound O v) b' -> is_Some (f b' false)) ->
    query_for_indices O fuel' (fun (w : V) b leaf => (f b leaf, w)) s' vst = Ok (l, vst') ->
    l ≡ₚ hits O f s' (vleaves (values s')) /\ map_to_list (live a) ≡ₚ values s' /\ wf_struct s'.
  Proof. intros Hh Hl Hu Ht Henc Hfat Hmono. apply (query_indices_exact_nodes f leq a s rng fuel); eauto. Qed.
  (** The test need only be monotone on the bounds of the branches of the tree at hand. *)
  Theorem C09_query_exact_by_branches {V R} (f : B -> bool -> option R) (leq : B -> B -> Prop)
      a s rng fuel s' fuel' vst (l : list (T * R)) :
    history O a s -> legal a (Tick rng) -> unflagged a = ∅ ->
    tick O fuel rng s = Ok s' ->
    enclosure O leq -> fat_ok O a ->
    (forall h v j pj lj rj hj b', live a !! h = Some v -> is_Some (f (tv_bound O v) true) ->
       nodes s' !! j = Some (Branch pj lj rj hj b') -> leq (tv_bound O v) b' -> is_Some (f b' false)) ->
    query O fuel' (fun (w : V) b leaf => (f b leaf, w)) s' vst = Ok l ->
    l ≡ₚ omap (fun hv => pair hv.2 <$> f (tv_bound O hv.2) true) (map_to_list (live a)).
  Proof.
    intros Hh Hl Hu Ht He Hfat Hmono Hq.
    unfold query in Hq. apply res_bind_Ok in Hq as ([l0 vst'] & Hq & Hlv).
    destruct (query_indices_exact_nodes f leq a s rng fuel s' fuel' vst l0 vst' Hh Hl Hu Ht He Hfat Hmono Hq) as (HP & HPv & _).
    rewrite HPv. clear HPv. apply lookup_values_omap in Hlv. subst l. rewrite HP.
    destruct (lookup_values_ok s' (hits O f s' (vleaves (values s')))) as (l' & Hl' & _).
    { intros k r [ik [Hin Hk]]%elem_of_list_omap. destruct (values s' !! ik.2) eqn:E; simpl in Hk; [|done].
      destruct (f _ true); simplify_eq/=. eauto. }
    pose proof (query_hits O f s' l' Hl') as E. apply lookup_values_omap in Hl'. by rewrite <- Hl', E.
  Qed.
  Theorem C09_query_exact_after_tick {V R} (f : B -> bool -> option R) (leq : B -> B -> Prop)
      a s rng fuel s' fuel' vst (l : list (T * R)) :
    history O a s -> legal a (Tick rng) -> unflagged a = ∅ ->
    tick O fuel rng s = Ok s' ->
    enclosure O leq -> fat_ok O a ->
    (forall h v b', live a !! h = Some v -> is_Some (f (tv_bound O v) true) -> leq (tv_bound O v) b' -> is_Some (f b' false)) ->
    query O fuel' (fun (w : V) b leaf => (f b leaf, w)) s' vst = Ok l ->
    l ≡ₚ omap (fun hv => pair hv.2 <$> f (tv_bound O hv.2) true) (map_to_list (live a)).
  Proof. intros Hh Hl Hu Ht He Hfat Hmono. apply (C09_query_exact_by_branches f leq a s rng fuel s' fuel' vst l); eauto. Qed.

  (** C10 *)
  Theorem C10_query_returns_up_to_256_values {V R} (vis : visitor V B R) a s vst :
    history O a s -> length (values s) <= 256 ->
    exists n r, forall fuel, n <= fuel -> query_for_indices O fuel vis s vst = Ok r.
  Proof.
    intros Hh%history_inv Hlen. destruct (i_wf _ _ _ Hh) as [[He|[t Hwf]] _].
    - exists 1, ([], vst). intros fuel Hf. by apply query_empty.
    - exists (length (nodes s)), (visit O vis s t vst). intros fuel Hf.
      destruct (query_tree O vis fuel s t vst Hwf Hf) as [->|[_ Hg]]; [done|].
      pose proof (gheight_leaves t). pose proof (Permutation_length (wt_vals _ _ Hwf)) as H3.
      unfold vleaves in H3. rewrite imap_length in H3. lia.
  Qed.
  Theorem C10_query_returns_up_to_height_256 {V R} (vis : visitor V B R) a s rng fuel0 s' h vst :
    history O a s -> do_refit O fuel0 rng s = Ok s' -> dbvt_height s' = Ok h -> h <= 256 ->
    exists n r, forall fuel, n <= fuel -> query_for_indices O fuel vis s' vst = Ok r.
  Proof.
    intros Hh%history_inv Hr Hht Hle. destruct (step_refit O a s rng Hh) as (n & s1 & Hrun & Hinv & Hv & Hq & _).
    pose proof (do_refit_mono O _ (max n fuel0) _ _ _ Hr ltac:(lia)) as Hr'.
    rewrite Hrun in Hr' by lia. simplify_eq.
    pose proof (fit_of_empty_queue O _ (i_fit _ _ _ Hinv) Hq) as Hfit.
    destruct (i_wf _ _ _ Hinv) as [[He|[t Hwf]] _].
    - exists 1, ([], vst). intros fuel Hf. by apply query_empty.
    - rewrite (wf_tree_height O s' t Hwf Hfit) in Hht. simplify_eq.
      exists (length (nodes s')), (visit O vis s' t vst). intros fuel Hf.
      destruct (query_tree O vis fuel s' t vst Hwf Hf) as [->|[_ Hg]]; [done|lia].
  Qed.

  (** C15 *)
  Theorem C15_reorder_invisible a s f fuel s' out :
    history O a s -> (forall l, f l ≡ₚ l) -> exec O fuel (Reorder f) s = Ok (s', out) ->
    history O a s' /\ values s' = f (values s)
    /\ forall h v, live a !! h = Some v ->
         exists k, value_index s' h = Ok (Some k) /\ f (values s) !! k = Some (h, v).
  Proof.
    intros Hh Hf He. assert (Hh' : history O a s').
    { change a with (anext a (Reorder f) out). by eapply history_step. }
    split; [done|]. pose proof (history_inv _ _ _ Hh) as Hi.
    destruct (step_reorder O a s f Hi Hf) as (s1 & Hr & _ & Hv). simpl in He. rewrite Hr in He. simpl in He. simplify_eq.
    split; [done|]. rewrite <- Hv. apply C01_values_are_the_live_map. done.
  Qed.

  (** C16 *)
  Theorem C16_stale_handles a s h v :
    history O a s -> h ∈ issued a -> live a !! h = None ->
    remove s h = Ok (s, None) /\ value_index s h = Ok None
    /\ update_node s h v = Ok (flag_updated s h)
    /\ values (flag_updated s h) = values s /\ nodes (flag_updated s h) = nodes s.
  Proof.
    intros Hh%history_inv Hi Hl. pose proof (i_issued _ _ _ Hh h Hi) as Hlt.
    pose proof (proj1 (live_none O a s h Hh) Hl) as Hn. split_and!; try done.
    - apply remove_stale; [apply Hh|done..].
    - destruct (value_index_spec s h (proj1 (i_wf _ _ _ Hh)) Hlt) as (o & Ho & Hiff). rewrite Ho. f_equal.
      destruct o as [k|]; [|done]. destruct (proj1 (Hiff k) eq_refl) as [w Hw]. destruct Hn.
      apply elem_of_list_fmap. exists (h, w). split; [done|]. by eapply elem_of_list_lookup_2.
    - rewrite update_node_spec by (auto; apply Hh). by rewrite decide_False.
  Qed.
  Theorem C16_stale_handles_after_clear_panic a s h v :
    history O a s -> h ∈ issued a ->
    remove (dbvt_clear s) h = Panic /\ value_index (dbvt_clear s) h = Panic
    /\ update_node (dbvt_clear s) h v = Panic.
  Proof.
    intros Hh%history_inv Hi. destruct h as [|h]; [by destruct (proj1 (i_nz _ _ _ Hh))|]. done.
  Qed.
End props.
