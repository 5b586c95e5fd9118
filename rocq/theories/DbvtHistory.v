(** The invariant of all histories, and its consequences. *)
From stdpp Require Import prelude gmap fin_maps fin_sets sorting.
From Verif Require Import Res DbvtModel DbvtGhost DbvtInv DbvtInsert DbvtRemove DbvtRotate DbvtRefit DbvtUpdate DbvtQuery DbvtSpec.

Section hist.
  Context {T B S : Type} (O : dbvt_ops T B S).
  Implicit Types (s : dbvt T B) (a : astate T).

  Record inv a s : Prop := Inv {
    i_wf : wf s;
    i_fit : fitq O s;
    i_live : forall h v, live a !! h = Some v <-> (h, v) ∈ values s;
    i_pend : forall h, h ∈ pending a <-> h ∈ updated_list s;
    i_issued : forall h, h ∈ issued a -> h < length (nodes s);
    i_liveiss : forall h, is_Some (live a !! h) -> h ∈ issued a;
    i_nz : 0 ∉ issued a /\ 0 ∉ pending a;
    i_fat : fatx O s (fun h => h ∈ unflagged a);
  }.

  Lemma inv_new : inv astart dbvt_new.
  Proof.
    split.
    - apply wf_new.
    - apply fitq_new.
    - intros h v. simpl. rewrite lookup_empty, elem_of_nil. done.
    - intros h. simpl. set_solver.
    - intros h. simpl. set_solver.
    - intros h. simpl. rewrite lookup_empty. by intros [].
    - simpl. set_solver.
    - intros i b v. simpl. by intros _ ?%elem_of_nil.
  Qed.

  Lemma inv_perm a s : inv a s -> map_to_list (live a) ≡ₚ values s.
  Proof.
    intros []. apply NoDup_Permutation.
    - apply NoDup_map_to_list.
    - eapply NoDup_fmap_1. apply wf_handles_nodup, i_wf0.
    - intros [h v]. by rewrite elem_of_map_to_list.
  Qed.

  Lemma live_none a s h : inv a s -> live a !! h = None <-> h ∉ (values s).*1.
  Proof.
    intros []. rewrite eq_None_not_Some. f_equiv. rewrite elem_of_list_fmap. split.
    - intros [v Hv]. apply i_live0 in Hv. by exists (h, v).
    - intros ([h' v] & -> & Hv). apply i_live0 in Hv. eauto.
  Qed.

  Lemma flags_of_inv a s : inv a s -> pending a ⊆ issued a -> flags_ok s.
  Proof. intros [] H i Hi. apply i_issued0, H, i_pend0, Hi. Qed.

  (** Progress and preservation. *)
  Lemma step_insert a s v : inv a s ->
    exists s' h, insert O s v = Ok (s', h) /\ live a !! h = None /\ inv (anext a (Insert v) (Handle h)) s'.
  Proof.
    intros Hinv. destruct (insert_spec O s v (i_wf _ _ Hinv)) as (s' & h & Hrun & Hwf & Hfit & Hv & Hh & Hh0 & Hu & Hlen & Hlb).
    exists s', h. pose proof (proj2 (live_none a s h Hinv) Hh) as Hn.
    split_and!; [done|done|]. destruct Hinv. split; simpl; auto.
    - intros h' v'. rewrite Hv, elem_of_app, elem_of_list_singleton. rewrite lookup_insert_Some.
      rewrite i_live0. split.
      + intros [[-> ->]|[? ?]]; auto.
      + intros [Hin|[= -> ->]]; auto. destruct (decide (h = h')) as [->|]; auto.
        apply i_live0 in Hin. congruence.
    - intros h'. by rewrite Hu.
    - intros h' [->%elem_of_singleton|Hi%i_issued0]%elem_of_union; [|lia].
      apply live_lt; [apply Hwf|]. rewrite Hv, fmap_app. set_solver.
    - intros h' [w Hw]. apply lookup_insert_Some in Hw as [[-> ->]|[? Hw]]; [set_solver|].
      apply elem_of_union_r. eauto.
    - destruct i_nz0. set_solver.
    - intros i b w Hi Hiw Hlaw. rewrite Hv in Hiw. rewrite Hu.
      apply elem_of_app in Hiw as [Hiw|Hiw].
      + destruct (Hlb _ _ Hi) as [[-> ->]|Hi'].
        { destruct Hh. apply elem_of_list_fmap. by exists (h, w). }
        destruct (i_fat0 i b w Hi' Hiw Hlaw) as [?|[?|?]]; auto. right; right.
        apply elem_of_difference. split; [done|]. apply not_elem_of_singleton. intros ->.
        destruct Hh. apply elem_of_list_fmap. by exists (h, w).
      + apply elem_of_list_singleton in Hiw. simplify_eq.
        destruct (Hlb _ _ Hi) as [[_ ->]|Hi']; [by left|].
        apply lb_leaf in Hi' as (p & k & Hi'). destruct Hh. apply is_live_leaf; [apply i_wf0|eauto].
  Qed.

  Lemma remove_stale s i : wf s -> i < length (nodes s) -> i ∉ (values s).*1 -> remove s i = Ok (s, None).
  Proof.
    intros [Hwf _] Hi Hn. unfold remove. destruct (lookup_lt_is_Some_2 _ _ Hi) as [n Hl].
    rewrite (get_Some _ _ _ Hl). cbn [mbind res_mbind res_bind]. destruct n; try done.
    destruct Hn. apply (is_live_leaf s i Hwf). eauto.
  Qed.

  Lemma step_remove a s h : inv a s -> h ∈ issued a ->
    exists s', remove s h = Ok (s', live a !! h) /\ inv (anext a (Remove h) (Removed (live a !! h))) s'.
  Proof.
    intros Hinv Hiss. pose proof (i_issued _ _ Hinv h Hiss) as Hlt.
    destruct (live a !! h) as [v|] eqn:Hlive.
    - assert ((h, v) ∈ values s) as Hin by by apply (i_live _ _ Hinv).
      assert (h ∈ (values s).*1) as Hin1 by (apply elem_of_list_fmap; by exists (h, v)).
      apply (is_live_leaf s h (proj1 (i_wf _ _ Hinv))) in Hin1 as (p & k & b & Hn).
      destruct (remove_spec O s h p k b (i_wf _ _ Hinv) Hn) as (s' & v' & Hrun & Hwf & Hfit & HP & Hu & Hcase & Hlb).
      assert ((h, v') ∈ values s) as Hin' by (rewrite HP; left).
      assert (v' = v) as -> by (eapply values_fun; eauto; apply Hinv).
      exists s'. split; [done|].
      assert (Hnd : NoDup (values s).*1) by (apply wf_handles_nodup; apply Hinv).
      rewrite HP in Hnd. simpl in Hnd. apply NoDup_cons in Hnd as [Hh Hnd].
      assert (Hl' : forall h' w, delete h (live a) !! h' = Some w <-> (h', w) ∈ values s').
      { intros h' w. rewrite lookup_delete_Some, (i_live _ _ Hinv), HP, elem_of_cons. split.
        - intros [? [|?]]; [congruence|done].
        - intros Hw. split; [|by right]. intros ->. apply Hh. apply elem_of_list_fmap. by exists (h', w). }
      assert (Hemp : delete h (live a) = ∅ <-> values s' = []).
      { split.
        - intros He. destruct (values s') as [|[h' w] vs]; [done|].
          assert (delete h (live a) !! h' = Some w) as Hx by (apply Hl'; left). by rewrite He in Hx.
        - intros He. apply map_eq. intros h'. rewrite lookup_empty.
          destruct (delete h (live a) !! h') as [w|] eqn:Hx; [|done]. apply Hl' in Hx. rewrite He in Hx. by apply elem_of_nil in Hx. }
      destruct Hinv. split; simpl; auto.
      + intros h'. by rewrite Hu.
      + intros h'. case_decide as Hd; [set_solver|]. intros Hi.
        destruct Hcase as [[Hv _]|[_ Hlen]]; [|rewrite Hlen; auto].
        destruct Hd. split; [by apply Hemp|]. rewrite Hlive. eauto.
      + intros h' [w Hw]. case_decide as Hd.
        * destruct Hd as [Hd _]. by rewrite Hd in Hw.
        * apply lookup_delete_Some in Hw as [_ Hw]. apply i_liveiss0. eauto.
      + destruct i_nz0. split; [case_decide; set_solver|done].
      + intros i b' w Hi Hiw Hlaw. apply Hlb in Hi.
        rewrite Hu. assert (i <> h). { intros ->. apply Hh. apply elem_of_list_fmap. by exists (h, w). }
        destruct (i_fat0 i b' w Hi) as [?|[?|?]]; auto.
        * rewrite HP. by right.
        * right; right. set_solver.
    - pose proof (proj1 (live_none a s h Hinv) Hlive) as Hnl.
      exists s. split; [apply remove_stale; [apply Hinv|done|done]|].
      assert (Hdel : delete h (live a) = live a) by by apply delete_notin.
      destruct Hinv. split; simpl; auto.
      + intros h' w. by rewrite Hdel.
      + intros h'. rewrite decide_False; [auto|]. intros [_ [w Hw]]. congruence.
      + intros h' Hw. rewrite Hdel in Hw. rewrite decide_False; [auto|]. intros [_ [w' Hw']]. congruence.
      + destruct i_nz0. split; [case_decide; set_solver|done].
      + intros i b w Hi Hiw Hlaw. destruct (i_fat0 i b w Hi Hiw Hlaw) as [?|[?|?]]; auto.
        right; right. apply elem_of_difference. split; [done|]. apply not_elem_of_singleton. intros ->.
        apply Hnl. apply elem_of_list_fmap. by exists (h, w).
  Qed.

  Lemma live_write a s h v :
    inv a s -> forall h' w, alter (fun _ => v) h (live a) !! h' = Some w <-> (h', w) ∈ values (write_value s h v).
  Proof.
    intros [] h' w. rewrite elem_of_write, lookup_alter_Some. split.
    - intros [(-> & w0 & Hw0 & ->)|[? ?]]; [right|left].
      + split_and!; try done. exists w0. by apply i_live0.
      + split; [done|]. by apply i_live0.
    - intros [[? Hin]|(-> & -> & w0 & Hin)]; [right|left].
      + split; [done|]. by apply i_live0.
      + split; [done|]. exists w0. split; [|done]. by apply i_live0.
  Qed.
  Lemma alter_not_live a h v : live a !! h = None -> alter (fun _ => v) h (live a) = live a.
  Proof.
    intros Hn. apply map_eq. intros h'. destruct (decide (h' = h)) as [->|].
    - by rewrite lookup_alter, Hn.
    - by rewrite lookup_alter_ne.
  Qed.

  Lemma inv_flag a s h : inv a s -> h <> 0 ->
    inv (AState (live a) (issued a) ({[h]} ∪ pending a) (unflagged a ∖ {[h]})) (flag_updated s h).
  Proof.
    intros [] Hnz. split; simpl; auto.
    - by apply wf_updated.
    - intros h'. rewrite elem_of_app, elem_of_list_singleton, elem_of_union, elem_of_singleton, i_pend0. tauto.
    - destruct i_nz0. set_solver.
    - intros i b v Hi Hv Hlaw. simpl in *. rewrite elem_of_app, elem_of_list_singleton, elem_of_difference, elem_of_singleton.
      destruct (i_fat0 i b v Hi Hv Hlaw) as [?|[?|?]]; auto. destruct (decide (i = h)); auto.
  Qed.

  Lemma inv_write a s h v : inv a s ->
    inv (AState (alter (fun _ => v) h (live a)) (issued a) (pending a) (unflagged a ∪ ({[h]} ∖ pending a))) (write_value s h v).
  Proof.
    intros Hinv. pose proof (live_write a s h v Hinv) as Hlive. destruct Hinv. split; simpl; auto.
    - by apply write_value_wf.
    - intros h' [w [(-> & w0 & Hw0 & ->)|[? Hw]]%lookup_alter_Some]; eauto.
    - intros i b w Hi Hiw Hlaw. apply elem_of_write in Hiw. simpl in Hi. simpl updated_list.
      destruct Hiw as [[Hne Hin]|(-> & -> & w0 & Hin)].
      + destruct (i_fat0 i b w Hi Hin Hlaw) as [?|[?|?]]; auto. right; right. set_solver.
      + destruct (decide (h ∈ pending a)) as [Hp|Hp]; [right; left; by apply i_pend0|].
        right; right. set_solver.
  Qed.

  Lemma step_update_node a s h v : inv a s -> h ∈ issued a ->
    exists s', update_node s h v = Ok s' /\ inv (anext a (UpdateNode h v) NoOut) s'.
  Proof.
    intros Hinv Hiss. pose proof (i_issued _ _ Hinv h Hiss) as Hlt.
    assert (Hnz : h <> 0). { intros ->. by apply (proj1 (i_nz _ _ Hinv)). }
    rewrite update_node_spec; [|apply Hinv|done]. eexists. split; [done|]. case_decide as Hl.
    - pose proof (inv_flag _ _ h (inv_write a s h v Hinv) Hnz) as HI. simpl in HI.
      destruct HI. split; simpl in *; auto.
      intros i b w Hi Hw Hlaw. destruct (i_fat0 i b w Hi Hw Hlaw) as [?|[?|?]]; auto.
      right; right. set_solver.
    - apply (live_none a s h Hinv) in Hl. simpl. rewrite alter_not_live by done. by apply inv_flag.
  Qed.

  Lemma step_reorder a s f : inv a s -> (forall l, f l ≡ₚ l) ->
    exists s', reindex_values (with_values s (f (values s))) = Ok s' /\ inv a s' /\ values s' = f (values s).
  Proof.
    intros [] Hf. destruct (reindex_spec O s (f (values s)) i_wf0 (Hf _)) as (s' & Hrun & Hwf & Hv & Hu & Hlen & Hlb & Hfit).
    exists s'. split_and!; [done| |done]. split; auto.
    - intros h v. by rewrite Hv, Hf.
    - intros h. by rewrite Hu.
    - intros h. rewrite Hlen. auto.
    - intros i b v Hi Hv' Hlaw. rewrite Hlb in Hi. rewrite Hv, Hf in Hv'. rewrite Hu. by apply i_fat0.
  Qed.

  Lemma step_update a s : inv a s -> pending a ⊆ issued a ->
    exists s', update O s = Ok s' /\ inv (anext a Update NoOut) s' /\ values s' = values s
      /\ length (nodes s') = length (nodes s) /\ updated_list s' = [].
  Proof.
    intros Hinv Hp. pose proof (flags_of_inv _ _ Hinv Hp) as Hfl. destruct Hinv.
    destruct (update_spec O s i_wf0 Hfl) as (s' & Hrun & Hwf & Hsh & Hlen & Hv & Hu & Hfit & Hfat).
    exists s'. split_and!; try done. split; simpl; auto.
    - intros h v. by rewrite Hv.
    - intros h. rewrite Hu. set_solver.
    - intros h. rewrite Hlen. auto.
    - destruct i_nz0. set_solver.
  Qed.

  Lemma inv_maint a s s' : inv a s -> wf s' -> fitq O s' -> maint s s' -> inv a s'.
  Proof.
    intros [] Hwf Hfit []. split; auto.
    - intros h v. by rewrite m_values.
    - intros h. by rewrite m_upd.
    - intros h. rewrite m_len. auto.
    - intros i b v Hi Hv Hlaw. rewrite m_lb in Hi. rewrite m_values in Hv. rewrite m_upd. by apply i_fat0.
  Qed.

  Lemma step_refit a s rng : inv a s ->
    exists n s', (forall fuel, n <= fuel -> do_refit O fuel rng s = Ok s')
      /\ inv a s' /\ values s' = values s /\ refit_nodes s' = [] /\ updated_list s' = updated_list s
      /\ length (nodes s') = length (nodes s).
  Proof.
    intros Hinv. destruct (do_refit_spec O s rng (i_wf _ _ Hinv)) as (n & s' & Hrun & Hwf & Hq & Hm & Hfit).
    exists n, s'. split_and!; try done.
    - eapply inv_maint; eauto. apply Hfit, Hinv.
    - apply Hm.
    - apply Hm.
    - apply Hm.
  Qed.

  Lemma step_tick a s rng : inv a s -> pending a ⊆ issued a ->
    exists n s', (forall fuel, n <= fuel -> tick O fuel rng s = Ok s')
      /\ inv (anext a (Tick rng) NoOut) s' /\ values s' = values s /\ refit_nodes s' = [] /\ updated_list s' = []
      /\ length (nodes s') = length (nodes s).
  Proof.
    intros Hinv Hp. destruct (step_update a s Hinv Hp) as (s1 & Hu & Hinv1 & Hv & Hlen & Hul).
    destruct (step_refit _ s1 rng Hinv1) as (n & s' & Hrun & Hinv' & Hv' & Hq & Hul' & Hlen').
    exists n, s'. split_and!; try done.
    - intros fuel Hf. unfold tick. rewrite Hu. cbn [mbind res_mbind res_bind]. auto.
    - congruence.
    - congruence.
    - congruence.
  Qed.

  Lemma step_clear a s : inv a s -> inv (anext a Clear NoOut) (dbvt_clear s).
  Proof.
    intros []. split; simpl; auto.
    - apply wf_clear.
    - apply fitq_clear.
    - intros h v. rewrite lookup_empty, elem_of_nil. done.
    - set_solver.
    - intros h. rewrite lookup_empty. by intros [].
    - destruct i_nz0. set_solver.
    - intros i b v. simpl. by intros _ ?%elem_of_nil.
  Qed.

  Lemma step_exec a s o : inv a s -> legal a o ->
    exists n s' out, (forall fuel, n <= fuel -> exec O fuel o s = Ok (s', out))
      /\ expected a o out /\ inv (anext a o out) s'.
  Proof.
    intros Hinv Hl. destruct o as [v|h|h v|h|h v|f| |rng|rng|]; simpl in Hl |- *.
    - destruct (step_insert a s v Hinv) as (s' & h & -> & ? & ?). exists 0, s', (Handle h). eauto.
    - destruct (step_remove a s h Hinv Hl) as (s' & -> & ?). exists 0, s', (Removed (live a !! h)). eauto.
    - destruct (step_update_node a s h v Hinv Hl) as (s' & -> & ?). exists 0, s', NoOut. eauto.
    - exists 0, (flag_updated s h), NoOut. split_and!; auto. apply inv_flag; [done|].
      intros ->. by apply (proj1 (i_nz _ _ Hinv)).
    - exists 0, (write_value s h v), NoOut. split_and!; auto. by apply inv_write.
    - destruct (step_reorder a s f Hinv Hl) as (s' & -> & ? & ?). exists 0, s', NoOut. eauto.
    - destruct (step_update a s Hinv Hl) as (s' & -> & ? & ? & ? & ?). exists 0, s', NoOut. eauto.
    - destruct (step_refit a s rng Hinv) as (n & s' & Hrun & ? & ? & ? & ?). exists n, s', NoOut. split_and!; auto.
      intros fuel Hf. by rewrite Hrun.
    - destruct (step_tick a s rng Hinv Hl) as (n & s' & Hrun & ? & ? & ? & ?). exists n, s', NoOut. split_and!; auto.
      intros fuel Hf. by rewrite Hrun.
    - exists 0, (dbvt_clear s), NoOut. split_and!; auto. by apply (step_clear a).
  Qed.

  (** More fuel does not change an answer. *)
  Lemma do_refit_mono fuel fuel' rng s s' :
    do_refit O fuel rng s = Ok s' -> fuel <= fuel' -> do_refit O fuel' rng s = Ok s'.
  Proof.
    revert fuel' rng s. induction fuel as [|fuel IH]; intros fuel' rng s; simpl.
    - destruct (refit_nodes s) as [|[h i] q] eqn:Hq; [|done]. intros [= ->] _. destruct fuel'; simpl; by rewrite Hq.
    - destruct fuel' as [|fuel']; [lia|]. simpl. destruct (refit_nodes s) as [|[h i] q] eqn:Hq; [done|].
      intros (s1 & Hs & Hr)%res_bind_Ok Hle. rewrite Hs. cbn [mbind res_mbind res_bind]. apply IH; [done|lia].
  Qed.
  Lemma exec_mono fuel fuel' o s r :
    exec O fuel o s = Ok r -> fuel <= fuel' -> exec O fuel' o s = Ok r.
  Proof.
    destruct o; simpl; try done.
    - intros (s1 & Hs & Hr)%res_bind_Ok Hle. by rewrite (do_refit_mono _ _ _ _ _ Hs Hle).
    - unfold tick. intros (s1 & (s2 & Hs2 & Hs)%res_bind_Ok & Hr)%res_bind_Ok Hle.
      rewrite Hs2. cbn [mbind res_mbind res_bind]. by rewrite (do_refit_mono _ _ _ _ _ Hs Hle).
  Qed.

  Lemma step_inv a s o fuel s' out :
    inv a s -> legal a o -> exec O fuel o s = Ok (s', out) -> expected a o out /\ inv (anext a o out) s'.
  Proof.
    intros Hinv Hl He. destruct (step_exec a s o Hinv Hl) as (n & s1 & out1 & Hrun & Hexp & Hinv1).
    pose proof (exec_mono _ (max n fuel) _ _ _ He ltac:(lia)) as He'.
    rewrite Hrun in He' by lia. by simplify_eq.
  Qed.

  Lemma history_inv a s : history O a s -> inv a s.
  Proof.
    induction 1 as [|a s o fuel s' out Hh IH Hl He]; [apply inv_new|]. by eapply step_inv.
  Qed.

  Lemma exact_of_fit s t p :
    repr (sh (nodes s)) p t -> fitx O (nodes s) (fun _ => False) ->
    (forall i k, (i, k) ∈ leaves t -> exists v, values s !! k = Some (i, v)) ->
    exists b, bh (nodes s) (idx t) = Some (gheight t, b) /\ exact_tree O s p (idx t) (gheight t) b (leaves t).*1.
  Proof.
    intros Hr Hfit. revert p Hr. induction t as [i k|i l IHl r IHr]; intros p Hr Hv; simpl in Hr.
    - apply sh_leaf in Hr as [b Hn]. exists b. simpl. split; [by rewrite (bh_lookup _ _ _ Hn)|].
      destruct (Hv i k ltac:(left)) as [v Hk]. by econstructor.
    - destruct Hr as (Hi & Hl & Hr). apply sh_branch in Hi as (h & b & Hn).
      destruct (IHl _ Hl ltac:(intros; apply Hv; simpl; set_solver)) as (bl & Hbl & Hel).
      destruct (IHr _ Hr ltac:(intros; apply Hv; simpl; set_solver)) as (br & Hbr & Her).
      destruct (Hfit _ _ _ _ _ _ Hn) as [[]|(hl & bl' & hr & br' & E1 & E2 & -> & ->)].
      rewrite Hbl in E1. rewrite Hbr in E2. simplify_eq.
      eexists. simpl. rewrite (bh_lookup _ _ _ Hn). split; [done|]. rewrite fmap_app. by econstructor.
  Qed.

  Lemma fit_of_empty_queue s : fitq O s -> refit_nodes s = [] -> fitx O (nodes s) (fun _ => False).
  Proof.
    intros Hf Hq i p l r h b Hi. destruct (Hf _ _ _ _ _ _ Hi) as [Hin|?]; [|by right].
    rewrite Hq in Hin. by apply elem_of_nil in Hin.
  Qed.

  Lemma vleaves_fst (vs : list (nat * T)) : (vleaves vs).*1 = vs.*1.
  Proof.
    unfold vleaves. apply list_eq. intros i. rewrite !list_lookup_fmap, list_lookup_imap.
    by destruct (vs !! i).
  Qed.
  Lemma omap_vleaves {A} (g : nat * T -> option A) (vs : list (nat * T)) :
    omap (fun ik => vs !! ik.2 ≫= g) (vleaves vs) = omap g vs.
  Proof.
    unfold vleaves.
    assert (forall us n, (forall k, us !! k = vs !! (n + k)) ->
      omap (fun ik : nat * nat => vs !! ik.2 ≫= g) (imap (fun k p => (p.1, n + k)) us) = omap g us) as HH.
    { induction us as [|u us IH]; intros n Hn; [done|].
      rewrite imap_cons. cbn [omap list_omap]. simpl.
      pose proof (Hn 0) as H0. simpl in H0. rewrite Nat.add_0_r in *. rewrite <- H0. simpl.
      rewrite (imap_ext _ (fun k p => (p.1, Datatypes.S n + k))).
      - rewrite IH; [done|]. intros k. specialize (Hn (Datatypes.S k)). simpl in Hn. rewrite Hn. f_equal. lia.
      - intros k x _. simpl. f_equal. lia. }
    apply (HH vs 0). done.
  Qed.
  Lemma lookup_values_omap {R} s (l : list (nat * R)) l' :
    lookup_values s l = Ok l' -> l' = omap (fun kr => (fun x => (x.2, kr.2)) <$> values s !! kr.1) l.
  Proof.
    revert l'. induction l as [|[k r] l IH]; intros l'; simpl; [by intros [= <-]|].
    intros ([i v] & Hk%get_Ok & (tl & Htl & [= <-])%res_bind_Ok)%res_bind_Ok.
    rewrite Hk. simpl. f_equal. by apply IH.
  Qed.
  Lemma omap_omap {A B' C} (f : A -> option B') (g : B' -> option C) (l : list A) :
    omap g (omap f l) = omap (fun x => f x ≫= g) l.
  Proof.
    induction l as [|x l IH]; [done|]. cbn [omap list_omap]. destruct (f x) as [y|] eqn:E; simpl in *; [|exact IH].
    destruct (g y); simpl; [f_equal|]; exact IH.
  Qed.
  Lemma query_hits {R} (f : B -> bool -> option R) s l :
    lookup_values s (hits O f s (vleaves (values s))) = Ok l ->
    l = omap (fun x => pair x.2 <$> f (tv_bound O x.2) true) (values s).
  Proof.
    intros ->%lookup_values_omap. unfold hits. rewrite omap_omap.
    rewrite <- (omap_vleaves (fun x => pair x.2 <$> f (tv_bound O x.2) true)).
    apply list_omap_ext. apply Forall_Forall2_diag, Forall_forall. intros [i k] _. simpl.
    destruct (values s !! k) as [[j v]|] eqn:Hk; simpl; [|done].
    destruct (f (tv_bound O v) true); simpl; [|done]. by rewrite Hk.
  Qed.
End hist.
