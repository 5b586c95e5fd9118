(** [query_for_indices] and [query]. *)
From stdpp Require Import prelude sorting.
From Verif Require Import Res DbvtModel DbvtGhost DbvtInv DbvtRotate DbvtRefit DbvtUpdate DbvtSpec.

Lemma gheight_leaves t : gheight t <= length (leaves t).
Proof. induction t as [|i l IHl r IHr]; simpl; [lia|]. rewrite app_length. pose proof (length_idxs l). pose proof (length_idxs r). lia. Qed.
Lemma gheight_pos t : 0 < gheight t.
Proof. destruct t; simpl; lia. Qed.

Section query.
  Context {T B S : Type} (O : dbvt_ops T B S).
  Implicit Types (s : dbvt T B) (ns : list (node B)) (t u : gtree).

  Section vis.
    Context {V R : Type} (vis : visitor V B R).

    (** Right-first depth-first traversal. *)
    Fixpoint visit s t (vst : V) : list (nat * R) * V :=
      match t with
      | GLeaf i k =>
          match values s !! k with
          | Some v => let '(o, vst') := vis vst (tv_bound O v.2) true in
                      (match o with Some r => [(k, r)] | None => [] end, vst')
          | None => ([], vst)
          end
      | GBranch i l r =>
          match nodes s !! i with
          | Some (Branch _ _ _ _ b) =>
              let '(o, v0) := vis vst b false in
              match o with
              | Some _ => let '(a1, v1) := visit s r v0 in
                          let '(a2, v2) := visit s l v1 in (a1 ++ a2, v2)
              | None => ([], v0)
              end
          | _ => ([], vst)
          end
      end.
    Fixpoint visits s ts vst : list (nat * R) * V :=
      match ts with
      | [] => ([], vst)
      | t :: ts => let '(a1, v1) := visit s t vst in
                   let '(a2, v2) := visits s ts v1 in (a1 ++ a2, v2)
      end.
    Fixpoint total (ts : list gtree) : nat :=
      match ts with [] => 0 | t :: ts => length (idxs t) + total ts end.
    Fixpoint safe (ts : list gtree) : Prop :=
      match ts with
      | [] => True
      | t :: ts => gheight t + length ts <= 256 /\ safe ts
      end.

    Lemma query_loop_visits fuel s ts vst acc :
      Forall (fun t => exists p, repr (sh (nodes s)) p t) ts ->
      Forall (fun t => forall i k, (i, k) ∈ leaves t -> exists v, values s !! k = Some (i, v)) ts ->
      total ts <= fuel ->
      query_loop O fuel vis s (idx <$> ts) vst acc = Ok (acc ++ (visits s ts vst).1, (visits s ts vst).2)
      \/ (query_loop O fuel vis s (idx <$> ts) vst acc = Panic /\ ~ safe ts).
    Proof.
      revert ts vst acc. induction fuel as [|fuel IH]; intros ts vst acc Hr Hv Hf.
      - destruct ts as [|t ts]; simpl; [left; by rewrite app_nil_r|].
        simpl in Hf. pose proof (length_idxs t). lia.
      - destruct ts as [|t ts]; [left; simpl; by rewrite app_nil_r|].
        apply Forall_cons in Hr as [[p Hr] Hrs]. apply Forall_cons in Hv as [Hv Hvs].
        cbn [fmap list_fmap query_loop].
        destruct t as [i k|i l r]; simpl in Hr.
        + apply sh_leaf in Hr as [b Hn]. cbn [idx]. rewrite (get_Some _ _ _ Hn). cbn [mbind res_mbind res_bind].
          destruct (Hv i k ltac:(left)) as [v Hk].
          rewrite (get_Some _ _ _ Hk). cbn [mbind res_mbind res_bind visits visit]. rewrite Hk. simpl snd.
          destruct (vis vst (tv_bound O v) true) as [o v0] eqn:Hvis.
          simpl in Hf.
          destruct (IH ts v0 (match o with Some r => acc ++ [(k, r)] | None => acc end) Hrs Hvs ltac:(simpl; lia)) as [->|[-> Hs]].
          * left. destruct (visits s ts v0) as [a2 v2]. simpl. destruct o; simpl; by rewrite <- ?app_assoc.
          * right. split; [done|]. simpl. tauto.
        + destruct Hr as (Hi & Hl & Hr). apply sh_branch in Hi as (h & b & Hn).
          cbn [idx]. rewrite (get_Some _ _ _ Hn). cbn [mbind res_mbind res_bind visits visit]. rewrite Hn.
          destruct (vis vst b false) as [o v0] eqn:Hvis.
          simpl in Hf. rewrite app_length in Hf.
          destruct o as [x|].
          2:{ destruct (IH ts v0 acc Hrs Hvs ltac:(simpl; lia)) as [->|[-> Hs]].
              * left. by destruct (visits s ts v0) as [a2 v2].
              * right. split; [done|]. simpl. tauto. }
          rewrite fmap_length. pose proof (gheight_pos l). pose proof (gheight_pos r).
          case_decide as Hst.
          2:{ right. split; [done|]. unfold STACK in Hst. simpl. lia. }
          destruct (IH (r :: l :: ts) v0 acc) as [HI|[HI Hs]].
          * repeat (apply Forall_cons; split); eauto.
          * repeat (apply Forall_cons; split); auto; intros; apply Hv; simpl; set_solver.
          * simpl. lia.
          * left. rewrite !fmap_cons in HI. rewrite HI. cbn [visits].
            destruct (visit s r v0) as [a1 v1]. destruct (visit s l v1) as [a2 v2].
            destruct (visits s ts v2) as [a3 v3]. simpl. by rewrite !app_assoc.
          * right. split; [done|]. intros [Hs1 Hs2]. apply Hs. simpl in *. split_and!; try lia. done.
    Qed.

    Lemma query_tree fuel s t vst :
      wf_tree s t -> length (nodes s) <= fuel ->
      query_for_indices O fuel vis s vst = Ok (visit s t vst)
      \/ (query_for_indices O fuel vis s vst = Panic /\ 256 < gheight t).
    Proof.
      intros Hwf Hf. unfold query_for_indices. rewrite (wt_root _ _ Hwf).
      destruct (query_loop_visits fuel s [t] vst []) as [HI|[HI Hs]].
      - constructor; [|constructor]. exists 0. apply Hwf.
      - constructor; [|constructor]. intros i k. apply (wf_tree_leaf _ _ i k Hwf).
      - simpl. destruct Hwf as [_ _ _ (_ & HP & _) _]. apply Permutation_length in HP.
        rewrite app_length, seq_length in HP. lia.
      - left. simpl in HI. rewrite HI. destruct (visit s t vst) as [a v]. simpl. by rewrite app_nil_r.
      - right. split; [done|]. simpl in Hs. lia.
    Qed.
    Lemma query_empty fuel s vst :
      wf_empty s -> 0 < fuel -> query_for_indices O fuel vis s vst = Ok ([], vst).
    Proof.
      intros (Hn & _ & _ & Hr) Hf. unfold query_for_indices. rewrite Hr.
      destruct fuel; [lia|]. simpl. rewrite Hn. simpl. by destruct fuel.
    Qed.

    (** Soundness, for any visitor. *)
    Lemma visit_sound s t vst k r :
      (forall i k, (i, k) ∈ leaves t -> exists v, values s !! k = Some (i, v)) ->
      (k, r) ∈ (visit s t vst).1 ->
      exists i v vst' vst'', (i, k) ∈ leaves t /\ values s !! k = Some (i, v)
        /\ vis vst' (tv_bound O v) true = (Some r, vst'').
    Proof.
      revert vst. induction t as [i k'|i l IHl r' IHr]; intros vst Hv; simpl.
      - destruct (Hv i k' ltac:(left)) as [v Hk]. rewrite Hk. simpl.
        destruct (vis vst (tv_bound O v) true) as [[x|] v0] eqn:Hvis; simpl; [|by intros ?%elem_of_nil].
        intros [= -> ->]%elem_of_list_singleton. exists i, v, vst, v0. split_and!; try done. left.
      - destruct (nodes s !! i) as [[? ? ? ? b|? ? ?|]|]; simpl; try by intros ?%elem_of_nil.
        destruct (vis vst b false) as [[x|] v0]; simpl; [|by intros ?%elem_of_nil].
        destruct (visit s r' v0) as [a1 v1] eqn:H1. destruct (visit s l v1) as [a2 v2] eqn:H2. simpl.
        intros [Hin|Hin]%elem_of_app.
        + destruct (IHr v0) as (i' & v & w & w' & ? & ? & ?).
          * intros; apply Hv; set_solver.
          * by rewrite H1.
          * exists i', v, w, w'. split_and!; try done. set_solver.
        + destruct (IHl v1) as (i' & v & w & w' & ? & ? & ?).
          * intros; apply Hv; set_solver.
          * by rewrite H2.
          * exists i', v, w, w'. split_and!; try done. set_solver.
    Qed.
    Lemma visit_sub s t vst : (visit s t vst).1.*1 ⊆+ (leaves t).*2.
    Proof.
      revert vst. induction t as [i k'|i l IHl r' IHr]; intros vst; simpl.
      - destruct (values s !! k') as [v|]; simpl; [|apply submseteq_nil_l].
        destruct (vis vst (tv_bound O v.2) true) as [[x|] v0]; simpl; [done|apply submseteq_nil_l].
      - destruct (nodes s !! i) as [[? ? ? ? b|? ? ?|]|]; simpl; try apply submseteq_nil_l.
        destruct (vis vst b false) as [[x|] v0]; simpl; [|apply submseteq_nil_l].
        specialize (IHr v0). destruct (visit s r' v0) as [a1 v1].
        specialize (IHl v1). destruct (visit s l v1) as [a2 v2]. simpl in *.
        rewrite !fmap_app. rewrite (Permutation_app_comm a1.*1). by apply submseteq_app.
    Qed.
    Lemma leaves_values_nodup s t : wf_tree s t -> NoDup (leaves t).*2.
    Proof.
      intros Hwf. rewrite (wt_vals _ _ Hwf).
      replace ((vleaves (values s)).*2) with (seq 0 (length (values s))).
      - apply NoDup_seq.
      - unfold vleaves. apply list_eq. intros i. rewrite list_lookup_fmap, list_lookup_imap.
        destruct (values s !! i) eqn:Hi; simpl.
        + apply lookup_seq. split; [done|]. by eapply lookup_lt_Some.
        + apply lookup_ge_None in Hi. apply lookup_ge_None. by rewrite seq_length.
    Qed.

    Lemma lookup_values_ok s (l : list (nat * R)) :
      (forall k r, (k, r) ∈ l -> exists x, values s !! k = Some x) ->
      exists l', lookup_values s l = Ok l'
        /\ Forall2 (fun kr vr => (exists i, values s !! kr.1 = Some (i, vr.1)) /\ vr.2 = kr.2) l l'.
    Proof.
      induction l as [|[k r] l IH]; intros H; simpl; [eauto|].
      destruct (H k r ltac:(left)) as [[i v] Hk]. rewrite (get_Some _ _ _ Hk). cbn [mbind res_mbind res_bind].
      destruct IH as (l' & -> & HF). { intros; eapply H; by right. }
      cbn [mbind res_mbind res_bind]. eexists; split; [done|]. constructor; [|done]. simpl. eauto.
    Qed.
  End vis.

  (** Exactness for a stateless visitor. *)
  Section exact.
    Context (leq : B -> B -> Prop).
    Context (Henc : enclosure O leq).

    Lemma fit_bound s t p :
      repr (sh (nodes s)) p t -> fitx O (nodes s) (fun _ => False) ->
      (forall i k, (i, k) ∈ leaves t -> exists v, values s !! k = Some (i, v)) ->
      (forall i b v, lb (nodes s) i = Some b -> (i, v) ∈ values s -> b_contains O b (tv_bound O v) = true) ->
      exists b, bh (nodes s) (idx t) = Some (gheight t, b)
        /\ leq b b /\ forall i k v, (i, k) ∈ leaves t -> values s !! k = Some (i, v) -> leq (tv_bound O v) b.
    Proof.
      intros Hr Hfit Hv Hlb. revert p Hr. induction t as [i k|i l IHl r IHr]; intros p Hr; simpl in Hr.
      - apply sh_leaf in Hr as [b Hn]. exists b. simpl. split; [by rewrite (bh_lookup _ _ _ Hn)|].
        assert (Hle : forall v, values s !! k = Some (i, v) -> leq (tv_bound O v) b).
        { intros v Hk. apply (enc_contains _ _ Henc). eapply (Hlb i); [|by eapply elem_of_list_lookup_2].
          unfold lb. by rewrite Hn. }
        split.
        + destruct (Hv i k ltac:(left)) as [v Hk]. eapply (enc_regular _ _ Henc). by apply Hle.
        + intros i' k' v [= -> ->]%elem_of_list_singleton Hk. by apply Hle.
      - destruct Hr as (Hi & Hl & Hr). apply sh_branch in Hi as (h & b & Hn).
        destruct (IHl ltac:(intros; apply Hv; simpl; set_solver) _ Hl) as (bl & Hbl & Hgl & Hll).
        destruct (IHr ltac:(intros; apply Hv; simpl; set_solver) _ Hr) as (br & Hbr & Hgr & Hlr).
        destruct (Hfit _ _ _ _ _ _ Hn) as [[]|(hl & bl' & hr & br' & E1 & E2 & -> & ->)].
        rewrite Hbl in E1. rewrite Hbr in E2. simplify_eq.
        eexists. simpl idx. split; [rewrite (bh_lookup _ _ _ Hn); done|].
        pose proof (enc_union_l _ _ Henc _ _ Hgl Hgr) as Ul. pose proof (enc_union_r _ _ Henc _ _ Hgl Hgr) as Ur.
        split; [by eapply (enc_regular _ _ Henc)|].
        intros i' k' v Hin Hk. simpl in Hin. apply elem_of_app in Hin as [Hin|Hin].
        + eapply (enc_trans _ _ Henc); [by eapply Hll|apply Ul].
        + eapply (enc_trans _ _ Henc); [by eapply Hlr|apply Ur].
    Qed.

    Context {V R : Type} (f : B -> bool -> option R).
    Definition stateless : visitor V B R := fun vst b lf => (f b lf, vst).
    Definition hits s (l : list (nat * nat)) : list (nat * R) :=
      omap (fun ik => v ← values s !! ik.2; pair ik.2 <$> f (tv_bound O v.2) true) l.

    Lemma hits_app s l1 l2 : hits s (l1 ++ l2) = hits s l1 ++ hits s l2.
    Proof. unfold hits. by rewrite omap_app. Qed.

    Lemma visit_exact s t p vst :
      repr (sh (nodes s)) p t -> fitx O (nodes s) (fun _ => False) ->
      (forall i k, (i, k) ∈ leaves t -> exists v, values s !! k = Some (i, v)) ->
      (forall i b v, lb (nodes s) i = Some b -> (i, v) ∈ values s -> b_contains O b (tv_bound O v) = true) ->
      (forall i v j pj lj rj hj b', (i, v) ∈ values s -> is_Some (f (tv_bound O v) true) -> nodes s !! j = Some (Branch pj lj rj hj b') ->
        leq (tv_bound O v) b' -> is_Some (f b' false)) ->
      (visit stateless s t vst).1 ≡ₚ hits s (leaves t) /\ (visit stateless s t vst).2 = vst.
    Proof.
      intros Hr Hfit Hv Hlb f_mono. revert p vst Hr. induction t as [i k|i l IHl r IHr]; intros p vst Hr.
      - simpl. destruct (Hv i k ltac:(left)) as [v Hk]. unfold hits. simpl. rewrite Hk. simpl.
        destruct (f (tv_bound O v) true); done.
      - destruct (fit_bound s (GBranch i l r) p Hr Hfit Hv Hlb) as (b & Hb & _ & Hle).
        simpl in Hr |- *. destruct Hr as (Hi & Hl & Hr). apply sh_branch in Hi as (h & b' & Hn).
        simpl in Hb. rewrite (bh_lookup _ _ _ Hn) in Hb. simpl in Hb. simplify_eq. rewrite Hn.
        destruct (f b false) as [x|] eqn:Hfb.
        + destruct (IHr ltac:(intros; apply Hv; simpl; set_solver) i vst Hr) as [HPr Hsr].
          destruct (visit stateless s r vst) as [a1 v1]. simpl in HPr, Hsr. subst v1.
          destruct (IHl ltac:(intros; apply Hv; simpl; set_solver) i vst Hl) as [HPl Hsl].
          destruct (visit stateless s l vst) as [a2 v2]. simpl in HPl, Hsl. subst v2. simpl.
          split; [|done]. rewrite hits_app, HPr, HPl. apply Permutation_app_comm.
        + simpl. split; [|done]. symmetry. apply Permutation_nil_r.
          assert (forall L, (forall x, x ∈ L -> x ∈ leaves (GBranch i l r)) -> hits s L = []) as Hnil.
          { induction L as [|[i' k'] L IHL]; intros HL; [done|]. unfold hits in *. simpl.
            destruct (Hv i' k' (HL _ ltac:(left))) as [v Hk]. rewrite Hk. simpl.
            destruct (f (tv_bound O v) true) as [y|] eqn:Hfv.
            - edestruct (f_mono i' v) as [? ?]; [by eapply elem_of_list_lookup_2|by rewrite Hfv|exact Hn| |congruence].
              eapply Hle; [apply HL; left|done].
            - simpl. apply IHL. intros; apply HL; by right. }
          rewrite Hnil; done.
    Qed.
  End exact.

  Lemma wf_tree_height s t :
    wf_tree s t -> fitx O (nodes s) (fun _ => False) -> dbvt_height s = Ok (gheight t).
  Proof.
    intros Hwf Hfit. unfold dbvt_height.
    destruct (values s) as [|x vs] eqn:Hv.
    { pose proof (wt_vals _ _ Hwf) as HP. rewrite Hv in HP. apply Permutation_length in HP.
      pose proof (length_idxs t). simpl in HP. lia. }
    rewrite (wt_root _ _ Hwf).
    assert (forall u p, repr (sh (nodes s)) p u -> exists b, bh (nodes s) (idx u) = Some (gheight u, b)) as HH.
    { induction u as [i k|i l IHl r IHr]; intros p Hr; simpl in Hr.
      - apply sh_leaf in Hr as [b Hn]. exists b. simpl. by rewrite (bh_lookup _ _ _ Hn).
      - destruct Hr as (Hi & Hl & Hr). apply sh_branch in Hi as (h & b & Hn).
        destruct (IHl _ Hl) as (bl & Hbl). destruct (IHr _ Hr) as (br & Hbr).
        destruct (Hfit _ _ _ _ _ _ Hn) as [[]|(hl & bl' & hr & br' & E1 & E2 & -> & ->)].
        rewrite Hbl in E1. rewrite Hbr in E2. simplify_eq.
        eexists. simpl idx. rewrite (bh_lookup _ _ _ Hn). simpl. done. }
    destruct (HH t 0 (wt_repr _ _ Hwf)) as [b Hb].
    unfold bh in Hb. destruct (nodes s !! idx t) as [n|] eqn:Hn; simpl in Hb; [|done].
    rewrite (get_Some _ _ _ Hn). cbn [mbind res_mbind res_bind]. by destruct n; simplify_eq/=; f_equal.
  Qed.
End query.

Lemma query_loop_mono {T B S V R} (O : dbvt_ops T B S) (vis : visitor V B R) fuel fuel' s st vst acc r :
  query_loop O fuel vis s st vst acc = Ok r -> fuel <= fuel' -> query_loop O fuel' vis s st vst acc = Ok r.
Proof.
  revert fuel' st vst acc. induction fuel as [|fuel IH]; intros fuel' st vst acc.
  - destruct st as [|i st]; simpl; [|done]. intros <- _. by destruct fuel'.
  - destruct st as [|i st]; simpl; [by destruct fuel'|]. destruct fuel' as [|fuel']; [lia|]. simpl.
    intros (n & -> & Hn)%res_bind_Ok Hle. cbn [mbind res_mbind res_bind].
    destruct n as [p l r' h b|p k b|]; simpl in Hn.
    + destruct (vis vst b false) as [[x|] v0]; [|apply IH; [done|lia]].
      destruct (decide _); [|done]. apply IH; [done|lia].
    + apply res_bind_Ok in Hn as (v & -> & Hn). cbn [mbind res_mbind res_bind].
      destruct (vis vst (tv_bound O v.2) true) as [o v0]. apply IH; [done|lia].
    + apply IH; [done|lia].
Qed.
Lemma query_mono {T B S V R} {O : dbvt_ops T B S} {vis : visitor V B R} fuel fuel' {s vst r} :
  query_for_indices O fuel vis s vst = Ok r -> fuel <= fuel' -> query_for_indices O fuel' vis s vst = Ok r.
Proof. apply query_loop_mono. Qed.
