(** C11: inserting one bound over and over gives a tree of maximal height, and the
    fixed query stack overflows exactly from 257 values on. *)
From stdpp Require Import prelude gmap fin_maps fin_sets sorting.
From Verif Require Import Res DbvtModel DbvtGhost DbvtInv DbvtRotate DbvtRefit DbvtUpdate DbvtQuery DbvtSpec DbvtHistory PropsDbvt DbvtExample.

Section stack.
  Context {T B S : Type} (O : dbvt_ops T B S).
  Implicit Types (s : dbvt T B).

  (** Running a list of calls, dropping the outputs. *)
  Inductive runs : list (op T) -> dbvt T B -> dbvt T B -> Prop :=
    | runs_nil s : runs [] s s
    | runs_cons o ops fuel s s1 out s2 :
        exec O fuel o s = Ok (s1, out) -> runs ops s1 s2 -> runs (o :: ops) s s2.

  (** Insertions of [v] interleaved with maintenance. *)
  Inductive only_inserts (v : T) : list (op T) -> nat -> Prop :=
    | oi_nil : only_inserts v [] 0
    | oi_insert ops n : only_inserts v ops n -> only_inserts v (Insert v :: ops) (1 + n)
    | oi_update ops n : only_inserts v ops n -> only_inserts v (Update :: ops) n
    | oi_refit ops n rng : only_inserts v ops n -> only_inserts v (Refit rng :: ops) n
    | oi_tick ops n rng : only_inserts v ops n -> only_inserts v (Tick rng :: ops) n.

  Context (v : T) (Hidem : b_union O (tv_fat O v) (tv_fat O v) = tv_fat O v)
          (Hirr : forall x, s_lt O x x = false).
  Local Notation f := (tv_fat O v).

  Definition chsh (n i : nat) : option shape :=
    if decide (i = 0) then None
    else if Nat.odd i then Some (SLeaf (if decide (i + 1 < 2 * n) then i + 1 else i - 1) (i / 2))
    else Some (SBranch (i - 2) (i - 1) (if decide (i + 2 < 2 * n) then i + 2 else i + 1)).

  Record chain (n : nat) s : Prop := Chain {
    ch_pos : 0 < n;
    ch_len : length (nodes s) = 2 * n;
    ch_node : forall i nd, nodes s !! i = Some nd -> shp nd = chsh n i /\ forall b, get_bound nd = Ok b -> b = f;
    ch_vals : values s = (fun k => (2 * k + 1, v)) <$> seq 0 n;
    ch_free : free_list s = [];
    ch_upd : updated_list s = [];
    ch_root : root_index s = if decide (n = 1) then 1 else 2;
    ch_queue : wf_queue (refit_nodes s) (length (nodes s)) }.

  Lemma chain_bound n s i : chain n s -> 0 < i < 2 * n ->
    exists nd, nodes s !! i = Some nd /\ get_bound nd = Ok f.
  Proof.
    intros Hc Hi. destruct (lookup_lt_is_Some_2 (nodes s) i) as [nd Hn]; [rewrite (ch_len _ _ Hc); lia|].
    exists nd. split; [done|]. destruct (ch_node _ _ Hc _ _ Hn) as [Hs Hb].
    destruct nd; simpl in *; try by rewrite (Hb _ eq_refl).
    unfold chsh in Hs. rewrite decide_False in Hs by lia. by destruct (Nat.odd i).
  Qed.
  Lemma odd_not_even i : Nat.odd i = true -> exists j, i = 2 * j + 1.
  Proof. intros [j ?]%Nat.odd_spec. eauto. Qed.
  Lemma even_odd_false i : Nat.odd i = false -> exists j, i = 2 * j.
  Proof. rewrite <- Nat.negb_even. intros [j ?]%negb_false_iff%Nat.even_spec. eauto. Qed.
  Lemma odd_val j : Nat.odd (2 * j + 1) = true.
  Proof. apply Nat.odd_spec. by exists j. Qed.
  Lemma even_val j : Nat.odd (2 * j) = false.
  Proof. rewrite <- Nat.negb_even. apply negb_false_iff, Nat.even_spec. by exists j. Qed.

  Lemma chain_leaf n s i : chain n s -> i < 2 * n -> Nat.odd i = true ->
    nodes s !! i = Some (Leaf (if decide (i + 1 < 2 * n) then i + 1 else i - 1) (i / 2) f).
  Proof.
    intros Hc Hi Ho. destruct (lookup_lt_is_Some_2 (nodes s) i) as [nd Hn]; [rewrite (ch_len _ _ Hc); lia|].
    rewrite Hn. destruct (ch_node _ _ Hc _ _ Hn) as [Hs Hb]. unfold chsh in Hs.
    apply odd_not_even in Ho as Ho'. destruct Ho' as [j ?]. rewrite decide_False in Hs by lia. rewrite Ho in Hs.
    destruct nd; simplify_eq/=. by rewrite (Hb _ eq_refl).
  Qed.
  Lemma chain_branch n s i : chain n s -> 0 < i < 2 * n -> Nat.odd i = false ->
    exists h, nodes s !! i = Some (Branch (i - 2) (i - 1) (if decide (i + 2 < 2 * n) then i + 2 else i + 1) h f).
  Proof.
    intros Hc Hi Ho. destruct (lookup_lt_is_Some_2 (nodes s) i) as [nd Hn]; [rewrite (ch_len _ _ Hc); lia|].
    rewrite Hn. destruct (ch_node _ _ Hc _ _ Hn) as [Hs Hb]. unfold chsh in Hs.
    rewrite decide_False in Hs by lia. rewrite Ho in Hs.
    destruct nd; simplify_eq/=. rewrite (Hb _ eq_refl). eauto.
  Qed.

  (** The search of [insert] ends at the last leaf. *)
  Lemma chain_find n s tl fuel j : chain n s -> 1 <= j < n -> n - j < fuel ->
    insert_find O fuel (nodes s ++ tl) (2 * j) f = Ok (Some (2 * n - 1)).
  Proof.
    intros Hc. revert j. induction fuel as [|fuel IH]; intros j Hj Hf; [lia|]. simpl.
    assert (Happ : forall i nd, nodes s !! i = Some nd -> get (nodes s ++ tl) i = Ok nd).
    { intros i nd Hn. apply get_Some. by apply lookup_app_l_Some. }
    destruct (chain_branch n s (2 * j) Hc) as [h Hb]; [lia|apply even_val|].
    simpl in Hb. rewrite (Happ _ _ Hb). cbn [mbind res_mbind res_bind].
    destruct (chain_bound n s (2 * j - 1) Hc) as (nl & Hl & Hlb); [lia|]. simpl in Hl.
    rewrite (Happ _ _ Hl). cbn [mbind res_mbind res_bind]. rewrite Hlb. cbn [mbind res_mbind res_bind].
    set (r := if decide _ then _ else _).
    destruct (chain_bound n s r Hc) as (nr & Hr & Hrb). { subst r. case_decide; lia. }
    rewrite (Happ _ _ Hr). cbn [mbind res_mbind res_bind]. rewrite Hrb. cbn [mbind res_mbind res_bind].
    rewrite Hirr. subst r. case_decide as Hd.
    - replace (j + (j + 0) + 2) with (2 * (j + 1)) by lia. apply IH; lia.
    - destruct fuel as [|fuel]; [lia|]. simpl.
      assert (j = n - 1) as -> by lia.
      replace (n - 1 + (n - 1 + 0) + 1) with (2 * (n - 1) + 1) by lia.
      rewrite (Happ _ _ (chain_leaf n s (2 * (n - 1) + 1) Hc ltac:(lia) ltac:(apply odd_val))). simpl. do 2 f_equal. lia.
  Qed.

  Lemma chain_insert n s : chain n s ->
    exists s', insert O s v = Ok (s', 2 * n + 1) /\ chain (Datatypes.S n) s'.
  Proof.
    intros Hc. pose proof (ch_pos _ _ Hc). unfold insert. rewrite decide_False by (rewrite (ch_root _ _ Hc); case_decide; lia).
    unfold take_free at 1. rewrite (ch_free _ _ Hc). unfold take_free. simpl. rewrite (ch_free _ _ Hc). simpl.
    rewrite !app_length, (ch_len _ _ Hc). simpl. rewrite <- app_assoc. simpl.
    assert (Hf : insert_find O (n + (n + 0) + 1 + 1) (nodes s ++ [Nil; Nil]) (root_index s) f = Ok (Some (2 * n - 1))).
    { rewrite (ch_root _ _ Hc). case_decide.
      - subst. simpl. rewrite (get_Some _ _ (Leaf 0 0 f)); [done|].
        apply lookup_app_l_Some. by rewrite (chain_leaf 1 s 1 Hc) by (done || lia).
      - apply (chain_find n s _ _ 1 Hc); lia. }
    rewrite Hf. cbn [mbind res_mbind res_bind].
    assert (Hlast : nodes s !! (2 * n - 1) = Some (Leaf (2 * n - 2) (n - 1) f)).
    { rewrite (chain_leaf n s (2 * n - 1) Hc); [|lia|].
      - rewrite decide_False by lia. do 2 f_equal; [lia|]. replace (2 * n - 1) with (1 + (n - 1) * 2) by lia.
        rewrite Nat.div_add by lia. done.
      - replace (2 * n - 1) with (2 * (n - 1) + 1) by lia. apply odd_val. }
    rewrite (get_Some _ _ _ (lookup_app_l_Some _ [Nil; Nil] _ _ Hlast)). cbn [mbind res_mbind res_bind].
    assert (Hmod : forall (x : list (node B)) i nd g, x !! i = Some nd -> modify x i g = Ok (<[i := g nd]> x)).
    { intros x i nd g Hx. unfold modify. by rewrite (get_Some _ _ _ Hx). }
    rewrite (Hmod _ _ _ _ (lookup_app_l_Some _ [Nil; Nil] _ _ Hlast)). cbn [mbind res_mbind res_bind set_parent].
    rewrite insert_app_l by (rewrite (ch_len _ _ Hc); lia).
    set (ns1 := <[2 * n - 1 := Leaf (n + (n + 0)) (n - 1) f]> (nodes s)).
    assert (Hl1 : length ns1 = 2 * n) by (subst ns1; rewrite insert_length; apply Hc).
    set (ns2 := if decide (2 * n - 2 = 0) then ns1 else
       match ns1 !! (2 * n - 2) with Some nd => <[2 * n - 2 := redirect_child (2 * n - 1) (2 * n) nd]> ns1 | None => ns1 end).
    assert (Hl2 : length ns2 = 2 * n).
    { subst ns2. case_decide; [done|]. destruct (ns1 !! _); [by rewrite insert_length|done]. }
    assert (Hm : (if decide (2 * n - 2 = 0) then Ok (ns1 ++ [Nil; Nil])
       else modify (ns1 ++ [Nil; Nil]) (2 * n - 2) (redirect_child (2 * n - 1) (n + (n + 0)))) = Ok (ns2 ++ [Nil; Nil])).
    { subst ns2. case_decide; [done|]. unfold modify.
      destruct (lookup_lt_is_Some_2 ns1 (2 * n - 2)) as [nd Hn]; [lia|].
      rewrite (get_Some _ _ _ (lookup_app_l_Some _ [Nil; Nil] _ _ Hn)), Hn. cbn [mbind res_mbind res_bind].
      rewrite insert_app_l by lia. done. }
    rewrite Hm. cbn [mbind res_mbind res_bind].
    rewrite (Hmod (ns2 ++ [Nil; Nil]) (n + (n + 0)) Nil).
    2:{ rewrite lookup_app_r by lia. by replace (n + (n + 0) - length ns2) with 0 by lia. }
    cbn [mbind res_mbind res_bind].
    assert (Hi1 : forall (x : node B), <[n + (n + 0) := x]> (ns2 ++ [Nil; Nil]) = ns2 ++ [x; Nil]).
    { intros x. replace (n + (n + 0)) with (length ns2 + 0) by lia. by rewrite insert_app_r. }
    rewrite Hi1. clear Hi1.
    rewrite (Hmod _ (n + (n + 0) + 1) Nil).
    2:{ rewrite lookup_app_r by lia. by replace (n + (n + 0) + 1 - length ns2) with 1 by lia. }
    cbn [mbind res_mbind res_bind].
    assert (Hi1 : forall (x y : node B), <[n + (n + 0) + 1 := x]> (ns2 ++ [y; Nil]) = ns2 ++ [y; x]).
    { intros x y. replace (n + (n + 0) + 1) with (length ns2 + 1) by lia. by rewrite insert_app_r. }
    rewrite Hi1. clear Hi1.
    set (ns3 := ns2 ++ _).
    assert (Hl3 : length ns3 = 2 * Datatypes.S n) by (subst ns3; rewrite app_length; simpl; lia).
    assert (Hns : forall i nd, ns3 !! i = Some nd -> shp nd = chsh (Datatypes.S n) i /\ forall b, get_bound nd = Ok b -> b = f).
    { assert (Hns1 : forall i nd, i <> 2 * n - 2 \/ n = 1 -> ns1 !! i = Some nd ->
          shp nd = chsh (Datatypes.S n) i /\ forall b, get_bound nd = Ok b -> b = f).
      { intros i nd Hne. subst ns1. intros [(<- & <- & Hlt)|[Hne' Hn]]%list_lookup_insert_Some.
        - simpl. split; [|naive_solver]. unfold chsh. rewrite decide_False by lia.
          replace (2 * n - 1) with (2 * (n - 1) + 1) at 1 by lia. rewrite odd_val, decide_True by lia.
          replace (2 * n - 1) with (1 + (n - 1) * 2) at 2 by lia. rewrite Nat.div_add by lia. simpl. do 2 f_equal; lia.
        - pose proof (lookup_lt_Some _ _ _ Hn) as Hlt. rewrite (ch_len _ _ Hc) in Hlt.
          destruct (ch_node _ _ Hc _ _ Hn) as [-> ?]. split; [|done]. unfold chsh. destruct (decide (i = 0)); [done|].
          destruct (Nat.odd i) eqn:Ho.
          + apply odd_not_even in Ho as [j ->]. rewrite !decide_True by lia. done.
          + apply even_odd_false in Ho as [j ->]. rewrite !decide_True by lia. done. }
      intros i nd. subst ns3. intros [Hn|[Hlt Hn]]%lookup_app_Some.
      - subst ns2. case_decide as Hz; [eapply Hns1; [|done]; lia|].
        destruct (ns1 !! (2 * n - 2)) as [x|] eqn:Hx; [|apply lookup_ge_None in Hx; lia].
        apply list_lookup_insert_Some in Hn as [(<- & <- & Hlt)|[Hne Hn]]; [|eapply Hns1; [|done]; lia].
        subst ns1. rewrite list_lookup_insert_ne in Hx by lia.
        destruct (chain_branch n s (2 * n - 2) Hc) as [h Hb]; [lia| |].
        { replace (2 * n - 2) with (2 * (n - 1)) by lia. apply even_val. }
        rewrite Hb in Hx. simplify_eq. simpl. rewrite decide_False by lia. split; [|simpl; naive_solver].
        simpl. unfold chsh. rewrite decide_False by lia.
        replace (Nat.odd (n + (n + 0) - 2)) with false.
        2:{ replace (n + (n + 0) - 2) with (2 * (n - 1)) by lia. by rewrite even_val. }
        rewrite decide_True by lia. do 2 f_equal; lia.
      - rewrite Hl2 in Hn. assert (i - 2 * n = 0 \/ i - 2 * n = 1 \/ 2 <= i - 2 * n) as [E|[E|E]] by lia.
        + rewrite E in Hn. simplify_eq/=. assert (i = 2 * n) as -> by lia. split; [|naive_solver].
          unfold chsh. rewrite decide_False by lia. rewrite even_val. rewrite decide_False by lia. do 2 f_equal; lia.
        + rewrite E in Hn. simplify_eq/=. assert (i = 2 * n + 1) as -> by lia. split; [|naive_solver].
          unfold chsh. rewrite decide_False by lia. rewrite odd_val. rewrite decide_False by lia.
          rewrite (ch_vals _ _ Hc), fmap_length, seq_length. replace (2 * n + 1) with (1 + n * 2) by lia.
          rewrite Nat.div_add by lia. simpl. do 2 f_equal; lia.
        + apply lookup_lt_Some in Hn. simpl in Hn. lia. }
    set (s4 := if decide (2 * n - 1 = root_index s) then _ else _).
    assert (Hs4 : s4 = Dbvt ns3 (values s ++ [(n + (n + 0) + 1, v)]) [] [] 2 (refit_nodes s)).
    { subst s4. unfold with_root, with_nodes, with_values; simpl. rewrite (ch_root _ _ Hc), (ch_upd _ _ Hc), (ch_free _ _ Hc).
      repeat case_decide; f_equal; lia. }
    rewrite Hs4.
    assert (Hq : wf_queue (refit_nodes s) (length ns3)).
    { destruct (ch_queue _ _ Hc) as [? Hb]. split; [done|]. intros x Hx. specialize (Hb x Hx). rewrite (ch_len _ _ Hc) in Hb. lia. }
    assert (Hch : forall q, wf_queue q (length ns3) ->
       chain (Datatypes.S n) (Dbvt ns3 (values s ++ [(n + (n + 0) + 1, v)]) [] [] 2 q)).
    { intros q Hq'. split; cbn [nodes values free_list updated_list root_index refit_nodes]; try done; try lia.
      rewrite (ch_vals _ _ Hc). replace (Datatypes.S n) with (n + 1) by lia. rewrite seq_app, fmap_app. simpl. done. all: by rewrite decide_False by lia. }
    case_decide as Hz.
    - eexists. split; [cbn [mbind res_mbind res_bind]; do 2 f_equal; lia|]. by apply Hch.
    - destruct (mark_spec (Dbvt ns3 (values s ++ [(n + (n + 0) + 1, v)]) [] [] 2 (refit_nodes s)) (2 * n - 2) 3) as (q & -> & Hq' & _);
        [done|simpl; lia|]. cbn [mbind res_mbind res_bind].
      eexists. split; [do 2 f_equal; lia|]. unfold with_refit; simpl. by apply Hch.
  Qed.

  (** Refitting keeps the chain: unions and rotations change nothing. *)
  Lemma chain_same n s ns q : chain n s -> length ns = length (nodes s) ->
    (forall i nd, ns !! i = Some nd -> shp nd = chsh n i /\ forall b, get_bound nd = Ok b -> b = f) ->
    wf_queue q (length (nodes s)) -> chain n (Dbvt ns (values s) (free_list s) (updated_list s) (root_index s) q).
  Proof. intros [] Hl Hn Hq. split; cbn [nodes values free_list updated_list root_index refit_nodes]; try done; [lia|]. by rewrite Hl. Qed.

  Lemma chain_rotate n s i ns : chain n s -> rotate O (nodes s) i = Ok ns -> ns = nodes s.
  Proof.
    intros Hc. unfold rotate. destruct (get (nodes s) i) as [nd| |] eqn:Hg; try done. apply get_Ok in Hg.
    cbn [mbind res_mbind res_bind]. destruct nd as [p l r h b| |]; try by intros [= <-].
    assert (Hb : forall j x, nodes s !! j = Some x -> forall b, get_bound x = Ok b -> b = f).
    { intros j x Hx. apply (ch_node _ _ Hc _ _ Hx). }
    pose proof (Hb _ _ Hg b eq_refl) as ->.
    destruct (get (nodes s) l) as [ln| |] eqn:Hl; try done. cbn [mbind res_mbind res_bind]. apply get_Ok in Hl.
    destruct (get (nodes s) r) as [rn| |] eqn:Hr; try done. cbn [mbind res_mbind res_bind]. apply get_Ok in Hr.
    destruct (is_leaf ln && is_leaf rn); [by intros [= <-]|].
    assert (Hcb : forall j x, child_bounds (nodes s) j = Ok x -> x = (f, f)).
    { intros j x. unfold child_bounds. destruct (get (nodes s) j) as [nd| |] eqn:Hj; try done. cbn [mbind res_mbind res_bind].
      destruct nd as [? a b ? ?| |]; try done.
      destruct (get (nodes s) a) as [an| |] eqn:Ha; try done. apply get_Ok in Ha. cbn [mbind res_mbind res_bind].
      destruct (get_bound an) as [ab| |] eqn:Hab; try done. cbn [mbind res_mbind res_bind].
      destruct (get (nodes s) b) as [bn| |] eqn:Hbn; try done. apply get_Ok in Hbn. cbn [mbind res_mbind res_bind].
      destruct (get_bound bn) as [bb| |] eqn:Hbb; try done. cbn [mbind res_mbind res_bind].
      intros [= <-]. by rewrite (Hb _ _ Ha _ Hab), (Hb _ _ Hbn _ Hbb). }
    assert (Hsa : sa O f f f = b_area O f) by (unfold sa; by rewrite !Hidem).
    assert (Hbetter : forall rot, better O (RotNone, b_area O f) rot (b_area O f) = (RotNone, b_area O f)).
    { intros rot. unfold better. simpl. by rewrite Hirr. }
    assert (Hbest : forall x y z, best_rotation O (nodes s) l r (b_area O f) x y = Ok z -> z = (RotNone, b_area O f)).
    { intros x y z. unfold best_rotation. rewrite (get_Some _ _ _ Hl). cbn [mbind res_mbind res_bind].
      destruct (get_bound ln) as [lb| |] eqn:Hlb; try done. cbn [mbind res_mbind res_bind].
      rewrite (get_Some _ _ _ Hr). cbn [mbind res_mbind res_bind].
      destruct (get_bound rn) as [rb| |] eqn:Hrb; try done. cbn [mbind res_mbind res_bind].
      rewrite (Hb _ _ Hl _ Hlb), (Hb _ _ Hr _ Hrb).
      destruct y; cbn [mbind res_mbind res_bind].
      - destruct x; [by intros [= <-]|].
        destruct (child_bounds (nodes s) l) as [cl| |] eqn:Hcl; try done. rewrite (Hcb _ _ Hcl).
        cbn [mbind res_mbind res_bind]. rewrite Hsa, !Hbetter. by intros [= <-].
      - destruct (child_bounds (nodes s) r) as [cr| |] eqn:Hcr; try done. rewrite (Hcb _ _ Hcr).
        cbn [mbind res_mbind res_bind]. rewrite Hsa, !Hbetter.
        destruct x; cbn [mbind res_mbind res_bind]; [by intros [= <-]|].
        destruct (child_bounds (nodes s) l) as [cl| |] eqn:Hcl; try done. rewrite (Hcb _ _ Hcl).
        cbn [mbind res_mbind res_bind]. rewrite !Hidem, Hsa, !Hbetter. cbn [mbind res_mbind res_bind].
        by intros [= <-]. }
    destruct (best_rotation _ _ _ _ _ _ _) as [z| |] eqn:Hz; try done. rewrite (Hbest _ _ _ Hz).
    cbn [mbind res_mbind res_bind]. destruct (s_improves _ _ _); [|by intros [= <-]].
    unfold apply_rotation. rewrite (get_Some _ _ _ Hl). cbn [mbind res_mbind res_bind].
    rewrite (get_Some _ _ _ Hr). cbn [mbind res_mbind res_bind]. by intros [= <-].
  Qed.

  Lemma chain_refit_node n s draw i s' : chain n s -> refit_node O draw s i = Ok s' -> chain n s'.
  Proof.
    intros Hc. unfold refit_node. intros ([ns ph] & Hrec & Hs)%res_bind_Ok.
    unfold recalculate in Hrec. apply res_bind_Ok in Hrec as (nd & Hnd%get_Ok & Hrec).
    assert (Hc1 : chain n (with_nodes s ns) /\ forall p h, ph = Some (p, h) -> p < length (nodes s)).
    { destruct nd as [p l r h b| |]; [|simplify_eq; split; [by destruct s|done]..].
      apply res_bind_Ok in Hrec as (ln & Hl%get_Ok & Hrec). apply res_bind_Ok in Hrec as (lb & Hlb & Hrec).
      apply res_bind_Ok in Hrec as (rn & Hr%get_Ok & Hrec). apply res_bind_Ok in Hrec as (rb & Hrb & Hrec).
      simplify_eq. destruct (ch_node _ _ Hc _ _ Hnd) as [Hshape _]. split.
      - apply (chain_same n s); [done|by rewrite insert_length| |apply Hc].
        intros j x [(<- & <- & _)|[_ Hj]]%list_lookup_insert_Some; [|by apply (ch_node _ _ Hc)].
        split; [by rewrite <- Hshape|]. simpl. intros b' [= <-].
        by rewrite (proj2 (ch_node _ _ Hc _ _ Hl) _ Hlb), (proj2 (ch_node _ _ Hc _ _ Hr) _ Hrb).
      - intros p' h' [= <- <-]. pose proof (lookup_lt_Some _ _ _ Hnd). unfold chsh in Hshape. simpl in Hshape.
        destruct (decide (i = 0)); [done|]. destruct (Nat.odd i); [done|]. simplify_eq. lia. }
    destruct Hc1 as [Hc1 Hp]. apply res_bind_Ok in Hs as (s2 & Hs2 & Hs).
    assert (Hc2 : chain n s2).
    { destruct ph as [[p h]|]; [|by simplify_eq]. case_decide; [by simplify_eq|].
      destruct (mark_spec (with_nodes s ns) p (h + 1)) as (q & Hm & Hq & _).
      - apply Hc1.
      - specialize (Hp _ _ eq_refl). rewrite (ch_len _ _ Hc1), <- (ch_len _ _ Hc). done.
      - rewrite Hm in Hs2. simplify_eq. apply (chain_same n (with_nodes s ns)); [done|done|apply Hc1|done]. }
    destruct draw; [|by simplify_eq].
    apply res_bind_Ok in Hs as (ns' & Hrot & Hs). simplify_eq.
    apply (chain_rotate n) in Hrot as ->; [|done]. by destruct s2.
  Qed.
  Lemma chain_refit n fuel rng s s' : chain n s -> do_refit O fuel rng s = Ok s' -> chain n s'.
  Proof.
    revert rng s. induction fuel as [|fuel IH]; intros rng s Hc; simpl.
    - destruct (refit_nodes s) as [|[]]; [by intros [= <-]|done].
    - destruct (refit_nodes s) as [|[k i] q] eqn:Hq; [by intros [= <-]|].
      intros (s1 & Hr & Hs)%res_bind_Ok. eapply IH; [|done]. eapply chain_refit_node; [|done].
      apply (chain_same n s); [done|done|apply Hc|].
      destruct (ch_queue _ _ Hc) as [H1 H2]. rewrite Hq in H1, H2. split; [by inversion H1|].
      intros x Hx. apply H2. by right.
  Qed.
  Lemma chain_update n s s' : chain n s -> update O s = Ok s' -> s' = s.
  Proof. intros Hc. unfold update. rewrite (ch_upd _ _ Hc). simpl. intros [= <-]. destruct s, Hc; simpl in *. by subst. Qed.

  (** Empty, or a chain of [n] leaves. *)
  Definition upto n s : Prop := (n = 0 /\ s = dbvt_new) \/ chain n s.
  Lemma upto_first s' h : insert O dbvt_new v = Ok (s', h) -> chain 1 s'.
  Proof.
    unfold insert. simpl. intros [= <- <-]. split; simpl; try done; [lia| |].
    - intros [|[|i]] nd; simpl; intros ?; simplify_eq; simpl; split; try done; naive_solver.
    - split; [constructor|]. intros x Hx. by apply elem_of_nil in Hx.
  Qed.
  Lemma runs_chain ops n m s s' : only_inserts v ops n -> upto m s -> runs ops s s' -> upto (m + n) s'.
  Proof.
    intros Ho. revert m s. induction Ho as [|ops n Ho IH|ops n Ho IH|ops n rng Ho IH|ops n rng Ho IH]; intros m s Hu Hr;
      inversion Hr as [|o ops' fuel s0 s1 out s2 He Hrest]; subst; try (replace (m + (1 + n)) with (Datatypes.S m + n) by lia).
    - by rewrite Nat.add_0_r.
    - eapply IH; [|done]. right. simpl in He. destruct Hu as [[-> ->]|Hc].
      + destruct (insert O dbvt_new v) as [[s3 h]| |] eqn:Hi; simplify_eq/=. by eapply upto_first.
      + destruct (chain_insert m s Hc) as (s3 & Hi & Hc'). rewrite Hi in He. simplify_eq/=. done.
    - eapply IH; [|done]. simpl in He. destruct Hu as [[-> ->]|Hc]; [left; simplify_eq/=; done|right].
      destruct (update O s) as [s3| |] eqn:Hi; simplify_eq/=. apply (chain_update m) in Hi; [|done]. by subst.
    - eapply IH; [|done]. simpl in He. destruct Hu as [[-> ->]|Hc]; [left|right].
      + destruct fuel; simplify_eq/=; done.
      + destruct (do_refit O fuel rng s) as [s3| |] eqn:Hi; simplify_eq/=. by eapply chain_refit.
    - eapply IH; [|done]. simpl in He. unfold tick in He. destruct Hu as [[-> ->]|Hc]; [left|right].
      + destruct fuel; simplify_eq/=; done.
      + destruct (update O s) as [s3| |] eqn:Hi; [|done..]. apply (chain_update m) in Hi; [|done]. subst.
        cbn [mbind res_mbind res_bind] in He.
        destruct (do_refit O fuel rng s) as [s3| |] eqn:Hi; simplify_eq/=. by eapply chain_refit.
  Qed.

  Lemma chain_query {V R} (vis : visitor V B R) n s d fuel j stk vst acc :
    chain n s -> (forall w, exists r w', vis w f false = (Some r, w')) ->
    1 <= j -> length stk = j - 1 -> 256 - j = d -> 256 < n -> j <= 256 -> d < fuel ->
    query_loop O fuel vis s (2 * j :: stk) vst acc = Panic.
  Proof.
    intros Hc Hvis. revert fuel j stk vst acc. induction d as [|d IH]; intros fuel j stk vst acc Hj Hlen Hd Hn Hle Hf;
      (destruct fuel as [|fuel]; [lia|]); cbn [query_loop];
      destruct (chain_branch n s (2 * j) Hc) as [h Hb]; [lia|apply even_val|..| |apply even_val|]; [..|lia|];
      rewrite (get_Some _ _ _ Hb); cbn [mbind res_mbind res_bind];
      destruct (Hvis vst) as (r & w & ->).
    - rewrite decide_False; [done|]. unfold STACK. lia.
    - rewrite decide_True by (unfold STACK; lia). rewrite decide_True by lia.
      replace (2 * j + 2) with (2 * (j + 1)) by lia. apply IH; simpl; lia.
  Qed.

  (** Every tree built from more than 256 copies of a value by insertions and
      maintenance only makes every query whose visitor accepts its bound panic. *)
  Theorem C11_query_panics_beyond_256_copies {V R} (vis : visitor V B R) ops n s vst fuel :
    only_inserts v ops n -> runs ops dbvt_new s -> 256 < n -> 256 <= fuel ->
    (forall w, exists r w', vis w f false = (Some r, w')) ->
    query_for_indices O fuel vis s vst = Panic.
  Proof.
    intros Ho Hr Hn Hf Hvis. destruct (runs_chain ops n 0 dbvt_new s Ho ltac:(by left) Hr) as [[? _]|Hc]; [lia|].
    simpl in Hc. unfold query_for_indices. rewrite (ch_root _ _ Hc), decide_False by lia.
    eapply (chain_query vis n s 255 fuel 1); try done; lia.
  Qed.
  (** Such trees exist: all the calls succeed, in any interleaving. *)
  Theorem C11_copies_can_be_inserted ops n :
    only_inserts v ops n -> exists a s, runs ops dbvt_new s /\ history O a s /\ length (values s) = n.
  Proof.
    intros Ho.
    assert (forall m a s, history O a s -> pending a = ∅ -> upto m s -> exists a' s', runs ops s s' /\ history O a' s' /\ upto (m + n) s') as H.
    { induction Ho as [|ops n Ho IH|ops n Ho IH|ops n rng Ho IH|ops n rng Ho IH]; intros m a s Hh Hp Hu.
      - exists a, s. split_and!; [constructor|done|]. by rewrite Nat.add_0_r.
      - destruct (C03_legal_calls_return O a s (Insert v) Hh I) as (fu & s1 & out & He). specialize (He fu ltac:(lia)).
        destruct (IH (Datatypes.S m) (anext a (Insert v) out) s1) as (a' & s' & ? & ? & ?).
        + eapply history_step; [done|exact I|done].
        + simpl. by destruct out.
        + pose proof (runs_chain [Insert v] 1 m s s1) as H1. replace (m + 1) with (Datatypes.S m) in H1 by lia.
          apply H1; [repeat constructor|done|]. econstructor; [done|constructor].
        + exists a', s'. split_and!; [by econstructor|done|]. by replace (m + (1 + n)) with (Datatypes.S m + n) by lia.
      - assert (Hl : legal a (@Update T)) by (simpl; rewrite Hp; set_solver).
        destruct (C03_legal_calls_return O a s Update Hh Hl) as (fu & s1 & out & He). specialize (He fu ltac:(lia)).
        destruct (IH m (anext a Update out) s1) as (a' & s' & ? & ? & ?).
        + eapply history_step; [done| |done]. done.
        + done.
        + pose proof (runs_chain [Update] 0 m s s1) as H1. rewrite Nat.add_0_r in H1.
          apply H1; [repeat constructor|done|]. econstructor; [done|constructor].
        + exists a', s'. split_and!; [by econstructor|done|done].
      - destruct (C03_legal_calls_return O a s (Refit rng) Hh I) as (fu & s1 & out & He). specialize (He fu ltac:(lia)).
        destruct (IH m (anext a (Refit rng) out) s1) as (a' & s' & ? & ? & ?).
        + eapply history_step; [done|exact I|done].
        + done.
        + pose proof (runs_chain [Refit rng] 0 m s s1) as H1. rewrite Nat.add_0_r in H1.
          apply H1; [repeat constructor|done|]. econstructor; [done|constructor].
        + exists a', s'. split_and!; [by econstructor|done|done].
      - assert (Hl : legal a (@Tick T rng)) by (simpl; rewrite Hp; set_solver).
        destruct (C03_legal_calls_return O a s (Tick rng) Hh Hl) as (fu & s1 & out & He). specialize (He fu ltac:(lia)).
        destruct (IH m (anext a (Tick rng) out) s1) as (a' & s' & ? & ? & ?).
        + eapply history_step; [done| |done]. done.
        + done.
        + pose proof (runs_chain [Tick rng] 0 m s s1) as H1. rewrite Nat.add_0_r in H1.
          apply H1; [repeat constructor|done|]. econstructor; [done|constructor].
        + exists a', s'. split_and!; [by econstructor|done|done]. }
    destruct (H 0 astart dbvt_new) as (a' & s' & ? & ? & Hu); [constructor|done|by left|].
    exists a', s'. split_and!; [done..|]. simpl in Hu. destruct Hu as [[-> ->]|Hc]; [done|].
    by rewrite (ch_vals _ _ Hc), fmap_length, seq_length.
  Qed.
End stack.

(** The hypotheses are met by any interval, and by 300 insertions each followed by a tick. *)
Example C11_hypotheses_met :
  (forall v, b_union ival_ops (tv_fat ival_ops v) (tv_fat ival_ops v) = tv_fat ival_ops v) /\
  (forall x, s_lt ival_ops x x = false) /\
  only_inserts (3, 4) (concat (replicate 300 [Insert (3, 4); Tick (fun _ => true)])) 300.
Proof.
  split_and!; simpl; intros.
  - f_equal; lia.
  - apply bool_decide_eq_false_2. lia.
  - assert (forall n, only_inserts (3, 4) (concat (replicate n [Insert (3, 4); Tick (fun _ => true)])) n) as H; [|apply (H 300)].
    induction n; simpl; repeat constructor. done.
Qed.
