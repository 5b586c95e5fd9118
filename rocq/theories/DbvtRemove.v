(** [remove] preserves well-formedness. *)
From stdpp Require Import prelude sorting.
From Verif Require Import Res DbvtModel DbvtGhost DbvtInv.

Lemma swap_remove_spec {A} (l : list A) k x :
  l !! k = Some x ->
  exists z l', last l = Some z /\ l !! (length l - 1) = Some z
    /\ swap_remove l k = Ok (x, l') /\ l ≡ₚ x :: l' /\ length l' = length l - 1
    /\ (forall m, m < length l' -> l' !! m = if decide (m = k) then Some z else l !! m).
Proof.
  intros Hk. assert (k < length l) as Hlt by by apply lookup_lt_Some in Hk.
  destruct l as [|z l0 _] using rev_ind; [done|].
  rewrite app_length in *. simpl in *.
  exists z, (take (length l0) (<[k:=z]> (l0 ++ [z]))).
  replace (length l0 + 1 - 1) with (length l0) by lia.
  assert (length (take (length l0) (<[k:=z]> (l0 ++ [z]))) = length l0) as Hlen.
  { rewrite take_length, insert_length, app_length; simpl; lia. }
  split_and!.
  - by rewrite last_snoc.
  - rewrite lookup_app_r by lia. by rewrite Nat.sub_diag.
  - unfold swap_remove. rewrite (get_Some _ _ _ Hk). simpl. rewrite last_snoc.
    rewrite app_length. simpl. do 3 f_equal. lia.
  - destruct (decide (k = length l0)) as [->|].
    + rewrite lookup_app_r in Hk by lia. rewrite Nat.sub_diag in Hk. simpl in Hk. simplify_eq.
      rewrite take_insert by lia. rewrite take_app. by rewrite Permutation_app_comm.
    + rewrite insert_app_l by lia. rewrite take_app_alt by by rewrite insert_length.
      rewrite lookup_app_l in Hk by lia.
      rewrite (insert_take_drop l0 k z) by lia.
      rewrite <- (take_drop_middle l0 k x Hk) at 1. solve_Permutation.
  - done.
  - intros m Hm. rewrite Hlen in Hm. rewrite lookup_take by lia.
    case_decide as E.
    + subst m. rewrite list_lookup_insert; [done|]. rewrite app_length; simpl; lia.
    + by rewrite list_lookup_insert_ne.
Qed.

Section rem.
  Context {T B S : Type} (O : dbvt_ops T B S).
  Implicit Types (s : dbvt T B) (ns : list (node B)) (t u : gtree).

  Lemma sh_modify ns i n f : ns !! i = Some n ->
    sh (<[i := f n]> ns) i = shp (f n).
  Proof. intros H. apply sh_insert. by apply lookup_lt_Some in H. Qed.

  (** Relabelling the leaf that pointed to the last value. *)
  Lemma remove_relabel s t k vs z :
    wf_tree s t ->
    values s !! (length (values s) - 1) = Some z ->
    k < length (values s) -> length vs = length (values s) - 1 ->
    (k < length vs -> vs !! k = Some z) ->
    exists ns, (if decide (k < length vs) then
                moved ← get vs k;
                modify (nodes s) moved.1
                  (fun m => match m with Leaf q _ b => Leaf q k b | m => m end)
              else Ok (nodes s)) = Ok ns
      /\ length ns = length (nodes s)
      /\ (forall j, sh ns j = relabel_shape (fun v => if decide (v = length (values s) - 1) then k else v) <$> sh (nodes s) j)
      /\ (forall j, bh ns j = bh (nodes s) j)
      /\ (forall j, nodes s !! j = Some Nil -> ns !! j = Some Nil)
      /\ (forall j b, lb ns j = Some b -> lb (nodes s) j = Some b)
      /\ (forall j p l r h b, ns !! j = Some (Branch p l r h b) -> nodes s !! j = Some (Branch p l r h b)).
  Proof.
    intros Hwf Hz Hk Hlen Hvk. case_decide as E.
    - rewrite (get_Some _ _ _ (Hvk E)). simpl. destruct z as [zi zv]. simpl.
      destruct (wf_tree_value_node _ _ _ _ _ Hwf Hz) as (q & bz & Hn).
      rewrite (modify_ok _ _ _ _ Hn). eexists. split; [done|].
      assert (zi < length (nodes s)) by by apply lookup_lt_Some in Hn.
      split_and!.
      + by rewrite insert_length.
      + intros j. destruct (decide (zi = j)) as [<-|Hne].
        * rewrite sh_insert by done. rewrite (sh_lookup _ _ _ Hn). simpl. by rewrite decide_True.
        * rewrite sh_insert_ne by done. destruct (sh (nodes s) j) as [[| p v]|] eqn:Hs; simpl; try done.
          case_decide as Ev; [|done]. subst v. apply sh_leaf in Hs as [b Hb].
          destruct (wf_tree_leaf_node _ _ _ _ _ _ Hwf Hb) as [v' Hv']. congruence.
      + intros j. destruct (decide (zi = j)) as [<-|Hne].
        * rewrite bh_insert by done. by rewrite (bh_lookup _ _ _ Hn).
        * by rewrite bh_insert_ne.
      + intros j Hj. rewrite list_lookup_insert_ne; [done|congruence].
      + intros j b. destruct (decide (zi = j)) as [<-|Hne]; unfold lb.
        * rewrite list_lookup_insert by done. by rewrite Hn.
        * by rewrite list_lookup_insert_ne.
      + intros j p l r h b. destruct (decide (zi = j)) as [<-|Hne].
        * by rewrite list_lookup_insert.
        * by rewrite list_lookup_insert_ne.
    - exists (nodes s). split_and!; try done. intros j.
      destruct (sh (nodes s) j) as [[| p v]|] eqn:Hs; simpl; try done.
      case_decide; [|done]. do 2 f_equal. lia.
  Qed.

  (** Unlinking leaf [i] and its parent [p], whose other child is [u]. *)
  Lemma unlink ns c p u i pp pl pr ph pb :
    let t1 := plug c u in
    NoDup (i :: p :: idxs (plug c u)) -> 0 ∉ idxs (plug c u) ->
    ns !! p = Some (Branch pp pl pr ph pb) -> is_Some (ns !! i) -> pp = cpar c ->
    reprc (sh ns) c p -> repr (sh ns) p u ->
    exists ns', (ns ← modify ns i (fun _ => Nil);
                 ns ← modify ns p (fun _ => Nil);
                 ns ← modify ns (idx u) (set_parent pp);
                 if decide (pp = 0) then Ok ns else modify ns pp (redirect_child p (idx u))) = Ok ns'
      /\ length ns' = length ns
      /\ repr (sh ns') 0 (plug c u)
      /\ ns' !! i = Some Nil /\ ns' !! p = Some Nil
      /\ (forall j, ns !! j = Some Nil -> ns' !! j = Some Nil)
      /\ (forall j, j <> i -> j <> p -> bh ns' j = bh ns j)
      /\ (forall j b, lb ns' j = Some b -> lb ns j = Some b)
      /\ (forall j q l r h b, ns' !! j = Some (Branch q l r h b) ->
            j <> i /\ j <> p /\ (j = pp \/ exists q', ns !! j = Some (Branch q' l r h b))).
  Proof.
    intros t1 Hnd H0 Hp [ni Hi] -> Hc Hu.
    pose proof (idxs_plug c u) as HP.
    apply NoDup_cons in Hnd as [Hi' Hnd]. apply NoDup_cons in Hnd as [Hp' Hnd].
    rewrite HP in Hi', Hp', Hnd, H0. apply NoDup_app in Hnd as (Hndc & Hdis & Hndu).
    pose proof (idx_in u) as Hiu.
    assert (i <> p /\ i ∉ cidxs c /\ i ∉ idxs u /\ p ∉ cidxs c /\ p ∉ idxs u /\ 0 ∉ cidxs c) as (Hip & Hic & Hiu' & Hpc & Hpu & H0c).
    { split_and!; [set_solver + Hi'| set_solver + Hi'|set_solver + Hi'|set_solver + Hp'|set_solver + Hp'|set_solver + H0]. }
    assert (i <> idx u) by congruence. assert (p <> idx u) by congruence.
    assert (i < length ns) by by apply lookup_lt_Some in Hi.
    assert (p < length ns) by by apply lookup_lt_Some in Hp.
    destruct (repr_idx _ _ _ Hu) as (xu & Hxu & _).
    destruct (sh_some_node ns (idx u)) as (nu & bu & Hnu & _); [eauto|].
    assert (idx u < length ns) by by apply lookup_lt_Some in Hnu.
    rewrite (modify_ok _ _ _ _ Hi). cbn [mbind res_mbind res_bind].
    rewrite (modify_ok _ p (Branch (cpar c) pl pr ph pb)) by (by rewrite list_lookup_insert_ne).
    cbn [mbind res_mbind res_bind].
    rewrite (modify_ok _ (idx u) nu) by (by rewrite !list_lookup_insert_ne).
    cbn [mbind res_mbind res_bind].
    set (nsA := <[idx u:=set_parent (cpar c) nu]> (<[p:=Nil]> (<[i:=Nil]> ns))).
    assert (LenA : length nsA = length ns) by (unfold nsA; by rewrite !insert_length).
    assert (Au : nsA !! idx u = Some (set_parent (cpar c) nu)).
    { unfold nsA. apply list_lookup_insert. by rewrite !insert_length. }
    assert (Ap : nsA !! p = Some Nil).
    { unfold nsA. rewrite list_lookup_insert_ne by done. apply list_lookup_insert. by rewrite insert_length. }
    assert (Ai : nsA !! i = Some Nil).
    { unfold nsA. rewrite !list_lookup_insert_ne by done. by apply list_lookup_insert. }
    assert (Ao : forall j, j <> i -> j <> p -> j <> idx u -> nsA !! j = ns !! j).
    { intros. unfold nsA. by rewrite !list_lookup_insert_ne. }
    clearbody nsA.
    assert (exists nsB, (if decide (cpar c = 0) then Ok nsA else modify nsA (cpar c) (redirect_child p (idx u))) = Ok nsB
       /\ length nsB = length ns
       /\ (forall j, j <> cpar c \/ c = CHole -> nsB !! j = nsA !! j)
       /\ (c <> CHole -> exists n, ns !! cpar c = Some n /\ nsA !! cpar c = Some n /\ nsB !! cpar c = Some (redirect_child p (idx u) n)))
      as (nsB & -> & LenB & HneB & HparB).
    { case_decide as Hc0.
      - apply cpar_zero in Hc0 as ->; [|done]. exists nsA. split_and!; auto; done.
      - assert (c <> CHole) as Hch by (intros ->; done).
        assert (is_Some (sh ns (cpar c))) as Hps.
        { destruct c; simpl in *; [done|..]; destruct Hc as [-> _]; eauto. }
        apply sh_some_node in Hps as (n & bn & Hn & _).
        pose proof (cpar_in c Hch).
        assert (nsA !! cpar c = Some n) as HnA.
        { rewrite Ao; [done|congruence|congruence|]. intros E. apply (Hdis (cpar c)); [done|]. by rewrite E. }
        rewrite (modify_ok _ _ _ _ HnA). eexists. split; [done|].
        rewrite insert_length. split_and!; [done|..].
        + intros j [Hj|?]; [|done]. by rewrite list_lookup_insert_ne.
        + intros _. exists n. split_and!; [done|done|]. rewrite list_lookup_insert; [done|].
          by apply lookup_lt_Some in HnA. }
    assert (Hpar : forall j, j ∉ cidxs c -> nsB !! j = nsA !! j).
    { intros j Hj. apply HneB. destruct (decide (c = CHole)) as [|Hch]; [by right|left].
      intros ->. by apply Hj, cpar_in. }
    exists nsB. split_and!; [done|done|..].
    - apply repr_plug. split.
      + eapply (reprc_redirect (sh ns) _ c p); try done.
        * intros j Hj Hj'. unfold sh. rewrite HneB by (by left). rewrite Ao; [done|congruence|congruence|].
          intros E. apply (Hdis j); [done|]. by rewrite E.
        * intros Hch x Hx. destruct (HparB Hch) as (n & Hn & _ & Hn').
          rewrite (sh_lookup _ _ _ Hn) in Hx. rewrite (sh_lookup _ _ _ Hn'), shp_redirect, Hx. done.
      + eapply repr_reparent; [done|..|exact Hu].
        * intros j Hj Hj'. unfold sh. rewrite Hpar by (intros Hc'; by apply (Hdis j)).
          rewrite Ao; [done|congruence|congruence|done].
        * intros x Hx. unfold sh. rewrite Hpar by (intros Hc'; by apply (Hdis (idx u))).
          rewrite Au. simpl. rewrite shp_set_parent. rewrite (sh_lookup _ _ _ Hnu) in Hx. by rewrite Hx.
    - by rewrite Hpar.
    - by rewrite Hpar.
    - intros j Hj. destruct (decide (j = i)) as [->|]; [by rewrite Hpar|].
      destruct (decide (j = p)) as [->|]; [by rewrite Hpar|].
      assert (Hjn : j ∉ cidxs c ++ idxs u).
      { intros Hin.
        assert (is_Some (sh ns j)) as [? Hs].
        { destruct (elem_of_app (cidxs c) (idxs u) j) as [HH _]. destruct (HH Hin) as [Hjc|Hju].
          - assert (repr (sh (<[p := Leaf (cpar c) 0 pb]> ns)) 0 (plug c (GLeaf p 0))) as Hrp.
            { apply repr_plug. split; simpl.
              - eapply reprc_ext; [|done]. intros j' Hj''. apply sh_insert_ne. congruence.
              - by rewrite sh_insert. }
            apply (repr_some _ _ _ j) in Hrp.
            + rewrite sh_insert_ne in Hrp by congruence. done.
            + rewrite idxs_plug. set_solver + Hjc.
          - by eapply repr_some. }
        by rewrite (sh_lookup _ _ _ Hj) in Hs. }
      rewrite Hpar by (set_solver + Hjn). rewrite Ao; [done|done|done|]. intros ->. set_solver + Hjn Hiu.
    - intros j Hji Hjp. destruct (decide (j = cpar c /\ c <> CHole)) as [[-> Hch]|Hnp].
      { destruct (HparB Hch) as (n & Hn & _ & Hn').
        rewrite (bh_lookup _ _ _ Hn), (bh_lookup _ _ _ Hn').
        destruct n; simpl; try done. by case_decide. }
      assert (nsB !! j = nsA !! j) as E.
      { apply HneB. destruct (decide (c = CHole)); [by right|left]. intros ->. by apply Hnp. }
      unfold bh. rewrite E. destruct (decide (j = idx u)) as [->|].
      + rewrite Au, Hnu. by destruct nu.
      + by rewrite Ao.
    - intros j b. destruct (decide (j = cpar c /\ c <> CHole)) as [[-> Hch]|Hnp].
      { destruct (HparB Hch) as (n & Hn & _ & Hn'). unfold lb. rewrite Hn, Hn'.
        destruct n; simpl; try done. by case_decide. }
      assert (nsB !! j = nsA !! j) as E.
      { apply HneB. destruct (decide (c = CHole)); [by right|left]. intros ->. by apply Hnp. }
      unfold lb. rewrite E. destruct (decide (j = idx u)) as [->|].
      + rewrite Au, Hnu. by destruct nu.
      + destruct (decide (j = i)) as [->|]; [by rewrite Ai|].
        destruct (decide (j = p)) as [->|]; [by rewrite Ap|].
        by rewrite Ao.
    - intros j q l r h b Hj.
      assert (j <> i). { intros ->. rewrite Hpar in Hj by done. congruence. }
      assert (j <> p). { intros ->. rewrite Hpar in Hj by done. congruence. }
      split_and!; [done|done|].
      destruct (decide (j = cpar c /\ c <> CHole)) as [[-> Hch]|Hnp]; [by left|right].
      assert (nsB !! j = nsA !! j) as E.
      { apply HneB. destruct (decide (c = CHole)); [by right|left]. intros ->. by apply Hnp. }
      rewrite E in Hj. destruct (decide (j = idx u)) as [->|].
      + rewrite Au in Hj. rewrite Hnu. destruct nu; simpl in Hj; simplify_eq. eauto.
      + rewrite Ao in Hj by done. eauto.
  Qed.

  Definition remove_post s i (v : T) s' : Prop :=
    wf s' /\ (fitq O s -> fitq O s')
    /\ values s ≡ₚ (i, v) :: values s'
    /\ updated_list s' = updated_list s
    /\ ((values s' = [] /\ s' = dbvt_clear s) \/ (values s' <> [] /\ length (nodes s') = length (nodes s)))
    /\ (forall j b, lb (nodes s') j = Some b -> lb (nodes s) j = Some b).

  Definition remove_shape ns1 t1 i k p : Prop :=
    exists c u pl pr, sh ns1 p = Some (SBranch (cpar c) pl pr)
      /\ (if decide (pl = i) then pr else pl) = idx u
      /\ reprc (sh ns1) c p /\ repr (sh ns1) p u
      /\ idxs t1 ≡ₚ i :: p :: idxs (plug c u)
      /\ leaves t1 ≡ₚ (i, k) :: leaves (plug c u)
      /\ (c <> CHole -> idx t1 = idx (plug c u)).

  Lemma remove_finish s t1 ns1 vs i p k (v : T) :
    remove_shape ns1 t1 i k p ->
    wf_queue (refit_nodes s) (length (nodes s)) ->
    linked (sh (nodes s)) ->
    values s ≡ₚ (i, v) :: vs -> NoDup (values s).*1 ->
    sh (nodes s) i = Some (SLeaf p k) ->
    length ns1 = length (nodes s) ->
    (forall j, bh ns1 j = bh (nodes s) j) ->
    (forall j, nodes s !! j = Some Nil -> ns1 !! j = Some Nil) ->
    (forall j b, lb ns1 j = Some b -> lb (nodes s) j = Some b) ->
    (forall j p l r h b, ns1 !! j = Some (Branch p l r h b) -> nodes s !! j = Some (Branch p l r h b)) ->
    (forall j m, j <> i -> (j, m) ∈ leaves t1 <-> exists w, vs !! m = Some (j, w)) ->
    root_index s = idx t1 ->
    nodes s !! 0 = Some Nil ->
    accounted (nodes s) (free_list s) (idxs t1) ->
    exists s' v',
      (ns ← modify ns1 i (fun _ => Nil);
       if decide (p = 0) then Ok (dbvt_clear s, Some v)
       else
         pn ← get ns p;
         match pn with
         | Branch pp l r _ _ =>
             ns0 ← modify ns p (fun _ => Nil);
             ns2 ← modify ns0 (if decide (l = i) then r else l) (set_parent pp);
             if decide (pp = 0)
             then Ok (with_root (Dbvt ns2 vs ((free_list s ++ [i]) ++ [p]) (updated_list s) (root_index s) (refit_nodes s))
                        (if decide (l = i) then r else l), Some v)
             else
               ns3 ← modify ns2 pp (redirect_child p (if decide (l = i) then r else l));
               s2 ← mark_for_refit (with_nodes (Dbvt ns2 vs ((free_list s ++ [i]) ++ [p]) (updated_list s) (root_index s) (refit_nodes s)) ns3) pp 0;
               Ok (s2, Some v)
         | _ => Ok (Dbvt ns vs (free_list s ++ [i]) (updated_list s) (root_index s) (refit_nodes s), Some v)
         end) = Ok (s', Some v') /\ remove_post s i v' s'.
  Proof.
    intros (c & u & pl & pr & Hp & Hsib & Hc & Hu & HPi & HPl & Hidt) Hq Hlink HPv Hndv Hsi Hlen1 Hbh1 Hnil1 Hlb1 Hbr1 Hlv Hroot H0 Hacc.
    apply sh_branch in Hp as (ph & pb & Hp).
    assert (Hnd : NoDup (idxs t1)).
    { apply accounted_nodup in Hacc. by apply NoDup_app in Hacc as (_&_&?). }
    pose proof Hnd as Hnd'. rewrite HPi in Hnd'.
    assert (Hrng : forall j, j ∈ idxs t1 -> 0 < j < length (nodes s)).
    { intros j Hj. eapply accounted_range; [done|]. set_solver + Hj. }
    assert (Hi0 : 0 < i < length (nodes s)) by (apply Hrng; rewrite HPi; left).
    assert (Hp0 : 0 < p < length (nodes s)) by (apply Hrng; rewrite HPi; right; left).
    destruct (lookup_lt_is_Some_2 ns1 i ltac:(lia)) as [ni Hi].
    destruct (unlink ns1 c p u i (cpar c) pl pr ph pb) as
      (ns' & Hch & Hlen' & Hrepr' & Hi' & Hp' & Hnil' & Hbh' & Hlb' & Hbr'); try done.
    { intros Hin. assert (0 ∈ idxs t1) as Hin' by (rewrite HPi; set_solver + Hin).
      apply Hrng in Hin'. lia. }
    assert (i <> p).
    { apply NoDup_cons in Hnd' as [Hn _]. set_solver + Hn. }
    rewrite (modify_ok _ _ _ _ Hi) in Hch |- *. cbn [mbind res_mbind res_bind] in Hch |- *.
    rewrite decide_False by lia.
    rewrite (get_Some _ p (Branch (cpar c) pl pr ph pb)) by (by rewrite list_lookup_insert_ne).
    cbn [mbind res_mbind res_bind].
    apply res_bind_Ok in Hch as (nsA & HA & Hch). rewrite HA. cbn [mbind res_mbind res_bind].
    rewrite Hsib.
    apply res_bind_Ok in Hch as (nsB & HB & Hch). rewrite HB. cbn [mbind res_mbind res_bind].
    (* facts common to both endings *)
    set (t' := plug c u).
    assert (Hacc' : accounted ns' ((free_list s ++ [i]) ++ [p]) (idxs t')).
    { destruct Hacc as (Hpos & HP & Hnil). split_and!.
      - lia.
      - rewrite Hlen', Hlen1, <- HP, HPi. unfold t'. solve_Permutation.
      - intros j Hj. apply elem_of_app in Hj as [Hj|Hj].
        + apply elem_of_app in Hj as [Hj|Hj]; [auto|]. apply elem_of_list_singleton in Hj as ->. done.
        + apply elem_of_list_singleton in Hj as ->. done. }
    assert (Hndt' : NoDup (idxs t')).
    { apply accounted_nodup in Hacc'. by apply NoDup_app in Hacc' as (_&_&?). }
    assert (Hvals' : leaves t' ≡ₚ vleaves vs).
    { apply vleaves_perm; [done|]. intros j m.
      assert (j = i -> (j, m) ∈ leaves t' -> False) as Hnoi.
      { intros -> Hin. apply leaves_idxs in Hin. apply NoDup_cons in Hnd' as [Hn _].
        unfold t' in Hin. set_solver + Hn Hin. }
      assert (NoDup (vs.*1) /\ i ∉ vs.*1) as [Hndvs Hivs].
      { assert (NoDup (values s).*1) as Hnv.
        { done. }
        rewrite HPv in Hnv. simpl in Hnv. apply NoDup_cons in Hnv as [??]. done. }
      destruct (decide (j = i)) as [->|Hji].
      - split; [intros Hin; by exfalso; eapply Hnoi|]. intros [w Hw]. exfalso. apply Hivs.
        apply elem_of_list_fmap. exists (i, w). split; [done|]. by eapply elem_of_list_lookup_2.
      - rewrite <- Hlv by done. rewrite HPl. unfold t'. split; [by right|].
        intros Hin. apply elem_of_cons in Hin as [?|?]; [congruence|done]. }
    assert (H0' : ns' !! 0 = Some Nil) by auto.
    assert (Hvne : vs <> []).
    { intros ->. pose proof (length_idxs t') as [_ Hpos]. rewrite Hvals' in Hpos. simpl in Hpos. lia. }
    assert (Hfin : forall q rt, rt = idx t' -> wf_queue q (length (nodes s)) ->
        (forall j, j ∈ (refit_nodes s).*2 -> j ∈ q.*2) -> (c <> CHole -> cpar c ∈ q.*2) ->
        remove_post s i v (Dbvt ns' vs ((free_list s ++ [i]) ++ [p]) (updated_list s) rt q)).
    { intros q rt -> Hwq Hqsub Hqp. split_and!; simpl.
      - split; [right; exists t'; by split|]. simpl. by rewrite Hlen', Hlen1.
      - intros Hfit j pj l r h b Hj. simpl in Hj |- *.
        destruct (Hbr' _ _ _ _ _ _ Hj) as (Hji & Hjp & [->|[q' Hj1]]).
        { left. apply Hqp. intros ->. simpl in Hj. congruence. }
        apply Hbr1 in Hj1.
        destruct (Hlink j q' l r) as ((xl & Hxl & Hpl) & (xr & Hxr & Hpr) & _).
        { by rewrite (sh_lookup _ _ _ Hj1). }
        assert (Hcase : forall x y, sh (nodes s) x = Some y -> spar y = j ->
            (j = cpar c) \/ bh ns' x = bh (nodes s) x).
        { intros x y Hx Hy. destruct (decide (x = i)) as [->|]; [rewrite Hsi in Hx; simplify_eq; done|].
          destruct (decide (x = p)) as [->|].
          - left. apply Hbr1 in Hp. rewrite (sh_lookup _ _ _ Hp) in Hx. injection Hx as <-; by simpl in Hy.
          - right. rewrite Hbh' by done. apply Hbh1. }
        destruct (Hcase _ _ Hxl Hpl) as [->|El].
        { left. apply Hqp. intros ->. simpl in Hj. congruence. }
        destruct (Hcase _ _ Hxr Hpr) as [->|Er].
        { left. apply Hqp. intros ->. simpl in Hj. congruence. }
        destruct (Hfit _ _ _ _ _ _ Hj1) as [?|Hf]; [left; auto|right].
        by eapply fits_ext.
      - done.
      - done.
      - right. split; [done|lia].
      - intros j b Hj. auto. }
    case_decide as E0.
    - simpl in Hch. simplify_eq. eexists _, _. split; [done|].
      apply Hfin; auto.
      + unfold t'. apply cpar_zero in E0 as ->; [done|].
        intros Hin. assert (0 ∈ idxs t1) as Hin'; [|apply Hrng in Hin'; lia].
        rewrite HPi, idxs_plug. set_solver + Hin.
      + intros Hch. exfalso. apply cpar_in in Hch. rewrite E0 in Hch.
        assert (0 ∈ idxs t1) as Hin'; [|apply Hrng in Hin'; lia].
        rewrite HPi, idxs_plug. set_solver + Hch.
    - rewrite Hch. cbn [mbind res_mbind res_bind].
      assert (c <> CHole) as Hcne by by intros ->.
      destruct (mark_spec (with_nodes (Dbvt nsB vs ((free_list s ++ [i]) ++ [p]) (updated_list s) (root_index s) (refit_nodes s)) ns') (cpar c) 0)
        as (q & -> & Hwq & Hin & Hor); simpl.
      { by rewrite Hlen', Hlen1. }
      { rewrite Hlen', Hlen1. apply Hrng. rewrite HPi, idxs_plug.
        pose proof (cpar_in c Hcne) as Hcp. set_solver + Hcp. }
      eexists _, _. split; [done|]. unfold with_refit, with_nodes. simpl. apply Hfin; auto.
      + rewrite Hroot. unfold t'. auto.
      + simpl in Hwq. by rewrite Hlen', Hlen1 in Hwq.
      + intros j Hj. simpl in Hor. destruct Hor as [->|[h ->]]; [done|]. simpl. by right.
  Qed.


  Lemma remove_spec s i p k b :
    wf s -> nodes s !! i = Some (Leaf p k b) ->
    exists s' v, remove s i = Ok (s', Some v) /\ remove_post s i v s'.
  Proof.
    intros [Hst Hq] Hi. unfold remove. rewrite (get_Some _ _ _ Hi). cbn [mbind res_mbind res_bind].
    destruct Hst as [(Hn & _)|[t Hwf]]; [rewrite Hn in Hi; by destruct i as [|[]]|].
    destruct (wf_tree_leaf_node _ _ _ _ _ _ Hwf Hi) as [v Hv].
    destruct (swap_remove_spec _ _ _ Hv) as (z & vs & _ & Hz & -> & HPv & Hlen & Hvs).
    cbn [mbind res_mbind res_bind].
    assert (Hk : k < length (values s)) by by apply lookup_lt_Some in Hv.
    destruct (remove_relabel s t k vs z) as (ns1 & -> & Hlen1 & Hsh1 & Hbh1 & Hnil1 & Hlb1 & Hbr1); try done.
    { intros Hk'. rewrite Hvs by done. by rewrite decide_True. }
    cbn [mbind res_mbind res_bind].
    set (g := fun (_ v : nat) => if decide (v = length (values s) - 1) then k else v).
    set (t1 := relabel g t).
    assert (Hrepr1 : repr (sh ns1) 0 t1).
    { eapply repr_relabel; [|apply Hwf]. intros j Hj. apply Hsh1. }
    assert (Hidx1 : idxs t1 = idxs t) by apply idxs_relabel.
    pose proof (wf_tree_nodup _ _ Hwf) as Hnd.
    assert (Hsi : sh ns1 i = Some (SLeaf p k)).
    { rewrite Hsh1, (sh_lookup _ _ _ Hi). simpl. by case_decide. }
    assert (Hit : i ∈ idxs t1).
    { rewrite Hidx1. eapply wf_tree_in; [done|]. by rewrite (sh_lookup _ _ _ Hi). }
    destruct (decompose_leaf _ _ _ _ _ Hrepr1 Hit Hsi) as (c & Ht1 & ->).
    (* the value list after removal *)
    assert (Hleaf1 : forall j m, (j, m) ∈ leaves t1 <-> exists m0, (exists w, values s !! m0 = Some (j, w)) /\ m = g j m0).
    { intros j m. unfold t1. rewrite leaves_relabel, elem_of_list_fmap. split.
      - intros ([j' m0] & Heq & Hin). simplify_eq/=. exists m0. split; [|done].
        by eapply wf_tree_leaf.
      - intros (m0 & Hin & ->). exists (j, m0). split; [done|]. by eapply wf_tree_leaf. }
    assert (Hndh : NoDup (values s).*1).
    { apply wf_handles_nodup. right. eauto. }
    assert (Huniq : forall a a' j w w', values s !! a = Some (j, w) -> values s !! a' = Some (j, w') -> a = a').
    { intros a a' j w w' Ha Ha'. eapply (NoDup_lookup _ _ _ j Hndh); rewrite list_lookup_fmap.
      - by rewrite Ha. - by rewrite Ha'. }
    assert (Hleafvs : forall j m, j <> i -> (j, m) ∈ leaves t1 <-> exists w, vs !! m = Some (j, w)).
    { intros j m Hji. rewrite Hleaf1. split.
      - intros (m0 & [w Hw] & ->). unfold g. case_decide as E.
        + subst m0. rewrite Hz in Hw. simplify_eq.
          assert (k <> length (values s) - 1). { intros ->. congruence. }
          exists w. rewrite Hvs by lia. by rewrite decide_True.
        + assert (m0 < length (values s)) by by apply lookup_lt_Some in Hw.
          exists w. rewrite Hvs by lia. rewrite decide_False; [done|].
          intros ->. congruence.
      - intros [w Hw]. assert (m < length vs) by by apply lookup_lt_Some in Hw.
        rewrite Hvs in Hw by done. case_decide as E.
        + subst m. simplify_eq. exists (length (values s) - 1). split; [eauto|].
          unfold g. by rewrite decide_True.
        + exists m. split; [eauto|]. unfold g. rewrite decide_False; [done|lia]. }
    destruct c as [|c p r|c p l].
    - (* last value: the tree is cleared *)
      simpl in Ht1 |- *.
      assert (Hi1 : is_Some (ns1 !! i)).
      { apply sh_leaf in Hsi as [? ->]. eauto. }
      destruct Hi1 as [n1 Hn1]. rewrite (modify_ok _ _ _ _ Hn1). simpl.
      eexists _, _. split; [done|].
      assert (length vs = 0) as Hvs0.
      { assert (length (leaves t) = 1) as Hl.
        { assert (length (leaves t1) = 1) as <- by by rewrite Ht1.
          unfold t1. by rewrite leaves_relabel, fmap_length. }
        rewrite (wt_vals _ _ Hwf) in Hl. unfold vleaves in Hl. rewrite imap_length in Hl. lia. }
      apply nil_length_inv in Hvs0 as ->.
      split_and!.
      + apply wf_clear. + intros _. apply fitq_clear. + done. + done. + by left.
      + intros j b'. simpl. destruct j; simpl; done.
    - (* the leaf was a left child *)
      assert (Hx : remove_shape ns1 t1 i k p). 
      { pose proof Hrepr1 as Hr. rewrite Ht1 in Hr. apply repr_plug in Hr as [(Hp & Hr & Hc) _].
        exists c, r, i, (idx r). simpl in Hp. rewrite Ht1. split_and!; try done.
        - by rewrite decide_True.
        - rewrite !idxs_plug. simpl. solve_Permutation.
        - rewrite !leaves_plug. simpl. solve_Permutation.
        - intros Hcn. simpl. by apply idx_plug_ne. }
      eapply remove_finish; try done.
      + by eapply wf_tree_linked.
      + by rewrite (sh_lookup _ _ _ Hi).
      + unfold t1. rewrite idx_relabel. apply Hwf.
      + apply Hwf.
      + rewrite Hidx1; apply Hwf.
    - assert (Hx : remove_shape ns1 t1 i k p).
      { pose proof Hrepr1 as Hr. rewrite Ht1 in Hr. apply repr_plug in Hr as [(Hp & Hl & Hc) _].
        exists c, l, (idx l), i. simpl in Hp. rewrite Ht1. split_and!; try done.
        - rewrite decide_False; [done|]. intros E.
          rewrite <- Hidx1, Ht1, idxs_plug in Hnd. simpl in Hnd.
          apply NoDup_cons in Hnd as [_ Hnd].
          apply NoDup_app in Hnd as (_&Hd&_). apply (Hd i); [|left].
          rewrite <- E. pose proof (idx_in l). set_solver + H.
        - rewrite !idxs_plug. simpl. solve_Permutation.
        - rewrite !leaves_plug. simpl. solve_Permutation.
        - intros Hcn. simpl. by apply idx_plug_ne. }
      eapply remove_finish; try done.
      + by eapply wf_tree_linked.
      + by rewrite (sh_lookup _ _ _ Hi).
      + unfold t1. rewrite idx_relabel. apply Hwf.
      + apply Hwf.
      + rewrite Hidx1; apply Hwf.
  Qed.
End rem.
