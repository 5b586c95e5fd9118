(** [recalculate_node], [swap] and [rotate] preserve well-formedness. *)
From stdpp Require Import prelude sorting.
From Verif Require Import Res DbvtModel DbvtGhost DbvtInv.

Section rot.
  Context {T B S : Type} (O : dbvt_ops T B S).
  Implicit Types (s : dbvt T B) (ns : list (node B)) (t u : gtree).

  (** * Recalculation *)
  Lemma bh_get ns i x : sh ns i = Some x ->
    exists n h b, ns !! i = Some n /\ get_bound n = Ok b /\ get_height n = h /\ bh ns i = Some (h, b).
  Proof.
    unfold sh, bh. destruct (ns !! i) as [[p l r h b|p v b|]|]; simpl; intros; simplify_eq.
    - eexists _, h, b; eauto.
    - eexists _, 1, b; eauto.
  Qed.

  Lemma recalc_spec ns i p l r h b :
    linked (sh ns) -> ns !! i = Some (Branch p l r h b) ->
    exists ns' h', recalculate O ns i = Ok (ns', Some (p, h'))
      /\ length ns' = length ns /\ (forall j, sh ns' j = sh ns j) /\ (forall j, lb ns' j = lb ns j)
      /\ (forall X, fitx O ns X -> fitx O ns' (fun j => (X j /\ j <> i) \/ j = p)).
  Proof.
    intros Hlink Hi. assert (i < length ns) by by apply lookup_lt_Some in Hi.
    assert (Hsi : sh ns i = Some (SBranch p l r)) by by rewrite (sh_lookup _ _ _ Hi).
    destruct (Hlink _ _ _ _ Hsi) as ((xl & Hxl & _) & (xr & Hxr & _) & Hlr & Hil & Hir).
    unfold recalculate. rewrite (get_Some _ _ _ Hi). cbn [mbind res_mbind res_bind].
    destruct (bh_get _ _ _ Hxl) as (nl & hl & bl & Hnl & Hgl & Hhl & Hbl).
    destruct (bh_get _ _ _ Hxr) as (nr & hr & br & Hnr & Hgr & Hhr & Hbr).
    rewrite (get_Some _ _ _ Hnl). cbn [mbind res_mbind res_bind]. rewrite Hgl.
    cbn [mbind res_mbind res_bind].
    rewrite (get_Some _ _ _ Hnr). cbn [mbind res_mbind res_bind]. rewrite Hgr.
    cbn [mbind res_mbind res_bind]. rewrite Hhl, Hhr. eexists _, _. split; [done|]. split_and!.
    - by rewrite insert_length.
    - intros j. destruct (decide (i = j)) as [<-|]; [by rewrite sh_insert|by rewrite sh_insert_ne].
    - intros j. unfold lb. destruct (decide (i = j)) as [<-|].
      + rewrite list_lookup_insert by done. by rewrite Hi.
      + by rewrite list_lookup_insert_ne.
    - intros X HX j pj lj rj hj bj Hj.
      destruct (decide (i = j)) as [<-|Hne].
      + rewrite list_lookup_insert in Hj by done. simplify_eq. right.
        exists (get_height nl), bl, (get_height nr), br. rewrite !bh_insert_ne by done. done.
      + rewrite list_lookup_insert_ne in Hj by done.
        assert (Hsj : sh ns j = Some (SBranch pj lj rj)) by by rewrite (sh_lookup _ _ _ Hj).
        destruct (Hlink _ _ _ _ Hsj) as ((yl & Hyl & Hpl) & (yr & Hyr & Hpr) & _).
        destruct (decide (lj = i)) as [->|Hli].
        { left. right. rewrite Hsi in Hyl. injection Hyl as <-. by simpl in Hpl. }
        destruct (decide (rj = i)) as [->|Hri].
        { left. right. rewrite Hsi in Hyr. injection Hyr as <-. by simpl in Hpr. }
        destruct (HX _ _ _ _ _ _ Hj) as [?|Hf]; [left; left; split; congruence|right].
        eapply fits_ext; [..|done]; by rewrite bh_insert_ne.
  Qed.

  Lemma recalc_leaf ns i n : ns !! i = Some n -> (forall p l r h b, n <> Branch p l r h b) ->
    recalculate O ns i = Ok (ns, None).
  Proof.
    intros Hi Hn. unfold recalculate. rewrite (get_Some _ _ _ Hi). simpl. destruct n; try done.
    by destruct (Hn parent left right height bound).
  Qed.

  Lemma recalc__spec ns i p l r :
    linked (sh ns) -> sh ns i = Some (SBranch p l r) ->
    exists ns', recalc_ O ns i = Ok ns'
      /\ length ns' = length ns /\ (forall j, sh ns' j = sh ns j) /\ (forall j, lb ns' j = lb ns j)
      /\ (forall X, fitx O ns X -> fitx O ns' (fun j => (X j /\ j <> i) \/ j = p)).
  Proof.
    intros Hlink Hs. apply sh_branch in Hs as (h & b & Hi).
    destruct (recalc_spec _ _ _ _ _ _ _ Hlink Hi) as (ns' & h' & He & ?).
    exists ns'. split; [|done]. unfold recalc_. by rewrite He.
  Qed.

  Lemma linked_ext f g : (forall j, g j = f j) -> linked f -> linked g.
  Proof.
    intros H Hl j p l r Hj. rewrite H in Hj. rewrite !H. by apply (Hl j p l r).
  Qed.

  (** * Swap *)
  Lemma swap_spec ns ls rs lp rp :
    NoDup [ls; rs; lp; rp] -> is_Some (sh ns ls) -> is_Some (sh ns rs) -> is_Some (sh ns lp) -> is_Some (sh ns rp) ->
    exists ns', swap_nodes ns ls rs lp rp = Ok ns'
      /\ length ns' = length ns
      /\ sh ns' lp = redirect_shape ls rs <$> sh ns lp
      /\ sh ns' rp = redirect_shape rs ls <$> sh ns rp
      /\ sh ns' ls = setp rp <$> sh ns ls
      /\ sh ns' rs = setp lp <$> sh ns rs
      /\ (forall j, j <> ls -> j <> rs -> j <> lp -> j <> rp -> sh ns' j = sh ns j)
      /\ (forall j, is_Some (sh ns' j) <-> is_Some (sh ns j))
      /\ (forall j, lb ns' j = lb ns j)
      /\ (forall X, fitx O ns X -> fitx O ns' (fun j => X j \/ j = lp \/ j = rp)).
  Proof.
    intros Hnd (n1 & _ & H1 & _)%sh_some_node (n2 & _ & H2 & _)%sh_some_node
      (n3 & _ & H3 & _)%sh_some_node (n4 & _ & H4 & _)%sh_some_node.
    rewrite !NoDup_cons, !not_elem_of_cons in Hnd.
    destruct Hnd as ((D12 & D13 & D14 & _) & (D23 & D24 & _) & (D34 & _) & _).
    unfold swap_nodes.
    rewrite (modify_ok _ _ _ _ H3). cbn [mbind res_mbind res_bind].
    rewrite (modify_ok _ _ n4) by (by rewrite !list_lookup_insert_ne). cbn [mbind res_mbind res_bind].
    rewrite (modify_ok _ _ n1) by (by rewrite !list_lookup_insert_ne). cbn [mbind res_mbind res_bind].
    rewrite (modify_ok _ _ n2) by (by rewrite !list_lookup_insert_ne).
    apply lookup_lt_Some in H1 as L1. apply lookup_lt_Some in H2 as L2.
    apply lookup_lt_Some in H3 as L3. apply lookup_lt_Some in H4 as L4.
    eexists. split; [done|].
    set (ns' := <[rs:=_]> _).
    assert (E1 : ns' !! ls = Some (set_parent rp n1)).
    { unfold ns'. rewrite list_lookup_insert_ne by done. apply list_lookup_insert. by rewrite !insert_length. }
    assert (E2 : ns' !! rs = Some (set_parent lp n2)).
    { unfold ns'. apply list_lookup_insert. by rewrite !insert_length. }
    assert (E3 : ns' !! lp = Some (redirect_child ls rs n3)).
    { unfold ns'. rewrite !list_lookup_insert_ne by done. by apply list_lookup_insert. }
    assert (E4 : ns' !! rp = Some (redirect_child rs ls n4)).
    { unfold ns'. rewrite 2!list_lookup_insert_ne by done. apply list_lookup_insert. by rewrite !insert_length. }
    assert (E0 : forall j, j <> ls -> j <> rs -> j <> lp -> j <> rp -> ns' !! j = ns !! j).
    { intros. unfold ns'. by rewrite !list_lookup_insert_ne. }
    assert (Hlen : length ns' = length ns) by (unfold ns'; by rewrite !insert_length).
    clearbody ns'.
    assert (Hcases : forall j, (j = ls \/ j = rs \/ j = lp \/ j = rp) \/ (j <> ls /\ j <> rs /\ j <> lp /\ j <> rp)) by lia.
    assert (Hbh : forall j, bh ns' j = bh ns j).
    { intros j. destruct (Hcases j) as [[-> | [-> | [-> | ->]]] | (?&?&?&?)]; unfold bh.
      - rewrite E1, H1. by destruct n1.
      - rewrite E2, H2. by destruct n2.
      - rewrite E3, H3. destruct n3; simpl; try done. by case_decide.
      - rewrite E4, H4. destruct n4; simpl; try done. by case_decide.
      - by rewrite E0. }
    split_and!.
    - done.
    - by rewrite (sh_lookup _ _ _ E3), (sh_lookup _ _ _ H3), shp_redirect.
    - by rewrite (sh_lookup _ _ _ E4), (sh_lookup _ _ _ H4), shp_redirect.
    - by rewrite (sh_lookup _ _ _ E1), (sh_lookup _ _ _ H1), shp_set_parent.
    - by rewrite (sh_lookup _ _ _ E2), (sh_lookup _ _ _ H2), shp_set_parent.
    - intros. unfold sh. by rewrite E0.
    - intros j. destruct (Hcases j) as [[-> | [-> | [-> | ->]]] | (?&?&?&?)].
      + by rewrite (sh_lookup _ _ _ E1), (sh_lookup _ _ _ H1), shp_set_parent, fmap_is_Some.
      + by rewrite (sh_lookup _ _ _ E2), (sh_lookup _ _ _ H2), shp_set_parent, fmap_is_Some.
      + by rewrite (sh_lookup _ _ _ E3), (sh_lookup _ _ _ H3), shp_redirect, fmap_is_Some.
      + by rewrite (sh_lookup _ _ _ E4), (sh_lookup _ _ _ H4), shp_redirect, fmap_is_Some.
      + unfold sh. by rewrite E0.
    - intros j. destruct (Hcases j) as [[-> | [-> | [-> | ->]]] | (?&?&?&?)]; unfold lb.
      + rewrite E1, H1. by destruct n1.
      + rewrite E2, H2. by destruct n2.
      + rewrite E3, H3. destruct n3; simpl; try done. by case_decide.
      + rewrite E4, H4. destruct n4; simpl; try done. by case_decide.
      + by rewrite E0.
    - intros X HX j p l r h b Hj.
      assert ((j = lp \/ j = rp) \/ exists q, ns !! j = Some (Branch q l r h b)) as [?|[q Hq]].
      { destruct (Hcases j) as [[-> | [-> | [-> | ->]]] | (?&?&?&?)]; auto.
        - rewrite E1 in Hj. destruct n1; simpl in Hj; simplify_eq. eauto.
        - rewrite E2 in Hj. destruct n2; simpl in Hj; simplify_eq. eauto.
        - rewrite E0 in Hj by done. eauto. }
      { left. by right. }
      destruct (HX _ _ _ _ _ _ Hq) as [?|Hf]; [by left; left|right].
      eapply fits_ext; [..|done]; apply Hbh.
  Qed.

  (** * Rotation *)
  Definition rot_ok (rot : rotation) (tl tr : gtree) : Prop :=
    match rot with
    | RotNone => True
    | LeftRightLeft | LeftRightRight => exists i l r, tr = GBranch i l r
    | RightLeftLeft | RightLeftRight => exists i l r, tl = GBranch i l r
    | LeftLeftRightLeft | LeftLeftRightRight =>
        (exists i l r, tl = GBranch i l r) /\ (exists i l r, tr = GBranch i l r)
    end.

  Lemma repr_node ns p t : repr (sh ns) p t -> exists n b, ns !! idx t = Some n /\ get_bound n = Ok b.
  Proof. intros H. destruct (repr_idx _ _ _ H) as (x & Hx & _). eapply sh_some_node; eauto. Qed.

  Lemma child_bounds_ok ns p i l r : repr (sh ns) p (GBranch i l r) ->
    exists a b, child_bounds ns i = Ok (a, b).
  Proof.
    intros (Hi & Hl & Hr). apply sh_branch in Hi as (h & b & Hi). unfold child_bounds.
    rewrite (get_Some _ _ _ Hi). cbn [mbind res_mbind res_bind].
    destruct (repr_node _ _ _ Hl) as (nl & bl & Hnl & Hbl).
    destruct (repr_node _ _ _ Hr) as (nr & br & Hnr & Hbr).
    rewrite (get_Some _ _ _ Hnl). cbn [mbind res_mbind res_bind]. rewrite Hbl. cbn [mbind res_mbind res_bind].
    rewrite (get_Some _ _ _ Hnr). cbn [mbind res_mbind res_bind]. rewrite Hbr. cbn [mbind res_mbind res_bind].
    eauto.
  Qed.

  Definition gleaf (t : gtree) : bool := match t with GLeaf _ _ => true | _ => false end.
  Lemma repr_is_leaf ns p t n : repr (sh ns) p t -> ns !! idx t = Some n -> is_leaf n = gleaf t.
  Proof.
    intros H Hn. destruct (repr_idx _ _ _ H) as (x & Hx & Ht).
    rewrite (sh_lookup _ _ _ Hn) in Hx. destruct t, n; simpl in *; simplify_eq; done.
  Qed.

  Lemma best_rotation_ok ns i my tl tr :
    repr (sh ns) i tl -> repr (sh ns) i tr ->
    exists rot mn, best_rotation O ns (idx tl) (idx tr) my (gleaf tl) (gleaf tr) = Ok (rot, mn)
      /\ rot_ok rot tl tr.
  Proof.
    intros Hl Hr. unfold best_rotation.
    destruct (repr_node _ _ _ Hl) as (nl & bl & Hnl & Hbl).
    destruct (repr_node _ _ _ Hr) as (nr & br & Hnr & Hbr).
    rewrite (get_Some _ _ _ Hnl). cbn [mbind res_mbind res_bind]. rewrite Hbl. cbn [mbind res_mbind res_bind].
    rewrite (get_Some _ _ _ Hnr). cbn [mbind res_mbind res_bind]. rewrite Hbr. cbn [mbind res_mbind res_bind].
    assert (Hbetter : forall best rot a (P : rotation -> Prop), P best.1 -> P rot ->
      P (better O best rot a).1).
    { intros [??]. unfold better. intros. by case_match. }
    set (P := fun rot => rot_ok rot tl tr).
    assert (exists best, (if gleaf tr then Ok (RotNone, my) else
         '(rl, rr) ← child_bounds ns (idx tr);
         let best := better O (RotNone, my) LeftRightLeft (sa O rl bl rr) in
         let best := better O best LeftRightRight (sa O rr bl rl) in
         if gleaf tl then Ok best else
           '(ll, lr) ← child_bounds ns (idx tl);
           let best := better O best LeftLeftRightLeft (sa O (b_union O rl lr) ll rr) in
           Ok (better O best LeftLeftRightRight (sa O (b_union O rr lr) rl ll))) = Ok best /\ P best.1)
      as (best & Hb & HP).
    { destruct (gleaf tr) eqn:Hgr; [eexists; by split|].
      destruct tr as [|ir rl rr]; [done|].
      destruct (child_bounds_ok _ _ _ _ _ Hr) as (a & b & Hab). simpl idx. rewrite Hab. cbn [mbind res_mbind res_bind].
      cbv zeta. destruct (gleaf tl) eqn:Hgl.
      - eexists. split; [done|]. apply Hbetter; [apply Hbetter|]; simpl; eauto.
      - destruct tl as [|il ll lr]; [done|].
        destruct (child_bounds_ok _ _ _ _ _ Hl) as (a' & b' & Hab'). simpl idx. rewrite Hab'. cbn [mbind res_mbind res_bind].
        eexists. split; [done|]. unfold P. repeat apply Hbetter; simpl; eauto 10. }
    cbn [mbind res_mbind res_bind] in Hb. cbv zeta in Hb |- *. rewrite Hb. cbn [mbind res_mbind res_bind].
    destruct (gleaf tl) eqn:Hgl.
    - destruct best as [rot mn]. eexists _, _. split; [done|]. done.
    - destruct tl as [|il ll lr]; [done|].
      destruct (child_bounds_ok _ _ _ _ _ Hl) as (a' & b' & Hab'). simpl idx. rewrite Hab'. cbn [mbind res_mbind res_bind].
      cbv zeta.
      match goal with |- context [Ok (better O (better O best ?r1 ?x1) ?r2 ?x2)] =>
        assert (P (better O (better O best r1 x1) r2 x2).1) as HP';
        [repeat apply Hbetter; unfold P; simpl; eauto|destruct (better O (better O best r1 x1) r2 x2) as [rot mn]] end.
      eauto.
  Qed.

  Definition rotated (rot : rotation) (i : nat) (tl tr : gtree) : gtree :=
    match rot, tl, tr with
    | LeftRightLeft, l, GBranch ri rl rr => GBranch i rl (GBranch ri l rr)
    | LeftRightRight, l, GBranch ri rl rr => GBranch i rr (GBranch ri rl l)
    | RightLeftLeft, GBranch li ll lr, r => GBranch i (GBranch li r lr) ll
    | RightLeftRight, GBranch li ll lr, r => GBranch i (GBranch li ll r) lr
    | LeftLeftRightLeft, GBranch li ll lr, GBranch ri rl rr =>
        GBranch i (GBranch li rl lr) (GBranch ri ll rr)
    | LeftLeftRightRight, GBranch li ll lr, GBranch ri rl rr =>
        GBranch i (GBranch li rr lr) (GBranch ri rl ll)
    | _, l, r => GBranch i l r
    end.

  Lemma idx_rotated rot i tl tr : idx (rotated rot i tl tr) = i.
  Proof. by destruct rot, tl, tr. Qed.
  Lemma idxs_rotated rot i tl tr : idxs (rotated rot i tl tr) ≡ₚ idxs (GBranch i tl tr).
  Proof. destruct rot, tl, tr; simpl; solve_Permutation. Qed.
  Lemma leaves_rotated rot i tl tr : leaves (rotated rot i tl tr) ≡ₚ leaves (GBranch i tl tr).
  Proof. destruct rot, tl, tr; simpl; solve_Permutation. Qed.

  Lemma recalc_tail2 ns a i la ra lr rr p :
    linked (sh ns) -> sh ns a = Some (SBranch i la ra) -> sh ns i = Some (SBranch p lr rr) -> a <> i ->
    exists ns', (ns ← recalc_ O ns a; recalc_ O ns i) = Ok ns'
      /\ length ns' = length ns /\ (forall j, sh ns' j = sh ns j) /\ (forall j, lb ns' j = lb ns j)
      /\ (forall X, fitx O ns (fun j => X j \/ j = a \/ j = i) -> fitx O ns' (fun j => X j \/ j = p)).
  Proof.
    intros Hlink Ha Hi Hai.
    destruct (recalc__spec _ _ _ _ _ Hlink Ha) as (ns1 & -> & Hl1 & Hs1 & Hb1 & Hf1).
    cbn [mbind res_mbind res_bind].
    assert (linked (sh ns1)) as Hlink1 by (by eapply linked_ext).
    destruct (recalc__spec ns1 i p lr rr Hlink1) as (ns2 & -> & Hl2 & Hs2 & Hb2 & Hf2); [by rewrite Hs1|].
    exists ns2. split_and!; [done|lia|..].
    - intros j. by rewrite Hs2, Hs1.
    - intros j. by rewrite Hb2, Hb1.
    - intros X HX. apply Hf1, Hf2 in HX. eapply fitx_mono; [|exact HX]. simpl. intros j. naive_solver.
  Qed.
  Lemma recalc_tail3 ns a b i la ra lb' rb lr rr p :
    linked (sh ns) -> sh ns a = Some (SBranch i la ra) -> sh ns b = Some (SBranch i lb' rb) ->
    sh ns i = Some (SBranch p lr rr) -> a <> i -> b <> i ->
    exists ns', (ns ← recalc_ O ns a; ns ← recalc_ O ns b; recalc_ O ns i) = Ok ns'
      /\ length ns' = length ns /\ (forall j, sh ns' j = sh ns j) /\ (forall j, lb ns' j = lb ns j)
      /\ (forall X, fitx O ns (fun j => X j \/ j = a \/ j = b) -> fitx O ns' (fun j => X j \/ j = p)).
  Proof.
    intros Hlink Ha Hb Hi Hai Hbi.
    destruct (recalc__spec _ _ _ _ _ Hlink Ha) as (ns1 & -> & Hl1 & Hs1 & Hb1 & Hf1).
    cbn [mbind res_mbind res_bind].
    assert (linked (sh ns1)) as Hlink1 by (by eapply linked_ext).
    destruct (recalc_tail2 ns1 b i lb' rb lr rr p Hlink1) as (ns2 & -> & Hl2 & Hs2 & Hb2 & Hf2); [by rewrite Hs1..|done|].
    exists ns2. split_and!; [done|lia|..].
    - intros j. by rewrite Hs2, Hs1.
    - intros j. by rewrite Hb2, Hb1.
    - intros X HX. apply Hf1 in HX. apply Hf2. eapply fitx_mono; [|exact HX]. simpl. intros j. naive_solver.
  Qed.

  Lemma NoDup_app3 {A} (l k : list A) : NoDup (l ++ k) ->
    NoDup l /\ NoDup k /\ (forall x, x ∈ l -> x ∉ k).
  Proof. rewrite NoDup_app. tauto. Qed.
  Lemma repr_idx_some f p t : repr f p t -> is_Some (f (idx t)).
  Proof. intros H. eapply repr_some; [done|apply idx_in]. Qed.

  Definition rot_post ns c i tl tr rot ns' : Prop :=
    length ns' = length ns
    /\ repr (sh ns') 0 (plug c (rotated rot i tl tr))
    /\ (forall j, is_Some (sh ns' j) <-> is_Some (sh ns j))
    /\ (forall j, lb ns' j = lb ns j)
    /\ (forall X, fitx O ns X -> fitx O ns' (fun j => X j \/ j = cpar c)).

  (** What remains after the swap has been shown to produce the rotated tree. *)
  Lemma rot_finish ns ns1 c i tl tr rot ks lp rp m :
    NoDup (idxs (plug c (GBranch i tl tr))) ->
    (forall j, is_Some (sh ns j) -> j ∈ idxs (plug c (GBranch i tl tr))) ->
    length ns1 = length ns ->
    repr (sh ns1) 0 (plug c (rotated rot i tl tr)) ->
    (forall j, is_Some (sh ns1 j) <-> is_Some (sh ns j)) ->
    (forall j, lb ns1 j = lb ns j) ->
    (forall X, fitx O ns X -> fitx O ns1 (fun j => X j \/ j = lp \/ j = rp)) ->
    (match rotated rot i tl tr, ks with
     | GBranch _ (GBranch a _ _) (GBranch b _ _), None =>
         lp = a /\ rp = b /\ m = (ns ← recalc_ O ns1 a; ns ← recalc_ O ns b; recalc_ O ns i)
     | GBranch _ (GBranch a _ _) _, Some true => 
         (lp = a /\ rp = i) /\ m = (ns ← recalc_ O ns1 a; recalc_ O ns i)
     | GBranch _ _ (GBranch b _ _), Some false => 
         (lp = i /\ rp = b) /\ m = (ns ← recalc_ O ns1 b; recalc_ O ns i)
     | _, _ => False
     end) ->
    exists ns', m = Ok ns' /\ rot_post ns c i tl tr rot ns'.
  Proof.
    intros Hnd Hin Hlen Hrepr Hsome Hlb Hfit Hm.
    assert (Hnd1 : NoDup (idxs (plug c (rotated rot i tl tr)))).
    { rewrite idxs_plug, idxs_rotated, <- idxs_plug. done. }
    assert (Hlink : linked (sh ns1)).
    { eapply linked_of; [exact Hnd1|exact Hrepr|]. intros j Hj. apply Hsome, Hin in Hj.
      rewrite idxs_plug, idxs_rotated, <- idxs_plug. done. }
    pose proof Hrepr as Hrepr0. apply repr_plug in Hrepr0 as [_ Hu].
    pose proof (idx_rotated rot i tl tr) as Hidx.
    destruct (rotated rot i tl tr) as [|i' u1 u2] eqn:Hrot; [by destruct ks as [[]|]|].
    simpl in Hidx. subst i'. destruct Hu as (Hui & Hu1 & Hu2).
    rewrite idxs_plug in Hnd1. apply NoDup_app3 in Hnd1 as (_ & Hnd1 & _). simpl in Hnd1.
    apply NoDup_cons in Hnd1 as [Hni _].
    assert (Hgoal : forall ns', length ns' = length ns1 -> (forall j, sh ns' j = sh ns1 j) ->
      (forall j, lb ns' j = lb ns1 j) ->
      (forall X, fitx O ns X -> fitx O ns' (fun j => X j \/ j = cpar c)) -> rot_post ns c i tl tr rot ns').
    { intros ns' H1 H2 H3 H4. split_and!.
      - congruence.
      - rewrite Hrot. eapply repr_ext; [|done]. intros; apply H2.
      - intros j. by rewrite H2.
      - intros j. by rewrite H3.
      - done. }
    destruct ks as [[]|].
    - destruct u1 as [|a u11 u12], u2; try done; destruct Hm as [[-> ->] ->]; destruct Hu1 as [Ha _];
      (edestruct (recalc_tail2 ns1 a i (idx u11) (idx u12)) as (ns' & -> & ? & ? & ? & Hf); [try done..|]).
      + intros ->. simpl in Hni. set_solver + Hni.
      + exists ns'. split; [done|]. apply Hgoal; auto.
      + intros ->. simpl in Hni. set_solver + Hni.
      + exists ns'. split; [done|]. apply Hgoal; auto.
    - destruct u1, u2 as [|b u21 u22]; try done; destruct Hm as [[-> ->] ->]; destruct Hu2 as [Hb _];
      (edestruct (recalc_tail2 ns1 b i (idx u21) (idx u22)) as (ns' & -> & ? & ? & ? & Hf); [try done..|]).
      + intros ->. simpl in Hni. set_solver + Hni.
      + exists ns'. split; [done|]. apply Hgoal; auto.
        intros X HX. apply Hf, (fitx_mono _ _ (fun j => X j \/ j = i \/ j = b)); [naive_solver|]. by apply Hfit.
      + intros ->. simpl in Hni. set_solver + Hni.
      + exists ns'. split; [done|]. apply Hgoal; auto.
        intros X HX. apply Hf, (fitx_mono _ _ (fun j => X j \/ j = i \/ j = b)); [naive_solver|]. by apply Hfit.
    - destruct u1 as [|a u11 u12], u2 as [|b u21 u22]; try done. destruct Hm as (-> & -> & ->).
      destruct Hu1 as [Ha _], Hu2 as [Hb _].
      edestruct (recalc_tail3 ns1 a b i) as (ns' & -> & ? & ? & ? & Hf); [try done..|].
      + intros ->. simpl in Hni. set_solver + Hni.
      + intros ->. simpl in Hni. set_solver + Hni.
      + exists ns'. split; [done|]. apply Hgoal; auto.
  Qed.

  Ltac nope := rewrite !not_elem_of_cons; split_and!; try apply not_elem_of_nil; try done; intros ->;
    first [ done | match goal with D : forall x, x ∈ _ -> x ∉ _ |- _ => by eapply D end ].
  Lemma apply_rotation_ok ns c i tl tr rot :
    NoDup (idxs (plug c (GBranch i tl tr))) ->
    (forall j, is_Some (sh ns j) -> j ∈ idxs (plug c (GBranch i tl tr))) ->
    repr (sh ns) 0 (plug c (GBranch i tl tr)) ->
    rot_ok rot tl tr ->
    exists ns', apply_rotation O ns i (idx tl) (idx tr) rot = Ok ns' /\ rot_post ns c i tl tr rot ns'.
  Proof.
    intros Hnd Hin Hrepr Hok.
    pose proof Hrepr as Hrepr0. apply repr_plug in Hrepr0 as (Hc & Hi & Hl & Hr).
    destruct (repr_node _ _ _ Hl) as (nl & bl & Hnl & _).
    destruct (repr_node _ _ _ Hr) as (nr & br & Hnr & _).
    unfold apply_rotation. rewrite (get_Some _ _ _ Hnl), (get_Some _ _ _ Hnr).
    cbn [mbind res_mbind res_bind].
    pose proof Hnd as Hnd'. rewrite idxs_plug in Hnd'. simpl in Hnd'.
    apply NoDup_app3 in Hnd' as (Hndc & Hnd' & Hdc).
    apply NoDup_cons in Hnd' as [Hni Hnd'].
    apply NoDup_app3 in Hnd' as (Hndl & Hndr & Hdlr).
    destruct rot.
    - exists ns. split; [done|]. split_and!; auto. intros X HX. eapply fitx_mono; [|done]. by left.
    - (* rotation *)
      destruct Hok as (ri & rl & rr & ->). simpl in Hr. destruct Hr as (Hri & Hrl & Hrr).
      simpl idx in *. pose proof (sh_lookup _ _ _ Hnr) as Hsr. rewrite Hri in Hsr.
      destruct nr as [q_ l_ r_ h_ b_| |]; try done. simpl in Hsr. injection Hsr as <- <- <-.
      pose proof (idx_in rl) as Irl. pose proof (idx_in rr) as Irr. pose proof (idx_in tl) as Itl.
      apply NoDup_cons in Hndr as [Hnr' Hndr]. apply NoDup_app3 in Hndr as (Hndrl & Hndrr & Hdrr).
      simpl in Hni, Hdlr, Hdc. cbn [get_left_index get_right_index mbind res_mbind res_bind].
      assert (ri <> i) as Nri by (intros ->; set_solver + Hni).
      destruct (swap_spec ns (idx tl) (idx rl) i ri) as (ns1 & -> & Hlen1 & Slp & Srp & Sls & Srs & So & Ssome & Slb & Sfit).
      { rewrite !NoDup_cons, !not_elem_of_cons. pose proof (NoDup_nil_2 (A:=nat)).
        split_and!; try apply not_elem_of_nil; try done; try (intros E; rewrite E in *; set_solver + Hdc Hni Hdlr Hnr' Hdrr Irl Irr Itl). }
      { first [by eapply repr_idx_some|by rewrite Hi|by rewrite Hri|by rewrite Hli]. }
      { first [by eapply repr_idx_some|by rewrite Hi|by rewrite Hri|by rewrite Hli]. }
      { first [by eapply repr_idx_some|by rewrite Hi|by rewrite Hri|by rewrite Hli]. }
      { first [by eapply repr_idx_some|by rewrite Hi|by rewrite Hri|by rewrite Hli]. }
      assert (Sout : forall j, j ∉ [idx tl; idx rl; i; ri] -> sh ns1 j = sh ns j).
      { intros j Hj. rewrite !not_elem_of_cons in Hj. destruct Hj as (?&?&?&?&_). by apply So. }
      cbn [mbind res_mbind res_bind]. eapply (rot_finish _ ns1 _ _ _ _ _ (Some false) i ri); try done; [simpl; apply repr_plug; simpl; split_and!|by destruct rl].
      + eapply reprc_ext; [|exact Hc]. intros j Hj. apply Sout. set_solver + Hj Hdc Hni Hdlr Hnr' Hdrr Irl Irr Itl.
      + rewrite Slp. rewrite ?Hi, ?Hri, ?Hli. simpl. first [by rewrite decide_True|rewrite decide_False; [done|]].
        all: try (intros E; rewrite E in *; set_solver + Hdc Hni Hdlr Hnr' Hdrr Irl Irr Itl).
      + eapply repr_reparent; [..|exact Hrl]; [done| |].
        * intros j Hj Hj'. apply Sout. set_solver + Hj Hj' Hdc Hni Hdlr Hnr' Hdrr Irl Irr Itl.
        * intros x Hx. by rewrite Srs, Hx.
      + rewrite Srp. rewrite ?Hi, ?Hri, ?Hli. simpl. first [by rewrite decide_True|rewrite decide_False; [done|]].
        all: try (intros E; rewrite E in *; set_solver + Hdc Hni Hdlr Hnr' Hdrr Irl Irr Itl).
      + eapply repr_reparent; [..|exact Hl]; [done| |].
        * intros j Hj Hj'. apply Sout. set_solver + Hj Hj' Hdc Hni Hdlr Hnr' Hdrr Irl Irr Itl.
        * intros x Hx. by rewrite Sls, Hx.
      + eapply repr_ext; [|exact Hrr]. intros j Hj. apply Sout. set_solver + Hj Hdc Hni Hdlr Hnr' Hdrr Irl Irr Itl.
    - (* rotation *)
      destruct Hok as (ri & rl & rr & ->). simpl in Hr. destruct Hr as (Hri & Hrl & Hrr).
      simpl idx in *. pose proof (sh_lookup _ _ _ Hnr) as Hsr. rewrite Hri in Hsr.
      destruct nr as [q_ l_ r_ h_ b_| |]; try done. simpl in Hsr. injection Hsr as <- <- <-.
      pose proof (idx_in rl) as Irl. pose proof (idx_in rr) as Irr. pose proof (idx_in tl) as Itl.
      apply NoDup_cons in Hndr as [Hnr' Hndr]. apply NoDup_app3 in Hndr as (Hndrl & Hndrr & Hdrr).
      simpl in Hni, Hdlr, Hdc. cbn [get_left_index get_right_index mbind res_mbind res_bind].
      assert (ri <> i) as Nri by (intros ->; set_solver + Hni).
      destruct (swap_spec ns (idx tl) (idx rr) i ri) as (ns1 & -> & Hlen1 & Slp & Srp & Sls & Srs & So & Ssome & Slb & Sfit).
      { rewrite !NoDup_cons, !not_elem_of_cons. pose proof (NoDup_nil_2 (A:=nat)).
        split_and!; try apply not_elem_of_nil; try done; try (intros E; rewrite E in *; set_solver + Hdc Hni Hdlr Hnr' Hdrr Irl Irr Itl). }
      { first [by eapply repr_idx_some|by rewrite Hi|by rewrite Hri|by rewrite Hli]. }
      { first [by eapply repr_idx_some|by rewrite Hi|by rewrite Hri|by rewrite Hli]. }
      { first [by eapply repr_idx_some|by rewrite Hi|by rewrite Hri|by rewrite Hli]. }
      { first [by eapply repr_idx_some|by rewrite Hi|by rewrite Hri|by rewrite Hli]. }
      assert (Sout : forall j, j ∉ [idx tl; idx rr; i; ri] -> sh ns1 j = sh ns j).
      { intros j Hj. rewrite !not_elem_of_cons in Hj. destruct Hj as (?&?&?&?&_). by apply So. }
      cbn [mbind res_mbind res_bind]. eapply (rot_finish _ ns1 _ _ _ _ _ (Some false) i ri); try done; [simpl; apply repr_plug; simpl; split_and!|by destruct rr].
      + eapply reprc_ext; [|exact Hc]. intros j Hj. apply Sout. set_solver + Hj Hdc Hni Hdlr Hnr' Hdrr Irl Irr Itl.
      + rewrite Slp. rewrite ?Hi, ?Hri, ?Hli. simpl. first [by rewrite decide_True|rewrite decide_False; [done|]].
        all: try (intros E; rewrite E in *; set_solver + Hdc Hni Hdlr Hnr' Hdrr Irl Irr Itl).
      + eapply repr_reparent; [..|exact Hrr]; [done| |].
        * intros j Hj Hj'. apply Sout. set_solver + Hj Hj' Hdc Hni Hdlr Hnr' Hdrr Irl Irr Itl.
        * intros x Hx. by rewrite Srs, Hx.
      + rewrite Srp. rewrite ?Hi, ?Hri, ?Hli. simpl. first [by rewrite decide_True|rewrite decide_False; [done|]].
        all: try (intros E; rewrite E in *; set_solver + Hdc Hni Hdlr Hnr' Hdrr Irl Irr Itl).
      + eapply repr_ext; [|exact Hrl]. intros j Hj. apply Sout. set_solver + Hj Hdc Hni Hdlr Hnr' Hdrr Irl Irr Itl.
      + eapply repr_reparent; [..|exact Hl]; [done| |].
        * intros j Hj Hj'. apply Sout. set_solver + Hj Hj' Hdc Hni Hdlr Hnr' Hdrr Irl Irr Itl.
        * intros x Hx. by rewrite Sls, Hx.
    - (* rotation *)
      destruct Hok as (li & ll & lr & ->). simpl in Hl. destruct Hl as (Hli & Hll & Hlr).
      simpl idx in *. pose proof (sh_lookup _ _ _ Hnl) as Hsl. rewrite Hli in Hsl.
      destruct nl as [q_ l_ r_ h_ b_| |]; try done. simpl in Hsl. injection Hsl as <- <- <-.
      pose proof (idx_in ll) as Ill. pose proof (idx_in lr) as Ilr. pose proof (idx_in tr) as Itr.
      apply NoDup_cons in Hndl as [Hnl' Hndl]. apply NoDup_app3 in Hndl as (Hndll & Hndlr & Hdll).
      simpl in Hni, Hdlr, Hdc. cbn [get_left_index get_right_index mbind res_mbind res_bind].
      assert (li <> i) as Nli by (intros ->; set_solver + Hni).
      destruct (swap_spec ns (idx ll) (idx tr) li i) as (ns1 & -> & Hlen1 & Slp & Srp & Sls & Srs & So & Ssome & Slb & Sfit).
      { rewrite !NoDup_cons, !not_elem_of_cons. pose proof (NoDup_nil_2 (A:=nat)).
        split_and!; try apply not_elem_of_nil; try done; try (intros E; rewrite E in *; set_solver + Hdc Hni Hdlr Hnl' Hdll Ill Ilr Itr). }
      { first [by eapply repr_idx_some|by rewrite Hi|by rewrite Hri|by rewrite Hli]. }
      { first [by eapply repr_idx_some|by rewrite Hi|by rewrite Hri|by rewrite Hli]. }
      { first [by eapply repr_idx_some|by rewrite Hi|by rewrite Hri|by rewrite Hli]. }
      { first [by eapply repr_idx_some|by rewrite Hi|by rewrite Hri|by rewrite Hli]. }
      assert (Sout : forall j, j ∉ [idx ll; idx tr; li; i] -> sh ns1 j = sh ns j).
      { intros j Hj. rewrite !not_elem_of_cons in Hj. destruct Hj as (?&?&?&?&_). by apply So. }
      cbn [mbind res_mbind res_bind]. eapply (rot_finish _ ns1 _ _ _ _ _ (Some true) li i); try done; [simpl; apply repr_plug; simpl; split_and!|by destruct ll].
      + eapply reprc_ext; [|exact Hc]. intros j Hj. apply Sout. set_solver + Hj Hdc Hni Hdlr Hnl' Hdll Ill Ilr Itr.
      + rewrite Srp. rewrite ?Hi, ?Hri, ?Hli. simpl. first [by rewrite decide_True|rewrite decide_False; [done|]].
        all: try (intros E; rewrite E in *; set_solver + Hdc Hni Hdlr Hnl' Hdll Ill Ilr Itr).
      + rewrite Slp. rewrite ?Hi, ?Hri, ?Hli. simpl. first [by rewrite decide_True|rewrite decide_False; [done|]].
        all: try (intros E; rewrite E in *; set_solver + Hdc Hni Hdlr Hnl' Hdll Ill Ilr Itr).
      + eapply repr_reparent; [..|exact Hr]; [done| |].
        * intros j Hj Hj'. apply Sout. set_solver + Hj Hj' Hdc Hni Hdlr Hnl' Hdll Ill Ilr Itr.
        * intros x Hx. by rewrite Srs, Hx.
      + eapply repr_ext; [|exact Hlr]. intros j Hj. apply Sout. set_solver + Hj Hdc Hni Hdlr Hnl' Hdll Ill Ilr Itr.
      + eapply repr_reparent; [..|exact Hll]; [done| |].
        * intros j Hj Hj'. apply Sout. set_solver + Hj Hj' Hdc Hni Hdlr Hnl' Hdll Ill Ilr Itr.
        * intros x Hx. by rewrite Sls, Hx.
    - (* rotation *)
      destruct Hok as (li & ll & lr & ->). simpl in Hl. destruct Hl as (Hli & Hll & Hlr).
      simpl idx in *. pose proof (sh_lookup _ _ _ Hnl) as Hsl. rewrite Hli in Hsl.
      destruct nl as [q_ l_ r_ h_ b_| |]; try done. simpl in Hsl. injection Hsl as <- <- <-.
      pose proof (idx_in ll) as Ill. pose proof (idx_in lr) as Ilr. pose proof (idx_in tr) as Itr.
      apply NoDup_cons in Hndl as [Hnl' Hndl]. apply NoDup_app3 in Hndl as (Hndll & Hndlr & Hdll).
      simpl in Hni, Hdlr, Hdc. cbn [get_left_index get_right_index mbind res_mbind res_bind].
      assert (li <> i) as Nli by (intros ->; set_solver + Hni).
      destruct (swap_spec ns (idx lr) (idx tr) li i) as (ns1 & -> & Hlen1 & Slp & Srp & Sls & Srs & So & Ssome & Slb & Sfit).
      { rewrite !NoDup_cons, !not_elem_of_cons. pose proof (NoDup_nil_2 (A:=nat)).
        split_and!; try apply not_elem_of_nil; try done; try (intros E; rewrite E in *; set_solver + Hdc Hni Hdlr Hnl' Hdll Ill Ilr Itr). }
      { first [by eapply repr_idx_some|by rewrite Hi|by rewrite Hri|by rewrite Hli]. }
      { first [by eapply repr_idx_some|by rewrite Hi|by rewrite Hri|by rewrite Hli]. }
      { first [by eapply repr_idx_some|by rewrite Hi|by rewrite Hri|by rewrite Hli]. }
      { first [by eapply repr_idx_some|by rewrite Hi|by rewrite Hri|by rewrite Hli]. }
      assert (Sout : forall j, j ∉ [idx lr; idx tr; li; i] -> sh ns1 j = sh ns j).
      { intros j Hj. rewrite !not_elem_of_cons in Hj. destruct Hj as (?&?&?&?&_). by apply So. }
      cbn [mbind res_mbind res_bind]. eapply (rot_finish _ ns1 _ _ _ _ _ (Some true) li i); try done; [simpl; apply repr_plug; simpl; split_and!|by destruct lr].
      + eapply reprc_ext; [|exact Hc]. intros j Hj. apply Sout. set_solver + Hj Hdc Hni Hdlr Hnl' Hdll Ill Ilr Itr.
      + rewrite Srp. rewrite ?Hi, ?Hri, ?Hli. simpl. first [by rewrite decide_True|rewrite decide_False; [done|]].
        all: try (intros E; rewrite E in *; set_solver + Hdc Hni Hdlr Hnl' Hdll Ill Ilr Itr).
      + rewrite Slp. rewrite ?Hi, ?Hri, ?Hli. simpl. first [by rewrite decide_True|rewrite decide_False; [done|]].
        all: try (intros E; rewrite E in *; set_solver + Hdc Hni Hdlr Hnl' Hdll Ill Ilr Itr).
      + eapply repr_ext; [|exact Hll]. intros j Hj. apply Sout. set_solver + Hj Hdc Hni Hdlr Hnl' Hdll Ill Ilr Itr.
      + eapply repr_reparent; [..|exact Hr]; [done| |].
        * intros j Hj Hj'. apply Sout. set_solver + Hj Hj' Hdc Hni Hdlr Hnl' Hdll Ill Ilr Itr.
        * intros x Hx. by rewrite Srs, Hx.
      + eapply repr_reparent; [..|exact Hlr]; [done| |].
        * intros j Hj Hj'. apply Sout. set_solver + Hj Hj' Hdc Hni Hdlr Hnl' Hdll Ill Ilr Itr.
        * intros x Hx. by rewrite Sls, Hx.
    - (* rotation *)
      destruct Hok as ((li & ll & lr & ->) & (ri & rl & rr & ->)).
      simpl in Hr. destruct Hr as (Hri & Hrl & Hrr). simpl in Hl. destruct Hl as (Hli & Hll & Hlr).
      simpl idx in *. pose proof (sh_lookup _ _ _ Hnl) as Hsl. rewrite Hli in Hsl.
      destruct nl as [q_ l_ r_ h_ b_| |]; try done. simpl in Hsl. injection Hsl as <- <- <-.
      pose proof (sh_lookup _ _ _ Hnr) as Hsr. rewrite Hri in Hsr.
      destruct nr as [q_ l_ r_ h2_ b2_| |]; try done. simpl in Hsr. injection Hsr as <- <- <-.
      pose proof (idx_in ll) as Ill. pose proof (idx_in lr) as Ilr.
      pose proof (idx_in rl) as Irl. pose proof (idx_in rr) as Irr.
      apply NoDup_cons in Hndl as [Hnl' Hndl]. apply NoDup_app3 in Hndl as (Hndll & Hndlr & Hdll).
      apply NoDup_cons in Hndr as [Hnr' Hndr]. apply NoDup_app3 in Hndr as (Hndrl & Hndrr & Hdrr).
      simpl in Hni, Hdlr, Hdc. cbn [get_left_index get_right_index mbind res_mbind res_bind].
      assert (li <> i) as Nli by (intros ->; set_solver + Hni).
      assert (ri <> i) as Nri by (intros ->; set_solver + Hni).
      assert (li <> ri) as Nlr by (intros ->; set_solver + Hdlr).
      assert (Lll : li ∉ idxs ll) by (set_solver + Hnl').
      assert (Llr : li ∉ idxs lr) by (set_solver + Hnl').
      assert (Rrl : ri ∉ idxs rl) by (set_solver + Hnr').
      assert (Rrr : ri ∉ idxs rr) by (set_solver + Hnr').
      assert (Lrl : li ∉ idxs rl) by (specialize (Hdlr li); set_solver + Hdlr).
      assert (Lrr : li ∉ idxs rr) by (specialize (Hdlr li); set_solver + Hdlr).
      assert (Rll : ri ∉ idxs ll) by (specialize (Hdlr ri); set_solver + Hdlr).
      assert (Rlr : ri ∉ idxs lr) by (specialize (Hdlr ri); set_solver + Hdlr).
      assert (D3 : forall x, x ∈ idxs ll -> x ∉ idxs rl) by (intros x Hx; specialize (Hdlr x); set_solver + Hdlr Hx).
      assert (D4 : forall x, x ∈ idxs ll -> x ∉ idxs rr) by (intros x Hx; specialize (Hdlr x); set_solver + Hdlr Hx).
      assert (D5 : forall x, x ∈ idxs lr -> x ∉ idxs rl) by (intros x Hx; specialize (Hdlr x); set_solver + Hdlr Hx).
      assert (D6 : forall x, x ∈ idxs lr -> x ∉ idxs rr) by (intros x Hx; specialize (Hdlr x); set_solver + Hdlr Hx).
      destruct (swap_spec ns (idx ll) (idx rl) li ri) as (ns1 & -> & Hlen1 & Slp & Srp & Sls & Srs & So & Ssome & Slb & Sfit).
      { rewrite !NoDup_cons, !not_elem_of_cons. pose proof (NoDup_nil_2 (A:=nat)).
        
        assert (idx ll <> idx rl) by (intros E; apply (Hdlr (idx ll)); [set_solver + Ill|rewrite E; set_solver + Irl Irr]).
        assert (idx ll <> li) by (intros E; apply Hnl'; rewrite <- E; set_solver + Ill).
        assert (idx ll <> ri) by (intros E; apply (Hdlr (idx ll)); [set_solver + Ill|rewrite E; set_solver +]).
        assert (idx rl <> li) by (intros E; apply (Hdlr li); [set_solver +|rewrite <- E; set_solver + Irl Irr]).
        assert (idx rl <> ri) by (intros E; apply Hnr'; rewrite <- E; set_solver + Irl Irr).
        split_and!; try apply not_elem_of_nil; done. }
      { first [by eapply repr_idx_some|by rewrite Hi|by rewrite Hri|by rewrite Hli]. }
      { first [by eapply repr_idx_some|by rewrite Hi|by rewrite Hri|by rewrite Hli]. }
      { first [by eapply repr_idx_some|by rewrite Hi|by rewrite Hri|by rewrite Hli]. }
      { first [by eapply repr_idx_some|by rewrite Hi|by rewrite Hri|by rewrite Hli]. }
      assert (Sout : forall j, j ∉ [idx ll; idx rl; li; ri] -> sh ns1 j = sh ns j).
      { intros j Hj. rewrite !not_elem_of_cons in Hj. destruct Hj as (?&?&?&?&_). by apply So. }
      cbn [mbind res_mbind res_bind]. eapply (rot_finish _ ns1 _ _ _ _ _ None li ri); try done.
      simpl. apply repr_plug. simpl. split_and!.
      + eapply reprc_ext; [|exact Hc]. intros j Hj. apply Sout. set_solver + Hj Hdc Hni Hdlr Hnl' Hdll Ill Ilr Hnr' Hdrr Irl Irr Nlr.
      + rewrite Sout; [done|]. set_solver + Nli Nri Hdc Hni Hdlr Hnl' Hdll Ill Ilr Hnr' Hdrr Irl Irr Nlr.
      + rewrite Slp. rewrite ?Hi, ?Hri, ?Hli. simpl. first [by rewrite decide_True|rewrite decide_False; [done|]].
        all: try (intros E; first [apply (Hdll (idx ll)); [done|by rewrite <- E] | apply (Hdrr (idx rl)); [done|by rewrite E]]).
      + eapply repr_reparent; [..|exact Hrl]; [done| |].
        * intros j Hj Hj'. apply Sout. nope.
        * intros x Hx. by rewrite Srs, Hx.
      + eapply repr_ext; [|exact Hlr]. intros j Hj. apply Sout. nope.
      + rewrite Srp. rewrite ?Hi, ?Hri, ?Hli. simpl. first [by rewrite decide_True|rewrite decide_False; [done|]].
        all: try (intros E; first [apply (Hdll (idx ll)); [done|by rewrite <- E] | apply (Hdrr (idx rl)); [done|by rewrite E]]).
      + eapply repr_reparent; [..|exact Hll]; [done| |].
        * intros j Hj Hj'. apply Sout. nope.
        * intros x Hx. by rewrite Sls, Hx.
      + eapply repr_ext; [|exact Hrr]. intros j Hj. apply Sout. nope.
    - (* rotation *)
      destruct Hok as ((li & ll & lr & ->) & (ri & rl & rr & ->)).
      simpl in Hr. destruct Hr as (Hri & Hrl & Hrr). simpl in Hl. destruct Hl as (Hli & Hll & Hlr).
      simpl idx in *. pose proof (sh_lookup _ _ _ Hnl) as Hsl. rewrite Hli in Hsl.
      destruct nl as [q_ l_ r_ h_ b_| |]; try done. simpl in Hsl. injection Hsl as <- <- <-.
      pose proof (sh_lookup _ _ _ Hnr) as Hsr. rewrite Hri in Hsr.
      destruct nr as [q_ l_ r_ h2_ b2_| |]; try done. simpl in Hsr. injection Hsr as <- <- <-.
      pose proof (idx_in ll) as Ill. pose proof (idx_in lr) as Ilr.
      pose proof (idx_in rl) as Irl. pose proof (idx_in rr) as Irr.
      apply NoDup_cons in Hndl as [Hnl' Hndl]. apply NoDup_app3 in Hndl as (Hndll & Hndlr & Hdll).
      apply NoDup_cons in Hndr as [Hnr' Hndr]. apply NoDup_app3 in Hndr as (Hndrl & Hndrr & Hdrr).
      simpl in Hni, Hdlr, Hdc. cbn [get_left_index get_right_index mbind res_mbind res_bind].
      assert (li <> i) as Nli by (intros ->; set_solver + Hni).
      assert (ri <> i) as Nri by (intros ->; set_solver + Hni).
      assert (li <> ri) as Nlr by (intros ->; set_solver + Hdlr).
      assert (Lll : li ∉ idxs ll) by (set_solver + Hnl').
      assert (Llr : li ∉ idxs lr) by (set_solver + Hnl').
      assert (Rrl : ri ∉ idxs rl) by (set_solver + Hnr').
      assert (Rrr : ri ∉ idxs rr) by (set_solver + Hnr').
      assert (Lrl : li ∉ idxs rl) by (specialize (Hdlr li); set_solver + Hdlr).
      assert (Lrr : li ∉ idxs rr) by (specialize (Hdlr li); set_solver + Hdlr).
      assert (Rll : ri ∉ idxs ll) by (specialize (Hdlr ri); set_solver + Hdlr).
      assert (Rlr : ri ∉ idxs lr) by (specialize (Hdlr ri); set_solver + Hdlr).
      assert (D3 : forall x, x ∈ idxs ll -> x ∉ idxs rl) by (intros x Hx; specialize (Hdlr x); set_solver + Hdlr Hx).
      assert (D4 : forall x, x ∈ idxs ll -> x ∉ idxs rr) by (intros x Hx; specialize (Hdlr x); set_solver + Hdlr Hx).
      assert (D5 : forall x, x ∈ idxs lr -> x ∉ idxs rl) by (intros x Hx; specialize (Hdlr x); set_solver + Hdlr Hx).
      assert (D6 : forall x, x ∈ idxs lr -> x ∉ idxs rr) by (intros x Hx; specialize (Hdlr x); set_solver + Hdlr Hx).
      destruct (swap_spec ns (idx ll) (idx rr) li ri) as (ns1 & -> & Hlen1 & Slp & Srp & Sls & Srs & So & Ssome & Slb & Sfit).
      { rewrite !NoDup_cons, !not_elem_of_cons. pose proof (NoDup_nil_2 (A:=nat)).
        
        assert (idx ll <> idx rr) by (intros E; apply (Hdlr (idx ll)); [set_solver + Ill|rewrite E; set_solver + Irl Irr]).
        assert (idx ll <> li) by (intros E; apply Hnl'; rewrite <- E; set_solver + Ill).
        assert (idx ll <> ri) by (intros E; apply (Hdlr (idx ll)); [set_solver + Ill|rewrite E; set_solver +]).
        assert (idx rr <> li) by (intros E; apply (Hdlr li); [set_solver +|rewrite <- E; set_solver + Irl Irr]).
        assert (idx rr <> ri) by (intros E; apply Hnr'; rewrite <- E; set_solver + Irl Irr).
        split_and!; try apply not_elem_of_nil; done. }
      { first [by eapply repr_idx_some|by rewrite Hi|by rewrite Hri|by rewrite Hli]. }
      { first [by eapply repr_idx_some|by rewrite Hi|by rewrite Hri|by rewrite Hli]. }
      { first [by eapply repr_idx_some|by rewrite Hi|by rewrite Hri|by rewrite Hli]. }
      { first [by eapply repr_idx_some|by rewrite Hi|by rewrite Hri|by rewrite Hli]. }
      assert (Sout : forall j, j ∉ [idx ll; idx rr; li; ri] -> sh ns1 j = sh ns j).
      { intros j Hj. rewrite !not_elem_of_cons in Hj. destruct Hj as (?&?&?&?&_). by apply So. }
      cbn [mbind res_mbind res_bind]. eapply (rot_finish _ ns1 _ _ _ _ _ None li ri); try done.
      simpl. apply repr_plug. simpl. split_and!.
      + eapply reprc_ext; [|exact Hc]. intros j Hj. apply Sout. set_solver + Hj Hdc Hni Hdlr Hnl' Hdll Ill Ilr Hnr' Hdrr Irl Irr Nlr.
      + rewrite Sout; [done|]. set_solver + Nli Nri Hdc Hni Hdlr Hnl' Hdll Ill Ilr Hnr' Hdrr Irl Irr Nlr.
      + rewrite Slp. rewrite ?Hi, ?Hri, ?Hli. simpl. first [by rewrite decide_True|rewrite decide_False; [done|]].
        all: try (intros E; first [apply (Hdll (idx ll)); [done|by rewrite <- E] | apply (Hdrr (idx rl)); [done|by rewrite E]]).
      + eapply repr_reparent; [..|exact Hrr]; [done| |].
        * intros j Hj Hj'. apply Sout. nope.
        * intros x Hx. by rewrite Srs, Hx.
      + eapply repr_ext; [|exact Hlr]. intros j Hj. apply Sout. nope.
      + rewrite Srp. rewrite ?Hi, ?Hri, ?Hli. simpl. first [by rewrite decide_True|rewrite decide_False; [done|]].
        all: try (intros E; first [apply (Hdll (idx ll)); [done|by rewrite <- E] | apply (Hdrr (idx rl)); [done|by rewrite E]]).
      + eapply repr_ext; [|exact Hrl]. intros j Hj. apply Sout. nope.
      + eapply repr_reparent; [..|exact Hll]; [done| |].
        * intros j Hj Hj'. apply Sout. nope.
        * intros x Hx. by rewrite Sls, Hx.
  Qed.
End rot.
