(** C12, C13: ray queries on the tree. *)
From stdpp Require Import prelude gmap fin_maps fin_sets sorting.
From Verif Require Import Res DbvtModel DbvtGhost DbvtInv DbvtRotate DbvtRefit DbvtUpdate DbvtQuery DbvtSpec DbvtHistory PropsDbvt DbvtVisitors DbvtExample.

Section ray.
  Context {T B S : Type} (O : dbvt_ops T B S).
  Context {P K : Type} (hit : B -> option P) (along : P -> K) (lt : K -> K -> bool) (inf : K).
  Implicit Types (s : dbvt T B) (a : astate T).

  (** C12 *)
  Theorem C12_query_ray_exact (leq : B -> B -> Prop) a s rng fuel s' fuel' l :
    history O a s -> legal a (Tick rng) -> unflagged a = ∅ -> tick O fuel rng s = Ok s' ->
    enclosure O leq -> fat_ok O a ->
    (forall h v b', live a !! h = Some v -> is_Some (hit (tv_bound O v)) -> leq (tv_bound O v) b' -> is_Some (hit b')) ->
    query_ray O hit fuel' s' = Ok l ->
    l ≡ₚ omap (fun hv => pair hv.2 <$> hit (tv_bound O hv.2)) (map_to_list (live a)).
  Proof.
    intros Hh Hl Hu Ht He Hfat Hm Hq.
    exact (C09_query_exact_after_tick O (V := unit) (fun b _ => hit b) leq a s rng fuel s' fuel' () l Hh Hl Hu Ht He Hfat Hm Hq).
  Qed.
  Theorem C12_query_ray_exact_by_branches (leq : B -> B -> Prop) a s rng fuel s' fuel' l :
    history O a s -> legal a (Tick rng) -> unflagged a = ∅ -> tick O fuel rng s = Ok s' ->
    enclosure O leq -> fat_ok O a ->
    (forall h v j pj lj rj hj b', live a !! h = Some v -> is_Some (hit (tv_bound O v)) -> nodes s' !! j = Some (Branch pj lj rj hj b') ->
       leq (tv_bound O v) b' -> is_Some (hit b')) ->
    query_ray O hit fuel' s' = Ok l ->
    l ≡ₚ omap (fun hv => pair hv.2 <$> hit (tv_bound O hv.2)) (map_to_list (live a)).
  Proof.
    intros Hh Hl Hu Ht He Hfat Hm Hq.
    exact (C09_query_exact_by_branches O (V := unit) (fun b _ => hit b) leq a s rng fuel s' fuel' () l Hh Hl Hu Ht He Hfat Hm Hq).
  Qed.
  Theorem C12_discrete_and_frustum_queries_exact (leq : B -> B -> Prop) (test : B -> bool) (rel : B -> relation3)
      a s rng fuel s' fuel' l l' :
    history O a s -> legal a (Tick rng) -> unflagged a = ∅ -> tick O fuel rng s = Ok s' ->
    enclosure O leq -> fat_ok O a ->
    (forall h v b', live a !! h = Some v -> test (tv_bound O v) = true -> leq (tv_bound O v) b' -> test b' = true) ->
    (forall h v b', live a !! h = Some v -> rel (tv_bound O v) <> ROut -> leq (tv_bound O v) b' -> rel b' <> ROut) ->
    query O fuel' (discrete_visitor test) s' () = Ok l ->
    query O fuel' (frustum_visitor rel) s' () = Ok l' ->
    l.*1 ≡ₚ filter (fun v => test (tv_bound O v)) ((map_to_list (live a)).*2)
    /\ l'.*1 ≡ₚ filter (fun v => rel (tv_bound O v) <> ROut) ((map_to_list (live a)).*2)
    /\ (forall v r, (v, r) ∈ l' -> rel (tv_bound O v) = r).
  Proof.
    intros Hh Hl Hu Ht He Hfat Hm1 Hm2 Hq1 Hq2.
    pose proof (C09_query_exact_after_tick O (V := unit) (fun b _ => if test b then Some () else None) leq a s rng fuel s' fuel' () l Hh Hl Hu Ht He Hfat) as H1.
    pose proof (C09_query_exact_after_tick O (V := unit) (fun b _ => match rel b with ROut => None | r => Some r end) leq a s rng fuel s' fuel' () l' Hh Hl Hu Ht He Hfat) as H2.
    specialize (H1 ltac:(intros h v b' Hlv [x Hx] Hle; destruct (test (tv_bound O v)) eqn:E; [|done]; rewrite (Hm1 h v b' Hlv E Hle); eauto) Hq1).
    specialize (H2 ltac:(intros h v b' Hlv [x Hx] Hle; specialize (Hm2 h v b' Hlv); destruct (rel (tv_bound O v)), (rel b'); try done; eauto;
      exfalso; by apply Hm2) Hq2).
    split_and!.
    - rewrite H1. clear. induction (map_to_list (live a)) as [|[h v] m IH]; [done|]. simpl in *. rewrite filter_cons.
      destruct (test (tv_bound O v)); simpl; [|done]. by f_equiv.
    - rewrite H2. clear. induction (map_to_list (live a)) as [|[h v] m IH]; [done|]. simpl in *. rewrite filter_cons.
      destruct (rel (tv_bound O v)) eqn:E; simpl; try done; by f_equiv.
    - intros v r Hin. rewrite H2 in Hin. apply elem_of_list_omap in Hin as ([h w] & _ & Hin). simpl in Hin.
      destruct (rel (tv_bound O w)) eqn:E; simplify_eq/=; done.
  Qed.

  (** C13 *)
  Lemma closest_loop_in (l : list (T * P)) tmin saved v p :
    closest_loop along lt l tmin saved = Some (v, p) -> (v, p) ∈ l \/ saved = Some (v, p).
  Proof.
    revert tmin saved. induction l as [|[v' p'] l IH]; simpl; intros tmin saved; [by right|].
    destruct (lt (along p') tmin); intros [?|?]%IH; simplify_eq; auto; left; by left || by right.
  Qed.
  Theorem C13_closest_is_a_hit a s fuel v p :
    history O a s -> query_ray_closest O hit along lt inf fuel s = Ok (Some (v, p)) ->
    (exists h, live a !! h = Some v) /\ hit (tv_bound O v) = Some p.
  Proof.
    intros Hh (l & Hq & [= Hc])%res_bind_Ok.
    apply closest_loop_in in Hc as [Hin|]; [|done].
    unfold query in Hq. apply res_bind_Ok in Hq as ([l0 w0] & Hqi & Hlv).
    destruct (C08_query_sound O _ a s fuel inf l0 w0 Hh Hqi) as [_ Hs].
    rewrite (lookup_values_omap _ _ _ Hlv) in Hin. apply elem_of_list_omap in Hin as ([k r] & Hkr & Hx).
    destruct (Hs k r Hkr) as (h & v' & w & w' & Hk & Hlive & Hvis). simpl in Hx. rewrite Hk in Hx. simplify_eq/=.
    split; [eauto|]. unfold closest_visitor in Hvis.
    destruct (hit (tv_bound O v)); [|done]. destruct (lt _ w); by simplify_eq.
  Qed.

  (** Strictly decreasing from [m] to [m']. *)
  Inductive desc : K -> list P -> K -> Prop :=
    | desc_nil m : desc m [] m
    | desc_cons m p l m' : lt (along p) m = true -> desc (along p) l m' -> desc m (p :: l) m'.
  Lemma desc_app m l m' l' m'' : desc m l m' -> desc m' l' m'' -> desc m (l ++ l') m''.
  Proof. induction 1; simpl; [done|]. intros. constructor; auto. Qed.
  Lemma desc_last m l m' :
    (forall x y z, lt x y = true -> lt y z = true -> lt x z = true) ->
    desc m l m' -> l <> [] -> lt m' m = true.
  Proof.
    intros Htr. induction 1 as [|m p l m' Hlt Hd IH]; [done|]. intros _.
    destruct l as [|q l]; [by inversion Hd; subst|]. eapply Htr; [by apply IH|done].
  Qed.
  Lemma closest_loop_desc (l : list (T * P)) m m' saved :
    desc m (l.*2) m' -> closest_loop along lt l m saved = match last l with Some x => Some x | None => saved end
      /\ (forall v p, last l = Some (v, p) -> m' = along p) /\ (l = [] -> m' = m).
  Proof.
    revert m saved. induction l as [|[v p] l IH]; intros m saved Hd; inversion Hd; subst; simpl.
    - split_and!; done.
    - rewrite H2. destruct (IH _ (Some (v, p)) H4) as (-> & H5 & H6). split_and!; [|..].
      + rewrite last_cons. by destruct (last l).
      + intros v' p'. rewrite last_cons. destruct (last l) eqn:E.
        * intros ?. simplify_eq. by eapply H5.
        * intros ?. simplify_eq. apply H6. by apply last_None.
      + done.
  Qed.

  Lemma visit_closest (leq : B -> B -> Prop) s t p m :
    (forall x y z, lt x y = false -> lt y z = false -> lt x z = false) ->
    (forall x, lt x x = false) ->
    (forall x y z, lt x y = true -> lt y z = true -> lt x z = true) ->
    enclosure O leq ->
    (forall i v q j pj lj rj hj b', (i, v) ∈ values s -> hit (tv_bound O v) = Some q ->
       nodes s !! j = Some (Branch pj lj rj hj b') -> leq (tv_bound O v) b' ->
       exists q', hit b' = Some q' /\ lt (along q) (along q') = false) ->
    repr (sh (nodes s)) p t -> fitx O (nodes s) (fun _ => False) ->
    (forall i k, (i, k) ∈ leaves t -> exists v, values s !! k = Some (i, v)) ->
    (forall i b v, lb (nodes s) i = Some b -> (i, v) ∈ values s -> b_contains O b (tv_bound O v) = true) ->
    let r := visit O (closest_visitor hit along lt) s t m in
    desc m (r.1.*2) r.2 /\ (lt m r.2 = false)
    /\ forall i k v q, (i, k) ∈ leaves t -> values s !! k = Some (i, v) -> hit (tv_bound O v) = Some q -> lt (along q) r.2 = false.
  Proof.
    intros Hnt Hirr Htr Henc Hmono Hr Hfit Hv Hlb. revert p m Hr Hv.
    induction t as [i k|i l IHl r IHr]; intros p m Hr Hv; cbn zeta.
    - simpl. destruct (Hv i k ltac:(left)) as [v Hk]. rewrite Hk. simpl. unfold closest_visitor.
      destruct (hit (tv_bound O v)) as [q|] eqn:Hh; simpl.
      + destruct (lt (along q) m) eqn:Hlt; simpl.
        * split_and!; [by repeat constructor| |].
          -- destruct (lt m (along q)) eqn:E; [|done]. rewrite <- (Hirr m). by rewrite (Htr m _ m E Hlt).
          -- intros i' k' v' q' [= -> ->]%elem_of_list_singleton Hk' Hq'. simplify_eq. apply Hirr.
        * split_and!; [constructor|apply Hirr|].
          intros i' k' v' q' [= -> ->]%elem_of_list_singleton Hk' Hq'. by simplify_eq.
      + split_and!; [constructor|apply Hirr|].
        intros i' k' v' q' [= -> ->]%elem_of_list_singleton Hk' Hq'. by simplify_eq.
    - destruct (fit_bound O leq Henc s (GBranch i l r) p Hr Hfit Hv Hlb) as (b & Hb & _ & Hle).
      simpl in Hr |- *. destruct Hr as (Hi & Hl & Hr). apply sh_branch in Hi as (h & b' & Hn).
      simpl in Hb. rewrite (bh_lookup _ _ _ Hn) in Hb. simpl in Hb. simplify_eq. rewrite Hn.
      assert (Hcv : closest_visitor hit along lt m b false =
        match hit b with Some q => if lt (along q) m then (Some q, m) else (None, m) | None => (None, m) end) by done.
      rewrite Hcv. clear Hcv.
      destruct (hit b) as [qb|] eqn:Hhb; simpl.
      + destruct (lt (along qb) m) eqn:Hlt; simpl.
        * specialize (IHr i m Hr ltac:(intros; apply Hv; simpl; set_solver)).
          destruct (visit O (closest_visitor hit along lt) s r m) as [a1 m1].
          specialize (IHl i m1 Hl ltac:(intros; apply Hv; simpl; set_solver)).
          destruct (visit O (closest_visitor hit along lt) s l m1) as [a2 m2]. simpl in *.
          destruct IHr as (D1 & L1 & H1). destruct IHl as (D2 & L2 & H2). split_and!.
          -- rewrite fmap_app. by eapply desc_app.
          -- by eapply Hnt.
          -- intros i' k' v q [Hin|Hin]%elem_of_app Hk Hq; [by eapply H2|].
             eapply Hnt; [by eapply H1|done].
        * split_and!; [constructor|apply Hirr|].
          intros i' k' v q Hin Hk Hq.
          destruct (Hmono i' v q i _ _ _ _ b (elem_of_list_lookup_2 _ _ _ Hk) Hq Hn) as (q' & Hq' & Hlt'); [by eapply Hle|]. simplify_eq. by eapply Hnt.
      + split_and!; [constructor|apply Hirr|].
        intros i' k' v q Hin Hk Hq.
        destruct (Hmono i' v q i _ _ _ _ b (elem_of_list_lookup_2 _ _ _ Hk) Hq Hn) as (q' & Hq' & Hlt'); [by eapply Hle|]. simplify_eq.
  Qed.

  (** Closest hit, when no enclosing bound reports a farther hit than what it encloses
      (so in particular when the ray starts outside every branch bound of the tree; for boxes see
      PropsAabbTree). *)
  Theorem C13_closest_is_minimal (leq : B -> B -> Prop) a s rng fuel s' fuel' x :
    history O a s -> legal a (Tick rng) -> unflagged a = ∅ -> tick O fuel rng s = Ok s' ->
    enclosure O leq -> fat_ok O a ->
    (forall x, lt x x = false) ->
    (forall x y z, lt x y = true -> lt y z = true -> lt x z = true) ->
    (forall x y z, lt x y = false -> lt y z = false -> lt x z = false) ->
    (forall h v q j pj lj rj hj b', live a !! h = Some v -> hit (tv_bound O v) = Some q ->
       nodes s' !! j = Some (Branch pj lj rj hj b') -> leq (tv_bound O v) b' ->
       exists q', hit b' = Some q' /\ lt (along q) (along q') = false) ->
    query_ray_closest O hit along lt inf fuel' s' = Ok x ->
    match x with
    | None => forall h v q, live a !! h = Some v -> hit (tv_bound O v) = Some q -> lt (along q) inf = false
    | Some (v, p) => hit (tv_bound O v) = Some p /\ lt (along p) inf = true /\ (exists h, live a !! h = Some v)
        /\ forall h v' q, live a !! h = Some v' -> hit (tv_bound O v') = Some q -> lt (along q) (along p) = false
    end.
  Proof.
    intros Hh Hl Hu Ht Henc Hfat Hirr Htr Hnt Hmono Hq.
    assert (Hh' : history O (anext a (Tick rng) NoOut) s').
    { eapply (history_step _ _ s (Tick rng) fuel); eauto. simpl. by rewrite Ht. }
    pose proof (fun v p => C13_closest_is_a_hit (anext a (Tick rng) NoOut) s' fuel' v p Hh') as Hsound. simpl in Hsound.
    rewrite Hq in Hsound.
    pose proof (history_inv _ _ _ Hh) as Hi0.
    destruct (step_tick O a s rng Hi0 Hl) as (n & s1 & Hrun & Hinv & Hv & Hrn & Hup & _).
    assert (s1 = s') as ->.
    { assert (exec O fuel (Tick rng) s = Ok (s', NoOut)) as He by (simpl; by rewrite Ht).
      apply (exec_mono O _ (max n fuel)) in He; [|lia]. simpl in He. rewrite Hrun in He by lia. simpl in He. congruence. }
    clear Hrun Ht.
    unfold query_ray_closest in Hq. apply res_bind_Ok in Hq as (l & Hq & [= Hx]).
    unfold query in Hq. apply res_bind_Ok in Hq as ([l0 w0] & Hq & Hlv).
    pose proof (fit_of_empty_queue O _ (i_fit _ _ _ Hinv) Hrn) as Hfit.
    destruct (i_wf _ _ _ Hinv) as [[He|[t Hwf]] _].
    - assert (exists fl, fuel' = Datatypes.S fl) as [fl ->].
      { destruct fuel'; [by unfold query_for_indices in Hq|eauto]. }
      rewrite (query_empty O _) in Hq by (auto; lia). simplify_eq. simpl in Hlv. simplify_eq. simpl.
      intros h v q Hlive. apply (i_live _ _ _ Hi0) in Hlive. rewrite <- Hv in Hlive. destruct He as (_ & He & _).
      rewrite He in Hlive. by apply elem_of_nil in Hlive.
    - eapply (query_mono _ (max fuel' (length (nodes s')))) in Hq; [|lia].
      destruct (query_tree O (closest_visitor hit along lt) (max fuel' (length (nodes s'))) s' t inf Hwf) as [Hq'|[Hq' _]]; [lia| |congruence].
      rewrite Hq in Hq'. simplify_eq.
      destruct (visit_closest leq s' t 0 inf Hnt Hirr Htr Henc) as (Hd & _ & Hall).
      { intros i v q j pj lj rj hj b' Hiv. apply (Hmono i). apply (i_live _ _ _ Hi0). by rewrite <- Hv. }
      { exact (wt_repr _ _ Hwf). }
      { exact Hfit. }
      { intros i k. apply (wf_tree_leaf _ _ i k Hwf). }
      { intros i b v Hi Hiv. destruct (i_fat _ _ _ Hinv i b v Hi Hiv) as [?|[Hy|Hy]]; [|done| |].
        - apply (Hfat i). apply (i_live _ _ _ Hi0). by rewrite <- Hv.
        - rewrite Hup in Hy. by apply elem_of_nil in Hy.
        - simpl in Hy. rewrite Hu in Hy. set_solver. }
      rewrite <- Hq' in Hd, Hall. simpl in Hd, Hall.
      assert (Hl2 : l.*2 = l0.*2).
      { destruct (lookup_values_ok s' l0) as (l' & Hl' & HF).
        { intros k r Hin. destruct (C08_query_sound O _ _ s' _ inf l0 w0 Hh' Hq) as [_ Hs].
          destruct (Hs k r Hin) as (? & ? & ? & ? & ? & _). eauto. }
        rewrite Hlv in Hl'. simplify_eq. clear -HF. induction HF as [|[k r] [v p] l0 l [_ H] HF IH]; [done|].
        simpl in *. by subst; f_equal. }
      rewrite <- Hl2 in Hd. destruct (closest_loop_desc l inf w0 None Hd) as (-> & Hlast & Hnil).
      assert (Hmin : forall h v q, live a !! h = Some v -> hit (tv_bound O v) = Some q -> lt (along q) w0 = false).
      { intros h v q Hlive Hq2. apply (i_live _ _ _ Hi0) in Hlive. rewrite <- Hv in Hlive.
        apply elem_of_list_lookup in Hlive as [k Hk]. eapply Hall; eauto. eapply wf_tree_leaf; eauto. }
      destruct (last l) as [[v p]|] eqn:El.
      + destruct (Hsound v p) as [? ?].
        { do 2 f_equal. destruct (closest_loop_desc l inf w0 None Hd) as (-> & _). by rewrite El. }
        rewrite <- (Hlast v p eq_refl). split_and!; auto.
        eapply desc_last; [done|exact Hd|]. by destruct l.
      + apply last_None in El. by rewrite <- (Hnil El).
  Qed.
End ray.

(** One-dimensional witnesses: a ray from 200 towards increasing coordinates, against
    intervals; like the crate's ray/AABB test it reports the entry point, or the
    exit point when the origin is inside (aabb2.rs 140-216). *)
Definition ival_hit (b : nat * nat) : option nat :=
  if decide (b.2 < 200) then None else if decide (200 <= b.1) then Some b.1 else Some b.2.
Definition ival_along (p : nat) : nat := p - 200.
Definition ival_lt (a b : nat) : bool := bool_decide (a < b).
Definition closest_demo : list (op (nat * nat)) :=
  [Insert (220, 230); Insert (250, 260); Insert (100, 255); Tick (fun _ => false)].
Definition closest_state : astate (nat * nat) * dbvt (nat * nat) (nat * nat) :=
  default (astart, dbvt_new) (replay ival_ops 100 closest_demo astart dbvt_new).
Lemma closest_history : history ival_ops closest_state.1 closest_state.2.
Proof.
  eapply (replay_history ival_ops 100 closest_demo); [constructor|vm_compute; reflexivity..].
Qed.
Theorem C13_origin_inside_branch_refuted :
  exists a s, history ival_ops a s /\ refit_nodes s = [] /\ live a !! 1 = Some (220, 230)
    /\ ival_hit (220, 230) = Some 220
    /\ query_ray_closest ival_ops ival_hit ival_along ival_lt 1000 100 s = Ok (Some ((250, 260), 250)).
Proof.
  exists closest_state.1, closest_state.2. split; [apply closest_history|]. vm_compute. done.
Qed.
(** With all intervals in front of the origin the monotonicity hypothesis of
    [C13_closest_is_minimal] holds. *)
Definition front_hit (b : nat * nat) : option nat := if decide (b.1 <= b.2) then Some b.1 else None.
Example C13_hypotheses_met :
  (forall x, ival_lt x x = false) /\
  (forall x y z, ival_lt x y = true -> ival_lt y z = true -> ival_lt x z = true) /\
  (forall x y z, ival_lt x y = false -> ival_lt y z = false -> ival_lt x z = false) /\
  (forall b b' q, front_hit b = Some q -> ival_leq b b' ->
     exists q', front_hit b' = Some q' /\ ival_lt (ival_along q) (ival_along q') = false) /\
  history ival_ops closest_state.1 closest_state.2 /\ unflagged closest_state.1 = ∅ /\
  legal closest_state.1 (@Tick (nat * nat) (fun _ => true)).
Proof.
  unfold ival_lt, front_hit, ival_along, ival_leq. split_and!; intros.
  - apply bool_decide_eq_false_2; lia.
  - apply bool_decide_eq_true_2. apply bool_decide_eq_true in H, H0. lia.
  - apply bool_decide_eq_false_2. apply bool_decide_eq_false in H, H0. lia.
  - destruct (decide (b.1 <= b.2)); simplify_eq. rewrite decide_True by lia. eexists. split; [done|].
    apply bool_decide_eq_false_2. lia.
  - apply closest_history.
  - apply (bool_decide_eq_true_1 (unflagged closest_state.1 = ∅)). vm_compute. done.
  - apply legalb_legal. vm_compute. done.
Qed.
