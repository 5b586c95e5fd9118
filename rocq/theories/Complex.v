(** Shapes made of several primitives: what the loops over pairs compute, for any numbers
    with the order laws (floats included). *)
From stdpp Require Import prelude.
From Verif Require Import Res Num MinkModel.

Section generic.
  Context {S V L R : Type} `{NumOrd S}.
  Notation C := (Contact S V).
  Implicit Types (inter : L * R -> res (option C)) (ls : list L) (rs : list R).

  Lemma pairs_elem ls rs l r : (l, r) ∈ pairs ls rs <-> l ∈ ls /\ r ∈ rs.
  Proof. unfold pairs. set_solver. Qed.
  Lemma pairs_nil ls rs : pairs ls rs = [] <-> ls = [] \/ rs = [].
  Proof.
    split.
    - intros E. destruct ls as [|l ls]; [by left|]. destruct rs as [|r rs]; [by right|]. exfalso.
      assert ((l, r) ∈ pairs (l :: ls) (r :: rs)) by (apply pairs_elem; split; left). rewrite E in H1. set_solver.
    - destruct (pairs ls rs) as [|[l r] ps] eqn:E; [done|]. assert (Hp : (l, r) ∈ pairs ls rs) by (rewrite E; left).
      apply pairs_elem in Hp as [Hl Hr]. intros [-> | ->]; set_solver.
  Qed.

  (** [found inter ps cs]: running [inter] over [ps] gives the contacts [cs], in order. *)
  Definition outcome (inter : L * R -> res (option C)) (p : L * R) : list C :=
    match inter p with Ok (Some c) => [c] | _ => [] end.
  Definition contacts (inter : L * R -> res (option C)) (ps : list (L * R)) : list C := mjoin (outcome inter <$> ps).
  Lemma contacts_elem inter ps c : c ∈ contacts inter ps <-> exists p, p ∈ ps /\ inter p = Ok (Some c).
  Proof.
    unfold contacts. rewrite elem_of_list_join. split.
    - intros (cs & Hc & Hcs). apply elem_of_list_fmap in Hcs as (p & -> & Hp). exists p. split; [done|].
      unfold outcome in Hc. destruct (inter p) as [[c'|]| |]; set_solver.
    - intros (p & Hp & E). exists (outcome inter p). split; [unfold outcome; rewrite E; set_solver|]. apply elem_of_list_fmap. eauto.
  Qed.
  Lemma complex_loop_full inter ps : forall acc,
    (forall p, p ∈ ps -> exists o, inter p = Ok o) ->
    complex_loop inter FullResolution ps acc = Ok (None, acc ++ contacts inter ps).
  Proof.
    induction ps as [|p ps IH]; intros acc Ht; cbn [complex_loop].
    { unfold contacts. cbn. by rewrite app_nil_r. }
    destruct (Ht p ltac:(left)) as [o Eo]. rewrite Eo. cbn [mbind res_mbind res_bind].
    assert (Ht' : forall q, q ∈ ps -> exists o, inter q = Ok o) by (intros q Hq; apply Ht; by right).
    unfold contacts, outcome. cbn [fmap list_fmap mjoin list_join]. rewrite Eo. destruct o as [c|]; rewrite IH by done.
    - by rewrite <- app_assoc.
    - done.
  Qed.
  (** [CollisionOnly]: the first pair with a contact decides. *)
  Lemma complex_loop_only inter ps acc :
    complex_loop inter CollisionOnly ps acc =
      match ps with
      | [] => Ok (None, acc)
      | p :: ps => match inter p with
          | Ok None => complex_loop inter CollisionOnly ps acc
          | Ok (Some c) => Ok (Some c, acc)
          | Panic => Panic
          | OutOfFuel => OutOfFuel end
      end.
  Proof. destruct ps as [|p ps]; [done|]. cbn [complex_loop]. by destruct (inter p) as [[c|]| |]. Qed.
  Lemma complex_loop_first inter ps1 p c ps2 acc :
    (forall q, q ∈ ps1 -> inter q = Ok None) -> inter p = Ok (Some c) ->
    complex_loop inter CollisionOnly (ps1 ++ p :: ps2) acc = Ok (Some c, acc).
  Proof.
    intros Hn Hp. induction ps1 as [|q ps1 IH]; cbn [app]; rewrite complex_loop_only.
    - by rewrite Hp.
    - rewrite (Hn q) by left. apply IH. intros q' Hq'. apply Hn. by right.
  Qed.
  Lemma complex_loop_only_inv inter ps acc o acc' :
    complex_loop inter CollisionOnly ps acc = Ok (o, acc') ->
    acc' = acc /\ match o with
    | None => forall p, p ∈ ps -> inter p = Ok None
    | Some c => exists ps1 p ps2, ps = ps1 ++ p :: ps2 /\ (forall q, q ∈ ps1 -> inter q = Ok None) /\ inter p = Ok (Some c)
    end.
  Proof.
    revert acc. induction ps as [|p ps IH]; intros acc; rewrite complex_loop_only.
    { intros [= <- <-]. split; [done|]. set_solver. }
    destruct (inter p) as [[c|]| |] eqn:Ep; [intros [= <- <-]; split; [done|]; exists [], p, ps; set_solver| |done|done].
    intros E. destruct (IH acc E) as [-> Ho]. split; [done|]. destruct o as [c|].
    - destruct Ho as (ps1 & q & ps2 & -> & Hn & Hq). exists (p :: ps1), q, ps2. split; [done|]. split; [|done].
      intros q' Hq'. apply elem_of_cons in Hq' as [->|Hq']; auto.
    - intros q Hq. apply elem_of_cons in Hq as [->|Hq]; auto.
  Qed.

  Lemma max_by_depth_spec : forall (cs : list C) (best : C),
    ok (c_depth best) -> (forall c, c ∈ cs -> ok (c_depth c)) ->
    exists m, max_by_depth best cs = Ok m /\ m ∈ best :: cs /\ forall c, c ∈ best :: cs -> Le (c_depth c) (c_depth m).
  Proof.
    induction cs as [|c cs IH]; intros best Hb Hc; cbn [max_by_depth].
    { exists best. split; [done|]. split; [left|]. intros c Hx. apply elem_of_list_singleton in Hx as ->. apply le_refl, Hb. }
    assert (Hcc : ok (c_depth c)) by (apply Hc; left).
    assert (Hcs : forall c', c' ∈ cs -> ok (c_depth c')) by (intros c' Hc'; apply Hc; by right).
    pose proof (pcmp_spec (c_depth best) (c_depth c) Hb Hcc) as Hp.
    destruct (pcmp (c_depth best) (c_depth c)) as [[]|]; [| | |done].
    - destruct (IH c Hcc Hcs) as (m & E & Hm & Hmax). exists m. split; [done|]. split; [by right|].
      intros c' Hc'. apply elem_of_cons in Hc' as [->|Hc']; [|by apply Hmax].
      eapply ord_trans; [|apply Hmax; left]. apply eqn_le in Hp. apply Hp.
    - destruct (IH c Hcc Hcs) as (m & E & Hm & Hmax). exists m. split; [done|]. split; [by right|].
      intros c' Hc'. apply elem_of_cons in Hc' as [->|Hc']; [|by apply Hmax].
      eapply ord_trans; [|apply Hmax; left]. by apply lt_le.
    - destruct (IH best Hb Hcs) as (m & E & Hm & Hmax). exists m. split; [done|]. split.
      { apply elem_of_cons in Hm as [->|Hm]; [left|by right; right]. }
      intros c' Hc'. apply elem_of_cons in Hc' as [->|Hc']; [apply Hmax; left|].
      apply elem_of_cons in Hc' as [->|Hc']; [|apply Hmax; by right].
      eapply ord_trans; [|apply Hmax; left]. by apply lt_le.
  Qed.
  (** A depth that is not a number panics as soon as there is another contact. *)
  Lemma max_by_depth_nan : forall (cs : list C) (best : C),
    cs <> [] -> (exists c, c ∈ best :: cs /\ ~ ok (c_depth c)) -> max_by_depth best cs = Panic.
  Proof.
    induction cs as [|c cs IH]; intros best Hne Hex; [done|]. cbn [max_by_depth].
    destruct (decide (ok (c_depth best))) as [Hb|Hb]; [|by rewrite pcmp_nan by auto].
    destruct (decide (ok (c_depth c))) as [Hc|Hc]; [|by rewrite pcmp_nan by auto].
    destruct Hex as (c' & Hin & Hn). apply elem_of_cons in Hin as [->|Hin]; [done|]. apply elem_of_cons in Hin as [->|Hin]; [done|].
    assert (cs <> []) by (intros ->; set_solver).
    pose proof (pcmp_spec _ _ Hb Hc) as Hp. destruct (pcmp (c_depth best) (c_depth c)) as [[]|]; [| | |done];
      (apply IH; [done|]; exists c'; split; [by right|done]).
  Qed.
  Lemma min_by_toi_spec : forall (cs : list C) (best : C),
    ok (c_toi best) -> (forall c, c ∈ cs -> ok (c_toi c)) ->
    min_by_toi best cs ∈ best :: cs /\ forall c, c ∈ best :: cs -> Le (c_toi (min_by_toi best cs)) (c_toi c).
  Proof.
    induction cs as [|c cs IH]; intros best Hb Hc; cbn [min_by_toi].
    { split; [left|]. intros c Hx. apply elem_of_list_singleton in Hx as ->. apply le_refl, Hb. }
    assert (Hcc : ok (c_toi c)) by (apply Hc; left).
    assert (Hcs : forall c', c' ∈ cs -> ok (c_toi c')) by (intros c' Hc'; apply Hc; by right).
    pose proof (pcmp_spec (c_toi best) (c_toi c) Hb Hcc) as Hp.
    set (x := match pcmp (c_toi best) (c_toi c) with Some Gt => c | _ => best end).
    assert (Hx : x ∈ [best; c] /\ ok (c_toi x) /\ Le (c_toi x) (c_toi best) /\ Le (c_toi x) (c_toi c)).
    { unfold x. destruct (pcmp (c_toi best) (c_toi c)) as [[]|]; [| | |done].
      - apply eqn_le in Hp as [H1 H2]. split; [left|]. split; [done|]. split; [by apply le_refl|done].
      - apply lt_le in Hp. split; [left|]. split; [done|]. split; [by apply le_refl|done].
      - apply lt_le in Hp. split; [right; left|]. split; [done|]. split; [done|by apply le_refl]. }
    destruct Hx as (Hx1 & Hx2 & Hx3 & Hx4). destruct (IH x Hx2 Hcs) as (Hm & Hmin). fold x. split.
    { clear -Hm Hx1. clearbody x. apply elem_of_cons in Hm as [->|Hm]; [|by right; right].
      apply elem_of_cons in Hx1 as [->|Hx1]; [left|]. apply elem_of_list_singleton in Hx1 as ->. right. left. }
    intros c' Hc'. apply elem_of_cons in Hc' as [->|Hc']; [eapply le_trans; [apply Hmin; left|done]|].
    apply elem_of_cons in Hc' as [->|Hc']; [eapply le_trans; [apply Hmin; left|done]|apply Hmin; by right].
  Qed.
  (** Distances. *)
  Lemma dist_complex_loop_spec (dist : L * R -> res (option S)) : forall ps best,
    (forall p, p ∈ ps -> exists o, dist p = Ok o /\ forall d, o = Some d -> ok d) ->
    (forall d, best = Some d -> ok d) ->
    exists o, dist_complex_loop dist ps best = Ok o /\
      match o with
      | None => (exists p, p ∈ ps /\ dist p = Ok None) \/ (ps = [] /\ best = None)
      | Some d => ok d /\ (forall p, p ∈ ps -> exists d', dist p = Ok (Some d') /\ Le d d') /\
          (forall d', best = Some d' -> Le d d') /\ (best = Some d \/ exists p, p ∈ ps /\ dist p = Ok (Some d))
      end.
  Proof.
    induction ps as [|p ps IH]; intros best Ht Hb; cbn [dist_complex_loop].
    { exists best. split; [done|]. destruct best as [d|]; [|by right]. specialize (Hb d eq_refl). split; [done|]. split; [set_solver|].
      split; [intros d' [= ->]; by apply le_refl|by left]. }
    destruct (Ht p ltac:(left)) as (o & Eo & Ho). rewrite Eo. cbn [mbind res_mbind res_bind]. destruct o as [d|].
    2:{ exists None. split; [done|]. left. exists p. split; [left|done]. }
    specialize (Ho d eq_refl).
    assert (Ht' : forall q, q ∈ ps -> exists o, dist q = Ok o /\ forall d, o = Some d -> ok d) by (intros q Hq; apply Ht; by right).
    set (m := match best with None => d | Some m => fmin d m end).
    assert (Hm : ok m /\ Le m d /\ (forall d', best = Some d' -> Le m d') /\ (m = d \/ best = Some m)).
    { unfold m. destruct best as [b|]; [|split; [done|]; split; [by apply le_refl|]; split; [done|by left]].
      specialize (Hb b eq_refl). unfold fmin. assert (neq d d = true) as -> by (apply eqn_le; split; by apply le_refl).
      assert (neq b b = true) as -> by (apply eqn_le; split; by apply le_refl). cbn [negb].
      destruct (nlt b d) eqn:El.
      - split; [done|]. split; [by apply lt_le|]. split; [intros d' [= ->]; by apply le_refl|by right].
      - split; [done|]. split; [by apply le_refl|]. split; [|by left]. intros d' [= <-]. rewrite ord_lt in El by done. by apply negb_false_iff in El. }
    destruct Hm as (Hm1 & Hm2 & Hm3 & Hm4). destruct (IH (Some m) Ht' ltac:(by intros ? [= <-])) as (o & E & Hs).
    exists o. split; [done|]. destruct o as [x|].
    - destruct Hs as (Hx & Hall & Hbest & Hin). specialize (Hbest m eq_refl). split; [done|]. split.
      { intros q Hq. apply elem_of_cons in Hq as [->|Hq]; [|by apply Hall]. exists d. split; [done|]. by eapply le_trans. }
      split; [intros d' Hd'; eapply le_trans; [done|by apply Hm3]|].
      destruct Hin as [[= <-]|(q & Hq & Eq)]; [|right; exists q; split; [by right|done]].
      destruct Hm4 as [Hm4|Hm4]; [right; exists p; split; [left|by rewrite Hm4]|by left].
    - destruct Hs as [(q & Hq & Eq)|[_ ?]]; [|done]. left. exists q. split; [by right|done].
  Qed.
  Lemma dist_complex_none (dist : L * R -> res (option S)) ps1 p ps2 best :
    (forall q, q ∈ ps1 -> exists d, dist q = Ok (Some d)) -> dist p = Ok None ->
    dist_complex_loop dist (ps1 ++ p :: ps2) best = Ok None.
  Proof.
    intros Hs Hp. revert best. induction ps1 as [|q ps1 IH]; intros best; cbn [app dist_complex_loop].
    - by rewrite Hp.
    - destruct (Hs q ltac:(left)) as [d ->]. cbn [mbind res_mbind res_bind]. apply IH. intros q' Hq'. apply Hs. by right.
  Qed.
  Lemma complex_loop_full_inv inter ps : forall acc o acc',
    complex_loop inter FullResolution ps acc = Ok (o, acc') ->
    o = None /\ acc' = acc ++ contacts inter ps /\ forall p, p ∈ ps -> exists x, inter p = Ok x.
  Proof.
    induction ps as [|p ps IH]; intros acc o acc'; cbn [complex_loop].
    { intros [= <- <-]. unfold contacts. cbn. rewrite app_nil_r. split; [done|]. split; [done|]. intros p Hp. by apply elem_of_nil in Hp. }
    destruct (inter p) as [x| |] eqn:Ep; cbn [mbind res_mbind res_bind]; [|done..]. intros E.
    assert (E' : complex_loop inter FullResolution ps (acc ++ outcome inter p) = Ok (o, acc')).
    { unfold outcome. rewrite Ep. destruct x; [done|by rewrite app_nil_r]. }
    destruct (IH _ _ _ E') as (-> & -> & Ht). split; [done|]. split.
    - unfold contacts. cbn [fmap list_fmap mjoin list_join]. by rewrite <- app_assoc.
    - intros q Hq. apply elem_of_cons in Hq as [->|Hq]; [by eexists|by apply Ht].
  Qed.
  Lemma max_by_depth_elem : forall (cs : list C) (best m : C), max_by_depth best cs = Ok m -> m ∈ best :: cs.
  Proof.
    induction cs as [|c cs IH]; intros best m; cbn [max_by_depth]; [intros [= <-]; left|].
    destruct (pcmp (c_depth best) (c_depth c)) as [[]|]; [| | |done]; intros E; apply IH in E; clear -E.
    - by right.
    - by right.
    - apply elem_of_cons in E as [->|E]; [left|by right; right].
  Qed.
  Lemma min_by_toi_elem : forall (cs : list C) (best : C), min_by_toi best cs ∈ best :: cs.
  Proof.
    induction cs as [|c cs IH]; intros best; cbn [min_by_toi]; [left|].
    pose proof (IH (match pcmp (c_toi best) (c_toi c) with Some Gt => c | _ => best end)) as Hm.
    apply elem_of_cons in Hm as [->|Hm]; [|by right; right]. destruct (pcmp _ _) as [[]|]; [left|left|right; left|left].
  Qed.
  (** Whatever the pairs do: a contact that comes out is the contact of a pair. *)
  Lemma intersection_complex_from inter st ls rs c :
    intersection_complex inter st ls rs = Ok (Some c) -> exists l r, l ∈ ls /\ r ∈ rs /\ inter (l, r) = Ok (Some c).
  Proof.
    unfold intersection_complex. destruct (complex_loop inter st (pairs ls rs) []) as [[o acc]| |] eqn:El; [|done..].
    cbn [mbind res_mbind res_bind]. intros E.
    assert (Hp : exists p, p ∈ pairs ls rs /\ inter p = Ok (Some c)).
    { destruct st.
      - destruct (complex_loop_full_inv _ _ _ _ _ El) as (-> & -> & _). cbn [app] in E.
        destruct (contacts inter (pairs ls rs)) as [|c0 cs] eqn:Ec; [done|].
        destruct (max_by_depth c0 cs) as [m| |] eqn:Em; [|done..]. cbn [mbind res_mbind res_bind] in E. injection E as ->.
        apply max_by_depth_elem in Em. rewrite <- Ec in Em. by apply contacts_elem.
      - destruct (complex_loop_only_inv _ _ _ _ _ El) as [-> Ho]. destruct o as [c'|]; [|done]. injection E as ->.
        destruct Ho as (ps1 & p & ps2 & -> & _ & Hp). exists p. split; [|done]. apply elem_of_app. right. left. }
    destruct Hp as ([l r] & Hp & E'). apply pairs_elem in Hp as [Hl Hr]. by exists l, r.
  Qed.
  Lemma intersection_complex_none inter st ls rs l r :
    intersection_complex inter st ls rs = Ok None -> l ∈ ls -> r ∈ rs -> inter (l, r) = Ok None.
  Proof.
    unfold intersection_complex. destruct (complex_loop inter st (pairs ls rs) []) as [[o acc]| |] eqn:El; [|done..].
    cbn [mbind res_mbind res_bind]. intros E Hl Hr. assert (Hp : (l, r) ∈ pairs ls rs) by by apply pairs_elem. destruct st.
    - destruct (complex_loop_full_inv _ _ _ _ _ El) as (-> & -> & Ht). destruct (Ht _ Hp) as [[c|] Eo]; [|done].
      assert (Hc : c ∈ contacts inter (pairs ls rs)) by (apply contacts_elem; eauto). cbn [app] in E.
      destruct (contacts inter (pairs ls rs)) as [|c0 cs]; [by apply elem_of_nil in Hc|].
      by destruct (max_by_depth c0 cs).
    - destruct (complex_loop_only_inv _ _ _ _ _ El) as [-> Ho]. destruct o as [c'|]; [done|]. by apply Ho.
  Qed.
  Lemma complex_toi_from inter st ls rs c :
    complex_toi inter st ls rs = Ok (Some c) -> exists l r c', l ∈ ls /\ r ∈ rs /\ inter (l, r) = Ok (Some c') /\
      c = match st with FullResolution => c' | CollisionOnly => set_only c' end.
  Proof.
    unfold complex_toi. destruct (complex_loop inter st (pairs ls rs) []) as [[o acc]| |] eqn:El; [|done..].
    cbn [mbind res_mbind res_bind]. intros E.
    assert (Hp : exists p c', p ∈ pairs ls rs /\ inter p = Ok (Some c') /\ c = match st with FullResolution => c' | CollisionOnly => set_only c' end).
    { destruct st.
      - destruct (complex_loop_full_inv _ _ _ _ _ El) as (-> & -> & _). cbn [app] in E.
        destruct (contacts inter (pairs ls rs)) as [|c0 cs] eqn:Ec; [done|]. injection E as <-.
        pose proof (min_by_toi_elem cs c0) as Em. rewrite <- Ec in Em. apply contacts_elem in Em as (p & Hp & E). eauto.
      - destruct (complex_loop_only_inv _ _ _ _ _ El) as [-> Ho]. destruct o as [c'|]; [|done]. injection E as <-.
        destruct Ho as (ps1 & p & ps2 & -> & _ & Hp). exists p, c'. split; [|done]. apply elem_of_app. right. left. }
    destruct Hp as ([l r] & c' & Hp & E' & Ec). apply pairs_elem in Hp as [Hl Hr]. by exists l, r, c'.
  Qed.
  Lemma complex_toi_none inter st ls rs l r :
    complex_toi inter st ls rs = Ok None -> l ∈ ls -> r ∈ rs -> inter (l, r) = Ok None.
  Proof.
    unfold complex_toi. destruct (complex_loop inter st (pairs ls rs) []) as [[o acc]| |] eqn:El; [|done..].
    cbn [mbind res_mbind res_bind]. intros E Hl Hr. assert (Hp : (l, r) ∈ pairs ls rs) by by apply pairs_elem. destruct st.
    - destruct (complex_loop_full_inv _ _ _ _ _ El) as (-> & -> & Ht). destruct (Ht _ Hp) as [[c|] Eo]; [|done].
      assert (Hc : c ∈ contacts inter (pairs ls rs)) by (apply contacts_elem; eauto). cbn [app] in E.
      destruct (contacts inter (pairs ls rs)) as [|c0 cs]; [by apply elem_of_nil in Hc|done].
    - destruct (complex_loop_only_inv _ _ _ _ _ El) as [-> Ho]. destruct o as [c'|]; [done|]. by apply Ho.
  Qed.
  (** [FullResolution], when it returns: every pair returned, and the time is the smallest. *)
  Lemma complex_toi_full_min inter ls rs c :
    complex_toi inter FullResolution ls rs = Ok (Some c) ->
    (forall l r c', l ∈ ls -> r ∈ rs -> inter (l, r) = Ok (Some c') -> ok (c_toi c')) ->
    forall l r, l ∈ ls -> r ∈ rs -> exists o, inter (l, r) = Ok o /\ forall c', o = Some c' -> Le (c_toi c) (c_toi c').
  Proof.
    unfold complex_toi. destruct (complex_loop inter FullResolution (pairs ls rs) []) as [[o acc]| |] eqn:El; [|done..].
    cbn [mbind res_mbind res_bind]. intros E Hok l r Hl Hr. assert (Hp : (l, r) ∈ pairs ls rs) by by apply pairs_elem.
    destruct (complex_loop_full_inv _ _ _ _ _ El) as (-> & -> & Ht). cbn [app] in E. destruct (Ht _ Hp) as [o Eo]. exists o. split; [done|].
    intros c' ->. assert (Hokc : forall c, c ∈ contacts inter (pairs ls rs) -> ok (c_toi c)).
    { intros x Hx. apply contacts_elem in Hx as ([l' r'] & Hp' & Ex). apply pairs_elem in Hp' as [Hl' Hr']. by eapply Hok. }
    assert (Hc : c' ∈ contacts inter (pairs ls rs)) by (apply contacts_elem; eauto).
    destruct (contacts inter (pairs ls rs)) as [|c0 cs]; [done|]. injection E as <-.
    apply min_by_toi_spec; [apply Hokc; left|intros x Hx; apply Hokc; by right|done].
  Qed.
  Lemma dist_complex_loop_some (dist : L * R -> res (option S)) : forall ps best d,
    dist_complex_loop dist ps best = Ok (Some d) -> forall p, p ∈ ps -> exists d', dist p = Ok (Some d').
  Proof.
    induction ps as [|q ps IH]; intros best d; cbn [dist_complex_loop]; [intros _ p Hp; by apply elem_of_nil in Hp|].
    destruct (dist q) as [[d'|]| |] eqn:Eq; cbn [mbind res_mbind res_bind]; [|done..]. intros E p Hp.
    apply elem_of_cons in Hp as [->|Hp]; [by eexists|by eapply IH].
  Qed.
End generic.
