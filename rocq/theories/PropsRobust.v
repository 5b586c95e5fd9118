(** C63: what the narrow phase guarantees in every arithmetic - rounded, overflowing, with NaN -
    and what NaN coordinates and overflow do to it. *)
From Coq Require Import Psatz.
From stdpp Require Import prelude.
From Flocq Require Import IEEE754.BinarySingleNaN.
From Verif Require Import Res Num Vec AabbModel GeoModel PrimModel PropsSupport PrimEnum MinkModel Epa3Chain.

(** * The specification *)
(** A support function that always answers. *)
Definition answers {V} (sup : V -> res V) : Prop := forall d, exists p, sup d = Ok p.
(** A computed point of the Minkowski difference: the computed difference of two opposite support points. *)
Definition difference {V} (sub : V -> V -> V) (neg : V -> V) (supL supR : V -> res V) (p : SupPt V) : Prop :=
  exists d, supL d = Ok (sp_a p) /\ supR (neg d) = Ok (sp_b p) /\ sp_v p = sub (sp_a p) (sp_b p).

Section generic.
  (** Any scalar type whatever: no law about its operations is assumed. *)
  Context {S : Type} `{NS : Num S} `{SG : NumSgn S}.
  Local Open Scope num_scope.
  Context (eps tenth : S).
  (** The computed distance of the line through two vertices of a polygon from the origin. *)
  Definition edge_dist (a b : V2 S) : S := let e := sub2 b a in dot2 (normalize2 (triple e a e)) a.
  (** A triangle sees a point: the point is on the computed normal's side of the first corner. *)
  Definition tri_sees (t : V3 S * V3 S * V3 S) (p : V3 S) : Prop :=
    let '(a, b, c) := t in nlt n0 (dot3 (normalize3 (cross3 (sub3 b a) (sub3 c a))) (sub3 p a)) = true.

  (** * The plane *)
  Section plane.
    Context (supL supR : V2 S -> res (V2 S)) (HL : answers supL) (HR : answers supR).
    Notation diff := (difference sub2 neg2 supL supR).
    Lemma mink2_ok d : exists p, mink sub2 neg2 supL supR d = Ok p /\ diff p.
    Proof.
      unfold mink. destruct (HL d) as [l El], (HR (neg2 d)) as [r Er]. rewrite El. cbn [mbind res_mbind res_bind]. rewrite Er. cbn [mbind res_mbind res_bind].
      eexists. split; [done|]. exists d. done.
    Qed.
    Lemma reduce2_spec s d s' d' i : reduce2 eps s d = (s', d', i) -> s <> [] ->
      s' <> [] /\ (forall x, x ∈ s' -> x ∈ s) /\ (if i then length s' = 3%nat else True) /\ ((length s <= 3)%nat -> if i then True else (length s' <= 2)%nat).
    Proof.
      intros E Hne. destruct s as [|s1 [|s2 [|s3 [|s4 s]]]]; cbn [reduce2] in E; [done|..].
      - injection E as <- <- <-. cbn. split_and!; try done. lia.
      - injection E as <- <- <-. cbn. split_and!; try done.
      - destruct (nlt _ _); [injection E as <- <- <-; split_and!; try done; set_solver|].
        destruct (nlt _ _); injection E as <- <- <-; split_and!; try done; set_solver.
      - injection E as <- <- <-. split_and!; try done. cbn. lia.
    Qed.
    (** The intersection test returns, and what it returns is a triangle of computed differences. *)
    Theorem C63_intersect2 n lpos rpos :
      exists o, gjk2_intersect eps supL supR n lpos rpos = Ok o /\ forall s, o = Some s -> length s = 3%nat /\ Forall diff s.
    Proof.
      assert (Hl : forall n s d, s <> [] -> Forall diff s -> exists o, gjk_loop sub2 neg2 dot2 supL supR (reduce2 eps) n s d = Ok o
        /\ forall s', o = Hit s' -> length s' = 3%nat /\ Forall diff s').
      { clear n. induction n as [|n IH]; intros s d Hne Hs; cbn [gjk_loop]; [by exists Exhausted|].
        destruct (mink2_ok d) as (p & -> & Hp). cbn [mbind res_mbind res_bind]. destruct (nle _ _); [by exists Separated|].
        destruct (reduce2 eps (s ++ [p]) d) as [[s' d'] i] eqn:E. apply reduce2_spec in E as (H1 & H2 & H3 & _); [|by destruct s].
        assert (Hs' : Forall diff s'). { apply Forall_forall. intros x [Hx| ->%elem_of_list_singleton]%H2%elem_of_app; [|done]. by eapply Forall_forall in Hs. }
        destruct i; [|by apply IH]. eexists. split; [done|]. by intros ? [= <-]. }
      unfold gjk2_intersect, gjk2_run, gjk_run. cbv zeta. set (d := first_dir _ _ _ _ _). destruct (mink2_ok d) as (p & -> & Hp). cbn [mbind res_mbind res_bind].
      destruct (nle _ _); [cbn; by exists None|]. destruct (Hl n [p] (neg2 d)) as (o & -> & Ho); [done|by constructor|]. cbn [mbind res_mbind res_bind].
      eexists. split; [done|]. intros s. destruct o; cbn; try done. intros [= ->]. by apply Ho.
    Qed.
    Lemma closest2_ok s : s <> [] -> exists s' v, closest2 eps s = Ok (s', v) /\ s' <> [].
    Proof.
      intros Hne. unfold closest2. destruct (reduce2 eps s zero2) as [[s' d'] i] eqn:E. apply reduce2_spec in E as (H1 & _); [|done].
      destruct i; [by eexists _, _|]. destruct s' as [|p [|q s']]; [done|by eexists _, _|by eexists _, _].
    Qed.
    (** The distance computation returns. *)
    Theorem C63_distance2 tol n lpos rpos : exists o, dist2_run eps supL supR tol n lpos rpos = Ok o.
    Proof.
      assert (Hl : forall n s, s <> [] -> exists o, dist_loop sub2 neg2 dot2 mag2 (near0_2 eps) supL supR (closest2 eps) tol n s = Ok o).
      { clear n. induction n as [|n IH]; intros s Hne; cbn [dist_loop]; [by eexists|].
        destruct (closest2_ok s Hne) as (s' & v & -> & Hs'). cbn [mbind res_mbind res_bind]. destruct (near0_2 eps v); [by eexists|].
        cbv zeta. destruct (mink2_ok (neg2 v)) as (p & -> & Hp). cbn [mbind res_mbind res_bind]. destruct s' as [|s0 s']; [done|].
        cbn [get lookup list_lookup mbind res_mbind res_bind]. destruct (nlt _ _); [by eexists|]. by apply IH. }
      unfold dist2_run, dist_run. cbv zeta. destruct (mink2_ok (first_dir (mk2 n1 n1) sub2 (near0_2 eps) lpos rpos)) as (p & -> & Hp). cbn [mbind res_mbind res_bind].
      destruct (mink2_ok (neg2 (first_dir (mk2 n1 n1) sub2 (near0_2 eps) lpos rpos))) as (q & -> & Hq). cbn [mbind res_mbind res_bind]. by apply Hl.
    Qed.
    (** The time of impact does not panic (its loop may run for ever: [OutOfFuel] for every fuel). *)
    Theorem C63_time_of_impact2 fuel tol lvel rvel interp : gjk2_toi eps supL supR fuel tol lvel rvel interp <> Panic.
    Proof.
      assert (Hl : forall fuel ray lambda normal ro s v, toi_loop sub2 neg2 scale2 dot2 supL supR (closest2 eps) fuel tol ray lambda normal ro s v <> Panic).
      { clear fuel. induction fuel as [|fuel IH]; intros ray lambda normal ro s v; cbn [toi_loop]; (destruct (nlt tol _); [|done]); [done|].
        destruct (mink2_ok (neg2 v)) as (p & -> & Hp). cbn [mbind res_mbind res_bind]. cbv zeta.
        assert (K : forall l nm o s, ('(s', v') ← closest2 eps (s ++ [sup_sub sub2 p o]);
          toi_loop sub2 neg2 scale2 dot2 supL supR (closest2 eps) fuel tol ray l nm o s' v') <> Panic).
        { intros l nm o s0. destruct (closest2_ok (s0 ++ [sup_sub sub2 p o])) as (s' & v' & -> & _); [by destruct s0|]. cbn [mbind res_mbind res_bind]. apply IH. }
        destruct (nlt _ _); [|apply K]. destruct (nlt _ _); [|done]. destruct (nlt _ _); [done|apply K]. }
      unfold gjk2_toi, gjk_toi. cbv zeta. destruct (mink2_ok (neg2 (sub2 rvel lvel))) as (p & -> & Hp). cbn [mbind res_mbind res_bind].
      specialize (Hl fuel (sub2 rvel lvel) n0 zero2 zero2 [] (sp_v p)). destruct (toi_loop _ _ _ _ _ _ _ _ _ _ _ _ _ _ _) as [[[[[l nm] o] v]|]| |]; cbn [mbind res_mbind res_bind]; try done.
      by destruct (nle _ _).
    Qed.

    (** ** Contacts *)
    (** The polygon on which no edge could be selected: no edge has a computed distance below infinity. *)
    Definition no_edge (poly : list (V2 S)) : Prop :=
      (3 <= length poly)%nat /\ forall i a b, poly !! i = Some a -> poly !! (if decide (i + 1 = length poly)%nat then 0%nat else (i + 1)%nat) = Some b ->
        nbelow (edge_dist a b) = false.
    Lemma fold_edges poly l best : (forall e, best = Some e -> (e_index e < length poly)%nat) ->
      (forall e, foldl (edge_step poly) best l = Some e -> (e_index e < length poly)%nat) /\
      (foldl (edge_step poly) best l = None -> best = None /\ forall i e, i ∈ l -> edge_at poly i = Some e -> nbelow (e_dist e) = false).
    Proof.
      revert best. induction l as [|i l IH]; intros best Hb; cbn [foldl]; [split; [done|]; intros ->; split; [done|]; by intros ? ? ?%elem_of_nil|].
      destruct (IH (edge_step poly best i)) as [I1 I2].
      { intros e. unfold edge_step. destruct (edge_at poly i) as [e'|] eqn:E; [|apply Hb]. destruct (match best with Some _ => _ | None => _ end); [|apply Hb].
        intros [= <-]. unfold edge_at in E. destruct (poly !! i) as [sa|]; [|done]. destruct (poly !! (if decide _ then _ else _)) as [sb|] eqn:Ej; [|done].
        injection E as <-. cbn [e_index]. by apply lookup_lt_Some in Ej. }
      split; [done|]. intros Hn. destruct (I2 Hn) as [Hs Hr]. unfold edge_step in Hs.
      destruct (edge_at poly i) as [e'|] eqn:E.
      - destruct best as [b|]; [destruct (nlt _ _); done|]. destruct (nbelow (e_dist e')) eqn:Eb; [done|]. split; [done|].
        intros j e [-> |Hj]%elem_of_cons He; [by simplify_eq|by eapply Hr].
      - split; [done|]. intros j e [-> |Hj]%elem_of_cons He; [by simplify_eq|by eapply Hr].
    Qed.
    Lemma closest_edge_cases poly : (3 <= length poly)%nat ->
      (exists e, closest_edge poly = Ok (Some e) /\ (e_index e < length poly)%nat) \/ (closest_edge poly = Panic /\ no_edge (sp_v <$> poly)).
    Proof.
      intros Hlen. unfold closest_edge. destruct (length poly <? 3)%nat eqn:El; [apply Nat.ltb_lt in El; lia|]. clear El.
      destruct (fold_edges poly (seq 0 (length poly)) None ltac:(done)) as [F1 F2].
      destruct (foldl _ _ _) as [e|] eqn:E; [left; eexists; split; [done|by apply F1]|right]. split; [done|]. split; [by rewrite fmap_length|].
      intros i a b Ha Hb. rewrite fmap_length in Hb. rewrite list_lookup_fmap in Ha, Hb.
      destruct (poly !! i) as [sa|] eqn:Ei; [|done]. destruct (poly !! (if decide _ then _ else _)) as [sb|] eqn:Ej; [|done]. cbn in Ha, Hb. simplify_eq.
      destruct (F2 eq_refl) as [_ F3].
      assert (Hin : i ∈ seq 0 (length poly)) by (apply elem_of_seq; apply lookup_lt_Some in Ei; lia).
      assert (He : edge_at poly i = Some (let e := sub2 (sp_v sb) (sp_v sa) in let n := normalize2 (triple e (sp_v sa) e) in
        mkEdge n (dot2 n (sp_v sa)) (if decide (i + 1 = length poly)%nat then 0%nat else (i + 1)%nat))).
      { unfold edge_at. cbv zeta. by rewrite Ei, Ej. }
      exact (F3 i _ Hin He).
    Qed.
    Lemma insert_length {A} k (p : A) l : (k < length l)%nat -> length (vec_insert k p l) = Datatypes.S (length l).
    Proof. intros Hk. unfold vec_insert. rewrite app_length, take_length, cons_length, drop_length. lia. Qed.
    Lemma epa2_loop_cases tol n poly e : (3 <= length poly)%nat -> (e_index e < length poly)%nat -> Forall diff poly ->
      (exists poly' e' dn, epa2_loop (mink2 supL supR) tol n poly e = Ok (poly', e', dn) /\ (3 <= length poly')%nat /\ (e_index e' < length poly')%nat /\ Forall diff poly')
      \/ (epa2_loop (mink2 supL supR) tol n poly e = Panic /\ exists poly', Forall diff poly' /\ no_edge (sp_v <$> poly')).
    Proof.
      revert poly e. induction n as [|n IH]; intros poly e Hl He Hd; cbn [epa2_loop]; [left; by eexists _, _, _|].
      destruct (mink2_ok (e_normal e)) as (p & Ep & Hp). change (mink sub2 neg2 supL supR (e_normal e)) with (mink2 supL supR (e_normal e)) in Ep. rewrite Ep. cbn [mbind res_mbind res_bind].
      destruct (nlt _ _); [left; by eexists _, _, _|]. cbv zeta.
      assert (Hd' : Forall diff (vec_insert (e_index e) p poly)).
      { unfold vec_insert. apply Forall_app. split; [by apply Forall_take|]. constructor; [done|by apply Forall_drop]. }
      pose proof (insert_length (e_index e) p poly He) as El.
      destruct (closest_edge_cases (vec_insert (e_index e) p poly)) as [(e' & -> & He')|[-> Hno]]; [lia| |]; cbn [mbind res_mbind res_bind].
      - apply IH; [lia|done|done].
      - right. split; [done|]. by exists (vec_insert (e_index e) p poly).
    Qed.
    (** A contact computation returns, or it panics: in full resolution only, and only because no edge of some
        polygon of computed differences has a computed distance below infinity. *)
    Theorem C63_contact2 etol st n lpos rpos :
      (exists o, gjk2_intersection eps supL supR etol st n lpos rpos = Ok o
         /\ (o = None <-> gjk2_intersect eps supL supR n lpos rpos = Ok None))
      \/ (gjk2_intersection eps supL supR etol st n lpos rpos = Panic /\ st = FullResolution
          /\ exists poly, Forall diff poly /\ no_edge (sp_v <$> poly)).
    Proof.
      unfold gjk2_intersection. destruct (C63_intersect2 n lpos rpos) as (o & -> & Ho). cbn [mbind res_mbind res_bind].
      destruct o as [s|]; [|left; by exists None]. destruct (Ho s eq_refl) as [Hl Hd]. destruct st; [|left; eexists; split; [done|]; split; intros; done].
      unfold epa2_process, epa2_run. destruct (closest_edge_cases s) as [(e & -> & He)|[-> Hno]]; [lia| |]; cbn [mbind res_mbind res_bind].
      2:{ right. split; [done|]. split; [done|]. by exists s. }
      destruct (epa2_loop_cases etol n s e) as [(s' & e' & dn & -> & Hl' & He' & Hd')|[-> Hno]]; try done; [lia| |]; cbn [mbind res_mbind res_bind]; [|by right].
      left. unfold epa_point2. destruct (lookup_lt_is_Some_2 s' (e_index e') He') as [b Eb]. rewrite (get_Some _ _ _ Eb). cbn [mbind res_mbind res_bind].
      destruct (lookup_lt_is_Some_2 s' (if decide (e_index e' = 0)%nat then (length s' - 1)%nat else (e_index e' - 1)%nat)) as [a Ea]; [case_decide; lia|].
      rewrite (get_Some _ _ _ Ea). cbn [mbind res_mbind res_bind option_map fst]. eexists. split; [done|]. by split.
    Qed.
  End plane.

  (** * Space *)
  Section space.
    Context (supL supR : V3 S -> res (V3 S)) (HL : answers supL) (HR : answers supR).
    Notation diff := (difference sub3 neg3 supL supR).
    Lemma mink3_ok d : exists p, mink sub3 neg3 supL supR d = Ok p /\ diff p.
    Proof.
      unfold mink. destruct (HL d) as [l El], (HR (neg3 d)) as [r Er]. rewrite El. cbn [mbind res_mbind res_bind]. rewrite Er. cbn [mbind res_mbind res_bind].
      eexists. split; [done|]. exists d. done.
    Qed.
    Lemma check_side_spec abc ab ac ao sc sb sa above ig s' d' : check_side abc ab ac ao sc sb sa above ig = (s', d') ->
      forall x, x ∈ s' -> x ∈ [sc; sb; sa].
    Proof.
      unfold check_side. cbv zeta. destruct (negb ig && _); [intros [= <- <-]; set_solver|]. destruct (nlt _ _); [intros [= <- <-]; set_solver|].
      destruct (above || _); intros [= <- <-]; set_solver.
    Qed.
    Lemma reduce3_spec s d s' d' i : reduce3 eps tenth s d = (s', d', i) -> (forall x, x ∈ s' -> x ∈ s) /\ (if i then length s' = 4%nat else True).
    Proof.
      intros E. destruct s as [|s1 [|s2 [|s3 [|s4 [|s5 s]]]]]; cbn [reduce3] in E; try (injection E as <- <- <-; done).
      - destruct (check_side _ _ _ _ _ _ _ _ _) as [s0 d0] eqn:Ec. injection E as <- <- <-. split; [|done]. by apply (check_side_spec _ _ _ _ _ _ _ _ _ _ _ Ec).
      - destruct (nlt _ _).
        { destruct (check_side _ _ _ _ _ _ _ _ _) as [s0 d0] eqn:Ec. injection E as <- <- <-. split; [|done]. intros x Hx. apply (check_side_spec _ _ _ _ _ _ _ _ _ _ _ Ec) in Hx. set_solver. }
        destruct (nlt _ _).
        { destruct (check_side _ _ _ _ _ _ _ _ _) as [s0 d0] eqn:Ec. injection E as <- <- <-. split; [|done]. intros x Hx. apply (check_side_spec _ _ _ _ _ _ _ _ _ _ _ Ec) in Hx. set_solver. }
        destruct (nlt _ _); injection E as <- <- <-; split; try done. set_solver.
    Qed.
    Theorem C63_intersect3 n lpos rpos :
      exists o, gjk3_intersect eps tenth supL supR n lpos rpos = Ok o /\ forall s, o = Some s -> length s = 4%nat /\ Forall diff s.
    Proof.
      assert (Hl : forall n s d, Forall diff s -> exists o, gjk_loop sub3 neg3 dot3 supL supR (reduce3 eps tenth) n s d = Ok o
        /\ forall s', o = Hit s' -> length s' = 4%nat /\ Forall diff s').
      { clear n. induction n as [|n IH]; intros s d Hs; cbn [gjk_loop]; [by exists Exhausted|].
        destruct (mink3_ok d) as (p & -> & Hp). cbn [mbind res_mbind res_bind]. destruct (nle _ _); [by exists Separated|].
        destruct (reduce3 eps tenth (s ++ [p]) d) as [[s' d'] i] eqn:E. apply reduce3_spec in E as (H2 & H3).
        assert (Hs' : Forall diff s'). { apply Forall_forall. intros x [Hx| ->%elem_of_list_singleton]%H2%elem_of_app; [|done]. by eapply Forall_forall in Hs. }
        destruct i; [|by apply IH]. eexists. split; [done|]. by intros ? [= <-]. }
      unfold gjk3_intersect, gjk3_run, gjk_run. cbv zeta. set (d := first_dir _ _ _ _ _). destruct (mink3_ok d) as (p & -> & Hp). cbn [mbind res_mbind res_bind].
      destruct (nle _ _); [cbn; by exists None|]. destruct (Hl n [p] (neg3 d)) as (o & -> & Ho); [by constructor|]. cbn [mbind res_mbind res_bind].
      eexists. split; [done|]. intros s. destruct o; cbn; try done. intros [= ->]. by apply Ho.
    Qed.

    (** ** Contacts *)
    (** A face of the polytope: three of its vertices, with the computed normal and distance. *)
    Definition face_of (vs : list (SupPt (V3 S))) (f : Face3) (t : V3 S * V3 S * V3 S) : Prop :=
      exists sa sb sc, vs !! (f_vs f).1.1 = Some sa /\ vs !! (f_vs f).1.2 = Some sb /\ vs !! (f_vs f).2 = Some sc /\ t = (sp_v sa, sp_v sb, sp_v sc)
        /\ f_normal f = normalize3 (cross3 (sub3 (sp_v sb) (sp_v sa)) (sub3 (sp_v sc) (sp_v sa))).
    Lemma face_of_app vs f t p : face_of vs f t -> face_of (vs ++ [p]) f t.
    Proof. intros (sa & sb & sc & H1 & H2 & H3 & ? & ?). exists sa, sb, sc. by rewrite !(lookup_app_l_Some _ _ _ _ H1), !(lookup_app_l_Some _ _ _ _ H2), !(lookup_app_l_Some _ _ _ _ H3). Qed.
    Lemma face_new_cases vs a b c : (a < length vs)%nat -> (b < length vs)%nat -> (c < length vs)%nat ->
      exists f t, face_new vs a b c = Ok f /\ face_of vs f t.
    Proof.
      intros Ha Hb Hc. destruct (lookup_lt_is_Some_2 vs a Ha) as [sa Ea], (lookup_lt_is_Some_2 vs b Hb) as [sb Eb], (lookup_lt_is_Some_2 vs c Hc) as [sc Ec].
      unfold face_new. rewrite (get_Some _ _ _ Ea), (get_Some _ _ _ Eb), (get_Some _ _ _ Ec). cbn [mbind res_mbind res_bind].
      eexists _, _. split; [done|]. exists sa, sb, sc. done.
    Qed.
    Lemma remove_opposite_in edges e es x : remove_opposite edges e = Some es -> x ∈ es -> x ∈ edges.
    Proof.
      revert es. induction edges as [|y edges IH]; intros es; cbn [remove_opposite]; [done|]. destruct (bool_decide _); [intros [= <-]; by right|].
      destruct (remove_opposite edges e) as [es'|]; [|done]. intros [= <-] [-> |Hx]%elem_of_cons; [by left|right; by eapply IH].
    Qed.
    Lemma remove_or_add_in edges e x : x ∈ remove_or_add edges e -> x ∈ edges \/ x = e.
    Proof.
      unfold remove_or_add. destruct (remove_opposite edges e) eqn:E; [intros Hx; left; by eapply remove_opposite_in|].
      intros [?| ->%elem_of_list_singleton]%elem_of_app; auto.
    Qed.
    Definition seen vs (p : V3 S) (f : Face3) : Prop := forall t, face_of vs f t -> tri_sees t p.
    Lemma remove_visible_cases fuel vs p i fs edges : (forall f, f ∈ fs -> exists t, face_of vs f t) ->
      (forall e, e ∈ edges -> (e.1 < length vs)%nat /\ (e.2 < length vs)%nat) -> (length fs <= fuel + i)%nat ->
      exists keep rm es, remove_visible fuel vs p i fs edges = Ok (keep, es) /\ fs ≡ₚ keep ++ rm /\ Forall (seen vs p) rm /\
        (forall e, e ∈ es -> (e.1 < length vs)%nat /\ (e.2 < length vs)%nat).
    Proof.
      revert i fs edges. induction fuel as [|fuel IH]; intros i fs edges Hf He Hlen; cbn [remove_visible].
      - destruct (fs !! i) as [f|] eqn:E; [apply lookup_lt_Some in E; lia|]. exists fs, [], edges. rewrite app_nil_r. split_and!; done.
      - destruct (fs !! i) as [f|] eqn:E; [|exists fs, [], edges; rewrite app_nil_r; split_and!; done].
        assert (Hin : f ∈ fs) by by eapply elem_of_list_lookup_2. destruct (Hf f Hin) as [t Ht]. destruct (f_vs f) as [[a b] c] eqn:Ev.
        destruct Ht as (sa & sb & sc & Ea & Eb & Ec & -> & En). rewrite Ev in Ea, Eb, Ec. cbn [fst snd] in Ea, Eb, Ec. rewrite (get_Some _ _ _ Ea). cbn [mbind res_mbind res_bind]. cbv zeta.
        destruct (nlt _ _) eqn:Es.
        + assert (Hp := swap_remove_spec i fs f E). pose proof (lookup_lt_Some _ _ _ Ea). pose proof (lookup_lt_Some _ _ _ Eb). pose proof (lookup_lt_Some _ _ _ Ec).
          destruct (IH i (swap_remove i fs) (remove_or_add (remove_or_add (remove_or_add edges (a, b)) (b, c)) (c, a))) as (keep & rm & es & E1 & E2 & E3 & E4).
          * intros g Hg. apply Hf. rewrite Hp. by right.
          * intros e [[[?| ->]%remove_or_add_in| ->]%remove_or_add_in| ->]%remove_or_add_in; cbn [fst snd]; auto.
          * apply swap_remove_length in E. lia.
          * exists keep, (f :: rm), es. split; [done|]. split; [rewrite Hp, E2; by apply Permutation_middle|]. split; [|done]. constructor; [|done].
            intros t (sa' & sb' & sc' & Ea' & Eb' & Ec' & -> & En'). rewrite Ev in Ea', Eb', Ec'. cbn [fst snd] in Ea', Eb', Ec'. simplify_eq. unfold tri_sees. by rewrite <- En.
        + apply IH; [done|done|lia].
    Qed.
    Lemma mapM_faces vs n edges : (n < length vs)%nat -> (forall e, e ∈ edges -> (e.1 < length vs)%nat /\ (e.2 < length vs)%nat) ->
      exists new, mapM_res (fun e : nat * nat => face_new vs n e.1 e.2) edges = Ok new /\ forall f, f ∈ new -> exists t, face_of vs f t.
    Proof.
      intros Hn. induction edges as [|e edges IH]; intros He; cbn [mapM_res]; [exists []; split; [done|]; by intros ? ?%elem_of_nil|].
      destruct (He e ltac:(left)) as [H1 H2]. destruct (face_new_cases vs n e.1 e.2 Hn H1 H2) as (f & t & -> & Hf). cbn [mbind res_mbind res_bind].
      destruct IH as (new & -> & Hnew); [intros; apply He; by right|]. cbn [mbind res_mbind res_bind]. eexists. split; [done|].
      intros g [-> |Hg]%elem_of_cons; eauto.
    Qed.
    (** The polytope on which no face could be selected: a computed difference was seen by every face before it. *)
    Definition all_seen : Prop :=
      exists (tris : list (V3 S * V3 S * V3 S)) p, tris <> [] /\ diff p /\
        Forall (fun '(a, b, c) => exists x y z, diff x /\ diff y /\ diff z /\ (a, b, c) = (sp_v x, sp_v y, sp_v z)) tris /\
        Forall (fun t => tri_sees t (sp_v p)) tris.
    Lemma poly_add_cases vs fs p : Forall diff vs -> diff p -> fs <> [] -> (forall f, f ∈ fs -> exists t, face_of vs f t) ->
      exists fs', poly_add vs fs p = Ok (vs ++ [p], fs') /\ (forall f, f ∈ fs' -> exists t, face_of (vs ++ [p]) f t) /\ (fs' = [] -> all_seen).
    Proof.
      intros Hv Hp Hne Hf. unfold poly_add.
      destruct (remove_visible_cases (length fs) vs (sp_v p) 0 fs [] Hf) as (keep & rm & es & -> & Hperm & Hseen & He); [by intros ? ?%elem_of_nil|lia|].
      cbn [mbind res_mbind res_bind]. cbv zeta.
      destruct (mapM_faces (vs ++ [p]) (length vs) es) as (new & -> & Hnew).
      { rewrite app_length. cbn. lia. } { intros e Hin. rewrite app_length. cbn. destruct (He e Hin). lia. }
      cbn [mbind res_mbind res_bind]. eexists. split; [done|]. split.
      - intros f [Hk|Hn]%elem_of_app; [|by apply Hnew]. destruct (Hf f) as [t Ht]; [rewrite Hperm; set_solver|]. exists t. by apply face_of_app.
      - intros [-> ->]%app_eq_nil. cbn [app] in Hperm.
        assert (K : forall l, (forall f, f ∈ l -> exists t, face_of vs f t) -> Forall (seen vs (sp_v p)) l -> exists tris, length tris = length l /\
          Forall (fun '(a, b, c) => exists x y z, diff x /\ diff y /\ diff z /\ (a, b, c) = (sp_v x, sp_v y, sp_v z)) tris /\ Forall (fun t => tri_sees t (sp_v p)) tris).
        { induction l as [|f l IH]; intros Hl Hs; [by exists []|]. apply Forall_cons in Hs as [Hs1 Hs2]. destruct IH as (tris & T1 & T2 & T3); [intros; apply Hl; by right|done|].
          destruct (Hl f ltac:(left)) as [t Ht]. exists (t :: tris). split; [cbn; by rewrite T1|]. split; constructor; try done; [|by apply Hs1].
          destruct Ht as (sa & sb & sc & Ea & Eb & Ec & -> & _). exists sa, sb, sc. split_and!; try done; eapply Forall_lookup_1; eauto. }
        destruct (K fs) as (tris & T1 & T2 & T3); [done|by rewrite Hperm|]. exists tris, p. split; [|done]. intros ->. destruct fs; [done|]. cbn in T1. lia.
    Qed.
    Lemma closest_face_in fs f : closest_face fs = Ok f -> f ∈ fs.
    Proof.
      destruct fs as [|g fs]; [done|]. cbn [closest_face]. intros [= <-].
      assert (K : forall (l : list Face3) b, foldl (fun best f => if f_dist f <? f_dist best then f else best) b l ∈ b :: l).
      { induction l as [|x l IH]; intros b; cbn [foldl]; [left|]. specialize (IH (if f_dist x <? f_dist b then x else b)).
        destruct (f_dist x <? f_dist b); apply elem_of_cons in IH as [-> |IH]; [right; left|right; by right|left|right; by right]. }
      apply K.
    Qed.
    Lemma epa3_loop_cases tol left_ vs fs : Forall diff vs -> (forall f, f ∈ fs -> exists t, face_of vs f t) ->
      (exists r, epa3_loop (mink3 supL supR) tol left_ vs fs = Ok r) \/ (epa3_loop (mink3 supL supR) tol left_ vs fs = Panic /\ (fs = [] \/ all_seen)).
    Proof.
      revert vs fs. induction left_ as [|l IH]; intros vs fs Hv Hf; cbn [epa3_loop];
        (destruct (closest_face fs) as [f| |] eqn:Ef; cbn [mbind res_mbind res_bind]; [|right; split; [done|]; left; by destruct fs|by destruct fs]).
      all: destruct (mink3_ok (f_normal f)) as (p & Ep & Hp); change (mink sub3 neg3 supL supR (f_normal f)) with (mink3 supL supR (f_normal f)) in Ep; rewrite Ep; cbn [mbind res_mbind res_bind]; cbv zeta.
      all: assert (Hpt : exists c, epa_point3 vs f = Ok c).
      1, 3: destruct (Hf f (closest_face_in fs f Ef)) as (t & sa & sb & sc & Ea & Eb & Ec & _); unfold epa_point3; destruct (f_vs f) as [[a b] c]; cbn [fst snd] in Ea, Eb, Ec;
        rewrite (get_Some _ _ _ Ea), (get_Some _ _ _ Eb), (get_Some _ _ _ Ec); cbn [mbind res_mbind res_bind]; destruct (bary3 _ _ _ _) as [[u v] w]; by eexists.
      all: destruct Hpt as [c Ec]; destruct (nlt _ _); [left; rewrite Ec; by eexists|].
      - left. rewrite Ec. by eexists.
      - destruct (poly_add_cases vs fs p) as (fs' & -> & Hf' & Hs); try done; [by intros ->|]. cbn [mbind res_mbind res_bind].
        destruct (IH (vs ++ [p]) fs') as [?|[? [?|?]]]; [apply Forall_app; split; [done|by constructor]|done|by left|right; split; [done|]; right; by apply Hs|by right; split; [|right]].
    Qed.
    Theorem C63_contact3 etol st n lpos rpos :
      (exists o, gjk3_intersection eps tenth supL supR etol st n lpos rpos = Ok o
         /\ (o = None <-> gjk3_intersect eps tenth supL supR n lpos rpos = Ok None))
      \/ (gjk3_intersection eps tenth supL supR etol st n lpos rpos = Panic /\ st = FullResolution /\ all_seen).
    Proof.
      unfold gjk3_intersection. destruct (C63_intersect3 n lpos rpos) as (o & -> & Ho). cbn [mbind res_mbind res_bind].
      destruct o as [s|]; [|left; by exists None]. destruct (Ho s eq_refl) as [Hl Hd]. destruct st; [|left; eexists; split; [done|]; split; intros; done].
      unfold epa3_process, epa3_run. rewrite Hl. cbn [Nat.ltb Nat.leb].
      destruct (face_new_cases s 3 2 1) as (f1 & t1 & E1 & F1); [lia..|]. destruct (face_new_cases s 3 1 0) as (f2 & t2 & E2 & F2); [lia..|].
      destruct (face_new_cases s 3 0 2) as (f3 & t3 & E3 & F3); [lia..|]. destruct (face_new_cases s 2 0 1) as (f4 & t4 & E4 & F4); [lia..|].
      assert (Efs : faces_new s = Ok [f1; f2; f3; f4]). { unfold faces_new. rewrite E1, E2, E3, E4. done. }
      rewrite Efs. cbn [mbind res_mbind res_bind].
      destruct (epa3_loop_cases etol (n - 1) s [f1; f2; f3; f4] Hd) as [[r ->]|[-> [?|?]]]; [| |done|].
      - intros f Hf. rewrite !elem_of_cons, elem_of_nil in Hf. destruct Hf as [-> |[-> |[-> |[-> |[]]]]]; eauto.
      - left. cbn. eexists. split; [done|]. by split.
      - by right.
    Qed.
  End space.
End generic.

(** * The supports of the primitives *)
Section supports.
  Context {S : Type} `{NS : Num S} `{SG : NumSgn S}.
  (** Every primitive under a transform that inverts vectors answers every direction (NaN and zero included), with the
      image of some point. *)
  Definition inverts {V} (T : Xf V) : Prop := forall d, exists d', xf_ivec T d = Some d'.
  Theorem C63_supports2 (p : @Primitive2 S) T d : inverts T -> exists x, prim2_support p d T = Ok (xf_pt T x).
  Proof.
    intros HT. destruct (HT d) as [d' E]. destruct p; cbn [prim2_support]; unfold particle_support, line_support, circle_support, rect_support, get_max_point; rewrite ?E; try (by eexists).
    unfold polygon_support. destruct (length vs <? 10)%nat eqn:El; [unfold get_max_point; rewrite E; by eexists|].
    apply Nat.ltb_ge in El. destruct (poly_hill_ok dot2 vs d d' T) as (v & _ & ->); [lia|done|by eexists].
  Qed.
  Theorem C63_supports3 (p : @Primitive3 S) T d : inverts T -> exists x, prim3_support p d T = Ok (xf_pt T x).
  Proof.
    intros HT. destruct (HT d) as [d' E]. destruct p; cbn [prim3_support];
      unfold particle_support, quad_support, sphere_support, cuboid_support, cylinder_support, capsule_support, hull_support, get_max_point; rewrite ?E; by eexists.
  Qed.
  Lemma decomposed2_inverts eps s rot disp : near0 eps s = false -> inverts (@decomposed2 S NS eps s rot disp).
  Proof. intros Hs d. cbn [decomposed2 xf_ivec]. rewrite Hs. by eexists. Qed.
  Lemma decomposed3_inverts eps s rot disp : near0 eps s = false -> inverts (@decomposed3 S NS eps s rot disp).
  Proof. intros Hs d. cbn [decomposed3 xf_ivec]. rewrite Hs. by eexists. Qed.
End supports.

(** * NaN *)
Section nan.
  Context (prec emax : Z) {Hprec : FLX.Prec_gt_0 prec} {Hemax : Prec_lt_emax prec emax}.
  Notation fl := (binary_float prec emax).
  Local Instance numf : Num fl := Num_float prec emax.
  Local Instance sgnf : NumSgn fl := NumSgn_float prec emax.
  Definition nan2 (v : V2 fl) : Prop := is_nan (ux v) = true \/ is_nan (uy v) = true.
  Definition nan3 (v : V3 fl) : Prop := is_nan (vx v) = true \/ is_nan (vy v) = true \/ is_nan (vz v) = true.
  Lemma nan_add (x y : fl) : is_nan x = true \/ is_nan y = true -> is_nan (x + y)%N_ = true.
  Proof. destruct x, y; intros [?|?]; done. Qed.
  Lemma nan_sub (x y : fl) : is_nan x = true \/ is_nan y = true -> is_nan (x - y)%N_ = true.
  Proof. destruct x, y; intros [?|?]; done. Qed.
  Lemma nan_mul (x y : fl) : is_nan x = true \/ is_nan y = true -> is_nan (x * y)%N_ = true.
  Proof. destruct x, y; intros [?|?]; done. Qed.
  Lemma nan_div (x y : fl) : is_nan x = true \/ is_nan y = true -> is_nan (x / y)%N_ = true.
  Proof. destruct x, y; intros [?|?]; done. Qed.
  Lemma nan_neg (x : fl) : is_nan x = true -> is_nan (- x)%N_ = true.
  Proof. by destruct x. Qed.
  Lemma nan_abs (x : fl) : is_nan x = true -> is_nan (nabs x) = true.
  Proof. by destruct x. Qed.
  Lemma nan_sqrt (x : fl) : is_nan x = true -> is_nan (nsqrt x) = true.
  Proof. by destruct x. Qed.
  Lemma nan_lt (x y : fl) : is_nan x = true \/ is_nan y = true -> nlt x y = false.
  Proof. cbn [nlt numf Num_float]. intros Hn. apply not_true_is_false. rewrite Flt_pos. intros (? & ? & _). destruct Hn; congruence. Qed.
  Lemma nan_le (x y : fl) : is_nan x = true \/ is_nan y = true -> nle x y = false.
  Proof. cbn [nle numf Num_float]. intros Hn. apply not_true_is_false. rewrite Fle_pos. intros (? & ? & _). destruct Hn; congruence. Qed.
  Lemma nan_below (x : fl) : is_nan x = true -> nbelow x = false.
  Proof. by destruct x. Qed.
  (** Only NaN and infinity are not below infinity. *)
  Theorem C63_not_below (x : fl) : nbelow x = false <-> is_nan x = true \/ x = B754_infinity false.
  Proof. split; [destruct x as [[]|[]| |[]]; cbn; auto; done|]. intros [?| ->]; [by apply nan_below|done]. Qed.
  Hint Resolve nan_add nan_sub nan_mul nan_div nan_neg nan_abs nan_sqrt : nan.
  Ltac nn := unfold nan2, nan3, dot2, dot3, mag2, mag3, mag2_2, mag2_3, sub2, sub3, add2, add3, neg2, neg3, scale2, scale3, cross3 in *; cbn [ux uy vx vy vz] in *; auto 12 with nan.
  Lemma nan_dot2 a b : nan2 a \/ nan2 b -> is_nan (dot2 a b) = true.
  Proof. intros [[?|?]|[?|?]]; nn. Qed.
  Lemma nan_sub2 a b : nan2 a \/ nan2 b -> nan2 (sub2 a b).
  Proof. intros [[?|?]|[?|?]]; nn. Qed.
  Lemma nan_neg2 a : nan2 a -> nan2 (neg2 a).
  Proof. intros [?|?]; nn. Qed.
  Lemma nan_norm2 a : nan2 a -> is_nan (ux (normalize2 a)) = true /\ is_nan (uy (normalize2 a)) = true.
  Proof. intros Hn. assert (is_nan (mag2 a) = true) by (apply nan_sqrt, nan_dot2; auto). unfold normalize2. nn. Qed.
  Lemma nan_dot3 a b : nan3 a \/ nan3 b -> is_nan (dot3 a b) = true.
  Proof. intros [[?|[?|?]]|[?|[?|?]]]; nn. Qed.
  Lemma nan_sub3 a b : nan3 a \/ nan3 b -> nan3 (sub3 a b).
  Proof. intros [[?|[?|?]]|[?|[?|?]]]; nn. Qed.
  Lemma nan_neg3 a : nan3 a -> nan3 (neg3 a).
  Proof. intros [?|[?|?]]; nn. Qed.
  Lemma nan_cross3 a b : nan3 a \/ nan3 b -> nan3 (cross3 a b).
  Proof. intros [[?|[?|?]]|[?|[?|?]]]; nn. Qed.
  Definition allnan3 (v : V3 fl) : Prop := is_nan (vx v) = true /\ is_nan (vy v) = true /\ is_nan (vz v) = true.
  Lemma nan_norm3 a : nan3 a -> allnan3 (normalize3 a).
  Proof. intros Hn. assert (is_nan (mag3 a) = true) by (apply nan_sqrt, nan_dot3; auto). unfold allnan3, normalize3. nn. Qed.
  Lemma allnan_nan v : allnan3 v -> nan3 v.
  Proof. intros (?&?&?). by left. Qed.

  Section plane.
    Context (eps : fl) (supL supR : V2 fl -> res (V2 fl)) (HL : answers supL) (HR : answers supR).
    (** One of the two shapes only ever answers with NaN. *)
    Definition lost2 (sup : V2 fl -> res (V2 fl)) : Prop := forall d p, sup d = Ok p -> nan2 p.
    Context (Hn : lost2 supL \/ lost2 supR).
    Lemma mink2_nan d : exists p, mink sub2 neg2 supL supR d = Ok p /\ nan2 (sp_v p).
    Proof.
      destruct (mink2_ok supL supR HL HR d) as (p & E & d0 & H1 & H2 & H3). exists p. split; [done|]. rewrite H3. apply nan_sub2.
      destruct Hn as [Hl|Hr]; [left; by eapply Hl|right; by eapply Hr].
    Qed.
    Lemma reduce2_nan s d : length s = 3%nat -> Forall (fun p => nan2 (sp_v p)) s -> reduce2 eps s d = (s, d, true).
    Proof.
      intros Hl Hs. destruct s as [|sc [|sb [|sa [|? ?]]]]; try done. apply Forall_cons in Hs as [Hc Hs]. apply Forall_cons in Hs as [Hb Hs]. apply Forall_cons in Hs as [Ha _].
      cbn [reduce2]. rewrite (nan_lt n0 (dot2 _ (neg2 (sp_v sa)))); [|right; apply nan_dot2; right; by apply nan_neg2].
      rewrite (nan_lt n0 (dot2 _ (neg2 (sp_v sa)))); [|right; apply nan_dot2; right; by apply nan_neg2]. done.
    Qed.
    Lemma hit_nan n lpos rpos : (2 <= n)%nat ->
      exists s, gjk2_intersect eps supL supR n lpos rpos = Ok (Some s) /\ length s = 3%nat /\ Forall (fun p => nan2 (sp_v p)) s.
    Proof.
      intros Hle. destruct n as [|[|n]]; [lia..|]. unfold gjk2_intersect, gjk2_run, gjk_run. cbv zeta. set (d := first_dir _ _ _ _ _).
      destruct (mink2_nan d) as (p & -> & Hp). cbn [mbind res_mbind res_bind]. rewrite (nan_le (dot2 (sp_v p) d)); [|left; apply nan_dot2; auto].
      cbn [gjk_loop]. destruct (mink2_nan (neg2 d)) as (q & -> & Hq). cbn [mbind res_mbind res_bind]. rewrite (nan_le (dot2 (sp_v q) _)); [|left; apply nan_dot2; auto].
      cbn [app]. destruct (reduce2 eps [p; q] (neg2 d)) as [[s' d'] i] eqn:E. cbn [reduce2] in E. injection E as <- Ed <-. clear Ed. cbn [gjk_loop].
      destruct (mink2_nan d') as (r & -> & Hr). cbn [mbind res_mbind res_bind]. rewrite (nan_le (dot2 (sp_v r) _)); [|left; apply nan_dot2; auto]. cbn [app].
      assert (F : Forall (fun p => nan2 (sp_v p)) [p; q; r]) by (repeat (apply Forall_cons; split; [done|]); apply Forall_nil; done).
      rewrite (reduce2_nan [p; q; r] d' eq_refl F). cbn. by exists [p; q; r].
    Qed.
    (** It is reported to collide with everything ... *)
    Theorem C63_nan_collides2 n lpos rpos etol : (2 <= n)%nat ->
      exists ct, gjk2_intersection eps supL supR etol CollisionOnly n lpos rpos = Ok (Some ct).
    Proof. intros Hle. destruct (hit_nan n lpos rpos Hle) as (s & E & _). unfold gjk2_intersection. rewrite E. by eexists. Qed.
    (** ... and full resolution panics. *)
    Theorem C63_nan_contact2 n lpos rpos etol : (2 <= n)%nat -> gjk2_intersection eps supL supR etol FullResolution n lpos rpos = Panic.
    Proof.
      intros Hle. destruct (hit_nan n lpos rpos Hle) as (s & E & Hl & Hs). unfold gjk2_intersection. rewrite E. cbn [mbind res_mbind res_bind].
      unfold epa2_process, epa2_run. destruct (closest_edge_cases s) as [(e & Ee & He)|[-> _]]; [lia| |done]. exfalso.
      unfold closest_edge in Ee. rewrite Hl in Ee. cbn [Nat.ltb Nat.leb seq foldl] in Ee.
      assert (K : forall i best, best = None -> edge_step s best i = None).
      { intros i ? ->. unfold edge_step. destruct (edge_at s i) as [e'|] eqn:E'; [|done]. unfold edge_at in E'. destruct (s !! i) as [sa|] eqn:Ei; [|done].
        destruct (s !! (if decide _ then _ else _)); [|done]. apply (inj Some) in E'. rewrite <- E'. cbn [e_dist]. rewrite nan_below; [done|]. apply nan_dot2. right. by eapply Forall_lookup_1 in Hs. }
      rewrite !K in Ee by (repeat apply K; done). done.
    Qed.
    (** Its distance to everything is none, as if it touched. *)
    Lemma edge_nan2 a b : nan2 a -> nan2 (closest_on_edge2 a b zero2).
    Proof.
      intros Ha. unfold closest_on_edge2. cbv zeta. assert (Hd : nan2 (normalize2 (sub2 b a))) by (left; apply nan_norm2, nan_sub2; auto).
      assert (Hdot : is_nan (dot2 (sub2 zero2 a) (normalize2 (sub2 b a))) = true) by (apply nan_dot2; auto).
      rewrite nan_lt by auto. rewrite nan_lt by (right; apply nan_mul; auto). unfold scale2, add2, nan2. cbn [ux uy]. left. apply nan_add. right. apply nan_mul. auto.
    Qed.
    Theorem C63_nan_distance2 tol n lpos rpos : (2 <= n)%nat -> near0 eps n0 = true -> dist2_run eps supL supR tol n lpos rpos = Ok Touching.
    Proof.
      intros Hle He. destruct n as [|[|n]]; [lia..|]. unfold dist2_run, dist_run. cbv zeta. set (d := first_dir _ _ _ _ _).
      destruct (mink2_nan d) as (p & -> & Hp). cbn [mbind res_mbind res_bind]. destruct (mink2_nan (neg2 d)) as (q & -> & Hq). cbn [mbind res_mbind res_bind dist_loop].
      change (closest2 eps [p; q]) with (Ok ([p; q], closest_on_edge2 (sp_v q) (sp_v p) zero2)). cbn [mbind res_mbind res_bind].
      pose proof (edge_nan2 (sp_v q) (sp_v p) Hq) as Hv. set (v := closest_on_edge2 _ _ _) in *.
      assert (near0_2 eps v = false) as ->.
      { unfold near0_2, near0. destruct Hv as [Hv|Hv]; [rewrite (nan_le (nabs (ux v))); [done|left; by apply nan_abs]|rewrite (nan_le (nabs (uy v))); [apply andb_false_r|left; by apply nan_abs]]. }
      destruct (mink2_nan (neg2 v)) as (r & -> & Hr). cbn [mbind res_mbind res_bind get lookup list_lookup app]. rewrite nan_lt by (left; apply nan_sub; left; apply nan_dot2; auto).
      unfold closest2. assert (F : Forall (fun p => nan2 (sp_v p)) [p; q; r]) by (repeat (apply Forall_cons; split; [done|]); apply Forall_nil; done). rewrite (reduce2_nan [p; q; r] _ eq_refl F). cbn [mbind res_mbind res_bind].
      unfold near0_2. cbn [ux uy zero2]. by rewrite He.
    Qed.
    (** It never hits anything over time. *)
    Theorem C63_nan_time_of_impact2 fuel tol lvel rvel interp : gjk2_toi eps supL supR fuel tol lvel rvel interp = Ok None.
    Proof.
      unfold gjk2_toi, gjk_toi. cbv zeta. destruct (mink2_nan (neg2 (sub2 rvel lvel))) as (p & -> & Hp). cbn [mbind res_mbind res_bind].
      assert (Hd : is_nan (dot2 (sp_v p) (sp_v p)) = true) by (apply nan_dot2; auto). destruct fuel; cbn [toi_loop]; rewrite (nan_lt tol) by auto; cbn [mbind res_mbind res_bind]; by rewrite nan_le by auto.
    Qed.
  End plane.

  Section space.
    Context (eps tenth : fl) (supL supR : V3 fl -> res (V3 fl)) (HL : answers supL) (HR : answers supR).
    Definition lost3 (sup : V3 fl -> res (V3 fl)) : Prop := forall d p, sup d = Ok p -> nan3 p.
    Context (Hn : lost3 supL \/ lost3 supR).
    Lemma mink3_nan d : exists p, mink sub3 neg3 supL supR d = Ok p /\ nan3 (sp_v p).
    Proof.
      destruct (mink3_ok supL supR HL HR d) as (p & E & d0 & H1 & H2 & H3). exists p. split; [done|]. rewrite H3. apply nan_sub3.
      destruct Hn as [Hl|Hr]; [left; by eapply Hl|right; by eapply Hr].
    Qed.
    Lemma check_side_nan abc ab ac ao sc sb sa ig : nan3 ao -> check_side abc ab ac ao sc sb sa false ig = ([sb; sc; sa], neg3 abc).
    Proof.
      intros Ha. unfold check_side. cbv zeta. rewrite !(nan_lt n0 (dot3 _ ao)) by (right; apply nan_dot3; auto). by rewrite andb_false_r.
    Qed.
    Lemma hit_nan3 n lpos rpos : (3 <= n)%nat ->
      exists s, gjk3_intersect eps tenth supL supR n lpos rpos = Ok (Some s) /\ length s = 4%nat /\ Forall (fun p => nan3 (sp_v p)) s.
    Proof.
      intros Hle. destruct n as [|[|[|n]]]; [lia..|]. unfold gjk3_intersect, gjk3_run, gjk_run. cbv zeta. set (d := first_dir _ _ _ _ _).
      destruct (mink3_nan d) as (p & -> & Hp). cbn [mbind res_mbind res_bind]. rewrite (nan_le (dot3 (sp_v p) d)); [|left; apply nan_dot3; auto].
      cbn [gjk_loop]. destruct (mink3_nan (neg3 d)) as (q & -> & Hq). cbn [mbind res_mbind res_bind]. rewrite (nan_le (dot3 (sp_v q) _)); [|left; apply nan_dot3; auto].
      cbn [app]. destruct (reduce3 eps tenth [p; q] (neg3 d)) as [[s' d'] i] eqn:E. cbn [reduce3] in E. injection E as <- Ed <-. clear Ed. cbn [gjk_loop].
      destruct (mink3_nan d') as (r & -> & Hr). cbn [mbind res_mbind res_bind]. rewrite (nan_le (dot3 (sp_v r) _)); [|left; apply nan_dot3; auto]. cbn [app].
      cbn [reduce3]. rewrite check_side_nan by by apply nan_neg3. set (d2 := neg3 _).
      destruct (mink3_nan d2) as (t & -> & Ht). cbn [mbind res_mbind res_bind]. rewrite (nan_le (dot3 (sp_v t) _)); [|left; apply nan_dot3; auto]. cbn [app reduce3]. cbv zeta.
      rewrite !(nan_lt n0 (dot3 _ (neg3 (sp_v t)))) by (right; apply nan_dot3; right; by apply nan_neg3). cbn.
      eexists. split; [done|]. split; [done|]. repeat (apply Forall_cons; split; [done|]); apply Forall_nil; done.
    Qed.
    Theorem C63_nan_collides3 n lpos rpos etol : (3 <= n)%nat ->
      exists ct, gjk3_intersection eps tenth supL supR etol CollisionOnly n lpos rpos = Ok (Some ct).
    Proof. intros Hle. destruct (hit_nan3 n lpos rpos Hle) as (s & E & _). unfold gjk3_intersection. rewrite E. by eexists. Qed.
    (** Full resolution answers with a contact whose normal and depth are NaN. *)
    Definition nan_face vs (f : @Face3 fl) : Prop :=
      allnan3 (f_normal f) /\ is_nan (f_dist f) = true /\ (exists t, face_of vs f t).
    Lemma nan_no_seen vs p fuel i fs : Forall (fun q => nan3 (sp_v q)) vs -> Forall (nan_face vs) fs -> (length fs <= fuel + i)%nat -> remove_visible fuel vs p i fs [] = Ok (fs, []).
    Proof.
      intros Hv Hf. revert i. induction fuel as [|fuel IH]; intros i Hl; cbn [remove_visible]; (destruct (fs !! i) as [f|] eqn:E; [|done]); [apply lookup_lt_Some in E; lia|].
      destruct (Forall_lookup_1 _ _ _ _ Hf E) as (H1 & H2 & t & sa & sb & sc & Ea & Eb & Ec & _). destruct (f_vs f) as [[a b] c]. cbn [fst snd] in Ea. rewrite (get_Some _ _ _ Ea). cbn [mbind res_mbind res_bind].
      rewrite nan_lt by (right; apply nan_dot3; left; by apply allnan_nan). apply IH. lia.
    Qed.
    Lemma closest_nan f fs : is_nan (f_dist f) = true -> closest_face (f :: fs) = Ok f.
    Proof.
      intros Hf. cbn [closest_face]. f_equal. induction fs as [|g fs IH]; cbn [foldl]; [done|]. by rewrite nan_lt by auto.
    Qed.
    Lemma epa3_nan tol l vs f fs : Forall (fun q => nan3 (sp_v q)) vs -> Forall (nan_face vs) (f :: fs) ->
      exists pt, epa3_loop (mink3 supL supR) tol l vs (f :: fs) = Ok (mkContact FullResolution (f_normal f) (f_dist f) pt n0, false).
    Proof.
      intros Hv Hf. revert vs Hv Hf. induction l as [|l IH]; intros vs Hv Hf; pose proof Hf as Hf0; apply Forall_cons in Hf as [(H1 & H2 & t & Ht) Hf]; cbn [epa3_loop];
        rewrite (closest_nan f fs H2); cbn [mbind res_mbind res_bind];
        (destruct (mink3_nan (f_normal f)) as (p & Ep & Hp); change (mink sub3 neg3 supL supR (f_normal f)) with (mink3 supL supR (f_normal f)) in Ep; rewrite Ep; cbn [mbind res_mbind res_bind]);
        rewrite nan_lt by (left; apply nan_sub; auto).
      - destruct Ht as (sa & sb & sc & Ea & Eb & Ec & _). unfold epa_point3. destruct (f_vs f) as [[a b] c]. cbn [fst snd] in Ea, Eb, Ec.
        rewrite (get_Some _ _ _ Ea), (get_Some _ _ _ Eb), (get_Some _ _ _ Ec). cbn [mbind res_mbind res_bind]. destruct (bary3 _ _ _ _) as [[u v] w]. by eexists.
      - unfold poly_add. rewrite (nan_no_seen vs _ _ 0 (f :: fs)); [|done|done|lia]. cbn [mbind res_mbind res_bind mapM_res]. rewrite app_nil_r.
        apply IH; [apply Forall_app; split; [done|by constructor]|]. eapply Forall_impl; [exact Hf0|]. intros g (G1 & G2 & t' & G3). split_and!; try done. exists t'. by apply face_of_app.
    Qed.
    Lemma face_new_nan vs a b c : Forall (fun q => nan3 (sp_v q)) vs -> (a < length vs)%nat -> (b < length vs)%nat -> (c < length vs)%nat ->
      exists f, face_new vs a b c = Ok f /\ nan_face vs f.
    Proof.
      intros Hv Ha Hb Hc. destruct (face_new_cases vs a b c Ha Hb Hc) as (f & t & E & Hf). exists f. split; [done|].
      pose proof Hf as (sa & sb & sc & Ea & Eb & Ec & _ & En). assert (Hna : nan3 (sp_v sa)) by by eapply Forall_lookup_1 in Hv.
      assert (Hnn : allnan3 (f_normal f)) by (rewrite En; apply nan_norm3, nan_cross3; left; apply nan_sub3; auto). split; [done|]. split; [|by exists t].
      unfold face_new in E. destruct (lookup_lt_is_Some_2 vs a Ha) as [sa' Ea'], (lookup_lt_is_Some_2 vs b Hb) as [sb' Eb'], (lookup_lt_is_Some_2 vs c Hc) as [sc' Ec'].
      rewrite (get_Some _ _ _ Ea'), (get_Some _ _ _ Eb'), (get_Some _ _ _ Ec') in E. cbn [mbind res_mbind res_bind] in E. assert (K : forall (x y : @Face3 fl), Ok x = Ok y -> x = y) by (by intros ? ? [=]). apply K in E. rewrite <- E in Hnn |- *. cbn [f_dist f_normal] in *. apply nan_dot3. left. by apply allnan_nan.
    Qed.
    Theorem C63_nan_contact3 n lpos rpos etol : (3 <= n)%nat ->
      exists ct, gjk3_intersection eps tenth supL supR etol FullResolution n lpos rpos = Ok (Some ct) /\ allnan3 (c_normal ct) /\ is_nan (c_depth ct) = true.
    Proof.
      intros Hle. destruct (hit_nan3 n lpos rpos Hle) as (s & E & Hl & Hs). unfold gjk3_intersection. rewrite E. cbn [mbind res_mbind res_bind].
      unfold epa3_process, epa3_run. rewrite Hl. cbn [Nat.ltb Nat.leb].
      destruct (face_new_nan s 3 2 1) as (f1 & E1 & F1); [done|lia..|]. destruct (face_new_nan s 3 1 0) as (f2 & E2 & F2); [done|lia..|].
      destruct (face_new_nan s 3 0 2) as (f3 & E3 & F3); [done|lia..|]. destruct (face_new_nan s 2 0 1) as (f4 & E4 & F4); [done|lia..|].
      assert (Efs : faces_new s = Ok [f1; f2; f3; f4]). { unfold faces_new. rewrite E1, E2, E3, E4. done. }
      rewrite Efs. cbn [mbind res_mbind res_bind]. destruct (epa3_nan etol (n - 1) s f1 [f2; f3; f4]) as [pt ->]; [done|repeat (apply Forall_cons; split; [done|]); apply Forall_nil; done|]. cbn.
      eexists. split; [done|]. cbn. destruct F1 as (? & ? & _). done.
    Qed.
    (** The distance computation panics. *)
    Lemma edge_nan3 a b : nan3 a -> nan3 (closest_on_edge3 a b zero3).
    Proof.
      intros Ha. unfold closest_on_edge3. cbv zeta. assert (Hd : allnan3 (normalize3 (sub3 b a))) by (apply nan_norm3, nan_sub3; auto).
      assert (Hdot : is_nan (dot3 (sub3 zero3 a) (normalize3 (sub3 b a))) = true) by (apply nan_dot3; right; by apply allnan_nan).
      rewrite nan_lt by auto. rewrite nan_lt by (right; apply nan_mul; auto). unfold scale3, add3, nan3. cbn [vx vy vz]. left. apply nan_add. right. apply nan_mul. auto.
    Qed.
    Lemma near0_nan v : nan3 v -> near0_3 eps v = false.
    Proof.
      intros Hv. unfold near0_3, near0. destruct Hv as [Hv|[Hv|Hv]].
      - by rewrite (nan_le (nabs (vx v))) by (left; by apply nan_abs).
      - rewrite (nan_le (nabs (vy v))) by (left; by apply nan_abs). by rewrite andb_false_r.
      - rewrite (nan_le (nabs (vz v))) by (left; by apply nan_abs). by rewrite andb_false_r.
    Qed.
    Lemma face_nan a b c d : nan3 a -> closest_on_face eps a b c d = Panic.
    Proof.
      intros Ha. unfold closest_on_face, plane_from_points. cbv zeta. assert (Hc : nan3 (cross3 (sub3 b a) (sub3 c a))) by (apply nan_cross3; left; apply nan_sub3; auto).
      rewrite (near0_nan _ Hc). unfold plane_ray. cbv zeta.
      assert (Ht : is_nan (plane_ray_t (mkPlane (normalize3 (cross3 (sub3 b a) (sub3 c a))) (- dot3 a (normalize3 (cross3 (sub3 b a) (sub3 c a))))%N_) (mkRay zero3 (neg3 d))) = true).
      { unfold plane_ray_t. apply nan_div. left. apply nan_neg. apply nan_add. left. cbn [pl_d]. apply nan_neg, nan_dot3. auto. }
      rewrite nan_lt by auto. unfold bary3. cbv zeta.
      set (u := (_ - _ - _)%N_). assert (Hu : is_nan u = true).
      { unfold u. apply nan_sub. left. apply nan_sub. right. apply nan_mul. right. apply nan_div. right. apply nan_sub. left. apply nan_mul. left. apply nan_dot3. left. apply nan_sub3. auto. }
      unfold in_range. by rewrite (nan_le n0 u) by auto.
    Qed.
    Theorem C63_nan_distance3 tol n lpos rpos : (2 <= n)%nat -> dist3_run eps tenth supL supR tol n lpos rpos = Panic.
    Proof.
      intros Hle. destruct n as [|[|n]]; [lia..|]. unfold dist3_run, dist_run. cbv zeta. set (d := first_dir _ _ _ _ _).
      destruct (mink3_nan d) as (p & -> & Hp). cbn [mbind res_mbind res_bind]. destruct (mink3_nan (neg3 d)) as (q & -> & Hq). cbn [mbind res_mbind res_bind dist_loop].
      change (closest3 eps tenth [p; q]) with (Ok ([p; q], closest_on_edge3 (sp_v q) (sp_v p) zero3)). cbn [mbind res_mbind res_bind].
      pose proof (edge_nan3 (sp_v q) (sp_v p) Hq) as Hv. set (v := closest_on_edge3 _ _ _) in *. rewrite (near0_nan v Hv).
      destruct (mink3_nan (neg3 v)) as (r & -> & Hr). cbn [mbind res_mbind res_bind get lookup list_lookup app]. rewrite nan_lt by (left; apply nan_sub; left; apply nan_dot3; auto).
      unfold closest3. cbn [reduce3]. rewrite check_side_nan by by apply nan_neg3. by rewrite face_nan.
    Qed.
    Theorem C63_nan_time_of_impact3 fuel tol lvel rvel interp : gjk3_toi eps tenth supL supR fuel tol lvel rvel interp = Ok None.
    Proof.
      unfold gjk3_toi, gjk_toi. cbv zeta. destruct (mink3_nan (neg3 (sub3 rvel lvel))) as (p & -> & Hp). cbn [mbind res_mbind res_bind].
      assert (Hd : is_nan (dot3 (sp_v p) (sp_v p)) = true) by (apply nan_dot3; auto). destruct fuel; cbn [toi_loop]; rewrite (nan_lt tol) by auto; cbn [mbind res_mbind res_bind]; by rewrite nan_le by auto.
    Qed.
  End space.

  (** Every primitive whose displacement has a NaN coordinate is such a shape. *)
  Theorem C63_nan_displacement2 eps (p : @Primitive2 fl) s rot disp : nan2 disp -> near0 eps s = false ->
    lost2 (fun d => prim2_support p d (decomposed2 eps s rot disp)).
  Proof.
    intros Hd Hs d q E. destruct (C63_supports2 p (decomposed2 eps s rot disp) d) as [x Ex]; [by apply decomposed2_inverts|].
    rewrite Ex in E. injection E as <-. cbn [xf_pt decomposed2]. unfold add2, nan2. cbn [ux uy]. destruct Hd; [left|right]; apply nan_add; auto.
  Qed.
  Theorem C63_nan_displacement3 eps (p : @Primitive3 fl) s rot disp : nan3 disp -> near0 eps s = false ->
    lost3 (fun d => prim3_support p d (decomposed3 eps s rot disp)).
  Proof.
    intros Hd Hs d q E. destruct (C63_supports3 p (decomposed3 eps s rot disp) d) as [x Ex]; [by apply decomposed3_inverts|].
    rewrite Ex in E. injection E as <-. cbn [xf_pt decomposed3]. unfold add3, nan3. cbn [vx vy vz]. destruct Hd as [?|[?|?]]; [left|right; left|right; right]; apply nan_add; auto.
  Qed.
End nan.

(** * Bodies *)
Section bodies.
  Context (prec emax : Z) {Hprec : FLX.Prec_gt_0 prec} {Hemax : Prec_lt_emax prec emax}.
  Notation fl := (binary_float prec emax).
  Local Instance numb : Num fl := Num_float prec emax.
  Local Instance sgnb : NumSgn fl := NumSgn_float prec emax.
  Context (eps tenth etol tol : fl).
  (** A body: a primitive, a scale that is not next to zero, a rotation, a displacement. *)
  Record Body2 := mkBody2 { b2_prim : @Primitive2 fl; b2_scale : fl; b2_rot : @M2 fl; b2_disp : V2 fl; b2_scaled : near0 eps b2_scale = false }.
  Record Body3 := mkBody3 { b3_prim : @Primitive3 fl; b3_scale : fl; b3_rot : @Quat fl; b3_disp : V3 fl; b3_scaled : near0 eps b3_scale = false }.
  Definition place2 (b : Body2) := decomposed2 eps (b2_scale b) (b2_rot b) (b2_disp b).
  Definition place3 (b : Body3) := decomposed3 eps (b3_scale b) (b3_rot b) (b3_disp b).
  Definition support2 (b : Body2) (d : V2 fl) : res (V2 fl) := prim2_support (b2_prim b) d (place2 b).
  Definition support3 (b : Body3) (d : V3 fl) : res (V3 fl) := prim3_support (b3_prim b) d (place3 b).
  Lemma support2_answers b : answers (support2 b).
  Proof. intros d. destruct (C63_supports2 (b2_prim b) (place2 b) d) as [x E]; [apply decomposed2_inverts, b2_scaled|]. exists (xf_pt (place2 b) x). exact E. Qed.
  Lemma support3_answers b : answers (support3 b).
  Proof. intros d. destruct (C63_supports3 (b3_prim b) (place3 b) d) as [x E]; [apply decomposed3_inverts, b3_scaled|]. exists (xf_pt (place3 b) x). exact E. Qed.
  Lemma lost_support2 b : nan2 prec emax (b2_disp b) -> lost2 prec emax (support2 b).
  Proof. intros Hd. exact (C63_nan_displacement2 prec emax eps (b2_prim b) (b2_scale b) (b2_rot b) (b2_disp b) Hd (b2_scaled b)). Qed.
  Lemma lost_support3 b : nan3 prec emax (b3_disp b) -> lost3 prec emax (support3 b).
  Proof. intros Hd. exact (C63_nan_displacement3 prec emax eps (b3_prim b) (b3_scale b) (b3_rot b) (b3_disp b) Hd (b3_scaled b)). Qed.

  (** No intersection test, whatever the bodies (scales, rotations and positions may be NaN or infinite): it answers. *)
  Theorem C63_bodies_answer2 (a b : Body2) n :
    (exists o, gjk2_intersection eps (support2 a) (support2 b) etol CollisionOnly n (xf_pt (place2 a) zero2) (xf_pt (place2 b) zero2) = Ok o) /\
    (exists o, dist2_run eps (support2 a) (support2 b) tol n (xf_pt (place2 a) zero2) (xf_pt (place2 b) zero2) = Ok o).
  Proof.
    split; [|apply C63_distance2; apply support2_answers].
    destruct (C63_contact2 eps _ _ (support2_answers a) (support2_answers b) etol CollisionOnly n (xf_pt (place2 a) zero2) (xf_pt (place2 b) zero2)) as [(o & E & _)|(_ & [=] & _)]. by exists o.
  Qed.
  Theorem C63_bodies_answer3 (a b : Body3) n :
    exists o, gjk3_intersection eps tenth (support3 a) (support3 b) etol CollisionOnly n (xf_pt (place3 a) zero3) (xf_pt (place3 b) zero3) = Ok o.
  Proof.
    destruct (C63_contact3 eps tenth _ _ (support3_answers a) (support3_answers b) etol CollisionOnly n (xf_pt (place3 a) zero3) (xf_pt (place3 b) zero3)) as [(o & E & _)|(_ & [=] & _)]. by exists o.
  Qed.
  (** A body whose position is NaN collides with every body, wherever it is; full resolution panics in the plane, and
      in space gives a NaN contact; the distance is none in the plane, and a panic in space. *)
  Theorem C63_lost_body2 (a b : Body2) n : nan2 prec emax (b2_disp a) \/ nan2 prec emax (b2_disp b) -> (2 <= n)%nat -> near0 eps n0 = true ->
    let run st := gjk2_intersection eps (support2 a) (support2 b) etol st n (xf_pt (place2 a) zero2) (xf_pt (place2 b) zero2) in
    (exists ct, run CollisionOnly = Ok (Some ct)) /\ run FullResolution = Panic /\
    dist2_run eps (support2 a) (support2 b) tol n (xf_pt (place2 a) zero2) (xf_pt (place2 b) zero2) = Ok Touching.
  Proof.
    intros Hd Hn He run. assert (Hl : lost2 prec emax (support2 a) \/ lost2 prec emax (support2 b)) by (destruct Hd; [left|right]; by apply lost_support2).
    pose proof (support2_answers a) as Ha. pose proof (support2_answers b) as Hb.
    split; [exact (C63_nan_collides2 prec emax eps _ _ Ha Hb Hl n _ _ etol Hn)|]. split; [exact (C63_nan_contact2 prec emax eps _ _ Ha Hb Hl n _ _ etol Hn)|].
    exact (C63_nan_distance2 prec emax eps _ _ Ha Hb Hl tol n _ _ Hn He).
  Qed.
  Theorem C63_lost_body3 (a b : Body3) n : nan3 prec emax (b3_disp a) \/ nan3 prec emax (b3_disp b) -> (3 <= n)%nat ->
    let run st := gjk3_intersection eps tenth (support3 a) (support3 b) etol st n (xf_pt (place3 a) zero3) (xf_pt (place3 b) zero3) in
    (exists ct, run CollisionOnly = Ok (Some ct)) /\
    (exists ct, run FullResolution = Ok (Some ct) /\ allnan3 prec emax (c_normal ct) /\ is_nan (c_depth ct) = true) /\
    dist3_run eps tenth (support3 a) (support3 b) tol n (xf_pt (place3 a) zero3) (xf_pt (place3 b) zero3) = Panic.
  Proof.
    intros Hd Hn run. assert (Hl : lost3 prec emax (support3 a) \/ lost3 prec emax (support3 b)) by (destruct Hd; [left|right]; by apply lost_support3).
    pose proof (support3_answers a) as Ha. pose proof (support3_answers b) as Hb.
    split; [exact (C63_nan_collides3 prec emax eps tenth _ _ Ha Hb Hl n _ _ etol Hn)|]. split; [exact (C63_nan_contact3 prec emax eps tenth _ _ Ha Hb Hl n _ _ etol Hn)|].
    exact (C63_nan_distance3 prec emax eps tenth _ _ Ha Hb Hl tol n _ _ ltac:(lia)).
  Qed.
End bodies.

(** * f32: overflow *)
Section f32.
  Local Instance num32g : Num f32 := Num_float 24 128.
  Local Instance sgn32g : NumSgn f32 := NumSgn_float 24 128.
  Definition eps32 : f32 := F32 1 (-23).
  Definition one_scaled : near0 eps32 (F32 1 0) = false := eq_refl.
  Definition still : @M2 f32 := mkM2 (mk2 (F32 1 0) (F32 0 0)) (mk2 (F32 0 0) (F32 1 0)).
  (** An axis-parallel rectangle at a place. *)
  Definition rect_at (w h x y : f32) : Body2 24 128 eps32 := mkBody2 24 128 eps32 (Rectangle (mk2 w h)) (F32 1 0) still (mk2 x y) one_scaled.
  Definition collide (st : strategy) (a b : Body2 24 128 eps32) : res (option (Contact f32 (V2 f32))) :=
    gjk2_intersection eps32 (support2 24 128 eps32 a) (support2 24 128 eps32 b) (F32 1 (-14)) st 100 (xf_pt (place2 24 128 eps32 a) zero2) (xf_pt (place2 24 128 eps32 b) zero2).
  Definition outcome {A} (r : res (option A)) : nat := match r with Ok None => 0 | Ok (Some _) => 1 | Panic => 2 | OutOfFuel => 3 end.
  Lemma outcome_panic {A} (r : res (option A)) : outcome r = 2 -> r = Panic.
  Proof. by destruct r as [[]| |]. Qed.
  Lemma outcome_some {A} (r : res (option A)) : outcome r = 1 -> exists c, r = Ok (Some c).
  Proof. destruct r as [[]| |]; try done. eauto. Qed.
  Lemma outcome_none {A} (r : res (option A)) : outcome r = 0 -> r = Ok None.
  Proof. by destruct r as [[]| |]. Qed.
  (** Two overlapping squares of side 2^43, coordinates around 2^41: full resolution panics (the squared lengths of the
      normals overflow to infinity), although every number is finite; with sides of 2^42 it answers. *)
  Theorem C63_f32_overflow_panic_refuted :
    collide FullResolution (rect_at (F32 1 43) (F32 1 43) (F32 0 0) (F32 0 0)) (rect_at (F32 1 43) (F32 1 43) (F32 1 41) (F32 1 40)) = Panic /\
    exists c, collide FullResolution (rect_at (F32 1 42) (F32 1 42) (F32 0 0) (F32 0 0)) (rect_at (F32 1 42) (F32 1 42) (F32 1 40) (F32 1 39)) = Ok (Some c).
  Proof. split; [apply outcome_panic; vm_compute; reflexivity|apply outcome_some; vm_compute; reflexivity]. Qed.
  (** Two rectangles 10 by 1 (times 2^40), the second 2 above: a gap of 2^40 between them, but they are reported as
      colliding (products overflow to infinity, and infinity minus infinity is NaN); scaled down by four, they are not. *)
  Theorem C63_f32_overflow_collides_refuted :
    (exists c, collide CollisionOnly (rect_at (F32 10 40) (F32 1 40) (F32 0 0) (F32 0 0)) (rect_at (F32 10 40) (F32 1 40) (F32 5 40) (F32 2 40)) = Ok (Some c)) /\
    collide CollisionOnly (rect_at (F32 10 38) (F32 1 38) (F32 0 0) (F32 0 0)) (rect_at (F32 10 38) (F32 1 38) (F32 5 38) (F32 2 38)) = Ok None.
  Proof. split; [apply outcome_some; vm_compute; reflexivity|apply outcome_none; vm_compute; reflexivity]. Qed.
  (** A concrete case of the hypotheses: a unit square at NaN and one at 100. *)
  Example C63_hypotheses_met :
    let a := rect_at (F32 1 0) (F32 1 0) B754_nan (F32 0 0) in let b := rect_at (F32 1 0) (F32 1 0) (F32 100 0) (F32 0 0) in
    answers (support2 24 128 eps32 a) /\ answers (support2 24 128 eps32 b) /\ nan2 24 128 (b2_disp _ _ _ a) /\ near0 eps32 n0 = true
    /\ collide FullResolution a b = Panic /\ (exists c, collide CollisionOnly a b = Ok (Some c)) /\ collide CollisionOnly b b <> Panic.
  Proof.
    intros a b. split; [apply support2_answers|]. split; [apply support2_answers|]. split; [by left|]. split; [by vm_compute|]. split; [apply outcome_panic; vm_compute; reflexivity|].
    split; [apply outcome_some; vm_compute; reflexivity|]. intros E. assert (outcome (collide CollisionOnly b b) = 2) by by rewrite E. assert (outcome (collide CollisionOnly b b) = 1) by (vm_compute; reflexivity). congruence.
  Qed.
End f32.
