(** Invariants of the construction of half edges. *)
From stdpp Require Import prelude fin_maps gmap.
From Verif Require Import Res Num Vec AabbModel GeoModel PrimModel MinkModel MeshSpec MeshModel.

Section build.
  Context {S : Type} `{Num S} `{NumSgn S} (eps : S).
  Implicit Types (s : hstate S) (D : list (nat * nat * nat)).
  Notation hstate := (hstate S).
  Notation HVertex := (HVertex S).
  Lemma upd_ok {A} (l : list A) i x f : l !! i = Some x -> upd l i f = Ok (<[i := f x]> l).
  Proof. intros E. unfold upd. by rewrite (get_Some _ _ _ E). Qed.
  Lemma get_None {A} (l : list A) i : l !! i = None -> get l i = Panic.
  Proof. intros E. unfold get. by rewrite E. Qed.
  (** [D]: the sides handled so far, each with the number of its face; [n]: the number of
      faces. *)
  Record hinv (vs : list (V3 S)) D (n : nat) s : Prop := {
    hi_pos : map hv_pos (h_vertices s) = vs;
    hi_map u v e : h_map s !! (u, v) = Some e ->
      u <> v /\ exists x, h_edges s !! e = Some x /\ he_target x = v /\ h_map s !! (v, u) = Some (he_twin x);
    hi_inj k1 k2 e : h_map s !! k1 = Some e -> h_map s !! k2 = Some e -> k1 = k2;
    hi_rng i x : h_edges s !! i = Some x ->
      (he_next x < length (h_edges s) /\ he_prev x < length (h_edges s) /\ he_twin x < length (h_edges s) /\ he_left x < n)%nat;
    hi_vtx v hv : h_vertices s !! v = Some hv -> hv_ready hv = true ->
      exists w i, (v, w, i) ∈ D /\ h_map s !! (v, w) = Some (hv_edge hv);
    hi_used v w i : (v, w, i) ∈ D -> exists hv, h_vertices s !! v = Some hv /\ hv_ready hv = true;
    hi_side u v i : (u, v, i) ∈ D -> exists e x i', h_map s !! (u, v) = Some e /\ h_edges s !! e = Some x /\
      he_left x = i' /\ (u, v, i') ∈ D;
    hi_raw i x : h_edges s !! i = Some x -> he_ready x = true -> exists u v, h_map s !! (u, v) = Some i /\ (u, v, he_left x) ∈ D
  }.
  (** What one call of [half_edge] leaves unchanged. *)
  Record hstep s s' : Prop := {
    hs_len : (length (h_edges s) <= length (h_edges s'))%nat;
    hs_map k e : h_map s !! k = Some e -> h_map s' !! k = Some e;
    hs_edge i x : h_edges s !! i = Some x -> exists x', h_edges s' !! i = Some x' /\ he_next x' = he_next x /\ he_prev x' = he_prev x
  }.
  Lemma hstep_refl s : hstep s s.
  Proof. split; [done|done|]. intros i x ?. by exists x. Qed.
  Lemma hstep_trans s1 s2 s3 : hstep s1 s2 -> hstep s2 s3 -> hstep s1 s3.
  Proof.
    intros [L1 M1 E1] [L2 M2 E2]. split; [lia|eauto|]. intros i x Hx. destruct (E1 _ _ Hx) as (y & Hy & Hn & Hp).
    destruct (E2 _ _ Hy) as (z & Hz & Hn' & Hp'). exists z. split_and!; [done|congruence..].
  Qed.
  (** The state after [half_edge]. *)
  Lemma half_edge_spec vs D n s v0 v1 : hinv vs D (Datatypes.S n) s -> v0 <> v1 -> (v0 < length vs)%nat ->
    exists s' e, half_edge n v0 v1 s = Ok (s', e) /\ hinv vs (D ++ [(v0, v1, n)]) (Datatypes.S n) s' /\ hstep s s' /\
      h_map s' !! (v0, v1) = Some e.
  Proof.
    intros Hi Hne Hlt.
    assert (exists e01 e10 es x01, edge_pair v0 v1 s = Ok (e01, e10, es) /\
        es !! e01 = Some x01 /\
        let s' := mkH (h_vertices s) es (<[(v1, v0) := e10]> (<[(v0, v1) := e01]> (h_map s))) in
        hinv vs D (Datatypes.S n) s' /\ hstep s s' /\ h_map s' !! (v0, v1) = Some e01) as (e01 & e10 & es & x01 & E & Hx01 & Hi' & Hs & Hm).
    { unfold edge_pair. destruct (h_map s !! (v0, v1)) as [e|] eqn:Em.
      - destruct (hi_map _ _ _ _ Hi _ _ _ Em) as (_ & x & Hx & Hxt & Hxm). rewrite (get_Some _ _ _ Hx). cbn [mbind res_mbind res_bind].
        eexists _, _, _, x. split; [done|]. split; [done|]. cbn zeta.
        rewrite !insert_id; [|by rewrite ?insert_id..]. destruct s. cbn in *. split; [done|]. split; [apply hstep_refl|done].
      - assert (Em' : h_map s !! (v1, v0) = None).
        { destruct (h_map s !! (v1, v0)) as [e|] eqn:Em'; [|done]. destruct (hi_map _ _ _ _ Hi _ _ _ Em') as (_ & x & _ & _ & ?). congruence. }
        set (k := length (h_edges s)). cbn zeta. eexists _, _, _, _. split; [done|].
        set (xa := mkHE v1 0 0 0 (k + 1) false). set (xb := mkHE v0 0 0 0 k false).
        assert (Hk : (h_edges s ++ [xa; xb]) !! k = Some xa) by (rewrite lookup_app_r by done; by replace (k - length (h_edges s))%nat with 0%nat by (unfold k; lia)).
        assert (Hk1 : (h_edges s ++ [xa; xb]) !! (k + 1)%nat = Some xb).
        { rewrite lookup_app_r by (unfold k; lia). by replace (k + 1 - length (h_edges s))%nat with 1%nat by (unfold k; lia). }
        assert (Hold : forall i x, h_edges s !! i = Some x -> (h_edges s ++ [xa; xb]) !! i = Some x) by (intros; by apply lookup_app_l_Some).
        assert (Hlen : length (h_edges s ++ [xa; xb]) = (k + 2)%nat) by (rewrite app_length; cbn; unfold k; lia).
        assert (Hlt' : forall q e, h_map s !! q = Some e -> (e < k)%nat).
        { intros [u v] e He. destruct (hi_map _ _ _ _ Hi _ _ _ He) as (_ & x & Hx & _). by apply lookup_lt_Some in Hx. }
        assert (Hinv : forall q e, (<[(v1, v0):=(k + 1)%nat]> (<[(v0, v1):=k]> (h_map s))) !! q = Some e ->
          (q = (v1, v0) /\ e = (k + 1)%nat) \/ (q = (v0, v1) /\ e = k) \/ (h_map s !! q = Some e /\ q <> (v1, v0) /\ q <> (v0, v1))).
        { intros q e [[<- <-] | [Hq [[<- <-] | [Hq' He]]%lookup_insert_Some]]%lookup_insert_Some; [by left|by right; left|]. right. right. by split_and!. }
        assert (Hfw : forall q e, h_map s !! q = Some e -> (<[(v1, v0):=(k + 1)%nat]> (<[(v0, v1):=k]> (h_map s))) !! q = Some e).
        { intros q e He. rewrite !lookup_insert_ne; [done|congruence..]. }
        assert (Hl0 : (<[(v1, v0):=(k + 1)%nat]> (<[(v0, v1):=k]> (h_map s))) !! (v0, v1) = Some k).
        { rewrite lookup_insert_ne by congruence. apply lookup_insert. }
        assert (Hl1 : (<[(v1, v0):=(k + 1)%nat]> (<[(v0, v1):=k]> (h_map s))) !! (v1, v0) = Some (k + 1)%nat) by apply lookup_insert.
        split; [exact Hk|]. split; [|split; [|exact Hl0]].
        + split; cbn [h_vertices h_edges h_map].
          * apply Hi.
          * intros u v e [([= -> ->] & ->) | [([= -> ->] & ->) | (He & _ & _)]]%Hinv.
            -- split; [done|]. exists xb. by split_and!.
            -- split; [done|]. exists xa. by split_and!.
            -- destruct (hi_map _ _ _ _ Hi _ _ _ He) as (? & x & Hx & Ht & Hxm). split; [done|]. exists x. split_and!; [by apply Hold|done|by apply Hfw].
          * intros k1 k2 e [(-> & ->) | [(-> & ->) | (He & _ & _)]]%Hinv [(-> & Ee) | [(-> & Ee) | (He' & _ & _)]]%Hinv; try done; try lia.
            -- apply Hlt' in He'. lia.
            -- apply Hlt' in He'. lia.
            -- apply Hlt' in He. lia.
            -- apply Hlt' in He. lia.
            -- by eapply (hi_inj _ _ _ _ Hi).
          * intros i x. rewrite Hlen. intros [Hx|(Hge & Hx)]%lookup_app_Some.
            -- destruct (hi_rng _ _ _ _ Hi _ _ Hx) as (? & ? & ? & ?). unfold k. lia.
            -- destruct (i - length (h_edges s))%nat as [|[|]]; [| |done]; cbn in Hx; injection Hx as <-; cbn; lia.
          * intros v hv Hv Hr. destruct (hi_vtx _ _ _ _ Hi _ _ Hv Hr) as (w & i & HD & Hw). exists w, i. split; [done|by apply Hfw].
          * apply Hi.
          * intros u v i HD. destruct (hi_side _ _ _ _ Hi _ _ _ HD) as (e & x & i' & He & Hx & Hl & HD'). exists e, x, i'. split_and!; [by apply Hfw|by apply Hold|done..].
          * intros i x [Hx|(Hge & Hx)]%lookup_app_Some Hr.
            -- destruct (hi_raw _ _ _ _ Hi _ _ Hx Hr) as (u & v & Hu & HD). exists u, v. split; [by apply Hfw|done].
            -- destruct (i - length (h_edges s))%nat as [|[|]]; [| |done]; cbn in Hx; injection Hx as <-; done.
        + split; cbn [h_vertices h_edges h_map].
          * rewrite Hlen. unfold k. lia.
          * apply Hfw.
          * intros i x Hx. exists x. split_and!; [by apply Hold|done..]. }
    unfold half_edge. rewrite E. cbn [mbind res_mbind res_bind]. cbn zeta in Hi', Hs, Hm. cbn [h_map] in Hm.
    rewrite (upd_ok _ _ _ _ Hx01). cbn [mbind res_mbind res_bind].
    assert (exists hv0, h_vertices s !! v0 = Some hv0) as (hv0 & Hhv0).
    { apply lookup_lt_is_Some. rewrite <- (map_length hv_pos), (hi_pos _ _ _ _ Hi). done. }
    rewrite (upd_ok _ _ _ _ Hhv0). cbn [mbind res_mbind res_bind].
    eexists _, _. split; [done|].
    set (m' := <[(v1, v0):=e10]> (<[(v0, v1):=e01]> (h_map s))) in *.
    set (fx := fun x => if he_ready x then x else mkHE (he_target x) n (he_next x) (he_prev x) (he_twin x) true).
    set (fv := fun x : HVertex => if hv_ready x then x else mkHV (hv_pos x) e01 true).
    change (if he_ready x01 then x01 else _) with (fx x01). change (if hv_ready hv0 then hv0 else _) with (fv hv0).
    assert (Hfx : forall x, he_target (fx x) = he_target x /\ he_next (fx x) = he_next x /\ he_prev (fx x) = he_prev x /\ he_twin (fx x) = he_twin x).
    { intros x. unfold fx. by destruct (he_ready x). }
    assert (Hes : forall i x, es !! i = Some x -> exists x', <[e01:=fx x01]> es !! i = Some x' /\ (x' = x \/ (i = e01 /\ x = x01 /\ x' = fx x01))).
    { intros i x Hx. destruct (decide (i = e01)) as [->|Hn].
      - rewrite Hx01 in Hx. injection Hx as <-. exists (fx x01). split; [|by right]. apply list_lookup_insert. by apply lookup_lt_Some in Hx01.
      - exists x. rewrite list_lookup_insert_ne by done. split; [done|by left]. }
    assert (Hes' : forall i x', <[e01:=fx x01]> es !! i = Some x' -> (es !! i = Some x' /\ i <> e01) \/ (i = e01 /\ x' = fx x01)).
    { intros i x' Hx'. apply list_lookup_insert_Some in Hx' as [(-> & -> & _) | (Hn & Hx)]; [by right|by left]. }
    assert (Hraw : (v0, v1, he_left (fx x01)) ∈ D ++ [(v0, v1, n)]).
    { unfold fx. destruct (he_ready x01) eqn:Er; cbn [he_left]; [|set_solver].
      destruct (hi_raw _ _ _ _ Hi' _ _ Hx01 Er) as (u & v & Hu & HD). cbn [h_map] in Hu.
      pose proof (hi_inj _ _ _ _ Hi' _ _ _ Hm Hu) as [= <- <-]. set_solver. }
    assert (Hvs : forall v hv, h_vertices s !! v = Some hv -> <[v0:=fv hv0]> (h_vertices s) !! v = Some (if decide (v = v0) then fv hv else hv)).
    { intros v hv Hv. destruct (decide (v = v0)) as [->|Hn]; [|by rewrite list_lookup_insert_ne by done].
      rewrite Hv in Hhv0. injection Hhv0 as <-. apply list_lookup_insert. by apply lookup_lt_Some in Hv. }
    split; [|split; [|done]].
    - split; cbn [h_vertices h_edges h_map].
      + rewrite <- (hi_pos _ _ _ _ Hi). apply list_eq. intros i. rewrite !list_lookup_fmap.
        destruct (h_vertices s !! i) as [hv|] eqn:Hv.
        * rewrite (Hvs _ _ Hv). cbn. f_equal. unfold fv. destruct (decide (i = v0)), (hv_ready hv); done.
        * assert (<[v0:=fv hv0]> (h_vertices s) !! i = None) as ->; [|done]. apply lookup_ge_None. rewrite insert_length. by apply lookup_ge_None.
      + intros u v e He. destruct (hi_map _ _ _ _ Hi' _ _ _ He) as (? & x & Hx & Ht & Hxm). split; [done|].
        destruct (Hes _ _ Hx) as (x' & Hx' & [-> | (-> & -> & ->)]); [by exists x|].
        exists (fx x01). destruct (Hfx x01) as (-> & _ & _ & ->). by split_and!.
      + intros k1 k2 e. apply (hi_inj _ _ _ _ Hi').
      + intros i x. rewrite insert_length. intros [(Hx & _) | (-> & ->)]%Hes'.
        * apply (hi_rng _ _ _ _ Hi' _ _ Hx).
        * destruct (hi_rng _ _ _ _ Hi' _ _ Hx01) as (? & ? & ? & Hl). destruct (Hfx x01) as (_ & -> & -> & ->). cbn [h_edges] in *. split_and!; [done..|].
          unfold fx. destruct (he_ready x01); [done|]. cbn. lia.
      + intros v hv' Hv' Hr.
        assert (exists hv, h_vertices s !! v = Some hv) as (hv & Hv).
        { apply lookup_lt_is_Some. apply lookup_lt_Some in Hv'. by rewrite insert_length in Hv'. }
        rewrite (Hvs _ _ Hv) in Hv'. injection Hv' as <-.
        assert (Hcase : hv_ready hv = true -> exists w i, (v, w, i) ∈ D ++ [(v0, v1, n)] /\ m' !! (v, w) = Some (hv_edge hv)).
        { intros Hr'. destruct (hi_vtx _ _ _ _ Hi' _ _ Hv Hr') as (w & i & HD & Hw). exists w, i. split; [set_solver|done]. }
        destruct (decide (v = v0)) as [->|Hn]; [|by apply Hcase]. unfold fv in *. destruct (hv_ready hv) eqn:Er; [by apply Hcase|].
        cbn. exists v1, n. split; [set_solver|done].
      + intros v w i [HD|HD]%elem_of_app.
        * destruct (hi_used _ _ _ _ Hi' _ _ _ HD) as (hv & Hv & Hr). rewrite (Hvs _ _ Hv). eexists. split; [done|].
          destruct (decide (v = v0)); [|done]. unfold fv. by destruct (hv_ready hv) eqn:?.
        * apply elem_of_list_singleton in HD. injection HD as -> -> ->. rewrite (Hvs _ _ Hhv0). eexists. split; [done|].
          destruct (decide (v0 = v0)); [|done]. unfold fv. by destruct (hv_ready hv0) eqn:?.
      + intros u v i [HD|HD]%elem_of_app.
        * destruct (hi_side _ _ _ _ Hi' _ _ _ HD) as (e & x & i' & He & Hx & Hl & HD').
          destruct (Hes _ _ Hx) as (x' & Hx' & [-> | (-> & -> & ->)]); [exists e, x, i'; split_and!; [done..|set_solver]|].
          exists e01, (fx x01), (he_left (fx x01)). split_and!; [done..|].
          pose proof (hi_inj _ _ _ _ Hi' _ _ _ Hm He) as [= <- <-]. done.
        * apply elem_of_list_singleton in HD. injection HD as -> -> ->.
          destruct (Hes _ _ Hx01) as (x' & Hx' & Hc). exists e01, x', (he_left x'). split_and!; [done..|].
          destruct Hc as [-> | (_ & _ & ->)]; [|done].
          apply Hes' in Hx' as [(_ & Hn) | (_ & ->)]; done.
      + intros i x [(Hx & _) | (-> & ->)]%Hes' Hr.
        * destruct (hi_raw _ _ _ _ Hi' _ _ Hx Hr) as (u & v & Hu & HD). exists u, v. split; [done|set_solver].
        * exists v0, v1. done.
    - destruct Hs as [L M E']. split; cbn [h_vertices h_edges h_map] in *.
      + by rewrite insert_length.
      + done.
      + intros i x Hx. destruct (E' _ _ Hx) as (y & Hy & Hn & Hp). destruct (Hes _ _ Hy) as (x' & Hx' & [-> | (-> & -> & ->)]); [by exists y|].
        exists (fx x01). destruct (Hfx x01) as (_ & -> & -> & _). done.
  Qed.
  Lemma hinv_mono vs D n m s : hinv vs D n s -> (n <= m)%nat -> hinv vs D m s.
  Proof.
    intros [] Hle. split; try done. intros i x Hx. destruct (hi_rng0 _ _ Hx) as (? & ? & ? & ?). lia.
  Qed.
  (** Linking changes only [next] of [i] and [prev] of [j]. *)
  Lemma link_spec es i j : (i < length es)%nat -> (j < length es)%nat -> exists es', link es i j = Ok es' /\ length es' = length es /\
    (forall k x, es !! k = Some x -> exists x', es' !! k = Some x' /\ he_target x' = he_target x /\ he_left x' = he_left x /\
      he_twin x' = he_twin x /\ he_ready x' = he_ready x /\ he_next x' = (if decide (k = i) then j else he_next x) /\
      he_prev x' = (if decide (k = j) then i else he_prev x)).
  Proof.
    intros [xi Hi]%lookup_lt_is_Some [xj Hj]%lookup_lt_is_Some. unfold link. rewrite (upd_ok _ _ _ _ Hi). cbn [mbind res_mbind res_bind].
    assert (exists yj, <[i:=set_next j xi]> es !! j = Some yj /\ yj = if decide (j = i) then set_next j xj else xj) as (yj & Hyj & Ey).
    { destruct (decide (j = i)) as [->|Hne].
      - simplify_eq. eexists. split; [|done]. apply list_lookup_insert. by eapply lookup_lt_Some.
      - rewrite list_lookup_insert_ne by done. eauto. }
    rewrite (upd_ok _ _ _ _ Hyj). eexists. split; [done|]. split; [by rewrite !insert_length|].
    intros k x Hk. pose proof (lookup_lt_Some _ _ _ Hk) as Hlt.
    destruct (decide (k = j)) as [->|Hkj].
    - rewrite list_lookup_insert by (by rewrite insert_length). eexists. split; [done|]. subst yj. simplify_eq.
      destruct (decide (j = i)) as [->|]; cbn; done.
    - rewrite list_lookup_insert_ne by done. destruct (decide (k = i)) as [->|Hki].
      + rewrite list_lookup_insert by done. simplify_eq. eexists. split; [done|]. done.
      + rewrite list_lookup_insert_ne by done. eexists. split; [done|]. done.
  Qed.
  (** Changing only links keeps the invariant. *)
  Lemma hinv_relink vs D n s es' : hinv vs D n s -> length es' = length (h_edges s) ->
    (forall k x, h_edges s !! k = Some x -> exists x', es' !! k = Some x' /\ he_target x' = he_target x /\ he_left x' = he_left x /\
      he_twin x' = he_twin x /\ he_ready x' = he_ready x /\ (he_next x' < length es')%nat /\ (he_prev x' < length es')%nat) ->
    hinv vs D n (mkH (h_vertices s) es' (h_map s)).
  Proof.
    intros Hi Hlen Hes. 
    assert (Hback : forall k x', es' !! k = Some x' -> exists x, h_edges s !! k = Some x /\ he_target x' = he_target x /\ he_left x' = he_left x /\
      he_twin x' = he_twin x /\ he_ready x' = he_ready x /\ (he_next x' < length es')%nat /\ (he_prev x' < length es')%nat).
    { intros k x' Hx'. pose proof (lookup_lt_Some _ _ _ Hx') as Hlt. rewrite Hlen in Hlt. apply lookup_lt_is_Some in Hlt as [x Hx].
      exists x. split; [done|]. destruct (Hes _ _ Hx) as (y & Hy & Hr). by simplify_eq. }
    destruct Hi. split; cbn [h_vertices h_edges h_map]; [done| |done| |done|done| |].
    - intros u v e He. destruct (hi_map0 _ _ _ He) as (? & x & Hx & Ht & Hm). split; [done|].
      destruct (Hes _ _ Hx) as (x' & Hx' & E1 & E2 & E3 & E4 & _). exists x'. rewrite E1, E3. done.
    - intros i x' Hx'. destruct (Hback _ _ Hx') as (x & Hx & E1 & E2 & E3 & E4 & E5 & E6). destruct (hi_rng0 _ _ Hx) as (? & ? & ? & ?).
      rewrite E2, E3, Hlen. rewrite <- Hlen. rewrite <- Hlen in *. done.
    - intros u v i HD. destruct (hi_side0 _ _ _ HD) as (e & x & i' & He & Hx & Hl & HD').
      destruct (Hes _ _ Hx) as (x' & Hx' & E1 & E2 & E3 & E4 & _). exists e, x', i'. rewrite E2. done.
    - intros i x' Hx' Hr. destruct (Hback _ _ Hx') as (x & Hx & E1 & E2 & E3 & E4 & _). rewrite E4 in Hr. rewrite E2. by apply hi_raw0.
  Qed.

  Definition tag (i : nat) (f : tri) : list (nat * nat * nat) := map (fun q : nat * nat => (q.1, q.2, i)) (tri_sides f).
  Definition tagged (fs : list tri) : list (nat * nat * nat) := concat (imap tag fs).
  Lemma tagged_snoc fs f : tagged (fs ++ [f]) = tagged fs ++ tag (length fs) f.
  Proof. unfold tagged. rewrite imap_app, concat_app. cbn. rewrite Nat.add_0_r. by rewrite app_nil_r. Qed.
  Lemma elem_of_tag i f u v k : (u, v, k) ∈ tag i f <-> k = i /\ (u, v) ∈ tri_sides f.
  Proof.
    unfold tag. rewrite elem_of_list_fmap. split; [intros ([u' v'] & E & ?); cbn in E; by simplify_eq|].
    intros [-> Hs]. by exists (u, v).
  Qed.
  Lemma elem_of_tagged fs u v i : (u, v, i) ∈ tagged fs <-> exists f, fs !! i = Some f /\ (u, v) ∈ tri_sides f.
  Proof.
    induction fs as [|f fs IH] using rev_ind; [split; [by intros ?%elem_of_nil|by intros (f & ? & _)]|].
    rewrite tagged_snoc, elem_of_app, elem_of_tag, IH. split.
    - intros [(g & Hg & Hs) | (-> & Hs)].
      + exists g. split; [by apply lookup_app_l_Some|done].
      + exists f. split; [|done]. by rewrite lookup_app_r, Nat.sub_diag by done.
    - intros (g & [Hg|(Hge & Hg)]%lookup_app_Some & Hs); [left; eauto|]. right.
      assert (i - length fs = 0)%nat as E by (apply lookup_lt_Some in Hg; cbn in Hg; lia). rewrite E in Hg. cbn in Hg. simplify_eq. split; [lia|done].
  Qed.
  Lemma tagged_side fs u v : (exists i, (u, v, i) ∈ tagged fs) <-> (u, v) ∈ mesh_sides fs.
  Proof.
    rewrite side_face. split.
    - intros (i & (f & Hf & Hs)%elem_of_tagged). exists f. split; [by eapply elem_of_list_lookup_2|done].
    - intros (f & (i & Hi)%elem_of_list_lookup & Hs). exists i. apply elem_of_tagged. eauto.
  Qed.

  (** The invariant of the loop over the faces. *)
  Definition face_of (vs : list (V3 S)) s (f : tri) (hf : HFace S) : Prop :=
    let '(a, b, c) := f in hf_vs hf = f /\ h_map s !! (c, a) = Some (hf_edge hf) /\
      exists pa pb pc, vs !! a = Some pa /\ vs !! b = Some pb /\ vs !! c = Some pc /\ plane_from_points eps pa pb pc = Some (hf_plane hf).
  Definition linked (fs : list tri) s : Prop := forall w v x, (w, v, x) ∈ mesh_corners fs -> exists e y,
    h_map s !! (w, v) = Some e /\ h_edges s !! e = Some y /\ h_map s !! (v, x) = Some (he_next y).
  Definition plinked (fs : list tri) s : Prop := forall w v x, (w, v, x) ∈ mesh_corners fs -> exists e z,
    h_map s !! (v, x) = Some e /\ h_edges s !! e = Some z /\ h_map s !! (w, v) = Some (he_prev z).
  Record binv (vs : list (V3 S)) (fs : list tri) s (hfs : list (HFace S)) : Prop := {
    b_inv : hinv vs (tagged fs) (length fs) s;
    b_linked : oriented fs -> linked fs s;
    b_plinked : oriented fs -> plinked fs s;
    b_faces : Forall2 (face_of vs s) fs hfs
  }.
  Definition good_face (vs : list (V3 S)) (f : tri) : Prop :=
    let '(a, b, c) := f in exists pa pb pc, vs !! a = Some pa /\ vs !! b = Some pb /\ vs !! c = Some pc /\ is_Some (plane_from_points eps pa pb pc).
  Lemma vertex_pos vs D n s v p : hinv vs D n s -> vs !! v = Some p <-> exists hv, h_vertices s !! v = Some hv /\ hv_pos hv = p.
  Proof. intros Hi. rewrite <- (hi_pos _ _ _ _ Hi), list_lookup_fmap, fmap_Some. naive_solver. Qed.

  Lemma build_face_bad vs fs s hfs f : binv vs fs s hfs -> ~ good_face vs f -> build_face eps f (s, hfs) = Panic.
  Proof.
    intros [Hi _ _ _] Hbad. destruct f as [[a b] c]. cbn [good_face] in Hbad. unfold build_face.
    destruct (h_vertices s !! a) as [ha|] eqn:Ha; [rewrite (get_Some _ _ _ Ha)|by rewrite (get_None _ _ Ha)]; cbn [mbind res_mbind res_bind].
    destruct (h_vertices s !! b) as [hb|] eqn:Hb; [rewrite (get_Some _ _ _ Hb)|by rewrite (get_None _ _ Hb)]; cbn [mbind res_mbind res_bind].
    destruct (h_vertices s !! c) as [hc|] eqn:Hc; [rewrite (get_Some _ _ _ Hc)|by rewrite (get_None _ _ Hc)]; cbn [mbind res_mbind res_bind].
    destruct (plane_from_points eps (hv_pos ha) (hv_pos hb) (hv_pos hc)) as [pl|] eqn:E; [|done].
    destruct Hbad. exists (hv_pos ha), (hv_pos hb), (hv_pos hc). rewrite E. split_and!; [| | |done]; apply (vertex_pos _ _ _ _ _ _ Hi); eauto.
  Qed.
  Lemma build_face_good vs fs s hfs (f : tri) : binv vs fs s hfs -> good_face vs f -> proper_tris [f] ->
    exists s' hfs', build_face eps f (s, hfs) = Ok (s', hfs') /\ binv vs (fs ++ [f]) s' hfs'.
  Proof.
    intros [Hi Hl Hpl' Hf] Hg Hp. destruct f as [[a b] c]. destruct Hg as (pa & pb & pc & Ha & Hb & Hc & [pl Hpl]).
    apply Forall_singleton in Hp as (Hab & Hbc & Hca).
    apply (hinv_mono _ _ _ (Datatypes.S (length fs))) in Hi; [|lia].
    destruct (proj1 (vertex_pos _ _ _ _ _ _ Hi) Ha) as (ha & Hha & <-).
    destruct (proj1 (vertex_pos _ _ _ _ _ _ Hi) Hb) as (hb & Hhb & <-).
    destruct (proj1 (vertex_pos _ _ _ _ _ _ Hi) Hc) as (hc & Hhc & <-).
    unfold build_face. rewrite (get_Some _ _ _ Hha), (get_Some _ _ _ Hhb), (get_Some _ _ _ Hhc). cbn [mbind res_mbind res_bind].
    rewrite Hpl. pose proof (Forall2_length _ _ _ Hf) as Hlen. rewrite <- Hlen.
    destruct (half_edge_spec _ _ _ _ c a Hi Hca) as (s1 & eca & -> & Hi1 & Hs1 & Hm1); [by eapply lookup_lt_Some|]. cbn [mbind res_mbind res_bind].
    destruct (half_edge_spec _ _ _ _ a b Hi1 Hab) as (s2 & eab & -> & Hi2 & Hs2 & Hm2); [by eapply lookup_lt_Some|]. cbn [mbind res_mbind res_bind].
    destruct (half_edge_spec _ _ _ _ b c Hi2 Hbc) as (s3 & ebc & -> & Hi3 & Hs3 & Hm3); [by eapply lookup_lt_Some|]. cbn [mbind res_mbind res_bind].
    apply (hs_map _ _ Hs3) in Hm2. apply (hs_map _ _ Hs2), (hs_map _ _ Hs3) in Hm1.
    assert (Hs : hstep s s3) by (by eapply hstep_trans; [|eapply hstep_trans]).
    assert (Hr : forall k e, h_map s3 !! k = Some e -> (e < length (h_edges s3))%nat).
    { intros [u v] e He. destruct (hi_map _ _ _ _ Hi3 _ _ _ He) as (_ & x & Hx & _). by eapply lookup_lt_Some. }
    pose proof (Hr _ _ Hm1) as R1. pose proof (Hr _ _ Hm2) as R2. pose proof (Hr _ _ Hm3) as R3.
    assert (D12 : eca <> eab). { intros ->. pose proof (hi_inj _ _ _ _ Hi3 _ _ _ Hm1 Hm2). congruence. }
    assert (D13 : eca <> ebc). { intros ->. pose proof (hi_inj _ _ _ _ Hi3 _ _ _ Hm1 Hm3). congruence. }
    assert (D23 : eab <> ebc). { intros ->. pose proof (hi_inj _ _ _ _ Hi3 _ _ _ Hm2 Hm3). congruence. }
    destruct (link_spec (h_edges s3) eca eab) as (es1 & -> & L1 & K1); [done..|]. cbn [mbind res_mbind res_bind].
    destruct (link_spec es1 eab ebc) as (es2 & -> & L2 & K2); [lia..|]. cbn [mbind res_mbind res_bind].
    destruct (link_spec es2 ebc eca) as (es3 & -> & L3 & K3); [lia..|]. cbn [mbind res_mbind res_bind].
    assert (K : forall k x, h_edges s3 !! k = Some x -> exists x', es3 !! k = Some x' /\ he_target x' = he_target x /\ he_left x' = he_left x /\
      he_twin x' = he_twin x /\ he_ready x' = he_ready x /\
      he_next x' = (if decide (k = ebc) then eca else if decide (k = eab) then ebc else if decide (k = eca) then eab else he_next x) /\
      he_prev x' = (if decide (k = eca) then ebc else if decide (k = ebc) then eab else if decide (k = eab) then eca else he_prev x)).
    { intros k x Hx. destruct (K1 _ _ Hx) as (x1 & Hx1 & ? & ? & ? & ? & N1 & P1).
      destruct (K2 _ _ Hx1) as (x2 & Hx2 & ? & ? & ? & ? & N2 & P2). destruct (K3 _ _ Hx2) as (x3 & Hx3 & ? & ? & ? & ? & N3 & P3).
      exists x3. split_and!; [done|congruence..| |].
      - rewrite N3, N2, N1. done.
      - rewrite P3, P2, P1. done. }
    eexists _, _. split; [done|]. split.
    - rewrite tagged_snoc, app_length, Nat.add_1_r. apply hinv_relink.
      + unfold tag. cbn [tri_sides map]. by rewrite <- !app_assoc in Hi3.
      + lia.
      + intros k x Hx. destruct (K _ _ Hx) as (x' & Hx' & ? & ? & ? & ? & N & P). exists x'. split_and!; [done..| |].
        * rewrite N. destruct (hi_rng _ _ _ _ Hi3 _ _ Hx) as (? & ? & ? & ?). repeat case_decide; lia.
        * rewrite P. destruct (hi_rng _ _ _ _ Hi3 _ _ Hx) as (? & ? & ? & ?). repeat case_decide; lia.
    - unfold oriented. rewrite sides_app. intros (Ho & Hdis & _)%NoDup_app. specialize (Hl Ho).
      intros w v x. rewrite corners_app, elem_of_app. cbn [h_map h_edges]. intros [Hc'|Hc'].
      + destruct (Hl _ _ _ Hc') as (e & y & He & Hy & Hn). destruct (hs_edge _ _ Hs _ _ Hy) as (y' & Hy' & En & _).
        destruct (K _ _ Hy') as (z & Hz & _ & _ & _ & _ & N & _). exists e, z. split; [by apply (hs_map _ _ Hs)|]. split; [done|].
        assert (Hwv : (w, v) ∈ mesh_sides fs). { apply corner_face in Hc' as (g & Hg & Hc'). apply side_face. exists g. split; [done|]. by apply corner_sides in Hc' as (? & _ & _). }
        specialize (Hdis _ Hwv). apply (hs_map _ _ Hs) in He, Hn.
        rewrite N. destruct (decide (e = ebc)) as [->|].
        { pose proof (hi_inj _ _ _ _ Hi3 _ _ _ He Hm3). simplify_eq. destruct Hdis. cbn. set_solver. }
        destruct (decide (e = eab)) as [->|].
        { pose proof (hi_inj _ _ _ _ Hi3 _ _ _ He Hm2). simplify_eq. destruct Hdis. cbn. set_solver. }
        destruct (decide (e = eca)) as [->|].
        { pose proof (hi_inj _ _ _ _ Hi3 _ _ _ He Hm1). simplify_eq. destruct Hdis. cbn. set_solver. }
        by rewrite En.
      + assert (Hget : forall k e, h_map s3 !! k = Some e -> exists x, h_edges s3 !! e = Some x).
        { intros k e He. apply lookup_lt_is_Some. by eapply Hr. }
        destruct (Hget _ _ Hm1) as (x1 & (y1 & Hy1 & _ & _ & _ & _ & N1 & _)%K), (Hget _ _ Hm2) as (x2 & (y2 & Hy2 & _ & _ & _ & _ & N2 & _)%K),
          (Hget _ _ Hm3) as (x3 & (y3 & Hy3 & _ & _ & _ & _ & N3 & _)%K).
        rewrite (decide_True (P := ebc = ebc)) in N3 by done.
        rewrite (decide_False (P := eab = ebc)), (decide_True (P := eab = eab)) in N2 by done.
        rewrite (decide_False (P := eca = ebc)), (decide_False (P := eca = eab)), (decide_True (P := eca = eca)) in N1 by done.
        cbn in Hc'. repeat setoid_rewrite elem_of_cons in Hc'. destruct Hc' as [[= -> -> ->] | [[= -> -> ->] | [[= -> -> ->] | []%elem_of_nil]]].
        * exists eca, y1. by rewrite N1.
        * exists eab, y2. by rewrite N2.
        * exists ebc, y3. by rewrite N3.
    - unfold oriented. rewrite sides_app. intros (Ho & Hdis & _)%NoDup_app. specialize (Hpl' Ho).
      intros w v x. rewrite corners_app, elem_of_app. cbn [h_map h_edges]. intros [Hc'|Hc'].
      + destruct (Hpl' _ _ _ Hc') as (e & y & He & Hy & Hn). destruct (hs_edge _ _ Hs _ _ Hy) as (y' & Hy' & _ & En).
        destruct (K _ _ Hy') as (z & Hz & _ & _ & _ & _ & _ & N). exists e, z. split; [by apply (hs_map _ _ Hs)|]. split; [done|].
        assert (Hwv : (v, x) ∈ mesh_sides fs). { apply corner_face in Hc' as (g & Hg & Hc'). apply side_face. exists g. split; [done|]. by apply corner_sides in Hc' as (_ & ? & _). }
        specialize (Hdis _ Hwv). apply (hs_map _ _ Hs) in He, Hn.
        rewrite N. destruct (decide (e = eca)) as [->|].
        { pose proof (hi_inj _ _ _ _ Hi3 _ _ _ He Hm1). simplify_eq. destruct Hdis. cbn. set_solver. }
        destruct (decide (e = ebc)) as [->|].
        { pose proof (hi_inj _ _ _ _ Hi3 _ _ _ He Hm3). simplify_eq. destruct Hdis. cbn. set_solver. }
        destruct (decide (e = eab)) as [->|].
        { pose proof (hi_inj _ _ _ _ Hi3 _ _ _ He Hm2). simplify_eq. destruct Hdis. cbn. set_solver. }
        by rewrite En.
      + assert (Hget : forall k e, h_map s3 !! k = Some e -> exists x, h_edges s3 !! e = Some x).
        { intros k e He. apply lookup_lt_is_Some. by eapply Hr. }
        destruct (Hget _ _ Hm1) as (x1 & (y1 & Hy1 & _ & _ & _ & _ & _ & N1)%K), (Hget _ _ Hm2) as (x2 & (y2 & Hy2 & _ & _ & _ & _ & _ & N2)%K),
          (Hget _ _ Hm3) as (x3 & (y3 & Hy3 & _ & _ & _ & _ & _ & N3)%K).
        rewrite (decide_True (P := eca = eca)) in N1 by done.
        rewrite (decide_False (P := ebc = eca)), (decide_True (P := ebc = ebc)) in N3 by done.
        rewrite (decide_False (P := eab = eca)), (decide_False (P := eab = ebc)), (decide_True (P := eab = eab)) in N2 by done.
        cbn in Hc'. repeat setoid_rewrite elem_of_cons in Hc'. destruct Hc' as [[= -> -> ->] | [[= -> -> ->] | [[= -> -> ->] | []%elem_of_nil]]].
        * exists eab, y2. by rewrite N2.
        * exists ebc, y3. by rewrite N3.
        * exists eca, y1. by rewrite N1.
    - apply Forall2_app.
      + eapply Forall2_impl; [exact Hf|]. intros [[a' b'] c'] hf (? & Hm & Hr'). split; [done|]. split; [|done]. by apply (hs_map _ _ Hs).
      + constructor; [|done]. split; [done|]. split; [exact Hm1|]. by exists (hv_pos ha), (hv_pos hb), (hv_pos hc).
  Qed.
  (** The construction panics exactly when a face has an index out of range or is degenerate. *)
  Lemma build_faces_spec vs gs fs s hfs : binv vs fs s hfs -> (forall f, f ∈ gs -> good_face vs f -> proper_tris [f]) ->
    (Forall (good_face vs) gs -> exists s' hfs', build_faces eps gs (s, hfs) = Ok (s', hfs') /\ binv vs (fs ++ gs) s' hfs') /\
    (~ Forall (good_face vs) gs -> build_faces eps gs (s, hfs) = Panic).
  Proof.
    revert fs s hfs. induction gs as [|g gs IH]; intros fs s hfs Hb Hp.
    - split; [|intros Hn; by destruct Hn]. intros _. exists s, hfs. by rewrite app_nil_r.
    - pose proof (Hp g (elem_of_list_here _ _)) as Hpg. assert (Hps : forall f, f ∈ gs -> good_face vs f -> proper_tris [f]) by (intros f Hf; apply Hp; by right). cbn [build_faces].
      assert (Hdec : good_face vs g \/ ~ good_face vs g).
      { destruct g as [[a b] c]. unfold good_face. destruct (vs !! a) as [pa|] eqn:Ea; [|right; naive_solver].
        destruct (vs !! b) as [pb|] eqn:Eb; [|right; naive_solver]. destruct (vs !! c) as [pc|] eqn:Ec; [|right; naive_solver].
        destruct (plane_from_points eps pa pb pc) eqn:Epl; [left; exists pa, pb, pc; rewrite Epl; eauto|].
        right. intros (? & ? & ? & ? & ? & ? & [? ?]). simplify_eq. }
      destruct Hdec as [Hg|Hg].
      + destruct (build_face_good _ _ _ _ _ Hb Hg) as (s' & hfs' & -> & Hb'); [by apply Hpg|]. cbn [mbind res_mbind res_bind].
        destruct (IH _ _ _ Hb' Hps) as [IH1 IH2]. rewrite <- app_assoc in IH1. split.
        * intros [_ Hgs]%Forall_cons. by apply IH1.
        * rewrite Forall_cons. intros Hn. apply IH2. naive_solver.
      + rewrite (build_face_bad _ _ _ _ _ Hb Hg). cbn. split; [|done]. intros [? _]%Forall_cons. done.
  Qed.
  Lemma binv_init vs : binv vs [] (mkH (map (fun v => mkHV v 0 false) vs) [] ∅) [].
  Proof.
    split; [|intros _ ? ? ? ?%elem_of_nil; done|intros _ ? ? ? ?%elem_of_nil; done|constructor]. split; cbn [h_vertices h_edges h_map].
    - rewrite map_map. apply map_id.
    - intros u v e He. by rewrite lookup_empty in He.
    - intros k1 k2 e He. by rewrite lookup_empty in He.
    - done.
    - intros v hv Hv Hr. rewrite list_lookup_fmap in Hv. apply fmap_Some in Hv as (p & _ & ->). done.
    - intros v w i ?%elem_of_nil. done.
    - intros v w i ?%elem_of_nil. done.
    - done.
  Qed.
  Definition poly_of (vs : list (V3 S)) s hfs : Polyhedron S := mkPoly true (h_vertices s) (h_edges s) hfs (get_bound3 vs) (max_extent vs).
  Lemma poly_new_faces_spec vs fs : (forall f, f ∈ fs -> good_face vs f -> proper_tris [f]) ->
    (Forall (good_face vs) fs -> exists s hfs, poly_new_faces eps vs fs = Ok (poly_of vs s hfs) /\ binv vs fs s hfs) /\
    (~ Forall (good_face vs) fs -> poly_new_faces eps vs fs = Panic).
  Proof.
    intros Hp. destruct (build_faces_spec vs fs [] _ _ (binv_init vs) Hp) as [B1 B2]. unfold poly_new_faces, build_half_edges. split.
    - intros Hg. destruct (B1 Hg) as (s' & hfs' & -> & Hb). cbn [mbind res_mbind res_bind app] in *. exists s', hfs'. split; [|done].
      unfold poly_of. by rewrite (hi_pos _ _ _ _ (b_inv _ _ _ _ Hb)).
    - intros Hg. rewrite (B2 Hg). done.
  Qed.
End build.
