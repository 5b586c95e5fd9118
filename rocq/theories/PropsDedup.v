(** Polyhedra built with duplicate vertices removed (C56). *)
From Coq Require Import Psatz.
From stdpp Require Import prelude fin_maps gmap.
From Flocq Require Import Core BinarySingleNaN.
From Coq Require Import Reals Lra.
From Verif Require Import Res Num Vec AabbModel GeoModel RealGeo PrimModel ShapeSpec MinkModel PropsPlane PropsSupport MeshSpec MeshModel MeshBuild PropsMesh.
Local Open Scope R_scope.

(** ** Specification *)
(** The vertex number [i] is a copy of an earlier one. *)
Definition copy_at (vs : list P3) (i : nat) : Prop := exists v, vs !! i = Some v /\ v ∈ take i vs.
(** No vertex before number [i] is a copy of an earlier one. *)
Definition no_copy_before (vs : list P3) (i : nat) : Prop := forall j, (j < i)%nat -> ~ copy_at vs j.
(** All three corners of [f]. *)
Definition tri_all (Q : nat -> Prop) (f : tri) : Prop := Q f.1.1 /\ Q f.1.2 /\ Q f.2.

(** ** The list without copies *)
Lemma eq3_true (a b : P3) : eq3 a b = true <-> a = b.
Proof.
  unfold eq3. cbn [neq Num_R]. rewrite !andb_true_iff. unfold Reqb. split.
  - intros [[H1 H2] H3]. destruct (Req_EM_T (vx a) (vx b)), (Req_EM_T (vy a) (vy b)), (Req_EM_T (vz a) (vz b)); try done. by apply V3_eq.
  - intros ->. by destruct (Req_EM_T (vx b) (vx b)), (Req_EM_T (vy b) (vy b)), (Req_EM_T (vz b) (vz b)).
Qed.
Lemma find_dup_spec (vs : list P3) v k found : match find_dup vs k v found with
  | Some j => found = Some j \/ exists i, vs !! i = Some v /\ j = (k + i)%nat
  | None => found = None /\ v ∉ vs
  end.
Proof.
  revert k found. induction vs as [|x vs IH]; intros k found; cbn [find_dup].
  - destruct found; [by left|]. split; [done|]. apply not_elem_of_nil.
  - specialize (IH (k + 1)%nat (if eq3 x v then Some k else found)). destruct (find_dup vs (k + 1) v _) as [j|].
    + destruct IH as [E|(i & Hi & ->)].
      * destruct (eq3 x v) eqn:Ex; [|by left]. apply eq3_true in Ex as ->. right. exists 0%nat. injection E as <-. split; [done|lia].
      * right. exists (Datatypes.S i). split; [done|lia].
    + destruct IH as [E Hn]. destruct (eq3 x v) eqn:Ex; [done|]. split; [done|]. rewrite not_elem_of_cons. split; [|done]. intros ->. by rewrite (proj2 (eq3_true x x) eq_refl) in Ex.
Qed.
Record dinv (pre new : list P3) (dup : gmap nat nat) : Prop := {
  d_nodup : NoDup new;
  d_elem x : x ∈ new <-> x ∈ pre;
  d_sub : sublist new pre;
  d_dup i j : dup !! i = Some j -> copy_at pre i /\ new !! j = pre !! i;
  d_new i v : pre !! i = Some v -> dup !! i = None -> ~ copy_at pre i /\ exists k, (k <= i)%nat /\ new !! k = Some v /\ (k = i <-> no_copy_before pre i);
  d_len : (length new <= length pre)%nat /\ (length new = length pre <-> no_copy_before pre (length pre))
}.
Lemma copy_at_app pre l i : (i < length pre)%nat -> copy_at (pre ++ l) i <-> copy_at pre i.
Proof. intros Hi. unfold copy_at. rewrite lookup_app_l by done. by rewrite take_app_le by lia. Qed.
Lemma no_copy_app pre l i : (i <= length pre)%nat -> no_copy_before (pre ++ l) i <-> no_copy_before pre i.
Proof. intros Hi. unfold no_copy_before. split; intros Hn j Hj; specialize (Hn j Hj); rewrite copy_at_app in * by lia; done. Qed.
Lemma no_copy_last pre v : v ∉ pre -> no_copy_before (pre ++ [v]) (Datatypes.S (length pre)) <-> no_copy_before pre (length pre).
Proof.
  intros Hv. split.
  - intros Hn j Hj. rewrite <- (copy_at_app pre [v]) by done. apply Hn. lia.
  - intros Hn j Hj. destruct (decide (j = length pre)) as [->|]; [|rewrite copy_at_app by lia; apply Hn; lia].
    intros (x & Hx & Hin). rewrite lookup_app_r, Nat.sub_diag in Hx by done. injection Hx as <-. by rewrite take_app_alt in Hin.
Qed.
Lemma dinv_step pre new dup v : dinv pre new dup ->
  match find_dup new 0 v None with Some j => dinv (pre ++ [v]) new (<[length pre := j]> dup) | None => dinv (pre ++ [v]) (new ++ [v]) dup end.
Proof.
  intros [Hnd Hel Hsub Hdup Hnew [Hle Hlen]]. pose proof (find_dup_spec new v 0 None) as Hf. destruct (find_dup new 0 v None) as [j|].
  - destruct Hf as [?|(i & Hi & ->)]; [done|]. cbn [plus]. assert (Hvp : v ∈ pre) by (apply Hel; by eapply elem_of_list_lookup_2).
    assert (Hc : copy_at (pre ++ [v]) (length pre)). { exists v. rewrite lookup_app_r, Nat.sub_diag by done. split; [done|]. by rewrite take_app_alt. }
    split.
    + done.
    + intros x. rewrite elem_of_app, elem_of_list_singleton, Hel. naive_solver.
    + etrans; [done|]. by apply sublist_inserts_r.
    + intros k q [(<- & <-) | (Hne & Hk)]%lookup_insert_Some.
      * split; [done|]. by rewrite lookup_app_r, Nat.sub_diag by done.
      * destruct (Hdup _ _ Hk) as [[w [Hw Hwin]] E]. pose proof (lookup_lt_Some _ _ _ Hw). split; [rewrite copy_at_app by done; by exists w|]. by rewrite lookup_app_l.
    + intros k w Hw [Hk Hne]%lookup_insert_None. assert (k < length pre)%nat. { apply lookup_lt_Some in Hw. rewrite app_length in Hw. cbn in Hw. lia. }
      rewrite lookup_app_l in Hw by done. destruct (Hnew _ _ Hw Hk) as [Hnc (q & Hq & Hqn & Hqi)]. rewrite copy_at_app by done. split; [done|]. exists q. split_and!; [done..|].
      by rewrite no_copy_app by lia.
    + rewrite app_length. cbn [length]. split; [lia|]. split; [lia|]. intros Hn. destruct (Hn (length pre)); [lia|done].
  - destruct Hf as [_ Hv]. assert (Hvp : v ∉ pre) by (by rewrite <- Hel). split.
    + apply NoDup_app. split_and!; [done| |apply NoDup_singleton]. intros x Hx ->%elem_of_list_singleton. done.
    + intros x. rewrite !elem_of_app, Hel. done.
    + by apply sublist_app.
    + intros k q Hk. destruct (Hdup _ _ Hk) as [[w [Hw Hwin]] E]. pose proof (lookup_lt_Some _ _ _ Hw). split; [rewrite copy_at_app by done; by exists w|]. rewrite (lookup_app_l pre) by done.
      rewrite Hw. apply lookup_app_l_Some. by rewrite E.
    + intros k w Hw Hk. destruct (decide (k = length pre)) as [->|Hne].
      * rewrite lookup_app_r, Nat.sub_diag in Hw by done. injection Hw as <-. split.
        { intros (x & Hx & Hin). rewrite lookup_app_r, Nat.sub_diag in Hx by done. injection Hx as <-. by rewrite take_app_alt in Hin. }
        exists (length new). split_and!; [done|by rewrite lookup_app_r, Nat.sub_diag by done|]. rewrite no_copy_app by done. done.
      * assert (k < length pre)%nat. { apply lookup_lt_Some in Hw. rewrite app_length in Hw. cbn in Hw. lia. }
        rewrite lookup_app_l in Hw by done. destruct (Hnew _ _ Hw Hk) as [Hnc (q & Hq & Hqn & Hqi)]. rewrite copy_at_app by done. split; [done|]. exists q.
        split_and!; [done|by apply lookup_app_l_Some|]. by rewrite no_copy_app by lia.
    + rewrite !app_length. cbn [length]. split; [lia|]. rewrite !Nat.add_1_r. rewrite no_copy_last by done. rewrite <- Hlen. lia.
Qed.
Lemma dedup_inv input pre new dup : dinv pre new dup -> let r := dedup_vertices input (length pre) new dup in dinv (pre ++ input) r.1 r.2.
Proof.
  revert pre new dup. induction input as [|v input IH]; intros pre new dup Hi; cbn [dedup_vertices]; [by rewrite app_nil_r|].
  pose proof (dinv_step _ _ _ v Hi) as Hs. replace (pre ++ v :: input) with ((pre ++ [v]) ++ input) by (by rewrite <- app_assoc).
  assert (El : (length pre + 1)%nat = length (pre ++ [v])) by (rewrite app_length; done). destruct (find_dup new 0 v None) as [j|]; rewrite El; by apply IH.
Qed.
Lemma dedup_spec vs : let r := dedup_vertices vs 0 [] ∅ in dinv vs r.1 r.2.
Proof.
  apply (dedup_inv vs [] [] ∅). split; try done.
  - constructor.
  - split; [done|]. split; [|done]. intros _ j Hj. cbn in Hj. lia.
Qed.
(** Where an index of a face leads after the copies are removed. *)
Lemma index_spec vs i v : vs !! i = Some v -> let r := dedup_vertices vs 0 [] ∅ in
  (copy_at vs i \/ no_copy_before vs i -> r.1 !! dedup_index r.2 i = Some v) /\
  (~ copy_at vs i -> ~ no_copy_before vs i -> dedup_index r.2 i = i /\ r.1 !! i <> Some v).
Proof.
  intros Hv r. pose proof (dedup_spec vs) as [Hnd Hel Hsub Hdup Hnew Hlen]. fold r in Hnd, Hel, Hsub, Hdup, Hnew, Hlen. unfold dedup_index. destruct (r.2 !! i) as [j|] eqn:Ej; cbn [default].
  - destruct (Hdup _ _ Ej) as [Hc E]. split; [intros _; unfold Datatypes.id; by rewrite E|done].
  - destruct (Hnew _ _ Hv Ej) as [Hnc (k & Hk & Hkn & Hki)]. split.
    + intros [?|Hn]; [done|]. apply Hki in Hn as ->. done.
    + intros _ Hn. split; [done|]. intros E. apply Hn, Hki. by eapply NoDup_lookup.
Qed.

Section dedup.
  Context (eps : R) (Heps : 0 <= eps).
  (** The polyhedron has every position once, in the order of the first occurrences. *)
  Theorem C56_vertices vs fs p : poly_new_dedup eps vs fs = Ok p ->
    let ps := map hv_pos (ph_vertices p) in NoDup ps /\ (forall x, x ∈ ps <-> x ∈ vs) /\ sublist ps vs.
  Proof.
    unfold poly_new_dedup. pose proof (dedup_spec vs) as Hd. cbn zeta in Hd. destruct (dedup_vertices vs 0 [] ∅) as [new dup]. cbn [fst snd] in Hd.
    intros (_ & s & hfs & -> & Hb)%new_faces_ok; [|done]. cbn [poly_of ph_vertices]. rewrite (hi_pos _ _ _ _ (b_inv _ _ _ _ _ Hb)). destruct Hd. done.
  Qed.
  (** Without copies nothing changes. *)
  Theorem C56_no_copies vs fs : NoDup vs -> poly_new_dedup eps vs fs = poly_new_faces eps vs fs.
  Proof.
    intros Hnd. unfold poly_new_dedup. pose proof (dedup_spec vs) as Hd. cbn zeta in Hd. destruct (dedup_vertices vs 0 [] ∅) as [new dup]. cbn [fst snd] in Hd.
    assert (Hnc : forall i, ~ copy_at vs i).
    { intros i (v & Hv & (j & Hj)%elem_of_list_lookup). assert (j < i)%nat by (apply lookup_lt_Some in Hj; rewrite take_length in Hj; lia). rewrite lookup_take in Hj by done.
      pose proof (NoDup_lookup _ _ _ _ Hnd Hv Hj). lia. }
    destruct Hd as [_ _ Hsub Hdup _ [_ Hlen]]. assert (El : length new = length vs) by (apply Hlen; intros j _; apply Hnc).
    assert (new = vs) as ->. { by apply sublist_eq_length || (revert El; clear -Hsub; induction Hsub as [|x l1 l2 Hs IH|x l1 l2 Hs IH]; cbn; [done|intros [= ?]; f_equal; by apply IH|intros E; apply sublist_length in Hs; lia]). }
    f_equal. unfold dedup_faces. rewrite <- (map_id fs) at 2. apply map_ext. intros [[a b] c].
    assert (Hi : forall i, dedup_index dup i = i). { intros i. unfold dedup_index. destruct (dup !! i) as [j|] eqn:E; [|done]. by destruct (Hnc i), (Hdup _ _ E). }
    by rewrite !Hi.
  Qed.
  Lemma corners_dedup vs f abc : corners_at vs f abc -> tri_all (fun i => copy_at vs i \/ no_copy_before vs i) f ->
    let r := dedup_vertices vs 0 [] ∅ in corners_at r.1 (let '(a, b, c) := f in (dedup_index r.2 a, dedup_index r.2 b, dedup_index r.2 c)) abc.
  Proof.
    destruct f as [[a b] c]. intros (H1 & H2 & H3) (A1 & A2 & A3). cbn [fst snd] in *. split_and!; cbn [fst snd]; by apply index_spec.
  Qed.
  (** Exactly when the faces of the result are the intended ones: every corner of a face is
      a copy itself or comes before all copies. *)
  Theorem C56_exact vs fs p : poly_new_faces eps vs fs = Ok p ->
    (exists p', poly_new_dedup eps vs fs = Ok p' /\ faces_iter p' = faces_iter p) <-> Forall (tri_all (fun i => copy_at vs i \/ no_copy_before vs i)) fs.
  Proof.
    intros Hp. destruct (new_faces_ok eps Heps vs fs p Hp) as [Hok _]. destruct (C53_faces_in_order eps Heps vs fs p Hp) as (l & El & Hl).
    unfold poly_new_dedup. pose proof (index_spec vs) as Hidx. pose proof (corners_dedup vs) as Hcd. cbn zeta in Hidx, Hcd. destruct (dedup_vertices vs 0 [] ∅) as [new dup]. cbn [fst snd] in Hidx, Hcd. split.
    - intros (p' & Hp' & E). destruct (C53_faces_in_order eps Heps new _ p' Hp') as (l' & El' & Hl'). rewrite El, El' in E. injection E as ->.
      clear El El' Hp Hp' Hok p p'. unfold dedup_faces in Hl'. rewrite Forall2_fmap_l in Hl'.
      assert (Hall : forall k f, fs !! k = Some f -> tri_all (fun i => copy_at vs i \/ no_copy_before vs i) f).
      { intros k f Hk. destruct (Forall2_lookup_l _ _ _ _ _ Hl Hk) as ([[x y] z] & Hx & H1 & H2 & H3). cbn [fst snd] in *.
        assert (Hc : corners_at new (let '(a, b, c) := f in (dedup_index dup a, dedup_index dup b, dedup_index dup c)) (x, y, z)).
        { exact (Forall2_lookup_lr _ _ _ _ _ _ Hl' Hk Hx). }
        destruct f as [[a b] c]. destruct Hc as (C1 & C2 & C3). cbn [fst snd] in *.
        assert (Hone : forall i v, vs !! i = Some v -> new !! dedup_index dup i = Some v -> copy_at vs i \/ no_copy_before vs i).
        { intros i v Hv Hn. destruct (Hidx i v Hv) as [_ Hbad].
          assert (Hdec : copy_at vs i \/ ~ copy_at vs i). { unfold copy_at. rewrite Hv. assert (Hd : v ∈ take i vs \/ v ∉ take i vs).
            { induction (take i vs) as [|q qs IH]; [right; apply not_elem_of_nil|]. rewrite elem_of_cons. destruct (eq3 v q) eqn:E; [apply eq3_true in E; tauto|].
              assert (v <> q) by (intros ->; by rewrite (proj2 (eq3_true q q) eq_refl) in E). tauto. }
            destruct Hd; [left; eauto|right; intros (? & [= <-] & ?); done]. }
          destruct Hdec as [?|Hnc]; [by left|]. right. 
          assert (Hdn : forall n, no_copy_before vs n \/ ~ no_copy_before vs n).
          { intros n. assert (Hc1 : forall j, copy_at vs j \/ ~ copy_at vs j).
            { intros j. unfold copy_at. destruct (vs !! j) as [w|]; [|right; naive_solver]. assert (Hd : w ∈ take j vs \/ w ∉ take j vs).
              { induction (take j vs) as [|q qs IH]; [right; apply not_elem_of_nil|]. rewrite elem_of_cons. destruct (eq3 w q) eqn:E; [apply eq3_true in E; tauto|].
                assert (w <> q) by (intros ->; by rewrite (proj2 (eq3_true q q) eq_refl) in E). tauto. }
              destruct Hd; [left; eauto|right; intros (? & [= <-] & ?); done]. }
            induction n as [|n IH]; [left; intros j Hj; lia|]. destruct IH as [IH|IH]; [|right; intros Hn'; apply IH; intros j Hj; apply Hn'; lia].
            destruct (Hc1 n); [right; intros Hn'; apply (Hn' n); [lia|done]|left; intros j Hj; destruct (decide (j = n)) as [->|]; [done|apply IH; lia]]. }
          destruct (Hdn i) as [?|Hnn]; [done|]. destruct (Hbad Hnc Hnn) as [E Hne]. rewrite E in Hn. done. }
        split_and!; cbn [fst snd]; eauto. }
      apply Forall_forall. intros f (k & Hk)%elem_of_list_lookup. eauto.
    - intros Hall.
      assert (Hok' : Forall (face_ok eps new) (dedup_faces fs dup)).
      { unfold dedup_faces. apply Forall_fmap. rewrite Forall_forall in Hok, Hall |- *. intros f Hf. destruct (Hok f Hf) as (abc & Hc & Hn). exists abc. split; [by apply Hcd; [|apply Hall]|done]. }
      destruct (proj1 (C53_construction eps Heps new _) Hok') as (p' & Hp'). exists p'. split; [done|].
      destruct (C53_faces_in_order eps Heps new _ p' Hp') as (l' & El' & Hl'). rewrite El, El'. f_equal. clear -Hl Hl' Hall Hcd. revert l Hl Hall l' Hl'. unfold dedup_faces.
      induction fs as [|f fs IH]; intros l Hl Hall l' Hl'.
      + apply Forall2_nil_inv_l in Hl as ->. cbn in Hl'. by apply Forall2_nil_inv_l in Hl' as ->.
      + apply Forall2_cons_inv_l in Hl as (abc & l1 & Hc & Hl & ->). cbn [map] in Hl'. apply Forall2_cons_inv_l in Hl' as (abc' & l1' & Hc' & Hl' & ->). apply Forall_cons in Hall as [Ha Hall].
        f_equal; [|by apply IH]. pose proof (Hcd f abc Hc Ha) as (D1 & D2 & D3). destruct Hc' as (E1 & E2 & E3). destruct abc as [[a b] c], abc' as [[a' b'] c']. cbn [fst snd] in *. congruence.
  Qed.
  (** If the last vertex is not a copy but another vertex is, every face that uses the last
      vertex makes the construction panic. *)
  Theorem C56_last_vertex_panics vs fs f : let n := (length vs - 1)%nat in ~ copy_at vs n -> ~ no_copy_before vs n -> f ∈ fs -> f.1.1 = n \/ f.1.2 = n \/ f.2 = n ->
    poly_new_dedup eps vs fs = Panic.
  Proof.
    intros n Hc Hn Hf Hu. unfold poly_new_dedup. pose proof (dedup_spec vs) as Hd. pose proof (index_spec vs) as Hidx. cbn zeta in Hd, Hidx. destruct (dedup_vertices vs 0 [] ∅) as [new dup]. cbn [fst snd] in Hd, Hidx.
    assert (Hpos : (0 < length vs)%nat). { destruct vs; [|cbn; lia]. destruct Hn. intros j Hj (v & Hv & _). done. }
    destruct (lookup_lt_is_Some_2 vs n) as [v Hv]; [unfold n; lia|]. destruct (Hidx n v Hv) as [_ Hb]. destruct (Hb Hc Hn) as [Ei _].
    destruct Hd as [_ _ _ _ _ [Hle Hlen]]. assert (Hlt : (length new <= n)%nat).
    { destruct (decide (length new = length vs)) as [E|]; [|unfold n; lia]. destruct Hn. intros j Hj. apply Hlen; [done|unfold n in Hj; lia]. }
    apply (proj2 (C53_construction eps Heps new _)). rewrite Forall_forall. intros Hall.
    specialize (Hall (let '(a, b, c) := f in (dedup_index dup a, dedup_index dup b, dedup_index dup c))). destruct Hall as (abc & (C1 & C2 & C3) & _).
    { unfold dedup_faces. apply (elem_of_list_fmap_1 (fun f : tri => let '(a, b, c) := f in (dedup_index dup a, dedup_index dup b, dedup_index dup c)) fs f Hf). }
    destruct f as [[a b] c]. cbn [fst snd] in *. destruct Hu as [-> | [-> | ->]]; rewrite Ei in *;
      [apply lookup_lt_Some in C1|apply lookup_lt_Some in C2|apply lookup_lt_Some in C3]; lia.
  Qed.
End dedup.

(** A tetrahedron whose last face uses a copy of the first vertex: copies come last. *)
Example C56_hypotheses_met : exists p, let vs := [mk3 0 0 0; mk3 1 0 0; mk3 0 1 0; mk3 0 0 1; mk3 0 0 0] in let fs := [(0, 2, 1); (0, 1, 3); (1, 2, 3); (4, 3, 2)]%nat in
  poly_new_faces (1 / 1000) vs fs = Ok p /\ copy_at vs 4 /\ Forall (tri_all (fun i => copy_at vs i \/ no_copy_before vs i)) fs /\
  let ws := [mk3 0 0 0; mk3 0 0 0; mk3 1 0 0; mk3 0 1 0] : list P3 in ~ copy_at ws 3 /\ ~ no_copy_before ws 3.
Proof.
  cbn zeta. set (vs := [mk3 0 0 0; mk3 1 0 0; mk3 0 1 0; mk3 0 0 1; mk3 0 0 0] : list P3).
  assert (Hok : Forall (face_ok (1 / 1000) vs) [(0, 2, 1); (0, 1, 3); (1, 2, 3); (4, 3, 2)]%nat).
  { repeat constructor.
    all: eexists (_, _, _); split; [split_and!; cbn; done|]; unfold tri_normal; cbn [fst snd]; rv0;
      match goal with |- _ < Rabs ?x \/ _ < Rabs ?y \/ _ < Rabs ?z => ring_simplify x y z end;
      unfold Rabs; repeat match goal with |- context [Rcase_abs ?x] => destruct (Rcase_abs x) end; lra. }
  destruct (proj1 (C53_construction (1 / 1000) ltac:(lra) vs _) Hok) as (p & Hp). exists p.
  assert (Hc : copy_at vs 4) by (exists (mk3 0 0 0); split; [done|]; cbn; set_solver).
  assert (Hneq : forall a b : P3, vx a <> vx b \/ vy a <> vy b \/ vz a <> vz b -> a <> b) by (intros a b [?|[?|?]] ->; done).
  assert (Hn : forall i, (i <= 4)%nat -> no_copy_before vs i).
  { intros i Hi j Hj (v & Hv & Hin). destruct j as [|[|[|[|j]]]]; [| | | |lia]; cbn in Hv; injection Hv as <-; cbn in Hin; rewrite ?elem_of_cons, ?elem_of_nil in Hin;
      repeat (destruct Hin as [Hin|Hin]; [revert Hin; apply Hneq; cbn; lra|]); done. }
  split_and!; [done|done| | |].
  - rewrite !Forall_cons, Forall_nil. unfold tri_all. cbn [fst snd]. split_and!; [..|done]; first [left; exact Hc | right; apply Hn; lia].
  - intros (v & Hv & Hin). cbn in Hv. injection Hv as <-. cbn in Hin. rewrite !elem_of_cons, elem_of_nil in Hin. repeat (destruct Hin as [Hin|Hin]; [revert Hin; apply Hneq; cbn; lra|]). done.
  - intros Hno. apply (Hno 1%nat); [lia|]. exists (mk3 0 0 0). split; [done|]. cbn. set_solver.
Qed.

(** A copy at the front shifts all later vertices but not the indices of the faces: the
    triangle (0,0,0), (1,0,0), (0,1,0) becomes (0,0,0), (0,1,0), (0,0,1). *)
Local Instance num32d : Num f32 := Num_float 24 128.
Local Instance sgn32d : NumSgn f32 := NumSgn_float 24 128.
Theorem C56_front_copy_refuted :
  match poly_new_dedup (F32 1 (-20)) [F32pt3 0 0 0; F32pt3 0 0 0; F32pt3 1 0 0; F32pt3 0 1 0; F32pt3 0 0 1] [(0, 2, 3)%nat] with
  | Ok p => match faces_iter p with Ok [(a, b, c)] => eq3 a (F32pt3 0 0 0) && eq3 b (F32pt3 0 1 0) && eq3 c (F32pt3 0 0 1) | _ => false end
  | _ => false
  end = true /\
  match poly_new_dedup (F32 1 (-20)) [F32pt3 0 0 0; F32pt3 0 0 0; F32pt3 1 0 0; F32pt3 0 1 0; F32pt3 0 0 1] [(0, 3, 2); (0, 2, 4); (2, 3, 4); (1, 4, 3)]%nat with
  | Panic => true | _ => false end = true.
Proof. split; by vm_compute. Qed.
