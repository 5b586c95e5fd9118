(** Hill climbing over half edges. *)
From Coq Require Import Psatz.
From stdpp Require Import prelude fin_maps gmap.
From Coq Require Import Reals Lra.
From Verif Require Import Res Num Vec AabbModel GeoModel RealGeo PrimModel ShapeSpec MinkModel MeshSpec MeshModel MeshBuild MeshGeo.
Local Open Scope R_scope.

(** The vertex after [w] around [v]. *)
Definition succ_at (fs : list tri) (v w : nat) : nat :=
  match filter (fun q : tri => q.1.1 = w /\ q.1.2 = v) (mesh_corners fs) with (_, _, x) :: _ => x | [] => 0%nat end.
Lemma succ_corner fs v w : (w, v) ∈ mesh_sides fs -> (w, v, succ_at fs v w) ∈ mesh_corners fs.
Proof.
  intros (f & Hf & (x & Hx)%side_corner)%side_face. unfold succ_at.
  assert (Hin : (w, v, x) ∈ filter (fun q : tri => q.1.1 = w /\ q.1.2 = v) (mesh_corners fs)).
  { apply elem_of_list_filter. split; [done|]. apply corner_face. eauto. }
  destruct (filter _ _) as [|[[w' v'] x'] l] eqn:E; [by apply elem_of_nil in Hin|].
  assert (Hin' : (w', v', x') ∈ filter (fun q : tri => q.1.1 = w /\ q.1.2 = v) (mesh_corners fs)) by (rewrite E; set_solver).
  apply elem_of_list_filter in Hin' as [[E1 E2] Hin']. cbn in E1, E2. by subst.
Qed.
Section fan.
  Context (fs : list tri) (v w0 : nat).
  Hypothesis Hcs : closed_surface fs.
  Hypothesis Hw0 : (v, w0) ∈ mesh_sides fs.
  Definition nb (i : nat) : nat := Nat.iter i (succ_at fs v) w0.
  Lemma nb_side i : (v, nb i) ∈ mesh_sides fs /\ (nb i, v) ∈ mesh_sides fs.
  Proof.
    destruct Hcs as (Ho & Hc & Hf). induction i as [|i [IH1 IH2]]; [split; [done|by apply Hc]|].
    pose proof (succ_corner _ _ _ IH2) as Hx. change (succ_at fs v (nb i)) with (nb (S i)) in Hx. split.
    - apply corner_face in Hx as (f & Hf' & Hx). apply side_face. exists f. split; [done|]. by apply corner_sides in Hx as (_ & ? & _).
    - apply corner_face in Hx as (f & Hf' & Hx). apply Hc, side_face. exists f. split; [done|]. by apply corner_sides in Hx as (_ & ? & _).
  Qed.
  Lemma nb_corner i : (nb i, v, nb (S i)) ∈ mesh_corners fs.
  Proof. apply succ_corner, nb_side. Qed.
  (** All neighbours are met. *)
  Lemma nb_all x : (v, x) ∈ mesh_sides fs -> exists i, x = nb i.
  Proof.
    intros Hx. destruct Hcs as (Ho & Hc & Hf). pose proof (Hf v w0 x Hw0 Hx) as Hr.
    apply rtc_nsteps in Hr as (n & Hn). revert x Hx Hn. induction n as [|n IH]; intros x Hx Hn.
    - inversion Hn; subst. by exists 0%nat.
    - apply nsteps_inv_r in Hn as (y & Hy & Hyx).
      assert (Hvy : (v, y) ∈ mesh_sides fs).
      { apply Hc. apply corner_face in Hyx as (f & Hf' & Hyx). apply side_face. exists f. split; [done|]. by apply corner_sides in Hyx as (? & _). }
      destruct (IH y Hvy Hy) as (i & ->). exists (S i). by eapply corner_unique_r; [| |apply nb_corner].
  Qed.
  Lemma nb_back : exists k, (0 < k)%nat /\ nb k = w0.
  Proof.
    pose proof Hw0 as Hw. apply side_face in Hw as (f & Hf & (u & Hu)%side_corner_to).
    assert (Huc : (u, v, w0) ∈ mesh_corners fs) by (apply corner_face; eauto).
    assert (Hvu : (v, u) ∈ mesh_sides fs).
    { apply Hcs. apply side_face. exists f. split; [done|]. by apply corner_sides in Hu as (? & _). }
    destruct (nb_all u Hvu) as (i & ->). exists (S i). split; [lia|]. eapply corner_unique_r; [apply Hcs|apply nb_corner|done].
  Qed.
  Lemma least (P : nat -> Prop) `{forall n, Decision (P n)} n : P n -> exists m, P m /\ forall j, P j -> (m <= j)%nat.
  Proof.
    induction (lt_wf n) as [n _ IH]. intros Hn. destruct (decide (Exists P (seq 0 n))) as [He|He].
    - apply Exists_exists in He as (m & Hm%elem_of_seq & HP). apply (IH m); [lia|done].
    - exists n. split; [done|]. intros j Hj. apply Nat.nlt_ge. intros Hlt. apply He, Exists_exists. exists j. split; [|done]. apply elem_of_seq. lia.
  Qed.
  (** The first return. *)
  Lemma nb_first : exists k, (0 < k)%nat /\ nb k = w0 /\ (forall j, (0 < j < k)%nat -> nb j <> w0) /\
    (forall x, (v, x) ∈ mesh_sides fs -> exists i, (i < k)%nat /\ x = nb i).
  Proof.
    destruct nb_back as (n & Hn & En).
    destruct (least (fun n => (0 < n)%nat /\ nb n = w0) n (conj Hn En)) as (k & (Hk & Ek) & Hmin).
    exists k. split_and!; [done|done| |].
    - intros j Hj Ej. specialize (Hmin j (conj (proj1 Hj) Ej)). lia.
    - intros x (i & ->)%nb_all. 
      assert (Hper : forall q r, nb (q * k + r) = nb r).
      { induction q as [|q IH]; intros r; [done|]. rewrite <- (IH r). replace (S q * k + r)%nat with ((q * k + r) + k)%nat by lia.
        unfold nb. rewrite Nat.iter_add. change (Nat.iter k (succ_at fs v) w0) with (nb k). rewrite Ek. done. }
      exists (i mod k)%nat. split; [apply Nat.mod_upper_bound; lia|]. rewrite (Nat.div_mod i k) at 1 by lia. rewrite Nat.mul_comm. apply Hper.
  Qed.
End fan.

Section ring.
  Context {F : Type} `{Num F} `{NumSgn F} (eps : F) (vs : list (V3 F)) (fs : list tri) (s : hstate F) (hfs : list (HFace F)).
  Hypothesis Hb : binv eps vs fs s hfs.
  Hypothesis Hcs : closed_surface fs.
  Context (d : V3 F).
  Notation p := (poly_of vs s hfs).
  Definition posn (i : nat) : V3 F := default zero3 (vs !! i).
  Definition height (i : nat) : F := dot3 (posn i) d.
  (** One step of the walk around a vertex. *)
  Definition visit (acc : nat * F) (w : nat) : nat * F := if nlt acc.2 (height w) then (w, height w) else acc.
  Lemma vertex_get i : (i < length vs)%nat -> exists hv, h_vertices s !! i = Some hv /\ hv_pos hv = posn i.
  Proof.
    intros Hi. apply lookup_lt_is_Some in Hi as [q Hq]. destruct (proj1 (vertex_pos _ _ _ _ _ _ (b_inv _ _ _ _ _ Hb)) Hq) as (hv & ? & <-).
    exists hv. split; [done|]. unfold posn. by rewrite Hq.
  Qed.
  Lemma side_bound u v : (u, v) ∈ mesh_sides fs -> (u < length vs)%nat.
  Proof.
    intros (i & Hi)%tagged_side. destruct (hi_used _ _ _ _ (b_inv _ _ _ _ _ Hb) _ _ _ Hi) as (hv & Hv & _).
    rewrite <- (hi_pos _ _ _ _ (b_inv _ _ _ _ _ Hb)), map_length. by eapply lookup_lt_Some.
  Qed.
  Lemma ring_walk v w0 e0 k : (v, w0) ∈ mesh_sides fs -> h_map s !! (v, w0) = Some e0 -> (0 < k)%nat -> nb fs v w0 k = w0 ->
    (forall j, (0 < j < k)%nat -> nb fs v w0 j <> w0) ->
    forall m i e acc fuel, (i + m = k)%nat -> (0 < m)%nat -> (m <= fuel)%nat -> h_map s !! (v, nb fs v w0 i) = Some e ->
    ring_loop fuel p d e0 e acc.1 acc.2 = Ok (foldl visit acc (map (nb fs v w0) (seq i m))).
  Proof.
    intros Hw0 He0 Hk Ek Hmin m. induction m as [|m IH]; intros i e acc fuel Him Hm Hfu He; [lia|].
    destruct fuel as [|fuel]; [lia|]. cbn [ring_loop].
    pose proof (b_inv _ _ _ _ _ Hb) as Hi. destruct (nb_side fs v w0 Hcs Hw0 i) as [S1 S2].
    destruct (hi_map _ _ _ _ Hi _ _ _ He) as (_ & x & Hx & Ht & Htw).
    cbn [poly_of ph_edges ph_vertices]. rewrite (get_Some _ _ _ Hx). cbn [mbind res_mbind res_bind]. rewrite Ht.
    destruct (vertex_get (nb fs v w0 i)) as (hv & Hv & Ev); [by eapply side_bound|]. rewrite (get_Some _ _ _ Hv). cbn [mbind res_mbind res_bind]. rewrite Ev.
    destruct (b_linked _ _ _ _ _ Hb (proj1 Hcs) _ _ _ (nb_corner fs v w0 Hcs Hw0 i)) as (e' & y & He' & Hy & Hn). rewrite Htw in He'. injection He' as <-.
    assert (forall K : nat -> F -> res (nat * F), (let '(best, bd) := if nlt acc.2 (dot3 (posn (nb fs v w0 i)) d) then (nb fs v w0 i, dot3 (posn (nb fs v w0 i)) d) else (acc.1, acc.2) in K best bd) =
      K (visit acc (nb fs v w0 i)).1 (visit acc (nb fs v w0 i)).2) as Hlet.
    { intros K. unfold visit. fold (height (nb fs v w0 i)). destruct (nlt acc.2 (height (nb fs v w0 i))); done. }
    rewrite Hlet. clear Hlet. rewrite (get_Some _ _ _ Hy). cbn [mbind res_mbind res_bind].
    destruct (decide (m = 0)%nat) as [->|Hm0].
    - assert (S i = k) as Eik by lia. rewrite Eik, Ek, He0 in Hn. injection Hn as <-. rewrite decide_True by done. cbn. by destruct (visit acc (nb fs v w0 i)).
    - rewrite decide_False.
      + rewrite (IH (S i)); [done|lia..|done].
      + intros E. apply (Hmin (S i)); [lia|]. rewrite <- E in Hn.
        pose proof (hi_inj _ _ _ _ Hi _ _ _ Hn He0) as [= Eq]. done.
  Qed.
End ring.

Section bound.
  Context (fs : list tri) (v w0 : nat).
  Hypothesis Hcs : closed_surface fs.
  Hypothesis Hw0 : (v, w0) ∈ mesh_sides fs.
  Lemma nb_unshift i j : nb fs v w0 (S i) = nb fs v w0 (S j) -> nb fs v w0 i = nb fs v w0 j.
  Proof.
    intros E. pose proof (nb_corner fs v w0 Hcs Hw0 i) as H1. pose proof (nb_corner fs v w0 Hcs Hw0 j) as H2. rewrite <- E in H2.
    by eapply corner_unique_l; [apply Hcs| |].
  Qed.
  Lemma ring_length k : (forall j, (0 < j < k)%nat -> nb fs v w0 j <> w0) -> (k <= 3 * length fs)%nat.
  Proof.
    intros Hmin.
    assert (Hinj : forall i j, (i < j < k)%nat -> nb fs v w0 i <> nb fs v w0 j).
    { induction i as [|i IH]; intros j Hj E; [by apply (Hmin j); [lia|]|]. destruct j as [|j]; [lia|]. apply (IH j); [lia|]. by apply nb_unshift. }
    assert (Hnd : NoDup (map (fun i => (v, nb fs v w0 i)) (seq 0 k))).
    { apply NoDup_fmap_2_strong; [|apply NoDup_seq]. intros i j Hi%elem_of_seq Hj%elem_of_seq [= E].
      destruct (Nat.lt_trichotomy i j) as [Hlt|[->|Hlt]]; [|done|].
      - destruct (Hinj i j); [lia|done].
      - destruct (Hinj j i); [lia|done]. }
    assert (Hsub : map (fun i => (v, nb fs v w0 i)) (seq 0 k) ⊆+ mesh_sides fs).
    { apply NoDup_submseteq; [done|]. intros q (i & -> & _)%elem_of_list_fmap. by apply nb_side. }
    apply submseteq_length in Hsub. rewrite map_length, seq_length in Hsub.
    assert (length (mesh_sides fs) = (3 * length fs)%nat) as El; [|lia].
    clear. induction fs as [|[[a b] c] gs IH]; [done|]. rewrite sides_cons, app_length, IH. cbn. lia.
  Qed.
End bound.

Section climb.
  Context (eps : R) (vs : list P3) (fs : list tri) (s : hstate R) (hfs : list (HFace R)).
  Hypothesis Hb : binv eps vs fs s hfs.
  Hypothesis Hcs : closed_surface fs.
  Context (d : P3).
  Notation p := (poly_of vs s hfs).
  Notation hgt := (height vs d).
  Lemma visits (ws : list nat) b : let r := foldl (visit vs d) (b, hgt b) ws in
    r.2 = hgt r.1 /\ hgt b <= r.2 /\ (r.1 = b \/ r.1 ∈ ws) /\ (forall w, w ∈ ws -> hgt w <= r.2) /\ (r.2 = hgt b -> r.1 = b).
  Proof.
    revert b. induction ws as [|w ws IH]; intros b; cbn [foldl].
    - cbn. split_and!; [done|lra|by left|intros w ?%elem_of_nil; done|done].
    - assert (visit vs d (b, hgt b) w = if Rlt_dec (hgt b) (hgt w) then (w, hgt w) else (b, hgt b)) as ->.
      { unfold visit. cbn [fst snd nlt Num_R]. unfold Rltb. by destruct (Rlt_dec (hgt b) (hgt w)). }
      destruct (Rlt_dec (hgt b) (hgt w)) as [Hlt|Hge].
      + destruct (IH w) as (E1 & E2 & E3 & E4 & E5). cbn zeta. split_and!; [done|lra| | |lra].
        * right. destruct E3 as [-> | E3]; set_solver.
        * intros w' [->|Hw']%elem_of_cons; [done|by apply E4].
      + destruct (IH b) as (E1 & E2 & E3 & E4 & E5). cbn zeta. split_and!; [done|lra| | |done].
        * destruct E3 as [-> | E3]; [by left|right; set_solver].
        * intros w' [->|Hw']%elem_of_cons; [lra|by apply E4].
  Qed.
  Definition used (v : nat) : Prop := exists w, (v, w) ∈ mesh_sides fs.
  Lemma ring_result v rfuel : used v -> (3 * length fs <= rfuel)%nat -> exists hv b', h_vertices s !! v = Some hv /\
    ring_loop rfuel p d (hv_edge hv) (hv_edge hv) v (hgt v) = Ok (b', hgt b') /\ hgt v <= hgt b' /\ (hgt b' = hgt v -> b' = v) /\ used b' /\
    forall w, (v, w) ∈ mesh_sides fs -> hgt w <= hgt b'.
  Proof.
    intros (w & Hw) Hr. pose proof (b_inv _ _ _ _ _ Hb) as Hi.
    destruct (proj2 (tagged_side _ _ _) Hw) as (i & HD). destruct (hi_used _ _ _ _ Hi _ _ _ HD) as (hv & Hv & Hrdy).
    destruct (hi_vtx _ _ _ _ Hi _ _ Hv Hrdy) as (w0 & i0 & HD0 & Hm0). assert (Hw0 : (v, w0) ∈ mesh_sides fs) by (apply tagged_side; eauto).
    destruct (nb_first fs v w0 Hcs Hw0) as (k & Hk & Ek & Hmin & Hall). pose proof (ring_length fs v w0 Hcs Hw0 k Hmin) as Hlen.
    pose proof (ring_walk eps vs fs s hfs Hb Hcs d v w0 _ k Hw0 Hm0 Hk Ek Hmin k 0%nat _ (v, hgt v) rfuel eq_refl Hk ltac:(lia) Hm0) as Hw'.
    cbn [fst snd] in Hw'. pose proof (visits (map (nb fs v w0) (seq 0 k)) v) as Hvis. cbn zeta in Hvis.
    destruct (foldl (visit vs d) (v, hgt v) (map (nb fs v w0) (seq 0 k))) as [b' bd'] eqn:Ef. cbn [fst snd] in Hvis.
    destruct Hvis as (-> & E2 & E3 & E4 & E5). exists hv, b'. split_and!; [done|done|done|done| |].
    - destruct E3 as [-> | E3]; [by exists w|]. apply elem_of_list_fmap in E3 as (j & -> & _). exists v. by apply nb_side.
    - intros x (j & Hj & ->)%Hall. apply E4. apply elem_of_list_fmap. exists j. split; [done|]. apply elem_of_seq. lia.
  Qed.
  (** The number of vertices that are higher than [h]. *)
  Definition above (h : R) : nat := length (List.filter (fun q => Rltb h (dot3 q d)) vs).
  Lemma above_le (l : list P3) h h' : h <= h' -> (length (List.filter (fun q => Rltb h' (dot3 q d)) l) <= length (List.filter (fun q => Rltb h (dot3 q d)) l))%nat.
  Proof.
    intros Hh. induction l as [|q l IH]; [done|]. cbn [List.filter]. destruct (Rltb h' (dot3 q d)) eqn:E1, (Rltb h (dot3 q d)) eqn:E2; cbn [length]; try lia.
    exfalso. unfold Rltb in E1, E2. destruct (Rlt_dec h' (dot3 q d)), (Rlt_dec h (dot3 q d)); try done. lra.
  Qed.
  Lemma above_lt v h : (v < length vs)%nat -> h < hgt v -> (above (hgt v) < above h)%nat.
  Proof.
    intros Hv Hh. apply lookup_lt_is_Some in Hv as [q Hq]. assert (Eh : hgt v = dot3 q d) by (unfold height, posn; by rewrite Hq). rewrite Eh in Hh. rewrite Eh. unfold above. clear Eh. assert (Hle : h <= dot3 q d) by lra.
    revert v Hq. generalize vs as l. induction l as [|x l IH]; intros v Hq; [done|]. cbn [List.filter].
    assert (Hq' : Rltb (dot3 q d) (dot3 q d) = false) by (unfold Rltb; destruct (Rlt_dec (dot3 q d) (dot3 q d)); [lra|done]).
    assert (Hh' : Rltb h (dot3 q d) = true) by (unfold Rltb; by destruct (Rlt_dec h (dot3 q d))).
    destruct v as [|v]; cbn in Hq.
    - injection Hq as ->. rewrite Hq', Hh'. cbn [length]. pose proof (above_le l h (dot3 q d) Hle). lia.
    - specialize (IH v Hq). destruct (Rltb (dot3 q d) (dot3 x d)) eqn:E1, (Rltb h (dot3 x d)) eqn:E2; cbn [length]; try lia.
      exfalso. unfold Rltb in E1, E2. destruct (Rlt_dec (dot3 q d) (dot3 x d)), (Rlt_dec h (dot3 x d)); try done. lra.
  Qed.
  Lemma climbs rfuel fuel v : used v -> (3 * length fs <= rfuel)%nat -> (above (hgt v) < fuel)%nat ->
    exists b, climb_loop rfuel fuel p d v (hgt v) = Ok b /\ used b /\ forall w, (b, w) ∈ mesh_sides fs -> hgt w <= hgt b.
  Proof.
    revert v. induction fuel as [|fuel IH]; intros v Hu Hr Hf; [lia|]. cbn [climb_loop].
    destruct (ring_result v rfuel Hu Hr) as (hv & b' & Hv & Hring & Hle & Heq & Hub & Hall).
    cbn [poly_of ph_vertices]. rewrite (get_Some _ _ _ Hv). cbn [mbind res_mbind res_bind].
    fold p. rewrite Hring. cbn [mbind res_mbind res_bind]. cbn [neq Num_R]. unfold Reqb. destruct (Req_EM_T (hgt b') (hgt v)) as [E|E].
    - rewrite (Heq E) in *. exists v. split_and!; [done|done|]. done.
    - apply IH; [done|done|]. pose proof (above_lt b' (hgt v)) as Hlt. destruct Hub as (w & Hw).
      pose proof (side_bound eps vs fs s hfs Hb _ _ Hw). specialize (Hlt ltac:(done) ltac:(lra)). lia.
  Qed.
  Lemma hill_climbs rfuel fuel : used 0 -> (3 * length fs <= rfuel)%nat -> (length vs < fuel)%nat ->
    exists b q, hill_climb rfuel fuel p d = Ok q /\ vs !! b = Some q /\ used b /\ forall w, (b, w) ∈ mesh_sides fs -> hgt w <= dot3 q d.
  Proof.
    intros Hu Hr Hf. unfold hill_climb. destruct Hu as (w0 & Hw0). pose proof (side_bound eps vs fs s hfs Hb _ _ Hw0) as H0.
    destruct (vertex_get eps vs fs s hfs Hb 0 H0) as (hv & Hv & Ev). cbn [poly_of ph_vertices]. rewrite (get_Some _ _ _ Hv). cbn [mbind res_mbind res_bind]. rewrite Ev.
    fold p. change (dot3 (posn vs 0) d) with (hgt 0).
    destruct (climbs rfuel fuel 0%nat) as (b & -> & Hub & Hloc); [by exists w0|done| |].
    { unfold above. assert (forall (f : P3 -> bool) l, (length (List.filter f l) <= length l)%nat) as Hfl.
      { intros f l. induction l as [|x l IH]; [done|]. cbn. destruct (f x); cbn; lia. }
      specialize (Hfl (fun q => Rltb (hgt 0) (dot3 q d)) vs). lia. }
    cbn [mbind res_mbind res_bind]. destruct Hub as (w & Hw). pose proof (side_bound eps vs fs s hfs Hb _ _ Hw) as Hlt.
    destruct (vertex_get eps vs fs s hfs Hb b Hlt) as (hb & Hhb & Eb). rewrite (get_Some _ _ _ Hhb). cbn [mbind res_mbind res_bind].
    exists b, (hv_pos hb). split_and!; [done| |by exists w|].
    - rewrite Eb. unfold posn. apply lookup_lt_is_Some in Hlt as [q Hq]. by rewrite Hq.
    - intros x Hx. rewrite Eb. by apply Hloc.
  Qed.
End climb.
