(** The search for the triangle that a ray enters. *)
From Coq Require Import Psatz.
From stdpp Require Import prelude fin_maps gmap.
From Flocq Require Import Core BinarySingleNaN.
From Coq Require Import Reals Lra.
From Verif Require Import Res Num Vec AabbModel GeoModel RealGeo PrimModel ShapeSpec RaySpec MinkModel Dist PropsPlane PropsSupport MeshSpec MeshModel MeshBuild MeshGeo MeshClimb MeshCover PropsMesh MeshRay.
Local Open Scope R_scope.

Section rays.
  Context (eps : R) (Heps : 0 <= eps) (vs : list P3) (fs : list tri) (s : hstate R) (hfs : list (HFace R)).
  Hypothesis Hb : binv eps vs fs s hfs.
  Hypothesis Hok : Forall (face_ok eps vs) fs.
  Context (ray : Ray P3).
  Notation p := (poly_of vs s hfs).
  Notation P := (posn vs).
  Notation d := (direction ray).
  Notation nrm f := (tri_normal (corners vs f)).
  Lemma Hok' f : f ∈ fs -> exists abc, corners_at vs f abc /\ tri_normal abc <> zero3.
  Proof.
    intros Hf. pose proof (proj1 (Forall_forall _ _) Hok f Hf) as (abc & Hc & Hn). exists abc. split; [done|].
    intros E. rewrite E in Hn. cbn in Hn. rewrite Rabs_R0 in Hn. lra.
  Qed.
  (** The ray meets the triangle [f] from its outer side. *)
  Definition hits (f : tri) : Prop := dot3 (nrm f) d < 0 /\ exists t, 0 <= t /\ in_tri (P f.1.1) (P f.1.2) (P f.2) (along3 ray t).
  (** The ray reaches the plane of [f] from its outer side after [t]. *)
  Definition front (f : tri) (t : R) : Prop := dot3 (nrm f) d < 0 /\ 0 <= t /\ dot3 (nrm f) (sub3 (along3 ray t) (P f.1.1)) = 0.
  Definition bary_hit (f : tri) (uvw : R * R * R) : Prop := dot3 (nrm f) d < 0 /\ exists t, 0 <= t /\ uvw.1.1 + uvw.1.2 + uvw.2 = 1 /\
    along3 ray t = add3 (add3 (scale3 (P f.1.1) uvw.1.1) (scale3 (P f.1.2) uvw.1.2)) (scale3 (P f.2) uvw.2).
  Lemma along_plane f t : dot3 (nrm f) (sub3 (along3 ray t) (P f.1.1)) = dot3 (nrm f) (sub3 (origin ray) (P f.1.1)) + t * dot3 (nrm f) d.
  Proof. generalize (nrm f), (P f.1.1). clear. intros. unfold along3. rv0. ring. Qed.
  Lemma comb_plane f l m n : l + m + n = 1 -> dot3 (nrm f) (sub3 (add3 (add3 (scale3 (P f.1.1) l) (scale3 (P f.1.2) m)) (scale3 (P f.2) n)) (P f.1.1)) = 0.
  Proof. intros E. assert (l = 1 - m - n) as -> by lra. unfold corners, tri_normal. cbn [fst snd]. generalize (P f.1.1), (P f.1.2), (P f.2). clear. intros. rv0. ring. Qed.
  Lemma bary_hit_range f u v w : bary_hit f (u, v, w) -> (in_range u && in_range v && in_range w = true <-> hits f).
  Proof.
    intros (Hn & t & Ht & Es & Ep). cbn [fst snd] in Es, Ep. unfold in_range. cbn [nle n0 n1 Num_R]. rewrite !andb_true_iff, !Rleb_true. split.
    - intros [[[Hu _] [Hv _]] [Hw _]]. split; [done|]. exists t. split; [done|]. exists u, v, w. done.
    - intros (_ & t' & Ht' & l & m & n & Hl & Hm & Hnn & E & Ep').
      assert (t' = t) as ->.
      { pose proof (along_plane f t) as E1. pose proof (along_plane f t') as E2. rewrite Ep, comb_plane in E1 by done. rewrite Ep', comb_plane in E2 by done. nra. }
      destruct (edge_of_tri (P f.1.1) (P f.1.2) (P f.2) u v w d 0 Es) as (A1 & A2 & A3).
      destruct (edge_of_tri (P f.1.1) (P f.1.2) (P f.2) l m n d 0 E) as (B1 & B2 & B3). cbn zeta in *. rewrite <- Ep in A1, A2, A3. rewrite <- Ep' in B1, B2, B3. fold (corners vs f) in *.
      assert (n = w) by nra. assert (l = u) by nra. assert (m = v) by nra. subst. lra.
  Qed.
  Lemma ray_face_spec f hf : f ∈ fs -> face_of eps vs s f hf -> exists o, ray_face p ray hf = Ok o /\
    match o with Some uvw => bary_hit f uvw | None => forall t, ~ front f t end.
  Proof.
    intros Hf Hff. pose proof (face_points_of eps vs fs s hfs hf f Hb Hff) as (abc & Hc & Epts). pose proof (corners_posn _ _ _ Hc) as ->.
    destruct (corners_ok vs fs Hok' f Hf) as [_ Hn0].
    assert (Epl : plane_from_points eps (P f.1.1) (P f.1.2) (P f.2) = Some (hf_plane hf)).
    { destruct f as [[i j] k]. destruct Hff as (_ & _ & a & b & c & Ha & Hb' & Hc' & Epl). unfold posn. cbn [fst snd]. by rewrite Ha, Hb', Hc'. }
    unfold plane_from_points in Epl. destruct (near0_3 _ _) eqn:E0; [done|]. apply (inj Some) in Epl. fold (tri_normal (P f.1.1, P f.1.2, P f.2)) in Epl. change (P f.1.1, P f.1.2, P f.2) with (corners vs f) in *.
    set (m := nrm f) in *. assert (Epl' : hf_plane hf = mkPlane (scale3 m (1 / mag3 m)) (- dot3 (P f.1.1) (scale3 m (1 / mag3 m)))) by (rewrite <- Epl; done). clear Epl.
    pose proof (mag3_pos m Hn0) as Hm. assert (Hk : 0 < 1 / mag3 m) by (apply Rdiv_lt_0_compat; lra). set (k := 1 / mag3 m) in *.
    assert (Hs : forall x, dot3 (scale3 m k) x = k * dot3 m x /\ dot3 x (scale3 m k) = k * dot3 m x) by (generalize m; clear; intros; rv0; split; ring).
    unfold ray_face. rewrite Epl'. cbn [pl_n]. rewrite (proj1 (Hs d)). cbn [nlt n0 Num_R]. unfold Rltb at 1.
    destruct (Rlt_dec (k * dot3 m d) 0) as [Hlt|Hlt].
    - assert (Hmd : dot3 m d < 0) by nra. unfold plane_ray. set (t := plane_ray_t _ _).
      assert (Et : t = dot3 m (sub3 (P f.1.1) (origin ray)) / dot3 m d).
      { unfold t, plane_ray_t. cbn [pl_n pl_d]. rewrite (proj2 (Hs d)), (proj2 (Hs (origin ray))), (proj2 (Hs (P f.1.1))). cbn [nneg nadd ndiv Num_R].
        assert (dot3 m (sub3 (P f.1.1) (origin ray)) = dot3 m (P f.1.1) - dot3 m (origin ray)) as -> by (generalize m, (P f.1.1); clear; intros; rv0; ring).
        field. split; lra. }
      assert (Hpl : dot3 m (sub3 (along3 ray t) (P f.1.1)) = 0).
      { unfold m. rewrite along_plane. fold m. rewrite Et. assert (dot3 m (sub3 (P f.1.1) (origin ray)) = - dot3 m (sub3 (origin ray) (P f.1.1))) as -> by (generalize m, (P f.1.1); clear; intros; rv0; ring). field. lra. }
      cbn zeta. cbn [nlt n0 Num_R]. unfold Rltb. destruct (Rlt_dec t 0) as [Ht|Ht].
      + exists None. split; [done|]. intros t' (_ & Ht' & Ep). pose proof (along_plane f t') as E2.
        pose proof (along_plane f t) as E3. fold m in E2, E3, Ep. rewrite Hpl in E3. rewrite Ep in E2. nra.
      + rewrite Epts. cbn [mbind res_mbind res_bind corners]. eexists. split; [done|]. rewrite along3_add.
        pose proof (bary3_plane (along3 ray t) (P f.1.1) (P f.1.2) (P f.2)) as Hbp. cbn zeta in Hbp. specialize (Hbp Hn0 Hpl).
        destruct (bary3 _ _ _ _) as [[u v] w]. destruct Hbp as [B1 B2]. split; [done|]. exists t. split; [lra|]. done.
    - exists None. split; [done|]. intros t' [Hmd _]. fold m in Hmd. nra.
  Qed.
  Lemma bary_front f u v w : bary_hit f (u, v, w) -> exists t, front f t /\ u + v + w = 1 /\ along3 ray t = add3 (add3 (scale3 (P f.1.1) u) (scale3 (P f.1.2) v)) (scale3 (P f.2) w).
  Proof. intros (Hn & t & Ht & Es & Ep). cbn [fst snd] in *. exists t. split; [|done]. split_and!; [done..|]. by rewrite Ep, comb_plane. Qed.
  Lemma hits_front f : hits f -> exists t, front f t /\ in_tri (P f.1.1) (P f.1.2) (P f.2) (along3 ray t).
  Proof. intros (Hn & t & Ht & Hi). exists t. split; [|done]. split_and!; [done..|]. destruct Hi as (l & m & n & _ & _ & _ & E & ->). by apply comb_plane. Qed.
  Lemma face_lookup i hf : hfs !! i = Some hf -> exists f, fs !! i = Some f /\ f ∈ fs /\ face_of eps vs s f hf.
  Proof.
    intros Hi. pose proof (b_faces _ _ _ _ _ Hb) as Hf. apply Forall2_flip in Hf. destruct (Forall2_lookup_l _ _ _ _ _ Hf Hi) as (f & Hfi & Hff). exists f. split_and!; [done|by eapply elem_of_list_lookup_2|done].
  Qed.
  Lemma faces_length : length hfs = length fs.
  Proof. symmetry. apply (Forall2_length _ _ _ (b_faces _ _ _ _ _ Hb)). Qed.
  (** What an answer of the search means. *)
  Lemma find_sound fuel i checked j uvw : find_face fuel p ray i checked = Ok (Some (j, uvw)) ->
    exists f, fs !! j = Some f /\ hits f /\ bary_hit f uvw.
  Proof.
    revert i checked. induction fuel as [|fuel IH]; intros i checked; [done|]. cbn [find_face]. change (ph_faces p) with hfs.
    destruct (hfs !! i) as [hf|] eqn:Hi; [rewrite (get_Some _ _ _ Hi)|by rewrite (get_None _ _ Hi)]. cbn [mbind res_mbind res_bind].
    destruct (face_lookup i hf Hi) as (f & Hfi & Hf & Hff). destruct (ray_face_spec f hf Hf Hff) as (o & -> & Ho). cbn [mbind res_mbind res_bind].
    assert (Hgo : forall o', (next ← next_face p i o' (i :: checked); match next with None => Ok None | Some j => find_face fuel p ray j (i :: checked) end) = Ok (Some (j, uvw)) ->
      exists f, fs !! j = Some f /\ hits f /\ bary_hit f uvw).
    { intros o'. destruct (next_face p i o' (i :: checked)) as [[k|]| |]; cbn [mbind res_mbind res_bind]; try done. apply IH. }
    destruct o as [[[u v] w]|]; [|apply Hgo]. destruct (in_range u && in_range v && in_range w) eqn:Er; [|apply Hgo].
    intros [= <- <-]. exists f. split_and!; [done| |done]. by eapply bary_hit_range.
  Qed.
  (** Fewer than ten faces: all are tested in turn. *)
  Lemma find_small : (length fs < 10)%nat -> forall m i checked fuel, (i + m = length fs)%nat -> (0 < m)%nat -> (m <= fuel)%nat ->
    exists o, find_face fuel p ray i checked = Ok o /\ match o with None => forall j f, (i <= j)%nat -> fs !! j = Some f -> ~ hits f | Some _ => True end.
  Proof.
    intros Hlen. induction m as [|m IH]; intros i checked fuel Him Hm Hfu; [lia|]. destruct fuel as [|fuel]; [lia|]. cbn [find_face]. change (ph_faces p) with hfs.
    destruct (lookup_lt_is_Some_2 hfs i) as [hf Hi]; [rewrite faces_length; lia|]. rewrite (get_Some _ _ _ Hi). cbn [mbind res_mbind res_bind].
    destruct (face_lookup i hf Hi) as (f & Hfi & Hf & Hff). destruct (ray_face_spec f hf Hf Hff) as (o & -> & Ho). cbn [mbind res_mbind res_bind].
    assert (Hgo : forall o', ~ hits f -> exists r, (next ← next_face p i o' (i :: checked); match next with None => Ok None | Some j => find_face fuel p ray j (i :: checked) end) = Ok r /\
      match r with None => forall j f, (i <= j)%nat -> fs !! j = Some f -> ~ hits f | Some _ => True end).
    { intros o' Hno. unfold next_face. change (ph_faces p) with hfs. rewrite faces_length. rewrite (proj2 (Nat.ltb_lt _ _) Hlen). case_decide as Hlast; cbn [mbind res_mbind res_bind].
      - exists None. split; [done|]. intros j f' Hj Hf'. assert (j = i) as -> by (apply lookup_lt_Some in Hf'; lia). by simplify_eq.
      - destruct (IH (i + 1)%nat (i :: checked) fuel) as (r & -> & Hr); [lia..|]. exists r. split; [done|]. destruct r; [done|]. intros j f' Hj Hf'.
        destruct (decide (j = i)) as [->|]; [by simplify_eq|]. apply (Hr j); [lia|done]. }
    destruct o as [[[u v] w]|]; [|apply Hgo; intros (t & Ht & _)%hits_front; by apply (Ho t)]. destruct (in_range u && in_range v && in_range w) eqn:Er; [eexists; done|].
    apply Hgo. intros Hh. apply (bary_hit_range f u v w Ho) in Hh. by rewrite Hh in Er.
  Qed.
  (** Ten faces or more: the search ends because no face is tested twice. *)
  Lemma next_unchecked_spec n checked fuel i : (n <= i + fuel)%nat -> (i <= n)%nat -> let j := next_unchecked fuel checked n i in (j = n \/ (j < n)%nat /\ j ∉ checked).
  Proof.
    revert i. induction fuel as [|fuel IH]; intros i Hf Hi; cbn [next_unchecked]; [left; lia|].
    destruct (bool_decide (i < n)%nat) eqn:E1; cbn [andb].
    - apply bool_decide_eq_true in E1. destruct (bool_decide (i ∈ checked)) eqn:E2; [apply IH; lia|]. apply bool_decide_eq_false in E2. by right.
    - apply bool_decide_eq_false in E1. left. lia.
  Qed.
  Lemma first_unchecked_spec l checked j : first_unchecked l checked = Some j -> j ∈ l /\ j ∉ checked.
  Proof.
    induction l as [|x l IH]; [done|]. cbn. case_bool_decide; [intros [? ?]%IH; split; [by right|done]|]. intros [= <-]. split; [by left|done].
  Qed.
  Lemma twins_ok es : Forall (fun e => (e < length (h_edges s))%nat) es -> exists ls, twin_faces p es = Ok ls /\ Forall (fun i => (i < length fs)%nat) ls.
  Proof.
    pose proof (hi_rng _ _ _ _ (b_inv _ _ _ _ _ Hb)) as Hr. induction 1 as [|e es He Hes (ls & El & Hls)]; [by exists []|]. cbn [twin_faces]. change (ph_edges p) with (h_edges s).
    destruct (lookup_lt_is_Some_2 _ _ He) as [x Hx]. rewrite (get_Some _ _ _ Hx). cbn [mbind res_mbind res_bind]. destruct (Hr _ _ Hx) as (_ & _ & Ht & _).
    destruct (lookup_lt_is_Some_2 _ _ Ht) as [y Hy]. rewrite (get_Some _ _ _ Hy). cbn [mbind res_mbind res_bind]. rewrite El. cbn [mbind res_mbind res_bind]. eexists. split; [done|].
    constructor; [|done]. by destruct (Hr _ _ Hy) as (_ & _ & _ & ?).
  Qed.
  Lemma next_face_big i o checked : (10 <= length fs)%nat -> (i < length fs)%nat -> exists r, next_face p i o checked = Ok r /\
    match r with None => True | Some j => (j < length fs)%nat /\ j ∉ checked end.
  Proof.
    intros Hlen Hi. unfold next_face. change (ph_faces p) with hfs. rewrite faces_length. assert ((length fs <? 10)%nat = false) as -> by (apply Nat.ltb_ge; lia).
    destruct o as [[[u v] w]|].
    - destruct (lookup_lt_is_Some_2 hfs i) as [hf Hif]; [rewrite faces_length; lia|]. rewrite (get_Some _ _ _ Hif). cbn [mbind res_mbind res_bind].
      destruct (face_lookup i hf Hif) as ([[a b] c] & Hfi & Hf & Ev & Hmap & _). rewrite Ev. pose proof (b_inv _ _ _ _ _ Hb) as Hinv. destruct (hi_map _ _ _ _ Hinv _ _ _ Hmap) as (_ & fe & Hfe & _).
      change (ph_edges p) with (h_edges s). rewrite (get_Some _ _ _ Hfe). cbn [mbind res_mbind res_bind]. destruct (hi_rng _ _ _ _ Hinv _ _ Hfe) as (R1 & R2 & _).
      destruct (lookup_lt_is_Some_2 _ _ R2) as [pe Hpe]. rewrite (get_Some _ _ _ Hpe). cbn [mbind res_mbind res_bind]. apply lookup_lt_Some in Hfe.
      match goal with |- exists r, (ls ← twin_faces p ?es; _) = _ /\ _ => destruct (twins_ok es) as (ls & -> & Hls) end.
      { destruct (decide _); [|destruct (decide _)]; repeat constructor; done. }
      cbn [mbind res_mbind res_bind]. eexists. split; [done|]. destruct (first_unchecked _ _) as [j|] eqn:Ej; [|done]. apply first_unchecked_spec in Ej as [[Hj|Hj]%elem_of_app Hn].
      + rewrite Forall_forall in Hls. split; [by apply Hls|done].
      + apply elem_of_seq in Hj. split; [lia|done].
    - pose proof (next_unchecked_spec (length fs) checked (length fs) (i + 1) ltac:(lia) ltac:(lia)) as Hu. cbn zeta in Hu. case_decide as Hd; eexists; (split; [done|]); [done|]. cbn. lia || (destruct Hu; [done|tauto]).
  Qed.
  Definition unchecked (checked : list nat) : nat := length (filter (fun i => i ∉ checked) (seq 0 (length fs))).
  Lemma unchecked_step i checked : (i < length fs)%nat -> i ∉ checked -> (unchecked (i :: checked) < unchecked checked)%nat.
  Proof.
    intros Hi Hn. unfold unchecked. assert (Hin : i ∈ seq 0 (length fs)) by (apply elem_of_seq; lia). revert Hin. generalize (seq 0 (length fs)) as l.
    assert (Hle : forall l, (length (filter (fun j => j ∉ i :: checked) l) <= length (filter (fun j => j ∉ checked) l))%nat).
    { induction l as [|x l IH]; [done|]. rewrite !filter_cons. repeat case_decide; cbn [length]; try lia. set_solver. }
    induction l as [|x l IH]; intros Hin; [by apply elem_of_nil in Hin|]. rewrite !filter_cons. apply elem_of_cons in Hin as [<- | Hin].
    - rewrite decide_False by set_solver. rewrite decide_True by done. cbn [length]. specialize (Hle l). lia.
    - specialize (IH Hin). repeat case_decide; cbn [length]; try lia. set_solver.
  Qed.
  Lemma find_big : (10 <= length fs)%nat -> forall fuel i checked, (i < length fs)%nat -> i ∉ checked -> (unchecked checked < fuel)%nat ->
    exists o, find_face fuel p ray i checked = Ok o.
  Proof.
    intros Hlen. induction fuel as [|fuel IH]; intros i checked Hi Hn Hfu; [lia|]. cbn [find_face]. change (ph_faces p) with hfs.
    destruct (lookup_lt_is_Some_2 hfs i) as [hf Hif]; [rewrite faces_length; lia|]. rewrite (get_Some _ _ _ Hif). cbn [mbind res_mbind res_bind].
    destruct (face_lookup i hf Hif) as (f & Hfi & Hf & Hff). destruct (ray_face_spec f hf Hf Hff) as (o & -> & Ho). cbn [mbind res_mbind res_bind].
    pose proof (unchecked_step i checked Hi Hn) as Hst.
    assert (Hgo : exists r, (next ← next_face p i o (i :: checked); match next with None => Ok None | Some j => find_face fuel p ray j (i :: checked) end) = Ok r).
    { destruct (next_face_big i o (i :: checked) Hlen Hi) as (r & -> & Hr). cbn [mbind res_mbind res_bind]. destruct r as [j|]; [|by eexists]. apply IH; [apply Hr..|lia]. }
    destruct o as [[[u v] w]|]; [|done]. destruct (_ && _ && _); [by eexists|done].
  Qed.
  Lemma find_ends fuel : fs <> [] -> (length fs < fuel)%nat -> exists o, find_face fuel p ray 0 [] = Ok o.
  Proof.
    intros Hne Hfu. assert (0 < length fs)%nat by (destruct fs; cbn; [done|lia]). destruct (decide (length fs < 10)%nat) as [Hs|Hs].
    - destruct (find_small Hs (length fs) 0 [] fuel) as (o & E & _); [lia..|]. eauto.
    - apply find_big; [lia|lia|set_solver|]. unfold unchecked. pose proof (filter_length (fun i => i ∉ []) (seq 0 (length fs))). rewrite seq_length in H0. lia.
  Qed.
  (** The reported point. *)
  Lemma report fuel : match find_face fuel p ray 0 [] with
    | Ok None => polyhedron_ray fuel p ray = Ok None /\ polyhedron_ray_test fuel p ray = Ok false
    | Ok (Some _) => exists f t, f ∈ fs /\ 0 <= t /\ dot3 (nrm f) d < 0 /\ in_tri (P f.1.1) (P f.1.2) (P f.2) (along3 ray t) /\
        polyhedron_ray fuel p ray = Ok (Some (along3 ray t)) /\ polyhedron_ray_test fuel p ray = Ok true
    | Panic => polyhedron_ray fuel p ray = Panic /\ polyhedron_ray_test fuel p ray = Panic
    | OutOfFuel => polyhedron_ray fuel p ray = OutOfFuel /\ polyhedron_ray_test fuel p ray = OutOfFuel
    end.
  Proof.
    unfold polyhedron_ray, polyhedron_ray_test. destruct (find_face fuel p ray 0 []) as [[[j [[u v] w]]|]| |] eqn:E; [|done..].
    destruct (find_sound _ _ _ _ _ E) as (f & Hj & Hh & Hbh). pose proof Hh as (Hn & _). pose proof (bary_hit_range f u v w Hbh) as Hr. apply Hr in Hh as Hrange. clear Hr.
    destruct Hbh as (_ & t & Ht & Es & Ep). cbn [fst snd] in *. exists f, t. assert (Hf : f ∈ fs) by (by eapply elem_of_list_lookup_2). split_and!; [done..| | |].
    - unfold in_range in Hrange. cbn [nle n0 n1 Num_R] in Hrange. rewrite !andb_true_iff, !Rleb_true in Hrange. exists u, v, w. tauto.
    - cbn [mbind res_mbind res_bind]. change (ph_faces p) with hfs. destruct (lookup_lt_is_Some_2 hfs j) as [hf Hjf]; [rewrite faces_length; by eapply lookup_lt_Some|].
      rewrite (get_Some _ _ _ Hjf). cbn [mbind res_mbind res_bind]. destruct (face_lookup j hf Hjf) as (f' & Hf' & _ & Hff). simplify_eq.
      destruct (face_points_of eps vs fs s hfs hf f Hb Hff) as (abc & Hc & ->). pose proof (corners_posn _ _ _ Hc) as ->. cbn [mbind res_mbind res_bind]. by rewrite Ep.
    - done.
  Qed.
  (** A triangle that faces the ray shields all of the solid. *)
  Lemma shield f t x : solid_mesh vs fs -> f ∈ fs -> dot3 (nrm f) d < 0 -> in_tri (P f.1.1) (P f.1.2) (P f.2) (along3 ray t) -> hull3 vs (along3 ray x) -> t <= x.
  Proof.
    intros Hsm Hf Hn (l & m & n & _ & _ & _ & E & Ep) Hx. pose proof (hull_inside vs fs Hok' Hsm f _ Hf Hx) as Hle. rewrite along_plane in Hle.
    pose proof (along_plane f t) as Et. rewrite Ep, comb_plane in Et by done. nra.
  Qed.
  (** *** Strictly convex polyhedra *)
  Hypothesis Hsm : solid_mesh vs fs.
  Hypothesis Hstrict : forall f g u v x, f ∈ fs -> g ∈ fs -> (u, v) ∈ tri_sides g -> (v, u, x) ∈ tri_corners f -> dot3 (nrm g) (sub3 (P x) (P g.1.1)) < 0.
  Lemma front_unique f t t' : front f t -> front f t' -> t = t'.
  Proof. intros (Hn & _ & E) (_ & _ & E'). rewrite along_plane in E, E'. nra. Qed.
  Lemma on_side (g : tri) u v : (u, v) ∈ tri_sides g -> dot3 (nrm g) (sub3 (P u) (P g.1.1)) = 0 /\ dot3 (nrm g) (sub3 (P v) (P g.1.1)) = 0.
  Proof.
    destruct g as [[a b] c]. cbn [tri_sides]. unfold corners, tri_normal. cbn [fst snd]. rewrite !elem_of_cons.
    intros [[= -> ->] | [[= -> ->] | [[= -> ->] | []%elem_of_nil]]]; generalize (P a), (P b), (P c); clear; intros; rv0; split; ring.
  Qed.
  (** The neighbour across the side that the point in the plane of [f] is beyond. *)
  Lemma beyond f g t u v x l m n y : f ∈ fs -> g ∈ fs -> front f t -> (u, v) ∈ tri_sides g -> (v, u, x) ∈ tri_corners f -> hull3 vs (along3 ray y) ->
    l + m + n = 1 -> n < 0 -> along3 ray t = add3 (add3 (scale3 (P v) l) (scale3 (P u) m)) (scale3 (P x) n) -> exists t', t < t' /\ front g t'.
  Proof.
    intros Hf Hg Hfr Hs Hc Hy Es Hn Ep. pose proof (Hstrict f g u v x Hf Hg Hs Hc) as Hlt. destruct (on_side g u v Hs) as [Ou Ov].
    assert (Hpos : 0 < dot3 (nrm g) (sub3 (along3 ray t) (P g.1.1))).
    { rewrite Ep. assert (E : dot3 (nrm g) (sub3 (add3 (add3 (scale3 (P v) l) (scale3 (P u) m)) (scale3 (P x) n)) (P g.1.1)) =
        l * dot3 (nrm g) (sub3 (P v) (P g.1.1)) + m * dot3 (nrm g) (sub3 (P u) (P g.1.1)) + n * dot3 (nrm g) (sub3 (P x) (P g.1.1))).
      { assert (l = 1 - m - n) as -> by lra. generalize (nrm g), (P g.1.1), (P v), (P u), (P x). clear. intros. rv0. ring. }
      rewrite E, Ou, Ov. nra. }
    pose proof (hull_inside vs fs Hok' Hsm g _ Hg Hy) as Hle. pose proof (hull_inside vs fs Hok' Hsm f _ Hf Hy) as Hle'.
    destruct Hfr as (Hnf & Ht & Ef). rewrite along_plane in Hpos, Hle, Hle', Ef.
    assert (Hty : t <= y) by nra. assert (Hng : dot3 (nrm g) d < 0) by nra.
    set (A := dot3 (nrm g) (sub3 (origin ray) (P g.1.1))) in *. set (N := dot3 (nrm g) d) in *.
    assert (Ht' : t < - A / N). { assert (E : t = t * N / N) by (field; lra). rewrite E. unfold Rdiv. assert (Hi : / N < 0) by (by apply Rinv_lt_0_compat). nra. }
    exists (- A / N). split; [done|]. split_and!; [done|lra|]. rewrite along_plane. fold A N. field. lra.
  Qed.
  (** The half edges of a face and the faces behind them. *)
  Lemma behind u v e : (u, v) ∈ mesh_sides fs -> h_map s !! (u, v) = Some e -> exists x y g, h_edges s !! e = Some x /\ h_edges s !! he_twin x = Some y /\
    fs !! he_left y = Some g /\ (v, u) ∈ tri_sides g.
  Proof.
    intros Hs He. pose proof (b_inv _ _ _ _ _ Hb) as Hinv. destruct (hi_map _ _ _ _ Hinv _ _ _ He) as (_ & x & Hx & _ & Htw).
    pose proof (sm_closed _ _ Hsm _ _ Hs) as Hs'. apply tagged_side in Hs' as (i & Hi). destruct (hi_side _ _ _ _ Hinv _ _ _ Hi) as (e' & y & i' & He' & Hy & El & Hi').
    rewrite Htw in He'. injection He' as <-. apply elem_of_tagged in Hi' as (g & Hg & Hgs). exists x, y, g. rewrite El. done.
  Qed.
  Lemma next_strict i f hf u v w t y checked : (10 <= length fs)%nat -> fs !! i = Some f -> hfs !! i = Some hf -> face_of eps vs s f hf ->
    front f t -> u + v + w = 1 -> along3 ray t = add3 (add3 (scale3 (P f.1.1) u) (scale3 (P f.1.2) v)) (scale3 (P f.2) w) ->
    in_range u && in_range v && in_range w = false -> hull3 vs (along3 ray y) -> 
    (forall j g t', j ∈ checked -> fs !! j = Some g -> front g t' -> t' <= t) ->
    exists j g t', next_face p i (Some (u, v, w)) checked = Ok (Some j) /\ fs !! j = Some g /\ front g t' /\ t < t' /\ j ∉ checked.
  Proof.
    intros Hlen Hfi Hif Hff Hfr Es Ep Hr Hy Hch. assert (Hf : f ∈ fs) by (by eapply elem_of_list_lookup_2).
    assert (Hneg : u < 0 \/ v < 0 \/ w < 0).
    { destruct (Rlt_dec u 0) as [?|Hu]; [by left|]. destruct (Rlt_dec v 0) as [?|Hv]; [by right; left|]. destruct (Rlt_dec w 0) as [?|Hw]; [by right; right|].
      exfalso. revert Hr. unfold in_range. cbn [nle n0 n1 Num_R]. apply not_false_iff_true. rewrite !andb_true_iff, !Rleb_true. lra. }
    unfold next_face. change (ph_faces p) with hfs. rewrite faces_length. assert ((length fs <? 10)%nat = false) as -> by (apply Nat.ltb_ge; lia).
    rewrite (get_Some _ _ _ Hif). cbn [mbind res_mbind res_bind]. destruct f as [[a b] c]. destruct Hff as (Ev & Hmap & _). rewrite Ev.
    pose proof (b_inv _ _ _ _ _ Hb) as Hinv. change (ph_edges p) with (h_edges s).
    assert (Hca : (c, a, b) ∈ mesh_corners fs) by (apply corner_face; eexists; split; [exact Hf|cbn; set_solver]).
    assert (Hbc : (b, c, a) ∈ mesh_corners fs) by (apply corner_face; eexists; split; [exact Hf|cbn; set_solver]).
    destruct (b_linked _ _ _ _ _ Hb (sm_oriented _ _ Hsm) _ _ _ Hca) as (e1 & fe & He1 & Hfe & Hne). rewrite Hmap in He1. injection He1 as <-.
    destruct (b_plinked _ _ _ _ _ Hb (sm_oriented _ _ Hsm) _ _ _ Hbc) as (e2 & fe' & He2 & Hfe' & Hpr). rewrite Hmap in He2. injection He2 as <-. rewrite Hfe in Hfe'. injection Hfe' as <-.
    rewrite (get_Some _ _ _ Hfe). cbn [mbind res_mbind res_bind].
    destruct (hi_map _ _ _ _ Hinv _ _ _ Hmap) as (Nca & x1 & Hx1 & T1 & _). rewrite Hfe in Hx1. injection Hx1 as <-.
    destruct (hi_map _ _ _ _ Hinv _ _ _ Hpr) as (Nbc & pe & Hpe & T2 & _). rewrite (get_Some _ _ _ Hpe). cbn [mbind res_mbind res_bind]. rewrite T1, T2.
    destruct (hi_map _ _ _ _ Hinv _ _ _ Hne) as (Nab & ne & Hnee & T3 & _).
    assert (Hsd : forall q r, (q, r) ∈ tri_sides (a, b, c) -> (q, r) ∈ mesh_sides fs) by (intros q r Hq; apply side_face; eauto).
    (* the face reached through the half edge [e] from [q] to [r] *)
    assert (Hgo : forall e q r x l m n es, (q, r) ∈ tri_sides (a, b, c) -> (q, r, x) ∈ tri_corners (a, b, c) -> h_map s !! (q, r) = Some e ->
      Forall (fun e => (e < length (h_edges s))%nat) es -> l + m + n = 1 -> n < 0 -> along3 ray t = add3 (add3 (scale3 (P q) l) (scale3 (P r) m)) (scale3 (P x) n) ->
      exists j g t', (ls ← twin_faces p (e :: es); Ok (first_unchecked (ls ++ seq 0 (length fs)) checked)) = Ok (Some j) /\ fs !! j = Some g /\ front g t' /\ t < t' /\ j ∉ checked).
    { intros e q r x l m n es Hqr Hc He Hes Es' Hn Ep'. destruct (behind q r e (Hsd _ _ Hqr) He) as (xe & ye & g & Hxe & Hye & Hg & Hgs).
      assert (Hgf : g ∈ fs) by (by eapply elem_of_list_lookup_2). destruct (beyond _ g t r q x l m n y Hf Hgf Hfr Hgs Hc Hy Es' Hn Ep') as (t' & Ht' & Hfr').
      assert (Hnc : he_left ye ∉ checked). { intros Hin. specialize (Hch _ _ _ Hin Hg Hfr'). lra. }
      destruct (twins_ok es Hes) as (ls & El & _). exists (he_left ye), g, t'. split_and!; [|done..].
      cbn [twin_faces]. change (ph_edges p) with (h_edges s). rewrite (get_Some _ _ _ Hxe). cbn [mbind res_mbind res_bind]. rewrite (get_Some _ _ _ Hye). cbn [mbind res_mbind res_bind]. rewrite El.
      cbn [mbind res_mbind res_bind app first_unchecked]. by rewrite bool_decide_eq_false_2. }
    assert (R1 := lookup_lt_Some _ _ _ Hfe). assert (R2 := lookup_lt_Some _ _ _ Hpe). assert (R3 := lookup_lt_Some _ _ _ Hnee).
    cbn [fst snd] in Ep. cbn [nlt n0 Num_R]. unfold Rltb.
    assert (Hrot : forall A B C : P3, add3 (add3 (scale3 A u) (scale3 B v)) (scale3 C w) = add3 (add3 (scale3 B v) (scale3 C w)) (scale3 A u) /\
      add3 (add3 (scale3 A u) (scale3 B v)) (scale3 C w) = add3 (add3 (scale3 C w) (scale3 A u)) (scale3 B v)) by (clear; intros; split; apply V3_eq; rv0; ring).
    destruct (Rlt_dec u 0) as [Hu|Hu]; [|destruct (Rlt_dec v 0) as [Hv|Hv]].
    - rewrite decide_False by done. rewrite decide_True by done. apply (Hgo (he_prev fe) b c a v w u); [cbn; set_solver|cbn; set_solver|done|repeat constructor; done|lra|done|].
      rewrite Ep. apply Hrot.
    - rewrite decide_True by done. apply (Hgo (hf_edge hf) c a b w u v); [cbn; set_solver|cbn; set_solver|done|repeat constructor; done|lra|done|].
      rewrite Ep. apply Hrot.
    - rewrite decide_False by done. rewrite decide_False by done. apply (Hgo (he_next fe) a b c u v w); [cbn; set_solver|cbn; set_solver|done|repeat constructor; done|lra|lra|done].
  Qed.
  Lemma walk_strict : (10 <= length fs)%nat -> forall y, hull3 vs (along3 ray y) -> forall fuel i f t checked, fs !! i = Some f -> front f t -> i ∉ checked ->
    (forall j g t', j ∈ checked -> fs !! j = Some g -> front g t' -> t' <= t) -> (unchecked checked < fuel)%nat ->
    exists o, find_face fuel p ray i checked = Ok (Some o).
  Proof.
    intros Hlen y Hy. induction fuel as [|fuel IH]; intros i f t checked Hfi Hfr Hn Hch Hfu; [lia|]. cbn [find_face]. change (ph_faces p) with hfs.
    destruct (lookup_lt_is_Some_2 hfs i) as [hf Hi]; [rewrite faces_length; by eapply lookup_lt_Some|]. rewrite (get_Some _ _ _ Hi). cbn [mbind res_mbind res_bind].
    destruct (face_lookup i hf Hi) as (f' & Hfi' & Hf & Hff). simplify_eq. destruct (ray_face_spec f hf Hf Hff) as (o & -> & Ho). cbn [mbind res_mbind res_bind].
    destruct o as [[[u v] w]|]; [|by destruct (Ho t)]. destruct (in_range u && in_range v && in_range w) eqn:Er; [by eexists|].
    destruct (bary_front f u v w Ho) as (t0 & Hfr0 & Es & Ep). assert (t0 = t) as -> by (by eapply front_unique).
    destruct (next_strict i f hf u v w t y (i :: checked) Hlen Hfi Hi Hff Hfr Es Ep Er Hy) as (j & g & t' & -> & Hg & Hfg & Hlt & Hnj).
    { intros j g t' [-> | Hj]%elem_of_cons Hg Hfg; [|by eapply Hch]. rewrite Hfi in Hg. injection Hg as <-. right. by eapply front_unique. }
    cbn [mbind res_mbind res_bind]. apply (IH j g t' (i :: checked)); [done..| |].
    - intros k g' t'' [-> | Hk]%elem_of_cons Hg' Hfg'; [rewrite Hfi in Hg'; injection Hg' as <-; rewrite (front_unique f t'' t Hfg' Hfr); lra|].
      specialize (Hch _ _ _ Hk Hg' Hfg'). lra.
    - pose proof (unchecked_step i checked (lookup_lt_Some _ _ _ Hfi) Hn). lia.
  Qed.
  (** The faces before the first one whose plane the ray reaches. *)
  Lemma scan_strict : (10 <= length fs)%nat -> forall k h t, fs !! k = Some h -> front h t -> in_tri (P h.1.1) (P h.1.2) (P h.2) (along3 ray t) ->
    forall n i checked fuel, (i + n = k)%nat -> (forall j, j ∈ checked <-> (j < i)%nat) -> (unchecked checked < fuel)%nat ->
    (forall j g t', (j < i)%nat -> fs !! j = Some g -> ~ front g t') -> exists o, find_face fuel p ray i checked = Ok (Some o).
  Proof.
    intros Hlen k h t Hk Hfr Hin. assert (Hkf : h ∈ fs) by (by eapply elem_of_list_lookup_2). assert (Hy : hull3 vs (along3 ray t)) by (by eapply (tri_hull vs fs Hok' h)).
    pose proof (lookup_lt_Some _ _ _ Hk) as Hkl.
    induction n as [|n IH]; intros i checked fuel Hik Hck Hfu Hno.
    - assert (i = k) as -> by lia. apply (walk_strict Hlen t Hy fuel k h t checked); [done|done|rewrite Hck; lia| |done]. intros j g t' Hj%Hck Hg Hfg. by destruct (Hno j g t').
    - destruct (lookup_lt_is_Some_2 fs i) as [f Hfi]; [lia|].
      destruct (lookup_lt_is_Some_2 hfs i) as [hf Hi]; [rewrite faces_length; lia|]. destruct (face_lookup i hf Hi) as (f' & Hfi' & Hf & Hff). rewrite Hfi in Hfi'. injection Hfi' as <-.
      destruct (ray_face_spec f hf Hf Hff) as (o & Eo & Ho). destruct o as [[[u v] w]|].
      + destruct (bary_front f u v w Ho) as (t0 & Hfr0 & _). apply (walk_strict Hlen t Hy fuel i f t0 checked); [done|done|rewrite Hck; lia| |done]. intros j g t' Hj%Hck Hg Hfg. by destruct (Hno j g t').
      + destruct fuel as [|fuel]; [lia|]. cbn [find_face]. change (ph_faces p) with hfs. rewrite (get_Some _ _ _ Hi). cbn [mbind res_mbind res_bind]. rewrite Eo. cbn [mbind res_mbind res_bind].
        unfold next_face. change (ph_faces p) with hfs. rewrite faces_length. assert ((length fs <? 10)%nat = false) as -> by (apply Nat.ltb_ge; lia).
        assert (Hnx : next_unchecked (length fs) (i :: checked) (length fs) (i + 1) = (i + 1)%nat).
        { destruct (length fs) as [|m]; [lia|]. cbn [next_unchecked]. rewrite (bool_decide_eq_false_2 (_ ∈ _)); [by rewrite andb_false_r|]. rewrite elem_of_cons, Hck. lia. }
        rewrite Hnx. rewrite decide_False by lia. cbn [mbind res_mbind res_bind]. apply IH; [lia| | |].
        * intros j. rewrite elem_of_cons, Hck. lia.
        * assert (Hni : i ∉ checked) by (rewrite Hck; lia). pose proof (unchecked_step i checked (lookup_lt_Some _ _ _ Hfi) Hni). lia.
        * intros j g t' Hj Hg. destruct (decide (j = i)) as [->|]; [|apply (Hno j g t'); [lia|done]]. rewrite Hfi in Hg. injection Hg as <-. apply Ho.
  Qed.
End rays.
