(** EPA in the plane: invariants of the expanding polygon. *)
From Coq Require Import Psatz.
From stdpp Require Import prelude.
From Coq Require Import Reals Lra.
From Verif Require Import Res Num Vec AabbModel GeoModel RealGeo PrimModel ShapeSpec MinkModel MinkSpec Gjk2.
Local Open Scope R_scope.

(** ** Cyclic lists *)
Definition nxt {X} (l : list X) (i : nat) : nat := if decide (i + 1 = length l)%nat then 0%nat else (i + 1)%nat.
(** The [k]-th edge. *)
Definition Ed {X} (l : list X) (k : nat) (x y : X) : Prop := l !! k = Some x /\ l !! nxt l k = Some y.
Lemma nxt_lt {X} (l : list X) i : (i < length l)%nat -> (nxt l i < length l)%nat.
Proof. intros Hi. unfold nxt. case_decide; lia. Qed.
Lemma Ed_lt {X} (l : list X) k x y : Ed l k x y -> (k < length l)%nat.
Proof. intros [E _]. by eapply lookup_lt_Some. Qed.
Lemma Ed_exists {X} (l : list X) k : (k < length l)%nat -> exists x y, Ed l k x y.
Proof.
  intros Hk. destruct (lookup_lt_is_Some_2 l k Hk) as [x Ex].
  destruct (lookup_lt_is_Some_2 l (nxt l k) (nxt_lt _ _ Hk)) as [y Ey]. by exists x, y.
Qed.
Lemma vec_insert_length {X} j (p : X) l : length (vec_insert j p l) = Datatypes.S (length l).
Proof. unfold vec_insert. rewrite app_length. cbn. rewrite take_length, drop_length. lia. Qed.
Lemma vec_insert_lookup {X} j (p : X) l m : (j <= length l)%nat ->
  vec_insert j p l !! m = if decide (m < j)%nat then l !! m else if decide (m = j) then Some p else l !! (m - 1)%nat.
Proof.
  intros Hj. unfold vec_insert. destruct (decide (m < j)%nat) as [Hm|Hm].
  - rewrite lookup_app_l by (rewrite take_length; lia). by rewrite lookup_take.
  - rewrite lookup_app_r by (rewrite take_length; lia). rewrite take_length, Nat.min_l by lia.
    case_decide as Hm2.
    + subst. by rewrite Nat.sub_diag.
    + destruct (m - j)%nat as [|q] eqn:E; [lia|]. change ((p :: drop j l) !! Datatypes.S q) with (drop j l !! q). rewrite lookup_drop. f_equal. lia.
Qed.
Definition sh (j k : nat) : nat := if decide (k < j)%nat then k else (k + 1)%nat.
(** Inserting [p] into the edge [i] (before its end point [j]). *)
Lemma Ed_insert {X} (l : list X) i a b p :
  Ed l i a b -> let j := nxt l i in
  Ed (vec_insert j p l) (sh j i) a p /\ Ed (vec_insert j p l) j p b /\
  forall k x y, k <> i -> Ed l k x y -> Ed (vec_insert j p l) (sh j k) x y.
Proof.
  intros [Ea Eb] j. assert (Hi := lookup_lt_Some _ _ _ Ea). assert (Hj : (j < length l)%nat) by by apply nxt_lt.
  unfold Ed, sh. rewrite !vec_insert_lookup by lia.
  assert (En : forall k, nxt (vec_insert j p l) k = if decide (k = length l) then 0%nat else (k + 1)%nat).
  { intros k. unfold nxt. rewrite vec_insert_length. repeat case_decide; lia. }
  rewrite !En. assert (Hji : (j = i + 1 /\ i + 1 <> length l \/ j = 0 /\ i + 1 = length l)%nat).
  { unfold j, nxt. case_decide; lia. }
  fold j in Eb. clearbody j.
  split; [|split].
  - destruct Hji as [[-> Hl]|[-> Hl]]; split; repeat (case_decide; try lia); try done.
    rewrite <- Ea. f_equal. lia.
  - destruct Hji as [[-> Hl]|[-> Hl]]; split; repeat (case_decide; try lia); try done;
    (rewrite <- Eb; f_equal; lia).
  - intros k x y Hk [Ex Ey]. assert (Hkl := lookup_lt_Some _ _ _ Ex). rewrite En, !vec_insert_lookup by lia.
    unfold nxt in Ey.
    destruct (decide (k < j)%nat).
    + split; [repeat (case_decide; try lia); done|].
      destruct (decide (k = length l)); [lia|]. destruct (decide (k + 1 = length l)%nat); [lia|].
      repeat (case_decide; try lia). done.
    + split; [repeat (case_decide; try lia); rewrite <- Ex; f_equal; lia|].
      destruct (decide (k + 1 = length l)%nat).
      * repeat (case_decide; try lia). done.
      * repeat (case_decide; try lia). rewrite <- Ey. f_equal. lia.
Qed.
Lemma Ed_fun {X} (l : list X) k x y x' y' : Ed l k x y -> Ed l k x' y' -> x = x' /\ y = y'.
Proof. intros [E1 E2] [E3 E4]. split; congruence. Qed.
Lemma sh_inj j k k' : sh j k = sh j k' -> k = k'.
Proof. unfold sh. repeat case_decide; lia. Qed.
Lemma sh_ne j k : sh j k <> j.
Proof. unfold sh. case_decide; lia. Qed.
Lemma Ed_insert_inv {X} (l : list X) i a b p k' x y :
  Ed l i a b -> let j := nxt l i in Ed (vec_insert j p l) k' x y ->
  (k' = j /\ x = p /\ y = b) \/ (k' = sh j i /\ x = a /\ y = p) \/ (exists k, k <> i /\ k' = sh j k /\ Ed l k x y).
Proof.
  intros He j He'. destruct (Ed_insert l i a b p He) as (F1 & F2 & F3). fold j in F1, F2, F3.
  pose proof (Ed_lt _ _ _ _ He') as Hk'. rewrite vec_insert_length in Hk'.
  assert (Hj : (j < length l)%nat) by (apply nxt_lt; by eapply Ed_lt).
  destruct (decide (k' = j)) as [-> |Hne]; [left; destruct (Ed_fun _ _ _ _ _ _ He' F2); done|right].
  assert (Hk : exists k, k' = sh j k /\ (k < length l)%nat).
  { destruct (decide (k' < j)%nat); [exists k'|exists (k' - 1)%nat]; unfold sh; case_decide; lia. }
  destruct Hk as (k & -> & Hk). destruct (decide (k = i)) as [-> |Hki].
  - left. destruct (Ed_fun _ _ _ _ _ _ He' F1). done.
  - right. exists k. split; [done|]. split; [done|]. destruct (Ed_exists l k Hk) as (x0 & y0 & E0).
    destruct (Ed_fun _ _ _ _ _ _ He' (F3 k x0 y0 Hki E0)) as [-> ->]. done.
Qed.

(** ** Edges and cones *)
Definition nrm (a b : P2) : P2 := normalize2 (triple (sub2 b a) a (sub2 b a)).
Lemma triple_mag (a b : P2) : dot2 (triple (sub2 b a) a (sub2 b a)) (triple (sub2 b a) a (sub2 b a)) =
  perp_dot a b * perp_dot a b * dot2 (sub2 b a) (sub2 b a).
Proof. unfold triple. rv0. ring. Qed.
Lemma triple_edge (a b : P2) : dot2 (triple (sub2 b a) a (sub2 b a)) b = dot2 (triple (sub2 b a) a (sub2 b a)) a.
Proof. unfold triple. rv0. ring. Qed.
Lemma triple_dist (a b : P2) : dot2 (triple (sub2 b a) a (sub2 b a)) a = perp_dot a b * perp_dot a b.
Proof. unfold triple. rv0. ring. Qed.
Lemma normalize2_eq (v : P2) : normalize2 v = scale2 v (1 / mag2 v).
Proof. done. Qed.
Lemma dot2_scale_l (v x : P2) k : dot2 (scale2 v k) x = k * dot2 v x.
Proof. rv0. ring. Qed.
Lemma nrm_deg (a b : P2) : perp_dot a b = 0 -> nrm a b = zero2.
Proof.
  intros E. unfold nrm. assert (Ez : triple (sub2 b a) a (sub2 b a) = zero2).
  { pose proof (triple_mag a b) as Hm. rewrite E in Hm. set (t := triple _ _ _) in *. clearbody t. apply V2_eq; unfold zero2; rs; rv0; nra. }
  rewrite Ez, normalize2_eq. rv0. f_equal; ring.
Qed.
Lemma nrm_nondeg (a b : P2) : perp_dot a b <> 0 ->
  dot2 (nrm a b) (nrm a b) = 1 /\ dot2 (nrm a b) b = dot2 (nrm a b) a /\ 0 < dot2 (nrm a b) a.
Proof.
  intros E. unfold nrm. pose proof (triple_mag a b) as Hm. pose proof (triple_edge a b) as He. pose proof (triple_dist a b) as Hd.
  assert (Hab : 0 < dot2 (sub2 b a) (sub2 b a)).
  { apply vec2_ne. intros Ez. apply E. assert (ux b - ux a = 0) by exact (f_equal ux Ez). assert (uy b - uy a = 0) by exact (f_equal uy Ez).
    clear -H H0. rv0. nra. }
  assert (Hpp : 0 < perp_dot a b * perp_dot a b) by nra.
  set (t := triple _ _ _) in *. clearbody t.
  assert (Hne : t <> zero2) by (apply vec2_ne; rewrite Hm; nra).
  pose proof (mag2_pos t Hne) as Hmag. pose proof (mag2_sqr t) as Hsq.
  rewrite normalize2_eq. rewrite !dot2_scale_l. split; [|split].
  - rewrite (dot2_comm t). rewrite dot2_scale_l, <- Hsq. field. lra.
  - by rewrite He.
  - rewrite Hd. apply Rmult_lt_0_compat; [|done]. apply Rdiv_lt_0_compat; lra.
Qed.
Lemma nrm_ne_iff (a b : P2) : nrm a b <> zero2 <-> perp_dot a b <> 0.
Proof.
  split; [intros Hn E; by apply Hn, nrm_deg|]. intros E Ez. destruct (nrm_nondeg a b E) as [H1 _]. rewrite Ez in H1. clear -H1. rv0. lra.
Qed.
Lemma nrm_nonneg (a b : P2) : 0 <= dot2 (nrm a b) a.
Proof.
  destruct (Req_dec (perp_dot a b) 0) as [E|E]; [rewrite nrm_deg by done; clear; rv0; lra|].
  destruct (nrm_nondeg a b E) as (_ & _ & ?). lra.
Qed.

(** [closest_edge] picks an edge of least distance. *)
Definition edge_of (l : list (SupPt P2)) (k : nat) (e : Edge2) : Prop :=
  exists a b, Ed l k a b /\ e = mkEdge (nrm (sp_v a) (sp_v b)) (dot2 (nrm (sp_v a) (sp_v b)) (sp_v a)) (nxt l k).
Lemma edge_at_spec l k : (k < length l)%nat -> exists e, edge_at l k = Some e /\ edge_of l k e.
Proof.
  intros Hk. destruct (Ed_exists l k Hk) as (a & b & Ha & Hb). unfold edge_at.
  change (if decide (k + 1 = length l)%nat then 0%nat else (k + 1)%nat) with (nxt l k). rewrite Ha, Hb. eexists. split; [done|].
  exists a, b. done.
Qed.
Lemma closest_edge_spec (l : list (SupPt P2)) :
  (3 <= length l)%nat -> exists e i, closest_edge l = Ok (Some e) /\ edge_of l i e /\
    forall k e', edge_of l k e' -> e_dist e <= e_dist e'.
Proof.
  intros Hl. unfold closest_edge. rewrite (proj2 (Nat.ltb_ge _ _)) by lia.
  assert (Hfold : forall m, (m <= length l)%nat ->
    match foldl (edge_step l) None (seq 0 m) with
    | None => m = 0%nat
    | Some e => (exists i, edge_of l i e) /\ forall k e', (k < m)%nat -> edge_of l k e' -> e_dist e <= e_dist e'
    end).
  { induction m as [|m IH]; intros Hm; [done|]. rewrite seq_S, foldl_app. cbn [foldl Nat.add].
    specialize (IH ltac:(lia)). destruct (edge_at_spec l m ltac:(lia)) as (e & Ee & He).
    assert (Hu : forall k e1 e2, edge_of l k e1 -> edge_of l k e2 -> e1 = e2).
    { intros k e1 e2 (a1 & b1 & E1 & ->) (a2 & b2 & E2 & ->). destruct (Ed_fun _ _ _ _ _ _ E1 E2) as [-> ->]. done. }
    unfold edge_step at 1. rewrite Ee. destruct (foldl (edge_step l) None (seq 0 m)) as [b|].
    - destruct IH as [Hb Hall]. cbn [nlt Num_R]. destruct (Rltb (e_dist e) (e_dist b)) eqn:El.
      + apply Rltb_true in El. split; [by exists m|]. intros k e' Hk He'. destruct (decide (k = m)) as [-> |].
        * rewrite (Hu _ _ _ He He'). lra.
        * specialize (Hall k e' ltac:(lia) He'). lra.
      + apply Rltb_false in El. split; [done|]. intros k e' Hk He'. destruct (decide (k = m)) as [-> |].
        * rewrite (Hu _ _ _ He' He). done.
        * apply (Hall k e'); [lia|done].
    - subst m. cbn [nbelow NumSgn_R]. split; [by exists 0%nat|]. intros k e' Hk He'. assert (k = 0)%nat as -> by lia.
      rewrite (Hu _ _ _ He He'). lra. }
  specialize (Hfold (length l) ltac:(lia)). destruct (foldl _ _ _) as [e|]; [|lia].
  destruct Hfold as [[i Hi] Hall]. exists e, i. split; [done|]. split; [done|]. intros k e' He'. apply (Hall k e'); [|done].
  destruct He' as (a & b & He' & _). by eapply Ed_lt.
Qed.

Definition cone (a b u : P2) : Prop := exists α β, 0 <= α /\ 0 <= β /\ u = add2 (scale2 a α) (scale2 b β).
Definition ocone (a b u : P2) : Prop := exists α β, 0 < α /\ 0 < β /\ u = add2 (scale2 a α) (scale2 b β).
Lemma decompose (a b u : P2) : perp_dot a b <> 0 -> exists x y, u = add2 (scale2 a x) (scale2 b y).
Proof.
  intros E. exists (perp_dot u b / perp_dot a b), (perp_dot a u / perp_dot a b).
  apply V2_eq; rv0; field; done.
Qed.
Lemma dec_unique (a b : P2) x y x' y' : perp_dot a b <> 0 ->
  add2 (scale2 a x) (scale2 b y) = add2 (scale2 a x') (scale2 b y') -> x = x' /\ y = y'.
Proof.
  intros E Eq. 
  assert (E1 : perp_dot (add2 (scale2 a x) (scale2 b y)) b = x * perp_dot a b) by (clear; rv0; ring).
  assert (E2 : perp_dot (add2 (scale2 a x') (scale2 b y')) b = x' * perp_dot a b) by (clear; rv0; ring).
  assert (E3 : perp_dot a (add2 (scale2 a x) (scale2 b y)) = y * perp_dot a b) by (clear; rv0; ring).
  assert (E4 : perp_dot a (add2 (scale2 a x') (scale2 b y')) = y' * perp_dot a b) by (clear; rv0; ring).
  rewrite Eq in E1, E3. split; apply (Rmult_eq_reg_r (perp_dot a b)); congruence.
Qed.
Lemma comb_assoc (a p : P2) x y s t :
  add2 (scale2 a s) (scale2 (add2 (scale2 a x) (scale2 p y)) t) = add2 (scale2 a (s + t * x)) (scale2 p (t * y)).
Proof. apply V2_eq; rv0; ring. Qed.
Lemma cone_split (a b p u : P2) : ocone a b p -> cone a b u -> cone a p u \/ cone p b u.
Proof.
  intros (x & y & Hx & Hy & ->) (α & β & Hα & Hβ & ->).
  destruct (Rle_lt_dec (β * x) (α * y)) as [Hle|Hlt].
  - left. exists (α - β / y * x), (β / y).
    assert (0 <= β / y) by (apply Rmult_le_pos; [done|left; by apply Rinv_0_lt_compat]).
    split; [|split; [done|]].
    + assert (α - β / y * x = (α * y - β * x) / y) as -> by (field; lra).
      apply Rmult_le_pos; [lra|left; by apply Rinv_0_lt_compat].
    + apply V2_eq; rv0; field; lra.
  - right. exists (α / x), (β - α / x * y).
    assert (0 <= α / x) by (apply Rmult_le_pos; [done|left; by apply Rinv_0_lt_compat]).
    split; [done|]. split.
    + assert (β - α / x * y = (β * x - α * y) / x) as -> by (field; lra).
      apply Rmult_le_pos; [lra|left; by apply Rinv_0_lt_compat].
    + apply V2_eq; rv0; field; lra.
Qed.
Lemma ocone_sub_l (a b p u : P2) : ocone a b p -> ocone a p u -> ocone a b u.
Proof.
  intros (x & y & Hx & Hy & ->) (α & β & Hα & Hβ & ->). exists (α + β * x), (β * y).
  split; [nra|]. split; [nra|]. apply V2_eq; rv0; ring.
Qed.
Lemma ocone_sub_r (a b p u : P2) : ocone a b p -> ocone p b u -> ocone a b u.
Proof.
  intros (x & y & Hx & Hy & ->) (α & β & Hα & Hβ & ->). exists (α * x), (α * y + β).
  split; [nra|]. split; [nra|]. apply V2_eq; rv0; ring.
Qed.
Lemma ocone_disj (a b p u : P2) : perp_dot a b <> 0 -> ocone a b p -> ocone a p u -> ocone p b u -> False.
Proof.
  intros E (x & y & Hx & Hy & ->) (α & β & Hα & Hβ & E1) (α' & β' & Hα' & Hβ' & E2).
  assert (Eq : add2 (scale2 a (α + β * x)) (scale2 b (β * y)) = add2 (scale2 a (α' * x)) (scale2 b (α' * y + β'))).
  { transitivity u; [rewrite E1; apply V2_eq; rv0; ring|rewrite E2; apply V2_eq; rv0; ring]. }
  apply dec_unique in Eq as [Q1 Q2]; [|done]. nra.
Qed.
Lemma ocone_not_end (a b : P2) : perp_dot a b <> 0 -> ~ ocone a b a /\ ~ ocone a b b.
Proof.
  intros E. split; intros (x & y & Hx & Hy & Eq).
  - assert (Eq' : add2 (scale2 a 1) (scale2 b 0) = add2 (scale2 a x) (scale2 b y)) by (rewrite <- Eq; apply V2_eq; rv0; ring).
    apply dec_unique in Eq' as [Q1 Q2]; [lra|done].
  - assert (Eq' : add2 (scale2 a 0) (scale2 b 1) = add2 (scale2 a x) (scale2 b y)) by (rewrite <- Eq; apply V2_eq; rv0; ring).
    apply dec_unique in Eq' as [Q1 Q2]; [lra|done].
Qed.
Lemma ocone_perp (a b p : P2) : perp_dot a b <> 0 -> ocone a b p -> perp_dot a p <> 0 /\ perp_dot p b <> 0.
Proof.
  intros E (x & y & Hx & Hy & ->). split.
  - replace (perp_dot a _) with (y * perp_dot a b) by (rv0; ring). apply Rmult_integral_contrapositive. lra.
  - replace (perp_dot _ b) with (x * perp_dot a b) by (rv0; ring). apply Rmult_integral_contrapositive. lra.
Qed.

(** ** The expanding polygon *)
Section epa2.
  Context (A B : P2 -> Prop) (supL supR : P2 -> res P2) (HA : supports2 A supL) (HB : supports2 B supR)
    (tol : R) (Htol : 0 < tol).
  Notation wit := (wit A B).
  Implicit Types l : list (SupPt P2).

  (** The cones of the edges cover the plane, do not overlap, and contain no vertex in
      their interior. *)
  Definition covers l : Prop := forall u, exists k a b, Ed l k a b /\ cone (sp_v a) (sp_v b) u.
  Definition disjoint_cones l : Prop := forall k k' a b a' b' u, Ed l k a b -> Ed l k' a' b' ->
    ocone (sp_v a) (sp_v b) u -> ocone (sp_v a') (sp_v b') u -> k = k'.
  Definition empty_cones l : Prop := forall k a b w, Ed l k a b -> w ∈ l -> ~ ocone (sp_v a) (sp_v b) (sp_v w).
  Definition nondeg l : Prop := forall k a b, Ed l k a b -> perp_dot (sp_v a) (sp_v b) <> 0.
  Definition ring l : Prop :=
    (3 <= length l)%nat /\ Forall wit l /\ covers l /\ disjoint_cones l /\ empty_cones l /\ NoDup (sp_v <$> l).

  Lemma vec_insert_elem {X} j (p : X) (l : list X) w : w ∈ vec_insert j p l <-> w = p \/ w ∈ l.
  Proof.
    unfold vec_insert. rewrite elem_of_app, elem_of_cons. rewrite <- (take_drop j l) at 3. rewrite elem_of_app. tauto.
  Qed.
  Lemma vec_insert_fmap {X Y} (f : X -> Y) j p (l : list X) : f <$> vec_insert j p l = vec_insert j (f p) (f <$> l).
  Proof. unfold vec_insert. rewrite fmap_app, fmap_cons, fmap_take, fmap_drop. done. Qed.
  Lemma vec_insert_NoDup {X} j (p : X) (l : list X) : NoDup l -> p ∉ l -> NoDup (vec_insert j p l).
  Proof.
    intros Hn Hp. unfold vec_insert. rewrite <- (take_drop j l) in Hn, Hp. rewrite NoDup_app in *. rewrite NoDup_cons.
    destruct Hn as (H1 & H2 & H3). set_solver.
  Qed.
  Lemma ring_insert l i a b p :
    ring l -> Ed l i a b -> perp_dot (sp_v a) (sp_v b) <> 0 -> wit p -> ocone (sp_v a) (sp_v b) (sp_v p) ->
    ring (vec_insert (nxt l i) p l).
  Proof.
    intros (Hlen & Hw & Hcov & Hdis & Hemp & Hnd) He Hab Hp Hc. set (j := nxt l i).
    destruct (Ed_insert l i a b p He) as (F1 & F2 & F3). fold j in F1, F2, F3.
    pose proof (Ed_insert_inv l i a b p) as Finv.
    assert (Hsub : forall k' x y u, Ed (vec_insert j p l) k' x y -> ocone (sp_v x) (sp_v y) u ->
      exists k x0 y0, Ed l k x0 y0 /\ ocone (sp_v x0) (sp_v y0) u /\
        ((k = i /\ ((k' = sh j i /\ x = a /\ y = p) \/ (k' = j /\ x = p /\ y = b))) \/ (k <> i /\ k' = sh j k))).
    { intros k' x y u He' Hu. destruct (Finv k' x y He He') as [(-> & -> & ->)|[(-> & -> & ->)|(k & Hk & -> & Hk')]].
      - exists i, a, b. split; [done|]. split; [by eapply ocone_sub_r|]. left. split; [done|]. by right.
      - exists i, a, b. split; [done|]. split; [by eapply ocone_sub_l|]. left. split; [done|]. by left.
      - exists k, x, y. split; [done|]. split; [done|]. by right. }
    split; [rewrite vec_insert_length; lia|]. split.
    { rewrite Forall_forall in *. intros w [-> |Hw']%vec_insert_elem; [done|by apply Hw]. }
    split; [|split; [|split]].
    - intros u. destruct (Hcov u) as (k & x & y & Hk & Hu). destruct (decide (k = i)) as [-> |Hki].
      + destruct (Ed_fun _ _ _ _ _ _ Hk He) as [-> ->]. destruct (cone_split _ _ _ _ Hc Hu).
        * by exists (sh j i), a, p.
        * by exists j, p, b.
      + exists (sh j k), x, y. split; [by apply F3|done].
    - intros k1 k2 x1 y1 x2 y2 u E1 E2 U1 U2.
      destruct (Hsub _ _ _ _ E1 U1) as (m1 & a1 & b1 & M1 & V1 & C1).
      destruct (Hsub _ _ _ _ E2 U2) as (m2 & a2 & b2 & M2 & V2 & C2).
      assert (m1 = m2) as <- by by eapply Hdis.
      destruct C1 as [[-> C1]|[N1 ->]]; destruct C2 as [[Em C2]|[N2 ->]]; try done.
      destruct C1 as [(-> & -> & ->)|(-> & -> & ->)]; destruct C2 as [(-> & -> & ->)|(-> & -> & ->)]; try done; exfalso.
      + by eapply (ocone_disj (sp_v a) (sp_v b) (sp_v p) u).
      + by eapply (ocone_disj (sp_v a) (sp_v b) (sp_v p) u).
    - intros k' x y w E' Hw' U. destruct (Hsub _ _ _ _ E' U) as (k & x0 & y0 & Ek & V & C).
      apply vec_insert_elem in Hw' as [-> |Hw']; [|by eapply Hemp].
      destruct C as [[-> C]|[Hki ->]].
      + destruct (ocone_perp _ _ _ Hab Hc) as [Q1 Q2]. destruct C as [(-> & -> & ->)|(-> & -> & ->)].
        * by apply (proj2 (ocone_not_end (sp_v a) (sp_v p) Q1)).
        * by apply (proj1 (ocone_not_end (sp_v p) (sp_v b) Q2)).
      + apply Hki. by eapply Hdis.
    - rewrite vec_insert_fmap. apply vec_insert_NoDup; [done|]. intros (w & Ew & Hw')%elem_of_list_fmap.
      apply (Hemp i a b w He Hw'). by rewrite <- Ew.
  Qed.

  (** Every direction sees a vertex in front of the origin. *)
  Lemma covers_front l e : covers l -> e <> zero2 -> exists w, w ∈ l /\ 0 < dot2 e (sp_v w).
  Proof.
    intros Hc He. apply vec2_ne in He. destruct (Hc e) as (k & a & b & [Ea Eb] & α & β & Hα & Hβ & Ee).
    assert (Hs : dot2 e e = α * dot2 e (sp_v a) + β * dot2 e (sp_v b)).
    { rewrite Ee at 2. clear. rv0. ring. }
    destruct (Rle_lt_dec (dot2 e (sp_v a)) 0) as [Ha|Ha]; [|exists a; split; [by eapply elem_of_list_lookup_2|done]].
    destruct (Rle_lt_dec (dot2 e (sp_v b)) 0) as [Hb|Hb]; [|exists b; split; [by eapply elem_of_list_lookup_2|done]].
    exfalso. nra.
  Qed.
  (** A support point strictly beyond an edge lies strictly inside the cone of the edge. *)
  Lemma beyond_in_cone l i a b n p :
    ring l -> Ed l i a b -> perp_dot (sp_v a) (sp_v b) <> 0 -> wit p ->
    dot2 n (sp_v b) = dot2 n (sp_v a) -> 0 < dot2 n (sp_v a) -> dot2 n (sp_v a) < dot2 n (sp_v p) ->
    ocone (sp_v a) (sp_v b) (sp_v p).
  Proof.
    intros (Hlen & Hw & Hcov & _) [Ea Eb] Hab Hp Hnb Hna Hnp.
    assert (Hsup : forall w, w ∈ l -> exists e, dot2 e (sp_v w) > 0 /\ forall v, mdiff2 A B v -> dot2 e v <= dot2 e (sp_v w)).
    { intros w Hwl. rewrite Forall_forall in Hw. destruct (Hw w Hwl) as [_ (e & He & Hm)]. exists e. split; [|done].
      destruct (covers_front l e Hcov He) as (w' & Hw' & Hpos). specialize (Hm _ (wit_mdiff _ _ _ (Hw w' Hw'))). lra. }
    destruct (Hsup a) as (ea & Hea & Hma); [by eapply elem_of_list_lookup_2|].
    destruct (Hsup b) as (eb & Heb & Hmb); [by eapply elem_of_list_lookup_2|].
    rewrite Forall_forall in Hw.
    assert (Da : mdiff2 A B (sp_v a)) by (apply wit_mdiff, Hw; by eapply elem_of_list_lookup_2).
    assert (Db : mdiff2 A B (sp_v b)) by (apply wit_mdiff, Hw; by eapply elem_of_list_lookup_2).
    pose proof (wit_mdiff _ _ _ Hp) as Dp.
    pose proof (Hma _ Db) as Mab. pose proof (Hma _ Dp) as Map. pose proof (Hmb _ Da) as Mba. pose proof (Hmb _ Dp) as Mbp.
    destruct (decompose (sp_v a) (sp_v b) (sp_v p) Hab) as (x & y & Ep).
    assert (Hlin : forall f : P2, dot2 f (sp_v p) = x * dot2 f (sp_v a) + y * dot2 f (sp_v b)).
    { intros f. rewrite Ep. clear. rv0. ring. }
    rewrite (Hlin n), Hnb in Hnp. rewrite (Hlin ea) in Map. rewrite (Hlin eb) in Mbp.
    clear Hlin Dp Da Db Hma Hmb Hsup Hw Ea Eb Hcov Hlen.
    assert (Hxy : 1 < x + y) by nra.
    exists x, y. split; [|split; [|done]].
    - destruct (Rle_lt_dec x 0) as [Hx|]; [exfalso|done].
      (* b would lie strictly inside the triangle 0 a p *)
      assert (y * dot2 eb (sp_v b) + x * dot2 eb (sp_v a) > dot2 eb (sp_v b)); [|lra].
      assert (x * dot2 eb (sp_v a) >= x * dot2 eb (sp_v b)) by nra. nra.
    - destruct (Rle_lt_dec y 0) as [Hy|]; [exfalso|done].
      assert (x * dot2 ea (sp_v a) + y * dot2 ea (sp_v b) > dot2 ea (sp_v a)); [|lra].
      assert (y * dot2 ea (sp_v b) >= y * dot2 ea (sp_v a)) by nra. nra.
  Qed.

  (** The first triangle. *)
  Lemma tri_weights (a b c : P2) : hull2 [c; b; a] zero2 ->
    exists α β γ, 0 <= α /\ 0 <= β /\ 0 <= γ /\ α + β + γ = 1 /\ add2 (add2 (scale2 a α) (scale2 b β)) (scale2 c γ) = zero2.
  Proof.
    assert (Hg : forall v, hull2 [c; b; a] v -> exists α β γ, 0 <= α /\ 0 <= β /\ 0 <= γ /\ α + β + γ = 1 /\ add2 (add2 (scale2 a α) (scale2 b β)) (scale2 c γ) = v).
    { intros v Hv. induction Hv as [v Hv|v w t _ IH1 _ IH2 Ht].
      - apply elem_of_cons in Hv as [-> |Hv]; [exists 0, 0, 1; repeat (split; [lra|]); apply V2_eq; rv0; ring|].
        apply elem_of_cons in Hv as [-> |Hv]; [exists 0, 1, 0; repeat (split; [lra|]); apply V2_eq; rv0; ring|].
        apply elem_of_list_singleton in Hv as ->. exists 1, 0, 0; repeat (split; [lra|]); apply V2_eq; rv0; ring.
      - destruct IH1 as (α & β & γ & ? & ? & ? & ? & <-). destruct IH2 as (α' & β' & γ' & ? & ? & ? & ? & <-).
        exists ((1 - t) * α + t * α'), ((1 - t) * β + t * β'), ((1 - t) * γ + t * γ').
        split; [nra|]. split; [nra|]. split; [nra|]. split; [nra|]. apply V2_eq; rv0; ring. }
    apply Hg.
  Qed.
  Lemma Ed3 {X} (c b a : X) k x y : Ed [c; b; a] k x y ->
    (k = 0%nat /\ x = c /\ y = b) \/ (k = 1%nat /\ x = b /\ y = a) \/ (k = 2%nat /\ x = a /\ y = c).
  Proof.
    intros [Ex Ey]. pose proof (lookup_lt_Some _ _ _ Ex) as Hk. cbn in Hk.
    destruct k as [|[|[|]]]; [| | |lia]; cbn in Ex, Ey; injection Ex as <-; injection Ey as <-; auto.
  Qed.
  Lemma ring_triangle c b a :
    wit c -> wit b -> wit a -> hull2 [sp_v c; sp_v b; sp_v a] zero2 -> nondeg [c; b; a] -> ring [c; b; a].
  Proof.
    intros Hc Hb Ha Hh Hnd.
    assert (E0 : Ed [c; b; a] 0 c b) by done. assert (E1 : Ed [c; b; a] 1 b a) by done. assert (E2 : Ed [c; b; a] 2 a c) by done.
    pose proof (Hnd _ _ _ E0) as N0. pose proof (Hnd _ _ _ E1) as N1. pose proof (Hnd _ _ _ E2) as N2.
    set (vc := sp_v c) in *. set (vb := sp_v b) in *. set (va := sp_v a) in *.
    destruct (tri_weights _ _ _ Hh) as (α & β & γ & Hα & Hβ & Hγ & Hsum & Ez).
    assert (Zx : α * ux va + β * ux vb + γ * ux vc = 0).
    { transitivity (ux (add2 (add2 (scale2 va α) (scale2 vb β)) (scale2 vc γ))); [rv0; ring|by rewrite Ez]. }
    assert (Zy : α * uy va + β * uy vb + γ * uy vc = 0).
    { transitivity (uy (add2 (add2 (scale2 va α) (scale2 vb β)) (scale2 vc γ))); [rv0; ring|by rewrite Ez]. }
    (* the three cross products have the same sign *)
    assert (K1 : α * perp_dot va vc = - (β * perp_dot vb vc)).
    { clear -Zx Zy. rv0. transitivity ((α * ux va) * uy vc - (α * uy va) * ux vc); [ring|].
      replace (α * ux va) with (- (β * ux vb + γ * ux vc)) by lra. replace (α * uy va) with (- (β * uy vb + γ * uy vc)) by lra. ring. }
    assert (K2 : β * perp_dot vb va = - (γ * perp_dot vc va)).
    { clear -Zx Zy. rv0. transitivity ((β * ux vb) * uy va - (β * uy vb) * ux va); [ring|].
      replace (β * ux vb) with (- (α * ux va + γ * ux vc)) by lra. replace (β * uy vb) with (- (α * uy va + γ * uy vc)) by lra. ring. }
    assert (K3 : α * perp_dot va vb = - (γ * perp_dot vc vb)).
    { clear -Zx Zy. rv0. transitivity ((α * ux va) * uy vb - (α * uy va) * ux vb); [ring|].
      replace (α * ux va) with (- (β * ux vb + γ * ux vc)) by lra. replace (α * uy va) with (- (β * uy vb + γ * uy vc)) by lra. ring. }
    assert (Anti : forall u v : P2, perp_dot u v = - perp_dot v u) by (intros; rv0; ring).
    assert (Hγ' : 0 < γ).
    { destruct (Rle_lt_dec γ 0); [|done]. exfalso. assert (γ = 0) as -> by lra.
      rewrite Rmult_0_l, Ropp_0 in K2, K3. apply Rmult_integral in K2 as [->|?]; [|done].
      rewrite (Anti va vb) in K3. apply Rmult_integral in K3 as [->|?]; lra. }
    assert (Hβ' : 0 < β).
    { destruct (Rle_lt_dec β 0); [|done]. exfalso. assert (β = 0) as -> by lra. rewrite Rmult_0_l in K2.
      assert (γ * perp_dot vc va = 0) by lra. apply Rmult_integral in H as [?|?]; [lra|]. rewrite (Anti vc va) in H. lra. }
    assert (Hα' : 0 < α).
    { destruct (Rle_lt_dec α 0); [|done]. exfalso. assert (α = 0) as -> by lra. rewrite Rmult_0_l in K3.
      assert (γ * perp_dot vc vb = 0) by lra. apply Rmult_integral in H as [?|?]; lra. }
    (* two open cones overlap nowhere *)
    assert (Hdisj : forall (p q r : P2) α β γ u, 0 < α -> 0 < β -> 0 < γ -> perp_dot p q <> 0 ->
      add2 (add2 (scale2 p α) (scale2 q β)) (scale2 r γ) = zero2 -> ocone p q u -> ocone q r u -> False).
    { clear. intros p q r α β γ u Hα Hβ Hγ Hpq Ez (x & y & Hx & Hy & E1) (x' & y' & Hx' & Hy' & E2).
      assert (Er : r = add2 (scale2 p (- α / γ)) (scale2 q (- β / γ))).
      { assert (Zx : α * ux p + β * ux q + γ * ux r = 0).
        { transitivity (ux (add2 (add2 (scale2 p α) (scale2 q β)) (scale2 r γ))); [rv0; ring|by rewrite Ez]. }
        assert (Zy : α * uy p + β * uy q + γ * uy r = 0).
        { transitivity (uy (add2 (add2 (scale2 p α) (scale2 q β)) (scale2 r γ))); [rv0; ring|by rewrite Ez]. }
        clear -Zx Zy Hγ. apply V2_eq; rv0; apply (Rmult_eq_reg_l γ); try lra; field_simplify; lra. }
      assert (Eq : add2 (scale2 p x) (scale2 q y) = add2 (scale2 p (y' * (- α / γ))) (scale2 q (x' + y' * (- β / γ)))).
      { transitivity u; [done|]. rewrite E2, Er. clear. apply V2_eq; rv0; ring. }
      apply dec_unique in Eq as [Q1 _]; [|done].
      assert (0 < α / γ) by (apply Rdiv_lt_0_compat; lra).
      replace (y' * (- α / γ)) with (- (y' * (α / γ))) in Q1 by (field; lra). nra. }
    assert (Hvert : forall (p q r : P2) α β γ, 0 < α -> 0 < β -> 0 < γ -> perp_dot p q <> 0 ->
      add2 (add2 (scale2 p α) (scale2 q β)) (scale2 r γ) = zero2 -> ~ ocone p q r).
    { clear. intros p q r α β γ Hα Hβ Hγ Hpq Ez (x & y & Hx & Hy & ->).
      assert (Eq : add2 (scale2 p (α + γ * x)) (scale2 q (β + γ * y)) = add2 (scale2 p 0) (scale2 q 0)).
      { transitivity (zero2 : P2); [rewrite <- Ez; apply V2_eq; rv0; ring|apply V2_eq; rv0; ring]. }
      apply dec_unique in Eq as [Q1 _]; [nra|done]. }
    assert (Ez1 : add2 (add2 (scale2 vc γ) (scale2 vb β)) (scale2 va α) = zero2) by (rewrite <- Ez; clear; apply V2_eq; rv0; ring).
    assert (Ez2 : add2 (add2 (scale2 vb β) (scale2 va α)) (scale2 vc γ) = zero2) by (rewrite <- Ez; clear; apply V2_eq; rv0; ring).
    assert (Ez3 : add2 (add2 (scale2 va α) (scale2 vc γ)) (scale2 vb β) = zero2) by (rewrite <- Ez; clear; apply V2_eq; rv0; ring).
    split; [cbn; lia|]. split; [by rewrite !Forall_cons|]. split; [|split; [|split]].
    - intros u. destruct (decompose va vb u) as (x & y & Eu); [rewrite Anti; lra|].
      (* shift by a multiple of the relation so that the least weight becomes zero *)
      destruct (Rle_lt_dec 0 x) as [Hx|Hx]; destruct (Rle_lt_dec 0 y) as [Hy|Hy].
      + exists 1%nat, b, a. split; [done|]. exists y, x. split; [done|]. split; [done|]. rewrite Eu. fold va vb. clear. apply V2_eq; rv0; ring.
      + exists 2%nat, a, c. split; [done|]. exists (x + - y / β * α), (- y / β * γ).
        assert (0 < - y / β) by (apply Rdiv_lt_0_compat; lra). split; [nra|]. split; [nra|].
        rewrite Eu. fold va vc. apply V2_eq; [apply (Rplus_eq_reg_r ((- y / β) * (β * ux vb)))|apply (Rplus_eq_reg_r ((- y / β) * (β * uy vb)))].
        * transitivity (x * ux va); [clear -Hβ'; rv0; field; lra|].
          transitivity (x * ux va + (- y / β) * (α * ux va + β * ux vb + γ * ux vc)); [rewrite Zx; ring|clear; rv0; ring].
        * transitivity (x * uy va); [clear -Hβ'; rv0; field; lra|].
          transitivity (x * uy va + (- y / β) * (α * uy va + β * uy vb + γ * uy vc)); [rewrite Zy; ring|clear; rv0; ring].
      + exists 0%nat, c, b. split; [done|]. exists (- x / α * γ), (y + - x / α * β).
        assert (0 < - x / α) by (apply Rdiv_lt_0_compat; lra). split; [nra|]. split; [nra|].
        rewrite Eu. fold vb vc. apply V2_eq; [apply (Rplus_eq_reg_r ((- x / α) * (α * ux va)))|apply (Rplus_eq_reg_r ((- x / α) * (α * uy va)))].
        * transitivity (y * ux vb); [clear -Hα'; rv0; field; lra|].
          transitivity (y * ux vb + (- x / α) * (α * ux va + β * ux vb + γ * ux vc)); [rewrite Zx; ring|clear; rv0; ring].
        * transitivity (y * uy vb); [clear -Hα'; rv0; field; lra|].
          transitivity (y * uy vb + (- x / α) * (α * uy va + β * uy vb + γ * uy vc)); [rewrite Zy; ring|clear; rv0; ring].
      + assert (Px : 0 < - x / α) by (apply Rdiv_lt_0_compat; lra). assert (Py : 0 < - y / β) by (apply Rdiv_lt_0_compat; lra).
        destruct (Rle_lt_dec (- x / α) (- y / β)) as [Hxy|Hxy].
        * exists 2%nat, a, c. split; [done|]. exists (x + - y / β * α), (- y / β * γ).
          split. { assert (- x / α * α = - x) by (field; lra). nra. } split; [nra|].
          rewrite Eu. fold va vc. apply V2_eq; [apply (Rplus_eq_reg_r ((- y / β) * (β * ux vb)))|apply (Rplus_eq_reg_r ((- y / β) * (β * uy vb)))].
          -- transitivity (x * ux va); [clear -Hβ'; rv0; field; lra|].
             transitivity (x * ux va + (- y / β) * (α * ux va + β * ux vb + γ * ux vc)); [rewrite Zx; ring|clear; rv0; ring].
          -- transitivity (x * uy va); [clear -Hβ'; rv0; field; lra|].
             transitivity (x * uy va + (- y / β) * (α * uy va + β * uy vb + γ * uy vc)); [rewrite Zy; ring|clear; rv0; ring].
        * exists 0%nat, c, b. split; [done|]. exists (- x / α * γ), (y + - x / α * β).
          split; [nra|]. split. { assert (- y / β * β = - y) by (field; lra). nra. }
          rewrite Eu. fold vb vc. apply V2_eq; [apply (Rplus_eq_reg_r ((- x / α) * (α * ux va)))|apply (Rplus_eq_reg_r ((- x / α) * (α * uy va)))].
          -- transitivity (y * ux vb); [clear -Hα'; rv0; field; lra|].
             transitivity (y * ux vb + (- x / α) * (α * ux va + β * ux vb + γ * ux vc)); [rewrite Zx; ring|clear; rv0; ring].
          -- transitivity (y * uy vb); [clear -Hα'; rv0; field; lra|].
             transitivity (y * uy vb + (- x / α) * (α * uy va + β * uy vb + γ * uy vc)); [rewrite Zy; ring|clear; rv0; ring].
    - intros k k' x y x' y' u Ek Ek' U U'.
      apply Ed3 in Ek as [(-> & -> & ->)|[(-> & -> & ->)|(-> & -> & ->)]];
        apply Ed3 in Ek' as [(-> & -> & ->)|[(-> & -> & ->)|(-> & -> & ->)]]; try done; exfalso.
      + by apply (Hdisj vc vb va γ β α u).
      + by apply (Hdisj va vc vb α γ β u).
      + by apply (Hdisj vc vb va γ β α u).
      + by apply (Hdisj vb va vc β α γ u).
      + by apply (Hdisj va vc vb α γ β u).
      + by apply (Hdisj vb va vc β α γ u).
    - intros k x y w Ek Hwl U.
      assert (Hwl' : w = c \/ w = b \/ w = a) by set_solver. clear Hwl.
      apply Ed3 in Ek as [(-> & -> & ->)|[(-> & -> & ->)|(-> & -> & ->)]]; destruct Hwl' as [-> |[-> | ->]]; fold va vb vc in U.
      + by apply (proj1 (ocone_not_end vc vb N0)).
      + by apply (proj2 (ocone_not_end vc vb N0)).
      + by apply (Hvert vc vb va γ β α).
      + by apply (Hvert vb va vc β α γ).
      + by apply (proj1 (ocone_not_end vb va N1)).
      + by apply (proj2 (ocone_not_end vb va N1)).
      + by apply (proj2 (ocone_not_end va vc N2)).
      + by apply (Hvert va vc vb α γ β).
      + by apply (proj1 (ocone_not_end va vc N2)).
    - cbn. fold va vb vc. assert (Hs : forall u : P2, perp_dot u u = 0) by (intros; rv0; ring).
      assert (vc <> vb) by (intros E; apply N0; rewrite E; apply Hs).
      assert (vb <> va) by (intros E; apply N1; rewrite E; apply Hs).
      assert (va <> vc) by (intros E; apply N2; rewrite E; apply Hs).
      repeat (apply NoDup_cons; split; [set_solver|]). apply NoDup_nil_2.
  Qed.

  (** Inserting a support point keeps every edge clear of the origin. *)
  Lemma nondeg_insert l i a b p :
    nondeg l -> Ed l i a b -> ocone (sp_v a) (sp_v b) (sp_v p) -> nondeg (vec_insert (nxt l i) p l).
  Proof.
    intros Hnd He Hc k x y Ek. pose proof (Hnd _ _ _ He) as Hab. destruct (ocone_perp _ _ _ Hab Hc) as [Q1 Q2].
    destruct (Ed_insert_inv l i a b p k x y He Ek) as [(-> & -> & ->)|[(-> & -> & ->)|(k' & Hk' & -> & Ek')]]; [done|done|by eapply Hnd].
  Qed.
  Lemma vec_insert_perm {X} j (p : X) (l : list X) : vec_insert j p l ≡ₚ p :: l.
  Proof. unfold vec_insert. rewrite <- Permutation_middle, take_drop. done. Qed.
  Notation eloop := (epa2_loop (mink2 supL supR) tol).
  Lemma epa2_loop_spec n l e :
    ring l -> nondeg l -> closest_edge l = Ok (Some e) ->
    exists l' e' done added, eloop n l e = Ok (l', e', done) /\ ring l' /\ nondeg l' /\ closest_edge l' = Ok (Some e') /\
      l' ≡ₚ added ++ l /\ Forall (fun s => exists d, d <> zero2 /\ mink2 supL supR d = Ok s) added /\
      (done = true -> forall v, mdiff2 A B v -> dot2 (e_normal e') v < e_dist e' + tol) /\
      (done = false -> length added = n).
  Proof.
    revert l e. induction n as [|n IH]; intros l e Hr Hnd Ee.
    { exists l, e, false, []. split; [done|]. repeat (split; [first [done|by apply Forall_nil_2]|]). done. }
    cbn [epa2_loop]. destruct (closest_edge_spec l (proj1 Hr)) as (e' & i & Ee' & Hi & Hmin).
    assert (e' = e) as -> by congruence. clear Ee'. destruct Hi as (a & b & He & Heq).
    pose proof (Hnd _ _ _ He) as Hab. destruct (nrm_nondeg _ _ Hab) as (Hu & Hline & Hpos).
    assert (Hn0 : e_normal e <> zero2) by (rewrite Heq; by apply nrm_ne_iff).
    destruct (mink2_spec A B supL supR HA HB (e_normal e) Hn0) as (p & Ep & Hp & Hm & _). rewrite Ep. cbn [mbind res_mbind res_bind].
    cbn [nlt nsub Num_R]. destruct (Rltb (dot2 (sp_v p) (e_normal e) - e_dist e) tol) eqn:Et.
    { apply Rltb_true in Et. rewrite dot2_comm in Et. exists l, e, true, []. split; [done|]. do 4 (split; [done|]).
      split; [by apply Forall_nil_2|]. split; [|done]. intros _ v Hv. specialize (Hm v Hv). lra. }
    apply Rltb_false in Et. rewrite dot2_comm in Et.
    assert (Hc : ocone (sp_v a) (sp_v b) (sp_v p)).
    { rewrite Heq in Et. cbn [e_normal e_dist] in Et. eapply (beyond_in_cone l i a b (nrm (sp_v a) (sp_v b)) p); try done. lra. }
    assert (Hidx : e_index e = nxt l i) by by rewrite Heq. rewrite Hidx.
    pose proof (ring_insert l i a b p Hr He Hab Hp Hc) as Hr'. pose proof (nondeg_insert l i a b p Hnd He Hc) as Hnd'.
    destruct (closest_edge_spec _ (proj1 Hr')) as (e2 & i2 & Ee2 & _). rewrite Ee2. cbn [mbind res_mbind res_bind].
    destruct (IH _ _ Hr' Hnd' Ee2) as (l' & e' & dn & added & E1 & R1 & R2 & R3 & Hperm & Hadd & R4 & R5).
    exists l', e', dn, (added ++ [p]). split; [done|]. repeat (split; [done|]).
    split. { rewrite Hperm, vec_insert_perm, <- app_assoc. done. }
    split; [apply Forall_app; split; [done|]; apply Forall_singleton; by exists (e_normal e)|].
    split; [done|]. intros Ed'. rewrite app_length, (R5 Ed'). cbn. lia.
  Qed.

  (** What the closest edge of a ring says. *)
  Lemma ring_edge l e :
    ring l -> nondeg l -> closest_edge l = Ok (Some e) ->
    dot2 (e_normal e) (e_normal e) = 1 /\ 0 < e_dist e /\
    (forall u, dot2 u u = 1 -> exists w, w ∈ l /\ e_dist e <= dot2 u (sp_v w)) /\
    exists i a b, Ed l i a b /\ e_index e = nxt l i /\ sp_v a <> sp_v b /\
      dot2 (e_normal e) (sp_v a) = e_dist e /\ dot2 (e_normal e) (sp_v b) = e_dist e.
  Proof.
    intros Hr Hnd Ee. destruct (closest_edge_spec l (proj1 Hr)) as (e' & i & Ee' & Hi & Hmin).
    assert (e' = e) as -> by congruence. clear Ee'. destruct Hi as (a & b & He & Heq).
    pose proof (Hnd _ _ _ He) as Hab. destruct (nrm_nondeg _ _ Hab) as (Hu & Hline & Hpos).
    split; [by rewrite Heq|]. split; [by rewrite Heq|]. split.
    - intros u Huu. destruct Hr as (_ & _ & Hcov & _). destruct (Hcov u) as (k & x & y & Ek & α & β & Hα & Hβ & Eu).
      pose proof (Hnd _ _ _ Ek) as Hxy. destruct (nrm_nondeg _ _ Hxy) as (Hu' & Hline' & Hpos').
      set (n' := nrm (sp_v x) (sp_v y)) in *. set (δ := dot2 n' (sp_v x)) in *.
      assert (Hle : e_dist e <= δ).
      { apply (Hmin k (mkEdge n' δ (nxt l k))). exists x, y. done. }
      assert (Hdot : dot2 n' u = (α + β) * δ).
      { rewrite Eu. transitivity (α * dot2 n' (sp_v x) + β * dot2 n' (sp_v y)); [clear; clearbody n'; rv0; ring|]. rewrite Hline'. fold δ. ring. }
      assert (Hcs : dot2 n' u <= 1).
      { clear -Hu' Huu. clearbody n'. rv0. pose proof (Rle_0_sqr (ux n' - ux u)). pose proof (Rle_0_sqr (uy n' - uy u)). unfold Rsqr in *. lra. }
      assert (Huu2 : α * dot2 u (sp_v x) + β * dot2 u (sp_v y) = 1).
      { rewrite <- Huu. rewrite Eu at 3. clear. rv0. ring. }
      destruct (Rle_lt_dec (e_dist e) (dot2 u (sp_v x))) as [|Hx]; [exists x; split; [by eapply elem_of_list_lookup_2, Ek|done]|].
      destruct (Rle_lt_dec (e_dist e) (dot2 u (sp_v y))) as [|Hy]; [exists y; split; [by eapply elem_of_list_lookup_2, Ek|done]|].
      exfalso. assert (0 < α + β).
      { destruct (Req_dec α 0) as [-> |]; [|lra]. destruct (Req_dec β 0) as [-> |]; [|lra]. lra. }
      rewrite Hdot in Hcs. clear -Hcs Huu2 Hx Hy H Hle Hα Hβ.
      assert ((α + β) * e_dist e <= (α + β) * δ) by (apply Rmult_le_compat_l; lra).
      assert (α * dot2 u (sp_v x) <= α * e_dist e) by (apply Rmult_le_compat_l; lra).
      assert (β * dot2 u (sp_v y) <= β * e_dist e) by (apply Rmult_le_compat_l; lra).
      destruct (Req_dec α 0) as [-> |].
      + assert (β * dot2 u (sp_v y) < β * e_dist e) by (apply Rmult_lt_compat_l; lra). lra.
      + assert (α * dot2 u (sp_v x) < α * e_dist e) by (apply Rmult_lt_compat_l; lra). lra.
    - exists i, a, b. split; [done|]. split; [by rewrite Heq|]. split.
      + intros E. apply Hab. rewrite E. clear. rv0. ring.
      + rewrite Heq. cbn [e_normal e_dist]. done.
  Qed.

  (** The contact point: on the first shape, at [depth] along the normal from the second. *)
  Lemma epa_point2_spec l e i a b :
    Forall wit l -> convex2 A -> convex2 B -> Ed l i a b -> e_index e = nxt l i -> (3 <= length l)%nat ->
    dot2 (e_normal e) (sp_v a) = e_dist e -> dot2 (e_normal e) (sp_v b) = e_dist e ->
    exists q y, epa_point2 l e = Ok q /\ A q /\ B y /\ dot2 (e_normal e) (sub2 q y) = e_dist e.
  Proof.
    intros Hw HcA HcB [Ea Eb] Hi Hl Ha Hb. unfold epa_point2. rewrite Hi. unfold get. rewrite Eb. cbn [mbind res_mbind res_bind].
    assert (Hprev : (if decide (nxt l i = 0%nat) then (length l - 1)%nat else (nxt l i - 1)%nat) = i).
    { pose proof (lookup_lt_Some _ _ _ Ea). unfold nxt. repeat case_decide; lia. }
    rewrite Hprev, Ea. cbn [mbind res_mbind res_bind]. cbv zeta.
    rewrite Forall_forall in Hw.
    destruct (Hw a) as [(Aa & Ba & Va) _]; [by eapply elem_of_list_lookup_2|].
    destruct (Hw b) as [(Ab & Bb & Vb) _]; [by eapply elem_of_list_lookup_2|].
    set (t := ndiv _ _). cbn [nlt n0 n1 Num_R]. clearbody t.
    destruct (Rltb t 0) eqn:E1; [exists (sp_a a), (sp_b a); by rewrite <- Va|].
    destruct (Rltb 1 t) eqn:E2; [exists (sp_a b), (sp_b b); by rewrite <- Vb|].
    apply Rltb_false in E1. apply Rltb_false in E2.
    exists (add2 (scale2 (sp_a a) (1 - t)) (scale2 (sp_a b) t)), (add2 (scale2 (sp_b a) (1 - t)) (scale2 (sp_b b) t)).
    split; [f_equal; clear; apply V2_eq; rv0; ring|]. split; [by apply HcA|]. split; [by apply HcB|].
    rewrite Va in Ha. rewrite Vb in Hb. set (n := e_normal e) in *. clearbody n.
    transitivity ((1 - t) * dot2 n (sub2 (sp_a a) (sp_b a)) + t * dot2 n (sub2 (sp_a b) (sp_b b))); [clear; rv0; ring|].
    rewrite Ha, Hb. ring.
  Qed.

  Lemma epa2_run_spec n c b a :
    wit c -> wit b -> wit a -> hull2 [sp_v c; sp_v b; sp_v a] zero2 -> nondeg [c; b; a] ->
    convex2 A -> convex2 B ->
    exists ct done, epa2_run (mink2 supL supR) tol n [c; b; a] = Ok (Some (ct, done)) /\
      c_strategy ct = FullResolution /\ c_toi ct = 0 /\
      dot2 (c_normal ct) (c_normal ct) = 1 /\ 0 < c_depth ct /\
      (forall u, dot2 u u = 1 -> exists v, mdiff2 A B v /\ c_depth ct <= dot2 u v) /\
      (done = true -> forall v, mdiff2 A B v -> dot2 (c_normal ct) v < c_depth ct + tol) /\
      A (c_point ct) /\ (exists y, B y /\ dot2 (c_normal ct) (sub2 (c_point ct) y) = c_depth ct) /\
      (forall vL vR, vertices2 A supL vL -> vertices2 B supR vR -> (length vL * length vR < n)%nat -> done = true).
  Proof.
    intros Hc Hb Ha Hh Hnd HcA HcB. pose proof (ring_triangle c b a Hc Hb Ha Hh Hnd) as Hr.
    unfold epa2_run. destruct (closest_edge_spec [c; b; a] (proj1 Hr)) as (e & i & Ee & _). rewrite Ee. cbn [mbind res_mbind res_bind].
    destruct (epa2_loop_spec n _ _ Hr Hnd Ee) as (l' & e' & dn & added & E1 & R1 & R2 & R3 & Hperm & Hadd & R4 & R5).
    rewrite E1. cbn [mbind res_mbind res_bind].
    destruct (ring_edge l' e' R1 R2 R3) as (N1 & N2 & N3 & j & x & y & Ej & Hj & Hxy & Hx & Hy).
    destruct (epa_point2_spec l' e' j x y) as (q & z & Eq & Aq & Bz & Hz); try done; [apply R1|apply R1|].
    rewrite Eq. cbn [mbind res_mbind res_bind]. eexists _, dn. split; [done|]. cbn [c_strategy c_toi c_normal c_depth c_point].
    repeat (split; [done|]).
    split. { intros u Hu. destruct (N3 u Hu) as (w & Hw & Hle). exists (sp_v w). split; [|done].
      destruct R1 as (_ & Hwit & _). rewrite Forall_forall in Hwit. by apply wit_mdiff, Hwit. }
    split; [done|]. split; [done|]. split; [by exists z|].
    intros vL vR HvL HvR Hn. destruct dn; [done|]. exfalso. specialize (R5 eq_refl).
    destruct R1 as (_ & _ & _ & _ & _ & Hnodup).
    assert (Hnd' : NoDup (sp_v <$> added)).
    { rewrite Hperm, fmap_app in Hnodup. by apply NoDup_app in Hnodup as [? _]. }
    assert (Hsub : (sp_v <$> added) ⊆ diffs vL vR).
    { intros v (s & -> & Hs)%elem_of_list_fmap. rewrite Forall_forall in Hadd. destruct (Hadd s Hs) as (d & Hd & Es).
      by eapply (mink2_diffs A B supL supR HA HB vL vR HvL HvR). }
    assert (Hlen : (length (sp_v <$> added) <= length (diffs vL vR))%nat).
    { apply submseteq_length. by apply NoDup_submseteq. }
    rewrite fmap_length, diffs_length, R5 in Hlen. lia.
  Qed.
End epa2.
