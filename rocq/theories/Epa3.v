(** The expanding polytope (EPA in space), over the reals: it stays a closed convex surface
    around the origin. *)
From Coq Require Import Psatz.
From stdpp Require Import prelude.
From Coq Require Import Reals Lra.
From Verif Require Import Res Num Vec AabbModel GeoModel RealGeo PrimModel ShapeSpec MinkModel MinkSpec Gjk3 PropsSupport PropsGjk3 Dist Epa3Chain Epa3Cover.
Local Open Scope R_scope.

Definition pt (vs : list (SupPt P3)) (i : nat) : P3 := match vs !! i with Some s => sp_v s | None => zero3 end.
Definition tn (a b c : P3) : P3 := cross3 (sub3 b a) (sub3 c a).
Definition tnormal (vs : list (SupPt P3)) (t : nat * nat * nat) : P3 := let '(a, b, c) := t in tn (pt vs a) (pt vs b) (pt vs c).
Definition height (vs : list (SupPt P3)) (t : nat * nat * nat) (x : P3) : R := dot3 (tnormal vs t) (sub3 x (pt vs t.1.1)).
Definition inside_list (vs : list (SupPt P3)) (t : nat * nat * nat) : Prop :=
  let '(a, b, c) := t in (a < length vs)%nat /\ (b < length vs)%nat /\ (c < length vs)%nat.
Definition fok (vs : list (SupPt P3)) (f : Face3 (S:=R)) : Prop :=
  inside_list vs (f_vs f) /\ tnormal vs (f_vs f) <> zero3 /\ f_normal f = normalize3 (tnormal vs (f_vs f)) /\
  f_dist f = dot3 (f_normal f) (pt vs (f_vs f).1.1).

Lemma pt_app vs l i : (i < length vs)%nat -> pt (vs ++ l) i = pt vs i.
Proof. intros Hi. unfold pt. by rewrite lookup_app_l. Qed.
Lemma pt_last vs s : pt (vs ++ [s]) (length vs) = sp_v s.
Proof. unfold pt. by rewrite list_lookup_middle. Qed.
Lemma pt_some vs i : (i < length vs)%nat -> exists s, vs !! i = Some s /\ s ∈ vs /\ pt vs i = sp_v s.
Proof. intros [s Hs]%lookup_lt_is_Some. exists s. split; [done|]. split; [by eapply elem_of_list_lookup_2|]. unfold pt. by rewrite Hs. Qed.
Lemma tnormal_app vs l t : inside_list vs t -> tnormal (vs ++ l) t = tnormal vs t.
Proof. destruct t as [[a b] c]. intros (? & ? & ?). cbn [tnormal]. by rewrite !pt_app. Qed.
Lemma height_app vs l t x : inside_list vs t -> height (vs ++ l) t x = height vs t x.
Proof. intros Ht. unfold height. rewrite tnormal_app by done. destruct t as [[a b] c]. cbn [fst]. rewrite pt_app; [done|apply Ht]. Qed.
Lemma fok_app vs l f : fok vs f -> fok (vs ++ l) f.
Proof.
  intros (H1 & H2 & H3 & H4). unfold fok. rewrite tnormal_app by done. split; [|split; [done|split; [done|]]].
  - destruct (f_vs f) as [[a b] c]. destruct H1 as (? & ? & ?). unfold inside_list. rewrite app_length. lia.
  - rewrite H4. destruct (f_vs f) as [[a b] c]. cbn [fst]. rewrite pt_app; [done|apply H1].
Qed.
Lemma normalize3_eq (v : P3) : normalize3 v = scale3 v (1 / mag3 v).
Proof. done. Qed.
Lemma dot3_scale_l (v x : P3) k : dot3 (scale3 v k) x = k * dot3 v x.
Proof. rv0. ring. Qed.
Lemma unit_normal v : v <> zero3 -> dot3 (normalize3 v) (normalize3 v) = 1 /\ 0 < mag3 v /\ forall x, mag3 v * dot3 (normalize3 v) x = dot3 v x.
Proof.
  intros Hv. pose proof (mag3_pos v Hv) as Hm. pose proof (mag3_sqr v) as Hs. rewrite normalize3_eq. split; [|split; [done|]].
  - rewrite dot3_scale_l, dot3_comm, dot3_scale_l, <- Hs. field. lra.
  - intros x. rewrite dot3_scale_l. field. lra.
Qed.
Lemma fok_height vs f x : fok vs f -> exists m, 0 < m /\ height vs (f_vs f) x = m * (dot3 (f_normal f) x - f_dist f) /\
   dot3 (f_normal f) (sub3 x (pt vs (f_vs f).1.1)) = dot3 (f_normal f) x - f_dist f.
Proof.
  intros (H1 & H2 & H3 & H4). destruct (unit_normal _ H2) as (_ & Hm & Hx). exists (mag3 (tnormal vs (f_vs f))). split; [done|].
  assert (E : dot3 (f_normal f) (sub3 x (pt vs (f_vs f).1.1)) = dot3 (f_normal f) x - f_dist f) by (rewrite H4; clear; rv0; ring).
  split; [|done]. rewrite <- E. unfold height. by rewrite <- Hx, <- H3.
Qed.
(** A face seen from one of its sides. *)
Lemma side_face vs t x y : (x, y) ∈ sides t -> exists z, (z = t.1.1 \/ z = t.1.2 \/ z = t.2) /\
  tnormal vs t = tn (pt vs x) (pt vs y) (pt vs z) /\
  (forall q, height vs t q = dot3 (tnormal vs t) (sub3 q (pt vs x))) /\ (forall q, height vs t q = dot3 (tnormal vs t) (sub3 q (pt vs y))).
Proof.
  destruct t as [[a b] c]. cbn [sides fst snd]. rewrite !elem_of_cons, elem_of_nil. unfold height. cbn [fst tnormal]. unfold tn.
  intros [[= -> ->]|[[= -> ->]|[[= -> ->]|[]]]].
  - exists c. split; [tauto|]. split; [done|]. split; [done|]. intros q. rv0. ring.
  - exists a. split; [tauto|]. split; [apply V3_eq; rv0; ring|]. split; intros q; rv0; ring.
  - exists b. split; [tauto|]. split; [apply V3_eq; rv0; ring|]. split; intros q; rv0; ring.
Qed.
Lemma inside_side vs t x y : inside_list vs t -> (x, y) ∈ sides t -> (x < length vs)%nat /\ (y < length vs)%nat.
Proof.
  destruct t as [[a b] c]. intros (? & ? & ?). cbn [sides]. rewrite !elem_of_cons, elem_of_nil. intros [[= -> ->]|[[= -> ->]|[[= -> ->]|[]]]]; lia.
Qed.
Lemma tnormal_proper vs t : tnormal vs t <> zero3 -> proper t.
Proof.
  destruct t as [[a b] c]. cbn [tnormal proper]. intros Hn. unfold tn in Hn.
  split; [|split]; intros ->; apply Hn; apply V3_eq; rv0; ring.
Qed.
(** The face from a side of a visible face, shared with a hidden one, to the new point. *)
Lemma horizon (a b c1 c2 p : P3) :
  scale3 (tn p a b) (- dot3 (tn a b c1) (sub3 c2 a)) =
  add3 (scale3 (tn a b c1) (- dot3 (tn b a c2) (sub3 p b))) (scale3 (tn b a c2) (dot3 (tn a b c1) (sub3 p a))).
Proof. unfold tn. apply V3_eq; rv0; ring. Qed.

Lemma hull3_mono (vs vs' : list P3) x : (forall v, v ∈ vs -> v ∈ vs') -> hull3 vs x -> hull3 vs' x.
Proof. intros Hs Hx. induction Hx; [apply hull3_vertex; auto|by apply hull3_mix]. Qed.
Lemma mapM_res_ok {X Y} (f : X -> res Y) (g : X -> Y) l : (forall x, x ∈ l -> f x = Ok (g x)) -> mapM_res f l = Ok (map g l).
Proof.
  induction l as [|x l IH]; intros Hl; [done|]. cbn [mapM_res map]. rewrite Hl by by left. cbn [mbind res_mbind res_bind].
  rewrite IH by (intros; apply Hl; by right). done.
Qed.
Definition mkface (vs : list (SupPt P3)) (t : nat * nat * nat) : Face3 (S:=R) :=
  mkFace t (normalize3 (tnormal vs t)) (dot3 (normalize3 (tnormal vs t)) (pt vs t.1.1)).
Lemma face_new_ok vs a b c : inside_list vs (a, b, c) -> face_new vs a b c = Ok (mkface vs (a, b, c)).
Proof.
  intros (Ha & Hb & Hc). destruct (pt_some vs a Ha) as (sa & Ea & _ & Pa). destruct (pt_some vs b Hb) as (sb & Eb & _ & Pb).
  destruct (pt_some vs c Hc) as (sc & Ec & _ & Pc). unfold face_new. rewrite !(get_Some _ _ _ Ea), !(get_Some _ _ _ Eb), !(get_Some _ _ _ Ec).
  cbn [mbind res_mbind res_bind]. unfold mkface. cbn [tnormal fst]. by rewrite Pa, Pb, Pc.
Qed.
Lemma mkface_ok vs t : inside_list vs t -> tnormal vs t <> zero3 -> fok vs (mkface vs t).
Proof. intros. by unfold fok. Qed.

Section epa3.
  Context (A B : P3 -> Prop) (supL supR : P3 -> res P3) (HA : supports3 A supL) (HB : supports3 B supR)
    (HcA : convex3 A) (HcB : convex3 B) (tol : R) (Htol : 0 < tol).
  Notation wit := (witness3 A B).

  Definition flat_free (vs : list (SupPt P3)) : Prop :=
    forall m, m <> zero3 -> exists s s', s ∈ vs /\ s' ∈ vs /\ dot3 m (sp_v s) <> dot3 m (sp_v s').
  Definition convex_at (vs : list (SupPt P3)) (f : Face3 (S:=R)) : Prop := forall s, s ∈ vs -> height vs (f_vs f) (sp_v s) <= 0.
  Record inv (vs : list (SupPt P3)) (fs : list (Face3 (S:=R))) : Prop := {
    i_wit : Forall wit vs; i_ne : fs <> []; i_ok : Forall (fok vs) fs; i_bal : balanced (map f_vs fs);
    i_conv : Forall (convex_at vs) fs; i_flat : flat_free vs; i_hull : hull3 (sp_v <$> vs) zero3 }.

  (** Not all faces see the new point. *)
  Lemma not_all_visible vs fs p : inv vs fs -> Forall (fun f => 0 < height vs (f_vs f) p) fs -> False.
  Proof.
    intros Hi Hvis. destruct Hi as [_ Hne Hok Hbal Hconv Hflat _].
    assert (Hx : exists s, s ∈ vs).
    { destruct (Hflat (mk3 1 0 0)) as (s & _ & Hs & _); [intros [=]; lra|]. by exists s. }
    destruct Hx as [s Hs]. set (q := sub3 p (sp_v s)).
    set (g := fun e : edge => dot3 (cross3 (pt vs e.1) (pt vs e.2)) q).
    assert (Hz : esum g (dirs (map f_vs fs)) = 0).
    { apply esum_balanced; [|done]. intros e. unfold g, rev_e. cbn [fst snd]. generalize (pt vs e.1), (pt vs e.2), q. intros. rv0. ring. }
    assert (Hpos : 0 <= esum g (dirs (map f_vs fs)) /\ (fs <> [] -> 0 < esum g (dirs (map f_vs fs)))).
    { clear Hz Hne Hbal Hflat. induction fs as [|f fs IH]; [split; [cbn; lra|done]|].
      apply Forall_cons in Hvis as [V1 V2]. apply Forall_cons in Hok as [O1 O2]. apply Forall_cons in Hconv as [C1 C2].
      destruct (IH O2 C2 V2) as [IH1 _]. cbn [map]. rewrite dirs_cons, esum_app.
      assert (Hf : 0 < esum g (sides (f_vs f))).
      { specialize (C1 s Hs). unfold height in *. destruct (f_vs f) as [[a b] c]. cbn [tnormal sides esum fst snd] in *.
        unfold g, tn in *. cbn [fst snd] in *. subst q. revert V1 C1.
        generalize (pt vs a), (pt vs b), (pt vs c), (sp_v s). intros x y z w V1 C1.
        assert (E : dot3 (cross3 x y) (sub3 p w) + (dot3 (cross3 y z) (sub3 p w) + (dot3 (cross3 z x) (sub3 p w) + 0)) =
          dot3 (cross3 (sub3 y x) (sub3 z x)) (sub3 p x) - dot3 (cross3 (sub3 y x) (sub3 z x)) (sub3 w x)) by (clear; rv0; ring).
        rewrite E. lra. }
      split; [lra|intros _; lra]. }
    destruct Hpos as [_ Hpos]. specialize (Hpos Hne). lra.
  Qed.

  Lemma poly_add_inv vs fs p :
    inv vs fs -> wit p -> (exists f, f ∈ fs /\ 0 < height vs (f_vs f) (sp_v p)) ->
    exists fs', poly_add vs fs p = Ok (vs ++ [p], fs') /\ inv (vs ++ [p]) fs'.
  Proof.
    intros Hinv Hp _. pose proof Hinv as [Hwit Hne Hok Hbal Hconv Hflat Hhull].
    unfold poly_add.
    destruct (remove_visible_spec vs (sp_v p) (length fs) 0 fs (@nil (nat * nat)) []) as (keep & rm & es & Erm & Hperm & Hblind & Hsees & Hone & Hnet & Hdeg & Hsub).
    - lia.
    - apply Forall_forall. intros f Hf. rewrite Forall_forall in Hok. destruct (Hok f Hf) as (O1 & O2 & _). split; [|by eapply tnormal_proper].
      destruct (f_vs f) as [[a b] c]. cbn [fst]. apply lookup_lt_is_Some. apply O1.
    - constructor.
    - intros e He. by apply elem_of_nil in He.
    - done.
    - done.
    - intros e He. by apply elem_of_nil in He.
    - rewrite Erm. cbn [mbind res_mbind res_bind]. cbn [app] in Hnet, Hsub.
      rewrite Forall_forall in Hok, Hconv, Hblind, Hsees.
      assert (Hin : forall f, f ∈ fs <-> f ∈ keep \/ f ∈ rm) by (intros f; rewrite Hperm, elem_of_app; done).
      assert (Hpt : forall (f : Face3 (S:=R)) s, vs !! (f_vs f).1.1 = Some s -> pt vs (f_vs f).1.1 = sp_v s) by (intros f s E; unfold pt; by rewrite E).
      (* kept faces do not see the point, removed faces do *)
      assert (Hkeep : forall f, f ∈ keep -> height vs (f_vs f) (sp_v p) <= 0).
      { intros f Hf. destruct (Hblind f Hf) as (s & Es & Hs). rewrite <- (Hpt f s Es) in Hs.
        destruct (fok_height vs f (sp_v p)) as (m & Hm & E1 & E2); [apply Hok, Hin; by left|]. rewrite E2 in Hs. rewrite E1. nra. }
      assert (Hrm : forall f, f ∈ rm -> 0 < height vs (f_vs f) (sp_v p)).
      { intros f Hf. destruct (Hsees f Hf) as (s & Es & Hs). rewrite <- (Hpt f s Es) in Hs.
        destruct (fok_height vs f (sp_v p)) as (m & Hm & E1 & E2); [apply Hok, Hin; by right|]. rewrite E2 in Hs. rewrite E1. nra. }
      set (n := length vs). set (vs' := vs ++ [p]).
      assert (Hlen' : length vs' = (n + 1)%nat) by (unfold vs'; rewrite app_length; done).
      assert (Hperm' : map f_vs fs ≡ₚ map f_vs keep ++ map f_vs rm) by (rewrite <- map_app; by apply Permutation_map).
      (* each left-over side has a removed face on one side and a kept one on the other *)
      assert (Hes : forall x y, (x, y) ∈ es -> (x < n)%nat /\ (y < n)%nat /\
        exists f1 f2, f1 ∈ rm /\ f2 ∈ keep /\ (x, y) ∈ sides (f_vs f1) /\ (y, x) ∈ sides (f_vs f2)).
      { intros x y Hxy. pose proof (Hsub _ Hxy) as Hs1. pose proof (left_over _ _ _ _ _ Hperm' Hbal Hnet Hone Hxy) as Hs2.
        apply dirs_elem in Hs1 as (t1 & Ht1 & Hs1). apply dirs_elem in Hs2 as (t2 & Ht2 & Hs2).
        apply elem_of_list_fmap in Ht1 as (f1 & -> & Hf1). apply elem_of_list_fmap in Ht2 as (f2 & -> & Hf2).
        destruct (inside_side vs (f_vs f1) x y) as [Hx Hy]; [apply Hok, Hin; by right|done|].
        split; [done|]. split; [done|]. exists f1, f2. done. }
      assert (Hnew : forall x y, (x, y) ∈ es -> inside_list vs' (n, x, y) /\ tnormal vs' (n, x, y) <> zero3 /\
        forall s, s ∈ vs' -> height vs' (n, x, y) (sp_v s) <= 0).
      { intros x y Hxy. destruct (Hes x y Hxy) as (Hx & Hy & f1 & f2 & Hf1 & Hf2 & S1 & S2).
        split; [unfold inside_list; lia|].
        destruct (side_face vs _ _ _ S1) as (z1 & Z1 & N1 & H1x & H1y). destruct (side_face vs _ _ _ S2) as (z2 & Z2 & N2 & H2y & H2x).
        pose proof (Hrm f1 Hf1) as V1. pose proof (Hkeep f2 Hf2) as V2.
        assert (O1 : fok vs f1) by (apply Hok, Hin; by right). assert (O2 : fok vs f2) by (apply Hok, Hin; by left).
        pose proof (Hconv f1 (proj2 (Hin f1) (or_intror Hf1))) as C1. pose proof (Hconv f2 (proj2 (Hin f2) (or_introl Hf2))) as C2.
        assert (Hz2 : exists s2, s2 ∈ vs /\ pt vs z2 = sp_v s2).
        { destruct O2 as (I2 & _). destruct (f_vs f2) as [[a2 b2] c2]. destruct I2 as (Ia & Ib & Ic). cbn [fst snd] in Z2.
          assert (Hz2 : (z2 < length vs)%nat) by (destruct Z2 as [->|[->| ->]]; done). destruct (pt_some vs z2 Hz2) as (s2 & _ & ? & ?). eauto. }
        destruct Hz2 as (s2 & Hs2 & Es2).
        pose proof (horizon (pt vs x) (pt vs y) (pt vs z1) (pt vs z2) (sp_v p)) as Hh. rewrite <- N1, <- N2 in Hh.
        rewrite <- H1x, <- H1x, <- H2y, Es2 in Hh.
        set (α := height vs (f_vs f1) (sp_v p)) in *. set (β := - height vs (f_vs f2) (sp_v p)) in *.
        set (k := height vs (f_vs f1) (sp_v s2)) in *. assert (Hk : k <= 0) by by apply C1. assert (Hβ : 0 <= β) by (unfold β; lra).
        assert (Et : tnormal vs' (n, x, y) = tn (sp_v p) (pt vs x) (pt vs y)).
        { cbn [tnormal]. unfold vs', n. by rewrite pt_last, !pt_app. }
        (* the combination of the two normals is not zero *)
        assert (Hcomb : add3 (scale3 (tnormal vs (f_vs f1)) β) (scale3 (tnormal vs (f_vs f2)) α) <> zero3).
        { intros Ez. destruct (Hflat (tnormal vs (f_vs f2))) as (s & s' & Hs & Hs' & Hne'); [apply O2|].
          assert (Hflat2 : forall s, s ∈ vs -> height vs (f_vs f2) (sp_v s) = 0).
          { intros u Hu. pose proof (C1 u Hu) as U1. pose proof (C2 u Hu) as U2.
            assert (E : β * height vs (f_vs f1) (sp_v u) + α * height vs (f_vs f2) (sp_v u) = 0); [|nra].
            rewrite (H1x (sp_v u)), (H2x (sp_v u)).
            transitivity (dot3 (add3 (scale3 (tnormal vs (f_vs f1)) β) (scale3 (tnormal vs (f_vs f2)) α)) (sub3 (sp_v u) (pt vs x)));
              [generalize (tnormal vs (f_vs f1)), (tnormal vs (f_vs f2)), (sub3 (sp_v u) (pt vs x)); clear; intros; rv0; ring|].
            rewrite Ez. clear. rv0. ring. }
          pose proof (Hflat2 s Hs) as E1. pose proof (Hflat2 s' Hs') as E2. unfold height in E1, E2. apply Hne'.
          rewrite dot3_sub in E1, E2. lra. }
        assert (Hk' : k < 0).
        { destruct (Rlt_dec k 0); [done|]. assert (E0 : k = 0) by lra. exfalso. apply Hcomb. rewrite <- Hh, E0. clear. apply V3_eq; rv0; ring. }
        rewrite Et. split; [intros Ez; apply Hcomb; rewrite <- Hh, Ez; clear; apply V3_eq; rv0; ring|].
        intros s Hs. unfold height. rewrite Et. cbn [fst]. unfold vs' at 1, n at 1. rewrite pt_last.
        unfold vs' in Hs. apply elem_of_app in Hs as [Hs|Hs%elem_of_list_singleton]; [|subst s; clear; rv0; lra].
        assert (E : - k * dot3 (tn (sp_v p) (pt vs x) (pt vs y)) (sub3 (sp_v s) (sp_v p)) =
          β * height vs (f_vs f1) (sp_v s) + α * height vs (f_vs f2) (sp_v s)).
        { transitivity (dot3 (scale3 (tn (sp_v p) (pt vs x) (pt vs y)) (- k)) (sub3 (sp_v s) (pt vs x))).
          - unfold tn. generalize (sp_v p), (pt vs x), (pt vs y), (sp_v s), k. clear. intros. rv0. ring.
          - rewrite Hh, (H1x (sp_v s)), (H2x (sp_v s)). generalize (tnormal vs (f_vs f1)), (tnormal vs (f_vs f2)), (sub3 (sp_v s) (pt vs x)).
            clear. intros. rv0. ring. }
        pose proof (C1 s Hs). pose proof (C2 s Hs). apply (Rmult_le_reg_l (- k)); [lra|]. rewrite E, Rmult_0_r. nra. }
      rewrite (mapM_res_ok _ (fun e => mkface vs' (n, e.1, e.2))).
      2: { intros [x y] Hxy. cbn [fst snd]. apply face_new_ok. by apply Hnew. }
      cbn [mbind res_mbind res_bind]. eexists. split; [done|].
      assert (Hnewmap : map f_vs (map (fun e => mkface vs' (n, e.1, e.2)) es) = fan n es).
      { rewrite map_map. done. }
      assert (Hmem : forall f, f ∈ keep ++ map (fun e => mkface vs' (n, e.1, e.2)) es -> f ∈ keep \/ exists x y, (x, y) ∈ es /\ f = mkface vs' (n, x, y)).
      { intros f. rewrite elem_of_app. intros [?|Hf]; [by left|right]. apply elem_of_list_fmap in Hf as ([x y] & -> & Hxy). by exists x, y. }
      split.
      + apply Forall_app. split; [done|]. by apply Forall_singleton.
      + destruct keep as [|f keep']; [|done]. exfalso. apply (not_all_visible vs fs (sp_v p) Hinv).
        apply Forall_forall. intros f Hf. apply Hrm. apply Hin in Hf as [Hf|Hf]; [by apply elem_of_nil in Hf|done].
      + apply Forall_forall. intros f [Hf|(x & y & Hxy & ->)]%Hmem.
        * apply fok_app, Hok, Hin. by left.
        * apply mkface_ok; by apply Hnew.
      + rewrite map_app, Hnewmap. apply (fan_balanced (map f_vs fs) _ (map f_vs rm)); try done.
        intros [x y] (t & Ht & Hs)%dirs_elem. apply elem_of_list_fmap in Ht as (f & -> & Hf).
        destruct (inside_side vs (f_vs f) x y) as [Hx Hy]; [by apply Hok|done|]. cbn [fst snd]. unfold n. lia.
      + apply Forall_forall. intros f [Hf|(x & y & Hxy & ->)]%Hmem.
        * intros s Hs. assert (O : fok vs f) by (apply Hok, Hin; by left). unfold vs'. rewrite height_app by apply O.
          unfold vs' in Hs. apply elem_of_app in Hs as [Hs|Hs%elem_of_list_singleton]; [|subst s; by apply Hkeep].
          apply Hconv; [|done]. apply Hin. by left.
        * intros s Hs. by apply Hnew.
      + intros m Hm. destruct (Hflat m Hm) as (s & s' & ? & ? & ?). exists s, s'. unfold vs'. rewrite !elem_of_app. tauto.
      + eapply hull3_mono; [|done]. intros v Hv. unfold vs'. rewrite fmap_app, elem_of_app. by left.
  Qed.

  (** *** The closest face *)
  Lemma closest_face_spec (fs : list (Face3 (S:=R))) : fs <> [] ->
    exists f, closest_face fs = Ok f /\ f ∈ fs /\ forall g, g ∈ fs -> f_dist f <= f_dist g.
  Proof.
    destruct fs as [|f0 fs]; [done|]. intros _. cbn [closest_face]. eexists. split; [done|].
    assert (Hgen : forall (step : Face3 (S:=R) -> Face3 (S:=R) -> Face3 (S:=R)),
      (forall b f, (step b f = f /\ f_dist f < f_dist b) \/ (step b f = b /\ f_dist b <= f_dist f)) ->
      forall (l : list (Face3 (S:=R))) b, (foldl step b l = b \/ foldl step b l ∈ l) /\ f_dist (foldl step b l) <= f_dist b /\
        forall g, g ∈ l -> f_dist (foldl step b l) <= f_dist g).
    { intros step Hstep. induction l as [|x l IH]; intros b; cbn [foldl].
      - split; [by left|]. split; [lra|]. intros g Hg. by apply elem_of_nil in Hg.
      - destruct (Hstep b x) as [[-> E]|[-> E]].
        + destruct (IH x) as (H1 & H2 & H3). split; [right; destruct H1 as [-> |H1]; [by left|by right]|].
          split; [lra|]. intros g [-> |Hg]%elem_of_cons; [done|by apply H3].
        + destruct (IH b) as (H1 & H2 & H3). split; [destruct H1 as [-> |H1]; [by left|right; by right]|].
          split; [done|]. intros g [-> |Hg]%elem_of_cons; [lra|by apply H3]. }
    specialize (Hgen (fun best f : Face3 (S:=R) => if (f_dist f <? f_dist best)%N_ then f else best)).
    assert (Hstep : forall b f : Face3 (S:=R), ((if (f_dist f <? f_dist b)%N_ then f else b) = f /\ f_dist f < f_dist b) \/ ((if (f_dist f <? f_dist b)%N_ then f else b) = b /\ f_dist b <= f_dist f)).
    { intros b f. destruct (f_dist f <? f_dist b)%N_ eqn:E; cbn [nlt Num_R] in E; [left|right]; (split; [done|]).
      - by apply Rltb_true in E.
      - apply Rltb_false in E. lra. }
    specialize (Hgen Hstep).
    destruct (Hgen fs f0) as (H1 & H2 & H3). split.
    - destruct H1 as [-> |H1]; [by left|by right].
    - intros g [-> |Hg]%elem_of_cons; [done|by apply H3].
  Qed.
  Lemma fok_facts vs f a b c : fok vs f -> f_vs f = (a, b, c) ->
    dot3 (f_normal f) (f_normal f) = 1 /\ dot3 (f_normal f) (pt vs a) = f_dist f /\ dot3 (f_normal f) (pt vs b) = f_dist f /\
    dot3 (f_normal f) (pt vs c) = f_dist f /\ exists m, 0 < m /\ det3 (pt vs a) (pt vs b) (pt vs c) = m * f_dist f.
  Proof.
    intros Hf E. pose proof Hf as (_ & Hn & HN & HD). destruct (unit_normal _ Hn) as (U & Hm & HU). rewrite E in *. cbn [fst tnormal] in *. rewrite <- HN in *.
    set (N := f_normal f) in *. set (m := mag3 (tn (pt vs a) (pt vs b) (pt vs c))) in *. clearbody N.
    assert (Hb : m * dot3 N (sub3 (pt vs b) (pt vs a)) = 0) by (rewrite HU; unfold tn; clear; rv0; ring).
    assert (Hc : m * dot3 N (sub3 (pt vs c) (pt vs a)) = 0) by (rewrite HU; unfold tn; clear; rv0; ring).
    apply Rmult_integral in Hb as [Hb|Hb]; [lra|]. apply Rmult_integral in Hc as [Hc|Hc]; [lra|]. rewrite dot3_sub in Hb, Hc.
    split; [done|]. split; [done|]. split; [lra|]. split; [lra|]. exists m. split; [done|]. rewrite HD, HU. unfold det3, tn. clear. rv0. ring.
  Qed.
  Lemma inv_le vs fs f s : inv vs fs -> f ∈ fs -> s ∈ vs -> dot3 (f_normal f) (sp_v s) <= f_dist f.
  Proof.
    intros Hi Hf Hs. destruct Hi as [_ _ Hok _ Hconv _ _]. rewrite Forall_forall in Hok, Hconv.
    destruct (fok_height vs f (sp_v s) (Hok f Hf)) as (m & Hm & E & _). pose proof (Hconv f Hf s Hs) as Hc. rewrite E in Hc. nra.
  Qed.
  Lemma inv_dist vs fs f : inv vs fs -> f ∈ fs -> 0 <= f_dist f.
  Proof.
    intros Hi Hf. pose proof (i_hull _ _ Hi) as Hh. replace 0 with (dot3 (f_normal f) zero3) by (clear; unfold zero3; rv0; ring).
    eapply hull3_le; [done|]. intros v (s & -> & Hs)%elem_of_list_fmap. by eapply inv_le.
  Qed.

  (** Every direction meets the surface. *)
  Lemma inv_cover vs fs w : inv vs fs -> (forall f, f ∈ fs -> 0 < f_dist f) ->
    exists f s1 s2 s3 α β γ, f ∈ fs /\ s1 ∈ vs /\ s2 ∈ vs /\ s3 ∈ vs /\ 0 <= α /\ 0 <= β /\ 0 <= γ /\
      w = add3 (add3 (scale3 (sp_v s1) α) (scale3 (sp_v s2) β)) (scale3 (sp_v s3) γ) /\
      dot3 (f_normal f) (sp_v s1) = f_dist f /\ dot3 (f_normal f) (sp_v s2) = f_dist f /\ dot3 (f_normal f) (sp_v s3) = f_dist f.
  Proof.
    intros Hi Hpos. pose proof Hi as [_ Hne Hok Hbal _ _ _]. rewrite Forall_forall in Hok.
    set (tri := fun t : nat * nat * nat => (pt vs t.1.1, pt vs t.1.2, pt vs t.2)).
    set (F := (fun f => tri (f_vs f)) <$> fs).
    assert (Hps : forall t X Y, (X, Y) ∈ psides (tri t) -> exists x y, (x, y) ∈ sides t /\ X = pt vs x /\ Y = pt vs y).
    { intros [[a b] c] X Y. unfold tri. cbn [psides sides fst snd]. rewrite !elem_of_cons, elem_of_nil. setoid_rewrite elem_of_cons. setoid_rewrite elem_of_cons. setoid_rewrite elem_of_cons.
      intros [[= -> ->]|[[= -> ->]|[[= -> ->]|[]]]]; eexists _, _; (split; [|split; reflexivity]); tauto. }
    assert (Hps' : forall t x y, (x, y) ∈ sides t -> (pt vs x, pt vs y) ∈ psides (tri t)).
    { intros [[a b] c] x y. unfold tri. cbn [psides sides fst snd]. rewrite !elem_of_cons, !elem_of_nil.
      intros [[= -> ->]|[[= -> ->]|[[= -> ->]|[]]]]; tauto. }
    destruct (surface_covers F) with (w := w) as (t & Ht & Hcone).
    - unfold F. destruct fs; [done|]. done.
    - intros t X Y Ht HXY. unfold F in Ht. apply elem_of_list_fmap in Ht as (f & -> & Hf). apply Hps in HXY as (x & y & Hxy & -> & ->).
      destruct (proj1 (dirs_elem (y, x) (map f_vs fs))) as (t' & Ht' & Hs').
      { apply (balanced_opposite _ (x, y)); [done|]. apply dirs_elem. exists (f_vs f). split; [by apply elem_of_list_fmap_1|done]. }
      apply elem_of_list_fmap in Ht' as (g & -> & Hg). exists (tri (f_vs g)). split; [|by apply Hps'].
      unfold F. by apply (elem_of_list_fmap_1 (fun f => tri (f_vs f))).
    - intros t Ht. unfold F in Ht. apply elem_of_list_fmap in Ht as (f & -> & Hf). destruct (f_vs f) as [[a b] c] eqn:E.
      destruct (fok_facts vs f a b c (Hok f Hf) E) as (_ & _ & _ & _ & m & Hm & Ed). unfold tri. cbn [tdet fst snd]. rewrite Ed.
      apply Rmult_lt_0_compat; [done|by apply Hpos].
    - unfold F in Ht. apply elem_of_list_fmap in Ht as (f & -> & Hf). destruct (f_vs f) as [[a b] c] eqn:E.
      destruct (fok_facts vs f a b c (Hok f Hf) E) as (_ & Na & Nb & Nc & m & Hm & Ed).
      destruct (Hok f Hf) as (HI & _). rewrite E in HI. destruct HI as (Ia & Ib & Ic).
      destruct (pt_some vs a Ia) as (s1 & _ & Hs1 & E1). destruct (pt_some vs b Ib) as (s2 & _ & Hs2 & E2). destruct (pt_some vs c Ic) as (s3 & _ & Hs3 & E3).
      unfold tri in Hcone. cbn [fst snd] in Hcone. rewrite E1, E2, E3 in *. pose proof (Hpos f Hf) as Hd.
      assert (Hdet : 0 < det3 (sp_v s1) (sp_v s2) (sp_v s3)) by (rewrite Ed; by apply Rmult_lt_0_compat).
      pose proof (cramer (sp_v s1) (sp_v s2) (sp_v s3) w) as Hcr. set (D := det3 (sp_v s1) (sp_v s2) (sp_v s3)) in *.
      exists f, s1, s2, s3, (det3 (sp_v s2) (sp_v s3) w / D), (det3 (sp_v s3) (sp_v s1) w / D), (det3 (sp_v s1) (sp_v s2) w / D).
      assert (Hdiv : forall x, 0 <= x -> 0 <= x / D) by (intros x Hx; apply Rmult_le_pos; [done|]; left; by apply Rinv_0_lt_compat).
      repeat (split; [done|]). split; [apply Hdiv, Hcone; cbn [psides]; rewrite !elem_of_cons; tauto|].
      split; [apply Hdiv, Hcone; cbn [psides]; rewrite !elem_of_cons; tauto|]. split; [apply Hdiv, Hcone; cbn [psides]; rewrite !elem_of_cons; tauto|].
      split; [|done]. clearbody D. transitivity (scale3 (scale3 w D) (1 / D)); [clear -Hdet; apply V3_eq; rv0; field; lra|]. rewrite Hcr.
      clear -Hdet. generalize (det3 (sp_v s2) (sp_v s3) w), (det3 (sp_v s3) (sp_v s1) w), (det3 (sp_v s1) (sp_v s2) w). intros. apply V3_eq; rv0; field; lra.
  Qed.
  Lemma unit_dot (u v : P3) : dot3 u u = 1 -> dot3 v v = 1 -> dot3 u v <= 1.
  Proof.
    intros Hu Hv. pose proof (Rle_0_sqr (vx u - vx v)). pose proof (Rle_0_sqr (vy u - vy v)). pose proof (Rle_0_sqr (vz u - vz v)). unfold Rsqr in *. rv0. lra.
  Qed.
  (** No direction undercuts the closest face ... *)
  Lemma inv_reach vs fs f u : inv vs fs -> f ∈ fs -> (forall g, g ∈ fs -> f_dist f <= f_dist g) -> dot3 u u = 1 ->
    exists v, mdiff3 A B v /\ f_dist f <= dot3 u v.
  Proof.
    intros Hi Hf Hmin Hu. destruct (Rle_lt_dec (f_dist f) 0) as [Hz|Hz].
    { exists zero3. split; [eapply (hull3_witness A B vs); try done; apply Hi|]. replace (dot3 u zero3) with 0 by (clear; unfold zero3; rv0; ring). done. }
    destruct (inv_cover vs fs u Hi) as (g & s1 & s2 & s3 & α & β & γ & Hg & Hs1 & Hs2 & Hs3 & Hα & Hβ & Hγ & Eu & N1 & N2 & N3).
    { intros g Hg. specialize (Hmin g Hg). lra. }
    pose proof (Hmin g Hg) as Hle. pose proof (i_wit _ _ Hi) as Hw. rewrite Forall_forall in Hw.
    pose proof (i_ok _ _ Hi) as Hok. rewrite Forall_forall in Hok. destruct (f_vs g) as [[a b] c] eqn:E.
    destruct (fok_facts vs g a b c (Hok g Hg) E) as (U & _).
    pose proof (unit_dot _ _ U Hu) as H1.
    assert (H2 : dot3 (f_normal g) u = (α + β + γ) * f_dist g).
    { rewrite Eu. transitivity (α * dot3 (f_normal g) (sp_v s1) + β * dot3 (f_normal g) (sp_v s2) + γ * dot3 (f_normal g) (sp_v s3)); [clear; rv0; ring|].
      rewrite N1, N2, N3. ring. }
    assert (H3 : α * dot3 u (sp_v s1) + β * dot3 u (sp_v s2) + γ * dot3 u (sp_v s3) = 1).
    { rewrite <- Hu. rewrite Eu at 5. clear. rv0. ring. }
    destruct (Rle_lt_dec (f_dist f) (dot3 u (sp_v s1))); [exists (sp_v s1); split; [by apply witness3_mdiff, Hw|done]|].
    destruct (Rle_lt_dec (f_dist f) (dot3 u (sp_v s2))); [exists (sp_v s2); split; [by apply witness3_mdiff, Hw|done]|].
    destruct (Rle_lt_dec (f_dist f) (dot3 u (sp_v s3))); [exists (sp_v s3); split; [by apply witness3_mdiff, Hw|done]|].
    exfalso. revert H3 r r0 r1. generalize (dot3 u (sp_v s1)), (dot3 u (sp_v s2)), (dot3 u (sp_v s3)). intros x y z H3 Hx Hy Hzz.
    rewrite H2 in H1. set (δ := f_dist f) in *. clearbody δ.
    assert ((α + β + γ) * δ <= (α + β + γ) * f_dist g) by (apply Rmult_le_compat_l; lra).
    assert (α * x <= α * δ) by (apply Rmult_le_compat_l; lra). assert (β * y <= β * δ) by (apply Rmult_le_compat_l; lra).
    assert (γ * z <= γ * δ) by (apply Rmult_le_compat_l; lra).
    destruct (Req_dec α 0) as [-> |Ha]; [|assert (α * x < α * δ) by (apply Rmult_lt_compat_l; lra); lra].
    destruct (Req_dec β 0) as [-> |Hb]; [|assert (β * y < β * δ) by (apply Rmult_lt_compat_l; lra); lra].
    destruct (Req_dec γ 0) as [-> |Hc]; [|assert (γ * z < γ * δ) by (apply Rmult_lt_compat_l; lra); lra]. lra.
  Qed.
  (** ... and the foot of the perpendicular on it is a difference of points. *)
  Lemma inv_foot vs fs f : inv vs fs -> f ∈ fs -> (forall g, g ∈ fs -> f_dist f <= f_dist g) ->
    mdiff3 A B (scale3 (f_normal f) (f_dist f)).
  Proof.
    intros Hi Hf Hmin. apply (hull3_witness A B vs); [done|done|apply Hi|]. pose proof (inv_dist vs fs f Hi Hf) as Hd0.
    destruct (Req_dec (f_dist f) 0) as [Hz|Hz].
    { rewrite Hz. replace (scale3 (f_normal f) 0) with (zero3 : P3) by (clear; apply V3_eq; unfold zero3; rv0; ring). apply Hi. }
    pose proof (i_ok _ _ Hi) as Hok. rewrite Forall_forall in Hok.
    assert (U : dot3 (f_normal f) (f_normal f) = 1).
    { destruct (f_vs f) as [[a b] c] eqn:E. by destruct (fok_facts vs f a b c (Hok f Hf) E) as (U & _). }
    destruct (inv_cover vs fs (f_normal f) Hi) as (g & s1 & s2 & s3 & α & β & γ & Hg & Hs1 & Hs2 & Hs3 & Hα & Hβ & Hγ & Eu & N1 & N2 & N3).
    { intros g Hg. specialize (Hmin g Hg). lra. }
    assert (Ug : dot3 (f_normal g) (f_normal g) = 1).
    { destruct (f_vs g) as [[a b] c] eqn:E. by destruct (fok_facts vs g a b c (Hok g Hg) E) as (Ug & _). }
    pose proof (Hmin g Hg) as Hle. pose proof (unit_dot _ _ Ug U) as H1.
    assert (H2 : dot3 (f_normal g) (f_normal f) = (α + β + γ) * f_dist g).
    { rewrite Eu. transitivity (α * dot3 (f_normal g) (sp_v s1) + β * dot3 (f_normal g) (sp_v s2) + γ * dot3 (f_normal g) (sp_v s3)); [clear; rv0; ring|].
      rewrite N1, N2, N3. ring. }
    pose proof (inv_le vs fs f s1 Hi Hf Hs1) as L1. pose proof (inv_le vs fs f s2 Hi Hf Hs2) as L2. pose proof (inv_le vs fs f s3 Hi Hf Hs3) as L3.
    set (n := f_normal f) in *. set (δ := f_dist f) in *.
    assert (H3 : α * dot3 n (sp_v s1) + β * dot3 n (sp_v s2) + γ * dot3 n (sp_v s3) = 1).
    { rewrite <- U. rewrite Eu at 5. clear. generalize n. intros. rv0. ring. }
    clearbody n δ. rewrite H2 in H1.
    assert (α * dot3 n (sp_v s1) <= α * δ) by (apply Rmult_le_compat_l; lra). assert (β * dot3 n (sp_v s2) <= β * δ) by (apply Rmult_le_compat_l; lra).
    assert (γ * dot3 n (sp_v s3) <= γ * δ) by (apply Rmult_le_compat_l; lra).
    assert ((α + β + γ) * δ <= (α + β + γ) * f_dist g) by (apply Rmult_le_compat_l; lra).
    assert (Hsum : (α + β + γ) * δ = 1) by lra.
    rewrite Eu. replace (scale3 _ δ) with (add3 (add3 (scale3 (sp_v s1) (α * δ)) (scale3 (sp_v s2) (β * δ))) (scale3 (sp_v s3) (γ * δ)))
      by (clear; apply V3_eq; rv0; ring).
    apply hull3_three; try (by apply elem_of_list_fmap_1); try (apply Rmult_le_pos; lra). lra.
  Qed.

  (** *** The contact point *)
  Lemma epa_point3_spec vs fs f : inv vs fs -> f ∈ fs ->
    exists s1 s2 s3 u v w, s1 ∈ vs /\ s2 ∈ vs /\ s3 ∈ vs /\ u + v + w = 1 /\
      epa_point3 vs f = Ok (add3 (add3 (scale3 (sp_a s1) u) (scale3 (sp_a s2) v)) (scale3 (sp_a s3) w)) /\
      scale3 (f_normal f) (f_dist f) = add3 (add3 (scale3 (sp_v s1) u) (scale3 (sp_v s2) v)) (scale3 (sp_v s3) w).
  Proof.
    intros Hi Hf. pose proof (i_ok _ _ Hi) as Hok. rewrite Forall_forall in Hok. specialize (Hok f Hf).
    destruct (f_vs f) as [[a b] c] eqn:E. destruct (fok_facts vs f a b c Hok E) as (U & Na & _).
    destruct Hok as (HI & Hn & HN & _). rewrite E in HI, Hn, HN. destruct HI as (Ia & Ib & Ic).
    destruct (pt_some vs a Ia) as (s1 & L1 & Hs1 & E1). destruct (pt_some vs b Ib) as (s2 & L2 & Hs2 & E2). destruct (pt_some vs c Ic) as (s3 & L3 & Hs3 & E3).
    cbn [tnormal] in Hn, HN. rewrite E1, E2, E3 in *. unfold epa_point3. rewrite E, (get_Some _ _ _ L1), (get_Some _ _ _ L2), (get_Some _ _ _ L3).
    cbn [mbind res_mbind res_bind].
    pose proof (bary3_plane (scale3 (f_normal f) (f_dist f)) (sp_v s1) (sp_v s2) (sp_v s3) Hn) as Hb.
    destruct (bary3 _ _ _ _) as [[u v] w]. destruct Hb as [Hs Hp]; [|exists s1, s2, s3, u, v, w; done].
    destruct (unit_normal _ Hn) as (_ & _ & HU). change (cross3 (sub3 (sp_v s2) (sp_v s1)) (sub3 (sp_v s3) (sp_v s1))) with (tn (sp_v s1) (sp_v s2) (sp_v s3)).
    rewrite <- HU, <- HN. rewrite dot3_sub, Na. rewrite (dot3_comm _ (scale3 _ _)), dot3_scale_l, U. ring.
  Qed.

  (** *** The loop *)
  Notation eloop := (epa3_loop (mink3 supL supR) tol).
  Definition outcome (vs : list (SupPt P3)) (left_ : nat) (ct : Contact R P3) (dn : bool) : Prop :=
    (exists vs' fs' f c, inv vs' fs' /\ f ∈ fs' /\ (forall g, g ∈ fs' -> f_dist f <= f_dist g) /\
      ct = mkContact FullResolution (f_normal f) (f_dist f) c 0 /\ epa_point3 vs' f = Ok c) /\
    (dn = true -> forall v, mdiff3 A B v -> dot3 (c_normal ct) v < c_depth ct + tol) /\
    (dn = false -> exists added : list P3, length added = Datatypes.S left_ /\ NoDup added /\
      forall x, x ∈ added -> x ∉ sp_v <$> vs /\ exists d s, d <> zero3 /\ mink3 supL supR d = Ok s /\ x = sp_v s).
  Lemma epa3_loop_spec left_ vs fs : inv vs fs -> exists ct dn, eloop left_ vs fs = Ok (ct, dn) /\ outcome vs left_ ct dn.
  Proof.
    revert vs fs. induction left_ as [|left_ IH]; intros vs fs Hi; cbn [epa3_loop].
    all: destruct (closest_face_spec fs (i_ne _ _ Hi)) as (f & -> & Hf & Hmin); cbn [mbind res_mbind res_bind].
    all: pose proof (i_ok _ _ Hi) as Hok; rewrite Forall_forall in Hok; specialize (Hok f Hf).
    all: assert (U : dot3 (f_normal f) (f_normal f) = 1)
      by (destruct (f_vs f) as [[a b] c] eqn:E; by destruct (fok_facts vs f a b c Hok E) as (U & _)).
    all: assert (Hn0 : f_normal f <> zero3) by (apply vec3_ne; lra).
    all: destruct (mink3_spec A B supL supR HA HB (f_normal f) Hn0) as (p & Ep & Hp & Hm); rewrite Ep; cbn [mbind res_mbind res_bind].
    all: cbn [nlt nsub Num_R]; destruct (Rltb (dot3 (sp_v p) (f_normal f) - f_dist f) tol) eqn:Et.
    1, 3: destruct (epa_point3_spec vs fs f Hi Hf) as (s1 & s2 & s3 & u & v & w & _ & _ & _ & _ & Eq & _); rewrite Eq; cbn [mbind res_mbind res_bind];
      apply Rltb_true in Et; rewrite dot3_comm in Et; eexists _, true; (split; [done|]); (split; [|split; [|done]]);
      [by eexists vs, fs, f, _|cbn [c_normal c_depth]; intros _ x Hx; specialize (Hm x Hx); lra].
    all: apply Rltb_false in Et; rewrite dot3_comm in Et.
    all: assert (Hnew : sp_v p ∉ sp_v <$> vs) by (intros (s & Es & Hs)%elem_of_list_fmap; pose proof (inv_le vs fs f s Hi Hf Hs) as Hl; rewrite <- Es in Hl; lra).
    - destruct (epa_point3_spec vs fs f Hi Hf) as (s1 & s2 & s3 & u & v & w & _ & _ & _ & _ & Eq & _). rewrite Eq. cbn [mbind res_mbind res_bind].
      eexists _, false. split; [done|]. split; [by eexists vs, fs, f, _|]. split; [done|]. intros _. exists [sp_v p]. split; [done|].
      split; [apply NoDup_singleton|]. intros x ->%elem_of_list_singleton. split; [done|]. by exists (f_normal f), p.
    - destruct (poly_add_inv vs fs p Hi Hp) as (fs' & -> & Hi').
      { exists f. split; [done|]. destruct (fok_height vs f (sp_v p) Hok) as (m & Hm0 & -> & _). apply Rmult_lt_0_compat; lra. }
      cbn [mbind res_mbind res_bind]. destruct (IH _ _ Hi') as (ct & dn & E & O1 & O2 & O3). exists ct, dn. split; [done|]. split; [done|]. split; [done|].
      intros Ed. destruct (O3 Ed) as (added & Hl & Hnd & Hadd). exists (sp_v p :: added). split; [cbn; lia|].
      assert (Hnotin : sp_v p ∉ added).
      { intros Hin. destruct (Hadd _ Hin) as [Hno _]. apply Hno. apply elem_of_list_fmap_1. rewrite elem_of_app, elem_of_list_singleton. by right. }
      split; [by constructor|]. intros x [-> |Hx]%elem_of_cons; [split; [done|]; by exists (f_normal f), p|].
      destruct (Hadd x Hx) as [Hno Hex]. split; [|done]. intros Hin. apply Hno. rewrite fmap_app, elem_of_app. by left.
  Qed.

  (** *** The tetrahedron GJK ends with *)
  Lemma tetra_inv d c b a :
    wit d -> wit c -> wit b -> wit a -> hull3 [sp_v d; sp_v c; sp_v b; sp_v a] zero3 ->
    dot3 (cross3 (sub3 (sp_v b) (sp_v a)) (sub3 (sp_v c) (sp_v a))) (sub3 (sp_v d) (sp_v a)) < 0 ->
    exists fs, faces_new [d; c; b; a] = Ok fs /\ inv [d; c; b; a] fs.
  Proof.
    intros Hd Hc Hb Ha Hh HV. set (vs := [d; c; b; a]).
    assert (P0 : pt vs 0 = sp_v d) by done. assert (Q1 : pt vs 1 = sp_v c) by done. assert (Q2 : pt vs 2 = sp_v b) by done. assert (Q3 : pt vs 3 = sp_v a) by done.
    assert (Hin : forall i j k, (i < 4)%nat -> (j < 4)%nat -> (k < 4)%nat -> inside_list vs (i, j, k)) by done.
    unfold faces_new. rewrite !face_new_ok by (apply Hin; lia). cbn [mbind res_mbind res_bind]. eexists. split; [done|].
    set (V := dot3 _ _) in HV.
    assert (Hfaces : forall t, t ∈ [(3, 2, 1); (3, 1, 0); (3, 0, 2); (2, 0, 1)]%nat ->
      exists s, (height vs t (sp_v s) = V) /\ forall s', s' ∈ vs -> height vs t (sp_v s') = 0 \/ s' = s).
    { intros t. rewrite !elem_of_cons, elem_of_nil. unfold height, V.
      intros [-> |[-> |[-> |[-> |[]]]]]; cbn [fst tnormal]; rewrite ?P0, ?Q1, ?Q2, ?Q3; unfold tn; [exists d|exists b|exists c|exists a].
      all: (split; [clear; rv0; ring|]). all: intros s' Hs'; unfold vs in Hs'; rewrite !elem_of_cons, elem_of_nil in Hs'.
      all: destruct Hs' as [-> |[-> |[-> |[-> |[]]]]]; try (by right); left; clear; rv0; ring. }
    assert (Hn : forall t, t ∈ [(3, 2, 1); (3, 1, 0); (3, 0, 2); (2, 0, 1)]%nat -> tnormal vs t <> zero3).
    { intros t Ht Ez. destruct (Hfaces t Ht) as (s & Hs & _). unfold height in Hs. rewrite Ez in Hs.
      assert (dot3 zero3 (sub3 (sp_v s) (pt vs t.1.1)) = 0) by (generalize (sub3 (sp_v s) (pt vs t.1.1)); clear; intros; unfold zero3; rv0; ring). lra. }
    assert (Hmem : forall f, f ∈ [mkface vs (3, 2, 1)%nat; mkface vs (3, 1, 0)%nat; mkface vs (3, 0, 2)%nat; mkface vs (2, 0, 1)%nat] ->
      exists t, f = mkface vs t /\ t ∈ [(3, 2, 1); (3, 1, 0); (3, 0, 2); (2, 0, 1)]%nat /\ inside_list vs t).
    { intros f. rewrite !elem_of_cons, elem_of_nil.
      intros [-> |[-> |[-> |[-> |[]]]]]; eexists; (split; [reflexivity|]); (split; [rewrite !elem_of_cons; tauto|]); apply Hin; lia. }
    split.
    - unfold vs. by rewrite !Forall_cons, Forall_nil.
    - done.
    - apply Forall_forall. intros f (t & -> & Ht & It)%Hmem. apply mkface_ok; [done|by apply Hn].
    - intros e. change (net e [(3,2);(2,1);(1,3);(3,1);(1,0);(0,3);(3,0);(0,2);(2,3);(2,0);(0,1);(1,2)]%nat = 0%Z). unfold net. cbn [cnt].
      rewrite <- !ie_rev. unfold rev_e. cbn [fst snd]. lia.
    - apply Forall_forall. intros f (t & -> & Ht & It)%Hmem. intros s Hs. cbn [f_vs mkface].
      destruct (Hfaces t Ht) as (s0 & E0 & Hz). destruct (Hz s Hs) as [-> | ->]; lra.
    - intros m Hm. destruct (Req_dec (dot3 m (sp_v b)) (dot3 m (sp_v a))) as [Eb|]; [|exists b, a; unfold vs; rewrite !elem_of_cons; tauto].
      destruct (Req_dec (dot3 m (sp_v c)) (dot3 m (sp_v a))) as [Ec|]; [|exists c, a; unfold vs; rewrite !elem_of_cons; tauto].
      destruct (Req_dec (dot3 m (sp_v d)) (dot3 m (sp_v a))) as [Ed|]; [|exists d, a; unfold vs; rewrite !elem_of_cons; tauto].
      exfalso. apply Hm. pose proof (cramer (sub3 (sp_v b) (sp_v a)) (sub3 (sp_v c) (sp_v a)) (sub3 (sp_v d) (sp_v a)) m) as Hcr.
      assert (Hmm : dot3 m m * V = 0).
      { transitivity (dot3 m (scale3 m V)); [clear; rv0; ring|]. unfold V. unfold det3 at 1 in Hcr. rewrite Hcr.
        generalize (det3 (sub3 (sp_v c) (sp_v a)) (sub3 (sp_v d) (sp_v a)) m), (det3 (sub3 (sp_v d) (sp_v a)) (sub3 (sp_v b) (sp_v a)) m),
          (det3 (sub3 (sp_v b) (sp_v a)) (sub3 (sp_v c) (sp_v a)) m). intros x y z.
        transitivity (x * (dot3 m (sp_v b) - dot3 m (sp_v a)) + y * (dot3 m (sp_v c) - dot3 m (sp_v a)) + z * (dot3 m (sp_v d) - dot3 m (sp_v a))); [clear; rv0; ring|].
        rewrite Eb, Ec, Ed. ring. }
      apply Rmult_integral in Hmm as [Hmm|]; [|lra]. destruct (Epa3Cover.zero3_dec m) as [|Hz]; [done|]. apply vec3_ne in Hz. lra.
    - unfold vs. done.
  Qed.

  (** *** Differences of vertices *)
  Definition diffs3 (vL vR : list P3) : list P3 := foldr (fun l acc => (sub3 l <$> vR) ++ acc) [] vL.
  Lemma diffs3_length vL vR : length (diffs3 vL vR) = (length vL * length vR)%nat.
  Proof. unfold diffs3. induction vL as [|l vs IH]; [done|]. cbn [foldr length]. by rewrite app_length, fmap_length, IH. Qed.
  Lemma diffs3_elem vL vR l r : l ∈ vL -> r ∈ vR -> sub3 l r ∈ diffs3 vL vR.
  Proof.
    intros Hl Hr. unfold diffs3. induction vL as [|x vs IH]; [by apply elem_of_nil in Hl|]. cbn [foldr]. rewrite elem_of_app.
    apply elem_of_cons in Hl as [-> |Hl]; [left; by apply elem_of_list_fmap_1|right; by apply IH].
  Qed.
  Lemma mink3_diffs vL vR d s : vertices3 A supL vL -> vertices3 B supR vR -> d <> zero3 -> mink3 supL supR d = Ok s -> sp_v s ∈ diffs3 vL vR.
  Proof.
    intros [_ HL] [_ HR] Hd. unfold mink3, mink. destruct (supL d) as [l| |] eqn:El; cbn [mbind res_mbind res_bind]; try done.
    destruct (supR (neg3 d)) as [r| |] eqn:Er; cbn [mbind res_mbind res_bind]; try done. intros [= <-]. cbn [sp_v].
    apply diffs3_elem; [by eapply HL|]. eapply HR; [|done]. by apply neg3_ne.
  Qed.

  Lemma epa3_run_spec n d c b a :
    wit d -> wit c -> wit b -> wit a -> hull3 [sp_v d; sp_v c; sp_v b; sp_v a] zero3 ->
    dot3 (cross3 (sub3 (sp_v b) (sp_v a)) (sub3 (sp_v c) (sp_v a))) (sub3 (sp_v d) (sp_v a)) < 0 ->
    exists ct dn, epa3_run (mink3 supL supR) tol n [d; c; b; a] = Ok (Some (ct, dn)) /\
      c_strategy ct = FullResolution /\ c_toi ct = 0 /\ dot3 (c_normal ct) (c_normal ct) = 1 /\ 0 <= c_depth ct /\
      (forall u, dot3 u u = 1 -> exists v, mdiff3 A B v /\ c_depth ct <= dot3 u v) /\
      mdiff3 A B (scale3 (c_normal ct) (c_depth ct)) /\
      (exists s1 s2 s3 u v w, wit s1 /\ wit s2 /\ wit s3 /\ u + v + w = 1 /\
        c_point ct = add3 (add3 (scale3 (sp_a s1) u) (scale3 (sp_a s2) v)) (scale3 (sp_a s3) w) /\
        scale3 (c_normal ct) (c_depth ct) = add3 (add3 (scale3 (sp_v s1) u) (scale3 (sp_v s2) v)) (scale3 (sp_v s3) w)) /\
      (dn = true -> forall v, mdiff3 A B v -> dot3 (c_normal ct) v < c_depth ct + tol) /\
      (forall vL vR, vertices3 A supL vL -> vertices3 B supR vR -> (length vL * length vR < n)%nat -> dn = true).
  Proof.
    intros Hd Hc Hb Ha Hh HV. destruct (tetra_inv d c b a Hd Hc Hb Ha Hh HV) as (fs & Ef & Hi). unfold epa3_run.
    change (length [d; c; b; a] <? 4)%nat with false. cbv iota. rewrite Ef. cbn [mbind res_mbind res_bind].
    destruct (epa3_loop_spec (n - 1) _ _ Hi) as (ct & dn & E & (vs & fs' & f & q & Hi' & Hf & Hmin & Ect & Eq) & O2 & O3). rewrite E. cbn [mbind res_mbind res_bind].
    exists ct, dn. split; [done|].
    pose proof (i_ok _ _ Hi') as Hok. rewrite Forall_forall in Hok. specialize (Hok f Hf).
    assert (U : dot3 (f_normal f) (f_normal f) = 1).
    { destruct (f_vs f) as [[i j] k] eqn:Ev. by destruct (fok_facts vs f i j k Hok Ev) as (U & _). }
    assert (Hrest : c_strategy ct = FullResolution /\ c_toi ct = 0 /\ c_normal ct = f_normal f /\ c_depth ct = f_dist f /\ c_point ct = q) by (rewrite Ect; done).
    destruct Hrest as (R1 & R2 & R3 & R4 & R5). split; [done|]. split; [done|]. split; [by rewrite R3|]. split; [rewrite R4; by eapply inv_dist|].
    split; [intros u Hu; rewrite R4; by eapply inv_reach|]. split; [rewrite R3, R4; by eapply inv_foot|].
    split.
    { destruct (epa_point3_spec vs fs' f Hi' Hf) as (s1 & s2 & s3 & u & v & w & H1 & H2 & H3 & Hs & Eq' & Ep).
      pose proof (i_wit _ _ Hi') as Hw. rewrite Forall_forall in Hw. exists s1, s2, s3, u, v, w. split; [by apply Hw|]. split; [by apply Hw|]. split; [by apply Hw|].
      split; [done|]. rewrite R3, R4, R5. split; [congruence|done]. }
    split; [done|]. intros vL vR HvL HvR Hn. destruct dn; [done|]. exfalso. destruct (O3 eq_refl) as (added & Hl & Hnd & Hadd).
    assert (Hlen : (length added <= length (diffs3 vL vR))%nat).
    { apply submseteq_length. apply NoDup_submseteq; [done|]. intros x Hx. destruct (Hadd x Hx) as (_ & u & s & Hu & Es & ->). by eapply mink3_diffs. }
    rewrite diffs3_length in Hlen. lia.
  Qed.
End epa3.
