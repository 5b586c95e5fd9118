(** C32-C34: the tree and the broad phases on axis-aligned boxes of IEEE floats. *)
From stdpp Require Import prelude gmap fin_maps fin_sets sorting.
From Coq Require Import Reals Lra Psatz.
From Flocq Require Import IEEE754.BinarySingleNaN.
From Verif Require Import Res DbvtModel DbvtSpec PropsDbvt DbvtVisitors PropsRay BroadModel PropsBroad.
From Verif Require Import Num Vec AabbModel PropsAabb FloatMono AabbTree PropsAgree.

(** * Enclosure of boxes: face by face, also for boxes that are not normalised. *)
Section encl.
  Context {S : Type} `{NumOrd S} (V : Type) (third : S).
  Definition encl2 (a b : Aabb2 S) : Prop :=
    (Le (ux (min2 b)) (ux (min2 a)) /\ Le (uy (min2 b)) (uy (min2 a)))
    /\ (Le (ux (max2 a)) (ux (max2 b)) /\ Le (uy (max2 a)) (uy (max2 b))).
  Definition encl3 (a b : Aabb3 S) : Prop :=
    (Le (vx (min3 b)) (vx (min3 a)) /\ Le (vy (min3 b)) (vy (min3 a)) /\ Le (vz (min3 b)) (vz (min3 a)))
    /\ (Le (vx (max3 a)) (vx (max3 b)) /\ Le (vy (max3 a)) (vy (max3 b)) /\ Le (vz (max3 a)) (vz (max3 b))).
  Lemma glo_le lo hi p : ok lo -> ok hi -> ok p -> Le (glo lo hi p) lo /\ Le (glo lo hi p) p.
  Proof.
    intros. unfold glo. destruct (amin_spec lo p) as (? & ? & _); [done..|].
    destruct (amin_spec (amin lo p) (amax hi p)) as (? & ? & _); auto using ok_amin, ok_amax. split; chain.
  Qed.
  Lemma ghi_le lo hi p : ok lo -> ok hi -> ok p -> Le hi (ghi lo hi p) /\ Le p (ghi lo hi p).
  Proof.
    intros. unfold ghi. destruct (amax_spec hi p) as (? & ? & _); [done..|].
    destruct (amax_spec (amin lo p) (amax hi p)) as (? & ? & _); auto using ok_amin, ok_amax. split; chain.
  Qed.
  Lemma grow2_encl b p : encl2 b b -> ok2 p ->
    encl2 b (grow2 b p) /\ Le (ux (min2 (grow2 b p))) (ux p) /\ Le (uy (min2 (grow2 b p))) (uy p)
    /\ Le (ux p) (ux (max2 (grow2 b p))) /\ Le (uy p) (uy (max2 (grow2 b p))).
  Proof.
    intros [[E1 E2] [E3 E4]] [Px Py]. apply le_ok in E1 as [_ E1], E2 as [_ E2], E3 as [_ E3], E4 as [_ E4].
    destruct (glo_le _ _ _ E1 E3 Px), (ghi_le _ _ _ E1 E3 Px), (glo_le _ _ _ E2 E4 Py), (ghi_le _ _ _ E2 E4 Py).
    unfold encl2. split_and!; done.
  Qed.
  Lemma grow3_encl b p : encl3 b b -> ok3 p ->
    encl3 b (grow3 b p) /\ (Le (vx (min3 (grow3 b p))) (vx p) /\ Le (vy (min3 (grow3 b p))) (vy p) /\ Le (vz (min3 (grow3 b p))) (vz p))
    /\ Le (vx p) (vx (max3 (grow3 b p))) /\ Le (vy p) (vy (max3 (grow3 b p))) /\ Le (vz p) (vz (max3 (grow3 b p))).
  Proof.
    intros [(E1 & E2 & E5) (E3 & E4 & E6)] (Px & Py & Pz).
    apply le_ok in E1 as [_ E1], E2 as [_ E2], E3 as [_ E3], E4 as [_ E4], E5 as [_ E5], E6 as [_ E6].
    destruct (glo_le _ _ _ E1 E3 Px), (ghi_le _ _ _ E1 E3 Px), (glo_le _ _ _ E2 E4 Py), (ghi_le _ _ _ E2 E4 Py), (glo_le _ _ _ E5 E6 Pz), (ghi_le _ _ _ E5 E6 Pz).
    unfold encl3. split_and!; done.
  Qed.
  Lemma encl2_trans a b c : encl2 a b -> encl2 b c -> encl2 a c.
  Proof. intros [[] []] [[] []]. unfold encl2. split_and!; chain. Qed.
  Lemma encl3_trans a b c : encl3 a b -> encl3 b c -> encl3 a c.
  Proof. intros [(?&?&?) (?&?&?)] [(?&?&?) (?&?&?)]. unfold encl3. split_and!; chain. Qed.
  Lemma encl2_refl a : encl2 a a <-> ok2 (min2 a) /\ ok2 (max2 a).
  Proof.
    unfold encl2, ok2. split.
    - intros [[H1 H2] [H3 H4]]. apply le_ok in H1 as [], H2 as [], H3 as [], H4 as []. done.
    - intros [[] []]. auto using le_refl.
  Qed.
  Lemma encl3_refl a : encl3 a a <-> ok3 (min3 a) /\ ok3 (max3 a).
  Proof.
    unfold encl3, ok3. split.
    - intros [(H1 & H2 & H3) (H4 & H5 & H6)]. apply le_ok in H1 as [], H2 as [], H3 as [], H4 as [], H5 as [], H6 as []. done.
    - intros [(?&?&?) (?&?&?)]. split_and!; auto using le_refl.
  Qed.
  Lemma encl2_reg a b : encl2 a b -> encl2 b b.
  Proof. intros [[H1 H2] [H3 H4]]. apply encl2_refl. apply le_ok in H1 as [], H2 as [], H3 as [], H4 as []. done. Qed.
  Lemma encl3_reg a b : encl3 a b -> encl3 b b.
  Proof. intros [(H1 & H2 & H3) (H4 & H5 & H6)]. apply encl3_refl. apply le_ok in H1 as [], H2 as [], H3 as [], H4 as [], H5 as [], H6 as []. done. Qed.
  Lemma union2_encl a b : encl2 a a -> encl2 b b -> encl2 a (union2 a b) /\ encl2 b (union2 a b).
  Proof.
    intros Ha Hb. apply encl2_refl in Hb as [Hm HM]. unfold union2.
    destruct (grow2_encl a _ Ha Hm) as (G1 & ? & ? & ? & ?).
    destruct (grow2_encl _ _ (encl2_reg _ _ G1) HM) as (G2 & ? & ? & ? & ?).
    split; [by eapply encl2_trans|]. revert G2. intros [[] []]. unfold encl2. split_and!; done || chain.
  Qed.
  Lemma union3_encl a b : encl3 a a -> encl3 b b -> encl3 a (union3 a b) /\ encl3 b (union3 a b).
  Proof.
    intros Ha Hb. apply encl3_refl in Hb as [Hm HM]. unfold union3.
    destruct (grow3_encl a _ Ha Hm) as (G1 & (? & ? & ?) & ? & ? & ?).
    destruct (grow3_encl _ _ (encl3_reg _ _ G1) HM) as (G2 & (? & ? & ?) & ? & ? & ?).
    split; [by eapply encl3_trans|]. revert G2. intros [(?&?&?) (?&?&?)]. unfold encl3. split_and!; done || chain.
  Qed.
  Theorem aabb2_enclosure : enclosure (aabb2_ops V third) encl2.
  Proof.
    split; simpl.
    - apply encl2_trans.
    - apply encl2_reg.
    - intros a b Ha Hb. by apply union2_encl.
    - intros a b Ha Hb. by apply union2_encl.
    - intros a b. unfold contains2, encl2, Le. rewrite !andb_true_iff. tauto.
  Qed.
  Theorem aabb3_enclosure : enclosure (aabb3_ops V third) encl3.
  Proof.
    split; simpl.
    - apply encl3_trans.
    - apply encl3_reg.
    - intros a b Ha Hb. by apply union3_encl.
    - intros a b Ha Hb. by apply union3_encl.
    - intros a b. unfold contains3, encl3, Le. rewrite !andb_true_iff. tauto.
  Qed.
  (** Everything that intersects a box, or point that lies in it, also meets any enclosing box. *)
  Lemma intersects2_mono x y b : intersects2 x b = true -> encl2 x y -> intersects2 y b = true.
  Proof.
    unfold intersects2. rewrite !andb_true_iff. intros [[[H1 H2] H3] H4] [[] []].
    split_and!; [eapply lt_le_trans; [exact H1|done]|eapply le_lt_trans; [done|exact H2]|eapply lt_le_trans; [exact H3|done]|eapply le_lt_trans; [done|exact H4]].
  Qed.
  Lemma intersects3_mono x y b : intersects3 x b = true -> encl3 x y -> intersects3 y b = true.
  Proof.
    unfold intersects3. rewrite !andb_true_iff. intros [[[[[H1 H2] H3] H4] H5] H6] [(?&?&?) (?&?&?)].
    split_and!; [eapply lt_le_trans; [exact H1|done]|eapply le_lt_trans; [done|exact H2]|eapply lt_le_trans; [exact H3|done]|eapply le_lt_trans; [done|exact H4]
      |eapply lt_le_trans; [exact H5|done]|eapply le_lt_trans; [done|exact H6]].
  Qed.
  Lemma intersects2_sym x y : intersects2 x y = intersects2 y x.
  Proof. unfold intersects2. destruct (nlt (ux (min2 y)) (ux (max2 x))), (nlt (ux (min2 x)) (ux (max2 y))), (nlt (uy (min2 y)) (uy (max2 x))), (nlt (uy (min2 x)) (uy (max2 y))); done. Qed.
  Lemma intersects3_sym x y : intersects3 x y = intersects3 y x.
  Proof.
    unfold intersects3. destruct (nlt (vx (min3 y)) (vx (max3 x))), (nlt (vx (min3 x)) (vx (max3 y))), (nlt (vy (min3 y)) (vy (max3 x))), (nlt (vy (min3 x)) (vy (max3 y))),
      (nlt (vz (min3 y)) (vz (max3 x))), (nlt (vz (min3 x)) (vz (max3 y))); done.
  Qed.
End encl.

(** * Floats *)
Section floats.
  Context (prec emax : Z) {Hprec : Core.FLX.Prec_gt_0 prec} {Hemax : Prec_lt_emax prec emax}.
  Notation fl := (binary_float prec emax).
  Local Instance num_fl : Num fl := Num_float prec emax.
  Local Instance ord_fl : NumOrd fl := NumOrd_float prec emax.
  Local Instance inf_fl : NumInf fl := NumInf_float prec emax.
  Definition finite2 (p : V2 fl) : Prop := is_finite (ux p) = true /\ is_finite (uy p) = true.
  Definition finite3 (p : V3 fl) : Prop := is_finite (vx p) = true /\ is_finite (vy p) = true /\ is_finite (vz p) = true.
  (** Values with finite coordinates and a finite non-negative margin. *)
  Definition proper2 {V} (v : wrapped V (Aabb2 fl) (V2 fl)) : Prop :=
    finite2 (min2 (w_bound v)) /\ finite2 (max2 (w_bound v)) /\ finite2 (w_margin v)
    /\ Le n0 (ux (w_margin v)) /\ Le n0 (uy (w_margin v)).
  Definition proper3 {V} (v : wrapped V (Aabb3 fl) (V3 fl)) : Prop :=
    finite3 (min3 (w_bound v)) /\ finite3 (max3 (w_bound v)) /\ finite3 (w_margin v)
    /\ Le n0 (vx (w_margin v)) /\ Le n0 (vy (w_margin v)) /\ Le n0 (vz (w_margin v)).

  Lemma margin_axis (lo hi m : fl) : is_finite lo = true -> is_finite hi = true -> is_finite m = true -> Le n0 m ->
    Le (amin (lo - m)%N_ (hi + m)%N_) lo /\ Le hi (amax (lo - m)%N_ (hi + m)%N_).
  Proof.
    intros Hlo Hhi Hm H0. destruct (sub_pos prec emax lo m Hlo Hm) as [N1 _]. destruct (FloatMono.add_pos prec emax hi m Hhi Hm) as [N2 _].
    assert (Le (lo - m)%N_ lo) by (apply sub_margin; [by apply fin_nan|done..]).
    assert (Le hi (hi + m)%N_) by (apply add_margin; [by apply fin_nan|done..]).
    destruct (amin_spec (lo - m)%N_ (hi + m)%N_) as (? & _ & _); [exact N1|exact N2|].
    destruct (amax_spec (lo - m)%N_ (hi + m)%N_) as (_ & ? & _); [exact N1|exact N2|]. split; chain.
  Qed.
  Context {V : Type} (third : fl).
  Lemma proper2_fat (a : astate (wrapped V (Aabb2 fl) (V2 fl))) :
    map_Forall (fun _ => proper2) (live a) -> fat_ok (aabb2_ops V third) a.
  Proof.
    intros Hp h v Hv. destruct (Hp h v Hv) as ([F1 F2] & [F3 F4] & [F5 F6] & M1 & M2).
    destruct (margin_axis _ _ _ F1 F3 F5 M1). destruct (margin_axis _ _ _ F2 F4 F6 M2).
    simpl. unfold contains2. rewrite !andb_true_iff. done.
  Qed.
  Lemma proper3_fat (a : astate (wrapped V (Aabb3 fl) (V3 fl))) :
    map_Forall (fun _ => proper3) (live a) -> fat_ok (aabb3_ops V third) a.
  Proof.
    intros Hp h v Hv. destruct (Hp h v Hv) as ((F1 & F2 & F7) & (F3 & F4 & F8) & (F5 & F6 & F9) & M1 & M2 & M3).
    destruct (margin_axis _ _ _ F1 F3 F5 M1). destruct (margin_axis _ _ _ F2 F4 F6 M2). destruct (margin_axis _ _ _ F7 F8 F9 M3).
    simpl. unfold contains3. rewrite !andb_true_iff. done.
  Qed.

  (** C32: a value made from a pair (no margin given) carries that value and box, and the box the tree stores for it has
      the same corners (numerically: the sign of a zero may differ). *)
  Lemma no_margin_lo (x : fl) : (x - n0)%N_ = x.
  Proof. destruct x as [[]|[]| |[]]; done. Qed.
  Lemma no_margin_hi (x : fl) : Le x x -> Eqn (x + n0)%N_ x.
  Proof. intros Hx. assert ((x + n0)%N_ = x \/ ((x + n0)%N_ = B754_zero false /\ x = B754_zero true)) as [-> |[-> ->]] by (destruct x as [[]|[]| |[]]; auto); [by apply eqn_le|done]. Qed.
  Lemma no_margin_axis (lo hi : fl) : Le lo hi -> Eqn (amin (lo - n0)%N_ (hi + n0)%N_) lo /\ Eqn (amax (lo - n0)%N_ (hi + n0)%N_) hi.
  Proof.
    intros Hl. rewrite no_margin_lo. destruct (le_ok _ _ Hl) as [O1 O2]. pose proof (no_margin_hi hi (le_refl hi O2)) as He. pose proof He as [E1 E2]%eqn_le.
    assert (Hl' : Le lo (hi + n0)%N_) by chain. split; [by apply amin_lo|]. pose proof (amax_hi _ _ Hl') as [E3 E4]%eqn_le. apply eqn_le. split; chain.
  Qed.
  Definition same_corner2 (p q : V2 fl) : Prop := Eqn (ux p) (ux q) /\ Eqn (uy p) (uy q).
  Definition same_corner3 (p q : V3 fl) : Prop := Eqn (vx p) (vx q) /\ Eqn (vy p) (vy q) /\ Eqn (vz p) (vz q).
  Theorem C32_no_margin2 (v : V) (b : Aabb2 fl) : Le (ux (min2 b)) (ux (max2 b)) -> Le (uy (min2 b)) (uy (max2 b)) ->
    w_value (wrap2 V v b) = v /\ tv_bound (aabb2_ops V third) (wrap2 V v b) = b /\
    same_corner2 (min2 (tv_fat (aabb2_ops V third) (wrap2 V v b))) (min2 b) /\ same_corner2 (max2 (tv_fat (aabb2_ops V third) (wrap2 V v b))) (max2 b).
  Proof.
    intros Hx Hy. split; [done|]. split; [done|]. destruct (no_margin_axis _ _ Hx) as [X1 X2]. destruct (no_margin_axis _ _ Hy) as [Y1 Y2].
    exact (conj (conj X1 Y1) (conj X2 Y2)).
  Qed.
  Theorem C32_no_margin3 (v : V) (b : Aabb3 fl) : Le (vx (min3 b)) (vx (max3 b)) -> Le (vy (min3 b)) (vy (max3 b)) -> Le (vz (min3 b)) (vz (max3 b)) ->
    w_value (wrap3 V v b) = v /\ tv_bound (aabb3_ops V third) (wrap3 V v b) = b /\
    same_corner3 (min3 (tv_fat (aabb3_ops V third) (wrap3 V v b))) (min3 b) /\ same_corner3 (max3 (tv_fat (aabb3_ops V third) (wrap3 V v b))) (max3 b).
  Proof.
    intros Hx Hy Hz. split; [done|]. split; [done|]. destruct (no_margin_axis _ _ Hx) as [X1 X2]. destruct (no_margin_axis _ _ Hy) as [Y1 Y2]. destruct (no_margin_axis _ _ Hz) as [Z1 Z2].
    exact (conj (conj X1 (conj Y1 Z1)) (conj X2 (conj Y2 Z2))).
  Qed.

  (** C32: a box query on a float box tree returns exactly the values whose boxes intersect it. *)
  Theorem C32_box_query2_exact a s rng fuel s' fuel' (w : Aabb2 fl) l :
    history (aabb2_ops V third) a s -> legal a (Tick rng) -> unflagged a = ∅ -> tick (aabb2_ops V third) fuel rng s = Ok s' ->
    map_Forall (fun _ => proper2) (live a) ->
    query (aabb2_ops V third) fuel' (discrete_visitor (fun b => intersects2 b w)) s' () = Ok l ->
    l.*1 ≡ₚ filter (fun v => intersects2 (w_bound v) w) ((map_to_list (live a)).*2).
  Proof.
    intros Hh Hl Hu Ht Hp Hq.
    pose proof (C09_query_exact_after_tick (aabb2_ops V third) (V := unit) (fun b _ => if intersects2 b w then Some () else None)
      encl2 a s rng fuel s' fuel' () l Hh Hl Hu Ht (aabb2_enclosure V third) (proper2_fat a Hp)) as H1.
    rewrite H1; [|intros h v b' _ [x Hx] Hle; destruct (intersects2 (tv_bound _ v) w) eqn:E; [|done]; rewrite (intersects2_mono _ _ _ E Hle); eauto|exact Hq].
    clear. induction (map_to_list (live a)) as [|[h v] m IH]; [done|]. simpl in *. rewrite filter_cons.
    destruct (intersects2 (w_bound v) w); simpl; [|done]. by f_equiv.
  Qed.
  Theorem C32_box_query3_exact a s rng fuel s' fuel' (w : Aabb3 fl) l :
    history (aabb3_ops V third) a s -> legal a (Tick rng) -> unflagged a = ∅ -> tick (aabb3_ops V third) fuel rng s = Ok s' ->
    map_Forall (fun _ => proper3) (live a) ->
    query (aabb3_ops V third) fuel' (discrete_visitor (fun b => intersects3 b w)) s' () = Ok l ->
    l.*1 ≡ₚ filter (fun v => intersects3 (w_bound v) w) ((map_to_list (live a)).*2).
  Proof.
    intros Hh Hl Hu Ht Hp Hq.
    pose proof (C09_query_exact_after_tick (aabb3_ops V third) (V := unit) (fun b _ => if intersects3 b w then Some () else None)
      encl3 a s rng fuel s' fuel' () l Hh Hl Hu Ht (aabb3_enclosure V third) (proper3_fat a Hp)) as H1.
    rewrite H1; [|intros h v b' _ [x Hx] Hle; destruct (intersects3 (tv_bound _ v) w) eqn:E; [|done]; rewrite (intersects3_mono _ _ _ E Hle); eauto|exact Hq].
    clear. induction (map_to_list (live a)) as [|[h v] m IH]; [done|]. simpl in *. rewrite filter_cons.
    destruct (intersects3 (w_bound v) w); simpl; [|done]. by f_equiv.
  Qed.
  (** The tree broad phase on boxes, all shapes dirty: the brute force's pairs, in the same order. *)
  Theorem C32_dbvt_broad_phase2_is_brute_force a s rng fuel s' fuel' dirty l :
    history (aabb2_ops V third) a s -> legal a (Tick rng) -> unflagged a = ∅ -> tick (aabb2_ops V third) fuel rng s = Ok s' ->
    map_Forall (fun _ => proper2) (live a) ->
    (forall i, i < length (values s') -> dirty !! i = Some true) ->
    dbp_find (aabb2_ops V third) intersects2 fuel' s' dirty = Ok l ->
    brute_force (fun v => w_bound v.2) intersects2 (values s') = Ok l.
  Proof.
    intros Hh Hl Hu Ht Hp Hd Hf.
    exact (C20_agrees_with_brute_force _ _ encl2 a s rng fuel s' fuel' dirty l Hh Hl Hu Ht (aabb2_enclosure V third) (proper2_fat a Hp)
      intersects2_sym (fun _ v _ v' b _ _ E Hle => intersects2_mono (w_bound v) b (w_bound v') E Hle) Hd Hf).
  Qed.
  Theorem C32_dbvt_broad_phase3_is_brute_force a s rng fuel s' fuel' dirty l :
    history (aabb3_ops V third) a s -> legal a (Tick rng) -> unflagged a = ∅ -> tick (aabb3_ops V third) fuel rng s = Ok s' ->
    map_Forall (fun _ => proper3) (live a) ->
    (forall i, i < length (values s') -> dirty !! i = Some true) ->
    dbp_find (aabb3_ops V third) intersects3 fuel' s' dirty = Ok l ->
    brute_force (fun v => w_bound v.2) intersects3 (values s') = Ok l.
  Proof.
    intros Hh Hl Hu Ht Hp Hd Hf.
    exact (C20_agrees_with_brute_force _ _ encl3 a s rng fuel s' fuel' dirty l Hh Hl Hu Ht (aabb3_enclosure V third) (proper3_fat a Hp)
      intersects3_sym (fun _ v _ v' b _ _ E Hle => intersects3_mono (w_bound v) b (w_bound v') E Hle) Hd Hf).
  Qed.
  (** Sweep and prune on boxes without NaN coordinates: the brute force's pairs on the sorted list. *)
  Theorem C32_sweep_and_prune2 {A} (bound : A -> Aabb2 fl) of_nat axis var (shapes : list A) : axis < 2 ->
    (forall a, a ∈ shapes -> ok2 (min2 (bound a)) /\ ok2 (max2 (bound a))) ->
    exists s' shapes' pairs ps, sap_find bound intersects2 2 (fun b => coords2 (min2 b)) (fun b => coords2 (max2 b)) of_nat (Sap axis var) shapes = Ok (s', shapes', pairs)
      /\ shapes' ≡ₚ shapes /\ brute_force bound intersects2 shapes' = Ok ps /\ pairs ≡ₚ ps.
  Proof.
    intros Hax Hok.
    destruct (C18_sweep_and_prune_exact bound intersects2 2 (fun b => coords2 (min2 b)) (fun b => coords2 (max2 b)) of_nat (Sap axis var) shapes)
      as (s' & shapes' & pairs & ? & ? & _ & _ & _ & ps & ? & ?); [| |lia|eauto 10].
    - apply Forall_forall. intros a Ha. destruct (Hok a Ha) as [[] []]. unfold comparable, coords2. simpl.
      destruct axis as [|[|]]; [..|lia]; simpl; eauto 10.
    - intros a b hi lo. unfold coords2, intersects2; simpl. rewrite !andb_true_iff. intros [[[H1 H2] H3] H4].
      destruct axis as [|[|]]; [..|lia]; simpl; intros [= <-] [= <-]; by apply lt_le.
  Qed.
  Theorem C32_sweep_and_prune3 {A} (bound : A -> Aabb3 fl) of_nat axis var (shapes : list A) : axis < 3 ->
    (forall a, a ∈ shapes -> ok3 (min3 (bound a)) /\ ok3 (max3 (bound a))) ->
    exists s' shapes' pairs ps, sap_find bound intersects3 3 (fun b => coords3 (min3 b)) (fun b => coords3 (max3 b)) of_nat (Sap axis var) shapes = Ok (s', shapes', pairs)
      /\ shapes' ≡ₚ shapes /\ brute_force bound intersects3 shapes' = Ok ps /\ pairs ≡ₚ ps.
  Proof.
    intros Hax Hok.
    destruct (C18_sweep_and_prune_exact bound intersects3 3 (fun b => coords3 (min3 b)) (fun b => coords3 (max3 b)) of_nat (Sap axis var) shapes)
      as (s' & shapes' & pairs & ? & ? & _ & _ & _ & ps & ? & ?); [| |lia|eauto 10].
    - apply Forall_forall. intros a Ha. destruct (Hok a Ha) as [(?&?&?) (?&?&?)]. unfold comparable, coords3. simpl.
      destruct axis as [|[|[|]]]; [..|lia]; simpl; eauto 10.
    - intros a b hi lo. unfold coords3, intersects3; simpl. rewrite !andb_true_iff. intros [[[[[H1 H2] H3] H4] H5] H6].
      destruct axis as [|[|[|]]]; [..|lia]; simpl; intros [= <-] [= <-]; by apply lt_le.
  Qed.

  (** ** Rays *)
  Lemma le_fmin (z x y : fl) : ok x -> ok y -> Le z (fmin x y) <-> Le z x /\ Le z y.
  Proof.
    intros Hx Hy. unfold fmin. rewrite !(proj2 (neq_ok _)) by done. cbn [negb]. cbv iota. destruct (nlt y x) eqn:E.
    - assert (Lt_ y x) as E' by exact E. apply lt_le in E'. split; [intros; split; [chain|done]|tauto].
    - rewrite ord_lt in E by done. apply negb_false_iff in E. change (Le x y) in E. split; [intros; split; [done|chain]|tauto].
  Qed.
  Lemma fmax_le (z x y : fl) : ok x -> ok y -> Le (fmax x y) z <-> Le x z /\ Le y z.
  Proof.
    intros Hx Hy. unfold fmax. rewrite !(proj2 (neq_ok _)) by done. cbn [negb]. cbv iota. destruct (nlt x y) eqn:E.
    - assert (Lt_ x y) as E' by exact E. apply lt_le in E'. split; [intros; split; [chain|done]|tauto].
    - rewrite ord_lt in E by done. apply negb_false_iff in E. change (Le y x) in E. split; [intros; split; [done|chain]|tauto].
  Qed.
  Lemma fmin_lb (x y : fl) : ok x -> ok y -> Le (fmin x y) x /\ Le (fmin x y) y.
  Proof. intros. apply (le_fmin (fmin x y)); [done..|]. apply le_refl. apply ok_fmin. auto. Qed.
  Lemma fmax_ub (x y : fl) : ok x -> ok y -> Le x (fmax x y) /\ Le y (fmax x y).
  Proof. intros. apply (fmax_le (fmax x y)); [done..|]. apply le_refl. apply ok_fmax. auto. Qed.
  Lemma fmin_mono (x y x' y' : fl) : Le x' x -> Le y' y -> Le (fmin x' y') (fmin x y).
  Proof.
    intros H1 H2. destruct (le_ok _ _ H1), (le_ok _ _ H2). apply le_fmin; [done..|]. destruct (fmin_lb x' y'); [done..|]. split; chain.
  Qed.
  Lemma fmax_mono (x y x' y' : fl) : Le x' x -> Le y' y -> Le (fmax x' y') (fmax x y).
  Proof.
    intros H1 H2. destruct (le_ok _ _ H1), (le_ok _ _ H2). apply fmax_le; [done..|]. destruct (fmax_ub x y); [done..|]. split; chain.
  Qed.
  (** A wider interval. *)
  Definition wider (t t' : fl * fl) : Prop := Le t'.1 t.1 /\ Le t.2 t'.2.
  (** The two parameters of an axis: widening the box widens their interval. *)
  Lemma params_wider (t1 t2 t1' t2' : fl) :
    (Le t1' t1 /\ Le t1 t2 /\ Le t2 t2') \/ (Le t2' t2 /\ Le t2 t1 /\ Le t1 t1') ->
    wider (fmin t1 t2, fmax t1 t2) (fmin t1' t2', fmax t1' t2').
  Proof.
    intros Ht. unfold wider; simpl.
    assert (Hok : ok t1 /\ ok t2 /\ ok t1' /\ ok t2').
    { destruct Ht as [(H1 & H2 & H3)|(H1 & H2 & H3)]; apply le_ok in H1 as [], H2 as [], H3 as []; done. }
    destruct Hok as (? & ? & ? & ?).
    destruct (fmin_lb t1' t2') as [? ?]; [done..|]. destruct (fmax_ub t1' t2') as [? ?]; [done..|]. destruct Ht as [(? & ? & ?)|(? & ? & ?)].
    - assert (Le t1' t2) by chain. assert (Le t1 t2') by chain.
      split; [apply le_fmin; [done..|]; split; chain|apply fmax_le; [done..|]; split; chain].
    - assert (Le t2' t1) by chain. assert (Le t2 t1') by chain.
      split; [apply le_fmin; [done..|]; split; chain|apply fmax_le; [done..|]; split; chain].
  Qed.
  Lemma wider_clip t u t' u' : wider t t' -> wider u u' ->
    wider (fmax t.1 u.1, fmin t.2 u.2) (fmax t'.1 u'.1, fmin t'.2 u'.2).
  Proof. intros [] []. split; simpl; [by apply fmax_mono|by apply fmin_mono]. Qed.
  Lemma wider_hit (t t' : fl * fl) : wider t t' ->
    ((nlt t.1 n0 && nlt t.2 n0) || nlt t.2 t.1)%bool = false -> ((nlt t'.1 n0 && nlt t'.2 n0) || nlt t'.2 t'.1)%bool = false.
  Proof.
    intros [H1 H2]. pose proof (le_ok _ _ H1) as [? ?]. pose proof (le_ok _ _ H2) as [? ?]. assert (ok (n0 : fl)) by done.
    rewrite !orb_false_iff, !andb_false_iff. intros [Hn Hlt].
    assert (Le t.1 t.2) as Hle. { rewrite ord_lt in Hlt by done. by apply negb_false_iff in Hlt. }
    assert (Le t'.1 t.2) by chain. assert (Le t'.1 t'.2) as Hle' by chain.
    split; [|rewrite ord_lt by done; by apply negb_false_iff].
    assert (Le n0 t.2) as Hz0. { rewrite !ord_lt, !negb_false_iff in Hn by done. destruct Hn as [Hn|Hn]; [|done]. change (Le n0 t.1) in Hn. chain. }
    right. rewrite ord_lt by done. apply negb_false_iff. change (Le n0 t'.2). chain.
  Qed.

  Definition fin_ray_f2 (r : Ray (V2 fl)) : Prop := finite2 (origin r) /\ finite2 (direction r).
  Definition fin_ray_f3 (r : Ray (V3 fl)) : Prop := finite3 (origin r) /\ finite3 (direction r).
  Lemma neq0_B2R (d : fl) : is_finite d = true -> neq d n0 = false -> (0 < B2R d \/ B2R d < 0)%R.
  Proof.
    intros Fd Hn. destruct (Rtotal_order (B2R d) 0) as [?|[E|?]]; [tauto| |tauto].
    exfalso. revert Hn. apply not_false_iff_true. simpl. apply Feq_pos. rewrite (fin_pos _ _ d Fd). simpl.
    split_and!; [by apply fin_nan|done|rewrite E; lra|rewrite E; lra].
  Qed.
  Lemma slab2_wider lo hi o d lo' hi' t t' u : is_finite o = true -> is_finite d = true ->
    Le lo hi -> Le lo' lo -> Le hi hi' -> wider t t' ->
    slab2 lo hi o d t = Some u -> exists u', slab2 lo' hi' o d t' = Some u' /\ wider u u'.
  Proof.
    intros Fo Fd Hb Hlo Hhi Hw. unfold slab2. destruct (neq d n0) eqn:Ed; simpl negb; cbv iota.
    - destruct (nle o lo || nle hi o)%bool eqn:E; [done|]. intros [= <-]. apply orb_false_iff in E as [E1 E2].
      pose proof (le_ok _ _ Hlo) as [? ?]. pose proof (le_ok _ _ Hhi) as [? ?]. assert (ok o) by by apply fin_nan.
      apply not_le_lt in E1; [|done..]. apply not_le_lt in E2; [|done..].
      assert (nle o lo' = false) as -> by (apply lt_not_le; by eapply le_lt_trans).
      assert (nle hi' o = false) as -> by (apply lt_not_le; by eapply lt_le_trans). simpl. eauto.
    - intros Hs. apply (inj Some) in Hs. subst u. eexists; split; [done|].
      apply (wider_clip t (fmin ((lo - o) / d) ((hi - o) / d), fmax ((lo - o) / d) ((hi - o) / d))%N_ t'
        (fmin ((lo' - o) / d) ((hi' - o) / d), fmax ((lo' - o) / d) ((hi' - o) / d))%N_); [done|].
      apply params_wider.
      pose proof (sub_mono prec emax _ _ o Fo Hlo) as S1. pose proof (sub_mono prec emax _ _ o Fo Hb) as S2. pose proof (sub_mono prec emax _ _ o Fo Hhi) as S3.
      pose proof (div_mono prec emax _ _ d Fd S1) as [P1 Q1]. pose proof (div_mono prec emax _ _ d Fd S2) as [P2 Q2]. pose proof (div_mono prec emax _ _ d Fd S3) as [P3 Q3].
      destruct (neq0_B2R d Fd Ed) as [Hd|Hd]; [left|right]; split_and!; auto.
  Qed.
  Lemma wider_all : wider (nninf, ninf) (nninf, ninf).
  Proof. split; apply le_refl; done. Qed.
  Lemma ray_aabb2_mono (r : Ray (V2 fl)) b b' : fin_ray_f2 r -> box2 b -> encl2 b b' ->
    is_Some (ray_aabb2 r b) -> is_Some (ray_aabb2 r b').
  Proof.
    intros [[Ox Oy] [Dx Dy]] [Bx By] [[E1 E2] [E3 E4]]. unfold ray_aabb2.
    destruct (slabs2 r b) as [t|] eqn:Hs; [|by intros []]. unfold slabs2 in Hs.
    destruct (slab2 _ _ _ _ (nninf, ninf)) as [t0|] eqn:H1 in Hs; [|done].
    destruct (slab2_wider _ _ _ _ _ _ _ (nninf, ninf) _ Ox Dx Bx E1 E3 wider_all H1) as (u0 & H1' & W0).
    destruct (slab2_wider _ _ _ _ _ _ _ u0 _ Oy Dy By E2 E4 W0 Hs) as (u & H2' & W).
    unfold slabs2. rewrite H1', H2'. destruct t as [tm tM], u as [tm' tM']. pose proof (wider_hit _ _ W) as Hh. cbn [fst snd] in Hh.
    destruct ((nlt tm n0 && nlt tM n0) || nlt tM tm)%bool; [by intros []|]. rewrite (Hh eq_refl). eauto.
  Qed.
  (** The reciprocal of a direction component neither overflows nor vanishes. *)
  Definition recip_ok (d : fl) : Prop := is_finite (n1 / d)%N_ = true /\ B2R (n1 / d)%N_ <> 0%R.
  Lemma axis3_wider lo hi o i lo' hi' : is_finite o = true -> is_finite i = true -> B2R i <> 0%R ->
    Le lo hi -> Le lo' lo -> Le hi hi' ->
    wider (fmin ((lo - o) * i) ((hi - o) * i), fmax ((lo - o) * i) ((hi - o) * i))%N_
          (fmin ((lo' - o) * i) ((hi' - o) * i), fmax ((lo' - o) * i) ((hi' - o) * i))%N_.
  Proof.
    intros Fo Fi Hi Hb Hlo Hhi. apply params_wider.
    pose proof (sub_mono prec emax _ _ o Fo Hlo) as S1. pose proof (sub_mono prec emax _ _ o Fo Hb) as S2. pose proof (sub_mono prec emax _ _ o Fo Hhi) as S3.
    pose proof (mul_mono prec emax _ _ i Fi S1) as [P1 Q1]. pose proof (mul_mono prec emax _ _ i Fi S2) as [P2 Q2]. pose proof (mul_mono prec emax _ _ i Fi S3) as [P3 Q3].
    destruct (Rtotal_order (B2R i) 0) as [Hd|[?|Hd]]; [right|done|left]; split_and!; auto.
  Qed.
  Lemma ray_aabb3_mono (r : Ray (V3 fl)) b b' : finite3 (origin r) ->
    recip_ok (vx (direction r)) -> recip_ok (vy (direction r)) -> recip_ok (vz (direction r)) ->
    box3 b -> encl3 b b' -> is_Some (ray_aabb3 r b) -> is_Some (ray_aabb3 r b').
  Proof.
    intros (Ox & Oy & Oz) [Ix Jx] [Iy Jy] [Iz Jz] (Bx & By & Bz) [(E1 & E2 & E3) (E4 & E5 & E6)]. unfold ray_aabb3.
    assert (W : wider (slabs3 r b) (slabs3 r b')).
    { pose proof (axis3_wider _ _ _ _ _ _ Ox Ix Jx Bx E1 E4) as Wx.
      pose proof (axis3_wider _ _ _ _ _ _ Oy Iy Jy By E2 E5) as Wy.
      pose proof (axis3_wider _ _ _ _ _ _ Oz Iz Jz Bz E3 E6) as Wz.
      exact (wider_clip _ _ _ _ (wider_clip _ _ _ _ Wx Wy) Wz). }
    destruct (slabs3 r b) as [tm tM], (slabs3 r b') as [tm' tM']. pose proof (wider_hit _ _ W) as Hh. cbn [fst snd] in Hh.
    destruct ((nlt tm n0 && nlt tM n0) || nlt tM tm)%bool; [by intros []|]. rewrite (Hh eq_refl). eauto.
  Qed.
  (** C33: a ray query on a float box tree returns exactly the values whose boxes the ray test hits. *)
  Theorem C33_ray_query2_exact a s rng fuel s' fuel' (r : Ray (V2 fl)) l :
    history (aabb2_ops V third) a s -> legal a (Tick rng) -> unflagged a = ∅ -> tick (aabb2_ops V third) fuel rng s = Ok s' ->
    map_Forall (fun _ v => proper2 v /\ box2 (w_bound v)) (live a) -> fin_ray_f2 r ->
    query_ray (aabb2_ops V third) (ray_aabb2 r) fuel' s' = Ok l ->
    l ≡ₚ omap (fun hv => pair hv.2 <$> ray_aabb2 r (w_bound hv.2)) (map_to_list (live a)).
  Proof.
    intros Hh Hl Hu Ht Hp Hr Hq.
    apply (C12_query_ray_exact (aabb2_ops V third) (ray_aabb2 r) encl2 a s rng fuel s' fuel' l Hh Hl Hu Ht (aabb2_enclosure V third)); [| |done].
    - apply proper2_fat. intros h v Hv. by apply (Hp h v).
    - intros h v b' Hv Hs Hle. eapply ray_aabb2_mono; [done| |exact Hle|exact Hs]. by apply (Hp h v).
  Qed.
  Theorem C33_ray_query3_exact a s rng fuel s' fuel' (r : Ray (V3 fl)) l :
    history (aabb3_ops V third) a s -> legal a (Tick rng) -> unflagged a = ∅ -> tick (aabb3_ops V third) fuel rng s = Ok s' ->
    map_Forall (fun _ v => proper3 v /\ box3 (w_bound v)) (live a) -> finite3 (origin r) ->
    recip_ok (vx (direction r)) -> recip_ok (vy (direction r)) -> recip_ok (vz (direction r)) ->
    query_ray (aabb3_ops V third) (ray_aabb3 r) fuel' s' = Ok l ->
    l ≡ₚ omap (fun hv => pair hv.2 <$> ray_aabb3 r (w_bound hv.2)) (map_to_list (live a)).
  Proof.
    intros Hh Hl Hu Ht Hp Ho Rx Ry Rz Hq.
    apply (C12_query_ray_exact (aabb3_ops V third) (ray_aabb3 r) encl3 a s rng fuel s' fuel' l Hh Hl Hu Ht (aabb3_enclosure V third)); [| |done].
    - apply proper3_fat. intros h v Hv. by apply (Hp h v).
    - intros h v b' Hv Hs Hle. eapply ray_aabb3_mono; [done..| |exact Hle|exact Hs]. by apply (Hp h v).
  Qed.
End floats.
