(** C21-C26: axis-aligned boxes.  The order-only properties hold for every scalar with
    the order laws [NumOrd], in particular for all IEEE floats (non-NaN coordinates,
    infinities and signed zeros included) and for the reals. *)
From stdpp Require Import prelude.
From Coq Require Import Reals Lra Psatz.
From Verif Require Import Num Vec AabbModel.

(** * Specification *)
Section spec.
  Context {S : Type} `{NumOrd S}.
  (** No NaN coordinate. *)
  Definition ok2 (p : V2 S) : Prop := ok (ux p) /\ ok (uy p).
  Definition ok3 (p : V3 S) : Prop := ok (vx p) /\ ok (vy p) /\ ok (vz p).
  (** The closed box as a set of points. *)
  Definition in2 (b : Aabb2 S) (p : V2 S) : Prop :=
    (Le (ux (min2 b)) (ux p) /\ Le (ux p) (ux (max2 b))) /\ (Le (uy (min2 b)) (uy p) /\ Le (uy p) (uy (max2 b))).
  Definition in3 (b : Aabb3 S) (p : V3 S) : Prop :=
    (Le (vx (min3 b)) (vx p) /\ Le (vx p) (vx (max3 b))) /\ (Le (vy (min3 b)) (vy p) /\ Le (vy p) (vy (max3 b)))
    /\ (Le (vz (min3 b)) (vz p) /\ Le (vz p) (vz (max3 b))).
  (** The box with its maximum faces removed. *)
  Definition in2_half (b : Aabb2 S) (p : V2 S) : Prop :=
    (Le (ux (min2 b)) (ux p) /\ Lt_ (ux p) (ux (max2 b))) /\ (Le (uy (min2 b)) (uy p) /\ Lt_ (uy p) (uy (max2 b))).
  Definition in3_half (b : Aabb3 S) (p : V3 S) : Prop :=
    (Le (vx (min3 b)) (vx p) /\ Lt_ (vx p) (vx (max3 b))) /\ (Le (vy (min3 b)) (vy p) /\ Lt_ (vy p) (vy (max3 b)))
    /\ (Le (vz (min3 b)) (vz p) /\ Lt_ (vz p) (vz (max3 b))).
  (** Minimum below maximum on each axis (so no NaN). *)
  Definition box2 (b : Aabb2 S) : Prop := Le (ux (min2 b)) (ux (max2 b)) /\ Le (uy (min2 b)) (uy (max2 b)).
  Definition box3 (b : Aabb3 S) : Prop :=
    Le (vx (min3 b)) (vx (max3 b)) /\ Le (vy (min3 b)) (vy (max3 b)) /\ Le (vz (min3 b)) (vz (max3 b)).
  Definition subset2 (a b : Aabb2 S) : Prop := forall p, in2 a p -> in2 b p.
  Definition subset3 (a b : Aabb3 S) : Prop := forall p, in3 a p -> in3 b p.
  (** Numerically equal corners. *)
  Definition same2 (a b : Aabb2 S) : Prop :=
    (Eqn (ux (min2 a)) (ux (min2 b)) /\ Eqn (uy (min2 a)) (uy (min2 b)))
    /\ (Eqn (ux (max2 a)) (ux (max2 b)) /\ Eqn (uy (max2 a)) (uy (max2 b))).
  Definition same3 (a b : Aabb3 S) : Prop :=
    (Eqn (vx (min3 a)) (vx (min3 b)) /\ Eqn (vy (min3 a)) (vy (min3 b)) /\ Eqn (vz (min3 a)) (vz (min3 b)))
    /\ (Eqn (vx (max3 a)) (vx (max3 b)) /\ Eqn (vy (max3 a)) (vy (max3 b)) /\ Eqn (vz (max3 a)) (vz (max3 b))).
  (** [b] is the least box with property [P] on points. *)
  Definition least2 (P : Aabb2 S -> Prop) (b : Aabb2 S) : Prop := P b /\ forall b', P b' -> subset2 b b'.
  Definition least3 (P : Aabb3 S -> Prop) (b : Aabb3 S) : Prop := P b /\ forall b', P b' -> subset3 b b'.
End spec.

(** * Proofs *)
Ltac chain := match goal with |- Le ?x ?z => match goal with H1 : Le x ?y, H2 : Le ?y z |- _ => exact (le_trans x y z H1 H2) end end.
Section ord.
  Context {S : Type} `{NumOrd S}.
  Lemma le_ok x y : Le x y -> ok x /\ ok y.
  Proof. apply ord_le_ok. Qed.
  Lemma amin_spec x y : ok x -> ok y -> Le (amin x y) x /\ Le (amin x y) y /\ (amin x y = x \/ amin x y = y).
  Proof.
    intros Hx Hy. unfold amin. pose proof (pcmp_spec x y Hx Hy) as Hc. destruct (pcmp x y) as [[]|]; try done.
    - apply eqn_le in Hc as [? ?]. auto using le_refl.
    - auto using le_refl, lt_le.
    - auto using le_refl, lt_le.
  Qed.
  Lemma amax_spec x y : ok x -> ok y -> Le x (amax x y) /\ Le y (amax x y) /\ (amax x y = x \/ amax x y = y).
  Proof.
    intros Hx Hy. unfold amax. pose proof (pcmp_spec x y Hx Hy) as Hc. destruct (pcmp x y) as [[]|]; try done.
    - apply eqn_le in Hc as [? ?]. auto using le_refl.
    - auto using le_refl, lt_le.
    - auto using le_refl, lt_le.
  Qed.
  Lemma le_amin z x y : ok x -> ok y -> Le z (amin x y) <-> Le z x /\ Le z y.
  Proof.
    intros Hx Hy. destruct (amin_spec x y Hx Hy) as (H1 & H2 & H3). split.
    - intros Hz. split; chain.
    - destruct H3 as [-> | ->]; tauto.
  Qed.
  Lemma amax_le z x y : ok x -> ok y -> Le (amax x y) z <-> Le x z /\ Le y z.
  Proof.
    intros Hx Hy. destruct (amax_spec x y Hx Hy) as (H1 & H2 & H3). split.
    - intros Hz. split; chain.
    - destruct H3 as [-> | ->]; tauto.
  Qed.
  Lemma ok_amin x y : ok x -> ok y -> ok (amin x y).
  Proof. intros Hx Hy. destruct (amin_spec x y Hx Hy) as (_ & _ & [-> | ->]); done. Qed.
  Lemma ok_amax x y : ok x -> ok y -> ok (amax x y).
  Proof. intros Hx Hy. destruct (amax_spec x y Hx Hy) as (_ & _ & [-> | ->]); done. Qed.
  (** [amin]/[amax] on ordered operands, up to numeric equality. *)
  Lemma amin_lo x y : Le x y -> Eqn (amin x y) x.
  Proof.
    intros Hl. destruct (le_ok _ _ Hl). apply eqn_le. rewrite le_amin by done. split; [by apply amin_spec|]. auto using le_refl.
  Qed.
  Lemma amax_hi x y : Le x y -> Eqn (amax x y) y.
  Proof.
    intros Hl. destruct (le_ok _ _ Hl). apply eqn_le. rewrite amax_le by done. split; [|by apply amax_spec]. auto using le_refl.
  Qed.
  Lemma eqn_refl x : ok x -> Eqn x x.
  Proof. intros. apply eqn_le. auto using le_refl. Qed.
  Lemma eqn_sym x y : Eqn x y -> Eqn y x.
  Proof. rewrite !eqn_le. tauto. Qed.
  Lemma eqn_trans x y z : Eqn x y -> Eqn y z -> Eqn x z.
  Proof. rewrite !eqn_le. intros [] []. split; chain. Qed.
  Lemma eqn_le_l x y z : Eqn x y -> Le x z <-> Le y z.
  Proof. rewrite eqn_le. intros []. split; intros; chain. Qed.
  Lemma eqn_le_r x y z : Eqn x y -> Le z x <-> Le z y.
  Proof. rewrite eqn_le. intros []. split; intros; chain. Qed.

  (** One axis of [new]: the interval. *)
  Lemma new_axis x y z : ok x -> ok y ->
    Le (amin x y) (amax x y) /\ (Le z (amin x y) <-> Le z x /\ Le z y) /\ (Le (amax x y) z <-> Le x z /\ Le y z).
  Proof.
    intros Hx Hy. split_and!; [|by apply le_amin|by apply amax_le].
    eapply le_trans; [by apply amin_spec|by apply amax_spec].
  Qed.
  (** One axis of [grow]. *)
  Definition glo (lo hi p : S) : S := amin (amin lo p) (amax hi p).
  Definition ghi (lo hi p : S) : S := amax (amin lo p) (amax hi p).
  Lemma grow_axis lo hi p z : Le lo hi -> ok p ->
    Le (glo lo hi p) (ghi lo hi p)
    /\ (Le z (glo lo hi p) <-> Le z lo /\ Le z p) /\ (Le (ghi lo hi p) z <-> Le hi z /\ Le p z)
    /\ (Le (glo lo hi p) z <-> Le lo z \/ Le p z) /\ (Le z (ghi lo hi p) <-> Le z hi \/ Le z p).
  Proof.
    intros Hl Hp. destruct (le_ok _ _ Hl) as [Hlo Hhi]. unfold glo, ghi.
    assert (Le (amin lo p) (amax hi p)) as Hm.
    { apply (le_trans _ lo); [by apply amin_spec|]. apply (le_trans _ hi); [exact Hl|]. by apply amax_spec. }
    pose proof (amin_lo _ _ Hm) as E1. pose proof (amax_hi _ _ Hm) as E2.
    rewrite (eqn_le_l _ _ _ E1), (eqn_le_l _ _ _ E2), !(eqn_le_r _ _ _ E2), !(eqn_le_r _ _ _ E1), (eqn_le_l _ _ _ E1).
    rewrite le_amin, amax_le by done. split_and!; try done.
    - split.
      + destruct (amin_spec lo p Hlo Hp) as (_ & _ & [-> | ->]); auto.
      + destruct (amin_spec lo p Hlo Hp) as (? & ? & _). intros [?|?]; chain.
    - split.
      + destruct (amax_spec hi p Hhi Hp) as (_ & _ & [-> | ->]); auto.
      + destruct (amax_spec hi p Hhi Hp) as (? & ? & _). intros [?|?]; chain.
  Qed.
End ord.

Section aabb.
  Context {S : Type} `{NumOrd S}.

  Lemma in2_ok b p : in2 b p -> ok2 p.
  Proof. intros [[Hx _] [Hy _]]. split; by eapply le_ok. Qed.
  Lemma in3_ok b p : in3 b p -> ok3 p.
  Proof. intros ([Hx _] & [Hy _] & [Hz _]). split_and!; by eapply le_ok. Qed.
  Lemma box2_corners b : box2 b -> in2 b (min2 b) /\ in2 b (max2 b).
  Proof.
    intros [Hx Hy]. destruct (le_ok _ _ Hx), (le_ok _ _ Hy). unfold in2. split_and!; auto using le_refl.
  Qed.
  Lemma box3_corners b : box3 b -> in3 b (min3 b) /\ in3 b (max3 b).
  Proof.
    intros (Hx & Hy & Hz). destruct (le_ok _ _ Hx), (le_ok _ _ Hy), (le_ok _ _ Hz). unfold in3. split_and!; auto using le_refl.
  Qed.
  Lemma subset2_iff a b : box2 a ->
    subset2 a b <-> in2 b (min2 a) /\ in2 b (max2 a).
  Proof.
    intros Ha. split.
    - intros Hs. destruct (box2_corners a Ha). auto.
    - intros [[[] []] [[] []]] p [[] []]. unfold in2. split_and!; chain.
  Qed.
  Lemma subset3_iff a b : box3 a ->
    subset3 a b <-> in3 b (min3 a) /\ in3 b (max3 a).
  Proof.
    intros Ha. split.
    - intros Hs. destruct (box3_corners a Ha). auto.
    - intros [([] & [] & []) ([] & [] & [])] p ([] & [] & []). unfold in3. split_and!; chain.
  Qed.
  Lemma same2_iff a b : box2 a -> box2 b -> same2 a b <-> subset2 a b /\ subset2 b a.
  Proof.
    intros Ha Hb. rewrite !subset2_iff by done. destruct Ha, Hb. unfold same2, in2. rewrite !eqn_le. split.
    - intros [[[] []] [[] []]]. split_and!; auto; chain.
    - tauto.
  Qed.
  Lemma same3_iff a b : box3 a -> box3 b -> same3 a b <-> subset3 a b /\ subset3 b a.
  Proof.
    intros Ha Hb. rewrite !subset3_iff by done. destruct Ha as (?&?&?), Hb as (?&?&?). unfold same3, in3. rewrite !eqn_le. split.
    - intros [([] & [] & []) ([] & [] & [])]. split_and!; auto; chain.
    - tauto.
  Qed.

  Lemma new2_spec p q : ok2 p -> ok2 q ->
    box2 (aabb2_new p q) /\ in2 (aabb2_new p q) p /\ in2 (aabb2_new p q) q
    /\ forall b, in2 b p -> in2 b q -> subset2 (aabb2_new p q) b.
  Proof.
    intros [Px Py] [Qx Qy]. unfold aabb2_new. split_and!.
    - split; simpl; by apply (new_axis _ _ n0).
    - unfold in2; simpl. split_and!; (by apply amin_spec) || (by apply amax_spec).
    - unfold in2; simpl. split_and!; (by apply amin_spec) || (by apply amax_spec).
    - intros b [[] []] [[] []] r. unfold in2; simpl. intros [[] []].
      split_and!; (eapply le_trans; [|done]; by apply le_amin) || (eapply le_trans; [done|]; by apply amax_le).
  Qed.
  Lemma new3_spec p q : ok3 p -> ok3 q ->
    box3 (aabb3_new p q) /\ in3 (aabb3_new p q) p /\ in3 (aabb3_new p q) q
    /\ forall b, in3 b p -> in3 b q -> subset3 (aabb3_new p q) b.
  Proof.
    intros (Px & Py & Pz) (Qx & Qy & Qz). unfold aabb3_new. split_and!.
    - split_and!; simpl; by apply (new_axis _ _ n0).
    - unfold in3; simpl. split_and!; (by apply amin_spec) || (by apply amax_spec).
    - unfold in3; simpl. split_and!; (by apply amin_spec) || (by apply amax_spec).
    - intros b ([] & [] & []) ([] & [] & []) r. unfold in3; simpl. intros ([] & [] & []).
      split_and!; (eapply le_trans; [|done]; by apply le_amin) || (eapply le_trans; [done|]; by apply amax_le).
  Qed.

  (** C21 *)
  Theorem C21_new2_least_box p q : ok2 p -> ok2 q ->
    box2 (aabb2_new p q)
    /\ least2 (fun b => in2 b p /\ in2 b q) (aabb2_new p q)
    /\ same2 (aabb2_new p q) (aabb2_new q p).
  Proof.
    intros Hp Hq. destruct (new2_spec p q Hp Hq) as (? & ? & ? & Hl). destruct (new2_spec q p Hq Hp) as (? & ? & ? & Hl').
    split_and!; [done| |].
    - split; [done|]. intros b []. auto.
    - apply same2_iff; auto.
  Qed.
  Theorem C21_new3_least_box p q : ok3 p -> ok3 q ->
    box3 (aabb3_new p q)
    /\ least3 (fun b => in3 b p /\ in3 b q) (aabb3_new p q)
    /\ same3 (aabb3_new p q) (aabb3_new q p).
  Proof.
    intros Hp Hq. destruct (new3_spec p q Hp Hq) as (? & ? & ? & Hl). destruct (new3_spec q p Hq Hp) as (? & ? & ? & Hl').
    split_and!; [done| |].
    - split; [done|]. intros b []. auto.
    - apply same3_iff; auto.
  Qed.

  Lemma grow2_spec b p : box2 b -> ok2 p ->
    box2 (grow2 b p) /\ subset2 b (grow2 b p) /\ in2 (grow2 b p) p
    /\ forall b', subset2 b b' -> in2 b' p -> subset2 (grow2 b p) b'.
  Proof.
    intros Hb [Px Py]. pose proof Hb as [Bx By].
    assert (Hbox : box2 (grow2 b p)). { split; simpl; by apply (grow_axis _ _ _ n0). }
    pose proof (fun z => grow_axis _ _ _ z Bx Px) as Gx. pose proof (fun z => grow_axis _ _ _ z By Py) as Gy.
    assert (Hin : forall r, in2 b r \/ r = p -> in2 (grow2 b p) r).
    { intros r Hr. unfold in2, grow2; simpl. fold (glo (ux (min2 b)) (ux (max2 b)) (ux p)) (ghi (ux (min2 b)) (ux (max2 b)) (ux p)).
      fold (glo (uy (min2 b)) (uy (max2 b)) (uy p)) (ghi (uy (min2 b)) (uy (max2 b)) (uy p)).
      destruct (Gx (ux r)) as (_ & _ & _ & -> & ->). destruct (Gy (uy r)) as (_ & _ & _ & -> & ->).
      destruct Hr as [[[] []]| ->]; auto using le_refl. }
    split_and!; auto.
    - intros r Hr. auto.
    - intros b' Hs Hp'. apply subset2_iff; [done|]. rewrite subset2_iff in Hs by done.
      destruct Hs as [[[] []] [[] []]], Hp' as [[] []].
      assert (HX : Le (ux (min2 b')) (ux (min2 (grow2 b p))) /\ Le (ux (max2 (grow2 b p))) (ux (max2 b'))).
      { split; [apply (Gx (ux (min2 b')))|apply (Gx (ux (max2 b')))]; auto. }
      assert (HY : Le (uy (min2 b')) (uy (min2 (grow2 b p))) /\ Le (uy (max2 (grow2 b p))) (uy (max2 b'))).
      { split; [apply (Gy (uy (min2 b')))|apply (Gy (uy (max2 b')))]; auto. }
      destruct HX, HY, Hbox. unfold in2. split_and!; auto; chain.
  Qed.
  Lemma grow3_spec b p : box3 b -> ok3 p ->
    box3 (grow3 b p) /\ subset3 b (grow3 b p) /\ in3 (grow3 b p) p
    /\ forall b', subset3 b b' -> in3 b' p -> subset3 (grow3 b p) b'.
  Proof.
    intros Hb (Px & Py & Pz). pose proof Hb as (Bx & By & Bz).
    assert (Hbox : box3 (grow3 b p)). { split_and!; simpl; by apply (grow_axis _ _ _ n0). }
    pose proof (fun z => grow_axis _ _ _ z Bx Px) as Gx. pose proof (fun z => grow_axis _ _ _ z By Py) as Gy.
    pose proof (fun z => grow_axis _ _ _ z Bz Pz) as Gz.
    assert (Hin : forall r, in3 b r \/ r = p -> in3 (grow3 b p) r).
    { intros r Hr. unfold in3, grow3; simpl. fold (glo (vx (min3 b)) (vx (max3 b)) (vx p)) (ghi (vx (min3 b)) (vx (max3 b)) (vx p)).
      fold (glo (vy (min3 b)) (vy (max3 b)) (vy p)) (ghi (vy (min3 b)) (vy (max3 b)) (vy p)).
      fold (glo (vz (min3 b)) (vz (max3 b)) (vz p)) (ghi (vz (min3 b)) (vz (max3 b)) (vz p)).
      destruct (Gx (vx r)) as (_ & _ & _ & -> & ->). destruct (Gy (vy r)) as (_ & _ & _ & -> & ->).
      destruct (Gz (vz r)) as (_ & _ & _ & -> & ->).
      destruct Hr as [([] & [] & [])| ->]; split_and!; auto using le_refl. }
    split_and!; auto.
    - intros r Hr. auto.
    - intros b' Hs Hp'. apply subset3_iff; [done|]. rewrite subset3_iff in Hs by done.
      destruct Hs as [([] & [] & []) ([] & [] & [])], Hp' as ([] & [] & []).
      assert (HX : Le (vx (min3 b')) (vx (min3 (grow3 b p))) /\ Le (vx (max3 (grow3 b p))) (vx (max3 b'))).
      { split; [apply (Gx (vx (min3 b')))|apply (Gx (vx (max3 b')))]; auto. }
      assert (HY : Le (vy (min3 b')) (vy (min3 (grow3 b p))) /\ Le (vy (max3 (grow3 b p))) (vy (max3 b'))).
      { split; [apply (Gy (vy (min3 b')))|apply (Gy (vy (max3 b')))]; auto. }
      assert (HZ : Le (vz (min3 b')) (vz (min3 (grow3 b p))) /\ Le (vz (max3 (grow3 b p))) (vz (max3 b'))).
      { split; [apply (Gz (vz (min3 b')))|apply (Gz (vz (max3 b')))]; auto. }
      destruct HX, HY, HZ, Hbox as (? & ? & ?). unfold in3. split_and!; auto; chain.
  Qed.

  (** C22 *)
  Lemma union2_spec a b : box2 a -> box2 b ->
    box2 (union2 a b) /\ subset2 a (union2 a b) /\ subset2 b (union2 a b)
    /\ forall c, subset2 a c -> subset2 b c -> subset2 (union2 a b) c.
  Proof.
    intros Ha Hb. unfold union2. destruct (box2_corners b Hb) as [Hm HM].
    destruct (grow2_spec a (min2 b) Ha (in2_ok _ _ Hm)) as (H1 & H2 & H3 & H4).
    destruct (grow2_spec _ (max2 b) H1 (in2_ok _ _ HM)) as (H5 & H6 & H7 & H8).
    split_and!; [done| | |].
    - intros p Hp. auto.
    - apply subset2_iff; auto.
    - intros c Ca Cb. apply H8; auto.
  Qed.
  Lemma union3_spec a b : box3 a -> box3 b ->
    box3 (union3 a b) /\ subset3 a (union3 a b) /\ subset3 b (union3 a b)
    /\ forall c, subset3 a c -> subset3 b c -> subset3 (union3 a b) c.
  Proof.
    intros Ha Hb. unfold union3. destruct (box3_corners b Hb) as [Hm HM].
    destruct (grow3_spec a (min3 b) Ha (in3_ok _ _ Hm)) as (H1 & H2 & H3 & H4).
    destruct (grow3_spec _ (max3 b) H1 (in3_ok _ _ HM)) as (H5 & H6 & H7 & H8).
    split_and!; [done| | |].
    - intros p Hp. auto.
    - apply subset3_iff; auto.
    - intros c Ca Cb. apply H8; auto.
  Qed.
  Theorem C22_union2_least_upper_bound a b : box2 a -> box2 b ->
    box2 (union2 a b) /\ least2 (fun c => subset2 a c /\ subset2 b c) (union2 a b).
  Proof.
    intros Ha Hb. destruct (union2_spec a b Ha Hb) as (? & ? & ? & Hl). split; [done|]. split; [done|]. intros c []. auto.
  Qed.
  Theorem C22_union3_least_upper_bound a b : box3 a -> box3 b ->
    box3 (union3 a b) /\ least3 (fun c => subset3 a c /\ subset3 b c) (union3 a b).
  Proof.
    intros Ha Hb. destruct (union3_spec a b Ha Hb) as (? & ? & ? & Hl). split; [done|]. split; [done|]. intros c []. auto.
  Qed.
  Theorem C22_union2_semilattice a b c : box2 a -> box2 b -> box2 c ->
    same2 (union2 a b) (union2 b a)
    /\ same2 (union2 a (union2 b c)) (union2 (union2 a b) c)
    /\ same2 (union2 a a) a.
  Proof.
    intros Ha Hb Hc. destruct (union2_spec a b Ha Hb) as (Hab & I1 & I2 & I3). destruct (union2_spec b a Hb Ha) as (Hba & J1 & J2 & J3).
    destruct (union2_spec b c Hb Hc) as (Hbc & K1 & K2 & K3). destruct (union2_spec _ c Hab Hc) as (L & L1 & L2 & L3).
    destruct (union2_spec a _ Ha Hbc) as (M & M1 & M2 & M3). destruct (union2_spec a a Ha Ha) as (N & N1 & N2 & N3).
    split_and!; apply same2_iff; try done; split; unfold subset2 in *.
    - by apply I3.
    - by apply J3.
    - apply M3; [exact (fun p h => L1 p (I1 p h))|apply K3; [exact (fun p h => L1 p (I2 p h))|exact L2]].
    - apply L3; [apply I3; [exact M1|exact (fun p h => M2 p (K1 p h))]|exact (fun p h => M2 p (K2 p h))].
    - by apply N3.
    - done.
  Qed.
  Theorem C22_union3_semilattice a b c : box3 a -> box3 b -> box3 c ->
    same3 (union3 a b) (union3 b a)
    /\ same3 (union3 a (union3 b c)) (union3 (union3 a b) c)
    /\ same3 (union3 a a) a.
  Proof.
    intros Ha Hb Hc. destruct (union3_spec a b Ha Hb) as (Hab & I1 & I2 & I3). destruct (union3_spec b a Hb Ha) as (Hba & J1 & J2 & J3).
    destruct (union3_spec b c Hb Hc) as (Hbc & K1 & K2 & K3). destruct (union3_spec _ c Hab Hc) as (L & L1 & L2 & L3).
    destruct (union3_spec a _ Ha Hbc) as (M & M1 & M2 & M3). destruct (union3_spec a a Ha Ha) as (N & N1 & N2 & N3).
    split_and!; apply same3_iff; try done; split; unfold subset3 in *.
    - by apply I3.
    - by apply J3.
    - apply M3; [exact (fun p h => L1 p (I1 p h))|apply K3; [exact (fun p h => L1 p (I2 p h))|exact L2]].
    - apply L3; [apply I3; [exact M1|exact (fun p h => M2 p (K1 p h))]|exact (fun p h => M2 p (K2 p h))].
    - by apply N3.
    - done.
  Qed.

  (** C23 *)
  Theorem C23_grow2_least_box b p : box2 b -> ok2 p ->
    box2 (grow2 b p) /\ least2 (fun b' => subset2 b b' /\ in2 b' p) (grow2 b p).
  Proof. intros Hb Hp. destruct (grow2_spec b p Hb Hp) as (? & ? & ? & Hl). split; [done|]. split; [done|]. intros c []. auto. Qed.
  Theorem C23_grow3_least_box b p : box3 b -> ok3 p ->
    box3 (grow3 b p) /\ least3 (fun b' => subset3 b b' /\ in3 b' p) (grow3 b p).
  Proof. intros Hb Hp. destruct (grow3_spec b p Hb Hp) as (? & ? & ? & Hl). split; [done|]. split; [done|]. intros c []. auto. Qed.
  Theorem C23_contains2_point_half_open b p : contains2_pt b p = true <-> in2_half b p.
  Proof. unfold contains2_pt, in2_half, Le, Lt_. rewrite !andb_true_iff. tauto. Qed.
  Theorem C23_contains3_point_half_open b p : contains3_pt b p = true <-> in3_half b p.
  Proof. unfold contains3_pt, in3_half, Le, Lt_. rewrite !andb_true_iff. tauto. Qed.
  (** A NaN coordinate of the point is ignored: that side of the box stays as it is. *)
  Theorem C23_nan_ignored (b : Aabb2 S) (B : Aabb3 S) p P : box2 b -> box3 B ->
    (~ ok (ux p) -> Eqn (ux (min2 (grow2 b p))) (ux (min2 b)) /\ Eqn (ux (max2 (grow2 b p))) (ux (max2 b)))
    /\ (~ ok (uy p) -> Eqn (uy (min2 (grow2 b p))) (uy (min2 b)) /\ Eqn (uy (max2 (grow2 b p))) (uy (max2 b)))
    /\ (~ ok (vx P) -> Eqn (vx (min3 (grow3 B P))) (vx (min3 B)) /\ Eqn (vx (max3 (grow3 B P))) (vx (max3 B)))
    /\ (~ ok (vy P) -> Eqn (vy (min3 (grow3 B P))) (vy (min3 B)) /\ Eqn (vy (max3 (grow3 B P))) (vy (max3 B)))
    /\ (~ ok (vz P) -> Eqn (vz (min3 (grow3 B P))) (vz (min3 B)) /\ Eqn (vz (max3 (grow3 B P))) (vz (max3 B))).
  Proof.
    assert (Hax : forall lo hi n, Le lo hi -> ~ ok n -> Eqn (glo lo hi n) lo /\ Eqn (ghi lo hi n) hi).
    { intros lo hi n Hl Hn. assert (amin lo n = lo) as E1 by (unfold amin; by rewrite pcmp_nan by auto). assert (amax hi n = hi) as E2 by (unfold amax; by rewrite pcmp_nan by auto).
      unfold glo, ghi. rewrite E1, E2. split; [by apply amin_lo|by apply amax_hi]. }
    intros (H1 & H2) (H3 & H4 & H5). split_and!; intros Hn; by apply Hax.
  Qed.
  (** The order of the corners of a new box matters if one is NaN: a NaN in the second is
      ignored, a NaN in the first stays. *)
  Theorem C21_nan_order p q : (~ ok (ux q) -> ux (min2 (aabb2_new p q)) = ux p /\ ux (max2 (aabb2_new p q)) = ux p)
    /\ (~ ok (ux p) -> ~ ok (ux (min2 (aabb2_new p q))) /\ ~ ok (ux (max2 (aabb2_new p q)))).
  Proof. split; intros Hn; cbn; unfold amin, amax; rewrite pcmp_nan by auto; done. Qed.
  (** A point that does not lie strictly below the maximum on some axis is never contained in the
      grown box, although the box was grown to include it. *)
  Theorem C23_contains2_after_grow_refuted b p : box2 b -> ok2 p ->
    Le (ux (max2 b)) (ux p) \/ Le (uy (max2 b)) (uy p) -> contains2_pt (grow2 b p) p = false.
  Proof.
    intros [Bx By] [Px Py] Hle. apply not_true_is_false. rewrite C23_contains2_point_half_open. intros [[_ H1] [_ H2]].
    assert (Hgen : forall lo hi q, Le lo hi -> ok q -> Le hi q -> nlt q (ghi lo hi q) = false).
    { intros lo hi q Hl Hq Hhq. destruct (nlt q (ghi lo hi q)) eqn:E; [|done].
      apply lt_not_le in E. assert (Le (ghi lo hi q) q) as E2 by (apply (grow_axis lo hi q q Hl Hq); auto using le_refl).
      unfold Le in E2. congruence. }
    unfold Lt_ in *. simpl in *. destruct Hle as [Hle|Hle].
    - rewrite (Hgen _ _ _ Bx Px Hle : nlt _ (amax _ _) = _) in H1. done.
    - rewrite (Hgen _ _ _ By Py Hle : nlt _ (amax _ _) = _) in H2. done.
  Qed.
  Theorem C23_contains3_after_grow_refuted b p : box3 b -> ok3 p ->
    Le (vx (max3 b)) (vx p) \/ Le (vy (max3 b)) (vy p) \/ Le (vz (max3 b)) (vz p) -> contains3_pt (grow3 b p) p = false.
  Proof.
    intros (Bx & By & Bz) (Px & Py & Pz) Hle. apply not_true_is_false. rewrite C23_contains3_point_half_open. intros ([_ H1] & [_ H2] & [_ H3]).
    assert (Hgen : forall lo hi q, Le lo hi -> ok q -> Le hi q -> nlt q (ghi lo hi q) = false).
    { intros lo hi q Hl Hq Hhq. destruct (nlt q (ghi lo hi q)) eqn:E; [|done].
      apply lt_not_le in E. assert (Le (ghi lo hi q) q) as E2 by (apply (grow_axis lo hi q q Hl Hq); auto using le_refl).
      unfold Le in E2. congruence. }
    unfold Lt_ in *. simpl in *. destruct Hle as [Hle|[Hle|Hle]].
    - rewrite (Hgen _ _ _ Bx Px Hle : nlt _ (amax _ _) = _) in H1. done.
    - rewrite (Hgen _ _ _ By Py Hle : nlt _ (amax _ _) = _) in H2. done.
    - rewrite (Hgen _ _ _ Bz Pz Hle : nlt _ (amax _ _) = _) in H3. done.
  Qed.

  (** C24 *)
  Theorem C24_contains2_is_subset a b : box2 b -> contains2 a b = true <-> subset2 b a.
  Proof.
    intros Hb. rewrite subset2_iff by done. unfold contains2. rewrite !andb_true_iff.
    fold (Le (ux (min2 a)) (ux (min2 b))) (Le (uy (min2 a)) (uy (min2 b))) (Le (ux (max2 b)) (ux (max2 a))) (Le (uy (max2 b)) (uy (max2 a))).
    destruct Hb. unfold in2. split; [|tauto]. intros [[[? ?] ?] ?]. split_and!; auto; chain.
  Qed.
  Theorem C24_contains3_is_subset a b : box3 b -> contains3 a b = true <-> subset3 b a.
  Proof.
    intros Hb. rewrite subset3_iff by done. unfold contains3. rewrite !andb_true_iff.
    fold (Le (vx (min3 a)) (vx (min3 b))) (Le (vy (min3 a)) (vy (min3 b))) (Le (vz (min3 a)) (vz (min3 b)))
         (Le (vx (max3 b)) (vx (max3 a))) (Le (vy (max3 b)) (vy (max3 a))) (Le (vz (max3 b)) (vz (max3 a))).
    destruct Hb as (? & ? & ?). unfold in3. split; [|tauto]. intros [[[[[? ?] ?] ?] ?] ?]. split_and!; auto; chain.
  Qed.
  Theorem C24_contains2_partial_order a b c : box2 a -> box2 b -> box2 c ->
    contains2 a a = true
    /\ (contains2 a b = true -> contains2 b c = true -> contains2 a c = true)
    /\ (contains2 a b = true -> contains2 b a = true -> same2 a b)
    /\ contains2 (union2 a b) a = true /\ contains2 (union2 a b) b = true.
  Proof.
    intros Ha Hb Hc. destruct (union2_spec a b Ha Hb) as (? & ? & ? & _).
    rewrite !C24_contains2_is_subset, same2_iff by done. unfold subset2 in *. split_and!; eauto.
  Qed.
  Theorem C24_contains3_partial_order a b c : box3 a -> box3 b -> box3 c ->
    contains3 a a = true
    /\ (contains3 a b = true -> contains3 b c = true -> contains3 a c = true)
    /\ (contains3 a b = true -> contains3 b a = true -> same3 a b)
    /\ contains3 (union3 a b) a = true /\ contains3 (union3 a b) b = true.
  Proof.
    intros Ha Hb Hc. destruct (union3_spec a b Ha Hb) as (? & ? & ? & _).
    rewrite !C24_contains3_is_subset, same3_iff by done. unfold subset3 in *. split_and!; eauto.
  Qed.

  (** C25 *)
  (** Some axis separates the boxes, touching allowed. *)
  Definition separated2 (a b : Aabb2 S) : Prop :=
    Le (ux (max2 a)) (ux (min2 b)) \/ Le (ux (max2 b)) (ux (min2 a))
    \/ Le (uy (max2 a)) (uy (min2 b)) \/ Le (uy (max2 b)) (uy (min2 a)).
  Definition separated3 (A B : Aabb3 S) : Prop :=
    Le (vx (max3 A)) (vx (min3 B)) \/ Le (vx (max3 B)) (vx (min3 A))
    \/ Le (vy (max3 A)) (vy (min3 B)) \/ Le (vy (max3 B)) (vy (min3 A))
    \/ Le (vz (max3 A)) (vz (min3 B)) \/ Le (vz (max3 B)) (vz (min3 A)).
  Lemma nlt_nle x y : ok x -> ok y -> nlt x y = true <-> ~ Le y x.
  Proof. intros Hx Hy. rewrite ord_lt by done. unfold Le. rewrite negb_true_iff. by rewrite not_true_iff_false. Qed.
  Theorem C25_intersects2_iff_not_separated a b : box2 a -> box2 b ->
    (intersects2 a b = true <-> ~ separated2 a b) /\ intersects2 a b = intersects2 b a.
  Proof.
    assert (Hgen : forall a b, box2 a -> box2 b -> intersects2 a b = true <-> ~ separated2 a b).
    { clear a b. intros a b [Ax Ay] [Bx By]. destruct (le_ok _ _ Ax), (le_ok _ _ Ay), (le_ok _ _ Bx), (le_ok _ _ By).
      unfold intersects2, separated2. rewrite !andb_true_iff, !nlt_nle by done. tauto. }
    intros Ha Hb. split; [by apply Hgen|]. apply eq_true_iff_eq. rewrite !Hgen by done. unfold separated2. tauto.
  Qed.
  Theorem C25_intersects3_iff_not_separated a b : box3 a -> box3 b ->
    (intersects3 a b = true <-> ~ separated3 a b) /\ intersects3 a b = intersects3 b a.
  Proof.
    assert (Hgen : forall a b, box3 a -> box3 b -> intersects3 a b = true <-> ~ separated3 a b).
    { clear a b. intros a b (Ax & Ay & Az) (Bx & By & Bz).
      destruct (le_ok _ _ Ax), (le_ok _ _ Ay), (le_ok _ _ Az), (le_ok _ _ Bx), (le_ok _ _ By), (le_ok _ _ Bz).
      unfold intersects3, separated3. rewrite !andb_true_iff, !nlt_nle by done. tauto. }
    intros Ha Hb. split; [by apply Hgen|]. apply eq_true_iff_eq. rewrite !Hgen by done. unfold separated3. tauto.
  Qed.
  (** A box intersects itself iff it is not flat. *)
  Theorem C25_flat_boxes_miss_themselves (a : Aabb2 S) (A : Aabb3 S) :
    (intersects2 a a = true <-> Lt_ (ux (min2 a)) (ux (max2 a)) /\ Lt_ (uy (min2 a)) (uy (max2 a)))
    /\ (intersects3 A A = true <-> Lt_ (vx (min3 A)) (vx (max3 A)) /\ Lt_ (vy (min3 A)) (vy (max3 A)) /\ Lt_ (vz (min3 A)) (vz (max3 A))).
  Proof. unfold intersects2, intersects3, Lt_. rewrite !andb_true_iff. tauto. Qed.
End aabb.
