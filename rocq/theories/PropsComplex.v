(** C44: shapes made of several primitives. *)
From Coq Require Import Psatz.
From stdpp Require Import prelude.
From Flocq Require Import IEEE754.BinarySingleNaN.
From Coq Require Import Reals Lra.
From Verif Require Import Res Num FloatMono Vec AabbModel GeoModel RealGeo PrimModel ShapeSpec PropsSupport MinkModel MinkSpec Gjk2 Gjk3 PropsGjk2 PropsGjk3
  PropsEpa2 Dist PrimEnum PropsDist PropsNarrow Toi2 PropsToi Complex ComplexModel.
Local Open Scope R_scope.

(** ** What the loops compute, for any numbers with the order laws (floats included) *)
Section loops.
  Context {S V L R : Type} `{NumOrd S} (inter : L * R -> res (option (Contact S V))) (ls : list L) (rs : list R).
  (** [FullResolution]: a contact of some pair, with the largest depth. *)
  Theorem C44_deepest :
    (forall l r, l ∈ ls -> r ∈ rs -> exists o, inter (l, r) = Ok o /\ forall c, o = Some c -> ok (c_depth c)) ->
    exists o, intersection_complex inter FullResolution ls rs = Ok o /\
      match o with
      | None => forall l r, l ∈ ls -> r ∈ rs -> inter (l, r) = Ok None
      | Some c => (exists l r, l ∈ ls /\ r ∈ rs /\ inter (l, r) = Ok (Some c)) /\
          forall l r c', l ∈ ls -> r ∈ rs -> inter (l, r) = Ok (Some c') -> Le (c_depth c') (c_depth c)
      end.
  Proof.
    intros Ht. unfold intersection_complex.
    assert (Ht' : forall p, p ∈ pairs ls rs -> exists o, inter p = Ok o /\ forall c, o = Some c -> ok (c_depth c)).
    { intros [l r] Hp. apply pairs_elem in Hp as [Hl Hr]. by apply Ht. }
    rewrite complex_loop_full by (intros p Hp; destruct (Ht' p Hp) as (o & Eo & _); by eexists).
    cbn [mbind res_mbind res_bind app].
    assert (Hok : forall c, c ∈ contacts inter (pairs ls rs) -> ok (c_depth c)).
    { intros c Hc. apply contacts_elem in Hc as (p & Hp & E). destruct (Ht' p Hp) as (o & Eo & Ho). rewrite E in Eo.
      injection Eo as <-. by apply Ho. }
    destruct (contacts inter (pairs ls rs)) as [|c cs] eqn:Ec.
    - exists None. split; [done|]. intros l r Hl Hr. assert (Hp : (l, r) ∈ pairs ls rs) by by apply pairs_elem.
      destruct (Ht' _ Hp) as (o & Eo & _). rewrite Eo. destruct o as [c|]; [|done].
      assert (Hc : c ∈ contacts inter (pairs ls rs)) by (apply contacts_elem; eauto). rewrite Ec in Hc. by apply elem_of_nil in Hc.
    - destruct (max_by_depth_spec cs c) as (m & Em & Hm & Hmax); [apply Hok; left|intros c' Hc'; apply Hok; by right|].
      rewrite Em. cbn [mbind res_mbind res_bind]. exists (Some m). split; [done|]. rewrite <- Ec in Hm. split.
      + apply contacts_elem in Hm as ([l r] & Hp & E). apply pairs_elem in Hp as [Hl Hr]. by exists l, r.
      + intros l r c' Hl Hr E. apply Hmax. rewrite <- Ec. apply contacts_elem. exists (l, r). split; [by apply pairs_elem|done].
  Qed.
  (** A depth that is not a number, with any other contact: panic. *)
  Theorem C44_nan_depth_panics p q c c' :
    (forall p, p ∈ pairs ls rs -> exists o, inter p = Ok o) -> p ∈ pairs ls rs -> q ∈ pairs ls rs -> p <> q ->
    inter p = Ok (Some c) -> inter q = Ok (Some c') -> ~ ok (c_depth c) ->
    intersection_complex inter FullResolution ls rs = Panic.
  Proof.
    intros Ht Hp Hq Hne Ep Eq Hn. unfold intersection_complex. rewrite complex_loop_full by done. cbn [mbind res_mbind res_bind app].
    assert (Hc : c ∈ contacts inter (pairs ls rs)) by (apply contacts_elem; eauto).
    assert (Hl : (2 <= length (contacts inter (pairs ls rs)))%nat).
    { clear Ht Hc. revert Hp Hq. generalize (pairs ls rs). intros ps Hp Hq. unfold contacts.
      assert (Hone : forall ps p c, p ∈ ps -> inter p = Ok (Some c) -> (1 <= length (mjoin (outcome inter <$> ps)))%nat).
      { intros ps' p' c0 Hp' E'. induction ps' as [|x ps' IH]; [by apply elem_of_nil in Hp'|]. cbn [fmap list_fmap mjoin list_join].
        rewrite app_length. apply elem_of_cons in Hp' as [->|Hp']; [unfold outcome at 1; rewrite E'; cbn; lia|].
        specialize (IH Hp'). unfold mjoin, list_join, fmap, list_fmap in *. lia. }
      induction ps as [|x ps IH]; [by apply elem_of_nil in Hp|]. cbn [fmap list_fmap mjoin list_join]. rewrite app_length.
      apply elem_of_cons in Hp as [->|Hp]; apply elem_of_cons in Hq as [->|Hq]; [done| | |].
      - unfold outcome at 1. rewrite Ep. pose proof (Hone ps q c' Hq Eq). cbn. unfold mjoin, list_join, fmap, list_fmap in *. lia.
      - unfold outcome at 1. rewrite Eq. pose proof (Hone ps p c Hp Ep). cbn. unfold mjoin, list_join, fmap, list_fmap in *. lia.
      - specialize (IH Hp Hq). unfold mjoin, list_join, fmap, list_fmap in *. lia. }
    destruct (contacts inter (pairs ls rs)) as [|c0 [|c1 cs]]; cbn [length] in Hl; [lia..|].
    rewrite max_by_depth_nan; [done|done|]. exists c. done.
  Qed.
  Lemma pairs_split l0 l ls' r0 r rs' : ls = l0 ++ l :: ls' -> rs = r0 ++ r :: rs' ->
    exists ps2, pairs ls rs = (pairs l0 rs ++ ((fun y => (l, y)) <$> r0)) ++ (l, r) :: ps2.
  Proof.
    intros -> Ers. exists (((fun y => (l, y)) <$> rs') ++ pairs ls' rs). unfold pairs. rewrite bind_app. cbn [mbind list_bind].
    rewrite <- !app_assoc. f_equal. rewrite Ers at 1.
    assert (Hb : forall rs0 : list R, (r ← rs0; [(l, r)]) = (fun y => (l, y)) <$> rs0).
    { induction rs0 as [|y rs0 IH]; [done|]. cbn. by f_equal. }
    rewrite Hb, fmap_app. cbn. by rewrite <- app_assoc.
  Qed.
  (** [CollisionOnly]: the first pair, in the order of the nested loops, with a contact; the
      pairs after it are not looked at. *)
  Theorem C44_collision_only l0 l ls' r0 r rs' c :
    ls = l0 ++ l :: ls' -> rs = r0 ++ r :: rs' ->
    (forall x y, x ∈ l0 -> y ∈ rs -> inter (x, y) = Ok None) -> (forall y, y ∈ r0 -> inter (l, y) = Ok None) ->
    inter (l, r) = Ok (Some c) -> intersection_complex inter CollisionOnly ls rs = Ok (Some c).
  Proof.
    intros Els Ers Hl Hr Hc. unfold intersection_complex.
    destruct (pairs_split _ _ _ _ _ _ Els Ers) as [ps2 ->]. rewrite (complex_loop_first _ _ _ c); [done| |done].
    intros [x y] Hxy. apply elem_of_app in Hxy as [Hxy|Hxy].
    - apply pairs_elem in Hxy as [Hx Hy]. by apply Hl.
    - apply elem_of_list_fmap in Hxy as (y' & [= -> ->] & Hy). by apply Hr.
  Qed.
  (** The same for the time of impact: the contact of that pair, relabelled [CollisionOnly]. *)
  Theorem C44_collision_only_toi l0 l ls' r0 r rs' c :
    ls = l0 ++ l :: ls' -> rs = r0 ++ r :: rs' ->
    (forall x y, x ∈ l0 -> y ∈ rs -> inter (x, y) = Ok None) -> (forall y, y ∈ r0 -> inter (l, y) = Ok None) ->
    inter (l, r) = Ok (Some c) ->
    exists c', complex_toi inter CollisionOnly ls rs = Ok (Some c') /\ c_strategy c' = CollisionOnly
      /\ c_normal c' = c_normal c /\ c_depth c' = c_depth c /\ c_point c' = c_point c /\ c_toi c' = c_toi c.
  Proof.
    intros Els Ers Hl Hr Hc. unfold complex_toi.
    destruct (pairs_split _ _ _ _ _ _ Els Ers) as [ps2 ->]. rewrite (complex_loop_first _ _ _ c); [by eexists| |done].
    intros [x y] Hxy. apply elem_of_app in Hxy as [Hxy|Hxy].
    - apply pairs_elem in Hxy as [Hx Hy]. by apply Hl.
    - apply elem_of_list_fmap in Hxy as (y' & [= -> ->] & Hy). by apply Hr.
  Qed.
  Theorem C44_collision_only_none :
    intersection_complex inter CollisionOnly ls rs = Ok None <-> forall l r, l ∈ ls -> r ∈ rs -> inter (l, r) = Ok None.
  Proof.
    unfold intersection_complex. split.
    - intros E. destruct (complex_loop inter CollisionOnly (pairs ls rs) []) as [[o acc]| |] eqn:El; [|done..].
      cbn [mbind res_mbind res_bind] in E. destruct (complex_loop_only_inv _ _ _ _ _ El) as [-> Ho]. destruct o as [c|]; [done|].
      intros l r Hl Hr. apply Ho. by apply pairs_elem.
    - intros Hn. assert (El : forall ps acc, (forall p, p ∈ ps -> inter p = Ok None) -> complex_loop inter CollisionOnly ps acc = Ok (None, acc)).
      { induction ps as [|p ps IH]; intros acc Hps; [done|]. rewrite complex_loop_only. rewrite Hps by left. apply IH. intros q Hq. apply Hps. by right. }
      rewrite El; [done|]. intros [l r] Hp. apply pairs_elem in Hp as [Hl Hr]. by apply Hn.
  Qed.
  (** Time of impact, [FullResolution]: a contact of some pair, with the smallest time. *)
  Theorem C44_earliest :
    (forall l r, l ∈ ls -> r ∈ rs -> exists o, inter (l, r) = Ok o /\ forall c, o = Some c -> ok (c_toi c)) ->
    exists o, complex_toi inter FullResolution ls rs = Ok o /\
      match o with
      | None => forall l r, l ∈ ls -> r ∈ rs -> inter (l, r) = Ok None
      | Some c => (exists l r, l ∈ ls /\ r ∈ rs /\ inter (l, r) = Ok (Some c)) /\
          forall l r c', l ∈ ls -> r ∈ rs -> inter (l, r) = Ok (Some c') -> Le (c_toi c) (c_toi c')
      end.
  Proof.
    intros Ht. unfold complex_toi.
    assert (Ht' : forall p, p ∈ pairs ls rs -> exists o, inter p = Ok o /\ forall c, o = Some c -> ok (c_toi c)).
    { intros [l r] Hp. apply pairs_elem in Hp as [Hl Hr]. by apply Ht. }
    rewrite complex_loop_full by (intros p Hp; destruct (Ht' p Hp) as (o & Eo & _); by eexists).
    cbn [mbind res_mbind res_bind app].
    assert (Hok : forall c, c ∈ contacts inter (pairs ls rs) -> ok (c_toi c)).
    { intros c Hc. apply contacts_elem in Hc as (p & Hp & E). destruct (Ht' p Hp) as (o & Eo & Ho). rewrite E in Eo.
      injection Eo as <-. by apply Ho. }
    destruct (contacts inter (pairs ls rs)) as [|c cs] eqn:Ec.
    - exists None. split; [done|]. intros l r Hl Hr. assert (Hp : (l, r) ∈ pairs ls rs) by by apply pairs_elem.
      destruct (Ht' _ Hp) as (o & Eo & _). rewrite Eo. destruct o as [c|]; [|done].
      assert (Hc : c ∈ contacts inter (pairs ls rs)) by (apply contacts_elem; eauto). rewrite Ec in Hc. by apply elem_of_nil in Hc.
    - destruct (min_by_toi_spec cs c) as (Hm & Hmin); [apply Hok; left|intros c' Hc'; apply Hok; by right|].
      eexists. split; [done|]. rewrite <- Ec in Hm. split.
      + apply contacts_elem in Hm as ([l r] & Hp & E). apply pairs_elem in Hp as [Hl Hr]. by exists l, r.
      + intros l r c' Hl Hr E. apply Hmin. rewrite <- Ec. apply contacts_elem. exists (l, r). split; [by apply pairs_elem|done].
  Qed.
  (** Distance: the smallest of the pairs; [None] as soon as one pair has none (collides), or
      when a shape is empty. *)
  Theorem C44_min_distance (dist : L * R -> res (option S)) :
    (forall l r, l ∈ ls -> r ∈ rs -> exists o, dist (l, r) = Ok o /\ forall d, o = Some d -> ok d) ->
    exists o, distance_complex dist ls rs = Ok o /\
      match o with
      | None => (exists l r, l ∈ ls /\ r ∈ rs /\ dist (l, r) = Ok None) \/ ls = [] \/ rs = []
      | Some d => (exists l r, l ∈ ls /\ r ∈ rs /\ dist (l, r) = Ok (Some d)) /\
          forall l r, l ∈ ls -> r ∈ rs -> exists d', dist (l, r) = Ok (Some d') /\ Le d d'
      end.
  Proof.
    intros Ht. unfold distance_complex.
    destruct (dist_complex_loop_spec dist (pairs ls rs) None) as (o & E & Ho); [|done|].
    { intros [l r] Hp. apply pairs_elem in Hp as [Hl Hr]. by apply Ht. }
    exists o. split; [done|]. destruct o as [d|].
    - destruct Ho as (_ & Hall & _ & Hin). split.
      + destruct Hin as [?|([l r] & Hp & Eq)]; [done|]. apply pairs_elem in Hp as [Hl Hr]. by exists l, r.
      + intros l r Hl Hr. apply Hall. by apply pairs_elem.
    - destruct Ho as [([l r] & Hp & Eq)|[E0 _]]; [|right; by apply pairs_nil].
      left. apply pairs_elem in Hp as [Hl Hr]. by exists l, r.
  Qed.
  Theorem C44_empty_shape st dist : ls = [] \/ rs = [] ->
    intersection_complex inter st ls rs = Ok None /\ complex_toi inter st ls rs = Ok None /\ distance_complex (R:=R) dist ls rs = Ok None.
  Proof. intros He. apply pairs_nil in He. unfold intersection_complex, complex_toi, distance_complex. by rewrite He. Qed.
End loops.

(** ** The shapes as sets of points, over the reals *)
(** A point of the shape: a point of some part, moved by its local transform and then by the
    transform of the shape. *)
Definition shape2_set (T : D2 R) (s : shape2 R) (x : P2) : Prop :=
  exists p t y, (p, t) ∈ s /\ prim2_set p y /\ x = xf_pt (d2_xf 0 T) (xf_pt (d2_xf 0 t) y).
Definition shape3_set (T : D3 R) (s : shape3 R) (x : P3) : Prop :=
  exists p t y, (p, t) ∈ s /\ prim3_set p y /\ x = xf_pt (d3_xf 0 T) (xf_pt (d3_xf 0 t) y).
(** Scales are not zero, rotations are rotations. *)
Definition valid2 (t : D2 R) : Prop := d2_s t <> 0 /\ orthonormal (d2_rot t).
Definition valid3 (t : D3 R) : Prop := d3_s t <> 0 /\ unit_quat (d3_rot t).
Definition shape2_ok (s : shape2 R) : Prop := forall p t, (p, t) ∈ s -> prim2_ok p /\ valid2 t.
Definition shape3_ok (s : shape3 R) : Prop := forall p t, (p, t) ∈ s -> prim3_ok p /\ valid3 t.

Lemma concat2_pt a b p : xf_pt (d2_xf 0 (concat2 a b)) p = xf_pt (d2_xf 0 a) (xf_pt (d2_xf 0 b) p).
Proof.
  destruct a as [s1 [m11 m12] v1], b as [s2 [m21 m22] v2]. unfold d2_xf, concat2, m2_mm, decomposed2, m2_mul.
  cbn [xf_pt d2_s d2_rot d2_disp m2_x m2_y ux uy]. apply V2_eq; rv0; ring.
Qed.
Lemma ortho_mm a b : orthonormal a -> orthonormal b -> orthonormal (m2_mm a b).
Proof.
  intros (A1 & A2 & A3) (B1 & B2 & B3). destruct a as [[a1 a2] [a3 a4]], b as [[b1 b2] [b3 b4]].
  unfold orthonormal, m2_mm, m2_mul in *. cbn [m2_x m2_y] in *. rv0. cbn [ux uy] in *.
  assert (E : forall x y z w, (a1 * x + a3 * y) * (a1 * z + a3 * w) + (a2 * x + a4 * y) * (a2 * z + a4 * w) = x * z + y * w).
  { intros x y z w. replace (_ + _) with ((a1 * a1 + a2 * a2) * (x * z) + (a3 * a3 + a4 * a4) * (y * w) + (a1 * a3 + a2 * a4) * (x * w + y * z)) by ring.
    rewrite A1, A2, A3. ring. }
  by rewrite !E.
Qed.
Lemma concat2_valid a b : valid2 a -> valid2 b -> valid2 (concat2 a b).
Proof. intros [A1 A2] [B1 B2]. split; [by apply Rmult_integral_contrapositive_currified|by apply ortho_mm]. Qed.
Lemma valid2_similar t : valid2 t -> similar2 (d2_xf 0 t).
Proof. intros [H1 H2]. apply C38_decomposed2; [lra|by apply Rabs_pos_lt|done]. Qed.

Lemma quat_mul_unit a b : unit_quat a -> unit_quat b -> unit_quat (quat_mul a b).
Proof.
  unfold unit_quat. intros Ha Hb. replace 1 with (quat_mag2 a * quat_mag2 b) by (rewrite Ha, Hb; ring). clear Ha Hb.
  destruct a as [s1 [x1 y1 z1]], b as [s2 [x2 y2 z2]]. unfold quat_mag2, quat_mul. cbn [q_s q_v]. rv0. cbn [vx vy vz]. ring.
Qed.
(** The rotation by a unit quaternion, homogeneous in its coordinates. *)
Definition hrot (q : Quat (S:=R)) (v : P3) : P3 :=
  add3 (add3 (scale3 v (q_s q * q_s q - dot3 (q_v q) (q_v q))) (scale3 (q_v q) (2 * dot3 (q_v q) v))) (scale3 (cross3 (q_v q) v) (2 * q_s q)).
Lemma quat_rot_hrot q v : unit_quat q -> quat_rot q v = hrot q v.
Proof.
  intros Hq. unfold unit_quat, quat_mag2 in Hq. destruct q as [s [x y z]], v as [a b c]. cbn [q_s q_v] in Hq.
  assert (E : s * s = 1 - (x * x + y * y + z * z)) by (rv0; cbn [vx vy vz] in Hq; lra). clear Hq.
  unfold quat_rot, hrot. cbn [q_s q_v]. rv0. cbn [vx vy vz]. rewrite E. f_equal; ring.
Qed.
Lemma hrot_mul a b v : hrot (quat_mul a b) v = hrot a (hrot b v).
Proof.
  destruct a as [s1 [x1 y1 z1]], b as [s2 [x2 y2 z2]], v as [v1 v2 v3]. unfold hrot, quat_mul. cbn [q_s q_v]. rv0. cbn [vx vy vz].
  f_equal; ring.
Qed.
Lemma hrot_add a v w : hrot a (add3 v w) = add3 (hrot a v) (hrot a w).
Proof. destruct a as [s1 [x1 y1 z1]], v as [v1 v2 v3], w as [w1 w2 w3]. unfold hrot. cbn [q_s q_v]. rv0. cbn [vx vy vz]. f_equal; ring. Qed.
Lemma hrot_scale a v k : hrot a (scale3 v k) = scale3 (hrot a v) k.
Proof. destruct a as [s1 [x1 y1 z1]], v as [v1 v2 v3]. unfold hrot. cbn [q_s q_v]. rv0. cbn [vx vy vz]. f_equal; ring. Qed.
Lemma concat3_pt a b p : valid3 a -> valid3 b -> xf_pt (d3_xf 0 (concat3 a b)) p = xf_pt (d3_xf 0 a) (xf_pt (d3_xf 0 b) p).
Proof.
  intros [_ Ha] [_ Hb]. unfold d3_xf, concat3, decomposed3. cbn [xf_pt d3_s d3_rot d3_disp].
  rewrite !quat_rot_hrot by (try apply quat_mul_unit; done).
  rewrite hrot_mul, !hrot_scale, hrot_add, hrot_scale. clear. set (x := hrot (d3_rot a) (hrot (d3_rot b) p)). set (y := hrot (d3_rot a) (d3_disp b)).
  clearbody x y. apply V3_eq; rv0; ring.
Qed.
Lemma concat3_valid a b : valid3 a -> valid3 b -> valid3 (concat3 a b).
Proof. intros [A1 A2] [B1 B2]. split; [by apply Rmult_integral_contrapositive_currified|by apply quat_mul_unit]. Qed.
Lemma valid3_similar t : valid3 t -> similar3 (d3_xf 0 t).
Proof. intros [H1 H2]. apply C38_decomposed3; [lra|by apply Rabs_pos_lt|done]. Qed.

(** The part [l] of a shape at [T], as a set. *)
Definition part2_set (T : D2 R) (l : Primitive2 R * D2 R) : P2 -> Prop := world (d2_xf 0 (concat2 T l.2)) (prim2_set l.1).
Definition part3_set (T : D3 R) (l : Primitive3 R * D3 R) : P3 -> Prop := world (d3_xf 0 (concat3 T l.2)) (prim3_set l.1).
Lemma shape2_parts T s x : shape2_set T s x <-> exists l, l ∈ s /\ part2_set T l x.
Proof.
  split.
  - intros (p & t & y & Hs & Hy & ->). exists (p, t). split; [done|]. exists y. split; [done|]. symmetry. apply concat2_pt.
  - intros ([p t] & Hs & y & Hy & ->). exists p, t, y. split; [done|]. split; [done|]. apply concat2_pt.
Qed.
Lemma shape3_parts T s x : valid3 T -> shape3_ok s -> shape3_set T s x <-> exists l, l ∈ s /\ part3_set T l x.
Proof.
  intros HT Hok. split.
  - intros (p & t & y & Hs & Hy & ->). exists (p, t). split; [done|]. exists y. split; [done|]. symmetry. apply concat3_pt; [done|by eapply Hok].
  - intros ([p t] & Hs & y & Hy & ->). exists p, t, y. split; [done|]. split; [done|]. apply concat3_pt; [done|by eapply Hok].
Qed.

Lemma okR (x : R) : ok x.
Proof. exact I. Qed.
Lemma LeR (x y : R) : Le x y <-> x <= y.
Proof. apply Rleb_true. Qed.

Section plane.
  Context (L M : shape2 R) (TL TR : D2 R) (HL : shape2_ok L) (HM : shape2_ok M) (VL : valid2 TL) (VR : valid2 TR).
  Notation A := (shape2_set TL L).
  Notation B := (shape2_set TR M).
  Lemma part2_spec (s : shape2 R) T l : shape2_ok s -> valid2 T -> l ∈ s ->
    supports2 (part2_set T l) (part2_support 0 T l) /\ convex2 (part2_set T l) /\ forall d, exists x, part2_support 0 T l d = Ok x.
  Proof.
    intros Hs HT Hl. destruct l as [p t]. destruct (Hs p t Hl) as [Hp Ht].
    pose proof (valid2_similar _ (concat2_valid T t HT Ht)) as Hsim. split; [by apply prim2_supports|].
    split; [by apply prim2_world_convex|]. intros d. by apply prim2_total.
  Qed.
  (** The contact test returns; a hit means a common point; no hit means that every part is
      separated from every other part, or that the iterations ran out for it. *)
  Theorem C44_intersection2 tol st n : 0 < tol ->
    exists o, complex2_intersection 0 tol st n L TL M TR = Ok o /\
      (o <> None -> exists x, A x /\ B x) /\
      (o = None -> forall l r, l ∈ L -> r ∈ M -> separated2 (part2_set TL l) (part2_set TR r) \/
         gjk2_run 0 (part2_support 0 TL l) (part2_support 0 TR r) n (origin2 0 TL l) (origin2 0 TR r) = Ok Exhausted).
  Proof.
    intros Ht. unfold complex2_intersection. set (inter := fun '(l, r) => _).
    assert (Hpair : forall l r, l ∈ L -> r ∈ M -> exists o, inter (l, r) = Ok o /\
      (o = None <-> gjk2_intersect 0 (part2_support 0 TL l) (part2_support 0 TR r) n (origin2 0 TL l) (origin2 0 TR r) = Ok None) /\
      (exists g, gjk2_intersect 0 (part2_support 0 TL l) (part2_support 0 TR r) n (origin2 0 TL l) (origin2 0 TR r) = Ok g)).
    { intros l r Hl Hr. destruct (part2_spec L TL l HL VL Hl) as (S1 & C1 & T1), (part2_spec M TR r HM VR Hr) as (S2 & C2 & T2).
      unfold inter. destruct (C39_no_panic _ _ _ _ S1 S2 0 n (origin2 0 TL l) (origin2 0 TR r) (Rle_refl 0)) as [g Eg]. destruct st.
      - destruct (C41_no_panic _ _ _ _ S1 S2 C1 C2 tol Ht n (origin2 0 TL l) (origin2 0 TR r) T1 T2) as (o & E & Ho).
        exists o. split; [done|]. split; [done|]. by eexists.
      - unfold gjk2_intersection. rewrite Eg. cbn [mbind res_mbind res_bind]. destruct g; (eexists; split; [done|]; split; [done|by eexists]). }
    assert (Hret : exists o, intersection_complex inter st L M = Ok o).
    { destruct st.
      - destruct (C44_deepest inter L M) as (o & E & _); [|by eexists].
        intros l r Hl Hr. destruct (Hpair l r Hl Hr) as (o & E & _). exists o. split; [done|]. intros; apply okR.
      - unfold intersection_complex.
        assert (Hloop : forall ps acc, (forall p, p ∈ ps -> exists o, inter p = Ok o) -> exists o, complex_loop inter CollisionOnly ps acc = Ok o).
        { induction ps as [|p ps IH]; intros acc Hp; rewrite complex_loop_only; [by eexists|].
          destruct (Hp p ltac:(left)) as [[c|] ->]; [by eexists|]. apply IH. intros q Hq. apply Hp. by right. }
        destruct (Hloop (pairs L M) []) as [[o acc] E].
        { intros [l r] Hp. apply pairs_elem in Hp as [Hl Hr]. destruct (Hpair l r Hl Hr) as (o & E & _). by eexists. }
        rewrite E. cbn [mbind res_mbind res_bind]. destruct (complex_loop_only_inv _ _ _ _ _ E) as [-> _]. by destruct o; eexists. }
    destruct Hret as [o E]. exists o. split; [done|]. split.
    - intros Ho. destruct o as [c|]; [|done]. destruct (intersection_complex_from _ _ _ _ _ E) as (l & r & Hl & Hr & Ec).
      destruct (Hpair l r Hl Hr) as (o & Eo & Ho' & [g Eg]). rewrite Ec in Eo. injection Eo as <-.
      destruct (part2_spec L TL l HL VL Hl) as (S1 & C1 & T1), (part2_spec M TR r HM VR Hr) as (S2 & C2 & T2).
      destruct g as [s|]; [|by specialize (proj2 Ho' Eg)].
      destruct (C39_hit_means_overlap _ _ _ _ S1 S2 n _ _ s C1 C2 Eg) as (x & Hx & Hy). exists x.
      split; apply shape2_parts; by eexists.
    - intros -> l r Hl Hr. pose proof (intersection_complex_none _ _ _ _ l r E Hl Hr) as En.
      destruct (Hpair l r Hl Hr) as (o & Eo & Ho' & _). rewrite En in Eo. injection Eo as <-.
      destruct (part2_spec L TL l HL VL Hl) as (S1 & C1 & T1), (part2_spec M TR r HM VR Hr) as (S2 & C2 & T2).
      exact (C39_none_means_separated _ _ _ _ S1 S2 0 n _ _ (Rle_refl 0) (proj1 Ho' eq_refl)).
  Qed.
  (** The contact is that of two parts (and as good as C41 says), and no pair of parts has a
      deeper one. *)
  Theorem C44_contact2 tol n ct : 0 < tol ->
    complex2_intersection 0 tol FullResolution n L TL M TR = Ok (Some ct) ->
    (exists l r, l ∈ L /\ r ∈ M /\ (c_normal ct <> zero2 -> good_contact2 (part2_set TL l) (part2_set TR r) ct)) /\
    forall l r c, l ∈ L -> r ∈ M ->
      gjk2_intersection 0 (part2_support 0 TL l) (part2_support 0 TR r) tol FullResolution n (origin2 0 TL l) (origin2 0 TR r) = Ok (Some c) ->
      c_depth c <= c_depth ct.
  Proof.
    intros Ht. unfold complex2_intersection. set (inter := fun '(l, r) => _). intros E.
    destruct (C44_deepest inter L M) as (o & Eo & Ho).
    { intros l r Hl Hr. destruct (part2_spec L TL l HL VL Hl) as (S1 & C1 & T1), (part2_spec M TR r HM VR Hr) as (S2 & C2 & T2).
      destruct (C41_no_panic _ _ _ _ S1 S2 C1 C2 tol Ht n (origin2 0 TL l) (origin2 0 TR r) T1 T2) as (o & Eo & _).
      exists o. split; [done|]. intros; apply okR. }
    rewrite E in Eo. injection Eo as <-. destruct Ho as [(l & r & Hl & Hr & Ec) Hmax]. split.
    - exists l, r. split; [done|]. split; [done|]. intros Hn.
      destruct (part2_spec L TL l HL VL Hl) as (S1 & C1 & T1), (part2_spec M TR r HM VR Hr) as (S2 & C2 & T2).
      exact (C41_contact_good _ _ _ _ S1 S2 C1 C2 tol Ht n _ _ ct Ec Hn).
    - intros l' r' c Hl' Hr' Ec'. apply LeR. by apply (Hmax l' r' c).
  Qed.
  (** Distances. *)
  Theorem C44_distance2 tol n : 0 <= tol ->
    exists o, complex2_distance 0 tol n L TL M TR = Ok o /\ forall D, o = Some D -> distance2 A B tol D.
  Proof.
    intros Htol. unfold complex2_distance. set (dist := fun '(l, r) => _).
    assert (Hpair : forall l r, l ∈ L -> r ∈ M -> exists o, dist (l, r) = Ok o /\ forall D, o = Some D -> distance2 (part2_set TL l) (part2_set TR r) tol D).
    { intros l r Hl Hr. destruct (part2_spec L TL l HL VL Hl) as (S1 & C1 & T1), (part2_spec M TR r HM VR Hr) as (S2 & C2 & T2).
      destruct (C42_distance2 _ _ _ _ S1 S2 C1 C2 0 tol (Rle_refl 0) n (origin2 0 TL l) (origin2 0 TR r)) as (o & E & Ho).
      unfold dist. rewrite E. eexists. split; [done|]. done. }
    destruct (C44_min_distance L M dist) as (o & E & Ho).
    { intros l r Hl Hr. destruct (Hpair l r Hl Hr) as (o & E & _). exists o. split; [done|]. intros; apply okR. }
    exists o. split; [done|]. intros D ->. destruct Ho as [(l & r & Hl & Hr & Ed) Hmin].
    destruct (Hpair l r Hl Hr) as (o & Eo & Ho). rewrite Ed in Eo. injection Eo as <-. destruct (Ho D eq_refl) as (HD & (x & y & Hx & Hy & Exy) & _).
    split; [done|]. split.
    - exists x, y. split; [apply shape2_parts; by eexists|]. split; [apply shape2_parts; by eexists|done].
    - intros x' y' Hx' Hy'. apply shape2_parts in Hx' as (l' & Hl' & Hx'). apply shape2_parts in Hy' as (r' & Hr' & Hy').
      destruct (Hmin l' r' Hl' Hr') as (D' & Ed' & Hle). apply LeR in Hle.
      destruct (Hpair l' r' Hl' Hr') as (o' & Eo' & Ho'). rewrite Ed' in Eo'. injection Eo' as <-.
      destruct (Ho' D' eq_refl) as (HD' & _ & Hlow). specialize (Hlow x' y' Hx' Hy').
      assert (tol / D' <= tol / D). { apply Rmult_le_compat_l; [done|]. by apply Rinv_le_contravar. } lra.
  Qed.
  (** Time of impact of shapes that are only displaced. *)
  Context (vl vr : P2) (Hv : vl <> vr).
  Notation moved T v := (mkD2 (d2_s T) (d2_rot T) (add2 (d2_disp T) v)).
  Lemma moved_origin T v (l : Primitive2 R * D2 R) : sub2 (origin2 0 (moved T v) l) (origin2 0 T l) = v.
  Proof.
    unfold origin2. rewrite !concat2_pt. unfold d2_xf at 1 3, decomposed2. cbn [xf_pt d2_s d2_rot d2_disp].
    set (x := m2_mul _ _). clearbody x. apply V2_eq; rv0; ring.
  Qed.
  Theorem C44_toi2 tol st fuel : 0 <= tol ->
    match complex2_toi 0 tol st fuel L TL (moved TL vl) M TR (moved TR vr) with
    | Panic => False
    | OutOfFuel => True
    | Ok None => forall m, 0 <= m <= 1 -> ~ meets2 A B vl vr m
    | Ok (Some ct) => 0 <= c_toi ct <= 1 /\ near_at2 A B vl vr (c_toi ct) tol /\
        (st = FullResolution -> forall m, 0 <= m < c_toi ct -> ~ meets2 A B vl vr m)
    end.
  Proof.
    intros Htol. unfold complex2_toi. set (inter := fun '(l, r) => _).
    assert (Hpair : forall l r, l ∈ L -> r ∈ M ->
      match inter (l, r) with
      | Panic => False
      | OutOfFuel => True
      | Ok None => forall m, 0 <= m <= 1 -> ~ meets2 (part2_set TL l) (part2_set TR r) vl vr m
      | Ok (Some ct) => 0 <= c_toi ct <= 1 /\ (forall m, 0 <= m < c_toi ct -> ~ meets2 (part2_set TL l) (part2_set TR r) vl vr m) /\
        near_at2 (part2_set TL l) (part2_set TR r) vl vr (c_toi ct) tol
      end).
    { intros l r Hl Hr. destruct (part2_spec L TL l HL VL Hl) as (S1 & C1 & T1), (part2_spec M TR r HM VR Hr) as (S2 & C2 & T2).
      unfold inter. rewrite !moved_origin.
      pose proof (toi2_spec _ _ _ _ S1 S2 C1 C2 0 tol Htol fuel vl vr
        (fun t p => xf_pt (d2_xf 0 (lerp_disp2 (concat2 TR r.2) (concat2 (moved TR vr) r.2) t)) p) Hv) as Hs.
      destruct (gjk2_toi _ _ _ _ _ _ _ _) as [[ct|]| |]; try done. destruct Hs as (H1 & H2 & H3 & _). done. }
    assert (Hnp : complex_toi inter st L M <> Panic).
    { unfold complex_toi. assert (Hloop : forall ps acc, (forall p, p ∈ ps -> inter p <> Panic) -> complex_loop inter st ps acc <> Panic).
      { induction ps as [|p ps IH]; intros acc Hp; [done|]. cbn [complex_loop]. assert (Hp' : inter p <> Panic) by (apply Hp; left).
        destruct (inter p) as [[c|]| |]; cbn [mbind res_mbind res_bind]; try done; [destruct st; [|done]|]; apply IH; intros q Hq; apply Hp; by right. }
      specialize (Hloop (pairs L M) []). destruct (complex_loop inter st (pairs L M) []) as [[o acc]| |] eqn:El; cbn [mbind res_mbind res_bind]; try done.
      - destruct o; [done|]. by destruct acc.
      - exfalso. apply Hloop; [|done]. intros [l r] Hp. apply pairs_elem in Hp as [Hl Hr]. specialize (Hpair l r Hl Hr). by destruct (inter (l, r)). }
    destruct (complex_toi inter st L M) as [[ct|]| |] eqn:E; try done.
    - destruct (complex_toi_from _ _ _ _ _ E) as (l & r & c' & Hl & Hr & Ec & Ect).
      assert (Et : c_toi ct = c_toi c') by (rewrite Ect; by destruct st).
      pose proof (Hpair l r Hl Hr) as Hp. rewrite Ec in Hp. destruct Hp as (Hp1 & Hp2 & Hp3). rewrite Et. split; [done|]. split.
      + destruct Hp3 as (x & y & Hx & Hy & Hd). exists x, y. split; [apply shape2_parts; by eexists|]. split; [apply shape2_parts; by eexists|done].
      + intros -> m Hm (x & y & Hx & Hy & Exy). apply shape2_parts in Hx as (l' & Hl' & Hx). apply shape2_parts in Hy as (r' & Hr' & Hy).
        destruct (complex_toi_full_min _ _ _ _ E (fun _ _ c _ _ _ => okR (c_toi c)) l' r' Hl' Hr') as (o & Eo & Ho).
        specialize (Hpair l' r' Hl' Hr'). rewrite Eo in Hpair.
        assert (Hme : meets2 (part2_set TL l') (part2_set TR r') vl vr m) by by exists x, y.
        destruct o as [c2|]; [|apply (Hpair m); [lra|done]]. destruct Hpair as (_ & Hfree & _). apply (Hfree m); [|done].
        specialize (Ho c2 eq_refl). apply LeR in Ho. lra.
    - intros m Hm (x & y & Hx & Hy & Exy). apply shape2_parts in Hx as (l' & Hl' & Hx). apply shape2_parts in Hy as (r' & Hr' & Hy).
      pose proof (complex_toi_none _ _ _ _ l' r' E Hl' Hr') as En. specialize (Hpair l' r' Hl' Hr'). rewrite En in Hpair.
      apply (Hpair m); [done|]. by exists x, y.
  Qed.
  (** The contact point of a full resolution: the displacement until the impact, taken through
      the right part as it stands at that time. *)
  Theorem C44_toi_point2 tol fuel ct : 0 <= tol ->
    complex2_toi 0 tol FullResolution fuel L TL (moved TL vl) M TR (moved TR vr) = Ok (Some ct) ->
    let t := c_toi ct in exists p T, (p, T) ∈ M /\
      c_point ct = xf_pt (d2_xf 0 (moved TR (scale2 vr t))) (xf_pt (d2_xf 0 T) (scale2 (sub2 vr vl) t)).
  Proof.
    intros Htol. unfold complex2_toi. set (inter := fun '(l, r) => _). intros E.
    destruct (complex_toi_from _ _ _ _ _ E) as (l & r & c' & Hl & Hr & Ec & Ect). cbn in Ect. subst c'.
    destruct (part2_spec L TL l HL VL Hl) as (S1 & C1 & T1), (part2_spec M TR r HM VR Hr) as (S2 & C2 & T2).
    unfold inter in Ec. rewrite !moved_origin in Ec.
    pose proof (toi2_spec _ _ _ _ S1 S2 C1 C2 0 tol Htol fuel vl vr
        (fun t p => xf_pt (d2_xf 0 (lerp_disp2 (concat2 TR r.2) (concat2 (moved TR vr) r.2) t)) p) Hv) as Hs.
    rewrite Ec in Hs. destruct Hs as (_ & _ & _ & _ & _ & _ & Hp & _). destruct r as [p T]. exists p, T. split; [done|]. rewrite Hp.
    rewrite <- concat2_pt. generalize (scale2 (sub2 vr vl) (c_toi ct)), (c_toi ct). clear. intros x t.
    unfold d2_xf, decomposed2, lerp_disp2, concat2. cbn [xf_pt d2_s d2_rot d2_disp snd].
    generalize (m2_mul (m2_mm (d2_rot TR) (d2_rot T)) (scale2 x (d2_s TR * d2_s T)%N_)), (m2_mul (d2_rot TR) (scale2 (d2_disp T) (d2_s TR))).
    intros. apply V2_eq; rv0; ring.
  Qed.
End plane.

Section space.
  Context (L M : shape3 R) (TL TR : D3 R) (HL : shape3_ok L) (HM : shape3_ok M) (VL : valid3 TL) (VR : valid3 TR) (tenth : R) (Htenth : 0 < tenth).
  Notation A := (shape3_set TL L).
  Notation B := (shape3_set TR M).
  Lemma part3_spec (s : shape3 R) T l : shape3_ok s -> valid3 T -> l ∈ s ->
    supports3 (part3_set T l) (part3_support 0 T l) /\ convex3 (part3_set T l).
  Proof.
    intros Hs HT Hl. destruct l as [p t]. destruct (Hs p t Hl) as [Hp Ht].
    pose proof (valid3_similar _ (concat3_valid T t HT Ht)) as Hsim. split; [by apply prim3_supports|by apply prim3_world_convex].
  Qed.
  Lemma in_shape3 (s : shape3 R) T l x : shape3_ok s -> valid3 T -> l ∈ s -> part3_set T l x -> shape3_set T s x.
  Proof. intros Hs HT Hl Hx. apply shape3_parts; [done..|]. by eexists. Qed.
  Theorem C44_hit3 tol st n c :
    complex3_intersection 0 tenth tol st n L TL M TR = Ok (Some c) -> exists x, A x /\ B x.
  Proof.
    intros E. destruct (intersection_complex_from _ _ _ _ _ E) as (l & r & Hl & Hr & Ec). unfold gjk3_intersection in Ec.
    destruct (part3_spec L TL l HL VL Hl) as (S1 & C1), (part3_spec M TR r HM VR Hr) as (S2 & C2).
    destruct (gjk3_intersect _ _ _ _ _ _ _) as [[s|]| |] eqn:Eg; [|done..].
    destruct (C40_hit_means_overlap _ _ _ _ S1 S2 0 tenth (Rle_refl 0) Htenth n _ _ s C1 C2 Eg) as (x & Hx & Hy). exists x.
    split; by eapply in_shape3.
  Qed.
  Theorem C44_distance3 tol n D : 0 <= tol ->
    complex3_distance 0 tenth tol n L TL M TR = Ok (Some D) -> distance3 A B tol D.
  Proof.
    intros Htol. unfold complex3_distance. set (dist := fun '(l, r) => _). intros E.
    assert (Hpair : forall l r D, l ∈ L -> r ∈ M -> dist (l, r) = Ok (Some D) -> distance3 (part3_set TL l) (part3_set TR r) tol D).
    { intros l r D' Hl Hr Ed. destruct (part3_spec L TL l HL VL Hl) as (S1 & C1), (part3_spec M TR r HM VR Hr) as (S2 & C2).
      unfold dist in Ed. destruct (dist3_run _ _ _ _ _ _ _ _) as [o| |] eqn:Eo; [|done..]. cbn [mbind res_mbind res_bind] in Ed.
      injection Ed as Ed. by eapply (C42_distance3 _ _ _ _ S1 S2 C1 C2 0 tenth tol (Rle_refl 0)). }
    unfold distance_complex in E. pose proof (dist_complex_loop_some _ _ _ _ E) as Hall.
    destruct (C44_min_distance L M dist) as (o & Eo & Ho).
    { intros l r Hl Hr. destruct (Hall (l, r)) as [d Ed]; [by apply pairs_elem|]. eexists. split; [done|]. intros; apply okR. }
    unfold distance_complex in Eo. rewrite E in Eo. injection Eo as <-. destruct Ho as [(l & r & Hl & Hr & Ed) Hmin].
    destruct (Hpair l r D Hl Hr Ed) as (HD & (x & y & Hx & Hy & Exy) & _).
    split; [done|]. split.
    - exists x, y. split; [by eapply in_shape3|]. split; [by eapply in_shape3|done].
    - intros x' y' Hx' Hy'. apply shape3_parts in Hx' as (l' & Hl' & Hx'); [|done..]. apply shape3_parts in Hy' as (r' & Hr' & Hy'); [|done..].
      destruct (Hmin l' r' Hl' Hr') as (D' & Ed' & Hle). apply LeR in Hle.
      destruct (Hpair l' r' D' Hl' Hr' Ed') as (HD' & _ & Hlow). specialize (Hlow x' y' Hx' Hy').
      assert (tol / D' <= tol / D). { apply Rmult_le_compat_l; [done|]. by apply Rinv_le_contravar. } lra.
  Qed.
  Context (vl vr : P3).
  Notation moved T v := (mkD3 (d3_s T) (d3_rot T) (add3 (d3_disp T) v)).
  Lemma moved_origin3 T v (l : Primitive3 R * D3 R) : valid3 T -> valid3 l.2 -> sub3 (origin3 0 (moved T v) l) (origin3 0 T l) = v.
  Proof.
    intros HT Hl. unfold origin3. rewrite !concat3_pt by done. unfold d3_xf at 1 3, decomposed3. cbn [xf_pt d3_s d3_rot d3_disp].
    set (x := quat_rot _ _). clearbody x. apply V3_eq; rv0; ring.
  Qed.
  Theorem C44_toi3 tol st fuel : 0 <= tol ->
    match complex3_toi 0 tenth tol st fuel L TL (moved TL vl) M TR (moved TR vr) with
    | Panic | OutOfFuel => True
    | Ok None => forall m, 0 <= m <= 1 -> ~ meets3 A B vl vr m
    | Ok (Some ct) => 0 <= c_toi ct <= 1 /\ (st = FullResolution -> forall m, 0 <= m < c_toi ct -> ~ meets3 A B vl vr m)
    end.
  Proof.
    intros Htol. unfold complex3_toi. set (inter := fun '(l, r) => _).
    assert (Hpair : forall l r, l ∈ L -> r ∈ M ->
      match inter (l, r) with
      | Panic | OutOfFuel => True
      | Ok None => forall m, 0 <= m <= 1 -> ~ meets3 (part3_set TL l) (part3_set TR r) vl vr m
      | Ok (Some ct) => 0 <= c_toi ct <= 1 /\ (forall m, 0 <= m < c_toi ct -> ~ meets3 (part3_set TL l) (part3_set TR r) vl vr m)
      end).
    { intros l r Hl Hr. destruct (part3_spec L TL l HL VL Hl) as (S1 & C1), (part3_spec M TR r HM VR Hr) as (S2 & C2).
      unfold inter. rewrite !moved_origin3; [|done|destruct r; by eapply HM|done|destruct l; by eapply HL].
      pose proof (toi3_spec _ _ _ _ S1 S2 0 tenth tol Htol fuel vl vr
        (fun t p => xf_pt (d3_xf 0 (lerp_disp3 (concat3 TR r.2) (concat3 (moved TR vr) r.2) t)) p)) as Hs.
      destruct (gjk3_toi _ _ _ _ _ _ _ _ _) as [[ct|]| |]; try done. destruct Hs as (H1 & H2 & _). done. }
    destruct (complex_toi inter st L M) as [[ct|]| |] eqn:E; try done.
    - destruct (complex_toi_from _ _ _ _ _ E) as (l & r & c' & Hl & Hr & Ec & Ect).
      assert (Et : c_toi ct = c_toi c') by (rewrite Ect; by destruct st).
      pose proof (Hpair l r Hl Hr) as Hp. rewrite Ec in Hp. destruct Hp as (Hp1 & Hp2). rewrite Et. split; [done|].
      intros -> m Hm (x & y & Hx & Hy & Exy). apply shape3_parts in Hx as (l' & Hl' & Hx); [|done..]. apply shape3_parts in Hy as (r' & Hr' & Hy); [|done..].
      destruct (complex_toi_full_min _ _ _ _ E (fun _ _ c _ _ _ => okR (c_toi c)) l' r' Hl' Hr') as (o & Eo & Ho).
      specialize (Hpair l' r' Hl' Hr'). rewrite Eo in Hpair.
      assert (Hme : meets3 (part3_set TL l') (part3_set TR r') vl vr m) by by exists x, y.
      destruct o as [c2|]; [|apply (Hpair m); [lra|done]]. destruct Hpair as (_ & Hfree). apply (Hfree m); [|done].
      specialize (Ho c2 eq_refl). apply LeR in Ho. lra.
    - intros m Hm (x & y & Hx & Hy & Exy). apply shape3_parts in Hx as (l' & Hl' & Hx); [|done..]. apply shape3_parts in Hy as (r' & Hr' & Hy); [|done..].
      pose proof (complex_toi_none _ _ _ _ l' r' E Hl' Hr') as En. specialize (Hpair l' r' Hl' Hr'). rewrite En in Hpair.
      apply (Hpair m); [done|]. by exists x, y.
  Qed.
  (** The contact point of a full resolution: the displacement until the impact, taken through
      the right part as it stands at that time. *)
  Theorem C44_toi_point3 tol fuel ct : 0 <= tol ->
    complex3_toi 0 tenth tol FullResolution fuel L TL (moved TL vl) M TR (moved TR vr) = Ok (Some ct) ->
    let t := c_toi ct in exists p T, (p, T) ∈ M /\
      c_point ct = xf_pt (d3_xf 0 (moved TR (scale3 vr t))) (xf_pt (d3_xf 0 T) (scale3 (sub3 vr vl) t)).
  Proof.
    intros Htol. unfold complex3_toi. set (inter := fun '(l, r) => _). intros E.
    destruct (complex_toi_from _ _ _ _ _ E) as (l & r & c' & Hl & Hr & Ec & Ect). cbn in Ect. subst c'.
    destruct (part3_spec L TL l HL VL Hl) as (S1 & C1), (part3_spec M TR r HM VR Hr) as (S2 & C2).
    unfold inter in Ec. rewrite !moved_origin3 in Ec; [|done|destruct r; by eapply HM|done|destruct l; by eapply HL].
    pose proof (toi3_spec _ _ _ _ S1 S2 0 tenth tol Htol fuel vl vr
        (fun t p => xf_pt (d3_xf 0 (lerp_disp3 (concat3 TR r.2) (concat3 (moved TR vr) r.2) t)) p)) as Hs.
    rewrite Ec in Hs. destruct Hs as (_ & _ & _ & Hp & _). destruct r as [p T]. exists p, T. split; [done|]. rewrite Hp.
    rewrite <- concat3_pt by (try done; by eapply HM). generalize (scale3 (sub3 vr vl) (c_toi ct)), (c_toi ct). clear. intros x t.
    unfold d3_xf, decomposed3, lerp_disp3, concat3. cbn [xf_pt d3_s d3_rot d3_disp snd].
    generalize (quat_rot (quat_mul (d3_rot TR) (d3_rot T)) (scale3 x (d3_s TR * d3_s T)%N_)), (quat_rot (d3_rot TR) (scale3 (d3_disp T) (d3_s TR))).
    intros. apply V3_eq; rv0; ring.
  Qed.
End space.

(** ** The hypotheses are met, and what goes wrong *)
(** A disc and, five to its right and turned by a quarter, a rectangle, at twice the size. *)
Definition quarter : M2 (S:=R) := mkM2 (mk2 0 1) (mk2 (-1) 0).
Definition no_turn : M2 (S:=R) := mkM2 (mk2 1 0) (mk2 0 1).
Definition two_parts : shape2 R := [(Circle 1, mkD2 1 no_turn zero2); (Rectangle (mk2 2 4), mkD2 1 quarter (mk2 5 0))].
Definition twice : D2 R := mkD2 2 no_turn (mk2 1 1).
Example C44_hypotheses_met : shape2_ok two_parts /\ valid2 twice /\
  shape2_set twice two_parts (mk2 15 1) /\ ~ shape2_set twice two_parts (mk2 4 1).
Proof.
  assert (O1 : orthonormal no_turn) by (unfold orthonormal, no_turn; cbn [m2_x m2_y]; rv0; lra).
  assert (O2 : orthonormal quarter) by (unfold orthonormal, quarter; cbn [m2_x m2_y]; rv0; lra).
  split; [|split; [|split]].
  - intros p t Hp. unfold two_parts in Hp. apply elem_of_cons in Hp as [[= -> ->]|Hp]; [|apply elem_of_list_singleton in Hp as [= -> ->]].
    + split; [cbn; lra|]. split; [cbn; lra|done].
    + split; [cbn; lra|]. split; [cbn; lra|done].
  - split; [cbn; lra|done].
  - exists (Rectangle (mk2 2 4)), (mkD2 1 quarter (mk2 5 0)), (mk2 0 (-2)). split; [right; left|]. split.
    + cbn. unfold rect_set. cbn [ux uy]. lra.
    + unfold d2_xf, decomposed2, twice, quarter, no_turn, m2_mul. cbn [xf_pt d2_s d2_rot d2_disp m2_x m2_y]. apply V2_eq; rv0; lra.
  - intros (p & t & y & Hp & Hy & E). unfold two_parts in Hp. apply elem_of_cons in Hp as [[= -> ->]|Hp]; [|apply elem_of_list_singleton in Hp as [= -> ->]].
    + cbn in Hy. unfold disc in Hy. apply (f_equal ux) in E.
      unfold d2_xf, decomposed2, twice, no_turn, m2_mul, zero2 in E. cbn [xf_pt d2_s d2_rot d2_disp m2_x m2_y ux uy] in E. rv0. cbn [ux uy] in *. nra.
    + cbn in Hy. unfold rect_set in Hy. apply (f_equal ux) in E.
      unfold d2_xf, decomposed2, twice, quarter, no_turn, m2_mul, zero2 in E. cbn [xf_pt d2_s d2_rot d2_disp m2_x m2_y ux uy] in E. rv0. cbn [ux uy] in *. nra.
Qed.
Local Instance num32c : Num f32 := Num_float 24 128.
Local Instance sgn32c : NumSgn f32 := NumSgn_float 24 128.
Definition at32 (x y : Z) : D2 f32 := mkD2 (F32 1 0) (mkM2 (f2 1 0) (f2 0 1)) (f2 x y).
Definition sq32 : Primitive2 f32 := Square (F32 2 0).
(** Two squares at x = 0 and x = 6, and one moving from x = 12 by (-8, 0), single precision:
    the impact with the near one is at time 1/2 ([FullResolution]). *)
Theorem C44_runs :
  (match complex2_toi (F32 1 (-23)) (F32 1 (-20)) FullResolution 100 [(sq32, at32 0 0); (sq32, at32 6 0)] (at32 0 0) (at32 0 0)
      [(sq32, at32 0 0)] (at32 12 0) (at32 4 0) with
   | Ok (Some ct) => neq (c_toi ct) (F32 1 (-1)) | _ => false end) = true /\
  (match complex2_intersection (F32 1 (-23)) (F32 1 (-16)) FullResolution 100 [(sq32, at32 0 0); (sq32, at32 6 0)] (at32 0 0)
      [(sq32, at32 0 0)] (at32 5 1) with
   | Ok (Some ct) => nlt (F32 0 0) (c_depth ct) | _ => false end) = true.
Proof. split; by vm_compute. Qed.
(** In [CollisionOnly] mode the time is that of the first pair that meets, not the earliest:
    time 1 with the far square (at x = 2, moving by (-10, 0)). *)
Theorem C44_collision_only_time_refuted :
  (match complex2_toi (F32 1 (-23)) (F32 1 (-20)) CollisionOnly 100 [(sq32, at32 0 0); (sq32, at32 6 0)] (at32 0 0) (at32 0 0)
      [(sq32, at32 0 0)] (at32 12 0) (at32 2 0) with
   | Ok (Some ct) => neq (c_toi ct) (F32 1 0) | _ => false end) = true /\
  (match complex2_toi (F32 1 (-23)) (F32 1 (-20)) FullResolution 100 [(sq32, at32 0 0); (sq32, at32 6 0)] (at32 0 0) (at32 0 0)
      [(sq32, at32 0 0)] (at32 12 0) (at32 2 0) with
   | Ok (Some ct) => nlt (c_toi ct) (F32 1 (-1)) | _ => false end) = true.
Proof. split; by vm_compute. Qed.
