(** C50: rays against convex polygons. *)
From Coq Require Import Psatz.
From stdpp Require Import prelude.
From Flocq Require Import IEEE754.BinarySingleNaN.
From Coq Require Import Reals Lra.
From Verif Require Import Res Num Vec AabbModel GeoModel RealGeo PropsLine PrimModel ShapeSpec RaySpec PropsSupport.
Local Open Scope R_scope.

(** * Specification *)
(** Positive when [a], [b], [c] turn left (counter-clockwise). *)
Definition turn (a b c : P2) : R := (ux b - ux a) * (uy c - uy a) - (uy b - uy a) * (ux c - ux a).
(** A strictly convex polygon in counter-clockwise order: at least three vertices, and every
    vertex is strictly to the left of every side it is not an end of. *)
Definition convex_ccw (vs : list P2) : Prop :=
  (3 <= length vs)%nat /\
  forall i j k a b c, j = ((i + 1) mod length vs)%nat -> vs !! i = Some a -> vs !! j = Some b -> vs !! k = Some c ->
    k <> i -> k <> j -> 0 < turn a b c.
(** [x] lies on the side from vertex number [length - 2] to the last one. *)
Definition on_last_side (vs : list P2) (x : P2) : Prop :=
  exists a b, vs !! (length vs - 2)%nat = Some a /\ vs !! (length vs - 1)%nat = Some b /\ seg_set (mkLine a b) x.

(** * Proofs *)
Lemma nat_mod_prev n i j : (i < n)%nat -> (j < n)%nat -> j = ((i + 1) mod n)%nat <-> i = (if decide (j = 0) then n - 1 else j - 1)%nat.
Proof.
  intros Hi Hj. destruct (Nat.eq_dec (i + 1) n) as [E|E].
  - rewrite E, Nat.mod_same by lia. destruct (decide (j = 0%nat)); lia.
  - rewrite Nat.mod_small by lia. destruct (decide (j = 0%nat)); lia.
Qed.
Lemma exists_dec {A} (P : A -> Prop) (l : list A) : (forall x, P x \/ ~ P x) -> (exists x, x ∈ l /\ P x) \/ (forall x, x ∈ l -> ~ P x).
Proof.
  intros Hdec. induction l as [|z l IH]; [right; by intros x Hx%elem_of_nil|].
  destruct (Hdec z) as [Hz|Hz]; [left; exists z; split; [left|done]|]. destruct IH as [(x & Hx & HP)|Hn]; [left; exists x; split; [by right|done]|].
  right. intros x [->|Hx]%elem_of_cons; auto.
Qed.
Lemma max_of {A} (P : A -> Prop) (f : A -> R) (l : list A) : (forall x, P x \/ ~ P x) -> (exists x, x ∈ l /\ P x) ->
  exists x, x ∈ l /\ P x /\ forall y, y ∈ l -> P y -> f y <= f x.
Proof.
  intros Hdec. induction l as [|z l IH]; intros (x & Hx & HP); [by apply elem_of_nil in Hx|].
  destruct (Hdec z) as [Hz|Hz].
  - destruct (exists_dec P l Hdec) as [He|Hn].
    + destruct (IH He) as (y & Hy & HPy & Hmax). destruct (Rle_dec (f y) (f z)).
      * exists z. split; [left|]. split; [done|]. intros w [->|Hw]%elem_of_cons HPw; [lra|]. specialize (Hmax w Hw HPw). lra.
      * exists y. split; [by right|]. split; [done|]. intros w [->|Hw]%elem_of_cons HPw; [lra|]. by apply Hmax.
    + exists z. split; [left|]. split; [done|]. intros w [->|Hw]%elem_of_cons HPw; [lra|]. by destruct (Hn w Hw).
  - apply elem_of_cons in Hx as [->|Hx]; [done|]. destruct (IH ltac:(by exists x)) as (y & Hy & HPy & Hmax).
    exists y. split; [by right|]. split; [done|]. intros w [->|Hw]%elem_of_cons HPw; [done|]. by apply Hmax.
Qed.

Section poly.
  Context (vs : list P2) (Hcv : convex_ccw vs).
  Let n := length vs.
  Lemma n3 : (3 <= n)%nat. Proof. apply Hcv. Qed.
  Definition sides : list (P2 * P2) := omap (poly_edge vs) (seq 0 n).
  Lemma prev_lt j : (j < n)%nat -> (poly_prev vs j < n)%nat.
  Proof. pose proof n3. unfold poly_prev. fold n. destruct (decide (j = 0%nat)); lia. Qed.
  Lemma edge_some j : (j < n)%nat -> exists a b, poly_edge vs j = Some (a, b) /\ vs !! poly_prev vs j = Some a /\ vs !! j = Some b.
  Proof.
    intros Hj. destruct (lookup_lt_is_Some_2 vs j Hj) as [b Hb]. destruct (lookup_lt_is_Some_2 vs _ (prev_lt j Hj)) as [a Ha].
    exists a, b. unfold poly_edge. by rewrite Ha, Hb.
  Qed.
  Lemma edge_inv j a b : poly_edge vs j = Some (a, b) -> (j < n)%nat /\ vs !! poly_prev vs j = Some a /\ vs !! j = Some b.
  Proof.
    unfold poly_edge. destruct (vs !! poly_prev vs j) eqn:Ha; [|done]. destruct (vs !! j) eqn:Hb; [|done]. intros [= -> ->].
    split; [by eapply lookup_lt_Some|done].
  Qed.
  Lemma sides_elem a b : (a, b) ∈ sides <-> exists j, (j < n)%nat /\ poly_edge vs j = Some (a, b).
  Proof.
    unfold sides. rewrite elem_of_list_omap. split; intros (j & Hj & He); exists j; (split; [|done]).
    - apply elem_of_seq in Hj. lia.
    - apply elem_of_seq. lia.
  Qed.
  Lemma strict j k a b c : poly_edge vs j = Some (a, b) -> vs !! k = Some c -> k <> poly_prev vs j -> k <> j -> 0 < turn a b c.
  Proof.
    intros (Hj & Ha & Hb)%edge_inv Hc Hk1 Hk2. destruct Hcv as [_ Hs]. apply (Hs (poly_prev vs j) j k a b c); try done.
    fold n. apply nat_mod_prev; [by apply prev_lt|done|done].
  Qed.
  Lemma weak a b c : (a, b) ∈ sides -> c ∈ vs -> 0 <= turn a b c.
  Proof.
    intros (j & Hj & He)%sides_elem [k Hk]%elem_of_list_lookup. pose proof (edge_inv _ _ _ He) as (_ & Ha & Hb).
    destruct (decide (k = poly_prev vs j)) as [->|H1]; [rewrite Ha in Hk; injection Hk as ->; unfold turn; lra|].
    destruct (decide (k = j)) as [->|H2]; [rewrite Hb in Hk; injection Hk as ->; unfold turn; lra|].
    left. by apply (strict j k).
  Qed.
  Definition inside (x : P2) : Prop := forall a b, (a, b) ∈ sides -> 0 <= turn a b x.
  Lemma turn_mix a b x y t : turn a b (add2 (scale2 x (1 - t)) (scale2 y t)) = (1 - t) * turn a b x + t * turn a b y.
  Proof. unfold turn. rv0. cbn [ux uy]. ring. Qed.
  Lemma hull_inside x : hull2 vs x -> inside x.
  Proof.
    intros Hx a b Hab. induction Hx as [v Hv|x y t _ IHx _ IHy Ht]; [by apply weak|].
    rewrite turn_mix. pose proof (Rmult_le_pos (1 - t) _ ltac:(lra) IHx). pose proof (Rmult_le_pos t _ ltac:(lra) IHy). lra.
  Qed.
  (** A point of the region on the line of a side is on the side. *)
  Lemma next_edge j a b : poly_edge vs j = Some (a, b) -> exists k c, (k < n)%nat /\ poly_edge vs k = Some (b, c) /\ 0 < turn a b c.
  Proof.
    intros He. pose proof (edge_inv _ _ _ He) as (Hj & Ha & Hb). pose proof n3 as Hn.
    set (k := if decide (j = n - 1)%nat then 0%nat else (j + 1)%nat).
    assert (Hk : (k < n)%nat) by (unfold k; destruct (decide _); lia).
    assert (Hp : poly_prev vs k = j). { unfold poly_prev, k. fold n. destruct (decide (j = n - 1)%nat); destruct (decide _); lia. }
    destruct (edge_some k Hk) as (b' & c & He' & Hb' & Hc). rewrite Hp, Hb in Hb'. injection Hb' as <-.
    exists k, c. split; [done|]. split; [done|]. apply (strict j k); try done.
    - unfold poly_prev, k. fold n. destruct (decide (j = n - 1)%nat); destruct (decide _); lia.
    - unfold k. destruct (decide (j = n - 1)%nat); lia.
  Qed.
  Lemma prev_edge j a b : poly_edge vs j = Some (a, b) -> exists k z, (k < n)%nat /\ poly_edge vs k = Some (z, a) /\ 0 < turn z a b.
  Proof.
    intros He. pose proof (edge_inv _ _ _ He) as (Hj & Ha & Hb). pose proof n3 as Hn. pose proof (prev_lt j Hj) as Hk.
    destruct (edge_some _ Hk) as (z & a' & He' & Hz & Ha'). rewrite Ha in Ha'. injection Ha' as <-.
    exists (poly_prev vs j), z. split; [done|]. split; [done|]. apply (strict (poly_prev vs j) j); try done.
    - unfold poly_prev. fold n. destruct (decide (j = 0)%nat); destruct (decide _); lia.
    - unfold poly_prev. fold n. destruct (decide (j = 0)%nat); lia.
  Qed.
  Lemma on_side a b x : (a, b) ∈ sides -> inside x -> turn a b x = 0 -> seg_set (mkLine a b) x.
  Proof.
    intros (j & Hj & He)%sides_elem Hin H0.
    destruct (next_edge j a b He) as (k & c & Hk & Hek & Hc). destruct (prev_edge j a b He) as (i & z & Hi & Hei & Hz).
    pose proof (Hin b c (proj2 (sides_elem _ _) (ex_intro _ k (conj Hk Hek)))) as H1.
    pose proof (Hin z a (proj2 (sides_elem _ _) (ex_intro _ i (conj Hi Hei)))) as H2.
    clear He Hek Hei Hin. destruct a as [ax ay], b as [bx by_], c as [cx cy], z as [zx zy], x as [px py]. unfold turn in *. cbn [ux uy] in *.
    set (m := (bx - ax) * (bx - ax) + (by_ - ay) * (by_ - ay)).
    assert (Hm : 0 < m).
    { destruct (Req_dec m 0) as [E|E]; [|pose proof (Rle_0_sqr (bx - ax)) as S1; pose proof (Rle_0_sqr (by_ - ay)) as S2; unfold Rsqr in S1, S2; unfold m in *; lra].
      exfalso. unfold m in E. clear H0 H1 H2 Hz. destruct (Rplus_sqr_eq_0 _ _ E) as [E1 E2]. rewrite E1, E2 in Hc. lra. }
    set (u := ((px - ax) * (bx - ax) + (py - ay) * (by_ - ay)) / m).
    assert (Hum : u * m = (px - ax) * (bx - ax) + (py - ay) * (by_ - ay)) by (unfold u; field; lra).
    assert (Ex : px - ax = u * (bx - ax)).
    { apply Rmult_eq_reg_r with m; [|lra]. replace (u * (bx - ax) * m) with ((u * m) * (bx - ax)) by ring. rewrite Hum.
      assert (Z : (px - ax) * m - ((px - ax) * (bx - ax) + (py - ay) * (by_ - ay)) * (bx - ax) = - (by_ - ay) * ((bx - ax) * (py - ay) - (by_ - ay) * (px - ax))) by (unfold m; ring).
      rewrite H0, Rmult_0_r in Z. lra. }
    assert (Ey : py - ay = u * (by_ - ay)).
    { apply Rmult_eq_reg_r with m; [|lra]. replace (u * (by_ - ay) * m) with ((u * m) * (by_ - ay)) by ring. rewrite Hum.
      assert (Z : (py - ay) * m - ((px - ax) * (bx - ax) + (py - ay) * (by_ - ay)) * (by_ - ay) = (bx - ax) * ((bx - ax) * (py - ay) - (by_ - ay) * (px - ax))) by (unfold m; ring).
      rewrite H0, Rmult_0_r in Z. lra. }
    assert (Hu0 : 0 <= u).
    { replace ((ax - zx) * (py - zy) - (ay - zy) * (px - zx)) with ((ax - zx) * (py - ay) - (ay - zy) * (px - ax)) in H2 by ring.
      rewrite Ex, Ey in H2. replace ((ax - zx) * (u * (by_ - ay)) - (ay - zy) * (u * (bx - ax))) with (u * ((ax - zx) * (by_ - zy) - (ay - zy) * (bx - zx))) in H2 by ring.
      destruct (Rle_dec 0 u); [done|]. exfalso. nra. }
    assert (Hu1 : u <= 1).
    { replace ((cx - bx) * (py - by_) - (cy - by_) * (px - bx)) with ((cx - bx) * ((py - ay) - (by_ - ay)) - (cy - by_) * ((px - ax) - (bx - ax))) in H1 by ring.
      rewrite Ex, Ey in H1. replace ((cx - bx) * (u * (by_ - ay) - (by_ - ay)) - (cy - by_) * (u * (bx - ax) - (bx - ax)))
        with ((1 - u) * ((bx - ax) * (cy - ay) - (by_ - ay) * (cx - ax))) in H1 by ring.
      destruct (Rle_dec u 1); [done|]. exfalso. nra. }
    exists u. split; [done|]. cbn [l_origin l_dest]. rv0. cbn [ux uy]. f_equal; lra.
  Qed.
  Lemma side_hull a b x : (a, b) ∈ sides -> seg_set (mkLine a b) x -> hull2 vs x.
  Proof.
    intros (j & Hj & (_ & Ha & Hb)%edge_inv)%sides_elem (u & Hu & ->). cbn [l_origin l_dest].
    replace (add2 a (scale2 (sub2 b a) u)) with (add2 (scale2 a (1 - u)) (scale2 b u)) by (rv0; f_equal; ring).
    apply hull2_mix; [| |done]; apply hull2_vertex; by eapply elem_of_list_lookup_2.
  Qed.

  (** Lines through the region. *)
  Section line.
    Context (r : Ray P2) (Hd : direction r <> zero2).
    (** How fast the line moves to the inner side of the side [ab]. *)
    Definition speed (a b : P2) : R := (ux b - ux a) * uy (direction r) - (uy b - uy a) * ux (direction r).
    Lemma turn_along a b t : turn a b (along2 r t) = turn a b (origin r) + speed a b * t.
    Proof. unfold turn, speed, along2. cbn [ux uy]. ring. Qed.
    Lemma some_entering : exists a b, (a, b) ∈ sides /\ 0 < speed a b.
    Proof.
      destruct (exists_dec (fun e => 0 < speed e.1 e.2) sides) as [([a b] & He & Hp)|Hn].
      { intros e. destruct (Rlt_dec 0 (speed e.1 e.2)); auto. } { by exists a, b. }
      exfalso. pose proof n3 as Hn3.
      set (v := fun i => nth i vs zero2).
      assert (Hv : forall i x, vs !! i = Some x -> v i = x). { intros i x Hi. unfold v. by apply nth_lookup_Some. }
      set (g := fun p : P2 => ux (direction r) * uy p - uy (direction r) * ux p).
      assert (Hsp : forall a b, speed a b = g a - g b) by (intros a b; unfold speed, g; ring).
      assert (Hstep : forall i, (i + 1 < n)%nat -> g (v i) <= g (v (i + 1)%nat)).
      { intros i Hi. destruct (edge_some (i + 1) Hi) as (a & b & He & Ha & Hb). unfold poly_prev in Ha.
        destruct (decide (i + 1 = 0)%nat); [lia|]. replace (i + 1 - 1)%nat with i in Ha by lia.
        rewrite (Hv _ _ Ha), (Hv _ _ Hb). assert (Hab : (a, b) ∈ sides) by (apply sides_elem; by exists (i + 1)%nat).
        specialize (Hn (a, b) Hab). cbn in Hn. rewrite Hsp in Hn. lra. }
      assert (Hwrap : g (v (n - 1)%nat) <= g (v 0%nat)).
      { destruct (edge_some 0 ltac:(lia)) as (a & b & He & Ha & Hb). unfold poly_prev in Ha. fold n in Ha. destruct (decide (0 = 0)%nat); [|done].
        rewrite (Hv _ _ Ha), (Hv _ _ Hb). assert (Hab : (a, b) ∈ sides) by (apply sides_elem; exists 0%nat; split; [lia|done]).
        specialize (Hn (a, b) Hab). cbn in Hn. rewrite Hsp in Hn. lra. }
      assert (Hmon : forall k, (2 + k < n)%nat -> g (v 2%nat) <= g (v (2 + k)%nat)).
      { induction k as [|k IH]; intros Hk; [simpl; lra|]. specialize (IH ltac:(lia)). specialize (Hstep (2 + k)%nat ltac:(lia)).
        replace (2 + Datatypes.S k)%nat with (2 + k + 1)%nat by lia. lra. }
      specialize (Hmon (n - 3)%nat ltac:(lia)). replace (2 + (n - 3))%nat with (n - 1)%nat in Hmon by lia.
      pose proof (Hstep 0%nat ltac:(lia)) as H01. pose proof (Hstep 1%nat ltac:(lia)) as H12. simpl in H01, H12.
      destruct (edge_some 1 ltac:(lia)) as (a & b & He & Ha & Hb). unfold poly_prev in Ha. destruct (decide (1 = 0)%nat); [lia|]. simpl in Ha.
      destruct (lookup_lt_is_Some_2 vs 2%nat ltac:(fold n; lia)) as [c Hc].
      assert (Ht : 0 < turn a b c). { apply (strict 1 2 a b c He Hc); [unfold poly_prev; destruct (decide (1 = 0)%nat); lia|lia]. }
      rewrite (Hv _ _ Ha), (Hv _ _ Hb) in *. rewrite (Hv _ _ Hc) in *. unfold g in *. unfold turn in Ht.
      assert (E1 : ux (direction r) * (uy b - uy a) = uy (direction r) * (ux b - ux a)) by lra.
      assert (E2 : ux (direction r) * (uy c - uy a) = uy (direction r) * (ux c - ux a)) by lra.
      assert (Hz : ux (direction r) * turn a b c = 0 /\ uy (direction r) * turn a b c = 0).
      { unfold turn. split.
        - replace (ux (direction r) * ((ux b - ux a) * (uy c - uy a) - (uy b - uy a) * (ux c - ux a)))
            with ((ux b - ux a) * (ux (direction r) * (uy c - uy a)) - (ux (direction r) * (uy b - uy a)) * (ux c - ux a)) by ring. rewrite E1, E2. ring.
        - replace (uy (direction r) * ((ux b - ux a) * (uy c - uy a) - (uy b - uy a) * (ux c - ux a)))
            with ((uy (direction r) * (ux b - ux a)) * (uy c - uy a) - (uy b - uy a) * (uy (direction r) * (ux c - ux a))) by ring. rewrite <- E1, <- E2. ring. }
      destruct Hz as [[Hz1|Hz1]%Rmult_integral [Hz2|Hz2]%Rmult_integral]; try (unfold turn in *; lra).
      apply Hd. apply V2_eq; done.
    Qed.
    (** Going back from a point of the region one comes to an entering side. *)
    Lemma entry t : inside (along2 r t) -> exists t0 a b, t0 <= t /\ inside (along2 r t0) /\ (a, b) ∈ sides /\ 0 < speed a b /\ seg_set (mkLine a b) (along2 r t0).
    Proof.
      intros Hin. destruct some_entering as (a0 & b0 & Hab0 & Hs0).
      destruct (max_of (fun e => 0 < speed e.1 e.2) (fun e => - turn e.1 e.2 (origin r) / speed e.1 e.2) sides) as ([a b] & Hab & Hs & Hmax).
      { intros e. destruct (Rlt_dec 0 (speed e.1 e.2)); auto. } { exists (a0, b0). done. }
      cbn [fst snd] in *. set (t0 := - turn a b (origin r) / speed a b).
      assert (Hle : t0 <= t).
      { specialize (Hin a b Hab). rewrite turn_along in Hin. unfold t0. apply Rmult_le_reg_r with (speed a b); [done|]. unfold Rdiv. rewrite Rmult_assoc, Rinv_l by lra. lra. }
      assert (Hins : inside (along2 r t0)).
      { intros a' b' Hab'. rewrite turn_along. destruct (Rlt_dec 0 (speed a' b')) as [Hp|Hp].
        - specialize (Hmax (a', b') Hab' Hp). cbn [fst snd] in Hmax. fold t0 in Hmax.
          assert (- turn a' b' (origin r) <= speed a' b' * t0); [|lra].
          apply Rmult_le_reg_r with (/ speed a' b'); [by apply Rinv_0_lt_compat|]. rewrite (Rmult_comm (speed a' b')), Rmult_assoc, Rinv_r by lra. unfold Rdiv in Hmax. lra.
        - specialize (Hin a' b' Hab'). rewrite turn_along in Hin. nra. }
      exists t0, a, b. split_and!; try done. apply on_side; [done|done|]. rewrite turn_along. unfold t0. field. lra.
    Qed.
  End line.
  (** The region is the hull. *)
  Lemma inside_hull x : inside x -> hull2 vs x.
  Proof.
    intros Hx. set (r1 := mkRay x (mk2 1 0)). set (r2 := mkRay x (mk2 (-1) 0)).
    assert (D1 : direction r1 <> zero2) by (intros E; apply (f_equal ux) in E; cbn in E; lra).
    assert (D2 : direction r2 <> zero2) by (intros E; apply (f_equal ux) in E; cbn in E; lra).
    assert (Z1 : along2 r1 0 = x) by (destruct x; unfold along2; cbn; f_equal; ring).
    assert (Z2 : along2 r2 0 = x) by (destruct x; unfold along2; cbn; f_equal; ring).
    destruct (entry r1 D1 0 ltac:(by rewrite Z1)) as (t1 & a & b & Ht1 & _ & Hab & _ & Hs1).
    destruct (entry r2 D2 0 ltac:(by rewrite Z2)) as (t2 & c & d & Ht2 & _ & Hcd & _ & Hs2).
    apply side_hull in Hs1; [|done]. apply side_hull in Hs2; [|done].
    destruct (Req_dec (t1 + t2) 0) as [E|E].
    - assert (t1 = 0) as -> by lra. by rewrite Z1 in Hs1.
    - pose proof (hull2_mix vs _ _ (- t1 / (- t1 - t2)) Hs1 Hs2) as Hm.
      replace x with (add2 (scale2 (along2 r1 t1) (1 - - t1 / (- t1 - t2))) (scale2 (along2 r2 t2) (- t1 / (- t1 - t2)))).
      + apply Hm. split; [apply Rmult_le_pos; [lra|]; left; apply Rinv_0_lt_compat; lra|].
        apply Rmult_le_reg_r with (- t1 - t2); [lra|]. unfold Rdiv. rewrite Rmult_assoc, Rinv_l by lra. lra.
      + destruct x as [px py]. unfold along2. cbn [r1 r2 origin direction]. rv0. cbn [ux uy]. f_equal; field; lra.
  Qed.
  Lemma hull_iff x : hull2 vs x <-> inside x.
  Proof. split; [apply hull_inside|apply inside_hull]. Qed.
End poly.

(** An empty vertex list panics, nothing else does. *)
Lemma loop_ok {F} `{Num F} (vs : list (V2 F)) (r : Ray (V2 F)) js : Forall (fun j => (j < length vs)%nat) js -> exists o, poly_ray_loop vs r js = Ok o.
Proof.
  induction 1 as [|j js Hj _ IH]; cbn [poly_ray_loop]; [eauto|].
  assert (He : exists e, poly_edge vs j = Some e).
  { unfold poly_edge. destruct (lookup_lt_is_Some_2 vs j Hj) as [b ->].
    assert (Hp : (poly_prev vs j < length vs)%nat) by (unfold poly_prev; destruct (decide _); lia).
    destruct (lookup_lt_is_Some_2 vs _ Hp) as [a ->]. eauto. }
  destruct He as [[a b] ->]. destruct (nlt _ _); [|done]. destruct (ray_line2 _ _); eauto.
Qed.
Theorem C50_panics_iff_empty {F} `{Num F} (vs : list (V2 F)) (r : Ray (V2 F)) : (polygon_ray vs r = Panic <-> vs = []) /\ (vs <> [] -> exists o b, polygon_ray vs r = Ok o /\ polygon_ray_test vs r = Ok b /\ (b = true <-> is_Some o)).
Proof.
  assert (Hok : vs <> [] -> exists o, polygon_ray vs r = Ok o).
  { intros Hne. unfold polygon_ray. destruct (decide _) as [E|_]; [by apply nil_length_inv in E|]. apply loop_ok.
    apply Forall_forall. intros j Hj%elem_of_seq. lia. }
  split.
  - split; [|by intros ->]. intros E. destruct (decide (vs = [])) as [?|Hne]; [done|]. destruct (Hok Hne) as [o E']. congruence.
  - intros Hne. destruct (Hok Hne) as [o E]. exists o, (bool_decide (is_Some o)). split; [done|]. unfold polygon_ray_test. rewrite E. split; [done|]. apply bool_decide_eq_true.
Qed.

Section poly2.
  Context (vs : list P2) (Hcv : convex_ccw vs) (r : Ray P2) (Hd : direction r <> zero2).
  Let n := length vs.
  Lemma enter_dot a b : dot2 (direction r) (poly_normal a b) = - speed r a b.
  Proof. unfold poly_normal, speed. rv0. cbn [ux uy]. ring. Qed.
  Lemma loop_spec js : Forall (fun j => (j < n)%nat) js ->
    match poly_ray_loop vs r js with
    | Ok (Some p) => exists j a b t, j ∈ js /\ poly_edge vs j = Some (a, b) /\ 0 < speed r a b /\ 0 <= t /\ p = along2 r t /\ seg_set (mkLine a b) p
    | Ok None => forall j a b t, j ∈ js -> poly_edge vs j = Some (a, b) -> 0 < speed r a b -> 0 <= t -> ~ seg_set (mkLine a b) (along2 r t)
    | _ => False
    end.
  Proof.
    induction 1 as [|j js Hj _ IH]; cbn [poly_ray_loop]; [by intros j a b t Hj%elem_of_nil|].
    destruct (edge_some vs Hcv j Hj) as (a & b & He & _). rewrite He. rewrite enter_dot.
    assert (Hrest : forall X, X = poly_ray_loop vs r js -> (forall t, 0 <= t -> 0 < speed r a b -> ~ seg_set (mkLine a b) (along2 r t)) ->
      match X with
      | Ok (Some p) => exists j0 a b t, j0 ∈ j :: js /\ poly_edge vs j0 = Some (a, b) /\ 0 < speed r a b /\ 0 <= t /\ p = along2 r t /\ seg_set (mkLine a b) p
      | Ok None => forall j0 a b t, j0 ∈ j :: js -> poly_edge vs j0 = Some (a, b) -> 0 < speed r a b -> 0 <= t -> ~ seg_set (mkLine a b) (along2 r t)
      | _ => False end).
    { intros X -> Hno. destruct (poly_ray_loop vs r js) as [[p|]| |]; try done.
      - destruct IH as (j' & a' & b' & t & Hj' & Hrest). exists j', a', b', t. split; [by right|done].
      - intros j' a' b' t [->|Hj']%elem_of_cons He' Hs Ht; [|by apply (IH j')]. rewrite He in He'. injection He' as <- <-. by apply Hno. }
    cbn [nlt n0 Num_R]. destruct (Rltb (- speed r a b) 0) eqn:E; [apply Rltb_true in E|apply Rltb_false in E].
    - pose proof (C37_ray_segment_exact r (mkLine a b) Hd) as Hl. destruct (ray_line2 r (mkLine a b)) as [p|].
      + destruct Hl as (t & Ht & -> & Hon & _). exists j, a, b, t. split; [left|]. split; [done|]. split; [lra|]. split; [done|]. split; [apply along2_add|done].
      + apply Hrest; [done|]. intros t Ht _ Hs. apply (Hl t Ht). unfold ray2_at. rewrite along2_add. exact Hs.
    - apply Hrest; [done|]. intros; lra.
  Qed.
  Lemma entering_first j a b t : poly_edge vs j = Some (a, b) -> (j < n)%nat -> 0 < speed r a b -> 0 <= t -> seg_set (mkLine a b) (along2 r t) ->
    ray_first (along2 r) (hull2 vs) (along2 r t).
  Proof.
    intros He Hj Hs Ht Hseg. assert (Hab : (a, b) ∈ sides vs) by (apply sides_elem; eauto).
    assert (H0 : turn a b (along2 r t) = 0).
    { destruct Hseg as (u & _ & ->). cbn [l_origin l_dest]. unfold turn. rv0. cbn [ux uy]. ring. }
    exists t. split; [done|]. split; [done|]. split; [by apply (side_hull vs a b)|].
    intros s Hs' Hh. apply (hull_inside vs Hcv) in Hh. specialize (Hh a b Hab). rewrite turn_along in *. nra.
  Qed.
  (** The result, for a ray from outside. *)
  Theorem C50_polygon_ray_from_outside : ~ hull2 vs (origin r) ->
    match polygon_ray vs r with
    | Ok (Some p) => ray_first (along2 r) (hull2 vs) p
    | Ok None => ~ ray_meets (along2 r) (hull2 vs) \/ exists p, ray_first (along2 r) (hull2 vs) p /\ on_last_side vs p
    | _ => False
    end.
  Proof.
    intros Ho. pose proof (n3 vs Hcv) as Hn3. fold n in Hn3. unfold polygon_ray. fold n. destruct (decide _) as [E|_]; [lia|].
    pose proof (loop_spec (seq 0 (n - 1))) as Hl. assert (Hall : Forall (fun j => (j < n)%nat) (seq 0 (n - 1))).
    { apply Forall_forall. intros j Hj%elem_of_seq. lia. }
    specialize (Hl Hall). destruct (poly_ray_loop vs r (seq 0 (n - 1))) as [[p|]| |]; try done.
    - destruct Hl as (j & a & b & t & Hj%elem_of_seq & He & Hs & Ht & -> & Hseg). apply (entering_first j a b t); try done. lia.
    - destruct (Classical_Prop.classic (ray_meets (along2 r) (hull2 vs))) as [(t & Ht & Hh)|Hno]; [right|by left].
      destruct (entry vs Hcv r Hd t (hull_inside vs Hcv _ Hh)) as (t0 & a & b & Ht0 & Hin & Hab & Hs & Hseg).
      assert (Hpos : 0 <= t0).
      { destruct (Rle_dec 0 t0); [done|]. exfalso. apply Ho. apply (inside_hull vs Hcv). intros a' b' Hab'.
        pose proof (Hin a' b' Hab') as H1. pose proof (hull_inside vs Hcv _ Hh a' b' Hab') as H2. rewrite turn_along in H1, H2.
        destruct (Rle_dec 0 (speed r a' b')); nra. }
      apply sides_elem in Hab as (j & Hj & He). exists (along2 r t0). split; [by apply (entering_first j a b)|].
      destruct (decide (j < n - 1)%nat) as [Hlt|Hge].
      { exfalso. apply (Hl j a b t0); try done. apply elem_of_seq. lia. }
      fold n in Hj. assert (j = (n - 1)%nat) as -> by lia. apply edge_inv in He as (_ & Ha & Hb). unfold poly_prev in Ha. fold n in Ha.
      destruct (decide _); [lia|]. exists a, b. fold n. replace (n - 2)%nat with (n - 1 - 1)%nat by lia. done.
  Qed.
  (** A returned point is always the first point of the ray in the polygon. *)
  Theorem C50_polygon_point_is_first p : polygon_ray vs r = Ok (Some p) -> ray_first (along2 r) (hull2 vs) p.
  Proof.
    pose proof (n3 vs Hcv) as Hn3. fold n in Hn3. unfold polygon_ray. fold n. destruct (decide _) as [E|_]; [lia|].
    pose proof (loop_spec (seq 0 (n - 1))) as Hl. assert (Hall : Forall (fun j => (j < n)%nat) (seq 0 (n - 1))).
    { apply Forall_forall. intros j Hj%elem_of_seq. lia. }
    intros E. specialize (Hl Hall). rewrite E in Hl.
    destruct Hl as (j & a & b & t & Hj%elem_of_seq & He & Hs & Ht & -> & Hseg). apply (entering_first j a b t); try done. lia.
  Qed.
  (** A ray from inside (off the boundary) is never reported. *)
  Theorem C50_polygon_inside_missed : (forall a b, (a, b) ∈ sides vs -> 0 < turn a b (origin r)) -> polygon_ray vs r = Ok None.
  Proof.
    intros Hin. pose proof (n3 vs Hcv) as Hn3. fold n in Hn3. pose proof (C50_polygon_point_is_first) as Hf.
    assert (Hne : vs <> []) by (intros ->; cbn in Hn3; lia).
    destruct (proj2 (C50_panics_iff_empty vs r) Hne) as (o & _ & E & _). rewrite E in *. destruct o as [p|]; [|done]. exfalso.
    revert E. unfold polygon_ray. fold n. destruct (decide _) as [E|_]; [lia|]. intros E.
    pose proof (loop_spec (seq 0 (n - 1))) as Hl. assert (Hall : Forall (fun j => (j < n)%nat) (seq 0 (n - 1))).
    { apply Forall_forall. intros j Hj%elem_of_seq. lia. }
    specialize (Hl Hall). rewrite E in Hl.
    destruct Hl as (j & a & b & t & Hj%elem_of_seq & He & Hs & Ht & -> & Hseg).
    assert (Hab : (a, b) ∈ sides vs) by (apply sides_elem; exists j; split; [fold n; lia|done]).
    assert (H0 : turn a b (along2 r t) = 0).
    { destruct Hseg as (u & _ & ->). cbn [l_origin l_dest]. unfold turn. rv0. cbn [ux uy]. ring. }
    specialize (Hin a b Hab). rewrite turn_along in H0. nra.
  Qed.
End poly2.

(** ** Where it fails *)
Local Instance num32p : Num f32 := Num_float 24 128.
Definition ftri : list (V2 f32) := [mk2 (F32 0 0) (F32 0 0); mk2 (F32 4 0) (F32 0 0); mk2 (F32 0 0) (F32 4 0)].
Definition rtri : list P2 := [mk2 0 0; mk2 4 0; mk2 0 4].
Definition fray2 (a b c d : Z) : Ray (V2 f32) := mkRay (mk2 (F32 a 0) (F32 b 0)) (mk2 (F32 c 0) (F32 d 0)).
Definition rray2 (a b c d : Z) : Ray P2 := mkRay (mk2 (IZR a) (IZR b)) (mk2 (IZR c) (IZR d)).
Definition is_ok_none (x : res (option (V2 f32))) : bool := match x with Ok None => true | _ => false end.
Lemma rtri_hull x y : 0 <= x -> 0 <= y -> x + y <= 4 -> hull2 rtri (mk2 x y).
Proof.
  intros Hx Hy Hs.
  assert (A : hull2 rtri (mk2 0 0)) by (apply hull2_vertex; set_solver).
  assert (B : hull2 rtri (mk2 4 0)) by (apply hull2_vertex; set_solver).
  assert (C : hull2 rtri (mk2 0 4)) by (apply hull2_vertex; set_solver).
  destruct (Req_dec (x + y) 0) as [E|E]; [assert (x = 0) as -> by lra; assert (y = 0) as -> by lra; done|].
  pose proof (hull2_mix _ _ _ (y / (x + y)) B C) as M. pose proof (hull2_mix _ _ _ ((x + y) / 4) A (M ltac:(split; [apply Rmult_le_pos; [lra|left; apply Rinv_0_lt_compat; lra]|apply Rmult_le_reg_r with (x + y); [lra|]; unfold Rdiv; rewrite Rmult_assoc, Rinv_l by lra; lra])) ltac:(lra)) as M2.
  replace (mk2 x y) with (add2 (scale2 (mk2 0 0) (1 - (x + y) / 4)) (scale2 (add2 (scale2 (mk2 4 0) (1 - y / (x + y))) (scale2 (mk2 0 4) (y / (x + y)))) ((x + y) / 4))); [done|].
  rv0. cbn [ux uy]. f_equal; field; lra.
Qed.
(** A ray through the middle of the third side of a triangle is not reported. *)
Theorem C50_last_side_ignored_refuted :
  is_ok_none (polygon_ray ftri (fray2 4 4 (-1) (-1))) = true /\
  (match polygon_ray_test ftri (fray2 4 4 (-1) (-1)) with Ok b => b | _ => true end) = false /\
  ray_meets (along2 (rray2 4 4 (-1) (-1))) (hull2 rtri).
Proof.
  split; [by vm_compute|]. split; [by vm_compute|]. exists 3. split; [lra|]. unfold along2, rray2. cbn. apply rtri_hull; lra.
Qed.
Lemma rtri_ccw : convex_ccw rtri.
Proof.
  split; [cbn; lia|]. intros i j k a b c Hj Ha Hb Hc Hk1 Hk2.
  destruct i as [|[|[|i]]]; cbn in Hj; [| | |by destruct i]; subst j; cbn in Ha, Hb; simplify_eq;
  (destruct k as [|[|[|k]]]; cbn in Hc; [| | |by destruct k]; try done; simplify_eq; unfold turn; cbn; lra).
Qed.
Example C50_hypotheses_met : convex_ccw rtri /\ ~ hull2 rtri (origin (rray2 (-4) 1 1 0)) /\ direction (rray2 (-4) 1 1 0) <> zero2 /\
  polygon_ray rtri (rray2 (-4) 1 1 0) = Ok (Some (mk2 0 1)).
Proof.
  assert (Ho : ~ hull2 rtri (origin (rray2 (-4) 1 1 0))).
  { intros H%(hull_inside rtri rtri_ccw). assert (Hs : (mk2 0 4, mk2 0 0) ∈ sides rtri) by (apply sides_elem; exists 0%nat; split; [cbn; lia|done]).
    specialize (H _ _ Hs). unfold turn in H. cbn in H. lra. }
  assert (Hd : direction (rray2 (-4) 1 1 0) <> zero2) by (intros E; apply (f_equal ux) in E; cbn in E; lra).
  split; [exact rtri_ccw|]. split; [done|]. split; [done|].
  assert (Hf : ray_first (along2 (rray2 (-4) 1 1 0)) (hull2 rtri) (mk2 0 1)).
  { exists 4. split; [lra|]. split; [unfold along2; cbn; f_equal; ring|]. split; [apply rtri_hull; lra|].
    intros s Hs H%(hull_inside rtri rtri_ccw). assert (Hsd : (mk2 0 4, mk2 0 0) ∈ sides rtri) by (apply sides_elem; exists 0%nat; split; [cbn; lia|done]).
    specialize (H _ _ Hsd). unfold turn, along2 in H. cbn in H. lra. }
  pose proof (C50_polygon_ray_from_outside rtri rtri_ccw (rray2 (-4) 1 1 0) Hd Ho) as Hc.
  destruct (polygon_ray rtri (rray2 (-4) 1 1 0)) as [[p|]| |] eqn:E; try done.
  - by rewrite (ray_first_unique _ _ _ _ Hc Hf).
  - exfalso. destruct Hc as [Hc | (p & Hp & a & b & Ha & Hb & u & Hu & Ep)]; [by apply Hc, (ray_first_meets _ _ _ Hf)|].
    rewrite (ray_first_unique _ _ _ _ Hp Hf) in Ep. cbn in Ha, Hb. injection Ha as <-. injection Hb as <-.
    pose proof (f_equal ux Ep) as E1. pose proof (f_equal uy Ep) as E2. cbn in E1, E2. lra.
Qed.
