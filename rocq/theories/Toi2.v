(** The time of impact in the plane: geometry of the simplices met by the loop. *)
From Coq Require Import Psatz.
From stdpp Require Import prelude.
From Coq Require Import Reals Lra.
From Verif Require Import Res Num Vec AabbModel GeoModel RealGeo PrimModel ShapeSpec MinkModel MinkSpec Gjk2 PropsGjk2 Dist.
Local Open Scope R_scope.

(** [v] is the closest point of the segment [s0 s1] and it is not [s0] alone. *)
Definition seg_near (s0 s1 v : P2) : Prop :=
  (exists t, 0 <= t <= 1 /\ v = add2 (scale2 s1 (1 - t)) (scale2 s0 t) /\ dot2 v s0 = dot2 v v /\ dot2 v s1 = dot2 v v) \/
  (v = s1 /\ dot2 s1 s1 <= dot2 s1 s0).

Lemma edge_near (s a : P2) : dot2 s a < dot2 s s -> seg_near s a (closest_on_edge2 a s zero2).
Proof.
  intros Hlt. destruct (closest_on_edge2_spec a s) as (t & Ht & Ec & Ha & Hs). set (c := closest_on_edge2 _ _ _) in *. clearbody c.
  assert (Hcc : dot2 c c = (1 - t) * dot2 c a + t * dot2 c s).
  { rewrite Ec at 2. clear. rv0. ring. }
  destruct (Req_dec t 1) as [-> |Ht1].
  { exfalso. assert (c = s) as -> by (rewrite Ec; clear; apply V2_eq; rv0; ring). lra. }
  destruct (Req_dec t 0) as [-> |Ht0].
  { right. assert (c = a) as -> by (rewrite Ec; clear; apply V2_eq; rv0; ring). done. }
  left. exists t. split; [done|]. split; [done|]. split; nra.
Qed.

(** The signed areas of the triangle [s0 s1 a] and of its three parts seen from the origin. *)
Section tri.
  Context (s0 s1 a v : P2) (Hv : 0 < dot2 v v) (Ha : dot2 v a <= 0) (Hn : seg_near s0 s1 v).
  Let X := perp_dot s0 s1.
  Let Y := perp_dot s1 a.
  Let Z := perp_dot a s0.
  Let D := X + Y + Z.
  Lemma abp_area : dot2 (triple (sub2 s0 a) (sub2 s1 a) (sub2 s1 a)) (neg2 a) = - (D * Y).
  Proof. unfold D, X, Y, Z, triple. clear. rv0. ring. Qed.
  Lemma acp_area : dot2 (triple (sub2 s1 a) (sub2 s0 a) (sub2 s0 a)) (neg2 a) = - (D * Z).
  Proof. unfold D, X, Y, Z, triple. clear. rv0. ring. Qed.
  (** The foot of the perpendicular: areas against the direction of the segment. *)
  Lemma foot_facts t : v = add2 (scale2 s1 (1 - t)) (scale2 s0 t) -> dot2 v s0 = dot2 v v -> dot2 v s1 = dot2 v v ->
    let e := sub2 s1 s0 in
    s1 = add2 v (scale2 e t) /\ s0 = sub2 v (scale2 e (1 - t)) /\ dot2 v e = 0 /\
    X = perp_dot v e /\ dot2 v v * D = X * (dot2 v v - dot2 v a) /\
    dot2 v v * (X * Y) = dot2 v v * (dot2 v v * dot2 e a) - t * (X * X) * dot2 v a /\
    dot2 v v * (X * Z) = - (dot2 v v * (dot2 v v * dot2 e a)) - (1 - t) * (X * X) * dot2 v a /\
    X * X = dot2 v v * dot2 e e.
  Proof.
    intros Ev E0 E1 e.
    assert (Es1 : s1 = add2 v (scale2 e t)) by (rewrite Ev; unfold e; clear; apply V2_eq; rv0; ring).
    assert (Es0 : s0 = sub2 v (scale2 e (1 - t))) by (rewrite Ev; unfold e; clear; apply V2_eq; rv0; ring).
    assert (Ee : dot2 v e = 0).
    { transitivity (dot2 v s1 - dot2 v s0); [unfold e; clear; rv0; ring|lra]. }
    assert (EX : X = perp_dot v e).
    { unfold X. rewrite Es0, Es1. clear. rv0. ring. }
    assert (Hea : dot2 v v * perp_dot e a = dot2 v e * perp_dot v a - perp_dot v e * dot2 v a) by (clear; rv0; ring).
    rewrite Ee, <- EX in Hea.
    assert (HPA : perp_dot v e * perp_dot v a = dot2 v v * dot2 e a - dot2 v a * dot2 v e) by (clear; rv0; ring).
    rewrite Ee, <- EX in HPA.
    assert (HXX : perp_dot v e * perp_dot v e = dot2 v v * dot2 e e - dot2 v e * dot2 v e) by (clear; rv0; ring).
    rewrite Ee, <- EX in HXX.
    assert (EY : Y = perp_dot v a + t * perp_dot e a) by (unfold Y; rewrite Es1; clear; rv0; ring).
    assert (EZ : Z = - perp_dot v a + (1 - t) * perp_dot e a) by (unfold Z; rewrite Es0; clear; rv0; ring).
    do 4 (split; [done|]). unfold D. rewrite EY, EZ. clear -Hea HPA HXX. clearbody X.
    set (q := perp_dot e a) in *. set (r := perp_dot v a) in *. set (w := dot2 v a) in *. set (vv := dot2 v v) in *.
    set (ea := dot2 e a) in *. set (ee := dot2 e e) in *. clearbody q r w vv ea ee.
    split; [nra|]. split; [|split; [|lra]].
    - transitivity (vv * (X * r) + t * X * (vv * q)); [ring|]. rewrite HPA, Hea. ring.
    - transitivity (- vv * (X * r) + (1 - t) * X * (vv * q)); [ring|]. rewrite HPA, Hea. ring.
  Qed.
  Lemma end_facts : v = s1 -> X * dot2 s1 a + Y * dot2 s1 s0 + Z * dot2 s1 s1 = 0.
  Proof. intros _. unfold X, Y, Z. clear. rv0. ring. Qed.
  (** The segment [s0 s1] is not reduced to a point. *)
  Context (Hne : s0 <> s1).
  Lemma sub_ne : 0 < dot2 (sub2 s1 s0) (sub2 s1 s0).
  Proof.
    destruct (Rle_lt_dec (dot2 (sub2 s1 s0) (sub2 s1 s0)) 0) as [Hl|Hl]; [|done]. exfalso. apply Hne.
    assert (Hl' : dot2 (sub2 s1 s0) (sub2 s1 s0) = 0) by (pose proof (Rle_0_sqr (ux s1 - ux s0)); pose proof (Rle_0_sqr (uy s1 - uy s0)); unfold Rsqr in *; clear Hv Ha Hn; rv0; lra).
    unfold dot2, sub2 in Hl'. cbn [ux uy] in Hl'. cbn [nadd nmul nsub Num_R] in Hl'.
    destruct (Rplus_sqr_eq_0 (ux s1 - ux s0) (uy s1 - uy s0)) as [E1 E2]; [exact Hl'|]. apply V2_eq; lra.
  Qed.
  (** Which new edge is taken. *)
  Lemma next_s1 : D * Y < 0 -> dot2 s1 a < dot2 s1 s1.
  Proof.
    intros HDY. destruct Hn as [(t & Ht & Ev & E0 & E1)|[-> _]]; [|lra].
    destruct (foot_facts t Ev E0 E1) as (Es1 & Es0 & Ee & EX & HD & HY & HZ & HXX). set (e := sub2 s1 s0) in *.
    pose proof sub_ne as He. fold e in He.
    assert (HX : 0 < X * X) by nra.
    assert (HXY : X * Y < 0).
    { assert (0 < dot2 v v - dot2 v a) by lra. assert (dot2 v v * (D * Y) < 0) by nra.
      assert ((X * Y) * (dot2 v v - dot2 v a) < 0) by (replace ((X * Y) * (dot2 v v - dot2 v a)) with ((X * (dot2 v v - dot2 v a)) * Y) by ring; rewrite <- HD; lra).
      nra. }
    assert (dot2 e a <= 0).
    { assert (0 <= t * (X * X) * - dot2 v a) by (apply Rmult_le_pos; [apply Rmult_le_pos; lra|lra]).
      assert (dot2 v v * (X * Y) < 0) by nra. assert (dot2 v v * (dot2 v v * dot2 e a) <= 0) by lra.
      destruct (Rle_lt_dec (dot2 e a) 0); [done|]. assert (0 < dot2 v v * (dot2 v v * dot2 e a)) by (apply Rmult_lt_0_compat; [done|by apply Rmult_lt_0_compat]). lra. }
    rewrite Es1.
    replace (dot2 (add2 v (scale2 e t)) a) with (dot2 v a + t * dot2 e a) by (clear; rv0; ring).
    replace (dot2 (add2 v (scale2 e t)) (add2 v (scale2 e t))) with (dot2 v v + 2 * t * dot2 v e + t * t * dot2 e e) by (clear; rv0; ring).
    rewrite Ee. nra.
  Qed.
  Lemma next_s0 : 0 <= D * Y -> D * Z < 0 -> dot2 s0 a < dot2 s0 s0.
  Proof.
    intros HDY HDZ. destruct Hn as [(t & Ht & Ev & E0 & E1)|[Ev Hs]].
    - destruct (foot_facts t Ev E0 E1) as (Es1 & Es0 & Ee & EX & HD & HY & HZ & HXX). set (e := sub2 s1 s0) in *.
      pose proof sub_ne as He. fold e in He.
      assert (HX : 0 < X * X) by nra.
      assert (HXZ : X * Z < 0).
      { assert (0 < dot2 v v - dot2 v a) by lra. assert (dot2 v v * (D * Z) < 0) by nra.
        assert ((X * Z) * (dot2 v v - dot2 v a) < 0) by (replace ((X * Z) * (dot2 v v - dot2 v a)) with ((X * (dot2 v v - dot2 v a)) * Z) by ring; rewrite <- HD; lra).
        nra. }
      assert (0 <= dot2 e a).
      { assert (0 <= (1 - t) * (X * X) * - dot2 v a) by (apply Rmult_le_pos; [apply Rmult_le_pos; lra|lra]).
        assert (dot2 v v * (X * Z) < 0) by nra. assert (0 <= dot2 v v * (dot2 v v * dot2 e a)) by lra.
        destruct (Rle_lt_dec 0 (dot2 e a)); [done|]. assert (dot2 v v * (dot2 v v * dot2 e a) < 0) by nra. lra. }
      rewrite Es0.
      replace (dot2 (sub2 v (scale2 e (1 - t))) a) with (dot2 v a - (1 - t) * dot2 e a) by (clear; rv0; ring).
      replace (dot2 (sub2 v (scale2 e (1 - t))) (sub2 v (scale2 e (1 - t)))) with (dot2 v v - 2 * (1 - t) * dot2 v e + (1 - t) * (1 - t) * dot2 e e) by (clear; rv0; ring).
      rewrite Ee. assert (0 <= (1 - t) * dot2 e a) by (apply Rmult_le_pos; lra).
      assert (0 <= (1 - t) * (1 - t) * dot2 e e) by (apply Rmult_le_pos; [apply Rle_0_sqr|lra]). lra.
    - subst v. set (h := dot2 s1 s1) in *.
      (* coordinates along s1 and its perpendicular *)
      set (b := perp_dot s1 s0). set (c := dot2 s1 s0) in *. set (al := perp_dot s1 a). set (w := dot2 s1 a) in *.
      assert (E00 : h * dot2 s0 s0 = b * b + c * c) by (unfold h, b, c; clear; rv0; ring).
      assert (E0a : h * dot2 s0 a = b * al + c * w) by (unfold h, b, c, al, w; clear; rv0; ring).
      assert (EX : X = - b) by (unfold X, b; clear; rv0; ring).
      assert (EY : Y = al) by done.
      assert (EZ : h * Z = b * w - al * c) by (unfold Z, h, b, c, al, w; clear; rv0; ring).
      assert (ED : h * D = - b * (h - w) - al * (c - h)) by (unfold D; rewrite EX, EY; clear -EZ; lra).
      clearbody h c al w b. clear EX.
      assert (Hba : b * al <= 0).
      { destruct (Rle_lt_dec (b * al) 0) as [|Hp]; [done|]. exfalso.
        assert (H1 : h * (D * Y) = - (b * al) * (h - w) - (al * al) * (c - h)) by (rewrite EY; transitivity ((h * D) * al); [ring|]; rewrite ED; ring).
        assert (0 < (b * al) * (h - w)) by (apply Rmult_lt_0_compat; lra). assert (0 <= (al * al) * (c - h)) by (apply Rmult_le_pos; [nra|lra]).
        assert (0 <= h * (D * Y)) by (apply Rmult_le_pos; lra). lra. }
      assert (h * dot2 s0 a < h * dot2 s0 s0).
      { rewrite E00, E0a. assert (c * w <= 0) by nra. assert (0 < c * c) by nra. nra. }
      apply (Rmult_lt_reg_l h); lra.
  Qed.
  (** Neither edge: the triangle encloses the origin. *)
  Lemma inside_area : 0 <= D * Y -> 0 <= D * Z -> D <> 0 -> 0 <= D * X.
  Proof.
    intros HDY HDZ HD0. destruct Hn as [(t & Ht & Ev & E0 & E1)|[Ev Hs]].
    - destruct (foot_facts t Ev E0 E1) as (Es1 & Es0 & Ee & EX & HD & HY & HZ & HXX).
      assert (0 <= dot2 v v * (D * X)).
      { transitivity ((X * X) * (dot2 v v - dot2 v a)); [apply Rmult_le_pos; [nra|lra]|]. right. transitivity ((dot2 v v * D) * X); [rewrite HD|]; ring. }
      nra.
    - pose proof (end_facts Ev) as Hi. subst v.
      assert (Hi2 : D * X * dot2 s1 a = - (D * Y * dot2 s1 s0 + D * Z * dot2 s1 s1)).
      { apply (Rmult_eq_compat_l D) in Hi. lra. }
      assert (0 <= D * Y * dot2 s1 s0) by (apply Rmult_le_pos; lra). assert (0 <= D * Z * dot2 s1 s1) by (apply Rmult_le_pos; lra).
      destruct (Rle_lt_dec 0 (D * X)) as [|Hneg]; [done|]. exfalso.
      destruct (Req_dec (dot2 s1 a) 0) as [Ez|Ez].
      + rewrite Ez in Hi2. assert (D * Y * dot2 s1 s0 = 0) by lra. assert (D * Z * dot2 s1 s1 = 0) by lra.
        assert (D * Y = 0) by nra. assert (D * Z = 0) by nra. assert (D * D = D * X) by (unfold D; fold D; unfold D in *; nra). nra.
      + assert (0 < D * X * dot2 s1 a) by nra. lra.
  Qed.
  Lemma hull_zero : 0 <= D * X -> 0 <= D * Y -> 0 <= D * Z -> D <> 0 -> hull2 [s0; s1; a] zero2.
  Proof.
    intros HX HY HZ HD0. 
    assert (Hbar : zero2 = add2 (add2 (scale2 a (X / D)) (scale2 s0 (Y / D))) (scale2 s1 (Z / D))).
    { assert (Hx : ux s0 * Y + ux s1 * Z + ux a * X = 0) by (unfold X, Y, Z; clear; rv0; ring).
      assert (Hy : uy s0 * Y + uy s1 * Z + uy a * X = 0) by (unfold X, Y, Z; clear; rv0; ring).
      clear -Hx Hy HD0. clearbody D X Y Z. apply V2_eq; unfold zero2; rv0; apply (Rmult_eq_reg_l D); try done; field_simplify; try done; lra. }
    assert (Hpos : forall q, 0 <= D * q -> 0 <= q / D).
    { intros q Hq. replace (q / D) with ((D * q) * (/ (D * D))) by (field; done). apply Rmult_le_pos; [done|]. left. apply Rinv_0_lt_compat. nra. }
    assert (Hsum : X / D + Y / D + Z / D = 1) by (transitivity ((X + Y + Z) / D); [field; done|]; change (X + Y + Z) with D; field; done).
    pose proof (Hpos X HX) as P1. pose proof (Hpos Y HY) as P2'. pose proof (Hpos Z HZ) as P3'. rewrite Hbar.
    set (x := X / D) in *. set (y := Y / D) in *. set (z := Z / D) in *. clearbody x y z. clear -P1 P2' P3' Hsum.
    destruct (Req_dec z 1) as [-> |Hz].
    - assert (x = 0) as -> by lra. assert (y = 0) as -> by lra.
      replace (add2 _ _) with s1 by (apply V2_eq; rv0; ring). apply hull2_vertex. set_solver.
    - assert (Hz1 : 0 < 1 - z) by lra.
      replace (add2 (add2 (scale2 a x) (scale2 s0 y)) (scale2 s1 z)) with
        (add2 (scale2 (add2 (scale2 a (1 - y / (1 - z))) (scale2 s0 (y / (1 - z)))) (1 - z)) (scale2 s1 z)).
      + apply hull2_mix; [|apply hull2_vertex; set_solver|lra]. apply hull2_mix; [apply hull2_vertex; set_solver|apply hull2_vertex; set_solver|].
        split; [apply Rmult_le_pos; [done|left; by apply Rinv_0_lt_compat]|]. apply (Rmult_le_reg_r (1 - z)); [done|]. field_simplify; lra.
      + assert (x = 1 - y - z) as -> by lra. apply V2_eq; rv0; field; lra.
  Qed.
  (** A support point is not in line with the two it joins. *)
  Lemma not_flat u : dot2 u s1 < dot2 u s0 -> dot2 u s1 <= dot2 u a -> D <> 0.
  Proof.
    intros Hu0 Hua HD. destruct Hn as [(t & Ht & Ev & E0 & E1)|[Ev Hs]].
    - destruct (foot_facts t Ev E0 E1) as (Es1 & Es0 & Ee & EX & HDe & HY & HZ & HXX). pose proof sub_ne as He.
      rewrite HD in HDe. assert (0 < X * X) by nra. assert (X <> 0) by nra. assert (X * (dot2 v v - dot2 v a) = 0) as Hx0 by lra.
      apply Rmult_integral in Hx0. lra.
    - subst v. set (e := sub2 s1 s0).
      (* perp_dot e (a - s1) = D = 0, so a = s1 + k e *)
      assert (Hp : perp_dot e (sub2 a s1) = 0).
      { transitivity D; [|done]. unfold e, D, X, Y, Z. clear. rv0. ring. }
      pose proof sub_ne as He. fold e in He. set (k := dot2 e (sub2 a s1) / dot2 e e).
      assert (Ek : sub2 a s1 = scale2 e k).
      { unfold k. clearbody e. clear -Hp He. set (f := sub2 a s1) in *. clearbody f.
        assert (dot2 e e * ux f = dot2 e f * ux e) by (assert (dot2 e e * ux f - dot2 e f * ux e = - uy e * perp_dot e f) by (clear; rv0; ring); nra).
        assert (dot2 e e * uy f = dot2 e f * uy e) by (assert (dot2 e e * uy f - dot2 e f * uy e = ux e * perp_dot e f) by (clear; rv0; ring); nra).
        apply V2_eq; cbn [ux uy scale2]; cbn [nmul Num_R]; apply (Rmult_eq_reg_l (dot2 e e)); try lra; field_simplify; try lra. }
      clearbody k.
      assert (Ea : a = add2 s1 (scale2 e k)) by (rewrite <- Ek; clear; apply V2_eq; rv0; ring).
      assert (H1 : dot2 s1 a = dot2 s1 s1 + k * (dot2 s1 s1 - dot2 s1 s0)) by (rewrite Ea; unfold e; clear; rv0; ring).
      assert (H2 : dot2 u a = dot2 u s1 + k * (dot2 u s1 - dot2 u s0)) by (rewrite Ea; unfold e; clear; rv0; ring).
      assert (k <= 0) by nra. nra.
  Qed.
End tri.

(** ** The loop *)
Section loop.
  Context (A B : P2 -> Prop) (HcA : convex2 A) (HcB : convex2 B).
  Notation K := (mdiff2 A B).
  Lemma mdiff2_convex : convex2 K.
  Proof.
    intros x y t (xa & xb & Hxa & Hxb & ->) (ya & yb & Hya & Hyb & ->) Ht.
    exists (add2 (scale2 xa (1 - t)) (scale2 ya t)), (add2 (scale2 xb (1 - t)) (scale2 yb t)).
    split; [by apply HcA|]. split; [by apply HcB|]. apply V2_eq; rv0; ring.
  Qed.
  (** [v] and the simplex, relative to the point [ro] of the ray. *)
  Definition toi_inv (ro : P2) (l : list (SupPt P2)) (v : P2) : Prop :=
    Forall (fun s => K (add2 (sp_v s) ro)) l /\
    (l = [] \/ (exists s0, l = [s0] /\ v = sp_v s0) \/
     (exists s0 s1 u, l = [s0; s1] /\ seg_near (sp_v s0) (sp_v s1) v /\ dot2 u (sp_v s1) < dot2 u (sp_v s0) /\
        forall w, K w -> dot2 u (sp_v s1) <= dot2 u (sub2 w ro))).
  Lemma hull_K ro (ps : list P2) v : Forall (fun p => K (add2 p ro)) ps -> hull2 ps v -> K (add2 v ro).
  Proof.
    intros Hps Hv. induction Hv as [v Hv|a b t _ IHa _ IHb Ht].
    - rewrite Forall_forall in Hps. by apply Hps.
    - replace (add2 (add2 (scale2 a (1 - t)) (scale2 b t)) ro) with (add2 (scale2 (add2 a ro) (1 - t)) (scale2 (add2 b ro) t)).
      { by apply mdiff2_convex. } clear. apply V2_eq; rv0; ring.
  Qed.
  Lemma edge_K ro a s : K (add2 a ro) -> K (add2 s ro) -> K (add2 (closest_on_edge2 a s zero2) ro).
  Proof.
    intros Ka Ks. destruct (closest_on_edge2_spec a s) as (t & Ht & Ec & _). rewrite Ec. apply (hull_K ro [a; s]); [by rewrite !Forall_cons|].
    apply hull2_mix; [apply hull2_vertex; set_solver|apply hull2_vertex; set_solver|done].
  Qed.
  Lemma toi_step eps ro l v (p : SupPt P2) :
    toi_inv ro l v -> 0 < dot2 v v \/ l = [] -> K (sp_v p) -> (forall w, K w -> dot2 v (sp_v p) <= dot2 v w) ->
    (dot2 v (sub2 (sp_v p) ro) <= 0 \/ l = []) ->
    exists l' v', closest2 eps (l ++ [sup_sub sub2 p ro]) = Ok (l', v') /\ K (add2 v' ro) /\ (v' = zero2 \/ toi_inv ro l' v').
  Proof.
    intros [HK Hl] Hv Kp Hm Hd. set (a := sup_sub sub2 p ro).
    assert (Ka : K (add2 (sp_v a) ro)).
    { unfold a, sup_sub. cbn [sp_v]. replace (add2 (sub2 (sp_v p) ro) ro) with (sp_v p); [done|]. clear. apply V2_eq; rv0; ring. }
    assert (Hma : forall w, K w -> dot2 v (sp_v a) <= dot2 v (sub2 w ro)).
    { intros w Hw. specialize (Hm w Hw). unfold a, sup_sub. cbn [sp_v]. clear -Hm.
      replace (dot2 v (sub2 (sp_v p) ro)) with (dot2 v (sp_v p) - dot2 v ro) by (clear; rv0; ring).
      replace (dot2 v (sub2 w ro)) with (dot2 v w - dot2 v ro) by (clear; rv0; ring). lra. }
    change (sub2 (sp_v p) ro) with (sp_v a) in Hd. clearbody a. clear Hm Kp.
    destruct Hl as [-> |[(s0 & -> & ->)|(s0 & s1 & u & -> & Hn & Hu & Hum)]].
    - exists [a], (sp_v a). split; [done|]. split; [done|]. right. split; [by rewrite Forall_singleton|]. right. left. by exists a.
    - destruct Hv as [Hv|]; [|done]. destruct Hd as [Hd|]; [|done]. cbn [app].
      exists [s0; a], (closest_on_edge2 (sp_v a) (sp_v s0) zero2). split; [done|].
      rewrite Forall_singleton in HK. split; [apply edge_K; assumption|]. right. split; [by rewrite !Forall_cons|]. right. right. exists s0, a, (sp_v s0).
      split; [done|]. split; [apply edge_near; lra|]. split; [lra|done].
    - destruct Hv as [Hv|]; [|done]. destruct Hd as [Hd|]; [|done]. cbn [app].
      rewrite !Forall_cons in HK. destruct HK as (K0 & K1 & _).
      assert (Hne : sp_v s0 <> sp_v s1) by (intros E; rewrite E in Hu; lra).
      assert (Hv0 : 0 < dot2 v (sp_v s0) /\ 0 < dot2 v (sp_v s1)).
      { destruct Hn as [(t & _ & _ & E0 & E1)|[-> Hs]]; lra. }
      unfold closest2, reduce2. cbv zeta. cbn [nlt n0 Num_R]. rewrite abp_area, acp_area.
      set (X := perp_dot (sp_v s0) (sp_v s1)). set (Y := perp_dot (sp_v s1) (sp_v a)). set (Z := perp_dot (sp_v a) (sp_v s0)).
      destruct (Rltb 0 (- ((X + Y + Z) * Y))) eqn:EY; [apply Rltb_true in EY|apply Rltb_false in EY].
      { eexists _, _. split; [done|]. split; [apply edge_K; assumption|]. right. split; [by rewrite !Forall_cons|]. right. right. exists s1, a, v.
        split; [done|]. split; [|split; [lra|done]]. apply edge_near. apply (next_s1 (sp_v s0) (sp_v s1) (sp_v a) v Hv Hd Hn Hne). fold X Y Z. lra. }
      destruct (Rltb 0 (- ((X + Y + Z) * Z))) eqn:EZ; [apply Rltb_true in EZ|apply Rltb_false in EZ].
      { eexists _, _. split; [done|]. split; [apply edge_K; assumption|]. right. split; [by rewrite !Forall_cons|]. right. right. exists s0, a, v.
        split; [done|]. split; [|split; [lra|done]]. apply edge_near. apply (next_s0 (sp_v s0) (sp_v s1) (sp_v a) v Hv Hd Hn Hne); fold X Y Z; lra. }
      eexists _, _. split; [done|]. split; [|by left]. apply (hull_K ro [sp_v s0; sp_v s1; sp_v a]); [by rewrite !Forall_cons|].
      assert (HD : X + Y + Z <> 0).
      { apply (not_flat (sp_v s0) (sp_v s1) (sp_v a) v Hv Hd Hn Hne u Hu). specialize (Hum _ Ka).
        replace (sub2 (add2 (sp_v a) ro) ro) with (sp_v a) in Hum; [done|]. clear. apply V2_eq; rv0; ring. }
      assert (HDY : 0 <= (X + Y + Z) * Y) by lra. assert (HDZ : 0 <= (X + Y + Z) * Z) by lra.
      apply hull_zero; try done. by apply (inside_area (sp_v s0) (sp_v s1) (sp_v a) v Hv Hd Hn).
  Qed.
End loop.
