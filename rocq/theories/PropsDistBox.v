(** C67: when the distance of two shapes in the plane is found, and when it is not. *)
From Coq Require Import Psatz.
From stdpp Require Import prelude.
From Flocq Require Import IEEE754.BinarySingleNaN.
From Coq Require Import Reals Lra.
From Verif Require Import Res Num Vec AabbModel GeoModel RealGeo PrimModel ShapeSpec PropsSupport MinkModel MinkSpec Gjk2 PropsGjk2 PropsEpa2 Dist PropsDist PropsToi PropsToiHang DistBox.
Local Open Scope R_scope.

(** ** Parallel rectangles *)
Section rects.
  (** Two rectangles with the same rotation (sides along the columns of [rot]), any scales and
      positions; not both flat in the same direction. *)
  Context (eps tol : R) (rot : M2 (S:=R)) (sl sr : R) (tl tr dl dr : P2).
  Context (Heps : 0 <= eps) (Htol : 0 < tol) (Hrot : orthonormal rot) (Hsl : eps < sl) (Hsr : eps < sr).
  Context (H1 : 0 <= ux dl) (H2 : 0 <= uy dl) (H3 : 0 <= ux dr) (H4 : 0 <= uy dr) (H5 : 0 < ux dl + ux dr) (H6 : 0 < uy dl + uy dr).
  Let TL := decomposed2 eps sl rot tl.
  Let TR := decomposed2 eps sr rot tr.
  Let A := world TL (rect_set dl).
  Let B := world TR (rect_set dr).
  Let e := m2_x rot.
  Let f := m2_y rot.
  Let W := (sl * ux dl + sr * ux dr) / 2.
  Let Hh := (sl * uy dl + sr * uy dr) / 2.
  Let m := sub2 tl tr.
  Lemma rot_frame : frame2 e f.
  Proof. exact Hrot. Qed.
  Lemma pos_sum p q a b : 0 < p -> 0 < q -> 0 <= a -> 0 <= b -> 0 < a + b -> 0 < (p * a + q * b) / 2.
  Proof. intros Hp Hq Ha Hb Hab. assert (0 <= p * a) by nra. assert (0 <= q * b) by nra. destruct (Rlt_le_dec 0 a); [assert (0 < p * a) by nra|assert (0 < q * b) by nra]; lra. Qed.
  Lemma W_pos : 0 < W.
  Proof. apply pos_sum; lra. Qed.
  Lemma H_pos : 0 < Hh.
  Proof. apply pos_sum; lra. Qed.
  Lemma frame2_ext v w : dot2 e v = dot2 e w -> dot2 f v = dot2 f w -> v = w.
  Proof.
    intros E1 E2. assert (E0 : dot2 (sub2 v w) (sub2 v w) = 0).
    { rewrite (frame2_dot e f _ _ rot_frame). change (co e (sub2 v w)) with (dot2 e (sub2 v w)). change (co f (sub2 v w)) with (dot2 f (sub2 v w)).
      rewrite (dot2_sub_r e), (dot2_sub_r f), E1, E2. ring. }
    clear -E0. unfold dot2, sub2 in E0. cbn [ux uy] in E0. cbn [nadd nmul nsub Num_R] in E0.
    destruct (Rplus_sqr_eq_0 (ux v - ux w) (uy v - uy w)) as [Q1 Q2]; [pose proof (Rle_0_sqr (ux v - ux w)); pose proof (Rle_0_sqr (uy v - uy w)); unfold Rsqr in *; lra|]. apply V2_eq; lra.
  Qed.
  Lemma rot_coords s t p : dot2 e (xf_pt (decomposed2 eps s rot t) p) = s * ux p + dot2 e t /\ dot2 f (xf_pt (decomposed2 eps s rot t) p) = s * uy p + dot2 f t.
  Proof.
    destruct Hrot as (R1 & R2 & R3). unfold decomposed2. cbn [xf_pt]. unfold e, f in *. split.
    - transitivity (s * (ux p * dot2 (m2_x rot) (m2_x rot) + uy p * dot2 (m2_x rot) (m2_y rot)) + dot2 (m2_x rot) t); [unfold m2_mul; clear; rv0; ring|]. rewrite R1, R3. ring.
    - transitivity (s * (ux p * dot2 (m2_x rot) (m2_y rot) + uy p * dot2 (m2_y rot) (m2_y rot)) + dot2 (m2_y rot) t); [unfold m2_mul; clear; rv0; ring|]. rewrite R2, R3. ring.
  Qed.
  Lemma rects_mdiff v : mdiff2 A B v <-> framed e f (dot2 e m - W) (dot2 e m + W) (dot2 f m - Hh) (dot2 f m + Hh) v.
  Proof.
    pose proof W_pos as HW. pose proof H_pos as HH. split.
    - intros (x & y & (p & [Hp1 Hp2] & ->) & (q & [Hq1 Hq2] & ->) & ->). unfold framed, m. rewrite !dot2_sub_r.
      destruct (rot_coords sl tl p) as [E1 E2]. destruct (rot_coords sr tr q) as [E3 E4]. unfold TL, TR. rewrite E1, E2, E3, E4. unfold W, Hh. split; nra.
    - intros [Hx Hy]. set (al := dot2 e v - dot2 e m) in *. set (be := dot2 f v - dot2 f m) in *.
      assert (Hk : forall w x, 0 <= x -> 0 < w -> - w <= 0 -> forall a, - w <= a <= w -> - (x / 2) <= a * (x / 2) / w <= x / 2).
      { intros w x Hx0 Hw _ a Ha. assert (-1 <= a / w <= 1).
        { split; apply (Rmult_le_reg_r w); try done; replace (a / w * w) with a by (field; lra); lra. }
        replace (a * (x / 2) / w) with (a / w * (x / 2)) by (field; lra). nra. }
      exists (xf_pt TL (mk2 (al * (ux dl / 2) / W) (be * (uy dl / 2) / Hh))), (xf_pt TR (mk2 (- al * (ux dr / 2) / W) (- be * (uy dr / 2) / Hh))).
      split; [eexists; split; [|done]; split; cbn [ux uy]; apply Hk; try lra; unfold al, be; lra|].
      split; [eexists; split; [|done]; split; cbn [ux uy]; apply Hk; try lra; unfold al, be; lra|].
      unfold TL, TR. apply frame2_ext; rewrite dot2_sub_r; [rewrite !(proj1 (rot_coords _ _ _))|rewrite !(proj2 (rot_coords _ _ _))]; cbn [ux uy].
      + replace (dot2 e v) with (al + dot2 e m) by (unfold al; ring). unfold m. rewrite dot2_sub_r.
        replace (sl * (al * (ux dl / 2) / W) + dot2 e tl - (sr * (- al * (ux dr / 2) / W) + dot2 e tr)) with (al * (((sl * ux dl + sr * ux dr) / 2) / W) + (dot2 e tl - dot2 e tr)) by (field; lra).
        unfold W at 1. fold W. field. lra.
      + replace (dot2 f v) with (be + dot2 f m) by (unfold be; ring). unfold m. rewrite dot2_sub_r.
        replace (sl * (be * (uy dl / 2) / Hh) + dot2 f tl - (sr * (- be * (uy dr / 2) / Hh) + dot2 f tr)) with (be * (((sl * uy dl + sr * uy dr) / 2) / Hh) + (dot2 f tl - dot2 f tr)) by (field; lra).
        unfold Hh at 1. fold Hh. field. lra.
  Qed.
  Lemma TL_similar : similar2 TL.
  Proof. apply C38_decomposed2; [done|rewrite Rabs_pos_eq by lra; done|done]. Qed.
  Lemma TR_similar : similar2 TR.
  Proof. apply C38_decomposed2; [done|rewrite Rabs_pos_eq by lra; done|done]. Qed.
  Lemma origin_at s t : xf_pt (decomposed2 eps s rot t) zero2 = t.
  Proof. unfold decomposed2, m2_mul. cbn [xf_pt]. clear. apply V2_eq; unfold zero2; rv0; ring. Qed.
  (** The direction [u] is that of a side. *)
  Definition side_direction (u : P2) : Prop := u = m2_x rot \/ u = neg2 (m2_x rot) \/ u = m2_y rot \/ u = neg2 (m2_y rot).
  (** Rectangles with a gap in the direction of one of their sides that exceeds the
      comparison tolerance: the query answers, in two turns, with their distance. *)
  Theorem C67_rectangles g u n : side_direction u -> sqrt 2 * eps < g -> (forall x y, A x -> B y -> g <= dot2 u (sub2 y x)) -> (2 <= n)%nat ->
    exists D, dist2_run eps (fun d => rect_support dl d TL) (fun d => rect_support dr d TR) tol n (xf_pt TL zero2) (xf_pt TR zero2) = Ok (Distance D) /\
      distance2 A B tol D.
  Proof.
    intros Hu Hg Hgap Hn. destruct n as [|[|n]]; [lia|lia|].
    assert (SA : supports2 A (fun d => rect_support dl d TL)) by (intros d _; apply C38_rectangle; [done|done|apply TL_similar]).
    assert (SB : supports2 B (fun d => rect_support dr d TR)) by (intros d _; apply C38_rectangle; [done|done|apply TR_similar]).
    pose proof W_pos as HW. pose proof H_pos as HH. pose proof rot_frame as Hf.
    set (x0 := dot2 e m - W). set (x1 := dot2 e m + W). set (y0 := dot2 f m - Hh). set (y1 := dot2 f m + Hh).
    assert (HM : forall v, mdiff2 A B v <-> framed e f x0 x1 y0 y1 v) by exact rects_mdiff.
    assert (Hneg : forall a b, dot2 (neg2 a) b = - dot2 a b) by (intros a b; clear; rv0; ring).
    assert (Hat : forall x y, x0 <= x <= x1 -> y0 <= y <= y1 -> exists v, dot2 e v = x /\ dot2 f v = y /\ g <= - dot2 u v).
    { intros x y Hx Hy. destruct (frame2_pt e f x y Hf) as (v & E1 & E2). exists v. split; [done|]. split; [done|].
      assert (Hv : mdiff2 A B v) by (apply HM; unfold framed; rewrite E1, E2; done). destruct Hv as (a & b & Ha & Hb & ->).
      specialize (Hgap a b Ha Hb). replace (- dot2 u (sub2 a b)) with (dot2 u (sub2 b a)) by (clear; rv0; ring). done. }
    assert (Ed : sub2 (xf_pt TR zero2) (xf_pt TL zero2) = neg2 m).
    { unfold TL, TR. rewrite !origin_at. unfold m. clear. apply V2_eq; rv0; ring. }
    assert (Hrun : exists D, dist2_run eps (fun d => rect_support dl d TL) (fun d => rect_support dr d TR) tol (Datatypes.S (Datatypes.S n)) (xf_pt TL zero2) (xf_pt TR zero2) = Ok (Distance D)).
    { destruct Hu as [-> |[-> |[-> | ->]]].
      - destruct (Hat x1 y0) as (v & E1 & _ & Hv); [unfold x0, x1; lra|unfold y0, y1; lra|]. fold e in Hv. rewrite E1 in Hv.
        apply (box_distance A B _ _ SA SB eps tol Heps Htol e f x0 x1 y0 y1); try done; [unfold x0, x1; lra|unfold y0, y1; lra|lra|..]; rewrite Ed, dot2_neg_r; unfold x0, x1, y0, y1; lra.
      - destruct (Hat x0 y0) as (v & E1 & _ & Hv); [unfold x0, x1; lra|unfold y0, y1; lra|]. fold e in Hv. rewrite Hneg, E1 in Hv.
        assert (Hf' : frame2 (neg2 e) f) by (apply frame2_swap, frame2_neg, frame2_swap; done).
        apply (box_distance A B _ _ SA SB eps tol Heps Htol (neg2 e) f (- x1) (- x0) y0 y1); try done; [|unfold x0, x1; lra|unfold y0, y1; lra|lra|..].
        + intros w. rewrite HM. unfold framed. rewrite Hneg. lra.
        + rewrite Ed, dot2_neg_r, Hneg. unfold x0, x1. lra.
        + rewrite Ed, dot2_neg_r. unfold y0, y1. lra.
      - destruct (Hat x0 y1) as (v & _ & E2 & Hv); [unfold x0, x1; lra|unfold y0, y1; lra|]. fold f in Hv. rewrite E2 in Hv.
        apply (box_distance A B _ _ SA SB eps tol Heps Htol f e y0 y1 x0 x1); try done; [by apply frame2_swap|intros w; rewrite framed_swap; apply HM|unfold y0, y1; lra|unfold x0, x1; lra|lra|..]; rewrite Ed, dot2_neg_r; unfold x0, x1, y0, y1; lra.
      - destruct (Hat x0 y0) as (v & _ & E2 & Hv); [unfold x0, x1; lra|unfold y0, y1; lra|]. fold f in Hv. rewrite Hneg, E2 in Hv.
        assert (Hf' : frame2 (neg2 f) e) by (apply frame2_swap, frame2_neg; done).
        apply (box_distance A B _ _ SA SB eps tol Heps Htol (neg2 f) e (- y1) (- y0) x0 x1); try done; [|unfold y0, y1; lra|unfold x0, x1; lra|lra|..].
        + intros w. rewrite HM. unfold framed. rewrite Hneg. lra.
        + rewrite Ed, dot2_neg_r, Hneg. unfold y0, y1. lra.
        + rewrite Ed, dot2_neg_r. unfold x0, x1. lra. }
    destruct Hrun as (D & ED). exists D. split; [done|].
    assert (CA : convex2 A) by (apply world_convex2; [apply TL_similar|apply rect_convex]).
    assert (CB : convex2 B) by (apply world_convex2; [apply TR_similar|apply rect_convex]).
    destruct (C42_distance2 A B _ _ SA SB CA CB eps tol Heps (Datatypes.S (Datatypes.S n)) (xf_pt TL zero2) (xf_pt TR zero2)) as (o & Eo & Ho).
    assert (o = Distance D) as -> by congruence. by apply Ho.
  Qed.
  (** With an exact comparison: any two disjoint ones. *)
  Theorem C67_disjoint_rectangles n : eps = 0 -> (forall x, A x -> ~ B x) -> (2 <= n)%nat ->
    exists D, dist2_run eps (fun d => rect_support dl d TL) (fun d => rect_support dr d TR) tol n (xf_pt TL zero2) (xf_pt TR zero2) = Ok (Distance D) /\
      distance2 A B tol D.
  Proof.
    intros He Hdis Hn. pose proof rects_mdiff as HM.
    assert (H0 : ~ framed e f (dot2 e m - W) (dot2 e m + W) (dot2 f m - Hh) (dot2 f m + Hh) zero2).
    { intros H. apply HM in H. destruct H as (x & y & Hx & Hy & E). apply (Hdis x Hx). replace x with y; [done|].
      assert (E1 : 0 = ux x - ux y) by exact (f_equal ux E). assert (E2 : 0 = uy x - uy y) by exact (f_equal uy E). apply V2_eq; lra. }
    unfold framed in H0. assert (Ez : forall a : P2, dot2 a zero2 = 0) by (intros a; clear; unfold zero2; rv0; ring). rewrite !Ez in H0.
    assert (Hall : forall x y, A x -> B y -> dot2 e m - W <= dot2 e (sub2 x y) <= dot2 e m + W /\ dot2 f m - Hh <= dot2 f (sub2 x y) <= dot2 f m + Hh).
    { intros x y Hx Hy. apply HM. by exists x, y. }
    assert (Esw : forall u x y : P2, dot2 u (sub2 y x) = - dot2 u (sub2 x y)) by (intros u x y; clear; rv0; ring).
    assert (Hneg : forall a b : P2, dot2 (neg2 a) b = - dot2 a b) by (intros a b; clear; rv0; ring).
    destruct (Rlt_le_dec (dot2 e m + W) 0) as [C1|C1].
    { apply (C67_rectangles (- (dot2 e m + W)) (m2_x rot)); try done; [by left|rewrite He; lra|].
      intros x y Hx Hy. rewrite Esw. specialize (Hall x y Hx Hy). fold e. lra. }
    destruct (Rlt_le_dec 0 (dot2 e m - W)) as [C2|C2].
    { apply (C67_rectangles (dot2 e m - W) (neg2 (m2_x rot))); try done; [by right; left|rewrite He; lra|].
      intros x y Hx Hy. rewrite Esw, Hneg. specialize (Hall x y Hx Hy). fold e. lra. }
    destruct (Rlt_le_dec (dot2 f m + Hh) 0) as [C3|C3].
    { apply (C67_rectangles (- (dot2 f m + Hh)) (m2_y rot)); try done; [by right; right; left|rewrite He; lra|].
      intros x y Hx Hy. rewrite Esw. specialize (Hall x y Hx Hy). fold f. lra. }
    destruct (Rlt_le_dec 0 (dot2 f m - Hh)) as [C4|C4].
    { apply (C67_rectangles (dot2 f m - Hh) (neg2 (m2_y rot))); try done; [by right; right; right|rewrite He; lra|].
      intros x y Hx Hy. rewrite Esw, Hneg. specialize (Hall x y Hx Hy). fold f. lra. }
    exfalso. apply H0. lra.
  Qed.
End rects.

(** ** Circles *)
Section discs.
  Context (eps tol : R) (rl rr : M2 (S:=R)) (sl sr r1 r2 : R) (tl tr : P2).
  Context (Heps : 0 <= eps) (Htol : 0 < tol) (Hrl : orthonormal rl) (Hrr : orthonormal rr) (Hsl : eps < sl) (Hsr : eps < sr).
  Context (Hr1 : 0 <= r1) (Hr2 : 0 <= r2) (Hr : 0 < r1 + r2).
  Let TL := decomposed2 eps sl rl tl.
  Let TR := decomposed2 eps sr rr tr.
  Let A := world TL (disc r1).
  Let B := world TR (disc r2).
  Let rho := sl * r1 + sr * r2.
  Let m := sub2 tl tr.
  Lemma rho_pos : 0 < rho.
  Proof. pose proof (pos_sum sl sr r1 r2 ltac:(lra) ltac:(lra) Hr1 Hr2 Hr). unfold rho. lra. Qed.
  Lemma disc_at s rot t r v : eps < s -> orthonormal rot -> 0 <= r ->
    world (decomposed2 eps s rot t) (disc r) v <-> mag2 (sub2 v t) <= s * r.
  Proof.
    intros Hs Ho Hr0. pose proof (rot_coords eps rot Ho) as Hc.
    assert (Hf : frame2 (m2_x rot) (m2_y rot)) by exact Ho.
    assert (Hmag : forall p, dot2 (sub2 (xf_pt (decomposed2 eps s rot t) p) t) (sub2 (xf_pt (decomposed2 eps s rot t) p) t) = s * s * dot2 p p).
    { intros p. rewrite (frame2_dot _ _ _ _ Hf), !co_dot, !dot2_sub_r, (proj1 (Hc s t p)), (proj2 (Hc s t p)). clear. rv0. ring. }
    split.
    - intros (p & Hp & ->). unfold mag2, mag2_2. cbn [nsqrt Num_R]. rewrite Hmag. unfold disc in Hp.
      rewrite <- (sqrt_square (s * r)) by (apply Rmult_le_pos; lra). apply sqrt_le_1_alt. nra.
    - intros Hv. set (p := mk2 (dot2 (m2_x rot) (sub2 v t) / s) (dot2 (m2_y rot) (sub2 v t) / s) : P2).
      assert (Ev : v = xf_pt (decomposed2 eps s rot t) p).
      { apply (frame2_ext rot Ho); [rewrite (proj1 (Hc s t p))|rewrite (proj2 (Hc s t p))]; unfold p; cbn [ux uy]; rewrite dot2_sub_r; field; lra. }
      exists p. split; [|done]. unfold disc.
      pose proof (Hmag p) as E. rewrite <- Ev in E. pose proof (mag2_sqr (sub2 v t)) as Es. rewrite E in Es.
      pose proof (mag2_nonneg (sub2 v t)). assert (0 < s * s) by nra. assert (s * s * dot2 p p <= s * s * (r * r)) by nra. nra.
  Qed.

  Lemma disc_furthest (S : P2 -> Prop) t k d s : (forall v, S v <-> mag2 (sub2 v t) <= k) -> 0 <= k -> d <> zero2 -> furthest2 S d s ->
    s = add2 t (scale2 d (k / mag2 d)).
  Proof.
    intros HS Hk Hd [Hs Hm]. apply HS, mag2_le_iff in Hs; [|done]. pose proof (mag2_pos d Hd) as Hp. pose proof (mag2_sqr d) as Hq.
    set (q := k / mag2 d). assert (Eq : q * mag2 d = k) by (unfold q; field; lra).
    assert (Hin : S (add2 t (scale2 d q))).
    { apply HS, mag2_le_iff; [done|]. transitivity (q * q * dot2 d d); [apply Req_le; clear; rv0; ring|]. rewrite <- Hq, <- Eq. lra. }
    apply Hm in Hin.
    set (w := sub2 s (add2 t (scale2 d q))).
    assert (E0 : dot2 w w <= 0).
    { assert (Ew : dot2 w w = dot2 (sub2 s t) (sub2 s t) + q * q * dot2 d d - 2 * q * (dot2 d s - dot2 d t)) by (unfold w; clear; rv0; ring).
      assert (Ei : dot2 d (add2 t (scale2 d q)) = dot2 d t + q * dot2 d d) by (clear; rv0; ring). rewrite Ei in Hin.
      assert (0 <= q) by (unfold q; apply Rmult_le_pos; [done|left; by apply Rinv_0_lt_compat]).
      assert (q * q * dot2 d d = k * k) by (rewrite <- Hq, <- Eq; ring). rewrite Ew. nra. }
    clearbody q. unfold w in E0. clear -E0. unfold dot2, sub2, add2, scale2 in E0. cbn [ux uy] in E0. cbn [nadd nmul nsub Num_R] in E0.
    set (x := ux s - (ux t + ux d * q)) in *. set (y := uy s - (uy t + uy d * q)) in *.
    assert (Hx : x * x = 0) by nra. assert (Hy : y * y = 0) by nra. apply Rsqr_0_uniq in Hx, Hy. unfold x in Hx. unfold y in Hy.
    apply V2_eq; cbn [add2 scale2 ux uy]; cbn [nadd nmul Num_R]; lra.
  Qed.
  Lemma disc_mink d : d <> zero2 -> exists p, mink sub2 neg2 (fun d => circle_support r1 d TL) (fun d => circle_support r2 d TR) d = Ok p /\
    sp_v p = add2 m (scale2 d (rho / mag2 d)).
  Proof.
    intros Hd.
    assert (Hn : neg2 d <> zero2).
    { intros E. apply Hd. assert (E1 : - ux d = 0) by exact (f_equal ux E). assert (E2 : - uy d = 0) by exact (f_equal uy E). apply V2_eq; cbn [zero2 ux uy]; cbn [n0 Num_R]; lra. }
    assert (SL : similar2 TL) by (apply C38_decomposed2; [done|rewrite Rabs_pos_eq by lra; done|done]).
    assert (SR : similar2 TR) by (apply C38_decomposed2; [done|rewrite Rabs_pos_eq by lra; done|done]).
    destruct (C38_circle r1 TL d Hr1 SL Hd) as (x & Ex & Hx). destruct (C38_circle r2 TR (neg2 d) Hr2 SR Hn) as (y & Ey & Hy).
    unfold mink. rewrite Ex, Ey. cbn [mbind res_mbind res_bind]. eexists. split; [done|]. cbn [sp_v].
    apply (disc_furthest _ tl (sl * r1)) in Hx; [|intros v; by apply disc_at|apply Rmult_le_pos; lra|done].
    apply (disc_furthest _ tr (sr * r2)) in Hy; [|intros v; by apply disc_at|apply Rmult_le_pos; lra|done].
    assert (Em : mag2 (neg2 d) = mag2 d) by (unfold mag2, mag2_2; f_equal; clear; rv0; ring). rewrite Em in Hy. subst x y. unfold m, rho.
    pose proof (mag2_pos d Hd). clear - H. generalize dependent (mag2 d). intros k Hk. apply V2_eq; rv0; field; lra.
  Qed.
  (** Circles that are more than the comparison tolerance apart: the query answers in one
      turn, with the distance of the centres less both radii. *)
  Theorem C67_circles n : sqrt 2 * eps < mag2 (sub2 tr tl) - (sl * r1 + sr * r2) -> (1 <= n)%nat ->
    dist2_run eps (fun d => circle_support r1 d TL) (fun d => circle_support r2 d TR) tol n (xf_pt TL zero2) (xf_pt TR zero2) =
      Ok (Distance (mag2 (sub2 tr tl) - (sl * r1 + sr * r2))).
  Proof.
    intros Hgap Hn. destruct n as [|n]; [lia|]. fold rho in Hgap |- *. pose proof rho_pos as Hrho.
    assert (Hpt : forall s rot t, xf_pt (decomposed2 eps s rot t) zero2 = t).
    { intros s rot t. unfold decomposed2, m2_mul. cbn [xf_pt]. clear. apply V2_eq; unfold zero2; rv0; ring. }
    unfold TL at 2, TR at 2. rewrite !Hpt. set (d := sub2 tr tl) in *.
    assert (Hs2 : 0 <= sqrt 2 * eps) by (apply Rmult_le_pos; [apply sqrt_pos|done]).
    set (k := mag2 d) in *. assert (Hk : 0 < k) by lra.
    assert (Hd : d <> zero2) by (intros E; assert (mag2 d = 0) by (by apply mag2_zero_iff); unfold k in Hk; lra).
    assert (Em : m = neg2 d) by (unfold m, d; clear; apply V2_eq; rv0; ring).
    assert (Hnear : forall v, sqrt 2 * eps < mag2 v -> near0_2 eps v = false).
    { intros v Hv. destruct (near0_2 eps v) eqn:En; [|done]. apply (near0_2_mag eps Heps) in En. lra. }
    unfold dist2_run, dist_run, first_dir. cbv zeta. fold d. rewrite (Hnear d) by (fold k; lra).
    destruct (disc_mink d Hd) as (a & Ea & Ha). fold k in Ha. rewrite Ea. cbn [mbind res_mbind res_bind].
    assert (Hkk : k * k = dot2 d d) by apply mag2_sqr.
    assert (Hnd : neg2 d <> zero2).
    { intros E. apply Hd. assert (E1 : - ux d = 0) by exact (f_equal ux E). assert (E2 : - uy d = 0) by exact (f_equal uy E). apply V2_eq; cbn [zero2 ux uy]; cbn [n0 Num_R]; lra. }
    assert (Ek : mag2 (neg2 d) = k) by (unfold k, mag2, mag2_2; f_equal; clear; rv0; ring).
    destruct (disc_mink (neg2 d) Hnd) as (b & Eb & Hb). rewrite Ek in Hb. rewrite Eb. cbn [mbind res_mbind res_bind].
    (* both on the line through the centres *)
    set (al := (k - rho) / k). assert (Hal : 0 < al) by (unfold al; apply Rmult_lt_0_compat; [lra|by apply Rinv_0_lt_compat]).
    set (be := (k + rho) / k). assert (Hbe : al < be).
    { unfold al, be, Rdiv. apply Rmult_lt_compat_r; [by apply Rinv_0_lt_compat|lra]. }
    assert (Ea' : sp_v a = scale2 d (- al)).
    { rewrite Ha, Em. unfold al. clear -Hk. clearbody k. apply V2_eq; rv0; field; lra. }
    assert (Eb' : sp_v b = scale2 d (- be)).
    { rewrite Hb, Em. unfold be. clear -Hk. clearbody k. apply V2_eq; rv0; field; lra. }
    cbn [dist_loop]. destruct (closest2_two eps a b) as (c & Ec & Hh & Hnr). rewrite Ec. cbn [mbind res_mbind res_bind].
    assert (Hhc : exists g, al <= g <= be /\ c = scale2 d (- g)).
    { clear -Hh Ea' Eb' Hbe. cbn [fmap list_fmap] in Hh. rewrite Ea', Eb' in Hh.
      remember [scale2 d (- al); scale2 d (- be)] as l eqn:El. induction Hh as [v Hv|u v t _ IHu _ IHv Ht].
      - subst l. apply elem_of_cons in Hv as [-> | ->%elem_of_list_singleton]; eexists; (split; [|done]); lra.
      - destruct IHu as (g & Hg & ->), IHv as (h & Hh & ->). exists ((1 - t) * g + t * h). split; [nra|]. clear. apply V2_eq; rv0; ring. }
    destruct Hhc as (g & Hg & Eg).
    assert (Egal : g = al).
    { pose proof (Hnr a ltac:(set_solver)) as H1. rewrite Ea', Eg in H1.
      replace (dot2 (scale2 d (- g)) (scale2 d (- g))) with (g * g * dot2 d d) in H1 by (clear; rv0; ring).
      replace (dot2 (scale2 d (- g)) (scale2 d (- al))) with (g * al * dot2 d d) in H1 by (clear; rv0; ring). rewrite <- Hkk in H1.
      assert (Hk2 : 0 < k * k) by nra. apply Rmult_le_reg_r in H1; [|done]. nra. }
    subst g. assert (Eca : c = scale2 d (- al)) by done.
    assert (Emc : mag2 (neg2 c) = k - rho).
    { rewrite Eca. replace (neg2 (scale2 d (- al))) with (scale2 d al) by (clear; apply V2_eq; rv0; ring). rewrite mag2_scale, Rabs_pos_eq by lra. fold k. unfold al. field. lra. }
    rewrite Hnear.
    2:{ replace (mag2 c) with (mag2 (neg2 c)) by (unfold mag2, mag2_2; f_equal; clear; rv0; ring). rewrite Emc. lra. }
    cbv zeta. assert (Hnc : neg2 c <> zero2) by (intros E; assert (mag2 (neg2 c) = 0) by (by apply mag2_zero_iff); lra).
    destruct (disc_mink (neg2 c) Hnc) as (p & Ep & Hp). rewrite Ep. cbn [mbind res_mbind res_bind get lookup list_lookup]. rewrite Emc in Hp.
    assert (Epa : sp_v p = sp_v a).
    { rewrite Hp, Ha, Eca. unfold al. assert (0 < k - rho) by lra. clear -Hk H. clearbody k. apply V2_eq; rv0; field; lra. }
    rewrite Epa. cbn [nlt nsub Num_R]. rewrite (proj2 (Rltb_true _ _)) by lra. by rewrite Emc.
  Qed.
End discs.

(** ** Distances that are not found *)
Section recur.
  Local Existing Instance Num_float.
  Local Existing Instance NumSgn_float.
  Context (eps tol : f32) (supL supR : V2 f32 -> res (V2 f32)).
  Notation loop := (dist_loop sub2 neg2 dot2 mag2 (near0_2 eps) supL supR (closest2 eps) tol).
  (** One turn of the loop of [distance] that does not end it. *)
  Definition dturn (s : list (SupPt (V2 f32))) : option (list (SupPt (V2 f32))) :=
    match closest2 eps s with
    | Ok (s', c) =>
        if near0_2 eps c then None else
        match mink sub2 neg2 supL supR (neg2 c) with
        | Ok p => match s' with
            | s0 :: _ => if nlt (nsub (dot2 (sp_v p) (neg2 c)) (dot2 (sp_v s0) (neg2 c))) tol then None else Some (s' ++ [p])
            | [] => None
            end
        | _ => None
        end
    | _ => None
    end.
  Lemma loop_dturn n s t : dturn s = Some t -> loop (Datatypes.S n) s = loop n t.
  Proof.
    unfold dturn. cbn [dist_loop]. destruct (closest2 eps s) as [[s' c]| |]; cbn [mbind res_mbind res_bind]; [|done|done].
    destruct (near0_2 eps c); [done|]. cbv zeta.
    destruct (mink _ _ _ _ _) as [p| |]; cbn [mbind res_mbind res_bind]; [|done|done].
    destruct s' as [|s0 s']; [done|]. cbn [get lookup list_lookup mbind res_mbind res_bind].
    destruct (nlt _ tol); [done|]. intros E. apply (inj Some) in E. by subst.
  Qed.
  Fixpoint dturns (k : nat) s := match k with O => Some s | Datatypes.S k => match dturn s with Some t => dturns k t | None => None end end.
  Lemma loop_dturns k : forall s t, dturns k s = Some t -> (forall n, loop (k + n) s = loop n t) /\ (forall n, (n <= k)%nat -> loop n s = Ok DistExhausted).
  Proof.
    induction k as [|k IH]; intros s t E; cbn [dturns] in E.
    - apply (inj Some) in E. subst t. split; [done|]. intros n Hn. assert (n = 0%nat) as -> by lia. done.
    - destruct (dturn s) as [u|] eqn:Eu; [|done]. destruct (IH u t E) as [I1 I2]. split.
      + intros n. change (Datatypes.S k + n)%nat with (Datatypes.S (k + n)). rewrite (loop_dturn _ s u Eu). apply I1.
      + intros [|n] Hn; [done|]. rewrite (loop_dturn _ s u Eu). apply I2. lia.
  Qed.
  Lemma loop_recurs k s : (0 < k)%nat -> dturns k s = Some s -> forall n, loop n s = Ok DistExhausted.
  Proof.
    intros Hk E n. destruct (loop_dturns k s s E) as [I1 I2]. induction n as [n IH] using lt_wf_ind.
    destruct (decide (n <= k)%nat) as [H|H]; [by apply I2|].
    replace n with (k + (n - k))%nat by lia. rewrite I1. apply IH. lia.
  Qed.
  Definition lsf (s : list (SupPt (V2 f32))) := map ssf s.
  Lemma lsf_inj s : forall t, lsf s = lsf t -> s = t.
  Proof.
    induction s as [|p s IH]; intros [|q t] E; try done. unfold lsf in E. cbn [map] in E.
    assert (Ep : ssf p = ssf q) by exact (f_equal (fun x => match x with [] => ssf p | y :: _ => y end) E).
    assert (Es : map ssf s = map ssf t) by exact (f_equal (fun x => match x with [] => map ssf s | _ :: y => y end) E).
    apply ssf_inj in Ep. subst. f_equal. by apply IH.
  Qed.
  (** The simplex after [j] turns comes back after [k] more. *)
  Definition simplex_comes_back (lpos rpos : V2 f32) (j k : nat) : Prop :=
    let d := first_dir (mk2 n1 n1) sub2 (near0_2 eps) lpos rpos in
    match mink sub2 neg2 supL supR d, mink sub2 neg2 supL supR (neg2 d) with
    | Ok a, Ok b => match dturns j [a; b] with
        | Some s => match dturns k s with Some t => lsf t = lsf s | None => False end
        | None => False end
    | _, _ => False
    end.
  Lemma comes_back_exhausted lpos rpos j k : (0 < k)%nat -> simplex_comes_back lpos rpos j k ->
    forall n, dist2_run eps supL supR tol n lpos rpos = Ok DistExhausted.
  Proof.
    intros Hk H n. unfold simplex_comes_back in H. cbv zeta in H. unfold dist2_run, dist_run. cbv zeta.
    destruct (mink _ _ _ _ _) as [a| |]; [|done|done]. cbn [mbind res_mbind res_bind].
    destruct (mink _ _ _ _ _) as [b| |]; [|done|done]. cbn [mbind res_mbind res_bind].
    destruct (dturns j [a; b]) as [s|] eqn:Ej; [|done]. destruct (dturns k s) as [t|] eqn:Ek; [|done]. apply lsf_inj in H. subst t.
    destruct (loop_dturns j _ s Ej) as [I1 I2].
    destruct (decide (n <= j)%nat) as [Hn|Hn]; [by apply I2|].
    replace n with (j + (n - j))%nat by lia. rewrite I1. by apply (loop_recurs k).
  Qed.
End recur.
Local Instance num32x : Num f32 := Num_float 24 128.
Local Instance sgn32x : NumSgn f32 := NumSgn_float 24 128.
Definition pt32 (p : Z * Z) : V2 f32 := mk2 (F32 (fst p) 0) (F32 (snd p) 0).
(** A triangle at the origin and a square of side 2, both at unit scale, single precision,
    the default tolerance. *)
Definition tri_sup (t : list (Z * Z)) (d : V2 f32) := polygon_support (map pt32 t) d (frect_at 0 0).
Definition sq_sup (x y : Z) (d : V2 f32) := rect_support (mk2 (F32 2 0) (F32 2 0)) d (frect_at x y).
Definition dist_tri_sq (t : list (Z * Z)) (x y : Z) (n : nat) :=
  dist2_run (F32 1 (-23)) (tri_sup t) (sq_sup x y) tol32 n (xf_pt (frect_at 0 0) zero2) (xf_pt (frect_at x y) zero2).
(** The line [a x + b y = c] separates them: all corners of the triangle strictly on one
    side, all corners of the square strictly on the other. *)
Definition line_separates (a b c : Z) (t : list (Z * Z)) (x y : Z) : Prop :=
  Forall (fun p => (a * fst p + b * snd p < c)%Z) t /\
  Forall (fun p => (c < a * fst p + b * snd p)%Z) [(x + 1, y + 1)%Z; (x - 1, y + 1)%Z; (x - 1, y - 1)%Z; (x + 1, y - 1)%Z].
(** The triangle lies below the line x + y = 2, the square above x + y = 13; from the third turn
    on the answer is "touching": [None] under any limit of at least 3 turns. *)
Theorem C67_corner_none_refuted n : (3 <= n)%nat ->
  line_separates 1 1 2 [(-2, 1); (3, -2); (1, 0)]%Z 8 8 /\ line_separates 1 1 13 [(-2, 1); (3, -2); (1, 0)]%Z 8 8 /\
  dist_tri_sq [(-2, 1); (3, -2); (1, 0)]%Z 8 8 n = Ok Touching.
Proof.
  intros Hn. split; [unfold line_separates; repeat constructor|]. split; [unfold line_separates; repeat constructor|].
  replace n with (3 + (n - 3))%nat by lia. generalize (n - 3)%nat. clear. intros n. by vm_compute.
Qed.
(** Triangle above the line, square below: no limit on the number of turns is large enough. *)
Theorem C67_never_found_refuted n :
  line_separates 1 (-4) 16 [(-5, -1); (3, 0); (5, 2)]%Z 4 (-7) /\
  dist_tri_sq [(-5, -1); (3, 0); (5, 2)]%Z 4 (-7) n = Ok DistExhausted.
Proof.
  split; [unfold line_separates; repeat constructor|]. apply (comes_back_exhausted _ _ _ _ _ _ 4 4); [lia|]. by vm_compute.
Qed.

(** The hypotheses are met: two 2 x 4 rectangles whose sides facing each other are 3 apart,
    turned by a right angle; two unit circles with centres 5 apart. *)
Example C67_hypotheses_met :
  let rot := mkM2 (mk2 0 1) (mk2 (-1) 0) : M2 (S:=R) in
  let tr := mk2 1 5 : P2 in let dl := mk2 2 4 : P2 in
  orthonormal rot /\ side_direction rot (mk2 0 1) /\ sqrt 2 * 0 < 3 /\
  (forall x y, world (decomposed2 0 1 rot zero2) (rect_set dl) x -> world (decomposed2 0 1 rot tr) (rect_set dl) y -> 3 <= dot2 (mk2 0 1) (sub2 y x)) /\
  sqrt 2 * 0 < mag2 (sub2 (mk2 3 4) zero2 : P2) - (1 * 1 + 1 * 1).
Proof.
  cbv zeta. split; [unfold orthonormal; cbn [m2_x m2_y]; repeat split; rv0; ring|]. split; [by left|]. split; [lra|]. split.
  - intros x y (p & Hp & ->) (q & Hq & ->). unfold rect_set in *. cbn [ux uy] in *. unfold decomposed2, m2_mul, zero2. cbn [xf_pt m2_x m2_y]. revert Hp Hq. destruct p, q. rv0.
    intros Hp Hq. lra.
  - replace (mag2 _) with 5; [lra|]. unfold mag2, mag2_2. replace (dot2 _ _) with (5 * 5) by (unfold zero2; rv0; ring). cbn [nsqrt Num_R]. rewrite sqrt_square; lra.
Qed.
