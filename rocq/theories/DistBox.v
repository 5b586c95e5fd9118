(** Distance queries whose Minkowski difference is a rectangle: two turns are enough (real
    arithmetic). *)
From Coq Require Import Psatz.
From stdpp Require Import prelude.
From Coq Require Import Reals Lra.
From Verif Require Import Res Num Vec AabbModel GeoModel RealGeo PrimModel ShapeSpec PropsSupport MinkModel MinkSpec Gjk2 PropsGjk2 Dist PropsDist.
Local Open Scope R_scope.

(** Two perpendicular unit vectors. *)
Definition frame2 (e f : P2) : Prop := dot2 e e = 1 /\ dot2 f f = 1 /\ dot2 e f = 0.
Lemma frame2_neg e f : frame2 e f -> frame2 e (neg2 f).
Proof.
  intros (H1 & H2 & H3). split; [done|]. split.
  - rewrite <- H2. clear. rv0. ring.
  - replace 0 with (- 0) by ring. rewrite <- H3. clear. rv0. ring.
Qed.
Lemma frame2_swap e f : frame2 e f -> frame2 f e.
Proof. intros (H1 & H2 & H3). split; [done|]. split; [done|]. rewrite <- H3. clear. rv0. ring. Qed.
Lemma frame_coords a b c d p q r s : a * a + b * b = 1 -> c * c + d * d = 1 -> a * c + b * d = 0 ->
  p * r + q * s = (a * p + b * q) * (a * r + b * s) + (c * p + d * q) * (c * r + d * s).
Proof.
  intros H1 H2 H3.
  assert (Ec : c = - (b * (a * d - b * c))).
  { transitivity (c * (a * a + b * b)); [rewrite H1; ring|]. replace (c * (a * a + b * b)) with (a * (a * c + b * d) - b * (a * d - b * c)) by ring. rewrite H3. ring. }
  assert (Ed : d = a * (a * d - b * c)).
  { transitivity (d * (a * a + b * b)); [rewrite H1; ring|]. replace (d * (a * a + b * b)) with (b * (a * c + b * d) + a * (a * d - b * c)) by ring. rewrite H3. ring. }
  assert (ED : (a * d - b * c) * (a * d - b * c) = 1).
  { transitivity ((a * a + b * b) * (c * c + d * d) - (a * c + b * d) * (a * c + b * d)); [ring|]. rewrite H1, H2, H3. ring. }
  generalize dependent (a * d - b * c). intros D Ec Ed ED.
  transitivity ((a * a + b * b) * (p * r + q * s)); [rewrite H1; ring|].
  transitivity ((a * p + b * q) * (a * r + b * s) + (D * D) * ((a * q - b * p) * (a * s - b * r))); [rewrite ED; ring|]. rewrite Ec, Ed. ring.
Qed.
Definition co (e v : P2) : R := dot2 e v.
Lemma frame2_dot e f v w : frame2 e f -> dot2 v w = co e v * co e w + co f v * co f w.
Proof.
  unfold co. intros (H1 & H2 & H3). unfold dot2 in *. cbn [nadd nmul Num_R] in *. by apply frame_coords.
Qed.
Lemma co_dot e v : co e v = dot2 e v.
Proof. done. Qed.
Opaque co.
Ltac fdot Hf := repeat match goal with |- context [dot2 ?v ?w] => rewrite (frame2_dot _ _ v w Hf) end; repeat match goal with |- context [co ?v ?w] => change (co v w) with (dot2 v w) end.
Ltac fdot_in Hf H := repeat match type of H with context [dot2 ?v ?w] => rewrite (frame2_dot _ _ v w Hf) in H end; repeat match type of H with context [co ?v ?w] => change (co v w) with (dot2 v w) in H end.
(** The point with given coordinates. *)
Lemma frame2_pt e f x y : frame2 e f -> exists v, dot2 e v = x /\ dot2 f v = y.
Proof.
  intros (H1 & H2 & H3). exists (add2 (scale2 e x) (scale2 f y)). split.
  - transitivity (x * dot2 e e + y * dot2 e f); [clear; rv0; ring|]. rewrite H1, H3. ring.
  - transitivity (x * dot2 e f + y * dot2 f f); [clear; rv0; ring|]. rewrite H2, H3. ring.
Qed.

(** The rectangle [x0, x1] x [y0, y1] in the coordinates of a frame. *)
Definition framed (e f : P2) (x0 x1 y0 y1 : R) (v : P2) : Prop := x0 <= dot2 e v <= x1 /\ y0 <= dot2 f v <= y1.
Lemma framed_neg e f x0 x1 y0 y1 v : framed e (neg2 f) x0 x1 (- y1) (- y0) v <-> framed e f x0 x1 y0 y1 v.
Proof. unfold framed. replace (dot2 (neg2 f) v) with (- dot2 f v) by (clear; rv0; ring). lra. Qed.
Lemma framed_swap e f x0 x1 y0 y1 v : framed f e y0 y1 x0 x1 v <-> framed e f x0 x1 y0 y1 v.
Proof. unfold framed. tauto. Qed.

(** A furthest point of the rectangle in the direction [d]. *)
Lemma framed_max_x e f x0 x1 y0 y1 d p : frame2 e f -> framed e f x0 x1 y0 y1 p ->
  (forall v, framed e f x0 x1 y0 y1 v -> dot2 d v <= dot2 d p) -> 0 < dot2 e d -> dot2 e p = x1.
Proof.
  intros Hf [Hx Hy] Hm Hd. destruct (frame2_pt e f x1 (dot2 f p) Hf) as (v & Ex & Ey).
  specialize (Hm v ltac:(unfold framed; rewrite Ex, Ey; lra)). fdot_in Hf Hm; rewrite ?dot2_sub_r, Ex, Ey in Hm.
  destruct (Rle_lt_dec x1 (dot2 e p)); [lra|]. nra.
Qed.
Lemma framed_min_x e f x0 x1 y0 y1 d p : frame2 e f -> framed e f x0 x1 y0 y1 p ->
  (forall v, framed e f x0 x1 y0 y1 v -> dot2 d v <= dot2 d p) -> dot2 e d < 0 -> dot2 e p = x0.
Proof.
  intros Hf [Hx Hy] Hm Hd. destruct (frame2_pt e f x0 (dot2 f p) Hf) as (v & Ex & Ey).
  specialize (Hm v ltac:(unfold framed; rewrite Ex, Ey; lra)). fdot_in Hf Hm; rewrite ?dot2_sub_r, Ex, Ey in Hm.
  destruct (Rle_lt_dec (dot2 e p) x0); [lra|]. nra.
Qed.
Lemma framed_max_y e f x0 x1 y0 y1 d p : frame2 e f -> framed e f x0 x1 y0 y1 p ->
  (forall v, framed e f x0 x1 y0 y1 v -> dot2 d v <= dot2 d p) -> 0 < dot2 f d -> dot2 f p = y1.
Proof.
  intros Hf Hp Hm. apply (framed_max_x f e y0 y1 x0 x1); [by apply frame2_swap|by apply framed_swap|].
  intros v Hv. by apply Hm, framed_swap.
Qed.
Lemma framed_min_y e f x0 x1 y0 y1 d p : frame2 e f -> framed e f x0 x1 y0 y1 p ->
  (forall v, framed e f x0 x1 y0 y1 v -> dot2 d v <= dot2 d p) -> dot2 f d < 0 -> dot2 f p = y0.
Proof.
  intros Hf Hp Hm. apply (framed_min_x f e y0 y1 x0 x1); [by apply frame2_swap|by apply framed_swap|].
  intros v Hv. by apply Hm, framed_swap.
Qed.

Lemma dot2_triple (u v w z : P2) : dot2 (triple u v w) z = dot2 v z * dot2 u w - dot2 u z * dot2 v w.
Proof. unfold triple. rv0. ring. Qed.
Lemma dot2_sub_r (e v w : P2) : dot2 e (sub2 v w) = dot2 e v - dot2 e w.
Proof. rv0. ring. Qed.
Lemma dot2_neg_r (e v : P2) : dot2 e (neg2 v) = - dot2 e v.
Proof. rv0. ring. Qed.
Lemma hull2_const (e : P2) k vs v : hull2 vs v -> (forall w, w ∈ vs -> dot2 e w = k) -> dot2 e v = k.
Proof.
  intros Hv Hk. induction Hv as [v Hv|a b t _ IHa _ IHb Ht]; [by apply Hk|].
  transitivity ((1 - t) * dot2 e a + t * dot2 e b); [clear; rv0; ring|]. rewrite IHa, IHb. ring.
Qed.

(** The triangle of the second turn is cut to its side that faces the origin. *)
Lemma framed_reduce e f x0 x1 y0 (a b p : SupPt P2) eps : frame2 e f -> x0 < x1 -> x1 < 0 -> y0 < 0 ->
  dot2 e (sp_v a) = x1 -> dot2 e (sp_v b) = x0 -> dot2 e (sp_v p) = x1 ->
  dot2 f (sp_v p) = y0 -> y0 < dot2 f (sp_v a) -> y0 <= dot2 f (sp_v b) ->
  closest2 eps [a; b; p] = closest2 eps [a; p].
Proof.
  intros Hf Hx01 Hx1 Hy0 Eax Ebx Epx Epy Hay Hby. unfold closest2. cbn [reduce2]. cbn [nlt n0 Num_R].
  rewrite (proj2 (Rltb_false _ _)).
  2:{ rewrite dot2_triple; fdot Hf; rewrite !dot2_neg_r, !dot2_sub_r, Eax, Ebx, Epx, Epy.
      set (h := dot2 f (sp_v a) - y0). set (w := dot2 f (sp_v b) - y0). set (u := x0 - x1).
      assert (0 < h) by (unfold h; lra). assert (0 <= w) by (unfold w; lra). assert (u < 0) by (unfold u; lra). clearbody h w u.
      replace (_ - _) with (h * (u * (u * y0 - w * x1))) by ring.
      assert (0 < u * y0) by nra. assert (0 <= - (w * x1)) by nra. assert (0 <= h * ((- u) * (u * y0 - w * x1))); [|lra].
      apply Rmult_le_pos; [lra|]. apply Rmult_le_pos; lra. }
  rewrite (proj2 (Rltb_true _ _)); [done|].
  rewrite dot2_triple; fdot Hf; rewrite !dot2_neg_r, !dot2_sub_r, Eax, Ebx, Epx, Epy.
  set (h := dot2 f (sp_v a) - y0). set (w := dot2 f (sp_v b) - y0). set (u := x0 - x1).
  assert (0 < h) by (unfold h; lra). assert (u < 0) by (unfold u; lra). clearbody h w u.
  replace (_ - _) with ((u * x1) * (h * h)) by ring. apply Rmult_lt_0_compat; nra.
Qed.

Section run.
  Context (A B : P2 -> Prop) (supL supR : P2 -> res P2) (HA : supports2 A supL) (HB : supports2 B supR) (eps tol : R) (Heps : 0 <= eps) (Htol : 0 < tol).
  Context (e f : P2) (x0 x1 y0 y1 : R) (Hf : frame2 e f) (HM : forall v, mdiff2 A B v <-> framed e f x0 x1 y0 y1 v)
    (Hx01 : x0 < x1) (Hx1 : sqrt 2 * eps < - x1).
  Notation loop := (dist_loop sub2 neg2 dot2 mag2 (near0_2 eps) supL supR (closest2 eps) tol).
  Lemma x1_neg : x1 < 0.
  Proof. pose proof (sqrt_pos 2). assert (0 <= sqrt 2 * eps) by (apply Rmult_le_pos; lra). lra. Qed.
  Lemma not_near v : dot2 e v <= x1 -> near0_2 eps v = false.
  Proof.
    intros Hv. destruct (near0_2 eps v) eqn:En; [|done]. apply (near0_2_mag eps Heps) in En.
    pose proof (cauchy2 e v) as Hc. assert (Ee : mag2 e = 1).
    { unfold mag2, mag2_2. cbn [nsqrt Num_R]. destruct Hf as (-> & _). apply sqrt_1. }
    assert (Hn : - dot2 e v <= mag2 v); [|lra].
    pose proof (cauchy2 (neg2 e) v) as Hc2.
    assert (En2 : mag2 (neg2 e) = 1).
    { unfold mag2, mag2_2. cbn [nsqrt Num_R]. replace (dot2 (neg2 e) (neg2 e)) with (dot2 e e) by (clear; rv0; ring). destruct Hf as (-> & _). apply sqrt_1. }
    rewrite En2 in Hc2. replace (dot2 (neg2 e) v) with (- dot2 e v) in Hc2 by (clear; rv0; ring). lra.
  Qed.
  Lemma mink_x d : 0 < dot2 e d -> exists p, mink sub2 neg2 supL supR d = Ok p /\ dot2 e (sp_v p) = x1 /\ y0 <= dot2 f (sp_v p) <= y1 /\
    (dot2 f d < 0 -> dot2 f (sp_v p) = y0) /\ (0 < dot2 f d -> dot2 f (sp_v p) = y1).
  Proof.
    intros Hd. assert (Hd0 : d <> zero2).
    { intros ->. apply Rlt_not_eq in Hd. apply Hd. clear. unfold zero2. rv0. ring. }
    destruct (mink2_spec A B supL supR HA HB d Hd0) as (p & Ep & [Hp _] & Hm & _). exists p. split; [exact Ep|].
    apply witness2_mdiff, HM in Hp. assert (Hm' : forall v, framed e f x0 x1 y0 y1 v -> dot2 d v <= dot2 d (sp_v p)) by (intros v Hv; by apply Hm, HM).
    split; [by eapply framed_max_x|]. split; [apply Hp|]. split; intros ?; [by eapply framed_min_y|by eapply framed_max_y].
  Qed.
  (** The second turn: the nearest point of a side that faces the origin. *)
  Lemma last_turn n (a p : SupPt P2) : dot2 e (sp_v a) = x1 -> dot2 e (sp_v p) = x1 -> dot2 f (sp_v p) < 0 -> 0 < dot2 f (sp_v a) ->
    forall l, closest2 eps l = closest2 eps [a; p] -> exists D, loop (Datatypes.S n) l = Ok (Distance D).
  Proof.
    intros Ea Ep Hp Ha l El. cbn [dist_loop]. rewrite El.
    destruct (closest2_two eps a p) as (c & Ec & Hh & Hn). rewrite Ec. cbn [mbind res_mbind res_bind].
    assert (Ecx : dot2 e c = x1).
    { apply (hull2_const e x1 _ c Hh). intros w. cbn [fmap list_fmap]. intros [-> | ->%elem_of_list_singleton]%elem_of_cons; done. }
    assert (Ecy : dot2 f c = 0).
    { pose proof (Hn a ltac:(set_solver)) as H1. pose proof (Hn p ltac:(set_solver)) as H2. fdot_in Hf H1; fdot_in Hf H2; rewrite ?dot2_sub_r, Ecx in H1, H2. rewrite Ea in H1. rewrite Ep in H2.
      destruct (Rtotal_order (dot2 f c) 0) as [Hlt|[?|Hgt]]; [|done|]; exfalso; nra. }
    rewrite (not_near c) by lra. pose proof x1_neg.
    destruct (mink_x (neg2 c)) as (q & Eq & Eqx & _); [rewrite dot2_neg_r; lra|]. rewrite Eq. cbn [mbind res_mbind res_bind get lookup list_lookup].
    cbn [nlt nsub Num_R]. rewrite (proj2 (Rltb_true _ _)); [by eexists|].
    fdot Hf; rewrite !dot2_neg_r, Ecx, Ecy, Eqx, Ea. lra.
  Qed.
End run.
Lemma hull2_le (e : P2) k vs v : hull2 vs v -> (forall w, w ∈ vs -> dot2 e w <= k) -> dot2 e v <= k.
Proof.
  intros Hv Hk. induction Hv as [v Hv|a b t _ IHa _ IHb Ht]; [by apply Hk|].
  replace (dot2 e _) with ((1 - t) * dot2 e a + t * dot2 e b) by (clear; rv0; ring). nra.
Qed.
Section run2.
  Context (A B : P2 -> Prop) (supL supR : P2 -> res P2) (HA : supports2 A supL) (HB : supports2 B supR) (eps tol : R) (Heps : 0 <= eps) (Htol : 0 < tol).
  Notation loop := (dist_loop sub2 neg2 dot2 mag2 (near0_2 eps) supL supR (closest2 eps) tol).
  Lemma first_turn_up (e f : P2) x0 x1 y0 y1 n a b c : frame2 e f -> (forall v, mdiff2 A B v <-> framed e f x0 x1 y0 y1 v) ->
    x0 < x1 -> y0 < y1 -> sqrt 2 * eps < - x1 ->
    dot2 e (sp_v a) = x1 -> dot2 e (sp_v b) = x0 -> y0 <= dot2 f (sp_v a) <= y1 -> y0 <= dot2 f (sp_v b) <= y1 ->
    (0 < y0 + y1 -> dot2 f (sp_v a) = y0) -> (y0 + y1 < 0 -> dot2 f (sp_v b) = y0) ->
    closest2 eps [a; b] = Ok ([a; b], c) -> nearest2 [a; b] c -> 0 <= dot2 f c ->
    exists D, loop (Datatypes.S (Datatypes.S n)) [a; b] = Ok (Distance D).
  Proof.
    intros Hf HM Hx01 Hy01 Hx1 Eax Ebx Hay Hby Hpos Hneg Ec [Hh Hn] Hc.
    pose proof (x1_neg eps Heps x1 Hx1) as Hx1n.
    assert (Hcx : dot2 e c <= x1).
    { apply (hull2_le e x1 _ c Hh). intros w. cbn [fmap list_fmap]. intros [-> | ->%elem_of_list_singleton]%elem_of_cons; lra. }
    change (loop (Datatypes.S (Datatypes.S n)) [a; b]) with
      ('(simplex', c) ← closest2 eps [a; b];
       if near0_2 eps c then Ok Touching
       else let d := neg2 c in p ← mink sub2 neg2 supL supR d; s0 ← get simplex' 0;
         if nlt (nsub (dot2 (sp_v p) d) (dot2 (sp_v s0) d)) tol then Ok (Distance (mag2 d)) else loop (Datatypes.S n) (simplex' ++ [p])).
    rewrite Ec. cbn [mbind res_mbind res_bind]. rewrite (not_near eps Heps e f x1 Hf Hx1 c Hcx). cbv zeta.
    destruct (mink_x A B supL supR HA HB e f x0 x1 y0 y1 Hf HM (neg2 c)) as (p & Ep & Epx & Hpy & Hpd & _); [rewrite dot2_neg_r; lra|].
    rewrite Ep. cbn [mbind res_mbind res_bind get lookup list_lookup]. cbn [nlt nsub Num_R].
    destruct (Rltb _ tol) eqn:Et; [by eexists|]. apply Rltb_false in Et.
    fdot_in Hf Et; rewrite ?dot2_sub_r, !dot2_neg_r, Epx, Eax in Et. rewrite dot2_neg_r in Hpd.
    assert (Hyc : 0 < dot2 f c) by (destruct Hc as [|E]; [done|rewrite <- E in Et; lra]).
    specialize (Hpd ltac:(lra)). rewrite Hpd in Et.
    assert (Hya : y0 < dot2 f (sp_v a)) by nra.
    assert (Hy0 : y0 < 0) by (destruct (Rlt_le_dec 0 (y0 + y1)) as [H|H]; [specialize (Hpos H); lra|lra]).
    assert (Hya0 : dot2 f c <= dot2 f (sp_v a)).
    { pose proof (Hn a ltac:(set_solver)) as H1. fdot_in Hf H1; rewrite ?dot2_sub_r, Eax in H1. nra. }
    apply (last_turn A B supL supR HA HB eps tol Heps Htol e f x0 x1 y0 y1 Hf HM Hx01 Hx1 n a p Eax Epx); [lra|lra|].
    apply (framed_reduce e f x0 x1 y0 a b p eps); try done; lra.
  Qed.
  Lemma first_turn (e f : P2) x0 x1 y0 y1 n a b : frame2 e f -> (forall v, mdiff2 A B v <-> framed e f x0 x1 y0 y1 v) ->
    x0 < x1 -> y0 < y1 -> sqrt 2 * eps < - x1 ->
    dot2 e (sp_v a) = x1 -> dot2 e (sp_v b) = x0 -> y0 <= dot2 f (sp_v a) <= y1 -> y0 <= dot2 f (sp_v b) <= y1 ->
    (0 < y0 + y1 -> dot2 f (sp_v a) = y0 /\ dot2 f (sp_v b) = y1) -> (y0 + y1 < 0 -> dot2 f (sp_v a) = y1 /\ dot2 f (sp_v b) = y0) ->
    exists D, loop (Datatypes.S (Datatypes.S n)) [a; b] = Ok (Distance D).
  Proof.
    intros Hf HM Hx01 Hy01 Hx1 Eax Ebx Hay Hby Hpos Hneg.
    destruct (closest2_two eps a b) as (c & Ec & Hc). destruct (Rle_lt_dec 0 (dot2 f c)) as [Hs|Hs].
    - apply (first_turn_up e f x0 x1 y0 y1 n a b c); try done; naive_solver.
    - assert (Eneg : forall v, dot2 (neg2 f) v = - dot2 f v) by (intros v; clear; rv0; ring).
      apply (first_turn_up e (neg2 f) x0 x1 (- y1) (- y0) n a b c); rewrite ?Eneg; try done; try lra.
      + by apply frame2_neg.
      + intros v. rewrite framed_neg. apply HM.
  Qed.
  (** Two turns are enough for shapes whose difference is a rectangle centred at [lpos - rpos]
      that lies beyond the tolerance from the origin along one of its sides. *)
  Lemma box_distance (e f : P2) x0 x1 y0 y1 n lpos rpos : frame2 e f -> (forall v, mdiff2 A B v <-> framed e f x0 x1 y0 y1 v) ->
    x0 < x1 -> y0 < y1 -> sqrt 2 * eps < - x1 ->
    dot2 e (sub2 rpos lpos) = - ((x0 + x1) / 2) -> dot2 f (sub2 rpos lpos) = - ((y0 + y1) / 2) ->
    exists D, dist2_run eps supL supR tol (Datatypes.S (Datatypes.S n)) lpos rpos = Ok (Distance D).
  Proof.
    intros Hf HM Hx01 Hy01 Hx1 Ed1 Ed2. pose proof (x1_neg eps Heps x1 Hx1) as Hx1n. unfold dist2_run, dist_run. cbv zeta.
    unfold first_dir at 1 2. set (d := sub2 rpos lpos) in *.
    assert (Hnd : near0_2 eps d = false).
    { pose proof (not_near eps Heps e f x1 Hf Hx1 (neg2 d)) as Hn. rewrite dot2_neg_r in Hn. specialize (Hn ltac:(lra)).
      destruct (near0_2 eps d) eqn:En; [|done]. apply near0_2_spec in En. destruct (near0_2 eps (neg2 d)) eqn:En'; [done|].
      apply not_true_iff_false in En'. exfalso. apply En', near0_2_spec. cbn [neg2 ux uy]. cbn [nneg Num_R]. by rewrite !Rabs_Ropp. }
    rewrite Hnd. destruct (mink_x A B supL supR HA HB e f x0 x1 y0 y1 Hf HM d) as (a & Ea & Eax & Hay & Ha1 & Ha2); [lra|].
    rewrite Ea. cbn [mbind res_mbind res_bind].
    assert (Hn0 : neg2 d <> zero2).
    { intros E. assert (E1 : dot2 e (neg2 d) = 0) by (rewrite E; clear; unfold zero2; rv0; ring). rewrite dot2_neg_r in E1. lra. }
    destruct (mink2_spec A B supL supR HA HB (neg2 d) Hn0) as (b & Eb & [Hb _] & Hm & _).
    change (mink sub2 neg2 supL supR) with (mink2 supL supR). rewrite Eb. cbn [mbind res_mbind res_bind]. change (mink2 supL supR) with (mink sub2 neg2 supL supR).
    apply witness2_mdiff, HM in Hb. assert (Hm' : forall v, framed e f x0 x1 y0 y1 v -> dot2 (neg2 d) v <= dot2 (neg2 d) (sp_v b)) by (intros v Hv; by apply Hm, HM).
    apply (first_turn e f x0 x1 y0 y1 n a b); try done.
    - eapply framed_min_x; try done. rewrite dot2_neg_r. lra.
    - apply Hb.
    - intros H. split; [apply Ha1; lra|]. eapply framed_max_y; try done. rewrite dot2_neg_r. lra.
    - intros H. split; [apply Ha2; lra|]. eapply framed_min_y; try done. rewrite dot2_neg_r. lra.
  Qed.
End run2.
