(** C67 in space: the distance of two spheres, and of two cuboids with the same rotation, is found. *)
From Coq Require Import Psatz.
From stdpp Require Import prelude.
From Coq Require Import Reals Lra.
From Verif Require Import Res Num Vec AabbModel GeoModel RealGeo PrimModel ShapeSpec PropsSupport PropsXform MinkModel MinkSpec Gjk3 PropsGjk3 Dist PropsDist PrimEnum PropsBound.
Local Open Scope R_scope.

Lemma dot3_sub_r (e v w : P3) : dot3 e (sub3 v w) = dot3 e v - dot3 e w.
Proof. rv0. ring. Qed.
Lemma dot3_neg_r (e v : P3) : dot3 e (neg3 v) = - dot3 e v.
Proof. rv0. ring. Qed.
Lemma mag3_neg (v : P3) : mag3 (neg3 v) = mag3 v.
Proof. unfold mag3, mag2_3. f_equal. rv0. ring. Qed.
Lemma neg3_nz (d : P3) : d <> zero3 -> neg3 d <> zero3.
Proof.
  intros Hd E. apply Hd. assert (E1 : - vx d = 0) by exact (f_equal vx E). assert (E2 : - vy d = 0) by exact (f_equal vy E). assert (E3 : - vz d = 0) by exact (f_equal vz E).
  apply V3_eq; cbn [zero3 vx vy vz splat3]; cbn [n0 Num_R]; lra.
Qed.
Lemma dot3_zero (v : P3) : dot3 v v <= 0 -> v = zero3.
Proof.
  intros E. rv0. set (x := vx v) in *. set (y := vy v) in *. set (z := vz v) in *.
  assert (Hx : x * x = 0) by nra. assert (Hy : y * y = 0) by nra. assert (Hz : z * z = 0) by nra. apply Rsqr_0_uniq in Hx, Hy, Hz.
  apply V3_eq; rv0; done.
Qed.
Lemma closest3_two eps tenth p0 p1 : exists c, closest3 eps tenth [p0; p1] = Ok ([p0; p1], c) /\ nearest3 [p0; p1] c.
Proof.
  destruct (closest_on_edge3_spec (sp_v p1) (sp_v p0)) as (t & Ht & Ec & H1 & H2).
  exists (closest_on_edge3 (sp_v p1) (sp_v p0) zero3). split; [done|]. set (c := closest_on_edge3 _ _ _) in *. split.
  - rewrite Ec. apply hull3_mix; [apply hull3_vertex; cbn; set_solver|apply hull3_vertex; cbn; set_solver|done].
  - intros s Hs. assert (s = p0 \/ s = p1) as [-> | ->] by set_solver; done.
Qed.
Lemma rot_dot (q : Quat (S:=R)) (x y : P3) : unit_quat q -> dot3 (quat_rot q x) (quat_rot q y) = dot3 x y.
Proof. intros Hq. rewrite <- quat_dot by done. by rewrite q_inv_l. Qed.
Lemma move_origin (eps s : R) (q : Quat (S:=R)) (t : P3) : xf_pt (decomposed3 eps s q t) zero3 = t.
Proof. unfold decomposed3. cbn [xf_pt]. unfold quat_rot. clear. apply V3_eq; unfold zero3, splat3; rv0; ring. Qed.

(** ** Spheres *)
Section balls.
  Context (eps tenth tol : R) (ql qr : Quat (S:=R)) (sl sr r1 r2 : R) (tl tr : P3).
  Context (Heps : 0 <= eps) (Htol : 0 < tol) (Hql : unit_quat ql) (Hqr : unit_quat qr) (Hsl : eps < sl) (Hsr : eps < sr).
  Context (Hr1 : 0 <= r1) (Hr2 : 0 <= r2) (Hr : 0 < r1 + r2).
  Let TL := decomposed3 eps sl ql tl.
  Let TR := decomposed3 eps sr qr tr.
  Let rho := sl * r1 + sr * r2.
  Let m := sub3 tl tr.
  Lemma rho3_pos : 0 < rho.
  Proof.
    unfold rho. assert (0 <= sl * r1) by nra. assert (0 <= sr * r2) by nra.
    destruct (Rlt_le_dec 0 r1); [assert (0 < sl * r1) by nra|assert (0 < sr * r2) by nra]; lra.
  Qed.
  Lemma ball_at3 s q t r v : eps < s -> unit_quat q -> 0 <= r ->
    world (decomposed3 eps s q t) (ball r) v <-> mag3 (sub3 v t) <= s * r.
  Proof.
    intros Hs Ho Hr0.
    assert (Hmag : forall p, dot3 (sub3 (xf_pt (decomposed3 eps s q t) p) t) (sub3 (xf_pt (decomposed3 eps s q t) p) t) = s * s * dot3 p p).
    { intros p. unfold decomposed3. cbn [xf_pt]. rewrite q_scale.
      transitivity (s * s * dot3 (quat_rot q p) (quat_rot q p)); [clear; rv0; ring|]. by rewrite rot_dot. }
    assert (Hsr0 : 0 <= s * r) by (apply Rmult_le_pos; lra).
    split.
    - intros (p & Hp & ->). apply mag3_le_iff; [done|]. rewrite Hmag. unfold ball in Hp. nra.
    - intros Hv. apply mag3_le_iff in Hv; [|done]. set (p := quat_rot (quat_invert q) (scale3 (sub3 v t) (1 / s))).
      assert (Ev : v = xf_pt (decomposed3 eps s q t) p).
      { unfold decomposed3. cbn [xf_pt]. rewrite q_scale. unfold p. rewrite quat_rot_inv by done. assert (s <> 0) by lra. clear - H. apply V3_eq; rv0; field; done. }
      exists p. split; [|done]. unfold ball. pose proof (Hmag p) as E. rewrite <- Ev in E. assert (0 < s * s) by nra. nra.
  Qed.
  Lemma ball_furthest (S : P3 -> Prop) t k d s : (forall v, S v <-> mag3 (sub3 v t) <= k) -> 0 <= k -> d <> zero3 -> furthest3 S d s ->
    s = add3 t (scale3 d (k / mag3 d)).
  Proof.
    intros HS Hk Hd [Hs Hm]. apply HS, mag3_le_iff in Hs; [|done]. pose proof (mag3_pos d Hd) as Hp. pose proof (mag3_sqr d) as Hq.
    set (q := k / mag3 d). assert (Eq : q * mag3 d = k) by (unfold q; field; lra).
    assert (Hin : S (add3 t (scale3 d q))).
    { apply HS, mag3_le_iff; [done|]. transitivity (q * q * dot3 d d); [apply Req_le; clear; rv0; ring|]. rewrite <- Hq, <- Eq. lra. }
    apply Hm in Hin.
    set (w := sub3 s (add3 t (scale3 d q))).
    assert (E0 : dot3 w w <= 0).
    { assert (Ew : dot3 w w = dot3 (sub3 s t) (sub3 s t) + q * q * dot3 d d - 2 * q * (dot3 d s - dot3 d t)) by (unfold w; clear; rv0; ring).
      assert (Ei : dot3 d (add3 t (scale3 d q)) = dot3 d t + q * dot3 d d) by (clear; rv0; ring). rewrite Ei in Hin.
      assert (0 <= q) by (unfold q; apply Rmult_le_pos; [done|left; by apply Rinv_0_lt_compat]).
      assert (q * q * dot3 d d = k * k) by (rewrite <- Hq, <- Eq; ring). rewrite Ew. nra. }
    apply dot3_zero in E0. unfold w in E0. pose proof (f_equal vx E0) as E1. pose proof (f_equal vy E0) as E2. pose proof (f_equal vz E0) as E3.
    clear -E1 E2 E3. clearbody q. rv0. cbn in E1, E2, E3. apply V3_eq; rv0; lra.
  Qed.
  Lemma ball_mink d : d <> zero3 -> exists p, mink sub3 neg3 (fun d => sphere_support r1 d TL) (fun d => sphere_support r2 d TR) d = Ok p /\
    sp_v p = add3 m (scale3 d (rho / mag3 d)).
  Proof.
    intros Hd. pose proof (neg3_nz d Hd) as Hn.
    assert (SL : similar3 TL) by (apply C38_decomposed3; [done|rewrite Rabs_pos_eq by lra; done|done]).
    assert (SR : similar3 TR) by (apply C38_decomposed3; [done|rewrite Rabs_pos_eq by lra; done|done]).
    destruct (C38_sphere r1 TL d Hr1 SL Hd) as (x & Ex & Hx). destruct (C38_sphere r2 TR (neg3 d) Hr2 SR Hn) as (y & Ey & Hy).
    unfold mink. rewrite Ex, Ey. cbn [mbind res_mbind res_bind]. eexists. split; [done|]. cbn [sp_v].
    apply (ball_furthest _ tl (sl * r1)) in Hx; [|intros v; by apply ball_at3|apply Rmult_le_pos; lra|done].
    apply (ball_furthest _ tr (sr * r2)) in Hy; [|intros v; by apply ball_at3|apply Rmult_le_pos; lra|done].
    rewrite mag3_neg in Hy. subst x y. unfold m, rho.
    pose proof (mag3_pos d Hd). clear - H. generalize dependent (mag3 d). intros k Hk. apply V3_eq; rv0; field; lra.
  Qed.
  (** Spheres that are more than the comparison tolerance apart: the query answers in one
      turn, with the distance of the centres less both radii. *)
  Theorem C67_spheres n : sqrt 3 * eps < mag3 (sub3 tr tl) - (sl * r1 + sr * r2) -> (1 <= n)%nat ->
    dist3_run eps tenth (fun d => sphere_support r1 d TL) (fun d => sphere_support r2 d TR) tol n (xf_pt TL zero3) (xf_pt TR zero3) =
      Ok (Distance (mag3 (sub3 tr tl) - (sl * r1 + sr * r2))).
  Proof.
    intros Hgap Hn. destruct n as [|n]; [lia|]. fold rho in Hgap |- *. pose proof rho3_pos as Hrho.
    unfold TL at 2, TR at 2. rewrite !move_origin. set (d := sub3 tr tl) in *.
    assert (Hs2 : 0 <= sqrt 3 * eps) by (apply Rmult_le_pos; [apply sqrt_pos|done]).
    set (k := mag3 d) in *. assert (Hk : 0 < k) by lra.
    assert (Hd : d <> zero3) by (intros E; assert (mag3 d = 0) by (by apply mag3_zero_iff); unfold k in Hk; lra).
    assert (Em : m = neg3 d) by (unfold m, d; clear; apply V3_eq; rv0; ring).
    assert (Hnear : forall v, sqrt 3 * eps < mag3 v -> near0_3 eps v = false).
    { intros v Hv. destruct (near0_3 eps v) eqn:En; [|done]. apply (near0_3_mag eps Heps) in En. lra. }
    unfold dist3_run, dist_run, first_dir. cbv zeta. fold d. rewrite (Hnear d) by (fold k; lra).
    destruct (ball_mink d Hd) as (a & Ea & Ha). fold k in Ha. rewrite Ea. cbn [mbind res_mbind res_bind].
    assert (Hkk : k * k = dot3 d d) by apply mag3_sqr.
    pose proof (neg3_nz d Hd) as Hnd. assert (Ek : mag3 (neg3 d) = k) by apply mag3_neg.
    destruct (ball_mink (neg3 d) Hnd) as (b & Eb & Hb). rewrite Ek in Hb. rewrite Eb. cbn [mbind res_mbind res_bind].
    (* both on the line through the centres *)
    set (al := (k - rho) / k). assert (Hal : 0 < al) by (unfold al; apply Rmult_lt_0_compat; [lra|by apply Rinv_0_lt_compat]).
    set (be := (k + rho) / k). assert (Hbe : al < be).
    { unfold al, be, Rdiv. apply Rmult_lt_compat_r; [by apply Rinv_0_lt_compat|lra]. }
    assert (Ea' : sp_v a = scale3 d (- al)).
    { rewrite Ha, Em. unfold al. clear -Hk. clearbody k. apply V3_eq; rv0; field; lra. }
    assert (Eb' : sp_v b = scale3 d (- be)).
    { rewrite Hb, Em. unfold be. clear -Hk. clearbody k. apply V3_eq; rv0; field; lra. }
    cbn [dist_loop]. destruct (closest3_two eps tenth a b) as (c & Ec & Hh & Hnr). rewrite Ec. cbn [mbind res_mbind res_bind].
    assert (Hhc : exists g, al <= g <= be /\ c = scale3 d (- g)).
    { clear -Hh Ea' Eb' Hbe. cbn [fmap list_fmap] in Hh. rewrite Ea', Eb' in Hh.
      remember [scale3 d (- al); scale3 d (- be)] as l eqn:El. induction Hh as [v Hv|u v t _ IHu _ IHv Ht].
      - subst l. apply elem_of_cons in Hv as [-> | ->%elem_of_list_singleton]; eexists; (split; [|done]); lra.
      - destruct IHu as (g & Hg & ->), IHv as (h & Hh & ->). exists ((1 - t) * g + t * h). split; [nra|]. clear. apply V3_eq; rv0; ring. }
    destruct Hhc as (g & Hg & Eg).
    assert (Egal : g = al).
    { pose proof (Hnr a ltac:(set_solver)) as H1. rewrite Ea', Eg in H1.
      replace (dot3 (scale3 d (- g)) (scale3 d (- g))) with (g * g * dot3 d d) in H1 by (clear; rv0; ring).
      replace (dot3 (scale3 d (- g)) (scale3 d (- al))) with (g * al * dot3 d d) in H1 by (clear; rv0; ring). rewrite <- Hkk in H1.
      assert (Hk2 : 0 < k * k) by nra. apply Rmult_le_reg_r in H1; [|done]. nra. }
    subst g. assert (Eca : c = scale3 d (- al)) by done.
    assert (Emc : mag3 (neg3 c) = k - rho).
    { rewrite Eca. replace (neg3 (scale3 d (- al))) with (scale3 d al) by (clear; apply V3_eq; rv0; ring). rewrite mag3_scale, Rabs_pos_eq by lra. fold k. unfold al. field. lra. }
    rewrite Hnear by (rewrite <- (mag3_neg c), Emc; lra).
    cbv zeta. assert (Hnc : neg3 c <> zero3) by (intros E; assert (mag3 (neg3 c) = 0) by (by apply mag3_zero_iff); lra).
    destruct (ball_mink (neg3 c) Hnc) as (p & Ep & Hp). rewrite Ep. cbn [mbind res_mbind res_bind get lookup list_lookup]. rewrite Emc in Hp.
    assert (Epa : sp_v p = sp_v a).
    { rewrite Hp, Ha, Eca. unfold al. assert (0 < k - rho) by lra. clear -Hk H. clearbody k. apply V3_eq; rv0; field; lra. }
    rewrite Epa. cbn [nlt nsub Num_R]. rewrite (proj2 (Rltb_true _ _)) by lra. by rewrite Emc.
  Qed.
End balls.

(** ** Cuboids *)
Section box.
  (** The Minkowski difference is a box in the coordinates [k]; the origin is beyond two of its
      sides. *)
  Context (A B : P3 -> Prop) (supL supR : P3 -> res P3) (HA : supports3 A supL) (HB : supports3 B supR) (eps tenth tol : R) (Heps : 0 <= eps) (Htol : 0 < tol).
  Context (k : P3 -> P3) (Hdot : forall v w, dot3 (k v) (k w) = dot3 v w) (Hsub : forall v w, k (sub3 v w) = sub3 (k v) (k w)) (Hneg : forall v, k (neg3 v) = neg3 (k v)).
  Context (Hmix : forall v w t, k (add3 (scale3 v (1 - t)) (scale3 w t)) = add3 (scale3 (k v) (1 - t)) (scale3 (k w) t)) (Hsur : forall x, exists v, k v = x).
  Context (x0 x1 y0 y1 z0 z1 : R).
  Definition inbox (x : P3) : Prop := x0 <= vx x <= x1 /\ y0 <= vy x <= y1 /\ z0 <= vz x <= z1.
  Context (HM : forall v, mdiff3 A B v <-> inbox (k v)).
  Context (Hx1 : sqrt 3 * eps < - x1) (Hy1 : y1 < 0) (Hx : x0 < x1).
  Lemma gap_pos : x1 < 0.
  Proof. pose proof (sqrt_pos 3). assert (0 <= sqrt 3 * eps) by (apply Rmult_le_pos; lra). lra. Qed.
  Lemma kdot v w : dot3 v w = vx (k v) * vx (k w) + vy (k v) * vy (k w) + vz (k v) * vz (k w).
  Proof. rewrite <- Hdot. rv0. ring. Qed.
  Lemma k_nz v : k v <> zero3 -> v <> zero3.
  Proof. intros H ->. apply H. apply dot3_zero. rewrite Hdot. apply Req_le. clear. unfold zero3, splat3. rv0. ring. Qed.
  Lemma not_near3 v : vx (k v) <= x1 \/ - x1 <= vx (k v) -> near0_3 eps v = false.
  Proof.
    intros Hv. destruct (near0_3 eps v) eqn:En; [|done]. apply (near0_3_mag eps Heps) in En. exfalso.
    pose proof gap_pos. assert (Hs2 : 0 <= sqrt 3 * eps) by (apply Rmult_le_pos; [apply sqrt_pos|done]).
    apply mag3_le_iff in En; [|done]. rewrite kdot in En. set (q := sqrt 3 * eps) in *. clearbody q.
    assert (q * q < vx (k v) * vx (k v)) by (destruct Hv; nra). pose proof (Rle_0_sqr (vy (k v))). pose proof (Rle_0_sqr (vz (k v))). unfold Rsqr in *. lra.
  Qed.
  Lemma box_mink d : k d <> zero3 -> exists p, mink sub3 neg3 supL supR d = Ok p /\ inbox (k (sp_v p)) /\
    (0 < vx (k d) -> vx (k (sp_v p)) = x1) /\ (vx (k d) < 0 -> vx (k (sp_v p)) = x0) /\ (0 < vy (k d) -> vy (k (sp_v p)) = y1) /\
    (0 < vz (k d) -> vz (k (sp_v p)) = z1) /\ (vz (k d) < 0 -> vz (k (sp_v p)) = z0).
  Proof.
    intros Hd. apply k_nz in Hd. destruct (mink3_spec A B supL supR HA HB d Hd) as (p & Ep & Hp & Hm). exists p. split; [exact Ep|].
    apply witness3_mdiff, HM in Hp. split; [done|]. destruct Hp as (Px & Py & Pz).
    assert (Hm' : forall x, inbox x -> dot3 (k d) x <= dot3 (k d) (k (sp_v p))).
    { intros x Hx'. destruct (Hsur x) as (v & <-). rewrite !Hdot. by apply Hm, HM. }
    set (q := k (sp_v p)) in *. set (kd := k d) in *. clearbody q kd. clear - Px Py Pz Hm'.
    split; [|split; [|split; [|split]]]; intros Hs.
    - destruct (Rle_lt_dec x1 (vx q)); [lra|]. specialize (Hm' (mk3 x1 (vy q) (vz q)) ltac:(unfold inbox; cbn [vx vy vz]; lra)). rv0. nra.
    - destruct (Rle_lt_dec (vx q) x0); [lra|]. specialize (Hm' (mk3 x0 (vy q) (vz q)) ltac:(unfold inbox; cbn [vx vy vz]; lra)). rv0. nra.
    - destruct (Rle_lt_dec y1 (vy q)); [lra|]. specialize (Hm' (mk3 (vx q) y1 (vz q)) ltac:(unfold inbox; cbn [vx vy vz]; lra)). rv0. nra.
    - destruct (Rle_lt_dec z1 (vz q)); [lra|]. specialize (Hm' (mk3 (vx q) (vy q) z1) ltac:(unfold inbox; cbn [vx vy vz]; lra)). rv0. nra.
    - destruct (Rle_lt_dec (vz q) z0); [lra|]. specialize (Hm' (mk3 (vx q) (vy q) z0) ltac:(unfold inbox; cbn [vx vy vz]; lra)). rv0. nra.
  Qed.
  Lemma hull_coord (pr : P3 -> R) (l : list P3) v : (forall a b t, pr (add3 (scale3 a (1 - t)) (scale3 b t)) = (1 - t) * pr a + t * pr b) -> hull3 l v ->
    forall lo hi, (forall w, w ∈ l -> lo <= pr w <= hi) -> lo <= pr v <= hi.
  Proof. intros Hl Hh lo hi Hw. induction Hh as [v Hv|a b t _ IHa _ IHb Ht]; [by apply Hw|]. rewrite Hl. nra. Qed.
  Lemma perp_ab (u v w : P3) : dot3 (cross3 u (cross3 u v)) w = dot3 u v * dot3 u w - dot3 u u * dot3 v w.
  Proof. rv0. ring. Qed.
  Lemma perp_ac (u v w : P3) : dot3 (cross3 (cross3 u v) v) w = dot3 u v * dot3 v w - dot3 v v * dot3 u w.
  Proof. rv0. ring. Qed.
  (** The triangle of the second turn is cut to its side on the edge of the box. *)
  Lemma box_reduce (a b p : SupPt P3) : vx (k (sp_v a)) = x1 -> vy (k (sp_v a)) = y1 -> vx (k (sp_v p)) = x1 -> vy (k (sp_v p)) = y1 ->
    vx (k (sp_v b)) = x0 -> vy (k (sp_v b)) <= y1 ->
    (exists s, s * s = 1 /\ s * vz (k (sp_v a)) < s * vz (k (sp_v p)) /\ 0 <= s * vz (k (sp_v p)) /\ s * vz (k (sp_v b)) <= s * vz (k (sp_v p))) ->
    closest3 eps tenth [a; b; p] = closest3 eps tenth [a; p].
  Proof.
    intros Ax Ay Px Py Bx By (s & Hs & Hap & Hp & Hbp). pose proof gap_pos as Hg.
    unfold closest3, reduce3. cbv zeta. unfold check_side. cbn [negb andb orb nlt n0 Num_R].
    assert (Q : forall v w, dot3 v w = vx (k v) * vx (k w) + vy (k v) * vy (k w) + (s * vz (k v)) * (s * vz (k w))).
    { intros v w. rewrite kdot. replace (s * vz (k v) * (s * vz (k w))) with ((s * s) * (vz (k v) * vz (k w))) by ring. rewrite Hs. ring. }
    rewrite (proj2 (Rltb_false _ _)).
    2:{ rewrite perp_ab, !Q, !Hsub, !Hneg. cbn [sub3 neg3 vx vy vz]. cbn [nsub nneg Num_R]. rewrite Ax, Ay, Px, Py, Bx.
        replace (s * (vz (k (sp_v b)) - vz (k (sp_v p)))) with (s * vz (k (sp_v b)) - s * vz (k (sp_v p))) by ring.
        replace (s * (vz (k (sp_v a)) - vz (k (sp_v p)))) with (s * vz (k (sp_v a)) - s * vz (k (sp_v p))) by ring.
        replace (s * - vz (k (sp_v p))) with (- (s * vz (k (sp_v p)))) by ring.
        set (zp := s * vz (k (sp_v p))) in *. set (za := s * vz (k (sp_v a))) in *. set (zb := s * vz (k (sp_v b))) in *. set (yb := vy (k (sp_v b))) in *.
        clearbody zp za zb yb. clear - Hap Hp Hbp Hg Hy1 Hx By.
        set (X := x1 - x0). set (Y := y1 - yb). set (w := zp - zb). set (h := zp - za).
        replace (_ - _) with (h * (w * (X * x1 + Y * y1)) - h * zp * (X * X + Y * Y)) by (unfold X, Y, w, h; ring).
        assert (0 < X) by (unfold X; lra). assert (0 <= Y) by (unfold Y; lra). assert (0 <= w) by (unfold w; lra). assert (0 < h) by (unfold h; lra).
        assert (X * x1 + Y * y1 <= 0) by nra. assert (0 <= w * - (X * x1 + Y * y1)) by (apply Rmult_le_pos; lra).
        assert (0 <= h * (w * - (X * x1 + Y * y1))) by (apply Rmult_le_pos; lra).
        assert (0 <= X * X + Y * Y) by nra. assert (0 <= h * zp) by (apply Rmult_le_pos; lra). assert (0 <= h * zp * (X * X + Y * Y)) by (apply Rmult_le_pos; lra). lra. }
    rewrite (proj2 (Rltb_true _ _)); [done|].
    rewrite perp_ac, !Q, !Hsub, !Hneg. cbn [sub3 neg3 vx vy vz]. cbn [nsub nneg Num_R]. rewrite Ax, Ay, Px, Py, Bx.
    replace (s * (vz (k (sp_v b)) - vz (k (sp_v p)))) with (s * vz (k (sp_v b)) - s * vz (k (sp_v p))) by ring.
    replace (s * (vz (k (sp_v a)) - vz (k (sp_v p)))) with (s * vz (k (sp_v a)) - s * vz (k (sp_v p))) by ring.
    replace (s * - vz (k (sp_v p))) with (- (s * vz (k (sp_v p)))) by ring.
    set (zp := s * vz (k (sp_v p))) in *. set (za := s * vz (k (sp_v a))) in *. set (zb := s * vz (k (sp_v b))) in *. set (yb := vy (k (sp_v b))) in *.
    clearbody zp za zb yb. clear - Hap Hp Hbp Hg Hy1 Hx By.
    set (X := x1 - x0). set (Y := y1 - yb). set (h := zp - za).
    replace (_ - _) with (- (h * h * (X * x1 + Y * y1))) by (unfold X, Y, h; ring).
    assert (0 < X) by (unfold X; lra). assert (0 <= Y) by (unfold Y; lra). assert (0 < h) by (unfold h; lra).
    assert (X * x1 + Y * y1 < 0) by nra. assert (0 < h * h) by nra. assert (0 < h * h * - (X * x1 + Y * y1)) by (apply Rmult_lt_0_compat; lra). lra.
  Qed.
  Notation loop := (dist_loop sub3 neg3 dot3 mag3 (near0_3 eps) supL supR (closest3 eps tenth) tol).
  Lemma kx_nz d : vx (k d) <> 0 -> k d <> zero3.
  Proof. intros H E. apply H. rewrite E. done. Qed.
  (** A point of the segment between two points of the box, nearest to the origin; the first
      end is on the edge. *)
  Lemma near_edge (a b : SupPt P3) c : nearest3 [a; b] c -> vx (k (sp_v a)) = x1 -> vy (k (sp_v a)) = y1 -> inbox (k (sp_v b)) -> inbox (k (sp_v a)) ->
    inbox (k c) /\ vz (k c) * vz (k c) <= vz (k c) * vz (k (sp_v a)).
  Proof.
    intros [Hh Hn] Ax Ay Hb Ha. cbn [fmap list_fmap] in Hh.
    assert (Hc : forall pr : P3 -> R, (forall a b t, pr (add3 (scale3 a (1 - t)) (scale3 b t)) = (1 - t) * pr a + t * pr b) -> forall lo hi, lo <= pr (k (sp_v a)) <= hi -> lo <= pr (k (sp_v b)) <= hi -> lo <= pr (k c) <= hi).
    { intros pr Hl lo hi H1 H2. apply (hull_coord (fun v => pr (k v)) [sp_v a; sp_v b] c); [intros u v t; by rewrite Hmix|exact Hh|].
      intros w Hw. apply elem_of_cons in Hw as [-> | ->%elem_of_list_singleton]; done. }
    destruct Ha as (Ha1 & Ha2 & Ha3), Hb as (Hb1 & Hb2 & Hb3).
    assert (Hi : inbox (k c)).
    { split; [|split]; [apply (Hc vx)|apply (Hc vy)|apply (Hc vz)]; try done; intros; rv0; ring. }
    split; [done|]. pose proof (Hn a ltac:(set_solver)) as Hca. rewrite !kdot, Ax, Ay in Hca. destruct Hi as (Hi1 & Hi2 & _). pose proof gap_pos.
    assert (vx (k c) * x1 <= vx (k c) * vx (k c)) by nra. assert (vy (k c) * y1 <= vy (k c) * vy (k c)) by nra. lra.
  Qed.
  (** One turn on a segment whose first end is on the edge. *)
  Lemma box_found n d a b : mink sub3 neg3 supL supR d = Ok a -> mink sub3 neg3 supL supR (neg3 d) = Ok b ->
    0 < vx (k d) -> 0 < vy (k d) -> (z1 < 0 -> 0 < vz (k d)) -> (0 < z0 -> vz (k d) < 0) ->
    exists D, loop (2 + n) [a; b] = Ok (Distance D).
  Proof.
    intros Ea Eb Dx Dy Dz1 Dz0. pose proof gap_pos as Hg.
    destruct (box_mink d) as (a' & Ea' & Ha & Ax & _ & Ay & Az1 & Az0); [apply kx_nz; lra|]. rewrite Ea in Ea'. injection Ea' as <-. specialize (Ax Dx). specialize (Ay Dy).
    destruct (box_mink (neg3 d)) as (b' & Eb' & Hb & _ & Bx & _); [apply kx_nz; rewrite Hneg; cbn [neg3 vx]; cbn [nneg Num_R]; lra|]. rewrite Eb in Eb'. injection Eb' as <-.
    specialize (Bx ltac:(rewrite Hneg; cbn [neg3 vx]; cbn [nneg Num_R]; lra)).
    cbn [Nat.add dist_loop]. destruct (closest3_two eps tenth a b) as (c & Ec & Hc). rewrite Ec. cbn [mbind res_mbind res_bind].
    destruct (near_edge a b c Hc Ax Ay Hb Ha) as [(C1 & C2 & C3) Hz]. rewrite not_near3 by (left; lra). cbv zeta.
    assert (Ekn : k (neg3 c) = neg3 (k c)) by apply Hneg.
    destruct (box_mink (neg3 c)) as (p & Ep & Hp & Px & _ & Py & Pz1 & Pz0); [apply kx_nz; rewrite Ekn; cbn [neg3 vx]; cbn [nneg Num_R]; lra|].
    rewrite Ekn in Px, Py, Pz1, Pz0. cbn [neg3 vx vy vz] in Px, Py, Pz1, Pz0. cbn [nneg Num_R] in Px, Py, Pz1, Pz0.
    specialize (Px ltac:(lra)). specialize (Py ltac:(lra)).
    rewrite Ep. cbn [mbind res_mbind res_bind get lookup list_lookup]. cbn [nlt nsub Num_R].
    destruct (Rltb _ tol) eqn:Et; [by eexists|]. apply Rltb_false in Et. rewrite !kdot, Ekn in Et. cbn [neg3 vx vy vz] in Et. cbn [nneg Num_R] in Et. rewrite Ax, Ay, Px, Py in Et.
    assert (Ht : tol <= - (vz (k c)) * (vz (k (sp_v p)) - vz (k (sp_v a)))) by lra. clear Et.
    (* the second turn, on the edge *)
    assert (Hrest : closest3 eps tenth [a; b; p] = closest3 eps tenth [a; p] ->
      (forall c', inbox (k c') -> vx (k c') = x1 -> vy (k c') = y1 -> vz (k c') * vz (k c') <= vz (k c') * vz (k (sp_v a)) -> vz (k c') * vz (k c') <= vz (k c') * vz (k (sp_v p)) -> vz (k c') = 0) ->
      exists D, loop (1 + n) [a; b; p] = Ok (Distance D)).
    { intros Er Hzero. cbn [Nat.add dist_loop]. rewrite Er. destruct (closest3_two eps tenth a p) as (c' & Ec' & Hc'). rewrite Ec'. cbn [mbind res_mbind res_bind].
      destruct (near_edge a p c' Hc' Ax Ay Hp Ha) as [Hi Hza]. assert (Hc1 : vx (k c') = x1).
      { destruct Hc' as [Hh _]. assert (x1 <= vx (k c') <= x1); [|lra]. apply (hull_coord (fun v => vx (k v)) (sp_v <$> [a; p])); [intros; rewrite Hmix; rv0; ring|done|].
        intros w Hw. cbn [fmap list_fmap] in Hw. apply elem_of_cons in Hw as [-> | ->%elem_of_list_singleton]; lra. }
      assert (Hc2 : vy (k c') = y1).
      { destruct Hc' as [Hh _]. assert (y1 <= vy (k c') <= y1); [|lra]. apply (hull_coord (fun v => vy (k v)) (sp_v <$> [a; p])); [intros; rewrite Hmix; rv0; ring|done|].
        intros w Hw. cbn [fmap list_fmap] in Hw. apply elem_of_cons in Hw as [-> | ->%elem_of_list_singleton]; lra. }
      assert (Hc3 : vz (k c') = 0).
      { apply Hzero; try done. destruct Hc' as [_ Hn]. pose proof (Hn p ltac:(set_solver)) as H. rewrite !kdot, Px, Py, Hc1, Hc2 in H. lra. }
      rewrite not_near3 by (left; lra). cbv zeta. assert (Ekn' : k (neg3 c') = neg3 (k c')) by apply Hneg.
      destruct (box_mink (neg3 c')) as (p' & Ep' & Hp' & Px' & _ & Py' & _); [apply kx_nz; rewrite Ekn'; cbn [neg3 vx]; cbn [nneg Num_R]; lra|].
      rewrite Ekn' in Px', Py'. cbn [neg3 vx vy vz] in Px', Py'. cbn [nneg Num_R] in Px', Py'. specialize (Px' ltac:(lra)). specialize (Py' ltac:(lra)).
      rewrite Ep'. cbn [mbind res_mbind res_bind get lookup list_lookup]. cbn [nlt nsub Num_R]. rewrite (proj2 (Rltb_true _ _)); [by eexists|].
      rewrite !kdot, Ekn'. cbn [neg3 vx vy vz]. cbn [nneg Num_R]. rewrite Ax, Ay, Px', Py', Hc1, Hc2, Hc3. lra. }
    change ([a; b] ++ [p]) with [a; b; p]. apply Hrest; clear Hrest.
    - apply box_reduce; try done; [apply Hb|]. destruct (Rtotal_order (vz (k c)) 0) as [Hcz|[Hcz|Hcz]].
      + exists 1. specialize (Pz1 ltac:(lra)). rewrite Pz1 in *. split; [lra|]. destruct Hb as (_ & _ & Hb3).
        assert (vz (k (sp_v a)) < z1) by nra. split; [lra|]. split; [|lra].
        destruct (Rle_lt_dec 0 z1); [lra|]. rewrite Az1 in H by (apply Dz1; lra). lra.
      + rewrite Hcz in Ht. lra.
      + exists (-1). specialize (Pz0 ltac:(lra)). rewrite Pz0 in *. split; [lra|]. destruct Hb as (_ & _ & Hb3).
        assert (z0 < vz (k (sp_v a))) by nra. split; [lra|]. split; [|lra].
        destruct (Rle_lt_dec z0 0); [lra|]. rewrite Az0 in H by (apply Dz0; lra). lra.
    - intros c' _ _ _ H1 H2. destruct (Rtotal_order (vz (k c)) 0) as [Hcz|[Hcz|Hcz]].
      + specialize (Pz1 ltac:(lra)). rewrite Pz1 in *. assert (vz (k (sp_v a)) < z1) by nra.
        assert (0 <= z1) by (destruct (Rle_lt_dec 0 z1); [lra|]; rewrite Az1 in H by (apply Dz1; lra); lra).
        assert (vz (k (sp_v a)) <= vz (k c)) by nra. destruct (Rtotal_order (vz (k c')) 0) as [?|[?|?]]; [nra|done|nra].
      + rewrite Hcz in Ht. lra.
      + specialize (Pz0 ltac:(lra)). rewrite Pz0 in *. assert (z0 < vz (k (sp_v a))) by nra.
        assert (z0 <= 0) by (destruct (Rle_lt_dec z0 0); [lra|]; rewrite Az0 in H by (apply Dz0; lra); lra).
        assert (vz (k c) <= vz (k (sp_v a))) by nra. destruct (Rtotal_order (vz (k c')) 0) as [?|[?|?]]; [nra|done|nra].
  Qed.
End box.

Section cuboids.
  (** Two cuboids with the same rotation, any scales and positions; not both flat in the same
      direction. *)
  Context (eps tenth tol : R) (q : Quat (S:=R)) (sl sr : R) (tl tr dl dr : P3).
  Context (Heps : 0 <= eps) (Htol : 0 < tol) (Hq : unit_quat q) (Hsl : eps < sl) (Hsr : eps < sr).
  Definition sizes : Prop := (0 <= vx dl /\ 0 <= vy dl /\ 0 <= vz dl) /\ (0 <= vx dr /\ 0 <= vy dr /\ 0 <= vz dr) /\
    0 < vx dl + vx dr /\ 0 < vy dl + vy dr /\ 0 < vz dl + vz dr.
  Context (Hsz : sizes).
  Let TL := decomposed3 eps sl q tl.
  Let TR := decomposed3 eps sr q tr.
  Let A := world TL (box_set dl).
  Let B := world TR (box_set dr).
  Let kk := quat_rot (quat_invert q).
  Let m := kk (sub3 tl tr).
  Let Wx := (sl * vx dl + sr * vx dr) / 2.
  Let Wy := (sl * vy dl + sr * vy dr) / 2.
  Let Wz := (sl * vz dl + sr * vz dr) / 2.
  Lemma pos_sum3 p q0 a b : 0 < p -> 0 < q0 -> 0 <= a -> 0 <= b -> 0 < a + b -> 0 < (p * a + q0 * b) / 2.
  Proof. intros Hp Hq0 Ha Hb Hab. assert (0 <= p * a) by nra. assert (0 <= q0 * b) by nra. destruct (Rlt_le_dec 0 a); [assert (0 < p * a) by nra|assert (0 < q0 * b) by nra]; lra. Qed.
  Lemma W_pos3 : 0 < Wx /\ 0 < Wy /\ 0 < Wz.
  Proof. destruct Hsz as ((? & ? & ?) & (? & ? & ?) & ? & ? & ?). repeat split; apply pos_sum3; lra. Qed.
  Definition inW (v : P3) : Prop := vx m - Wx <= vx v <= vx m + Wx /\ vy m - Wy <= vy v <= vy m + Wy /\ vz m - Wz <= vz v <= vz m + Wz.
  Lemma kk_sub v w : kk (sub3 v w) = sub3 (kk v) (kk w).
  Proof.
    replace (sub3 v w) with (add3 v (scale3 w (-1))) by (clear; apply V3_eq; rv0; ring). unfold kk. rewrite q_add, q_scale. clear. apply V3_eq; rv0; ring.
  Qed.
  Lemma kk_at s t p : kk (xf_pt (decomposed3 eps s q t) p) = add3 (scale3 p s) (kk t).
  Proof. unfold decomposed3. cbn [xf_pt]. unfold kk. by rewrite q_add, q_inv_l. Qed.
  Lemma kk_inj v w : kk v = kk w -> v = w.
  Proof. intros E. rewrite <- (quat_rot_inv q v Hq), <- (quat_rot_inv q w Hq). fold kk. by rewrite E. Qed.
  Lemma cub_mdiff v : mdiff3 A B v <-> inW (kk v).
  Proof.
    destruct W_pos3 as (HWx & HWy & HWz). destruct Hsz as ((L1 & L2 & L3) & (R1 & R2 & R3) & _). split.
    - intros (x & y & (p & (P1 & P2 & P3) & ->) & (p' & (Q1 & Q2 & Q3) & ->) & ->). rewrite kk_sub. unfold TL, TR, inW, m. rewrite kk_sub, !kk_at.
      set (a := kk tl). set (b := kk tr). clearbody a b. cbn [sub3 add3 scale3 vx vy vz]. cbn [nsub nadd nmul Num_R]. unfold Wx, Wy, Wz. split; [|split]; nra.
    - intros (Vx & Vy & Vz).
      assert (Hk : forall w x, 0 <= x -> 0 < w -> forall a, - w <= a <= w -> - (x / 2) <= a * (x / 2) / w <= x / 2).
      { intros w x Hx0 Hw a Ha. assert (-1 <= a / w <= 1).
        { split; apply (Rmult_le_reg_r w); try done; replace (a / w * w) with a by (field; lra); lra. }
        replace (a * (x / 2) / w) with (a / w * (x / 2)) by (field; lra). nra. }
      set (al := vx (kk v) - vx m) in *. set (be := vy (kk v) - vy m) in *. set (ga := vz (kk v) - vz m) in *.
      exists (xf_pt TL (mk3 (al * (vx dl / 2) / Wx) (be * (vy dl / 2) / Wy) (ga * (vz dl / 2) / Wz))),
        (xf_pt TR (mk3 (- al * (vx dr / 2) / Wx) (- be * (vy dr / 2) / Wy) (- ga * (vz dr / 2) / Wz))).
      split; [eexists; split; [|done]; split; [|split]; cbn [vx vy vz]; apply Hk; try lra; unfold al, be, ga; lra|].
      split; [eexists; split; [|done]; split; [|split]; cbn [vx vy vz]; apply Hk; try lra; unfold al, be, ga; lra|].
      apply kk_inj. rewrite kk_sub. unfold TL, TR. rewrite !kk_at.
      assert (Em : m = sub3 (kk tl) (kk tr)) by apply kk_sub.
      assert (Hco : forall w x y a, 0 < w -> w = (sl * x + sr * y) / 2 -> a * (x / 2) / w * sl - - a * (y / 2) / w * sr = a).
      { intros w x y a Hw Ew. replace (_ - _) with (a * (((sl * x + sr * y) / 2) / w)) by (field; lra). rewrite <- Ew. field. lra. }
      pose proof (f_equal vx Em) as E1. pose proof (f_equal vy Em) as E2. pose proof (f_equal vz Em) as E3.
      cbn [sub3 vx vy vz] in E1, E2, E3. cbn [nsub Num_R] in E1, E2, E3.
      pose proof (Hco Wx (vx dl) (vx dr) al HWx eq_refl) as F1. pose proof (Hco Wy (vy dl) (vy dr) be HWy eq_refl) as F2. pose proof (Hco Wz (vz dl) (vz dr) ga HWz eq_refl) as F3.
      apply V3_eq; cbn [sub3 add3 scale3 vx vy vz]; cbn [nsub nadd nmul Num_R]; unfold al, be, ga in *; lra.
  Qed.
  Lemma cub_similar s t : eps < s -> similar3 (decomposed3 eps s q t).
  Proof. intros Hs. apply C38_decomposed3; [done|rewrite Rabs_pos_eq by lra; done|done]. Qed.
  Notation run n := (dist3_run eps tenth (fun d => cuboid_support dl d TL) (fun d => cuboid_support dr d TR) tol n (xf_pt TL zero3) (xf_pt TR zero3)).
  (** In other coordinates. *)
  Lemma cub_core (sp : P3 -> P3) (w1 w2 w3 : R) n : (forall v w, dot3 (sp v) (sp w) = dot3 v w) -> (forall v w, sp (sub3 v w) = sub3 (sp v) (sp w)) ->
    (forall v w t, sp (add3 (scale3 v (1 - t)) (scale3 w t)) = add3 (scale3 (sp v) (1 - t)) (scale3 (sp w) t)) -> (forall x, exists v, sp v = x) ->
    (forall v, inW v <-> inbox (vx (sp m) - w1) (vx (sp m) + w1) (vy (sp m) - w2) (vy (sp m) + w2) (vz (sp m) - w3) (vz (sp m) + w3) (sp v)) ->
    sqrt 3 * eps < - (vx (sp m) + w1) -> vy (sp m) + w2 < 0 -> 0 < w1 -> 0 <= w2 -> 0 <= w3 ->
    exists D, run (2 + n)%nat = Ok (Distance D).
  Proof.
    intros Sdot Ssub Smix Ssur Sbox Hg1 Hg2 Hw1 Hw2 Hw3. destruct Hsz as ((L1 & L2 & L3) & (R1 & R2 & R3) & _).
    assert (SA : supports3 A (fun d => cuboid_support dl d TL)) by (intros d _; apply C38_cuboid; try done; by apply cub_similar).
    assert (SB : supports3 B (fun d => cuboid_support dr d TR)) by (intros d _; apply C38_cuboid; try done; by apply cub_similar).
    set (k := fun v => sp (kk v)).
    assert (Kdot : forall v w, dot3 (k v) (k w) = dot3 v w) by (intros v w; unfold k, kk; rewrite Sdot, quat_dot by done; by rewrite quat_rot_inv).
    assert (Ksub : forall v w, k (sub3 v w) = sub3 (k v) (k w)) by (intros v w; unfold k; by rewrite kk_sub, Ssub).
    assert (K0 : k zero3 = zero3).
    { apply dot3_zero. rewrite Kdot. apply Req_le. clear. unfold zero3, splat3. rv0. ring. }
    assert (Kneg : forall v, k (neg3 v) = neg3 (k v)).
    { intros v. replace (neg3 v) with (sub3 zero3 v) by (clear; unfold zero3, splat3; apply V3_eq; rv0; ring). rewrite Ksub, K0. clear. unfold zero3, splat3. apply V3_eq; rv0; ring. }
    assert (Kmix : forall v w t, k (add3 (scale3 v (1 - t)) (scale3 w t)) = add3 (scale3 (k v) (1 - t)) (scale3 (k w) t)).
    { intros v w t. unfold k, kk. by rewrite q_add, !q_scale, Smix. }
    assert (Ksur : forall x, exists v, k v = x).
    { intros x. destruct (Ssur x) as (y & <-). exists (quat_rot q y). unfold k, kk. by rewrite q_inv_l. }
    assert (KM : forall v, mdiff3 A B v <-> inbox (vx (sp m) - w1) (vx (sp m) + w1) (vy (sp m) - w2) (vy (sp m) + w2) (vz (sp m) - w3) (vz (sp m) + w3) (k v)).
    { intros v. rewrite cub_mdiff. apply Sbox. }
    unfold TL at 2, TR at 2. rewrite !move_origin. unfold dist3_run, dist_run, first_dir. cbv zeta. set (d := sub3 tr tl).
    assert (Kd : k d = neg3 (sp m)).
    { unfold m. fold (k (sub3 tl tr)). rewrite <- Kneg. f_equal. unfold d. clear. apply V3_eq; rv0; ring. }
    assert (Hs0 : 0 <= sqrt 3 * eps) by (apply Rmult_le_pos; [apply sqrt_pos|done]).
    rewrite (not_near3 eps Heps k Kdot (vx (sp m) + w1) Hg1).
    2:{ right. rewrite Kd. cbn [neg3 vx]. cbn [nneg Num_R]. lra. }
    assert (Hd0 : k d <> zero3) by (intros E; rewrite Kd in E; pose proof (f_equal vx E) as E'; cbn in E'; lra).
    assert (Hd1 : k (neg3 d) <> zero3) by (rewrite Kneg; by apply neg3_nz).
    destruct (box_mink A B _ _ SA SB k Kdot Ksur _ _ _ _ _ _ KM d Hd0) as (a & Ea & _). destruct (box_mink A B _ _ SA SB k Kdot Ksur _ _ _ _ _ _ KM (neg3 d) Hd1) as (b & Eb & _).
    rewrite Ea. cbn [mbind res_mbind res_bind]. rewrite Eb. cbn [mbind res_mbind res_bind].
    eapply (box_found A B _ _ SA SB eps tenth tol Heps Htol k Kdot Ksub Kneg Kmix Ksur _ _ _ _ _ _ KM Hg1 Hg2 ltac:(lra) n d a b Ea Eb); rewrite Kd; cbn [neg3 vx vy vz]; cbn [nneg Num_R]; try intros; lra.
  Qed.
  (** [u] is the outward direction of one of the six sides. *)
  Definition side_direction3 (u : P3) : Prop :=
    exists e, (e = mk3 1 0 0 \/ e = mk3 (-1) 0 0 \/ e = mk3 0 1 0 \/ e = mk3 0 (-1) 0 \/ e = mk3 0 0 1 \/ e = mk3 0 0 (-1)) /\ u = quat_rot q e.
  (** In the direction [u] the second cuboid is [g] further than the first. *)
  Definition beyond (u : P3) (g : R) : Prop := forall x y, A x -> B y -> g <= dot3 u (sub3 y x).
  Lemma beyond_corners e g : beyond (quat_rot q e) g ->
    vx e * (vx m + Wx) + vy e * (vy m + Wy) + vz e * (vz m + Wz) <= - g /\ vx e * (vx m - Wx) + vy e * (vy m - Wy) + vz e * (vz m - Wz) <= - g.
  Proof.
    intros Hb. destruct W_pos3 as (? & ? & ?).
    assert (Hw : forall w, inW w -> dot3 e w <= - g).
    { intros w Hw. replace w with (kk (quat_rot q w)) in Hw by (unfold kk; by rewrite q_inv_l). apply cub_mdiff in Hw as (x & y & Hx & Hy & E).
      specialize (Hb x y Hx Hy). rewrite <- (rot_dot q e w Hq), E. replace (dot3 (quat_rot q e) (sub3 x y)) with (- dot3 (quat_rot q e) (sub3 y x)) by (clear; rv0; ring). lra. }
    split.
    - specialize (Hw (mk3 (vx m + Wx) (vy m + Wy) (vz m + Wz))). unfold inW in Hw. cbn [vx vy vz] in Hw. specialize (Hw ltac:(lra)). revert Hw. clear. rv0. lra.
    - specialize (Hw (mk3 (vx m - Wx) (vy m - Wy) (vz m - Wz))). unfold inW in Hw. cbn [vx vy vz] in Hw. specialize (Hw ltac:(lra)). revert Hw. clear. rv0. lra.
  Qed.
  Ltac go sp bk w1 w2 w3 n := apply (cub_core sp w1 w2 w3 n);
    [intros [] []; rv0; cbn [vx vy vz]; ring|intros [] []; apply V3_eq; rv0; cbn [vx vy vz]; ring|intros [] [] ?; apply V3_eq; rv0; cbn [vx vy vz]; ring
    |intros x; exists (bk x); destruct x; apply V3_eq; cbn [vx vy vz]; lra|intros v; unfold inW, inbox; cbn [vx vy vz]; lra|cbn [vx vy vz]; lra..].
  (** Cuboids apart in the directions of two of their sides: two turns are enough. *)
  Theorem C67_cuboids_edge u w g1 g2 n : side_direction3 u -> side_direction3 w -> dot3 u w = 0 -> sqrt 3 * eps < g1 -> 0 < g2 -> beyond u g1 -> beyond w g2 -> (2 <= n)%nat ->
    exists D, run n = Ok (Distance D) /\ distance3 A B tol D.
  Proof.
    intros (e & He & ->) (f & Hf & ->) Hef Hg1 Hg2 Hb1 Hb2 Hn. rewrite rot_dot in Hef by done.
    assert (Hrun : exists D, run n = Ok (Distance D)).
    { apply beyond_corners in Hb1 as [B1 B2], Hb2 as [B3 B4]. destruct W_pos3 as (? & ? & ?). replace n with (2 + (n - 2))%nat by lia. generalize (n - 2)%nat. clear n Hn. intros n.
      destruct_or! He; subst e; destruct_or! Hf; subst f; cbn [vx vy vz] in *; try (exfalso; revert Hef; clear; rv0; cbn [vx vy vz]; lra); clear Hef.
      - go (fun v : P3 => mk3 (vx v) (vy v) (vz v) : P3) (fun v : P3 => mk3 (vx v) (vy v) (vz v) : P3) Wx Wy Wz n.
      - go (fun v : P3 => mk3 (vx v) (- vy v) (vz v) : P3) (fun v : P3 => mk3 (vx v) (- vy v) (vz v) : P3) Wx Wy Wz n.
      - go (fun v : P3 => mk3 (vx v) (vz v) (vy v) : P3) (fun v : P3 => mk3 (vx v) (vz v) (vy v) : P3) Wx Wz Wy n.
      - go (fun v : P3 => mk3 (vx v) (- vz v) (vy v) : P3) (fun v : P3 => mk3 (vx v) (vz v) (- vy v) : P3) Wx Wz Wy n.
      - go (fun v : P3 => mk3 (- vx v) (vy v) (vz v) : P3) (fun v : P3 => mk3 (- vx v) (vy v) (vz v) : P3) Wx Wy Wz n.
      - go (fun v : P3 => mk3 (- vx v) (- vy v) (vz v) : P3) (fun v : P3 => mk3 (- vx v) (- vy v) (vz v) : P3) Wx Wy Wz n.
      - go (fun v : P3 => mk3 (- vx v) (vz v) (vy v) : P3) (fun v : P3 => mk3 (- vx v) (vz v) (vy v) : P3) Wx Wz Wy n.
      - go (fun v : P3 => mk3 (- vx v) (- vz v) (vy v) : P3) (fun v : P3 => mk3 (- vx v) (vz v) (- vy v) : P3) Wx Wz Wy n.
      - go (fun v : P3 => mk3 (vy v) (vx v) (vz v) : P3) (fun v : P3 => mk3 (vy v) (vx v) (vz v) : P3) Wy Wx Wz n.
      - go (fun v : P3 => mk3 (vy v) (- vx v) (vz v) : P3) (fun v : P3 => mk3 (- vy v) (vx v) (vz v) : P3) Wy Wx Wz n.
      - go (fun v : P3 => mk3 (vy v) (vz v) (vx v) : P3) (fun v : P3 => mk3 (vz v) (vx v) (vy v) : P3) Wy Wz Wx n.
      - go (fun v : P3 => mk3 (vy v) (- vz v) (vx v) : P3) (fun v : P3 => mk3 (vz v) (vx v) (- vy v) : P3) Wy Wz Wx n.
      - go (fun v : P3 => mk3 (- vy v) (vx v) (vz v) : P3) (fun v : P3 => mk3 (vy v) (- vx v) (vz v) : P3) Wy Wx Wz n.
      - go (fun v : P3 => mk3 (- vy v) (- vx v) (vz v) : P3) (fun v : P3 => mk3 (- vy v) (- vx v) (vz v) : P3) Wy Wx Wz n.
      - go (fun v : P3 => mk3 (- vy v) (vz v) (vx v) : P3) (fun v : P3 => mk3 (vz v) (- vx v) (vy v) : P3) Wy Wz Wx n.
      - go (fun v : P3 => mk3 (- vy v) (- vz v) (vx v) : P3) (fun v : P3 => mk3 (vz v) (- vx v) (- vy v) : P3) Wy Wz Wx n.
      - go (fun v : P3 => mk3 (vz v) (vx v) (vy v) : P3) (fun v : P3 => mk3 (vy v) (vz v) (vx v) : P3) Wz Wx Wy n.
      - go (fun v : P3 => mk3 (vz v) (- vx v) (vy v) : P3) (fun v : P3 => mk3 (- vy v) (vz v) (vx v) : P3) Wz Wx Wy n.
      - go (fun v : P3 => mk3 (vz v) (vy v) (vx v) : P3) (fun v : P3 => mk3 (vz v) (vy v) (vx v) : P3) Wz Wy Wx n.
      - go (fun v : P3 => mk3 (vz v) (- vy v) (vx v) : P3) (fun v : P3 => mk3 (vz v) (- vy v) (vx v) : P3) Wz Wy Wx n.
      - go (fun v : P3 => mk3 (- vz v) (vx v) (vy v) : P3) (fun v : P3 => mk3 (vy v) (vz v) (- vx v) : P3) Wz Wx Wy n.
      - go (fun v : P3 => mk3 (- vz v) (- vx v) (vy v) : P3) (fun v : P3 => mk3 (- vy v) (vz v) (- vx v) : P3) Wz Wx Wy n.
      - go (fun v : P3 => mk3 (- vz v) (vy v) (vx v) : P3) (fun v : P3 => mk3 (vz v) (vy v) (- vx v) : P3) Wz Wy Wx n.
      - go (fun v : P3 => mk3 (- vz v) (- vy v) (vx v) : P3) (fun v : P3 => mk3 (vz v) (- vy v) (- vx v) : P3) Wz Wy Wx n. }
    destruct Hrun as (D & ED). exists D. split; [done|]. destruct Hsz as ((L1 & L2 & L3) & (R1 & R2 & R3) & _).
    eapply (C42_distance3 A B _ _ _ _ _ _ eps tenth tol Heps n); [exact ED|done].
    Unshelve. 1,2: intros d _; apply C38_cuboid; try done; by apply cub_similar. all: apply PrimEnum.world_convex3; [by apply cub_similar|apply PrimEnum.box_convex].
  Qed.
End cuboids.

(** The hypotheses are met: unit spheres with centres 5 apart; 2 x 4 x 6 cuboids, turned by a
    third of a full turn about the diagonal (x to y to z to x), 1 and 2 apart in two side
    directions and overlapping in the third. *)
Example C67_hypotheses_met3 :
  let q := mkQuat (1 / 2) (mk3 (1 / 2) (1 / 2) (1 / 2)) : Quat (S:=R) in
  let d := mk3 2 4 6 : P3 in let t := mk3 1 3 6 : P3 in
  unit_quat q /\ sizes d d /\ side_direction3 q (mk3 0 1 0) /\ side_direction3 q (mk3 0 0 1) /\ dot3 (mk3 0 1 0 : P3) (mk3 0 0 1) = 0 /\
  sqrt 3 * 0 < 1 /\ beyond 0 q 1 1 zero3 t d d (mk3 0 1 0) 1 /\ beyond 0 q 1 1 zero3 t d d (mk3 0 0 1) 2 /\
  (exists x y, world (decomposed3 0 1 q zero3) (box_set d) x /\ world (decomposed3 0 1 q t) (box_set d) y /\ vx x = vx y) /\
  sqrt 3 * 0 < mag3 (sub3 (mk3 3 4 0 : P3) zero3) - (1 * 1 + 1 * 1).
Proof.
  intros q d t. assert (Hq : unit_quat q) by (unfold unit_quat, quat_mag2, q; cbn [q_s q_v]; rv0; lra).
  assert (Hrot : forall v : P3, quat_rot q v = mk3 (vz v) (vx v) (vy v)).
  { intros v. unfold q. rewrite quat_rot_eq. destruct v as [v1 v2 v3]. apply V3_eq; rv0; cbn [vx vy vz]; lra. }
  assert (Hat : forall s : P3, forall p, xf_pt (decomposed3 0 1 q s) p = mk3 (vz p + vx s) (vx p + vy s) (vy p + vz s)).
  { intros s p. unfold decomposed3. cbn [xf_pt]. rewrite Hrot. apply V3_eq; rv0; ring. }
  split; [done|]. split; [unfold sizes, d; cbn [vx vy vz]; lra|].
  split; [exists (mk3 1 0 0); rewrite Hrot; split; [by left|done]|]. split; [exists (mk3 0 1 0); rewrite Hrot; split; [by do 2 right; left|done]|].
  split; [rv0; ring|]. split; [rewrite Rmult_0_r; lra|].
  split; [|split; [|split]].
  - intros x y (p & (P1 & P2 & P3) & ->) (p' & (Q1 & Q2 & Q3) & ->). rewrite !Hat. unfold t, d, zero3, splat3 in *. rv0. cbn [vx vy vz] in *. lra.
  - intros x y (p & (P1 & P2 & P3) & ->) (p' & (Q1 & Q2 & Q3) & ->). rewrite !Hat. unfold t, d, zero3, splat3 in *. rv0. cbn [vx vy vz] in *. lra.
  - exists (xf_pt (decomposed3 0 1 q zero3) (mk3 0 0 1)), (xf_pt (decomposed3 0 1 q t) (mk3 0 0 0)). split; [|split].
    + eexists. split; [|done]. unfold box_set, d. cbn [vx vy vz]. lra.
    + eexists. split; [|done]. unfold box_set, d. cbn [vx vy vz]. lra.
    + rewrite !Hat. unfold t, zero3, splat3. cbn. lra.
  - rewrite (mag3_eq _ 5); [rewrite Rmult_0_r; lra|lra|]. unfold zero3, splat3. rv0. lra.
Qed.
