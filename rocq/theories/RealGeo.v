(** Vector algebra over the reals: inner products, norms, Cauchy-Schwarz, triangle
    inequality. *)
From stdpp Require Import prelude.
From Coq Require Import Reals Lra Psatz.
From Verif Require Import Num Vec.
Local Open Scope R_scope.

(** Unfolds the model's vector operations over [R]. *)
Ltac rv := cbn [zero2 add2 sub2 neg2 scale2 div2 dot2 perp_dot mag2_2 mag2 normalize2 dist2_2 dist2 lerp2
  zero3 add3 sub3 neg3 scale3 div3 mul3 dot3 cross3 mag2_3 mag3 normalize3 dist2_3 dist3 lerp3
  ux uy vx vy vz nadd nsub nmul ndiv nneg nsqrt nabs nlt nle neq n0 n1 Num_R] in *.
(** Only the scalar operations and the projections. *)
Ltac rs := cbn [ux uy vx vy vz nadd nsub nmul ndiv nneg nsqrt nabs nlt nle neq n0 n1 Num_R] in *.
Ltac rv0 := unfold zero2, add2, sub2, neg2, scale2, div2, dot2, perp_dot, mag2_2, dist2_2, lerp2,
  zero3, add3, sub3, neg3, scale3, div3, mul3, dot3, cross3, mag2_3, dist2_3, lerp3 in *; rv.
Ltac veq := rv0; f_equal; try field; try ring.

Lemma V3_eq (a b : V3 R) : vx a = vx b -> vy a = vy b -> vz a = vz b -> a = b.
Proof. destruct a, b. simpl. by intros -> -> ->. Qed.
Lemma V2_eq (a b : V2 R) : ux a = ux b -> uy a = uy b -> a = b.
Proof. destruct a, b. simpl. by intros -> ->. Qed.

(** ** Square roots *)
Lemma sqrt_le_iff x y : 0 <= y -> 0 <= x -> sqrt x <= y <-> x <= y * y.
Proof.
  intros Hy Hx. split; intros E.
  - rewrite <- (sqrt_sqrt x) by done. pose proof (sqrt_pos x). nra.
  - apply Rsqr_incr_0_var; [|done]. unfold Rsqr. rewrite sqrt_sqrt by done. done.
Qed.
Lemma le_sqrt_iff x y : 0 <= y -> 0 <= x -> y <= sqrt x <-> y * y <= x.
Proof.
  intros Hy Hx. pose proof (sqrt_pos x). pose proof (sqrt_sqrt x Hx). split; intros E; [nra|].
  apply Rsqr_incr_0_var; [|done]. unfold Rsqr. lra.
Qed.

(** ** Three dimensions *)
Section v3.
  Implicit Types a b c : V3 R.
  Lemma dot3_nonneg a : 0 <= dot3 a a.
  Proof. rv0. nra. Qed.
  Lemma mag3_nonneg a : 0 <= mag3 a.
  Proof. unfold mag3. rs. apply sqrt_pos. Qed.
  Lemma mag3_sqr a : mag3 a * mag3 a = dot3 a a.
  Proof. unfold mag3, mag2_3. rs. apply sqrt_sqrt, dot3_nonneg. Qed.
  Lemma mag3_zero_iff a : mag3 a = 0 <-> a = zero3.
  Proof.
    split.
    - intros E. pose proof (mag3_sqr a) as Hs. rewrite E in Hs. rv0. apply V3_eq; rv; nra.
    - intros ->. unfold mag3, mag2_3. rv0. replace (0 * 0 + 0 * 0 + 0 * 0) with 0 by ring. apply sqrt_0.
  Qed.
  Lemma mag3_pos a : a <> zero3 -> 0 < mag3 a.
  Proof. intros Ha. pose proof (mag3_nonneg a). destruct (Req_dec (mag3 a) 0) as [E|]; [|lra]. by apply mag3_zero_iff in E. Qed.
  (** Lagrange's identity. *)
  Lemma lagrange3 a b : dot3 a b * dot3 a b + dot3 (cross3 a b) (cross3 a b) = dot3 a a * dot3 b b.
  Proof. rv0. ring. Qed.
  Lemma cauchy3_sqr a b : dot3 a b * dot3 a b <= dot3 a a * dot3 b b.
  Proof. pose proof (lagrange3 a b). pose proof (dot3_nonneg (cross3 a b)). lra. Qed.
  Lemma cauchy3 a b : dot3 a b <= mag3 a * mag3 b.
  Proof.
    pose proof (cauchy3_sqr a b) as Hc. rewrite <- !mag3_sqr in Hc.
    pose proof (mag3_nonneg a). pose proof (mag3_nonneg b).
    destruct (Rle_dec (dot3 a b) 0); [nra|]. apply Rsqr_incr_0_var; [|nra]. unfold Rsqr. nra.
  Qed.
  Lemma dot3_comm a b : dot3 a b = dot3 b a.
  Proof. rv0. ring. Qed.
  Lemma dot3_neg_l a b : dot3 (neg3 a) b = - dot3 a b.
  Proof. rv0. ring. Qed.
  Lemma mag3_neg a : mag3 (neg3 a) = mag3 a.
  Proof. unfold mag3. rs. f_equal. rv0. ring. Qed.
  Lemma cauchy3_abs a b : Rabs (dot3 a b) <= mag3 a * mag3 b.
  Proof.
    apply Rabs_le. split; [|apply cauchy3]. pose proof (cauchy3 (neg3 a) b) as Hc. rewrite mag3_neg, dot3_neg_l in Hc. lra.
  Qed.
  Lemma dot3_add_sqr a b : dot3 (add3 a b) (add3 a b) = dot3 a a + 2 * dot3 a b + dot3 b b.
  Proof. rv0. ring. Qed.
  Lemma triangle3 a b : mag3 (add3 a b) <= mag3 a + mag3 b.
  Proof.
    pose proof (mag3_nonneg a). pose proof (mag3_nonneg b). unfold mag3 at 1. rs.
    apply sqrt_le_iff; [lra|apply dot3_nonneg|]. unfold mag2_3. rewrite dot3_add_sqr.
    pose proof (cauchy3 a b). pose proof (mag3_sqr a). pose proof (mag3_sqr b). nra.
  Qed.
  Lemma mag3_scale a s : mag3 (scale3 a s) = Rabs s * mag3 a.
  Proof.
    unfold mag3, mag2_3. rs. assert (dot3 (scale3 a s) (scale3 a s) = (s * s) * dot3 a a) as -> by (rv0; ring).
    rewrite sqrt_mult; [|nra|apply dot3_nonneg]. f_equal. apply sqrt_Rsqr_abs.
  Qed.
  Lemma dist3_mag a b : dist3 a b = mag3 (sub3 b a).
  Proof. done. Qed.
  Lemma dist3_sym a b : dist3 a b = dist3 b a.
  Proof. unfold dist3, dist2_3. rs. f_equal. rv0. ring. Qed.
  Lemma dist3_nonneg a b : 0 <= dist3 a b.
  Proof. apply mag3_nonneg. Qed.
  Lemma dist3_sqr a b : dist3 a b * dist3 a b = dist2_3 a b.
  Proof. apply mag3_sqr. Qed.
  Lemma dist3_triangle a b c : dist3 a c <= dist3 a b + dist3 b c.
  Proof.
    rewrite !dist3_mag. replace (sub3 c a) with (add3 (sub3 b a) (sub3 c b)); [apply triangle3|]. veq.
  Qed.
  Lemma dist3_zero a b : dist3 a b = 0 <-> a = b.
  Proof.
    rewrite dist3_mag, mag3_zero_iff. split.
    - intros E. unfold sub3, zero3 in E. rs. injection E as E1 E2 E3. apply V3_eq; lra.
    - intros ->. veq.
  Qed.
  Lemma dist3_self a : dist3 a a = 0.
  Proof. by apply dist3_zero. Qed.
  Lemma mag3_normalize a : a <> zero3 -> mag3 (normalize3 a) = 1.
  Proof.
    intros Ha. apply mag3_pos in Ha. unfold normalize3. rewrite mag3_scale. rs.
    rewrite Rabs_pos_eq; [field; lra|]. apply Rlt_le, Rdiv_lt_0_compat; lra.
  Qed.
  Lemma unit3 a : dot3 a a = 1 -> mag3 a = 1.
  Proof. intros E. unfold mag3, mag2_3. rewrite E. rs. apply sqrt_1. Qed.
  Lemma mag3_le_iff a r : 0 <= r -> mag3 a <= r <-> dot3 a a <= r * r.
  Proof. intros. unfold mag3. rs. apply sqrt_le_iff; [done|apply dot3_nonneg]. Qed.
  Lemma dot3_cross_l a b : dot3 (cross3 a b) a = 0.
  Proof. rv0. ring. Qed.
  Lemma dot3_cross_r a b : dot3 (cross3 a b) b = 0.
  Proof. rv0. ring. Qed.
End v3.

(** ** Two dimensions *)
Section v2.
  Implicit Types a b c : V2 R.
  Lemma dot2_nonneg a : 0 <= dot2 a a.
  Proof. rv0. nra. Qed.
  Lemma mag2_nonneg a : 0 <= mag2 a.
  Proof. unfold mag2. rs. apply sqrt_pos. Qed.
  Lemma mag2_sqr a : mag2 a * mag2 a = dot2 a a.
  Proof. unfold mag2, mag2_2. rs. apply sqrt_sqrt, dot2_nonneg. Qed.
  Lemma mag2_zero_iff a : mag2 a = 0 <-> a = zero2.
  Proof.
    split.
    - intros E. pose proof (mag2_sqr a) as Hs. rewrite E in Hs. rv0. apply V2_eq; rv; nra.
    - intros ->. unfold mag2, mag2_2. rv0. replace (0 * 0 + 0 * 0) with 0 by ring. apply sqrt_0.
  Qed.
  Lemma mag2_pos a : a <> zero2 -> 0 < mag2 a.
  Proof. intros Ha. pose proof (mag2_nonneg a). destruct (Req_dec (mag2 a) 0) as [E|]; [|lra]. by apply mag2_zero_iff in E. Qed.
  Lemma lagrange2 a b : dot2 a b * dot2 a b + perp_dot a b * perp_dot a b = dot2 a a * dot2 b b.
  Proof. rv0. ring. Qed.
  Lemma cauchy2_sqr a b : dot2 a b * dot2 a b <= dot2 a a * dot2 b b.
  Proof. pose proof (lagrange2 a b). nra. Qed.
  Lemma cauchy2 a b : dot2 a b <= mag2 a * mag2 b.
  Proof.
    pose proof (cauchy2_sqr a b) as Hc. rewrite <- !mag2_sqr in Hc.
    pose proof (mag2_nonneg a). pose proof (mag2_nonneg b).
    destruct (Rle_dec (dot2 a b) 0); [nra|]. apply Rsqr_incr_0_var; [|nra]. unfold Rsqr. nra.
  Qed.
  Lemma dot2_comm a b : dot2 a b = dot2 b a.
  Proof. rv0. ring. Qed.
  Lemma mag2_scale a s : mag2 (scale2 a s) = Rabs s * mag2 a.
  Proof.
    unfold mag2, mag2_2. rs. assert (dot2 (scale2 a s) (scale2 a s) = (s * s) * dot2 a a) as -> by (rv0; ring).
    rewrite sqrt_mult; [|nra|apply dot2_nonneg]. f_equal. apply sqrt_Rsqr_abs.
  Qed.
  Lemma mag2_normalize a : a <> zero2 -> mag2 (normalize2 a) = 1.
  Proof.
    intros Ha. apply mag2_pos in Ha. unfold normalize2. rewrite mag2_scale. rs.
    rewrite Rabs_pos_eq; [field; lra|]. apply Rlt_le, Rdiv_lt_0_compat; lra.
  Qed.
  Lemma mag2_le_iff a r : 0 <= r -> mag2 a <= r <-> dot2 a a <= r * r.
  Proof. intros. unfold mag2. rs. apply sqrt_le_iff; [done|apply dot2_nonneg]. Qed.
End v2.
