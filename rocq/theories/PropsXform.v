(** C51: rays against transformed primitives; C52: moving particles. *)
From Coq Require Import Psatz.
From stdpp Require Import prelude.
From Flocq Require Import IEEE754.BinarySingleNaN.
From Coq Require Import Reals Lra.
From Verif Require Import Res Num Vec AabbModel GeoModel RealGeo PrimModel ShapeSpec PropsSupport RaySpec PropsPrimRay PropsBoxRay PropsPolyRay PrimEnum XformModel.
Local Open Scope R_scope.

(** * Specification *)
(** The answer of a ray query against the set [A]: the first point of the ray in it, or
    nothing when the ray does not meet it. *)
Definition first_answer {V} (along : R -> V) (A : V -> Prop) (o : res (option V)) : Prop :=
  match o with
  | Ok (Some p) => ray_first along A p
  | Ok None => ~ ray_meets along A
  | _ => False
  end.
Definition meets_answer {V} (along : R -> V) (A : V -> Prop) (o : res bool) : Prop :=
  exists b, o = Ok b /\ (b = true <-> ray_meets along A).
(** The same for the straight path from [a] to [b]. *)
Definition path_answer {V} (along : R -> V) (A : V -> Prop) (o : res (option V)) (b : res bool) : Prop :=
  match o with
  | Ok (Some p) => b = Ok true /\ exists t, 0 <= t <= 1 /\ p = along t /\ A p /\ forall s, 0 <= s < t -> ~ A (along s)
  | Ok None => b = Ok false /\ forall t, 0 <= t <= 1 -> ~ A (along t)
  | _ => False
  end.
Definition path2 (a b : P2) (t : R) : P2 := add2 a (scale2 (sub2 b a) t).
Definition path3 (a b : P3) (t : R) : P3 := add3 a (scale3 (sub3 b a) t).
(** [Ti] is the inverse of the affine map [T]. *)
Definition inverse2 (T : Xf P2) (Ti : (P2 -> P2) * (P2 -> P2)) : Prop :=
  xf_inv T = Some Ti /\ (forall x, xf_pt T (Ti.1 x) = x) /\ (forall x, Ti.1 (xf_pt T x) = x) /\
  forall r t, Ti.1 (along2 r t) = along2 (ray_xf Ti r) t.
Definition inverse3 (T : Xf P3) (Ti : (P3 -> P3) * (P3 -> P3)) : Prop :=
  xf_inv T = Some Ti /\ (forall x, xf_pt T (Ti.1 x) = x) /\ (forall x, Ti.1 (xf_pt T x) = x) /\
  forall r t, Ti.1 (along3 r t) = along3 (ray_xf Ti r) t.
Definition rigid2 (T : Xf P2) : Prop := exists Ti, inverse2 T Ti /\ forall d, dot2 (Ti.2 d) (Ti.2 d) = dot2 d d.
Definition rigid3 (T : Xf P3) : Prop := exists Ti, inverse3 T Ti /\ forall d, dot3 (Ti.2 d) (Ti.2 d) = dot3 d d.

(** * Proofs *)
Section gen.
  Context {V : Type} (along : Ray V -> R -> V) (T : Xf V) (Ti : (V -> V) * (V -> V)).
  Context (Hinv : xf_inv T = Some Ti) (Hl : forall x, xf_pt T (Ti.1 x) = x) (Hr : forall x, Ti.1 (xf_pt T x) = x).
  Context (Hal : forall r t, Ti.1 (along r t) = along (ray_xf Ti r) t).
  Lemma world_along A r t : world T A (along r t) <-> A (along (ray_xf Ti r) t).
  Proof.
    split.
    - intros (y & Hy & E). rewrite <- Hal, E, Hr. done.
    - intros Ha. exists (along (ray_xf Ti r) t). split; [done|]. by rewrite <- Hal, Hl.
  Qed.
  Lemma gen_hit hit A r : first_answer (along (ray_xf Ti r)) A (hit (ray_xf Ti r)) -> first_answer (along r) (world T A) (intersection_transformed hit r T).
  Proof.
    unfold intersection_transformed. rewrite Hinv. destruct (hit (ray_xf Ti r)) as [[p|]| |]; cbn [first_answer mbind res_mbind res_bind option_map]; try done.
    - intros (t & Ht & -> & HA & Hf). exists t. split; [done|]. assert (E : xf_pt T (along (ray_xf Ti r) t) = along r t) by (by rewrite <- Hal, Hl).
      split; [done|]. rewrite E. split; [by apply world_along|]. intros s Hs Hw%world_along. by apply (Hf s).
    - intros Hn (t & Ht & Hw%world_along). apply Hn. by exists t.
  Qed.
  Lemma gen_test test A r : meets_answer (along (ray_xf Ti r)) A (test (ray_xf Ti r)) -> meets_answer (along r) (world T A) (intersects_transformed test r T).
  Proof.
    unfold intersects_transformed. rewrite Hinv. intros (b & E & Hb). exists b. split; [done|]. rewrite Hb.
    split; intros (t & Ht & Hm); exists t; (split; [done|]); by apply world_along.
  Qed.
End gen.
(** The main theorem: whatever a shape answers for the ray in its own space, the transformed
    query answers for the ray and the transformed shape. *)
Theorem C51_transformed_hit2 T Ti hit A r : inverse2 T Ti ->
  first_answer (along2 (ray_xf Ti r)) A (hit (ray_xf Ti r)) -> first_answer (along2 r) (world T A) (intersection_transformed hit r T).
Proof. intros (H1 & H2 & H3 & H4). by apply gen_hit. Qed.
Theorem C51_transformed_hit3 T Ti hit A r : inverse3 T Ti ->
  first_answer (along3 (ray_xf Ti r)) A (hit (ray_xf Ti r)) -> first_answer (along3 r) (world T A) (intersection_transformed hit r T).
Proof. intros (H1 & H2 & H3 & H4). by apply gen_hit. Qed.
Theorem C51_transformed_test2 T Ti test A r : inverse2 T Ti ->
  meets_answer (along2 (ray_xf Ti r)) A (test (ray_xf Ti r)) -> meets_answer (along2 r) (world T A) (intersects_transformed test r T).
Proof. intros (H1 & H2 & H3 & H4). by apply gen_test. Qed.
Theorem C51_transformed_test3 T Ti test A r : inverse3 T Ti ->
  meets_answer (along3 (ray_xf Ti r)) A (test (ray_xf Ti r)) -> meets_answer (along3 r) (world T A) (intersects_transformed test r T).
Proof. intros (H1 & H2 & H3 & H4). by apply gen_test. Qed.
(** Without an inverse the query panics. *)
Theorem C51_singular_panics {V} (T : Xf V) test hit r : xf_inv T = None -> intersects_transformed test r T = Panic /\ intersection_transformed hit r T = Panic.
Proof. unfold intersects_transformed, intersection_transformed. by intros ->. Qed.

(** ** cgmath's transforms have the inverses they claim *)
Lemma m2_inv_r m x : m2_det m <> 0 -> m2_mul (S:=R) m (m2_mul (m2_invert m) x) = x.
Proof. destruct m as [[a b] [c e]]. unfold m2_invert, m2_mul, m2_det. intros Hd. cbn [m2_x m2_y ux uy] in *. rs. apply V2_eq; rs; field; done. Qed.
Lemma m2_inv_l m x : m2_det m <> 0 -> m2_mul (S:=R) (m2_invert m) (m2_mul m x) = x.
Proof. destruct m as [[a b] [c e]]. unfold m2_invert, m2_mul, m2_det. intros Hd. cbn [m2_x m2_y ux uy] in *. rs. apply V2_eq; rs; field; done. Qed.
Lemma m2_lin m x y t : m2_mul (S:=R) m (add2 x (scale2 y t)) = add2 (m2_mul m x) (scale2 (m2_mul m y) t).
Proof. unfold m2_mul. rv0. cbn [ux uy]. f_equal; ring. Qed.
Lemma m2_scale m x s : m2_mul (S:=R) m (scale2 x s) = scale2 (m2_mul m x) s.
Proof. unfold m2_mul. rv0. cbn [ux uy]. f_equal; ring. Qed.
Lemma m2_add m x y : m2_mul (S:=R) m (add2 x y) = add2 (m2_mul m x) (m2_mul m y).
Proof. unfold m2_mul. rv0. cbn [ux uy]. f_equal; ring. Qed.
Lemma ortho_det_nz m : orthonormal m -> m2_det m <> 0.
Proof. intros Ho E. pose proof (ortho_det m Ho) as Hd. rewrite E in Hd. lra. Qed.
Theorem C51_decomposed2_inverse (eps s : R) rot disp : 0 <= eps -> eps < Rabs s -> m2_det rot <> 0 ->
  exists Ti, inverse2 (decomposed2 eps s rot disp) Ti /\ (s = 1 -> orthonormal rot -> forall d, dot2 (Ti.2 d) (Ti.2 d) = dot2 d d).
Proof.
  intros He Hs Hd. assert (Hs0 : s <> 0). { intros ->. rewrite Rabs_R0 in Hs. lra. }
  unfold inverse2, decomposed2, near0. cbn [xf_inv xf_pt]. cbn [nle nabs Num_R]. rewrite (proj2 (Rleb_false _ _)) by lra.
  eexists. split; [split; [done|]|]; cbn [fst snd].
  - split; [|split].
    + intros x. rewrite !m2_scale, m2_add, m2_scale, m2_inv_r by done. rewrite m2_scale, m2_inv_r by done.
      destruct x as [x y], disp as [dx dy]. rv0. cbn [ux uy]. f_equal; field; done.
    + intros x. rewrite !m2_scale, m2_add, m2_scale, m2_inv_l by done.
      set (w := m2_mul (m2_invert rot) disp). destruct x as [x y], w as [dx dy]. rv0. cbn [ux uy]. f_equal; field; done.
    + intros r t. rewrite <- !along2_add. unfold ray_xf. cbn [origin direction fst snd]. rewrite !m2_scale, m2_lin.
      set (a := m2_mul (m2_invert rot) (origin r)). set (b := m2_mul (m2_invert rot) (direction r)). set (w := m2_mul (m2_invert rot) disp).
      destruct a as [a1 a2], b as [b1 b2], w as [w1 w2]. rv0. cbn [ux uy]. f_equal; ring.
  - intros -> Ho d. rewrite m2_scale. pose proof (ortho_invert_dot rot d (m2_mul (m2_invert rot) d) Ho) as E. rewrite m2_inv_r in E by done.
    rewrite <- E. set (w := m2_mul (m2_invert rot) d). destruct w as [w1 w2]. rv0. cbn [ux uy]. field.
Qed.
Theorem C51_affine2_inverse m disp : m2_det m <> 0 -> exists Ti, inverse2 (PrimModel.affine2 m disp) Ti.
Proof.
  intros Hd. unfold inverse2, PrimModel.affine2. cbn [xf_inv xf_pt]. cbn [neq Num_R n0]. rewrite (proj2 (Reqb_false _ _)) by done.
  eexists. split; [done|]. cbn [fst snd]. split; [|split].
  - intros x. rewrite m2_add, m2_inv_r by done. replace (m2_mul m (neg2 (m2_mul (m2_invert m) disp))) with (neg2 disp).
    + destruct x as [x1 x2], disp as [d1 d2]. rv0. cbn [ux uy]. f_equal; ring.
    + rewrite <- (m2_inv_r m disp) at 1 by done. set (w := m2_mul (m2_invert m) disp). unfold m2_mul. rv0. cbn [ux uy]. f_equal; ring.
  - intros x. rewrite m2_add, m2_inv_l by done. set (w := m2_mul (m2_invert m) disp). destruct x as [x1 x2], w as [w1 w2]. rv0. cbn [ux uy]. f_equal; ring.
  - intros r t. rewrite <- !along2_add. unfold ray_xf. cbn [origin direction fst snd]. rewrite m2_lin.
    set (a := m2_mul (m2_invert m) (origin r)). set (b := m2_mul (m2_invert m) (direction r)). set (w := m2_mul (m2_invert m) disp).
    destruct a as [a1 a2], b as [b1 b2], w as [w1 w2]. rv0. cbn [ux uy]. f_equal; ring.
Qed.
Lemma q_add q x y : quat_rot (S:=R) q (add3 x y) = add3 (quat_rot q x) (quat_rot q y).
Proof. destruct q as [s [a b c]]. rewrite !quat_rot_eq. destruct x as [x1 x2 x3], y as [y1 y2 y3]. rv0. cbn [vx vy vz]. f_equal; ring. Qed.
Lemma q_scale q x t : quat_rot (S:=R) q (scale3 x t) = scale3 (quat_rot q x) t.
Proof. destruct q as [s [a b c]]. rewrite !quat_rot_eq. destruct x as [x1 x2 x3]. rv0. cbn [vx vy vz]. f_equal; ring. Qed.
Lemma q_inv_l q x : unit_quat q -> quat_rot (quat_invert q) (quat_rot q x) = x.
Proof.
  intros Hq. rewrite quat_invert_unit by done. unfold unit_quat, quat_mag2 in Hq. destruct q as [s [x0 y0 z0]].
  cbn [q_s q_v] in *. unfold neg3. cbn [vx vy vz]. cbn [nneg Num_R]. pose proof (quat_rot_conj s (- x0) (- y0) (- z0) x) as H. rewrite !Ropp_involutive in H.
  apply H. revert Hq. rv0. cbn [vx vy vz]. lra.
Qed.
(** The identity transform is its own inverse. *)
Theorem C51_identity2 : inverse2 id_xf (fun p => p, fun v => v) /\ forall d, xf_vec id_xf d = d /\ xf_ivec id_xf d = Some (d : P2).
Proof. done. Qed.
Theorem C51_identity3 : inverse3 id_xf (fun p => p, fun v => v) /\ forall d, xf_vec id_xf d = d /\ xf_ivec id_xf d = Some (d : P3).
Proof. done. Qed.
Theorem C51_decomposed3_inverse (eps s : R) rot disp : 0 <= eps -> eps < Rabs s -> unit_quat rot ->
  exists Ti, inverse3 (decomposed3 eps s rot disp) Ti /\ (s = 1 -> forall d, dot3 (Ti.2 d) (Ti.2 d) = dot3 d d).
Proof.
  intros He Hs Hd. assert (Hs0 : s <> 0). { intros ->. rewrite Rabs_R0 in Hs. lra. }
  unfold inverse3, decomposed3, near0. cbn [xf_inv xf_pt]. cbn [nle nabs Num_R]. rewrite (proj2 (Rleb_false _ _)) by lra.
  eexists. split; [split; [done|]|]; cbn [fst snd].
  - split; [|split].
    + intros x. rewrite !q_scale, q_add, !q_scale, !quat_rot_inv by done.
      destruct x as [x y z], disp as [dx dy dz]. rv0. cbn [vx vy vz]. f_equal; field; done.
    + intros x. rewrite !q_scale, q_add, q_scale, q_inv_l by done.
      set (w := quat_rot (quat_invert rot) disp). destruct x as [x y z], w as [dx dy dz]. rv0. cbn [vx vy vz]. f_equal; field; done.
    + intros r t. rewrite <- !along3_add. unfold ray_xf. cbn [origin direction fst snd]. rewrite !q_scale, q_add, q_scale.
      set (a := quat_rot (quat_invert rot) (origin r)). set (b := quat_rot (quat_invert rot) (direction r)). set (w := quat_rot (quat_invert rot) disp).
      destruct a as [a1 a2 a3], b as [b1 b2 b3], w as [w1 w2 w3]. rv0. cbn [vx vy vz]. f_equal; ring.
  - intros -> d. rewrite q_scale. pose proof (quat_dot rot d (quat_rot (quat_invert rot) d) Hd) as E. rewrite quat_rot_inv in E by done.
    rewrite <- E. set (w := quat_rot (quat_invert rot) d). destruct w as [w1 w2 w3]. rv0. cbn [vx vy vz]. field.
Qed.

(** ** Circles and spheres, moved and turned *)
Lemma circle_answer rad r : dot2 (direction r) (direction r) = 1 -> ~ disc rad (origin r) ->
  first_answer (along2 r) (disc rad) (Ok (circle_ray rad r)) /\ meets_answer (along2 r) (disc rad) (Ok (circle_ray_test rad r)).
Proof.
  intros Hu Ho. assert (Haway : ray_meets (along2 r) (disc rad) -> 0 <= - dot2 (origin r) (direction r)).
  { intros (t & Ht & Hd). unfold disc in *. rewrite sqr2 in Hd by done. destruct (Rle_dec 0 (- dot2 (origin r) (direction r))) as [|Hn]; [done|]. exfalso. nra. }
  assert (Ht : circle_ray_test rad r = true <-> ray_meets (along2 r) (disc rad)).
  { rewrite C46_circle_test_exact by done. split; [tauto|auto]. }
  split; [|by eexists]. pose proof (C46_circle_test_iff_hit rad r) as Hi. unfold first_answer. destruct (circle_ray rad r) as [p|] eqn:E.
  - by apply C46_circle_outside_exact.
  - rewrite <- Ht, Hi. by intros [].
Qed.
Lemma sphere_answer rad r : dot3 (direction r) (direction r) = 1 -> ~ ball rad (origin r) ->
  first_answer (along3 r) (ball rad) (Ok (psphere_ray rad r)) /\ meets_answer (along3 r) (ball rad) (Ok (psphere_ray_test rad r)).
Proof.
  intros Hu Ho. assert (Haway : ray_meets (along3 r) (ball rad) -> 0 <= - dot3 (origin r) (direction r)).
  { intros (t & Ht & Hd). unfold ball in *. rewrite sqr3 in Hd by done. destruct (Rle_dec 0 (- dot3 (origin r) (direction r))) as [|Hn]; [done|]. exfalso. nra. }
  assert (Ht : psphere_ray_test rad r = true <-> ray_meets (along3 r) (ball rad)).
  { rewrite C46_sphere_test_exact by done. split; [tauto|auto]. }
  split; [|by eexists]. pose proof (C46_sphere_test_iff_hit rad r) as Hi. unfold first_answer. destruct (psphere_ray rad r) as [p|] eqn:E.
  - by apply C46_sphere_outside_exact.
  - rewrite <- Ht, Hi. by intros [].
Qed.
Definition circle_q (rad : R) (r : Ray P2) : res (option P2) := Ok (circle_ray rad r).
Definition circle_t (rad : R) (r : Ray P2) : res bool := Ok (circle_ray_test rad r).
Definition sphere_q (rad : R) (r : Ray P3) : res (option P3) := Ok (psphere_ray rad r).
Definition sphere_t (rad : R) (r : Ray P3) : res bool := Ok (psphere_ray_test rad r).
Theorem C51_circle_moved T rad r : rigid2 T -> dot2 (direction r) (direction r) = 1 -> ~ world T (disc rad) (origin r) ->
  first_answer (along2 r) (world T (disc rad)) (intersection_transformed (circle_q rad) r T) /\
  meets_answer (along2 r) (world T (disc rad)) (intersects_transformed (circle_t rad) r T).
Proof.
  intros (Ti & HT & Hrig) Hu Ho.
  destruct (circle_answer rad (ray_xf Ti r)) as [H1 H2].
  - unfold ray_xf. cbn [direction]. by rewrite Hrig.
  - intros Hd. apply Ho. destruct HT as (_ & Hl & _). exists (Ti.1 (origin r)). split; [exact Hd|]. by rewrite Hl.
  - split; [by apply (C51_transformed_hit2 T Ti)|by apply (C51_transformed_test2 T Ti)].
Qed.
Theorem C51_sphere_moved T rad r : rigid3 T -> dot3 (direction r) (direction r) = 1 -> ~ world T (ball rad) (origin r) ->
  first_answer (along3 r) (world T (ball rad)) (intersection_transformed (sphere_q rad) r T) /\
  meets_answer (along3 r) (world T (ball rad)) (intersects_transformed (sphere_t rad) r T).
Proof.
  intros (Ti & HT & Hrig) Hu Ho.
  destruct (sphere_answer rad (ray_xf Ti r)) as [H1 H2].
  - unfold ray_xf. cbn [direction]. by rewrite Hrig.
  - intros Hd. apply Ho. destruct HT as (_ & Hl & _). exists (Ti.1 (origin r)). split; [exact Hd|]. by rewrite Hl.
  - split; [by apply (C51_transformed_hit3 T Ti)|by apply (C51_transformed_test3 T Ti)].
Qed.
(** ** Polygons, under every invertible transform *)
Theorem C51_polygon_moved T Ti vs r p : inverse2 T Ti -> convex_ccw vs -> direction r <> zero2 ->
  intersection_transformed (polygon_ray vs) r T = Ok (Some p) -> ray_first (along2 r) (world T (hull2 vs)) p.
Proof.
  intros HT Hcv Hd. pose proof HT as (Hi & Hl & Hr & Hal). intros E.
  assert (Hd' : direction (ray_xf Ti r) <> zero2).
  { intros Ez. apply Hd. pose proof (Hal r 1) as H1. pose proof (Hal r 0) as H0.
    assert (E01 : along2 (ray_xf Ti r) 1 = along2 (ray_xf Ti r) 0). { unfold along2. rewrite Ez. unfold zero2. cbn. f_equal; ring. }
    rewrite <- H1, <- H0 in E01. apply (f_equal (xf_pt T)) in E01. rewrite !Hl in E01. unfold along2 in E01.
    pose proof (f_equal ux E01) as Ex. pose proof (f_equal uy E01) as Ey. cbn in Ex, Ey. apply V2_eq; cbn; lra. }
  unfold intersection_transformed in E. rewrite Hi in E. destruct (polygon_ray vs (ray_xf Ti r)) as [[p0|]| |] eqn:Ep; try done.
  cbn [mbind res_mbind res_bind option_map] in E. injection E as <-.
  pose proof (C50_polygon_point_is_first vs Hcv _ Hd' _ Ep) as (t & Ht & -> & Hh & Hf).
  exists t. split; [done|]. split; [by rewrite <- Hal, Hl|]. rewrite <- Hal, Hl. split.
  - apply (world_along along2 T Ti); try done.
  - intros s Hs Hw. apply (world_along along2 T Ti) in Hw; try done. by apply (Hf s).
Qed.

(** ** Moving particles *)
Lemma dnn2 (d : P2) : 0 <= dot2 d d.
Proof. unfold dot2. cbn. pose proof (Rle_0_sqr (ux d)) as S1. pose proof (Rle_0_sqr (uy d)) as S2. unfold Rsqr in S1, S2. lra. Qed.
Lemma dnn3 (d : P3) : 0 <= dot3 d d.
Proof. unfold dot3. cbn. pose proof (Rle_0_sqr (vx d)) as S1. pose proof (Rle_0_sqr (vy d)) as S2. pose proof (Rle_0_sqr (vz d)) as S3. unfold Rsqr in S1, S2, S3. lra. Qed.
Lemma path_ray2 a b : a <> b -> let k := mag2 (sub2 b a) in 0 < k /\ dot2 (normalize2 (sub2 b a)) (normalize2 (sub2 b a)) = 1 /\
  forall t, along2 (mkRay a (normalize2 (sub2 b a))) (k * t) = path2 a b t.
Proof.
  intros Hne k. assert (Hk : 0 < k).
  { unfold k, mag2. cbn [nsqrt Num_R]. apply sqrt_lt_R0. unfold mag2_2, dot2, sub2. cbn [ux uy]. cbn [nadd nmul nsub Num_R].
    pose proof (Rle_0_sqr (ux b - ux a)) as S1. pose proof (Rle_0_sqr (uy b - uy a)) as S2. unfold Rsqr in S1, S2.
    destruct (Req_dec ((ux b - ux a) * (ux b - ux a) + (uy b - uy a) * (uy b - uy a)) 0) as [E|E]; [|lra].
    exfalso. apply Hne. destruct (Rplus_sqr_eq_0 _ _ E). apply V2_eq; lra. }
  assert (Hkk : k * k = dot2 (sub2 b a) (sub2 b a)). { unfold k, mag2, mag2_2. cbn [nsqrt Num_R]. apply sqrt_sqrt, dnn2. }
  split; [done|]. split.
  - unfold normalize2. fold k. cbn [n1 ndiv Num_R]. replace (dot2 (scale2 (sub2 b a) (1 / k)) (scale2 (sub2 b a) (1 / k))) with (dot2 (sub2 b a) (sub2 b a) * / (k * k)).
    + rewrite <- Hkk. field. lra.
    + unfold dot2, scale2. cbn [ux uy]. cbn [nadd nmul Num_R]. field. lra.
  - intros t. unfold normalize2. fold k. cbn [n1 ndiv Num_R]. unfold along2, path2, add2, scale2. cbn [origin direction ux uy nadd nmul Num_R]. f_equal; field; lra.
Qed.
Lemma path_ray3 a b : a <> b -> let k := mag3 (sub3 b a) in 0 < k /\ dot3 (normalize3 (sub3 b a)) (normalize3 (sub3 b a)) = 1 /\
  forall t, along3 (mkRay a (normalize3 (sub3 b a))) (k * t) = path3 a b t.
Proof.
  intros Hne k. assert (Hk : 0 < k).
  { unfold k, mag3. cbn [nsqrt Num_R]. apply sqrt_lt_R0. unfold mag2_3, dot3, sub3. cbn [vx vy vz]. cbn [nadd nmul nsub Num_R].
    pose proof (Rle_0_sqr (vx b - vx a)) as S1. pose proof (Rle_0_sqr (vy b - vy a)) as S2. pose proof (Rle_0_sqr (vz b - vz a)) as S3. unfold Rsqr in S1, S2, S3.
    destruct (Req_dec ((vx b - vx a) * (vx b - vx a) + (vy b - vy a) * (vy b - vy a) + (vz b - vz a) * (vz b - vz a)) 0) as [E|E]; [|lra].
    exfalso. apply Hne. assert (E1 : (vx b - vx a) * (vx b - vx a) = 0) by lra. assert (E2 : (vy b - vy a) * (vy b - vy a) = 0) by lra. assert (E3 : (vz b - vz a) * (vz b - vz a) = 0) by lra.
    apply Rmult_integral in E1, E2, E3. apply V3_eq; lra. }
  assert (Hkk : k * k = dot3 (sub3 b a) (sub3 b a)). { unfold k, mag3, mag2_3. cbn [nsqrt Num_R]. apply sqrt_sqrt, dnn3. }
  split; [done|]. split.
  - unfold normalize3. fold k. cbn [n1 ndiv Num_R]. replace (dot3 (scale3 (sub3 b a) (1 / k)) (scale3 (sub3 b a) (1 / k))) with (dot3 (sub3 b a) (sub3 b a) * / (k * k)).
    + rewrite <- Hkk. field. lra.
    + unfold dot3, scale3. cbn [vx vy vz]. cbn [nadd nmul Num_R]. field. lra.
  - intros t. unfold normalize3. fold k. cbn [n1 ndiv Num_R]. unfold along3, path3, add3, scale3. cbn [origin direction vx vy vz nadd nmul Num_R]. f_equal; field; lra.
Qed.
Section sweep.
  Context {V : Type} (sub : V -> V -> V) (m2 : V -> R) (normalize : V -> V) (hit : Ray V -> res (option V)) (a b : V).
  Context (along path : R -> V) (k : R) (Hk : 0 < k) (Hpath : forall t, along (k * t) = path t).
  Context (Hm : forall t, m2 (sub (path t) a) = t * t * (k * k)) (Hd : m2 (sub b a) = k * k).
  Lemma sweep A : first_answer along A (hit (mkRay a (normalize (sub b a)))) ->
    path_answer path A (particle_hit sub m2 normalize hit a b) (particle_test sub m2 normalize hit a b).
  Proof.
    unfold particle_hit, particle_test. destruct (hit _) as [[p|]| |]; cbn [first_answer mbind res_mbind res_bind]; try done.
    - intros (t & Ht & -> & HA & Hf). set (u := t / k). assert (Et : t = k * u) by (unfold u; field; lra).
      assert (Hu : 0 <= u) by (unfold u; apply Rmult_le_pos; [lra|left; by apply Rinv_0_lt_compat]).
      rewrite Et, Hpath in *. rewrite Hm, Hd. cbn [nle Num_R].
      assert (Hf' : forall s, 0 <= s < u -> ~ A (path s)). { intros s Hs Hw. apply (Hf (k * s)); [nra|]. by rewrite Hpath. }
      assert (HK : 0 < k * k) by (by apply Rmult_lt_0_compat).
      destruct (Rleb (u * u * (k * k)) (k * k)) eqn:E; [apply Rleb_true in E|apply Rleb_false in E]; cbn [path_answer].
      + split; [done|]. exists u. assert (u * u <= 1) by (apply Rmult_le_reg_r with (k * k); lra). assert (u <= 1) by nra. split; [done|]. done.
      + split; [done|]. assert (1 < u * u) by (apply Rmult_lt_reg_r with (k * k); lra). assert (1 < u) by nra. intros s Hs. apply Hf'. lra.
    - intros Hn. split; [done|]. intros t Ht HA. apply Hn. exists (k * t). split; [nra|]. by rewrite Hpath.
  Qed.
End sweep.
(** For any shape query that answers correctly for the ray from the start of the movement
    towards its end, the sweep finds the first point of the path in the shape. *)
Theorem C52_sweep2 hit A a b : a <> b -> first_answer (along2 (mkRay a (normalize2 (sub2 b a)))) A (hit (mkRay a (normalize2 (sub2 b a)))) ->
  path_answer (path2 a b) A (particle_hit sub2 mag2_2 normalize2 hit a b) (particle_test sub2 mag2_2 normalize2 hit a b).
Proof.
  intros Hne. destruct (path_ray2 a b Hne) as (Hk & _ & Hp). apply (sweep sub2 mag2_2 normalize2 hit a b _ (path2 a b) _ Hk Hp).
  - intros t. unfold mag2. cbn [nsqrt Num_R]. rewrite sqrt_sqrt; [|apply dnn2]. unfold path2, mag2_2, dot2, add2, scale2, sub2. cbn. ring.
  - unfold mag2. cbn [nsqrt Num_R]. rewrite sqrt_sqrt; [done|apply dnn2].
Qed.
Theorem C52_sweep3 hit A a b : a <> b -> first_answer (along3 (mkRay a (normalize3 (sub3 b a)))) A (hit (mkRay a (normalize3 (sub3 b a)))) ->
  path_answer (path3 a b) A (particle_hit sub3 mag2_3 normalize3 hit a b) (particle_test sub3 mag2_3 normalize3 hit a b).
Proof.
  intros Hne. destruct (path_ray3 a b Hne) as (Hk & _ & Hp). apply (sweep sub3 mag2_3 normalize3 hit a b _ (path3 a b) _ Hk Hp).
  - intros t. unfold mag3. cbn [nsqrt Num_R]. rewrite sqrt_sqrt; [|apply dnn3]. unfold path3, mag2_3, dot3, add3, scale3, sub3. cbn. ring.
  - unfold mag3. cbn [nsqrt Num_R]. rewrite sqrt_sqrt; [done|apply dnn3].
Qed.
(** A particle that starts outside a moved and turned circle or sphere. *)
Theorem C52_particle_circle T rad a b : rigid2 T -> a <> b -> ~ world T (disc rad) a ->
  let q := fun r => intersection_transformed (circle_q rad) r T in
  path_answer (path2 a b) (world T (disc rad)) (particle_hit sub2 mag2_2 normalize2 q a b) (particle_test sub2 mag2_2 normalize2 q a b).
Proof. intros HT Hne Ho q. apply C52_sweep2; [done|]. apply (C51_circle_moved T rad (mkRay a _)); try done. by apply path_ray2. Qed.
Theorem C52_particle_sphere T rad a b : rigid3 T -> a <> b -> ~ world T (ball rad) a ->
  let q := fun r => intersection_transformed (sphere_q rad) r T in
  path_answer (path3 a b) (world T (ball rad)) (particle_hit sub3 mag2_3 normalize3 q a b) (particle_test sub3 mag2_3 normalize3 q a b).
Proof. intros HT Hne Ho q. apply C52_sweep3; [done|]. apply (C51_sphere_moved T rad (mkRay a _)); try done. by apply path_ray3. Qed.

(** ** Where it fails *)
Local Instance num32x : Num f32 := Num_float 24 128.
Local Instance sgn32x : NumSgn f32 := NumSgn_float 24 128.
Definition no_rot {S} `{Num S} : M2 (S:=S) := mkM2 (mk2 n1 n0) (mk2 n0 n1).
Definition scale32 (k : Z) : Xf (V2 f32) := decomposed2 (F32 1 (-23)) (F32 k 0) no_rot (mk2 n0 n0).
Definition scaleR (k : R) : Xf P2 := decomposed2 (1 / 8388608) k no_rot (mk2 0 0).
(** With a scale the ray handed to the circle no longer has length one: a unit circle scaled
    by two, and a ray straight at its centre, which is missed. *)
Theorem C51_scaled_circle_missed_refuted :
  (match intersects_transformed (fun r => Ok (circle_ray_test (F32 1 0) r)) (fray2 (-10) 0 1 0) (scale32 2) with Ok b => b | _ => true end) = false /\
  ray_meets (along2 (rray2 (-10) 0 1 0)) (world (scaleR 2) (disc 1)).
Proof.
  split; [by vm_compute|]. exists 10. split; [lra|]. exists (mk2 0 0). split; [unfold disc, dot2; cbn; lra|].
  unfold scaleR, decomposed2, along2, rray2, m2_mul, no_rot. cbn [xf_pt m2_x m2_y]. rv0. cbn [ux uy n0 n1 Num_R origin direction]. f_equal; lra.
Qed.
(** A particle leaving the circle it started in is given a point behind its start. *)
Theorem C52_start_inside_refuted :
  (match particle_hit sub2 mag2_2 normalize2 (fun r => Ok (circle_ray (F32 4 0) r)) (mk2 n0 n0) (mk2 (F32 5 0) n0) with
   | Ok (Some p) => neq (ux p) (F32 (-4) 0) && neq (uy p) n0 | _ => false end) = true /\
  (forall t, 0 <= t <= 1 -> path2 (mk2 0 0) (mk2 5 0) t <> mk2 (-4) 0).
Proof. split; [by vm_compute|]. intros t Ht E. apply (f_equal ux) in E. unfold path2 in E. cbn in E. lra. Qed.
(** A particle that does not move is never reported, even inside the shape. *)
Theorem C52_resting_particle_missed_refuted :
  (match particle_test sub2 mag2_2 normalize2 (fun r => Ok (circle_ray (F32 4 0) r)) (mk2 n1 n0) (mk2 n1 n0) with Ok b => b | _ => true end) = false /\
  disc 4 (mk2 1 0).
Proof. split; [by vm_compute|]. unfold disc, dot2. cbn. lra. Qed.
Lemma no_rot_ortho : orthonormal (no_rot (S:=R)).
Proof. unfold orthonormal, no_rot. cbn [m2_x m2_y]. rv0. cbn [ux uy n0 n1 Num_R]. lra. Qed.
Definition shift (x y : R) : Xf P2 := decomposed2 (1 / 8388608) 1 no_rot (mk2 x y).
Lemma shift_rigid x y : rigid2 (shift x y).
Proof.
  destruct (C51_decomposed2_inverse (1 / 8388608) 1 no_rot (mk2 x y)) as (Ti & HT & Hr); [lra|rewrite Rabs_R1; lra|apply ortho_det_nz, no_rot_ortho|].
  exists Ti. split; [done|]. by apply Hr, no_rot_ortho.
Qed.
Lemma shift_world x y A p : world (shift x y) A p <-> A (mk2 (ux p - x) (uy p - y)).
Proof.
  assert (E : forall q, xf_pt (shift x y) q = mk2 (ux q + x) (uy q + y)).
  { intros q. unfold shift, decomposed2, no_rot, m2_mul. cbn [xf_pt m2_x m2_y]. rv0. cbn [ux uy n0 n1 Num_R]. f_equal; ring. }
  split.
  - intros (q & Hq & ->). rewrite E. cbn [ux uy]. replace (mk2 (ux q + x - x) (uy q + y - y)) with q; [done|]. apply V2_eq; cbn [ux uy]; ring.
  - intros Hq. exists (mk2 (ux p - x) (uy p - y)). split; [done|]. rewrite E. apply V2_eq; cbn [ux uy]; ring.
Qed.
(** The circle moved to (10,0) and a particle flying from (0,0) to (20,0): found at (9,0). *)
Example C51_hypotheses_met : let T := shift 10 0 in let r := rray2 0 0 1 0 in
  rigid2 T /\ dot2 (direction r) (direction r) = 1 /\ ~ world T (disc 1) (origin r) /\ ray_meets (along2 r) (world T (disc 1)).
Proof.
  intros T r. split; [apply shift_rigid|]. split; [unfold dot2; cbn; lra|]. split.
  - unfold T; rewrite shift_world. unfold disc, dot2. cbn. lra.
  - exists 10. split; [lra|]. apply shift_world. unfold disc, dot2, along2. cbn. lra.
Qed.
Example C52_hypotheses_met : let T := shift 10 0 in
  particle_hit sub2 mag2_2 normalize2 (fun r => intersection_transformed (circle_q 1) r T) (mk2 0 0) (mk2 20 0) = Ok (Some (mk2 9 0)).
Proof.
  intros T. pose proof (C52_particle_circle T 1 (mk2 0 0) (mk2 20 0) (shift_rigid _ _)) as Hp.
  specialize (Hp ltac:(intros E; apply (f_equal ux) in E; cbn in E; lra)).
  specialize (Hp ltac:(unfold T; rewrite shift_world; unfold disc, dot2; cbn; lra)). cbn zeta in Hp.
  destruct (particle_hit _ _ _ _ _ _) as [[p|]| |]; try done; cbn [path_answer] in Hp; destruct Hp as [_ Hp].
  - destruct Hp as (t & Ht & -> & HA & Hf). apply shift_world in HA. unfold disc, dot2, path2 in HA. cbn in HA.
    assert (Hlo : 9 / 20 <= t) by nra. destruct (Req_dec t (9 / 20)) as [->|Hne].
    + do 2 f_equal. apply V2_eq; unfold path2; cbn; lra.
    + exfalso. apply (Hf (9 / 20)); [lra|]. apply shift_world. unfold disc, dot2, path2. cbn. lra.
  - exfalso. apply (Hp (1 / 2)); [lra|]. apply shift_world. unfold disc, dot2, path2. cbn. lra.
Qed.
