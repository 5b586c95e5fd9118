(** C49: rays against cuboids, quads and rectangles. *)
From Coq Require Import Psatz.
From stdpp Require Import prelude.
From Flocq Require Import IEEE754.BinarySingleNaN.
From Coq Require Import Reals Lra.
From Verif Require Import Res Num Vec AabbModel GeoModel RealGeo Xr PropsAabb PropsRayBox PropsAgree PrimModel ShapeSpec RaySpec CylRay PropsCylRay.
Local Open Scope R_scope.

(** * Specification *)
(** The ray runs along a face of the shape: it does not move on some axis, and on that axis
    it is level with a side. *)
Definition skims1 (d o h : R) : Prop := d = 0 /\ 0 < h /\ (o = h \/ o = - h).
Definition skims_cuboid (dim : P3) (q : Ray P3) : Prop :=
  skims1 (vx (direction q)) (vx (origin q)) (vx dim / 2) \/ skims1 (vy (direction q)) (vy (origin q)) (vy dim / 2) \/
  skims1 (vz (direction q)) (vz (origin q)) (vz dim / 2).
Definition skims_quad (dim : P2) (q : Ray P3) : Prop :=
  skims1 (vx (direction q)) (vx (origin q)) (ux dim / 2) \/ skims1 (vy (direction q)) (vy (origin q)) (uy dim / 2).
Definition skims_rect (dim : P2) (q : Ray P2) : Prop :=
  (ux (direction q) = 0 /\ (ux (origin q) = ux dim / 2 \/ ux (origin q) = - (ux dim / 2))) \/
  (uy (direction q) = 0 /\ (uy (origin q) = uy dim / 2 \/ uy (origin q) = - (uy dim / 2))).
(** [p] is the last point of the ray in the set [A]. *)
Definition ray_last {V} (along : R -> V) (A : V -> Prop) (p : V) : Prop :=
  exists t, 0 <= t /\ p = along t /\ A p /\ forall s, t < s -> ~ A (along s).

(** * Proofs *)
Lemma along3_zero q : along3 q 0 = origin q.
Proof. destruct q as [[a b c] d]. unfold along3. cbn. f_equal; ring. Qed.
Lemma along2_zero q : along2 q 0 = origin q.
Proof. destruct q as [[a b] d]. unfold along2. cbn. f_equal; ring. Qed.
Section gen.
  Context {V : Type} (along : R -> V) (A : V -> Prop) (skim : Prop) (K : R -> Prop).
  Context (HK : forall t, K t <-> ~ skim /\ A (along t)).
  Context (Hconv : forall a b t, a <= t <= b -> A (along a) -> A (along b) -> A (along t)).
  Lemma gen_out t : ~ A (along 0) -> hit_param K t -> ray_first along A (along t).
  Proof.
    intros Ho (Ht & Hm & Hor). apply HK in Hm as [Hs Hm]. exists t. split; [done|]. split; [done|]. split; [done|].
    intros s Hs' Ha. destruct Hor as [Hmin | ((t' & Ht' & HK') & _)].
    - specialize (Hmin s (proj2 (HK s) (conj Hs Ha))). lra.
    - apply Ho. apply (Hconv t' t 0); [lra| |done]. by destruct (proj1 (HK t') HK').
  Qed.
  Lemma gen_in t : A (along 0) -> hit_param K t -> t = 0 \/ ray_last along A (along t).
  Proof.
    intros Ho (Ht & Hm & Hor). apply HK in Hm as [Hs Hm]. destruct Hor as [Hmin | (_ & Hmax)].
    - left. specialize (Hmin 0 (proj2 (HK 0) (conj Hs Ho))). lra.
    - right. exists t. split_and!; try done. intros s Hlt Ha. specialize (Hmax s (proj2 (HK s) (conj Hs Ha))). lra.
  Qed.
  Lemma gen_none : ~ skim -> (forall t, 0 <= t -> ~ K t) -> ~ ray_meets along A.
  Proof. intros Hs Hn (t & Ht & Ha). apply (Hn t Ht). by apply HK. Qed.
End gen.

Lemma axis3_half h o d t : 0 <= h -> in_axis3 (- h) h o d t <-> ~ skims1 d o h /\ - h <= o + d * t <= h.
Proof.
  intros Hh. unfold in_axis3, skims1. destruct (Req_EM_T d 0) as [->|Hne].
  - rewrite Rmult_0_l, Rplus_0_r. split.
    + intros [Hin | [E1 E2]]; (split; [intros (_ & Hp & [E|E]); lra|lra]).
    + intros [Hn Hin]. destruct (Req_dec h 0) as [->|Hne]; [right; lra|]. left.
      assert (Hp : 0 < h) by lra. destruct (Req_dec o h); [exfalso; apply Hn; auto|]. destruct (Req_dec o (- h)); [exfalso; apply Hn; auto|]. lra.
  - split; [intros Hin; split; [by intros [? _]|done]|by intros [_ Hin]].
Qed.
Lemma axis2_half h o d t : 0 <= h -> in_axis2 (- h) h o d t <-> ~ (d = 0 /\ (o = h \/ o = - h)) /\ - h <= o + d * t <= h.
Proof.
  intros Hh. unfold in_axis2. destruct (Req_EM_T d 0) as [->|Hne].
  - rewrite Rmult_0_l, Rplus_0_r. split.
    + intros Hin. split; [intros (_ & [E|E]); lra|lra].
    + intros [Hn Hin]. destruct (Req_dec o h); [exfalso; apply Hn; auto|]. destruct (Req_dec o (- h)); [exfalso; apply Hn; auto|]. lra.
  - split; [intros Hin; split; [by intros [? _]|done]|by intros [_ Hin]].
Qed.
Lemma fin_amin (x y : xr) a b : is_fin x a -> is_fin y b -> is_fin (amin x y) (Rmin a b) /\ is_fin (amax x y) (Rmax a b).
Proof.
  intros Hx Hy. destruct (amin_spec x y (fin_ok _ _ Hx) (fin_ok _ _ Hy)) as (L1 & L2 & L3).
  destruct (amax_spec x y (fin_ok _ _ Hx) (fin_ok _ _ Hy)) as (U1 & U2 & U3). split.
  - destruct L3 as [E|E]; rewrite E in *.
    + unfold Le in L2. change (xle x y = true) in L2. rewrite (fin_le _ _ _ _ Hx Hy), Rleb_true in L2. by rewrite Rmin_left.
    + unfold Le in L1. change (xle y x = true) in L1. rewrite (fin_le _ _ _ _ Hy Hx), Rleb_true in L1. by rewrite Rmin_right.
  - destruct U3 as [E|E]; rewrite E in *.
    + unfold Le in U2. change (xle y x = true) in U2. rewrite (fin_le _ _ _ _ Hy Hx), Rleb_true in U2. by rewrite Rmax_left.
    + unfold Le in U1. change (xle x y = true) in U1. rewrite (fin_le _ _ _ _ Hx Hy), Rleb_true in U1. by rewrite Rmax_right.
Qed.
Lemma fin_min_half h h' : is_fin h h' -> 0 <= h' -> is_fin (amin (nneg h) h) (- h') /\ is_fin (amax (nneg h) h) h'.
Proof.
  intros Hf Hh. assert (Fn : is_fin (nneg h) (- h')) by (by apply fin_neg). split.
  - rewrite <- (Rmin_left (- h') h') by lra. by apply fin_amin.
  - rewrite <- (Rmax_right (- h') h') by lra. by apply fin_amin.
Qed.
Lemma fin_half d d' : is_fin d d' -> is_fin (ndiv d two) (d' / 2).
Proof. intros Hf. apply fin_div; [lra|done|apply fin_two]. Qed.

Definition half3 (dim : P3) : Aabb3 R := mkAabb3 (mk3 (- (vx dim / 2)) (- (vy dim / 2)) (- (vz dim / 2))) (mk3 (vx dim / 2) (vy dim / 2) (vz dim / 2)).
Definition halfq (dim : P2) : Aabb3 R := mkAabb3 (mk3 (- (ux dim / 2)) (- (uy dim / 2)) (- 0)) (mk3 (ux dim / 2) (uy dim / 2) 0).
Definition half2 (dim : P2) : Aabb2 R := mkAabb2 (mk2 (- (ux dim / 2)) (- (uy dim / 2))) (mk2 (ux dim / 2) (uy dim / 2)).
Definition ge3 (d : P3) : Prop := 0 <= vx d /\ 0 <= vy d /\ 0 <= vz d.
Definition ge2 (d : P2) : Prop := 0 <= ux d /\ 0 <= uy d.

Lemma cuboid_fin dx dim : fin3 dx dim -> ge3 dim -> fin_box3 (cuboid_bound dx) (half3 dim).
Proof.
  intros (Fx & Fy & Fz) (Hx & Hy & Hz).
  destruct (fin_min_half _ _ (fin_half _ _ Fx) ltac:(lra)), (fin_min_half _ _ (fin_half _ _ Fy) ltac:(lra)), (fin_min_half _ _ (fin_half _ _ Fz) ltac:(lra)).
  split; (split; [|split]); assumption.
Qed.
Lemma quad_fin dx dim : fin2 dx dim -> ge2 dim -> fin_box3 (quad_bound dx) (halfq dim).
Proof.
  intros (Fx & Fy) (Hx & Hy).
  destruct (fin_min_half _ _ (fin_half _ _ Fx) ltac:(lra)), (fin_min_half _ _ (fin_half _ _ Fy) ltac:(lra)).
  assert (F0 : is_fin (n0 : xr) 0) by by eexists.
  split; (split; [|split]); try assumption; cbn [vz halfq min3 max3].
  - rewrite Ropp_0. rewrite <- (Rmin_left 0 0) by lra. by apply fin_amin.
  - rewrite <- (Rmax_left 0 0) by lra. by apply fin_amin.
Qed.
Lemma rect_fin dx dim : fin2 dx dim -> ge2 dim -> fin_box2 (rect_bound dx) (half2 dim).
Proof.
  intros (Fx & Fy) (Hx & Hy).
  destruct (fin_min_half _ _ (fin_half _ _ Fx) ltac:(lra)), (fin_min_half _ _ (fin_half _ _ Fy) ltac:(lra)).
  split; split; assumption.
Qed.
Lemma btw a b t o d lo hi : a <= t <= b -> lo <= o + d * a <= hi -> lo <= o + d * b <= hi -> lo <= o + d * t <= hi.
Proof. intros Ht Ha Hb. destruct (Rle_dec 0 d); nra. Qed.

Lemma ok0 : ok (n0 : xr).
Proof. done. Qed.
Section cuboid.
  Context (r : Ray (V3 xr)) (q : Ray P3) (dx : V3 xr) (dim : P3).
  Context (Hr : fin_ray3 r q) (Hd : fin3 dx dim) (Hge : ge3 dim) (Hnz : direction q <> zero3).
  Lemma cuboid_K t : meets3 q (half3 dim) t <-> ~ skims_cuboid dim q /\ box_set dim (along3 q t).
  Proof.
    destruct Hge as (Hx & Hy & Hz). unfold meets3. cbn [min3 max3 half3 vx vy vz]. rewrite !axis3_half by lra. unfold skims_cuboid, box_set. cbn [along3 vx vy vz]. tauto.
  Qed.
  Lemma cuboid_conv a b t : a <= t <= b -> box_set dim (along3 q a) -> box_set dim (along3 q b) -> box_set dim (along3 q t).
  Proof. intros Ht (Ax & Ay & Az) (Bx & By & Bz). split; [|split]; by apply (btw a b). Qed.
  Lemma cuboid_box : box3 (half3 dim).
  Proof. destruct Hge as (Hx & Hy & Hz). unfold box3, Le, half3; cbn. rewrite !Rleb_true. lra. Qed.
  Lemma cuboid_case : match cuboid_ray dx r with
    | None => forall t, 0 <= t -> ~ meets3 q (half3 dim) t
    | Some p => exists t, hit_param (meets3 q (half3 dim)) t /\ fin3 p (along3 q t) end.
  Proof.
    unfold cuboid_ray. pose proof (C28_ray_aabb3_exact r (cuboid_bound dx) q (half3 dim) Hr (cuboid_fin _ _ Hd Hge) cuboid_box Hnz) as Hc.
    destruct (ray_aabb3 _ _); [|done]. destruct Hc as (t & Hh & Hf). exists t. split; [done|]. by rewrite <- along3_add.
  Qed.
  (** A ray from outside that does not run along a face: the first point, or None if there is none. *)
  Theorem C49_cuboid_hit_outside : ~ skims_cuboid dim q -> ~ box_set dim (origin q) ->
    match cuboid_ray dx r with
    | Some p => exists p', fin3 p p' /\ ray_first (along3 q) (box_set dim) p'
    | None => ~ ray_meets (along3 q) (box_set dim)
    end.
  Proof.
    intros Hs Ho. pose proof cuboid_case as Hc. destruct (cuboid_ray dx r) as [p|].
    - destruct Hc as (t & Hh & Hf). exists (along3 q t). split; [done|].
      apply (gen_out _ _ _ _ cuboid_K cuboid_conv); [|done]. by rewrite along3_zero.
    - by apply (gen_none _ _ _ _ cuboid_K).
  Qed.
  (** From inside: always a point, the last point of the ray in the cuboid, or the origin when it is on the surface. *)
  Theorem C49_cuboid_hit_inside : ~ skims_cuboid dim q -> box_set dim (origin q) ->
    exists p p', cuboid_ray dx r = Some p /\ fin3 p p' /\ (p' = origin q \/ ray_last (along3 q) (box_set dim) p').
  Proof.
    intros Hs Ho. pose proof cuboid_case as Hc. destruct (cuboid_ray dx r) as [p|].
    - destruct Hc as (t & Hh & Hf). exists p, (along3 q t). split; [done|]. split; [done|].
      destruct (gen_in _ _ _ _ cuboid_K t) as [-> |Hl]; try done; [by rewrite along3_zero|left; apply along3_zero|by right].
    - exfalso. apply (Hc 0); [lra|]. apply cuboid_K. split; [done|]. by rewrite along3_zero.
  Qed.
  (** A ray along a face is never reported. *)
  Theorem C49_cuboid_face_ray_missed : skims_cuboid dim q -> cuboid_ray dx r = None.
  Proof.
    intros Hs. pose proof cuboid_case as Hc. destruct (cuboid_ray dx r); [|done]. destruct Hc as (t & (_ & Hm & _) & _). by apply cuboid_K in Hm as [? _].
  Qed.
  Theorem C49_cuboid_test_agrees : cuboid_ray_test dx r = true <-> is_Some (cuboid_ray dx r).
  Proof.
    unfold cuboid_ray_test, cuboid_ray. destruct (ray_aabb3_test r (cuboid_bound dx)) eqn:E.
    - split; [intros _|done]. apply (proj1 (C29_aabb3_disagreement_iff_all_nan (S := xr) ok0 r (cuboid_bound dx))). done.
    - split; [done|]. intros Hs. exfalso. apply Hnz.
      by apply (proj1 (C29_aabb3_finite_disagreement r (cuboid_bound dx) q (half3 dim) Hr (cuboid_fin _ _ Hd Hge))).
  Qed.
End cuboid.

Section quad.
  Context (r : Ray (V3 xr)) (q : Ray P3) (dx : V2 xr) (dim : P2).
  Context (Hr : fin_ray3 r q) (Hd : fin2 dx dim) (Hge : ge2 dim) (Hnz : direction q <> zero3).
  Lemma quad_K t : meets3 q (halfq dim) t <-> ~ skims_quad dim q /\ quad_set dim (along3 q t).
  Proof.
    destruct Hge as (Hx & Hy). unfold meets3. cbn [min3 max3 halfq vx vy vz]. rewrite !axis3_half by lra. unfold skims_quad, quad_set. cbn [along3 vx vy vz].
    assert (~ skims1 (vz (direction q)) (vz (origin q)) 0) by (intros (_ & Hl & _); lra).
    assert (- 0 <= vz (origin q) + vz (direction q) * t <= 0 <-> vz (origin q) + vz (direction q) * t = 0) as -> by (split; intros; lra). tauto.
  Qed.
  Lemma quad_conv a b t : a <= t <= b -> quad_set dim (along3 q a) -> quad_set dim (along3 q b) -> quad_set dim (along3 q t).
  Proof.
    intros Ht (Ax & Ay & Az) (Bx & By & Bz). split; [by apply (btw a b)|]. split; [by apply (btw a b)|]. cbn [along3 vz] in *.
    pose proof (btw a b t (vz (origin q)) (vz (direction q)) 0 0 Ht ltac:(lra) ltac:(lra)). lra.
  Qed.
  Lemma quad_box : box3 (halfq dim).
  Proof. destruct Hge as (Hx & Hy). unfold box3, Le, halfq; cbn. rewrite !Rleb_true. lra. Qed.
  Lemma quad_case : match quad_ray dx r with
    | None => forall t, 0 <= t -> ~ meets3 q (halfq dim) t
    | Some p => exists t, hit_param (meets3 q (halfq dim)) t /\ fin3 p (along3 q t) end.
  Proof.
    unfold quad_ray. pose proof (C28_ray_aabb3_exact r (quad_bound dx) q (halfq dim) Hr (quad_fin _ _ Hd Hge) quad_box Hnz) as Hc.
    destruct (ray_aabb3 _ _); [|done]. destruct Hc as (t & Hh & Hf). exists t. split; [done|]. by rewrite <- along3_add.
  Qed.
  Theorem C49_quad_hit : ~ skims_quad dim q -> ~ quad_set dim (origin q) ->
    match quad_ray dx r with
    | Some p => exists p', fin3 p p' /\ ray_first (along3 q) (quad_set dim) p'
    | None => ~ ray_meets (along3 q) (quad_set dim)
    end.
  Proof.
    intros Hs Ho. pose proof quad_case as Hc. destruct (quad_ray dx r) as [p|].
    - destruct Hc as (t & Hh & Hf). exists (along3 q t). split; [done|].
      apply (gen_out _ _ _ _ quad_K quad_conv); [|done]. by rewrite along3_zero.
    - by apply (gen_none _ _ _ _ quad_K).
  Qed.
  (** A ray starting in the quad and leaving its plane is reported, at its origin. *)
  Theorem C49_quad_hit_at_origin : ~ skims_quad dim q -> quad_set dim (origin q) -> vz (direction q) <> 0 ->
    exists p, quad_ray dx r = Some p /\ fin3 p (origin q).
  Proof.
    intros Hs Ho Hz. pose proof quad_case as Hc. destruct (quad_ray dx r) as [p|].
    - destruct Hc as (t & Hh & Hf). exists p. split; [done|]. destruct Hh as (Ht & Hm & _). apply quad_K in Hm as [_ (_ & _ & Hm)].
      destruct Ho as (_ & _ & Hoz). cbn [along3 vz] in Hm. assert (t = 0) as -> by nra. by rewrite <- (along3_zero q).
    - exfalso. apply (Hc 0); [lra|]. apply quad_K. split; [done|]. by rewrite along3_zero.
  Qed.
  Theorem C49_quad_edge_ray_missed : skims_quad dim q -> quad_ray dx r = None.
  Proof.
    intros Hs. pose proof quad_case as Hc. destruct (quad_ray dx r); [|done]. destruct Hc as (t & (_ & Hm & _) & _). by apply quad_K in Hm as [? _].
  Qed.
  Theorem C49_quad_test_agrees : quad_ray_test dx r = true <-> is_Some (quad_ray dx r).
  Proof.
    unfold quad_ray_test, quad_ray. destruct (ray_aabb3_test r (quad_bound dx)) eqn:E.
    - split; [intros _|done]. apply (proj1 (C29_aabb3_disagreement_iff_all_nan (S := xr) ok0 r (quad_bound dx))). done.
    - split; [done|]. intros Hs. exfalso. apply Hnz.
      by apply (proj1 (C29_aabb3_finite_disagreement r (quad_bound dx) q (halfq dim) Hr (quad_fin _ _ Hd Hge))).
  Qed.
End quad.

Section rect.
  Context (r : Ray (V2 xr)) (q : Ray P2) (dx : V2 xr) (dim : P2).
  Context (Hr : fin_ray2 r q) (Hd : fin2 dx dim) (Hge : ge2 dim) (Hnz : direction q <> zero2).
  Lemma rect_K t : meets2 q (half2 dim) t <-> ~ skims_rect dim q /\ rect_set dim (along2 q t).
  Proof.
    destruct Hge as (Hx & Hy). unfold meets2. cbn [min2 max2 half2 ux uy]. rewrite !axis2_half by lra. unfold skims_rect, rect_set. cbn [along2 ux uy]. tauto.
  Qed.
  Lemma rect_conv a b t : a <= t <= b -> rect_set dim (along2 q a) -> rect_set dim (along2 q b) -> rect_set dim (along2 q t).
  Proof. intros Ht (Ax & Ay) (Bx & By). split; by apply (btw a b). Qed.
  Lemma rect_box : box2 (half2 dim).
  Proof. destruct Hge as (Hx & Hy). unfold box2, Le, half2; cbn. rewrite !Rleb_true. lra. Qed.
  Lemma rect_case : match rect_ray dx r with
    | None => forall t, 0 <= t -> ~ meets2 q (half2 dim) t
    | Some p => exists t, hit_param (meets2 q (half2 dim)) t /\ fin2 p (along2 q t) end.
  Proof.
    unfold rect_ray. pose proof (C27_ray_aabb2_exact r (rect_bound dx) q (half2 dim) Hr (rect_fin _ _ Hd Hge) rect_box Hnz) as Hc.
    destruct (ray_aabb2 _ _); [|done]. destruct Hc as (t & Hh & Hf). exists t. split; [done|]. by rewrite <- along2_add.
  Qed.
  Theorem C49_rectangle_hit_outside : ~ skims_rect dim q -> ~ rect_set dim (origin q) ->
    match rect_ray dx r with
    | Some p => exists p', fin2 p p' /\ ray_first (along2 q) (rect_set dim) p'
    | None => ~ ray_meets (along2 q) (rect_set dim)
    end.
  Proof.
    intros Hs Ho. pose proof rect_case as Hc. destruct (rect_ray dx r) as [p|].
    - destruct Hc as (t & Hh & Hf). exists (along2 q t). split; [done|].
      apply (gen_out _ _ _ _ rect_K rect_conv); [|done]. by rewrite along2_zero.
    - by apply (gen_none _ _ _ _ rect_K).
  Qed.
  Theorem C49_rectangle_hit_inside : ~ skims_rect dim q -> rect_set dim (origin q) ->
    exists p p', rect_ray dx r = Some p /\ fin2 p p' /\ (p' = origin q \/ ray_last (along2 q) (rect_set dim) p').
  Proof.
    intros Hs Ho. pose proof rect_case as Hc. destruct (rect_ray dx r) as [p|].
    - destruct Hc as (t & Hh & Hf). exists p, (along2 q t). split; [done|]. split; [done|].
      destruct (gen_in _ _ _ _ rect_K t) as [-> |Hl]; try done; [by rewrite along2_zero|left; apply along2_zero|by right].
    - exfalso. apply (Hc 0); [lra|]. apply rect_K. split; [done|]. by rewrite along2_zero.
  Qed.
  Theorem C49_rectangle_side_ray_missed : skims_rect dim q -> rect_ray dx r = None.
  Proof.
    intros Hs. pose proof rect_case as Hc. destruct (rect_ray dx r); [|done]. destruct Hc as (t & (_ & Hm & _) & _). by apply rect_K in Hm as [? _].
  Qed.
  Theorem C49_rectangle_test_agrees : rect_ray_test dx r = true <-> is_Some (rect_ray dx r).
  Proof. apply (C29_aabb2_discrete_iff_continuous (S := xr)); done. Qed.
End rect.

Local Instance num32b : Num f32 := Num_float 24 128.
Local Instance inf32b : NumInf f32 := NumInf_float 24 128.
(** A ray along a face of a cube of side two passes through the surface for two units and is
    not reported; from inside the returned point is where the ray leaves. *)
Theorem C49_face_ray_missed_refuted :
  cuboid_ray_test (mk3 (F32 2 0) (F32 2 0) (F32 2 0)) (fray (-5) 1 0 1 0 0) = false /\
  ray_meets (along3 (rray (-5) 1 0 1 0 0)) (box_set (mk3 2 2 2)).
Proof. split; [by vm_compute|]. exists 5. split; [lra|]. unfold box_set, rray, along3. cbn. lra. Qed.
Example C49_hypotheses_met :
  (let q := rray (-5) 0 0 2 0 0 in fin_ray3 (xray q) q /\ direction q <> zero3 /\ ~ skims_cuboid (mk3 2 2 2) q /\ ~ box_set (mk3 2 2 2) (origin q) /\
    is_Some (cuboid_ray (mk3 (xf 2) (xf 2) (xf 2)) (xray q)) /\ is_Some (quad_ray (mk2 (xf 2) (xf 2)) (xray q))) /\
  (let q := rray 0 0 0 2 1 0 in ~ skims_cuboid (mk3 2 2 2) q /\ box_set (mk3 2 2 2) (origin q)).
Proof.
  assert (F2 : is_fin (xf 2) 2) by by eexists. split; intros q.
  - assert (Hr : fin_ray3 (xray q) q) by (split; [split|split]; repeat split; by eexists).
    assert (Hz : direction q <> zero3). { intros E. apply (f_equal vx) in E. cbn in E. lra. }
    assert (Hs : ~ skims_cuboid (mk3 2 2 2) q). { unfold skims_cuboid, skims1. cbn. lra. }
    assert (Hs2 : ~ skims_quad (mk2 2 2) q). { unfold skims_quad, skims1. cbn. lra. }
    assert (Ho : ~ box_set (mk3 2 2 2) (origin q)) by (unfold box_set; cbn; lra).
    assert (Ho2 : ~ quad_set (mk2 2 2) (origin q)) by (unfold quad_set; cbn; lra).
    assert (Hge3 : ge3 (mk3 2 2 2)) by (unfold ge3; cbn; lra). assert (Hge2 : ge2 (mk2 2 2)) by (unfold ge2; cbn; lra).
    split_and!; try done.
    + pose proof (C49_cuboid_hit_outside (xray q) q (mk3 (xf 2) (xf 2) (xf 2)) (mk3 2 2 2) Hr ltac:(done) Hge3 Hz Hs Ho) as Hc.
      destruct (cuboid_ray _ _); [by eexists|]. exfalso. apply Hc. exists 2. split; [lra|]. unfold box_set, along3. cbn. lra.
    + pose proof (C49_quad_hit (xray q) q (mk2 (xf 2) (xf 2)) (mk2 2 2) Hr ltac:(done) Hge2 Hz Hs2 Ho2) as Hc.
      destruct (quad_ray _ _); [by eexists|]. exfalso. apply Hc. exists 2. split; [lra|]. unfold quad_set, along3. cbn. lra.
  - split; [unfold skims_cuboid, skims1; cbn; lra|unfold box_set; cbn; lra].
Qed.
