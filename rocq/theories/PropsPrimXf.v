(** C58: rays against any primitive of the enums, moved by any invertible transform, with the
    IEEE special values (the box, cylinder and capsule tests divide by zero). *)
From Coq Require Import Psatz.
From stdpp Require Import prelude fin_maps gmap.
From Coq Require Import Reals Lra.
From Verif Require Import Res Num Vec AabbModel GeoModel RealGeo Xr PropsRayBox PropsPlane PrimModel ShapeSpec PropsSupport PropsLine RaySpec PropsPrimRay CylRay PropsCylRay PropsCapRay
  PropsBoxRay PropsPolyRay MinkSpec PrimEnum XformModel PropsXform MeshSpec MeshModel MeshBuild MeshGeo MeshClimb MeshCover PropsMesh MeshRay MeshFind PropsMeshRay PrimRay.
Local Open Scope R_scope.

(** * Specification *)
(** The code ran on [x] (numbers with infinities and NaN) and answered: the finite first point
    of the ray in [A], or nothing when the ray does not meet [A]. *)
Definition answers {X V} (fin : X -> V -> Prop) (along : R -> V) (A : V -> Prop) (o : res (option X)) : Prop :=
  match o with
  | Ok (Some x) => exists p, fin x p /\ ray_first along A p
  | Ok None => ~ ray_meets along A
  | _ => False
  end.
(** The primitive of the code holds the finite numbers of the mathematical one. *)
Definition prim2_fin (p : Primitive2 xr) (p' : Primitive2 R) : Prop :=
  match p, p' with
  | Particle2, Particle2 => True
  | LineP l, LineP l' => fin2 (l_origin l) (l_origin l') /\ fin2 (l_dest l) (l_dest l')
  | Circle r, Circle r' => is_fin r r'
  | Rectangle d, Rectangle d' => fin2 d d'
  | Square s, Square s' => is_fin s s'
  | ConvexPolygon vs, ConvexPolygon vs' => Forall2 fin2 vs vs'
  | _, _ => False
  end.
Definition prim3_fin (p : Primitive3 xr) (p' : Primitive3 R) : Prop :=
  match p, p' with
  | Particle3, Particle3 => True
  | QuadP d, QuadP d' => fin2 d d'
  | SphereP r, SphereP r' => is_fin r r'
  | CuboidP d, CuboidP d' => fin3 d d'
  | CubeP s, CubeP s' => is_fin s s'
  | CylinderP h r, CylinderP h' r' => is_fin h h' /\ is_fin r r'
  | CapsuleP h r, CapsuleP h' r' => is_fin h h' /\ is_fin r r'
  | ConvexPolyhedron vs, ConvexPolyhedron vs' => Forall2 fin3 vs vs'
  | _, _ => False
  end.
(** The transform of the code maps finite points and vectors as the mathematical one does. *)
Definition map_fin {X V} (fin : X -> V -> Prop) (f : X -> X) (g : V -> V) : Prop := forall x p, fin x p -> fin (f x) (g p).
Definition xf_fin {X V} (fin : X -> V -> Prop) (T : Xf X) (T' : Xf V) : Prop :=
  map_fin fin (xf_pt T) (xf_pt T') /\
  match xf_inv T, xf_inv T' with
  | Some Ti, Some Ti' => map_fin fin Ti.1 Ti'.1 /\ map_fin fin Ti.2 Ti'.2
  | None, None => True
  | _, _ => False
  end.
(** The rays (in the frame of the primitive) for which the operations of the primitive answer
    correctly; C46-C50 show what they do for the others. *)
Definition good_ray2 (p : Primitive2 R) (l : Ray P2) : Prop :=
  match p with
  | Particle2 => False
  | LineP _ => True
  | Circle r => dot2 (direction l) (direction l) = 1 /\ ~ disc r (origin l)
  | Rectangle d => ge2 d /\ ~ skims_rect d l /\ ~ rect_set d (origin l)
  | Square s => 0 <= s /\ ~ skims_rect (mk2 s s) l /\ ~ rect_set (mk2 s s) (origin l)
  | ConvexPolygon vs => convex_ccw vs /\ ~ hull2 vs (origin l) /\ forall p, ray_first (along2 l) (hull2 vs) p -> ~ on_last_side vs p
  end.
(** The ray enters a round body from outside its infinite tube, between the ends. *)
Definition by_side (hh rd : R) (l : Ray P3) : Prop :=
  ~ tube rd (origin l) /\ (ray_meets (along3 l) (tube rd) -> exists p, ray_first (along3 l) (tube rd) p /\ - hh <= vy p <= hh).
Definition over_end (hh rd : R) (l : Ray P3) : Prop := vx (origin l) * vx (origin l) + vz (origin l) * vz (origin l) < rd * rd.
Definition good_ray3 (p : Primitive3 R) (l : Ray P3) : Prop :=
  match p with
  | Particle3 | ConvexPolyhedron _ => False
  | QuadP d => ge2 d /\ ~ skims_quad d l /\ ~ quad_set d (origin l)
  | SphereP r => dot3 (direction l) (direction l) = 1 /\ ~ ball r (origin l)
  | CuboidP d => ge3 d /\ ~ skims_cuboid d l /\ ~ box_set d (origin l)
  | CubeP s => 0 <= s /\ ~ skims_cuboid (mk3 s s s) l /\ ~ box_set (mk3 s s s) (origin l)
  | CylinderP hh rd => 0 <= hh /\ (vx (direction l) <> 0 \/ vz (direction l) <> 0) /\
      (by_side hh rd l \/ over_end hh rd l /\ hh < vy (origin l))
  | CapsuleP hh rd => 0 <= hh /\ 0 <= rd /\ dot3 (direction l) (direction l) = 1 /\ ~ capsule_set hh rd (origin l) /\
      (by_side hh rd l \/ over_end hh rd l /\ exists p, ray_first (along3 l) (capsule_set hh rd) p)
  end.

(** * Proofs *)
(** ** Functions without division by zero: what they do on finite numbers is what they do on reals *)
Definition same {X V} (fin : X -> V -> Prop) (o : option X) (o' : option V) : Prop :=
  match o, o' with Some x, Some p => fin x p | None, None => True | _, _ => False end.
Lemma same_answers {X V} (fin : X -> V -> Prop) along A (o : res (option X)) (o' : res (option V)) :
  match o, o' with Ok a, Ok b => same fin a b | Panic, Panic => True | OutOfFuel, OutOfFuel => True | _, _ => False end ->
  first_answer along A o' -> answers fin along A o.
Proof. destruct o as [[x|]| |], o' as [[p|]| |]; cbn; try done. eauto. Qed.
Ltac fz := unfold dot2, dot3, perp_dot; cbn [ux uy vx vy vz]; xn; fin.
Lemma fin_n0 : is_fin (n0 : xr) 0. Proof. by eexists. Qed.
Lemma fin_n1 : is_fin (n1 : xr) 1. Proof. by eexists. Qed.
Lemma fin_dot2 a b a' b' : fin2 a a' -> fin2 b b' -> is_fin (dot2 a b) (dot2 a' b').
Proof. intros [] []. apply fin_add; apply fin_mul; done. Qed.
Lemma nlt_fin x y a b : is_fin x a -> is_fin y b -> nlt x y = nlt a b.
Proof. apply fin_lt. Qed.
Lemma nle_fin x y a b : is_fin x a -> is_fin y b -> nle x y = nle a b.
Proof. apply fin_le. Qed.
Lemma neq_fin x y a b : is_fin x a -> is_fin y b -> neq x y = neq a b.
Proof. apply fin_eq. Qed.

Lemma circle_same rad rd r q : is_fin rad rd -> fin_ray2 r q ->
  circle_ray_test rad r = circle_ray_test rd q /\ same fin2 (circle_ray rad r) (circle_ray rd q).
Proof.
  intros Hrad [Ho Hd]. unfold circle_ray_test, circle_ray.
  set (l := mk2 _ _). set (l' := mk2 (- ux (origin q))%N_ _).
  assert (Hl : fin2 l l') by (destruct Ho; split; by apply fin_neg). clearbody l l'.
  assert (Ht : is_fin (dot2 l (direction r)) (dot2 l' (direction q))) by by apply fin_dot2. set (t := dot2 l _) in *. set (t' := dot2 l' (direction q)) in *. clearbody t t'.
  assert (Hd2 : is_fin (dot2 l l - t * t)%N_ (dot2 l' l' - t' * t')) by (apply fin_sub; [by apply fin_dot2|by apply fin_mul]).
  set (d := (dot2 l l - t * t)%N_) in *. change (dot2 l' l' - t' * t')%N_ with (dot2 l' l' - t' * t'). set (d' := dot2 l' l' - t' * t') in *. clearbody d d'.
  assert (Hrr : is_fin (rad * rad)%N_ (rd * rd)) by by apply fin_mul. set (rr := (rad * rad)%N_) in *. change (rd * rd)%N_ with (rd * rd). set (rr' := rd * rd) in *. clearbody rr rr'.
  rewrite (nlt_fin _ _ _ _ Ht fin_n0), (nle_fin _ _ _ _ Hd2 Hrr), (nlt_fin _ _ _ _ Hrr Hd2). change (nlt t' 0) with (nlt t' n0).
  destruct (nlt t' n0); [done|]. split; [done|]. change (nlt rr' d') with (Rltb rr' d'). destruct (Rltb rr' d') eqn:E; [done|]. apply Rltb_false in E.
  cbn [same]. destruct Ho, Hd.
  assert (Hs : is_fin (t - nsqrt (rr - d))%N_ (t' - sqrt (rr' - d'))) by (apply fin_sub; [done|apply fin_sqrt; [lra|by apply fin_sub]]).
  split; (apply fin_add; [done|apply fin_mul; done]).
Qed.
Lemma sphere_same rad rd r q : is_fin rad rd -> fin_ray3 r q ->
  psphere_ray_test rad r = psphere_ray_test rd q /\ same fin3 (psphere_ray rad r) (psphere_ray rd q).
Proof.
  intros Hrad [Ho Hd]. unfold psphere_ray_test, psphere_ray.
  set (l := mk3 _ _ _). set (l' := mk3 (- vx (origin q))%N_ _ _).
  assert (Hl : fin3 l l') by (destruct Ho as (? & ? & ?); split; [|split]; by apply fin_neg). clearbody l l'.
  assert (Ht : is_fin (dot3 l (direction r)) (dot3 l' (direction q))) by by apply fin_dot3. set (t := dot3 l _) in *. set (t' := dot3 l' (direction q)) in *. clearbody t t'.
  assert (Hd2 : is_fin (dot3 l l - t * t)%N_ (dot3 l' l' - t' * t')) by (apply fin_sub; [by apply fin_dot3|by apply fin_mul]).
  set (d := (dot3 l l - t * t)%N_) in *. change (dot3 l' l' - t' * t')%N_ with (dot3 l' l' - t' * t'). set (d' := dot3 l' l' - t' * t') in *. clearbody d d'.
  assert (Hrr : is_fin (rad * rad)%N_ (rd * rd)) by by apply fin_mul. set (rr := (rad * rad)%N_) in *. change (rd * rd)%N_ with (rd * rd). set (rr' := rd * rd) in *. clearbody rr rr'.
  rewrite (nlt_fin _ _ _ _ Ht fin_n0), (nle_fin _ _ _ _ Hd2 Hrr), (nlt_fin _ _ _ _ Hrr Hd2). change (nlt t' 0) with (nlt t' n0).
  destruct (nlt t' n0); [done|]. split; [done|]. change (nlt rr' d') with (Rltb rr' d'). destruct (Rltb rr' d') eqn:E; [done|]. apply Rltb_false in E.
  cbn [same]. destruct Ho as (? & ? & ?), Hd as (? & ? & ?).
  assert (Hs : is_fin (t - nsqrt (rr - d))%N_ (t' - sqrt (rr' - d'))) by (apply fin_sub; [done|apply fin_sqrt; [lra|by apply fin_sub]]).
  split; [|split]; (apply fin_add; [done|apply fin_mul; done]).
Qed.
Lemma line_same l l' r q : fin2 (l_origin l) (l_origin l') -> fin2 (l_dest l) (l_dest l') -> fin_ray2 r q -> same fin2 (ray_line2 r l) (ray_line2 q l').
Proof.
  intros [Ax Ay] [Bx By] [[Ox Oy] [Dx Dy]]. unfold ray_line2.
  assert (Hs : fin2 (mk2 (ux (l_dest l) - ux (l_origin l)) (uy (l_dest l) - uy (l_origin l)))%N_ (mk2 (ux (l_dest l') - ux (l_origin l')) (uy (l_dest l') - uy (l_origin l')))%N_)
    by (split; by apply fin_sub).
  assert (Hq : fin2 (mk2 (ux (l_origin l) - ux (origin r)) (uy (l_origin l) - uy (origin r)))%N_ (mk2 (ux (l_origin l') - ux (origin q)) (uy (l_origin l') - uy (origin q)))%N_)
    by (split; by apply fin_sub).
  assert (Hq2 : fin2 (mk2 (ux (l_dest l) - ux (origin r)) (uy (l_dest l) - uy (origin r)))%N_ (mk2 (ux (l_dest l') - ux (origin q)) (uy (l_dest l') - uy (origin q)))%N_)
    by (split; by apply fin_sub).
  revert Hs Hq Hq2. generalize (mk2 (ux (l_dest l) - ux (l_origin l)) (uy (l_dest l) - uy (l_origin l)))%N_ (mk2 (ux (l_dest l') - ux (l_origin l')) (uy (l_dest l') - uy (l_origin l')))%N_.
  generalize (mk2 (ux (l_origin l) - ux (origin r)) (uy (l_origin l) - uy (origin r)))%N_ (mk2 (ux (l_origin l') - ux (origin q)) (uy (l_origin l') - uy (origin q)))%N_.
  generalize (mk2 (ux (l_dest l) - ux (origin r)) (uy (l_dest l) - uy (origin r)))%N_ (mk2 (ux (l_dest l') - ux (origin q)) (uy (l_dest l') - uy (origin q)))%N_.
  intros z z' m m' s s' Hs Hq Hq2. cbv zeta.
  assert (Hp : forall a b a' b', fin2 a a' -> fin2 b b' -> is_fin (perp_dot a b) (perp_dot a' b')) by (intros a b a' b' [] []; apply fin_sub; by apply fin_mul).
  assert (Hd : fin2 (direction r) (direction q)) by done.
  pose proof (Hp _ _ _ _ Hd Hs) as H1. pose proof (Hp _ _ _ _ Hq Hd) as H2. pose proof (Hp _ _ _ _ Hq Hs) as H3.
  pose proof (fin_dot2 _ _ _ _ Hq Hd) as H4. pose proof (fin_dot2 _ _ _ _ Hq2 Hd) as H5.
  rewrite (neq_fin _ _ _ _ H1 fin_n0). change (neq (perp_dot (direction q) s') 0) with (neq (perp_dot (direction q) s') n0).
  destruct (neq (perp_dot (direction q) s') n0) eqn:E.
  - rewrite (neq_fin _ _ _ _ H2 fin_n0), (nle_fin _ _ _ _ H4 fin_n0), (nle_fin _ _ _ _ fin_n0 H5), (nle_fin _ _ _ _ fin_n0 H4), (nle_fin _ _ _ _ H5 fin_n0), (nle_fin _ _ _ _ H4 H5).
    change (0 : R) with (n0 : R). destruct (negb _); [done|]. destruct (_ || _); [done|]. destruct (_ && _); [|done]. by destruct (nle _ _).
  - assert (Hne : perp_dot (direction q) s' <> 0) by (intros E'; revert E; rewrite E'; cbn; by rewrite (proj2 (Reqb_true 0 0))).
    assert (Ht : is_fin (perp_dot m s / perp_dot (direction r) s)%N_ (perp_dot m' s' / perp_dot (direction q) s')%N_) by by apply fin_div.
    assert (Hu : is_fin (perp_dot m (direction r) / perp_dot (direction r) s)%N_ (perp_dot m' (direction q) / perp_dot (direction q) s')%N_) by by apply fin_div.
    rewrite (nle_fin _ _ _ _ fin_n0 Ht), (nle_fin _ _ _ _ fin_n0 Hu), (nle_fin _ _ _ _ Hu fin_n1). change (0 : R) with (n0 : R). change (1 : R) with (n1 : R).
    destruct (_ && _); [|done]. split; apply fin_add; try done; by apply fin_mul.
Qed.
Lemma polygon_same vs vs' r q : Forall2 fin2 vs vs' -> fin_ray2 r q ->
  match polygon_ray vs r, polygon_ray vs' q with Ok a, Ok b => same fin2 a b | Panic, Panic => True | _, _ => False end.
Proof.
  intros Hv Hr. pose proof (Forall2_length _ _ _ Hv) as Hlen. unfold polygon_ray. rewrite <- Hlen. destruct (decide _); [done|].
  induction (seq 0 (length vs - 1)) as [|j js IH]; [done|]. cbn [poly_ray_loop].
  unfold poly_edge, poly_prev. rewrite <- Hlen. set (i := if decide (j = 0%nat) then _ else _). clearbody i.
  destruct (vs !! i) as [a|] eqn:Ea; [destruct (Forall2_lookup_l _ _ _ _ _ Hv Ea) as (a' & -> & Fa)|].
  2:{ apply lookup_ge_None in Ea. rewrite Hlen in Ea. apply lookup_ge_None in Ea. by rewrite Ea. }
  destruct (vs !! j) as [b|] eqn:Eb; [destruct (Forall2_lookup_l _ _ _ _ _ Hv Eb) as (b' & -> & Fb)|].
  2:{ apply lookup_ge_None in Eb. rewrite Hlen in Eb. apply lookup_ge_None in Eb. by rewrite Eb. }
  assert (Hn : fin2 (poly_normal a b) (poly_normal a' b')) by (destruct Fa, Fb; split; by apply fin_sub).
  destruct Hr as [Ho Hd]. rewrite (nlt_fin _ _ _ _ (fin_dot2 _ _ _ _ Hd Hn) fin_n0). change (0 : R) with (n0 : R). destruct (nlt _ _); [|done].
  pose proof (line_same (mkLine a b) (mkLine a' b') r q Fa Fb (conj Ho Hd)) as Hs. destruct (ray_line2 r _), (ray_line2 q _); try done.
Qed.

(** ** Moving a primitive *)
Section moved.
  Context {X V : Type} (fin : X -> V -> Prop) (along : Ray V -> R -> V).
  Context (T : Xf X) (T' : Xf V) (Ti' : (V -> V) * (V -> V)).
  Context (HT : xf_fin fin T T') (Hinv : xf_inv T' = Some Ti') (Hl : forall x, xf_pt T' (Ti'.1 x) = x) (Hr : forall x, Ti'.1 (xf_pt T' x) = x).
  Context (Hal : forall r t, Ti'.1 (along r t) = along (ray_xf Ti' r) t).
  Context (r : Ray X) (q : Ray V) (Ho : fin (origin r) (origin q)) (Hd : fin (direction r) (direction q)).
  Lemma moved_hit A (hit : Ray X -> res (option X)) :
    (forall l, fin (origin l) (origin (ray_xf Ti' q)) -> fin (direction l) (direction (ray_xf Ti' q)) -> answers fin (along (ray_xf Ti' q)) A (hit l)) ->
    answers fin (along q) (world T' A) (intersection_transformed hit r T).
  Proof.
    intros Hh. unfold intersection_transformed. destruct HT as [HTp HTi]. rewrite Hinv in HTi. destruct (xf_inv T) as [Ti|]; [|done]. destruct HTi as [H1 H2].
    specialize (Hh (ray_xf Ti r) (H1 _ _ Ho) (H2 _ _ Hd)).
    destruct (hit (ray_xf Ti r)) as [[x|]| |]; cbn [answers mbind res_mbind res_bind option_map] in *; try done.
    - destruct Hh as (p & Hf & t & Ht & -> & HA & Hfirst). exists (along q t).
      assert (E : xf_pt T' (along (ray_xf Ti' q) t) = along q t) by (by rewrite <- Hal, Hl).
      split; [rewrite <- E; by apply HTp|]. exists t. split; [done|]. split; [done|].
      split; [by apply (world_along along T' Ti')|]. intros s Hs Hw%(world_along along T' Ti'); [|done..]. by apply (Hfirst s).
    - intros (t & Ht & Hw%(world_along along T' Ti')); [|done..]. apply Hh. by exists t.
  Qed.
  Lemma moved_test A (test : Ray X -> res bool) :
    (forall l, fin (origin l) (origin (ray_xf Ti' q)) -> fin (direction l) (direction (ray_xf Ti' q)) -> meets_answer (along (ray_xf Ti' q)) A (test l)) ->
    meets_answer (along q) (world T' A) (intersects_transformed test r T).
  Proof.
    intros Hh. unfold intersects_transformed. destruct HT as [HTp HTi]. rewrite Hinv in HTi. destruct (xf_inv T) as [Ti|]; [|done]. destruct HTi as [H1 H2].
    destruct (Hh (ray_xf Ti r) (H1 _ _ Ho) (H2 _ _ Hd)) as (b & E & Hb). exists b. split; [done|]. rewrite Hb.
    split; intros (t & Ht & Hm); exists t; (split; [done|]); by apply (world_along along T' Ti').
  Qed.
End moved.

(** ** In the frame of the primitive *)
Lemma test_of_hit {X V} (fin : X -> V -> Prop) along A (o : option X) (b : bool) :
  answers fin along A (Ok o) -> (b = true <-> is_Some o) -> meets_answer along A (Ok b).
Proof.
  intros Ha Hb. exists b. split; [done|]. rewrite Hb. destruct o as [x|]; cbn in Ha.
  - destruct Ha as (p & _ & Hf). split; [intros _; by eapply ray_first_meets|eauto].
  - split; [by intros []|done].
Qed.
Lemma box_answers {X V} (fin : X -> V -> Prop) (along : R -> V) A (o : option X) :
  match o with Some p => exists p', fin p p' /\ ray_first along A p' | None => ~ ray_meets along A end -> answers fin along A (Ok o).
Proof. by destruct o. Qed.
Lemma line_answer l r : direction r <> zero2 -> first_answer (along2 r) (seg_set l) (Ok (ray_line2 r l)).
Proof.
  intros Hd. pose proof (C37_ray_segment_exact r l Hd) as Hl. cbn [first_answer].
  assert (Hs : forall x, on_seg2 l x <-> seg_set l x) by done.
  destruct (ray_line2 r l) as [x|].
  - destruct Hl as (t & Ht & -> & Hx & Hf). exists t. split; [done|]. split; [apply along2_add|]. split; [by apply Hs|].
    intros s Hs' Hm. assert (t <= s); [|lra]. apply Hf; [lra|]. unfold ray2_at. rewrite along2_add. by apply Hs.
  - intros (t & Ht & Hm). apply (Hl t Ht). unfold ray2_at. rewrite along2_add. by apply Hs.
Qed.
Section local2.
  Context (releq : xr -> xr -> bool) (p : Primitive2 xr) (p' : Primitive2 R) (r : Ray (V2 xr)) (q : Ray P2).
  Context (Hp : prim2_fin p p') (Hr : fin_ray2 r q) (Hd : direction q <> zero2) (Hg : good_ray2 p' q).
  Lemma local2 : answers fin2 (along2 q) (prim2_set p') (prim2_ray releq p r) /\ meets_answer (along2 q) (prim2_set p') (prim2_ray_test releq p r).
  Proof.
    destruct p as [ |l|rad|d|s|vs], p' as [ |l'|rd|d'|s'|vs']; try done; cbn [prim2_set prim2_ray prim2_ray_test good_ray2] in *.
    - destruct Hp as [Ha Hb]. assert (Ha' : answers fin2 (along2 q) (seg_set l') (Ok (ray_line2 r l))).
      { eapply same_answers; [|by apply line_answer]. by apply line_same. }
      split; [done|]. eapply test_of_hit; [done|apply bool_decide_eq_true].
    - destruct Hg as [Hu Ho]. destruct (circle_same rad rd r q Hp Hr) as [Et Hs]. destruct (circle_answer rd q Hu Ho) as [Ha Hm].
      split; [by apply (same_answers fin2 _ _ (Ok _) (Ok (circle_ray rd q)))|]. by rewrite Et.
    - destruct Hg as (Hge & Hs & Ho). assert (Ha : answers fin2 (along2 q) (rect_set d') (Ok (rect_ray d r))).
      { apply box_answers. by apply (C49_rectangle_hit_outside r q d d'). }
      split; [done|]. eapply test_of_hit; [done|]. apply C49_rectangle_test_agrees.
    - destruct Hg as (Hge & Hs & Ho). assert (Hd2 : fin2 (square_dim s) (mk2 s' s')) by done.
      assert (Hge2 : ge2 (mk2 s' s')) by done.
      assert (Ha : answers fin2 (along2 q) (rect_set (mk2 s' s')) (Ok (rect_ray (square_dim s) r))).
      { apply box_answers. by apply (C49_rectangle_hit_outside r q _ (mk2 s' s')). }
      split; [done|]. eapply test_of_hit; [done|]. apply C49_rectangle_test_agrees.
    - destruct Hg as (Hcv & Ho & Hlast). pose proof (polygon_same vs vs' r q Hp Hr) as Hs.
      assert (Ha : first_answer (along2 q) (hull2 vs') (polygon_ray vs' q)).
      { pose proof (C50_polygon_ray_from_outside vs' Hcv q Hd Ho) as Hx. destruct (polygon_ray vs' q) as [[x|]| |]; try done.
        destruct Hx as [Hx|(x & Hf & Hx)]; [done|]. by destruct (Hlast x Hf). }
      assert (Ha' : answers fin2 (along2 q) (hull2 vs') (polygon_ray vs r)).
      { eapply same_answers; [|exact Ha]. destruct (polygon_ray vs r) as [| |], (polygon_ray vs' q) as [| |]; done. }
      split; [done|]. unfold polygon_ray_test. destruct (polygon_ray vs r) as [o| |]; try done. cbn [mbind res_mbind res_bind].
      eapply test_of_hit; [done|apply bool_decide_eq_true].
  Qed.
End local2.
(** A point is only reported when the test succeeds. *)
Lemma cyl_hit_test r q hx rad hh rd x : fin_ray3 r q -> is_fin hx hh -> is_fin rad rd -> 0 <= hh -> vx (direction q) <> 0 \/ vz (direction q) <> 0 ->
  cylinder_ray hx rad r = Some x -> cylinder_ray_test hx rad r = true.
Proof.
  intros Hr Hh Hrad Hh0 Hd E. apply level_pos in Hd. pose proof (hit_char r q hx rad hh rd Hr Hh Hrad Hh0 Hd) as Hc. rewrite E in Hc.
  apply (test_char r q hx rad hh rd Hr Hh Hrad Hd). destruct Hc as (u1 & u2 & Hro & Hu & Hor). exists u1, u2. split; [done|]. split; [done|]. tauto.
Qed.
Section local3.
  Context (releq : xr -> xr -> bool) (p : Primitive3 xr) (p' : Primitive3 R) (r : Ray (V3 xr)) (q : Ray P3).
  Context (Hp : prim3_fin p p') (Hr : fin_ray3 r q) (Hd : direction q <> zero3) (Hg : good_ray3 p' q).
  Lemma local3 : answers fin3 (along3 q) (prim3_set p') (prim3_ray releq p r) /\ meets_answer (along3 q) (prim3_set p') (prim3_ray_test releq p r).
  Proof.
    destruct p as [ |d|rad|d|s|h rad|h rad|vs], p' as [ |d'|rd|d'|s'|hh rd|hh rd|vs']; try (exfalso; exact Hp); try (exfalso; exact Hg); cbn [prim3_set prim3_ray prim3_ray_test good_ray3 prim3_fin] in *.
    - destruct Hg as (Hge & Hs & Ho). assert (Ha : answers fin3 (along3 q) (quad_set d') (Ok (quad_ray d r))).
      { apply box_answers. by apply (C49_quad_hit r q d d'). }
      split; [done|]. eapply test_of_hit; [done|]. by apply (C49_quad_test_agrees r q d d').
    - destruct Hg as [Hu Ho]. destruct (sphere_same rad rd r q Hp Hr) as [Et Hs]. destruct (sphere_answer rd q Hu Ho) as [Ha Hm].
      split; [by apply (same_answers fin3 _ _ (Ok _) (Ok (psphere_ray rd q)))|]. by rewrite Et.
    - destruct Hg as (Hge & Hs & Ho). assert (Ha : answers fin3 (along3 q) (box_set d') (Ok (cuboid_ray d r))).
      { apply box_answers. by apply (C49_cuboid_hit_outside r q d d'). }
      split; [done|]. eapply test_of_hit; [done|]. by apply (C49_cuboid_test_agrees r q d d').
    - destruct Hg as (Hge & Hs & Ho). assert (Hd2 : fin3 (cube_dim s) (mk3 s' s' s')) by done.
      assert (Hge2 : ge3 (mk3 s' s' s')) by done.
      assert (Ha : answers fin3 (along3 q) (box_set (mk3 s' s' s')) (Ok (cuboid_ray (cube_dim s) r))).
      { apply box_answers. by apply (C49_cuboid_hit_outside r q _ (mk3 s' s' s')). }
      split; [done|]. eapply test_of_hit; [done|]. by apply (C49_cuboid_test_agrees r q _ (mk3 s' s' s')).
    - destruct Hp as [Hh Hrad], Hg as (Hh0 & Hax & Hcase).
      assert (Ha : answers fin3 (along3 q) (cylinder_set hh rd) (Ok (cylinder_ray h rad r))).
      { cbn [answers]. destruct Hcase as [[Ho Hen] | [Ho Hab]].
        - pose proof (C47_cylinder_hit_from_side r q h rad hh rd Hr Hh Hrad Hh0 Hax Ho) as Hc. destruct (cylinder_ray h rad r) as [x|].
          + destruct Hc as (x' & Hf & _ & Hx). eauto.
          + intros (t & Ht & Hm). destruct Hen as (x & Hx & Hy); [exists t; split; [done|apply Hm]|]. apply (Hc x Hx). split; [|done].
            destruct Hx as (t' & _ & -> & Htu & _). exact Htu.
        - apply (C47_cylinder_hit_from_above r q h rad hh rd); done. }
      split; [done|]. exists (cylinder_ray_test h rad r). split; [done|]. split.
      + by apply (C47_cylinder_test_sound r q h rad hh rd).
      + intros Hm. destruct (cylinder_ray h rad r) as [x|] eqn:E; [by apply (cyl_hit_test r q h rad hh rd x)|done].
    - destruct Hp as [Hh Hrad], Hg as (Hh0 & Hrd & Hu & Hout & Hcase). split; [|eexists; split; [done|by apply (C48_capsule_test_exact r q h rad hh rd)]].
      cbn [answers]. destruct Hcase as [[Ho Hen] | [Ho (x & Hx)]].
      + pose proof (C48_capsule_hit_from_side r q h rad hh rd) as Hc. destruct (capsule_ray h rad r) as [x|].
        * destruct Hc as (x' & Hf & Htu & _ & Hx); [done..|]. exists x'. split; [done|]. apply Hx.
          destruct Hen as (x2 & Hx2 & Hy); [by eapply ray_first_meets|]. by rewrite (ray_first_unique _ _ _ _ Htu Hx2).
        * intros (t & Ht & Hm). destruct Hen as (x & Hx & Hy).
          { exists t. split; [done|]. destruct Hm as (k & Hk & Hm). unfold tube. pose proof (Rle_0_sqr (vy (along3 q t) - k)) as Hsq. unfold Rsqr in Hsq. lra. }
          assert (hh + rd < Rabs (vy x)) by (apply Hc; done). assert (Rabs (vy x) <= hh) by (by apply Rabs_le). lra.
      + destruct (C48_capsule_hit_from_ends r q h rad hh rd) with (p' := x) as (y & -> & Hf); try done. eauto.
  Qed.
End local3.
Lemma local_dir2 T Ti r : inverse2 T Ti -> direction r <> zero2 -> direction (ray_xf Ti r) <> zero2.
Proof.
  intros (Hi & Hl & Hr & Hal) Hd Ez. apply Hd. pose proof (Hal r 1) as H1. pose proof (Hal r 0) as H0.
  assert (E01 : along2 (ray_xf Ti r) 1 = along2 (ray_xf Ti r) 0). { unfold along2. rewrite Ez. unfold zero2. cbn. f_equal; ring. }
  rewrite <- H1, <- H0 in E01. apply (f_equal (xf_pt T)) in E01. rewrite !Hl in E01. unfold along2 in E01.
  pose proof (f_equal ux E01) as Ex. pose proof (f_equal uy E01) as Ey. cbn in Ex, Ey. apply V2_eq; cbn; lra.
Qed.
Lemma local_dir3 T Ti r : inverse3 T Ti -> direction r <> zero3 -> direction (ray_xf Ti r) <> zero3.
Proof.
  intros (Hi & Hl & Hr & Hal) Hd Ez. apply Hd. pose proof (Hal r 1) as H1. pose proof (Hal r 0) as H0.
  assert (E01 : along3 (ray_xf Ti r) 1 = along3 (ray_xf Ti r) 0). { unfold along3. rewrite Ez. unfold zero3. cbn. f_equal; ring. }
  rewrite <- H1, <- H0 in E01. apply (f_equal (xf_pt T)) in E01. rewrite !Hl in E01. unfold along3 in E01.
  pose proof (f_equal vx E01) as Ex. pose proof (f_equal vy E01) as Ey. pose proof (f_equal vz E01) as Ez'. cbn in Ex, Ey, Ez'. apply V3_eq; cbn; lra.
Qed.
(** * The theorems *)
Theorem C58_primitive2 releq p p' T T' Ti' r q :
  prim2_fin p p' -> xf_fin fin2 T T' -> inverse2 T' Ti' -> fin_ray2 r q -> direction q <> zero2 -> good_ray2 p' (ray_xf Ti' q) ->
  answers fin2 (along2 q) (world T' (prim2_set p')) (intersection_transformed (prim2_ray releq p) r T) /\
  meets_answer (along2 q) (world T' (prim2_set p')) (intersects_transformed (prim2_ray_test releq p) r T).
Proof.
  intros Hp HT Hi [Ho Hd] Hnz Hg. pose proof (local_dir2 _ _ _ Hi Hnz) as Hnz'. pose proof Hi as (Hi1 & Hi2 & Hi3 & Hi4).
  split; [apply (moved_hit fin2 along2 T T' Ti'); try done|apply (moved_test fin2 along2 T T' Ti'); try done]; intros l Hl1 Hl2; by apply (local2 releq p p' l _ Hp).
Qed.
Theorem C58_primitive3 releq p p' T T' Ti' r q :
  prim3_fin p p' -> xf_fin fin3 T T' -> inverse3 T' Ti' -> fin_ray3 r q -> direction q <> zero3 -> good_ray3 p' (ray_xf Ti' q) ->
  answers fin3 (along3 q) (world T' (prim3_set p')) (intersection_transformed (prim3_ray releq p) r T) /\
  meets_answer (along3 q) (world T' (prim3_set p')) (intersects_transformed (prim3_ray_test releq p) r T).
Proof.
  intros Hp HT Hi [Ho Hd] Hnz Hg. pose proof (local_dir3 _ _ _ Hi Hnz) as Hnz'. pose proof Hi as (Hi1 & Hi2 & Hi3 & Hi4).
  split; [apply (moved_hit fin3 along3 T T' Ti'); try done|apply (moved_test fin3 along3 T T' Ti'); try done]; intros l Hl1 Hl2; by apply (local3 releq p p' l _ Hp).
Qed.
(** The transforms of the crate: finite numbers in, finite numbers out. *)
Lemma f_add2 a b a' b' : fin2 a a' -> fin2 b b' -> fin2 (add2 a b) (add2 a' b').
Proof. intros [] []. split; by apply fin_add. Qed.
Lemma f_add3 a b a' b' : fin3 a a' -> fin3 b b' -> fin3 (add3 a b) (add3 a' b').
Proof. intros (?&?&?) (?&?&?). split; [|split]; by apply fin_add. Qed.
Lemma f_scale2 a s a' s' : fin2 a a' -> is_fin s s' -> fin2 (scale2 a s) (scale2 a' s').
Proof. intros [] ?. split; by apply fin_mul. Qed.
Lemma f_scale3 a s a' s' : fin3 a a' -> is_fin s s' -> fin3 (scale3 a s) (scale3 a' s').
Proof. intros (?&?&?) ?. split; [|split]; by apply fin_mul. Qed.
Lemma f_cross a b a' b' : fin3 a a' -> fin3 b b' -> fin3 (cross3 a b) (cross3 a' b').
Proof. intros (?&?&?) (?&?&?). split; [|split]; apply fin_sub; by apply fin_mul. Qed.
Definition fin_m2 (m : M2 (S:=xr)) (m' : M2 (S:=R)) : Prop := fin2 (m2_x m) (m2_x m') /\ fin2 (m2_y m) (m2_y m').
Definition fin_quat (q : Quat (S:=xr)) (q' : Quat (S:=R)) : Prop := is_fin (q_s q) (q_s q') /\ fin3 (q_v q) (q_v q').
Lemma f_m2 m m' v v' : fin_m2 m m' -> fin2 v v' -> fin2 (m2_mul m v) (m2_mul m' v').
Proof. intros [[] []] []. split; apply fin_add; by apply fin_mul. Qed.
Lemma f_m2_inv m m' : fin_m2 m m' -> m2_det m' <> 0 -> fin_m2 (m2_invert m) (m2_invert m').
Proof.
  intros [[] []] Hd. assert (Hf : is_fin (m2_det m) (m2_det m')) by (apply fin_sub; by apply fin_mul).
  split; split; apply fin_div; try done; by apply fin_neg.
Qed.
Lemma f_quat q q' v v' : fin_quat q q' -> fin3 v v' -> fin3 (quat_rot q v) (quat_rot q' v').
Proof.
  intros [Hs Hv] Hf. apply f_add3; [|done]. apply f_scale3; [|apply fin_add; apply fin_n1].
  apply f_cross; [done|]. apply f_add3; [by apply f_cross|by apply f_scale3].
Qed.
Lemma f_quat_inv q q' : fin_quat q q' -> unit_quat q' -> fin_quat (quat_invert q) (quat_invert q').
Proof.
  intros [Hs Hv] Hu. assert (Hf : is_fin (quat_mag2 q) (quat_mag2 q')) by (apply fin_add; [by apply fin_mul|by apply fin_dot3]).
  assert (Hn : quat_mag2 q' <> 0) by (unfold unit_quat in Hu; rewrite Hu; lra).
  destruct Hv as (?&?&?). split; [by apply fin_div|]. split; [|split]; (apply fin_div; [done| |done]; by apply fin_neg).
Qed.
Theorem C58_decomposed2_finite eps eps' s s' rot rot' disp disp' : is_fin eps eps' -> is_fin s s' -> fin_m2 rot rot' -> fin2 disp disp' ->
  0 <= eps' -> m2_det rot' <> 0 -> xf_fin fin2 (decomposed2 eps s rot disp) (decomposed2 eps' s' rot' disp').
Proof.
  intros He Hs Hm Hd He0 Hdet. pose proof (f_m2_inv _ _ Hm Hdet) as Hmi. split.
  - intros x p Hx. apply f_add2; [|done]. apply f_m2; [done|]. by apply f_scale2.
  - cbn [xf_inv decomposed2]. unfold near0. change (nabs s) with (xabs s). rewrite (nle_fin _ _ _ _ (fin_abs _ _ Hs) He). change (nabs s') with (Rabs s'). destruct (nle (Rabs s') eps') eqn:E; [done|].
    assert (Hs0 : s' <> 0). { intros ->. revert E. change (nle (Rabs 0) eps') with (Rleb (Rabs 0) eps'). rewrite Rabs_R0. rewrite (proj2 (Rleb_true _ _)); done. }
    assert (Hsi : is_fin (ndiv n1 s) (ndiv n1 s')) by (apply fin_div; [done|apply fin_n1|done]).
    split; intros x p Hx; cbn [fst snd].
    + apply f_add2; [by apply f_m2, f_scale2|]. apply f_scale2; [by apply f_m2|by apply fin_neg].
    + by apply f_m2, f_scale2.
Qed.
Theorem C58_decomposed3_finite eps eps' s s' rot rot' disp disp' : is_fin eps eps' -> is_fin s s' -> fin_quat rot rot' -> fin3 disp disp' ->
  0 <= eps' -> unit_quat rot' -> xf_fin fin3 (decomposed3 eps s rot disp) (decomposed3 eps' s' rot' disp').
Proof.
  intros He Hs Hm Hd He0 Hdet. pose proof (f_quat_inv _ _ Hm Hdet) as Hmi. split.
  - intros x p Hx. apply f_add3; [|done]. apply f_quat; [done|]. by apply f_scale3.
  - cbn [xf_inv decomposed3]. unfold near0. change (nabs s) with (xabs s). rewrite (nle_fin _ _ _ _ (fin_abs _ _ Hs) He). change (nabs s') with (Rabs s'). destruct (nle (Rabs s') eps') eqn:E; [done|].
    assert (Hs0 : s' <> 0). { intros ->. revert E. change (nle (Rabs 0) eps') with (Rleb (Rabs 0) eps'). rewrite Rabs_R0. rewrite (proj2 (Rleb_true _ _)); done. }
    assert (Hsi : is_fin (ndiv n1 s) (ndiv n1 s')) by (apply fin_div; [done|apply fin_n1|done]).
    split; intros x p Hx; cbn [fst snd].
    + apply f_add3; [by apply f_quat, f_scale3|]. apply f_scale3; [by apply f_quat|by apply fin_neg].
    + by apply f_quat, f_scale3.
Qed.
(** A polyhedron without faces panics on every ray. *)
Theorem C58_polyhedron_without_faces_panics {S} `{Num S} `{NumInf S} releq vs (T : Xf (V3 S)) r :
  intersection_transformed (prim3_ray releq (ConvexPolyhedron vs)) r T = Panic /\
  intersects_transformed (prim3_ray_test releq (ConvexPolyhedron vs)) r T = Panic.
Proof. unfold intersection_transformed, intersects_transformed. destruct (xf_inv T) as [Ti|]; done. Qed.
(** Solids with faces (over the reals; the arm of the enum calls the polyhedron). *)
Lemma solid_first eps vs fs p q : 0 <= eps -> poly_new_faces eps vs fs = Ok p -> solid_mesh vs fs -> direction q <> zero3 ->
  ~ hull3 vs (origin q) -> ray_meets (along3 q) (hull3 vs) -> exists x, ray_first (along3 q) (hull3 vs) x /\ forall t, t < 0 -> ~ hull3 vs (along3 q t).
Proof.
  intros Heps Hp Hsm Hd Hout (t & Ht & Hh). destruct (new_faces_ok eps Heps vs fs p Hp) as (Hok & s & hfs & Ep & Hb). pose proof (Hok' eps Heps vs fs Hok) as Hk.
  destruct (entry vs fs Hk Hsm _ _ Hh Hd) as (f & Hf & Hen). destruct (enters_point vs f _ _ Hen) as (s0 & _ & Hin).
  assert (Ea : add3 (along3 q t) (scale3 (direction q) s0) = along3 q (t + s0)) by (unfold along3; generalize (origin q), (direction q); clear; intros; apply V3_eq; rv0; ring).
  rewrite Ea in Hin. pose proof (tri_hull vs fs Hk f _ Hf Hin) as Hh'.
  assert (Hneg : forall x, x <= 0 -> ~ hull3 vs (along3 q x)).
  { intros x Hx Hhx. apply Hout. assert (0 < t).
    { destruct Ht as [|<-]; [done|]. exfalso. apply Hout. by rewrite along3_zero in Hh. }
    replace (origin q) with (add3 (scale3 (along3 q x) (1 - (- x) / (t - x))) (scale3 (along3 q t) ((- x) / (t - x)))).
    - apply hull3_mix; [done|done|]. assert (0 < / (t - x)) by (apply Rinv_0_lt_compat; lra). assert ((t - x) * / (t - x) = 1) by (apply Rinv_r; lra).
      unfold Rdiv. split; nra.
    - assert (Hne : t - x <> 0) by lra. apply V3_eq; unfold along3; rv0; field; done. }
  assert (0 <= t + s0). { destruct (Rlt_dec (t + s0) 0) as [Hlt|]; [|lra]. destruct (Hneg (t + s0)); [lra|done]. }
  destruct (hits_front vs q f) as (t' & (Hn & Ht' & _) & Hin'); [split; [apply Hen|]; eauto|].
  exists (along3 q t'). split; [|intros x Hx; apply Hneg; lra]. exists t'. split; [done|]. split; [done|]. split; [by eapply (tri_hull vs fs Hk f)|].
  intros x Hx Hhx. pose proof (shield eps Heps vs fs Hok q f t' x Hsm Hf Hn Hin' Hhx). lra.
Qed.
Theorem C58_polyhedron_with_faces eps vs fs p T Ti q fuel : 0 <= eps -> poly_new_faces eps vs fs = Ok p ->
  solid_mesh vs fs -> (length fs < 10)%nat \/ strictly_convex vs fs -> (length fs < fuel)%nat -> fs <> [] ->
  inverse3 T Ti -> direction q <> zero3 -> ~ world T (hull3 vs) (origin q) ->
  first_answer (along3 q) (world T (hull3 vs)) (intersection_transformed (polyhedron_ray fuel p) q T) /\
  meets_answer (along3 q) (world T (hull3 vs)) (intersects_transformed (polyhedron_ray_test fuel p) q T).
Proof.
  intros Heps Hp Hsm Hcase Hfu Hne Hi Hd Ho. pose proof (local_dir3 _ _ _ Hi Hd) as Hd'. pose proof Hi as (Hi1 & Hi2 & Hi3 & Hi4).
  assert (Ho' : ~ hull3 vs (origin (ray_xf Ti q))).
  { intros Hh. apply Ho. exists (origin (ray_xf Ti q)). split; [done|]. symmetry. apply Hi2. }
  destruct (C55_terminates eps Heps vs fs p (ray_xf Ti q) fuel Hp Hne Hfu) as (o & Eo & Et).
  assert (Ha : first_answer (along3 (ray_xf Ti q)) (hull3 vs) (polyhedron_ray fuel p (ray_xf Ti q))).
  { rewrite Eo. destruct o as [x|].
    - by destruct (C55_sound eps Heps vs fs p (ray_xf Ti q) fuel Hp x Hsm Eo).
    - intros Hm. destruct (solid_first eps vs fs p (ray_xf Ti q) Heps Hp Hsm Hd' Ho' Hm) as (x & Hx).
      apply (C55_exact eps Heps vs fs p (ray_xf Ti q) fuel Hp x Hsm Hcase Hd' Hfu) in Hx. congruence. }
  split; [by apply (C51_transformed_hit3 T Ti)|apply (C51_transformed_test3 T Ti); [done|]].
  rewrite Et. eexists. split; [done|]. rewrite bool_decide_eq_true. rewrite Eo in Ha. destruct o as [x|]; cbn in Ha.
  - split; [intros _; by eapply ray_first_meets|eauto].
  - split; [by intros []|done].
Qed.
(** A particle at rest is one point: reported exactly when the ray, of unit length, comes
    within the tolerance of [relative_eq] of it, beyond its start; the answer is where the
    particle is. *)
Theorem C58_particle3 eps mr T Ti q : 0 <= eps -> 0 <= mr -> inverse3 T Ti -> mag3 (direction (ray_xf Ti q)) = 1 ->
  let l := ray_xf Ti q in let t := - dot3 (origin l) (direction l) in
  exists o, intersection_transformed (prim3_ray (rel_eq eps mr) Particle3) q T = Ok o /\
    intersects_transformed (prim3_ray_test (rel_eq eps mr) Particle3) q T = Ok (bool_decide (is_Some o)) /\
    (forall x, o = Some x -> x = xf_pt T zero3) /\
    (is_Some o <-> 0 < t /\ dot3 (along3 l t) (along3 l t) <= Rmax eps (mr * dot3 (origin l) (origin l))).
Proof.
  intros He Hm (Hi & _) Hu l t. unfold intersection_transformed, intersects_transformed. rewrite Hi. fold l. cbn [prim3_ray prim3_ray_test mbind res_mbind res_bind].
  unfold particle3_ray. pose proof (C37_point_ray3_within_tolerance eps mr zero3 l He Hm Hu) as Hp. cbv zeta in Hp. unfold particle3_ray_test.
  replace (dot3 (sub3 zero3 (origin l)) (direction l)) with t in Hp by (unfold t; generalize (origin l), (direction l); clear; intros; unfold zero3; rv0; ring).
  replace (dist2_3 (ray3_at l t) zero3) with (dot3 (along3 l t) (along3 l t)) in Hp
    by (unfold ray3_at; rewrite along3_add; generalize (along3 l t); clear; intros; unfold zero3; rv0; ring).
  replace (dist2_3 (origin l) zero3) with (dot3 (origin l) (origin l)) in Hp by (generalize (origin l); clear; intros; unfold zero3; rv0; ring).
  destruct (pt_ray3_test (rel_eq eps mr) zero3 l); eexists; (split; [done|]); (split; [done|]); cbn [option_map].
  - split; [by intros x [= <-]|]. rewrite <- Hp. split; [done|]. intros _. by eexists.
  - split; [done|]. rewrite <- Hp. split; [by intros []|done].
Qed.
Theorem C58_particle2 {HI : NumInf R} eps mr T Ti q : 0 <= eps -> 0 <= mr -> inverse2 T Ti -> mag2 (direction (ray_xf Ti q)) = 1 ->
  let l := ray_xf Ti q in let t := - dot2 (origin l) (direction l) in
  exists o, intersection_transformed (prim2_ray (rel_eq eps mr) Particle2) q T = Ok o /\
    intersects_transformed (prim2_ray_test (rel_eq eps mr) Particle2) q T = Ok (bool_decide (is_Some o)) /\
    (forall x, o = Some x -> x = xf_pt T zero2) /\
    (is_Some o <-> 0 < t /\ dot2 (along2 l t) (along2 l t) <= Rmax eps (mr * dot2 (origin l) (origin l))).
Proof.
  intros He Hm (Hi & _) Hu l t. unfold intersection_transformed, intersects_transformed. rewrite Hi. fold l. cbn [prim2_ray prim2_ray_test mbind res_mbind res_bind].
  unfold particle2_ray. pose proof (C37_point_ray2_within_tolerance eps mr zero2 l He Hm Hu) as Hp. cbv zeta in Hp. unfold particle2_ray_test.
  replace (dot2 (sub2 zero2 (origin l)) (direction l)) with t in Hp by (unfold t; generalize (origin l), (direction l); clear; intros; unfold zero2; rv0; ring).
  replace (dist2_2 (ray2_at l t) zero2) with (dot2 (along2 l t) (along2 l t)) in Hp
    by (unfold ray2_at; rewrite along2_add; generalize (along2 l t); clear; intros; unfold zero2; rv0; ring).
  replace (dist2_2 (origin l) zero2) with (dot2 (origin l) (origin l)) in Hp by (generalize (origin l); clear; intros; unfold zero2; rv0; ring).
  destruct (pt_ray2_test (rel_eq eps mr) zero2 l); eexists; (split; [done|]); (split; [done|]); cbn [option_map].
  - split; [by intros x [= <-]|]. rewrite <- Hp. split; [done|]. intros _. by eexists.
  - split; [done|]. rewrite <- Hp. split; [by intros []|done].
Qed.
(** The hypotheses are met: a cuboid and a cylinder moved by ten along x, seen from the left. *)
Definition id_quat {S} `{Num S} : Quat (S:=S) := mkQuat n1 zero3.
Definition shift3x (x : R) : Xf (V3 xr) := decomposed3 (XFin false (1/8388608)) (XFin false 1) id_quat (mk3 (XFin false x) n0 n0).
Definition shift3 (x : R) : Xf P3 := decomposed3 (1/8388608) 1 id_quat (mk3 x 0 0).
Lemma id_unit : unit_quat (id_quat (S:=R)).
Proof. unfold unit_quat, id_quat, quat_mag2, zero3. rv0. cbn [q_s q_v vx vy vz]. ring. Qed.
Lemma shift3_ok x : xf_fin fin3 (shift3x x) (shift3 x).
Proof.
  apply C58_decomposed3_finite; try (by eexists).
  - split; [by eexists|]. split; [|split]; by eexists.
  - split; [|split]; by eexists.
  - lra.
  - apply id_unit.
Qed.
Lemma shift3_inv x : exists Ti, inverse3 (shift3 x) Ti /\ forall r, ray_xf Ti r = mkRay (mk3 (vx (origin r) - x) (vy (origin r)) (vz (origin r))) (direction r).
Proof.
  destruct (C51_decomposed3_inverse (1/8388608) 1 id_quat (mk3 x 0 0)) as (Ti & HT & Hd); [lra|rewrite Rabs_R1; lra|apply id_unit|]. exists Ti. split; [done|].
  destruct HT as (Hi & Hl & Hr & Hal). cbn [shift3 decomposed3 xf_inv] in Hi. revert Hi. unfold near0. destruct (nle _ _); [done|]. intros [= <-] [o d].
  unfold ray_xf. cbn [fst snd origin direction]. clear Hl Hr Hal Hd.
  assert (Eq : forall v, quat_rot (quat_invert (id_quat (S:=R))) v = v).
  { intros v. unfold id_quat, quat_invert, quat_rot, quat_mag2. cbn [q_s q_v]. apply V3_eq; unfold zero3; rv0; cbn [vx vy vz]; field. }
  f_equal.
  - rewrite !Eq. apply V3_eq; rv0; cbn [vx vy vz]; field.
  - rewrite Eq. apply V3_eq; rv0; field.
Qed.
Example C58_hypotheses_met : let q := rray (-4) 1 0 2 (-1) 0 in exists Ti,
  prim3_fin (CuboidP (mk3 (xf 2) (xf 2) (xf 2))) (CuboidP (mk3 2 2 2)) /\ prim3_fin (CylinderP (xf 2) (xf 1)) (CylinderP 2 1) /\
  xf_fin fin3 (shift3x 10) (shift3 10) /\ inverse3 (shift3 10) Ti /\ fin_ray3 (xray q) q /\ direction q <> zero3 /\
  good_ray3 (CuboidP (mk3 2 2 2)) (ray_xf Ti (rray 0 0 0 1 0 0)) /\
  ray_meets (along3 (rray 0 0 0 1 0 0)) (world (shift3 10) (box_set (mk3 2 2 2))) /\
  good_ray3 (CylinderP 2 1) (ray_xf Ti (rray 0 1 0 1 0 0)) /\
  ray_meets (along3 (rray 0 1 0 1 0 0)) (world (shift3 10) (cylinder_set 2 1)).
Proof.
  intros q. destruct (shift3_inv 10) as (Ti & HT & Er). exists Ti. pose proof HT as (Hi1 & Hi2 & Hi3 & Hi4).
  split; [split; [|split]; by eexists|]. split; [split; by eexists|]. split; [apply shift3_ok|]. split; [done|].
  split; [split; (split; [|split]); by eexists|]. split; [intros E; injection E; lra|]. split_and!.
  - rewrite Er. unfold rray, good_ray3, ge3, skims_cuboid, skims1, box_set. cbn. lra.
  - exists 10. split; [lra|]. apply (world_along along3 _ Ti); try done. rewrite Er. unfold rray, along3, box_set. cbn. lra.
  - rewrite Er. unfold rray, good_ray3, by_side, tube, over_end. cbn. split; [lra|]. split; [left; lra|]. left. split; [lra|]. intros _.
    exists (mk3 (-1) 1 0). split; [|cbn; lra]. exists 9. split; [lra|]. split; [unfold along3; cbn; f_equal; lra|]. cbn. split; [lra|]. intros s Hs. nra.
  - exists 10. split; [lra|]. apply (world_along along3 _ Ti); try done. rewrite Er. unfold rray, along3, cylinder_set. cbn. lra.
Qed.
