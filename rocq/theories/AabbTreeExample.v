(** Concrete float trees: the hypotheses of C32-C33 are met, and what happens outside them. *)
From stdpp Require Import prelude gmap fin_maps fin_sets.
From Coq Require Import Reals Lra.
From Flocq Require Import IEEE754.BinarySingleNaN.
From Verif Require Import Res DbvtModel DbvtSpec PropsDbvt DbvtVisitors DbvtExample PropsRay BroadModel PropsBroad.
From Verif Require Import Num Vec AabbModel PropsAabb FloatMono AabbTree PropsAgree PropsAabbTree.

Lemma replay_legal_history {T B S} (O : dbvt_ops T B S) fuel ops a s :
  history O a s -> replay_legal O fuel ops a s = true ->
  exists a' s', replay O fuel ops a s = Some (a', s') /\ history O a' s'.
Proof.
  revert a s. induction ops as [|o ops IH]; simpl; intros a s Hh Hl; [eauto|].
  apply andb_true_iff in Hl as [Hl1 Hl2]. destruct (exec O fuel o s) as [[s1 out]| |] eqn:He; try done.
  apply IH; [|done]. eapply history_step; eauto. by apply legalb_legal.
Qed.

Local Instance num32 : Num f32 := Num_float 24 128.
Local Instance inf32 : NumInf f32 := NumInf_float 24 128.
Local Instance ord32 : NumOrd f32 := NumOrd_float 24 128.
(** Small integers and quarters as f32 literals. *)
Definition i32 (z : Z) : f32 := F32 z 0.
Definition q32 (z : Z) : f32 := F32 z (-2).
Definition third32 : f32 := (i32 3 / i32 10)%N_.
Definition box2i (a b c d : Z) : Aabb2 f32 := aabb2_new (mk2 (i32 a) (i32 b)) (mk2 (i32 c) (i32 d)).
Definition box3i (a b c d e f : Z) : Aabb3 f32 := aabb3_new (mk3 (i32 a) (i32 b) (i32 c)) (mk3 (i32 d) (i32 e) (i32 f)).
Notation T2 := (wrapped nat (Aabb2 f32) (V2 f32)).
Notation T3 := (wrapped nat (Aabb3 f32) (V3 f32)).
Notation O2 := (aabb2_ops nat third32).
Notation O3 := (aabb3_ops nat third32).
Definition run2 (ops : list (op T2)) : astate T2 * dbvt T2 (Aabb2 f32) :=
  default (astart, dbvt_new) (replay O2 100 ops astart dbvt_new).
Definition run3 (ops : list (op T3)) : astate T3 * dbvt T3 (Aabb3 f32) :=
  default (astart, dbvt_new) (replay O3 100 ops astart dbvt_new).
Lemma run2_history ops : replay_legal O2 100 ops astart dbvt_new = true -> history O2 (run2 ops).1 (run2 ops).2.
Proof.
  intros Hl. destruct (replay_legal_history O2 100 ops astart dbvt_new (history_new _) Hl) as (a & s & E & ?).
  unfold run2. by rewrite E.
Qed.
Lemma run3_history ops : replay_legal O3 100 ops astart dbvt_new = true -> history O3 (run3 ops).1 (run3 ops).2.
Proof.
  intros Hl. destruct (replay_legal_history O3 100 ops astart dbvt_new (history_new _) Hl) as (a & s & E & ?).
  unfold run3. by rewrite E.
Qed.

(** ** A 2D tree of five boxes with margin 1/4, after removals, updates and a tick. *)
Definition fat2 (k : nat) (b : Aabb2 f32) : T2 := Wrapped k b (mk2 (q32 1) (q32 1)).
Definition demo2 : list (op T2) :=
  [Insert (fat2 0 (box2i 0 0 1 1)); Insert (fat2 1 (box2i 4 0 6 1)); Insert (fat2 2 (box2i 0 5 1 8));
   Tick (fun _ => true); Insert (fat2 3 (box2i 2 2 5 5)); Insert (fat2 4 (box2i (-3) (-1) 0 2)); Remove 3;
   UpdateNode 5 (fat2 5 (box2i 3 0 9 1))].
Definition demo2_a := (run2 demo2).1.
Definition demo2_s := (run2 demo2).2.
Definition tick2 : dbvt T2 (Aabb2 f32) := match tick O2 100 (fun _ => true) demo2_s with Ok s => s | _ => dbvt_new end.
(** decidable forms of the hypotheses *)
Definition leb_f (x y : f32) : bool := nle x y.
Definition proper2b (v : T2) : bool :=
  is_finite (ux (min2 (w_bound v))) && is_finite (uy (min2 (w_bound v))) && is_finite (ux (max2 (w_bound v))) && is_finite (uy (max2 (w_bound v)))
  && is_finite (ux (w_margin v)) && is_finite (uy (w_margin v)) && leb_f n0 (ux (w_margin v)) && leb_f n0 (uy (w_margin v))
  && leb_f (ux (min2 (w_bound v))) (ux (max2 (w_bound v))) && leb_f (uy (min2 (w_bound v))) (uy (max2 (w_bound v))).
Lemma proper2b_ok v : proper2b v = true -> proper2 24 128 v /\ box2 (w_bound v).
Proof. unfold proper2b. rewrite !andb_true_iff. intros [[[[[[[[[? ?] ?] ?] ?] ?] ?] ?] ?] ?]. done. Qed.
Lemma map_forallb {V} (f : V -> bool) (P : V -> Prop) (m : gmap nat V) : (forall v, f v = true -> P v) ->
  forallb f (map_to_list m).*2 = true -> map_Forall (fun _ => P) m.
Proof.
  intros HP Hf h v Hv. apply HP. rewrite forallb_forall in Hf. apply Hf. apply elem_of_list_In, elem_of_list_fmap.
  exists (h, v). split; [done|]. by apply elem_of_map_to_list.
Qed.
Example C32_hypotheses_met :
  history O2 demo2_a demo2_s /\ legal demo2_a (@Tick T2 (fun _ => true)) /\ unflagged demo2_a = ∅
  /\ tick O2 100 (fun _ => true) demo2_s = Ok tick2
  /\ map_Forall (fun _ v => proper2 24 128 v /\ box2 (w_bound v)) (live demo2_a)
  /\ (match query O2 100 (discrete_visitor (fun b => intersects2 b (box2i 0 0 4 4))) tick2 () with Ok l => map w_value l.*1 | _ => [] end) = [3; 5; 0].
Proof.
  split; [|split; [|split; [|split; [|split]]]].
  - apply run2_history. vm_compute. done.
  - apply legalb_legal. vm_compute. done.
  - apply (bool_decide_eq_true_1 (unflagged demo2_a = ∅)). vm_compute. done.
  - unfold tick2. destruct (tick O2 100 (fun _ => true) demo2_s) eqn:E; [done|exfalso..].
    + assert (match tick O2 100 (fun _ => true) demo2_s with Panic => false | _ => true end = true) as Hn by (vm_compute; done). by rewrite E in Hn.
    + assert (match tick O2 100 (fun _ => true) demo2_s with OutOfFuel => false | _ => true end = true) as Hn by (vm_compute; done). by rewrite E in Hn.
  - apply (map_forallb proper2b); [apply proper2b_ok|]. vm_compute. done.
  - vm_compute. done.
Qed.

(** ** C33's hypotheses, a 3D tree and an oblique ray. *)
Definition fat3 (k : nat) (b : Aabb3 f32) : T3 := Wrapped k b (mk3 (q32 1) (q32 1) (q32 1)).
Definition demo3 : list (op T3) :=
  [Insert (fat3 0 (box3i 0 0 0 1 1 1)); Insert (fat3 1 (box3i 4 0 0 6 1 1)); Insert (fat3 2 (box3i 0 5 0 1 8 1));
   Insert (fat3 3 (box3i 2 2 2 5 5 5)); Remove 3; UpdateNode 5 (fat3 5 (box3i 3 3 3 4 4 4))].
Definition demo3_a := (run3 demo3).1.
Definition demo3_s := (run3 demo3).2.
Definition tick3 : dbvt T3 (Aabb3 f32) := match tick O3 100 (fun _ => true) demo3_s with Ok s => s | _ => dbvt_new end.
Definition oblique : Ray (V3 f32) := mkRay (mk3 (i32 (-1)) (i32 (-1)) (i32 (-1))) (mk3 (i32 1) (i32 1) (i32 1)).
Definition proper3b (v : T3) : bool :=
  let fin (p : V3 f32) := is_finite (vx p) && is_finite (vy p) && is_finite (vz p) in
  let le (p q : V3 f32) := leb_f (vx p) (vx q) && leb_f (vy p) (vy q) && leb_f (vz p) (vz q) in
  fin (min3 (w_bound v)) && fin (max3 (w_bound v)) && fin (w_margin v) && le zero3 (w_margin v) && le (min3 (w_bound v)) (max3 (w_bound v)).
Lemma proper3b_ok v : proper3b v = true -> proper3 24 128 v /\ box3 (w_bound v).
Proof.
  unfold proper3b. rewrite !andb_true_iff.
  intros [[[[[[? ?] ?] [[? ?] ?]] [[? ?] ?]] [[? ?] ?]] [[? ?] ?]]. unfold proper3, finite3, box3. split_and!; done.
Qed.
Lemma recip_one : recip_ok 24 128 (i32 1).
Proof.
  split; [vm_compute; done|].
  change (B2R (n1 / i32 1)%N_ <> 0%R). intros E.
  assert (Bcompare (n1 / i32 1)%N_ (n0 : f32) = Some Gt) as Hc by (vm_compute; done).
  rewrite Bcompare_correct in Hc by (vm_compute; done). rewrite Raux.Rcompare_Eq in Hc; [done|exact E].
Qed.
Example C33_hypotheses_met :
  history O3 demo3_a demo3_s /\ legal demo3_a (@Tick T3 (fun _ => true)) /\ unflagged demo3_a = ∅
  /\ tick O3 100 (fun _ => true) demo3_s = Ok tick3
  /\ map_Forall (fun _ v => proper3 24 128 v /\ box3 (w_bound v)) (live demo3_a)
  /\ finite3 24 128 (origin oblique)
  /\ (recip_ok 24 128 (vx (direction oblique)) /\ recip_ok 24 128 (vy (direction oblique)) /\ recip_ok 24 128 (vz (direction oblique)))
  /\ (match query_ray O3 (ray_aabb3 oblique) 100 tick3 with Ok l => map w_value l.*1 | _ => [] end) = [3; 5; 0].
Proof.
  split; [|split; [|split; [|split; [|split; [|split; [|split]]]]]].
  - apply run3_history. vm_compute. done.
  - apply legalb_legal. vm_compute. done.
  - apply (bool_decide_eq_true_1 (unflagged demo3_a = ∅)). vm_compute. done.
  - unfold tick3. destruct (tick O3 100 (fun _ => true) demo3_s) eqn:E; [done|exfalso..].
    + assert (match tick O3 100 (fun _ => true) demo3_s with Panic => false | _ => true end = true) as Hn by (vm_compute; done). by rewrite E in Hn.
    + assert (match tick O3 100 (fun _ => true) demo3_s with OutOfFuel => false | _ => true end = true) as Hn by (vm_compute; done). by rewrite E in Hn.
  - apply (map_forallb proper3b); [apply proper3b_ok|]. vm_compute. done.
  - vm_compute. done.
  - split_and!; apply recip_one.
  - vm_compute. done.
Qed.

(** ** Outside the hypotheses *)
(** C33 refuted for axis-parallel 3D rays: a flat box is hit by the ray test, but the ray query on a
    tree holding it and one other box (zero margins) does not report it: the bound of the branch
    above it has a face through the ray's origin, and the ray test misses that bound. *)
Definition zray : Ray (V3 f32) := mkRay (mk3 (i32 0) (i32 0) (i32 0)) (mk3 (i32 0) (i32 0) (i32 1)).
Definition flat_demo : list (op T3) :=
  [Insert (wrap3 nat 0 (box3i 0 (-1) 5 0 1 6)); Insert (wrap3 nat 1 (box3i 1 (-1) 5 2 1 6)); Tick (fun _ => false)].
Theorem C33_axis_parallel_ray_query3_refuted : exists a s h v,
  history O3 a s /\ refit_nodes s = [] /\ unflagged a = ∅ /\ map_Forall (fun _ v => proper3 24 128 v /\ box3 (w_bound v)) (live a)
  /\ live a !! h = Some v /\ is_Some (ray_aabb3 zray (w_bound v)) /\ query_ray O3 (ray_aabb3 zray) 100 s = Ok [].
Proof.
  assert (match live (run3 flat_demo).1 !! 1 with Some v => match ray_aabb3 zray (w_bound v) with Some _ => true | _ => false end | _ => false end = true)
    as Hv by (vm_compute; done).
  destruct (live (run3 flat_demo).1 !! 1) as [v|] eqn:E; [|done]. destruct (ray_aabb3 zray (w_bound v)) eqn:Er; [|done].
  exists (run3 flat_demo).1, (run3 flat_demo).2, 1, v.
  split; [apply run3_history; vm_compute; done|]. split; [vm_compute; done|].
  split; [apply (bool_decide_eq_true_1 (unflagged (run3 flat_demo).1 = ∅)); vm_compute; done|].
  split; [apply (map_forallb proper3b); [apply proper3b_ok|]; vm_compute; done|].
  split; [done|]. split; [rewrite Er; eauto|]. vm_compute. done.
Qed.
(** C32 refuted for a NaN coordinate: one value with a NaN bound hides its neighbour from queries. *)
Definition nan_box : Aabb2 f32 := mkAabb2 (mk2 B754_nan B754_nan) (mk2 B754_nan B754_nan).
Definition nan_demo : list (op T2) := [Insert (wrap2 nat 0 nan_box); Insert (wrap2 nat 1 (box2i 0 0 1 1)); Tick (fun _ => false)].
Theorem C32_nan_bound_hides_others_refuted : exists a s h v,
  history O2 a s /\ refit_nodes s = [] /\ unflagged a = ∅
  /\ live a !! h = Some v /\ proper2 24 128 v /\ intersects2 (w_bound v) (box2i 0 0 4 4) = true
  /\ query O2 100 (discrete_visitor (fun b => intersects2 b (box2i 0 0 4 4))) s () = Ok [].
Proof.
  assert (match live (run2 nan_demo).1 !! 3 with Some v => proper2b v && intersects2 (w_bound v) (box2i 0 0 4 4) | _ => false end = true)
    as Hv by (vm_compute; done).
  destruct (live (run2 nan_demo).1 !! 3) as [v|] eqn:E; [|done]. apply andb_true_iff in Hv as [Hv Hi].
  exists (run2 nan_demo).1, (run2 nan_demo).2, 3, v.
  split; [apply run2_history; vm_compute; done|]. split; [vm_compute; done|].
  split; [apply (bool_decide_eq_true_1 (unflagged (run2 nan_demo).1 = ∅)); vm_compute; done|].
  split; [done|]. split; [by apply proper2b_ok|]. split; [done|]. vm_compute. done.
Qed.
(** C13 on real boxes: the ray starts inside a wide box; the closest hit reported is not the nearest. *)
Definition xray : Ray (V2 f32) := mkRay (mk2 (i32 0) (i32 0)) (mk2 (i32 1) (i32 0)).
Definition along2 (r : Ray (V2 f32)) (p : V2 f32) : f32 := dot2 (sub2 p (origin r)) (direction r).
Definition near_box : T2 := wrap2 nat 0 (box2i 20 (-1) 30 1).
Definition far_box : T2 := wrap2 nat 1 (box2i 50 (-1) 60 1).
Definition wide_box : T2 := wrap2 nat 2 (box2i (-10) (-1) 55 1).
Definition closest2_demo : list (op T2) := [Insert near_box; Insert far_box; Insert wide_box; Tick (fun _ => false)].
Theorem C13_box_tree_origin_inside_refuted : exists a s h v v' p q,
  history O2 a s /\ refit_nodes s = [] /\ unflagged a = ∅ /\ map_Forall (fun _ v => proper2 24 128 v /\ box2 (w_bound v)) (live a)
  /\ live a !! h = Some v /\ ray_aabb2 xray (w_bound v) = Some p
  /\ query_ray_closest O2 (ray_aabb2 xray) (along2 xray) nlt ninf 100 s = Ok (Some (v', q))
  /\ nlt (along2 xray p) (along2 xray q) = true.
Proof.
  set (a := (run2 closest2_demo).1). set (s := (run2 closest2_demo).2).
  assert (match live a !! 1, query_ray_closest O2 (ray_aabb2 xray) (along2 xray) nlt ninf 100 s with
    Some v, Ok (Some (v', q)) => match ray_aabb2 xray (w_bound v) with Some p => nlt (along2 xray p) (along2 xray q) | _ => false end | _, _ => false end = true)
    as Hq by (vm_compute; done).
  destruct (live a !! 1) as [v|] eqn:E; [|done].
  destruct (query_ray_closest O2 (ray_aabb2 xray) (along2 xray) nlt ninf 100 s) as [[[v' q]|]| |] eqn:Ec; [|done..].
  destruct (ray_aabb2 xray (w_bound v)) as [p|] eqn:Ep; [|done].
  exists a, s, 1, v, v', p, q.
  split; [apply run2_history; vm_compute; done|]. split; [vm_compute; done|].
  split; [apply (bool_decide_eq_true_1 (unflagged (run2 closest2_demo).1 = ∅)); vm_compute; done|].
  split; [apply (map_forallb proper2b); [apply proper2b_ok|]; vm_compute; done|].
  split; [exact E|]. split; [exact Ep|]. split; [exact Ec|exact Hq].
Qed.
