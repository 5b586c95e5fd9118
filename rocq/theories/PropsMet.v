(** Concrete, non-trivial cases meeting the hypotheses of C08-C34. *)
From stdpp Require Import prelude sorting gmap fin_maps fin_sets.
From Coq Require Import Reals Lra.
From Flocq Require Import IEEE754.BinarySingleNaN.
From Verif Require Import Res DbvtModel DbvtSpec PropsDbvt DbvtVisitors DbvtExample PropsRay BroadModel PropsBroad.
From Verif Require Import Num Vec AabbModel PropsAabb Xr PropsRayBox AabbTreeExample PropsAabbReal GeoModel RealGeo PropsSphere PropsPlane.

(** ** Trees: five intervals after insertions, removals, writes and a tick (DbvtExample). *)
Definition demo_tick : dbvt (nat * nat) (nat * nat) :=
  match tick ival_ops 100 (fun _ => true) demo_state.2 with Ok s => s | _ => dbvt_new end.
Definition ival_test (b : nat * nat) : bool := bool_decide (25 <= b.2) && bool_decide (b.1 <= 55).
Example C09_hypotheses_met :
  history ival_ops demo_state.1 demo_state.2 /\ legal demo_state.1 (@Tick (nat * nat) (fun _ => true))
  /\ unflagged demo_state.1 = ∅ /\ tick ival_ops 100 (fun _ => true) demo_state.2 = Ok demo_tick
  /\ enclosure ival_ops ival_leq /\ fat_ok ival_ops demo_state.1
  /\ (forall h v b', live demo_state.1 !! h = Some v -> ival_test v = true -> ival_leq v b' -> ival_test b' = true)
  /\ (match query ival_ops 100 (discrete_visitor ival_test) demo_tick () with Ok l => l.*1 | _ => [] end) = [(40, 41); (51, 60); (20, 30)].
Proof.
  split; [exact demo_history|]. split; [apply legalb_legal; vm_compute; done|].
  split; [apply (bool_decide_eq_true_1 (unflagged demo_state.1 = ∅)); vm_compute; done|].
  split; [vm_compute; done|]. split; [exact ival_enclosure|]. split; [apply ival_fat_ok|].
  split; [|vm_compute; done]. intros h v b' _. unfold ival_test, ival_leq. rewrite !andb_true_iff, !bool_decide_eq_true. lia.
Qed.
Example C10_hypotheses_met : length (values demo_state.2) = 5 /\ dbvt_height demo_tick = Ok 4.
Proof. vm_compute. done. Qed.
(** The same tree as a broad phase, all values dirty. *)
Definition ival_isect (x y : nat * nat) : bool := bool_decide (x.1 <= y.2) && bool_decide (y.1 <= x.2).
Definition broad_ops : list (op (nat * nat)) := [Insert (10, 20); Insert (15, 30); Insert (40, 50); Insert (28, 45); Remove 3; Insert (48, 60)].
Definition broad_state := default (astart, dbvt_new) (replay ival_ops 100 broad_ops astart dbvt_new).
Definition broad_tick := match tick ival_ops 100 (fun _ => false) broad_state.2 with Ok s => s | _ => dbvt_new end.
Example C20_hypotheses_met :
  history ival_ops broad_state.1 broad_state.2 /\ legal broad_state.1 (@Tick (nat * nat) (fun _ => false)) /\ unflagged broad_state.1 = ∅
  /\ tick ival_ops 100 (fun _ => false) broad_state.2 = Ok broad_tick
  /\ (forall x y, ival_isect x y = ival_isect y x) /\ (forall x y b, ival_isect x b = true -> ival_leq x y -> ival_isect y b = true)
  /\ values broad_tick = [(1, (10, 20)); (7, (28, 45)); (5, (40, 50)); (4, (48, 60))]
  /\ dbp_find ival_ops ival_isect 100 broad_tick (replicate 4 true) = Ok [(1, 2); (2, 3)].
Proof.
  split.
  { eapply (replay_history ival_ops 100 broad_ops astart dbvt_new); [constructor|vm_compute; done|vm_compute; reflexivity]. }
  split; [apply legalb_legal; vm_compute; done|].
  split; [apply (bool_decide_eq_true_1 (unflagged broad_state.1 = ∅)); vm_compute; done|].
  split; [vm_compute; done|].
  split; [intros x y; unfold ival_isect; by rewrite andb_comm|].
  split; [|split; vm_compute; done]. intros x y b. unfold ival_isect, ival_leq. rewrite !andb_true_iff, !bool_decide_eq_true. lia.
Qed.

(** ** Sweep and prune on f32 boxes *)
Local Instance num32 : Num f32 := Num_float 24 128.
Local Instance ord32 : NumOrd f32 := NumOrd_float 24 128.
Definition boxes : list (Aabb2 f32) := [box2i 5 5 7 7; box2i 0 0 2 2; box2i 1 1 6 6; box2i 1 3 3 4].
Definition sap_boxes := sap_find (fun b : Aabb2 f32 => b) intersects2 2 (fun b => [ux (min2 b); uy (min2 b)]) (fun b => [ux (max2 b); uy (max2 b)])
  (fun n => i32 (Z.of_nat n)) (Sap 0 (variance_zero 2)) boxes.
Example C18_hypotheses_met :
  Forall (comparable (fun b : Aabb2 f32 => b) (fun b => [ux (min2 b); uy (min2 b)]) (fun b => [ux (max2 b); uy (max2 b)]) 0) boxes
  /\ overlaps_on (fun b : Aabb2 f32 => b) intersects2 (fun b => [ux (min2 b); uy (min2 b)]) (fun b => [ux (max2 b); uy (max2 b)]) 0
  /\ match sap_boxes with Ok (_, _, pairs) => pairs = [(0, 2); (1, 2); (2, 3)] | _ => False end.
Proof.
  split; [|split; [|vm_compute; done]].
  - repeat constructor; eexists _, _; (split; [reflexivity|]); (split; [reflexivity|]); split; vm_compute; done.
  - intros a b hi lo. unfold intersects2. cbn [lookup list_lookup]. rewrite !andb_true_iff. intros [[[H1 H2] H3] H4] [= <-] [= <-]. by apply lt_le.
Qed.
(** ** Boxes over f32 (with a NaN) and over the reals *)
Definition nan32 : f32 := (i32 0 / i32 0)%N_.
Example C21_hypotheses_met : ok2 (mk2 (i32 3) (i32 1)) /\ ok2 (mk2 (i32 1) (i32 2)) /\ ~ ok nan32
  /\ box2 (box2i 3 1 1 2) /\ box2 (box2i 0 0 2 2) /\ box3 (box3i 3 1 5 1 2 4)
  /\ contains2 (box2i 0 0 3 3) (box2i 3 1 1 2) = true /\ contains2 (box2i 0 0 2 2) (box2i 3 1 1 2) = false
  /\ intersects2 (box2i 0 0 2 2) (box2i 3 1 1 2) = true /\ intersects2 (box2i 0 0 2 2) (box2i 3 1 2 2) = false.
Proof.
  split_and!; vm_compute; done.
Qed.
Local Open Scope R_scope.
Definition tilt (p : V2 R) : V2 R := mk2 (ux p - uy p + 1) (ux p + uy p).
Example C26_hypotheses_met : box2 (mkAabb2 (mk2 0 0) (mk2 2 1)) /\ affine2 tilt
  /\ Forall (fun c => ok2 (tilt c)) (corners2 (mkAabb2 (mk2 0 0) (mk2 2 1)))
  /\ (exists p, interior2 (mkAabb2 (mk2 0 0) (mk2 2 1)) p).
Proof.
  split_and!; [split; apply Rleb_true; cbn; lra| | |exists (mk2 1 (1/2)); unfold interior2; cbn; lra].
  - exists 1, (-1), 1, 1, 1, 0. intros [x y]. unfold tilt. cbn [ux uy]. f_equal; ring.
  - repeat constructor; apply Rleb_true; cbn; lra.
Qed.
(** An oblique and an axis-parallel ray, a box. *)
Definition fx (r : R) : xr := XFin false r.
Example C27_hypotheses_met :
  let b := mkAabb2 (mk2 (fx 1) (fx 1)) (mk2 (fx 3) (fx 2)) in let c := mkAabb2 (mk2 1 1) (mk2 3 2) in
  fin_box2 b c /\ box2 c
  /\ (exists r q, fin_ray2 r q /\ ux (direction q) <> 0 /\ uy (direction q) <> 0 /\ exists t, 0 <= t /\ in2 c (at2 q t))
  /\ (exists r q, fin_ray2 r q /\ ux (direction q) = 0 /\ direction q <> zero2 /\ exists t, 0 <= t /\ meets2 q c t).
Proof.
  cbn zeta. split_and!.
  - split; split; eexists; reflexivity.
  - split; apply Rleb_true; cbn; lra.
  - exists (mkRay (mk2 (fx 0) (fx 0)) (mk2 (fx 2) (fx 1))), (mkRay (mk2 0 0) (mk2 2 1)). split_and!; cbn; try lra.
    { split; split; eexists; reflexivity. }
    exists (5/4). split; [lra|]. unfold in2, at2. cbn. split_and!; apply Rleb_true; lra.
  - exists (mkRay (mk2 (fx 2) (fx 0)) (mk2 (fx 0) (fx 1))), (mkRay (mk2 2 0) (mk2 0 1)). split_and!; cbn; try lra.
    { split; split; eexists; reflexivity. }
    { unfold zero2. intros [= E]. cbn in E. lra. }
    exists 1. split; [lra|]. unfold meets2, in_axis2. cbn. destruct (Req_EM_T 0 0); [|lra]. destruct (Req_EM_T 1 0); lra.
Qed.
Example C28_hypotheses_met :
  let b := mkAabb3 (mk3 (fx 1) (fx 1) (fx 1)) (mk3 (fx 3) (fx 2) (fx 2)) in let c := mkAabb3 (mk3 1 1 1) (mk3 3 2 2) in
  fin_box3 b c /\ box3 c
  /\ exists r q, fin_ray3 r q /\ vx (direction q) <> 0 /\ vy (direction q) <> 0 /\ vz (direction q) <> 0 /\ exists t, 0 <= t /\ in3 c (at3 q t).
Proof.
  cbn zeta. split_and!.
  - split; split_and!; eexists; reflexivity.
  - split_and!; apply Rleb_true; cbn; lra.
  - exists (mkRay (mk3 (fx 0) (fx 0) (fx 0)) (mk3 (fx 2) (fx 1) (fx 1))), (mkRay (mk3 0 0 0) (mk3 2 1 1)). split_and!; cbn; try lra.
    { split; split_and!; eexists; reflexivity. }
    exists (5/4). split; [lra|]. unfold in3, at3. cbn. split_and!; apply Rleb_true; lra.
Qed.
Example C31_hypotheses_met : let b := mkAabb2 (mk2 0 0) (mk2 2 1) in
  box2 b /\ - ux (dim2 b) / 2 <= -1/2 /\ - uy (dim2 b) / 2 <= -1/4 /\ subset2 b (mkAabb2 (mk2 (-1) 0) (mk2 2 3)).
Proof.
  cbn zeta. split_and!; try (cbn; lra); [split; apply Rleb_true; cbn; lra|].
  intros p [[H1 H2] [H3 H4]]. unfold in2. cbn in *. repeat split; apply Rleb_true; apply Rleb_true in H1, H2, H3, H4; lra.
Qed.
Example C34_hypotheses_met : let s := mkSphere (mk3 0 0 0) (1/2) in let b := mkAabb3 (mk3 0 0 0) (mk3 (1/2) 3 1) in
  proper_sphere s /\ box3 b /\
  (forall pl, pl ∈ planes_of cube_frustum -> mag3 (pl_n pl) = 1 /\ classifies (ball s) (relate_sphere s) pl /\ classifies (in3 b) (relate_aabb3 b) pl).
Proof.
  cbn zeta. assert (H1 : proper_sphere (mkSphere (mk3 0 0 0) (1/2))) by (unfold proper_sphere; cbn; lra).
  assert (H2 : box3 (mkAabb3 (mk3 0 0 0) (mk3 (1/2) 3 1))) by (split_and!; apply Rleb_true; cbn; lra).
  split; [done|]. split; [done|]. intros pl Hpl. pose proof (cube_unit pl Hpl). split; [done|].
  split; [by apply C34_sphere_exact|by apply C34_box_exact].
Qed.
