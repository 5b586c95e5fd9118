(** C60: frustum culling on trees of float boxes. *)
From stdpp Require Import prelude gmap fin_maps fin_sets sorting.
From Coq Require Import Reals Lra Psatz.
From Flocq Require Import IEEE754.BinarySingleNaN.
From Flocq Require Core.Float_prop.
From Verif Require Import Res DbvtModel DbvtSpec PropsDbvt DbvtVisitors PropsRay BroadModel PropsBroad.
From Verif Require Import Num Vec AabbModel PropsAabb FloatMono AabbTree PropsAgree PropsAabbTree GeoModel.

Section floats.
  Context (prec emax : Z) {Hprec : Core.FLX.Prec_gt_0 prec} {Hemax : Prec_lt_emax prec emax}.
  Notation fl := (binary_float prec emax).
  Local Instance cull_num : Num fl := Num_float prec emax.
  Local Instance cull_ord : NumOrd fl := NumOrd_float prec emax.
  Notation pos_of := (posn prec emax).

  (** Neither NaN nor plus infinity. *)
  Definition low (x : fl) : Prop := is_nan x = false /\ x <> B754_infinity false.
  Lemma lt_low x d : Lt_ x d -> low x.
  Proof. intros Hx. unfold Lt_ in Hx. cbn in Hx. apply Flt_pos in Hx as (? & ? & Hp). split; [done|]. intros ->. apply Hp, posn_total_PP. Qed.
  Lemma low_add x y : low (x + y)%N_ -> low x /\ low y.
  Proof.
    unfold low. cbn [nadd cull_num Num_float]. destruct x as [|[]| |], y as [|[]| |]; cbn; intros [H1 H2]; try done; split; done.
  Qed.
  Lemma low_le x y : Le x y -> low y -> low x.
  Proof.
    intros (Nx & Ny & Hp)%FLe_iff [_ Hy]. split; [done|]. intros ->. destruct y as [|[]| |]; done.
  Qed.
  Lemma low_fin x : low x -> is_finite x = true \/ x = B754_infinity true.
  Proof. intros [? ?]. destruct x as [|[]| |]; try done; auto. Qed.
  Lemma low_add_nan x y : low x -> low y -> is_nan (x + y)%N_ = false.
  Proof.
    intros Hx Hy. destruct (low_fin x Hx) as [Fx| ->], (low_fin y Hy) as [Fy| ->].
    - apply (FloatMono.add_pos prec emax x y Fx Fy).
    - by destruct x.
    - by destruct y.
    - done.
  Qed.
  Lemma add_mono x y x' y' : Le x x' -> Le y y' -> low x' -> low y' -> Le (x + y)%N_ (x' + y')%N_.
  Proof.
    intros Hx Hy Lx' Ly'. pose proof (low_le _ _ Hx Lx') as Lx. pose proof (low_le _ _ Hy Ly') as Ly.
    apply FLe_iff. split; [by apply low_add_nan|]. split; [by apply low_add_nan|].
    apply FLe_iff in Hx as (_ & _ & Px), Hy as (_ & _ & Py).
    destruct (low_fin x Lx) as [Fx| ->].
    - destruct (low_fin y Ly) as [Fy| ->].
      + destruct (low_fin x' Lx') as [Fx'| ->]; [|by destruct x]. destruct (low_fin y' Ly') as [Fy'| ->]; [|by destruct y].
        destruct (FloatMono.add_pos prec emax x y Fx Fy) as [_ E]. destruct (FloatMono.add_pos prec emax x' y' Fx' Fy') as [_ E'].
        rewrite !fin_pos in Px, Py by done. cbn in Px, Py. cbn [nadd cull_num Num_float]. rewrite E, E'. apply ext_le, rnd_le; [done..|lra].
      + replace (x + B754_infinity true)%N_ with (B754_infinity true : fl) by by destruct x. apply posn_PM.
    - replace (B754_infinity true + y)%N_ with (B754_infinity true : fl); [apply posn_PM|].
      destruct (low_fin y Ly) as [Fy| ->]; [by destruct y|done].
  Qed.
  (** The product of a coordinate with a finite component of the normal is bounded by that of one
      of the two faces of an enclosing box. *)
  Lemma mul_up lo hi x n : is_finite n = true -> is_finite x = true -> Le lo x -> Le x hi ->
    exists c, (c = lo \/ c = hi) /\ (is_nan (c * n)%N_ = false -> Le (x * n)%N_ (c * n)%N_).
  Proof.
    intros Fn Fx Hlo Hhi. destruct (Rtotal_order (B2R n) 0) as [Hn|[Hn|Hn]].
    - exists lo. split; [by left|]. intros _. by apply (mul_mono prec emax lo x n Fn Hlo).
    - exists lo. split; [by left|]. intros HN.
      assert (Fl : is_finite lo = true).
      { apply FLe_iff in Hlo as (Nl & _ & _). destruct lo as [|[]| |]; try done; cbn in HN; destruct n as [|[]| |]; cbn in *; try done;
        try (exfalso; apply Core.Float_prop.eq_0_F2R in Hn; cbn in Hn; match type of Hn with SpecFloat.cond_Zopp ?b _ = _ => destruct b end; done). }
      destruct (mul_pos prec emax x n Fx Fn) as [N1 E1]. destruct (mul_pos prec emax lo n Fl Fn) as [N2 E2].
      apply FLe_iff. split; [done|]. split; [done|]. cbn [nmul cull_num Num_float]. rewrite E1, E2. apply ext_le, rnd_le; [done..|].
      rewrite Hn. lra.
    - exists hi. split; [by right|]. intros _. by apply (mul_mono prec emax x hi n Fn Hhi).
  Qed.

  Lemma relate_pt_out p pl : relate_pt p pl = ROut <-> Lt_ (dot3 p (pl_n pl)) (pl_d pl).
  Proof.
    unfold relate_pt, Lt_. destruct (nlt (pl_d pl) _) eqn:E; [|by destruct (nlt (dot3 p _) _)].
    split; [done|]. intros E'. exfalso. cbn in E, E'. apply Flt_pos in E as (_ & _ & E), E' as (_ & _ & E').
    destruct (pos_le_total (pos_of (pl_d pl)) (pos_of (dot3 p (pl_n pl)))); tauto.
  Qed.
  Lemma relate_aabb3_out (b : Aabb3 fl) pl : relate_aabb3 b pl = ROut <-> Forall (fun c => relate_pt c pl = ROut) (corners3 b).
  Proof.
    unfold relate_aabb3. change (corners3 b) with (min3 b :: drop 1 (corners3 b)) at 2. generalize (drop 1 (corners3 b)). intros l. rewrite Forall_cons.
    destruct (forallb _ l) eqn:E.
    - rewrite forallb_forall in E. split; [|tauto]. intros Eo. split; [done|]. apply Forall_forall. intros c Hc. apply elem_of_list_In, E in Hc.
      apply bool_decide_eq_true in Hc. congruence.
    - split; [done|]. intros [E1 E2]. exfalso. rewrite <- not_true_iff_false in E. apply E. apply forallb_forall. intros c Hc.
      apply bool_decide_eq_true. rewrite E1. eapply Forall_forall in E2; [done|]. by apply elem_of_list_In.
  Qed.
  Lemma corner_of (b : Aabb3 fl) x y z : (x = vx (min3 b) \/ x = vx (max3 b)) -> (y = vy (min3 b) \/ y = vy (max3 b)) -> (z = vz (min3 b) \/ z = vz (max3 b)) ->
    mk3 x y z ∈ corners3 b.
  Proof.
    destruct b as [[a b c] [d e f]]. cbn [min3 max3 vx vy vz]. unfold corners3. cbn [min3 max3 vx vy vz].
    intros [-> | ->] [-> | ->] [-> | ->]; rewrite !elem_of_cons; tauto.
  Qed.
  Lemma corner_inv (b : Aabb3 fl) p : p ∈ corners3 b ->
    (vx p = vx (min3 b) \/ vx p = vx (max3 b)) /\ (vy p = vy (min3 b) \/ vy p = vy (max3 b)) /\ (vz p = vz (min3 b) \/ vz p = vz (max3 b)).
  Proof.
    unfold corners3. rewrite !elem_of_cons, elem_of_nil. intros Hp. repeat destruct Hp as [-> | Hp]; cbn [vx vy vz]; auto. done.
  Qed.
  Lemma coord_between (lo hi a b x : fl) : Le lo a -> Le a b -> Le b hi -> (x = a \/ x = b) -> Le lo x /\ Le x hi.
  Proof. intros H1 H2 H3 [-> | ->]; (split; [first [done|chain]|first [done|chain]]). Qed.
  (** A box behind a plane encloses only boxes behind that plane. *)
  Lemma relate_aabb3_mono b b' pl : finite3 prec emax (pl_n pl) -> finite3 prec emax (min3 b) -> finite3 prec emax (max3 b) -> box3 b -> encl3 b b' ->
    relate_aabb3 b' pl = ROut -> relate_aabb3 b pl = ROut.
  Proof.
    intros (Fx & Fy & Fz) (Gx & Gy & Gz) (Kx & Ky & Kz) (Bx & By & Bz) ((Lx & Ly & Lz) & (Mx & My & Mz)). rewrite !relate_aabb3_out. intros Hout.
    apply Forall_forall. intros p Hp. destruct (corner_inv b p Hp) as (Px & Py & Pz).
    destruct (coord_between _ _ _ _ _ Lx Bx Mx Px). destruct (coord_between _ _ _ _ _ Ly By My Py). destruct (coord_between _ _ _ _ _ Lz Bz Mz Pz).
    destruct (mul_up _ _ (vx p) (vx (pl_n pl)) Fx ltac:(by destruct Px as [-> | ->]) ltac:(eassumption) ltac:(eassumption)) as (cx & Cx & Ux).
    destruct (mul_up _ _ (vy p) (vy (pl_n pl)) Fy ltac:(by destruct Py as [-> | ->]) ltac:(eassumption) ltac:(eassumption)) as (cy & Cy & Uy).
    destruct (mul_up _ _ (vz p) (vz (pl_n pl)) Fz ltac:(by destruct Pz as [-> | ->]) ltac:(eassumption) ltac:(eassumption)) as (cz & Cz & Uz).
    pose proof (corner_of b' cx cy cz Cx Cy Cz) as Hc. eapply Forall_forall in Hout; [|exact Hc].
    rewrite relate_pt_out in Hout |- *. unfold dot3 in *. cbn [vx vy vz] in Hout.
    pose proof (lt_low _ _ Hout) as L1. apply low_add in L1 as [L1 L3]. pose proof L1 as L4. apply low_add in L4 as [L4 L5].
    specialize (Ux (proj1 L4)). specialize (Uy (proj1 L5)). specialize (Uz (proj1 L3)).
    eapply le_lt_trans; [|exact Hout]. apply add_mono; try done. by apply add_mono.
  Qed.
  Definition planes (f : Frustum fl) : list (Plane fl) := [f_left f; f_right f; f_top f; f_bottom f; f_near f; f_far f].
  Lemma frustum_out (f : Frustum fl) rel : frustum_contains f rel = ROut <-> exists pl, pl ∈ planes f /\ rel pl = ROut.
  Proof.
    unfold frustum_contains. fold (planes f). assert (K : forall l c, foldl (fun cur p => rel_max cur (rel p)) c l = ROut <-> c = ROut \/ exists pl : Plane fl, pl ∈ l /\ rel pl = ROut).
    { induction l as [|p l IH]; intros c; cbn [foldl].
      - split; [auto|]. intros [?|(pl & []%elem_of_nil & _)]. done.
      - rewrite IH. split.
        + intros [E|(pl & Hin & E)]; [|right; exists pl; split; [by right|done]].
          destruct c, (rel p) eqn:Ep; try done; auto; right; exists p; (split; [left|done]).
        + intros [->|(pl & [->|Hin]%elem_of_cons & E)]; [by left| |eauto]. left. rewrite E. by destruct c. }
    rewrite K. split; [intros [?|?]; done|auto].
  Qed.
  (** A frustum whose plane normals are finite (a plane's distance may be anything). *)
  Definition proper_frustum (f : Frustum fl) : Prop := Forall (fun pl => finite3 prec emax (pl_n pl)) (planes f).
  Lemma frustum_mono f b b' : proper_frustum f -> finite3 prec emax (min3 b) -> finite3 prec emax (max3 b) -> box3 b -> encl3 b b' ->
    frustum_contains f (relate_aabb3 b') = ROut -> frustum_contains f (relate_aabb3 b) = ROut.
  Proof.
    intros Hf F1 F2 Hb He (pl & Hpl & E)%frustum_out. apply frustum_out. exists pl. split; [done|].
    eapply relate_aabb3_mono; eauto. eapply Forall_forall in Hf; eauto.
  Qed.
  Context {V : Type} (third : fl).
  (** A frustum query returns exactly the values whose own box the frustum does not put outside,
      each with the relation of its own box. *)
  Theorem C60_frustum_query_exact a s rng fuel s' fuel' (f : Frustum fl) l :
    history (aabb3_ops V third) a s -> legal a (Tick rng) -> unflagged a = ∅ -> tick (aabb3_ops V third) fuel rng s = Ok s' ->
    map_Forall (fun _ v => proper3 prec emax v /\ box3 (w_bound v)) (live a) -> proper_frustum f ->
    query (aabb3_ops V third) fuel' (frustum_visitor (fun b => frustum_contains f (relate_aabb3 b))) s' () = Ok l ->
    l ≡ₚ omap (fun hv => match frustum_contains f (relate_aabb3 (w_bound hv.2)) with ROut => None | r => Some (hv.2, r) end) (map_to_list (live a)).
  Proof.
    intros Hh Hl Hu Ht Hp Hf Hq.
    set (g := fun (b : Aabb3 fl) (_ : bool) => match frustum_contains f (relate_aabb3 b) with ROut => None | r => Some r end).
    pose proof (C09_query_exact_after_tick (aabb3_ops V third) (V := unit) g encl3 a s rng fuel s' fuel' () l Hh Hl Hu Ht (aabb3_enclosure V third)) as K.
    rewrite K; [..|exact Hq].
    - clear. induction (map_to_list (live a)) as [|[h v] m IH]; [done|]. cbn [omap list_omap fst snd]. cbn [tv_bound aabb3_ops]. unfold g at 1.
      destruct (frustum_contains f (relate_aabb3 (w_bound v))); cbn [fmap option_fmap option_map]; [by f_equiv|by f_equiv|done].
    - apply proper3_fat. intros h v Hv. by apply (Hp h v).
    - intros h v b' Hv Hs Hle. destruct (Hp h v Hv) as [(F1 & F2 & _) Hb]. unfold g in *. cbn [tv_bound aabb3_ops] in *.
      pose proof (frustum_mono f (w_bound v) b' Hf F1 F2 Hb Hle) as M.
      destruct (frustum_contains f (relate_aabb3 b')); try done; eauto. rewrite M in Hs by done. by destruct Hs.
  Qed.
End floats.

From Verif Require Import DbvtExample AabbTreeExample.
(** A box-shaped frustum (planes x >= -1, x <= 2, ...) over the tree of C33's example. *)
Local Instance num32c : Num f32 := Num_float 24 128.
Definition box_frustum : Frustum f32 :=
  let z := i32 0 in let o := i32 1 in let m := i32 (-1) in
  mkFrustum (mkPlane (mk3 o z z) m) (mkPlane (mk3 m z z) (i32 (-2))) (mkPlane (mk3 z o z) m) (mkPlane (mk3 z m z) (i32 (-3)))
            (mkPlane (mk3 z z o) m) (mkPlane (mk3 z z m) (i32 (-9))).
Example C60_hypotheses_met :
  history (aabb3_ops nat third32) demo3_a demo3_s /\ legal demo3_a (@Tick _ (fun _ => true)) /\ unflagged demo3_a = ∅
  /\ tick (aabb3_ops nat third32) 100 (fun _ => true) demo3_s = Ok tick3
  /\ map_Forall (fun _ v => proper3 24 128 v /\ box3 (w_bound v)) (live demo3_a) /\ proper_frustum 24 128 box_frustum
  /\ match query (aabb3_ops nat third32) 100 (frustum_visitor (fun b => frustum_contains box_frustum (relate_aabb3 b))) tick3 () with
     | Ok l => map (fun x => (w_value x.1, x.2)) l | _ => [] end = [(3, RCross); (0, RIn)].
Proof.
  destruct C33_hypotheses_met as (H1 & H2 & H3 & H4 & H5 & _). do 5 (split; [done|]). split.
  - unfold proper_frustum, planes, box_frustum, finite3. cbn [f_left f_right f_top f_bottom f_near f_far]. repeat constructor.
  - vm_compute. done.
Qed.
