(** C42: distances between shapes (GJK). *)
From Coq Require Import Psatz.
From stdpp Require Import prelude.
From Flocq Require Import IEEE754.BinarySingleNaN.
From Coq Require Import Reals Lra.
From Verif Require Import Res Num Vec AabbModel GeoModel RealGeo PrimModel ShapeSpec PropsSupport MinkModel MinkSpec Gjk2 Gjk3 PropsGjk2 PropsGjk3 PropsEpa2 Dist PrimEnum.
Local Open Scope R_scope.

(** [D] is the distance of the two shapes up to the tolerance: two of their points are
    [D] apart, and no two are closer than [D - tol/D]. *)
Definition distance2 (A B : P2 -> Prop) (tol D : R) : Prop :=
  0 < D /\ (exists x y, A x /\ B y /\ dist2 x y = D) /\ forall x y, A x -> B y -> D - tol / D < dist2 x y.
Definition distance3 (A B : P3 -> Prop) (tol D : R) : Prop :=
  0 < D /\ (exists x y, A x /\ B y /\ dist3 x y = D) /\ forall x y, A x -> B y -> D - tol / D < dist3 x y.

Lemma dist2_sub (x y : P2) : dist2 x y = mag2 (sub2 x y).
Proof. unfold dist2, dist2_2, mag2, mag2_2. rs. f_equal. clear. rv0. ring. Qed.
Lemma dist3_sub (x y : P3) : dist3 x y = mag3 (sub3 x y).
Proof. unfold dist3, dist2_3, mag3, mag2_3. rs. f_equal. clear. rv0. ring. Qed.

Section dist2.
  Context (A B : P2 -> Prop) (supL supR : P2 -> res P2) (HA : supports2 A supL) (HB : supports2 B supR)
    (HcA : convex2 A) (HcB : convex2 B) (eps tol : R) (Heps : 0 <= eps).
  Notation loop := (dist_loop sub2 neg2 dot2 mag2 (near0_2 eps) supL supR (closest2 eps) tol).
  Definition dist_ok2 (o : dist_out R) : Prop := match o with Distance D => distance2 A B tol D | _ => True end.
  Lemma nearest_distance2 l c p s0 :
    Forall (witness2 A B) l -> nearest2 l c -> c <> zero2 -> s0 ∈ l ->
    (forall v, mdiff2 A B v -> dot2 (neg2 c) v <= dot2 (neg2 c) (sp_v p)) ->
    dot2 (sp_v p) (neg2 c) - dot2 (sp_v s0) (neg2 c) < tol -> distance2 A B tol (mag2 (neg2 c)).
  Proof.
    intros Hw [Hh Hn] Hc Hs0 Hm Ht. pose proof (mag2_pos c Hc) as Hpos. pose proof (mag2_sqr c) as Hsq.
    assert (Em : mag2 (neg2 c) = mag2 c).
    { unfold mag2, mag2_2. rs. f_equal. clear. rv0. ring. }
    rewrite Em. split; [done|]. split.
    - destruct (hull2_witness A B l c HcA HcB Hw Hh) as (x & y & Hx & Hy & E). exists x, y. split; [done|]. split; [done|].
      by rewrite dist2_sub, <- E.
    - intros x y Hx Hy. specialize (Hm (sub2 x y) ltac:(by exists x, y)). specialize (Hn s0 Hs0).
      rewrite dist2_sub. pose proof (cauchy2 c (sub2 x y)) as Hcs.
      assert (H1 : dot2 c c - tol < dot2 c (sub2 x y)).
      { set (v := sub2 x y) in *. clearbody v. clear -Hm Hn Ht. rv0. lra. }
      rewrite <- Hsq in H1. apply (Rmult_lt_reg_l (mag2 c)); [done|].
      replace (mag2 c * (mag2 c - tol / mag2 c)) with (mag2 c * mag2 c - tol) by (field; lra). lra.
  Qed.
  Lemma dist_loop2 n l : (2 <= length l <= 3)%nat -> Forall (witness2 A B) l -> exists o, loop n l = Ok o /\ dist_ok2 o.
  Proof.
    revert l. induction n as [|n IH]; intros l Hl Hw; [by exists DistExhausted|]. cbn [dist_loop].
    destruct (closest2_spec eps l) as (l' & c & Ec & Hsub & Hl' & Hc); [lia|]. rewrite Ec. cbn [mbind res_mbind res_bind].
    destruct (near0_2 eps c) eqn:En; [by exists Touching|].
    pose proof (near0_2_false eps Heps _ En) as Hc0. destruct Hc as [?|[Hl2 Hnear]]; [done|]. clear En.
    assert (Hw' : Forall (witness2 A B) l').
    { rewrite Forall_forall in *. intros s Hs. by apply Hw, Hsub. }
    assert (Hneg : neg2 c <> zero2).
    { apply vec2_ne. apply vec2_ne in Hc0. clear -Hc0. rv0. lra. }
    destruct (mink2_spec A B supL supR HA HB (neg2 c) Hneg) as (p & Ep & Hp & Hm & _).
    change (mink sub2 neg2 supL supR (neg2 c)) with (mink2 supL supR (neg2 c)). rewrite Ep. cbn [mbind res_mbind res_bind].
    destruct l' as [|s0 l'']; [cbn in Hl'; lia|]. cbn [get lookup list_lookup mbind res_mbind res_bind]. cbn [nlt nsub Num_R].
    destruct (Rltb _ tol) eqn:Et.
    - apply Rltb_true in Et. eexists. split; [done|]. cbn [dist_ok2].
      eapply (nearest_distance2 (s0 :: l'') c p s0); try done. set_solver.
    - apply IH; [rewrite app_length; cbn in *; lia|]. apply Forall_app. split; [done|]. apply Forall_singleton. apply Hp.
  Qed.
  Lemma dist2_run_spec n lpos rpos : exists o, dist2_run eps supL supR tol n lpos rpos = Ok o /\ dist_ok2 o.
  Proof.
    unfold dist2_run, dist_run. cbv zeta. cbn [n1 Num_R].
    pose proof (first_dir_ne eps Heps lpos rpos) as Hd. set (d := first_dir _ _ _ _ _) in *.
    destruct (mink2_spec A B supL supR HA HB d Hd) as (a & Ea & Ha & _).
    assert (Hneg : neg2 d <> zero2).
    { apply vec2_ne. apply vec2_ne in Hd. clearbody d. clear -Hd. rv0. lra. }
    destruct (mink2_spec A B supL supR HA HB (neg2 d) Hneg) as (b & Eb & Hb & _).
    change (mink sub2 neg2 supL supR) with (mink2 supL supR). rewrite Ea. cbn [mbind res_mbind res_bind].
    rewrite Eb. cbn [mbind res_mbind res_bind]. apply dist_loop2; [cbn; lia|]. rewrite !Forall_cons. split; [apply Ha|]. split; [apply Hb|done].
  Qed.

  (** [distance] in the plane never panics, and a distance it returns is right. *)
  Theorem C42_distance2 n lpos rpos :
    exists o, dist2_run eps supL supR tol n lpos rpos = Ok o /\
      forall D, dist_forget o = Some D -> distance2 A B tol D.
  Proof.
    destruct (dist2_run_spec n lpos rpos) as (o & E & Ho). exists o. split; [done|]. destruct o; cbn; try done. by intros D [= <-].
  Qed.
  (** Shapes with a common point get [None], or a distance below the square root of the
      tolerance. *)
  Theorem C42_colliding2 n lpos rpos o D x :
    dist2_run eps supL supR tol n lpos rpos = Ok o -> dist_forget o = Some D -> A x -> B x -> D * D < tol.
  Proof.
    intros E Ho Hx Hy. destruct (C42_distance2 n lpos rpos) as (o' & E' & H'). assert (o' = o) as -> by congruence.
    destruct (H' D Ho) as (HD & _ & Hlow). specialize (Hlow x x Hx Hy). rewrite dist2_sub in Hlow.
    replace (sub2 x x) with (zero2 : P2) in Hlow by (clear; apply V2_eq; unfold zero2; rv0; ring).
    rewrite (proj2 (mag2_zero_iff _) eq_refl) in Hlow.
    assert (D * (D - tol / D) < D * 0) by (apply Rmult_lt_compat_l; lra).
    replace (D * (D - tol / D)) with (D * D - tol) in H by (field; lra). lra.
  Qed.
End dist2.

Section dist3.
  Context (A B : P3 -> Prop) (supL supR : P3 -> res P3) (HA : supports3 A supL) (HB : supports3 B supR)
    (HcA : convex3 A) (HcB : convex3 B) (eps tenth tol : R) (Heps : 0 <= eps).
  Notation loop := (dist_loop sub3 neg3 dot3 mag3 (near0_3 eps) supL supR (closest3 eps tenth) tol).
  Definition dist_ok3 (o : dist_out R) : Prop := match o with Distance D => distance3 A B tol D | _ => True end.
  Lemma nearest_distance3 l c p s0 :
    Forall (witness3 A B) l -> nearest3 l c -> c <> zero3 -> s0 ∈ l ->
    (forall v, mdiff3 A B v -> dot3 (neg3 c) v <= dot3 (neg3 c) (sp_v p)) ->
    dot3 (sp_v p) (neg3 c) - dot3 (sp_v s0) (neg3 c) < tol -> distance3 A B tol (mag3 (neg3 c)).
  Proof.
    intros Hw [Hh Hn] Hc Hs0 Hm Ht. pose proof (mag3_pos c Hc) as Hpos. pose proof (mag3_sqr c) as Hsq.
    rewrite mag3_neg. split; [done|]. split.
    - destruct (hull3_witness A B l c HcA HcB Hw Hh) as (x & y & Hx & Hy & E). exists x, y. split; [done|]. split; [done|].
      by rewrite dist3_sub, <- E.
    - intros x y Hx Hy. specialize (Hm (sub3 x y) ltac:(by exists x, y)). specialize (Hn s0 Hs0).
      rewrite dist3_sub. pose proof (cauchy3 c (sub3 x y)) as Hcs.
      assert (H1 : dot3 c c - tol < dot3 c (sub3 x y)).
      { set (v := sub3 x y) in *. clearbody v. clear -Hm Hn Ht. rv0. lra. }
      rewrite <- Hsq in H1. apply (Rmult_lt_reg_l (mag3 c)); [done|].
      replace (mag3 c * (mag3 c - tol / mag3 c)) with (mag3 c * mag3 c - tol) by (field; lra). lra.
  Qed.
  Lemma dist_loop3 n l o : (2 <= length l <= 4)%nat -> Forall (witness3 A B) l -> loop n l = Ok o -> dist_ok3 o.
  Proof.
    revert l. induction n as [|n IH]; intros l Hl Hw; [by intros [= <-]|]. cbn [dist_loop].
    destruct (closest3 eps tenth l) as [[l' c]| |] eqn:Ec; cbn [mbind res_mbind res_bind]; try done.
    destruct (closest3_spec eps tenth l l' c Heps ltac:(lia) Ec) as (Hsub & Hl' & Hc).
    destruct (near0_3 eps c) eqn:En; [by intros [= <-]|].
    pose proof (Gjk3.near0_3_false eps Heps _ En) as Hc0. destruct Hc as [?|[Hl2 Hnear]]; [done|]. clear En.
    assert (Hw' : Forall (witness3 A B) l').
    { rewrite Forall_forall in *. intros s Hs. by apply Hw, Hsub. }
    destruct (mink3_spec A B supL supR HA HB (neg3 c) (neg3_ne _ Hc0)) as (p & Ep & Hp & Hm).
    change (mink sub3 neg3 supL supR (neg3 c)) with (mink3 supL supR (neg3 c)). rewrite Ep. cbn [mbind res_mbind res_bind].
    destruct l' as [|s0 l'']; [cbn in Hl'; lia|]. cbn [get lookup list_lookup mbind res_mbind res_bind]. cbn [nlt nsub Num_R].
    destruct (Rltb _ tol) eqn:Et.
    - apply Rltb_true in Et. intros [= <-]. cbn [dist_ok3].
      eapply (nearest_distance3 (s0 :: l'') c p s0); try done. set_solver.
    - apply IH; [rewrite app_length; cbn in *; lia|]. apply Forall_app. split; [done|]. by apply Forall_singleton.
  Qed.
  (** In space, a distance that is returned is right. *)
  Theorem C42_distance3 n lpos rpos o D :
    dist3_run eps tenth supL supR tol n lpos rpos = Ok o -> dist_forget o = Some D -> distance3 A B tol D.
  Proof.
    unfold dist3_run, dist_run. cbv zeta. cbn [n1 Num_R].
    pose proof (first_dir3_ne eps Heps lpos rpos) as Hd. set (d := first_dir _ _ _ _ _) in *.
    destruct (mink3_spec A B supL supR HA HB d Hd) as (a & Ea & Ha & _).
    destruct (mink3_spec A B supL supR HA HB (neg3 d) (neg3_ne _ Hd)) as (b & Eb & Hb & _).
    change (mink sub3 neg3 supL supR) with (mink3 supL supR). rewrite Ea. cbn [mbind res_mbind res_bind].
    rewrite Eb. cbn [mbind res_mbind res_bind]. intros E Ho.
    assert (Hok : dist_ok3 o). { eapply dist_loop3; [|  |exact E]; [cbn; lia|]. by rewrite !Forall_cons. }
    destruct o; cbn in Ho; try done. by injection Ho as <-.
  Qed.
  Theorem C42_colliding3 n lpos rpos o D x :
    dist3_run eps tenth supL supR tol n lpos rpos = Ok o -> dist_forget o = Some D -> A x -> B x -> D * D < tol.
  Proof.
    intros E Ho Hx Hy. destruct (C42_distance3 n lpos rpos o D E Ho) as (HD & _ & Hlow). specialize (Hlow x x Hx Hy). rewrite dist3_sub in Hlow.
    replace (sub3 x x) with (zero3 : P3) in Hlow by (clear; apply V3_eq; unfold zero3; rv0; ring).
    rewrite (proj2 (mag3_zero_iff _) eq_refl) in Hlow.
    assert (D * (D - tol / D) < D * 0) by (apply Rmult_lt_compat_l; lra).
    replace (D * (D - tol / D)) with (D * D - tol) in H by (field; lra). lra.
  Qed.
End dist3.

(** ** The hypotheses are met *)
Lemma square_atx_pt x p : xf_pt (square_at x) p = mk2 (ux p + x) (uy p).
Proof. unfold square_at, decomposed2, m2_mul. cbn [xf_pt m2_x m2_y]. apply V2_eq; rv0; ring. Qed.
(** The triangle of C41 and a particle at (-3, -3): the corner (-1, -1) is the nearest. *)
Definition tri0_at : Xf P2 := decomposed2 0 1 (mkM2 (mk2 1 0) (mk2 0 1)) (mk2 (-3) (-3)).
Lemma tri0_at_pt p : xf_pt tri0_at p = mk2 (ux p - 3) (uy p - 3).
Proof. unfold tri0_at, decomposed2, m2_mul. cbn [xf_pt m2_x m2_y]. apply V2_eq; rv0; ring. Qed.
Lemma tri0_mink3 d v : d <> zero2 -> v ∈ tri0 -> (forall w, w ∈ tri0 -> w <> v -> dot2 d w < dot2 d v) ->
  mink2 (fun d => polygon_support tri0 d (square_at 0)) (fun _ => particle_support zero2 tri0_at) d =
    Ok (mkSup (mk2 (ux v + 3) (uy v + 3)) v (mk2 (-3) (-3))).
Proof.
  intros Hd Hv Hm. unfold mink2, mink. rewrite (tri0_max d v Hd Hv Hm). cbn [mbind res_mbind res_bind]. unfold particle_support.
  cbn [mbind res_mbind res_bind]. rewrite tri0_at_pt. f_equal. f_equal; apply V2_eq; unfold zero2; rv0; ring.
Qed.
Lemma mk2_ne x y : (x <> 0 \/ y <> 0) -> mk2 x y <> (zero2 : P2).
Proof. intros Hxy E. assert (x = 0) by exact (f_equal ux E). assert (y = 0) by exact (f_equal uy E). lra. Qed.
Lemma mk3_ne x y z : (x <> 0 \/ y <> 0 \/ z <> 0) -> mk3 x y z <> (zero3 : P3).
Proof. intros Hxy E. assert (x = 0) by exact (f_equal vx E). assert (y = 0) by exact (f_equal vy E). assert (z = 0) by exact (f_equal vz E). lra. Qed.
Lemma tri0_case (Q : P2 -> Prop) : Q (mk2 3 (-1)) -> Q (mk2 (-1) 2) -> Q (mk2 (-1) (-1)) -> forall w, w ∈ tri0 -> Q w.
Proof. intros ? ? ? w Hw. unfold tri0 in Hw. set_solver. Qed.
Example C42_hypotheses_met2 :
  supports2 (world (square_at 0) (hull2 tri0)) (fun d => polygon_support tri0 d (square_at 0)) /\
  supports2 (fun p => p = mk2 (-3) (-3)) (fun _ => particle_support zero2 tri0_at) /\
  convex2 (world (square_at 0) (hull2 tri0)) /\ convex2 (fun p => p = mk2 (-3) (-3)) /\
  dist2_run 0 (fun d => polygon_support tri0 d (square_at 0)) (fun _ => particle_support zero2 tri0_at) (1 / 100) 100
    (xf_pt (square_at 0) zero2) (xf_pt tri0_at zero2) = Ok (Distance (mag2 (mk2 (-2) (-2)))).
Proof.
  split; [exact tri0_supports|]. split.
  { intros d _. exists (mk2 (-3) (-3)). unfold particle_support. rewrite tri0_at_pt.
    split; [f_equal; apply V2_eq; unfold zero2; rv0; ring|]. split; [done|]. intros x ->. lra. }
  split; [apply world_convex2; [apply square_at_similar|apply hull2_convex]|].
  split; [intros x y t -> -> _; apply V2_eq; rv0; ring|].
  rewrite square_at0_pt, tri0_at_pt. unfold dist2_run, dist_run.
  assert (Ed : first_dir (mk2 n1 n1) sub2 (near0_2 0) (zero2 : P2) (mk2 (ux zero2 - 3) (uy zero2 - 3)) = mk2 (-3) (-3)).
  { unfold first_dir. assert (E : sub2 (mk2 (ux zero2 - 3) (uy zero2 - 3)) zero2 = (mk2 (-3) (-3) : P2)) by (apply V2_eq; unfold zero2; rv0; ring).
    rewrite E. cbv zeta. destruct (near0_2 0 _) eqn:En; [|done]. apply near0_2_spec in En. cbn [ux uy] in En. rewrite (Rabs_left (-3)) in En by lra. lra. }
  rewrite Ed. cbv zeta. change (mink sub2 neg2 ?a ?b) with (mink2 a b).
  rewrite (tri0_mink3 (mk2 (-3) (-3)) (mk2 (-1) (-1))); [|apply mk2_ne; left; lra|unfold tri0; set_solver|let w := fresh "w" in let Hw := fresh "Hw" in intros w Hw; pattern w; revert w Hw; apply tri0_case; intros ?; try done; rv0; lra].
  cbn [mbind res_mbind res_bind sp_v ux uy].
  assert (En : neg2 (mk2 (-3) (-3)) = (mk2 3 3 : P2)) by (apply V2_eq; rv0; lra). rewrite En.
  rewrite (tri0_mink3 (mk2 3 3) (mk2 3 (-1))); [|apply mk2_ne; left; lra|unfold tri0; set_solver|let w := fresh "w" in let Hw := fresh "Hw" in intros w Hw; pattern w; revert w Hw; apply tri0_case; intros ?; try done; rv0; lra].
  cbn [mbind res_mbind res_bind sp_v ux uy]. change 100%nat with (Datatypes.S 99). cbn [dist_loop].
  set (s1 := mkSup (mk2 (-1 + 3) (-1 + 3)) _ _). set (s2 := mkSup (mk2 (3 + 3) (-1 + 3)) _ _).
  assert (Ec : closest2 0 [s1; s2] = Ok ([s1; s2], mk2 2 2)).
  { unfold closest2, reduce2. cbv zeta. f_equal. f_equal. unfold closest_on_edge2. cbv zeta.
    assert (El : sub2 (sp_v s1) (sp_v s2) = mk2 (-4) 0) by (unfold s1, s2; cbn [sp_v]; apply V2_eq; rv0; ring). rewrite El.
    assert (Em : mag2 (mk2 (-4) 0 : P2) = 4).
    { unfold mag2, mag2_2. cbn [nsqrt Num_R]. replace (dot2 (mk2 (-4) 0) (mk2 (-4) 0)) with (4 * 4) by (rv0; ring). apply sqrt_square; lra. }
    assert (Enn : normalize2 (mk2 (-4) 0) = (mk2 (-1) 0 : P2)).
    { unfold normalize2. rewrite Em. apply V2_eq; rv0; lra. }
    rewrite Enn. cbn [nlt n0 Num_R]. unfold s1, s2. cbn [sp_v].
    rewrite (proj2 (Rltb_false _ _)) by (unfold zero2; rv0; lra). rewrite (proj2 (Rltb_true _ _)) by (unfold mag2_2, zero2; rv0; lra).
    apply V2_eq; rv0; ring. }
  rewrite Ec. cbn [mbind res_mbind res_bind].
  destruct (near0_2 0 (mk2 2 2)) eqn:E0; [apply near0_2_spec in E0; cbn [ux uy] in E0; rewrite (Rabs_pos_eq 2) in E0 by lra; lra|].
  assert (En2 : neg2 (mk2 2 2) = (mk2 (-2) (-2) : P2)) by (apply V2_eq; rv0; lra). rewrite En2.
  change (mink sub2 neg2 ?a ?b) with (mink2 a b).
  rewrite (tri0_mink3 (mk2 (-2) (-2)) (mk2 (-1) (-1))); [|apply mk2_ne; left; lra|unfold tri0; set_solver|let w := fresh "w" in let Hw := fresh "Hw" in intros w Hw; pattern w; revert w Hw; apply tri0_case; intros ?; try done; rv0; lra].
  cbn [mbind res_mbind res_bind get lookup list_lookup]. cbn [nlt Num_R]. rewrite (proj2 (Rltb_true _ _)); [done|].
  unfold s1; cbn [sp_v]; rv0; lra.
Qed.
Lemma V3_eq' (a b : P3) : vx a = vx b -> vy a = vy b -> vz a = vz b -> a = b.
Proof. intros. by apply V3_eq. Qed.
(** A tetrahedron and a particle at (-3, -3, -3). *)
Definition tet0 : list P3 := [mk3 3 (-1) (-1); mk3 (-1) 2 (-1); mk3 (-1) (-1) (-1); mk3 (-1) (-1) 2].
Definition move3 (v : P3) : Xf P3 := decomposed3 0 1 (mkQuat 1 zero3) v.
Lemma move3_pt v p : xf_pt (move3 v) p = add3 p v.
Proof. unfold move3, decomposed3, quat_rot. cbn [xf_pt q_s q_v]. cbv zeta. apply V3_eq'; unfold zero3; rv0; cbn [vx vy vz]; rs; ring. Qed.
Lemma move3_similar v : similar3 (move3 v).
Proof.
  apply C38_decomposed3; [lra|rewrite Rabs_pos_eq; lra|]. unfold unit_quat, quat_mag2. cbn [q_s q_v]. unfold zero3. rv0. ring.
Qed.
Lemma tet0_supports : supports3 (world (move3 zero3) (hull3 tet0)) (fun d => hull_support tet0 d (move3 zero3)).
Proof. intros d _. apply C38_polyhedron; [done|apply move3_similar]. Qed.
Lemma get_max3_vertex (vs : list P3) T d s :
  vs <> [] -> get_max_point dot3 zero3 vs d T = Ok s -> s ∈ xf_pt T <$> vs.
Proof.
  intros Hne. unfold get_max_point. destruct (xf_ivec T d) as [d'|]; [|done]. intros [= <-].
  apply elem_of_list_fmap. eexists. split; [done|]. exact (proj1 (max_point_spec (fun v => dot3 v d') zero3 vs Hne)).
Qed.
Lemma tet0_max d v : d <> zero3 -> v ∈ tet0 -> (forall w, w ∈ tet0 -> w <> v -> dot3 d w < dot3 d v) ->
  hull_support tet0 d (move3 zero3) = Ok v.
Proof.
  intros Hd Hv Hm. destruct (tet0_supports d Hd) as (s & Es & Hs & Hmax).
  assert (Hid : forall p, xf_pt (move3 zero3) p = p) by (intros p; rewrite move3_pt; apply V3_eq'; unfold zero3; rv0; ring).
  pose proof (get_max3_vertex tet0 (move3 zero3) d s ltac:(done) Es) as Hin.
  apply elem_of_list_fmap in Hin as (w & -> & Hw). rewrite Hid in *.
  assert (Hdv : dot3 d v <= dot3 d w) by (apply Hmax; exists v; split; [by apply hull3_vertex|by rewrite Hid]).
  rewrite Es. f_equal. destruct (Req_dec (vx w) (vx v)) as [E1|E1]; [destruct (Req_dec (vy w) (vy v)) as [E2|E2]; [destruct (Req_dec (vz w) (vz v)) as [E3|E3]; [by apply V3_eq'|]|]|].
  all: exfalso; assert (w <> v) as Hwv by (intros ->; lra); specialize (Hm w Hw Hwv); lra.
Qed.
Lemma tet0_case (Q : P3 -> Prop) : Q (mk3 3 (-1) (-1)) -> Q (mk3 (-1) 2 (-1)) -> Q (mk3 (-1) (-1) (-1)) -> Q (mk3 (-1) (-1) 2) -> forall w, w ∈ tet0 -> Q w.
Proof. intros ? ? ? ? w Hw. unfold tet0 in Hw. set_solver. Qed.
Lemma tet0_mink d v : d <> zero3 -> v ∈ tet0 -> (forall w, w ∈ tet0 -> w <> v -> dot3 d w < dot3 d v) ->
  mink3 (fun d => hull_support tet0 d (move3 zero3)) (fun _ => particle_support zero3 (move3 (mk3 (-3) (-3) (-3)))) d =
    Ok (mkSup (mk3 (vx v + 3) (vy v + 3) (vz v + 3)) v (mk3 (-3) (-3) (-3))).
Proof.
  intros Hd Hv Hm. unfold mink3, mink. rewrite (tet0_max d v Hd Hv Hm). cbn [mbind res_mbind res_bind]. unfold particle_support.
  cbn [mbind res_mbind res_bind]. rewrite move3_pt. f_equal. f_equal; apply V3_eq'; unfold zero3; rv0; ring.
Qed.
Example C42_hypotheses_met3 :
  supports3 (world (move3 zero3) (hull3 tet0)) (fun d => hull_support tet0 d (move3 zero3)) /\
  supports3 (fun p => p = mk3 (-3) (-3) (-3)) (fun _ => particle_support zero3 (move3 (mk3 (-3) (-3) (-3)))) /\
  convex3 (world (move3 zero3) (hull3 tet0)) /\ convex3 (fun p => p = mk3 (-3) (-3) (-3)) /\
  dist3_run 0 (1 / 10) (fun d => hull_support tet0 d (move3 zero3)) (fun _ => particle_support zero3 (move3 (mk3 (-3) (-3) (-3)))) (1 / 100) 100
    (xf_pt (move3 zero3) zero3) (xf_pt (move3 (mk3 (-3) (-3) (-3))) zero3) = Ok (Distance (mag3 (mk3 (-2) (-2) (-2)))).
Proof.
  split; [exact tet0_supports|]. split.
  { intros d _. exists (mk3 (-3) (-3) (-3)). unfold particle_support. rewrite move3_pt.
    split; [f_equal; apply V3_eq'; unfold zero3; rv0; ring|]. split; [done|]. intros x ->. lra. }
  split; [apply world_convex3; [apply move3_similar|apply hull3_convex]|].
  split; [intros x y t -> -> _; apply V3_eq'; rv0; ring|].
  rewrite !move3_pt. unfold dist3_run, dist_run.
  assert (Ed : first_dir (splat3 n1) sub3 (near0_3 0) (add3 zero3 zero3 : P3) (add3 zero3 (mk3 (-3) (-3) (-3))) = mk3 (-3) (-3) (-3)).
  { unfold first_dir. assert (E : sub3 (add3 zero3 (mk3 (-3) (-3) (-3))) (add3 zero3 zero3) = (mk3 (-3) (-3) (-3) : P3)) by (apply V3_eq'; unfold zero3; rv0; ring).
    rewrite E. cbv zeta. destruct (near0_3 0 _) eqn:En; [|done]. apply Gjk3.near0_3_spec in En. cbn [vx vy vz] in En. rewrite (Rabs_left (-3)) in En by lra. lra. }
  rewrite Ed. cbv zeta. change (mink sub3 neg3 ?a ?b) with (mink3 a b).
  rewrite (tet0_mink (mk3 (-3) (-3) (-3)) (mk3 (-1) (-1) (-1))); [|apply mk3_ne; left; lra|unfold tet0; set_solver|let w := fresh "w" in let Hw := fresh "Hw" in intros w Hw; pattern w; revert w Hw; apply tet0_case; intros ?; try done; rv0; lra].
  cbn [mbind res_mbind res_bind sp_v vx vy vz].
  assert (En : neg3 (mk3 (-3) (-3) (-3)) = (mk3 3 3 3 : P3)) by (apply V3_eq'; rv0; lra). rewrite En.
  rewrite (tet0_mink (mk3 3 3 3) (mk3 3 (-1) (-1))); [|apply mk3_ne; left; lra|unfold tet0; set_solver|let w := fresh "w" in let Hw := fresh "Hw" in intros w Hw; pattern w; revert w Hw; apply tet0_case; intros ?; try done; rv0; lra].
  cbn [mbind res_mbind res_bind sp_v vx vy vz]. change 100%nat with (Datatypes.S 99). cbn [dist_loop].
  set (s1 := mkSup (mk3 (-1 + 3) (-1 + 3) (-1 + 3)) _ _). set (s2 := mkSup (mk3 (3 + 3) (-1 + 3) (-1 + 3)) _ _).
  assert (Ec : closest3 0 (1 / 10) [s1; s2] = Ok ([s1; s2], mk3 2 2 2)).
  { unfold closest3, reduce3. cbv zeta. f_equal. f_equal. unfold closest_on_edge3. cbv zeta.
    assert (El : sub3 (sp_v s1) (sp_v s2) = mk3 (-4) 0 0) by (unfold s1, s2; cbn [sp_v]; apply V3_eq'; rv0; ring). rewrite El.
    assert (Em : mag3 (mk3 (-4) 0 0 : P3) = 4).
    { unfold mag3, mag2_3. cbn [nsqrt Num_R]. replace (dot3 (mk3 (-4) 0 0) (mk3 (-4) 0 0)) with (4 * 4) by (rv0; ring). apply sqrt_square; lra. }
    assert (Enn : normalize3 (mk3 (-4) 0 0) = (mk3 (-1) 0 0 : P3)).
    { unfold normalize3. rewrite Em. apply V3_eq'; rv0; lra. }
    rewrite Enn. cbn [nlt n0 Num_R]. unfold s1, s2. cbn [sp_v].
    rewrite (proj2 (Rltb_false _ _)) by (unfold zero3; rv0; lra). rewrite (proj2 (Rltb_true _ _)) by (unfold mag2_3, zero3; rv0; lra).
    apply V3_eq'; rv0; ring. }
  rewrite Ec. cbn [mbind res_mbind res_bind].
  destruct (near0_3 0 (mk3 2 2 2)) eqn:E0; [apply Gjk3.near0_3_spec in E0; cbn [vx vy vz] in E0; rewrite (Rabs_pos_eq 2) in E0 by lra; lra|].
  assert (En2 : neg3 (mk3 2 2 2) = (mk3 (-2) (-2) (-2) : P3)) by (apply V3_eq'; rv0; lra). rewrite En2.
  change (mink sub3 neg3 ?a ?b) with (mink3 a b).
  rewrite (tet0_mink (mk3 (-2) (-2) (-2)) (mk3 (-1) (-1) (-1))); [|apply mk3_ne; left; lra|unfold tet0; set_solver|let w := fresh "w" in let Hw := fresh "Hw" in intros w Hw; pattern w; revert w Hw; apply tet0_case; intros ?; try done; rv0; lra].
  cbn [mbind res_mbind res_bind get lookup list_lookup]. cbn [nlt Num_R]. rewrite (proj2 (Rltb_true _ _)); [done|].
  unfold s1; cbn [sp_v]; rv0; lra.
Qed.

(** ** Where [distance] fails *)
Local Instance num32d : Num f32 := Num_float 24 128.
Local Instance sgn32d : NumSgn f32 := NumSgn_float 24 128.
Definition dist32_2 (supL supR : V2 f32 -> res (V2 f32)) (T : Xf (V2 f32)) : res (dist_out f32) :=
  dist2_run (F32 1 (-23)) supL supR (F32 1 (-20)) 100 (xf_pt (frect_at 0 0) zero2) (xf_pt T zero2).
Definition dist32_3 (supL supR : V3 f32 -> res (V3 f32)) (T : Xf (V3 f32)) : res (dist_out f32) :=
  dist3_run (F32 1 (-23)) tenth32 supL supR (F32 1 (-20)) 100 (xf_pt (cube_at 0 0 0) zero3) (xf_pt T zero3).
(** Two particles 3 apart: [None] in the plane, a panic in space. *)
Theorem C42_particles_refuted :
  (match dist32_2 (fun _ => particle_support zero2 (frect_at 0 0)) (fun _ => particle_support zero2 (frect_at 3 0)) (frect_at 3 0) with
   | Ok o => match dist_forget o with None => true | Some _ => false end | _ => false end) = true /\
  (match dist32_3 (fun _ => particle_support zero3 (cube_at 0 0 0)) (fun _ => particle_support zero3 (cube_at 3 0 0)) (cube_at 3 0 0) with
   | Panic => true | _ => false end) = true.
Proof. split; by vm_compute. Qed.
(** A triangle below the line y = 1 and a particle at (4, 3): [None] although the shapes are
    2 or more apart.  (The direction of the particle has the corner (4, 0) exactly behind the
    origin: the simplex is a segment whose line contains no nearer point, the next support
    point makes a flat triangle, and that counts as enclosing the origin.) *)
Definition tri32 : list (V2 f32) := [mk2 (F32 4 0) (F32 0 0); mk2 (F32 0 0) (F32 1 0); mk2 (F32 (-1) 0) (F32 (-1) 0)].
Theorem C42_triangle_none_refuted :
  (match dist32_2 (fun d => polygon_support tri32 d (frect_at 0 0)) (fun _ => particle_support zero2 (frect_at 4 3)) (frect_at 4 3) with
   | Ok o => match dist_forget o with None => true | Some _ => false end | _ => false end) = true.
Proof. by vm_compute. Qed.
(** A tetrahedron and a particle at (4, -3, 0): panic. *)
Definition tet32 : list (V3 f32) :=
  [mk3 (F32 4 0) (F32 0 0) (F32 0 0); mk3 (F32 0 0) (F32 1 0) (F32 0 0); mk3 (F32 (-1) 0) (F32 (-1) 0) (F32 0 0); mk3 (F32 0 0) (F32 0 0) (F32 2 0)].
Theorem C42_tetrahedron_panics_refuted :
  (match dist32_3 (fun d => hull_support tet32 d (cube_at 0 0 0)) (fun _ => particle_support zero3 (cube_at 4 (-3) 0)) (cube_at 4 (-3) 0) with
   | Panic => true | _ => false end) = true.
Proof. by vm_compute. Qed.
(** Overlapping cubes get a (tiny) distance instead of [None]. *)
Theorem C42_overlap_distance_refuted :
  (match dist32_3 (fun d => cuboid_support cube32 d (cube_at 0 0 0)) (fun d => cuboid_support cube32 d (cube_at 1 1 0)) (cube_at 1 1 0) with
   | Ok o => match dist_forget o with None => false | Some d => nlt (F32 0 0) d && nlt d (F32 1 (-20)) end | _ => false end) = true.
Proof. by vm_compute. Qed.
