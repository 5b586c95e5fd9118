(** C37: rays against segments and points in the plane, over the reals. *)
From stdpp Require Import prelude.
From Coq Require Import Reals Lra Psatz.
From Verif Require Import Num Vec RealGeo AabbModel PropsAabb PropsAabbReal DbvtVisitors GeoModel.
Local Open Scope R_scope.

(** * Specification *)
Definition ray2_at (r : Ray (V2 R)) (t : R) : V2 R := add2 (origin r) (scale2 (direction r) t).
Definition on_seg2 (l : Line (V2 R)) (p : V2 R) : Prop :=
  exists u, 0 <= u <= 1 /\ p = add2 (l_origin l) (scale2 (sub2 (l_dest l) (l_origin l)) u).

(** * Proofs *)
(** Scalar forms: the ray starts at the origin in direction [(a, b)], the segment runs from [(x, y)] by [(c, d)]. *)
Lemma parallel_param a b x y : (a <> 0 \/ b <> 0) -> x * b - y * a = 0 ->
  let k := (x * a + y * b) / (a * a + b * b) in x = a * k /\ y = b * k.
Proof.
  intros Hab Hx k. assert (Hn : a * a + b * b <> 0) by nra. unfold k. split.
  - replace (a * ((x * a + y * b) / (a * a + b * b))) with ((x * (a * a + b * b) + b * (y * a - x * b)) / (a * a + b * b)) by (field; done).
    replace (y * a - x * b) with 0 by lra. field. done.
  - replace (b * ((x * a + y * b) / (a * a + b * b))) with ((y * (a * a + b * b) + a * (x * b - y * a)) / (a * a + b * b)) by (field; done).
    rewrite Hx. field. done.
Qed.
Theorem C37_ray_segment_exact r l : direction r <> zero2 ->
  match ray_line2 r l with
  | Some x => exists t, 0 <= t /\ x = ray2_at r t /\ on_seg2 l x /\ forall t', 0 <= t' -> on_seg2 l (ray2_at r t') -> t <= t'
  | None => forall t, 0 <= t -> ~ on_seg2 l (ray2_at r t)
  end.
Proof.
  destruct r as [[px py] [a b]], l as [[qx qy] [ex ey]]. intros Hd. cbn [direction] in Hd.
  assert (Hab : a <> 0 \/ b <> 0).
  { destruct (Req_dec a 0) as [-> |]; [|tauto]. destruct (Req_dec b 0) as [-> |]; [|tauto]. by destruct Hd. }
  clear Hd. unfold ray_line2, ray2_at, on_seg2. cbn [origin direction l_origin l_dest]. rv0. cbn [ux uy] in *.
  set (c := ex - qx) in *. set (d := ey - qy) in *. set (x := qx - px). set (y := qy - py).
  assert (Hx2 : ex - px = x + c) by (unfold x, c; ring). assert (Hy2 : ey - py = y + d) by (unfold y, d; ring). rewrite Hx2, Hy2.
  (* incidence in scalar form *)
  assert (Hinc : forall t, (exists u, 0 <= u <= 1 /\ mk2 (px + a * t) (py + b * t) = mk2 (qx + c * u) (qy + d * u))
      <-> exists u, 0 <= u <= 1 /\ a * t = x + c * u /\ b * t = y + d * u).
  { intros t. split.
    - intros (u & Hu & E). injection E as E1 E2. exists u. unfold x, y. repeat split; lra.
    - intros (u & Hu & E1 & E2). exists u. split; [done|]. unfold x, y in *. f_equal; lra. }
  destruct (Reqb (a * d - b * c) 0) eqn:E1.
  - apply Reqb_true in E1.
    destruct (Reqb (x * b - y * a) 0) eqn:E2; cbn [negb].
    + apply Reqb_true in E2. assert (Hn : 0 < a * a + b * b) by nra.
      assert (Hc : c * b - d * a = 0) by lra.
      destruct (parallel_param a b x y Hab E2) as [Ex Ey]. destruct (parallel_param a b c d Hab Hc) as [Ec Ed].
      set (n := a * a + b * b) in *. set (k := (x * a + y * b) / n) in *. set (m := (c * a + d * b) / n) in *.
      assert (Dk : x * a + y * b = k * n) by (unfold k; field; lra).
      assert (Dm : (x + c) * a + (y + d) * b = (k + m) * n) by (unfold k, m; field; lra).
      rewrite Dk, Dm.
      assert (Hinc2 : forall t, (exists u, 0 <= u <= 1 /\ a * t = x + c * u /\ b * t = y + d * u) <-> exists u, 0 <= u <= 1 /\ t = k + m * u).
      { intros t. split; intros (u & Hu & Ht); exists u; (split; [done|]).
        - destruct Ht as [T1 T2]. rewrite Ex, Ec in T1. rewrite Ey, Ed in T2.
          destruct Hab as [Ha|Hb]; [apply (Rmult_eq_reg_l a); lra|apply (Rmult_eq_reg_l b); lra].
        - rewrite Ht, Ex, Ec, Ey, Ed. split; ring. }
      assert (Hinc3 : forall t, (exists u, 0 <= u <= 1 /\ mk2 (px + a * t) (py + b * t) = mk2 (qx + c * u) (qy + d * u)) <-> exists u, 0 <= u <= 1 /\ t = k + m * u) by (intros t; by rewrite Hinc).
      assert (Hs : forall z, (Rleb (z * n) 0 = Rleb z 0) /\ (Rleb 0 (z * n) = Rleb 0 z)).
      { intros z. split; apply eq_true_iff_eq; rewrite !Rleb_true; split; intros; nra. }
      assert (Hcmp : Rleb (k * n) ((k + m) * n) = Rleb 0 m) by (apply eq_true_iff_eq; rewrite !Rleb_true; split; intros; nra).
      rewrite !(proj1 (Hs _)), !(proj2 (Hs _)), Hcmp.
      clearbody k m. clear Hs Hcmp Dk Dm Hinc2 Hinc E1 E2 Hc.
      assert (Hpp : mk2 px py = mk2 (px + a * 0) (py + b * 0)) by (f_equal; ring).
      assert (Hpq : mk2 qx qy = mk2 (px + a * k) (py + b * k)) by (f_equal; unfold x, y in *; lra).
      assert (Hpe : mk2 ex ey = mk2 (px + a * (k + m)) (py + b * (k + m))).
      { rewrite !Rmult_plus_distr_l, <- Ec, <- Ed, <- Ex, <- Ey. unfold x, y, c, d. f_equal; ring. }
      destruct ((Rleb k 0 && Rleb 0 (k + m)) || (Rleb 0 k && Rleb (k + m) 0)) eqn:F1.
      * exists 0. split; [lra|]. split; [done|]. split; [|intros; done].
        assert (Hm : exists u, 0 <= u <= 1 /\ 0 = k + m * u).
        { apply orb_true_iff in F1. rewrite !andb_true_iff, !Rleb_true in F1.
          destruct (Req_dec m 0) as [Em|Em]; [exists 0; split; [lra|]; subst m; lra|].
          exists (- k / m). assert (m * (- k / m) = - k) by (field; done). split; [|lra].
          destruct (Rlt_dec 0 m); split; [nra|nra| |]; nra. }
        destruct Hm as (u & Hu & Eu). exists u. split; [done|]. unfold c, d in *. rewrite Ec, Ed. unfold x, y in *.
        f_equal; [replace px with (qx - a * k) by lra|replace py with (qy - b * k) by lra]; replace k with (- m * u) by lra; ring.
      * apply orb_false_iff in F1. rewrite !andb_false_iff, !Rleb_false in F1.
        destruct (Rleb 0 k && Rleb 0 (k + m)) eqn:F2.
        -- apply andb_true_iff in F2. rewrite !Rleb_true in F2.
           destruct (Rleb 0 m) eqn:F3; [apply Rleb_true in F3|apply Rleb_false in F3].
           ++ exists k. split; [lra|]. split; [done|]. split.
              ** exists 0. split; [lra|]. f_equal; ring.
              ** intros t' _ (u & Hu & ->)%Hinc3. nra.
           ++ exists (k + m). split; [lra|]. split; [done|]. split.
              ** exists 1. split; [lra|]. unfold c, d. f_equal; ring.
              ** intros t' _ (u & Hu & ->)%Hinc3. nra.
        -- apply andb_false_iff in F2. rewrite !Rleb_false in F2. intros t Ht (u & Hu & ->)%Hinc3.
           assert (k < 0 /\ k + m < 0) as [G1 G2] by (clear -F1 F2; lra). clear -G1 G2 Ht Hu.
           replace (k + m * u) with ((1 - u) * k + u * (k + m)) in Ht by ring. destruct (Req_dec u 0) as [-> |]; nra.
    + apply not_true_iff_false in E2. rewrite Reqb_true in E2. intros t Ht (u & Hu & T1 & T2)%Hinc. apply E2.
      assert (x = a * t - c * u) as -> by lra. assert (y = b * t - d * u) as -> by lra. nra.
  - apply not_true_iff_false in E1. rewrite Reqb_true in E1. set (D := a * d - b * c) in *.
    assert (Huniq : forall t u, a * t = x + c * u /\ b * t = y + d * u <-> t = (x * d - y * c) / D /\ u = (x * b - y * a) / D).
    { intros t u. split.
      - intros [T1 T2]. split; apply (Rmult_eq_reg_r D); try done.
        + replace ((x * d - y * c) / D * D) with (x * d - y * c) by (field; done). unfold D.
          replace x with (a * t - c * u) by lra. replace y with (b * t - d * u) by lra. ring.
        + replace ((x * b - y * a) / D * D) with (x * b - y * a) by (field; done). unfold D.
          replace x with (a * t - c * u) by lra. replace y with (b * t - d * u) by lra. ring.
      - intros [-> ->]. unfold D in *. split; field; done. }
    set (T := (x * d - y * c) / D) in *. set (U := (x * b - y * a) / D) in *.
    destruct (Rleb 0 T && Rleb 0 U && Rleb U 1) eqn:F.
    + rewrite !andb_true_iff, !Rleb_true in F. exists T. split; [lra|]. split; [f_equal; ring|]. split.
      * exists U. split; [lra|]. destruct (proj2 (Huniq T U) ltac:(done)) as [G1 G2]. unfold x, y in *. f_equal; lra.
      * intros t' Ht' (u & Hu & T12)%Hinc. apply Huniq in T12. lra.
    + rewrite !andb_false_iff, !Rleb_false in F. intros t Ht (u & Hu & T12)%Hinc. apply Huniq in T12. lra.
Qed.
(** With a zero direction, the origin is reported whatever the segment. *)
Theorem C37_zero_direction_hits_everything_refuted (r : Ray (V2 R)) l : direction r = zero2 -> ray_line2 r l = Some (origin r).
Proof.
  intros Hd. unfold ray_line2. rewrite Hd. unfold perp_dot, dot2, zero2. rs. cbn [ux uy].
  rewrite !(proj2 (Reqb_true _ _)) by ring. cbn [negb].
  match goal with |- context [Rleb ?e 0] => replace e with 0 by ring end.
  match goal with |- context [Rleb 0 ?e] => replace e with 0 by ring end.
  rewrite !(proj2 (Rleb_true _ _)) by lra. done.
Qed.

(** ** Points on rays, with the tolerances of [relative_eq] *)
Lemma rel_eq_R eps mr a b : 0 <= eps -> 0 <= mr -> 0 <= a <= b -> rel_eq eps mr a b = true <-> b - a <= Rmax eps (mr * b).
Proof.
  intros He Hm Hab. unfold rel_eq. rs. rewrite (Rabs_pos_eq a), (Rabs_pos_eq b) by lra.
  rewrite Rabs_minus_sym, (Rabs_pos_eq (b - a)) by lra.
  destruct (Reqb a b) eqn:E1; [apply Reqb_true in E1|].
  { split; [|done]. intros _. subst. rewrite Rminus_eq_0. pose proof (Rmax_l eps (mr * b)). lra. }
  apply not_true_iff_false in E1. rewrite Reqb_true in E1.
  rewrite (proj2 (Rltb_true a b)) by lra.
  destruct (Rleb (b - a) eps) eqn:E2; [apply Rleb_true in E2|apply Rleb_false in E2].
  - split; [|done]. intros _. pose proof (Rmax_l eps (mr * b)). lra.
  - rewrite Rleb_true. unfold Rmax. destruct (Rle_dec eps (mr * b)); lra.
Qed.
(** Unit direction: a point counts as hit iff it is ahead of the origin and the square of
    its distance to the line is at most [max(eps, mr * squared distance to the origin)]. *)
Definition ray3_at (r : Ray (V3 R)) (t : R) : V3 R := add3 (origin r) (scale3 (direction r) t).
Theorem C37_point_ray3_within_tolerance eps mr p r : 0 <= eps -> 0 <= mr -> mag3 (direction r) = 1 ->
  let tca := dot3 (sub3 p (origin r)) (direction r) in
  pt_ray3_test (rel_eq eps mr) p r = true
    <-> 0 < tca /\ dist2_3 (ray3_at r tca) p <= Rmax eps (mr * dist2_3 (origin r) p).
Proof.
  intros He Hm Hd tca. unfold pt_ray3_test. cbv zeta. fold tca. rewrite andb_true_iff. cbn [nlt nmul n0 Num_R]. rewrite Rltb_true.
  assert (Ed : dot3 (direction r) (direction r) = 1) by (rewrite <- mag3_sqr, Hd; ring).
  pose proof (cauchy3_sqr (sub3 p (origin r)) (direction r)) as Hc. fold tca in Hc. rewrite Ed in Hc.
  unfold mag2_3. set (L := dot3 (sub3 p (origin r)) (sub3 p (origin r))) in *.
  rewrite rel_eq_R by (try done; nra).
  assert (E1 : dist2_3 (origin r) p = L) by done. rewrite E1.
  assert (E2 : dist2_3 (ray3_at r tca) p = L - 2 * tca * dot3 (sub3 p (origin r)) (direction r) + tca * tca * dot3 (direction r) (direction r)).
  { unfold ray3_at, L. generalize tca. clear. intros t. rv0. ring. }
  rewrite E2, Ed. fold tca. replace (L - 2 * tca * tca + tca * tca * 1) with (L - tca * tca) by ring. done.
Qed.
Theorem C37_point_ray2_within_tolerance eps mr p r : 0 <= eps -> 0 <= mr -> mag2 (direction r) = 1 ->
  let tca := dot2 (sub2 p (origin r)) (direction r) in
  pt_ray2_test (rel_eq eps mr) p r = true
    <-> 0 < tca /\ dist2_2 (ray2_at r tca) p <= Rmax eps (mr * dist2_2 (origin r) p).
Proof.
  intros He Hm Hd tca. unfold pt_ray2_test. cbv zeta. fold tca. rewrite andb_true_iff. cbn [nlt nmul n0 Num_R]. rewrite Rltb_true.
  assert (Ed : dot2 (direction r) (direction r) = 1) by (rewrite <- mag2_sqr, Hd; ring).
  pose proof (cauchy2_sqr (sub2 p (origin r)) (direction r)) as Hc. fold tca in Hc. rewrite Ed in Hc.
  unfold mag2_2. set (L := dot2 (sub2 p (origin r)) (sub2 p (origin r))) in *.
  rewrite rel_eq_R by (try done; nra).
  assert (E1 : dist2_2 (origin r) p = L) by done. rewrite E1.
  assert (E2 : dist2_2 (ray2_at r tca) p = L - 2 * tca * dot2 (sub2 p (origin r)) (direction r) + tca * tca * dot2 (direction r) (direction r)).
  { unfold ray2_at, L. generalize tca. clear. intros t. rv0. ring. }
  rewrite E2, Ed. fold tca. replace (L - 2 * tca * tca + tca * tca * 1) with (L - tca * tca) by ring. done.
Qed.
(** Without normalisation a point straight ahead is missed. *)
Theorem C37_unnormalised_ray_misses_point_refuted eps mr : 0 <= eps < 1 -> 0 <= mr < 1/4 ->
  exists (p : V3 R) r t, 0 < t /\ p = ray3_at r t /\ pt_ray3_test (rel_eq eps mr) p r = false.
Proof.
  intros He Hm. exists (mk3 1 0 0), (mkRay zero3 (mk3 2 0 0)), (1/2). split; [lra|]. split.
  { apply V3_eq; unfold ray3_at; rv0; cbn [vx vy vz origin direction]; lra. }
  unfold pt_ray3_test, rel_eq. cbn [origin direction]. unfold zero3. rv0. cbn [vx vy vz].
  apply andb_false_iff. right.
  match goal with |- context [Reqb ?a ?b] => replace a with 4 by ring; replace b with 1 by ring end.
  destruct (Reqb 4 1) eqn:E; [apply Reqb_true in E; lra|]. clear E.
  replace (4 - 1) with 3 by ring. rewrite !Rabs_pos_eq by lra.
  destruct (Rleb 3 eps) eqn:E; [apply Rleb_true in E; lra|]. clear E.
  destruct (Rltb 4 1) eqn:E; [apply Rltb_true in E; lra|]. apply Rleb_false. lra.
Qed.
(** Instances: a proper crossing, and a collinear overlap. *)
Example C37_hypotheses_met :
  ray_line2 (mkRay (mk2 0 0) (mk2 1 1)) (mkLine (mk2 0 2) (mk2 2 0)) = Some (mk2 1 1)
  /\ ray_line2 (mkRay (mk2 0 0) (mk2 1 0)) (mkLine (mk2 3 0) (mk2 2 0)) = Some (mk2 2 0)
  /\ (mk2 1 1 : V2 R) <> zero2 /\ (mk2 1 0 : V2 R) <> zero2.
Proof.
  split; [|split; [|split]].
  - unfold ray_line2. cbn [origin direction l_origin l_dest]. rv0. cbn [ux uy].
    destruct (Reqb _ 0) eqn:E; [apply Reqb_true in E; lra|]. clear E.
    rewrite !(proj2 (Rleb_true _ _)) by lra. cbn [andb]. f_equal. f_equal; field.
  - unfold ray_line2. cbn [origin direction l_origin l_dest]. rv0. cbn [ux uy].
    rewrite !(proj2 (Reqb_true _ _)) by ring. cbn [negb].
    repeat match goal with |- context [Rleb ?a ?b] => let E := fresh in destruct (Rleb a b) eqn:E;
      [apply Rleb_true in E|apply Rleb_false in E]; cbn [andb orb]; try (exfalso; lra) end. done.
  - intros E. apply (f_equal ux) in E. unfold zero2 in E. rs. simpl in E. lra.
  - intros E. apply (f_equal ux) in E. unfold zero2 in E. rs. simpl in E. lra.
Qed.
