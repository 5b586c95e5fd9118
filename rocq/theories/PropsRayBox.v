(** C27-C29: rays against axis-aligned boxes, over reals with IEEE special values. *)
From stdpp Require Import prelude.
From Coq Require Import Reals Lra Psatz.
From Verif Require Import Num Vec Xr AabbModel PropsAabb.
Local Open Scope R_scope.

(** * Specification *)
(** Finite points, rays and boxes. *)
Definition fin2 (p : V2 xr) (q : V2 R) : Prop := is_fin (ux p) (ux q) /\ is_fin (uy p) (uy q).
Definition fin3 (p : V3 xr) (q : V3 R) : Prop := is_fin (vx p) (vx q) /\ is_fin (vy p) (vy q) /\ is_fin (vz p) (vz q).
Definition fin_ray2 (r : Ray (V2 xr)) (q : Ray (V2 R)) : Prop := fin2 (origin r) (origin q) /\ fin2 (direction r) (direction q).
Definition fin_ray3 (r : Ray (V3 xr)) (q : Ray (V3 R)) : Prop := fin3 (origin r) (origin q) /\ fin3 (direction r) (direction q).
Definition fin_box2 (b : Aabb2 xr) (c : Aabb2 R) : Prop := fin2 (min2 b) (min2 c) /\ fin2 (max2 b) (max2 c).
Definition fin_box3 (b : Aabb3 xr) (c : Aabb3 R) : Prop := fin3 (min3 b) (min3 c) /\ fin3 (max3 b) (max3 c).
(** The point of the line of a ray at parameter [t]. *)
Definition at2 (q : Ray (V2 R)) (t : R) : V2 R := add2 (origin q) (scale2 (direction q) t).
Definition at3 (q : Ray (V3 R)) (t : R) : V3 R := add3 (origin q) (scale3 (direction q) t).
(** On an axis the ray does not move along, a box counts only with its faces removed;
    in 3D a box that is flat on that axis also counts if the ray runs inside its plane. *)
Definition in_axis2 (lo hi o d t : R) : Prop := if Req_EM_T d 0 then lo < o < hi else lo <= o + d * t <= hi.
Definition in_axis3 (lo hi o d t : R) : Prop :=
  if Req_EM_T d 0 then lo < o < hi \/ (lo = o /\ o = hi) else lo <= o + d * t <= hi.
Definition meets2 (q : Ray (V2 R)) (c : Aabb2 R) (t : R) : Prop :=
  in_axis2 (ux (min2 c)) (ux (max2 c)) (ux (origin q)) (ux (direction q)) t
  /\ in_axis2 (uy (min2 c)) (uy (max2 c)) (uy (origin q)) (uy (direction q)) t.
Definition meets3 (q : Ray (V3 R)) (c : Aabb3 R) (t : R) : Prop :=
  in_axis3 (vx (min3 c)) (vx (max3 c)) (vx (origin q)) (vx (direction q)) t
  /\ in_axis3 (vy (min3 c)) (vy (max3 c)) (vy (origin q)) (vy (direction q)) t
  /\ in_axis3 (vz (min3 c)) (vz (max3 c)) (vz (origin q)) (vz (direction q)) t.
(** The parameter a hit must have: the entry if the line is not yet inside at the origin,
    the exit otherwise. *)
Definition hit_param (meets : R -> Prop) (t : R) : Prop :=
  0 <= t /\ meets t
  /\ ((forall t', meets t' -> t <= t') \/ ((exists t', t' < 0 /\ meets t') /\ forall t', meets t' -> t' <= t)).

(** * Proofs *)
Definition lower (x : xr) (t : R) : Prop :=
  match x with XNaN => True | XFin _ r => r <= t | XInf s => s = true end.
Definition upper (x : xr) (t : R) : Prop :=
  match x with XNaN => True | XFin _ r => t <= r | XInf s => s = false end.
Definition lowb (x : xr) : Prop := match x with XFin _ _ | XInf false => True | _ => False end.
Definition upb (x : xr) : Prop := match x with XFin _ _ | XInf true => True | _ => False end.

Lemma xlt_fin s r t q : xlt (XFin s r) (XFin t q) = Rltb r q.
Proof. apply fin_lt; eexists; done. Qed.
Lemma Rleb_refl r : Rleb r r = true.
Proof. apply Rleb_true. lra. Qed.
Lemma lower_fmax x y t : lower (fmax x y) t <-> lower x t /\ lower y t.
Proof.
  destruct x as [s r|[]|], y as [s' q|[]|]; unfold fmax; simpl; rewrite ?xlt_fin; unfold xeq, xlt; simpl; rewrite ?Rleb_refl; simpl; try intuition done.
  destruct (Rltb r q) eqn:E; [apply Rltb_true in E|apply Rltb_false in E]; simpl; lra.
Qed.
Lemma upper_fmin x y t : upper (fmin x y) t <-> upper x t /\ upper y t.
Proof.
  destruct x as [s r|[]|], y as [s' q|[]|]; unfold fmin; simpl; rewrite ?xlt_fin; unfold xeq, xlt; simpl; rewrite ?Rleb_refl; simpl; try intuition done.
  destruct (Rltb q r) eqn:E; [apply Rltb_true in E|apply Rltb_false in E]; simpl; lra.
Qed.
Lemma lowb_fmax x y : lowb x \/ lowb y -> lowb (fmax x y).
Proof.
  destruct x as [s r|[]|], y as [s' q|[]|]; unfold fmax; simpl; rewrite ?xlt_fin; unfold xeq, xlt; simpl; rewrite ?Rleb_refl; simpl; try intuition done.
  by destruct (Rltb r q).
Qed.
Lemma upb_fmin x y : upb x \/ upb y -> upb (fmin x y).
Proof.
  destruct x as [s r|[]|], y as [s' q|[]|]; unfold fmin; simpl; rewrite ?xlt_fin; unfold xeq, xlt; simpl; rewrite ?Rleb_refl; simpl; try intuition done.
  by destruct (Rltb q r).
Qed.

(** The interval of a moving axis. *)
Lemma axis_interval lo hi o d t : lo <= hi -> d <> 0 ->
  Rmin ((lo - o) / d) ((hi - o) / d) <= t /\ t <= Rmax ((lo - o) / d) ((hi - o) / d) <-> lo <= o + d * t <= hi.
Proof.
  intros Hl Hd.
  assert (E1 : (lo - o) / d * d = lo - o) by (field; done). assert (E2 : (hi - o) / d * d = hi - o) by (field; done).
  set (a := (lo - o) / d) in *. set (b := (hi - o) / d) in *. clearbody a b.
  destruct (Rtotal_order d 0) as [Hn|[?|Hp]]; [|lra|].
  - assert (b <= a) by nra. rewrite Rmin_right, Rmax_left by lra. split; [intros []|intros []]; split; nra.
  - assert (a <= b) by nra. rewrite Rmin_left, Rmax_right by lra. split; [intros []|intros []]; split; nra.
Qed.

(** The decision both tests take on the slab interval. *)
Lemma decide_hit tm tM (K : R -> Prop) :
  (forall t, K t <-> lower tm t /\ upper tM t) -> lowb tm -> upb tM ->
  if ((nlt tm n0 && nlt tM n0) || nlt tM tm)%bool then forall t, 0 <= t -> ~ K t
  else exists t, is_fin (if nle n0 tm then tm else tM) t /\ hit_param K t.
Proof.
  intros HK Hl Hu. destruct tm as [s l|[]|]; simpl in Hl; try done; destruct tM as [s' h|[]|]; simpl in Hu; try done; simpl.
  - rewrite !xlt_fin. unfold lower, upper in HK.
    destruct (Rltb l 0) eqn:E1; [apply Rltb_true in E1|apply Rltb_false in E1].
    + destruct (Rltb h 0) eqn:E2; [apply Rltb_true in E2|apply Rltb_false in E2]; simpl.
      * intros t Ht Hk. apply HK in Hk. lra.
      * destruct (Rltb h l) eqn:E3; [apply Rltb_true in E3; lra|apply Rltb_false in E3].
        assert (Rleb 0 l = false) as -> by (apply Rleb_false; lra). exists h. split; [eexists; done|].
        split; [lra|]. split; [apply HK; lra|]. right. split; [exists l; split; [lra|]; apply HK; lra|].
        intros t' Ht'. apply HK in Ht'. lra.
    + assert (Rleb 0 l = true) as -> by (apply Rleb_true; lra). simpl. destruct (Rltb h l) eqn:E3; [apply Rltb_true in E3|apply Rltb_false in E3].
      * intros t Ht Hk. apply HK in Hk. lra.
      * exists l. split; [eexists; done|]. split; [lra|]. split; [apply HK; lra|]. left. intros t' Ht'. apply HK in Ht'. lra.
  - rewrite orb_true_r. intros t Ht Hk. apply HK in Hk as [_ Hk]. done.
  - intros t Ht Hk. apply HK in Hk as [Hk _]. done.
  - intros t Ht Hk. apply HK in Hk as [_ Hk]. done.
Qed.

Lemma fin_neq0 x r : is_fin x r -> neq x n0 = Reqb r 0.
Proof. intros Hx. simpl. rewrite (fin_eq x _ r 0); [done|done|eexists; done]. Qed.
Lemma fin_in_lower x r t : is_fin x r -> lower x t <-> r <= t. Proof. by intros [s ->]. Qed.
Lemma fin_in_upper x r t : is_fin x r -> upper x t <-> t <= r. Proof. by intros [s ->]. Qed.

Lemma fin_lowb x r : is_fin x r -> lowb x. Proof. by intros [s ->]. Qed.
Lemma fin_upb x r : is_fin x r -> upb x. Proof. by intros [s ->]. Qed.

Section two.
  (** One axis of the 2D test. *)
  Lemma slab2_spec lo hi o d lo' hi' o' d' tm tM (K : R -> Prop) :
    is_fin lo lo' -> is_fin hi hi' -> is_fin o o' -> is_fin d d' -> lo' <= hi' ->
    (forall t, K t <-> lower tm t /\ upper tM t) ->
    match slab2 lo hi o d (tm, tM) with
    | None => forall t, ~ in_axis2 lo' hi' o' d' t
    | Some (tm', tM') => (forall t, K t /\ in_axis2 lo' hi' o' d' t <-> lower tm' t /\ upper tM' t)
        /\ (lowb tm \/ d' <> 0 -> lowb tm') /\ (upb tM \/ d' <> 0 -> upb tM')
    end.
  Proof.
    intros Hlo Hhi Ho Hd Hle HK. unfold slab2. rewrite (fin_neq0 d d' Hd). unfold in_axis2.
    destruct (Reqb d' 0) eqn:E; [apply Reqb_true in E|apply Reqb_false in E]; simpl.
    - rewrite (fin_le o lo o' lo'), (fin_le hi o hi' o') by done.
      destruct (Req_EM_T d' 0) as [_|]; [|lra].
      destruct (Rleb o' lo') eqn:E1; [apply Rleb_true in E1|apply Rleb_false in E1]; simpl; [intros; lra|].
      destruct (Rleb hi' o') eqn:E2; [apply Rleb_true in E2|apply Rleb_false in E2]; simpl; [intros; lra|].
      split_and!; [|intros [?|?]; [done|lra]|intros [?|?]; [done|lra]]. intros t. rewrite <- HK. split; [tauto|]. intros; split; [done|lra].
    - destruct (Req_EM_T d' 0) as [|_]; [lra|].
      assert (F1 : is_fin ((lo - o) / d)%N_ ((lo' - o') / d')) by (apply fin_div; [done|by apply fin_sub|done]).
      assert (F2 : is_fin ((hi - o) / d)%N_ ((hi' - o') / d')) by (apply fin_div; [done|by apply fin_sub|done]).
      pose proof (fin_fmin _ _ _ _ F1 F2) as Fm. pose proof (fin_fmax _ _ _ _ F1 F2) as FM.
      split_and!.
      + intros t. rewrite lower_fmax, upper_fmin, <- (axis_interval lo' hi' o' d' t Hle E), HK.
        rewrite (fin_in_lower _ _ t Fm), (fin_in_upper _ _ t FM). tauto.
      + intros _. apply lowb_fmax. right. exact (fin_lowb _ _ Fm).
      + intros _. apply upb_fmin. right. exact (fin_upb _ _ FM).
  Qed.

  Lemma slabs2_spec r b q c : fin_ray2 r q -> fin_box2 b c -> box2 c ->
    match slabs2 r b with
    | None => forall t, ~ meets2 q c t
    | Some (tm, tM) => (forall t, meets2 q c t <-> lower tm t /\ upper tM t)
        /\ (direction q <> zero2 -> lowb tm /\ upb tM)
    end.
  Proof.
    intros [[Ox Oy] [Dx Dy]] [[Lx Ly] [Hx Hy]] [Bx By]. unfold slabs2. unfold Le in Bx, By. simpl in Bx, By.
    apply Rleb_true in Bx, By.
    pose proof (slab2_spec _ _ _ _ _ _ _ _ nninf ninf (fun _ => True) Lx Hx Ox Dx Bx) as H1.
    destruct (slab2 (ux (min2 b)) (ux (max2 b)) (ux (origin r)) (ux (direction r)) (nninf, ninf)) as [[tm tM]|].
    - destruct H1 as (H1 & Hl1 & Hu1); [simpl; tauto|].
      pose proof (slab2_spec _ _ _ _ _ _ _ _ tm tM (fun t => True /\ in_axis2 _ _ _ _ t) Ly Hy Oy Dy By H1) as H2.
      destruct (slab2 (uy (min2 b)) (uy (max2 b)) (uy (origin r)) (uy (direction r)) (tm, tM)) as [[tm' tM']|].
      + destruct H2 as (H2 & Hl2 & Hu2). split.
        * intros t. rewrite <- H2. unfold meets2. tauto.
        * intros Hne. assert (Hd : ux (direction q) <> 0 \/ uy (direction q) <> 0).
          { destruct (Req_dec (ux (direction q)) 0) as [E1|]; [|auto]. destruct (Req_dec (uy (direction q)) 0) as [E2|]; [|auto].
            destruct Hne. destruct q as [? [x y]]; simpl in *. subst. done. }
          destruct Hd; tauto.
      + intros t [_ Ht]. by eapply H2.
    - intros t [Ht _]. eapply H1; [simpl; tauto|done].
  Qed.

  Lemma fin_at2 r q x t : fin_ray2 r q -> is_fin x t -> fin2 (add2 (origin r) (scale2 (direction r) x)) (at2 q t).
  Proof.
    intros [[Ox Oy] [Dx Dy]] Hx. split; simpl; apply fin_add; try done; by apply fin_mul.
  Qed.

  (** C27 *)
  Theorem C27_ray_aabb2_exact r b q c : fin_ray2 r q -> fin_box2 b c -> box2 c -> direction q <> zero2 ->
    match ray_aabb2 r b with
    | None => forall t, 0 <= t -> ~ meets2 q c t
    | Some p => exists t, hit_param (meets2 q c) t /\ fin2 p (at2 q t)
    end.
  Proof.
    intros Hr Hb Hc Hd. unfold ray_aabb2. pose proof (slabs2_spec r b q c Hr Hb Hc) as Hs.
    destruct (slabs2 r b) as [[tm tM]|]; [|intros t _; apply Hs].
    destruct Hs as (HK & Hbd). destruct (Hbd Hd) as [Hl Hu]. pose proof (decide_hit tm tM _ HK Hl Hu) as Hdec.
    destruct (((nlt tm n0 && nlt tM n0) || nlt tM tm)%bool); [done|]. destruct Hdec as (t & Hf & Hh).
    exists t. split; [done|]. by apply fin_at2.
  Qed.
  (** Every reported point lies in the closed box. *)
  Lemma meets2_in q c t : box2 c -> meets2 q c t -> in2 c (at2 q t).
  Proof.
    intros _ [Hx Hy]. unfold in2, Le; simpl. rewrite !Rleb_true. unfold in_axis2 in *.
    destruct (Req_EM_T (ux (direction q)) 0) as [E|], (Req_EM_T (uy (direction q)) 0) as [E'|]; rewrite ?E, ?E'; lra.
  Qed.
  Theorem C27_hit_point_in_box r b q c p : fin_ray2 r q -> fin_box2 b c -> box2 c -> direction q <> zero2 ->
    ray_aabb2 r b = Some p -> exists p', fin2 p p' /\ in2 c p' /\ exists t, 0 <= t /\ p' = at2 q t.
  Proof.
    intros Hr Hb Hc Hd Hp. pose proof (C27_ray_aabb2_exact r b q c Hr Hb Hc Hd) as H. rewrite Hp in H.
    destruct H as (t & (Ht & Hm & _) & Hf). exists (at2 q t). split_and!; [done|by apply meets2_in|eauto].
  Qed.
  (** Without the axis-parallel boundary case the test is the set-theoretic one. *)
  Theorem C27_generic_ray_hits_iff_half_line_meets_box r b q c : fin_ray2 r q -> fin_box2 b c -> box2 c ->
    ux (direction q) <> 0 -> uy (direction q) <> 0 ->
    is_Some (ray_aabb2 r b) <-> exists t, 0 <= t /\ in2 c (at2 q t).
  Proof.
    intros Hr Hb Hc Hx Hy. assert (Hd : direction q <> zero2). { intros E. rewrite E in Hx. done. }
    assert (Hm : forall t, in2 c (at2 q t) -> meets2 q c t).
    { intros t. unfold in2, Le, meets2, in_axis2; simpl. rewrite !Rleb_true.
      destruct (Req_EM_T (ux (direction q)) 0), (Req_EM_T (uy (direction q)) 0); lra. }
    pose proof (C27_ray_aabb2_exact r b q c Hr Hb Hc Hd) as H. destruct (ray_aabb2 r b) as [p|].
    - split; [|eauto]. intros _. destruct H as (t & (Ht & Hmt & _) & _). exists t. split; [done|]. by apply meets2_in.
    - split; [by intros []|]. intros (t & Ht & Hin). destruct (H t Ht); auto.
  Qed.
  (** A ray without direction whose origin is strictly inside reports a hit at a NaN point. *)
  Theorem C27_zero_direction_reports_nan_refuted r b q c : fin_ray2 r q -> fin_box2 b c -> box2 c -> direction q = zero2 ->
    ux (min2 c) < ux (origin q) < ux (max2 c) -> uy (min2 c) < uy (origin q) < uy (max2 c) ->
    ray_aabb2 r b = Some (mk2 XNaN XNaN) /\ ray_aabb2_test r b = true.
  Proof.
    intros Hr Hb Hc Hd Hx Hy. pose proof Hr as [[Ox Oy] [Dx Dy]]. pose proof Hb as [[Lx Ly] [Hhx Hhy]].
    assert (Hs : slabs2 r b = Some (nninf, ninf)).
    { unfold slabs2, slab2. rewrite (fin_neq0 _ _ Dx), (fin_neq0 _ _ Dy), Hd. simpl.
      assert (Reqb 0 0 = true) as -> by by apply Reqb_true. simpl.
      rewrite (fin_le _ _ _ _ Ox Lx), (fin_le _ _ _ _ Hhx Ox), (fin_le _ _ _ _ Oy Ly), (fin_le _ _ _ _ Hhy Oy).
      assert (Rleb (ux (origin q)) (ux (min2 c)) = false) as -> by (apply Rleb_false; lra).
      assert (Rleb (ux (max2 c)) (ux (origin q)) = false) as -> by (apply Rleb_false; lra).
      assert (Rleb (uy (origin q)) (uy (min2 c)) = false) as -> by (apply Rleb_false; lra).
      assert (Rleb (uy (max2 c)) (uy (origin q)) = false) as -> by (apply Rleb_false; lra). done. }
    unfold ray_aabb2, ray_aabb2_test. rewrite Hs. simpl. split; [|done]. f_equal. unfold add2, scale2; simpl.
    rewrite Hd in Dx, Dy. destruct Dx as [s1 ->], Dy as [s2 ->], Ox as [s3 ->], Oy as [s4 ->]. simpl.
    assert (Rzero 0 = true) as -> by by apply Rzero_true. done.
  Qed.
End two.

Section three.
  (** One axis of the 3D test: the pair merged into the running interval. *)
  Lemma axis3_spec lo hi o d lo' hi' o' d' :
    is_fin lo lo' -> is_fin hi hi' -> is_fin o o' -> is_fin d d' -> lo' <= hi' ->
    let t1 := ((lo - o) * (n1 / d))%N_ in let t2 := ((hi - o) * (n1 / d))%N_ in
    (forall t, in_axis3 lo' hi' o' d' t <-> lower (fmin t1 t2) t /\ upper (fmax t1 t2) t)
    /\ (d' <> 0 -> lowb (fmin t1 t2) /\ upb (fmax t1 t2)).
  Proof.
    intros Hlo Hhi Ho Hd Hle. cbn zeta. unfold in_axis3. destruct (Req_EM_T d' 0) as [->|Hne].
    - split; [|done]. intros t. destruct Hd as [s ->].
      assert (Hi : (n1 / XFin s 0)%N_ = XInf s).
      { simpl. assert (Rzero 0 = true) as E by by apply Rzero_true. rewrite !E. assert (Rzero 1 = false) as -> by (apply Rzero_false; lra).
        assert (Rneg 1 = false) as -> by (apply Rneg_false; lra). simpl. by destruct s. }
      rewrite Hi. destruct (fin_sub lo o _ _ Hlo Ho) as [s1 E1]. destruct (fin_sub hi o _ _ Hhi Ho) as [s2 E2].
      simpl nsub. rewrite E1, E2. cbn [nmul Num_xr xmul xsign].
      assert (Hcase : forall u, Rzero u = true /\ u = 0 \/ Rzero u = false /\ Rneg u = true /\ u < 0 \/ Rzero u = false /\ Rneg u = false /\ 0 < u).
      { intros u. destruct (Rzero u) eqn:E; [apply Rzero_true in E; auto|]. apply Rzero_false in E. right.
        destruct (Rneg u) eqn:E'; [apply Rneg_true in E'; auto|apply Rneg_false in E']. right. split_and!; auto. lra. }
      destruct (Hcase (lo' - o')) as [[-> Z1]|[(-> & -> & Z1)|(-> & -> & Z1)]];
      destruct (Hcase (hi' - o')) as [[-> Z2]|[(-> & -> & Z2)|(-> & -> & Z2)]]; try lra;
      destruct s; unfold fmin, fmax; simpl; split; try intros []; try done; try lra; try (split; done); try tauto.
    - assert (F0 : is_fin (n1 / d)%N_ (1 / d')) by (apply fin_div; [done|eexists; done|done]).
      assert (F1 : is_fin ((lo - o) * (n1 / d))%N_ ((lo' - o') / d')).
      { replace ((lo' - o') / d') with ((lo' - o') * (1 / d')) by (field; done). apply fin_mul; [by apply fin_sub|done]. }
      assert (F2 : is_fin ((hi - o) * (n1 / d))%N_ ((hi' - o') / d')).
      { replace ((hi' - o') / d') with ((hi' - o') * (1 / d')) by (field; done). apply fin_mul; [by apply fin_sub|done]. }
      pose proof (fin_fmin _ _ _ _ F1 F2) as Fm. pose proof (fin_fmax _ _ _ _ F1 F2) as FM. split.
      + intros t. rewrite <- (axis_interval lo' hi' o' d' t Hle Hne). by rewrite (fin_in_lower _ _ t Fm), (fin_in_upper _ _ t FM).
      + intros _. split; [exact (fin_lowb _ _ Fm)|exact (fin_upb _ _ FM)].
  Qed.

  Lemma slabs3_spec r b q c : fin_ray3 r q -> fin_box3 b c -> box3 c -> direction q <> zero3 ->
    let p := slabs3 r b in
    (forall t, meets3 q c t <-> lower p.1 t /\ upper p.2 t) /\ lowb p.1 /\ upb p.2.
  Proof.
    intros [(Ox & Oy & Oz) (Dx & Dy & Dz)] [(Lx & Ly & Lz) (Hx & Hy & Hz)] (Bx & By & Bz) Hne. cbn zeta.
    unfold Le in *. simpl in Bx, By, Bz. apply Rleb_true in Bx, By, Bz.
    destruct (axis3_spec _ _ _ _ _ _ _ _ Lx Hx Ox Dx Bx) as [Kx Ax].
    destruct (axis3_spec _ _ _ _ _ _ _ _ Ly Hy Oy Dy By) as [Ky Ay].
    destruct (axis3_spec _ _ _ _ _ _ _ _ Lz Hz Oz Dz Bz) as [Kz Az].
    unfold slabs3; cbn zeta; cbn [fst snd]. unfold meets3. split.
    - intros t. rewrite Kx, Ky, Kz, !lower_fmax, !upper_fmin. tauto.
    - assert (Hd : vx (direction q) <> 0 \/ vy (direction q) <> 0 \/ vz (direction q) <> 0).
      { destruct (Req_dec (vx (direction q)) 0) as [E1|]; [|auto]. destruct (Req_dec (vy (direction q)) 0) as [E2|]; [|auto].
        destruct (Req_dec (vz (direction q)) 0) as [E3|]; [|auto]. destruct Hne. destruct q as [? [x y z]]; simpl in *. by subst. }
      split.
      + destruct Hd as [Hd|[Hd|Hd]]; [apply lowb_fmax; left; apply lowb_fmax; left; by apply Ax
          |apply lowb_fmax; left; apply lowb_fmax; right; by apply Ay|apply lowb_fmax; right; by apply Az].
      + destruct Hd as [Hd|[Hd|Hd]]; [apply upb_fmin; left; apply upb_fmin; left; by apply Ax
          |apply upb_fmin; left; apply upb_fmin; right; by apply Ay|apply upb_fmin; right; by apply Az].
  Qed.
  Lemma fin_at3 r q x t : fin_ray3 r q -> is_fin x t -> fin3 (add3 (origin r) (scale3 (direction r) x)) (at3 q t).
  Proof.
    intros [(Ox & Oy & Oz) (Dx & Dy & Dz)] Hx. split_and!; simpl; apply fin_add; try done; by apply fin_mul.
  Qed.

  (** C28 *)
  Theorem C28_ray_aabb3_exact r b q c : fin_ray3 r q -> fin_box3 b c -> box3 c -> direction q <> zero3 ->
    match ray_aabb3 r b with
    | None => forall t, 0 <= t -> ~ meets3 q c t
    | Some p => exists t, hit_param (meets3 q c) t /\ fin3 p (at3 q t)
    end.
  Proof.
    intros Hr Hb Hc Hd. unfold ray_aabb3. pose proof (slabs3_spec r b q c Hr Hb Hc Hd) as Hs.
    destruct (slabs3 r b) as [tm tM]. cbn zeta in Hs. simpl in Hs. destruct Hs as (HK & Hl & Hu).
    pose proof (decide_hit tm tM _ HK Hl Hu) as Hdec.
    destruct (((nlt tm n0 && nlt tM n0) || nlt tM tm)%bool); [done|]. destruct Hdec as (t & Hf & Hh).
    exists t. split; [done|]. by apply fin_at3.
  Qed.
  Lemma meets3_in q c t : meets3 q c t -> in3 c (at3 q t).
  Proof.
    intros (Hx & Hy & Hz). unfold in3, Le; simpl. rewrite !Rleb_true. unfold in_axis3 in *.
    destruct (Req_EM_T (vx (direction q)) 0) as [E|], (Req_EM_T (vy (direction q)) 0) as [E'|], (Req_EM_T (vz (direction q)) 0) as [E''|];
      rewrite ?E, ?E', ?E''; lra.
  Qed.
  Theorem C28_hit_point_in_box r b q c p : fin_ray3 r q -> fin_box3 b c -> box3 c -> direction q <> zero3 ->
    ray_aabb3 r b = Some p -> exists p', fin3 p p' /\ in3 c p' /\ exists t, 0 <= t /\ p' = at3 q t.
  Proof.
    intros Hr Hb Hc Hd Hp. pose proof (C28_ray_aabb3_exact r b q c Hr Hb Hc Hd) as H. rewrite Hp in H.
    destruct H as (t & (Ht & Hm & _) & Hf). exists (at3 q t). split_and!; [done|by apply meets3_in|eauto].
  Qed.
  Theorem C28_generic_ray_hits_iff_half_line_meets_box r b q c : fin_ray3 r q -> fin_box3 b c -> box3 c ->
    vx (direction q) <> 0 -> vy (direction q) <> 0 -> vz (direction q) <> 0 ->
    is_Some (ray_aabb3 r b) <-> exists t, 0 <= t /\ in3 c (at3 q t).
  Proof.
    intros Hr Hb Hc Hx Hy Hz. assert (Hd : direction q <> zero3). { intros E. rewrite E in Hx. done. }
    assert (Hm : forall t, in3 c (at3 q t) -> meets3 q c t).
    { intros t. unfold in3, Le, meets3, in_axis3; simpl. rewrite !Rleb_true.
      destruct (Req_EM_T (vx (direction q)) 0), (Req_EM_T (vy (direction q)) 0), (Req_EM_T (vz (direction q)) 0); lra. }
    pose proof (C28_ray_aabb3_exact r b q c Hr Hb Hc Hd) as H. destruct (ray_aabb3 r b) as [p|].
    - split; [|eauto]. intros _. destruct H as (t & (Ht & Hmt & _) & _). exists t. split; [done|]. by apply meets3_in.
    - split; [by intros []|]. intros (t & Ht & Hin). destruct (H t Ht); auto.
  Qed.
End three.
