(** C61: trees of bounding spheres. *)
From Coq Require Import Psatz.
From stdpp Require Import prelude gmap fin_maps fin_sets sorting.
From Flocq Require Import IEEE754.BinarySingleNaN.
From Coq Require Import Reals Lra.
From Verif Require Import Res DbvtModel DbvtSpec PropsDbvt DbvtVisitors PropsRay BroadModel PropsBroad DbvtExample.
From Verif Require Import Num Vec AabbModel AabbTree AabbTreeExample GeoModel RealGeo PropsSphere PropsPlane.

(** wrapped.rs 39-54 [TreeValue] with [B = Sphere]: with_margin, union, contains, surface_area of
    sphere.rs; [pi] is [S::from(PI)]. *)
Definition sphere_ops {S : Type} `{NS : Num S} (V : Type) (third pi : S) : dbvt_ops (wrapped V (Sphere S) (V3 S)) (Sphere S) S := {|
  tv_bound v := w_bound v;
  tv_fat v := sphere_margin (w_bound v) (w_margin v);
  b_union := sphere_union; b_contains := sphere_contains; b_area := sphere_area pi;
  s_lt := nlt; s_improves := improves third |}.

Section real.
  Local Open Scope R_scope.
  Context {V : Type} (third pi : R).
  Notation O := (sphere_ops V third pi).
  Notation T := (wrapped V (Sphere R) (V3 R)).
  (** Values: a non-negative radius, and a margin with some non-negative component. *)
  Definition proper_value (v : T) : Prop :=
    proper_sphere (w_bound v) /\ (0 <= vx (w_margin v) \/ 0 <= vy (w_margin v) \/ 0 <= vz (w_margin v)).
  Definition encl_s (a b : Sphere R) : Prop := dist3 (s_center b) (s_center a) + s_radius a <= s_radius b.
  Lemma encl_ball a b : encl_s a b -> ball_subset a b.
  Proof. unfold encl_s, ball_subset, ball. intros He p Hp. pose proof (dist3_triangle (s_center b) (s_center a) p). lra. Qed.
  Lemma sphere_enclosure : enclosure O encl_s.
  Proof.
    assert (Hu : forall a b, encl_s a (sphere_union a b) /\ encl_s b (sphere_union a b)).
    { intros a b. unfold sphere_union.
      destruct (sphere_contains a b) eqn:E1.
      { unfold sphere_contains in E1. rs. apply Rleb_true in E1. unfold encl_s. rewrite dist3_self. split; lra. }
      destruct (sphere_contains b a) eqn:E2.
      { unfold sphere_contains in E2. rs. apply Rleb_true in E2. unfold encl_s. rewrite dist3_self. split; lra. }
      unfold sphere_contains in E1, E2. rs. apply Rleb_false in E1, E2. rewrite (dist3_sym (s_center b)) in E2.
      destruct (towards (s_center a) (s_center b)) as (u & Hu & Eb).
      change (mag3 (sub3 (s_center b) (s_center a))) with (dist3 (s_center a) (s_center b)).
      set (d := dist3 (s_center a) (s_center b)) in *. assert (0 <= d) by apply dist3_nonneg.
      destruct (Req_dec d 0) as [Hd|Hd]; [lra|].
      set (r := (s_radius a + s_radius b + d) / (1 + 1)).
      assert (Er : 2 * r = s_radius a + s_radius b + d) by (unfold r; field).
      assert (Ec : add3 (s_center a) (div3 (scale3 (sub3 (s_center b) (s_center a)) (r - s_radius a)) d) = add3 (s_center a) (scale3 u (r - s_radius a))).
      { rewrite Eb at 1. apply V3_eq; rv0; field; done. }
      rewrite Ec. unfold encl_s. cbn [s_center s_radius]. split.
      - rewrite dist3_sym, dist3_offset, Hu, Rabs_pos_eq by lra. lra.
      - assert (Hcb : dist3 (add3 (s_center a) (scale3 u (r - s_radius a))) (s_center b) = Rabs (d - (r - s_radius a))).
        { rewrite Eb at 1. by apply dist3_on_line. }
        rewrite Hcb, Rabs_pos_eq by lra. lra. }
    split; cbn [b_union b_contains sphere_ops].
    - unfold encl_s. intros a b c H1 H2. pose proof (dist3_triangle (s_center c) (s_center b) (s_center a)). lra.
    - unfold encl_s. intros a b _. rewrite dist3_self. lra.
    - intros. apply Hu.
    - intros. apply Hu.
    - intros a b E. unfold sphere_contains in E. rs. by apply Rleb_true in E.
  Qed.
  Lemma proper_fat (a : astate T) : map_Forall (fun _ => proper_value) (live a) -> fat_ok O a.
  Proof.
    intros Hp h v Hv. destruct (Hp h v Hv) as [_ Hm]. cbn [b_contains tv_fat tv_bound sphere_ops]. unfold sphere_contains, sphere_margin.
    cbn [s_center s_radius]. rewrite dist3_self. rs. apply Rleb_true.
    assert (K : forall x y : R, x <= fmax x y /\ y <= fmax x y).
    { intros x y. unfold fmax. rs. rewrite (proj2 (Reqb_true x x)), (proj2 (Reqb_true y y)) by done. cbn [negb].
      destruct (Rltb x y) eqn:E; [apply Rltb_true in E|apply Rltb_false in E]; lra. }
    pose proof (K (vx (w_margin v)) (vy (w_margin v))) as [K1 K2]. pose proof (K (fmax (vx (w_margin v)) (vy (w_margin v))) (vz (w_margin v))) as [K3 K4]. lra.
  Qed.
  Lemma proper_encl a b : proper_sphere a -> encl_s a b -> proper_sphere b.
  Proof. unfold proper_sphere, encl_s. pose proof (dist3_nonneg (s_center b) (s_center a)). lra. Qed.
  Lemma sphere_sphere_mono x y b : proper_sphere x -> proper_sphere b -> sphere_sphere x b = true -> encl_s x y -> sphere_sphere y b = true.
  Proof.
    intros Hx Hb Hi He. pose proof (proper_encl _ _ Hx He). rewrite C30_intersects_iff_balls_meet in Hi |- * by done.
    destruct Hi as (p & H1 & H2). exists p. split; [by apply (encl_ball x)|done].
  Qed.
  (** A sphere query returns exactly the values whose spheres touch it. *)
  Theorem C61_sphere_query_exact a s rng fuel s' fuel' (w : Sphere R) l :
    history O a s -> legal a (Tick rng) -> unflagged a = ∅ -> tick O fuel rng s = Ok s' ->
    map_Forall (fun _ => proper_value) (live a) -> proper_sphere w ->
    query O fuel' (discrete_visitor (fun b => sphere_sphere b w)) s' () = Ok l ->
    l.*1 ≡ₚ filter (fun v => sphere_sphere (w_bound v) w = true) (map_to_list (live a)).*2.
  Proof.
    intros Hh Hl Hu Ht Hp Hw Hq.
    pose proof (C09_query_exact_after_tick O (V := unit) (fun b _ => if sphere_sphere b w then Some () else None) encl_s a s rng fuel s' fuel' () l
      Hh Hl Hu Ht sphere_enclosure (proper_fat a Hp)) as K.
    rewrite K; [..|exact Hq].
    - clear. induction (map_to_list (live a)) as [|[h v] m IH]; [done|]. cbn [omap list_omap fst snd fmap list_fmap]. cbn [tv_bound sphere_ops]. rewrite filter_cons.
      destruct (sphere_sphere (w_bound v) w) eqn:E; cbn [fmap option_fmap option_map list_fmap fst].
      + rewrite decide_True by done. apply Permutation_cons; [done|exact IH].
      + rewrite decide_False by done. exact IH.
    - intros h v b' Hv Hs Hle. cbn [tv_bound sphere_ops] in *. destruct (sphere_sphere (w_bound v) w) eqn:E; [|by destruct Hs].
      rewrite (sphere_sphere_mono _ _ w (proj1 (Hp h v Hv)) Hw E Hle). eauto.
  Qed.
  (** The broad phase over the tree finds the same pairs as the brute force. *)
  Theorem C61_broad_phase_is_brute_force a s rng fuel s' fuel' dirty l :
    history O a s -> legal a (Tick rng) -> unflagged a = ∅ -> tick O fuel rng s = Ok s' ->
    map_Forall (fun _ => proper_value) (live a) ->
    (forall i, (i < length (values s'))%nat -> dirty !! i = Some true) ->
    dbp_find O sphere_sphere fuel' s' dirty = Ok l ->
    brute_force (fun v => w_bound v.2) sphere_sphere (values s') = Ok l.
  Proof.
    intros Hh Hl Hu Ht Hp Hd Hf.
    apply (C20_agrees_with_brute_force O sphere_sphere encl_s a s rng fuel s' fuel' dirty l Hh Hl Hu Ht sphere_enclosure (proper_fat a Hp)); try done.
    - apply C30_intersects_symmetric.
    - intros h v h' v' b Hv Hv' E Hle. apply (sphere_sphere_mono (w_bound v)); try done; [apply (Hp h v Hv)|apply (Hp h' v' Hv')].
  Qed.
  (** A frustum with unit normals. *)
  Definition unit_planes (f : Frustum R) : Prop := forall pl, pl ∈ planes_of f -> mag3 (pl_n pl) = 1.
  Lemma frustum_sphere_mono f x y : unit_planes f -> proper_sphere x -> encl_s x y ->
    frustum_contains f (relate_sphere y) = ROut -> frustum_contains f (relate_sphere x) = ROut.
  Proof.
    intros Hf Hx He. pose proof (proper_encl _ _ Hx He) as Hy.
    rewrite (C34_frustum_out_iff_behind_a_plane f (ball y)) by (intros; apply C34_sphere_exact; auto).
    rewrite (C34_frustum_out_iff_behind_a_plane f (ball x)) by (intros; apply C34_sphere_exact; auto).
    intros (pl & Hpl & Hb). exists pl. split; [done|]. intros p Hpx. apply Hb. by apply (encl_ball x).
  Qed.
  Theorem C61_frustum_query_exact a s rng fuel s' fuel' (f : Frustum R) l :
    history O a s -> legal a (Tick rng) -> unflagged a = ∅ -> tick O fuel rng s = Ok s' ->
    map_Forall (fun _ => proper_value) (live a) -> unit_planes f ->
    query O fuel' (frustum_visitor (fun b => frustum_contains f (relate_sphere b))) s' () = Ok l ->
    l ≡ₚ omap (fun hv => match frustum_contains f (relate_sphere (w_bound hv.2)) with ROut => None | r => Some (hv.2, r) end) (map_to_list (live a)).
  Proof.
    intros Hh Hl Hu Ht Hp Hf Hq.
    set (g := fun (b : Sphere R) (_ : bool) => match frustum_contains f (relate_sphere b) with ROut => None | r => Some r end).
    pose proof (C09_query_exact_after_tick O (V := unit) g encl_s a s rng fuel s' fuel' () l Hh Hl Hu Ht sphere_enclosure (proper_fat a Hp)) as K.
    rewrite K; [..|exact Hq].
    - clear. induction (map_to_list (live a)) as [|[h v] m IH]; [done|]. cbn [omap list_omap fst snd]. cbn [tv_bound sphere_ops]. unfold g at 1.
      destruct (frustum_contains f (relate_sphere (w_bound v))); cbn [fmap option_fmap option_map]; [by f_equiv|by f_equiv|done].
    - intros h v b' Hv Hs Hle. unfold g in *. cbn [tv_bound sphere_ops] in *.
      pose proof (frustum_sphere_mono f (w_bound v) b' Hf (proj1 (Hp h v Hv)) Hle) as M.
      destruct (frustum_contains f (relate_sphere b')); try done; eauto. rewrite M in Hs by done. by destruct Hs.
  Qed.
  (** A ray query returns exactly the hits when the ray starts outside every branch sphere. *)
  Theorem C61_ray_query_exact a s rng fuel s' fuel' (r : Ray (V3 R)) l :
    history O a s -> legal a (Tick rng) -> unflagged a = ∅ -> tick O fuel rng s = Ok s' ->
    map_Forall (fun _ => proper_value) (live a) -> mag3 (direction r) = 1 ->
    (forall j pj lj rj hj b, nodes s' !! j = Some (Branch pj lj rj hj b) -> ~ ball b (origin r)) ->
    query_ray O (fun b => sphere_ray b r) fuel' s' = Ok l ->
    l ≡ₚ omap (fun hv => pair hv.2 <$> sphere_ray (w_bound hv.2) r) (map_to_list (live a)).
  Proof.
    intros Hh Hl Hu Ht Hp Hd Hout Hq.
    apply (C12_query_ray_exact_by_branches O (fun b => sphere_ray b r) encl_s a s rng fuel s' fuel' l Hh Hl Hu Ht sphere_enclosure (proper_fat a Hp)); [|done].
    intros h v j pj lj rj hj b Hv [q Hq'] Hn He. cbn [tv_bound sphere_ops] in *. pose proof (Hout _ _ _ _ _ _ Hn) as Hb.
    pose proof (proj1 (Hp h v Hv)) as Hpv. pose proof (proper_encl _ _ Hpv He) as Hpb.
    assert (Hov : ~ ball (w_bound v) (origin r)) by (intros Hin; apply Hb; by apply (encl_ball (w_bound v))).
    pose proof (C30_ray_outside_first_hit (w_bound v) r Hpv Hd Hov) as K1. rewrite Hq' in K1. destruct K1 as (t & Ht0 & -> & Hball & _).
    pose proof (C30_ray_outside_first_hit b r Hpb Hd Hb) as K2. destruct (sphere_ray b r); [eauto|].
    exfalso. apply (K2 t Ht0). by apply (encl_ball (w_bound v)).
  Qed.
End real.

(** Otherwise it can lose values: the ray from the origin along the first axis hits the value on
    its way, but the sphere around both values has its centre behind the origin and reports no hit. *)
Local Instance num32s : Num f32 := Num_float 24 128.
Definition s32 (x r : f32) : wrapped nat (Sphere f32) (V3 f32) := Wrapped 0 (mkSphere (mk3 x n0 n0) r) zero3.
Definition z32 (z : Z) : f32 := F32 z 0.
Definition lost_ops : list (op (wrapped nat (Sphere f32) (V3 f32))) :=
  [Insert (s32 (z32 2) (z32 1)); Insert (s32 (z32 (-9)) (z32 1)); Tick (fun _ => false)].
Notation O32 := (sphere_ops nat (z32 3 / z32 10)%N_ (z32 3)).
Definition lost := default (astart, dbvt_new) (replay O32 100 lost_ops astart dbvt_new).
Definition ray32 : Ray (V3 f32) := mkRay (mk3 n0 n0 n0) (mk3 (z32 1) n0 n0).
Theorem C61_ray_query_refuted :
  history O32 lost.1 lost.2 /\ (exists h v q, live lost.1 !! h = Some v /\ sphere_ray (w_bound v) ray32 = Some q)
  /\ query_ray O32 (fun b => sphere_ray b ray32) 100 lost.2 = Ok [].
Proof.
  split; [|split].
  - destruct (replay_legal_history O32 100 lost_ops astart dbvt_new (history_new _)) as (a & s & E & Hh); [vm_compute; done|].
    unfold lost. by rewrite E.
  - assert (E : match live lost.1 !! 1%nat with Some v => match sphere_ray (w_bound v) ray32 with Some _ => true | None => false end | None => false end = true)
      by (vm_compute; done).
    destruct (live lost.1 !! 1%nat) as [v|] eqn:E1; [|done]. destruct (sphere_ray (w_bound v) ray32) as [q|] eqn:E2; [|done]. eauto.
  - assert (E : match query_ray O32 (fun b => sphere_ray b ray32) 100 lost.2 with Ok [] => true | _ => false end = true) by (vm_compute; done).
    destruct (query_ray _ _ _ _) as [[|]| |]; done.
Qed.

(** Any values can be inserted one by one and the tree then ticks. *)
Lemma insert_all {T B S} (O : dbvt_ops T B S) (l : list T) :
  exists a s, history O a s /\ pending a = ∅ /\ unflagged a = ∅ /\ (map_to_list (live a)).*2 ≡ₚ l.
Proof.
  induction l as [|v l (a & s & Hh & Hp & Hu & Hl)].
  - exists astart, dbvt_new. split; [constructor|]. cbn. rewrite map_to_list_empty. done.
  - destruct (C03_legal_calls_return O a s (Insert v) Hh I) as (n & s' & out & He). specialize (He n (Nat.le_refl n)).
    destruct (C01_outputs_as_expected O a s (Insert v) n s' out Hh I He) as (h & -> & Hn).
    exists (anext a (Insert v) (Handle h)), s'. split; [by eapply history_step|]. cbn [anext pending unflagged live].
    split; [done|]. split; [rewrite Hu; set_solver|]. rewrite map_to_list_insert by done. cbn. by f_equiv.
Qed.
Lemma insert_all_tick {T B S} (O : dbvt_ops T B S) (l : list T) rng :
  exists a s fuel s', history O a s /\ legal a (Tick rng) /\ unflagged a = ∅ /\ tick O fuel rng s = Ok s' /\ (map_to_list (live a)).*2 ≡ₚ l.
Proof.
  destruct (insert_all O l) as (a & s & Hh & Hp & Hu & Hl). assert (Hlt : legal a (@Tick T rng)) by (cbn; rewrite Hp; set_solver).
  destruct (C03_legal_calls_return O a s (Tick rng) Hh Hlt) as (n & s' & out & He). specialize (He n (Nat.le_refl n)). cbn [exec] in He.
  destruct (tick O n rng s) as [s''| |] eqn:E; cbn in He; try done. exists a, s, n, s''. done.
Qed.
Example C61_hypotheses_met (rng : nat -> bool) :
  let O := sphere_ops nat (3 / 10)%R PI in
  exists v1 v2 a s fuel s' (r : Ray (V3 R)),
    (map_to_list (live a)).*2 ≡ₚ [v1; v2] /\ s_center (w_bound v1) <> s_center (w_bound v2)
    /\ history O a s /\ legal a (Tick rng) /\ unflagged a = ∅ /\ tick O fuel rng s = Ok s'
    /\ map_Forall (fun _ => proper_value) (live a)
    /\ mag3 (direction r) = 1%R /\ (forall j pj lj rj hj b, nodes s' !! j = Some (Branch pj lj rj hj b) -> ~ ball b (origin r))
    /\ is_Some (sphere_ray (w_bound v1) r).
Proof.
  intros O. set (v1 := Wrapped 0%nat (mkSphere (mk3 0 0 0) 1)%R (mk3 0 0 0)%R : wrapped nat (Sphere R) (V3 R)).
  set (v2 := Wrapped 1%nat (mkSphere (mk3 5 0 0) 2)%R (mk3 0 0 0)%R : wrapped nat (Sphere R) (V3 R)).
  destruct (insert_all_tick O [v1; v2] rng) as (a & s & fuel & s' & Hh & Hlt & Hu & Ht & Hl).
  assert (HM : exists M : R, (1 < M)%R /\ forall j pj lj rj hj b, nodes s' !! j = Some (Branch pj lj rj hj b) -> (vx (s_center b) + s_radius b < M)%R).
  { clear. induction (nodes s') as [|n ns (M & HM1 & HM)].
    - exists 2%R. split; [lra|]. intros j ?????. by rewrite lookup_nil.
    - exists (Rmax M (match n with Branch _ _ _ _ b => vx (s_center b) + s_radius b + 1 | _ => 0 end)%R).
      split; [apply Rlt_le_trans with M; [done|apply Rmax_l]|]. intros [|j] pj lj rj hj b; cbn.
      + intros [= ->]. eapply Rlt_le_trans; [|apply Rmax_r]. lra.
      + intros Hj. eapply Rlt_le_trans; [by eapply HM|apply Rmax_l]. }
  destruct HM as (M & HM1 & HM). set (r := mkRay (mk3 M 0 0)%R (mk3 (-1) 0 0)%R : Ray (V3 R)).
  assert (Hd : mag3 (direction r) = 1%R). { unfold mag3, mag2_3, dot3. cbn [direction r vx vy vz]. rs. replace (_ + _)%R with 1%R by ring. apply sqrt_1. }
  exists v1, v2, a, s, fuel, s', r. split; [done|]. split; [cbn; intros [=]; lra|]. do 4 (split; [done|]).
  split; [|split; [done|split]].
  - intros h v Hv. assert (Hin : v ∈ [v1; v2]). { rewrite <- Hl. apply elem_of_list_fmap. exists (h, v). split; [done|]. by apply elem_of_map_to_list. }
    rewrite !elem_of_cons, elem_of_nil in Hin. unfold proper_value, proper_sphere. destruct Hin as [-> | [-> | []]]; cbn; lra.
  - intros j pj lj rj hj b Hj Hb. specialize (HM _ _ _ _ _ _ Hj). unfold ball in Hb.
    assert (M - vx (s_center b) <= dist3 (s_center b) (origin r))%R; [|lra].
    unfold dist3, mag3, mag2_3. apply Rle_trans with (Rabs (M - vx (s_center b))); [apply Rle_abs|]. rewrite <- sqrt_Rsqr_abs. apply sqrt_le_1_alt.
    rv0. unfold Rsqr. cbn [origin r vx vy vz]. clear. nra.
  - destruct (sphere_ray (w_bound v1) r) eqn:E; [eauto|exfalso].
    pose proof (C30_ray_outside_first_hit (w_bound v1) r) as K. rewrite E in K. apply (K) with (t := M); try done; try lra.
    + unfold proper_sphere. cbn. lra.
    + unfold ball. cbn [w_bound v1 s_center s_radius origin r]. intros Hb.
      assert (M <= dist3 (mk3 0 0 0) (mk3 M 0 0))%R; [|lra]. unfold dist3, mag3, mag2_3. apply Rle_trans with (Rabs M); [apply Rle_abs|]. rewrite <- sqrt_Rsqr_abs.
      apply sqrt_le_1_alt. rv0. unfold Rsqr. clear. nra.
    + unfold ball. cbn [w_bound v1 s_center s_radius]. apply Rle_trans with 0%R; [|lra]. apply Req_le.
      transitivity (dist3 (mk3 0 0 0)%R (mk3 0 0 0)%R); [|apply dist3_self]. f_equal. unfold r, ray_at. apply V3_eq; cbn; ring.
Qed.
