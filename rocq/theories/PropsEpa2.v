(** C41: contact manifolds in the plane (EPA). *)
From Coq Require Import Psatz.
From stdpp Require Import prelude.
From Flocq Require Import IEEE754.BinarySingleNaN.
From Coq Require Import Reals Lra.
From Verif Require Import Res Num FloatMono Vec AabbModel GeoModel RealGeo PrimModel ShapeSpec PropsSupport MinkModel MinkSpec Gjk2 PropsGjk2 Epa2.
Local Open Scope R_scope.

(** Moving the second shape by [t] takes the shapes apart (up to touching). *)
Definition apart2 (A B : P2 -> Prop) (t : P2) : Prop :=
  exists d, d <> zero2 /\ forall x y, A x -> B y -> dot2 d x <= dot2 d (add2 y t).
(** What a contact must say about the two shapes: a unit normal, a positive depth that no
    separating translation undercuts, and a point of the first shape lying [depth] deep
    along the normal from some point of the second. *)
Definition good_contact2 (A B : P2 -> Prop) (ct : Contact R P2) : Prop :=
  c_strategy ct = FullResolution /\ c_toi ct = 0 /\ mag2 (c_normal ct) = 1 /\ 0 < c_depth ct /\
  (forall t, apart2 A B t -> c_depth ct <= mag2 t) /\
  A (c_point ct) /\ exists y, B y /\ dot2 (c_normal ct) (sub2 (c_point ct) y) = c_depth ct.
(** The depth is within [tol] of the true penetration depth, and the normal is a
    direction that achieves it. *)
Definition tight_contact2 (A B : P2 -> Prop) (tol : R) (ct : Contact R P2) : Prop :=
  apart2 A B (scale2 (c_normal ct) (c_depth ct + tol)).

Lemma mag2_one (v : P2) : dot2 v v = 1 -> mag2 v = 1.
Proof. intros E. pose proof (mag2_sqr v) as Hs. pose proof (mag2_nonneg v). rewrite E in Hs. nra. Qed.
Lemma run_good2 (A B : P2 -> Prop) ct :
  c_strategy ct = FullResolution /\ c_toi ct = 0 /\
      dot2 (c_normal ct) (c_normal ct) = 1 /\ 0 < c_depth ct /\
      (forall u, dot2 u u = 1 -> exists v, mdiff2 A B v /\ c_depth ct <= dot2 u v) /\
      A (c_point ct) /\ (exists y, B y /\ dot2 (c_normal ct) (sub2 (c_point ct) y) = c_depth ct) ->
  good_contact2 A B ct.
Proof.
  intros (E1 & E2 & E3 & E4 & E5 & E6 & E7). repeat (split; [done|]). split; [by apply mag2_one|]. split; [done|].
  split; [|done]. intros t (d & Hd & Hsep). pose proof (mag2_pos d Hd) as Hm. pose proof (mag2_sqr d) as Hs.
  destruct (E5 (scale2 d (1 / mag2 d))) as (v & (x & y & Hx & Hy & ->) & Hle).
  { transitivity (1 / mag2 d * (1 / mag2 d) * dot2 d d); [clear; rv0; ring|]. rewrite <- Hs. field. lra. }
  specialize (Hsep x y Hx Hy). rewrite dot2_scale_l in Hle.
  assert (Hdv : dot2 d (sub2 x y) <= mag2 d * mag2 t).
  { pose proof (cauchy2 d t) as Hc. assert (dot2 d (sub2 x y) <= dot2 d t) by (clear -Hsep; rv0; lra). lra. }
  apply Rle_trans with (1 := Hle). apply (Rmult_le_reg_l (mag2 d)); [done|].
  replace (mag2 d * (1 / mag2 d * dot2 d (sub2 x y))) with (dot2 d (sub2 x y)) by (field; lra). done.
Qed.

Section epa2.
  Context (A B : P2 -> Prop) (supL supR : P2 -> res P2) (HA : supports2 A supL) (HB : supports2 B supR)
    (HcA : convex2 A) (HcB : convex2 B) (tol : R) (Htol : 0 < tol).
  Notation contact := (gjk2_intersection 0 supL supR tol).

  (** Either the simplex of GJK has an edge whose line passes through the origin, and the
      contact's normal is zero, or everything is well. *)
  Lemma epa2_cases n c b a :
    wit A B c -> wit A B b -> wit A B a -> hull2 [sp_v c; sp_v b; sp_v a] zero2 ->
    nondeg [c; b; a] \/
    (exists k x y, Ed [c; b; a] k x y /\ perp_dot (sp_v x) (sp_v y) = 0) /\
    forall o, epa2_run (mink2 supL supR) tol n [c; b; a] = Ok o -> exists ct done, o = Some (ct, done) /\ c_normal ct = zero2 /\ c_depth ct = 0.
  Proof.
    intros Hc Hb Ha Hh.
    assert (Hdec : nondeg [c; b; a] \/ exists k x y, Ed [c; b; a] k x y /\ perp_dot (sp_v x) (sp_v y) = 0).
    { destruct (Req_dec (perp_dot (sp_v c) (sp_v b)) 0); [right; by exists 0%nat, c, b|].
      destruct (Req_dec (perp_dot (sp_v b) (sp_v a)) 0); [right; by exists 1%nat, b, a|].
      destruct (Req_dec (perp_dot (sp_v a) (sp_v c)) 0); [right; by exists 2%nat, a, c|].
      left. intros k x y [(-> & -> & ->)|[(-> & -> & ->)|(-> & -> & ->)]]%Ed3; done. }
    destruct Hdec as [Hd|Hd]; [by left|right]. split; [done|]. destruct Hd as (k & x & y & Ek & Hp).
    unfold epa2_run. destruct (closest_edge_spec [c; b; a] ltac:(cbn; lia)) as (e & i & Ee & Hi & Hmin). rewrite Ee. cbn [mbind res_mbind res_bind].
    destruct Hi as (x' & y' & Ei & Heq).
    specialize (Hmin k (mkEdge (nrm (sp_v x) (sp_v y)) (dot2 (nrm (sp_v x) (sp_v y)) (sp_v x)) (nxt [c; b; a] k)) ltac:(by exists x, y)).
    cbn [e_dist] in Hmin. rewrite (nrm_deg _ _ Hp) in Hmin. replace (dot2 zero2 (sp_v x)) with 0 in Hmin by (clear; unfold zero2; rv0; ring).
    assert (Hdeg : perp_dot (sp_v x') (sp_v y') = 0).
    { destruct (Req_dec (perp_dot (sp_v x') (sp_v y')) 0) as [|Hne]; [done|]. destruct (nrm_nondeg _ _ Hne) as (_ & _ & Hpos).
      rewrite Heq in Hmin. cbn [e_dist] in Hmin. lra. }
    rewrite (nrm_deg _ _ Hdeg) in Heq. assert (Hn : e_normal e = zero2) by by rewrite Heq.
    assert (Hz : forall v : P2, dot2 v zero2 = 0) by (intros; clear; unfold zero2; rv0; ring).
    assert (Hd : e_dist e = 0). { rewrite Heq. cbn [e_dist]. rewrite dot2_comm. apply Hz. }
    intros o Eo.
    assert (Hloop : forall l' e' dn, epa2_loop (mink2 supL supR) tol n [c; b; a] e = Ok (l', e', dn) -> e' = e).
    { intros l' e' dn. destruct n as [|n']; cbn [epa2_loop]; [by intros [= _ <- _]|]. rewrite Hn.
      destruct (mink2 supL supR zero2) as [p| |]; cbn [mbind res_mbind res_bind]; try done. rewrite Hd, Hz.
      cbn [nlt nsub Num_R]. rewrite (proj2 (Rltb_true _ _)) by lra. by intros [= _ <- _]. }
    destruct (epa2_loop _ _ _ _ _) as [[[l' e'] dn]| |]; cbn [mbind res_mbind res_bind] in Eo; try done.
    rewrite (Hloop l' e' dn eq_refl) in *. destruct (epa_point2 l' e) as [q| |]; cbn [mbind res_mbind res_bind] in Eo; try done.
    injection Eo as <-. eexists _, dn. split; [done|]. done.
  Qed.

  Lemma intersection_run n lpos rpos o :
    contact FullResolution n lpos rpos = Ok (Some o) ->
    exists c b a dn, gjk2_intersect 0 supL supR n lpos rpos = Ok (Some [c; b; a]) /\ wit A B c /\ wit A B b /\ wit A B a /\
      hull2 [sp_v c; sp_v b; sp_v a] zero2 /\ epa2_run (mink2 supL supR) tol n [c; b; a] = Ok (Some (o, dn)).
  Proof.
    unfold gjk2_intersection, gjk2_intersect. destruct (gjk2_sound 0 (Rle_refl 0) A B supL supR HA HB n lpos rpos) as (g & E & Ho).
    rewrite E. cbn [mbind res_mbind res_bind]. destruct g as [s| |]; cbn [gjk_forget mbind res_mbind res_bind]; try done.
    destruct Ho as (c & b & a & -> & Hc & Hb & Ha & [Hh|[? _]]); [|lra]. unfold epa2_process.
    destruct (epa2_run _ _ _ _) as [[[ct dn]|]| |] eqn:Er; cbn [mbind res_mbind res_bind option_map fst]; try done.
    intros [= <-]. by exists c, b, a, dn.
  Qed.

  Theorem C41_contact_good n lpos rpos ct :
    contact FullResolution n lpos rpos = Ok (Some ct) -> c_normal ct <> zero2 -> good_contact2 A B ct.
  Proof.
    intros Ec Hn. destruct (intersection_run n lpos rpos ct Ec) as (c & b & a & dn & _ & Hc & Hb & Ha & Hh & Er).
    destruct (epa2_cases n c b a Hc Hb Ha Hh) as [Hnd|[_ Hz]].
    - destruct (epa2_run_spec A B supL supR HA HB tol Htol n c b a) as (ct' & dn' & Er' & E1 & E2 & E3 & E4 & E5 & E6 & E7 & E8 & E9); try done.
      assert (ct' = ct) as -> by congruence. apply run_good2. done.
    - destruct (Hz _ Er) as (ct' & dn' & [= -> ->] & ? & _). done.
  Qed.
  (** On polygons, with enough iterations, the depth is the penetration depth up to the
      tolerance. *)
  Theorem C41_polygon_contact_tight n lpos rpos ct vL vR :
    vertices2 A supL vL -> vertices2 B supR vR -> (length vL * length vR < n)%nat ->
    contact FullResolution n lpos rpos = Ok (Some ct) -> c_normal ct <> zero2 -> tight_contact2 A B tol ct.
  Proof.
    intros HvL HvR Hlen Ec Hn. destruct (intersection_run n lpos rpos ct Ec) as (c & b & a & dn & _ & Hc & Hb & Ha & Hh & Er).
    destruct (epa2_cases n c b a Hc Hb Ha Hh) as [Hnd|[_ Hz]].
    - destruct (epa2_run_spec A B supL supR HA HB tol Htol n c b a) as (ct' & dn' & Er' & E1 & E2 & E3 & E4 & E5 & E6 & E7 & E8 & E9); try done.
      assert (ct' = ct) as -> by congruence. specialize (E6 (E9 vL vR HvL HvR Hlen)).
      exists (c_normal ct). split; [done|]. intros x y Hx Hy. specialize (E6 (sub2 x y) ltac:(by exists x, y)).
      set (m := c_normal ct) in *. set (k := c_depth ct + tol) in *. clearbody m k.
      assert (Hk : dot2 m (scale2 m k) = k). { transitivity (k * dot2 m m); [clear; rv0; ring|]. rewrite E3. ring. }
      clear -E6 Hk. rv0. lra.
    - destruct (Hz _ Er) as (ct' & dn' & [= -> ->] & ? & _). done.
  Qed.
  (** A zero normal is reported exactly when an edge of the simplex GJK ends with lies on a
      line through the origin; the depth is then reported as zero. *)
  Theorem C41_zero_normal n lpos rpos ct :
    contact FullResolution n lpos rpos = Ok (Some ct) ->
    c_normal ct = zero2 <-> exists s x y, gjk2_intersect 0 supL supR n lpos rpos = Ok (Some s) /\ x ∈ s /\ y ∈ s /\
      (exists k, Ed s k x y) /\ perp_dot (sp_v x) (sp_v y) = 0.
  Proof.
    intros Ec. destruct (intersection_run n lpos rpos ct Ec) as (c & b & a & dn & Es & Hc & Hb & Ha & Hh & Er).
    destruct (epa2_cases n c b a Hc Hb Ha Hh) as [Hnd|[(k & x & y & Ek & Hp) Hz]].
    - destruct (epa2_run_spec A B supL supR HA HB tol Htol n c b a) as (ct' & dn' & Er' & E1 & E2 & E3 & _); try done.
      assert (ct' = ct) as -> by congruence. split.
      + intros Ez. rewrite Ez in E3. clear -E3. unfold zero2 in E3. rv0. lra.
      + intros (s & x & y & Es' & _ & _ & [k Ek] & Hp). assert (s = [c; b; a]) as -> by congruence. by apply Hnd in Ek.
    - split; [|destruct (Hz _ Er) as (ct' & dn' & [= -> ->] & ? & _); done].
      intros _. exists [c; b; a], x, y. split; [done|]. destruct Ek as [Ex Ey]. split; [by eapply elem_of_list_lookup_2|].
      split; [by eapply elem_of_list_lookup_2|]. split; [by exists k|done].
  Qed.
  (** Asking for the collision only gives the same yes or no, without a manifold. *)
  Theorem C41_collision_only n lpos rpos o :
    contact CollisionOnly n lpos rpos = Ok o ->
    (o = None <-> gjk2_intersect 0 supL supR n lpos rpos = Ok None) /\
    forall ct, o = Some ct -> ct = mkContact CollisionOnly zero2 0 zero2 0.
  Proof.
    unfold gjk2_intersection. destruct (gjk2_intersect _ _ _ _ _ _) as [[s|]| |]; cbn [mbind res_mbind res_bind]; try done.
    - intros [= <-]. split; [done|]. by intros ct [= <-].
    - intros [= <-]. done.
  Qed.
  (** Full resolution reports a contact exactly when the test reports a hit, and never
      panics (if the support functions do not). *)
  Theorem C41_no_panic n lpos rpos :
    (forall d, exists s, supL d = Ok s) -> (forall d, exists s, supR d = Ok s) ->
    exists o, contact FullResolution n lpos rpos = Ok o /\
      (o = None <-> gjk2_intersect 0 supL supR n lpos rpos = Ok None).
  Proof.
    intros TL TR. unfold gjk2_intersection, gjk2_intersect.
    destruct (gjk2_sound 0 (Rle_refl 0) A B supL supR HA HB n lpos rpos) as (g & E & Ho).
    rewrite E. cbn [mbind res_mbind res_bind]. destruct g as [s| |]; cbn [gjk_forget mbind res_mbind res_bind]; [|by eexists|by eexists].
    destruct Ho as (c & b & a & -> & Hc & Hb & Ha & [Hh|[? _]]); [|lra]. unfold epa2_process.
    destruct (epa2_cases n c b a Hc Hb Ha Hh) as [Hnd|[(k & x & y & Ek & Hp) Hz]].
    - destruct (epa2_run_spec A B supL supR HA HB tol Htol n c b a) as (ct' & dn' & Er' & _); try done.
      rewrite Er'. cbn [mbind res_mbind res_bind option_map fst]. by eexists.
    - assert (Hok : exists o, epa2_run (mink2 supL supR) tol n [c; b; a] = Ok o).
      { unfold epa2_run. destruct (closest_edge_spec [c; b; a] ltac:(cbn; lia)) as (e & i & Ee & Hi & Hmin). rewrite Ee. cbn [mbind res_mbind res_bind].
        destruct Hi as (x' & y' & Ei & Heq).
        specialize (Hmin k (mkEdge (nrm (sp_v x) (sp_v y)) (dot2 (nrm (sp_v x) (sp_v y)) (sp_v x)) (nxt [c; b; a] k)) ltac:(by exists x, y)).
        cbn [e_dist] in Hmin. rewrite (nrm_deg _ _ Hp) in Hmin. replace (dot2 zero2 (sp_v x)) with 0 in Hmin by (clear; unfold zero2; rv0; ring).
        assert (Hdeg : perp_dot (sp_v x') (sp_v y') = 0).
        { destruct (Req_dec (perp_dot (sp_v x') (sp_v y')) 0) as [|Hne]; [done|]. destruct (nrm_nondeg _ _ Hne) as (_ & _ & Hpos).
          rewrite Heq in Hmin. cbn [e_dist] in Hmin. lra. }
        rewrite (nrm_deg _ _ Hdeg) in Heq. assert (Hn : e_normal e = zero2) by by rewrite Heq.
        assert (Hz0 : forall v : P2, dot2 v zero2 = 0) by (intros; clear; unfold zero2; rv0; ring).
        assert (Hd : e_dist e = 0). { rewrite Heq. cbn [e_dist]. rewrite dot2_comm. apply Hz0. }
        assert (Hloop : exists dn, epa2_loop (mink2 supL supR) tol n [c; b; a] e = Ok ([c; b; a], e, dn)).
        { destruct n as [|n']; cbn [epa2_loop]; [by eexists|]. rewrite Hn. unfold mink2, mink.
          destruct (TL zero2) as [l ->]. cbn [mbind res_mbind res_bind]. destruct (TR (neg2 zero2)) as [r ->]. cbn [mbind res_mbind res_bind].
          rewrite Hd, Hz0. cbn [nlt nsub Num_R]. rewrite (proj2 (Rltb_true _ _)) by lra. by eexists. }
        destruct Hloop as [dn ->]. cbn [mbind res_mbind res_bind].
        assert (Hpt : exists q, epa_point2 [c; b; a] e = Ok q).
        { unfold epa_point2, get. rewrite Heq. cbn [e_index]. destruct Ei as [Ex Ey]. rewrite Ey. cbn [mbind res_mbind res_bind].
          assert (Hprev : (if decide (nxt [c; b; a] i = 0%nat) then (length [c; b; a] - 1)%nat else (nxt [c; b; a] i - 1)%nat) = i).
          { pose proof (lookup_lt_Some _ _ _ Ex) as Hlt. cbn in Hlt. unfold nxt. cbn [length]. repeat case_decide; lia. }
          rewrite Hprev, Ex. by eexists. }
        destruct Hpt as [q ->]. by eexists. }
      destruct Hok as [o Eo]. destruct (Hz o Eo) as (ct & dn & -> & _). rewrite Eo. by eexists.
  Qed.
End epa2.

(** ** Rectangles and small polygons, with the 100 iterations of the crate *)
Theorem C41_rectangles (dl dr : P2) (TL TR : Xf P2) tol ct :
  0 <= ux dl -> 0 <= uy dl -> 0 <= ux dr -> 0 <= uy dr -> similar2 TL -> similar2 TR -> 0 < tol ->
  let A := world TL (rect_set dl) in let B := world TR (rect_set dr) in
  gjk2_intersection 0 (fun d => rect_support dl d TL) (fun d => rect_support dr d TR) tol FullResolution 100
      (xf_pt TL zero2) (xf_pt TR zero2) = Ok (Some ct) ->
  c_normal ct <> zero2 -> good_contact2 A B ct /\ tight_contact2 A B tol ct.
Proof.
  intros H1 H2 H3 H4 HTL HTR Ht A B Ec Hn.
  assert (SA : supports2 A (fun d => rect_support dl d TL)) by (intros d _; by apply C38_rectangle).
  assert (SB : supports2 B (fun d => rect_support dr d TR)) by (intros d _; by apply C38_rectangle).
  assert (CA : convex2 A) by (apply world_convex2; [done|apply rect_convex]).
  assert (CB : convex2 B) by (apply world_convex2; [done|apply rect_convex]).
  split; [by eapply (C41_contact_good A B)|].
  eapply (C41_polygon_contact_tight A B); try done; [by apply rect_vertices|by apply rect_vertices|]. cbn. lia.
Qed.
Theorem C41_small_polygons (vs ws : list P2) (TL TR : Xf P2) tol ct :
  polygon2 vs -> polygon2 ws -> similar2 TL -> similar2 TR -> 0 < tol ->
  let A := world TL (hull2 vs) in let B := world TR (hull2 ws) in
  gjk2_intersection 0 (fun d => polygon_support vs d TL) (fun d => polygon_support ws d TR) tol FullResolution 100
      (xf_pt TL zero2) (xf_pt TR zero2) = Ok (Some ct) ->
  c_normal ct <> zero2 -> good_contact2 A B ct /\ tight_contact2 A B tol ct.
Proof.
  intros Hvs Hws HTL HTR Ht A B Ec Hn. destruct Hvs as [V1 Hv2]. destruct Hws as [W1 Hw2].
  assert (SA : supports2 A (fun d => polygon_support vs d TL)) by (intros d _; by apply C38_small_polygon).
  assert (SB : supports2 B (fun d => polygon_support ws d TR)) by (intros d _; by apply C38_small_polygon).
  assert (CA : convex2 A) by (apply world_convex2; [done|apply hull2_convex]).
  assert (CB : convex2 B) by (apply world_convex2; [done|apply hull2_convex]).
  split; [by eapply (C41_contact_good A B)|].
  eapply (C41_polygon_contact_tight A B); try done; [by apply polygon_vertices|by apply polygon_vertices|].
  rewrite !fmap_length. nia.
Qed.

(** ** The hypotheses are met *)
(** A triangle around the origin and a particle in it. *)
Definition tri0 : list P2 := [mk2 3 (-1); mk2 (-1) 2; mk2 (-1) (-1)].
Lemma square_at0_pt p : xf_pt (square_at 0) p = p.
Proof. unfold square_at, decomposed2, m2_mul. cbn [xf_pt m2_x m2_y]. apply V2_eq; rv0; ring. Qed.
Lemma tri0_supports : supports2 (world (square_at 0) (hull2 tri0)) (fun d => polygon_support tri0 d (square_at 0)).
Proof. intros d _. apply C38_small_polygon; [done|cbn; lia|apply square_at_similar]. Qed.
Lemma tri0_max d v : d <> zero2 -> v ∈ tri0 -> (forall w, w ∈ tri0 -> w <> v -> dot2 d w < dot2 d v) ->
  polygon_support tri0 d (square_at 0) = Ok v.
Proof.
  intros Hd Hv Hm. destruct (tri0_supports d Hd) as (s & Es & Hs & Hmax).
  assert (Hin : s ∈ xf_pt (square_at 0) <$> tri0).
  { refine (proj2 (polygon_vertices tri0 (square_at 0) _ (square_at_similar 0)) d s Hd Es). split; [done|cbn; lia]. }
  apply elem_of_list_fmap in Hin as (w & -> & Hw). rewrite square_at0_pt in *.
  all: assert (Hdv : dot2 d v <= dot2 d w) by (apply Hmax; exists v; split; [by apply hull2_vertex|by rewrite square_at0_pt]).
  all: rewrite Es; f_equal; destruct (Req_dec (ux w) (ux v)) as [E1|E1]; [destruct (Req_dec (uy w) (uy v)) as [E2|E2]; [by apply V2_eq|]|].
  all: exfalso; assert (w <> v) by (intros ->; lra); specialize (Hm w Hw H); lra.
Qed.
Lemma tri0_mink d v : d <> zero2 -> v ∈ tri0 -> (forall w, w ∈ tri0 -> w <> v -> dot2 d w < dot2 d v) ->
  mink2 (fun d => polygon_support tri0 d (square_at 0)) (fun _ => particle_support zero2 (square_at 0)) d = Ok (mkSup v v zero2).
Proof.
  intros Hd Hv Hm. unfold mink2, mink. rewrite (tri0_max d v Hd Hv Hm). cbn [mbind res_mbind res_bind]. unfold particle_support.
  cbn [mbind res_mbind res_bind]. rewrite square_at0_pt. f_equal. f_equal. apply V2_eq; unfold zero2; rv0; ring.
Qed.
Lemma tri0_run : gjk2_intersect 0 (fun d => polygon_support tri0 d (square_at 0)) (fun _ => particle_support zero2 (square_at 0)) 100
    (xf_pt (square_at 0) zero2) (xf_pt (square_at 0) zero2) =
  Ok (Some [mkSup (mk2 3 (-1)) (mk2 3 (-1)) zero2; mkSup (mk2 (-1) (-1)) (mk2 (-1) (-1)) zero2; mkSup (mk2 (-1) 2) (mk2 (-1) 2) zero2]).
Proof.
  unfold gjk2_intersect, gjk2_run, gjk_run. rewrite square_at0_pt.
  assert (Ed : first_dir (mk2 n1 n1) sub2 (near0_2 0) (zero2 : P2) zero2 = mk2 1 1).
  { unfold first_dir. rewrite (proj2 (near0_2_spec 0 (sub2 zero2 zero2))); [done|]. unfold zero2. rv0. rewrite Rminus_0_r, Rabs_R0. lra. }
  rewrite Ed. cbv zeta. change (mink sub2 neg2 ?a ?b) with (mink2 a b).
  assert (Hne : forall x y, (x <> 0 \/ y <> 0) -> mk2 x y <> (zero2 : P2)).
  { intros x y Hxy E. assert (x = 0) by exact (f_equal ux E). assert (y = 0) by exact (f_equal uy E). lra. }
  assert (Hcase : forall (Q : P2 -> Prop), Q (mk2 3 (-1)) -> Q (mk2 (-1) 2) -> Q (mk2 (-1) (-1)) -> forall w, w ∈ tri0 -> Q w).
  { intros Q ? ? ? w Hw. unfold tri0 in Hw. set_solver. }
  rewrite (tri0_mink _ (mk2 3 (-1))); [|apply Hne; lra|unfold tri0; set_solver|let w := fresh "w" in let Hw := fresh "Hw" in intros w Hw; pattern w; revert w Hw; apply Hcase; intros ?; try done; rv0; lra].
  cbn [mbind res_mbind res_bind sp_v]. cbn [nle n0 Num_R]. rewrite (proj2 (Rleb_false _ _)) by (rv0; lra).
  change 100%nat with (Datatypes.S (Datatypes.S 98)). cbn [gjk_loop]. change (mink sub2 neg2 ?a ?b) with (mink2 a b).
  assert (En : neg2 (mk2 1 1) = (mk2 (-1) (-1) : P2)) by (apply V2_eq; rv0; lra). rewrite En.
  rewrite (tri0_mink _ (mk2 (-1) (-1))); [|apply Hne; lra|unfold tri0; set_solver|let w := fresh "w" in let Hw := fresh "Hw" in intros w Hw; pattern w; revert w Hw; apply Hcase; intros ?; try done; rv0; lra].
  cbn [mbind res_mbind res_bind sp_v app]. cbn [nle n0 Num_R]. rewrite (proj2 (Rleb_false _ _)) by (rv0; lra).
  match goal with |- context [reduce2 0 [?x; ?y] ?d] => assert (Er : reduce2 0 [x; y] d = ([x; y], mk2 0 16, false)) end.
  { unfold reduce2. cbv zeta. cbn [sp_v].
    assert (Et : triple (sub2 (mk2 3 (-1)) (mk2 (-1) (-1))) (neg2 (mk2 (-1) (-1))) (sub2 (mk2 3 (-1)) (mk2 (-1) (-1))) = (mk2 0 16 : P2)).
    { unfold triple. apply V2_eq; rv0; lra. }
    rewrite Et. destruct (near0_2 0 (mk2 0 16)) eqn:E; [|done]. apply near0_2_spec in E. cbn [ux uy] in E. rewrite (Rabs_pos_eq 16) in E by lra. lra. }
  rewrite Er. cbn [gjk_loop]. change (mink sub2 neg2 ?a ?b) with (mink2 a b).
  rewrite (tri0_mink _ (mk2 (-1) 2)); [|apply Hne; lra|unfold tri0; set_solver|let w := fresh "w" in let Hw := fresh "Hw" in intros w Hw; pattern w; revert w Hw; apply Hcase; intros ?; try done; rv0; lra].
  cbn [mbind res_mbind res_bind sp_v app]. cbn [nle n0 Num_R]. rewrite (proj2 (Rleb_false _ _)) by (rv0; lra).
  unfold reduce2. cbv zeta. cbn [sp_v]. cbn [nlt n0 Num_R].
  rewrite (proj2 (Rltb_false _ _)) by (unfold triple; rv0; lra). rewrite (proj2 (Rltb_false _ _)) by (unfold triple; rv0; lra). done.
Qed.
Example C41_hypotheses_met : exists ct,
  gjk2_intersection 0 (fun d => polygon_support tri0 d (square_at 0)) (fun _ => particle_support zero2 (square_at 0)) (1 / 100) FullResolution 100
    (xf_pt (square_at 0) zero2) (xf_pt (square_at 0) zero2) = Ok (Some ct) /\ c_normal ct <> zero2.
Proof.
  assert (SB : supports2 (fun p => p = zero2) (fun _ => particle_support zero2 (square_at 0))).
  { intros d _. exists zero2. unfold particle_support. rewrite square_at0_pt. split; [done|]. split; [done|]. intros x ->. lra. }
  assert (CB : convex2 (fun p => p = zero2)) by (intros x y t -> -> _; apply V2_eq; unfold zero2; rv0; ring).
  assert (CA : convex2 (world (square_at 0) (hull2 tri0))) by (apply world_convex2; [apply square_at_similar|apply hull2_convex]).
  destruct (C41_no_panic _ _ _ _ tri0_supports SB CA CB (1 / 100) ltac:(lra) 100 (xf_pt (square_at 0) zero2) (xf_pt (square_at 0) zero2)) as (o & Eo & Ho).
  { intros d. unfold polygon_support, get_max_point. cbn [tri0 length Nat.ltb Nat.leb].
    assert (Hs : is_Some (xf_ivec (square_at 0) d)); [|destruct Hs as [d' ->]; by eexists].
    unfold square_at, decomposed2. cbn [xf_ivec]. unfold near0. destruct (nle _ _) eqn:E; [|done]. cbn [nle nabs Num_R] in E. apply Rleb_true in E.
    rewrite Rabs_pos_eq in E by lra. lra. }
  { intros d. by eexists. }
  rewrite tri0_run in Ho. destruct o as [ct|]; [|by specialize (proj1 Ho eq_refl)]. exists ct. split; [done|].
  intros Ez. apply (C41_zero_normal _ _ _ _ tri0_supports SB CA CB (1 / 100) ltac:(lra) 100 _ _ ct Eo) in Ez.
  destruct Ez as (s & x & y & Es & _ & _ & [k Ek] & Hp). rewrite tri0_run in Es. injection Es as <-.
  apply Ed3 in Ek as [(-> & -> & ->)|[(-> & -> & ->)|(-> & -> & ->)]]; cbn [sp_v] in Hp; rv0; lra.
Qed.

(** ** An edge through the origin makes f32 report the wrong contact *)
(** Two rectangles of 2 by 4, the second moved by (1, 2).  They overlap in the square
    [0,1] x [0,2], so moving the second by 1 along x takes them apart.  GJK ends with the
    triangle (1,2), (-3,-6), (-3,2), whose first edge passes through the origin; its normal is
    NaN, it is never the closest, and EPA reports depth 2 along y. *)
Local Instance num32e : Num f32 := Num_float 24 128.
Local Instance sgn32e : NumSgn f32 := NumSgn_float 24 128.
Definition frect_at (x y : Z) : Xf (V2 f32) :=
  decomposed2 (F32 1 (-23)) (F32 1 0) (mkM2 (mk2 (F32 1 0) (F32 0 0)) (mk2 (F32 0 0) (F32 1 0))) (mk2 (F32 x 0) (F32 y 0)).
Definition frect : V2 f32 := mk2 (F32 2 0) (F32 4 0).
Local Open Scope num_scope.
Theorem C41_origin_on_edge_refuted :
  match gjk2_intersection (F32 1 (-23)) (fun d => rect_support frect d (frect_at 0 0)) (fun d => rect_support frect d (frect_at 1 2))
      (F32 1 (-16)) FullResolution 100 (xf_pt (frect_at 0 0) zero2) (xf_pt (frect_at 1 2) zero2) with
  | Ok (Some ct) => (c_depth ct ==? F32 2 0) && (ux (c_normal ct) ==? F32 0 0) && (uy (c_normal ct) ==? F32 1 0)
  | _ => false
  end = true.
Proof. by vm_compute. Qed.
Local Close Scope num_scope.
(** The same two rectangles over the reals are taken apart by a move of length 1. *)
Theorem C41_origin_on_edge_true_depth :
  apart2 (fun p => -1 <= ux p <= 1 /\ -2 <= uy p <= 2) (fun p => 0 <= ux p <= 2 /\ 0 <= uy p <= 4) (mk2 1 0) /\ mag2 (mk2 1 0 : P2) = 1.
Proof.
  split; [|apply mag2_one; rv0; ring]. exists (mk2 1 0). split; [intros E; assert (1 = 0) by exact (f_equal ux E); lra|].
  intros x y Hx Hy. rv0. lra.
Qed.
