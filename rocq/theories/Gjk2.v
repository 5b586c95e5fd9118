(** GJK intersection in the plane: invariants of the loop. *)
From Coq Require Import Psatz.
From stdpp Require Import prelude.
From Coq Require Import Reals Lra.
From Verif Require Import Res Num Vec AabbModel GeoModel RealGeo PrimModel ShapeSpec MinkModel MinkSpec.
Local Open Scope R_scope.

Lemma vec2_ne (d : P2) : d <> zero2 <-> 0 < dot2 d d.
Proof.
  split; intros Hd.
  - destruct (Rle_lt_dec (dot2 d d) 0); [|done]. exfalso. apply Hd. apply V2_eq; rv0; nra.
  - intros ->. rv0. lra.
Qed.
Lemma dot2_ne_l (d x : P2) : dot2 d x <> 0 -> d <> zero2.
Proof. intros E ->. apply E. rv0. ring. Qed.

(** ** Triangles *)
Lemma tri_hull (a b c : P2) β γ :
  0 <= β -> 0 <= γ -> β + γ <= 1 ->
  hull2 [c; b; a] (add2 (add2 a (scale2 (sub2 b a) β)) (scale2 (sub2 c a) γ)).
Proof.
  intros Hb Hg Hs.
  assert (Ha : hull2 [c; b; a] a) by (apply hull2_vertex; set_solver).
  assert (Hbb : hull2 [c; b; a] b) by (apply hull2_vertex; set_solver).
  assert (Hc : hull2 [c; b; a] c) by (apply hull2_vertex; set_solver).
  destruct (Req_dec (β + γ) 0) as [E|E].
  - assert (β = 0) as -> by lra. assert (γ = 0) as -> by lra.
    replace (add2 _ _) with a by (apply V2_eq; rv0; ring). done.
  - replace (add2 _ _) with
      (add2 (scale2 a (1 - (β + γ)))
         (scale2 (add2 (scale2 b (1 - γ / (β + γ))) (scale2 c (γ / (β + γ)))) (β + γ)))
      by (apply V2_eq; rv0; field; lra).
    apply hull2_mix; [done| |lra]. apply hull2_mix; [done|done|].
    split; [apply Rmult_le_pos; [lra|]; left; apply Rinv_0_lt_compat; lra|].
    apply Rmult_le_reg_r with (β + γ); [lra|]. field_simplify; lra.
Qed.

Section tri.
  Context (a b c : P2).
  Let ab := sub2 b a.
  Let ac := sub2 c a.
  Let abp := triple ac ab ab.
  Let acp := triple ab ac ac.
  Lemma abp_ab : dot2 abp b = dot2 abp a.
  Proof. unfold abp, ac, ab, triple. rv0. ring. Qed.
  Lemma acp_ac : dot2 acp c = dot2 acp a.
  Proof. unfold acp, ac, ab, triple. rv0. ring. Qed.
  Lemma abp_ac : dot2 abp c = dot2 abp a - perp_dot ab ac * perp_dot ab ac.
  Proof. unfold abp, ac, ab, triple. rv0. ring. Qed.
  Lemma acp_ab : dot2 acp b = dot2 acp a - perp_dot ab ac * perp_dot ab ac.
  Proof. unfold acp, ac, ab, triple. rv0. ring. Qed.
  Lemma abp_nz x : dot2 abp x <> 0 -> perp_dot ab ac <> 0.
  Proof.
    intros Hx E. apply Hx. transitivity (- (perp_dot ab ac * perp_dot ab x)).
    - unfold abp, triple, ac, ab. rv0. ring.
    - rewrite E. ring.
  Qed.
  Lemma acp_nz x : dot2 acp x <> 0 -> perp_dot ab ac <> 0.
  Proof.
    intros Hx E. apply Hx. transitivity (perp_dot ab ac * perp_dot ac x).
    - unfold acp, triple, ac, ab. rv0. ring.
    - rewrite E. ring.
  Qed.
  Lemma tri_origin d :
    dot2 abp (neg2 a) <= 0 -> dot2 acp (neg2 a) <= 0 ->
    dot2 d b = dot2 d c -> dot2 d b <= 0 -> 0 < dot2 d a -> b <> c -> hull2 [c; b; a] zero2.
  Proof.
    intros Hab Hac Hd Hb Ha Hne.
    assert (Hcr : perp_dot ab ac <> 0).
    { intros E. apply Hne. 
      assert (Hk : forall x y : R, x * ux d = 0 -> x * uy d = 0 -> x = 0).
      { intros x _ E1 E2. destruct (Req_dec (ux d) 0); destruct (Req_dec (uy d) 0); try nra.
        exfalso. rv0. nra. }
      assert (E1 : perp_dot ab (sub2 c b) = 0) by (rewrite <- E; unfold ab, ac; rv0; ring).
      assert (E2 : dot2 d (sub2 c b) = 0) by (clear -Hd; rv0; lra).
      assert (Hdab : dot2 d ab < 0) by (clear -Hb Ha; unfold ab; rv0; lra).
      assert (Hx : ux (sub2 c b) * dot2 d ab = 0).
      { transitivity (dot2 d (sub2 c b) * ux ab + perp_dot ab (sub2 c b) * - uy d); [rv0; ring|]. rewrite E1, E2. ring. }
      assert (Hy : uy (sub2 c b) * dot2 d ab = 0).
      { transitivity (dot2 d (sub2 c b) * uy ab + perp_dot ab (sub2 c b) * ux d); [rv0; ring|]. rewrite E1, E2. ring. }
      apply Rmult_integral in Hx as [Hx|Hx]; [|lra]. apply Rmult_integral in Hy as [Hy|Hy]; [|lra].
      clear -Hx Hy. rv0. apply V2_eq; lra. }
    set (D := perp_dot ab ac * perp_dot ab ac) in *.
    assert (HD : 0 < D) by (unfold D; nra).
    set (γ := - dot2 abp (neg2 a) / D). set (β := - dot2 acp (neg2 a) / D).
    assert (Hγ : 0 <= γ) by (unfold γ; apply Rmult_le_pos; [lra|left; by apply Rinv_0_lt_compat]).
    assert (Hβ : 0 <= β) by (unfold β; apply Rmult_le_pos; [lra|left; by apply Rinv_0_lt_compat]).
    assert (Ez : zero2 = add2 (add2 a (scale2 (sub2 b a) β)) (scale2 (sub2 c a) γ)).
    { unfold β, γ. clear -Hcr. apply V2_eq; unfold abp, acp, triple, D, ab, ac in *; rv0; field; auto. }
    rewrite Ez. apply tri_hull; [done|done|].
    assert (E : dot2 d (zero2 : P2) = 0) by (rv0; ring). rewrite Ez in E.
    assert (E' : dot2 d a + (β + γ) * (dot2 d b - dot2 d a) = 0).
    { rewrite <- E. transitivity (dot2 d a + β * (dot2 d b - dot2 d a) + γ * (dot2 d b - dot2 d a)); [ring|].
      rewrite Hd at 2. clear. rv0. ring. }
    clear -E' Hb Ha Hγ Hβ. nra.
  Qed.
End tri.

Section gjk2.
  Context (eps : R) (Heps : 0 <= eps) (A B : P2 -> Prop) (supL supR : P2 -> res P2)
    (HA : supports2 A supL) (HB : supports2 B supR).
  (** [x] is furthest in some direction. *)
  Definition supported (x : P2) : Prop := exists e, e <> zero2 /\ forall v, mdiff2 A B v -> dot2 e v <= dot2 e x.
  Definition wit (s : SupPt P2) : Prop := witness2 A B s /\ supported (sp_v s).
  Lemma mink2_spec d : d <> zero2 ->
    exists s, mink2 supL supR d = Ok s /\ wit s /\
      (forall v, mdiff2 A B v -> dot2 d v <= dot2 d (sp_v s)) /\ supL d = Ok (sp_a s) /\ supR (neg2 d) = Ok (sp_b s).
  Proof.
    intros Hd. destruct (HA d Hd) as (l & El & Hl & Hml).
    destruct (HB (neg2 d)) as (r & Er & Hr & Hmr).
    { intros E. apply Hd. apply V2_eq; [assert (ux (neg2 d) = 0) by by rewrite E|assert (uy (neg2 d) = 0) by by rewrite E]; rv0; lra. }
    exists (mkSup (sub2 l r) l r). split; [unfold mink2, mink; rewrite El; cbn; by rewrite Er|].
    assert (Hm : forall v, mdiff2 A B v -> dot2 d v <= dot2 d (sub2 l r)).
    { intros v (x & y & Hx & Hy & ->). specialize (Hml x Hx). specialize (Hmr y Hy). clear -Hml Hmr. rv0. lra. }
    split; [split; [done|by exists d]|]. done.
  Qed.
  Lemma witness2_mdiff s : witness2 A B s -> mdiff2 A B (sp_v s).
  Proof. intros (Ha & Hb & E). by exists (sp_a s), (sp_b s). Qed.
  Lemma wit_mdiff s : wit s -> mdiff2 A B (sp_v s).
  Proof. intros [Hw _]. by apply witness2_mdiff. Qed.

  (** The line through [p] and [q] passes close to the origin: distance times the square
      of [|pq|] is at most [sqrt 2 * eps]. *)
  Definition close_line (p q : P2) : Prop := p <> q /\ Rabs (perp_dot p q) * mag2 (sub2 q p) <= sqrt 2 * eps.
  Definition edge (s : list (SupPt P2)) (d : P2) : Prop :=
    exists b a, s = [b; a] /\ wit b /\ wit a /\ d <> zero2 /\ sp_v b <> sp_v a /\
      dot2 d (sp_v b) = dot2 d (sp_v a) /\
      (dot2 d (sp_v a) <= 0 \/ (0 < eps /\ close_line (sp_v b) (sp_v a))).
  Definition start (s : list (SupPt P2)) (d : P2) : Prop :=
    exists b, s = [b] /\ wit b /\ d <> zero2 /\ dot2 d (sp_v b) < 0.
  Definition hit_ok (s : list (SupPt P2)) : Prop :=
    exists c b a, s = [c; b; a] /\ wit c /\ wit b /\ wit a /\
      (hull2 [sp_v c; sp_v b; sp_v a] zero2 \/ (0 < eps /\ close_line (sp_v c) (sp_v b))).

  Lemma near0_2_spec (v : P2) : near0_2 eps v = true <-> Rabs (ux v) <= eps /\ Rabs (uy v) <= eps.
  Proof. unfold near0_2, near0. cbn [nle nabs Num_R]. rewrite andb_true_iff, !Rleb_true. done. Qed.
  Lemma near0_2_false (v : P2) : near0_2 eps v = false -> v <> zero2.
  Proof.
    intros E ->. assert (near0_2 eps zero2 = true); [|congruence]. apply near0_2_spec. cbn [ux uy zero2]. rs.
    rewrite Rabs_R0. done.
  Qed.
  Lemma near0_2_mag (v : P2) : near0_2 eps v = true -> mag2 v <= sqrt 2 * eps.
  Proof.
    intros E. apply near0_2_spec in E as [Hx Hy].
    apply mag2_le_iff; [apply Rmult_le_pos; [apply sqrt_pos|done]|].
    replace (sqrt 2 * eps * (sqrt 2 * eps)) with (2 * (eps * eps)).
    2:{ transitivity ((sqrt 2 * sqrt 2) * (eps * eps)); [rewrite sqrt_sqrt by lra|]; ring. }
    assert (Hsq : forall x, Rabs x <= eps -> x * x <= eps * eps).
    { intros x Hx'. assert (- eps <= x <= eps) by (split; [pose proof (Rle_abs (- x)) as Hn; rewrite Rabs_Ropp in Hn; lra|pose proof (Rle_abs x); lra]). nra. }
    pose proof (Hsq _ Hx). pose proof (Hsq _ Hy). rv0. lra.
  Qed.

  (** Two points: the new direction. *)
  Lemma reduce2_two b a d :
    wit b -> wit a -> dot2 d (sp_v b) < 0 -> 0 < dot2 d (sp_v a) ->
    exists d', reduce2 eps [b; a] d = ([b; a], d', false) /\ edge [b; a] d'.
  Proof.
    intros Hb Ha Hdb Hda. unfold reduce2. eexists. split; [done|].
    assert (Hne : sp_v b <> sp_v a) by (intros E; rewrite E in Hdb; lra).
    exists b, a. split; [done|]. split; [done|]. split; [done|].
    set (vb := sp_v b) in *. set (va := sp_v a) in *.
    assert (Hmag : mag2 (triple (sub2 vb va) (neg2 va) (sub2 vb va)) = Rabs (perp_dot vb va) * mag2 (sub2 va vb)).
    { unfold mag2. cbn [nsqrt Num_R].
      replace (mag2_2 (triple _ _ _)) with ((perp_dot vb va * perp_dot vb va) * mag2_2 (sub2 va vb))
        by (unfold triple; rv0; ring).
      rewrite sqrt_mult; [|apply Rle_0_sqr|exact (dot2_nonneg _)]. f_equal. apply sqrt_Rsqr_abs. }
    destruct (near0_2 eps _) eqn:En; (split; [|split; [done|]]).
    - intros E. apply Hne.
      assert (E1 : - (uy vb - uy va) = 0) by exact (f_equal ux E).
      assert (E2 : ux vb - ux va = 0) by exact (f_equal uy E). apply V2_eq; lra.
    - split; [clear; rv0; ring|]. destruct (Req_dec eps 0) as [E0|E0].
      + left. apply near0_2_mag in En. rewrite Hmag, E0, Rmult_0_r in En.
        assert (0 < mag2 (sub2 va vb)).
        { apply mag2_pos. intros E. apply Hne. assert (ux (sub2 va vb) = 0) by by rewrite E.
          assert (uy (sub2 va vb) = 0) by by rewrite E. clear -H H0. rv0. apply V2_eq; lra. }
        assert (Rabs (perp_dot vb va) = 0). { pose proof (Rabs_pos (perp_dot vb va)). clear -En H H0. nra. }
        assert (perp_dot vb va = 0). { destruct (Req_dec (perp_dot vb va) 0) as [?|Hz]; [done|]. by apply Rabs_no_R0 in Hz. }
        clear -H1. rv0. lra.
      + right. split; [lra|]. split; [done|]. rewrite <- Hmag. by apply near0_2_mag.
    - by apply near0_2_false.
    - split; [clear; unfold triple; rv0; ring|]. left. clear.
      replace (dot2 _ va) with (- (perp_dot vb va * perp_dot vb va)) by (unfold triple; rv0; ring).
      pose proof (Rle_0_sqr (perp_dot vb va)) as Hs. unfold Rsqr in Hs. lra.
  Qed.

  Definition separates (d : P2) : Prop := d <> zero2 /\ forall x y, A x -> B y -> dot2 d x <= dot2 d y.
  Lemma support_separates d s :
    d <> zero2 -> (forall v, mdiff2 A B v -> dot2 d v <= dot2 d (sp_v s)) -> dot2 d (sp_v s) <= 0 -> separated2 A B.
  Proof.
    intros Hd Hm Hle. exists d. split; [done|]. intros x y Hx Hy.
    specialize (Hm (sub2 x y) ltac:(by exists x, y)). clear -Hm Hle. rv0. lra.
  Qed.

  (** Three points: either the origin is enclosed, or the new edge has the origin strictly
      beyond it. *)
  Definition sharp_edge (s : list (SupPt P2)) (d : P2) : Prop :=
    exists b a w, s = [b; a] /\ wit b /\ wit a /\ d <> zero2 /\ sp_v b <> sp_v a /\
      dot2 d (sp_v b) = dot2 d (sp_v a) /\ dot2 d (sp_v a) < 0 /\
      mdiff2 A B w /\ dot2 d w < dot2 d (sp_v a).
  Lemma sharp_edge_edge s d : sharp_edge s d -> edge s d.
  Proof. intros (b & a & w & ? & ? & ? & ? & ? & ? & ? & ?). exists b, a. repeat (split; [done|]). left. lra. Qed.

  Lemma reduce2_three c b a d :
    wit c -> wit b -> wit a -> sp_v c <> sp_v b ->
    dot2 d (sp_v c) = dot2 d (sp_v b) -> (dot2 d (sp_v b) <= 0 \/ (0 < eps /\ close_line (sp_v c) (sp_v b))) ->
    0 < dot2 d (sp_v a) ->
    let '(s', d', inside) := reduce2 eps [c; b; a] d in
    if inside then s' = [c; b; a] /\ hit_ok s'
    else sharp_edge s' d' /\
      ((s' = [b; a] /\ d' = triple (sub2 (sp_v c) (sp_v a)) (sub2 (sp_v b) (sp_v a)) (sub2 (sp_v b) (sp_v a))) \/
       (s' = [c; a] /\ d' = triple (sub2 (sp_v b) (sp_v a)) (sub2 (sp_v c) (sp_v a)) (sub2 (sp_v c) (sp_v a)))).
  Proof.
    intros Hc Hb Ha Hne Hd Hdb Hda. unfold reduce2. cbn [nlt n0 Num_R].
    set (vc := sp_v c) in *. set (vb := sp_v b) in *. set (va := sp_v a) in *.
    destruct (Rltb 0 (dot2 (triple (sub2 vc va) (sub2 vb va) (sub2 vb va)) (neg2 va))) eqn:E1.
    { apply Rltb_true in E1. split; [|by left].
      assert (Hlt : dot2 (triple (sub2 vc va) (sub2 vb va) (sub2 vb va)) va < 0).
      { set (t := triple _ _ _) in *. clearbody t. clear -E1. rv0. lra. }
      exists b, a, vc. split; [done|]. split; [done|]. split; [done|].
      assert (Hcr : perp_dot (sub2 vb va) (sub2 vc va) <> 0) by (apply (abp_nz va vb vc va); lra).
      split; [by apply (dot2_ne_l _ va); lra|].
      split. { intros E. fold vb va in E. apply Hcr. rewrite E. clear. rv0. ring. }
      split; [apply abp_ab|]. split; [done|]. split; [by apply wit_mdiff|].
      fold va. rewrite abp_ac. clear -Hcr. nra. }
    apply Rltb_false in E1.
    destruct (Rltb 0 (dot2 (triple (sub2 vb va) (sub2 vc va) (sub2 vc va)) (neg2 va))) eqn:E2.
    { apply Rltb_true in E2. split; [|by right].
      assert (Hlt : dot2 (triple (sub2 vb va) (sub2 vc va) (sub2 vc va)) va < 0).
      { set (t := triple _ _ _) in *. clearbody t. clear -E2. rv0. lra. }
      exists c, a, vb. split; [done|]. split; [done|]. split; [done|].
      assert (Hcr : perp_dot (sub2 vb va) (sub2 vc va) <> 0) by (apply (acp_nz va vb vc va); lra).
      split; [by apply (dot2_ne_l _ va); lra|].
      split. { intros E. fold vc va in E. apply Hcr. rewrite E. clear. rv0. ring. }
      split; [apply acp_ac|]. split; [done|]. split; [by apply wit_mdiff|].
      fold va. rewrite acp_ab. clear -Hcr. nra. }
    apply Rltb_false in E2. split; [done|]. exists c, b, a. repeat (split; [done|]).
    destruct Hdb as [Hdb|Hdb]; [|by right]. left.
    apply (tri_origin va vb vc d); done.
  Qed.

  (** *** The loop is sound *)
  Definition outcome (o : gjk_out P2) : Prop :=
    match o with Hit s => hit_ok s | Separated => separated2 A B | Exhausted => True end.
  Notation loop := (gjk_loop sub2 neg2 dot2 supL supR (reduce2 eps)).
  Lemma dot2_swap (x y : P2) : dot2 x y = dot2 y x.
  Proof. rv0. ring. Qed.
  Lemma loop_edge n s d : edge s d -> exists o, loop n s d = Ok o /\ outcome o.
  Proof.
    revert s d. induction n as [|n IH]; intros s d He; [by exists Exhausted|].
    destruct He as (c & b & -> & Hc & Hb & Hd & Hne & Hcb & Hdb).
    destruct (mink2_spec d Hd) as (a & Ea & Ha & Hm & _). cbn [gjk_loop].
    change (mink sub2 neg2 supL supR d) with (mink2 supL supR d). rewrite Ea. cbn [mbind res_mbind res_bind].
    cbn [nle n0 Num_R]. destruct (Rleb (dot2 (sp_v a) d) 0) eqn:E.
    { apply Rleb_true in E. exists Separated. split; [done|]. eapply support_separates; [done|done|]. by rewrite dot2_swap. }
    apply Rleb_false in E. rewrite dot2_swap in E.
    pose proof (reduce2_three c b a d Hc Hb Ha Hne Hcb Hdb E) as Hr. cbn [app].
    destruct (reduce2 eps [c; b; a] d) as [[s' d'] inside]. destruct inside.
    - exists (Hit s'). split; [done|]. by destruct Hr as [-> Hr].
    - apply IH. apply sharp_edge_edge. by destruct Hr.
  Qed.
  Lemma loop_start n s d : start s d -> exists o, loop n s d = Ok o /\ outcome o.
  Proof.
    destruct n as [|n]; intros Hs; [by exists Exhausted|].
    destruct Hs as (b & -> & Hb & Hd & Hdb). destruct (mink2_spec d Hd) as (a & Ea & Ha & Hm & _). cbn [gjk_loop].
    change (mink sub2 neg2 supL supR d) with (mink2 supL supR d). rewrite Ea. cbn [mbind res_mbind res_bind].
    cbn [nle n0 Num_R]. destruct (Rleb (dot2 (sp_v a) d) 0) eqn:E.
    { apply Rleb_true in E. exists Separated. split; [done|]. eapply support_separates; [done|done|]. by rewrite dot2_swap. }
    apply Rleb_false in E. rewrite dot2_swap in E. cbn [app].
    destruct (reduce2_two b a d Hb Ha Hdb E) as (d' & Er & He). rewrite Er. by apply loop_edge.
  Qed.
  Lemma first_dir_ne lpos rpos : first_dir (mk2 1 1) sub2 (near0_2 eps) lpos rpos <> zero2.
  Proof.
    unfold first_dir. destruct (near0_2 eps (sub2 rpos lpos)) eqn:E; [|by apply near0_2_false].
    intros E'. assert (1 = 0) by exact (f_equal ux E'). lra.
  Qed.
  Lemma gjk2_sound n lpos rpos : exists o, gjk2_run eps supL supR n lpos rpos = Ok o /\ outcome o.
  Proof.
    unfold gjk2_run, gjk_run. cbv zeta. cbn [n1 Num_R].
    pose proof (first_dir_ne lpos rpos) as Hd. set (d := first_dir _ _ _ _ _) in *.
    destruct (mink2_spec d Hd) as (a & Ea & Ha & Hm & _).
    change (mink sub2 neg2 supL supR d) with (mink2 supL supR d). rewrite Ea. cbn [mbind res_mbind res_bind].
    cbn [nle n0 Num_R]. destruct (Rleb (dot2 (sp_v a) d) 0) eqn:E.
    { apply Rleb_true in E. exists Separated. split; [done|]. eapply support_separates; [done|done|]. by rewrite dot2_swap. }
    apply Rleb_false in E. apply loop_start. exists a. split; [done|]. split; [done|]. clearbody d. split.
    - intros E'. apply (dot2_ne_l (neg2 d) (sp_v a)); [|done]. clear -E. rv0. lra.
    - clear -E. rv0. lra.
  Qed.

  (** *** The loop ends when the shapes have finitely many vertices *)
  Context (vL vR : list P2) (HvL : vertices2 A supL vL) (HvR : vertices2 B supR vR).
  Definition diffs : list P2 := foldr (fun l acc => (sub2 l <$> vR) ++ acc) [] vL.
  Lemma diffs_length : length diffs = (length vL * length vR)%nat.
  Proof.
    unfold diffs. clear. induction vL as [|l vs IH]; [done|]. cbn [foldr length]. by rewrite app_length, fmap_length, IH.
  Qed.
  Lemma diffs_elem v : v ∈ diffs <-> exists l r, l ∈ vL /\ r ∈ vR /\ v = sub2 l r.
  Proof.
    unfold diffs. clear. induction vL as [|l vs IH]; cbn [foldr].
    - split; [by intros ?%elem_of_nil|]. by intros (? & ? & ?%elem_of_nil & _).
    - rewrite elem_of_app, IH, elem_of_list_fmap. split.
      + intros [(r & -> & Hr)|(l' & r & Hl & Hr & ->)]; [exists l, r|exists l', r]; (split; [set_solver|done]).
      + intros (l' & r & [-> |Hl]%elem_of_cons & Hr & ->); [left; eauto|right; eauto].
  Qed.
  Lemma diffs_mdiff v : v ∈ diffs -> mdiff2 A B v.
  Proof. intros (l & r & Hl & Hr & ->)%diffs_elem. exists l, r. split; [by apply HvL|]. split; [by apply HvR|done]. Qed.
  Lemma mink2_diffs d s : d <> zero2 -> mink2 supL supR d = Ok s -> sp_v s ∈ diffs.
  Proof.
    intros Hd Es. destruct (mink2_spec d Hd) as (s' & Es' & ((_ & _ & Hv) & _) & _ & El & Er).
    assert (s' = s) as -> by congruence. rewrite Hv. apply diffs_elem. exists (sp_a s), (sp_b s).
    split; [by eapply (proj2 HvL)|]. split; [|done]. eapply (proj2 HvR); [|done].
    intros E. apply Hd. apply V2_eq; [assert (ux (neg2 d) = 0) by by rewrite E|assert (uy (neg2 d) = 0) by by rewrite E]; clear Hv; rv0; lra.
  Qed.

  (** The vertices strictly beyond the edge. *)
  Definition cap (d b : P2) : list P2 := filter (fun v => Rltb (dot2 d b) (dot2 d v) = true) diffs.
  Lemma elem_of_cap d b v : v ∈ cap d b <-> dot2 d b < dot2 d v /\ v ∈ diffs.
  Proof. unfold cap. rewrite elem_of_list_filter. by rewrite Rltb_true. Qed.
  Lemma filter_length_lt {X} (P Q : X -> Prop) `{!forall x, Decision (P x)} `{!forall x, Decision (Q x)} (l : list X) a :
    (forall x, x ∈ l -> P x -> Q x) -> a ∈ l -> Q a -> ~ P a -> (length (filter P l) < length (filter Q l))%nat.
  Proof.
    induction l as [|x l IH]; intros Hi Ha HQ HP; [by apply elem_of_nil in Ha|].
    assert (Hle : (length (filter P l) <= length (filter Q l))%nat).
    { clear IH Ha HQ HP. induction l as [|y l IH]; [done|]. rewrite !filter_cons.
      assert ((length (filter P l) <= length (filter Q l))%nat) by (apply IH; intros z Hz; apply Hi; set_solver).
      destruct (decide (P y)) as [Hp|Hp]; [rewrite decide_True by (apply Hi; [set_solver|done]); cbn; lia|].
      destruct (decide (Q y)); cbn; lia. }
    rewrite !filter_cons. apply elem_of_cons in Ha as [-> |Ha].
    - rewrite decide_False by done. rewrite decide_True by done. cbn. lia.
    - assert ((length (filter P l) < length (filter Q l))%nat) by (apply IH; try done; intros z Hz; apply Hi; set_solver).
      destruct (decide (P x)) as [Hp|Hp]; [rewrite decide_True by (apply Hi; [set_solver|done]); cbn; lia|].
      destruct (decide (Q x)); cbn; lia.
  Qed.

  (** The cap beyond the new edge [b a] lies inside the cap beyond the old edge [c b]. *)
  Lemma cap_nested (a b c d g w v : P2) :
    supported b -> mdiff2 A B a -> mdiff2 A B c -> mdiff2 A B w -> mdiff2 A B v ->
    dot2 d c = dot2 d b -> dot2 d b < dot2 d a -> dot2 d w < dot2 d b -> c <> b ->
    dot2 g b = dot2 g a -> dot2 g c < dot2 g a -> dot2 g a < dot2 g v -> dot2 d b < dot2 d v.
  Proof.
    intros (e & He & Hmax) Ha Hc Hw Hv Hdc Hda Hdw Hne Hgb Hgc Hgv.
    destruct (Rle_lt_dec (dot2 d v) (dot2 d b)) as [Hle|]; [exfalso|done].
    pose proof (Hmax _ Ha) as Ma. pose proof (Hmax _ Hc) as Mc. pose proof (Hmax _ Hw) as Mw. pose proof (Hmax _ Hv) as Mv.
    clear Hmax Ha Hc Hw Hv.
    set (p := sub2 c b). set (q := sub2 a b). set (r := sub2 v b). set (z := sub2 w b).
    assert (Hlin : forall f x : P2, dot2 f (sub2 x b) = dot2 f x - dot2 f b) by (intros; rv0; ring).
    assert (Dp : dot2 d p = 0) by (unfold p; rewrite Hlin; lra).
    assert (Dq : 0 < dot2 d q) by (unfold q; rewrite Hlin; lra).
    assert (Dr : dot2 d r <= 0) by (unfold r; rewrite Hlin; lra).
    assert (Dz : dot2 d z < 0) by (unfold z; rewrite Hlin; lra).
    assert (Gp : dot2 g p < 0) by (unfold p; rewrite Hlin; lra).
    assert (Gq : dot2 g q = 0) by (unfold q; rewrite Hlin; lra).
    assert (Gr : 0 < dot2 g r) by (unfold r; rewrite Hlin; lra).
    assert (Ep : dot2 e p <= 0) by (unfold p; rewrite Hlin; lra).
    assert (Eq_ : dot2 e q <= 0) by (unfold q; rewrite Hlin; lra).
    assert (Er : dot2 e r <= 0) by (unfold r; rewrite Hlin; lra).
    assert (Ez : dot2 e z <= 0) by (unfold z; rewrite Hlin; lra).
    clearbody p q r z. clear -Dp Dq Dr Dz Gp Gq Gr Ep Eq_ Er Ez He.
    (* r = x p + y q *)
    assert (Hr : forall f : P2, dot2 f r * (dot2 g p * dot2 d q) = dot2 g r * dot2 d q * dot2 f p + dot2 d r * dot2 g p * dot2 f q).
    { intros f.
      assert (K : forall f : P2, dot2 f r * perp_dot p q = perp_dot r q * dot2 f p + perp_dot p r * dot2 f q) by (intros; rv0; ring).
      pose proof (K f) as Kf. pose proof (K g) as Kg. pose proof (K d) as Kd. rewrite Gq in Kg. rewrite Dp in Kd.
      destruct (Req_dec (perp_dot p q) 0) as [E|E].
      - exfalso. assert (dot2 d q * dot2 g p = 0); [|nra].
        transitivity (dot2 d p * dot2 g q + perp_dot p q * (- perp_dot d g)); [rv0; ring|]. rewrite E, Dp. ring.
      - apply (Rmult_eq_reg_l (perp_dot p q)); [|done].
        transitivity ((dot2 g r * perp_dot p q) * dot2 d q * dot2 f p + (dot2 d r * perp_dot p q) * dot2 g p * dot2 f q); [|ring].
        rewrite Kg, Kd. transitivity ((dot2 f r * perp_dot p q) * (dot2 g p * dot2 d q)); [ring|]. rewrite Kf. ring. }
    specialize (Hr e).
    assert (E0 : dot2 e p = 0).
    { clear -Hr Dq Dr Gp Gr Ep Eq_ Er.
      set (dq := dot2 d q) in *. set (dr := dot2 d r) in *. set (gp := dot2 g p) in *. set (gr := dot2 g r) in *.
      set (ep := dot2 e p) in *. set (eq := dot2 e q) in *. set (er := dot2 e r) in *. clearbody dq dr gp gr ep eq er.
      assert (0 <= er * (gp * dq)). { assert (gp * dq < 0) by nra. nra. }
      assert (dr * gp * eq <= 0). { assert (0 <= dr * gp) by nra. nra. }
      assert (gr * dq * ep <= 0). { assert (0 < gr * dq) by nra. nra. }
      assert (Hz : gr * dq * ep = 0) by lra. apply Rmult_integral in Hz as [Hz|]; [|done].
      assert (0 < gr * dq) by nra. lra. }
    (* e is a multiple of d *)
    assert (Hp : p <> zero2) by (intros ->; clear -Gp; rv0; lra). apply vec2_ne in Hp.
    assert (Hpar : perp_dot e d = 0).
    { apply (Rmult_eq_reg_r (dot2 p p)); [|lra]. rewrite Rmult_0_l.
      transitivity (dot2 e p * perp_dot p d - dot2 d p * perp_dot p e); [rv0; ring|]. rewrite E0, Dp. ring. }
    assert (Hz2 : dot2 e z * dot2 d q = dot2 d z * dot2 e q).
    { transitivity (dot2 d z * dot2 e q + perp_dot e d * perp_dot z q); [rv0; ring|]. rewrite Hpar. ring. }
    assert (Hdne : d <> zero2) by (apply (dot2_ne_l d q); lra). apply vec2_ne in Hdne.
    assert (Heq : dot2 e q <> 0).
    { intros E. apply He. apply V2_eq.
      - apply (Rmult_eq_reg_r (dot2 d q)); [|lra]. cbn [ux zero2]. rs.
        transitivity (ux d * dot2 e q + perp_dot e d * uy q); [rv0; ring|]. rewrite E, Hpar. ring.
      - apply (Rmult_eq_reg_r (dot2 d q)); [|lra]. cbn [uy zero2]. rs.
        transitivity (uy d * dot2 e q - perp_dot e d * ux q); [rv0; ring|]. rewrite E, Hpar. ring. }
    clear -Hz2 Heq Eq_ Ez Dq Dz. nra.
  Qed.
  Lemma cap_shrinks (a b c d g w : P2) :
    supported b -> a ∈ diffs -> mdiff2 A B c -> mdiff2 A B w ->
    dot2 d c = dot2 d b -> dot2 d b < dot2 d a -> dot2 d w < dot2 d b -> c <> b ->
    dot2 g b = dot2 g a -> dot2 g c < dot2 g a -> (length (cap g a) < length (cap d b))%nat.
  Proof.
    intros. unfold cap. apply (filter_length_lt _ _ diffs a); [|done| |].
    - intros v Hv. rewrite !Rltb_true. intros Hg. eapply (cap_nested a b c d g w v); try done; by apply diffs_mdiff.
    - by apply Rltb_true.
    - rewrite Rltb_true. lra.
  Qed.

  Definition sharp (s : list (SupPt P2)) (d : P2) (k : nat) : Prop :=
    sharp_edge s d /\ exists b a, s = [b; a] /\ supported (sp_v b) /\ supported (sp_v a) /\ length (cap d (sp_v a)) = k.
  Lemma step_sharp c b a d :
    wit c -> wit b -> wit a -> sp_v c <> sp_v b ->
    dot2 d (sp_v c) = dot2 d (sp_v b) -> (dot2 d (sp_v b) <= 0 \/ (0 < eps /\ close_line (sp_v c) (sp_v b))) ->
    0 < dot2 d (sp_v a) -> supported (sp_v c) -> supported (sp_v b) -> supported (sp_v a) -> sp_v a ∈ diffs ->
    let '(s', d', inside) := reduce2 eps [c; b; a] d in
    if inside then s' = [c; b; a]
    else exists k, sharp s' d' k /\
      forall w, mdiff2 A B w -> dot2 d w < dot2 d (sp_v b) -> dot2 d (sp_v b) < dot2 d (sp_v a) ->
        (k < length (cap d (sp_v b)))%nat.
  Proof.
    intros Hc Hb Ha Hne Hd Hdb Hda Sc Sb Sa Hin.
    pose proof (reduce2_three c b a d Hc Hb Ha Hne Hd Hdb Hda) as Hr.
    destruct (reduce2 eps [c; b; a] d) as [[s' d'] inside]. destruct inside; [by destruct Hr|].
    destruct Hr as [He Hcase]. destruct Hcase as [[-> ->]|[-> ->]]; eexists.
    - split; [split; [done|]; exists b, a; by repeat (split; [done|])|].
      intros w Hw Hdw Hlt. apply (cap_shrinks (sp_v a) (sp_v b) (sp_v c) d _ w); try done; [by apply wit_mdiff|apply abp_ab|].
      destruct He as (b' & a' & w' & [= <- <-] & _ & _ & _ & Hne' & Hab & Hlt' & _ & _).
      rewrite abp_ac. assert (Hnz : perp_dot (sub2 (sp_v b) (sp_v a)) (sub2 (sp_v c) (sp_v a)) <> 0).
      { apply (abp_nz (sp_v a) (sp_v b) (sp_v c) (sp_v a)). lra. }
      clear -Hnz. nra.
    - split; [split; [done|]; exists c, a; by repeat (split; [done|])|].
      intros w Hw Hdw Hlt.
      replace (cap d (sp_v b)) with (cap d (sp_v c)) by (unfold cap; by rewrite Hd).
      apply (cap_shrinks (sp_v a) (sp_v c) (sp_v b) d _ w); try done; [by apply wit_mdiff|lra|lra|apply acp_ac|].
      destruct He as (b' & a' & w' & [= <- <-] & _ & _ & _ & Hne' & Hab & Hlt' & _ & _).
      rewrite acp_ab. assert (Hnz : perp_dot (sub2 (sp_v b) (sp_v a)) (sub2 (sp_v c) (sp_v a)) <> 0).
      { apply (acp_nz (sp_v a) (sp_v b) (sp_v c) (sp_v a)). lra. }
      clear -Hnz. nra.
  Qed.
  Lemma mink2_supported d s : d <> zero2 -> mink2 supL supR d = Ok s -> supported (sp_v s).
  Proof.
    intros Hd Es. destruct (mink2_spec d Hd) as (s' & Es' & _ & Hm & _). assert (s' = s) as -> by congruence.
    by exists d.
  Qed.
  Lemma loop_sharp n s d k : sharp s d k -> (k < n)%nat -> loop n s d <> Ok Exhausted.
  Proof.
    revert s d k. induction n as [|n IH]; intros s d k [He (b' & a' & Es & Sc & Sb & Ek)] Hk; [lia|].
    destruct He as (c & b & w & -> & Hc & Hb & Hd & Hne & Hcb & Hdb & Hw & Hdw). injection Es as <- <-.
    destruct (mink2_spec d Hd) as (a & Ea & Ha & Hm & _). cbn [gjk_loop].
    change (mink sub2 neg2 supL supR d) with (mink2 supL supR d). rewrite Ea. cbn [mbind res_mbind res_bind].
    cbn [nle n0 Num_R]. destruct (Rleb (dot2 (sp_v a) d) 0) eqn:E; [done|].
    apply Rleb_false in E. rewrite dot2_swap in E. cbn [app].
    pose proof (step_sharp c b a d Hc Hb Ha Hne Hcb (or_introl (Rlt_le _ _ Hdb)) E Sc Sb (mink2_supported _ _ Hd Ea) (mink2_diffs _ _ Hd Ea)) as Hr.
    destruct (reduce2 eps [c; b; a] d) as [[s' d'] inside]. destruct inside; [done|].
    destruct Hr as (k' & Hs & Hlt). apply (IH _ _ k'); [done|]. specialize (Hlt w Hw Hdw ltac:(lra)). lia.
  Qed.
  Lemma cap_le d b : (length (cap d b) <= length vL * length vR)%nat.
  Proof. rewrite <- diffs_length. apply filter_length. Qed.
  Lemma gjk2_terminates n lpos rpos :
    (length vL * length vR + 2 < n)%nat -> gjk2_run eps supL supR n lpos rpos <> Ok Exhausted.
  Proof.
    intros Hn. destruct n as [|[|n]]; [lia|lia|].
    unfold gjk2_run, gjk_run. cbv zeta. cbn [n1 Num_R].
    pose proof (first_dir_ne lpos rpos) as Hd. set (d := first_dir _ _ _ _ _) in *.
    destruct (mink2_spec d Hd) as (c & Ec & Hc & Hm & _).
    change (mink sub2 neg2 supL supR d) with (mink2 supL supR d). rewrite Ec. cbn [mbind res_mbind res_bind].
    cbn [nle n0 Num_R]. destruct (Rleb (dot2 (sp_v c) d) 0) eqn:E; [done|].
    apply Rleb_false in E. clearbody d.
    assert (Hd' : neg2 d <> zero2). { intros E'. apply (dot2_ne_l (neg2 d) (sp_v c)); [|done]. clear -E. rv0. lra. }
    assert (Ec' : dot2 (neg2 d) (sp_v c) < 0) by (clear -E; rv0; lra).
    pose proof (mink2_supported _ _ Hd Ec) as Sc. clear Ec E Hd Hm. revert Hd' Ec'. generalize (neg2 d). clear d. intros d Hd Ec'.
    destruct (mink2_spec d Hd) as (b & Eb & Hb & Hm & _). cbn [gjk_loop].
    change (mink sub2 neg2 supL supR d) with (mink2 supL supR d). rewrite Eb. cbn [mbind res_mbind res_bind].
    cbn [nle n0 Num_R]. destruct (Rleb (dot2 (sp_v b) d) 0) eqn:E; [done|].
    apply Rleb_false in E. rewrite dot2_swap in E. cbn [app].
    destruct (reduce2_two c b d Hc Hb Ec' E) as (d' & Er & He). rewrite Er.
    pose proof (mink2_supported _ _ Hd Eb) as Sb. destruct He as (c' & b' & [= <- <-] & _ & _ & Hd' & Hne & Hcb & Hdb).
    clear Eb E Hd Hm Ec' Er. revert Hd' Hcb Hdb. generalize d'. clear d d'. intros d Hd Hcb Hdb.
    destruct (mink2_spec d Hd) as (a & Ea & Ha & Hm & _).
    change (mink sub2 neg2 supL supR d) with (mink2 supL supR d). rewrite Ea. cbn [mbind res_mbind res_bind].
    destruct (Rleb (dot2 (sp_v a) d) 0) eqn:E; [done|].
    apply Rleb_false in E. rewrite dot2_swap in E. cbn [app].
    pose proof (step_sharp c b a d Hc Hb Ha Hne Hcb Hdb E Sc Sb (mink2_supported _ _ Hd Ea) (mink2_diffs _ _ Hd Ea)) as Hr.
    destruct (reduce2 eps [c; b; a] d) as [[s' d'] inside]. destruct inside; [done|].
    destruct Hr as (k & Hs & _). apply (loop_sharp _ _ _ k); [done|]. destruct Hs as (_ & b' & a' & -> & _ & _ & <-).
    pose proof (cap_le d' (sp_v a')). lia.
  Qed.
End gjk2.
