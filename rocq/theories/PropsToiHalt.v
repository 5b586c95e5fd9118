(** C66: the time of impact of shapes with corners is always found (real arithmetic). *)
From Coq Require Import Psatz.
From stdpp Require Import prelude.
From Coq Require Import Reals Lra.
From Verif Require Import Res Num Vec AabbModel GeoModel RealGeo PrimModel ShapeSpec PropsSupport MinkModel MinkSpec Gjk2 PropsGjk2 Dist PrimEnum
  PropsDist Toi2 PropsToi ToiHalt.
Local Open Scope R_scope.

(** More turns do not change an answer. *)
Lemma toi_loop_more (supL supR : P2 -> res P2) eps tol ray k : forall fuel l n ro ss v r,
  toi_loop sub2 neg2 scale2 dot2 supL supR (closest2 eps) fuel tol ray l n ro ss v = Ok r ->
  toi_loop sub2 neg2 scale2 dot2 supL supR (closest2 eps) (fuel + k) tol ray l n ro ss v = Ok r.
Proof.
  induction fuel as [|fuel IH]; intros l n ro ss v r; cbn [toi_loop Nat.add].
  - destruct (nlt tol (dot2 v v)) eqn:E; [done|]. intros Er. destruct k; cbn [toi_loop]; rewrite E; exact Er.
  - destruct (nlt tol (dot2 v v)); [|done].
    destruct (mink _ _ _ _ _) as [p| |]; cbn [mbind res_mbind res_bind]; [|done|done].
    destruct (nlt _ (dot2 v (sp_v p))).
    + destruct (nlt n0 (dot2 v ray)); [|done]. destruct (nlt n1 _); [done|].
      destruct (closest2 _ _) as [[ss' v']| |]; cbn [mbind res_mbind res_bind]; [|done|done]. apply IH.
    + destruct (closest2 _ _) as [[ss' v']| |]; cbn [mbind res_mbind res_bind]; [|done|done]. apply IH.
Qed.
Lemma gjk2_toi_more (supL supR : P2 -> res P2) eps tol fuel k lvel rvel interp o :
  gjk2_toi eps supL supR fuel tol lvel rvel interp = Ok o -> gjk2_toi eps supL supR (fuel + k) tol lvel rvel interp = Ok o.
Proof.
  unfold gjk2_toi, gjk_toi. cbv zeta. destruct (mink _ _ _ _ _) as [p| |]; cbn [mbind res_mbind res_bind]; [|done|done].
  destruct (toi_loop _ _ _ _ _ _ _ fuel _ _ _ _ _ _ _) as [r| |] eqn:E; cbn [mbind res_mbind res_bind]; [|done|done].
  apply (toi_loop_more _ _ _ _ _ k) in E. rewrite E. done.
Qed.

(** A number of turns that is enough for shapes whose corners have [n] differences. *)
Definition enough_turns (n : nat) : nat :=
  let m := (3 * (n + n * n + 1))%nat in (n * n * n * ((n * n + 1) * m) + n * n * m + 2 * (n + n * n + 1) + (n + n * n) + 1)%nat.

Section turns.
  Context (A B : P2 -> Prop) (supL supR : P2 -> res P2) (HA : supports2 A supL) (HB : supports2 B supR)
    (HcA : convex2 A) (HcB : convex2 B) (eps tol : R) (Htol : 0 <= tol).
  Context (vL vR : list P2) (HvL : vertices2 A supL vL) (HvR : vertices2 B supR vR).
  (** The loop ends, whatever the displacements: after a number of turns that depends on the
      numbers of corners only the answer is there, and it stays. *)
  Theorem C66_terminates lvel rvel interp : lvel <> rvel ->
    exists o, forall fuel, (enough_turns (length vL * length vR) <= fuel)%nat -> gjk2_toi eps supL supR fuel tol lvel rvel interp = Ok o.
  Proof.
    intros Hne. set (n := (length vL * length vR)%nat).
    assert (Hstart : exists o, gjk2_toi eps supL supR (enough_turns n) tol lvel rvel interp = Ok o).
    { destruct (gjk2_toi eps supL supR (enough_turns n) tol lvel rvel interp) as [o| |] eqn:E; [by exists o| |]; exfalso.
      - by apply (C43_no_panic A B supL supR HA HB HcA HcB eps tol Htol (enough_turns n) lvel rvel interp Hne).
      - revert E. unfold gjk2_toi, gjk_toi. cbv zeta. set (ray := sub2 rvel lvel).
        assert (Hray : neg2 ray <> zero2).
        { intros E. apply Hne. assert (E1 : - (ux rvel - ux lvel) = 0) by exact (f_equal ux E).
          assert (E2 : - (uy rvel - uy lvel) = 0) by exact (f_equal uy E). apply V2_eq; lra. }
        destruct (mink2_spec A B supL supR HA HB (neg2 ray) Hray) as (p & Ep & Hp & _).
        pose proof (mink2_diffs A B supL supR HA HB vL vR HvL HvR (neg2 ray) p Hray Ep) as Hpw.
        change (mink sub2 neg2 supL supR (neg2 ray)) with (mink2 supL supR (neg2 ray)). rewrite Ep. cbn [mbind res_mbind res_bind n0 Num_R].
        assert (E0 : (zero2 : P2) = scale2 ray 0) by (clear; apply V2_eq; rv0; ring).
        assert (Es : sp_v p = sub2 (sp_v p) (scale2 ray 0)) by (clear; apply V2_eq; rv0; ring).
        assert (Hl : toi_loop sub2 neg2 scale2 dot2 supL supR (closest2 eps) (enough_turns n) tol ray 0 zero2 (scale2 ray 0) [] (sp_v p) <> OutOfFuel).
        { apply (loop_halts A B supL supR HA HB HcA HcB eps tol Htol vL vR HvL HvR ray _ 0 zero2 [] (sp_v p) [] [] 2 []).
          - right. split; [split; [done|by left]|]. split.
            { replace (add2 (sp_v p) (scale2 ray 0)) with (sp_v p) by (clear; apply V2_eq; rv0; ring). by apply witness2_mdiff, Hp. }
            split; [|split; [|split; [|done]]].
            + split; [apply NoDup_nil_2|]. split; by intros h Hh%elem_of_nil.
            + split; [apply NoDup_nil_2|]. split; by intros h Hh%elem_of_nil.
            + split; [by exists (sp_v p)|by left].
          - unfold todo, edge_times, enough_turns. rewrite map_length, !prod_length, diffs_length. cbn [length]. fold n.
            rewrite !Nat.sub_0_r. set (m := (3 * (n + n * n + 1))%nat). lia. }
        replace (toi_loop _ _ _ _ _ _ _ _ _ _ _ _ _ _ (sp_v p)) with
          (toi_loop sub2 neg2 scale2 dot2 supL supR (closest2 eps) (enough_turns n) tol ray 0 zero2 (scale2 ray 0) [] (sp_v p)) by by rewrite <- E0.
        destruct (toi_loop _ _ _ _ _ _ _ _ _ _ _ _ _ _ _) as [[[[[l nn] ro] v]|]| |]; cbn [mbind res_mbind res_bind]; try done.
        destruct (nle _ _); done. }
    destruct Hstart as [o Ho]. exists o. intros fuel Hf. replace fuel with (enough_turns n + (fuel - enough_turns n))%nat by lia. by apply gjk2_toi_more.
  Qed.
End turns.

(** ** The primitives with corners *)
(** The corners of a primitive of the plane; [None] for circles. *)
Definition prim2_corners (p : Primitive2 R) : option (list P2) :=
  match p with
  | Particle2 => Some [zero2]
  | LineP l => Some [l_origin l; l_dest l]
  | Circle _ => None
  | Rectangle dim => Some (rect_corners (quad_half dim))
  | Square s => Some (rect_corners (quad_half (square_dim s)))
  | ConvexPolygon vs => Some vs
  end.
Lemma prim2_vertices p T cs : prim2_ok p -> similar2 T -> prim2_corners p = Some cs ->
  vertices2 (world T (prim2_set p)) (fun d => prim2_support p d T) (xf_pt T <$> cs).
Proof.
  intros Hp HT Ec. destruct p as [|l|r|dim|s|vs]; cbn [prim2_corners] in Ec; try done; apply (inj Some) in Ec; subst cs; cbn [prim2_set prim2_support prim2_ok] in *.
  - split.
    + intros v (x & -> & ->%elem_of_list_singleton)%elem_of_list_fmap. by exists zero2.
    + intros d s _ [= <-]. set_solver.
  - split.
    + intros v (x & -> & Hx)%elem_of_list_fmap. exists x. split; [|done].
      apply elem_of_cons in Hx as [-> | ->%elem_of_list_singleton].
      * exists 0. split; [lra|]. clear. apply V2_eq; rv0; ring.
      * exists 1. split; [lra|]. clear. apply V2_eq; rv0; ring.
    + intros d s _. unfold line_support. destruct (xf_ivec T d); [|done]. intros [= <-]. cbn [fmap list_fmap]. match goal with |- context [if ?b then _ else _] => destruct b end; set_solver.
  - destruct Hp. by apply rect_vertices.
  - by apply rect_vertices.
  - by apply polygon_vertices.
Qed.
(** Two primitives that are not circles, anywhere, moving in any way: the answer comes; it
    is None only if the shapes never meet, otherwise a time with the properties of C43 ... *)
Theorem C66_primitives2 p q TL TR cs ds eps tol lvel rvel interp :
  prim2_ok p -> prim2_ok q -> similar2 TL -> similar2 TR -> prim2_corners p = Some cs -> prim2_corners q = Some ds ->
  0 <= tol -> lvel <> rvel ->
  let A := world TL (prim2_set p) in let B := world TR (prim2_set q) in
  exists o, (forall fuel, (enough_turns (length cs * length ds) <= fuel)%nat ->
      gjk2_toi eps (fun d => prim2_support p d TL) (fun d => prim2_support q d TR) fuel tol lvel rvel interp = Ok o) /\
    match o with
    | None => forall m, 0 <= m <= 1 -> ~ meets2 A B lvel rvel m
    | Some ct => 0 <= c_toi ct <= 1 /\ (forall m, 0 <= m < c_toi ct -> ~ meets2 A B lvel rvel m) /\
        near_at2 A B lvel rvel (c_toi ct) tol /\ (0 < c_toi ct -> impact_normal2 A B lvel rvel (c_toi ct) (c_normal ct))
    end.
Proof.
  intros Hp Hq HL HR Ec Ed Ht Hne A B.
  destruct (C66_terminates A B (fun d => prim2_support p d TL) (fun d => prim2_support q d TR) (prim2_supports p TL Hp HL) (prim2_supports q TR Hq HR)
    (prim2_world_convex p TL HL) (prim2_world_convex q TR HR) eps tol Ht _ _ (prim2_vertices p TL cs Hp HL Ec) (prim2_vertices q TR ds Hq HR Ed) lvel rvel interp Hne) as (o & Ho).
  rewrite !fmap_length in Ho. exists o. split; [done|].
  pose proof (C43_primitives2 p q TL TR Hp Hq HL HR eps tol (enough_turns (length cs * length ds)) lvel rvel interp Ht Hne) as Hs.
  rewrite Ho in Hs by done. destruct o; exact Hs.
Qed.
(** ... and with tolerance zero the answer is the first time they meet. *)
Theorem C66_exact_time p q TL TR cs ds eps lvel rvel interp :
  prim2_ok p -> prim2_ok q -> similar2 TL -> similar2 TR -> prim2_corners p = Some cs -> prim2_corners q = Some ds -> lvel <> rvel ->
  let A := world TL (prim2_set p) in let B := world TR (prim2_set q) in
  exists o, (forall fuel, (enough_turns (length cs * length ds) <= fuel)%nat ->
      gjk2_toi eps (fun d => prim2_support p d TL) (fun d => prim2_support q d TR) fuel 0 lvel rvel interp = Ok o) /\
    match o with
    | None => forall m, 0 <= m <= 1 -> ~ meets2 A B lvel rvel m
    | Some ct => 0 <= c_toi ct <= 1 /\ meets2 A B lvel rvel (c_toi ct) /\ forall m, 0 <= m < c_toi ct -> ~ meets2 A B lvel rvel m
    end.
Proof.
  intros Hp Hq HL HR Ec Ed Hne A B.
  destruct (C66_primitives2 p q TL TR cs ds eps 0 lvel rvel interp Hp Hq HL HR Ec Ed (Rle_refl 0) Hne) as (o & Ho & Hs).
  exists o. split; [done|]. destruct o as [ct|]; [|done]. destruct Hs as (H1 & H2 & (x & y & Hx & Hy & Hd) & _).
  split; [done|]. split; [|done]. exists x, y. split; [done|]. split; [done|].
  set (a := add2 x (scale2 lvel (c_toi ct))) in *. set (b := add2 y (scale2 rvel (c_toi ct))) in *. clearbody a b.
  unfold dist2_2, mag2_2, dot2, sub2 in Hd. cbn [ux uy] in Hd. cbn [nadd nmul nsub Num_R] in Hd.
  destruct (Rplus_sqr_eq_0 (ux a - ux b) (uy a - uy b)) as [E1 E2].
  { pose proof (Rle_0_sqr (ux a - ux b)); pose proof (Rle_0_sqr (uy a - uy b)); unfold Rsqr in *; lra. }
  apply V2_eq; lra.
Qed.

(** Squares of side 2 at (0, 0) and (3, 0), the second moving by (-2, 0): the answer comes
    and is 1/2. *)
Example C66_hypotheses_met : exists ct, forall fuel, (enough_turns 16 <= fuel)%nat ->
  gjk2_toi 0 (fun d => prim2_support (Square 2) d (square_at 0)) (fun d => prim2_support (Square 2) d (square_at 3)) fuel 0
    zero2 (mk2 (-2) 0) (fun l p => add2 p (mk2 (3 - 2 * l) 0)) = Ok (Some ct) /\ c_toi ct = 1 / 2.
Proof.
  assert (Hne : (zero2 : P2) <> mk2 (-2) 0) by (intros E; apply (f_equal ux) in E; unfold zero2 in E; rv0; lra).
  assert (Hpt : forall x p, xf_pt (square_at x) p = mk2 (ux p + x) (uy p)).
  { intros x p. unfold square_at, decomposed2, m2_mul. cbn [xf_pt m2_x m2_y]. apply V2_eq; rv0; ring. }
  assert (Hset : forall x p, world (square_at x) (prim2_set (Square 2)) p <-> x - 1 <= ux p <= x + 1 /\ -1 <= uy p <= 1).
  { intros x p. cbn [prim2_set]. split.
    - intros (q & [Hq1 Hq2] & ->). rewrite Hpt. rs. lra.
    - intros [H1 H2]. exists (mk2 (ux p - x) (uy p)). split; [split; rs; lra|]. rewrite Hpt. apply V2_eq; rs; ring. }
  assert (Hmeet : forall m, meets2 (world (square_at 0) (prim2_set (Square 2))) (world (square_at 3) (prim2_set (Square 2))) zero2 (mk2 (-2) 0) m <-> 1 / 2 <= m <= 5 / 2).
  { intros m. split.
    - intros (x & y & Hx & Hy & E). apply Hset in Hx, Hy. assert (E1 : ux x + 0 * m = ux y + -2 * m) by exact (f_equal ux E). lra.
    - intros Hm. exists (mk2 (3 / 2 - m) 0), (mk2 (3 / 2 + m) 0). split; [apply Hset; cbn [ux uy]; lra|]. split; [apply Hset; cbn [ux uy]; lra|].
      apply V2_eq; unfold zero2; rv0; lra. }
  destruct (C66_exact_time (Square 2) (Square 2) (square_at 0) (square_at 3) _ _ 0 zero2 (mk2 (-2) 0) (fun l p => add2 p (mk2 (3 - 2 * l) 0))
    ltac:(cbn; lra) ltac:(cbn; lra) (square_at_similar 0) (square_at_similar 3) eq_refl eq_refl Hne) as (o & Ho & Hs).
  destruct o as [ct|].
  - exists ct. intros fuel Hf. split; [by apply Ho|]. destruct Hs as (H1 & H2 & H3). apply Hmeet in H2.
    destruct (Rle_lt_dec (c_toi ct) (1 / 2)) as [|Hlt]; [lra|]. exfalso. apply (H3 (1 / 2)); [lra|]. apply Hmeet. lra.
  - exfalso. apply (Hs (1 / 2)); [lra|]. apply Hmeet. lra.
Qed.
