(** C14: rotations are inert where bounds are up to date and union is associative
    and commutative. *)
From stdpp Require Import prelude gmap fin_maps fin_sets sorting.
From Verif Require Import Res DbvtModel DbvtGhost DbvtInv DbvtRotate DbvtRefit DbvtSpec DbvtHistory DbvtExample.

(** Equality up to associativity and commutativity. *)
Ltac ac_front Hc Hlc f h :=
  repeat lazymatch goal with
  | |- _ = f h _ => fail
  | |- _ = ?r => first [ progress rewrite (Hlc _ h _) | rewrite (Hc _ h) ]
  end.
Ltac ac Ha Hc Hlc :=
  rewrite <- ?Ha;
  repeat (first [ reflexivity
    | lazymatch goal with
      | |- ?f ?h ?t = ?r =>
          let L := fresh "L" in
          let E := fresh "E" in
          enough (forall L, L = f h t -> L = r) as E by exact (E _ eq_refl);
          intros L E; ac_front Hc Hlc f h; rewrite E; clear L E; f_equal
      end ]).

Section inert.
  Context {T B S : Type} (O : dbvt_ops T B S).

  (** The bound stored at a node. *)
  Definition bound_of (ns : list (node B)) (i : nat) (b : B) : Prop :=
    exists n, ns !! i = Some n /\ get_bound n = Ok b.
  (** A branch stores the union of its children's bounds. *)
  Definition up_to_date (ns : list (node B)) (i : nat) : Prop :=
    forall p l r h b, ns !! i = Some (Branch p l r h b) ->
      exists bl br, bound_of ns l bl /\ bound_of ns r br /\ b = b_union O bl br.

  Theorem C14_rotation_inert ns i p l r h b :
    (forall x y z, b_union O x (b_union O y z) = b_union O (b_union O x y) z) ->
    (forall x y, b_union O x y = b_union O y x) ->
    (forall x, s_lt O x x = false) -> (forall x, s_improves O x x = false) ->
    ns !! i = Some (Branch p l r h b) ->
    up_to_date ns i -> up_to_date ns l -> up_to_date ns r ->
    rotate O ns i = Ok ns.
  Proof.
    intros Ha Hc Hlt Him Hi Ui Ul Ur. unfold rotate. rewrite (get_Some _ _ _ Hi). cbn [mbind res_mbind res_bind].
    destruct (Ui _ _ _ _ _ Hi) as (bl & br & (ln & Hl & Hbl) & (rn & Hr & Hbr) & Hb).
    rewrite (get_Some _ _ _ Hl), (get_Some _ _ _ Hr). cbn [mbind res_mbind res_bind].
    destruct (is_leaf ln && is_leaf rn) eqn:Eleaf; [done|].
    assert (Hcl : is_leaf ln = false -> exists x y, child_bounds ns l = Ok (x, y) /\ bl = b_union O x y).
    { intros E. destruct ln as [p' l' r' h' b'| |]; try done. simpl in Hbl. simplify_eq.
      destruct (Ul _ _ _ _ _ Hl) as (x & y & (n1 & H1 & H2) & (n2 & H3 & H4) & ->).
      exists x, y. unfold child_bounds. rewrite (get_Some _ _ _ Hl). cbn [mbind res_mbind res_bind].
      rewrite (get_Some _ _ _ H1). cbn [mbind res_mbind res_bind]. rewrite H2. cbn [mbind res_mbind res_bind].
      rewrite (get_Some _ _ _ H3). cbn [mbind res_mbind res_bind]. rewrite H4. done. }
    assert (Hcr : is_leaf rn = false -> exists x y, child_bounds ns r = Ok (x, y) /\ br = b_union O x y).
    { intros E. destruct rn as [p' l' r' h' b'| |]; try done. simpl in Hbr. simplify_eq.
      destruct (Ur _ _ _ _ _ Hr) as (x & y & (n1 & H1 & H2) & (n2 & H3 & H4) & ->).
      exists x, y. unfold child_bounds. rewrite (get_Some _ _ _ Hr). cbn [mbind res_mbind res_bind].
      rewrite (get_Some _ _ _ H1). cbn [mbind res_mbind res_bind]. rewrite H2. cbn [mbind res_mbind res_bind].
      rewrite (get_Some _ _ _ H3). cbn [mbind res_mbind res_bind]. rewrite H4. done. }
    assert (Hlc : forall x y z, b_union O x (b_union O y z) = b_union O y (b_union O x z)).
    { intros x y z. by rewrite Ha, (Hc x y), <- Ha. }
    set (my := b_area O b).
    assert (Hbetter : forall rot x, x = my -> better O (RotNone, my) rot x = (RotNone, my)).
    { intros rot x ->. unfold better. simpl. by rewrite Hlt. }
    assert (Hsa : forall x y z, b_union O x (b_union O y z) = b -> sa O x y z = my).
    { intros x y z E. unfold sa, my. by rewrite E. }
    assert (Hbest : best_rotation O ns l r my (is_leaf ln) (is_leaf rn) = Ok (RotNone, my)).
    { unfold best_rotation. rewrite (get_Some _ _ _ Hl). cbn [mbind res_mbind res_bind]. rewrite Hbl.
      cbn [mbind res_mbind res_bind]. rewrite (get_Some _ _ _ Hr). cbn [mbind res_mbind res_bind]. rewrite Hbr.
      cbn [mbind res_mbind res_bind].
      destruct (is_leaf rn) eqn:El.
      - cbn [mbind res_mbind res_bind]. destruct (is_leaf ln) eqn:E2; [done|].
        destruct (Hcl eq_refl) as (ll & lr & -> & ->). cbn [mbind res_mbind res_bind].
        rewrite !Hbetter; [done|apply Hsa..]; rewrite Hb; ac Ha Hc Hlc.
      - destruct (Hcr eq_refl) as (rl & rr & -> & ->). cbn [mbind res_mbind res_bind].
        assert (E1 : sa O rl bl rr = my).
        { apply Hsa. rewrite Hb. ac Ha Hc Hlc. }
        assert (E2 : sa O rr bl rl = my).
        { apply Hsa. rewrite Hb. ac Ha Hc Hlc. }
        rewrite !Hbetter by done.
        destruct (is_leaf ln) eqn:E3; [done|].
        destruct (Hcl eq_refl) as (ll & lr & -> & ->). cbn [mbind res_mbind res_bind].
        assert (E4 : sa O (b_union O rl lr) ll rr = my).
        { apply Hsa. rewrite Hb. ac Ha Hc Hlc. }
        assert (E5 : sa O (b_union O rr lr) rl ll = my).
        { apply Hsa. rewrite Hb. ac Ha Hc Hlc. }
        rewrite !Hbetter by done. cbn [mbind res_mbind res_bind].
        assert (E6 : sa O ll (b_union O rl rr) lr = my).
        { apply Hsa. rewrite Hb. ac Ha Hc Hlc. }
        assert (E7 : sa O lr (b_union O rl rr) ll = my).
        { apply Hsa. rewrite Hb. ac Ha Hc Hlc. }
        rewrite !Hbetter by done. done. }
    rewrite Hbest. cbn [mbind res_mbind res_bind]. fold my. by rewrite Him.
  Qed.

  (** After [do_refit], drawing a rotation at any branch changes nothing. *)
  Theorem C14_rotation_inert_after_refit a s rng fuel s' i p l r h b :
    (forall x y z, b_union O x (b_union O y z) = b_union O (b_union O x y) z) ->
    (forall x y, b_union O x y = b_union O y x) ->
    (forall x, s_lt O x x = false) -> (forall x, s_improves O x x = false) ->
    history O a s -> do_refit O fuel rng s = Ok s' ->
    nodes s' !! i = Some (Branch p l r h b) -> rotate O (nodes s') i = Ok (nodes s').
  Proof.
    intros Ha Hc Hlt Him Hh%history_inv Hr Hi.
    destruct (step_refit O a s rng Hh) as (n & s1 & Hrun & Hinv & Hv & Hq & _).
    pose proof (do_refit_mono O _ (max n fuel) _ _ _ Hr ltac:(lia)) as Hr'.
    rewrite Hrun in Hr' by lia. simplify_eq.
    pose proof (fit_of_empty_queue O _ (i_fit _ _ _ Hinv) Hq) as Hfit.
    assert (forall j, up_to_date (nodes s') j) as HU.
    { intros j p' l' r' h' b' Hj. destruct (Hfit _ _ _ _ _ _ Hj) as [[]|(hl & bl & hr & br & E1 & E2 & _ & ->)].
      exists bl, br. unfold bh in E1, E2. split_and!; [..|done].
      - destruct (nodes s' !! l') as [n1|] eqn:El; [|done]. exists n1. split; [done|]. by destruct n1; simplify_eq/=.
      - destruct (nodes s' !! r') as [n1|] eqn:El; [|done]. exists n1. split; [done|]. by destruct n1; simplify_eq/=. }
    eapply C14_rotation_inert; eauto.
  Qed.
End inert.

(** The interval instance satisfies the hypotheses. *)
Example C14_hypotheses_met :
  (forall x y z, b_union ival_ops x (b_union ival_ops y z) = b_union ival_ops (b_union ival_ops x y) z) /\
  (forall x y, b_union ival_ops x y = b_union ival_ops y x) /\
  (forall x, s_lt ival_ops x x = false) /\ (forall x, s_improves ival_ops x x = false).
Proof.
  split_and!; simpl; intros.
  - f_equal; lia.
  - f_equal; lia.
  - apply bool_decide_eq_false_2. lia.
  - apply bool_decide_eq_false_2. lia.
Qed.

(** Boundary: a branch refitted before its dirty child can be rotated, so in
    general the random draw is observable in the shape of the tree. *)
Definition draw_demo (b : bool) : list (op (nat * nat)) :=
  [Insert (10, 12); Insert (50, 52); Insert (50, 90); Insert (88, 90);
   UpdateNode 5 (47, 51); UpdateNode 7 (51, 52); Tick (fun _ => b)].
Definition draw_result (b : bool) : astate (nat * nat) * dbvt (nat * nat) (nat * nat) :=
  default (astart, dbvt_new) (replay ival_ops 100 (draw_demo b) astart dbvt_new).
Lemma draw_legal b : replay_legal ival_ops 100 (draw_demo b) astart dbvt_new = true.
Proof. destruct b; vm_compute; reflexivity. Qed.
Lemma draw_history b : history ival_ops (draw_result b).1 (draw_result b).2.
Proof.
  eapply replay_history; [constructor|exact (draw_legal b)|].
  destruct b; vm_compute; reflexivity.
Qed.
Theorem C14_draw_observable_on_dirty_children_refuted :
  exists a s a' s',
    history ival_ops a s /\ history ival_ops a' s' /\
    s = (draw_result true).2 /\ s' = (draw_result false).2 /\ nodes s <> nodes s'.
Proof.
  exists (draw_result true).1, (draw_result true).2, (draw_result false).1, (draw_result false).2.
  split_and!; [apply draw_history..|done|done|].
  vm_compute. discriminate.
Qed.
