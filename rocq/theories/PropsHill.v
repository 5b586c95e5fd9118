(** C38: exactly when the hill climb over a convex polygon of ten or more vertices finds the
    furthest vertex. *)
From Coq Require Import Psatz.
From stdpp Require Import prelude.
From Coq Require Import Reals Lra.
From Verif Require Import Res Num Vec AabbModel GeoModel RealGeo PropsLine PrimModel ShapeSpec RaySpec PropsSupport PropsPolyRay.
Local Open Scope R_scope.

(** * Specification *)
(** The vertices numbered cyclically. *)
Definition corner (vs : list P2) (i : Z) : P2 := nth (Z.to_nat (i mod Z.of_nat (length vs))) vs zero2.
(** How far the transformed vertex number [i] is in the direction [d]. *)
Definition height (vs : list P2) (T : Xf P2) (d : P2) (i : Z) : R := dot2 d (xf_pt T (corner vs i)).
(** The vertex at which the search starts: the first one, or the middle one if the first is
    behind the origin of the polygon. *)
Definition start_at (vs : list P2) (T : Xf P2) (d : P2) : Z :=
  if Rlt_dec (height vs T d 0) (dot2 d (xf_pt T zero2)) then (Z.of_nat (length vs) / 2)%Z else 0%Z.
(** The furthest vertex [m] is missed: it is the middle vertex where the search starts, or it
    is next to the start and the vertex behind it is not lower than the start. *)
Definition missed (h : Z -> R) (n s m : Z) : Prop :=
  m = s /\ s <> 0%Z \/
  (m = (s + 1) mod n)%Z /\ h s <= h (s + 2)%Z \/
  (m = (s - 1) mod n)%Z /\ h s <= h (s - 2)%Z.

(** * Proofs *)
Lemma turn_cone (a b c x d : P2) :
  0 < turn a b c -> 0 <= turn a b x -> 0 <= turn b c x -> dot2 a d <= dot2 b d -> dot2 c d <= dot2 b d -> dot2 x d <= dot2 b d.
Proof.
  intros Ht H1 H2 Ha Hc.
  assert (E : turn a b c * (dot2 x d - dot2 b d) = turn a b x * (dot2 c d - dot2 b d) + turn b c x * (dot2 a d - dot2 b d)).
  { unfold turn. rv0. ring. }
  nra.
Qed.

Section cyc.
  Context (vs : list P2) (Hcv : convex_ccw vs) (d : P2).
  Notation n := (Z.of_nat (length vs)).
  Notation f := (fun i => dot2 (corner vs i) d).
  Lemma n_pos : (3 <= n)%Z.
  Proof. destruct Hcv as [H _]. lia. Qed.
  Lemma corner_mod i : corner vs (i mod n) = corner vs i.
  Proof. unfold corner. rewrite Z.mod_mod; [done|]. pose proof n_pos. lia. Qed.
  Lemma corner_lookup i : vs !! Z.to_nat (i mod n) = Some (corner vs i).
  Proof.
    pose proof n_pos as Hn. pose proof (Z.mod_pos_bound i n ltac:(lia)). unfold corner.
    destruct (lookup_lt_is_Some_2 vs (Z.to_nat (i mod n))) as [v Hv]; [lia|]. rewrite Hv. f_equal. symmetry. by apply nth_lookup_Some with (d := zero2) in Hv.
  Qed.
  Lemma turn_same a b : turn a b a = 0 /\ turn a b b = 0.
  Proof. unfold turn. split; ring. Qed.
  Lemma next_mod i : Z.to_nat ((i + 1) mod n) = ((Z.to_nat (i mod n) + 1) mod length vs)%nat.
  Proof.
    pose proof n_pos as Hn. pose proof (Z.mod_pos_bound i n ltac:(lia)).
    apply Nat2Z.inj. rewrite Nat2Z.inj_mod, Z2Nat.id by (apply Z.mod_pos_bound; lia). rewrite Nat2Z.inj_add, Z2Nat.id by lia.
    by rewrite Z.add_mod_idemp_l by lia.
  Qed.
  Lemma turn_ge i k : 0 <= turn (corner vs i) (corner vs (i + 1)) (corner vs k).
  Proof.
    destruct (turn_same (corner vs i) (corner vs (i + 1))) as [E1 E2].
    destruct (decide (Z.to_nat (k mod n) = Z.to_nat (i mod n))) as [E|Ne1].
    { assert (corner vs k = corner vs i) as -> by (unfold corner; by rewrite E). lra. }
    destruct (decide (Z.to_nat (k mod n) = Z.to_nat ((i + 1) mod n))) as [E|Ne2].
    { assert (corner vs k = corner vs (i + 1)) as -> by (unfold corner; by rewrite E). lra. }
    left. destruct Hcv as [_ H]. apply (H _ _ _ _ _ _ (next_mod i) (corner_lookup i) (corner_lookup (i + 1)) (corner_lookup k)); done.
  Qed.
  Lemma mod_ne i k : (0 < k < n)%Z -> Z.to_nat ((i + k) mod n) <> Z.to_nat (i mod n).
  Proof.
    intros Hk E. pose proof n_pos as Hn. pose proof (Z.mod_pos_bound i n ltac:(lia)). pose proof (Z.mod_pos_bound (i + k) n ltac:(lia)).
    apply Z2Nat.inj in E; [|lia..].
    assert (((i + k) - i) mod n = 0)%Z as Hz by (rewrite Zminus_mod, E, Z.sub_diag; apply Z.mod_0_l; lia).
    replace (i + k - i)%Z with k in Hz by lia. rewrite Z.mod_small in Hz; lia.
  Qed.
  Lemma turn_gt i : 0 < turn (corner vs i) (corner vs (i + 1)) (corner vs (i + 2)).
  Proof.
    pose proof n_pos as Hn. destruct Hcv as [_ H].
    apply (H _ _ _ _ _ _ (next_mod i) (corner_lookup i) (corner_lookup (i + 1)) (corner_lookup (i + 2))).
    - apply mod_ne. lia.
    - replace (i + 2)%Z with (i + 1 + 1)%Z by lia. apply mod_ne. lia.
  Qed.
  (** A vertex not lower (higher) than its two neighbours is the highest (lowest). *)
  Lemma local_max i : f (i - 1)%Z <= f i -> f (i + 1)%Z <= f i -> forall k, f k <= f i.
  Proof.
    intros H1 H2 k. cbv beta in *.
    pose proof (turn_gt (i - 1)) as Ht. pose proof (turn_ge (i - 1) k) as Ha. pose proof (turn_ge i k) as Hb.
    replace (i - 1 + 1)%Z with i in * by lia. replace (i - 1 + 2)%Z with (i + 1)%Z in * by lia.
    by apply (turn_cone (corner vs (i - 1)) (corner vs i) (corner vs (i + 1))).
  Qed.
End cyc.
Lemma local_min vs d i : convex_ccw vs -> dot2 (corner vs i) d <= dot2 (corner vs (i - 1)) d -> dot2 (corner vs i) d <= dot2 (corner vs (i + 1)) d ->
  forall k, dot2 (corner vs i) d <= dot2 (corner vs k) d.
Proof.
  intros Hcv H1 H2 k. assert (E : forall j, dot2 (corner vs j) (neg2 d) = - dot2 (corner vs j) d) by (intros j; rv0; ring).
  pose proof (local_max vs Hcv (neg2 d) i) as H. cbv beta in H. specialize (H ltac:(rewrite !E; lra) ltac:(rewrite !E; lra) k). rewrite !E in H. lra.
Qed.

(** ** The climb, seen from its start *)
Section climb.
  Context (vs : list P2) (Hn : (3 <= Z.of_nat (length vs))%Z) (d : P2) (s add : Z) (Hadd : add = 1%Z \/ add = (-1)%Z) (Hs : (0 <= s < Z.of_nat (length vs))%Z).
  Notation n := (Z.of_nat (length vs)).
  Definition at_ (j : Z) : Z := ((s + add * j) mod n)%Z.
  Definition g (j : Z) : R := dot2 (corner vs (s + add * j)) d.
  Lemma dot_index_corner i : (-1 <= i <= n)%Z -> dot_index dot2 vs i d = Ok (dot2 (corner vs i) d).
  Proof.
    intros Hi. unfold dot_index. set (j := if (i =? n)%Z then 0%Z else if (i =? -1)%Z then (n - 1)%Z else i).
    assert (Hj : (0 <= j < n)%Z /\ (i mod n = j)%Z).
    { unfold j. destruct (i =? n)%Z eqn:E1; [apply Z.eqb_eq in E1; split; [lia|]; rewrite E1; apply Z.mod_same; lia|]. apply Z.eqb_neq in E1.
      destruct (i =? -1)%Z eqn:E2; [apply Z.eqb_eq in E2; split; [lia|]; symmetry; apply Z.mod_unique with (-1)%Z; lia|]. apply Z.eqb_neq in E2.
      split; [lia|]. apply Z.mod_small. lia. }
    destruct Hj as [Hj Ej]. unfold corner. rewrite Ej.
    destruct (lookup_lt_is_Some_2 vs (Z.to_nat j)) as [v Hv]; [lia|]. rewrite Hv. rewrite (proj2 (Z.ltb_ge _ _)) by lia.
    f_equal. f_equal. symmetry. by apply nth_lookup_Some with (d := zero2) in Hv.
  Qed.
  Lemma at_range j : (0 <= at_ j < n)%Z.
  Proof. apply Z.mod_pos_bound. lia. Qed.
  Lemma at_step j : wrap n (at_ j + add) = at_ (j + 1).
  Proof.
    pose proof (at_range j) as Hr. unfold wrap. unfold at_ at 3 4. unfold at_ in *.
    replace (s + add * (j + 1))%Z with (s + add * j + add)%Z by lia. rewrite <- (Z.add_mod_idemp_l (s + add * j) add) by lia.
    set (x := ((s + add * j) mod n)%Z) in *. destruct (x + add =? n)%Z eqn:E1; [apply Z.eqb_eq in E1; rewrite E1; symmetry; apply Z.mod_same; lia|].
    apply Z.eqb_neq in E1. destruct (x + add =? -1)%Z eqn:E2; [apply Z.eqb_eq in E2; rewrite E2; apply Z.mod_unique with (-1)%Z; lia|].
    apply Z.eqb_neq in E2. symmetry. apply Z.mod_small. lia.
  Qed.
  Lemma g_step j : dot_index dot2 vs (at_ j + add) d = Ok (g (j + 1)).
  Proof.
    pose proof (at_range j) as Hr. rewrite dot_index_corner by (destruct Hadd as [-> | ->]; lia). f_equal. unfold g. f_equal. unfold corner.
    do 2 f_equal. unfold at_. rewrite Z.add_mod_idemp_l by lia. f_equal. lia.
  Qed.
  Lemma at_start j : (0 < j < n)%Z -> at_ j <> s.
  Proof.
    intros Hj E. unfold at_ in E.
    assert (((s + add * j) - s) mod n = 0)%Z as Hz.
    { rewrite Zminus_mod, E, (Z.mod_small s n) by lia. rewrite Z.sub_diag. apply Z.mod_0_l. lia. }
    replace (s + add * j - s)%Z with (add * j)%Z in Hz by lia. apply Z.mod_divide in Hz; [|lia]. destruct Hz as [q Hq].
    destruct Hadd as [-> | ->]; assert (q = 0 \/ q >= 1 \/ q <= -1)%Z as [->|[H|H]] by lia; nia.
  Qed.
  Notation climb := (fun fuel index => poly_climb fuel dot2 vs d s add index).
  Lemma climb_at fuel j p c : (0 < j < n)%Z ->
    climb (Datatypes.S fuel) (at_ j) p c = if Rltb p c && Rltb (g (j + 1)) c then Ok (at_ j) else climb fuel (at_ (j + 1)) c (g (j + 1)).
  Proof.
    intros Hj. cbn [poly_climb]. rewrite (proj2 (Z.eqb_neq _ _)) by by apply at_start. rewrite g_step. cbn [mbind res_mbind res_bind].
    rewrite at_step. done.
  Qed.
  (** On a rise the climb goes on to the top. *)
  Lemma climb_top k i : forall fuel j p, (j = k - Z.of_nat i)%Z -> (0 < j)%Z -> (k < n)%Z -> (Z.to_nat (n - j) <= fuel)%nat -> p < g j ->
    (forall l, (j <= l < k)%Z -> g l < g (l + 1)) -> g (k + 1) < g k -> climb fuel (at_ j) p (g j) = Ok (at_ k).
  Proof.
    induction i as [|i IH]; intros fuel j p Ej Hj Hk Hf Hp Hup Hdn.
    - assert (j = k) as -> by lia. destruct fuel as [|fuel]; [lia|]. rewrite climb_at by lia.
      rewrite (proj2 (Rltb_true _ _)) by done. rewrite (proj2 (Rltb_true _ _)) by done. done.
    - destruct fuel as [|fuel]; [lia|]. rewrite climb_at by lia. pose proof (Hup j ltac:(lia)) as H1.
      rewrite (proj2 (Rltb_false (g (j + 1)) (g j))) by lra. rewrite andb_false_r.
      apply IH; [lia..|done| |done]. intros l Hl. apply Hup. lia.
  Qed.
  (** The answer is never a vertex already passed. *)
  Lemma climb_beyond fuel : forall j p c r, (0 < j <= n)%Z -> climb fuel (at_ j) p c = Ok r -> exists j', (j <= j' <= n)%Z /\ r = at_ j'.
  Proof.
    induction fuel as [|fuel IH]; intros j p c r Hj E.
    - cbn [poly_climb] in E. destruct (at_ j =? s)%Z; [|done]. exists j. split; [lia|congruence].
    - destruct (decide (j = n)) as [Ej|Ej].
      + cbn [poly_climb] in E. assert (at_ j = s) as Ea.
        { unfold at_. rewrite Ej, Z.mod_add by lia. apply Z.mod_small. lia. }
        rewrite Ea, Z.eqb_refl in E. exists j. split; [lia|congruence].
      + rewrite climb_at in E by lia. destruct (_ && _).
        * exists j. split; [lia|congruence].
        * apply IH in E as (j' & Hj' & ->); [|lia]. exists j'. split; [lia|done].
  Qed.
End climb.

(** ** The search *)
Section search.
  Context (vs : list P2) (Hcv : convex_ccw vs) (d : P2).
  Notation n := (Z.of_nat (length vs)).
  Notation f := (fun i => dot2 (corner vs i) d).
  Context (s m : Z) (Hs : (0 <= s < n)%Z) (Hm : (0 <= m < n)%Z) (Huniq : forall k, (0 <= k < n)%Z -> k <> m -> dot2 (corner vs k) d < dot2 (corner vs m) d).
  Lemma n3' : (3 <= n)%Z. Proof. by apply n_pos. Qed.
  Lemma below k : (k mod n <> m)%Z -> dot2 (corner vs k) d < dot2 (corner vs m) d.
  Proof. intros Hk. rewrite <- (corner_mod vs Hcv k). apply Huniq; [|done]. pose proof n3'. apply Z.mod_pos_bound. lia. Qed.
  Lemma mod_shift a b : (0 <= a < n)%Z -> (- n < b < n)%Z -> b <> 0%Z -> ((a + b) mod n <> a)%Z.
  Proof.
    intros Ha Hb Hb0 E. pose proof n3'.
    assert (((a + b) - a) mod n = 0)%Z as Hz by (rewrite Zminus_mod, E, (Z.mod_small a n) by lia; rewrite Z.sub_diag; apply Z.mod_0_l; lia).
    replace (a + b - a)%Z with b in Hz by lia. apply Z.mod_divide in Hz; [|lia]. destruct Hz as [q Hq]. assert (q = 0)%Z by nia. lia.
  Qed.
  Definition back : bool := Rltb (f s) (f (s - 1)%Z) && Rltb (f (s + 1)%Z) (f (s - 1)%Z).
  Definition dir : Z := if back then (-1)%Z else 1%Z.
  Lemma Hdir : dir = 1%Z \/ dir = (-1)%Z.
  Proof. unfold dir. destruct back; lia. Qed.
  Notation at_ := (at_ vs s dir).
  Notation g := (g vs d s dir).
  Lemma g_at j : g j = dot2 (corner vs (at_ j)) d.
  Proof. unfold PropsHill.g, PropsHill.at_. by rewrite (corner_mod vs Hcv). Qed.
  Lemma g_local j : g (j - 1) <= g j -> g (j + 1) <= g j -> forall k, dot2 (corner vs k) d <= g j.
  Proof.
    unfold PropsHill.g. intros H1 H2. destruct Hdir as [E|E]; rewrite E in *.
    - apply (local_max vs Hcv d (s + 1 * j)); [by replace (s + 1 * j - 1)%Z with (s + 1 * (j - 1))%Z by lia|by replace (s + 1 * j + 1)%Z with (s + 1 * (j + 1))%Z by lia].
    - apply (local_max vs Hcv d (s + -1 * j)); [by replace (s + -1 * j - 1)%Z with (s + -1 * (j + 1))%Z by lia|by replace (s + -1 * j + 1)%Z with (s + -1 * (j - 1))%Z by lia].
  Qed.
  Lemma g_local_min j : g j <= g (j - 1) -> g j <= g (j + 1) -> forall k, g j <= dot2 (corner vs k) d.
  Proof.
    unfold PropsHill.g. intros H1 H2. destruct Hdir as [E|E]; rewrite E in *.
    - apply (local_min vs d (s + 1 * j) Hcv); [by replace (s + 1 * j - 1)%Z with (s + 1 * (j - 1))%Z by lia|by replace (s + 1 * j + 1)%Z with (s + 1 * (j + 1))%Z by lia].
    - apply (local_min vs d (s + -1 * j) Hcv); [by replace (s + -1 * j - 1)%Z with (s + -1 * (j + 1))%Z by lia|by replace (s + -1 * j + 1)%Z with (s + -1 * (j - 1))%Z by lia].
  Qed.
  Lemma g0 : g 0 = f s.
  Proof. unfold PropsHill.g. by rewrite Z.mul_0_r, Z.add_0_r. Qed.
  Lemma gm1 : (if back then f (s + 1)%Z else f (s - 1)%Z) = g (-1).
  Proof. unfold PropsHill.g, dir. destruct back; do 2 f_equal; lia. Qed.
  (** Away from the top the first step goes up. *)
  Lemma first_up : m <> s -> g 0 < g 1.
  Proof.
    intros Hne. rewrite g0. unfold PropsHill.g, dir. destruct back eqn:Eb; unfold back in Eb.
    - apply andb_true_iff in Eb as [E1%Rltb_true E2%Rltb_true]. by replace (s + -1 * 1)%Z with (s - 1)%Z by lia.
    - replace (s + 1 * 1)%Z with (s + 1)%Z by lia. destruct (Rlt_dec (f s) (f (s + 1)%Z)) as [H|H]; [done|]. exfalso. cbv beta in *.
      assert (Hlt : dot2 (corner vs s) d < dot2 (corner vs m) d) by (apply Huniq; [done|congruence]).
      apply andb_false_iff in Eb as [E1%Rltb_false|E1%Rltb_false].
      + pose proof (local_max vs Hcv d s ltac:(cbv beta; lra) ltac:(cbv beta; lra) m). cbv beta in *. lra.
      + pose proof (local_max vs Hcv d s ltac:(cbv beta; lra) ltac:(cbv beta; lra) m). cbv beta in *. lra.
  Qed.
  Lemma at_inj i j : at_ i = at_ j -> (- n < i - j < n)%Z -> i = j.
  Proof.
    intros E Hij. pose proof n3'. destruct (decide (i = j)) as [|Hne]; [done|]. exfalso. unfold PropsHill.at_ in E.
    assert (((s + dir * i) - (s + dir * j)) mod n = 0)%Z as Hz by (rewrite Zminus_mod, E, Z.sub_diag; apply Z.mod_0_l; lia).
    replace (s + dir * i - (s + dir * j))%Z with (dir * (i - j))%Z in Hz by lia. apply Z.mod_divide in Hz; [|lia]. destruct Hz as [q Hq].
    destruct Hdir as [E'|E']; rewrite E' in Hq; assert (q = 0 \/ q >= 1 \/ q <= -1)%Z as [->|[H'|H']] by lia; nia.
  Qed.
  Lemma reach : m <> s -> exists k, (0 < k < n)%Z /\ at_ k = m.
  Proof.
    intros Hne. pose proof n3'. exists ((dir * (m - s)) mod n)%Z. pose proof (Z.mod_pos_bound (dir * (m - s)) n ltac:(lia)) as Hb.
    assert (Ha : at_ ((dir * (m - s)) mod n) = m).
    { unfold PropsHill.at_. rewrite <- Z.add_mod_idemp_r, Z.mul_mod_idemp_r, Z.add_mod_idemp_r by lia.
      replace (s + dir * (dir * (m - s)))%Z with m by (destruct Hdir as [-> | ->]; lia). apply Z.mod_small. lia. }
    split; [|done]. destruct (decide ((dir * (m - s)) mod n = 0)%Z) as [E|E]; [|lia]. exfalso. rewrite E in Ha. unfold PropsHill.at_ in Ha.
    rewrite Z.mul_0_r, Z.add_0_r, Z.mod_small in Ha by lia. lia.
  Qed.
  Lemma rising k : m <> s -> (0 < k < n)%Z -> at_ k = m -> forall l, (0 <= l < k)%Z -> g l < g (l + 1).
  Proof.
    intros Hne Hk Ek l Hl. pose proof n3'. revert Hl. assert (Hz : exists i, l = Z.of_nat i \/ (l < 0)%Z) by (exists (Z.to_nat l); lia).
    destruct Hz as (i & [->|]); [|lia]. induction i as [|i IH]; intros Hl; [by apply first_up|].
    specialize (IH ltac:(lia)). replace (Z.of_nat i + 1)%Z with (Z.of_nat (Datatypes.S i)) in IH by lia.
    destruct (Rlt_dec (g (Z.of_nat (Datatypes.S i))) (g (Z.of_nat (Datatypes.S i) + 1))) as [H1|H1]; [done|]. exfalso.
    pose proof (g_local (Z.of_nat (Datatypes.S i)) ltac:(replace (Z.of_nat (Datatypes.S i) - 1)%Z with (Z.of_nat i) by lia; lra) ltac:(lra) m) as Hall.
    assert (Hlt : g (Z.of_nat (Datatypes.S i)) < dot2 (corner vs m) d).
    { rewrite g_at. apply Huniq; [apply at_range; lia|]. intros E. rewrite <- E in Ek. apply at_inj in Ek; lia. }
    lra.
  Qed.
  Notation climb0 := (poly_climb (length vs) dot2 vs d s dir (at_ 1) (if back then f (s + 1)%Z else f (s - 1)%Z) (f s)).
  Lemma dir_right : (m = (s + 1) mod n)%Z -> m <> s -> dir = 1%Z.
  Proof.
    intros E Hne. unfold dir, back. cbv beta. destruct (Rltb (dot2 (corner vs (s + 1)) d) (dot2 (corner vs (s - 1)) d)) eqn:E2; [|by rewrite andb_false_r]. exfalso.
    apply Rltb_true in E2. cbv beta in E2. rewrite <- (corner_mod vs Hcv (s + 1)), <- E in E2.
    assert (dot2 (corner vs (s - 1)) d < dot2 (corner vs m) d); [|lra]. apply below. rewrite E. intros E3.
    pose proof n3'. assert (((s + 1) - (s - 1)) mod n = 0)%Z as Hz by (rewrite Zminus_mod, E3, Z.sub_diag; apply Z.mod_0_l; lia).
    replace (s + 1 - (s - 1))%Z with 2%Z in Hz by lia. rewrite Z.mod_small in Hz; lia.
  Qed.
  Lemma dir_left : (m = (s - 1) mod n)%Z -> m <> s -> dir = (-1)%Z.
  Proof.
    intros E Hne. unfold dir, back. pose proof n3'.
    assert (E1 : dot2 (corner vs s) d < dot2 (corner vs (s - 1)) d) by (rewrite <- (corner_mod vs Hcv (s - 1)), <- E; by apply Huniq; [|congruence]).
    assert (E2 : dot2 (corner vs (s + 1)) d < dot2 (corner vs (s - 1)) d).
    { rewrite <- (corner_mod vs Hcv (s - 1)), <- E. apply below. rewrite E. intros E3.
      assert (((s + 1) - (s - 1)) mod n = 0)%Z as Hz by (rewrite Zminus_mod, E3, Z.sub_diag; apply Z.mod_0_l; lia).
      replace (s + 1 - (s - 1))%Z with 2%Z in Hz by lia. rewrite Z.mod_small in Hz; lia. }
    cbv beta. rewrite (proj2 (Rltb_true _ _)) by done. by rewrite (proj2 (Rltb_true _ _)) by done.
  Qed.
  Lemma climb0_run : (10 <= n)%Z -> s <> 0%Z \/ m <> s ->
    exists i, climb0 = Ok i /\ (0 <= i < n)%Z /\ (i = m <-> ~ missed f n s m).
  Proof.
    intros H10 Hor. pose proof Hdir as Hd. cbv beta. pose proof gm1 as G1. pose proof g0 as G0. cbv beta in G0, G1. rewrite G1, <- G0.
    assert (Hlen : exists N, length vs = Datatypes.S N) by (destruct (length vs) as [|N]; [lia|by exists N]).
    destruct Hlen as [N HN]. 
    assert (Hc : forall fuel, fuel = Datatypes.S N -> poly_climb fuel dot2 vs d s dir (at_ 1) (g (-1)) (g 0) =
      if Rltb (g (-1)) (g 0) && Rltb (g 2) (g 0) then Ok (at_ 1) else poly_climb N dot2 vs d s dir (at_ 2) (g 0) (g 2)).
    { intros ? ->. apply (climb_at vs ltac:(lia) d s dir Hd Hs N 1). lia. }
    rewrite (Hc _ HN). clear Hc.
    destruct (decide (m = s)) as [Ems|Hne].
    { (* the middle vertex *)
      destruct Hor as [Hs0|]; [|done]. exists (at_ 1).
      assert (H1 : g (-1) < g 0).
      { rewrite g0, (g_at (-1)). cbv beta. rewrite <- Ems. apply Huniq; [apply at_range; lia|]. rewrite Ems. intros E.
        assert (E0 : at_ 0 = s) by (unfold PropsHill.at_; rewrite Z.mul_0_r, Z.add_0_r; apply Z.mod_small; lia). rewrite <- E0 in E at 2. apply at_inj in E; lia. }
      assert (H2 : g 2 < g 0).
      { rewrite g0, (g_at 2). cbv beta. rewrite <- Ems. apply Huniq; [apply at_range; lia|]. rewrite Ems. apply at_start; (done || lia). }
      rewrite (proj2 (Rltb_true _ _)) by done. rewrite (proj2 (Rltb_true _ _)) by done. cbn [andb].
      split; [done|]. split; [apply at_range; lia|]. split.
      - intros E. exfalso. rewrite Ems in E. revert E. apply at_start; (done || lia).
      - intros E. destruct E. left. done. }
    destruct (reach Hne) as (k & Hk & Ek). pose proof (rising k Hne Hk Ek) as Hup.
    assert (Hdn : g (k + 1) < g k).
    { rewrite (g_at k), Ek, (g_at (k + 1)). apply Huniq; [apply at_range; lia|]. intros E. rewrite <- Ek in E. apply at_inj in E; lia. }
    destruct (decide (k = 1)%Z) as [E1|E1].
    - (* the top is next to the start *)
      subst k. assert (Hside : missed f n s m <-> g 0 <= g 2).
      { unfold missed, PropsHill.g. rewrite Z.mul_0_r, Z.add_0_r. split.
        - intros [[? ?]|[[E H]|[E H]]]; [done|rewrite (dir_right E Hne)|rewrite (dir_left E Hne)]; cbv beta in H.
          + by replace (s + 1 * 2)%Z with (s + 2)%Z by lia.
          + by replace (s + -1 * 2)%Z with (s - 2)%Z by lia.
        - intros H. unfold PropsHill.at_ in Ek. right. destruct Hdir as [E|E]; rewrite E in *.
          + left. split; [rewrite <- Ek; f_equal; lia|]. by replace (s + 2)%Z with (s + 1 * 2)%Z by lia.
          + right. split; [rewrite <- Ek; f_equal; lia|]. by replace (s - 2)%Z with (s + -1 * 2)%Z by lia. }
      destruct (Rlt_dec (g 2) (g 0)) as [H20|H20].
      + assert (H1 : g (-1) < g 0).
        { destruct (Rlt_dec (g (-1)) (g 0)) as [|H]; [done|]. exfalso.
          pose proof (g_local_min 0 ltac:(change (0 - 1)%Z with (-1)%Z; lra) ltac:(left; apply (Hup 0%Z); lia) (at_ 2)) as Hmin. rewrite <- g_at in Hmin. lra. }
        rewrite (proj2 (Rltb_true _ _)) by done. rewrite (proj2 (Rltb_true _ _)) by done. cbn [andb].
        exists (at_ 1). split; [done|]. split; [apply at_range; lia|]. rewrite Hside. split; [lra|done].
      + rewrite (proj2 (Rltb_false (g 2) (g 0))) by lra. rewrite andb_false_r.
        destruct (poly_climb_ok N dot2 vs d s dir (at_ 2) (g 0) (g 2)) as (i & Ei & Hi); [lia|done|done|apply at_range; lia| |].
        { assert (Hmb : forall x, (x mod n <= n - 1)%Z) by (intros x; pose proof (Z.mod_pos_bound x n ltac:(lia)); lia).
          unfold togo. destruct (dir =? 1)%Z; [pose proof (Hmb (s - at_ 2)%Z)|pose proof (Hmb (at_ 2 - s)%Z)]; lia. }
        exists i. split; [done|]. split; [done|]. rewrite Hside. split; [|lra]. intros ->. exfalso.
        apply (climb_beyond vs ltac:(lia) d s dir Hd Hs) in Ei as (j' & Hj' & E); [|lia]. rewrite <- Ek in E. apply at_inj in E; lia.
    - (* further away *)
      assert (H02 : g 0 < g 2).
      { pose proof (Hup 0%Z ltac:(lia)). pose proof (Hup 1%Z ltac:(lia)). change (0 + 1)%Z with 1%Z in *. change (1 + 1)%Z with 2%Z in *. lra. }
      rewrite (proj2 (Rltb_false (g 2) (g 0))) by lra. rewrite andb_false_r.
      exists m. split; [|split; [done|]].
      + rewrite <- Ek. apply (climb_top vs ltac:(lia) d s dir Hd Hs k (Z.to_nat (k - 2))); [lia..|done| |done]. intros l Hl. apply Hup. lia.
      + split; [|done]. intros _. unfold missed. intros [[? ?]|[[E _]|[E _]]]; [done| |].
        * pose proof (dir_right E Hne) as Ed. assert (at_ 1 = m) as Em by (unfold PropsHill.at_; rewrite Ed, E; f_equal; lia).
          rewrite <- Ek in Em. apply at_inj in Em; lia.
        * pose proof (dir_left E Hne) as Ed. assert (at_ 1 = m) as Em by (unfold PropsHill.at_; rewrite Ed, E; f_equal; lia).
          rewrite <- Ek in Em. apply at_inj in Em; lia.
  Qed.
End search.

(** ** A direction square to a side *)
Section tie.
  Context (vs : list P2) (Hcv : convex_ccw vs) (d : P2).
  Notation n := (Z.of_nat (length vs)).
  Notation f := (fun i => dot2 (corner vs i) d).
  Context (s m : Z) (Hs : (0 <= s < n)%Z)
    (Heq : dot2 (corner vs m) d = dot2 (corner vs (m + 1)) d)
    (Hrest : forall k, (k mod n <> m mod n)%Z -> (k mod n <> (m + 1) mod n)%Z -> dot2 (corner vs k) d < dot2 (corner vs m) d)
    (Haway : forall e, (-1 <= e <= 1)%Z -> ((s + e) mod n <> m mod n)%Z /\ ((s + e) mod n <> (m + 1) mod n)%Z).
  Notation at_ := (at_ vs s (dir vs d s)).
  Notation g := (g vs d s (dir vs d s)).
  Lemma tn : (3 <= n)%Z. Proof. by apply n_pos. Qed.
  Lemma top k : dot2 (corner vs k) d <= dot2 (corner vs m) d.
  Proof.
    destruct (decide (k mod n = m mod n)%Z) as [E|E1]; [rewrite <- (corner_mod vs Hcv k), E, (corner_mod vs Hcv); lra|].
    destruct (decide (k mod n = (m + 1) mod n)%Z) as [E|E2]; [rewrite <- (corner_mod vs Hcv k), E, (corner_mod vs Hcv); lra|].
    left. by apply Hrest.
  Qed.
  (** A highest vertex has a neighbour of the same height. *)
  Lemma top_pair j : dot2 (corner vs j) d = dot2 (corner vs m) d -> dot2 (corner vs (j - 1)) d = dot2 (corner vs j) d \/ dot2 (corner vs (j + 1)) d = dot2 (corner vs j) d.
  Proof.
    intros E. pose proof tn as Hn.
    assert (Hsh : forall a b c, (a mod n = b mod n)%Z -> corner vs (a + c) = corner vs (b + c)).
    { intros a b c Eab. rewrite <- (corner_mod vs Hcv (a + c)), <- (corner_mod vs Hcv (b + c)), <- (Z.add_mod_idemp_l a), Eab, Z.add_mod_idemp_l by lia. done. }
    destruct (decide (j mod n = m mod n)%Z) as [E1|E1].
    { right. rewrite (Hsh j m 1%Z E1). lra. }
    destruct (decide (j mod n = (m + 1) mod n)%Z) as [E2|E2].
    { left. replace (j - 1)%Z with (j + -1)%Z by lia. rewrite (Hsh j (m + 1)%Z (-1)%Z E2). replace (m + 1 + -1)%Z with m by lia. lra. }
    exfalso. specialize (Hrest j E1 E2). lra.
  Qed.
  Lemma no_peak j : ~ (g (j - 1) < g j /\ g (j + 1) < g j).
  Proof.
    intros [H1 H2]. pose proof (g_local vs Hcv d s j ltac:(lra) ltac:(lra) m) as Hall.
    pose proof (top (s + dir vs d s * j)) as Ht. fold (g j) in Ht.
    assert (E : dot2 (corner vs (s + dir vs d s * j)) d = dot2 (corner vs m) d) by (apply Rle_antisym; [done|exact Hall]).
    destruct (top_pair _ E) as [E2|E2]; unfold PropsHill.g in H1, H2; destruct (Hdir vs d s) as [Ed|Ed]; rewrite Ed in *.
    - replace (s + 1 * (j - 1))%Z with (s + 1 * j - 1)%Z in H1 by lia. lra.
    - replace (s + -1 * (j + 1))%Z with (s + -1 * j - 1)%Z in H2 by lia. lra.
    - replace (s + 1 * (j + 1))%Z with (s + 1 * j + 1)%Z in H2 by lia. lra.
    - replace (s + -1 * (j - 1))%Z with (s + -1 * j + 1)%Z in H1 by lia. lra.
  Qed.
  Lemma not_top e : (-1 <= e <= 1)%Z -> dot2 (corner vs (s + e)) d < dot2 (corner vs m) d.
  Proof. intros He. destruct (Haway e He). by apply Hrest. Qed.
  Lemma tie_up : g 0 < g 1 /\ g 1 < g 2.
  Proof.
    assert (H01 : g 0 < g 1).
    { rewrite g0. unfold PropsHill.g, dir. pose proof (not_top 0 ltac:(lia)) as Hlt. rewrite Z.add_0_r in Hlt. destruct (back vs d s) eqn:Eb; unfold back in Eb.
      - apply andb_true_iff in Eb as [E1%Rltb_true E2%Rltb_true]. by replace (s + -1 * 1)%Z with (s - 1)%Z by lia.
      - replace (s + 1 * 1)%Z with (s + 1)%Z by lia. destruct (Rlt_dec (f s) (f (s + 1)%Z)) as [H|H]; [done|]. exfalso. cbv beta in *.
        apply andb_false_iff in Eb as [E1%Rltb_false|E1%Rltb_false].
        + pose proof (local_max vs Hcv d s ltac:(cbv beta; lra) ltac:(cbv beta; lra) m). cbv beta in *. lra.
        + pose proof (local_max vs Hcv d s ltac:(cbv beta; lra) ltac:(cbv beta; lra) m). cbv beta in *. lra. }
    split; [done|]. destruct (Rlt_dec (g 1) (g 2)) as [|H]; [done|]. exfalso.
    pose proof (g_local vs Hcv d s 1 ltac:(change (1 - 1)%Z with 0%Z; lra) ltac:(change (1 + 1)%Z with 2%Z; lra) m) as Hall.
    pose proof (not_top (dir vs d s * 1) ltac:(destruct (Hdir vs d s) as [-> | ->]; lia)) as Hlt. unfold PropsHill.g in Hall. lra.
  Qed.
  Lemma round fuel : forall j, (0 < j <= n)%Z -> (Z.to_nat (n - j) <= fuel)%nat ->
    poly_climb fuel dot2 vs d s (dir vs d s) (at_ j) (g (j - 1)) (g j) = Ok s.
  Proof.
    pose proof tn as Hn. induction fuel as [|fuel IH]; intros j Hj Hf.
    - assert (j = n) as -> by lia. cbn [poly_climb]. assert (at_ n = s) as ->; [|by rewrite Z.eqb_refl].
      unfold PropsHill.at_. rewrite Z.mod_add by lia. apply Z.mod_small. lia.
    - destruct (decide (j = n)) as [->|Hne].
      { cbn [poly_climb]. assert (at_ n = s) as ->; [|by rewrite Z.eqb_refl]. unfold PropsHill.at_. rewrite Z.mod_add by lia. apply Z.mod_small. lia. }
      rewrite (climb_at vs ltac:(lia) d s (dir vs d s) (Hdir vs d s) Hs) by lia.
      destruct (_ && _) eqn:E.
      { exfalso. apply andb_true_iff in E as [E1%Rltb_true E2%Rltb_true]. by apply (no_peak j). }
      replace (g j) with (g (j + 1 - 1)) at 1 by (f_equal; lia). apply IH; lia.
  Qed.
  Lemma tie_run : (10 <= n)%Z -> poly_climb (length vs) dot2 vs d s (dir vs d s) (at_ 1) (if back vs d s then f (s + 1)%Z else f (s - 1)%Z) (f s) = Ok s.
  Proof.
    intros H10. cbv beta. pose proof (gm1 vs d s) as G1. pose proof (g0 vs d s) as G0. cbv beta in G0, G1. rewrite G1, <- G0.
    destruct tie_up as [H01 H12].
    assert (Hlen : exists N, length vs = Datatypes.S (Datatypes.S N)) by (destruct (length vs) as [|[|N]]; [lia|lia|by exists N]).
    destruct Hlen as [N HN].
    assert (Hc : forall fuel, fuel = Datatypes.S (Datatypes.S N) -> poly_climb fuel dot2 vs d s (dir vs d s) (at_ 1) (g (-1)) (g 0) = Ok s); [|by apply Hc].
    intros ? ->. rewrite (climb_at vs ltac:(lia) d s (dir vs d s) (Hdir vs d s) Hs) by lia. change (1 + 1)%Z with 2%Z.
    rewrite (proj2 (Rltb_false (g 2) (g 0))) by lra. rewrite andb_false_r.
    rewrite (climb_at vs ltac:(lia) d s (dir vs d s) (Hdir vs d s) Hs) by lia. change (2 + 1)%Z with 3%Z.
    destruct (Rltb (g 3) (g 2)) eqn:E3.
    { exfalso. apply Rltb_true in E3. apply (no_peak 2). change (2 - 1)%Z with 1%Z. change (2 + 1)%Z with 3%Z. done. }
    rewrite andb_false_r. apply (round N 3); lia.
  Qed.
End tie.

(** * The theorem *)
(** A strictly convex polygon of at least ten vertices, a furthest vertex [m] that is
    strictly further than all others: the search returns it exactly when it is not missed. *)
Theorem C38_hill_climb_exact (vs : list P2) (T : Xf P2) (d : P2) (m : Z) :
  let n := Z.of_nat (length vs) in let h := height vs T d in
  convex_ccw vs -> (10 <= length vs)%nat -> similar2 T ->
  (0 <= m < n)%Z -> (forall k, (0 <= k < n)%Z -> k <> m -> h k < h m) ->
  exists r, polygon_support vs d T = Ok r /\ (furthest2 (world T (hull2 vs)) d r <-> ~ missed h n (start_at vs T d) m).
Proof.
  intros n h Hcv H10 (k & Hk & HT) Hm Huniq. destruct (HT d) as (d' & Ed & _ & Hd).
  assert (Hdiff : forall i j, h i - h j = k * (dot2 (corner vs i) d' - dot2 (corner vs j) d')).
  { intros i j. unfold h, height. transitivity (dot2 d (sub2 (xf_pt T (corner vs i)) (xf_pt T (corner vs j)))); [clear; rv0; ring|].
    rewrite Hd. clear. rv0. ring. }
  assert (Hlt : forall i j, h i < h j <-> dot2 (corner vs i) d' < dot2 (corner vs j) d').
  { intros i j. pose proof (Hdiff i j). split; nra. }
  set (s := start_at vs T d).
  assert (Hst : s = if Rltb (dot2 (corner vs 0) d') 0 then (n / 2)%Z else 0%Z).
  { unfold s, start_at. assert (E : height vs T d 0 - dot2 d (xf_pt T zero2) = k * dot2 (corner vs 0) d').
    { unfold height. transitivity (dot2 d (sub2 (xf_pt T (corner vs 0)) (xf_pt T zero2))); [clear; rv0; ring|]. rewrite Hd. clear. unfold zero2. rv0. ring. }
    destruct (Rlt_dec _ _) as [H|H]; destruct (Rltb _ _) eqn:E2; try done; exfalso; [apply Rltb_false in E2|apply Rltb_true in E2]; nra. }
  assert (Hs : (0 <= s < n)%Z).
  { rewrite Hst. unfold n. destruct (Rltb _ _); [|lia]. split; [apply Z.div_pos; lia|]. apply Z.div_lt; lia. }
  assert (Hu : forall i, (0 <= i < n)%Z -> i <> m -> dot2 (corner vs i) d' < dot2 (corner vs m) d') by (intros i Hi Hne; by apply Hlt, Huniq).
  assert (Hmiss : missed h n s m <-> missed (fun i => dot2 (corner vs i) d') n s m).
  { assert (Hle : forall i j, h i <= h j <-> dot2 (corner vs i) d' <= dot2 (corner vs j) d') by (intros i j; pose proof (Hdiff i j); split; nra).
    unfold missed. by rewrite !Hle. }
  unfold polygon_support. rewrite (proj2 (Nat.ltb_ge _ _)) by done. unfold poly_hill. rewrite Ed. cbv zeta. fold n.
  rewrite (dot_index_corner vs ltac:(lia) d' 0) by lia. cbn [mbind res_mbind res_bind n0 nlt Num_R]. rewrite <- Hst.
  assert (Emx : (if Rltb (dot2 (corner vs 0) d') 0 then dot_index dot2 vs s d' else Ok (dot2 (corner vs 0) d')) = Ok (dot2 (corner vs s) d')).
  { destruct (Rltb (dot2 (corner vs 0) d') 0); [apply dot_index_corner; lia|by rewrite Hst]. }
  rewrite Emx. cbn [mbind res_mbind res_bind]. rewrite (dot_index_corner vs ltac:(lia) d' (s - 1)) by lia. cbn [mbind res_mbind res_bind].
  rewrite (dot_index_corner vs ltac:(lia) d' (s + 1)) by lia. cbn [mbind res_mbind res_bind].
  assert (Hrun : exists i, (if (s =? 0)%Z && Rltb (dot2 (corner vs (s - 1)) d') (dot2 (corner vs s) d') && Rltb (dot2 (corner vs (s + 1)) d') (dot2 (corner vs s) d') then Ok 0%Z
     else poly_climb (length vs) dot2 vs d' s (dir vs d' s) (wrap n (s + dir vs d' s))
       (if back vs d' s then dot2 (corner vs (s + 1)) d' else dot2 (corner vs (s - 1)) d') (dot2 (corner vs s) d')) = Ok i /\
     (0 <= i < n)%Z /\ (i = m <-> ~ missed h n s m)).
  { setoid_rewrite Hmiss. assert (Hw : wrap n (s + dir vs d' s) = at_ vs s (dir vs d' s) 1).
    { pose proof (at_step vs ltac:(lia) s (dir vs d' s) (Hdir vs d' s) 0) as E. rewrite Z.add_0_l in E. rewrite <- E. unfold at_.
      rewrite Z.mul_0_r, Z.add_0_r, Z.mod_small by lia. done. }
    rewrite Hw. destruct (decide (s = 0%Z)) as [Es|Es].
    - destruct (decide (m = s)) as [Em|Em].
      + exists 0%Z. rewrite Es at 1. cbn [Z.eqb andb]. rewrite (proj2 (Rltb_true _ _)).
        2:{ rewrite <- Em at 2. apply (below vs Hcv d' m Hu). rewrite Em. apply (mod_shift vs Hcv); lia. }
        rewrite (proj2 (Rltb_true _ _)).
        2:{ rewrite <- Em at 2. apply (below vs Hcv d' m Hu). rewrite Em. apply (mod_shift vs Hcv); lia. }
        cbn [andb]. split; [done|]. split; [lia|]. split; [|intros; lia]. intros _. unfold missed. intros [[_ ?]|[[E _]|[E _]]]; [done| |].
        * rewrite Em in E. symmetry in E. revert E. apply (mod_shift vs Hcv); lia.
        * rewrite Em in E. symmetry in E. revert E. apply (mod_shift vs Hcv); lia.
      + destruct (_ && _ && _) eqn:Eb.
        * exfalso. apply andb_true_iff in Eb as [Eb E2%Rltb_true]. apply andb_true_iff in Eb as [_ E1%Rltb_true].
          pose proof (local_max vs Hcv d' s ltac:(cbv beta; lra) ltac:(cbv beta; lra) m) as H. cbv beta in H.
          pose proof (Hu s Hs ltac:(congruence)). lra.
        * apply (climb0_run vs Hcv d' s m Hs Hm Hu); [lia|by right].
    - rewrite (proj2 (Z.eqb_neq _ _)) by done. cbn [andb]. apply (climb0_run vs Hcv d' s m Hs Hm Hu); [lia|by left]. }
  destruct Hrun as (i & Ei & Hi & Him). unfold dir, back in Ei. cbv beta in Ei.
  match goal with |- exists r, (x ← ?X; _) = Ok r /\ _ => assert (EX : X = Ok i) end.
  { etransitivity; [|exact Ei]. done. }
  rewrite EX. cbn [mbind res_mbind res_bind].
  pose proof (corner_lookup vs Hcv i) as Hl. fold n in Hl. rewrite (Z.mod_small i n) in Hl by done. rewrite Hl.
  exists (xf_pt T (corner vs i)). split; [done|]. rewrite <- Him. clear Him EX Ei.
  assert (Hin : forall j, corner vs j ∈ vs) by (intros j; eapply elem_of_list_lookup_2, (corner_lookup vs Hcv j)).
  split.
  - intros [_ Hf]. destruct (decide (i = m)) as [|Hne]; [done|]. exfalso. specialize (Huniq i Hi Hne). unfold h, height in Huniq.
    assert (dot2 d (xf_pt T (corner vs m)) <= dot2 d (xf_pt T (corner vs i))); [|lra]. apply Hf. exists (corner vs m). split; [by apply hull2_vertex|done].
  - intros ->. split; [exists (corner vs m); split; [by apply hull2_vertex|done]|]. intros x (y & Hy & ->).
    assert (Hy' : dot2 d' y <= dot2 d' (corner vs m)).
    { apply (hull2_le vs d' _ y Hy). intros v Hv. rewrite !(dot2_comm d'). apply elem_of_list_lookup_1 in Hv as (j & Hj).
      pose proof (lookup_lt_Some _ _ _ Hj) as Hjl. assert (corner vs (Z.of_nat j) = v) as <-.
      { unfold corner. rewrite Z.mod_small, Nat2Z.id by lia. by apply nth_lookup_Some with (d := zero2) in Hj. }
      destruct (decide (Z.of_nat j = m)) as [->|Hne]; [lra|]. left. apply Hu; [lia|done]. }
    assert (E : dot2 d (xf_pt T (corner vs m)) - dot2 d (xf_pt T y) = k * (dot2 d' (corner vs m) - dot2 d' y)).
    { transitivity (dot2 d (sub2 (xf_pt T (corner vs m)) (xf_pt T y))); [clear; rv0; ring|]. rewrite Hd. clear. rv0. ring. }
    nra.
Qed.

(** A direction square to a side, both ends of the side away from the start and from its
    neighbours: the answer is the vertex where the search started, not a furthest one. *)
Theorem C38_hill_climb_side_refuted (vs : list P2) (T : Xf P2) (d : P2) (m : Z) :
  let n := Z.of_nat (length vs) in let h := height vs T d in let s := start_at vs T d in
  convex_ccw vs -> (10 <= length vs)%nat -> similar2 T ->
  h m = h (m + 1)%Z -> (forall k, (k mod n <> m mod n)%Z -> (k mod n <> (m + 1) mod n)%Z -> h k < h m) ->
  (forall e, (-1 <= e <= 1)%Z -> ((s + e) mod n <> m mod n)%Z /\ ((s + e) mod n <> (m + 1) mod n)%Z) ->
  polygon_support vs d T = Ok (xf_pt T (corner vs s)) /\ ~ furthest2 (world T (hull2 vs)) d (xf_pt T (corner vs s)).
Proof.
  intros n h s Hcv H10 (k & Hk & HT) Heq Hrest Haway. destruct (HT d) as (d' & Ed & _ & Hd).
  assert (Hdiff : forall i j, h i - h j = k * (dot2 (corner vs i) d' - dot2 (corner vs j) d')).
  { intros i j. unfold h, height. transitivity (dot2 d (sub2 (xf_pt T (corner vs i)) (xf_pt T (corner vs j)))); [clear; rv0; ring|].
    rewrite Hd. clear. rv0. ring. }
  assert (Hst : s = if Rltb (dot2 (corner vs 0) d') 0 then (n / 2)%Z else 0%Z).
  { unfold s, start_at. assert (E : height vs T d 0 - dot2 d (xf_pt T zero2) = k * dot2 (corner vs 0) d').
    { unfold height. transitivity (dot2 d (sub2 (xf_pt T (corner vs 0)) (xf_pt T zero2))); [clear; rv0; ring|]. rewrite Hd. clear. unfold zero2. rv0. ring. }
    destruct (Rlt_dec _ _) as [H|H]; destruct (Rltb _ _) eqn:E2; try done; exfalso; [apply Rltb_false in E2|apply Rltb_true in E2]; nra. }
  assert (Hs : (0 <= s < n)%Z).
  { rewrite Hst. unfold n. destruct (Rltb _ _); [|lia]. split; [apply Z.div_pos; lia|]. apply Z.div_lt; lia. }
  assert (Heq' : dot2 (corner vs m) d' = dot2 (corner vs (m + 1)) d') by (pose proof (Hdiff m (m + 1)%Z); nra).
  assert (Hrest' : forall i, (i mod n <> m mod n)%Z -> (i mod n <> (m + 1) mod n)%Z -> dot2 (corner vs i) d' < dot2 (corner vs m) d').
  { intros i H1 H2. pose proof (Hrest i H1 H2). pose proof (Hdiff i m). nra. }
  assert (Hlow : dot2 (corner vs s) d' < dot2 (corner vs m) d').
  { destruct (Haway 0%Z ltac:(lia)) as [H1 H2]. rewrite Z.add_0_r in H1, H2. by apply Hrest'. }
  split.
  - unfold polygon_support. rewrite (proj2 (Nat.ltb_ge _ _)) by done. unfold poly_hill. rewrite Ed. cbv zeta. fold n.
    rewrite (dot_index_corner vs ltac:(lia) d' 0) by lia. cbn [mbind res_mbind res_bind n0 nlt Num_R]. rewrite <- Hst.
    assert (Emx : (if Rltb (dot2 (corner vs 0) d') 0 then dot_index dot2 vs s d' else Ok (dot2 (corner vs 0) d')) = Ok (dot2 (corner vs s) d')).
    { destruct (Rltb (dot2 (corner vs 0) d') 0); [apply dot_index_corner; lia|by rewrite Hst]. }
    rewrite Emx. cbn [mbind res_mbind res_bind]. rewrite (dot_index_corner vs ltac:(lia) d' (s - 1)) by lia. cbn [mbind res_mbind res_bind].
    rewrite (dot_index_corner vs ltac:(lia) d' (s + 1)) by lia. cbn [mbind res_mbind res_bind].
    assert (Hw : wrap n (s + dir vs d' s) = at_ vs s (dir vs d' s) 1).
    { pose proof (at_step vs ltac:(lia) s (dir vs d' s) (Hdir vs d' s) 0) as E. rewrite Z.add_0_l in E. rewrite <- E. unfold at_.
      rewrite Z.mul_0_r, Z.add_0_r, Z.mod_small by lia. done. }
    assert (Eno : (s =? 0)%Z && Rltb (dot2 (corner vs (s - 1)) d') (dot2 (corner vs s) d') && Rltb (dot2 (corner vs (s + 1)) d') (dot2 (corner vs s) d') = false).
    { destruct (_ && _ && _) eqn:Eb; [|done]. exfalso. apply andb_true_iff in Eb as [Eb E2%Rltb_true]. apply andb_true_iff in Eb as [_ E1%Rltb_true].
      pose proof (local_max vs Hcv d' s ltac:(cbv beta; lra) ltac:(cbv beta; lra) m) as H. cbv beta in H. lra. }
    rewrite Eno. pose proof (tie_run vs Hcv d' s m Hs Heq' Hrest' Haway ltac:(lia)) as Hrun. rewrite <- Hw in Hrun. unfold dir, back in Hrun. cbv beta in Hrun.
    match goal with |- (x ← ?X; _) = _ => assert (EX : X = Ok s) end.
    { etransitivity; [|exact Hrun]. done. }
    rewrite EX. cbn [mbind res_mbind res_bind]. pose proof (corner_lookup vs Hcv s) as Hl. fold n in Hl. rewrite (Z.mod_small s n) in Hl by done. by rewrite Hl.
  - intros [_ Hf]. assert (dot2 d (xf_pt T (corner vs m)) <= dot2 d (xf_pt T (corner vs s))) as H.
    { apply Hf. exists (corner vs m). split; [|done]. apply hull2_vertex. eapply elem_of_list_lookup_2, (corner_lookup vs Hcv m). }
    pose proof (Hdiff m s) as E. unfold h, height in E. nra.
Qed.

(** * A concrete case *)
Definition deca : list P2 :=
  [mk2 4 0; mk2 3 2; mk2 1 3; mk2 (-1) 3; mk2 (-3) 2; mk2 (-4) 0; mk2 (-3) (-2); mk2 (-1) (-3); mk2 1 (-3); mk2 3 (-2)].
Lemma deca_ccw : convex_ccw deca.
Proof.
  split; [cbn; lia|]. intros i j k a b c -> Ha Hb Hc Hki Hkj.
  pose proof (lookup_lt_Some _ _ _ Ha) as Hi. pose proof (lookup_lt_Some _ _ _ Hc) as Hk. cbn [length deca] in Hi, Hk.
  do 10 (destruct i as [|i]; [cbn in Ha, Hb; injection Ha as <-; injection Hb as <-;
    do 10 (destruct k as [|k]; [cbn in Hc; injection Hc as <-; first [cbn in Hki, Hkj; congruence | unfold turn; cbn; lra]|]); lia|]). lia.
Qed.
Definition stay : Xf P2 := decomposed2 0 1 (mkM2 (mk2 1 0) (mk2 0 1)) zero2.
Lemma stay_similar : similar2 stay.
Proof. apply C38_decomposed2; [lra|rewrite Rabs_pos_eq; lra|]. unfold orthonormal. cbn [m2_x m2_y]. rv0. lra. Qed.
Lemma stay_height x y i : height deca stay (mk2 x y) i = x * ux (corner deca i) + y * uy (corner deca i).
Proof. unfold height, stay, decomposed2, m2_mul, zero2. cbn [xf_pt m2_x m2_y]. rv0. ring. Qed.
Lemma stay_start x y : start_at deca stay (mk2 x y) = if Rlt_dec (4 * x) 0 then 5%Z else 0%Z.
Proof.
  unfold start_at. rewrite stay_height. assert (E : dot2 (mk2 x y) (xf_pt stay zero2) = 0) by (unfold stay, decomposed2, m2_mul, zero2; cbn [xf_pt m2_x m2_y]; rv0; ring).
  rewrite E. change (corner deca 0) with (mk2 4 0 : P2). cbn [ux uy]. destruct (Rlt_dec _ _), (Rlt_dec _ _); try done; exfalso; lra.
Qed.
Ltac each k H := assert (k = 0 \/ k = 1 \/ k = 2 \/ k = 3 \/ k = 4 \/ k = 5 \/ k = 6 \/ k = 7 \/ k = 8 \/ k = 9)%Z as H by lia.
Ltac corners := repeat match goal with |- context [corner deca ?i] =>
  let v := eval vm_compute in (Z.to_nat (i mod 10)) in let w := eval cbn [nth deca] in (nth v deca zero2) in change (corner deca i) with w end; cbn [ux uy].
(** The highest vertex two steps from the start is found; the one opposite the first vertex
    and, for a direction half way between the two sides beside it, the one next to the start
    are missed; for a direction square to the top side nothing is found. *)
Example C38_hill_met :
  (furthest2 (world stay (hull2 deca)) (mk2 1 3) (xf_pt stay (mk2 1 3)) /\ exists r, polygon_support deca (mk2 1 3) stay = Ok r /\ furthest2 (world stay (hull2 deca)) (mk2 1 3) r) /\
  (exists r, polygon_support deca (mk2 (-1) 0) stay = Ok r /\ ~ furthest2 (world stay (hull2 deca)) (mk2 (-1) 0) r) /\
  (exists r, polygon_support deca (mk2 2 2) stay = Ok r /\ ~ furthest2 (world stay (hull2 deca)) (mk2 2 2) r) /\
  (polygon_support deca (mk2 0 1) stay = Ok (xf_pt stay (mk2 4 0)) /\ ~ furthest2 (world stay (hull2 deca)) (mk2 0 1) (xf_pt stay (mk2 4 0))).
Proof.
  assert (Hx : forall x y m, (0 <= m < 10)%Z -> (forall k, (0 <= k < 10)%Z -> k <> m -> height deca stay (mk2 x y) k < height deca stay (mk2 x y) m) ->
    exists r, polygon_support deca (mk2 x y) stay = Ok r /\ (furthest2 (world stay (hull2 deca)) (mk2 x y) r <-> ~ missed (height deca stay (mk2 x y)) 10 (start_at deca stay (mk2 x y)) m)).
  { intros x y m Hm Hk. apply (C38_hill_climb_exact deca stay (mk2 x y) m); [apply deca_ccw|cbn; lia|apply stay_similar|done|done]. }
  repeat split.
  - exists (mk2 1 3). split; [apply hull2_vertex; unfold deca; set_solver|done].
  - intros z (w & Hw & ->). assert (E : forall v, dot2 (mk2 1 3) (xf_pt stay v) = dot2 (mk2 1 3) v).
    { intros v. unfold stay, decomposed2, m2_mul, zero2. cbn [xf_pt m2_x m2_y]. rv0. ring. }
    rewrite !E. apply (hull2_le deca _ _ w Hw). intros v Hv. unfold deca in Hv. repeat (apply elem_of_cons in Hv as [->|Hv]; [rv0; lra|]). by apply elem_of_nil in Hv.
  - destruct (Hx 1 3 2%Z) as (r & Er & Hr); [lia| |].
    { intros k Hk Hne. rewrite !stay_height. each k H. destruct_or! H; subst k; try done; corners; lra. }
    exists r. split; [done|]. apply Hr. rewrite stay_start. destruct (Rlt_dec _ _); [lra|]. unfold missed. intros [[? _]|[[? _]|[? _]]]; done.
  - destruct (Hx (-1) 0 5%Z) as (r & Er & Hr); [lia| |].
    { intros k Hk Hne. rewrite !stay_height. each k H. destruct_or! H; subst k; try done; corners; lra. }
    exists r. split; [done|]. rewrite Hr. rewrite stay_start. destruct (Rlt_dec _ _); [|lra]. intros Hno. apply Hno. by left.
  - destruct (Hx 2 2 1%Z) as (r & Er & Hr); [lia| |].
    { intros k Hk Hne. rewrite !stay_height. each k H. destruct_or! H; subst k; try done; corners; lra. }
    exists r. split; [done|]. rewrite Hr. rewrite stay_start. destruct (Rlt_dec _ _); [lra|]. intros Hno. apply Hno. right. left. split; [done|]. rewrite !stay_height. corners. lra.
  - assert (Es : start_at deca stay (mk2 0 1) = 0%Z) by (rewrite stay_start; destruct (Rlt_dec _ _); [lra|done]).
    pose proof (C38_hill_climb_side_refuted deca stay (mk2 0 1) 2 deca_ccw ltac:(cbn; lia) stay_similar) as H. cbv zeta in H. rewrite Es in H.
    apply H.
    + rewrite !stay_height. corners. lra.
    + intros k H1 H2. rewrite !stay_height. rewrite <- (corner_mod deca deca_ccw k). change (Z.of_nat (length deca)) with 10%Z in *. pose proof (Z.mod_pos_bound k 10 ltac:(lia)) as Hb.
      set (j := (k mod 10)%Z) in *. clearbody j. change (2 mod 10)%Z with 2%Z in *. change ((2 + 1) mod 10)%Z with 3%Z in *.
      each j HH. destruct_or! HH; subst j; try done; corners; lra.
    + intros e He. assert (e = -1 \/ e = 0 \/ e = 1)%Z as [-> | [-> | ->]] by lia; done.
  - assert (Es : start_at deca stay (mk2 0 1) = 0%Z) by (rewrite stay_start; destruct (Rlt_dec _ _); [lra|done]).
    intros [_ Hf]. assert (dot2 (mk2 0 1) (xf_pt stay (mk2 1 3)) <= dot2 (mk2 0 1) (xf_pt stay (mk2 4 0))) as Hl.
    { apply Hf. exists (mk2 1 3). split; [apply hull2_vertex; unfold deca; set_solver|done]. }
    unfold stay, decomposed2, m2_mul, zero2 in Hl. cbn [xf_pt m2_x m2_y] in Hl. revert Hl. rv0. lra.
Qed.
