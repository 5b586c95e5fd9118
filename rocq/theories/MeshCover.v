(** A closed oriented surface around a point is met by every ray from that point. *)
From Coq Require Import Psatz.
From stdpp Require Import prelude finite.
From Coq Require Import Reals Lra.
From Verif Require Import Num Vec RealGeo ShapeSpec MeshSpec MeshModel MeshBuild MeshGeo MeshClimb.
Local Open Scope R_scope.

Lemma dot3_pos (u : P3) : u <> zero3 -> 0 < dot3 u u.
Proof. intros Hu. pose proof (mag3_pos u Hu). rewrite <- mag3_sqr. by apply Rmult_lt_0_compat. Qed.
Section winds.
  (** A closed polygon in the plane through the origin with normal [N], which never turns
      back around the origin, crosses every ray from the origin in that plane. *)
  Context (p : nat -> P3) (k : nat) (u N : P3).
  Hypothesis Hk : (0 < k)%nat.
  Hypothesis Hper : forall i, p (i + k)%nat = p i.
  Hypothesis HuN : dot3 u N = 0.
  Hypothesis HpN : forall i, dot3 N (p i) = 0.
  Hypothesis Hu : u <> zero3.
  Hypothesis HN : N <> zero3.
  Hypothesis Hturn : forall i, det3 (p i) (p (S i)) N <= 0.
  Hypothesis Hstrict : forall i, det3 (p i) (p (S i)) N = 0 -> p i = p (S i).
  Hypothesis Hp0 : forall i, p i <> zero3.
  Hypothesis Hmove : p 0%nat <> p 1%nat.
  Let f (i : nat) : R := dot3 (cross3 N u) (p i).
  Let g (i : nat) : R := dot3 u (p i).
  Lemma wind_id i : g i * f (S i) - g (S i) * f i = dot3 u u * det3 (p i) (p (S i)) N.
  Proof. unfold f, g. apply two_functionals. done. Qed.
  Lemma wind_decomp x : dot3 N x = 0 -> dot3 (cross3 N u) x = 0 -> x = scale3 u (dot3 u x / dot3 u u).
  Proof.
    intros HNx Hfx. pose proof (decompose3 N u x HuN) as E. rewrite HNx, Hfx in E. pose proof (dot3_pos u Hu). pose proof (dot3_pos N HN).
    revert E. generalize (dot3 u x), (dot3 u u), (dot3 N N) as NN, (cross3 N u) as w, H, H0. clear. intros g U NN w HU HNN E.
    assert (Ex : vx x * (U * NN) = vx u * (g * NN) /\ vy x * (U * NN) = vy u * (g * NN) /\ vz x * (U * NN) = vz u * (g * NN)).
    { assert (E1 := f_equal vx E). assert (E2 := f_equal vy E). assert (E3 := f_equal vz E). clear E. destruct x, u, N, w. rv0. split_and!; lra. }
    destruct Ex as (E1 & E2 & E3).
    assert (Hd : forall a b, a * (U * NN) = b * (g * NN) -> a = b * (g / U)).
    { intros a b Eab. apply (Rmult_eq_reg_r (U * NN)); [|nra]. rewrite Eab. field. lra. }
    apply V3_eq; cbn [scale3 vx vy vz nmul Num_R]; by apply Hd.
  Qed.
  Definition crossed : Prop := exists i l s, 0 <= l <= 1 /\ 0 < s /\ add3 (scale3 (p i) (1 - l)) (scale3 (p (S i)) l) = scale3 u s.
  Lemma wind_cross i : 0 < f i -> f (S i) <= 0 -> crossed.
  Proof.
    intros H1 H2. pose proof (dot3_pos u Hu) as HU. pose proof (wind_id i) as Hid. specialize (Hturn i).
    assert (Hg : 0 < - (g i * f (S i) - g (S i) * f i)).
    { rewrite Hid. destruct (Req_dec (det3 (p i) (p (S i)) N) 0) as [E|E].
      - exfalso. apply Hstrict in E. unfold f in H1, H2. rewrite <- E in H2. lra.
      - nra. }
    set (l := f i / (f i - f (S i))). assert (Hl : 0 <= l <= 1).
    { unfold l. split; [apply Rle_mult_inv_pos; lra|]. apply (Rmult_le_reg_r (f i - f (S i))); [lra|]. unfold Rdiv. rewrite Rmult_assoc, Rinv_l; lra. }
    set (x := add3 (scale3 (p i) (1 - l)) (scale3 (p (S i)) l)).
    assert (HNx : dot3 N x = 0). { unfold x. pose proof (HpN i). pose proof (HpN (S i)). assert (dot3 N (add3 (scale3 (p i) (1 - l)) (scale3 (p (S i)) l)) = (1 - l) * dot3 N (p i) + l * dot3 N (p (S i))) as -> by (clear; rv0; ring). rewrite H, H0. lra. }
    assert (Hfx : dot3 (cross3 N u) x = 0).
    { unfold x. assert (dot3 (cross3 N u) (add3 (scale3 (p i) (1 - l)) (scale3 (p (S i)) l)) = (1 - l) * f i + l * f (S i)) as ->.
      { unfold f. generalize (cross3 N u), (p i), (p (S i)), l. clear. intros. rv0. ring. }
      unfold l. field. lra. }
    assert (Hgx : dot3 u x = (g i * - f (S i) + g (S i) * f i) / (f i - f (S i))).
    { unfold x. assert (dot3 u (add3 (scale3 (p i) (1 - l)) (scale3 (p (S i)) l)) = (1 - l) * g i + l * g (S i)) as ->.
      { unfold g. generalize (p i), (p (S i)), l. clear. intros. rv0. ring. }
      unfold l. field. lra. }
    exists i, l, (dot3 u x / dot3 u u). split_and!; [apply Hl..| |by apply wind_decomp].
    rewrite Hgx. apply Rdiv_lt_0_compat; [|done]. apply Rdiv_lt_0_compat; lra.
  Qed.
  Lemma wind_trans n : forall i, 0 < f i -> f (i + n)%nat <= 0 -> crossed.
  Proof.
    induction n as [|n IH]; intros i H1 H2; [rewrite Nat.add_0_r in H2; lra|].
    destruct (Rlt_dec 0 (f (S i))) as [H3|H3]; [|apply (wind_cross i); lra]. apply (IH (S i)); [done|]. by replace (S i + n)%nat with (i + S n)%nat by lia.
  Qed.
  Lemma f_per i : f (i + k)%nat = f i.
  Proof. unfold f. by rewrite Hper. Qed.
  Lemma per_mul i m : p (i + m * k)%nat = p i.
  Proof. induction m as [|m IH]; [by rewrite Nat.add_0_r|]. replace (i + S m * k)%nat with ((i + m * k) + k)%nat by lia. by rewrite Hper. Qed.
  Lemma still i : (forall j, p (i + j)%nat = p i) -> False.
  Proof.
    intros Hs. apply Hmove. rewrite <- (per_mul 0 i), <- (per_mul 1 i).
    replace (0 + i * k)%nat with (i + (i * k - i))%nat by nia. replace (1 + i * k)%nat with (i + (i * k - i + 1))%nat by nia. by rewrite !Hs.
  Qed.
  Lemma same_sign : (forall i, 0 < f i * f (S i)) -> False.
  Proof.
    intros Hs. set (q := fun i => g i / f i).
    assert (Hf0 : forall i, f i <> 0). { intros i E. specialize (Hs i). rewrite E in Hs. lra. }
    assert (Hq : forall i, q (S i) - q i = - (dot3 u u * det3 (p i) (p (S i)) N) / (f i * f (S i))).
    { intros i. rewrite <- wind_id. unfold q. field. split; apply Hf0. }
    assert (Hc : forall i, (i <= k)%nat -> q i = q 0%nat).
    { apply cyc_mono.
      - unfold q, g, f. pose proof (Hper 0%nat) as E'. cbn [Nat.add] in E'. by rewrite E'.
      - intros i. assert (0 <= q (S i) - q i); [|lra]. rewrite Hq. pose proof (dot3_pos u Hu). specialize (Hturn i). unfold Rdiv.
        apply Rmult_le_pos; [nra|]. apply Rlt_le, Rinv_0_lt_compat, Hs. }
    apply Hmove, Hstrict. pose proof (Hq 0%nat) as E. rewrite (Hc 1%nat) in E by lia. pose proof (dot3_pos u Hu). pose proof (Hs 0%nat).
    assert (- (dot3 u u * det3 (p 0%nat) (p 1%nat) N) = 0) as E'.
    { apply (Rmult_eq_reg_r (/ (f 0%nat * f 1%nat))); [|apply Rinv_neq_0_compat; lra]. unfold Rdiv in E. lra. }
    assert (dot3 u u * det3 (p 0%nat) (p 1%nat) N = 0) as E2 by lra. apply Rmult_integral in E2 as [?|?]; [lra|done].
  Qed.
  Lemma winds : crossed.
  Proof.
    assert (Hd : forall n, (forall i, (i < n)%nat -> f i <= 0) \/ exists i, (i < n)%nat /\ 0 < f i).
    { induction n as [|n [IH|(i & Hi & Hf)]]; [left; lia| |right; exists i; split; [lia|done]].
      destruct (Rlt_dec 0 (f n)); [right; exists n; split; [lia|done]|]. left. intros i Hi. destruct (decide (i = n)) as [->|]; [lra|]. apply IH. lia. }
    assert (Hmod : forall i, exists j, (j < k)%nat /\ p i = p j).
    { intros i. exists (i mod k)%nat. split; [apply Nat.mod_upper_bound; lia|]. rewrite (Nat.div_mod i k) at 1 by lia.
      replace (k * (i / k) + i mod k)%nat with (i mod k + (i / k) * k)%nat by lia. apply per_mul. }
    destruct (Hd k) as [Hneg|(i & Hi & Hpos)].
    - assert (Hall : forall i, f i <= 0). { intros i. destruct (Hmod i) as (j & Hj & E). unfold f. rewrite E. by apply Hneg. }
      assert (Hz : forall n, (forall i, (i < n)%nat -> f i < 0) \/ exists i, (i < n)%nat /\ f i = 0).
      { induction n as [|n [IH|(i & Hi & Hf)]]; [left; lia| |right; exists i; split; [lia|done]].
        destruct (Req_dec (f n) 0); [right; exists n; split; [lia|done]|]. left. intros i Hi. destruct (decide (i = n)) as [->|]; [specialize (Hall n); lra|]. apply IH. lia. }
      destruct (Hz k) as [Hlt|(i & Hi & E)].
      + exfalso. apply same_sign. assert (Hall' : forall i, f i < 0). { intros i. destruct (Hmod i) as (j & Hj & E). unfold f. rewrite E. by apply Hlt. }
        intros i. pose proof (Hall' i). pose proof (Hall' (S i)). nra.
      + pose proof (wind_decomp (p i) (HpN i) E) as Ep. pose proof (dot3_pos u Hu) as HU.
        destruct (Rtotal_order (g i) 0) as [Hg|[Hg|Hg]].
        * exfalso. apply (still i). induction j as [|j IH]; [by rewrite Nat.add_0_r|]. rewrite <- plus_n_Sm.
          rewrite <- IH. symmetry. apply Hstrict. pose proof (wind_id (i + j)) as Hid. assert (f (i + j)%nat = 0) as Ef by (unfold f; by rewrite IH).
          assert (g (i + j)%nat = g i) as Eg by (unfold g; by rewrite IH). rewrite Ef, Eg in Hid. pose proof (Hturn (i + j)%nat) as Ht. pose proof (Hall (S (i + j))) as Hf'.
          assert (0 <= g i * f (S (i + j))) by nra. nra.
        * destruct (Hp0 i). rewrite Ep. fold (g i). rewrite Hg. unfold Rdiv. rewrite Rmult_0_l. clear. apply V3_eq; rv0; ring.
        * exists i, 0, (g i / dot3 u u). split_and!; [lra|lra|by apply Rdiv_lt_0_compat|]. unfold g. rewrite <- Ep. generalize (p i), (p (S i)). clear. intros. apply V3_eq; rv0; ring.
    - destruct (Hd k) as [Hneg|_]; [specialize (Hneg i Hi); lra|].
      assert (Hall : (forall j, 0 < f j) \/ exists j, f j <= 0).
      { assert (Hd' : forall n, (forall i, (i < n)%nat -> 0 < f i) \/ exists i, f i <= 0).
        { induction n as [|n [IH|(j & Hj)]]; [left; lia| |right; by exists j].
          destruct (Rlt_dec 0 (f n)); [left|right; exists n; lra]. intros j Hj. destruct (decide (j = n)) as [->|]; [done|]. apply IH. lia. }
        destruct (Hd' k) as [Ha|?]; [left|by right]. intros j. destruct (Hmod j) as (j' & Hj & E). unfold f. rewrite E. by apply Ha. }
      destruct Hall as [Hall|(j & Hj)]; [exfalso; apply same_sign; intros j; by apply Rmult_lt_0_compat|].
      apply (wind_trans (j + i * k - i + (i - i)) i); [done|]. replace (i + (j + i * k - i + (i - i)))%nat with (j + i * k)%nat by nia. unfold f. by rewrite per_mul.
  Qed.
End winds.

(** The triangle with the corners [a], [b], [c]. *)
Definition in_tri (a b c x : P3) : Prop := exists l m n, 0 <= l /\ 0 <= m /\ 0 <= n /\ l + m + n = 1 /\
  x = add3 (add3 (scale3 a l) (scale3 b m)) (scale3 c n).
Lemma corner_rot f w v x : (w, v, x) ∈ tri_corners f -> (v, x, w) ∈ tri_corners f.
Proof. destruct f as [[a b] c]. cbn. set_solver. Qed.
Lemma mcorner_rot fs w v x : (w, v, x) ∈ mesh_corners fs -> (v, x, w) ∈ mesh_corners fs.
Proof. intros (f & Hf & H)%corner_face. apply corner_face. exists f. split; [done|by apply corner_rot]. Qed.
Lemma mcorner_sides fs w v x : (w, v, x) ∈ mesh_corners fs -> (w, v) ∈ mesh_sides fs /\ (v, x) ∈ mesh_sides fs /\ (x, w) ∈ mesh_sides fs.
Proof. intros (f & Hf & (H1 & H2 & H3)%corner_sides)%corner_face. split_and!; apply side_face; eauto. Qed.

(** The dual basis. *)
Lemma dual (N a b c : P3) : add3 (add3 (scale3 (cross3 b c) (dot3 N a)) (scale3 (cross3 c a) (dot3 N b))) (scale3 (cross3 a b) (dot3 N c)) = scale3 N (det3 a b c).
Proof. unfold det3. destruct a, b, c, N. apply V3_eq; rv0; ring. Qed.
Section cover.
  Context (fs : list tri) (P : nat -> P3) (u N : P3).
  Hypothesis Hor : oriented fs.
  Hypothesis Hcl : closed fs.
  Hypothesis HD : forall a b c, (a, b, c) ∈ mesh_corners fs -> 0 < det3 (P a) (P b) (P c).
  Hypothesis HuN : dot3 u N = 0.
  Hypothesis Hu : u <> zero3.
  Hypothesis HN : N <> zero3.
  Notation h i := (dot3 N (P i)).
  (** A side that crosses the plane upwards, its crossing point, and the next such side. *)
  Definition up (s : nat * nat) : Prop := s ∈ mesh_sides fs /\ h s.1 < 0 /\ 0 <= h s.2.
  Definition third (s : nat * nat) : nat := succ_at fs s.2 s.1.
  Definition next_up (s : nat * nat) : nat * nat := if Rlt_dec (h (third s)) 0 then (third s, s.2) else (s.1, third s).
  Definition pt (s : nat * nat) : P3 := scale3 (sub3 (scale3 (P s.1) (h s.2)) (scale3 (P s.2) (h s.1))) (/ (h s.2 - h s.1)).
  Lemma third_corner s : s ∈ mesh_sides fs -> (s.1, s.2, third s) ∈ mesh_corners fs.
  Proof. destruct s as [a b]. apply succ_corner. Qed.
  Lemma next_up_up s : up s -> up (next_up s).
  Proof.
    intros (Hs & H1 & H2). pose proof (third_corner s Hs) as Hc. apply mcorner_sides in Hc as (_ & Hbc & Hca).
    unfold next_up, up. destruct (Rlt_dec (h (third s)) 0); cbn [fst snd]; split_and!; try lra; by apply Hcl.
  Qed.
  Lemma next_up_inj s s' : up s -> up s' -> next_up s = next_up s' -> s = s'.
  Proof.
    intros (Hs & H1 & H2) (Hs' & H1' & H2') E. pose proof (third_corner s Hs) as Hc. pose proof (third_corner s' Hs') as Hc'.
    unfold next_up in E. destruct s as [a b], s' as [a' b']. cbn [fst snd] in *.
    destruct (Rlt_dec (h (third (a, b))) 0), (Rlt_dec (h (third (a', b'))) 0).
    - injection E as E1 E2. subst b'. rewrite <- E1 in Hc'. f_equal. by eapply corner_unique_l.
    - injection E as E1 E2. rewrite E1 in Hc. rewrite <- E2 in Hc'. apply mcorner_rot in Hc. apply mcorner_rot, mcorner_rot in Hc'.
      pose proof (corner_unique_r _ _ _ _ _ Hor Hc Hc'). exfalso. subst b'. lra.
    - injection E as E1 E2. rewrite E2 in Hc. rewrite <- E1 in Hc'. apply mcorner_rot, mcorner_rot in Hc. apply mcorner_rot in Hc'.
      pose proof (corner_unique_r _ _ _ _ _ Hor Hc Hc'). exfalso. congruence || (subst; lra).
    - injection E as E1 E2. subst a'. rewrite <- E2 in Hc'. apply mcorner_rot, mcorner_rot in Hc, Hc'. f_equal. by eapply corner_unique_r.
  Qed.
  Lemma pt_plane s : up s -> dot3 N (pt s) = 0.
  Proof.
    intros _. unfold pt. generalize (/ (h s.2 - h s.1)). intros r.
    assert (forall x y, dot3 N (scale3 (sub3 (scale3 x (dot3 N y)) (scale3 y (dot3 N x))) r) = 0) as -> by (clear; intros; rv0; ring). done.
  Qed.
  Lemma step_turn s : up s -> exists r, 0 < r /\ det3 (pt s) (pt (next_up s)) N =
    - r * (if Rlt_dec (h (third s)) 0 then h s.2 else 1).
  Proof.
    intros (Hs & H1 & H2). pose proof (HD _ _ _ (third_corner s Hs)) as Hd. pose proof (dot3_pos N HN) as HNN.
    unfold pt, next_up. destruct (Rlt_dec (h (third s)) 0) as [H3|H3]; cbn [fst snd].
    - exists (det3 (P s.1) (P s.2) (P (third s)) * dot3 N N * / (h s.2 - h s.1) * / (h s.2 - h (third s))). split.
      + repeat apply Rmult_lt_0_compat; try done; apply Rinv_0_lt_compat; lra.
      + generalize (/ (h s.2 - h s.1)), (/ (h s.2 - h (third s))). generalize (P s.1), (P s.2), (P (third s)). clear. intros a b c r r'.
        assert (forall x y, det3 (scale3 x r) (scale3 y r') N = r * r' * det3 x y N) as -> by (clear; intros; unfold det3; rv0; ring).
        assert (det3 (sub3 (scale3 a (dot3 N b)) (scale3 b (dot3 N a))) (sub3 (scale3 c (dot3 N b)) (scale3 b (dot3 N c))) N = - dot3 N b * (det3 a b c * dot3 N N)) as ->; [|ring].
        assert (det3 a b c * dot3 N N = dot3 (scale3 N (det3 a b c)) N) as -> by (clear; rv0; ring). rewrite <- dual.
        unfold det3. generalize (dot3 N a), (dot3 N b), (dot3 N c). intros. rv0. ring.
    - exists (- h s.1 * (det3 (P s.1) (P s.2) (P (third s)) * dot3 N N * / (h s.2 - h s.1) * / (h (third s) - h s.1))). split.
      + apply Rmult_lt_0_compat; [lra|]. repeat apply Rmult_lt_0_compat; try done; apply Rinv_0_lt_compat; lra.
      + generalize (/ (h s.2 - h s.1)), (/ (h (third s) - h s.1)). generalize (P s.1), (P s.2), (P (third s)). clear. intros a b c r r'.
        assert (forall x y, det3 (scale3 x r) (scale3 y r') N = r * r' * det3 x y N) as -> by (clear; intros; unfold det3; rv0; ring).
        assert (det3 (sub3 (scale3 a (dot3 N b)) (scale3 b (dot3 N a))) (sub3 (scale3 a (dot3 N c)) (scale3 c (dot3 N a))) N = dot3 N a * (det3 a b c * dot3 N N)) as ->; [|ring].
        assert (det3 a b c * dot3 N N = dot3 (scale3 N (det3 a b c)) N) as -> by (clear; rv0; ring). rewrite <- dual.
        unfold det3. generalize (dot3 N a), (dot3 N b), (dot3 N c). intros. rv0. ring.
  Qed.
  Lemma step_tri s l : up s -> 0 <= l <= 1 -> in_tri (P s.1) (P s.2) (P (third s)) (add3 (scale3 (pt s) (1 - l)) (scale3 (pt (next_up s)) l)).
  Proof.
    intros (Hs & H1 & H2) Hl. unfold pt, next_up.
    assert (Hr : forall x y, x < 0 -> 0 <= y -> 0 <= y * / (y - x) /\ 0 <= - x * / (y - x) /\ y * / (y - x) + - x * / (y - x) = 1).
    { intros x y Hx Hy. pose proof (Rinv_0_lt_compat (y - x) ltac:(lra)) as Hi. split_and!; [nra|nra|]. field. lra. }
    destruct (Hr _ _ H1 H2) as (A1 & A2 & A3). destruct (Rlt_dec (h (third s)) 0) as [H3|H3]; cbn [fst snd].
    - destruct (Hr _ _ H3 H2) as (B1 & B2 & B3).
      exists ((1 - l) * (h s.2 * / (h s.2 - h s.1))), ((1 - l) * (- h s.1 * / (h s.2 - h s.1)) + l * (- h (third s) * / (h s.2 - h (third s)))), (l * (h s.2 * / (h s.2 - h (third s)))).
      split_and!; [nra|nra|nra| |].
      + transitivity ((1 - l) * (h s.2 * / (h s.2 - h s.1) + - h s.1 * / (h s.2 - h s.1)) + l * (h s.2 * / (h s.2 - h (third s)) + - h (third s) * / (h s.2 - h (third s)))); [ring|rewrite A3, B3; ring].
      + generalize (/ (h s.2 - h s.1)), (/ (h s.2 - h (third s))), (h s.1), (h s.2), (h (third s)), (P s.1), (P s.2), (P (third s)). clear. intros. apply V3_eq; rv0; ring.
    - destruct (Hr _ (h (third s)) H1 (Rnot_lt_le _ _ H3)) as (B1 & B2 & B3).
      exists ((1 - l) * (h s.2 * / (h s.2 - h s.1)) + l * (h (third s) * / (h (third s) - h s.1))), ((1 - l) * (- h s.1 * / (h s.2 - h s.1))), (l * (- h s.1 * / (h (third s) - h s.1))).
      split_and!; [nra|nra|nra| |].
      + transitivity ((1 - l) * (h s.2 * / (h s.2 - h s.1) + - h s.1 * / (h s.2 - h s.1)) + l * (h (third s) * / (h (third s) - h s.1) + - h s.1 * / (h (third s) - h s.1))); [ring|rewrite A3, B3; ring].
      + generalize (/ (h s.2 - h s.1)), (/ (h (third s) - h s.1)), (h s.1), (h s.2), (h (third s)), (P s.1), (P s.2), (P (third s)). clear. intros. apply V3_eq; rv0; ring.
  Qed.
  Definition walk (s : nat * nat) (i : nat) : nat * nat := Nat.iter i next_up s.
  Lemma walk_up s i : up s -> up (walk s i).
  Proof. intros Hs. induction i as [|i IH]; [done|]. by apply next_up_up. Qed.
  Lemma walk_back s : up s -> exists k, (0 < k)%nat /\ walk s k = s.
  Proof.
    intros Hs. destruct (list_pigeonhole (map (walk s) (seq 0 (S (length (mesh_sides fs))))) (mesh_sides fs)) as (i & j & x & Hij & Hi & Hj).
    - intros y (i & -> & _)%elem_of_list_fmap. by apply walk_up.
    - rewrite map_length, seq_length. lia.
    - rewrite list_lookup_fmap in Hi, Hj. apply fmap_Some in Hi as (i' & Hi & ->), Hj as (j' & Hj & E). apply lookup_seq in Hi as [-> _], Hj as [-> _]. cbn in E.
      exists (j - i)%nat. split; [lia|]. replace j with (i + (j - i))%nat in E by lia. generalize (j - i)%nat, E. clear Hij E. induction i as [|i IH]; intros m E; [done|].
      apply IH. cbn in E. apply next_up_inj; [by apply walk_up..|done].
  Qed.
  (** The ray meets a triangle, if some side crosses the plane strictly. *)
  Lemma cover_plane a b : (a, b) ∈ mesh_sides fs -> h a < 0 -> 0 < h b ->
    exists f s, f ∈ fs /\ 0 < s /\ in_tri (P f.1.1) (P f.1.2) (P f.2) (scale3 u s).
  Proof.
    intros Hab Ha Hb. assert (Hs : up (a, b)) by (split_and!; cbn [fst snd]; [done|done|by apply Rlt_le]).
    destruct (walk_back _ Hs) as (k & Hk & Ek).
    assert (Hst : forall i, walk (a, b) (S i) = next_up (walk (a, b) i)) by done.
    assert (Hnz : forall s, up s -> pt s <> zero3).
    { intros s Hus E. destruct (step_turn s Hus) as (r & Hr & Et). rewrite E in Et. destruct Hus as (Hus & H1 & H2).
      assert (Hd : det3 zero3 (pt (next_up s)) N = 0) by (clear; unfold det3; rv0; ring).
      assert (Hh : dot3 N (P s.1) * h s.2 < 0 \/ h s.2 = 0) by (destruct (Req_dec (h s.2) 0); [by right|left; nra]).
      assert (Ez : sub3 (scale3 (P s.1) (h s.2)) (scale3 (P s.2) (h s.1)) = zero3).
      { unfold pt in E. assert (Hi : 0 < / (h s.2 - h s.1)) by (apply Rinv_0_lt_compat; lra). revert E. generalize (sub3 (scale3 (P s.1) (h s.2)) (scale3 (P s.2) (h s.1))), (/ (h s.2 - h s.1)), Hi. clear.
        intros x r Hr E. assert (E1 := f_equal vx E). assert (E2 := f_equal vy E). assert (E3 := f_equal vz E). clear E. destruct x. rv0. apply V3_eq; cbn; nra. }
      pose proof (HD _ _ _ (third_corner s Hus)) as Hdet.
      assert (Hz : h s.1 * det3 (P s.1) (P s.2) (P (third s)) = 0).
      { assert (h s.1 * det3 (P s.1) (P s.2) (P (third s)) = - det3 (P s.1) (sub3 (scale3 (P s.1) (h s.2)) (scale3 (P s.2) (h s.1))) (P (third s))) as ->.
        { unfold det3. generalize (h s.1), (h s.2), (P s.1), (P s.2), (P (third s)). clear. intros. rv0. ring. }
        rewrite Ez. unfold det3. generalize (P s.1), (P (third s)). clear. intros. rv0. ring. }
      nra. }
    destruct (winds (fun i => pt (walk (a, b) i)) k u N) as (i & l & s & Hl & Hs' & E).
    - done.
    - intros i. f_equal. unfold walk. rewrite Nat.iter_add. fold (walk (a, b) k). by rewrite Ek.
    - done.
    - intros i. apply pt_plane. by apply walk_up.
    - done.
    - done.
    - intros i. rewrite Hst. destruct (step_turn (walk (a, b) i)) as (r & Hr & ->); [by apply walk_up|]. destruct (walk_up _ i Hs) as (_ & _ & H2). destruct (Rlt_dec _ _); nra.
    - intros i. rewrite Hst. pose proof (walk_up _ i Hs) as Hw. destruct (step_turn (walk (a, b) i) Hw) as (r & Hr & ->). revert Hw. generalize (walk (a, b) i). clear Ek Hst. intros s Hw E.
      destruct Hw as (Hw & H1 & H2). destruct (Rlt_dec (h (third s)) 0) as [H3|H3]; [|nra]. assert (Eh : h s.2 = 0) by nra.
      unfold pt, next_up. rewrite decide_True || destruct (Rlt_dec (h (third s)) 0); [|lra]. cbn [fst snd]. rewrite Eh.
      assert (Hc : forall x y z : P3, forall q, q < 0 -> scale3 (sub3 (scale3 x 0) (scale3 y q)) (/ (0 - q)) = y).
      { clear. intros x y z q Hq. destruct x, y. apply V3_eq; rv0; field; lra. }
      by rewrite !Hc by (done || exact zero3).
    - intros i. apply Hnz. by apply walk_up.
    - cbn. intros E. destruct (step_turn (a, b) Hs) as (r & Hr & Et). rewrite <- E in Et.
      assert (Hz : forall x, det3 x x N = 0) by (clear; intros; unfold det3; rv0; ring). rewrite Hz in Et. destruct (Rlt_dec (h (third (a, b))) 0); cbn [snd] in Et; nra.
    - cbn beta in E. pose proof (walk_up _ i Hs) as Hw. pose proof (step_tri _ l Hw Hl) as Ht. rewrite <- Hst, E in Ht.
      destruct Hw as (Hw & _). apply third_corner, corner_face in Hw as (f & Hf & Hc). exists f, s. split_and!; [done|done|].
      destruct Ht as (x & y & z & Hx & Hy & Hz & Hsum & Et). destruct f as [[c0 c1] c2]. cbn [tri_corners fst snd] in *. rewrite !elem_of_cons in Hc.
      destruct Hc as [E' | [E' | [E' | []%elem_of_nil]]]; injection E' as E1 E2 E3; rewrite E1, E2, E3 in Et.
      + exists y, z, x. split_and!; [done|done|done|lra|]. rewrite Et. generalize (P c0), (P c1), (P c2). clear. intros. apply V3_eq; rv0; ring.
      + exists x, y, z. split_and!; done.
      + exists z, x, y. split_and!; [done|done|done|lra|]. rewrite Et. generalize (P c0), (P c1), (P c2). clear. intros. apply V3_eq; rv0; ring.
  Qed.
End cover.
(** Every ray from the origin meets a triangle of a closed surface all of whose triangles
    turn anticlockwise around the origin. *)
Lemma cover fs (P : nat -> P3) u : fs <> [] -> oriented fs -> closed fs ->
  (forall a b c, (a, b, c) ∈ mesh_corners fs -> 0 < det3 (P a) (P b) (P c)) -> u <> zero3 ->
  exists f s, f ∈ fs /\ 0 < s /\ in_tri (P f.1.1) (P f.1.2) (P f.2) (scale3 u s).
Proof.
  intros Hne Hor Hcl HD Hu. destruct fs as [|f0 fs']; [done|]. set (fs := f0 :: fs') in *.
  assert (Hf0 : f0 ∈ fs) by (unfold fs; set_solver). destruct f0 as [[a b] c].
  assert (Hc0 : (a, b, c) ∈ mesh_corners fs) by (apply corner_face; exists (a, b, c); split; [done|cbn; set_solver]).
  pose proof (HD _ _ _ Hc0) as Hd.
  assert (Hg : exists l m n, 0 < l /\ 0 < m /\ 0 < n /\ cross3 u (add3 (add3 (scale3 (P a) l) (scale3 (P b) m)) (scale3 (P c) n)) <> zero3).
  { set (g1 := add3 (add3 (scale3 (P a) 1) (scale3 (P b) 1)) (scale3 (P c) 1)). set (g2 := add3 (add3 (scale3 (P a) 2) (scale3 (P b) 1)) (scale3 (P c) 1)).
    assert (Hdec : {cross3 u g1 = zero3} + {cross3 u g1 <> zero3}).
    { destruct (Req_EM_T (mag3 (cross3 u g1)) 0) as [E|E]; [left; by apply mag3_zero_iff|right; by intros ?%mag3_zero_iff]. }
    destruct Hdec as [E1|E1]; [|exists 1, 1, 1; split_and!; [lra..|done]].
    exists 2, 1, 1. split_and!; [lra..|]. fold g2. intros E2.
    (* both are parallel to u, so the determinant vanishes *)
    assert (Ha : cross3 u (P a) = zero3).
    { assert (cross3 u (P a) = sub3 (cross3 u g2) (cross3 u g1)) as ->; [unfold g1, g2; generalize (P a), (P b), (P c); clear; intros; apply V3_eq; rv0; ring|].
      rewrite E1, E2. clear. apply V3_eq; rv0; ring. }
    assert (Hx : det3 (P a) (P b) (P c) = det3 (P a) g1 (P c)). { unfold g1, det3. generalize (P a), (P b), (P c). clear. intros. rv0. ring. }
    rewrite Hx in Hd. clear Hx E2. clearbody g1. pose proof (dot3_pos u Hu) as HU.
    assert (E : forall x, cross3 u x = zero3 -> scale3 x (dot3 u u) = scale3 u (dot3 u x)).
    { clear. intros x E. assert (scale3 x (dot3 u u) = sub3 (scale3 u (dot3 u x)) (cross3 u (cross3 u x))) as -> by (destruct u, x; apply V3_eq; rv0; ring).
      rewrite E. destruct u, x. apply V3_eq; rv0; ring. }
    assert (dot3 u u * dot3 u u * det3 (P a) g1 (P c) = 0) as Hz.
    { assert (dot3 u u * dot3 u u * det3 (P a) g1 (P c) = det3 (scale3 (P a) (dot3 u u)) (scale3 g1 (dot3 u u)) (P c)) as ->.
      { unfold det3. generalize (dot3 u u), (P a), (P c). clear. intros. rv0. ring. }
      rewrite (E _ Ha), (E _ E1). unfold det3. generalize (dot3 u (P a)), (dot3 u g1), (P c). clear. intros. rv0. ring. }
    assert (0 < dot3 u u * dot3 u u) by nra. nra. }
  destruct Hg as (l & m & n & Hl & Hm & Hn & Hcr). set (g := add3 _ _) in Hcr. set (N := cross3 u g) in Hcr.
  assert (HuN : dot3 u N = 0) by (unfold N; generalize g; clear; intros; rv0; ring).
  assert (HNg : l * dot3 N (P a) + m * dot3 N (P b) + n * dot3 N (P c) = 0).
  { assert (l * dot3 N (P a) + m * dot3 N (P b) + n * dot3 N (P c) = dot3 N g) as ->; [unfold g; generalize N; clear; intros; rv0; ring|]. unfold N. generalize g. clear. intros. rv0. ring. }
  assert (Hnz : ~ (dot3 N (P a) = 0 /\ dot3 N (P b) = 0 /\ dot3 N (P c) = 0)).
  { intros (E1 & E2 & E3). pose proof (dual N (P a) (P b) (P c)) as E. rewrite E1, E2, E3 in E. apply Hcr.
    assert (Hv : forall (x y z : P3), add3 (add3 (scale3 x 0) (scale3 y 0)) (scale3 z 0) = zero3) by (clear; intros; apply V3_eq; rv0; ring).
    rewrite Hv in E. revert E Hd. generalize (det3 (P a) (P b) (P c)), N. clear. intros r x E Hr. assert (E1 := f_equal vx E). assert (E2 := f_equal vy E). assert (E3 := f_equal vz E). clear E. destruct x. rv0. apply V3_eq; cbn; nra. }
  apply mcorner_sides in Hc0 as (Sab & Sbc & Sca). pose proof (Hcl _ _ Sab) as Sba. pose proof (Hcl _ _ Sbc) as Scb. pose proof (Hcl _ _ Sca) as Sac.
  assert (Hex : exists x y, (x, y) ∈ mesh_sides fs /\ dot3 N (P x) < 0 /\ 0 < dot3 N (P y)).
  { destruct (Rtotal_order (dot3 N (P a)) 0) as [Ha|[Ha|Ha]], (Rtotal_order (dot3 N (P b)) 0) as [Hb|[Hb|Hb]], (Rtotal_order (dot3 N (P c)) 0) as [Hc|[Hc|Hc]];
      try (exists a, b; split_and!; done); try (exists b, a; split_and!; done); try (exists b, c; split_and!; done); try (exists c, b; split_and!; done); try (exists c, a; split_and!; done); try (exists a, c; split_and!; done);
      exfalso; try (apply Hnz; split_and!; done); rewrite ?Ha, ?Hb, ?Hc in HNg; nra. }
  destruct Hex as (x & y & Hxy & Hx & Hy). by apply (cover_plane fs P u N Hor Hcl HD HuN Hu Hcr x y).
Qed.
