(** A closed surface of triangles, each turned away from the origin, surrounds the origin:
    the cones over the triangles cover all directions. *)
From Coq Require Import Psatz.
From stdpp Require Import prelude.
From Coq Require Import Reals Lra.
From Verif Require Import Num Vec RealGeo ShapeSpec.
Local Open Scope R_scope.

Definition tri3 := (P3 * P3 * P3)%type.
Definition det3 (a b c : P3) : R := dot3 (cross3 a b) c.
Definition tdet (t : tri3) : R := let '(a, b, c) := t in det3 a b c.
Definition psides (t : tri3) : list (P3 * P3) := let '(a, b, c) := t in [(a, b); (b, c); (c, a)].
(** [w] lies in the cone spanned by the triangle. *)
Definition incone (t : tri3) (w : P3) : Prop := forall x y, (x, y) ∈ psides t -> 0 <= det3 x y w.
Definition covered (F : list tri3) (w : P3) : Prop := exists t, t ∈ F /\ incone t w.
Definition closed_surface (F : list tri3) : Prop :=
  forall t x y, t ∈ F -> (x, y) ∈ psides t -> exists t', t' ∈ F /\ (y, x) ∈ psides t'.

Lemma det3_rot a b c : det3 a b c = det3 b c a.
Proof. unfold det3. rv0. ring. Qed.
Lemma det3_anti a b w : det3 b a w = - det3 a b w.
Proof. unfold det3. rv0. ring. Qed.
Lemma det3_lin a b w m t : det3 a b (add3 w (scale3 m t)) = det3 a b w + t * det3 a b m.
Proof. unfold det3. rv0. ring. Qed.
Lemma side_rot t x y : (x, y) ∈ psides t -> exists z, tdet t = det3 x y z /\ forall w, incone t w <-> incone (x, y, z) w.
Proof.
  destruct t as [[a b] c]. cbn [psides tdet]. rewrite !elem_of_cons, elem_of_nil.
  intros [[= -> ->]|[[= -> ->]|[[= -> ->]|[]]]].
  - exists c. done.
  - exists a. split; [by rewrite det3_rot|]. intros w. unfold incone. cbn [psides]. setoid_rewrite elem_of_cons. setoid_rewrite elem_of_cons. setoid_rewrite elem_of_list_singleton. naive_solver.
  - exists b. split; [by rewrite <- det3_rot|]. intros w. unfold incone. cbn [psides]. setoid_rewrite elem_of_cons. setoid_rewrite elem_of_cons. setoid_rewrite elem_of_list_singleton. naive_solver.
Qed.
Lemma incone_dec t w : incone t w \/ exists x y, (x, y) ∈ psides t /\ det3 x y w < 0.
Proof.
  destruct t as [[a b] c]. unfold incone. cbn [psides].
  destruct (Rlt_dec (det3 a b w) 0); [right; exists a, b; split; [set_solver|done]|].
  destruct (Rlt_dec (det3 b c w) 0); [right; exists b, c; split; [set_solver|done]|].
  destruct (Rlt_dec (det3 c a w) 0); [right; exists c, a; split; [set_solver|done]|].
  left. intros x y. rewrite !elem_of_cons, elem_of_nil. intros [[= -> ->]|[[= -> ->]|[[= -> ->]|[]]]]; lra.
Qed.

(** ** Strict linear conditions are open *)
Definition below (gs : list P3) (w : P3) : Prop := forall g, g ∈ gs -> dot3 g w < 0.
Lemma small1 g w m : dot3 g w < 0 -> exists t, 0 < t /\ forall t', Rabs t' <= t -> dot3 g (add3 w (scale3 m t')) < 0.
Proof.
  intros Hg. set (k := dot3 g m). exists (- dot3 g w / (2 * (Rabs k + 1))). pose proof (Rabs_pos k) as Hk.
  assert (Ht : 0 < - dot3 g w / (2 * (Rabs k + 1))) by (apply Rdiv_lt_0_compat; lra). split; [done|].
  intros t' Ht'. assert (E : dot3 g (add3 w (scale3 m t')) = dot3 g w + t' * k) by (subst k; rv0; ring). rewrite E.
  assert (H1 : t' * k <= Rabs t' * Rabs k) by (rewrite <- Rabs_mult; apply Rle_abs).
  assert (H2 : Rabs t' * Rabs k <= - dot3 g w / (2 * (Rabs k + 1)) * Rabs k) by (apply Rmult_le_compat_r; lra).
  assert (H3 : - dot3 g w / (2 * (Rabs k + 1)) * Rabs k < - dot3 g w); [|lra].
  set (q := - dot3 g w / (2 * (Rabs k + 1))) in *.
  assert (Hq : q * (2 * (Rabs k + 1)) = - dot3 g w) by (unfold q; field; lra). nra.
Qed.
Lemma small gs w m : below gs w -> exists t, 0 < t /\ forall t', Rabs t' <= t -> below gs (add3 w (scale3 m t')).
Proof.
  induction gs as [|g gs IH]; intros Hb; [exists 1; split; [lra|]; intros t' _ g Hg; by apply elem_of_nil in Hg|].
  destruct IH as (t1 & Ht1 & H1); [intros x Hx; apply Hb; by right|].
  destruct (small1 g w m) as (t2 & Ht2 & H2); [apply Hb; by left|].
  exists (Rmin t1 t2). split; [by apply Rmin_glb_lt|]. intros t' Ht' x [->|Hx]%elem_of_cons.
  - apply H2. pose proof (Rmin_r t1 t2). lra.
  - apply H1; [|done]. pose proof (Rmin_l t1 t2). lra.
Qed.
Lemma vec3_pos (d : P3) : d <> zero3 -> 0 < dot3 d d.
Proof.
  intros Hd. pose proof (dot3_nonneg d). destruct (Req_dec (dot3 d d) 0) as [E|]; [|lra]. exfalso. apply Hd.
  rv0. apply V3_eq; cbn; nra.
Qed.
(** A point near [w] that lies on none of finitely many planes through the origin. *)
Lemma generic (ms gs : list P3) w : (forall m, m ∈ ms -> m <> zero3) -> below gs w -> exists w', below gs w' /\ forall m, m ∈ ms -> dot3 m w' <> 0.
Proof.
  revert gs w. induction ms as [|m ms IH]; intros gs w Hms Hb.
  { exists w. split; [done|]. intros m Hm. by apply elem_of_nil in Hm. }
  assert (Hm : 0 < dot3 m m) by (apply vec3_pos, Hms; by left).
  assert (Hw1 : exists w1, below gs w1 /\ dot3 m w1 <> 0).
  { destruct (Req_dec (dot3 m w) 0) as [E|]; [|by exists w]. destruct (small gs w m Hb) as (t & Ht & Hs).
    exists (add3 w (scale3 m t)). split; [apply Hs; rewrite Rabs_right; lra|].
    replace (dot3 m (add3 w (scale3 m t))) with (dot3 m w + t * dot3 m m) by (rv0; ring). rewrite E. nra. }
  destruct Hw1 as (w1 & Hb1 & Hm1). set (g := if Rlt_dec (dot3 m w1) 0 then m else neg3 m).
  assert (Hg : dot3 g w1 < 0).
  { unfold g. destruct (Rlt_dec _ _); [done|]. replace (dot3 (neg3 m) w1) with (- dot3 m w1) by (rv0; ring). lra. }
  destruct (IH (g :: gs) w1) as (w' & Hb' & Hms').
  { intros x Hx. apply Hms. by right. }
  { intros x [->|Hx]%elem_of_cons; [done|by apply Hb1]. }
  exists w'. split; [intros x Hx; apply Hb'; by right|]. intros x [->|Hx]%elem_of_cons; [|by apply Hms'].
  specialize (Hb' g ltac:(by left)). unfold g in Hb'. destruct (Rlt_dec _ _); [lra|].
  replace (dot3 (neg3 m) w') with (- dot3 m w') in Hb' by (rv0; ring). lra.
Qed.
Lemma uncovered_open F w : ~ covered F w -> exists gs, below gs w /\ forall w', below gs w' -> ~ covered F w'.
Proof.
  induction F as [|t F IH]; intros Hc.
  { exists []. split; [intros g Hg; by apply elem_of_nil in Hg|]. intros w' _ (t & Ht & _). by apply elem_of_nil in Ht. }
  destruct IH as (gs & Hb & Hgs); [intros (t' & ? & ?); apply Hc; exists t'; split; [by right|done]|].
  destruct (incone_dec t w) as [Hi|(x & y & Hxy & Hneg)]; [exfalso; apply Hc; exists t; split; [by left|done]|].
  exists (cross3 x y :: gs). split; [intros g [->|Hg]%elem_of_cons; [done|by apply Hb]|].
  intros w' Hb' (t' & [->|Ht']%elem_of_cons & Hin).
  - specialize (Hin x y Hxy). specialize (Hb' (cross3 x y) ltac:(by left)). unfold det3 in Hin. lra.
  - apply (Hgs w'); [intros g Hg; apply Hb'; by right|]. by exists t'.
Qed.
Lemma covered_dec F w : covered F w \/ ~ covered F w.
Proof.
  induction F as [|t F IH]; [right; intros (t & Ht & _); by apply elem_of_nil in Ht|].
  destruct (incone_dec t w) as [Hi|(x & y & Hxy & Hneg)]; [left; exists t; split; [by left|done]|].
  destruct IH as [(t' & ? & ?)|Hn]; [left; exists t'; split; [by right|done]|].
  right. intros (t' & [->|Ht']%elem_of_cons & Hin); [specialize (Hin x y Hxy); lra|apply Hn; by exists t'].
Qed.
(** A side condition that does not fail at once keeps holding for a while. *)
Lemma good_side a b w m : 0 < det3 a b w \/ (0 <= det3 a b w /\ 0 <= det3 a b m) ->
  exists t, 0 < t /\ forall t', 0 <= t' <= t -> 0 <= det3 a b (add3 w (scale3 m t')).
Proof.
  intros [Hg|[H1 H2]].
  - destruct (small1 (neg3 (cross3 a b)) w m) as (t & Ht & Hs).
    { unfold det3 in Hg. replace (dot3 (neg3 (cross3 a b)) w) with (- dot3 (cross3 a b) w) by (rv0; ring). lra. }
    exists t. split; [done|]. intros t' Ht'. specialize (Hs t' ltac:(rewrite Rabs_right; lra)).
    unfold det3. revert Hs. generalize (add3 w (scale3 m t')). intros u Hu.
    replace (dot3 (neg3 (cross3 a b)) u) with (- dot3 (cross3 a b) u) in Hu by (rv0; ring). lra.
  - exists 1. split; [lra|]. intros t' Ht'. rewrite det3_lin. nra.
Qed.
Lemma good_tri t w m :
  (forall x y, (x, y) ∈ psides t -> 0 < det3 x y w \/ (0 <= det3 x y w /\ 0 <= det3 x y m)) ->
  exists r, 0 < r /\ forall t', 0 <= t' <= r -> incone t (add3 w (scale3 m t')).
Proof.
  destruct t as [[a b] c]. cbn [psides]. intros Hs.
  destruct (good_side a b w m) as (r1 & R1 & S1); [apply Hs; set_solver|].
  destruct (good_side b c w m) as (r2 & R2 & S2); [apply Hs; set_solver|].
  destruct (good_side c a w m) as (r3 & R3 & S3); [apply Hs; set_solver|].
  exists (Rmin r1 (Rmin r2 r3)). split; [repeat apply Rmin_glb_lt; done|]. intros t' Ht' x y Hxy. cbn [psides] in Hxy.
  pose proof (Rmin_l r1 (Rmin r2 r3)). pose proof (Rmin_r r1 (Rmin r2 r3)). pose proof (Rmin_l r2 r3). pose proof (Rmin_r r2 r3).
  rewrite !elem_of_cons, elem_of_nil in Hxy. destruct Hxy as [[= -> ->]|[[= -> ->]|[[= -> ->]|[]]]]; [apply S1|apply S2|apply S3]; lra.
Qed.
Lemma cramer (a b c w : P3) :
  scale3 w (det3 a b c) = add3 (add3 (scale3 a (det3 b c w)) (scale3 b (det3 c a w))) (scale3 c (det3 a b w)).
Proof. unfold det3. apply V3_eq; rv0; ring. Qed.

Definition path (w0 w1 : P3) (s : R) : P3 := add3 w0 (scale3 (sub3 w1 w0) s).
Lemma path_step w0 w1 s t : path w0 w1 (s + t) = add3 (path w0 w1 s) (scale3 (sub3 w1 w0) t).
Proof. unfold path. apply V3_eq; rv0; ring. Qed.
Definition verts (t : tri3) : list P3 := let '(a, b, c) := t in [a; b; c].

Lemma psides_verts t x y : (x, y) ∈ psides t -> x ∈ verts t /\ y ∈ verts t.
Proof.
  destruct t as [[a b] c]. cbn [psides verts]. rewrite !elem_of_cons, !elem_of_nil.
  intros [[= -> ->]|[[= -> ->]|[[= -> ->]|[]]]]; auto.
Qed.
Definition zero3_dec (v : P3) : {v = zero3} + {v <> zero3}.
Proof.
  destruct (Req_EM_T (vx v) 0) as [E1|N]; [|right; intros ->; done].
  destruct (Req_EM_T (vy v) 0) as [E2|N]; [|right; intros ->; done].
  destruct (Req_EM_T (vz v) 0) as [E3|N]; [|right; intros ->; done].
  left. by apply V3_eq.
Defined.

Lemma nonzero_list (l : list P3) : exists ms : list P3, (forall m, m ∈ ms -> m <> zero3) /\ forall m, m ∈ l -> m <> zero3 -> m ∈ ms.
Proof.
  induction l as [|x l (ms & H1 & H2)]; [exists []; split; intros m Hm; by apply elem_of_nil in Hm|].
  destruct (zero3_dec x) as [Hx|Hx].
  - exists ms. split; [done|]. intros m [->|Hm]%elem_of_cons Hn; [done|by apply H2].
  - exists (x :: ms). split; intros m [->|Hm]%elem_of_cons; auto; [by left|]. right. by apply H2.
Qed.
Section walk.
  Context (F : list tri3) (Hcl : closed_surface F) (Hpos : forall t, t ∈ F -> 0 < tdet t).
  Context (w0 w1 : P3).
  (** The plane of the walk contains no vertex, except on the first ray. *)
  Context (Hgen : forall v t, t ∈ F -> v ∈ verts t -> cross3 w0 v <> zero3 -> det3 w0 v w1 <> 0) (Hind : cross3 w0 w1 <> zero3).
  Lemma walk_step s : 0 < s -> covered F (path w0 w1 s) -> exists r, 0 < r /\ forall r', 0 <= r' <= r -> covered F (path w0 w1 (s + r')).
  Proof.
    intros Hs (t & Ht & Hin). set (ws := path w0 w1 s) in *. set (m := sub3 w1 w0).
    assert (Hbad : (forall x y, (x, y) ∈ psides t -> 0 < det3 x y ws \/ (0 <= det3 x y ws /\ 0 <= det3 x y m)) \/
      exists x y, (x, y) ∈ psides t /\ det3 x y ws = 0 /\ det3 x y m < 0).
    { assert (Hside : forall x y, (x, y) ∈ psides t -> (0 < det3 x y ws \/ (0 <= det3 x y ws /\ 0 <= det3 x y m)) \/ (det3 x y ws = 0 /\ det3 x y m < 0)).
      { intros x y Hxy. specialize (Hin x y Hxy). destruct (Rlt_dec 0 (det3 x y ws)); [by left; left|].
        destruct (Rlt_dec (det3 x y m) 0); [right; lra|left; right; lra]. }
      destruct t as [[a b] c]. cbn [psides] in *.
      destruct (Hside a b) as [G1|B1]; [set_solver| |right; exists a, b; split; [set_solver|done]].
      destruct (Hside b c) as [G2|B2]; [set_solver| |right; exists b, c; split; [set_solver|done]].
      destruct (Hside c a) as [G3|B3]; [set_solver| |right; exists c, a; split; [set_solver|done]].
      left. intros x y. rewrite !elem_of_cons, elem_of_nil. intros [[= -> ->]|[[= -> ->]|[[= -> ->]|[]]]]; done. }
    destruct Hbad as [Hgood|(a & b & Hab & Hz & Hneg)].
    { destruct (good_tri t ws m Hgood) as (r & Hr & Hgo). exists r. split; [done|]. intros r' Hr'. exists t. split; [done|].
      rewrite path_step. by apply Hgo. }
    destruct (Hcl t a b Ht Hab) as (t' & Ht' & Hba).
    destruct (psides_verts _ _ _ Hab) as [Va Vb].
    destruct (side_rot t a b Hab) as (c & Edet & Einc). destruct (side_rot t' b a Hba) as (c' & Edet' & Einc').
    pose proof (Hpos t Ht) as HD. rewrite Edet in HD. pose proof (Hpos t' Ht') as HD'. rewrite Edet' in HD'.
    rewrite Einc in Hin.
    assert (HA : 0 <= det3 b c ws) by (apply Hin; cbn [psides]; set_solver).
    assert (HB : 0 <= det3 c a ws) by (apply Hin; cbn [psides]; set_solver).
    pose proof (cramer a b c ws) as Hcr. rewrite Hz in Hcr.
    set (D := det3 a b c) in *. set (A := det3 b c ws) in *. set (B := det3 c a ws) in *.
    assert (Hlin : forall x y, D * det3 x y ws = A * det3 x y a + B * det3 x y b).
    { intros x y. transitivity (det3 x y (scale3 ws D)); [unfold det3; clear; rv0; ring|]. rewrite Hcr. unfold det3. clear. rv0. ring. }
    (* the walk does not meet a vertex *)
    assert (Hw0 : forall v, cross3 w0 v = zero3 -> det3 w0 w1 v = 0).
    { intros v Hv. assert (E1 : vx (cross3 w0 v) = 0) by by rewrite Hv. assert (E2 : vy (cross3 w0 v) = 0) by by rewrite Hv.
      assert (E3 : vz (cross3 w0 v) = 0) by by rewrite Hv. transitivity (- dot3 (cross3 w0 v) w1); [unfold det3; clear; rv0; ring|].
      rewrite Hv. clear. rv0. ring. }
    assert (Hws : cross3 w0 ws = scale3 (cross3 w0 w1) s) by (subst ws; unfold path; clear; apply V3_eq; rv0; ring).
    assert (Hnz : dot3 (cross3 w0 w1) (cross3 w0 ws) <> 0).
    { rewrite Hws. replace (dot3 (cross3 w0 w1) (scale3 (cross3 w0 w1) s)) with (s * dot3 (cross3 w0 w1) (cross3 w0 w1)) by (clear; rv0; ring).
      pose proof (vec3_pos _ Hind). nra. }
    assert (Hplane : det3 w0 w1 ws = 0) by (subst ws; unfold path, det3; clear; rv0; ring).
    assert (Hvert : forall v k, v ∈ verts t -> scale3 ws D = scale3 v k -> False).
    { intros v k Hv Ek.
      assert (Hk : k * det3 w0 v w1 = 0).
      { transitivity (- det3 w0 w1 (scale3 v k)); [unfold det3; clear; rv0; ring|]. rewrite <- Ek.
        transitivity (- (D * det3 w0 w1 ws)); [unfold det3; clear; rv0; ring|]. rewrite Hplane. ring. }
      assert (Hcross : scale3 (cross3 w0 v) k = scale3 (cross3 w0 ws) D).
      { transitivity (cross3 w0 (scale3 v k)); [clear; apply V3_eq; rv0; ring|]. rewrite <- Ek. clear. apply V3_eq; rv0; ring. }
      assert (Hdd : k * dot3 (cross3 w0 w1) (cross3 w0 v) = D * dot3 (cross3 w0 w1) (cross3 w0 ws)).
      { transitivity (dot3 (cross3 w0 w1) (scale3 (cross3 w0 v) k)); [clear; rv0; ring|]. rewrite Hcross. clear. rv0. ring. }
      assert (Hne : D * dot3 (cross3 w0 w1) (cross3 w0 ws) <> 0) by (apply Rmult_integral_contrapositive; lra).
      destruct (zero3_dec (cross3 w0 v)) as [Ez|Nz].
      - rewrite Ez in Hdd. replace (dot3 (cross3 w0 w1) zero3) with 0 in Hdd by (clear; rv0; ring). lra.
      - apply (Hgen v t Ht Hv) in Nz. apply Rmult_integral in Hk as [->|]; [|done]. lra. }
    assert (HA' : 0 < A).
    { destruct (Rle_lt_dec A 0); [exfalso|done]. assert (E0 : A = 0) by lra. apply (Hvert b B Vb). rewrite Hcr, E0. clear. apply V3_eq; rv0; ring. }
    assert (HB' : 0 < B).
    { destruct (Rle_lt_dec B 0); [exfalso|done]. assert (E0 : B = 0) by lra. apply (Hvert a A Va). rewrite Hcr, E0. clear. apply V3_eq; rv0; ring. }
    destruct (good_tri (b, a, c') ws m) as (r & Hr & Hgo).
    { intros x y. cbn [psides]. rewrite !elem_of_cons, elem_of_nil. intros [[= -> ->]|[[= -> ->]|[[= -> ->]|[]]]].
      - right. rewrite (det3_anti a b ws), (det3_anti a b m). lra.
      - left. pose proof (Hlin a c') as Hl. replace (det3 a c' a) with 0 in Hl by (unfold det3; clear; rv0; ring).
        rewrite <- (det3_rot b a c') in Hl. apply (Rmult_lt_reg_l D); [done|]. rewrite Hl. nra.
      - left. pose proof (Hlin c' b) as Hl. replace (det3 c' b b) with 0 in Hl by (unfold det3; clear; rv0; ring).
        rewrite (det3_rot c' b a) in Hl. apply (Rmult_lt_reg_l D); [done|]. rewrite Hl. nra. }
    exists r. split; [done|]. intros r' Hr'. exists t'. split; [done|]. rewrite path_step, Einc'. by apply Hgo.
  Qed.
  Lemma walk : covered F w0 -> (exists r, 0 < r /\ forall r', 0 <= r' <= r -> covered F (path w0 w1 r')) -> covered F w1.
  Proof.
    intros H0 (r0 & Hr0 & Hgo0).
    destruct (covered_dec F w1) as [|Hunc]; [done|exfalso].
    set (E := fun s => 0 <= s <= 1 /\ covered F (path w0 w1 s)).
    assert (Hz : path w0 w1 0 = w0) by (unfold path; apply V3_eq; rv0; ring).
    assert (Ho : path w0 w1 1 = w1) by (unfold path; apply V3_eq; rv0; ring).
    destruct (completeness E) as [s [Hub Hlub]].
    { exists 1. intros x [Hx _]. lra. }
    { exists 0. split; [lra|]. by rewrite Hz. }
    assert (Hs1 : s <= 1) by (apply Hlub; intros x [Hx _]; lra).
    assert (Hs0 : 0 < s).
    { assert (Hm : E (Rmin r0 1)).
      { split; [split; [apply Rmin_glb; lra|apply Rmin_r]|]. apply Hgo0. split; [apply Rmin_glb; lra|apply Rmin_l]. }
      apply Hub in Hm. pose proof (Rmin_glb_lt r0 1 0 Hr0 ltac:(lra)). lra. }
    destruct (covered_dec F (path w0 w1 s)) as [Hc|Hc].
    - destruct (Req_dec s 1) as [->|Hne]; [by rewrite Ho in Hc|].
      destruct (walk_step s Hs0 Hc) as (r & Hr & Hgo). set (k := Rmin r (1 - s)).
      assert (Hk : 0 < k) by (apply Rmin_glb_lt; lra). pose proof (Rmin_l r (1 - s)). pose proof (Rmin_r r (1 - s)). fold k in H, H1.
      assert (Hin : E (s + k)) by (split; [lra|]; apply Hgo; lra). apply Hub in Hin. lra.
    - destruct (uncovered_open F _ Hc) as (gs & Hb & Hgs). destruct (small gs _ (sub3 w1 w0) Hb) as (t & Ht & Hsm).
      assert (s <= s - t); [|lra]. apply Hlub. intros x Hx. pose proof (Hub x Hx) as Hxs. destruct Hx as [Hx Hcx].
      destruct (Rle_lt_dec x (s - t)); [done|exfalso]. apply (Hgs (path w0 w1 x)); [|done].
      replace x with (s + (x - s)) by ring. rewrite path_step. apply Hsm. rewrite Rabs_left1; lra.
  Qed.
End walk.

Theorem surface_covers F : F <> [] -> closed_surface F -> (forall t, t ∈ F -> 0 < tdet t) -> forall w, covered F w.
Proof.
  intros HF Hcl Hpos w. destruct (covered_dec F w) as [|Hunc]; [done|exfalso].
  destruct (uncovered_open F w Hunc) as (gs & Hb & Hgs).
  assert (Ht0 : exists t0, t0 ∈ F) by (destruct F as [|t0 F']; [done|]; exists t0; by left).
  destruct Ht0 as [[[a0 b0] c0] Ht0]. pose proof (Hpos _ Ht0) as Hd0. cbn [tdet] in Hd0.
  set (w0 := add3 (add3 a0 b0) c0).
  destruct (nonzero_list (cross3 w0 <$> (F ≫= verts))) as (ms & Hms & Hin).
  destruct (generic ms gs w Hms Hb) as (w1 & Hb1 & Hm1).
  apply (Hgs w1 Hb1).
  assert (Hgen : forall v t, t ∈ F -> v ∈ verts t -> cross3 w0 v <> zero3 -> det3 w0 v w1 <> 0).
  { intros v t Ht Hv Hne. apply Hm1, Hin; [|done]. apply elem_of_list_fmap_1, elem_of_list_bind. eauto. }
  assert (Hwa : cross3 w0 a0 <> zero3).
  { intros Ez. assert (E : dot3 (cross3 w0 a0) b0 = 0) by (rewrite Ez; clear; rv0; ring).
    assert (dot3 (cross3 w0 a0) b0 = det3 a0 b0 c0); [|lra]. unfold w0, det3. clear. rv0. ring. }
  assert (Hind : cross3 w0 w1 <> zero3).
  { intros Ez. apply (Hgen a0 (a0, b0, c0) Ht0); [by left|done|]. transitivity (- dot3 (cross3 w0 w1) a0); [unfold det3; clear; rv0; ring|].
    rewrite Ez. clear. rv0. ring. }
  assert (Hst : forall x y, (x, y) ∈ psides (a0, b0, c0) -> 0 < det3 x y w0).
  { intros x y. cbn [psides]. rewrite !elem_of_cons, elem_of_nil.
    assert (G : forall k, k = det3 a0 b0 c0 -> 0 < k) by (intros k ->; done).
    intros [[= -> ->]|[[= -> ->]|[[= -> ->]|[]]]]; apply G; unfold w0, det3; clear; rv0; ring. }
  apply (walk F Hcl Hpos w0 w1 Hgen Hind).
  - exists (a0, b0, c0). split; [done|]. intros x y Hxy. apply Rlt_le, Hst, Hxy.
  - destruct (good_tri (a0, b0, c0) w0 (sub3 w1 w0)) as (r & Hr & Hgo); [intros x y Hxy; left; by apply Hst|].
    exists r. split; [done|]. intros r' Hr'. exists (a0, b0, c0). split; [done|]. by apply Hgo.
Qed.
