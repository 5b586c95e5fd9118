(** Lines through a convex polyhedron enter it through a triangle that faces them. *)
From Coq Require Import Psatz.
From stdpp Require Import prelude.
From Coq Require Import Reals Lra.
From Verif Require Import Num Vec RealGeo ShapeSpec PropsSupport MeshSpec MeshModel MeshBuild MeshGeo MeshClimb MeshCover PropsMesh.
Local Open Scope R_scope.

(** A solid bounded by triangles: like [convex_mesh], but vertices need not be corners and
    the triangles at a vertex need not form a single fan. *)
Record solid_mesh (vs : list P3) (fs : list tri) : Prop := {
  sm_nonempty : fs <> [];
  sm_oriented : oriented fs;
  sm_closed : closed fs;
  sm_outward f abc q : f ∈ fs -> corners_at vs f abc -> q ∈ vs -> dot3 (tri_normal abc) (sub3 q abc.1.1) <= 0;
  sm_solid n k : n <> zero3 -> exists q, q ∈ vs /\ dot3 n q <> k
}.
(** The side functional of the line through [y] with direction [d]. *)
Definition edge_fn (p q y d : P3) : R := det3 (sub3 q p) (sub3 y p) d.
Lemma edge_sum a b c y d : edge_fn b c y d + edge_fn c a y d + edge_fn a b y d = dot3 (tri_normal (a, b, c)) d.
Proof. unfold edge_fn, det3, tri_normal. cbn [fst snd]. destruct a, b, c, y, d. rv0. ring. Qed.
Lemma edge_point a b c y d :
  add3 (add3 (scale3 a (edge_fn b c y d)) (scale3 b (edge_fn c a y d))) (scale3 c (edge_fn a b y d)) =
  sub3 (scale3 y (dot3 (tri_normal (a, b, c)) d)) (scale3 d (dot3 (tri_normal (a, b, c)) (sub3 y a))).
Proof. unfold edge_fn, det3, tri_normal. cbn [fst snd]. destruct a, b, c, y, d. apply V3_eq; rv0; ring. Qed.
Lemma edge_mix p q x o d r : edge_fn p q (add3 (scale3 x (1 - r)) (scale3 o r)) d = (1 - r) * edge_fn p q x d + r * edge_fn p q o d.
Proof. unfold edge_fn, det3. destruct p, q, x, o, d. rv0. ring. Qed.
(** Conversely the functionals of a line through a point of the triangle. *)
Lemma edge_of_tri a b c l m n d s : l + m + n = 1 -> let y := add3 (add3 (add3 (scale3 a l) (scale3 b m)) (scale3 c n)) (scale3 d s) in
  let N := dot3 (tri_normal (a, b, c)) d in edge_fn a b y d = n * N /\ edge_fn b c y d = l * N /\ edge_fn c a y d = m * N.
Proof.
  intros E y N. assert (l = 1 - m - n) as -> by lra. unfold y, N, edge_fn, det3, tri_normal. cbn [fst snd]. destruct a, b, c, d. rv0. split_and!; ring.
Qed.
Section mray.
  Context (vs : list P3) (fs : list tri).
  Hypothesis Hok : forall f, f ∈ fs -> exists abc, corners_at vs f abc /\ tri_normal abc <> zero3.
  Hypothesis Hsm : solid_mesh vs fs.
  Notation P := (posn vs).
  Definition corners (f : tri) : P3 * P3 * P3 := (P f.1.1, P f.1.2, P f.2).
  Lemma corners_ok f : f ∈ fs -> corners_at vs f (corners f) /\ tri_normal (corners f) <> zero3.
  Proof. intros Hf. destruct (Hok f Hf) as (abc & Hc & Hn). pose proof (corners_posn _ _ _ Hc) as ->. done. Qed.
  Lemma hull_inside f x : f ∈ fs -> hull3 vs x -> dot3 (tri_normal (corners f)) (sub3 x (P f.1.1)) <= 0.
  Proof.
    intros Hf Hx. destruct (corners_ok f Hf) as [Hc _].
    pose proof (hull3_le vs (tri_normal (corners f)) (dot3 (tri_normal (corners f)) (P f.1.1)) x Hx) as Hle.
    assert (Hs : forall v, dot3 (tri_normal (corners f)) (sub3 v (P f.1.1)) = dot3 (tri_normal (corners f)) v - dot3 (tri_normal (corners f)) (P f.1.1)).
    { intros v. generalize (tri_normal (corners f)), (P f.1.1). clear. intros. rv0. ring. }
    rewrite Hs. assert (dot3 (tri_normal (corners f)) x <= dot3 (tri_normal (corners f)) (P f.1.1)); [|lra].
    apply Hle. intros v Hv. pose proof (sm_outward _ _ Hsm f _ v Hf Hc Hv) as Ho. cbn [fst snd corners] in Ho. fold (corners f) in Ho. rewrite Hs in Ho. lra.
  Qed.
  Lemma tri_hull f x : f ∈ fs -> in_tri (P f.1.1) (P f.1.2) (P f.2) x -> hull3 vs x.
  Proof.
    intros Hf (l & m & n & Hl & Hm & Hn & E & ->). destruct (corners_ok f Hf) as [(C1 & C2 & C3) _]. cbn [fst snd corners] in *.
    apply elem_of_list_lookup_2 in C1, C2, C3.
    destruct (Req_dec n 1) as [En|En].
    - assert (l = 0) as -> by lra. assert (m = 0) as -> by lra. subst n.
      assert (add3 (add3 (scale3 (P f.1.1) 0) (scale3 (P f.1.2) 0)) (scale3 (P f.2) 1) = P f.2) as ->; [|by apply hull3_vertex].
      generalize (P f.1.1), (P f.1.2), (P f.2). clear. intros. apply V3_eq; rv0; ring.
    - assert (Hr : 0 <= m / (1 - n) <= 1).
      { split; [apply Rle_mult_inv_pos; lra|]. apply (Rmult_le_reg_r (1 - n)); [lra|]. unfold Rdiv. rewrite Rmult_assoc, Rinv_l; lra. }
      assert (add3 (add3 (scale3 (P f.1.1) l) (scale3 (P f.1.2) m)) (scale3 (P f.2) n) =
        add3 (scale3 (add3 (scale3 (P f.1.1) (1 - m / (1 - n))) (scale3 (P f.1.2) (m / (1 - n)))) (1 - n)) (scale3 (P f.2) n)) as ->.
      { assert (l = 1 - m - n) as -> by lra. generalize (P f.1.1), (P f.1.2), (P f.2). clear -En. intros. apply V3_eq; rv0; field; lra. }
      apply hull3_mix; [|by apply hull3_vertex|lra]. apply hull3_mix; [by apply hull3_vertex..|done].
  Qed.
  Lemma interior : exists o, hull3 vs o /\ forall f, f ∈ fs -> dot3 (tri_normal (corners f)) (sub3 o (P f.1.1)) < 0.
  Proof.
    assert (Hgs : forall gs, gs ⊆ fs -> exists o, hull3 vs o /\ forall f, f ∈ gs -> dot3 (tri_normal (corners f)) (sub3 o (P f.1.1)) < 0).
    { induction gs as [|g gs IH]; intros Hsub.
      - destruct (sm_solid _ _ Hsm (mk3 1 0 0) 0) as (q & Hq & _); [intros E; apply (f_equal vx) in E; cbn in E; lra|]. exists q. split; [by apply hull3_vertex|]. intros f ?%elem_of_nil. done.
      - destruct IH as (o & Ho & Hlt); [set_solver|]. assert (Hg : g ∈ fs) by set_solver. destruct (corners_ok g Hg) as [Hc Hn].
        destruct (sm_solid _ _ Hsm _ (dot3 (tri_normal (corners g)) (P g.1.1)) Hn) as (q & Hq & Hne).
        assert (Hs : forall n x y : P3, dot3 n (sub3 x y) = dot3 n x - dot3 n y) by (clear; intros; rv0; ring).
        assert (Hs2 : forall n x y z : P3, dot3 n (sub3 (add3 (scale3 x (1 - 1 / 2)) (scale3 y (1 / 2))) z) = (dot3 n (sub3 x z) + dot3 n (sub3 y z)) / 2) by (clear; intros; rv0; field).
        exists (add3 (scale3 o (1 - 1 / 2)) (scale3 q (1 / 2))). split; [apply hull3_mix; [done|by apply hull3_vertex|lra]|].
        intros f Hf. rewrite Hs2. assert (Hff : f ∈ fs) by set_solver. pose proof (hull_inside f q Hff (hull3_vertex _ _ Hq)) as Hq'. pose proof (hull_inside f o Hff Ho) as Ho'.
        apply elem_of_cons in Hf as [-> | Hf].
        + assert (dot3 (tri_normal (corners g)) (sub3 q (P g.1.1)) <> 0); [|lra]. rewrite Hs. lra.
        + specialize (Hlt f Hf). lra. }
    by apply Hgs.
  Qed.
  (** From a point strictly inside, every ray leaves through some triangle. *)
  Lemma leave z d : (forall f, f ∈ fs -> dot3 (tri_normal (corners f)) (sub3 z (P f.1.1)) < 0) -> d <> zero3 ->
    exists f s, f ∈ fs /\ 0 < s /\ in_tri (P f.1.1) (P f.1.2) (P f.2) (add3 z (scale3 d s)) /\ 0 < dot3 (tri_normal (corners f)) d.
  Proof.
    intros Hz Hd. destruct (cover fs (fun i => sub3 (P i) z) d) as (f & s & Hf & Hs & Ht); [apply Hsm..| |done|].
    - intros a b c (f & Hf & Hc)%corner_face. specialize (Hz f Hf). destruct f as [[x y] w]. unfold corners, tri_normal in Hz. cbn [fst snd tri_corners] in *.
      assert (E : det3 (sub3 (P a) z) (sub3 (P b) z) (sub3 (P c) z) = - dot3 (cross3 (sub3 (P y) (P x)) (sub3 (P w) (P x))) (sub3 z (P x))); [|lra].
      clear Hz. rewrite !elem_of_cons in Hc. destruct Hc as [[= -> -> ->] | [[= -> -> ->] | [[= -> -> ->] | []%elem_of_nil]]];
        unfold det3; generalize (P x), (P y), (P w); clear; intros; rv0; ring.
    - cbn beta in Ht. assert (Ht' : in_tri (P f.1.1) (P f.1.2) (P f.2) (add3 z (scale3 d s))).
      { destruct Ht as (l & m & n & Hl & Hm & Hn & E & Et). exists l, m, n. split_and!; [done..|]. rewrite Et. assert (l = 1 - m - n) as -> by lra.
        generalize (P f.1.1), (P f.1.2), (P f.2). clear. intros. apply V3_eq; rv0; ring. }
      exists f, s. split_and!; [done..|].
      assert (Hp : dot3 (tri_normal (corners f)) (sub3 (add3 z (scale3 d s)) (P f.1.1)) = 0).
      { destruct Ht' as (l & m & n & Hl & Hm & Hn & E & ->). assert (l = 1 - m - n) as -> by lra. unfold tri_normal, corners. cbn [fst snd].
        generalize (P f.1.1), (P f.1.2), (P f.2). clear. intros. rv0. ring. }
      specialize (Hz f Hf).
      assert (E : dot3 (tri_normal (corners f)) (sub3 (add3 z (scale3 d s)) (P f.1.1)) = dot3 (tri_normal (corners f)) (sub3 z (P f.1.1)) + s * dot3 (tri_normal (corners f)) d).
      { generalize (tri_normal (corners f)), (P f.1.1). clear. intros. rv0. ring. }
      rewrite E in Hp. nra.
  Qed.
  (** The triangle [f] faces the line through [y] with direction [d], which meets it. *)
  Definition enters (f : tri) (y d : P3) : Prop := dot3 (tri_normal (corners f)) d < 0 /\
    edge_fn (P f.1.1) (P f.1.2) y d <= 0 /\ edge_fn (P f.1.2) (P f.2) y d <= 0 /\ edge_fn (P f.2) (P f.1.1) y d <= 0.
  Lemma enters_dec f y d : {enters f y d} + {~ enters f y d}.
  Proof.
    unfold enters. destruct (Rlt_dec (dot3 (tri_normal (corners f)) d) 0); [|right; lra].
    destruct (Rle_dec (edge_fn (P f.1.1) (P f.1.2) y d) 0); [|right; lra].
    destruct (Rle_dec (edge_fn (P f.1.2) (P f.2) y d) 0); [|right; lra].
    destruct (Rle_dec (edge_fn (P f.2) (P f.1.1) y d) 0); [left; lra|right; lra].
  Qed.
  Lemma small_pos a b : 0 < a -> exists r0, 0 < r0 <= 1 /\ forall r, 0 < r < r0 -> 0 < (1 - r) * a + r * b.
  Proof.
    intros Ha. destruct (Rle_dec 0 b) as [Hb|Hb].
    - exists 1. split; [lra|]. intros r Hr. nra.
    - exists (a / (a - b)). assert (Hd : 0 < a - b) by lra. split.
      + split; [by apply Rdiv_lt_0_compat|]. apply (Rmult_le_reg_r (a - b)); [lra|]. unfold Rdiv. rewrite Rmult_assoc, Rinv_l; lra.
      + intros r [Hr1 Hr2]. assert (r * (a - b) < a); [|nra]. apply (Rmult_lt_compat_r (a - b)) in Hr2; [|lra]. unfold Rdiv in Hr2. rewrite Rmult_assoc, Rinv_l in Hr2; lra.
  Qed.
  Lemma entry x d : hull3 vs x -> d <> zero3 -> exists f, f ∈ fs /\ enters f x d.
  Proof.
    intros Hx Hd. destruct interior as (o & Ho & Hlt).
    assert (Hgs : forall gs : list tri, (exists f, f ∈ gs /\ enters f x d) \/
      exists r0, 0 < r0 <= 1 /\ forall r f, 0 < r < r0 -> f ∈ gs -> ~ enters f (add3 (scale3 x (1 - r)) (scale3 o r)) d).
    { induction gs as [|g gs IH]; [right; exists 1; split; [lra|]; intros r f _ ?%elem_of_nil; done|].
      destruct (enters_dec g x d) as [He|He]; [left; exists g; split; [set_solver|done]|].
      destruct IH as [(f & Hf & Hen)|(r0 & Hr0 & Hno)]; [left; exists f; split; [set_solver|done]|]. right.
      assert (exists r1, 0 < r1 <= 1 /\ forall r, 0 < r < r1 -> ~ enters g (add3 (scale3 x (1 - r)) (scale3 o r)) d) as (r1 & Hr1 & Hg).
      { unfold enters in He |- *. destruct (Rlt_dec (dot3 (tri_normal (corners g)) d) 0) as [Hn|Hn]; [|exists 1; split; [lra|]; intros r Hr (? & _); lra].
        destruct (Rle_dec (edge_fn (P g.1.1) (P g.1.2) x d) 0) as [H1|H1];
          [destruct (Rle_dec (edge_fn (P g.1.2) (P g.2) x d) 0) as [H2|H2]; [destruct (Rle_dec (edge_fn (P g.2) (P g.1.1) x d) 0) as [H3|H3]; [tauto|]|]|].
        - destruct (small_pos (edge_fn (P g.2) (P g.1.1) x d) (edge_fn (P g.2) (P g.1.1) o d)) as (r1 & Hr1 & Hp); [lra|]. exists r1. split; [done|]. intros r Hr (_ & A1 & A2 & A3). rewrite edge_mix in A1, A2, A3. specialize (Hp r Hr). lra.
        - destruct (small_pos (edge_fn (P g.1.2) (P g.2) x d) (edge_fn (P g.1.2) (P g.2) o d)) as (r1 & Hr1 & Hp); [lra|]. exists r1. split; [done|]. intros r Hr (_ & A1 & A2 & A3). rewrite edge_mix in A1, A2, A3. specialize (Hp r Hr). lra.
        - destruct (small_pos (edge_fn (P g.1.1) (P g.1.2) x d) (edge_fn (P g.1.1) (P g.1.2) o d)) as (r1 & Hr1 & Hp); [lra|]. exists r1. split; [done|]. intros r Hr (_ & A1 & A2 & A3). rewrite edge_mix in A1, A2, A3. specialize (Hp r Hr). lra. }
      exists (Rmin r0 r1). split; [split; [apply Rmin_glb_lt; lra|apply (Rle_trans _ r0); [apply Rmin_l|lra]]|].
      intros r f [Ha Hb] Hf. pose proof (Rmin_l r0 r1). pose proof (Rmin_r r0 r1). apply elem_of_cons in Hf as [-> | Hf]; [apply Hg; lra|apply (Hno r); [lra|done]]. }
    destruct (Hgs fs) as [?|(r0 & Hr0 & Hno)]; [done|]. exfalso. set (r := r0 / 2). assert (Hr : 0 < r < r0) by (unfold r; lra).
    set (z := add3 (scale3 x (1 - r)) (scale3 o r)).
    destruct (leave z (neg3 d)) as (f & s & Hf & Hs & Ht & Hn).
    - intros f Hf. unfold z. pose proof (hull_inside f x Hf Hx) as H1. specialize (Hlt f Hf).
      assert (E : dot3 (tri_normal (corners f)) (sub3 (add3 (scale3 x (1 - r)) (scale3 o r)) (P f.1.1)) =
        (1 - r) * dot3 (tri_normal (corners f)) (sub3 x (P f.1.1)) + r * dot3 (tri_normal (corners f)) (sub3 o (P f.1.1))).
      { generalize (tri_normal (corners f)), (P f.1.1). clear. intros. rv0. ring. }
      rewrite E. nra.
    - intros E. apply Hd. assert (vx (neg3 d) = 0 /\ vy (neg3 d) = 0 /\ vz (neg3 d) = 0) as (? & ? & ?) by (by rewrite E). apply V3_eq; rv0; lra.
    - apply (Hno r f Hr Hf). assert (Hn' : dot3 (tri_normal (corners f)) d < 0). { assert (dot3 (tri_normal (corners f)) (neg3 d) = - dot3 (tri_normal (corners f)) d) by (generalize (tri_normal (corners f)); clear; intros; rv0; ring). lra. }
      destruct Ht as (l & m & n & Hl & Hm & Hnn & E & Et).
      assert (Ez : z = add3 (add3 (add3 (scale3 (P f.1.1) l) (scale3 (P f.1.2) m)) (scale3 (P f.2) n)) (scale3 d s)).
      { rewrite <- Et. generalize z. clear. intros. apply V3_eq; rv0; ring. }
      destruct (edge_of_tri (P f.1.1) (P f.1.2) (P f.2) l m n d s E) as (E1 & E2 & E3). cbn zeta in E1, E2, E3. rewrite <- Ez in E1, E2, E3. fold (corners f) in E1, E2, E3.
      fold z. unfold enters. rewrite E1, E2, E3. split_and!; [done|nra..].
  Qed.
  (** Where the line meets the triangle it enters. *)
  Lemma enters_point f y d : enters f y d -> exists s, s = dot3 (tri_normal (corners f)) (sub3 (P f.1.1) y) / dot3 (tri_normal (corners f)) d /\
    in_tri (P f.1.1) (P f.1.2) (P f.2) (add3 y (scale3 d s)).
  Proof.
    intros (Hn & H1 & H2 & H3). eexists. split; [done|]. pose proof (edge_sum (P f.1.1) (P f.1.2) (P f.2) y d) as Es. pose proof (edge_point (P f.1.1) (P f.1.2) (P f.2) y d) as Ep.
    fold (corners f) in Es, Ep. set (N := dot3 (tri_normal (corners f)) d) in *.
    set (e1 := edge_fn (P f.1.2) (P f.2) y d) in *. set (e2 := edge_fn (P f.2) (P f.1.1) y d) in *. set (e3 := edge_fn (P f.1.1) (P f.1.2) y d) in *.
    assert (Hq : forall e, e <= 0 -> 0 <= e / N). { intros e He. assert (Hi : / N < 0) by (by apply Rinv_lt_0_compat). unfold Rdiv. nra. }
    exists (e1 / N), (e2 / N), (e3 / N). split_and!; [by apply Hq..| |].
    - rewrite <- Es. field. rewrite Es. lra.
    - assert (El : dot3 (tri_normal (corners f)) (sub3 (P f.1.1) y) = - dot3 (tri_normal (corners f)) (sub3 y (P f.1.1))) by (generalize (tri_normal (corners f)), (P f.1.1); clear; intros; rv0; ring).
      rewrite El. clear El. revert Ep. generalize (dot3 (tri_normal (corners f)) (sub3 y (P f.1.1))) as w. intros w. clearbody e1 e2 e3 N. generalize (P f.1.1), (P f.1.2), (P f.2). clear -Hn. intros a b c Ep.
      assert (X := f_equal vx Ep). assert (Y := f_equal vy Ep). assert (Z := f_equal vz Ep). clear Ep. cbn [vx vy vz add3 sub3 scale3 nadd nsub nmul Num_R] in *.
      assert (Hd : forall p q r s t, p = q * N - r * w -> s = p / N -> t = q + r * (- w / N) -> t = s). { intros p q r s t -> -> ->. field. lra. }
      apply V3_eq; cbn [vx vy vz add3 sub3 scale3 nadd nsub nmul Num_R].
      + eapply Hd; [exact X|field; lra|done].
      + eapply Hd; [exact Y|field; lra|done].
      + eapply Hd; [exact Z|field; lra|done].
  Qed.
End mray.
