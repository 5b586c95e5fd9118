(** The quadratic behind rays against cylinders and capsules, with IEEE special values. *)
From Coq Require Import Psatz.
From stdpp Require Import prelude.
From Coq Require Import Reals Lra.
From Verif Require Import Res Num Vec AabbModel GeoModel RealGeo Xr PropsRayBox PrimModel ShapeSpec RaySpec.
Local Open Scope R_scope.

(** [Q < 0]: strictly inside the infinite cylinder of radius [rd] around the y axis. *)
Definition Qc (rd : R) (p : P3) : R := vx p * vx p + vz p * vz p - rd * rd.
Definition level (r : Ray P3) : R := vx (direction r) * vx (direction r) + vz (direction r) * vz (direction r).
Definition roots (rd : R) (q : Ray P3) (u1 u2 : R) : Prop :=
  u2 <= u1 /\ forall t, Qc rd (along3 q t) = level q * ((t - u1) * (t - u2)).

Ltac xn := cbn [nadd nsub nmul ndiv nneg nsqrt nlt nle neq vx vy vz Num_xr].
Ltac fin := repeat first [eassumption | apply fin_add | apply fin_sub | apply fin_mul | apply fin_neg | (eexists; reflexivity)].
Lemma fin_two : is_fin (two : xr) 2.
Proof. unfold two. replace 2 with (1 + 1) by lra. apply fin_add; eexists; reflexivity. Qed.
Lemma Qc_along rd q t : Qc rd (along3 q t) =
  level q * (t * t) + 2 * (vx (direction q) * vx (origin q) + vz (direction q) * vz (origin q)) * t + Qc rd (origin q).
Proof. unfold Qc, level, along3. cbn. ring. Qed.

Section solve.
  Context (r : Ray (V3 xr)) (q : Ray P3) (rad : xr) (rd : R).
  Context (Hr : fin_ray3 r q) (Hrad : is_fin rad rd).
  Lemma cyl_solve_spec : 0 < level q ->
    match cyl_solve r rad with
    | None => forall t, 0 < Qc rd (along3 q t)
    | Some (t1, t2) => exists u1 u2, is_fin t1 u1 /\ is_fin t2 u2 /\ roots rd q u1 u2
    end.
  Proof.
    intros Ha. destruct Hr as [(Ox & Oy & Oz) (Dx & Dy & Dz)]. unfold cyl_solve.
    set (b' := 2 * (vx (direction q) * vx (origin q) + vz (direction q) * vz (origin q))).
    set (c' := Qc rd (origin q)).
    set (A := nadd (nmul (vx (direction r)) (vx (direction r))) (nmul (vz (direction r)) (vz (direction r)))).
    set (B := nmul two (nadd (nmul (vx (direction r)) (vx (origin r))) (nmul (vz (direction r)) (vz (origin r))))).
    set (C := nsub (nadd (nmul (vx (origin r)) (vx (origin r))) (nmul (vz (origin r)) (vz (origin r)))) (nmul rad rad)).
    assert (FA : is_fin A (level q)) by (unfold A, level; xn; fin).
    assert (FB : is_fin B b') by (unfold B, b'; xn; apply fin_mul; [apply fin_two|fin]).
    assert (FC : is_fin C c') by (unfold C, c', Qc; xn; fin).
    pose proof fin_two as F2.
    set (D := nsub (nmul B B) (nmul (nmul (nadd two two) A) C)).
    assert (FD : is_fin D (b' * b' - 4 * level q * c')).
    { unfold D. replace 4 with (2 + 2) by lra. xn. fin. }
    cbn zeta. replace (nlt D n0) with (Rltb (b' * b' - 4 * level q * c') 0).
    2:{ symmetry. apply fin_lt; [done|eexists; reflexivity]. }
    set (al := level q) in *.
    assert (EQ : forall t, 4 * al * Qc rd (along3 q t) = (2 * al * t + b') * (2 * al * t + b') - (b' * b' - 4 * al * c')).
    { intros t. rewrite Qc_along. fold al b' c'. ring. }
    destruct (Rltb (b' * b' - 4 * al * c') 0) eqn:E.
    - apply Rltb_true in E. intros t. specialize (EQ t). pose proof (Rle_0_sqr (2 * al * t + b')) as Hs. unfold Rsqr in Hs.
      assert (0 < al * Qc rd (along3 q t)) by lra. nra.
    - apply Rltb_false in E. pose proof (sqrt_sqrt _ E) as Hss. pose proof (sqrt_pos (b' * b' - 4 * al * c')) as Hsp.
      pose proof (fin_sqrt D _ E FD) as FS. set (s := sqrt _) in *.
      exists ((- b' + s) / (2 * al)), ((- b' - s) / (2 * al)).
      assert (Fa2 : is_fin (nmul two A) (2 * al)) by (xn; fin). assert (2 * al <> 0) by lra.
      split; [|split].
      + apply fin_div; [done| |done]. xn. fin.
      + apply fin_div; [done| |done]. xn. fin.
      + split.
        * apply Rmult_le_compat_r; [left; apply Rinv_0_lt_compat; lra|lra].
        * intros t. apply (Rmult_eq_reg_l (4 * al)); [|lra]. rewrite EQ, <- Hss. fold al. field. lra.
  Qed.
  Lemma pick_root_spec (t1 t2 : xr) u1 u2 : is_fin t1 u1 -> is_fin t2 u2 -> u2 <= u1 ->
    match pick_root t1 t2 with
    | None => u1 < 0
    | Some t => 0 <= u1 /\ is_fin t (if Rlt_dec u2 0 then u1 else u2)
    end.
  Proof.
    intros F1 F2 Hle. unfold pick_root.
    replace (nlt t1 n0) with (Rltb u1 0) by (symmetry; apply fin_lt; [done|eexists; reflexivity]).
    replace (nlt t2 n0) with (Rltb u2 0) by (symmetry; apply fin_lt; [done|eexists; reflexivity]).
    destruct (Rltb u1 0) eqn:E1; [apply Rltb_true in E1|apply Rltb_false in E1].
    - rewrite (proj2 (Rltb_true u2 0)) by lra. cbn. done.
    - cbn [andb]. split; [done|]. destruct (Rltb u2 0) eqn:E2; [apply Rltb_true in E2|apply Rltb_false in E2].
      + destruct (Rlt_dec u2 0); [done|lra].
      + destruct (Rlt_dec u2 0); [lra|]. replace u2 with (Rmin u1 u2) by (apply Rmin_right; lra). by apply fin_fmin.
  Qed.
  Lemma fin_pt t u : is_fin t u -> fin3 (ray_pt3 r t) (along3 q u).
  Proof.
    destruct Hr as [(Ox & Oy & Oz) (Dx & Dy & Dz)]. intros Ft. unfold ray_pt3, along3, add3, scale3. split; [|split]; xn; fin.
  Qed.
  Lemma in_disc_fin t u : is_fin t u -> in_disc rad (ray_pt3 r t) = Rltb (Qc rd (along3 q u)) 0.
  Proof.
    intros Ft. destruct (fin_pt t u Ft) as (Fx & Fy & Fz). unfold in_disc.
    transitivity (Rltb (vx (along3 q u) * vx (along3 q u) + vz (along3 q u) * vz (along3 q u)) (rd * rd)).
    - apply fin_lt; xn; fin.
    - unfold Qc. match goal with |- Rltb ?a ?b = Rltb ?c ?d => destruct (Rltb a b) eqn:E1; [apply Rltb_true in E1|apply Rltb_false in E1];
        symmetry; [apply Rltb_true|apply Rltb_false]; lra end.
  Qed.
  Lemma xadd_nonfin x y : (forall a, ~ is_fin x a) -> forall a, ~ is_fin (xadd x y) a.
  Proof.
    intros Hx a [s E]. destruct x as [sx vx|sx|]; [by destruct (Hx vx); exists sx| |by destruct y].
    destruct y as [sy vy|sy|]; cbn in E; [done| |done]. by destruct (Bool.eqb sx sy).
  Qed.
  Lemma xsqr_nonfin x : (forall a, ~ is_fin x a) -> x = XNaN \/ xmul x x = XInf false.
  Proof. intros Hx. destruct x as [sx vx|sx|]; [by destruct (Hx vx); exists sx|right; cbn; by destruct sx|by left]. Qed.
  Lemma xsqr_cases x : xmul x x = XNaN \/ xmul x x = XInf false \/ exists a, is_fin (xmul x x) a.
  Proof. destruct x as [sx vx|sx|]; cbn; [right; right; eexists; eexists; done|right; left; by destruct sx|by left]. Qed.
  (** A point at an infinite or undefined parameter is in no disc. *)
  Lemma in_disc_nonfin t : 0 < level q -> (forall a, ~ is_fin t a) -> in_disc rad (ray_pt3 r t) = false.
  Proof.
    intros Ha Ht. destruct Hr as [(Ox & Oy & Oz) (Dx & Dy & Dz)]. unfold in_disc, ray_pt3, add3, scale3. cbn [vx vy vz].
    assert (Hpart : forall o d o' d', is_fin o o' -> is_fin d d' -> let x := nadd o (nmul d t) in
      xmul x x = XNaN \/ xmul x x = XInf false).
    { intros o d o' d' [so ->] [sd ->]. cbn. destruct t as [st vt|st|]; [by destruct (Ht vt); exists st| |].
      - cbn. destruct (Rzero d'); [by left|]. cbn. right. f_equal. apply xorb_nilpotent.
      - cbn. by left. }
    pose proof (Hpart _ _ _ _ Ox Dx) as Px. pose proof (Hpart _ _ _ _ Oz Dz) as Pz. cbn zeta in Px, Pz. destruct Hrad as [sr ->].
    cbn [nlt nadd nmul Num_xr] in *. destruct Px as [-> | ->]; [done|]. destruct Pz as [-> | ->]; done.
  Qed.
End solve.
