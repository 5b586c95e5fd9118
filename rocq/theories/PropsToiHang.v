(** C66: the loop of [intersection_time_of_impact] need not end in floating point. *)
From Coq Require Import Psatz.
From stdpp Require Import prelude.
From Flocq Require Import IEEE754.BinarySingleNaN.
From Verif Require Import Res Num Vec AabbModel GeoModel PrimModel ShapeSpec PropsSupport MinkModel PropsEpa2 PropsGjk2 Gjk3 PropsGjk3 PropsDist PropsToi.
Local Existing Instance Num_float.
Local Existing Instance NumSgn_float.

(** The bit-level content of a float and of the loop's state: equal contents, equal states. *)
Definition vsf (v : V2 f32) := (B2SF (ux v), B2SF (uy v)).
Lemma vsf_inj v w : vsf v = vsf w -> v = w.
Proof.
  destruct v as [a b], w as [c d]. unfold vsf. cbn [ux uy]. intros E.
  assert (E1 : B2SF a = B2SF c) by exact (f_equal fst E). assert (E2 : B2SF b = B2SF d) by exact (f_equal snd E).
  apply B2SF_inj in E1, E2. by subst.
Qed.
Definition ssf (p : SupPt (V2 f32)) := (vsf (sp_v p), vsf (sp_a p), vsf (sp_b p)).
Lemma ssf_inj p q : ssf p = ssf q -> p = q.
Proof.
  destruct p as [a b c], q as [d e f]. unfold ssf. cbn [sp_v sp_a sp_b]. intros E.
  assert (E1 : vsf a = vsf d) by exact (f_equal (fun x => fst (fst x)) E). assert (E2 : vsf b = vsf e) by exact (f_equal (fun x => snd (fst x)) E).
  assert (E3 : vsf c = vsf f) by exact (f_equal snd E). apply vsf_inj in E1, E2, E3. by subst.
Qed.
Definition tstate : Type := f32 * V2 f32 * V2 f32 * list (SupPt (V2 f32)) * V2 f32.
Definition tsf (s : tstate) := let '(l, n, ro, ss, v) := s in (B2SF l, vsf n, vsf ro, map ssf ss, vsf v).
Lemma tsf_inj s t : tsf s = tsf t -> s = t.
Proof.
  destruct s as [[[[l n] ro] ss] v], t as [[[[l' n'] ro'] ss'] v']. cbn [tsf]. intros E.
  assert (E1 : B2SF l = B2SF l') by exact (f_equal (fun x => x.1.1.1.1) E).
  assert (E2 : vsf n = vsf n') by exact (f_equal (fun x => x.1.1.1.2) E).
  assert (E3 : vsf ro = vsf ro') by exact (f_equal (fun x => x.1.1.2) E).
  assert (E4 : map ssf ss = map ssf ss') by exact (f_equal (fun x => x.1.2) E).
  assert (E5 : vsf v = vsf v') by exact (f_equal (fun x => x.2) E).
  apply B2SF_inj in E1. apply vsf_inj in E2, E3, E5. subst. f_equal. f_equal.
  clear E. revert ss' E4. induction ss as [|p ss IH]; intros [|q ss'] E4; try done. cbn [map] in E4.
  assert (Ep : ssf p = ssf q) by exact (f_equal (fun x => match x with [] => ssf p | y :: _ => y end) E4).
  assert (Es : map ssf ss = map ssf ss') by exact (f_equal (fun x => match x with [] => map ssf ss | _ :: y => y end) E4).
  apply ssf_inj in Ep. subst. f_equal. by apply IH.
Qed.

Section hang.
  Context (eps tol : f32) (supL supR : V2 f32 -> res (V2 f32)) (ray : V2 f32).
  Notation loop := (toi_loop sub2 neg2 scale2 dot2 supL supR (closest2 eps)).
  Definition run (fuel : nat) (s : tstate) := let '(l, n, ro, ss, v) := s in loop fuel tol ray l n ro ss v.
  (** One turn of the loop that does not end it. *)
  Definition turn (s : tstate) : option tstate :=
    let '(l, n, ro, ss, v) := s in
    if nlt tol (dot2 v v) then
      match mink sub2 neg2 supL supR (neg2 v) with
      | Ok p =>
          let vp := dot2 v (sp_v p) in let vr := dot2 v ray in
          let go l n ro ss := match closest2 eps (ss ++ [sup_sub sub2 p ro]) with Ok (ss', v') => Some (l, n, ro, ss', v') | _ => None end in
          if nlt (nmul l vr) vp then
            if nlt n0 vr then let l := ndiv vp vr in if nlt n1 l then None else go l (neg2 v) (scale2 ray l) [] else None
          else go l n ro ss
      | _ => None
      end
    else None.
  Lemma run_turn fuel s t : turn s = Some t -> run (Datatypes.S fuel) s = run fuel t /\ run 0 s = OutOfFuel.
  Proof.
    destruct s as [[[[l n] ro] ss] v]. unfold turn, run. cbn [toi_loop].
    destruct (nlt tol (dot2 v v)); [|done].
    destruct (mink _ _ _ _ _) as [p| |]; cbn [mbind res_mbind res_bind]; [|done|done]. cbv zeta.
    destruct (nlt _ (dot2 v (sp_v p))).
    - destruct (nlt n0 (dot2 v ray)); [|done]. destruct (nlt n1 _); [done|].
      destruct (closest2 _ _) as [[ss' v']| |]; cbn [mbind res_mbind res_bind]; [|done|done]. intros E. apply (inj Some) in E. by subst.
    - destruct (closest2 _ _) as [[ss' v']| |]; cbn [mbind res_mbind res_bind]; [|done|done]. intros E. apply (inj Some) in E. by subst.
  Qed.
  Fixpoint turns (k : nat) (s : tstate) : option tstate :=
    match k with O => Some s | Datatypes.S k => match turn s with Some t => turns k t | None => None end end.
  Lemma run_turns k : forall s t, turns k s = Some t -> forall fuel, (fuel < k)%nat -> run fuel s = OutOfFuel.
  Proof.
    induction k as [|k IH]; intros s t E fuel Hf; [lia|]. cbn [turns] in E. destruct (turn s) as [u|] eqn:Eu; [|done].
    destruct fuel as [|fuel]; [by apply (run_turn 0 s u)|]. destruct (run_turn fuel s u Eu) as [-> _]. apply (IH u t); [done|lia].
  Qed.
  Lemma turns_plus j : forall k s t, turns j s = Some t -> turns (j + k) s = turns k t.
  Proof.
    induction j as [|j IH]; intros k s t E; [by apply (inj Some) in E; subst|]. cbn [turns Nat.add] in E |- *.
    destruct (turn s) as [u|]; [|done]. by apply IH.
  Qed.
  (** A state that comes back: the loop never ends. *)
  Lemma run_forever j k s t : (0 < k)%nat -> turns j s = Some t -> turns k t = Some t -> forall fuel, run fuel s = OutOfFuel.
  Proof.
    intros Hk Hj Hkt fuel.
    assert (Hm : forall m, turns (m * k) t = Some t).
    { induction m as [|m IH]; [done|]. cbn [Nat.mul]. by rewrite (turns_plus k (m * k) t t). }
    apply (run_turns (j + (Datatypes.S fuel) * k) s t); [by rewrite (turns_plus j _ s t)|nia].
  Qed.
End hang.

(** A rectangle 0.125 x 384 at the origin, at rest, and a rectangle 32 x 4 at (102, -108)
    that moves by (-108, 256); single precision, the default tolerance 0.000001. *)
Definition tall (d : V2 f32) := rect_support (mk2 (F32 1 (-3)) (F32 384 0)) d (frect_at 0 0).
Definition wide (d : V2 f32) := rect_support (mk2 (F32 32 0) (F32 4 0)) d (frect_at 102 (-108)).
Definition tol32 : f32 := F32 0x8637bd (-43).
(** The state after [j] turns is the state after [j + k] turns. *)
Definition comes_back (eps tol : f32) (supL supR : V2 f32 -> res (V2 f32)) (lvel rvel : V2 f32) (j k : nat) : Prop :=
  match mink sub2 neg2 supL supR (neg2 (sub2 rvel lvel)) with
  | Ok p =>
      match turns eps tol supL supR (sub2 rvel lvel) j (n0, zero2, zero2, [], sp_v p) with
      | Some t => match turns eps tol supL supR (sub2 rvel lvel) k t with Some u => tsf u = tsf t | None => False end
      | None => False
      end
  | _ => False
  end.
Lemma comes_back_hang eps tol supL supR lvel rvel j k interp : (0 < k)%nat -> comes_back eps tol supL supR lvel rvel j k ->
  forall fuel, gjk2_toi eps supL supR fuel tol lvel rvel interp = OutOfFuel.
Proof.
  intros Hk H fuel. unfold comes_back in H. unfold gjk2_toi, gjk_toi. cbv zeta.
  destruct (mink _ _ _ _ _) as [p| |]; [|done|done]. cbn [mbind res_mbind res_bind].
  destruct (turns _ _ _ _ _ j _) as [t|] eqn:Ej; [|done]. destruct (turns _ _ _ _ _ k t) as [u|] eqn:Ek; [|done].
  apply tsf_inj in H. subst u.
  pose proof (run_forever eps tol supL supR (sub2 rvel lvel) j k _ t Hk Ej Ek fuel) as Hr. unfold run in Hr. by rewrite Hr.
Qed.
(** However long it runs, [intersection_time_of_impact] does not answer. *)
Theorem C66_never_returns_refuted interp fuel :
  gjk2_toi (F32 1 (-23)) tall wide fuel tol32 (f2 0 0) (f2 (-108) 256) interp = OutOfFuel.
Proof. apply (comes_back_hang _ _ _ _ _ _ 4 2); [lia|]. by vm_compute. Qed.

(** ** In space the query can panic *)
(** Cuboids 2 x 24 x 48 at the origin and 8 x 16 x 1 at (-98, 55, -22), the second moving by
    (172, -76, 86): they meet at about 0.54, but rounding puts a barycentric coordinate of
    the nearest point of a face at about -0.00008, and an assertion demands [0, 1]. *)
Definition z3 : V3 f32 := mk3 (F32 0 0) (F32 0 0) (F32 0 0).
Definition slab (d : V3 f32) := cuboid_support (mk3 (F32 2 0) (F32 24 0) (F32 48 0)) d (cube_at 0 0 0).
Definition plate (d : V3 f32) := cuboid_support (mk3 (F32 8 0) (F32 16 0) (F32 1 0)) d (cube_at (-98) 55 (-22)).
Theorem C66_assertion_panics_refuted interp :
  gjk3_toi (F32 1 (-23)) tenth32 slab plate 100 tol32 z3 (mk3 (F32 172 0) (F32 (-76) 0) (F32 86 0)) interp = Panic.
Proof. by vm_compute. Qed.
(** Cuboids 0.375 x 12 x 1 at the origin and 16 x 16 x 96 at (28, 12, -17), the second moving
    by (-34, 3.4375, -37): a face with two equal corners has no plane. *)
Definition rod (d : V3 f32) := cuboid_support (mk3 (F32 3 (-3)) (F32 12 0) (F32 1 0)) d (cube_at 0 0 0).
Definition beam (d : V3 f32) := cuboid_support (mk3 (F32 16 0) (F32 16 0) (F32 96 0)) d (cube_at 28 12 (-17)).
Theorem C66_flat_face_panics_refuted interp :
  gjk3_toi (F32 1 (-23)) tenth32 rod beam 100 tol32 z3 (mk3 (F32 (-34) 0) (F32 55 (-4)) (F32 (-37) 0)) interp = Panic.
Proof. by vm_compute. Qed.
