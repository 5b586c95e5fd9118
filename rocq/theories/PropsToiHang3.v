(** C66 in space: [intersection_time_of_impact] need not end, in floating point and in exact
    arithmetic. *)
From Coq Require Import Psatz.
From stdpp Require Import prelude.
From Flocq Require Import IEEE754.BinarySingleNaN.
From Verif Require Import Res Num Vec AabbModel GeoModel PrimModel ShapeSpec PropsSupport MinkModel PropsEpa2 PropsGjk2 Gjk3 PropsGjk3 PropsDist PropsToi PropsToiHang.
Local Existing Instance Num_float.
Local Existing Instance NumSgn_float.

(** The bit-level content of a float and of the loop's state: equal contents, equal states. *)
Definition vsf3 (v : V3 f32) := (B2SF (vx v), B2SF (vy v), B2SF (vz v)).
Lemma vsf3_inj v w : vsf3 v = vsf3 w -> v = w.
Proof.
  destruct v as [a b c], w as [d e f]. unfold vsf3. cbn [vx vy vz]. intros E.
  assert (E1 : B2SF a = B2SF d) by exact (f_equal (fun x => x.1.1) E). assert (E2 : B2SF b = B2SF e) by exact (f_equal (fun x => x.1.2) E).
  assert (E3 : B2SF c = B2SF f) by exact (f_equal snd E). apply B2SF_inj in E1, E2, E3. by subst.
Qed.
Definition ssf3 (p : SupPt (V3 f32)) := (vsf3 (sp_v p), vsf3 (sp_a p), vsf3 (sp_b p)).
Lemma ssf3_inj p q : ssf3 p = ssf3 q -> p = q.
Proof.
  destruct p as [a b c], q as [d e f]. unfold ssf. cbn [sp_v sp_a sp_b]. intros E.
  assert (E1 : vsf3 a = vsf3 d) by exact (f_equal (fun x => fst (fst x)) E). assert (E2 : vsf3 b = vsf3 e) by exact (f_equal (fun x => snd (fst x)) E).
  assert (E3 : vsf3 c = vsf3 f) by exact (f_equal snd E). apply vsf3_inj in E1, E2, E3. by subst.
Qed.
Definition tstate3 : Type := f32 * V3 f32 * V3 f32 * list (SupPt (V3 f32)) * V3 f32.
Definition tsf3 (s : tstate3) := let '(l, n, ro, ss, v) := s in (B2SF l, vsf3 n, vsf3 ro, map ssf3 ss, vsf3 v).
Lemma tsf3_inj s t : tsf3 s = tsf3 t -> s = t.
Proof.
  destruct s as [[[[l n] ro] ss] v], t as [[[[l' n'] ro'] ss'] v']. cbn [tsf]. intros E.
  assert (E1 : B2SF l = B2SF l') by exact (f_equal (fun x => x.1.1.1.1) E).
  assert (E2 : vsf3 n = vsf3 n') by exact (f_equal (fun x => x.1.1.1.2) E).
  assert (E3 : vsf3 ro = vsf3 ro') by exact (f_equal (fun x => x.1.1.2) E).
  assert (E4 : map ssf3 ss = map ssf3 ss') by exact (f_equal (fun x => x.1.2) E).
  assert (E5 : vsf3 v = vsf3 v') by exact (f_equal (fun x => x.2) E).
  apply B2SF_inj in E1. apply vsf3_inj in E2, E3, E5. subst. f_equal. f_equal.
  clear E. revert ss' E4. induction ss as [|p ss IH]; intros [|q ss'] E4; try done. cbn [map] in E4.
  assert (Ep : ssf3 p = ssf3 q) by exact (f_equal (fun x => match x with [] => ssf3 p | y :: _ => y end) E4).
  assert (Es : map ssf3 ss = map ssf3 ss') by exact (f_equal (fun x => match x with [] => map ssf3 ss | _ :: y => y end) E4).
  apply ssf3_inj in Ep. subst. f_equal. by apply IH.
Qed.

Section hang3.
  Context (eps tenth tol : f32) (supL supR : V3 f32 -> res (V3 f32)) (ray : V3 f32).
  Notation loop := (toi_loop sub3 neg3 scale3 dot3 supL supR (closest3 eps tenth)).
  Definition run3 (fuel : nat) (s : tstate3) := let '(l, n, ro, ss, v) := s in loop fuel tol ray l n ro ss v.
  (** One turn of the loop that does not end it. *)
  Definition turn3 (s : tstate3) : option tstate3 :=
    let '(l, n, ro, ss, v) := s in
    if nlt tol (dot3 v v) then
      match mink sub3 neg3 supL supR (neg3 v) with
      | Ok p =>
          let vp := dot3 v (sp_v p) in let vr := dot3 v ray in
          let go l n ro ss := match closest3 eps tenth (ss ++ [sup_sub sub3 p ro]) with Ok (ss', v') => Some (l, n, ro, ss', v') | _ => None end in
          if nlt (nmul l vr) vp then
            if nlt n0 vr then let l := ndiv vp vr in if nlt n1 l then None else go l (neg3 v) (scale3 ray l) [] else None
          else go l n ro ss
      | _ => None
      end
    else None.
  Lemma run_turn3 fuel s t : turn3 s = Some t -> run3 (Datatypes.S fuel) s = run3 fuel t /\ run3 0 s = OutOfFuel.
  Proof.
    destruct s as [[[[l n] ro] ss] v]. unfold turn3, run3. cbn [toi_loop].
    destruct (nlt tol (dot3 v v)); [|done].
    destruct (mink _ _ _ _ _) as [p| |]; cbn [mbind res_mbind res_bind]; [|done|done]. cbv zeta.
    destruct (nlt _ (dot3 v (sp_v p))).
    - destruct (nlt n0 (dot3 v ray)); [|done]. destruct (nlt n1 _); [done|].
      destruct (closest3 _ _ _) as [[ss' v']| |]; cbn [mbind res_mbind res_bind]; [|done|done]. intros E. apply (inj Some) in E. by subst.
    - destruct (closest3 _ _ _) as [[ss' v']| |]; cbn [mbind res_mbind res_bind]; [|done|done]. intros E. apply (inj Some) in E. by subst.
  Qed.
  Fixpoint turns3 (k : nat) (s : tstate3) : option tstate3 :=
    match k with O => Some s | Datatypes.S k => match turn3 s with Some t => turns3 k t | None => None end end.
  Lemma run_turns3 k : forall s t, turns3 k s = Some t -> forall fuel, (fuel < k)%nat -> run3 fuel s = OutOfFuel.
  Proof.
    induction k as [|k IH]; intros s t E fuel Hf; [lia|]. cbn [turns3] in E. destruct (turn3 s) as [u|] eqn:Eu; [|done].
    destruct fuel as [|fuel]; [by apply (run_turn3 0 s u)|]. destruct (run_turn3 fuel s u Eu) as [-> _]. apply (IH u t); [done|lia].
  Qed.
  Lemma turns_plus3 j : forall k s t, turns3 j s = Some t -> turns3 (j + k) s = turns3 k t.
  Proof.
    induction j as [|j IH]; intros k s t E; [by apply (inj Some) in E; subst|]. cbn [turns3 Nat.add] in E |- *.
    destruct (turn3 s) as [u|]; [|done]. by apply IH.
  Qed.
  (** A state that comes back: the loop never ends. *)
  Lemma run_forever3 j k s t : (0 < k)%nat -> turns3 j s = Some t -> turns3 k t = Some t -> forall fuel, run3 fuel s = OutOfFuel.
  Proof.
    intros Hk Hj Hkt fuel.
    assert (Hm : forall m, turns3 (m * k) t = Some t).
    { induction m as [|m IH]; [done|]. cbn [Nat.mul]. by rewrite (turns_plus3 k (m * k) t t). }
    apply (run_turns3 (j + (Datatypes.S fuel) * k) s t); [by rewrite (turns_plus3 j _ s t)|nia].
  Qed.
End hang3.

(** The state after [j] turns3 is the state after [j + k] turns3. *)
Definition comes_back3 (eps tenth tol : f32) (supL supR : V3 f32 -> res (V3 f32)) (lvel rvel : V3 f32) (j k : nat) : Prop :=
  match mink sub3 neg3 supL supR (neg3 (sub3 rvel lvel)) with
  | Ok p =>
      match turns3 eps tenth tol supL supR (sub3 rvel lvel) j (n0, zero3, zero3, [], sp_v p) with
      | Some t => match turns3 eps tenth tol supL supR (sub3 rvel lvel) k t with Some u => tsf3 u = tsf3 t | None => False end
      | None => False
      end
  | _ => False
  end.
Lemma comes_back_hang3 eps tenth tol supL supR lvel rvel j k interp : (0 < k)%nat -> comes_back3 eps tenth tol supL supR lvel rvel j k ->
  forall fuel, gjk3_toi eps tenth supL supR fuel tol lvel rvel interp = OutOfFuel.
Proof.
  intros Hk H fuel. unfold comes_back3 in H. unfold gjk3_toi, gjk_toi. cbv zeta.
  destruct (mink _ _ _ _ _) as [p| |]; [|done|done]. cbn [mbind res_mbind res_bind].
  destruct (turns3 _ _ _ _ _ _ j _) as [t|] eqn:Ej; [|done]. destruct (turns3 _ _ _ _ _ _ k t) as [u|] eqn:Ek; [|done].
  apply tsf3_inj in H. subst u.
  pose proof (run_forever3 eps tenth tol supL supR (sub3 rvel lvel) j k _ t Hk Ej Ek fuel) as Hr. unfold run3 in Hr. by rewrite Hr.
Qed.
(** A tetrahedron at the origin, at rest, and a particle at (4, -4, -4) that moves by (-7, 5, 7);
    single precision, the default tolerance 0.000001.  They meet at 7/11. *)
Definition f3 (a b c : Z) : V3 f32 := mk3 (F32 a 0) (F32 b 0) (F32 c 0).
Definition htet (d : V3 f32) := hull_support [f3 1 (-1) 1; f3 2 0 (-2); f3 (-1) (-1) 1; f3 0 2 (-2)] d (cube_at 0 0 0).
Definition hpart (d : V3 f32) := particle_support zero3 (cube_at 4 (-4) (-4)).
Theorem C66_never_returns3_refuted interp fuel :
  gjk3_toi (F32 1 (-23)) tenth32 htet hpart fuel tol32 (f3 0 0 0) (f3 (-7) 5 7) interp = OutOfFuel.
Proof. apply (comes_back_hang3 _ _ _ _ _ _ _ 11 4); [lia|]. by vm_compute. Qed.
