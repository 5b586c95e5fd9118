(** C64: GJK and EPA in the plane in exact arithmetic with IEEE's special values: where the code divides zero by zero
    (an edge on a line through the origin), NaN appears, as it does in floats. *)
From Coq Require Import Psatz.
From stdpp Require Import prelude.
From Coq Require Import Reals Lra.
From Verif Require Import Res Num Xr Vec AabbModel GeoModel RealGeo PrimModel ShapeSpec PropsSupport MinkModel MinkSpec Gjk2 PropsGjk2 Epa2 PropsEpa2 PrimEnum.
Local Open Scope R_scope.

(** * The specification *)
(** A vector, a support point, a contact of finite numbers. *)
Definition fin2 (x : V2 xr) (v : P2) : Prop := is_fin (ux x) (ux v) /\ is_fin (uy x) (uy v).
Definition finp (x : SupPt (V2 xr)) (p : SupPt P2) : Prop := fin2 (sp_v x) (sp_v p) /\ fin2 (sp_a x) (sp_a p) /\ fin2 (sp_b x) (sp_b p).
Definition finc (x : Contact xr (V2 xr)) (c : Contact R P2) : Prop :=
  c_strategy x = c_strategy c /\ fin2 (c_normal x) (c_normal c) /\ is_fin (c_depth x) (c_depth c) /\ fin2 (c_point x) (c_point c) /\ is_fin (c_toi x) (c_toi c).
(** The same support function, on numbers with special values and on real numbers. *)
Definition tracks (supx : V2 xr -> res (V2 xr)) (sup : P2 -> res P2) : Prop :=
  forall dx d, fin2 dx d -> d <> zero2 -> exists px p, supx dx = Ok px /\ sup d = Ok p /\ fin2 px p.
(** A contact that holds: a unit normal, a positive depth, and a point of the first shape lying [depth] deep along the
    normal from a point of the second. *)
Definition true_contact2 (A B : P2 -> Prop) (ct : Contact R P2) : Prop :=
  c_strategy ct = FullResolution /\ c_toi ct = 0 /\ mag2 (c_normal ct) = 1 /\ 0 < c_depth ct /\
  A (c_point ct) /\ exists y, B y /\ dot2 (c_normal ct) (sub2 (c_point ct) y) = c_depth ct.

(** * Finite numbers *)
Lemma sadd x y a b : is_fin x a -> is_fin y b -> is_fin (nadd x y) (nadd a b). Proof. apply fin_add. Qed.
Lemma ssub x y a b : is_fin x a -> is_fin y b -> is_fin (nsub x y) (nsub a b). Proof. apply fin_sub. Qed.
Lemma smul x y a b : is_fin x a -> is_fin y b -> is_fin (nmul x y) (nmul a b). Proof. apply fin_mul. Qed.
Lemma sneg x a : is_fin x a -> is_fin (nneg x) (nneg a). Proof. apply fin_neg. Qed.
Lemma sabs x a : is_fin x a -> is_fin (nabs x) (nabs a). Proof. apply fin_abs. Qed.
Lemma s0 : is_fin n0 n0. Proof. by eexists. Qed.
Lemma s1 : is_fin n1 n1. Proof. by eexists. Qed.
Lemma sdiv x y a b : b <> 0 -> is_fin x a -> is_fin y b -> is_fin (ndiv x y) (ndiv a b). Proof. apply fin_div. Qed.
Lemma slt x y a b : is_fin x a -> is_fin y b -> nlt x y = nlt a b. Proof. apply fin_lt. Qed.
Lemma sle x y a b : is_fin x a -> is_fin y b -> nle x y = nle a b. Proof. apply fin_le. Qed.
Global Hint Resolve sadd ssub smul sneg sabs s0 s1 : fin.
Ltac fin2_ := unfold fin2, dot2, triple, sub2, add2, neg2, scale2, perp_dot, mag2_2 in *; cbn [ux uy] in *; intuition auto 12 with fin.
Lemma f_sub x y a b : fin2 x a -> fin2 y b -> fin2 (sub2 x y) (sub2 a b). Proof. intros [? ?] [? ?]. fin2_. Qed.
Lemma f_add x y a b : fin2 x a -> fin2 y b -> fin2 (add2 x y) (add2 a b). Proof. intros [? ?] [? ?]. fin2_. Qed.
Lemma f_neg x a : fin2 x a -> fin2 (neg2 x) (neg2 a). Proof. intros [? ?]. fin2_. Qed.
Lemma f_scale x a s r : fin2 x a -> is_fin s r -> fin2 (scale2 x s) (scale2 a r). Proof. intros [? ?] ?. fin2_. Qed.
Lemma f_dot x y a b : fin2 x a -> fin2 y b -> is_fin (dot2 x y) (dot2 a b). Proof. intros [? ?] [? ?]. fin2_. Qed.
Lemma f_triple x y z a b c : fin2 x a -> fin2 y b -> fin2 z c -> fin2 (triple x y z) (triple a b c). Proof. intros [? ?] [? ?] [? ?]. unfold triple. cbn [ux uy]. split; cbn [ux uy]; auto 10 with fin. Qed.
Lemma f_zero : fin2 zero2 zero2. Proof. split; apply s0. Qed.
Lemma f_one : fin2 (mk2 n1 n1) (mk2 1 1). Proof. split; apply s1. Qed.
Lemma f_near x a ex e : fin2 x a -> is_fin ex e -> near0_2 ex x = near0_2 e a.
Proof. intros [? ?] ?. unfold near0_2, near0. f_equal; apply sle; auto with fin. Qed.
Lemma f_mag x a : fin2 x a -> is_fin (mag2 x) (mag2 a).
Proof. intros Hx. apply fin_sqrt; [exact (dot2_nonneg a)|]. by apply f_dot. Qed.
Lemma f_normalize x a : fin2 x a -> a <> zero2 -> fin2 (normalize2 x) (normalize2 a).
Proof. intros Hx Ha. apply f_scale; [done|]. apply sdiv; [|apply s1|by apply f_mag]. pose proof (mag2_pos a Ha). lra. Qed.
Global Hint Resolve f_sub f_add f_neg f_scale f_dot f_triple f_zero : fin.
(** Zero over zero. *)
Lemma normalize_zero x : fin2 x zero2 -> ux (normalize2 x) = XNaN /\ uy (normalize2 x) = XNaN.
Proof.
  intros [[s1 E1] [s2 E2]]. cbn [ux uy zero2] in E1, E2. destruct x as [x y]. cbn [ux uy] in E1, E2. subst.
  assert (Hm : exists s, mag2 (mk2 (XFin s1 n0) (XFin s2 n0)) = XFin s 0).
  { destruct (f_mag (mk2 (XFin s1 n0) (XFin s2 n0)) zero2) as [s E]; [by split; eexists|]. exists s. rewrite E. f_equal.
    unfold mag2. cbn [nsqrt Num_R]. replace (mag2_2 (zero2 : P2)) with 0 by (clear; unfold zero2; rv0; ring). apply sqrt_0. }
  destruct Hm as [s Em]. unfold normalize2, scale2. rewrite Em. cbn [ux uy nmul ndiv n1 n0 Num_xr Num_R].
  assert (Rzero 0 = true) as Z by by apply Rzero_true. assert (Rzero 1 = false) as O by (apply Rzero_false; lra).
  unfold xdiv. rewrite Z, O. unfold xmul. rewrite Z. done.
Qed.

Ltac f2_ := repeat (apply List.Forall2_cons; [done|]); done || apply List.Forall2_nil.
(** * The intersection test *)
Definition rel_out (ox : gjk_out (V2 xr)) (o : gjk_out P2) : Prop :=
  match ox, o with Hit sx, Hit s => Forall2 finp sx s | Separated, Separated | Exhausted, Exhausted => True | _, _ => False end.
(** Some edge does not point at the origin. *)
Definition some_edge (l : list (SupPt P2)) : Prop := exists k a b, Ed l k a b /\ perp_dot (sp_v a) (sp_v b) <> 0.
Lemma tri_some_edge (c b a : SupPt P2) d :
  sp_v c <> sp_v b -> dot2 d (sp_v c) = dot2 d (sp_v b) -> 0 < dot2 d (sp_v a) -> some_edge [c; b; a].
Proof.
  intros Hne Hd Ha.
  destruct (Req_dec (perp_dot (sp_v c) (sp_v b)) 0) as [E1|]; [|by exists 0%nat, c, b].
  destruct (Req_dec (perp_dot (sp_v b) (sp_v a)) 0) as [E2|]; [|by exists 1%nat, b, a].
  destruct (Req_dec (perp_dot (sp_v a) (sp_v c)) 0) as [E3|]; [|by exists 2%nat, a, c].
  exfalso. set (vc := sp_v c) in *. set (vb := sp_v b) in *. set (va := sp_v a) in *. clearbody va vb vc.
  assert (Hpos : 0 < dot2 (sub2 vc vb) (sub2 vc vb)).
  { apply vec2_ne. intros E. apply Hne. pose proof (f_equal ux E) as X. pose proof (f_equal uy E) as Y. clear -X Y. unfold zero2 in *. rv0. apply V2_eq; lra. }
  assert (Hz : dot2 d va * dot2 (sub2 vc vb) (sub2 vc vb) = 0).
  { transitivity (dot2 (sub2 vc vb) va * (dot2 d vc - dot2 d vb) + perp_dot (sub2 vc vb) d * (- perp_dot va vc - perp_dot vb va)).
    - clear. rv0. ring.
    - rewrite Hd, E2, E3. ring. }
  nra.
Qed.

Section gjk.
  Context (epsx : xr) (eps : R) (Hex : is_fin epsx eps) (Heps : 0 <= eps) (A B : P2 -> Prop) (supL supR : P2 -> res P2)
    (HA : supports2 A supL) (HB : supports2 B supR) (supLx supRx : V2 xr -> res (V2 xr))
    (HL : tracks supLx supL) (HR : tracks supRx supR).
  Lemma neg2_ne (d : P2) : d <> zero2 -> neg2 d <> zero2.
  Proof. intros Hd E. apply Hd. pose proof (f_equal ux E) as X. pose proof (f_equal uy E) as Y. clear -X Y. unfold zero2 in *. apply V2_eq; rv0; lra. Qed.
  Lemma mink_track dx d : fin2 dx d -> d <> zero2 -> exists px p, mink2 supLx supRx dx = Ok px /\ mink2 supL supR d = Ok p /\ finp px p.
  Proof.
    intros Hf Hd. destruct (HL dx d Hf Hd) as (lx & l & E1 & E2 & Fl).
    destruct (HR (neg2 dx) (neg2 d) (f_neg _ _ Hf) (neg2_ne d Hd)) as (rx & r & E3 & E4 & Fr).
    exists (mkSup (sub2 lx rx) lx rx), (mkSup (sub2 l r) l r). unfold mink2, mink. rewrite E1, E2. cbn [mbind res_mbind res_bind].
    rewrite E3, E4. split; [done|]. split; [done|]. split; [by apply f_sub|done].
  Qed.
  Lemma s_gt0 x r : is_fin x r -> nlt n0 x = Rltb 0 r.
  Proof. intros Hx. exact (slt n0 x n0 r s0 Hx). Qed.
  Lemma s_le0 x r : is_fin x r -> nle x n0 = Rleb r 0.
  Proof. intros Hx. exact (sle x n0 r n0 Hx s0). Qed.
  Definition rel_red (rx : list (SupPt (V2 xr)) * V2 xr * bool) (r : list (SupPt P2) * P2 * bool) : Prop :=
    Forall2 finp rx.1.1 r.1.1 /\ fin2 rx.1.2 r.1.2 /\ rx.2 = r.2.
  Lemma reduce_track sx s dx d : Forall2 finp sx s -> fin2 dx d -> rel_red (reduce2 epsx sx dx) (reduce2 eps s d).
  Proof.
    intros Hs Hd. unfold reduce2.
    destruct Hs as [|bx b lbx lb Hb Hs]; [split; [constructor|done]|]. destruct Hs as [|ax a lax la Ha Hs]; [split; [f2_|done]|].
    destruct Hs as [|cx c lcx lc Hc Hs]; cbv zeta.
    - pose proof Hb as (Fb & _). pose proof Ha as (Fa & _).
      assert (Ft : fin2 (triple (sub2 (sp_v bx) (sp_v ax)) (neg2 (sp_v ax)) (sub2 (sp_v bx) (sp_v ax))) (triple (sub2 (sp_v b) (sp_v a)) (neg2 (sp_v a)) (sub2 (sp_v b) (sp_v a)))) by auto with fin.
      rewrite (f_near _ _ _ _ Ft Hex). split; [f2_|]. split; [|done]. cbn [fst snd].
      destruct (near0_2 eps _); [|done]. pose proof (f_sub _ _ _ _ Fb Fa) as [Fx Fy]. split; cbn [ux uy]; auto with fin.
    - destruct Hs as [|ex e lex le He Hs]; [|split; [f2_|done]].
      pose proof Hb as (Fb & _). pose proof Ha as (Fa & _). pose proof Hc as (Fc & _).
      rewrite (s_gt0 _ (dot2 (triple (sub2 (sp_v b) (sp_v c)) (sub2 (sp_v a) (sp_v c)) (sub2 (sp_v a) (sp_v c))) (neg2 (sp_v c)))) by auto 10 with fin.
      cbn [nlt n0 Num_R]. destruct (Rltb _ _); [split; [f2_|split; [cbn [fst snd]; auto with fin|done]]|].
      rewrite (s_gt0 _ (dot2 (triple (sub2 (sp_v a) (sp_v c)) (sub2 (sp_v b) (sp_v c)) (sub2 (sp_v b) (sp_v c))) (neg2 (sp_v c)))) by auto 10 with fin.
      destruct (Rltb _ _); [split; [f2_|split; [cbn [fst snd]; auto with fin|done]]|].
      split; [f2_|done].
  Qed.
  Lemma one_track x p : finp x p -> Forall2 finp [x] [p]. Proof. intros ?. f2_. Qed.
  Notation loop := (gjk_loop sub2 neg2 dot2 supL supR (reduce2 eps)).
  Notation loopx := (gjk_loop sub2 neg2 dot2 supLx supRx (reduce2 epsx)).
  Definition hit_good (o : gjk_out P2) : Prop := match o with Hit s => length s = 3%nat /\ Forall (wit A B) s /\ some_edge s | _ => True end.
  Lemma edge_track n sx s dx d : edge eps A B s d -> Forall2 finp sx s -> fin2 dx d ->
    exists ox o, loopx n sx dx = Ok ox /\ loop n s d = Ok o /\ rel_out ox o /\ hit_good o.
  Proof.
    revert sx s dx d. induction n as [|n IH]; intros sx s dx d He Hs Hd; [by exists Exhausted, Exhausted|].
    destruct He as (c & b & -> & Hc & Hb & Hd0 & Hne & Hcb & Hdb).
    destruct (mink_track dx d Hd Hd0) as (ax & a & Eax & Ea & Hax).
    destruct (mink2_spec A B supL supR HA HB d Hd0) as (a' & Ea' & Ha & Hm & _). assert (a' = a) as -> by congruence. clear Ea'.
    cbn [gjk_loop]. change (mink sub2 neg2 supL supR d) with (mink2 supL supR d). rewrite Ea.
    change (mink sub2 neg2 supLx supRx dx) with (mink2 supLx supRx dx). rewrite Eax. cbn [mbind res_mbind res_bind].
    rewrite (s_le0 _ (dot2 (sp_v a) d)) by (destruct Hax; auto with fin). cbn [nle n0 Num_R].
    destruct (Rleb (dot2 (sp_v a) d) 0) eqn:E; [by exists Separated, Separated|]. apply Rleb_false in E. rewrite dot2_swap in E.
    pose proof (reduce2_three eps A B c b a d Hc Hb Ha Hne Hcb Hdb E) as Hr.
    pose proof (reduce_track (sx ++ [ax]) ([c; b] ++ [a]) dx d (Forall2_app Hs (one_track _ _ Hax)) Hd) as Ht.
    cbn [app] in Ht |- *. destruct (reduce2 eps [c; b; a] d) as [[s' d'] ins]. destruct (reduce2 epsx (sx ++ [ax]) dx) as [[sx' dx'] insx].
    destruct Ht as (T1 & T2 & T3). cbn [fst snd] in T1, T2, T3. subst insx. destruct ins.
    - exists (Hit sx'), (Hit s'). split; [done|]. split; [done|]. split; [done|]. destruct Hr as [-> _].
      split; [done|]. split; [repeat (apply Forall_cons; split; [done|]); by apply Forall_nil|]. by eapply tri_some_edge.
    - apply IH; [|done|done]. apply sharp_edge_edge. by destruct Hr.
  Qed.
  Lemma start_track n sx s dx d : start A B s d -> Forall2 finp sx s -> fin2 dx d ->
    exists ox o, loopx n sx dx = Ok ox /\ loop n s d = Ok o /\ rel_out ox o /\ hit_good o.
  Proof.
    destruct n as [|n]; intros Hst Hs Hd; [by exists Exhausted, Exhausted|]. destruct Hst as (b & -> & Hb & Hd0 & Hdb).
    destruct (mink_track dx d Hd Hd0) as (ax & a & Eax & Ea & Hax).
    destruct (mink2_spec A B supL supR HA HB d Hd0) as (a' & Ea' & Ha & Hm & _). assert (a' = a) as -> by congruence. clear Ea'.
    cbn [gjk_loop]. change (mink sub2 neg2 supL supR d) with (mink2 supL supR d). rewrite Ea.
    change (mink sub2 neg2 supLx supRx dx) with (mink2 supLx supRx dx). rewrite Eax. cbn [mbind res_mbind res_bind].
    rewrite (s_le0 _ (dot2 (sp_v a) d)) by (destruct Hax; auto with fin). cbn [nle n0 Num_R].
    destruct (Rleb (dot2 (sp_v a) d) 0) eqn:E; [by exists Separated, Separated|]. apply Rleb_false in E. rewrite dot2_swap in E.
    destruct (reduce2_two eps Heps A B b a d Hb Ha Hdb E) as (d' & Er & He).
    pose proof (reduce_track (sx ++ [ax]) ([b] ++ [a]) dx d (Forall2_app Hs (one_track _ _ Hax)) Hd) as Ht.
    cbn [app] in Ht |- *. rewrite Er in Ht |- *. destruct (reduce2 epsx (sx ++ [ax]) dx) as [[sx' dx'] insx].
    destruct Ht as (T1 & T2 & T3). cbn [fst snd] in T1, T2, T3. subst insx. by apply edge_track.
  Qed.
  Lemma run_track n lposx rposx lpos rpos : fin2 lposx lpos -> fin2 rposx rpos ->
    exists ox o, gjk2_run epsx supLx supRx n lposx rposx = Ok ox /\ gjk2_run eps supL supR n lpos rpos = Ok o /\ rel_out ox o /\ hit_good o.
  Proof.
    intros Fl Fr. unfold gjk2_run, gjk_run. cbv zeta.
    pose proof (first_dir_ne eps Heps lpos rpos) as Hd0.
    assert (Hd : fin2 (first_dir (mk2 n1 n1) sub2 (near0_2 epsx) lposx rposx) (first_dir (mk2 n1 n1) sub2 (near0_2 eps) lpos rpos)).
    { unfold first_dir. rewrite (f_near _ (sub2 rpos lpos) _ eps) by auto with fin. destruct (near0_2 eps _); [apply f_one|auto with fin]. }
    change (mk2 1 1) with (mk2 (n1 : R) n1) in Hd0.
    set (d := first_dir (mk2 (n1 : R) n1) _ _ _ _) in *. set (dx := first_dir (mk2 (n1 : xr) n1) _ _ _ _) in *. clearbody d dx.
    destruct (mink_track dx d Hd Hd0) as (ax & a & Eax & Ea & Hax).
    destruct (mink2_spec A B supL supR HA HB d Hd0) as (a' & Ea' & Ha & Hm & _). assert (a' = a) as -> by congruence. clear Ea'.
    change (mink sub2 neg2 supL supR d) with (mink2 supL supR d). rewrite Ea.
    change (mink sub2 neg2 supLx supRx dx) with (mink2 supLx supRx dx). rewrite Eax. cbn [mbind res_mbind res_bind].
    rewrite (s_le0 _ (dot2 (sp_v a) d)) by (destruct Hax; auto with fin). cbn [nle n0 Num_R].
    destruct (Rleb (dot2 (sp_v a) d) 0) eqn:E; [by exists Separated, Separated|]. apply Rleb_false in E.
    apply start_track; [|f2_|by apply f_neg].
    exists a. split; [done|]. split; [done|]. split; [by apply neg2_ne|]. clear -E. rv0. lra.
  Qed.
End gjk.

(** * The contact *)
Definition rel_edge (l : list (SupPt P2)) (i : nat) (ex : Edge2) : Prop :=
  exists a b, Ed l i a b /\ perp_dot (sp_v a) (sp_v b) <> 0 /\ fin2 (e_normal ex) (nrm (sp_v a) (sp_v b)) /\
    is_fin (e_dist ex) (dot2 (nrm (sp_v a) (sp_v b)) (sp_v a)) /\ e_index ex = nxt l i.
Lemma Forall2_lookup_ex {X Y} (P : X -> Y -> Prop) lx l k y : Forall2 P lx l -> l !! k = Some y -> exists x, lx !! k = Some x /\ P x y.
Proof. intros H E. by eapply Forall2_lookup_r. Qed.
Lemma triple_zero (a b : P2) : perp_dot a b = 0 -> triple (sub2 b a) a (sub2 b a) = zero2.
Proof. intros E. pose proof (triple_mag a b) as Hm. rewrite E in Hm. set (t := triple _ _ _) in *. clearbody t. apply V2_eq; unfold zero2; rs; rv0; nra. Qed.
Lemma edge_at_track lx l k : Forall2 finp lx l -> (k < length l)%nat ->
  exists ex a b, edge_at lx k = Some ex /\ Ed l k a b /\
    (perp_dot (sp_v a) (sp_v b) <> 0 -> rel_edge l k ex) /\ (perp_dot (sp_v a) (sp_v b) = 0 -> e_dist ex = XNaN).
Proof.
  intros Hl Hk. destruct (Ed_exists l k Hk) as (a & b & Ha & Hb).
  destruct (Forall2_lookup_ex _ _ _ _ _ Hl Ha) as (ax & Eax & Fa & _). destruct (Forall2_lookup_ex _ _ _ _ _ Hl Hb) as (bx & Ebx & Fb & _).
  unfold edge_at. rewrite (Forall2_length _ _ _ Hl). change (if decide (k + 1 = length l)%nat then 0%nat else (k + 1)%nat) with (nxt l k).
  rewrite Eax, Ebx. eexists _, a, b. split; [done|]. split; [done|]. cbn [e_dist].
  assert (Ft : fin2 (triple (sub2 (sp_v bx) (sp_v ax)) (sp_v ax) (sub2 (sp_v bx) (sp_v ax))) (triple (sub2 (sp_v b) (sp_v a)) (sp_v a) (sub2 (sp_v b) (sp_v a)))) by auto with fin.
  split.
  - intros Hp. exists a, b. split; [done|]. split; [done|]. cbn [e_normal e_dist e_index].
    assert (Fn : fin2 (normalize2 (triple (sub2 (sp_v bx) (sp_v ax)) (sp_v ax) (sub2 (sp_v bx) (sp_v ax)))) (nrm (sp_v a) (sp_v b))).
    { apply f_normalize; [done|]. apply vec2_ne. rewrite triple_mag. assert (0 < dot2 (sub2 (sp_v b) (sp_v a)) (sub2 (sp_v b) (sp_v a))).
      { apply vec2_ne. intros Ez. apply Hp. pose proof (f_equal ux Ez) as X. pose proof (f_equal uy Ez) as Y. clear -X Y. unfold zero2 in *. rv0. nra. }
      apply Rmult_lt_0_compat; [|done]. clear -Hp. nra. }
    split; [done|]. split; [auto with fin|done].
  - intros Hp. rewrite (triple_zero _ _ Hp) in Ft. destruct (normalize_zero _ Ft) as [E1 E2]. unfold dot2. rewrite E1. done.
Qed.
Lemma closest_edge_track lx l : Forall2 finp lx l -> (3 <= length l)%nat -> some_edge l ->
  exists ex i, closest_edge lx = Ok (Some ex) /\ rel_edge l i ex /\
    forall k a b, Ed l k a b -> perp_dot (sp_v a) (sp_v b) <> 0 -> nle (e_dist ex) (XFin false (dot2 (nrm (sp_v a) (sp_v b)) (sp_v a))) = true.
Proof.
  intros Hl Hlen (k0 & a0 & b0 & Ek0 & Hp0). unfold closest_edge. rewrite (Forall2_length _ _ _ Hl). rewrite (proj2 (Nat.ltb_ge _ _)) by lia.
  assert (Hfold : forall m, (m <= length l)%nat ->
    match foldl (edge_step lx) None (seq 0 m) with
    | None => forall k a b, (k < m)%nat -> Ed l k a b -> perp_dot (sp_v a) (sp_v b) = 0
    | Some ex => (exists i, rel_edge l i ex) /\ forall k a b, (k < m)%nat -> Ed l k a b -> perp_dot (sp_v a) (sp_v b) <> 0 ->
        nle (e_dist ex) (XFin false (dot2 (nrm (sp_v a) (sp_v b)) (sp_v a))) = true
    end).
  { induction m as [|m IH]; intros Hm; [cbn; intros; lia|]. rewrite seq_S, foldl_app. cbn [foldl Nat.add].
    specialize (IH ltac:(lia)). destruct (edge_at_track lx l m Hl ltac:(lia)) as (ex & a & b & Ee & Em & Hnd & Hdg).
    unfold edge_step at 1. rewrite Ee. destruct (Req_dec (perp_dot (sp_v a) (sp_v b)) 0) as [Hp|Hp].
    - specialize (Hdg Hp). rewrite Hdg. destruct (foldl (edge_step lx) None (seq 0 m)) as [bx|].
      + destruct IH as [[i Hi] Hall]. replace (nlt XNaN (e_dist bx)) with false by (by destruct (e_dist bx)). split; [by exists i|].
        intros k a' b' Hk Ek Hp'. destruct (decide (k = m)) as [-> |]; [|apply (Hall k); [lia|done|done]].
        destruct (Ed_fun _ _ _ _ _ _ Ek Em) as [-> ->]. done.
      + intros k a' b' Hk Ek. destruct (decide (k = m)) as [-> |]; [|apply (IH k); [lia|done]].
        destruct (Ed_fun _ _ _ _ _ _ Ek Em) as [-> ->]. done.
    - specialize (Hnd Hp). pose proof Hnd as (a1 & b1 & E1 & _ & _ & Fd & _). destruct (Ed_fun _ _ _ _ _ _ E1 Em) as [-> ->]. clear E1.
      destruct (foldl (edge_step lx) None (seq 0 m)) as [bx|].
      + destruct IH as [[i Hi] Hall]. pose proof Hi as (a2 & b2 & E2 & _ & _ & Fb & _).
        rewrite (slt _ _ _ _ Fd Fb). cbn [nlt Num_R]. destruct (Rltb _ _) eqn:El.
        * apply Rltb_true in El. split; [by exists m|]. intros k a' b' Hk Ek Hp'. destruct (decide (k = m)) as [-> |].
          -- destruct (Ed_fun _ _ _ _ _ _ Ek Em) as [-> ->]. rewrite (sle _ _ _ _ Fd (ex_intro _ _ eq_refl)). apply Rleb_true. lra.
          -- specialize (Hall k a' b' ltac:(lia) Ek Hp'). rewrite (sle _ _ _ _ Fb (ex_intro _ _ eq_refl)) in Hall. apply Rleb_true in Hall.
             rewrite (sle _ _ _ _ Fd (ex_intro _ _ eq_refl)). apply Rleb_true. lra.
        * apply Rltb_false in El. split; [by exists i|]. intros k a' b' Hk Ek Hp'. destruct (decide (k = m)) as [-> |].
          -- destruct (Ed_fun _ _ _ _ _ _ Ek Em) as [-> ->]. rewrite (sle _ _ _ _ Fb (ex_intro _ _ eq_refl)). apply Rleb_true. lra.
          -- apply (Hall k); [lia|done|done].
      + replace (nbelow (e_dist ex)) with true by (destruct Fd as [s ->]; done). split; [by exists m|].
        intros k a' b' Hk Ek Hp'. destruct (decide (k = m)) as [-> |]; [|exfalso; apply Hp'; apply (IH k); [lia|done]].
        destruct (Ed_fun _ _ _ _ _ _ Ek Em) as [-> ->]. rewrite (sle _ _ _ _ Fd (ex_intro _ _ eq_refl)). apply Rleb_true. lra. }
  specialize (Hfold (length l) ltac:(lia)). destruct (foldl _ _ _) as [ex|].
  - destruct Hfold as [[i Hi] Hall]. exists ex, i. split; [done|]. split; [done|]. intros k a b Ek Hp. apply (Hall k); [by eapply Ed_lt|done|done].
  - exfalso. apply Hp0. apply (Hfold k0); [by eapply Ed_lt|done].
Qed.
Lemma insert_some_edge (l : list (SupPt P2)) i a b p : Ed l i a b -> perp_dot (sp_v a) (sp_v b) <> 0 -> sp_v p <> zero2 -> some_edge (vec_insert (nxt l i) p l).
Proof.
  intros He Hp Hz. destruct (Ed_insert l i a b p He) as (F1 & F2 & _).
  destruct (Req_dec (perp_dot (sp_v a) (sp_v p)) 0) as [E1|]; [|eexists _, a, p; split; [exact F1|done]].
  destruct (Req_dec (perp_dot (sp_v p) (sp_v b)) 0) as [E2|]; [|eexists _, p, b; split; [exact F2|done]].
  exfalso. apply Hz. set (va := sp_v a) in *. set (vb := sp_v b) in *. set (vp := sp_v p) in *. clearbody va vb vp.
  assert (X : ux vp * perp_dot va vb = 0).
  { transitivity (perp_dot va vp * ux vb + perp_dot vp vb * ux va); [clear; rv0; ring|]. rewrite E1, E2. ring. }
  assert (Y : uy vp * perp_dot va vb = 0).
  { transitivity (perp_dot va vp * uy vb + perp_dot vp vb * uy va); [clear; rv0; ring|]. rewrite E1, E2. ring. }
  apply Rmult_integral in X as [X|]; [|done]. apply Rmult_integral in Y as [Y|]; [|done]. by apply V2_eq.
Qed.
Lemma vec_insert_track j lx l px p : Forall2 finp lx l -> finp px p -> Forall2 finp (vec_insert j px lx) (vec_insert j p l).
Proof. intros Hl Hp. unfold vec_insert. apply Forall2_app; [by apply Forall2_take|]. apply List.Forall2_cons; [done|]. by apply Forall2_drop. Qed.

Section epa.
  Context (A B : P2 -> Prop) (supL supR : P2 -> res P2) (HA : supports2 A supL) (HB : supports2 B supR)
    (HcA : convex2 A) (HcB : convex2 B) (supLx supRx : V2 xr -> res (V2 xr))
    (HL : tracks supLx supL) (HR : tracks supRx supR) (tolx : xr) (tol : R) (Htx : is_fin tolx tol) (Htol : 0 < tol).
  Definition inv (lx : list (SupPt (V2 xr))) (l : list (SupPt P2)) : Prop :=
    Forall2 finp lx l /\ (3 <= length l)%nat /\ Forall (wit A B) l /\ some_edge l.
  Lemma epa_loop_track n lx l ex i : inv lx l -> rel_edge l i ex ->
    exists lx' l' ex' i' dn, epa2_loop (mink2 supLx supRx) tolx n lx ex = Ok (lx', ex', dn) /\ inv lx' l' /\ rel_edge l' i' ex'.
  Proof.
    revert lx l ex i. induction n as [|n IH]; intros lx l ex i Hi He; [by exists lx, l, ex, i, false|].
    destruct He as (a & b & Ei & Hp & Fn & Fd & Hidx). destruct (nrm_nondeg _ _ Hp) as (Hu & Hline & Hpos).
    assert (Hn0 : nrm (sp_v a) (sp_v b) <> zero2) by by apply nrm_ne_iff.
    destruct (mink_track supL supR supLx supRx HL HR (e_normal ex) _ Fn Hn0) as (px & p & Epx & Ep & Fp).
    destruct (mink2_spec A B supL supR HA HB _ Hn0) as (p' & Ep' & Hwp & Hm & _). assert (p' = p) as -> by congruence. clear Ep'.
    cbn [epa2_loop]. rewrite Epx. cbn [mbind res_mbind res_bind].
    rewrite (slt _ _ (dot2 (sp_v p) (nrm (sp_v a) (sp_v b)) - dot2 (nrm (sp_v a) (sp_v b)) (sp_v a)) tol
      (ssub _ _ _ _ (f_dot _ _ _ _ (proj1 Fp) Fn) Fd) Htx). cbn [nlt Num_R].
    destruct (Rltb _ tol) eqn:Et. { exists lx, l, ex, i, true. split; [done|]. split; [done|]. by exists a, b. }
    apply Rltb_false in Et. rewrite dot2_comm in Et. rewrite Hidx.
    assert (Hz : sp_v p <> zero2). { intros Ez. rewrite Ez in Et. replace (dot2 (nrm (sp_v a) (sp_v b)) zero2) with 0 in Et by (clear; unfold zero2; rv0; ring). lra. }
    destruct Hi as (Hl & Hlen & Hw & Hse).
    assert (Hi' : inv (vec_insert (nxt l i) px lx) (vec_insert (nxt l i) p l)).
    { split; [by apply vec_insert_track|]. split; [rewrite vec_insert_length; lia|]. split; [rewrite vec_insert_perm; by constructor|].
      by eapply insert_some_edge. }
    destruct (closest_edge_track _ _ (proj1 Hi') (proj1 (proj2 Hi')) (proj2 (proj2 (proj2 Hi')))) as (ex' & i' & Ec & He' & _).
    rewrite Ec. cbn [mbind res_mbind res_bind]. by eapply IH.
  Qed.
  Lemma point_track lx l i ex : Forall2 finp lx l -> (3 <= length l)%nat -> rel_edge l i ex ->
    exists qx q a b, epa_point2 lx ex = Ok qx /\ Ed l i a b /\ perp_dot (sp_v a) (sp_v b) <> 0 /\
      epa_point2 l (mkEdge (nrm (sp_v a) (sp_v b)) (dot2 (nrm (sp_v a) (sp_v b)) (sp_v a)) (nxt l i)) = Ok q /\ fin2 qx q.
  Proof.
    intros Hl Hlen (a & b & [Ea Eb] & Hp & Fn & Fd & Hidx).
    destruct (Forall2_lookup_ex _ _ _ _ _ Hl Ea) as (ax & Eax & Fa & Faa & _). destruct (Forall2_lookup_ex _ _ _ _ _ Hl Eb) as (bx & Ebx & Fb & Fba & _).
    unfold epa_point2. rewrite Hidx. cbn [e_index]. unfold get. rewrite Ebx, Eb. cbn [mbind res_mbind res_bind]. rewrite (Forall2_length _ _ _ Hl).
    assert (Hprev : (if decide (nxt l i = 0%nat) then (length l - 1)%nat else (nxt l i - 1)%nat) = i).
    { pose proof (lookup_lt_Some _ _ _ Ea). unfold nxt. repeat case_decide; lia. }
    rewrite Hprev, Eax, Ea. cbn [mbind res_mbind res_bind]. cbv zeta.
    assert (Ft : is_fin (ndiv (dot2 (neg2 (sp_v ax)) (sub2 (sp_v bx) (sp_v ax))) (mag2_2 (sub2 (sp_v bx) (sp_v ax))))
                        (ndiv (dot2 (neg2 (sp_v a)) (sub2 (sp_v b) (sp_v a))) (mag2_2 (sub2 (sp_v b) (sp_v a))))).
    { apply sdiv; [|auto with fin|exact (f_dot _ _ _ _ (f_sub _ _ _ _ Fb Fa) (f_sub _ _ _ _ Fb Fa))].
      assert (0 < dot2 (sub2 (sp_v b) (sp_v a)) (sub2 (sp_v b) (sp_v a))); [|change (mag2_2 (sub2 (sp_v b) (sp_v a))) with (dot2 (sub2 (sp_v b) (sp_v a)) (sub2 (sp_v b) (sp_v a))); lra].
      apply vec2_ne. intros Ez. apply Hp. pose proof (f_equal ux Ez) as X. pose proof (f_equal uy Ez) as Y. clear -X Y. unfold zero2 in *. rv0. nra. }
    set (tx := ndiv (dot2 (neg2 (sp_v ax)) _) _) in *. set (t := ndiv (dot2 (neg2 (sp_v a)) _) _) in *. clearbody t tx.
    rewrite (slt tx n0 t n0 Ft s0), (slt n1 tx n1 t s1 Ft). eexists _, _, a, b. split; [done|]. split; [done|]. split; [done|]. split; [done|].
    destruct (nlt t n0); [done|]. destruct (nlt n1 t); [done|]. auto with fin.
  Qed.
  Lemma epa_run_track n lx l : inv lx l ->
    exists ctx ct dn, epa2_run (mink2 supLx supRx) tolx n lx = Ok (Some (ctx, dn)) /\ finc ctx ct /\ true_contact2 A B ct.
  Proof.
    intros Hi. pose proof Hi as (Hl & Hlen & Hw & Hse). destruct (closest_edge_track _ _ Hl Hlen Hse) as (ex & i & Ec & He & _).
    unfold epa2_run. rewrite Ec. cbn [mbind res_mbind res_bind].
    destruct (epa_loop_track n _ _ _ _ Hi He) as (lx' & l' & ex' & i' & dn & El & Hi' & He'). rewrite El. cbn [mbind res_mbind res_bind].
    clear Hi Hl Hlen Hw Hse Ec He El. destruct Hi' as (Hl & Hlen & Hw & Hse).
    destruct (point_track lx' l' i' ex' Hl Hlen He') as (qx & q & a & b & Eq & Ei & Hp & Eqr & Fq). rewrite Eq. cbn [mbind res_mbind res_bind].
    destruct He' as (a' & b' & Ei' & _ & Fn & Fd & _). destruct (Ed_fun _ _ _ _ _ _ Ei' Ei) as [-> ->].
    destruct (nrm_nondeg _ _ Hp) as (Hu & Hline & Hpos).
    destruct (epa_point2_spec A B l' (mkEdge (nrm (sp_v a) (sp_v b)) (dot2 (nrm (sp_v a) (sp_v b)) (sp_v a)) (nxt l' i')) i' a b) as (q' & y & Eq' & Aq & By & Hd); try done.
    assert (q' = q) as -> by congruence.
    eexists _, (mkContact FullResolution (nrm (sp_v a) (sp_v b)) (dot2 (nrm (sp_v a) (sp_v b)) (sp_v a)) q 0), dn. split; [done|]. split.
    - split; [done|]. split; [done|]. split; [done|]. split; [done|]. apply s0.
    - split; [done|]. split; [done|]. split; [by apply mag2_one|]. split; [done|]. split; [done|]. by exists y.
  Qed.

  (** *** When no edge points at the origin, the real computation is followed step by step. *)
  Definition redge (ex : Edge2) (e : Edge2) : Prop := fin2 (e_normal ex) (e_normal e) /\ is_fin (e_dist ex) (e_dist e) /\ e_index ex = e_index e.
  Lemma edge_at_same lx l k : Forall2 finp lx l -> nondeg l -> (k < length l)%nat ->
    exists ex e, edge_at lx k = Some ex /\ edge_at l k = Some e /\ redge ex e.
  Proof.
    intros Hl Hnd Hk. destruct (edge_at_track lx l k Hl Hk) as (ex & a & b & Ex & Ek & Hr & _).
    destruct (Hr (Hnd _ _ _ Ek)) as (a' & b' & Ek' & _ & Fn & Fd & Hi). destruct (Ed_fun _ _ _ _ _ _ Ek' Ek) as [-> ->].
    destruct (edge_at_spec l k Hk) as (e & Ee & a' & b' & Ek'' & ->). destruct (Ed_fun _ _ _ _ _ _ Ek'' Ek) as [-> ->].
    eexists _, _. split; [done|]. split; [done|]. done.
  Qed.
  Lemma closest_same lx l : Forall2 finp lx l -> nondeg l -> (3 <= length l)%nat ->
    exists ex e, closest_edge lx = Ok (Some ex) /\ closest_edge l = Ok (Some e) /\ redge ex e.
  Proof.
    intros Hl Hnd Hlen. unfold closest_edge. rewrite (Forall2_length _ _ _ Hl). rewrite (proj2 (Nat.ltb_ge _ _)) by lia.
    assert (Hfold : forall m, (m <= length l)%nat ->
      match foldl (edge_step lx) None (seq 0 m), foldl (edge_step l) None (seq 0 m) with
      | None, None => m = 0%nat | Some ex, Some e => redge ex e | _, _ => False end).
    { induction m as [|m IH]; intros Hm; [done|]. rewrite seq_S, !foldl_app. cbn [foldl Nat.add].
      specialize (IH ltac:(lia)). destruct (edge_at_same lx l m Hl Hnd ltac:(lia)) as (ex & e & Ex & Ee & Fn & Fd & Hi).
      unfold edge_step at 1 3. rewrite Ex, Ee.
      destruct (foldl (edge_step lx) None (seq 0 m)) as [bx|]; destruct (foldl (edge_step l) None (seq 0 m)) as [b|]; try done.
      - rewrite (slt _ _ _ _ Fd (proj1 (proj2 IH))). by destruct (nlt (e_dist e) (e_dist b)).
      - replace (nbelow (e_dist ex)) with true by (destruct Fd as [s ->]; done). cbn [nbelow NumSgn_R]. done. }
    specialize (Hfold (length l) ltac:(lia)).
    destruct (foldl (edge_step lx) None _) as [ex|]; destruct (foldl (edge_step l) None _) as [e|]; try done; [by exists ex, e|lia].
  Qed.
  Lemma epa_loop_same n lx l ex e : Forall2 finp lx l -> ring A B l -> nondeg l -> redge ex e -> closest_edge l = Ok (Some e) ->
    exists lx' l' ex' e' dn, epa2_loop (mink2 supLx supRx) tolx n lx ex = Ok (lx', ex', dn) /\
      epa2_loop (mink2 supL supR) tol n l e = Ok (l', e', dn) /\ Forall2 finp lx' l' /\ ring A B l' /\ nondeg l' /\ redge ex' e' /\ closest_edge l' = Ok (Some e').
  Proof.
    revert lx l ex e. induction n as [|n IH]; intros lx l ex e Hl Hr Hnd Hre Ee.
    { exists lx, l, ex, e, false. done. }
    destruct (closest_edge_spec l (proj1 Hr)) as (e' & i & Ee' & Hi & Hmin).
    assert (e' = e) as -> by congruence. clear Ee'. destruct Hi as (a & b & He & Heq).
    pose proof (Hnd _ _ _ He) as Hab. destruct (nrm_nondeg _ _ Hab) as (Hu & Hline & Hpos).
    assert (Hn0 : e_normal e <> zero2) by (rewrite Heq; by apply nrm_ne_iff).
    destruct Hre as (Fn & Fd & Hix).
    destruct (mink_track supL supR supLx supRx HL HR (e_normal ex) _ Fn Hn0) as (px & p & Epx & Ep & Fp).
    destruct (mink2_spec A B supL supR HA HB _ Hn0) as (p' & Ep' & Hwp & Hm & _). assert (p' = p) as -> by congruence. clear Ep'.
    cbn [epa2_loop]. rewrite Epx, Ep. cbn [mbind res_mbind res_bind].
    rewrite (slt _ _ _ tol (ssub _ _ _ _ (f_dot _ _ _ _ (proj1 Fp) Fn) Fd) Htx).
    destruct (nlt (nsub (dot2 (sp_v p) (e_normal e)) (e_dist e)) tol) eqn:Et. { exists lx, l, ex, e, true. done. }
    cbn [nlt nsub Num_R] in Et. apply Rltb_false in Et. rewrite dot2_comm in Et.
    assert (Hc : ocone (sp_v a) (sp_v b) (sp_v p)).
    { rewrite Heq in Et. cbn [e_normal e_dist] in Et. eapply (beyond_in_cone A B l i a b (nrm (sp_v a) (sp_v b)) p); try done. lra. }
    assert (Hidx : e_index e = nxt l i) by by rewrite Heq. rewrite Hix, Hidx.
    pose proof (ring_insert A B supL supR HA HB tol Htol l i a b p Hr He Hab Hwp Hc) as Hr'. pose proof (nondeg_insert l i a b p Hnd He Hc) as Hnd'.
    pose proof (vec_insert_track (nxt l i) lx l px p Hl Fp) as Hl'.
    destruct (closest_same _ _ Hl' Hnd' (proj1 Hr')) as (ex2 & e2 & Ex2 & Ee2 & Hre2). rewrite Ex2, Ee2. cbn [mbind res_mbind res_bind].
    by apply IH.
  Qed.
  Lemma epa_run_same n lx l ct dn : Forall2 finp lx l -> ring A B l -> nondeg l -> epa2_run (mink2 supL supR) tol n l = Ok (Some (ct, dn)) ->
    exists ctx, epa2_run (mink2 supLx supRx) tolx n lx = Ok (Some (ctx, dn)) /\ finc ctx ct.
  Proof.
    intros Hl Hr Hnd Er. destruct (closest_same _ _ Hl Hnd (proj1 Hr)) as (ex & e & Ex & Ee & Hre).
    unfold epa2_run in *. rewrite Ee in Er. rewrite Ex. cbn [mbind res_mbind res_bind] in *.
    destruct (epa_loop_same n _ _ _ _ Hl Hr Hnd Hre Ee) as (lx' & l' & ex' & e' & dn' & E1 & E2 & Hl' & Hr' & Hnd' & Hre' & Ee').
    rewrite E2 in Er. rewrite E1. cbn [mbind res_mbind res_bind] in *.
    destruct (closest_edge_spec l' (proj1 Hr')) as (e'' & i & Ee'' & Hi & _). assert (e'' = e') as -> by congruence. clear Ee''.
    destruct Hi as (a & b & He & Heq). pose proof (Hnd' _ _ _ He) as Hab. destruct Hre' as (Fn & Fd & Hix).
    destruct (point_track lx' l' i ex') as (qx & q & a' & b' & Eq & Ei & Hp & Eqr & Fq); [done|apply Hr'|exists a, b; rewrite Heq in Fn, Fd, Hix; done|].
    destruct (Ed_fun _ _ _ _ _ _ Ei He) as [-> ->]. rewrite <- Heq in Eqr. rewrite Eqr in Er. rewrite Eq. cbn [mbind res_mbind res_bind] in *.
    injection Er as <- <-. eexists. split; [done|]. split; [done|]. split; [done|]. split; [done|]. split; [done|]. apply s0.
  Qed.
End epa.

(** * Two convex shapes *)
Section shapes.
  Context (A B : P2 -> Prop) (supL supR : P2 -> res P2) (HA : supports2 A supL) (HB : supports2 B supR)
    (HcA : convex2 A) (HcB : convex2 B) (supLx supRx : V2 xr -> res (V2 xr))
    (HL : tracks supLx supL) (HR : tracks supRx supR) (epsx tolx : xr) (eps tol : R)
    (Hex : is_fin epsx eps) (Heps : 0 <= eps) (Htx : is_fin tolx tol) (Htol : 0 < tol)
    (lposx rposx : V2 xr) (lpos rpos : P2) (Hlx : fin2 lposx lpos) (Hrx : fin2 rposx rpos).
  Notation contactx := (gjk2_intersection epsx supLx supRx tolx).
  (** Whatever the shapes and their positions, the computation ends without a panic; it reports a collision exactly when
      the intersection test on real numbers does; and the contact it reports holds. *)
  Lemma contact_track n :
    (contactx FullResolution n lposx rposx = Ok None /\ gjk2_intersect eps supL supR n lpos rpos = Ok None) \/
    exists lx l ctx ct dn, contactx FullResolution n lposx rposx = Ok (Some ctx) /\ gjk2_intersect eps supL supR n lpos rpos = Ok (Some l) /\
      finc ctx ct /\ true_contact2 A B ct /\ Forall2 finp lx l /\ epa2_run (mink2 supLx supRx) tolx n lx = Ok (Some (ctx, dn)).
  Proof.
    unfold gjk2_intersection, gjk2_intersect.
    destruct (run_track epsx eps Hex Heps A B supL supR HA HB supLx supRx HL HR n lposx rposx lpos rpos Hlx Hrx) as (ox & o & E1 & E2 & Hrel & Hg).
    rewrite E1, E2. cbn [mbind res_mbind res_bind]. destruct ox as [lx| |]; destruct o as [l| |]; try done; cbn [gjk_forget mbind res_mbind res_bind]; [right|by left|by left].
    destruct Hg as (Hlen & Hw & Hse).
    destruct (epa_run_track A B supL supR HA HB HcA HcB supLx supRx HL HR tolx tol Htx Htol n lx l) as (ctx & ct & dn & Er & Hf & Ht).
    { split; [done|]. split; [lia|]. done. }
    exists lx, l, ctx, ct, dn. unfold epa2_process. rewrite Er. cbn [mbind res_mbind res_bind option_map fst]. done.
  Qed.
  Theorem C64_no_panic st n : exists o, contactx st n lposx rposx = Ok o.
  Proof.
    destruct st.
    - destruct (contact_track n) as [[E _]|(lx & l & ctx & ct & dn & E & _)]; by eexists.
    - unfold gjk2_intersection, gjk2_intersect.
      destruct (run_track epsx eps Hex Heps A B supL supR HA HB supLx supRx HL HR n lposx rposx lpos rpos Hlx Hrx) as (ox & o & E1 & _ & _).
      rewrite E1. cbn [mbind res_mbind res_bind]. destruct (gjk_forget ox); by eexists.
  Qed.
  Theorem C64_same_answer st n : contactx st n lposx rposx = Ok None <-> gjk2_intersect eps supL supR n lpos rpos = Ok None.
  Proof.
    destruct st.
    - destruct (contact_track n) as [[E1 E2]|(lx & l & ctx & ct & dn & E1 & E2 & _)]; rewrite E1, E2; [done|split; done].
    - unfold gjk2_intersection, gjk2_intersect.
      destruct (run_track epsx eps Hex Heps A B supL supR HA HB supLx supRx HL HR n lposx rposx lpos rpos Hlx Hrx) as (ox & o & E1 & E2 & Hrel & _).
      rewrite E1, E2. cbn [mbind res_mbind res_bind]. destruct ox; destruct o; try done.
  Qed.
  Theorem C64_contact_true n ctx : contactx FullResolution n lposx rposx = Ok (Some ctx) -> exists ct, finc ctx ct /\ true_contact2 A B ct.
  Proof.
    intros E. destruct (contact_track n) as [[E1 _]|(lx & l & ctx' & ct & dn & E1 & _ & Hf & Ht & _)]; [congruence|].
    rewrite E1 in E. apply (f_equal (fun r => match r with Ok (Some c) => c | _ => ctx end)) in E. cbn in E. subst ctx'. by exists ct.
  Qed.
End shapes.

Section exact.
  Context (A B : P2 -> Prop) (supL supR : P2 -> res P2) (HA : supports2 A supL) (HB : supports2 B supR)
    (HcA : convex2 A) (HcB : convex2 B) (supLx supRx : V2 xr -> res (V2 xr))
    (HL : tracks supLx supL) (HR : tracks supRx supR) (epsx tolx : xr) (tol : R)
    (Hex : is_fin epsx 0) (Htx : is_fin tolx tol) (Htol : 0 < tol)
    (lposx rposx : V2 xr) (lpos rpos : P2) (Hlx : fin2 lposx lpos) (Hrx : fin2 rposx rpos).
  (** When the computation on real numbers gives a contact with a normal, special values play no part: the contact is the same. *)
  Theorem C64_same_contact n ct :
    gjk2_intersection 0 supL supR tol FullResolution n lpos rpos = Ok (Some ct) -> c_normal ct <> zero2 ->
    exists ctx, gjk2_intersection epsx supLx supRx tolx FullResolution n lposx rposx = Ok (Some ctx) /\ finc ctx ct /\ good_contact2 A B ct.
  Proof.
    intros Ec Hn. pose proof (C41_contact_good A B supL supR HA HB HcA HcB tol Htol n lpos rpos ct Ec Hn) as Hgood.
    destruct (intersection_run A B supL supR HA HB tol n lpos rpos ct Ec) as (c & b & a & dn & Eg & Hc & Hb & Ha & Hh & Er).
    destruct (epa2_cases A B supL supR tol Htol n c b a Hc Hb Ha Hh) as [Hnd|[_ Hz]].
    2:{ destruct (Hz _ Er) as (ct' & dn' & [= -> ->] & ? & _). done. }
    destruct (run_track epsx 0 Hex (Rle_refl 0) A B supL supR HA HB supLx supRx HL HR n lposx rposx lpos rpos Hlx Hrx) as (ox & o & E1 & E2 & Hrel & _).
    unfold gjk2_intersect in Eg. rewrite E2 in Eg. cbn [mbind res_mbind res_bind] in Eg. destruct o as [l| |]; try done. injection Eg as ->.
    destruct ox as [lx| |]; try done. cbn in Hrel.
    destruct (epa_run_same A B supL supR HA HB supLx supRx HL HR tolx tol Htx Htol n lx [c; b; a] ct dn Hrel) as (ctx & Ex & Hf); [exact (ring_triangle A B supL supR HA HB tol Htol c b a Hc Hb Ha Hh Hnd)|done|done|].
    exists ctx. unfold gjk2_intersection, gjk2_intersect. rewrite E1. cbn [mbind res_mbind res_bind gjk_forget]. unfold epa2_process. rewrite Ex.
    cbn [mbind res_mbind res_bind option_map fst]. done.
  Qed.
End exact.

(** * The primitives of the crate *)
Definition fin_prim2 (px : Primitive2 xr) (p : Primitive2 R) : Prop :=
  match px, p with
  | Particle2, Particle2 => True
  | LineP lx, LineP l => fin2 (l_origin lx) (l_origin l) /\ fin2 (l_dest lx) (l_dest l)
  | Circle rx, Circle r => is_fin rx r
  | Rectangle dx, Rectangle d => fin2 dx d
  | Square sx, Square s => is_fin sx s
  | ConvexPolygon vx, ConvexPolygon v => Forall2 fin2 vx v
  | _, _ => False
  end.
(** The same transform. *)
Definition fin_xf2 (Tx : Xf (V2 xr)) (T : Xf P2) : Prop :=
  (forall vx v, fin2 vx v -> fin2 (xf_pt Tx vx) (xf_pt T v)) /\
  forall dx d e, fin2 dx d -> xf_ivec T d = Some e -> exists ex, xf_ivec Tx dx = Some ex /\ fin2 ex e.
Definition fin_m2 (mx : M2 (S:=xr)) (m : M2 (S:=R)) : Prop := fin2 (m2_x mx) (m2_x m) /\ fin2 (m2_y mx) (m2_y m).
Lemma f_m2_mul mx m vx v : fin_m2 mx m -> fin2 vx v -> fin2 (m2_mul mx vx) (m2_mul m v).
Proof. intros [[? ?] [? ?]] [? ?]. split; cbn [m2_mul ux uy]; auto with fin. Qed.
Lemma f_m2_invert mx m : fin_m2 mx m -> m2_det m <> 0 -> fin_m2 (m2_invert mx) (m2_invert m).
Proof.
  intros [[? ?] [? ?]] Hd. assert (is_fin (m2_det mx) (m2_det m)) by (unfold m2_det; auto with fin).
  split; split; cbn [m2_invert m2_x m2_y ux uy]; apply sdiv; auto with fin.
Qed.
Theorem C64_decomposed2 epsx eps sx s rotx rot dispx disp :
  0 <= eps -> eps < Rabs s -> orthonormal rot -> is_fin epsx eps -> is_fin sx s -> fin_m2 rotx rot -> fin2 dispx disp ->
  fin_xf2 (decomposed2 epsx sx rotx dispx) (decomposed2 eps s rot disp).
Proof.
  intros He Hs Ho Fe Fs Fr Fd.
  assert (Hdet : m2_det rot <> 0). { intros E. pose proof (ortho_det rot Ho) as Hd. rewrite E in Hd. lra. }
  assert (Hs0 : s <> 0). { intros ->. rewrite Rabs_R0 in Hs. lra. }
  split; cbn [xf_pt xf_ivec decomposed2].
  - intros vx v Fv. apply f_add; [|done]. apply f_m2_mul; [done|]. by apply f_scale.
  - intros dx d e Fdx. unfold near0. rewrite (sle _ _ _ _ (sabs _ _ Fs) Fe). destruct (nle (nabs s) eps); [done|].
    intros [= <-]. eexists. split; [done|]. apply f_m2_mul; [by apply f_m2_invert|]. destruct Fdx. split; cbn [div2 ux uy]; by apply sdiv.
Qed.
Lemma max_point_track (vsx : list (V2 xr)) (vs : list P2) dx d : Forall2 fin2 vsx vs -> fin2 dx d ->
  fin2 (max_point (fun v => dot2 v dx) zero2 vsx) (max_point (fun v => dot2 v d) zero2 vs).
Proof.
  intros Hvs Hd. unfold max_point.
  assert (Hg : forall (ax : V2 xr * option xr) (a : P2 * option R), fin2 ax.1 a.1 /\ match ax.2, a.2 with None, None => True | Some mx, Some m => is_fin mx m | _, _ => False end ->
    fin2 (foldl (max_step (fun v => dot2 v dx)) ax vsx).1 (foldl (max_step (fun v => dot2 v d)) a vs).1).
  { induction Hvs as [|vx v vsx vs Hv Hvs IH]; intros ax a [H1 H2]; [done|]. cbn [foldl]. apply IH. unfold max_step.
    pose proof (f_dot _ _ _ _ Hv Hd) as Fd. destruct ax as [ax [mx|]]; destruct a as [a [m|]]; cbn [fst snd] in *; try done.
    - rewrite (slt _ _ _ _ H2 Fd). destruct (nlt m (dot2 v d)); done.
    - replace (nabove (dot2 vx dx)) with true by (destruct Fd as [s ->]; done). cbn [nabove NumSgn_R]. done. }
  apply Hg. split; [apply f_zero|done].
Qed.
Lemma f_two : is_fin two two. Proof. apply sadd; apply s1. Qed.
Lemma f_half dx d : fin2 dx d -> fin2 (quad_half dx) (quad_half d).
Proof. intros [? ?]. assert ((two : R) <> 0) by (unfold two; rs; lra). split; cbn [quad_half div2 ux uy]; apply sdiv; auto; apply f_two. Qed.
Lemma prim2_tracks px p Tx T : fin_prim2 px p -> prim2_ok p -> fin_xf2 Tx T -> similar2 T ->
  tracks (fun d => prim2_support px d Tx) (fun d => prim2_support p d T).
Proof.
  intros Hp Hok [HT HTi] (k & Hk & Hsim) dx d Hd Hd0. destruct (Hsim d) as (e & Ee & He0 & _). specialize (He0 Hd0).
  destruct (HTi dx d e Hd Ee) as (ex & Eex & Fe).
  destruct px, p; try done; cbn [prim2_support fin_prim2] in *.
  - eexists _, _. split; [done|]. split; [done|]. apply HT, f_zero.
  - unfold line_support. rewrite Eex, Ee. eexists _, _. split; [done|]. split; [done|]. apply HT. destruct Hp as [Ho Hds].
    rewrite (sle n0 _ n0 _ s0 (f_dot _ _ _ _ Fe (f_sub _ _ _ _ Hds Ho))). by destruct (nle n0 _).
  - unfold circle_support. rewrite Eex, Ee. eexists _, _. split; [done|]. split; [done|]. apply HT. apply f_scale; [done|].
    apply sdiv; [|done|by apply f_mag]. pose proof (mag2_pos e He0). lra.
  - unfold rect_support, get_max_point. rewrite Eex, Ee. eexists _, _. split; [done|]. split; [done|]. apply HT. apply max_point_track; [|done].
    destruct (f_half _ _ Hp). unfold rect_corners. repeat (apply List.Forall2_cons; [split; cbn [ux uy]; auto with fin|]). apply List.Forall2_nil.
  - unfold rect_support, get_max_point. rewrite Eex, Ee. eexists _, _. split; [done|]. split; [done|]. apply HT. apply max_point_track; [|done].
    destruct (f_half (square_dim s) (square_dim _) (conj Hp Hp)). unfold rect_corners. repeat (apply List.Forall2_cons; [split; cbn [ux uy]; auto with fin|]). apply List.Forall2_nil.
  - unfold polygon_support, get_max_point. destruct Hok as [_ Hlen]. rewrite (Forall2_length _ _ _ Hp), (proj2 (Nat.ltb_lt _ _)) by done. rewrite Eex, Ee.
    eexists _, _. split; [done|]. split; [done|]. apply HT. by apply max_point_track.
Qed.

Section prims.
  Context (px qx : Primitive2 xr) (p q : Primitive2 R) (TLx TRx : Xf (V2 xr)) (TL TR : Xf P2)
    (Fp : fin_prim2 px p) (Fq : fin_prim2 qx q) (Hp : prim2_ok p) (Hq : prim2_ok q)
    (FL : fin_xf2 TLx TL) (FR : fin_xf2 TRx TR) (HL : similar2 TL) (HR : similar2 TR) (tolx : xr) (tol : R) (Htx : is_fin tolx tol) (Htol : 0 < tol).
  Let A := world TL (prim2_set p).
  Let B := world TR (prim2_set q).
  Notation contactx epsx := (gjk2_intersection epsx (fun d => prim2_support px d TLx) (fun d => prim2_support qx d TRx) tolx FullResolution).
  (** Any two primitives of the plane with finite numbers, wherever they are: no panic, and the contact, if any, holds. *)
  Theorem C64_primitives epsx eps n : is_fin epsx eps -> 0 <= eps ->
    exists o, contactx epsx n (xf_pt TLx zero2) (xf_pt TRx zero2) = Ok o /\
      (o = None <-> gjk2_intersect eps (fun d => prim2_support p d TL) (fun d => prim2_support q d TR) n (xf_pt TL zero2) (xf_pt TR zero2) = Ok None) /\
      forall ctx, o = Some ctx -> exists ct, finc ctx ct /\ true_contact2 A B ct.
  Proof.
    intros Fe He. assert (F1 : fin2 (xf_pt TLx zero2) (xf_pt TL zero2)) by apply FL, f_zero.
    assert (F2 : fin2 (xf_pt TRx zero2) (xf_pt TR zero2)) by apply FR, f_zero.
    pose proof (prim2_supports p TL Hp HL) as SA. pose proof (prim2_supports q TR Hq HR) as SB.
    pose proof (prim2_world_convex p TL HL) as CA. pose proof (prim2_world_convex q TR HR) as CB.
    pose proof (prim2_tracks px p TLx TL Fp Hp FL HL) as KA. pose proof (prim2_tracks qx q TRx TR Fq Hq FR HR) as KB.
    destruct (C64_no_panic A B _ _ SA SB CA CB _ _ KA KB epsx tolx eps tol Fe He Htx Htol _ _ _ _ F1 F2 FullResolution n) as [o Eo].
    exists o. split; [exact Eo|]. split.
    - pose proof (C64_same_answer A B _ _ SA SB CA CB _ _ KA KB epsx tolx eps tol Fe He Htx Htol _ _ _ _ F1 F2 FullResolution n) as Hs.
      cbn beta in *. rewrite Eo in Hs. rewrite <- Hs. split; [by intros ->|congruence].
    - intros ctx ->. exact (C64_contact_true A B _ _ SA SB CA CB _ _ KA KB epsx tolx eps tol Fe He Htx Htol _ _ _ _ F1 F2 n ctx Eo).
  Qed.
  (** If the computation on real numbers gives a normal, this is the same contact, and a good one. *)
  Theorem C64_primitives_same_contact epsx n ct : is_fin epsx 0 ->
    gjk2_intersection 0 (fun d => prim2_support p d TL) (fun d => prim2_support q d TR) tol FullResolution n (xf_pt TL zero2) (xf_pt TR zero2) = Ok (Some ct) ->
    c_normal ct <> zero2 ->
    exists ctx, contactx epsx n (xf_pt TLx zero2) (xf_pt TRx zero2) = Ok (Some ctx) /\ finc ctx ct /\ good_contact2 A B ct.
  Proof.
    intros Fe. assert (F1 : fin2 (xf_pt TLx zero2) (xf_pt TL zero2)) by apply FL, f_zero.
    assert (F2 : fin2 (xf_pt TRx zero2) (xf_pt TR zero2)) by apply FR, f_zero.
    exact (C64_same_contact A B _ _ (prim2_supports p TL Hp HL) (prim2_supports q TR Hq HR) (prim2_world_convex p TL HL) (prim2_world_convex q TR HR)
      _ _ (prim2_tracks px p TLx TL Fp Hp FL HL) (prim2_tracks qx q TRx TR Fq Hq FR HR) epsx tolx tol Fe Htx Htol _ _ _ _ F1 F2 n ct).
  Qed.
End prims.

(** The hypotheses are met: two overlapping squares, finite numbers. *)
Definition xone : xr := XFin false 1.
Definition xzero : xr := XFin false 0.
Definition square_atx (x : R) : Xf (V2 xr) := decomposed2 xzero xone (mkM2 (mk2 xone xzero) (mk2 xzero xone)) (mk2 (XFin false x) xzero).
Example C64_hypotheses_met :
  exists ctx ct, gjk2_intersection xzero (fun d => prim2_support (Rectangle (mk2 (XFin false 2) (XFin false 2))) d (square_atx 0))
      (fun d => prim2_support (Rectangle (mk2 (XFin false 2) (XFin false 2))) d (square_atx 1)) (XFin false (1 / 1000)) FullResolution 100
      (xf_pt (square_atx 0) zero2) (xf_pt (square_atx 1) zero2) = Ok (Some ctx) /\
    finc ctx ct /\ true_contact2 (world (square_at 0) (rect_set (mk2 2 2))) (world (square_at 1) (rect_set (mk2 2 2))) ct.
Proof.
  assert (Fx : forall r, is_fin (XFin false r) r) by (intros r; by eexists).
  assert (FT : forall x, fin_xf2 (square_atx x) (square_at x)).
  { intros x. apply C64_decomposed2; try apply Fx; try lra; [rewrite Rabs_pos_eq; lra|unfold orthonormal; cbn [m2_x m2_y]; rv0; lra|split; split; apply Fx|split; apply Fx]. }
  assert (Fr : fin_prim2 (Rectangle (mk2 (XFin false 2) (XFin false 2))) (Rectangle (mk2 2 2))) by (split; apply Fx).
  assert (Hok : prim2_ok (Rectangle (mk2 2 2))) by (cbn; lra).
  destruct (C64_primitives _ _ _ _ (square_atx 0) (square_atx 1) (square_at 0) (square_at 1) Fr Fr Hok Hok (FT 0) (FT 1)
    (square_at_similar 0) (square_at_similar 1) (XFin false (1 / 1000)) (1 / 1000) (Fx _) ltac:(lra) xzero 0 100 (Fx 0) (Rle_refl 0)) as (o & Eo & Hn & Hc).
  destruct C39_hypotheses_met as [[s Es] _]. destruct o as [ctx|].
  - destruct (Hc ctx eq_refl) as (ct & Hf & Ht). exists ctx, ct. done.
  - exfalso. pose proof (proj1 Hn eq_refl) as E. cbn [prim2_support] in E. change (square_dim (S:=R)) with (square_dim (S:=R)) in E. rewrite Es in E. done.
Qed.
