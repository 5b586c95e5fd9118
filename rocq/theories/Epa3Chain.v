(** The bookkeeping of faces and edges of the expanding polytope (EPA in space): the
    surface stays closed, that is, every side of a face is, read backwards, a side of
    another. *)
From stdpp Require Import prelude.
From Coq Require Import Reals Lra.
From Verif Require Import Res Num Vec AabbModel GeoModel RealGeo PrimModel ShapeSpec MinkModel MinkSpec.

Definition edge := (nat * nat)%type.
Definition rev_e (e : edge) : edge := (e.2, e.1).
Lemma rev_rev e : rev_e (rev_e e) = e.
Proof. by destruct e. Qed.
Definition ie (x e : edge) : Z := if decide (x = e) then 1%Z else 0%Z.
Definition iv (x a : nat) : Z := if decide (x = a) then 1%Z else 0%Z.
Fixpoint cnt (e : edge) (l : list edge) : Z := match l with [] => 0%Z | x :: l => (ie x e + cnt e l)%Z end.
Definition net (e : edge) (l : list edge) : Z := (cnt e l - cnt (rev_e e) l)%Z.
(** Edges leaving minus edges entering a vertex. *)
Fixpoint deg (a : nat) (l : list edge) : Z :=
  match l with [] => 0%Z | x :: l => (iv x.1 a - iv x.2 a + deg a l)%Z end.

Lemma cnt_app e l l' : cnt e (l ++ l') = (cnt e l + cnt e l')%Z.
Proof. induction l as [|x l IH]; cbn [cnt app]; lia. Qed.
Lemma net_app e l l' : net e (l ++ l') = (net e l + net e l')%Z.
Proof. unfold net. rewrite !cnt_app. lia. Qed.
Lemma deg_app a l l' : deg a (l ++ l') = (deg a l + deg a l')%Z.
Proof. induction l as [|x l IH]; cbn [deg app]; lia. Qed.
Lemma cnt_nonneg e l : (0 <= cnt e l)%Z.
Proof. induction l as [|x l IH]; cbn [cnt]; [lia|]. unfold ie. destruct (decide _); lia. Qed.
Lemma cnt_pos e l : (0 < cnt e l)%Z <-> e ∈ l.
Proof.
  induction l as [|x l IH]; cbn [cnt]; [split; [lia|by intros ?%elem_of_nil]|].
  rewrite elem_of_cons. unfold ie. pose proof (cnt_nonneg e l). destruct (decide (x = e)) as [->|Hne].
  - split; [by left|lia].
  - rewrite <- IH. split; [intros; right; lia|intros [->|?]; [done|lia]].
Qed.
Lemma cnt_Permutation e l l' : l ≡ₚ l' -> cnt e l = cnt e l'.
Proof. induction 1; cbn [cnt]; lia. Qed.
Lemma net_Permutation e l l' : l ≡ₚ l' -> net e l = net e l'.
Proof. intros Hp. unfold net. by rewrite !(cnt_Permutation _ _ _ Hp). Qed.
Lemma net_rev e l : net (rev_e e) l = (- net e l)%Z.
Proof. unfold net. rewrite rev_rev. lia. Qed.
Lemma rev_eq x e : rev_e x = e <-> x = rev_e e.
Proof. split; [intros <-|intros ->]; by rewrite rev_rev. Qed.
Lemma ie_rev x e : ie (rev_e x) e = ie x (rev_e e).
Proof. unfold ie. pose proof (rev_eq x e). destruct (decide _), (decide _); tauto. Qed.
Lemma ie_eq x : ie x x = 1%Z.
Proof. unfold ie. by rewrite decide_True. Qed.
Lemma ie_ne x e : x <> e -> ie x e = 0%Z.
Proof. intros. unfold ie. by rewrite decide_False. Qed.

(** ** Cancelling opposite edges *)
Lemma remove_opposite_spec es e es' : remove_opposite es e = Some es' -> es ≡ₚ rev_e e :: es'.
Proof.
  revert es'. induction es as [|x es IH]; intros es'; cbn [remove_opposite]; [done|].
  case_bool_decide as Hx.
  - intros [= ->]. destruct e as [e1 e2], x as [x1 x2]. cbn in Hx. destruct Hx as [-> ->]. done.
  - destruct (remove_opposite es e) as [xs|] eqn:E; [|done]. intros [= <-]. rewrite (IH xs eq_refl). apply Permutation_swap.
Qed.
Lemma remove_opposite_none es e : remove_opposite es e = None -> rev_e e ∉ es.
Proof.
  induction es as [|x es IH]; cbn [remove_opposite]; [by intros _ ?%elem_of_nil|].
  case_bool_decide as Hx; [done|]. destruct (remove_opposite es e) as [xs|]; [done|]. intros _ [<-|?]%elem_of_cons; [|by apply IH].
  by apply Hx.
Qed.
Lemma deg_Permutation a l l' : l ≡ₚ l' -> deg a l = deg a l'.
Proof. induction 1; cbn [deg]; lia. Qed.
Lemma remove_or_add_net x es e : net x (remove_or_add es e) = (net x es + net x [e])%Z.
Proof.
  unfold remove_or_add. destruct (remove_opposite es e) as [es'|] eqn:E; [|by rewrite net_app].
  apply remove_opposite_spec in E. rewrite (net_Permutation x _ _ E). unfold net. cbn [cnt].
  rewrite !ie_rev, rev_rev. lia.
Qed.
Lemma remove_or_add_deg a es e : deg a (remove_or_add es e) = (deg a es + deg a [e])%Z.
Proof.
  unfold remove_or_add. destruct (remove_opposite es e) as [es'|] eqn:E; [|by rewrite deg_app].
  apply remove_opposite_spec in E. rewrite (deg_Permutation a _ _ E). cbn [deg rev_e fst snd]. lia.
Qed.
Lemma remove_or_add_sub es e x : x ∈ remove_or_add es e -> x ∈ es \/ x = e.
Proof.
  unfold remove_or_add. destruct (remove_opposite es e) as [es'|] eqn:E.
  - apply remove_opposite_spec in E. rewrite E, elem_of_cons. tauto.
  - rewrite elem_of_app, elem_of_list_singleton. tauto.
Qed.
(** No edge is listed with its opposite. *)
Definition oneway (es : list edge) : Prop := forall e, e ∈ es -> rev_e e ∉ es.
Lemma remove_or_add_oneway es e : e.1 <> e.2 -> oneway es -> oneway (remove_or_add es e).
Proof.
  intros He Ho. unfold remove_or_add. destruct (remove_opposite es e) as [es'|] eqn:E.
  - apply remove_opposite_spec in E. intros x Hx Hx'. apply (Ho x); rewrite E, elem_of_cons; by right.
  - apply remove_opposite_none in E. intros x. rewrite !elem_of_app, !elem_of_list_singleton.
    intros [Hx| ->] [Hx'|Hx']; [by apply (Ho x)| |done|].
    + apply rev_eq in Hx'. by subst x.
    + destruct e as [e1 e2]. cbn in *. injection Hx'. naive_solver.
Qed.

(** ** The sides of the faces *)
Definition sides (t : nat * nat * nat) : list edge := let '(a, b, c) := t in [(a, b); (b, c); (c, a)].
Definition dirs (ts : list (nat * nat * nat)) : list edge := ts ≫= sides.
Definition balanced (ts : list (nat * nat * nat)) : Prop := forall e, net e (dirs ts) = 0%Z.
Definition proper (t : nat * nat * nat) : Prop := let '(a, b, c) := t in a <> b /\ b <> c /\ c <> a.
Lemma dirs_cons t ts : dirs (t :: ts) = sides t ++ dirs ts.
Proof. done. Qed.
Lemma dirs_app ts ts' : dirs (ts ++ ts') = dirs ts ++ dirs ts'.
Proof. unfold dirs. by rewrite bind_app. Qed.
Lemma dirs_elem e ts : e ∈ dirs ts <-> exists t, t ∈ ts /\ e ∈ sides t.
Proof. unfold dirs. rewrite elem_of_list_bind. naive_solver. Qed.
Lemma dirs_Permutation ts ts' : ts ≡ₚ ts' -> dirs ts ≡ₚ dirs ts'.
Proof. intros Hp. unfold dirs. by rewrite Hp. Qed.
Lemma sides_deg a t : deg a (sides t) = 0%Z.
Proof. destruct t as [[x y] z]. cbn [sides deg fst snd]. lia. Qed.

(** Every side of a balanced surface is, read backwards, a side. *)
Lemma balanced_opposite ts e : balanced ts -> e ∈ dirs ts -> rev_e e ∈ dirs ts.
Proof.
  intros Hb He. apply cnt_pos in He. apply cnt_pos. specialize (Hb e). unfold net in Hb. lia.
Qed.
(** Replacing the faces [rm] by the cone from a fresh vertex [n] over their uncancelled
    sides keeps the surface balanced. *)
Definition fan (n : nat) (es : list edge) : list (nat * nat * nat) := (fun e => (n, e.1, e.2)) <$> es.
Lemma fan_cnt_old n es x : x.1 <> n -> x.2 <> n -> cnt x (dirs (fan n es)) = cnt x es.
Proof.
  intros H1 H2. induction es as [|e es IH]; [done|]. unfold fan. rewrite fmap_cons, dirs_cons. fold (fan n es).
  cbn [sides app cnt]. rewrite IH. destruct e as [e1 e2]. cbn [fst snd].
  rewrite (ie_ne (n, e1)), (ie_ne (e2, n)) by (intros <-; done). lia.
Qed.
Lemma fan_cnt_out n es a : a <> n -> (forall e, e ∈ es -> e.1 <> n /\ e.2 <> n) ->
  (cnt (n, a) (dirs (fan n es)) - cnt (a, n) (dirs (fan n es)))%Z = deg a es.
Proof.
  intros Ha Hes. induction es as [|e es IH]; [done|]. unfold fan. rewrite fmap_cons, dirs_cons. fold (fan n es).
  destruct (Hes e) as [E1 E2]; [by left|]. cbn [sides app cnt deg]. destruct e as [e1 e2]. cbn [fst snd] in *.
  assert (Hi : (cnt (n, a) (dirs (fan n es)) - cnt (a, n) (dirs (fan n es)))%Z = deg a es) by (apply IH; intros; apply Hes; by right).
  rewrite (ie_ne (e1, e2) (n, a)), (ie_ne (e2, n) (n, a)), (ie_ne (n, e1) (a, n)), (ie_ne (e1, e2) (a, n)) by naive_solver.
  assert (E3 : ie (n, e1) (n, a) = iv e1 a) by (unfold ie, iv; destruct (decide _), (decide _); naive_solver).
  assert (E4 : ie (e2, n) (a, n) = iv e2 a) by (unfold ie, iv; destruct (decide _), (decide _); naive_solver). lia.
Qed.
Lemma fan_balanced ts keep rm es n :
  ts ≡ₚ keep ++ rm -> balanced ts -> (forall e, net e es = net e (dirs rm)) -> (forall a, deg a es = 0%Z) ->
  (forall e, e ∈ dirs ts -> e.1 <> n /\ e.2 <> n) -> (forall e, e ∈ es -> e ∈ dirs rm) ->
  balanced (keep ++ fan n es).
Proof.
  intros Hp Hb Hn Hd Hf Hs e. rewrite dirs_app, net_app.
  assert (Hk : forall e, (net e (dirs keep) + net e (dirs rm))%Z = 0%Z).
  { intros x. rewrite <- net_app, <- dirs_app, <- (net_Permutation x _ _ (dirs_Permutation _ _ Hp)). apply Hb. }
  assert (Hin : forall x, x ∈ dirs keep \/ x ∈ dirs rm -> x.1 <> n /\ x.2 <> n).
  { intros x Hx. apply Hf. rewrite (dirs_Permutation _ _ Hp), dirs_app, elem_of_app. done. }
  assert (Hes : forall e, e ∈ es -> e.1 <> n /\ e.2 <> n) by (intros; apply Hin; auto).
  assert (Hk0 : forall x, x.1 = n \/ x.2 = n -> cnt x (dirs keep) = 0%Z).
  { intros x Hx. pose proof (cnt_nonneg x (dirs keep)). destruct (decide (0 < cnt x (dirs keep))%Z) as [Hc|]; [|lia].
    apply cnt_pos in Hc. destruct (Hin x); [by left|]. naive_solver. }
  destruct e as [x y]. destruct (decide (x = n)) as [->|Hx], (decide (y = n)) as [->|Hy].
  - unfold net. rewrite !Hk0 by (cbn; auto). unfold rev_e. cbn [fst snd]. lia.
  - unfold net, rev_e at 1. rewrite !Hk0 by (cbn; auto). unfold rev_e. cbn [fst snd].
    pose proof (fan_cnt_out n es y Hy Hes). rewrite Hd in H. lia.
  - unfold net, rev_e at 1. rewrite !Hk0 by (cbn; auto). unfold rev_e. cbn [fst snd].
    pose proof (fan_cnt_out n es x Hx Hes). rewrite Hd in H. lia.
  - specialize (Hk (x, y)). specialize (Hn (x, y)). unfold net in *. rewrite !fan_cnt_old by done. lia.
Qed.
(** A side that is left over belongs to a removed face, and its opposite to a kept one. *)
Lemma left_over ts keep rm es e :
  ts ≡ₚ keep ++ rm -> balanced ts -> (forall e, net e es = net e (dirs rm)) -> oneway es -> e ∈ es ->
  rev_e e ∈ dirs keep.
Proof.
  intros Hp Hb Hn Ho He.
  assert (Hk : (net e (dirs keep) + net e (dirs rm))%Z = 0%Z).
  { rewrite <- net_app, <- dirs_app, <- (net_Permutation e _ _ (dirs_Permutation _ _ Hp)). apply Hb. }
  specialize (Hn e). specialize (Ho e He). apply cnt_pos in He. unfold net in *.
  assert (cnt (rev_e e) es = 0%Z).
  { pose proof (cnt_nonneg (rev_e e) es). destruct (decide (0 < cnt (rev_e e) es)%Z) as [Hc|]; [|lia]. by apply cnt_pos in Hc. }
  apply cnt_pos. pose proof (cnt_nonneg e (dirs keep)). lia.
Qed.
(** A sum over the sides of a balanced surface of something that changes sign with the
    direction is zero. *)
Fixpoint esum (g : edge -> R) (l : list edge) : R := match l with [] => 0%R | x :: l => (g x + esum g l)%R end.
Lemma esum_app g l l' : esum g (l ++ l') = (esum g l + esum g l')%R.
Proof. induction l as [|x l IH]; cbn [esum app]; [lra|]. rewrite IH. lra. Qed.
Lemma esum_Permutation g l l' : l ≡ₚ l' -> esum g l = esum g l'.
Proof. induction 1; cbn [esum]; lra. Qed.
Lemma esum_balanced g l : (forall e, g (rev_e e) = (- g e)%R) -> (forall e, net e l = 0%Z) -> esum g l = 0%R.
Proof.
  intros Hg. remember (length l) as n eqn:Hn. revert l Hn. induction n as [n IH] using lt_wf_ind. intros l -> Hb.
  destruct l as [|e l]; [done|]. destruct (decide (rev_e e = e)) as [Ee|Ee].
  - cbn [esum]. rewrite (IH (length l)) with (l := l); [|cbn; lia|done|].
    + specialize (Hg e). rewrite Ee in Hg. lra.
    + intros x. specialize (Hb x). unfold net in *. cbn [cnt] in Hb.
      rewrite <- ie_rev, Ee in Hb. lia.
  - assert (Hin : rev_e e ∈ l).
    { specialize (Hb e). unfold net in Hb. cbn [cnt] in Hb. rewrite ie_eq, (ie_ne e (rev_e e)) in Hb by congruence. apply cnt_pos. pose proof (cnt_nonneg e l). lia. }
    apply elem_of_Permutation in Hin as [l' Hl']. cbn [esum]. rewrite (esum_Permutation _ _ _ Hl'). cbn [esum].
    rewrite (IH (length l')) with (l := l'); [rewrite Hg; lra| |done|].
    + rewrite Hl'. cbn. lia.
    + intros x. specialize (Hb x). rewrite (net_Permutation x (e :: l) (e :: rev_e e :: l')) in Hb by by rewrite Hl'.
      unfold net in *. cbn [cnt] in Hb.
      rewrite !ie_rev, rev_rev in Hb. lia.
Qed.

(** ** [swap_remove] and the removal loop *)
Lemma swap_remove_spec {A} i (l : list A) x : l !! i = Some x -> l ≡ₚ x :: swap_remove i l.
Proof.
  intros Hi. pose proof (lookup_lt_Some _ _ _ Hi) as Hlt. unfold swap_remove.
  destruct (last l) as [y|] eqn:El; [|apply last_None in El; by subst].
  apply last_Some in El as [l' ->]. rewrite app_length in *. cbn [length] in *.
  destruct (decide (i = _)) as [E|E].
  - assert (i = length l') as -> by lia. rewrite take_app. rewrite list_lookup_middle in Hi by done. injection Hi as ->.
    by rewrite Permutation_app_comm.
  - rewrite lookup_app_l in Hi by lia. rewrite take_app_le by lia. rewrite drop_app_le by lia.
    replace (length l' + 1 - 1 - (i + 1))%nat with (length (drop (i + 1) l')) by (rewrite drop_length; lia).
    rewrite take_app. rewrite <- (take_drop_middle l' i x Hi) at 1. replace (i + 1)%nat with (Datatypes.S i) by lia.
    rewrite (Permutation_app_comm _ [y]), <- Permutation_middle. cbn [app]. rewrite Permutation_swap. f_equiv.
    by rewrite Permutation_middle.
Qed.
Section remove.
  Context (vs : list (SupPt P3)) (p : P3).
  Local Open Scope R_scope.
  Definition sees (f : Face3) : Prop :=
    exists s, vs !! (f_vs f).1.1 = Some s /\ 0 < dot3 (f_normal f) (sub3 p (sp_v s)).
  Definition blind (f : Face3) : Prop :=
    exists s, vs !! (f_vs f).1.1 = Some s /\ dot3 (f_normal f) (sub3 p (sp_v s)) <= 0.
  Lemma swap_remove_take {A} i (l : list A) x : l !! i = Some x -> take i (swap_remove i l) = take i l.
  Proof.
    intros Hi%lookup_lt_Some. unfold swap_remove. destruct (last l) as [y|]; [|done].
    destruct (decide _); [by rewrite take_take, Nat.min_id|]. rewrite take_app_le by (rewrite take_length; lia). by rewrite take_take, Nat.min_id.
  Qed.
  Lemma swap_remove_length {A} i (l : list A) x : l !! i = Some x -> length l = Datatypes.S (length (swap_remove i l)).
  Proof. intros Hi. by rewrite (swap_remove_spec i l x Hi) at 1. Qed.
  Notation tris := (map f_vs).
  Lemma remove_visible_spec fuel i fs edges rm0 :
    (length fs - i <= fuel)%nat ->
    Forall (fun f => is_Some (vs !! (f_vs f).1.1) /\ proper (f_vs f)) fs ->
    Forall blind (take i fs) -> oneway edges ->
    (forall e, net e edges = net e (dirs (tris rm0))) -> (forall a, deg a edges = 0%Z) -> (forall e, e ∈ edges -> e ∈ dirs (tris rm0)) ->
    exists keep rm es, remove_visible fuel vs p i fs edges = Ok (keep, es) /\ fs ≡ₚ keep ++ rm /\
      Forall blind keep /\ Forall sees rm /\ oneway es /\
      (forall e, net e es = net e (dirs (tris (rm0 ++ rm)))) /\ (forall a, deg a es = 0%Z) /\ (forall e, e ∈ es -> e ∈ dirs (tris (rm0 ++ rm))).
  Proof.
    revert i fs edges rm0. induction fuel as [|fuel IH]; intros i fs edges rm0 Hfuel Hok Hbl Ho Hn Hd Hs.
    - exists fs, [], edges. cbn [remove_visible]. destruct (fs !! i) as [f|] eqn:Ef; [apply lookup_lt_Some in Ef; lia|].
      apply lookup_ge_None in Ef. rewrite take_ge in Hbl by done. rewrite !app_nil_r. done.
    - cbn [remove_visible]. destruct (fs !! i) as [f|] eqn:Ef.
      + pose proof (proj1 (Forall_lookup _ _) Hok i f Ef) as [[s Es] Hpr]. destruct (f_vs f) as [[a b] c] eqn:Evs. cbn [fst] in Es.
        rewrite (get_Some _ _ _ Es). cbn [mbind res_mbind res_bind].
        destruct (nlt n0 (dot3 (f_normal f) (sub3 p (sp_v s)))) eqn:Edot; cbn [nlt n0 Num_R] in Edot.
        * set (e3 := remove_or_add (remove_or_add (remove_or_add edges (a, b)) (b, c)) (c, a)).
          destruct Hpr as (P1 & P2 & P3).
          destruct (IH i (swap_remove i fs) e3 (rm0 ++ [f])) as (keep & rm & es & E1 & E2 & E3 & E4 & E5 & E6 & E7 & E8).
          -- apply swap_remove_length in Ef. lia.
          -- rewrite (swap_remove_spec i fs f Ef) in Hok. by apply Forall_cons in Hok as [_ ?].
          -- by rewrite (swap_remove_take i fs f Ef).
          -- by repeat apply remove_or_add_oneway.
          -- intros e. unfold e3. rewrite !remove_or_add_net, Hn. rewrite map_app, dirs_app, net_app. cbn [map]. rewrite Evs.
             change (dirs [(a, b, c)]) with ([(a, b)] ++ [(b, c)] ++ [(c, a)]). rewrite !net_app. lia.
          -- intros x. unfold e3. rewrite !remove_or_add_deg, Hd. pose proof (sides_deg x (a, b, c)) as Hz. cbn [sides deg fst snd] in *. lia.
          -- intros e He. rewrite map_app, dirs_app, elem_of_app. cbn [map]. rewrite Evs. change (dirs [(a, b, c)]) with [(a, b); (b, c); (c, a)].
             unfold e3 in He. apply remove_or_add_sub in He as [He| ->]; [|set_solver].
             apply remove_or_add_sub in He as [He| ->]; [|set_solver]. apply remove_or_add_sub in He as [He| ->]; [|set_solver]. left. by apply Hs.
          -- exists keep, (f :: rm), es. split; [done|]. split.
             { rewrite (swap_remove_spec i fs f Ef), E2. apply Permutation_middle. }
             split; [done|]. split.
             { apply Forall_cons. split; [|done]. exists s. rewrite Evs. cbn [fst]. split; [done|]. by apply Rltb_true in Edot. }
             split; [done|]. rewrite <- app_assoc in E6, E8. done.
        * destruct (IH (i + 1)%nat fs edges rm0) as (keep & rm & es & E); try done.
          -- lia.
          -- replace (i + 1)%nat with (Datatypes.S i) by lia. rewrite (take_S_r fs i f Ef). apply Forall_app. split; [done|].
             apply Forall_singleton. exists s. rewrite Evs. cbn [fst]. split; [done|]. apply Rltb_false in Edot. lra.
          -- by exists keep, rm, es.
      + exists fs, [], edges. apply lookup_ge_None in Ef. rewrite take_ge in Hbl by done. rewrite !app_nil_r. done.
  Qed.
End remove.
