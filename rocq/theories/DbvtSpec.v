(** Specification of the tree as seen by a user: histories of API calls and an
    abstract state tracked from the calls and their outputs only. *)
From stdpp Require Import prelude gmap fin_maps fin_sets.
From Verif Require Import Res DbvtModel.

(** The API calls that change a tree. *)
Inductive op (T : Type) :=
  | Insert (v : T)                (* insert(v) *)
  | Remove (h : nat)              (* remove(h) *)
  | UpdateNode (h : nat) (v : T)  (* update_node(h, v) *)
  | Flag (h : nat)                (* flag_updated(h) *)
  | Write (h : nat) (v : T)       (* values_mut(): overwrite the value stored with handle h *)
  | Reorder (f : list (nat * T) -> list (nat * T)) (* values_mut() = f(values); reindex_values() *)
  | Update                        (* update() *)
  | Refit (rng : nat -> bool)     (* do_refit(), with these random draws *)
  | Tick (rng : nat -> bool)      (* tick() *)
  | Clear.                        (* clear() *)
Arguments Insert {T} _. Arguments Remove {T} _. Arguments UpdateNode {T} _ _.
Arguments Flag {T} _. Arguments Write {T} _ _. Arguments Reorder {T} _.
Arguments Update {T}. Arguments Refit {T} _. Arguments Tick {T} _. Arguments Clear {T}.

Inductive output (T : Type) := NoOut | Handle (h : nat) | Removed (v : option T).
Arguments NoOut {T}. Arguments Handle {T} _. Arguments Removed {T} _.

Section spec.
  Context {T B S : Type} (O : dbvt_ops T B S).
  Implicit Types s : dbvt T B.

  (** Running one call of the model. *)
  Definition exec (fuel : nat) (o : op T) s : res (dbvt T B * output T) :=
    match o with
    | Insert v => '(s', h) ← insert O s v; Ok (s', Handle h)
    | Remove h => '(s', v) ← remove s h; Ok (s', Removed v)
    | UpdateNode h v => s' ← update_node s h v; Ok (s', NoOut)
    | Flag h => Ok (flag_updated s h, NoOut)
    | Write h v =>
        Ok (with_values s ((fun x => if decide (x.1 = h) then (h, v) else x) <$> values s), NoOut)
    | Reorder f => s' ← reindex_values (with_values s (f (values s))); Ok (s', NoOut)
    | Update => s' ← update O s; Ok (s', NoOut)
    | Refit rng => s' ← do_refit O fuel rng s; Ok (s', NoOut)
    | Tick rng => s' ← tick O fuel rng s; Ok (s', NoOut)
    | Clear => Ok (dbvt_clear s, NoOut)
    end.

  (** What the user knows. [issued]: handles returned by insert since the tree was
      last empty.  [pending]: handles flagged since the last update.  [unflagged]:
      handles whose value was overwritten in place and not flagged since. *)
  Record astate := AState {
    live : gmap nat T; issued : gset nat; pending : gset nat; unflagged : gset nat }.
  Definition astart : astate := AState ∅ ∅ ∅ ∅.

  Definition anext (a : astate) (o : op T) (out : output T) : astate :=
    match o, out with
    | Insert v, Handle h =>
        AState (<[h := v]> (live a)) ({[h]} ∪ issued a) (pending a) (unflagged a ∖ {[h]})
    | Remove h, _ =>
        let live' := delete h (live a) in
        AState live'
               (if decide (live' = ∅ /\ is_Some (live a !! h)) then ∅ else issued a)
               (pending a) (unflagged a ∖ {[h]})
    | UpdateNode h v, _ =>
        AState (alter (fun _ => v) h (live a)) (issued a) ({[h]} ∪ pending a) (unflagged a ∖ {[h]})
    | Flag h, _ => AState (live a) (issued a) ({[h]} ∪ pending a) (unflagged a ∖ {[h]})
    | Write h v, _ =>
        AState (alter (fun _ => v) h (live a)) (issued a) (pending a) (unflagged a ∪ ({[h]} ∖ pending a))
    | Update, _ => AState (live a) (issued a) ∅ (unflagged a)
    | Tick _, _ => AState (live a) (issued a) ∅ (unflagged a)
    | Clear, _ => AState ∅ ∅ (pending a) ∅
    | _, _ => a
    end.

  (** Calls within the documented contract. *)
  Definition legal (a : astate) (o : op T) : Prop :=
    match o with
    | Insert _ => True
    | Remove h => h ∈ issued a
    | UpdateNode h _ => h ∈ issued a
    | Flag h => h ∈ issued a
    | Write _ _ => True
    | Reorder f => forall l, f l ≡ₚ l
    | Update | Tick _ => pending a ⊆ issued a
    | Refit _ => True
    | Clear => True
    end.

  (** The output a user expects. *)
  Definition expected (a : astate) (o : op T) (out : output T) : Prop :=
    match o with
    | Insert _ => exists h, out = Handle h /\ live a !! h = None
    | Remove h => out = Removed (live a !! h)
    | _ => out = NoOut
    end.

  (** All histories of legal calls, from the empty tree. *)
  Inductive history : astate -> dbvt T B -> Prop :=
    | history_new : history astart dbvt_new
    | history_step a s o fuel s' out :
        history a s -> legal a o -> exec fuel o s = Ok (s', out) -> history (anext a o out) s'.

  (** The tree rooted at a node index, with the exact bounds and heights it must
      store, its parent and the handles of its leaves. *)
  Inductive exact_tree s : nat -> nat -> nat -> B -> list nat -> Prop :=
    | exact_leaf i p k b v :
        nodes s !! i = Some (Leaf p k b) -> values s !! k = Some (i, v) -> exact_tree s p i 1 b [i]
    | exact_branch i p l r hl hr bl br Ll Lr :
        exact_tree s i l hl bl Ll -> exact_tree s i r hr br Lr ->
        nodes s !! i = Some (Branch p l r (1 + max hl hr) (b_union O bl br)) ->
        exact_tree s p i (1 + max hl hr) (b_union O bl br) (Ll ++ Lr).

  (** Enclosure laws: what completeness of queries needs from the bound type.
      [leq b b] singles out the regular bounds (e.g. no NaN coordinate), the only ones
      on which union must be an upper bound. *)
  Record enclosure (leq : B -> B -> Prop) : Prop := Enclosure {
    enc_trans : forall a b c, leq a b -> leq b c -> leq a c;
    enc_regular : forall a b, leq a b -> leq b b;
    enc_union_l : forall a b, leq a a -> leq b b -> leq a (b_union O a b);
    enc_union_r : forall a b, leq a a -> leq b b -> leq b (b_union O a b);
    enc_contains : forall a b, b_contains O a b = true -> leq b a;
  }.
  (** The fat bound of every stored value contains its bound. *)
  Definition fat_ok (a : astate) : Prop :=
    forall h v, live a !! h = Some v -> b_contains O (tv_fat O v) (tv_bound O v) = true.
End spec.
Arguments astate : clear implicits.
