(** Model of the dynamic bounding volume tree, /repo/src/dbvt/mod.rs.

    Simplifications, for the whole file: [usize] and [u32] are unbounded [nat];
    the bound type, its [union], [contains], [surface_area], the scalar
    comparison and the value type are arbitrary parameters ([dbvt_ops]);
    the thread-local random generator is an arbitrary boolean oracle. *)
From stdpp Require Import prelude.
From Verif Require Import Res.

(** Trait operations used by the tree (mod.rs 113-124 [TreeValue], 322-325 the
    bounds on [T::Bound]: [Contains], [Union], [SurfaceArea]; traits.rs).
    [s_lt a b] is [a < b] on the surface area scalar.
    [s_improves my mn] is [(my - mn) / my > improvement_percentage]
    (mod.rs 985, constant on line 107). *)
Record dbvt_ops (T B S : Type) := DbvtOps {
  tv_bound : T -> B;
  tv_fat : T -> B;
  b_union : B -> B -> B;
  b_contains : B -> B -> bool;
  b_area : B -> S;
  s_lt : S -> S -> bool;
  s_improves : S -> S -> bool;
}.
Arguments tv_bound {T B S} _ _.
Arguments tv_fat {T B S} _ _.
Arguments b_union {T B S} _ _ _.
Arguments b_contains {T B S} _ _ _.
Arguments b_area {T B S} _ _.
Arguments s_lt {T B S} _ _ _.
Arguments s_improves {T B S} _ _ _.

(** mod.rs 297-320: [Branch], [Leaf], [Node]. *)
Inductive node (B : Type) : Type :=
  | Branch (parent left right height : nat) (bound : B)
  | Leaf (parent value : nat) (bound : B)
  | Nil.
Arguments Branch {B} _ _ _ _ _.
Arguments Leaf {B} _ _ _.
Arguments Nil {B}.

(** mod.rs 241-251: [DynamicBoundingVolumeTree]. *)
Record dbvt (T B : Type) := Dbvt {
  nodes : list (node B);
  values : list (nat * T);
  free_list : list nat;
  updated_list : list nat;
  root_index : nat;
  refit_nodes : list (nat * nat);
}.
Arguments Dbvt {T B} _ _ _ _ _ _.
Arguments nodes {T B} _.
Arguments values {T B} _.
Arguments free_list {T B} _.
Arguments updated_list {T B} _.
Arguments root_index {T B} _.
Arguments refit_nodes {T B} _.

Section setters.
  Context {T B : Type}.
  Implicit Types s : dbvt T B.
  Definition with_nodes s x : dbvt T B := Dbvt x (values s) (free_list s) (updated_list s) (root_index s) (refit_nodes s).
  Definition with_values s x : dbvt T B := Dbvt (nodes s) x (free_list s) (updated_list s) (root_index s) (refit_nodes s).
  Definition with_free s x : dbvt T B := Dbvt (nodes s) (values s) x (updated_list s) (root_index s) (refit_nodes s).
  Definition with_updated s x : dbvt T B := Dbvt (nodes s) (values s) (free_list s) x (root_index s) (refit_nodes s).
  Definition with_root s x : dbvt T B := Dbvt (nodes s) (values s) (free_list s) (updated_list s) x (refit_nodes s).
  Definition with_refit s x : dbvt T B := Dbvt (nodes s) (values s) (free_list s) (updated_list s) (root_index s) x.
End setters.

(** mod.rs 1252-1293: [get_left_index], [get_right_index], [is_leaf],
    [get_height], [get_bound]. *)
Definition get_left_index {B} (n : node B) : res nat :=
  match n with Branch _ l _ _ _ => Ok l | _ => Panic end.
Definition get_right_index {B} (n : node B) : res nat :=
  match n with Branch _ _ r _ _ => Ok r | _ => Panic end.
Definition is_leaf {B} (n : node B) : bool :=
  match n with Leaf _ _ _ => true | _ => false end.
Definition get_height {B} (n : node B) : nat :=
  match n with Branch _ _ _ h _ => h | Leaf _ _ _ => 1 | Nil => 0 end.
Definition get_bound {B} (n : node B) : res B :=
  match n with Branch _ _ _ _ b => Ok b | Leaf _ _ b => Ok b | Nil => Panic end.

(** Writing the [parent] field, mod.rs 698-701 (leaf only), 802-807, 1130-1140. *)
Definition set_parent {B} (p : nat) (n : node B) : node B :=
  match n with
  | Branch _ l r h b => Branch p l r h b
  | Leaf _ v b => Leaf p v b
  | Nil => Nil
  end.

(** Redirecting one child pointer of a branch: [if x.left == from { x.left = to }
    else { x.right = to }], mod.rs 707-713, 815-822, 1114-1128. *)
Definition redirect_child {B} (from to : nat) (n : node B) : node B :=
  match n with
  | Branch p l r h b =>
      if decide (l = from) then Branch p to r h b else Branch p l to h b
  | _ => n
  end.

(** [nodes[i] = f(nodes[i])], panicking when out of bounds. *)
Definition modify {B} (ns : list (node B)) (i : nat) (f : node B -> node B) : res (list (node B)) :=
  n ← get ns i; Ok (<[i := f n]> ns).

(** Lexicographic comparison of [(u32, usize)], as used by [binary_search]
    in mod.rs 887. *)
Definition pair_cmp (x y : nat * nat) : comparison :=
  match x.1 ?= y.1 with Eq => x.2 ?= y.2 | c => c end.

(** [slice::binary_search] of the standard library (bisection); [inl i] is
    [Ok(i)], [inr i] is [Err(i)].  The fuel [length l] is always enough; should
    it run out the model would answer [inr left]. *)
Fixpoint bsearch_loop (fuel : nat) (l : list (nat * nat)) (x : nat * nat) (left right : nat) : nat + nat :=
  match fuel with
  | 0 => inr left
  | S fuel' =>
      if decide (left < right) then
        let mid := left + (right - left) / 2 in
        match l !! mid with
        | None => inr left
        | Some y =>
            match pair_cmp y x with
            | Lt => bsearch_loop fuel' l x (mid + 1) right
            | Gt => bsearch_loop fuel' l x left mid
            | Eq => inl mid
            end
        end
      else inr left
  end.
Definition binary_search (l : list (nat * nat)) (x : nat * nat) : nat + nat :=
  bsearch_loop (S (length l)) l x 0 (length l).

(** [Vec::insert]. *)
Definition vec_insert {A} (i : nat) (x : A) (l : list A) : list A := take i l ++ x :: drop i l.

(** [Vec::swap_remove]: panics when out of bounds. *)
Definition swap_remove {A} (l : list A) (i : nat) : res (A * list A) :=
  x ← get l i;
  match last l with
  | None => Panic
  | Some z => Ok (x, take (length l - 1) (<[i := z]> l))
  end.

(** mod.rs 1089-1097 [Rotation]. *)
Inductive rotation :=
  | RotNone | LeftRightLeft | LeftRightRight | RightLeftLeft | RightLeftRight
  | LeftLeftRightLeft | LeftLeftRightRight.

(** mod.rs 1107-1141 [swap]. *)
Definition swap_nodes {B} (ns : list (node B)) (ls rs lp rp : nat) : res (list (node B)) :=
  ns ← modify ns lp (redirect_child ls rs);
  ns ← modify ns rp (redirect_child rs ls);
  ns ← modify ns ls (set_parent rp);
  modify ns rs (set_parent lp).

(** A tree visitor, mod.rs 140-149 [Visitor]: [accept(&mut self, bound, is_leaf)]. *)
Definition visitor (V B R : Type) := V -> B -> bool -> option R * V.

Section model.
  Context {T B S : Type} (O : dbvt_ops T B S).
  Implicit Types s : dbvt T B.

  (** mod.rs 253-269, 341 [default] / [new]. *)
  Definition dbvt_new : dbvt T B := Dbvt [Nil] [] [] [] 0 [].

  (** mod.rs 347-350 [size]. *)
  Definition dbvt_size s : nat := length (nodes s) - length (free_list s) - 1.

  (** mod.rs 354-364 [height]. *)
  Definition dbvt_height s : res nat :=
    match values s with
    | [] => Ok 0
    | _ => n ← get (nodes s) (root_index s); Ok (get_height n)
    end.

  (** mod.rs 405-411 [reindex_values]: the loop over [0..values.len()]. *)
  Fixpoint reindex_loop (ns : list (node B)) (i : nat) (vs : list (nat * T)) : res (list (node B)) :=
    match vs with
    | [] => Ok ns
    | v :: vs' =>
        n ← get ns v.1;
        reindex_loop
          (match n with Leaf p _ b => <[v.1 := Leaf p i b]> ns | _ => ns end)
          (i + 1) vs'
    end.
  Definition reindex_values s : res (dbvt T B) :=
    ns ← reindex_loop (nodes s) 0 (values s); Ok (with_nodes s ns).

  (** mod.rs 417-423 [clear]: note that [updated_list] is kept. *)
  Definition dbvt_clear s : dbvt T B := Dbvt [Nil] [] [] (updated_list s) 0 [].

  (** mod.rs 426-431 [value_index]. *)
  Definition value_index s (i : nat) : res (option nat) :=
    n ← get (nodes s) i;
    Ok (match n with Leaf _ v _ => Some v | _ => None end).

  (** mod.rs 880-891 [mark_for_refit]. *)
  Definition mark_for_refit s (i min_height : nat) : res (dbvt T B) :=
    n ← get (nodes s) i;
    let node_height := match n with Branch _ _ _ h _ => h | _ => 0 end in
    let value := (max node_height min_height, i) in
    match binary_search (refit_nodes s) value with
    | inl _ => Ok s
    | inr k => Ok (with_refit s (vec_insert k value (refit_nodes s)))
    end.

  (** mod.rs 535-540 [update_node], 551-553 [flag_updated]. *)
  Definition flag_updated s (i : nat) : dbvt T B := with_updated s (updated_list s ++ [i]).
  Definition update_node s (i : nat) (v : T) : res (dbvt T B) :=
    n ← get (nodes s) i;
    s ← (match n with
         | Leaf _ k _ => old ← get (values s) k; Ok (with_values s (<[k := (old.1, v)]> (values s)))
         | _ => Ok s
         end);
    Ok (flag_updated s i).

  (** mod.rs 565-594 [update]; first the [filter_map], then the loop. *)
  Fixpoint update_collect s (l : list nat) : res (list (nat * nat * B)) :=
    match l with
    | [] => Ok []
    | i :: l' =>
        n ← get (nodes s) i;
        hd ← (match n with
              | Leaf p k b =>
                  v ← get (values s) k;
                  Ok (if b_contains O b (tv_bound O v.2) then [] else [(i, p, tv_fat O v.2)])
              | _ => Ok []
              end);
        tl ← update_collect s l';
        Ok (hd ++ tl)
    end.
  Fixpoint update_apply s (l : list (nat * nat * B)) : res (dbvt T B) :=
    match l with
    | [] => Ok s
    | (i, p, fat) :: l' =>
        ns ← modify (nodes s) i (fun n => match n with Leaf q k _ => Leaf q k fat | n => n end);
        s ← mark_for_refit (with_nodes s ns) p 2;
        update_apply s l'
    end.
  Definition update s : res (dbvt T B) :=
    l ← update_collect s (updated_list s);
    s ← update_apply s l;
    Ok (with_updated s []).

  (** mod.rs 851-866 [next_free], [take_free]. *)
  Definition take_free s : nat * dbvt T B :=
    match free_list s with
    | [] => (length (nodes s), with_nodes s (nodes s ++ [Nil]))
    | i :: l => (i, with_free s l)
    end.

  (** mod.rs 657-694, the search part of the loop in [insert]: descends to a leaf.
      [Ok None] is the [break] on a nil node. *)
  Fixpoint insert_find (fuel : nat) (ns : list (node B)) (i : nat) (nb : B) : res (option nat) :=
    match fuel with
    | 0 => OutOfFuel
    | Datatypes.S fuel' =>
        n ← get ns i;
        match n with
        | Leaf _ _ _ => Ok (Some i)
        | Branch _ l r _ _ =>
            ln ← get ns l; lb ← get_bound ln;
            rn ← get ns r; rb ← get_bound rn;
            if s_lt O (b_area O (b_union O lb nb)) (b_area O (b_union O rb nb))
            then insert_find fuel' ns l nb
            else insert_find fuel' ns r nb
        | Nil => Ok None
        end
    end.

  (** mod.rs 627-736 [insert].  The search loop is separated from the update that
      follows it before the [break]; the fuel is the number of nodes. *)
  Definition insert s (v : T) : res (dbvt T B * nat) :=
    let fat := tv_fat O v in
    let vi := length (values s) in
    if decide (root_index s = 0) then
      let ri := length (nodes s) in
      Ok (Dbvt (nodes s ++ [Leaf 0 vi fat]) (values s ++ [(ri, v)]) (free_list s)
               (updated_list s) ri (refit_nodes s), ri)
    else
      let '(bi, s1) := take_free s in
      let '(li, s2) := take_free s1 in
      let s3 := with_values s2 (values s2 ++ [(li, v)]) in
      found ← insert_find (length (nodes s3)) (nodes s3) (root_index s3) fat;
      match found with
      | None => Ok (s3, li)
      | Some j =>
          n ← get (nodes s3) j;
          match n with
          | Leaf p k b =>
              let branch := Branch p j li 2 (b_union O b fat) in
              ns ← modify (nodes s3) j (set_parent bi);
              ns ← (if decide (p = 0) then Ok ns else modify ns p (redirect_child j bi));
              ns ← modify ns bi (fun _ => branch);
              ns ← modify ns li (fun _ => Leaf bi vi fat);
              let s4 := with_nodes s3 ns in
              let s5 := if decide (j = root_index s4) then with_root s4 bi else s4 in
              s6 ← (if decide (p = 0) then Ok s5 else mark_for_refit s5 p 3);
              Ok (s6, li)
          | _ => Panic (* unreachable: [insert_find] stops at leaves *)
          end
      end.

  (** mod.rs 762-834 [remove]. *)
  Definition remove s (i : nat) : res (dbvt T B * option T) :=
    n ← get (nodes s) i;
    match n with
    | Leaf p k _ =>
        '(kv, vs) ← swap_remove (values s) k;
        ns ← (if decide (k < length vs) then
                moved ← get vs k;
                modify (nodes s) moved.1
                  (fun m => match m with Leaf q _ b => Leaf q k b | m => m end)
              else Ok (nodes s));
        ns ← modify ns i (fun _ => Nil);
        let fl := free_list s ++ [i] in
        if decide (p = 0) then
          Ok (dbvt_clear s, Some kv.2)
        else
          pn ← get ns p;
          match pn with
          | Branch pp l r _ _ =>
              let sib := if decide (l = i) then r else l in
              ns ← modify ns p (fun _ => Nil);
              let fl := fl ++ [p] in
              ns ← modify ns sib (set_parent pp);
              let s1 := Dbvt ns vs fl (updated_list s) (root_index s) (refit_nodes s) in
              if decide (pp = 0) then Ok (with_root s1 sib, Some kv.2)
              else
                ns ← modify ns pp (redirect_child p sib);
                s2 ← mark_for_refit (with_nodes s1 ns) pp 0;
                Ok (s2, Some kv.2)
          | _ => Ok (Dbvt ns vs fl (updated_list s) (root_index s) (refit_nodes s), Some kv.2)
          end
    | _ => Ok (s, None)
    end.

  (** mod.rs 913-941 [recalculate_node], on the node list. *)
  Definition recalculate (ns : list (node B)) (i : nat) : res (list (node B) * option (nat * nat)) :=
    n ← get ns i;
    match n with
    | Branch p l r _ _ =>
        ln ← get ns l; lb ← get_bound ln;
        rn ← get ns r; rb ← get_bound rn;
        let h := 1 + max (get_height ln) (get_height rn) in
        Ok (<[i := Branch p l r h (b_union O lb rb)]> ns, Some (p, h))
    | _ => Ok (ns, None)
    end.

  (** mod.rs 1245-1250 [sa]. *)
  Definition sa (a b c : B) : S := b_area O (b_union O a (b_union O b c)).

  (** mod.rs 1145-1241 [get_best_rotation].  One step of "if this area is smaller
      than the best so far". *)
  Definition better (best : rotation * S) (rot : rotation) (a : S) : rotation * S :=
    if s_lt O a best.2 then (rot, a) else best.
  Definition child_bounds (ns : list (node B)) (i : nat) : res (B * B) :=
    n ← get ns i;
    match n with
    | Branch _ l r _ _ =>
        ln ← get ns l; lb ← get_bound ln;
        rn ← get ns r; rb ← get_bound rn;
        Ok (lb, rb)
    | _ => Panic
    end.
  Definition best_rotation (ns : list (node B)) (li ri : nat) (my : S) (lleaf rleaf : bool)
    : res (rotation * S) :=
    let best := (RotNone, my) in
    ln ← get ns li; l ← get_bound ln;
    rn ← get ns ri; r ← get_bound rn;
    best ←
      (if rleaf then Ok best else
         '(rl, rr) ← child_bounds ns ri;
         let best := better best LeftRightLeft (sa rl l rr) in
         let best := better best LeftRightRight (sa rr l rl) in
         if lleaf then Ok best else
           '(ll, lr) ← child_bounds ns li;
           let best := better best LeftLeftRightLeft (sa (b_union O rl lr) ll rr) in
           Ok (better best LeftLeftRightRight (sa (b_union O rr lr) rl ll)));
    if lleaf then Ok best else
      '(ll, lr) ← child_bounds ns li;
      let best := better best RightLeftLeft (sa ll r lr) in
      Ok (better best RightLeftRight (sa lr r ll)).

  (** [recalculate_node] with the result dropped. *)
  Definition recalc_ (ns : list (node B)) (i : nat) : res (list (node B)) :=
    '(ns, _) ← recalculate ns i; Ok ns.

  (** mod.rs 986-1081, performing the chosen rotation. *)
  Definition apply_rotation (ns : list (node B)) (i li ri : nat) (rot : rotation) : res (list (node B)) :=
    ln ← get ns li;
    rn ← get ns ri;
    match rot with
    | RotNone => Ok ns
    | LeftRightLeft =>
        rl ← get_left_index rn;
        ns ← swap_nodes ns li rl i ri;
        ns ← recalc_ ns ri; recalc_ ns i
    | LeftRightRight =>
        rr ← get_right_index rn;
        ns ← swap_nodes ns li rr i ri;
        ns ← recalc_ ns ri; recalc_ ns i
    | RightLeftLeft =>
        ll ← get_left_index ln;
        ns ← swap_nodes ns ll ri li i;
        ns ← recalc_ ns li; recalc_ ns i
    | RightLeftRight =>
        lr ← get_right_index ln;
        ns ← swap_nodes ns lr ri li i;
        ns ← recalc_ ns li; recalc_ ns i
    | LeftLeftRightLeft =>
        ll ← get_left_index ln;
        rl ← get_left_index rn;
        ns ← swap_nodes ns ll rl li ri;
        ns ← recalc_ ns li; ns ← recalc_ ns ri; recalc_ ns i
    | LeftLeftRightRight =>
        ll ← get_left_index ln;
        rr ← get_right_index rn;
        ns ← swap_nodes ns ll rr li ri;
        ns ← recalc_ ns li; ns ← recalc_ ns ri; recalc_ ns i
    end.

  (** mod.rs 951-1086 [rotate] (its return value is never used). *)
  Definition rotate (ns : list (node B)) (i : nat) : res (list (node B)) :=
    n ← get ns i;
    match n with
    | Branch _ li ri _ b =>
        let my := b_area O b in
        ln ← get ns li;
        rn ← get ns ri;
        if is_leaf ln && is_leaf rn then Ok ns else
          '(rot, mn) ← best_rotation ns li ri my (is_leaf ln) (is_leaf rn);
          if s_improves O my mn then apply_rotation ns i li ri rot else Ok ns
    | _ => Ok ns
    end.

  (** mod.rs 897-909 [refit_node]; [draw] is the random comparison on line 906. *)
  Definition refit_node (draw : bool) s (i : nat) : res (dbvt T B) :=
    '(ns, ph) ← recalculate (nodes s) i;
    let s := with_nodes s ns in
    s ← (match ph with
         | Some (p, h) => if decide (p = 0) then Ok s else mark_for_refit s p (h + 1)
         | None => Ok s
         end);
    if draw then ns ← rotate (nodes s) i; Ok (with_nodes s ns) else Ok s.

  (** mod.rs 842-847 [do_refit]; [rng k] is the outcome of the k-th draw. *)
  Fixpoint do_refit (fuel : nat) (rng : nat -> bool) s : res (dbvt T B) :=
    match refit_nodes s with
    | [] => Ok s
    | (_, i) :: q =>
        match fuel with
        | 0 => OutOfFuel
        | Datatypes.S fuel' =>
            s ← refit_node (rng 0) (with_refit s q) i;
            do_refit fuel' (fun k => rng (Datatypes.S k)) s
        end
    end.

  (** mod.rs 601-604 [tick]. *)
  Definition tick (fuel : nat) (rng : nat -> bool) s : res (dbvt T B) :=
    s ← update s; do_refit fuel rng s.

  (** mod.rs 483-521 [query_for_indices].  The stack array of 256 entries is the list
      of live entries, top first; writing slots [sp] and [sp + 1] panics when
      [sp + 1 >= 256]. *)
  Definition STACK : nat := 256.
  Fixpoint query_loop {V R} (fuel : nat) (vis : visitor V B R) s (stack : list nat) (vst : V)
      (acc : list (nat * R)) : res (list (nat * R) * V) :=
    match stack with
    | [] => Ok (acc, vst)
    | i :: stack =>
        match fuel with
        | 0 => OutOfFuel
        | Datatypes.S fuel' =>
            n ← get (nodes s) i;
            match n with
            | Leaf _ k _ =>
                v ← get (values s) k;
                let '(o, vst) := vis vst (tv_bound O v.2) true in
                query_loop fuel' vis s stack vst
                  (match o with Some r => acc ++ [(k, r)] | None => acc end)
            | Branch _ l r _ b =>
                let '(o, vst) := vis vst b false in
                match o with
                | Some _ =>
                    if decide (length stack + 1 < STACK)
                    then query_loop fuel' vis s (r :: l :: stack) vst acc
                    else Panic
                | None => query_loop fuel' vis s stack vst acc
                end
            | Nil => query_loop fuel' vis s stack vst acc
            end
        end
    end.
  Definition query_for_indices {V R} (fuel : nat) (vis : visitor V B R) s (vst : V)
    : res (list (nat * R) * V) :=
    query_loop fuel vis s [root_index s] vst [].

  (** mod.rs 453-461 [query]. *)
  Fixpoint lookup_values {R} s (l : list (nat * R)) : res (list (T * R)) :=
    match l with
    | [] => Ok []
    | (k, r) :: l' => v ← get (values s) k; tl ← lookup_values s l'; Ok ((v.2, r) :: tl)
    end.
  Definition query {V R} (fuel : nat) (vis : visitor V B R) s (vst : V) : res (list (T * R)) :=
    '(l, _) ← query_for_indices fuel vis s vst; lookup_values s l.
End model.
