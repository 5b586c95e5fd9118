(** Model of the broad phases, /repo/src/algorithm/broad_phase/. *)
From stdpp Require Import prelude.
From Verif Require Import Res Num DbvtModel DbvtVisitors.

(** Parameters: [bound] is [HasBound::bound] (or [TreeValue::bound]); [isect a b]
    is [a.intersects(b)] on bounds. *)
Section brute.
  Context {A Bd : Type} (bound : A -> Bd) (isect : Bd -> Bd -> bool).
  (** brute_force.rs 33-37, inner loop. *)
  Fixpoint brute_inner (shapes : list A) (left : A) (li : nat) (rs : list nat) (pairs : list (nat * nat))
    : res (list (nat * nat)) :=
    match rs with
    | [] => Ok pairs
    | ri :: rs =>
        right ← get shapes ri;
        brute_inner shapes left li rs
          (if isect (bound left) (bound right) then pairs ++ [(li, ri)] else pairs)
    end.
  (** brute_force.rs 31-38, outer loop. *)
  Fixpoint brute_outer (shapes : list A) (ls : list nat) (pairs : list (nat * nat)) : res (list (nat * nat)) :=
    match ls with
    | [] => Ok pairs
    | li :: ls =>
        left ← get shapes li;
        pairs ← brute_inner shapes left li (seq (li + 1) (length shapes - (li + 1))) pairs;
        brute_outer shapes ls pairs
    end.
  (** brute_force.rs 20-40 [BruteForce::find_collider_pairs]. *)
  Definition brute_force (shapes : list A) : res (list (nat * nat)) :=
    if decide (length shapes <= 1) then Ok []
    else brute_outer shapes (seq 0 (length shapes - 1)) [].
End brute.

(** sweep_prune.rs 171-223, 225-280 [Variance2], [Variance3]; vectors are lists with
    one component per axis. *)
Section variance.
  Context {S : Type} `{Num S}.
  Record variance := Variance { csum : list S; csumsq : list S }.
  (** 185-197, 240-252 [new], [clear] ([clear] writes the same zeros). *)
  Definition variance_zero (dim : nat) : variance := Variance (replicate dim n0) (replicate dim n0).
  (** 199-206, 254-261 [add_bound]: [add_element_wise] takes [self] by value and
      returns the sum, which is dropped, so the accumulators do not change. *)
  Definition variance_add (v : variance) (mn mx : list S) : variance :=
    let sum := zip_with nadd mn mx in
    let c := (fun x => ndiv x (nadd n1 n1)) <$> sum in
    let _ := zip_with nadd (csum v) c in
    let _ := zip_with nadd (csumsq v) (zip_with nmul c c) in
    v.
  (** 213-219, 268-274: the loop over axes. *)
  Fixpoint axis_loop (l : list S) (i axis : nat) (best : S) : nat * S :=
    match l with
    | [] => (axis, best)
    | v :: l => if nlt best v then axis_loop l (i + 1) i v else axis_loop l (i + 1) axis best
    end.
  (** 209-221, 264-276 [compute_axis]. *)
  Definition compute_axis (v : variance) (n : S) : res (nat * S) :=
    let square_n := (fun x => ndiv x n) <$> zip_with nmul (csum v) (csum v) in
    let var := zip_with nsub (csumsq v) square_n in
    v0 ← get var 0;
    Ok (axis_loop (drop 1 var) 1 0 v0).
End variance.
Arguments variance : clear implicits.

Section sap.
  Context {A Bd S : Type} `{Num S} (bound : A -> Bd) (isect : Bd -> Bd -> bool).
  (** [min_extent()], [max_extent()] as coordinate lists; [of_nat] is
      [NumCast::from(shapes.len())], assumed to succeed. *)
  Context (dim : nat) (mn mx : Bd -> list S) (of_nat : nat -> S).

  (** sweep_prune.rs 33-37 [SweepAndPrune]. *)
  Record sap := Sap { sweep_axis : nat; sap_variance : variance S }.
  (** 43-59 [new], [with_sweep_axis], [get_sweep_axis]. *)
  Definition sap_with_axis (axis : nat) : sap := Sap axis (variance_zero dim).
  Definition sap_new : sap := sap_with_axis 0.

  (** sweep_prune.rs 87-97, the comparator. *)
  Definition sap_cmp (axis : nat) (a b : A) : res comparison :=
    am ← get (mn (bound a)) axis;
    bm ← get (mn (bound b)) axis;
    match pcmp am bm with
    | Some Eq =>
        ax ← get (mx (bound a)) axis;
        bx ← get (mx (bound b)) axis;
        Ok (match pcmp ax bx with Some c => c | None => Eq end)
    | None => Ok Eq
    | Some c => Ok c
    end.
  (** [slice::sort_by]: a stable sort, modelled as stable insertion sort.  For a
      comparator that is a total preorder every stable sort gives this result; for
      other comparators (NaN coordinates) Rust leaves the order unspecified. *)
  Fixpoint sap_ins (axis : nat) (x : A) (l : list A) : res (list A) :=
    match l with
    | [] => Ok [x]
    | y :: l' =>
        c ← sap_cmp axis x y;
        match c with
        | Gt => l' ← sap_ins axis x l'; Ok (y :: l')
        | _ => Ok (x :: y :: l')
        end
    end.
  Fixpoint sap_sort (axis : nat) (l : list A) : res (list A) :=
    match l with
    | [] => Ok []
    | x :: l => l ← sap_sort axis l; sap_ins axis x l
    end.
  (** sweep_prune.rs 109-112 [active.retain]. *)
  Fixpoint sap_retain (axis : nat) (shapes : list A) (shape : A) (active : list nat) : res (list nat) :=
    match active with
    | [] => Ok []
    | i :: active =>
        a ← get shapes i;
        ax ← get (mx (bound a)) axis;
        sm ← get (mn (bound shape)) axis;
        rest ← sap_retain axis shapes shape active;
        Ok (if nle sm ax then i :: rest else rest)
    end.
  (** sweep_prune.rs 116-120. *)
  Fixpoint sap_test (shapes : list A) (shape : A) (j : nat) (active : list nat) (pairs : list (nat * nat))
    : res (list (nat * nat)) :=
    match active with
    | [] => Ok pairs
    | i :: active =>
        a ← get shapes i;
        sap_test shapes shape j active (if isect (bound a) (bound shape) then pairs ++ [(i, j)] else pairs)
    end.
  (** sweep_prune.rs 105-127. *)
  Fixpoint sap_sweep (axis : nat) (shapes rest : list A) (j : nat) (active : list nat)
      (var : variance S) (pairs : list (nat * nat)) : res (variance S * list (nat * nat)) :=
    match rest with
    | [] => Ok (var, pairs)
    | shape :: rest =>
        active ← sap_retain axis shapes shape active;
        pairs ← sap_test shapes shape j active pairs;
        sap_sweep axis shapes rest (j + 1) (active ++ [j])
          (variance_add var (mn (bound shape)) (mx (bound shape))) pairs
    end.
  (** sweep_prune.rs 76-136 [find_collider_pairs]: new state, permuted shapes, pairs. *)
  Definition sap_find (s : sap) (shapes : list A) : res (sap * list A * list (nat * nat)) :=
    if decide (length shapes <= 1) then Ok (s, shapes, [])
    else
      shapes ← sap_sort (sweep_axis s) shapes;
      first ← get shapes 0;
      let var := variance_add (variance_zero dim) (mn (bound first)) (mx (bound first)) in
      '(var, pairs) ← sap_sweep (sweep_axis s) shapes (drop 1 shapes) 1 [0] var [];
      '(axis, _) ← compute_axis var (of_nat (length shapes));
      Ok (Sap axis var, shapes, pairs).
End sap.
Arguments sap : clear implicits.

Section dbp.
  Context {T B S : Type} (O : dbvt_ops T B S) (isect : B -> B -> bool).
  (** dbvt.rs 48-60, the loop over query results. [potentials.binary_search] as in
      [DbvtModel.binary_search]. *)
  Fixpoint dbp_hits (i : nat) (hits : list (nat * unit)) (pot : list (nat * nat)) : list (nat * nat) :=
    match hits with
    | [] => pot
    | (k, _) :: hits =>
        match i ?= k with
        | Eq => dbp_hits i hits pot
        | c =>
            let pair := match c with Lt => (i, k) | _ => (k, i) end in
            dbp_hits i hits
              (match binary_search pot pair with inr pos => vec_insert pos pair pot | inl _ => pot end)
        end
    end.
  (** dbvt.rs 42-62. *)
  Fixpoint dbp_loop (fuel : nat) (s : dbvt T B) (dirty : list bool) (vs : list (nat * T)) (pot : list (nat * nat))
    : res (list (nat * nat)) :=
    match vs with
    | [] => Ok pot
    | (ni, shape) :: vs =>
        o ← value_index s ni;
        i ← (match o with Some i => Ok i | None => Panic end);
        d ← get dirty i;
        pot ← (if (d : bool) then
                 '(hits, _) ← query_for_indices O fuel (discrete_visitor (fun b => isect b (tv_bound O shape))) s ();
                 Ok (dbp_hits i hits pot)
               else Ok pot);
        dbp_loop fuel s dirty vs pot
    end.
  (** dbvt.rs 27-64 [DbvtBroadPhase::find_collider_pairs]. *)
  Definition dbp_find (fuel : nat) (s : dbvt T B) (dirty : list bool) : res (list (nat * nat)) :=
    dbp_loop fuel s dirty (values s) [].
End dbp.
