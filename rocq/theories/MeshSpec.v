(** Specification: triangle meshes given by lists of index triples. *)
From stdpp Require Import prelude.

Notation tri := (nat * nat * nat)%type.
(** The directed sides of a triangle, and its corners: [(w, v, x)] says that the triangle
    goes from [w] to [v] to [x]. *)
Definition tri_sides (f : tri) : list (nat * nat) := let '(a, b, c) := f in [(c, a); (a, b); (b, c)].
Definition tri_corners (f : tri) : list tri := let '(a, b, c) := f in [(c, a, b); (a, b, c); (b, c, a)].
Definition mesh_sides (fs : list tri) : list (nat * nat) := f ← fs; tri_sides f.
Definition mesh_corners (fs : list tri) : list tri := f ← fs; tri_corners f.
(** Every directed side belongs to one triangle only ... *)
Definition oriented (fs : list tri) : Prop := NoDup (mesh_sides fs).
(** ... and its reverse to a neighbouring triangle ... *)
Definition closed (fs : list tri) : Prop := forall u v, (u, v) ∈ mesh_sides fs -> (v, u) ∈ mesh_sides fs.
(** ... and the triangles at a vertex form a single fan around it. *)
Definition fans (fs : list tri) : Prop :=
  forall v w x, (v, w) ∈ mesh_sides fs -> (v, x) ∈ mesh_sides fs -> rtc (fun w x => (w, v, x) ∈ mesh_corners fs) w x.
Definition closed_surface (fs : list tri) : Prop := oriented fs /\ closed fs /\ fans fs.
(** The three corners of every triangle are different vertices. *)
Definition proper_tris (fs : list tri) : Prop := Forall (fun f : tri => let '(a, b, c) := f in a <> b /\ b <> c /\ c <> a) fs.

Lemma sides_cons f fs : mesh_sides (f :: fs) = tri_sides f ++ mesh_sides fs.
Proof. done. Qed.
Lemma sides_app fs gs : mesh_sides (fs ++ gs) = mesh_sides fs ++ mesh_sides gs.
Proof. apply bind_app. Qed.
Lemma corners_app fs gs : mesh_corners (fs ++ gs) = mesh_corners fs ++ mesh_corners gs.
Proof. apply bind_app. Qed.
Lemma side_face fs u v : (u, v) ∈ mesh_sides fs <-> exists f, f ∈ fs /\ (u, v) ∈ tri_sides f.
Proof. unfold mesh_sides. rewrite elem_of_list_bind. naive_solver. Qed.
Lemma corner_face fs w v x : (w, v, x) ∈ mesh_corners fs <-> exists f, f ∈ fs /\ (w, v, x) ∈ tri_corners f.
Proof. unfold mesh_corners. rewrite elem_of_list_bind. naive_solver. Qed.
Lemma corner_sides f w v x : (w, v, x) ∈ tri_corners f -> (w, v) ∈ tri_sides f /\ (v, x) ∈ tri_sides f /\ (x, w) ∈ tri_sides f.
Proof. destruct f as [[a b] c]. cbn. set_solver. Qed.
Lemma side_corner f w v : (w, v) ∈ tri_sides f -> exists x, (w, v, x) ∈ tri_corners f.
Proof. destruct f as [[a b] c]. cbn. set_solver. Qed.
Lemma side_corner_to f v x : (v, x) ∈ tri_sides f -> exists w, (w, v, x) ∈ tri_corners f.
Proof. destruct f as [[a b] c]. cbn. set_solver. Qed.
(** In an oriented mesh the corner is determined by either of its sides. *)
Lemma sides_disjoint fs i j f g u v : oriented fs -> fs !! i = Some f -> fs !! j = Some g -> (u, v) ∈ tri_sides f -> (u, v) ∈ tri_sides g -> i = j.
Proof.
  unfold oriented. revert i j. induction fs as [|h fs IH]; intros i j; [done|]. rewrite sides_cons. intros (_ & Hd & Hnd)%NoDup_app Hi Hj Hf Hg.
  assert (Hin : forall k x, fs !! k = Some x -> (u, v) ∈ tri_sides x -> (u, v) ∈ mesh_sides fs).
  { intros k x Hk Hx. apply side_face. exists x. split; [by eapply elem_of_list_lookup_2|done]. }
  destruct i as [|i], j as [|j]; [done| | |].
  - simplify_eq/=. destruct (Hd _ Hf). eauto.
  - simplify_eq/=. destruct (Hd _ Hg). eauto.
  - f_equal. by apply IH.
Qed.
Lemma oriented_tri fs f : oriented fs -> f ∈ fs -> NoDup (tri_sides f).
Proof.
  unfold oriented. intros Ho Hf. induction Hf as [f fs|f g fs Hf IH]; rewrite sides_cons, NoDup_app in Ho; [apply Ho|]. apply IH, Ho.
Qed.
Lemma corner_unique_r fs w v x x' : oriented fs -> (w, v, x) ∈ mesh_corners fs -> (w, v, x') ∈ mesh_corners fs -> x = x'.
Proof.
  intros Ho (f & Hf & Hx)%corner_face (g & Hg & Hx')%corner_face. pose proof (oriented_tri _ _ Ho Hf) as Hn.
  apply elem_of_list_lookup in Hf as (i & Hi), Hg as (j & Hj).
  apply corner_sides in Hx as Hs, Hx' as Hs'. assert (i = j) as <- by (eapply (sides_disjoint fs i j f g w v Ho Hi Hj); [apply Hs|apply Hs']). simplify_eq.
  clear Hs Hs'. destruct f as [[a b] c]. cbn in *. rewrite !NoDup_cons in Hn. set_solver.
Qed.
Lemma corner_unique_l fs w w' v x : oriented fs -> (w, v, x) ∈ mesh_corners fs -> (w', v, x) ∈ mesh_corners fs -> w = w'.
Proof.
  intros Ho (f & Hf & Hx)%corner_face (g & Hg & Hx')%corner_face. pose proof (oriented_tri _ _ Ho Hf) as Hn.
  apply elem_of_list_lookup in Hf as (i & Hi), Hg as (j & Hj).
  apply corner_sides in Hx as Hs, Hx' as Hs'. assert (i = j) as <- by (eapply (sides_disjoint fs i j f g v x Ho Hi Hj); [apply Hs|apply Hs']). simplify_eq.
  clear Hs Hs'. destruct f as [[a b] c]. cbn in *. rewrite !NoDup_cons in Hn. set_solver.
Qed.
