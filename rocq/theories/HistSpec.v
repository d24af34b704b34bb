(** Histories of mesh operations and the conditions under which an operation may be called. *)
From stdpp Require Import base numbers list gmap option.
From Coq Require Import NArith ZArith.
From Verif Require Import IdMapModel WalkerModel MeshModel MeshOps MeshSpec.
Local Open Scope nat_scope.

Section hist.
  Context {V T : Type}.
  Implicit Types (m : mesh V T) (w : walker).

  (** A call of a mesh operation. *)
  Inductive op :=
    | OAddVertex (p : pt) (v : V)            (* vertices.insert *)
    | OInsert (w : walker) (p : pt) (v : V)  (* vertices.insert, then flip14_unchecked with it *)
    | OFlip14 (w : walker) (v : N)
    | OFlip23 (w : walker)
    | OFlip32 (w : walker)
    | OFlip44 (w : walker)
    | OFlip23U (w : walker)                  (* flip23_unlocked *)
    | OFlip32U (w : walker)                  (* flip32_unlocked *)
    | OTrack (b : bool)                      (* set_track_tri_map *)
    | OLockTri (w : walker) (b : bool)
    | OLockEdge (w : walker) (b : bool).

  Definition run_op m (o : op) : option (mesh V T) :=
    match o with
    | OAddVertex p v => Some (add_vertex m p v).1
    | OInsert w p v => let '(m1, id) := add_vertex m p v in fst <$> flip14_unchecked m1 w id
    | OFlip14 w v => fst <$> flip14_unchecked m w v
    | OFlip23 w => fst <$> flip23_unchecked m w
    | OFlip32 w => fst <$> flip32_unchecked m w
    | OFlip44 w => fst <$> flip44_unchecked m w
    | OFlip23U w => fst <$> flip23_unlocked m w
    | OFlip32U w => fst <$> flip32_unlocked m w
    | OTrack b => set_track_tri_map m b
    | OLockTri w b => set_tri_lock m w b
    | OLockEdge w b => set_edge_lock m w b
    end.

  (** The walker starts at the same vertex as the canonical walker of its tet. *)
  Definition canonical_start m w : Prop := w_first m w = w_first m (walker_from_tet_id (w_tet w)).

  (** The two vertices opposite to the walker's triangle are different and not joined yet. *)
  Definition flip23_ready m w : Prop :=
    valid m w ∧ ∃ other d e, to_adj m w = Some other ∧ w_fourth m w = Some d ∧ w_fourth m other = Some e ∧
      d ≠ e ∧ ¬ joined m d e.

  (** Exactly three tets around the walker's edge. *)
  Definition ring3 m w : Prop :=
    ∃ o1 o2, ring_next m w = Some o1 ∧ ring_next m o1 = Some o2 ∧ ring_next m o2 = Some w.
  (** The triangle linking the walker's edge is not in the mesh. *)
  Definition link_free m w : Prop :=
    ∃ o1 x y z, ring_next m w = Some o1 ∧ w_opp_pair m w = Some (x, y) ∧ w_fourth m o1 = Some z ∧
      ¬ has_tri m x y z.
  Definition flip32_ready m w : Prop := valid m w ∧ ring3 m w ∧ link_free m w.

  (** Exactly four tets around the walker's edge, and the other diagonal is free. *)
  Definition flip44_ready m w : Prop :=
    valid m w ∧ ∃ r1 r2 r3 x z, ring_next m w = Some r1 ∧ ring_next m r1 = Some r2 ∧
      ring_next m r2 = Some r3 ∧ ring_next m r3 = Some w ∧ r2 ≠ w ∧
      w_third m w = Some x ∧ w_fourth m r1 = Some z ∧ ¬ joined m x z.

  (** Room for more ids, never using the reserved tet id. *)
  Definition roomy m (nt ne : N) : Prop :=
    (im_npi (m_tets m) + nt ≤ invalid_id)%N ∧ (im_npi (m_edges m) + ne ≤ u32_mod)%N.

  (** Some triangle at the walker's edge, or the edge itself, is locked. *)
  Definition edge_star_locked m w : Prop :=
    ∃ o1 o2, ring_next m w = Some o1 ∧ ring_next m o1 = Some o2 ∧
      (w_locked m w = Some true ∨ w_locked m o1 = Some true ∨ w_locked m o2 = Some true ∨ w_edge_locked m w = Some true).

  Definition admissible m (o : op) : Prop :=
    match o with
    | OAddVertex p v => (im_npi (m_verts m) < GHOST)%N
    | OInsert w p v => (im_npi (m_verts m) < GHOST)%N ∧ valid m w ∧ canonical_start m w ∧ roomy m 3 4
    | OFlip14 w v => valid m w ∧ canonical_start m w ∧ roomy m 3 4 ∧
        is_Some (im_get (m_verts m) v) ∧ ¬ attached m v
    | OFlip23 w => flip23_ready m w ∧ roomy m 1 1
    | OFlip32 w => flip32_ready m w
    | OFlip44 w => flip44_ready m w ∧ roomy m 1 1
    | OFlip23U w => valid m w ∧ (w_locked m w = Some false → flip23_ready m w ∧ roomy m 1 1)
    | OFlip32U w => valid m w ∧ (ring3 m w → link_free m w)
    | OTrack _ => True
    | OLockTri w _ => valid m w
    | OLockEdge w _ => valid m w
    end.

  (** Every call of [os] is admissible when made. *)
  Fixpoint all_admissible m (os : list op) : Prop :=
    match os with
    | [] => True
    | o :: os => admissible m o ∧ ∀ m1, run_op m o = Some m1 → all_admissible m1 os
    end.
  Fixpoint run_ops m (os : list op) : option (mesh V T) :=
    match os with
    | [] => Some m
    | o :: os => m1 ← run_op m o; run_ops m1 os
    end.

  (** Reachable from [TetMesh::new] by admissible operations. *)
  Definition reachable m : Prop :=
    ∃ sim ctr ps (dflt : T) m0 os, mesh_new sim ctr ps dflt = Some m0 ∧ all_admissible m0 os ∧ run_ops m0 os = Some m.

  Definition is_add (o : op) : bool := match o with OAddVertex _ _ => true | _ => false end.
  Definition is_lock (o : op) : bool :=
    match o with OLockTri _ _ | OLockEdge _ _ => true | _ => false end.
End hist.
Arguments op : clear implicits.
