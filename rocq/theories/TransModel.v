(** Model of src/tet.rs 2949-3087: [insert_tet], [cap_transform], [shell_transform]. *)
From stdpp Require Import base numbers list gmap option.
From Coq Require Import NArith ZArith.
From Verif Require Import IdMapModel WalkerModel MeshModel MeshOps IterModel InsModel.
Local Open Scope nat_scope.

Section trans.
  Context {V T : Type}.
  Implicit Types (m : mesh V T) (em : gmap (N * N) N).

  (** src/tet.rs 2954-2969: gluing face [i] of the new tet to the tet behind it. *)
  Definition glue_face (tet : N) (vertices : arr4 N) m (i : nat) : option (mesh V T) :=
    let walker := Walker tet i in
    '(a, b, c) ← w_tri m walker;
    r ← walker_from_tri m (b, a, c);
    m ← match r with
        | Some adj =>
            m ← tet_upd m tet (set_opp i adj);
            x ← entry_for (w_edge adj) walker;
            tet_upd m (w_tet adj) (set_opp (w_edge adj mod 4) x)
        | None => Some m
        end;
    m ← trimap_insert m walker;
    vert_ref_idx m (get4 vertices i) (to_perm walker P3210).

  (** src/tet.rs 2972-2980: the id of edge [i] of the new tet. *)
  Definition glue_edge (tet : N) (s : mesh V T * gmap (N * N) N) (i : nat) : option (mesh V T * gmap (N * N) N) :=
    let '(m, em) := s in
    walker ← to_undir_edge (Walker tet 3) i;
    p ← w_pair m walker;
    let edge := sorted_2 p in
    let '(m, em, id) :=
      match em !! edge with
      | Some id => (m, em, id)
      | None => let '(m, id) := edge_insert m edge in (m, <[edge := id]> em, id)
      end in
    m ← tet_upd m tet (set_edge i id);
    Some (m, em).

  (** src/tet.rs 2949-2985 [insert_tet]. *)
  Definition insert_tet (dflt : T) m (vertices : arr4 N) em : option (mesh V T * gmap (N * N) N * walker) :=
    let bad := Walker invalid_id 0 in
    let '(m, tet) := tet_insert m (tet_new vertices (A4 bad bad bad bad)
      (A6 invalid_id invalid_id invalid_id invalid_id invalid_id invalid_id) dflt) in
    m ← mfoldl (glue_face tet vertices) [0; 1; 2; 3] m;
    '(m, em) ← mfoldl (glue_edge tet) [0; 1; 2; 3; 4; 5] (m, em);
    Some (m, em, Walker tet 3).

  (** The flag LOCKED of an edge. *)
  Definition set_elocked (b : bool) (ue : uedge) : uedge := UEdge (ue_vs ue) (ue_boundary ue) b (ue_bw ue).

  (** src/tet.rs 2998-3017, 3049-3073: taking out the tet at the side [v0 v1]; [spine] tells whether the edge between
      top and bottom is removed as well (3064-3066).  [unwrap] is [None]. *)
  Definition take_out (vt : N) (spine : bool) (s : mesh V T * gmap (N * N) N) (e : N * N) : option (mesh V T * gmap (N * N) N) :=
    let '(m, em) := s in
    let '(v0, v1) := e in
    r ← walker_from_tri m (v1, vt, v0);
    walker ← r;
    adj ← to_adj_ae m walker;
    e0 ← undir_edge m walker; m ← edge_upd m e0 (set_elocked false);
    e1 ← undir_edge m (to_nfe walker); m ← edge_upd m e1 (set_elocked false);
    m ← tet_upd m (w_tet walker) (set_locked (w_edge walker mod 4) false);
    m ← tet_upd m (w_tet adj) (set_locked (w_edge adj mod 4) false);
    es ← undir_edges m walker;
    em ← mfoldl (λ em e, ue ← im_get (m_edges m) e; Some (<[sorted_2 (ue_vs ue) := e]> em)) es em;
    m ← (if spine : bool then e ← undir_edge m (to_perm walker P1320); Some (with_edges m (im_remove (m_edges m) e).1) else Some m);
    m ← mfoldl (λ m i, trimap_remove m (to_edge walker i)) [0; 1; 2; 3] m;
    Some (with_tets m (im_remove (m_tets m) (w_tet walker)).1, em).

  (** src/tet.rs 3024-3034, 3077-3086: the two tets on a triangle, with the triangle and its sides locked. *)
  Definition put_tri (dflt : T) (vt vb : N) (s : mesh V T * gmap (N * N) N) (t : N * N * N) : option (mesh V T * gmap (N * N) N) :=
    let '(m, em) := s in
    let '(v0, v1, v2) := t in
    '(m, em, walker) ← insert_tet dflt m (A4 v1 v0 v2 vt) em;
    m ← tet_upd m (w_tet walker) (set_locked (w_edge walker mod 4) true);
    '(m, em, walker) ← insert_tet dflt m (A4 v0 v1 v2 vb) em;
    m ← tet_upd m (w_tet walker) (set_locked (w_edge walker mod 4) true);
    m ← mfoldl (λ m p, e ← em !! sorted_2 p; edge_upd m e (set_elocked true)) [(v0, v1); (v1, v2); (v2, v0)] m;
    Some (m, em).

  (** src/tet.rs 2988-3035 [cap_transform]; an empty [v_side] is a panic. *)
  Definition cap_transform (dflt : T) m (v_side : list N) (vt vb : N) (tris : list (N * N * N)) : option (mesh V T) :=
    s ← mfoldl (take_out vt false) (zip v_side (drop 1 v_side)) (m, ∅);
    first ← head v_side;
    l ← stdpp.list.last v_side;
    '(m, em, _) ← insert_tet dflt s.1 (A4 first l vt vb) s.2;
    '(m, em) ← mfoldl (put_tri dflt vt vb) tris (m, em);
    Some m.

  (** src/tet.rs 3039-3087 [shell_transform]; [cycle] of an empty list is empty. *)
  Definition shell_transform (dflt : T) m (v_side : list N) (vt vb : N) (tris : list (N * N * N)) : option (mesh V T) :=
    s ← mfoldl (λ s e, take_out vt (bool_decide (head v_side = Some e.2)) s e) (zip v_side (drop 1 v_side ++ take 1 v_side)) (m, ∅);
    '(m, em) ← mfoldl (put_tri dflt vt vb) tris s;
    Some m.
End trans.
