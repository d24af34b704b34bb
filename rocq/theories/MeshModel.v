(** Model of the tet mesh data structure of src/tet.rs and its elementary operations. *)
From stdpp Require Import base numbers list gmap option.
From Coq Require Import NArith ZArith.
From Verif Require Import IdMapModel WalkerModel.
Local Open Scope nat_scope.

(** Points with exact coordinates (src/lib.rs [Pt3]; see DESIGN.md on coordinates). *)
Record pt := Pt { px : Z; py : Z; pz : Z }.

(** src/tet.rs 1759 [GHOST]. *)
Definition GHOST : N := invalid_id.

(** src/tet.rs 96-104 [VertexFlags]. *)
Record vflags := VFlags { vf_targets : bool; vf_edge_added : bool }.
Definition vf_empty : vflags := VFlags false false.

(** src/tet.rs 174-200 [TetFlags]: the bits LOCKED_i, BOUND_IMM_i, BOUND_LIMIT_i as arrays. *)
Record tflags := TFlags {
  f_locked : arr4 bool; f_imm : arr4 bool; f_limit : arr4 bool;
  f_boundary : bool; f_wfv : bool; f_dup : bool; f_notenc : bool }.
Definition none4 : arr4 bool := A4 false false false false.
Definition tf_empty : tflags := TFlags none4 none4 none4 false false false false.

Section mesh.
  Context {V T : Type}.

  (** src/tet.rs 106-123 [struct Vertex]. *)
  Record vertex := Vertex { v_tet : walker; v_flags : vflags; v_pos : pt; v_val : V }.

  (** src/tet.rs 147-154 [struct UndirEdge]. *)
  Record uedge := UEdge { ue_vs : N * N; ue_boundary : bool; ue_locked : bool; ue_bw : walker }.

  (** src/tet.rs 156-163 [UndirEdge::new]. *)
  Definition uedge_new (vs : N * N) : uedge :=
    UEdge (sorted_2 vs) false false (Walker invalid_id 0).

  (** src/tet.rs 212-219 [struct Tet]. *)
  Record tet := Tet {
    t_vs : arr4 N; t_opp : arr4 walker; t_edges : arr6 N; t_flags : tflags; t_val : T }.

  (** src/tet.rs 221-235 [Tet::new]. *)
  Definition tet_new (vs : arr4 N) (opp : arr4 walker) (es : arr6 N) (v : T) : tet :=
    Tet vs opp es tf_empty v.

  (** src/tet.rs 1739-1757 [struct TetMesh]; [tolerance] is not used by the modelled code and
      [default_tet] is passed where needed. *)
  Record mesh := Mesh {
    m_verts : idmap vertex; m_ghost_flags : vflags; m_edges : idmap uedge; m_tets : idmap tet;
    m_trimap : gmap (N * N * N) walker; m_track : bool; m_center : pt }.

  Definition with_verts (m : mesh) x :=
    Mesh x (m_ghost_flags m) (m_edges m) (m_tets m) (m_trimap m) (m_track m) (m_center m).
  Definition with_edges (m : mesh) x :=
    Mesh (m_verts m) (m_ghost_flags m) x (m_tets m) (m_trimap m) (m_track m) (m_center m).
  Definition with_tets (m : mesh) x :=
    Mesh (m_verts m) (m_ghost_flags m) (m_edges m) x (m_trimap m) (m_track m) (m_center m).
  Definition with_trimap (m : mesh) x :=
    Mesh (m_verts m) (m_ghost_flags m) (m_edges m) (m_tets m) x (m_track m) (m_center m).
  Definition with_track (m : mesh) x :=
    Mesh (m_verts m) (m_ghost_flags m) (m_edges m) (m_tets m) (m_trimap m) x (m_center m).
  Definition with_center (m : mesh) x :=
    Mesh (m_verts m) (m_ghost_flags m) (m_edges m) (m_tets m) (m_trimap m) (m_track m) x.
  Definition with_ghost_flags (m : mesh) x :=
    Mesh (m_verts m) x (m_edges m) (m_tets m) (m_trimap m) (m_track m) (m_center m).

  (** Field updates of a tet. *)
  Definition set_vs (x : arr4 N) (t : tet) := Tet x (t_opp t) (t_edges t) (t_flags t) (t_val t).
  Definition set_v (i : nat) (x : N) (t : tet) :=
    Tet (set4 (t_vs t) i x) (t_opp t) (t_edges t) (t_flags t) (t_val t).
  Definition set_opp (i : nat) (x : walker) (t : tet) :=
    Tet (t_vs t) (set4 (t_opp t) i x) (t_edges t) (t_flags t) (t_val t).
  Definition set_edge (i : nat) (x : N) (t : tet) :=
    Tet (t_vs t) (t_opp t) (set6 (t_edges t) i x) (t_flags t) (t_val t).
  Definition set_flags (x : tflags) (t : tet) := Tet (t_vs t) (t_opp t) (t_edges t) x (t_val t).
  Definition set_locked (i : nat) (b : bool) (t : tet) :=
    let f := t_flags t in
    set_flags (TFlags (set4 (f_locked f) i b) (f_imm f) (f_limit f)
                      (f_boundary f) (f_wfv f) (f_dup f) (f_notenc f)) t.

  (** [mesh.tets[id]] / [mesh[id]] (panics when absent) and [get_unchecked] (undefined
      behaviour when absent): both [None]. *)
  Definition tet_get (m : mesh) (id : N) : option tet := im_get (m_tets m) id.
  (** [mesh.tets[id].field = ...]. *)
  Definition tet_upd (m : mesh) (id : N) (f : tet → tet) : option mesh :=
    t ← tet_get m id; ts ← im_set (m_tets m) id (f t); Some (with_tets m ts).
  (** [mesh.tets.insert(t)]. *)
  Definition tet_insert (m : mesh) (t : tet) : mesh * N :=
    let '(ts, id) := im_insert (m_tets m) t in (with_tets m ts, id).
  (** [mesh.vertices.get_mut(v).map(|v| v.tet = w)]. *)
  Definition vert_ref (m : mesh) (v : N) (w : walker) : mesh :=
    match im_get (m_verts m) v with
    | Some vt => match im_set (m_verts m) v (Vertex w (v_flags vt) (v_pos vt) (v_val vt)) with
                 | Some vs => with_verts m vs
                 | None => m
                 end
    | None => m
    end.
  (** [mesh.vertices[v].tet = w] (panics when absent). *)
  Definition vert_ref_idx (m : mesh) (v : N) (w : walker) : option mesh :=
    match im_get (m_verts m) v with Some _ => Some (vert_ref m v w) | None => None end.

  (** src/tet.rs 429-486: vertices of a walker. *)
  Definition w_first (m : mesh) (w : walker) : option N :=
    t ← tet_get m (w_tet w); Some (get4 (t_vs t) (first_idx (w_edge w))).
  Definition w_second (m : mesh) (w : walker) : option N :=
    t ← tet_get m (w_tet w); Some (get4 (t_vs t) (second_idx (w_edge w))).
  Definition w_third (m : mesh) (w : walker) : option N :=
    t ← tet_get m (w_tet w); Some (get4 (t_vs t) (third_idx (w_edge w))).
  Definition w_fourth (m : mesh) (w : walker) : option N :=
    t ← tet_get m (w_tet w); Some (get4 (t_vs t) (fourth_idx (w_edge w))).
  Definition w_pair (m : mesh) (w : walker) : option (N * N) :=
    a ← w_first m w; b ← w_second m w; Some (a, b).
  Definition w_opp_pair (m : mesh) (w : walker) : option (N * N) :=
    a ← w_third m w; b ← w_fourth m w; Some (a, b).
  Definition w_tri (m : mesh) (w : walker) : option (N * N * N) :=
    a ← w_first m w; b ← w_second m w; c ← w_third m w; Some (a, b, c).
  Definition w_opp_tri (m : mesh) (w : walker) : option (N * N * N) :=
    a ← w_fourth m w; b ← w_third m w; c ← w_second m w; Some (a, b, c).
  Definition w_verts (m : mesh) (w : walker) : option (arr4 N) :=
    a ← w_first m w; b ← w_second m w; c ← w_third m w; d ← w_fourth m w; Some (A4 a b c d).

  (** src/tet.rs 510-512 [undir_edge]. *)
  Definition undir_edge (m : mesh) (w : walker) : option N :=
    t ← tet_get m (w_tet w); Some (get6 (t_edges t) (undir_idx (w_edge w))).

  (** src/tet.rs 526-535 [undir_edges]. *)
  Definition undir_edges (m : mesh) (w : walker) : option (list N) :=
    mapM (undir_edge m)
      [to_opp_edge w; w; to_nfe w; to_pve w; to_perm w P1320; to_pfe w].

  (** src/tet.rs 638-642 [to_twin_tri_any_edge]. *)
  Definition to_adj_ae (m : mesh) (w : walker) : option walker :=
    t ← tet_get m (w_tet w); Some (get4 (t_opp t) (w_edge w mod 4)).

  (** src/tet.rs 619-630 [to_twin_tri]; the last case is [unreachable!]. *)
  Definition to_adj (m : mesh) (w : walker) : option walker :=
    x ← to_adj_ae m w;
    match w_edge w / 4 with
    | 0 => Some x
    | 1 => Some (to_pfe x)
    | 2 => Some (to_nfe x)
    | _ => None
    end.

  (** src/tet.rs 664-672 [to_edge_assuming_tri]; [unwrap] and [unreachable!] are [None]. *)
  Definition to_edge_assuming_tri (m : mesh) (w : walker) (v : N) : option walker :=
    vs ← w_verts m w;
    if N.eqb (q0 vs) v then Some w
    else if N.eqb (q1 vs) v then Some (to_nfe w)
    else if N.eqb (q2 vs) v then Some (to_pfe w)
    else None.

  (** The LOCKED bit of a walker's triangle ([TetFlags::LOCKED_0.bits << edge % 4]). *)
  Definition w_locked (m : mesh) (w : walker) : option bool :=
    t ← tet_get m (w_tet w); Some (get4 (f_locked (t_flags t)) (w_edge w mod 4)).

  (** Triangle map maintenance: the loops in src/tet.rs 720-725, 793-801, 833-840, 924-932 etc. *)
  Definition trimap_remove (m : mesh) (w : walker) : option mesh :=
    tr ← w_tri m w; Some (with_trimap m (delete (tri_key tr) (m_trimap m))).
  Definition trimap_insert (m : mesh) (w : walker) : option mesh :=
    tr ← w_tri m w; Some (with_trimap m (<[tri_key tr := w]> (m_trimap m))).
  Fixpoint mfoldl {S A} (f : S → A → option S) (l : list A) (s : S) : option S :=
    match l with
    | [] => Some s
    | a :: l' => s' ← f s a; mfoldl f l' s'
    end.
  Definition trimap_remove_tet (m : mesh) (id : N) : option mesh :=
    mfoldl (λ m i, trimap_remove m (Walker id i)) [0; 1; 2; 3] m.
  Definition trimap_insert_tet (m : mesh) (id : N) : option mesh :=
    mfoldl (λ m i, trimap_insert m (Walker id i)) [0; 1; 2; 3] m.
  Definition trimap_remove_tets (m : mesh) (ids : list N) : option mesh :=
    if m_track m then mfoldl trimap_remove_tet ids m else Some m.
  Definition trimap_insert_tets (m : mesh) (ids : list N) : option mesh :=
    if m_track m then mfoldl trimap_insert_tet ids m else Some m.

  (** src/tet.rs 1882-1897 [set_track_tri_map]. *)
  Definition set_track_tri_map (m : mesh) (flag : bool) : option mesh :=
    if flag then
      mfoldl trimap_insert_tet (im_keys (m_tets m)) (with_trimap (with_track m true) ∅)
    else Some (with_track m false).

  (** [mesh.edges.insert(UndirEdge::new(vs))]. *)
  Definition edge_insert (m : mesh) (vs : N * N) : mesh * N :=
    let '(es, id) := im_insert (m_edges m) (uedge_new vs) in (with_edges m es, id).
  (** [mesh.edges.extend_values(..)]. *)
  Definition edges_extend (m : mesh) (vss : list (N * N)) : mesh * list N :=
    let '(es, ids) := im_extend_values (m_edges m) (uedge_new <$> vss) in (with_edges m es, ids).

  (** src/tet.rs 1802-1879 [with_ids] on an empty mesh, for the ids 0..4 used by [new]
      (already sorted, so [sort_by_key] does nothing).  [swap] is the negation of the
      simulation-of-simplicity orientation test. *)
  Definition with_ids (m : mesh) (ps : arr4 (pt * V)) (swap : bool) (dflt : T) : option mesh :=
    let tw id e := Walker id e in
    let sw : nat := if swap then 1 else 0 in
    let idxs := A4 3 2 (1 - sw) sw in
    let mk i := (N.of_nat i, Vertex (tw 0%N (get4 idxs i)) vf_empty (get4 ps i).1 (get4 ps i).2) in
    vs ← im_extend (m_verts m) (mk <$> [0; 1; 2; 3]);
    let v0 := 0%N in
    let v1 := 1%N in
    let v2 := N.of_nat (2 + sw) in
    let v3 := N.of_nat (3 - sw) in
    let v4 := GHOST in
    let '(es, ei) := im_extend_values (m_edges m) (uedge_new <$>
       [(v0, v1); (v0, v2); (v0, v3); (v1, v2); (v1, v3); (v2, v3);
        (v0, v4); (v1, v4); (v2, v4); (v3, v4)]) in
    let e i := nth i ei 0%N in
    let '(ts, _) := im_extend_values (m_tets m)
       [tet_new (A4 v0 v1 v2 v3) (A4 (tw 1%N 7) (tw 2%N 7) (tw 3%N 7) (tw 4%N 7))
                (A6 (e 5) (e 0) (e 3) (e 2) (e 4) (e 1)) dflt;
        tet_new (A4 v1 v2 v3 v4) (A4 (tw 2%N 8) (tw 3%N 5) (tw 4%N 2) (tw 0%N 4))
                (A6 (e 9) (e 3) (e 5) (e 7) (e 8) (e 4)) dflt;
        tet_new (A4 v0 v3 v2 v4) (A4 (tw 1%N 8) (tw 4%N 5) (tw 3%N 2) (tw 0%N 5))
                (A6 (e 8) (e 2) (e 5) (e 6) (e 9) (e 1)) dflt;
        tet_new (A4 v3 v0 v1 v4) (A4 (tw 4%N 8) (tw 1%N 5) (tw 2%N 2) (tw 0%N 6))
                (A6 (e 7) (e 2) (e 0) (e 9) (e 6) (e 4)) dflt;
        tet_new (A4 v2 v1 v0 v4) (A4 (tw 3%N 8) (tw 2%N 5) (tw 1%N 2) (tw 0%N 7))
                (A6 (e 6) (e 3) (e 0) (e 8) (e 7) (e 1)) dflt] in
    Some (with_tets (with_edges (with_verts m vs) es) ts).

  Definition origin : pt := Pt 0 0 0.
  Definition mesh_empty : mesh := Mesh im_empty vf_empty im_empty im_empty ∅ false origin.

  (** src/tet.rs 1770-1800 [new].  [sim] is the simulation-of-simplicity orientation test of the
      four points (crate [simplicity]) and [ctr] the (rounded) centroid; the NaN centre that
      exists only during construction is modelled by the origin. *)
  Definition mesh_new (sim : pt → pt → pt → pt → bool) (ctr : pt → pt → pt → pt → pt)
      (ps : arr4 (pt * V)) (dflt : T) : option mesh :=
    let p i := (get4 ps i).1 in
    m ← with_ids mesh_empty ps (negb (sim (p 0) (p 1) (p 2) (p 3))) dflt;
    t ← tet_get m 0%N;
    a ← im_get (m_verts m) (q0 (t_vs t));
    b ← im_get (m_verts m) (q1 (t_vs t));
    c ← im_get (m_verts m) (q2 (t_vs t));
    d ← im_get (m_verts m) (q3 (t_vs t));
    Some (with_center m (ctr (v_pos a) (v_pos b) (v_pos c) (v_pos d))).

  (** src/tet.rs 1920-1927. *)
  Definition num_vertices (m : mesh) : option N := im_len (m_verts m).
  Definition num_tets (m : mesh) : option N := im_len (m_tets m).

  (** src/tet.rs 705-809 [flip14_unchecked]. *)
  Definition flip14_unchecked (m : mesh) (self : walker) (vertex : N)
      : option (mesh * arr4 walker) :=
    let id0 := w_tet self in
    t ← tet_get m id0; let '(m, id1) := tet_insert m t in
    t ← tet_get m id0; let '(m, id2) := tet_insert m t in
    t ← tet_get m id0; let '(m, id3) := tet_insert m t in
    m ← tet_upd m id0 (λ t, set_locked 3 false (set_locked 2 false (set_locked 1 false t)));
    m ← tet_upd m id1 (λ t, set_locked 2 false (set_locked 3 false (set_locked 0 false t)));
    m ← tet_upd m id2 (λ t, set_locked 1 false (set_locked 0 false (set_locked 3 false t)));
    m ← tet_upd m id3 (λ t, set_locked 0 false (set_locked 1 false (set_locked 2 false t)));
    m ← trimap_remove_tets m [id0];
    m ← vert_ref_idx m vertex self;
    t ← tet_get m id0;
    let vs := t_vs t in
    let m := vert_ref m (q0 vs) (Walker id2 3) in
    let m := vert_ref m (q1 vs) (Walker id3 2) in
    let m := vert_ref m (q2 vs) (Walker id0 1) in
    let m := vert_ref m (q3 vs) (Walker id1 0) in
    let '(m, es) := edges_extend m [(q0 vs, vertex); (q1 vs, vertex); (q2 vs, vertex); (q3 vs, vertex)] in
    let e i := nth i es 0%N in
    m ← tet_upd m id0 (λ t,
      set_edge 3 (e 3) (set_edge 5 (e 2) (set_edge 1 (e 1)
      (set_opp 3 (Walker id3 8) (set_opp 2 (Walker id2 4) (set_opp 1 (Walker id1 0)
      (set_v 0 vertex t)))))));
    m ← tet_upd m id1 (λ t,
      set_edge 1 (e 0) (set_edge 4 (e 3) (set_edge 2 (e 2)
      (set_opp 0 (Walker id0 1) (set_opp 3 (Walker id3 5) (set_opp 2 (Walker id2 9)
      (set_v 1 vertex t)))))));
    m ← tet_upd m id2 (λ t,
      set_edge 2 (e 1) (set_edge 5 (e 0) (set_edge 0 (e 3)
      (set_opp 1 (Walker id1 10) (set_opp 0 (Walker id0 6) (set_opp 3 (Walker id3 2)
      (set_v 2 vertex t)))))));
    m ← tet_upd m id3 (λ t,
      set_edge 0 (e 2) (set_edge 4 (e 1) (set_edge 3 (e 0)
      (set_opp 2 (Walker id2 3) (set_opp 1 (Walker id1 7) (set_opp 0 (Walker id0 11)
      (set_v 3 vertex t)))))));
    m ← mfoldl (λ m '(id, i),
           t ← tet_get m id;
           let w := get4 (t_opp t) i in
           tet_upd m (w_tet w) (λ t', set_opp (w_edge w mod 4)
              (Walker id (w_edge (get4 (t_opp t') (w_edge w mod 4)))) t'))
         [(id1, 1); (id2, 2); (id3, 3)] m;
    m ← trimap_insert_tets m [id0; id1; id2; id3];
    Some (m, A4 (Walker id0 0) (Walker id1 1) (Walker id2 2) (Walker id3 3)).

  (** The body shared by the four "fix tet walkers on adjacent tets" loops (src/tet.rs 847-854,
      863-874, 1012-1018, 1027-1033): step from [walk] to the adjacent tet and redirect the
      adjacent tet's link to tet [id], relabelled by the inverse of position [base]. *)
  Definition relink (m : mesh) (walk : walker) (id : N) (base : nat) : option (mesh * walker) :=
    adj ← to_adj m walk;
    t ← tet_get m (w_tet adj);
    let old := get4 (t_opp t) (w_edge adj mod 4) in
    m ← tet_upd m (w_tet adj) (set_opp (w_edge adj mod 4) (Walker id (perm_inv base (w_edge old))));
    Some (m, adj).

  (** [mesh.tets[id].edges[k] = src.undir_edge(mesh)]. *)
  Definition copy_edge (m : mesh) (id : N) (k : nat) (src : walker) : option mesh :=
    e ← undir_edge m src; tet_upd m id (set_edge k e).

  (** [if mesh.tets[src.id()].flags.intersects(locked(src.edge)) { mesh.tets[id].set_flags(LOCKED_k) }]. *)
  Definition copy_lock (m : mesh) (id : N) (k : nat) (src : walker) : option mesh :=
    b ← w_locked m src; if (b : bool) then tet_upd m id (set_locked k true) else Some m.

  (** [clear_flags(LOCKED_0 | LOCKED_1 | LOCKED_2 | LOCKED_3)]. *)
  Definition clear_locks (m : mesh) (id : N) : option mesh :=
    tet_upd m id (λ t, set_locked 0 false (set_locked 1 false (set_locked 2 false (set_locked 3 false t)))).

  (** src/tet.rs 815-939 [flip23_unchecked]. *)
  Definition flip23_unchecked (m : mesh) (self : walker) : option (mesh * (walker * walker * walker)) :=
    other ← to_adj m self;
    let id0 := w_tet self in
    let id1 := w_tet other in
    t ← tet_get m id0; let '(m, id2) := tet_insert m t in
    m ← clear_locks m id0;
    m ← clear_locks m id1;
    m ← clear_locks m id2;
    m ← trimap_remove_tets m [id0; id1];
    (* lines 842-855 *)
    let t0 := to_perm self P1032 in
    let t1 := to_perm self P0231 in
    let t2 := to_perm self P2130 in
    '(m, at0) ← relink m t0 id0 (w_edge t0);
    '(m, at1) ← relink m t1 id1 (w_edge t1);
    '(m, at2) ← relink m t2 id2 (w_edge t2);
    (* lines 857-875 *)
    '(m, ab0) ← relink m (to_perm other P1032) id0 (w_edge other);
    '(m, ab1) ← relink m (to_perm other P2130) id1 (w_edge (to_nfe other));
    '(m, ab2) ← relink m (to_perm other P0231) id2 (w_edge (to_pfe other));
    (* lines 877-895 *)
    vs ← w_verts m self;
    v4 ← w_fourth m other;
    let v1 := q0 vs in let v0 := q1 vs in let v2 := q2 vs in let v3 := q3 vs in
    let m := vert_ref m v0 (Walker id0 3) in
    let m := vert_ref m v1 (Walker id1 3) in
    let m := vert_ref m v2 (Walker id2 3) in
    let m := vert_ref m v3 (Walker id0 1) in
    let m := vert_ref m v4 (Walker id0 0) in
    let '(m, edge) := edge_insert m (v3, v4) in
    (* lines 899-922 *)
    m ← mfoldl (λ m '(id, va, vb, nxt, prv, ab, at_),
           m ← tet_upd m id (λ t,
             set_edge 0 edge (set_opp 3 at_ (set_opp 2 ab
             (set_opp 1 (Walker prv 0) (set_opp 0 (Walker nxt 1)
             (set_vs (A4 va vb v3 v4) t))))));
           m ← copy_edge m id 1 at_;
           m ← copy_edge m id 2 (to_pfe at_);
           m ← copy_edge m id 3 (to_pfe ab);
           m ← copy_edge m id 4 (to_nfe ab);
           m ← copy_edge m id 5 (to_nfe at_);
           m ← copy_lock m id 2 ab;
           copy_lock m id 3 at_)
         [(id0, v0, v1, id1, id2, ab0, at0);
          (id1, v1, v2, id2, id0, ab1, at1);
          (id2, v2, v0, id0, id1, ab2, at2)] m;
    m ← trimap_insert_tets m [id0; id1; id2];
    Some (m, (Walker id0 2, Walker id1 2, Walker id2 2)).

  (** src/tet.rs 945-956 [flip23_unlocked].  The inner option is the Rust result. *)
  Definition flip23_unlocked (m : mesh) (self : walker)
      : option (mesh * option (walker * walker * walker)) :=
    l ← w_locked m self;
    if (l : bool) then Some (m, None)
    else '(m', ws) ← flip23_unchecked m self; Some (m', Some ws).

  (** src/tet.rs 981-1116 [flip32_unchecked]. *)
  Definition flip32_unchecked (m : mesh) (self : walker) : option (mesh * (walker * walker)) :=
    other1 ← to_adj m (to_twin_edge self);
    other2 ← to_adj m (to_twin_edge other1);
    let id0 := w_tet self in
    let id1 := w_tet other1 in
    m ← clear_locks m id0;
    m ← clear_locks m id1;
    m ← trimap_remove_tets m [w_tet self; w_tet other1; w_tet other2];
    (* lines 1006-1019 *)
    '(m, at0) ← relink m (to_opp_edge self) id0 (w_edge (to_perm self P3210));
    '(m, at1) ← relink m (to_opp_edge other1) id0 (w_edge (to_perm other1 P2130));
    '(m, at2) ← relink m (to_opp_edge other2) id0 (w_edge (to_perm other2 P1320));
    (* lines 1021-1034 *)
    '(m, ab0) ← relink m (to_perm self P3210) id1 (w_edge (to_perm self P2301));
    '(m, ab1) ← relink m (to_perm other1 P3210) id1 (w_edge (to_perm other1 P0231));
    '(m, ab2) ← relink m (to_perm other2 P3210) id1 (w_edge (to_perm other2 P3021));
    (* lines 1036-1054 *)
    vs ← w_verts m self;
    v2 ← w_fourth m other1;
    let v3 := q0 vs in let v4 := q1 vs in let v1 := q2 vs in let v0 := q3 vs in
    let m := vert_ref m v0 (Walker id0 3) in
    let m := vert_ref m v1 (Walker id0 7) in
    let m := vert_ref m v2 (Walker id0 11) in
    let m := vert_ref m v3 (Walker id0 0) in
    let m := vert_ref m v4 (Walker id1 0) in
    (* lines 1056-1077 *)
    m ← tet_upd m id0 (λ t,
          set_opp 3 (Walker id1 3) (set_opp 2 at0
          (set_opp 1 (to_pfe at1) (set_opp 0 (to_nfe at2) (set_vs (A4 v0 v1 v2 v3) t)))));
    m ← copy_edge m id0 0 (to_pfe at1);
    m ← copy_edge m id0 1 at0;
    m ← copy_edge m id0 2 at2;
    m ← copy_edge m id0 3 (to_pfe at0);
    m ← copy_edge m id0 4 (to_pfe at2);
    m ← copy_edge m id0 5 at1;
    m ← copy_lock m id0 0 (to_nfe at2);
    m ← copy_lock m id0 1 (to_pfe at1);
    m ← copy_lock m id0 2 at0;
    (* lines 1079-1100 *)
    m ← tet_upd m id1 (λ t,
          set_opp 3 (Walker id0 3) (set_opp 2 ab0
          (set_opp 1 (to_pfe ab2) (set_opp 0 (to_nfe ab1) (set_vs (A4 v1 v0 v2 v4) t)))));
    m ← copy_edge m id1 0 (to_nfe ab1);
    t0 ← tet_get m id0; m ← tet_upd m id1 (set_edge 1 (s1 (t_edges t0)));
    t0 ← tet_get m id0; m ← tet_upd m id1 (set_edge 2 (s5 (t_edges t0)));
    m ← copy_edge m id1 3 (to_nfe ab2);
    m ← copy_edge m id1 4 (to_nfe ab0);
    t0 ← tet_get m id0; m ← tet_upd m id1 (set_edge 5 (s2 (t_edges t0)));
    m ← copy_lock m id1 0 (to_nfe ab1);
    m ← copy_lock m id1 1 (to_pfe ab2);
    m ← copy_lock m id1 2 ab0;
    (* lines 1102-1103 *)
    e ← undir_edge m other2;
    let m := with_edges m (im_remove (m_edges m) e).1 in
    let m := with_tets m (im_remove (m_tets m) (w_tet other2)).1 in
    m ← trimap_insert_tets m [id0; id1];
    Some (m, (Walker id0 10, Walker id1 10)).

  (** [self.to_twin_edge().to_adj(mesh)]: one step around the current edge. *)
  Definition ring_next (m : mesh) (w : walker) : option walker := to_adj m (to_twin_edge w).

  (** src/tet.rs 1122-1140 [flip32_unlocked]. *)
  Definition flip32_unlocked (m : mesh) (self : walker)
      : option (mesh * option (walker * walker)) :=
    other1 ← ring_next m self;
    other2 ← ring_next m other1;
    l0 ← w_locked m self;
    l1 ← w_locked m other1;
    l2 ← w_locked m other2;
    e ← undir_edge m self;
    ue ← im_get (m_edges m) e;
    back ← ring_next m other2;
    if (l0 : bool) || (l1 : bool) || (l2 : bool) || ue_locked ue || negb (bool_decide (back = self))
    then Some (m, None)
    else '(m', ws) ← flip32_unchecked m self; Some (m', Some ws).

  (** src/tet.rs 1166-1179 [flip44_unchecked].  [edge_ring().next()] four times: the iterator
      stops (and [unwrap] panics) when it is back at the start. *)
  Definition flip44_unchecked (m : mesh) (self : walker) : option (mesh * list walker) :=
    '(m, (w0, w1, _)) ← flip23_unchecked m (to_twin_edge self);
    '(m, _) ← flip32_unchecked m w0;
    let r0 := to_opp_edge w1 in
    r1 ← ring_next m r0;
    if bool_decide (r1 = r0) then None else
    r2 ← ring_next m r1;
    if bool_decide (r2 = r0) then None else
    r3 ← ring_next m r2;
    if bool_decide (r3 = r0) then None else
    Some (m, [r0; r1; r2; r3]).
End mesh.
Global Arguments vertex : clear implicits.
Global Arguments tet : clear implicits.
Global Arguments mesh : clear implicits.
Global Arguments tet_get : simpl never.
