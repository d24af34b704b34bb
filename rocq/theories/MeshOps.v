(** Model of further operations of src/tet.rs: adding vertices, locking, lookups by the triangle
    map, and the integrity check. *)
From stdpp Require Import base numbers list gmap option.
From Coq Require Import NArith ZArith.
From Verif Require Import IdMapModel WalkerModel MeshModel.
Local Open Scope nat_scope.

Section ops.
  Context {V T : Type}.
  Implicit Types (m : mesh V T) (w : walker).

  (** src/tet.rs 2471-2475, 2770, 2890, 3113: [vertices.insert(Vertex::new(TetWalker::new(
      TetId::invalid(), 0), position, value))]: a vertex that is not part of any tet yet. *)
  Definition add_vertex m (p : pt) (v : V) : mesh V T * N :=
    let '(vs, id) := im_insert (m_verts m) (Vertex (Walker invalid_id 0) vf_empty p v) in
    (with_verts m vs, id).

  (** src/tet.rs 2924-2927 (set) and 3003-3004, 3050-3051 (clear): the LOCKED flag of a walker's
      triangle, on both sides. *)
  Definition set_tri_lock m w (b : bool) : option (mesh V T) :=
    adj ← to_adj_ae m w;
    m ← tet_upd m (w_tet w) (set_locked (w_edge w mod 4) b);
    tet_upd m (w_tet adj) (set_locked (w_edge adj mod 4) b).

  (** src/tet.rs 2732, 2812, 2930-2932 (set) and 3001-3002, 3048-3049 (clear): the LOCKED flag of
      a walker's edge. *)
  Definition set_edge_lock m w (b : bool) : option (mesh V T) :=
    e ← undir_edge m w;
    ue ← im_get (m_edges m) e;
    es ← im_set (m_edges m) e (UEdge (ue_vs ue) (ue_boundary ue) b (ue_bw ue));
    Some (with_edges m es).

  (** The LOCKED flag of a walker's edge. *)
  Definition w_edge_locked m w : option bool :=
    e ← undir_edge m w; ue ← im_get (m_edges m) e; Some (ue_locked ue).

  (** src/tet.rs 1994-1996 [walker_from_vertex]. *)
  Definition walker_from_vertex m (v : N) : option walker := v_tet <$> im_get (m_verts m) v.

  (** src/tet.rs 2036-2038 [walker_from_tet_id]. *)
  Definition walker_from_tet_id (id : N) : walker := Walker id 3.

  (** src/tet.rs 2007-2012 [walker_from_tri] with tracking on: the outer option is a panic, the
      inner one the Rust result. *)
  Definition walker_from_tri_tracked m (t : N * N * N) : option (option walker) :=
    match m_trimap m !! tri_key t with
    | None => Some None
    | Some w => w' ← to_edge_assuming_tri m w t.1.1; Some (Some w')
    end.

  (** src/tet.rs 2150-2157 [adjacent_tets]. *)
  Definition adjacent_tets m (id : N) : option (list N) :=
    t ← tet_get m id;
    Some [w_tet (q0 (t_opp t)); w_tet (q1 (t_opp t)); w_tet (q2 (t_opp t)); w_tet (q3 (t_opp t))].

  (** src/tet.rs 3539-3686 [assert_integrity]: [true] when every assertion holds (an assertion
      evaluated through a panicking access counts as failing).  [ori] is the outcome of the
      orientation test of a tet's vertices, [None] when [orient_test] is false.  Hash sets are
      modelled by duplicate-free lists. *)
  Definition ai_vertex m (iv : N * vertex V) : bool :=
    negb (N.eqb (w_tet (v_tet iv.2)) invalid_id) &&
    match w_first m (v_tet iv.2) with Some x => N.eqb x iv.1 | None => false end.
  Definition ai_edge (ie : N * uedge) : bool :=
    negb (N.eqb (ue_vs ie.2).1 (ue_vs ie.2).2) && N.ltb (ue_vs ie.2).1 (ue_vs ie.2).2.
  Definition ai_no_dup_edges m : bool :=
    match im_len (m_edges m) with
    | Some n => N.eqb n (N.of_nat (length (remove_dups ((λ e, sorted_2 (ue_vs e)) <$> im_values (m_edges m)))))
    | None => false
    end.
  Definition ai_edges_used m : bool :=
    forallb (λ e, existsb (λ t, let es := t_edges t in
        N.eqb e (s0 es) || N.eqb e (s1 es) || N.eqb e (s2 es) ||
        N.eqb e (s3 es) || N.eqb e (s4 es) || N.eqb e (s5 es)) (im_values (m_tets m)))
      (im_keys (m_edges m)).
  Definition ai_trimap m : bool :=
    negb (m_track m) ||
    forallb (λ kw : (N * N * N) * walker,
        match w_tri m kw.2 with Some t => bool_decide (tri_key t = kw.1) | None => false end)
      (map_to_list (m_trimap m)).
  Definition ai_tri m (w : walker) : bool :=
    match to_adj_ae m w with
    | Some adj => match w_locked m w, w_locked m adj with
                  | Some a, Some b => Bool.eqb a b
                  | _, _ => false
                  end
    | None => false
    end.
  Definition ai_walker m (t : tet T) (w : walker) : bool :=
    match w_verts m w, w_fourth m (get4 (t_opp t) (w_edge w mod 4)), to_adj m w with
    | Some vi, Some d, Some adj =>
        let vs := A4 (q1 vi) (q0 vi) (q2 vi) d in
        match w_verts m adj, to_adj m adj, undir_edge m w with
        | Some va, Some back, Some e =>
            bool_decide (list4 va = list4 vs) &&
            match w_verts m back with Some vb => bool_decide (list4 vb = list4 vi) | None => false end &&
            match im_get (m_edges m) e with
            | Some ue => bool_decide (sorted_2 (q0 vs, q1 vs) = sorted_2 (ue_vs ue))
            | None => false
            end &&
            (negb (Nat.ltb (w_edge w) 4 && m_track m) ||
             match w_tri m w with
             | Some tr => bool_decide (is_Some (m_trimap m !! tri_key tr))
             | None => false
             end)
        | _, _, _ => false
        end
    | _, _, _ => false
    end.
  Definition ai_tet (ori : option (arr4 N → bool)) m (it : N * tet T) : bool :=
    Nat.eqb 4 (length (remove_dups (list4 (t_vs it.2)))) &&
    match ori with Some f => f (t_vs it.2) | None => true end &&
    forallb (λ i, ai_tri m (Walker it.1 i)) (seq 0 4) &&
    forallb (λ i, ai_walker m it.2 (Walker it.1 i)) (seq 0 12).
  Definition assert_integrity (ori : option (arr4 N → bool)) m : bool :=
    forallb (ai_vertex m) (im_iter (m_verts m)) &&
    forallb ai_edge (im_iter (m_edges m)) &&
    ai_no_dup_edges m && ai_edges_used m && ai_trimap m &&
    forallb (ai_tet ori m) (im_iter (m_tets m)).
End ops.
