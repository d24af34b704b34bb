(** Model of the cavity search of src/tet.rs ([point_cavity]). *)
From stdpp Require Import base numbers list gmap option.
From Coq Require Import NArith ZArith.
From Verif Require Import IdMapModel WalkerModel MeshModel MeshOps.
Local Open Scope nat_scope.

(** Rust's [&&] on operands that may panic: the second one is not evaluated after [false]. *)
Definition andb_lazy (x y : option bool) : option bool :=
  match x with Some true => y | _ => x end.

Section cav.
  Context {V T : Type}.
  Implicit Types (m : mesh V T) (w : walker).

  (** src/tet.rs 1527-1534: the flags BOUND_IMM_i, BOUND_LIMIT_i with [i = edge % 4], and
      NOT_ENCLOSURE, of the tet with a given id: set or clear ... *)
  Definition set_imm (i : nat) (b : bool) (t : tet T) : tet T :=
    let f := t_flags t in
    set_flags (TFlags (f_locked f) (set4 (f_imm f) i b) (f_limit f) (f_boundary f) (f_wfv f) (f_dup f) (f_notenc f)) t.
  Definition set_limit (i : nat) (b : bool) (t : tet T) : tet T :=
    let f := t_flags t in
    set_flags (TFlags (f_locked f) (f_imm f) (set4 (f_limit f) i b) (f_boundary f) (f_wfv f) (f_dup f) (f_notenc f)) t.
  Definition set_notenc (b : bool) (t : tet T) : tet T :=
    let f := t_flags t in
    set_flags (TFlags (f_locked f) (f_imm f) (f_limit f) (f_boundary f) (f_wfv f) (f_dup f) b) t.
  Definition put_imm (b : bool) m w : option (mesh V T) := tet_upd m (w_tet w) (set_imm (w_edge w mod 4) b).
  Definition put_limit (b : bool) m w : option (mesh V T) := tet_upd m (w_tet w) (set_limit (w_edge w mod 4) b).
  Definition put_notenc (b : bool) m (id : N) : option (mesh V T) := tet_upd m id (set_notenc b).
  (** ... or test ([flags.get().intersects(..)]). *)
  Definition imm_flag m w : option bool :=
    t ← tet_get m (w_tet w); Some (get4 (f_imm (t_flags t)) (w_edge w mod 4)).
  Definition limit_flag m w : option bool :=
    t ← tet_get m (w_tet w); Some (get4 (f_limit (t_flags t)) (w_edge w mod 4)).
  Definition notenc_flag m (id : N) : option bool :=
    t ← tet_get m id; Some (f_notenc (t_flags t)).

  (** src/tet.rs 1589-1594: [!rm || !mesh.edges[..].flags.get().intersects(LOCKED)] for the edges
      that are removed when all the triangles of [rms] are. *)
  Definition edge_free m (rm : bool) w : option bool :=
    if rm then l ← w_edge_locked m w; Some (negb l) else Some true.

  (** src/tet.rs 1570-1596 [removal_safe], in the case [!convex]. *)
  Definition removal_safe m (adj : walker) : option bool :=
    walk0 ← to_adj_ae m (to_perm adj P3210);
    walk1 ← to_adj_ae m (to_opp_edge adj);
    walk2 ← to_adj_ae m (to_twin_edge adj);
    rm0 ← imm_flag m walk0;
    rm1 ← imm_flag m walk1;
    rm2 ← imm_flag m walk2;
    andb_lazy (l ← limit_flag m walk0; Some (negb l)) $
    andb_lazy (l ← limit_flag m walk1; Some (negb l)) $
    andb_lazy (l ← limit_flag m walk2; Some (negb l)) $
    andb_lazy (edge_free m rm0 (to_perm adj P1203)) $
    andb_lazy (edge_free m rm1 (to_perm adj P2013)) $
    andb_lazy (edge_free m rm2 (to_perm adj P0123)) $
    andb_lazy (edge_free m (rm0 && rm1) (to_perm adj P2301)) $
    andb_lazy (edge_free m (rm1 && rm2) (to_perm adj P0312)) $
    andb_lazy (edge_free m (rm2 && rm0) (to_perm adj P1320)) $
    l ← w_locked m adj; Some (negb l).

  (** src/tet.rs 1601 [position(|v| *v == GHOST)]. *)
  Definition ghost_pos (vs : arr4 N) : option nat :=
    if N.eqb (q0 vs) GHOST then Some 0
    else if N.eqb (q1 vs) GHOST then Some 1
    else if N.eqb (q2 vs) GHOST then Some 2
    else if N.eqb (q3 vs) GHOST then Some 3
    else None.

  (** The geometric predicates for the vertex to be inserted: [mesh.in_sphere(.., vertex)] and
      [mesh.orient_3d(.., vertex)].  They only read positions, which the search does not change,
      so they are arbitrary functions of vertex ids here (only the sign matters). *)
  Context (ins : arr4 N → Z) (ori : N * N * N → Z).

  (** src/tet.rs 1599-1607: [in_sphere >= 0.0] after the coplanarity correction. *)
  Definition sphere_test m (adj : walker) : option bool :=
    vs ← w_verts m adj;
    let s := ins vs in
    s ← (if decide (s = 0%Z) then
           t ← tet_get m (w_tet adj);
           match ghost_pos (t_vs t) with
           | Some i => x ← to_adj_ae m (to_edge adj i); vs ← w_verts m x; Some (ins vs)
           | None => Some s
           end
         else Some s);
    Some (Z.leb 0 s).

  (** src/tet.rs 1613-1618, 1674-1679: the other three triangles of the walker's tet. *)
  Definition other_tris w : list walker := [to_opp_edge w; to_twin_edge w; to_perm w P3210].

  (** src/tet.rs 1620-1630: local extension over one triangle; the deque's front is the head. *)
  Definition extend_over (s : mesh V T * list walker) (walker : walker) : option (mesh V T * list WalkerModel.walker) :=
    let '(m, queue) := s in
    twin ← to_adj_ae m walker;
    b ← imm_flag m twin;
    if (b : bool) then m ← put_imm false m twin; Some (m, queue)
    else m ← put_imm true m walker; Some (m, queue ++ [walker]).

  (** src/tet.rs 1555-1641: the loop extending the intermediate boundary.  [fuel] bounds the rounds
      of the [while] loop; the theorems show that it is never used up. *)
  Fixpoint expand (fuel : nat) (convex : bool) m (queue boundary : list walker) (enclosed : list N)
      : option (mesh V T * list walker * list N) :=
    match fuel with
    | 0 => None
    | S fuel =>
      match queue with
      | [] => Some (m, boundary, enclosed)
      | tri :: queue =>
        b ← imm_flag m tri;
        if negb b then expand fuel convex m queue boundary enclosed
        else
          m ← put_imm false m tri;
          adj ← to_adj_ae m tri;
          safe ← (if convex then Some true else removal_safe m adj);
          sph ← sphere_test m adj;
          if safe && sph then
            '(m, queue) ← mfoldl extend_over (other_tris adj) (m, queue);
            expand fuel convex m queue boundary (enclosed ++ [w_tet adj])
          else
            m ← (if convex then Some m else put_limit true m tri);
            expand fuel convex m queue (boundary ++ [tri]) enclosed
      end
    end.

  (** src/tet.rs 1680-1691: local retraction over one triangle. *)
  Definition retract_over (s : mesh V T * list walker) (walker : walker) : option (mesh V T * list WalkerModel.walker) :=
    let '(m, queue) := s in
    b ← imm_flag m walker;
    if (b : bool) then m ← put_imm false m walker; Some (m, queue)
    else twin ← to_adj_ae m walker; m ← put_imm true m twin; Some (m, queue ++ [twin]).

  (** src/tet.rs 1655-1694: the loop removing tets whose boundary triangles do not see the vertex.
      The [println!] of line 1656 is not modelled. *)
  Fixpoint retract (fuel : nat) (exclude : gset N) m (queue boundary : list walker)
      : option (mesh V T * list walker) :=
    match fuel with
    | 0 => None
    | S fuel =>
      match queue with
      | [] => Some (m, boundary)
      | tri :: queue =>
        b ← imm_flag m tri;
        if negb b then retract fuel exclude m queue boundary
        else
          vs ← w_tri m tri;
          if bool_decide (w_tet tri ∉ exclude) && Z.ltb 0 (ori vs) then
            retract fuel exclude m queue (boundary ++ [tri])
          else
            m ← put_notenc true m (w_tet tri);
            m ← put_imm false m tri;
            '(m, queue) ← mfoldl retract_over (other_tris tri) (m, queue);
            retract fuel exclude m queue boundary
      end
    end.

  (** src/tet.rs 1697-1707: the two [filter] passes, which also clear the flags. *)
  Definition keep_tri (s : mesh V T * list walker) (walker : walker) : option (mesh V T * list WalkerModel.walker) :=
    let '(m, acc) := s in
    b ← imm_flag m walker; m ← put_imm false m walker;
    Some (m, if (b : bool) then acc ++ [walker] else acc).
  Definition keep_tet (s : mesh V T * list N) (id : N) : option (mesh V T * list N) :=
    let '(m, acc) := s in
    b ← notenc_flag m id; m ← put_notenc false m id;
    Some (m, if (b : bool) then acc else acc ++ [id]).

  (** src/tet.rs 1647-1651. *)
  Definition restart_tri m (walker : walker) : option (mesh V T) :=
    m ← put_imm true m walker; put_limit false m walker.

  (** src/tet.rs 1541-1550: the initial boundary, with the optional assertion. *)
  Definition start_tri (assert_star : bool) m (walker : walker) : option (mesh V T) :=
    vs ← w_verts m walker;
    if assert_star && negb (Z.ltb 0 (ori (q0 vs, q1 vs, q2 vs))) then None
    else put_imm true m walker.

  Definition fuel_for m (queue : list walker) : nat := length queue + 3 * length (im_keys (m_tets m)) + 1.

  (** src/tet.rs 1645-1707: the part for [!convex]. *)
  Definition shrink (exclude : gset N) m (boundary : list walker) (enclosed : list N)
      : option (mesh V T * list walker * list N) :=
    m ← mfoldl restart_tri boundary m;
    '(m, boundary) ← retract (fuel_for m boundary) exclude m boundary [];
    '(m, boundary) ← mfoldl keep_tri boundary (m, []);
    '(m, enclosed) ← mfoldl keep_tet enclosed (m, []);
    Some (m, boundary, enclosed).

  (** src/tet.rs 1517-1717 [point_cavity]: the mesh (whose flags are interior mutable), the boundary
      and the enclosed tets; [None] is a panic. *)
  Definition point_cavity m (initial_boundary : list walker) (initial_enclosed exclude : list N)
      (convex assert_star remove_nd : bool) : option (mesh V T * list walker * list N) :=
    m ← mfoldl (start_tri assert_star) initial_boundary m;
    '(m, boundary, enclosed) ←
      (if remove_nd then expand (fuel_for m initial_boundary) convex m initial_boundary [] initial_enclosed
       else Some (m, initial_boundary, initial_enclosed));
    '(m, boundary, enclosed) ←
      (if convex then Some (m, boundary, enclosed)
       else '(m, boundary, enclosed) ← shrink (list_to_set exclude) m boundary enclosed;
            if decide (enclosed = []) then None else Some (m, boundary, enclosed));
    if decide (NoDup enclosed) then Some (m, boundary, enclosed) else None.
End cav.
