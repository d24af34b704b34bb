(** Model of src/plc.rs: piecewise linear complexes. *)
From stdpp Require Import base numbers list gmap option.
From Coq Require Import NArith ZArith.
From Verif Require Import IdMapModel WalkerModel GeoModel MeshModel UtilModel.
Local Open Scope N_scope.

(** Writing through [IndexMut] (src/id_map.rs 244-249): [map[k].field = ...]; [None] is the panic. *)
Definition im_upd {A} (m : idmap A) (k : N) (f : A → A) : option (idmap A) :=
  x ← im_get m k; im_set m k (f x).

(** src/plc.rs 39-50 [struct Vertex] and its [new] 53-61.  Positions are exact points. *)
Record pvert (V : Type) := PVert { pv_out : N; pv_in : N; pv_ring : N; pv_pos : pt; pv_val : V }.
Arguments PVert {_}. Arguments pv_out {_}. Arguments pv_in {_}. Arguments pv_ring {_}. Arguments pv_pos {_}. Arguments pv_val {_}.
(** src/plc.rs 74-86 [struct Edge] and its [new] 89-99. *)
Record pedge (E : Type) := PEdge {
  pe_vs : N * N; pe_nout : N; pe_nin : N; pe_pout : N; pe_pin : N; pe_fe : N; pe_val : E }.
Arguments PEdge {_}. Arguments pe_vs {_}. Arguments pe_nout {_}. Arguments pe_nin {_}. Arguments pe_pout {_}.
Arguments pe_pin {_}. Arguments pe_fe {_}. Arguments pe_val {_}.
(** src/plc.rs 112-125 [struct FaceEdge]. *)
Record fedge := FEdge { fe_edge : N; fe_ring : N; fe_next : N; fe_prev : N; fe_noe : N; fe_poe : N }.
(** src/plc.rs 140-144 [enum RingElement]. *)
Inductive relem := RFaceEdge (fe : N) | RVertex (v : N).
(** src/plc.rs 146-155 [struct FaceRing]. *)
Record fring := FRing { fr_elem : relem; fr_face : N; fr_next : N; fr_prev : N }.
(** src/plc.rs 196-204 [struct Face]; [Pl] stands for the plane (point and unit normal). *)
Record pface (F Pl : Type) := PFace { pf_ring : N; pf_plane : Pl; pf_val : F }.
Arguments PFace {_ _}. Arguments pf_ring {_ _}. Arguments pf_plane {_ _}. Arguments pf_val {_ _}.

(** src/plc.rs 258-272 [struct Plc]; the default values are parameters of the functions below. *)
Record plc (V E F Pl : Type) := Plc {
  p_verts : idmap (pvert V); p_edges : idmap (pedge E); p_fes : idmap fedge; p_rings : idmap fring;
  p_faces : idmap (pface F Pl); p_emap : gmap (N * N) N }.
Arguments Plc {_ _ _ _}. Arguments p_verts {_ _ _ _}. Arguments p_edges {_ _ _ _}. Arguments p_fes {_ _ _ _}.
Arguments p_rings {_ _ _ _}. Arguments p_faces {_ _ _ _}. Arguments p_emap {_ _ _ _}.

(** Field updates. *)
Definition set_out {V} (x : N) (v : pvert V) := PVert x (pv_in v) (pv_ring v) (pv_pos v) (pv_val v).
Definition set_in {V} (x : N) (v : pvert V) := PVert (pv_out v) x (pv_ring v) (pv_pos v) (pv_val v).
Definition set_vring {V} (x : N) (v : pvert V) := PVert (pv_out v) (pv_in v) x (pv_pos v) (pv_val v).
Definition set_nout {E} (x : N) (e : pedge E) := PEdge (pe_vs e) x (pe_nin e) (pe_pout e) (pe_pin e) (pe_fe e) (pe_val e).
Definition set_nin {E} (x : N) (e : pedge E) := PEdge (pe_vs e) (pe_nout e) x (pe_pout e) (pe_pin e) (pe_fe e) (pe_val e).
Definition set_pout {E} (x : N) (e : pedge E) := PEdge (pe_vs e) (pe_nout e) (pe_nin e) x (pe_pin e) (pe_fe e) (pe_val e).
Definition set_pin {E} (x : N) (e : pedge E) := PEdge (pe_vs e) (pe_nout e) (pe_nin e) (pe_pout e) x (pe_fe e) (pe_val e).
Definition set_fe {E} (x : N) (e : pedge E) := PEdge (pe_vs e) (pe_nout e) (pe_nin e) (pe_pout e) (pe_pin e) x (pe_val e).
Definition set_eval {E} (x : E) (e : pedge E) := PEdge (pe_vs e) (pe_nout e) (pe_nin e) (pe_pout e) (pe_pin e) (pe_fe e) x.
Definition set_next x fe := FEdge (fe_edge fe) (fe_ring fe) x (fe_prev fe) (fe_noe fe) (fe_poe fe).
Definition set_prev x fe := FEdge (fe_edge fe) (fe_ring fe) (fe_next fe) x (fe_noe fe) (fe_poe fe).
Definition set_noe x fe := FEdge (fe_edge fe) (fe_ring fe) (fe_next fe) (fe_prev fe) x (fe_poe fe).
Definition set_poe x fe := FEdge (fe_edge fe) (fe_ring fe) (fe_next fe) (fe_prev fe) (fe_noe fe) x.
Definition set_elem x r := FRing x (fr_face r) (fr_next r) (fr_prev r).
Definition set_rnext x r := FRing (fr_elem r) (fr_face r) x (fr_prev r).
Definition set_rprev x r := FRing (fr_elem r) (fr_face r) (fr_next r) x.
Definition set_fring {F Pl} (x : N) (f : pface F Pl) := PFace x (pf_plane f) (pf_val f).
Definition set_plane {F Pl} (x : Pl) (f : pface F Pl) := PFace (pf_ring f) x (pf_val f).

(** Collecting an iterator that ends within [n] calls; not ending counts as a failure (the theorems
    show that this does not happen). *)
Definition collect {St A} (next : St → option (option A * St)) (n : nat) (s : St) : option (list A) :=
  '(l, _) ← iter_take next n s; if decide (length l < n)%nat then Some l else None.

Section plc.
  Context {V E F Pl : Type}.
  (** [Face::new] (src/plc.rs 206-216): the plane of a new face; [default_edge] (line 270); the
      computation of the plane from the points and the end points of the edges (lines 535-546). *)
  Context (plane0 : Pl) (default_edge : E) (plane_of : list pt → list (pt * pt) → Pl).
  Implicit Types (p : plc V E F Pl).

  Definition with_verts p (x : idmap (pvert V)) : plc V E F Pl := Plc x (p_edges p) (p_fes p) (p_rings p) (p_faces p) (p_emap p).
  Definition with_edges p (x : idmap (pedge E)) : plc V E F Pl := Plc (p_verts p) x (p_fes p) (p_rings p) (p_faces p) (p_emap p).
  Definition with_fes p x := Plc (p_verts p) (p_edges p) x (p_rings p) (p_faces p) (p_emap p).
  Definition with_rings p x := Plc (p_verts p) (p_edges p) (p_fes p) x (p_faces p) (p_emap p).
  Definition with_faces p (x : idmap (pface F Pl)) : plc V E F Pl := Plc (p_verts p) (p_edges p) (p_fes p) (p_rings p) x (p_emap p).

  Definition upd_vert p k f : option (plc V E F Pl) := x ← im_upd (p_verts p) k f; Some (with_verts p x).
  Definition upd_edge p k f : option (plc V E F Pl) := x ← im_upd (p_edges p) k f; Some (with_edges p x).
  Definition upd_fe p k f : option (plc V E F Pl) := x ← im_upd (p_fes p) k f; Some (with_fes p x).
  Definition upd_ring p k f : option (plc V E F Pl) := x ← im_upd (p_rings p) k f; Some (with_rings p x).
  Definition upd_face p k f : option (plc V E F Pl) := x ← im_upd (p_faces p) k f; Some (with_faces p x).

  (** src/plc.rs 275-292 [new]. *)
  Definition plc_new : plc V E F Pl := Plc im_empty im_empty im_empty im_empty im_empty ∅.

  (** src/plc.rs 294-307 [num_vertices], [num_edges], [num_faces]. *)
  Definition p_num_vertices p := im_len (p_verts p).
  Definition p_num_edges p := im_len (p_edges p).
  Definition p_num_faces p := im_len (p_faces p).
  (** src/plc.rs 309-312 [edge_id]. *)
  Definition edge_id p (vs : N * N) : option N := p_emap p !! vs.

  (** src/plc.rs 359-362 [add_vertex]. *)
  Definition p_add_vertex p (pos : pt) (v : V) : plc V E F Pl * N :=
    let '(m, id) := im_insert (p_verts p) (PVert invalid_id invalid_id invalid_id pos v) in (with_verts p m, id).

  (** src/plc.rs 374-386: the links of the source. *)
  Definition link_out p (id v0 : N) : option (plc V E F Pl) :=
    v ← im_get (p_verts p) v0;
    let out_id := pv_out v in
    if N.eqb out_id invalid_id then
      p ← upd_vert p v0 (set_out id);
      p ← upd_edge p id (set_nout id);
      upd_edge p id (set_pout id)
    else
      e ← im_get (p_edges p) out_id;
      let prev := pe_pout e in
      p ← upd_edge p prev (set_nout id);
      p ← upd_edge p out_id (set_pout id);
      p ← upd_edge p id (set_nout out_id);
      upd_edge p id (set_pout prev).
  (** src/plc.rs 388-400: the links of the target. *)
  Definition link_in p (id v1 : N) : option (plc V E F Pl) :=
    v ← im_get (p_verts p) v1;
    let in_id := pv_in v in
    if N.eqb in_id invalid_id then
      p ← upd_vert p v1 (set_in id);
      p ← upd_edge p id (set_nin id);
      upd_edge p id (set_pin id)
    else
      e ← im_get (p_edges p) in_id;
      let prev := pe_pin e in
      p ← upd_edge p prev (set_nin id);
      p ← upd_edge p in_id (set_pin id);
      p ← upd_edge p id (set_nin in_id);
      upd_edge p id (set_pin prev).

  (** src/plc.rs 364-403 [add_new_edge]. *)
  Definition add_new_edge p (vs : N * N) (val : E) : option (plc V E F Pl * N) :=
    let '(m, id) := im_insert (p_edges p)
      (PEdge vs invalid_id invalid_id invalid_id invalid_id invalid_id val) in
    p ← link_out (with_edges p m) id vs.1;
    p ← link_in p id vs.2;
    Some (p, id).

  Definition set_emap p (vs : N * N) (id : N) : plc V E F Pl :=
    Plc (p_verts p) (p_edges p) (p_fes p) (p_rings p) (p_faces p) (<[vs := id]> (p_emap p)).

  (** src/plc.rs 405-421 [add_edge]. *)
  Definition p_add_edge p (vs : N * N) (val : E) : option (plc V E F Pl * N) :=
    match p_emap p !! vs with
    | None => '(p, id) ← add_new_edge p vs val; Some (set_emap p vs id, id)
    | Some id => p ← upd_edge p id (set_eval val); Some (p, id)
    end.

  (** src/plc.rs 423-435 [add_edge_if_absent]. *)
  Definition add_edge_if_absent p (vs : N * N) (val : E) : option (plc V E F Pl * N) :=
    match p_emap p !! vs with
    | None => '(p, id) ← add_new_edge p vs val; Some (set_emap p vs id, id)
    | Some id => Some (p, id)
    end.

  (** src/plc.rs 489-500: a new face edge joins the list of uses of its edge. *)
  Definition link_use p (edge fe : N) : option (plc V E F Pl) :=
    e ← im_get (p_edges p) edge;
    let next_on_edge := pe_fe e in
    if N.eqb next_on_edge invalid_id then
      p ← upd_edge p edge (set_fe fe);
      p ← upd_fe p fe (set_noe fe);
      upd_fe p fe (set_poe fe)
    else
      n ← im_get (p_fes p) next_on_edge;
      let prev_on_edge := fe_poe n in
      p ← upd_fe p next_on_edge (set_poe fe);
      p ← upd_fe p prev_on_edge (set_noe fe);
      p ← upd_fe p fe (set_noe next_on_edge);
      upd_fe p fe (set_poe prev_on_edge).

  (** src/plc.rs 473-504: one iteration of the loop over the vertices of a ring; the state is
      (plc, first_fe, prev_fe, prev_vertex). *)
  Definition ring_step (ring : N) (s : plc V E F Pl * N * N * N) (vertex : N) : option (plc V E F Pl * N * N * N) :=
    let '(p, first_fe, prev_fe, prev_vertex) := s in
    '(p, edge) ← add_edge_if_absent p (prev_vertex, vertex) default_edge;
    let '(m, fe) := im_insert (p_fes p) (FEdge edge ring invalid_id invalid_id invalid_id invalid_id) in
    let p := with_fes p m in
    '(p, first_fe) ←
      (if N.eqb first_fe invalid_id then p ← upd_ring p ring (set_elem (RFaceEdge fe)); Some (p, fe)
       else p ← upd_fe p prev_fe (set_next fe); p ← upd_fe p fe (set_prev prev_fe); Some (p, first_fe));
    p ← link_use p edge fe;
    Some (p, first_fe, fe, vertex).

  (** Folding a step that can panic over a list. *)
  Fixpoint foldM {St A} (f : St → A → option St) (s : St) (l : list A) : option St :=
    match l with [] => Some s | a :: l => s ← f s a; foldM f s l end.

  (** src/plc.rs 461-513: the face edges of one ring.  A ring without vertices panics (line 465). *)
  Definition fill_ring p (ring : N) (vs : list N) : option (plc V E F Pl) :=
    match vs with
    | [] => None
    | [v] => p ← upd_ring p ring (set_elem (RVertex v)); upd_vert p v (set_vring ring)
    | first :: rest =>
      '(p, first_fe, prev_fe, _) ← foldM (ring_step ring) (p, invalid_id, invalid_id, first) (rest ++ [first]);
      p ← upd_fe p prev_fe (set_next first_fe);
      upd_fe p first_fe (set_prev prev_fe)
    end.

  (** src/plc.rs 451-516: one iteration of the loop over the rings; the state is
      (plc, first_ring, prev_ring). *)
  Definition face_step (id : N) (s : plc V E F Pl * N * N) (vs : list N) : option (plc V E F Pl * N * N) :=
    let '(p, first_ring, prev_ring) := s in
    let '(m, ring) := im_insert (p_rings p) (FRing (RFaceEdge invalid_id) id invalid_id invalid_id) in
    let p := with_rings p m in
    '(p, first_ring) ←
      (if N.eqb first_ring invalid_id then p ← upd_face p id (set_fring ring); Some (p, ring)
       else p ← upd_ring p prev_ring (set_rnext ring); p ← upd_ring p ring (set_rprev prev_ring); Some (p, first_ring));
    p ← fill_ring p ring vs;
    Some (p, first_ring, ring).

  (** src/plc.rs 223-231 [Face::rings], 890-896 [FaceRings]: a circular list of rings. *)
  Definition rings_next p : citer N → option (option (N * fring) * citer N) :=
    ci_next (im_get (p_rings p)) (λ r, fr_next <$> im_get (p_rings p) r).
  Definition face_rings (f : pface F Pl) : citer N := ci_new (pf_ring f).

  (** src/plc.rs 910-921 [enum FaceRingVertices] and 923-939 its [next]. *)
  Inductive frv := FrvSingle (x : option (N * pvert V)) | FrvMultiple (it : citer N).
  Definition fes_next p : citer N → option (option (N * fedge) * citer N) :=
    ci_next (im_get (p_fes p)) (λ fe, fe_next <$> im_get (p_fes p) fe).
  Definition frv_next p (s : frv) : option (option (N * pvert V) * frv) :=
    match s with
    | FrvSingle x => Some (x, FrvSingle None)
    | FrvMultiple it =>
      '(r, it) ← fes_next p it;
      match r with
      | None => Some (None, FrvMultiple it)
      | Some (_, fe) =>
        e ← im_get (p_edges p) (fe_edge fe);
        let vertex := (pe_vs e).1 in
        v ← im_get (p_verts p) vertex;
        Some (Some (vertex, v), FrvMultiple it)
      end
    end.
  (** src/plc.rs 167-179 [FaceRing::vertices]. *)
  Definition ring_vertices p (r : fring) : option frv :=
    match fr_elem r with
    | RFaceEdge fe => Some (FrvMultiple (ci_new fe))
    | RVertex v => x ← im_get (p_verts p) v; Some (FrvSingle (Some (v, x)))
    end.

  (** src/plc.rs 941-967 [FaceRingEdges]; [None] is the [Single] case. *)
  Definition fre_next p (s : option (citer N)) : option (option (N * pedge E) * option (citer N)) :=
    match s with
    | None => Some (None, None)
    | Some it =>
      '(r, it) ← fes_next p it;
      match r with
      | None => Some (None, Some it)
      | Some (_, fe) => e ← im_get (p_edges p) (fe_edge fe); Some (Some (fe_edge fe, e), Some it)
      end
    end.
  (** src/plc.rs 181-193 [FaceRing::edges]. *)
  Definition ring_edges (r : fring) : option (citer N) :=
    match fr_elem r with RFaceEdge fe => Some (ci_new fe) | RVertex _ => None end.

  (** Collecting these iterators: a ring has at most as many elements as there are face edges, or one vertex. *)
  Definition ring_vertex_list p (r : fring) : option (list (N * pvert V)) :=
    s ← ring_vertices p r; collect (frv_next p) (2 + (N.to_nat (im_npi (p_fes p)))) s.
  Definition ring_edge_list p (r : fring) : option (list (N * pedge E)) :=
    collect (fre_next p) (S (N.to_nat (im_npi (p_fes p)))) (ring_edges r).
  Definition face_ring_list p (f : pface F Pl) : option (list (N * fring)) :=
    collect (rings_next p) (S (N.to_nat (im_npi (p_rings p)))) (face_rings f).
  (** src/plc.rs 233-236 [Face::vertices], 898-908 [FaceVerticesByRing]: all vertices, ring by ring. *)
  Definition face_vertices p (f : pface F Pl) : option (list (list (N * pvert V))) :=
    rs ← face_ring_list p f; mapM (λ r, ring_vertex_list p r.2) rs.
  Definition face_edges p (f : pface F Pl) : option (list (list (N * pedge E))) :=
    rs ← face_ring_list p f; mapM (λ r, ring_edge_list p r.2) rs.

  (** src/plc.rs 526-547 [calc_face_plane]. *)
  Definition calc_face_plane p (face : N) : option (plc V E F Pl) :=
    f ← im_get (p_faces p) face;
    vss ← face_vertices p f;
    ess ← face_edges p f;
    ends ← mapM (λ e : N * pedge E, a ← im_get (p_verts p) (pe_vs e.2).1; b ← im_get (p_verts p) (pe_vs e.2).2;
                   Some (pv_pos a, pv_pos b)) (concat ess);
    upd_face p face (set_plane (plane_of ((λ v, pv_pos v.2) <$> concat vss) ends)).

  (** src/plc.rs 437-524 [add_face].  A face without rings panics (line 519: [prev_ring] is the
      reserved id). *)
  Definition p_add_face p (rings : list (list N)) (val : F) : option (plc V E F Pl * N) :=
    let '(m, id) := im_insert (p_faces p) (PFace invalid_id plane0 val) in
    '(p, first_ring, prev_ring) ← foldM (face_step id) (with_faces p m, invalid_id, invalid_id) rings;
    p ← upd_ring p prev_ring (set_rnext first_ring);
    p ← upd_ring p first_ring (set_rprev prev_ring);
    p ← calc_face_plane p id;
    Some (p, id).

  (** Histories of construction calls. *)
  Inductive pop :=
  | PAddVertex (pos : pt) (v : V)
  | PAddEdge (vs : N * N) (val : E)
  | PAddEdgeIfAbsent (vs : N * N) (val : E)
  | PAddFace (rings : list (list N)) (val : F).
  Definition run_pop p (o : pop) : option (plc V E F Pl * N) :=
    match o with
    | PAddVertex pos v => Some (p_add_vertex p pos v)
    | PAddEdge vs val => p_add_edge p vs val
    | PAddEdgeIfAbsent vs val => add_edge_if_absent p vs val
    | PAddFace rings val => p_add_face p rings val
    end.
  Fixpoint run_pops p (os : list pop) : option (plc V E F Pl) :=
    match os with [] => Some p | o :: os => '(p, _) ← run_pop p o; run_pops p os end.

  (** src/plc.rs 700-733 [from_obj].  An obj file is given by its positions and, for each object and
      group, its polygons.  [v as u32] is taken modulo 2^32; the conversion of [f32] positions is
      not modelled. *)
  Definition obj_poly (df : F) (de : E) p (poly : list N) : option (plc V E F Pl) :=
    let poly := (λ v, v mod u32_mod) <$> poly in
    if Nat.eqb (length poly) 2
    then a ← poly !! 0%nat; b ← poly !! 1%nat; fst <$> p_add_edge p (a, b) de
    else fst <$> p_add_face p [poly] df.
  Definition from_obj (dv : V) (de : E) (df : F) (positions : list pt) (objects : list (list (list (list N)))) : option (plc V E F Pl) :=
    let p := fold_left (λ p pos, (p_add_vertex p pos dv).1) positions plc_new in
    foldM (foldM (foldM (obj_poly df de))) p objects.
End plc.
Arguments pop : clear implicits.
