(** Vocabulary for piecewise linear complexes. *)
From Coq Require Import NArith Lia Sorted.
From stdpp Require Import base numbers list gmap option.
From Verif Require Import IdMapModel WalkerModel MeshModel UtilModel UtilSpec PlcModel.
Local Open Scope N_scope.

(** [l] lists the ids with property [P], each once, in ascending order (the order of creation). *)
Definition lists (P : N → Prop) (l : list N) : Prop := StronglySorted N.lt l ∧ ∀ k, k ∈ l ↔ P k.

(** [l], as a circular doubly linked list with the given links and head; an empty list has the
    reserved id as its head. *)
Definition circular (next prev : N → option N) (head : N) (l : list N) : Prop :=
  match l with
  | [] => head = invalid_id
  | x0 :: _ => head = x0 ∧
      ∀ i x, l !! i = Some x → next x = Some (default x0 (l !! S i)) ∧ prev (default x0 (l !! S i)) = Some x
  end.

(** The ids in use are [0, 1, 2, ...], and the reserved id is not among them. *)
Definition dense {A} (m : idmap A) : Prop :=
  im_free m = [] ∧ (∀ k, is_Some (im_get m k) ↔ k < im_npi m) ∧ im_npi m ≤ invalid_id.

Section spec.
  Context {V E F Pl : Type}.
  Implicit Types (p : plc V E F Pl).

  (** ** The fields of the elements. *)
  Definition vout p v := pv_out <$> im_get (p_verts p) v.
  Definition vin p v := pv_in <$> im_get (p_verts p) v.
  Definition vring p v := pv_ring <$> im_get (p_verts p) v.
  Definition vdata p v := (λ x, (pv_pos x, pv_val x)) <$> im_get (p_verts p) v.
  Definition evs p e := pe_vs <$> im_get (p_edges p) e.
  Definition enout p e := pe_nout <$> im_get (p_edges p) e.
  Definition epout p e := pe_pout <$> im_get (p_edges p) e.
  Definition enin p e := pe_nin <$> im_get (p_edges p) e.
  Definition epin p e := pe_pin <$> im_get (p_edges p) e.
  Definition efe p e := pe_fe <$> im_get (p_edges p) e.
  Definition eval p e := pe_val <$> im_get (p_edges p) e.
  Definition feedge p x := fe_edge <$> im_get (p_fes p) x.
  Definition fering p x := fe_ring <$> im_get (p_fes p) x.
  Definition fenext p x := fe_next <$> im_get (p_fes p) x.
  Definition feprev p x := fe_prev <$> im_get (p_fes p) x.
  Definition fenoe p x := fe_noe <$> im_get (p_fes p) x.
  Definition fepoe p x := fe_poe <$> im_get (p_fes p) x.
  Definition relement p r := fr_elem <$> im_get (p_rings p) r.
  Definition rface p r := fr_face <$> im_get (p_rings p) r.
  Definition rnext p r := fr_next <$> im_get (p_rings p) r.
  Definition rprev p r := fr_prev <$> im_get (p_rings p) r.
  Definition fcring p f := pf_ring <$> im_get (p_faces p) f.

  Definition fcdata p f := (λ x, (pf_plane x, pf_val x)) <$> im_get (p_faces p) f.

  Definition esrc p e := fst <$> evs p e.
  Definition etgt p e := snd <$> evs p e.

  (** The ring [r] runs through the vertices [vs], in this order and back to the first. *)
  Definition ring_of p (r : N) (vs : list N) : Prop :=
    match vs with
    | [] => False
    | [v] => relement p r = Some (RVertex v) ∧ is_Some (im_get (p_verts p) v) ∧ ∀ x, fering p x ≠ Some r
    | v0 :: _ => ∃ head l, relement p r = Some (RFaceEdge head) ∧ lists (λ x, fering p x = Some r) l ∧
        circular (fenext p) (feprev p) head l ∧ length l = length vs ∧
        ∀ i x, l !! i = Some x → ∃ e a, feedge p x = Some e ∧ vs !! i = Some a ∧ evs p e = Some (a, default v0 (vs !! S i))
    end.

  (** The face [f] has the rings [vss], in this order. *)
  Definition face_of p (f : N) (vss : list (list N)) : Prop :=
    vss ≠ [] ∧ ∃ head rl, fcring p f = Some head ∧ lists (λ r, rface p r = Some f) rl ∧
      circular (rnext p) (rprev p) head rl ∧ Forall2 (ring_of p) rl vss.

  (** ** The linked structure is well formed. *)
  Record plc_ok p : Prop := PlcOk {
    pk_verts : dense (p_verts p); pk_edges : dense (p_edges p); pk_fes : dense (p_fes p);
    pk_rings : dense (p_rings p); pk_faces : dense (p_faces p);
    (** the edges that leave a vertex form a circular list that the vertex points to *)
    pk_out v h : vout p v = Some h → ∃ l, lists (λ e, esrc p e = Some v) l ∧ circular (enout p) (epout p) h l;
    (** so do the edges that enter it *)
    pk_in v h : vin p v = Some h → ∃ l, lists (λ e, etgt p e = Some v) l ∧ circular (enin p) (epin p) h l;
    (** the ends of an edge exist *)
    pk_ends e a b : evs p e = Some (a, b) → is_Some (im_get (p_verts p) a) ∧ is_Some (im_get (p_verts p) b);
    (** the edge map holds exactly the edges *)
    pk_map vs e : edge_id p vs = Some e ↔ evs p e = Some vs;
    (** the uses of an edge by faces form a circular list that the edge points to *)
    pk_uses e h : efe p e = Some h → ∃ l, lists (λ x, feedge p x = Some e) l ∧ circular (fenoe p) (fepoe p) h l;
    (** a face edge belongs to an existing edge and ring, a ring to an existing face *)
    pk_fe x e : feedge p x = Some e → is_Some (im_get (p_edges p) e);
    pk_fering x r : fering p x = Some r → is_Some (im_get (p_rings p) r);
    pk_rface r f : rface p r = Some f → is_Some (im_get (p_faces p) f);
    (** every face is made of closed rings *)
    pk_face f : is_Some (im_get (p_faces p) f) → ∃ vss, face_of p f vss;
    (** the ring stored at a vertex consists of that vertex *)
    pk_vring v r : vring p v = Some r → r = invalid_id ∨ relement p r = Some (RVertex v) }.

  (** ** Histories. *)
  (** The calls refer only to vertices added before ([n] of them so far); faces and rings are not empty. *)
  Fixpoint refs_exist (n : N) (os : list (pop V E F)) : Prop :=
    match os with
    | [] => True
    | PAddVertex _ _ :: os => refs_exist (n + 1) os
    | PAddEdge vs _ :: os | PAddEdgeIfAbsent vs _ :: os => vs.1 < n ∧ vs.2 < n ∧ refs_exist n os
    | PAddFace rings _ :: os => rings ≠ [] ∧ (∀ r, r ∈ rings → r ≠ [] ∧ ∀ v, v ∈ r → v < n) ∧ refs_exist n os
    end.
  (** A bound on the number of elements the calls create. *)
  Definition pop_size (o : pop V E F) : N :=
    match o with PAddFace rings _ => 1 + foldr (λ r s, 1 + N.of_nat (length r) + s) 0 rings | _ => 1 end.
  Definition pops_size (os : list (pop V E F)) : N := foldr (λ o s, pop_size o + s) 0 os.

  (** The ordered pairs of consecutive vertices of a ring, including last to first. *)
  Definition ring_pairs (vs : list N) : list (N * N) :=
    match vs with [] | [_] => [] | v0 :: rest => zip vs (rest ++ [v0]) end.
  (** The ordered vertex pairs for which a call makes sure that an edge exists. *)
  Definition pop_pairs (o : pop V E F) : list (N * N) :=
    match o with
    | PAddVertex _ _ => []
    | PAddEdge vs _ | PAddEdgeIfAbsent vs _ => [vs]
    | PAddFace rings _ => concat (map ring_pairs rings)
    end.

  (** The vertices and faces a history adds, in order: the [i]-th one gets the id [i]. *)
  Definition added_verts (os : list (pop V E F)) : list (pt * V) :=
    omap (λ o, match o with PAddVertex pos x => Some (pos, x) | _ => None end) os.
  Definition added_faces (os : list (pop V E F)) : list (list (list N) * F) :=
    omap (λ o, match o with PAddFace rings val => Some (rings, val) | _ => None end) os.
  (** The positions of the vertices of a history, of a list of vertices and of the ends of edges. *)
  Definition pos_in (os : list (pop V E F)) (v : N) : option pt := fst <$> added_verts os !! N.to_nat v.
  Definition ends_in (os : list (pop V E F)) (vs : N * N) : option (pt * pt) := a ← pos_in os vs.1; b ← pos_in os vs.2; Some (a, b).

  (** What a call does to the value stored for the ordered vertex pair [vs] ([None]: no edge);
      [d] is the default edge value. *)
  Definition op_value (d : E) (o : pop V E F) (vs : N * N) (x : option E) : option E :=
    match o with
    | PAddVertex _ _ => x
    | PAddEdge ws val => if decide (vs = ws) then Some val else x
    | PAddEdgeIfAbsent ws val => match x with Some _ => x | None => if decide (vs = ws) then Some val else None end
    | PAddFace rings _ => match x with Some _ => x | None => if decide (vs ∈ concat (map ring_pairs rings)) then Some d else None end
    end.
  Definition value_after (d : E) (os : list (pop V E F)) (vs : N * N) : option E := foldl (λ x o, op_value d o vs x) None os.

  (** ** Obj files (the polygons of all groups of all objects, in order, as indices from 0). *)
  Definition obj_ops (v : V) (e : E) (f : F) (positions : list pt) (polys : list (list N)) : list (pop V E F) :=
    ((λ pos, PAddVertex pos v) <$> positions) ++
    ((λ poly, match poly with [a; b] => PAddEdge (a, b) e | _ => PAddFace [poly] f end) <$> polys).
End spec.
