(** Validation of piecewise linear complexes: src/plc.rs 615-698, src/plc/intersect.rs. *)
From Coq Require Import NArith ZArith.
From stdpp Require Import base numbers list gmap option.
From Verif Require Import IdMapModel WalkerModel MeshModel UtilModel PlcModel.
Local Open Scope N_scope.

(** src/plc.rs 884-888 [enum Element]. *)
Inductive element := EVertex (v : N) | EEdge (e : N) | EFace (f : N).
Global Instance element_eq_dec : EqDecision element.
Proof. solve_decision. Defined.

(** ncollide3d's axis-aligned box, with exact integer corners (the lowest and the highest), its
    closed intersection test and the box of a point cloud. *)
Record box := Box { b_lo : pt; b_hi : pt }.
Definition boxes_meet (a b : box) : bool :=
  (px (b_lo a) <=? px (b_hi b))%Z && (px (b_lo b) <=? px (b_hi a))%Z &&
  (py (b_lo a) <=? py (b_hi b))%Z && (py (b_lo b) <=? py (b_hi a))%Z &&
  (pz (b_lo a) <=? pz (b_hi b))%Z && (pz (b_lo b) <=? pz (b_hi a))%Z.
Definition pt_min (a b : pt) : pt := Pt (Z.min (px a) (px b)) (Z.min (py a) (py b)) (Z.min (pz a) (pz b)).
Definition pt_max (a b : pt) : pt := Pt (Z.max (px a) (px b)) (Z.max (py a) (py b)) (Z.max (pz a) (pz b)).
Definition cloud_box (p0 : pt) (ps : list pt) : box := Box (foldl pt_min p0 ps) (foldl pt_max p0 ps).
Definition grow (tol : Z) (b : box) : box :=
  Box (Pt (px (b_lo b) - tol) (py (b_lo b) - tol) (pz (b_lo b) - tol)) (Pt (px (b_hi b) + tol) (py (b_hi b) + tol) (pz (b_hi b) + tol)).

(** ncollide3d's bounding volume tree, of any shape, and its simultaneous traversal with itself: the
    visitor sees the pair of roots; unless it stops there, all pairs of children follow.  [visit_trees]
    lists the pairs of leaves at which the visitor of src/plc/intersect.rs 74-210 neither stops
    (lines 81-83: the boxes do not meet) nor goes on because one of the two is not a leaf (85-88). *)
Inductive bvt := BLeaf (b : box) (x : element) | BNode (b : box) (l r : bvt).
Definition bvt_box (t : bvt) : box := match t with BLeaf b _ | BNode b _ _ => b end.
Fixpoint visit_trees (s : bvt) : bvt → list (element * element) :=
  fix inner (t : bvt) : list (element * element) :=
    if boxes_meet (bvt_box s) (bvt_box t) then
      match s, t with
      | BLeaf _ x, BLeaf _ y => [(x, y)]
      | BLeaf _ _, BNode _ t1 t2 => inner t1 ++ inner t2
      | BNode _ s1 s2, BLeaf _ _ => visit_trees s1 t ++ visit_trees s2 t
      | BNode _ s1 s2, BNode _ t1 t2 => visit_trees s1 t1 ++ visit_trees s1 t2 ++ visit_trees s2 t1 ++ visit_trees s2 t2
      end
    else [].

(** A loop that pushes what [f] gives for some of the elements of [l]. *)
Fixpoint push_some {A B} (f : A → option (option B)) (l : list A) : option (list B) :=
  match l with
  | [] => Some []
  | a :: l => r ← f a; bs ← push_some f l; Some (match r with Some b => b :: bs | None => bs end)
  end.

Section validate.
  Context {V E F Pl D : Type}.
  Implicit Types (p : plc V E F Pl).
  (** The tolerance, for the boxes. *)
  Context (tol : Z).
  (** The geometric tests, as functions of positions that give the reported distance if the test fires:
      a point at half the tolerance or more from a plane (plc.rs 650-651), two points (intersect.rs
      97-107), a point and a segment (112-122), two segments (129-136), a point and a face with its
      plane and rings (146-165), a segment and such a face (179-196). *)
  Context (twist : Pl → pt → option D) (vv : pt → pt → option D) (ve : pt → pt * pt → option D)
          (ee : pt * pt → pt * pt → option D) (vf : pt → Pl → list (list pt) → option D)
          (ef : pt * pt → Pl → list (list pt) → option D).
  (** [BVT::new_balanced]. *)
  Context (build : list (element * box) → option bvt).

  Definition vert_pos p v : option pt := pv_pos <$> im_get (p_verts p) v.
  Definition edge_pos p (vs : N * N) : option (pt * pt) := a ← vert_pos p vs.1; b ← vert_pos p vs.2; Some (a, b).

  (** src/plc.rs 620-628: the faces none of whose rings has three vertices. *)
  Definition degenerate_faces p : option (list N) :=
    push_some (λ f : N * pface F Pl,
      rs ← face_ring_list p f.2;
      ns ← mapM (λ r : N * fring, length <$> ring_vertex_list p r.2) rs;
      Some (if existsb (λ n, (3 <=? n)%nat) ns then None else Some f.1)) (im_iter (p_faces p)).

  (** src/plc.rs 638-658: the faces with vertices too far from their plane. *)
  Definition twisted_faces p : option (list (N * list (N * D))) :=
    push_some (λ f : N * pface F Pl,
      vss ← face_vertices p f.2;
      let fails := omap (λ v : N * pvert V, d ← twist (pf_plane f.2) (pv_pos v.2); Some (v.1, d)) (concat vss) in
      Some (match fails with [] => None | _ => Some (f.1, fails) end)) (im_iter (p_faces p)).

  (** src/plc/intersect.rs 213-224 [vertex_bound], 226-237 [edge_bound], 239-249 [face_bound]. *)
  Definition vertex_bound p v : option (element * box) := a ← vert_pos p v; Some (EVertex v, grow tol (cloud_box a [])).
  Definition edge_bound p e : option (element * box) :=
    x ← im_get (p_edges p) e; '(a, b) ← edge_pos p (pe_vs x); Some (EEdge e, grow tol (cloud_box a [b])).
  Definition face_bound p f : option (element * box) :=
    x ← im_get (p_faces p) f; vss ← face_vertices p x;
    match (λ v : N * pvert V, pv_pos v.2) <$> concat vss with
    | [] => None
    | a :: l => Some (EFace f, grow tol (cloud_box a l))
    end.

  (** [ev0 < ev1] on arrays of two ids. *)
  Definition pair_lt (a b : N * N) : bool := (a.1 <? b.1) || ((a.1 =? b.1) && (a.2 <? b.2)).
  (** src/plc/intersect.rs 94-207: what the visitor pushes for a pair of elements. *)
  Definition visit p (x y : element) : option (option D) :=
    match x, y with
    | EVertex v0, EVertex v1 =>
      if v0 <? v1 then a ← vert_pos p v0; b ← vert_pos p v1; Some (vv a b) else Some None
    | EVertex v, EEdge e =>
      x ← im_get (p_edges p) e;
      if (v =? (pe_vs x).1) || (v =? (pe_vs x).2) then Some None
      else s ← edge_pos p (pe_vs x); a ← vert_pos p v; Some (ve a s)
    | EEdge e0, EEdge e1 =>
      x0 ← im_get (p_edges p) e0; x1 ← im_get (p_edges p) e1;
      let (a, b) := pe_vs x0 in let (c, d) := pe_vs x1 in
      if pair_lt (a, b) (c, d) && negb ((c =? a) || (c =? b)) && negb ((d =? a) || (d =? b))
      then s0 ← edge_pos p (a, b); s1 ← edge_pos p (c, d); Some (ee s0 s1) else Some None
    | EVertex v, EFace f =>
      x ← im_get (p_faces p) f; vss ← face_vertices p x;
      if existsb (λ w : N * pvert V, v =? w.1) (concat vss) then Some None
      else a ← vert_pos p v; Some (vf a (pf_plane x) (map (map (λ w : N * pvert V, pv_pos w.2)) vss))
    | EEdge e, EFace f =>
      x ← im_get (p_faces p) f; vss ← face_vertices p x; y ← im_get (p_edges p) e;
      if existsb (λ w : N * pvert V, ((pe_vs y).1 =? w.1) || ((pe_vs y).2 =? w.1)) (concat vss) then Some None
      else s ← edge_pos p (pe_vs y); Some (ef s (pf_plane x) (map (map (λ w : N * pvert V, pv_pos w.2)) vss))
    | EFace _, EEdge _ | EFace _, EVertex _ | EEdge _, EVertex _ | EFace _, EFace _ => Some None
    end.

  (** src/plc.rs 873-880 [enum ValidateReason], with [VOk] for success. *)
  Inductive verdict :=
  | VOk | VDegenerate (l : list N) | VTwisted (l : list (N * list (N * D))) | VIntersects (l : list (element * element * D)).

  (** src/plc.rs 670-680: the leaves. *)
  Definition leaves p : option (list (element * box)) :=
    vs ← mapM (vertex_bound p) (im_keys (p_verts p));
    es ← mapM (edge_bound p) (im_keys (p_edges p));
    fs ← mapM (face_bound p) (im_keys (p_faces p));
    Some (vs ++ es ++ fs).
  (** src/plc.rs 669-689: what the visitor has collected. *)
  Definition intersections p : option (list (element * element * D)) :=
    ls ← leaves p;
    match build ls : option bvt with
    | None => Some []
    | Some t => push_some (λ xy : element * element, d ← visit p xy.1 xy.2; Some (option_map (pair xy) d)) (visit_trees t t)
    end.
  (** src/plc.rs 619-698 [validate]. *)
  Definition validate p : option verdict :=
    degenerate ← degenerate_faces p;
    match degenerate with
    | _ :: _ => Some (VDegenerate degenerate)
    | [] =>
      twisted ← twisted_faces p;
      match twisted with
      | _ :: _ => Some (VTwisted twisted)
      | [] =>
        inter ← intersections p;
        match inter with
        | _ :: _ => Some (VIntersects inter)
        | [] => Some VOk
        end
      end
    end.
End validate.
Arguments verdict : clear implicits.
