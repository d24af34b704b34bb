(** Vocabulary for the validation of piecewise linear complexes, in terms of the history [os] of calls
    that built the complex (see [PlcSpec]). *)
From Coq Require Import NArith ZArith.
From stdpp Require Import base numbers list gmap option.
From Verif Require Import IdMapModel WalkerModel MeshModel UtilModel PlcModel PlcSpec PlcValModel.
Local Open Scope N_scope.

(** [a] lies inside [b]. *)
Definition box_in (a b : box) : Prop :=
  (px (b_lo b) <= px (b_lo a) ∧ py (b_lo b) <= py (b_lo a) ∧ pz (b_lo b) <= pz (b_lo a) ∧
   px (b_hi a) <= px (b_hi b) ∧ py (b_hi a) <= py (b_hi b) ∧ pz (b_hi a) <= pz (b_hi b))%Z.
Fixpoint tree_leaves (t : bvt) : list (element * box) :=
  match t with BLeaf b x => [(x, b)] | BNode _ l r => tree_leaves l ++ tree_leaves r end.
(** Every inner box contains the boxes of its children. *)
Fixpoint tree_ok (t : bvt) : Prop :=
  match t with BLeaf _ _ => True | BNode b l r => box_in (bvt_box l) b ∧ box_in (bvt_box r) b ∧ tree_ok l ∧ tree_ok r end.
(** The library builds some such tree with the given leaves (no tree without leaves). *)
Definition builds (build : list (element * box) → option bvt) : Prop :=
  ∀ ls, match build ls with None => ls = [] | Some t => tree_leaves t ≡ₚ ls ∧ tree_ok t end.

(** Some point of the convex hull of [l] and some point of that of [k] are at most [2 tol] apart in each
    coordinate.  A point of the hull is given by non-negative weights [ws], not all zero. *)
Definition zsum (l : list Z) : Z := foldr Z.add 0%Z l.
Definition wsum (c : pt → Z) (ws : list Z) (l : list pt) : Z := zsum (zip_with (λ w x, (w * c x)%Z) ws l).
Definition weights (ws : list Z) (l : list pt) : Prop := length ws = length l ∧ (∀ w, w ∈ ws → (0 <= w)%Z) ∧ (0 < zsum ws)%Z.
Definition near (tol : Z) (l k : list pt) : Prop :=
  ∃ ws us, weights ws l ∧ weights us k ∧
    ∀ c, c ∈ [px; py; pz] → (Z.abs (zsum us * wsum c ws l - zsum ws * wsum c us k) <= 2 * tol * zsum ws * zsum us)%Z.

Section spec.
  Context {V E F Pl D : Type}.
  Context (plane_of : list pt → list (pt * pt) → Pl).
  Context (twist : Pl → pt → option D) (vv : pt → pt → option D) (ve : pt → pt * pt → option D)
          (ee : pt * pt → pt * pt → option D) (vf : pt → Pl → list (list pt) → option D)
          (ef : pt * pt → Pl → list (list pt) → option D).
  Implicit Types (p : plc V E F Pl) (os : list (pop V E F)).

  (** The rings of a face, and its plane. *)
  Definition face_rings_in os (f : N) : option (list (list N)) := fst <$> added_faces os !! N.to_nat f.
  Definition face_plane_in os (f : N) : option Pl :=
    rings ← face_rings_in os f; pts ← mapM (pos_in os) (concat rings);
    ends ← mapM (ends_in os) (concat (map ring_pairs rings)); Some (plane_of pts ends).
  (** A face is degenerate if all its rings have less than three vertices. *)
  Definition degenerate os (f : N) : Prop := ∃ rings, face_rings_in os f = Some rings ∧ ∀ r, r ∈ rings → (length r < 3)%nat.
  (** The vertices of a face that are too far from its plane, with their distances, in order. *)
  Definition fails os (f : N) : list (N * D) :=
    match face_rings_in os f, face_plane_in os f with
    | Some rings, Some pl => omap (λ v, a ← pos_in os v; d ← twist pl a; Some (v, d)) (concat rings)
    | _, _ => []
    end.
  (** The vertices and the points of an element. *)
  Definition elem_verts os p (x : element) : option (list N) :=
    match x with
    | EVertex v => if decide (is_Some (added_verts os !! N.to_nat v)) then Some [v] else None
    | EEdge e => (λ vs, [vs.1; vs.2]) <$> evs p e
    | EFace f => @concat N <$> face_rings_in os f
    end.
  Definition elem_points os p (x : element) : option (list pt) := vs ← elem_verts os p x; mapM (pos_in os) vs.

  (** The boxes of two elements, grown by the tolerance, overlap. *)
  Definition boxes_overlap (tol : Z) os p (x y : element) : Prop :=
    ∃ a l b k, elem_points os p x = Some (a :: l) ∧ elem_points os p y = Some (b :: k) ∧
      boxes_meet (grow tol (cloud_box a l)) (grow tol (cloud_box b k)) = true.

  (** The pair [x], [y] is too close, with distance [d].  Pairs that share a vertex are exempt; of a
      vertex-vertex or edge-edge pair only one order counts; two faces are not compared. *)
  Definition conflict os p (x y : element) (d : D) : Prop :=
    match x, y with
    | EVertex v0, EVertex v1 => v0 < v1 ∧ ∃ a b, pos_in os v0 = Some a ∧ pos_in os v1 = Some b ∧ vv a b = Some d
    | EVertex v, EEdge e => ∃ a b q s, evs p e = Some (a, b) ∧ v ≠ a ∧ v ≠ b ∧
        pos_in os v = Some q ∧ ends_in os (a, b) = Some s ∧ ve q s = Some d
    | EEdge e0, EEdge e1 => ∃ a b c f s0 s1, evs p e0 = Some (a, b) ∧ evs p e1 = Some (c, f) ∧
        a < c ∧ a ≠ f ∧ b ≠ c ∧ b ≠ f ∧ ends_in os (a, b) = Some s0 ∧ ends_in os (c, f) = Some s1 ∧ ee s0 s1 = Some d
    | EVertex v, EFace f => ∃ rings pl q qss, face_rings_in os f = Some rings ∧ face_plane_in os f = Some pl ∧ v ∉ concat rings ∧
        pos_in os v = Some q ∧ mapM (mapM (pos_in os)) rings = Some qss ∧ vf q pl qss = Some d
    | EEdge e, EFace f => ∃ a b rings pl s qss, evs p e = Some (a, b) ∧ face_rings_in os f = Some rings ∧ face_plane_in os f = Some pl ∧
        a ∉ concat rings ∧ b ∉ concat rings ∧ ends_in os (a, b) = Some s ∧ mapM (mapM (pos_in os)) rings = Some qss ∧ ef s pl qss = Some d
    | _, _ => False
    end.
End spec.
