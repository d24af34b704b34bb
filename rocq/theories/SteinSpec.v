(** What recovering an edge by vertices inserted on it should do. *)
From stdpp Require Import base numbers list gmap option relations.
From Coq Require Import NArith ZArith QArith.
From Verif Require Import IdMapModel WalkerModel WalkerSpec MeshModel MeshOps MeshSpec HistSpec FlipSpec GeoModel GeoSpec IterModel CavSpec InsModel InsSpec DelModel DelSpec QualModel ProgSpec WaySpec MidModel SteinModel.
Local Open Scope nat_scope.

(** The segments of the way from [a] to [b] over the vertices [l]. *)
Fixpoint segments (a : N) (l : list N) (b : N) : list (N * N) :=
  match l with [] => [(a, b)] | x :: l => (a, x) :: segments x l b end.

Section spec.
  Context {V T : Type}.
  Implicit Types (m : mesh V T).

  (** The cavity [E] with boundary [B] can be filled without losing a vertex: its boundary is a connected surface,
      there are ids left to fill it, and no vertex is in its inside. *)
  Record sound_cavity m (B : list walker) (E : list N) : Prop := SoundCavity {
    sc_surface : surface m E;
    sc_room : roomy m (N.of_nat (length B)) (N.of_nat (3 * length B));
    sc_verts a : attached m a → ∃ u, valid m u ∧ w_first m u = Some a ∧ w_tet u ∉ E }.

  Context (tbary : mesh V T → N → N → N → N → N → option (list Z)).
  Context (ebary : mesh V T → N → N → N → N → option (list Z)).
  Context (flat : mesh V T → N → N → N → N → option bool).
  Context (round : ratio → pt).

  (** There are ids left for the vertices, and all cavities that are filled on the way can be. *)
  Fixpoint sound_run (fuel n : nat) m (v0 v1 : N) : Prop :=
    match fuel with
    | 0 => True
    | S fuel => ∀ m1 s B E, steiner_cavity tbary ebary flat round n m v0 v1 = Some (Some (m1, s, B, E)) →
        can_place m None ∧ sound_cavity m1 B E ∧
        ∀ m2 B', flip_in_vertex_unchecked m1 s B E = Some (m2, B') → sound_run fuel n m2 v0 s ∧
          ∀ m3 l, recover_steiner tbary ebary flat round fuel n m2 v0 s = Some (m3, l) → sound_run fuel n m3 s v1
    end.

  (** The vertices of [m1] are in [m'] too, at the same positions. *)
  Definition at_same_places m1 m' : Prop := ∀ y p, v_pos <$> im_get (m_verts m1) y = Some p → v_pos <$> im_get (m_verts m') y = Some p.

  (** The vertices [l] are between [a] and [b]: one of them is where the segment from [a] to [b] crosses something
      that was in the mesh at some time, rounded, and the others are between [a] and that one, or between that one and [b]. *)
  Inductive laid m' : N → list N → N → Prop :=
  | laid_none a b : laid m' a [] b
  | laid_one a l s l' b pa pb m1 g x :
      v_pos <$> im_get (m_verts m') a = Some pa → v_pos <$> im_get (m_verts m') b = Some pb →
      ready m1 → present m1 g → at_same_places m1 m' → hits tbary ebary flat m1 a b g x →
      v_pos <$> im_get (m_verts m') s = Some (round (point_at pa pb x)) →
      laid m' a l s → laid m' s l' b → laid m' a (l ++ s :: l') b.

  (** [m'] is [m] with the segment from [v0] to [v1] recovered by the new vertices [L]. *)
  Record recovered m (v0 v1 : N) m' (L : list N) : Prop := Recovered {
    rc_ready : ready m';
    (** the new vertices are new, and no other vertex is lost or changed *)
    rc_distinct : NoDup L;
    rc_new s : s ∈ L → im_get (m_verts m) s = None ∧ s ≠ GHOST;
    rc_attached a : attached m' a ↔ attached m a ∨ a ∈ L;
    rc_verts x : x ∉ L → (λ vt, (v_pos vt, v_val vt)) <$> im_get (m_verts m') x = (λ vt, (v_pos vt, v_val vt)) <$> im_get (m_verts m) x;
    (** a new vertex has the value of [v0], and they are at the points of crossings *)
    rc_value s : s ∈ L → v_val <$> im_get (m_verts m') s = v_val <$> im_get (m_verts m) v0 ∧ is_Some (im_get (m_verts m') s);
    rc_placed : laid m' v0 L v1;
    (** all segments are there, and they are locked; other edges are locked if they were before *)
    rc_joined a b : (a, b) ∈ segments v0 L v1 → joined m' a b;
    rc_edges a b : locked_edge m' a b ↔ locked_edge m a b ∨ ∃ x y, (x, y) ∈ segments v0 L v1 ∧ sorted_2 (a, b) = sorted_2 (x, y);
    (** no triangle becomes locked; a locked triangle with locked edges stays so *)
    rc_tris a b c : locked_tri m' (a, b, c) → locked_tri m (a, b, c);
    rc_kept_tris a b c : locked_tri m (a, b, c) → locked_edge m a b → locked_edge m b c → locked_edge m c a → locked_tri m' (a, b, c) }.
End spec.

Section order.
  Context {V T : Type}.
  Implicit Types (m : mesh V T).
  Context (tbary : mesh V T → N → N → N → N → N → option (list Z)).
  Context (ebary : mesh V T → N → N → N → N → option (list Z)).
  Context (flat : mesh V T → N → N → N → N → option bool).
  Context (round : ratio → pt).

  (** No point has to be rounded on the way. *)
  Fixpoint exact_run (fuel n : nat) m (v0 v1 : N) : Prop :=
    match fuel with
    | 0 => True
    | S fuel => ∀ m1 s B E, steiner_cavity tbary ebary flat round n m v0 v1 = Some (Some (m1, s, B, E)) →
        (∀ g P k, edge_mid_intersection tbary ebary flat n m v0 v1 = Some (Some (g, (P, k)), true) → vscale k (round (P, k)) = P) ∧
        ∀ m2 B', flip_in_vertex_unchecked m1 s B E = Some (m2, B') → exact_run fuel n m2 v0 s ∧
          ∀ m3 l, recover_steiner tbary ebary flat round fuel n m2 v0 s = Some (m3, l) → exact_run fuel n m3 s v1
    end.

  (** [q] is the point [p0 + t (p1 - p0)]. *)
  Definition at_time (p0 p1 q : pt) (t : Q) : Prop :=
    (inject_Z (px q) == inject_Z (px p0) + t * inject_Z (px p1 - px p0) ∧
     inject_Z (py q) == inject_Z (py p0) + t * inject_Z (py p1 - py p0) ∧
     inject_Z (pz q) == inject_Z (pz p0) + t * inject_Z (pz p1 - pz p0))%Q.
End order.
