(** What recovering a triangle by vertices inserted on it should do. *)
From stdpp Require Import base numbers list gmap option relations.
From Coq Require Import NArith ZArith.
From Verif Require Import IdMapModel WalkerModel WalkerSpec MeshModel MeshOps MeshSpec HistSpec FlipSpec GeoModel GeoSpec IterModel CavSpec InsModel InsSpec DelModel DelSpec QualModel ProgSpec RecSpec WaySpec MidModel SteinModel SteinSpec TSteinModel.
Local Open Scope nat_scope.

(** The sides of a triangle, with their directions. *)
Definition sides_of (t : N * N * N) : list (N * N) := [(t.1.1, t.1.2); (t.1.2, t.2); (t.2, t.1.1)].
(** How often the directed edge [e] is among the sides of [ts], minus how often its reverse is. *)
Definition times (e : N * N) (l : list (N * N)) : Z := Z.of_nat (length (filter (λ x, x = e) l)).
Definition border (ts : list (N * N * N)) (a b : N) : Z := (times (a, b) (ts ≫= sides_of) - times (b, a) (ts ≫= sides_of))%Z.

Section spec.
  Context {V T C : Type}.
  Implicit Types (m : mesh V T).

  (** [m'] is [m] with the new vertices [L], with the edges [E] locked, and with triangles over the corners of [P] locked.  Nothing
      else that was locked is lost, except for triangles that had unlocked edges. *)
  Record extends m m' (L : list N) (E : list (N * N)) (P : list (N * N * N)) : Prop := Extends {
    ex_ready : ready m';
    ex_distinct : NoDup L;
    ex_new s : s ∈ L → im_get (m_verts m) s = None ∧ is_Some (im_get (m_verts m') s) ∧ s ≠ GHOST;
    ex_attached a : attached m' a ↔ attached m a ∨ a ∈ L;
    ex_verts x : x ∉ L → (λ vt, (v_pos vt, v_val vt)) <$> im_get (m_verts m') x = (λ vt, (v_pos vt, v_val vt)) <$> im_get (m_verts m) x;
    ex_edges a b : locked_edge m' a b ↔ locked_edge m a b ∨ ∃ x y, (x, y) ∈ E ∧ sorted_2 (a, b) = sorted_2 (x, y);
    ex_tris t : locked_tri m' t → locked_tri m t ∨ ∃ p, p ∈ P ∧ same_corners t p;
    ex_kept a b c : locked_tri m (a, b, c) → locked_edge m a b → locked_edge m b c → locked_edge m c a → locked_tri m' (a, b, c) }.

  (** The piece is in the mesh, seen from both sides, and it is locked together with its edges. *)
  Definition piece_secured m (p : N * N * N) : Prop :=
    secured m p.1.1 p.1.2 p.2 ∧ locked_edge m p.1.1 p.1.2 ∧ locked_edge m p.1.2 p.2 ∧ locked_edge m p.2 p.1.1.

  (** The way around the triangle [t], over the vertices [l] on its sides. *)
  Definition rim (t : N * N * N) (l : list N * list N * list N) : list (N * N) :=
    segments t.1.1 l.1.1 t.1.2 ++ segments t.1.2 l.1.2 t.2 ++ segments t.2 l.2 t.1.1.

  (** [m'] is [m] with the triangle [t] made of [pieces]: [l] are the new vertices on its sides, [inner] the others. *)
  Record tri_recovered m (t : N * N * N) m' (l : list N * list N * list N) (inner : list N) (pieces : list (N * N * N)) : Prop := TriRecovered {
    (** the new vertices are new; no vertex is lost; the way around and the sides of the pieces are locked, and the pieces, and nothing else *)
    tr_extends : extends m m' (l.1.1 ++ l.1.2 ++ l.2 ++ inner) (rim t l ++ (pieces ≫= sides_of)) pieces;
    tr_rim a b : (a, b) ∈ rim t l → joined m' a b;
    tr_pieces p : p ∈ pieces → piece_secured m' p;
    tr_corners p v : p ∈ pieces → v ∈ [p.1.1; p.1.2; p.2] → v ∈ [t.1.1; t.1.2; t.2] ++ (l.1.1 ++ l.1.2 ++ l.2 ++ inner);
    (** a new vertex has the value of the corner where its side starts; those inside have that of the first corner *)
    tr_value s v : (s ∈ l.1.1 ∧ v = t.1.1) ∨ (s ∈ l.1.2 ∧ v = t.1.2) ∨ (s ∈ l.2 ∧ v = t.2) ∨ (s ∈ inner ∧ v = t.1.1) →
      v_val <$> im_get (m_verts m') s = v_val <$> im_get (m_verts m) v ∧ is_Some (im_get (m_verts m') s) }.

  Context (tbary : mesh V T → N → N → N → N → N → option (list Z)).
  Context (ebary : mesh V T → N → N → N → N → option (list Z)).
  Context (flat : mesh V T → N → N → N → N → option bool).
  Context (round : ratio → pt).
  Context (eng : engine C).

  Definition sound_sides (depth n : nat) m (t : N * N * N) : Prop := let '(t0, t1, t2) := t in
    sound_run tbary ebary flat round depth n m t0 t1 ∧
    ∀ m1 l0, recover_steiner tbary ebary flat round depth n m t0 t1 = Some (m1, l0) →
      sound_run tbary ebary flat round depth n m1 t1 t2 ∧
      ∀ m2 l1, recover_steiner tbary ebary flat round depth n m1 t1 t2 = Some (m2, l1) → sound_run tbary ebary flat round depth n m2 t2 t0.

  (** The states of the loop. *)
  Definition tri_round (t0 : N) (st st' : tstate V T C) : Prop := ts_edges st ≠ ∅ ∧ tri_step tbary round eng t0 st = Some st'.

  (** There is an id left for the new vertex, and its cavity can be filled. *)
  Definition sound_round (t0 : N) (st : tstate V T C) : Prop := ∀ edge inter m1 s B E,
    tri_next tbary eng st = Some (edge, Some inter) → tri_cavity round (ts_mesh st) t0 inter = Some (m1, s, B, E) →
    can_place (ts_mesh st) None ∧ sound_cavity m1 B E.

  (** All cavities that are filled on the way can be. *)
  Definition sound_tri (depth n : nat) m (t : N * N * N) : Prop := sound_sides depth n m t ∧
    ∀ m1 l st0 st, recover_sides tbary ebary flat round depth n m t = Some (m1, l) → tri_start eng m1 t l = Some st0 →
      rtc (tri_round t.1.1) st0 st → sound_round t.1.1 st.

  (** No piece is laid on the wrong side of the front. *)
  Definition neat_round (t0 : N) (st : tstate V T C) : Prop := ∀ st' p, tri_step tbary round eng t0 st = Some st' → ts_pieces st' = ts_pieces st ++ [p] →
    ∀ x y, (x, y) ∈ sides_of p → (x, y) ∉ ts_edges st → (y, x) ∉ ts_edges st.
  Definition neat_tri (depth n : nat) m (t : N * N * N) : Prop :=
    ∀ m1 l st0 st, recover_sides tbary ebary flat round depth n m t = Some (m1, l) → tri_start eng m1 t l = Some st0 →
      rtc (tri_round t.1.1) st0 st → neat_round t.1.1 st.
End spec.
