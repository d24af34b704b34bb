(** Model of the search for what a triangle or an edge crosses, src/tet/geo.rs 324-428, 478-581. *)
From stdpp Require Import base numbers list gmap option.
From Coq Require Import NArith ZArith.
From Verif Require Import IdMapModel WalkerModel MeshModel MeshOps UtilModel IterModel GeoModel QualModel ProgModel.
Local Open Scope nat_scope.

(** src/tet/geo.rs 548-549, 371-372: [all(|coord| *coord > 0.0) || all(|coord| *coord < 0.0)]. *)
Definition all_pos (bary : list Z) : bool := forallb (λ c, Z.ltb 0 c) bary.
Definition all_neg (bary : list Z) : bool := forallb (λ c, Z.ltb c 0) bary.

Section tris.
  Context {V T A : Type}.
  Implicit Types (m : mesh V T) (w : walker).

  (** What the search finds out about an edge, given its ends: [Some (Some a)] if it crosses, with some
      data, [Some None] if it does not, [None] for a panic.  The tests of the code are below. *)
  Context (test : mesh V T → N * N → option (option A)).

  (** src/tet/geo.rs 481-502, 538-551 [edge_raw]: the first walker whose edge crosses. *)
  Fixpoint edge_raw m (walkers : list walker) : option (option (walker * (N * N) * A)) :=
    match walkers with
    | [] => Some None
    | w :: walkers =>
      e ← w_pair m w;
      r ← test m e;
      match r with
      | Some a => Some (Some (w, e, a))
      | None => edge_raw m walkers
      end
    end.

  (** src/tet/geo.rs 513-514, 562-563: [flat_map(|w| vec![w.to_nfe(), w.to_pfe()])]. *)
  Definition beside (ring : list walker) : list walker := ring ≫= λ w, [to_nfe w; to_pfe w].

  (** src/tet/geo.rs 518-526, 567-575: the loop; [to_search] from its end.  The intersections pushed
      are returned in order.  [fuel] bounds the rounds; the theorems show that it is never used up. *)
  Fixpoint cross_loop (fuel : nat) m (visited : gset (N * N)) (to_search : list walker) : option (list ((N * N) * A)) :=
    match fuel with
    | 0 => None
    | S fuel =>
      match to_search with
      | [] => Some []
      | w :: to_search =>
        e ← w_pair m w;
        if decide (sorted_2 e ∈ visited) then cross_loop fuel m visited to_search
        else
          let visited := {[sorted_2 e]} ∪ visited in
          r ← edge_raw m [w];
          match r with
          | Some (w, e, a) =>
            ring ← ring_list m w;
            l ← cross_loop fuel m visited (reverse (beside ring) ++ to_search);
            Some ((e, a) :: l)
          | None => cross_loop fuel m visited to_search
          end
      end
    end.

  (** Each edge is searched from once, and adds two walkers for each tet around it. *)
  Definition cross_fuel m : nat := 2 * length (im_keys (m_tets m)) * (length (im_keys (m_edges m)) + 1) + 1.

  (** src/tet/geo.rs 504-531, 553-580: the search, from the edge [(v0, v1)]. *)
  Definition cross_search m (v0 v1 : N) : option (list ((N * N) * A)) :=
    wo ← walker_from_edge m v0 v1;
    w ← wo;
    ring ← ring_list m w;
    first ← edge_raw m (to_opp_edge <$> ring);
    match first with
    | Some (w, e, a) =>
      e' ← w_pair m w;
      ring ← ring_list m w;
      l ← cross_loop (cross_fuel m) m {[sorted_2 e']} (reverse (beside ring));
      Some ((e, a) :: l)
    | None => Some []
    end.
End tris.

Section tests.
  Context {V T : Type}.
  Implicit Types (m : mesh V T) (w : walker).

  (** The coordinates of [tri_edge_bary], as any function of the mesh and five vertices: the signs
      are what counts.  [tri_edge_bary] of GeoModel.v has exact ones. *)
  Context (bary : mesh V T → N → N → N → N → N → option (list Z)).

  (** src/tet/geo.rs 540-550: the test for one triangle; the data are the first three coordinates. *)
  Definition tri_test (t : N * N * N) m (e : N * N) : option (option (list Z)) :=
    b ← bary m t.1.1 t.1.2 t.2 e.1 e.2;
    Some (if all_pos b || all_neg b then Some (take 3 b) else None).

  (** src/tet/geo.rs 483-502: the test for several triangles: the first one that is crossed.  [&&] binds
      tighter than [||]. *)
  Definition tris_hit (tris : list (N * N * N)) (e : N * N) (b : list Z) : bool :=
    negb (existsb (λ t : N * N * N, bool_decide (e.1 ∈ [t.1.1; t.1.2; t.2]) || bool_decide (e.2 ∈ [t.1.1; t.1.2; t.2])) tris) &&
      forallb (λ c, Z.leb 0 c) b || forallb (λ c, Z.leb c 0) b.
  Fixpoint tris_first (all tris : list (N * N * N)) m (e : N * N) : option (option (list Z * (N * N * N))) :=
    match tris with
    | [] => Some None
    | t :: tris =>
      b ← bary m t.1.1 t.1.2 t.2 e.1 e.2;
      if tris_hit all e b then Some (Some (take 3 b, t)) else tris_first all tris m e
    end.
  Definition tris_test (tris : list (N * N * N)) := tris_first tris tris.

  (** src/tet/geo.rs 537-581 [tri_intersections_raw]. *)
  Definition tri_intersections_raw m (v0 v1 v2 : N) := cross_search (tri_test (v0, v1, v2)) m v0 v1.
  (** src/tet/geo.rs 480-532 [tris_intersections_raw]. *)
  Definition tris_intersections_raw m (tris : list (N * N * N)) (start : N * N) := cross_search (tris_test tris) m start.1 start.2.
End tests.
