(** Model of the recovery of an edge by vertices inserted on it, src/tet.rs 2738-2811. *)
From stdpp Require Import base numbers list gmap option.
From Coq Require Import NArith ZArith.
From Verif Require Import IdMapModel WalkerModel MeshModel MeshOps GeoModel IterModel CavModel InsModel QualModel ProgModel DelModel CrossModel WayModel MidModel.
Local Open Scope nat_scope.

Section steiner.
  Context {V T : Type}.
  Implicit Types (m : mesh V T) (w : walker).
  (** The tests of [edge_mid_intersection] (see [edge_intersections_raw]), and the rounding of a point on a segment. *)
  Context (tbary : mesh V T → N → N → N → N → N → option (list Z)).
  Context (ebary : mesh V T → N → N → N → N → option (list Z)).
  Context (flat : mesh V T → N → N → N → N → option bool).
  Context (round : ratio → pt).

  (** src/tet.rs 2738-2742 [assert_edge_removable_by_edge_steiner]. *)
  Definition assert_edge_free m w : option unit := b ← w_edge_locked m w; if (b : bool) then None else Some tt.
  (** src/tet.rs 2744-2750 [assert_tri_removable_by_edge_steiner]. *)
  Definition assert_tri_free m w : option unit := b ← w_locked m w; if (b : bool) then None else Some tt.

  (** src/tet.rs 2773-2800: the boundary and the tets that the search for a cavity starts from. *)
  Definition steiner_start m (other : simplex) : option (list walker * list N) :=
    match other with
    | SEdge e =>
      wo ← walker_from_edge m e.1 e.2;
      w ← wo;
      _ ← assert_edge_free m w;
      ring ← ring_list m w;
      _ ← mapM (assert_tri_free m) ring;
      Some (concat (List.map (λ w, [to_opp_edge w; to_perm w P3210]) ring), w_tet <$> ring)
    | STri t =>
      wo ← walker_from_tri m t;
      w ← wo;
      adj ← to_adj_ae m w;
      _ ← assert_tri_free m w;
      Some ([to_twin_edge w; to_opp_edge w; to_perm w P3210; to_twin_edge adj; to_opp_edge adj; to_perm adj P3210],
            [w_tet w; w_tet adj])
    end.

  (** src/tet.rs 2769-2803: the new vertex and its cavity; the inner option is [None] if nothing is in the way.
      At most [n] crossings are looked at: if there are more the model says [None], and the code goes on. *)
  Definition steiner_cavity (n : nat) m (v0 v1 : N) : option (option (mesh V T * N * list walker * list N)) :=
    '(inter, all) ← edge_mid_intersection tbary ebary flat n m v0 v1;
    if negb all then None
    else
      match inter with
      | None => Some None
      | Some (other, point) =>
        value ← v_val <$> im_get (m_verts m) v0;
        let '(m, steiner) := add_vertex m (round point) value in
        '(boundary, enclosure) ← steiner_start m other;
        '(m, boundary, enclosure) ← point_cavity (sphere_of m steiner) (side_of m steiner) m boundary enclosure [] false true true;
        Some (Some (m, steiner, boundary, enclosure))
      end.

  (** src/tet.rs 2768-2817 [recover_edge_with_steiner_points]; [fuel] bounds the depth of the recursion: the model
      says [None] if it is used up, and the code goes on. *)
  Fixpoint recover_steiner (fuel n : nat) m (v0 v1 : N) : option (mesh V T * list N) :=
    match fuel with
    | 0 => None
    | S fuel =>
      r ← steiner_cavity n m v0 v1;
      match r with
      | Some (m, steiner, boundary, enclosure) =>
        '(m, _) ← flip_in_vertex_unchecked m steiner boundary enclosure;
        '(m, before) ← recover_steiner fuel n m v0 steiner;
        '(m, after) ← recover_steiner fuel n m steiner v1;
        Some (m, before ++ steiner :: after)
      | None =>
        wo ← walker_from_edge m v0 v1;
        w ← wo;
        m ← set_edge_lock m w true;
        Some (m, [])
      end
    end.
End steiner.
