(** Model of [export_debug_obj] (src/tet.rs 3486-3533): the data handed to the OBJ writer.  The name of
    the object and group, the empty lists of texture coordinates, normals and materials, and writing the
    file are left out. *)
From stdpp Require Import base numbers list gmap option.
From Coq Require Import NArith.
From Verif Require Import IdMapModel WalkerModel MeshModel GeoModel.
Local Open Scope nat_scope.

(** The fields [position] and [polys] of [obj::ObjData]; polygons are triangles of indices. *)
Record obj_data (P : Type) := ObjData { od_position : list P; od_polys : list (nat * nat * nat) }.
Arguments ObjData {_}. Arguments od_position {_}. Arguments od_polys {_}.

Section obj.
  Context {V T P : Type}.
  (** Rounding a position to [f32] coordinates. *)
  Context (round : pt → P).
  Implicit Types (m : mesh V T).

  (** src/tet.rs 3487-3492 [solid_tets] (the indices of [enumerate] are those of the list). *)
  Definition solid_tets m : list (tet T) :=
    List.filter (λ t, negb (existsb (N.eqb GHOST) (list4 (t_vs t)))) (im_values (m_tets m)).

  (** src/tet.rs 3512-3519: the four triangles of the tet number [i]. *)
  Definition tet_polys (i : nat) : list (nat * nat * nat) :=
    [(4 * i + 0, 4 * i + 1, 4 * i + 2); (4 * i + 3, 4 * i + 2, 4 * i + 1);
     (4 * i + 2, 4 * i + 3, 4 * i + 0); (4 * i + 1, 4 * i + 0, 4 * i + 3)].

  (** src/tet.rs 3486-3533 [export_debug_obj]; indexing a missing vertex panics. *)
  Definition export_obj m : option (obj_data P) :=
    let ts := solid_tets m in
    ps ← mapM (λ v, vt ← im_get (m_verts m) v; Some (round (v_pos vt))) (flat_map (λ t, list4 (t_vs t)) ts);
    Some (ObjData ps (flat_map tet_polys (seq 0 (length ts)))).
End obj.
