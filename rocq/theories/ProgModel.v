(** Model of the search that removes an edge or a triangle by flips (src/tet.rs 1181-1512). *)
From stdpp Require Import base numbers list gmap option.
From Coq Require Import NArith ZArith.
From Verif Require Import IdMapModel WalkerModel MeshModel UtilModel IterModel MeshOps QualModel.
Local Open Scope nat_scope.

Section prog.
  Context {V T : Type}.
  Implicit Types (m : mesh V T) (w : walker) (goals : list simplex) (bads : list (N * N)).

  (** The caller's closures [edge_addable] and [tri_addable]; the sign of [TetMesh::orient_3d]
      (src/tet/geo.rs) as any function of the mesh and of four vertices. *)
  Context (ea : mesh V T → N * N → bool) (ta : mesh V T → N * N * N → bool) (ori : mesh V T → N → N → N → N → Z).

  (** What a call leaves behind (mesh, [goals], [bad_edges]) and its result. *)
  Definition outcome : Type := mesh V T * list simplex * list (N * N) * option nat.
  Definition call : Type := walker → mesh V T → list simplex → list (N * N) → option outcome.

  (** src/tet.rs 488-498 [edge_ring], collected; at most [number of tets + 1] calls of [next]. *)
  Definition ring_list m w : option (list walker) :=
    fst <$> iter_take (edge_ring_next m) (length (im_keys (m_tets m)) + 1) (edge_ring m w).

  (** src/tet.rs 1286-1293, 1380-1382, 1486-1491 [bad_edges.contains(&sorted_2(..))]. *)
  Definition is_bad bads (a b : N) : bool := bool_decide (sorted_2 (a, b) ∈ bads).
  Definition none_bad bads (l : list (N * N)) : bool := forallb (λ p, negb (is_bad bads p.1 p.2)) l.

  (** src/tet.rs 1315-1327, 1401-1412, 1502-1505: the first position in [goals] of one of the given elements
      ([unwrap] on an absent one is [None]). *)
  Definition goal_index goals (gone : list simplex) : option nat :=
    fst <$> list_find (λ g, g ∈ gone) goals.

  (** src/tet.rs 1315-1329, 1401-1414, 1502-1507: what is returned after a flip that has removed the
      last goal and the elements [gone]. *)
  Definition removed m goals bads (gone : list simplex) : option outcome :=
    g ← list.last goals; i ← goal_index goals (g :: gone); Some (m, removelast goals, bads, Some i).

  (** src/tet.rs 1341-1342, 1354-1355: [mesh.tri_map[..].to_edge_assuming_tri(mesh, edge)]. *)
  Definition tri_map_walker m (e : N * N) (v : N) : option walker :=
    w ← m_trimap m !! tri_key (e.1, e.2, v); to_edge_assuming_tri m w e.1.

  (** src/tet.rs 1239-1248 and 1358-1367: call [progress_by_removing_tri] with the edge marked bad. *)
  Definition guarded (rt : call) (e : N * N) : call := λ w m goals bads,
    '(m1, goals1, bads1, r) ← rt w m goals (bads ++ [sorted_2 e]);
    Some (m1, goals1, removelast bads1, r).

  (** How the loop over the triangles at the edge (src/tet.rs 1236-1263) ends: by a [return], by
      [continue 'reduce], or because [tri_opps] is empty. *)
  Inductive pass_end :=
  | PReturn (o : outcome)
  | PContinue (m : mesh V T) (goals : list simplex) (bads : list (N * N)) (opps next : list N)
  | PEmpty (m : mesh V T) (goals : list simplex) (bads : list (N * N)) (next : list N).

  (** src/tet.rs 1236-1263; [opps] is [tri_opps] from its end. *)
  Fixpoint pass (rt : call) (e : N * N) m goals bads (opps next : list N) : option pass_end :=
    match opps with
    | [] => Some (PEmpty m goals bads next)
    | v2 :: opps =>
      wo ← walker_from_tri m (e.1, e.2, v2);
      match wo with
      | None =>
        if decide (length opps + length next ≤ 3) then Some (PContinue m goals bads (reverse opps) next)
        else pass rt e m goals bads opps next
      | Some w =>
        '(m1, goals1, bads1, r) ← guarded rt e w m goals bads;
        if match r with Some i => Nat.ltb i (length goals1) | None => false end then Some (PReturn (m1, removelast goals1, bads1, r))
        else
          let next1 := match r with None => next ++ [v2] | Some _ => next end in
          if decide (length opps + length next1 ≤ 3) then Some (PContinue m1 goals1 bads1 (reverse opps) next1)
          else pass rt e m1 goals1 bads1 opps next1
      end
    end.

  (** src/tet.rs 1276-1330: one of the two 4-to-4 flips of an edge with four tets around it; [None]
      inside if the long list of conditions does not hold. *)
  Definition try44 m goals bads (w0 w1 w2 w3 : walker) : option (option outcome) :=
    v0 ← w_first m w0; v1 ← w_third m w2; v2 ← w_second m w0; v3 ← w_third m w0;
    vt ← w_fourth m w2; vb ← w_fourth m w0;
    l0 ← w_locked m w0; l1 ← w_locked m w1; l2 ← w_locked m w2; l3 ← w_locked m w3;
    if none_bad bads [(v1, vt); (vt, v3); (v3, vb); (vb, v1); (v0, v1); (v1, v2); (v2, v3); (v3, v0)] &&
       ea m (v1, v3) && ta m (v1, vt, v3) && ta m (v1, v0, v3) && ta m (v1, vb, v3) && ta m (v1, v2, v3) &&
       negb l0 && negb l1 && negb l2 && negb l3 &&
       Z.ltb 0 (ori m v1 v2 v3 vb) && Z.ltb 0 (ori m v1 vt v3 v2) &&
       Z.ltb 0 (ori m v1 v0 v3 vt) && Z.ltb 0 (ori m v1 vb v3 v0)
    then
      '(m1, _) ← flip44_unchecked m w0;
      Some <$> removed m1 goals bads [STri (sorted_3 (v0, v2, v3)); STri (sorted_3 (v0, v2, vb));
                                      STri (sorted_3 (v0, v2, v1)); STri (sorted_3 (v0, v2, vt))]
    else Some None.

  (** src/tet.rs 1275-1335: both 4-to-4 flips, then giving up. *)
  Definition last_resort m goals bads (ring : list walker) : option outcome :=
    match ring with
    | [r0; r1; r2; r3] =>
      a ← try44 m goals bads r0 r1 r2 r3;
      match a with
      | Some o => Some o
      | None =>
        b ← try44 m goals bads r1 r2 r3 r0;
        Some (default (m, removelast goals, bads, None) b)
      end
    | _ => Some (m, removelast goals, bads, None)
    end.

  (** How the loop ['reduce] (src/tet.rs 1229-1337) ends: by a [return], or with three triangles. *)
  Inductive reduce_end :=
  | RReturn (o : outcome)
  | RDone (m : mesh V T) (goals : list simplex) (bads : list (N * N)) (opps : list N).

  (** src/tet.rs 1229-1337; [fuel] bounds the number of rounds. *)
  Fixpoint reduce (fuel : nat) (rt : call) (e : N * N) m goals bads (opps next : list N) : option reduce_end :=
    match fuel with
    | 0 => None
    | S fuel =>
      let opps := opps ++ next in
      if decide (length opps ≤ 3) then Some (RDone m goals bads opps)
      else
        p ← pass rt e m goals bads (reverse opps) [];
        match p with
        | PReturn o => Some (RReturn o)
        | PContinue m1 goals1 bads1 opps1 next1 => reduce fuel rt e m1 goals1 bads1 opps1 next1
        | PEmpty m1 goals1 bads1 next1 =>
          if decide (length opps = length next1) then
            v ← list.last next1;
            wo ← walker_from_tri m1 (e.1, e.2, v);
            w ← wo;
            ring ← ring_list m1 w;
            if decide (length ring = 3) then reduce fuel rt e m1 goals1 bads1 [] next1
            else RReturn <$> last_resort m1 goals1 bads1 ring
          else reduce fuel rt e m1 goals1 bads1 [] next1
        end
    end.

  (** src/tet.rs 1352-1376: the loop over the three triangles at a concave edge. *)
  Fixpoint try_tris (rt : call) (e : N * N) m goals bads (vs : list N) : option outcome :=
    match vs with
    | [] => Some (m, removelast goals, bads, None)
    | v :: vs =>
      w ← tri_map_walker m e v;
      '(m1, goals1, bads1, r) ← guarded rt e w m goals bads;
      match r with
      | Some i => Some (m1, removelast goals1, bads1, Some i)
      | None => try_tris rt e m1 goals1 bads1 vs
      end
    end.

  (** src/tet.rs 1338-1419: what follows the loop, with three triangles at the edge. *)
  Definition finish (rt : call) (e : N * N) m goals bads (opps : list N) : option outcome :=
    if decide (length opps = 3) then
      v ← list.last opps;
      walk0 ← tri_map_walker m e v;
      walk1 ← ring_next m walk0;
      walk2 ← ring_next m walk1;
      let '(v3, v4) := e in
      '(v0, v1) ← w_opp_pair m walk0;
      v2 ← w_fourth m walk1;
      if Z.leb (ori m v0 v1 v3 v2) 0 || Z.leb (ori m v0 v1 v2 v4) 0 then try_tris rt e m goals bads [v0; v1; v2]
      else
        l0 ← w_locked m walk0; l1 ← w_locked m walk1; l2 ← w_locked m walk2;
        if none_bad bads [(v0, v1); (v1, v2); (v2, v0)] && ta m (v0, v1, v2) && negb l0 && negb l1 && negb l2 then
          '(m1, _) ← flip32_unchecked m walk0;
          removed m1 goals bads [STri (sorted_3 (v0, v3, v4)); STri (sorted_3 (v1, v3, v4)); STri (sorted_3 (v2, v3, v4))]
        else Some (m, removelast goals, bads, None)
    else None.

  (** src/tet.rs 1189-1419 [progress_by_removing_edge] with [depth > 0], given
      [progress_by_removing_tri] with [depth - 1]. *)
  Definition remove_edge_body (rt : call) : call := λ self m goals bads,
    l ← w_edge_locked m self;
    if l : bool then Some (m, goals, bads, None)
    else
      e ← w_pair m self;
      let goals := goals ++ [SEdge (sorted_2 e)] in
      ring ← ring_list m self;
      opps ← mapM (w_third m) ring;
      r ← reduce (2 * length opps + 4) rt e m goals bads opps [];
      match r with
      | RReturn o => Some o
      | RDone m1 goals1 bads1 opps1 => finish rt e m1 goals1 bads1 opps1
      end.

  (** src/tet.rs 1466-1484: the first of the three edges that is in the way. *)
  Definition blocking m (self : walker) (v0 v1 v2 v3 v4 : N) : option walker :=
    if Z.leb (ori m v0 v1 v4 v3) 0 then Some self
    else if Z.leb (ori m v1 v2 v4 v3) 0 then Some (to_nfe self)
    else if Z.leb (ori m v2 v0 v4 v3) 0 then Some (to_pfe self)
    else None.

  (** src/tet.rs 1429-1512 [progress_by_removing_tri] with [depth > 0], given
      [progress_by_removing_edge] with [depth - 1]. *)
  Definition remove_tri_body (re : call) : call := λ self m goals bads,
    l ← w_locked m self;
    if l : bool then Some (m, goals, bads, None)
    else
      t ← w_tri m self;
      let goals := goals ++ [STri (sorted_3 t)] in
      adj ← to_adj_ae m self;
      '(A4 v0 v1 v2 v3) ← w_verts m self;
      v4 ← w_fourth m adj;
      match blocking m self v0 v1 v2 v3 v4 with
      | Some w =>
        '(m1, goals1, bads1, r) ← re w m goals bads;
        Some (m1, removelast goals1, bads1, r)
      | None =>
        if none_bad bads [(v0, v3); (v0, v4); (v1, v3); (v1, v4); (v2, v3); (v2, v4)] &&
           ta m (v0, v3, v4) && ta m (v1, v3, v4) && ta m (v2, v3, v4) && ea m (v3, v4) then
          '(m1, _) ← flip23_unchecked m self;
          removed m1 goals bads []
        else Some (m, removelast goals, bads, None)
      end.

  (** src/tet.rs 1189-1419 [progress_by_removing_edge] and 1429-1512 [progress_by_removing_tri]. *)
  Fixpoint remove_edge (depth : nat) : call :=
    match depth with
    | 0 => λ _ m goals bads, Some (m, goals, bads, None)
    | S depth => remove_edge_body (remove_tri depth)
    end
  with remove_tri (depth : nat) : call :=
    match depth with
    | 0 => λ _ m goals bads, Some (m, goals, bads, None)
    | S depth => remove_tri_body (remove_edge depth)
    end.
End prog.
