(** Model of tet quality (src/tet/geo.rs) and of the flips that improve it (src/tet.rs). *)
From stdpp Require Import base numbers list gmap option.
From Coq Require Import NArith ZArith.
From Verif Require Import IdMapModel WalkerModel MeshModel GeoModel UtilModel IterModel.
Local Open Scope nat_scope.

(** The floating point operations used by [quality], as arbitrary functions of exact points: no
    property of rounding is assumed.  [sim::orient_3d] (crate [simplicity]) may look at ids. *)
Record qarith (F : Type) := QArith {
  qa_orient : pt → pt → pt → pt → F;            (* robust_geo::orient_3d *)
  qa_nonpos : F → bool;                         (* volx6 <= 0.0 *)
  qa_area : pt → pt → pt → pt → F;              (* (pb - pa).cross(&(pd - pc)).norm() *)
  qa_leb : F → F → bool;                        (* the order of FloatOrd *)
  qa_div : F → F → F;
  qa_lt : F → F → bool;                         (* < on f64 *)
  qa_inf : F;
  qa_neg : F;                                   (* -1.0 *)
  qa_nan : pt → bool;                           (* center.x.is_nan() *)
  qa_sim : N * pt → N * pt → N * pt → N * pt → bool }.
Arguments qa_orient {_}. Arguments qa_nonpos {_}. Arguments qa_area {_}. Arguments qa_leb {_}.
Arguments qa_div {_}. Arguments qa_lt {_}. Arguments qa_inf {_}. Arguments qa_neg {_}.
Arguments qa_nan {_}. Arguments qa_sim {_}.

(** src/tet.rs 277-281 [enum EdgeOrTri]. *)
Inductive simplex := SEdge (e : N * N) | STri (t : N * N * N).
Global Instance simplex_eq_dec : EqDecision simplex.
Proof. solve_decision. Defined.

Section quality.
  Context {V T F : Type} (ar : qarith F).
  Implicit Types (m : mesh V T) (w : walker).

  (** src/tet/geo.rs 127-131: the largest of the seven areas. *)
  Definition qa_max_area (p0 p1 p2 p3 : pt) : option F :=
    max_by (qa_leb ar) (map (λ q : pt * pt * pt * pt, let '(a, b, c, d) := q in qa_area ar a b c d)
      [(p0, p1, p0, p2); (p3, p2, p3, p1); (p2, p3, p2, p0); (p1, p0, p1, p3);
       (p0, p1, p2, p3); (p0, p2, p1, p3); (p0, p3, p1, p2)]).

  (** src/tet/geo.rs 92-134 [quality]. *)
  Definition quality m (v0 v1 v2 v3 : N) : option F :=
    if has_ghost [v0; v1; v2; v3] then
      if qa_nan ar (m_center m) then Some (qa_inf ar)
      else p0 ← idx_ori m v0; p1 ← idx_ori m v1; p2 ← idx_ori m v2; p3 ← idx_ori m v3;
           Some (if negb (qa_sim ar (v0, p0) (v1, p1) (v2, p2) (v3, p3)) then qa_inf ar else qa_neg ar)
    else
      let '(A4 v0 v1 v2 v3) := even_sorted_4 (A4 v0 v1 v2 v3) in
      p0 ← idx_ori m v0; p1 ← idx_ori m v1; p2 ← idx_ori m v2; p3 ← idx_ori m v3;
      let volx6 := qa_orient ar p0 p1 p2 p3 in
      if qa_nonpos ar volx6 then Some (qa_neg ar)
      else max_area ← qa_max_area p0 p1 p2 p3; Some (qa_div ar volx6 max_area).

  (** [f64::min] (no NaN). *)
  Definition fmin (a b : F) : F := if qa_lt ar b a then b else a.

  (** src/tet.rs 961-976 [flip23_quality].  The inner option is the Rust result. *)
  Definition flip23_quality m (self : walker) : option (mesh V T * option (walker * walker * walker)) :=
    other ← to_adj_ae m self;
    '(A4 v1 v0 v2 v3) ← w_verts m self;
    v4 ← w_fourth m other;
    q0 ← quality m v1 v0 v2 v3;
    q1 ← quality m v0 v1 v2 v4;
    r0 ← quality m v0 v1 v3 v4;
    r1 ← quality m v1 v2 v3 v4;
    r2 ← quality m v2 v0 v3 v4;
    if qa_lt ar (fmin q0 q1) (fmin (fmin r0 r1) r2) then flip23_unlocked m self else Some (m, None).

  (** src/tet.rs 1144-1159 [flip32_quality]. *)
  Definition flip32_quality m (self : walker) : option (mesh V T * option (walker * walker)) :=
    other1 ← ring_next m self;
    '(A4 v3 v4 v1 v0) ← w_verts m self;
    v2 ← w_fourth m other1;
    q0 ← quality m v3 v4 v1 v0;
    q1 ← quality m v3 v4 v0 v2;
    q2 ← quality m v3 v4 v2 v1;
    r0 ← quality m v0 v1 v2 v3;
    r1 ← quality m v1 v0 v2 v4;
    if qa_lt ar (fmin (fmin q0 q1) q2) (fmin r0 r1) then flip32_unlocked m self else Some (m, None).

  (** src/tet.rs 2550-2560: the initial queue. *)
  Definition fq_edges m : list simplex := map (λ ue, SEdge (sorted_2 (ue_vs ue))) (im_values (m_edges m)).
  Definition fq_tris m : option (list simplex) :=
    ts ← mapM (w_tri m) (flat_map (λ id, [Walker id 0; Walker id 1; Walker id 2; Walker id 3]) (im_keys (m_tets m)));
    Some (map STri (List.filter (λ t, bool_decide (even_sorted_3 t = sorted_3 t)) ts)).
  Definition fq_init m : option (list simplex) := ts ← fq_tris m; Some (fq_edges m ++ ts).

  (** src/tet.rs 2583-2585, 2605-2607: push what is not in the set yet; the state is (queue, set). *)
  Definition fq_push (s : list simplex * list simplex) (x : simplex) : list simplex * list simplex :=
    if decide (x ∈ s.2) then s else (s.1 ++ [x], x :: s.2).

  Definition tri_simplex m w : option simplex := t ← w_tri m w; Some (STri (sorted_3 t)).
  Definition edge_simplex m w : option simplex := e ← w_pair m w; Some (SEdge (sorted_2 e)).

  (** src/tet.rs 2569-2582. *)
  Definition fq_after32 m (ws : walker * walker) : option (list simplex) :=
    let '(w0, w1) := ws in
    ts ← mapM (tri_simplex m) [w0; w1; to_nve w0; to_nve w1; to_pve w0; to_pve w1];
    es ← mapM (edge_simplex m) [w0; w1; to_nve w0; to_nve w1; to_pve w0; to_pve w1];
    Some (ts ++ es).
  (** src/tet.rs 2594-2604. *)
  Definition fq_after23 m (ws : walker * walker * walker) : option (list simplex) :=
    let '(w0, w1, w2) := ws in
    ts ← mapM (tri_simplex m) [w0; w1; w2; to_twin_edge w0; to_twin_edge w1; to_twin_edge w2];
    es ← mapM (edge_simplex m) [w0; w1; w2];
    Some (ts ++ es).

  (** src/tet.rs 2563-2612: one round for the simplex [x]; the state is (mesh, (queue, set)).  The
      triangle map is read whether or not it is tracked (line 2593), and with the key [TriVertices(tri)],
      that is, without sorting the triangle first. *)
  Definition fq_round m (qs : list simplex * list simplex) (x : simplex)
      : option (mesh V T * (list simplex * list simplex)) :=
    match x with
    | SEdge e =>
      r ← walker_from_edge m e.1 e.2;
      match r with
      | None => Some (m, qs)
      | Some w =>
        '(m', f) ← flip32_quality m w;
        match f with
        | None => Some (m', qs)
        | Some ws => l ← fq_after32 m' ws; Some (m', fold_left fq_push l qs)
        end
      end
    | STri t =>
      match m_trimap m !! t with
      | None => Some (m, qs)
      | Some w =>
        '(m', f) ← flip23_quality m w;
        match f with
        | None => Some (m', qs)
        | Some ws => l ← fq_after23 m' ws; Some (m', fold_left fq_push l qs)
        end
      end
    end.

  (** src/tet.rs 2549-2615 [flip_quality]; the outer [None] is a panic, an inner [None] means that
      [fuel] rounds were not enough. *)
  Fixpoint fq_loop (fuel : nat) m (queue set : list simplex) : option (option (mesh V T)) :=
    match queue with
    | [] => Some (Some m)
    | x :: queue =>
      match fuel with
      | 0 => Some None
      | S fuel =>
        '(m', (queue', set')) ← fq_round m (queue, List.filter (λ y, negb (bool_decide (y = x))) set) x;
        fq_loop fuel m' queue' set'
      end
    end.
  Definition flip_quality (fuel : nat) m : option (option (mesh V T)) :=
    q ← fq_init m; fq_loop fuel m q q.
End quality.
