(** Model of the tests that compare distances with the tolerance (src/tet/geo.rs), of the normal of a
    triangle, and of [sliver_kind], [vertex_position] and [vertex_distance] (src/tet.rs).

    Coordinates are exact integers, as in [GeoModel], and the tolerance is one too (after scaling).
    Every number these functions handle is then infinite, NaN or a root of a fraction with a sign;
    rounding is not modelled. *)
From stdpp Require Import base numbers list gmap option.
From Coq Require Import NArith ZArith.
From Verif Require Import IdMapModel WalkerModel MeshModel GeoModel UtilModel IterModel QualModel DelModel.
Local Open Scope Z_scope.

(** The numbers.  [XSq p q] with [0 < q] is the root of [p / q] if [0 <= p], and minus the root of
    [- p / q] otherwise. *)
Inductive xn := XNan | XNegInf | XInf | XSq (p q : Z).
(** The integer [s] as such a number. *)
Definition sq (s : Z) : Z := s * Z.abs s.
Definition xint (s : Z) : xn := XSq (sq s) 1.
(** [<] and [>=] and [==] on f64. *)
Definition xlt (a b : xn) : bool :=
  match a, b with
  | XNan, _ | _, XNan => false
  | XNegInf, XNegInf => false
  | XNegInf, _ => true
  | _, XNegInf => false
  | XInf, _ => false
  | _, XInf => true
  | XSq p q, XSq p' q' => p * q' <? p' * q
  end.
Definition xnan (a : xn) : bool := match a with XNan => true | _ => false end.
Definition xge (a b : xn) : bool := negb (xnan a) && negb (xnan b) && negb (xlt a b).
Definition xeq (a b : xn) : bool := xge a b && xge b a.
(** [f64::max]: NaN loses against any number. *)
Definition xmax (a b : xn) : xn := if xnan a then b else if xnan b then a else if xlt a b then b else a.

(** [(pb - pa).cross(&(pd - pc)).norm()], squared. *)
Definition area2 (a b c d : pt) : Z := norm2 (vcross (vsub b a) (vsub d c)).

(** The exact arithmetic for [quality]; [volx6] is positive and so is the area it is divided by. *)
Definition exact_q (nan : pt → bool) (sim : N * pt → N * pt → N * pt → N * pt → bool) : qarith xn :=
  QArith xn (λ a b c d, xint (orient a b c d)) (λ v, match v with XSq p _ => p <=? 0 | _ => false end)
    (λ a b c d, XSq (area2 a b c d) 1) (λ a b, negb (xlt b a))
    (λ v a, match v, a with XSq p q, XSq p' q' => XSq (p * q') (q * p') | _, _ => XNan end)
    xlt XInf (xint (-1)) nan sim.

(** [robust_geo::orient_2d]: documented to be positive for a left turn; modelled by the exact
    determinant. *)
Definition orient_2d (a b c : Z * Z) : Z := (b.1 - a.1) * (c.2 - a.2) - (b.2 - a.2) * (c.1 - a.1).

(** [n.normalize().dot(&w)] with [n = (b - a).cross(&(c - a))] and [w = p - a]. *)
Definition plane_dist (a b c p : pt) : xn :=
  let n := vcross (vsub b a) (vsub c a) in
  if norm2 n =? 0 then XNan else XSq (sq (vdot n (vsub p a))) (norm2 n).

Section tol.
  Context {V T : Type}.
  Implicit Types (m : mesh V T) (w : walker).

  (** [self[v].position()]: panics for the ghost vertex. *)
  Definition vpos m (v : N) : option pt := v_pos <$> im_get (m_verts m) v.

  (** src/tet/geo.rs 53-63 [tri_normal]. *)
  Definition tri_normal m (v0 v1 v2 : N) : option pt :=
    p0 ← vpos m v0; p1 ← vpos m v1; p2 ← vpos m v2;
    Some (Pt (orient_2d (py p0, pz p0) (py p1, pz p1) (py p2, pz p2))
             (orient_2d (pz p0, px p0) (pz p1, px p1) (pz p2, px p2))
             (orient_2d (px p0, py p0) (px p1, py p1) (px p2, py p2))).

  (** src/tet/geo.rs 137-139 [non_sliver]. *)
  Definition non_sliver nan sim (tol : Z) m (v0 v1 v2 v3 : N) : option bool :=
    q ← quality (exact_q nan sim) m v0 v1 v2 v3; Some (xge q (xint tol)).

  (** src/tet/geo.rs 212: the position of the ghost vertex. *)
  Definition ghost_pos (v0 v1 v2 v3 : N) : option nat :=
    if N.eqb v0 GHOST then Some 0%nat else if N.eqb v1 GHOST then Some 1%nat
    else if N.eqb v2 GHOST then Some 2%nat else if N.eqb v3 GHOST then Some 3%nat else None.
  (** src/tet/geo.rs 214-221 [ghost.filter(|g| *g != i).map_or_else(|| d, |_| -f64::INFINITY)]. *)
  Definition face_dist (ghost : option nat) (i : nat) (d : xn) : xn :=
    match ghost with Some g => if (g =? i)%nat then d else XNegInf | None => d end.
  (** src/tet/geo.rs 199-223 [tet_close_to_vertex]. *)
  Definition tet_close_to_vertex (tol : Z) m (v0 v1 v2 v3 v4 : N) : option bool :=
    p0 ← idx_ori m v0; p1 ← idx_ori m v1; p2 ← idx_ori m v2; p3 ← idx_ori m v3; p4 ← idx_ori m v4;
    let ghost := ghost_pos v0 v1 v2 v3 in
    let d0 := face_dist ghost 0 (plane_dist p3 p2 p1 p4) in
    let d1 := face_dist ghost 1 (plane_dist p2 p3 p0 p4) in
    let d2 := face_dist ghost 2 (plane_dist p1 p0 p3 p4) in
    let d3 := face_dist ghost 3 (plane_dist p0 p1 p2 p4) in
    Some (xlt (xmax (xmax (xmax d0 d1) d2) d3) (xint tol)).

  (** src/tet.rs 307-313 [enum SliverKind]. *)
  Inductive sliver := EdgeEdge (w : walker) | TriVertex (w : walker).
  (** src/tet.rs 675-699 [sliver_kind]; the areas are squared, which keeps their order. *)
  Definition sliver_kind m w : option sliver :=
    p0 ← w_first m w ≫= vpos m; p1 ← w_second m w ≫= vpos m;
    p2 ← w_third m w ≫= vpos m; p3 ← w_fourth m w ≫= vpos m;
    let t0 := area2 p3 p2 p3 p1 in
    let t1 := area2 p2 p3 p2 p0 in
    let t2 := area2 p1 p0 p1 p3 in
    let t3 := area2 p0 p1 p0 p2 in
    let e03 := area2 p3 p0 p2 p1 in
    let e13 := area2 p3 p1 p0 p2 in
    let e23 := area2 p3 p2 p1 p0 in
    let mx := Z.max (Z.max (Z.max (Z.max (Z.max (Z.max t0 t1) t2) t3) e03) e13) e23 in
    if mx =? t0 then Some (TriVertex (to_perm w P3210))
    else if mx =? t1 then Some (TriVertex (to_opp_edge w))
    else if mx =? t2 then Some (TriVertex (to_twin_edge w))
    else if mx =? t3 then Some (TriVertex w)
    else if mx =? e03 then Some (EdgeEdge (to_pve w))
    else if mx =? e13 then Some (EdgeEdge (to_nve w))
    else if mx =? e23 then Some (EdgeEdge w)
    else None.

  (** src/tet.rs 2118-2125 [vertex_position]; the inner [None] is the point at infinity. *)
  Definition vertex_position m (v : N) : option (option pt) :=
    if N.eqb v GHOST then Some None else p ← vpos m v; Some (Some p).
  (** src/tet.rs 2128-2130 [vertex_distance]. *)
  Definition vertex_distance m (a b : N) : option xn :=
    d ← vertex_distance2 m a b; Some (match d with Some d => XSq d 1 | None => XInf end).
End tol.
