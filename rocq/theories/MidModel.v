(** Model of the points at which a segment crosses things, and of the time a vertex may travel inside its ball,
    src/tet/geo.rs 430-459, 614-627. *)
From stdpp Require Import base numbers list gmap option.
From Coq Require Import NArith ZArith QArith.
From Verif Require Import IdMapModel WalkerModel MeshModel MeshOps GeoModel GeoSpec QualModel CrossModel WayModel.
Local Open Scope nat_scope.

(** [Iterator::min_by_key]: the first of the smallest elements; [less x y] is [key(x) < key(y)]. *)
Definition least {A} (less : A → A → bool) (l : list A) : option A :=
  match l with
  | [] => None
  | x :: l => Some (fold_left (λ best y, if less y best then y else best) l x)
  end.

Section mid.
  Context {V T : Type}.
  Implicit Types (m : mesh V T) (w : walker).
  Context (tbary : mesh V T → N → N → N → N → N → option (list Z)).
  Context (ebary : mesh V T → N → N → N → N → option (list Z)).
  Context (flat : mesh V T → N → N → N → N → option bool).

  (** A point with rational coordinates: the integer ones divided by the number. *)
  Definition ratio : Type := pt * Z.

  (** src/tet/geo.rs 437-441, 453-457: [p0 + (p1 - p0) * bary[1] / sum], with exact numbers. *)
  Definition point_at (p0 p1 : pt) (bary : Z * Z) : ratio :=
    let sum := (bary.1 + bary.2)%Z in
    (vadd (vscale sum p0) (vscale bary.2 (vsub p1 p0)), sum).

  (** [self[v].position()]; indexing a missing vertex, or the ghost vertex, panics. *)
  Definition position m (v : N) : option pt := v_pos <$> im_get (m_verts m) v.

  (** src/tet/geo.rs 432-443 [edge_intersections], the first [n] crossings, and whether these are all (see
      [edge_intersections_raw]). *)
  Definition edge_intersections (n : nat) m (v0 v1 : N) : option (list (simplex * ratio) * bool) :=
    p0 ← position m v0; p1 ← position m v1;
    '(l, all) ← edge_intersections_raw tbary ebary flat n m v0 v1;
    Some (List.map (λ c : crossing, (c.1, point_at p0 p1 c.2)) l, all).

  (** src/tet/geo.rs 447-459 [edge_mid_intersection]; the code returns the first component if the second one is
      [true], and goes on searching otherwise. *)
  Definition edge_mid_intersection (n : nat) m (v0 v1 : N) : option (option (simplex * ratio) * bool) :=
    p0 ← position m v0; p1 ← position m v1;
    '(l, all) ← edge_intersections_raw tbary ebary flat n m v0 v1;
    let key (c : crossing) := Z.abs (c.2.1 - c.2.2) in
    Some (option_map (λ c : crossing, (c.1, point_at p0 p1 c.2)) (least (λ a b, Z.ltb (key a) (key b)) l), all).
End mid.

Section time.
  Context {V T : Type}.
  Implicit Types (m : mesh V T) (w : walker).
  Local Open Scope Z_scope.

  (** src/tet/geo.rs 622: [all(|c| *c >= 0.0) || all(|c| *c <= 0.0)]. *)
  Definition one_sided (bary : list Z) : bool := forallb (λ c, 0 <=? c) bary || forallb (λ c, c <=? 0) bary.
  (** src/tet/geo.rs 623-624: [bary[4] / (bary[3] + bary[4])], if it is positive and finite; the division by zero
      gives no number or an infinite one. *)
  Definition time_of (bary : list Z) : option Q :=
    let sum := nth 3 bary 0 + nth 4 bary 0 in
    if sum =? 0 then None
    else
      let time := (inject_Z (nth 4 bary 0%Z) / inject_Z sum)%Q in
      if Qle_bool time 0 then None else Some time.

  (** src/tet/geo.rs 617-626 [time_until_not_star_shaped]: outer option: panic.  The comparison is of exact
      fractions. *)
  Definition time_until_not_star_shaped m (ball_vertex center target : N) : option (option Q) :=
    ws ← from_list m ball_vertex;
    barys ← mapM (λ w, t ← w_opp_tri m w; tri_edge_bary m t.1.1 t.1.2 t.2 center target) ws;
    Some (least (λ s t, negb (Qle_bool t s)) (omap time_of (List.filter one_sided barys))).
End time.
