(** The tests that pick the first four points (src/tet.rs 2386-2405), in exact arithmetic. *)
From stdpp Require Import base numbers list gmap option.
From Coq Require Import NArith ZArith.
From Verif Require Import IdMapModel WalkerModel MeshModel GeoModel UtilModel IterModel QualModel DelModel TolModel.
Local Open Scope Z_scope.

(** src/tet.rs 2387-2389: [areax2 / max_len]; no length gives NaN. *)
Definition height (p0 p1 p2 : pt) : xn :=
  let max_len2 := Z.max (Z.max (norm2 (vsub p1 p0)) (norm2 (vsub p2 p1))) (norm2 (vsub p0 p2)) in
  if max_len2 =? 0 then XNan else XSq (area2 p0 p1 p0 p2) max_len2.
(** src/tet.rs 2390: the filter and the key; [FloatOrd] is only asked about numbers that passed the
    filter, so not about NaN. *)
Definition wide2x (tol : Z) (p0 p1 p2 : pt) : bool := xge (height p0 p1 p2) (xint tol).
Definition le2x (p0 p1 a b : pt) : bool := negb (xlt (height p0 p1 b) (height p0 p1 a)).
(** src/tet.rs 2396-2404: [volx6.abs() / max_area]; no area gives NaN. *)
Definition wide3x (tol : Z) (p0 p1 p2 p3 : pt) : bool :=
  match max_by Z.leb (map (λ q : pt * pt * pt * pt, let '(a, b, c, d) := q in area2 a b c d)
    [(p0, p1, p0, p2); (p3, p2, p3, p1); (p2, p3, p2, p0); (p1, p0, p1, p3);
     (p0, p1, p2, p3); (p0, p2, p1, p3); (p0, p3, p1, p2)]) with
  | Some a => xge (if a =? 0 then XNan else XSq (sq (Z.abs (- vdot (vcross (vsub p1 p0) (vsub p2 p0)) (vsub p3 p0)))) a) (xint tol)
  | None => false
  end.
