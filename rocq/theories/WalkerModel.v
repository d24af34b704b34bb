(** Model of the walker position tables of src/tet.rs (no mesh needed). *)
From stdpp Require Import base numbers list.
From Coq Require Import NArith.
From Verif Require Import IdMapModel.
Local Open Scope nat_scope.

(** Fixed-size Rust arrays [[X; 4]] and [[X; 6]]. *)
Record arr4 (X : Type) := A4 { q0 : X; q1 : X; q2 : X; q3 : X }.
Global Arguments A4 {X} _ _ _ _.
Global Arguments q0 {X} _.
Global Arguments q1 {X} _.
Global Arguments q2 {X} _.
Global Arguments q3 {X} _.

(** [a[i]] and [a[i] = x] for [i] in 0..4.  All indexes used by the code are [_ % 4], table
    entries below 4 or literals below 4; larger ones would panic in Rust and are read as 3. *)
Definition get4 {X} (a : arr4 X) (i : nat) : X :=
  match i with 0 => q0 a | 1 => q1 a | 2 => q2 a | _ => q3 a end.
Definition set4 {X} (a : arr4 X) (i : nat) (x : X) : arr4 X :=
  match i with
  | 0 => A4 x (q1 a) (q2 a) (q3 a)
  | 1 => A4 (q0 a) x (q2 a) (q3 a)
  | 2 => A4 (q0 a) (q1 a) x (q3 a)
  | _ => A4 (q0 a) (q1 a) (q2 a) x
  end.
Definition list4 {X} (a : arr4 X) : list X := [q0 a; q1 a; q2 a; q3 a].

Record arr6 (X : Type) := A6 { s0 : X; s1 : X; s2 : X; s3 : X; s4 : X; s5 : X }.
Global Arguments A6 {X} _ _ _ _ _ _.
Global Arguments s0 {X} _.
Global Arguments s1 {X} _.
Global Arguments s2 {X} _.
Global Arguments s3 {X} _.
Global Arguments s4 {X} _.
Global Arguments s5 {X} _.
Definition get6 {X} (a : arr6 X) (i : nat) : X :=
  match i with 0 => s0 a | 1 => s1 a | 2 => s2 a | 3 => s3 a | 4 => s4 a | _ => s5 a end.
Definition set6 {X} (a : arr6 X) (i : nat) (x : X) : arr6 X :=
  match i with
  | 0 => A6 x (s1 a) (s2 a) (s3 a) (s4 a) (s5 a)
  | 1 => A6 (s0 a) x (s2 a) (s3 a) (s4 a) (s5 a)
  | 2 => A6 (s0 a) (s1 a) x (s3 a) (s4 a) (s5 a)
  | 3 => A6 (s0 a) (s1 a) (s2 a) x (s4 a) (s5 a)
  | 4 => A6 (s0 a) (s1 a) (s2 a) (s3 a) x (s5 a)
  | _ => A6 (s0 a) (s1 a) (s2 a) (s3 a) (s4 a) x
  end.
Definition list6 {X} (a : arr6 X) : list X := [s0 a; s1 a; s2 a; s3 a; s4 a; s5 a].

(** Table look-up ([get_unchecked]).  Positions are in 0..12 by the invariant proved for every
    stored walker; outside the table the model reads 0 (Rust: undefined behaviour). *)
Definition tbl (l : list nat) (i : nat) : nat := nth i l 0.

(** src/tet.rs 404-410 [struct TetWalker]. *)
Record walker := Walker { w_tet : N; w_edge : nat }.

Global Instance walker_eq_dec : EqDecision walker.
Proof. solve_decision. Defined.

(** src/tet.rs 429-455 [first], [second], [third], [fourth]: which stored vertex is reported. *)
Definition first_idx (e : nat) : nat := tbl [3; 2; 1; 0; 2; 3; 0; 1; 1; 0; 3; 2] e.
Definition second_idx (e : nat) : nat := tbl [2; 3; 0; 1; 1; 0; 3; 2; 3; 2; 1; 0] e.
Definition third_idx (e : nat) : nat := tbl [1; 0; 3; 2; 3; 2; 1; 0; 2; 3; 0; 1] e.
Definition fourth_idx (e : nat) : nat := e mod 4.

(** src/tet.rs 505-507 [undir_edge_index]. *)
Definition undir_idx (e : nat) : nat := tbl [0; 0; 1; 1; 2; 3; 3; 2; 4; 5; 4; 5] e.

(** src/tet.rs 514-524 [to_undir_edge]; [None] is [unreachable!]. *)
Definition to_undir_edge (w : walker) (i : nat) : option walker :=
  match i with
  | 0 => Some (Walker (w_tet w) 0)
  | 1 => Some (Walker (w_tet w) 3)
  | 2 => Some (Walker (w_tet w) 7)
  | 3 => Some (Walker (w_tet w) 5)
  | 4 => Some (Walker (w_tet w) 8)
  | 5 => Some (Walker (w_tet w) 11)
  | _ => None
  end.

(** src/tet.rs 537-591: moves inside a tet. *)
Definition to_nfe (w : walker) : walker := Walker (w_tet w) ((w_edge w + 4) mod 12).
Definition to_pfe (w : walker) : walker := Walker (w_tet w) ((w_edge w + 8) mod 12).
Definition to_nve (w : walker) : walker :=
  Walker (w_tet w) (tbl [10; 11; 8; 9; 1; 0; 3; 2; 7; 6; 5; 4] (w_edge w)).
Definition to_pve (w : walker) : walker :=
  Walker (w_tet w) (tbl [5; 4; 7; 6; 11; 10; 9; 8; 2; 3; 0; 1] (w_edge w)).
Definition to_twin_edge (w : walker) : walker :=
  Walker (w_tet w) (tbl [1; 0; 3; 2; 7; 6; 5; 4; 10; 11; 8; 9] (w_edge w)).
Definition to_opp_edge (w : walker) : walker :=
  Walker (w_tet w) (tbl [2; 3; 0; 1; 5; 4; 7; 6; 11; 10; 9; 8] (w_edge w)).

(** src/tet.rs 363-378 [enum Permutation]; [perm as usize] is the position in the enum. *)
Inductive permutation :=
| P3210 | P2301 | P1032 | P0123 | P2130 | P3021 | P0312 | P1203 | P1320 | P0231 | P3102 | P2013.
Definition perm_index (p : permutation) : nat :=
  match p with
  | P3210 => 0 | P2301 => 1 | P1032 => 2 | P0123 => 3 | P2130 => 4 | P3021 => 5
  | P0312 => 6 | P1203 => 7 | P1320 => 8 | P0231 => 9 | P3102 => 10 | P2013 => 11
  end.

(** src/tet.rs 317-330: the array [perms] inside [permutation_arr]. *)
Definition perms : list (list nat) :=
  [[3; 2; 1; 0]; [2; 3; 0; 1]; [1; 0; 3; 2]; [0; 1; 2; 3];
   [2; 1; 3; 0]; [3; 0; 2; 1]; [0; 3; 1; 2]; [1; 2; 0; 3];
   [1; 3; 2; 0]; [0; 2; 3; 1]; [3; 1; 0; 2]; [2; 0; 1; 3]].

(** Position of [x] in [l] (building the inverse array, src/tet.rs 338-342). *)
Fixpoint index_of (x : nat) (l : list nat) : nat :=
  match l with [] => 0 | y :: l' => if y =? x then 0 else S (index_of x l') end.

(** src/tet.rs 336-353: entry [arr[p][i]]: the last [new] whose first two entries match. *)
Definition perm_entry (inv : bool) (p i : nat) : nat :=
  let perm0 := nth p perms [] in
  let perm := if inv then map (λ k, index_of k perm0) [0; 1; 2; 3] else perm0 in
  let pi := nth i perms [] in
  let e0 := nth (nth 0 pi 0) perm 0 in
  let e1 := nth (nth 1 pi 0) perm 0 in
  fold_left (λ acc new, if (e0 =? nth 0 (nth new perms []) 0) && (e1 =? nth 1 (nth new perms []) 0)
                        then new else acc) (seq 0 12) 0.

(** src/tet.rs 315-361 [permutation_arr]. *)
Definition permutation_arr (inv : bool) : list (list nat) :=
  map (λ p, map (perm_entry inv p) (seq 0 12)) (seq 0 12).

(** src/tet.rs 415, 419 [PERMUTATION_FWD], [PERMUTATION_INV] (Rust [const]: evaluated once). *)
Definition PERMUTATION_FWD : list (list nat) := Eval vm_compute in permutation_arr false.
Definition PERMUTATION_INV : list (list nat) := Eval vm_compute in permutation_arr true.
Definition perm_fwd (a b : nat) : nat := tbl (nth a PERMUTATION_FWD []) b.
Definition perm_inv (a b : nat) : nat := tbl (nth a PERMUTATION_INV []) b.

(** src/tet.rs 607-613 [to_perm]. *)
Definition to_perm (w : walker) (p : permutation) : walker :=
  Walker (w_tet w) (perm_fwd (w_edge w) (perm_index p)).

(** src/tet.rs 647-661 [to_canon_tet], [to_canon_tri], [to_edge]. *)
Definition to_canon_tet (w : walker) : walker := Walker (w_tet w) 3.
Definition to_canon_tri (w : walker) : walker := Walker (w_tet w) (w_edge w mod 4).
Definition to_edge (w : walker) (e : nat) : walker := Walker (w_tet w) e.

(** The vertices reported by a walker at position [e] of a tet with stored vertices [vs]
    (src/tet.rs 479-486 [tet]). *)
Definition verts_at {X} (vs : arr4 X) (e : nat) : arr4 X :=
  A4 (get4 vs (first_idx e)) (get4 vs (second_idx e)) (get4 vs (third_idx e)) (get4 vs (fourth_idx e)).

(** src/tet.rs 39-58 [sorted_2], [sorted_3]. *)
Definition swap2 {X Y : Type} (p : X * Y) : Y * X := (p.2, p.1).
Definition sorted_2 (a : N * N) : N * N :=
  let '(x, y) := a in if N.ltb y x then (y, x) else (x, y).
Definition sorted_3 (a : N * N * N) : N * N * N :=
  let '(x, y, z) := a in
  let '(x, y) := if N.ltb y x then (y, x) else (x, y) in
  let '(y, z) := if N.ltb z y then (z, y) else (y, z) in
  let '(x, y) := if N.ltb y x then (y, x) else (x, y) in
  (x, y, z).

(** src/tet.rs 60-69 [even_sorted_3]. *)
Definition even_sorted_3 (a : N * N * N) : N * N * N :=
  let '(x, y, z) := a in
  if N.ltb y x && N.ltb y z then (y, z, x)
  else if N.ltb z x && N.ltb z y then (z, x, y)
  else (x, y, z).

(** src/tet.rs 71-84 [even_sorted_4]. *)
Definition even_sorted_4 (a : arr4 N) : arr4 N :=
  let '(A4 a0 a1 a2 a3) := a in
  if N.ltb a3 a0 && N.ltb a3 a1 && N.ltb a3 a2 then
    let '(b1, b2, b3) := even_sorted_3 (a2, a1, a0) in A4 a3 b1 b2 b3
  else
    let '(b0, b1, b2) := even_sorted_3 (a0, a1, a2) in
    let '(c1, c2, c3) := even_sorted_3 (b1, b2, a3) in A4 b0 c1 c2 c3.

(** src/tet.rs 86-94 [TriVertices::new]. *)
Definition tri_key (a : N * N * N) : N * N * N := even_sorted_3 a.
