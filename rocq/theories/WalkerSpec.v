(** Vocabulary for walker positions: reorderings of four things and their parity. *)
From stdpp Require Import base numbers list.
From Coq Require Import NArith.
From Verif Require Import WalkerModel.
Local Open Scope nat_scope.

(** Number of out-of-order pairs. *)
Fixpoint inversions (l : list nat) : nat :=
  match l with
  | [] => 0
  | x :: l' => length (filter (λ y, y < x) l') + inversions l'
  end.

(** [σ] is an even permutation of 0,1,2,3. *)
Definition even_perm (σ : list nat) : Prop :=
  σ ≡ₚ [0; 1; 2; 3] ∧ Nat.even (inversions σ) = true.

(** [reorder vs [a;b;c;d]] lists the entries number a, b, c, d of [vs]. *)
Definition reorder {X} (vs : arr4 X) (σ : list nat) : arr4 X :=
  A4 (get4 vs (nth 0 σ 0)) (get4 vs (nth 1 σ 0)) (get4 vs (nth 2 σ 0)) (get4 vs (nth 3 σ 0)).

(** The digits in the name of a permutation constant. *)
Definition perm_digits (p : permutation) : list nat :=
  match p with
  | P3210 => [3; 2; 1; 0] | P2301 => [2; 3; 0; 1] | P1032 => [1; 0; 3; 2] | P0123 => [0; 1; 2; 3]
  | P2130 => [2; 1; 3; 0] | P3021 => [3; 0; 2; 1] | P0312 => [0; 3; 1; 2] | P1203 => [1; 2; 0; 3]
  | P1320 => [1; 3; 2; 0] | P0231 => [0; 2; 3; 1] | P3102 => [3; 1; 0; 2] | P2013 => [2; 0; 1; 3]
  end.

(** A walker position is legal. *)
Definition pos_ok (w : walker) : Prop := w_edge w < 12.

(** Same unordered pair. *)
Definition same_pair {X} (a b c d : X) : Prop := (a = c ∧ b = d) ∨ (a = d ∧ b = c).
