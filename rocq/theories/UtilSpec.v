(** Vocabulary for iterators and circular lists. *)
From stdpp Require Import base numbers list option.
From Verif Require Import UtilModel.
Local Open Scope nat_scope.

(** The iterator in state [s] yields exactly the items [l] and then [None] forever: however many
    items are asked for, that many items of [l] come out. *)
Definition yields {St A} (next : St → option (option A * St)) (s : St) (l : list A) : Prop :=
  ∀ n, ∃ s', iter_take next n s = Some (take n l, s').

(** [l] is one full round trip from [start]: it begins with [start], each element leads to the
    following one, the last one leads back to [start], and [start] is met only at the beginning. *)
Definition round_trip {K} (next : K → option K) (start : K) (l : list K) : Prop :=
  l !! 0 = Some start ∧
  (∀ i x, l !! i = Some x → next x = Some (default start (l !! (S i)))) ∧
  (∀ i, l !! i = Some start → i = 0).
