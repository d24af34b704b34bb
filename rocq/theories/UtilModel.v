(** Model of src/util.rs: the circular list iterator and Hilbert sorting; and of running a Rust
    iterator. *)
From stdpp Require Import base numbers list option.
From Coq Require Import NArith.
From Verif Require Import IdMapModel.
Local Open Scope nat_scope.

(** Running an iterator whose [next] is a function on its state; outer [None]: panic. *)
Section iter.
  Context {St A : Type} (next : St → option (option A * St)).

  (** Calling [next] until it returns [None], at most [n] times ([Iterator::take(n)], [collect]). *)
  Fixpoint iter_take (n : nat) (s : St) : option (list A * St) :=
    match n with
    | 0 => Some ([], s)
    | S n => '(r, s') ← next s;
             match r with
             | None => Some ([], s')
             | Some a => '(l, s'') ← iter_take n s'; Some (a :: l, s'')
             end
    end.

  (** [Iterator::find_map], at most [n] calls; running out of calls is [None] (the theorems show
      that this does not happen). *)
  Fixpoint iter_find_map {B} (f : A → option (option B)) (n : nat) (s : St) : option (option B) :=
    match n with
    | 0 => None
    | S n => '(r, s') ← next s;
             match r with
             | None => Some None
             | Some a => x ← f a; match x with Some b => Some (Some b) | None => iter_find_map f n s' end
             end
    end.
End iter.

(** src/util.rs 75-82 [struct CircularListIter]; [common] is an argument of the two functions. *)
Record citer (K : Type) := CIter { ci_start : K; ci_key : K; ci_done : bool }.
Arguments CIter {_}.
Arguments ci_start {_}.
Arguments ci_key {_}.
Arguments ci_done {_}.

Section circular.
  Context {K A : Type} `{EqDecision K} (value : K → option A) (next : K → option K).

  (** src/util.rs 84-94 [new]. *)
  Definition ci_new (start : K) : citer K := CIter start start false.

  (** src/util.rs 101-115 [next]. *)
  Definition ci_next (it : citer K) : option (option (K * A) * citer K) :=
    if ci_done it then Some (None, it)
    else
      let key := ci_key it in
      v ← value key;
      key' ← next key;
      Some (Some (key, v), CIter (ci_start it) key' (bool_decide (key' = ci_start it))).
End circular.

(** src/util.rs 7-69 [hilbert_sort], over any coordinate type with any arithmetic and any curve
    index.  [leb] is the total order of [FloatOrd]; [norm lo hi x] stands for
    [((x - lo) * ((2^32 - 1) / (hi - lo))) as u32]; [curve] for [fast_hilbert::hilbert_index]. *)
Section hilbert.
  Context {F V : Type} (leb : F → F → bool) (norm : F → F → F → N) (curve : N * N * N → N).

  (** [Iterator::min_by_key]: the first minimum; [None] for no elements. *)
  Definition min_by (l : list F) : option F :=
    match l with [] => None | x :: l => Some (fold_left (λ m y, if leb m y then m else y) l x) end.
  (** [Iterator::max_by_key]: the last maximum. *)
  Definition max_by (l : list F) : option F :=
    match l with [] => None | x :: l => Some (fold_left (λ m y, if leb m y then y else m) l x) end.

  (** [sort_by_cached_key]: a stable sort by an integer key. *)
  Fixpoint insert_key {A} (key : A → N) (x : A) (l : list A) : list A :=
    match l with
    | [] => [x]
    | y :: l' => if (key x <=? key y)%N then x :: l else y :: insert_key key x l'
    end.
  Fixpoint sort_key {A} (key : A → N) (l : list A) : list A :=
    match l with [] => [] | x :: l' => insert_key key x (sort_key key l') end.

  (** src/util.rs 13-17: [enumerate], with [i as IdType] truncating to 32 bits. *)
  Definition enumerate {A} (l : list A) : list (N * A) := imap (λ i x, (N.of_nat i mod u32_mod, x)%N) l.

  Definition hilbert_sort (points : list ((F * F * F) * V)) : option (list (N * ((F * F * F) * V))) :=
    let points := enumerate points in
    let xs := map (λ p, p.2.1.1.1) points in
    let ys := map (λ p, p.2.1.1.2) points in
    let zs := map (λ p, p.2.1.2) points in
    x0 ← min_by xs; y0 ← min_by ys; z0 ← min_by zs;
    x1 ← max_by xs; y1 ← max_by ys; z1 ← max_by zs;
    Some (sort_key (λ p, curve (norm x0 x1 p.2.1.1.1, norm y0 y1 p.2.1.1.2, norm z0 z1 p.2.1.2)) points).
End hilbert.
