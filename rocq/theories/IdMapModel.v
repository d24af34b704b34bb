(** Model of src/id_map.rs: a map from small integer ids to values that reuses ids. *)
From stdpp Require Import base numbers list gmap.
From Coq Require Import NArith.
Open Scope N_scope.

(** src/lib.rs 34-40 (macro [id!], [invalid]): ids are u32 and the reserved id is u32::MAX. *)
Definition u32_mod : N := 4294967296.
Definition invalid_id : N := 4294967295.

(** src/id_map.rs 20-25 [struct IdMap].  The [StableVec] is modelled by its occupied slots
    ([im_slots]) and its [next_push_index] ([im_npi]); its capacity is not modelled: it is
    only used to avoid a panic of [StableVec::remove].  [im_free] is the [Vec] of free ids, in
    [Vec] order (the last element is the top of the stack). *)
Record idmap (V : Type) := IdMap { im_slots : gmap N V; im_npi : N; im_free : list N }.
Global Arguments IdMap {V} _ _ _.
Global Arguments im_slots {V} _.
Global Arguments im_npi {V} _.
Global Arguments im_free {V} _.

(** [Vec::pop]. *)
Fixpoint vec_pop {A} (l : list A) : option (list A * A) :=
  match l with
  | [] => None
  | x :: l' => match vec_pop l' with
               | None => Some ([], x)
               | Some (r, y) => Some (x :: r, y)
               end
  end.

(** [Vec::remove(iter().position(|k| k == x).unwrap())]: removes the first occurrence,
    [None] (panic) if there is none.  Used in src/id_map.rs 101-102. *)
Fixpoint vec_remove_first (x : N) (l : list N) : option (list N) :=
  match l with
  | [] => None
  | y :: l' => if N.eqb y x then Some l'
               else match vec_remove_first x l' with
                    | None => None
                    | Some r => Some (y :: r)
                    end
  end.

(** The range [a..b] of ids, ascending. *)
Definition N_range (a b : N) : list N :=
  (λ i : nat, a + N.of_nat i) <$> seq 0 (N.to_nat (b - a)).

Section idmap.
  Context {V : Type}.
  Implicit Types (m : idmap V) (k : N) (v : V).

  (** src/id_map.rs 27-41 [Default], [new]. *)
  Definition im_empty : idmap V := IdMap ∅ 0 [].

  (** src/id_map.rs 43-50 [len].  [None] models the failing debug assertion (or the
      arithmetic underflow inside it). *)
  Definition im_len m : option N :=
    let n := N.of_nat (size (im_slots m)) in
    let f := N.of_nat (length (im_free m)) in
    if N.leb f (im_npi m) && N.eqb n (im_npi m - f) then Some n else None.

  (** src/id_map.rs 52-74 [get], [get_mut], [get_unchecked]. *)
  Definition im_get m k : option V := im_slots m !! k.

  (** [StableVec::insert] as used by id_map.rs: fills a slot and raises the push index. *)
  Definition sv_insert m k v : idmap V :=
    IdMap (<[k := v]> (im_slots m)) (N.max (im_npi m) (k + 1)) (im_free m).

  (** Writing through [get_mut] / [IndexMut] (src/id_map.rs 57-60, 244-249): [None] is the panic
      "Index does not exist". *)
  Definition im_set m k v : option (idmap V) :=
    match im_get m k with
    | Some _ => Some (IdMap (<[k := v]> (im_slots m)) (im_npi m) (im_free m))
    | None => None
    end.

  (** src/id_map.rs 76-85 [insert]; [idx as IdType] truncates to 32 bits. *)
  Definition im_insert m v : idmap V * N :=
    match vec_pop (im_free m) with
    | Some (free', k) => (sv_insert (IdMap (im_slots m) (im_npi m) free') k v, k)
    | None => (IdMap (<[im_npi m := v]> (im_slots m)) (im_npi m + 1) (im_free m),
               im_npi m mod u32_mod)
    end.

  (** src/id_map.rs 87-105 [insert_with_key]; [None] is the panic of [unwrap] in line 102. *)
  Definition im_insert_with_key m k v : option (idmap V * option V) :=
    let expanded := N.leb (im_npi m) k in
    let m1 := if expanded then IdMap (im_slots m) (im_npi m) (im_free m ++ N_range (im_npi m) k)
              else m in
    let old := im_slots m1 !! k in
    let m2 := sv_insert m1 k v in
    match old with
    | None => if expanded then Some (m2, old)
              else match vec_remove_first k (im_free m2) with
                   | None => None
                   | Some f => Some (IdMap (im_slots m2) (im_npi m2) f, old)
                   end
    | Some _ => Some (m2, old)
    end.

  (** src/id_map.rs 107-117 and 256-262 [extend_values], consumed to the end. *)
  Fixpoint im_extend_values m (vs : list V) : idmap V * list N :=
    match vs with
    | [] => (m, [])
    | v :: vs' => let '(m1, k) := im_insert m v in
                  let '(m2, ks) := im_extend_values m1 vs' in
                  (m2, k :: ks)
    end.

  (** src/id_map.rs 119-132 [remove]. *)
  Definition im_remove m k : idmap V * option V :=
    match im_slots m !! k with
    | Some v => (IdMap (delete k (im_slots m)) (im_npi m) (im_free m ++ [k]), Some v)
    | None => (m, None)
    end.

  (** src/id_map.rs 134-142 [retain], one iteration of the loop body. *)
  Definition im_retain_step (pred : N → V → bool) m k : idmap V :=
    match im_get m k with
    | Some v => if pred k v then m else fst (im_remove m k)
    | None => m
    end.

  (** src/id_map.rs 134-142 [retain]; the predicate is modelled as a pure function. *)
  Definition im_retain (pred : N → V → bool) m : idmap V :=
    fold_left (im_retain_step pred) (N_range 0 (im_npi m)) m.

  (** src/id_map.rs 144-148 [clear]. *)
  Definition im_clear (m : idmap V) : idmap V := IdMap ∅ 0 [].

  (** src/id_map.rs 150-156 and 196-206 [iter], [into_iter]: occupied slots in slot order. *)
  Definition im_iter m : list (N * V) :=
    omap (λ k, v ← im_slots m !! k; Some (k, v)) (N_range 0 (im_npi m)).
  (** src/id_map.rs 166-172 [keys]. *)
  Definition im_keys m : list N := (im_iter m).*1.
  (** src/id_map.rs 174-186 [values], [into_values]. *)
  Definition im_values m : list V := (im_iter m).*2.

  (** src/id_map.rs 208-215 [Extend]. *)
  Fixpoint im_extend m (kvs : list (N * V)) : option (idmap V) :=
    match kvs with
    | [] => Some m
    | (k, v) :: kvs' => match im_insert_with_key m k v with
                        | Some (m', _) => im_extend m' kvs'
                        | None => None
                        end
    end.

  (** src/id_map.rs 217-223 [FromIterator] for pairs. *)
  Definition im_from_pairs (kvs : list (N * V)) : option (idmap V) := im_extend im_empty kvs.

  (** src/id_map.rs 225-233 [FromIterator] for values: pushes all values. *)
  Fixpoint im_push_all m (vs : list V) : idmap V :=
    match vs with
    | [] => m
    | v :: vs' => im_push_all (IdMap (<[im_npi m := v]> (im_slots m)) (im_npi m + 1) (im_free m)) vs'
    end.
  Definition im_from_values (vs : list V) : idmap V := im_push_all im_empty vs.
End idmap.

(** Operations of an id map and their results, used to state the history theorems. *)
Inductive im_op (V : Type) :=
| OpInsert (v : V)
| OpInsertWithKey (k : N) (v : V)
| OpRemove (k : N)
| OpExtend (kvs : list (N * V))
| OpExtendValues (vs : list V)
| OpRetain (pred : N → V → bool)
| OpClear
| OpSet (k : N) (f : V → V).
Global Arguments OpInsert {V} _.
Global Arguments OpInsertWithKey {V} _ _.
Global Arguments OpRemove {V} _.
Global Arguments OpExtend {V} _.
Global Arguments OpExtendValues {V} _.
Global Arguments OpRetain {V} _.
Global Arguments OpClear {V}.
Global Arguments OpSet {V} _ _.

Inductive im_out (V : Type) :=
| OutKeys (ks : list N)
| OutOld (o : option V)
| OutUnit.
Global Arguments OutKeys {V} _.
Global Arguments OutOld {V} _.
Global Arguments OutUnit {V}.

(** One call.  [None] is a panic.  [OpSet k f] is an update through [get_mut] (no-op when the
    key is absent). *)
Definition im_step {V} (m : idmap V) (o : im_op V) : option (idmap V * im_out V) :=
  match o with
  | OpInsert v => let '(m', k) := im_insert m v in Some (m', OutKeys [k])
  | OpInsertWithKey k v => match im_insert_with_key m k v with
                           | Some (m', old) => Some (m', OutOld old)
                           | None => None
                           end
  | OpRemove k => let '(m', old) := im_remove m k in Some (m', OutOld old)
  | OpExtend kvs => match im_extend m kvs with
                    | Some m' => Some (m', OutUnit)
                    | None => None
                    end
  | OpExtendValues vs => let '(m', ks) := im_extend_values m vs in Some (m', OutKeys ks)
  | OpRetain p => Some (im_retain p m, OutUnit)
  | OpClear => Some (im_clear m, OutUnit)
  | OpSet k f => match im_get m k with
                 | Some v => match im_set m k (f v) with
                             | Some m' => Some (m', OutOld (Some v))
                             | None => None
                             end
                 | None => Some (m, OutOld None)
                 end
  end.

Fixpoint im_run {V} (m : idmap V) (os : list (im_op V)) : option (idmap V * list (im_out V)) :=
  match os with
  | [] => Some (m, [])
  | o :: os' => match im_step m o with
                | None => None
                | Some (m1, r) => match im_run m1 os' with
                                  | None => None
                                  | Some (m2, rs) => Some (m2, r :: rs)
                                  end
                end
  end.
