(** Specification of an id map, independent of slots and free lists: a finite partial map plus
    the high-water mark (one more than the largest id stored since the last clear). *)
From stdpp Require Import base numbers list gmap.
From Coq Require Import NArith.
From Verif Require Import IdMapModel.
Open Scope N_scope.

Record im_abs (V : Type) := ImAbs { ab_map : gmap N V; ab_high : N }.
Global Arguments ImAbs {V} _ _.
Global Arguments ab_map {V} _.
Global Arguments ab_high {V} _.

(** There is an id below the high-water mark that is currently unused. *)
Definition has_hole {V} (a : im_abs V) : Prop := ∃ k, k < ab_high a ∧ ab_map a !! k = None.

(** The id handed out for a new value: unused; a recycled id if there is one, else the
    high-water mark itself. *)
Definition fresh_for {V} (a : im_abs V) (k : N) : Prop :=
  ab_map a !! k = None ∧ (has_hole a → k < ab_high a) ∧ (¬ has_hole a → k = ab_high a).

Definition ab_store {V} (a : im_abs V) (k : N) (v : V) : im_abs V :=
  ImAbs (<[k := v]> (ab_map a)) (N.max (ab_high a) (k + 1)).

Inductive stores_fresh {V} : im_abs V → list V → list N → im_abs V → Prop :=
| sf_nil a : stores_fresh a [] [] a
| sf_cons a v vs k ks a' :
    fresh_for a k → stores_fresh (ab_store a k v) vs ks a' →
    stores_fresh a (v :: vs) (k :: ks) a'.

(** What each call must return and do. *)
Inductive spec_step {V} : im_abs V → im_op V → im_out V → im_abs V → Prop :=
| sp_insert a v k : fresh_for a k → spec_step a (OpInsert v) (OutKeys [k]) (ab_store a k v)
| sp_insert_with_key a k v :
    spec_step a (OpInsertWithKey k v) (OutOld (ab_map a !! k)) (ab_store a k v)
| sp_remove a k :
    spec_step a (OpRemove k) (OutOld (ab_map a !! k)) (ImAbs (delete k (ab_map a)) (ab_high a))
| sp_extend a kvs :
    spec_step a (OpExtend kvs) OutUnit (fold_left (λ a' kv, ab_store a' kv.1 kv.2) kvs a)
| sp_extend_values a vs ks a' :
    stores_fresh a vs ks a' → spec_step a (OpExtendValues vs) (OutKeys ks) a'
| sp_retain a p a' :
    (∀ k v, ab_map a' !! k = Some v ↔ ab_map a !! k = Some v ∧ p k v = true) →
    ab_high a' = ab_high a →
    spec_step a (OpRetain p) OutUnit a'
| sp_clear a : spec_step a OpClear OutUnit (ImAbs ∅ 0)
| sp_set a k f :
    spec_step a (OpSet k f) (OutOld (ab_map a !! k))
      (ImAbs (alter f k (ab_map a)) (ab_high a)).

Inductive spec_run {V} : im_abs V → list (im_op V) → list (im_out V) → im_abs V → Prop :=
| sr_nil a : spec_run a [] [] a
| sr_cons a o r a1 os rs a2 :
    spec_step a o r a1 → spec_run a1 os rs a2 → spec_run a (o :: os) (r :: rs) a2.

(** Number of slots a call can newly occupy; used to state that 32-bit ids do not overflow. *)
Definition op_slots {V} (o : im_op V) : N :=
  match o with
  | OpInsert _ => 1
  | OpInsertWithKey k _ => k + 1
  | OpExtend kvs => foldr (λ kv n, kv.1 + 1 + n) 0 kvs
  | OpExtendValues vs => N.of_nat (length vs)
  | OpRemove _ | OpRetain _ | OpClear | OpSet _ _ => 0
  end.
Definition ops_slots {V} (os : list (im_op V)) : N := foldr (λ o n, op_slots o + n) 0 os.
