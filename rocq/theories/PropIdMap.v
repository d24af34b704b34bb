(** C01-C06: the id map. *)
From stdpp Require Import base numbers list gmap fin_maps.
From Coq Require Import NArith ZifyN ZifyNat ZifyBool Lia Sorted.
From Verif Require Import IdMapModel IdMapSpec IdMapProofs IdMapMore.
Open Scope N_scope.

(** C01.  Any history of calls (with fewer than 2^32 slots) runs without panic and every result
    and every final lookup is that of a plain partial map. *)
Theorem C01_idmap_behaves_as_partial_map :
  ∀ (V : Type) (os : list (im_op V)), ops_slots os ≤ u32_mod →
  ∃ m rs a, im_run im_empty os = Some (m, rs) ∧
            spec_run (ImAbs ∅ 0) os rs a ∧
            ∀ k, im_get m k = ab_map a !! k.
Proof. exact @run_refines. Qed.
Print Assumptions C01_idmap_behaves_as_partial_map.

(** C02.  [insert] stores under an id that was not in use and touches no other id; if some id
    below an id used before is free the result is such a recycled id, otherwise the ids in use are
    exactly [0..k) and the result is [k]. *)
Theorem C02_insert_returns_fresh_id :
  ∀ (V : Type) (m : idmap V) (v : V), im_reachable m → im_npi m < u32_mod →
  let '(m', k) := im_insert m v in
  im_get m k = None ∧ im_get m' k = Some v ∧
  (∀ k', k' ≠ k → im_get m' k' = im_get m k') ∧
  ((∃ h, h < im_npi m ∧ im_get m h = None) → k < im_npi m) ∧
  ((∀ h, h < im_npi m → im_get m h ≠ None) →
     k = im_npi m ∧ ∀ h, im_get m h ≠ None ↔ h < k).
Proof. exact @insert_fresh. Qed.
Print Assumptions C02_insert_returns_fresh_id.

(** C02, histories: the high-water mark [im_npi] used above is one more than the largest id
    stored since the last clear (this is the [ab_high] component of the specification). *)
Theorem C02_high_water_mark :
  ∀ (V : Type) (os : list (im_op V)) m rs, ops_slots os ≤ u32_mod →
  im_run im_empty os = Some (m, rs) →
  ∃ a, spec_run (ImAbs ∅ 0) os rs a ∧ im_npi m = ab_high a.
Proof. exact @run_high. Qed.
Print Assumptions C02_high_water_mark.

(** C03.  [len] succeeds and counts the ids in use. *)
Theorem C03_len_counts_live_ids :
  ∀ (V : Type) (m : idmap V), im_reachable m →
  ∃ ks : list N, NoDup ks ∧ (∀ k, k ∈ ks ↔ im_get m k ≠ None) ∧
                 im_len m = Some (N.of_nat (length ks)).
Proof. exact @len_counts. Qed.
Print Assumptions C03_len_counts_live_ids.

(** C04.  Iteration is exact, duplicate free and ascending. *)
Theorem C04_iteration_exact_and_ascending :
  ∀ (V : Type) (m : idmap V), im_reachable m →
  (∀ k v, (k, v) ∈ im_iter m ↔ im_get m k = Some v) ∧
  StronglySorted N.lt (im_iter m).*1 ∧
  im_keys m = (im_iter m).*1 ∧ im_values m = (im_iter m).*2.
Proof. exact @iter_exact. Qed.
Print Assumptions C04_iteration_exact_and_ascending.

(** C05.  [retain] keeps exactly the entries satisfying the predicate. *)
Theorem C05_retain_exact :
  ∀ (V : Type) (m : idmap V) (p : N → V → bool), im_reachable m →
  ∀ k v, im_get (im_retain p m) k = Some v ↔ im_get m k = Some v ∧ p k v = true.
Proof. exact @retain_exact. Qed.
Print Assumptions C05_retain_exact.

(** C05.  [extend_values] gives the values pairwise different, previously unused ids, in order. *)
Theorem C05_extend_values :
  ∀ (V : Type) (m : idmap V) (vs : list V), im_reachable m →
  im_npi m + N.of_nat (length vs) ≤ u32_mod →
  let '(m', ks) := im_extend_values m vs in
  length ks = length vs ∧ NoDup ks ∧
  (∀ k, k ∈ ks → im_get m k = None) ∧
  (∀ i k v, ks !! i = Some k → vs !! i = Some v → im_get m' k = Some v) ∧
  (∀ k, k ∉ ks → im_get m' k = im_get m k).
Proof. exact @extend_values_exact. Qed.
Print Assumptions C05_extend_values.

(** C05.  Collecting values numbers them [0..n). *)
Theorem C05_collect_values :
  ∀ (V : Type) (vs : list V) (k : N), im_get (im_from_values vs) k = vs !! N.to_nat k.
Proof. exact @from_values_exact. Qed.
Print Assumptions C05_collect_values.

(** C05.  Collecting pairs keeps the last value given for each key. *)
Theorem C05_collect_pairs :
  ∀ (V : Type) (kvs : list (N * V)),
  ∃ m, im_from_pairs kvs = Some m ∧
  ∀ k v, im_get m k = Some v ↔
         ∃ before after, kvs = before ++ (k, v) :: after ∧ k ∉ after.*1.
Proof. exact @from_pairs_exact. Qed.
Print Assumptions C05_collect_pairs.

(** C06.  With fewer than 2^32-1 slots no id handed out is the reserved one. *)
Theorem C06_insert_never_returns_reserved_id :
  ∀ (V : Type) (m : idmap V) (v : V), im_reachable m → im_npi m < invalid_id →
  (im_insert m v).2 ≠ invalid_id.
Proof. exact @insert_not_invalid. Qed.
Print Assumptions C06_insert_never_returns_reserved_id.

(** C06.  The bound is sharp: after 2^32-1 values the next id is the reserved one. *)
Theorem C06_reserved_id_at_the_limit :
  ∀ (V : Type) (vs : list V) (v : V), N.of_nat (length vs) = invalid_id →
  (im_insert (im_from_values vs) v).2 = invalid_id.
Proof. exact @insert_at_limit. Qed.
Print Assumptions C06_reserved_id_at_the_limit.

(** C02/C06.  Freshness without the bound is false of the code: after 2^32 values [insert] returns
    the id 0 of a value that is still stored. *)
Theorem C02_unbounded_freshness_refuted :
  ∀ (V : Type) (vs : list V) (v w : V), N.of_nat (length vs) = u32_mod → vs !! 0%nat = Some w →
  let '(m', k) := im_insert (im_from_values vs) v in
  k = 0 ∧ im_get (im_from_values vs) k = Some w ∧ im_get m' k = Some w.
Proof. exact @insert_wraps. Qed.
Print Assumptions C02_unbounded_freshness_refuted.

(** Witnesses: a history with holes, explicit keys and recycling. *)
Definition demo_ops : list (im_op N) :=
  [OpInsert 10; OpInsert 11; OpInsertWithKey 5 12; OpRemove 1; OpInsert 13; OpInsert 14;
   OpExtendValues [20; 21; 22]; OpRetain (λ k _, N.even k); OpInsertWithKey 0 99; OpInsert 30].
Example demo_ops_bound : ops_slots demo_ops ≤ u32_mod.
Proof. vm_compute. done. Qed.
Example demo_ops_run :
  ∃ m, im_run im_empty demo_ops
       = Some (m, [OutKeys [0]; OutKeys [1]; OutOld None; OutOld (Some 11); OutKeys [1];
                   OutKeys [4]; OutKeys [3; 2; 6]; OutUnit; OutOld (Some 10); OutKeys [5]])
       ∧ im_iter m = [(0, 99); (2, 21); (4, 14); (5, 30); (6, 22)] ∧ im_len m = Some 5.
Proof. eexists. split; [vm_compute; reflexivity|]. vm_compute. done. Qed.
Example demo_reachable : ∃ m : idmap N, im_reachable m ∧ im_npi m = 7 ∧ im_free m = [1; 3].
Proof.
  eexists. split; [|split].
  - exists demo_ops. eexists. split; [vm_compute; done|]. vm_compute. reflexivity.
  - done.
  - done.
Qed.
Example limit_list_exists : ∃ vs : list unit, N.of_nat (length vs) = invalid_id.
Proof. exists (replicate (N.to_nat invalid_id) tt). rewrite replicate_length. apply N2Nat.id. Qed.
Example wrap_list_exists : ∃ vs : list unit, N.of_nat (length vs) = u32_mod ∧ vs !! 0%nat = Some tt.
Proof.
  exists (replicate (N.to_nat u32_mod) tt). rewrite replicate_length. split; [apply N2Nat.id|].
  apply lookup_replicate. split; [done|]. assert (0 < u32_mod) by done. lia.
Qed.
