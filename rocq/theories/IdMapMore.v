(** Consequences of the id map invariant, in the form used by the property file. *)
From stdpp Require Import base numbers list gmap fin_maps.
From Coq Require Import NArith ZifyN ZifyNat ZifyBool Lia Sorted.
From Verif Require Import IdMapModel IdMapSpec IdMapProofs.
Open Scope N_scope.

Section more.
  Context {V : Type}.
  Implicit Types (m : idmap V).

  Lemma run_refines (os : list (im_op V)) : ops_slots os ≤ u32_mod →
    ∃ m rs a, im_run im_empty os = Some (m, rs) ∧
              spec_run (ImAbs ∅ 0) os rs a ∧ ∀ k, im_get m k = ab_map a !! k.
  Proof.
    intros Hb. destruct (wf_run os im_empty wf_empty) as (m & rs & E & Hwf & _ & Hs); [cbn; lia|].
    exists m, rs, (im_abs_of m). split; [done|]. split; [done|]. done.
  Qed.

  Lemma run_high (os : list (im_op V)) m rs : ops_slots os ≤ u32_mod →
    im_run im_empty os = Some (m, rs) →
    ∃ a, spec_run (ImAbs ∅ 0) os rs a ∧ im_npi m = ab_high a.
  Proof.
    intros Hb E. destruct (wf_run os im_empty wf_empty) as (m' & rs' & E' & Hwf & _ & Hs); [cbn; lia|].
    rewrite E in E'. injection E' as <- <-. exists (im_abs_of m). done.
  Qed.

  Lemma insert_fresh m (v : V) : im_reachable m → im_npi m < u32_mod →
    let '(m', k) := im_insert m v in
    im_get m k = None ∧ im_get m' k = Some v ∧
    (∀ k', k' ≠ k → im_get m' k' = im_get m k') ∧
    ((∃ h, h < im_npi m ∧ im_get m h = None) → k < im_npi m) ∧
    ((∀ h, h < im_npi m → im_get m h ≠ None) →
       k = im_npi m ∧ ∀ h, im_get m h ≠ None ↔ h < k).
  Proof.
    intros Hr%reachable_wf Hlt. pose proof (wf_insert m v Hr Hlt) as H.
    destruct (im_insert m v) as [m' k]. destruct H as (Hwf & (H1 & H2 & H3) & Ha).
    injection Ha as Hs Hn. unfold im_get. cbn in *.
    split; [done|]. rewrite Hs. split; [by rewrite lookup_insert|].
    split; [intros k' Hk'; by rewrite lookup_insert_ne|].
    split.
    - intros Hh. apply H2. done.
    - intros Hall. assert (k = im_npi m) as ->.
      { apply H3. intros (h & Hh & Hno). by apply (Hall h). }
      split; [done|]. intros h. split; [|apply Hall].
      intros Hh. apply (wf_bound _ Hr). by destruct (im_slots m !! h); [eauto|].
  Qed.

  Lemma len_counts m : im_reachable m →
    ∃ ks : list N, NoDup ks ∧ (∀ k, k ∈ ks ↔ im_get m k ≠ None) ∧
                   im_len m = Some (N.of_nat (length ks)).
  Proof.
    intros Hr%reachable_wf. exists (map_to_list (im_slots m)).*1.
    split; [apply NoDup_fst_map_to_list|]. split.
    - intros k. unfold im_get. rewrite elem_of_list_fmap. split.
      + intros ([k' v] & -> & Hk). apply elem_of_map_to_list in Hk. cbn. congruence.
      + intros Hk. destruct (im_slots m !! k) as [v|] eqn:E; [|done].
        exists (k, v). split; [done|]. by apply elem_of_map_to_list.
    - rewrite wf_len by done. rewrite fmap_length. done.
  Qed.

  Lemma iter_exact m : im_reachable m →
    (∀ k v, (k, v) ∈ im_iter m ↔ im_get m k = Some v) ∧
    StronglySorted N.lt (im_iter m).*1 ∧
    im_keys m = (im_iter m).*1 ∧ im_values m = (im_iter m).*2.
  Proof.
    intros Hr%reachable_wf. split; [intros; by apply elem_of_im_iter|].
    split; [apply im_keys_sorted|]. done.
  Qed.

  Lemma retain_exact m (p : N → V → bool) : im_reachable m →
    ∀ k v, im_get (im_retain p m) k = Some v ↔ im_get m k = Some v ∧ p k v = true.
  Proof. intros Hr%reachable_wf. by apply wf_retain. Qed.

  Lemma stores_fresh_exact (a a' : im_abs V) vs ks : stores_fresh a vs ks a' →
    length ks = length vs ∧ NoDup ks ∧
    (∀ k, k ∈ ks → ab_map a !! k = None) ∧
    (∀ i k v, ks !! i = Some k → vs !! i = Some v → ab_map a' !! k = Some v) ∧
    (∀ k, k ∉ ks → ab_map a' !! k = ab_map a !! k).
  Proof.
    induction 1 as [a|a v vs k ks a' (Hf & _) Hs IH].
    { split; [done|]. split; [apply NoDup_nil_2|]. split; [by intros ? ?%elem_of_nil|]. done. }
    destruct IH as (H1 & H2 & H3 & H4 & H5). cbn in H3, H5.
    assert (Hk : k ∉ ks).
    { intros Hin. apply H3 in Hin. by rewrite lookup_insert in Hin. }
    split; [cbn; lia|]. split; [by constructor|]. split; [|split].
    - intros k' [->|Hk']%elem_of_cons; [done|]. apply H3 in Hk'.
      destruct (decide (k = k')) as [<-|Hne]; [by rewrite lookup_insert in Hk'|].
      by rewrite lookup_insert_ne in Hk'.
    - intros [|i] k' v'; cbn.
      + intros [= <-] [= <-]. rewrite H5 by done. by rewrite lookup_insert.
      + apply H4.
    - intros k' [Hne Hk']%not_elem_of_cons. rewrite H5 by done. by rewrite lookup_insert_ne.
  Qed.

  Lemma extend_values_exact m (vs : list V) : im_reachable m →
    im_npi m + N.of_nat (length vs) ≤ u32_mod →
    let '(m', ks) := im_extend_values m vs in
    length ks = length vs ∧ NoDup ks ∧
    (∀ k, k ∈ ks → im_get m k = None) ∧
    (∀ i k v, ks !! i = Some k → vs !! i = Some v → im_get m' k = Some v) ∧
    (∀ k, k ∉ ks → im_get m' k = im_get m k).
  Proof.
    intros Hr%reachable_wf Hlt. pose proof (wf_extend_values vs m Hr Hlt) as H.
    destruct (im_extend_values m vs) as [m' ks]. destruct H as (_ & _ & Hs).
    exact (stores_fresh_exact _ _ _ _ Hs).
  Qed.

  Lemma from_values_exact (vs : list V) k : im_get (im_from_values vs) k = vs !! N.to_nat k.
  Proof.
    unfold im_get, im_from_values.
    destruct (im_push_all_wf vs im_empty wf_empty eq_refl) as (_ & _ & _ & H).
    rewrite H. cbn [im_npi im_empty]. rewrite N.sub_0_r.
    by destruct (N.ltb_spec k 0); [lia|].
  Qed.

  Lemma fold_store_map (kvs : list (N * V)) : ∀ a : im_abs V,
    ab_map (fold_left (λ a' kv, ab_store a' kv.1 kv.2) kvs a)
    = fold_left (λ M kv, <[kv.1 := kv.2]> M) kvs (ab_map a).
  Proof. induction kvs as [|[k v] kvs IH]; intros a; cbn; [done|]. by rewrite IH. Qed.

  Lemma fold_insert_lookup (kvs : list (N * V)) : ∀ (M : gmap N V) k v,
    fold_left (λ M kv, <[kv.1 := kv.2]> M) kvs M !! k = Some v ↔
    (∃ b c, kvs = b ++ (k, v) :: c ∧ k ∉ c.*1) ∨ (M !! k = Some v ∧ k ∉ kvs.*1).
  Proof.
    induction kvs as [|[k0 v0] kvs IH]; intros M k v; cbn.
    { split; [intros H; right; split; [done|]; by intros ?%elem_of_nil|].
      intros [(b & c & E & _)|[? ?]]; [by destruct b|done]. }
    rewrite IH. clear IH. rewrite not_elem_of_cons. split.
    - intros [(b & c & -> & Hc)|[Hl Hk]].
      + left. exists ((k0, v0) :: b), c. done.
      + destruct (decide (k0 = k)) as [->|Hne].
        * rewrite lookup_insert in Hl. injection Hl as ->. left. exists [], kvs. done.
        * rewrite lookup_insert_ne in Hl by done. right. done.
    - intros [(b & c & E & Hc)|[Hl [Hk1 Hk2]]].
      + destruct b as [|? b]; cbn in E.
        * injection E as -> -> ->. right. by rewrite lookup_insert.
        * injection E as <- ->. left. exists b, c. done.
      + right. by rewrite lookup_insert_ne.
  Qed.

  Lemma from_pairs_exact (kvs : list (N * V)) :
    ∃ m, im_from_pairs kvs = Some m ∧
    ∀ k v, im_get m k = Some v ↔
           ∃ before after, kvs = before ++ (k, v) :: after ∧ k ∉ after.*1.
  Proof.
    destruct (wf_extend kvs im_empty wf_empty) as (m & E & Hwf & Ha & _).
    exists m. split; [done|]. intros k v. unfold im_get.
    change (im_slots m) with (ab_map (im_abs_of m)). rewrite Ha, fold_store_map.
    rewrite fold_insert_lookup. split; [|by left].
    intros [H|[H _]]; [done|]. cbn in H. by rewrite lookup_empty in H.
  Qed.

  Lemma insert_not_invalid m (v : V) : im_reachable m → im_npi m < invalid_id →
    (im_insert m v).2 ≠ invalid_id.
  Proof.
    intros Hr Hlt. pose proof (insert_fresh m v Hr) as H.
    assert (im_npi m < u32_mod) as Hlt' by (unfold invalid_id, u32_mod in *; lia).
    specialize (H Hlt'). destruct (im_insert m v) as [m' k]. cbn.
    destruct H as (_ & _ & _ & H1 & H2).
    apply reachable_wf in Hr.
    destruct (decide (im_free m = [])) as [E|E].
    - destruct H2 as [-> _]; [|lia].
      intros h Hh Hno. assert (h ∈ im_free m) by (apply (wf_free _ Hr); done).
      rewrite E in H. by apply elem_of_nil in H.
    - destruct (im_free m) as [|h f] eqn:E'; [done|].
      assert (k < im_npi m); [|lia]. apply H1. exists h.
      apply (wf_free _ Hr). rewrite E'. by left.
  Qed.

  Lemma from_values_shape (vs : list V) :
    im_free (im_from_values vs) = [] ∧ im_npi (im_from_values vs) = N.of_nat (length vs).
  Proof.
    destruct (im_push_all_wf vs im_empty wf_empty eq_refl) as (_ & H1 & H2 & _).
    split; [done|]. unfold im_from_values. rewrite H2. cbn. lia.
  Qed.

  Lemma insert_at_limit (vs : list V) (v : V) : N.of_nat (length vs) = invalid_id →
    (im_insert (im_from_values vs) v).2 = invalid_id.
  Proof.
    intros Hlen. destruct (from_values_shape vs) as [Hf Hn]. unfold im_insert.
    rewrite Hf. cbn [vec_pop snd]. rewrite Hn, Hlen. done.
  Qed.

  Lemma insert_wraps (vs : list V) (v w : V) :
    N.of_nat (length vs) = u32_mod → vs !! 0%nat = Some w →
    let '(m', k) := im_insert (im_from_values vs) v in
    k = 0 ∧ im_get (im_from_values vs) k = Some w ∧ im_get m' k = Some w.
  Proof.
    intros Hlen Hw. destruct (from_values_shape vs) as [Hf Hn]. unfold im_insert.
    rewrite Hf. cbn [vec_pop]. rewrite Hn, Hlen. split; [done|].
    replace (u32_mod mod u32_mod) with 0 by done.
    assert (E : im_get (im_from_values vs) 0 = Some w).
    { rewrite from_values_exact. done. }
    split; [done|]. unfold im_get in *. cbn [im_slots]. by rewrite lookup_insert_ne.
  Qed.
End more.
