(** Proofs about the id map model. *)
From stdpp Require Import base numbers list gmap fin_maps.
From Coq Require Import NArith ZifyN ZifyNat ZifyBool Lia Sorted.
From Verif Require Import IdMapModel IdMapSpec.
Open Scope N_scope.

Lemma vec_pop_None {A} (l : list A) : vec_pop l = None ↔ l = [].
Proof.
  split; [|intros ->; done].
  destruct l as [|x l]; [done|]. cbn. destruct (vec_pop l) as [[? ?]|]; done.
Qed.

Lemma vec_pop_Some {A} (l r : list A) (x : A) : vec_pop l = Some (r, x) → l = r ++ [x].
Proof.
  revert r. induction l as [|y l IH]; intros r; cbn; [done|].
  destruct (vec_pop l) as [[r' z]|] eqn:E.
  - intros [= <- <-]. rewrite (IH r' eq_refl). done.
  - intros [= <- <-]. apply vec_pop_None in E as ->. done.
Qed.

Lemma elem_of_N_range a b k : k ∈ N_range a b ↔ a ≤ k ∧ k < b.
Proof.
  unfold N_range. rewrite elem_of_list_fmap. split.
  - intros [i [-> Hi]]. apply elem_of_seq in Hi. lia.
  - intros [H1 H2]. exists (N.to_nat (k - a)). split; [lia|]. apply elem_of_seq. lia.
Qed.

Lemma NoDup_N_range a b : NoDup (N_range a b).
Proof. unfold N_range. apply NoDup_fmap_2; [intros x y; lia|]. apply NoDup_seq. Qed.

Lemma length_N_range a b : length (N_range a b) = N.to_nat (b - a).
Proof. unfold N_range. rewrite fmap_length, seq_length. done. Qed.

Lemma N_range_snoc a b : a ≤ b → N_range a (b + 1) = N_range a b ++ [b].
Proof.
  intros H. unfold N_range.
  replace (N.to_nat (b + 1 - a)) with (N.to_nat (b - a) + 1)%nat by lia.
  rewrite seq_app, fmap_app. cbn. do 2 f_equal. lia.
Qed.

Lemma vec_remove_first_Some x l r :
  vec_remove_first x l = Some r → ∃ l1 l2, l = l1 ++ x :: l2 ∧ r = l1 ++ l2.
Proof.
  revert r. induction l as [|y l IH]; intros r; cbn; [done|].
  destruct (N.eqb_spec y x) as [->|Hne].
  - intros [= <-]. exists [], l. done.
  - destruct (vec_remove_first x l) as [r'|]; [|done]. intros [= <-].
    destruct (IH r' eq_refl) as (l1 & l2 & -> & ->). exists (y :: l1), l2. done.
Qed.

Lemma vec_remove_first_is_Some x l : x ∈ l → is_Some (vec_remove_first x l).
Proof.
  induction l as [|y l IH]; [by intros ?%elem_of_nil|].
  intros H. cbn. destruct (N.eqb_spec y x) as [->|Hne]; [eauto|].
  apply elem_of_cons in H as [->|H]; [done|].
  destruct (IH H) as [r ->]. eauto.
Qed.

Section proofs.
  Context {V : Type}.
  Implicit Types (m : idmap V).

  (** The slot/free-list invariant. *)
  Record im_wf m : Prop := {
    wf_bound : ∀ k, is_Some (im_slots m !! k) → k < im_npi m;
    wf_free : ∀ k, k ∈ im_free m ↔ k < im_npi m ∧ im_slots m !! k = None;
    wf_nodup : NoDup (im_free m) }.

  Definition im_abs_of m : im_abs V := ImAbs (im_slots m) (im_npi m).

  Lemma wf_empty : im_wf (@im_empty V).
  Proof.
    split; cbn.
    - intros k [v Hv]. rewrite lookup_empty in Hv. done.
    - intros k. split; [by intros ?%elem_of_nil|]. lia.
    - apply NoDup_nil_2.
  Qed.

  Lemma wf_insert m v : im_wf m → im_npi m < u32_mod →
    let '(m', k) := im_insert m v in
    im_wf m' ∧ fresh_for (im_abs_of m) k ∧ im_abs_of m' = ab_store (im_abs_of m) k v.
  Proof.
    intros Hwf Hlt. unfold im_insert.
    destruct (vec_pop (im_free m)) as [[f k]|] eqn:E.
    - apply vec_pop_Some in E. destruct Hwf as [Hb Hf Hn].
      assert (Hk : k < im_npi m ∧ im_slots m !! k = None).
      { apply Hf. rewrite E. apply elem_of_app. right. by apply elem_of_list_singleton. }
      destruct Hk as [Hk Hnone].
      rewrite E in Hn. apply NoDup_app in Hn as (Hn1 & Hn2 & _).
      assert (Hkf : k ∉ f).
      { intros Hin. apply (Hn2 k Hin). by apply elem_of_list_singleton. }
      split; [|split].
      + split; cbn.
        * intros k' [v' Hv']. destruct (decide (k' = k)) as [->|Hne]; [lia|].
          rewrite lookup_insert_ne in Hv' by done.
          assert (k' < im_npi m) by (apply Hb; eauto). lia.
        * intros k'. replace (N.max (im_npi m) (k + 1)) with (im_npi m) by lia.
          destruct (decide (k' = k)) as [->|Hne].
          -- rewrite lookup_insert. split; [done|]. intros [_ ?]; done.
          -- rewrite lookup_insert_ne by done. rewrite <- Hf, E.
             rewrite elem_of_app, elem_of_list_singleton. naive_solver.
        * done.
      + split; [|split]; cbn.
        * done.
        * intros _. done.
        * intros Hno. exfalso. apply Hno. exists k. done.
      + done.
    - apply vec_pop_None in E. destruct Hwf as [Hb Hf Hn].
      rewrite N.mod_small by done.
      assert (Hnone : im_slots m !! im_npi m = None).
      { destruct (im_slots m !! im_npi m) eqn:E'; [|done].
        assert (im_npi m < im_npi m) by (apply Hb; eauto). lia. }
      assert (Hnh : ∀ k, k < im_npi m → im_slots m !! k ≠ None).
      { intros k Hk Hno. assert (k ∈ im_free m) by (apply Hf; done).
        rewrite E in H. by apply elem_of_nil in H. }
      split; [|split].
      + split; cbn.
        * intros k' [v' Hv']. destruct (decide (k' = im_npi m)) as [->|Hne]; [lia|].
          rewrite lookup_insert_ne in Hv' by done.
          assert (k' < im_npi m) by (apply Hb; eauto). lia.
        * intros k'. rewrite E. split; [by intros ?%elem_of_nil|]. intros [H1 H2].
          destruct (decide (k' = im_npi m)) as [->|Hne].
          -- by rewrite lookup_insert in H2.
          -- rewrite lookup_insert_ne in H2 by done. exfalso.
             apply (Hnh k'); [lia|done].
        * done.
      + split; [|split]; cbn; [done| |done].
        intros (k & Hk & Hno). cbn in *. exfalso. by apply (Hnh k).
      + unfold im_abs_of, ab_store; cbn. f_equal. lia.
  Qed.

  Lemma im_insert_npi m v : im_wf m → im_npi m < u32_mod →
    im_npi (fst (im_insert m v)) ≤ im_npi m + 1.
  Proof.
    intros Hwf Hlt. unfold im_insert.
    destruct (vec_pop (im_free m)) as [[f k]|] eqn:E; cbn; [|lia].
    apply vec_pop_Some in E. destruct Hwf as [Hb Hf Hn].
    assert (k < im_npi m).
    { apply Hf. rewrite E. apply elem_of_app. right. by apply elem_of_list_singleton. }
    lia.
  Qed.

  Lemma wf_insert_with_key m k v : im_wf m →
    ∃ m', im_insert_with_key m k v = Some (m', im_slots m !! k) ∧ im_wf m' ∧
          im_abs_of m' = ab_store (im_abs_of m) k v.
  Proof.
    intros [Hb Hf Hn]. unfold im_insert_with_key.
    destruct (N.leb_spec (im_npi m) k) as [Hle|Hlt].
    - cbn. assert (Hnone : im_slots m !! k = None).
      { destruct (im_slots m !! k) eqn:E; [|done].
        assert (k < im_npi m) by (apply Hb; eauto). lia. }
      rewrite Hnone. eexists. split; [reflexivity|]. split; [|done].
      split; cbn.
      + intros k' [v' Hv']. destruct (decide (k' = k)) as [->|Hne]; [lia|].
        rewrite lookup_insert_ne in Hv' by done.
        assert (k' < im_npi m) by (apply Hb; eauto). lia.
      + intros k'. rewrite elem_of_app, Hf, elem_of_N_range.
        destruct (decide (k' = k)) as [->|Hne].
        * rewrite lookup_insert. split; [|naive_solver]. intros [[? ?]|[? ?]]; lia.
        * rewrite lookup_insert_ne by done. split.
          -- intros [[? ?]|[? ?]]; (split; [lia|]); [done|].
             destruct (im_slots m !! k') eqn:E; [|done].
             assert (k' < im_npi m) by (apply Hb; eauto). lia.
          -- intros [H1 H2]. destruct (N.lt_ge_cases k' (im_npi m)); [left; done|right; lia].
      + apply NoDup_app. split; [done|]. split; [|apply NoDup_N_range].
        intros x Hx Hx'. apply Hf in Hx. apply elem_of_N_range in Hx'. lia.
    - cbn. destruct (im_slots m !! k) as [old|] eqn:Eold.
      + eexists. split; [reflexivity|]. split; [|done].
        split; cbn.
        * intros k' [v' Hv']. destruct (decide (k' = k)) as [->|Hne]; [lia|].
          rewrite lookup_insert_ne in Hv' by done.
          assert (k' < im_npi m) by (apply Hb; eauto). lia.
        * intros k'. replace (N.max (im_npi m) (k + 1)) with (im_npi m) by lia.
          rewrite Hf. destruct (decide (k' = k)) as [->|Hne].
          -- rewrite lookup_insert, Eold. naive_solver.
          -- by rewrite lookup_insert_ne.
        * done.
      + assert (Hin : k ∈ im_free m) by (apply Hf; done).
        destruct (vec_remove_first_is_Some k (im_free m) Hin) as [r Hr].
        rewrite Hr. eexists. split; [reflexivity|]. split; [|done].
        apply vec_remove_first_Some in Hr as (l1 & l2 & E & ->).
        rewrite E in Hn. apply NoDup_app in Hn as (Hn1 & Hn2 & Hn3).
        apply NoDup_cons in Hn3 as [Hn3 Hn4].
        split; cbn.
        * intros k' [v' Hv']. destruct (decide (k' = k)) as [->|Hne]; [lia|].
          rewrite lookup_insert_ne in Hv' by done.
          assert (k' < im_npi m) by (apply Hb; eauto). lia.
        * intros k'. replace (N.max (im_npi m) (k + 1)) with (im_npi m) by lia.
          destruct (decide (k' = k)) as [->|Hne].
          -- rewrite lookup_insert. split; [|naive_solver].
             rewrite elem_of_app. intros [H|H]; [|done].
             exfalso. apply (Hn2 k H). by left.
          -- rewrite lookup_insert_ne by done. rewrite <- Hf, E.
             rewrite !elem_of_app, elem_of_cons. naive_solver.
        * apply NoDup_app. split; [done|]. split; [|done].
          intros x Hx1 Hx2. apply (Hn2 x Hx1). by right.
  Qed.

  Lemma wf_set m k v : im_wf m → is_Some (im_get m k) →
    ∃ m', im_set m k v = Some m' ∧ im_wf m' ∧
      im_abs_of m' = ImAbs (<[k := v]> (im_slots m)) (im_npi m).
  Proof.
    intros [Hb Hf Hn] [o Ho]. unfold im_set. rewrite Ho. unfold im_get in Ho.
    eexists. split; [done|]. split; [|done]. split; cbn.
    - intros k' Hk'. destruct (decide (k' = k)) as [->|Hne]; [apply Hb; eauto|].
      rewrite lookup_insert_ne in Hk' by done. eauto.
    - intros k'. rewrite Hf. destruct (decide (k' = k)) as [->|Hne].
      + rewrite lookup_insert, Ho. naive_solver.
      + by rewrite lookup_insert_ne.
    - done.
  Qed.

  Lemma wf_remove m k : im_wf m →
    let '(m', old) := im_remove m k in
    im_wf m' ∧ old = im_slots m !! k ∧
    im_abs_of m' = ImAbs (delete k (im_slots m)) (im_npi m).
  Proof.
    intros [Hb Hf Hn]. unfold im_remove.
    destruct (im_slots m !! k) as [v|] eqn:E.
    - split; [|done]. split; cbn.
      + intros k' [v' Hv']. apply lookup_delete_Some in Hv' as [_ Hv']. apply Hb; eauto.
      + intros k'. rewrite elem_of_app, elem_of_list_singleton, Hf, lookup_delete_None.
        assert (k < im_npi m) by (apply Hb; eauto).
        split; [intros [?| ->]; naive_solver|].
        intros [? [->|?]]; naive_solver.
      + apply NoDup_app. split; [done|]. split.
        * intros x Hx. rewrite elem_of_list_singleton. intros ->. apply Hf in Hx.
          destruct Hx as [_ Hx]. congruence.
        * apply NoDup_singleton.
    - split; [done|]. split; [done|].
      unfold im_abs_of. f_equal. by rewrite delete_notin.
  Qed.

  Lemma wf_retain_fold p ks m : im_wf m →
    let m' := fold_left (im_retain_step p) ks m in
    im_wf m' ∧ im_npi m' = im_npi m ∧
    ∀ k v, im_slots m' !! k = Some v ↔
           im_slots m !! k = Some v ∧ (k ∈ ks → p k v = true).
  Proof.
    revert m. induction ks as [|x ks IH]; intros m Hwf; cbn.
    { split; [done|]. split; [done|]. intros k v. split; [|naive_solver].
      intros H; split; [done|]. by intros ?%elem_of_nil. }
    assert (Hstep : im_wf (im_retain_step p m x) ∧
       im_npi (im_retain_step p m x) = im_npi m ∧
       ∀ k v, im_slots (im_retain_step p m x) !! k = Some v ↔
              im_slots m !! k = Some v ∧ (k = x → p k v = true)).
    { unfold im_retain_step, im_get. destruct (im_slots m !! x) as [v|] eqn:E.
      - destruct (p x v) eqn:Ep.
        + split; [done|]. split; [done|]. intros k w. naive_solver.
        + pose proof (wf_remove m x Hwf) as Hr. destruct (im_remove m x) as [m' old].
          cbn. destruct Hr as (Hwf' & _ & Ha). split; [done|].
          injection Ha as Hs Hn. split; [done|].
          intros k w. rewrite Hs, lookup_delete_Some. split; [naive_solver|].
          intros [Hk Hp]. split; [|done]. intros <-. rewrite E in Hk. injection Hk as ->.
          rewrite Hp in Ep; done.
      - split; [done|]. split; [done|]. intros k w. split; [|naive_solver].
        intros Hk. split; [done|]. intros ->. congruence. }
    destruct Hstep as (Hwf1 & Hn1 & Hs1).
    destruct (IH _ Hwf1) as (Hwf2 & Hn2 & Hs2).
    split; [done|]. split; [by rewrite Hn2|].
    intros k v. rewrite Hs2, Hs1, elem_of_cons. naive_solver.
  Qed.

  Lemma wf_retain p m : im_wf m →
    im_wf (im_retain p m) ∧ im_npi (im_retain p m) = im_npi m ∧
    ∀ k v, im_slots (im_retain p m) !! k = Some v ↔ im_slots m !! k = Some v ∧ p k v = true.
  Proof.
    intros Hwf. destruct (wf_retain_fold p (N_range 0 (im_npi m)) m Hwf) as (H1 & H2 & H3).
    split; [done|]. split; [done|]. intros k v. unfold im_retain. rewrite H3.
    split; intros [Hk Hp]; (split; [done|]); [|naive_solver].
    apply Hp. apply elem_of_N_range. split; [lia|]. apply (wf_bound _ Hwf). eauto.
  Qed.

  Lemma wf_extend_values vs : ∀ m, im_wf m → im_npi m + N.of_nat (length vs) ≤ u32_mod →
    let '(m', ks) := im_extend_values m vs in
    im_wf m' ∧ im_npi m' ≤ im_npi m + N.of_nat (length vs) ∧
    stores_fresh (im_abs_of m) vs ks (im_abs_of m').
  Proof.
    induction vs as [|v vs IH]; intros m Hwf Hlen.
    { cbn. split; [done|]. split; [lia|]. constructor. }
    cbn in Hlen. cbn [im_extend_values].
    assert (Hlt : im_npi m < u32_mod) by lia.
    pose proof (wf_insert m v Hwf Hlt) as Hi. pose proof (im_insert_npi m v Hwf Hlt) as Hn.
    destruct (im_insert m v) as [m1 k]. cbn in Hn. destruct Hi as (Hwf1 & Hfr & Ha).
    specialize (IH m1 Hwf1). destruct (im_extend_values m1 vs) as [m2 ks].
    destruct IH as (Hwf2 & Hn2 & Hsf); [lia|].
    split; [done|]. split; [cbn; lia|]. econstructor; [done|]. by rewrite <- Ha.
  Qed.

  Lemma wf_extend kvs : ∀ m, im_wf m →
    ∃ m', im_extend m kvs = Some m' ∧ im_wf m' ∧
      im_abs_of m' = fold_left (λ a' kv, ab_store a' kv.1 kv.2) kvs (im_abs_of m) ∧
      im_npi m' ≤ im_npi m + foldr (λ kv n, kv.1 + 1 + n) 0 kvs.
  Proof.
    induction kvs as [|[k v] kvs IH]; intros m Hwf; cbn.
    { eexists. split; [done|]. split; [done|]. split; [done|]. lia. }
    destruct (wf_insert_with_key m k v Hwf) as (m1 & -> & Hwf1 & Ha).
    destruct (IH m1 Hwf1) as (m2 & -> & Hwf2 & Ha2 & Hn2).
    eexists. split; [done|]. split; [done|]. split.
    - by rewrite Ha2, Ha.
    - assert (im_npi m1 = N.max (im_npi m) (k + 1)) by (injection Ha; done). lia.
  Qed.

  Lemma wf_step m o : im_wf m → im_npi m + op_slots o ≤ u32_mod →
    ∃ m' r, im_step m o = Some (m', r) ∧ im_wf m' ∧
      im_npi m' ≤ im_npi m + op_slots o ∧
      spec_step (im_abs_of m) o r (im_abs_of m').
  Proof.
    intros Hwf Hlt. destruct o as [v|k v|k|kvs|vs|p| |k f]; cbn -[im_insert im_insert_with_key u32_mod] in *.
    - assert (Hlt' : im_npi m < u32_mod) by lia.
      pose proof (wf_insert m v Hwf Hlt') as Hi. pose proof (im_insert_npi m v Hwf Hlt') as Hn.
      destruct (im_insert m v) as [m1 k]. destruct Hi as (Hwf1 & Hfr & Ha).
      do 2 eexists. split; [done|]. split; [done|]. split; [done|].
      rewrite Ha. by constructor.
    - destruct (wf_insert_with_key m k v Hwf) as (m1 & -> & Hwf1 & Ha).
      do 2 eexists. split; [done|]. split; [done|]. split.
      + injection Ha as _ ->. lia.
      + rewrite Ha. constructor.
    - pose proof (wf_remove m k Hwf) as Hr. destruct (im_remove m k) as [m1 old].
      destruct Hr as (Hwf1 & -> & Ha). do 2 eexists. split; [done|]. split; [done|]. split.
      + injection Ha as _ ->. lia.
      + rewrite Ha. apply sp_remove.
    - destruct (wf_extend kvs m Hwf) as (m1 & -> & Hwf1 & Ha & Hn).
      do 2 eexists. split; [done|]. split; [done|]. split; [done|].
      rewrite Ha. constructor.
    - pose proof (wf_extend_values vs m Hwf Hlt) as Hr.
      destruct (im_extend_values m vs) as [m1 ks]. destruct Hr as (Hwf1 & Hn & Hsf).
      do 2 eexists. split; [done|]. split; [done|]. split; [done|]. by constructor.
    - destruct (wf_retain p m Hwf) as (Hwf1 & Hn & Hs).
      do 2 eexists. split; [done|]. split; [done|]. split; [lia|]. constructor; done.
    - do 2 eexists. split; [done|]. split; [apply wf_empty|]. split; [cbn; lia|].
      constructor.
    - pose proof (sp_set (im_abs_of m) k f) as Hsp. unfold im_abs_of in Hsp. cbn in Hsp.
      destruct (im_get m k) as [v|] eqn:E; unfold im_get in E; rewrite E in Hsp.
      + destruct (wf_set m k (f v) Hwf) as (m1 & -> & Hwf1 & Ha); [eauto|].
        do 2 eexists. split; [done|]. split; [done|]. split; [injection Ha as _ ->; lia|].
        rewrite Ha. replace (<[k:=f v]> (im_slots m)) with (alter f k (im_slots m)); [done|].
        apply map_eq. intros i. destruct (decide (i = k)) as [->|Hne].
        * by rewrite lookup_alter, lookup_insert, E.
        * by rewrite lookup_alter_ne, lookup_insert_ne by done.
      + do 2 eexists. split; [done|]. split; [done|]. split; [lia|].
        replace (alter f k (im_slots m)) with (im_slots m) in Hsp; [done|].
        apply map_eq. intros i. destruct (decide (i = k)) as [->|Hne].
        * by rewrite lookup_alter, E.
        * by rewrite lookup_alter_ne by done.
  Qed.

  Lemma wf_run os : ∀ m, im_wf m → im_npi m + ops_slots os ≤ u32_mod →
    ∃ m' rs, im_run m os = Some (m', rs) ∧ im_wf m' ∧
      im_npi m' ≤ im_npi m + ops_slots os ∧
      spec_run (im_abs_of m) os rs (im_abs_of m').
  Proof.
    induction os as [|o os IH]; intros m Hwf Hlt.
    { do 2 eexists. split; [done|]. split; [done|]. split; [lia|]. constructor. }
    unfold ops_slots in Hlt. cbn [foldr] in Hlt. fold (ops_slots os) in Hlt.
    destruct (wf_step m o Hwf) as (m1 & r & E & Hwf1 & Hn1 & Hs1); [lia|].
    destruct (IH m1 Hwf1) as (m2 & rs & E2 & Hwf2 & Hn2 & Hs2); [lia|].
    exists m2, (r :: rs). cbn [im_run]. rewrite E, E2.
    split; [done|]. split; [done|]. split.
    - unfold ops_slots. cbn [foldr]. fold (ops_slots os). lia.
    - econstructor; done.
  Qed.

  (** Length. *)
  Lemma wf_len m : im_wf m → im_len m = Some (N.of_nat (size (im_slots m))).
  Proof.
    intros [Hb Hf Hn]. unfold im_len.
    assert (Hp : (map_to_list (im_slots m)).*1 ++ im_free m ≡ₚ N_range 0 (im_npi m)).
    { apply NoDup_Permutation.
      - apply NoDup_app. split; [apply NoDup_fst_map_to_list|]. split; [|done].
        intros k Hk Hk'. apply Hf in Hk' as [_ Hk']. apply elem_of_list_fmap in Hk as ([k' v] & -> & Hk).
        apply elem_of_map_to_list in Hk. cbn in *. congruence.
      - apply NoDup_N_range.
      - intros k. rewrite elem_of_app, Hf, elem_of_N_range. split.
        + intros [Hk|Hk]; [|lia]. apply elem_of_list_fmap in Hk as ([k' v] & -> & Hk).
          apply elem_of_map_to_list in Hk. cbn. split; [lia|]. apply Hb. eauto.
        + intros [_ Hk]. destruct (im_slots m !! k) as [v|] eqn:E; [left|right; done].
          apply elem_of_list_fmap. exists (k, v). split; [done|]. by apply elem_of_map_to_list. }
    apply Permutation_length in Hp.
    rewrite app_length, fmap_length, length_N_range in Hp.
    change (length (map_to_list (im_slots m))) with (size (im_slots m)) in Hp.
    replace (N.leb (N.of_nat (length (im_free m))) (im_npi m)) with true by (symmetry; apply N.leb_le; lia).
    replace (N.eqb (N.of_nat (size (im_slots m))) (im_npi m - N.of_nat (length (im_free m)))) with true
      by (symmetry; apply N.eqb_eq; lia).
    done.
  Qed.

  (** Iteration. *)
  Lemma elem_of_im_iter m k v : im_wf m → (k, v) ∈ im_iter m ↔ im_slots m !! k = Some v.
  Proof.
    intros Hwf. unfold im_iter. rewrite elem_of_list_omap. split.
    - intros (k' & Hk' & E). destruct (im_slots m !! k') eqn:E'; cbn in E; [|done].
      injection E as -> ->. done.
    - intros E. exists k. rewrite E. split; [|done]. apply elem_of_N_range.
      split; [lia|]. apply (wf_bound _ Hwf). eauto.
  Qed.

  Lemma N_range_sorted a b : StronglySorted N.lt (N_range a b).
  Proof.
    unfold N_range. set (n := N.to_nat (b - a)). generalize 0%nat. clearbody n.
    induction n as [|n IH]; intros i; cbn; constructor; [apply IH|].
    apply Forall_fmap, Forall_forall. intros j Hj. apply elem_of_seq in Hj. cbn. lia.
  Qed.

  Lemma im_keys_sorted_gen m l :
    StronglySorted N.lt l →
    StronglySorted N.lt ((omap (λ k, v ← im_slots m !! k; Some (k, v)) l).*1).
  Proof.
    intros Hs. induction Hs as [|k l Hs IH Hk]; cbn; [constructor|].
    destruct (im_slots m !! k) as [v|]; cbn; [|done]. constructor; [done|].
    apply Forall_fmap, Forall_forall. intros [k' v'] Hin. cbn.
    apply elem_of_list_omap in Hin as (k'' & Hin & E).
    destruct (im_slots m !! k''); cbn in E; [|done]. injection E as -> ->.
    rewrite Forall_forall in Hk. by apply Hk.
  Qed.

  Lemma im_keys_sorted m : StronglySorted N.lt (im_keys m).
  Proof. apply im_keys_sorted_gen, N_range_sorted. Qed.

  Lemma elem_of_im_keys m k : im_wf m → k ∈ im_keys m ↔ is_Some (im_slots m !! k).
  Proof.
    intros Hwf. unfold im_keys. rewrite elem_of_list_fmap. split.
    - intros ([k' v] & -> & H). apply elem_of_im_iter in H; [|done]. eauto.
    - intros [v H]. exists (k, v). split; [done|]. by apply elem_of_im_iter.
  Qed.

  Lemma StronglySorted_lt_NoDup l : StronglySorted N.lt l → NoDup l.
  Proof.
    induction 1 as [|k l Hs IH Hk]; constructor; [|done].
    rewrite Forall_forall in Hk. intros Hin. specialize (Hk _ Hin). lia.
  Qed.

  (** Collecting values. *)
  Lemma im_push_all_wf vs : ∀ m, im_wf m → im_free m = [] →
    let m' := im_push_all m vs in
    im_wf m' ∧ im_free m' = [] ∧ im_npi m' = im_npi m + N.of_nat (length vs) ∧
    ∀ k, im_slots m' !! k = if N.ltb k (im_npi m) then im_slots m !! k
                            else vs !! N.to_nat (k - im_npi m).
  Proof.
    induction vs as [|v vs IH]; intros m Hwf Hfree; cbn [im_push_all].
    { cbn. split; [done|]. split; [done|]. split; [lia|]. intros k.
      destruct (N.ltb_spec k (im_npi m)) as [?|Hge]; [done|].
      destruct (im_slots m !! k) eqn:E; [|by rewrite lookup_nil].
      assert (k < im_npi m) by (apply (wf_bound _ Hwf); eauto). lia. }
    set (m1 := IdMap (<[im_npi m:=v]> (im_slots m)) (im_npi m + 1) (im_free m)).
    assert (Hwf1 : im_wf m1).
    { destruct Hwf as [Hb Hf Hn]. split; cbn.
      - intros k Hk. destruct (decide (k = im_npi m)) as [->|Hne]; [lia|].
        rewrite lookup_insert_ne in Hk by done. apply Hb in Hk. lia.
      - intros k. rewrite Hf. split.
        + intros [H1 H2]. split; [lia|]. rewrite lookup_insert_ne by lia. done.
        + intros [H1 H2]. destruct (decide (k = im_npi m)) as [->|Hne].
          * by rewrite lookup_insert in H2.
          * rewrite lookup_insert_ne in H2 by done. split; [lia|done].
      - done. }
    destruct (IH m1 Hwf1 Hfree) as (H1 & H2 & H3 & H4).
    split; [done|]. split; [done|]. split; [cbn in *; lia|]. intros k. rewrite H4.
    change (im_npi m1) with (im_npi m + 1). change (im_slots m1) with (<[im_npi m:=v]> (im_slots m)).
    destruct (N.ltb_spec k (im_npi m + 1)), (N.ltb_spec k (im_npi m)); try lia.
    - by rewrite lookup_insert_ne by lia.
    - replace k with (im_npi m) by lia. rewrite lookup_insert.
      by replace (N.to_nat (im_npi m - im_npi m)) with 0%nat by lia.
    - by replace (N.to_nat (k - im_npi m)) with (S (N.to_nat (k - (im_npi m + 1)))) by lia.
  Qed.

  (** Reachability. *)
  Definition im_reachable m : Prop :=
    ∃ os rs, ops_slots os ≤ u32_mod ∧ im_run im_empty os = Some (m, rs).

  Lemma reachable_wf m : im_reachable m → im_wf m.
  Proof.
    intros (os & rs & Hb & E).
    destruct (wf_run os im_empty wf_empty) as (m' & rs' & E' & Hwf & _); [cbn; lia|].
    rewrite E in E'. injection E' as -> ->. done.
  Qed.
End proofs.
