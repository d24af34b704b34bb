(** Shared steps of the 2-to-3 and 3-to-2 flips. *)
From stdpp Require Import base numbers list gmap option relations.
From Coq Require Import NArith ZArith ZifyN ZifyNat ZifyBool Lia.
From Verif Require Import IdMapModel IdMapSpec IdMapProofs IdMapMore WalkerModel WalkerSpec WalkerProofs SortProofs
  MeshModel WalkerMore MeshSpec MeshViews Surgery MeshLink MeshRun FlipBase.
Local Open Scope nat_scope.

Section run.
  Context {V T : Type}.
  Implicit Types (m : mesh V T) (F G : N → tet T) (w u : walker) (L O K : gset N) (id : N).

  Definition lk4 (f : tflags) (l : arr4 bool) : tflags :=
    TFlags l (f_imm f) (f_limit f) (f_boundary f) (f_wfv f) (f_dup f) (f_notenc f).
  (** A tet with all its triangles unlocked. *)
  Definition cl (t : tet T) : tet T :=
    Tet (t_vs t) (t_opp t) (t_edges t) (lk4 (t_flags t) (A4 false false false false)) (t_val t).

  Lemma clear_locks_st m L l G i t k : tst m L (ov l G) → l !! k = Some (i, t) → NoDup (l.*1) → i ∈ L →
    ∃ m', clear_locks m i = Some m' ∧ tst m' L (ov (<[k := (i, cl t)]> l) G) ∧ same_rest m m'.
  Proof.
    intros H1 H2 H3 H4. unfold clear_locks.
    match goal with |- context [tet_upd m i ?f] => destruct (upd_ov m L l G i t k f H1 H2 H3 H4) as (m' & E & Hs & Hr) end.
    exists m'. split; [done|]. split; [|done]. exact Hs.
  Qed.

  Lemma copy_edge_st m L l G id t k j src :
    tst m L (ov l G) → l !! k = Some (id, t) → NoDup (l.*1) → id ∈ L →
    w_tet src ∈ L → w_tet src ∉ l.*1 →
    ∃ m', copy_edge m id j src = Some m' ∧ tst m' L (ov (<[k := (id, set_edge j (uv G src) t)]> l) G) ∧ same_rest m m'.
  Proof.
    intros H1 H2 H3 H4 H5 H6. unfold copy_edge. rewrite (mv_undir _ _ _ _ (proj1 H1) H5). cbn [mbind option_bind].
    unfold uv at 1. rewrite ov_out by done. fold (uv G src). by apply upd_ov.
  Qed.
  Lemma copy_lock_st m L l G id t k j src :
    tst m L (ov l G) → l !! k = Some (id, t) → NoDup (l.*1) → id ∈ L →
    w_tet src ∈ L → w_tet src ∉ l.*1 → j < 4 → get4 (f_locked (t_flags t)) j = false →
    ∃ m', copy_lock m id j src = Some m' ∧ tst m' L (ov (<[k := (id, set_locked j (lv G src) t)]> l) G) ∧ same_rest m m'.
  Proof.
    intros H1 H2 H3 H4 H5 H6 Hj Hf. unfold copy_lock. rewrite (mv_locked _ _ _ _ (proj1 H1) H5). cbn [mbind option_bind].
    unfold lv at 1. rewrite ov_out by done. fold (lv G src). destruct (lv G src).
    - by apply upd_ov.
    - exists m. split; [done|]. split; [|apply same_rest_refl].
      replace (set_locked j false t) with t; [by rewrite list_insert_id|].
      destruct t as [vs op es [lk im li bd wfv dup ne] va]. unfold set_locked, set_flags; cbn in *.
      destruct lk. f_equal. f_equal. case4 j Hj; cbn in *; congruence.
  Qed.

  Lemma av_same_opp F G w : t_opp (G (w_tet w)) = t_opp (F (w_tet w)) → av G w = av F w.
  Proof. intros E. unfold av. by rewrite E. Qed.

  (** Redirect the neighbour across the replaced tet's face [y]. *)
  Lemma relink_in m L L0 l F G rl y id base j :
    tst m L (ov l G) → relinked F G rl → vok L0 F → (∀ x, x ∈ L0 → x ∈ L) → vd L0 y →
    t_opp (ov l G (w_tet y)) = t_opp (F (w_tet y)) → w_tet (av F y) ∉ l.*1 → base < 12 →
    perm_inv base (w_edge y) = j → (∀ a' u', (a', u') ∈ rl → ∃ y', a' = av F y' ∧ vd L0 y' ∧ ¬ sf y' y) →
    ∃ m' G', relink m y id base = Some (m', av F y) ∧ tst m' L (ov l G') ∧
      relinked F G' ((av F y, Walker id j) :: rl) ∧ same_rest m m'.
  Proof.
    intros Hst Hrl Hok Hsub Hy Hopp Hout Hb <- Hnew.
    destruct (vo_adj _ _ Hok y Hy) as [Ha _].
    destruct (relink_st m L l F G rl y (av F y) id base) as (m' & G' & E & H1 & H2 & H3); try done.
    - split; [apply Hsub, Hy|apply Hy].
    - by apply av_same_opp.
    - split; [apply Hsub, Ha|apply Ha].
    - by apply (vok_oppok L0), Ha.
    - intros a' u' Hin Hsf. destruct (Hnew a' u' Hin) as (y' & -> & Hy' & Hn). apply Hn.
      by apply (sf_av L0 F).
    - exists m', G'. rewrite (av_av L0 F y Hok Hy) in H2. done.
  Qed.

  Lemma rl_uv F G l w : relinked F G l → uv G w = uv F w.
  Proof. intros H. unfold uv. by destruct (rl_rest _ _ _ H (w_tet w)) as (_&->&_&_). Qed.
  Lemma rl_lv F G l w : relinked F G l → lv G w = lv F w.
  Proof. intros H. unfold lv. by destruct (rl_rest _ _ _ H (w_tet w)) as (_&_&->&_). Qed.
  Lemma rl_vv F G l w : relinked F G l → vv G w = vv F w.
  Proof. intros H. unfold vv. by destruct (rl_rest _ _ _ H (w_tet w)) as (->&_&_&_). Qed.

  Lemma uv_slots L F E w : eok L F E → vd L w →
    E (uv F w) = Some (sorted_2 (q0 (vv F w), q1 (vv F w))).
  Proof. intros H Hw. by apply (eo_in _ _ _ H). Qed.

  Lemma insert_facts {A} (es : idmap A) v : im_wf es → (im_npi es + 1 ≤ u32_mod)%N →
    ∃ es' e, im_insert es v = (es', e) ∧ im_wf es' ∧ im_get es e = None ∧ im_get es' e = Some v ∧
      (∀ e', e' ≠ e → im_get es' e' = im_get es e') ∧ (im_npi es' ≤ im_npi es + 1)%N.
  Proof.
    intros Hwf Hn. pose proof (wf_insert es v Hwf ltac:(lia)) as Hw.
    pose proof (im_insert_npi es v Hwf ltac:(lia)) as Hnpi.
    destruct (im_insert es v) as [es' e]. destruct Hw as (W1 & [W2 _] & W3).
    exists es', e. split; [done|]. split; [done|]. unfold im_get.
    apply (f_equal ab_map) in W3. cbn in W3, W2. rewrite W3. split; [done|]. split; [by rewrite lookup_insert|].
    split; [|done]. intros e' He. by rewrite lookup_insert_ne.
  Qed.
End run.
