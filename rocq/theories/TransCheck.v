(** Deciding whether tets can be replaced. *)
From stdpp Require Import base numbers list gmap option.
From Coq Require Import NArith ZArith.
From Verif Require Import IdMapModel IdMapProofs WalkerModel WalkerSpec MeshModel MeshOps MeshSpec MeshCheck FlipSpec HistCheck IterProofs TransSpec.
Local Open Scope nat_scope.

Section check.
  Context {V T : Type}.
  Implicit Types (m : mesh V T) (out new : list (arr4 N)) (gone : list (N * N)).

  Global Instance both_dec q x y : Decision (both q x y).
  Proof. unfold both. apply _. Defined.

  Definition replaceableb m out new gone : bool :=
    let O := out ≫= tris_of in
    let N' := new ≫= tris_of in
    forallb (λ q, existsb (λ w, bool_decide (w_verts m w = Some q)) (all_walkers m)) out &&
    forallb (λ q, bool_decide (NoDup (list4 q)) && forallb (λ v, bool_decide (v ≠ GHOST) && existsb (λ q', bool_decide (v ∈ list4 q')) out) (list4 q)) new &&
    bool_decide (NoDup N') &&
    forallb (λ w, match w_tri m w with Some t => implb (bool_decide (t ∈ N')) (bool_decide (t ∈ O)) | None => true end) (all_walkers m) &&
    forallb (λ t, Bool.eqb (bool_decide (t ∈ N') && negb (bool_decide (swap3 t ∈ N'))) (bool_decide (t ∈ O) && negb (bool_decide (swap3 t ∈ O)))) (N' ++ O) &&
    forallb (λ q, forallb (λ x, forallb (λ y, implb (bool_decide (both q x y) && joinedb m x y) (existsb (λ q', bool_decide (both q' x y)) out)) (list4 q)) (list4 q)) new &&
    forallb (λ q, forallb (λ v, existsb (λ q', bool_decide (v ∈ list4 q')) new) (list4 q)) out &&
    forallb (λ q, forallb (λ x, forallb (λ y, implb (bool_decide (both q x y))
      (Bool.eqb (bool_decide ((x, y) ∈ gone)) (negb (existsb (λ q', bool_decide (both q' x y)) new)))) (list4 q)) (list4 q)) out.

  Local Lemma fa {A} (f : A → bool) l x : forallb f l = true → x ∈ l → f x = true.
  Proof. intros H Hx. rewrite forallb_forall in H. apply H. by apply elem_of_list_In. Qed.
  Local Lemma ex' {A} (f : A → bool) l : existsb f l = true ↔ ∃ x, x ∈ l ∧ f x = true.
  Proof. rewrite existsb_exists. split; intros (x & A1 & A2); exists x; (split; [by apply elem_of_list_In|done]). Qed.

  Lemma replaceableb_spec m out new gone : im_wf (m_tets m) → replaceableb m out new gone = true → replaceable m out new gone.
  Proof.
    intros Hwf H. unfold replaceableb in H. apply andb_true_iff in H as [H H8]. apply andb_true_iff in H as [H H7]. apply andb_true_iff in H as [H H6]. apply andb_true_iff in H as [H H5].
    apply andb_true_iff in H as [H H4]. apply andb_true_iff in H as [H H3]. apply andb_true_iff in H as [H1 H2]. split.
    - intros q Hq. apply (fa _ _ _ H1) in Hq. apply ex' in Hq as (w & A & B). apply bool_decide_eq_true in B. exists w. split; [by apply all_walkers_valid|done].
    - intros q Hq. apply (fa _ _ _ H2) in Hq. apply andb_true_iff in Hq as [A B]. apply bool_decide_eq_true in A. split; [done|]. intros v Hv. apply (fa _ _ _ B) in Hv.
      apply andb_true_iff in Hv as [C D]. apply bool_decide_eq_true in C. split; [done|]. apply ex' in D as (q' & D1 & D2). apply bool_decide_eq_true in D2. by exists q'.
    - by apply bool_decide_eq_true in H3.
    - intros w t Hw E Ht. apply (elem_of_all_walkers _ _ Hwf) in Hw. apply (fa _ _ _ H4) in Hw. rewrite E in Hw. rewrite (bool_decide_eq_true_2 _ Ht) in Hw. cbn in Hw. by apply bool_decide_eq_true in Hw.
    - intros t. destruct (decide (t ∈ (new ≫= tris_of) ++ (out ≫= tris_of))) as [Ht|Ht].
      + apply (fa _ _ _ H5) in Ht. apply Bool.eqb_prop in Ht. apply Bool.eq_iff_eq_true in Ht. rewrite !andb_true_iff, !negb_true_iff, !bool_decide_eq_true, !bool_decide_eq_false in Ht. done.
      + rewrite elem_of_app in Ht. tauto.
    - intros q x y Hq Hb Hj. apply (fa _ _ _ H6) in Hq. apply (fa _ _ x) in Hq; [|apply Hb]. apply (fa _ _ y) in Hq; [|apply Hb]. cbv beta in Hq. rewrite (bool_decide_eq_true_2 _ Hb) in Hq. apply joinedb_spec in Hj. rewrite Hj in Hq. cbn in Hq.
      apply ex' in Hq as (q' & A & B). apply bool_decide_eq_true in B. by exists q'.
    - intros q v Hq Hv. apply (fa _ _ _ H7) in Hq. apply (fa _ _ _ Hq) in Hv. apply ex' in Hv as (q' & A & B). apply bool_decide_eq_true in B. by exists q'.
    - intros q x y Hq Hb. apply (fa _ _ _ H8) in Hq. apply (fa _ _ x) in Hq; [|apply Hb]. apply (fa _ _ y) in Hq; [|apply Hb]. cbv beta in Hq. rewrite (bool_decide_eq_true_2 _ Hb) in Hq. cbn in Hq. apply Bool.eqb_prop in Hq.
      destruct (existsb (λ q', bool_decide (both q' x y)) new) eqn:E; cbn in Hq.
      + right. split; [by apply bool_decide_eq_false in Hq|]. apply ex' in E as (q' & A & B). apply bool_decide_eq_true in B. by exists q'.
      + left. split; [by apply bool_decide_eq_true in Hq|]. intros q' Hq' Hb'. assert (existsb (λ q', bool_decide (both q' x y)) new = true); [|congruence]. apply ex'. exists q'. split; [done|]. by apply bool_decide_eq_true.
  Qed.
End check.
