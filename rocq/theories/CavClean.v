(** Between operations no tet carries a search flag. *)
From stdpp Require Import base numbers list gmap option.
From Verif Require Import IdMapModel IdMapProofs WalkerModel MeshModel MeshOps HistSpec CavModel CavSpec.
Local Open Scope nat_scope.

Section clean.
  Context {V T : Type}.
  Implicit Types (m : mesh V T) (w : walker) (t : tet T).

  Definition idle_flags (f : tflags) : Prop := f_imm f = none4 ∧ f_limit f = none4 ∧ f_boundary f = false ∧ f_dup f = false ∧ f_notenc f = false.
  Definition idle m : Prop := ∀ id t, im_slots (m_tets m) !! id = Some t → idle_flags (t_flags t).

  Lemma idle_cavity m : idle m → no_cavity_flags m.
  Proof. intros H id t Ht. destruct (H id t Ht) as (? & ? & _ & _ & ?). done. Qed.

  Definition keeps (f : tet T → tet T) : Prop := ∀ t, idle_flags (t_flags t) → idle_flags (t_flags (f t)).

  Lemma idle_upd m id f m' : keeps f → tet_upd m id f = Some m' → idle m → idle m'.
  Proof.
    intros Hf. unfold tet_upd, tet_get, im_get, im_set. destruct (im_slots (m_tets m) !! id) as [t|] eqn:Et; [|done]. cbn. unfold im_get. rewrite Et. cbn.
    intros [= <-] H id' t'. cbn. rewrite lookup_insert_Some. intros [[<- <-]|[_ Ht]]; [|by eapply H]. apply Hf. by eapply H.
  Qed.
  Lemma idle_insert m t m' id : tet_insert m t = (m', id) → idle_flags (t_flags t) → idle m → idle m'.
  Proof.
    unfold tet_insert, im_insert. destruct (vec_pop (im_free (m_tets m))) as [[fr k]|]; intros [= <- <-] Ht H id' t'; cbn;
      rewrite lookup_insert_Some; (intros [[<- <-]|[_ Ht']]; [done|by eapply H]).
  Qed.
  Lemma idle_tets m m' : m_tets m' = m_tets m → idle m → idle m'.
  Proof. unfold idle. by intros ->. Qed.
  Lemma idle_get m id t : tet_get m id = Some t → idle m → idle_flags (t_flags t).
  Proof. intros H Hc. by eapply Hc. Qed.
  Lemma idle_vref m v w : idle m → idle (vert_ref m v w).
  Proof. apply idle_tets. unfold vert_ref. repeat case_match; done. Qed.
  Lemma idle_vref_idx m v w m' : vert_ref_idx m v w = Some m' → idle m → idle m'.
  Proof. unfold vert_ref_idx. destruct (im_get (m_verts m) v); [|done]. intros [= <-]. apply idle_vref. Qed.
  Lemma idle_fold {A} (f : mesh V T → A → option (mesh V T)) l : (∀ m a m', f m a = Some m' → idle m → idle m') →
    ∀ m m', mfoldl f l m = Some m' → idle m → idle m'.
  Proof.
    intros Hf. induction l as [|a l IH]; intros m m'; cbn; [by intros [= <-]|]. intros (m1 & H1 & H2)%bind_Some H. by eapply IH, Hf.
  Qed.
  Lemma idle_tri_remove m ids m' : trimap_remove_tets m ids = Some m' → idle m → idle m'.
  Proof.
    unfold trimap_remove_tets. destruct (m_track m); [|by intros [= <-]]. apply idle_fold. intros m1 id m2. apply idle_fold. intros m3 i m4 (t & _ & H)%bind_Some. injection H as <-. done.
  Qed.
  Lemma idle_tri_insert m ids m' : trimap_insert_tets m ids = Some m' → idle m → idle m'.
  Proof.
    unfold trimap_insert_tets. destruct (m_track m); [|by intros [= <-]]. apply idle_fold. intros m1 id m2. apply idle_fold. intros m3 i m4 (t & _ & H)%bind_Some. injection H as <-. done.
  Qed.
  Lemma idle_edges m vss m' es : edges_extend m vss = (m', es) → idle m → idle m'.
  Proof. unfold edges_extend. destruct (im_extend_values _ _). intros [= <- _]. done. Qed.
  Lemma idle_edge m vs m' e : edge_insert m vs = (m', e) → idle m → idle m'.
  Proof. unfold edge_insert. destruct (im_insert _ _). intros [= <- _]. done. Qed.
  Lemma idle_relink m w id b m' w' : relink m w id b = Some (m', w') → idle m → idle m'.
  Proof.
    unfold relink. intros (x & _ & H)%bind_Some. apply bind_Some in H as (t & _ & H). apply bind_Some in H as (m1 & H1 & H). injection H as <- <-.
    eapply idle_upd; [|done]. by intros [].
  Qed.
  Lemma idle_copy_edge m id k w m' : copy_edge m id k w = Some m' → idle m → idle m'.
  Proof. unfold copy_edge. intros (e & _ & H)%bind_Some. eapply idle_upd; [|done]. by intros []. Qed.
  Lemma idle_copy_lock m id k w m' : copy_lock m id k w = Some m' → idle m → idle m'.
  Proof. unfold copy_lock. intros (b & _ & H)%bind_Some. destruct b; [|by injection H as <-]. eapply idle_upd; [|done]. by intros []. Qed.
  Lemma idle_clear m id m' : clear_locks m id = Some m' → idle m → idle m'.
  Proof. unfold clear_locks. apply idle_upd. by intros []. Qed.

  Definition pres {A} (p : A → mesh V T) (r : option A) : Prop := ∀ a, r = Some a → idle (p a).
  Lemma pres_bind {A B} p (e : option A) (k : A → option B) : (∀ a, e = Some a → pres p (k a)) → pres p (e ≫= k).
  Proof. intros H b (a & Ha & Hb)%bind_Some. by apply (H a). Qed.
  Lemma pres_ret {A} p (a : A) : idle (p a) → pres p (Some a).
  Proof. by intros H b [= <-]. Qed.
End clean.

Ltac forward_idle :=
  match goal with
  | E : Some _ = Some _ |- _ => injection E as <-
  | E : tet_upd ?m _ _ = Some ?m' |- _ => assert (idle m') by (refine (idle_upd _ _ _ _ _ E _); [by intros []|repeat apply idle_vref; assumption]); clear E
  | E : clear_locks ?m _ = Some ?m', H : idle ?m |- _ => assert (idle m') by (exact (idle_clear _ _ _ E H)); clear E H
  | E : copy_edge ?m _ _ _ = Some ?m', H : idle ?m |- _ => assert (idle m') by (exact (idle_copy_edge _ _ _ _ _ E H)); clear E H
  | E : copy_lock ?m _ _ _ = Some ?m', H : idle ?m |- _ => assert (idle m') by (exact (idle_copy_lock _ _ _ _ _ E H)); clear E H
  | E : relink ?m _ _ _ = Some (?m', _), H : idle ?m |- _ => assert (idle m') by (exact (idle_relink _ _ _ _ _ _ E H)); clear E H
  | E : trimap_remove_tets ?m _ = Some ?m', H : idle ?m |- _ => assert (idle m') by (exact (idle_tri_remove _ _ _ E H)); clear E H
  | E : trimap_insert_tets ?m _ = Some ?m', H : idle ?m |- _ => assert (idle m') by (exact (idle_tri_insert _ _ _ E H)); clear E H
  | E : vert_ref_idx ?m _ _ = Some ?m', H : idle ?m |- _ => assert (idle m') by (exact (idle_vref_idx _ _ _ _ E H)); clear E H
  | E : edges_extend ?m _ = (?m', _) |- _ => assert (idle m') by (refine (idle_edges _ _ _ _ E _); repeat apply idle_vref; assumption); clear E
  | E : edge_insert ?m _ = (?m', _) |- _ => assert (idle m') by (refine (idle_edge _ _ _ _ E _); repeat apply idle_vref; assumption); clear E
  | E : tet_insert ?m ?t = (?m', _), G : tet_get ?m _ = Some ?t, H : idle ?m |- _ =>
      assert (idle m') by (exact (idle_insert _ _ _ _ E (idle_get _ _ _ G H) H)); clear E H
  end.
Ltac step_idle :=
  match goal with
  | |- pres _ (let '(_, _) := ?e in _) => destruct e eqn:?
  | |- pres _ (match ?e with (_, _) => _ end) => destruct e eqn:?
  | |- pres _ (if ?b then _ else _) => destruct b
  | |- pres _ (_ ≫= _) => apply pres_bind; intros ? ?
  | |- pres _ (Some _) => apply pres_ret; cbn [fst]
  | |- pres _ None => by intros ? [=]
  end.

Section ops.
  Context {V T : Type}.
  Implicit Types (m : mesh V T) (w : walker).

  Lemma pres_assoc {A B C} (p : C → mesh V T) (e : option A) (k : A → option B) (k' : B → option C) :
    pres p (e ≫= λ a, k a ≫= k') → pres p ((e ≫= k) ≫= k').
  Proof. by destruct e. Qed.

End ops.
Ltac idle_all := repeat first [forward_idle | match goal with |- pres _ ((_ ≫= _) ≫= _) => apply pres_assoc end | step_idle | assumption].
Section ops.
  Context {V T : Type}.
  Implicit Types (m : mesh V T) (w : walker).
  Lemma idle_flip14 m w v : idle m → pres fst (flip14_unchecked m w v).
  Proof. intros H. unfold flip14_unchecked. cbv zeta. cbn [mfoldl]. idle_all. Qed.
  Lemma idle_flip23 m w : idle m → pres fst (flip23_unchecked m w).
  Proof. intros H. unfold flip23_unchecked. cbv zeta. cbn [mfoldl]. idle_all. Qed.
  Lemma idle_remove m id : idle m → idle (with_tets m (im_remove (m_tets m) id).1).
  Proof.
    intros H id' t. unfold im_remove. destruct (im_slots (m_tets m) !! id) eqn:E; cbn; [|apply H]. rewrite lookup_delete_Some. intros [_ ?]. by eapply H.
  Qed.
  Lemma idle_with_edges m es : idle m → idle (with_edges m es).
  Proof. by apply idle_tets. Qed.
  Lemma idle_flip32 m w : idle m → pres fst (flip32_unchecked m w).
  Proof.
    intros H. unfold flip32_unchecked. cbv zeta. cbn [mfoldl]. idle_all.
    match goal with E : trimap_insert_tets ?m0 _ = Some _ |- _ => refine (idle_tri_insert _ _ _ E _) end. apply idle_remove, idle_with_edges. assumption.
  Qed.
  Lemma idle_flip23_unlocked m w : idle m → pres fst (flip23_unlocked m w).
  Proof.
    intros H. unfold flip23_unlocked. step_idle. step_idle; [by apply pres_ret|]. apply pres_bind. intros [m' ws] E. apply pres_ret. by apply (idle_flip23 m w H (m', ws)).
  Qed.
  Lemma idle_flip32_unlocked m w : idle m → pres fst (flip32_unlocked m w).
  Proof.
    intros H. unfold flip32_unlocked. do 8 step_idle. step_idle; [by apply pres_ret|]. apply pres_bind. intros [m' ws] E. apply pres_ret. by apply (idle_flip32 m w H (m', ws)).
  Qed.
  Lemma idle_flip44 m w : idle m → pres fst (flip44_unchecked m w).
  Proof.
    intros H. unfold flip44_unchecked. apply pres_bind. intros [m1 [[w0 w1] w2]] H1. pose proof (idle_flip23 _ _ H _ H1) as I1. cbn [fst] in I1.
    apply pres_bind. intros [m2 w3] H2. pose proof (idle_flip32 _ _ I1 _ H2) as I2. cbn [fst] in I2. cbv zeta. idle_all.
  Qed.
  Lemma idle_track m b : idle m → pres id (set_track_tri_map m b).
  Proof.
    intros H m'. unfold set_track_tri_map. destruct b; [|intros [= <-]; by apply (idle_tets m)]. intros E. eapply idle_fold; [|exact E|by apply (idle_tets m)].
    intros m1 id m2. apply idle_fold. intros m3 i m4 (t & _ & H')%bind_Some. injection H' as <-. done.
  Qed.
  Lemma idle_run_op m o m' : run_op m o = Some m' → idle m → idle m'.
  Proof.
    intros E H. destruct o as [p v|w p v|w v|w|w|w|w|w|b|w b|w b]; cbn [run_op] in E.
    - injection E as <-. unfold add_vertex. destruct (im_insert _ _). by apply (idle_tets m).
    - destruct (add_vertex m p v) as [m1 id] eqn:E1. apply fmap_Some in E as (r & Hr & ->). eapply (idle_flip14 m1); [|done].
      unfold add_vertex in E1. destruct (im_insert _ _). injection E1 as <- _. by apply (idle_tets m).
    - apply fmap_Some in E as (r & Hr & ->). by eapply (idle_flip14 m).
    - apply fmap_Some in E as (r & Hr & ->). by eapply (idle_flip23 m).
    - apply fmap_Some in E as (r & Hr & ->). by eapply (idle_flip32 m).
    - apply fmap_Some in E as (r & Hr & ->). by eapply (idle_flip44 m).
    - apply fmap_Some in E as (r & Hr & ->). by eapply (idle_flip23_unlocked m).
    - apply fmap_Some in E as (r & Hr & ->). by eapply (idle_flip32_unlocked m).
    - by apply (idle_track m b H).
    - revert m' E. change (pres id (set_tri_lock m w b)). unfold set_tri_lock. idle_all. intros m' E. forward_idle. done.
    - revert m' E. change (pres id (set_edge_lock m w b)). unfold set_edge_lock. idle_all.
  Qed.
  Definition is_none4 (a : arr4 bool) : bool := match a with A4 false false false false => true | _ => false end.
  Definition idleb (f : tflags) : bool := is_none4 (f_imm f) && is_none4 (f_limit f) && negb (f_boundary f) && negb (f_dup f) && negb (f_notenc f).
  Lemma is_none4_ok a : is_none4 a = true → a = none4.
  Proof. by destruct a as [[] [] [] []]. Qed.
  Lemma idleb_ok f : idleb f = true → idle_flags f.
  Proof.
    unfold idleb. rewrite !andb_true_iff, !negb_true_iff. intros [[[[H1 H2] H3] H4] H5]. by unfold idle_flags; rewrite (is_none4_ok _ H1), (is_none4_ok _ H2).
  Qed.
  Lemma idle_new sim ctr ps (d : T) (m : mesh V T) : mesh_new sim ctr ps d = Some m → idle m.
  Proof.
    destruct ps as [[a0 b0] [a1 b1] [a2 b2] [a3 b3]].
    assert (match mesh_new sim ctr (A4 (a0, b0) (a1, b1) (a2, b2) (a3, b3)) d with
            | Some m => forallb (λ kt : N * tet T, idleb (t_flags kt.2)) (map_to_list (im_slots (m_tets m))) | None => false end = true) as H.
    { clear. unfold mesh_new. cbn [get4 fst q0 q1 q2 q3]. destruct (sim _ _ _ _); vm_compute; reflexivity. }
    intros E. rewrite E in H. intros id t Ht. rewrite forallb_forall in H. specialize (H (id, t)). cbn [snd] in H.
    assert (idleb (t_flags t) = true) as Hb. { apply H. apply elem_of_list_In. by apply elem_of_map_to_list. }
    apply idleb_ok, Hb.
  Qed.
  Lemma idle_reachable m : reachable m → idle m.
  Proof.
    intros (sim & ctr & ps & d & m0 & os & E & _ & Hr). apply idle_new in E. revert m0 E Hr. induction os as [|o os IH]; intros m0 E; cbn [run_ops]; [by intros [= <-]|].
    intros (m1 & H1 & H2)%bind_Some. eapply IH; [|exact H2]. by eapply idle_run_op.
  Qed.
End ops.
