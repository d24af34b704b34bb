(** The mesh operations never leave traversal marks. *)
From Coq Require Import NArith ZArith Lia.
From stdpp Require Import base numbers list gmap option.
From Verif Require Import IdMapModel IdMapProofs WalkerModel MeshModel MeshSpec MeshOps HistSpec UtilModel UtilSpec IterModel IterOpt.
Local Open Scope nat_scope.

Section marks.
  Context {V T : Type}.
  Implicit Types (m : mesh V T) (w : walker).

  Definition unmarked m : Prop := no_tet_marks m ∧ no_vertex_marks m.

  (** [Q] holds of the result, if there is one. *)
  Definition okr {A} (Q : A → Prop) (o : option A) : Prop := ∀ a, o = Some a → Q a.
  Lemma okr_some {A} (Q : A → Prop) a : Q a → okr Q (Some a).
  Proof. by intros H ? [= <-]. Qed.
  Lemma okr_none {A} (Q : A → Prop) : okr Q None.
  Proof. by intros ? ?. Qed.
  Lemma okr_bind {A B} (P : A → Prop) (Q : B → Prop) o (k : A → option B) : okr P o → (∀ a, P a → okr Q (k a)) → okr Q (o ≫= k).
  Proof. intros Ho Hk b Hb. destruct o as [a|]; [|done]. by apply (Hk a (Ho a eq_refl)). Qed.
  Lemma okr_any {A B} (Q : B → Prop) (o : option A) (k : A → option B) : (∀ a, okr Q (k a)) → okr Q (o ≫= k).
  Proof. intros Hk. apply (okr_bind (λ _, True)); [by intros ? ?|]. intros a _. apply Hk. Qed.

  Definition same_mark (f : tet T → tet T) : Prop := ∀ t, f_wfv (t_flags (f t)) = f_wfv (t_flags t).

  Lemma im_set_get {X} (im im' : idmap X) k x k' y : im_set im k x = Some im' → im_get im' k' = Some y →
    (k' = k ∧ y = x) ∨ im_get im k' = Some y.
  Proof.
    unfold im_set. destruct (im_get im k); [|done]. intros [= <-]. unfold im_get. cbn.
    destruct (decide (k' = k)) as [->|]; [rewrite lookup_insert; intros [= ->]; by left|]. rewrite lookup_insert_ne by done. by right.
  Qed.
  Lemma im_insert_get {X} (im : idmap X) x k' y : im_get (im_insert im x).1 k' = Some y → y = x ∨ im_get im k' = Some y.
  Proof.
    unfold im_insert. destruct (vec_pop (im_free im)) as [[f k]|]; unfold im_get; cbn.
    - destruct (decide (k' = k)) as [->|]; [rewrite lookup_insert; intros [= ->]; by left|]. rewrite lookup_insert_ne by done. by right.
    - destruct (decide (k' = im_npi im)) as [->|]; [rewrite lookup_insert; intros [= ->]; by left|]. rewrite lookup_insert_ne by done. by right.
  Qed.

  Lemma um_upd m id f : unmarked m → same_mark f → okr unmarked (tet_upd m id f).
  Proof.
    intros [Ht Hv] Hf m' E. unfold tet_upd in E. destruct (tet_get m id) as [t|] eqn:Et; [|done]. cbn in E.
    destruct (im_set (m_tets m) id (f t)) as [ts|] eqn:Es; [|done]. injection E as <-. split; [|done].
    intros id' t' [[-> ->]|H]%(im_set_get _ _ _ _ _ _ Es); [rewrite Hf|]; by eapply Ht.
  Qed.
  Lemma um_insert m t : unmarked m → f_wfv (t_flags t) = false → unmarked (tet_insert m t).1.
  Proof.
    intros [Ht Hv] Hf. unfold tet_insert. pose proof (im_insert_get (m_tets m) t) as H. destruct (im_insert (m_tets m) t) as [ts k].
    split; [|done]. intros id t' [->|E]%H; [done|by eapply Ht].
  Qed.
  Lemma um_get m id : unmarked m → okr (λ t, f_wfv (t_flags t) = false) (tet_get m id).
  Proof. intros [Ht _] t E. by eapply Ht. Qed.
  Lemma um_vref m v w : unmarked m → unmarked (vert_ref m v w).
  Proof.
    intros [Ht [Hg Hv]]. unfold vert_ref. destruct (im_get (m_verts m) v) as [vt|] eqn:Ev; [|done].
    destruct (im_set (m_verts m) v _) as [vs|] eqn:Es; [|done]. split; [done|]. split; [done|].
    intros v' vt' [[-> ->]|H]%(im_set_get _ _ _ _ _ _ Es); [cbn|]; by eapply Hv.
  Qed.
  Lemma um_vref_idx m v w : unmarked m → okr unmarked (vert_ref_idx m v w).
  Proof. intros H. unfold vert_ref_idx. destruct (im_get (m_verts m) v); [|apply okr_none]. by apply okr_some, um_vref. Qed.
  Lemma um_fold {A} (f : mesh V T → A → option (mesh V T)) l : (∀ m a, unmarked m → okr unmarked (f m a)) →
    ∀ m, unmarked m → okr unmarked (mfoldl f l m).
  Proof.
    intros Hf. induction l as [|a l IH]; intros m Hm; cbn; [by apply okr_some|]. eapply okr_bind; [by apply Hf|]. apply IH.
  Qed.
  Lemma um_tm m x : unmarked m → unmarked (with_trimap m x).
  Proof. done. Qed.
  Lemma um_rm_tet m id : unmarked m → okr unmarked (trimap_remove_tet m id).
  Proof.
    apply um_fold. clear. intros m i Hm. unfold trimap_remove. apply okr_any. intros t. by apply okr_some.
  Qed.
  Lemma um_ins_tet m id : unmarked m → okr unmarked (trimap_insert_tet m id).
  Proof.
    apply um_fold. clear. intros m i Hm. unfold trimap_insert. apply okr_any. intros t. by apply okr_some.
  Qed.
  Lemma um_rm_tets m ids : unmarked m → okr unmarked (trimap_remove_tets m ids).
  Proof. intros H. unfold trimap_remove_tets. destruct (m_track m); [|by apply okr_some]. apply um_fold; [|done]. intros; by apply um_rm_tet. Qed.
  Lemma um_ins_tets m ids : unmarked m → okr unmarked (trimap_insert_tets m ids).
  Proof. intros H. unfold trimap_insert_tets. destruct (m_track m); [|by apply okr_some]. apply um_fold; [|done]. intros; by apply um_ins_tet. Qed.
  Lemma um_relink m w id b : unmarked m → okr (λ r, unmarked r.1) (relink m w id b).
  Proof.
    intros H. unfold relink. apply okr_any. intros adj. apply okr_any. intros t. eapply okr_bind; [by apply um_upd|].
    intros m' Hm'. by apply okr_some.
  Qed.
  Lemma um_copy_edge m id k src : unmarked m → okr unmarked (copy_edge m id k src).
  Proof. intros H. unfold copy_edge. apply okr_any. intros e. by apply um_upd. Qed.
  Lemma um_copy_lock m id k src : unmarked m → okr unmarked (copy_lock m id k src).
  Proof. intros H. unfold copy_lock. apply okr_any. intros [|]; [by apply um_upd|by apply okr_some]. Qed.
  Lemma um_clear m id : unmarked m → okr unmarked (clear_locks m id).
  Proof. intros H. by apply um_upd. Qed.

  Lemma um_edges m x : unmarked m → unmarked (with_edges m x).
  Proof. done. Qed.
  Lemma im_remove_get {X} (im : idmap X) k k' y : im_get (im_remove im k).1 k' = Some y → im_get im k' = Some y.
  Proof. unfold im_remove, im_get. destruct (im_slots im !! k); cbn; [|done]. by intros [_ ?]%lookup_delete_Some. Qed.
  Lemma um_remove m id : unmarked m → unmarked (with_tets m (im_remove (m_tets m) id).1).
  Proof. intros [Ht Hv]. split; [|done]. intros id' t H%im_remove_get. by eapply Ht. Qed.
  Lemma um_edges_extend m x : unmarked m → unmarked (edges_extend m x).1.
  Proof. intros H. unfold edges_extend. by destruct (im_extend_values _ _). Qed.
  Lemma um_edge_insert m x : unmarked m → unmarked (edge_insert m x).1.
  Proof. intros H. unfold edge_insert. by destruct (im_insert _ _). Qed.

  Ltac us := repeat first [assumption | apply um_vref | apply um_remove | apply um_edges | apply um_edges_extend | apply um_edge_insert].
  Ltac um1 := match goal with
    | |- okr _ (tet_upd _ _ _ ≫= _) => eapply okr_bind; [apply um_upd; [us|done]|]; intros ? ?
    | |- okr _ (tet_upd _ _ _) => apply um_upd; [us|done]
    | |- okr _ (tet_get _ _ ≫= _) => eapply okr_bind; [apply um_get; us|]; intros ? ?; cbv beta in *
    | |- okr _ (clear_locks _ _ ≫= _) => eapply okr_bind; [apply um_clear; us|]; intros ? ?
    | |- okr _ (trimap_remove_tets _ _ ≫= _) => eapply okr_bind; [apply um_rm_tets; us|]; intros ? ?
    | |- okr _ (trimap_insert_tets _ _ ≫= _) => eapply okr_bind; [apply um_ins_tets; us|]; intros ? ?
    | |- okr _ (vert_ref_idx _ _ _ ≫= _) => eapply okr_bind; [apply um_vref_idx; us|]; intros ? ?
    | |- okr _ (relink _ _ _ _ ≫= _) => eapply okr_bind; [apply um_relink; us|]; intros [? ?] ?; cbn [fst] in *
    | |- okr _ (copy_edge _ _ _ _ ≫= _) => eapply okr_bind; [apply um_copy_edge; us|]; intros ? ?
    | |- okr _ (copy_lock _ _ _ _ ≫= _) => eapply okr_bind; [apply um_copy_lock; us|]; intros ? ?
    | |- okr _ (copy_lock _ _ _ _) => apply um_copy_lock; us
    | H : unmarked ?m, Ht : f_wfv (t_flags ?t) = false |- okr _ (let '(_, _) := tet_insert ?m ?t in _) =>
        let H' := fresh in pose proof (um_insert m t H Ht) as H'; destruct (tet_insert m t) as [? ?]; cbn [fst] in H'
    | |- okr _ (let '(_, _) := edges_extend ?m ?t in _) =>
        let H' := fresh in assert (unmarked (edges_extend m t).1) as H' by us;
        destruct (edges_extend m t) as [? ?]; cbn [fst] in H'
    | |- okr _ (let '(_, _) := edge_insert ?m ?t in _) =>
        let H' := fresh in assert (unmarked (edge_insert m t).1) as H' by us;
        destruct (edge_insert m t) as [? ?]; cbn [fst] in H'
    | |- okr _ (mfoldl _ _ _ ≫= _) => eapply okr_bind; [apply um_fold; [|us]|intros ? ?]
    | |- okr _ (Some _) => apply okr_some; cbn [fst]; us
    | |- okr _ None => apply okr_none
    | |- okr _ (_ ≫= _) => apply okr_any; intros ?
    end.

  Lemma um_flip14 m w v : unmarked m → okr (λ r, unmarked r.1) (flip14_unchecked m w v).
  Proof.
    intros H. unfold flip14_unchecked. cbv zeta. repeat um1. intros m' [id i] Hm'. repeat um1.
  Qed.
  Lemma um_flip23 m w : unmarked m → okr (λ r, unmarked r.1) (flip23_unchecked m w).
  Proof.
    intros H. unfold flip23_unchecked. cbv zeta. repeat um1. intros m' item Hm'. destruct item as [[[[[[id va] vb] nx] pv] ab] at_]. repeat um1.
  Qed.
  Lemma um_flip32 m w : unmarked m → okr (λ r, unmarked r.1) (flip32_unchecked m w).
  Proof. intros H. unfold flip32_unchecked. cbv zeta. repeat um1. Qed.
  Lemma um_flip44 m w : unmarked m → okr (λ r, unmarked r.1) (flip44_unchecked m w).
  Proof.
    intros H. unfold flip44_unchecked. eapply okr_bind; [by apply um_flip23|]. intros [m1 [[w0 w1] w2]] H1. cbn in H1.
    eapply okr_bind; [by apply um_flip32|]. intros [m2 ws] H2. cbn in H2. cbv zeta.
    repeat first [um1 | destruct (bool_decide _)].
  Qed.

  Lemma okr_fst {A B} (P : A → Prop) (o : option (A * B)) : okr (λ r, P r.1) o → okr P (fst <$> o).
  Proof. intros H a Ha. destruct o as [[x y]|]; [|done]. injection Ha as <-. by apply (H (x, y)). Qed.

  Lemma um_add m p v : unmarked m → unmarked (add_vertex m p v).1.
  Proof.
    intros [Ht [Hg Hv]]. unfold add_vertex. pose proof (im_insert_get (m_verts m) (Vertex (Walker invalid_id 0) vf_empty p v)) as H.
    destruct (im_insert (m_verts m) _) as [vs k]. split; [done|]. split; [done|]. intros v' vt [->|E]%H; [done|by eapply Hv].
  Qed.

  Lemma um_op m o : unmarked m → okr unmarked (run_op m o).
  Proof.
    intros H. destruct o; cbn [run_op].
    - by apply okr_some, um_add.
    - pose proof (um_add m p v H) as H'. destruct (add_vertex m p v) as [m1 id]. by apply okr_fst, um_flip14.
    - by apply okr_fst, um_flip14.
    - by apply okr_fst, um_flip23.
    - by apply okr_fst, um_flip32.
    - by apply okr_fst, um_flip44.
    - apply okr_fst. unfold flip23_unlocked. apply okr_any. intros [|]; [by apply okr_some|].
      eapply okr_bind; [by apply um_flip23|]. intros [m' ws] Hm'. by apply okr_some.
    - apply okr_fst. unfold flip32_unlocked. do 8 (apply okr_any; intros ?). destruct (_ || _); [by apply okr_some|].
      eapply okr_bind; [by apply um_flip32|]. intros [m' ws] Hm'. by apply okr_some.
    - unfold set_track_tri_map. destruct b; [|by apply okr_some]. apply um_fold; [|done]. intros; by apply um_ins_tet.
    - unfold set_tri_lock. repeat um1.
    - unfold set_edge_lock. repeat um1.
  Qed.
  Lemma um_ops os : ∀ m, unmarked m → okr unmarked (run_ops m os).
  Proof. induction os as [|o os IH]; intros m H; cbn; [by apply okr_some|]. eapply okr_bind; [by apply um_op|apply IH]. Qed.

  Definition unmarkedb m : bool :=
    forallb (λ p : N * tet T, negb (f_wfv (t_flags p.2))) (map_to_list (im_slots (m_tets m))) &&
    negb (vf_targets (m_ghost_flags m)) &&
    forallb (λ p : N * vertex V, negb (vf_targets (v_flags p.2))) (map_to_list (im_slots (m_verts m))).
  Lemma unmarkedb_spec m : unmarkedb m = true → unmarked m.
  Proof.
    unfold unmarkedb. rewrite !andb_true_iff, !forallb_forall, negb_true_iff. intros [[H1 H2] H3]. split; [|split; [done|]].
    - intros id t E. apply negb_true_iff. apply (H1 (id, t)). apply elem_of_list_In, elem_of_map_to_list. exact E.
    - intros v vt E. apply negb_true_iff. apply (H3 (v, vt)). apply elem_of_list_In, elem_of_map_to_list. exact E.
  Qed.
  Lemma um_new sim ctr ps (dflt : T) : okr unmarked (mesh_new (V := V) sim ctr ps dflt).
  Proof.
    assert (match mesh_new sim ctr ps dflt with Some m => unmarkedb m | None => true end = true) as H.
    { unfold mesh_new. destruct (sim _ _ _ _); vm_compute; reflexivity. }
    intros m E. rewrite E in H. by apply unmarkedb_spec.
  Qed.

  Theorem reachable_unmarked m : reachable m → unmarked m.
  Proof. intros (sim & ctr & ps & dflt & m0 & os & E0 & _ & E). eapply um_ops; [|exact E]. by eapply um_new. Qed.
End marks.

Section traversals.
  Context {V T : Type}.
  Implicit Types (m : mesh V T) (w : walker).

  Lemma wfvo_traversal m v s l n : no_tet_marks m → walkers_from_vertex m v = Some s → yields (wfv_next m) s l →
    ∃ so s', walkers_from_vertex_opt m v = Some so ∧ iter_take wfvo_next n so = Some (take n l, s') ∧ wfvo_drop s' = Some m.
  Proof.
    intros Hm E Hy. unfold walkers_from_vertex, walkers_from_vertex_opt in *. destruct (walker_from_vertex m v) as [w|]; [|done].
    cbn in E. injection E as <-. destruct (Hy n) as ([vis st] & En).
    destruct (wfvo_take m n Hm [] [w] (take n l) vis st) as (vl & E1 & Hok); [split; [constructor|set_solver]|done|].
    rewrite mark_tets_nil in E1. exists (m, [], [w]). eexists. split; [done|]. split; [exact E1|]. by apply wfvo_drop_ok.
  Qed.
  Lemma vto_traversal m v s l n : mesh_ok m → no_vertex_marks m → vertex_target_walkers m v = Some s → yields (vt_next m) s l →
    ∃ so s', vertex_target_walkers_opt m v = Some so ∧ iter_take vto_next n so = Some (take n l, s') ∧ vto_drop s' = Some m.
  Proof.
    intros Hok Hm E Hy. unfold vertex_target_walkers, vertex_target_walkers_opt in *. destruct (walker_from_vertex m v) as [w|]; [|done].
    cbn in E. injection E as <-. destruct (Hy n) as ([vis st] & En).
    destruct (vto_take m (ok_ghost m Hok) Hm (λ w b, tet_vertex_known m w b Hok) n [] [w] (take n l) vis st) as (vl & E1 & Hvl); [split; [constructor|set_solver]|done|].
    rewrite mark_verts_nil in E1. exists (m, [], [w]). eexists. split; [done|]. split; [exact E1|].
    apply vto_drop_ok; [exact (ok_ghost m Hok)|done|intros u b; by apply tet_vertex_known|done].
  Qed.
End traversals.
