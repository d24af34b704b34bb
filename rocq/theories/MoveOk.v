(** What moving the inserted vertices does with the places and values of vertices, on any mesh. *)
From stdpp Require Import base numbers list gmap option.
From Coq Require Import NArith ZArith QArith Lia.
From Verif Require Import IdMapModel IdMapSpec IdMapProofs WalkerModel MeshModel MeshOps MeshSpec UtilModel IterModel Marks GeoModel CavModel InsModel DelModel IntSpec WayModel MidModel TolModel TransModel MoveModel FromKept.
Local Open Scope nat_scope.

Section frame.
  Context {V T : Type}.
  Implicit Types (m : mesh V T) (w : walker) (D : N → option (pt * V)).

  Record vkeep D (n : N) m : Prop := VKeep { vk_wf : im_wf (m_verts m); vk_npi : (im_npi (m_verts m) <= n)%N; vk_data v : vdata m v = D v }.
  Context (D : N → option (pt * V)) (n : N).
  Notation K := (vkeep D n).

  Lemma kp_same m m' : m_verts m' = m_verts m → K m → K m'.
  Proof. intros E []. split; [by rewrite E|by rewrite E|]. intros v. unfold vdata. rewrite E. apply vk_data0. Qed.
  Lemma kp_upd m id f : K m → okr K (tet_upd m id f).
  Proof.
    intros H m' E. unfold tet_upd in E. destruct (tet_get m id) as [t|]; [|done]. cbn in E.
    destruct (im_set (m_tets m) id (f t)) as [ts|]; [|done]. injection E as <-. by apply (kp_same m).
  Qed.
  Lemma kp_insert m t : K m → K (tet_insert m t).1.
  Proof. intros H. unfold tet_insert. destruct (im_insert (m_tets m) t). by apply (kp_same m). Qed.
  Lemma kp_remove m id : K m → K (with_tets m (im_remove (m_tets m) id).1).
  Proof. by apply kp_same. Qed.
  Lemma kp_vset m v vt vt' vs : K m → im_get (m_verts m) v = Some vt → v_pos vt' = v_pos vt → v_val vt' = v_val vt → im_set (m_verts m) v vt' = Some vs → K (with_verts m vs).
  Proof.
    intros [] Ev Ep Ex Es. destruct (wf_set (m_verts m) v vt' vk_wf0) as (vs' & Es' & Hw & Ha); [eauto|]. rewrite Es in Es'. injection Es' as <-.
    unfold im_abs_of in Ha. injection Ha as Hsl Hn. split; cbn [m_verts with_verts]; [done|by rewrite Hn|]. intros v'. rewrite <- vk_data0. unfold vdata. cbn [m_verts with_verts].
    unfold im_get in *. rewrite Hsl.
    destruct (decide (v' = v)) as [->|]; [|by rewrite lookup_insert_ne]. rewrite lookup_insert, Ev. cbn. by rewrite Ep, Ex.
  Qed.
  Lemma kp_vref m v w : K m → K (vert_ref m v w).
  Proof.
    intros H. unfold vert_ref. destruct (im_get (m_verts m) v) as [vt|] eqn:Ev; [|done].
    destruct (im_set (m_verts m) v _) as [vs|] eqn:Es; [|done]. apply (kp_vset m v vt _ vs H Ev) in Es; done.
  Qed.
  Lemma kp_vref_idx m v w : K m → okr K (vert_ref_idx m v w).
  Proof. intros H. unfold vert_ref_idx. destruct (im_get _ _); [|apply okr_none]. by apply okr_some, kp_vref. Qed.
  Lemma kp_flags m v f : K m → okr K (set_vertex_flags m v f).
  Proof.
    intros H. unfold set_vertex_flags. destruct (decide (v = GHOST)); [apply okr_some; by apply (kp_same m)|].
    destruct (im_get (m_verts m) v) as [vt|] eqn:Ev; [|apply okr_none]. cbn [mbind option_bind]. destruct (im_set _ _ _) as [vs|] eqn:Es; [|apply okr_none].
    apply okr_some. apply (kp_vset m v vt _ vs H Ev) in Es; done.
  Qed.
  Lemma kp_edge_upd m e f : K m → okr K (edge_upd m e f).
  Proof. intros H. unfold edge_upd. apply okr_any. intros ue. apply okr_any. intros es. apply okr_some. by apply (kp_same m). Qed.
  Lemma kp_edge_insert m vs : K m → K (edge_insert m vs).1.
  Proof. intros H. unfold edge_insert. destruct (im_insert _ _). by apply (kp_same m). Qed.
  Lemma kp_edge_remove m e : K m → K (with_edges m (im_remove (m_edges m) e).1).
  Proof. by apply kp_same. Qed.
  Lemma kp_tri_remove m w : K m → okr K (trimap_remove m w).
  Proof. intros H. unfold trimap_remove. apply okr_any. intros t. apply okr_some. by apply (kp_same m). Qed.
  Lemma kp_tri_insert m w : K m → okr K (trimap_insert m w).
  Proof. intros H. unfold trimap_insert. apply okr_any. intros t. apply okr_some. by apply (kp_same m). Qed.
  Lemma kp_fold {A} (f : mesh V T → A → option (mesh V T)) l : (∀ m a, K m → okr K (f m a)) → ∀ m, K m → okr K (mfoldl f l m).
  Proof. intros Hf. induction l as [|a l IH]; intros m Hm; cbn; [by apply okr_some|]. eapply okr_bind; [by apply Hf|]. apply IH. Qed.
  Lemma kp_foldp {A B} (f : mesh V T * B → A → option (mesh V T * B)) l : (∀ s a, K s.1 → okr (λ s : mesh V T * B, K s.1) (f s a)) →
    ∀ s, K s.1 → okr (λ s : mesh V T * B, K s.1) (mfoldl f l s).
  Proof. intros Hf. induction l as [|a l IH]; intros s Hs; cbn; [by apply okr_some|]. eapply okr_bind; [by apply Hf|]. apply IH. Qed.

  (** ** Filling *)
  Lemma kp_put_ebound b m w : K m → okr K (put_ebound b m w).
  Proof. intros H. unfold put_ebound. apply okr_any. intros e. by apply kp_edge_upd. Qed.
  Lemma kp_mark m w : K m → okr K (mark_tri m w).
  Proof.
    intros H. unfold mark_tri. eapply okr_bind; [by apply kp_upd|]. intros m1 H1.
    do 2 (eapply okr_bind; [by apply kp_put_ebound|]; intros ? ?). by apply kp_put_ebound.
  Qed.
  Lemma kp_drop_edge m e : K m → K (drop_edge m e).
  Proof. intros H. unfold drop_edge. destruct (im_get _ _) as [ue|]; [|done]. destruct (ue_boundary ue); [done|by apply kp_edge_remove]. Qed.
  Lemma kp_purge m id : K m → okr K (purge_tet m id).
  Proof.
    intros H. unfold purge_tet. apply okr_any. intros t.
    assert (∀ l m, K m → K (fold_left drop_edge l m)) as Hf.
    { clear. induction l as [|e l IH]; intros m H; [done|]. by apply IH, kp_drop_edge. }
    cbv zeta. apply okr_any. intros t'. apply okr_some. destruct (f_boundary _); [by apply Hf|]. by apply kp_remove, Hf.
  Qed.
  Lemma kp_own (s : mesh V T * list walker) w : K s.1 → okr (λ s : mesh V T * list walker, K s.1) (own_tet s w).
  Proof.
    destruct s as [m acc]. cbn [fst]. intros H. unfold own_tet. apply okr_any. intros t. destruct (f_dup _).
    - pose proof (kp_insert m t H) as H1. destruct (tet_insert m t) as [m1 id]. cbn [fst] in H1. apply okr_any. intros adj.
      eapply okr_bind; [by apply kp_upd|]. intros m2 H2. by apply okr_some.
    - eapply okr_bind; [by apply kp_upd|]. intros m2 H2. by apply okr_some.
  Qed.
  Lemma kp_join m w : K m → okr K (join_edge m w).
  Proof.
    intros H. unfold join_edge. apply okr_any; intros e. apply okr_any; intros ue. destruct (negb _); [|by apply kp_edge_upd]. cbv zeta.
    apply okr_any. intros x. eapply okr_bind; [by apply kp_upd|]. intros m1 H1. apply okr_any. intros y. eapply okr_bind; [by apply kp_upd|]. intros m2 H2.
    by apply kp_edge_upd.
  Qed.
  Lemma kp_cone v m w : K m → okr K (cone_tri v m w).
  Proof.
    intros H. unfold cone_tri. eapply okr_bind; [by apply kp_upd|]. intros m1 H1.
    do 3 (eapply okr_bind; [by apply kp_put_ebound|]; intros ? ?).
    do 2 (eapply okr_bind; [by apply kp_upd|]; intros ? ?). apply okr_any. intros vt. cbv zeta. apply okr_any. intros [[x1 x2] x3].
    apply kp_fold; [intros; by apply kp_join|]. do 3 apply kp_vref. destruct (N.eqb _ _); [by apply kp_vref|done].
  Qed.
  Lemma kp_set_added b m v : K m → okr K (set_added b m v).
  Proof. intros H. unfold set_added. apply okr_any. intros f. by apply kp_flags. Qed.
  Lemma kp_write fuel e : ∀ m s w, K m → okr K (write_ring fuel e m s w).
  Proof.
    induction fuel as [|fuel IH]; intros m s w H; cbn [write_ring]; [apply okr_none|]. eapply okr_bind; [by apply kp_upd|]. intros m1 H1.
    apply okr_any. intros x. destruct (bool_decide _); [by apply okr_some|by apply IH].
  Qed.
  Lemma kp_spoke v m w : K m → okr K (add_spoke v m w).
  Proof.
    intros H. unfold add_spoke. apply okr_any; intros src. apply okr_any; intros f. destruct (vf_edge_added _); [by apply okr_some|].
    eapply okr_bind; [by apply kp_set_added|]. intros m1 H1. pose proof (kp_edge_insert m1 (src, v) H1) as H2. destruct (edge_insert m1 _) as [m2 e]. by apply kp_write.
  Qed.
  Lemma kp_rm_tets m ids : K m → okr K (trimap_remove_tets m ids).
  Proof.
    intros H. unfold trimap_remove_tets. destruct (m_track m); [|by apply okr_some]. apply kp_fold; [|done]. intros m1 id H1.
    unfold trimap_remove_tet. apply kp_fold; [|done]. intros; by apply kp_tri_remove.
  Qed.
  Lemma kp_ins_tets m ids : K m → okr K (trimap_insert_tets m ids).
  Proof.
    intros H. unfold trimap_insert_tets. destruct (m_track m); [|by apply okr_some]. apply kp_fold; [|done]. intros m1 id H1.
    unfold trimap_insert_tet. apply kp_fold; [|done]. intros; by apply kp_tri_insert.
  Qed.
  Lemma kp_fill m v B E : K m → okr (λ r : mesh V T * list walker, K r.1) (flip_in_vertex_unchecked m v B E).
  Proof.
    intros H. unfold flip_in_vertex_unchecked. eapply okr_bind; [by apply kp_rm_tets|]. intros m1 H1.
    eapply okr_bind; [apply kp_fold; [intros; by apply kp_mark|done]|]. intros m2 H2.
    eapply okr_bind; [apply kp_fold; [intros; by apply kp_purge|done]|]. intros m3 H3.
    eapply okr_bind; [apply kp_foldp; [intros; by apply kp_own|exact H3]|]. intros [m4 B'] H4. cbn [fst] in H4.
    eapply okr_bind; [apply kp_fold; [intros; by apply kp_cone|done]|]. intros m5 H5.
    eapply okr_bind; [apply kp_fold; [|done]; intros m' w Hm'; apply kp_fold; [intros; by apply kp_spoke|done]|]. intros m6 H6.
    eapply okr_bind; [apply kp_fold; [|done]; intros m' w Hm'; apply kp_fold; [|done]; intros m'' u Hm''; apply okr_any; intros x; by apply kp_set_added|]. intros m7 H7.
    eapply okr_bind; [by apply kp_ins_tets|]. intros m8 H8. by apply okr_some.
  Qed.

  (** ** The search for the cavity, without extending *)
  Lemma kp_put_imm b m w : K m → okr K (put_imm b m w). Proof. apply kp_upd. Qed.
  Lemma kp_retract_over (s : mesh V T * list walker) w : K s.1 → okr (λ s : mesh V T * list walker, K s.1) (retract_over s w).
  Proof.
    destruct s as [m q]. cbn [fst]. intros H. unfold retract_over. apply okr_any; intros [|].
    - eapply okr_bind; [by apply kp_put_imm|]. intros m1 H1. by apply okr_some.
    - apply okr_any; intros tw. eapply okr_bind; [by apply kp_put_imm|]. intros m1 H1. by apply okr_some.
  Qed.
  Lemma kp_retract ori fuel X : ∀ m q B, K m → okr (λ r : mesh V T * list walker, K r.1) (retract ori fuel X m q B).
  Proof.
    induction fuel as [|fuel IH]; intros m q B H; cbn [retract]; [apply okr_none|]. destruct q as [|tri q]; [by apply okr_some|].
    apply okr_any; intros b. destruct (negb b); [by apply IH|]. apply okr_any; intros vs. destruct (_ && _); [by apply IH|].
    eapply okr_bind; [by apply kp_upd|]. intros m1 H1. eapply okr_bind; [by apply kp_put_imm|]. intros m2 H2.
    eapply okr_bind; [apply kp_foldp; [intros; by apply kp_retract_over|exact H2]|]. intros [m3 q3] H3. by apply IH.
  Qed.
  Lemma kp_cavity ins ori m B E ex st : K m → okr (λ r : mesh V T * list walker * list N, K r.1.1) (point_cavity ins ori m B E ex false st false).
  Proof.
    intros H. unfold point_cavity. eapply okr_bind.
    { apply kp_fold; [|exact H]. intros m1 w H1. unfold start_tri. apply okr_any; intros vs. destruct (_ && _); [apply okr_none|by apply kp_put_imm]. }
    intros m1 H1. cbn [mbind option_bind]. eapply (okr_bind (λ r : mesh V T * list walker * list N, K r.1.1)).
    - unfold shrink. eapply (okr_bind (λ r : mesh V T * list walker * list N, K r.1.1)).
      2: { intros [[m2 B2] E2] H2. destruct (decide _); [apply okr_none|by apply okr_some]. }
      eapply okr_bind; [apply kp_fold; [|exact H1]; intros m2 w H2; unfold restart_tri; eapply okr_bind; [by apply kp_put_imm|]; intros m3 H3; by apply kp_upd|].
      intros m2 H2. eapply okr_bind; [by apply kp_retract|]. intros [m3 B3] H3. cbn [fst] in H3.
      eapply okr_bind; [apply kp_foldp; [|exact H3]; intros [m4 a] w H4; cbn [fst] in H4; unfold keep_tri; apply okr_any; intros b; eapply okr_bind; [by apply kp_put_imm|]; intros m5 H5; by apply okr_some|].
      intros [m4 B4] H4. cbn [fst] in H4.
      eapply okr_bind; [apply kp_foldp; [|exact H4]; intros [m5 a] w H5; cbn [fst] in H5; unfold keep_tet; apply okr_any; intros b; eapply okr_bind; [by apply kp_upd|]; intros m6 H6; by apply okr_some|].
      intros [m5 E5] H5. by apply okr_some.
    - intros [[m2 B2] E2] H2. destruct (decide _); [by apply okr_some|apply okr_none].
  Qed.

  (** ** The transforms *)
  Notation KE := (λ s : mesh V T * gmap (N * N) N, K s.1).
  Lemma kp_insert_tet (df : T) m (vs : arr4 N) (em : gmap (N * N) N) : K m → okr (λ r : mesh V T * gmap (N * N) N * walker, K r.1.1) (insert_tet df m vs em).
  Proof.
    intros H. unfold insert_tet. cbv zeta. pose proof (kp_insert m (tet_new vs (A4 (Walker invalid_id 0) (Walker invalid_id 0) (Walker invalid_id 0) (Walker invalid_id 0))
      (A6 invalid_id invalid_id invalid_id invalid_id invalid_id invalid_id) df) H) as H1. destruct (tet_insert m _) as [m1 tet]. cbn [fst] in H1.
    eapply okr_bind.
    { apply kp_fold; [|exact H1]. intros m2 i H2. unfold glue_face. cbv zeta. apply okr_any; intros [[a b] c]. apply okr_any; intros r.
      eapply (okr_bind K).
      - destruct r as [adj|]; [|by apply okr_some]. eapply okr_bind; [by apply kp_upd|]. intros m3 H3. apply okr_any; intros x. by apply kp_upd.
      - intros m3 H3. eapply okr_bind; [by apply kp_tri_insert|]. intros m4 H4. by apply kp_vref_idx. }
    intros m2 H2. eapply okr_bind.
    { apply kp_foldp; [|exact H2]. intros [m3 em3] i H3. cbn [fst] in H3. unfold glue_edge. apply okr_any; intros w. apply okr_any; intros p. cbv zeta.
      destruct (em3 !! sorted_2 p) as [id|].
      - eapply okr_bind; [by apply kp_upd|]. intros m4 H4. by apply okr_some.
      - pose proof (kp_edge_insert m3 (sorted_2 p) H3) as H4. destruct (edge_insert m3 _) as [m4 id]. cbn [fst] in H4. eapply okr_bind; [by apply kp_upd|]. intros m5 H5. by apply okr_some. }
    intros [m3 em3] H3. by apply okr_some.
  Qed.
  Lemma kp_take_out (vt : N) (sp : bool) (s : mesh V T * gmap (N * N) N) (x : N * N) : KE s → okr KE (take_out vt sp s x).
  Proof.
    destruct s as [m em], x as [v0 v1]. cbn [fst]. intros H. unfold take_out. apply okr_any; intros r. apply okr_any; intros w. apply okr_any; intros adj.
    apply okr_any; intros e0. eapply okr_bind; [by apply kp_edge_upd|]. intros m1 H1. apply okr_any; intros e1. eapply okr_bind; [by apply kp_edge_upd|]. intros m2 H2.
    eapply okr_bind; [by apply kp_upd|]. intros m3 H3. eapply okr_bind; [by apply kp_upd|]. intros m4 H4. apply okr_any; intros es. apply okr_any; intros em'.
    eapply (okr_bind K).
    - destruct sp; [|by apply okr_some]. apply okr_any; intros e. by apply okr_some, kp_edge_remove.
    - intros m5 H5. eapply okr_bind; [apply kp_fold; [|exact H5]; intros; by apply kp_tri_remove|]. intros m6 H6. by apply okr_some, kp_remove.
  Qed.
  Lemma kp_put_tri (df : T) (vt vb : N) (s : mesh V T * gmap (N * N) N) (t : N * N * N) : KE s → okr KE (put_tri df vt vb s t).
  Proof.
    destruct s as [m em], t as [[v0 v1] v2]. cbn [fst]. intros H. unfold put_tri. eapply okr_bind; [by apply kp_insert_tet|]. intros [[m1 em1] w1] H1. cbn [fst] in H1.
    eapply okr_bind; [by apply kp_upd|]. intros m2 H2. eapply okr_bind; [by apply kp_insert_tet|]. intros [[m3 em3] w3] H3. cbn [fst] in H3.
    eapply okr_bind; [by apply kp_upd|]. intros m4 H4. eapply okr_bind; [apply kp_fold; [|exact H4]; intros m5 p H5; apply okr_any; intros e; by apply kp_edge_upd|].
    intros m5 H5. by apply okr_some.
  Qed.
  Lemma kp_cap (df : T) m (l : list N) (vt vb : N) (ts : list (N * N * N)) : K m → okr K (cap_transform df m l vt vb ts).
  Proof.
    intros H. unfold cap_transform. eapply okr_bind; [apply (kp_foldp (take_out vt false)); [intros; by apply kp_take_out|exact H]|]. intros [m1 em1] H1. cbn [fst] in H1.
    apply okr_any; intros f. apply okr_any; intros la. eapply okr_bind; [by apply kp_insert_tet|]. intros [[m2 em2] w2] H2. cbn [fst] in H2.
    eapply okr_bind; [apply kp_foldp; [intros; by apply kp_put_tri|exact H2]|]. intros [m3 em3] H3. by apply okr_some.
  Qed.
  Lemma kp_shell (df : T) m (l : list N) (vt vb : N) (ts : list (N * N * N)) : K m → okr K (shell_transform df m l vt vb ts).
  Proof.
    intros H. unfold shell_transform. eapply okr_bind; [apply kp_foldp; [intros s x Hs; exact (kp_take_out vt (bool_decide (head l = Some x.2)) s x Hs)|exact H]|]. intros [m1 em1] H1.
    eapply okr_bind; [apply kp_foldp; [intros; by apply kp_put_tri|exact H1]|]. intros [m3 em3] H3. by apply okr_some.
  Qed.
End frame.

Section moves.
  Context {V T C : Type}.
  Context (ops : cdt_ops C) (dflt : T) (unit : pt → pt) (scaled : option Q → pt → pt → pt).
  Implicit Types (m : mesh V T) (D : N → option (pt * V)).

  Definition dput D (v : N) (x : pt * V) : N → option (pt * V) := λ v', if decide (v' = v) then Some x else D v'.
  Lemma dput_eq D v x : dput D v x v = Some x. Proof. unfold dput. by rewrite decide_True. Qed.
  Lemma dput_ne D v x v' : v' ≠ v → dput D v x v' = D v'. Proof. intros H. unfold dput. by rewrite decide_False. Qed.
  Lemma vk_ext D D' n m : (∀ v, D v = D' v) → vkeep D n m → vkeep D' n m.
  Proof. intros E []. split; [done..|]. intros v. by rewrite vk_data0. Qed.

  Lemma set_pos_s D n m v p : vkeep D n m → okr (λ m', ∃ po x, D v = Some (po, x) ∧ vkeep (dput D v (p, x)) n m') (set_pos m v p).
  Proof.
    intros [] m' E. unfold set_pos in E. destruct (im_get (m_verts m) v) as [vt|] eqn:Ev; [|done]. cbn [mbind option_bind] in E.
    destruct (wf_set (m_verts m) v (Vertex (v_tet vt) (v_flags vt) p (v_val vt)) vk_wf0) as (vs & Es & Hw & Ha); [eauto|]. rewrite Es in E. cbn [mbind option_bind] in E. apply (inj Some) in E as <-.
    unfold im_abs_of in Ha. injection Ha as Hsl Hn. exists (v_pos vt), (v_val vt). split; [by rewrite <- vk_data0; unfold vdata; rewrite Ev|].
    split; cbn [m_verts with_verts]; [done|by rewrite Hn|]. intros v'. unfold vdata. cbn [m_verts with_verts]. unfold im_get in *. rewrite Hsl. unfold dput.
    destruct (decide (v' = v)) as [->|]; [by rewrite lookup_insert|]. rewrite lookup_insert_ne by done. apply vk_data0.
  Qed.
  Lemma add_twin_s D n m p : vkeep D n m → (n + 1 < u32_mod)%N →
    okr (λ r : mesh V T * N * pt, ∃ x, D p = Some (r.2, x) ∧ D r.1.2 = None ∧ r.1.2 ≠ GHOST ∧ vkeep (dput D r.1.2 (r.2, x)) (n + 1) r.1.1) (add_twin m p).
  Proof.
    intros [] Hn r E. unfold add_twin in E. destruct (im_get (m_verts m) p) as [vt|] eqn:Ev; [|done]. cbn [mbind option_bind] in E. unfold add_vertex in E.
    pose proof (wf_insert (m_verts m) (Vertex (Walker invalid_id 0) vf_empty (v_pos vt) (v_val vt)) vk_wf0 ltac:(lia)) as Hi.
    pose proof (im_insert_npi (m_verts m) (Vertex (Walker invalid_id 0) vf_empty (v_pos vt) (v_val vt)) vk_wf0 ltac:(lia)) as Hb.
    destruct (im_insert (m_verts m) _) as [vs id] eqn:Ei. apply (inj Some) in E as <-. cbn [fst snd] in *. destruct Hi as (Hw & Hf & Ha).
    unfold im_abs_of, ab_store in Ha. injection Ha as Hsl Hnp. cbn in Hsl. exists (v_val vt). split; [by rewrite <- vk_data0; unfold vdata; rewrite Ev|].
    assert (im_slots (m_verts m) !! id = None) as Hnone by (destruct Hf as [Hf _]; exact Hf).
    assert (id < im_npi vs)%N as Hlt. { apply (wf_bound _ Hw). rewrite Hsl, lookup_insert. eauto. }
    split; [rewrite <- vk_data0; unfold vdata, im_get; by rewrite Hnone|]. split; [unfold GHOST, invalid_id, u32_mod in *; lia|].
    split; cbn [m_verts with_verts]; [done|lia|]. intros v'. unfold vdata, dput. cbn [m_verts with_verts]. unfold im_get in *. rewrite Hsl.
    destruct (decide (v' = id)) as [->|]; [by rewrite lookup_insert|]. rewrite lookup_insert_ne by done. apply vk_data0.
  Qed.

  (** A vertex [q_p] that is moved, its twin [q_s], and where the two go. *)
  Record quad := Quad { q_p : N; q_s : N; q_ev : pt → Prop; q_up : pt; q_down : pt }.
  Definition places D D' (q : quad) : Prop := ∃ po x ev t1 t2, q_ev q ev ∧ D (q_p q) = Some (po, x) ∧
    D' (q_p q) = Some (vadd po (scaled t1 ev (q_up q)), x) ∧ D' (q_s q) = Some (vadd po (scaled t2 ev (q_down q)), x).
  Definition qstep D D' (q : quad) : Prop := D (q_s q) = None ∧ q_s q ≠ GHOST ∧ places D D' q ∧ ∀ v, v ≠ q_p q → v ≠ q_s q → D' v = D v.
  Fixpoint qrun D (l : list quad) D' : Prop :=
    match l with [] => ∀ v, D' v = D v | q :: l => ∃ D1, qstep D D1 q ∧ qrun D1 l D' end.
  Lemma qrun_app D l1 D1 l2 D2 : qrun D l1 D1 → qrun D1 l2 D2 → qrun D (l1 ++ l2) D2.
  Proof.
    revert D. induction l1 as [|q l1 IH]; intros D; cbn.
    - intros E H. destruct l2 as [|q l2]; cbn in *; [intros v; by rewrite H|]. destruct H as (D' & (H1 & H2 & (po & x & ev & t1 & t2 & H3 & H4 & H5) & H6) & H7). exists D'. split; [|done].
      split; [by rewrite <- E|]. split; [done|]. split; [exists po, x, ev, t1, t2; by rewrite <- E|]. intros v N1 N2. rewrite <- E. by apply H6.
    - intros (D' & H1 & H2) H3. exists D'. split; [done|]. by apply IH.
  Qed.
  Lemma qrun_facts l : ∀ D D', qrun D l D' → NoDup (q_p <$> l) → (∀ p, p ∈ q_p <$> l → is_Some (D p)) →
    NoDup (q_s <$> l) ∧ (∀ s, s ∈ q_s <$> l → D s = None ∧ s ≠ GHOST) ∧ (∀ q, q ∈ l → places D D' q) ∧ (∀ v, v ∉ q_p <$> l → v ∉ q_s <$> l → D' v = D v).
  Proof.
    induction l as [|q l IH]; intros D D'; cbn [qrun fmap list_fmap].
    - intros E _ _. split; [apply NoDup_nil_2|]. split; [by intros s ?%elem_of_nil|]. split; [by intros s ?%elem_of_nil|]. done.
    - intros (D1 & (Hs & Hg & (po & x & ev & t1 & t2 & He & P1 & P2 & P3) & Ho) & Hr) [Hp Hnd]%stdpp.list.NoDup_cons Hex.
      assert (∀ p, p ∈ q_p <$> l → p ≠ q_p q ∧ p ≠ q_s q) as Hne.
      { intros p Hin. split; [by intros ->|]. intros ->. destruct (Hex (q_s q)) as [y Hy]; [by right|]. congruence. }
      assert (∀ v, is_Some (D v) → is_Some (D1 v)) as Hmono.
      { intros v Hv. destruct (decide (v = q_p q)) as [->|N1]; [eauto|]. destruct (decide (v = q_s q)) as [->|N2]; [eauto|]. by rewrite Ho. }
      destruct (IH D1 D' Hr Hnd) as (F1 & F2 & F3 & F4). { intros p Hin. apply Hmono, Hex. by right. }
      assert (q_s q ∉ q_s <$> l) as Hsn. { intros Hin. apply F2 in Hin as [Hin _]. congruence. }
      assert (q_p q ∉ q_s <$> l) as Hpn. { intros Hin. apply F2 in Hin as [Hin _]. congruence. }
      assert (q_s q ∉ q_p <$> l) as Hsp. { intros Hin. by apply Hne in Hin as [_ []]. }
      split; [by apply NoDup_cons_2|]. split; [|split].
      + intros s [->|Hin]%elem_of_cons; [done|]. destruct (F2 s Hin) as [G1 G2]. split; [|done]. destruct (D s) as [y|] eqn:E; [|done]. destruct (Hmono s) as [z Hz]; [eauto|]. congruence.
      + intros q' [->|Hin]%elem_of_cons.
        * exists po, x, ev, t1, t2. rewrite !F4 by done. done.
        * destruct (F3 q' Hin) as (po' & x' & ev' & t1' & t2' & G1 & G2 & G3). exists po', x', ev', t1', t2'. split; [done|]. split; [|done].
          destruct (Hne (q_p q')) as [N1 N2]; [by apply elem_of_list_fmap_1|]. by rewrite <- Ho.
      + intros v [N1 N2]%not_elem_of_cons [N3 N4]%not_elem_of_cons. rewrite F4 by done. by apply Ho.
  Qed.

  (** One vertex. *)
  Lemma shift_s D n m p s po x y up down ev t1 t2 : D s = Some (y, x) → (∃ po', D p = Some (po', x)) → p ≠ s → vkeep D n m →
    okr (λ m', vkeep (dput (dput D p (vadd po (scaled t1 ev up), x)) s (vadd po (scaled t2 ev down), x)) n m') (shift scaled m p s po ev up down t1 t2).
  Proof.
    intros Hs [po' Hp] Hne H. unfold shift. eapply okr_bind; [by apply set_pos_s|]. intros m1 (po1 & x1 & E1 & H1). rewrite Hp in E1. injection E1 as <- <-.
    intros m2 E2. destruct (set_pos_s _ _ _ _ _ H1 m2 E2) as (po2 & x2 & E3 & H2). rewrite dput_ne in E3 by done. rewrite Hs in E3. by injection E3 as <- <-.
  Qed.
  Lemma times_s D n m p s po x0 up down : D s = Some x0 → vkeep D n m →
    okr (λ r : mesh V T * option Q * option Q, ∃ y, vkeep (dput D s (y, x0.2)) n r.1.1) (times m p s po up down).
  Proof.
    intros Hs H. unfold times. eapply okr_bind; [by apply set_pos_s|]. intros m1 (po1 & x1 & E1 & H1). rewrite Hs in E1. injection E1 as ->. apply okr_any; intros t1.
    eapply okr_bind; [apply (set_pos_s _ _ _ _ _ H1)|]. intros m2 (po2 & x2 & E2 & H2). rewrite dput_eq in E2. injection E2 as _ <-. apply okr_any; intros t2. apply okr_some.
    eexists. cbn [fst snd]. eapply vk_ext; [|exact H2]. intros v. unfold dput. by destruct (decide (v = s)).
  Qed.
  Lemma insert_twin_s D n m c im p s es : vkeep D n m → okr (vkeep D n) (insert_twin ops c im m p s es).
  Proof.
    intros H. unfold insert_twin. apply okr_any; intros ws. apply okr_any; intros ex. eapply okr_bind; [by apply kp_cavity|]. intros [[m1 B] E] H1. cbn [fst] in H1.
    eapply okr_bind; [by apply kp_fill|]. intros [m2 B2] H2. by apply okr_some.
  Qed.
  Notation Post D n new q l := (λ s' : mstate (V:=V) (T:=T) (C:=C), ∃ z D', qstep D D' (q z) ∧ vkeep D' (n + 1) (ms_mesh s') ∧ ms_new s' = new ++ [l; z]).
  Lemma twin_done D p s po x y1 y2 x0 : D p = Some (po, x) → D s = None →
    let D1 := dput D s (po, x) in let D2 := dput (dput D1 s (x0, x)) p (y1, x) in let D3 := dput D2 s (y2, x) in
    D3 p = Some (y1, x) ∧ D3 s = Some (y2, x) ∧ ∀ v, v ≠ p → v ≠ s → D3 v = D v.
  Proof.
    intros Hp Hs. assert (p ≠ s) by congruence. cbv zeta. split; [by rewrite dput_ne, dput_eq|]. split; [by rewrite dput_eq|]. intros v N1 N2. by rewrite !dput_ne.
  Qed.
  Lemma edge_point_s D n normal e ev tan s p nx : vkeep D n (ms_mesh s) → (n + 1 < u32_mod)%N →
    okr (Post D n (ms_new s) (λ z, Quad p z (eq ev) (vadd normal tan) (vsub tan normal)) p) (move_edge_point ops dflt scaled normal e ev tan s (p, nx)).
  Proof.
    destruct s as [m c vm im new]. cbn [ms_mesh ms_new]. intros H Hn. unfold move_edge_point. cbv zeta.
    eapply okr_bind; [by apply add_twin_s|]. intros [[m1 z] po] (x & Hp & Hz & Hg & H1). cbn [fst snd] in *. assert (p ≠ z) as Hne by congruence.
    eapply okr_bind; [apply (times_s (dput D z (po, x)) (n + 1)%N _ _ _ _ (po, x)); [apply dput_eq|exact H1]|]. intros [[m2 t1] t2] (y & H2). cbn [fst snd] in *.
    eapply okr_bind; [apply (shift_s (dput (dput D z (po, x)) z (y, x)) (n + 1)%N _ p z po x y (vadd normal tan) (vsub tan normal) ev t1 t2); [apply dput_eq|exists po; rewrite !dput_ne by done; exact Hp|exact Hne|exact H2]|].
    cbv beta. intros m3 H3. apply okr_any; intros hp. apply okr_any; intros hn. apply okr_any; intros h0. apply okr_any; intros es.
    eapply okr_bind; [by apply insert_twin_s|]. intros m4 H4. apply okr_any; intros l. apply okr_any; intros c'. apply okr_any; intros [vm' im'].
    apply okr_any; intros h0'. apply okr_any; intros hn'. apply okr_any; intros c2. apply okr_any; intros ts.
    eapply okr_bind; [by apply kp_cap|]. intros m5 H5. apply okr_some. cbn [ms_mesh ms_new].
    destruct (twin_done D p z po x (vadd po (scaled t1 ev (vadd normal tan))) (vadd po (scaled t2 ev (vsub tan normal))) y Hp Hz) as (G1 & G2 & G3).
    exists z. eexists. split; [|split; [exact H5|done]]. split; [exact Hz|]. split; [exact Hg|]. split; [|exact G3]. exists po, x, ev, t1, t2. done.
  Qed.
  Lemma inner_point_s D n normal s p : vkeep D n (ms_mesh s) → (n + 1 < u32_mod)%N →
    okr (Post D n (ms_new s) (λ z, Quad p z (λ _, True) normal (vsub (Pt 0 0 0) normal)) p) (move_inner_point ops dflt scaled normal s p).
  Proof.
    destruct s as [m c vm im new]. cbn [ms_mesh ms_new]. intros H Hn. unfold move_inner_point. cbv zeta.
    eapply okr_bind; [by apply add_twin_s|]. intros [[m1 z] po] (x & Hp & Hz & Hg & H1). cbn [fst snd] in *. assert (p ≠ z) as Hne by congruence.
    eapply okr_bind; [apply (times_s (dput D z (po, x)) (n + 1)%N _ _ _ _ (po, x)); [apply dput_eq|exact H1]|]. intros [[m2 t1] t2] (y & H2). cbn [fst snd] in *.
    apply okr_any; intros hp. apply okr_any; intros es. apply okr_any; intros e0. apply okr_any; intros v. apply okr_any; intros pv. apply okr_any; intros pp.
    set (ev := vsub pv pp). set (down := vsub (Pt 0 0 0) normal).
    eapply okr_bind; [apply (shift_s (dput (dput D z (po, x)) z (y, x)) (n + 1)%N _ p z po x y normal down ev t1 t2); [apply dput_eq|exists po; rewrite !dput_ne by done; exact Hp|exact Hne|exact H2]|].
    cbv beta. intros m3 H3. eapply okr_bind; [by apply insert_twin_s|]. intros m4 H4. apply okr_any; intros l. apply okr_any; intros c'. apply okr_any; intros [vm' im'].
    apply okr_any; intros a. apply okr_any; intros b. apply okr_any; intros ts.
    eapply okr_bind; [by apply kp_shell|]. intros m5 H5. apply okr_some. cbn [ms_mesh ms_new].
    destruct (twin_done D p z po x (vadd po (scaled t1 ev normal)) (vadd po (scaled t2 ev down)) y Hp Hz) as (G1 & G2 & G3).
    exists z. eexists. split; [|split; [exact H5|done]]. split; [exact Hz|]. split; [exact Hg|]. split; [|exact G3]. exists po, x, ev, t1, t2. done.
  Qed.

  (** Lists of vertices. *)
  Definition pairs (ps zs : list N) : list N := concat (zip_with (λ p z, [p; z]) ps zs).
  Definition quads E up down (ps zs : list N) : list quad := zip_with (λ p z, Quad p z E up down) ps zs.
  Lemma fold_points {A} (f : mstate → A → option mstate) (g : A → N) E up down (l : list A) :
    (∀ D n s a, vkeep D n (ms_mesh s) → (n + 1 < u32_mod)%N → okr (Post D n (ms_new s) (λ z, Quad (g a) z E up down) (g a)) (f s a)) →
    ∀ D n s, vkeep D n (ms_mesh s) → (n + N.of_nat (length l) < u32_mod)%N →
    okr (λ s', ∃ zs D', length zs = length l ∧ qrun D (quads E up down (g <$> l) zs) D' ∧ vkeep D' (n + N.of_nat (length l)) (ms_mesh s') ∧ ms_new s' = ms_new s ++ pairs (g <$> l) zs) (mfoldl f l s).
  Proof.
    intros Hf. induction l as [|a l IH]; intros D n s H Hn; cbn [mfoldl].
    - apply okr_some. exists [], D. split; [done|]. split; [done|]. split; [|by rewrite app_nil_r]. cbn. by rewrite N.add_0_r.
    - cbn [length] in *. eapply okr_bind; [apply Hf; [exact H|lia]|]. cbv beta. intros s1 (z & D1 & Hq & H1 & E1). intros s' E'.
      destruct (IH D1 (n + 1)%N s1 H1 ltac:(lia) s' E') as (zs & D' & Hl & Hr & H2 & E2). exists (z :: zs), D'. split; [cbn; by rewrite Hl|]. split; [by exists D1|].
      split; [by replace (n + N.of_nat (S (length l)))%N with (n + 1 + N.of_nat (length l))%N by lia|]. rewrite E2, E1, <- app_assoc. done.
  Qed.
  Lemma zip_next (line : list N) (z : N) : fst <$> zip line (drop 1 line ++ [z]) = line ∧ length (zip line (drop 1 line ++ [z])) = length line.
  Proof.
    split; [apply fst_zip|rewrite zip_with_length]; rewrite app_length, drop_length; cbn; lia.
  Qed.
  Lemma vpos_data D n m v : vkeep D n m → vpos m v = fst <$> D v.
  Proof. intros H. rewrite <- (vk_data _ _ _ H). unfold vpos, vdata. by destruct (im_get (m_verts m) v). Qed.
  Lemma move_side_s D n normal e line s : vkeep D n (ms_mesh s) → (n + N.of_nat (length line) < u32_mod)%N →
    okr (λ s', ∃ p0 p1 zs D', fst <$> D e.1 = Some p0 ∧ fst <$> D e.2 = Some p1 ∧ length zs = length line ∧
      (let ev := vsub p1 p0 in let tan := unit (vcross ev normal) in qrun D (quads (eq ev) (vadd normal tan) (vsub tan normal) line zs) D') ∧
      vkeep D' (n + N.of_nat (length line)) (ms_mesh s') ∧ ms_new s' = ms_new s ++ pairs line zs) (move_side ops dflt unit scaled normal s (e, line)).
  Proof.
    intros H Hn s' E. unfold move_side in E. rewrite !(vpos_data _ _ _ _ H) in E.
    destruct (fst <$> D e.2) as [p1|] eqn:E1; [|done]. destruct (fst <$> D e.1) as [p0|] eqn:E0; [|done]. cbn [mbind option_bind] in E. cbv zeta in E.
    destruct (zip_next line e.2) as [Z1 Z2].
    destruct (fold_points (move_edge_point ops dflt scaled normal e (vsub p1 p0) (unit (vcross (vsub p1 p0) normal))) fst (eq (vsub p1 p0)) (vadd normal (unit (vcross (vsub p1 p0) normal))) (vsub (unit (vcross (vsub p1 p0) normal)) normal)
      (zip line (drop 1 line ++ [e.2])) ltac:(intros D0 n0 s0 [a b] H0 Hn0; exact (edge_point_s D0 n0 normal e _ _ s0 a b H0 Hn0)) D n s H ltac:(by rewrite Z2) s' E) as (zs & D' & Hl & Hr & H2 & E2).
    rewrite Z1, Z2 in *. exists p0, p1, zs, D'. done.
  Qed.
End moves.
