(** Inserting vertices never changes what is stored with other vertices, on any mesh. *)
From stdpp Require Import base numbers list gmap option.
From Coq Require Import NArith ZArith Lia.
From Verif Require Import IdMapModel IdMapProofs WalkerModel MeshModel MeshOps MeshSpec UtilModel IterModel Marks GeoModel CavModel InsModel DelModel IntSpec.
Local Open Scope nat_scope.

Lemma bd_set {A} (im im' : idmap A) k x : bounded im → im_set im k x = Some im' → bounded im'.
Proof.
  intros Hb E k' y Hy. assert (im_npi im' = im_npi im ∧ is_Some (im_get im k)) as [-> [z Hz]].
  { unfold im_set in E. destruct (im_get im k); [|done]. injection E as <-. eauto. }
  apply (im_set_get _ _ _ _ _ _ E) in Hy as [[-> ->]|Hy]; by eapply Hb.
Qed.
Lemma bd_remove {A} (im : idmap A) k : bounded im → bounded (im_remove im k).1.
Proof.
  intros Hb. unfold im_remove. destruct (im_slots im !! k); [|done]. intros k' y. unfold im_get. cbn. intros [_ H]%lookup_delete_Some. by eapply Hb.
Qed.
Lemma bd_insert {A} (im : idmap A) x : bounded im → bounded (im_insert im x).1.
Proof.
  intros Hb. unfold im_insert. destruct (vec_pop (im_free im)) as [[f k]|]; intros k' y; unfold im_get; cbn; intros [[<- _]|[_ H]]%lookup_insert_Some.
  - lia.
  - apply Hb in H. lia.
  - lia.
  - apply Hb in H. lia.
Qed.
Lemma bd_extend_values {A} (xs : list A) : ∀ im, bounded im → bounded (im_extend_values im xs).1.
Proof.
  induction xs as [|x xs IH]; intros im Hb; cbn [im_extend_values]; [done|]. pose proof (bd_insert im x Hb) as H1.
  destruct (im_insert im x) as [im1 k]. specialize (IH im1 H1). by destruct (im_extend_values im1 xs).
Qed.
Lemma iwk_get {A} (im im' : idmap A) k x old : im_insert_with_key im k x = Some (im', old) → im_slots im' = <[k := x]> (im_slots im) ∧ (im_npi im <= im_npi im')%N ∧ (k < im_npi im')%N.
Proof.
  unfold im_insert_with_key. cbv zeta. destruct (N.leb (im_npi im) k); cbn -[N.max N.add];
    destruct (im_slots im !! k); cbn -[N.max N.add].
  - intros [= <- _]. cbn. split; [done|]. lia.
  - intros [= <- _]. cbn. split; [done|]. lia.
  - intros [= <- _]. cbn. split; [done|]. lia.
  - destruct (vec_remove_first k (im_free im)); [|done]. intros [= <- _]. cbn. split; [done|]. lia.
Qed.
Lemma bd_iwk {A} (im im' : idmap A) k x old : bounded im → im_insert_with_key im k x = Some (im', old) → bounded im'.
Proof.
  intros Hb (E & Hle & Hk)%iwk_get k' y. unfold im_get. rewrite E. intros [[<- _]|[_ H]]%lookup_insert_Some; [done|]. apply Hb in H. lia.
Qed.
Lemma bd_extend {A} (xs : list (N * A)) : ∀ im im', bounded im → im_extend im xs = Some im' → bounded im'.
Proof.
  induction xs as [|[k x] xs IH]; intros im im' Hb; cbn [im_extend]; [by intros [= <-]|].
  destruct (im_insert_with_key im k x) as [[im1 o]|] eqn:E; cbn; [|done]. apply IH. by eapply bd_iwk.
Qed.

Section kept.
  Context {V T : Type}.
  Implicit Types (m : mesh V T) (w : walker) (D : N → option (pt * V)).

  (** What the caller has stored with a vertex. *)
  Definition vdata m (v : N) : option (pt * V) := (λ vt, (v_pos vt, v_val vt)) <$> im_get (m_verts m) v.
  Record kept D m : Prop := Kept {
    kp_verts : bounded (m_verts m); kp_edges : bounded (m_edges m); kp_tets : bounded (m_tets m);
    kp_data v : vdata m v = D v; kp_track : m_track m = false }.

  Context (D : N → option (pt * V)).
  Notation K := (kept D).

  Lemma kp_upd m id f : K m → okr K (tet_upd m id f).
  Proof.
    intros [] m' E. unfold tet_upd in E. destruct (tet_get m id) as [t|]; [|done]. cbn in E.
    destruct (im_set (m_tets m) id (f t)) as [ts|] eqn:Es; [|done]. injection E as <-. split; [done..|by eapply bd_set|done|done].
  Qed.
  Lemma kp_insert m t : K m → K (tet_insert m t).1.
  Proof.
    intros []. unfold tet_insert. pose proof (bd_insert (m_tets m) t) as H. destruct (im_insert (m_tets m) t) as [ts k]. split; try done. by apply H.
  Qed.
  Lemma kp_remove m id : K m → K (with_tets m (im_remove (m_tets m) id).1).
  Proof. intros []. split; try done. by apply bd_remove. Qed.
  Lemma kp_vset m v vt vt' vs : K m → im_get (m_verts m) v = Some vt → v_pos vt' = v_pos vt → v_val vt' = v_val vt → im_set (m_verts m) v vt' = Some vs → K (with_verts m vs).
  Proof.
    intros [] Ev Ep Ex Es. split; try done; [by eapply bd_set|]. intros v'. rewrite <- kp_data0. unfold vdata. cbn [m_verts with_verts].
    unfold im_set in Es. rewrite Ev in Es. injection Es as <-. unfold im_get in *. cbn [im_slots].
    destruct (decide (v' = v)) as [->|]; [|by rewrite lookup_insert_ne]. rewrite lookup_insert, Ev. cbn. by rewrite Ep, Ex.
  Qed.
  Lemma kp_vref m v w : K m → K (vert_ref m v w).
  Proof.
    intros H. unfold vert_ref. destruct (im_get (m_verts m) v) as [vt|] eqn:Ev; [|done].
    destruct (im_set (m_verts m) v _) as [vs|] eqn:Es; [|done]. apply (kp_vset m v vt _ vs H Ev) in Es; done.
  Qed.
  Lemma kp_flags m v f : K m → okr K (set_vertex_flags m v f).
  Proof.
    intros H. unfold set_vertex_flags. destruct (decide (v = GHOST)); [apply okr_some; destruct H; by split|].
    destruct (im_get (m_verts m) v) as [vt|] eqn:Ev; [|apply okr_none]. cbn [mbind option_bind]. destruct (im_set _ _ _) as [vs|] eqn:Es; [|apply okr_none].
    apply okr_some. apply (kp_vset m v vt _ vs H Ev) in Es; done.
  Qed.
  Lemma kp_edge_upd m e f : K m → okr K (edge_upd m e f).
  Proof.
    intros H. unfold edge_upd. apply okr_any. intros ue. destruct (im_set _ _ _) as [es|] eqn:Es; [|apply okr_none]. apply okr_some. destruct H. split; try done. by eapply bd_set.
  Qed.
  Lemma kp_edge_insert m vs : K m → K (edge_insert m vs).1.
  Proof. intros []. unfold edge_insert. pose proof (bd_insert (m_edges m) (uedge_new vs)) as H. destruct (im_insert _ _). split; try done. by apply H. Qed.
  Lemma kp_edge_remove m e : K m → K (with_edges m (im_remove (m_edges m) e).1).
  Proof. intros []. split; try done. by apply bd_remove. Qed.
  Lemma kp_fold {A} (f : mesh V T → A → option (mesh V T)) l : (∀ m a, K m → okr K (f m a)) → ∀ m, K m → okr K (mfoldl f l m).
  Proof. intros Hf. induction l as [|a l IH]; intros m Hm; cbn; [by apply okr_some|]. eapply okr_bind; [by apply Hf|]. apply IH. Qed.
  Lemma kp_foldp {A B} (f : mesh V T * B → A → option (mesh V T * B)) l : (∀ s a, K s.1 → okr (λ s : mesh V T * B, K s.1) (f s a)) →
    ∀ s, K s.1 → okr (λ s : mesh V T * B, K s.1) (mfoldl f l s).
  Proof. intros Hf. induction l as [|a l IH]; intros s Hs; cbn; [by apply okr_some|]. eapply okr_bind; [by apply Hf|]. apply IH. Qed.

  (** ** Filling *)
  Lemma kp_put_ebound b m w : K m → okr K (put_ebound b m w).
  Proof. intros H. unfold put_ebound. apply okr_any. intros e. by apply kp_edge_upd. Qed.
  Lemma kp_mark m w : K m → okr K (mark_tri m w).
  Proof.
    intros H. unfold mark_tri. eapply okr_bind; [by apply kp_upd|]. intros m1 H1.
    do 2 (eapply okr_bind; [by apply kp_put_ebound|]; intros ? ?). by apply kp_put_ebound.
  Qed.
  Lemma kp_drop_edge m e : K m → K (drop_edge m e).
  Proof. intros H. unfold drop_edge. destruct (im_get _ _) as [ue|]; [|done]. destruct (ue_boundary ue); [done|by apply kp_edge_remove]. Qed.
  Lemma kp_purge m id : K m → okr K (purge_tet m id).
  Proof.
    intros H. unfold purge_tet. apply okr_any. intros t.
    assert (∀ l m, K m → K (fold_left drop_edge l m)) as Hf.
    { clear. induction l as [|e l IH]; intros m H; [done|]. by apply IH, kp_drop_edge. }
    cbv zeta. apply okr_any. intros t'. apply okr_some. destruct (f_boundary _); [by apply Hf|]. by apply kp_remove, Hf.
  Qed.
  Lemma kp_own (s : mesh V T * list walker) w : K s.1 → okr (λ s : mesh V T * list walker, K s.1) (own_tet s w).
  Proof.
    destruct s as [m acc]. cbn [fst]. intros H. unfold own_tet. apply okr_any. intros t. destruct (f_dup _).
    - pose proof (kp_insert m t H) as H1. destruct (tet_insert m t) as [m1 id]. cbn [fst] in H1. apply okr_any. intros adj.
      eapply okr_bind; [by apply kp_upd|]. intros m2 H2. by apply okr_some.
    - eapply okr_bind; [by apply kp_upd|]. intros m2 H2. by apply okr_some.
  Qed.
  Lemma kp_join m w : K m → okr K (join_edge m w).
  Proof.
    intros H. unfold join_edge. apply okr_any; intros e. apply okr_any; intros ue. destruct (negb _); [|by apply kp_edge_upd]. cbv zeta.
    apply okr_any. intros x. eapply okr_bind; [by apply kp_upd|]. intros m1 H1. apply okr_any. intros y. eapply okr_bind; [by apply kp_upd|]. intros m2 H2.
    by apply kp_edge_upd.
  Qed.
  Lemma kp_cone v m w : K m → okr K (cone_tri v m w).
  Proof.
    intros H. unfold cone_tri. eapply okr_bind; [by apply kp_upd|]. intros m1 H1.
    do 3 (eapply okr_bind; [by apply kp_put_ebound|]; intros ? ?).
    do 2 (eapply okr_bind; [by apply kp_upd|]; intros ? ?). apply okr_any. intros vt. cbv zeta. apply okr_any. intros [[x1 x2] x3].
    apply kp_fold; [intros; by apply kp_join|]. do 3 apply kp_vref. destruct (N.eqb _ _); [by apply kp_vref|done].
  Qed.
  Lemma kp_set_added b m v : K m → okr K (set_added b m v).
  Proof. intros H. unfold set_added. apply okr_any. intros f. by apply kp_flags. Qed.
  Lemma kp_write fuel e : ∀ m s w, K m → okr K (write_ring fuel e m s w).
  Proof.
    induction fuel as [|fuel IH]; intros m s w H; cbn [write_ring]; [apply okr_none|]. eapply okr_bind; [by apply kp_upd|]. intros m1 H1.
    apply okr_any. intros x. destruct (bool_decide _); [by apply okr_some|by apply IH].
  Qed.
  Lemma kp_spoke v m w : K m → okr K (add_spoke v m w).
  Proof.
    intros H. unfold add_spoke. apply okr_any; intros src. apply okr_any; intros f. destruct (vf_edge_added _); [by apply okr_some|].
    eapply okr_bind; [by apply kp_set_added|]. intros m1 H1. pose proof (kp_edge_insert m1 (src, v) H1) as H2. destruct (edge_insert m1 _) as [m2 e]. by apply kp_write.
  Qed.
  Lemma kp_rm_tets m ids : K m → okr K (trimap_remove_tets m ids).
  Proof. intros H. unfold trimap_remove_tets. rewrite (kp_track _ _ H). by apply okr_some. Qed.
  Lemma kp_ins_tets m ids : K m → okr K (trimap_insert_tets m ids).
  Proof. intros H. unfold trimap_insert_tets. rewrite (kp_track _ _ H). by apply okr_some. Qed.
  Lemma kp_fill m v B E : K m → okr (λ r : mesh V T * list walker, K r.1) (flip_in_vertex_unchecked m v B E).
  Proof.
    intros H. unfold flip_in_vertex_unchecked. eapply okr_bind; [by apply kp_rm_tets|]. intros m1 H1.
    eapply okr_bind; [apply kp_fold; [intros; by apply kp_mark|done]|]. intros m2 H2.
    eapply okr_bind; [apply kp_fold; [intros; by apply kp_purge|done]|]. intros m3 H3.
    eapply okr_bind; [apply kp_foldp; [intros; by apply kp_own|exact H3]|]. intros [m4 B'] H4. cbn [fst] in H4.
    eapply okr_bind; [apply kp_fold; [intros; by apply kp_cone|done]|]. intros m5 H5.
    eapply okr_bind; [apply kp_fold; [|done]; intros m' w Hm'; apply kp_fold; [intros; by apply kp_spoke|done]|]. intros m6 H6.
    eapply okr_bind; [apply kp_fold; [|done]; intros m' w Hm'; apply kp_fold; [|done]; intros m'' u Hm''; apply okr_any; intros x; by apply kp_set_added|]. intros m7 H7.
    eapply okr_bind; [by apply kp_ins_tets|]. intros m8 H8. by apply okr_some.
  Qed.

  (** ** The search for the cavity *)
  Lemma kp_put_imm b m w : K m → okr K (put_imm b m w). Proof. apply kp_upd. Qed.
  Lemma kp_extend_over (s : mesh V T * list walker) w : K s.1 → okr (λ s : mesh V T * list walker, K s.1) (extend_over s w).
  Proof.
    destruct s as [m q]. cbn [fst]. intros H. unfold extend_over. apply okr_any; intros tw. apply okr_any; intros [|]; (eapply okr_bind; [by apply kp_put_imm|]; intros m1 H1; by apply okr_some).
  Qed.
  Lemma kp_expand ins fuel : ∀ m q B E, K m → okr (λ r : mesh V T * list walker * list N, K r.1.1) (expand ins fuel true m q B E).
  Proof.
    induction fuel as [|fuel IH]; intros m q B E H; cbn [expand]; [apply okr_none|]. destruct q as [|tri q]; [by apply okr_some|].
    apply okr_any; intros b. destruct (negb b); [by apply IH|]. eapply okr_bind; [by apply kp_put_imm|]. intros m1 H1. apply okr_any; intros adj. cbn [mbind option_bind].
    apply okr_any; intros sph. destruct (true && sph).
    - eapply okr_bind; [apply kp_foldp; [intros; by apply kp_extend_over|exact H1]|]. intros [m2 q2] H2. by apply IH.
    - by apply IH.
  Qed.
  Lemma kp_cavity ins ori m B E ex nd : K m → okr (λ r : mesh V T * list walker * list N, K r.1.1) (point_cavity ins ori m B E ex true false nd).
  Proof.
    intros H. unfold point_cavity. eapply okr_bind.
    { apply kp_fold; [|exact H]. intros m1 w H1. unfold start_tri. apply okr_any; intros vs. cbn [andb]. by apply kp_put_imm. }
    intros m1 H1. eapply okr_bind; [destruct nd; [by apply kp_expand|by apply okr_some]|]. intros [[m2 B2] E2] H2. cbn [fst] in H2. cbn [mbind option_bind].
    destruct (decide _); [by apply okr_some|apply okr_none].
  Qed.

  (** ** The search for the start *)
  Notation KI := (λ s : mesh V T * list N * list walker, K s.1.1).
  Lemma kp_set_targets b m v : K m → okr K (set_targets b m v).
  Proof. intros H. unfold set_targets. apply okr_any. intros f. by apply kp_flags. Qed.
  Lemma kp_vto_pop : ∀ st m vis, K m → okr (λ r : option walker * (mesh V T * list N * list walker), K r.2.1.1) (vto_pop m vis st).
  Proof.
    induction st as [|w st IH]; intros m vis H; cbn [vto_pop]; [by apply okr_some|]. apply okr_any; intros tg. apply okr_any; intros f. destruct (vf_targets f); [by apply IH|].
    eapply okr_bind; [by apply kp_set_targets|]. intros m1 H1. apply okr_any; intros st'. by apply okr_some.
  Qed.
  Lemma kp_wfvo_pop : ∀ st m vis, K m → okr (λ r : option walker * (mesh V T * list N * list walker), K r.2.1.1) (wfvo_pop m vis st).
  Proof.
    induction st as [|w st IH]; intros m vis H; cbn [wfvo_pop]; [by apply okr_some|]. apply okr_any; intros t. destruct (f_wfv _); [by apply IH|].
    eapply okr_bind; [by apply kp_upd|]. intros m1 H1. apply okr_any; intros [[x1 x2] x3]. by apply okr_some.
  Qed.
  Lemma kp_take next (n : nat) : (∀ s, KI s → okr (λ r : option walker * (mesh V T * list N * list walker), KI r.2) (next s)) →
    ∀ s, KI s → okr (λ r : list walker * (mesh V T * list N * list walker), KI r.2) (iter_take next n s).
  Proof.
    intros Hn. induction n as [|n IH]; intros s Hs; cbn [iter_take]; [by apply okr_some|]. eapply okr_bind; [by apply Hn|]. intros [[w|] s'] Hs'; cbn [snd] in Hs'.
    - eapply okr_bind; [by apply IH|]. intros [l s''] Hs''. by apply okr_some.
    - by apply okr_some.
  Qed.
  Lemma kp_wfvo_drop s : KI s → okr K (wfvo_drop s).
  Proof. intros H. unfold wfvo_drop. apply kp_fold; [|done]. intros; by apply kp_upd. Qed.
  Lemma kp_vto_drop s : KI s → okr K (vto_drop s).
  Proof. intros H. unfold vto_drop. apply kp_fold; [|done]. intros; by apply kp_set_targets. Qed.
  Lemma kp_targets m v : K m → okr (λ r : mesh V T * list N, K r.1) (targets_collect m v).
  Proof.
    intros H. unfold targets_collect. unfold vertex_target_walkers_opt. destruct (walker_from_vertex m v) as [w|]; [|apply okr_none]. cbn [mbind option_bind].
    destruct (iter_take _ _ _) as [[l s']|] eqn:E; [|apply okr_none].
    assert (KI s') as Hs'. { refine (kp_take vto_next _ _ (m, [], [w]) H _ E). intros [[m0 vis] st] Hs. by apply kp_vto_pop. }
    apply okr_any; intros l'. eapply okr_bind; [by apply kp_vto_drop|]. intros m1 H1. by apply okr_some.
  Qed.
  Lemma kp_tets_collect m v : K m → okr (λ r : mesh V T * list N, K r.1) (tets_collect m v).
  Proof.
    intros H. unfold tets_collect. unfold walkers_from_vertex_opt. destruct (walker_from_vertex m v) as [w|]; [|apply okr_none]. cbn [mbind option_bind].
    destruct (iter_take _ _ _) as [[l s']|] eqn:E; [|apply okr_none].
    assert (KI s') as Hs'. { refine (kp_take wfvo_next _ _ (m, [], [w]) H _ E). intros [[m0 vis] st] Hs. by apply kp_wfvo_pop. }
    eapply okr_bind; [by apply kp_wfvo_drop|]. intros m1 H1. by apply okr_some.
  Qed.
  Lemma kp_find_iter fuel id : ∀ s, KI s → okr (λ r : option N * (mesh V T * list N * list walker), KI r.2) (find_iter fuel id s).
  Proof.
    induction fuel as [|fuel IH]; intros s H; cbn [find_iter]; [apply okr_none|]. eapply okr_bind; [by apply kp_wfvo_pop|]. intros [[w|] s'] Hs'; cbn [snd] in Hs'; [|by apply okr_some].
    apply okr_any; intros [|]; [by apply okr_some|by apply IH].
  Qed.
  Lemma kp_find_around m id v : K m → okr (λ r : mesh V T * option N, K r.1) (find_around m id v).
  Proof.
    intros H. unfold find_around, walkers_from_vertex_opt. destruct (walker_from_vertex m v) as [w|]; [|apply okr_none]. cbn [mbind option_bind].
    eapply okr_bind; [apply kp_find_iter; exact H|]. intros [r s] Hs. cbn [snd] in Hs. eapply okr_bind; [by apply kp_wfvo_drop|]. intros m1 H1. by apply okr_some.
  Qed.
  Lemma kp_walk less lt fuel id : ∀ m c, K m → okr (λ r : mesh V T * N, K r.1) (walk less lt fuel m id c).
  Proof.
    induction fuel as [|fuel IH]; intros m c H; cbn [walk]; [apply okr_none|]. eapply okr_bind; [by apply kp_targets|]. intros [m1 l] H1. cbn [fst] in H1.
    destruct (DelModel.min_by _ _) as [b|]; [|by apply okr_some]. destruct (lt b c); [by apply IH|by apply okr_some].
  Qed.
  Lemma kp_find_start less lt order m id st : K m → okr (λ r : mesh V T * N, K r.1) (find_start less lt order m id st).
  Proof.
    intros H. unfold find_start. apply okr_any; intros lt0. apply okr_any; intros [|]; [by apply okr_some|].
    eapply okr_bind; [by apply kp_walk|]. intros [m1 c] H1. cbn [fst] in H1. eapply okr_bind; [by apply kp_find_around|]. intros [m2 [t|]] H2; cbn [fst] in H2; [by apply okr_some|].
    eapply okr_bind; [by apply kp_tets_collect|]. intros [m3 l] H3. cbn [fst] in H3. apply okr_any; intros adj. apply okr_any; intros t. by apply okr_some.
  Qed.
End kept.

Lemma kp_insert_vertex {V T} (m m' : mesh V T) D less lt order id p x st v : kept D m →
  add_vertex_delaunay_internal less lt order m (Some id) p x st = Some (m', v) →
  v = id ∧ kept (λ a, if decide (a = id) then Some (p, x) else D a) m'.
Proof.
  intros H. unfold add_vertex_delaunay_internal. cbn [put_vertex]. destruct (im_insert_with_key _ _ _) as [[vs o]|] eqn:Ei; [|done]. cbn [mbind option_bind].
  set (D' := λ a, if decide (a = id) then Some (p, x) else D a).
  assert (kept D' (with_verts m vs)) as H1.
  { destruct H. apply iwk_get in Ei as Ei'. destruct Ei' as (Es & _). split; try done; [by eapply bd_iwk|]. intros a. unfold vdata, im_get. cbn. rewrite Es. unfold D'.
    destruct (decide (a = id)) as [->|]; [by rewrite lookup_insert|]. rewrite lookup_insert_ne by done. apply kp_data0. }
  intros E. apply bind_Some in E as ([m1 t] & E1 & E). apply (kp_find_start D' _ _ _ _ _ _ H1) in E1. cbn [fst] in E1.
  apply bind_Some in E as ([[m2 B] E'] & E2 & E). apply (kp_cavity D' _ _ _ _ _ _ _ E1) in E2. cbn [fst] in E2.
  apply bind_Some in E as ([m3 B'] & E3 & E). apply (kp_fill D' _ _ _ _ E2) in E3. cbn [fst] in E3. injection E as <- <-. done.
Qed.
