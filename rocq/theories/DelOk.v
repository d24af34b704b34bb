(** Inserting a vertex into a Delaunay tetrahedralization: proofs. *)
From stdpp Require Import base numbers list gmap option relations sorting.
From Coq Require Import NArith ZArith Lia.
From Verif Require Import IdMapModel IdMapSpec IdMapProofs WalkerModel WalkerSpec MeshModel MeshSpec MeshOps MeshViews MeshLink MeshRun HistSpec MeshOpsOk UtilModel UtilSpec
  IterModel IterOpt IterProofs IterLookup Marks GeoModel CavModel CavSpec InsModel InsSpec InsRest DelModel DelSpec.
Local Open Scope nat_scope.

Section del.
  Context {V T : Type}.
  Implicit Types (m : mesh V T) (w : walker).

  (** ** Marks *)
  Lemma ready_unmarked m : ready m → unmarked m.
  Proof.
    intros [Hok _ Ht Hv]. split; [done|]. split; [by apply (Hv GHOST)|]. intros v vt E. apply (Hv v). unfold vertex_flags.
    destruct (decide (v = GHOST)) as [->|]; [by rewrite (ok_ghost _ Hok) in E|]. by rewrite E.
  Qed.
  Lemma unmarked_ready m : mesh_ok m → at_rest m → unmarked m → ready m.
  Proof.
    intros Hok Hr [Ht [Hg Hv]]. split; [done..|]. intros v f. unfold vertex_flags.
    destruct (decide (v = GHOST)); [by intros [= <-]|]. intros (vt & E & ->)%fmap_Some. by apply (Hv v).
  Qed.

  Lemma um_edge_upd m e f : unmarked m → okr unmarked (edge_upd m e f).
  Proof. intros H. unfold edge_upd. apply okr_any; intros ue. apply okr_any; intros es. by apply okr_some, um_edges. Qed.
  Lemma um_put_ebound b m w : unmarked m → okr unmarked (put_ebound b m w).
  Proof. intros H. unfold put_ebound. apply okr_any. intros e. by apply um_edge_upd. Qed.
  Lemma um_mark m w : unmarked m → okr unmarked (mark_tri m w).
  Proof.
    intros H. unfold mark_tri. eapply okr_bind; [by apply um_upd|]. intros m1 H1.
    do 2 (eapply okr_bind; [by apply um_put_ebound|]; intros ? ?). by apply um_put_ebound.
  Qed.
  Lemma um_drop_edge m e : unmarked m → unmarked (drop_edge m e).
  Proof. intros H. unfold drop_edge. destruct (im_get _ _) as [ue|]; [|done]. destruct (ue_boundary ue); [done|by apply um_edges]. Qed.
  Lemma um_purge m id : unmarked m → okr unmarked (purge_tet m id).
  Proof.
    intros H. unfold purge_tet. apply okr_any. intros t.
    assert (∀ l m, unmarked m → unmarked (fold_left drop_edge l m)) as Hf.
    { clear. induction l as [|e l IH]; intros m H; [done|]. by apply IH, um_drop_edge. }
    cbv zeta. apply okr_any. intros t'. apply okr_some. destruct (f_boundary _); [by apply Hf|]. by apply um_remove, Hf.
  Qed.
  Lemma um_foldp {A} (f : mesh V T * list walker → A → option (mesh V T * list walker)) l : (∀ s a, unmarked s.1 → okr (λ s : mesh V T * list walker, unmarked s.1) (f s a)) →
    ∀ s, unmarked s.1 → okr (λ s : mesh V T * list walker, unmarked s.1) (mfoldl f l s).
  Proof. intros Hf. induction l as [|a l IH]; intros s Hs; cbn; [by apply okr_some|]. eapply okr_bind; [by apply Hf|]. apply IH. Qed.
  Lemma um_own (s : mesh V T * list walker) w : unmarked s.1 → okr (λ s : mesh V T * list walker, unmarked s.1) (own_tet s w).
  Proof.
    destruct s as [m acc]. cbn [fst]. intros H. unfold own_tet. eapply okr_bind; [by apply um_get|]. intros t Ht. destruct (f_dup _).
    - pose proof (um_insert m t H Ht) as H1. destruct (tet_insert m t) as [m1 id]. cbn [fst] in H1. apply okr_any. intros adj.
      eapply okr_bind; [by apply um_upd|]. intros m2 H2. by apply okr_some.
    - eapply okr_bind; [by apply um_upd|]. intros m2 H2. by apply okr_some.
  Qed.
  Lemma um_join m w : unmarked m → okr unmarked (join_edge m w).
  Proof.
    intros H. unfold join_edge. apply okr_any; intros e. apply okr_any; intros ue. destruct (negb _); [|by apply um_edge_upd]. cbv zeta.
    apply okr_any. intros x. eapply okr_bind; [by apply um_upd|]. intros m1 H1. apply okr_any. intros y. eapply okr_bind; [by apply um_upd|]. intros m2 H2.
    by apply um_edge_upd.
  Qed.
  Lemma um_cone v m w : unmarked m → okr unmarked (cone_tri v m w).
  Proof.
    intros H. unfold cone_tri. eapply okr_bind; [by apply um_upd|]. intros m1 H1.
    do 3 (eapply okr_bind; [by apply um_put_ebound|]; intros ? ?).
    do 2 (eapply okr_bind; [by apply um_upd|]; intros ? ?). apply okr_any. intros vt. cbv zeta. apply okr_any. intros [[x1 x2] x3].
    apply um_fold; [intros; by apply um_join|]. do 3 apply um_vref. destruct (N.eqb _ _); [by apply um_vref|done].
  Qed.
  Lemma um_set_added b m v : unmarked m → okr unmarked (set_added b m v).
  Proof.
    intros H. unfold set_added. destruct (vertex_flags m v) as [f|] eqn:Ef; [|apply okr_none]. cbn [mbind option_bind].
    unfold set_vertex_flags, vertex_flags in *. destruct H as [Ht [Hg Hv]]. destruct (decide (v = GHOST)).
    - apply okr_some. split; [done|]. split; [|done]. cbn. by injection Ef as <-.
    - apply fmap_Some in Ef as (vt & Ev & ->). rewrite Ev. cbn [mbind option_bind]. destruct (im_set _ _ _) as [vs|] eqn:Es; [|apply okr_none]. apply okr_some.
      split; [done|]. split; [done|]. intros v' vt' [[-> ->]|H]%(im_set_get _ _ _ _ _ _ Es); [cbn|]; by eapply Hv.
  Qed.
  Lemma um_write fuel e : ∀ m s w, unmarked m → okr unmarked (write_ring fuel e m s w).
  Proof.
    induction fuel as [|fuel IH]; intros m s w H; cbn [write_ring]; [apply okr_none|]. eapply okr_bind; [by apply um_upd|]. intros m1 H1.
    apply okr_any. intros x. destruct (bool_decide _); [by apply okr_some|by apply IH].
  Qed.
  Lemma um_spoke v m w : unmarked m → okr unmarked (add_spoke v m w).
  Proof.
    intros H. unfold add_spoke. apply okr_any; intros src. apply okr_any; intros f. destruct (vf_edge_added _); [by apply okr_some|].
    eapply okr_bind; [by apply um_set_added|]. intros m1 H1. pose proof (um_edge_insert m1 (src, v) H1) as H2. destruct (edge_insert m1 _) as [m2 e]. by apply um_write.
  Qed.
  Lemma um_fill m v B E : unmarked m → okr (λ r, unmarked r.1) (flip_in_vertex_unchecked m v B E).
  Proof.
    intros H. unfold flip_in_vertex_unchecked. eapply okr_bind; [by apply um_rm_tets|]. intros m1 H1.
    eapply okr_bind; [apply um_fold; [intros; by apply um_mark|done]|]. intros m2 H2.
    eapply okr_bind; [apply um_fold; [intros; by apply um_purge|done]|]. intros m3 H3.
    eapply okr_bind; [apply um_foldp; [intros; by apply um_own|exact H3]|]. intros [m4 B'] H4. cbn [fst] in H4.
    eapply okr_bind; [apply um_fold; [intros; by apply um_cone|done]|]. intros m5 H5.
    eapply okr_bind; [apply um_fold; [|done]; intros m' w Hm'; apply um_fold; [intros; by apply um_spoke|done]|]. intros m6 H6.
    eapply okr_bind; [apply um_fold; [|done]; intros m' w Hm'; apply um_fold; [|done]; intros m'' u Hm''; apply okr_any; intros x; by apply um_set_added|]. intros m7 H7.
    eapply okr_bind; [by apply um_ins_tets|]. intros m8 H8. by apply okr_some.
  Qed.
  Lemma ready_fill m v B E m' B' : ready m → mesh_ok m' → at_rest m' → flip_in_vertex_unchecked m v B E = Some (m', B') → ready m'.
  Proof. intros Hr Hok Hrest E'. apply unmarked_ready; [done..|]. exact (um_fill m v B E (ready_unmarked m Hr) _ E'). Qed.
  (** ** Storing the vertex *)
  Lemma placed_attached m v p x m1 a : placed m v p x m1 → attached m1 a ↔ attached m a.
  Proof.
    intros [_ _ (_ & E & _)]. assert (∀ id, tet_get m1 id = tet_get m id) as Ht by (intros id; unfold tet_get; by rewrite E).
    split; intros (w & [[t Hw] He] & Hf); exists w; unfold w_first in *; rewrite ?Ht in *; (split; [split; [rewrite ?Ht; eauto|done]|done]).
  Qed.

  Lemma placed_ready m v p x m1 : ready m → v ≠ GHOST → ¬ attached m v → im_wf (m_verts m1) → placed m v p x m1 → ready m1.
  Proof.
    intros [Hok Hrest Ht Hv] Hg Hna Hwf Hp. pose proof Hp as [Eq Hne (Ee & Et & Em & Eg & Ek & Ec)]. split.
    - destruct m as [mv mg me mt mm mk mc], m1 as [mv1 mg1 me1 mt1 mm1 mk1 mc1]. cbn [m_verts m_edges m_tets m_trimap m_ghost_flags m_track m_center] in *. subst. destruct Hok. split; try assumption.
      + cbn [m_verts] in *. by rewrite Hne.
      + intros w a Hw Ha. destruct (ok_exist w a Hw Ha) as [H|H]; [by left|right]. cbn [m_verts] in *. destruct (decide (a = v)) as [->|Hx]; [by rewrite Eq|by rewrite Hne].
      + intros a vt Ha Hat. cbn [m_verts] in *. destruct (decide (a = v)) as [->|Hx]; [done|]. rewrite Hne in Ha by done. exact (ok_vref a vt Ha Hat).
    - destruct Hrest as [H1 H2 H3 H4]. split.
      + intros id t. unfold tet_get. rewrite Et. apply H1.
      + intros id t. unfold tet_get. rewrite Et. apply H2.
      + intros e ue. rewrite Ee. apply H3.
      + intros a f. unfold vertex_flags. rewrite Eg. destruct (decide (a = GHOST)) as [->|Hag]; [by apply (H4 GHOST)|]. intros (vt & Ha & ->)%fmap_Some.
        destruct (decide (a = v)) as [->|Hx]; [rewrite Eq in Ha; by injection Ha as <-|]. rewrite Hne in Ha by done. apply (H4 a). unfold vertex_flags. rewrite decide_False by done. by rewrite Ha.
    - intros id t. unfold tet_get. rewrite Et. apply Ht.
    - intros a f. unfold vertex_flags. rewrite Eg. destruct (decide (a = GHOST)) as [->|Hag]; [by apply (Hv GHOST)|]. intros (vt & Ha & ->)%fmap_Some.
      destruct (decide (a = v)) as [->|Hx]; [rewrite Eq in Ha; by injection Ha as <-|]. rewrite Hne in Ha by done. apply (Hv a). unfold vertex_flags. rewrite decide_False by done. by rewrite Ha.
  Qed.

  Lemma put_vertex_ok m id p x : ready m → can_place m id →
    ∃ m1 v, put_vertex m id p x = Some (m1, v) ∧ (∀ i, id = Some i → v = i) ∧ (id = None → im_get (m_verts m) v = None) ∧
      v ≠ GHOST ∧ placed m v p x m1 ∧ ready m1 ∧ loose m1 v.
  Proof.
    intros Hr Hc. destruct id as [v|]; cbn [put_vertex can_place] in *.
    - destruct Hc as [Hg Hna]. destruct (wf_insert_with_key (m_verts m) v (Vertex (Walker invalid_id 0) vf_empty p x) (ok_ids_verts _ (rd_ok _ Hr))) as (vs & E & Hwf & Ea).
      rewrite E. cbn [mbind option_bind]. exists (with_verts m vs), v. split; [done|]. split; [by intros i [= ->]|]. split; [done|]. split; [done|].
      injection Ea as E1 E2.
      assert (placed m v p x (with_verts m vs)) as Hp.
      { split; [unfold im_get; cbn; by rewrite E1, lookup_insert|intros a Ha; unfold im_get; cbn; by rewrite E1, lookup_insert_ne|by repeat split]. }
      split; [done|]. split; [by apply (placed_ready m v p x)|]. split; [|by rewrite (placed_attached m v p x)].
      eexists. split; [apply Hp|done].
    - destruct (add_vertex_step m p x (rd_ok _ Hr) Hc) as (m1 & v & E & Hok & Hno & Hna & Hg & Eq & Hne & Hrest).
      exists m1, v. split; [by f_equal|]. split; [done|]. split; [done|]. split; [done|].
      assert (placed m v p x m1) as Hp by (split; [done|done|tauto]).
      split; [done|]. split; [|split; [eauto|done]]. apply (placed_ready m v p x); [done|done| |apply Hok|done]. by rewrite <- (placed_attached m v p x m1).
  Qed.

  (** ** The smallest element *)
  Lemma fold_min less lt (Hd : distances less lt) l : ∀ x, let u := fold_left (λ best y, if less y best then y else best) l x in
    (u = x ∨ u ∈ l) ∧ less x u = false ∧ ∀ y, y ∈ l → less y u = false.
  Proof.
    assert (∀ a, less a a = false) as Hrefl by (intros a; destruct (less a a) eqn:E; [by rewrite (ds_less_asym _ _ Hd a a E) in E|done]).
    induction l as [|y l IH]; intros x; cbn.
    - split; [by left|]. split; [done|]. intros ? []%elem_of_nil.
    - destruct (less y x) eqn:E.
      + destruct (IH y) as (H1 & H2 & H3). split; [right; rewrite elem_of_cons; destruct H1; tauto|]. split.
        * apply (ds_less_trans _ _ Hd _ y x); [done|by apply (ds_less_asym _ _ Hd)].
        * intros z [->|Hz]%elem_of_cons; [done|by apply H3].
      + destruct (IH x) as (H1 & H2 & H3). split; [rewrite elem_of_cons; destruct H1; tauto|]. split; [done|].
        intros z [->|Hz]%elem_of_cons; [|by apply H3]. by apply (ds_less_trans _ _ Hd _ x y).
  Qed.
  Lemma min_by_spec less lt (Hd : distances less lt) l : match min_by less l with
    | None => l = []
    | Some u => u ∈ l ∧ ∀ y, y ∈ l → less y u = false
    end.
  Proof.
    destruct l as [|x l]; [done|]. cbn [min_by]. destruct (fold_min less lt Hd l x) as (H1 & H2 & H3). split; [rewrite elem_of_cons; destruct H1; tauto|].
    intros y [->|Hy]%elem_of_cons; [done|by apply H3].
  Qed.

  (** ** The traversals *)
  Lemma mapM_second m l : Forall (λ w, w_second m w = Some (snd_of m w)) l → mapM (w_second m) l = Some (snd_of m <$> l).
  Proof. intros H. induction H as [|w l E _ IH]; [done|]. cbn. rewrite E. cbn. by rewrite IH. Qed.

  Lemma targets_ok m v : ready m → attached m v → v ≠ GHOST → ∃ l, targets_collect m v = Some (m, l) ∧ ∀ b, b ∈ l ↔ joined m v b.
  Proof.
    intros Hr Ha Hg. pose proof (rd_ok _ Hr) as Hok. pose proof (ready_unmarked m Hr) as [_ Hum].
    destruct (vertex_target_list m v Hok Ha Hg) as (w & l & _ & E & Hy & Hlen & Hnd & HP & Hall).
    set (n := length (im_keys (m_verts m)) + 2).
    destruct (Hy n) as ([vis st] & En). rewrite take_ge in En by lia.
    destruct (vto_take m (ok_ghost m Hok) Hum (λ w b, tet_vertex_known m w b Hok) n [] [w] (w :: l) vis st) as (vl & E1 & Hvl); [split; [constructor|set_solver]|exact En|].
    rewrite mark_verts_nil in E1. unfold vertex_target_walkers in E. apply bind_Some in E as (w' & Ew & [= ->]).
    exists (snd_of m <$> w :: l). split.
    - unfold targets_collect, vertex_target_walkers_opt. rewrite Ew. cbn [mbind option_bind]. fold n. rewrite E1. cbn [fst snd].
      assert (mapM (w_second (mark_verts vl m)) (w :: l) = Some (snd_of m <$> w :: l)) as ->.
      { change (mapM (w_second m) (w :: l) = Some (snd_of m <$> w :: l)). apply mapM_second. apply list.Forall_forall. intros x Hx. by apply (HP x Hx). }
      cbn [mbind option_bind]. rewrite vto_drop_ok; [done|exact (ok_ghost m Hok)|done|intros u b; by apply tet_vertex_known|done].
    - intros b. split; [|apply Hall]. intros (x & -> & Hx)%elem_of_list_fmap. destruct (HP x Hx) as (Hv & Hf & Hs).
      exists x. split; [done|]. unfold w_pair. by rewrite Hf, Hs.
  Qed.

  Lemma violates_marks vl m id t : violates (mark_tets vl m) id t = violates m id t.
  Proof. unfold violates. rewrite mark_tets_get. destruct (tet_get m t) as [x|]; [|done]. cbn. by destruct (bool_decide _). Qed.

  Lemma find_iter_ok m id n : no_tet_marks m → ∀ vl st l vis st', tet_marks_ok m vl →
    iter_take (wfv_next m) n (list_to_set vl, st) = Some (l, (vis, st')) → length l < n → (∀ w, w ∈ l → is_Some (violates m id (w_tet w))) →
    ∃ r vl2 st2, find_iter n id (mark_tets vl m, vl, st) = Some (r, (mark_tets vl2 m, vl2, st2)) ∧ tet_marks_ok m vl2 ∧
      match r with
      | Some t => t ∈ w_tet <$> l ∧ violates m id t = Some true
      | None => ∀ w, w ∈ l → violates m id (w_tet w) = Some false
      end.
  Proof.
    intros Hm. induction n as [|n IH]; intros vl st l vis st' Hok E Hlen Hall; [lia|]. cbn [iter_take find_iter] in E |- *.
    unfold wfv_next at 1 in E. cbn in E. destruct (wfv_pop m (list_to_set vl) st) as [[r [vis1 st1]]|] eqn:Ep; [|done].
    destruct (wfvo_sim m vl st r vis1 st1 Hm Hok Ep) as (vl1 & E1 & -> & Hok1). unfold wfvo_next at 1. cbn [fst snd]. rewrite E1. cbn [mbind option_bind] in E |- *.
    destruct r as [a|].
    - destruct (iter_take (wfv_next m) n (list_to_set vl1, st1)) as [[l2 [vis2 st2]]|] eqn:E2; [|by unfold wfv_next in E2; rewrite E2 in E].
      pose proof E2 as E2'. unfold wfv_next in E2'. rewrite E2' in E. cbn in E. injection E as <- <- <-. cbn [fst snd]. rewrite violates_marks.
      destruct (Hall a) as [b Hb]; [by left|]. rewrite Hb. cbn [mbind option_bind]. destruct b.
      + exists (Some (w_tet a)), vl1, st1. split; [done|]. split; [done|]. split; [by left|done].
      + cbn in Hlen. destruct (IH vl1 st1 l2 vis2 st2 Hok1 E2) as (r & vl3 & st3 & E3 & Hok3 & Hr); [lia|intros w Hw; apply Hall; by right|].
        exists r, vl3, st3. split; [done|]. split; [done|]. destruct r as [t|].
        * destruct Hr. split; [by right|done].
        * intros w [->|Hw]%elem_of_cons; [done|by apply Hr].
    - injection E as <- <- <-. exists None, vl1, st1. split; [done|]. split; [done|]. intros w []%elem_of_nil.
  Qed.

  (** ** The in-sphere test *)
  Definition known_vertex m (v : N) : Prop := is_Some (im_get (m_verts m) v).

  Lemma tet_known m id t : mesh_ok m → tet_get m id = Some t → ∀ i, is_Some (idx_ori m (get4 (t_vs t) i)).
  Proof.
    intros Hok Ht i.
    assert (∃ j, j < 4 ∧ get4 (t_vs t) i = get4 (t_vs t) j) as (j & Hj & ->).
    { destruct (decide (i < 4)); [by exists i|]. exists 3. split; [lia|]. by destruct i as [|[|[|i]]]; [lia..|]. }
    assert (∃ e, e < 12 ∧ first_idx e = j) as (e & He & <-).
    { destruct j as [|[|[|[|?]]]]; [..|lia].
      - exists 3. by split; [lia|].
      - exists 2. by split; [lia|].
      - exists 1. by split; [lia|].
      - exists 0. by split; [lia|]. }
    assert (valid m (Walker id e)) as Hw by (split; [by eexists|done]).
    assert (w_first m (Walker id e) = Some (get4 (t_vs t) (first_idx e))) as Hf by (unfold w_first; cbn; by rewrite Ht).
    unfold idx_ori. destruct (N.eqb _ GHOST) eqn:Eg; [eauto|]. apply N.eqb_neq in Eg.
    destruct (ok_exist _ Hok _ _ Hw Hf) as [?|[vt ->]]; [done|]. cbn. eauto.
  Qed.
  Lemma violates_some m v id : mesh_ok m → known_vertex m v → is_Some (tet_get m id) → is_Some (violates m v id).
  Proof.
    intros Hok [vt Hv] [t Ht]. unfold violates. rewrite Ht. cbn [mbind option_bind]. unfold in_sphere.
    destruct (tet_known m id t Hok Ht 0) as [p0 E0], (tet_known m id t Hok Ht 1) as [p1 E1], (tet_known m id t Hok Ht 2) as [p2 E2], (tet_known m id t Hok Ht 3) as [p3 E3].
    cbn [get4] in *. rewrite E0, E1, E2, E3, Hv. cbn. eauto.
  Qed.
End del.
