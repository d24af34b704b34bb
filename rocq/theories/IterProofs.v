(** The traversals of a consistent mesh. *)
From Coq Require Import NArith ZArith Lia.
From stdpp Require Import base numbers list gmap option relations.
From Verif Require Import IdMapModel IdMapProofs WalkerModel WalkerSpec WalkerProofs MeshModel WalkerMore MeshSpec MeshOps Flip44Ok
  UtilModel UtilSpec UtilProofs IterModel IterDfs.
Local Open Scope nat_scope.

Section iter.
  Context {V T : Type}.
  Implicit Types (m : mesh V T) (w : walker).

  (** ** Finitely many walkers *)
  Definition all_walkers m : list walker := im_keys (m_tets m) ≫= λ k, Walker k <$> seq 0 12.
  Lemma elem_of_all_walkers m w : im_wf (m_tets m) → valid m w → w ∈ all_walkers m.
  Proof.
    intros Hwf [Ht He]. unfold all_walkers. apply elem_of_list_bind. exists (w_tet w). split.
    - apply elem_of_list_fmap. exists (w_edge w). split; [by destruct w|]. apply elem_of_list_In, in_seq. lia.
    - by apply elem_of_im_keys.
  Qed.
  Lemma all_walkers_valid m w : im_wf (m_tets m) → w ∈ all_walkers m → valid m w.
  Proof.
    intros Hwf (k & Hf & Hk)%elem_of_list_bind.
    apply elem_of_list_fmap in Hf as (e & -> & He). apply elem_of_list_In, in_seq in He.
    split; [|cbn; lia]. apply elem_of_im_keys in Hk; done.
  Qed.
  Lemma all_walkers_length m : length (all_walkers m) = 12 * length (im_keys (m_tets m)).
  Proof.
    unfold all_walkers. induction (im_keys (m_tets m)) as [|k l IH]; [done|]. rewrite bind_cons, app_length, IH.
    rewrite fmap_length, seq_length. cbn [length]. lia.
  Qed.
  Lemma rtsc_inv {A} (R : relation A) (P : A → Prop) x y : (∀ a b, R a b → P a ↔ P b) → rtsc R x y → P x → P y.
  Proof. intros H Hr. induction Hr as [|a b c [Hs|Hs] _ IH]; [done|..]; intros Ha; apply IH; by apply (H _ _ Hs). Qed.

  Lemma valid_perm m w p : valid m w → valid m (to_perm w p).
  Proof. intros [H1 H2]. split; [done|by apply to_perm_ok]. Qed.
  Lemma wverts_perm m w a b c d p : valid m w → w_verts m w = Some (A4 a b c d) →
    w_verts m (to_perm w p) = Some (reorder (A4 a b c d) (perm_digits p)).
  Proof. intros [_ H] E. by apply (walker_moves m w a b c d). Qed.
  Lemma wverts_pve m w a b c d : valid m w → w_verts m w = Some (A4 a b c d) → w_verts m (to_pve w) = Some (A4 a d b c).
  Proof. intros [_ H] E. by apply (walker_moves m w a b c d). Qed.
  Lemma wverts_second m w a b c d : w_verts m w = Some (A4 a b c d) → w_second m w = Some b.
  Proof. intros E. by apply (walker_accessors m w a b c d). Qed.
  Lemma wverts_of_first m w v : valid m w → w_first m w = Some v → ∃ b c d, w_verts m w = Some (A4 v b c d).
  Proof.
    intros Hw E. destruct (wverts_ex m w Hw) as (a & b & c & d & E'). rewrite (wverts_first _ _ _ _ _ _ E') in E. injection E as ->. eauto.
  Qed.
  Lemma wverts_of_pair m w v b : valid m w → w_pair m w = Some (v, b) → ∃ c d, w_verts m w = Some (A4 v b c d).
  Proof.
    intros Hw E. destruct (wverts_ex m w Hw) as (a' & b' & c & d & E'). rewrite (wverts_pair _ _ _ _ _ _ E') in E. injection E as -> ->. eauto.
  Qed.

  (** Two walkers of a tet with the same first vertex differ by a turn around it. *)
  Lemma first_same m w w' v : mesh_ok m → valid m w → valid m w' → w_first m w = Some v → w_first m w' = Some v →
    w_tet w = w_tet w' → w' = w ∨ w' = to_nve w ∨ w' = to_pve w.
  Proof.
    intros Hok Hw Hw' E E' Ht. destruct (wverts_of_first m w v Hw E) as (b & c & d & F).
    destruct (wverts_of_first m w' v Hw' E') as (b' & c' & d' & F').
    destruct (wverts_in m w _ Hw F) as (vs & G & Hvs). destruct (wverts_in m w' _ Hw' F') as (vs' & G' & Hvs').
    rewrite <- Ht, G in G'. injection G' as <-.
    assert (b' ∈ list4 (A4 v b c d)) as Hb. { apply Hvs, Hvs'. cbn. set_solver. }
    pose proof (ok_distinct m Hok w' _ _ _ _ Hw' F') as Hnd. cbn in Hb.
    apply elem_of_cons in Hb as [->|Hb]; [exfalso; apply NoDup_cons_1_1 in Hnd; set_solver|].
    apply elem_of_cons in Hb as [->|Hb]; [left; symmetry; eapply pair_same; eauto|].
    apply elem_of_cons in Hb as [->|Hb].
    - right. left. symmetry. eapply (pair_same m (to_nve w) w'); eauto; [by apply valid_nve|by apply wverts_nve].
    - apply elem_of_list_singleton in Hb as ->. right. right. symmetry.
      eapply (pair_same m (to_pve w) w'); eauto; [by apply valid_pve|by apply wverts_pve].
  Qed.

  (** ** Edge rings *)
  Lemma ring_total m w : mesh_ok m → valid m w → ∃ w', ring_next m w = Some w' ∧ valid m w'.
  Proof.
    intros Hok Hw. destruct (wverts_ex m w Hw) as (a & b & c & d & E).
    destruct (ok_adj m Hok (to_twin_edge w) b a d c) as (w' & x & E1 & Hv & _); [by apply valid_twin|by apply wverts_twin|].
    exists w'. done.
  Qed.
  Lemma twin_inj w w' : w_edge w < 12 → w_edge w' < 12 → to_twin_edge w = to_twin_edge w' → w = w'.
  Proof.
    intros H H' E. pose proof (walker_laws w H) as (_&_&_&_&_&_&_&E1&_). pose proof (walker_laws w' H') as (_&_&_&_&_&_&_&E2&_).
    congruence.
  Qed.
  Lemma adj_inj m w w' x : mesh_ok m → valid m w → valid m w' → to_adj m w = Some x → to_adj m w' = Some x → w = w'.
  Proof.
    intros Hok Hw Hw' E E'. destruct (wverts_ex m w Hw) as (a & b & c & d & F). destruct (wverts_ex m w' Hw') as (a' & b' & c' & d' & F').
    destruct (adj_info m w x a b c d) as (_ & _ & E1); [done..|].
    destruct (adj_info m w' x a' b' c' d') as (_ & _ & E2); [done..|]. congruence.
  Qed.
  Lemma ring_inj m w w' x : mesh_ok m → valid m w → valid m w' → ring_next m w = Some x → ring_next m w' = Some x → w = w'.
  Proof.
    intros Hok Hw Hw' E E'. apply twin_inj; [apply Hw|apply Hw'|].
    eapply adj_inj; [done|by apply valid_twin|by apply valid_twin|exact E|exact E'].
  Qed.

  Lemma round_closed {K} (next : K → option K) start l : round_trip next start l → start ∈ l ∧ ∀ x y, x ∈ l → next x = Some y → y ∈ l.
  Proof.
    intros (H0 & Hn & _). assert (start ∈ l) by (apply elem_of_list_lookup; eauto). split; [done|].
    intros x y [i Hi]%elem_of_list_lookup E. rewrite (Hn i x Hi) in E. injection E as <-.
    destruct (l !! S i) eqn:E'; cbn; [|done]. apply elem_of_list_lookup. eauto.
  Qed.
  Lemma round_back {K} (next : K → option K) start l y : round_trip next start l → y ∈ l → ∃ x, x ∈ l ∧ next x = Some y.
  Proof.
    intros (H0 & Hn & _) [i Hi]%elem_of_list_lookup. destruct i as [|i].
    - rewrite H0 in Hi. injection Hi as <-. pose proof (lookup_lt_Some _ _ _ H0) as Hl.
      destruct (lookup_lt_is_Some_2 l (length l - 1)) as (x & Hx); [lia|]. exists x. split; [apply elem_of_list_lookup; eauto|].
      rewrite (Hn _ _ Hx). replace (S (length l - 1)) with (length l) by lia. by rewrite lookup_ge_None_2.
    - destruct (lookup_lt_is_Some_2 l i) as (x & Hx); [apply lookup_lt_Some in Hi; lia|]. exists x.
      split; [apply elem_of_list_lookup; eauto|]. by rewrite (Hn _ _ Hx), Hi.
  Qed.

  Lemma edge_ring_round m w : mesh_ok m → valid m w →
    ∃ l, round_trip (ring_next m) w l ∧ length l ≤ 12 * length (im_keys (m_tets m)) ∧ (∀ x, x ∈ l → valid m x).
  Proof.
    intros Hok Hw. destruct (round_trip_ex (ring_next m) (all_walkers m)) with (start := w) as (l & H1 & H2 & H3).
    - intros x Hx%all_walkers_valid; [|apply Hok]. destruct (ring_total m x Hok Hx) as (x' & E & Hx').
      exists x'. split; [done|]. apply elem_of_all_walkers; [apply Hok|done].
    - intros x y z Hx%all_walkers_valid Hy%all_walkers_valid; [|apply Hok..]. intros E E'. by eapply ring_inj.
    - apply elem_of_all_walkers; [apply Hok|done].
    - exists l. rewrite all_walkers_length in H2. split; [done|]. split; [done|].
      intros x Hx%H3%all_walkers_valid; [done|apply Hok].
  Qed.

  Lemma ring_set m w l p : mesh_ok m → valid m w → w_pair m w = Some p → round_trip (ring_next m) w l → (∀ x, x ∈ l → valid m x) →
    ∀ x, x ∈ l ↔ valid m x ∧ w_pair m x = Some p.
  Proof.
    intros Hok Hw Hp Hr Hv x. split.
    - intros [i Hi]%elem_of_list_lookup. pose proof Hr as (H0 & Hn & _). revert x Hi. induction i as [|i IH]; intros x Hi.
      + rewrite H0 in Hi. by injection Hi as <-.
      + destruct (lookup_lt_is_Some_2 l i) as (y & Hy); [apply lookup_lt_Some in Hi; lia|]. destruct (IH y Hy) as [Hy1 Hy2].
        pose proof (Hn _ _ Hy) as E. rewrite Hi in E. cbn in E. destruct p as [a b]. destruct (wverts_of_pair m y a b Hy1 Hy2) as (c & d & F).
        destruct (ring_info m y x a b c d) as (Hx & z & Fx); [done..|]. split; [done|]. by eapply wverts_pair.
    - intros [Hx Hxp]. pose proof (ok_ring m Hok w x p Hw Hx Hp Hxp) as Hs.
      destruct (round_closed _ _ _ Hr) as [Hin Hcl].
      apply (rtsc_inv (edge_step m) (λ x, x ∈ l) w x); [|done|done]. intros a b [Ha E]. split; [intros H; by apply (Hcl a)|].
      intros Hb. destruct (round_back _ _ _ b Hr Hb) as (y & Hy & Ey).
      rewrite (ring_inj m a y b Hok Ha (Hv y Hy) E Ey). done.
  Qed.

  (** ** The tets of a vertex *)
  Lemma vertex_walker_ok m v : mesh_ok m → attached m v → v ≠ GHOST →
    ∃ w, walker_from_vertex m v = Some w ∧ valid m w ∧ w_first m w = Some v.
  Proof.
    intros Hok Ha Hg. pose proof Ha as (u & Hu & Eu). destruct (ok_exist m Hok u v Hu Eu) as [?|(vt & Hvt)]; [done|].
    exists (v_tet vt). unfold walker_from_vertex. rewrite Hvt. split; [done|]. by apply (ok_vref m Hok).
  Qed.

  Lemma adj_perm m w p a b c d : mesh_ok m → valid m w → w_verts m (to_perm w p) = Some (A4 a b c d) →
    ∃ x y, to_adj m (to_perm w p) = Some x ∧ valid m x ∧ w_verts m x = Some (A4 b a c y).
  Proof.
    intros Hok Hw E. destruct (ok_adj m Hok (to_perm w p) a b c d) as (x & y & E1 & Hx & E2 & _); [by apply valid_perm|done|]. eauto.
  Qed.

  Lemma wfv_around_ok m w v b c d : mesh_ok m → valid m w → w_verts m w = Some (A4 v b c d) →
    ∃ x1 x2 x3, wfv_around m w = Some (x1, x2, x3) ∧ valid m x1 ∧ valid m x2 ∧ valid m x3 ∧
      (∃ y, w_verts m x1 = Some (A4 v b d y)) ∧ (∃ y, w_verts m x2 = Some (A4 v c b y)) ∧ (∃ y, w_verts m x3 = Some (A4 v d c y)).
  Proof.
    intros Hok Hw E. unfold wfv_around.
    destruct (adj_perm m w P1032 b v d c) as (x1 & y1 & -> & ? & ?); [done..|by rewrite (wverts_perm m w v b c d)|].
    destruct (adj_perm m w P2013 c v b d) as (x2 & y2 & -> & ? & ?); [done..|by rewrite (wverts_perm m w v b c d)|].
    destruct (adj_perm m w P3021 d v c b) as (x3 & y3 & -> & ? & ?); [done..|by rewrite (wverts_perm m w v b c d)|].
    cbn. exists x1, x2, x3. eauto 10.
  Qed.

  Definition wfv_sl m w : list walker := match wfv_around m w with Some (x1, x2, x3) => [x3; x2; x1] | None => [] end.
  Definition wfv_succ m w st : option (list walker) :=
    match wfv_around m w with Some (x1, x2, x3) => Some (x3 :: x2 :: x1 :: st) | None => None end.
  Lemma wfv_gpop m vis st : wfv_pop m vis st = gpop (λ w, Some (w_tet w)) (wfv_succ m) vis st.
  Proof.
    induction st as [|w st IH]; [done|]. cbn. destruct (decide _); [done|]. unfold wfv_succ.
    by destruct (wfv_around m w) as [[[??]?]|].
  Qed.

  Lemma keys_size {X} (im : idmap X) : size (list_to_set (im_keys im) : gset N) ≤ length (im_keys im).
  Proof.
    induction (im_keys im) as [|k l IH]; [done|]. cbn [list_to_set length].
    pose proof (size_union_alt ({[k]} : gset N) (list_to_set l)). rewrite size_singleton in *.
    assert (size ((list_to_set l : gset N) ∖ {[k]}) ≤ size (list_to_set l : gset N)) by (apply subseteq_size; set_solver). lia.
  Qed.

  (** The tets already visited are closed under crossing triangles at the vertex. *)
  Lemma star_closed m v (Q : N → Prop) w0 : mesh_ok m → valid m w0 → w_first m w0 = Some v → Q (w_tet w0) →
    (∀ w x, valid m w → w_first m w = Some v → Q (w_tet w) → to_adj m w = Some x → Q (w_tet x)) →
    ∀ w, valid m w → w_first m w = Some v → Q (w_tet w).
  Proof.
    intros Hok Hw0 E0 HQ Hstep w Hw E.
    apply (rtsc_inv (vertex_step m) (λ w, valid m w → w_first m w = Some v → Q (w_tet w)) w0 w);
      [|by apply (ok_star m Hok w0 w v)|done..].
    intros a b [Ha [->|(x & Ex & ->)]].
    - split.
      + intros H Hb Eb. apply H; [done|]. destruct (wverts_ex m a Ha) as (p&q&r&s&F). rewrite (wverts_first _ _ _ _ _ _ F).
        by rewrite (wverts_first _ _ _ _ _ _ (wverts_nve m a p q r s Ha F)) in Eb.
      + intros H Ha' Ea. apply (H (valid_nve m a Ha)). destruct (wverts_of_first m a v Ha Ea) as (q&r&s&F).
        by rewrite (wverts_first _ _ _ _ _ _ (wverts_nve m a v q r s Ha F)).
    - destruct (wverts_ex m a Ha) as (p&q&r&s&F). destruct (adj_info m a x p q r s) as (Hx & (y & Fx) & Ex'); [done..|].
      pose proof (wverts_nfe m x _ _ _ _ Hx Fx) as Fn.
      split.
      + intros H Hb Eb. apply (Hstep a x); [done| |apply H; [done|]|done].
        all: rewrite (wverts_first _ _ _ _ _ _ Fn) in Eb; by rewrite (wverts_first _ _ _ _ _ _ F).
      + intros H Ha' Ea. rewrite (wverts_first _ _ _ _ _ _ F) in Ea. injection Ea as ->.
        (* go back over the same triangle *)
        apply (Hstep (to_nfe x) (to_pfe a)); [by apply valid_nfe|by eapply wverts_first|apply H;[by apply valid_nfe|by eapply wverts_first]|].
        eapply adj_is; [done|by apply valid_nfe|by apply valid_pfe|exact Fn|by apply wverts_pfe].
  Qed.

  Lemma vertex_walkers m v : mesh_ok m → attached m v → v ≠ GHOST →
    ∃ w l, walker_from_vertex m v = Some w ∧ walkers_from_vertex m v = Some (∅, [w]) ∧ yields (wfv_next m) (∅, [w]) (w :: l) ∧
      length (w :: l) ≤ length (im_keys (m_tets m)) ∧ NoDup (w_tet <$> w :: l) ∧
      (∀ x, x ∈ w :: l → valid m x ∧ w_first m x = Some v) ∧
      (∀ x, valid m x → w_first m x = Some v → w_tet x ∈ w_tet <$> w :: l).
  Proof.
    intros Hok Ha Hg. destruct (vertex_walker_ok m v Hok Ha Hg) as (w & Ew & Hw & Fw). exists w.
    destruct (gnext_yields (λ w, Some (w_tet w)) (wfv_succ m) (λ x, valid m x ∧ w_first m x = Some v) w_tet (wfv_sl m)
      (list_to_set (im_keys (m_tets m)))) with (w := w) as (l & Hy & Hlen & Hnd & HP & Hcl).
    { intros x [Hx _]. split; [done|]. apply elem_of_list_to_set, elem_of_im_keys; [apply Hok|apply Hx]. }
    { intros x st [Hx Fx]. destruct (wverts_of_first m x v Hx Fx) as (b & c & d & F).
      destruct (wfv_around_ok m x v b c d Hok Hx F) as (x1 & x2 & x3 & E & V1 & V2 & V3 & (y1 & F1) & (y2 & F2) & (y3 & F3)).
      unfold wfv_succ, wfv_sl. rewrite E. split; [done|]. intros y Hyl. rewrite !elem_of_cons, elem_of_nil in Hyl.
      destruct Hyl as [->|[->|[->|[]]]]; split; try done; by eapply wverts_first. }
    { done. }
    exists l. split; [done|]. split; [unfold walkers_from_vertex; by rewrite Ew|]. split.
    { intros n. destruct (Hy n) as (s' & E). exists s'. rewrite <- E. apply iter_take_ext. intros s. unfold wfv_next, gnext. apply wfv_gpop. }
    split; [etrans; [exact Hlen|apply keys_size]|]. split; [done|]. split; [done|].
    apply (star_closed m v (λ k, k ∈ w_tet <$> w :: l) w); [done..| |].
    { rewrite fmap_cons. apply elem_of_list_here. }
    intros a x Hav Ea Hin Ex. apply elem_of_list_fmap in Hin as (z & Ez & Hz). destruct (HP z Hz) as [Hzv Fz].
    destruct (wverts_of_first m z v Hzv Fz) as (b & c & d & F).
    destruct (wfv_around_ok m z v b c d Hok Hzv F) as (x1 & x2 & x3 & E & V1 & V2 & V3 & (y1 & F1) & (y2 & F2) & (y3 & F3)).
    assert (∀ y, y ∈ [x3; x2; x1] → w_tet y ∈ w_tet <$> w :: l) as Hc.
    { intros y Hy'. apply (Hcl z y Hz). unfold wfv_sl. by rewrite E. }
    assert (∀ y p q r s, valid m a → w_verts m a = Some (A4 v p q r) → valid m y → w_verts m y = Some (A4 v q p s) → to_adj m a = Some x → w_tet x = w_tet y) as Hsame.
    { intros y p q r s Hav' Fa Hy' Fy Ex'. destruct (adj_info m a x v p q r) as (Hx & (k & Fx) & _); [done..|].
      pose proof (wverts_nfe m x _ _ _ _ Hx Fx) as Fn.
      by rewrite <- (tri_same m (to_nfe x) y v q p k s Hok (valid_nfe m x Hx) Hy' Fn Fy). }
    destruct (first_same m z a v Hok Hzv Hav Fz Ea (eq_sym Ez)) as [Q|[Q|Q]]; subst a.
    - rewrite (Hsame x2 b c d y2); [|done..]. apply Hc. set_solver.
    - rewrite (Hsame x3 c d b y3); [|done|by apply wverts_nve|done..]. apply Hc. set_solver.
    - rewrite (Hsame x1 d b c y1); [|done|by apply wverts_pve|done..]. apply Hc. set_solver.
  Qed.

  (** ** The neighbours of a vertex *)
  Definition spin m z : option walker := to_adj m (to_perm z P3021).

  Lemma perm_back z : w_edge z < 12 → to_perm (to_perm z P3021) P1320 = z ∧ to_perm (to_perm z P0231) P0312 = z.
  Proof. intros Hz. destruct z as [t e]. cbn [w_edge] in Hz. case12 e Hz; done. Qed.

  Lemma spin_info m z v t b x : mesh_ok m → valid m z → w_verts m z = Some (A4 v t b x) →
    ∃ z' y, spin m z = Some z' ∧ valid m z' ∧ w_verts m z' = Some (A4 v x b y).
  Proof.
    intros Hok Hz E. unfold spin. apply (adj_perm m z P3021 x v b t); [done..|]. by rewrite (wverts_perm m z v t b x).
  Qed.
  Lemma spin_inj m z z' x : mesh_ok m → valid m z → valid m z' → spin m z = Some x → spin m z' = Some x → z = z'.
  Proof.
    intros Hok Hz Hz' E E'. pose proof (adj_inj m _ _ x Hok (valid_perm m z P3021 Hz) (valid_perm m z' P3021 Hz') E E') as H.
    rewrite <- (proj1 (perm_back z (proj2 Hz))), H. apply perm_back. apply Hz'.
  Qed.

  Lemma vt_ring_run m start l : round_trip (spin m) start l →
    ∀ fuel i z st, l !! i = Some z → length l ≤ i + fuel → vt_ring fuel m start z st = Some (rev (drop i l) ++ st).
  Proof.
    intros (H0 & Hn & Hs). induction fuel as [|fuel IH]; intros i z st Hi Hf; [apply lookup_lt_Some in Hi; lia|].
    cbn [vt_ring]. pose proof (Hn i z Hi) as E. unfold spin in E. rewrite E. cbn [mbind option_bind].
    rewrite (drop_S l z i Hi). cbn [rev]. rewrite <- app_assoc. cbn [app].
    destruct (l !! S i) as [z'|] eqn:Hi'; cbn.
    - rewrite decide_False; [|intros ->; by apply Hs in Hi']. by rewrite (IH (S i) z') by (done || lia).
    - rewrite decide_True by done. apply lookup_ge_None_1 in Hi'. by rewrite drop_ge.
  Qed.

  Definition vt_sl m w : list walker := default [] (vt_around m w []).

  Lemma vt_around_ok m w v b c d : mesh_ok m → valid m w → w_verts m w = Some (A4 v b c d) →
    (∀ st, vt_around m w st = Some (vt_sl m w ++ st)) ∧
    (∀ z, z ∈ vt_sl m w ↔ valid m z ∧ ∃ t x, w_verts m z = Some (A4 v t b x)).
  Proof.
    intros Hok Hw E. destruct (ok_adj m Hok w v b c d Hw E) as (w1 & x & E1 & Hw1 & F1 & _).
    pose proof (wverts_nfe m w1 _ _ _ _ Hw1 F1) as F0. set (z0 := to_nfe w1) in *.
    assert (valid m z0) as Hz0 by (by apply valid_nfe).
    destruct (round_trip_ex (spin m) (all_walkers m)) with (start := z0) as (l & Hr & Hlen & Hin).
    { intros y Hy%all_walkers_valid; [|apply Hok]. destruct (wverts_ex m y Hy) as (p&q&r&s&F).
      destruct (spin_info m y p q r s Hok Hy F) as (y' & k & Ey & Hy' & _). exists y'. split; [done|]. apply elem_of_all_walkers; [apply Hok|done]. }
    { intros y y' z Hy%all_walkers_valid Hy'%all_walkers_valid; [|apply Hok..]. intros Q Q'. by eapply spin_inj. }
    { apply elem_of_all_walkers; [apply Hok|done]. }
    rewrite all_walkers_length in Hlen. pose proof Hr as (H0 & Hn & _).
    assert (∀ st, vt_around m w st = Some (rev l ++ st)) as Hrun.
    { intros st. unfold vt_around. rewrite E1. cbn [mbind option_bind]. fold z0.
      rewrite (vt_ring_run m z0 l Hr _ 0 z0 st H0); [by rewrite drop_0|lia]. }
    assert (vt_sl m w = rev l) as Hsl. { unfold vt_sl. rewrite Hrun. cbn. by rewrite app_nil_r. }
    rewrite Hsl. split; [done|].
    assert (∀ z, z ∈ l → valid m z) as Hval. { intros z Hz%Hin%all_walkers_valid; [done|apply Hok]. }
    intros z. rewrite elem_of_list_In, <- in_rev, <- elem_of_list_In. split.
    - intros Hz. split; [by apply Hval|]. apply elem_of_list_lookup in Hz as [i Hi]. revert z Hi.
      induction i as [|i IH]; intros z Hi; [rewrite H0 in Hi; injection Hi as <-; eauto|].
      destruct (lookup_lt_is_Some_2 l i) as (y & Hy); [apply lookup_lt_Some in Hi; lia|].
      destruct (IH y Hy) as (t & x' & Fy). assert (valid m y) as Hyv by (apply Hval, elem_of_list_lookup; eauto).
      destruct (spin_info m y v t b x' Hok Hyv Fy) as (z' & k & Ez & _ & Fz).
      rewrite (Hn i y Hy), Hi in Ez. cbn in Ez. injection Ez as <-. eauto.
    - (* every walker on the edge is in the ring of [to_perm z0 P0231] *)
      intros (Hz & t & x' & Fz). destruct (round_closed _ _ _ Hr) as [Hz0l Hcl].
      pose proof (ok_ring m Hok (to_perm z0 P0231) (to_perm z P0231) (v, b)) as Hring.
      specialize (Hring (valid_perm m z0 P0231 Hz0) (valid_perm m z P0231 Hz)).
      pose proof (wverts_perm m z0 v c b x P0231 Hz0 F0) as G0. pose proof (wverts_perm m z v t b x' P0231 Hz Fz) as G. cbn in G0, G.
      specialize (Hring (wverts_pair _ _ _ _ _ _ G0) (wverts_pair _ _ _ _ _ _ G)).
      assert (∃ y, y ∈ l ∧ to_perm z P0231 = to_perm y P0231) as (y & Hy & Ey).
      { apply (rtsc_inv (edge_step m) (λ a, ∃ y, y ∈ l ∧ a = to_perm y P0231) _ _) with (2 := Hring); [|by exists z0].
        clear Hring. intros a a' [Ha Ea]. split.
        - intros (y & Hy & ->). destruct (round_back _ _ _ y Hr Hy) as (y' & Hy' & Eyy).
          (* ring_next (φ (spin y')) = φ y' *)
          exists y'. split; [done|]. assert (valid m y') as Hyv' by (by apply Hval).
          destruct (wverts_ex m y' Hyv') as (p&q&r&s&F). destruct (spin_info m y' p q r s Hok Hyv' F) as (y2 & k & Ey2 & Hy2 & Fy2).
          rewrite Eyy in Ey2. injection Ey2 as <-.
          pose proof (wverts_perm m y _ _ _ _ P0231 Hy2 Fy2) as G1. pose proof (wverts_perm m y' _ _ _ _ P0231 Hyv' F) as G2. cbn in G1, G2.
          pose proof (ring_is m _ _ p r k s q Hok (valid_perm m y P0231 Hy2) (valid_perm m y' P0231 Hyv') G1 G2) as R.
          rewrite Ea in R. by injection R as <-.
        - intros (y & Hy & ->). assert (valid m y) as Hyv by (by apply Hval).
          destruct (wverts_ex m y Hyv) as (p&q&r&s&F). destruct (spin_info m y p q r s Hok Hyv F) as (y2 & k & Ey2 & Hy2 & Fy2).
          exists y2. split; [by apply (Hcl y)|].
          pose proof (wverts_perm m y2 _ _ _ _ P0231 Hy2 Fy2) as G1. pose proof (wverts_perm m y _ _ _ _ P0231 Hyv F) as G2. cbn in G1, G2.
          pose proof (ring_is m _ _ p r k s q Hok (valid_perm m y2 P0231 Hy2) (valid_perm m y P0231 Hyv) G1 G2) as R.
          eapply ring_inj; [done|done|by apply valid_perm|exact Ea|exact R]. }
      rewrite <- (proj2 (perm_back z (proj2 Hz))), Ey. rewrite (proj2 (perm_back y (proj2 (Hval y Hy)))). done.
  Qed.

  Definition snd_of m w : N := default 0%N (w_second m w).
  Lemma vt_gpop m vis st : vt_pop m vis st = gpop (w_second m) (vt_around m) vis st.
  Proof.
    induction st as [|w st IH]; [done|]. cbn. destruct (w_second m w) as [b|]; [|done]. cbn. destruct (decide _); [done|].
    by destruct (vt_around m w st).
  Qed.

  Lemma second_exists m w : mesh_ok m → valid m w →
    ∃ b, w_second m w = Some b ∧ (b = GHOST ∨ is_Some (im_get (m_verts m) b)).
  Proof.
    intros Hok Hw. destruct (wverts_ex m w Hw) as (p&q&r&s&F). exists q. split; [by eapply wverts_second|].
    apply (ok_exist m Hok (to_nfe w)); [by apply valid_nfe|]. eapply wverts_first. by apply wverts_nfe.
  Qed.

  Lemma vertex_target_list m v : mesh_ok m → attached m v → v ≠ GHOST →
    ∃ w l, walker_from_vertex m v = Some w ∧ vertex_target_walkers m v = Some (∅, [w]) ∧ yields (vt_next m) (∅, [w]) (w :: l) ∧
      length (w :: l) ≤ length (im_keys (m_verts m)) + 1 ∧ NoDup (snd_of m <$> w :: l) ∧
      (∀ x, x ∈ w :: l → valid m x ∧ w_first m x = Some v ∧ w_second m x = Some (snd_of m x)) ∧
      (∀ b, joined m v b → b ∈ snd_of m <$> w :: l).
  Proof.
    intros Hok Ha Hg. destruct (vertex_walker_ok m v Hok Ha Hg) as (w & Ew & Hw & Fw). exists w.
    destruct (gnext_yields (w_second m) (vt_around m) (λ x, valid m x ∧ w_first m x = Some v) (snd_of m) (vt_sl m)
      ({[GHOST]} ∪ list_to_set (im_keys (m_verts m)))) with (w := w) as (l & Hy & Hlen & Hnd & HP & Hcl).
    { intros x [Hx _]. destruct (second_exists m x Hok Hx) as (b & E & Hb). unfold snd_of. rewrite E. cbn. split; [done|].
      destruct Hb as [->|Hb]; [set_solver|]. apply elem_of_union. right. apply elem_of_list_to_set, elem_of_im_keys; [apply Hok|done]. }
    { intros x st [Hx Fx]. destruct (wverts_of_first m x v Hx Fx) as (b & c & d & F).
      destruct (vt_around_ok m x v b c d Hok Hx F) as [H1 H2]. split; [done|].
      intros y (Hy & t & k & Fy)%H2. split; [done|]. by eapply wverts_first. }
    { done. }
    exists l. split; [done|]. split; [unfold vertex_target_walkers; by rewrite Ew|]. split.
    { intros n. destruct (Hy n) as (s' & E). exists s'. rewrite <- E. apply iter_take_ext. intros s. unfold vt_next, gnext. apply vt_gpop. }
    assert (∀ x, x ∈ w :: l → valid m x ∧ w_first m x = Some v ∧ w_second m x = Some (snd_of m x)) as HP'.
    { intros x Hx. destruct (HP x Hx) as [H1 H2]. split; [done|]. split; [done|]. destruct (second_exists m x Hok H1) as (b & E & _).
      unfold snd_of. by rewrite E. }
    split.
    { etrans; [exact Hlen|]. pose proof (size_union_alt ({[GHOST]} : gset N) (list_to_set (im_keys (m_verts m)))) as Hs.
      rewrite size_singleton in Hs. pose proof (keys_size (m_verts m)).
      assert (size ((list_to_set (im_keys (m_verts m)) : gset N) ∖ {[GHOST]}) ≤ size (list_to_set (im_keys (m_verts m)) : gset N)) by (apply subseteq_size; set_solver).
      lia. }
    split; [done|]. split; [done|].
    (* a visited target: all tets with that edge have all their vertices visited *)
    set (D := λ b, b ∈ snd_of m <$> w :: l).
    assert (∀ u b c d, D b → valid m u → w_verts m u = Some (A4 v b c d) → D c ∧ D d) as Htet.
    { intros u b c d (z & -> & Hz)%elem_of_list_fmap Hu Fu. destruct (HP' z Hz) as (Hzv & Fz & Sz).
      destruct (wverts_of_first m z v Hzv Fz) as (b' & c' & d' & Gz). rewrite (wverts_second _ _ _ _ _ _ Gz) in Sz. injection Sz as ->.
      destruct (vt_around_ok m z v _ c' d' Hok Hzv Gz) as [_ H2].
      assert (∀ y t k, valid m y → w_verts m y = Some (A4 v t (snd_of m z) k) → D t) as Hd.
      { intros y t k Hyv Fy. pose proof (Hcl z y Hz (proj2 (H2 y) (conj Hyv (ex_intro _ t (ex_intro _ k Fy))))) as Hin.
        unfold snd_of in Hin at 1. by rewrite (wverts_second _ _ _ _ _ _ Fy) in Hin. }
      split.
      - destruct (adj_perm m u P2013 c v (snd_of m z) d) as (y & k & _ & Hyv & Fy); [done|done|by rewrite (wverts_perm m u _ _ _ _ P2013 Hu Fu)|].
        by apply (Hd y c k).
      - apply (Hd (to_pve u) d c); [by apply valid_pve|]. by apply wverts_pve. }
    assert (∀ u b c d, valid m u → w_verts m u = Some (A4 v b c d) → D b ∨ D c ∨ D d → D b ∧ D c ∧ D d) as Hall.
    { intros u b c d Hu Fu [H|[H|H]].
      - destruct (Htet u b c d H Hu Fu). done.
      - destruct (Htet (to_nve u) c d b H (valid_nve m u Hu) (wverts_nve m u _ _ _ _ Hu Fu)). done.
      - destruct (Htet (to_pve u) d b c H (valid_pve m u Hu) (wverts_pve m u _ _ _ _ Hu Fu)). done. }
    assert (∀ u y vs b c d p, valid m u → valid m y → w_tet u = w_tet y → w_verts m u = Some (A4 v b c d) → w_verts m y = Some vs →
      p ∈ list4 vs → p ≠ v → D p → D b ∧ D c ∧ D d) as Hone.
    { intros u y vs b c d p Hu Hyv Et Fu Fy Hp Hpv HD. destruct (wverts_in m u _ Hu Fu) as (vs1 & G1 & Hv1).
      destruct (wverts_in m y _ Hyv Fy) as (vs2 & G2 & Hv2). rewrite Et, G2 in G1. injection G1 as <-.
      apply (Hall u b c d Hu Fu). apply Hv2, Hv1 in Hp. change (p ∈ [v; b; c; d]) in Hp. rewrite !elem_of_cons, elem_of_nil in Hp.
      destruct Hp as [?|[->|[->|[->|[]]]]]; auto. done. }
    intros b (u & Hu & Eu). destruct (wverts_of_pair m u v b Hu Eu) as (c & d & Fu).
    assert (∀ y, valid m y → w_first m y = Some v → (λ k, ∀ u b c d, valid m u → w_tet u = k → w_verts m u = Some (A4 v b c d) → D b ∧ D c ∧ D d) (w_tet y)) as Hfin.
    { apply (star_closed m v (λ k, ∀ u b c d, valid m u → w_tet u = k → w_verts m u = Some (A4 v b c d) → D b ∧ D c ∧ D d) w Hok Hw Fw).
      - intros u' b' c' d' Hu' Et' Fu'. destruct (wverts_of_first m w v Hw Fw) as (b0 & c0 & d0 & F0).
        pose proof (ok_distinct m Hok w _ _ _ _ Hw F0) as Hd0. apply NoDup_cons_1_1 in Hd0.
        apply (Hone u' w _ b' c' d' b0 Hu' Hw Et' Fu' F0); [cbn; set_solver|set_solver|].
        unfold D. apply elem_of_list_fmap. exists w. split; [|apply elem_of_list_here]. unfold snd_of. by rewrite (wverts_second _ _ _ _ _ _ F0).
      - intros a x Hav Fa HQ Ex u' b' c' d' Hu' Et' Fu'. destruct (wverts_of_first m a v Hav Fa) as (p & q & r & Ga).
        destruct (adj_info m a x v p q r) as (Hx & (k & Fx) & _); [done..|].
        pose proof (ok_distinct m Hok a _ _ _ _ Hav Ga) as Hd0. apply NoDup_cons_1_1 in Hd0.
        apply (Hone u' x _ b' c' d' p Hu' Hx Et' Fu' Fx); [cbn; set_solver|set_solver|]. by apply (HQ a p q r). }
    by apply (Hfin u Hu (wverts_first _ _ _ _ _ _ Fu) u b c d).
  Qed.
End iter.

Section rings.
  Context {V T : Type}.
  Implicit Types (m : mesh V T) (w : walker).

  Lemma edge_ring_list m w p : mesh_ok m → valid m w → w_pair m w = Some p →
    ∃ l, yields (edge_ring_next m) (edge_ring m w) l ∧ head l = Some w ∧ NoDup (w_tet <$> l) ∧
      (∀ x, x ∈ l ↔ valid m x ∧ w_pair m x = Some p) ∧
      (∀ i x, l !! i = Some x → w_third m (default w (l !! S i)) = w_fourth m x).
  Proof.
    intros Hok Hw Hp. destruct (edge_ring_round m w Hok Hw) as (l & Hr & Hlen & Hv). exists l.
    pose proof (ring_set m w l p Hok Hw Hp Hr Hv) as Hset. pose proof Hr as (H0 & Hn & Hs).
    split.
    { pose proof (circular_yields (λ _, Some ()) (λ _, ()) (ring_next m) w l Hr (λ _ _, eq_refl)) as Hy.
      pose proof (yields_map (ci_next (λ _, Some ()) (ring_next m)) (edge_ring_next m) (λ p, Some p.1)) as Hm.
      assert (l = fst <$> ((λ x : walker, (x, ())) <$> l)) as -> by (rewrite <- list_fmap_compose; symmetry; apply list_fmap_id).
      apply (Hm) with (g := fst); [|exact Hy|done].
      intros s. unfold edge_ring_next. by destruct (ci_next _ _ s) as [[[[??]|]?]|]. }
    split; [by rewrite head_lookup|]. split.
    { apply NoDup_fmap_2_strong; [|by eapply round_trip_nodup]. intros x y Hx Hy Ht.
      apply Hset in Hx as [Hx Px], Hy as [Hy Py]. destruct p as [a b].
      destruct (wverts_of_pair m x a b Hx Px) as (c & d & Fx), (wverts_of_pair m y a b Hy Py) as (c' & d' & Fy).
      by eapply pair_same. }
    split; [done|]. intros i x Hi. assert (x ∈ l) as Hx by (apply elem_of_list_lookup; eauto). apply Hset in Hx as [Hx Px].
    destruct p as [a b]. destruct (wverts_of_pair m x a b Hx Px) as (c & d & Fx).
    destruct (ring_info m x _ a b c d Hok Hx Fx (Hn i x Hi)) as (_ & z & F).
    rewrite (wverts_fourth _ _ _ _ _ _ Fx). by apply (walker_accessors m _ a b d z).
  Qed.

  Lemma vertex_tets_list m v : mesh_ok m → attached m v → v ≠ GHOST →
    ∃ s l, walkers_from_vertex m v = Some s ∧ yields (vertex_tets_next m) s l ∧ NoDup l ∧
      ∀ id, id ∈ l ↔ ∃ w, valid m w ∧ w_tet w = id ∧ w_first m w = Some v.
  Proof.
    intros Hok Ha Hg. destruct (vertex_walkers m v Hok Ha Hg) as (w & l & _ & E & Hy & _ & Hnd & HP & Hall).
    exists (∅, [w]), (w_tet <$> w :: l). split; [done|]. split.
    { apply (yields_map (wfv_next m) _ (λ w, Some (w_tet w))); [|done|done].
      intros s. unfold vertex_tets_next. by destruct (wfv_next m s) as [[[?|]?]|]. }
    split; [done|]. intros id. split.
    - intros (x & -> & Hx)%elem_of_list_fmap. exists x. split; [by apply HP|]. split; [done|by apply HP].
    - intros (x & Hx & <- & Fx). by apply Hall.
  Qed.

  Lemma vertex_targets_ids m v : mesh_ok m → attached m v → v ≠ GHOST →
    ∃ s l, vertex_target_walkers m v = Some s ∧ yields (vertex_targets_next m) s l ∧ NoDup l ∧
      (∀ b, b ∈ l ↔ joined m v b) ∧ v ∉ l.
  Proof.
    intros Hok Ha Hg. destruct (vertex_target_list m v Hok Ha Hg) as (w & l & _ & E & Hy & _ & Hnd & HP & Hall).
    exists (∅, [w]), (snd_of m <$> w :: l). split; [done|]. split.
    { apply (yields_map (vt_next m) _ (w_second m)); [|done|intros a Ha'; by apply HP].
      intros s. unfold vertex_targets_next. destruct (vt_next m s) as [[[a|]?]|]; [|done..]. cbn. by destruct (w_second m a). }
    split; [done|].
    assert (∀ b, b ∈ snd_of m <$> w :: l ↔ joined m v b) as Hb.
    { intros b. split; [|by apply Hall]. intros (x & -> & Hx)%elem_of_list_fmap. destruct (HP x Hx) as (Hv & Hf & Hs).
      exists x. split; [done|]. unfold w_pair. by rewrite Hf, Hs. }
    split; [done|]. intros (x & Hx & Px)%Hb. destruct (wverts_of_pair m x v v Hx Px) as (c & d & Fx).
    pose proof (ok_distinct m Hok x _ _ _ _ Hx Fx) as Hd. apply NoDup_cons_1_1 in Hd. set_solver.
  Qed.
End rings.
