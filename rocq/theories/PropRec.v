(** Properties C45-C47: recovering edges, triangles and the boundary of a PLC by flips. *)
From stdpp Require Import base numbers list gmap option relations.
From Coq Require Import NArith ZArith Lia.
From Verif Require Import IdMapModel IdMapSpec IdMapProofs IdMapMore WalkerModel WalkerSpec MeshModel MeshOps MeshSpec FlipSpec GeoModel HistSpec MeshCheck HistCheck Integrity History Reach
  WalkerMore MeshOpsOk SortProofs PropMesh UtilSpec UtilModel IterModel QualModel QualProofs ProgModel ProgSpec ProgBase ProgStep ProgHist PropProg RecModel RecSpec RecBase RecLoop RecOk.
Local Open Scope nat_scope.

Lemma sublist_subseteq {A} (l k : list A) x : l `sublist_of` k → x ∈ l → x ∈ k.
Proof. intros H Hx. eapply elem_of_submseteq; [done|]. by apply sublist_submseteq. Qed.
Lemma sublist_NoDup {A} (l k : list A) : l `sublist_of` k → NoDup k → NoDup l.
Proof.
  induction 1 as [|x l k H IH|x l k H IH]; [done| |]; intros [Hx Hn]%stdpp.list.NoDup_cons; [|by apply IH].
  apply stdpp.list.NoDup_cons. split; [|by apply IH]. intros Hx'. apply Hx. by eapply sublist_subseteq.
Qed.

Section rec.
  Context {V T : Type}.
  Implicit Types (m : mesh V T) (w : walker).
  Context (G : geometry V T).

  (** ** C45. [recover_and_lock_edge].  Whatever the geometry says and whatever the depth, if the
      elements listed as crossing the edge are elements of the mesh: unless a wanted flip clashes on
      the way, wanted flips lead to a mesh where either something listed is still there and the answer
      is [false], or nothing listed is there (that the flips have not been allowed to make again) and
      the answer is [true] with the edge in the mesh and locked and nothing else changed.  The third
      case, that the way is clear but the edge is not there, is a panic. *)
  Theorem C45_edge depth m a b l :
    fit m → solid m a → g_cross G m (a, b) = Some l → listed m l →
    (∃ m1, rtc (edge_flip G (a, b)) m m1 ∧ edge_clash G (a, b) m1) ∨
    ∃ m1, rtc (edge_flip G (a, b)) m m1 ∧ fit m1 ∧
      ((recover_edge G m (a, b) depth = Some (m1, false) ∧ ∃ g, g ∈ l ∧ present m1 g) ∨
       ((∀ g, g ∈ l → edge_avoids G (a, b) m g → ¬ present m1 g) ∧
        ((joined m1 a b ∧ ∃ m', recover_edge G m (a, b) depth = Some (m', true) ∧ edge_locked m1 m' a b) ∨
         (¬ joined m1 a b ∧ recover_edge G m (a, b) depth = None)))).
  Proof. apply recover_edge_full. Qed.

  (** With tests that only look at the positions, a listed edge or triangle that the tests call
      crossing, apart from the end points, is one that the flips do not make again. *)
  Theorem C45_crossing m a b :
    (∀ m1 m2, (∀ v, v_pos <$> im_get (m_verts m1) v = v_pos <$> im_get (m_verts m2) v) →
       (∀ e f, g_ee G m1 e f = g_ee G m2 e f) ∧ (∀ t f, g_te G m1 t f = g_te G m2 t f)) →
    fit m →
    (∀ x y, x ∉ [a; b] → y ∉ [a; b] → g_ee G m (x, y) (a, b) = true → g_ee G m (y, x) (a, b) = true → edge_avoids G (a, b) m (SEdge (x, y))) ∧
    (∀ x y z, (∀ v, v ∈ [x; y; z] → v ∉ [a; b]) → (∀ t, same_corners t (x, y, z) → g_te G m t (a, b) = true) → edge_avoids G (a, b) m (STri (x, y, z))).
  Proof.
    intros Hpos Hf. assert (∀ m1, rtc (edge_flip G (a, b)) m m1 → ∀ v, v_pos <$> im_get (m_verts m1) v = v_pos <$> im_get (m_verts m) v) as Hv.
    { intros m1 H v. pose proof (kp_verts _ _ (steps_keep _ _ _ m m1 Hf H) v) as K.
      destruct (im_get (m_verts m1) v), (im_get (m_verts m) v); cbn in *; congruence. }
    split.
    - intros x y Hx Hy H1 H2 m1 Hr. destruct (Hpos m1 m (Hv m1 Hr)) as [P1 P2].
      rewrite not_elem_of_cons, not_elem_of_cons in Hx. rewrite not_elem_of_cons, not_elem_of_cons in Hy. destruct Hx as (X1 & X2 & _), Hy as (Y1 & Y2 & _).
      cbn [approved]. unfold may_edge, edge_has. cbn [fst snd].
      rewrite (proj2 (N.eqb_neq x a)), (proj2 (N.eqb_neq x b)), (proj2 (N.eqb_neq y a)), (proj2 (N.eqb_neq y b)) by done. cbn.
      rewrite !P1, H1, H2. cbn. by intros [?|?].
    - intros x y z Hx Ht m1 Hr. destruct (Hpos m1 m (Hv m1 Hr)) as [P1 P2]. cbn [approved]. intros (t & Hc & E).
      unfold may_tri in E. rewrite P2, (Ht t Hc) in E. cbn in E. rewrite orb_false_r in E. destruct t as [[p q] r]. unfold tri_has in E. cbn [fst snd] in *.
      assert (∀ v, v ∈ [p; q; r] → N.eqb v a = false ∧ N.eqb v b = false) as K.
      { intros v Hi. apply Hc in Hi. apply Hx in Hi. cbn [fst snd] in Hi. rewrite not_elem_of_cons, not_elem_of_cons in Hi. destruct Hi as (? & ? & _). by rewrite !N.eqb_neq. }
      destruct (K p) as [K1 K2]; [set_solver|]. destruct (K q) as [K3 K4]; [set_solver|]. destruct (K r) as [K5 K6]; [set_solver|]. by rewrite K1, K2, K3, K4, K5, K6 in E.
  Qed.

  (** However many flips and locks: the mesh stays well formed and tracked, what is locked stays
      locked, a locked edge or triangle is in the mesh, no vertex is touched and none is cut off. *)
  Theorem C45_keeps m m' : fit m → rtc (rstep G) m m' →
    mesh_ok m' ∧ m_track m' = true ∧ thick m' ∧
    (∀ t, locked_tri m t → locked_tri m' t) ∧ (∀ a b, locked_edge m a b → locked_edge m' a b) ∧
    (∀ a b, locked_edge m' a b → joined m' a b) ∧ (∀ a b c, locked_tri m' (a, b, c) → has_tri m' a b c) ∧
    (∀ v, (λ vt, (v_flags vt, v_pos vt, v_val vt)) <$> im_get (m_verts m') v =
          (λ vt, (v_flags vt, v_pos vt, v_val vt)) <$> im_get (m_verts m) v) ∧
    (∀ v, attached m v → attached m' v).
  Proof.
    intros Hf H. destruct (rsteps_keep G m m' Hf H) as [(Hok & Htr & Hth) H1 H2 H3 H4].
    do 5 (split; [done|]). split; [|split; [|done]].
    - intros a b (e & ue & E1 & E2 & _). pose proof (ok_edge_used m' Hok e ue E1) as Hj. rewrite E2 in Hj.
      unfold sorted_2 in Hj. destruct (_ <? _)%N; [|done]. by apply joined_sym.
    - intros a b c (w & Hw & Et & _). by exists w.
  Qed.

  (** ** C46. [recover_and_lock_tri].  If the geometry lists elements that are there whenever it is
      asked: unless there is trouble or a gap, flips and locks lead to the resulting mesh; the answer
      [true] means that the triangle is there and locked on both sides, and its three edges too;
      [false] means that something listed is still in the way of an edge, or that the edges are there
      and locked and something listed is still in the way of the triangle. *)
  Theorem C46_tri m a b c :
    fit m → lists_well G m → solid m a → solid m b → solid m c → NoDup [a; b; c] →
    outcome G m (recover_tri G m (a, b, c)) (λ m' ok,
      if ok : bool then secured m' a b c ∧ locked_edge m' a b ∧ locked_edge m' b c ∧ locked_edge m' c a
      else (∃ e, e ∈ [(a, b); (b, c); (c, a)] ∧ stuck_edge G m e m') ∨
           (stuck_tri G m (a, b, c) m' ∧ locked_edge m' a b ∧ locked_edge m' b c ∧ locked_edge m' c a)).
  Proof. apply recover_tri_out. Qed.

  (** An edge of the mesh that nothing is listed against is locked at once. *)
  Lemma edge_clear depth m a b : fit m → solid m a → joined m a b → g_cross G m (a, b) = Some [] →
    ∃ m', recover_edge G m (a, b) depth = Some (m', true) ∧ edge_locked m m' a b.
  Proof.
    intros Hf [Hg Ha] Hj E. unfold recover_edge. rewrite E. cbn [mbind option_bind]. change (reverse []) with (@nil simplex). cbn [mbind option_bind sweep fst snd].
    destruct (IterLookup.edge_lookup m a b (proj1 Hf) Ha Hg) as [(_ & w & -> & Hw & Ep)|(Hn & _)]; [|done]. cbn [mbind option_bind].
    destruct (lock_edge_ok m w a b Hf Hw Ep) as (m' & -> & K). by exists m'.
  Qed.
  (** A triangle of the mesh whose edges nothing is listed against is secured without any flip. *)
  Theorem C46_present m a b c :
    fit m → solid m a → solid m b → solid m c → has_tri m a b c →
    (∀ m1 e, e ∈ [(a, b); (b, c); (c, a)] → m_tets m1 = m_tets m → m_verts m1 = m_verts m → g_cross G m1 e = Some []) →
    ∃ m', recover_tri G m (a, b, c) = Some (m', true) ∧ secured m' a b c ∧ locked_edge m' a b ∧ locked_edge m' b c ∧ locked_edge m' c a ∧
      m_verts m' = m_verts m ∧ ∀ id, t_vs <$> tet_get m' id = t_vs <$> tet_get m id.
  Proof.
    intros Hf Ha Hb Hc Ht Hl.
    assert (∀ m1 x y z, m_tets m1 = m_tets m → has_tri m x y z → has_tri m1 x y z) as Hsame.
    { intros m1 x y z E (w & Hw & Et). exists w. unfold valid, w_tri, w_first, w_second, w_third, tet_get in *. by rewrite E. }
    assert (∀ m1 x, m_tets m1 = m_tets m → solid m x → solid m1 x) as Hsol.
    { intros m1 x E (Hg & w & Hw & Et). split; [done|]. exists w. unfold valid, w_first, tet_get in *. by rewrite E. }
    pose proof Hf as (Hok & _). unfold recover_tri. cbn [recover_edge_list recover_edge_deeper depths].
    destruct (edge_clear 1 m a b Hf Ha (tri_joined m a b c Hok Ht) ltac:(apply Hl; [set_solver|done..])) as (m1 & -> & L1). cbn [mbind option_bind].
    destruct (edge_clear 1 m1 b c (el_fit _ _ _ _ L1)) as (m2 & -> & L2).
    { apply Hsol; [apply L1|done]. }
    { apply (tri_joined m1 b c a); [apply L1|]. apply Hsame; [apply L1|]. eapply has_tri_perm; [done|done|]. solve_Permutation. }
    { apply Hl; [set_solver|apply L1|apply L1]. }
    cbn [mbind option_bind]. assert (m_tets m2 = m_tets m) as Et2 by (rewrite (el_tets _ _ _ _ L2); apply L1).
    assert (m_verts m2 = m_verts m) as Ev2 by (rewrite (el_verts _ _ _ _ L2); apply L1).
    destruct (edge_clear 1 m2 c a (el_fit _ _ _ _ L2)) as (m3 & -> & L3).
    { by apply Hsol. }
    { apply (tri_joined m2 c a b); [apply L2|]. apply Hsame; [done|]. eapply has_tri_perm; [done|done|]. solve_Permutation. }
    { apply Hl; [set_solver|done|done]. }
    cbn [mbind option_bind]. assert (m_tets m3 = m_tets m) as Et3 by (by rewrite (el_tets _ _ _ _ L3)).
    assert (m_verts m3 = m_verts m) as Ev3 by (by rewrite (el_verts _ _ _ _ L3)).
    pose proof (Hsame m3 a b c Et3 Ht) as Ht3. unfold depths. cbn [recover_tri_deeper].
    destruct (tri_find m3 a b c (el_fit _ _ _ _ L3)) as [(_ & w & -> & Hw & Ep)|(Hn & _)]; [|done]. cbn [mbind option_bind].
    destruct (lock_tri_ok m3 w a b c (el_fit _ _ _ _ L3) Hw Ep) as (m4 & -> & K). cbn [mbind option_bind]. exists m4. split; [done|].
    split; [eapply secure; [apply L3|done|done]|]. rewrite !(tl_edges _ _ _ _ _ K).
    assert (∀ x y, locked_edge m1 x y → locked_edge m3 x y) as M1 by (intros x y H; apply L3; left; apply L2; by left).
    assert (∀ x y, locked_edge m2 x y → locked_edge m3 x y) as M2 by (intros x y H; apply L3; by left).
    split; [apply M1, L1; by right|]. split; [apply M2, L2; by right|]. split; [apply L3; by right|].
    split; [by rewrite (tl_verts _ _ _ _ _ K)|]. intros id. pose proof (tl_tets _ _ _ _ _ K id) as Kt. unfold tet_get in *. rewrite Et3 in Kt.
    destruct (im_get (m_tets m4) id), (im_get (m_tets m) id); cbn in *; congruence.
  Qed.

  (** ** C47. [recover_and_lock_edges]: in whatever order the hash set yields the missing edges, unless
      there is trouble or a gap, afterwards every edge of the PLC is in the mesh and locked or counted
      as missing.  A missing edge is one that was not in the mesh before and for which something listed
      is still in the way of it when it is given up. *)
  Theorem C47_edges order m edges :
    (∀ l, order l ≡ₚ l) → fit m → lists_well G m → (∀ a b, (a, b) ∈ edges → a ≠ b ∧ solid m a ∧ solid m b) →
    outcome G m (recover_edges G order m edges) (λ m' missing, NoDup missing ∧
      (∀ a b, (a, b) ∈ edges → locked_edge m' a b ∨ sorted_2 (a, b) ∈ missing) ∧
      (∀ e, e ∈ missing → e ∈ sorted_2 <$> edges ∧ ¬ joined m e.1 e.2 ∧ ∃ m1, stuck_edge G m e m1 ∧ rtc (rstep G) m1 m')).
  Proof.
    intros Hord Hf Hl Hed. unfold recover_edges. set (l0 := remove_dups (sorted_2 <$> edges)).
    pose proof Hf as (Hok & _).
    assert (∀ id ue, (id, ue) ∈ im_iter (m_edges m) ↔ im_get (m_edges m) id = Some ue) as Hit by (intros; apply elem_of_im_iter, Hok).
    destruct (lock_listed_ok G (im_iter (m_edges m)) m l0) as (m1 & l1 & -> & H1 & Et & -> & H4); [done| |by intros id ue H%Hit|].
    { change ((im_iter (m_edges m)).*1) with (im_keys (m_edges m)). apply StronglySorted_lt_NoDup, im_keys_sorted. }
    cbn [mbind option_bind]. set (l1 := filter _ l0).
    assert (∀ e, e ∈ l0 → ∃ a b, (a, b) ∈ edges ∧ e = sorted_2 (a, b)) as Hl0.
    { intros e He. apply elem_of_remove_dups, elem_of_list_fmap in He as ([a b] & -> & Hi). by exists a, b. }
    assert (∀ e, e ∈ l0 → solid m e.1 ∧ solid m e.2 ∧ (e.1 < e.2)%N) as Hs.
    { intros e (a & b & Hi & ->)%Hl0. destruct (Hed a b Hi) as (Hne & Sa & Sb). pose proof (sorted2_order a b Hne) as Ho.
      destruct (sorted_2 (a, b)) as [x y] eqn:E. cbn in Ho |- *. unfold sorted_2 in E. destruct (_ <? _)%N; injection E as <- <-; done. }
    assert (∀ e, e ∈ l0 → e ∈ ue_vs <$> (im_iter (m_edges m)).*2 ↔ joined m e.1 e.2) as Hj.
    { intros [x y] He. destruct (Hs _ He) as (_ & _ & Hlt). cbn in Hlt |- *. split.
      - intros (ue & E1 & (p & -> & Hi)%elem_of_list_fmap)%elem_of_list_fmap. destruct p as [id ue]. apply Hit in Hi. pose proof (ok_edge_used m Hok id ue Hi) as K. cbn in E1. by rewrite <- E1 in K.
      - intros (w & Hw & Hp). destruct (ok_edge m Hok w x y Hw Hp) as (id & ue & F1 & F2 & F3). rewrite Integrity.sorted_2_id in F3 by done.
        apply elem_of_list_fmap. exists ue. split; [done|]. apply elem_of_list_fmap. exists (id, ue). split; [done|]. by apply Hit. }
    assert (∀ X (Q : mesh V T → list (N * N) → Prop), outcome G m1 X Q → outcome G m X Q) as Hback.
    { intros X Q [K|[[K K']|(m2 & x & K1 & K2 & K3)]]; [left; by eapply trouble_back|right; left; split; [done|by eapply gap_back]|].
      right. right. exists m2, x. split; [done|]. split; [by etrans|done]. }
    apply Hback. pose proof (rk_fit _ _ (rsteps_keep G m m1 Hf H1)) as Hf1. eapply outcome_mono.
    { apply recover_rest_out; [done|by eapply lists_on|]. intros e He. rewrite Hord in He. apply elem_of_list_filter in He as [_ He]. destruct (Hs e He) as (S1 & S2 & S3).
      split; [by apply (solid_on G m m1)|]. split; [by apply (solid_on G m m1)|]. clear - S3. lia. }
    intros m2 missing H2 (Q1 & Q2 & Q3).
    assert (NoDup (order l1)) as Hnd. { rewrite Hord. apply NoDup_filter, NoDup_remove_dups. }
    split; [by eapply sublist_NoDup|]. split.
    - intros a b Hi. assert (sorted_2 (a, b) ∈ l0) as Hi0 by (apply elem_of_remove_dups; by apply elem_of_list_fmap_1).
      assert (∀ m', locked_edge m' (sorted_2 (a, b)).1 (sorted_2 (a, b)).2 → locked_edge m' a b) as Hso.
      { intros m' (i & u & I1 & I2 & I3). exists i, u. split; [done|]. split; [|done]. rewrite I2. unfold sorted_2.
        destruct (b <? a)%N eqn:E1; cbn; [rewrite (proj2 (N.ltb_ge _ _)); [done|]; apply N.ltb_lt in E1; clear - E1; lia|by rewrite E1]. }
      destruct (decide (sorted_2 (a, b) ∈ ue_vs <$> (im_iter (m_edges m)).*2)) as [Hp|Hp].
      + left. apply Hso. apply (rk_edge _ _ (rsteps_keep G m1 m2 Hf1 H2)). by apply H4.
      + destruct (Q2 (sorted_2 (a, b))) as [K|K]; [rewrite Hord; by apply elem_of_list_filter|left; by apply Hso|by right].
    - intros e He. assert (e ∈ l1) as Hi. { rewrite <- Hord. by eapply sublist_subseteq. }
      apply elem_of_list_filter in Hi as [Hn Hi]. split; [unfold l0 in Hi; by rewrite elem_of_remove_dups in Hi|]. split; [by rewrite <- Hj|].
      destruct (Q3 e He) as (m3 & K1 & K2). exists m3. split; [by eapply stuck_edge_back|done].
  Qed.

  Lemma locked_edge_sym m x y : locked_edge m x y → locked_edge m y x.
  Proof. intros (i & u & I1 & I2 & I3). exists i, u. by rewrite sorted_2_comm. Qed.

  (** [recover_and_lock_boundary]: it first makes the mesh track its triangles, which changes nothing
      else.  From then on the same holds of the triangles of the PLC; the edges of a triangle that had
      to be recovered are locked as well. *)
  Theorem C47_boundary m tris :
    mesh_ok m → thick m → ∃ m0, set_track_tri_map m true = Some m0 ∧ fit m0 ∧
      m_tets m0 = m_tets m ∧ m_edges m0 = m_edges m ∧ m_verts m0 = m_verts m ∧
      (lists_well G m0 → (∀ a b c, (a, b, c) ∈ tris → NoDup [a; b; c] ∧ solid m a ∧ solid m b ∧ solid m c) →
       outcome G m0 (recover_boundary G m tris) (λ m' missing,
         (∀ a b c, (a, b, c) ∈ tris → secured m' a b c ∨ sorted_3 (a, b, c) ∈ missing) ∧
         (∀ a b c, (a, b, c) ∈ tris → ¬ has_tri m a b c → (∀ x y, x ∈ [a; b; c] → y ∈ [a; b; c] → x ≠ y → locked_edge m' x y) ∨ sorted_3 (a, b, c) ∈ missing) ∧
         missing `sublist_of` (sorted_3 <$> tris) ∧
         (∀ a b c, (a, b, c) ∈ missing → ¬ has_tri m a b c ∧ ∃ m1, rtc (rstep G) m1 m' ∧
            ((∃ e, e ∈ [(a, b); (b, c); (c, a)] ∧ stuck_edge G m0 e m1) ∨ stuck_tri G m0 (a, b, c) m1)))).
  Proof.
    intros Hok Hth. destruct (set_track_step m true Hok) as (m0 & E & Hok0 & Htr0 & Ev & _ & Ee & Et & _).
    assert (fit m0) as Hf. { split; [done|]. split; [done|]. by eapply thick_tets. }
    exists m0. do 5 (split; [done|]). intros Hl Htris. unfold recover_boundary. rewrite E. cbn [mbind option_bind].
    assert (∀ x y z, has_tri m0 x y z ↔ has_tri m x y z) as Hsame.
    { intros x y z. unfold has_tri, valid, w_tri, w_first, w_second, w_third, tet_get. by rewrite Et. }
    assert (∀ x, solid m x → solid m0 x) as Hsol.
    { intros x (Hg & w & Hw & Ew). split; [done|]. exists w. unfold valid, w_first, tet_get in *. by rewrite Et. }
    assert (∀ a b c, (a, b, c) ∈ tris → ∃ x y z, sorted_3 (a, b, c) = (x, y, z) ∧ [x; y; z] ≡ₚ [a; b; c] ∧ (x, y, z) ∈ sorted_3 <$> tris) as Hso.
    { intros a b c Hi. destruct (sorted_3 (a, b, c)) as [[x y] z] eqn:Es. exists x, y, z. split; [done|]. split; [by apply sorted_3_spec' in Es as [Es _]|].
      rewrite <- Es. by apply elem_of_list_fmap_1. }
    assert (∀ x y z, (x, y, z) ∈ sorted_3 <$> tris → ∃ a b c, (a, b, c) ∈ tris ∧ sorted_3 (a, b, c) = (x, y, z) ∧ [x; y; z] ≡ₚ [a; b; c]) as Hos.
    { intros x y z ([[a b] c] & Es & Hi)%elem_of_list_fmap. exists a, b, c. split; [done|]. split; [done|]. symmetry in Es. by apply sorted_3_spec' in Es as [Es _]. }
    destruct (lock_present_ok G (sorted_3 <$> tris) m0 Hf) as (m1 & miss1 & -> & H1 & S1 & P1 & N1). cbn [mbind option_bind].
    pose proof (rk_fit _ _ (rsteps_keep G m0 m1 Hf H1)) as Hf1.
    assert (∀ X (Q : mesh V T → list (N * N * N) → Prop), outcome G m1 X Q → outcome G m0 X Q) as Hback.
    { intros X Q [K|[[K K']|(m2 & x & K1 & K2 & K3)]]; [left; by eapply trouble_back|right; left; split; [done|by eapply gap_back]|].
      right. right. exists m2, x. split; [done|]. split; [by etrans|done]. }
    apply Hback. eapply outcome_mono.
    { apply recover_tris_out; [done|by eapply lists_on|]. intros x y z Hi. assert ((x, y, z) ∈ sorted_3 <$> tris) as Hi' by (by eapply sublist_subseteq).
      destruct (Hos x y z Hi') as (a & b & c & Hi2 & _ & Hp). destruct (Htris a b c Hi2) as (Hn & Ha & Hb & Hc).
      assert (∀ v, v ∈ [x; y; z] → solid m1 v) as Hv.
      { intros v Hv. rewrite Hp in Hv. apply (solid_on G m0 m1); [done|done|]. apply Hsol. rewrite ?elem_of_cons, ?elem_of_nil in Hv. by destruct Hv as [->|[->|[->|[]]]]. }
      split; [apply Hv; set_solver|]. split; [apply Hv; set_solver|]. split; [apply Hv; set_solver|by rewrite Hp]. }
    intros m2 missing H2 (Q1 & Q2 & Q3). pose proof (rsteps_keep G m1 m2 Hf1 H2) as K.
    split; [|split; [|split]].
    - intros a b c Hi. destruct (Hso a b c Hi) as (x & y & z & -> & Hp & Hi').
      assert (∀ m', secured m' x y z → secured m' a b c) as Hsec. { intros m' Hs p q r Hpq. apply Hs. by rewrite Hp. }
      destruct (P1 x y z Hi') as [[_ Hs]|Hm]; [left; apply Hsec; by eapply secured_on|].
      destruct (Q2 x y z Hm) as [[Hs _]|Hm2]; [left; by apply Hsec|by right].
    - intros a b c Hi Hn. destruct (Hso a b c Hi) as (x & y & z & -> & Hp & Hi').
      destruct (P1 x y z Hi') as [Hs|Hm].
      { exfalso. apply Hn.
        destruct Hs as [Hs _]. rewrite Hsame in Hs. by apply (has_tri_perm m x y z). }
      destruct (Q2 x y z Hm) as [(_ & L1 & L2 & L3)|Hm2]; [left|by right].
      intros u v Hu Hv Huv. rewrite <- Hp in Hu. rewrite <- Hp in Hv. rewrite ?elem_of_cons, ?elem_of_nil in Hu. rewrite ?elem_of_cons, ?elem_of_nil in Hv.
      destruct Hu as [->|[->|[->|[]]]], Hv as [->|[->|[->|[]]]]; try done; by apply locked_edge_sym.
    - by etrans.
    - intros x y z Hi. split; [rewrite <- Hsame; apply N1; by eapply sublist_subseteq|].
      destruct (Q3 x y z Hi) as (m3 & K1 & K2). exists m3. split; [done|]. destruct K2 as [(e & He & Hs)|Hs].
      + left. exists e. split; [done|]. by eapply stuck_edge_back.
      + right. by eapply stuck_tri_back.
  Qed.
End rec.
Print Assumptions C45_edge.
Print Assumptions C45_crossing.
Print Assumptions C45_keeps.
Print Assumptions C46_tri.
Print Assumptions C46_present.
Print Assumptions C47_edges.
Print Assumptions C47_boundary.

(** ** Concrete cases: a tet with a vertex beyond one of its triangles. *)
Definition presentb {V T} (m : mesh V T) (g : simplex) : bool :=
  match g with SEdge (a, b) => joinedb m a b | STri (a, b, c) => has_trib m a b c end.
Lemma presentb_spec {V T} (m : mesh V T) g : presentb m g = true ↔ present m g.
Proof. destruct g as [[a b]|[[a b] c]]; [apply joinedb_spec|apply has_trib_spec]. Qed.

(** A geometry with exact orientation and triangle tests that lists those of some given elements that
    are there. *)
Definition some_geo (cands tcands : list simplex) : geometry Z unit := Geometry ori_z (λ _ _ _, false)
  (λ m t e, default false (tri_intersects_edge m t.1.1 t.1.2 t.2 e.1 e.2))
  (λ m t e, default false (tri_intersects_edge m t.1.1 t.1.2 t.2 e.1 e.2))
  (λ m _, Some (filter (λ g, presentb m g = true) cands))
  (λ m _, Some (omap (λ g, match g with SEdge e => if presentb m g then Some e else None | STri _ => None end) tcands)).
Lemma some_geo_lists cands tcands m : (∀ a b, SEdge (a, b) ∈ cands ++ tcands → a ≠ GHOST) → lists_well (some_geo cands tcands) m.
Proof.
  intros Hc m1 _. split.
  - intros a b _ _ _. eexists. split; [done|]. intros g [Hp Hg]%elem_of_list_filter. split; [by apply presentb_spec|].
    destruct g as [[x y]|]; [|done]. apply (Hc x y). apply elem_of_app. by left.
  - intros a b c _ _ _ _ _. eexists. split; [done|]. intros g ([x y] & -> & He)%elem_of_list_fmap. apply elem_of_list_omap in He as (g & Hg & E).
    destruct g as [e|]; [|done]. destruct (presentb m1 (SEdge e)) eqn:Hp; [|done]. injection E as ->. split; [by apply presentb_spec|].
    apply (Hc x y). apply elem_of_app. by right.
Qed.

Definition rec_ops : list (op Z) := [OTrack true; OInsert (walker_from_tet_id 1) (Pt 2 2 2) 14%Z].
Definition rec_geo : geometry Z unit := some_geo [STri (1, 2, 3)%N] [SEdge (0, 4)%N].
Lemma rec_geo_lists m : lists_well rec_geo m.
Proof. apply some_geo_lists. intros a b H. cbn in H. rewrite ?elem_of_cons, ?elem_of_nil in H. destruct H as [?|[[= -> ->]|[]]]; done. Qed.
Definition solidb {V T} (m : mesh V T) (v : N) : bool := negb (N.eqb v GHOST) && attachedb m v.
Lemma solidb_spec {V T} (m : mesh V T) v : solidb m v = true ↔ solid m v.
Proof. unfold solidb, solid. by rewrite andb_true_iff, negb_true_iff, N.eqb_neq, attachedb_spec. Qed.
Definition edge_lockedb {V T} (m : mesh V T) (a b : N) : bool := any (im_iter (m_edges m)) (λ x, bool_decide (ue_vs x.2 = sorted_2 (a, b)) && ue_locked x.2).

(** The edge from the far corner to the new vertex crosses the triangle between them: it is not there
    at first, and is recovered and locked. *)
Example C45_witness : fit (ex rec_ops) ∧ solidb (ex rec_ops) 0 = true ∧ joinedb (ex rec_ops) 0 4 = false ∧
  g_cross rec_geo (ex rec_ops) (0, 4)%N = Some [STri (1, 2, 3)%N] ∧ listed (ex rec_ops) [STri (1, 2, 3)%N] ∧
  match recover_edge rec_geo (ex rec_ops) (0, 4)%N 1 with
  | Some (m', true) => joinedb m' 0 4 && edge_lockedb m' 0 4 && negb (has_trib m' 1 2 3)
  | _ => false end = true.
Proof.
  split; [apply ex_fit; vm_compute; reflexivity|]. split; [vm_compute; reflexivity|]. split; [vm_compute; reflexivity|]. split; [vm_compute; reflexivity|].
  split; [|vm_compute; reflexivity]. intros g ->%elem_of_list_singleton. split; [|done]. apply presentb_spec. vm_compute. reflexivity.
Qed.
(** After that flip, the edge is in the way of the triangle: the triangle is recovered by removing the
    edge, and locked together with its edges. *)
Definition rec_ops2 : list (op Z) := rec_ops ++ [OFlip23 (Walker 0 0)].
Definition tri_lockedb {V T} (m : mesh V T) (t : N * N * N) : bool := any (walkers m) (λ w, eqb (w_tri m w) (Some t) && eqb (w_locked m w) (Some true)).
Example C46_witness : fit (ex rec_ops2) ∧ lists_well rec_geo (ex rec_ops2) ∧ forallb (solidb (ex rec_ops2)) [1; 2; 3]%N = true ∧ NoDup [1; 2; 3]%N ∧
  has_trib (ex rec_ops2) 1 2 3 = false ∧
  match recover_tri rec_geo (ex rec_ops2) (1, 2, 3)%N with
  | Some (m', true) => negb (joinedb m' 0 4) && forallb (tri_lockedb m') [(1, 2, 3); (2, 1, 3); (3, 1, 2)]%N && edge_lockedb m' 1 2 && edge_lockedb m' 2 3 && edge_lockedb m' 3 1
  | _ => false end = true.
Proof.
  split; [apply ex_fit; vm_compute; reflexivity|]. split; [apply rec_geo_lists|]. split; [vm_compute; reflexivity|]. split; [|vm_compute; done].
  apply (bool_decide_unpack _). vm_compute. done.
Qed.
Example C46_present_witness : fit (ex rec_ops) ∧ forallb (solidb (ex rec_ops)) [2; 3; 4]%N = true ∧ has_trib (ex rec_ops) 2 3 4 = true ∧
  ∀ m1 e, e ∈ [(2, 3); (3, 4); (4, 2)]%N → m_tets m1 = m_tets (ex rec_ops) → m_verts m1 = m_verts (ex rec_ops) → g_cross (some_geo [] []) m1 e = Some [].
Proof. split; [apply ex_fit; vm_compute; reflexivity|]. vm_compute. done. Qed.

(** The edges and the outer triangles of a PLC, in a mesh that does not track its triangles yet. *)
Definition rec_ops3 : list (op Z) := [OInsert (walker_from_tet_id 1) (Pt 2 2 2) 14%Z; OFlip23 (Walker 0 0)].
Definition rec_plc : list (N * N * N) := [(3, 2, 1); (1, 0, 2); (4, 3, 2)]%N.
Lemma reachable_ok {V T} (m : mesh V T) : reachable m → mesh_ok m.
Proof.
  intros (sim & ctr & ps & dflt & m0 & os & E & Ha & Er). destruct (history_ok _ _ _ _ os m0 E Ha) as (m1 & Er' & Hok & _). rewrite Er in Er'. by injection Er' as <-.
Qed.
Lemma rec3_fine : mesh_ok (ex rec_ops3) ∧ thick (ex rec_ops3).
Proof.
  assert (reachable (ex rec_ops3)) as Hr by (apply ex_reachable; vm_compute; reflexivity). split; [by apply reachable_ok|by apply reachable_thick].
Qed.
Example C47_witness : mesh_ok (ex rec_ops3) ∧ thick (ex rec_ops3) ∧ forallb (solidb (ex rec_ops3)) [0; 1; 2; 3; 4]%N = true ∧ (∀ m, lists_well rec_geo m) ∧
  match recover_boundary rec_geo (ex rec_ops3) rec_plc with
  | Some (m', []) => forallb (tri_lockedb m') [(3, 2, 1); (2, 3, 1); (1, 0, 2); (4, 3, 2)]%N && negb (has_trib (ex rec_ops3) 3 2 1)
  | _ => false end = true ∧
  match recover_edges rec_geo (@rev _) (ex rec_ops) [(4, 0); (1, 2); (2, 1); (3, 2)]%N with
  | Some (m', []) => forallb (λ e, edge_lockedb m' e.1 e.2) [(4, 0); (1, 2); (3, 2)]%N
  | _ => false end = true ∧
  (** an edge that is locked is in the way, and stays: the triangle is given up *)
  match recover_edge rec_geo (ex rec_ops) (0, 4)%N 1 with
  | Some (m1, true) => match recover_boundary rec_geo m1 rec_plc with Some (m', missing) => bool_decide (missing = [(1, 2, 3)%N]) && joinedb m' 0 4 | None => false end
  | _ => false end = true.
Proof. split; [apply rec3_fine|]. split; [apply rec3_fine|]. split; [vm_compute; reflexivity|]. split; [apply rec_geo_lists|]. vm_compute. done. Qed.

(** Recovering needs a mesh that tracks its triangles, which the functions for single edges and
    triangles and for the edges of a PLC do not see to, and the caller cannot: what works on a mesh
    that tracks them can panic on the same mesh when it does not. *)
Theorem C46_untracked_refuted : ¬ (∀ (G : geometry Z unit) (m m0 : mesh Z unit) t, reachable m → set_track_tri_map m true = Some m0 →
  is_Some (recover_tri G m0 t) → is_Some (recover_tri G m t)).
Proof.
  intros H. assert (reachable (ex rec_ops3)) as Hr by (apply ex_reachable; vm_compute; reflexivity).
  destruct (set_track_tri_map (ex rec_ops3) true) as [m0|] eqn:E0.
  - assert (someb (set_track_tri_map (ex rec_ops3) true ≫= λ m0, recover_tri rec_geo m0 (1, 2, 3)%N) = true) as H1 by (vm_compute; reflexivity).
    assert (someb (recover_tri rec_geo (ex rec_ops3) (1, 2, 3)%N) = false) as H2 by (vm_compute; reflexivity).
    rewrite E0 in H1. cbn [mbind option_bind] in H1. revert Hr E0 H1 H2. generalize (ex rec_ops3). intros m Hr E0 H1%someb_spec H2.
    pose proof (H rec_geo m m0 _ Hr E0 H1) as K. apply someb_spec in K. congruence.
  - assert (someb (set_track_tri_map (ex rec_ops3) true) = true) as H1 by (vm_compute; reflexivity). by rewrite E0 in H1.
Qed.
Print Assumptions C46_untracked_refuted.

(** Recovering the boundary does not lock the edges of a triangle that is already there. *)
Theorem C47_boundary_edges_locked_refuted : ¬ (∀ (G : geometry Z unit) (m m' : mesh Z unit) tris, reachable m → (∀ m0, lists_well G m0) →
  recover_boundary G m tris = Some (m', []) → ∀ a b c, (a, b, c) ∈ tris → locked_edge m' a b).
Proof.
  intros H. assert (reachable (ex rec_ops3)) as Hr by (apply ex_reachable; vm_compute; reflexivity).
  assert (match recover_boundary rec_geo (ex rec_ops3) [(1, 0, 2)%N] with Some (m', []) => forallb (λ x : N * uedge, negb (bool_decide (ue_vs x.2 = (0, 1)%N) && ue_locked x.2)) (map_to_list (im_slots (m_edges m'))) | _ => false end = true) as Hb by (vm_compute; reflexivity).
  revert Hr Hb. generalize (ex rec_ops3). intros m Hr Hb. destruct (recover_boundary rec_geo m [(1, 0, 2)%N]) as [[m' [|]]|] eqn:E; try done.
  destruct (H rec_geo m m' _ Hr rec_geo_lists E 1%N 0%N 2%N ltac:(by left)) as (i & u & I1 & I2 & I3).
  rewrite forallb_forall in Hb. specialize (Hb (i, u)). cbn [snd] in Hb. rewrite I2, I3 in Hb. cbn in Hb. apply diff_true_false. symmetry. apply Hb. apply elem_of_list_In, elem_of_map_to_list. done.
Qed.
Print Assumptions C47_boundary_edges_locked_refuted.
