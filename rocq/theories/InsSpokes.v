(** The new edges of a vertex insertion, src/tet.rs 2298-2335. *)
From stdpp Require Import base numbers list gmap option relations.
From Coq Require Import NArith ZArith ZifyN ZifyNat ZifyBool Lia.
From Verif Require Import IdMapModel IdMapSpec IdMapProofs WalkerModel WalkerSpec WalkerProofs SortProofs UtilSpec UtilProofs
  MeshModel WalkerMore MeshOps MeshSpec MeshViews Surgery MeshLink MeshRun FlipBase FlipRun IterModel IterProofs InsModel InsStep.
Local Open Scope nat_scope.

(** ** The walkers of an edge form one round trip. *)
Section ring.
  Context {T : Type}.
  Implicit Types (F G : N → tet T) (w u : walker) (L : gset N).

  Definition walkers_of L : list walker := elements L ≫= λ k, Walker k <$> seq 0 12.
  Lemma elem_walkers_of L w : w ∈ walkers_of L ↔ vd L w.
  Proof.
    unfold walkers_of, vd. rewrite elem_of_list_bind. split.
    - intros (k & (e & -> & He)%elem_of_list_fmap & Hk%elem_of_elements). apply elem_of_list_In, in_seq in He. cbn. split; [done|lia].
    - intros [H1 H2]. exists (w_tet w). split; [|by apply elem_of_elements]. apply elem_of_list_fmap. exists (w_edge w).
      split; [by destruct w|]. apply elem_of_list_In, in_seq. lia.
  Qed.
  Lemma walkers_of_length L : length (walkers_of L) = 12 * size L.
  Proof.
    unfold walkers_of, size, set_size, compose. induction (elements L) as [|k l IH]; [done|].
    rewrite bind_cons, app_length, IH. rewrite fmap_length, seq_length. cbn [length]. lia.
  Qed.
  Lemma view_ring L F w : vok L F → vd L w → ∃ l, round_trip (λ x, Some (rn F x)) w l ∧ length l ≤ 12 * size L ∧
    ∀ x, x ∈ l ↔ vd L x ∧ pair2 (vv F x) = pair2 (vv F w).
  Proof.
    intros Hok Hw.
    assert (∀ x, vd L x → vd L (rn F x) ∧ pair2 (vv F (rn F x)) = pair2 (vv F x)) as Hrn.
    { intros x Hx. destruct (vo_adj _ _ Hok (to_twin_edge x)) as [H1 (H2 & H3 & _)]; [by apply vd_twin|]. split; [done|].
      unfold rn, pair2. rewrite H2, H3. rewrite vv_twin by apply Hx. done. }
    assert (∀ x y, vd L x → vd L y → rn F x = rn F y → x = y) as Hinj.
    { intros x y Hx Hy E. apply twin_inj; [apply Hx|apply Hy|]. unfold rn in E.
      rewrite <- (av_av L F (to_twin_edge x) Hok), <- (av_av L F (to_twin_edge y) Hok) by by apply vd_twin. by rewrite E. }
    destruct (round_trip_ex (λ x, Some (rn F x)) (walkers_of L)) with (start := w) as (l & H1 & H2 & H3).
    - intros x Hx%elem_walkers_of. exists (rn F x). split; [done|]. apply elem_walkers_of. by apply Hrn.
    - intros x y z Hx%elem_walkers_of Hy%elem_walkers_of [= <-] [= E]. by apply Hinj.
    - by apply elem_walkers_of.
    - exists l. split; [done|]. split; [by rewrite <- walkers_of_length|]. intros x. split.
      + intros Hx. split; [by apply elem_walkers_of, H3|]. apply elem_of_list_lookup in Hx as [i Hi]. pose proof H1 as (H0 & Hn & _).
        revert x Hi. induction i as [|i IH]; intros x Hi; [congruence|].
        destruct (lookup_lt_is_Some_2 l i) as (y & Hy); [apply lookup_lt_Some in Hi; lia|]. rewrite <- (IH y Hy).
        pose proof (Hn _ _ Hy) as E. rewrite Hi in E. cbn in E. injection E as <-. apply Hrn. apply elem_walkers_of, H3, elem_of_list_lookup. eauto.
      + intros [Hx E]. pose proof (vo_ring _ _ Hok w x Hw Hx (eq_sym E)) as Hs. destruct (round_closed _ _ _ H1) as [Hin Hcl].
        apply (rtsc_inv (estep L F) (λ x, x ∈ l) w x); [|done|done]. intros a b [Ha ->]. split; [intros H; by apply (Hcl a)|].
        intros Hb. destruct (round_back _ _ _ _ H1 Hb) as (y & Hy & [= Ey]).
        rewrite <- (Hinj y a); [done| |done|done]. by apply elem_walkers_of, H3.
  Qed.

  (** Two tables that differ in edge ids only. *)
  Definition same_but_edges (t t' : tet T) : Prop :=
    t_vs t' = t_vs t ∧ t_opp t' = t_opp t ∧ t_flags t' = t_flags t ∧ t_val t' = t_val t.
  Lemma se_trans t1 t2 t3 : same_but_edges t1 t2 → same_but_edges t2 t3 → same_but_edges t1 t3.
  Proof. intros (?&?&?&?) (?&?&?&?). repeat split; congruence. Qed.
  Lemma se_vv F F' w : (∀ id, same_but_edges (F id) (F' id)) → vv F' w = vv F w.
  Proof. intros H. unfold vv. destruct (H (w_tet w)) as (-> & _). done. Qed.
  Lemma se_av F F' w : (∀ id, same_but_edges (F id) (F' id)) → av F' w = av F w.
  Proof. intros H. unfold av. destruct (H (w_tet w)) as (_ & -> & _). done. Qed.
  Lemma se_lv F F' w : (∀ id, same_but_edges (F id) (F' id)) → lv F' w = lv F w.
  Proof. intros H. unfold lv. destruct (H (w_tet w)) as (_ & _ & -> & _). done. Qed.
  Lemma se_vok L F F' : (∀ id, same_but_edges (F id) (F' id)) → vok L F → vok L F'.
  Proof.
    intros H [A1 A2 A3 A4 A5 A6].
    assert (∀ a b, estep L F a b → estep L F' a b) as S1. { intros a b [? ->]. split; [done|]. unfold rn. by rewrite (se_av _ _ _ H). }
    assert (∀ a b, vstep L F a b → vstep L F' a b) as S2. { intros a b [? E]. split; [done|]. by rewrite (se_av _ _ _ H). }
    split.
    - intros id Hid. destruct (H id) as (-> & _). by apply A1.
    - intros w Hw. rewrite (se_av _ _ _ H), !(se_vv _ _ _ H). by apply A2.
    - intros w w' Hw Hw'. rewrite !(se_vv _ _ _ H). by apply A3.
    - intros w Hw. rewrite (se_av _ _ _ H), !(se_lv _ _ _ H). by apply A4.
    - intros w w' Hw Hw'. rewrite !(se_vv _ _ _ H). intros E. eapply rtsc_impl; [exact S1|by apply A5].
    - intros w w' Hw Hw'. rewrite !(se_vv _ _ _ H). intros E. eapply rtsc_impl; [exact S2|by apply A6].
  Qed.

  Lemma undir_cases e e' : e < 12 → e' < 12 → undir_idx e = undir_idx e' ↔ e' = e ∨ e' = w_edge (to_twin_edge (Walker 0 e)).
  Proof. intros H H'. case12 e H; case12 e' H'; cbn; split; intros; repeat first [done|lia|by left|by right|destruct_or!]. Qed.
  Lemma get6_set6 {X} (x : arr6 X) i j y : i < 6 → j < 6 → get6 (set6 x i y) j = if decide (i = j) then y else get6 x j.
  Proof. intros Hi Hj. do 6 (destruct i as [|i]; [do 6 (destruct j as [|j]; [done|]); lia|]). lia. Qed.
  Lemma undir_lt e : e < 12 → undir_idx e < 6.
  Proof. intros H. case12 e H; cbn; lia. Qed.
  Lemma uv_set_edge F z e x : w_edge z < 12 → w_edge x < 12 →
    uv (fupd F (w_tet z) (set_edge (undir_idx (w_edge z)) e (F (w_tet z)))) x =
      if decide (x = z ∨ to_twin_edge x = z) then e else uv F x.
  Proof.
    intros Hz Hx. unfold uv, fupd. destruct (decide (w_tet x = w_tet z)) as [E|E].
    - cbn [t_edges set_edge]. rewrite get6_set6 by by apply undir_lt. rewrite E. destruct (decide (undir_idx (w_edge z) = undir_idx (w_edge x))) as [E'|E'].
      + rewrite decide_True; [done|]. apply undir_cases in E' as [E'|E']; [..|done|done].
        * left. destruct x, z; cbn in *; congruence.
        * right. assert (x = to_twin_edge z) as -> by (destruct x as [xt xe], z as [zt ze]; cbn [w_tet w_edge] in E, E'; subst; reflexivity). by apply walker_laws.
      + rewrite decide_False; [done|]. intros [->| <-]; [done|]. apply E'. destruct x as [t a]. cbn [w_edge] in Hx.
        clear -Hx. case12 a Hx; done.
    - rewrite decide_False; [done|]. intros [->| <-]; done.
  Qed.
End ring.

Section spokes.
  Context {V T : Type}.
  Context {tr : bool} {ctr : pt} {nv : N}.
  Implicit Types (m : mesh V T) (F G : N → tet T) (w u x z : walker) (id e a : N)
    (Ed : N → option uedge) (Vt : N → option (vertex V)) (A : list (N * N)).
  Local Notation st := (st tr ctr nv).
  Context (L : gset N) (F4 : N → tet T) (v : N) (Ed4 : N → option uedge) (Vt4 : N → option (vertex V)) (gf4 : vflags).
  Context (Hok : vok L F4) (Hg : Vt4 GHOST = None).
  Context (Hex : ∀ w, vd L w → q0 (vv F4 w) = GHOST ∨ is_Some (Vt4 (q0 (vv F4 w)))).
  Context (Hidle : ∀ (x : N) f, fl Vt4 gf4 x = Some f → vf_edge_added f = false).

  Lemma keys_bound nt ne F Ed Vt gf tm m : st nt ne L F Ed Vt gf tm m → size L ≤ length (im_keys (m_tets m)).
  Proof.
    intros H. etransitivity; [|apply keys_size]. apply subseteq_size. intros id Hid. apply elem_of_list_to_set, elem_of_im_keys.
    - exact (st_wft _ _ _ _ _ _ _ _ _ _ _ _ H).
    - pose proof (mv_in _ _ _ _ (st_mv _ _ _ _ _ _ _ _ _ _ _ _ H) Hid) as E. unfold tet_get in E. change (is_Some (im_get (m_tets m) id)). rewrite E. eauto.
  Qed.

  Lemma write_s e w0 l : round_trip (λ x, Some (rn F4 x)) w0 l → (∀ x, x ∈ l → vd L x) →
    ∀ fuel i z nt ne F Ed Vt gf tm m, st nt ne L F Ed Vt gf tm m → (∀ id, same_but_edges (F4 id) (F id)) →
    l !! i = Some z → length l ≤ i + fuel →
    ∃ m' F', write_ring fuel e m w0 z = Some m' ∧ st nt ne L F' Ed Vt gf tm m' ∧ (∀ id, same_but_edges (F id) (F' id)) ∧
      ∀ x, w_edge x < 12 → uv F' x = if decide (x ∈ drop i l ∨ to_twin_edge x ∈ drop i l) then e else uv F x.
  Proof.
    intros Hr Hl. induction fuel as [|fuel IH]; intros i z nt ne F Ed Vt gf tm m Hst HF Hi Hlen.
    { apply lookup_lt_Some in Hi. lia. }
    assert (vd L z) as Hz by (apply Hl, elem_of_list_lookup; eauto). cbn [write_ring].
    destruct (upd_s _ _ _ _ _ _ _ _ _ _ _ _ (w_tet z) (set_edge (undir_idx (w_edge z)) e) Hst (proj1 Hz)) as (m1 & -> & H1). cbn [mbind option_bind].
    set (F1 := fupd F (w_tet z) _) in *.
    assert (∀ id, same_but_edges (F id) (F1 id)) as HF1.
    { intros id. unfold F1, fupd. destruct (decide _) as [->|]; by repeat split. }
    assert (∀ id, same_but_edges (F4 id) (F1 id)) as HF41 by (intros id; eapply se_trans; eauto).
    assert (∀ x, w_edge x < 12 → uv F1 x = if decide (x = z ∨ to_twin_edge x = z) then e else uv F x) as Hu1.
    { intros x Hx. by apply uv_set_edge; [apply Hz|]. }
    clearbody F1. rewrite (mv_ring_next _ _ _ _ (st_mv _ _ _ _ _ _ _ _ _ _ _ _ H1) Hz). cbn [mbind option_bind].
    assert (rn F1 z = rn F4 z) as -> by (unfold rn; by rewrite (se_av F4)).
    destruct Hr as (R0 & R1 & R2). pose proof (R1 i z Hi) as E. injection E as E. rewrite E.
    rewrite (drop_S l z i Hi). destruct (l !! S i) as [z'|] eqn:Ei; cbn [default from_option id].
    - rewrite bool_decide_eq_false_2 by (intros ->; apply R2 in Ei; lia).
      destruct (IH (S i) z' nt ne F1 Ed Vt gf tm m1) as (m2 & F2 & E2 & H2 & HF2 & Hu2); [done..|lia|].
      exists m2, F2. split; [done|]. split; [done|]. split; [intros id; eapply se_trans; eauto|]. intros x Hx. rewrite Hu2, Hu1 by done.
      destruct (decide (x ∈ drop (S i) l ∨ to_twin_edge x ∈ drop (S i) l)) as [H|H].
      + rewrite decide_True; [done|]. rewrite !elem_of_cons. tauto.
      + destruct (decide (x = z ∨ to_twin_edge x = z)) as [H'|H']; [rewrite decide_True|rewrite decide_False]; try done; rewrite !elem_of_cons; tauto.
    - rewrite bool_decide_eq_true_2 by done. exists m1, F1. split; [done|]. split; [done|]. split; [done|]. intros x Hx.
      rewrite Hu1 by done. assert (drop (S i) l = []) as ->. { apply drop_ge. by apply lookup_ge_None_1. }
      destruct (decide (x = z ∨ to_twin_edge x = z)) as [H'|H']; [rewrite decide_True|rewrite decide_False]; try done; rewrite !elem_of_list_singleton; tauto.
  Qed.

  (** The edge-added flags of the vertices in [l] set to [b]. *)
  Definition addV (b : bool) Vt (l : list N) (x : N) : option (vertex V) := if decide (x ∈ l) then vfset b <$> Vt x else Vt x.
  Definition addG (b : bool) (gf : vflags) (l : list N) : vflags := if decide (GHOST ∈ l) then VFlags (vf_targets gf) b else gf.

  (** After adding the edges in [A] (source and edge id). *)
  Record spoked (A : list (N * N)) F Ed : Prop := Spoked {
    sp_F id : same_but_edges (F4 id) (F id);
    sp_new w a e : vd L w → q0 (vv F4 w) = a → q1 (vv F4 w) = v → (a, e) ∈ A → uv F w = e ∧ uv F (to_twin_edge w) = e;
    sp_old w : vd L w → q0 (vv F4 w) ≠ v → q1 (vv F4 w) ≠ v → uv F w = uv F4 w;
    sp_nodup : NoDup A.*1;
    sp_fresh a e : (a, e) ∈ A → Ed4 e = None ∧ Ed e = Some (uedge_new (a, v));
    sp_inj a a' e : (a, e) ∈ A → (a', e) ∈ A → a = a';
    sp_E e : e ∉ A.*2 → Ed e = Ed4 e;
    sp_A a : a ∈ A.*1 → ∃ w, vd L w ∧ q0 (vv F4 w) = a ∧ q1 (vv F4 w) = v }.

  Lemma fl_add b (l : list N) (x : N) : fl (addV b Vt4 l) (addG b gf4 l) x = if decide (x ∈ l) then (λ f, VFlags (vf_targets f) b) <$> fl Vt4 gf4 x else fl Vt4 gf4 x.
  Proof.
    unfold fl, addV, addG. destruct (decide (x = GHOST)) as [->|].
    - by destruct (decide (GHOST ∈ l)).
    - destruct (decide (x ∈ l)); [|done]. by destruct (Vt4 x).
  Qed.
  Lemma add_snocV b Vt l a (x : N) : vupd (addV b Vt l) a (vfset b) x = addV b Vt (l ++ [a]) x.
  Proof.
    unfold vupd, addV. destruct (decide (x = a)) as [->|Hx].
    - rewrite (decide_True (P := a ∈ l ++ [a])) by (apply elem_of_app; right; by left). destruct (decide (a ∈ l)); [|done]. by destruct (Vt a).
    - destruct (decide (x ∈ l)) as [H|H].
      + by rewrite decide_True by (apply elem_of_app; tauto).
      + by rewrite decide_False by (rewrite elem_of_app, elem_of_list_singleton; tauto).
  Qed.
  Lemma add_snocG b gf l a : gfset a b (addG b gf l) = addG b gf (l ++ [a]).
  Proof.
    unfold gfset, addG. destruct (decide (a = GHOST)) as [->|Hx].
    - rewrite (decide_True (P := GHOST ∈ l ++ [GHOST])) by (apply elem_of_app; right; by left). by destruct (decide (GHOST ∈ l)).
    - destruct (decide (GHOST ∈ l)) as [H|H].
      + by rewrite decide_True by (apply elem_of_app; tauto).
      + rewrite decide_False; [done|]. rewrite elem_of_app, elem_of_list_singleton. intros [?|?]; congruence.
  Qed.

  Lemma spoke_s nt ne A F Ed tm m w : st nt ne L F Ed (addV true Vt4 A.*1) (addG true gf4 A.*1) tm m → spoked A F Ed → (ne < u32_mod)%N →
    vd L w → q1 (vv F4 w) = v →
    ∃ m' A' F' Ed', add_spoke v m w = Some m' ∧ st nt (ne + 1) L F' Ed' (addV true Vt4 A'.*1) (addG true gf4 A'.*1) tm m' ∧ spoked A' F' Ed' ∧
      (∀ a, a ∈ A'.*1 ↔ a ∈ A.*1 ∨ a = q0 (vv F4 w)).
  Proof.
    intros Hst [S1 S2 S3 S4 S5 S6 S7 S8] Hne Hw Hv. unfold add_spoke. set (a := q0 (vv F4 w)).
    rewrite (mv_first _ _ _ _ (st_mv _ _ _ _ _ _ _ _ _ _ _ _ Hst) (proj1 Hw)), (se_vv F4 F w S1). fold a. cbn [mbind option_bind].
    rewrite (flags_s _ _ _ _ _ _ _ _ _ _ _ _ _ Hst), fl_add.
    assert (∃ f, fl Vt4 gf4 a = Some f) as [f Ef].
    { unfold fl. destruct (decide (a = GHOST)); [eauto|]. destruct (Hex w Hw) as [?|[vt E]]; [done|]. fold a in E. rewrite E. cbn. eauto. }
    rewrite Ef. destruct (decide (a ∈ A.*1)) as [Ha|Ha]; cbn [mbind option_bind fmap option_fmap option_map vf_edge_added].
    - exists m, A, F, Ed. split; [done|]. split; [eapply st_le; [..|exact Hst]; lia|]. split; [by split|]. intros b. split; [tauto|]. intros [?| ->]; done.
    - rewrite (Hidle _ _ Ef).
      destruct (added_s _ _ _ _ _ _ _ _ _ _ _ _ a true Hst) as (m1 & -> & H1).
      { unfold addV. rewrite Hg. by destruct (decide _). }
      { destruct (Hex w Hw) as [?|[vt E]]; [by left|]. right. unfold addV. fold a in E. rewrite E. destruct (decide _); eauto. }
      cbn [mbind option_bind]. destruct (einsert_s _ _ _ _ _ _ _ _ _ _ _ _ (a, v) H1 Hne) as (m2 & e & -> & Efresh & H2).
      destruct (view_ring L F4 w Hok Hw) as (l & Hr & Hlen & Hl).
      destruct (write_s e w l Hr) with (fuel := 12 * length (im_keys (m_tets m2)) + 1) (i := 0) (z := w) (F := F) (m := m2)
        (nt := nt) (ne := (ne + 1)%N) (Ed := eupd Ed e (uedge_new (a, v))) (Vt := vupd (addV true Vt4 A.*1) a (vfset true))
        (gf := gfset a true (addG true gf4 A.*1)) (tm := tm) as (m3 & F3 & E3 & H3 & HF3 & Hu3).
      { intros x Hx. by apply Hl. } { done. } { done. } { apply Hr. }
      { pose proof (keys_bound _ _ _ _ _ _ _ _ H2). lia. }
      rewrite drop_0 in Hu3. exists m3, (A ++ [(a, e)]), F3, (eupd Ed e (uedge_new (a, v))). split; [done|].
      assert (A.*1 ++ [a] = (A ++ [(a, e)]).*1) as EA by by rewrite fmap_app. split; [|split].
      + rewrite <- EA, <- add_snocG. eapply st_ext; [done|done|done| |exact H3]. intros x. apply add_snocV.
      + assert (∀ z, vd L z → q0 (vv F4 z) ≠ q1 (vv F4 z)) as Hne01.
        { intros z Hz E. pose proof (vv_nodup F4 z (proj2 Hz) (vo_nodup _ _ Hok _ (proj1 Hz))) as Hnd. unfold list4 in Hnd. rewrite E in Hnd. apply NoDup_cons in Hnd as [Hnd _]. apply Hnd. by left. }
        assert (∀ z, vd L z → to_twin_edge (to_twin_edge z) = z) as Htt by (intros z Hz; apply walker_laws, Hz).
        assert (∀ z, z ∈ l ↔ vd L z ∧ q0 (vv F4 z) = a ∧ q1 (vv F4 z) = v) as Hl'.
        { intros z. rewrite Hl. unfold pair2. fold a. rewrite Hv. split; [intros [? [= ? ?]]; done|intros (? & -> & ->); done]. }
        assert (∀ z, vd L z → to_twin_edge z ∈ l ↔ q1 (vv F4 z) = a ∧ q0 (vv F4 z) = v) as Hl2.
        { intros z Hz. rewrite Hl'. assert (q0 (vv F4 (to_twin_edge z)) = q1 (vv F4 z) ∧ q1 (vv F4 (to_twin_edge z)) = q0 (vv F4 z)) as [-> ->] by (rewrite vv_twin by apply Hz; done). pose proof (vd_twin _ _ Hz). tauto. }
        assert (a ≠ v) as Hav by (rewrite <- Hv; by apply Hne01).
        assert (e ∉ A.*2) as HeA.
        { intros H. apply elem_of_list_fmap in H as ([a' e'] & -> & H). destruct (S5 _ _ H) as [_ H']. cbn in Efresh. congruence. }
        split.
        * intros id. eapply se_trans; eauto.
        * intros z a' e' Hz Ea' Ev' Hin. pose proof (Hne01 z Hz) as Hnz. apply elem_of_app in Hin as [Hin|Hin%elem_of_list_singleton].
          -- assert (a' ≠ a) as Haa. { intros ->. apply Ha. apply elem_of_list_fmap. exists (a, e'). done. }
             destruct (S2 z a' e' Hz Ea' Ev' Hin) as [U1 U2].
             rewrite !Hu3; [|apply vd_twin in Hz; apply Hz|apply Hz].
             rewrite !decide_False; [done|..]; rewrite ?Htt, ?Hl2, ?Hl' by done; intros [H|H]; intuition congruence.
          -- injection Hin as -> ->. assert (z ∈ l) as Hzl by (apply Hl'; done).
             rewrite !Hu3; [|apply vd_twin in Hz; apply Hz|apply Hz]. rewrite !decide_True; [done|right; by rewrite Htt|by left].
        * intros z Hz H0 H1'. rewrite Hu3 by apply Hz. rewrite decide_False; [by apply S3|]. rewrite Hl', Hl2 by done. tauto.
        * rewrite <- EA. apply NoDup_app. split; [done|]. split; [|apply NoDup_singleton]. intros b Hb ->%elem_of_list_singleton. done.
        * intros a' e' [Hin|Hin%elem_of_list_singleton]%elem_of_app.
          -- destruct (S5 _ _ Hin) as [Q1 Q2]. split; [done|]. unfold eupd. rewrite decide_False; [done|]. intros ->. congruence.
          -- injection Hin as -> ->. split; [by rewrite <- S7|]. unfold eupd. by rewrite decide_True.
        * intros b b' e' Hb Hb'. rewrite elem_of_app, elem_of_list_singleton in Hb, Hb'.
          assert (∀ c, (c, e) ∈ A → False) as Hno. { intros c Hc. apply HeA. apply elem_of_list_fmap. by exists (c, e). }
          destruct Hb as [Hb|Hb], Hb' as [Hb'|Hb']; [by eapply S6|..|congruence]; exfalso.
          -- apply (Hno b). congruence.
          -- apply (Hno b'). congruence.
        * intros e' He'. rewrite fmap_app in He'. apply not_elem_of_app in He' as [He1 He2]. unfold eupd. rewrite decide_False; [by apply S7|].
          intros ->. apply He2. by left.
        * intros b. rewrite <- EA, elem_of_app, elem_of_list_singleton. intros [?| ->]; [by apply S8|]. exists w. done.
      + intros b. rewrite <- EA, elem_of_app, elem_of_list_singleton. tauto.
  Qed.

  Lemma spokes_s nt tm l : ∀ ne A F Ed m, st nt ne L F Ed (addV true Vt4 A.*1) (addG true gf4 A.*1) tm m → spoked A F Ed →
    (ne + N.of_nat (length l) ≤ u32_mod)%N → (∀ w, w ∈ l → vd L w ∧ q1 (vv F4 w) = v) →
    ∃ m' A' F' Ed', mfoldl (add_spoke v) l m = Some m' ∧
      st nt (ne + N.of_nat (length l)) L F' Ed' (addV true Vt4 A'.*1) (addG true gf4 A'.*1) tm m' ∧ spoked A' F' Ed' ∧
      (∀ a, a ∈ A'.*1 ↔ a ∈ A.*1 ∨ ∃ w, w ∈ l ∧ a = q0 (vv F4 w)).
  Proof.
    induction l as [|w l IH]; intros ne A F Ed m Hst Hs Hn Hl; cbn [mfoldl].
    - exists m, A, F, Ed. split; [done|]. split; [eapply st_le; [..|exact Hst]; cbn; lia|]. split; [done|]. intros a. split; [tauto|].
      intros [?|(w & Hw & _)]; [done|]. by apply elem_of_nil in Hw.
    - cbn [length] in *. destruct (Hl w) as [Hw Hv]; [by left|].
      destruct (spoke_s nt ne A F Ed tm m w Hst Hs) as (m1 & A1 & F1 & Ed1 & -> & H1 & H2 & H3); [lia|done|done|]. cbn [mbind option_bind].
      destruct (IH _ A1 F1 Ed1 m1 H1 H2) as (m2 & A2 & F2 & Ed2 & E2 & H4 & H5 & H6); [lia|intros x Hx; apply Hl; by right|].
      exists m2, A2, F2, Ed2. split; [done|]. split; [eapply st_le; [..|exact H4]; lia|]. split; [done|]. intros a. rewrite H6, H3. split.
      + intros [[?| ->]|(x & Hx & ->)]; [by left|right; exists w; split; [by left|done]|right; exists x; split; [by right|done]].
      + intros [?|(x & Hx & ->)]; [tauto|]. apply elem_of_cons in Hx as [->|Hx]; [tauto|]. right. eauto.
  Qed.

  (** Clearing the flags again. *)
  Lemma clear_s nt ne F Ed tm l : ∀ P Vt gf m, st nt ne L F Ed (addV false Vt P) (addG false gf P) tm m → (∀ id, same_but_edges (F4 id) (F id)) →
    Vt GHOST = None → (∀ x : N, is_Some (Vt x) ↔ is_Some (Vt4 x)) → (∀ w, w ∈ l → vd L w) →
    ∃ m', mfoldl (λ m u, x ← w_first m u; set_added false m x) l m = Some m' ∧
      st nt ne L F Ed (addV false Vt (P ++ ((λ w, q0 (vv F4 w)) <$> l))) (addG false gf (P ++ ((λ w, q0 (vv F4 w)) <$> l))) tm m'.
  Proof.
    induction l as [|w l IH]; intros P Vt gf m Hst HF HVg HV Hl; cbn [mfoldl].
    - exists m. cbn. by rewrite app_nil_r.
    - assert (vd L w) as Hw by (apply Hl; by left).
      rewrite (mv_first _ _ _ _ (st_mv _ _ _ _ _ _ _ _ _ _ _ _ Hst) (proj1 Hw)), (se_vv F4 F w HF). cbn [mbind option_bind].
      destruct (added_s _ _ _ _ _ _ _ _ _ _ _ _ (q0 (vv F4 w)) false Hst) as (m1 & -> & H1).
      { unfold addV. rewrite HVg. by destruct (decide _). }
      { destruct (Hex w Hw) as [?|H]; [by left|]. right. apply HV in H as [vt E]. unfold addV. rewrite E. destruct (decide _); eauto. }
      cbn [mbind option_bind]. destruct (IH (P ++ [q0 (vv F4 w)]) Vt gf m1) as (m2 & E2 & H2); [|done..|intros x Hx; apply Hl; by right|].
      + rewrite add_snocG in H1. eapply st_ext; [done|done|done| |exact H1]. intros x. apply add_snocV.
      + exists m2. split; [done|]. rewrite <- app_assoc in H2. exact H2.
  Qed.
  Lemma addG_restore l l' : (∀ x : N, x ∈ l → x ∈ l') → addG false (addG true gf4 l) l' = gf4.
  Proof.
    intros Hl. assert (vf_edge_added gf4 = false) as E. { apply (Hidle GHOST). done. }
    assert (gf4 = VFlags (vf_targets gf4) false) as E2 by (destruct gf4; cbn in *; congruence).
    unfold addG. destruct (decide (GHOST ∈ l)) as [H|H]; destruct (decide (GHOST ∈ l')) as [H'|H']; try done.
    by apply Hl in H.
  Qed.
  Lemma addV_restore l l' (x : N) : (∀ x : N, x ∈ l → x ∈ l') → addV false (addV true Vt4 l) l' x = Vt4 x.
  Proof.
    intros Hl. unfold addV. destruct (Vt4 x) as [vt|] eqn:E.
    - assert (vfset false vt = vt) as E2.
      { assert (vf_edge_added (v_flags vt) = false) as Ef.
        { apply (Hidle x). unfold fl. rewrite decide_False by congruence. by rewrite E. }
        destruct vt as [? f ? ?], f; cbn in *. unfold vfset. cbn. by rewrite Ef. }
      destruct (decide (x ∈ l)) as [H|H]; destruct (decide (x ∈ l')) as [H'|H']; cbn; try done.
      + rewrite <- E2 at 2. done.
      + by apply Hl in H.
      + by rewrite E2.
    - destruct (decide (x ∈ l)); destruct (decide (x ∈ l')); done.
  Qed.
End spokes.
