(** Adding vertices, locking, and turning the triangle map on or off keep a mesh consistent. *)
From stdpp Require Import base numbers list gmap option relations fin_sets.
From Coq Require Import NArith ZArith ZifyN ZifyNat ZifyBool Lia.
From Verif Require Import IdMapModel IdMapSpec IdMapProofs IdMapMore WalkerModel WalkerSpec WalkerProofs SortProofs
  MeshModel WalkerMore MeshOps MeshSpec MeshViews Surgery MeshLink MeshRun FlipBase FlipRun FlipSpec FlipCommon.
Local Open Scope nat_scope.

Section ops.
  Context {V T : Type}.
  Implicit Types (m : mesh V T) (F G : N → tet T) (w u : walker) (L O K : gset N) (id : N).

  (** ** Adding a vertex. *)
  Lemma add_vertex_step m p v : mesh_ok m → (im_npi (m_verts m) < GHOST)%N →
    ∃ m' id, add_vertex m p v = (m', id) ∧ mesh_ok m' ∧
      im_get (m_verts m) id = None ∧ ¬ attached m' id ∧ id ≠ GHOST ∧
      im_get (m_verts m') id = Some (Vertex (Walker invalid_id 0) vf_empty p v) ∧
      (∀ x, x ≠ id → im_get (m_verts m') x = im_get (m_verts m) x) ∧
      m_ghost_flags m' = m_ghost_flags m ∧ m_edges m' = m_edges m ∧ m_tets m' = m_tets m ∧
      m_trimap m' = m_trimap m ∧ m_track m' = m_track m ∧ m_center m' = m_center m.
  Proof.
    intros Hok Hn. unfold add_vertex.
    set (vt := Vertex (Walker invalid_id 0) vf_empty p v).
    assert (im_npi (m_verts m) < u32_mod)%N as Hn' by (unfold GHOST, invalid_id in Hn; unfold u32_mod; lia).
    pose proof (wf_insert (m_verts m) vt (ok_ids_verts _ Hok) Hn') as Hw.
    destruct (im_insert (m_verts m) vt) as [vs id]. destruct Hw as (Hwf & (Hf1 & Hf2 & Hf3) & Ea).
    injection Ea as E1 E2. cbn in Hf1.
    assert (id ≠ GHOST) as Hid.
    { intros ->. cbn in Hf2, Hf3.
      assert (¬ ¬ (has_hole (im_abs_of (m_verts m)) ∨ ¬ has_hole (im_abs_of (m_verts m)))) as Hd by tauto.
      apply Hd. intros [H|H]; [apply Hf2 in H|apply Hf3 in H]; clear -H Hn; unfold GHOST in *; lia. }
    assert (∀ x, x ≠ id → im_get vs x = im_get (m_verts m) x) as Hne.
    { intros x Hx. unfold im_get. rewrite E1. cbn. by rewrite lookup_insert_ne. }
    assert (im_get vs id = Some vt) as Heq.
    { unfold im_get. rewrite E1. cbn. by rewrite lookup_insert. }
    assert (im_get (m_verts m) id = None) as Hnone by exact Hf1.
    assert (¬ attached m id) as Hna.
    { intros (w & Hw & Hfst). destruct (ok_exist _ Hok w id Hw Hfst) as [->|[? H]]; [done|congruence]. }
    eexists _, id. split; [reflexivity|].
    split; [|split; [exact Hnone|]; split; [exact Hna|]; split; [exact Hid|]; split; [exact Heq|];
             split; [exact Hne|]; by repeat split].
    destruct Hok. split; try assumption.
    - cbn [m_verts with_verts]. by rewrite Hne.
    - intros w a Hw Ha. destruct (ok_exist w a Hw Ha) as [H|H]; [by left|right].
      cbn [m_verts with_verts]. destruct (decide (a = id)) as [->|Hx]; [by rewrite Heq|by rewrite Hne].
    - intros x vt' Hx Hatt. cbn [m_verts with_verts] in Hx. destruct (decide (x = id)) as [->|Hxd]; [by destruct Hna|].
      rewrite Hne in Hx by done. exact (ok_vref x vt' Hx Hatt).
  Qed.

  (** ** Locking an edge. *)
  Lemma set_edge_lock_step m w b : mesh_ok m → valid m w →
    ∃ m' e ue, set_edge_lock m w b = Some m' ∧ mesh_ok m' ∧ undir_edge m w = Some e ∧
      im_get (m_edges m) e = Some ue ∧
      im_get (m_edges m') e = Some (UEdge (ue_vs ue) (ue_boundary ue) b (ue_bw ue)) ∧
      (∀ x, x ≠ e → im_get (m_edges m') x = im_get (m_edges m) x) ∧
      im_npi (m_edges m') = im_npi (m_edges m) ∧
      m_verts m' = m_verts m ∧ m_ghost_flags m' = m_ghost_flags m ∧ m_tets m' = m_tets m ∧
      m_trimap m' = m_trimap m ∧ m_track m' = m_track m ∧ m_center m' = m_center m.
  Proof.
    intros Hok Hw. destruct Hw as [[t Ht] He]. assert (valid m w) as Hw by (split; [eauto|done]).
    assert (∃ a c, w_pair m w = Some (a, c)) as (a & c & Hp).
    { unfold w_pair, w_first, w_second. rewrite Ht. cbn. eauto. }
    destruct (ok_edge _ Hok w a c Hw Hp) as (e & ue & E1 & E2 & E3).
    unfold set_edge_lock. rewrite E1. cbn [mbind option_bind]. rewrite E2. cbn [mbind option_bind].
    set (ue' := UEdge (ue_vs ue) (ue_boundary ue) b (ue_bw ue)).
    destruct (wf_set (m_edges m) e ue' (ok_ids_edges _ Hok)) as (es & Es & Hwf & Ea); [by eexists|].
    rewrite Es. cbn [mbind option_bind]. injection Ea as Ea1 Ea2.
    assert (∀ x, x ≠ e → im_get es x = im_get (m_edges m) x) as Hne.
    { intros x Hx. unfold im_get. rewrite Ea1. by rewrite lookup_insert_ne. }
    assert (im_get es e = Some ue') as Heq.
    { unfold im_get. rewrite Ea1. by rewrite lookup_insert. }
    assert (∀ x y, im_get es x = Some y → ∃ y', im_get (m_edges m) x = Some y' ∧ ue_vs y = ue_vs y') as Hvs.
    { intros x y Hx. destruct (decide (x = e)) as [->|Hxd].
      - rewrite Heq in Hx. injection Hx as <-. exists ue. done.
      - rewrite Hne in Hx by done. exists y. done. }
    eexists _, e, ue. split; [reflexivity|].
    split; [|split; [reflexivity|]; split; [exact E2|]; split; [exact Heq|]; split; [exact Hne|]; split; [exact Ea2|]; by repeat split].
    destruct Hok. split; try assumption.
    - intros u x y Hu Hxy. destruct (ok_edge u x y Hu Hxy) as (e1 & ue1 & A1 & A2 & A3).
      destruct (decide (e1 = e)) as [->|Hx].
      + exists e, ue'. split; [exact A1|]. split; [exact Heq|]. unfold ue'. cbn [ue_vs]. congruence.
      + exists e1, ue1. split; [exact A1|]. split; [|done]. cbn [m_edges with_edges]. by rewrite Hne.
    - cbn [m_edges with_edges]. intros x x' y y' Hx Hx' Hy. destruct (Hvs _ _ Hx) as (z & Z1 & Z2), (Hvs _ _ Hx') as (z' & Z1' & Z2').
      apply (ok_edge_unique x x' z z' Z1 Z1'). congruence.
    - cbn [m_edges with_edges]. intros x y Hx. destruct (Hvs _ _ Hx) as (z & Z1 & Z2). rewrite Z2. exact (ok_edge_used x z Z1).
    - cbn [m_edges with_edges]. intros x y Hx. destruct (Hvs _ _ Hx) as (z & Z1 & Z2). rewrite Z2. exact (ok_edge_sorted x z Z1).
  Qed.

  (** ** Locking a triangle. *)
  (** Same vertices, links and edges. *)
  Definition same_shape F G : Prop :=
    ∀ id, t_vs (G id) = t_vs (F id) ∧ t_opp (G id) = t_opp (F id) ∧ t_edges (G id) = t_edges (F id).
  Lemma ss_vv F G w : same_shape F G → vv G w = vv F w.
  Proof. intros H. unfold vv. by destruct (H (w_tet w)) as (->&_&_). Qed.
  Lemma ss_av F G w : same_shape F G → av G w = av F w.
  Proof. intros H. unfold av. by destruct (H (w_tet w)) as (_&->&_). Qed.
  Lemma ss_uv F G w : same_shape F G → uv G w = uv F w.
  Proof. intros H. unfold uv. by destruct (H (w_tet w)) as (_&_&->). Qed.
  Lemma ss_vmesh m m' L F G : same_shape F G → vmesh m L F → tst m' L G → same_rest m m' →
    (∀ w, vd L w → lv G (av F w) = lv G w) → vmesh m' L G.
  Proof.
    intros HS [Hmv Hwv Hwe Hwt Hg Hok Hex Heo Hvr Htm] [Hmv' Hwt'] [R1 R2 R3 R4 R5 R6 R7] Hl.
    pose proof (λ w, ss_vv F G w HS) as Ev. pose proof (λ w, ss_av F G w HS) as Ea. pose proof (λ w, ss_uv F G w HS) as Eu.
    split; rewrite ?R1, ?R3; try done.
    - destruct Hok as [K1 K2 K3 K4 K5 K6]. split.
      + intros id Hid. destruct (HS id) as (->&_&_). by apply K1.
      + intros w Hw. rewrite Ea, !Ev. by apply K2.
      + intros w w' Hw Hw'. rewrite !Ev. by apply K3.
      + intros w Hw. rewrite Ea. by apply Hl.
      + intros w w' Hw Hw'. rewrite !Ev. intros E. eapply rtsc_impl; [|by apply K5].
        intros x y [H1 H2]. split; [done|]. rewrite H2. unfold rn. by rewrite Ea.
      + intros w w' Hw Hw'. rewrite !Ev. intros E. eapply rtsc_impl; [|by apply K6].
        intros x y [H1 H2]. split; [done|]. by rewrite Ea.
    - intros w Hw. rewrite Ev. by apply Hex.
    - destruct Heo as [K1 K2 K3 K4]. unfold m_epair in *. rewrite R3. split.
      + intros w Hw. rewrite Eu, Ev. by apply K1.
      + done.
      + intros e x y H. destruct (K3 e x y H) as (w & H1 & H2). exists w. by rewrite Ev.
      + done.
    - unfold m_vref in *. rewrite R1. intros v w H (w' & H1 & H2). rewrite Ev in H2 |- *. apply Hvr; eauto.
    - rewrite R4, R5. intros Ht k w. rewrite Ev. by apply Htm.
  Qed.

  Lemma lv_fupd F i f w : lv (fupd F i (f (F i))) w =
    if decide (w_tet w = i) then get4 (f_locked (t_flags (f (F i)))) (w_edge w mod 4) else lv F w.
  Proof. unfold lv, fupd. by destruct (decide (w_tet w = i)). Qed.

  (** The lock bits after [set_tri_lock] on [w]. *)
  Lemma lv_locked F u b w :
    lv (fupd F (w_tet u) (set_locked (w_edge u mod 4) b (F (w_tet u)))) w =
    if decide (sf u w) then b else lv F w.
  Proof.
    rewrite (lv_fupd F (w_tet u) (set_locked (w_edge u mod 4) b)). unfold sf, lv.
    destruct (decide (w_tet w = w_tet u)) as [E|E].
    - cbn [set_locked set_flags t_flags f_locked]. rewrite get4_set4 by (by apply Nat.mod_upper_bound).
      rewrite E. destruct (decide (w_edge u mod 4 = w_edge w mod 4)) as [E'|E'];
        [rewrite decide_True by done|rewrite decide_False by tauto]; done.
    - rewrite decide_False; [done|]. intros [? ?]. done.
  Qed.
  Lemma ss_set_locked F i j b : same_shape F (fupd F i (set_locked j b (F i))).
  Proof. intros id. unfold fupd. by destruct (decide (id = i)) as [->|]. Qed.
  Lemma ss_trans F G H : same_shape F G → same_shape G H → same_shape F H.
  Proof. intros A B id. destruct (A id) as (?&?&?), (B id) as (?&?&?). repeat split; congruence. Qed.

  Lemma sf_av L F w u : vok L F → vd L w → vd L u → sf w u → sf (av F w) (av F u).
  Proof.
    intros Hok Hw Hu Hs. pose proof (vok_oppok _ _ _ Hok (proj1 Hw)) as Ho.
    pose proof (av_ok F w Ho) as Ha.
    destruct (sf_rot w u (proj2 Hw) (proj2 Hu) Hs) as [-> | [-> | ->]]; [done| |].
    - rewrite av_nfe by (done || apply Hw). split; [done|]. cbn [to_pfe w_edge]. by rewrite pfe_mod4.
    - rewrite av_pfe by (done || apply Hw). split; [done|]. cbn [to_nfe w_edge]. by rewrite nfe_mod4.
  Qed.

  Lemma tri_same_face L F w u : vok L F → vd L w → vd L u →
    same_corners (tri3 (vv F u)) (tri3 (vv F w)) ↔ sf w u ∨ sf (av F w) u.
  Proof.
    intros Hok Hw Hu. pose proof (vok_oppok _ _ _ Hok (proj1 Hw)) as Ho.
    destruct (vo_adj _ _ Hok w Hw) as [Ha (T1 & T2 & T3)].
    destruct (vv_distinct _ _ _ Hok Hu) as (N1 & N2 & _ & N3 & _).
    assert (∀ x y, vd L x → vd L y → sf x y → tri3 (vv F y) = tri3 (vv F x) ∨
      tri3 (vv F y) = (q1 (vv F x), q2 (vv F x), q0 (vv F x)) ∨
      tri3 (vv F y) = (q2 (vv F x), q0 (vv F x), q1 (vv F x))) as Hsf.
    { intros x y Hx Hy Hs. destruct (sf_rot x y (proj2 Hx) (proj2 Hy) Hs) as [-> | [-> | ->]].
      - by left.
      - right. left. by rewrite vv_nfe by apply Hx.
      - right. right. by rewrite vv_pfe by apply Hx. }
    assert (∀ x y, vd L x → vd L y → (tri3 (vv F y) = tri3 (vv F x) ∨
      tri3 (vv F y) = (q1 (vv F x), q2 (vv F x), q0 (vv F x)) ∨
      tri3 (vv F y) = (q2 (vv F x), q0 (vv F x), q1 (vv F x))) → sf x y) as Hsf'.
    { intros x y Hx Hy [H|[H|H]].
      - rewrite (vo_uniq _ _ Hok y x Hy Hx H). done.
      - rewrite (vo_uniq _ _ Hok y (to_nfe x) Hy (vd_nfe _ _ Hx)).
        + split; [done|]. cbn [to_nfe w_edge]. by rewrite nfe_mod4 by apply Hx.
        + rewrite vv_nfe by apply Hx. exact H.
      - rewrite (vo_uniq _ _ Hok y (to_pfe x) Hy (vd_pfe _ _ Hx)).
        + split; [done|]. cbn [to_pfe w_edge]. by rewrite pfe_mod4 by apply Hx.
        + rewrite vv_pfe by apply Hx. exact H. }
    split.
    - intros Hc. unfold tri3 in Hc. apply corners_perm in Hc; [|done..].
      destruct Hc as [H|[H|[H|[H|[H|H]]]]].
      + left. apply Hsf'; [done..|]. left. exact H.
      + left. apply Hsf'; [done..|]. right. left. exact H.
      + left. apply Hsf'; [done..|]. right. right. exact H.
      + right. apply Hsf'; [done..|]. rewrite T1, T2, T3. left. unfold tri3. rewrite T1, T2, T3. exact H.
      + right. apply Hsf'; [done..|]. rewrite T1, T2, T3. right. left. exact H.
      + right. apply Hsf'; [done..|]. rewrite T1, T2, T3. right. right. exact H.
    - intros [H|H].
      + destruct (Hsf w u Hw Hu H) as [-> | [-> | ->]]; unfold same_corners, tri3; cbn [fst snd];
          intros x; rewrite !elem_of_cons, elem_of_nil; clear; tauto.
      + apply (Hsf _ u Ha Hu) in H. rewrite T1, T2, T3 in H. unfold tri3 in H at 2. rewrite T1, T2, T3 in H.
        destruct H as [-> | [-> | ->]]; unfold same_corners, tri3; cbn [fst snd];
          intros x; rewrite !elem_of_cons, elem_of_nil; clear; tauto.
  Qed.

  Definition no_flags (t : tet T) : arr4 N * arr4 walker * arr6 N * T := (t_vs t, t_opp t, t_edges t, t_val t).

  Lemma set_tri_lock_step m w b t : mesh_ok m → valid m w → w_tri m w = Some t →
    ∃ m', set_tri_lock m w b = Some m' ∧ mesh_ok m' ∧
      (∀ id, no_flags <$> tet_get m' id = no_flags <$> tet_get m id) ∧
      (∀ x y z, locked_tri m' (x, y, z) ↔
         if b then locked_tri m (x, y, z) ∨ (has_tri m x y z ∧ same_corners (x, y, z) t)
         else locked_tri m (x, y, z) ∧ ¬ same_corners (x, y, z) t) ∧
      same_rest m m'.
  Proof.
    intros Hok Hw Ht. destruct (view_of m w Hw) as (L & F & Hmv).
    pose proof (ok_vmesh m L F Hmv Hok) as Hvm. apply (mv_valid _ _ _ _ Hmv) in Hw.
    pose proof (vm_vok _ _ _ Hvm) as Hvok.
    unfold set_tri_lock. rewrite (mv_adj_ae _ _ _ _ Hmv (proj1 Hw)). cbn [mbind option_bind].
    set (adj := get4 (t_opp (F (w_tet w))) (w_edge w mod 4)).
    assert (av F w = rot (w_edge w / 4) adj) as Eav by done.
    destruct (vo_adj _ _ Hvok w Hw) as [Ha Htw].
    pose proof (vok_oppok _ _ _ Hvok (proj1 Hw)) as Ho.
    assert (w_edge adj < 12) as Hadj by (apply Ho; by apply Nat.mod_upper_bound).
    assert (sf adj (av F w)) as Hsf.
    { rewrite Eav. split; [by rewrite rot_tet|]. destruct (w_edge w / 4) as [|[|k]]; cbn [rot]; [done| |].
      - cbn [to_pfe w_edge]. by rewrite pfe_mod4. - cbn [to_nfe w_edge]. by rewrite nfe_mod4. }
    clearbody adj. clear Eav.
    assert (tst m L F) as Hst by (split; [done|apply Hvm]).
    destruct (upd_st m L F (w_tet w) (set_locked (w_edge w mod 4) b) Hst (proj1 Hw)) as (m1 & E1 & Hst1 & Hr1).
    rewrite E1. cbn [mbind option_bind].
    set (F1 := fupd F (w_tet w) (set_locked (w_edge w mod 4) b (F (w_tet w)))) in *.
    assert (w_tet adj ∈ L) as HaL by (rewrite (proj1 Hsf); apply Ha).
    destruct (upd_st m1 L F1 (w_tet adj) (set_locked (w_edge adj mod 4) b) Hst1 HaL) as (m2 & E2 & Hst2 & Hr2).
    rewrite E2. set (F2 := fupd F1 (w_tet adj) (set_locked (w_edge adj mod 4) b (F1 (w_tet adj)))) in *.
    assert (same_shape F F2) as HS by (eapply ss_trans; apply ss_set_locked).
    assert (∀ u, lv F2 u = if decide (sf w u ∨ sf (av F w) u) then b else lv F u) as Hlv.
    { intros u. unfold F2. rewrite lv_locked. unfold F1. rewrite lv_locked.
      assert (sf adj u ↔ sf (av F w) u) as Hi.
      { unfold sf. destruct Hsf as [-> ->]. done. }
      destruct (decide (sf adj u)) as [D1|D1], (decide (sf w u)) as [D2|D2];
      [rewrite decide_True by tauto..|rewrite decide_False by tauto]; done. }
    assert (same_rest m m2) as Hr by (eapply same_rest_trans; eauto).
    assert (vmesh m2 L F2) as Hvm2.
    { apply (ss_vmesh m m2 L F F2); try done. intros u Hu. rewrite !Hlv.
      assert (sf w (av F u) ∨ sf (av F w) (av F u) ↔ sf w u ∨ sf (av F w) u) as Hi.
      { destruct (vo_adj _ _ Hvok u Hu) as [Hau _]. pose proof (av_av _ _ _ Hvok Hw) as B1.
        pose proof (av_av _ _ _ Hvok Hu) as B2.
        pose proof (sf_av L F w u Hvok Hw Hu) as C1. pose proof (sf_av L F w (av F u) Hvok Hw Hau) as C2.
        pose proof (sf_av L F (av F w) u Hvok Ha Hu) as C3. pose proof (sf_av L F (av F w) (av F u) Hvok Ha Hau) as C4.
        rewrite B1 in C3, C4. rewrite B2 in C2, C4. clear -C1 C2 C3 C4. tauto. }
      destruct (decide (sf w u ∨ sf (av F w) u)) as [D|D];
        [rewrite decide_True by tauto|rewrite decide_False by tauto]; [done|].
      by apply (vo_lock _ _ Hvok). }
    assert (tri3 (vv F w) = t) as Ett.
    { rewrite (mv_tri _ _ _ _ Hmv (proj1 Hw)) in Ht. by apply (inj Some) in Ht. }
    exists m2. split; [done|]. split; [by eapply vmesh_ok|]. split; [|split; [|done]].
    - intros id. destruct Hst2 as [Hmv2 _]. rewrite (Hmv2 id), (Hmv id). destruct (decide (id ∈ L)); [|done].
      cbn. f_equal. unfold no_flags. destruct (HS id) as (->&->&->). f_equal.
      unfold F2, F1, fupd. destruct (decide (id = w_tet adj)) as [->|]; cbn;
        destruct (decide _) as [E|]; try done; by rewrite E.
    - intros x y z. rewrite (locked_tri_view m2 L F2) by apply Hst2.
      pose proof (locked_tri_view m L F (x, y, z) Hmv) as Hlk.
      assert (∀ u, vd L u → tri3 (vv F u) = (x, y, z) → (sf w u ∨ sf (av F w) u ↔ same_corners (x, y, z) t)) as Hc.
      { intros u Hu Eu. rewrite <- Eu, <- Ett. symmetry. by apply (tri_same_face L). }
      assert (has_tri m x y z ↔ ∃ u, vd L u ∧ tri3 (vv F u) = (x, y, z)) as Hh.
      { split.
        - intros (u & Hu%(mv_valid _ _ _ _ Hmv) & E). exists u. split; [done|].
          rewrite (mv_tri _ _ _ _ Hmv (proj1 Hu)) in E. by apply (inj Some) in E.
        - intros (u & Hu & E). exists u. split; [by apply (mv_valid _ _ _ _ Hmv)|].
          rewrite (mv_tri _ _ _ _ Hmv (proj1 Hu)). by f_equal. }
      split.
      + intros (u & Hu & Et & El). rewrite (ss_vv F F2 u HS) in Et. rewrite Hlv in El. specialize (Hc u Hu Et).
        destruct (decide (sf w u ∨ sf (av F w) u)) as [D|D].
        * subst b. right. split; [apply Hh; eauto|by apply Hc].
        * destruct b; [left|split]; [apply Hlk; eauto..|]. by rewrite <- Hc.
      + intros H. assert (∃ u, vd L u ∧ tri3 (vv F u) = (x, y, z) ∧
          (if b then lv F u = true ∨ same_corners (x, y, z) t else lv F u = true ∧ ¬ same_corners (x, y, z) t)) as (u & Hu & Et & Hb).
        { destruct b.
          - destruct H as [(u & Hu & Et & El)%Hlk|[(u & Hu & Et)%Hh Hsc]]; exists u; auto.
          - destruct H as [(u & Hu & Et & El)%Hlk Hn]. exists u; auto. }
        exists u. split; [done|]. rewrite (ss_vv F F2 u HS). split; [done|]. rewrite Hlv. specialize (Hc u Hu Et).
        destruct b.
        * destruct (decide (sf w u ∨ sf (av F w) u)) as [D|D]; [done|]. destruct Hb as [?|Hb]; [done|].
          by apply Hc in Hb.
        * destruct Hb as [Hb1 Hb2]. rewrite decide_False; [done|]. by rewrite Hc.
  Qed.

  (** ** Turning the triangle map on or off. *)
  Lemma set_track_step m b : mesh_ok m →
    ∃ m', set_track_tri_map m b = Some m' ∧ mesh_ok m' ∧ m_track m' = b ∧
      m_verts m' = m_verts m ∧ m_ghost_flags m' = m_ghost_flags m ∧ m_edges m' = m_edges m ∧
      m_tets m' = m_tets m ∧ m_center m' = m_center m.
  Proof.
    intros Hok. destruct b.
    2:{ exists (with_track m false). split; [done|]. split; [|done]. destruct Hok. split; try assumption. done. }
    unfold set_track_tri_map. set (m0 := with_trimap (with_track m true) ∅).
    destruct (im_keys (m_tets m)) as [|id0 ids] eqn:Ek.
    - exists m0. split; [done|]. split; [|done]. destruct Hok. split; try assumption.
      intros _ k w. cbn [m_trimap m0 with_trimap]. rewrite lookup_empty. split; [done|].
      intros ((Hv & _) & _). exfalso. assert (w_tet w ∈ im_keys (m_tets m)) as Hin.
      { apply elem_of_im_keys; [done|]. exact Hv. }
      rewrite Ek in Hin. by apply elem_of_nil in Hin.
    - rewrite <- Ek. assert (id0 ∈ im_keys (m_tets m)) as Hin by (rewrite Ek; by left).
      apply elem_of_im_keys in Hin as [t0 Ht0]; [|apply Hok].
      pose proof (mv_exists m id0 t0 Ht0) as Hmv.
      set (L := dom (im_slots (m_tets m))) in *. set (F := λ i, default t0 (tet_get m i)) in *.
      pose proof (ok_vmesh m L F Hmv Hok) as Hvm.
      assert (∀ id, id ∈ im_keys (m_tets m) ↔ id ∈ L) as HkL.
      { intros id. rewrite elem_of_im_keys by apply Hok. unfold L. by rewrite elem_of_dom. }
      destruct (trimap_insert_fold_st (im_keys (m_tets m)) L F m0 Hmv) as (tm & E & H1 & H2).
      { intros id. apply HkL. }
      rewrite E. eexists. split; [reflexivity|]. split; [|done].
      apply (vmesh_ok _ L F). destruct Hvm as [A1 A2 A3 A4 A5 A6 A7 A8 A9 A10]. split; try assumption.
      intros _. cbn [m_trimap with_trimap].
      rewrite <- (union_empty_l_L L).
      apply (tmrel_ok ∅ ∅ L F F ∅ tm [] (im_keys (m_tets m))).
      + rewrite union_empty_l_L. split; intros; exfalso.
        all: try (match goal with H : vd _ _ |- _ => destruct H as [H _]; by apply elem_of_empty in H end).
        match goal with H : _ ∈ ∅ |- _ => by apply elem_of_empty in H end.
      + by rewrite union_empty_l_L.
      + intros x Hx; by apply elem_of_empty in Hx.
      + intros x Hx; by apply elem_of_empty in Hx.
      + done.
      + intros x. rewrite elem_of_nil, elem_of_empty. done.
      + exact HkL.
      + intros k w. rewrite lookup_empty. split; [done|]. rewrite union_empty_l_L. intros [H _]. by apply elem_of_empty in H.
      + exists ∅. split; [|split].
        * intros k. split; [intros _; apply lookup_empty|done].
        * intros k Hk. rewrite (H1 k Hk). done.
        * exact H2.
  Qed.
End ops.
