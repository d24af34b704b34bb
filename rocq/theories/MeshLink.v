(** Mesh consistency stated through the walker API is the same as consistency of the views. *)
From stdpp Require Import base numbers list gmap option relations.
From Coq Require Import NArith ZArith ZifyN ZifyNat ZifyBool Lia.
From Verif Require Import IdMapModel IdMapProofs WalkerModel WalkerSpec WalkerProofs SortProofs
  MeshModel WalkerMore MeshSpec MeshViews Surgery.
Local Open Scope nat_scope.

Section link.
  Context {V T : Type}.
  Implicit Types (m : mesh V T) (F : N → tet T) (w u : walker) (L : gset N).

  Definition mv m L F : Prop := ∀ id, tet_get m id = if decide (id ∈ L) then Some (F id) else None.

  Lemma mv_in m L F id : mv m L F → id ∈ L → tet_get m id = Some (F id).
  Proof. intros H Hin. rewrite H. by rewrite decide_True. Qed.
  Lemma mv_out m L F id : mv m L F → id ∉ L → tet_get m id = None.
  Proof. intros H Hin. rewrite H. by rewrite decide_False. Qed.
  Lemma mv_valid m L F w : mv m L F → valid m w ↔ vd L w.
  Proof.
    intros H. unfold valid, vd. rewrite H. destruct (decide (w_tet w ∈ L)).
    - split; intros [??]; eauto.
    - split; [intros [[? H1] _]; done|intros [H1 _]; done].
  Qed.
  Lemma mv_verts m L F w : mv m L F → w_tet w ∈ L → w_verts m w = Some (vv F w).
  Proof. intros H Hw. apply w_verts_eq. by apply (mv_in _ _ _ _ H). Qed.
  Lemma mv_first m L F w : mv m L F → w_tet w ∈ L → w_first m w = Some (q0 (vv F w)).
  Proof. intros H Hw. unfold w_first. by rewrite (mv_in _ _ _ _ H Hw). Qed.
  Lemma mv_fourth m L F w : mv m L F → w_tet w ∈ L → w_fourth m w = Some (q3 (vv F w)).
  Proof. intros H Hw. unfold w_fourth. by rewrite (mv_in _ _ _ _ H Hw). Qed.
  Lemma mv_pair m L F w : mv m L F → w_tet w ∈ L → w_pair m w = Some (q0 (vv F w), q1 (vv F w)).
  Proof. intros H Hw. unfold w_pair, w_first, w_second. by rewrite (mv_in _ _ _ _ H Hw). Qed.
  Lemma mv_tri m L F w : mv m L F → w_tet w ∈ L → w_tri m w = Some (tri3 (vv F w)).
  Proof. intros H Hw. unfold w_tri, w_first, w_second, w_third. by rewrite (mv_in _ _ _ _ H Hw). Qed.
  Lemma mv_locked m L F w : mv m L F → w_tet w ∈ L → w_locked m w = Some (lv F w).
  Proof. intros H Hw. unfold w_locked. by rewrite (mv_in _ _ _ _ H Hw). Qed.
  Lemma mv_undir m L F w : mv m L F → w_tet w ∈ L → undir_edge m w = Some (uv F w).
  Proof. intros H Hw. unfold undir_edge. by rewrite (mv_in _ _ _ _ H Hw). Qed.
  Lemma mv_adj m L F w : mv m L F → vd L w → to_adj m w = Some (av F w).
  Proof.
    intros H [Hw He]. unfold to_adj, to_adj_ae, av. rewrite (mv_in _ _ _ _ H Hw). cbn [mbind option_bind].
    destruct w as [t e]. cbn [w_tet w_edge] in *. case12 e He; done.
  Qed.
  Lemma mv_adj_ae m L F w : mv m L F → w_tet w ∈ L →
    to_adj_ae m w = Some (get4 (t_opp (F (w_tet w))) (w_edge w mod 4)).
  Proof. intros H Hw. unfold to_adj_ae. by rewrite (mv_in _ _ _ _ H Hw). Qed.
  Lemma mv_ring_next m L F w : mv m L F → vd L w → ring_next m w = Some (rn F w).
  Proof. intros H Hw. unfold ring_next. apply (mv_adj _ _ _ _ H). by apply vd_twin. Qed.

  (** Edge table, vertex references, triangle map. *)
  Record eok L F (E : N → option (N * N)) : Prop := EOk {
    eo_in w : vd L w → E (uv F w) = Some (sorted_2 (q0 (vv F w), q1 (vv F w)));
    eo_inj e e' p : E e = Some p → E e' = Some p → e = e';
    eo_used e a b : E e = Some (a, b) → ∃ w, vd L w ∧ q0 (vv F w) = a ∧ q1 (vv F w) = b;
    eo_sorted e a b : E e = Some (a, b) → (a < b)%N }.
  Definition vrok L F (R : N → option walker) : Prop :=
    ∀ v w, R v = Some w → (∃ w', vd L w' ∧ q0 (vv F w') = v) → vd L w ∧ q0 (vv F w) = v.
  Definition vexok L F (X : N → Prop) : Prop :=
    ∀ w, vd L w → q0 (vv F w) = GHOST ∨ X (q0 (vv F w)).
  Definition tmok L F (tm : gmap (N * N * N) walker) : Prop :=
    ∀ k w, tm !! k = Some w ↔ w_tet w ∈ L ∧ w_edge w < 4 ∧ tri_key (tri3 (vv F w)) = k.

  Definition m_epair m (e : N) : option (N * N) := ue_vs <$> im_get (m_edges m) e.
  Definition m_vref m (v : N) : option walker := v_tet <$> im_get (m_verts m) v.

  Record vmesh m L F : Prop := VMesh {
    vm_mv : mv m L F;
    vm_wfv : im_wf (m_verts m);
    vm_wfe : im_wf (m_edges m);
    vm_wft : im_wf (m_tets m);
    vm_ghost : im_get (m_verts m) GHOST = None;
    vm_vok : vok L F;
    vm_ex : vexok L F (λ a, is_Some (im_get (m_verts m) a));
    vm_eok : eok L F (m_epair m);
    vm_vrok : vrok L F (m_vref m);
    vm_tm : m_track m = true → tmok L F (m_trimap m) }.

  Lemma rtsc_impl {X} (R R' : relation X) x y : (∀ x y, R x y → R' x y) → rtsc R x y → rtsc R' x y.
  Proof.
    intros H Hr. induction Hr as [|x y z Hs Hr IH]; [apply rtc_refl|].
    eapply rtc_l; [|exact IH]. destruct Hs; [left|right]; by apply H.
  Qed.

  Lemma vmesh_ok m L F : vmesh m L F → mesh_ok m.
  Proof.
    intros [Hmv Hwv Hwe Hwt Hg Hok Hex Heo Hvr Htm].
    split; try done.
    - intros w a b c d Hv%(mv_valid _ _ _ _ Hmv) E.
      rewrite (mv_verts _ _ _ _ Hmv) in E by apply Hv. apply (inj Some) in E.
      change [a; b; c; d] with (list4 (A4 a b c d)). rewrite <- E.
      apply vv_nodup; [apply Hv|]. apply (vo_nodup _ _ Hok), Hv.
    - intros w a Hv%(mv_valid _ _ _ _ Hmv) E.
      rewrite (mv_first _ _ _ _ Hmv) in E by apply Hv. injection E as <-. by apply Hex.
    - intros w a b c d Hv%(mv_valid _ _ _ _ Hmv) E.
      rewrite (mv_verts _ _ _ _ Hmv) in E by apply Hv. apply (inj Some) in E.
      destruct (vo_adj _ _ Hok w Hv) as [H1 (T1 & T2 & T3)].
      exists (av F w), (q3 (vv F (av F w))).
      split; [by apply (mv_adj _ _ _ _ Hmv)|]. split; [by apply (mv_valid _ _ _ _ Hmv)|].
      rewrite (mv_verts _ _ _ _ Hmv) by apply H1. rewrite E in T1, T2, T3. cbn in T1, T2, T3.
      split; [f_equal; destruct (vv F (av F w)); cbn in *; congruence|].
      rewrite (mv_adj _ _ _ _ Hmv) by done. f_equal. by apply (av_av _ _ _ Hok).
    - intros w w' t Hv%(mv_valid _ _ _ _ Hmv) Hv'%(mv_valid _ _ _ _ Hmv) E E'.
      rewrite (mv_tri _ _ _ _ Hmv) in E by apply Hv. rewrite (mv_tri _ _ _ _ Hmv) in E' by apply Hv'.
      apply (vo_uniq _ _ Hok); [done..|]. congruence.
    - intros w a b Hv%(mv_valid _ _ _ _ Hmv) E.
      rewrite (mv_pair _ _ _ _ Hmv) in E by apply Hv. injection E as <- <-.
      pose proof (eo_in _ _ _ Heo w Hv) as He. unfold m_epair in He.
      destruct (im_get (m_edges m) (uv F w)) as [ue|] eqn:Eu; [|done]. cbn in He. injection He as He.
      exists (uv F w), ue. split; [by apply (mv_undir _ _ _ _ Hmv), Hv|]. done.
    - intros e e' ue ue' E E' Hp. eapply (eo_inj _ _ _ Heo); unfold m_epair.
      + rewrite E. reflexivity.
      + rewrite E'. cbn. by rewrite Hp.
    - intros e ue E. destruct (eo_used _ _ _ Heo e (ue_vs ue).1 (ue_vs ue).2) as (w & Hw & H1 & H2).
      { unfold m_epair. rewrite E. cbn. by destruct (ue_vs ue). }
      exists w. split; [by apply (mv_valid _ _ _ _ Hmv)|].
      rewrite (mv_pair _ _ _ _ Hmv) by apply Hw. congruence.
    - intros e ue E. apply (eo_sorted _ _ _ Heo e). unfold m_epair. rewrite E. cbn. by destruct (ue_vs ue).
    - intros v vt E (w & Hw%(mv_valid _ _ _ _ Hmv) & Hf).
      rewrite (mv_first _ _ _ _ Hmv) in Hf by apply Hw. injection Hf as Hf.
      destruct (Hvr v (v_tet vt)) as [H1 H2].
      + unfold m_vref. by rewrite E.
      + exists w. done.
      + split; [by apply (mv_valid _ _ _ _ Hmv)|]. rewrite (mv_first _ _ _ _ Hmv) by apply H1. congruence.
    - intros w w' Hv%(mv_valid _ _ _ _ Hmv) E. rewrite (mv_adj _ _ _ _ Hmv) in E by done. injection E as <-.
      destruct (vo_adj _ _ Hok w Hv) as [H1 _].
      rewrite !(mv_locked _ _ _ _ Hmv) by (apply Hv || apply H1). f_equal. by apply (vo_lock _ _ Hok).
    - intros Ht k w. rewrite (Htm Ht k w). split.
      + intros (H1 & H2 & H3). split; [apply (mv_valid _ _ _ _ Hmv); split; [done|lia]|]. split; [done|].
        exists (tri3 (vv F w)). split; [by apply (mv_tri _ _ _ _ Hmv)|done].
      + intros (H1%(mv_valid _ _ _ _ Hmv) & H2 & t & H3 & H4).
        rewrite (mv_tri _ _ _ _ Hmv) in H3 by apply H1. injection H3 as <-. split; [apply H1|done].
    - intros w w' p Hv%(mv_valid _ _ _ _ Hmv) Hv'%(mv_valid _ _ _ _ Hmv) E E'.
      rewrite (mv_pair _ _ _ _ Hmv) in E by apply Hv. rewrite (mv_pair _ _ _ _ Hmv) in E' by apply Hv'.
      eapply rtsc_impl; [|apply (vo_ring _ _ Hok w w'); [done..|unfold pair2; congruence]].
      intros x y [Hx ->]. split; [by apply (mv_valid _ _ _ _ Hmv)|]. by apply (mv_ring_next _ _ _ _ Hmv).
    - intros w w' v Hv%(mv_valid _ _ _ _ Hmv) Hv'%(mv_valid _ _ _ _ Hmv) E E'.
      rewrite (mv_first _ _ _ _ Hmv) in E by apply Hv. rewrite (mv_first _ _ _ _ Hmv) in E' by apply Hv'.
      eapply rtsc_impl; [|apply (vo_star _ _ Hok w w'); [done..|congruence]].
      intros x y [Hx Hy]. split; [by apply (mv_valid _ _ _ _ Hmv)|].
      destruct Hy as [->| ->]; [by left|right]. exists (av F x).
      split; [by apply (mv_adj _ _ _ _ Hmv)|done].
  Qed.

  Lemma ok_vmesh m L F : mv m L F → mesh_ok m → vmesh m L F.
  Proof.
    intros Hmv Hok.
    assert (∀ w, vd L w → valid m w) as Hvd by (intros w Hw; by apply (mv_valid _ _ _ _ Hmv)).
    split; [done|by apply ok_ids_verts|by apply ok_ids_edges|by apply ok_ids_tets|by apply ok_ghost|..].
    - assert (∀ w, vd L w → vd L (av F w) ∧ twist (vv F w) (vv F (av F w))) as Hadj.
      { intros w Hw. destruct (vv F w) as [a b c d] eqn:E.
        destruct (ok_adj m Hok w a b c d) as (w' & x & H1 & H2 & H3 & H4).
        - by apply Hvd.
        - rewrite <- E. by apply (mv_verts _ _ _ _ Hmv), Hw.
        - rewrite (mv_adj _ _ _ _ Hmv) in H1 by done. injection H1 as <-.
          apply (mv_valid _ _ _ _ Hmv) in H2. split; [done|].
          rewrite (mv_verts _ _ _ _ Hmv) in H3 by apply H2. apply (inj Some) in H3 as ->. done. }
      split.
      + intros id Hid. destruct (t_vs (F id)) as [a b c d] eqn:E.
        apply (ok_distinct m Hok (Walker id 3) a b c d).
        * apply Hvd. split; [done|cbn; lia].
        * rewrite (mv_verts _ _ _ _ Hmv) by done. unfold vv; cbn. by rewrite E.
      + done.
      + intros w w' Hw Hw' E. apply (ok_tri_unique m Hok w w' (tri3 (vv F w))); [by apply Hvd..| |].
        * by apply (mv_tri _ _ _ _ Hmv), Hw.
        * rewrite E. by apply (mv_tri _ _ _ _ Hmv), Hw'.
      + intros w Hw. pose proof (ok_lock m Hok w (av F w) (Hvd w Hw)) as H.
        rewrite (mv_adj _ _ _ _ Hmv) in H by done. specialize (H eq_refl).
        destruct (Hadj w Hw) as [H1 _]. rewrite !(mv_locked _ _ _ _ Hmv) in H by (apply Hw || apply H1). congruence.
      + intros w w' Hw Hw' E.
        assert (∀ x y, rtsc (edge_step m) x y → rtsc (estep L F) x y) as K.
        { intros x y Hr. eapply rtsc_impl; [|exact Hr]. intros x' y' [Hx' Hy'].
          apply (mv_valid _ _ _ _ Hmv) in Hx'. split; [done|].
          rewrite (mv_ring_next _ _ _ _ Hmv) in Hy' by done. congruence. }
        apply K. apply pair2_eq in E as [E1 E2].
        apply (ok_ring m Hok w w' (q0 (vv F w), q1 (vv F w))); [by apply Hvd..| |].
        * by apply (mv_pair _ _ _ _ Hmv), Hw.
        * rewrite E1, E2. by apply (mv_pair _ _ _ _ Hmv), Hw'.
      + intros w w' Hw Hw' E.
        assert (∀ x y, rtsc (vertex_step m) x y → rtsc (vstep L F) x y) as K.
        { intros x y Hr. eapply rtsc_impl; [|exact Hr]. intros x' y' [Hx' Hy'].
          apply (mv_valid _ _ _ _ Hmv) in Hx'. split; [done|].
          destruct Hy' as [->|(z & Hz & ->)]; [by left|right].
          rewrite (mv_adj _ _ _ _ Hmv) in Hz by done. congruence. }
        apply K. apply (ok_star m Hok w w' (q0 (vv F w))); [by apply Hvd..| |].
        * by apply (mv_first _ _ _ _ Hmv), Hw.
        * rewrite E. by apply (mv_first _ _ _ _ Hmv), Hw'.
    - intros w Hw. apply (ok_exist m Hok w); [by apply Hvd|]. by apply (mv_first _ _ _ _ Hmv), Hw.
    - split.
      + intros w Hw. destruct (ok_edge m Hok w (q0 (vv F w)) (q1 (vv F w))) as (e & ue & H1 & H2 & H3).
        * by apply Hvd.
        * by apply (mv_pair _ _ _ _ Hmv), Hw.
        * rewrite (mv_undir _ _ _ _ Hmv) in H1 by apply Hw. injection H1 as <-.
          unfold m_epair. rewrite H2. cbn. by rewrite H3.
      + unfold m_epair. intros e e' p H1 H2.
        destruct (im_get (m_edges m) e) as [ue|] eqn:E1; [|done].
        destruct (im_get (m_edges m) e') as [ue'|] eqn:E2; [|done].
        cbn in H1, H2. apply (ok_edge_unique m Hok e e' ue ue'); [done..|congruence].
      + unfold m_epair. intros e a b H1. destruct (im_get (m_edges m) e) as [ue|] eqn:E1; [|done].
        cbn in H1. injection H1 as H1. destruct (ok_edge_used m Hok e ue E1) as (w & Hw & Hp).
        apply (mv_valid _ _ _ _ Hmv) in Hw. exists w. split; [done|].
        rewrite (mv_pair _ _ _ _ Hmv) in Hp by apply Hw. rewrite H1 in Hp. cbn in Hp.
        split; congruence.
      + unfold m_epair. intros e a b H1. destruct (im_get (m_edges m) e) as [ue|] eqn:E1; [|done].
        cbn in H1. injection H1 as H1. pose proof (ok_edge_sorted m Hok e ue E1) as Hs. by rewrite H1 in Hs.
    - intros v w. unfold m_vref. destruct (im_get (m_verts m) v) as [vt|] eqn:E; [|done].
      cbn. intros [= <-] (w' & Hw' & Hv).
      destruct (ok_vref m Hok v vt E) as [H1 H2].
      + exists w'. split; [by apply Hvd|]. rewrite (mv_first _ _ _ _ Hmv) by apply Hw'. congruence.
      + apply (mv_valid _ _ _ _ Hmv) in H1. split; [done|].
        rewrite (mv_first _ _ _ _ Hmv) in H2 by apply H1. congruence.
    - intros Ht k w. rewrite (ok_trimap m Hok Ht k w). split.
      + intros (H1%(mv_valid _ _ _ _ Hmv) & H2 & t & H3 & H4).
        rewrite (mv_tri _ _ _ _ Hmv) in H3 by apply H1. injection H3 as <-. split; [apply H1|done].
      + intros (H1 & H2 & H3). split; [apply Hvd; split; [done|lia]|]. split; [done|].
        exists (tri3 (vv F w)). split; [by apply (mv_tri _ _ _ _ Hmv)|done].
  Qed.

  (** Every mesh with at least one tet has a view. *)
  Lemma mv_exists m id t : tet_get m id = Some t →
    mv m (dom (im_slots (m_tets m))) (λ i, default t (tet_get m i)).
  Proof.
    intros _ i. unfold tet_get, im_get. destruct (decide (i ∈ dom (im_slots (m_tets m)))) as [H|H].
    - apply elem_of_dom in H as [t' ->]. done.
    - by apply not_elem_of_dom in H as ->.
  Qed.
End link.
