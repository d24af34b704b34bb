(** Filling a cavity, from the walker API to the tables and back. *)
From stdpp Require Import base numbers list gmap option relations.
From Coq Require Import NArith ZArith ZifyN ZifyNat ZifyBool Lia.
From Verif Require Import IdMapModel IdMapSpec IdMapProofs WalkerModel WalkerSpec WalkerProofs SortProofs UtilSpec UtilProofs
  MeshModel WalkerMore MeshOps MeshSpec HistSpec MeshViews Surgery MeshLink MeshRun FlipBase FlipRun IterModel IterProofs CavSpec
  InsModel InsTopo InsStep InsOwn InsCone InsSpokes InsCross InsRun InsSpec.
Local Open Scope nat_scope.

Section ok.
  Context {V T : Type}.
  Implicit Types (w u r x y z : walker) (e a : N).
  Context (m : mesh V T) (Lm : gset N) (F : N → tet T) (E : list N) (B : list walker) (v : N).
  Notation K := (list_to_set E : gset N).
  Notation O := (Lm ∖ (list_to_set E : gset N)).
  Notation bw := (bw O K F).
  Context (Hm : vmesh m Lm F) (HR : region m E) (HBd : boundary_of m E B) (Hrest : at_rest m) (Hs : surface m E) (Hl : loose m v)
    (Hroom : roomy m (N.of_nat (length B)) (N.of_nat (3 * length B))).

  Notation mvH := (vm_mv _ _ _ Hm).
  Lemma HEL id : id ∈ E → id ∈ Lm.
  Proof. intros Hid. apply HR in Hid as [t Ht]. rewrite (mvH id) in Ht. by destruct (decide _). Qed.
  Lemma bw_on u : bw u ↔ on_boundary m E u.
  Proof.
    unfold InsTopo.bw, on_boundary, leaves. rewrite (mv_valid _ _ _ _ mvH). split.
    - intros [[H1 H2] H3]. apply elem_of_list_to_set in H1. assert (vd Lm u) as Hu by (split; [by apply HEL|done]).
      split; [done|]. split; [done|]. exists (av F u). split; [by apply (mv_adj _ _ _ _ mvH)|]. set_solver.
    - intros [Hu [H1 (x & Hx & H2)]]. rewrite (mv_adj _ _ _ _ mvH Hu) in Hx. injection Hx as <-. split; [split; [by apply elem_of_list_to_set|apply Hu]|].
      apply elem_of_difference. split; [|by rewrite elem_of_list_to_set]. apply (vo_adj _ _ (vm_vok _ _ _ Hm) u Hu).
  Qed.
  Lemma bwL u : bw u → vd Lm u.
  Proof. intros [H _]%bw_on. by apply (mv_valid _ _ _ _ mvH). Qed.
  Lemma around_turn u u' : around m E u u' ↔ bturn O K F u u'.
  Proof.
    unfold around, bturn, mate. split.
    - intros (u1 & a & b & H1%bw_on & H2%bw_on & H3 & H4 & ->). exists u1. split; [|done].
      rewrite (mv_pair _ _ _ _ mvH) in H3 by (by apply bwL). rewrite (mv_pair _ _ _ _ mvH) in H4 by (by apply bwL). assert (a = q0 (vv F u) ∧ b = q1 (vv F u)) as [-> ->] by (split; congruence). split; [done|]. split; [done|]. split; congruence.
    - intros (u1 & (H1 & H2 & H3 & H4) & ->). exists u1, (q0 (vv F u)), (q1 (vv F u)).
      rewrite !(mv_pair _ _ _ _ mvH) by (by apply bwL). rewrite H3, H4. split; [by apply bw_on|]. split; [by apply bw_on|]. done.
  Qed.
  Lemma HBin w : w ∈ B → bw w.
  Proof.
    intros Hw. destruct HBd as (Hv & _ & HB). rewrite list.Forall_forall in Hv. apply bw_on. split; [by apply Hv|]. apply HB; [by apply Hv|].
    apply elem_of_list_fmap. eauto.
  Qed.
  Lemma HBall u : bw u → side u ∈ side <$> B.
  Proof. intros [Hv Hu]%bw_on. by apply HBd. Qed.
  Lemma corner_bw a : corner m E a ↔ ∃ u, bw u ∧ a = q0 (vv F u).
  Proof.
    unfold corner. split; intros (u & H1 & H2); exists u.
    - apply bw_on in H1. split; [done|]. rewrite (mv_first _ _ _ _ mvH) in H2 by (by apply bwL). by injection H2.
    - split; [by apply bw_on|]. rewrite (mv_first _ _ _ _ mvH) by (by apply bwL). congruence.
  Qed.

  Lemma fill_run : ∃ m' B', flip_in_vertex_unchecked m v B E = Some (m', B') ∧ mesh_ok m' ∧ at_rest m' ∧ filled m v E B m' B'.
  Proof.
    destruct Hrest as [R1 R2 R3 R4]. destruct Hl as [Hv Hn]. destruct Hroom as [Rt Re]. pose proof HR as [HEn _]. pose proof HBd as (HBv & HBn & _).
    assert (∀ u u', bw u → bw u' → pair2 (vv F u) = pair2 (vv F u') → u = u') as Sedge.
    { intros u u' Hu Hu' Ep. pose proof (bwL u Hu). pose proof (bwL u' Hu'). apply (su_edge _ _ Hs u u' (pair2 (vv F u))); [by apply bw_on|by apply bw_on|..].
      - by rewrite (mv_pair _ _ _ _ mvH) by apply H.
      - rewrite (mv_pair _ _ _ _ mvH) by apply H0. by rewrite Ep. }
    assert (∀ u u', bw u → bw u' → q0 (vv F u) = q0 (vv F u') → rtsc (bturn O K F) u u') as Sfan.
    { intros u u' Hu Hu' Ep. pose proof (bwL u Hu). pose proof (bwL u' Hu'). apply (rtsc_impl (around m E)); [intros; by apply around_turn|].
      apply (su_fan _ _ Hs u u' (q0 (vv F u))); [by apply bw_on|by apply bw_on|..].
      - by rewrite (mv_first _ _ _ _ mvH) by apply H.
      - rewrite (mv_first _ _ _ _ mvH) by apply H0. by rewrite Ep. }
    assert (∀ u u', bw u → bw u' → rtsc (λ x y, bturn O K F x y ∨ (bw x ∧ y = to_nfe x)) u u') as Sconn.
    { intros u u' Hu Hu'. apply (rtsc_impl (λ x y, around m E x y ∨ (on_boundary m E x ∧ y = to_nfe x))).
      - intros x y. rewrite around_turn, bw_on. done.
      - apply (su_connected _ _ Hs); by apply bw_on. }
    assert (∀ id, id ∈ Lm → f_boundary (t_flags (F id)) = false ∧ f_dup (t_flags (F id)) = false) as It.
    { intros id Hid. apply (R2 id). by apply (mv_in _ _ _ _ mvH). }
    assert (∀ (x : N) f, fl (im_get (m_verts m)) (m_ghost_flags m) x = Some f → vf_edge_added f = false) as Iv.
    { intros x f Hf. apply (R4 x f). exact Hf. }
    assert (∀ w, vd Lm w → q0 (vv F w) ≠ v) as Hvn.
    { intros w Hw Ew. apply Hn. exists w. split; [by apply (mv_valid _ _ _ _ mvH)|]. rewrite (mv_first _ _ _ _ mvH) by apply Hw. by rewrite Ew. }
    destruct (ins_run m Lm F E B v Hm HEn HEL HBin HBn HBall Sedge Sfan Sconn It R3 Iv Hv Hvn Rt Re) as (m' & Z & F' & Ed' & Vt' & A & Erun & [O1 O2 O3 O4 O5 O6 O7 O8 O9 O10 O11 O12 O13 O14 O15 O16 O17 O18 O19 O20]).
    pose proof (vm_mv _ _ _ O1) as Mv'. set (K' := list_to_set (w_tet <$> Z.*2) : gset N) in *.
    assert (∀ w w', (w, w') ∈ Z → w ∈ B ∧ w' ∈ Z.*2 ∧ w_tet w' ∈ K') as HZ.
    { intros w w' Hz. assert (w' ∈ Z.*2) as Hw' by (apply elem_of_list_fmap; by exists (w, w')). split; [rewrite <- O2; apply elem_of_list_fmap; by exists (w, w')|].
      split; [done|]. apply elem_of_list_to_set. by apply elem_of_list_fmap_1. }
    assert (∀ id, id ∈ K' ↔ id ∈ w_tet <$> Z.*2) as HK' by (intros id; apply elem_of_list_to_set).
    assert (∀ id, id ∈ K' → ∃ w w', (w, w') ∈ Z ∧ w_tet w' = id) as HKZ.
    { intros id Hid%HK'. apply elem_of_list_fmap in Hid as (w' & -> & Hw'). apply elem_of_list_fmap in Hw' as ([w w''] & -> & Hz). eauto. }
    assert (∀ id, id ∈ O ↔ is_Some (tet_get m id) ∧ id ∉ E) as HO.
    { intros id. rewrite elem_of_difference, elem_of_list_to_set, (mvH id). destruct (decide (id ∈ Lm)); split; intros [H1 H2]; split; try done; eauto. by destruct H1. }
    assert (∀ w, vd O w ↔ valid m w ∧ w_tet w ∉ E) as HvdO.
    { intros w. rewrite (mv_valid _ _ _ _ mvH). unfold vd. rewrite elem_of_difference, elem_of_list_to_set. tauto. }
    exists m', (Z.*2). split; [done|]. split; [by eapply vmesh_ok|].
    assert (∀ w, valid m w → w_tri m w = Some (tri3 (vv F w)) ∧ w_locked m w = Some (lv F w)) as Htr.
    { intros w Hw%(mv_valid _ _ _ _ mvH). rewrite (mv_tri _ _ _ _ mvH), (mv_locked _ _ _ _ mvH) by apply Hw. done. }
    assert (∀ w, valid m' w → w_tri m' w = Some (tri3 (vv F' w)) ∧ w_locked m' w = Some (lv F' w)) as Htr'.
    { intros w Hw%(mv_valid _ _ _ _ Mv'). rewrite (mv_tri _ _ _ _ Mv'), (mv_locked _ _ _ _ Mv') by apply Hw. done. }
    assert (∀ w, valid m w → ¬ tri_inside m E w ↔ w_tet w ∉ E ∨ bw w) as Hti.
    { intros w Hw. rewrite bw_on. pose proof Hw as Hw'. apply (mv_valid _ _ _ _ mvH) in Hw'. unfold tri_inside, on_boundary, leaves. rewrite (mv_adj _ _ _ _ mvH Hw'). split.
      - intros Hn'. destruct (decide (w_tet w ∈ E)) as [HE|HE]; [right|by left]. split; [done|]. split; [done|]. exists (av F w). split; [done|]. intros Hin. apply Hn'. split; [done|]. eauto.
      - intros [H|(_ & _ & x & Hx & H)] [H1 (x' & Hx' & H2)]; [done|]. congruence. }
    split.
    - split.
      + intros id t Ht. rewrite (Mv' id) in Ht. destruct (decide (id ∈ O ∪ K')) as [Hin|]; [|done]. injection Ht as <-. apply elem_of_union in Hin as [Hin|Hin].
        * destruct (O11 id Hin) as (_ & -> & _). apply (R1 id). apply (mv_in _ _ _ _ mvH). by apply elem_of_difference in Hin as [? _].
        * destruct (HKZ id Hin) as (w & w' & Hz & <-). destruct (O13 w w' Hz) as (_ & _ & _ & _ & -> & -> & ->). apply (R1 (w_tet w)). apply (mv_in _ _ _ _ mvH).
          apply HEL. destruct (HZ w w' Hz) as (Hw & _). apply HBin in Hw as [[Hw _] _]. by apply elem_of_list_to_set in Hw.
      + intros id t Ht. rewrite (Mv' id) in Ht. destruct (decide (id ∈ O ∪ K')) as [Hin|]; [|done]. injection Ht as <-. apply elem_of_union in Hin as [Hin|Hin].
        * destruct (O11 id Hin) as (_ & -> & _). apply (R2 id). apply (mv_in _ _ _ _ mvH). by apply elem_of_difference in Hin as [? _].
        * destruct (HKZ id Hin) as (w & w' & Hz & <-). by destruct (O13 w w' Hz) as (_ & _ & -> & -> & _).
      + intros e ue He. rewrite O6 in He. by apply (O16 e).
      + intros x f Hf. apply (R4 x f). unfold vertex_flags in *. destruct O9 as (Eg & _). rewrite Eg in Hf. destruct (decide (x = GHOST)); [done|].
        rewrite O7 in Hf. destruct (O8 x) as [g Hg]. rewrite Hg in Hf. destruct (im_get (m_verts m) x); [|done]. exact Hf.
    - split.
      + rewrite <- O2. apply Forall2_fmap. apply Forall2_same_length_lookup_2; [done|]. intros i p p' Hp Hp'. assert (p' = p) as -> by congruence.
        destruct p as [w w']. cbn [fst snd]. assert ((w, w') ∈ Z) as Hz by (apply elem_of_list_lookup; eauto). destruct (HZ w w' Hz) as (Hw & Hw2 & Hw3).
        assert (vd (O ∪ K') w') as Hvd by (split; [by apply elem_of_union_r|by apply O5]). pose proof (bwL w (HBin w Hw)) as HwL.
        destruct (O13 w w' Hz) as (Q1 & Q2 & _). split; [by apply (mv_valid _ _ _ _ Mv')|].
        exists (q0 (vv F w)), (q1 (vv F w)), (q2 (vv F w)), (F (w_tet w)), (F' (w_tet w')). rewrite (mv_tri _ _ _ _ mvH) by apply HwL.
        rewrite (mv_verts _ _ _ _ Mv') by apply Hvd. rewrite Q1, Q2, (mv_in _ _ _ _ mvH) by apply HwL. rewrite (mv_in _ _ _ _ Mv') by apply Hvd. done.
      + exact O3.
      + intros id. rewrite <- HO, <- HK'. rewrite (Mv' id). destruct (decide (id ∈ O ∪ K')) as [Hin|Hin].
        * split; [|eauto]. intros _. apply elem_of_union in Hin. tauto.
        * split; [by intros []|]. intros H. exfalso. apply Hin, elem_of_union. tauto.
      + intros id Hid%HK'. destruct (decide (id ∈ E)); [by left|right]. destruct (tet_get m id) eqn:Et; [|done]. exfalso. apply (O4 id); [|done].
        apply HO. split; [eauto|done].
      + intros id t Ht Hid. assert (id ∈ O) as Hin by (apply HO; eauto). exists (F' id). rewrite (mv_in _ _ _ _ Mv') by by apply elem_of_union_l.
        split; [done|]. assert (t = F id) as ->. { rewrite (mvH id) in Ht. destruct (decide _); congruence. } by apply O11.
      + intros w e Hw HwE He. assert (vd O w) as HwO by by apply HvdO. assert (vd Lm w) as HwL by by apply (mv_valid _ _ _ _ mvH).
        rewrite (mv_undir _ _ _ _ mvH) in He by apply HwL. injection He as <-. assert (w_tet w ∈ O ∪ K') as Hin by apply elem_of_union_l, HwO.
        pose proof (O17 w HwO) as Hq. unfold w_edge_locked. rewrite (mv_undir _ _ _ _ Mv'), (mv_undir _ _ _ _ mvH), O12 by (done || apply HwL).
        split; [done|]. cbn [mbind option_bind]. rewrite O6. destruct (Ed' (uv F w)), (im_get (m_edges m) (uv F w)); try done. cbn in *. congruence.
      + intros e ue' He. rewrite O6 in He. destruct (O18 e ue' He) as [(a & Ha & ->)|(w & Hw & <-)].
        * right. exists a. split; [|done]. apply corner_bw, O19. apply elem_of_list_fmap. by exists (a, e).
        * left. pose proof (O17 w Hw) as Hq. rewrite He in Hq. destruct (im_get (m_edges m) (uv F w)) as [ue|] eqn:Eu; [|done]. exists w, ue.
          apply HvdO in Hw as [Hw1 Hw2]. split; [done|]. split; [done|]. cbn in Hq. rewrite (mv_undir _ _ _ _ mvH) by (by apply (mv_valid _ _ _ _ mvH) in Hw1 as [? _]).
          split; [done|]. split; [done|]. injection Hq as ? ?. done.
      + intros a Ha%corner_bw%O19. apply elem_of_list_fmap in Ha as ([a' e] & -> & Ha). exists e, (uedge_new (a', v)). rewrite O6. by rewrite (O20 a' e Ha).
      + intros t. unfold locked_tri. split.
        * intros (z & Hz & Et & Hlz). destruct (Htr' z Hz) as [Q1 Q2]. rewrite Q1 in Et. rewrite Q2 in Hlz. injection Et as <-. injection Hlz as Hlz.
          apply (mv_valid _ _ _ _ Mv') in Hz. destruct (O14 z Hz Hlz) as (w & Hw & Hc & Ew & Hlw). apply (mv_valid _ _ _ _ mvH) in Hw. exists w.
          destruct (Htr w Hw) as [-> ->]. rewrite Ew, Hlw. split; [done|]. split; [done|]. split; [done|]. by apply Hti.
        * intros (w & Hw & Et & Hlw & Hc). destruct (Htr w Hw) as [Q1 Q2]. rewrite Q1 in Et. rewrite Q2 in Hlw. injection Et as <-. injection Hlw as Hlw.
          apply Hti in Hc; [|done]. apply (mv_valid _ _ _ _ mvH) in Hw. destruct (O15 w Hw Hc Hlw) as (z & Hz & Ez & Hlz). apply (mv_valid _ _ _ _ Mv') in Hz. exists z.
          destruct (Htr' z Hz) as [-> ->]. rewrite Ez, Hlz. done.
      + intros x. rewrite O7. destruct (O8 x) as [g ->]. by destruct (im_get (m_verts m) x).
      + destruct O9 as (? & ? & ? & ?). done.
      + destruct O9 as (? & ? & ? & ?), O10. done.
  Qed.
End ok.
