(** The boundary of a set of tets: its triangles meet in pairs, and separate the tets of an edge and
    of a vertex. *)
From stdpp Require Import base numbers list gmap option relations.
From Coq Require Import NArith ZArith ZifyN ZifyNat ZifyBool Lia.
From Verif Require Import IdMapModel WalkerModel WalkerSpec WalkerProofs SortProofs UtilSpec UtilProofs
  MeshModel WalkerMore MeshOps MeshSpec MeshViews Surgery MeshLink MeshRun FlipBase IterProofs CavSpec InsTopo InsOwn InsSpokes.
Local Open Scope nat_scope.

Section cross.
  Context {T : Type}.
  Implicit Types (w u r x y z : walker).
  Context (O K : gset N) (F : N → tet T) (Hok : vok (O ∪ K) F) (HD : O ## K).
  Notation bw := (bw O K F).
  Notation mate := (mate O K F).

  Lemma cr_nd z : vd (O ∪ K) z → q0 (vv F z) ≠ q1 (vv F z).
  Proof.
    intros Hz E. pose proof (vv_nodup F z (proj2 Hz) (vo_nodup _ _ Hok _ (proj1 Hz))) as Hnd. unfold list4 in Hnd. rewrite E in Hnd.
    apply NoDup_cons in Hnd as [Hnd _]. apply Hnd. by left.
  Qed.
  Lemma cr_rn x : vd (O ∪ K) x → vd (O ∪ K) (rn F x) ∧ pair2 (vv F (rn F x)) = pair2 (vv F x) ∧ av F (rn F x) = to_twin_edge x.
  Proof.
    intros Hx. destruct (vo_adj _ _ Hok (to_twin_edge x)) as [H1 (H2 & H3 & _)]; [by apply vd_twin|]. split; [done|]. split.
    - unfold rn, pair2. rewrite H2, H3. by rewrite vv_twin by apply Hx.
    - apply (av_av _ _ _ Hok). by apply vd_twin.
  Qed.
  Lemma cr_tw x : vd (O ∪ K) x → q0 (vv F (to_twin_edge x)) = q1 (vv F x) ∧ q1 (vv F (to_twin_edge x)) = q0 (vv F x) ∧ to_twin_edge (to_twin_edge x) = x.
  Proof. intros Hx. rewrite vv_twin by apply Hx. split; [done|]. split; [done|]. apply walker_laws, Hx. Qed.
  Lemma cr_bw u : bw u → vd (O ∪ K) u.
  Proof. intros [[H ?] _]. split; [by apply elem_of_union_r|done]. Qed.
  (** Leaving [K] around an edge. *)
  Lemma cr_leave x : vd (O ∪ K) x → w_tet x ∈ K → w_tet (rn F x) ∉ K → bw (to_twin_edge x).
  Proof.
    intros Hx HK Hn. destruct (cr_rn x Hx) as ([[H|H]%elem_of_union _] & _ & _); [|done].
    split; [|exact H]. apply vd_twin. split; [done|apply Hx].
  Qed.
  Lemma cr_enter x : vd (O ∪ K) x → w_tet x ∉ K → w_tet (rn F x) ∈ K → bw (rn F x).
  Proof.
    intros Hx HK Hn. destruct (cr_rn x Hx) as (H1 & _ & E). split; [split; [done|apply H1]|]. rewrite E. cbn.
    destruct Hx as [[H|H]%elem_of_union _]; done.
  Qed.

  Lemma mate_ex u : bw u → ∃ u', mate u u'.
  Proof.
    intros Hu. pose proof (cr_bw u Hu) as Hv. destruct (view_ring (O ∪ K) F u Hok Hv) as (l & Hr & _ & Hl).
    destruct (decide (Exists (λ x, w_tet x ∈ K ∧ w_tet (rn F x) ∉ K) l)) as [He|Hn].
    - apply Exists_exists in He as (x & Hx & H1 & H2). apply Hl in Hx as [Hx E]. exists (to_twin_edge x).
      split; [done|]. split; [by apply cr_leave|]. injection E as E1 E2. destruct (cr_tw x Hx) as (-> & -> & _). done.
    - exfalso. rewrite <- Forall_Exists_neg in Hn. rewrite list.Forall_forall in Hn. destruct Hr as (R0 & R1 & _).
      assert (∀ i x, l !! i = Some x → w_tet x ∈ K) as Hall.
      { induction i as [|i IH]; intros x Hi.
        - rewrite R0 in Hi. injection Hi as <-. apply Hu.
        - destruct (lookup_lt_is_Some_2 l i) as (y & Hy); [apply lookup_lt_Some in Hi; lia|]. specialize (IH y Hy).
          pose proof (R1 i y Hy) as E. rewrite Hi in E. cbn in E. injection E as <-.
          destruct (decide (w_tet (rn F y) ∈ K)) as [|Hy']; [done|]. exfalso. apply (Hn y); [apply elem_of_list_lookup; eauto|done]. }
      pose proof (lookup_lt_Some _ _ _ R0) as Hlen. destruct (lookup_lt_is_Some_2 l (length l - 1)) as (x & Hx); [lia|].
      pose proof (R1 _ _ Hx) as E. replace (S (length l - 1)) with (length l) in E by lia. rewrite lookup_ge_None_2 in E by done. cbn in E. injection E as E.
      assert (vd (O ∪ K) x) as Hxv by (apply Hl, elem_of_list_lookup; eauto).
      destruct (cr_rn x Hxv) as (_ & _ & E'). rewrite E in E'. pose proof (proj2 Hu) as Ho. rewrite E' in Ho. cbn in Ho.
      pose proof (Hall _ _ Hx). set_solver.
  Qed.

  (** Between tets of both kinds at the same edge there is a boundary triangle. *)
  Lemma ring_cross z x : vd (O ∪ K) z → vd (O ∪ K) x → w_tet z ∉ K → w_tet x ∈ K → pair2 (vv F z) = pair2 (vv F x) →
    ¬ ¬ ∃ u, bw u ∧ pair2 (vv F u) = pair2 (vv F x).
  Proof.
    intros Hz Hx HzK HxK E Hno. apply HzK. pose proof (vo_ring _ _ Hok x z Hx Hz (eq_sym E)) as Hs.
    apply (rtsc_inv (estep (O ∪ K) F) (λ y, (vd (O ∪ K) y ∧ pair2 (vv F y) = pair2 (vv F x)) ∧ w_tet y ∈ K) x z); [|done|done].
    intros a b [Ha ->]. destruct (cr_rn a Ha) as (H1 & H2 & H3). rewrite H2. split.
    - intros ((_ & E') & HK). split; [done|]. destruct (decide (w_tet (rn F a) ∈ K)) as [|Hn]; [done|]. exfalso. apply Hno.
      destruct (mate_ex _ (cr_leave a Ha HK Hn)) as (u & _ & Hu & Q1 & Q2). exists u. split; [done|]. rewrite <- E'. unfold pair2.
      destruct (cr_tw a Ha) as (Q3 & Q4 & _). congruence.
    - intros ((_ & E') & HK). split; [done|]. destruct (decide (w_tet a ∈ K)) as [|Hn]; [done|]. exfalso. apply Hno.
      exists (rn F a). split; [by apply cr_enter|]. congruence.
  Qed.
  (** The same at a vertex. *)
  Lemma star_cross z x : vd (O ∪ K) z → vd (O ∪ K) x → w_tet z ∉ K → w_tet x ∈ K → q0 (vv F z) = q0 (vv F x) →
    ¬ ¬ ∃ u, bw u ∧ q0 (vv F u) = q0 (vv F x).
  Proof.
    intros Hz Hx HzK HxK E Hno. apply HzK. pose proof (vo_star _ _ Hok x z Hx Hz (eq_sym E)) as Hs.
    apply (rtsc_inv (vstep (O ∪ K) F) (λ y, (vd (O ∪ K) y ∧ q0 (vv F y) = q0 (vv F x)) ∧ w_tet y ∈ K) x z); [|done|done].
    intros a b [Ha Hb]. destruct Hb as [->| ->].
    - assert (vd (O ∪ K) (to_nve a)) as H1 by by apply vd_nve. assert (q0 (vv F (to_nve a)) = q0 (vv F a)) as H2 by (by rewrite vv_nve by apply Ha).
      rewrite H2. change (w_tet (to_nve a)) with (w_tet a). tauto.
    - destruct (vo_adj _ _ Hok a Ha) as [H1 (T1 & T2 & _)]. pose proof (av_av _ _ _ Hok Ha) as H3.
      assert (q0 (vv F (to_nfe (av F a))) = q0 (vv F a)) as H2 by (rewrite vv_nfe by apply H1; done).
      assert (vd (O ∪ K) (to_nfe (av F a))) as H4 by by apply vd_nfe. rewrite H2. change (w_tet (to_nfe (av F a))) with (w_tet (av F a)). split.
      + intros ((_ & E') & HK). split; [done|]. destruct (decide (w_tet (av F a) ∈ K)) as [|Hn]; [done|]. exfalso. apply Hno.
        exists a. split; [|done]. split; [split; [done|apply Ha]|]. destruct H1 as [[H|H]%elem_of_union _]; done.
      + intros ((_ & E') & HK). split; [done|]. destruct (decide (w_tet a ∈ K)) as [|Hn]; [done|]. exfalso. apply Hno.
        exists (to_nfe (av F a)). split; [|congruence]. apply bw_nfe. split; [split; [done|apply H1]|]. rewrite H3.
        destruct Ha as [[H|H]%elem_of_union _]; done.
  Qed.

  (** Boundary walkers and their list. *)
  Lemma same_side_dart u w : w_edge u < 12 → w_edge w < 12 → side u = side w → u = w ∨ u = to_nfe w ∨ u = to_pfe w.
  Proof.
    destruct u as [t e], w as [t' e']. unfold side. cbn [w_edge w_tet]. intros He He' [= -> E]. revert E.
    case12 e He; case12 e' He'; cbn; intros E; try done; auto.
  Qed.
  Lemma dart_bw B u : (∀ w, w ∈ B → bw w) → (∀ u, bw u → side u ∈ side <$> B) → u ∈ darts B ↔ bw u.
  Proof.
    intros H1 H2. rewrite elem_darts. split.
    - intros (w & Hw & [->|[->| ->]]); [by apply H1|by apply bw_nfe, H1|by apply bw_pfe, H1].
    - intros Hu. pose proof (H2 u Hu) as Hs. apply elem_of_list_fmap in Hs as (w & E & Hw). exists w. split; [done|].
      apply same_side_dart; [apply Hu|by apply H1|done].
  Qed.
  Lemma bw_dec u : Decision (bw u).
  Proof. unfold InsTopo.bw, vd. apply _. Qed.
End cross.
