(** Replacing a set of tets by another with the same boundary keeps the mesh consistent. *)
From stdpp Require Import base numbers list gmap option relations.
From Coq Require Import NArith ZArith ZifyN ZifyNat ZifyBool Lia.
From Verif Require Import IdMapModel WalkerModel WalkerSpec WalkerProofs SortProofs MeshModel WalkerMore MeshViews.
Local Open Scope nat_scope.

Section pos.
  (** Parity facts about positions of one tet. *)
  Lemma verts_at_inj03 {X} (vs : arr4 X) e e' : e < 12 → e' < 12 → NoDup (list4 vs) →
    q0 (verts_at vs e) = q0 (verts_at vs e') → q3 (verts_at vs e) = q3 (verts_at vs e') → e = e'.
  Proof.
    intros He He' Hnd. destruct vs as [a b c d]. apply NoDup4 in Hnd. cbn in Hnd.
    destruct Hnd as (?&?&?&?&?&?).
    case12 e He; case12 e' He'; cbn; try reflexivity; intros; congruence.
  Qed.
  Lemma verts_at_no_twist (vs : arr4 N) e e' : e < 12 → e' < 12 → NoDup (list4 vs) →
    ¬ twist (verts_at vs e) (verts_at vs e').
  Proof.
    intros He He' Hnd. destruct vs as [a b c d]. apply NoDup4 in Hnd. cbn in Hnd.
    destruct Hnd as (?&?&?&?&?&?). unfold twist. intros (H6&H7&H8). revert H6 H7 H8.
    case12 e He; case12 e' He'; cbn; intros; congruence.
  Qed.
  Lemma tri3_eq (x y : arr4 N) : tri3 x = tri3 y → q0 x = q0 y ∧ q1 x = q1 y ∧ q2 x = q2 y.
  Proof. unfold tri3. intros H. split; [congruence|]. split; congruence. Qed.
  Lemma pair2_eq (x y : arr4 N) : pair2 x = pair2 y → q0 x = q0 y ∧ q1 x = q1 y.
  Proof. unfold pair2. intros H. split; congruence. Qed.
  Lemma eq_pair2 (x y : arr4 N) : q0 x = q0 y → q1 x = q1 y → pair2 x = pair2 y.
  Proof. unfold pair2. congruence. Qed.
End pos.

Section surgery.
  Context {T : Type}.
  Implicit Types (F : N → tet T) (w u r x : walker) (L K O : gset N) (A B id : N).

  (** A tet never touches itself. *)
  Lemma av_other L F w : vok L F → vd L w → w_tet (av F w) ≠ w_tet w.
  Proof.
    intros Hok Hw E. destruct (vo_adj L F Hok w Hw) as [[H1 H2] Ht].
    unfold vv in Ht. rewrite E in Ht. revert Ht. apply verts_at_no_twist; [apply Hw|done|].
    apply (vo_nodup L F Hok). apply Hw.
  Qed.

  Record surgery O K F K' F' : Prop := Surgery {
    sg_disj : O ## K;
    sg_disj' : O ## K';
    sg_vs id : id ∈ O → t_vs (F' id) = t_vs (F id);
    sg_lk id : id ∈ O → f_locked (t_flags (F' id)) = f_locked (t_flags (F id));
    sg_out w : vd O w → w_tet (av F w) ∈ O → av F' w = av F w;
    sg_bd r : vd O r → w_tet (av F r) ∈ K →
      vd K' (av F' r) ∧ twist (vv F r) (vv F' (av F' r)) ∧ lv F' (av F' r) = lv F r;
    sg_nodup id : id ∈ K' → NoDup (list4 (t_vs (F' id)));
    sg_in u : vd K' u →
      (vd K' (av F' u) ∧ twist (vv F' u) (vv F' (av F' u)) ∧ lv F' (av F' u) = lv F' u ∧
       ∀ w, vd O w → tri3 (vv F w) ≠ tri3 (vv F' u)) ∨
      (vd O (av F' u) ∧ w_tet (av F (av F' u)) ∈ K ∧ av F' (av F' u) = u);
    sg_nbr A B : A ∈ K' → B ∈ K' → A ≠ B →
      ∃ x, w_tet x = A ∧ w_edge x < 12 ∧ w_tet (av F' x) = B ∧
           q3 (vv F' x) ∉ list4 (t_vs (F' B));
    sg_N id a b : id ∈ K' → a ∈ list4 (t_vs (F' id)) → b ∈ list4 (t_vs (F' id)) → a ≠ b →
      (∃ id0, id0 ∈ K ∧ a ∈ list4 (t_vs (F id0)) ∧ b ∈ list4 (t_vs (F id0))) ∨
      (∀ id1, id1 ∈ O → a ∈ list4 (t_vs (F id1)) → b ∈ list4 (t_vs (F id1)) → False);
    sg_X id a b : id ∈ K → a ∈ list4 (t_vs (F id)) → b ∈ list4 (t_vs (F id)) → a ≠ b →
      (∃ id0, id0 ∈ K' ∧ a ∈ list4 (t_vs (F' id0)) ∧ b ∈ list4 (t_vs (F' id0))) ∨
      (∀ id1, id1 ∈ O → a ∈ list4 (t_vs (F id1)) → b ∈ list4 (t_vs (F id1)) → False);
    sg_Nv id a : id ∈ K' → a ∈ list4 (t_vs (F' id)) →
      (∃ id0, id0 ∈ K ∧ a ∈ list4 (t_vs (F id0))) ∨
      (∀ id1, id1 ∈ O → a ∈ list4 (t_vs (F id1)) → False);
    sg_Xv id a : id ∈ K → a ∈ list4 (t_vs (F id)) →
      (∃ id0, id0 ∈ K' ∧ a ∈ list4 (t_vs (F' id0))) ∨
      (∀ id1, id1 ∈ O → a ∈ list4 (t_vs (F id1)) → False)
  }.

  Section proof.
    Context (O K K' : gset N) (F F' : N → tet T).
    Context (Hok : vok (O ∪ K) F) (Hs : surgery O K F K' F').

    Local Lemma vdO w : vd O w → vd (O ∪ K) w.
    Proof. intros [??]; split; set_solver. Qed.
    Local Lemma vdK w : vd K w → vd (O ∪ K) w.
    Proof. intros [??]; split; set_solver. Qed.
    Local Lemma vdO' w : vd O w → vd (O ∪ K') w.
    Proof. intros [??]; split; set_solver. Qed.
    Local Lemma vdK' w : vd K' w → vd (O ∪ K') w.
    Proof. intros [??]; split; set_solver. Qed.
    Local Lemma vd_cases w : vd (O ∪ K) w → vd O w ∨ vd K w.
    Proof. intros [[?|?]%elem_of_union ?]; [left|right]; done. Qed.
    Local Lemma vd_cases' w : vd (O ∪ K') w → vd O w ∨ vd K' w.
    Proof. intros [[?|?]%elem_of_union ?]; [left|right]; done. Qed.

    Local Lemma vvO w : w_tet w ∈ O → vv F' w = vv F w.
    Proof. intros H. unfold vv. by rewrite (sg_vs _ _ _ _ _ Hs). Qed.
    Local Lemma lvO w : w_tet w ∈ O → lv F' w = lv F w.
    Proof. intros H. unfold lv. by rewrite (sg_lk _ _ _ _ _ Hs). Qed.

    Local Lemma new_nodup id : id ∈ O ∪ K' → NoDup (list4 (t_vs (F' id))).
    Proof.
      intros [H|H]%elem_of_union.
      - rewrite (sg_vs _ _ _ _ _ Hs) by done. apply (vo_nodup _ _ Hok). set_solver.
      - by apply (sg_nodup _ _ _ _ _ Hs).
    Qed.

    Local Lemma new_adj_O w : vd O w →
      vd (O ∪ K') (av F' w) ∧ twist (vv F' w) (vv F' (av F' w)) ∧ lv F' (av F' w) = lv F' w.
    Proof.
      intros Hw. destruct (vo_adj _ _ Hok w (vdO w Hw)) as [H1 H2].
      rewrite (vvO w) by apply Hw. rewrite (lvO w) by apply Hw.
      destruct (vd_cases _ H1) as [H3|H3].
      - rewrite (sg_out _ _ _ _ _ Hs) by (done || apply H3).
        rewrite vvO, lvO by apply H3. split; [by apply vdO'|]. split; [done|].
        apply (vo_lock _ _ Hok). by apply vdO.
      - destruct (sg_bd _ _ _ _ _ Hs w Hw) as (H4 & H5 & H6); [apply H3|].
        split; [by apply vdK'|done].
    Qed.

    Local Lemma new_adj w : vd (O ∪ K') w →
      vd (O ∪ K') (av F' w) ∧ twist (vv F' w) (vv F' (av F' w)) ∧ lv F' (av F' w) = lv F' w.
    Proof.
      intros Hw. destruct (vd_cases' _ Hw) as [H|H]; [by apply new_adj_O|].
      destruct (sg_in _ _ _ _ _ Hs w H) as [(H1 & H2 & H3 & H4)|(H1 & H2 & H3)].
      - split; [by apply vdK'|done].
      - split; [by apply vdO'|].
        destruct (sg_bd _ _ _ _ _ Hs _ H1 H2) as (H4 & H5 & H6). rewrite H3 in *.
        rewrite (vvO (av F' w)), (lvO (av F' w)) by apply H1. split; [by apply twist_sym|done].
    Qed.

    Local Lemma new_uniq w w' : vd (O ∪ K') w → vd (O ∪ K') w' →
      tri3 (vv F' w) = tri3 (vv F' w') → w = w'.
    Proof.
      assert (∀ u w, vd K' u → vd O w → tri3 (vv F' w) ≠ tri3 (vv F' u)) as HKO.
      { intros u w0 Hu Hw0. rewrite (vvO w0) by apply Hw0. intros E.
        destruct (sg_in _ _ _ _ _ Hs u Hu) as [(H1 & H2 & H3 & H4)|(H1 & H2 & H3)].
        - by apply (H4 w0).
        - destruct (sg_bd _ _ _ _ _ Hs _ H1 H2) as (H4 & H5 & H6). rewrite H3 in *.
          destruct (vo_adj _ _ Hok _ (vdO _ H1)) as [H7 H8].
          assert (av F (av F' u) = w0) as E2.
          { apply (vo_uniq _ _ Hok); [done|by apply vdO|]. rewrite E. eapply twist_tri; eauto. }
          rewrite E2 in H2. destruct Hw0 as [Hw0 _]. pose proof (sg_disj _ _ _ _ _ Hs). set_solver. }
      intros Hw Hw' E.
      destruct (vd_cases' _ Hw) as [H|H], (vd_cases' _ Hw') as [H'|H'].
      - rewrite !vvO in E by (apply H || apply H').
        apply (vo_uniq _ _ Hok); by try apply vdO.
      - exfalso. by apply (HKO w' w).
      - exfalso. by apply (HKO w w').
      - destruct (decide (w_tet w = w_tet w')) as [Et|Hne].
        { apply (vv_inj F'); [apply H|apply H'|done|apply new_nodup, Hw|].
          unfold tri3, pair2 in *. congruence. }
        exfalso.
        destruct (sg_nbr _ _ _ _ _ Hs (w_tet w) (w_tet w')) as (x & Hx1 & Hx2 & Hx3 & Hx4);
          [apply H|apply H'|done|].
        assert (Hndw : NoDup (list4 (t_vs (F' (w_tet w))))) by apply new_nodup, Hw.
        assert (Hndw' : NoDup (list4 (t_vs (F' (w_tet w'))))) by apply new_nodup, Hw'.
        (* rotate x so that it starts where w starts *)
        assert (∃ y, w_tet y = w_tet w ∧ w_edge y < 12 ∧ w_tet (av F' y) = w_tet w' ∧
                     q3 (vv F' y) ∉ list4 (t_vs (F' (w_tet w'))) ∧ q0 (vv F' y) = q0 (vv F' w) ∧
                     twist (vv F' y) (vv F' (av F' y)) ∧ w_edge (av F' y) < 12) as Hy.
        { assert (q0 (vv F' w) ∈ list4 (vv F' x)) as Hin.
          { rewrite vv_elem by done. rewrite Hx1. rewrite <- (vv_elem F' w) by apply H.
            unfold list4. apply elem_of_cons. by left. }
          assert (Hq : q0 (vv F' w) ≠ q3 (vv F' x)).
          { intros Eq. rewrite <- Eq in Hx4. apply Hx4. rewrite <- (vv_elem F' w') by apply H'.
            apply tri3_eq in E as (-> & _ & _). unfold list4. apply elem_of_cons. by left. }
          assert (oppok F' (w_tet x)) as Hop.
          { apply oppok_canon. intros i Hi. apply (new_adj (Walker (w_tet x) i)).
            split; [rewrite Hx1; apply Hw|cbn; lia]. }
          assert (vd (O ∪ K') x) as Hvx by (split; [rewrite Hx1; apply Hw|done]).
          destruct (new_adj x Hvx) as ([Hax1 Hax2] & Htx & _).
          unfold list4 in Hin. rewrite !elem_of_cons, elem_of_nil in Hin.
          destruct Hin as [Hin|[Hin|[Hin|[Hin|[]]]]]; [| | |done].
          - exists x. done.
          - exists (to_nfe x). rewrite av_nfe by done. rewrite (vv_nfe _ x) by done. cbn [q0 q3].
            split; [done|]. split; [apply to_nfe_ok|]. split; [done|]. split; [done|].
            split; [done|]. split; [|apply to_pfe_ok].
            rewrite <- vv_nfe by done. by apply twist_nfe.
          - exists (to_pfe x). rewrite av_pfe by done. rewrite (vv_pfe _ x) by done. cbn [q0 q3].
            split; [done|]. split; [apply to_pfe_ok|]. split; [done|]. split; [done|].
            split; [done|]. split; [|apply to_nfe_ok].
            rewrite <- vv_pfe by done. by apply twist_pfe. }
        destruct Hy as (y & Hy1 & Hy2 & Hy3 & Hy4 & Hy5 & Hy6 & Hy7).
        assert (q3 (vv F' w) = q3 (vv F' y)) as E3.
        { assert (q3 (vv F' y) ∈ list4 (vv F' w)) as Hin.
          { rewrite vv_elem by apply H. rewrite <- Hy1, <- (vv_elem F' y) by done.
            unfold list4. rewrite !elem_of_cons. tauto. }
          unfold list4 in Hin. rewrite !elem_of_cons, elem_of_nil in Hin.
          apply tri3_eq in E as (E0 & E1 & E2).
          assert (∀ z, z ∈ list4 (vv F' w') → q3 (vv F' y) ≠ z) as Hz.
          { intros z Hz Ez. apply Hy4. rewrite Ez. by rewrite <- (vv_elem F' w') by apply H'. }
          destruct Hin as [Hin|[Hin|[Hin|[Hin|[]]]]]; [exfalso; revert Hin; apply Hz..|done].
          - rewrite E0. unfold list4. rewrite !elem_of_cons. tauto.
          - rewrite E1. unfold list4. rewrite !elem_of_cons. tauto.
          - rewrite E2. unfold list4. rewrite !elem_of_cons. tauto. }
        assert (y = w) as ->.
        { destruct y as [ty ey], w as [tw ew]. cbn in Hy1. subst ty. f_equal.
          apply (verts_at_inj03 (t_vs (F' tw))); [done|apply H|done| |].
          - exact Hy5.
          - symmetry. exact E3. }
        assert (twist (vv F' w') (vv F' (av F' w))) as Htw.
        { apply tri3_eq in E as (E0 & E1 & E2). unfold twist in *. rewrite <- E0, <- E1, <- E2. done. }
        destruct (av F' w) as [ta ea], w' as [tw' ew']. cbn in Hy3, Hy7. subst ta.
        unfold vv in Htw. cbn in Htw. revert Htw. apply verts_at_no_twist; [apply H'|done|done].
    Qed.

    Local Lemma new_avav w : vd (O ∪ K') w → av F' (av F' w) = w.
    Proof.
      intros Hw. destruct (new_adj w Hw) as (H1 & T1 & _).
      destruct (new_adj _ H1) as (H2 & T2 & _).
      apply new_uniq; [done..|]. eapply twist_tri; [exact T2|by apply twist_sym].
    Qed.

    Local Lemma rn_pair w : vd (O ∪ K') w → vd (O ∪ K') (rn F' w) ∧ pair2 (vv F' (rn F' w)) = pair2 (vv F' w).
    Proof.
      intros Hw. destruct (new_adj _ (vd_twin _ _ Hw)) as (H1 & T1 & _). split; [done|].
      unfold rn. rewrite vv_twin in T1 by apply Hw. destruct T1 as (E1 & E2 & _). cbn in E1, E2.
      unfold pair2. congruence.
    Qed.

    Local Lemma nbr_rot u x (a : N) :
      w_tet x = w_tet u → vd (O ∪ K') x → a ∈ list4 (vv F' x) → a ≠ q3 (vv F' x) →
      ∃ y, w_tet y = w_tet x ∧ vd (O ∪ K') y ∧ w_tet (av F' y) = w_tet (av F' x) ∧ q0 (vv F' y) = a ∧
           q3 (vv F' y) = q3 (vv F' x).
    Proof.
      intros Ht Hx Ha Hne.
      assert (oppok F' (w_tet x)) as Hop.
      { apply oppok_canon. intros i Hi. apply (new_adj (Walker (w_tet x) i)).
        split; [apply Hx|cbn; lia]. }
      unfold list4 in Ha. rewrite !elem_of_cons, elem_of_nil in Ha.
      destruct Ha as [->|[->|[->|[->|[]]]]]; [| | |done].
      - exists x. done.
      - exists (to_nfe x). rewrite av_nfe by (done || apply Hx). rewrite vv_nfe by apply Hx.
        split; [done|]. split; [by apply vd_nfe|]. done.
      - exists (to_pfe x). rewrite av_pfe by (done || apply Hx). rewrite vv_pfe by apply Hx.
        split; [done|]. split; [by apply vd_pfe|]. done.
    Qed.

    (** Inside the new part, tets around an edge or a vertex are directly connected. *)
    Local Lemma new_ring_K u u' : vd K' u → vd K' u' → pair2 (vv F' u) = pair2 (vv F' u') →
      rtsc (estep (O ∪ K') F') u u'.
    Proof.
      intros Hu Hu' E.
      assert (vd (O ∪ K') u) as Hvu by by apply vdK'.
      assert (vd (O ∪ K') u') as Hvu' by by apply vdK'.
      destruct (decide (w_tet u = w_tet u')) as [Et|Hne].
      { replace u' with u; [apply rtc_refl|]. apply (vv_inj F'); [apply Hu|apply Hu'|done|apply new_nodup, Hvu|done]. }
      destruct (sg_nbr _ _ _ _ _ Hs (w_tet u) (w_tet u')) as (x & Hx1 & Hx2 & Hx3 & Hx4);
          [apply Hu|apply Hu'|done|].
      assert (vd (O ∪ K') x) as Hvx by (split; [rewrite Hx1; apply Hvu|done]).
      pose proof (vv_nodup F' u (proj2 Hu) (new_nodup _ (proj1 Hvu))) as Hnd.
      apply pair2_eq in E as [E0 E1].
      assert (∀ a, a ∈ list4 (vv F' u) → a ∈ list4 (vv F' u') → a ∈ list4 (vv F' x) ∧ a ≠ q3 (vv F' x)) as Hin.
      { intros a H1 H2. split.
        - rewrite vv_elem in H1 |- * by (done || apply Hu). by rewrite Hx1.
        - intros ->. apply Hx4. by rewrite <- vv_elem by apply Hu'. }
      destruct (Hin (q0 (vv F' u))) as [A1 A2].
      { unfold list4. rewrite !elem_of_cons; tauto. }
      { rewrite E0. unfold list4. rewrite !elem_of_cons; tauto. }
      destruct (Hin (q1 (vv F' u))) as [B1 B2].
      { unfold list4. rewrite !elem_of_cons; tauto. }
      { rewrite E1. unfold list4. rewrite !elem_of_cons; tauto. }
      destruct (nbr_rot u x (q0 (vv F' u)) Hx1 Hvx A1 A2) as (y & Hy1 & Hy2 & Hy3 & Hy4 & Hy5).
      assert (q1 (vv F' u) = q1 (vv F' y) ∨ q1 (vv F' u) = q2 (vv F' y)) as Hy6.
      { rewrite vv_elem in B1 by done. rewrite <- Hy1, <- (vv_elem F' y) in B1 by apply Hy2.
        unfold list4 in B1. rewrite !elem_of_cons, elem_of_nil in B1.
        unfold list4 in Hnd. apply NoDup4 in Hnd.
        destruct Hnd as (N1&_). destruct B1 as [B1|[B1|[B1|[B1|[]]]]]; try tauto; exfalso; congruence. }
      destruct Hy6 as [Hy6|Hy6].
      - (* y = u: u' steps to u *)
        assert (y = u) as ->.
        { apply (vv_inj F'); [apply Hy2|apply Hu|congruence|apply new_nodup, Hy2|].
          unfold pair2; congruence. }
        destruct (new_adj u Hvu) as (Ha1 & Ha2 & _).
        assert (to_twin_edge (av F' u) = u') as E2.
        { apply (vv_inj F'); [apply to_twin_edge_ok, Ha1|apply Hu'|cbn; congruence
                             |apply new_nodup; exact (proj1 Ha1)|].
          rewrite vv_twin by apply Ha1. destruct Ha2 as (T1 & T2 & _). unfold pair2. cbn. congruence. }
        apply rtc_once. right. split; [done|]. unfold rn. rewrite <- E2, twin_twin by apply Ha1.
        symmetry. by apply new_avav.
      - (* nfe (nfe y) = (q1 u?) : pfe y starts q2 y = q1 u and goes to q0 y *)
        assert (to_pfe y = to_twin_edge u) as E2.
        { apply (vv_inj F'); [apply to_pfe_ok|apply to_twin_edge_ok, Hu|cbn; congruence
             |apply new_nodup; exact (proj1 Hy2)|].
          rewrite vv_pfe, vv_twin by (apply Hy2 || apply Hu). unfold pair2; cbn; congruence. }
        destruct (rn_pair u Hvu) as [Hr1 Hr2].
        apply rtc_once. left. split; [done|]. symmetry.
        apply (vv_inj F'); [apply Hr1|apply Hu'| |apply new_nodup, Hr1|].
        + unfold rn. rewrite <- E2.
          rewrite av_pfe; [|apply Hy2|].
          * cbn. congruence.
          * apply oppok_canon. intros i Hi. apply (new_adj (Walker (w_tet y) i)).
            split; [apply Hy2|cbn; lia].
        + rewrite Hr2. unfold pair2; congruence.
    Qed.

    Local Lemma star_tet u u' : vd (O ∪ K') u → vd (O ∪ K') u' → w_tet u = w_tet u' →
      q0 (vv F' u) = q0 (vv F' u') → rtsc (vstep (O ∪ K') F') u u'.
    Proof.
      intros Hu Hu' Et E0.
      pose proof (new_nodup _ (proj1 Hu)) as Hnd.
      assert (u' = u ∨ u' = to_nve u ∨ u' = to_nve (to_nve u)) as [-> | [-> | -> ]].
      { destruct u as [t e], u' as [t' e']. cbn in Et. subst t'. destruct Hu as [_ He], Hu' as [_ He'].
        cbn in He, He', Hnd. unfold vv in E0; cbn in E0. revert E0 Hnd.
        destruct (t_vs (F' t)) as [a b c d]. intros E0 Hnd. apply NoDup4 in Hnd. cbn in Hnd.
        destruct Hnd as (?&?&?&?&?&?).
        revert E0. case12 e He; case12 e' He'; cbn; intros; tauto || congruence. }
      - apply rtc_refl.
      - apply rtc_once. left. split; [done|]. by left.
      - eapply rtc_l; [left; split; [done|left; done]|].
        apply rtc_once. left. split; [by apply vd_nve|]. by left.
    Qed.

    Local Lemma new_star_K u u' : vd K' u → vd K' u' → q0 (vv F' u) = q0 (vv F' u') →
      rtsc (vstep (O ∪ K') F') u u'.
    Proof.
      intros Hu Hu' E0.
      assert (vd (O ∪ K') u) as Hvu by by apply vdK'.
      assert (vd (O ∪ K') u') as Hvu' by by apply vdK'.
      destruct (decide (w_tet u = w_tet u')) as [Et|Hne]; [by apply star_tet|].
      destruct (sg_nbr _ _ _ _ _ Hs (w_tet u) (w_tet u')) as (x & Hx1 & Hx2 & Hx3 & Hx4);
          [apply Hu|apply Hu'|done|].
      assert (vd (O ∪ K') x) as Hvx by (split; [rewrite Hx1; apply Hvu|done]).
      assert (q0 (vv F' u) ∈ list4 (vv F' x)) as A1.
      { rewrite vv_elem by done. rewrite Hx1, <- vv_elem by apply Hu.
        unfold list4. rewrite !elem_of_cons; tauto. }
      assert (q0 (vv F' u) ≠ q3 (vv F' x)) as A2.
      { intros E. apply Hx4. rewrite <- E, E0, <- vv_elem by apply Hu'.
        unfold list4. rewrite !elem_of_cons; tauto. }
      destruct (nbr_rot u x (q0 (vv F' u)) Hx1 Hvx A1 A2) as (y & Hy1 & Hy2 & Hy3 & Hy4 & Hy5).
      destruct (new_adj y Hy2) as (Ha1 & Ha2 & _).
      etrans; [apply (star_tet u y); [done|done|congruence|done]|].
      eapply rtc_l; [left; split; [done|right; done]|].
      apply star_tet; [by apply vd_nfe|done|cbn; congruence|].
      rewrite vv_nfe by apply Ha1. cbn. destruct Ha2 as (T1 & T2 & T3). congruence.
    Qed.

    (** Correspondence between old and new walkers. *)
    Local Definition corr {X} (κ : arr4 N → X) (w u : walker) : Prop :=
      (vd O w ∧ u = w) ∨ (vd K w ∧ vd K' u ∧ κ (vv F' u) = κ (vv F w)).

    Local Lemma new_ring w w' : vd (O ∪ K') w → vd (O ∪ K') w' →
      pair2 (vv F' w) = pair2 (vv F' w') → rtsc (estep (O ∪ K') F') w w'.
    Proof.
      assert (∀ w1 w2 u1, vd (O ∪ K) w1 → estep (O ∪ K) F w1 w2 → corr pair2 w1 u1 →
                ∃ u2, corr pair2 w2 u2 ∧ rtsc (estep (O ∪ K') F') u1 u2) as Hfwd.
      { intros w1 w2 u1 _ [Hv1 ->] Hc.
        destruct (vo_adj _ _ Hok _ (vd_twin _ _ Hv1)) as [Ha1 Ha2]. fold (rn F w1) in Ha1, Ha2.
        rewrite vv_twin in Ha2 by apply Hv1. destruct Ha2 as (T1 & T2 & T3). cbn in T1, T2, T3.
        destruct Hc as [[HO ->]|(HK & HK' & Ep)].
        - destruct (vd_cases _ Ha1) as [Hr|Hr].
          + exists (rn F w1). split; [left; done|]. apply rtc_once. left. split; [by apply vdO'|].
            unfold rn. symmetry. apply (sg_out _ _ _ _ _ Hs); [by apply vd_twin|apply Hr].
          + destruct (sg_bd _ _ _ _ _ Hs (to_twin_edge w1)) as (B1 & B2 & B3);
              [by apply vd_twin|apply Hr|].
            exists (rn F' w1). split.
            * right. split; [done|]. split; [done|]. rewrite vv_twin in B2 by apply HO.
              destruct B2 as (S1 & S2 & _). cbn in S1, S2. unfold pair2. unfold rn at 1 2. congruence.
            * apply rtc_once. left. split; [by apply vdO'|done].
        - destruct (vd_cases _ Ha1) as [Hr|Hr].
          + (* leaving K *)
            assert (av F (rn F w1) = to_twin_edge w1) as Eb.
            { apply (av_av _ _ _ Hok). by apply vd_twin. }
            destruct (sg_bd _ _ _ _ _ Hs (rn F w1)) as (B1 & B2 & B3);
              [done|rewrite Eb; apply HK|].
            exists (rn F w1). split; [left; done|].
            destruct B2 as (S1 & S2 & S3).
            etrans; [apply (new_ring_K u1 (to_twin_edge (av F' (rn F w1))))|].
            * done.
            * by apply vd_twin.
            * rewrite vv_twin by apply B1. rewrite Ep. unfold pair2. cbn. congruence.
            * apply rtc_once. left. split; [apply vdK'; by apply vd_twin|].
              set (r := rn F w1) in *. unfold rn. rewrite twin_twin by apply B1.
              symmetry. apply new_avav. by apply vdO'.
          + exists u1. split; [|apply rtc_refl]. right. split; [done|]. split; [done|].
            rewrite Ep. unfold pair2. congruence. }
      assert (∀ w1 w2 u2, vd (O ∪ K) w1 → estep (O ∪ K) F w1 w2 → corr pair2 w2 u2 →
                (vd K w1 → ∃ u1, corr pair2 w1 u1) →
                ∃ u1, corr pair2 w1 u1 ∧ rtsc (estep (O ∪ K') F') u2 u1) as Hbwd.
      { intros w1 w2 u2 Hv1 Hst Hc Hex.
        assert (∃ u1, corr pair2 w1 u1) as (u1 & Hc1).
        { destruct (vd_cases _ Hv1) as [H|H]; [exists w1; left; done|by apply Hex]. }
        exists u1. split; [done|].
        destruct (Hfwd w1 w2 u1 Hv1 Hst Hc1) as (u2' & Hc2' & Hr).
        etrans; [|symmetry; exact Hr].
        destruct Hc as [[HO ->]|(HK & HK' & Ep)], Hc2' as [[HO2 ->]|(HK2 & HK2' & Ep2)].
        - apply rtc_refl.
        - exfalso. destruct HO, HK2. pose proof (sg_disj _ _ _ _ _ Hs). set_solver.
        - exfalso. destruct HK, HO2. pose proof (sg_disj _ _ _ _ _ Hs). set_solver.
        - apply new_ring_K; [done..|congruence]. }
      (* walking along old connections *)
      assert (∀ w1 w2, rtsc (estep (O ∪ K) F) w1 w2 → ∀ u1, vd (O ∪ K) w1 → corr pair2 w1 u1 →
          (∃ o, vd O o ∧ pair2 (vv F o) = pair2 (vv F w1)) →
          ∃ u2, corr pair2 w2 u2 ∧ rtsc (estep (O ∪ K') F') u1 u2) as Hwalk.
      { intros w1 w2 Hr. induction Hr as [w1|w1 w2 w3 Hst Hr IH]; intros u1 Hv1 Hc Ho.
        { exists u1. split; [done|apply rtc_refl]. }
        assert (∀ x, vd (O ∪ K) x → vd (O ∪ K) (rn F x) ∧ pair2 (vv F (rn F x)) = pair2 (vv F x)) as Hrn.
        { intros x Hx. destruct (vo_adj _ _ Hok _ (vd_twin _ _ Hx)) as [H1 T1]. split; [done|].
          rewrite vv_twin in T1 by apply Hx. destruct T1 as (T1 & T2 & _). cbn in T1, T2.
          unfold pair2. unfold rn. congruence. }
        destruct Hst as [Hst|Hst].
        - destruct (Hfwd _ _ _ Hv1 Hst Hc) as (u2 & Hc2 & Hr2).
          destruct Hst as [_ ->]. destruct (Hrn w1 Hv1) as [Hv2 Ep2].
          destruct (IH u2 Hv2 Hc2) as (u3 & Hc3 & Hr3).
          { destruct Ho as (o & Ho1 & Ho2). exists o. split; [done|congruence]. }
          exists u3. split; [done|]. by etrans.
        - destruct Hst as [Hv2 E1]. subst w1. destruct (Hrn w2 Hv2) as [_ Ep2].
          assert (∃ o, vd O o ∧ pair2 (vv F o) = pair2 (vv F w2)) as Ho2.
          { destruct Ho as (o & Ho1 & Ho2). exists o. split; [done|congruence]. }
          destruct (Hbwd w2 (rn F w2) u1 Hv2 (conj Hv2 eq_refl) Hc) as (u2 & Hc2 & Hr2).
          { intros HK2. destruct Ho2 as (o & Ho1 & Ho3). apply pair2_eq in Ho3 as [P0 P1].
            pose proof (vv_nodup F w2 (proj2 HK2) (vo_nodup _ _ Hok _ (proj1 Hv2))) as Hnd.
            unfold list4 in Hnd. apply NoDup4 in Hnd.
            destruct (sg_X _ _ _ _ _ Hs (w_tet w2) (q0 (vv F w2)) (q1 (vv F w2))) as [(id0 & I1 & I2 & I3)|Hno].
            - apply HK2.
            - rewrite <- vv_elem by apply HK2. unfold list4. rewrite !elem_of_cons; tauto.
            - rewrite <- vv_elem by apply HK2. unfold list4. rewrite !elem_of_cons; tauto.
            - tauto.
            - destruct (pair_of_tet F' id0 _ _ I2 I3) as (z & Z1 & Z2 & Z3 & Z4); [tauto|].
              exists z. right. split; [done|]. split; [split; [by rewrite Z1|done]|]. unfold pair2; congruence.
            - exfalso. apply (Hno (w_tet o)); [apply Ho1| |].
              + rewrite <- P0, <- vv_elem by apply Ho1. unfold list4. rewrite !elem_of_cons; tauto.
              + rewrite <- P1, <- vv_elem by apply Ho1. unfold list4. rewrite !elem_of_cons; tauto. }
          destruct (IH u2 Hv2 Hc2 Ho2) as (u3 & Hc3 & Hr3).
          exists u3. split; [done|]. by etrans. }
      (* main argument, starting from a walker of the outer part *)
      assert (∀ o u, vd O o → vd (O ∪ K') u → pair2 (vv F' o) = pair2 (vv F' u) →
                rtsc (estep (O ∪ K') F') o u) as Hmain.
      { intros o u Ho Hu E. rewrite (vvO o) in E by apply Ho.
        assert (∃ w2, vd (O ∪ K) w2 ∧ pair2 (vv F w2) = pair2 (vv F o) ∧ corr pair2 w2 u) as (w2 & Hw2 & Ep & Hc).
        { destruct (vd_cases' _ Hu) as [HuO|HuK].
          - exists u. split; [by apply vdO|]. split; [by rewrite E, vvO by apply HuO|]. left. done.
          - apply pair2_eq in E as [P0 P1].
            pose proof (vv_nodup F' u (proj2 Hu) (new_nodup _ (proj1 Hu))) as Hnd.
            unfold list4 in Hnd. apply NoDup4 in Hnd.
            destruct (sg_N _ _ _ _ _ Hs (w_tet u) (q0 (vv F' u)) (q1 (vv F' u))) as [(id0 & I1 & I2 & I3)|Hno].
            + apply HuK.
            + rewrite <- vv_elem by apply HuK. unfold list4. rewrite !elem_of_cons; tauto.
            + rewrite <- vv_elem by apply HuK. unfold list4. rewrite !elem_of_cons; tauto.
            + tauto.
            + destruct (pair_of_tet F id0 _ _ I2 I3) as (z & Z1 & Z2 & Z3 & Z4); [tauto|].
              exists z. assert (vd K z) by (split; [by rewrite Z1|done]).
              split; [by apply vdK|]. unfold pair2. split; [congruence|].
              right. unfold pair2. split; [done|]. split; [done|]. congruence.
            + exfalso. apply (Hno (w_tet o)); [apply Ho| |].
              * rewrite <- P0, <- vv_elem by apply Ho. unfold list4. rewrite !elem_of_cons; tauto.
              * rewrite <- P1, <- vv_elem by apply Ho. unfold list4. rewrite !elem_of_cons; tauto. }
        pose proof (vo_ring _ _ Hok o w2 (vdO _ Ho) Hw2 (eq_sym Ep)) as Hr.
        destruct (Hwalk o w2 Hr o (vdO _ Ho)) as (u2 & Hc2 & Hr2).
        { left. done. }
        { exists o. done. }
        etrans; [exact Hr2|].
        destruct Hc as [[HO ->]|(HK & HK' & Ep1)], Hc2 as [[HO2 ->]|(HK2 & HK2' & Ep2)].
        - apply rtc_refl.
        - exfalso. destruct HO, HK2. pose proof (sg_disj _ _ _ _ _ Hs). set_solver.
        - exfalso. destruct HK, HO2. pose proof (sg_disj _ _ _ _ _ Hs). set_solver.
        - apply new_ring_K; [done..|congruence]. }
      intros Hw Hw' E.
      destruct (vd_cases' _ Hw) as [H|H]; [by apply Hmain|].
      destruct (vd_cases' _ Hw') as [H'|H']; [symmetry; by apply Hmain|].
      by apply new_ring_K.
    Qed.

    Local Lemma new_star w w' : vd (O ∪ K') w → vd (O ∪ K') w' →
      q0 (vv F' w) = q0 (vv F' w') → rtsc (vstep (O ∪ K') F') w w'.
    Proof.
      assert (∀ x, vd (O ∪ K) x → vd (O ∪ K) (to_nfe (av F x)) ∧ q0 (vv F (to_nfe (av F x))) = q0 (vv F x)) as Hcross.
      { intros x Hx. destruct (vo_adj _ _ Hok _ Hx) as [H1 T1]. split; [by apply vd_nfe|].
        rewrite vv_nfe by apply H1. cbn. destruct T1 as (T1 & T2 & _). done. }
      assert (∀ w1 w2 u1, vd (O ∪ K) w1 → vstep (O ∪ K) F w1 w2 → corr q0 w1 u1 →
                ∃ u2, corr q0 w2 u2 ∧ rtsc (vstep (O ∪ K') F') u1 u2) as Hfwd.
      { intros w1 w2 u1 _ [Hv1 [-> | ->]] Hc.
        { destruct Hc as [[HO ->]|(HK & HK' & Ep)].
          - exists (to_nve w1). split; [left; split; [by apply vd_nve|done]|].
            apply rtc_once. left. split; [by apply vdO'|by left].
          - exists u1. split; [|apply rtc_refl]. right. split; [by apply vd_nve|]. split; [done|].
            rewrite vv_nve by apply HK. done. }
        destruct (vo_adj _ _ Hok _ Hv1) as [Ha1 (T1 & T2 & T3)].
        destruct Hc as [[HO ->]|(HK & HK' & Ep)].
        - destruct (vd_cases _ Ha1) as [Hr|Hr].
          + exists (to_nfe (av F w1)). split; [left; split; [by apply vd_nfe|done]|].
            apply rtc_once. left. split; [by apply vdO'|]. right.
            f_equal. symmetry. apply (sg_out _ _ _ _ _ Hs); [done|apply Hr].
          + destruct (sg_bd _ _ _ _ _ Hs w1) as (B1 & (S1 & S2 & S3) & B3); [done|apply Hr|].
            exists (to_nfe (av F' w1)). split.
            * right. split; [by apply vd_nfe|]. split; [by apply vd_nfe|].
              rewrite !vv_nfe by (apply B1 || apply Ha1). cbn. congruence.
            * apply rtc_once. left. split; [by apply vdO'|by right].
        - destruct (vd_cases _ Ha1) as [Hr|Hr].
          + assert (av F (av F w1) = w1) as Eb by by apply (av_av _ _ _ Hok).
            destruct (sg_bd _ _ _ _ _ Hs (av F w1)) as (B1 & (S1 & S2 & S3) & B3);
              [done|rewrite Eb; apply HK|].
            exists (to_nfe (av F w1)). split; [left; split; [by apply vd_nfe|done]|].
            etrans; [apply (new_star_K u1 (av F' (av F w1))); [done|done|congruence]|].
            apply rtc_once. left. split; [by apply vdK'|]. right. f_equal.
            symmetry. apply new_avav. by apply vdO'.
          + exists u1. split; [|apply rtc_refl]. right. split; [by apply vd_nfe|]. split; [done|].
            destruct (Hcross w1 Hv1) as [_ E]. congruence. }
      assert (∀ w1 w2 u2, vd (O ∪ K) w1 → vstep (O ∪ K) F w1 w2 → corr q0 w2 u2 →
                (vd K w1 → ∃ u1, corr q0 w1 u1) →
                ∃ u1, corr q0 w1 u1 ∧ rtsc (vstep (O ∪ K') F') u2 u1) as Hbwd.
      { intros w1 w2 u2 Hv1 Hst Hc Hex.
        assert (∃ u1, corr q0 w1 u1) as (u1 & Hc1).
        { destruct (vd_cases _ Hv1) as [H|H]; [exists w1; left; done|by apply Hex]. }
        exists u1. split; [done|].
        destruct (Hfwd w1 w2 u1 Hv1 Hst Hc1) as (u2' & Hc2' & Hr).
        etrans; [|symmetry; exact Hr].
        destruct Hc as [[HO ->]|(HK & HK' & Ep)], Hc2' as [[HO2 ->]|(HK2 & HK2' & Ep2)].
        - apply rtc_refl.
        - exfalso. destruct HO, HK2. pose proof (sg_disj _ _ _ _ _ Hs). set_solver.
        - exfalso. destruct HK, HO2. pose proof (sg_disj _ _ _ _ _ Hs). set_solver.
        - apply new_star_K; [done..|congruence]. }
      assert (∀ w1 w2, rtsc (vstep (O ∪ K) F) w1 w2 → ∀ u1, vd (O ∪ K) w1 → corr q0 w1 u1 →
          (∃ o, vd O o ∧ q0 (vv F o) = q0 (vv F w1)) →
          ∃ u2, corr q0 w2 u2 ∧ rtsc (vstep (O ∪ K') F') u1 u2) as Hwalk.
      { intros w1 w2 Hr. induction Hr as [w1|w1 w2 w3 Hst Hr IH]; intros u1 Hv1 Hc Ho.
        { exists u1. split; [done|apply rtc_refl]. }
        assert (∀ x y, vstep (O ∪ K) F x y → vd (O ∪ K) y ∧ q0 (vv F y) = q0 (vv F x)) as Hrn.
        { intros x y [Hx [-> | ->]].
          - split; [by apply vd_nve|]. by rewrite vv_nve by apply Hx.
          - by apply Hcross. }
        destruct Hst as [Hst|Hst].
        - destruct (Hfwd _ _ _ Hv1 Hst Hc) as (u2 & Hc2 & Hr2).
          destruct (Hrn _ _ Hst) as [Hv2 Ep2].
          destruct (IH u2 Hv2 Hc2) as (u3 & Hc3 & Hr3).
          { destruct Ho as (o & Ho1 & Ho2). exists o. split; [done|congruence]. }
          exists u3. split; [done|]. by etrans.
        - destruct (Hrn _ _ Hst) as [_ Ep2]. pose proof (proj1 Hst) as Hv2.
          assert (∃ o, vd O o ∧ q0 (vv F o) = q0 (vv F w2)) as Ho2.
          { destruct Ho as (o & Ho1 & Ho2). exists o. split; [done|congruence]. }
          destruct (Hbwd w2 w1 u1 Hv2 Hst Hc) as (u2 & Hc2 & Hr2).
          { intros HK2. destruct Ho2 as (o & Ho1 & Ho3).
            destruct (sg_Xv _ _ _ _ _ Hs (w_tet w2) (q0 (vv F w2))) as [(id0 & I1 & I2)|Hno].
            - apply HK2.
            - rewrite <- vv_elem by apply HK2. unfold list4. rewrite !elem_of_cons; tauto.
            - destruct (first_of_tet F' id0 _ I2) as (z & Z1 & Z2 & Z3).
              exists z. right. split; [done|]. split; [split; [by rewrite Z1|done]|]. congruence.
            - exfalso. apply (Hno (w_tet o)); [apply Ho1|].
              rewrite <- Ho3, <- vv_elem by apply Ho1. unfold list4. rewrite !elem_of_cons; tauto. }
          destruct (IH u2 Hv2 Hc2 Ho2) as (u3 & Hc3 & Hr3).
          exists u3. split; [done|]. by etrans. }
      assert (∀ o u, vd O o → vd (O ∪ K') u → q0 (vv F' o) = q0 (vv F' u) →
                rtsc (vstep (O ∪ K') F') o u) as Hmain.
      { intros o u Ho Hu E. rewrite (vvO o) in E by apply Ho.
        assert (∃ w2, vd (O ∪ K) w2 ∧ q0 (vv F w2) = q0 (vv F o) ∧ corr q0 w2 u) as (w2 & Hw2 & Ep & Hc).
        { destruct (vd_cases' _ Hu) as [HuO|HuK].
          - exists u. split; [by apply vdO|]. split; [by rewrite E, vvO by apply HuO|]. left. done.
          - destruct (sg_Nv _ _ _ _ _ Hs (w_tet u) (q0 (vv F' u))) as [(id0 & I1 & I2)|Hno].
            + apply HuK.
            + rewrite <- vv_elem by apply HuK. unfold list4. rewrite !elem_of_cons; tauto.
            + destruct (first_of_tet F id0 _ I2) as (z & Z1 & Z2 & Z3).
              exists z. assert (vd K z) by (split; [by rewrite Z1|done]).
              split; [by apply vdK|]. split; [congruence|].
              right. split; [done|]. split; [done|]. congruence.
            + exfalso. apply (Hno (w_tet o)); [apply Ho|].
              rewrite <- E, <- vv_elem by apply Ho. unfold list4. rewrite !elem_of_cons; tauto. }
        pose proof (vo_star _ _ Hok o w2 (vdO _ Ho) Hw2 (eq_sym Ep)) as Hr.
        destruct (Hwalk o w2 Hr o (vdO _ Ho)) as (u2 & Hc2 & Hr2).
        { left. done. }
        { exists o. done. }
        etrans; [exact Hr2|].
        destruct Hc as [[HO ->]|(HK & HK' & Ep1)], Hc2 as [[HO2 ->]|(HK2 & HK2' & Ep2)].
        - apply rtc_refl.
        - exfalso. destruct HO, HK2. pose proof (sg_disj _ _ _ _ _ Hs). set_solver.
        - exfalso. destruct HK, HO2. pose proof (sg_disj _ _ _ _ _ Hs). set_solver.
        - apply new_star_K; [done..|congruence]. }
      intros Hw Hw' E.
      destruct (vd_cases' _ Hw) as [H|H]; [by apply Hmain|].
      destruct (vd_cases' _ Hw') as [H'|H']; [symmetry; by apply Hmain|].
      by apply new_star_K.
    Qed.

    Lemma surgery_vok : vok (O ∪ K') F'.
    Proof.
      split.
      - apply new_nodup.
      - intros w Hw. destruct (new_adj w Hw) as (?&?&?). done.
      - apply new_uniq.
      - intros w Hw. destruct (new_adj w Hw) as (?&?&?). done.
      - apply new_ring.
      - apply new_star.
    Qed.
  End proof.
End surgery.
