(** Flips of the search only make approved elements; locking. *)
From stdpp Require Import base numbers list gmap option relations.
From Coq Require Import NArith ZArith Lia.
From Verif Require Import IdMapModel IdMapSpec IdMapProofs WalkerModel WalkerSpec WalkerProofs WalkerMore MeshModel MeshSpec MeshViews FlipSpec HistSpec FlipBase
  Flip23Ok Flip32Ok Flip44Ok History Reach IterProofs IterLookup MeshOps MeshOpsOk FlipMore QualModel QualProofs ProgModel ProgSpec SortProofs ProgBase ProgFlip ProgStep ProgHist RecModel RecSpec.
Local Open Scope nat_scope.

Section base.
  Context {V T : Type}.
  Implicit Types (m : mesh V T) (w : walker).

  Lemma edge_corners g d e : NoDup (corners g) → d ≠ e → d ∈ corners g → e ∈ corners g →
    g = SEdge (d, e) ∨ g = SEdge (e, d) ∨ ∃ a b c, g = STri (a, b, c).
  Proof.
    destruct g as [[a b]|[[a b] c]]; [|intros; right; right; by exists a, b, c]. cbn. intros Hn Hne H1 H2. rewrite ?elem_of_cons, ?elem_of_nil in H1. rewrite ?elem_of_cons, ?elem_of_nil in H2.
    destruct H1 as [->|[->|[]]], H2 as [->|[->|[]]]; try done; tauto.
  Qed.
  Lemma tri_corners a b c d e (l : list N) : NoDup [a; b; c] → d ≠ e → d ∈ [a; b; c] → e ∈ [a; b; c] → (∀ v, v ∈ [a; b; c] → v ∈ d :: e :: l) →
    ∃ v, v ∈ l ∧ same_corners (v, d, e) (a, b, c).
  Proof.
    intros Hn Hne H1 H2 Hs. apply nodup3 in Hn as (N1 & N2 & N3).
    assert (∃ v, v ∈ [a; b; c] ∧ v ≠ d ∧ v ≠ e ∧ ∀ x, x ∈ [a; b; c] → x ∈ [v; d; e]) as (v & Hv & V1 & V2 & Hall).
    { rewrite ?elem_of_cons, ?elem_of_nil in H1. rewrite ?elem_of_cons, ?elem_of_nil in H2.
      destruct H1 as [->|[->|[->|[]]]], H2 as [->|[->|[->|[]]]]; try done; [exists c|exists b|exists c|exists a|exists b|exists a];
        (split; [inset|]); (split; [done|]); (split; [done|]); intros x Hx; rewrite ?elem_of_cons, ?elem_of_nil in Hx;
        destruct Hx as [->|[->|[->|[]]]]; inset. }
    exists v. split; [by apply Hs in Hv as [->|[->|?]%elem_of_cons]%elem_of_cons|].
    unfold same_corners. cbn [fst snd]. intros x. split; [|apply Hall]. intros Hx. rewrite ?elem_of_cons, ?elem_of_nil in Hx.
    by destruct Hx as [->|[->|[->|[]]]].
  Qed.

  Context (ea : mesh V T → N * N → bool) (ta : mesh V T → N * N * N → bool) (ori : mesh V T → N → N → N → N → Z).
  Notation SF := (search_flip ea ta ori).

  Lemma approved_pair m g d e (l : list N) : NoDup (corners g) → d ≠ e → d ∈ corners g → e ∈ corners g → (∀ v, v ∈ corners g → v ∈ d :: e :: l) →
    (ea m (d, e) = true ∨ ea m (e, d) = true) → (∀ v, v ∈ l → ∃ t, same_corners t (v, d, e) ∧ ta m t = true) → approved ea ta m g.
  Proof.
    intros Hn Hne H1 H2 Hs He Ht. destruct (edge_corners g d e Hn Hne H1 H2) as [->|[->|(a & b & c & ->)]]; cbn; [tauto|tauto|].
    destruct (tri_corners a b c d e l Hn Hne H1 H2 Hs) as (v & Hv & Hc). destruct (Ht v Hv) as (t & Hc' & E). exists t. split; [|done].
    intros x. by rewrite (Hc' x), (Hc x).
  Qed.

  (** What is new after a flip has been approved. *)
  Lemma newly m m' g : fit m → SF m m' → present m' g → present m g ∨ approved ea ta m g.
  Proof.
    intros Hf Hstep Hp. pose proof (kp_fit _ _ (step_keeps ea ta ori m m' Hf Hstep)) as (Hok' & _).
    apply present_covers in Hp as (Hnd & id & vs & Ev & Hs); [|done].
    pose proof Hf as (Hok & Htr & Hth).
    assert (∀ s : list N, (∀ x, x ∈ corners g → x ∈ s) → covers m s → present m g) as Hold.
    { intros s Hsub Hc. apply present_covers; [done|]. split; [done|]. by eapply covers_sub. }
    destruct Hstep as [w a b c d e ws Hw Hn Hr E|w p q x y z ws Hw Hn E|w p q x y z u ws Hw Hn Hr E].
    - destruct Hw as (Hw & Ew & (o & Ea & Ee) & Hl & _ & _ & _ & A & T1 & T2 & T3).
      destruct (adj_info m w o _ _ _ _ Hok Hw Ew Ea) as (Ho & (e' & Eo) & _).
      assert (e' = e) as -> by (pose proof (wverts_fourth _ _ _ _ _ _ Eo); congruence).
      pose proof (thick_fourth m w o _ _ _ _ _ Hok Hth Hw Ew Ea Eo) as Hde.
      destruct (flip23_step m w o a b c d e Hok Hw Ew Ea Ee Hde Hn Hr) as (m1 & ws1 & id2 & Er & S & _). rewrite E in Er. injection Er as <- <-.
      apply (vs_replaces _ _ _ _ _ _ _ _ (fs23_repl _ _ _ _ _ _ _ _ _ _ _ S)) in Ev as [Hin|[_ Ev]].
      2:{ left. apply (Hold (list4 vs)); [done|]. by exists id, vs. }
      assert (∀ v, v ∈ [a; b; c] → ∃ t, same_corners t (v, d, e) ∧ ta m t = true) as Hta.
      { intros v Hv. exists (v, d, e). split; [done|]. rewrite ?elem_of_cons, ?elem_of_nil in Hv. by destruct Hv as [->|[->|[->|[]]]]. }
      destruct (decide (d ∈ corners g)) as [Hd|Hd].
      2:{ left. rewrite ?elem_of_cons, ?elem_of_nil in Hin. destruct Hin as [[= -> ->]|[[= -> ->]|[[= -> ->]|[]]]];
          (apply (Hold [b; a; c; e]); [sub Hs|eapply wverts_covers; [exact Ho|exact Eo|done]]). }
      destruct (decide (e ∈ corners g)) as [He|He].
      2:{ left. rewrite ?elem_of_cons, ?elem_of_nil in Hin. destruct Hin as [[= -> ->]|[[= -> ->]|[[= -> ->]|[]]]];
          (apply (Hold [a; b; c; d]); [sub Hs|eapply wverts_covers; [exact Hw|exact Ew|done]]). }
      right. apply (approved_pair m g d e [a; b; c] Hnd Hde Hd He); [|by left|done].
      rewrite ?elem_of_cons, ?elem_of_nil in Hin. destruct Hin as [[= -> ->]|[[= -> ->]|[[= -> ->]|[]]]]; sub Hs.
    - destruct Hw as (Hw & Ew & (o1 & o2 & R1 & Ez & R2 & R3 & L0 & L1 & L2) & Hle & _ & _ & A).
      destruct (ring_info m w o1 _ _ _ _ Hok Hw Ew R1) as (Ho1 & (z' & E1)).
      assert (z' = z) as -> by (pose proof (wverts_fourth _ _ _ _ _ _ E1); congruence).
      destruct (ring_info m o1 o2 _ _ _ _ Hok Ho1 E1 R2) as (Ho2 & _).
      destruct (flip32_step m w o1 o2 p q x y z Hok Hw Ew R1 Ez R2 R3 Hn) as (m1 & ws1 & Er & S & _). rewrite E in Er. injection Er as <- <-.
      destruct (fs32_other2 _ _ _ _ _ _ _ _ _ _ _ S) as [_ E2].
      apply (vs_replaces _ _ _ _ _ _ _ _ (fs32_repl _ _ _ _ _ _ _ _ _ _ _ S)) in Ev as [Hin|[_ Ev]].
      2:{ left. apply (Hold (list4 vs)); [done|]. by exists id, vs. }
      rewrite ?elem_of_cons, ?elem_of_nil in Hin.
      destruct (decide (x ∈ corners g)) as [Hx|Hx].
      2:{ left. destruct Hin as [[= -> ->]|[[= -> ->]|[]]]; (apply (Hold [p; q; y; z]); [sub Hs|eapply wverts_covers; [exact Ho1|exact E1|done]]). }
      destruct (decide (y ∈ corners g)) as [Hy|Hy].
      2:{ left. destruct Hin as [[= -> ->]|[[= -> ->]|[]]]; (apply (Hold [p; q; z; x]); [sub Hs|eapply wverts_covers; [exact Ho2|exact E2|done]]). }
      destruct (decide (z ∈ corners g)) as [Hz|Hz].
      2:{ left. destruct Hin as [[= -> ->]|[[= -> ->]|[]]]; (apply (Hold [p; q; x; y]); [sub Hs|eapply wverts_covers; [exact Hw|exact Ew|done]]). }
      right. pose proof (ok_distinct m Hok w _ _ _ _ Hw Ew) as Hn1. apply NoDup4 in Hn1. cbn in Hn1.
      pose proof (ok_distinct m Hok o1 _ _ _ _ Ho1 E1) as Hn2. apply NoDup4 in Hn2. cbn in Hn2.
      pose proof (ok_distinct m Hok o2 _ _ _ _ Ho2 E2) as Hn3. apply NoDup4 in Hn3. cbn in Hn3.
      assert (NoDup [x; y; z]) as Hxyz by (apply nodup3; clear - Hn1 Hn2 Hn3; intuition congruence).
      destruct g as [[a b]|[[a b] c]]; cbn [corners] in *.
      + exfalso. pose proof (nodup_in [a; b] [x; y; z] Hxyz) as K. cbn in K. assert (3 ≤ 2) as K'; [apply K|clear - K'; lia].
        intros v Hv. rewrite ?elem_of_cons, ?elem_of_nil in Hv. by destruct Hv as [->|[->|[->|[]]]].
      + exists (x, y, z). split; [|done]. intros v. cbn [fst snd]. split.
        * intros Hv. rewrite ?elem_of_cons, ?elem_of_nil in Hv. by destruct Hv as [->|[->|[->|[]]]].
        * assert ([x; y; z] ≡ₚ [a; b; c]) as Hp; [|by rewrite Hp].
          apply submseteq_Permutation_length_le; [done|]. apply NoDup_submseteq; [done|]. intros i Hi. rewrite ?elem_of_cons, ?elem_of_nil in Hi. by destruct Hi as [->|[->|[->|[]]]].
    - destruct Hw as (Hw & Ew & (r1 & r2 & r3 & R1 & R2 & R3 & R4 & Hne & Ez & Eu & L0 & L1 & L2 & L3) & Hle & _ & _ & _ & _ & A & T1 & T2 & T3 & T4).
      destruct (ring_info m w r1 _ _ _ _ Hok Hw Ew R1) as (V1 & (z' & E1)).
      assert (z' = z) as -> by (pose proof (wverts_fourth _ _ _ _ _ _ E1); congruence).
      destruct (ring_info m r1 r2 _ _ _ _ Hok V1 E1 R2) as (V2 & (u' & E2)).
      assert (u' = u) as -> by (pose proof (wverts_fourth _ _ _ _ _ _ E2); congruence).
      destruct (ring_info m r2 r3 _ _ _ _ Hok V2 E2 R3) as (V3 & _).
      destruct (flip44_step m w r1 r2 r3 p q x y z Hok Hw Ew R1 R2 R3 R4 Hne Ez Hn Hr) as (m1 & ws1 & u' & Er & S & _). rewrite E in Er. injection Er as <- <-.
      destruct (fs44_ring _ _ _ _ _ _ _ _ _ _ _ _ _ S) as (_ & _ & E2' & E3). assert (u' = u) as -> by congruence.
      destruct (fs44_repl _ _ _ _ _ _ _ _ _ _ _ _ _ S) as (id2 & _ & Hrep).
      apply (vs_replaces _ _ _ _ _ _ _ _ Hrep) in Ev as [Hin|[_ Ev]].
      2:{ left. apply (Hold (list4 vs)); [done|]. by exists id, vs. }
      rewrite ?elem_of_cons, ?elem_of_nil in Hin.
      assert (covers m [p; q; x; y]) as C0 by (eapply wverts_covers; [exact Hw|exact Ew|done]).
      assert (covers m [p; q; y; z]) as C1 by (eapply wverts_covers; [exact V1|exact E1|done]).
      assert (covers m [p; q; z; u]) as C2 by (eapply wverts_covers; [exact V2|exact E2|done]).
      assert (covers m [p; q; u; x]) as C3 by (eapply wverts_covers; [exact V3|exact E3|done]).
      destruct (decide (x ∈ corners g)) as [Hx|Hx].
      2:{ left. destruct Hin as [[= -> ->]|[[= -> ->]|[[= -> ->]|[[= -> ->]|[]]]]].
          - apply (Hold [p; q; z; u]); [sub Hs|done]. - apply (Hold [p; q; y; z]); [sub Hs|done].
          - apply (Hold [p; q; y; z]); [sub Hs|done]. - apply (Hold [p; q; z; u]); [sub Hs|done]. }
      destruct (decide (z ∈ corners g)) as [Hz|Hz].
      2:{ left. destruct Hin as [[= -> ->]|[[= -> ->]|[[= -> ->]|[[= -> ->]|[]]]]].
          - apply (Hold [p; q; u; x]); [sub Hs|done]. - apply (Hold [p; q; x; y]); [sub Hs|done].
          - apply (Hold [p; q; x; y]); [sub Hs|done]. - apply (Hold [p; q; u; x]); [sub Hs|done]. }
      right. assert (x ≠ z) as Hxz.
      { intros ->. pose proof (fs44_ids _ _ _ _ _ _ _ _ _ _ _ _ _ S) as Hids. apply stdpp.list.NoDup_cons in Hids as [Hids _]. apply Hids.
        rewrite thick_vs in Hth. destruct (wverts_in m w _ Hw Ew) as (v1 & W1 & X1). destruct (wverts_in m r1 _ V1 E1) as (v2 & W2 & X2).
        rewrite (Hth _ _ v1 v2 W1 W2); [left|]. intros v. rewrite <- X1, <- X2. unfold list4. cbn [q0 q1 q2 q3]. rewrite ?elem_of_cons. clear. tauto. }
      apply (approved_pair m g z x [u; p; y; q] Hnd (not_eq_sym Hxz) Hz Hx); [|by left|].
      + destruct Hin as [[= -> ->]|[[= -> ->]|[[= -> ->]|[[= -> ->]|[]]]]]; sub Hs.
      + intros v Hv. exists (z, v, x). split.
        * intros i. cbn [fst snd]. rewrite ?elem_of_cons, ?elem_of_nil. clear. tauto.
        * rewrite ?elem_of_cons, ?elem_of_nil in Hv. by destruct Hv as [->|[->|[->|[->|[]]]]].
  Qed.

  (** An element that is not there and never approved does not appear. *)
  Lemma stays_away m m' g : fit m → rtc SF m m' → (∀ m1, rtc SF m m1 → ¬ approved ea ta m1 g) → ¬ present m g → ¬ present m' g.
  Proof.
    intros Hf H. revert Hf. induction H as [m|m1 m2 m3 H1 H2 IH]; intros Hf Ha Hn; [done|].
    apply IH; [apply (kp_fit _ _ (step_keeps ea ta ori _ _ Hf H1))| |].
    - intros m4 H4. apply Ha. eapply rtc_l; eauto.
    - intros [Hp|Hp]%(newly m1 m2 g Hf H1); [done|]. by apply (Ha m1).
  Qed.
End base.

Section locks.
  Context {V T : Type}.
  Implicit Types (m : mesh V T) (w : walker).

  Lemma lock_edge_ok m w a b : fit m → valid m w → w_pair m w = Some (a, b) → ∃ m', set_edge_lock m w true = Some m' ∧ edge_locked m m' a b.
  Proof.
    intros (Hok & Htr & Hth) Hw Hp.
    destruct (set_edge_lock_step m w true Hok Hw) as (m' & e & ue & E & Hok' & F1 & F2 & F3 & F4 & _ & Ev & _ & Et & _ & Etr & _).
    exists m'. split; [done|]. destruct (ok_edge m Hok w a b Hw Hp) as (e' & ue' & K1 & K2 & K3). rewrite F1 in K1. injection K1 as <-. rewrite F2 in K2. injection K2 as <-.
    split.
    - split; [done|]. split; [congruence|]. by eapply thick_tets.
    - intros x y. unfold locked_edge. split.
      + intros (i & u & I1 & I2 & I3). destruct (decide (i = e)) as [->|Hne].
        * rewrite F3 in I1. injection I1 as <-. right. cbn [ue_vs] in I2. congruence.
        * rewrite F4 in I1 by done. left. by exists i, u.
      + intros [(i & u & I1 & I2 & I3)|Hs].
        * destruct (decide (i = e)) as [->|Hne]; [|exists i, u; by rewrite F4]. rewrite F2 in I1. injection I1 as ->. by eexists e, _.
        * eexists e, _. split; [done|]. split; [|done]. cbn [ue_vs]. congruence.
    - intros t. unfold locked_tri, valid, w_tri, w_locked, w_first, w_second, w_third, tet_get. by rewrite Et.
    - done.
    - done.
  Qed.

  Lemma lock_tri_ok m w a b c : fit m → valid m w → w_tri m w = Some (a, b, c) → ∃ m', set_tri_lock m w true = Some m' ∧ tri_locked m m' a b c.
  Proof.
    intros (Hok & Htr & Hth) Hw Ht. destruct (set_tri_lock_step m w true _ Hok Hw Ht) as (m' & E & Hok' & Hnf & Hl & Hrest).
    exists m'. split; [done|]. destruct Hrest as [R1 R2 R3 R4 R5 R6 _].
    split.
    - split; [done|]. split; [congruence|]. apply (thick_same m); [|done]. intros id. specialize (Hnf id). unfold no_flags in Hnf.
      destruct (tet_get m' id), (tet_get m id); cbn in *; congruence.
    - done.
    - intros x y. unfold locked_edge. by rewrite R3.
    - done.
    - done.
  Qed.
End locks.
