(** The extension phase of the cavity search. *)
From Coq Require Import NArith ZArith Lia.
From stdpp Require Import base numbers list gmap option relations.
From Verif Require Import IdMapModel IdMapProofs WalkerModel WalkerSpec WalkerProofs WalkerMore MeshModel MeshSpec MeshOps MeshViews MeshLink Reach CavModel CavSpec CavPaint CavBase.
Local Open Scope nat_scope.

Section expand.
  Context {V T : Type} (m : mesh V T) (Hok : mesh_ok m) (ins : arr4 N → Z).
  Implicit Types (w : walker) (I L : gset (N * nat)) (K : gset N) (f : N * nat).

  Lemma extend_eq (m0 : mesh V T) Q w : extend_over (m0, Q) w =
    (twin ← to_adj_ae m0 w; b ← imm_flag m0 twin;
     if (b : bool) then m1 ← put_imm false m0 twin; Some (m1, Q) else m1 ← put_imm true m0 w; Some (m1, Q ++ [w])).
  Proof. done. Qed.
  Lemma extend_fold L K ws : ∀ I Q, Forall (valid m) ws → NoDup (side <$> ws) →
    (∀ w w', w ∈ ws → w' ∈ ws → tw m (side w) ≠ side w') →
    ∃ I', mfoldl extend_over ws (paint m I L K, Q) = Some (paint m I' L K, Q ++ filter (λ w, tw m (side w) ∉ I) ws) ∧
      ∀ f, f ∈ I' ↔ (f ∈ I ∧ ∀ w, w ∈ ws → f ≠ tw m (side w)) ∨ ∃ w, w ∈ ws ∧ f = side w ∧ tw m (side w) ∉ I.
  Proof.
    induction ws as [|w ws IH]; intros I Q HF Hn Hd.
    { exists I. split; [by rewrite app_nil_r|]. intros f. split; [|intros [[? _]|(w & Hw%elem_of_nil & _)]; done]. intros H. left. split; [done|]. by intros w Hw%elem_of_nil. }
    apply list.Forall_cons in HF as [Hw HF]. rewrite fmap_cons in Hn. apply NoDup_cons in Hn as [Hnw Hn].
    destruct (adj_side m w Hok Hw) as (x & Hx & Hvx & Hsx & _). cbn [mfoldl]. rewrite extend_eq, paint_adj_ae, Hx. cbn [mbind option_bind].
    rewrite imm_flag_paint by apply Hvx. cbn [mbind option_bind]. rewrite Hsx.
    assert (∀ w', w' ∈ ws → tw m (side w') ≠ tw m (side w)) as Hinj.
    { intros w' Hw' E. apply tw_inj in E; [|done| |by apply side_lf]; [|apply side_lf; rewrite list.Forall_forall in HF; by apply HF].
      apply Hnw. rewrite <- E. apply elem_of_list_fmap. eauto. }
    assert (∀ I1, (∀ w', w' ∈ ws → tw m (side w') ∈ I1 ↔ tw m (side w') ∈ I) →
      filter (λ w, tw m (side w) ∉ I1) ws = filter (λ w, tw m (side w) ∉ I) ws) as Hfil.
    { intros I1 H. clear -H. induction ws as [|w' ws IH]; [done|]. rewrite !filter_cons. rewrite IH by (intros; apply H; by right).
      specialize (H w' ltac:(by left)). repeat case_decide; try done; exfalso; tauto. }
    destruct (decide (tw m (side w) ∈ I)) as [Hin|Hin].
    - rewrite bool_decide_eq_true_2 by done. rewrite put_imm_paint by apply Hvx. cbn [mbind option_bind]. rewrite Hsx.
      destruct (IH (upd false I (tw m (side w))) Q HF Hn) as (I' & HI & HI'); [intros; apply Hd; by right|].
      exists I'. assert (∀ w', w' ∈ ws → tw m (side w') ∈ upd false I (tw m (side w)) ↔ tw m (side w') ∈ I) as HH.
      { intros w' Hw'. rewrite elem_upd, decide_False; [done|by apply Hinj]. }
      rewrite HI, (Hfil _ HH). split.
      { rewrite filter_cons_False; [done|tauto]. }
      intros f. rewrite HI', elem_upd. split.
      + intros [[H1 H2]|(w' & Hw' & -> & H2)].
        * left. destruct (decide (f = tw m (side w))) as [->|Hne]; [done|]. split; [done|]. intros w' [->|Hw']%elem_of_cons; [done|by apply H2].
        * right. exists w'. split; [by right|]. split; [done|]. by rewrite <- HH.
      + intros [[H1 H2]|(w' & [->|Hw']%elem_of_cons & -> & H2)]; [|done|].
        * left. split; [rewrite decide_False; [done|apply H2; by left]|]. intros w' Hw'. apply H2. by right.
        * right. exists w'. split; [done|]. split; [done|]. by rewrite HH.
    - rewrite bool_decide_eq_false_2 by done. rewrite put_imm_paint by apply Hw. cbn [mbind option_bind].
      destruct (IH (upd true I (side w)) (Q ++ [w]) HF Hn) as (I' & HI & HI'); [intros; apply Hd; by right|].
      exists I'. assert (∀ w', w' ∈ ws → tw m (side w') ∈ upd true I (side w) ↔ tw m (side w') ∈ I) as HH.
      { intros w' Hw'. rewrite elem_upd, decide_False; [done|apply Hd; [by right|by left]]. }
      rewrite HI, (Hfil _ HH). split.
      { rewrite filter_cons_True by done. by rewrite <- app_assoc. }
      intros f. rewrite HI', elem_upd. split.
      + intros [[H1 H2]|(w' & Hw' & -> & H2)].
        * destruct (decide (f = side w)) as [->|Hne]; [right; exists w; split; [by left|done]|]. left. split; [done|].
          intros w' [->|Hw']%elem_of_cons; [intros ->; done|by apply H2].
        * right. exists w'. split; [by right|]. split; [done|]. by rewrite <- HH.
      + intros [[H1 H2]|(w' & [->|Hw']%elem_of_cons & -> & H2)].
        * left. split; [case_decide; done|]. intros w' Hw'. apply H2. by right.
        * left. split; [by rewrite decide_True|]. intros w' Hw' E. symmetry in E. revert E. apply Hd; [by right|by left].
        * right. exists w'. split; [done|]. split; [done|]. by rewrite HH.
  Qed.

  (** What is known when a tet is added (in the concave case, no locked triangle or edge goes). *)
  Definition safe (E : list N) (adj : walker) : Prop :=
    let in0 := (tw m (side (to_perm adj P3210))).1 ∈ E in
    let in1 := (tw m (side (to_opp_edge adj))).1 ∈ E in
    let in2 := (tw m (side (to_twin_edge adj))).1 ∈ E in
    w_locked m adj = Some false ∧
    (in0 → w_edge_locked m (to_perm adj P1203) = Some false) ∧
    (in1 → w_edge_locked m (to_perm adj P2013) = Some false) ∧
    (in2 → w_edge_locked m (to_perm adj P0123) = Some false) ∧
    (in0 → in1 → w_edge_locked m (to_perm adj P2301) = Some false) ∧
    (in1 → in2 → w_edge_locked m (to_perm adj P0312) = Some false) ∧
    (in2 → in0 → w_edge_locked m (to_perm adj P1320) = Some false).

  Lemma elocked_total w : valid m w → ∃ b, w_edge_locked m w = Some b.
  Proof.
    intros Hw. destruct (valid_verts m w Hw) as (a & b & c & d & E).
    assert (w_pair m w = Some (a, b)) as Ep.
    { revert E. unfold w_verts, w_pair. destruct (w_first m w), (w_second m w); [|done..]. cbn. destruct (w_third m w), (w_fourth m w); cbn; congruence. }
    destruct (ok_edge m Hok w a b Hw Ep) as (e & ue & H1 & H2 & _). unfold w_edge_locked. rewrite H1. cbn. rewrite H2. cbn. eauto.
  Qed.
  Lemma edge_free_total b w : valid m w → ∃ r, edge_free m b w = Some r ∧ (r = true → b = true → w_edge_locked m w = Some false).
  Proof.
    intros Hw. unfold edge_free. destruct b; [|by exists true]. destruct (elocked_total w Hw) as [l ->]. cbn. exists (negb l). split; [done|]. by destruct l.
  Qed.
  Lemma valid_perm w p : valid m w → valid m (to_perm w p).
  Proof. intros [H1 H2]. split; [done|]. by apply to_perm_ok. Qed.

  Lemma lazy_some x y b : x = Some b → (∃ c, y = Some c) → ∃ c, andb_lazy x y = Some c ∧ (c = true → b = true ∧ y = Some true).
  Proof. intros -> [c ->]. destruct b; cbn; [exists c; split; [done|]; intros ->; done|by exists false]. Qed.

  Lemma removal_safe_ok I L K adj E : valid m adj →
    (∀ w, w ∈ other_tris adj → tw m (side w) ∉ L → tw m (side w) ∈ I ↔ (tw m (side w)).1 ∈ E) →
    ∃ b, removal_safe (paint m I L K) adj = Some b ∧ (b = true → safe E adj ∧ ∀ w, w ∈ other_tris adj → tw m (side w) ∉ L).
  Proof.
    intros Hv HE. destruct (other_sides m adj Hv) as (HF & _). rewrite list.Forall_forall in HF.
    assert (to_perm adj P3210 ∈ other_tris adj ∧ to_opp_edge adj ∈ other_tris adj ∧ to_twin_edge adj ∈ other_tris adj) as (M0 & M1 & M2) by (unfold other_tris; set_solver).
    destruct (adj_side m _ Hok (HF _ M0)) as (x0 & A0 & B0 & C0 & _). destruct (adj_side m _ Hok (HF _ M1)) as (x1 & A1 & B1 & C1 & _).
    destruct (adj_side m _ Hok (HF _ M2)) as (x2 & A2 & B2 & C2 & _).
    unfold removal_safe. rewrite !paint_adj_ae, A0, A1, A2. cbn [mbind option_bind].
    rewrite !imm_flag_paint, !limit_flag_paint by (apply B0 || apply B1 || apply B2). cbn [mbind option_bind]. rewrite C0, C1, C2, !paint_edge_free, paint_locked.
    set (rm0 := bool_decide (tw m (side (to_perm adj P3210)) ∈ I)). set (rm1 := bool_decide (tw m (side (to_opp_edge adj)) ∈ I)).
    set (rm2 := bool_decide (tw m (side (to_twin_edge adj)) ∈ I)).
    destruct (edge_free_total rm0 (to_perm adj P1203) (valid_perm _ _ Hv)) as (r0 & R0 & R0').
    destruct (edge_free_total rm1 (to_perm adj P2013) (valid_perm _ _ Hv)) as (r1 & R1 & R1').
    destruct (edge_free_total rm2 (to_perm adj P0123) (valid_perm _ _ Hv)) as (r2 & R2 & R2').
    destruct (edge_free_total (rm0 && rm1) (to_perm adj P2301) (valid_perm _ _ Hv)) as (r3 & R3 & R3').
    destruct (edge_free_total (rm1 && rm2) (to_perm adj P0312) (valid_perm _ _ Hv)) as (r4 & R4 & R4').
    destruct (edge_free_total (rm2 && rm0) (to_perm adj P1320) (valid_perm _ _ Hv)) as (r5 & R5 & R5').
    rewrite R0, R1, R2, R3, R4, R5. clear R0 R1 R2 R3 R4 R5.
    assert (∃ l, w_locked m adj = Some l) as [l Hl]. { unfold w_locked. destruct Hv as [[t ->] _]. cbn. eauto. }
    rewrite Hl. cbn [mbind option_bind].
    destruct (bool_decide (tw m (side (to_perm adj P3210)) ∈ L)) eqn:L0; [by eexists|]. apply bool_decide_eq_false in L0.
    destruct (bool_decide (tw m (side (to_opp_edge adj)) ∈ L)) eqn:L1; [by eexists|]. apply bool_decide_eq_false in L1.
    destruct (bool_decide (tw m (side (to_twin_edge adj)) ∈ L)) eqn:L2; [by eexists|]. apply bool_decide_eq_false in L2.
    cbn [andb_lazy negb].
    destruct r0; [|by eexists]. destruct r1; [|by eexists]. destruct r2; [|by eexists]. destruct r3; [|by eexists]. destruct r4; [|by eexists]. destruct r5; [|by eexists].
    cbn [andb_lazy]. exists (negb l). split; [done|]. intros Hnl.
    assert ((tw m (side (to_perm adj P3210))).1 ∈ E → rm0 = true) as E0 by (intros ?; apply bool_decide_eq_true_2; by apply HE).
    assert ((tw m (side (to_opp_edge adj))).1 ∈ E → rm1 = true) as E1 by (intros ?; apply bool_decide_eq_true_2; by apply HE).
    assert ((tw m (side (to_twin_edge adj))).1 ∈ E → rm2 = true) as E2 by (intros ?; apply bool_decide_eq_true_2; by apply HE).
    split.
    - split; [destruct l; done|]. split; [auto|]. split; [auto|]. split; [auto|].
      split; [intros; apply R3'; [done|]; by rewrite E0, E1|]. split; [intros; apply R4'; [done|]; by rewrite E1, E2|].
      intros; apply R5'; [done|]; by rewrite E2, E0.
    - intros w Hw. unfold other_tris in Hw. rewrite !elem_of_cons, elem_of_nil in Hw. destruct Hw as [->|[->|[->|[]]]]; done.
  Qed.

  (** The in-sphere test of the code and the specification agree. *)
  Lemma ghost_pos_some vs i : ghost_pos vs = Some i → i < 4 ∧ get4 vs i = GHOST.
  Proof.
    unfold ghost_pos. destruct vs as [a b c d]. cbn. destruct (N.eqb_spec a GHOST); [intros [= <-]; by split; [lia|]|].
    destruct (N.eqb_spec b GHOST); [intros [= <-]; by split; [lia|]|]. destruct (N.eqb_spec c GHOST); [intros [= <-]; by split; [lia|]|].
    destruct (N.eqb_spec d GHOST); [intros [= <-]; by split; [lia|]|]. done.
  Qed.
  Lemma ghost_pos_none vs : ghost_pos vs = None → GHOST ∉ list4 vs.
  Proof.
    unfold ghost_pos. destruct vs as [a b c d]. cbn. destruct (N.eqb_spec a GHOST); [done|].
    destruct (N.eqb_spec b GHOST); [done|]. destruct (N.eqb_spec c GHOST); [done|]. destruct (N.eqb_spec d GHOST); [done|].
    intros _. unfold list4. cbn. set_solver.
  Qed.
  Lemma verts_stored w t vs : tet_get m (w_tet w) = Some t → w_edge w < 12 → w_verts m w = Some vs → ∀ x, x ∈ list4 vs ↔ x ∈ list4 (t_vs t).
  Proof.
    intros Ht He. unfold w_verts, w_first, w_second, w_third, w_fourth. rewrite Ht. cbn [mbind option_bind].
    intros [= <-] x. exact (verts_at_elem (t_vs t) (w_edge w) x He).
  Qed.

  Lemma sphere_total w : valid m w → ∃ b, sphere_test ins m w = Some b ∧ (b = true → in_conflict ins m (w_tet w)) ∧
    (steady ins m → in_conflict ins m (w_tet w) → b = true).
  Proof.
    intros Hw. destruct (valid_verts m w Hw) as (a & b & c & d & E). unfold sphere_test. rewrite E. cbn [mbind option_bind].
    pose proof Hw as [[t Ht] He]. rewrite Ht. cbn [mbind option_bind].
    pose proof (verts_stored w t _ Ht He E) as Hst.
    destruct (decide (ins (A4 a b c d) = 0%Z)) as [E0|E0].
    - destruct (ghost_pos (t_vs t)) as [i|] eqn:Eg.
      + apply ghost_pos_some in Eg as [Hi Hg].
        assert (valid m (to_edge w i)) as Hv. { unfold to_edge. split; cbn; [done|lia]. }
        assert (w_fourth m (to_edge w i) = Some GHOST) as H4.
        { unfold w_fourth, to_edge. cbn [w_tet w_edge]. rewrite Ht. cbn [mbind option_bind]. unfold fourth_idx. rewrite Nat.mod_small by lia. by rewrite Hg. }
        destruct (adj_side m _ Hok Hv) as (x & Hx & Hvx & _). rewrite Hx. cbn [mbind option_bind].
        destruct (valid_verts m x Hvx) as (a' & b' & c' & d' & E'). rewrite E'. cbn [mbind option_bind]. eexists. split; [done|]. split.
        * intros Hb%Z.leb_le. exists w, (A4 a b c d). do 3 (split; [done|]). right. right. split; [done|]. exists (to_edge w i), x, (A4 a' b' c' d'). done.
        * intros Hs (u & vs & Hu & Hut & Hvs & Hc). pose proof (Hs w u _ _ Hw Hu (eq_sym Hut) E Hvs) as Hsg. rewrite E0 in Hsg. cbn in Hsg.
          assert (ins vs = 0%Z) as Hz by lia. destruct Hc as [Hc|[[_ Hc]|[_ Hc]]]; [lia| |].
          -- exfalso. apply Hc. pose proof (verts_stored u t vs) as Hst'. rewrite Hut in Hst'. apply Hst'; [done|apply Hu|done|].
             rewrite <- Hg. destruct i as [|[|[|[|i]]]]; [..|lia]; unfold list4; set_solver.
          -- destruct Hc as (u' & x' & vs' & Hu' & Hut' & H4' & Hx' & Hvs' & Hp). apply Z.leb_le.
             assert (w_edge u' mod 4 = i) as Hui.
             { unfold w_fourth in H4'. rewrite Hut', Ht in H4'. cbn [mbind option_bind] in H4'. injection H4' as H4'. unfold fourth_idx in H4'.
               assert (w_edge u' mod 4 < 4) as Hlt by (apply Nat.mod_upper_bound; lia). remember (w_edge u' mod 4) as k eqn:Ek. clear Ek.
               pose proof (ok_distinct m Hok (Walker (w_tet w) 3)) as Hd. destruct (valid_verts m (Walker (w_tet w) 3)) as (p & q & r & s & Ep); [split; cbn; [done|lia]|].
               specialize (Hd p q r s ltac:(split; cbn; [done|lia]) Ep).
               revert Ep. unfold w_verts, w_first, w_second, w_third, w_fourth. cbn [w_tet w_edge]. rewrite Ht. cbn. intros [= <- <- <- <-].
               destruct (t_vs t) as [v0 v1 v2 v3]. cbn -[Nat.modulo] in *. apply NoDup_cons in Hd as [D1 Hd]. apply NoDup_cons in Hd as [D2 Hd]. apply NoDup_cons in Hd as [D3 _].
               rewrite !not_elem_of_cons in D1. rewrite !not_elem_of_cons in D2. rewrite !not_elem_of_cons in D3. destruct D1 as (?&?&?&_), D2 as (?&?&_), D3 as (?&_).
               destruct k as [|[|[|[|?]]]]; [..|lia]; destruct i as [|[|[|[|?]]]]; try lia; try done; cbn [get4 q0 q1 q2 q3] in *; exfalso; congruence. }
             assert (x' = x) as ->. { rewrite adj_ae_side in Hx', Hx. unfold side, to_edge in Hx', Hx. cbn -[Nat.modulo] in Hx', Hx. rewrite Hut', Hui in Hx'. rewrite Nat.mod_small in Hx by lia. congruence. }
             congruence.
      + apply ghost_pos_none in Eg. cbn [mbind option_bind]. eexists. split; [done|]. rewrite E0. split.
        * intros _. exists w, (A4 a b c d). do 3 (split; [done|]). right. left. split; [done|]. by rewrite Hst.
        * done.
    - cbn [mbind option_bind]. eexists. split; [done|]. split.
      + intros Hb%Z.leb_le. exists w, (A4 a b c d). do 3 (split; [done|]). left. lia.
      + intros Hs (u & vs & Hu & Hut & Hvs & Hc). pose proof (Hs w u _ _ Hw Hu (eq_sym Hut) E Hvs) as Hsg. apply Z.leb_le.
        assert (0 <= ins vs)%Z by (destruct Hc as [Hc|[[Hc _]|[Hc _]]]; lia). lia.
  Qed.
End expand.
