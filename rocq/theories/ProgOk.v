(** The search for a removable edge or triangle keeps its promises. *)
From stdpp Require Import base numbers list gmap option relations.
From Coq Require Import NArith ZArith Lia.
From Verif Require Import IdMapModel IdMapSpec IdMapProofs WalkerModel WalkerSpec WalkerProofs WalkerMore MeshModel MeshSpec MeshViews FlipSpec HistSpec FlipBase
  Flip23Ok Flip32Ok Flip44Ok History Reach UtilModel UtilSpec UtilProofs IterModel IterDfs IterProofs IterLookup MeshOps FlipMore QualModel QualProofs CavExpand
  ProgModel ProgSpec SortProofs ProgBase ProgFlip ProgStep ProgRing.
Local Open Scope nat_scope.

Section search.
  Context {V T : Type}.
  Implicit Types (m : mesh V T) (w : walker) (goals : list simplex) (bads : list (N * N)).
  Context (ea : mesh V T → N * N → bool) (ta : mesh V T → N * N * N → bool) (ori : mesh V T → N → N → N → N → Z).
  Notation SF := (search_flip ea ta ori).

  (** Reached by flips of the search, none of which adds a triangle at a bad edge. *)
  Definition reach m bads m1 : Prop := rtc SF m m1 ∧ fit m1 ∧
    ∀ a b c, sorted_2 (a, b) ∈ bads → has_tri m1 a b c → has_tri m a b c.
  Definition ready m goals bads : Prop := fit m ∧ (∀ g, g ∈ goals → present m g ∧ in_order g) ∧ ∀ b, b ∈ bads → SEdge b ∈ goals.
  Definition stuck m : Prop := ∃ m1, rtc SF m m1 ∧ clash ea ta ori m1.
  Definition fin m goals bads own (o : outcome) : Prop :=
    ∃ m' r, o = (m', goals, bads, r) ∧ reach m bads m' ∧ reports m' (goals ++ [own]) r.
  Definition good m goals bads own (res : option outcome) : Prop := stuck m ∨ ∃ o, res = Some o ∧ fin m goals bads own o.

  Lemma reach_refl m bads : fit m → reach m bads m.
  Proof. done. Qed.
  Lemma reach_trans m1 m2 m3 bads : reach m1 bads m2 → reach m2 bads m3 → reach m1 bads m3.
  Proof. intros (H1 & _ & H2) (K1 & Kf & K2). split; [by etrans|]. split; [done|]. intros a b c Hb H. by apply H2, K2. Qed.
  Lemma reach_less m bads bads' m1 : (∀ b, b ∈ bads' → b ∈ bads) → reach m bads m1 → reach m bads' m1.
  Proof. intros H (H1 & Hf & H2). split; [done|]. split; [done|]. intros a b c Hb. by apply H2, H. Qed.
  Lemma stuck_back m m1 bads : reach m bads m1 → stuck m1 → stuck m.
  Proof. intros (H & _) (m2 & K & Hc). exists m2. split; [by etrans|done]. Qed.
  Lemma fin_back m m1 goals bads own o : reach m bads m1 → fin m1 goals bads own o → fin m goals bads own o.
  Proof. intros H (m' & r & -> & K & Hr). exists m', r. split; [done|]. split; [by eapply reach_trans|done]. Qed.
  Lemma good_back m m1 goals bads own res : reach m bads m1 → good m1 goals bads own res → good m goals bads own res.
  Proof. intros H [Hs|(o & -> & Ho)]; [left; by eapply stuck_back|right]. exists o. split; [done|]. by eapply fin_back. Qed.

  Lemma bad_joined m goals bads a b : ready m goals bads → sorted_2 (a, b) ∈ bads → joined m a b.
  Proof.
    intros ((Hok & _) & Hg & Hb) H. apply Hb, Hg in H as [H _]. unfold sorted_2 in H. destruct (_ <? _)%N; cbn in H; [|done].
    by apply joined_sym.
  Qed.

  Lemma none_bad_spec bads l : none_bad bads l = true → ∀ b, b ∈ bads → b ∉ sorted_2 <$> l.
  Proof.
    unfold none_bad. rewrite forallb_forall. intros H b Hb ([x y] & -> & Hp)%elem_of_list_fmap.
    apply elem_of_list_In in Hp. specialize (H _ Hp). cbn in H. unfold is_bad in H. rewrite bool_decide_eq_true_2 in H; done.
  Qed.

  Lemma removed_ok m m' goals bads own rest :
    (∀ g, in_order g → present m g → g ∉ own :: rest → present m' g) → (∀ g, g ∈ own :: rest → ¬ present m' g) →
    (∀ g, g ∈ goals ++ [own] → present m g ∧ in_order g) →
    ∃ i, removed m' (goals ++ [own]) bads rest = Some (m', goals, bads, Some i) ∧ reports m' (goals ++ [own]) (Some i).
  Proof.
    intros Hk Hgone Hg. unfold removed. rewrite last_snoc. cbn [mbind option_bind]. rewrite removelast_last.
    unfold goal_index. destruct (list_find (λ g, g ∈ own :: rest) (goals ++ [own])) as [[i g]|] eqn:E.
    - exists i. cbn. split; [done|]. apply list_find_Some in E as (Hi & Hin & Hj). split; [exists g; split; [done|by apply Hgone]|].
      intros j g' Hlt Hg'. assert (g' ∈ goals ++ [own]) as Hin' by (apply elem_of_list_lookup; eauto).
      apply Hg in Hin' as [Hp Ho]. apply Hk; [done|done|]. by apply (Hj j).
    - exfalso. apply list_find_None in E. rewrite list.Forall_forall in E. apply (E own); [|left]. apply elem_of_app. right. apply elem_of_list_singleton. done.
  Qed.

  Lemma flip_good m m' goals bads own rest gone pairs : ready m goals bads → present m own → in_order own → SF m m' → keeps m m' →
    effect m m' gone pairs → none_bad bads pairs = true → (∀ g, g ∈ gone ↔ g ∈ own :: rest) →
    ∃ o, removed m' (goals ++ [own]) bads rest = Some o ∧ fin m goals bads own o.
  Proof.
    intros Hr Hp Ho Hs Hk He Hn Hgone.
    destruct (removed_ok m m' goals bads own rest) as (i & E & Hrep).
    - intros g H1 H2 H3. apply (ef_kept _ _ _ _ He); [done|done|]. by rewrite Hgone.
    - intros g Hg. apply (ef_gone _ _ _ _ He). by rewrite Hgone.
    - intros g. rewrite elem_of_app, elem_of_list_singleton. intros [Hg| ->]; [|done]. by apply Hr.
    - eexists. split; [exact E|]. exists m', (Some i). split; [done|]. split; [|done]. split; [by apply rtc_once|]. split; [apply Hk|].
      intros a b c Hb Ht. apply (ef_added _ _ _ _ He); [done|by eapply bad_joined|]. by apply (none_bad_spec _ _ Hn).
  Qed.

  Definition edge_spec (re : call) : Prop := ∀ w m goals bads e, ready m goals bads → valid m w → w_pair m w = Some e →
    good m goals bads (SEdge (sorted_2 e)) (re w m goals bads).
  Definition tri_spec (rt : call) : Prop := ∀ w m goals bads t, ready m goals bads → valid m w → w_tri m w = Some t →
    good m goals bads (STri (sorted_3 t)) (rt w m goals bads).

  Lemma reports_none m goals own : (∀ g, g ∈ goals → present m g) → present m own → reports m (goals ++ [own]) None.
  Proof. intros H Ho g. rewrite elem_of_app, elem_of_list_singleton. intros [?| ->]; auto. Qed.

  (** The answer of a callee with one more goal. *)
  Lemma reports_inner m goals x r : reports m (goals ++ [x]) r →
    (r = None ∧ present m x ∧ ∀ g, g ∈ goals → present m g) ∨
    (∃ i, r = Some i ∧ i < length goals ∧ reports m goals (Some i)) ∨
    (r = Some (length goals) ∧ ¬ present m x ∧ ∀ g, g ∈ goals → present m g).
  Proof.
    clear ea ta ori. destruct r as [i|]; cbn.
    - intros ((g & Hg & Hn) & Hj). right. destruct (decide (i < length goals)) as [Hi|Hi].
      + left. exists i. split; [done|]. split; [done|]. split.
        * exists g. split; [|done]. by rewrite lookup_app_l in Hg.
        * intros j g' H1 H2. apply (Hj j); [done|]. by apply lookup_app_l_Some.
      + right. assert (i = length goals) as ->.
        { apply lookup_lt_Some in Hg. rewrite app_length in Hg. cbn in Hg. lia. }
        split; [done|]. rewrite list_lookup_middle in Hg by done. injection Hg as <-. split; [done|].
        intros g Hg. apply elem_of_list_lookup in Hg as (j & Hg). apply (Hj j); [by apply lookup_lt_Some in Hg|]. by apply lookup_app_l_Some.
    - intros H. left. split; [done|]. split; [apply H, elem_of_app; right; by apply elem_of_list_singleton|].
      intros g Hg. apply H, elem_of_app. by left.
  Qed.

  Lemma wpair_in_order m w p q : mesh_ok m → valid m w → w_pair m w = Some (p, q) → p ≠ q ∧ in_order (SEdge (sorted_2 (p, q))) ∧ present m (SEdge (sorted_2 (p, q))).
  Proof.
    intros Hok Hw Hp. destruct (wverts_of_pair m w p q Hw Hp) as (c & d & E). pose proof (ok_distinct m Hok _ _ _ _ _ Hw E) as (N1&_)%NoDup4. cbn in N1.
    split; [done|]. split; [by apply sorted2_order|]. apply present_edge; [done|done|]. by exists w.
  Qed.
  Lemma wtri_in_order m w a b c : mesh_ok m → valid m w → w_tri m w = Some (a, b, c) → NoDup [a; b; c] ∧ in_order (STri (sorted_3 (a, b, c))) ∧ present m (STri (sorted_3 (a, b, c))).
  Proof.
    intros Hok Hw Ht. assert (has_tri m a b c) as H by (by exists w). pose proof H as [Hn _]%tri_covers; [|done].
    split; [done|]. split; [by apply sorted3_order|]. by apply present_tri.
  Qed.
  Lemma ready_more m goals bads own : ready m goals bads → present m own → in_order own → ready m (goals ++ [own]) bads.
  Proof.
    intros (Hf & Hg & Hb) Hp Ho. split; [done|]. split.
    - intros g. rewrite elem_of_app, elem_of_list_singleton. intros [?| ->]; auto.
    - intros b H. apply elem_of_app. left. auto.
  Qed.

  Lemma give_up m goals bads own : ready m goals bads → present m own → fin m goals bads own (m, goals, bads, None).
  Proof.
    intros (Hf & Hg & _) Hp. exists m, None. split; [done|]. split; [by apply reach_refl|]. apply reports_none; [|done]. intros g Hin. by apply Hg.
  Qed.

  Lemma blocking_edge m w w' p q x y z : valid m w → w_verts m w = Some (A4 p q x y) → blocking ori m w p q x y z = Some w' →
    ∃ c d, valid m w' ∧ w_pair m w' = Some (c, d) ∧ ∀ v, v ∈ [c; d] → v ∈ [p; q; x].
  Proof.
    intros Hw E. unfold blocking. destruct (_ <=? _)%Z; [intros [= <-]|destruct (_ <=? _)%Z; [intros [= <-]|destruct (_ <=? _)%Z; [intros [= <-]|done]]].
    - exists p, q. split; [done|]. split; [by eapply wverts_pair|]. clear. set_solver.
    - exists q, x. split; [by apply valid_nfe|]. split; [by eapply wverts_pair, wverts_nfe|]. clear. set_solver.
    - exists x, p. split; [by apply valid_pfe|]. split; [by eapply wverts_pair, wverts_pfe|]. clear. set_solver.
  Qed.

  Lemma tri_body re : edge_spec re → tri_spec (remove_tri_body ea ta ori re).
  Proof.
    intros Hre w m goals bads [[a b] c] Hr Hw Ht. pose proof Hr as ((Hok & Htr & Hth) & Hg & Hb).
    destruct (wtri_in_order m w a b c Hok Hw Ht) as (Hnd & Hio & Hpres). set (own := STri (sorted_3 (a, b, c))) in *.
    unfold remove_tri_body. destruct (locked_ex m w Hw) as (l & El). rewrite El. cbn [mbind option_bind].
    destruct l; [right; eexists; split; [done|by apply give_up]|].
    rewrite Ht. cbn [mbind option_bind]. fold own.
    destruct (wtri_verts m w a b c Hw Ht) as (d & Ew). destruct (adj_spec m w a b c d Hok Hw Ew) as (o & e & Ea & Ho & Eo & _ & Hne).
    destruct (adj_ae_fourth m w o Ea) as (o' & Eo' & E4). rewrite Eo'. cbn [mbind option_bind]. rewrite Ew. cbn [mbind option_bind].
    rewrite E4, (wverts_fourth _ _ _ _ _ _ Eo). cbn [mbind option_bind].
    destruct (blocking ori m w a b c d e) as [w'|] eqn:Eb.
    - destruct (blocking_edge m w w' a b c d e Hw Ew Eb) as (x & y & Hw' & Ep & Hsub).
      destruct (Hre w' m (goals ++ [own]) bads (x, y)) as [Hs|(oo & E & m' & r & -> & Hreach & Hrep)]; [by apply ready_more|done|done|by left|].
      right. rewrite E. cbn [mbind option_bind]. rewrite removelast_last. eexists. split; [done|]. exists m', r. split; [done|]. split; [done|].
      apply reports_inner in Hrep as [(-> & _ & H)|[(i & -> & _ & H)|(-> & Hn & H)]]; [exact H|exact H|]. exfalso. apply Hn.
      destruct Hreach as (_ & (Hok' & _) & _). destruct (wpair_in_order m w' x y Hok Hw' Ep) as (Hxy & _).
      apply present_edge; [done|done|]. apply joined_covers; [done|]. split; [done|].
      assert (present m' own) as Ho' by (apply H, elem_of_app; right; by apply elem_of_list_singleton).
      apply present_tri in Ho' as [_ Hc]%tri_covers; [|done|done|done]. by eapply covers_sub.
    - destruct (none_bad bads _ && _ && _ && _ && _) eqn:Ec.
      2:{ right. rewrite removelast_last. eexists. split; [done|by apply give_up]. }
      rewrite !andb_true_iff in Ec. destruct Ec as ((((Hn & H1) & H2) & H3) & H4).
      assert (wants23 ea ta ori m w a b c d e) as Hwant.
      { unfold blocking in Eb. destruct (_ <=? _)%Z eqn:O1; [done|]. destruct (ori m b c e d <=? _)%Z eqn:O2; [done|]. destruct (ori m c a e d <=? _)%Z eqn:O3; [done|].
        apply Z.leb_gt in O1, O2, O3. split; [done|]. split; [done|]. split; [exists o; split; [done|by eapply wverts_fourth]|]. done. }
      destruct (joined_dec m d e) as [Hj|Hj]; [left; exists m; split; [done|eapply clash23; eauto]|].
      destruct (room_dec m 1 1) as [Hroom|Hroom]; [|left; exists m; split; [done|eapply clash23; eauto]].
      destruct (do23 ea ta ori m w a b c d e (conj Hok (conj Htr Hth)) Hwant Hj Hroom) as (m' & ws & E & Hk & He).
      rewrite E. cbn [mbind option_bind]. right.
      eapply (flip_good m m' goals bads own [] _ _ Hr Hpres Hio); [by eapply sf23|done|exact He|done|done].
  Qed.
End search.
