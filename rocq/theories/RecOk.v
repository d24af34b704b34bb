(** Recovering edges and triangles. *)
From stdpp Require Import base numbers list gmap option relations.
From Coq Require Import NArith ZArith Lia.
From Verif Require Import IdMapModel WalkerModel WalkerSpec MeshModel MeshSpec FlipSpec HistSpec UtilModel IterModel IterLookup MeshOps Reach QualModel QualProofs
  ProgModel ProgSpec ProgBase ProgStep ProgRing ProgOk ProgEdge PropProg RecModel RecSpec RecBase RecLoop.
Local Open Scope nat_scope.

Section ok.
  Context {V T : Type}.
  Implicit Types (m : mesh V T) (w : walker) (g : simplex).
  Context (G : geometry V T).
  Notation EF := (edge_flip G). Notation TF := (tri_flip G). Notation RS := (rstep G).

  (** What every step keeps. *)
  Record rkeeps m m' : Prop := RKeeps {
    rk_fit : fit m';
    rk_tri t : locked_tri m t → locked_tri m' t;
    rk_edge a b : locked_edge m a b → locked_edge m' a b;
    rk_verts x : (λ vt, (v_flags vt, v_pos vt, v_val vt)) <$> im_get (m_verts m') x =
      (λ vt, (v_flags vt, v_pos vt, v_val vt)) <$> im_get (m_verts m) x;
    rk_att v : attached m v → attached m' v }.

  Lemma keeps_rkeeps m m' : keeps m m' → rkeeps m m'.
  Proof. intros [H1 H2 H3 H4 H5]. split; [done| | |done|done]; intros; [by apply H2|by apply H3]. Qed.
  Lemma rkeeps_refl m : fit m → rkeeps m m.
  Proof. by split. Qed.
  Lemma rkeeps_trans m1 m2 m3 : rkeeps m1 m2 → rkeeps m2 m3 → rkeeps m1 m3.
  Proof. intros [A1 A2 A3 A4 A5] [B1 B2 B3 B4 B5]. split; eauto. intros x. by rewrite B4. Qed.
  Lemma att_vs m m' : (∀ id, t_vs <$> tet_get m' id = t_vs <$> tet_get m id) → ∀ v, attached m v → attached m' v.
  Proof.
    intros H v (w & ((t & Et) & Hr) & Ew). exists w. specialize (H (w_tet w)). unfold w_first in *. rewrite Et in H, Ew. cbn in H, Ew.
    destruct (tet_get m' (w_tet w)) as [t'|] eqn:E'; [|done]. cbn in *. injection H as H. rewrite H. split; [|done]. split; [by eexists|done].
  Qed.

  Lemma rstep_keeps m m' : fit m → RS m m' → rkeeps m m'.
  Proof.
    intros Hf [e H|t H|a b Hj [E1 E2 E3 E4 E5]|a b c Ht [E1 E2 E3 E4 E5]].
    - eapply keeps_rkeeps, step_keeps; [done|exact H].
    - eapply keeps_rkeeps, step_keeps; [done|exact H].
    - split; [done| | | |].
      + intros t. by rewrite E3.
      + intros x y H. apply E2. by left.
      + by rewrite E5.
      + apply att_vs. intros id. unfold tet_get. by rewrite E4.
    - split; [done| | | |].
      + intros [[x y] z] H. apply E2. by left.
      + intros x y. by rewrite E3.
      + by rewrite E5.
      + apply att_vs. intros id. specialize (E4 id). destruct (tet_get m' id), (tet_get m id); cbn in *; congruence.
  Qed.
  Lemma rsteps_keep m m' : fit m → rtc RS m m' → rkeeps m m'.
  Proof.
    intros Hf H. revert Hf. induction H as [m|m1 m2 m3 H1 _ IH]; intros Hf; [by apply rkeeps_refl|].
    pose proof (rstep_keeps _ _ Hf H1) as K. eapply rkeeps_trans; [done|]. apply IH, K.
  Qed.
  Lemma edge_flips m m' e : rtc (EF e) m m' → rtc RS m m'.
  Proof. induction 1 as [|m1 m2 m3 H1 _ IH]; [done|]. eapply rtc_l; [by eapply rs_edge_flip|done]. Qed.
  Lemma tri_flips m m' t : rtc (TF t) m m' → rtc RS m m'.
  Proof. induction 1 as [|m1 m2 m3 H1 _ IH]; [done|]. eapply rtc_l; [by eapply rs_tri_flip|done]. Qed.

  Lemma solid_on m m' v : fit m → rtc RS m m' → solid m v → solid m' v.
  Proof. intros Hf H [H1 H2]. split; [done|]. by apply (rk_att _ _ (rsteps_keep m m' Hf H)). Qed.
  Lemma lists_on m m' : rtc RS m m' → lists_well G m → lists_well G m'.
  Proof. intros H Hl m1 H1. apply Hl. by etrans. Qed.
  Lemma trouble_back m m' : rtc RS m m' → trouble G m' → trouble G m.
  Proof. intros H (m1 & H1 & H2). exists m1. split; [by etrans|done]. Qed.
  Lemma gap_back m m' : rtc RS m m' → gap G m' → gap G m.
  Proof. intros H (m1 & m2 & H1 & H2). exists m1, m2. split; [by etrans|done]. Qed.
  Lemma stuck_edge_back m m1 e m' : rtc RS m m1 → stuck_edge G m1 e m' → stuck_edge G m e m'.
  Proof. intros H (m2 & l & g & H1 & H2). exists m2, l, g. split; [by etrans|done]. Qed.
  Lemma stuck_tri_back m m1 t m' : rtc RS m m1 → stuck_tri G m1 t m' → stuck_tri G m t m'.
  Proof. intros H (m2 & l & g & H1 & H2). exists m2, l, g. split; [by etrans|done]. Qed.

  Lemma outcome_bind {R S} m (r : option (mesh V T * R)) (k : mesh V T * R → option (mesh V T * S)) (Q : mesh V T → R → Prop) (Q' : mesh V T → S → Prop) :
    outcome G m r Q → (∀ m' x, rtc RS m m' → Q m' x → outcome G m' (k (m', x)) Q') → outcome G m (r ≫= k) Q'.
  Proof.
    intros [H|[[-> H]|(m' & x & -> & H1 & H2)]] Hk; [by left|right; by left|]. destruct (Hk m' x H1 H2) as [H|[[E H]|(m2 & y & E & K1 & K2)]].
    - left. by eapply trouble_back.
    - right. left. split; [done|]. by eapply gap_back.
    - right. right. exists m2, y. split; [done|]. split; [by etrans|done].
  Qed.
  Lemma outcome_mono {R} m (r : option (mesh V T * R)) (Q Q' : mesh V T → R → Prop) : outcome G m r Q → (∀ m' x, rtc RS m m' → Q m' x → Q' m' x) → outcome G m r Q'.
  Proof. intros [H|[H|(m' & x & E & H1 & H2)]] HQ; [by left|right; by left|]. right. right. exists m', x. eauto. Qed.
  Lemma outcome_ret {R} m (x : R) (Q : mesh V T → R → Prop) : Q m x → outcome G m (Some (m, x)) Q.
  Proof. intros. right. right. by exists m, x. Qed.

  (** [recover_and_lock_edge] in full. *)
  Lemma recover_edge_full depth m a b l : fit m → solid m a → g_cross G m (a, b) = Some l → listed m l →
    (∃ m1, rtc (EF (a, b)) m m1 ∧ edge_clash G (a, b) m1) ∨
    ∃ m1, rtc (EF (a, b)) m m1 ∧ fit m1 ∧
      ((recover_edge G m (a, b) depth = Some (m1, false) ∧ ∃ g, g ∈ l ∧ present m1 g) ∨
       ((∀ g, g ∈ l → edge_avoids G (a, b) m g → ¬ present m1 g) ∧
        ((joined m1 a b ∧ ∃ m', recover_edge G m (a, b) depth = Some (m', true) ∧ edge_locked m1 m' a b) ∨
         (¬ joined m1 a b ∧ recover_edge G m (a, b) depth = None)))).
  Proof.
    intros Hf [Hg Ha] El Hl. destruct (clear_ok G (may_edge G (a, b)) (may_tri G (a, b)) depth l m Hf Hl) as [Hj|(m1 & st1 & E & H1 & H2 & H3)]; [by left|right].
    exists m1. split; [done|]. split; [done|]. unfold recover_edge. rewrite El. cbn [mbind option_bind]. rewrite E. cbn [mbind option_bind].
    destruct H3 as [[-> H3]|[Hne H3]].
    - right. split; [done|]. cbn [fst snd].
      assert (attached m1 a) as Ha1 by (apply (kp_att _ _ (steps_keep _ _ _ m m1 Hf H1)); done).
      destruct (edge_lookup m1 a b (proj1 H2) Ha1 Hg) as [(Hj & w & -> & Hw & Ep)|(Hn & ->)]; cbn [mbind option_bind]; [left|by right].
      split; [done|]. destruct (lock_edge_ok m1 w a b H2 Hw Ep) as (m' & -> & K). by exists m'.
    - left. split; [|done]. by destruct st1.
  Qed.

  Lemma recover_edge_out depth m a b : fit m → lists_well G m → solid m a → solid m b → a ≠ b →
    outcome G m (recover_edge G m (a, b) depth) (λ m' ok, if ok then locked_edge m' a b else stuck_edge G m (a, b) m').
  Proof.
    intros Hf Hlw Ha Hb Hne. destruct (proj1 (Hlw m (rtc_refl _ _)) a b Hne Ha Hb) as (l & El & Hl).
    destruct (recover_edge_full depth m a b l Hf Ha El Hl) as [(m1 & H1 & H2)|(m1 & H1 & H2 & [(E & g & G1 & G2)|(Hcl & [(Hj & m' & E & K)|(Hn & E)])])].
    - left. exists m1. split; [by eapply edge_flips|]. left. by exists (a, b).
    - right. right. exists m1, false. split; [done|]. split; [by eapply edge_flips|]. by exists m, l, g.
    - right. right. exists m', true. split; [done|]. split; [|apply (el_edges _ _ _ _ K); by right].
      eapply rtc_r; [by eapply edge_flips|]. by eapply rs_edge_lock.
    - right. left. split; [done|]. exists m, m1. split; [done|]. left. exists (a, b), l. done.
  Qed.

  Lemma recover_edge_deeper_out ds : ∀ m a b, fit m → lists_well G m → solid m a → solid m b → a ≠ b → ds ≠ [] →
    outcome G m (recover_edge_deeper G m (a, b) ds) (λ m' ok, if ok then locked_edge m' a b else stuck_edge G m (a, b) m').
  Proof.
    induction ds as [|d ds IH]; intros m a b Hf Hl Ha Hb Hne Hds; [done|]. cbn [recover_edge_deeper].
    eapply outcome_bind; [by apply recover_edge_out|]. intros m1 ok H1 HQ. cbn beta iota in *. destruct ok; [by apply outcome_ret|].
    destruct ds as [|d' ds]; [by apply outcome_ret|].
    eapply outcome_mono; [apply IH; [apply (rk_fit _ _ (rsteps_keep m m1 Hf H1))|by eapply lists_on|by apply (solid_on m m1)|by apply (solid_on m m1)|done|done]|].
    intros m2 ok H2. destruct ok; [done|]. by eapply stuck_edge_back.
  Qed.

  Lemma recover_edge_list_out es : ∀ m, fit m → lists_well G m → (∀ e, e ∈ es → solid m e.1 ∧ solid m e.2 ∧ e.1 ≠ e.2) →
    outcome G m (recover_edge_list G m es) (λ m' ok, if ok then ∀ e, e ∈ es → locked_edge m' e.1 e.2 else ∃ e, e ∈ es ∧ stuck_edge G m e m').
  Proof.
    induction es as [|[a b] es IH]; intros m Hf Hl Hes; cbn [recover_edge_list].
    { apply outcome_ret. intros e He. by apply elem_of_nil in He. }
    destruct (Hes (a, b) ltac:(left)) as (Ha & Hb & Hne).
    eapply outcome_bind; [by apply recover_edge_deeper_out|]. intros m1 ok H1 HQ. cbn beta iota in *. destruct ok.
    - pose proof (rk_fit _ _ (rsteps_keep m m1 Hf H1)) as Hf1.
      eapply outcome_mono; [apply IH; [done|by eapply lists_on|]|].
      { intros e He. destruct (Hes e ltac:(by right)) as (? & ? & ?). split; [by apply (solid_on m m1)|]. split; [by apply (solid_on m m1)|done]. }
      intros m2 ok H2 HQ2. destruct ok.
      + intros e [->|He]%elem_of_cons; [|by apply HQ2]. by apply (rk_edge _ _ (rsteps_keep m1 m2 Hf1 H2)).
      + destruct HQ2 as (e & He & Hs). exists e. split; [by right|]. by eapply stuck_edge_back.
    - apply outcome_ret. exists (a, b). split; [left|done].
  Qed.

  Lemma has_tri_perm m a b c x y z : mesh_ok m → has_tri m a b c → [x; y; z] ≡ₚ [a; b; c] → has_tri m x y z.
  Proof.
    intros Hok Ht Hp. assert (NoDup [a; b; c]) as Hn. { destruct Ht as (w & Hw & Ew). by destruct (wtri_in_order m w a b c Hok Hw Ew). }
    assert (NoDup [x; y; z]) as Hn' by by rewrite Hp. apply (present_tri m x y z Hok Hn').
    rewrite (sorted3_same x y z a b c Hn' Hn); [by apply present_tri|]. intros v. by rewrite Hp.
  Qed.
  Lemma secure m m' a b c : fit m → has_tri m a b c → tri_locked m m' a b c → secured m' a b c.
  Proof.
    intros (Hok & _) Ht [E1 E2 E3 E4 E5] x y z Hp. apply E2; right. split; [by eapply has_tri_perm|]. intros v. cbn [fst snd]. by rewrite Hp.
  Qed.
  Lemma secured_on m m' a b c : fit m → rtc RS m m' → secured m a b c → secured m' a b c.
  Proof. intros Hf H Hs x y z Hp. by apply (rk_tri _ _ (rsteps_keep m m' Hf H)), Hs. Qed.

  Lemma tri_find m a b c : fit m →
    (has_tri m a b c ∧ ∃ w, walker_from_tri m (a, b, c) = Some (Some w) ∧ valid m w ∧ w_tri m w = Some (a, b, c)) ∨
    (¬ has_tri m a b c ∧ walker_from_tri m (a, b, c) = Some None).
  Proof. intros (Hok & Htr & _). unfold walker_from_tri. rewrite Htr. apply (tri_lookup m (a, b, c) Hok Htr). Qed.

  Lemma locked_joined m a b : mesh_ok m → locked_edge m a b → joined m a b.
  Proof.
    intros Hok (e & ue & E1 & E2 & _). pose proof (ok_edge_used m Hok e ue E1) as Hj. rewrite E2 in Hj.
    unfold sorted_2 in Hj. destruct (_ <? _)%N; [|done]. by apply joined_sym.
  Qed.
  Lemma recover_tri_deeper_out ds : ∀ m a b c, fit m → lists_well G m → solid m a → solid m b → solid m c → NoDup [a; b; c] →
    locked_edge m a b → locked_edge m b c → locked_edge m c a → ds ≠ [] →
    outcome G m (recover_tri_deeper G m (a, b, c) ds) (λ m' ok, if ok then secured m' a b c else stuck_tri G m (a, b, c) m').
  Proof.
    induction ds as [|d ds IH]; intros m a b c Hf Hl Ha Hb Hc Hne Lab Lbc Lca Hds; [done|]. cbn [recover_tri_deeper]. pose proof (proj1 Hf) as Hok.
    destruct (tri_find m a b c Hf) as [(Ht & w & E & Hw & Ep)|(Hn & E)]; rewrite E; cbn [mbind option_bind fst snd] in *.
    { destruct (lock_tri_ok m w a b c Hf Hw Ep) as (m' & -> & K). cbn [mbind option_bind]. right. right. exists m', true. split; [done|].
      split; [apply rtc_once; by eapply rs_tri_lock|]. by eapply secure. }
    destruct (proj2 (Hl m (rtc_refl _ _)) a b c Hne Ha Hb Hc ltac:(by apply locked_joined) ltac:(by apply locked_joined) ltac:(by apply locked_joined) Hn) as (l & El & Hli). rewrite El. cbn [mbind option_bind].
    destruct (clear_ok G (may_edge_t G (a, b, c)) may_any d (SEdge <$> l) m Hf Hli) as [(m1 & J1 & J2)|(m1 & st1 & Es & H1 & H2 & H3)].
    { left. exists m1. split; [by eapply tri_flips|]. right. by exists (a, b, c). }
    rewrite Es. cbn [mbind option_bind]. destruct H3 as [[-> H3]|[Hst H3]].
    - destruct (tri_find m1 a b c H2) as [(Ht & w & E' & Hw & Ep)|(Hn' & E')]; rewrite E'; cbn [mbind option_bind fst snd] in *.
      + destruct (lock_tri_ok m1 w a b c H2 Hw Ep) as (m' & -> & K). cbn [mbind option_bind]. right. right. exists m', true. split; [done|].
        split; [eapply rtc_r; [by eapply tri_flips|]; by eapply rs_tri_lock|]. by eapply secure.
      + right. left. split; [done|]. exists m, m1. split; [done|]. right. exists a, b, c, l. split; [done|]. split; [done|]. split; [|done].
        intros e He. apply H3. by apply elem_of_list_fmap_1.
    - destruct H3 as (g & Hg & Hp). apply elem_of_list_fmap in Hg as (e & -> & He).
      assert (stuck_tri G m (a, b, c) m1) as Hstuck by (exists m, l, e; done).
      assert (rtc RS m m1) as Hr by (by eapply tri_flips).
      destruct st1 as [|g1 st1]; [done|].
      assert (∀ X, outcome G m1 X (λ m' ok, if ok : bool then secured m' a b c else stuck_tri G m (a, b, c) m') → outcome G m X (λ m' ok, if ok then secured m' a b c else stuck_tri G m (a, b, c) m')) as Hback.
      { intros X [K|[[K K']|(m2 & x & K1 & K2 & K3)]]; [left; by eapply trouble_back|right; left; split; [done|by eapply gap_back]|].
        right. right. exists m2, x. split; [done|]. split; [by etrans|done]. }
      apply Hback. destruct ds as [|d' ds]; [by apply outcome_ret|].
      pose proof (rk_edge _ _ (rsteps_keep m m1 Hf Hr)) as Hkeep.
      eapply outcome_mono; [apply IH; [done|by eapply lists_on|by apply (solid_on m m1)|by apply (solid_on m m1)|by apply (solid_on m m1)|done|by apply Hkeep|by apply Hkeep|by apply Hkeep|done]|].
      intros m2 ok K. destruct ok; [done|]. by eapply stuck_tri_back.
  Qed.

  Lemma recover_tri_out m a b c : fit m → lists_well G m → solid m a → solid m b → solid m c → NoDup [a; b; c] →
    outcome G m (recover_tri G m (a, b, c)) (λ m' ok,
      if ok then secured m' a b c ∧ locked_edge m' a b ∧ locked_edge m' b c ∧ locked_edge m' c a
      else (∃ e, e ∈ [(a, b); (b, c); (c, a)] ∧ stuck_edge G m e m') ∨
           (stuck_tri G m (a, b, c) m' ∧ locked_edge m' a b ∧ locked_edge m' b c ∧ locked_edge m' c a)).
  Proof.
    intros Hf Hl Ha Hb Hc Hne. unfold recover_tri. pose proof (proj1 (nodup3 _ _ _) Hne) as (N1 & N2 & N3).
    eapply outcome_bind; [apply recover_edge_list_out; [done|done|]|].
    { intros e He. rewrite ?elem_of_cons, ?elem_of_nil in He. destruct He as [->|[->|[->|[]]]]; cbn; auto. }
    intros m1 ok H1 HQ. cbn beta iota in *. destruct ok; [|apply outcome_ret; by left].
    pose proof (rk_fit _ _ (rsteps_keep m m1 Hf H1)) as Hf1.
    assert (∀ m2 (x : bool), rtc RS m1 m2 → locked_edge m2 a b ∧ locked_edge m2 b c ∧ locked_edge m2 c a) as Hle.
    { intros m2 x H2. pose proof (rsteps_keep m1 m2 Hf1 H2) as K.
      split; [apply K, (HQ (a, b)); set_solver|]. split; [apply K, (HQ (b, c)); set_solver|apply K, (HQ (c, a)); set_solver]. }
    destruct (Hle m1 true (rtc_refl _ _)) as (L1 & L2 & L3).
    eapply outcome_mono; [apply recover_tri_deeper_out; [done|by eapply lists_on|by apply (solid_on m m1)|by apply (solid_on m m1)|by apply (solid_on m m1)|done|done|done|done|done]|].
    intros m2 ok H2 HQ2. destruct ok; [by split; [|apply (Hle m2 true)]|]. right. split; [by eapply stuck_tri_back|by apply (Hle m2 true)].
  Qed.

  (** Locking an edge by its id. *)
  Lemma lock_id m id ue : fit m → im_get (m_edges m) id = Some ue →
    ∃ es, im_set (m_edges m) id (UEdge (ue_vs ue) (ue_boundary ue) true (ue_bw ue)) = Some es ∧
      edge_locked m (with_edges m es) (ue_vs ue).1 (ue_vs ue).2 ∧ (∀ x, x ≠ id → im_get es x = im_get (m_edges m) x).
  Proof.
    intros Hf E. pose proof Hf as (Hok & _). destruct (ok_edge_used m Hok id ue E) as (w & Hw & Hp).
    destruct (ok_edge m Hok w _ _ Hw Hp) as (e & ue' & F1 & F2 & F3).
    assert (sorted_2 ((ue_vs ue).1, (ue_vs ue).2) = ue_vs ue) as Es.
    { pose proof (ok_edge_sorted m Hok id ue E) as K. destruct (ue_vs ue) as [a b]. by apply Integrity.sorted_2_id. }
    assert (e = id) as -> by (apply (ok_edge_unique m Hok e id ue' ue); [done|done|congruence]).
    rewrite E in F2. injection F2 as <-.
    destruct (lock_edge_ok m w _ _ Hf Hw Hp) as (m' & L & K). unfold set_edge_lock in L. rewrite F1 in L. cbn [mbind option_bind] in L. rewrite E in L. cbn [mbind option_bind] in L.
    destruct (im_set _ _ _) as [es|] eqn:Ees; [|done]. cbn in L. injection L as <-. exists es. split; [done|]. split; [done|].
    unfold im_set in Ees. rewrite E in Ees. injection Ees as <-. intros x Hx. unfold im_get. cbn. by rewrite lookup_insert_ne.
  Qed.

  Lemma lock_listed_ok its : ∀ m l, fit m → NoDup its.*1 → (∀ id ue, (id, ue) ∈ its → im_get (m_edges m) id = Some ue) →
    ∃ m' l', mfoldl lock_listed its (m, l) = Some (m', l') ∧ rtc RS m m' ∧ m_tets m' = m_tets m ∧
      l' = filter (λ e, e ∉ (ue_vs <$> its.*2)) l ∧
      (∀ e, e ∈ l → e ∈ (ue_vs <$> its.*2) → locked_edge m' e.1 e.2).
  Proof.
    induction its as [|[id ue] its IH]; intros m l Hf Hnd Hits; cbn [mfoldl].
    { exists m, l. split; [done|]. split; [done|]. split; [done|]. split.
      - clear. induction l as [|e l IH]; [done|]. rewrite filter_cons_True by (cbn; apply not_elem_of_nil). by rewrite <- IH.
      - intros e _ He. by apply elem_of_nil in He. }
    apply stdpp.list.NoDup_cons in Hnd as [Hni Hnd]. cbn [fst] in Hni.
    assert (im_get (m_edges m) id = Some ue) as E by (apply Hits; left).
    assert (∀ i u, (i, u) ∈ its → i ≠ id) as Hne.
    { intros i u Hi ->. apply Hni. apply elem_of_list_fmap. by exists (id, u). }
    destruct (decide (ue_vs ue ∈ l)) as [Hin|Hin].
    - destruct (lock_id m id ue Hf E) as (es & Ees & K & Kx).
      assert (lock_listed (m, l) (id, ue) = Some (with_edges m es, filter (λ e, e ≠ ue_vs ue) l)) as Estep.
      { unfold lock_listed. rewrite decide_True by done. by rewrite Ees. }
      rewrite Estep. cbn [mbind option_bind].
      destruct (IH (with_edges m es) (filter (λ e, e ≠ ue_vs ue) l)) as (m' & l' & -> & H1 & H2 & H3 & H4); [apply K|done| |].
      { intros i u Hi. cbn [m_edges with_edges]. rewrite Kx by (by eapply Hne). apply Hits. by right. }
      assert (RS m (with_edges m es)) as Hs by (eapply rs_edge_lock; [by eapply ok_edge_used; [apply Hf|]|done]).
      exists m', l'. split; [done|]. split; [by eapply rtc_l|]. split; [done|]. split.
      + subst l'. rewrite list_filter_filter. apply list_filter_iff. intros e. cbn. rewrite not_elem_of_cons. tauto.
      + intros e He [->|He']%elem_of_cons.
        * apply (rk_edge _ _ (rsteps_keep _ m' (el_fit _ _ _ _ K) H1)). apply (el_edges _ _ _ _ K). by right.
        * destruct (decide (e = ue_vs ue)) as [->|Hd].
          -- apply (rk_edge _ _ (rsteps_keep _ m' (el_fit _ _ _ _ K) H1)). apply (el_edges _ _ _ _ K). by right.
          -- apply H4; [|done]. apply elem_of_list_filter. done.
    - assert (lock_listed (m, l) (id, ue) = Some (m, l)) as Estep.
      { unfold lock_listed. by rewrite decide_False. }
      rewrite Estep. cbn [mbind option_bind]. destruct (IH m l Hf Hnd) as (m' & l' & -> & H1 & H2 & H3 & H4); [intros i u Hi; apply Hits; by right|].
      exists m', l'. split; [done|]. split; [done|]. split; [done|]. split.
      + subst l'. clear - Hin. induction l as [|e l IH]; [done|]. apply not_elem_of_cons in Hin as [Hn Hin]. rewrite !filter_cons. rewrite IH by done.
        destruct (decide (e ∉ ue_vs <$> its.*2)) as [H|H], (decide (e ∉ ue_vs <$> ((id, ue) :: its).*2)) as [H'|H']; try done; cbn in H'.
        * exfalso. apply H'. apply not_elem_of_cons. done.
        * exfalso. apply H. intros K. apply H'. by right.
      + intros e He [->|He']%elem_of_cons; [done|]. by apply H4.
  Qed.

  Lemma recover_rest_out es : ∀ m, fit m → lists_well G m → (∀ e, e ∈ es → solid m e.1 ∧ solid m e.2 ∧ e.1 ≠ e.2) →
    outcome G m (recover_rest G m es) (λ m' missing, missing `sublist_of` es ∧
      (∀ e, e ∈ es → locked_edge m' e.1 e.2 ∨ e ∈ missing) ∧
      (∀ e, e ∈ missing → ∃ m1, stuck_edge G m e m1 ∧ rtc RS m1 m')).
  Proof.
    induction es as [|[a b] es IH]; intros m Hf Hl Hes; cbn [recover_rest].
    { apply outcome_ret. split; [done|]. split; intros e He; by apply elem_of_nil in He. }
    destruct (Hes (a, b) ltac:(left)) as (Ha & Hb & Hne).
    eapply outcome_bind; [by apply recover_edge_deeper_out|]. intros m1 ok H1 HQ. cbn beta iota in *.
    pose proof (rk_fit _ _ (rsteps_keep m m1 Hf H1)) as Hf1.
    eapply outcome_bind; [apply IH; [done|by eapply lists_on|]|].
    { intros e He. destruct (Hes e ltac:(by right)) as (? & ? & ?). split; [by apply (solid_on m m1)|]. split; [by apply (solid_on m m1)|done]. }
    intros m2 missing H2 (Q1 & Q2 & Q3). cbn beta iota in *. apply outcome_ret. destruct ok.
    - split; [by constructor|]. split.
      + intros e [->|He]%elem_of_cons; [|by apply Q2]. left. by apply (rk_edge _ _ (rsteps_keep m1 m2 Hf1 H2)).
      + intros e He. destruct (Q3 e He) as (m3 & K1 & K2). exists m3. split; [by eapply stuck_edge_back|done].
    - split; [by constructor|]. split.
      + intros e [->|He]%elem_of_cons; [right; left|]. destruct (Q2 e He); [by left|right; by right].
      + intros e [->|He]%elem_of_cons; [by exists m1|]. destruct (Q3 e He) as (m3 & K1 & K2). exists m3. split; [by eapply stuck_edge_back|done].
  Qed.

  Lemma locked_has m m' a b c x y z : tri_locked m m' a b c → has_tri m' x y z ↔ has_tri m x y z.
  Proof.
    intros K. assert (∀ m1 m2, (∀ id, t_vs <$> tet_get m2 id = t_vs <$> tet_get m1 id) → has_tri m1 x y z → has_tri m2 x y z) as H.
    { intros m1 m2 Hv (w & [[t E1] Hlt] & Et). exists w. specialize (Hv (w_tet w)). unfold w_tri, w_first, w_second, w_third in Et |- *.
      rewrite E1 in Hv, Et. destruct (tet_get m2 (w_tet w)) as [t'|] eqn:E2; [|done]. cbn in Hv. injection Hv as Hv. cbn in *. rewrite Hv.
      split; [|done]. split; [by rewrite E2|done]. }
    assert (∀ id, t_vs <$> tet_get m' id = t_vs <$> tet_get m id) as Hv.
    { intros id. pose proof (tl_tets _ _ _ _ _ K id) as Kt. destruct (tet_get m' id), (tet_get m id); cbn in *; congruence. }
    split; by apply H.
  Qed.

  Lemma lock_present_ok ts : ∀ m, fit m →
    ∃ m' missing, lock_present m ts = Some (m', missing) ∧ rtc RS m m' ∧ missing `sublist_of` ts ∧
      (∀ a b c, (a, b, c) ∈ ts → (has_tri m a b c ∧ secured m' a b c) ∨ (a, b, c) ∈ missing) ∧
      (∀ a b c, (a, b, c) ∈ missing → ¬ has_tri m a b c).
  Proof.
    induction ts as [|[[a b] c] ts IH]; intros m Hf; cbn [lock_present].
    { exists m, []. split; [done|]. split; [done|]. split; [done|]. split; intros ??? H; by apply elem_of_nil in H. }
    destruct (tri_find m a b c Hf) as [(Ht & w & -> & Hw & Ep)|(Hn & ->)]; cbn [mbind option_bind].
    - destruct (lock_tri_ok m w a b c Hf Hw Ep) as (m1 & -> & K). cbn [mbind option_bind].
      assert (RS m m1) as Hs by (by eapply rs_tri_lock).
      destruct (IH m1 (tl_fit _ _ _ _ _ K)) as (m' & missing & E & H1 & H2 & H3 & H4). exists m', missing. split; [done|]. split; [by eapply rtc_l|].
      split; [by constructor|]. split.
      + intros a' b' c' [[= -> -> ->]|Hi]%elem_of_cons.
        * left. split; [done|]. eapply secured_on; [apply K|done|]. by eapply secure.
        * destruct (H3 a' b' c' Hi) as [[H5 H6]|?]; [left|by right]. split; [|done]. by apply (locked_has m m1 a b c).
      + intros a' b' c' Hi Ht'. apply (H4 a' b' c' Hi). by apply (locked_has m m1 a b c).
    - destruct (IH m Hf) as (m' & missing & -> & H1 & H2 & H3 & H4). cbn [mbind option_bind]. exists m', ((a, b, c) :: missing). split; [done|]. split; [done|].
      split; [by constructor|]. split.
      + intros a' b' c' [[= -> -> ->]|Hi]%elem_of_cons; [right; left|]. destruct (H3 a' b' c' Hi); [by left|right; by right].
      + intros a' b' c' [[= -> -> ->]|Hi]%elem_of_cons; [done|by apply H4].
  Qed.

  Lemma recover_tris_out ts : ∀ m, fit m → lists_well G m → (∀ a b c, (a, b, c) ∈ ts → solid m a ∧ solid m b ∧ solid m c ∧ NoDup [a; b; c]) →
    outcome G m (recover_tris G m ts) (λ m' missing, missing `sublist_of` ts ∧
      (∀ a b c, (a, b, c) ∈ ts → (secured m' a b c ∧ locked_edge m' a b ∧ locked_edge m' b c ∧ locked_edge m' c a) ∨ (a, b, c) ∈ missing) ∧
      (∀ a b c, (a, b, c) ∈ missing → ∃ m1, rtc RS m1 m' ∧
        ((∃ e, e ∈ [(a, b); (b, c); (c, a)] ∧ stuck_edge G m e m1) ∨ stuck_tri G m (a, b, c) m1))).
  Proof.
    induction ts as [|[[a b] c] ts IH]; intros m Hf Hl Hts; cbn [recover_tris].
    { apply outcome_ret. split; [done|]. split; intros ??? H; by apply elem_of_nil in H. }
    destruct (Hts a b c ltac:(left)) as (Ha & Hb & Hc & Hne).
    eapply outcome_bind; [by apply recover_tri_out|]. intros m1 ok H1 HQ. cbn beta iota in *.
    pose proof (rk_fit _ _ (rsteps_keep m m1 Hf H1)) as Hf1.
    eapply outcome_bind; [apply IH; [done|by eapply lists_on|]|].
    { intros a' b' c' Hi. destruct (Hts a' b' c' ltac:(by right)) as (? & ? & ? & ?). split; [by apply (solid_on m m1)|]. split; [by apply (solid_on m m1)|]. split; [by apply (solid_on m m1)|done]. }
    intros m2 missing H2 (Q1 & Q2 & Q3). cbn beta iota in *. apply outcome_ret.
    assert (∀ a' b' c', (a', b', c') ∈ missing → ∃ m3, rtc RS m3 m2 ∧
      ((∃ e, e ∈ [(a', b'); (b', c'); (c', a')] ∧ stuck_edge G m e m3) ∨ stuck_tri G m (a', b', c') m3)) as Hold.
    { intros a' b' c' Hi. destruct (Q3 a' b' c' Hi) as (m3 & K1 & K2). exists m3. split; [done|]. destruct K2 as [(e & He & Hs)|Hs].
      - left. exists e. split; [done|]. by eapply stuck_edge_back.
      - right. by eapply stuck_tri_back. }
    pose proof (rsteps_keep m1 m2 Hf1 H2) as K. destruct ok.
    - split; [by constructor|]. split; [|done].
      intros a' b' c' [[= -> -> ->]|Hi]%elem_of_cons; [|by apply Q2]. left. destruct HQ as (S1 & S2 & S3 & S4). split; [by apply (secured_on m1 m2)|].
      split; [by apply K|]. split; by apply K.
    - split; [by constructor|]. split.
      + intros a' b' c' [[= -> -> ->]|Hi]%elem_of_cons; [right; left|]. destruct (Q2 a' b' c' Hi); [by left|right; by right].
      + intros a' b' c' [[= -> -> ->]|Hi]%elem_of_cons; [|by apply Hold]. exists m1. split; [done|]. destruct HQ as [HQ|[HQ _]]; [by left|by right].
  Qed.
End ok.
