(** Marking the boundary, removing the inside, one tet per boundary triangle. *)
From stdpp Require Import base numbers list gmap option relations.
From Coq Require Import NArith ZArith ZifyN ZifyNat ZifyBool Lia.
From Verif Require Import IdMapModel IdMapSpec IdMapProofs WalkerModel WalkerSpec WalkerProofs SortProofs
  MeshModel WalkerMore MeshOps MeshSpec MeshViews Surgery MeshLink MeshRun FlipBase FlipRun IterModel CavSpec InsModel InsStep.
Local Open Scope nat_scope.

(** The three walkers on each triangle of a list. *)
Definition darts (l : list walker) : list walker := l ≫= λ w, [w; to_nfe w; to_pfe w].
Lemma elem_darts l u : u ∈ darts l ↔ ∃ w, w ∈ l ∧ (u = w ∨ u = to_nfe w ∨ u = to_pfe w).
Proof.
  unfold darts. rewrite elem_of_list_bind. split.
  - intros (w & H & Hw). exists w. rewrite !elem_of_cons, elem_of_nil in H. tauto.
  - intros (w & Hw & H). exists w. rewrite !elem_of_cons, elem_of_nil. tauto.
Qed.
Lemma darts_cons w l : darts (w :: l) = w :: to_nfe w :: to_pfe w :: darts l.
Proof. done. Qed.
Lemma darts_app l l' : darts (l ++ l') = darts l ++ darts l'.
Proof. apply bind_app. Qed.

Lemma mod4 x : x mod 4 < 4.
Proof. by apply Nat.mod_upper_bound. Qed.

Section own.
  Context {V T : Type}.
  Context (tr : bool) (ctr : pt) (nv : N).
  Implicit Types (m : mesh V T) (F G : N → tet T) (w u : walker) (L O : gset N) (id e : N)
    (Ed : N → option uedge) (Vt : N → option (vertex V)).
  Notation st := (st tr ctr nv).

  (** ** Marking. *)
  Definition markF F (l : list N) id : tet T := if decide (id ∈ l) then set_tbound true (F id) else F id.
  Definition markE Ed (l : list N) e : option uedge := if decide (e ∈ l) then set_ebound true <$> Ed e else Ed e.
  Lemma uv_mark F l w : uv (markF F l) w = uv F w.
  Proof. unfold uv, markF. by destruct (decide _). Qed.
  Lemma markE_Some Ed l e : is_Some (Ed e) → is_Some (markE Ed l e).
  Proof. unfold markE. intros [ue ->]. destruct (decide _); eauto. Qed.
  Lemma markE_app Ed l l' e : markE (markE Ed l) l' e = markE Ed (l ++ l') e.
  Proof.
    unfold markE. destruct (decide (e ∈ l')) as [H|H], (decide (e ∈ l)) as [H'|H'].
    - rewrite decide_True by (apply elem_of_app; tauto). by destruct (Ed e).
    - rewrite decide_True by (apply elem_of_app; tauto). done.
    - rewrite decide_True by (apply elem_of_app; tauto). done.
    - rewrite decide_False by (rewrite elem_of_app; tauto). done.
  Qed.
  Lemma markF_app F l l' id : markF (markF F l) l' id = markF F (l ++ l') id.
  Proof.
    unfold markF. destruct (decide (id ∈ l')) as [H|H], (decide (id ∈ l)) as [H'|H'].
    - rewrite decide_True by (apply elem_of_app; tauto). done.
    - rewrite decide_True by (apply elem_of_app; tauto). done.
    - rewrite decide_True by (apply elem_of_app; tauto). done.
    - rewrite decide_False by (rewrite elem_of_app; tauto). done.
  Qed.
  Lemma put_true_s nt ne L F Ed Vt gf tm m w : st nt ne L F Ed Vt gf tm m → w_tet w ∈ L → is_Some (Ed (uv F w)) →
    ∃ m', put_ebound true m w = Some m' ∧ st nt ne L F (markE Ed [uv F w]) Vt gf tm m'.
  Proof.
    intros H Hw [ue He]. destruct (put_ebound_s _ _ _ _ _ _ _ _ _ _ _ _ w ue true H Hw He) as (m' & E & H'). exists m'. split; [done|].
    eapply st_ext; [..|exact H']; try done. intros x. unfold eupd, markE. destruct (decide (x = uv F w)) as [->|Hx].
    - rewrite decide_True by by apply elem_of_list_singleton. by rewrite He.
    - by rewrite decide_False by by rewrite elem_of_list_singleton.
  Qed.
  Lemma mark_s nt ne L Vt gf tm B : ∀ F Ed m, st nt ne L F Ed Vt gf tm m → (∀ w, w ∈ B → w_tet w ∈ L) →
    (∀ u, u ∈ darts B → is_Some (Ed (uv F u))) →
    ∃ m', mfoldl mark_tri B m = Some m' ∧ st nt ne L (markF F (w_tet <$> B)) (markE Ed (uv F <$> darts B)) Vt gf tm m'.
  Proof.
    induction B as [|w B IH]; intros F Ed m H HB HE.
    - exists m. split; [done|]. eapply st_ext; [..|exact H]; done.
    - cbn [mfoldl]. unfold mark_tri at 2. assert (w_tet w ∈ L) as Hw by (apply HB; by left).
      destruct (upd_s _ _ _ _ _ _ _ _ _ _ _ _ (w_tet w) (set_tbound true) H Hw) as (m1 & -> & H1). cbn [mbind option_bind].
      assert (st nt ne L (markF F [w_tet w]) Ed Vt gf tm m1) as H1'.
      { eapply st_ext; [..|exact H1]; try done. intros x _. unfold fupd, markF. destruct (decide (x = w_tet w)) as [->|Hx].
        - by rewrite decide_True by by apply elem_of_list_singleton.
        - by rewrite decide_False by by rewrite elem_of_list_singleton. }
      clear H1. assert (∀ u, u ∈ [w; to_nfe w; to_pfe w] → is_Some (Ed (uv (markF F [w_tet w]) u))) as HE'.
      { intros u Hu. rewrite uv_mark. apply HE. rewrite darts_cons. rewrite !elem_of_cons in *. rewrite elem_of_nil in Hu. tauto. }
      destruct (put_true_s _ _ _ _ _ _ _ _ _ w H1') as (m2 & -> & H2); [done|apply HE'; by left|]. cbn [mbind option_bind].
      destruct (put_true_s _ _ _ _ _ _ _ _ _ (to_nfe w) H2) as (m3 & -> & H3); [done|apply markE_Some, HE'; by right; left|]. cbn [mbind option_bind].
      destruct (put_true_s _ _ _ _ _ _ _ _ _ (to_pfe w) H3) as (m4 & -> & H4); [done|apply markE_Some, markE_Some, HE'; by right; right; left|]. cbn [mbind option_bind].
      destruct (IH _ _ m4 H4) as (m5 & E5 & H5).
      { intros u Hu. apply HB. by right. }
      { intros u Hu. apply markE_Some, markE_Some, markE_Some. rewrite uv_mark. apply HE. rewrite darts_cons. rewrite !elem_of_cons. tauto. }
      exists m5. split; [exact E5|]. eapply st_ext; [..|exact H5]; try done.
      + intros x _. rewrite markF_app. done.
      + intros x. rewrite !markE_app. rewrite !uv_mark. f_equal. rewrite darts_cons. cbn [fmap list_fmap app]. do 3 f_equal.
        apply list_fmap_ext. intros ? u _. apply uv_mark.
  Qed.

  (** ** Removing what is not marked. *)
  Definition tedges F (l : list N) : list N := l ≫= λ id, list6 (t_edges (F id)).
  Definition isb (o : option uedge) : bool := match o with Some ue => ue_boundary ue | None => false end.
  Definition purgeE Ed (l : list N) e : option uedge := if decide (e ∈ l) then (if isb (Ed e) then Ed e else None) else Ed e.
  Lemma purgeE_app Ed l l' e : purgeE (purgeE Ed l) l' e = purgeE Ed (l ++ l') e.
  Proof.
    unfold purgeE. destruct (decide (e ∈ l')) as [H|H], (decide (e ∈ l)) as [H'|H'].
    - rewrite decide_True by (apply elem_of_app; tauto). destruct (isb (Ed e)) eqn:E; [by rewrite E|done].
    - by rewrite decide_True by (apply elem_of_app; tauto).
    - by rewrite decide_True by (apply elem_of_app; tauto).
    - by rewrite decide_False by (rewrite elem_of_app; tauto).
  Qed.
  Lemma drops_s nt ne L F Vt gf tm l : ∀ Ed m, st nt ne L F Ed Vt gf tm m →
    st nt ne L F (purgeE Ed l) Vt gf tm (fold_left drop_edge l m).
  Proof.
    induction l as [|e l IH]; intros Ed m H; cbn [fold_left].
    - eapply st_ext; [..|exact H]; done.
    - assert (st nt ne L F (purgeE Ed [e]) Vt gf tm (drop_edge m e)) as H1.
      { unfold drop_edge. rewrite (st_E _ _ _ _ _ _ _ _ _ _ _ _ H).
        assert (∀ x, x ∈ [e] ↔ x = e) as He by (intros x; apply elem_of_list_singleton).
        destruct (Ed e) as [ue|] eqn:Ee; [destruct (ue_boundary ue) eqn:Eb|].
        - eapply st_ext; [..|exact H]; try done. intros x. unfold purgeE. destruct (decide (x ∈ [e])) as [->%He|]; [|done]. rewrite Ee. cbn. by rewrite Eb.
        - eapply st_ext; [..|exact (eremove_s _ _ _ _ _ _ _ _ _ _ _ _ e H)]; try done. intros x. unfold purgeE. destruct (decide (x = e)) as [->|Hx].
          + rewrite decide_True by by apply He. rewrite Ee. cbn. by rewrite Eb.
          + rewrite decide_False; [done|]. by rewrite He.
        - eapply st_ext; [..|exact H]; try done. intros x. unfold purgeE. destruct (decide (x ∈ [e])) as [->%He|]; [|done]. by rewrite Ee. }
      apply IH in H1. eapply st_ext; [..|exact H1]; try done. intros x. by rewrite purgeE_app.
  Qed.
  Definition unmarked F (l : list N) : list N := filter (λ id, f_boundary (t_flags (F id)) = false) l.
  Lemma purge_s nt ne F Vt gf tm l : ∀ L Ed m, st nt ne L F Ed Vt gf tm m → NoDup l → (∀ id, id ∈ l → id ∈ L) →
    ∃ m', mfoldl purge_tet l m = Some m' ∧
      st nt ne (L ∖ list_to_set (unmarked F l)) F (purgeE Ed (tedges F l)) Vt gf tm m'.
  Proof.
    induction l as [|id l IH]; intros L Ed m H Hnd Hl; cbn [mfoldl].
    - exists m. split; [done|]. eapply st_ext; [..|exact H]; try done. cbn. set_solver.
    - apply NoDup_cons in Hnd as [Hid Hnd]. assert (id ∈ L) as HidL by (apply Hl; by left).
      unfold purge_tet at 2. rewrite (mv_in _ _ _ _ (st_mv _ _ _ _ _ _ _ _ _ _ _ _ H) HidL). cbn [mbind option_bind].
      pose proof (drops_s _ _ _ _ _ _ _ (list6 (t_edges (F id))) _ _ H) as H1.
      rewrite (mv_in _ _ _ _ (st_mv _ _ _ _ _ _ _ _ _ _ _ _ H1) HidL). cbn [mbind option_bind].
      set (m1 := fold_left drop_edge (list6 (t_edges (F id))) m) in *. clearbody m1.
      destruct (f_boundary (t_flags (F id))) eqn:Eb.
      + destruct (IH _ _ _ H1 Hnd) as (m2 & E2 & H2); [intros x Hx; apply Hl; by right|]. exists m2. split; [done|].
        eapply st_ext; [..|exact H2]; try done.
        * intros x. unfold unmarked. by rewrite filter_cons_False by by rewrite Eb.
        * intros x. by rewrite purgeE_app.
      + pose proof (tremove_s _ _ _ _ _ _ _ _ _ _ _ _ id H1) as H1'.
        destruct (IH _ _ _ H1' Hnd) as (m2 & E2 & H2).
        { intros x Hx. rewrite elem_of_difference, elem_of_singleton. split; [apply Hl; by right|]. by intros ->. }
        exists m2. split; [done|]. eapply st_ext; [..|exact H2]; try done.
        * intros x. unfold unmarked. rewrite filter_cons_True by done. rewrite list_to_set_cons. rewrite !elem_of_difference, elem_of_union. tauto.
        * intros x. by rewrite purgeE_app.
  Qed.

  (** ** One tet per boundary triangle. *)
  Definition redirect F (adj : walker) (id : N) : tet T → tet T :=
    λ t', set_opp (w_edge adj mod 4) (Walker id (w_edge (get4 (t_opp t') (w_edge adj mod 4)))) t'.
  (** Same tet up to the two flags. *)
  Definition sim_flags (f f' : tflags) : Prop :=
    f_locked f' = f_locked f ∧ f_imm f' = f_imm f ∧ f_limit f' = f_limit f ∧ f_wfv f' = f_wfv f ∧ f_notenc f' = f_notenc f.
  Definition sim (t t' : tet T) : Prop :=
    t_vs t' = t_vs t ∧ t_opp t' = t_opp t ∧ t_edges t' = t_edges t ∧ t_val t' = t_val t ∧ sim_flags (t_flags t) (t_flags t').

  (** [Z] pairs the boundary walkers already treated with their replacements. *)
  Record owned O F (Kb : gset N) (Z : list (walker * walker)) L G : Prop := Owned {
    ow_L id : id ∈ L ↔ id ∈ O ∨ id ∈ Kb ∨ id ∈ w_tet <$> Z.*2;
    ow_disj w w' : (w, w') ∈ Z → w_tet w' ∉ O;
    ow_edge w w' : (w, w') ∈ Z → w_edge w' = w_edge w;
    ow_nodup : NoDup (w_tet <$> Z.*2);
    ow_first id : id ∈ Kb → id ∈ w_tet <$> Z.*2 ↔ id ∈ w_tet <$> Z.*1;
    ow_O id : id ∈ O → same_but_opp (F id) (G id);
    ow_opp id : id ∈ O → oppok G id;
    ow_Z w w' : (w, w') ∈ Z → sim (F (w_tet w)) (G (w_tet w'));
    ow_Kb id : id ∈ Kb → sim (F id) (G id) ∧ (f_dup (t_flags (G id)) = true ↔ id ∈ w_tet <$> Z.*1);
    ow_in w w' r : (w, w') ∈ Z → vd O r → side (av F r) = side w → av G r = Walker (w_tet w') (w_edge (av F r));
    ow_out r : vd O r → side (av F r) ∉ side <$> Z.*1 → av G r = av F r }.

  Lemma opp_tri_entry L F w : vok L F → vd L w → w_edge w < 12 →
    let adj := get4 (t_opp (F (w_tet w))) (w_edge w mod 4) in
    w_tet adj = w_tet (av F w) ∧ w_edge adj mod 4 = w_edge (av F w) mod 4 ∧ w_edge adj < 12.
  Proof.
    intros Hok Hw He. cbv zeta. set (adj := get4 _ _). pose proof (Nat.mod_upper_bound (w_edge w) 4).
    assert (w_edge adj < 12) as Ha. { apply (vok_oppok _ _ _ Hok (proj1 Hw)). lia. }
    unfold av. fold adj. rewrite rot_tet. split; [done|]. split; [|done].
    destruct (w_edge w / 4) as [|[|k]]; cbn [rot]; [done|..].
    - unfold to_pfe. cbn [w_edge]. by rewrite pfe_mod4.
    - unfold to_nfe. cbn [w_edge]. by rewrite nfe_mod4.
  Qed.

  Lemma elem_fst_snd (Z : list (walker * walker)) w : w ∈ Z.*1 → ∃ w', (w, w') ∈ Z.
  Proof. rewrite elem_of_list_fmap. intros ([a b] & -> & H). eauto. Qed.

  Section own_step.
    Context (O K Kb : gset N) (F : N → tet T) (Hok : vok (O ∪ K) F) (HD : O ## K) (HKb : ∀ id, id ∈ Kb → id ∈ K).

    (** Sides of the boundary are crossed from one outer side only. *)
    Local Lemma same_cross r r' : vd O r → vd O r' → side (av F r) = side (av F r') → sf r r'.
    Proof.
      intros Hr Hr' E. apply (sf_av (O ∪ K) F); [done|..].
      - split; [by apply elem_of_union_l, Hr|apply Hr].
      - split; [by apply elem_of_union_l, Hr'|apply Hr'].
      - unfold side in E. injection E as E1 E2. by split.
    Qed.

    Lemma own_step nt ne Ed Vt gf tm Z L G m w :
      st nt ne L G Ed Vt gf tm m → owned O F Kb Z L G → (nt < u32_mod)%N →
      vd K w → w_tet (av F w) ∈ O → w_tet w ∈ Kb → side w ∉ side <$> Z.*1 →
      ∃ m' w' L' G', own_tet (m, Z.*2) w = Some (m', (Z ++ [(w, w')]).*2) ∧ st (nt + 1) ne L' G' Ed Vt gf tm m' ∧
        owned O F Kb (Z ++ [(w, w')]) L' G'.
    Proof.
      intros Hst Hz Hn Hw Ha Hb Hs. pose proof Hz as [Z1 Z2 Z3 Z4 Z5 Z6 Z7 Z8 Z9 Z10 Z11].
      assert (w_tet w ∈ L) as HwL by (apply Z1; tauto).
      assert (vd (O ∪ K) w) as Hw' by (split; [apply elem_of_union_r, Hw|apply Hw]).
      destruct (Z9 _ Hb) as [Hsim Hdup].
      assert (∀ w', (Z ++ [(w, w')]).*2 = Z.*2 ++ [w']) as E2 by (intros; by rewrite fmap_app).
      assert (∀ w', (Z ++ [(w, w')]).*1 = Z.*1 ++ [w]) as E1 by (intros; by rewrite fmap_app).
      assert (∀ r, vd O r → side (av F r) = side w → sf r (av F w)) as Hcross.
      { intros r Hr E. destruct (vo_adj _ _ Hok w Hw') as [Haw _]. apply same_cross; [done|by split; [|apply Haw]|].
        rewrite (av_av _ _ _ Hok Hw'). done. }
      unfold own_tet. rewrite (mv_in _ _ _ _ (st_mv _ _ _ _ _ _ _ _ _ _ _ _ Hst) HwL). cbn [mbind option_bind].
      destruct (f_dup (t_flags (G (w_tet w)))) eqn:Ed0.
      - destruct (tinsert_s _ _ _ _ _ _ _ _ _ _ _ _ (G (w_tet w)) Hst Hn) as (m1 & id & Ei & Hid & Hst1). rewrite Ei.
        assert (id ≠ w_tet w) as Hne by by intros ->.
        rewrite (mv_adj_ae _ _ _ w (st_mv _ _ _ _ _ _ _ _ _ _ _ _ Hst1)) by (apply elem_of_union_r, HwL). cbn [mbind option_bind].
        rewrite fupd_ne by done. destruct Hsim as (S1 & S2 & S3 & S4 & S5). rewrite S2.
        destruct (opp_tri_entry (O ∪ K) F w Hok Hw' (proj2 Hw)) as (A1 & A2 & A3). set (adj := get4 _ _) in *.
        assert (w_tet adj ∈ O) as HaO by by rewrite A1.
        assert (w_tet adj ∈ L) as HaL by (apply Z1; tauto). assert (id ≠ w_tet adj) as Hne' by by intros ->.
        destruct (upd_s _ _ _ _ _ _ _ _ _ _ _ _ (w_tet adj) (redirect F adj id) Hst1) as (m2 & Eu & Hst2); [by apply elem_of_union_r|].
        unfold redirect in Eu. rewrite Eu. cbn [mbind option_bind]. rewrite fupd_ne in Hst2 by done.
        exists m2, (Walker id (w_edge w)). eexists _, _. split; [by rewrite E2|]. split; [exact Hst2|].
        set (G2 := fupd (fupd G id (G (w_tet w))) (w_tet adj) (redirect F adj id (G (w_tet adj)))).
        assert (∀ x, x ≠ id → x ≠ w_tet adj → G2 x = G x) as G2o by (intros x H1 H2; unfold G2; by rewrite !fupd_ne).
        assert (G2 id = G (w_tet w)) as G2i. { unfold G2. rewrite fupd_ne by done. unfold fupd. by rewrite decide_True. }
        assert (G2 (w_tet adj) = redirect F adj id (G (w_tet adj))) as G2a. { unfold G2, fupd. by rewrite decide_True. }
        assert (∀ x, x ∈ L → x ≠ id) as HL by by intros x Hx ->.
        assert (∀ x, x ∈ Kb → x ≠ w_tet adj) as HKO. { intros x Hx ->. apply (HD (w_tet adj)); [done|by apply HKb]. }
        assert (id ∉ w_tet <$> Z.*2) as HidZ. { intros H. apply Hid, Z1. tauto. }
        assert (∀ a b, (a, b) ∈ Z → w_tet b ∈ w_tet <$> Z.*2) as HZin.
        { intros a b H. apply elem_of_list_fmap. exists b. split; [done|]. apply elem_of_list_fmap. by exists (a, b). }
        split.
        + intros x. rewrite E2, fmap_app, elem_of_app. cbn. rewrite elem_of_union, elem_of_singleton, elem_of_list_singleton, Z1. tauto.
        + intros a b [H|[= -> ->]%elem_of_list_singleton]%elem_of_app; [by eapply Z2|]. cbn. intros H. apply Hid, Z1. tauto.
        + intros a b [H|[= -> ->]%elem_of_list_singleton]%elem_of_app; [by eapply Z3|done].
        + rewrite E2, fmap_app. apply NoDup_app. split; [done|]. split; [|apply NoDup_singleton]. cbn. intros x Hx ->%elem_of_list_singleton. done.
        + intros x Hx. rewrite E1, E2, !fmap_app, !elem_of_app. cbn. rewrite !elem_of_list_singleton.
          assert (x ≠ id) by (apply HL, Z1; tauto). rewrite (Z5 _ Hx). pose proof (proj1 Hdup eq_refl) as Ed1. split; [tauto|]. intros [H1| ->]; tauto.
        + intros x Hx. destruct (decide (x = w_tet adj)) as [->|]; [|rewrite G2o; [by apply Z6|apply HL, Z1; tauto|done]]. rewrite G2a. exact (Z6 _ Hx).
        + intros x Hx. destruct (decide (x = w_tet adj)) as [->|]; [|unfold oppok; rewrite G2o; [by apply Z7|apply HL, Z1; tauto|done]].
          unfold oppok. rewrite G2a. intros i Hi. cbn. rewrite get4_set4 by (apply mod4 || done).
          destruct (decide _); [|by apply Z7]. cbn. apply Z7; [done|]. apply mod4.
        + intros a b [H|[= -> ->]%elem_of_list_singleton]%elem_of_app.
          * rewrite G2o; [by apply Z8| |].
            -- intros E. apply HidZ. rewrite <- E. by eapply HZin.
            -- intros E. apply (Z2 _ _ H). by rewrite E.
          * cbn. rewrite G2i. done.
        + intros x Hx. rewrite G2o; [|apply HL, Z1; tauto|by apply HKO]. destruct (Z9 x Hx) as [H1 H2]. split; [done|].
          rewrite H2, E1, fmap_app, elem_of_app. cbn. rewrite elem_of_list_singleton. pose proof (proj1 Hdup eq_refl) as Ed1. split; [tauto|]. intros [H3| ->]; done.
        + intros a b r [H|[= -> ->]%elem_of_list_singleton]%elem_of_app Hr E.
          * rewrite <- (Z10 a b r H Hr E). unfold av at 1. destruct (decide (w_tet r = w_tet adj)) as [Er|].
            2:{ rewrite G2o; [done|apply HL, Z1; left; apply Hr|done]. }
            rewrite Er, G2a. unfold redirect, av. cbn [t_opp set_opp]. rewrite get4_set4 by apply mod4.
            rewrite decide_False; [by rewrite Er|]. intros Ee. apply Hs. apply elem_of_list_fmap. exists a. split; [|apply elem_of_list_fmap; by exists (a, b)].
            rewrite <- E. symmetry. (* r is on the same side as av F w *)
            assert (sf r (av F w)) as Hsf by (split; congruence).
            assert (vd (O ∪ K) r) as Hr' by (split; [by apply elem_of_union_l, Hr|apply Hr]).
            destruct (vo_adj _ _ Hok w Hw') as [Haw _].
            rewrite <- (av_av _ _ _ Hok Hr') in Hsf. apply (sf_av (O ∪ K) F) in Hsf; [|done|by apply (vo_adj _ _ Hok)|done].
            destruct Hsf as [X1 X2]. unfold side. congruence.
          * destruct (Hcross r Hr E) as [X1 X2]. unfold av at 1. rewrite X1, <- A1, G2a. unfold redirect. cbn [t_opp set_opp].
            rewrite get4_set4 by apply mod4. rewrite decide_True by congruence. cbn [w_tet].
            pose proof (Z11 r Hr) as Hout. rewrite E in Hout. specialize (Hout Hs). rewrite <- Hout. unfold av. rewrite X1, <- A1, A2, <- X2.
            destruct (w_edge r / 4) as [|[|k]]; done.
        + intros r Hr E. rewrite E1, fmap_app, not_elem_of_app in E. destruct E as [E E']. cbn in E'. rewrite elem_of_list_singleton in E'.
          rewrite <- (Z11 r Hr E). unfold av at 1. destruct (decide (w_tet r = w_tet adj)) as [Er|].
          2:{ rewrite G2o; [done|apply HL, Z1; left; apply Hr|done]. }
          rewrite Er, G2a. unfold redirect, av. cbn [t_opp set_opp]. rewrite get4_set4 by apply mod4.
          rewrite decide_False; [by rewrite Er|]. intros Ee. apply E'.
          assert (sf r (av F w)) as Hsf by (split; congruence).
          assert (vd (O ∪ K) r) as Hr' by (split; [by apply elem_of_union_l, Hr|apply Hr]).
          destruct (vo_adj _ _ Hok w Hw') as [Haw _].
          rewrite <- (av_av _ _ _ Hok Hr') in Hsf. apply (sf_av (O ∪ K) F) in Hsf; [|done|by apply (vo_adj _ _ Hok)|done].
          destruct Hsf as [X1 X2]. unfold side. congruence.
      - destruct (upd_s _ _ _ _ _ _ _ _ _ _ _ _ (w_tet w) (set_tdup true) Hst HwL) as (m1 & Eu & Hst1). rewrite Eu. cbn [mbind option_bind].
        exists m1, w. eexists _, _. split; [by rewrite E2|]. split; [eapply st_le; [| |exact Hst1]; lia|].
        set (G1 := fupd G (w_tet w) (set_tdup true (G (w_tet w)))).
        assert (∀ x, x ≠ w_tet w → G1 x = G x) as G1o by (intros x Hx; unfold G1; by rewrite fupd_ne).
        assert (G1 (w_tet w) = set_tdup true (G (w_tet w))) as G1i by (unfold G1, fupd; by rewrite decide_True).
        assert (w_tet w ∉ w_tet <$> Z.*1) as HnZ1. { intros H. apply Hdup in H. congruence. }
        assert (w_tet w ∉ w_tet <$> Z.*2) as HnZ2 by by rewrite (Z5 _ Hb).
        assert (∀ a b, (a, b) ∈ Z → w_tet b ∈ w_tet <$> Z.*2) as HZin.
        { intros a b H. apply elem_of_list_fmap. exists b. split; [done|]. apply elem_of_list_fmap. by exists (a, b). }
        assert (∀ x, x ∈ O → x ≠ w_tet w) as HO. { intros x Hx ->. apply (HD (w_tet w)); [done|apply Hw]. }
        split.
        + intros x. rewrite E2, fmap_app, elem_of_app. cbn. rewrite elem_of_list_singleton, Z1. split; [tauto|]. intros [H|[H|[H| ->]]]; tauto.
        + intros a b [H|[= -> ->]%elem_of_list_singleton]%elem_of_app; [by eapply Z2|]. intros H. by apply (HO _ H).
        + intros a b [H|[= -> ->]%elem_of_list_singleton]%elem_of_app; [by eapply Z3|done].
        + rewrite E2, fmap_app. apply NoDup_app. split; [done|]. split; [|apply NoDup_singleton]. cbn. intros x Hx ->%elem_of_list_singleton. done.
        + intros x Hx. rewrite E1, E2, !fmap_app, !elem_of_app. cbn. rewrite (Z5 _ Hx). done.
        + intros x Hx. rewrite G1o by by apply HO. by apply Z6.
        + intros x Hx. unfold oppok. rewrite G1o by by apply HO. by apply Z7.
        + intros a b [H|[= -> ->]%elem_of_list_singleton]%elem_of_app.
          * rewrite G1o; [by apply Z8|]. intros E. apply HnZ2. rewrite <- E. by eapply HZin.
          * rewrite G1i. exact Hsim.
        + intros x Hx. rewrite E1, fmap_app, elem_of_app. cbn. rewrite elem_of_list_singleton. destruct (decide (x = w_tet w)) as [->|Hxw].
          * rewrite G1i. split; [exact Hsim|]. cbn. tauto.
          * rewrite G1o by done. destruct (Z9 x Hx) as [H1 H2]. split; [done|]. rewrite H2. tauto.
        + intros a b r [H|[= -> ->]%elem_of_list_singleton]%elem_of_app Hr E.
          * rewrite <- (Z10 a b r H Hr E). unfold av. by rewrite G1o by apply HO, Hr.
          * assert (av G1 r = av F r) as ->.
            { assert (av G1 r = av G r) as -> by (unfold av; by rewrite G1o by apply HO, Hr). apply Z11; [done|]. by rewrite E. }
            destruct (av F r) as [x y]. unfold side in E. cbn in *. f_equal. congruence.
        + intros r Hr E. rewrite E1, fmap_app, not_elem_of_app in E. destruct E as [E E'].
          rewrite <- (Z11 r Hr E). unfold av. by rewrite G1o by apply HO, Hr.
    Qed.

    Lemma own_s ne Ed Vt gf tm B : ∀ nt Z L G m,
      st nt ne L G Ed Vt gf tm m → owned O F Kb Z L G → (nt + N.of_nat (length B) ≤ u32_mod)%N →
      (∀ w, w ∈ B → vd K w ∧ w_tet (av F w) ∈ O ∧ w_tet w ∈ Kb) → NoDup (side <$> (Z.*1 ++ B)) →
      ∃ m' Z' L' G', mfoldl own_tet B (m, Z.*2) = Some (m', Z'.*2) ∧ Z'.*1 = Z.*1 ++ B ∧
        st (nt + N.of_nat (length B)) ne L' G' Ed Vt gf tm m' ∧ owned O F Kb Z' L' G'.
    Proof.
      induction B as [|w B IH]; intros nt Z L G m Hst Hz Hn HB Hnd; cbn [mfoldl].
      - exists m, Z, L, G. rewrite app_nil_r. split; [done|]. split; [done|]. split; [|done]. eapply st_le; [| |exact Hst]; lia.
      - destruct (HB w) as (H1 & H2 & H3); [by left|]. cbn [length] in Hn.
        destruct (own_step nt ne Ed Vt gf tm Z L G m w Hst Hz) as (m1 & w' & L1 & G1 & E1 & Hst1 & Hz1); [lia|done..| |].
        { rewrite fmap_app in Hnd. apply NoDup_app in Hnd as (_ & Hd & _). intros H. apply (Hd _ H). by left. }
        rewrite E1. cbn [mbind option_bind].
        destruct (IH (nt + 1)%N (Z ++ [(w, w')]) L1 G1 m1 Hst1 Hz1) as (m2 & Z2 & L2 & G2 & A1 & A2 & A3 & A4).
        + lia.
        + intros x Hx. apply HB. by right.
        + assert ((Z ++ [(w, w')]).*1 ++ B = Z.*1 ++ w :: B) as ->; [|done]. rewrite fmap_app. cbn. by rewrite <- app_assoc.
        + exists m2, Z2, L2, G2. split; [done|]. split; [rewrite A2, fmap_app; cbn; by rewrite <- app_assoc|]. split; [|done].
          eapply st_le; [| |exact A3]; cbn [length]; lia.
    Qed.
  End own_step.
End own.
