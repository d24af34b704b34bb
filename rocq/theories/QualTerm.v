(** Quality flips cannot go on forever. *)
From Coq Require Import NArith ZArith Lia.
From stdpp Require Import base numbers list gmap option relations.
From Verif Require Import IdMapModel IdMapProofs WalkerModel WalkerSpec WalkerProofs MeshModel WalkerMore MeshSpec MeshOps
  FlipBase FlipSpec Flip44Ok HistSpec History FlipMore GeoModel GeoSpec Volume IterModel IterLookup QualModel QualSpec QualProofs.
Local Open Scope nat_scope.

Section term.
  Context {V T F : Type} (ar : qarith F) (Hsim : sim_even ar) (Hlt : lt_order ar).
  Implicit Types (m : mesh V T) (w : walker).

  Definition same_pos m m' : Prop := (∀ v, idx_ori m' v = idx_ori m v) ∧ m_center m' = m_center m.
  Lemma same_pos_refl m : same_pos m m.
  Proof. by split. Qed.
  Lemma same_pos_trans m1 m2 m3 : same_pos m1 m2 → same_pos m2 m3 → same_pos m1 m3.
  Proof. intros [A1 A2] [B1 B2]. split; [|congruence]. intros v. by rewrite B1. Qed.
  Lemma same_pos_quality m m' a b c d : same_pos m m' → quality ar m' a b c d = quality ar m a b c d.
  Proof. intros [Hi Hc]. unfold quality. rewrite Hc. destruct (even_sorted_4 _) as [a' b' c' d']. by rewrite !Hi. Qed.
  Lemma replaces_same_pos m m' old new ea ed : replaces m m' old new ea ed → same_pos m m'.
  Proof. intros Hr. split; [|apply (rp_center _ _ _ _ _ _ Hr)]. intros v. by eapply idx_same. Qed.

  (** ** Ranks *)
  Definition rank (D : list F) (q : F) : nat := length (List.filter (λ d, qa_lt ar d q) D).
  Lemma rank_le D q : rank D q ≤ length D.
  Proof. unfold rank. induction D as [|d D IH]; cbn; [lia|]. destruct (qa_lt ar d q); cbn; lia. Qed.
  Lemma rank_mono D q q' : qa_lt ar q q' = false → rank D q' ≤ rank D q.
  Proof.
    intros H. destruct Hlt as (_ & _ & H3). unfold rank. induction D as [|d D IH]; cbn; [lia|].
    destruct (qa_lt ar d q') eqn:E1, (qa_lt ar d q) eqn:E2; cbn; try lia. by rewrite (H3 _ _ _ E2 H) in E1.
  Qed.
  Lemma rank_lt D q q' : q ∈ D → qa_lt ar q q' = true → rank D q < rank D q'.
  Proof.
    intros Hin H. destruct Hlt as (H1 & H2 & H3).
    assert (∀ D, rank D q ≤ rank D q') as Hm.
    { intros D'. apply rank_mono. destruct (qa_lt ar q' q) eqn:E; [|done]. pose proof (H1 q) as X. by rewrite (H2 _ _ _ H E) in X. }
    induction D as [|d D IH]; [by apply elem_of_nil in Hin|]. unfold rank in *. cbn.
    apply elem_of_cons in Hin as [<-|Hin].
    - rewrite H1, H. cbn. specialize (Hm D). lia.
    - specialize (IH Hin). destruct (qa_lt ar d q) eqn:E; [rewrite (H2 _ _ _ E H); cbn; lia|]. destruct (qa_lt ar d q'); cbn; lia.
  Qed.

  (** All values that the quality of four vertices can have. *)
  Definition all_quals m : list F :=
    let vs := GHOST :: im_keys (m_verts m) in
    omap (λ x : N * N * N * N, let '(a, b, c, d) := x in quality ar m a b c d)
      (list_prod (list_prod (list_prod vs vs) vs) vs).
  Lemma all_quals_in m a b c d q : mesh_ok m → quality ar m a b c d = Some q → 
    (∀ v, v ∈ [a; b; c; d] → v = GHOST ∨ is_Some (im_get (m_verts m) v)) → q ∈ all_quals m.
  Proof.
    intros Hok Hq Hv. unfold all_quals. apply elem_of_list_omap. exists (a, b, c, d). split; [|done].
    assert (∀ v, v ∈ [a; b; c; d] → In v (GHOST :: im_keys (m_verts m))) as Hin.
    { intros v Hx. apply elem_of_list_In, elem_of_cons. destruct (Hv v Hx) as [?|?]; [by left|]. right. apply elem_of_im_keys; [apply ok_ids_verts, Hok|done]. }
    apply elem_of_list_In. rewrite !in_prod_iff. repeat split; apply Hin; rewrite !elem_of_cons; tauto.
  Qed.

  (** Worse tets weigh more. *)
  Definition qweight m0 (vs : arr4 N) : Z :=
    match quality ar m0 (q0 vs) (q1 vs) (q2 vs) (q3 vs) with
    | Some q => (4 ^ Z.of_nat (length (all_quals m0) - rank (all_quals m0) q))%Z
    | None => 0%Z
    end.
  Definition potential m0 m : Z := tsum (qweight m0) m.
  Lemma qweight_nonneg m0 vs : (0 ≤ qweight m0 vs)%Z.
  Proof. unfold qweight. destruct (quality _ _ _ _ _ _); lia. Qed.
  Lemma sum_nonneg f l : (∀ x : N, (0 ≤ f x)%Z) → (0 ≤ sum_over f l)%Z.
  Proof. intros H. unfold sum_over. induction l as [|x l IH]; cbn; [lia|]. specialize (H x). lia. Qed.
  Lemma term_nonneg m0 m id : (0 ≤ term (qweight m0) m id)%Z.
  Proof. unfold term. destruct (tet_get m id); [apply qweight_nonneg|lia]. Qed.
  Lemma potential_nonneg m0 m : (0 ≤ potential m0 m)%Z.
  Proof. apply sum_nonneg. intros. apply term_nonneg. Qed.
  Lemma sum_member f l x : (∀ x : N, (0 ≤ f x)%Z) → x ∈ l → (f x ≤ sum_over f l)%Z.
  Proof.
    intros H Hx. induction l as [|y l IH]; [by apply elem_of_nil in Hx|]. pose proof (sum_nonneg f l H). pose proof (H y).
    unfold sum_over in *. cbn. apply elem_of_cons in Hx as [->|Hx]; [lia|]. specialize (IH Hx). lia.
  Qed.

  Lemma tet_corner_exists m id t v : mesh_ok m → tet_get m id = Some t → v ∈ list4 (t_vs t) → v = GHOST ∨ is_Some (im_get (m_verts m) v).
  Proof.
    intros Hok Ht Hv. assert (valid m (Walker id 3)) as Hw by (split; [cbn; eauto|cbn; lia]).
    apply (corner_exists m (Walker id 3) (t_vs t) v Hok Hw); [|done]. rewrite (w_verts_eq m (Walker id 3) t Ht). by destruct (t_vs t).
  Qed.
  Lemma same_pos_exists m0 m v : mesh_ok m → same_pos m0 m → v = GHOST ∨ is_Some (im_get (m_verts m) v) →
    v = GHOST ∨ is_Some (im_get (m_verts m0) v).
  Proof.
    intros Hok [Hi _] [?|[vt Hv]]; [by left|]. destruct (decide (v = GHOST)) as [|Hne]; [by left|right].
    specialize (Hi v). unfold idx_ori in Hi. rewrite (proj2 (N.eqb_neq _ _) Hne), Hv in Hi.
    destruct (im_get (m_verts m0) v); [eauto|done].
  Qed.

  Lemma improves_decreases m0 m m' old new ea ed : mesh_ok m0 → mesh_ok m → mesh_ok m' → same_pos m0 m →
    replaces m m' old new ea ed → improves ar m m' old new.*1 → NoDup old → NoDup new.*1 → length new ≤ 3 →
    (potential m0 m' < potential m0 m)%Z.
  Proof.
    intros Hok0 Hok Hok' Hp Hr Hi Hno Hnn Hl.
    pose proof (tsum_replaces (qweight m0) m m' old new ea ed Hok Hok' Hr Hno Hnn) as Hs. fold (potential m0 m) (potential m0 m') in Hs.
    destruct (im_worst _ _ _ _ _ Hi) as (id & q & Hid & Hq & _ & Hnew).
    set (D := all_quals m0) in *. unfold tet_quality in Hq. destruct (tet_get m id) as [t|] eqn:Ht; [|done]. cbn [mbind option_bind] in Hq.
    rewrite (same_pos_quality _ _ _ _ _ _ Hp) in Hq.
    assert (q ∈ D) as HD.
    { eapply all_quals_in; [done|exact Hq|]. intros v Hv. eapply (same_pos_exists m0 m); [done..|]. by eapply tet_corner_exists. }
    pose proof (sum_member (term (qweight m0) m) old id (term_nonneg m0 m) Hid) as Hge.
    unfold term at 1 in Hge. rewrite Ht in Hge. unfold qweight at 1 in Hge. rewrite Hq in Hge. fold D in Hge.
    set (k := (4 ^ Z.of_nat (length D - rank D q))%Z) in *.
    assert (∀ vs, vs ∈ new.*2 → (4 * qweight m0 vs ≤ k)%Z) as Hw.
    { intros vs Hvs. apply elem_of_list_fmap in Hvs as ([id' vs'] & -> & Hin). cbn.
      pose proof (rp_new _ _ _ _ _ _ Hr id' vs' Hin) as En.
      assert (id' ∈ new.*1) as Hid' by (apply elem_of_list_fmap; by eexists (_, _)).
      destruct (im_new_all _ _ _ _ _ Hi id' Hid') as [q' Hq']. pose proof (Hnew id' q' Hid' Hq') as Hlt'.
      unfold tet_quality in Hq'. destruct (tet_get m' id') as [t'|]; [|done]. cbn [mbind option_bind] in Hq'. apply (inj Some) in En. rewrite En in Hq'.
      rewrite (same_pos_quality m m' _ _ _ _ (replaces_same_pos _ _ _ _ _ _ Hr)) in Hq'. rewrite (same_pos_quality _ _ _ _ _ _ Hp) in Hq'.
      unfold qweight. rewrite Hq'. fold D. pose proof (rank_lt D q q' HD Hlt'). pose proof (rank_le D q').
      unfold k. replace (length D - rank D q) with (S (length D - rank D q' + (rank D q' - rank D q - 1))) by lia.
      rewrite Nat2Z.inj_succ, Z.pow_succ_r by lia. apply Z.mul_le_mono_nonneg_l; [lia|]. apply Z.pow_le_mono_r; lia. }
    assert (0 < k)%Z by (unfold k; lia).
    assert (4 * foldr (λ x s, qweight m0 x + s) 0 new.*2 ≤ 3 * k)%Z as Hn.
    { assert (∀ l : list (arr4 N), (∀ vs, vs ∈ l → (4 * qweight m0 vs ≤ k)%Z) →
        (4 * foldr (λ x s, qweight m0 x + s) 0 l ≤ Z.of_nat (length l) * k)%Z) as Hg.
      { clear. induction l as [|x l IH]; intros H; cbn [foldr length]; [lia|]. rewrite Nat2Z.inj_succ.
        pose proof (H x ltac:(by left)). specialize (IH ltac:(intros; apply H; by right)). lia. }
      pose proof (Hg _ Hw) as Hg'. rewrite fmap_length in Hg'. nia. }
    lia.
  Qed.

  Lemma NoDup_first2 (a b c : N) : NoDup [a; b; c] → NoDup [a; b].
  Proof. rewrite !NoDup_cons, !elem_of_cons, !elem_of_nil. intros (H1 & H2 & _). split; [tauto|]. split; [tauto|constructor]. Qed.

  (** A successful quality flip. *)
  Record qstep m m' : Prop := QStep {
    qs_ok : mesh_ok m';
    qs_pos : same_pos m m';
    qs_dec m0 : mesh_ok m0 → same_pos m0 m → (potential m0 m' < potential m0 m)%Z;
    qs_att v : attached m v → attached m' v;
    qs_track : m_track m' = m_track m;
    qs_npi : im_npi (m_verts m') = im_npi (m_verts m);
    qs_imp : ∃ old new, improves ar m m' old new }.

  Lemma qflip_step m m' : mesh_ok m → quality_flip ar m m' → qstep m m'.
  Proof.
    intros Hok [(w & ws & Hrd & Hroom & E)|(w & ws & Hrd & E)].
    - destruct (step23 m w Hok Hrd Hroom) as (m1 & ws1 & a & b & c & d & e & oo & id2 & Eu & Hs & Hg & _).
      destruct (qual23 ar Hsim Hlt m w Hok Hrd (room_weaken m 2 1 1 1 (roomy_id m 1 1 Hroom) ltac:(lia) ltac:(lia))) as [[E' _]|(m2 & ws2 & o & n & E' & Eu' & _ & Hok' & _ & Hi & Hnd & new & ea & ed & Hr & Hn)];
        rewrite E in E'; [done|]. injection E' as <- <-. rewrite Eu in Eu'. injection Eu' as <- <-.
      split; [done|by eapply replaces_same_pos| | | | |by eauto].
      + intros m0 Hok0 Hp. rewrite <- Hn in Hi. eapply improves_decreases; try done.
        * by apply (NoDup_first2 _ _ n).
        * by rewrite Hn.
        * apply (f_equal length) in Hn. rewrite fmap_length in Hn. cbn in Hn. lia.
      + apply (gs_att _ _ Hg).
      + apply (rp_track _ _ _ _ _ _ Hr).
      + apply (fs23_nverts _ _ _ _ _ _ _ _ _ _ _ Hs).
    - destruct (step32 m w Hok Hrd) as (m1 & ws1 & p & q & x & y & z & o1 & o2 & Eu & Hs & Hg & _).
      destruct (qual32 ar Hsim Hlt m w Hok Hrd) as [[E' _]|(m2 & ws2 & o & n & E' & Eu' & _ & Hok' & _ & _ & Hi & Hnd & new & ea & ed & Hr & Hn)];
        rewrite E in E'; [done|]. injection E' as <- <-. rewrite Eu in Eu'. injection Eu' as <- <-.
      split; [done|by eapply replaces_same_pos| | | | |by eauto].
      + intros m0 Hok0 Hp. rewrite <- Hn in Hi. eapply improves_decreases; try done.
        * rewrite Hn. by apply (NoDup_first2 _ _ (w_tet n)).
        * apply (f_equal length) in Hn. rewrite fmap_length in Hn. cbn in Hn. lia.
      + apply (gs_att _ _ Hg).
      + apply (rp_track _ _ _ _ _ _ Hr).
      + apply (fs32_nverts _ _ _ _ _ _ _ _ _ _ _ Hs).
  Qed.

  Lemma qflips_bounded m : mesh_ok m → ∃ k, ∀ n m', nsteps (quality_flip ar) n m m' → n ≤ k.
  Proof.
    intros Hok. exists (Z.to_nat (potential m m)). intros n m' Hs.
    assert (∀ m1, mesh_ok m1 → same_pos m m1 → nsteps (quality_flip ar) n m1 m' → (Z.of_nat n ≤ potential m m1)%Z) as H.
    { clear Hs. induction n as [|n IH]; intros m1 Hok1 Hp Hs; [pose proof (potential_nonneg m m1); lia|].
      inversion Hs as [|? ? m2 ? H1 H2]; subst. pose proof (qflip_step m1 m2 Hok1 H1) as Hq. pose proof (qs_dec _ _ Hq m Hok Hp) as Hd.
      specialize (IH m2 (qs_ok _ _ Hq) (same_pos_trans _ _ _ Hp (qs_pos _ _ Hq)) H2). lia. }
    specialize (H m Hok (same_pos_refl m) Hs). lia.
  Qed.
  Lemma qflips_terminate : ¬ ∃ f : nat → mesh V T, mesh_ok (f 0) ∧ ∀ n, quality_flip ar (f n) (f (S n)).
  Proof.
    intros (f & Hok0 & Hf). destruct (qflips_bounded (f 0) Hok0) as [k Hk].
    assert (∀ n, nsteps (quality_flip ar) n (f 0) (f n)) as H.
    { induction n as [|n IH]; [constructor|]. by eapply nsteps_r. }
    specialize (Hk _ _ (H (S k))). lia.
  Qed.

  Lemma improves_no_worse m m' old new : improves ar m m' old new → no_worse ar m m'.
  Proof.
    intros Hi id' q' Hq'. destruct (im_worst _ _ _ _ _ Hi) as (id & q & Hid & Hq & _ & Hnew).
    assert (∀ a b, qa_lt ar a b = true → qa_lt ar b a = false) as Hasym.
    { destruct Hlt as (H1 & H2 & _). intros a b Hab. destruct (qa_lt ar b a) eqn:Hba; [|done]. pose proof (H1 a) as X. by rewrite (H2 _ _ _ Hab Hba) in X. }
    destruct (decide (id' ∈ new)) as [Hn|Hn]; [exists id, q; split; [done|]; apply Hasym; by eapply Hnew|].
    destruct (decide (id' ∈ old)) as [Ho|Ho].
    - pose proof (im_gone _ _ _ _ _ Hi id' Ho Hn) as Hg. unfold tet_quality in Hq'. by rewrite Hg in Hq'.
    - exists id', q'. split; [|apply Hlt]. by rewrite <- (proj1 (im_rest _ _ _ _ _ Hi id' Ho Hn)).
  Qed.
  Lemma qflips_run m m' : mesh_ok m → rtc (quality_flip ar) m m' → mesh_ok m' ∧ no_worse ar m m'.
  Proof.
    intros Hok Hr. induction Hr as [m|m m1 m' H1 Hr IH].
    - split; [done|]. intros id q Hq. exists id, q. split; [done|]. apply Hlt.
    - pose proof (qflip_step m m1 Hok H1) as Hq. destruct (IH (qs_ok _ _ Hq)) as [Hok' Hw]. split; [done|].
      destruct (qs_imp _ _ Hq) as (old & new & Hi%improves_no_worse). intros id q E. destruct (Hw id q E) as (id1 & q1 & E1 & L1).
      destruct (Hi id1 q1 E1) as (id2 & q2 & E2 & L2). exists id2, q2. split; [done|]. destruct Hlt as (_ & _ & H3). by eapply H3.
  Qed.

  (** ** The loop of [flip_quality] *)
  Definition simplex_ok m (x : simplex) : Prop :=
    match x with SEdge e => attached m e.1 ∧ e.1 ≠ GHOST | STri _ => True end.

  Lemma sorted_pair_ok m w a b : mesh_ok m → (im_npi (m_verts m) ≤ GHOST)%N → valid m w → w_pair m w = Some (a, b) →
    simplex_ok m (SEdge (sorted_2 (a, b))).
  Proof.
    intros Hok Hg Hw Hp. destruct (wverts_ex m w Hw) as (a' & b' & c & d & Ev).
    pose proof (wverts_pair _ _ _ _ _ _ Ev) as Hp'. rewrite Hp in Hp'. injection Hp' as <- <-.
    pose proof (ok_distinct m Hok _ _ _ _ _ Hw Ev) as (N1 & _)%NoDup4.
    assert (attached m a ∧ attached m b) as [Aa Ab].
    { split; [exists w; split; [done|by eapply wverts_first]|]. exists (to_twin_edge w). split; [by apply valid_twin|].
      by eapply wverts_first, wverts_twin. }
    assert (∀ v, attached m v → v = GHOST ∨ (v < GHOST)%N) as Hv.
    { intros v (u & Hu & Fu). destruct (ok_exist m Hok u v Hu Fu) as [?|Hs]; [by left|right].
      pose proof (wf_bound _ (ok_ids_verts m Hok) v Hs). lia. }
    pose proof (Hv a Aa) as Ha. pose proof (Hv b Ab) as Hb. cbn in N1.
    unfold sorted_2. destruct (N.ltb_spec b a); cbn; split; try done; lia.
  Qed.

  Definition fq_inv m (qs : list simplex * list simplex) : Prop :=
    mesh_ok m ∧ m_track m = true ∧ (im_npi (m_verts m) ≤ GHOST)%N ∧ ∀ x, x ∈ qs.1 → simplex_ok m x.

  Lemma fq_push_in qs l y : y ∈ (fold_left fq_push l qs).1 → y ∈ qs.1 ∨ y ∈ l.
  Proof.
    revert qs. induction l as [|x l IH]; intros qs; cbn; [by left|]. intros H%IH. rewrite elem_of_cons. destruct H as [H|]; [|tauto].
    unfold fq_push in H. destruct (decide (x ∈ qs.2)); [tauto|]. cbn in H. rewrite elem_of_app, elem_of_list_singleton in H. tauto.
  Qed.

  Lemma simplices_ok m ws : mesh_ok m → (im_npi (m_verts m) ≤ GHOST)%N → (∀ w, w ∈ ws → valid m w) →
    (∃ l, mapM (tri_simplex m) ws = Some l ∧ ∀ x, x ∈ l → simplex_ok m x) ∧
    (∃ l, mapM (edge_simplex m) ws = Some l ∧ ∀ x, x ∈ l → simplex_ok m x).
  Proof.
    intros Hok Hg. induction ws as [|w ws IH]; intros Hv; [split; exists []; split; try done; by intros ? ?%elem_of_nil|].
    destruct IH as [(l & E & Hl) (l' & E' & Hl')]; [intros; apply Hv; by right|].
    assert (valid m w) as Hw by (apply Hv; by left). destruct (wverts_ex m w Hw) as (a & b & c & d & Ev). split.
    - exists (STri (sorted_3 (a, b, c)) :: l). cbn [mapM]. rewrite E. assert (tri_simplex m w = Some (STri (sorted_3 (a, b, c)))) as ->.
      { unfold tri_simplex. by rewrite (wverts_tri _ _ _ _ _ _ Ev). }
      split; [done|].
      intros x [->|Hx]%elem_of_cons; [done|by apply Hl].
    - exists (SEdge (sorted_2 (a, b)) :: l'). cbn [mapM]. rewrite E'. assert (edge_simplex m w = Some (SEdge (sorted_2 (a, b)))) as ->.
      { unfold edge_simplex. by rewrite (wverts_pair _ _ _ _ _ _ Ev). }
      split; [done|].
      intros x [->|Hx]%elem_of_cons; [|by apply Hl']. by eapply sorted_pair_ok; [..|eapply wverts_pair].
  Qed.

  Lemma fq_round_ok m0 m q set x : rtc (quality_flip ar) m0 m → flips_safe ar m0 → fq_inv m (q, set) → simplex_ok m x →
    ∃ m' qs', fq_round ar m (q, set) x = Some (m', qs') ∧ fq_inv m' qs' ∧
      ((m' = m ∧ qs' = (q, set)) ∨ quality_flip ar m m').
  Proof.
    intros Hr Hsafe Hinv Hx. destruct (Hsafe m Hr) as [S23 S32]. pose proof Hinv as (Hok & Htr & Hg & Hq). destruct x as [[a b]|t]; cbn [simplex_ok fst] in Hx; unfold fq_round; cbn [fst snd].
    - destruct Hx as [Ha Hna]. destruct (edge_lookup m a b Hok Ha Hna) as [(Hj & w & E & Hw & Ew)|[_ E]]; rewrite E; cbn [mbind option_bind].
      2:{ exists m, (q, set). eauto. }
      destruct (qual32_cases ar m w Hok Hw) as [E'|(_ & _ & E')]; [rewrite E'; cbn; exists m, (q, set); eauto|].
      assert (flip32_ready m w) as Hrd.
      { apply S32; [done|]. rewrite E'. by destruct (flip32_unchecked m w) as [[? ?]|]. }
      destruct (step32 m w Hok Hrd) as (m1 & ws & p & q' & x & y & z & o1 & o2 & Eu & Hs & Hgs & _).
      rewrite Eu in E'. cbn [mbind option_bind] in E'.
      assert (quality_flip ar m m1) as Hqf by (right; by exists w, ws).
      pose proof (qflip_step m m1 Hok Hqf) as Hst. rewrite E'. cbn [mbind option_bind].
      assert ((im_npi (m_verts m1) ≤ GHOST)%N) as Hg1 by (by rewrite (qs_npi _ _ Hst)).
      destruct ws as [w0 w1]. destruct (fs32_wvalid _ _ _ _ _ _ _ _ _ _ _ Hs) as [V0 V1]. cbn [fst snd] in V0, V1.
      destruct (simplices_ok m1 [w0; w1; to_nve w0; to_nve w1; to_pve w0; to_pve w1] (qs_ok _ _ Hst) Hg1) as [(l & El & Hl) (l' & El' & Hl')].
      { intros u Hu. rewrite !elem_of_cons, elem_of_nil in Hu.
        destruct Hu as [->|[->|[->|[->|[->|[->|[]]]]]]]; [done|done|by apply valid_nve|by apply valid_nve|by apply valid_pve|by apply valid_pve]. }
      unfold fq_after32. rewrite El. cbn [mbind option_bind]. rewrite El'. cbn [mbind option_bind].
      eexists m1, _. split; [done|]. split; [|by right]. split; [apply Hst|]. split; [by rewrite (qs_track _ _ Hst)|]. split; [done|].
      intros s [Hs'|Hs']%fq_push_in.
      + specialize (Hq s Hs'). destruct s as [e|]; [|done]. destruct Hq. split; [by apply (qs_att _ _ Hst)|done].
      + apply elem_of_app in Hs' as [?|?]; [by apply Hl|by apply Hl'].
    - destruct (m_trimap m !! t) as [w|] eqn:Et; [|exists m, (q, set); eauto].
      apply (ok_trimap m Hok Htr) in Et as (Hw & _ & _).
      destruct (qual23_cases ar m w Hok Hw) as [E'|(_ & E')]; [rewrite E'; cbn; exists m, (q, set); eauto|].
      assert (flip23_ready m w ∧ roomy m 1 1) as [Hrd Hroom].
      { apply S23; [done|]. rewrite E'. by destruct (flip23_unchecked m w) as [[? ?]|]. }
      destruct (step23 m w Hok Hrd Hroom) as (m1 & ws & a & b & c & d & e & o & id2 & Eu & Hs & Hgs & _).
      rewrite Eu in E'. cbn [mbind option_bind] in E'.
      assert (quality_flip ar m m1) as Hqf by (left; by exists w, ws).
      pose proof (qflip_step m m1 Hok Hqf) as Hst. rewrite E'. cbn [mbind option_bind].
      assert ((im_npi (m_verts m1) ≤ GHOST)%N) as Hg1 by (by rewrite (qs_npi _ _ Hst)).
      destruct ws as [[w0 w1] w2]. destruct (fs23_wvalid _ _ _ _ _ _ _ _ _ _ _ Hs) as (V0 & V1 & V2). cbn [fst snd] in V0, V1, V2.
      destruct (simplices_ok m1 [w0; w1; w2; to_twin_edge w0; to_twin_edge w1; to_twin_edge w2] (qs_ok _ _ Hst) Hg1) as [(l & El & Hl) _].
      { intros u Hu. rewrite !elem_of_cons, elem_of_nil in Hu.
        destruct Hu as [->|[->|[->|[->|[->|[->|[]]]]]]]; [done|done|done|by apply valid_twin..]. }
      destruct (simplices_ok m1 [w0; w1; w2] (qs_ok _ _ Hst) Hg1) as [_ (l' & El' & Hl')].
      { intros u Hu. rewrite !elem_of_cons, elem_of_nil in Hu. destruct Hu as [->|[->|[->|[]]]]; done. }
      unfold fq_after23. rewrite El. cbn [mbind option_bind]. rewrite El'. cbn [mbind option_bind].
      eexists m1, _. split; [done|]. split; [|by right]. split; [apply Hst|]. split; [by rewrite (qs_track _ _ Hst)|]. split; [done|].
      intros s [Hs'|Hs']%fq_push_in.
      + specialize (Hq s Hs'). destruct s as [e'|]; [|done]. destruct Hq. split; [by apply (qs_att _ _ Hst)|done].
      + apply elem_of_app in Hs' as [?|?]; [by apply Hl|by apply Hl'].
  Qed.

  Lemma fq_loop_mono fuel fuel' m q set r : fuel ≤ fuel' → fq_loop ar fuel m q set = Some (Some r) → fq_loop ar fuel' m q set = Some (Some r).
  Proof.
    revert fuel' m q set. induction fuel as [|fuel IH]; intros fuel' m q set Hle H; destruct q as [|x q]; cbn in H; try done;
      (destruct fuel' as [|fuel']; [lia || done|]); cbn; try done.
    destruct (fq_round ar m _ x) as [[m' [q' set']]|]; [|done]. cbn [mbind option_bind] in *. apply IH; [lia|done].
  Qed.

  Lemma fq_loop_ok m0 m q set : mesh_ok m0 → rtc (quality_flip ar) m0 m → same_pos m0 m → flips_safe ar m0 → fq_inv m (q, set) →
    ∃ fuel m', fq_loop ar fuel m q set = Some (Some m') ∧ rtc (quality_flip ar) m0 m'.
  Proof.
    intros Hok0. remember (Z.to_nat (potential m0 m)) as k eqn:Hk. revert m q set Hk.
    induction (lt_wf k) as [k _ IHk]. intros m q set Hk Hr Hp Hsafe Hinv.
    revert set Hinv. induction q as [|x q IHq]; intros set Hinv; [exists 0, m; done|].
    set (set0 := List.filter (λ y, negb (bool_decide (y = x))) set).
    pose proof Hinv as (Hok & Htr & Hg & Hq).
    assert (fq_inv m (q, set0)) as Hinv' by (split; [done|]; split; [done|]; split; [done|]; intros y Hy; apply Hq; by right).
    destruct (fq_round_ok m0 m q set0 x Hr Hsafe Hinv') as (m' & [q' set'] & E & Hinv2 & Hcase); [apply Hq; by left|].
    assert (∃ fuel r, fq_loop ar fuel m' q' set' = Some (Some r) ∧ rtc (quality_flip ar) m0 r) as (fuel & r & El & Hrr).
    { destruct Hcase as [[-> [= -> ->]]|Hf]; [by apply IHq|].
      pose proof (qflip_step m m' Hok Hf) as Hst. pose proof (qs_dec _ _ Hst m0 Hok0 Hp) as Hd. pose proof (potential_nonneg m0 m').
      apply (IHk (Z.to_nat (potential m0 m'))); [lia|done|by eapply rtc_r| |done|done]. eapply same_pos_trans; [done|apply Hst]. }
    exists (S fuel), r. split; [|done]. cbn [fq_loop]. fold set0. rewrite E. exact El.
  Qed.

  Lemma fq_init_ok m : mesh_ok m → m_track m = true → (im_npi (m_verts m) ≤ GHOST)%N → ∃ q, fq_init m = Some q ∧ fq_inv m (q, q).
  Proof.
    intros Hok Htr Hg. unfold fq_init, fq_tris.
    set (ws := flat_map (λ id, [Walker id 0; Walker id 1; Walker id 2; Walker id 3]) (im_keys (m_tets m))).
    assert (∀ w, w ∈ ws → valid m w) as Hv.
    { intros w Hw. unfold ws in Hw. apply elem_of_list_In, in_flat_map in Hw as (id & Hid & Hin).
      apply elem_of_list_In, elem_of_im_keys in Hid; [|apply ok_ids_tets, Hok].
      split; [|destruct Hin as [<-|[<-|[<-|[<-|[]]]]]; cbn; lia]. destruct Hin as [<-|[<-|[<-|[<-|[]]]]]; done. }
    assert (∃ ts, mapM (w_tri m) ws = Some ts) as [ts Ets].
    { clear -Hv. induction ws as [|w ws IH]; [by exists []|]. destruct IH as [ts E]; [intros; apply Hv; by right|].
      destruct (wverts_ex m w) as (a & b & c & d & Ev); [apply Hv; by left|]. cbn. rewrite (wverts_tri _ _ _ _ _ _ Ev). cbn. rewrite E. by eexists. }
    rewrite Ets. cbn [mbind option_bind]. eexists. split; [done|]. split; [done|]. split; [done|]. split; [done|].
    intros x Hx. cbn in Hx. apply elem_of_app in Hx as [Hx|Hx].
    - unfold fq_edges in Hx. apply elem_of_list_In, in_map_iff in Hx as (ue & <- & Hue).
      unfold im_values in Hue. apply elem_of_list_In, elem_of_list_fmap in Hue as ([e ue'] & -> & Hin).
      apply elem_of_im_iter in Hin; [|apply ok_ids_edges, Hok]. cbn.
      destruct (ok_edge_used m Hok e ue' Hin) as (w & Hw & Ew). destruct (ue_vs ue') as [a b]. by eapply (sorted_pair_ok m w).
    - apply elem_of_list_In, in_map_iff in Hx as (t & <- & _). done.
  Qed.

  Lemma flip_quality_ok m : mesh_ok m → m_track m = true → (im_npi (m_verts m) ≤ GHOST)%N → flips_safe ar m →
    ∃ fuel m', (∀ fuel', fuel ≤ fuel' → flip_quality ar fuel' m = Some (Some m')) ∧ rtc (quality_flip ar) m m' ∧ mesh_ok m' ∧ no_worse ar m m'.
  Proof.
    intros Hok Htr Hg Hs. destruct (fq_init_ok m Hok Htr Hg) as (q & E & Hinv).
    destruct (fq_loop_ok m m q q Hok (rtc_refl _ _) (same_pos_refl m) Hs Hinv) as (fuel & m' & El & Hr).
    exists fuel, m'. split; [|split; [done|by apply qflips_run]].
    intros fuel' Hle. unfold flip_quality. rewrite E. cbn [mbind option_bind]. by eapply fq_loop_mono.
  Qed.
End term.
