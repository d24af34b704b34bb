(** The cavity search as a whole. *)
From Coq Require Import NArith ZArith Lia.
From stdpp Require Import base numbers list gmap option relations.
From Verif Require Import IdMapModel IdMapProofs WalkerModel WalkerSpec WalkerProofs WalkerMore MeshModel MeshSpec MeshOps MeshViews MeshLink Reach Flip44Ok CavModel CavSpec CavPaint CavBase CavExpand CavLoop CavRetract.
Local Open Scope nat_scope.

Section cavok.
  Context {V T : Type} (m : mesh V T) (Hok : mesh_ok m) (Hno : no_cavity_flags m) (ins : arr4 N → Z) (ori : N * N * N → Z).
  Implicit Types (w : walker) (I L : gset (N * nat)) (K R : gset N) (f : N * nat).

  Definition all_positive (B : list walker) : Prop := ∀ w t, w ∈ B → w_tri m w = Some t → (0 < ori t)%Z.

  Lemma start_fold b ws : ∀ I, Forall (valid m) ws → (b = true → all_positive ws) →
    ∃ I', mfoldl (start_tri ori b) ws (paint m I ∅ ∅) = Some (paint m I' ∅ ∅) ∧ ∀ f, f ∈ I' ↔ f ∈ I ∨ f ∈ side <$> ws.
  Proof.
    induction ws as [|w ws IH]; intros I HF Hp.
    { exists I. split; [done|]. intros f. cbn. rewrite elem_of_nil. tauto. }
    apply list.Forall_cons in HF as [Hw HF]. cbn [mfoldl]. unfold start_tri at 2. rewrite paint_verts.
    destruct (valid_verts m w Hw) as (a1 & a2 & a3 & a4 & E). rewrite E. cbn [mbind option_bind q0 q1 q2].
    assert ((b && negb (0 <? ori (a1, a2, a3))%Z) = false) as ->.
    { destruct b; [|done]. cbn. apply negb_false_iff, Z.ltb_lt. apply (Hp eq_refl w); [by left|by eapply wverts_tri]. }
    rewrite put_imm_paint by apply Hw. cbn [mbind option_bind].
    destruct (IH (upd true I (side w)) HF) as (I' & HI & HI'). { intros Hb w' t Hw'. apply (Hp Hb). by right. }
    exists I'. split; [done|]. intros f. rewrite HI', elem_upd, fmap_cons, elem_of_cons. destruct (decide (f = side w)); tauto.
  Qed.
  Lemma start_fail ws : ∀ I, Forall (valid m) ws → (∃ w t, w ∈ ws ∧ w_tri m w = Some t ∧ (ori t <= 0)%Z) →
    mfoldl (start_tri ori true) ws (paint m I ∅ ∅) = None.
  Proof.
    induction ws as [|w ws IH]; intros I HF (w' & t & Hw' & Ht & Hp); [by apply elem_of_nil in Hw'|].
    apply list.Forall_cons in HF as [Hw HF]. cbn [mfoldl]. unfold start_tri at 2. rewrite paint_verts.
    destruct (valid_verts m w Hw) as (a1 & a2 & a3 & a4 & E). rewrite E. cbn [mbind option_bind q0 q1 q2 andb].
    destruct (0 <? ori (a1, a2, a3))%Z eqn:Eo; [|done]. cbn [negb]. rewrite put_imm_paint by apply Hw. cbn [mbind option_bind].
    apply IH; [done|]. exists w', t. split; [|done]. apply elem_of_cons in Hw' as [->|?]; [|done]. exfalso.
    assert (w_tri m w = Some (a1, a2, a3)) as Et by (by eapply wverts_tri). rewrite Et in Ht. injection Ht as <-. apply Z.ltb_lt in Eo. lia.
  Qed.

  Lemma einv_start convex I E B : region m E → boundary_of m E B → (∀ f, f ∈ I ↔ f ∈ side <$> B) → einv m ins convex I ∅ B [] E.
  Proof.
    intros HR HB HI. pose proof HB as (Hv & Hn & _).
    assert (∀ f, f ∈ side <$> B → lf m f) as Hlf.
    { intros f (w & -> & Hw)%elem_of_list_fmap. apply side_lf. rewrite list.Forall_forall in Hv. by apply Hv. }
    split; [done|by rewrite app_nil_r|by rewrite app_nil_r| | | | |].
    - intros f. rewrite app_nil_r. intros Hf. apply (bound_sides m E B f Hok HB) in Hf as [? _]; [done|by apply Hlf].
    - intros f. apply HI.
    - intros f Hf Hin. rewrite HI. rewrite (bound_sides m E B f Hok HB Hf). cbn. rewrite elem_of_nil. tauto.
    - intros _. split; [done|]. by intros w Hw%elem_of_nil.
    - intros _ f. cbn. by rewrite elem_of_nil, elem_of_empty.
  Qed.
  Lemma einv_end convex L B E : einv m ins convex ∅ L [] B E → region m E ∧ boundary_of m E B.
  Proof.
    intros [HR Hv Hn Hin Hq Hb Hcv Hl]. split; [done|]. cbn [app] in *. apply sides_bound; [done..|]. intros f Hf. split.
    - intros H. pose proof (Hin f H) as H1. split; [done|]. apply Hb; [done|done|by right].
    - intros [H1 H2]. apply Hb in H2 as [?%elem_of_empty|?]; done.
  Qed.

  (** A chain of tets in conflict. *)
  Definition chain (a b : N) : Prop := neighbours m a b ∧ in_conflict ins m b.
  Definition grown (E0 E : list N) : Prop := (∀ id, id ∈ E0 → id ∈ E) ∧ ∀ id, id ∈ E → ∃ s, s ∈ E0 ∧ rtc chain s id.

  Lemma grown_start E : grown E E.
  Proof. split; [done|]. intros id H. exists id. done. Qed.
  Lemma grown_step convex E0 E adj : grows m ins convex E adj → grown E0 E → grown E0 (E ++ [w_tet adj]).
  Proof.
    intros [Hv Hn Hf Hc _] [H1 H2]. split; [intros id H; apply elem_of_app; left; by apply H1|].
    intros id [H| ->%elem_of_list_singleton]%elem_of_app; [by apply H2|]. destruct (H2 _ Hf) as (s & Hs & Hr). exists s. split; [done|].
    eapply rtc_r; [done|]. split; [|done]. pose proof (side_lf m adj Hv) as Hl. destruct (tw_lf m (side adj) Hok Hl) as [Hl' _].
    destruct (lf_walker m _ Hl') as [Hvx Hsx]. destruct (adj_side m _ Hok Hvx) as (x & _ & _ & _ & _ & Ha). destruct (valid_verts m _ Hvx) as (a & b & c & d & Ev).
    destruct (Reach.adj_spec m _ a b c d Hok Hvx Ev) as (y & z & Hy & Hvy & _). exists (Walker (tw m (side adj)).1 (tw m (side adj)).2), y.
    split; [done|]. split; [done|]. split; [done|]. destruct (adj_tw m _ y Hok Hvx Hy) as [_ Hs']. rewrite Hsx, tw_tw in Hs' by done. by injection Hs'.
  Qed.

  Lemma cavity_convex assert_star E0 B0 X : steady ins m → region m E0 → boundary_of m E0 B0 → (assert_star = true → all_positive B0) →
    ∃ B E, point_cavity ins ori m B0 E0 X true assert_star true = Some (m, B, E) ∧ region m E ∧ boundary_of m E B ∧
      ∀ id, id ∈ E ↔ ∃ s, s ∈ E0 ∧ rtc chain s id.
  Proof.
    intros Hst HR HB Hp. unfold point_cavity. pose proof HB as (Hv & _ & _).
    destruct (start_fold assert_star B0 ∅ Hv Hp) as (I & HI & HI'). rewrite paint_none in HI by done. rewrite HI. cbn [mbind option_bind].
    assert (∀ f, f ∈ I ↔ f ∈ side <$> B0) as HI2 by (intros f; rewrite HI', elem_of_empty; tauto).
    pose proof (einv_start true I E0 B0 HR HB HI2) as Hi.
    destruct (expand_ok m Hok ins true (grown E0) (λ _, Hst) (λ E adj, grown_step true E0 E adj) (fuel_for (paint m I ∅ ∅) B0) I ∅ B0 [] E0 Hi) as (L' & B & E & HE & [Hg1 Hg2] & Hi').
    { unfold fuel_for. rewrite paint_keys. pose proof (rest_le m E0). lia. }
    { apply grown_start. }
    rewrite HE. cbn [mbind option_bind]. pose proof Hi' as [_ _ _ _ _ Hb Hcv _]. destruct (Hcv eq_refl) as [-> Hnc].
    rewrite paint_none by done. destruct (einv_end _ _ _ _ Hi') as [HR' HB']. rewrite decide_True by apply HR'.
    exists B, E. split; [done|]. split; [done|]. split; [done|]. intros id. split; [apply Hg2|].
    intros (s & Hs & Hr). apply Hg1 in Hs. induction Hr as [s|s x y Hx Hr IH]; [done|]. apply IH. destruct Hx as [(w & z & Hw & <- & Hz & <-) Hc].
    destruct (decide (w_tet z ∈ E)) as [?|Hnz]; [done|]. exfalso. destruct (adj_tw m w z Hok Hw Hz) as [Hvz Hsz].
    assert ((tw m (side w)).1 = w_tet z) as Et by (by rewrite <- Hsz).
    assert (side w ∈ side <$> B) as (w' & Esw & Hw')%elem_of_list_fmap.
    { destruct (Hb (side w) (side_lf m w Hw) Hs) as [Hb' _]. rewrite Et in Hb'. destruct (Hb' Hnz) as [?%elem_of_empty|?]; done. }
    apply (Hnc w' Hw'). by rewrite <- Esw, Et.
  Qed.

  Lemma region_length E : region m E → length E ≤ length (im_keys (m_tets m)).
  Proof.
    intros [Hn Hl]. apply submseteq_length, NoDup_submseteq; [done|]. intros id Hid. apply elem_of_im_keys; [apply Hok|by apply Hl].
  Qed.

  Lemma good_star X K (l : list N) : (∀ id, id ∈ K ↔ id ∈ l) → good m ori (list_to_set X) K ↔ star_shaped ori m X l.
  Proof.
    intros HK. unfold good, star_shaped, visible. split.
    - intros H w t Hw Hl Ht. apply (leaves_tw m l w Hok Hw) in Hl as [H1 H2]. destruct (H w Hw) as [H3 (t' & Ht' & H4)]; [by apply HK|by rewrite HK|].
      rewrite Ht in Ht'. injection Ht' as <-. rewrite elem_of_list_to_set in H3. done.
    - intros H w Hw H1 H2. destruct (valid_verts m w Hw) as (a & b & c & d & E). assert (w_tri m w = Some (a, b, c)) as Et by (by eapply wverts_tri).
      destruct (H w (a, b, c) Hw) as [H3 H4]; [apply (leaves_tw m l w Hok Hw); cbn; rewrite <- !HK; done|done|]. rewrite elem_of_list_to_set. eauto.
  Qed.

  Lemma shrink_ok (Hturn : turning ori) X L B E : region m E → boundary_of m E B → (∀ f, f ∈ L → f ∈ side <$> B) → ∀ I, (∀ f, f ∈ I → f ∈ side <$> B) →
    ∃ B' E', shrink ori (list_to_set X) (paint m I L ∅) B E = Some (m, B', E') ∧ region m E' ∧ boundary_of m E' B' ∧
      (∀ id, id ∈ E' → id ∈ E) ∧ star_shaped ori m X E' ∧
      ∀ K : list N, (∀ id, id ∈ K → id ∈ E) → star_shaped ori m X K → ∀ id, id ∈ K → id ∈ E'.
  Proof.
    intros HR HB HL I HI. pose proof HB as (Hv & Hn & _). pose proof HR as [Hnd Hlive]. unfold shrink.
    destruct (restart_fold m ∅ B I L Hv) as (I1 & L1 & HE1 & HI1 & HL1). rewrite HE1. cbn [mbind option_bind].
    assert (L1 = ∅) as ->. { apply set_eq. intros f. rewrite HL1, elem_of_empty. specialize (HL f). tauto. }
    assert (∀ f, f ∈ I1 ↔ f ∈ side <$> B) as HI2. { intros f. rewrite HI1. specialize (HI f). tauto. }
    assert (∀ f, f ∈ side <$> B → lf m f) as Hlf.
    { intros f (w & -> & Hw)%elem_of_list_fmap. apply side_lf. rewrite list.Forall_forall in Hv. by apply Hv. }
    destruct (retract_ok m Hok ori Hturn (list_to_set X) E HR (fuel_for (paint m I1 ∅ ∅) B) I1 ∅ B []) as (I2 & R & B2 & HE2 & Hi2 & Hmax).
    { split.
      - by intros id ?%elem_of_empty.
      - by rewrite app_nil_r.
      - by rewrite app_nil_r.
      - intros f. rewrite app_nil_r. intros Hf. apply (bound_sides m E B f Hok HB) in Hf as [? ?]; [|by apply Hlf]. split; [done|by left].
      - intros f. rewrite HI2. split.
        + intros Hf. pose proof (Hlf f Hf). apply (bound_sides m E B f Hok HB) in Hf as [? ?]; [|done]. split; [done|]. split; [|by left]. split; [done|]. apply not_elem_of_empty.
        + intros (H1 & [H2 _] & [H3|H3%elem_of_empty]); [|done]. by apply (bound_sides m E B f Hok HB).
      - intros f. rewrite app_nil_r. apply HI2.
      - by intros w Hw%elem_of_nil. }
    { unfold fuel_for. rewrite paint_keys. pose proof (region_length E HR). assert (keep E ∅ ≤ length E) by apply filter_length. lia. }
    { intros. apply not_elem_of_empty. }
    rewrite HE2. cbn [mbind option_bind]. pose proof Hi2 as [Hre2 Hv2 Hn2 Hout2 Hfl2 Hq2 Hg2]. cbn [app] in *.
    destruct (keep_tri_fold m ∅ R B2 I2 [] Hv2 Hn2) as (I3 & HE3 & HI3). rewrite HE3. cbn [mbind option_bind app].
    assert (I3 = ∅) as ->. { apply set_eq. intros f. rewrite HI3, elem_of_empty. specialize (Hq2 f). tauto. }
    destruct (keep_tet_fold m ∅ ∅ E R [] Hlive Hnd) as (R3 & HE4 & HR3). rewrite HE4. cbn [mbind option_bind app].
    assert (R3 = ∅) as ->. { apply set_eq. intros id. rewrite HR3, elem_of_empty. specialize (Hre2 id). tauto. }
    rewrite paint_none by done. set (E' := filter (λ id, id ∉ R) E). set (B' := filter (λ w, side w ∈ I2) B2). exists B', E'. split; [done|].
    assert (∀ id, id ∈ E' ↔ id ∈ E ∧ id ∉ R) as HE'. { intros id. unfold E'. rewrite elem_of_list_filter. tauto. }
    assert (∀ f, f ∈ side <$> B' ↔ f ∈ I2) as HB'.
    { intros f. unfold B'. rewrite elem_of_list_fmap. split.
      - intros (w & -> & [H _]%elem_of_list_filter). done.
      - intros H. specialize (Hq2 f H). apply elem_of_list_fmap in Hq2 as (w & -> & Hw). exists w. split; [done|]. by apply elem_of_list_filter. }
    assert (∀ id, id ∉ E' ↔ id ∉ E ∨ id ∈ R) as HE2'. { intros id. rewrite HE'. destruct (decide (id ∈ E)), (decide (id ∈ R)); tauto. }
    assert (boundary_of m E' B') as Hbd.
    { apply sides_bound; [done| | |].
      - unfold B'. apply list.Forall_forall. intros w [_ Hw]%elem_of_list_filter. rewrite list.Forall_forall in Hv2. by apply Hv2.
      - unfold B'. clear -Hn2. induction B2 as [|w l IH]; [done|]. rewrite fmap_cons in Hn2. apply NoDup_cons in Hn2 as [H1 H2]. rewrite filter_cons. case_decide; [|by apply IH].
        rewrite fmap_cons. apply NoDup_cons. split; [|by apply IH]. intros (w' & E & [_ Hw']%elem_of_list_filter)%elem_of_list_fmap. apply H1. rewrite E. apply elem_of_list_fmap. eauto.
      - intros f Hf. rewrite HB', Hfl2, HE2', HE'. tauto. }
    split. { split; [by apply NoDup_filter|]. intros id [H _]%HE'. by apply Hlive. }
    split; [done|]. split; [by intros id [? _]%HE'|]. split.
    - intros w t Hw Hl Ht. destruct Hbd as (_ & _ & Hbd). apply Hbd in Hl; [|done].
      apply elem_of_list_fmap in Hl as (w' & Es & Hw'). unfold B' in Hw'. apply elem_of_list_filter in Hw' as [_ Hw'].
      assert (valid m w') as Hvw' by (rewrite list.Forall_forall in Hv2; by apply Hv2).
      destruct (visible_side m ori Hturn (list_to_set X) w' w Hvw' Hw (eq_sym Es) (Hg2 w' Hw')) as [H1 (t' & Ht' & H2)].
      rewrite Ht in Ht'. injection Ht' as <-. rewrite elem_of_list_to_set in H1. done.
    - intros K HK Hst id Hid. apply HE'. split; [by apply HK|]. apply (Hmax (list_to_set K)).
      + intros id'. rewrite elem_of_list_to_set. apply HK.
      + apply (good_star X _ K); [|done]. intros id'. apply elem_of_list_to_set.
      + by apply elem_of_list_to_set.
  Qed.

  Lemma cavity_concave (Hturn : turning ori) (P : list N → Prop) (HP : ∀ E adj, grows m ins false E adj → P E → P (E ++ [w_tet adj])) assert_star remove_nd E0 B0 X :
    region m E0 → boundary_of m E0 B0 → (assert_star = true → all_positive B0) → P E0 →
    ∃ E1, P E1 ∧ grown E0 E1 ∧ (remove_nd = false → E1 = E0) ∧
      match point_cavity ins ori m B0 E0 X false assert_star remove_nd with
      | Some (m', B, E) => m' = m ∧ E ≠ [] ∧ region m E ∧ boundary_of m E B ∧ (∀ id, id ∈ E → id ∈ E1) ∧ star_shaped ori m X E ∧
          ∀ K : list N, (∀ id, id ∈ K → id ∈ E1) → star_shaped ori m X K → ∀ id, id ∈ K → id ∈ E
      | None => ∀ K : list N, (∀ id, id ∈ K → id ∈ E1) → star_shaped ori m X K → K = []
      end.
  Proof.
    intros HR HB Hp HPE. unfold point_cavity. pose proof HB as (Hv & _ & _).
    destruct (start_fold assert_star B0 ∅ Hv Hp) as (I & HI & HI'). rewrite paint_none in HI by done. rewrite HI. cbn [mbind option_bind].
    assert (∀ f, f ∈ I ↔ f ∈ side <$> B0) as HI2 by (intros f; rewrite HI', elem_of_empty; tauto).
    assert (∃ I1 L1 B1 E1, (if remove_nd then expand ins (fuel_for (paint m I ∅ ∅) B0) false (paint m I ∅ ∅) B0 [] E0 else Some (paint m I ∅ ∅, B0, E0)) = Some (paint m I1 L1 ∅, B1, E1) ∧
      P E1 ∧ grown E0 E1 ∧ (remove_nd = false → E1 = E0) ∧ region m E1 ∧ boundary_of m E1 B1 ∧ (∀ f, f ∈ L1 → f ∈ side <$> B1) ∧ (∀ f, f ∈ I1 → f ∈ side <$> B1)) as H.
    { destruct remove_nd.
      - pose proof (einv_start false I E0 B0 HR HB HI2) as Hi.
        destruct (expand_ok m Hok ins false (λ E, P E ∧ grown E0 E) (λ H, False_ind _ (diff_false_true H))
          (λ E adj Hg HH, conj (HP E adj Hg (proj1 HH)) (grown_step false E0 E adj Hg (proj2 HH))) (fuel_for (paint m I ∅ ∅) B0) I ∅ B0 [] E0 Hi) as (L' & B & E & HE & [HPE' Hg] & Hi').
        { unfold fuel_for. rewrite paint_keys. pose proof (rest_le m E0). lia. }
        { split; [done|apply grown_start]. }
        exists ∅, L', B, E. destruct (einv_end _ _ _ _ Hi') as [HR' HB']. do 6 (split; [done|]). split; [|by intros f ?%elem_of_empty].
        intros f Hf. by apply (ei_limit _ _ _ _ _ _ _ _ Hi').
      - exists I, ∅, B0, E0. split; [done|]. split; [done|]. split; [apply grown_start|]. do 3 (split; [done|]). split; [by intros f ?%elem_of_empty|]. intros f. apply HI2. }
    destruct H as (I1 & L1 & B1 & E1 & -> & HP1 & Hg & Hrm & HR1 & HB1 & HL1 & HI1). cbn [mbind option_bind].
    destruct (shrink_ok Hturn X L1 B1 E1 HR1 HB1 HL1 I1 HI1) as (B & E & HS & HR' & HB' & Hsub & Hstar & Hgr). rewrite HS. cbn [mbind option_bind].
    exists E1. do 3 (split; [done|]). destruct (decide (E = [])) as [->|Hne]; cbn [mbind option_bind].
    - intros K HK Hst. destruct K as [|id K]; [done|]. exfalso. specialize (Hgr _ HK Hst id ltac:(by left)). by apply elem_of_nil in Hgr.
    - rewrite decide_True by apply HR'. done.
  Qed.

  (** ** Locks *)
  Lemma elocked_pair w u a b : valid m w → valid m u → w_pair m w = Some (a, b) → (w_pair m u = Some (a, b) ∨ w_pair m u = Some (b, a)) →
    w_edge_locked m u = w_edge_locked m w.
  Proof.
    intros Hw Hu Ew Eu. destruct (ok_edge m Hok w a b Hw Ew) as (e & ue & H1 & H2 & H3).
    assert (∃ e' ue', undir_edge m u = Some e' ∧ im_get (m_edges m) e' = Some ue' ∧ ue_vs ue' = sorted_2 (a, b)) as (e' & ue' & H1' & H2' & H3').
    { destruct Eu as [Eu|Eu]; destruct (ok_edge m Hok u _ _ Hu Eu) as (e' & ue' & ? & ? & Es); exists e', ue'; (split; [done|]); (split; [done|]); [done|].
      rewrite Es. unfold sorted_2. destruct (N.ltb_spec b a), (N.ltb_spec a b); try done; [lia|]. assert (a = b) as -> by lia. done. }
    assert (e' = e) as -> by (apply (ok_edge_unique m Hok e' e ue' ue); congruence). rewrite H2 in H2'. injection H2' as <-.
    unfold w_edge_locked. rewrite H1, H1'. cbn. by rewrite H2.
  Qed.

  Lemma verts_pair w a b c d : w_verts m w = Some (A4 a b c d) → w_pair m w = Some (a, b).
  Proof. unfold w_verts, w_pair. destruct (w_first m w), (w_second m w), (w_third m w), (w_fourth m w); cbn; congruence. Qed.
  Lemma twin_valid w : valid m w → valid m (to_twin_edge w).
  Proof. intros [H1 H2]. split; [done|by apply to_twin_edge_ok]. Qed.
  Lemma twin_verts w a b c d : valid m w → w_verts m w = Some (A4 a b c d) → w_verts m (to_twin_edge w) = Some (A4 b a d c).
  Proof.
    intros [[t Ht] He]. unfold w_verts, w_first, w_second, w_third, w_fourth, to_twin_edge. destruct w as [id e]. cbn [w_tet w_edge] in *. rewrite Ht. cbn [mbind option_bind].
    intros [= <- <- <- <-]. case12 e He; reflexivity.
  Qed.
  Lemma nfe_verts w a b c d : valid m w → w_verts m w = Some (A4 a b c d) → w_verts m (to_nfe w) = Some (A4 b c a d).
  Proof.
    intros [[t Ht] He]. unfold w_verts, w_first, w_second, w_third, w_fourth, to_nfe. destruct w as [id e]. cbn [w_tet w_edge] in *. rewrite Ht. cbn [mbind option_bind].
    intros [= <- <- <- <-]. case12 e He; reflexivity.
  Qed.
  Lemma pfe_verts w a b c d : valid m w → w_verts m w = Some (A4 a b c d) → w_verts m (to_pfe w) = Some (A4 c a b d).
  Proof.
    intros [[t Ht] He]. unfold w_verts, w_first, w_second, w_third, w_fourth, to_pfe. destruct w as [id e]. cbn [w_tet w_edge] in *. rewrite Ht. cbn [mbind option_bind].
    intros [= <- <- <- <-]. case12 e He; reflexivity.
  Qed.
  Lemma twin_elocked w : valid m w → w_edge_locked m (to_twin_edge w) = w_edge_locked m w.
  Proof.
    intros Hw. destruct (valid_verts m w Hw) as (a & b & c & d & E). apply (elocked_pair w _ a b Hw (twin_valid w Hw)); [by eapply verts_pair|].
    right. eapply verts_pair. by eapply twin_verts.
  Qed.

  Lemma edge_grow E adj w : grows m ins false E adj → valid m w → w_edge_locked m w = Some true →
    edge_inside m (E ++ [w_tet adj]) w → edge_inside m E w.
  Proof.
    intros [Hv Hn Hf Hc Hs] Hw Hl Hin u [a b] Hu Ew Eu. pose proof (Hin u (a, b) Hu Ew Eu) as [?|Et%elem_of_list_singleton]%elem_of_app; [done|]. exfalso.
    assert (∀ u', valid m u' → (w_pair m u' = Some (a, b) ∨ w_pair m u' = Some (b, a)) → w_tet u' ≠ w_tet adj → w_tet u' ∈ E) as HE.
    { intros u' Hu' Hp Hne. assert (∃ u'', valid m u'' ∧ w_tet u'' = w_tet u' ∧ w_pair m u'' = Some (a, b)) as (u'' & H1 & H2 & H3).
      { destruct Hp as [Hp|Hp]; [eauto|]. exists (to_twin_edge u'). split; [by apply twin_valid|]. split; [done|].
        destruct (valid_verts m u' Hu') as (x & y & z & t & E'). rewrite (verts_pair _ _ _ _ _ E') in Hp. injection Hp as -> ->. eapply verts_pair. by eapply twin_verts. }
      specialize (Hin u'' (a, b) H1 Ew H3). rewrite H2 in Hin. apply elem_of_app in Hin as [?|?%elem_of_list_singleton]; done. }
    destruct (valid_verts m u Hu) as (x & y & z & t & Ev). rewrite (verts_pair _ _ _ _ _ Ev) in Eu. injection Eu as -> ->.
    assert ((tw m (side u)).1 ∈ E) as F1.
    { destruct (Reach.adj_spec m u a b z t Hok Hu Ev) as (u' & x' & A1 & A2 & A3 & _ & A5). destruct (adj_tw m u u' Hok Hu A1) as [_ <-]. cbn.
      apply HE; [done| |congruence]. right. by eapply verts_pair. }
    assert ((tw m (side (to_twin_edge u))).1 ∈ E) as F2.
    { pose proof (twin_valid u Hu) as Hu'. pose proof (twin_verts u _ _ _ _ Hu Ev) as Ev'.
      destruct (Reach.adj_spec m _ _ _ _ _ Hok Hu' Ev') as (u' & x' & A1 & A2 & A3 & _ & A5). destruct (adj_tw m _ u' Hok Hu' A1) as [_ <-]. cbn.
      apply HE; [done| |cbn in A5; congruence]. left. by eapply verts_pair. }
    assert (w_edge_locked m u = Some true) as L1 by (rewrite (elocked_pair w u a b Hw Hu Ew); [done|left; by eapply verts_pair]).
    assert (w_edge_locked m (to_twin_edge u) = Some true) as L2 by (by rewrite twin_elocked).
    destruct (Hs eq_refl) as (S0 & S1 & S2 & S3 & S4 & S5 & S6). destruct adj as [id e], u as [id' e']. cbn [w_tet] in Et. subst id'. destruct Hv as [_ He], Hu as [_ He']. cbn [w_edge] in He, He'.
    clear Hin HE Ev Hc Hf Hn Hs Ew Hl Hw Hno. revert F1 F2 L1 L2 S0 S1 S2 S3 S4 S5 S6. unfold side, to_twin_edge, to_opp_edge, to_perm. cbn [w_tet w_edge]. clear Hok.
    case12 e He; case12 e' He'; cbn -[w_edge_locked w_locked tw]; intros; intuition congruence.
  Qed.

  Lemma tri_grow E adj w : grows m ins false E adj → valid m w → w_locked m w = Some true →
    Forall (λ v, w_edge_locked m v = Some true) [w; to_nfe w; to_pfe w] →
    tri_inside m (E ++ [w_tet adj]) w → tri_inside m E w.
  Proof.
    intros [Hv Hn Hf Hc Hs] Hw Hl Hel [H1 (x & Hx & H2)].
    assert (∀ u, valid m u → w_tet u = w_tet adj → (tw m (side u)).1 ∈ E → w_locked m u = Some true →
      Forall (λ v, w_edge_locked m v = Some true) [u; to_nfe u; to_pfe u] → False) as Hbad.
    { clear w Hw Hl Hel H1 x Hx H2. intros u Hu Et F1 L0 HL.
      apply list.Forall_cons in HL as [L1 HL]. apply list.Forall_cons in HL as [L2 HL]. apply list.Forall_cons in HL as [L3 _].
      assert (valid m (to_nfe u) ∧ valid m (to_pfe u)) as [Hu1 Hu2] by (split; (split; [apply Hu|]); [apply to_nfe_ok|apply to_pfe_ok]).
      assert (w_edge_locked m (to_twin_edge u) = Some true ∧ w_edge_locked m (to_twin_edge (to_nfe u)) = Some true ∧ w_edge_locked m (to_twin_edge (to_pfe u)) = Some true) as (M1 & M2 & M3)
        by (rewrite !twin_elocked by done; done).
      assert (∀ v, w_tet v = w_tet u → w_edge v mod 4 = w_edge u mod 4 → w_locked m v = Some true) as HL.
      { intros v E1 E2. unfold w_locked. rewrite E1, E2. exact L0. }
      destruct (Hs eq_refl) as (S0 & S1 & S2 & S3 & _). specialize (HL adj (eq_sym Et)). destruct adj as [id e], u as [id' e']. cbn [w_tet w_edge] in Et, HL. subst id'.
      destruct Hv as [_ He], Hu as [_ He']. cbn [w_edge] in He, He'. clear Hu1 Hu2 L0 Hc Hf Hn Hs Hno Hok. revert F1 L1 L2 L3 M1 M2 M3 S0 S1 S2 S3 HL.
      unfold side, to_twin_edge, to_opp_edge, to_perm, to_nfe, to_pfe. cbn [w_tet w_edge].
      case12 e He; case12 e' He'; cbn -[w_edge_locked w_locked tw]; intros; intuition congruence. }
    destruct (valid_verts m w Hw) as (a & b & c & d & Ev). destruct (Reach.adj_spec m w a b c d Hok Hw Ev) as (y & d' & A1 & Hy & Ey & A4 & A5).
    rewrite Hx in A1. injection A1 as <-. destruct (adj_tw m w x Hok Hw Hx) as [_ Sx]. destruct (adj_tw m x w Hok Hy A4) as [_ Sw].
    apply elem_of_app in H1 as [H1|H1%elem_of_list_singleton]; apply elem_of_app in H2 as [H2|H2%elem_of_list_singleton].
    - split; [done|eauto].
    - exfalso. apply (Hbad x); [done|done|by rewrite <- Sw|by rewrite (ok_lock m Hok w x Hw Hx)|].
      apply list.Forall_cons in Hel as [L1 HL]. apply list.Forall_cons in HL as [L2 HL]. apply list.Forall_cons in HL as [L3 _].
      assert (valid m (to_nfe w) ∧ valid m (to_pfe w)) as [Hw1 Hw2] by (split; (split; [apply Hw|]); [apply to_nfe_ok|apply to_pfe_ok]).
      assert (valid m (to_nfe x) ∧ valid m (to_pfe x)) as [Hx1 Hx2] by (split; (split; [apply Hy|]); [apply to_nfe_ok|apply to_pfe_ok]).
      apply list.Forall_cons. split; [rewrite (elocked_pair w x a b); [done..|by eapply verts_pair|right; by eapply verts_pair]|].
      apply list.Forall_cons. split; [rewrite (elocked_pair (to_pfe w) (to_nfe x) c a); [done..|eapply verts_pair; by eapply pfe_verts|right; eapply verts_pair; by eapply nfe_verts]|].
      apply list.Forall_cons. split; [rewrite (elocked_pair (to_nfe w) (to_pfe x) b c); [done..|eapply verts_pair; by eapply nfe_verts|right; eapply verts_pair; by eapply pfe_verts]|].
      done.
    - exfalso. apply (Hbad w); [done|done|by rewrite <- Sx|done|done].
    - exfalso. by rewrite H1, H2 in A5.
  Qed.
End cavok.
