(** The search for crossed edges is correct. *)
From stdpp Require Import base numbers list gmap option relations.
From Coq Require Import NArith ZArith Lia.
From Verif Require Import IdMapModel IdMapSpec IdMapProofs WalkerModel WalkerSpec WalkerProofs WalkerMore MeshModel MeshSpec MeshViews FlipSpec HistSpec FlipBase
  Flip44Ok History Reach UtilModel UtilSpec UtilProofs IterModel IterProofs IterLookup MeshOps QualModel ProgModel ProgSpec SortProofs ProgBase ProgRing RecModel RecSpec RecOk CrossModel CrossSpec.
Local Open Scope nat_scope.

Section cross.
  Context {V T A : Type}.
  Implicit Types (m : mesh V T) (w : walker) (e f : N * N).

  Lemma ring_all m w p : mesh_ok m → valid m w → w_pair m w = Some p →
    ∃ l, ring_list m w = Some l ∧ (∀ x, x ∈ l ↔ valid m x ∧ w_pair m x = Some p) ∧ length l ≤ length (im_keys (m_tets m)).
  Proof.
    intros Hok Hw Hp. destruct (edge_ring_list m w p Hok Hw Hp) as (l & Hy & _ & Hnd & Hset & _). exists l.
    assert (length l ≤ length (im_keys (m_tets m))) as HL.
    { rewrite <- (fmap_length w_tet). apply submseteq_length, NoDup_submseteq; [done|]. intros i (x & -> & Hx)%elem_of_list_fmap. apply Hset in Hx as [[[t Et] _] _].
      apply (elem_of_im_keys _ _ (ok_ids_tets m Hok)). unfold tet_get, im_get in Et. eauto. }
    split; [|done]. unfold ring_list. destruct (Hy (length (im_keys (m_tets m)) + 1)) as (s' & E). rewrite E. cbn. f_equal. apply take_ge. lia.
  Qed.

  Lemma beside_length ring : length (beside ring) = 2 * length ring.
  Proof. induction ring as [|w ring IH]; [done|]. change (beside (w :: ring)) with (to_nfe w :: to_pfe w :: beside ring). cbn [length]. lia. Qed.

  Lemma beside_in m a b l x : mesh_ok m → (∀ x, x ∈ l ↔ valid m x ∧ w_pair m x = Some (a, b)) → x ∈ beside l →
    valid m x ∧ ∃ f, w_pair m x = Some f ∧ share_tri m (a, b) f.
  Proof.
    intros Hok Hl (w & Hx & [Hw Hp]%Hl)%elem_of_list_bind. destruct (wverts_of_pair m w a b Hw Hp) as (c & d & Ev).
    assert (has_tri m a b c) as Ht by (exists w; split; [done|by eapply wverts_tri]).
    rewrite !elem_of_cons, elem_of_nil in Hx. destruct Hx as [->|[->|[]]].
    - split; [by apply valid_nfe|]. exists (b, c). split; [eapply wverts_pair; by apply wverts_nfe|]. exists a, b, c. split; [done|]. split; by left.
    - split; [by apply valid_pfe|]. exists (c, a). split; [eapply wverts_pair; by apply wverts_pfe|].
      exists b, a, c. split; [apply (has_tri_perm m a b c); [done..|]; solve_Permutation|]. split; by right.
  Qed.
  Lemma beside_all m a b l f : mesh_ok m → (∀ x, x ∈ l ↔ valid m x ∧ w_pair m x = Some (a, b)) → share_tri m (a, b) f →
    ∃ x g, x ∈ beside l ∧ w_pair m x = Some g ∧ sorted_2 g = sorted_2 f.
  Proof.
    intros Hok Hl (a' & b' & c & Ht & He & Hf).
    assert (∃ c, has_tri m a b c ∧ (sorted_2 f = sorted_2 (b, c) ∨ sorted_2 f = sorted_2 (c, a))) as (c' & Ht' & Hf').
    { exists c. destruct He as [[= -> ->]|[= -> ->]].
      - split; [done|]. left. destruct Hf as [->| ->]; [done|apply sorted_2_comm].
      - split; [apply (has_tri_perm m a' b' c); [done..|]; solve_Permutation|]. right. destruct Hf as [->| ->]; [apply sorted_2_comm|done]. }
    destruct Ht' as (w & Hw & Et). destruct (wtri_verts m w a b c' Hw Et) as (d & Ev).
    assert (w ∈ l) as Hin by (apply Hl; split; [done|by eapply wverts_pair]).
    destruct Hf' as [Ef|Ef].
    - exists (to_nfe w), (b, c'). split; [apply elem_of_list_bind; exists w; split; [left|done]|]. split; [eapply wverts_pair; by apply wverts_nfe|done].
    - exists (to_pfe w), (c', a). split; [apply elem_of_list_bind; exists w; split; [right; left|done]|]. split; [eapply wverts_pair; by apply wverts_pfe|done].
  Qed.

  Lemma sorted_idem e : sorted_2 (sorted_2 e) = sorted_2 e.
  Proof.
    destruct e as [x y]. unfold sorted_2. destruct (y <? x)%N eqn:E; [|by rewrite E]. destruct (x <? y)%N eqn:E'; [|done].
    apply N.ltb_lt in E, E'. lia.
  Qed.
  Lemma share_sorted m e f : share_tri m (sorted_2 e) f ↔ share_tri m e f.
  Proof.
    destruct e as [x y]. unfold sorted_2. destruct (y <? x)%N; [|reflexivity]. unfold share_tri.
    split; intros (a & b & c & H1 & [[= -> ->]|[= -> ->]] & H3); exists a, b, c; eauto.
  Qed.
  Lemma share_sorted_r m e f : share_tri m e (sorted_2 f) ↔ share_tri m e f.
  Proof.
    destruct f as [x y]. unfold sorted_2. destruct (y <? x)%N; [|reflexivity]. unfold share_tri.
    split; intros (a & b & c & H1 & H2 & [[= -> ->]|[= -> ->]]); exists a, b, c; eauto.
  Qed.
  Lemma share_joined m e f : mesh_ok m → share_tri m e f → joined m f.1 f.2.
  Proof.
    intros Hok (a & b & c & Ht & _ & Hf).
    assert (joined m b c) as Hj by (apply (tri_joined m b c a Hok), (has_tri_perm m a b c); [done..|]; solve_Permutation).
    destruct Hf as [->| ->]; cbn [fst snd]; [done|by apply joined_sym].
  Qed.

  Context (test : mesh V T → N * N → option (option A)).

  Lemma edge_raw_spec m ws : Forall (λ w, valid m w ∧ ∃ a b, w_pair m w = Some (a, b) ∧ is_Some (test m (a, b))) ws →
    (edge_raw test m ws = Some None ∧ ∀ w e, w ∈ ws → w_pair m w = Some e → ¬ crosses (test m) e) ∨
    (∃ w e a, edge_raw test m ws = Some (Some (w, e, a)) ∧ w ∈ ws ∧ w_pair m w = Some e ∧ test m e = Some (Some a)).
  Proof.
    induction 1 as [|w ws (Hw & a & b & Ep & r & Er) Hf IH]; cbn [edge_raw]; [left; split; [done|]; by intros w e ?%elem_of_nil|].
    rewrite Ep. cbn [mbind option_bind]. rewrite Er. cbn [mbind option_bind]. destruct r as [x|].
    - right. exists w, (a, b), x. split; [done|]. split; [left|done].
    - destruct IH as [(-> & Hn)|(w' & e & x & -> & H1 & H2)].
      + left. split; [done|]. intros w' e [->|Hin]%elem_of_cons Ew; [|by eapply Hn]. assert (e = (a, b)) as -> by congruence. intros (x & Ex). congruence.
      + right. exists w', e, x. split; [done|]. split; [by right|done].
  Qed.

  (** The edges of the mesh. *)
  Definition all_edges m : gset (N * N) := list_to_set (ue_vs <$> im_values (m_edges m)).
  Lemma all_edges_in m a b : mesh_ok m → joined m a b → sorted_2 (a, b) ∈ all_edges m.
  Proof.
    intros Hok Hj. destruct (joined_edge m a b Hok Hj) as (i & ue & E1 & E2). apply elem_of_list_to_set, elem_of_list_fmap. exists ue. split; [done|].
    unfold im_values. apply elem_of_list_fmap. exists (i, ue). split; [done|]. by apply elem_of_im_iter; [apply Hok|].
  Qed.
  Lemma all_edges_size m : size (all_edges m) ≤ length (im_keys (m_edges m)).
  Proof.
    unfold all_edges, im_keys, im_values. generalize (im_iter (m_edges m)). intros l. induction l as [|x l IH]; [done|]. rewrite !fmap_cons, list_to_set_cons. cbn [length].
    rewrite size_union_alt, size_singleton. pose proof (subseteq_size (list_to_set (ue_vs <$> l.*2) ∖ {[ue_vs x.2]} : gset (N * N)) (list_to_set (ue_vs <$> l.*2)) ltac:(set_solver)). cbn in *. lia.
  Qed.

  Lemma cross_loop_ok m : mesh_ok m → fair m (test m) → ∀ fuel S Vis,
    Forall (λ w, valid m w) S → 2 * length (im_keys (m_tets m)) * size (all_edges m ∖ Vis) + length S < fuel →
    ∃ l Vis', cross_loop test fuel m Vis S = Some l ∧ Vis ⊆ Vis' ∧
      (∀ w e, w ∈ S → w_pair m w = Some e → sorted_2 e ∈ Vis') ∧
      (∀ e f, e ∈ l.*1 → share_tri m e f → sorted_2 f ∈ Vis') ∧
      (∀ f, f ∈ Vis' → f ∉ Vis → crosses (test m) f → f ∈ sorted_2 <$> l.*1) ∧
      NoDup (sorted_2 <$> l.*1) ∧
      (∀ e a, (e, a) ∈ l → sorted_2 e ∉ Vis ∧ joined m e.1 e.2 ∧ test m e = Some (Some a)) ∧
      (∀ e, e ∈ l.*1 → ∃ w g, w ∈ S ∧ w_pair m w = Some g ∧ crosses (test m) (sorted_2 g) ∧ rtc (cross_step m (test m)) (sorted_2 g) (sorted_2 e)).
  Proof.
    intros Hok [Htot Hsym]. induction fuel as [|fuel IH]; [lia|]. intros S Vis HS Hfuel. cbn [cross_loop].
    destruct S as [|w S].
    { exists [], Vis. split; [done|]. split; [done|]. split; [by intros ?? ?%elem_of_nil|]. split; [by intros ?? ?%elem_of_nil|]. split; [done|].
      split; [constructor|]. split; [by intros ?? ?%elem_of_nil|by intros ? ?%elem_of_nil]. }
    inversion HS as [|?? Hw HS']; subst. destruct (wverts_ex m w Hw) as (a & b & c & d & Ev). pose proof (wverts_pair _ _ _ _ _ _ Ev) as Ep.
    assert (joined m a b) as Hj by (by exists w). rewrite Ep. cbn [mbind option_bind].
    destruct (decide (sorted_2 (a, b) ∈ Vis)) as [Hin|Hin].
    - cbn [length] in Hfuel. destruct (IH S Vis HS' ltac:(lia)) as (l & Vis' & -> & H1 & H2 & H3 & H4 & H5 & H6 & H7). exists l, Vis'.
      split; [done|]. split; [done|]. split.
      { intros w' e [->|Hw']%elem_of_cons Ew; [|by eapply H2]. assert (e = (a, b)) as -> by congruence. by apply H1. }
      do 4 (split; [done|]). intros e He. destruct (H7 e He) as (w' & g & K1 & K2). exists w', g. split; [by right|done].
    - assert (crosses (test m) (a, b) ↔ crosses (test m) (sorted_2 (a, b))) as Hcs.
      { unfold sorted_2. destruct (b <? a)%N; [|reflexivity]. split; apply Hsym; [done|by apply joined_sym]. }
      assert (size (all_edges m ∖ ({[sorted_2 (a, b)]} ∪ Vis)) < size (all_edges m ∖ Vis)) as Hlt.
      { apply subset_size. pose proof (all_edges_in m a b Hok Hj) as Ha. set_solver. }
      pose proof (Htot a b Hj) as Hsome. cbn [edge_raw]. rewrite Ep. cbn [mbind option_bind]. destruct Hsome as [r Er]. rewrite Er. cbn [mbind option_bind].
      destruct r as [x|]; cbn [mbind option_bind].
      + destruct (ring_all m w (a, b) Hok Hw Ep) as (ring & -> & Hring & Hlen). cbn [mbind option_bind].
        destruct (IH (reverse (beside ring) ++ S) ({[sorted_2 (a, b)]} ∪ Vis)) as (l & Vis' & -> & H1 & H2 & H3 & H4 & H5 & H6 & H7).
        { apply Forall_app. split; [|done]. apply list.Forall_forall. intros y Hy. rewrite elem_of_reverse in Hy. exact (proj1 (beside_in m a b ring y Hok Hring Hy)). }
        { rewrite app_length, reverse_length, beside_length. cbn [length] in Hfuel. nia. }
        cbn [mbind option_bind]. exists (((a, b), x) :: l), Vis'. split; [done|]. split; [set_solver|]. split.
        { intros w' e [->|Hw']%elem_of_cons Ew; [assert (e = (a, b)) as -> by congruence; set_solver|]. apply (H2 w'); [apply elem_of_app; by right|done]. }
        split.
        { intros e f He Hsh. rewrite fmap_cons in He. apply elem_of_cons in He as [->|He]; [|by eapply H3]. cbn [fst] in Hsh.
          destruct (beside_all m a b ring f Hok Hring Hsh) as (y & g & K1 & K2 & <-). apply (H2 y); [|done]. apply elem_of_app. left. by apply elem_of_reverse. }
        split.
        { intros f Hf Hnf Hc. rewrite !fmap_cons. cbn [fst]. destruct (decide (f = sorted_2 (a, b))) as [->|Hne]; [left|]. right. apply H4; [done|set_solver|done]. }
        split.
        { rewrite !fmap_cons. apply stdpp.list.NoDup_cons. split; [|done]. cbn [fst]. intros (e & Ee & ([e' y] & -> & Hin')%elem_of_list_fmap)%elem_of_list_fmap.
          destruct (H6 e' y Hin') as (K & _). cbn [fst] in Ee. apply K. set_solver. }
        split.
        { intros e y [[= -> ->]|Hin']%elem_of_cons; [done|]. destruct (H6 e y Hin') as (K1 & K2). split; [set_solver|done]. }
        intros e He. rewrite fmap_cons in He. apply elem_of_cons in He as [->|He].
        { exists w, (a, b). split; [left|]. split; [done|]. split; [apply Hcs; by exists x|done]. }
        destruct (H7 e He) as (w' & g & K0 & K2 & K3 & K4). apply elem_of_app in K0 as [K0|K0]; [rewrite elem_of_reverse in K0|].
        * exists w, (a, b). split; [left|]. split; [done|]. split; [apply Hcs; by exists x|].
          apply (rtc_l _ _ (sorted_2 g)); [|done]. destruct (beside_in m a b ring w' Hok Hring K0) as (Hw' & g' & Eg & Hsh). assert (g' = g) as -> by congruence.
          split; [by apply share_sorted, share_sorted_r|]. split; [done|]. apply sorted_idem.
        * exists w', g. split; [by right|done].
      + destruct (IH S ({[sorted_2 (a, b)]} ∪ Vis) HS') as (l & Vis' & -> & H1 & H2 & H3 & H4 & H5 & H6 & H7).
        { cbn [length] in Hfuel. nia. }
        exists l, Vis'. split; [done|]. split; [set_solver|]. split.
        { intros w' e [->|Hw']%elem_of_cons Ew; [assert (e = (a, b)) as -> by congruence; set_solver|]. by apply (H2 w'). }
        split; [done|]. split.
        { intros f Hf Hnf Hc. apply H4; [done| |done]. intros [->%elem_of_singleton|?]%elem_of_union; [|done]. apply Hcs in Hc as (y & Ey). congruence. }
        split; [done|]. split; [intros e y Hin'; destruct (H6 e y Hin') as (K1 & K2); split; [set_solver|done]|].
        intros e He. destruct (H7 e He) as (w' & g & K1 & K2). exists w', g. split; [by right|done].
  Qed.

  Lemma cross_search_ok m v0 v1 : mesh_ok m → fair m (test m) → solid m v0 → joined m v0 v1 →
    ∃ l, cross_search test m v0 v1 = Some l ∧ NoDup (sorted_2 <$> l.*1) ∧
      (∀ e a, (e, a) ∈ l → joined m e.1 e.2 ∧ test m e = Some (Some a)) ∧
      ((l = [] ∧ ∀ e, opposite m v0 v1 e → ¬ crosses (test m) e) ∨
       (∃ e0 a0 l', l = (e0, a0) :: l' ∧ opposite m v0 v1 e0 ∧
          ∀ f, f ∈ sorted_2 <$> l.*1 ↔ rtc (cross_step m (test m)) (sorted_2 e0) f)).
  Proof.
    intros Hok Hfair [Hg Ha] Hj. destruct (edge_lookup m v0 v1 Hok Ha Hg) as [(_ & w & Ew & Hw & Ep)|[? _]]; [|done].
    unfold cross_search. rewrite Ew. cbn [mbind option_bind]. destruct (ring_all m w _ Hok Hw Ep) as (ring & -> & Hring & _). cbn [mbind option_bind].
    pose proof Hfair as [Htot Hsym].
    assert (∀ u, u ∈ to_opp_edge <$> ring → valid m u ∧ ∃ c d, w_pair m u = Some (c, d) ∧ joined m c d ∧ opposite m v0 v1 (c, d)) as Hopp.
    { intros u (x & -> & [Hx Px]%Hring)%elem_of_list_fmap. destruct (wverts_of_pair m x v0 v1 Hx Px) as (c & d & Ev).
      pose proof (wverts_opp m x _ _ _ _ Hx Ev) as Eo%wverts_pair. pose proof (valid_opp m x Hx) as Hvo. split; [done|]. exists c, d. split; [done|]. split; [by exists (to_opp_edge x)|].
      exists x, c, d. split; [done|]. split; [done|by left]. }
    destruct (edge_raw_spec m (to_opp_edge <$> ring)) as [(-> & Hno)|(u & e & a & -> & Hu & Eu & Et)].
    { apply list.Forall_forall. intros u Hu. destruct (Hopp u Hu) as (Hvu & c & d & Ecd & Hjcd & _). split; [done|]. exists c, d. split; [done|by apply Htot]. }
    - cbn [mbind option_bind]. exists []. split; [done|]. split; [constructor|]. split; [by intros ?? ?%elem_of_nil|]. left. split; [done|].
      intros e (x & c & d & Hx & Ev & He). assert (x ∈ ring) as Hin by (apply Hring; split; [done|by eapply wverts_pair]).
      pose proof (wverts_opp m x _ _ _ _ Hx Ev) as Eo%wverts_pair. assert (¬ crosses (test m) (c, d)) as Hn by (apply (Hno (to_opp_edge x)); [by apply elem_of_list_fmap_1|done]).
      destruct He as [->| ->]; [done|]. intros Hc. apply Hn. apply Hsym; [|done]. apply joined_sym; [done|]. exists (to_opp_edge x). split; [by apply valid_opp|done].
    - cbn [mbind option_bind]. destruct (Hopp u Hu) as (Hvu & c & d & Ecd & Hjcd & Hop). assert (e = (c, d)) as -> by congruence. rewrite Eu. cbn [mbind option_bind].
      destruct (ring_all m u _ Hok Hvu Eu) as (ring' & -> & Hring' & Hlen). cbn [mbind option_bind].
      destruct (cross_loop_ok m Hok Hfair (cross_fuel m) (reverse (beside ring')) {[sorted_2 (c, d)]}) as (l & Vis' & -> & H1 & H2 & H3 & H4 & H5 & H6 & H7).
      { apply list.Forall_forall. intros y Hy. rewrite elem_of_reverse in Hy. exact (proj1 (beside_in m c d ring' y Hok Hring' Hy)). }
      { unfold cross_fuel. rewrite reverse_length, beside_length. pose proof (all_edges_size m). pose proof (subseteq_size (all_edges m ∖ {[sorted_2 (c, d)]}) (all_edges m) ltac:(set_solver)). nia. }
      cbn [mbind option_bind]. exists (((c, d), a) :: l). split; [done|].
      assert (NoDup (sorted_2 <$> (((c, d), a) :: l).*1)) as Hnd.
      { rewrite !fmap_cons. apply stdpp.list.NoDup_cons. split; [|done]. cbn [fst]. intros (e & Ee & ([e' y] & -> & Hin')%elem_of_list_fmap)%elem_of_list_fmap.
        destruct (H6 e' y Hin') as (K & _). cbn [fst] in Ee. apply K. set_solver. }
      split; [done|]. split.
      { intros e y [[= -> ->]|Hin']%elem_of_cons; [done|]. by destruct (H6 e y Hin') as (_ & K). }
      right. exists (c, d), a, l. split; [done|]. split; [done|]. intros f. split.
      + rewrite !fmap_cons. cbn [fst]. intros [->|(e & -> & He)%elem_of_list_fmap]%elem_of_cons; [done|].
        destruct (H7 e He) as (w' & g & K0 & K2 & K3 & K4). rewrite elem_of_reverse in K0. apply (rtc_l _ _ (sorted_2 g)); [|done].
        destruct (beside_in m c d ring' w' Hok Hring' K0) as (Hw' & g' & Eg & Hsh). assert (g' = g) as -> by congruence.
        split; [by apply share_sorted, share_sorted_r|]. split; [done|]. apply sorted_idem.
      + intros Hr. apply rtc_ind_r with (P := λ f, f ∈ sorted_2 <$> (((c, d), a) :: l).*1) (3 := Hr); [rewrite !fmap_cons; left|].
        intros f1 f2 _ (Hsh & Hc & Hso) Hf1. rewrite !fmap_cons in Hf1 |- *. cbn [fst] in Hf1 |- *.
        destruct (decide (f2 = sorted_2 (c, d))) as [->|Hne]; [left|]. right. apply H4; [|set_solver|done].
        apply elem_of_cons in Hf1 as [->|(e & -> & He)%elem_of_list_fmap].
        * rewrite <- Hso. destruct (beside_all m c d ring' f2 Hok Hring') as (y & g & K1 & K2 & K3); [by apply share_sorted|]. rewrite <- K3. apply (H2 y); [by apply elem_of_reverse|done].
        * rewrite <- Hso. apply (H3 e); [done|]. by apply share_sorted.
  Qed.
End cross.
