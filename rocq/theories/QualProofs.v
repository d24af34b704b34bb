(** Proofs about tet quality. *)
From Coq Require Import NArith ZArith Lia.
From stdpp Require Import base numbers list gmap option relations sorting.
From Verif Require Import IdMapModel IdMapProofs WalkerModel WalkerSpec WalkerProofs SortProofs MeshModel WalkerMore MeshSpec MeshOps
  FlipBase FlipSpec Flip23Ok Flip32Ok Flip44Ok HistSpec History FlipMore GeoModel Volume UtilModel QualModel QualSpec.
Local Open Scope nat_scope.

Section quality.
  Context {V T F : Type} (ar : qarith F).
  Implicit Types (m : mesh V T) (w : walker).

  Lemma max_area_some p0 p1 p2 p3 : is_Some (qa_max_area ar p0 p1 p2 p3).
  Proof. unfold qa_max_area, max_by. cbn. eauto. Qed.

  Lemma has_ghost_true l : has_ghost l = true ↔ GHOST ∈ l.
  Proof.
    unfold has_ghost. rewrite existsb_exists. setoid_rewrite N.eqb_eq. rewrite elem_of_list_In. split.
    - by intros (x & Hx & ->).
    - eauto.
  Qed.
  Lemma reorder_elem {X} (a : arr4 X) σ x : even_perm σ → x ∈ list4 (reorder a σ) ↔ x ∈ list4 a.
  Proof.
    intros [p ->]%even_perms_enum. destruct a as [a b c d]. unfold list4, reorder.
    destruct p; cbn; rewrite !elem_of_cons; tauto.
  Qed.

  (** ** C30 *)
  Lemma quality_even m (a : arr4 N) σ : (GHOST ∈ list4 a → sim_even ar) → NoDup (list4 a) → even_perm σ →
    let b := reorder a σ in quality ar m (q0 b) (q1 b) (q2 b) (q3 b) = quality ar m (q0 a) (q1 a) (q2 a) (q3 a).
  Proof.
    intros Hsim Hnd Hσ b. unfold quality.
    assert (has_ghost [q0 b; q1 b; q2 b; q3 b] = has_ghost [q0 a; q1 a; q2 a; q3 a]) as ->.
    { pose proof (has_ghost_true (list4 b)) as Hb. pose proof (has_ghost_true (list4 a)) as Ha.
      unfold b in Hb. rewrite (reorder_elem a σ GHOST Hσ) in Hb. fold b in Hb. unfold list4 in *.
      destruct (has_ghost [q0 b; q1 b; q2 b; q3 b]), (has_ghost [q0 a; q1 a; q2 a; q3 a]); naive_solver. }
    destruct (has_ghost [q0 a; q1 a; q2 a; q3 a]) eqn:Hg.
    - apply has_ghost_true in Hg. specialize (Hsim Hg). destruct (qa_nan ar (m_center m)); [done|].
      assert (∀ x0 x1 x2 x3 : option pt, ∀ f : arr4 (N * pt) → F, (∀ x, f (reorder x σ) = f x) →
        let y := reorder (A4 x0 x1 x2 x3) σ in
        (p0 ← q0 y; p1 ← q1 y; p2 ← q2 y; p3 ← q3 y; Some (f (A4 (q0 b, p0) (q1 b, p1) (q2 b, p2) (q3 b, p3)))) =
        (p0 ← x0; p1 ← x1; p2 ← x2; p3 ← x3; Some (f (A4 (q0 a, p0) (q1 a, p1) (q2 a, p2) (q3 a, p3))))) as H.
      { intros x0 x1 x2 x3 f Hf. unfold b. clear Hnd Hg b Hsim. apply even_perms_enum in Hσ as [p ->]. destruct a as [a0 a1 a2 a3].
        destruct x0 as [x0|], x1 as [x1|], x2 as [x2|], x3 as [x3|]; destruct p;
          first [reflexivity | exact (f_equal Some (Hf (A4 (a0, x0) (a1, x1) (a2, x2) (a3, x3))))]. }
      specialize (H (idx_ori m (q0 a)) (idx_ori m (q1 a)) (idx_ori m (q2 a)) (idx_ori m (q3 a))
        (λ x, if negb (qa_sim ar (q0 x) (q1 x) (q2 x) (q3 x)) then qa_inf ar else qa_neg ar)).
      cbn [q0 q1 q2 q3] in H. rewrite <- H.
      + unfold b. clear. unfold reorder. destruct a as [a0 a1 a2 a3]. 
        assert (∀ k, idx_ori m (get4 (A4 a0 a1 a2 a3) k) = get4 (A4 (idx_ori m a0) (idx_ori m a1) (idx_ori m a2) (idx_ori m a3)) k) as Hk
          by (intros [|[|[|[|k]]]]; reflexivity).
        cbn [q0 q1 q2 q3]. by rewrite !Hk.
      + intros x. by rewrite (Hsim x σ Hσ).
    - assert (even_sorted_4 (A4 (q0 b) (q1 b) (q2 b) (q3 b)) = even_sorted_4 (A4 (q0 a) (q1 a) (q2 a) (q3 a))) as ->; [|done].
      assert (∀ c : arr4 N, A4 (q0 c) (q1 c) (q2 c) (q3 c) = c) as He by (by intros []). rewrite !He.
      symmetry. apply even_sorted_4_canonical; [done|]. by exists σ.
  Qed.

  (** A solid tet: -1 exactly when the volume is not positive. *)
  Lemma quality_solid m v0 v1 v2 v3 p0 p1 p2 p3 :
    (∀ (x : arr4 pt) σ, even_perm σ → let y := reorder x σ in
       qa_nonpos ar (qa_orient ar (q0 y) (q1 y) (q2 y) (q3 y)) = qa_nonpos ar (qa_orient ar (q0 x) (q1 x) (q2 x) (q3 x))) →
    GHOST ∉ [v0; v1; v2; v3] → NoDup [v0; v1; v2; v3] →
    idx_ori m v0 = Some p0 → idx_ori m v1 = Some p1 → idx_ori m v2 = Some p2 → idx_ori m v3 = Some p3 →
    if qa_nonpos ar (qa_orient ar p0 p1 p2 p3) then quality ar m v0 v1 v2 v3 = Some (qa_neg ar)
    else ∃ vol area, quality ar m v0 v1 v2 v3 = Some (qa_div ar vol area) ∧ qa_nonpos ar vol = false.
  Proof.
    intros Hn Hg Hnd E0 E1 E2 E3. unfold quality.
    destruct (has_ghost [v0; v1; v2; v3]) eqn:Eg; [by apply has_ghost_true in Eg|]. clear Eg.
    destruct (even_sorted_4_even (A4 v0 v1 v2 v3)) as (σ & Hσ & ->).
    specialize (Hn (A4 p0 p1 p2 p3) σ Hσ). cbv zeta in Hn. cbn [q0 q1 q2 q3] in Hn. rewrite <- Hn.
    assert (∀ k, idx_ori m (get4 (A4 v0 v1 v2 v3) k) = Some (get4 (A4 p0 p1 p2 p3) k)) as Hk
      by (intros [|[|[|[|k]]]]; done).
    unfold reorder. rewrite !Hk. cbn [mbind option_bind]. unfold reorder in *. cbn [q0 q1 q2 q3].
    match goal with |- context [if qa_nonpos ar ?v then _ else _] => set (vol := v) end.
    destruct (qa_nonpos ar vol) eqn:Ev; [done|].
    match goal with |- context [qa_max_area ar ?a ?b ?c ?d] => destruct (max_area_some a b c d) as [area ->] end.
    exists vol, area. done.
  Qed.

  Lemma quality_ghost m v0 v1 v2 v3 : GHOST ∈ [v0; v1; v2; v3] →
    quality ar m v0 v1 v2 v3 =
      if qa_nan ar (m_center m) then Some (qa_inf ar)
      else (λ b : bool, if b then qa_inf ar else qa_neg ar) <$> orient_3d_sim (qa_sim ar) m v0 v1 v2 v3.
  Proof.
    intros Hg%has_ghost_true. unfold quality, orient_3d_sim. rewrite Hg. destruct (qa_nan ar (m_center m)); [done|].
    destruct (idx_ori m v0), (idx_ori m v1), (idx_ori m v2), (idx_ori m v3); done.
  Qed.

  Lemma walker_quality m w a b c d : sim_even ar → mesh_ok m → valid m w → w_verts m w = Some (A4 a b c d) →
    quality ar m a b c d = tet_quality ar m (w_tet w).
  Proof.
    intros Hsim Hok Hw Hv. destruct w as [id e]. pose proof Hw as [[t Ht] He]. cbn [w_tet w_edge] in *.
    unfold tet_quality. rewrite Ht. cbn [mbind option_bind].
    destruct (walker_positions m id t Ht) as [Hp _]. destruct (Hp e He) as (σ & Hσ & E). rewrite Hv in E. apply (inj Some) in E.
    assert (NoDup (list4 (t_vs t))) as Hnd.
    { destruct (Hp 0) as (σ0 & _ & E0); [lia|].
      destruct (wverts_ex m (Walker id 3)) as (x0 & x1 & x2 & x3 & Ex); [split; [cbn; eauto|cbn; lia]|].
      assert (NoDup [x0; x1; x2; x3]) as Hd. { eapply (ok_distinct m Hok (Walker id 3)); [split; [cbn; eauto|cbn; lia]|done]. }
      rewrite (w_verts_eq m (Walker id 3) t Ht) in Ex. injection Ex as <- <- <- <-. cbn in Hd. exact Hd. }
    pose proof (quality_even m (t_vs t) σ (λ _, Hsim) Hnd Hσ) as Hq. cbv zeta in Hq. rewrite <- E in Hq. exact Hq.
  Qed.

  (** Quality only looks at positions. *)
  Lemma quality_same m m' a b c d :
    (∀ x, v_pos <$> im_get (m_verts m') x = v_pos <$> im_get (m_verts m) x) → m_center m' = m_center m →
    quality ar m' a b c d = quality ar m a b c d.
  Proof.
    intros Hp Hc. assert (∀ v, idx_ori m' v = idx_ori m v) as Hi.
    { intros v. unfold idx_ori. rewrite Hc. destruct (N.eqb v GHOST); [done|apply Hp]. }
    unfold quality. rewrite Hc. destruct (even_sorted_4 _) as [a' b' c' d']. by rewrite !Hi.
  Qed.
  Lemma replaces_quality m m' old new ea ed a b c d : replaces m m' old new ea ed →
    quality ar m' a b c d = quality ar m a b c d.
  Proof.
    intros Hr. apply quality_same; [|exact (rp_center _ _ _ _ _ _ Hr)]. intros x. pose proof (rp_verts _ _ _ _ _ _ Hr x) as H.
    apply (f_equal (fmap (λ p, p.1.2))) in H. rewrite <- !option_fmap_compose in H. exact H.
  Qed.
  Lemma quality_some m a b c d : (∀ v, v ∈ [a; b; c; d] → v = GHOST ∨ is_Some (im_get (m_verts m) v)) → is_Some (quality ar m a b c d).
  Proof.
    intros H. assert (∀ v, v ∈ [a; b; c; d] → is_Some (idx_ori m v)) as Hi.
    { intros v Hv. unfold idx_ori. destruct (N.eqb_spec v GHOST); [eauto|]. destruct (H v Hv) as [?|[vt ->]]; [done|eauto]. }
    unfold quality. destruct (has_ghost [a; b; c; d]).
    - destruct (qa_nan ar (m_center m)); [eauto|].
      destruct (Hi a) as [? E0]; [set_solver|]. destruct (Hi b) as [? E1]; [set_solver|]. destruct (Hi c) as [? E2]; [set_solver|].
      destruct (Hi d) as [? E3]; [set_solver|]. rewrite E0, E1, E2, E3. cbn. eauto.
    - destruct (even_sorted_4_even (A4 a b c d)) as (σ & Hσ & E).
      assert (∀ v, v ∈ list4 (even_sorted_4 (A4 a b c d)) → v ∈ [a; b; c; d]) as Hin.
      { intros v. rewrite E. by rewrite (reorder_elem _ _ _ Hσ). }
      destruct (even_sorted_4 (A4 a b c d)) as [x0 x1 x2 x3]. unfold list4 in Hin. cbn in Hin.
      destruct (Hi x0) as [? E0]; [apply Hin; set_solver|]. destruct (Hi x1) as [? E1]; [apply Hin; set_solver|].
      destruct (Hi x2) as [? E2]; [apply Hin; set_solver|]. destruct (Hi x3) as [? E3]; [apply Hin; set_solver|]. rewrite E0, E1, E2, E3. cbn [mbind option_bind].
      destruct (qa_nonpos ar _); [eauto|].
      match goal with |- context [qa_max_area ar ?p ?q ?r ?s] => destruct (max_area_some p q r s) as [? ->] end. cbn [mbind option_bind]. eauto.
  Qed.

  Lemma corner_exists m w vs v : mesh_ok m → valid m w → w_verts m w = Some vs → v ∈ list4 vs →
    v = GHOST ∨ is_Some (im_get (m_verts m) v).
  Proof.
    intros Hok Hw Hv Hin. destruct (wverts_in m w vs Hw Hv) as (vs' & E & Hx). destruct Hw as [[t Ht] _].
    assert (attached m v) as (w' & Hw' & Hf').
    { apply attached_vs. unfold vs_of in E. rewrite Ht in E. injection E as <-. exists (w_tet w), t. split; [done|by apply Hx]. }
    by eapply (ok_exist m Hok).
  Qed.

  Lemma adj_ae_fourth m w o : to_adj m w = Some o →
    ∃ x, to_adj_ae m w = Some x ∧ w_fourth m x = w_fourth m o.
  Proof.
    unfold to_adj. destruct (to_adj_ae m w) as [x|]; [|done]. cbn [mbind option_bind]. intros H. exists x. split; [done|].
    destruct x as [i e].
    assert (∀ k, fourth_idx ((e + 4 * k) mod 12) = fourth_idx e) as Hk.
    { intros k. unfold fourth_idx. pose proof (Nat.div_mod_eq (e + 4 * k) 12).
      pose proof (Nat.mod_add e k 4 ltac:(lia)) as E1.
      pose proof (Nat.mod_add ((e + 4 * k) mod 12) (3 * ((e + 4 * k) / 12)) 4 ltac:(lia)) as E2.
      rewrite <- E2, <- E1. f_equal. lia. }
    destruct (w_edge w / 4) as [|[|[|]]]; simplify_eq; unfold w_fourth; cbn.
    - done.
    - pose proof (Hk 2) as E. cbn in E. by rewrite E.
    - pose proof (Hk 1) as E. cbn in E. by rewrite E.
  Qed.

  Lemma qual23_cases m w : mesh_ok m → valid m w →
    flip23_quality ar m w = Some (m, None) ∨
    (w_locked m w = Some false ∧
     flip23_quality ar m w = '(m', ws) ← flip23_unchecked m w; Some (m', Some ws)).
  Proof.
    intros Hok Hw. destruct (wverts_ex m w Hw) as (a & b & c & d & Ev).
    destruct (ok_adj m Hok w a b c d Hw Ev) as (o & e & Ho & Hvo & Evo & _).
    destruct (adj_ae_fourth m w o Ho) as (x & Ex & Fx). rewrite (wverts_fourth _ _ _ _ _ _ Evo) in Fx.
    assert (∀ x y z u, (∀ v, v ∈ [x; y; z; u] → v ∈ [a; b; c; d; e]) → is_Some (quality ar m x y z u)) as Hs.
    { intros ? ? ? ? H. apply quality_some. intros v Hv%H. destruct (decide (v = e)) as [->|].
      - apply (corner_exists m o _ e Hok Hvo Evo). apply elem_list4. cbn. tauto.
      - apply (corner_exists m w _ v Hok Hw Ev). apply elem_list4. cbn. rewrite !elem_of_cons, elem_of_nil in Hv. tauto. }
    unfold flip23_quality. rewrite Ex. cbn [mbind option_bind]. rewrite Ev. cbn [mbind option_bind]. rewrite Fx. cbn [mbind option_bind].
    destruct (Hs a b c d) as [? ->]; [set_solver|]. destruct (Hs b a c e) as [? ->]; [set_solver|]. 
    destruct (Hs b a d e) as [? ->]; [set_solver|]. destruct (Hs a c d e) as [? ->]; [set_solver|]. 
    destruct (Hs c b d e) as [? ->]; [set_solver|]. cbn [mbind option_bind].
    destruct (qa_lt ar _ _); [|by left]. destruct (locked_ex m w Hw) as [l El]. unfold flip23_unlocked. rewrite El.
    destruct l; [by left|]. right. done.
  Qed.
  Lemma qual32_cases m w : mesh_ok m → valid m w →
    flip32_quality ar m w = Some (m, None) ∨
    (ring3 m w ∧ ¬ edge_star_locked m w ∧
     flip32_quality ar m w = '(m', ws) ← flip32_unchecked m w; Some (m', Some ws)).
  Proof.
    intros Hok Hw. destruct (wverts_ex m w Hw) as (p & q & x & y & Ev).
    destruct (ring_ex m w Hok Hw) as (o & Ho & Hvo). destruct (ring_info m w o p q x y Hok Hw Ev Ho) as (_ & [z Ez]).
    assert (∀ a b c d, (∀ v, v ∈ [a; b; c; d] → v ∈ [p; q; x; y; z]) → is_Some (quality ar m a b c d)) as Hs.
    { intros ? ? ? ? H. apply quality_some. intros v Hv%H. destruct (decide (v = z)) as [->|].
      - apply (corner_exists m o _ z Hok Hvo Ez). apply elem_list4. cbn. tauto.
      - apply (corner_exists m w _ v Hok Hw Ev). apply elem_list4. cbn. rewrite !elem_of_cons, elem_of_nil in Hv. tauto. }
    unfold flip32_quality. rewrite Ho. cbn [mbind option_bind]. rewrite Ev. cbn [mbind option_bind].
    rewrite (wverts_fourth _ _ _ _ _ _ Ez). cbn [mbind option_bind].
    destruct (Hs p q x y) as [? ->]; [set_solver|]. destruct (Hs p q y z) as [? ->]; [set_solver|].
    destruct (Hs p q z x) as [? ->]; [set_solver|]. destruct (Hs y x z p) as [? ->]; [set_solver|].
    destruct (Hs x y z q) as [? ->]; [set_solver|]. cbn [mbind option_bind].
    destruct (qa_lt ar _ _); [|by left]. destruct (flip32_unlocked_cases m w Hok Hw) as [[_ H]|H]; [by left|by right].
  Qed.

  (** C20 for the quality variants. *)
  Lemma qual23_locks m w : mesh_ok m → valid m w →
    (w_locked m w = Some true → flip23_quality ar m w = Some (m, None)) ∧
    (∀ m' ws, flip23_ready m w → id_room m 1 1 → flip23_quality ar m w = Some (m', Some ws) →
       mesh_ok m' ∧ (∀ t, locked_tri m' t ↔ locked_tri m t) ∧ (∀ a b, locked_edge m' a b ↔ locked_edge m a b)).
  Proof.
    intros Hok Hw. destruct (unlocked23 m w Hok Hw) as [_ H2]. destruct (qual23_cases m w Hok Hw) as [E|[El E]]; rewrite E; (split; [congruence|]); [done|].
    intros m' ws Hrd Hroom E'. destruct (H2 El Hrd Hroom) as (m1 & ws1 & _ & Eu & Hr). rewrite Eu in E'. cbn in E'.
    injection E' as <- <-. done.
  Qed.
  Lemma qual32_locks m w : mesh_ok m → valid m w →
    (edge_star_locked m w → flip32_quality ar m w = Some (m, None)) ∧
    (∀ m' ws, flip32_ready m w → flip32_quality ar m w = Some (m', Some ws) →
       mesh_ok m' ∧ (∀ t, locked_tri m' t ↔ locked_tri m t) ∧ (∀ a b, locked_edge m' a b ↔ locked_edge m a b)).
  Proof.
    intros Hok Hw. destruct (unlocked32 m w Hok Hw) as [_ H2]. destruct (qual32_cases m w Hok Hw) as [E|(_ & El & E)]; rewrite E; (split; [done|]); [done|].
    intros m' ws Hrd E'. destruct (H2 El Hrd) as (m1 & ws1 & _ & Eu & Hr). rewrite Eu in E'. cbn in E'.
    injection E' as <- <-. done.
  Qed.

  (** ** Steps *)
  Context (Hsim : sim_even ar) (Hlt : lt_order ar).

  Lemma fmin_l a b : qa_lt ar a (fmin ar a b) = false.
  Proof.
    destruct Hlt as (H1 & H2 & _). unfold fmin. destruct (qa_lt ar b a) eqn:E; [|apply H1].
    destruct (qa_lt ar a b) eqn:E'; [|done]. pose proof (H1 b) as H. by rewrite (H2 _ _ _ E E') in H.
  Qed.
  Lemma fmin_r a b : qa_lt ar b (fmin ar a b) = false.
  Proof. destruct Hlt as (H1 & _). unfold fmin. by destruct (qa_lt ar b a) eqn:E. Qed.
  Lemma fmin_cases a b : fmin ar a b = a ∨ fmin ar a b = b.
  Proof. unfold fmin. destruct (qa_lt ar b a); tauto. Qed.
  Lemma lt_weaken q f r : qa_lt ar q f = true → qa_lt ar r f = false → qa_lt ar q r = true.
  Proof. destruct Hlt as (_ & _ & H3). intros H H'. destruct (qa_lt ar q r) eqn:E; [done|]. by rewrite (H3 _ _ _ E H') in H. Qed.
  Lemma nlt_trans a b c : qa_lt ar a b = false → qa_lt ar b c = false → qa_lt ar a c = false.
  Proof. apply Hlt. Qed.

  Lemma improves_intro m m' old new ea ed id q : mesh_ok m → replaces m m' old new ea ed →
    (∀ k vs v, (k, vs) ∈ new → v ∈ list4 vs → v = GHOST ∨ is_Some (im_get (m_verts m) v)) →
    id ∈ old → tet_quality ar m id = Some q →
    (∀ k q', k ∈ old → tet_quality ar m k = Some q' → qa_lt ar q' q = false) →
    (∀ k vs q', (k, vs) ∈ new → quality ar m (q0 vs) (q1 vs) (q2 vs) (q3 vs) = Some q' → qa_lt ar q q' = true) →
    improves ar m m' old new.*1.
  Proof.
    intros Hok Hr Hv Hid Hq Hold Hnew.
    assert (∀ k vs, (k, vs) ∈ new → tet_quality ar m' k = quality ar m (q0 vs) (q1 vs) (q2 vs) (q3 vs)) as Hn.
    { intros k vs Hk. pose proof (rp_new _ _ _ _ _ _ Hr k vs Hk) as E. unfold tet_quality.
      destruct (tet_get m' k) as [t|]; [|done]. cbn in E |- *. injection E as ->. by eapply replaces_quality. }
    split.
    - exists id, q. split; [done|]. split; [done|]. split; [done|]. intros k q' Hk Hq'.
      apply elem_of_list_fmap in Hk as ([k' vs] & -> & Hk). cbn in Hq'. rewrite (Hn _ _ Hk) in Hq'. by eapply Hnew.
    - intros k Hk. destruct (rp_old _ _ _ _ _ _ Hr k Hk) as [t Ht]. unfold tet_quality. rewrite Ht. cbn [mbind option_bind].
      apply quality_some. intros v Hvv. change (v ∈ list4 (t_vs t)) in Hvv.
      assert (valid m (Walker k 3)) as Hw by (split; [cbn; eauto|cbn; lia]).
      destruct (wverts_ex m _ Hw) as (x0 & x1 & x2 & x3 & Ex).
      apply (corner_exists m (Walker k 3) (A4 x0 x1 x2 x3) v Hok Hw Ex).
      rewrite (w_verts_eq m (Walker k 3) t Ht) in Ex. injection Ex as <- <- <- <-. exact Hvv.
    - intros k Hk. apply elem_of_list_fmap in Hk as ([k' vs] & -> & Hk). cbn. rewrite (Hn _ _ Hk). apply quality_some.
      intros v Hvv. by eapply Hv.
    - intros k. apply (rp_gone _ _ _ _ _ _ Hr).
    - intros k. apply (rp_fresh _ _ _ _ _ _ Hr).
    - intros k Ho Hk. pose proof (rp_out _ _ _ _ _ _ Hr k Ho Hk) as H.
      apply (f_equal (fmap (λ p, p.1.1.1))) in H. rewrite <- !option_fmap_compose in H.
      assert (t_vs <$> tet_get m' k = t_vs <$> tet_get m k) as E by exact H. split; [|done].
      unfold tet_quality. destruct (tet_get m' k) as [t'|], (tet_get m k) as [t|]; try done. cbn in E |- *. injection E as ->.
      by eapply replaces_quality.
  Qed.

  Lemma min2 a b x : fmin ar a b = x → (x = a ∨ x = b) ∧ qa_lt ar a x = false ∧ qa_lt ar b x = false.
  Proof. intros <-. split; [apply fmin_cases|]. split; [apply fmin_l|apply fmin_r]. Qed.
  Lemma min3 a b c x : fmin ar (fmin ar a b) c = x →
    (x = a ∨ x = b ∨ x = c) ∧ qa_lt ar a x = false ∧ qa_lt ar b x = false ∧ qa_lt ar c x = false.
  Proof.
    intros <-. destruct (min2 a b _ eq_refl) as (H1 & H2 & H3). destruct (min2 (fmin ar a b) c _ eq_refl) as (H4 & H5 & H6).
    split; [destruct H4 as [->|]; tauto|]. split; [by eapply nlt_trans|]. split; [by eapply nlt_trans|done].
  Qed.

  (** The decision of the quality flips. *)
  Lemma flip23_quality_eq m w a b c d e other : mesh_ok m → valid m w → w_verts m w = Some (A4 a b c d) →
    to_adj m w = Some other → w_fourth m other = Some e →
    ∃ q0 q1 r0 r1 r2, tet_quality ar m (w_tet w) = Some q0 ∧ tet_quality ar m (w_tet other) = Some q1 ∧
      quality ar m b a d e = Some r0 ∧ quality ar m a c d e = Some r1 ∧ quality ar m c b d e = Some r2 ∧
      flip23_quality ar m w =
        if qa_lt ar (fmin ar q0 q1) (fmin ar (fmin ar r0 r1) r2) then flip23_unlocked m w else Some (m, None).
  Proof.
    intros Hok Hw Ev Ho Ee. destruct (adj_info m w other a b c d Hok Hw Ev Ho) as (Hvo & [e' Evo] & _).
    assert (e' = e) as -> by (pose proof (wverts_fourth _ _ _ _ _ _ Evo); congruence).
    destruct (adj_ae_fourth m w other Ho) as (x & Ex & Fx). rewrite Ee in Fx.
    assert (∀ v, v ∈ [a; b; c; d; e] → v = GHOST ∨ is_Some (im_get (m_verts m) v)) as Hk.
    { intros v Hv. destruct (decide (v = e)) as [->|].
      - apply (corner_exists m other _ e Hok Hvo Evo). apply elem_list4. cbn. tauto.
      - apply (corner_exists m w _ v Hok Hw Ev). apply elem_list4. cbn. rewrite !elem_of_cons, elem_of_nil in Hv. tauto. }
    assert (∀ x y z u, (∀ v, v ∈ [x; y; z; u] → v ∈ [a; b; c; d; e]) → is_Some (quality ar m x y z u)) as Hs.
    { intros. apply quality_some. eauto. }
    destruct (Hs a b c d) as [k0 E0]; [set_solver|]. destruct (Hs b a c e) as [k1 E1]; [set_solver|].
    destruct (Hs b a d e) as [l0 E2]; [set_solver|]. destruct (Hs a c d e) as [l1 E3]; [set_solver|].
    destruct (Hs c b d e) as [l2 E4]; [set_solver|].
    exists k0, k1, l0, l1, l2. rewrite <- (walker_quality m w a b c d), <- (walker_quality m other b a c e) by done.
    do 5 (split; [done|]). unfold flip23_quality. rewrite Ex. cbn [mbind option_bind]. rewrite Ev. cbn [mbind option_bind].
    rewrite Fx. cbn [mbind option_bind]. rewrite E0, E1, E2, E3, E4. done.
  Qed.

  Lemma flip32_quality_eq m w p q x y z o1 : mesh_ok m → valid m w → w_verts m w = Some (A4 p q x y) →
    ring_next m w = Some o1 → w_fourth m o1 = Some z →
    ∃ q0 q1 q2 r0 r1, tet_quality ar m (w_tet w) = Some q0 ∧ tet_quality ar m (w_tet o1) = Some q1 ∧
      quality ar m p q z x = Some q2 ∧
      quality ar m y x z p = Some r0 ∧ quality ar m x y z q = Some r1 ∧
      flip32_quality ar m w =
        if qa_lt ar (fmin ar (fmin ar q0 q1) q2) (fmin ar r0 r1) then flip32_unlocked m w else Some (m, None).
  Proof.
    intros Hok Hw Ev R1 Ez. destruct (ring_info m w o1 p q x y Hok Hw Ev R1) as (V1 & [z' E1]).
    assert (z' = z) as -> by (pose proof (wverts_fourth _ _ _ _ _ _ E1); congruence).
    assert (∀ v, v ∈ [p; q; x; y; z] → v = GHOST ∨ is_Some (im_get (m_verts m) v)) as Hk.
    { intros v Hv. destruct (decide (v = z)) as [->|].
      - apply (corner_exists m o1 _ z Hok V1 E1). apply elem_list4. cbn. tauto.
      - apply (corner_exists m w _ v Hok Hw Ev). apply elem_list4. cbn. rewrite !elem_of_cons, elem_of_nil in Hv. tauto. }
    assert (∀ a b c d, (∀ v, v ∈ [a; b; c; d] → v ∈ [p; q; x; y; z]) → is_Some (quality ar m a b c d)) as Hs.
    { intros. apply quality_some. eauto. }
    destruct (Hs p q x y) as [k0 F0]; [set_solver|]. destruct (Hs p q y z) as [k1 F1]; [set_solver|].
    destruct (Hs p q z x) as [k2 F2]; [set_solver|]. destruct (Hs y x z p) as [l0 F3]; [set_solver|].
    destruct (Hs x y z q) as [l1 F4]; [set_solver|].
    exists k0, k1, k2, l0, l1. rewrite <- (walker_quality m w p q x y), <- (walker_quality m o1 p q y z) by done.
    do 5 (split; [done|]). unfold flip32_quality. rewrite R1. cbn [mbind option_bind]. rewrite Ev. cbn [mbind option_bind].
    rewrite Ez. cbn [mbind option_bind]. rewrite F0, F1, F2, F3, F4. done.
  Qed.

  Lemma qual23 m w : mesh_ok m → flip23_ready m w → id_room m 1 1 →
    (flip23_quality ar m w = Some (m, None) ∧
      (w_locked m w = Some true ∨
       ∃ a b c d e o v q, w_verts m w = Some (A4 a b c d) ∧ to_adj m w = Some o ∧ w_fourth m o = Some e ∧
         v ∈ [A4 b a d e; A4 a c d e; A4 c b d e] ∧ quality ar m (q0 v) (q1 v) (q2 v) (q3 v) = Some q ∧
         ∀ id q', id ∈ [w_tet w; w_tet o] → tet_quality ar m id = Some q' → qa_lt ar q' q = false)) ∨
    (∃ m' ws o n, flip23_quality ar m w = Some (m', Some ws) ∧ flip23_unchecked m w = Some (m', ws) ∧
       w_locked m w = Some false ∧ mesh_ok m' ∧ to_adj m w = Some o ∧
       improves ar m m' [w_tet w; w_tet o] [w_tet w; w_tet o; n] ∧ NoDup [w_tet w; w_tet o; n] ∧
       ∃ new ea ed, replaces m m' [w_tet w; w_tet o] new ea ed ∧ new.*1 = [w_tet w; w_tet o; n]).
  Proof.
    intros Hok Hrd Hroom. pose proof Hrd as (Hw & o & d & e & Ho & Ed & Ee & Hde & Hj).
    destruct (wverts_ex m w Hw) as (a & b & c & d' & Ev).
    assert (d' = d) as -> by (pose proof (wverts_fourth _ _ _ _ _ _ Ev); congruence).
    destruct (flip23_quality_eq m w a b c d e o Hok Hw Ev Ho Ee) as (k0 & k1 & l0 & l1 & l2 & K0 & K1 & L0 & L1 & L2 & E).
    destruct (min2 k0 k1 _ eq_refl) as (I1 & I2 & I3). destruct (min3 l0 l1 l2 _ eq_refl) as (J1 & J2 & J3 & J4).
    set (k := fmin ar k0 k1) in *. set (l := fmin ar (fmin ar l0 l1) l2) in *.
    assert (∀ id q', id ∈ [w_tet w; w_tet o] → tet_quality ar m id = Some q' → qa_lt ar q' k = false) as Hk.
    { intros id q' Hid Hq'. rewrite !elem_of_cons, elem_of_nil in Hid. destruct Hid as [->|[->|[]]]; congruence. }
    destruct (qa_lt ar k l) eqn:Hlt'.
    - destruct (locked_ex m w Hw) as [[|] El]; [left; split; [|by left]|right].
      { rewrite E. unfold flip23_unlocked. by rewrite El. }
      destruct (flip23_step m w o a b c d e Hok Hw Ev Ho Ee Hde Hj Hroom) as (m' & ws & id2 & Er & Hs & Hok').
      exists m', ws, o, id2. unfold flip23_unlocked in E. rewrite El in E. cbn [mbind option_bind] in E. rewrite Er in E. cbn [mbind option_bind] in E.
      do 5 (split; [done|]). split; [|split; [exact (fs23_ids _ _ _ _ _ _ _ _ _ _ _ Hs)|by eexists _, _, _; split; [exact (fs23_repl _ _ _ _ _ _ _ _ _ _ _ Hs)|]]].
      pose proof (fs23_repl _ _ _ _ _ _ _ _ _ _ _ Hs) as Hrep.
      assert (∃ id, id ∈ [w_tet w; w_tet o] ∧ tet_quality ar m id = Some k) as (id & Hid & Hq).
      { destruct I1 as [->| ->]; [exists (w_tet w)|exists (w_tet o)]; (split; [rewrite !elem_of_cons; tauto|done]). }
      eapply (improves_intro _ _ _ _ _ _ id k Hok Hrep).
      + intros x vs v Hx Hv. destruct (fs23_other _ _ _ _ _ _ _ _ _ _ _ Hs) as [_ Evo].
        destruct (adj_info m w o a b c d Hok Hw Ev Ho) as (Hvo & _ & _).
        assert (v = e ∨ v ∈ list4 (A4 a b c d)) as [->|Hv'].
        { rewrite !elem_of_cons, elem_of_nil in Hx. rewrite elem_list4. destruct Hx as [[= -> ->]|[[= -> ->]|[[= -> ->]|[]]]]; rewrite elem_list4 in Hv; cbn in *; tauto. }
        * apply (corner_exists m o _ e Hok Hvo Evo). apply elem_list4. cbn. tauto.
        * by apply (corner_exists m w _ v Hok Hw Ev).
      + done.
      + done.
      + done.
      + intros x vs q' Hx Hq'. eapply lt_weaken; [exact Hlt'|].
        rewrite !elem_of_cons, elem_of_nil in Hx. destruct Hx as [[= -> ->]|[[= -> ->]|[[= -> ->]|[]]]]; cbn in Hq'; congruence.
    - left. split; [done|]. right. 
      assert (∃ v, v ∈ [A4 b a d e; A4 a c d e; A4 c b d e] ∧ quality ar m (q0 v) (q1 v) (q2 v) (q3 v) = Some l) as (v & Hv & Hq).
      { destruct J1 as [->|[->| ->]]; [exists (A4 b a d e)|exists (A4 a c d e)|exists (A4 c b d e)]; (split; [rewrite !elem_of_cons; tauto|done]). }
      exists a, b, c, d, e, o, v, l. do 5 (split; [done|]). intros id q' Hid Hq'. eapply nlt_trans; [by eapply Hk|done].
  Qed.

  Lemma qual32 m w : mesh_ok m → flip32_ready m w →
    (flip32_quality ar m w = Some (m, None) ∧
      (edge_star_locked m w ∨
       ∃ p q x y z o1 o2 v r, w_verts m w = Some (A4 p q x y) ∧ ring_next m w = Some o1 ∧ ring_next m o1 = Some o2 ∧
         w_fourth m o1 = Some z ∧
         v ∈ [A4 y x z p; A4 x y z q] ∧ quality ar m (q0 v) (q1 v) (q2 v) (q3 v) = Some r ∧
         ∀ id q', id ∈ [w_tet w; w_tet o1; w_tet o2] → tet_quality ar m id = Some q' → qa_lt ar q' r = false)) ∨
    (∃ m' ws o1 o2, flip32_quality ar m w = Some (m', Some ws) ∧ flip32_unchecked m w = Some (m', ws) ∧
       ¬ edge_star_locked m w ∧ mesh_ok m' ∧ ring_next m w = Some o1 ∧ ring_next m o1 = Some o2 ∧
       improves ar m m' [w_tet w; w_tet o1; w_tet o2] [w_tet w; w_tet o1] ∧ NoDup [w_tet w; w_tet o1; w_tet o2] ∧
       ∃ new ea ed, replaces m m' [w_tet w; w_tet o1; w_tet o2] new ea ed ∧ new.*1 = [w_tet w; w_tet o1]).
  Proof.
    intros Hok Hrd. pose proof Hrd as (Hw & (o1 & o2 & R1 & R2 & R3) & _).
    destruct (step32 m w Hok Hrd) as (m' & ws & p & q & x & y & z & o1' & o2' & Er & Hs & Hg & _).
    destruct (fs32_other1 _ _ _ _ _ _ _ _ _ _ _ Hs) as [R1' E1]. rewrite R1 in R1'. injection R1' as <-.
    destruct (fs32_other2 _ _ _ _ _ _ _ _ _ _ _ Hs) as [R2' E2]. rewrite R2 in R2'. injection R2' as <-.
    pose proof (fs32_self _ _ _ _ _ _ _ _ _ _ _ Hs) as Ev.
    destruct (ring_info m w o1 p q x y Hok Hw Ev R1) as (V1 & _). destruct (ring_info m o1 o2 p q y z Hok V1 E1 R2) as (V2 & _).
    pose proof (wverts_fourth _ _ _ _ _ _ E1) as Ez.
    destruct (flip32_quality_eq m w p q x y z o1 Hok Hw Ev R1 Ez) as (k0 & k1 & k2 & l0 & l1 & K0 & K1 & K2 & L0 & L1 & E).
    rewrite (walker_quality m o2 p q z x Hsim Hok V2 E2) in K2.
    destruct (min2 l0 l1 _ eq_refl) as (J1 & J2 & J3). destruct (min3 k0 k1 k2 _ eq_refl) as (I1 & I2 & I3 & I4).
    set (l := fmin ar l0 l1) in *. set (k := fmin ar (fmin ar k0 k1) k2) in *.
    assert (∀ id q', id ∈ [w_tet w; w_tet o1; w_tet o2] → tet_quality ar m id = Some q' → qa_lt ar q' k = false) as Hk.
    { intros id q' Hid Hq'. rewrite !elem_of_cons, elem_of_nil in Hid. destruct Hid as [->|[->|[->|[]]]]; congruence. }
    destruct (qa_lt ar k l) eqn:Hlt'.
    - destruct (flip32_unlocked_cases m w Hok Hw) as [[H E']|(_ & Hl & E')].
      { left. rewrite E. split; [done|]. left. destruct H as [H|H]; [|done]. by destruct H, Hrd as (_ & H & _). }
      right. rewrite E' in E. rewrite Er in E. cbn [mbind option_bind] in E.
      exists m', ws, o1, o2. do 3 (split; [done|]). split; [apply Hg|]. do 2 (split; [done|]).
      split; [|split; [exact (fs32_ids _ _ _ _ _ _ _ _ _ _ _ Hs)|by eexists _, _, _; split; [exact (fs32_repl _ _ _ _ _ _ _ _ _ _ _ Hs)|]]].
      pose proof (fs32_repl _ _ _ _ _ _ _ _ _ _ _ Hs) as Hrep.
      assert (∃ id, id ∈ [w_tet w; w_tet o1; w_tet o2] ∧ tet_quality ar m id = Some k) as (id & Hid & Hq).
      { destruct I1 as [->|[->| ->]]; [exists (w_tet w)|exists (w_tet o1)|exists (w_tet o2)]; (split; [rewrite !elem_of_cons; tauto|done]). }
      eapply (improves_intro _ _ _ _ _ _ id k Hok Hrep).
      + intros id' vs v Hx Hv.
        assert (v ∈ list4 (A4 p q x y) ∨ v ∈ list4 (A4 p q y z)) as [Hv'|Hv'].
        { rewrite !elem_of_cons, elem_of_nil in Hx. rewrite !elem_list4. destruct Hx as [[= -> ->]|[[= -> ->]|[]]]; rewrite elem_list4 in Hv; cbn in *; tauto. }
        * by apply (corner_exists m w _ v Hok Hw Ev).
        * by apply (corner_exists m o1 _ v Hok V1 E1).
      + done.
      + done.
      + done.
      + intros id' vs q' Hx Hq'. eapply lt_weaken; [exact Hlt'|].
        rewrite !elem_of_cons, elem_of_nil in Hx. destruct Hx as [[= -> ->]|[[= -> ->]|[]]]; cbn in Hq'; congruence.
    - left. split; [done|]. right. 
      assert (∃ v, v ∈ [A4 y x z p; A4 x y z q] ∧ quality ar m (q0 v) (q1 v) (q2 v) (q3 v) = Some l) as (v & Hv & Hq).
      { destruct J1 as [->| ->]; [exists (A4 y x z p)|exists (A4 x y z q)]; (split; [rewrite !elem_of_cons; tauto|done]). }
      exists p, q, x, y, z, o1, o2, v, l. do 6 (split; [done|]). intros id q' Hid Hq'. eapply nlt_trans; [by eapply Hk|done].
  Qed.
End quality.
