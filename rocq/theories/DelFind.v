(** Inserting a vertex into a Delaunay tetrahedralization: finding the tet to start from. *)
From stdpp Require Import base numbers list gmap option relations sorting.
From Coq Require Import NArith ZArith Lia.
From Verif Require Import IdMapModel IdMapSpec IdMapProofs WalkerModel WalkerSpec MeshModel MeshSpec MeshOps MeshViews MeshLink MeshRun HistSpec MeshOpsOk UtilModel UtilSpec
  IterModel IterOpt IterProofs IterLookup Marks GeoModel GeoMesh Flip44Ok PropGeo CavModel CavSpec InsModel InsSpec InsRest DelModel DelSpec DelOk.
Local Open Scope nat_scope.

Section find.
  Context {V T : Type}.
  Implicit Types (m : mesh V T) (w : walker).

  Lemma tet_at_live m c id : tet_at m c id → is_Some (tet_get m id).
  Proof. by intros (w & [H _] & <- & _). Qed.
  Lemma neighbours_live m a b : mesh_ok m → neighbours m a b → is_Some (tet_get m b).
  Proof.
    intros Hok (w & x & Hw & _ & Ex & <-). destruct (wverts_ex m w Hw) as (a' & b' & c' & d' & Ev).
    destruct (ok_adj m Hok w _ _ _ _ Hw Ev) as (w' & z & E & Hv & _). assert (x = w') as -> by congruence. apply Hv.
  Qed.

  Lemma find_around_ok m v c : ready m → known_vertex m v → attached m c → c ≠ GHOST →
    ∃ r, find_around m v c = Some (m, r) ∧
      match r with
      | Some t => tet_at m c t ∧ violates m v t = Some true
      | None => ∀ t, tet_at m c t → violates m v t = Some false
      end.
  Proof.
    intros Hr Hk Ha Hg. pose proof (rd_ok _ Hr) as Hok. pose proof (ready_unmarked m Hr) as [Hum _].
    destruct (vertex_walkers m c Hok Ha Hg) as (w & l & Ew & E & Hy & Hlen & Hnd & HP & Hall).
    set (n := length (im_keys (m_tets m)) + 1). destruct (Hy n) as ([vis st] & En). rewrite take_ge in En by lia.
    destruct (find_iter_ok m v n Hum [] [w] (w :: l) vis st) as (r & vl & st2 & E1 & Hvl & Hres); [split; [constructor|set_solver]|exact En|lia| |].
    { intros x Hx. apply violates_some; [done..|]. by destruct (HP x Hx) as [[? _] _]. }
    rewrite mark_tets_nil in E1. exists r. split.
    - unfold find_around, walkers_from_vertex_opt. rewrite Ew. cbn [mbind option_bind]. fold n. rewrite E1. cbn [mbind option_bind].
      rewrite wfvo_drop_ok by done. done.
    - destruct r as [t|].
      + destruct Hres as [(x & -> & Hx)%elem_of_list_fmap Hv]. split; [|done]. destruct (HP x Hx). by exists x.
      + intros t (x & Hx & <- & Hf). destruct (proj1 (elem_of_list_fmap _ _ _) (Hall x Hx Hf)) as (y & -> & Hy'). by apply Hres.
  Qed.

  Lemma tets_collect_ok m c : ready m → attached m c → c ≠ GHOST →
    ∃ l, tets_collect m c = Some (m, l) ∧ ∀ t, t ∈ l ↔ tet_at m c t.
  Proof.
    intros Hr Ha Hg. pose proof (rd_ok _ Hr) as Hok. pose proof (ready_unmarked m Hr) as [Hum _].
    destruct (vertex_walkers m c Hok Ha Hg) as (w & l & Ew & E & Hy & Hlen & Hnd & HP & Hall).
    set (n := length (im_keys (m_tets m)) + 1).
    destruct (wfvo_traversal m c _ _ n Hum E Hy) as (so & s' & E1 & E2 & E3). rewrite take_ge in E2 by lia.
    exists (w_tet <$> w :: l). split.
    - unfold tets_collect. rewrite E1. cbn [mbind option_bind]. fold n. rewrite E2, E3. done.
    - intros t. split.
      + intros (x & -> & Hx)%elem_of_list_fmap. destruct (HP x Hx). by exists x.
      + intros (x & Hx & <- & Hf). by apply Hall.
  Qed.

  Lemma adjacent_ok m id : mesh_ok m → is_Some (tet_get m id) → ∃ l, adjacent_tets m id = Some l ∧ ∀ n, n ∈ l ↔ neighbours m id n.
  Proof.
    intros Hok [t Et]. destruct (adjacent_lookup m id t Hok Et) as (l & E & Hlen & Hl). exists l. split; [done|]. intros n. split.
    - intros (i & Hi)%elem_of_list_lookup. destruct (Hl i n Hi) as (w & w' & a & b & c & d & d' & Hw & Ht & Ev & _ & Hw' & Ht' & Ev').
      exists w, w'. split; [done|]. split; [done|]. split; [|done].
      destruct (ok_adj m Hok w _ _ _ _ Hw Ev) as (w2 & x & Ea & Hw2 & Ev2 & _). rewrite Ea. f_equal.
      apply (ok_tri_unique m Hok w2 w' (b, a, c)); [done..| |].
      + by eapply wverts_tri.
      + by eapply wverts_tri.
    - intros (w & x & [_ He] & <- & Ex & <-). unfold adjacent_tets in E. rewrite Et in E. cbn in E. injection E as <-.
      unfold to_adj, to_adj_ae in Ex. rewrite Et in Ex. cbn [mbind option_bind] in Ex.
      assert (w_tet x = w_tet (get4 (t_opp t) (w_edge w mod 4))) as ->.
      { destruct (w_edge w / 4) as [|[|[|?]]]; [by injection Ex as <-..|done]. }
      assert (w_edge w mod 4 < 4) by (apply Nat.mod_upper_bound; lia).
      destruct (w_edge w mod 4) as [|[|[|[|?]]]]; [..|lia]; cbn; rewrite !elem_of_cons; tauto.
  Qed.

  Lemma mapM_adjacent m l : mesh_ok m → (∀ id, id ∈ l → is_Some (tet_get m id)) →
    ∃ ll, mapM (adjacent_tets m) l = Some ll ∧ ∀ n, n ∈ concat ll ↔ ∃ id, id ∈ l ∧ neighbours m id n.
  Proof.
    intros Hok. induction l as [|id l IH]; intros Hl.
    - exists []. split; [done|]. intros n. cbn. rewrite elem_of_nil. split; [done|]. by intros (? & []%elem_of_nil & _).
    - destruct (adjacent_ok m id Hok) as (a & Ea & Ha); [by apply Hl; left|]. destruct IH as (ll & E & Hll); [intros; apply Hl; by right|].
      exists (a :: ll). cbn. rewrite Ea. cbn. rewrite E. split; [done|]. intros n. rewrite elem_of_app, Ha, Hll. split.
      + intros [H|(i & Hi & H)]; [exists id; split; [by left|done]|exists i; split; [by right|done]].
      + intros (i & [->|Hi]%elem_of_cons & H); [by left|right; eauto].
  Qed.

  Lemma find_next_ok m v : mesh_ok m → known_vertex m v → ∀ tets (checked : gset N), (∀ t, t ∈ tets → is_Some (tet_get m t)) →
    match find_next m v checked tets with
    | Some t => t ∈ tets ∧ violates m v t = Some true
    | None => ∀ t, t ∈ tets → t ∉ checked → violates m v t = Some false
    end.
  Proof.
    intros Hok Hk. induction tets as [|t tets IH]; intros checked Hl; cbn [find_next]; [by intros ? []%elem_of_nil|].
    destruct (decide (t ∈ checked)) as [Hin|Hin].
    - specialize (IH checked (λ t' H', Hl t' (elem_of_list_further _ _ _ H'))). destruct (find_next m v checked tets).
      + destruct IH. split; [by right|done].
      + intros t' [->|Ht']%elem_of_cons Hn; [done|by apply IH].
    - destruct (violates_some m v t Hok Hk) as [b Hb]; [by apply Hl; left|]. rewrite Hb. cbn [mbind option_bind]. destruct b; [split; [by left|done]|].
      specialize (IH ({[t]} ∪ checked) (λ t' H', Hl t' (elem_of_list_further _ _ _ H'))). destruct (find_next m v _ tets).
      + destruct IH. split; [by right|done].
      + intros t' [->|Ht']%elem_of_cons Hn; [done|]. destruct (decide (t' = t)) as [->|Hne]; [done|]. apply IH; [done|]. rewrite elem_of_union, elem_of_singleton. tauto.
  Qed.

  Lemma joined_attached m a b : joined m a b → attached m b.
  Proof.
    intros (w & Hw & Hp). destruct (wverts_ex m w Hw) as (x & y & z & u & Ev). exists (to_nfe w). split; [by apply valid_nfe|].
    pose proof (wverts_nfe m w _ _ _ _ Hw Ev) as En. rewrite (wverts_first _ _ _ _ _ _ En). unfold w_pair in Hp.
    rewrite (wverts_first _ _ _ _ _ _ Ev), (wverts_second _ _ _ _ _ _ Ev) in Hp. cbn in Hp. by injection Hp as _ ->.
  Qed.
  Lemma attached_key m a : mesh_ok m → attached m a → a ≠ GHOST → a ∈ im_keys (m_verts m).
  Proof. intros Hok (w & Hw & Hf) Hg. apply elem_of_im_keys; [apply Hok|]. by destruct (ok_exist m Hok w a Hw Hf). Qed.

  Section orders.
    Context (less lt : N → N → bool) (order : list N → list N) (Hd : distances less lt) (Hord : ∀ l, NoDup l → order l ≡ₚ l).

    Lemma walk_ok m v : ready m → ∀ fuel seen c, attached m c → c ≠ GHOST → NoDup seen →
      (∀ a, a ∈ seen → a ∈ im_keys (m_verts m) ∧ lt c a = true) → length (im_keys (m_verts m)) < fuel + length seen →
      ∃ c', walk less lt fuel m v c = Some (m, c') ∧ c' ≠ GHOST ∧ nearest m lt v c' ∧ (c' = c ∨ lt c' c = true).
    Proof.
      intros Hr. pose proof (rd_ok _ Hr) as Hok. induction fuel as [|fuel IH]; intros seen c Ha Hg Hnd Hseen Hlen.
      - exfalso. assert (length seen ≤ length (im_keys (m_verts m))); [|lia]. apply submseteq_length, NoDup_submseteq; [done|]. intros a H. by apply Hseen.
      - cbn [walk]. destruct (targets_ok m c Hr Ha Hg) as (l & -> & Hl). cbn [mbind option_bind].
        pose proof (min_by_spec less lt Hd (filter (λ a : N, a ≠ v) l)) as Hmin. destruct (min_by less _) as [u|].
        + destruct Hmin as [[Huv Hul]%elem_of_list_filter Hmin]. destruct (lt u c) eqn:Elt.
          * destruct (IH (c :: seen) u) as (c' & E & Hg' & Hn & Hc).
            -- apply (joined_attached m c). by apply Hl.
            -- intros ->. by rewrite (ds_ghost _ _ Hd) in Elt.
            -- constructor; [|done]. intros Hin. destruct (Hseen c Hin) as [_ H]. by rewrite (ds_irrefl _ _ Hd) in H.
            -- intros a [->|H]%elem_of_cons; [split; [by apply attached_key|done]|]. destruct (Hseen a H). split; [done|]. by apply (ds_trans _ _ Hd _ c).
            -- cbn. lia.
            -- exists c'. split; [done|]. split; [done|]. split; [done|]. right. destruct Hc as [->|Hc]; [done|]. by apply (ds_trans _ _ Hd _ u).
          * exists c. split; [done|]. split; [done|]. split; [|by left]. split; [done|]. intros b Hb Hbv. destruct (lt b c) eqn:Eb; [|done].
            assert (less b u = false) as H by (apply Hmin, elem_of_list_filter; split; [done|by apply Hl]). rewrite (ds_min _ _ Hd u b c H Eb) in Elt. done.
        + exists c. split; [done|]. split; [done|]. split; [|by left]. split; [done|]. intros b Hb Hbv. exfalso.
          assert (b ∈ filter (λ a : N, a ≠ v) l) as H by (apply elem_of_list_filter; split; [done|by apply Hl]). rewrite Hmin in H. by apply elem_of_nil in H.
    Qed.

    Lemma find_start_ok m v start : ready m → known_vertex m v → attached m start → start ≠ GHOST →
      (∃ t, find_start less lt order m v start = Some (m, t) ∧ violates m v t = Some true) ∨
      (find_start less lt order m v start = None ∧ ∃ c, c ≠ GHOST ∧ nearest m lt v c ∧ (c = start ∨ lt c start = true) ∧
         ∀ t0 t, tet_at m c t0 → t = t0 ∨ neighbours m t0 t → violates m v t = Some false).
    Proof.
      intros Hr Hk Ha Hg. pose proof (rd_ok _ Hr) as Hok. unfold find_start.
      pose proof (attached_key m start Hok Ha Hg) as Hkey. apply elem_of_im_keys in Hkey as [vt Hvt]; [|apply Hok].
      change (im_get (m_verts m) start = Some vt) in Hvt. unfold walker_from_vertex. rewrite Hvt. cbn [fmap option_fmap option_map mbind option_bind].
      destruct (ok_vref m Hok start vt Hvt Ha) as [[Hlive _] _].
      destruct (violates_some m v (w_tet (v_tet vt)) Hok Hk Hlive) as [b Hb]. rewrite Hb. cbn [mbind option_bind]. destruct b; [left; eauto|].
      destruct (walk_ok m v Hr (length (im_keys (m_verts m)) + 1) [] start Ha Hg) as (c & -> & Hgc & Hn & Hc); [constructor|by intros ? []%elem_of_nil|cbn; lia|].
      cbn [mbind option_bind]. destruct (find_around_ok m v c Hr Hk (proj1 Hn) Hgc) as (r & -> & Hres). cbn [mbind option_bind]. destruct r as [t|].
      - left. exists t. split; [done|]. apply Hres.
      - destruct (tets_collect_ok m c Hr (proj1 Hn) Hgc) as (l & -> & Hl). cbn [mbind option_bind].
        destruct (mapM_adjacent m l Hok) as (ll & -> & Hll); [intros id H; eapply tet_at_live; by apply Hl|]. cbn [mbind option_bind].
        assert (∀ n, n ∈ order (remove_dups (concat ll)) ↔ ∃ id, id ∈ l ∧ neighbours m id n) as Ho.
        { intros n. rewrite (Hord _ (NoDup_remove_dups _)), elem_of_remove_dups. apply Hll. }
        pose proof (find_next_ok m v Hok Hk (order (remove_dups (concat ll))) (list_to_set l)) as Hf.
        destruct (find_next m v _ _) as [t|].
        + left. exists t. split; [done|]. apply Hf. intros t' (id & _ & H)%Ho. by eapply neighbours_live.
        + right. split; [done|]. exists c. split; [done|]. split; [done|]. split; [done|].
          intros t0 t Ht0 Hor. destruct (decide (t ∈ l)) as [Hin|Hin]; [by apply Hres, Hl|].
          destruct Hor as [->|Hnb]; [by destruct Hin; apply Hl|]. apply Hf.
          * intros t' (id & _ & H)%Ho. by eapply neighbours_live.
          * apply Ho. exists t0. split; [by apply Hl|done].
          * by rewrite elem_of_list_to_set.
    Qed.
  End orders.

  Lemma violates_spoiled m v id b : mesh_ok m → violates m v id = Some b → (b = true ↔ spoiled m v id).
  Proof.
    intros Hok. unfold violates. intros (t & Et & (s & Es & [= <-])%bind_Some)%bind_Some.
    assert (valid m (Walker id 3)) as Hw by (split; [by eexists|cbn; lia]).
    pose proof (wverts_at m (Walker id 3) t Et) as Ec. cbn [w_edge verts_at] in Ec.
    assert (w_verts m (Walker id 3) = Some (A4 (q0 (t_vs t)) (q1 (t_vs t)) (q2 (t_vs t)) (q3 (t_vs t)))) as Ev by (rewrite Ec; by destruct (t_vs t)).
    rewrite Z.ltb_lt. split.
    - intros Hs. split; [by eexists|]. intros w a b c d Hv Ht Ew. exists s. split; [|done]. rewrite <- Es. symmetry.
      by apply (C29_walker_positions_agree m (Walker id 3) w); [..|done|done].
    - intros [_ H]. destruct (H (Walker id 3) _ _ _ _ Hw eq_refl Ev) as (s' & E & Hs). rewrite Es in E. by injection E as ->.
  Qed.
End find.
