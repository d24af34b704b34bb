(** Recovering an edge by vertices inserted on it. *)
From stdpp Require Import base numbers list gmap option relations.
From Coq Require Import NArith ZArith Lia.
From Verif Require Import IdMapModel WalkerModel WalkerSpec WalkerProofs MeshModel MeshOps MeshOpsOk MeshSpec MeshViews HistSpec History FlipSpec GeoModel GeoProofs IterModel IterProofs IterLookup CavModel CavSpec CavBase CavOk
  InsModel InsSpec InsRest Marks DelModel DelSpec DelOk QualModel ProgModel ProgSpec RecSpec CrossOk Flip44Ok WayModel WaySpec WayOk MidModel SteinModel SteinSpec SteinStart PropCav PropIns PropDel PropWay FromReady.
Local Open Scope nat_scope.

Lemma sorted_2_eq a b c d : sorted_2 (a, b) = sorted_2 (c, d) → (a = c ∧ b = d) ∨ (a = d ∧ b = c).
Proof. unfold sorted_2. destruct (N.ltb_spec b a), (N.ltb_spec d c); cbn [fst snd]; intros [= -> ->]; auto. Qed.

Section ok.
  Context {V T : Type}.
  Implicit Types (m : mesh V T) (w : walker).

  (** ** Edges and locks *)
  Lemma locked_edge_walker m w a b : mesh_ok m → valid m w → w_pair m w = Some (a, b) → locked_edge m a b ↔ w_edge_locked m w = Some true.
  Proof.
    intros Hok Hw Hp. destruct (ok_edge m Hok w a b Hw Hp) as (e & ue & H1 & H2 & H3). unfold w_edge_locked. rewrite H1. cbn [mbind option_bind]. rewrite H2. cbn [mbind option_bind]. split.
    - intros (e' & ue' & E1 & E2 & E3). assert (e' = e) as -> by (apply (ok_edge_unique m Hok e' e ue' ue); congruence). congruence.
    - intros [= E]. by exists e, ue.
  Qed.
  Lemma locked_edge_joined m a b : mesh_ok m → locked_edge m a b → joined m a b.
  Proof.
    intros Hok (e & ue & E1 & E2 & _). pose proof (ok_edge_used m Hok e ue E1) as (w & Hw & Hp). rewrite E2 in Hp. unfold sorted_2 in Hp. destruct (N.ltb b a); cbn [fst snd] in Hp; [|by exists w].
    destruct (wverts_of_pair m w b a Hw Hp) as (c & d & Ev). exists (to_twin_edge w). split; [by apply valid_twin|]. eapply wverts_pair. by apply wverts_twin.
  Qed.
  Lemma joined_attached2 m a b : joined m a b → attached m a.
  Proof. intros (w & Hw & Hp). exists w. split; [done|]. unfold w_pair in Hp. destruct (w_first m w); [|done]. cbn in Hp. destruct (w_second m w); [|done]. cbn in Hp. by injection Hp as -> ->. Qed.

  (** A locked edge is not in the inside: one of its tets is outside. *)
  Lemma edge_outside m E w p : mesh_ok m → valid m w → w_pair m w = Some p → ¬ edge_inside m E w → ∃ u, valid m u ∧ w_pair m u = Some p ∧ w_tet u ∉ E.
  Proof.
    intros Hok Hw Hp Hn. destruct (ring_all m w p Hok Hw Hp) as (l & _ & Hl & _).
    destruct (decide (Forall (λ x, w_tet x ∈ E) l)) as [HF|HF].
    - destruct Hn. intros u q Hu E1 E2. rewrite list.Forall_forall in HF. apply HF, Hl. split; [done|congruence].
    - apply not_Forall_Exists in HF; [|intros x; apply _]. apply Exists_exists in HF as (x & Hx & Hx'). apply Hl in Hx as [??]. eauto.
  Qed.

  (** ** Filling *)
  Lemma kept_views m v E B m' B' u : filled m v E B m' B' → valid m u → w_tet u ∉ E → valid m' u ∧ w_verts m' u = w_verts m u ∧ w_pair m' u = w_pair m u ∧ w_first m' u = w_first m u ∧ w_tri m' u = w_tri m u.
  Proof.
    intros F Hu Hn. destruct Hu as [[t Ht] He]. destruct (fi_kept _ _ _ _ _ _ F _ t Ht Hn) as (t' & Ht' & Ev & _).
    split; [split; [eauto|done]|]. unfold w_verts, w_pair, w_tri, w_first, w_second, w_third, w_fourth. rewrite Ht, Ht'. cbn [mbind option_bind]. by rewrite Ev.
  Qed.

  Lemma filled_locks m v E B m' B' : mesh_ok m → mesh_ok m' → filled m v E B m' B' → (∀ w, valid m w → w_edge_locked m w = Some true → ¬ edge_inside m E w) →
    ∀ a b, locked_edge m' a b ↔ locked_edge m a b.
  Proof.
    intros Hok Hok' F Hin a b. split.
    - intros (e & ue' & E1 & E2 & E3). destruct (fi_edges _ _ _ _ _ _ F e ue' E1) as [(w & ue & _ & _ & _ & G1 & G2 & G3)|(x & _ & _ & G)]; [|congruence].
      exists e, ue. split; [done|]. split; congruence.
    - intros Hl. pose proof (locked_edge_joined m a b Hok Hl) as (w & Hw & Hp). pose proof Hl as Hlw. rewrite (locked_edge_walker m w a b Hok Hw Hp) in Hlw.
      destruct (edge_outside m E w (a, b) Hok Hw Hp (Hin w Hw Hlw)) as (u & Hu & Hpu & Hn). destruct (kept_views m v E B m' B' u F Hu Hn) as (Hu' & _ & Hpu' & _).
      rewrite (locked_edge_walker m' u a b Hok' Hu') by congruence. rewrite (locked_edge_walker m u a b Hok Hu Hpu) in Hl.
      destruct (ok_edge m Hok u a b Hu Hpu) as (e & ue & He & _). destruct (fi_kept_edge _ _ _ _ _ _ F u e Hu Hn He) as [_ ->]. done.
  Qed.

  (** If a vertex of a tet of the cavity is not in its inside, the cavity has a boundary. *)
  Lemma vertex_step_out m E w u : mesh_ok m → rtsc (vertex_step m) w u → (w_tet w ∈ E ∧ w_tet u ∉ E) ∨ (w_tet w ∉ E ∧ w_tet u ∈ E) → ∃ x, valid m x ∧ leaves m E x.
  Proof.
    intros Hok. induction 1 as [x|x y z Hxy _ IH]; [tauto|]. intros Hc.
    assert (∀ p q, vertex_step m p q → (w_tet p ∈ E ∧ w_tet q ∉ E) ∨ (w_tet p ∉ E ∧ w_tet q ∈ E) → ∃ x, valid m x ∧ leaves m E x) as Hstep.
    { intros p q [Hp [-> | (r & Er & ->)]]; [cbn; tauto|]. change (w_tet (to_nfe r)) with (w_tet r). destruct (wverts_ex m p Hp) as (a & b & c & d & Ev).
      destruct (ok_adj m Hok _ _ _ _ _ Hp Ev) as (r' & e & Er' & Hr & _ & Eb). rewrite Er in Er'. injection Er' as <-. intros [[H1 H2]|[H1 H2]].
      - exists p. split; [done|]. split; [done|]. eauto.
      - exists r. split; [done|]. split; [done|]. eauto. }
    destruct (decide (w_tet x ∈ E)) as [Hx|Hx], (decide (w_tet y ∈ E)) as [Hy|Hy].
    - apply IH. left. destruct Hc as [[_ ?]|[? _]]; done.
    - destruct Hxy as [Hxy|Hxy]; apply (Hstep _ _ Hxy); tauto.
    - destruct Hxy as [Hxy|Hxy]; apply (Hstep _ _ Hxy); tauto.
    - apply IH. right. destruct Hc as [[? _]|[_ ?]]; done.
  Qed.
  Lemma cavity_boundary m B E : mesh_ok m → region m E → E ≠ [] → boundary_of m E B → (∀ a, attached m a → ∃ u, valid m u ∧ w_first m u = Some a ∧ w_tet u ∉ E) → B ≠ [].
  Proof.
    intros Hok [_ HE] Hne (_ & _ & HB) Hv ->. destruct E as [|id E]; [done|]. assert (valid m (Walker id 0)) as Hw by (split; [apply HE; left|cbn; lia]).
    destruct (wverts_ex m _ Hw) as (a & b & c & d & Ev). pose proof (wverts_first _ _ _ _ _ _ Ev) as Hf. destruct (Hv a ltac:(by exists (Walker id 0))) as (u & Hu & Hfu & Hn).
    destruct (vertex_step_out m (id :: E) _ _ Hok (ok_star m Hok _ _ a Hw Hu Hf Hfu)) as (x & Hx & Hl); [left; split; [left|done]|].
    apply (HB x Hx), elem_of_nil in Hl. done.
  Qed.

  (** ** Storing the vertex changes nothing else. *)
  Lemma placed_same m v p x m1 : placed m v p x m1 → (∀ w, valid m1 w ↔ valid m w) ∧ (∀ w, w_pair m1 w = w_pair m w) ∧ (∀ a b, joined m1 a b ↔ joined m a b) ∧
    (∀ a b, locked_edge m1 a b ↔ locked_edge m a b) ∧ (∀ t, locked_tri m1 t ↔ locked_tri m t) ∧ (∀ g, present m1 g ↔ present m g).
  Proof.
    intros [_ _ (E1 & E2 & _)].
    assert (∀ w, valid m1 w ↔ valid m w) as H1 by (intros w; unfold valid, tet_get; by rewrite E2).
    assert (∀ w, w_pair m1 w = w_pair m w) as H2 by (intros w; unfold w_pair, w_first, w_second, tet_get; by rewrite E2).
    assert (∀ w, w_tri m1 w = w_tri m w) as H3 by (intros w; unfold w_tri, w_first, w_second, w_third, tet_get; by rewrite E2).
    assert (∀ a b, joined m1 a b ↔ joined m a b) as H4 by (intros a b; unfold joined; setoid_rewrite H1; by setoid_rewrite H2).
    split; [done|]. split; [done|]. split; [done|]. split; [intros a b; unfold locked_edge; by rewrite E1|]. split.
    - intros t. unfold locked_tri. setoid_rewrite H1. setoid_rewrite H3. unfold w_locked, tet_get. by rewrite E2.
    - intros [[a b]|[[a b] c]]; [apply H4|]. cbn [present]. unfold has_tri. setoid_rewrite H1. by setoid_rewrite H3.
  Qed.

  (** ** One vertex *)
  Context (tbary : mesh V T → N → N → N → N → N → option (list Z)).
  Context (ebary : mesh V T → N → N → N → N → option (list Z)).
  Context (flat : mesh V T → N → N → N → N → option bool).
  Context (round : ratio → pt).

  Lemma mid_in n m v0 v1 g x all : mesh_ok m → even_handed tbary ebary flat m v0 v1 → RecSpec.solid m v0 → edge_mid_intersection tbary ebary flat n m v0 v1 = Some (Some (g, x), all) →
    ∃ p0 p1 b, v_pos <$> im_get (m_verts m) v0 = Some p0 ∧ v_pos <$> im_get (m_verts m) v1 = Some p1 ∧ present m g ∧ hits tbary ebary flat m v0 v1 g b ∧ x = point_at p0 p1 b.
  Proof.
    intros Hok Hev Hs E. unfold edge_mid_intersection in E. apply bind_Some in E as (p0 & E0 & (p1 & E1 & ([l a] & E2 & E3)%bind_Some)%bind_Some).
    assert (∃ c, c ∈ l ∧ g = c.1 ∧ x = point_at p0 p1 c.2) as ([g' b] & Hc & -> & ->).
    { apply (inj Some) in E3. destruct (least _ l) as [c|] eqn:El; cbn [option_map] in E3; [|done]. exists c. split; [|split; congruence].
      unfold least in El. destruct l as [|c0 l]; [done|]. injection El as <-. clear. revert c0. induction l as [|y l IH]; intros c0; cbn; [left|].
      destruct (Z.ltb _ _); [specialize (IH y); rewrite !elem_of_cons in *; tauto|specialize (IH c0); rewrite !elem_of_cons in *; tauto]. }
    destruct (C52_each _ _ _ m v0 v1 n l a Hok Hev Hs E2) as [He _]. destruct (He _ _ Hc) as (H1 & H2 & _). by exists p0, p1, b.
  Qed.

  Record stepped m (v0 v1 s : N) m2 : Prop := Stepped {
    st_before : ready m;
    st_ready : ready m2;
    st_new : im_get (m_verts m) s = None ∧ s ≠ GHOST;
    st_attached a : attached m2 a ↔ attached m a ∨ a = s;
    st_verts x : x ≠ s → (λ vt, (v_pos vt, v_val vt)) <$> im_get (m_verts m2) x = (λ vt, (v_pos vt, v_val vt)) <$> im_get (m_verts m) x;
    st_placed : ∃ vt vt0 pa pb g x, im_get (m_verts m2) s = Some vt ∧ im_get (m_verts m) v0 = Some vt0 ∧ v_val vt = v_val vt0 ∧
      v_pos <$> im_get (m_verts m) v0 = Some pa ∧ v_pos <$> im_get (m_verts m) v1 = Some pb ∧ present m g ∧ hits tbary ebary flat m v0 v1 g x ∧ v_pos vt = round (point_at pa pb x);
    st_edges a b : locked_edge m2 a b ↔ locked_edge m a b;
    st_tris t : locked_tri m2 t → locked_tri m t;
    st_kept_tris a b c : locked_tri m (a, b, c) → locked_edge m a b → locked_edge m b c → locked_edge m c a → locked_tri m2 (a, b, c) }.

  Lemma step_ok n m v0 v1 m1 s B E : ready m → RecSpec.solid m v0 → even_handed tbary ebary flat m v0 v1 → can_place m None →
    steiner_cavity tbary ebary flat round n m v0 v1 = Some (Some (m1, s, B, E)) → sound_cavity m1 B E →
    ∃ m2 B', flip_in_vertex_unchecked m1 s B E = Some (m2, B') ∧ stepped m v0 v1 s m2 ∧
      ∃ g x, edge_mid_intersection tbary ebary flat n m v0 v1 = Some (Some (g, x), true) ∧ v_pos <$> im_get (m_verts m2) s = Some (round x).
  Proof.
    intros Hr Hs Hev Hp Hc Hsc. unfold steiner_cavity in Hc. apply bind_Some in Hc as ([inter all] & Em & Hc). destruct all; cbn [negb] in Hc; [|done].
    destruct inter as [[g x]|]; [|done]. destruct (mid_in n m v0 v1 g x true (rd_ok _ Hr) Hev Hs Em) as (p0 & p1 & b & Ep0 & Ep1 & Hg & Hh & ->).
    apply bind_Some in Hc as (val & (vt0 & Ev0 & ->)%fmap_Some & Hc).
    destruct (put_vertex_ok m None (round (point_at p0 p1 b)) (v_val vt0) Hr Hp) as (m1' & s' & Ea & _ & Hno & Hsg & Hpl & Hr1 & Hl). cbn [put_vertex] in Ea. injection Ea as Ea. rewrite Ea in Hc.
    apply bind_Some in Hc as ([B0 E0] & Est & Hc). apply bind_Some in Hc as ([[m1'' B''] E''] & Ecav & Hc). injection Hc as -> -> -> ->.
    specialize (Hno eq_refl). pose proof (rd_ok _ Hr1) as Hok1. pose proof (ar_search _ (rd_rest _ Hr1)) as Hrest1.
    destruct (placed_same m s _ _ m1' Hpl) as (S1 & S2 & S3 & S4 & S5 & S6).
    destruct (start_ok m1' s g B0 E0 Hok1 (proj2 (S6 g) Hg) Est) as [HF Hst].
    assert (∀ u t, u ∈ B0 → w_tri m1' u = Some t → 0 < side_of m1' s t)%Z as Hpos.
    { intros u t Hu Et. destruct (decide (0 < side_of m1' s t)%Z) as [?|Hn]; [done|]. exfalso.
      assert (mfoldl (start_tri (side_of m1' s) true) B0 m1' = None) as H.
      { rewrite <- (CavPaint.paint_none m1' Hrest1). apply (start_fail m1' (side_of m1' s)); [done|]. exists u, t. split; [done|]. split; [done|]. lia. }
      unfold point_cavity in Ecav. by rewrite H in Ecav. }
    destruct (Hst Hpos) as (HR & HB & Hne & He & Ht). clear Hst.
    destruct (C35_predicates m1' s Hok1) as [_ Htn]. change (turning (side_of m1' s)) in Htn.
    pose proof (C35_concave m1' (sphere_of m1' s) (side_of m1' s) true true E0 B0 [] Hok1 Hrest1 Htn HR HB (λ _, Hpos)) as (found & _ & _ & _ & Hres). rewrite Ecav in Hres.
    destruct Hres as (-> & HneE & HRE & HBE & _). destruct (C35_locks m1' _ _ true true E0 B0 [] B E Hok1 Hrest1 Htn HR HB Ecav) as [L1 L2].
    destruct Hsc as [Hsu Hroom Hvs].
    assert (B ≠ []) as HneB by (by apply (cavity_boundary m1' B E)).
    assert (fillable m1' s B E) as Hfill by done.
    destruct (C36_fill m1' s B E Hok1 (rd_rest _ Hr1) Hfill) as (m2 & B' & Efl & Hok2 & Hrest2 & F). exists m2, B'. split; [done|].
    pose proof (C36_vertex_attached m1' s B E m2 B' Hok1 (rd_rest _ Hr1) Hfill HneB Efl) as Hat.
    split; [|exists g, (point_at p0 p1 b); split; [done|]; pose proof (fi_verts _ _ _ _ _ _ F s) as Hv; rewrite (pl_vert _ _ _ _ _ Hpl) in Hv; destruct (im_get (m_verts m2) s); cbn in *; congruence].
    split.
    - done.
    - by apply (ready_fill m1' s B E m2 B').
    - done.
    - intros a. rewrite <- (placed_attached m s _ _ m1' a Hpl). split.
      + intros Ha. apply (filled_attached m1' s E B m2 B') in Ha as [->|Ha]; [by right|by left| |done]. destruct HBE as (Hv & _). intros w Hw. by apply (proj1 (list.Forall_forall _ _) Hv).
      + intros [Ha| ->]; [|done]. destruct (Hvs a Ha) as (u & Hu & Hf & Hn). destruct (kept_views m1' s E B m2 B' u F Hu Hn) as (Hu' & _ & _ & Hf' & _). exists u. split; [done|congruence].
    - intros y Hy. rewrite <- (pl_others _ _ _ _ _ Hpl y Hy). pose proof (fi_verts _ _ _ _ _ _ F y) as Hv.
      destruct (im_get (m_verts m2) y), (im_get (m_verts m1') y); cbn in *; congruence.
    - pose proof (fi_verts _ _ _ _ _ _ F s) as Hv. rewrite (pl_vert _ _ _ _ _ Hpl) in Hv. apply fmap_Some in Hv as (vt & Evt & Hv). cbn in Hv.
      exists vt, vt0, p0, p1, g, b. split; [done|]. split; [done|]. split; [congruence|]. repeat (split; [done|]). congruence.
    - intros a c. rewrite <- S4. apply (filled_locks m1' s E B m2 B'); [done..|]. intros w Hw Hlw Hin. by apply (He w Hw Hlw), L1.
    - intros t Hlt. apply S5. apply (fi_locks _ _ _ _ _ _ F) in Hlt as (w & Hw & Ew & Hlw & _). by exists w.
    - intros a c d Hlt Ha Hc Hd. apply S5 in Hlt as (w & Hw & Ew & Hlw). apply (fi_locks _ _ _ _ _ _ F). exists w. split; [done|]. split; [done|]. split; [done|].
      intros Hin. apply (Ht w Hw Hlw), L2; [done..| |done].
      destruct (wverts_ex m1' w Hw) as (x1 & x2 & x3 & x4 & Ev). rewrite (wverts_tri _ _ _ _ _ _ Ev) in Ew. injection Ew as -> -> ->. apply S4 in Ha, Hc, Hd.
      repeat (apply list.Forall_cons; split); [| | |done].
      + apply (locked_edge_walker m1' w a c Hok1 Hw); [by eapply wverts_pair|done].
      + apply (locked_edge_walker m1' (to_nfe w) c d Hok1); [by apply valid_nfe| |done]. eapply wverts_pair. by apply (wverts_nfe m1' w a c d x4).
      + apply (locked_edge_walker m1' (to_pfe w) d a Hok1); [by apply valid_pfe| |done]. eapply wverts_pair. by apply (wverts_pfe m1' w a c d x4).
  Qed.

  (** ** Nothing in the way *)
  Lemma lock_ok m v0 v1 w m' : ready m → RecSpec.solid m v0 → walker_from_edge m v0 v1 = Some (Some w) → set_edge_lock m w true = Some m' →
    recovered tbary ebary flat round m v0 v1 m' [].
  Proof.
    intros Hr [Hg Ha] Ew El. pose proof (rd_ok _ Hr) as Hok.
    assert (valid m w ∧ w_pair m w = Some (v0, v1)) as [Hw Hp].
    { destruct (edge_lookup m v0 v1 Hok Ha Hg) as [(_ & w' & E & ? & ?)|(_ & E)]; rewrite Ew in E; [|done]. injection E as ->. done. }
    destruct (set_edge_lock_step m w true Hok Hw) as (m'' & e & ue & E & Hok' & F1 & F2 & F3 & F4 & _ & Ev & Eg & Et & Em & Etr & Ec). assert (m'' = m') as -> by congruence.
    destruct (ok_edge m Hok w v0 v1 Hw Hp) as (e' & ue' & K1 & K2 & K3). rewrite F1 in K1. injection K1 as <-. rewrite F2 in K2. injection K2 as <-.
    assert (run_op m (OLockEdge w true) = Some m') as Hop by exact El.
    assert (∀ x y, locked_edge m' x y ↔ locked_edge m x y ∨ sorted_2 (x, y) = sorted_2 (v0, v1)) as Hlk.
    { intros x y. unfold locked_edge. split.
      + intros (i & u & I1 & I2 & I3). destruct (decide (i = e)) as [->|Hne].
        * rewrite F3 in I1. injection I1 as <-. right. cbn [ue_vs] in I2. congruence.
        * rewrite F4 in I1 by done. left. by exists i, u.
      + intros [(i & u & I1 & I2 & I3)|Hs].
        * destruct (decide (i = e)) as [->|Hne]; [|exists i, u; by rewrite F4]. rewrite F2 in I1. injection I1 as ->. by eexists e, _.
        * eexists e, _. split; [done|]. split; [|done]. cbn [ue_vs]. congruence. }
    split.
    - apply unmarked_ready; [done| |].
      + by apply (rest_run_op m (OLockEdge w true) m'), Hr.
      + exact (um_op m (OLockEdge w true) (ready_unmarked m Hr) _ Hop).
    - constructor.
    - intros s []%elem_of_nil.
    - intros a. rewrite elem_of_nil. unfold attached, valid, w_first, tet_get. rewrite Et. tauto.
    - intros x _. by rewrite Ev.
    - intros s []%elem_of_nil.
    - constructor.
    - intros a b. cbn [segments]. intros [= -> ->]%elem_of_list_singleton. exists w. split; [unfold valid, tet_get; by rewrite Et|]. unfold w_pair, w_first, w_second, tet_get in *. by rewrite Et.
    - intros a b. rewrite Hlk. cbn [segments]. split; (intros [H|H]; [by left|right]).
      + exists v0, v1. split; [left|done].
      + destruct H as (x & y & [= -> ->]%elem_of_list_singleton & H). done.
    - intros a b c. unfold locked_tri, valid, w_tri, w_locked, w_first, w_second, w_third, tet_get. by rewrite Et.
    - intros a b c H _ _ _. revert H. unfold locked_tri, valid, w_tri, w_locked, w_first, w_second, w_third, tet_get. by rewrite Et.
  Qed.

  (** ** One vertex, and both halves *)
  Lemma segments_app a l s l' b : segments a (l ++ s :: l') b = segments a l s ++ segments s l' b.
  Proof. revert a. induction l as [|x l IH]; intros a; cbn; [done|]. by rewrite IH. Qed.

  Lemma places_trans m1 m2 m3 : at_same_places m1 m2 → at_same_places m2 m3 → at_same_places m1 m3.
  Proof. intros H1 H2 y p Hy. by apply H2, H1. Qed.
  Lemma stepped_places m v0 v1 s m2 : stepped m v0 v1 s m2 → at_same_places m m2.
  Proof.
    intros S y p Hy. assert (y ≠ s) as Hn by (intros ->; rewrite (proj1 (st_new _ _ _ _ _ S)) in Hy; done). pose proof (st_verts _ _ _ _ _ S y Hn) as Hv.
    destruct (im_get (m_verts m2) y), (im_get (m_verts m) y); cbn in *; congruence.
  Qed.
  Lemma recovered_places m v0 v1 m' L : recovered tbary ebary flat round m v0 v1 m' L → at_same_places m m'.
  Proof.
    intros R y p Hy. assert (y ∉ L) as Hn by (intros Hy'; rewrite (proj1 (rc_new _ _ _ _ _ _ _ _ _ R y Hy')) in Hy; done). pose proof (rc_verts _ _ _ _ _ _ _ _ _ R y Hn) as Hv.
    destruct (im_get (m_verts m') y), (im_get (m_verts m) y); cbn in *; congruence.
  Qed.

  Lemma laid_mono m m' a l b : at_same_places m m' → laid tbary ebary flat round m a l b → laid tbary ebary flat round m' a l b.
  Proof.
    intros P. induction 1 as [a b|a l s l' b pa pb m1 g x Ha Hb Hr Hg Hp Hh Hs _ IH1 _ IH2]; [constructor|].
    apply (laid_one _ _ _ _ _ _ _ _ _ _ pa pb m1 g x); try done; [by apply P|by apply P|by eapply places_trans|by apply P].
  Qed.

  Lemma both_ok m v0 v1 s m2 m3 m4 L1 L2 : stepped m v0 v1 s m2 → recovered tbary ebary flat round m2 v0 s m3 L1 → recovered tbary ebary flat round m3 s v1 m4 L2 →
    recovered tbary ebary flat round m v0 v1 m4 (L1 ++ s :: L2).
  Proof.
    intros S R1 R2. destruct (st_placed _ _ _ _ _ S) as (vts & vt0 & pa & pb & g & x & Evs & Ev0 & Eval & Epa & Epb & Hg & Hh & Epos).
    pose proof (stepped_places _ _ _ _ _ S) as P0. pose proof (recovered_places _ _ _ _ _ R1) as P1. pose proof (recovered_places _ _ _ _ _ R2) as P2.
    destruct (st_new _ _ _ _ _ S) as [Hns Hsg].
    assert (∀ y, y ∈ L1 → is_Some (im_get (m_verts m3) y)) as HL1 by (intros y Hy; by destruct (rc_value _ _ _ _ _ _ _ _ _ R1 y Hy) as (_ & ?)).
    assert (∀ y, y ∈ L2 → im_get (m_verts m3) y = None) as HL2 by (intros y Hy; apply (rc_new _ _ _ _ _ _ _ _ _ R2 y Hy)).
    assert (∀ y, y ∈ L1 → im_get (m_verts m2) y = None) as HL1n by (intros y Hy; apply (rc_new _ _ _ _ _ _ _ _ _ R1 y Hy)).
    assert (∀ y p, v_pos <$> im_get (m_verts m3) y = Some p → y ∉ L2) as Hk3 by (intros y p Hy Hy2; rewrite (HL2 y Hy2) in Hy; done).
    assert (∀ y p, v_pos <$> im_get (m_verts m2) y = Some p → y ∉ L1) as Hk2 by (intros y p Hy Hy2; rewrite (HL1n y Hy2) in Hy; done).
    assert (v_pos <$> im_get (m_verts m2) s = Some (v_pos vts)) as Es2 by (by rewrite Evs).
    assert (∀ y, is_Some (im_get (m_verts m) y) → y ≠ s ∧ y ∉ L1 ∧ y ∉ L2) as Hkm.
    { intros y [vt Hy]. assert (v_pos <$> im_get (m_verts m) y = Some (v_pos vt)) as Hy' by (by rewrite Hy). split; [intros ->; congruence|]. split; [eapply Hk2, P0, Hy'|eapply Hk3, P1, P0, Hy']. }
    assert (s ∉ L1) as Hs1 by (by eapply Hk2). assert (s ∉ L2) as Hs2 by (by eapply Hk3, P1).
    assert (∀ a b, locked_edge m4 a b ↔ locked_edge m a b ∨ ∃ x y, (x, y) ∈ segments v0 (L1 ++ s :: L2) v1 ∧ sorted_2 (a, b) = sorted_2 (x, y)) as Hedges.
    { intros a b. rewrite (rc_edges _ _ _ _ _ _ _ _ _ R2), (rc_edges _ _ _ _ _ _ _ _ _ R1), (st_edges _ _ _ _ _ S), segments_app. setoid_rewrite elem_of_app. naive_solver. }
    assert (∀ y, y ∉ L1 ++ s :: L2 → (λ vt, (v_pos vt, v_val vt)) <$> im_get (m_verts m4) y = (λ vt, (v_pos vt, v_val vt)) <$> im_get (m_verts m) y) as Hverts.
    { intros y Hy. rewrite elem_of_app, elem_of_cons in Hy. rewrite (rc_verts _ _ _ _ _ _ _ _ _ R2), (rc_verts _ _ _ _ _ _ _ _ _ R1), (st_verts _ _ _ _ _ S) by tauto. done. }
    assert (∀ y, y ∉ L2 → ∀ vt, im_get (m_verts m3) y = Some vt → ∃ vt', im_get (m_verts m4) y = Some vt' ∧ v_pos vt' = v_pos vt ∧ v_val vt' = v_val vt) as Hup.
    { intros y Hy vt E. pose proof (rc_verts _ _ _ _ _ _ _ _ _ R2 y Hy) as H. rewrite E in H. apply fmap_Some in H as (vt' & E' & H). exists vt'. split; [done|]. split; congruence. }
    assert (∃ vs3, im_get (m_verts m3) s = Some vs3 ∧ v_pos vs3 = v_pos vts ∧ v_val vs3 = v_val vts) as (vs3 & Es3 & Ps3 & Vs3).
    { pose proof (rc_verts _ _ _ _ _ _ _ _ _ R1 s Hs1) as H. rewrite Evs in H. apply fmap_Some in H as (vt' & E' & H). exists vt'. split; [done|]. split; congruence. }
    split.
    - apply R2.
    - apply NoDup_app. split; [apply R1|]. split.
      + intros y Hy. rewrite elem_of_cons. intros [->|Hy2]; [done|]. apply HL2 in Hy2. apply HL1 in Hy. rewrite Hy2 in Hy. by destruct Hy.
      + apply stdpp.list.NoDup_cons. split; [done|apply R2].
    - intros y. rewrite elem_of_app, elem_of_cons. intros Hy. split.
      + destruct (im_get (m_verts m) y) eqn:Ey; [|done]. destruct (Hkm y ltac:(eauto)) as (? & ? & ?). tauto.
      + destruct Hy as [Hy|[->|Hy]]; [by apply (rc_new _ _ _ _ _ _ _ _ _ R1 y Hy)|done|by apply (rc_new _ _ _ _ _ _ _ _ _ R2 y Hy)].
    - intros a. rewrite (rc_attached _ _ _ _ _ _ _ _ _ R2), (rc_attached _ _ _ _ _ _ _ _ _ R1), (st_attached _ _ _ _ _ S), elem_of_app, elem_of_cons. tauto.
    - done.
    - intros y. rewrite elem_of_app, elem_of_cons. rewrite Ev0. cbn [fmap option_fmap option_map]. intros [Hy|[->|Hy]].
      + destruct (rc_value _ _ _ _ _ _ _ _ _ R1 y Hy) as (E1 & vt & E2).
        destruct (Hup y ltac:(intros Hy2; apply HL2 in Hy2; congruence) vt E2) as (vt' & E' & Hp' & Hv'). rewrite E'. split; [|eauto]. cbn. rewrite Hv'. rewrite E2 in E1. cbn in E1. rewrite E1.
        destruct (Hkm v0 ltac:(eauto)) as (Hn & _). pose proof (st_verts _ _ _ _ _ S v0 Hn) as H. rewrite Ev0 in H. destruct (im_get (m_verts m2) v0); cbn in *; congruence.
      + destruct (Hup s Hs2 vs3 Es3) as (vt' & E' & Hp' & Hv'). rewrite E'. cbn. split; [|eauto]. congruence.
      + destruct (rc_value _ _ _ _ _ _ _ _ _ R2 y Hy) as (E1 & E2). split; [|done]. rewrite E1, Es3. cbn. congruence.
    - apply (laid_one _ _ _ _ _ _ _ _ _ _ pa pb m g x); [by apply P2, P1, P0|by apply P2, P1, P0|apply S|done|by eapply places_trans, P2; eapply places_trans|done| | |apply R2].
      + rewrite <- Epos. by apply P2, P1.
      + eapply laid_mono; [exact P2|apply R1].
    - intros a b Hi. apply locked_edge_joined; [apply R2|]. apply Hedges. right. by exists a, b.
    - done.
    - intros a b c Ht. apply (st_tris _ _ _ _ _ S), (rc_tris _ _ _ _ _ _ _ _ _ R1), (rc_tris _ _ _ _ _ _ _ _ _ R2), Ht.
    - intros a b c Ht Ha Hb Hc.
      assert (∀ x y, locked_edge m x y → locked_edge m2 x y) as I2 by (intros ??; by rewrite (st_edges _ _ _ _ _ S)).
      assert (∀ x y, locked_edge m x y → locked_edge m3 x y) as I3 by (intros ???; rewrite (rc_edges _ _ _ _ _ _ _ _ _ R1); auto).
      apply (rc_kept_tris _ _ _ _ _ _ _ _ _ R2); [|by apply I3..]. apply (rc_kept_tris _ _ _ _ _ _ _ _ _ R1); [|by apply I2..]. by apply (st_kept_tris _ _ _ _ _ S).
  Qed.

  Lemma recover_ok fuel n : (∀ m a b, mesh_ok m → RecSpec.solid m a → RecSpec.solid m b → even_handed tbary ebary flat m a b) →
    ∀ m v0 v1 m' L, ready m → RecSpec.solid m v0 → RecSpec.solid m v1 → sound_run tbary ebary flat round fuel n m v0 v1 →
    recover_steiner tbary ebary flat round fuel n m v0 v1 = Some (m', L) → recovered tbary ebary flat round m v0 v1 m' L.
  Proof.
    intros Hev. induction fuel as [|fuel IH]; intros m v0 v1 m' L Hr H0 H1 Hs E; cbn [recover_steiner sound_run] in *; [done|].
    apply bind_Some in E as ([[[[m1 s] B] E]|] & Ec & H).
    - destruct (Hs _ _ _ _ Ec) as (Hp & Hsc & Hn). destruct (step_ok n m v0 v1 m1 s B E) as (m2 & B' & Ef & S & _); [done|done|apply Hev; [apply Hr|done|done]|done|done|done|].
      rewrite Ef in H. cbn [mbind option_bind] in H. apply bind_Some in H as ([m3 L1] & E1 & H). apply bind_Some in H as ([m4 L2] & E2 & H). injection H as <- <-.
      destruct (Hn m2 B' Ef) as [Hs1 Hs2]. specialize (Hs2 m3 L1 E1).
      assert (RecSpec.solid m2 v0 ∧ RecSpec.solid m2 v1 ∧ RecSpec.solid m2 s) as (G0 & G1 & Gs).
      { unfold RecSpec.solid. rewrite !(st_attached _ _ _ _ _ S). destruct H0, H1. pose proof (st_new _ _ _ _ _ S) as [_ ?]. tauto. }
      assert (recovered tbary ebary flat round m2 v0 s m3 L1) as R1 by (apply (IH m2 v0 s m3 L1); [apply S|done..]).
      assert (recovered tbary ebary flat round m3 s v1 m4 L2) as R2.
      { apply (IH m3 s v1 m4 L2); [apply R1| | |done..]; (split; [apply Gs || apply G1|]); apply (rc_attached _ _ _ _ _ _ _ _ _ R1); left; [apply Gs|apply G1]. }
      by apply (both_ok m v0 v1 s m2 m3 m4 L1 L2).
    - apply bind_Some in H as (wo & Ew & H). apply bind_Some in H as (w & -> & H). apply bind_Some in H as (m3 & El & [= <- <-]). by eapply lock_ok.
  Qed.
End ok.
