(** C36: filling a cavity with a vertex. *)
From Coq Require Import NArith ZArith Lia.
From stdpp Require Import base numbers list gmap option relations.
From Verif Require Import IdMapModel WalkerModel WalkerSpec MeshModel MeshSpec MeshOps MeshViews MeshLink MeshRun MeshCheck HistSpec HistCheck History Reach IterProofs GeoModel GeoProofs Flip44Ok MeshOpsOk PropMesh CavModel CavSpec CavClean CavOk PropCav
  InsModel InsSpec InsOk InsRest InsCheck.
Local Open Scope nat_scope.

(** The cavity [E] with boundary [B] may be filled from vertex [v]: the vertex is in no tet yet, the
    boundary is complete and a connected surface, and there is room for the new ids. *)
Definition fillable {V T} (m : mesh V T) (v : N) (B : list walker) (E : list N) : Prop :=
  loose m v ∧ region m E ∧ boundary_of m E B ∧ surface m E ∧ roomy m (N.of_nat (length B)) (N.of_nat (3 * length B)).

Lemma fill_nothing {V T} (m : mesh V T) v : mesh_ok m → filled m v [] [] m [].
Proof.
  intros Hok. split; try done.
  - constructor.
  - intros id. split; [intros H; right; split; [done|by intros ?%elem_of_nil]|]. intros [H%elem_of_nil|[H _]]; done.
  - intros id H%elem_of_nil. done.
  - intros id t Ht _. by exists t.
  - intros e ue He. left. destruct (ok_edge_used _ Hok e ue He) as (w & Hw & Hp). destruct (ok_edge _ Hok w _ _ Hw Hp) as (e' & ue' & H1 & H2 & H3).
    assert (ue_vs ue' = ue_vs ue) as H4.
    { rewrite H3. pose proof (ok_edge_sorted _ Hok e ue He) as Hlt. unfold sorted_2. destruct (ue_vs ue) as [a b]. cbn [fst snd] in *. by replace (N.ltb b a) with false by (symmetry; apply N.ltb_ge; lia). }
    assert (e = e') as <- by (by apply (ok_edge_unique _ Hok e e' ue ue')). exists w, ue. split; [done|]. split; [by intros ?%elem_of_nil|]. done.
  - intros a (u & [_ [H%elem_of_nil _]] & _). done.
  - intros t. split.
    + intros (w & H1 & H2 & H3). exists w. do 3 (split; [done|]). by intros [H%elem_of_nil _].
    + intros (w & H1 & H2 & H3 & _). by exists w.
  - cbn. split; [lia|]. split; [lia|done].
Qed.

(** Filling a cavity replaces the enclosed tets by the cone from the vertex over the boundary
    ([filled] says precisely what changes and what does not), and keeps the mesh well formed. *)
Theorem C36_fill {V T} (m : mesh V T) v B E : mesh_ok m → at_rest m → fillable m v B E →
  ∃ m' B', flip_in_vertex_unchecked m v B E = Some (m', B') ∧ mesh_ok m' ∧ at_rest m' ∧ filled m v E B m' B'.
Proof.
  intros Hok Hrest (Hl & HR & HB & Hs & Hroom). destruct E as [|id E].
  - assert (B = []) as ->.
    { destruct B as [|w B]; [done|]. exfalso. destruct HB as (Hv & _ & HB). apply list.Forall_cons in Hv as [Hv _].
      destruct (HB w Hv) as [H _]. destruct H as [H _]; [by left|]. by apply elem_of_nil in H. }
    exists m, []. split; [unfold flip_in_vertex_unchecked, trimap_remove_tets, trimap_insert_tets; destruct (m_track m) eqn:Et; cbn; rewrite Et; done|].
    split; [done|]. split; [done|]. by apply fill_nothing.
  - destruct HR as [HN HE]. destruct (HE id) as [t Ht]; [by left|].
    by apply (fill_run m _ _ (id :: E) B v (ok_vmesh m _ _ (mv_exists m id t Ht) Hok)).
Qed.
Print Assumptions C36_fill.

(** The vertex is part of the mesh afterwards, except when there was nothing to fill. *)
Theorem C36_vertex_attached {V T} (m : mesh V T) v B E m' B' : mesh_ok m → at_rest m → fillable m v B E → B ≠ [] →
  flip_in_vertex_unchecked m v B E = Some (m', B') → attached m' v.
Proof.
  intros Hok Hr Hf Hne E1. destruct (C36_fill m v B E Hok Hr Hf) as (m1 & B1 & E2 & Hok' & _ & [Hc _ _ _ _ _ _ _ _ _ _ _]).
  assert (m1 = m' ∧ B1 = B') as [-> ->] by (split; congruence). destruct B as [|w B]; [done|]. inversion Hc as [|? w' ? ? (Hv & a & b & c & t & t' & _ & Hw & _)]; subst.
  exists (to_perm w' P3210). split; [by apply valid_perm|]. eapply wverts_first. by rewrite (wverts_perm m' w' a b c v).
Qed.
Print Assumptions C36_vertex_attached.

(** ** Histories *)
(** Every mesh built with the other operations is well formed with no operation under way, and a
    vertex just added can be used. *)
Theorem C36_between_operations {V T} (m : mesh V T) : reachable m → mesh_ok m ∧ at_rest m.
Proof. intros H. split; [by apply reachable_ok|by apply rest_reachable]. Qed.
Print Assumptions C36_between_operations.

Theorem C36_new_vertex_is_loose {V T} (m : mesh V T) p x : mesh_ok m → (im_npi (m_verts m) < GHOST)%N →
  loose (add_vertex m p x).1 (add_vertex m p x).2.
Proof.
  intros Hok Hn. destruct (add_vertex_step m p x Hok Hn) as (m' & id & -> & _ & _ & Hna & _ & Hg & _). cbn [fst snd]. split; [|done]. eauto.
Qed.
Print Assumptions C36_new_vertex_is_loose.

(** All the boundary triangles of a tet form such a surface. *)
Theorem C36_single_tet {V T} (m : mesh V T) v id : mesh_ok m → is_Some (tet_get m id) → loose m v → roomy m 4 12 →
  fillable m v (tet_bound id) [id].
Proof.
  intros Hok Hid Hl Hr. destruct (C35_single_tet_start m id Hok Hid). destruct Hid as [t Ht]. split; [done|]. split; [done|]. split; [done|].
  split; [by apply (single_surface m Hok id t)|done].
Qed.
Print Assumptions C36_single_tet.

(** Meshes built by any mixture of the operations. *)
Inductive built {V T} : mesh V T → Prop :=
  | built_new sim ctr ps (d : T) m : mesh_new sim ctr ps d = Some m → built m
  | built_op m o m' : built m → admissible m o → run_op m o = Some m' → built m'
  | built_fill m v B E m' B' : built m → fillable m v B E → flip_in_vertex_unchecked m v B E = Some (m', B') → built m'.

Theorem C36_histories {V T} (m : mesh V T) : built m → mesh_ok m ∧ at_rest m.
Proof.
  induction 1 as [sim ctr ps d m E|m o m' _ [Hok Hr] Ha E|m v B E m' B' _ [Hok Hr] Hf Er].
  - assert (reachable m) as H by (exists sim, ctr, ps, d, m, []; split; [exact E|]; split; [exact I|reflexivity]). by apply C36_between_operations.
  - destruct (op_step m o Hok Ha) as (m1 & E1 & [G _ _] & _). assert (m1 = m') as -> by congruence. split; [done|by eapply rest_run_op].
  - destruct (C36_fill m v B E Hok Hr Hf) as (m1 & B1 & E1 & H1 & H2 & _). assert (m1 = m') as -> by congruence. done.
Qed.
Print Assumptions C36_histories.

Lemma reachable_built {V T} (m : mesh V T) : reachable m → built m.
Proof.
  intros (sim & ctr & ps & d & m0 & os & E & Ha & Hr). apply built_new in E. revert m0 E Ha Hr. induction os as [|o os IH]; intros m0 E; cbn [run_ops all_admissible].
  - by intros _ [= <-].
  - intros [Ha Hos] (m1 & H1 & H2)%bind_Some. apply (IH m1); [by eapply built_op|by apply Hos|done].
Qed.

(** The search of C35 returns a cavity that may be filled, provided its boundary is a connected
    surface: together they insert a vertex. *)
Theorem C36_search_and_fill {V T} (m : mesh V T) v id : built m → is_Some (tet_get m id) → loose m v →
  ∃ B E, point_cavity (ins_of m v) (ori_of m v) m (tet_bound id) [id] [] true false true = Some (m, B, E) ∧
    (surface m E → roomy m (N.of_nat (length B)) (N.of_nat (3 * length B)) →
     ∃ m' B', flip_in_vertex_unchecked m v B E = Some (m', B') ∧ built m' ∧ (B ≠ [] → attached m' v) ∧ filled m v E B m' B').
Proof.
  intros Hb Hid Hl. destruct (C36_histories m Hb) as [Hok Hr]. destruct (C35_single_tet_start m id Hok Hid) as [HR HB]. destruct (C35_predicates m v Hok) as [Hst _].
  destruct (C35_convex m (ins_of m v) (ori_of m v) false [id] (tet_bound id) [] Hok (ar_search _ Hr) Hst HR HB ltac:(done)) as (B & E & E1 & HR' & HB' & HE).
  exists B, E. split; [done|]. intros Hs Hroom. assert (fillable m v B E) as Hf by done.
  destruct (C36_fill m v B E Hok Hr Hf) as (m' & B' & E2 & Hok' & _ & Hfill). exists m', B'. split; [done|]. split; [by eapply built_fill|]. split; [|done].
  intros Hne. by apply (C36_vertex_attached m v B E m' B').
Qed.
Print Assumptions C36_search_and_fill.

(** ** Witnesses *)
Definition cav_of (m : mesh Z unit) (v id : N) : list walker * list N :=
  match point_cavity (ins_of m v) (ori_of m v) m (tet_bound id) [id] [] true false true with Some (_, B, E) => (B, E) | None => ([], []) end.
Definition fill (m : mesh Z unit) (v : N) (c : list walker * list N) : mesh Z unit :=
  match flip_in_vertex_unchecked m v c.1 c.2 with Some (m', _) => m' | None => mesh_empty end.
Definition fillableb (m : mesh Z unit) (v : N) (c : list walker * list N) : bool :=
  match im_get (m_verts m) v with Some vt => N.eqb (w_tet (v_tet vt)) invalid_id | None => false end && negb (attachedb m v) &&
  regionb m c.2 && boundaryb m c.2 c.1 && surfaceb m c.2 && roomyb m (N.of_nat (length c.1)) (N.of_nat (3 * length c.1)).
Lemma fillableb_spec m v c : fillableb m v c = true → fillable m v c.1 c.2.
Proof.
  unfold fillableb. rewrite !andb_true_iff. intros [[[[[H1 H2] H3] H4] H5] H6]. split; [split|].
  - destruct (im_get (m_verts m) v) as [vt|]; [|done]. apply N.eqb_eq in H1. eauto.
  - exact (negb_iff _ _ (attachedb_spec m v) H2).
  - split; [by apply regionb_spec|]. split; [by apply boundaryb_spec|]. split; [by apply surfaceb_spec|by apply roomyb_spec].
Qed.

(** Inserting vertex 6 into the mesh with 12 tets of C35: 7 tets are replaced by 10. *)
Example C36_witness : fillable (cav []) 6 (cav_of (cav []) 6 2).1 (cav_of (cav []) 6 2).2 ∧
  length (cav_of (cav []) 6 2).1 = 10 ∧ length (cav_of (cav []) 6 2).2 = 7 ∧
  num_tets (cav []) = Some 12%N ∧ num_tets (fill (cav []) 6 (cav_of (cav []) 6 2)) = Some 15%N.
Proof.
  split; [apply fillableb_spec; vm_compute; reflexivity|]. vm_compute. repeat split.
Qed.

(** ** What is asked of the cavity is needed *)
(** The boundary must be a connected surface: two tets that share only an edge. *)
Theorem C36_pinched_boundary_refuted : ¬ (∀ (m : mesh Z unit) v B E m' B', built m → loose m v → region m E → boundary_of m E B →
  roomy m (N.of_nat (length B)) (N.of_nat (3 * length B)) → flip_in_vertex_unchecked m v B E = Some (m', B') → mesh_ok m').
Proof.
  intros H. pose proof (reachable_built _ cav_reachable) as Hb.
  assert (loose (cav []) 6) as Hl by (apply (fillableb_spec (cav []) 6 (cav_of (cav []) 6 2)); vm_compute; reflexivity).
  assert (regionb (cav []) [5; 11]%N && boundaryb (cav []) [5; 11]%N (tet_bound 5 ++ tet_bound 11) && roomyb (cav []) 8 24 = true) as Hc by (vm_compute; reflexivity).
  assert (match flip_in_vertex_unchecked (cav []) 6 (tet_bound 5 ++ tet_bound 11) [5; 11]%N with
          | Some (m', _) => validb m' (Walker 15 2) && negb (edge_okb m' (Walker 15 2)) | None => false end = true) as Hres by (vm_compute; reflexivity).
  revert Hb Hl Hc Hres. generalize (cav []). intros m Hb Hl Hc Hres. rewrite !andb_true_iff in Hc. destruct Hc as [[H1 H2] H3].
  destruct (flip_in_vertex_unchecked _ _ _ _) as [[m' B']|] eqn:E; [|done]. apply andb_true_iff in Hres as [H4 H5].
  assert (mesh_ok m') as Hok.
  { eapply H; [exact Hb|exact Hl|by apply regionb_spec|by apply boundaryb_spec|by apply roomyb_spec|exact E]. }
  rewrite (edge_okb_spec m' (Walker 15 2) Hok) in H5; [done|by apply validb_spec].
Qed.
Print Assumptions C36_pinched_boundary_refuted.

(** A vertex that was enclosed by a cavity keeps a reference to a tet it is not part of; it cannot
    be used again.  Here vertex 4 is enclosed by the cavity filled with vertex 5. *)
Definition old_mesh : mesh Z unit := ex (ex_ops1 ++ [OAddVertex (Pt 1 1 2) 16%Z]).
Definition around4 : list walker * list N := (filter (λ w, w_edge w < 4 ∧ w_fourth old_mesh w = Some 4%N) (walkers old_mesh), [0; 5; 6; 7]%N).
Theorem C36_reusing_an_enclosed_vertex_refuted : ¬ (∀ (m : mesh Z unit) v B E m' B', built m → is_Some (im_get (m_verts m) v) → ¬ attached m v →
  region m E → boundary_of m E B → surface m E → roomy m (N.of_nat (length B)) (N.of_nat (3 * length B)) →
  flip_in_vertex_unchecked m v B E = Some (m', B') → mesh_ok m').
Proof.
  intros H.
  assert (built (fill old_mesh 5 around4)) as Hb.
  { assert (reachable old_mesh) as Hr by (apply ex_reachable; vm_compute; reflexivity). apply reachable_built in Hr.
    assert (fillableb old_mesh 5 around4 = true) as Hf%fillableb_spec by (vm_compute; reflexivity).
    revert Hr Hf. generalize old_mesh, around4. intros m c Hr Hf. destruct (C36_histories m Hr) as [Hok Hrest].
    destruct (C36_fill m 5 c.1 c.2 Hok Hrest Hf) as (m' & B' & E & _). unfold fill. rewrite E. by eapply built_fill. }
  assert (is_Some (im_get (m_verts (fill old_mesh 5 around4)) 4)) as Hs by (vm_compute; eauto).
  assert (negb (attachedb (fill old_mesh 5 around4) 4) && regionb (fill old_mesh 5 around4) [1]%N && boundaryb (fill old_mesh 5 around4) [1]%N (tet_bound 1) &&
    surfaceb (fill old_mesh 5 around4) [1]%N && roomyb (fill old_mesh 5 around4) 4 12 = true) as Hc by (vm_compute; reflexivity).
  assert (match flip_in_vertex_unchecked (fill old_mesh 5 around4) 4 (tet_bound 1) [1]%N with
          | Some (m', _) => attachedb m' 4 && match im_get (m_verts m') 4 with Some vt => negb (MeshCheck.eqb (w_first m' (v_tet vt)) (Some 4%N)) | None => false end
          | None => false end = true) as Hres by (vm_compute; reflexivity).
  revert Hb Hs Hc Hres. generalize (fill old_mesh 5 around4). intros m Hb Hs Hc Hres. rewrite !andb_true_iff in Hc. destruct Hc as [[[[H0 H1] H2] H3] H4].
  destruct (flip_in_vertex_unchecked _ _ _ _) as [[m' B']|] eqn:E; [|done]. apply andb_true_iff in Hres as [H5 H6].
  assert (mesh_ok m') as Hok.
  { eapply H; [exact Hb|exact Hs|exact (negb_iff _ _ (attachedb_spec m 4) H0)|by apply regionb_spec|by apply boundaryb_spec|by apply surfaceb_spec|by apply roomyb_spec|exact E]. }
  destruct (im_get (m_verts m') 4) as [vt|] eqn:Ev; [|done]. apply attachedb_spec in H5. destruct (ok_vref _ Hok 4%N vt Ev H5) as [_ Hw].
  apply negb_true_iff in H6. rewrite Hw in H6. assert (MeshCheck.eqb (Some 4%N) (Some 4%N) = true) by (by apply eqb_spec). congruence.
Qed.
Print Assumptions C36_reusing_an_enclosed_vertex_refuted.
