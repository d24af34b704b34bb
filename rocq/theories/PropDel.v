(** C48: inserting a vertex into a Delaunay tetrahedralization. *)
From stdpp Require Import base numbers list gmap option relations.
From Coq Require Import NArith ZArith Lia.
From Verif Require Import GeoSpec IdMapModel WalkerModel WalkerSpec MeshModel MeshSpec MeshOps MeshViews MeshLink MeshRun MeshCheck HistSpec HistCheck History Reach IterModel IterProofs Marks
  GeoModel GeoProofs GeoMesh Flip44Ok MeshOpsOk PropMesh PropGeo CavModel CavSpec CavOk PropCav InsModel InsSpec InsOk InsRest InsCheck PropIns DelModel DelSpec DelOk DelFind.
Local Open Scope nat_scope.

Lemma insphere_swap34 p0 p1 p2 p3 p4 : (insphere p0 p1 p2 p4 p3 = - insphere p0 p1 p2 p3 p4)%Z.
Proof. geo. ring. Qed.

Section local.
  Context {V T : Type}.
  Implicit Types (m : mesh V T).

  (** The apexes of two tets that share a triangle can be exchanged. *)
  Lemma in_sphere_apex m a b c d v s : NoDup [b; a; c; d] → v ≠ GHOST → d ≠ GHOST → in_sphere m b a c d v = Some s →
    is_Some (im_get (m_verts m) d) → in_sphere m a b c v d = Some s.
  Proof.
    intros Hn Hv Hd H [vd Ed]. unfold in_sphere in *. apply bind_Some in H as (pb & Eb & H). apply bind_Some in H as (pa & Ea & H).
    apply bind_Some in H as (pc & Ec & H). apply bind_Some in H as (pd & Ed' & H). apply bind_Some in H as (pv & Ev & H). injection H as <-.
    rewrite Ea, Eb, Ec. cbn [mbind option_bind].
    assert (idx_ori m v = Some pv) as ->. { unfold idx_ori. by rewrite (proj2 (N.eqb_neq _ _) Hv). }
    assert (v_pos <$> im_get (m_verts m) d = Some pd) as ->. { unfold idx_ori in Ed'. by rewrite (proj2 (N.eqb_neq _ _) Hd) in Ed'. }
    cbn [mbind option_bind]. f_equal. rewrite (proj2 (N.eqb_neq _ _) Hv), (proj2 (N.eqb_neq _ _) Hd).
    apply stdpp.list.NoDup_cons in Hn as [Hb Hn]. rewrite !elem_of_cons in Hb.
    destruct (N.eqb a GHOST) eqn:Ga.
    - apply N.eqb_eq in Ga as ->. assert (N.eqb b GHOST = false) as -> by (apply N.eqb_neq; tauto).
      geo. ring.
    - destruct (N.eqb b GHOST) eqn:Gb; [geo; ring|].
      destruct (N.eqb c GHOST) eqn:Gc; [geo; ring|]. rewrite insphere_swap34, insphere_swap01. ring.
  Qed.

  Lemma idx_filled m v E B m' B' : filled m v E B m' B' → ∀ y, idx_ori m' y = idx_ori m y.
  Proof.
    intros F y. unfold idx_ori. destruct (N.eqb y GHOST); [by destruct (fi_rest _ _ _ _ _ _ F) as (_ & _ & ->)|].
    pose proof (fi_verts _ _ _ _ _ _ F y) as H. destruct (im_get (m_verts m') y), (im_get (m_verts m) y); cbn in *; congruence.
  Qed.
  Lemma pos_filled m v E B m' B' : filled m v E B m' B' → ∀ y, v_pos <$> im_get (m_verts m') y = v_pos <$> im_get (m_verts m) y.
  Proof. intros F y. pose proof (fi_verts _ _ _ _ _ _ F y) as H. destruct (im_get (m_verts m') y), (im_get (m_verts m) y); cbn in *; congruence. Qed.
  Lemma in_sphere_same m m' : (∀ y, idx_ori m' y = idx_ori m y) → (∀ y, v_pos <$> im_get (m_verts m') y = v_pos <$> im_get (m_verts m) y) →
    ∀ a b c d e, in_sphere m' a b c d e = in_sphere m a b c d e.
  Proof. intros H1 H2 a b c d e. unfold in_sphere. by rewrite !H1, H2. Qed.
  Lemma orient_same_idx m m' : (∀ y, idx_ori m' y = idx_ori m y) → ∀ a b c d, orient_3d m' a b c d = orient_3d m a b c d.
  Proof. intros H1 a b c d. unfold orient_3d. by rewrite !H1. Qed.

  Lemma verts_known m w a b c d : mesh_ok m → valid m w → w_verts m w = Some (A4 a b c d) →
    is_Some (idx_ori m a) ∧ is_Some (idx_ori m b) ∧ is_Some (idx_ori m c) ∧ is_Some (idx_ori m d).
  Proof.
    intros Hok [[t Et] He] Ev. rewrite (wverts_at m w t Et) in Ev. unfold verts_at in Ev. injection Ev as <- <- <- <-.
    pose proof (tet_known m _ t Hok Et) as H. done.
  Qed.
  Lemma in_sphere_some m w a b c d v : mesh_ok m → valid m w → w_verts m w = Some (A4 a b c d) → known_vertex m v → ∃ s, in_sphere m a b c d v = Some s.
  Proof.
    intros Hok Hw Ev [vt Hv]. destruct (verts_known m w a b c d Hok Hw Ev) as ([pa Ea] & [pb Eb] & [pc Ec] & [pd Ed]).
    unfold in_sphere. rewrite Ea, Eb, Ec, Ed, Hv. cbn [mbind option_bind fmap option_fmap option_map]. eauto.
  Qed.

  Lemma fill_locally_delaunay m v E B m' B' t0 : mesh_ok m → mesh_ok m' → v ≠ GHOST → known_vertex m v → boundary_of m E B → filled m v E B m' B' →
    spoiled m v t0 → (∀ t, t ∈ E ↔ rtc (λ x y, neighbours m x y ∧ in_conflict (sphere_of m v) m y) t0 t) → locally_delaunay m' v B'.
  Proof.
    intros Hok Hok' Hv Hk (HBv & _ & HB) F Hsp HE w' Hw'.
    pose proof (idx_filled _ _ _ _ _ _ F) as Hidx. pose proof (in_sphere_same m m' Hidx (pos_filled _ _ _ _ _ _ F)) as His.
    destruct (proj1 (elem_of_list_lookup _ _) Hw') as (i & Hi).
    destruct (Forall2_lookup_r _ _ _ _ _ (fi_cone _ _ _ _ _ _ F) Hi) as (u & Hu & Hvw' & a & b & c & _ & _ & Etri & Ev' & _).
    assert (u ∈ B) as Hub by (apply elem_of_list_lookup; eauto).
    assert (valid m u) as Hvu by (rewrite list.Forall_forall in HBv; by apply HBv).
    assert (leaves m E u) as [HuE (x & Ex & HxE)] by (apply HB; [done|]; apply elem_of_list_fmap; eauto).
    destruct (wverts_ex m u Hvu) as (a' & b' & c' & z & Eu). rewrite (wverts_tri _ _ _ _ _ _ Eu) in Etri. injection Etri as -> -> ->.
    destruct (ok_adj m Hok u _ _ _ _ Hvu Eu) as (x1 & d & Ex1 & Hvx & Evx & Eback). assert (x1 = x) as -> by congruence. clear Ex1.
    destruct Hvx as [[t Et] Hex]. assert (valid m x) as Hvx by (split; [by eexists|done]).
    destruct (fi_kept _ _ _ _ _ _ F (w_tet x) t Et HxE) as (t' & Et' & Evs & _).
    assert (valid m' x) as Hvx' by (split; [by eexists|done]).
    assert (w_verts m' x = Some (A4 b a c d)) as Evx' by (rewrite (wverts_at m' x t' Et'), Evs, <- (wverts_at m x t Et); done).
    destruct (ok_adj m' Hok' w' _ _ _ _ Hvw' Ev') as (x2 & d2 & Ex2 & Hvx2 & Evx2 & _).
    assert (x2 = x) as ->.
    { apply (ok_tri_unique m' Hok' x2 x (b, a, c)); [done..| |]; by eapply wverts_tri. }
    exists a, b, c, d, x. split; [done|]. split; [done|]. split; [done|].
    destruct (in_sphere_some m x b a c d v Hok Hvx Evx Hk) as [s Es].
    assert (sphere_of m v (A4 b a c d) = s) as Esp by (unfold sphere_of; cbn [q0 q1 q2 q3]; by rewrite Es).
    assert (¬ in_conflict (sphere_of m v) m (w_tet x)) as Hnc.
    { intros Hc. apply HxE, HE. eapply rtc_r; [by apply HE|]. split; [|done]. exists u, x. done. }
    assert (¬ (0 < s)%Z) as Hs1. { intros H. apply Hnc. exists x, (A4 b a c d). do 3 (split; [done|]). left. by rewrite Esp. }
    pose proof (ok_distinct m Hok x _ _ _ _ Hvx Evx) as Hn.
    destruct (verts_known m x b a c d Hok Hvx Evx) as ([pb Eb] & [pa Ea] & [pc Ec] & [pd Ed]).
    split.
    - intros Hd. exists s. rewrite His. split.
      + apply in_sphere_apex; [done..|]. unfold idx_ori in Ed. rewrite (proj2 (N.eqb_neq _ _) Hd) in Ed. destruct (im_get (m_verts m) d); [eauto|done].
      + split; [lia|]. intros Hg. destruct (decide (s = 0%Z)) as [->|]; [|lia]. exfalso. apply Hnc. exists x, (A4 b a c d). do 3 (split; [done|]). right; left.
        split; [done|]. unfold list4. cbn [q0 q1 q2 q3]. rewrite !elem_of_cons, elem_of_nil in Hg. rewrite !elem_of_cons, elem_of_nil. clear - Hg Hd. naive_solver.
    - intros ->. rewrite (orient_same_idx m m' Hidx).
      assert (s ≠ 0%Z) as Hs0.
      { intros ->. apply Hnc. exists x, (A4 b a c GHOST). do 3 (split; [done|]). right; right. split; [done|].
        destruct (CavBase.adj_side m x Hok Hvx) as (y & Ey & Hvy & Hsy & _). destruct (CavBase.adj_tw m x u Hok Hvx Eback) as [_ Hsu].
        assert (w_tet y = w_tet u) as Hyt by (rewrite <- Hsu in Hsy; unfold side in Hsy; congruence).
        destruct (wverts_ex m y Hvy) as (y1 & y2 & y3 & y4 & Evy). exists x, y, (A4 y1 y2 y3 y4). split; [done|]. split; [done|]. split; [by eapply wverts_fourth|].
        split; [done|]. split; [done|].
        destruct (C35_predicates m v Hok) as [Hst _].
        assert (∃ w vs, valid m w ∧ w_tet w = w_tet u ∧ w_verts m w = Some vs ∧ (0 <= sphere_of m v vs)%Z) as (w & vs & Hw & Hwt & Evw & Hpos).
        { apply HE in HuE. apply rtc_inv_r in HuE as [E0|(t1 & _ & _ & w & vs & Hw & Hwt & Evw & Hcases)].
          - rewrite E0 in Hsp. destruct Hsp as [_ Hsp]. destruct (Hsp u a b c z Hvu eq_refl Eu) as (s0 & Es0 & Hs0). exists u, (A4 a b c z).
            do 3 (split; [done|]). unfold sphere_of. cbn [q0 q1 q2 q3]. rewrite Es0. cbn. lia.
          - exists w, vs. do 3 (split; [done|]). destruct Hcases as [?|[[? _]|[? _]]]; lia. }
        pose proof (Hst w y vs _ Hw Hvy (eq_trans Hwt (eq_sym Hyt)) Evw Evy) as Hsg. unfold ins_of in Hsg. fold (sphere_of m v vs) in Hsg. fold (sphere_of m v (A4 y1 y2 y3 y4)) in Hsg. lia. }
      unfold in_sphere in Es. unfold orient_3d. rewrite Eb, Ea, Ec, Ed in Es. rewrite Ea, Eb, Ec. cbn [mbind option_bind] in *.
      apply bind_Some in Es as (pv & Epv & Es). assert (idx_ori m v = Some pv) as ->. { unfold idx_ori. by rewrite (proj2 (N.eqb_neq _ _) Hv). }
      cbn [mbind option_bind]. eexists. split; [done|]. injection Es as Es. rewrite !stdpp.list.NoDup_cons, !elem_of_cons in Hn.
      assert (N.eqb b GHOST = false ∧ N.eqb a GHOST = false ∧ N.eqb c GHOST = false) as (Gb & Ga & Gc).
      { rewrite !N.eqb_neq. clear - Hn. naive_solver. }
      rewrite Gb, Ga, Gc in Es. change (N.eqb GHOST GHOST) with true in Es. cbv iota in Es.
      assert (has_ghost [a; b; c; v] = false) as ->.
      { unfold has_ghost. cbn [existsb]. rewrite (N.eqb_sym GHOST a), (N.eqb_sym GHOST b), (N.eqb_sym GHOST c), (N.eqb_sym GHOST v), Ga, Gb, Gc, (proj2 (N.eqb_neq _ _) Hv). done. }
      rewrite orient_swap01 in Es. lia.
  Qed.
End local.

(** The mesh of any history is ready. *)
Theorem C48_histories {V T} (m : mesh V T) : built m → ready m.
Proof.
  intros Hb. destruct (C36_histories m Hb) as [Hok Hr]. apply unmarked_ready; [done..|]. clear Hok Hr.
  induction Hb as [sim ctr ps d m E|m o m' _ IH Ha E|m v B E m' B' _ IH Hf Er].
  - by eapply um_new.
  - by eapply um_op.
  - by apply (um_fill m v B E IH) in Er.
Qed.
Print Assumptions C48_histories.

(** The squared distance of two vertices; the ghost vertex is infinitely far from all others. *)
Theorem C48_distance {V T} (m : mesh V T) a b :
  (a ≠ GHOST → b ≠ GHOST → ∀ p q, idx_ori m a = Some p → idx_ori m b = Some q → vertex_distance2 m a b = Some (Some (dist2 p q))) ∧
  ((a = GHOST ∧ b ≠ GHOST) ∨ (a ≠ GHOST ∧ b = GHOST) → vertex_distance2 m a b = Some None) ∧
  vertex_distance2 m GHOST GHOST = Some (Some 0%Z).
Proof.
  unfold vertex_distance2. split; [|split].
  - intros Ha Hb p q. unfold idx_ori. rewrite !(proj2 (N.eqb_neq _ _)) by done. intros -> ->. cbn [mbind option_bind]. do 2 f_equal.
  - intros [[-> Hb]|[Ha ->]]; [rewrite N.eqb_refl, (proj2 (N.eqb_neq _ _) Hb); done|rewrite (proj2 (N.eqb_neq _ _) Ha), N.eqb_refl; done].
  - done.
Qed.
Print Assumptions C48_distance.

(** Comparing exact distances is good enough. *)
Theorem C48_exact_distances {V T} (m : mesh V T) v : v ≠ GHOST → distances (nearer m v) (nearer m v).
Proof.
  intros Hv. unfold nearer. split.
  - intros a. destruct (default None (vertex_distance2 m a v)) as [x|]; [apply Z.ltb_irrefl|done].
  - intros a b c. destruct (default None (vertex_distance2 m a v)) as [x|], (default None (vertex_distance2 m b v)) as [y|], (default None (vertex_distance2 m c v)) as [z|]; rewrite ?Z.ltb_lt; try done. lia.
  - intros a. unfold vertex_distance2. rewrite N.eqb_refl. by rewrite (proj2 (N.eqb_neq _ _) Hv).
  - intros a b c. destruct (default None (vertex_distance2 m a v)) as [x|], (default None (vertex_distance2 m b v)) as [y|], (default None (vertex_distance2 m c v)) as [z|]; rewrite ?Z.ltb_ge; try done. lia.
  - intros a b. destruct (default None (vertex_distance2 m a v)) as [x|], (default None (vertex_distance2 m b v)) as [y|]; rewrite ?Z.ltb_lt, ?Z.ltb_ge; try done. lia.
  - intros a b c. destruct (default None (vertex_distance2 m a v)) as [x|], (default None (vertex_distance2 m b v)) as [y|], (default None (vertex_distance2 m c v)) as [z|]; rewrite ?Z.ltb_lt, ?Z.ltb_ge; try done. lia.
Qed.
Print Assumptions C48_exact_distances.

(** Inserting a vertex, for any comparison of distances, however rounded, and any hash order.  The
    vertex is stored first ([m1]).  The search always ends.  Either it panics, having reached a
    vertex [c] without nearer neighbours, and neither a tet at [c] nor one next to such a tet has the
    new vertex inside its circumsphere.  Or it starts at a tet [t0] that has; the cavity [E] consists
    of the tets reached from it through tets in conflict, and if the boundary of the cavity is a
    connected surface, the vertex is connected to it as [filled] says, the mesh is ready for the next
    operation, and across the cavity boundary the new tets satisfy the Delaunay property. *)
Theorem C48_insert {V T} (m : mesh V T) less lt order id p x start :
  ready m → can_place m id → attached m start → start ≠ GHOST →
  (∀ m1 v, v ≠ GHOST → distances (less m1 v) (lt m1 v)) → (∀ l, NoDup l → order l ≡ₚ l) →
  ∃ m1 v, (id = Some v ∨ (id = None ∧ im_get (m_verts m) v = None)) ∧ v ≠ GHOST ∧ placed m v p x m1 ∧
    ((add_vertex_delaunay_internal less lt order m id p x start = None ∧
      ∃ c, c ≠ GHOST ∧ nearest m1 (lt m1 v) v c ∧ (c = start ∨ lt m1 v c start = true) ∧
        ∀ t0 t, tet_at m1 c t0 → t = t0 ∨ neighbours m1 t0 t → ¬ spoiled m1 v t) ∨
     (∃ t0 B E, spoiled m1 v t0 ∧ region m1 E ∧ boundary_of m1 E B ∧
        (∀ t, t ∈ E ↔ rtc (λ a b, neighbours m1 a b ∧ in_conflict (sphere_of m1 v) m1 b) t0 t) ∧
        (surface m1 E → roomy m1 (N.of_nat (length B)) (N.of_nat (3 * length B)) →
         ∃ m' B', add_vertex_delaunay_internal less lt order m id p x start = Some (m', v) ∧ ready m' ∧
           filled m1 v E B m' B' ∧ (B ≠ [] → attached m' v) ∧ locally_delaunay m' v B'))).
Proof.
  intros Hr Hc Ha Hg Hd Hord. destruct (put_vertex_ok m id p x Hr Hc) as (m1 & v & Eput & Hid & Hnew & Hv & Hp & Hr1 & Hl).
  exists m1, v. split; [destruct id as [i|]; [left; by rewrite (Hid i)|right; split; [done|by apply Hnew]]|]. split; [done|]. split; [done|].
  assert (attached m1 start) as Ha1 by by apply (placed_attached m v p x m1).
  assert (known_vertex m1 v) as Hk by (eexists; apply Hp).
  unfold add_vertex_delaunay_internal. rewrite Eput. cbn [mbind option_bind]. pose proof (rd_ok _ Hr1) as Hok. pose proof (rd_rest _ Hr1) as Hrest.
  destruct (find_start_ok (less m1 v) (lt m1 v) order (Hd m1 v Hv) Hord m1 v start Hr1 Hk Ha1 Hg) as [(t0 & -> & Ht0)|[-> (c & Hgc & Hn & Hcs & Hno)]].
  - right. cbn [mbind option_bind]. apply (violates_spoiled m1 v t0 true Hok) in Ht0 as Hsp. destruct Hsp as [Hsp _]. specialize (Hsp eq_refl).
    destruct (C35_single_tet_start m1 t0 Hok (proj1 Hsp)) as [HR HB]. destruct (C35_predicates m1 v Hok) as [Hst _].
    destruct (C35_convex m1 (sphere_of m1 v) (side_of m1 v) false [t0] (tet_bound t0) [] Hok (ar_search _ Hrest) Hst HR HB ltac:(done)) as (B & E & E1 & HR' & HB' & HE).
    assert (∀ t, t ∈ E ↔ rtc (λ a b, neighbours m1 a b ∧ in_conflict (sphere_of m1 v) m1 b) t0 t) as HE'.
    { intros t. rewrite HE. split; [by intros (s & ->%elem_of_list_singleton & H)|]. intros H. exists t0. split; [by left|done]. }
    exists t0, B, E. do 4 (split; [done|]). intros Hs Hroom. assert (fillable m1 v B E) as Hf by done.
    unfold tet_bound in E1. rewrite E1. cbn [mbind option_bind].
    destruct (C36_fill m1 v B E Hok Hrest Hf) as (m' & B' & E2 & Hok' & Hrest' & Hfill). rewrite E2. cbn [mbind option_bind].
    exists m', B'. split; [done|]. split; [by eapply ready_fill|]. split; [done|]. split.
    + intros Hne. by apply (C36_vertex_attached m1 v B E m' B').
    + by eapply (fill_locally_delaunay m1 v E B m' B' t0).
  - left. split; [done|]. exists c. do 3 (split; [done|]). intros t0 t Ht Ho Hsp.
    pose proof (Hno t0 t Ht Ho) as Hf. destruct (violates_spoiled m1 v t false Hok Hf) as [_ H]. by specialize (H Hsp).
Qed.
Print Assumptions C48_insert.

(** [add_vertex_delaunay] starts at the first vertex. *)
Theorem C48_insert_from_first_vertex {V T} (m : mesh V T) less lt order p x start rest :
  im_keys (m_verts m) = start :: rest →
  add_vertex_delaunay less lt order m p x = add_vertex_delaunay_internal less lt order m None p x start.
Proof. intros E. unfold add_vertex_delaunay. by rewrite E. Qed.
Print Assumptions C48_insert_from_first_vertex.

(** ** Witnesses *)
(** Inserting a point into the mesh with 12 tets, starting at vertex 1: none of the tets at first
    looked at is in conflict, the search walks to another vertex and starts from tet 1; 6 tets are
    replaced by 10. *)
Definition del_at : mesh Z unit := ex ex_ops3.
Definition del_placed : mesh Z unit := match put_vertex del_at None (Pt 1 2 1) 16%Z with Some (m, _) => m | None => mesh_empty end.
Definition del_run : option (mesh Z unit * N) := add_vertex_delaunay_internal nearer nearer id del_at None (Pt 1 2 1) 16%Z 1.
Lemma del_at_ready : ready del_at.
Proof. apply C48_histories, reachable_built, ex3_reachable. Qed.
Example C48_witness : ready del_at ∧ can_place del_at None ∧ attached del_at 1 ∧
  (∃ B, boundary_of del_placed (cav_of del_placed 6 1).2 B ∧ length B = 10 ∧ length (cav_of del_placed 6 1).2 = 6) ∧
  surface del_placed (cav_of del_placed 6 1).2 ∧ roomy del_placed 10 30 ∧
  violates del_placed 6 11 = Some false ∧ (w_tet <$> walker_from_vertex del_placed 1) = Some 11%N ∧
  ((λ r : mesh Z unit * N, num_tets r.1) <$> del_run) = Some (Some 16%N).
Proof.
  split; [apply del_at_ready|]. split; [vm_compute; done|]. split; [apply attachedb_spec; vm_compute; reflexivity|].
  assert (fillableb del_placed 6 (cav_of del_placed 6 1) = true) as Hf%fillableb_spec by (vm_compute; reflexivity).
  destruct Hf as (_ & _ & HB & HS & HR). split.
  { exists (cav_of del_placed 6 1).1. split; [exact HB|]. vm_compute. done. }
  split; [exact HS|]. split; [|vm_compute; done]. revert HR. assert (length (cav_of del_placed 6 1).1 = 10) as -> by (vm_compute; reflexivity). done.
Qed.

(** A point that coincides with a vertex of a Delaunay tetrahedralization is in no circumsphere, and
    inserting it panics: here the first tet alone, and a copy of its second vertex. *)
Theorem C48_duplicate_point_refuted : ¬ (∀ (m : mesh Z unit) p start, built m → attached m start → start ≠ GHOST → can_place m None →
  is_Some (add_vertex_delaunay_internal nearer nearer id m None p 0%Z start)).
Proof.
  intros H. assert (reachable (ex [])) as Hr%reachable_built by (apply ex_reachable; vm_compute; reflexivity).
  assert (attachedb (ex []) 0 = true) as Ha%attachedb_spec by (vm_compute; reflexivity).
  assert (can_place (ex []) None) as Hc by (vm_compute; done).
  destruct (H (ex []) (Pt 0 0 4) 0%N Hr Ha ltac:(done) Hc) as [r E].
  assert (add_vertex_delaunay_internal nearer nearer id (ex []) None (Pt 0 0 4) 0%Z 0 = None) as E' by (vm_compute; reflexivity).
  rewrite E' in E. discriminate E.
Qed.
Print Assumptions C48_duplicate_point_refuted.
