(** C50: building a Delaunay tetrahedralization from points. *)
From stdpp Require Import base numbers list gmap option relations.
From Coq Require Import NArith ZArith Lia.
From Verif Require Import IdMapModel IdMapSpec IdMapProofs WalkerModel WalkerSpec MeshModel MeshOps MeshSpec MeshCheck HistSpec HistCheck UtilModel GeoModel NewMesh PropMesh
  CavModel CavSpec PropCav InsSpec InsCheck PropIns DelModel DelSpec DelOk DelFind PropDel IntSpec IntOk PropInt FromModel FromSpec FromKept FromOk FromReady.
Local Open Scope nat_scope.

Lemma ghost_val : GHOST = (2 ^ 32 - 1)%N. Proof. reflexivity. Qed.

(** For every way of ordering the points, of rounding the tests and the centre, and every hash
    order: if a mesh is returned, there were at least four points, the vertex with id [i] has the
    position and the value of the [i]th point and there are no others, and the mesh passes the
    integrity check with orientations. *)
Theorem C50_returns {V T} sim norm curve wide2 le2 wide3 less lt order center (ps : list (pt * V)) (dflt : T) m : (N.of_nat (length ps) <= 2 ^ 32)%N →
  delaunay_from_vertices sim norm curve wide2 le2 wide3 less lt order center ps dflt = Some m →
  4 ≤ length ps ∧ (∀ v, (λ vt, (v_pos vt, v_val vt)) <$> im_get (m_verts m) v = ps !! N.to_nat v) ∧ intact (Some (positive m)) m.
Proof.
  intros Hl E. destruct (from_kept _ _ _ _ _ _ _ _ _ _ _ _ _ Hl E) as (H4 & [K1 K2 K3 K4 _] & Hi). split; [done|]. split; [done|].
  apply integrity_iff; [done..| |done]. unfold assert_integrity in Hi. rewrite !andb_true_iff in Hi. destruct Hi as [[[[[_ _] Hd] _] _] _].
  unfold ai_no_dup_edges in Hd. destruct (im_len (m_edges m)); [eauto|done].
Qed.
Print Assumptions C50_returns.

(** So every point is a vertex of some tet, and every tet has positive volume (a ghost tet with the
    centre in the place of the ghost vertex). *)
Theorem C50_all_points_used {V T} sim norm curve wide2 le2 wide3 less lt order center (ps : list (pt * V)) (dflt : T) m : (N.of_nat (length ps) <= 2 ^ 32)%N →
  delaunay_from_vertices sim norm curve wide2 le2 wide3 less lt order center ps dflt = Some m →
  (∀ i, i < length ps → attached m (N.of_nat i)) ∧
  ∀ w a b c d, valid m w → w_verts m w = Some (A4 a b c d) → ∃ s, orient_3d m a b c d = Some s ∧ (0 < s)%Z.
Proof.
  intros Hl E. destruct (C50_returns _ _ _ _ _ _ _ _ _ _ _ _ _ Hl E) as (_ & Hd & Hi). split.
  - intros i Hx. apply (C49_all_attached m _ _ Hi). specialize (Hd (N.of_nat i)). rewrite Nat2N.id in Hd.
    apply lookup_lt_is_Some in Hx as [y Hy]. rewrite Hy in Hd. destruct (im_get (m_verts m) (N.of_nat i)); [eauto|done].
  - intros w a b c d Hw Hv. by apply (C49_all_positive m w).
Qed.
Print Assumptions C50_all_points_used.

(** The first four points are not collinear or coplanar by the rounded tests, whatever these are,
    and the mesh of these four is well formed. *)
Theorem C50_start {V T} sim norm curve wide2 le2 wide3 (ps : list (pt * V)) (dflt : T) m L : (N.of_nat (length ps) < 2 ^ 32)%N →
  delaunay_start sim norm curve wide2 le2 wide3 ps dflt = Some (m, L) →
  L ≡ₚ imap (λ i p, (N.of_nat i, p)) ps ∧
  (∃ x0 x1 x2 x3, take 4 L = [x0; x1; x2; x3] ∧ wide2 x0.2.1 x1.2.1 x2.2.1 = true ∧ wide3 x0.2.1 x1.2.1 x2.2.1 x3.2.1 = true) ∧
  ready m ∧ (∀ v, attached m v ↔ v = GHOST ∨ v ∈ (take 4 L).*1) ∧ (∀ id, is_Some (tet_get m id) ↔ id ∈ [0; 1; 2; 3; 4]%N).
Proof.
  intros Hl E. destruct (start_facts _ _ _ _ _ _ _ _ _ _ (N.lt_le_incl _ _ Hl) E) as (HL & H4 & xs & M0 & EM0 & Hxs & Em). split; [done|]. split; [done|].
  assert (∀ x, x ∈ L → (x.1 < N.of_nat (length ps))%N) as Hlt.
  { intros x Hx. rewrite HL in Hx. apply elem_of_lookup_imap in Hx as (i & y & -> & Hi). apply lookup_lt_Some in Hi. cbn. lia. }
  assert (NoDup L.*1) as Hn.
  { rewrite HL. apply NoDup_alt. intros i j y. rewrite !list_lookup_fmap, !list_lookup_imap. destruct (ps !! i); [|done]. destruct (ps !! j); [|done]. cbn. intros [= <-] [= E']. lia. }
  assert (N.of_nat (length ps) <= GHOST)%N as HG. { rewrite ghost_val. lia. }
  eapply (with_ids_ready sim M0 (take 4 L)); [|..|exact Em].
  - pose proof (wf_extend_values ((λ x, Vertex (Walker invalid_id 0) vf_empty origin x) <$> xs) im_empty wf_empty) as Hw. rewrite fmap_length, Hxs in Hw.
    assert (∀ im v vt, im_get (im_extend_values im ((λ x, Vertex (Walker invalid_id 0) vf_empty origin x) <$> xs)).1 v = Some vt → im_free im = [] →
      im_get im v = Some vt ∨ v_flags vt = vf_empty ∧ (v < im_npi im + N.of_nat (length xs))%N) as Hg.
    { clear. induction xs as [|x xs IH]; intros im v vt; cbn [fmap list_fmap im_extend_values length]; [by left|]. unfold im_insert. intros H Hf. rewrite Hf in H. cbn [vec_pop] in H.
      unfold vec_pop in H. cbn in H. match type of H with context [im_extend_values ?i _] => specialize (IH i v vt); destruct (im_extend_values i _) as [im' ks] end. cbn [fst] in *.
      destruct (IH H eq_refl) as [Hi|[H1 H2]]; [|right; split; [done|cbn in H2; lia]]. unfold im_get in Hi. cbn in Hi. apply lookup_insert_Some in Hi as [[<- <-]|[_ Hi]]; [right; split; [done|lia]|by left]. }
    rewrite EM0. split; cbn [with_verts m_verts m_edges m_tets m_ghost_flags m_track mesh_empty].
    + destruct (im_extend_values im_empty _) as [im ks]. apply Hw. cbn [im_npi im_empty]. change u32_mod with (2 ^ 32)%N. lia.
    + intros v vt H. apply Hg in H as [H|[H1 H2]]; [unfold im_get in H; cbn in H; by rewrite lookup_empty in H| |done]. split; [|done]. cbn in H2. lia.
    + done.
  - rewrite <- (take_drop 4 L), fmap_app in Hn. apply NoDup_app in Hn as [Hn _]. exact Hn.
  - intros x Hx. apply elem_of_take in Hx as (i & Hi & _). apply elem_of_list_lookup_2 in Hi. apply Hlt in Hi. lia.
Qed.
Print Assumptions C50_start.

(** If the cavities met on the way have boundaries that are connected surfaces, the mesh returned is
    well formed with no operation under way; for any comparison of distances, however rounded, and
    any hash order. *)
Theorem C50_well_formed {V T} sim norm curve wide2 le2 wide3 less lt order center (ps : list (pt * V)) (dflt : T) m m0 L x3 : (N.of_nat (length ps) < 2 ^ 32)%N →
  (∀ m v, v ≠ GHOST → distances (less m v) (lt m v)) → (∀ l, NoDup l → order l ≡ₚ l) →
  delaunay_start sim norm curve wide2 le2 wide3 ps dflt = Some (m0, L) → L !! 3 = Some x3 →
  (∀ k mk id p x, insert_all less lt order m0 x3.1 (take k (drop 4 L)) = Some mk → drop 4 L !! k = Some (id, (p, x)) → sound_cavities mk id p x) →
  delaunay_from_vertices sim norm curve wide2 le2 wide3 less lt order center ps dflt = Some m → ready m.
Proof.
  intros Hl Hd Ho Es E3 Hs. destruct (C50_start _ _ _ _ _ _ _ _ _ _ Hl Es) as (HL & _ & Hr & Hat & _).
  unfold delaunay_from_vertices. rewrite Es. cbn [mbind option_bind]. rewrite E3. cbn [mbind option_bind].
  intros E. apply bind_Some in E as (m1 & E1 & E). cbv zeta in E. destruct (assert_integrity _ _); [|done]. apply (inj Some) in E as <-.
  assert (∀ x, x ∈ L → x.1 ≠ GHOST) as Hg.
  { intros x Hx. rewrite HL in Hx. apply elem_of_lookup_imap in Hx as (i & y & -> & Hi). apply lookup_lt_Some in Hi. cbn. rewrite ghost_val. lia. }
  assert (NoDup L.*1) as Hn.
  { rewrite HL. apply NoDup_alt. intros i j y. rewrite !list_lookup_fmap, !list_lookup_imap. destruct (ps !! i); [|done]. destruct (ps !! j); [|done]. cbn. intros [= <-] [= E']. lia. }
  assert (x3 ∈ take 4 L) as H3 by (apply elem_of_take; exists 3; split; [done|lia]).
  rewrite <- (take_drop 4 L), fmap_app in Hn. apply NoDup_app in Hn as (_ & Hdis & Hn2).
  assert (ready m1) as [R1 R2 R3 R4].
  { apply (insert_all_ready less lt order Hd Ho (drop 4 L) m0 x3.1 m1); [done| | |done| |done|done].
    - apply Hat. right. apply elem_of_list_fmap. eauto.
    - apply Hg. by apply elem_of_list_lookup_2 in E3.
    - intros x Hx. split; [apply Hg; rewrite <- (take_drop 4 L), elem_of_app; by right|].
      intros [Ha|Ha]%Hat; [by apply (Hg x); [rewrite <- (take_drop 4 L), elem_of_app; right|]|]. apply (Hdis _ Ha). apply elem_of_list_fmap. eauto. }
  split; [|split; apply R2|done|done]. destruct R1. by split.
Qed.
Print Assumptions C50_well_formed.

(** ** A witness: seven points *)
Lemma surface_same {V T} (m : mesh V T) E E' : (∀ t, t ∈ E ↔ t ∈ E') → surface m E → surface m E'.
Proof.
  intros H [S1 S2 S3]. assert (∀ u, on_boundary m E' u ↔ on_boundary m E u) as Hb by (intros u; unfold on_boundary, leaves; by setoid_rewrite H).
  assert (∀ a b, around m E a b → around m E' a b) as Ha. { intros a b (u & x & y & H1 & H2 & H3). exists u, x, y. by rewrite !Hb. }
  split.
  - intros u u' p. rewrite !Hb. apply S1.
  - intros u u' a. rewrite !Hb. intros H1 H2 H3 H4. eapply rtc_subrel; [|by apply (S2 u u' a)]. intros x y [?|?]; [left|right]; by apply Ha.
  - intros u u'. rewrite !Hb. intros H1 H2. eapply rtc_subrel; [|by apply (S3 u u')]. intros x y [[?|[? ?]]|[?|[? ?]]].
    + left; left. by apply Ha.
    + left; right. by rewrite Hb.
    + right; left. by apply Ha.
    + right; right. by rewrite Hb.
Qed.

(** Cavities can be checked by running the search from every tet. *)
Definition cavities_checkb {V T} (m : mesh V T) (v : N) (p : pt) (x : V) : bool :=
  match put_vertex m (Some v) p x with
  | Some (m1, _) =>
    forallb (λ t0, match violates m1 v t0 with
      | Some false => true
      | Some true => match point_cavity (sphere_of m1 v) (side_of m1 v) m1 (tet_bound t0) [t0] [] true false true with
                     | Some (_, B, E) => surfaceb m1 E && negb (Nat.eqb (length B) 0) && roomyb m1 (N.of_nat (length B)) (N.of_nat (3 * length B))
                     | None => false
                     end
      | None => false
      end) (im_keys (m_tets m1))
  | None => false
  end.
Lemma cavities_check {V T} (m : mesh V T) v p x : ready m → v ≠ GHOST → ¬ attached m v → cavities_checkb m v p x = true → sound_cavities m v p x.
Proof.
  intros Hr Hv Hna Hc m1 t0 E B Hp Hsp HR HB HE.
  destruct (put_vertex_ok m (Some v) p x Hr (conj Hv Hna)) as (m2 & v2 & Eput & Hid & _ & _ & Hp2 & Hr2 & Hl2). rewrite (Hid v eq_refl) in *. clear Hid v2.
  unfold cavities_checkb in Hc. rewrite Eput in Hc. rewrite forallb_forall in Hc.
  assert (∃ vs1 vs2, m1 = with_verts m vs1 ∧ m2 = with_verts m vs2 ∧ im_slots vs1 = im_slots vs2) as (vs1 & vs2 & -> & -> & Evs).
  { destruct Hp as [A1 A2 (A3 & A4 & A5 & A6 & A7 & A8)], Hp2 as [B1 B2 (B3 & B4 & B5 & B6 & B7 & B8)].
    exists (m_verts m1), (m_verts m2). split; [destruct m, m1; cbn in *; by subst|]. split; [destruct m, m2; cbn in *; by subst|].
    apply map_eq. intros a. change (im_get (m_verts m1) a = im_get (m_verts m2) a). destruct (decide (a = v)) as [->|Ha]; [by rewrite A1, B1|by rewrite A2, B2]. }
  clear Hp Hp2 Eput.
  assert (∀ a b c d e, in_sphere (with_verts m vs1) a b c d e = in_sphere (with_verts m vs2) a b c d e) as His.
  { intros. unfold in_sphere, idx_ori, im_get. cbn. by rewrite Evs. }
  assert (spoiled (with_verts m vs2) v t0) as Hsp2. { destruct Hsp as [H1 H2]. split; [exact H1|]. intros w a b c d. rewrite <- His. apply H2. }
  assert (∀ t, t ∈ E ↔ rtc (λ a b, neighbours (with_verts m vs2) a b ∧ in_conflict (sphere_of (with_verts m vs2) v) (with_verts m vs2) b) t0 t) as HE2.
  { intros t. rewrite HE. assert (∀ vs, sphere_of (with_verts m vs1) v vs = sphere_of (with_verts m vs2) v vs) as Hss by (intros vs; unfold sphere_of; by rewrite His).
    assert (∀ b, in_conflict (sphere_of (with_verts m vs1) v) (with_verts m vs1) b ↔ in_conflict (sphere_of (with_verts m vs2) v) (with_verts m vs2) b) as Hic.
    { intros b. unfold in_conflict. split; intros (w & vs & H1 & H2 & H3 & H4); exists w, vs; (split; [exact H1|]); (split; [exact H2|]); (split; [exact H3|]).
      - rewrite <- Hss. destruct H4 as [?|[?|(? & u & z & vs' & H5 & H6 & H7 & H8 & H9 & H10)]]; [by left|by right; left|right; right]. split; [done|]. exists u, z, vs'. rewrite <- Hss. done.
      - rewrite Hss. destruct H4 as [?|[?|(? & u & z & vs' & H5 & H6 & H7 & H8 & H9 & H10)]]; [by left|by right; left|right; right]. split; [done|]. exists u, z, vs'. rewrite Hss. done. }
    split; apply rtc_subrel; intros a b [H1 H2]; (split; [exact H1|by apply Hic]). }
  clear Hsp HE His Evs Hna. assert (region (with_verts m vs2) E) as HR2 by exact HR. assert (boundary_of (with_verts m vs2) E B) as HB2 by exact HB.
  assert (surface (with_verts m vs2) E ∧ B ≠ [] ∧ roomy (with_verts m vs2) (N.of_nat (length B)) (N.of_nat (3 * length B))) as Hgoal; [|destruct Hgoal as [[] Hgoal]; split; [by constructor|exact Hgoal]].
  clear HR HB. revert Hr2 Hc Hsp2 HE2 HR2 HB2 Hl2. generalize (with_verts m vs2). clear m Hr vs1 vs2. intros m Hr Hc Hsp HE HR HB Hl.
  pose proof (rd_ok _ Hr) as Hok. destruct (proj1 Hsp) as [t Et].
  assert (t0 ∈ im_keys (m_tets m)) as Hk. { unfold im_keys. apply elem_of_list_fmap. exists (t0, t). split; [done|]. by apply (elem_of_im_iter _ _ _ (ok_ids_tets _ Hok)). }
  specialize (Hc t0 (proj1 (elem_of_list_In _ _) Hk)). destruct (violates m v t0) as [b|] eqn:Ev; [|done].
  assert (b = true) as -> by (by apply (violates_spoiled m v t0 b Hok Ev)).
  destruct (C35_single_tet_start m t0 Hok (proj1 Hsp)) as [HR0 HB0]. destruct (C35_predicates m v Hok) as [Hst _].
  destruct (C35_convex m (sphere_of m v) (side_of m v) false [t0] (tet_bound t0) [] Hok (ar_search _ (rd_rest _ Hr)) Hst HR0 HB0 ltac:(done)) as (B1 & E1 & Erun & HR1 & HB1 & HE1).
  rewrite Erun in Hc. rewrite !andb_true_iff in Hc. destruct Hc as [[Hs%surfaceb_spec Hne] Hroom%roomyb_spec].
  assert (∀ t, t ∈ E1 ↔ t ∈ E) as Hsame. { intros t'. rewrite HE, HE1. split; [by intros (s & ->%elem_of_list_singleton & H)|]. intros H. exists t0. split; [by left|done]. }
  assert (side <$> B ≡ₚ side <$> B1) as HP.
  { destruct HB as (V1 & N1 & S1), HB1 as (V2 & N2 & S2). apply NoDup_Permutation; [done..|]. rewrite list.Forall_forall in V1, V2.
    intros s. split; intros (w & -> & Hw)%elem_of_list_fmap.
    - apply S2; [by apply V1|]. assert (leaves m E w) as [H1 H2] by (apply S1; [by apply V1|]; apply elem_of_list_fmap; eauto). unfold leaves. setoid_rewrite Hsame. done.
    - apply S1; [by apply V2|]. assert (leaves m E1 w) as [H1 H2] by (apply S2; [by apply V2|]; apply elem_of_list_fmap; eauto). unfold leaves. setoid_rewrite <- Hsame. done. }
  apply Permutation_length in HP. rewrite !fmap_length in HP. rewrite HP. split; [by apply (surface_same m E1)|]. split; [|done].
  intros ->. destruct B1; [done|done].
Qed.

Definition tri_ok p0 p1 p2 := Z.ltb 0 (norm2 (vcross (vsub p1 p0) (vsub p2 p0))).
Definition tri_le p0 p1 a b := Z.leb (norm2 (vcross (vsub p1 p0) (vsub a p0))) (norm2 (vcross (vsub p1 p0) (vsub b p0))).
Definition tet_ok p0 p1 p2 p3 := negb (Z.eqb (orient p0 p1 p2 p3) 0).
Definition seven : list (pt * Z) := [(Pt 0 0 0, 10); (Pt 4 0 0, 11); (Pt 0 4 0, 12); (Pt 0 0 4, 13); (Pt 1 1 1, 14); (Pt 2 5 5, 15); (Pt 7 3 1, 16)]%Z.
Definition seven_start : option (mesh Z unit * list (N * (pt * Z))) :=
  delaunay_start sim_z (λ lo hi x, Z.to_N (x - lo)) (λ p, p.1.1 + p.1.2 + p.2)%N tri_ok tri_le tet_ok seven ().
Definition seven_run : option (mesh Z unit) :=
  delaunay_from_vertices sim_z (λ lo hi x, Z.to_N (x - lo)) (λ p, p.1.1 + p.1.2 + p.2)%N tri_ok tri_le tet_ok nearer nearer id (λ _, Pt 1 1 1) seven ().

(** Checking the cavities of a whole run. *)
Fixpoint run_checkb {V T} less lt order (m : mesh V T) prev (L : list (N * (pt * V))) : bool :=
  match L with
  | [] => true
  | (id, (p, x)) :: L =>
    cavities_checkb m id p x &&
    match add_vertex_delaunay_internal less lt order m (Some id) p x prev with
    | Some (m, _) => run_checkb less lt order m id L
    | None => true
    end
  end.
Lemma run_check {V T} less lt order (L : list (N * (pt * V))) : ∀ (m : mesh V T) prev,
  (∀ m v, v ≠ GHOST → distances (less m v) (lt m v)) → (∀ l, NoDup l → order l ≡ₚ l) →
  ready m → attached m prev → prev ≠ GHOST → NoDup L.*1 → (∀ x, x ∈ L → x.1 ≠ GHOST ∧ ¬ attached m x.1) →
  run_checkb less lt order m prev L = true →
  ∀ k mk id p x, insert_all less lt order m prev (take k L) = Some mk → L !! k = Some (id, (p, x)) → sound_cavities mk id p x.
Proof.
  intros m prev Hd Ho. revert m prev. induction L as [|[id [p x]] L IH]; intros m prev Hr Hp Hg Hn Hx; [done|]. cbn [run_checkb]. rewrite andb_true_iff. intros [Hc Hrest].
  destruct (Hx (id, (p, x)) ltac:(by left)) as [Hi Hna]. cbn [fst] in *. rewrite fmap_cons in Hn. apply stdpp.list.NoDup_cons in Hn as [Hnx Hn].
  assert (sound_cavities m id p x) as Hs by (by apply cavities_check).
  intros [|k] mk id' p' x'; cbn [take insert_all]; [by intros [= <-] [= <- <- <-]|].
  destruct (add_vertex_delaunay_internal _ _ _ _ _ _ _ _) as [[m1 v]|] eqn:E; [|done].
  destruct (insert_one less lt order Hd Ho m id p x prev m1 v Hr Hp Hg Hi Hna Hs E) as (Hr1 & Hat & Hold).
  apply IH; [done..| |done]. intros y Hy. destruct (Hx y ltac:(by right)) as [H1 H2]. split; [done|]. intros [Ey|Ha]%Hold; [|done]. apply Hnx, elem_of_list_fmap. exists y. by rewrite Ey.
Qed.

(** Building from seven points, one of them inside, with exact distances: a mesh is returned, with 17 tets. *)
Lemma seven_len : (N.of_nat (length seven) < 2 ^ 32)%N. Proof. vm_compute. reflexivity. Qed.
Lemma seven_shape : (λ r : mesh Z unit * list (N * (pt * Z)), (r.2.*1, run_checkb nearer nearer id r.1 2 (drop 4 r.2))) <$> seven_start = Some ([0; 4; 6; 2; 3; 1; 5]%N, true).
Proof. vm_compute. reflexivity. Qed.
Example C50_start_example : ∃ m L, seven_start = Some (m, L) ∧ L.*1 = [0; 4; 6; 2; 3; 1; 5]%N ∧ ready m ∧ run_checkb nearer nearer id m 2 (drop 4 L) = true.
Proof.
  pose proof seven_shape as H. destruct seven_start as [[m L]|] eqn:E; [|discriminate H]. cbn [fmap option_fmap option_map fst snd] in H.
  apply (inj Some) in H. injection H as H1 H2. exists m, L. split; [done|]. split; [done|]. split; [|done].
  unfold seven_start in E. destruct (C50_start _ _ _ _ _ _ _ _ m L seven_len E) as (_ & _ & Hr & _). exact Hr.
Qed.
Lemma seven_some : (λ m : mesh Z unit, (im_keys (m_verts m), length (im_keys (m_tets m)))) <$> seven_run = Some ([0; 1; 2; 3; 4; 5; 6]%N, 17).
Proof. vm_compute. reflexivity. Qed.
Lemma seven_rest (a : N) : a ∈ [3; 1; 5]%N → a ≠ GHOST ∧ ¬ (a = GHOST ∨ a ∈ [0; 4; 6; 2]%N).
Proof.
  rewrite !elem_of_cons, !elem_of_nil. rewrite ghost_val. change (2 ^ 32 - 1)%N with 4294967295%N. lia.
Qed.
Example C50_well_formed_example : ∃ m, seven_run = Some m ∧ ready m ∧ length (im_keys (m_tets m)) = 17.
Proof.
  destruct C50_start_example as (m0 & L & Es & HL & Hr & Hc). pose proof seven_some as H. destruct seven_run as [m|] eqn:Er; [|discriminate H].
  cbn [fmap option_fmap option_map] in H. apply (inj Some) in H. injection H as _ H2. exists m. split; [done|]. split; [|done].
  unfold seven_start in Es. unfold seven_run in Er. destruct (C50_start _ _ _ _ _ _ _ _ m0 L seven_len Es) as (_ & _ & _ & Hat & _).
  assert (∃ x3, L !! 3 = Some x3 ∧ x3.1 = 2%N) as (x3 & E3 & Hx3).
  { assert (L.*1 !! 3 = Some 2%N) as Hl by (by rewrite HL). rewrite list_lookup_fmap in Hl. destruct (L !! 3) as [x3|]; [|done]. exists x3. split; [done|]. by injection Hl. }
  assert ((take 4 L).*1 = [0; 4; 6; 2]%N) as H4 by (by rewrite fmap_take, HL). assert ((drop 4 L).*1 = [3; 1; 5]%N) as H5 by (by rewrite fmap_drop, HL).
  eapply (C50_well_formed _ _ _ _ _ _ nearer nearer id _ seven () m m0 L x3); [exact seven_len|intros ??; apply C48_exact_distances|done|exact Es|exact E3| |exact Er].
  rewrite Hx3. apply run_check; [intros ??; apply C48_exact_distances|done|done| |done| | |done].
  - apply Hat. right. rewrite H4. apply elem_of_list_In. right. right. right. by left.
  - rewrite H5. apply (bool_decide_unpack _). vm_compute. done.
  - clear - H4 H5 Hat. intros x Hx. apply (elem_of_list_fmap_1 fst) in Hx. rewrite H5 in Hx. rewrite Hat, H4. clear - Hx. by apply seven_rest.
Qed.
