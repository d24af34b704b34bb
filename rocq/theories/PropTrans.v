(** Properties C61 and C62: inserting tets into a mesh with holes; replacing tets between two vertices by others. *)
From stdpp Require Import base numbers list gmap option relations.
From Coq Require Import NArith ZArith ZifyN ZifyNat ZifyBool Lia.
From Verif Require Import IdMapModel IdMapSpec IdMapProofs WalkerModel WalkerSpec WalkerProofs SortProofs
  MeshModel WalkerMore MeshOps MeshSpec MeshCheck FlipSpec HistSpec HistCheck Reach MeshViews Surgery MeshLink MeshRun FlipBase FlipRun IterModel IntOk InsModel InsStep InsCone PropMesh PropGeo
  CavBase TransModel TransSpec TransOk TakeOk ReplOk ReplFin ReplRun TransCheck.
Local Open Scope nat_scope.

(** A consistent mesh that tracks its triangles is an open mesh. *)
Theorem C61_closed {V T} (m : mesh V T) : mesh_ok m → m_track m = true → open_mesh m.
Proof. apply closed_open. Qed.
Print Assumptions C61_closed.

(** Inserting a tet with four vertices of the mesh into an open mesh, none of whose triangles is there already, gives an
    open mesh with that tet, glued to all tets it has a triangle with. *)
Theorem C61_insert {V T} (S : N → N → Prop) (dflt : T) (m : mesh V T) em a b c d : open_mesh m → NoDup [a; b; c; d] →
  (∀ v, v ∈ [a; b; c; d] → is_Some (im_get (m_verts m) v)) → (∀ u v, u ∈ [a; b; c; d] → v ∈ [a; b; c; d] → u ≠ v → S u v) →
  (∀ w t, valid m w → w_tri m w = Some t → t ∉ tet_tris a b c d) →
  lists_edges S m em → (im_npi (m_tets m) < u32_mod)%N → (im_npi (m_edges m) + 6 ≤ u32_mod)%N →
  ∃ m' em' w, insert_tet dflt m (A4 a b c d) em = Some (m', em', w) ∧ tet_inserted dflt m a b c d m' w ∧ lists_edges S m' em' ∧
    (im_npi (m_tets m') ≤ im_npi (m_tets m) + 1)%N ∧ (im_npi (m_edges m') ≤ im_npi (m_edges m) + 6)%N.
Proof.
  intros Ho Hnd Hex HS Htri Hem Hnt Hne.
  set (bad := Walker invalid_id 0).
  pose proof (view_exists m (tet_new (A4 a b c d) (A4 bad bad bad bad) (A6 invalid_id invalid_id invalid_id invalid_id invalid_id invalid_id) dflt)) as Hmv.
  set (L := dom _) in Hmv. set (F := λ i, _) in Hmv. clearbody L F.
  destruct (open_view m L F Hmv Ho) as [Hst Hop].
  assert (∀ w, vd L w → valid m w) as Hvd by (intros w Hw; by apply (mv_valid _ _ _ _ Hmv)).
  destruct (insert_s (m_center m) (im_npi (m_verts m)) S _ _ L F _ _ _ _ m em (A4 a b c d) dflt Hst Hop) as (m' & em' & id & F' & Ed' & Vt' & tm' & E & Hst' & [I1 I2 I3 I4 I5 I6 I7 I8]); try done.
  { intros w j Hw Hj Eq. apply (Htri w (tri3 (vv F w))); [by apply Hvd|by apply (mv_tri _ _ _ _ Hmv), Hw|]. rewrite Eq. clear -Hj.
    unfold tet_tris. rewrite !elem_of_cons. case12 j Hj; cbn; tauto. }
  exists m', em', (Walker id 3). split; [done|].
  pose proof (st_mv _ _ _ _ _ _ _ _ _ _ _ _ Hst') as Hmv'. pose proof (st_E _ _ _ _ _ _ _ _ _ _ _ _ Hst') as HE'. pose proof (st_V _ _ _ _ _ _ _ _ _ _ _ _ Hst') as HV'.
  assert (id ∈ {[id]} ∪ L) as Hid by (apply elem_of_union_l, elem_of_singleton; done).
  assert (∀ x, x ∈ L → x ∈ {[id]} ∪ L) as HLL by (intros; by apply elem_of_union_r).
  split; [|split; [|split; [apply (st_nt _ _ _ _ _ _ _ _ _ _ _ _ Hst')|apply (st_ne _ _ _ _ _ _ _ _ _ _ _ _ Hst')]]].
  - split.
    + by eapply view_open.
    + by apply (mv_out _ _ _ _ Hmv).
    + intros u. rewrite (mv_valid _ _ _ _ Hmv), (mv_valid _ _ _ _ Hmv'). unfold vd. rewrite elem_of_union, elem_of_singleton. cbn [w_tet]. tauto.
    + split; [apply (mv_valid _ _ _ _ Hmv'); split; [done|cbn; lia]|]. rewrite (mv_verts _ _ _ _ Hmv') by done. unfold vv. cbn [w_tet w_edge]. rewrite (proj1 I4). done.
    + intros u Hu. cbn [w_tet] in Hu. rewrite (mv_locked _ _ _ _ Hmv') by (by rewrite Hu). unfold lv. rewrite Hu, (proj1 (proj2 I4)). f_equal.
      assert (w_edge u mod 4 < 4) as H by (by apply Nat.mod_upper_bound). clear -H. destruct (w_edge u mod 4) as [|[|[|[|j]]]]; [done..|lia].
    + cbn [w_tet]. rewrite (mv_in _ _ _ _ Hmv') by done. cbn. f_equal. apply I4.
    + intros u [Hu He]%(mv_valid _ _ _ _ Hmv). destruct (I3 _ Hu) as (B1 & B2 & B3 & B4).
      rewrite (mv_verts _ _ _ _ Hmv), (mv_verts _ _ _ _ Hmv'), (mv_undir _ _ _ _ Hmv), (mv_undir _ _ _ _ Hmv'), (mv_locked _ _ _ _ Hmv), (mv_locked _ _ _ _ Hmv'), (mv_in _ _ _ _ Hmv), (mv_in _ _ _ _ Hmv') by auto.
      unfold vv, uv, lv. cbn. by rewrite B1, B2, B3, B4.
    + intros e ue H. rewrite HE'. by apply I6.
    + intros e ue H H'. rewrite HE' in H'. destruct (I7 e ue H') as [?|(_ & x & y & Hx & Hy & _ & ->)]; [congruence|]. split; [done|]. exists x, y. done.
    + intros v Hv. destruct (Hex v Hv) as [vt Evt]. exists vt. rewrite HV', I8. unfold vset4. cbn [q0 q1 q2 q3]. rewrite Evt. cbn [fmap option_fmap option_map].
      assert (∀ j, j < 4 → get4 (A4 a b c d) j = v → ∃ vt', Some (vset (to_perm (Walker id j) P3210) vt) = Some vt' ∧ v_flags vt' = v_flags vt ∧ v_pos vt' = v_pos vt ∧ v_val vt' = v_val vt ∧
        w_tet (v_tet vt') = id ∧ valid m' (v_tet vt') ∧ w_first m' (v_tet vt') = Some v) as Hgen.
      { intros j Hj Ej. eexists. split; [reflexivity|]. cbn [vset v_flags v_pos v_val v_tet]. do 3 (split; [done|]).
        assert (w_tet (to_perm (Walker id j) P3210) = id ∧ w_edge (to_perm (Walker id j) P3210) < 12) as [Ht He] by (clear -Hj; case4 j Hj; cbn; split; (done || lia)).
        split; [done|]. split; [apply (mv_valid _ _ _ _ Hmv'); split; [by rewrite Ht|done]|]. rewrite (mv_first _ _ _ _ Hmv') by by rewrite Ht. f_equal. unfold vv. rewrite Ht, (proj1 I4), <- Ej.
        clear -Hj. case4 j Hj; done. }
      destruct (decide (v = a)) as [->|Ha]; [destruct (Hgen 0) as (vt' & ? & ?); [lia|done|by exists vt']|].
      destruct (decide (v = b)) as [->|Hb]; [destruct (Hgen 1) as (vt' & ? & ?); [lia|done|by exists vt']|].
      destruct (decide (v = c)) as [->|Hc]; [destruct (Hgen 2) as (vt' & ? & ?); [lia|done|by exists vt']|].
      destruct (decide (v = d)) as [->|Hd]; [destruct (Hgen 3) as (vt' & ? & ?); [lia|done|by exists vt']|].
      exfalso. rewrite !elem_of_cons, elem_of_nil in Hv. tauto.
    + intros v Hv. rewrite !elem_of_cons, elem_of_nil in Hv. rewrite HV', I8. unfold vset4. cbn [q0 q1 q2 q3]. rewrite !decide_False by tauto. done.
    + split; [apply (st_gf _ _ _ _ _ _ _ _ _ _ _ _ Hst')|apply (st_c _ _ _ _ _ _ _ _ _ _ _ _ Hst')].
  - intros x y e Sx Hxy. rewrite (I5 x y e Sx Hxy). split; intros (ue & A & B); exists ue; (split; [|done]); [by rewrite HE'|by rewrite <- HE'].
Qed.
Print Assumptions C61_insert.

(** Taking out a tet leaves an open mesh with the other tets.  The tet is given by its side [v0 v1] and the vertex [vt]; the
    walker crosses the triangle, so that there has to be a tet on the other side as well. *)
Theorem C61_take_out {V T} (m : mesh V T) em vt v0 v1 w w' x : open_mesh m → valid m w → w_verts m w = Some (A4 v1 vt v0 x) →
  to_adj m w = Some w' → valid m w' → w_tri m w' = Some (vt, v1, v0) →
  ∃ m' em', take_out vt false (m, em) (v0, v1) = Some (m', em') ∧ open_mesh m' ∧
    (∀ u, valid m' u ↔ valid m u ∧ w_tet u ≠ w_tet w) ∧ (∀ u, valid m' u → w_verts m' u = w_verts m u) ∧
    (∀ u e, w_tet u = w_tet w → valid m u → undir_edge m u = Some e → ∀ a b, w_pair m u = Some (a, b) → em' !! sorted_2 (a, b) = Some e).
Proof.
  intros Ho Hw E Ha Hw' E'. destruct (tet_get m (w_tet w)) as [t0|] eqn:Et; [|by destruct Hw as [Hw _]; rewrite Et in Hw; destruct Hw].
  pose proof (view_exists m t0) as Hmv. set (L := dom _) in Hmv. set (F := λ i, _) in Hmv. clearbody L F. destruct (open_view m L F Hmv Ho) as [Hst Hop].
  apply (mv_valid _ _ _ _ Hmv) in Hw, Hw'. rewrite (mv_verts _ _ _ _ Hmv) in E by apply Hw. rewrite (mv_tri _ _ _ _ Hmv) in E' by apply Hw'. apply (inj Some) in E, E'.
  destruct (take_s _ _ false _ _ L F _ _ _ _ m em v0 v1 vt w w' Hst Hop Hw Hw') as (m' & em' & L' & F' & Ed' & tm' & Er & Hst' & Hop' & [A1 A2 A3 A4' A5 A6']); [by rewrite E| |done|].
  { apply twist_swap. rewrite E. exact E'. }
  pose proof (st_mv _ _ _ _ _ _ _ _ _ _ _ _ Hst') as Hmv'.
  exists m', em'. split; [done|]. split; [by eapply view_open|]. split; [|split].
  - intros u. rewrite (mv_valid _ _ _ _ Hmv), (mv_valid _ _ _ _ Hmv'), A1. unfold vd. rewrite elem_of_difference, elem_of_singleton. tauto.
  - intros u Hu. apply (mv_valid _ _ _ _ Hmv') in Hu. rewrite (mv_verts _ _ _ _ Hmv') by apply Hu. destruct Hu as [Hu _]. rewrite A1 in Hu. rewrite (mv_verts _ _ _ _ Hmv) by set_solver. f_equal. by apply vv_sbf.
  - intros u e Hu Hv Eu a b Ep. apply (mv_valid _ _ _ _ Hmv) in Hv. rewrite (mv_undir _ _ _ _ Hmv) in Eu by apply Hv. rewrite (mv_pair _ _ _ _ Hmv) in Ep by apply Hv. apply (inj Some) in Eu, Ep. subst e.
    pose proof (A5 u Hu (proj2 Hv)) as H. unfold ekey, pair2 in H. rewrite Ep in H. done.
Qed.
Print Assumptions C61_take_out.

(** A tet of a mesh with six vertices is taken out and put back. *)
Definition ex_ops7 : list (op Z) := OTrack true :: ex_ops5.
Lemma ex7_ok : mesh_ok (ex ex_ops7) ∧ m_track (ex ex_ops7) = true.
Proof. split; [apply reachable_ok, ex_reachable; vm_compute; reflexivity|vm_compute; reflexivity]. Qed.
Definition ex7_check (s : mesh Z () * gmap (N * N) N) : bool :=
  let '(m, em) := s in let q := [4; 5; 2; 0]%N in
  forallb (λ w, match w_tri m w with Some t => bool_decide (t ∉ tet_tris 4 5 2 0) | None => true end) (IterProofs.all_walkers m) &&
  forallb (λ a, match im_get (m_verts m) a with Some _ => true | None => false end) q &&
  forallb (λ a, forallb (λ b, bool_decide (a = b) || match em !! sorted_2 (a, b) with
    Some e => match im_get (m_edges m) e with Some ue => bool_decide (ue_vs ue = sorted_2 (a, b)) | None => false end | None => false end) q) q &&
  bool_decide (im_npi (m_tets m) < u32_mod)%N && bool_decide (im_npi (m_edges m) + 6 ≤ u32_mod)%N && negb (has_trib m 4 5 2) && has_trib m 5 4 2.
Example C61_witness : let m := ex ex_ops7 in ∃ m1 em1 m2 em2 w, take_out 5 false (m, ∅) (2%N, 4%N) = Some (m1, em1) ∧ open_mesh m1 ∧
  has_tri m 4 5 2 ∧ ¬ has_tri m1 4 5 2 ∧ has_tri m1 5 4 2 ∧ insert_tet () m1 (A4 4 5 2 0)%N em1 = Some (m2, em2, w) ∧ tet_inserted () m1 4 5 2 0 m2 w ∧
  to_adj m2 w = Some (Walker 10 5).
Proof.
  cbv zeta. destruct ex7_ok as [Hok Htr]. pose proof (C61_closed _ Hok Htr) as Ho.
  destruct (C61_take_out (ex ex_ops7) ∅ 5 2 4 (Walker 5 7) (Walker 10 5) 0 Ho) as (m1 & em1 & E1 & Ho1 & _ & _ & _);
    [split; vm_compute; [eauto|lia]|vm_compute; reflexivity..|split; vm_compute; [eauto|lia]|vm_compute; reflexivity|].
  assert (ex7_check <$> take_out 5 false (ex ex_ops7, ∅) (2%N, 4%N) = Some true) as Hc by (vm_compute; reflexivity).
  assert ((s ← take_out 5 false (ex ex_ops7, ∅) (2%N, 4%N); r ← insert_tet () s.1 (A4 4 5 2 0)%N s.2; to_adj r.1.1 r.2) = Some (Walker 10 5)) as Hc2 by (vm_compute; reflexivity).
  assert (has_tri (ex ex_ops7) 4 5 2) as Ht by (apply has_trib_spec; vm_compute; reflexivity).
  remember (take_out 5 false (ex ex_ops7, ∅) (2%N, 4%N)) as o eqn:Eo. clear Eo Hok Htr Ho. generalize dependent (ex ex_ops7). intros m Ht.
  rewrite E1 in Hc. cbn [fmap option_fmap option_map] in Hc. apply (inj Some) in Hc. unfold ex7_check in Hc. rewrite !andb_true_iff, !forallb_forall, !bool_decide_eq_true, negb_true_iff in Hc.
  destruct Hc as ((((((C1 & C2) & C3) & C4) & C5) & C6) & C7).
  destruct (C61_insert (λ a b, a ∈ [4; 5; 2; 0]%N ∧ b ∈ [4; 5; 2; 0]%N) () m1 em1 4 5 2 0 Ho1) as (m2 & em2 & w & E2 & Hi & _); [| |intros u v Hu Hv _; split; [exact Hu|exact Hv]| | |exact C4|exact C5|].
  - apply (bool_decide_unpack _). vm_compute. exact I.
  - intros v Hv%elem_of_list_In%C2. destruct (im_get (m_verts m1) v); [by eexists|done].
  - intros u t Hu Et Hin. apply (IterProofs.elem_of_all_walkers _ _ (om_ids_tets _ Ho1)), elem_of_list_In, C1 in Hu. rewrite Et in Hu. apply bool_decide_eq_true in Hu. exact (Hu Hin).
  - intros a b e [Ha Hb] Hab. apply elem_of_list_In, C3 in Ha. rewrite forallb_forall in Ha. apply elem_of_list_In, Ha in Hb. rewrite bool_decide_eq_false_2 in Hb by done. cbn [orb] in Hb.
    destruct (em1 !! sorted_2 (a, b)) as [e0|]; [|done]. destruct (im_get (m_edges m1) e0) as [ue0|] eqn:Ee; [|done]. apply bool_decide_eq_true in Hb. split.
    + intros [= <-]. by exists ue0.
    + intros (ue & A & B). f_equal. eapply (om_edge_unique _ Ho1); [exact Ee|exact A|congruence].
  - exists m1, em1, m2, em2, w. split; [done|]. split; [done|]. split; [done|].
    split; [intros H%has_trib_spec; congruence|]. split; [by apply has_trib_spec|]. split; [done|]. split; [done|].
    rewrite E1 in Hc2. cbn [mbind option_bind fst snd] in Hc2. by rewrite E2 in Hc2.
Qed.

(** ** C62 *)
(** The shell transform on a ring of tets around the edge [vt vb]: the edge goes, and the tets on the triangles take the place
    of the ring. *)
Theorem C62_shell {V T} (dflt : T) (m : mesh V T) v_side vt vb tris : mesh_ok m → m_track m = true → NoDup v_side → 3 ≤ length v_side →
  replaceable m (side_tets vt vb (ring_sides v_side)) (tri_tets vt vb tris) [(vt, vb); (vb, vt)] →
  (im_npi (m_tets m) + 2 * N.of_nat (length tris) ≤ u32_mod)%N → (im_npi (m_edges m) + 12 * N.of_nat (length tris) ≤ u32_mod)%N →
  ∃ m', shell_transform dflt m v_side vt vb tris = Some m' ∧
    replaced dflt m (side_tets vt vb (ring_sides v_side)) (tri_tets vt vb tris) [(vt, vb); (vb, vt)]
      ((λ e : N * N, (vt, e.2, e.1)) <$> ring_sides v_side) (tris ≫= λ t, [t; swap3 t])
      (ring_sides v_side ≫= λ e : N * N, [(e.2, vt); (vt, e.1)]) (tris ≫= edges_of) m' ∧
    (im_npi (m_tets m') ≤ im_npi (m_tets m) + 2 * N.of_nat (length tris))%N ∧ (im_npi (m_edges m') ≤ im_npi (m_edges m) + 12 * N.of_nat (length tris))%N.
Proof. apply shell_s. Qed.
Print Assumptions C62_shell.

(** The cap transform on a path of tets at the edge [vt vb]: the edge stays, in the new tet that closes the path. *)
Theorem C62_cap {V T} (dflt : T) (m : mesh V T) v_side vt vb tris first last : mesh_ok m → m_track m = true → NoDup v_side →
  head v_side = Some first → stdpp.list.last v_side = Some last →
  replaceable m (side_tets vt vb (path_sides v_side)) (A4 first last vt vb :: tri_tets vt vb tris) [] →
  (im_npi (m_tets m) + 1 + 2 * N.of_nat (length tris) ≤ u32_mod)%N → (im_npi (m_edges m) + 6 + 12 * N.of_nat (length tris) ≤ u32_mod)%N →
  ∃ m', cap_transform dflt m v_side vt vb tris = Some m' ∧
    replaced dflt m (side_tets vt vb (path_sides v_side)) (A4 first last vt vb :: tri_tets vt vb tris) []
      ((λ e : N * N, (vt, e.2, e.1)) <$> path_sides v_side) (tris ≫= λ t, [t; swap3 t])
      (path_sides v_side ≫= λ e : N * N, [(e.2, vt); (vt, e.1)]) (tris ≫= edges_of) m' ∧
    (im_npi (m_tets m') ≤ im_npi (m_tets m) + 1 + 2 * N.of_nat (length tris))%N ∧ (im_npi (m_edges m') ≤ im_npi (m_edges m) + 6 + 12 * N.of_nat (length tris))%N.
Proof. apply cap_s. Qed.
Print Assumptions C62_cap.

Lemma valid_locked {V T} (m : mesh V T) w : valid m w → ∃ b, w_locked m w = Some b.
Proof. intros [[t Ht] _]. unfold w_locked. rewrite Ht. cbn. by eexists. Qed.
(** Triangles stay locked from both sides or from neither, if none is locked among those around the tets replaced except for
    the ones at the top. *)
Theorem C62_locks {V T} (dflt : T) (m m' : mesh V T) sides vt vb new gone tris fedges ledges : mesh_ok m →
  replaced dflt m (side_tets vt vb sides) new gone ((λ e : N * N, (vt, e.2, e.1)) <$> sides) (tris ≫= λ t, [t; swap3 t]) fedges ledges m' →
  (∀ t, t ∈ side_tets vt vb sides ≫= tris_of → locked_tri m t → t ∈ ((λ e : N * N, (e.2, vt, e.1)) <$> sides) ≫= rots3) →
  ∀ w w', valid m' w → to_adj m' w = Some w' → w_locked m' w' = w_locked m' w.
Proof.
  intros Hok Hrd Hlk.
  assert (∀ t u, t ∈ rots3 u → swap3 t ∈ rots3 (swap3 u)) as Hrs.
  { intros [[a b] c] [[x y] z]. unfold rots3, swap3. cbn. rewrite !elem_of_cons, !elem_of_nil. naive_solver. }
  assert (∀ t, locked_tri m t → locked_tri m (swap3 t)) as Hsym.
  { intros [[a b] c] (w & Hw & E & Hl). destruct (w_verts m w) as [[x y z d]|] eqn:Ev; [|destruct (valid_verts m w Hw) as (? & ? & ? & ? & ?); congruence].
    destruct (ok_adj _ Hok w _ _ _ _ Hw Ev) as (w' & x' & A & B & C & D). exists w'. split; [done|]. rewrite (ok_lock _ Hok w w' Hw A). split; [|done].
    apply tri_of_verts in Ev. rewrite E in Ev. injection Ev as -> -> ->. by apply tri_of_verts in C. }
  assert (∀ t, locked_tri m' t → locked_tri m' (swap3 t)) as Hsym'.
  { intros t. rewrite !(rd_lock_tri _ _ _ _ _ _ _ _ _ _ Hrd). intros [H|(H & N1 & N2)].
    - left. apply elem_of_list_bind in H as (u & A & B). apply elem_of_list_bind in B as (v & B & C). apply elem_of_list_bind. exists (swap3 u). split; [by apply Hrs|]. apply elem_of_list_bind. exists v. split; [|done].
      rewrite !elem_of_cons, elem_of_nil in *. destruct B as [->|[->|[]]]; [tauto|rewrite swap_swap; tauto].
    - right. pose proof (Hsym _ H) as Hs. split; [done|]. split.
      + intros Hi. specialize (Hlk _ Hi Hs). apply N2. apply elem_of_list_bind in Hlk as (u & A & B). apply elem_of_list_fmap in B as (e & -> & He). apply elem_of_list_bind. exists (vt, e.2, e.1). split; [|apply elem_of_list_fmap; by exists e].
        apply Hrs in A. by rewrite swap_swap in A.
      + intros Hi. apply N1. apply elem_of_list_bind in Hi as (u & A & B). apply elem_of_list_fmap in B as (e & -> & He). apply Hrs in A. rewrite swap_swap in A. apply elem_of_list_bind. exists (A4 e.2 vt e.1 vb). split; [|apply elem_of_list_fmap; by exists e].
        unfold rots3, swap3 in A. cbn in A. unfold tris_of, tet_tris. cbn [q0 q1 q2 q3]. rewrite !elem_of_cons in A. rewrite elem_of_nil in A. rewrite !elem_of_cons. clear -A. destruct A as [->|[->|[->|[]]]]; tauto. }
  intros w w' Hw Ha. pose proof (rd_open _ _ _ _ _ _ _ _ _ _ Hrd) as Ho.
  destruct (valid_verts m' w Hw) as (a & b & c & d & Ev). destruct (rd_adj _ _ _ _ _ _ _ _ _ _ Hrd w a b c d Hw Ev) as (w1 & x & A & B & C & _). rewrite Ha in A. injection A as <-.
  destruct (valid_locked m' w Hw) as (l1 & L1). destruct (valid_locked m' w' B) as (l2 & L2). rewrite L1, L2. f_equal.
  pose proof (tri_of_verts _ _ _ _ _ _ Ev) as T1. pose proof (tri_of_verts _ _ _ _ _ _ C) as T2.
  assert (∀ u u' l l' t, valid m' u → valid m' u' → w_tri m' u = Some t → w_tri m' u' = Some (swap3 t) → w_locked m' u = Some l → w_locked m' u' = Some l' → l = true → l' = true) as Hg.
  { intros u u' l l' t V1 V2 E1 E2 F1 F2 ->. destruct (Hsym' t) as (v & Hv & Ev' & Hl); [by exists u|]. assert (v = u') as -> by by eapply (om_tri_unique _ Ho). congruence. }
  pose proof (Hg w w' l1 l2 _ Hw B T1 T2 L1 L2). pose proof (Hg w' w l2 l1 _ B Hw T2 T1 L2 L1). destruct l1, l2; naive_solver.
Qed.
Print Assumptions C62_locks.

(** A triangle locked below the polygon ends up locked from one side only. *)
Definition ex_ops8 : list (op Z) := ex_ops7 ++ [OLockTri (Walker 5 2) true].
Theorem C62_locks_refuted : ¬ ∀ (m : mesh Z ()) v_side vt vb tris m', mesh_ok m → m_track m = true → NoDup v_side → 3 ≤ length v_side →
  replaceable m (side_tets vt vb (ring_sides v_side)) (tri_tets vt vb tris) [(vt, vb); (vb, vt)] →
  shell_transform () m v_side vt vb tris = Some m' →
  ∀ w w', valid m' w → to_adj m' w = Some w' → w_locked m' w' = w_locked m' w.
Proof.
  intros H. assert (mesh_ok (ex ex_ops8)) as Hok by (apply reachable_ok, ex_reachable; vm_compute; reflexivity).
  assert ((m' ← shell_transform () (ex ex_ops8) [2; 4; 3]%N 5 0 [(2, 4, 3)]%N; w' ← to_adj m' (Walker 7 1); Some (validb m' (Walker 7 1), w_locked m' (Walker 7 1), w_locked m' w')) = Some (true, Some true, Some false)) as Hc by (vm_compute; reflexivity).
  assert (replaceable (ex ex_ops8) (side_tets 5 0 (ring_sides [2; 4; 3])) (tri_tets 5 0 [(2, 4, 3)]) [(5, 0); (0, 5)])%N as Hrp.
  { apply replaceableb_spec; [apply (ok_ids_tets _ Hok)|]. vm_compute. reflexivity. }
  assert (m_track (ex ex_ops8) = true) as Htr by (vm_compute; reflexivity).
  assert (NoDup [2; 4; 3]%N) as Hnd by (apply (bool_decide_unpack _); vm_compute; exact I).
  revert Hok Hc Hrp Htr. generalize (ex ex_ops8). intros m Hok Hc Hrp Htr.
  destruct (shell_transform () m [2; 4; 3]%N 5 0 [(2, 4, 3)]%N) as [m'|] eqn:E; [|discriminate]. cbn [mbind option_bind] in Hc.
  destruct (to_adj m' (Walker 7 1)) as [w'|] eqn:Ea; [|discriminate]. cbn [mbind option_bind] in Hc. injection Hc as C1 C2 C3.
  rewrite (H m [2; 4; 3]%N 5%N 0%N [(2, 4, 3)]%N m' Hok Htr Hnd (le_n 3) Hrp E (Walker 7 1) w' (proj1 (validb_spec _ _) C1) Ea) in C3. congruence.
Qed.
Print Assumptions C62_locks_refuted.

(** Three tets around an edge become two, and two tets at a triangle become three. *)
Definition ex_ops9 : list (op Z) := OTrack true :: take 2 ex_ops5.
Example C62_witness :
  (let m := ex ex_ops7 in mesh_ok m ∧ m_track m = true ∧ replaceable m (side_tets 5 0 (ring_sides [2; 4; 3])) (tri_tets 5 0 [(2, 4, 3)]) [(5, 0); (0, 5)] ∧
   (∀ t, t ∈ side_tets 5 0 (ring_sides [2; 4; 3]) ≫= tris_of → locked_tri m t → t ∈ ((λ e : N * N, (e.2, 5, e.1)) <$> ring_sides [2; 4; 3]) ≫= rots3) ∧
   (m' ← shell_transform () m [2; 4; 3] 5 0 [(2, 4, 3)]; Some (joinedb m 5 0, joinedb m' 5 0, has_trib m 2 4 3, has_trib m' 2 4 3)) = Some (true, false, false, true))%N ∧
  (let m := ex ex_ops9 in mesh_ok m ∧ m_track m = true ∧ replaceable m (side_tets 3 4 (path_sides [0; 2; 5])) (A4 0 5 3 4 :: tri_tets 3 4 [(0, 2, 5)]) [] ∧
   (m' ← cap_transform () m [0; 2; 5] 3 4 [(0, 2, 5)]; Some (joinedb m 0 5, joinedb m' 0 5, has_trib m' 0 2 5)) = Some (false, true, true))%N.
Proof.
  split.
  - cbv zeta. destruct ex7_ok as [Hok Htr]. split; [exact Hok|]. split; [exact Htr|]. split; [apply replaceableb_spec; [apply (ok_ids_tets _ Hok)|]; vm_compute; reflexivity|]. split; [|vm_compute; reflexivity].
    intros t _ (w & Hw & _ & Hl). exfalso. assert (forallb (λ w, bool_decide (w_locked (ex ex_ops7) w ≠ Some true)) (IterProofs.all_walkers (ex ex_ops7)) = true) as Hc by (vm_compute; reflexivity).
    rewrite forallb_forall in Hc. apply (IterProofs.elem_of_all_walkers _ _ (ok_ids_tets _ Hok)), elem_of_list_In, Hc, bool_decide_eq_true in Hw. exact (Hw Hl).
  - assert (mesh_ok (ex ex_ops9)) as Hok by (apply reachable_ok, ex_reachable; vm_compute; reflexivity). cbv zeta. split; [exact Hok|]. split; [vm_compute; reflexivity|].
    split; [apply replaceableb_spec; [apply (ok_ids_tets _ Hok)|]; vm_compute; reflexivity|vm_compute; reflexivity].
Qed.
