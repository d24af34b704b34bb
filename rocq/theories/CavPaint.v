(** The flags of a cavity search as sets of triangles and tets. *)
From Coq Require Import NArith ZArith Lia.
From stdpp Require Import base numbers list gmap option relations.
From Verif Require Import IdMapModel IdMapProofs WalkerModel WalkerSpec WalkerProofs WalkerMore MeshModel MeshSpec MeshOps MeshViews CavModel CavSpec.
Local Open Scope nat_scope.

Section paint.
  Context {V T : Type}.
  Implicit Types (m : mesh V T) (w : walker) (I L : gset (N * nat)) (K : gset N).

  Definition four I (id : N) : arr4 bool :=
    A4 (bool_decide ((id, 0) ∈ I)) (bool_decide ((id, 1) ∈ I)) (bool_decide ((id, 2) ∈ I)) (bool_decide ((id, 3) ∈ I)).
  Definition paint_tet I L K (id : N) (t : tet T) : tet T :=
    let f := t_flags t in
    set_flags (TFlags (f_locked f) (four I id) (four L id) (f_boundary f) (f_wfv f) (f_dup f) (bool_decide (id ∈ K))) t.
  Definition paint m I L K : mesh V T :=
    with_tets m (IdMap (map_imap (λ id t, Some (paint_tet I L K id t)) (im_slots (m_tets m))) (im_npi (m_tets m)) (im_free (m_tets m))).

  Lemma paint_get m I L K id : tet_get (paint m I L K) id = paint_tet I L K id <$> tet_get m id.
  Proof. unfold tet_get, im_get, paint. cbn. rewrite map_lookup_imap. by destruct (im_slots (m_tets m) !! id). Qed.

  Lemma paint_none m : no_cavity_flags m → paint m ∅ ∅ ∅ = m.
  Proof.
    intros H. destruct m as [vs gf es ts tm tr ce]. unfold paint, with_tets. cbn. f_equal. destruct ts as [sl n fr]. cbn. f_equal.
    apply map_eq. intros id. rewrite map_lookup_imap. destruct (sl !! id) as [t|] eqn:E; [|done]. cbn. f_equal.
    destruct (H id t E) as (H1 & H2 & H3). destruct t as [tv to te tf tx]. unfold paint_tet, set_flags. cbn in *. f_equal.
    destruct tf as [f1 f2 f3 f4 f5 f6 f7]. cbn in *. subst. done.
  Qed.

  Lemma paint_upd m I L K I' L' K' id f : is_Some (tet_get m id) →
    (∀ t, f (paint_tet I L K id t) = paint_tet I' L' K' id t) →
    (∀ id', id' ≠ id → four I id' = four I' id' ∧ four L id' = four L' id' ∧ (id' ∈ K ↔ id' ∈ K')) →
    tet_upd (paint m I L K) id f = Some (paint m I' L' K').
  Proof.
    intros [t Ht] Hf Hd. unfold tet_upd. rewrite paint_get, Ht. cbn [fmap option_fmap option_map mbind option_bind].
    unfold im_set. change (im_get (m_tets (paint m I L K)) id) with (tet_get (paint m I L K) id). rewrite paint_get, Ht.
    cbn [fmap option_fmap option_map mbind option_bind]. f_equal. unfold paint, with_tets. cbn. f_equal. f_equal.
    apply map_eq. intros id'. destruct (decide (id' = id)) as [->|Hne].
    - rewrite lookup_insert, map_lookup_imap. unfold tet_get, im_get in Ht. rewrite Ht. cbn. by rewrite Hf.
    - rewrite lookup_insert_ne by done. rewrite !map_lookup_imap. destruct (im_slots (m_tets m) !! id') as [t'|]; [|done]. cbn.
      destruct (Hd id' Hne) as (H1 & H2 & H3). unfold paint_tet. rewrite H1, H2. do 3 f_equal. by apply bool_decide_ext.
  Qed.

  Definition upd (b : bool) I (f : N * nat) : gset (N * nat) := if b then {[f]} ∪ I else I ∖ {[f]}.
  Lemma elem_upd b I f g : g ∈ upd b I f ↔ if decide (g = f) then b = true else g ∈ I.
  Proof. unfold upd. destruct b; destruct (decide (g = f)); set_solver. Qed.
  Lemma four_upd_ne b I f id : id ≠ f.1 → four (upd b I f) id = four I id.
  Proof.
    intros H. unfold four. f_equal; apply bool_decide_ext; rewrite elem_upd; rewrite decide_False; try done; intros <-; done.
  Qed.
  Lemma four_upd b I id i : i < 4 → four (upd b I (id, i)) id = set4 (four I id) i b.
  Proof.
    intros H. unfold four.
    assert (∀ j, bool_decide ((id, j) ∈ upd b I (id, i)) = if decide (j = i) then b else bool_decide ((id, j) ∈ I)) as Hj.
    { intros j. destruct (decide (j = i)) as [->|Hn].
      - apply bool_decide_eq_true_2 || idtac. destruct b; [apply bool_decide_eq_true_2|apply bool_decide_eq_false_2]; rewrite elem_upd, decide_True; done.
      - apply bool_decide_ext. rewrite elem_upd, decide_False; [done|congruence]. }
    rewrite !Hj. destruct i as [|[|[|[|i]]]]; [..|lia]; cbn; done.
  Qed.
  Lemma four_get I id i : i < 4 → get4 (four I id) i = bool_decide ((id, i) ∈ I).
  Proof. intros H. destruct i as [|[|[|[|i]]]]; [..|lia]; done. Qed.

  Lemma put_imm_paint b m I L K w : is_Some (tet_get m (w_tet w)) → put_imm b (paint m I L K) w = Some (paint m (upd b I (side w)) L K).
  Proof.
    intros H. unfold put_imm. apply paint_upd; [done| |].
    - intros t. unfold set_imm, paint_tet, set_flags. cbn -[Nat.modulo]. unfold side. rewrite four_upd by (apply Nat.mod_upper_bound; lia). done.
    - intros id' Hne. split; [|done]. symmetry. by apply four_upd_ne.
  Qed.
  Lemma put_limit_paint b m I L K w : is_Some (tet_get m (w_tet w)) → put_limit b (paint m I L K) w = Some (paint m I (upd b L (side w)) K).
  Proof.
    intros H. unfold put_limit. apply paint_upd; [done| |].
    - intros t. unfold set_limit, paint_tet, set_flags. cbn -[Nat.modulo]. unfold side. rewrite four_upd by (apply Nat.mod_upper_bound; lia). done.
    - intros id' Hne. split; [done|]. split; [|done]. symmetry. by apply four_upd_ne.
  Qed.
  Definition updN (b : bool) K (id : N) : gset N := if b then {[id]} ∪ K else K ∖ {[id]}.
  Lemma put_notenc_paint b m I L K id : is_Some (tet_get m id) → put_notenc b (paint m I L K) id = Some (paint m I L (updN b K id)).
  Proof.
    intros H. unfold put_notenc. apply paint_upd; [done| |].
    - intros t. unfold set_notenc, paint_tet, set_flags. cbn. do 2 f_equal. destruct b; symmetry; [apply bool_decide_eq_true_2|apply bool_decide_eq_false_2]; set_solver.
    - intros id' Hne. split; [done|]. split; [done|]. destruct b; set_solver.
  Qed.

  Lemma imm_flag_paint m I L K w : is_Some (tet_get m (w_tet w)) → imm_flag (paint m I L K) w = Some (bool_decide (side w ∈ I)).
  Proof.
    intros [t H]. unfold imm_flag. rewrite paint_get, H. cbn -[Nat.modulo]. f_equal. unfold side. by rewrite four_get by (apply Nat.mod_upper_bound; lia).
  Qed.
  Lemma limit_flag_paint m I L K w : is_Some (tet_get m (w_tet w)) → limit_flag (paint m I L K) w = Some (bool_decide (side w ∈ L)).
  Proof.
    intros [t H]. unfold limit_flag. rewrite paint_get, H. cbn -[Nat.modulo]. f_equal. unfold side. by rewrite four_get by (apply Nat.mod_upper_bound; lia).
  Qed.
  Lemma notenc_flag_paint m I L K id : is_Some (tet_get m id) → notenc_flag (paint m I L K) id = Some (bool_decide (id ∈ K)).
  Proof. intros [t H]. unfold notenc_flag. by rewrite paint_get, H. Qed.

  (** Everything but the flags is as before. *)
  Lemma paint_adj_ae m I L K w : to_adj_ae (paint m I L K) w = to_adj_ae m w.
  Proof. unfold to_adj_ae. rewrite paint_get. by destruct (tet_get m (w_tet w)). Qed.
  Lemma paint_verts m I L K w : w_verts (paint m I L K) w = w_verts m w.
  Proof. unfold w_verts, w_first, w_second, w_third, w_fourth. rewrite paint_get. by destruct (tet_get m (w_tet w)). Qed.
  Lemma paint_tri m I L K w : w_tri (paint m I L K) w = w_tri m w.
  Proof. unfold w_tri, w_first, w_second, w_third. rewrite paint_get. by destruct (tet_get m (w_tet w)). Qed.
  Lemma paint_locked m I L K w : w_locked (paint m I L K) w = w_locked m w.
  Proof. unfold w_locked. rewrite paint_get. by destruct (tet_get m (w_tet w)). Qed.
  Lemma paint_elocked m I L K w : w_edge_locked (paint m I L K) w = w_edge_locked m w.
  Proof. unfold w_edge_locked, undir_edge. rewrite paint_get. by destruct (tet_get m (w_tet w)). Qed.
  Lemma paint_edge_free m I L K b w : edge_free (paint m I L K) b w = edge_free m b w.
  Proof. unfold edge_free. by rewrite paint_elocked. Qed.
  Lemma paint_keys m I L K : im_keys (m_tets (paint m I L K)) = im_keys (m_tets m).
  Proof.
    unfold im_keys, im_iter. cbn. induction (N_range 0 (im_npi (m_tets m))) as [|k l IH]; [done|]. cbn. rewrite map_lookup_imap.
    destruct (im_slots (m_tets m) !! k); cbn; [by f_equal|done].
  Qed.
  Lemma paint_sphere ins m I L K w : sphere_test ins (paint m I L K) w = sphere_test ins m w.
  Proof.
    unfold sphere_test. rewrite paint_verts. destruct (w_verts m w) as [vs|]; [|done]. cbn. case_decide; [|done].
    rewrite paint_get. destruct (tet_get m (w_tet w)) as [t|]; [|done]. cbn. destruct (ghost_pos (t_vs t)); [|done]. rewrite paint_adj_ae.
    destruct (to_adj_ae m _) as [x|]; [|done]. cbn. by rewrite paint_verts.
  Qed.
End paint.
