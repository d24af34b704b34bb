(** Between operations the working flags of edges and vertices are off. *)
From stdpp Require Import base numbers list gmap option.
From Coq Require Import NArith ZArith Lia.
From Verif Require Import IdMapModel IdMapSpec WalkerModel MeshModel MeshOps MeshSpec HistSpec Reach IterModel CavSpec CavClean InsSpec.
Local Open Scope nat_scope.

Section calm.
  Context {V T : Type}.
  Implicit Types (m : mesh V T) (w : walker).

  Definition calm_edge (ue : uedge) : Prop := ue_boundary ue = false ∧ w_tet (ue_bw ue) = invalid_id.
  Definition calm m : Prop := (∀ e ue, im_slots (m_edges m) !! e = Some ue → calm_edge ue) ∧
    (∀ v vt, v ≠ GHOST → im_slots (m_verts m) !! v = Some vt → vf_edge_added (v_flags vt) = false) ∧ vf_edge_added (m_ghost_flags m) = false.

  Lemma calm_same m m' : m_edges m' = m_edges m → m_verts m' = m_verts m → m_ghost_flags m' = m_ghost_flags m → calm m → calm m'.
  Proof. unfold calm. by intros -> -> ->. Qed.
  Lemma calm_upd m id f m' : tet_upd m id f = Some m' → calm m → calm m'.
  Proof. unfold tet_upd. intros (t & _ & H)%bind_Some. apply bind_Some in H as (ts & _ & H). injection H as <-. by apply calm_same. Qed.
  Lemma calm_insert m t m' id : tet_insert m t = (m', id) → calm m → calm m'.
  Proof. unfold tet_insert. destruct (im_insert _ _). intros [= <- <-]. by apply calm_same. Qed.
  Lemma calm_vref m v w : calm m → calm (vert_ref m v w).
  Proof.
    intros (H1 & H2 & H3). unfold vert_ref, im_set, im_get. destruct (im_slots (m_verts m) !! v) as [vt|] eqn:Ev; [|done]. cbn.
    split; [done|]. split; [|done]. cbn.
    intros x vt' Hg Hx. apply lookup_insert_Some in Hx as [[<- <-]|[_ Hx]]; [by apply (H2 v vt)|by apply (H2 x vt')].
  Qed.
  Lemma calm_vref_idx m v w m' : vert_ref_idx m v w = Some m' → calm m → calm m'.
  Proof. unfold vert_ref_idx. destruct (im_get (m_verts m) v); [|done]. intros [= <-]. apply calm_vref. Qed.
  Lemma calm_fold {A} (f : mesh V T → A → option (mesh V T)) l : (∀ m a m', f m a = Some m' → calm m → calm m') →
    ∀ m m', mfoldl f l m = Some m' → calm m → calm m'.
  Proof.
    intros Hf. induction l as [|a l IH]; intros m m'; cbn; [by intros [= <-]|]. intros (m1 & H1 & H2)%bind_Some H. by eapply IH, Hf.
  Qed.
  Lemma calm_tri_remove m ids m' : trimap_remove_tets m ids = Some m' → calm m → calm m'.
  Proof.
    unfold trimap_remove_tets. destruct (m_track m); [|by intros [= <-]]. apply calm_fold. intros m1 id m2. apply calm_fold. intros m3 i m4 (t & _ & H)%bind_Some. injection H as <-. by apply calm_same.
  Qed.
  Lemma calm_tri_insert m ids m' : trimap_insert_tets m ids = Some m' → calm m → calm m'.
  Proof.
    unfold trimap_insert_tets. destruct (m_track m); [|by intros [= <-]]. apply calm_fold. intros m1 id m2. apply calm_fold. intros m3 i m4 (t & _ & H)%bind_Some. injection H as <-. by apply calm_same.
  Qed.
  Lemma slots_insert {A} (P : N → A → Prop) (im : idmap A) x im' k : im_insert im x = (im', k) → (∀ e, P e x) → (∀ e y, im_slots im !! e = Some y → P e y) → ∀ e y, im_slots im' !! e = Some y → P e y.
  Proof.
    unfold im_insert. destruct (vec_pop (im_free im)) as [[fr k0]|]; intros [= <- <-] Hx H e y; cbn; rewrite lookup_insert_Some; (intros [[<- <-]|[_ Hy]]; [done|by eapply H]).
  Qed.
  Lemma slots_extend {A} (P : A → Prop) (xs : list A) : Forall P xs → ∀ (im im' : idmap A) ks, im_extend_values im xs = (im', ks) →
    (∀ e y, im_slots im !! e = Some y → P y) → ∀ e y, im_slots im' !! e = Some y → P y.
  Proof.
    induction 1 as [|x xs Hx _ IH]; intros im im' ks; cbn [im_extend_values]; [by intros [= <- _]|].
    destruct (im_insert im x) as [im1 k] eqn:E1. destruct (im_extend_values im1 xs) as [im2 ks2] eqn:E2. intros [= <- _] H. eapply IH; [exact E2|]. by eapply (slots_insert (λ _, P)).
  Qed.
  Lemma calm_new_edge vs : calm_edge (uedge_new vs).
  Proof. done. Qed.
  Lemma calm_edges m vss m' es : edges_extend m vss = (m', es) → calm m → calm m'.
  Proof.
    unfold edges_extend. destruct (im_extend_values _ _) eqn:E. intros [= <- _] (H1 & H2 & H3). split; [|done]. cbn. eapply slots_extend; [|exact E|exact H1].
    apply list.Forall_forall. intros ue (vs & -> & _)%elem_of_list_fmap. apply calm_new_edge.
  Qed.
  Lemma calm_edge_insert m vs m' e : edge_insert m vs = (m', e) → calm m → calm m'.
  Proof. unfold edge_insert. destruct (im_insert _ _) eqn:E. intros [= <- _] (H1 & H2 & H3). split; [|done]. cbn. eapply (slots_insert (λ _, calm_edge)); [exact E|intros; apply calm_new_edge|exact H1]. Qed.
  Lemma calm_relink m w id b m' w' : relink m w id b = Some (m', w') → calm m → calm m'.
  Proof.
    unfold relink. intros (x & _ & H)%bind_Some. apply bind_Some in H as (t & _ & H). apply bind_Some in H as (m1 & H1 & H). injection H as <- <-. by eapply calm_upd.
  Qed.
  Lemma calm_copy_edge m id k w m' : copy_edge m id k w = Some m' → calm m → calm m'.
  Proof. unfold copy_edge. intros (e & _ & H)%bind_Some. by eapply calm_upd. Qed.
  Lemma calm_copy_lock m id k w m' : copy_lock m id k w = Some m' → calm m → calm m'.
  Proof. unfold copy_lock. intros (b & _ & H)%bind_Some. destruct b; [|by injection H as <-]. by eapply calm_upd. Qed.
  Lemma calm_clear m id m' : clear_locks m id = Some m' → calm m → calm m'.
  Proof. unfold clear_locks. apply calm_upd. Qed.

  Definition prs {A} (p : A → mesh V T) (r : option A) : Prop := ∀ a, r = Some a → calm (p a).
  Lemma prs_bind {A B} p (e : option A) (k : A → option B) : (∀ a, e = Some a → prs p (k a)) → prs p (e ≫= k).
  Proof. intros H b (a & Ha & Hb)%bind_Some. by apply (H a). Qed.
  Lemma prs_ret {A} p (a : A) : calm (p a) → prs p (Some a).
  Proof. by intros H b [= <-]. Qed.
  Lemma prs_assoc {A B C} (p : C → mesh V T) (e : option A) (k : A → option B) (k' : B → option C) :
    prs p (e ≫= λ a, k a ≫= k') → prs p ((e ≫= k) ≫= k').
  Proof. by destruct e. Qed.
End calm.

Ltac forward_calm :=
  match goal with
  | E : Some _ = Some _ |- _ => injection E as <-
  | E : tet_upd ?m _ _ = Some ?m' |- _ => assert (calm m') by (refine (calm_upd _ _ _ _ E _); repeat apply calm_vref; assumption); clear E
  | E : clear_locks ?m _ = Some ?m', H : calm ?m |- _ => assert (calm m') by (exact (calm_clear _ _ _ E H)); clear E H
  | E : copy_edge ?m _ _ _ = Some ?m', H : calm ?m |- _ => assert (calm m') by (exact (calm_copy_edge _ _ _ _ _ E H)); clear E H
  | E : copy_lock ?m _ _ _ = Some ?m', H : calm ?m |- _ => assert (calm m') by (exact (calm_copy_lock _ _ _ _ _ E H)); clear E H
  | E : relink ?m _ _ _ = Some (?m', _), H : calm ?m |- _ => assert (calm m') by (exact (calm_relink _ _ _ _ _ _ E H)); clear E H
  | E : trimap_remove_tets ?m _ = Some ?m', H : calm ?m |- _ => assert (calm m') by (exact (calm_tri_remove _ _ _ E H)); clear E H
  | E : trimap_insert_tets ?m _ = Some ?m', H : calm ?m |- _ => assert (calm m') by (exact (calm_tri_insert _ _ _ E H)); clear E H
  | E : vert_ref_idx ?m _ _ = Some ?m', H : calm ?m |- _ => assert (calm m') by (exact (calm_vref_idx _ _ _ _ E H)); clear E H
  | E : edges_extend ?m _ = (?m', _) |- _ => assert (calm m') by (refine (calm_edges _ _ _ _ E _); repeat apply calm_vref; assumption); clear E
  | E : edge_insert ?m _ = (?m', _) |- _ => assert (calm m') by (refine (calm_edge_insert _ _ _ _ E _); repeat apply calm_vref; assumption); clear E
  | E : tet_insert ?m ?t = (?m', _), H : calm ?m |- _ => assert (calm m') by (exact (calm_insert _ _ _ _ E H)); clear E H
  end.
Ltac step_calm :=
  match goal with
  | |- prs _ (let '(_, _) := ?e in _) => destruct e eqn:?
  | |- prs _ (match ?e with (_, _) => _ end) => destruct e eqn:?
  | |- prs _ (if ?b then _ else _) => destruct b
  | |- prs _ ((_ ≫= _) ≫= _) => apply prs_assoc
  | |- prs _ (_ ≫= _) => apply prs_bind; intros ? ?
  | |- prs _ (Some _) => apply prs_ret; cbn [fst]
  | |- prs _ None => by intros ? [=]
  end.
Ltac calm_all := repeat first [forward_calm | step_calm | assumption].

Section ops.
  Context {V T : Type}.
  Implicit Types (m : mesh V T) (w : walker).
  Lemma calm_flip14 m w v : calm m → prs fst (flip14_unchecked m w v).
  Proof. intros H. unfold flip14_unchecked. cbv zeta. cbn [mfoldl]. calm_all. Qed.
  Lemma calm_flip23 m w : calm m → prs fst (flip23_unchecked m w).
  Proof. intros H. unfold flip23_unchecked. cbv zeta. cbn [mfoldl]. calm_all. Qed.
  Lemma calm_remove m id : calm m → calm (with_tets m (im_remove (m_tets m) id).1).
  Proof. by apply calm_same. Qed.
  Lemma calm_edge_remove m e : calm m → calm (with_edges m (im_remove (m_edges m) e).1).
  Proof.
    intros (H1 & H2 & H3). split; [|done]. intros e' ue. unfold im_remove. cbn. destruct (im_slots (m_edges m) !! e) eqn:E; cbn; [|apply H1]. rewrite lookup_delete_Some. intros [_ ?]. by eapply H1.
  Qed.
  Lemma calm_flip32 m w : calm m → prs fst (flip32_unchecked m w).
  Proof.
    intros H. unfold flip32_unchecked. cbv zeta. cbn [mfoldl]. calm_all.
    match goal with E : trimap_insert_tets ?m0 _ = Some _ |- _ => refine (calm_tri_insert _ _ _ E _) end. apply calm_remove, calm_edge_remove. assumption.
  Qed.
  Lemma calm_flip23_unlocked m w : calm m → prs fst (flip23_unlocked m w).
  Proof.
    intros H. unfold flip23_unlocked. step_calm. step_calm; [by apply prs_ret|]. apply prs_bind. intros [m' ws] E. apply prs_ret. by apply (calm_flip23 m w H (m', ws)).
  Qed.
  Lemma calm_flip32_unlocked m w : calm m → prs fst (flip32_unlocked m w).
  Proof.
    intros H. unfold flip32_unlocked. do 8 step_calm. step_calm; [by apply prs_ret|]. apply prs_bind. intros [m' ws] E. apply prs_ret. by apply (calm_flip32 m w H (m', ws)).
  Qed.
  Lemma calm_flip44 m w : calm m → prs fst (flip44_unchecked m w).
  Proof.
    intros H. unfold flip44_unchecked. apply prs_bind. intros [m1 [[w0 w1] w2]] H1. pose proof (calm_flip23 _ _ H _ H1) as I1. cbn [fst] in I1.
    apply prs_bind. intros [m2 w3] H2. pose proof (calm_flip32 _ _ I1 _ H2) as I2. cbn [fst] in I2. cbv zeta. calm_all.
  Qed.
  Lemma calm_track m b : calm m → prs id (set_track_tri_map m b).
  Proof.
    intros H m'. unfold set_track_tri_map. destruct b; [|intros [= <-]; by apply (calm_same m)]. intros E. eapply calm_fold; [|exact E|by apply (calm_same m)].
    intros m1 id m2. apply calm_fold. intros m3 i m4 (t & _ & H')%bind_Some. injection H' as <-. by apply calm_same.
  Qed.
  Lemma calm_add_vertex m p v m' id : add_vertex m p v = (m', id) → calm m → calm m'.
  Proof. unfold add_vertex. destruct (im_insert _ _) eqn:E. intros [= <- _] (H1 & H2 & H3). split; [done|]. split; [|done]. cbn. intros x vt Hx Hvt. revert Hx. revert x vt Hvt. eapply (slots_insert (λ x vt, x ≠ GHOST → vf_edge_added (v_flags vt) = false)); [exact E|done|]. intros x vt ? ?. by apply (H2 x). Qed.
  Lemma calm_run_op m o m' : run_op m o = Some m' → calm m → calm m'.
  Proof.
    intros E H. destruct o as [p v|w p v|w v|w|w|w|w|w|b|w b|w b]; cbn [run_op] in E.
    - injection E as <-. destruct (add_vertex m p v) eqn:E1. by eapply calm_add_vertex.
    - destruct (add_vertex m p v) as [m1 id] eqn:E1. apply fmap_Some in E as (r & Hr & ->). eapply (calm_flip14 m1); [|done]. by eapply calm_add_vertex.
    - apply fmap_Some in E as (r & Hr & ->). by eapply (calm_flip14 m).
    - apply fmap_Some in E as (r & Hr & ->). by eapply (calm_flip23 m).
    - apply fmap_Some in E as (r & Hr & ->). by eapply (calm_flip32 m).
    - apply fmap_Some in E as (r & Hr & ->). by eapply (calm_flip44 m).
    - apply fmap_Some in E as (r & Hr & ->). by eapply (calm_flip23_unlocked m).
    - apply fmap_Some in E as (r & Hr & ->). by eapply (calm_flip32_unlocked m).
    - by apply (calm_track m b H).
    - revert m' E. change (prs id (set_tri_lock m w b)). unfold set_tri_lock. calm_all. intros m' E. forward_calm. done.
    - revert m' E. change (prs id (set_edge_lock m w b)). unfold set_edge_lock, im_set. step_calm. step_calm. rename a0 into ue. unfold im_get in *.
      rewrite H1. cbn. apply prs_ret. destruct H as (Q1 & Q2 & Q3). split; [|done]. cbn. intros e' ue' He'. apply lookup_insert_Some in He' as [[<- <-]|[_ He']]; [apply (Q1 a ue H1)|by eapply Q1].
  Qed.

  Lemma calm_rest m : idle m → calm m → at_rest m.
  Proof.
    intros Hi (H1 & H2 & H3). split.
    - by apply idle_cavity.
    - intros id t Ht. destruct (Hi id t Ht) as (_ & _ & ? & ? & _). done.
    - exact H1.
    - intros x f. unfold vertex_flags. destruct (decide (x = GHOST)); [by intros [= <-]|]. intros (vt & Hvt & ->)%fmap_Some. by apply (H2 x).
  Qed.
  Lemma rest_calm m : at_rest m → idle m ∧ calm m.
  Proof.
    intros [H1 H2 H3 H4]. split.
    - intros id t Ht. destruct (H1 id t Ht) as (? & ? & ?), (H2 id t Ht). done.
    - split; [exact H3|]. split; [|apply (H4 GHOST); done].
      intros v vt Hne Hvt. apply (H4 v). unfold vertex_flags. rewrite decide_False by done. unfold im_get. by rewrite Hvt.
  Qed.

  Lemma calm_new sim ctr ps (d : T) m : mesh_new sim ctr ps d = Some m → calm m.
  Proof.
    destruct ps as [[a0 b0] [a1 b1] [a2 b2] [a3 b3]].
    assert (match mesh_new sim ctr (A4 (a0, b0) (a1, b1) (a2, b2) (a3, b3)) d with
            | Some m => forallb (λ ke : N * uedge, negb (ue_boundary ke.2) && N.eqb (w_tet (ue_bw ke.2)) invalid_id) (map_to_list (im_slots (m_edges m))) &&
                forallb (λ kv : N * vertex V, negb (vf_edge_added (v_flags kv.2))) (map_to_list (im_slots (m_verts m))) && negb (vf_edge_added (m_ghost_flags m))
            | None => false end = true) as H.
    { clear. unfold mesh_new. cbn [get4 fst q0 q1 q2 q3]. destruct (sim _ _ _ _); vm_compute; reflexivity. }
    intros E. rewrite E in H. apply andb_true_iff in H as [[H1 H2]%andb_true_iff H3]. rewrite forallb_forall in H1, H2. split; [|split].
    - intros e ue He. specialize (H1 (e, ue)). cbn [snd] in H1. rewrite andb_true_iff, negb_true_iff, N.eqb_eq in H1. apply H1, elem_of_list_In. by apply elem_of_map_to_list.
    - intros v vt _ Hv. specialize (H2 (v, vt)). cbn [snd] in H2. rewrite negb_true_iff in H2. apply H2, elem_of_list_In. by apply elem_of_map_to_list.
    - by apply negb_true_iff.
  Qed.
  Lemma calm_reachable m : reachable m → calm m.
  Proof.
    intros (sim & ctr & ps & d & m0 & os & E & _ & Hr). apply calm_new in E. revert m0 E Hr. induction os as [|o os IH]; intros m0 E; cbn [run_ops]; [by intros [= <-]|].
    intros (m1 & H1 & H2)%bind_Some. eapply IH; [|exact H2]. by eapply calm_run_op.
  Qed.
  Lemma rest_reachable m : reachable m → at_rest m.
  Proof. intros H. apply calm_rest; [by apply idle_reachable|by apply calm_reachable]. Qed.
  Lemma rest_run_op m o m' : run_op m o = Some m' → at_rest m → at_rest m'.
  Proof. intros E [H1 H2]%rest_calm. apply calm_rest; [by eapply idle_run_op|by eapply calm_run_op]. Qed.
End ops.

(** ** A single tet is a region with a connected surface as its boundary. *)
Section single.
  Context {V T : Type}.
  Context (m : mesh V T) (Hok : mesh_ok m) (id : N) (t : tet T) (Ht : tet_get m id = Some t).
  Implicit Types (u : walker).

  Lemma single_on u : on_boundary m [id] u ↔ w_tet u = id ∧ w_edge u < 12.
  Proof.
    split.
    - intros [[_ H] [Hin _]]. by apply elem_of_list_singleton in Hin.
    - intros [E Hu]. assert (valid m u) as Hv by (split; [rewrite E, Ht; eauto|done]). split; [done|]. split; [by rewrite E, elem_of_list_singleton|].
      destruct (w_verts m u) as [[a b c d]|] eqn:Ev.
      + destruct (adj_spec m u a b c d Hok Hv Ev) as (w' & x & A1 & _ & _ & _ & Hne). exists w'. split; [done|]. rewrite elem_of_list_singleton. congruence.
      + exfalso. clear -Ev E Ht. unfold w_verts, w_first, w_second, w_third, w_fourth in Ev. rewrite E, Ht in Ev. done.
  Qed.

  Definition turn1 (u : walker) : walker := to_nfe (to_twin_edge u).
  Lemma single_pair u : w_tet u = id → w_pair m u = Some (get4 (t_vs t) (first_idx (w_edge u)), get4 (t_vs t) (second_idx (w_edge u))).
  Proof. intros E. unfold w_pair, w_first, w_second. by rewrite E, Ht. Qed.
  Lemma single_first u : w_tet u = id → w_first m u = Some (get4 (t_vs t) (first_idx (w_edge u))).
  Proof. intros E. unfold w_first. by rewrite E, Ht. Qed.
  Lemma get4_inj i j : i < 4 → j < 4 → get4 (t_vs t) i = get4 (t_vs t) j → i = j.
  Proof.
    assert (valid m (Walker id 3)) as Hv by (split; [cbn; rewrite Ht; eauto|cbn; lia]).
    destruct (t_vs t) as [a b c d] eqn:E.
    assert (w_verts m (Walker id 3) = Some (A4 a b c d)) as Ev.
    { unfold w_verts, w_first, w_second, w_third, w_fourth. cbn [w_tet]. rewrite Ht. cbn. by rewrite E. }
    pose proof (ok_distinct _ Hok _ _ _ _ _ Hv Ev) as Hd. apply stdpp.list.NoDup_cons in Hd as [D1 Hd]. apply stdpp.list.NoDup_cons in Hd as [D2 Hd]. apply stdpp.list.NoDup_cons in Hd as [D3 _].
    apply not_elem_of_cons in D1 as [? D1]. apply not_elem_of_cons in D1 as [? D1]. apply not_elem_of_cons in D1 as [? _].
    apply not_elem_of_cons in D2 as [? D2]. apply not_elem_of_cons in D2 as [? _]. apply not_elem_of_cons in D3 as [? _].
    intros Hi Hj. do 4 (destruct i as [|i]; [do 4 (destruct j as [|j]; [cbn; intros; first [done|exfalso; intuition congruence]|]); lia|]). lia.
  Qed.
  Lemma idx_lt (e : nat) : e < 12 → first_idx e < 4 ∧ second_idx e < 4.
  Proof. intros H. do 12 (destruct e as [|e]; [vm_compute; lia|]). lia. Qed.
  Lemma single_around u : on_boundary m [id] u → around m [id] u (turn1 u).
  Proof.
    intros Hu. exists (to_twin_edge u), (get4 (t_vs t) (first_idx (w_edge u))), (get4 (t_vs t) (second_idx (w_edge u))).
    apply single_on in Hu as Hu'. destruct Hu' as [E He].
    assert (w_edge (to_twin_edge u) < 12 ∧ first_idx (w_edge (to_twin_edge u)) = second_idx (w_edge u) ∧ second_idx (w_edge (to_twin_edge u)) = first_idx (w_edge u)) as (H1 & H2 & H3).
    { destruct u as [i e]. cbn [w_edge to_twin_edge] in *. clear -He. do 12 (destruct e as [|e]; [vm_compute; lia|]). lia. }
    split; [done|]. split; [by apply single_on|]. split; [by apply single_pair|]. split; [|done].
    rewrite single_pair by done. by rewrite H2, H3.
  Qed.
  Lemma single_turn u : on_boundary m [id] u → on_boundary m [id] (turn1 u).
  Proof.
    rewrite !single_on. intros [E He]. split; [done|]. apply Nat.mod_upper_bound. lia.
  Qed.
  Lemma single_nfe u : on_boundary m [id] u → on_boundary m [id] (to_nfe u).
  Proof. rewrite !single_on. intros [E He]. split; [done|]. apply Nat.mod_upper_bound. lia. Qed.

  Lemma single_surface : surface m [id].
  Proof.
    split.
    - intros u u' p Hu Hu' E E'. apply single_on in Hu as [A1 A2], Hu' as [B1 B2]. rewrite single_pair in E, E' by done.
      destruct (idx_lt _ A2), (idx_lt _ B2). assert (first_idx (w_edge u) = first_idx (w_edge u') ∧ second_idx (w_edge u) = second_idx (w_edge u')) as [E1 E2].
      { split; apply get4_inj; try done; congruence. }
      destruct u as [i e], u' as [i' e']. cbn [w_tet w_edge] in *. subst i i'. f_equal. clear -A2 B2 E1 E2.
      do 12 (destruct e as [|e]; [do 12 (destruct e' as [|e']; [vm_compute in *; first [done|exfalso; lia]|]); exfalso; lia|]). exfalso; lia.
    - intros u u' a Hu Hu' E E'. pose proof Hu as Hu0. apply single_on in Hu as [A1 A2], Hu' as [B1 B2]. rewrite single_first in E, E' by done.
      destruct (idx_lt _ A2), (idx_lt _ B2). assert (first_idx (w_edge u) = first_idx (w_edge u')) as E1 by (apply get4_inj; try done; congruence).
      assert (u' = u ∨ u' = turn1 u ∨ u' = turn1 (turn1 u)) as [->|[->| ->]].
      { destruct u as [i e], u' as [i' e']. cbn [w_tet w_edge] in *. subst i i'. clear -A2 B2 E1.
        do 12 (destruct e as [|e]; [do 12 (destruct e' as [|e']; [first [discriminate E1 | vm_compute; auto]|]); exfalso; lia|]). exfalso; lia. }
      + done.
      + apply rtc_once. left. by apply single_around.
      + etrans; apply rtc_once; left; apply single_around; [done|by apply single_turn].
    - set (R := λ x y, around m [id] x y ∨ (on_boundary m [id] x ∧ y = to_nfe x)).
      assert (∀ ws u, on_boundary m [id] u → rtsc R u (fold_left (λ u (b : bool), if b then turn1 u else to_nfe u) ws u)) as Hw.
      { induction ws as [|b ws IH]; intros u Hu; [done|]. cbn [fold_left]. etrans; [|apply IH; destruct b; [by apply single_turn|by apply single_nfe]].
        apply rtc_once. left. unfold R. destruct b; [left; by apply single_around|by right]. }
      assert (∀ u, on_boundary m [id] u → rtsc R (Walker id 0) u) as Hr.
      { intros u Hu. apply single_on in Hu as [A1 A2].
        set (words := [[]; [true; false; false]; [true; true; false]; [true; false; true]; [false]; [true]; [true; true; false; false]; [true; true; false; true]; [false; false]; [true; false]; [true; true]; [false; true]]).
        assert (u = fold_left (λ u (b : bool), if b then turn1 u else to_nfe u) (nth (w_edge u) words []) (Walker id 0)) as ->.
        { destruct u as [i e]. cbn [w_tet w_edge] in *. subst i. clear -A2. do 12 (destruct e as [|e]; [reflexivity|]). exfalso; lia. }
        apply Hw, single_on. cbn. split; [done|lia]. }
      intros u u' Hu Hu'. etrans; [|by apply Hr]. symmetry. by apply Hr.
  Qed.
End single.
