(** The tables of a mesh as functions, and the elementary updates on them. *)
From stdpp Require Import base numbers list gmap option relations.
From Coq Require Import NArith ZArith ZifyN ZifyNat ZifyBool Lia.
From Verif Require Import IdMapModel IdMapSpec IdMapProofs WalkerModel WalkerSpec WalkerProofs SortProofs
  MeshModel WalkerMore MeshOps MeshSpec MeshViews Surgery MeshLink MeshRun FlipBase FlipRun IterModel InsModel.
Local Open Scope nat_scope.

Section step.
  Context {V T : Type}.
  Context (tr : bool) (ctr : pt) (nv : N).
  Implicit Types (m : mesh V T) (F G : N → tet T) (w u : walker) (L : gset N) (id e : N)
    (Ed : N → option uedge) (Vt : N → option (vertex V)).

  Record st (nt ne : N) L F Ed Vt (gf : vflags) (tm : gmap (N * N * N) walker) m : Prop := St {
    st_mv : mv m L F;
    st_wft : im_wf (m_tets m);
    st_nt : (im_npi (m_tets m) ≤ nt)%N;
    st_E e : im_get (m_edges m) e = Ed e;
    st_wfe : im_wf (m_edges m);
    st_ne : (im_npi (m_edges m) ≤ ne)%N;
    st_V x : im_get (m_verts m) x = Vt x;
    st_wfv : im_wf (m_verts m);
    st_nv : im_npi (m_verts m) = nv;
    st_gf : m_ghost_flags m = gf;
    st_tm : m_trimap m = tm;
    st_tr : m_track m = tr;
    st_c : m_center m = ctr }.

  Lemma st_ext nt ne L L' F F' Ed Ed' Vt Vt' gf tm m : (∀ x, x ∈ L ↔ x ∈ L') → (∀ x, x ∈ L → F x = F' x) →
    (∀ x, Ed x = Ed' x) → (∀ x, Vt x = Vt' x) →
    st nt ne L F Ed Vt gf tm m → st nt ne L' F' Ed' Vt' gf tm m.
  Proof.
    intros HL HF HE HV [A1 A2 A3 A4 A5 A6 A7 A8 A9 A10 A11 A12 A13]. split; try done.
    - intros id. rewrite A1. destruct (decide (id ∈ L)) as [H|H].
      + rewrite decide_True by by apply HL. by rewrite HF.
      + rewrite decide_False; [done|]. by rewrite <- HL.
    - intros e. by rewrite A4.
    - intros x. by rewrite A7.
  Qed.
  Lemma st_le nt ne nt' ne' L F Ed Vt gf tm m : (nt ≤ nt')%N → (ne ≤ ne')%N →
    st nt ne L F Ed Vt gf tm m → st nt' ne' L F Ed Vt gf tm m.
  Proof. intros H1 H2 []. split; try done; lia. Qed.
  Lemma st_bound nt ne L F Ed Vt gf tm m id : st nt ne L F Ed Vt gf tm m → id ∈ L → (id < nt)%N.
  Proof.
    intros H Hid. pose proof (mv_in _ _ _ _ (st_mv _ _ _ _ _ _ _ _ _ H) Hid) as E.
    assert (id < im_npi (m_tets m))%N; [|pose proof (st_nt _ _ _ _ _ _ _ _ _ H); lia].
    apply (wf_bound _ (st_wft _ _ _ _ _ _ _ _ _ H)). by exists (F id).
  Qed.

  Lemma upd_s nt ne L F Ed Vt gf tm m id f : st nt ne L F Ed Vt gf tm m → id ∈ L →
    ∃ m', tet_upd m id f = Some m' ∧ st nt ne L (fupd F id (f (F id))) Ed Vt gf tm m'.
  Proof.
    intros [A1 A2 A3 A4 A5 A6 A7 A8 A9 A10 A11 A12 A13] Hid.
    destruct (upd_st m L F id f (conj A1 A2) Hid) as (m' & E & [B1 B2] & [C1 C2 C3 C4 C5 C6 C7]). exists m'. split; [done|].
    split; try done; try congruence.
  Qed.
  Definition eupd Ed e (ue : uedge) (x : N) : option uedge := if decide (x = e) then Some ue else Ed x.
  Lemma edge_s nt ne L F Ed Vt gf tm m e ue f : st nt ne L F Ed Vt gf tm m → Ed e = Some ue →
    ∃ m', edge_upd m e f = Some m' ∧ st nt ne L F (eupd Ed e (f ue)) Vt gf tm m'.
  Proof.
    intros [A1 A2 A3 A4 A5 A6 A7 A8 A9 A10 A11 A12 A13] He. unfold edge_upd. rewrite A4, He. cbn [mbind option_bind].
    destruct (wf_set (m_edges m) e (f ue) A5) as (es & E1 & E2 & E3). { rewrite A4, He. eauto. }
    rewrite E1. cbn [mbind option_bind]. eexists. split; [reflexivity|]. injection E3 as E3 E4.
    split; try done; cbn [m_edges with_edges].
    - intros x. unfold im_get. rewrite E3. unfold eupd. destruct (decide (x = e)) as [->|].
      + by rewrite lookup_insert.
      + rewrite lookup_insert_ne by done. apply A4.
    - by rewrite E4.
  Qed.
  Lemma put_ebound_s nt ne L F Ed Vt gf tm m w ue b : st nt ne L F Ed Vt gf tm m → w_tet w ∈ L → Ed (uv F w) = Some ue →
    ∃ m', put_ebound b m w = Some m' ∧ st nt ne L F (eupd Ed (uv F w) (set_ebound b ue)) Vt gf tm m'.
  Proof.
    intros H Hw He. unfold put_ebound. rewrite (mv_undir _ _ _ _ (st_mv _ _ _ _ _ _ _ _ _ H) Hw). cbn [mbind option_bind].
    by apply edge_s.
  Qed.
  Definition vset w (vt : vertex V) : vertex V := Vertex w (v_flags vt) (v_pos vt) (v_val vt).
  Definition vupd Vt (v : N) (f : vertex V → vertex V) (x : N) : option (vertex V) :=
    if decide (x = v) then f <$> Vt x else Vt x.
  Lemma vref_s nt ne L F Ed Vt gf tm m v w : st nt ne L F Ed Vt gf tm m →
    st nt ne L F Ed (vupd Vt v (vset w)) gf tm (vert_ref m v w).
  Proof.
    intros [A1 A2 A3 A4 A5 A6 A7 A8 A9 A10 A11 A12 A13]. unfold vert_ref. destruct (im_get (m_verts m) v) as [vt|] eqn:Ev.
    - destruct (wf_set (m_verts m) v (vset w vt) A8) as (vs & E1 & E2 & E3). { rewrite Ev. eauto. }
      unfold vset in E1. rewrite E1. injection E3 as E3 E4. split; try done; cbn [m_verts with_verts].
      + intros x. unfold im_get, vupd. rewrite E3. destruct (decide (x = v)) as [->|].
        * rewrite lookup_insert. rewrite <- A7, Ev. done.
        * rewrite lookup_insert_ne by done. apply A7.
      + by rewrite E4.
    - eapply st_ext; [..|by split]; try done. intros x. unfold vupd. destruct (decide (x = v)) as [->|]; [|done].
      by rewrite <- A7, Ev.
  Qed.
  Lemma tremove_s nt ne L F Ed Vt gf tm m id : st nt ne L F Ed Vt gf tm m →
    st nt ne (L ∖ {[id]}) F Ed Vt gf tm (with_tets m (im_remove (m_tets m) id).1).
  Proof.
    intros [A1 A2 A3 A4 A5 A6 A7 A8 A9 A10 A11 A12 A13]. pose proof (wf_remove (m_tets m) id A2) as Hr.
    destruct (im_remove (m_tets m) id) as [ts old]. destruct Hr as (E1 & _ & E3). injection E3 as E3 E4.
    split; try done; cbn [m_tets with_tets fst].
    - intros x. unfold tet_get, im_get. cbn [m_tets with_tets]. rewrite E3. destruct (decide (x = id)) as [->|].
      + rewrite lookup_delete. rewrite decide_False; [done|]. rewrite elem_of_difference, elem_of_singleton. tauto.
      + rewrite lookup_delete_ne by done. pose proof (A1 x) as Hx. unfold tet_get, im_get in Hx. rewrite Hx.
        destruct (decide (x ∈ L)) as [H|H].
        * rewrite decide_True; [done|]. rewrite elem_of_difference, elem_of_singleton. done.
        * rewrite decide_False; [done|]. rewrite elem_of_difference. tauto.
    - by rewrite E4.
  Qed.
  Lemma eremove_s nt ne L F Ed Vt gf tm m e : st nt ne L F Ed Vt gf tm m →
    st nt ne L F (λ x, if decide (x = e) then None else Ed x) Vt gf tm (with_edges m (im_remove (m_edges m) e).1).
  Proof.
    intros [A1 A2 A3 A4 A5 A6 A7 A8 A9 A10 A11 A12 A13]. pose proof (wf_remove (m_edges m) e A5) as Hr.
    destruct (im_remove (m_edges m) e) as [ts old]. destruct Hr as (E1 & _ & E3). injection E3 as E3 E4.
    split; try done; cbn [m_edges with_edges fst].
    - intros x. unfold im_get. rewrite E3. destruct (decide (x = e)) as [->|].
      + by rewrite lookup_delete.
      + rewrite lookup_delete_ne by done. apply A4.
    - by rewrite E4.
  Qed.
  Lemma tinsert_s nt ne L F Ed Vt gf tm m t : st nt ne L F Ed Vt gf tm m → (nt < u32_mod)%N →
    ∃ m' id, tet_insert m t = (m', id) ∧ id ∉ L ∧ st (nt + 1) ne ({[id]} ∪ L) (fupd F id t) Ed Vt gf tm m'.
  Proof.
    intros [A1 A2 A3 A4 A5 A6 A7 A8 A9 A10 A11 A12 A13] Hn.
    destruct (insert_st m L F t (conj A1 A2)) as (m' & id & E & B1 & [B2 B3] & B4 & B5 & C1 & C2 & C3 & C4 & C5 & C6); [lia|].
    exists m', id. split; [done|]. split; [done|]. split; try done; try congruence; try lia.
  Qed.
  Lemma einsert_s nt ne L F Ed Vt gf tm m p : st nt ne L F Ed Vt gf tm m → (ne < u32_mod)%N →
    ∃ m' e, edge_insert m p = (m', e) ∧ Ed e = None ∧ st nt (ne + 1) L F (eupd Ed e (uedge_new p)) Vt gf tm m'.
  Proof.
    intros [A1 A2 A3 A4 A5 A6 A7 A8 A9 A10 A11 A12 A13] Hn.
    destruct (insert_facts (m_edges m) (uedge_new p) A5) as (es & e & E1 & E2 & E3 & E4 & E5 & E6); [lia|].
    unfold edge_insert. rewrite E1. exists (with_edges m es), e. split; [done|]. split; [by rewrite <- A4|].
    split; try done; cbn [m_edges with_edges]; try lia.
    intros x. unfold eupd. destruct (decide (x = e)) as [->|]; [done|]. rewrite E5 by done. apply A4.
  Qed.
  Definition vfset (b : bool) (vt : vertex V) : vertex V :=
    Vertex (v_tet vt) (VFlags (vf_targets (v_flags vt)) b) (v_pos vt) (v_val vt).
  Definition gfset (v : N) (b : bool) (gf : vflags) : vflags := if decide (v = GHOST) then VFlags (vf_targets gf) b else gf.
  Definition fl Vt (gf : vflags) (x : N) : option vflags := if decide (x = GHOST) then Some gf else v_flags <$> Vt x.
  Lemma flags_s nt ne L F Ed Vt gf tm m v : st nt ne L F Ed Vt gf tm m → vertex_flags m v = fl Vt gf v.
  Proof. intros H. unfold vertex_flags, fl. rewrite (st_V _ _ _ _ _ _ _ _ _ H), (st_gf _ _ _ _ _ _ _ _ _ H). done. Qed.
  Lemma added_s nt ne L F Ed Vt gf tm m v b : st nt ne L F Ed Vt gf tm m → Vt GHOST = None → v = GHOST ∨ is_Some (Vt v) →
    ∃ m', set_added b m v = Some m' ∧ st nt ne L F Ed (vupd Vt v (vfset b)) (gfset v b gf) tm m'.
  Proof.
    intros H Hg Hv. unfold set_added. rewrite (flags_s _ _ _ _ _ _ _ _ _ _ H). unfold fl, set_vertex_flags, gfset.
    destruct H as [A1 A2 A3 A4 A5 A6 A7 A8 A9 A10 A11 A12 A13]. destruct (decide (v = GHOST)) as [->|Hne].
    - cbn [mbind option_bind]. eexists. split; [reflexivity|]. split; try done. cbn [m_verts with_ghost_flags]. intros x. unfold vupd.
      destruct (decide (x = GHOST)) as [->|]; [|apply A7]. rewrite A7. by rewrite Hg.
    - destruct Hv as [->|[vt Hv]]; [done|]. rewrite Hv. cbn [fmap option_fmap option_map mbind option_bind]. rewrite A7, Hv. cbn [mbind option_bind].
      destruct (wf_set (m_verts m) v (vfset b vt) A8) as (vs & E1 & E2 & E3). { rewrite A7, Hv. eauto. }
      unfold vfset in E1. rewrite E1. cbn [mbind option_bind]. eexists. split; [reflexivity|]. injection E3 as E3 E4.
      split; try done; cbn [m_verts with_verts].
      + intros x. unfold im_get, vupd. rewrite E3. destruct (decide (x = v)) as [->|].
        * rewrite lookup_insert. by rewrite Hv.
        * rewrite lookup_insert_ne by done. apply A7.
      + by rewrite E4.
  Qed.
End step.
