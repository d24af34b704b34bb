(** The traversals that mark tets and vertices with flags: they yield what the set based ones
    yield and leave the mesh as it was. *)
From Coq Require Import NArith ZArith Lia.
From stdpp Require Import base numbers list gmap option.
From Verif Require Import IdMapModel IdMapProofs WalkerModel WalkerSpec WalkerProofs MeshModel WalkerMore MeshSpec MeshOps Flip44Ok
  UtilModel UtilSpec UtilProofs IterModel IterDfs IterProofs.
Local Open Scope nat_scope.

Section opt.
  Context {V T : Type}.
  Implicit Types (m : mesh V T) (w : walker).

  (** ** Marked tets *)
  Definition mark_slots {X} (f : X → X) (vl : list N) (im : idmap X) : idmap X :=
    IdMap (map_imap (λ id x, Some (if bool_decide (id ∈ vl) then f x else x)) (im_slots im)) (im_npi im) (im_free im).
  Lemma mark_get {X} (f : X → X) vl (im : idmap X) id :
    im_get (mark_slots f vl im) id = (λ x, if bool_decide (id ∈ vl) then f x else x) <$> im_get im id.
  Proof. unfold im_get, mark_slots. cbn. rewrite map_lookup_imap. by destruct (im_slots im !! id). Qed.
  Lemma mark_nil {X} (f : X → X) (im : idmap X) : mark_slots f [] im = im.
  Proof.
    destruct im as [s n fr]. unfold mark_slots. cbn. f_equal. apply map_eq. intros id. rewrite map_lookup_imap.
    by destruct (s !! id).
  Qed.
  (** Writing [y] at [id] turns the marks [vl] into the marks [vl']. *)
  Lemma mark_set {X} (f : X → X) vl vl' (im : idmap X) id x y : im_get im id = Some x →
    y = (if bool_decide (id ∈ vl') then f x else x) → (∀ k, k ≠ id → k ∈ vl ↔ k ∈ vl') →
    im_set (mark_slots f vl im) id y = Some (mark_slots f vl' im).
  Proof.
    intros E -> Hk. unfold im_set. rewrite mark_get, E. cbn. f_equal. unfold mark_slots. cbn. f_equal.
    apply map_eq. intros k. rewrite map_lookup_imap. destruct (decide (k = id)) as [->|Hne].
    - rewrite lookup_insert. unfold im_get in E. by rewrite E.
    - rewrite lookup_insert_ne, map_lookup_imap by done. destruct (im_slots im !! k); cbn; [|done].
      by rewrite (bool_decide_ext _ _ (Hk k Hne)).
  Qed.

  Definition mark_tets vl m : mesh V T := with_tets m (mark_slots (set_wfv true) vl (m_tets m)).
  Lemma mark_tets_nil m : mark_tets [] m = m.
  Proof. unfold mark_tets. rewrite mark_nil. by destruct m. Qed.
  Lemma mark_tets_get vl m id : tet_get (mark_tets vl m) id = (λ t, if bool_decide (id ∈ vl) then set_wfv true t else t) <$> tet_get m id.
  Proof. apply mark_get. Qed.
  Lemma mark_tets_adj vl m w : to_adj (mark_tets vl m) w = to_adj m w.
  Proof. unfold to_adj, to_adj_ae. rewrite mark_tets_get. destruct (tet_get m (w_tet w)); cbn; [|done]. by destruct (bool_decide _). Qed.

  Definition no_tet_marks m : Prop := ∀ id t, tet_get m id = Some t → f_wfv (t_flags t) = false.

  (** The marks are on live tets, each recorded once. *)
  Definition tet_marks_ok m vl : Prop := NoDup vl ∧ ∀ id, id ∈ vl → is_Some (tet_get m id).

  Lemma set_wfv_idem b b' (t : tet T) : set_wfv b (set_wfv b' t) = set_wfv b t.
  Proof. by destruct t as [? ? ? [] ?]. Qed.
  Lemma set_wfv_false (t : tet T) : f_wfv (t_flags t) = false → set_wfv false t = t.
  Proof. destruct t as [? ? ? [] ?]. unfold set_wfv, set_flags. cbn. by intros ->. Qed.

  Lemma mark_tets_upd vl vl' m id t b : tet_get m id = Some t → f_wfv (t_flags t) = false →
    b = bool_decide (id ∈ vl') → (∀ k, k ≠ id → k ∈ vl ↔ k ∈ vl') →
    tet_upd (mark_tets vl m) id (set_wfv b) = Some (mark_tets vl' m).
  Proof.
    intros E Hf -> Hk. unfold tet_upd. rewrite mark_tets_get, E. cbn [fmap option_fmap option_map mbind option_bind].
    assert (m_tets (mark_tets vl m) = mark_slots (set_wfv true) vl (m_tets m)) as -> by done.
    rewrite (mark_set (set_wfv true) vl vl' (m_tets m) id t); [done|exact E| |done].
    destruct (bool_decide (id ∈ vl)), (bool_decide (id ∈ vl')); rewrite ?set_wfv_idem; try done; by apply set_wfv_false.
  Qed.

  Lemma wfvo_sim m vl st r vis st' : no_tet_marks m → tet_marks_ok m vl →
    wfv_pop m (list_to_set vl) st = Some (r, (vis, st')) →
    ∃ vl', wfvo_pop (mark_tets vl m) vl st = Some (r, (mark_tets vl' m, vl', st')) ∧ vis = list_to_set vl' ∧ tet_marks_ok m vl'.
  Proof.
    intros Hm [Hnd Hlive]. induction st as [|w st IH]; cbn.
    - intros [= <- <- <-]. exists vl. done.
    - destruct (decide (w_tet w ∈ list_to_set (C := gset N) vl)) as [Hin|Hin]; rewrite elem_of_list_to_set in Hin; intros E.
      + destruct (IH E) as (vl' & E' & H). exists vl'. split; [|done]. rewrite mark_tets_get.
        destruct (Hlive _ Hin) as [t ->]. cbn. by rewrite bool_decide_true.
      + destruct (wfv_around m w) as [[[x1 x2] x3]|] eqn:Ea; [|done]. cbn in E. injection E as <- <- <-.
        rewrite mark_tets_get.
        destruct (tet_get m (w_tet w)) as [t|] eqn:Et.
        2:{ exfalso. unfold wfv_around, to_adj, to_adj_ae in Ea. cbn in Ea. by rewrite Et in Ea. }
        cbn [fmap option_fmap option_map mbind option_bind]. rewrite bool_decide_false by done. rewrite (Hm _ _ Et).
        rewrite (mark_tets_upd vl (vl ++ [w_tet w]) m _ t); [|done|by apply (Hm (w_tet w))|by rewrite bool_decide_true by set_solver|set_solver].
        cbn [mbind option_bind].
        assert (wfv_around (mark_tets (vl ++ [w_tet w]) m) w = Some (x1, x2, x3)) as ->.
        { rewrite <- Ea. unfold wfv_around. by rewrite !mark_tets_adj. }
        exists (vl ++ [w_tet w]). split; [done|]. split; [rewrite list_to_set_app_L; cbn; set_solver|].
        split.
        * apply NoDup_app. split; [done|]. split; [set_solver|]. apply NoDup_singleton.
        * intros id [H|H]%elem_of_app; [by apply Hlive|]. apply elem_of_list_singleton in H as ->. eauto.
  Qed.

  Lemma wfvo_take m n : no_tet_marks m → ∀ vl st l vis st', tet_marks_ok m vl →
    iter_take (wfv_next m) n (list_to_set vl, st) = Some (l, (vis, st')) →
    ∃ vl', iter_take wfvo_next n (mark_tets vl m, vl, st) = Some (l, (mark_tets vl' m, vl', st')) ∧ tet_marks_ok m vl'.
  Proof.
    intros Hm. induction n as [|n IH]; intros vl st l vis st' Hok E; cbn in E |- *.
    - injection E as <- <- <-. eauto.
    - unfold wfv_next at 1 in E. cbn in E. destruct (wfv_pop m (list_to_set vl) st) as [[r [vis1 st1]]|] eqn:Ep; [|done].
      destruct (wfvo_sim m vl st r vis1 st1 Hm Hok Ep) as (vl1 & E1 & -> & Hok1). unfold wfvo_next at 1. cbn [fst snd]. rewrite E1. cbn in E |- *.
      destruct r as [a|].
      + destruct (iter_take (wfv_next m) n (list_to_set vl1, st1)) as [[l2 [vis2 st2]]|] eqn:E2; [|by unfold wfv_next in E2; rewrite E2 in E].
        destruct (IH vl1 st1 l2 vis2 st2 Hok1 E2) as (vl2 & E3 & Hok2).
        unfold wfv_next in E2. rewrite E2 in E. cbn in E. injection E as <- <- <-. exists vl2. split; [|done]. unfold wfvo_next in E3. by rewrite E3.
      + injection E as <- <- <-. eauto.
  Qed.

  Lemma wfvo_drop_ok m vl st : no_tet_marks m → tet_marks_ok m vl → wfvo_drop (mark_tets vl m, vl, st) = Some m.
  Proof.
    intros Hm. unfold wfvo_drop. cbn. induction vl as [|id vl IH]; intros [Hnd Hlive]; cbn.
    - by rewrite mark_tets_nil.
    - apply NoDup_cons_1_1 in Hnd as Hid. destruct (Hlive id) as [t Et]; [apply elem_of_list_here|].
      rewrite (mark_tets_upd (id :: vl) vl m id t); [|done|by apply (Hm id)|by rewrite bool_decide_false|set_solver].
      cbn. apply IH. split; [by apply NoDup_cons_1_2 in Hnd|]. intros k Hk. apply Hlive. by apply elem_of_list_further.
  Qed.

  (** ** Marked vertices *)
  Definition setv (b : bool) (vt : vertex V) : vertex V := Vertex (v_tet vt) (VFlags b (vf_edge_added (v_flags vt))) (v_pos vt) (v_val vt).
  Definition mark_verts vl m : mesh V T :=
    with_ghost_flags (with_verts m (mark_slots (setv true) vl (m_verts m)))
      (if bool_decide (GHOST ∈ vl) then VFlags true (vf_edge_added (m_ghost_flags m)) else m_ghost_flags m).
  Lemma mark_verts_nil m : mark_verts [] m = m.
  Proof. unfold mark_verts. rewrite mark_nil. by destruct m. Qed.
  Lemma mark_verts_tet vl m id : tet_get (mark_verts vl m) id = tet_get m id.
  Proof. done. Qed.
  Lemma mark_verts_adj vl m w : to_adj (mark_verts vl m) w = to_adj m w.
  Proof. done. Qed.
  Lemma mark_verts_second vl m w : w_second (mark_verts vl m) w = w_second m w.
  Proof. done. Qed.
  Lemma vt_ring_marks vl m start fuel : ∀ adj st, vt_ring fuel (mark_verts vl m) start adj st = vt_ring fuel m start adj st.
  Proof.
    induction fuel as [|fuel IH]; intros adj st; cbn; [done|]. rewrite mark_verts_adj. destruct (to_adj m (to_perm adj P3021)); cbn; [|done].
    destruct (decide _); [done|]. apply IH.
  Qed.
  Lemma vt_around_marks vl m w st : vt_around (mark_verts vl m) w st = vt_around m w st.
  Proof. unfold vt_around. rewrite mark_verts_adj. destruct (to_adj m w); cbn [mbind option_bind]; [|done]. apply vt_ring_marks. Qed.

  Definition no_vertex_marks m : Prop :=
    vf_targets (m_ghost_flags m) = false ∧ ∀ v vt, im_get (m_verts m) v = Some vt → vf_targets (v_flags vt) = false.
  Definition known m (v : N) : Prop := v = GHOST ∨ is_Some (im_get (m_verts m) v).
  Definition vertex_marks_ok m vl : Prop := NoDup vl ∧ ∀ v, v ∈ vl → known m v.

  Lemma setv_idem b b' vt : setv b (setv b' vt) = setv b vt.
  Proof. done. Qed.
  Lemma setv_false vt : vf_targets (v_flags vt) = false → setv false vt = vt.
  Proof. destruct vt as [? [] ? ?]. unfold setv. cbn. by intros ->. Qed.

  Lemma mark_verts_flags vl m v : im_get (m_verts m) GHOST = None → no_vertex_marks m → known m v →
    ∃ f, vertex_flags (mark_verts vl m) v = Some f ∧ vf_targets f = bool_decide (v ∈ vl).
  Proof.
    intros Hg [H1 H2] Hk. unfold vertex_flags. destruct (decide (v = GHOST)) as [->|Hne].
    - eexists. split; [done|]. cbn. by destruct (bool_decide (GHOST ∈ vl)).
    - destruct Hk as [?|[vt Hvt]]; [done|]. cbn. rewrite mark_get, Hvt. cbn. eexists. split; [done|].
      destruct (bool_decide (v ∈ vl)); [done|]. by apply (H2 v).
  Qed.

  Lemma mark_verts_upd vl vl' m v b : im_get (m_verts m) GHOST = None → no_vertex_marks m → known m v →
    b = bool_decide (v ∈ vl') → (∀ k, k ≠ v → k ∈ vl ↔ k ∈ vl') →
    set_targets b (mark_verts vl m) v = Some (mark_verts vl' m).
  Proof.
    intros Hg [H1 H2] Hk -> Hvl. unfold set_targets, vertex_flags, set_vertex_flags.
    destruct (decide (v = GHOST)) as [->|Hne].
    - cbn. f_equal. unfold mark_verts, with_ghost_flags, with_verts. cbn. f_equal.
      + unfold mark_slots. f_equal. apply map_eq. intros k. rewrite !map_lookup_imap.
        destruct (decide (k = GHOST)) as [->|Hk']; [unfold im_get in Hg; by rewrite Hg|].
        by rewrite (bool_decide_ext _ _ (Hvl k Hk')).
      + destruct (m_ghost_flags m) as [g1 g2]. cbn in *. subst g1. by destruct (bool_decide (GHOST ∈ vl)), (bool_decide (GHOST ∈ vl')).
    - destruct Hk as [?|[vt Hvt]]; [done|]. cbn. rewrite mark_get, Hvt. cbn.
      rewrite (mark_set (setv true) vl vl' (m_verts m) v vt); [|done| |done].
      + cbn. unfold mark_verts, with_ghost_flags, with_verts. cbn. do 2 f_equal. by rewrite (bool_decide_ext _ _ (Hvl GHOST (not_eq_sym Hne))).
      + pose proof (H2 v vt Hvt) as Hf. destruct vt as [? [t1 t2] ? ?]. cbn in *. subst t1.
        by destruct (bool_decide (v ∈ vl)), (bool_decide (v ∈ vl')).
  Qed.

  Section sim.
    Context m (Hg : im_get (m_verts m) GHOST = None) (Hm : no_vertex_marks m)
      (HL : ∀ w b, w_second m w = Some b → known m b).

    Lemma vto_sim vl st r vis st' : vertex_marks_ok m vl →
      vt_pop m (list_to_set vl) st = Some (r, (vis, st')) →
      ∃ vl', vto_pop (mark_verts vl m) vl st = Some (r, (mark_verts vl' m, vl', st')) ∧ vis = list_to_set vl' ∧ vertex_marks_ok m vl'.
    Proof.
      intros [Hnd Hlive]. induction st as [|w st IH]; cbn.
      - intros [= <- <- <-]. exists vl. done.
      - rewrite mark_verts_second. destruct (w_second m w) as [b|] eqn:Eb; [|done]. cbn [mbind option_bind].
        destruct (mark_verts_flags vl m b Hg Hm (HL w b Eb)) as (f & -> & Hf). cbn [mbind option_bind]. rewrite Hf.
        destruct (decide (b ∈ list_to_set (C := gset N) vl)) as [Hin|Hin]; rewrite elem_of_list_to_set in Hin; intros E.
        + rewrite bool_decide_true by done. apply IH, E.
        + rewrite bool_decide_false by done. destruct (vt_around m w st) as [st1|] eqn:Ea; [|done]. cbn in E. injection E as <- <- <-.
          rewrite (mark_verts_upd vl (vl ++ [b]) m b true Hg Hm (HL w b Eb)); [|by rewrite bool_decide_true by set_solver|set_solver].
          cbn [mbind option_bind]. rewrite vt_around_marks, Ea. cbn.
          exists (vl ++ [b]). split; [done|]. split; [rewrite list_to_set_app_L; cbn; set_solver|].
          split.
          * apply NoDup_app. split; [done|]. split; [set_solver|]. apply NoDup_singleton.
          * intros id [H|H]%elem_of_app; [by apply Hlive|]. apply elem_of_list_singleton in H as ->. by apply (HL w).
    Qed.

    Lemma vto_take n : ∀ vl st l vis st', vertex_marks_ok m vl →
      iter_take (vt_next m) n (list_to_set vl, st) = Some (l, (vis, st')) →
      ∃ vl', iter_take vto_next n (mark_verts vl m, vl, st) = Some (l, (mark_verts vl' m, vl', st')) ∧ vertex_marks_ok m vl'.
    Proof.
      induction n as [|n IH]; intros vl st l vis st' Hok E; cbn in E |- *.
      - injection E as <- <- <-. eauto.
      - unfold vt_next at 1 in E. cbn in E. destruct (vt_pop m (list_to_set vl) st) as [[r [vis1 st1]]|] eqn:Ep; [|done].
        destruct (vto_sim vl st r vis1 st1 Hok Ep) as (vl1 & E1 & -> & Hok1). unfold vto_next at 1. cbn [fst snd]. rewrite E1. cbn in E |- *.
        destruct r as [a|].
        + destruct (iter_take (vt_next m) n (list_to_set vl1, st1)) as [[l2 [vis2 st2]]|] eqn:E2; [|by unfold vt_next in E2; rewrite E2 in E].
          destruct (IH vl1 st1 l2 vis2 st2 Hok1 E2) as (vl2 & E3 & Hok2).
          unfold vt_next in E2. rewrite E2 in E. cbn in E. injection E as <- <- <-. exists vl2. split; [|done]. unfold vto_next in E3. by rewrite E3.
        + injection E as <- <- <-. eauto.
    Qed.

    Lemma vto_drop_ok vl st : vertex_marks_ok m vl → vto_drop (mark_verts vl m, vl, st) = Some m.
    Proof.
      unfold vto_drop. cbn. induction vl as [|b vl IH]; intros [Hnd Hlive]; cbn.
      - by rewrite mark_verts_nil.
      - apply NoDup_cons_1_1 in Hnd as Hid.
        rewrite (mark_verts_upd (b :: vl) vl m b false Hg Hm (Hlive b (elem_of_list_here _ _))); [|by rewrite bool_decide_false|set_solver].
        cbn. apply IH. split; [by apply NoDup_cons_1_2 in Hnd|]. intros k Hk. apply Hlive. by apply elem_of_list_further.
    Qed.
  End sim.

  Lemma tet_vertex_known m w b : mesh_ok m → w_second m w = Some b → known m b.
  Proof.
    intros Hok. unfold w_second. destruct (tet_get m (w_tet w)) as [t|] eqn:Et; [|done]. cbn [mbind option_bind]. intros [= <-].
    set (i := second_idx (w_edge w)). clearbody i.
    assert (∀ e, e < 12 → known m (get4 (t_vs t) (first_idx e))) as H.
    { intros e He. apply (ok_exist m Hok (Walker (w_tet w) e)); [split; [by exists t|done]|]. unfold w_first. cbn. by rewrite Et. }
    assert (0 < 12) as L0 by lia. assert (1 < 12) as L1 by lia. assert (2 < 12) as L2 by lia. assert (3 < 12) as L3 by lia.
    apply H in L0, L1, L2, L3. destruct i as [|[|[|i]]]; [exact L3|exact L2|exact L1|exact L0].
  Qed.
End opt.
