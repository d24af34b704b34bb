(** Building a Delaunay tetrahedralization: the first tet, and the insertions. *)
From stdpp Require Import base numbers list gmap option relations.
From Coq Require Import Sorted NArith ZArith Lia.
From Verif Require Import IdMapModel IdMapSpec IdMapProofs WalkerModel WalkerSpec MeshModel MeshOps MeshSpec MeshViews MeshLink MeshCheck UtilModel UtilProofs HistSpec History IterModel IterProofs Marks GeoModel NewMesh
  CavModel CavSpec CavOk PropCav InsModel InsSpec InsCheck PropIns DelModel DelSpec DelOk DelFind PropDel Flip44Ok MeshOpsOk GeoMesh Rename FromModel FromSpec.
Local Open Scope nat_scope.

Section ready.
  Context {V T : Type}.
  Implicit Types (m : mesh V T) (L : list (N * (pt * V))).

  (** A mesh without tets whose vertices have not been used. *)
  Record blank m : Prop := Blank {
    bl_wf : im_wf (m_verts m);
    bl_verts v vt : im_get (m_verts m) v = Some vt → (v < GHOST)%N ∧ v_flags vt = vf_empty;
    bl_rest : m_edges m = im_empty ∧ m_tets m = im_empty ∧ m_ghost_flags m = vf_empty ∧ m_track m = false }.

  Lemma extend_get (kvs : list (N * vertex V)) : ∀ im, im_wf im → NoDup kvs.*1 →
    ∃ im', im_extend im kvs = Some im' ∧ im_wf im' ∧ (∀ k v, (k, v) ∈ kvs → im_get im' k = Some v) ∧ (∀ k, k ∉ kvs.*1 → im_get im' k = im_get im k).
  Proof.
    induction kvs as [|[k v] kvs IH]; intros im Hw Hn; cbn [im_extend]; [exists im; split; [done|]; split; [done|]; split; [by intros ?? ?%elem_of_nil|done]|].
    rewrite fmap_cons in Hn. apply stdpp.list.NoDup_cons in Hn as [Hk Hn].
    destruct (wf_insert_with_key im k v Hw) as (im1 & -> & Hw1 & Ea). destruct (IH im1 Hw1 Hn) as (im' & E & Hw' & H1 & H2). exists im'. split; [done|]. split; [done|].
    injection Ea as E1 E2. cbn [fst] in Hk. split.
    - intros k' v' [[= -> ->]|Hin]%elem_of_cons; [|by apply H1]. rewrite H2 by done. unfold im_get. by rewrite E1, lookup_insert.
    - intros k' Hk'. rewrite fmap_cons, not_elem_of_cons in Hk'. destruct Hk' as [Hne Hk']. rewrite H2 by done. unfold im_get. cbn in Hne. by rewrite E1, lookup_insert_ne.
  Qed.

  Lemma with_ids_ready sim m L dflt m' : blank m → NoDup L.*1 → (∀ x, x ∈ L → x.1 < GHOST)%N → with_ids_at sim m L dflt = Some m' →
    ready m' ∧ (∀ v, attached m' v ↔ v = GHOST ∨ v ∈ L.*1) ∧ (∀ id, is_Some (tet_get m' id) ↔ id ∈ [0; 1; 2; 3; 4]%N).
  Proof.
    intros [Hwf Hbv (Hbe & Hbt & Hbg & Hbk)] Hn Hlt. unfold with_ids_at.
    pose proof (sort_key_perm fst L) as Hp. pose proof (sort_key_sorted fst L) as Hs.
    destruct (sort_key fst L) as [|x0 [|x1 [|x2 [|x3 [|]]]]]; try done.
    assert (x0.1 < x1.1 ∧ x1.1 < x2.1 ∧ x2.1 < x3.1 ∧ x3.1 < GHOST)%N as (L01 & L12 & L23 & L3).
    { rewrite <- Hp in Hn. cbn [fmap list_fmap] in Hn. rewrite !stdpp.list.NoDup_cons, !not_elem_of_cons in Hn. destruct Hn as ((N1 & N2 & N3 & _) & (N4 & N5 & _) & (N6 & _) & _).
      apply StronglySorted_inv in Hs as [Hs F0]. apply StronglySorted_inv in Hs as [Hs F1]. apply StronglySorted_inv in Hs as [Hs F2].
      apply Forall_cons in F0 as [F0 _], F1 as [F1 _], F2 as [F2 _].
      assert (x3 ∈ L) as H3 by (rewrite <- Hp; rewrite !elem_of_cons; tauto). specialize (Hlt x3 H3). lia. }
    set (sw := negb (sim x0.2.1 x1.2.1 x2.2.1 x3.2.1)). clearbody sw. clear Hs.
    set (f := λ v : N, if N.eqb v 0 then x0.1 else if N.eqb v 1 then x1.1 else if N.eqb v 2 then x2.1 else if N.eqb v 3 then x3.1 else v).
    assert (f 0%N = x0.1 ∧ f 1%N = x1.1 ∧ f 2%N = x2.1 ∧ f 3%N = x3.1 ∧ f GHOST = GHOST) as (F0 & F1 & F2 & F3 & F4) by done.
    set (P := λ v : N, v ∈ [0; 1; 2; 3; GHOST]%N).
    assert (∀ a b, P a → P b → (a < b)%N → (f a < f b)%N) as Hmono.
    { clearbody f. intros a b Ha Hb. unfold P in Ha, Hb. rewrite !elem_of_cons, elem_of_nil in Ha, Hb.
      assert (3 < GHOST)%N as HG by (unfold GHOST; vm_compute; done). 
      destruct Ha as [->|[->|[->|[->|[->|[]]]]]], Hb as [->|[->|[->|[->|[->|[]]]]]]; rewrite ?F0, ?F1, ?F2, ?F3, ?F4; lia. }
    (* the mesh with the first four ids *)
    set (ps := A4 x0.2 x1.2 x2.2 x3.2).
    destruct (new_facts (λ _ _ _ _, negb sw) (λ _ _ _ _, origin) ps dflt) as (ms & Ems & Hok & Hc & Hdata & _).
    destruct (new_unpack _ _ Hok Hc) as (_ & _ & Hids & T0 & (T1 & T2 & T3 & T4) & _ & _ & Hall & _ & _).
    assert (built ms) as Hb by (eapply built_new; exact Ems). pose proof (C48_histories ms Hb) as [_ [Hr1 Hr2 Hr3 _] Hr5 _].
    intros E. cbv zeta in E. apply bind_Some in E as (vs & Evs & E).
    match type of Evs with im_extend _ ?kvs = _ => destruct (extend_get kvs (m_verts m) Hwf) as (vs' & Evs' & Hwf' & Hin & Hout) end.
    { cbn. rewrite !stdpp.list.NoDup_cons, !not_elem_of_cons. repeat split; try apply not_elem_of_nil; try lia. constructor. }
    assert (vs' = vs) as -> by congruence. clear Evs'.
    assert (∃ es ts, m' = with_tets (with_edges (with_verts m vs) es) ts ∧ es = im_fmap (rn_edge f) (m_edges ms) ∧ ts = im_fmap (rn_tet f) (m_tets ms) ∧
      (∀ u vt, im_get (m_verts ms) u = Some vt → P u ∧ ∃ vt', im_get vs (f u) = Some vt' ∧ v_tet vt' = v_tet vt)) as (es & ts & -> & Ees & Ets & Hvv).
    { unfold mesh_new in Ems. cbn [get4 ps q0 q1 q2 q3] in Ems. apply bind_Some in Ems as (m0 & Em0 & Ems). apply bind_Some in Ems as (t & _ & Ems).
      do 4 (apply bind_Some in Ems as (? & _ & Ems)). injection Ems as <-. cbn [m_edges m_tets m_verts with_center].
      unfold with_ids in Em0. cbv zeta in Em0. apply bind_Some in Em0 as (vs0 & Evs0 & Em0).
      rewrite Hbe, Hbt in E. cbn [mesh_empty m_edges m_tets] in Em0.
      match type of Em0 with context [im_extend_values im_empty (uedge_new <$> ?X)] => set (X0 := uedge_new <$> X) in Em0 end.
      match type of E with context [im_extend_values im_empty (uedge_new <$> ?X)] => set (X1 := uedge_new <$> X) in E end.
      assert (X1 = rn_edge f <$> X0) as EX.
      { assert (∀ a b, P a → P b → uedge_new (f a, f b) = rn_edge f (uedge_new (a, b))) as Hue.
        { intros a b Ha Hb'. unfold uedge_new, rn_edge. cbn [ue_vs ue_boundary ue_locked ue_bw]. f_equal. clear - Ha Hb' Hmono.
          unfold sorted_2. cbn [fst snd]. destruct (N.lt_trichotomy a b) as [H|[->|H]]; [pose proof (Hmono a b Ha Hb' H)|repeat case_match; done|pose proof (Hmono b a Hb' Ha H)];
            repeat case_match; cbn [fst snd]; rewrite ?N.ltb_lt, ?N.ltb_ge, ?N.leb_le, ?N.leb_gt in *; try done; try lia. }
        unfold X0, X1. destruct sw; cbn [negb fmap list_fmap]; change x0.1 with (f 0%N); change x1.1 with (f 1%N); change x2.1 with (f 2%N); change x3.1 with (f 3%N);
          change GHOST with (f GHOST) at 1 2 3 4; repeat (rewrite Hue by (unfold P; rewrite !elem_of_cons; tauto)); reflexivity. }
      destruct (im_extend_values im_empty X0) as [es0 ei0] eqn:EE0.
      assert (im_extend_values im_empty X1 = (im_fmap (rn_edge f) es0, ei0)) as EE1.
      { rewrite EX. pose proof (im_fmap_extend (rn_edge f) X0 im_empty) as H. rewrite EE0, im_fmap_empty in H. exact H. }
      rewrite EE1 in E. 
      match type of Em0 with context [im_extend_values im_empty ?Y] => set (Y0 := Y) in Em0 end.
      match type of E with context [im_extend_values im_empty ?Y] => set (Y1 := Y) in E end.
      assert (Y1 = rn_tet f <$> Y0) as EY by (unfold Y0, Y1; clear; destruct sw; reflexivity).
      destruct (im_extend_values im_empty Y0) as [ts0 ti0] eqn:ET0.
      assert (im_extend_values im_empty Y1 = (im_fmap (rn_tet f) ts0, ti0)) as ET1.
      { rewrite EY. pose proof (im_fmap_extend (rn_tet f) Y0 im_empty) as H. rewrite ET0, im_fmap_empty in H. exact H. }
      rewrite ET1 in E. apply (inj Some) in E. apply (inj Some) in Em0. subst m' m0.
      cbn [m_edges m_tets m_verts with_tets with_edges with_verts]. eexists _, _. split; [reflexivity|]. split; [done|]. split; [done|].
      intros u vt Hu.
      match type of Evs0 with im_extend _ ?kvs = _ => destruct (extend_get kvs im_empty wf_empty) as (vs0' & Evs0' & _ & Hin0 & Hout0) end.
      { cbn. rewrite !stdpp.list.NoDup_cons, !not_elem_of_cons. repeat split; try apply not_elem_of_nil; try lia. constructor. }
      cbn [mesh_empty m_verts] in Evs0. assert (vs0' = vs0) as -> by congruence. clear Evs0'.
      cbn [fmap list_fmap fst] in Hin0, Hout0.
      destruct (decide (u ∈ [N.of_nat 0; N.of_nat 1; N.of_nat 2; N.of_nat 3])) as [Hu4|Hu4].
      2: { rewrite Hout0 in Hu by done. done. }
      split; [unfold P; change [N.of_nat 0; N.of_nat 1; N.of_nat 2; N.of_nat 3] with [0; 1; 2; 3]%N in Hu4; rewrite !elem_of_cons in *; tauto|].
      cbn [imap] in Hin. rewrite !elem_of_cons, elem_of_nil in Hu4.
      destruct Hu4 as [->|[->|[->|[->|[]]]]]; (erewrite Hin0 in Hu by (rewrite !elem_of_cons; eauto 10)); apply (inj Some) in Hu as <-; eexists;
        (split; [apply Hin; unfold f; cbn; rewrite !elem_of_cons; eauto 10|]); by destruct sw. }
    set (m' := with_tets (with_edges (with_verts m vs) es) ts).
    assert (renamed f P ms m') as R.
    { split; [exact Hmono|done| | | | |].
      - intros id. unfold tet_get. cbn. rewrite Ets. apply im_fmap_get.
      - intros id t Et. assert (id ∈ [0; 1; 2; 3; 4]%N) as Hid by (apply Hids; eauto). rewrite !elem_of_cons, elem_of_nil in Hid. apply Forall_forall. intros y Hy.
        unfold P. destruct Hid as [->|[->|[->|[->|[->|[]]]]]];
        [rewrite Et in T0; cbn in T0; apply (inj Some) in T0; rewrite T0 in Hy|rewrite Et in T1; cbn in T1; apply (inj Some) in T1; rewrite T1 in Hy|
         rewrite Et in T2; cbn in T2; apply (inj Some) in T2; rewrite T2 in Hy|rewrite Et in T3; cbn in T3; apply (inj Some) in T3; rewrite T3 in Hy|
         rewrite Et in T4; cbn in T4; apply (inj Some) in T4; rewrite T4 in Hy]; clear - Hy; destruct sw; unfold list4 in Hy; cbn [negb q0 q1 q2 q3] in Hy; rewrite !elem_of_cons, elem_of_nil in Hy; rewrite !elem_of_cons; tauto.
      - intros e. cbn. rewrite Ees. apply im_fmap_get.
      - intros u vt _ Hu. apply (Hvv u vt Hu).
      - done. }
    assert (∀ v, im_get vs v = None ∨ (v < GHOST)%N ∧ ∃ vt, im_get vs v = Some vt ∧ v_flags vt = vf_empty) as Hflags.
    { intros v. cbn [imap] in Hin, Hout. destruct (decide (v ∈ [x0.1; x1.1; x2.1; x3.1])) as [Hv|Hv].
      - right. rewrite !elem_of_cons, elem_of_nil in Hv. split; [destruct Hv as [->|[->|[->|[->|[]]]]]; lia|].
        destruct Hv as [->|[->|[->|[->|[]]]]]; (eexists; split; [apply Hin; rewrite !elem_of_cons; eauto 10|done]).
      - rewrite Hout by done. destruct (im_get (m_verts m) v) as [vt|] eqn:Ev; [|by left]. right. destruct (Hbv v vt Ev). eauto. }
    assert (mesh_ok m') as Hok'.
    { apply (renamed_ok f P ms m' R Hok); [done|cbn; rewrite Ees|cbn; rewrite Ets|].
      - apply im_fmap_wf, Hok.
      - apply im_fmap_wf, Hok.
      - cbn. destruct (Hflags GHOST) as [?|[? _]]; [done|lia]. }
    split; [split; [done|split| |]|split].
    - intros id t. rewrite (rn_tets _ _ _ _ R). intros (t0 & Et & ->)%fmap_Some. by apply (Hr1 id t0).
    - intros id t. rewrite (rn_tets _ _ _ _ R). intros (t0 & Et & ->)%fmap_Some. by apply (Hr2 id t0).
    - intros e ue. rewrite (rn_edges _ _ _ _ R). intros (t0 & Et & ->)%fmap_Some. by apply (Hr3 e t0).
    - intros v fl. unfold vertex_flags. cbn. rewrite Hbg. destruct (decide (v = GHOST)); [by intros [= <-]|]. destruct (Hflags v) as [->|(_ & vt & -> & Hvf)]; [done|]. cbn. rewrite Hvf. by intros [= <-].
    - intros id t. rewrite (rn_tets _ _ _ _ R). intros (t0 & Et & ->)%fmap_Some. by apply (Hr5 id t0).
    - intros v fl. unfold vertex_flags. cbn. rewrite Hbg. destruct (decide (v = GHOST)); [by intros [= <-]|]. destruct (Hflags v) as [->|(_ & vt & -> & Hvf)]; [done|]. cbn. rewrite Hvf. by intros [= <-].
    - intros v. assert (v ∈ L.*1 ↔ v ∈ [x0.1; x1.1; x2.1; x3.1]) as -> by (rewrite <- Hp; done). split.
      + intros (w & Hw & Hf). rewrite (rn_first f P ms m' R) in Hf. apply fmap_Some in Hf as (u & Hf & ->). apply (rn_in_first f P ms m' R) in Hf. unfold P in Hf. clearbody f.
        rewrite !elem_of_cons, elem_of_nil in Hf. rewrite !elem_of_cons. destruct Hf as [->|[->|[->|[->|[->|[]]]]]]; rewrite ?F0, ?F1, ?F2, ?F3, ?F4; tauto.
      + intros Hv. assert (∃ u, v = f u ∧ attached ms u) as (u & -> & w & Hw & Hf).
        { assert (∀ i, i < 4 → attached ms (N.of_nat i)) as Hat.
          { intros i Hi. apply Hall. specialize (Hdata i Hi). destruct (im_get (m_verts ms) (N.of_nat i)); [eauto|done]. }
          rewrite !elem_of_cons, elem_of_nil in Hv. destruct Hv as [->|[->|[->|[->|[->|[]]]]]].
          - exists GHOST. split; [done|]. destruct (Hids 1%N) as [_ H]. destruct H as [t1 Ht1]; [rewrite !elem_of_cons; tauto|]. rewrite Ht1 in T1. cbn in T1. apply (inj Some) in T1.
            exists (Walker 1 0). split; [split; [eauto|cbn; lia]|]. unfold w_first. cbn [w_tet w_edge]. rewrite Ht1. cbn [mbind option_bind]. rewrite T1. by destruct sw.
          - exists 0%N. split; [done|]. by apply (Hat 0); lia.
          - exists 1%N. split; [done|]. by apply (Hat 1); lia.
          - exists 2%N. split; [done|]. by apply (Hat 2); lia.
          - exists 3%N. split; [done|]. by apply (Hat 3); lia. }
        exists w. rewrite (rn_valid f P ms m' R), (rn_first f P ms m' R), Hf. split; [exact Hw|reflexivity].
    - intros id. rewrite (rn_tets _ _ _ _ R), fmap_is_Some. apply Hids.
  Qed.

  (** ** The insertions *)
  Lemma tet_first m w w' a b c d x : valid m w' → w_tet w = w_tet w' → w_verts m w' = Some (A4 a b c d) → w_first m w = Some x → x ∈ [a; b; c; d].
  Proof.
    intros [[t Et] He] Ew Ev. rewrite (wverts_at m w' t Et) in Ev. unfold w_first. rewrite Ew, Et. cbn [mbind option_bind]. intros Ex. apply (inj Some) in Ex as <-.
    pose proof (get4_in (t_vs t) (first_idx (w_edge w))) as Hx. revert Hx. generalize (get4 (t_vs t) (first_idx (w_edge w))). intros x Hx.
    unfold list4 in Hx. rewrite !elem_of_cons, elem_of_nil in Hx. unfold verts_at in Ev. destruct (t_vs t) as [p q r s]. cbn [q0 q1 q2 q3] in Hx.
    revert Ev. generalize dependent (w_edge w'). clear - Hx. intros e He. do 12 (destruct e as [|e]; [cbn; intros [= <- <- <- <-]; rewrite !elem_of_cons; tauto|]). lia.
  Qed.
  Lemma filled_attached m v E B m' B' a : (∀ w, w ∈ B → valid m w) → filled m v E B m' B' → attached m' a → a = v ∨ attached m a.
  Proof.
    intros HB F (w & Hw & Hf). destruct (proj1 (fi_tets _ _ _ _ _ _ F (w_tet w)) (proj1 Hw)) as [Hin|[[t Et] Hn]].
    - apply elem_of_list_fmap in Hin as (w' & Ew & Hw'). apply elem_of_list_lookup in Hw' as (i & Hi).
      destruct (Forall2_lookup_r _ _ _ _ _ (fi_cone _ _ _ _ _ _ F) Hi) as (u & Hu & Hv' & x & y & z & _ & _ & Etri & Ev' & _).
      assert (valid m u) as Hvu by (apply HB, elem_of_list_lookup; eauto).
      pose proof (tet_first m' w w' x y z v a Hv' Ew Ev' Hf) as Ha. rewrite !elem_of_cons, elem_of_nil in Ha.
      assert (∃ d, w_verts m u = Some (A4 x y z d)) as [d Ed].
      { destruct (wverts_ex m u Hvu) as (x' & y' & z' & d & Ed). rewrite (wverts_tri _ _ _ _ _ _ Ed) in Etri. injection Etri as -> -> ->. eauto. }
      destruct Ha as [->|[->|[->|[->|[]]]]]; [right|right|right|by left].
      + exists u. split; [done|by eapply wverts_first].
      + exists (to_nfe u). split; [by apply valid_nfe|]. eapply wverts_first. by apply (wverts_nfe m u x y z d).
      + exists (to_pfe u). split; [by apply valid_pfe|]. eapply wverts_first. by apply (wverts_pfe m u x y z d).
    - right. destruct (fi_kept _ _ _ _ _ _ F (w_tet w) t Et Hn) as (t' & Et' & Evs & _). exists w. split; [split; [eauto|apply Hw]|].
      unfold w_first in *. rewrite Et' in Hf. rewrite Et. cbn [mbind option_bind] in *. by rewrite <- Evs.
  Qed.

  Context (less lt : mesh V T → N → N → N → bool) (order : list N → list N).
  Context (Hdist : ∀ m v, v ≠ GHOST → distances (less m v) (lt m v)) (Hord : ∀ l, NoDup l → order l ≡ₚ l).

  Lemma insert_one m id p x prev m' v : ready m → attached m prev → prev ≠ GHOST → id ≠ GHOST → ¬ attached m id → sound_cavities m id p x →
    add_vertex_delaunay_internal less lt order m (Some id) p x prev = Some (m', v) →
    ready m' ∧ attached m' id ∧ ∀ a, attached m' a → a = id ∨ attached m a.
  Proof.
    intros Hr Hp Hg Hi Hna Hs E.
    destruct (C48_insert m less lt order (Some id) p x prev Hr (conj Hi Hna) Hp Hg Hdist Hord) as (m1 & v1 & Hv1 & _ & Hpl & [[Hno _]|(t0 & B & E' & H1 & H2 & H3 & H4 & H5)]); [congruence|].
    assert (v1 = id) as -> by (destruct Hv1 as [[= ->]|[? _]]; done). clear Hv1.
    destruct (Hs m1 t0 E' B Hpl H1 H2 H3 H4) as (Hsf & Hne & Hroom). destruct (H5 Hsf Hroom) as (m2 & B' & E2 & Hr' & Hfl & Hat & _).
    assert (m2 = m') as -> by congruence. split; [done|]. split; [by apply Hat|]. intros a Ha.
    apply (filled_attached m1 id E' B m' B') in Ha as [->|Ha]; [by left|right|destruct H3 as (Hv & _); by rewrite list.Forall_forall in Hv|done].
    by apply (placed_attached m id p x m1).
  Qed.

  Lemma insert_all_ready L : ∀ m prev m', ready m → attached m prev → prev ≠ GHOST → NoDup L.*1 → (∀ x, x ∈ L → x.1 ≠ GHOST ∧ ¬ attached m x.1) →
    (∀ k mk id p x, insert_all less lt order m prev (take k L) = Some mk → L !! k = Some (id, (p, x)) → sound_cavities mk id p x) →
    insert_all less lt order m prev L = Some m' → ready m'.
  Proof.
    induction L as [|[id [p x]] L IH]; intros m prev m' Hr Hp Hg Hn Hx Hs; cbn [insert_all]; [by intros [= <-]|].
    destruct (add_vertex_delaunay_internal _ _ _ _ _ _ _ _) as [[m1 v]|] eqn:E; [|done].
    destruct (Hx (id, (p, x)) ltac:(by left)) as [Hi Hna]. cbn [fst] in *. rewrite fmap_cons in Hn. apply stdpp.list.NoDup_cons in Hn as [Hnx Hn].
    destruct (insert_one m id p x prev m1 v Hr Hp Hg Hi Hna) as (Hr1 & Hat & Hold); [by apply (Hs 0 m id p x)|done|].
    apply IH; [done..| |].
    - intros y Hy. destruct (Hx y ltac:(by right)) as [H1 H2]. split; [done|]. intros [Ey|Ha]%Hold; [|done]. apply Hnx, elem_of_list_fmap. exists y. by rewrite Ey.
    - intros k mk id' p' x' Ek Ek'. apply (Hs (S k) mk id' p' x'); [|done]. cbn [take insert_all]. by rewrite E.
  Qed.
End ready.
