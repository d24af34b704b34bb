(** Taking tets out of a mesh, and putting in tets on both sides of a triangle. *)
From stdpp Require Import base numbers list gmap option relations.
From Coq Require Import NArith ZArith ZifyN ZifyNat ZifyBool Lia.
From Verif Require Import IdMapModel IdMapSpec IdMapProofs WalkerModel WalkerSpec WalkerProofs SortProofs
  MeshModel WalkerMore MeshOps MeshSpec MeshViews Surgery MeshLink MeshRun FlipBase FlipRun IterModel InsModel InsStep InsCone TransModel TransOk.
Local Open Scope nat_scope.

Section take.
  Context {V T : Type}.
  Context (ctr : pt) (nv : N).
  Implicit Types (m : mesh V T) (F G : N → tet T) (w u d r : walker) (L : gset N) (id e : N)
    (Ed : N → option uedge) (Vt : N → option (vertex V)) (em : gmap (N * N) N) (tm : gmap (N * N * N) walker).
  Notation st := (st true ctr nv).

  (** The same tet up to its flags. *)
  Definition sbf (t t' : tet T) : Prop := t_vs t' = t_vs t ∧ t_opp t' = t_opp t ∧ t_edges t' = t_edges t ∧ t_val t' = t_val t.
  Lemma sbf_refl t : sbf t t. Proof. done. Qed.
  Lemma sbf_trans t t' t'' : sbf t t' → sbf t' t'' → sbf t t''.
  Proof. intros (A1&A2&A3&A4) (B1&B2&B3&B4). split; [congruence|]. split; [congruence|]. split; congruence. Qed.
  Lemma vv_sbf F F' w : (∀ x, sbf (F x) (F' x)) → vv F' w = vv F w.
  Proof. intros H. unfold vv. by rewrite (proj1 (H _)). Qed.
  Lemma av_sbf F F' w : (∀ x, sbf (F x) (F' x)) → av F' w = av F w.
  Proof. intros H. unfold av. by rewrite (proj1 (proj2 (H _))). Qed.
  Lemma uv_sbf F F' w : (∀ x, sbf (F x) (F' x)) → uv F' w = uv F w.
  Proof. intros H. unfold uv. by rewrite (proj1 (proj2 (proj2 (H _)))). Qed.
  Lemma sbf_lock F id i b : ∀ x, sbf (F x) (fupd F id (set_locked i b (F id)) x).
  Proof. intros x. unfold fupd. destruct (decide (x = id)) as [->|]; done. Qed.
  Lemma lv_lock F id i b u : i < 4 → lv (fupd F id (set_locked i b (F id))) u = if decide (w_tet u = id ∧ w_edge u mod 4 = i) then b else lv F u.
  Proof.
    intros Hi. unfold lv, fupd. destruct (decide (w_tet u = id)) as [->|Hu].
    - cbn [set_locked set_flags t_flags f_locked]. rewrite get4_set4 by (done || by apply Nat.mod_upper_bound).
      destruct (decide (i = w_edge u mod 4)) as [E|E]; [by rewrite decide_True|]. rewrite decide_False; [done|]. intros [_ ?]. congruence.
    - rewrite decide_False; [done|]. by intros [? _].
  Qed.

  (** Changes that keep an open mesh open. *)
  Lemma opn_flags L F F' Ed Ed' tm : opn L F Ed tm → (∀ x, sbf (F x) (F' x)) → (∀ e, ue_vs <$> Ed' e = ue_vs <$> Ed e) → opn L F' Ed' tm.
  Proof.
    intros [H1 H2 H3 H4 H5 H6] HF HE. split.
    - intros id Hid. rewrite (proj1 (HF id)). by apply H1.
    - intros w w' Hw Hw'. rewrite !(vv_sbf F F'), (av_sbf F F') by done. by apply H2.
    - intros w w' Hw Hw'. rewrite !(vv_sbf F F') by done. by apply H3.
    - intros k w. rewrite (vv_sbf F F') by done. apply H4.
    - intros w Hw. rewrite (vv_sbf F F'), (uv_sbf F F') by done. destruct (H5 w Hw) as (ue & A & B). pose proof (HE (uv F w)) as C. rewrite A in C.
      destruct (Ed' (uv F w)) as [ue'|]; [|done]. exists ue'. split; [done|]. cbn in C. congruence.
    - intros e e' ue ue' A B C. pose proof (HE e) as D. pose proof (HE e') as D'. rewrite A in D. rewrite B in D'.
      destruct (Ed e) as [x|] eqn:E1; [|done]. destruct (Ed e') as [x'|] eqn:E2; [|done]. cbn in D, D'. apply (H6 e e' x x'); congruence.
  Qed.
  Lemma knows_flags S Ed Ed' em : knows S Ed em → (∀ e, ue_vs <$> Ed' e = ue_vs <$> Ed e) → knows S Ed' em.
  Proof.
    intros H HE a b e Hs Hab. rewrite (H a b e Hs Hab). pose proof (HE e) as D. split; intros (ue & A & B); rewrite A in D.
    - destruct (Ed' e) as [x|]; [|done]. exists x. split; [done|]. cbn in D. congruence.
    - destruct (Ed e) as [x|]; [|done]. exists x. split; [done|]. cbn in D. congruence.
  Qed.
  Lemma opn_remove L F Ed tm Ed' tm' id : opn L F Ed tm → id ∈ L →
    (∀ e, Ed' e = Ed e ∨ (Ed' e = None ∧ ∀ u, vd L u → w_tet u ≠ id → uv F u ≠ e)) →
    (∀ k, (k ∈ tkeys F [id] → tm' !! k = None) ∧ (k ∉ tkeys F [id] → tm' !! k = tm !! k)) → opn (L ∖ {[id]}) F Ed' tm'.
  Proof.
    intros [H1 H2 H3 H4 H5 H6] Hid HE Htm. assert (∀ w, vd (L ∖ {[id]}) w → vd L w ∧ w_tet w ≠ id) as Hv.
    { intros w [[A B]%elem_of_difference C]. split; [done|]. intros E. apply B. by rewrite E, elem_of_singleton. }
    split.
    - intros x [Hx _]%elem_of_difference. by apply H1.
    - intros w w' [Hw _]%Hv [Hw' _]%Hv. by apply H2.
    - intros w w' [Hw _]%Hv [Hw' _]%Hv. by apply H3.
    - intros k w. rewrite elem_of_difference, elem_of_singleton. destruct (Htm k) as [B1 B2]. destruct (decide (k ∈ tkeys F [id])) as [Hk|Hk].
      + rewrite B1 by done. split; [done|]. intros ([C1 C2] & C3 & C4). exfalso. apply elem_of_tkeys in Hk as (id' & i & Hi1 & Hi & ->). apply elem_of_list_singleton in Hi1 as ->.
        apply C2. pose proof (key_inj nv L F w (Walker id i) H1 H3 C1 Hid C3 Hi) as Hkey. rewrite Hkey; [done|]. exact C4.
      + rewrite B2 by done. rewrite (H4 k w). split; [|tauto]. intros (C1 & C2 & C3). split; [|done]. split; [done|]. intros C4. apply Hk, elem_of_tkeys. exists id, (w_edge w).
        split; [by apply elem_of_list_singleton|]. split; [done|]. rewrite <- C3, <- C4. by destruct w.
    - intros w [Hw Hne]%Hv. destruct (H5 w Hw) as (ue & A & B). exists ue. split; [|done]. destruct (HE (uv F w)) as [->|[_ C]]; [done|]. by destruct (C w Hw Hne).
    - intros e e' ue ue' A B. destruct (HE e) as [E|[E _]]; [|congruence]. destruct (HE e') as [E'|[E' _]]; [|congruence]. rewrite E in A. rewrite E' in B. by apply H6.
  Qed.

  (** The edges of the tets that are taken out. *)
  Definition ekey F w : N * N := sorted_2 (pair2 (vv F w)).
  Lemma note_edges nt ne L F Ed Vt gf tm m (xs : list walker) : st nt ne L F Ed Vt gf tm m → opn L F Ed tm → (∀ x, x ∈ xs → vd L x) → ∀ em,
    ∃ em', mfoldl (λ em e, ue ← im_get (m_edges m) e; Some (<[sorted_2 (ue_vs ue) := e]> em)) (uv F <$> xs) em = Some em' ∧
      (∀ x, x ∈ xs → em' !! ekey F x = Some (uv F x)) ∧ (∀ k, (∀ x, x ∈ xs → ekey F x ≠ k) → em' !! k = em !! k).
  Proof.
    intros Hst [_ _ _ _ H5 H6] Hxs. induction xs as [|x xs IH]; intros em; cbn [mfoldl fmap list_fmap].
    - exists em. split; [done|]. split; [by intros x ?%elem_of_nil|done].
    - destruct (H5 x) as (ue & A & B); [apply Hxs; by left|]. rewrite (st_E _ _ _ _ _ _ _ _ _ _ _ _ Hst), A. cbn [mbind option_bind]. rewrite B, sorted_idem. fold (ekey F x).
      destruct (IH) with (em := <[ekey F x := uv F x]> em) as (em' & -> & C & D); [intros y Hy; apply Hxs; by right|]. exists em'. split; [done|].
      assert (∀ y, y ∈ xs → ekey F y = ekey F x → uv F y = uv F x) as Heq.
      { intros y Hy E. destruct (H5 y) as (ue' & A' & B'); [apply Hxs; by right|]. eapply H6; [done..|]. unfold ekey in E. congruence. }
      split.
      + intros y [->|Hy]%elem_of_cons; [|by apply C].
        destruct (decide (ekey F x ∈ ekey F <$> xs)) as [Hin|Hin].
        * apply elem_of_list_fmap in Hin as (y & Ey & Hy). rewrite Ey, (C y Hy). f_equal. by apply Heq.
        * rewrite D; [apply lookup_insert|]. intros y Hy E. apply Hin. rewrite <- E. apply elem_of_list_fmap. by exists y.
      + intros k Hk. rewrite D; [|intros y Hy; apply Hk; by right]. apply lookup_insert_ne. apply Hk. by left.
  Qed.
  Definition six w : list walker := [to_opp_edge w; w; to_nfe w; to_pve w; to_perm w P1320; to_pfe w].
  Lemma six_ok w x : w_edge w < 12 → x ∈ six w → w_tet x = w_tet w ∧ w_edge x < 12.
  Proof.
    intros He Hx. destruct w as [i e]. unfold six in Hx. rewrite !elem_of_cons, elem_of_nil in Hx. cbn [w_tet w_edge] in *.
    destruct Hx as [->|[->|[->|[->|[->|[->|[]]]]]]]; clear -He; case12 e He; cbn; split; (done || lia).
  Qed.
  Lemma six_all w u : w_edge w < 12 → w_edge u < 12 → ∃ x, x ∈ six w ∧ undir_idx (w_edge x) = undir_idx (w_edge u).
  Proof.
    intros He Hu. assert (existsb (λ x, undir_idx (w_edge x) =? undir_idx (w_edge u)) (six w) = true) as H.
    { destruct w as [i e], u as [i' e']. cbn [w_edge] in *. case12 e He; case12 e' Hu; reflexivity. }
    apply existsb_exists in H as (x & Hx & E). apply Nat.eqb_eq in E. exists x. split; [by apply elem_of_list_In|done].
  Qed.

  Record taken (spine : bool) L F Ed em w w' L' F' Ed' em' : Prop := Taken {
    tk_L : L' = L ∖ {[w_tet w]};
    tk_F x : sbf (F x) (F' x);
    tk_lock u : w_tet u ≠ w_tet w → lv F' u = if decide (w_tet u = w_tet w' ∧ w_edge u mod 4 = w_edge w' mod 4) then false else lv F u;
    tk_ed e : Ed' e = if decide (spine = true ∧ e = uv F (to_perm w P1320)) then None
      else if decide (e = uv F w ∨ e = uv F (to_nfe w)) then set_elocked false <$> Ed e else Ed e;
    tk_em u : w_tet u = w_tet w → w_edge u < 12 → em' !! ekey F u = Some (uv F u);
    tk_em_else k : (∀ u, w_tet u = w_tet w → w_edge u < 12 → ekey F u ≠ k) → em' !! k = em !! k }.

  Lemma mod12 (e k : nat) : ((e + 4 * k) mod 12) mod 4 = e mod 4.
  Proof. zify. Z.to_euclidean_division_equations. lia. Qed.
  Lemma rot_face k x w' : rot k x = w' → w_tet x = w_tet w' ∧ w_edge x mod 4 = w_edge w' mod 4.
  Proof.
    intros <-. destruct k as [|[|k]]; cbn [rot to_pfe to_nfe w_tet w_edge]; (split; [done|]); [done|exact (eq_sym (mod12 _ 2))|exact (eq_sym (mod12 _ 1))].
  Qed.

  Lemma take_s (spine : bool) nt ne L F Ed Vt gf tm m em v0 v1 vt w w' : st nt ne L F Ed Vt gf tm m → opn L F Ed tm → vd L w → vd L w' →
    tri3 (vv F w) = (v1, vt, v0) → twist (vv F w) (vv F w') →
    (spine = true → ∀ u, vd L u → w_tet u ≠ w_tet w → uv F u ≠ uv F (to_perm w P1320)) →
    ∃ m' em' L' F' Ed' tm', take_out vt spine (m, em) (v0, v1) = Some (m', em') ∧ st nt ne L' F' Ed' Vt gf tm' m' ∧ opn L' F' Ed' tm' ∧
      taken spine L F Ed em w w' L' F' Ed' em'.
  Proof.
    intros Hst Hop Hw Hw' Ht Tw Hsp. pose proof Hop as [P1 P2 P3 P4 P5 P6]. pose proof (st_mv _ _ _ _ _ _ _ _ _ _ _ _ Hst) as Hmv. unfold take_out.
    destruct (lookup_s _ _ _ _ _ _ _ _ _ _ _ (λ _, True) (v1, vt, v0) Hst P1) as [(w1 & V1 & _ & E1 & ->)|[_ H]]; [done| | |by destruct (H w Hw I)].
    { intros k u. rewrite (P4 k u). tauto. }
    assert (w1 = w) as -> by (apply P3; congruence). clear V1 E1. cbn [mbind option_bind].
    rewrite (mv_adj_ae _ _ _ _ Hmv) by apply Hw. set (adj := get4 _ _). cbn [mbind option_bind].
    destruct (rot_face (w_edge w / 4) adj w') as [Ha1 Ha2]; [exact (P2 w w' Hw Hw' Tw)|]. clearbody adj.
    rewrite (mv_undir _ _ _ _ Hmv) by apply Hw. cbn [mbind option_bind].
    destruct (P5 w Hw) as (ue0 & Hu0 & Hp0).
    destruct (edge_s _ _ _ _ _ _ _ _ _ _ _ _ (uv F w) ue0 (set_elocked false) Hst Hu0) as (m1 & -> & Hst1). cbn [mbind option_bind].
    assert (vd L (to_nfe w)) as Hwn by by apply vd_nfe.
    rewrite (mv_undir _ _ _ _ (st_mv _ _ _ _ _ _ _ _ _ _ _ _ Hst1)) by apply Hwn. cbn [mbind option_bind].
    destruct (P5 _ Hwn) as (ue1 & Hu1 & Hp1). set (Ed1 := eupd Ed _ _) in *.
    assert (∃ ue1', Ed1 (uv F (to_nfe w)) = Some ue1' ∧ set_elocked false ue1' = set_elocked false ue1) as (ue1' & Hu1' & Eu1).
    { unfold Ed1, eupd. destruct (decide _) as [E|]; [|by exists ue1]. eexists. split; [done|]. rewrite E in Hu1. assert (ue1 = ue0) as -> by congruence. done. }
    destruct (edge_s _ _ _ _ _ _ _ _ _ _ _ _ (uv F (to_nfe w)) ue1' (set_elocked false) Hst1 Hu1') as (m2 & -> & Hst2). cbn [mbind option_bind]. rewrite Eu1 in Hst2.
    set (Ed2 := eupd Ed1 _ _) in *.
    assert (∀ e, Ed2 e = if decide (e = uv F w ∨ e = uv F (to_nfe w)) then set_elocked false <$> Ed e else Ed e) as HEd2.
    { intros e. unfold Ed2, Ed1, eupd. destruct (decide (e = uv F (to_nfe w))) as [->|N1]; [rewrite decide_True by (by right); by rewrite Hu1|].
      destruct (decide (e = uv F w)) as [->|N2]; [rewrite decide_True by (by left); by rewrite Hu0|]. rewrite decide_False by tauto. done. }
    destruct (upd_s _ _ _ _ _ _ _ _ _ _ _ _ (w_tet w) (set_locked (w_edge w mod 4) false) Hst2) as (m3 & -> & Hst3); [apply Hw|]. cbn [mbind option_bind].
    set (F1 := fupd F _ _) in *.
    destruct (upd_s _ _ _ _ _ _ _ _ _ _ _ _ (w_tet adj) (set_locked (w_edge adj mod 4) false) Hst3) as (m4 & -> & Hst4); [rewrite Ha1; apply Hw'|]. cbn [mbind option_bind].
    set (F2 := fupd F1 _ _) in *. pose proof (st_mv _ _ _ _ _ _ _ _ _ _ _ _ Hst4) as Hmv4.
    assert (∀ x, sbf (F x) (F2 x)) as HF2 by (intros x; eapply sbf_trans; apply sbf_lock).
    assert (∀ e, ue_vs <$> Ed2 e = ue_vs <$> Ed e) as HEv. { intros e. rewrite HEd2. destruct (decide _); [|done]. by destruct (Ed e). }
    pose proof (opn_flags _ _ F2 _ Ed2 _ Hop HF2 HEv) as Hop2.
    assert (∀ x, x ∈ six w → vd L x) as Hsix. { intros x Hx. destruct (six_ok w x (proj2 Hw) Hx) as [A B]. split; [rewrite A; apply Hw|done]. }
    assert (undir_edges m4 w = Some (uv F2 <$> six w)) as ->.
    { unfold undir_edges, six. cbn [mapM]. rewrite !(mv_undir _ _ _ _ Hmv4) by apply Hw. done. }
    cbn [mbind option_bind].
    destruct (note_edges _ _ _ _ _ _ _ _ _ (six w) Hst4 Hop2 Hsix em) as (em' & -> & Hem & Hem'). cbn [mbind option_bind].
    assert (∃ m5 Ed3, (if spine then e ← undir_edge m4 (to_perm w P1320); Some (with_edges m4 (im_remove (m_edges m4) e).1) else Some m4) = Some m5 ∧
      st nt ne L F2 Ed3 Vt gf tm m5 ∧ ∀ e, Ed3 e = if decide (spine = true ∧ e = uv F (to_perm w P1320)) then None else Ed2 e) as (m5 & Ed3 & -> & Hst5 & HEd3).
    { destruct spine.
      - rewrite (mv_undir _ _ _ _ Hmv4) by apply Hw. cbn [mbind option_bind]. rewrite (uv_sbf F F2) by done. eexists _, _. split; [reflexivity|]. split; [apply eremove_s; exact Hst4|].
        intros e. cbn beta. destruct (decide (e = uv F (to_perm w P1320))) as [->|]; [by rewrite decide_True|]. rewrite decide_False; [done|]. tauto.
      - exists m4, Ed2. split; [done|]. split; [done|]. intros e. rewrite decide_False; [done|]. by intros [? _]. }
    cbn [mbind option_bind]. pose proof (st_mv _ _ _ _ _ _ _ _ _ _ _ _ Hst5) as Hmv5.
    destruct (trimap_remove_tet_st m5 L F2 (w_tet w) Hmv5) as (tm' & Etm & Htm); [apply Hw|]. unfold trimap_remove_tet in Etm.
    change (mfoldl (λ m i, trimap_remove m (to_edge w i)) [0; 1; 2; 3] m5) with (mfoldl (λ m i, trimap_remove m (Walker (w_tet w) i)) [0; 1; 2; 3] m5). rewrite Etm. cbn [mbind option_bind].
    assert (st nt ne L F2 Ed3 Vt gf tm' (with_trimap m5 tm')) as Hst6. { destruct Hst5 as [B1 B2 B3 B4 B5 B6 B7 B8 B9 B10 B11 B12 B13]. split; done. }
    eexists _, em', (L ∖ {[w_tet w]}), F2, Ed3, tm'. split; [reflexivity|]. split; [apply tremove_s; exact Hst6|]. rewrite (st_tm _ _ _ _ _ _ _ _ _ _ _ _ Hst5) in Htm. split.
    - apply (opn_remove L F2 Ed2 tm); [done|apply Hw| |done]. intros e. rewrite HEd3. destruct (decide _) as [[Es ->]|]; [right|by left]. split; [done|].
      intros u Hu Hne. rewrite (uv_sbf F F2) by done. by apply Hsp.
    - assert (∀ u, ekey F2 u = ekey F u) as Hek by (intros u; unfold ekey; by rewrite (vv_sbf F F2)).
      assert (∀ u, w_tet u = w_tet w → w_edge u < 12 → ∃ x, x ∈ six w ∧ uv F x = uv F u ∧ ekey F x = ekey F u) as Hfind.
      { intros u E1 E2. destruct (six_all w u (proj2 Hw) E2) as (x & Hx & Ex). exists x. split; [done|]. destruct (six_ok w x (proj2 Hw) Hx) as [A B].
        assert (uv F x = uv F u) as Euv by (unfold uv; by rewrite A, E1, Ex). split; [done|]. destruct (P5 x (Hsix x Hx)) as (y & C & D).
        destruct (P5 u) as (y' & C' & D'); [split; [rewrite E1; apply Hw|done]|]. unfold ekey. congruence. }
      split; try done.
      + intros u Hu. unfold F2. rewrite lv_lock by (by apply Nat.mod_upper_bound). rewrite <- Ha1, <- Ha2. destruct (decide _); [done|]. unfold F1. rewrite lv_lock by (by apply Nat.mod_upper_bound). rewrite decide_False; [done|]. by intros [? _].
      + intros e. rewrite HEd3. destruct (decide _); [done|]. apply HEd2.
      + intros u E1 E2. destruct (Hfind u E1 E2) as (x & Hx & <- & <-). rewrite <- Hek, <- (uv_sbf F F2 x HF2). by apply Hem.
      + intros k Hk. apply Hem'. intros x Hx. rewrite Hek. destruct (six_ok w x (proj2 Hw) Hx). by apply Hk.
  Qed.

  (** ** Taking out several tets. *)
  Definition face_of w u : Prop := w_tet u = w_tet w ∧ w_edge u mod 4 = w_edge w mod 4.
  Record took (l : list (walker * walker)) L F Ed em L' F' Ed' em' : Prop := Took {
    to_L x : x ∈ L' ↔ x ∈ L ∧ ∀ p, p ∈ l → w_tet p.1 ≠ x;
    to_F x : sbf (F x) (F' x);
    to_lock u p : w_tet u ∈ L' → p ∈ l → face_of p.2 u → lv F' u = false;
    to_lock_else u : w_tet u ∈ L' → (∀ p, p ∈ l → ¬ face_of p.2 u) → lv F' u = lv F u;
    to_ed e p : p ∈ l → e = uv F p.1 ∨ e = uv F (to_nfe p.1) → Ed' e = set_elocked false <$> Ed e;
    to_ed_else e : (∀ p, p ∈ l → e ≠ uv F p.1 ∧ e ≠ uv F (to_nfe p.1)) → Ed' e = Ed e;
    to_em p u : p ∈ l → w_tet u = w_tet p.1 → w_edge u < 12 → em' !! ekey F u = Some (uv F u);
    to_em_else k : (∀ p u, p ∈ l → w_tet u = w_tet p.1 → w_edge u < 12 → ekey F u ≠ k) → em' !! k = em !! k }.
  Lemma unlock_idem (o : option uedge) : set_elocked false <$> (set_elocked false <$> o) = set_elocked false <$> o.
  Proof. by destruct o. Qed.

  Lemma ekey_uv L F Ed tm u u' : opn L F Ed tm → vd L u → vd L u' → ekey F u = ekey F u' → uv F u = uv F u'.
  Proof.
    intros [_ _ _ _ H5 H6] Hu Hu' E. destruct (H5 u Hu) as (x & A & B), (H5 u' Hu') as (x' & A' & B'). unfold ekey in E. eapply H6; [done..|congruence].
  Qed.

  Lemma takes_s nt ne (vt : N) gf Vt (l : list (walker * walker)) : ∀ L F Ed tm m em (es : list (N * N)), st nt ne L F Ed Vt gf tm m → opn L F Ed tm →
    Forall2 (λ (e : N * N) (p : walker * walker), tri3 (vv F p.1) = (e.2, vt, e.1)) es l → (∀ p, p ∈ l → vd L p.1 ∧ vd L p.2 ∧ twist (vv F p.1) (vv F p.2)) →
    NoDup ((λ p, w_tet p.1) <$> l) → (∀ p q, p ∈ l → q ∈ l → w_tet p.2 ≠ w_tet q.1) →
    ∃ m' em' L' F' Ed' tm', mfoldl (take_out vt false) es (m, em) = Some (m', em') ∧ st nt ne L' F' Ed' Vt gf tm' m' ∧ opn L' F' Ed' tm' ∧
      took l L F Ed em L' F' Ed' em'.
  Proof.
    induction l as [|p l IH]; intros L F Ed tm m em es Hst Hop Hes Hl Hnd Hx.
    - apply Forall2_nil_inv_r in Hes as ->. exists m, em, L, F, Ed, tm. split; [done|]. split; [done|]. split; [done|]. split; try done.
      + intros x. split; [|tauto]. intros H. split; [done|]. by intros q ?%elem_of_nil.
      + by intros u p _ ?%elem_of_nil.
      + by intros e p ?%elem_of_nil.
      + by intros p u ?%elem_of_nil.
    - apply Forall2_cons_inv_r in Hes as ([v0 v1] & es' & Ht & Hes & ->). cbn [mfoldl fst snd] in *.
      destruct (Hl p) as (W1 & W2 & W3); [by left|]. cbn [fmap list_fmap] in Hnd. apply NoDup_cons in Hnd as [Hni Hnd].
      destruct (take_s false _ _ _ _ _ _ _ _ _ em v0 v1 vt p.1 p.2 Hst Hop W1 W2 Ht W3) as (m1 & em1 & L1 & F1 & Ed1 & tm1 & -> & Hst1 & Hop1 & [K1 K2 K3 K4 K5 K6]); [done|]. cbn [mbind option_bind].
      assert (∀ w, vv F1 w = vv F w) as Hvv by (intros w; by apply vv_sbf). assert (∀ w, uv F1 w = uv F w) as Huv by (intros w; by apply uv_sbf).
      assert (∀ w, ekey F1 w = ekey F w) as Hek by (intros w; unfold ekey; by rewrite Hvv).
      destruct (IH L1 F1 Ed1 tm1 m1 em1 es' Hst1 Hop1) as (m2 & em2 & L2 & F2 & Ed2 & tm2 & E2 & Hst2 & Hop2 & [J1 J2 J3 J4 J5 J6 J7 J8]).
      + eapply Forall2_impl; [exact Hes|]. cbn. intros e q. by rewrite Hvv.
      + intros q Hq. destruct (Hl q) as (X1 & X2 & X3); [by right|]. rewrite !Hvv, K1. unfold vd. rewrite !elem_of_difference, !elem_of_singleton.
        split; [split; [split; [apply X1|]|apply X1]|]; [|split; [split; [split; [apply X2|]|apply X2]|done]].
        * intros E. apply Hni. apply elem_of_list_fmap. by exists q.
        * apply Hx; [by right|by left].
      + done.
      + intros q q' Hq Hq'. apply Hx; by right.
      + exists m2, em2, L2, F2, Ed2, tm2. split; [done|]. split; [done|]. split; [done|]. split.
        * intros x. rewrite J1, K1, elem_of_difference, elem_of_singleton. split.
          -- intros ((A & B) & C). split; [done|]. intros q [->|Hq]%elem_of_cons; [congruence|by apply C].
          -- intros (A & B). split; [split; [done|]|intros q Hq; apply B; by right]. intros ->. by destruct (B p); [left|].
        * intros x. eapply sbf_trans; [apply K2|apply J2].
        * intros u q Hu Hq Hf. destruct (decide (Exists (λ q, face_of q.2 u) l)) as [Hex|Hex].
          -- apply Exists_exists in Hex as (q' & Hq' & Hf'). by apply (J3 u q').
          -- rewrite J4; [|done|intros q' Hq' Hf'; apply Hex, Exists_exists; by exists q']. apply elem_of_cons in Hq as [->|Hq]; [|exfalso; apply Hex, Exists_exists; by exists q].
             rewrite K3; [by rewrite decide_True|]. apply J1 in Hu as [Hu _]. rewrite K1, elem_of_difference, elem_of_singleton in Hu. apply Hu.
        * intros u Hu Hq. rewrite J4; [|done|intros q Hql; apply Hq; by right]. rewrite K3; [rewrite decide_False; [done|]; apply Hq; by left|].
          apply J1 in Hu as [Hu _]. rewrite K1, elem_of_difference, elem_of_singleton in Hu. apply Hu.
        * intros e q Hq He. assert (Ed1 e = Ed e ∨ Ed1 e = set_elocked false <$> Ed e) as HE1. { rewrite K4. rewrite decide_False by (by intros [? _]). destruct (decide _); [by right|by left]. }
          destruct (decide (Exists (λ q, e = uv F q.1 ∨ e = uv F (to_nfe q.1)) l)) as [Hex|Hex].
          -- apply Exists_exists in Hex as (q' & Hq' & Hf'). rewrite (J5 e q'); [|done|by rewrite !Huv]. destruct HE1 as [->| ->]; [done|apply unlock_idem].
          -- rewrite J6; [|intros q' Hq'; rewrite !Huv; split; intros ->; apply Hex, Exists_exists; exists q'; tauto].
             apply elem_of_cons in Hq as [->|Hq]; [|exfalso; apply Hex, Exists_exists; by exists q]. rewrite K4, decide_False by (by intros [? _]). by rewrite decide_True.
        * intros e He. rewrite J6; [|intros q Hq; rewrite !Huv; apply He; by right]. rewrite K4, decide_False by (by intros [? _]). rewrite decide_False; [done|]. destruct (He p) as [A B]; [by left|]. tauto.
        * intros q u Hq Hu He. assert (vd L u) as Hvu by (split; [rewrite Hu; apply Hl; done|done]).
          destruct (decide (Exists (λ q' : walker * walker, Exists (λ j, ekey F (Walker (w_tet q'.1) j) = ekey F u) (seq 0 12)) l)) as [Hex|Hex].
          -- apply Exists_exists in Hex as (q' & Hq' & Hex). apply Exists_exists in Hex as (j & Hj & Ej). apply elem_of_seq in Hj.
             pose proof (J7 q' (Walker (w_tet q'.1) j) Hq' eq_refl) as H. rewrite Hek, Huv, Ej in H. rewrite H by (cbn; lia). f_equal.
             apply (ekey_uv L F Ed tm); [done| |done..]. split; [apply (Hl q'); by right|cbn; lia].
          -- rewrite J8; [|intros q' u' Hq' Hu' He' E; apply Hex, Exists_exists; exists q'; split; [done|]; apply Exists_exists; exists (w_edge u'); rewrite Hek in E; split; [apply elem_of_seq; lia|by rewrite <- E, <- Hu'; destruct u']].
             apply elem_of_cons in Hq as [->|Hq]; [by apply K5|]. exfalso. apply Hex, Exists_exists. exists q. split; [done|]. apply Exists_exists. exists (w_edge u). split; [apply elem_of_seq; lia|]. rewrite <- Hu. by destruct u.
        * intros k Hk. rewrite J8; [|intros q u Hq Hu He; rewrite Hek; apply (Hk q u); [by right|done..]]. apply K6. intros u Hu He. apply (Hk p u); [by left|done..].
  Qed.

  (** ** Putting in the tets at a triangle. *)
  Definition lock3 (em : gmap (N * N) N) (m : mesh V T) (ps : list (N * N)) : option (mesh V T) := mfoldl (λ m p, e ← em !! sorted_2 p; edge_upd m e (set_elocked true)) ps m.
  Lemma lock_edges_s nt ne L F Vt gf tm em ps : ∀ Ed m, st nt ne L F Ed Vt gf tm m → (∀ p, p ∈ ps → ∃ e, em !! sorted_2 p = Some e ∧ is_Some (Ed e)) →
    ∃ m' Ed', lock3 em m ps = Some m' ∧ st nt ne L F Ed' Vt gf tm m' ∧ (∀ e, ue_vs <$> Ed' e = ue_vs <$> Ed e) ∧
      (∀ e p, p ∈ ps → em !! sorted_2 p = Some e → Ed' e = set_elocked true <$> Ed e) ∧
      (∀ e, (∀ p, p ∈ ps → em !! sorted_2 p ≠ Some e) → Ed' e = Ed e).
  Proof.
    induction ps as [|p ps IH]; intros Ed m Hst Hps; unfold lock3; cbn [mfoldl].
    - exists m, Ed. split; [done|]. split; [done|]. split; [done|]. split; [by intros e p ?%elem_of_nil|done].
    - destruct (Hps p) as (e & Ee & ue & Hu); [by left|]. rewrite Ee. cbn [mbind option_bind].
      destruct (edge_s _ _ _ _ _ _ _ _ _ _ _ _ e ue (set_elocked true) Hst Hu) as (m1 & -> & Hst1). cbn [mbind option_bind]. set (Ed1 := eupd Ed _ _) in *.
      assert (∀ x, Ed1 x = if decide (x = e) then set_elocked true <$> Ed x else Ed x) as HE1. { intros x. unfold Ed1, eupd. destruct (decide (x = e)) as [->|]; [by rewrite Hu|done]. }
      destruct (IH Ed1 m1 Hst1) as (m2 & Ed2 & E2 & Hst2 & A & B & C).
      { intros q Hq. destruct (Hps q) as (x & Ex & Hx); [by right|]. exists x. split; [done|]. rewrite HE1. destruct (decide _); [|done]. destruct Hx as [? ->]. by eexists. }
      exists m2, Ed2. split; [exact E2|]. split; [done|]. split; [|split].
      + intros x. rewrite A, HE1. destruct (decide _); [|done]. by destruct (Ed x).
      + intros x q Hq Ex. destruct (decide (Exists (λ q, em !! sorted_2 q = Some x) ps)) as [Hex|Hex].
        * apply Exists_exists in Hex as (q' & Hq' & Ex'). rewrite (B x q' Hq' Ex'), HE1. destruct (decide _); [|done]. by destruct (Ed x).
        * rewrite C; [|intros q' Hq' E; apply Hex, Exists_exists; by exists q']. apply elem_of_cons in Hq as [->|Hq]; [|exfalso; apply Hex, Exists_exists; by exists q]. rewrite HE1, decide_True by congruence. done.
      + intros x Hx. rewrite C; [|intros q Hq; apply Hx; by right]. rewrite HE1, decide_False; [done|]. intros ->. by apply (Hx p); [left|].
  Qed.
End take.
