(** Replacing tets: from the steps to the whole. *)
From stdpp Require Import base numbers list gmap option relations.
From Coq Require Import NArith ZArith ZifyN ZifyNat ZifyBool Lia.
From Verif Require Import IdMapModel IdMapSpec IdMapProofs WalkerModel WalkerSpec WalkerProofs SortProofs
  MeshModel WalkerMore MeshOps MeshSpec FlipSpec MeshViews Surgery MeshLink MeshRun FlipBase FlipRun IterModel IntOk InsModel InsStep InsCone TransModel TransSpec TransOk TakeOk PutOk.
Local Open Scope nat_scope.

Lemma comp_at {X} (vs : arr4 X) (e j : nat) : e < 12 → j < 12 → ∃ k, k < 12 ∧ verts_at (verts_at vs e) j = verts_at vs k.
Proof.
  intros He Hj. destruct vs as [a b c d].
  case12 e He; case12 j Hj; first [exists 0; split; [lia|reflexivity]|exists 1; split; [lia|reflexivity]|exists 2; split; [lia|reflexivity]|exists 3; split; [lia|reflexivity]|exists 4; split; [lia|reflexivity]|exists 5; split; [lia|reflexivity]|exists 6; split; [lia|reflexivity]|exists 7; split; [lia|reflexivity]|exists 8; split; [lia|reflexivity]|exists 9; split; [lia|reflexivity]|exists 10; split; [lia|reflexivity]|exists 11; split; [lia|reflexivity]].
Qed.
Lemma comp_to {X} (vs : arr4 X) (e k : nat) : e < 12 → k < 12 → ∃ j, j < 12 ∧ verts_at (verts_at vs e) j = verts_at vs k.
Proof.
  intros He Hj. destruct vs as [a b c d].
  case12 e He; case12 k Hj; first [exists 0; split; [lia|reflexivity]|exists 1; split; [lia|reflexivity]|exists 2; split; [lia|reflexivity]|exists 3; split; [lia|reflexivity]|exists 4; split; [lia|reflexivity]|exists 5; split; [lia|reflexivity]|exists 6; split; [lia|reflexivity]|exists 7; split; [lia|reflexivity]|exists 8; split; [lia|reflexivity]|exists 9; split; [lia|reflexivity]|exists 10; split; [lia|reflexivity]|exists 11; split; [lia|reflexivity]].
Qed.
Lemma tris_of_12 q : tris_of q = tris12 q.
Proof. by destruct q. Qed.

Section link.
  Context {V T : Type}.
  Implicit Types (m : mesh V T) (F : N → tet T) (L : gset N).

  Lemma view_exists m (t : tet T) : mv m (dom (im_slots (m_tets m))) (λ i, default t (tet_get m i)).
  Proof.
    intros i. unfold tet_get, im_get. destruct (decide (i ∈ dom (im_slots (m_tets m)))) as [H|H].
    - apply elem_of_dom in H as [x ->]. done.
    - by apply not_elem_of_dom in H.
  Qed.
  Lemma open_view m L F : mv m L F → open_mesh m →
    st true (m_center m) (im_npi (m_verts m)) (im_npi (m_tets m)) (im_npi (m_edges m)) L F (im_get (m_edges m)) (im_get (m_verts m)) (m_ghost_flags m) (m_trimap m) m ∧
    opn L F (im_get (m_edges m)) (m_trimap m).
  Proof.
    intros Hmv [H1 H2 H3 H4 H5 H6 H7 H8 H9 H10]. split; [split; done|].
    assert (∀ w, vd L w → valid m w) as Hvd by (intros w Hw; by apply (mv_valid _ _ _ _ Hmv)).
    assert (∀ w, vd L w → w_verts m w = Some (vv F w)) as Hvs by (intros w Hw; apply (mv_verts _ _ _ _ Hmv), Hw).
    split; try done.
    - intros id Hid. assert (vd L (Walker id 3)) as Hw by (split; [done|cbn; lia]).
      specialize (H4 (Walker id 3) (q0 (t_vs (F id))) (q1 (t_vs (F id))) (q2 (t_vs (F id))) (q3 (t_vs (F id))) (Hvd _ Hw)).
      apply H4. rewrite (Hvs _ Hw). done.
    - intros w w' Hw Hw' (A & B & C). specialize (H5 w w' (q0 (vv F w)) (q1 (vv F w)) (q2 (vv F w)) (q3 (vv F w)) (q3 (vv F w')) (Hvd _ Hw) (Hvd _ Hw')).
      rewrite (mv_adj _ _ _ _ Hmv Hw) in H5. apply (inj Some), H5; rewrite Hvs by done.
      + by destruct (vv F w).
      + destruct (vv F w'). cbn in *. congruence.
    - intros w w' Hw Hw' E. apply (H6 w w' (tri3 (vv F w))); [by apply Hvd..|by apply (mv_tri _ _ _ _ Hmv), Hw|]. rewrite E. by apply (mv_tri _ _ _ _ Hmv), Hw'.
    - intros k w. rewrite H10, (mv_valid _ _ _ _ Hmv). split.
      + intros (A & B & t & C & D). rewrite (mv_tri _ _ _ _ Hmv) in C by apply A. split; [apply A|]. split; [done|]. congruence.
      + intros (A & B & C). split; [split; [done|lia]|]. split; [done|]. eexists. split; [by apply (mv_tri _ _ _ _ Hmv)|done].
    - intros w Hw. destruct (H7 w (q0 (vv F w)) (q1 (vv F w)) (Hvd _ Hw)) as (e & ue & A & B & C); [by apply (mv_pair _ _ _ _ Hmv), Hw|].
      rewrite (mv_undir _ _ _ _ Hmv) in A by apply Hw. exists ue. split; [congruence|done].
  Qed.
  Lemma closed_open m : mesh_ok m → m_track m = true → open_mesh m.
  Proof.
    intros [H1 H2 H3 H4 H5 H6 H7 H8 H9 H10 H11 H12 H13 H14 H15 H16 H17] Ht. split; try done; [|by apply H15].
    intros w w' a b c d d' Hw Hw' E E'. destruct (H7 w a b c d Hw E) as (w1 & x & A & B & C & D). rewrite A. f_equal.
    eapply H8; [done..| |]; eapply tri_of_verts; [exact C|exact E'].
  Qed.
  Lemma view_open ctr nv nt ne L F Ed Vt gf tm m : st true ctr nv nt ne L F Ed Vt gf tm m → opn L F Ed tm → open_mesh m.
  Proof.
    intros [Hmv A2 A3 AE A5 A6 A7 A8 A9 A10 A11 A12 A13] [H1 H2 H3 H4 H5 H6]. subst tm.
    assert (∀ w, valid m w → vd L w) as Hvd by (intros w Hw; by apply (mv_valid _ _ _ _ Hmv)).
    assert (∀ w, vd L w → w_verts m w = Some (vv F w)) as Hvs by (intros w Hw; apply (mv_verts _ _ _ _ Hmv), Hw).
    split; try done.
    - intros w a b c d Hw%Hvd E. rewrite Hvs in E by done. apply (inj Some) in E. change [a; b; c; d] with (list4 (A4 a b c d)). rewrite <- E.
      apply vv_nodup; [apply Hw|]. apply H1, Hw.
    - intros w w' a b c d d' Hw%Hvd Hw'%Hvd E E'. rewrite Hvs in E, E' by done. apply (inj Some) in E, E'. rewrite (mv_adj _ _ _ _ Hmv Hw). f_equal. apply H2; [done..|].
      unfold twist. by rewrite E, E'.
    - intros w w' t Hw%Hvd Hw'%Hvd E E'. rewrite (mv_tri _ _ _ _ Hmv) in E by apply Hw. rewrite (mv_tri _ _ _ _ Hmv) in E' by apply Hw'. apply H3; [done..|congruence].
    - intros w a b Hw%Hvd E. rewrite (mv_pair _ _ _ _ Hmv) in E by apply Hw. destruct (H5 w Hw) as (ue & B & C). exists (uv F w), ue.
      split; [by apply (mv_undir _ _ _ _ Hmv), Hw|]. rewrite AE. split; [done|]. rewrite C. unfold pair2. congruence.
    - intros e e' ue ue'. rewrite !AE. apply H6.
    - intros k w. rewrite (H4 k w), (mv_valid _ _ _ _ Hmv). split.
      + intros (A & B & C). split; [split; [done|lia]|]. split; [done|]. eexists. split; [by apply (mv_tri _ _ _ _ Hmv)|done].
      + intros (A & B & t & C & D). rewrite (mv_tri _ _ _ _ Hmv) in C by apply A. split; [apply A|]. split; [done|]. congruence.
  Qed.
End link.

Lemma both_walker (q : arr4 N) x y : both q x y → ∃ j, j < 12 ∧ pair2 (verts_at q j) = (x, y).
Proof.
  destruct q as [a b c d]. unfold both, list4. cbn [q0 q1 q2 q3]. rewrite !elem_of_cons, !elem_of_nil. intros (Hx & Hy & Hne).
  destruct Hx as [->|[->|[->|[->|[]]]]]; destruct Hy as [->|[->|[->|[->|[]]]]]; try done;
    first [exists 0; split; [lia|reflexivity]|exists 1; split; [lia|reflexivity]|exists 2; split; [lia|reflexivity]|exists 3; split; [lia|reflexivity]|exists 4; split; [lia|reflexivity]|exists 5; split; [lia|reflexivity]|exists 6; split; [lia|reflexivity]|exists 7; split; [lia|reflexivity]|exists 8; split; [lia|reflexivity]|exists 9; split; [lia|reflexivity]|exists 10; split; [lia|reflexivity]|exists 11; split; [lia|reflexivity]].
Qed.
Lemma both_sym (q : arr4 N) x y : both q x y → both q y x.
Proof. intros (?&?&?). by split; [|split]. Qed.
Lemma verts_in {X} (q : arr4 X) (j : nat) : j < 12 → q0 (verts_at q j) ∈ list4 q ∧ q1 (verts_at q j) ∈ list4 q.
Proof. intros Hj. destruct q as [a b c d]. unfold list4. cbn [q0 q1 q2 q3]. rewrite !elem_of_cons. case12 j Hj; cbn; tauto. Qed.
Lemma both_at (q : arr4 N) (j : nat) : j < 12 → NoDup (list4 q) → both q (q0 (verts_at q j)) (q1 (verts_at q j)).
Proof.
  intros Hj Hnd. destruct (verts_in q j Hj) as [A B]. split; [done|]. split; [done|]. destruct q as [a b c d]. apply NoDup4 in Hnd as (?&?&?&?&?&?). cbn in *. clear A B. case12 j Hj; cbn; congruence.
Qed.
Lemma sorted_eq (a b c d : N) : sorted_2 (a, b) = sorted_2 (c, d) ↔ (a, b) = (c, d) ∨ (b, a) = (c, d).
Proof.
  split.
  - unfold sorted_2. destruct (N.ltb_spec b a), (N.ltb_spec d c); intros [= -> ->]; tauto.
  - intros [[= -> ->]|[= -> ->]]; [done|apply sorted_swap].
Qed.
Lemma sorted_lt (a b : N) : a ≠ b → ((sorted_2 (a, b)).1 < (sorted_2 (a, b)).2)%N.
Proof. intros H. unfold sorted_2. destruct (N.ltb_spec b a); cbn; lia. Qed.
Lemma twist_swap (x y : arr4 N) : twist x y ↔ tri3 y = swap3 (tri3 x).
Proof. unfold twist, tri3, swap3. cbn [fst snd]. split; [intros (-> & -> & ->); done|intros [= -> -> ->]; done]. Qed.
Lemma swap_swap t : swap3 (swap3 t) = t.
Proof. by destruct t as [[a b] c]. Qed.

Section repl.
  Context {V T : Type}.
  Context (ctr : pt) (nv : N) (dflt : T).
  Implicit Types (m : mesh V T) (F G : N → tet T) (w u d r : walker) (L : gset N) (id e : N)
    (Ed : N → option uedge) (Vt : N → option (vertex V)) (em : gmap (N * N) N) (tm : gmap (N * N * N) walker).
  Notation st := (st true ctr nv).

  Record tooks (sp : option N) (l : list (walker * walker)) L F Ed L' F' Ed' em' : Prop := Tooks {
    ts_L x : x ∈ L' ↔ x ∈ L ∧ ∀ p, p ∈ l → w_tet p.1 ≠ x;
    ts_F x : sbf (F x) (F' x);
    ts_lock u : w_tet u ∈ L' → lv F' u = true ↔ lv F u = true ∧ ∀ p, p ∈ l → ¬ face_of p.2 u;
    ts_ed e : ue_vs <$> Ed' e = if decide (sp = Some e) then None else ue_vs <$> Ed e;
    ts_elk e ue' : Ed' e = Some ue' → ∃ ue, Ed e = Some ue ∧ ue_vs ue' = ue_vs ue ∧
      (ue_locked ue' = true ↔ ue_locked ue = true ∧ ∀ p, p ∈ l → e ≠ uv F p.1 ∧ e ≠ uv F (to_nfe p.1));
    ts_em p u : p ∈ l → w_tet u = w_tet p.1 → w_edge u < 12 → em' !! ekey F u = Some (uv F u);
    ts_em_none k : (∀ p u, p ∈ l → w_tet u = w_tet p.1 → w_edge u < 12 → ekey F u ≠ k) → em' !! k = None }.

  Lemma took_tooks l L F Ed L' F' Ed' em' : took l L F Ed ∅ L' F' Ed' em' → tooks None l L F Ed L' F' Ed' em'.
  Proof.
    intros [A1 A2 A3 A4' A5 A6' A7 A8].
    assert (∀ e, (∃ p, p ∈ l ∧ (e = uv F p.1 ∨ e = uv F (to_nfe p.1))) ∧ Ed' e = set_elocked false <$> Ed e ∨ (∀ p, p ∈ l → e ≠ uv F p.1 ∧ e ≠ uv F (to_nfe p.1)) ∧ Ed' e = Ed e) as Hc.
    { intros e. destruct (decide (Exists (λ p : walker * walker, e = uv F p.1 ∨ e = uv F (to_nfe p.1)) l)) as [Hex|Hex].
      - apply Exists_exists in Hex as (p & Hp & He). left. split; [by exists p|]. by apply (A5 e p).
      - right. assert (∀ p, p ∈ l → e ≠ uv F p.1 ∧ e ≠ uv F (to_nfe p.1)) as Hn by (intros p Hp; split; intros ->; apply Hex, Exists_exists; exists p; tauto). split; [done|by apply A6']. }
    split; try done.
    - intros u Hu. destruct (decide (Exists (λ p : walker * walker, w_tet u = w_tet p.2 ∧ w_edge u mod 4 = w_edge p.2 mod 4) l)) as [Hex|Hex].
      + apply Exists_exists in Hex as (p & Hp & Hf). rewrite (A3 u p Hu Hp Hf). split; [done|]. intros [_ H]. by destruct (H p Hp).
      + assert (∀ p, p ∈ l → ¬ face_of p.2 u) as Hn by (intros p Hp Hf; apply Hex, Exists_exists; by exists p). rewrite A4' by done. tauto.
    - intros e. rewrite decide_False by done. destruct (Hc e) as [[_ ->]|[_ ->]]; [by destruct (Ed e)|done].
    - intros e ue' H. destruct (Hc e) as [[(p & Hp & He) E]|[Hn E]]; rewrite E in H.
      + destruct (Ed e) as [ue|]; [|done]. injection H as <-. exists ue. split; [done|]. split; [done|]. cbn. split; [done|]. intros [_ Hn]. destruct (Hn p Hp). tauto.
      + exists ue'. split; [done|]. split; [done|]. tauto.
  Qed.
  Lemma taken_tooks tm l L F Ed L1 F1 Ed1 em1 w w' L2 F2 Ed2 em2 : opn L F Ed tm → (∀ p, p ∈ l ++ [(w, w')] → vd L p.1) → w_tet w ∈ L1 →
    tooks None l L F Ed L1 F1 Ed1 em1 → taken true L1 F1 Ed1 em1 w w' L2 F2 Ed2 em2 → tooks (Some (uv F (to_perm w P1320))) (l ++ [(w, w')]) L F Ed L2 F2 Ed2 em2.
  Proof.
    intros Hop Hv Hw1 [A1 A2 A3 A4' A5 A6' A7] [B1 B2 B3 B4 B5 B6].
    assert (∀ x, uv F1 x = uv F x) as Huv by (intros x; by apply uv_sbf). assert (∀ x, ekey F1 x = ekey F x) as Hek by (intros x; unfold ekey; by rewrite (vv_sbf F F1)).
    assert (∀ x, x ∈ L2 ↔ x ∈ L1 ∧ w_tet w ≠ x) as HL2. { intros x. rewrite B1, elem_of_difference, elem_of_singleton. split; intros [? ?]; (split; [done|congruence]). }
    assert (∀ e, Ed2 e = if decide (Some (uv F (to_perm w P1320)) = Some e) then None else if decide (e = uv F w ∨ e = uv F (to_nfe w)) then set_elocked false <$> Ed1 e else Ed1 e) as HE2.
    { intros e. rewrite B4, !Huv. destruct (decide (e = uv F (to_perm w P1320))) as [->|Hne]; [by rewrite !decide_True|]. rewrite !(decide_False (P := _ = _)) by congruence.
      rewrite (decide_False (P := true = true ∧ _)) by (by intros [_ ?]). done. }
    split.
    - intros x. rewrite HL2, A1. setoid_rewrite elem_of_app. setoid_rewrite elem_of_list_singleton. split.
      + intros [[H1 H2] H3]. split; [done|]. intros p [Hp| ->]; [by apply H2|done].
      + intros [H1 H2]. split; [split; [done|]; intros p Hp; apply H2; by left|]. apply (H2 (w, w')). by right.
    - intros x. eapply sbf_trans; [apply A2|apply B2].
    - intros u Hu. apply HL2 in Hu as [Hu Hne]. rewrite B3 by congruence. setoid_rewrite elem_of_app. setoid_rewrite elem_of_list_singleton. destruct (decide _) as [Hf|Hf].
      + split; [done|]. intros [_ H]. destruct (H (w, w')); [by right|done].
      + rewrite (A3 u Hu). split; intros [H1 H2]; (split; [done|]); [intros p [Hp| ->]; [by apply H2|done]|intros p Hp; apply H2; by left].
    - intros e. rewrite HE2. destruct (decide (Some (uv F (to_perm w P1320)) = Some e)) as [|Hne]; [done|]. pose proof (A4' e) as A4e. rewrite decide_False in A4e by done. destruct (decide (e = _ ∨ _)); [|done]. rewrite <- A4e. by destruct (Ed1 e).
    - intros e ue' H. rewrite HE2 in H. destruct (decide (Some (uv F (to_perm w P1320)) = Some e)) as [|Hne]; [done|]. setoid_rewrite elem_of_app. setoid_rewrite elem_of_list_singleton. destruct (decide _) as [He|He].
      + destruct (Ed1 e) as [ue1|] eqn:E1; [|done]. injection H as <-. destruct (A5 e ue1 E1) as (ue & C1 & C2 & C3). exists ue. split; [done|]. split; [done|]. cbn. split; [done|]. intros [_ Hn].
        destruct (Hn (w, w')) as [N1 N2]; [by right|]. cbn in N1, N2. tauto.
      + destruct (A5 e ue' H) as (ue & C1 & C2 & C3). exists ue. split; [done|]. split; [done|]. rewrite C3. split; intros [H1 H2]; (split; [done|]).
        * intros p [Hp| ->]; [by apply H2|]. cbn. tauto.
        * intros p Hp. apply H2. by left.
    - intros p u Hp Hu He. assert (vd L u) as Hvu by (split; [rewrite Hu; by apply Hv|done]).
      assert ((w, w') ∈ l ++ [(w, w')]) as Hlast by (apply elem_of_app; right; by apply elem_of_list_singleton).
      destruct (decide (Exists (λ j, ekey F (Walker (w_tet w) j) = ekey F u) (seq 0 12))) as [Hex|Hex].
      + apply Exists_exists in Hex as (j & Hj & Ej). apply elem_of_seq in Hj. pose proof (B5 (Walker (w_tet w) j) eq_refl) as H. rewrite Hek, Huv, Ej in H. rewrite H by (cbn; lia). f_equal.
        apply (ekey_uv L F Ed tm); [done| |done..]. split; [apply (Hv _ Hlast)|cbn; lia].
      + rewrite B6; [|intros u' Hu' He' E; apply Hex, Exists_exists; exists (w_edge u'); rewrite Hek in E; split; [apply elem_of_seq; lia|by rewrite <- E, <- Hu'; destruct u']].
        apply elem_of_app in Hp as [Hp|Hp%elem_of_list_singleton]; [by apply (A6' p)|]. subst p. exfalso. apply Hex, Exists_exists. exists (w_edge u). split; [apply elem_of_seq; lia|]. cbn in Hu. rewrite <- Hu. by destruct u.
    - intros k Hk. rewrite B6; [|intros u Hu He; rewrite Hek; apply (Hk (w, w') u); [apply elem_of_app; right; by apply elem_of_list_singleton|done..]]. apply A7. intros p u Hp. apply Hk, elem_of_app. by left.
  Qed.
End repl.
