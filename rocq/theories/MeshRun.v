(** Effect of the elementary mesh updates on the views. *)
From stdpp Require Import base numbers list gmap option relations.
From Coq Require Import NArith ZArith ZifyN ZifyNat ZifyBool Lia.
From Verif Require Import IdMapModel IdMapSpec IdMapProofs WalkerModel WalkerSpec WalkerProofs SortProofs
  MeshModel WalkerMore MeshSpec MeshViews Surgery MeshLink.
Local Open Scope nat_scope.

Section run.
  Context {V T : Type}.
  Implicit Types (m : mesh V T) (F G : N → tet T) (w u : walker) (L : gset N) (id : N).

  (** A function overridden on finitely many ids. *)
  Fixpoint ov (l : list (N * tet T)) G (x : N) : tet T :=
    match l with
    | [] => G x
    | (i, t) :: l' => if decide (x = i) then t else ov l' G x
    end.
  Definition fupd G (i : N) (t : tet T) (x : N) : tet T := if decide (x = i) then t else G x.

  Lemma ov_in l G i t k : l !! k = Some (i, t) → NoDup (l.*1) → ov l G i = t.
  Proof.
    revert k. induction l as [|[j s] l IH]; intros k Hk Hnd; [done|].
    cbn in Hnd. apply NoDup_cons in Hnd as [Hj Hnd]. cbn. destruct k as [|k]; cbn in Hk.
    - injection Hk as -> ->. by rewrite decide_True.
    - rewrite decide_False; [by eapply IH|]. intros ->. apply Hj.
      apply elem_of_list_fmap. exists (j, t). split; [done|]. by eapply elem_of_list_lookup_2.
  Qed.
  Lemma ov_out l G x : x ∉ l.*1 → ov l G x = G x.
  Proof.
    induction l as [|[j s] l IH]; [done|]. cbn. rewrite not_elem_of_cons. intros [H1 H2].
    rewrite decide_False by done. by apply IH.
  Qed.
  Lemma ov_set l G i t t' k x : l !! k = Some (i, t) → NoDup (l.*1) →
    ov (<[k := (i, t')]> l) G x = if decide (x = i) then t' else ov l G x.
  Proof.
    revert k. induction l as [|[j s] l IH]; intros k Hk Hnd; [done|].
    cbn in Hnd. apply NoDup_cons in Hnd as [Hj Hnd]. destruct k as [|k]; cbn in Hk |- *.
    - injection Hk as -> ->. by destruct (decide (x = i)).
    - rewrite IH by done. destruct (decide (x = j)) as [->|]; [|done].
      rewrite decide_False; [done|]. intros ->. apply Hj.
      apply elem_of_list_fmap. exists (i, t). split; [done|]. by eapply elem_of_list_lookup_2.
  Qed.
  Lemma ov_fupd_out l G i t x : i ∉ l.*1 → ov l (fupd G i t) x = if decide (x = i) then t else ov l G x.
  Proof.
    induction l as [|[j s] l IH]; [done|]. cbn. rewrite not_elem_of_cons. intros [H1 H2].
    destruct (decide (x = j)) as [->|].
    - by rewrite decide_False.
    - by apply IH.
  Qed.

  Definition tst m L F : Prop := mv m L F ∧ im_wf (m_tets m).
  (** Nothing but the contents of the tet table differs. *)
  Record same_rest m m' : Prop := SameRest {
    sr_verts : m_verts m' = m_verts m;
    sr_gf : m_ghost_flags m' = m_ghost_flags m;
    sr_edges : m_edges m' = m_edges m;
    sr_tm : m_trimap m' = m_trimap m;
    sr_track : m_track m' = m_track m;
    sr_center : m_center m' = m_center m;
    sr_npi : im_npi (m_tets m') = im_npi (m_tets m) }.
  Lemma same_rest_refl m : same_rest m m.
  Proof. done. Qed.
  Lemma same_rest_trans m1 m2 m3 : same_rest m1 m2 → same_rest m2 m3 → same_rest m1 m3.
  Proof. intros [] []. split; congruence. Qed.

  Lemma mv_ext m L F G : (∀ x, x ∈ L → F x = G x) → mv m L F → mv m L G.
  Proof. intros H Hmv id. rewrite Hmv. destruct (decide (id ∈ L)); [|done]. by rewrite H. Qed.

  Lemma upd_st m L F id f : tst m L F → id ∈ L →
    ∃ m', tet_upd m id f = Some m' ∧ tst m' L (fupd F id (f (F id))) ∧ same_rest m m'.
  Proof.
    intros [Hmv Hwf] Hid. unfold tet_upd. rewrite (mv_in _ _ _ _ Hmv Hid). cbn [mbind option_bind].
    destruct (wf_set (m_tets m) id (f (F id)) Hwf) as (ts & E & Hwf' & Eabs).
    { exists (F id). by apply (mv_in _ _ _ _ Hmv Hid). }
    rewrite E. cbn [mbind option_bind]. eexists. split; [reflexivity|]. injection Eabs as E1 E2.
    split; [|by split; cbn]. split; [|done].
    intros x. unfold tet_get, im_get. cbn [m_tets with_tets]. rewrite E1. unfold fupd.
    destruct (decide (x = id)) as [->|Hne].
    - rewrite lookup_insert. by rewrite decide_True.
    - rewrite lookup_insert_ne by done. exact (Hmv x).
  Qed.

  Lemma upd_ov m L l G i t k f : tst m L (ov l G) → l !! k = Some (i, t) → NoDup (l.*1) → i ∈ L →
    ∃ m', tet_upd m i f = Some m' ∧ tst m' L (ov (<[k := (i, f t)]> l) G) ∧ same_rest m m'.
  Proof.
    intros Hst Hk Hnd Hi. destruct (upd_st m L _ i f Hst Hi) as (m' & E & [Hmv Hwf] & Hr).
    exists m'. split; [done|]. split; [|done]. split; [|done].
    eapply mv_ext; [|exact Hmv]. intros x _. rewrite (ov_set l G i t) by done.
    unfold fupd. by rewrite (ov_in l G i t k).
  Qed.
  Lemma upd_out m L l G i f : tst m L (ov l G) → i ∉ l.*1 → i ∈ L →
    ∃ m', tet_upd m i f = Some m' ∧ tst m' L (ov l (fupd G i (f (G i)))) ∧ same_rest m m'.
  Proof.
    intros Hst Hk Hi. destruct (upd_st m L _ i f Hst Hi) as (m' & E & [Hmv Hwf] & Hr).
    exists m'. split; [done|]. split; [|done]. split; [|done].
    eapply mv_ext; [|exact Hmv]. intros x _. rewrite ov_fupd_out by done.
    unfold fupd. by rewrite ov_out.
  Qed.

  Lemma insert_st m L F t : tst m L F → (im_npi (m_tets m) < u32_mod)%N →
    ∃ m' id, tet_insert m t = (m', id) ∧ id ∉ L ∧ tst m' ({[id]} ∪ L) (fupd F id t) ∧
      (im_npi (m_tets m') ≤ im_npi (m_tets m) + 1)%N ∧ fresh_for (im_abs_of (m_tets m)) id ∧
      m_verts m' = m_verts m ∧ m_ghost_flags m' = m_ghost_flags m ∧ m_edges m' = m_edges m ∧
      m_trimap m' = m_trimap m ∧ m_track m' = m_track m ∧ m_center m' = m_center m.
  Proof.
    intros [Hmv Hwf] Hlt. unfold tet_insert.
    pose proof (wf_insert (m_tets m) t Hwf Hlt) as Hw. pose proof (im_insert_npi (m_tets m) t Hwf Hlt) as Hn.
    destruct (im_insert (m_tets m) t) as [ts id]. cbn [fst] in Hn. destruct Hw as (Hwf' & Hfr & Eabs).
    injection Eabs as E1 E2.
    assert (id ∉ L) as HidL.
    { intros Hin. pose proof (mv_in _ _ _ _ Hmv Hin) as Hg. destruct Hfr as [Hfr _]. cbn in Hfr.
      unfold tet_get, im_get in Hg. congruence. }
    eexists _, id. split; [reflexivity|]. split; [done|].
    split; [|split; [exact Hn|]; split; [exact Hfr|]; by repeat split].
    split; [|done]. intros x. unfold tet_get, im_get. cbn [m_tets with_tets]. rewrite E1. unfold fupd.
    destruct (decide (x = id)) as [->|Hne].
    - rewrite lookup_insert. rewrite decide_True by set_solver. done.
    - rewrite lookup_insert_ne by done. pose proof (Hmv x) as Hx. unfold tet_get, im_get in Hx. rewrite Hx.
      destruct (decide (x ∈ L)); [rewrite decide_True by set_solver|rewrite decide_False by set_solver]; done.
  Qed.

  (** ** Redirecting links. *)
  Definition sf w u : Prop := w_tet w = w_tet u ∧ w_edge w mod 4 = w_edge u mod 4.
  Definition same_but_opp (t t' : tet T) : Prop :=
    t_vs t' = t_vs t ∧ t_edges t' = t_edges t ∧ t_flags t' = t_flags t ∧ t_val t' = t_val t.

  (** [G'] is [G] with the links of the faces listed in [l] redirected as listed. *)
  Record relinked G G' (l : list (walker * walker)) : Prop := Relinked {
    rl_rest x : same_but_opp (G x) (G' x);
    rl_oppok x : oppok G x → oppok G' x;
    rl_in a u : (a, u) ∈ l → av G' a = u;
    rl_out r : w_edge r < 12 → (∀ a u, (a, u) ∈ l → ¬ sf a r) → av G' r = av G r;
    rl_entry x i : i < 4 → (∀ a u, (a, u) ∈ l → w_tet a = x → w_edge a mod 4 ≠ i) →
      get4 (t_opp (G' x)) i = get4 (t_opp (G x)) i }.

  Lemma relinked_nil G : relinked G G [].
  Proof. split; try done. intros a u H. by apply elem_of_nil in H. Qed.

  Lemma get4_set4 {X} (a : arr4 X) i j (x : X) : i < 4 → j < 4 →
    get4 (set4 a i x) j = if decide (i = j) then x else get4 a j.
  Proof. intros Hi Hj. case4 i Hi; case4 j Hj; done. Qed.

  Lemma rot_edge k x id e : w_edge (rot k (Walker id (w_edge x))) = w_edge (rot k x) ∧
    rot k (Walker id e) = Walker id (w_edge (rot k (Walker (w_tet x) e))).
  Proof. destruct k as [|[|k]]; done. Qed.

  Lemma perm_inv_rot k base x : base < 12 → w_edge x < 12 →
    w_edge (rot k (Walker (w_tet x) (perm_inv base (w_edge x)))) = perm_inv base (w_edge (rot k x)).
  Proof.
    intros Hb Hx. destruct k as [|[|k]]; cbn [rot]; [done|unfold to_pfe|unfold to_nfe]; cbn [w_edge].
    - rewrite !pfe_fwd by (done || by apply perm_inv_lt). rewrite perm_inv_fwd by (done || lia). done.
    - rewrite !nfe_fwd by (done || by apply perm_inv_lt). rewrite perm_inv_fwd by (done || lia). done.
  Qed.

  (** Writing a link [Walker id (perm_inv base old)] makes crossing from [a] lead to
      [Walker id (perm_inv base e)], where [e] is the position crossing led to before. *)
  Lemma relinked_step G G' l a id base :
    relinked G G' l → w_edge a < 12 → oppok G (w_tet a) → base < 12 →
    (∀ a' u', (a', u') ∈ l → ¬ sf a' a) →
    relinked G
      (fupd G' (w_tet a) (set_opp (w_edge a mod 4)
         (Walker id (perm_inv base (w_edge (get4 (t_opp (G' (w_tet a))) (w_edge a mod 4))))) (G' (w_tet a))))
      ((a, Walker id (perm_inv base (w_edge (av G a)))) :: l).
  Proof.
    intros [R1 R2 R3 R4 R5] Ha Hop Hb Hnew.
    pose proof (Nat.mod_upper_bound (w_edge a) 4) as Hma.
    rewrite (R5 (w_tet a) (w_edge a mod 4)); [|lia|].
    2:{ intros a' u' Hin Et Em. by apply (Hnew a' u'). }
    set (old := get4 (t_opp (G (w_tet a))) (w_edge a mod 4)) in *.
    assert (w_edge old < 12) as Hold by (apply Hop; lia).
    split.
    - intros x. unfold fupd. destruct (decide (x = w_tet a)) as [->|]; [|done]. exact (R1 (w_tet a)).
    - intros x Hx i Hi. unfold fupd. destruct (decide (x = w_tet a)) as [->|]; [|by apply R2].
      cbn [t_opp set_opp]. rewrite get4_set4 by lia. destruct (decide _); [|by apply R2].
      by apply perm_inv_lt.
    - intros a' u [[= -> ->]|Hin]%elem_of_cons.
      + unfold av. unfold fupd. rewrite decide_True by done. cbn [t_opp set_opp].
        rewrite get4_set4 by lia. rewrite decide_True by done. fold old.
        destruct (rot_edge (w_edge a / 4) old id (perm_inv base (w_edge old))) as [_ ->].
        f_equal. by apply perm_inv_rot.
      + rewrite <- (R3 a' u Hin). unfold av, fupd. destruct (decide (w_tet a' = w_tet a)) as [E|]; [|done].
        cbn [t_opp set_opp]. rewrite get4_set4 by (try lia; by apply Nat.mod_upper_bound).
        rewrite decide_False; [by rewrite E|]. intros E2. by apply (Hnew a' u Hin).
    - intros r Hr Hno. rewrite <- R4; [|done|].
      2:{ intros a' u' Hin. apply (Hno a' u'). apply elem_of_cons. by right. }
      unfold av, fupd. destruct (decide (w_tet r = w_tet a)) as [E|]; [|done].
      cbn [t_opp set_opp]. rewrite get4_set4 by (try lia; by apply Nat.mod_upper_bound).
      rewrite decide_False; [by rewrite E|]. intros E2.
      apply (Hno a (Walker id (perm_inv base (w_edge (av G a))))); [apply elem_of_cons; by left|done].
    - intros x i Hi Hno. rewrite <- R5; [|done|].
      2:{ intros a' u' Hin. apply (Hno a' u'). apply elem_of_cons. by right. }
      unfold fupd. destruct (decide (x = w_tet a)) as [->|]; [|done].
      cbn [t_opp set_opp]. rewrite get4_set4 by lia. rewrite decide_False; [done|].
      eapply Hno; [apply elem_of_cons; by left|done].
  Qed.

  Lemma relink_st m L l G0 G rl walk a id base :
    tst m L (ov l G) → relinked G0 G rl → vd L walk → av (ov l G) walk = a →
    vd L a → w_tet a ∉ l.*1 → oppok G0 (w_tet a) → base < 12 →
    (∀ a' u', (a', u') ∈ rl → ¬ sf a' a) →
    ∃ m' G', relink m walk id base = Some (m', a) ∧ tst m' L (ov l G') ∧
      relinked G0 G' ((a, Walker id (perm_inv base (w_edge (av G0 a)))) :: rl) ∧ same_rest m m'.
  Proof.
    intros Hst Hrl Hw Ea Ha Hout Hop Hb Hnew. unfold relink.
    rewrite (mv_adj _ _ _ _ (proj1 Hst)) by done. rewrite Ea. cbn [mbind option_bind].
    rewrite (mv_in _ _ _ _ (proj1 Hst)) by apply Ha. cbn [mbind option_bind].
    rewrite ov_out by done.
    match goal with |- context [tet_upd m (w_tet a) ?f] =>
      destruct (upd_out m L l G (w_tet a) f Hst Hout (proj1 Ha)) as (m' & E & Hst' & Hr) end.
    rewrite E. cbn [mbind option_bind]. eexists m', _. split; [reflexivity|]. split; [exact Hst'|].
    split; [|done]. apply relinked_step; try done. apply Ha.
  Qed.

  (** ** Faces of one tet and of neighbours. *)
  Lemma sf_sym w u : sf w u → sf u w.
  Proof. intros [??]. done. Qed.
  Lemma sf_rot w u : w_edge w < 12 → w_edge u < 12 → sf w u → u = w ∨ u = to_nfe w ∨ u = to_pfe w.
  Proof.
    destruct w as [t e], u as [t' e']. unfold sf. cbn. intros He He' [-> Hm].
    unfold to_nfe, to_pfe. cbn [w_tet w_edge]. revert Hm.
    case12 e He; case12 e' He'; cbn; intros; try discriminate; tauto.
  Qed.
  Lemma sf_av L F w u : vok L F → vd L w → vd L u → sf (av F w) (av F u) → sf w u.
  Proof.
    intros Hok Hw Hu Hsf. destruct (vo_adj _ _ Hok w Hw) as [H1 _], (vo_adj _ _ Hok u Hu) as [H2 _].
    assert (oppok F (w_tet (av F w))) as Hop by (apply (vok_oppok L); [done|apply H1]).
    rewrite <- (av_av L F w), <- (av_av L F u) by done.
    destruct (sf_rot _ _ (proj2 H1) (proj2 H2) Hsf) as [-> | [-> | ->]].
    - done.
    - rewrite av_nfe by (done || apply H1). rewrite (av_av L F w) by done. split; [done|].
      unfold to_pfe; cbn [w_edge]. by rewrite pfe_mod4 by apply Hw.
    - rewrite av_pfe by (done || apply H1). rewrite (av_av L F w) by done. split; [done|].
      unfold to_nfe; cbn [w_edge]. by rewrite nfe_mod4 by apply Hw.
  Qed.

  (** ** Triangle map. *)
  Definition tkey F id i : N * N * N := tri_key (tri3 (vv F (Walker id i))).
  Definition tkeys F (ids : list N) : list (N * N * N) :=
    id ← ids; tkey F id <$> [0; 1; 2; 3].

  Lemma elem_of_tkeys F ids k : k ∈ tkeys F ids ↔ ∃ id i, id ∈ ids ∧ i < 4 ∧ k = tkey F id i.
  Proof.
    unfold tkeys. rewrite elem_of_list_bind. split.
    - intros (id & Hk & Hid). apply elem_of_list_fmap in Hk as (i & -> & Hi).
      exists id, i. split; [done|]. split; [|done]. rewrite !elem_of_cons, elem_of_nil in Hi. lia.
    - intros (id & i & Hid & Hi & ->). exists id. split; [|done]. apply elem_of_list_fmap.
      exists i. split; [done|]. rewrite !elem_of_cons. lia.
  Qed.

  Lemma mfoldl_app {S A} (f : S → A → option S) l1 l2 s :
    mfoldl f (l1 ++ l2) s = s' ← mfoldl f l1 s; mfoldl f l2 s'.
  Proof.
    revert s. induction l1 as [|a l1 IH]; intros s; cbn; [done|].
    destruct (f s a); cbn; [apply IH|done].
  Qed.

  Lemma trimap_remove_eq m L F w : mv m L F → w_tet w ∈ L →
    trimap_remove m w = Some (with_trimap m (delete (tri_key (tri3 (vv F w))) (m_trimap m))).
  Proof. intros H Hw. unfold trimap_remove. by rewrite (mv_tri m L F). Qed.
  Lemma trimap_insert_eq m L F w : mv m L F → w_tet w ∈ L →
    trimap_insert m w = Some (with_trimap m (<[tri_key (tri3 (vv F w)) := w]> (m_trimap m))).
  Proof. intros H Hw. unfold trimap_insert. by rewrite (mv_tri m L F). Qed.

  Lemma trimap_remove_tet_st m L F id : mv m L F → id ∈ L →
    ∃ tm', trimap_remove_tet m id = Some (with_trimap m tm') ∧
      ∀ k, (k ∈ tkeys F [id] → tm' !! k = None) ∧ (k ∉ tkeys F [id] → tm' !! k = m_trimap m !! k).
  Proof.
    intros Hmv Hid. unfold trimap_remove_tet. cbn [mfoldl].
    rewrite (trimap_remove_eq _ L F) by done. cbn [mbind option_bind].
    rewrite (trimap_remove_eq _ L F) by done. cbn [mbind option_bind].
    rewrite (trimap_remove_eq _ L F) by done. cbn [mbind option_bind].
    rewrite (trimap_remove_eq _ L F) by done. cbn [mbind option_bind]. eexists. split; [reflexivity|]. cbn [m_trimap with_trimap].
    intros k. unfold tkeys, tkey. cbn [mbind list_bind fmap list_fmap app].
    rewrite !elem_of_cons, elem_of_nil. split.
    - intros Hk.
      destruct (decide (k = tri_key (tri3 (vv F (Walker id 3))))) as [->|H3]; [by rewrite lookup_delete|rewrite lookup_delete_ne by done].
      destruct (decide (k = tri_key (tri3 (vv F (Walker id 2))))) as [->|H2]; [by rewrite lookup_delete|rewrite lookup_delete_ne by done].
      destruct (decide (k = tri_key (tri3 (vv F (Walker id 1))))) as [->|H1]; [by rewrite lookup_delete|rewrite lookup_delete_ne by done].
      destruct (decide (k = tri_key (tri3 (vv F (Walker id 0))))) as [->|H0]; [by rewrite lookup_delete|]. tauto.
    - intros Hk. rewrite !lookup_delete_ne by (intros <-; apply Hk; tauto). done.
  Qed.

  Lemma trimap_remove_tets_st m L F ids : mv m L F → (∀ id, id ∈ ids → id ∈ L) →
    ∃ tm', trimap_remove_tets m ids = Some (with_trimap m tm') ∧
      (m_track m = true → ∀ k, (k ∈ tkeys F ids → tm' !! k = None) ∧
                               (k ∉ tkeys F ids → tm' !! k = m_trimap m !! k)).
  Proof.
    intros Hmv Hin. unfold trimap_remove_tets. destruct (m_track m) eqn:Et.
    2:{ exists (m_trimap m). split; [by destruct m|done]. }
    clear Et. revert m Hmv. induction ids as [|id ids IH]; intros m Hmv; cbn [mfoldl].
    - exists (m_trimap m). split; [by destruct m|]. intros _ k. split; [|done].
      unfold tkeys. cbn. by intros ?%elem_of_nil.
    - destruct (trimap_remove_tet_st m L F id Hmv) as (tm1 & E1 & H1).
      { apply Hin. apply elem_of_cons. by left. }
      rewrite E1. cbn [mbind option_bind].
      destruct (IH (λ id' H', Hin id' (proj2 (elem_of_cons _ _ _) (or_intror H'))) (with_trimap m tm1)) as (tm2 & E2 & H2).
      { exact Hmv. }
      exists tm2. split; [exact E2|]. intros _ k. destruct (H1 k) as [H1a H1b], (H2 eq_refl k) as [H2a H2b].
      cbn [m_trimap with_trimap] in H2b.
      assert (k ∈ tkeys F (id :: ids) ↔ k ∈ tkeys F [id] ∨ k ∈ tkeys F ids) as Hk.
      { unfold tkeys. cbn [mbind list_bind]. rewrite !elem_of_app, elem_of_nil. tauto. }
      rewrite Hk. destruct (decide (k ∈ tkeys F ids)) as [Hd|Hd].
      + split; [by intros _; apply H2a|]. tauto.
      + rewrite H2b by done. split; [intros [?|?]; [by apply H1a|done]|]. intros Hn. apply H1b. tauto.
  Qed.

  Lemma trimap_insert_tet_st m L F id : mv m L F → id ∈ L →
    ∃ tm', trimap_insert_tet m id = Some (with_trimap m tm') ∧
      (∀ k, k ∉ tkeys F [id] → tm' !! k = m_trimap m !! k) ∧
      (∀ k, k ∈ tkeys F [id] → ∃ i, i < 4 ∧ tm' !! k = Some (Walker id i) ∧ k = tkey F id i).
  Proof.
    intros Hmv Hid. unfold trimap_insert_tet. cbn [mfoldl].
    rewrite (trimap_insert_eq _ L F) by done. cbn [mbind option_bind].
    rewrite (trimap_insert_eq _ L F) by done. cbn [mbind option_bind].
    rewrite (trimap_insert_eq _ L F) by done. cbn [mbind option_bind].
    rewrite (trimap_insert_eq _ L F) by done. cbn [mbind option_bind]. eexists. split; [reflexivity|]. cbn [m_trimap with_trimap].
    unfold tkeys. cbn [mbind list_bind fmap list_fmap app]. unfold tkey. split.
    - intros k. rewrite !elem_of_cons, elem_of_nil. intros Hk.
      rewrite !lookup_insert_ne by (intros <-; apply Hk; tauto). done.
    - intros k. rewrite !elem_of_cons, elem_of_nil. intros Hk.
      destruct (decide (k = tri_key (tri3 (vv F (Walker id 3))))) as [->|H3].
      { exists 3. rewrite lookup_insert. split; [lia|done]. }
      rewrite lookup_insert_ne by done.
      destruct (decide (k = tri_key (tri3 (vv F (Walker id 2))))) as [->|H2].
      { exists 2. rewrite lookup_insert. split; [lia|done]. }
      rewrite lookup_insert_ne by done.
      destruct (decide (k = tri_key (tri3 (vv F (Walker id 1))))) as [->|H1].
      { exists 1. rewrite lookup_insert. split; [lia|done]. }
      rewrite lookup_insert_ne by done.
      destruct (decide (k = tri_key (tri3 (vv F (Walker id 0))))) as [->|H0].
      { exists 0. rewrite lookup_insert. split; [lia|done]. }
      tauto.
  Qed.

  Lemma trimap_insert_fold_st ids L F : ∀ m, mv m L F → (∀ id, id ∈ ids → id ∈ L) →
    ∃ tm', mfoldl trimap_insert_tet ids m = Some (with_trimap m tm') ∧
      (∀ k, k ∉ tkeys F ids → tm' !! k = m_trimap m !! k) ∧
      (∀ k, k ∈ tkeys F ids → ∃ id i, id ∈ ids ∧ i < 4 ∧ tm' !! k = Some (Walker id i) ∧ k = tkey F id i).
  Proof.
    induction ids as [|id ids IH]; intros m Hmv Hin; cbn [mfoldl].
    - exists (m_trimap m). split; [by destruct m|]. split; [done|].
      unfold tkeys. cbn. by intros k ?%elem_of_nil.
    - destruct (trimap_insert_tet_st m L F id Hmv) as (tm1 & E1 & H1 & H1').
      { apply Hin. apply elem_of_cons. by left. }
      rewrite E1. cbn [mbind option_bind].
      destruct (IH (with_trimap m tm1)) as (tm2 & E2 & H2 & H2').
      { exact Hmv. } { intros. apply Hin. apply elem_of_cons. by right. }
      exists tm2. split; [exact E2|]. cbn [m_trimap with_trimap] in H2.
      assert (∀ k, k ∈ tkeys F (id :: ids) ↔ k ∈ tkeys F [id] ∨ k ∈ tkeys F ids) as Hk.
      { intros k. unfold tkeys. cbn [mbind list_bind]. rewrite !elem_of_app, elem_of_nil. tauto. }
      split.
      + intros k Hn. rewrite Hk in Hn. rewrite H2 by tauto. apply H1. tauto.
      + intros k Hi. rewrite Hk in Hi. destruct (decide (k ∈ tkeys F ids)) as [Hd|Hd].
        * destruct (H2' k Hd) as (id' & i & P1 & P2 & P3 & P4). exists id', i.
          split; [apply elem_of_cons; by right|done].
        * rewrite H2 by done. destruct (H1' k) as (i & P1 & P2 & P3); [tauto|]. exists id, i.
          split; [apply elem_of_cons; by left|done].
  Qed.

  Lemma trimap_insert_tets_st m L F ids : mv m L F → (∀ id, id ∈ ids → id ∈ L) →
    ∃ tm', trimap_insert_tets m ids = Some (with_trimap m tm') ∧
      (m_track m = true →
        (∀ k, k ∉ tkeys F ids → tm' !! k = m_trimap m !! k) ∧
        (∀ k, k ∈ tkeys F ids → ∃ id i, id ∈ ids ∧ i < 4 ∧ tm' !! k = Some (Walker id i) ∧ k = tkey F id i)).
  Proof.
    intros Hmv Hin. unfold trimap_insert_tets. destruct (m_track m) eqn:Et.
    2:{ exists (m_trimap m). split; [by destruct m|done]. }
    destruct (trimap_insert_fold_st ids L F m Hmv Hin) as (tm' & E & H). exists tm'. done.
  Qed.

  (** Keys determine faces in a consistent mesh. *)
  Lemma tkey_inj L F id i id' i' : vok L F → id ∈ L → id' ∈ L → i < 4 → i' < 4 →
    tkey F id i = tkey F id' i' → id = id' ∧ i = i'.
  Proof.
    intros Hok Hid Hid' Hi Hi' E. unfold tkey in E.
    assert (vd L (Walker id i)) as Hw by (split; [done|cbn; lia]).
    assert (vd L (Walker id' i')) as Hw' by (split; [done|cbn; lia]).
    pose proof (vv_nodup F _ (proj2 Hw) (vo_nodup _ _ Hok _ Hid)) as Hnd.
    unfold list4 in Hnd. apply NoDup4 in Hnd as (N1&N2&N3&N4&N5&N6).
    unfold tri3 in E. apply tri_key_eq in E; [|done..].
    assert (Walker id i = Walker id' i' ∨ Walker id i = to_pfe (Walker id' i') ∨ Walker id i = to_nfe (Walker id' i')) as C.
    { destruct E as [E|[E|E]].
      - left. apply (vo_uniq _ _ Hok); [done..|]. unfold tri3. congruence.
      - right. left. apply (vo_uniq _ _ Hok); [done|by apply vd_pfe|].
        rewrite vv_pfe by apply Hw'. unfold tri3. cbn. congruence.
      - right. right. apply (vo_uniq _ _ Hok); [done|by apply vd_nfe|].
        rewrite vv_nfe by apply Hw'. unfold tri3. cbn. congruence. }
    unfold to_pfe, to_nfe in C. cbn [w_tet w_edge] in C.
    destruct C as [C|[C|C]]; injection C as -> Ci; (split; [done|]); [done|..];
      exfalso; clear -Ci Hi Hi'; case4 i Hi; case4 i' Hi'; cbn in Ci; discriminate.
  Qed.

  (** The triangle map after a replacement of tets. *)
  Lemma tm_surgery (O K K' : gset N) F F' (tm tm1 tm2 : gmap (N * N * N) walker) (lK lK' : list N) :
    vok (O ∪ K) F → vok (O ∪ K') F' → O ## K → O ## K' →
    (∀ id, id ∈ O → t_vs (F' id) = t_vs (F id)) →
    (∀ id, id ∈ lK ↔ id ∈ K) → (∀ id, id ∈ lK' ↔ id ∈ K') →
    tmok (O ∪ K) F tm →
    (∀ k, (k ∈ tkeys F lK → tm1 !! k = None) ∧ (k ∉ tkeys F lK → tm1 !! k = tm !! k)) →
    (∀ k, k ∉ tkeys F' lK' → tm2 !! k = tm1 !! k) →
    (∀ k, k ∈ tkeys F' lK' → ∃ id i, id ∈ lK' ∧ i < 4 ∧ tm2 !! k = Some (Walker id i) ∧ k = tkey F' id i) →
    tmok (O ∪ K') F' tm2.
  Proof.
    intros Hok Hok' HD HD' Hvs HlK HlK' Htm H1 H2 H3 k w.
    assert (∀ id i, id ∈ O → tkey F' id i = tkey F id i) as HkO.
    { intros id i Hid. unfold tkey, vv. cbn. by rewrite Hvs. }
    destruct (decide (k ∈ tkeys F' lK')) as [Hk|Hk].
    - destruct (H3 k Hk) as (id & i & Hid & Hi & E & Ek). rewrite E. split.
      + intros [= <-]. cbn [w_tet w_edge]. split; [apply HlK' in Hid; by apply elem_of_union_r|]. done.
      + destruct w as [t e]. cbn [w_tet w_edge]. intros (Hw1 & Hw2 & Hw3). f_equal.
        destruct (tkey_inj (O ∪ K') F' id i t e) as [-> ->]; try done.
        * apply HlK' in Hid. by apply elem_of_union_r.
        * unfold tkey at 2. congruence.
    - rewrite H2 by done. destruct (H1 k) as [H1a H1b].
      destruct (decide (k ∈ tkeys F lK)) as [Hk'|Hk'].
      + rewrite H1a by done. split; [done|]. destruct w as [t e]. cbn [w_tet w_edge]. intros (Hw1 & Hw2 & Hw3).
        exfalso. apply elem_of_union in Hw1 as [Hw1|Hw1].
        * apply elem_of_tkeys in Hk' as (id & i & Hid & Hi & Ek).
          apply HlK in Hid. destruct (tkey_inj (O ∪ K) F id i t e) as [-> ->]; try done.
          -- by apply elem_of_union_r.
          -- by apply elem_of_union_l.
          -- rewrite <- Ek, <- Hw3. by apply (HkO t e).
          -- by apply (HD t).
        * apply Hk. apply elem_of_tkeys. exists t, e. split; [by apply HlK'|]. done.
      + rewrite H1b by done. rewrite (Htm k w). destruct w as [t e]. cbn [w_tet w_edge].
        split; intros (Hw1 & Hw2 & Hw3); (split; [|split; [done|]]).
        * apply elem_of_union in Hw1 as [Hw1|Hw1]; [by apply elem_of_union_l|]. exfalso. apply Hk'.
          apply elem_of_tkeys. exists t, e. split; [by apply HlK|]. done.
        * apply elem_of_union in Hw1 as [Hw1|Hw1].
          -- rewrite <- Hw3. by apply (HkO t e).
          -- exfalso. apply Hk'. apply elem_of_tkeys. exists t, e. split; [by apply HlK|]. done.
        * apply elem_of_union in Hw1 as [Hw1|Hw1]; [by apply elem_of_union_l|]. exfalso. apply Hk.
          apply elem_of_tkeys. exists t, e. split; [by apply HlK'|]. done.
        * apply elem_of_union in Hw1 as [Hw1|Hw1].
          -- rewrite <- Hw3. symmetry. by apply (HkO t e).
          -- exfalso. apply Hk. apply elem_of_tkeys. exists t, e. split; [by apply HlK'|]. done.
  Qed.

  (** ** Vertex references. *)
  Lemma vert_ref_st m v w : im_wf (m_verts m) →
    let m' := vert_ref m v w in
    m_tets m' = m_tets m ∧ m_ghost_flags m' = m_ghost_flags m ∧ m_edges m' = m_edges m ∧
    m_trimap m' = m_trimap m ∧ m_track m' = m_track m ∧ m_center m' = m_center m ∧
    im_wf (m_verts m') ∧ im_npi (m_verts m') = im_npi (m_verts m) ∧
    (∀ x, m_vref m' x = if decide (x = v) then (λ _, w) <$> m_vref m x else m_vref m x) ∧
    (∀ x, (λ vt, (v_flags vt, v_pos vt, v_val vt)) <$> im_get (m_verts m') x =
          (λ vt, (v_flags vt, v_pos vt, v_val vt)) <$> im_get (m_verts m) x).
  Proof.
    intros Hwf. cbv zeta. unfold vert_ref. destruct (im_get (m_verts m) v) as [vt|] eqn:E.
    - destruct (wf_set (m_verts m) v (Vertex w (v_flags vt) (v_pos vt) (v_val vt)) Hwf) as (vs & E1 & Hwf1 & E2).
      { by exists vt. }
      rewrite E1. cbn [m_tets m_ghost_flags m_edges m_trimap m_track m_center m_verts with_verts].
      injection E2 as E2 E3. do 6 (split; [done|]). split; [done|]. split; [done|]. split.
      + intros x. unfold m_vref. cbn [m_verts with_verts]. unfold im_get at 1. rewrite E2.
        destruct (decide (x = v)) as [->|].
        * rewrite lookup_insert. by rewrite E.
        * by rewrite lookup_insert_ne.
      + intros x. unfold im_get at 1. rewrite E2. destruct (decide (x = v)) as [->|].
        * rewrite lookup_insert. by rewrite E.
        * by rewrite lookup_insert_ne.
    - do 6 (split; [done|]). split; [done|]. split; [done|]. split; [|done].
      intros x. destruct (decide (x = v)) as [->|]; [|done]. unfold m_vref. by rewrite E.
  Qed.

  Definition vert_refs m (l : list (N * walker)) : mesh V T :=
    fold_left (λ m '(v, w), vert_ref m v w) l m.
  (** The last reference written for [x]. *)
  Fixpoint last_ref (l : list (N * walker)) (x : N) (old : walker) : walker :=
    match l with
    | [] => old
    | (v, w) :: l' => last_ref l' x (if decide (x = v) then w else old)
    end.

  Lemma vert_refs_st l : ∀ m, im_wf (m_verts m) →
    let m' := vert_refs m l in
    m_tets m' = m_tets m ∧ m_ghost_flags m' = m_ghost_flags m ∧ m_edges m' = m_edges m ∧
    m_trimap m' = m_trimap m ∧ m_track m' = m_track m ∧ m_center m' = m_center m ∧
    im_wf (m_verts m') ∧ im_npi (m_verts m') = im_npi (m_verts m) ∧
    (∀ x, m_vref m' x = last_ref l x <$> m_vref m x) ∧
    (∀ x, (λ vt, (v_flags vt, v_pos vt, v_val vt)) <$> im_get (m_verts m') x =
          (λ vt, (v_flags vt, v_pos vt, v_val vt)) <$> im_get (m_verts m) x).
  Proof.
    induction l as [|[v w] l IH]; intros m Hwf; cbv zeta.
    - cbn. do 8 (split; [done|]). split; [|done]. intros x. by destruct (m_vref m x).
    - destruct (vert_ref_st m v w Hwf) as (A1&A2&A3&A4&A5&A6&A7&A8&A9&A10).
      destruct (IH (vert_ref m v w) A7) as (B1&B2&B3&B4&B5&B6&B7&B8&B9&B10).
      change (vert_refs m ((v, w) :: l)) with (vert_refs (vert_ref m v w) l).
      do 6 (split; [congruence|]). split; [done|]. split; [congruence|]. split.
      + intros x. rewrite B9, A9. cbn [last_ref]. destruct (decide (x = v)); by destruct (m_vref m x).
      + intros x. by rewrite B10, A10.
  Qed.
End run.
