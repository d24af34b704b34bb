(** The rings and faces of a piecewise linear complex. *)
From Coq Require Import NArith Lia Sorted.
From stdpp Require Import base numbers list gmap option sorting.
From Verif Require Import IdMapModel IdMapProofs WalkerModel MeshModel UtilModel UtilSpec PlcModel PlcSpec PlcList PlcNet.
Local Open Scope N_scope.

Section face.
  Context {V E F Pl : Type}.
  Context (plane0 : Pl) (default_edge : E) (plane_of : list pt → list (pt * pt) → Pl).
  Implicit Types (p : plc V E F Pl).

  (** What linking a use leaves alone. *)
  Record use_frame p p' : Prop := UseFrame {
    uf_verts : p_verts p' = p_verts p; uf_rings : p_rings p' = p_rings p; uf_faces : p_faces p' = p_faces p; uf_emap : p_emap p' = p_emap p;
    uf_edges : dense (p_edges p) → dense (p_edges p'); uf_fes : dense (p_fes p) → dense (p_fes p');
    uf_ne : im_npi (p_edges p') = im_npi (p_edges p); uf_nf : im_npi (p_fes p') = im_npi (p_fes p);
    uf_evs e : evs p' e = evs p e; uf_eval e : eval p' e = eval p e;
    uf_enout e : enout p' e = enout p e; uf_epout e : epout p' e = epout p e; uf_enin e : enin p' e = enin p e; uf_epin e : epin p' e = epin p e;
    uf_feedge x : feedge p' x = feedge p x; uf_fering x : fering p' x = fering p x;
    uf_fenext x : fenext p' x = fenext p x; uf_feprev x : feprev p' x = feprev p x;
    uf_ise e : is_Some (im_get (p_edges p') e) ↔ is_Some (im_get (p_edges p) e) }.

  Ltac framed := split; cbn; try done; intros; cbn;
    try (by repeat apply dense_alter); try (by rewrite ?is_Some_alter);
    unfold evs, eval, enout, epout, enin, epin, feedge, fering, fenext, feprev; cbn; by rewrite ?fmap_alter_same.

  Lemma link_use_ok p edge fe : feedge p fe = Some edge → is_Some (im_get (p_edges p) edge) →
    (∀ x e, feedge p x = Some e → x ≤ fe) → fe < invalid_id →
    (∀ e h, efe p e = Some h → ∃ l, lists (λ x, x ≠ fe ∧ feedge p x = Some e) l ∧ circular (fenoe p) (fepoe p) h l) →
    ∃ p', link_use p edge fe = Some p' ∧ use_frame p p' ∧
      ∀ e h, efe p' e = Some h → ∃ l, lists (λ x, feedge p' x = Some e) l ∧ circular (fenoe p') (fepoe p') h l.
  Proof.
    intros Hown [ed Hed] Hle Hinv Hall.
    assert (is_Some (im_get (p_fes p) fe)) as Hid by (by eapply fmap_Some_is).
    assert (efe p edge = Some (pe_fe ed)) as Hh by (unfold efe; by rewrite Hed).
    unfold link_use. rewrite Hed. cbn [mbind option_bind]. destruct (N.eqb_spec (pe_fe ed) invalid_id) as [He|Hne].
    - rewrite upd_edge_ok by (by rewrite Hed). cbn [mbind option_bind]. rewrite upd_fe_ok by done. cbn [mbind option_bind].
      rewrite upd_fe_ok by (by apply is_Some_alter). eexists. split; [done|]. split; [framed|].
      match goal with |- ∀ v h, efe ?p' v = _ → _ =>
        assert (∀ e, feedge p' e = feedge p e) as Hes by (intros e; unfold feedge; cbn; by rewrite !fmap_alter_same) end.
      eapply (attach' (feedge p) _ (efe p) (fenoe p) (fepoe p)); [exact Hes|exact Hall|exact Hown|exact Hle|exact Hinv|exact Hh|].
      rewrite decide_True by done. split; [|split].
      + intros v. unfold efe. cbn. by rewrite (fmap_alter_set _ _ _ _ _ fe) by (by rewrite ?Hed).
      + intros e. unfold fenoe. cbn. rewrite fmap_alter_same by done. by rewrite (fmap_alter_set _ _ _ _ _ fe).
      + intros e. unfold fepoe. cbn. rewrite (fmap_alter_set _ _ _ _ _ fe) by (by rewrite ?is_Some_alter). by rewrite fmap_alter_same.
    - destruct (Hall edge _ Hh) as (l & L1 & L2). destruct l as [|x0 l]; [by cbn in L2|].
      destruct (circular_last _ _ _ _ _ L2) as (y & Hlast & Hy). destruct L2 as [Hx0 L2].
      assert (∀ x, x ∈ x0 :: l → x ≠ fe ∧ is_Some (im_get (p_fes p) x)) as Hin.
      { intros x Hx. apply (proj2 L1) in Hx as [X1 X2]. split; [done|]. by eapply fmap_Some_is. }
      destruct (Hin x0) as [Hn0 Hs0]; [by left|]. destruct (Hin y) as [Hny Hsy].
      { rewrite last_lookup in Hlast. by eapply elem_of_list_lookup_2. }
      rewrite Hx0. destruct (get_fmap _ _ _ _ Hy) as (ey & Hg & Hyy). rewrite Hg. cbn [mbind option_bind]. rewrite Hyy.
      rewrite upd_fe_ok by done. cbn [mbind option_bind]. rewrite upd_fe_ok by (by apply is_Some_alter). cbn [mbind option_bind].
      rewrite upd_fe_ok by (cbn; by rewrite !is_Some_alter). cbn [mbind option_bind].
      rewrite upd_fe_ok by (cbn; by rewrite !is_Some_alter). eexists. split; [done|]. split; [framed|].
      match goal with |- ∀ v h, efe ?p' v = _ → _ =>
        assert (∀ e, feedge p' e = feedge p e) as Hes by (intros e; unfold feedge; cbn; by rewrite !fmap_alter_same) end.
      eapply (attach' (feedge p) _ (efe p) (fenoe p) (fepoe p)); [exact Hes|exact Hall|exact Hown|exact Hle|exact Hinv|exact Hh|].
      rewrite decide_False by done. split; [done|]. rewrite Hx0. exists y. split; [done|]. split.
      + intros e. unfold fenoe. cbn. rewrite fmap_alter_same by done. rewrite (fmap_alter_set _ _ _ _ _ x0) by (by rewrite ?is_Some_alter).
        rewrite (fmap_alter_set _ _ _ _ _ fe) by (by rewrite ?is_Some_alter). by rewrite fmap_alter_same.
      + intros e. unfold fepoe. cbn. rewrite (fmap_alter_set _ _ _ _ _ y) by (by rewrite ?is_Some_alter). rewrite fmap_alter_same by done.
        rewrite fmap_alter_same by done. by rewrite (fmap_alter_set _ _ _ _ _ fe).
  Qed.

  Lemma Forall2_impl_strong {A B} (P Q : A → B → Prop) l k : (∀ x y, x ∈ l → y ∈ k → P x y → Q x y) → Forall2 P l k → Forall2 Q l k.
  Proof. intros H Hf. induction Hf; constructor; [apply H; [by left|by left|done]|]. apply IHHf. intros. apply H; [by right|by right|done]. Qed.
  Lemma own_same (owner owner' head head' next next' prev prev' : N → option N) :
    (∀ v, head' v = head v) → (∀ e, owner' e = owner e) → (∀ e, next' e = next e) → (∀ e, prev' e = prev e) →
    (∀ v h, head v = Some h → ∃ l, lists (λ e, owner e = Some v) l ∧ circular next prev h l) →
    ∀ v h, head' v = Some h → ∃ l, lists (λ e, owner' e = Some v) l ∧ circular next' prev' h l.
  Proof.
    intros H1 H2 H3 H4 Ha v h Hv. rewrite H1 in Hv. destruct (Ha v h Hv) as (l & L1 & L2). exists l. split.
    - eapply lists_ext; [|exact L1]. intros k. by rewrite H2.
    - eapply circular_ext; [|exact L2]. intros x _. by rewrite H3, H4.
  Qed.

  (** ** Rings that a change keeps. *)
  Record ring_kept (R : N → Prop) p p' : Prop := RingKept {
    rk_v v : is_Some (im_get (p_verts p) v) → is_Some (im_get (p_verts p') v);
    rk_e e vs : evs p e = Some vs → evs p' e = Some vs;
    rk_x x r : R r → (fering p' x = Some r ↔ fering p x = Some r);
    rk_r r : R r → relement p' r = relement p r;
    rk_l x r : R r → fering p x = Some r → feedge p' x = feedge p x ∧ fenext p' x = fenext p x ∧ feprev p' x = feprev p x }.
  Lemma ring_kept_refl R p : ring_kept R p p.
  Proof. split; done. Qed.
  Lemma ring_kept_trans (R R' : N → Prop) p p' p'' : (∀ r, R r → R' r) → ring_kept R p p' → ring_kept R' p' p'' → ring_kept R p p''.
  Proof.
    intros HR [A1 A2 A3 A4 A5] [B1 B2 B3 B4 B5]. split; intros.
    - by apply B1, A1.
    - by apply B2, A2.
    - rewrite B3 by auto. by apply A3.
    - rewrite B4 by auto. by apply A4.
    - destruct (A5 x r) as (U1 & U2 & U3); [done|done|]. destruct (B5 x r) as (W1 & W2 & W3); [auto|by apply A3|]. by rewrite W1, W2, W3.
  Qed.
  Lemma ring_kept_of R p p' r vs : ring_kept R p p' → R r → ring_of p r vs → ring_of p' r vs.
  Proof.
    intros [A1 A2 A3 A4 A5] Hr. unfold ring_of. destruct vs as [|v0 [|v1 vs]]; [done| |].
    - intros (H1 & H2 & H3). rewrite A4 by done. split; [done|]. split; [by apply A1|]. intros x. rewrite A3 by done. apply H3.
    - intros (h & l & H1 & H2 & H3 & H4 & H5). exists h, l. rewrite A4 by done. split; [done|]. split; [|split; [|split; [done|]]].
      + eapply lists_ext; [|exact H2]. intros k. by rewrite A3.
      + eapply circular_ext; [|exact H3]. intros x Hx. apply (proj2 H2) in Hx. by destruct (A5 x r) as (_ & -> & ->).
      + intros i x Hx. destruct (H5 i x Hx) as (e & a & E1 & E2 & E3). exists e, a.
        destruct (A5 x r) as (-> & _ & _); [done|by apply (proj2 H2); eapply elem_of_list_lookup_2|]. auto.
  Qed.

  (** ** One more face edge at the end of a ring under construction. *)
  Record ring_so_far p (ring first prev : N) (l : list N) (ps : list (N * N)) : Prop := RingSoFar {
    rs_list : lists (λ x, fering p x = Some ring) l;
    rs_first : first = default invalid_id (head l);
    rs_prev : prev = default invalid_id (last l);
    rs_elem : relement p ring = Some (RFaceEdge first);
    rs_seg : segment (fenext p) (feprev p) l;
    rs_pairs : Forall2 (λ x vs, ∃ e, feedge p x = Some e ∧ evs p e = Some vs) l ps }.

  Definition ring_frame p p' : Prop :=
    p_faces p' = p_faces p ∧ (∀ r, rface p' r = rface p r) ∧ (∀ r, rnext p' r = rnext p r) ∧ (∀ r, rprev p' r = rprev p r) ∧
    (∀ v, vdata p' v = vdata p v) ∧ (∀ v, is_Some (im_get (p_verts p') v) ↔ is_Some (im_get (p_verts p) v)) ∧
    im_npi (p_rings p') = im_npi (p_rings p).
  Lemma ring_frame_trans p p' p'' : ring_frame p p' → ring_frame p' p'' → ring_frame p p''.
  Proof.
    intros (A1 & A2 & A3 & A4 & A5 & A6 & A7) (B1 & B2 & B3 & B4 & B5 & B6 & B7).
    split; [congruence|]. split; [intros; by rewrite B2|]. split; [intros; by rewrite B3|]. split; [intros; by rewrite B4|].
    split; [intros; by rewrite B5|]. split; [intros; by rewrite B6|congruence].
  Qed.

  Lemma fe_step p edge ring first prev l ps vs : pbase p → im_npi (p_fes p) < invalid_id → evs p edge = Some vs →
    is_Some (im_get (p_rings p) ring) → ring_so_far p ring first prev l ps →
    ∃ p', (let '(m, fe) := im_insert (p_fes p) (FEdge edge ring invalid_id invalid_id invalid_id invalid_id) in
      let p := with_fes p m in
      '(p, first_fe) ←
        (if N.eqb first invalid_id then p ← upd_ring p ring (set_elem (RFaceEdge fe)); Some (p, fe)
         else p ← upd_fe p prev (set_next fe); p ← upd_fe p fe (set_prev prev); Some (p, first));
      p ← link_use p edge fe;
      Some (p, first_fe, fe)) = Some (p', default (im_npi (p_fes p)) (head l), im_npi (p_fes p)) ∧
      pbase p' ∧ ring_so_far p' ring (default (im_npi (p_fes p)) (head l)) (im_npi (p_fes p)) (l ++ [im_npi (p_fes p)]) (ps ++ [vs]) ∧
      ring_kept (λ r, r ≠ ring) p p' ∧ ring_frame p p' ∧ p_emap p' = p_emap p ∧ (∀ e, evs p' e = evs p e) ∧ (∀ e, eval p' e = eval p e) ∧
      im_npi (p_verts p') = im_npi (p_verts p) ∧ im_npi (p_edges p') = im_npi (p_edges p) ∧ im_npi (p_fes p') = im_npi (p_fes p) + 1.
  Proof.
    intros [D1 D2 D3 D4 D5 Ho Hi Hends Hmap Huses Hfe Hfr Hrf Hvr] Hlt Hedge Hring Hrs.
    rewrite dense_insert by done. set (fe := im_npi (p_fes p)) in *.
    set (nf := FEdge edge ring invalid_id invalid_id invalid_id invalid_id). set (p1 := with_fes p (im_push (p_fes p) nf)).
    assert (is_Some (im_get (p_edges p) edge)) as Hed by (by eapply fmap_Some_is).
    assert (∀ x e, feedge p x = Some e → x < fe) as Hxe by (intros x e Hx; eapply dense_lt; [done|by eapply fmap_Some_is]).
    assert (∀ x r, fering p x = Some r → x < fe) as Hxr by (intros x r Hx; eapply dense_lt; [done|by eapply fmap_Some_is]).
    destruct Hrs as [Rl Rf Rp Re Rs Rps].
    assert (∀ x, x ∈ l → x < fe ∧ is_Some (im_get (p_fes p) x)) as Hlin.
    { intros x Hx. apply (proj2 Rl) in Hx. split; [by eapply Hxr|by eapply fmap_Some_is]. }
    set (first' := default fe (head l)).
    (* the intermediate state *)
    assert (∃ p2, (if N.eqb first invalid_id then p ← upd_ring p1 ring (set_elem (RFaceEdge fe)); Some (p, fe)
         else p ← upd_fe p1 prev (set_next fe); p ← upd_fe p fe (set_prev prev); Some (p, first)) = Some (p2, first') ∧
      p_verts p2 = p_verts p ∧ p_edges p2 = p_edges p ∧ p_faces p2 = p_faces p ∧ p_emap p2 = p_emap p ∧ dense (p_fes p2) ∧ dense (p_rings p2) ∧
      im_npi (p_rings p2) = im_npi (p_rings p) ∧ im_npi (p_fes p2) = fe + 1 ∧ (∀ r, is_Some (im_get (p_rings p2) r) ↔ is_Some (im_get (p_rings p) r)) ∧
      (∀ r, rface p2 r = rface p r) ∧ (∀ r, rnext p2 r = rnext p r) ∧ (∀ r, rprev p2 r = rprev p r) ∧
      (∀ r, relement p2 r = if decide (r = ring) then Some (RFaceEdge first') else relement p r) ∧
      (∀ x, feedge p2 x = if decide (x = fe) then Some edge else feedge p x) ∧
      (∀ x, fering p2 x = if decide (x = fe) then Some ring else fering p x) ∧
      (∀ x, x ≠ fe → fenoe p2 x = fenoe p x ∧ fepoe p2 x = fepoe p x) ∧
      (∀ x, x ≠ fe → fenext p2 x = if decide (last l = Some x) then Some fe else fenext p x) ∧
      (∀ x, x ≠ fe → feprev p2 x = feprev p x) ∧ (∀ y, last l = Some y → feprev p2 fe = Some y)) as
      (p2 & E2 & Xv & Xe & Xc & Xm & Xdf & Xdr & Xnr & Xnf & Xisr & Xrf & Xrn & Xrp & Xel & Xfe & Xfr & Xuse & Xn & Xp & Xpn).
    { destruct l as [|x0 l0] eqn:El.
      - cbn in Rf. rewrite Rf, N.eqb_refl. rewrite upd_ring_ok by done. cbn [mbind option_bind]. eexists. split; [done|].
        split; [done|]. split; [done|]. split; [done|]. split; [done|]. split; [by apply dense_push|]. split; [by apply dense_alter|].
        split; [done|]. split; [done|]. split; [intros r; cbn; apply is_Some_alter|].
        split; [intros r; unfold rface; cbn; by rewrite fmap_alter_same|]. split; [intros r; unfold rnext; cbn; by rewrite fmap_alter_same|].
        split; [intros r; unfold rprev; cbn; by rewrite fmap_alter_same|].
        split; [intros r; unfold relement; cbn; by rewrite (fmap_alter_set _ _ _ _ _ (RFaceEdge fe))|].
        split; [intros x; unfold feedge; cbn; by rewrite fmap_push|]. split; [intros x; unfold fering; cbn; by rewrite fmap_push|].
        split; [intros x Hx; unfold fenoe, fepoe; cbn; rewrite !fmap_push, !decide_False by done; done|].
        split; [intros x Hx; unfold fenext; cbn; rewrite fmap_push, !decide_False by done; done|].
        split; [intros x Hx; unfold feprev; cbn; rewrite fmap_push, !decide_False by done; done|]. done.
      - assert (first ≠ invalid_id) as Hnf. { rewrite Rf. cbn. destruct (Hlin x0) as [Hlt0 _]; [by left|]. lia. }
        destruct (last (x0 :: l0)) as [y|] eqn:Hy; [|by apply last_None in Hy]. cbn in Rp. subst prev.
        assert (y ∈ x0 :: l0) as Hyin by (rewrite last_lookup in Hy; by eapply elem_of_list_lookup_2).
        destruct (Hlin y Hyin) as [Hylt Hys].
        assert (is_Some (im_get (im_push (p_fes p) nf) y)) as Hys1. { rewrite get_push. destruct (decide _); eauto. }
        assert (is_Some (im_get (im_push (p_fes p) nf) fe)) as Hfs1. { rewrite get_push, decide_True by done. eauto. }
        rewrite (proj2 (N.eqb_neq _ _) Hnf). rewrite upd_fe_ok by done. cbn [mbind option_bind]. rewrite upd_fe_ok by (by apply is_Some_alter).
        cbn [mbind option_bind]. eexists. split; [by rewrite Rf|].
        split; [done|]. split; [done|]. split; [done|]. split; [done|]. split; [by apply dense_alter, dense_alter, dense_push|]. split; [done|].
        split; [done|]. split; [done|]. split; [done|]. split; [done|]. split; [done|]. split; [done|].
        split. { intros r. destruct (decide (r = ring)) as [->|]; [|done]. change (relement p ring = Some (RFaceEdge first')). by rewrite Re, Rf. }
        split; [intros x; unfold feedge; cbn; rewrite !fmap_alter_same by done; by rewrite fmap_push|].
        split; [intros x; unfold fering; cbn; rewrite !fmap_alter_same by done; by rewrite fmap_push|].
        split; [intros x Hx; unfold fenoe, fepoe; cbn; rewrite !fmap_alter_same by done; rewrite !fmap_push, !decide_False by done; done|].
        split. { intros x Hx. unfold fenext. cbn. rewrite fmap_alter_same by done. rewrite (fmap_alter_set _ _ _ _ _ fe) by done.
          destruct (decide (x = y)) as [->|Hxy]; [by rewrite decide_True|]. rewrite decide_False by congruence. rewrite fmap_push. by rewrite decide_False. }
        split. { intros x Hx. unfold feprev. cbn. rewrite (fmap_alter_set _ _ _ _ _ y) by (by rewrite ?is_Some_alter). rewrite decide_False by done.
          rewrite fmap_alter_same by done. rewrite fmap_push. by rewrite decide_False. }
        intros y' [= <-]. unfold feprev. cbn. rewrite (fmap_alter_set _ _ _ _ _ y) by (by rewrite ?is_Some_alter). by rewrite decide_True. }
    destruct (link_use_ok p2 edge fe) as (p3 & E3 & F3 & U3).
    { rewrite Xfe. by rewrite decide_True. } { by rewrite Xe. }
    { intros x e. rewrite Xfe. destruct (decide (x = fe)) as [->|]; [lia|]. intros Hx. apply Hxe in Hx. lia. } { done. }
    { intros e h. unfold efe. rewrite Xe. intros He. destruct (Huses e h He) as (k & L1 & L2). exists k. split.
      - eapply lists_ext; [|exact L1]. intros x. rewrite Xfe. destruct (decide (x = fe)) as [->|]; [|naive_solver]. split; [|naive_solver].
        intros Hx. apply Hxe in Hx. lia.
      - eapply circular_ext; [|exact L2]. intros x Hx. apply (proj2 L1) in Hx. apply Hxe in Hx. apply Xuse. lia. }
    cbn zeta. rewrite E2. cbn [mbind option_bind]. rewrite E3. cbn [mbind option_bind]. exists p3. split; [done|].
    assert (∀ e, evs p3 e = evs p e) as Yevs by (intros e; rewrite (uf_evs _ _ F3); unfold evs; by rewrite Xe).
    assert (∀ e, eval p3 e = eval p e) as Yeval by (intros e; rewrite (uf_eval _ _ F3); unfold eval; by rewrite Xe).
    pose proof (uf_verts _ _ F3) as Yv. rewrite Xv in Yv. pose proof (uf_faces _ _ F3) as Yc. rewrite Xc in Yc.
    pose proof (uf_emap _ _ F3) as Ym. rewrite Xm in Ym. pose proof (uf_rings _ _ F3) as Yr.
    assert (∀ r, rface p3 r = rface p r) as Yrf by (intros r; rewrite <- Xrf; unfold rface; by rewrite Yr).
    assert (∀ r, rnext p3 r = rnext p r) as Yrn by (intros r; rewrite <- Xrn; unfold rnext; by rewrite Yr).
    assert (∀ r, rprev p3 r = rprev p r) as Yrp by (intros r; rewrite <- Xrp; unfold rprev; by rewrite Yr).
    assert (∀ r, relement p3 r = if decide (r = ring) then Some (RFaceEdge first') else relement p r) as Yel by (intros r; rewrite <- Xel; unfold relement; by rewrite Yr).
    assert (∀ x, feedge p3 x = if decide (x = fe) then Some edge else feedge p x) as Yfe by (intros x; rewrite (uf_feedge _ _ F3); apply Xfe).
    assert (∀ x, fering p3 x = if decide (x = fe) then Some ring else fering p x) as Yfr by (intros x; rewrite (uf_fering _ _ F3); apply Xfr).
    assert (∀ x, x ≠ fe → fenext p3 x = if decide (last l = Some x) then Some fe else fenext p x) as Yn by (intros x; rewrite (uf_fenext _ _ F3); apply Xn).
    assert (∀ x, x ≠ fe → feprev p3 x = feprev p x) as Yp by (intros x; rewrite (uf_feprev _ _ F3); apply Xp).
    assert (∀ y, last l = Some y → feprev p3 fe = Some y) as Ypn by (intros y; rewrite (uf_feprev _ _ F3); apply Xpn).
    assert (lists (λ x, fering p3 x = Some ring) (l ++ [fe])) as Yl.
    { eapply lists_snoc; [exact Rl| |].
      - intros k Hk. exact (Hxr _ _ Hk).
      - intros k. rewrite Yfr. destruct (decide (k = fe)); naive_solver. }
    split.
    { split.
      - by rewrite Yv.
      - apply (uf_edges _ _ F3). by rewrite Xe.
      - by apply (uf_fes _ _ F3).
      - by rewrite Yr.
      - by rewrite Yc.
      - eapply own_same; [..|exact Ho].
        + intros v. unfold vout. by rewrite Yv.
        + intros e. unfold esrc. by rewrite Yevs.
        + intros e. rewrite (uf_enout _ _ F3). unfold enout. by rewrite Xe.
        + intros e. rewrite (uf_epout _ _ F3). unfold epout. by rewrite Xe.
      - eapply own_same; [..|exact Hi].
        + intros v. unfold vin. by rewrite Yv.
        + intros e. unfold etgt. by rewrite Yevs.
        + intros e. rewrite (uf_enin _ _ F3). unfold enin. by rewrite Xe.
        + intros e. rewrite (uf_epin _ _ F3). unfold epin. by rewrite Xe.
      - intros e a b. rewrite Yevs, Yv. apply Hends.
      - intros ab e. unfold edge_id. rewrite Ym, Yevs. apply Hmap.
      - exact U3.
      - intros x e. rewrite Yfe. intros Hx. rewrite (uf_ise _ _ F3), Xe. destruct (decide (x = fe)); [by injection Hx as <-|]. by eapply Hfe.
      - intros x r. rewrite Yfr. intros Hx. rewrite Yr, Xisr. destruct (decide (x = fe)); [by injection Hx as <-|]. by eapply Hfr.
      - intros r f. rewrite Yrf, Yc. apply Hrf.
      - intros v r. unfold vring. rewrite Yv. intros Hv. destruct (Hvr v r Hv) as [?|Hr]; [by left|]. right. rewrite Yel.
        destruct (decide (r = ring)) as [->|]; [|done]. rewrite Re in Hr. done. }
    split.
    { split.
      - exact Yl.
      - unfold first'. by destruct l.
      - by rewrite last_snoc.
      - rewrite Yel. by rewrite decide_True.
      - eapply segment_snoc; [exact Rs|by eapply lists_nodup|intros Hx; apply Hlin in Hx as [Hx _]; lia| |].
        + intros y Hy. assert (y ∈ l) as Hyin by (rewrite last_lookup in Hy; by eapply elem_of_list_lookup_2).
          destruct (Hlin y Hyin) as [Hylt _]. rewrite Yn by lia. rewrite decide_True by done. split; [done|]. by apply Ypn.
        + intros z Hz. destruct (Hlin z Hz) as [Hzlt _]. rewrite Yn, Yp by lia. split; [|done]. intros Hnl. by rewrite decide_False.
      - apply Forall2_app.
        + eapply Forall2_impl_strong; [|exact Rps]. intros x vs' Hx _ (e & E1 & E4). destruct (Hlin x Hx) as [Hxlt _]. exists e.
          rewrite Yfe, Yevs. rewrite decide_False by lia. done.
        + constructor; [|constructor]. exists edge. rewrite Yfe, Yevs. by rewrite decide_True. }
    split.
    { split.
      - intros v. by rewrite Yv.
      - intros e ab. by rewrite Yevs.
      - intros x r Hr. rewrite Yfr. destruct (decide (x = fe)) as [->|]; [|done]. split; [congruence|]. intros Hx. apply Hxr in Hx. lia.
      - intros r Hr. rewrite Yel. by rewrite decide_False.
      - intros x r Hr Hx. pose proof (Hxr _ _ Hx). rewrite Yfe, Yn, Yp by lia. rewrite decide_False by lia. rewrite decide_False; [done|].
        intros Hlast. assert (x ∈ l) as Hxl by (rewrite last_lookup in Hlast; by eapply elem_of_list_lookup_2). apply (proj2 Rl) in Hxl. congruence. }
    split. { split; [done|]. split; [done|]. split; [done|]. split; [done|]. split; [intros v; unfold vdata; by rewrite Yv|].
      split; [intros v; by rewrite Yv|]. by rewrite Yr. }
    split; [done|]. split; [done|]. split; [done|]. split; [by rewrite Yv|]. split; [by rewrite (uf_ne _ _ F3), Xe|]. by rewrite (uf_nf _ _ F3).
  Qed.
End face.
