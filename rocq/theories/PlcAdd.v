(** Adding faces to a piecewise linear complex. *)
From Coq Require Import NArith Lia Sorted.
From stdpp Require Import base numbers list gmap option sorting.
From Verif Require Import IdMapModel IdMapProofs WalkerModel MeshModel UtilModel UtilSpec UtilProofs PlcModel PlcSpec PlcList PlcNet PlcFace.
Local Open Scope N_scope.

Section add.
  Context {V E F Pl : Type}.
  Context (plane0 : Pl) (default_edge : E) (plane_of : list pt → list (pt * pt) → Pl).
  Implicit Types (p : plc V E F Pl).

  Lemma pbase_views p p' : pbase p →
    dense (p_verts p') → dense (p_edges p') → dense (p_fes p') → dense (p_rings p') → dense (p_faces p') →
    (∀ v, vout p' v = vout p v) → (∀ v, vin p' v = vin p v) →
    p_edges p' = p_edges p → p_emap p' = p_emap p →
    (∀ x, feedge p' x = feedge p x) → (∀ x, fering p' x = fering p x) → (∀ x, fenoe p' x = fenoe p x) → (∀ x, fepoe p' x = fepoe p x) →
    (∀ r, rface p' r = rface p r) →
    (∀ v, is_Some (im_get (p_verts p) v) → is_Some (im_get (p_verts p') v)) →
    (∀ v, is_Some (im_get (p_rings p) v) → is_Some (im_get (p_rings p') v)) →
    (∀ v, is_Some (im_get (p_faces p) v) → is_Some (im_get (p_faces p') v)) →
    (∀ v r, vring p' v = Some r → r = invalid_id ∨ relement p' r = Some (RVertex v)) → pbase p'.
  Proof.
    intros [D1 D2 D3 D4 D5 Ho Hi Hends Hmap Huses Hfe Hfr Hrf Hvr] ????? Xo Xi Xe Xm X1 X2 X3 X4 X5 Y1 Y2 Y3 Y4. split; try done.
    - eapply own_same; [exact Xo|..|exact Ho]; intros; unfold esrc, evs, enout, epout; by rewrite Xe.
    - eapply own_same; [exact Xi|..|exact Hi]; intros; unfold etgt, evs, enin, epin; by rewrite Xe.
    - intros e a b. unfold evs. rewrite Xe. intros He. destruct (Hends e a b He). auto.
    - intros vs e. unfold edge_id, evs. rewrite Xm, Xe. apply Hmap.
    - eapply own_same; [|exact X1|exact X3|exact X4|exact Huses]. intros; unfold efe; by rewrite Xe.
    - intros x e. rewrite X1, Xe. apply Hfe.
    - intros x r. rewrite X2. intros Hx. eapply Y2, Hfr, Hx.
    - intros r f. rewrite X5. intros Hx. eapply Y3, Hrf, Hx.
  Qed.

  (** Numbers of elements. *)
  Definition grows (n : N) p p' : Prop :=
    im_npi (p_verts p') = im_npi (p_verts p) ∧ im_npi (p_edges p') ≤ im_npi (p_edges p) + n ∧ im_npi (p_fes p') ≤ im_npi (p_fes p) + n.
  Lemma grows_trans n m p p' p'' : grows n p p' → grows m p' p'' → grows (n + m) p p''.
  Proof. unfold grows. lia. Qed.
  Lemma room_le p n m : m ≤ n → room p n → room p m.
  Proof. unfold room. lia. Qed.

  Lemma ring_step_ok p ring first prev l ps a w : pbase p → room p 1 → is_Some (im_get (p_verts p) a) → is_Some (im_get (p_verts p) w) →
    ring_so_far p ring first prev l ps →
    ∃ p' fe first', ring_step default_edge ring (p, first, prev, a) w = Some (p', first', fe, w) ∧
      pbase p' ∧ ring_so_far p' ring first' fe (l ++ [fe]) (ps ++ [(a, w)]) ∧
      ring_kept (λ r, r ≠ ring) p p' ∧ ring_frame p p' ∧ egrow [(a, w)] default_edge p p' ∧ grows 1 p p'.
  Proof.
    intros Hb Hroom Ha Hw Hrs. pose proof Hroom as (R1 & R2 & R3 & R4 & R5).
    destruct (if_absent_ok p a w default_edge Hb Hroom Ha Hw) as (p1 & e & E1 & Hb1 & Hg & Hid & Xf & Xr & Xc & Nv & Ne & Hvd & Hiv).
    assert (evs p1 e = Some (a, w)) as Hev by (by apply (pb_map _ Hb1)).
    assert (ring_so_far p1 ring first prev l ps) as Hrs1.
    { destruct Hrs as [A1 A2 A3 A4 A5 A6]. split; [|done|done| | |].
      - eapply lists_ext; [|exact A1]. intros k. unfold fering. by rewrite Xf.
      - unfold relement. by rewrite Xr.
      - eapply segment_ext; [|exact A5]. intros x _. unfold fenext, feprev. by rewrite Xf.
      - eapply Forall2_impl; [exact A6|]. intros x vs (e' & G1 & G2). exists e'. unfold feedge. rewrite Xf. split; [done|]. by apply (eg_evs _ _ _ _ Hg). }
    assert (is_Some (im_get (p_rings p1) ring)) as Hring by (eapply fmap_Some_is; exact (rs_elem _ _ _ _ _ _ Hrs1)).
    destruct (fe_step p1 e ring first prev l ps (a, w) Hb1 ltac:(rewrite Xf; lia) Hev Hring Hrs1)
      as (p2 & E2 & Hb2 & Hrs2 & Hk & Hf & Hm & Hevs & Hevl & Nv2 & Ne2 & Nf2).
    exists p2, (im_npi (p_fes p1)), (default (im_npi (p_fes p1)) (head l)). split.
    { unfold ring_step. rewrite E1. cbn [mbind option_bind]. revert E2.
      destruct (im_insert (p_fes p1) _) as [m fe] eqn:Ei. cbn zeta.
      destruct (if N.eqb first invalid_id then _ else _) as [[q f']|]; [|done]. cbn [mbind option_bind].
      destruct (link_use q e fe) as [q'|]; [|done]. cbn [mbind option_bind]. intros [= -> -> ->]. done. }
    split; [done|]. split; [done|]. split.
    { eapply ring_kept_trans; [|split|exact Hk]; [done|..].
      - intros v. by rewrite Hiv.
      - apply (eg_evs _ _ _ _ Hg).
      - intros x r _. unfold fering. by rewrite Xf.
      - intros r _. unfold relement. by rewrite Xr.
      - intros x r _ _. unfold feedge, fenext, feprev. by rewrite Xf. }
    split. { eapply ring_frame_trans; [|exact Hf]. split; [done|]. unfold rface, rnext, rprev. rewrite Xr. done. }
    split; [by eapply egrow_same|]. split; [lia|]. rewrite Nf2, Xf, Ne2. lia.
  Qed.

  Lemma ring_steps_ok ring ws : ∀ p first prev l ps a, pbase p → room p (N.of_nat (length ws)) → is_Some (im_get (p_verts p) a) →
    (∀ w, w ∈ ws → is_Some (im_get (p_verts p) w)) → ring_so_far p ring first prev l ps →
    ∃ p' first' prev' l' a', foldM (ring_step default_edge ring) (p, first, prev, a) ws = Some (p', first', prev', a') ∧
      pbase p' ∧ ring_so_far p' ring first' prev' l' (ps ++ zip (a :: ws) ws) ∧
      ring_kept (λ r, r ≠ ring) p p' ∧ ring_frame p p' ∧ egrow (zip (a :: ws) ws) default_edge p p' ∧ grows (N.of_nat (length ws)) p p'.
  Proof.
    induction ws as [|w ws IH]; intros p first prev l ps a Hb Hroom Ha Hws Hrs.
    - exists p, first, prev, l, a. cbn. rewrite app_nil_r. split; [done|]. split; [done|]. split; [done|]. split; [apply ring_kept_refl|].
      split; [done|]. split; [apply egrow_refl|]. unfold grows. lia.
    - assert (is_Some (im_get (p_verts p) w)) as Hw by (apply Hws; by left).
      destruct (ring_step_ok p ring first prev l ps a w) as (p1 & fe & f1 & E1 & Hb1 & Hrs1 & Hk1 & Hf1 & Hg1 & Hn1); try done.
      { eapply room_le; [|exact Hroom]. cbn. lia. }
      pose proof Hf1 as (_ & _ & _ & _ & _ & Hiv & Hnr).
      destruct (IH p1 f1 fe (l ++ [fe]) (ps ++ [(a, w)]) w) as (p2 & f2 & pr2 & l2 & a2 & E2 & Hb2 & Hrs2 & Hk2 & Hf2 & Hg2 & Hn2).
      { done. } { destruct Hroom as (R1 & R2 & R3 & R4 & R5). destruct Hn1 as (G1 & G2 & G3). cbn [length] in *. destruct Hf1 as (Hfc & _). unfold room. rewrite Hfc, Hnr. lia. }
      { by apply Hiv. } { intros w' Hw'. apply Hiv, Hws. by right. } { done. }
      exists p2, f2, pr2, l2, a2. cbn [foldM]. rewrite E1. cbn [mbind option_bind]. split; [done|]. split; [done|].
      split. { cbn [zip zip_with]. rewrite <- app_assoc in Hrs2. exact Hrs2. }
      split; [by eapply ring_kept_trans; [|exact Hk1|exact Hk2]|]. split; [by eapply ring_frame_trans|].
      split; [exact (egrow_trans [(a, w)] _ _ _ _ _ Hg1 Hg2)|]. pose proof (grows_trans _ _ _ _ _ Hn1 Hn2) as Hn.
      replace (N.of_nat (length (w :: ws))) with (1 + N.of_nat (length ws)) by (cbn; lia). exact Hn.
  Qed.

  Lemma zip_ring v0 v1 vs : zip (v0 :: (v1 :: vs) ++ [v0]) ((v1 :: vs) ++ [v0]) = ring_pairs (v0 :: v1 :: vs).
  Proof.
    unfold ring_pairs. generalize (v1 :: vs). intros l. assert (∀ a (l : list N) b, zip (a :: l ++ [b]) (l ++ [b]) = zip (a :: l) (l ++ [b])) as H; [|apply H].
    clear. intros a l. revert a. induction l as [|x l IH]; intros a b; [done|]. cbn. f_equal. apply IH.
  Qed.
  Lemma ring_pairs_lookup v0 v1 vs i : ring_pairs (v0 :: v1 :: vs) !! i =
    (λ a, (a, default v0 ((v0 :: v1 :: vs) !! S i))) <$> ((v0 :: v1 :: vs) !! i).
  Proof.
    unfold ring_pairs. generalize (v1 :: vs). intros l. 
    destruct (decide (i < length (v0 :: l))%nat) as [Hi|Hi].
    - destruct (lookup_lt_is_Some_2 _ _ Hi) as [x Hx]. rewrite Hx. cbn [fmap option_fmap option_map].
      apply lookup_zip_with_Some. eexists x, _. split; [done|]. split; [done|]. cbn [lookup list_lookup].
      destruct (l !! i) as [y|] eqn:Hy.
      + cbn. by apply lookup_app_l_Some.
      + cbn. apply lookup_ge_None in Hy. rewrite lookup_app_r by done. cbn in Hi. by replace (i - length l)%nat with 0%nat by lia.
    - rewrite (lookup_ge_None_2 (v0 :: l) i) by lia. apply lookup_ge_None_2. rewrite zip_with_length. lia.
  Qed.
  Lemma ring_pairs_length v0 v1 vs : length (ring_pairs (v0 :: v1 :: vs)) = length (v0 :: v1 :: vs).
  Proof. unfold ring_pairs. rewrite zip_with_length, app_length. cbn [length]. lia. Qed.

  Lemma fill_ring_ok p ring vs : pbase p → room p (N.of_nat (length vs)) → vs ≠ [] → (∀ v, v ∈ vs → is_Some (im_get (p_verts p) v)) →
    relement p ring = Some (RFaceEdge invalid_id) → (∀ x, fering p x ≠ Some ring) →
    ∃ p', fill_ring default_edge p ring vs = Some p' ∧ pbase p' ∧ ring_of p' ring vs ∧ ring_kept (λ r, r ≠ ring) p p' ∧ ring_frame p p' ∧
      egrow (ring_pairs vs) default_edge p p' ∧ grows (N.of_nat (length vs)) p p'.
  Proof.
    intros Hb Hroom Hne Hvs Hel Hno. assert (is_Some (im_get (p_rings p) ring)) as Hring by (by eapply fmap_Some_is).
    destruct vs as [|v0 [|v1 vs]]; [done| |].
    - assert (is_Some (im_get (p_verts p) v0)) as Hv0 by (apply Hvs; by left).
      unfold fill_ring. rewrite upd_ring_ok by done. cbn [mbind option_bind]. rewrite upd_vert_ok by done.
      eexists. split; [done|]. 
      assert (∀ r, relement (with_verts (with_rings p (im_alter (p_rings p) ring (set_elem (RVertex v0)))) (im_alter (p_verts p) v0 (set_vring ring))) r =
        if decide (r = ring) then Some (RVertex v0) else relement p r) as Xel.
      { intros r. unfold relement. cbn. by rewrite (fmap_alter_set _ _ _ _ _ (RVertex v0)). }
      split.
      { destruct Hb as [D1 D2 D3 D4 D5 Ho Hi Hends Hmap Huses Hfe Hfr Hrf Hvr].
        eapply (pbase_views p); [by split|by apply dense_alter|done|done|by apply dense_alter|done|..]; try done.
        - intros v. unfold vout. cbn. by rewrite fmap_alter_same.
        - intros v. unfold vin. cbn. by rewrite fmap_alter_same.
        - intros r. unfold rface. cbn. by rewrite fmap_alter_same.
        - intros v. cbn. by rewrite is_Some_alter.
        - intros v. cbn. by rewrite is_Some_alter.
        - intros v r. rewrite Xel. unfold vring. cbn. rewrite (fmap_alter_set _ _ _ _ _ ring) by done. destruct (decide (v = v0)) as [->|Hn].
          + intros [= <-]. right. by rewrite decide_True.
          + intros Hv. destruct (Hvr v r Hv) as [?|Hr]; [by left|]. right. rewrite decide_False; [done|]. intros ->. congruence. }
      split. { cbn. rewrite Xel, decide_True by done. split; [done|]. split; [by apply is_Some_alter|done]. }
      split. { split; try done; cbn.
        - intros v. by rewrite is_Some_alter.
        - intros r Hr. rewrite Xel. by rewrite decide_False. }
      split. { split; [done|]. split; [intros r; unfold rface; cbn; by rewrite fmap_alter_same|]. split; [intros r; unfold rnext; cbn; by rewrite fmap_alter_same|].
        split; [intros r; unfold rprev; cbn; by rewrite fmap_alter_same|]. split; [intros v; unfold vdata; cbn; by rewrite fmap_alter_same|].
        split; [intros v; cbn; by rewrite is_Some_alter|done]. }
      split; [eapply egrow_same; [apply egrow_refl|done|done|done]|]. unfold grows. cbn. lia.
    - assert (ring_so_far p ring invalid_id invalid_id [] []) as Hrs0.
      { split; try done. by apply lists_nil. }
      destruct (ring_steps_ok ring ((v1 :: vs) ++ [v0]) p invalid_id invalid_id [] [] v0) as (p1 & f1 & pr1 & l & a & E1 & Hb1 & Hrs1 & Hk1 & Hf1 & Hg1 & Hn1); try done.
      { replace (length ((v1 :: vs) ++ [v0])) with (length (v0 :: v1 :: vs)); [done|]. rewrite app_length. cbn. lia. }
      { apply Hvs. by left. }
      { intros w Hw. apply Hvs. apply elem_of_app in Hw as [Hw|Hw]; [by right|]. apply elem_of_list_singleton in Hw as ->. by left. }
      rewrite app_nil_l, zip_ring in Hrs1. rewrite zip_ring in Hg1.
      assert (length ((v1 :: vs) ++ [v0]) = length (v0 :: v1 :: vs)) as Hlen by (rewrite app_length; cbn; lia). rewrite Hlen in Hn1.
      pose proof Hrs1 as [A1 A2 A3 A4 A5 A6]. pose proof (Forall2_length _ _ _ A6) as Hl. rewrite ring_pairs_length in Hl.
      destruct l as [|x0 l0] eqn:El; [done|]. rewrite <- El in *. destruct (last l) as [y|] eqn:Hy; [|apply last_None in Hy; congruence].
      cbn in A3. subst pr1. assert (f1 = x0) as -> by (by rewrite A2, El).
      assert (y ∈ l) as Hyin by (rewrite last_lookup in Hy; by eapply elem_of_list_lookup_2).
      assert (is_Some (im_get (p_fes p1) y)) as Hys by (apply (proj2 A1) in Hyin; by eapply fmap_Some_is).
      assert (x0 ∈ l) as Hx0in by (rewrite El; by left).
      assert (is_Some (im_get (p_fes p1) x0)) as Hxs by (apply (proj2 A1) in Hx0in; by eapply fmap_Some_is).
      unfold fill_ring. change (foldM (ring_step default_edge ring) (p, invalid_id, invalid_id, v0) ((v1 :: vs) ++ [v0])) with
        (foldM (ring_step default_edge ring) (p, invalid_id, invalid_id, v0) ((v1 :: vs) ++ [v0])). rewrite E1. cbn [mbind option_bind].
      rewrite upd_fe_ok by done. cbn [mbind option_bind]. rewrite upd_fe_ok by (by apply is_Some_alter). eexists. split; [done|].
      match goal with |- pbase ?q ∧ _ => set (p2 := q) end.
      assert (∀ x, feedge p2 x = feedge p1 x) as Yfe by (intros x; unfold feedge; cbn; by rewrite !fmap_alter_same).
      assert (∀ x, fering p2 x = fering p1 x) as Yfr by (intros x; unfold fering; cbn; by rewrite !fmap_alter_same).
      assert (∀ x, fenext p2 x = if decide (x = y) then Some x0 else fenext p1 x) as Yn.
      { intros x. unfold fenext. cbn. rewrite fmap_alter_same by done. by rewrite (fmap_alter_set _ _ _ _ _ x0). }
      assert (∀ x, feprev p2 x = if decide (x = x0) then Some y else feprev p1 x) as Yp.
      { intros x. unfold feprev. cbn. rewrite (fmap_alter_set _ _ _ _ _ y) by (by rewrite ?is_Some_alter). by rewrite fmap_alter_same. }
      split.
      { destruct Hb1 as [D1 D2 D3 D4 D5 Ho Hi Hends Hmap Huses Hfe Hfr Hrf Hvr].
        eapply (pbase_views p1); [by split|done|done|by apply dense_alter, dense_alter|done|done|..]; try done.
        - intros x. unfold fenoe. cbn. by rewrite !fmap_alter_same.
        - intros x. unfold fepoe. cbn. by rewrite !fmap_alter_same. }
      split.
      { exists x0, l. split; [done|]. split. { eapply lists_ext; [|exact A1]. intros k. by rewrite Yfr. }
        split. { rewrite El in *. eapply segment_close; [exact A5|by eapply lists_nodup|exact Hy|intros z _; apply Yn|intros z _; apply Yp]. }
        split; [done|]. intros i x Hx. destruct (Forall2_lookup_l _ _ _ _ _ A6 Hx) as (ab & Hab & e & H1 & H2).
        rewrite ring_pairs_lookup in Hab. apply fmap_Some in Hab as (a' & Ha' & ->). exists e, a'. rewrite Yfe. split; [exact H1|]. split; [exact Ha'|exact H2]. }
      split.
      { eapply (ring_kept_trans _ (λ r, r ≠ ring)); [|exact Hk1|]; [done|]. split; try done.
        - intros x r _. by rewrite Yfr.
        - intros x r Hr Hx. rewrite Yfe, Yn, Yp.
          assert (∀ z, z ∈ l → x ≠ z) as Hz. { intros z Hz ->. apply (proj2 A1) in Hz. congruence. }
          rewrite !decide_False; [done|by apply Hz|by apply Hz]. }
      split; [eapply ring_frame_trans; [exact Hf1|]; done|]. split; [by eapply egrow_same|]. exact Hn1.
  Qed.

  (** ** The rings of a face under construction. *)
  Record face_so_far p (id first prev : N) (rl : list N) (vss : list (list N)) : Prop := FaceSoFar {
    fs_list : lists (λ r, rface p r = Some id) rl;
    fs_first : first = default invalid_id (head rl);
    fs_prev : prev = default invalid_id (last rl);
    fs_ring : fcring p id = Some first;
    fs_seg : segment (rnext p) (rprev p) rl;
    fs_rings : Forall2 (ring_of p) rl vss }.
  (** Faces that a change keeps. *)
  Record face_kept (G : N → Prop) p p' : Prop := FaceKept {
    fk_f f : G f → fcring p' f = fcring p f;
    fk_x r f : G f → (rface p' r = Some f ↔ rface p r = Some f);
    fk_l r f : G f → rface p r = Some f → rnext p' r = rnext p r ∧ rprev p' r = rprev p r;
    fk_r : ring_kept (λ r, ∃ f, G f ∧ rface p r = Some f) p p' }.
  Lemma face_kept_refl G p : face_kept G p p.
  Proof. split; done. Qed.
  Lemma face_kept_trans (G G' : N → Prop) p p' p'' : (∀ f, G f → G' f) → face_kept G p p' → face_kept G' p' p'' → face_kept G p p''.
  Proof.
    intros HG [A1 A2 A3 A4] [B1 B2 B3 B4]. split; intros.
    - rewrite B1 by auto. by apply A1.
    - rewrite B2 by auto. by apply A2.
    - destruct (A3 r f) as [W1 W2]; [done|done|]. destruct (B3 r f) as [Y1 Y2]; [auto|by apply A2|]. by rewrite Y1, Y2.
    - eapply ring_kept_trans; [|exact A4|exact B4]. intros r (f & Hf & Hr). exists f. split; [auto|]. by apply A2.
  Qed.
  Lemma face_kept_of G p p' f vss : face_kept G p p' → G f → face_of p f vss → face_of p' f vss.
  Proof.
    intros [A1 A2 A3 A4] Hf (Hne & h & rl & H1 & H2 & H3 & H4). split; [done|]. exists h, rl. rewrite A1 by done. split; [done|].
    split; [|split].
    - eapply lists_ext; [|exact H2]. intros k. by rewrite A2.
    - eapply circular_ext; [|exact H3]. intros x Hx. apply (proj2 H2) in Hx. by apply (A3 x f).
    - eapply Forall2_impl_strong; [|exact H4]. intros r vs Hr _ Ho. eapply ring_kept_of; [exact A4| |exact Ho]. exists f. split; [done|]. by apply (proj2 H2).
  Qed.

  Definition fgrows (n : N) p p' : Prop := grows n p p' ∧ im_npi (p_rings p') ≤ im_npi (p_rings p) + n ∧ im_npi (p_faces p') = im_npi (p_faces p).
  Definition same_data p p' : Prop :=
    (∀ v, vdata p' v = vdata p v) ∧ (∀ v, is_Some (im_get (p_verts p') v) ↔ is_Some (im_get (p_verts p) v)) ∧ (∀ f, fcdata p' f = fcdata p f) ∧
    dense (p_faces p').

  Lemma ring_of_same p p' r vs : p_verts p' = p_verts p → p_edges p' = p_edges p → p_fes p' = p_fes p → relement p' r = relement p r → ring_of p r vs → ring_of p' r vs.
  Proof.
    intros H1 H2 H3 H4. eapply (ring_kept_of (λ r', r' = r)); [|done]. split.
    - by rewrite H1.
    - intros e vs'. unfold evs. by rewrite H2.
    - intros x r' _. unfold fering. by rewrite H3.
    - by intros r' ->.
    - intros x r' _ _. unfold feedge, fenext, feprev. by rewrite H3.
  Qed.

  Lemma face_step_ok p id first prev rl vss vs : pbase p → room p (1 + N.of_nat (length vs)) → vs ≠ [] →
    (∀ v, v ∈ vs → is_Some (im_get (p_verts p) v)) → face_so_far p id first prev rl vss →
    ∃ p' first' prev' rl', face_step default_edge id (p, first, prev) vs = Some (p', first', prev') ∧ pbase p' ∧
      face_so_far p' id first' prev' rl' (vss ++ [vs]) ∧ face_kept (λ f, f ≠ id) p p' ∧ same_data p p' ∧
      egrow (ring_pairs vs) default_edge p p' ∧ fgrows (1 + N.of_nat (length vs)) p p'.
  Proof.
    intros Hb Hroom Hne Hvs Hfs. pose proof Hroom as (R1 & R2 & R3 & R4 & R5). destruct Hfs as [A1 A2 A3 A4 A5 A6].
    pose proof Hb as [D1 D2 D3 D4 D5 Ho Hi Hends Hmap Huses Hfe Hfr Hrf Hvr].
    unfold face_step. rewrite dense_insert by (done || lia). set (ring := im_npi (p_rings p)) in *.
    set (nr := FRing (RFaceEdge invalid_id) id invalid_id invalid_id). set (p1 := with_rings p (im_push (p_rings p) nr)).
    assert (∀ r f, rface p r = Some f → r < ring) as Hrlt by (intros r f Hr; eapply dense_lt; [done|by eapply fmap_Some_is]).
    assert (∀ r, r ∈ rl → r < ring) as Hlin by (intros r Hr; apply (proj2 A1) in Hr; by eapply Hrlt).
    assert (is_Some (im_get (p_faces p) id)) as Hfid by (by eapply fmap_Some_is).
    assert (∀ r, relement p r ≠ None → r < ring) as Helt.
    { intros r Hr. eapply dense_lt; [done|]. unfold relement in Hr. destruct (im_get (p_rings p) r); [eauto|done]. }
    set (first' := default ring (head rl)).
    assert (∃ p2, (if N.eqb first invalid_id then p ← upd_face p1 id (set_fring ring); Some (p, ring)
       else p ← upd_ring p1 prev (set_rnext ring); p ← upd_ring p ring (set_rprev prev); Some (p, first)) = Some (p2, first') ∧
      p_verts p2 = p_verts p ∧ p_edges p2 = p_edges p ∧ p_fes p2 = p_fes p ∧ p_emap p2 = p_emap p ∧ dense (p_rings p2) ∧ dense (p_faces p2) ∧
      im_npi (p_rings p2) = ring + 1 ∧ im_npi (p_faces p2) = im_npi (p_faces p) ∧
      (∀ r, is_Some (im_get (p_rings p) r) → is_Some (im_get (p_rings p2) r)) ∧
      (∀ r, is_Some (im_get (p_faces p2) r) ↔ is_Some (im_get (p_faces p) r)) ∧
      (∀ f, fcdata p2 f = fcdata p f) ∧
      (∀ f, fcring p2 f = if decide (f = id) then Some first' else fcring p f) ∧
      (∀ r, relement p2 r = if decide (r = ring) then Some (RFaceEdge invalid_id) else relement p r) ∧
      (∀ r, rface p2 r = if decide (r = ring) then Some id else rface p r) ∧
      (∀ x, x ≠ ring → rnext p2 x = if decide (last rl = Some x) then Some ring else rnext p x) ∧
      (∀ x, x ≠ ring → rprev p2 x = rprev p x) ∧ (∀ y, last rl = Some y → rprev p2 ring = Some y)) as
      (p2 & E2 & Xv & Xe & Xf & Xm & Xdr & Xdc & Xnr & Xnc & Xisr & Xisc & Xcv & Xcr & Xel & Xrf & Xn & Xp & Xpn).
    { destruct rl as [|x0 l0] eqn:El.
      - cbn in A2. rewrite A2, N.eqb_refl. rewrite upd_face_ok by done. cbn [mbind option_bind]. eexists. split; [done|].
        split; [done|]. split; [done|]. split; [done|]. split; [done|]. split; [apply dense_push; [done|lia]|]. split; [by apply dense_alter|].
        split; [done|]. split; [done|]. split; [intros r; cbn; rewrite get_push; destruct (decide _); eauto|]. split; [intros r; cbn; apply is_Some_alter|].
        split; [intros f; unfold fcdata; cbn; by rewrite fmap_alter_same|].
        split; [intros f; unfold fcring; cbn; by rewrite (fmap_alter_set _ _ _ _ _ ring)|].
        split; [intros r; unfold relement; cbn; by rewrite fmap_push|]. split; [intros r; unfold rface; cbn; by rewrite fmap_push|].
        split; [intros x Hx; unfold rnext; cbn; rewrite fmap_push, !decide_False by done; done|].
        split; [intros x Hx; unfold rprev; cbn; rewrite fmap_push, !decide_False by done; done|]. done.
      - assert (first ≠ invalid_id) as Hnf. { rewrite A2. cbn. pose proof (Hlin x0 ltac:(by left)). lia. }
        destruct (last (x0 :: l0)) as [y|] eqn:Hy; [|by apply last_None in Hy]. cbn in A3. subst prev.
        assert (y ∈ x0 :: l0) as Hyin by (rewrite last_lookup in Hy; by eapply elem_of_list_lookup_2).
        pose proof (Hlin y Hyin) as Hylt.
        assert (is_Some (im_get (p_rings p) y)) as Hys by (apply (proj2 A1) in Hyin; by eapply fmap_Some_is).
        assert (is_Some (im_get (im_push (p_rings p) nr) y)) as Hys1. { rewrite get_push. destruct (decide _); eauto. }
        assert (is_Some (im_get (im_push (p_rings p) nr) ring)) as Hfs1. { rewrite get_push, decide_True by done. eauto. }
        rewrite (proj2 (N.eqb_neq _ _) Hnf). rewrite upd_ring_ok by done. cbn [mbind option_bind]. rewrite upd_ring_ok by (by apply is_Some_alter).
        cbn [mbind option_bind]. eexists. split; [by rewrite A2|].
        split; [done|]. split; [done|]. split; [done|]. split; [done|]. split; [apply dense_alter, dense_alter, dense_push; [done|lia]|]. split; [done|].
        split; [done|]. split; [done|]. split; [intros r Hr; cbn; rewrite !is_Some_alter, get_push; destruct (decide _); eauto|]. split; [done|]. split; [done|].
        split. { intros f. destruct (decide (f = id)) as [->|]; [|done]. change (fcring p id = Some first'). by rewrite A4, A2. }
        split; [intros x; unfold relement; cbn; rewrite !fmap_alter_same by done; by rewrite fmap_push|].
        split; [intros x; unfold rface; cbn; rewrite !fmap_alter_same by done; by rewrite fmap_push|].
        split. { intros x Hx. unfold rnext. cbn. rewrite fmap_alter_same by done. rewrite (fmap_alter_set _ _ _ _ _ ring) by done.
          destruct (decide (x = y)) as [->|Hxy]; [by rewrite decide_True|]. rewrite decide_False by congruence. rewrite fmap_push. by rewrite decide_False. }
        split. { intros x Hx. unfold rprev. cbn. rewrite (fmap_alter_set _ _ _ _ _ y) by (by rewrite ?is_Some_alter). rewrite decide_False by done.
          rewrite fmap_alter_same by done. rewrite fmap_push. by rewrite decide_False. }
        intros y' [= <-]. unfold rprev. cbn. rewrite (fmap_alter_set _ _ _ _ _ y) by (by rewrite ?is_Some_alter). by rewrite decide_True. }
    assert (pbase p2) as Hb2.
    { split.
      - by rewrite Xv.
      - by rewrite Xe.
      - by rewrite Xf.
      - done.
      - done.
      - unfold vout, esrc, evs, enout, epout. rewrite Xv, Xe. exact Ho.
      - unfold vin, etgt, evs, enin, epin. rewrite Xv, Xe. exact Hi.
      - unfold evs. rewrite Xv, Xe. exact Hends.
      - unfold evs, edge_id. rewrite Xm, Xe. exact Hmap.
      - unfold efe, feedge, fenoe, fepoe. rewrite Xe, Xf. exact Huses.
      - unfold feedge. rewrite Xe, Xf. exact Hfe.
      - intros x r. unfold fering. rewrite Xf. intros Hx. eapply Xisr, Hfr, Hx.
      - intros r f. rewrite Xrf, Xisc. destruct (decide (r = ring)); [by intros [= <-]|]. apply Hrf.
      - intros v r. unfold vring. rewrite Xv, Xel. intros Hv. destruct (Hvr v r Hv) as [?|Hr]; [by left|]. right.
        rewrite decide_False; [done|]. assert (r < ring) by (apply Helt; congruence). lia. }
    destruct (fill_ring_ok p2 ring vs) as (p3 & E3 & Hb3 & Hof & Hk & Hfr3 & Hg & Hn); [done| |done| | | |].
    { unfold room. rewrite Xv, Xe, Xf, Xnr, Xnc. lia. }
    { intros v Hv. rewrite Xv. by apply Hvs. } { rewrite Xel. by rewrite decide_True. }
    { intros x. unfold fering. rewrite Xf. intros Hx. apply (Hfr x) in Hx. apply (dense_lt _ _ D4) in Hx. fold ring in Hx. lia. }
    cbn zeta. rewrite E2. cbn [mbind option_bind]. rewrite E3. cbn [mbind option_bind].
    exists p3, first', ring, (rl ++ [ring]). split; [done|]. split; [done|].
    pose proof Hfr3 as (Yc & Yrf & Yrn & Yrp & Yvd & Yiv & Ynr).
    assert (lists (λ r, rface p3 r = Some id) (rl ++ [ring])) as Yl.
    { eapply lists_snoc; [exact A1| |].
      - intros k Hk'. exact (Hrlt _ _ Hk').
      - intros k. rewrite Yrf, Xrf. destruct (decide (k = ring)); naive_solver. }
    assert (∀ r vs, r < ring → ring_of p r vs → ring_of p3 r vs) as Hkeep.
    { intros r vs' Hr Ho'. eapply (ring_kept_of _ _ _ _ _ Hk); [lia|]. eapply ring_of_same; [done|done|done| |exact Ho']. rewrite Xel. by rewrite decide_False by lia. }
    split.
    { split.
      - exact Yl.
      - unfold first'. by destruct rl.
      - by rewrite last_snoc.
      - unfold fcring. rewrite Yc. change (fcring p2 id = Some first'). rewrite Xcr. by rewrite decide_True.
      - eapply (segment_ext (rnext p2) (rprev p2)); [intros x _; by rewrite Yrn, Yrp|]. eapply segment_snoc; [exact A5|by eapply lists_nodup|intros Hx; apply Hlin in Hx; lia| |].
        + intros y Hy. assert (y ∈ rl) as Hyin by (rewrite last_lookup in Hy; by eapply elem_of_list_lookup_2).
          pose proof (Hlin y Hyin) as Hylt. rewrite Xn by lia. rewrite decide_True by done. split; [done|]. by apply Xpn.
        + intros z Hz. pose proof (Hlin z Hz) as Hzlt. rewrite Xn, Xp by lia. split; [|done]. intros Hnl. by rewrite decide_False.
      - apply Forall2_app; [|by constructor]. eapply Forall2_impl_strong; [|exact A6]. intros r vs' Hr _. apply Hkeep. by apply Hlin. }
    split.
    { split.
      - intros f Hf. unfold fcring. rewrite Yc. change (fcring p2 f = fcring p f). rewrite Xcr. by rewrite decide_False.
      - intros r f Hf. rewrite Yrf, Xrf. destruct (decide (r = ring)) as [->|]; [|done]. split; [congruence|]. intros Hr. apply Hrlt in Hr. lia.
      - intros r f Hf Hr. pose proof (Hrlt _ _ Hr). rewrite Yrn, Yrp, Xn, Xp by lia. rewrite decide_False; [done|].
        intros Hlast. assert (r ∈ rl) as Hxl by (rewrite last_lookup in Hlast; by eapply elem_of_list_lookup_2). apply (proj2 A1) in Hxl. congruence.
      - eapply (ring_kept_trans _ (λ r, r ≠ ring)); [|split|exact Hk].
        + intros r (f & _ & Hr). apply Hrlt in Hr. lia.
        + by rewrite Xv.
        + intros e ab. unfold evs. by rewrite Xe.
        + intros x r _. unfold fering. by rewrite Xf.
        + intros r (f & _ & Hr). apply Hrlt in Hr. rewrite Xel. by rewrite decide_False by lia.
        + intros x r _ _. unfold feedge, fenext, feprev. by rewrite Xf. }
    split.
    { split; [intros v; rewrite Yvd; unfold vdata; by rewrite Xv|]. split; [intros v; rewrite Yiv; by rewrite Xv|].
      split; [intros f; unfold fcdata; rewrite Yc; apply Xcv|]. by rewrite Yc. }
    split.
    { assert (egrow [] default_edge p p2) as Hg0.
      { eapply egrow_same; [apply egrow_refl|done| |]; intros e; unfold evs, eval; by rewrite Xe. }
      exact (egrow_trans _ _ _ _ _ _ Hg0 Hg). }
    split; [|rewrite Ynr, Yc, Xnr, Xnc; fold ring; lia]. destruct Hn as (G1 & G2 & G3). unfold grows. rewrite Xv in G1. rewrite Xe in G2. rewrite Xf in G3. lia.
  Qed.
End add.
