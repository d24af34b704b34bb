(** Construction histories of piecewise linear complexes. *)
From Coq Require Import NArith Lia Sorted.
From stdpp Require Import base numbers list gmap option sorting.
From Verif Require Import IdMapModel IdMapProofs WalkerModel MeshModel UtilModel UtilSpec UtilProofs PlcModel PlcSpec PlcList PlcNet PlcFace PlcAdd PlcIter.
Local Open Scope N_scope.

Section proofs.
  Context {V E F Pl : Type}.
  Context (plane0 : Pl) (default_edge : E) (plane_of : list pt → list (pt * pt) → Pl).
  Implicit Types (p : plc V E F Pl).

  Lemma ok_base p : plc_ok p → pbase p.
  Proof. intros []. by split. Qed.
  Lemma base_ok p : pbase p → (∀ f, is_Some (im_get (p_faces p) f) → ∃ vss, face_of p f vss) → plc_ok p.
  Proof. intros [] H. by split. Qed.

  Definition rings_size (vss : list (list N)) : N := foldr (λ r s, 1 + N.of_nat (length r) + s) 0 vss.

  Lemma list_eq_mapM {A B} (f g : A → option B) l : (∀ x, f x = g x) → mapM f l = mapM g l.
  Proof. intros H. induction l as [|x l IH]; [done|]. cbn. rewrite H. destruct (g x); [|done]. cbn. by rewrite IH. Qed.

  Lemma same_data_trans p p' p'' : same_data p p' → same_data p' p'' → same_data p p''.
  Proof.
    intros (A1 & A2 & A3 & A4) (B1 & B2 & B3 & B4). split; [intros; by rewrite B1|]. split; [intros; by rewrite B2|]. split; [intros; by rewrite B3|done].
  Qed.

  Lemma face_steps_ok id ws : ∀ p first prev rl vss, pbase p → room p (rings_size ws) →
    (∀ vs, vs ∈ ws → vs ≠ [] ∧ ∀ v, v ∈ vs → is_Some (im_get (p_verts p) v)) → face_so_far p id first prev rl vss →
    ∃ p' first' prev' rl', foldM (face_step default_edge id) (p, first, prev) ws = Some (p', first', prev') ∧ pbase p' ∧
      face_so_far p' id first' prev' rl' (vss ++ ws) ∧ face_kept (λ f, f ≠ id) p p' ∧ same_data p p' ∧
      egrow (concat (map ring_pairs ws)) default_edge p p' ∧ fgrows (rings_size ws) p p'.
  Proof.
    induction ws as [|vs ws IH]; intros p first prev rl vss Hb Hroom Hws Hfs.
    - exists p, first, prev, rl. rewrite app_nil_r. split; [done|]. split; [done|]. split; [done|]. split; [apply face_kept_refl|].
      split; [split; [done|]; split; [done|]; split; [done|]; apply (pb_faces _ Hb)|]. split; [apply egrow_refl|]. unfold fgrows, grows. cbn. lia.
    - destruct (Hws vs) as [Hne Hvs]; [by left|].
      destruct (face_step_ok default_edge p id first prev rl vss vs) as (p1 & f1 & pr1 & rl1 & E1 & Hb1 & Hfs1 & Hk1 & Hd1 & Hg1 & Hn1); try done.
      { eapply room_le; [|exact Hroom]. cbn. lia. }
      destruct (IH p1 f1 pr1 rl1 (vss ++ [vs])) as (p2 & f2 & pr2 & rl2 & E2 & Hb2 & Hfs2 & Hk2 & Hd2 & Hg2 & Hn2).
      { done. } { destruct Hroom as (R1 & R2 & R3 & R4 & R5). destruct Hn1 as ((G1 & G2 & G3) & G4 & G5). unfold room. cbn [rings_size foldr] in *. fold (rings_size ws) in *. lia. }
      { intros ws' Hw. destruct (Hws ws') as [H1 H2]; [by right|]. split; [done|]. intros v Hv. destruct Hd1 as (_ & Hd1 & _). by apply Hd1, H2. } { done. }
      exists p2, f2, pr2, rl2. cbn [foldM]. rewrite E1. cbn [mbind option_bind]. split; [done|]. split; [done|].
      split; [by rewrite <- app_assoc in Hfs2|]. split; [by eapply face_kept_trans; [|exact Hk1|exact Hk2]|]. split; [by eapply same_data_trans|].
      split; [by eapply egrow_trans|]. destruct Hn1 as ((G1 & G2 & G3) & G4 & G5), Hn2 as ((I1 & I2 & I3) & I4 & I5).
      unfold fgrows, grows. cbn [rings_size foldr]. fold (rings_size ws). lia.
  Qed.

  Lemma add_face_ok p rings val : plc_ok p → room p (1 + rings_size rings) → rings ≠ [] →
    (∀ vs, vs ∈ rings → vs ≠ [] ∧ ∀ v, v ∈ vs → is_Some (im_get (p_verts p) v)) →
    ∃ p', p_add_face plane0 default_edge plane_of p rings val = Some (p', im_npi (p_faces p)) ∧ plc_ok p' ∧
      face_of p' (im_npi (p_faces p)) rings ∧ (∀ f vss, face_of p f vss → face_of p' f vss) ∧
      (∀ v, vdata p' v = vdata p v) ∧
      (∃ pts ends, mapM (vpos p) (concat rings) = Some pts ∧ mapM (epos p) (concat (ring_pairs <$> rings)) = Some ends ∧
        ∀ f, fcdata p' f = if decide (f = im_npi (p_faces p)) then Some (plane_of pts ends, val) else fcdata p f) ∧
      egrow (concat (map ring_pairs rings)) default_edge p p' ∧ (∀ n, room p (1 + rings_size rings + n) → room p' n) ∧
      im_npi (p_verts p') = im_npi (p_verts p) ∧ im_npi (p_faces p') = im_npi (p_faces p) + 1.
  Proof.
    intros Hok Hroom Hne Hvs. pose proof (ok_base p Hok) as Hb. pose proof Hroom as (R1 & R2 & R3 & R4 & R5).
    pose proof Hb as [D1 D2 D3 D4 D5 Ho Hi Hends Hmap Huses Hfe Hfr Hrf Hvr].
    unfold p_add_face. rewrite dense_insert by (done || lia). set (id := im_npi (p_faces p)) in *.
    set (nf := PFace invalid_id plane0 val). set (p1 := with_faces p (im_push (p_faces p) nf)).
    assert (pbase p1) as Hb1.
    { eapply (pbase_views p); try done. { apply dense_push; [done|lia]. }
      intros v Hv. cbn. rewrite get_push. destruct (decide _); eauto. }
    assert (∀ f, is_Some (im_get (p_faces p) f) → f < id) as Hflt by (intros f Hf; by apply dense_lt).
    assert (face_so_far p1 id invalid_id invalid_id [] []) as Hfs0.
    { split; try done.
      - apply lists_nil. intros k Hk. apply (Hrf k id) in Hk. apply Hflt in Hk. lia.
      - unfold fcring. cbn. rewrite fmap_push. by rewrite decide_True. }
    destruct (face_steps_ok id rings p1 invalid_id invalid_id [] []) as (p2 & f2 & pr2 & rl & E2 & Hb2 & Hfs2 & Hk2 & Hd2 & Hg2 & Hn2); try done.
    { unfold room. cbn. fold id. lia. }
    rewrite app_nil_l in Hfs2. destruct Hfs2 as [A1 A2 A3 A4 A5 A6].
    destruct rl as [|x0 l0] eqn:El; [by apply Forall2_nil_inv_l in A6 as ->|]. rewrite <- El in *.
    destruct (last rl) as [y|] eqn:Hy; [|apply last_None in Hy; congruence].
    cbn in A3. subst pr2. assert (f2 = x0) as -> by (by rewrite A2, El).
    assert (y ∈ rl) as Hyin by (rewrite last_lookup in Hy; by eapply elem_of_list_lookup_2).
    assert (x0 ∈ rl) as Hx0in by (rewrite El; by left).
    assert (is_Some (im_get (p_rings p2) y)) as Hys by (apply (proj2 A1) in Hyin; by eapply fmap_Some_is).
    assert (is_Some (im_get (p_rings p2) x0)) as Hxs by (apply (proj2 A1) in Hx0in; by eapply fmap_Some_is).
    rewrite E2. cbn [mbind option_bind]. rewrite upd_ring_ok by done. cbn [mbind option_bind]. rewrite upd_ring_ok by (by apply is_Some_alter). cbn [mbind option_bind].
    match goal with |- context [calc_face_plane _ ?q _] => set (p3 := q) end.
    assert (∀ r, rface p3 r = rface p2 r) as Yrf by (intros r; unfold rface; cbn; by rewrite !fmap_alter_same).
    assert (∀ r, relement p3 r = relement p2 r) as Yel by (intros r; unfold relement; cbn; by rewrite !fmap_alter_same).
    assert (∀ r, rnext p3 r = if decide (r = y) then Some x0 else rnext p2 r) as Yn.
    { intros x. unfold rnext. cbn. rewrite fmap_alter_same by done. by rewrite (fmap_alter_set _ _ _ _ _ x0). }
    assert (∀ x, rprev p3 x = if decide (x = x0) then Some y else rprev p2 x) as Yp.
    { intros x. unfold rprev. cbn. rewrite (fmap_alter_set _ _ _ _ _ y) by (by rewrite ?is_Some_alter). by rewrite fmap_alter_same. }
    assert (pbase p3) as Hb3.
    { pose proof Hb2 as [? ? ? ? ? ? ? ? ? ? ? ? ? Hvr2]. eapply (pbase_views p2); try done.
      - by apply dense_alter, dense_alter.
      - intros r. cbn. by rewrite !is_Some_alter.
      - intros v r. rewrite Yel. apply Hvr2. }
    assert (face_of p3 id rings) as Hof3.
    { split; [done|]. exists x0, rl. split; [exact A4|]. split; [|split].
      - eapply lists_ext; [|exact A1]. intros k. by rewrite Yrf.
      - rewrite El in *. eapply segment_close; [exact A5|by eapply lists_nodup|exact Hy|intros z _; apply Yn|intros z _; apply Yp].
      - eapply Forall2_impl; [exact A6|]. intros r vs Hr. eapply (ring_of_same p2); [done|done|done|apply Yel|exact Hr]. }
    assert (is_Some (im_get (p_faces p3) id)) as Hfid by (apply (fmap_Some_is pf_ring _ _ x0); exact A4).
    destruct (calc_face_plane_ok plane_of p3 id rings Hb3 Hfid Hof3) as (pts & ends & P1 & P2 & P3). rewrite P3. cbn [mbind option_bind].
    eexists. split; [done|].
    match goal with |- plc_ok ?q ∧ _ => set (p4 := q) end.
    assert (∀ f, fcring p4 f = fcring p3 f) as Zr by (intros f; unfold fcring; cbn; by rewrite fmap_alter_same).
    assert (∀ f vss, face_of p3 f vss → face_of p4 f vss) as H34.
    { intros f vss. apply (face_kept_of (λ _, True)); [|done]. split; done. }
    assert (∀ f vss, face_of p f vss → face_of p3 f vss) as H03.
    { intros f vss Hf. assert (f ≠ id) as Hn. { pose proof Hf as (_ & h & rl' & Hh & _). assert (f < id); [|lia]. apply Hflt. by eapply fmap_Some_is. }
      assert (face_kept (λ f, f ≠ id) p p1) as K1.
      { split; try done. intros f' Hf'. unfold fcring. cbn. rewrite fmap_push. by rewrite decide_False. }
      assert (face_kept (λ f, f ≠ id) p2 p3) as K3.
      { split; try done.
        - intros r f' _. by rewrite Yrf.
        - intros r f' Hf' Hr. rewrite Yn, Yp. assert (∀ z, z ∈ rl → r ≠ z) as Hz. { intros z Hz ->. apply (proj2 A1) in Hz. congruence. }
          rewrite !decide_False; [done|by apply Hz|by apply Hz]. }
      eapply (face_kept_of (λ f, f ≠ id) p p3); [|exact Hn|exact Hf].
      eapply (face_kept_trans _ (λ f, f ≠ id)); [|exact K1|]; [done|]. eapply face_kept_trans; [|exact Hk2|exact K3]. done. }
    assert (∀ v, vpos p3 v = vpos p v) as Hvp.
    { intros v. pose proof (proj1 Hd2 v) as H. unfold vdata in H. unfold vpos. change (p_verts p3) with (p_verts p2). change (p_verts p1) with (p_verts p) in H.
      destruct (im_get (p_verts p2) v), (im_get (p_verts p) v); cbn in *; congruence. }
    split.
    { apply base_ok.
      - pose proof Hb3 as [? ? ? ? ? ? ? ? ? ? ? ? ? Hvr3]. eapply (pbase_views p3); try done.
        + by apply dense_alter.
        + intros f. cbn. by rewrite is_Some_alter.
      - intros f Hf. cbn in Hf. rewrite is_Some_alter in Hf. destruct (decide (f = id)) as [->|Hn]; [exists rings; by apply H34|].
        destruct (pk_face _ Hok f) as [vss Hvss].
        + change (p_faces p3) with (p_faces p2) in Hf. assert (is_Some (fcdata p2 f)) as Hv by (unfold fcdata; by rewrite fmap_is_Some).
          destruct Hd2 as (_ & _ & Hd2 & _). rewrite Hd2 in Hv. unfold fcdata in Hv. cbn in Hv. rewrite fmap_push, decide_False in Hv by done.
          by rewrite fmap_is_Some in Hv.
        + exists vss. by apply H34, H03. }
    split; [by apply H34|]. split; [intros f vss Hf; by apply H34, H03|].
    split; [apply Hd2|].
    split. { exists pts, ends. split; [rewrite <- P1; apply list_eq_mapM; intros; symmetry; apply Hvp|].
      split; [rewrite <- P2; apply list_eq_mapM; intros; unfold epos; by rewrite !Hvp|].
      intros f. assert (fcdata p2 f = fcdata p1 f) as Hfd by apply Hd2. unfold fcdata in Hfd |- *. cbn in Hfd |- *. rewrite fmap_push in Hfd. rewrite fmap_alter. change (p_faces p3) with (p_faces p2).
      destruct (decide (f = id)) as [->|Hn]; [|by rewrite decide_False in Hfd]. rewrite decide_True in Hfd by done.
      destruct (im_get (p_faces p2) id); [|done]. cbn in Hfd |- *. congruence. }
    split.
    { eapply (egrow_same _ _ _ p2); [|done|done|done]. destruct Hg2 as [G1 G2 G3 G4 G5]. split; done. }
    split; [|destruct Hn2 as ((I1 & _) & _ & I5); split; [exact I1|exact I5]].
    intros n. destruct Hn2 as ((I1 & I2 & I3) & I4 & I5). unfold room. cbn in *. fold id. fold id in I5. lia.
  Qed.

  (** ** Values of edges. *)
  Definition ev p (vs : N * N) : option E := e ← edge_id p vs; eval p e.
  Lemma ev_grow ps d p p' : pbase p → pbase p' → egrow ps d p p' →
    ∀ vs, ev p' vs = match ev p vs with Some x => Some x | None => if decide (vs ∈ ps) then Some d else None end.
  Proof.
    intros Hb Hb' [G1 G2 G3 G4 G5] vs. unfold ev.
    assert (∀ (q : plc V E F Pl) e vs, evs q e = Some vs → is_Some (eval q e)) as Hv.
    { intros q e ab He. destruct (get_fmap _ _ _ _ He) as (x & Hx & _). unfold eval. rewrite Hx. eauto. }
    destruct (edge_id p vs) as [e|] eqn:He; cbn [mbind option_bind].
    - rewrite (G2 _ _ He). cbn [mbind option_bind]. apply (pb_map _ Hb) in He. destruct (Hv _ _ _ He) as [x Hx]. rewrite Hx. by apply G4.
    - destruct (decide (vs ∈ ps)) as [Hin|Hin].
      + assert (is_Some (edge_id p' vs)) as [e He'] by (apply G1; by right). rewrite He'. cbn [mbind option_bind].
        apply (pb_map _ Hb') in He'. destruct (Hv _ _ _ He') as [x Hx]. rewrite Hx. destruct (G5 _ _ Hx) as [Hold|[_ ->]]; [|done]. exfalso.
        destruct (get_fmap _ _ _ _ Hold) as (ed & Hed & _). assert (evs p e = Some (pe_vs ed)) as Hevs by (unfold evs; by rewrite Hed).
        pose proof (G3 _ _ Hevs) as Hevs'. rewrite He' in Hevs'. injection Hevs' as Hevs'. rewrite <- Hevs' in Hevs. apply (pb_map _ Hb) in Hevs. congruence.
      + destruct (edge_id p' vs) eqn:He'; [|done]. exfalso. destruct (proj1 (G1 vs)) as [[? H]|H]; [eauto|congruence|done].
  Qed.

  (** ** Single calls. *)
  Lemma add_vertex_ok p pos x : plc_ok p → im_npi (p_verts p) < invalid_id →
    ∃ p', p_add_vertex p pos x = (p', im_npi (p_verts p)) ∧ plc_ok p' ∧ (∀ v, vdata p' v = if decide (v = im_npi (p_verts p)) then Some (pos, x) else vdata p v) ∧
      (∀ f vss, face_of p f vss → face_of p' f vss) ∧ p_edges p' = p_edges p ∧ p_emap p' = p_emap p ∧ p_faces p' = p_faces p ∧ p_fes p' = p_fes p ∧ p_rings p' = p_rings p ∧
      im_npi (p_verts p') = im_npi (p_verts p) + 1.
  Proof.
    intros Hok Hlt. pose proof (ok_base p Hok) as [D1 D2 D3 D4 D5 Ho Hi Hends Hmap Huses Hfe Hfr Hrf Hvr].
    unfold p_add_vertex. rewrite dense_insert by done. set (id := im_npi (p_verts p)) in *. eexists. split; [done|].
    match goal with |- plc_ok ?q ∧ _ => set (p1 := q) end.
    assert (∀ v, is_Some (im_get (p_verts p) v) → is_Some (im_get (p_verts p1) v)) as Hmono.
    { intros v Hv. cbn. rewrite get_push. destruct (decide _); eauto. }
    assert (∀ f vss, face_of p f vss → face_of p1 f vss) as Hkeep.
    { intros f vss. apply (face_kept_of (λ _, True)); [|done]. split; done. }
    assert (∀ e v, esrc p e = Some v → v ≠ id) as Hs.
    { intros e v He. unfold esrc in He. destruct (evs p e) as [[a b]|] eqn:Ev; [|done]. cbn in He. injection He as <-.
      destruct (Hends _ _ _ Ev) as [Ha _]. apply (dense_lt _ _ D1) in Ha. fold id in Ha. lia. }
    assert (∀ e v, etgt p e = Some v → v ≠ id) as Ht.
    { intros e v He. unfold etgt in He. destruct (evs p e) as [[a b]|] eqn:Ev; [|done]. cbn in He. injection He as <-.
      destruct (Hends _ _ _ Ev) as [_ Ha]. apply (dense_lt _ _ D1) in Ha. fold id in Ha. lia. }
    split.
    { apply base_ok; [|intros f Hf; destruct (pk_face _ Hok f Hf) as [vss Hv]; exists vss; by apply Hkeep]. split; try done.
      - by apply dense_push.
      - intros v h. unfold vout. cbn. rewrite fmap_push. fold id. destruct (decide (v = id)) as [->|]; [|apply Ho].
        intros [= <-]. exists []. split; [|done]. apply lists_nil. intros k Hk. by apply (Hs k id).
      - intros v h. unfold vin. cbn. rewrite fmap_push. fold id. destruct (decide (v = id)) as [->|]; [|apply Hi].
        intros [= <-]. exists []. split; [|done]. apply lists_nil. intros k Hk. by apply (Ht k id).
      - intros e a b He. destruct (Hends e a b He). auto.
      - intros v r. unfold vring. cbn. rewrite fmap_push. fold id. destruct (decide (v = id)) as [->|]; [|apply Hvr]. intros [= <-]. by left. }
    split; [intros v; unfold vdata; cbn; by rewrite fmap_push|]. split; [exact Hkeep|]. done.
  Qed.

  Lemma face_kept_eq p p' f vss : (∀ v, is_Some (im_get (p_verts p) v) → is_Some (im_get (p_verts p') v)) → (∀ e vs, evs p e = Some vs → evs p' e = Some vs) →
    p_fes p' = p_fes p → p_rings p' = p_rings p → p_faces p' = p_faces p → face_of p f vss → face_of p' f vss.
  Proof.
    intros H1 H2 H3 H4 H5. apply (face_kept_of (λ _, True)); [|done]. split.
    - intros g _. unfold fcring. by rewrite H5.
    - intros r g _. unfold rface. by rewrite H4.
    - intros r g _ _. unfold rnext, rprev. by rewrite H4.
    - split; [done|done|..].
      + intros x r _. unfold fering. by rewrite H3.
      + intros r _. unfold relement. by rewrite H4.
      + intros x r _ _. unfold feedge, fenext, feprev. by rewrite H3.
  Qed.
  Lemma ensured_ok p vs val p' id : plc_ok p → ensured p vs val p' id →
    plc_ok p' ∧ (∀ f vss, face_of p f vss → face_of p' f vss).
  Proof.
    intros Hok (Hb & Hg & Hid & Xf & Xr & Xc & Nv & Ne & Hvd & Hiv).
    assert (∀ f vss, face_of p f vss → face_of p' f vss) as Hkeep.
    { intros f vss. apply face_kept_eq; try done. { intros v. by rewrite Hiv. } apply (eg_evs _ _ _ _ Hg). }
    split; [|done]. apply base_ok; [done|]. intros f Hf. rewrite Xc in Hf. destruct (pk_face _ Hok f Hf) as [vss Hv]. eauto.
  Qed.

  Record op_effect (o : pop V E F) p p' (id : N) : Prop := OpEffect {
    oe_vdata v : vdata p' v = match o with PAddVertex pos x => if decide (v = im_npi (p_verts p)) then Some (pos, x) else vdata p v | _ => vdata p v end;
    oe_nv : im_npi (p_verts p') = match o with PAddVertex _ _ => im_npi (p_verts p) + 1 | _ => im_npi (p_verts p) end;
    oe_nf : im_npi (p_faces p') = match o with PAddFace _ _ => im_npi (p_faces p) + 1 | _ => im_npi (p_faces p) end;
    oe_face f vss : face_of p f vss → face_of p' f vss;
    oe_fcdata f d : fcdata p f = Some d → fcdata p' f = Some d;
    oe_edge vs e : edge_id p vs = Some e → edge_id p' vs = Some e;
    oe_value vs : ev p' vs = op_value default_edge o vs (ev p vs);
    oe_id : match o with
      | PAddVertex _ _ => id = im_npi (p_verts p)
      | PAddEdge vs _ | PAddEdgeIfAbsent vs _ => edge_id p' vs = Some id
      | PAddFace rings val => id = im_npi (p_faces p) ∧ face_of p' id rings ∧
          ∃ pts ends, mapM (vpos p) (concat rings) = Some pts ∧ mapM (epos p) (concat (ring_pairs <$> rings)) = Some ends ∧ fcdata p' id = Some (plane_of pts ends, val)
      end;
    oe_room n : room p (pop_size o + n) → room p' n }.

  Definition op_refs (n : N) (o : pop V E F) : Prop :=
    match o with
    | PAddVertex _ _ => True
    | PAddEdge vs _ | PAddEdgeIfAbsent vs _ => vs.1 < n ∧ vs.2 < n
    | PAddFace rings _ => rings ≠ [] ∧ ∀ r, r ∈ rings → r ≠ [] ∧ ∀ v, v ∈ r → v < n
    end.
  Notation run_pop := (run_pop plane0 default_edge plane_of).
  Notation run_pops := (run_pops plane0 default_edge plane_of).

  Lemma run_pop_ok p o : plc_ok p → op_refs (im_npi (p_verts p)) o → room p (pop_size o) →
    ∃ p' id, run_pop p o = Some (p', id) ∧ plc_ok p' ∧ op_effect o p p' id.
  Proof.
    intros Hok Hrefs Hroom. pose proof (ok_base _ Hok) as Hb.
    assert (∀ v, v < im_npi (p_verts p) → is_Some (im_get (p_verts p) v)) as Hex by (intros v; apply (pk_verts _ Hok)).
    destruct o as [pos x|[a b] val|[a b] val|rings val]; cbn [run_pop op_refs pop_size fst snd] in *.
    - destruct (add_vertex_ok p pos x Hok) as (p' & E1 & Hok' & Hvd & Hk & Xe & Xm & Xc & Xf & Xr & Hn); [unfold room in Hroom; lia|].
      exists p', (im_npi (p_verts p)). split; [by rewrite E1|]. split; [done|]. split; try done.
      + by rewrite Xc.
      + intros f d. unfold fcdata. by rewrite Xc.
      + intros vs e. unfold edge_id. by rewrite Xm.
      + intros vs. cbn. unfold ev, edge_id, eval. by rewrite Xm, Xe.
      + intros n. unfold room. cbn [pop_size]. rewrite Hn, Xe, Xc, Xf, Xr. lia.
    - destruct Hrefs as [Ha Hb2]. unfold p_add_edge. destruct (p_emap p !! (a, b)) as [id|] eqn:Hm.
      + assert (evs p id = Some (a, b)) as Hev by (by apply (pk_map _ Hok)).
        assert (is_Some (im_get (p_edges p) id)) as Hid by (by eapply fmap_Some_is).
        rewrite upd_edge_ok by done. cbn [mbind option_bind]. eexists _, id. split; [done|].
        match goal with |- plc_ok ?q ∧ _ => set (p1 := q) end.
        assert (∀ e, evs p1 e = evs p e) as Yevs by (intros e; unfold evs; cbn; by rewrite fmap_alter_same).
        assert (∀ f vss, face_of p f vss → face_of p1 f vss) as Hkeep.
        { intros f vss. apply face_kept_eq; try done. intros e vs. by rewrite Yevs. }
        pose proof Hb as [D1 D2 D3 D4 D5 Ho Hi Hends Hmap Huses Hfe Hfr Hrf Hvr].
        split.
        { apply base_ok; [|intros f Hf; destruct (pk_face _ Hok f Hf) as [vss Hv]; exists vss; by apply Hkeep]. split; try done.
          - by apply dense_alter.
          - eapply own_same; [..|exact Ho]; intros; [done|unfold esrc; by rewrite Yevs|unfold enout; cbn; by rewrite fmap_alter_same|unfold epout; cbn; by rewrite fmap_alter_same].
          - eapply own_same; [..|exact Hi]; intros; [done|unfold etgt; by rewrite Yevs|unfold enin; cbn; by rewrite fmap_alter_same|unfold epin; cbn; by rewrite fmap_alter_same].
          - intros e x y. rewrite Yevs. apply Hends.
          - intros vs e. rewrite Yevs. apply Hmap.
          - eapply own_same; [..|exact Huses]; intros; try done. unfold efe. cbn. by rewrite fmap_alter_same.
          - intros x e Hx. cbn. apply is_Some_alter. by eapply Hfe. }
        split; try done.
        * intros vs. cbn. unfold ev. change (edge_id p1 vs) with (edge_id p vs). unfold eval. cbn. destruct (decide (vs = (a, b))) as [->|Hn].
          { unfold edge_id at 1. rewrite Hm. cbn [mbind option_bind]. rewrite (fmap_alter_set _ _ _ _ _ val) by done. by rewrite decide_True. }
          destruct (edge_id p vs) as [e|] eqn:He; [|done]. cbn [mbind option_bind]. rewrite (fmap_alter_set _ _ _ _ _ val) by done.
          rewrite decide_False; [done|]. intros ->. apply Hmap in He. congruence.
        * intros n. unfold room. cbn. lia.
      + destruct (add_new_edge_ok p a b val) as (p' & Hp & He); [done|unfold room in Hroom; lia|done|by apply Hex|by apply Hex|]. rewrite Hp. cbn [mbind option_bind].
        eexists _, _. split; [done|]. pose proof He as (Hb' & Hg & Hid & Xf & Xr & Xc & Nv & Ne & Hvd & Hiv). destruct (ensured_ok _ _ _ _ _ Hok He) as [Hok' Hk].
        split; [done|]. split; try done.
        * by rewrite Xc.
        * intros f d. unfold fcdata. by rewrite Xc.
        * apply (eg_id _ _ _ _ Hg).
        * intros vs. rewrite (ev_grow _ _ _ _ Hb Hb' Hg). cbn. unfold ev at 1 2. destruct (decide (vs = (a, b))) as [->|Hn].
          { unfold edge_id. rewrite Hm. cbn. rewrite decide_True; [done|]. by apply elem_of_list_singleton. }
          destruct (e ← edge_id p vs; eval p e); [done|]. rewrite decide_False; [done|]. by rewrite elem_of_list_singleton.
        * intros n. unfold room. cbn [pop_size]. rewrite Nv, Xf, Xr, Xc. lia.
    - destruct Hrefs as [Ha Hb2]. destruct (if_absent_ok p a b val) as (p' & id & E1 & He); [done|done|by apply Hex|by apply Hex|].
      exists p', id. split; [done|]. pose proof He as (Hb' & Hg & Hid & Xf & Xr & Xc & Nv & Ne & Hvd & Hiv). destruct (ensured_ok _ _ _ _ _ Hok He) as [Hok' Hk].
      split; [done|]. split; try done.
      * by rewrite Xc.
      * intros f d. unfold fcdata. by rewrite Xc.
      * apply (eg_id _ _ _ _ Hg).
      * intros vs. rewrite (ev_grow _ _ _ _ Hb Hb' Hg). cbn. destruct (ev p vs); [done|]. destruct (decide (vs = (a, b))) as [->|Hn].
        { rewrite decide_True; [done|]. by apply elem_of_list_singleton. } rewrite decide_False; [done|]. by rewrite elem_of_list_singleton.
      * intros n. unfold room. cbn [pop_size]. rewrite Nv, Xf, Xr, Xc. lia.
    - destruct Hrefs as [Hne Hvs]. destruct (add_face_ok p rings val Hok Hroom Hne) as (p' & E1 & Hok' & Hof & Hk & Hvd & (pts & ends & P1 & P2 & P3) & Hg & Hrm & Nv & Nf).
      { intros vs Hin. destruct (Hvs vs Hin) as [H1 H2]. split; [done|]. intros v Hv. by apply Hex, H2. }
      exists p', (im_npi (p_faces p)). split; [done|]. split; [done|]. split; try done.
      * intros f d Hd. rewrite P3. rewrite decide_False; [done|]. intros ->. unfold fcdata in Hd. by rewrite (dense_fresh_fmap _ _ (pk_faces _ Hok)) in Hd.
      * apply (eg_id _ _ _ _ Hg).
      * intros vs. rewrite (ev_grow _ _ _ _ Hb (ok_base _ Hok') Hg). cbn. by destruct (ev p vs).
      * split; [done|]. split; [done|]. exists pts, ends. split; [done|]. split; [done|]. rewrite P3. by rewrite decide_True.
  Qed.
End proofs.

