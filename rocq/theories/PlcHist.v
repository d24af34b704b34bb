(** What a construction history leaves behind. *)
From Coq Require Import NArith Lia Sorted.
From stdpp Require Import base numbers list gmap option sorting fin_maps fin_sets.
From Verif Require Import IdMapModel IdMapProofs WalkerModel MeshModel UtilModel UtilSpec UtilProofs PlcModel PlcSpec PlcList PlcNet PlcFace PlcAdd PlcIter PlcProofs.
Local Open Scope N_scope.

Lemma range_size (n : N) : size (list_to_set (N.of_nat <$> seq 0 (N.to_nat n)) : gset N) = N.to_nat n.
Proof.
  rewrite size_list_to_set; [by rewrite fmap_length, seq_length|]. apply NoDup_fmap_2; [intros x y ?; lia|]. apply NoDup_seq.
Qed.
Lemma elem_range (k n : N) : k ∈ (list_to_set (N.of_nat <$> seq 0 (N.to_nat n)) : gset N) ↔ k < n.
Proof.
  rewrite elem_of_list_to_set, elem_of_list_fmap. split.
  - intros (x & -> & Hx). apply elem_of_seq in Hx. lia.
  - intros Hk. exists (N.to_nat k). split; [lia|]. apply elem_of_seq. lia.
Qed.
Lemma dense_len {A} (m : idmap A) : dense m → im_len m = Some (im_npi m).
Proof.
  intros (H1 & H2 & _). unfold im_len. rewrite H1. cbn [length]. change (N.of_nat 0) with 0. rewrite N.sub_0_r.
  assert (dom (im_slots m) = (list_to_set (N.of_nat <$> seq 0 (N.to_nat (im_npi m))) : gset N)) as Hd.
  { apply leibniz_equiv, set_equiv. intros k. rewrite elem_of_dom, elem_range. apply H2. }
  rewrite <- size_dom, Hd, range_size. rewrite N2Nat.id, N.eqb_refl. by rewrite (proj2 (N.leb_le 0 _)) by lia.
Qed.

Section hist.
  Context {V E F Pl : Type}.
  Context (plane0 : Pl) (default_edge : E) (plane_of : list pt → list (pt * pt) → Pl).
  Implicit Types (p : plc V E F Pl) (os : list (pop V E F)).
  Notation run_pop := (run_pop plane0 default_edge plane_of).
  Notation run_pops := (run_pops plane0 default_edge plane_of).

  Record content os p : Prop := Content {
    ct_ok : plc_ok p;
    ct_nv : im_npi (p_verts p) = N.of_nat (length (added_verts os));
    ct_nf : im_npi (p_faces p) = N.of_nat (length (added_faces os));
    ct_verts v : vdata p v = added_verts os !! N.to_nat v;
    ct_faces i rings val : added_faces os !! i = Some (rings, val) → face_of p (N.of_nat i) rings ∧
      ∃ pts ends, mapM (pos_in os) (concat rings) = Some pts ∧ mapM (ends_in os) (concat (map ring_pairs rings)) = Some ends ∧
        fcdata p (N.of_nat i) = Some (plane_of pts ends, val);
    ct_edges vs : ev p vs = value_after default_edge os vs }.

  Lemma plc_new_ok : plc_ok (plc_new : plc V E F Pl).
  Proof.
    assert (∀ A, dense (im_empty : idmap A)) as Hd.
    { intros A. split; [done|]. split; [|cbn; unfold invalid_id; lia]. intros k. unfold im_get, im_empty. cbn. rewrite lookup_empty. split; [by intros []|lia]. }
    split; try apply Hd; try done.
    intros f [x Hx]. done.
  Qed.
  Lemma content_new : content [] plc_new.
  Proof. split; try done. apply plc_new_ok. Qed.

  Lemma mapM_mono {A B} (f g : A → option B) l r : (∀ x y, f x = Some y → g x = Some y) → mapM f l = Some r → mapM g l = Some r.
  Proof. intros H Hm. apply mapM_Some in Hm. apply mapM_Some. eapply Forall2_impl; [exact Hm|]. auto. Qed.
  Lemma pos_in_app os os' v x : pos_in os v = Some x → pos_in (os ++ os') v = Some x.
  Proof.
    unfold pos_in, added_verts. rewrite omap_app. intros H. apply fmap_Some in H as (y & Hy & ->). by rewrite (lookup_app_l_Some _ _ _ _ Hy).
  Qed.
  Lemma ends_in_app os os' vs x : ends_in os vs = Some x → ends_in (os ++ os') vs = Some x.
  Proof.
    unfold ends_in. intros H. apply bind_Some in H as (a & Ha & H). apply bind_Some in H as (b & Hb & H).
    by rewrite (pos_in_app _ _ _ _ Ha), (pos_in_app _ _ _ _ Hb).
  Qed.

  Lemma content_step os p o : content os p → op_refs (im_npi (p_verts p)) o → room p (pop_size o) →
    ∃ p' id, run_pop p o = Some (p', id) ∧ content (os ++ [o]) p' ∧ op_effect default_edge plane_of o p p' id.
  Proof.
    intros Hc Hr Hroom. destruct (run_pop_ok plane0 default_edge plane_of p o (ct_ok _ _ Hc) Hr Hroom) as (p' & id & E1 & Hok & He).
    exists p', id. split; [done|]. split; [|done].
    assert (added_verts (os ++ [o]) = added_verts os ++ match o with PAddVertex pos x => [(pos, x)] | _ => [] end) as Hav.
    { unfold added_verts. rewrite omap_app. f_equal. by destruct o. }
    assert (added_faces (os ++ [o]) = added_faces os ++ match o with PAddFace rings val => [(rings, val)] | _ => [] end) as Haf.
    { unfold added_faces. rewrite omap_app. f_equal. by destruct o. }
    assert (∀ v, vpos p v = pos_in os v) as Hvp.
    { intros v. pose proof (ct_verts _ _ Hc v) as H. unfold vdata in H. unfold vpos, pos_in. rewrite <- H. by destruct (im_get (p_verts p) v). }
    split.
    - done.
    - rewrite (oe_nv _ _ _ _ _ _ He), Hav, app_length, (ct_nv _ _ Hc). destruct o; cbn; lia.
    - rewrite (oe_nf _ _ _ _ _ _ He), Haf, app_length, (ct_nf _ _ Hc). destruct o; cbn; lia.
    - intros v. rewrite (oe_vdata _ _ _ _ _ _ He), Hav, (ct_verts _ _ Hc). destruct o as [pos x| | |]; rewrite ?app_nil_r; try done.
      destruct (decide (v = im_npi (p_verts p))) as [->|Hn].
      + rewrite (ct_nv _ _ Hc), Nat2N.id. by rewrite list_lookup_middle.
      + rewrite (ct_nv _ _ Hc) in Hn. destruct (decide (N.to_nat v < length (added_verts os))%nat).
        * by rewrite lookup_app_l.
        * rewrite !lookup_ge_None_2; [done| |lia]. rewrite app_length. cbn. lia.
    - intros i rings val Hi. rewrite Haf in Hi. apply lookup_app_Some in Hi as [Hi|[Hlen Hi]].
      + destruct (ct_faces _ _ Hc i rings val Hi) as (H1 & pts & ends & H2 & H3 & H4). split; [by apply (oe_face _ _ _ _ _ _ He)|].
        exists pts, ends. split; [|split; [|by apply (oe_fcdata _ _ _ _ _ _ He)]].
        * eapply mapM_mono; [|exact H2]. apply pos_in_app.
        * eapply mapM_mono; [|exact H3]. apply ends_in_app.
      + destruct o as [| | |rings' val']; try done. apply list_lookup_singleton_Some in Hi as [Hi0 [= -> ->]].
        destruct (oe_id _ _ _ _ _ _ He) as (-> & H1 & pts & ends & H2 & H3 & H4). rewrite (ct_nf _ _ Hc) in H1, H4.
        assert (i = length (added_faces os)) as -> by lia. split; [done|]. exists pts, ends. split; [|split; [|done]].
        * eapply mapM_mono; [|exact H2]. intros x y. rewrite Hvp. apply pos_in_app.
        * eapply mapM_mono; [|exact H3]. intros x y. unfold epos. rewrite !Hvp. apply (ends_in_app os).
    - intros vs. rewrite (oe_value _ _ _ _ _ _ He), (ct_edges _ _ Hc). unfold value_after. by rewrite foldl_app.
  Qed.

  Lemma content_run os' : ∀ os p, content os p → refs_exist (im_npi (p_verts p)) os' → room p (pops_size os') →
    ∃ p', run_pops p os' = Some p' ∧ content (os ++ os') p' ∧ ∀ vs e, edge_id p vs = Some e → edge_id p' vs = Some e.
  Proof.
    induction os' as [|o os' IH]; intros os p Hc Hr Hroom.
    - exists p. rewrite app_nil_r. done.
    - assert (op_refs (im_npi (p_verts p)) o) as Hor by (destruct o; cbn in *; tauto).
      cbn [pops_size foldr] in Hroom. fold (pops_size os') in Hroom.
      destruct (content_step os p o Hc Hor) as (p1 & id & E1 & Hc1 & He); [eapply room_le; [|exact Hroom]; lia|].
      destruct (IH (os ++ [o]) p1 Hc1) as (p2 & E2 & Hc2 & Hk2).
      { rewrite (oe_nv _ _ _ _ _ _ He). destruct o; cbn in Hr; tauto. }
      { by apply (oe_room _ _ _ _ _ _ He). }
      exists p2. cbn [PlcModel.run_pops]. rewrite E1. cbn [mbind option_bind]. rewrite <- app_assoc in Hc2. split; [done|]. split; [done|].
      intros vs e Hvs. by apply Hk2, (oe_edge _ _ _ _ _ _ He).
  Qed.

  Lemma run_content os : refs_exist 0 os → pops_size os ≤ invalid_id → ∃ p, run_pops plc_new os = Some p ∧ content os p.
  Proof.
    intros Hr Hs. destruct (content_run os [] plc_new content_new Hr) as (p & E1 & Hc & _); [unfold room; cbn; lia|]. eauto.
  Qed.
  (** Splitting a history. *)
  Lemma run_app os1 os2 p : run_pops p (os1 ++ os2) = run_pops p os1 ≫= (λ q, run_pops q os2).
  Proof. revert p. induction os1 as [|o os1 IH]; intros p; [done|]. cbn. destruct (run_pop p o) as [[q id]|]; [|done]. cbn. apply IH. Qed.
  Lemma refs_app os1 os2 n : refs_exist n (os1 ++ os2) ↔ refs_exist n os1 ∧ refs_exist (n + N.of_nat (length (added_verts os1))) os2.
  Proof.
    revert n. induction os1 as [|o os1 IH]; intros n; cbn; [rewrite N.add_0_r; tauto|].
    destruct o; cbn; rewrite IH; try tauto. replace (n + 1 + N.of_nat (length (added_verts os1))) with (n + N.pos (Pos.of_succ_nat (length (added_verts os1)))) by lia. done.
  Qed.
  Lemma size_app os1 os2 : pops_size (os1 ++ os2) = pops_size os1 + pops_size os2.
  Proof. unfold pops_size. induction os1 as [|o os1 IH]; [done|]. cbn. rewrite IH. lia. Qed.
  (** [run] with leftover room. *)
  Lemma content_run_room os' : ∀ os p n, content os p → refs_exist (im_npi (p_verts p)) os' → room p (pops_size os' + n) →
    ∃ p', run_pops p os' = Some p' ∧ content (os ++ os') p' ∧ (∀ vs e, edge_id p vs = Some e → edge_id p' vs = Some e) ∧ room p' n.
  Proof.
    induction os' as [|o os' IH]; intros os p n Hc Hr Hroom.
    - exists p. rewrite app_nil_r. done.
    - assert (op_refs (im_npi (p_verts p)) o) as Hor by (destruct o; cbn in *; tauto).
      cbn [pops_size foldr] in Hroom. fold (pops_size os') in Hroom.
      destruct (content_step os p o Hc Hor) as (p1 & id & E1 & Hc1 & He); [eapply room_le; [|exact Hroom]; lia|].
      destruct (IH (os ++ [o]) p1 n Hc1) as (p2 & E2 & Hc2 & Hk2 & Hrm).
      { rewrite (oe_nv _ _ _ _ _ _ He). destruct o; cbn in Hr; tauto. }
      { apply (oe_room _ _ _ _ _ _ He). by rewrite N.add_assoc. }
      exists p2. cbn [PlcModel.run_pops]. rewrite E1. cbn [mbind option_bind]. rewrite <- app_assoc in Hc2. split; [done|]. split; [done|].
      split; [|done]. intros vs e Hvs. by apply Hk2, (oe_edge _ _ _ _ _ _ He).
  Qed.
  Lemma run_content_split os1 os2 : refs_exist 0 (os1 ++ os2) → pops_size (os1 ++ os2) ≤ invalid_id →
    ∃ p1 p2, run_pops plc_new os1 = Some p1 ∧ run_pops p1 os2 = Some p2 ∧ content os1 p1 ∧ content (os1 ++ os2) p2 ∧
      (∀ vs e, edge_id p1 vs = Some e → edge_id p2 vs = Some e) ∧ refs_exist (im_npi (p_verts p1)) os2 ∧ room p1 (pops_size os2).
  Proof.
    intros Hr Hs. rewrite size_app in Hs. apply refs_app in Hr as [Hr1 Hr2].
    destruct (content_run_room os1 [] plc_new (pops_size os2) content_new Hr1) as (p1 & E1 & Hc1 & _ & Hrm1); [unfold room; cbn; lia|].
    assert (refs_exist (im_npi (p_verts p1)) os2) as Hr2' by (by rewrite (ct_nv _ _ Hc1)).
    destruct (content_run os2 os1 p1 Hc1 Hr2' Hrm1) as (p2 & E2 & Hc2 & Hk). exists p1, p2. done.
  Qed.

  (** ** The number of edges. *)
  Lemma edge_count p : pbase p → im_npi (p_edges p) = N.of_nat (size (dom (p_emap p))).
  Proof.
    intros Hb. pose proof (pb_edges _ Hb) as (_ & Hd & _). rewrite size_dom. change (size (p_emap p)) with (length (map_to_list (p_emap p))).
    set (l := (map_to_list (p_emap p)).*2).
    assert (NoDup l) as Hnd.
    { unfold l. apply NoDup_fmap_2_strong; [|apply NoDup_map_to_list]. intros [vs e] [ws e'] H1 H2 Heq. cbn in Heq. subst e'.
      apply elem_of_map_to_list in H1, H2. apply (pb_map _ Hb) in H1, H2. congruence. }
    rewrite <- (fmap_length snd (map_to_list (p_emap p))). fold l. rewrite <- (size_list_to_set (C := gset N) l) by done.
    assert ((list_to_set l : gset N) = list_to_set (N.of_nat <$> seq 0 (N.to_nat (im_npi (p_edges p))))) as ->; [|rewrite range_size; lia].
    apply leibniz_equiv, set_equiv. intros e. rewrite elem_range, <- Hd, elem_of_list_to_set. unfold l. rewrite elem_of_list_fmap. split.
    - intros ([vs e'] & -> & H). apply elem_of_map_to_list in H. apply (pb_map _ Hb) in H. by eapply fmap_Some_is.
    - intros [x Hx]. exists (pe_vs x, e). split; [done|]. apply elem_of_map_to_list. apply (pb_map _ Hb). unfold evs. by rewrite Hx.
  Qed.
  Lemma value_after_some os vs : is_Some (value_after default_edge os vs) ↔ vs ∈ concat (map pop_pairs os).
  Proof.
    unfold value_after. induction os as [|o os IH] using rev_ind.
    - cbn. split; [by intros []|]. intros H. by apply elem_of_nil in H.
    - rewrite foldl_app, map_app, concat_app, elem_of_app, <- IH. cbn. rewrite app_nil_r.
      destruct o as [pos x|ws x|ws x|rings x]; cbn [op_value pop_pairs].
      + rewrite elem_of_nil. tauto.
      + rewrite elem_of_list_singleton. destruct (decide (vs = ws)); [|tauto]. split; eauto.
      + rewrite elem_of_list_singleton. destruct (foldl _ None os); [split; eauto|]. destruct (decide (vs = ws)); [split; eauto|]. split; [by intros []|intros [[]|]; done].
      + destruct (foldl _ None os); [split; eauto|]. destruct (decide _); [split; eauto|]. split; [by intros []|intros [[]|]; done].
  Qed.
  Lemma ev_some p vs : pbase p → is_Some (ev p vs) ↔ is_Some (edge_id p vs).
  Proof.
    intros Hb. unfold ev. split.
    - intros [x Hx]. destruct (edge_id p vs); [eauto|done].
    - intros [e He]. rewrite He. cbn. apply (pb_map _ Hb) in He. destruct (get_fmap _ _ _ _ He) as (ed & Hed & _). unfold eval. rewrite Hed. eauto.
  Qed.
  Lemma content_counts os p : content os p →
    p_num_vertices p = Some (N.of_nat (length (added_verts os))) ∧ p_num_faces p = Some (N.of_nat (length (added_faces os))) ∧
    p_num_edges p = Some (N.of_nat (size (list_to_set (concat (map pop_pairs os)) : gset (N * N)))).
  Proof.
    intros Hc. pose proof (ok_base _ (ct_ok _ _ Hc)) as Hb. unfold p_num_vertices, p_num_faces, p_num_edges.
    rewrite !dense_len by apply Hb. rewrite (ct_nv _ _ Hc), (ct_nf _ _ Hc). split; [done|]. split; [done|]. rewrite edge_count by done.
    assert (dom (p_emap p) = (list_to_set (concat (map pop_pairs os)) : gset (N * N))) as ->; [|done].
    apply leibniz_equiv, set_equiv. intros vs. rewrite elem_of_dom, elem_of_list_to_set, <- value_after_some, <- (ct_edges _ _ Hc).
    rewrite ev_some by done. done.
  Qed.

  (** ** Obj files. *)
  Lemma foldM_concat {St A} (f : St → A → option St) s ls : foldM (foldM f) s ls = foldM f s (concat ls).
  Proof.
    revert s. induction ls as [|l ls IH]; intros s; [done|]. cbn [foldM concat].
    assert (∀ l k s, foldM f s (l ++ k) = foldM f s l ≫= (λ s, foldM f s k)) as Ha.
    { clear. induction l as [|a l IH]; intros k s; [done|]. cbn. destruct (f s a); [|done]. cbn. apply IH. }
    rewrite Ha. destruct (foldM f s l); [|done]. cbn. apply IH.
  Qed.
  Lemma foldM_ext {St A} (f g : St → A → option St) s l : (∀ s a, a ∈ l → f s a = g s a) → foldM f s l = foldM g s l.
  Proof.
    revert s. induction l as [|a l IH]; intros s H; [done|]. cbn. rewrite H by (by left). destruct (g s a); [|done]. cbn. apply IH. intros. apply H. by right.
  Qed.
  Lemma from_obj_run (dv : V) (de : E) (df : F) positions objects : (∀ poly v, poly ∈ concat (concat objects) → v ∈ poly → v < u32_mod) →
    from_obj plane0 default_edge plane_of dv de df positions objects = run_pops plc_new (obj_ops dv de df positions (concat (concat objects))).
  Proof.
    intros Hsmall. unfold from_obj, obj_ops. rewrite run_app.
    assert (∀ p, run_pops p ((λ pos, PAddVertex pos dv) <$> positions) = Some (fold_left (λ p pos, (p_add_vertex p pos dv).1) positions p)) as ->.
    { clear. induction positions as [|pos l IH]; intros p; [done|]. cbn. rewrite <- IH. by destruct (p_add_vertex p pos dv). }
    cbn [mbind option_bind]. rewrite !foldM_concat. generalize (fold_left (λ p pos, (p_add_vertex p pos dv).1) positions (plc_new : plc V E F Pl)).
    revert Hsmall. generalize (concat (concat objects)). clear. induction l as [|poly l IH]; intros Hs p; [done|]. cbn [foldM fmap list_fmap PlcModel.run_pops].
    assert ((λ v, v mod u32_mod) <$> poly = poly) as Hm.
    { transitivity ((λ v, v) <$> poly); [|apply list_fmap_id]. apply list_fmap_ext. intros i v Hv. apply N.mod_small. eapply Hs; [by left|]. by eapply elem_of_list_lookup_2. }
    unfold obj_poly. rewrite Hm.
    assert (∀ q, foldM (obj_poly plane0 default_edge plane_of df de) q l = run_pops q ((λ poly, match poly with [a; b] => PAddEdge (a, b) de | _ => PAddFace [poly] df end : pop V E F) <$> l)) as IH'.
    { intros q. apply IH. intros poly' v Hp. apply Hs. by right. }
    destruct poly as [|a [|b [|c poly]]]; cbn [length Nat.eqb lookup list_lookup mbind option_bind PlcModel.run_pop].
    - destruct (p_add_face _ _ _ p [[]] df) as [[q id]|]; [|done]. cbn. apply IH'.
    - destruct (p_add_face _ _ _ p [[a]] df) as [[q id]|]; [|done]. cbn. apply IH'.
    - destruct (p_add_edge p (a, b) de) as [[q id]|]; [|done]. cbn. apply IH'.
    - destruct (p_add_face _ _ _ p [a :: b :: c :: poly] df) as [[q id]|]; [|done]. cbn. apply IH'.
  Qed.
End hist.
