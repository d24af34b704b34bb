(** The extension loop of the cavity search. *)
From Coq Require Import NArith ZArith Lia.
From stdpp Require Import base numbers list gmap option relations.
From Verif Require Import IdMapModel IdMapProofs WalkerModel WalkerSpec WalkerProofs WalkerMore MeshModel MeshSpec MeshOps MeshViews MeshLink Reach CavModel CavSpec CavPaint CavBase CavExpand.
Local Open Scope nat_scope.

Section loop.
  Context {V T : Type} (m : mesh V T) (Hok : mesh_ok m) (ins : arr4 N → Z).
  Implicit Types (w : walker) (I L : gset (N * nat)) (K : gset N) (f : N * nat).

  (** Tets that can still be added. *)
  Definition rest (E : list N) : nat := length (filter (λ id, id ∉ E) (im_keys (m_tets m))).
  Lemma rest_add E id : is_Some (tet_get m id) → id ∉ E → rest (E ++ [id]) < rest E.
  Proof.
    intros H Hn. unfold rest. assert (id ∈ im_keys (m_tets m)) as Hin by (apply elem_of_im_keys; [apply Hok|done]).
    induction (im_keys (m_tets m)) as [|k l IH]; [by apply elem_of_nil in Hin|].
    assert (∀ l : list N, length (filter (λ id', id' ∉ E ++ [id]) l) ≤ length (filter (λ id', id' ∉ E) l)) as Hle.
    { clear. induction l as [|k l IH]; [done|]. rewrite !filter_cons. repeat case_decide; cbn; try lia. exfalso. set_solver. }
    rewrite !filter_cons. apply elem_of_cons in Hin as [<-|Hin].
    - rewrite decide_False by set_solver. rewrite decide_True by done. cbn. specialize (Hle l). lia.
    - specialize (IH Hin). repeat case_decide; cbn; try lia. exfalso. set_solver.
  Qed.
  Lemma rest_le E : rest E ≤ length (im_keys (m_tets m)).
  Proof. apply filter_length. Qed.

  Record einv (convex : bool) I L (Q B : list walker) (E : list N) : Prop := EInv {
    ei_region : region m E;
    ei_valid : Forall (valid m) (Q ++ B);
    ei_nodup : NoDup (side <$> Q ++ B);
    ei_in f : f ∈ side <$> Q ++ B → f.1 ∈ E;
    ei_queue f : f ∈ I → f ∈ side <$> Q;
    ei_bound f : lf m f → f.1 ∈ E → (tw m f).1 ∉ E ↔ f ∈ I ∨ f ∈ side <$> B;
    ei_convex : convex = true → L = ∅ ∧ ∀ w, w ∈ B → ¬ in_conflict ins m (tw m (side w)).1;
    ei_limit : convex = false → ∀ f, f ∈ L ↔ f ∈ side <$> B }.

  (** What is known when the tet of [adj] is added to [E]. *)
  Record grows (convex : bool) (E : list N) (adj : walker) : Prop := Grows {
    gr_valid : valid m adj;
    gr_new : w_tet adj ∉ E;
    gr_from : (tw m (side adj)).1 ∈ E;
    gr_conflict : in_conflict ins m (w_tet adj);
    gr_safe : convex = false → safe m E adj }.

  Lemma expand_ok convex (P : list N → Prop) (Hc : convex = true → steady ins m) :
    (∀ E adj, grows convex E adj → P E → P (E ++ [w_tet adj])) →
    ∀ fuel I L Q B E, einv convex I L Q B E → length Q + 3 * rest E < fuel → P E →
    ∃ L' B' E', expand ins fuel convex (paint m I L ∅) Q B E = Some (paint m ∅ L' ∅, B', E') ∧ P E' ∧ einv convex ∅ L' [] B' E'.
  Proof.
    intros HP. induction fuel as [|fuel IH]; intros I L Q B E Hi Hf HE; [lia|].
    pose proof Hi as [[Hnd Hlive] Hv Hn Hin Hq Hb Hcv Hl]. cbn [expand].
    destruct Q as [|tri Q].
    { assert (I = ∅) as -> by (apply set_eq; intros f; split; [intros H%Hq; by apply elem_of_nil in H|by intros ?%elem_of_empty]).
      exists L, B, E. done. }
    apply list.Forall_cons in Hv as [Htri Hv]. rewrite imm_flag_paint by apply Htri. cbn [mbind option_bind].
    cbn [app] in Hn. rewrite fmap_cons in Hn. apply NoDup_cons in Hn as [Hnt Hn].
    destruct (decide (side tri ∈ I)) as [Ht|Ht].
    2: { rewrite bool_decide_eq_false_2 by done. cbn [negb]. apply IH; [|cbn in Hf; lia|done]. split; try done.
      - intros f Hf'. apply Hin. cbn. by right.
      - intros f Hf'. specialize (Hq f Hf'). cbn in Hq. apply elem_of_cons in Hq as [->|?]; done. }
    rewrite bool_decide_eq_true_2 by done. cbn [negb]. rewrite put_imm_paint by apply Htri. cbn [mbind option_bind]. rewrite paint_adj_ae.
    destruct (adj_side m tri Hok Htri) as (adj & Ha & Hva & Hsa & Hne & _). rewrite Ha. cbn [mbind option_bind].
    assert ((side tri).1 ∈ E) as HtE. { apply Hin. cbn. by left. }
    assert (w_tet adj ∉ E) as HaE. { change (w_tet adj) with (side adj).1. rewrite Hsa. apply Hb; [by apply side_lf|done|by left]. }
    assert (tw m (side adj) = side tri) as Hta by (rewrite Hsa; apply tw_tw; [done|by apply side_lf]).
    destruct (other_sides m adj Hva) as (Hov & Hot & Hon & Hoa). rewrite fmap_cons in Hon. apply NoDup_cons in Hon as [Hon1 Hon2].
    rewrite list.Forall_forall in Hov. rewrite list.Forall_forall in Hot.
    set (I1 := upd false I (side tri)).
    assert (∀ w, w ∈ other_tris adj → tw m (side w) ≠ side tri) as Hnot.
    { intros w Hw Ew. rewrite <- Hta in Ew. apply tw_inj in Ew; [|done|apply side_lf; by apply Hov|by apply side_lf].
      apply Hon1. rewrite <- Ew. apply elem_of_list_fmap. eauto. }
    (* crossing back into the enclosure: flagged or finished *)
    assert (∀ w, w ∈ other_tris adj → (tw m (side w)).1 ∈ E ↔ tw m (side w) ∈ I1 ∨ tw m (side w) ∈ side <$> B) as Hback.
    { intros w Hw. pose proof (side_lf m w (Hov w Hw)) as Hlw. destruct (tw_lf m (side w) Hok Hlw) as [Hl1 _]. unfold I1. rewrite elem_upd, decide_False by by apply Hnot. split.
      - intros H. apply Hb; [done|done|]. rewrite tw_tw by done. cbn -[Nat.modulo]. by rewrite Hot.
      - intros [H|H]; [apply Hq in H; apply Hin; rewrite fmap_app; apply elem_of_app; by left|apply Hin; rewrite fmap_app; apply elem_of_app; by right]. }
    assert (∃ b, (if convex then Some true else removal_safe (paint m I1 L ∅) adj) = Some b ∧
      (b = true → (convex = false → safe m E adj) ∧ (convex = false → ∀ w, w ∈ other_tris adj → tw m (side w) ∉ L))) as (b & Eb & Hsafe).
    { destruct convex; [by exists true|]. destruct (removal_safe_ok m Hok I1 L ∅ adj E Hva) as (b & Eb & Hbb).
      - intros w Hw Hnl. rewrite (Hback w Hw). split; [by left|]. intros [?|H]; [done|]. by apply Hl in H.
      - exists b. split; [done|]. intros H. destruct (Hbb H). done. }
    rewrite Eb. cbn [mbind option_bind]. rewrite paint_sphere. destruct (sphere_total m Hok ins adj Hva) as (s & Es & Hs1 & Hs2). rewrite Es. cbn [mbind option_bind].
    destruct (b && s) eqn:Ebs.
    - (* the tet is added *)
      apply andb_true_iff in Ebs as [-> ->]. destruct (Hsafe eq_refl) as [Hsf Hnl].
      assert (∀ w, w ∈ other_tris adj → (tw m (side w)).1 ∈ E ↔ tw m (side w) ∈ I1) as Hback1.
      { intros w Hw. rewrite (Hback w Hw). split; [|by left]. intros [?|H]; [done|]. exfalso. destruct convex.
        - apply elem_of_list_fmap in H as (w' & Ew' & Hw'). apply (proj2 (Hcv eq_refl) w' Hw'). rewrite <- Ew'. rewrite tw_tw; [|done|apply side_lf; by apply Hov].
          cbn. rewrite Hot by done. by apply Hs1.
        - apply (Hnl eq_refl w Hw). by apply Hl. }
      destruct (extend_fold m Hok L ∅ (other_tris adj) I1 Q) as (I2 & HI2 & HI2'); [by apply list.Forall_forall|done| |].
      { intros w w' Hw Hw' Ew. destruct (tw_lf m (side w) Hok) as [_ H]; [apply side_lf; by apply Hov|]. apply H. rewrite Ew. cbn. by rewrite (Hot w Hw), (Hot w' Hw'). }
      rewrite HI2. cbn [mbind option_bind].
      set (new := filter (λ w, tw m (side w) ∉ I1) (other_tris adj)) in *.
      assert (∀ w, w ∈ new ↔ w ∈ other_tris adj ∧ (tw m (side w)).1 ∉ E) as Hnew.
      { intros w. unfold new. rewrite elem_of_list_filter. split; intros [? ?]; [rewrite Hback1 by done|rewrite <- Hback1 by done]; done. }
      assert (grows convex E adj) as Hg.
      { split; [done|done|by rewrite Hta| |done]. by apply Hs1. }
      assert (∀ f, lf m f → f.1 = w_tet adj → f ≠ side adj → ∃ w, w ∈ other_tris adj ∧ f = side w) as Hof.
      { intros f Hf1 Hf2 Hf3. specialize (Hoa f Hf1 Hf2). rewrite fmap_cons in Hoa. apply elem_of_cons in Hoa as [->|H]; [done|]. apply elem_of_list_fmap in H as (w & -> & Hw). eauto. }
      apply IH; [split| |by apply HP].
      + split.
        * apply NoDup_app. split; [done|]. split; [|apply NoDup_singleton]. intros x Hx ->%elem_of_list_singleton. done.
        * intros id [Hid| ->%elem_of_list_singleton]%elem_of_app; [by apply Hlive|apply Hva].
      + rewrite <- app_assoc. rewrite !Forall_app in *. destruct Hv as [Hv1 Hv2]. split; [done|]. split; [|done]. apply list.Forall_forall. intros w Hw. apply Hov. by apply Hnew.
      + rewrite <- app_assoc, !fmap_app. rewrite fmap_app in Hn. apply NoDup_app in Hn as (N1 & N2 & N3).
        assert (∀ f, f ∈ side <$> new → f ∉ side <$> Q ∧ f ∉ side <$> B) as Hfresh.
        { intros f (w & -> & Hw)%elem_of_list_fmap. apply Hnew in Hw as [Hw _].
          split; intros H; apply HaE; rewrite <- (Hot w Hw); change (w_tet w) with (side w).1; apply Hin; rewrite fmap_app; apply elem_of_app; [left; cbn; by right|by right]. }
        apply NoDup_app. split; [done|]. split.
        { intros f Hf1 [H|H]%elem_of_app; [apply Hfresh in H; tauto|by apply (N2 f)]. }
        apply NoDup_app. split; [|split; [|done]].
        { unfold new. clear -Hon2. induction (other_tris adj) as [|w l IHl]; [constructor|]. rewrite filter_cons. rewrite fmap_cons in Hon2. apply NoDup_cons in Hon2 as [H1 H2].
          case_decide; [|by apply IHl]. rewrite fmap_cons. apply NoDup_cons. split; [|by apply IHl]. intros (w' & E' & [_ Hw']%elem_of_list_filter)%elem_of_list_fmap.
          apply H1. rewrite E'. apply elem_of_list_fmap. eauto. }
        intros f Hf1 Hf2. by apply Hfresh in Hf1 as [_ ?].
      + intros f. rewrite <- app_assoc, !fmap_app. intros [H|[H|H]%elem_of_app]%elem_of_app.
        * apply elem_of_app. left. apply Hin. rewrite fmap_app. apply elem_of_app. left. cbn. by right.
        * apply elem_of_list_fmap in H as (w & -> & Hw). apply Hnew in Hw as [Hw _]. apply elem_of_app. right. cbn. rewrite Hot by done. by apply elem_of_list_singleton.
        * apply elem_of_app. left. apply Hin. rewrite fmap_app. apply elem_of_app. by right.
      + intros f. rewrite HI2'. rewrite fmap_app. intros [[H1 H2]|(w & Hw & -> & H)].
        * apply elem_of_app. left. unfold I1 in H1. rewrite elem_upd in H1. case_decide; [done|]. apply Hq in H1. cbn in H1. apply elem_of_cons in H1 as [?|?]; done.
        * apply elem_of_app. right. apply elem_of_list_fmap. exists w. split; [done|]. unfold new. by apply elem_of_list_filter.
      + intros f Hlf HfE. rewrite HI2'. destruct (decide (f.1 = w_tet adj)) as [Efa|Efa].
        * (* a triangle of the new tet *)
          destruct (decide (f = side adj)) as [->|Hfa].
          { split; [intros H; exfalso; apply H; rewrite Hta; apply elem_of_app; by left|]. intros [[[H1 H2]|(w & Hw & E1 & H)]|H].
            - exfalso. unfold I1 in H1. rewrite elem_upd in H1. case_decide; [done|]. apply Hq in H1. apply HaE. change (w_tet adj) with (side adj).1. apply Hin. rewrite fmap_app. apply elem_of_app. by left.
            - exfalso. apply Hon1. rewrite E1. apply elem_of_list_fmap. eauto.
            - exfalso. apply HaE. change (w_tet adj) with (side adj).1. apply Hin. rewrite fmap_app. apply elem_of_app. by right. }
          destruct (Hof f Hlf Efa Hfa) as (w & Hw & ->).
          assert ((tw m (side w)).1 ≠ w_tet adj) as Hna. { rewrite <- (Hot w Hw). by apply tw_lf. }
          rewrite elem_of_app, elem_of_list_singleton. split.
          -- intros H. left. right. exists w. split; [done|]. split; [done|]. rewrite <- Hback1 by done. tauto.
          -- intros [[[H1 H2]|(w' & Hw' & E1 & H)]|H].
             ++ exfalso. unfold I1 in H1. rewrite elem_upd in H1. case_decide; [done|]. apply Hq in H1. apply HaE. rewrite <- Efa. apply Hin. rewrite fmap_app. apply elem_of_app. by left.
             ++ rewrite E1 in Hna |- *. rewrite Hback1 by done. tauto.
             ++ exfalso. apply HaE. rewrite <- Efa. apply Hin. rewrite fmap_app. apply elem_of_app. by right.
        * assert (f.1 ∈ E) as HfE'. { apply elem_of_app in HfE as [?|H]; [done|]. by apply elem_of_list_singleton in H. }
          rewrite elem_of_app, elem_of_list_singleton.
          assert (∀ w, w ∈ other_tris adj → f ≠ side w) as Hfw. { intros w Hw ->. apply Efa. cbn. by apply Hot. }
          destruct (decide ((tw m f).1 = w_tet adj)) as [Eta|Eta].
          -- (* across from the new tet *)
             split; [tauto|]. intros [[[H1 H2]|(w & Hw & E1 & _)]|H]; [exfalso|by apply Hfw in E1|exfalso].
             ++ destruct (decide (tw m f = side adj)) as [E2|E2].
                ** unfold I1 in H1. rewrite elem_upd in H1. case_decide; [done|]. apply H. rewrite <- Hta. rewrite <- E2. symmetry. by apply tw_tw.
                ** destruct (Hof (tw m f)) as (w & Hw & E3); [by apply tw_lf|done|done|]. apply (H2 w Hw). rewrite <- E3. symmetry. by apply tw_tw.
             ++ destruct (decide (tw m f = side adj)) as [E2|E2].
                ** apply Hnt. assert (f = side tri) as <-. { rewrite <- Hta, <- E2. symmetry. by apply tw_tw. } rewrite fmap_app. apply elem_of_app. by right.
                ** destruct (Hof (tw m f)) as (w & Hw & E3); [by apply tw_lf|done|done|].
                   assert (f = tw m (side w)) as Efw. { rewrite <- E3. symmetry. by apply tw_tw. }
                   destruct convex.
                   --- apply elem_of_list_fmap in H as (w' & Ew' & Hw'). apply (proj2 (Hcv eq_refl) w' Hw'). rewrite <- Ew', Eta. by apply Hs1.
                   --- apply (Hnl eq_refl w Hw). rewrite <- Efw. by apply Hl.
          -- assert ((tw m f).1 ∉ E ↔ f ∈ I1 ∨ f ∈ side <$> B) as Hb'.
             { rewrite Hb by done. unfold I1. rewrite elem_upd. case_decide as Eft; [|done]. subst f. split; [|by intros [?|?]; [done|right]].
               intros _. exfalso. apply Eta. rewrite <- Hsa. done. }
             split.
             ++ intros H. destruct (proj1 Hb') as [H1|H1]; [tauto| |by right]. left. left. split; [done|]. intros w Hw ->. apply Eta. rewrite tw_tw; [|done|apply side_lf; by apply Hov]. cbn. by apply Hot.
             ++ intros [[[H1 H2]|(w & Hw & E1 & _)]|H]; [|by apply Hfw in E1|].
                ** intros [H|H]; [|done]. revert H. apply Hb'. by left.
                ** intros [H'|H']; [|done]. revert H'. apply Hb'. by right.
      + intros E1. split; apply Hcv; done.
      + done.
      + cbn in Hf. assert (length new ≤ 3) as Hlen. { unfold new. etrans; [apply filter_length|]. done. }
        pose proof (rest_add E (w_tet adj) (proj1 Hva) HaE). rewrite app_length. lia.
    - (* the triangle is final *)
      set (L' := if convex then L else upd true L (side tri)).
      assert ((if convex then Some (paint m I1 L ∅) else put_limit true (paint m I1 L ∅) tri) = Some (paint m I1 L' ∅)) as HL.
      { unfold L'. destruct convex; [done|]. by rewrite put_limit_paint by apply Htri. }
      rewrite HL. cbn [mbind option_bind]. apply IH; [split| |done].
      + done.
      + rewrite app_assoc, Forall_app. split; [done|]. by apply list.Forall_singleton.
      + rewrite app_assoc, fmap_app. apply NoDup_app. split; [done|]. split; [|apply NoDup_singleton]. intros f Hf1 ->%elem_of_list_singleton. done.
      + intros f. rewrite app_assoc, fmap_app. intros [H|H]%elem_of_app; [apply Hin; cbn; by right|]. by apply elem_of_list_singleton in H as ->.
      + intros f. unfold I1. rewrite elem_upd. case_decide; [done|]. intros H1. apply Hq in H1. cbn in H1. apply elem_of_cons in H1 as [?|?]; done.
      + intros f Hlf HfE. rewrite Hb by done. unfold I1. rewrite elem_upd, fmap_app, elem_of_app. cbn. rewrite elem_of_list_singleton. case_decide; [subst; tauto|tauto].
      + intros ->. unfold L'. split; [by apply Hcv|]. intros w [Hw| ->%elem_of_list_singleton]%elem_of_app; [by apply Hcv|]. rewrite <- Hsa. intros Hcc.
        assert (b = true) as -> by congruence. rewrite Hs2 in Ebs; [done|by apply Hc|done].
      + intros ->. intros f. unfold L'. rewrite elem_upd, fmap_app, elem_of_app, <- (Hl eq_refl f). cbn. rewrite elem_of_list_singleton. case_decide; tauto.
      + cbn in Hf. lia.
  Qed.
End loop.
