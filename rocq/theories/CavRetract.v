(** The retraction phase of the cavity search. *)
From Coq Require Import NArith ZArith Lia.
From stdpp Require Import base numbers list gmap option relations.
From Verif Require Import IdMapModel IdMapProofs WalkerModel WalkerSpec WalkerProofs WalkerMore MeshModel MeshSpec MeshOps MeshViews MeshLink Reach CavModel CavSpec CavPaint CavBase CavExpand CavLoop.
Local Open Scope nat_scope.

Section retract.
  Context {V T : Type} (m : mesh V T) (Hok : mesh_ok m) (ori : N * N * N → Z) (Hturn : turning ori).
  Implicit Types (w : walker) (I L : gset (N * nat)) (K R : gset N) (f : N * nat).

  Lemma retract_eq (m0 : mesh V T) Q w : retract_over (m0, Q) w =
    (b ← imm_flag m0 w;
     if (b : bool) then m1 ← put_imm false m0 w; Some (m1, Q)
     else twin ← to_adj_ae m0 w; m1 ← put_imm true m0 twin; Some (m1, Q ++ [twin])).
  Proof. done. Qed.
  Lemma retract_fold L K ws : ∀ I Q, Forall (valid m) ws → NoDup (side <$> ws) →
    (∀ w w', w ∈ ws → w' ∈ ws → tw m (side w) ≠ side w') →
    ∃ I' P, mfoldl retract_over ws (paint m I L K, Q) = Some (paint m I' L K, Q ++ P) ∧ Forall (valid m) P ∧
      side <$> P = (λ w, tw m (side w)) <$> filter (λ w, side w ∉ I) ws ∧
      ∀ f, f ∈ I' ↔ (f ∈ I ∧ ∀ w, w ∈ ws → f ≠ side w) ∨ ∃ w, w ∈ ws ∧ f = tw m (side w) ∧ side w ∉ I.
  Proof.
    induction ws as [|w ws IH]; intros I Q HF Hn Hd.
    { exists I, []. split; [by rewrite app_nil_r|]. split; [done|]. split; [done|]. intros f. split; [|intros [[? _]|(w & Hw%elem_of_nil & _)]; done].
      intros H. left. split; [done|]. by intros w Hw%elem_of_nil. }
    apply list.Forall_cons in HF as [Hw HF]. rewrite fmap_cons in Hn. apply NoDup_cons in Hn as [Hnw Hn].
    destruct (adj_side m w Hok Hw) as (x & Hx & Hvx & Hsx & _). cbn [mfoldl]. rewrite retract_eq.
    rewrite imm_flag_paint by apply Hw. cbn [mbind option_bind].
    assert (∀ w', w' ∈ ws → side w' ≠ side w) as Hinj.
    { intros w' Hw' E. apply Hnw. rewrite <- E. apply elem_of_list_fmap. eauto. }
    assert (∀ I1, (∀ w', w' ∈ ws → side w' ∈ I1 ↔ side w' ∈ I) →
      filter (λ w, side w ∉ I1) ws = filter (λ w, side w ∉ I) ws) as Hfil.
    { intros I1 H. clear -H. induction ws as [|w' ws IH]; [done|]. rewrite !filter_cons. rewrite IH by (intros; apply H; by right).
      specialize (H w' ltac:(by left)). repeat case_decide; try done; exfalso; tauto. }
    destruct (decide (side w ∈ I)) as [Hin|Hin].
    - rewrite bool_decide_eq_true_2 by done. rewrite put_imm_paint by apply Hw. cbn [mbind option_bind].
      destruct (IH (upd false I (side w)) Q HF Hn) as (I' & P & HI & HvP & HsP & HI'); [intros; apply Hd; by right|].
      assert (∀ w', w' ∈ ws → side w' ∈ upd false I (side w) ↔ side w' ∈ I) as HH.
      { intros w' Hw'. rewrite elem_upd, decide_False; [done|by apply Hinj]. }
      exists I', P. split; [done|]. split; [done|]. rewrite HsP, (Hfil _ HH). split.
      { rewrite filter_cons_False; [done|tauto]. }
      intros f. rewrite HI', elem_upd. split.
      + intros [[H1 H2]|(w' & Hw' & -> & H2)].
        * left. destruct (decide (f = side w)) as [->|Hne]; [done|]. split; [done|]. intros w' [->|Hw']%elem_of_cons; [done|by apply H2].
        * right. exists w'. split; [by right|]. split; [done|]. by rewrite <- HH.
      + intros [[H1 H2]|(w' & [->|Hw']%elem_of_cons & -> & H2)]; [|done|].
        * left. split; [rewrite decide_False; [done|apply H2; by left]|]. intros w' Hw'. apply H2. by right.
        * right. exists w'. split; [done|]. split; [done|]. by rewrite HH.
    - rewrite bool_decide_eq_false_2 by done. rewrite paint_adj_ae, Hx. cbn [mbind option_bind]. rewrite put_imm_paint by apply Hvx. cbn [mbind option_bind]. rewrite Hsx.
      destruct (IH (upd true I (tw m (side w))) (Q ++ [x]) HF Hn) as (I' & P & HI & HvP & HsP & HI'); [intros; apply Hd; by right|].
      assert (∀ w', w' ∈ ws → side w' ∈ upd true I (tw m (side w)) ↔ side w' ∈ I) as HH.
      { intros w' Hw'. rewrite elem_upd, decide_False; [done|]. intros E. symmetry in E. revert E. apply Hd; [by left|by right]. }
      exists I', (x :: P). split; [by rewrite HI, <- app_assoc|]. split; [by apply list.Forall_cons|]. rewrite fmap_cons, HsP, (Hfil _ HH), Hsx. split.
      { by rewrite filter_cons_True by done. }
      intros f. rewrite HI', elem_upd. split.
      + intros [[H1 H2]|(w' & Hw' & -> & H2)].
        * destruct (decide (f = tw m (side w))) as [->|Hne]; [right; exists w; split; [by left|done]|]. left. split; [done|].
          intros w' [->|Hw']%elem_of_cons; [intros ->; done|by apply H2].
        * right. exists w'. split; [by right|]. split; [done|]. by rewrite <- HH.
      + intros [[H1 H2]|(w' & [->|Hw']%elem_of_cons & -> & H2)].
        * left. split; [case_decide; done|]. intros w' Hw'. apply H2. by right.
        * left. split; [by rewrite decide_True|]. intros w' Hw'. apply Hd; [by left|by right].
        * right. exists w'. split; [done|]. split; [done|]. by rewrite HH.
  Qed.

  (** [K] is a set of tets all of whose boundary triangles see the vertex. *)
  Definition visible (X : gset N) w : Prop := w_tet w ∉ X ∧ ∃ t, w_tri m w = Some t ∧ (0 < ori t)%Z.
  Definition good (X K : gset N) : Prop := ∀ w, valid m w → w_tet w ∈ K → (tw m (side w)).1 ∉ K → visible X w.

  Lemma visible_side X w w' : valid m w → valid m w' → side w = side w' → visible X w → visible X w'.
  Proof.
    intros Hw Hw' E [H1 (t & Ht & Hp)]. assert (w_tet w' = w_tet w) as Et by (by injection E). split; [by rewrite Et|].
    enough (∀ w, valid m w → ∀ t, w_tri m w = Some t → (0 < ori t)%Z → ∃ t, w_tri m (to_nfe w) = Some t ∧ (0 < ori t)%Z) as Hstep.
    { assert (valid m (to_nfe w) ∧ valid m (to_nfe (to_nfe w))) as [Hv1 Hv2] by (split; (split; [apply Hw|apply to_nfe_ok])).
      destruct (Hstep w Hw t Ht Hp) as (t1 & Ht1 & Hp1). destruct (Hstep _ Hv1 t1 Ht1 Hp1) as (t2 & Ht2 & Hp2).
      assert (w' = w ∨ w' = to_nfe w ∨ w' = to_nfe (to_nfe w)) as [->|[->| ->]]; [|eauto..].
      destruct w as [id e], w' as [id' e']. destruct Hw as [_ He], Hw' as [_ He']. unfold side in E. cbn [w_tet w_edge] in *. injection E as <- E.
      revert E. clear -He He'. unfold to_nfe. cbn [w_tet w_edge].
      case12 e He; case12 e' He'; cbn; intros E; try done; auto. }
    clear -Hturn. intros w [[t Ht] He] [[a b] c]. unfold w_tri, w_first, w_second, w_third, to_nfe. cbn [w_tet w_edge]. rewrite Ht. cbn [mbind option_bind].
    intros [= <- <- <-] Hp. apply Hturn in Hp. eexists. split; [done|]. destruct w as [id e]. cbn [w_edge] in *. case12 e He; exact Hp.
  Qed.

  Record rinv (X : gset N) (E : list N) I R (Q B : list walker) : Prop := RInv {
    ri_removed id : id ∈ R → id ∈ E;
    ri_valid : Forall (valid m) (Q ++ B);
    ri_nodup : NoDup (side <$> Q ++ B);
    ri_out f : f ∈ side <$> Q ++ B → f.1 ∈ E ∧ ((tw m f).1 ∉ E ∨ (tw m f).1 ∈ R);
    ri_flag f : f ∈ I ↔ lf m f ∧ (f.1 ∈ E ∧ f.1 ∉ R) ∧ ((tw m f).1 ∉ E ∨ (tw m f).1 ∈ R);
    ri_queue f : f ∈ I → f ∈ side <$> Q ++ B;
    ri_good w : w ∈ B → visible X w }.

  Definition keep (E : list N) R : nat := length (filter (λ id, id ∉ R) E).
  Lemma keep_remove E R id : id ∈ E → id ∉ R → keep E ({[id]} ∪ R) < keep E R.
  Proof.
    intros Hin Hn. unfold keep.
    assert (∀ l : list N, length (filter (λ id', id' ∉ ({[id]} ∪ R : gset N)) l) ≤ length (filter (λ id', id' ∉ R) l)) as Hle.
    { clear. induction l as [|k l IH]; [done|]. rewrite !filter_cons. repeat case_decide; cbn; try lia. exfalso. set_solver. }
    induction E as [|k l IH]; [by apply elem_of_nil in Hin|].
    rewrite !filter_cons. apply elem_of_cons in Hin as [<-|Hin].
    - rewrite decide_False by set_solver. rewrite decide_True by done. cbn. specialize (Hle l). lia.
    - specialize (IH Hin). repeat case_decide; cbn; try lia. exfalso. set_solver.
  Qed.

  Lemma retract_ok (X : gset N) (E : list N) : region m E → ∀ fuel I R Q B, rinv X E I R Q B → length Q + 3 * keep E R < fuel →
    (∀ K, (∀ id, id ∈ K → id ∈ E) → good X K → ∀ id, id ∈ K → id ∉ R) →
    ∃ I' R' B', retract ori fuel X (paint m I ∅ R) Q B = Some (paint m I' ∅ R', B') ∧ rinv X E I' R' [] B' ∧
      (∀ K, (∀ id, id ∈ K → id ∈ E) → good X K → ∀ id, id ∈ K → id ∉ R').
  Proof.
    intros [Hnd Hlive]. induction fuel as [|fuel IH]; intros I R Q B Hi Hf Hmax; [lia|].
    pose proof Hi as [Hre Hv Hn Hout Hfl Hq Hg]. cbn [retract].
    destruct Q as [|tri Q]; [by exists I, R, B|].
    apply list.Forall_cons in Hv as [Htri Hv]. rewrite imm_flag_paint by apply Htri. cbn [mbind option_bind].
    cbn [app] in Hn. rewrite fmap_cons in Hn. apply NoDup_cons in Hn as [Hnt Hn].
    destruct (decide (side tri ∈ I)) as [Ht|Ht].
    2: { rewrite bool_decide_eq_false_2 by done. cbn [negb]. apply IH; [|cbn in Hf; lia|done]. split; try done.
      - intros f Hf'. apply Hout. cbn. by right.
      - intros f Hf'. specialize (Hq f Hf'). cbn in Hq. apply elem_of_cons in Hq as [->|?]; done. }
    rewrite bool_decide_eq_true_2 by done. cbn [negb]. rewrite paint_tri.
    destruct (valid_verts m tri Htri) as (a & b & c & d & Ev).
    assert (w_tri m tri = Some (a, b, c)) as Et.
    { revert Ev. unfold w_verts, w_tri. destruct (w_first m tri), (w_second m tri), (w_third m tri), (w_fourth m tri); cbn; congruence. }
    rewrite Et. cbn [mbind option_bind]. apply Hfl in Ht as Ht'. destruct Ht' as (Hlt & [HtE HtR] & Htw). cbn [side fst] in HtE, HtR.
    destruct (bool_decide (w_tet tri ∉ X) && Z.ltb 0 (ori (a, b, c))) eqn:Eg.
    - apply andb_true_iff in Eg as [E1%bool_decide_eq_true E2%Z.ltb_lt].
      apply IH; [|cbn in Hf; lia|done].
      assert (Q ++ B ++ [tri] ≡ₚ tri :: Q ++ B) as Hp by (rewrite app_assoc; symmetry; apply Permutation_cons_append).
      split; [done| | | |done| |].
      + rewrite Hp. by apply list.Forall_cons.
      + rewrite Hp. rewrite fmap_cons. by apply NoDup_cons.
      + intros f. rewrite Hp. apply Hout.
      + intros f. rewrite Hp. apply Hq.
      + intros w [Hw| ->%elem_of_list_singleton]%elem_of_app; [by apply Hg|]. split; [done|]. eauto.
    - assert (¬ visible X tri) as Hbad.
      { intros [H1 (t & Ht1 & H2)]. rewrite Et in Ht1. injection Ht1 as <-. rewrite bool_decide_eq_true_2 in Eg by done. apply Z.ltb_lt in H2. by rewrite H2 in Eg. }
      rewrite put_notenc_paint by apply Htri. cbn [mbind option_bind updN]. rewrite put_imm_paint by apply Htri. cbn [mbind option_bind].
      set (R1 := {[w_tet tri]} ∪ R).
      assert (∀ id, id ∈ R1 ↔ id = w_tet tri ∨ id ∈ R) as HR1 by (intros id; unfold R1; rewrite elem_of_union, elem_of_singleton; done).
      assert (keep E R1 < keep E R) as Hkeep by (by apply keep_remove). clearbody R1.
      set (I1 := upd false I (side tri)).
      destruct (other_sides m tri Htri) as (Hov & Hot & Hon & Hoa). rewrite fmap_cons in Hon. apply NoDup_cons in Hon as [Hon1 Hon2].
      pose proof Hov as Hov'. rewrite list.Forall_forall in Hov. rewrite list.Forall_forall in Hot.
      assert (∀ w w', w ∈ other_tris tri → w' ∈ other_tris tri → tw m (side w) ≠ side w') as Hd.
      { intros w w' Hw Hw' Ew. destruct (tw_lf m (side w) Hok) as [_ H]; [apply side_lf; by apply Hov|]. apply H. rewrite Ew. cbn. by rewrite (Hot w Hw), (Hot w' Hw'). }
      assert (∀ f, lf m f → f.1 = w_tet tri → f ≠ side tri → ∃ w, w ∈ other_tris tri ∧ f = side w) as Hof.
      { intros f Hf1 Hf2 Hf3. specialize (Hoa f Hf1 Hf2). rewrite fmap_cons in Hoa. apply elem_of_cons in Hoa as [->|H]; [done|]. apply elem_of_list_fmap in H as (w & -> & Hw). eauto. }
      assert (∀ w, w ∈ other_tris tri → side w ∈ I1 ↔ side w ∈ I) as HI1.
      { intros w Hw. unfold I1. rewrite elem_upd, decide_False; [done|]. intros Ew. apply Hon1. rewrite <- Ew. apply elem_of_list_fmap. eauto. }
      destruct (retract_fold ∅ R1 (other_tris tri) I1 Q Hov' Hon2 Hd) as (I2 & P & HI2 & HvP & HsP & HI2'). rewrite HI2. cbn [mbind option_bind].
      (* triangles not flagged lead to tets still kept *)
      assert (∀ w, w ∈ other_tris tri → side w ∉ I → (tw m (side w)).1 ∈ E ∧ (tw m (side w)).1 ∉ R) as Hin2.
      { intros w Hw Hni. destruct (decide ((tw m (side w)).1 ∈ E)) as [?|H1]; [destruct (decide ((tw m (side w)).1 ∈ R)) as [H2|?]; [|done]|]; exfalso; apply Hni, Hfl;
          (split; [apply side_lf; by apply Hov|]); (split; [cbn; rewrite Hot by done; done|]); [by right|by left]. }
      assert (∀ f, f ∈ side <$> P ↔ ∃ w, w ∈ other_tris tri ∧ f = tw m (side w) ∧ side w ∉ I) as HinP.
      { intros f. rewrite HsP, elem_of_list_fmap. split.
        - intros (w & -> & [H1 Hw]%elem_of_list_filter). exists w. rewrite HI1 in H1 by done. done.
        - intros (w & Hw & -> & H1). exists w. split; [done|]. apply elem_of_list_filter. by rewrite HI1. }
      assert (∀ f, f ∈ side <$> P → f ∉ side <$> tri :: Q ++ B) as Hfresh.
      { intros f (w & Hw & -> & Hni)%HinP H. specialize (Hout _ H). rewrite tw_tw in Hout; [|done|apply side_lf; by apply Hov].
        destruct Hout as [_ Hout]. cbn in Hout. rewrite Hot in Hout by done. tauto. }
      apply IH.
      + assert ((Q ++ P) ++ B ≡ₚ P ++ (Q ++ B)) as Hp. { rewrite <- !app_assoc. rewrite (app_assoc P Q B), (Permutation_app_comm P Q). by rewrite <- app_assoc. }
        split.
        * intros id [->|H]%HR1; [done|by apply Hre].
        * rewrite Hp. by apply Forall_app.
        * rewrite Hp, fmap_app. apply NoDup_app. split; [|split; [|done]].
          -- rewrite HsP. apply NoDup_fmap_2_strong; [|by apply NoDup_filter, (NoDup_fmap_1 side)].
             intros w w' [_ Hw]%elem_of_list_filter [_ Hw']%elem_of_list_filter Ew. apply tw_inj in Ew; [|done|apply side_lf; by apply Hov..].
             clear -Ew Hw Hw' Hon2. induction (other_tris tri) as [|x l IHl]; [by apply elem_of_nil in Hw|]. rewrite fmap_cons in Hon2. apply NoDup_cons in Hon2 as [H1 H2].
             apply elem_of_cons in Hw as [->|Hw]; apply elem_of_cons in Hw' as [->|Hw']; [done| | |by apply IHl]; exfalso; apply H1; [rewrite Ew|rewrite <- Ew]; apply elem_of_list_fmap; eauto.
          -- intros f Hf1 Hf2. apply (Hfresh f Hf1). rewrite fmap_cons. by right.
        * intros f. rewrite Hp, fmap_app. intros [H|H]%elem_of_app.
          -- apply HinP in H as (w & Hw & -> & Hni). destruct (Hin2 w Hw Hni) as [H1 H2]. split; [done|]. right. rewrite tw_tw; [|done|apply side_lf; by apply Hov].
             cbn. rewrite Hot by done. apply HR1. by left.
          -- destruct (Hout f) as [H1 H2]; [cbn; by right|]. split; [done|]. destruct H2 as [?|?]; [by left|right; apply HR1; by right].
        * intros f. rewrite HI2'. split.
          -- intros [[H1 H2]|(w & Hw & -> & H1)].
             ++ unfold I1 in H1. rewrite elem_upd in H1. destruct (decide (f = side tri)) as [|Hne]; [done|]. apply Hfl in H1 as (H3 & [H4 H5] & H6).
                split; [done|]. split; [split; [done|]|].
                ** intros [E1|?]%HR1; [|done]. destruct (Hof f H3 E1 Hne) as (w & Hw & ->). by apply (H2 w).
                ** destruct H6 as [?|?]; [by left|right; apply HR1; by right].
             ++ rewrite HI1 in H1 by done. destruct (Hin2 w Hw H1) as [H3 H4]. destruct (tw_lf m (side w) Hok) as [H5 H6]; [apply side_lf; by apply Hov|].
                split; [done|]. split.
                ** split; [done|]. intros [E1|?]%HR1; [|done]. apply H6. cbn. rewrite Hot by done. done.
                ** right. rewrite tw_tw; [|done|apply side_lf; by apply Hov]. cbn. rewrite Hot by done. apply HR1. by left.
          -- intros (H1 & [H2 H3] & H4). destruct (decide (f ∈ I)) as [HfI|HfI].
             ++ left. split.
                ** unfold I1. rewrite elem_upd, decide_False; [done|]. intros ->. apply H3, HR1. by left.
                ** intros w Hw ->. apply H3, HR1. left. cbn. by rewrite Hot.
             ++ right. assert ((tw m f).1 = w_tet tri ∧ f.1 ∉ R) as [E1 H5].
                { assert (f.1 ∉ R) by (intros ?; apply H3, HR1; by right). split; [|done]. destruct H4 as [H4|[E1|H4]%HR1]; [exfalso|done|exfalso];
                    apply HfI, Hfl; (split; [done|]); (split; [done|]); [by left|by right]. }
                destruct (decide (tw m f = side tri)) as [E2|E2].
                { exfalso. assert (f = tw m (side tri)) as Ef by (rewrite <- E2; symmetry; by apply tw_tw).
                  destruct (Hout (side tri)) as [_ Hx]; [cbn; by left|]. rewrite <- Ef in Hx. tauto. }
                destruct (Hof (tw m f)) as (w & Hw & Ew); [by apply tw_lf|done|done|]. exists w. split; [done|].
                assert (f = tw m (side w)) as Ef by (rewrite <- Ew; symmetry; by apply tw_tw). split; [done|]. rewrite HI1 by done.
                intros Hc. apply Hfl in Hc as (_ & _ & Hc). rewrite <- Ef in Hc. tauto.
        * intros f. rewrite Hp, fmap_app, HI2'. intros [[H1 H2]|(w & Hw & -> & H1)].
          -- apply elem_of_app. right. unfold I1 in H1. rewrite elem_upd in H1. case_decide; [done|]. apply Hq in H1. cbn in H1. apply elem_of_cons in H1 as [?|?]; done.
          -- apply elem_of_app. left. apply HinP. exists w. rewrite HI1 in H1 by done. done.
        * done.
      + assert (length P ≤ 3). { assert (length P = length (side <$> P)) as -> by (by rewrite fmap_length). rewrite HsP, fmap_length. etrans; [apply filter_length|]. done. }
        cbn in Hf. rewrite app_length. lia.
      + intros K HK HgK id Hid [->|H]%HR1; [|by apply (Hmax K HK HgK id)].
        apply Hbad. apply HgK; [done|done|]. intros Hc. specialize (Hmax K HK HgK _ Hc). apply HK in Hc. tauto.
  Qed.

  Lemma keep_tri_fold L R ws : ∀ I acc, Forall (valid m) ws → NoDup (side <$> ws) →
    ∃ I', mfoldl keep_tri ws (paint m I L R, acc) = Some (paint m I' L R, acc ++ filter (λ w, side w ∈ I) ws) ∧
      ∀ f, f ∈ I' ↔ f ∈ I ∧ f ∉ side <$> ws.
  Proof.
    clear Hok Hturn ori. induction ws as [|w ws IH]; intros I acc HF Hn.
    { exists I. split; [by rewrite app_nil_r|]. intros f. cbn. rewrite elem_of_nil. tauto. }
    apply list.Forall_cons in HF as [Hw HF]. rewrite fmap_cons in Hn. apply NoDup_cons in Hn as [Hnw Hn]. cbn [mfoldl]. unfold keep_tri at 2.
    rewrite imm_flag_paint by apply Hw. cbn [mbind option_bind]. rewrite put_imm_paint by apply Hw. cbn [mbind option_bind].
    destruct (IH (upd false I (side w)) (if bool_decide (side w ∈ I) then acc ++ [w] else acc) HF Hn) as (I' & HI & HI').
    exists I'. rewrite HI. split.
    - do 2 f_equal. assert (filter (λ w0, side w0 ∈ upd false I (side w)) ws = filter (λ w0, side w0 ∈ I) ws) as ->.
      { clear -Hnw. induction ws as [|x l IH]; [done|]. rewrite fmap_cons in Hnw. apply not_elem_of_cons in Hnw as [H1 H2]. rewrite !filter_cons, IH by done.
        assert (side x ∈ upd false I (side w) ↔ side x ∈ I) as HH by (rewrite elem_upd, decide_False; [done|congruence]). repeat case_decide; try done; exfalso; tauto. }
      rewrite filter_cons. destruct (decide (side w ∈ I)); [rewrite bool_decide_eq_true_2 by done|rewrite bool_decide_eq_false_2 by done; done]. by rewrite <- app_assoc.
    - intros f. rewrite HI', elem_upd, fmap_cons, not_elem_of_cons. destruct (decide (f = side w)); [|tauto]. split; [intros [? _]; done|tauto].
  Qed.
  Lemma keep_tet_fold I L (E : list N) : ∀ R acc, (∀ id, id ∈ E → is_Some (tet_get m id)) → NoDup E →
    ∃ R', mfoldl keep_tet E (paint m I L R, acc) = Some (paint m I L R', acc ++ filter (λ id, id ∉ R) E) ∧
      ∀ id, id ∈ R' ↔ id ∈ R ∧ id ∉ E.
  Proof.
    clear Hok Hturn ori. induction E as [|k E IH]; intros R acc HF Hn.
    { exists R. split; [by rewrite app_nil_r|]. intros id. rewrite elem_of_nil. tauto. }
    apply NoDup_cons in Hn as [Hnw Hn]. cbn [mfoldl]. unfold keep_tet at 2. rewrite notenc_flag_paint by (apply HF; by left). cbn [mbind option_bind].
    rewrite put_notenc_paint by (apply HF; by left). cbn [mbind option_bind updN].
    destruct (IH (R ∖ {[k]}) (if bool_decide (k ∈ R) then acc else acc ++ [k])) as (R' & HR & HR'); [intros; apply HF; by right|done|].
    exists R'. rewrite HR. split.
    - do 2 f_equal. assert (filter (λ id, id ∉ R ∖ {[k]}) E = filter (λ id, id ∉ R) E) as ->.
      { clear -Hnw. induction E as [|x l IH]; [done|]. apply not_elem_of_cons in Hnw as [H1 H2]. rewrite !filter_cons, IH by done.
        assert (x ∈ R ∖ {[k]} ↔ x ∈ R) as HH by set_solver. repeat case_decide; try done; exfalso; tauto. }
      rewrite filter_cons. destruct (decide (k ∈ R)) as [Hk|Hk]; [rewrite bool_decide_eq_true_2 by done; rewrite decide_False by tauto; done|].
      rewrite bool_decide_eq_false_2 by done. rewrite decide_True by done. by rewrite <- app_assoc.
    - intros id. rewrite HR', not_elem_of_cons. set_solver.
  Qed.
  Lemma restart_fold R ws : ∀ I L, Forall (valid m) ws →
    ∃ I' L', mfoldl restart_tri ws (paint m I L R) = Some (paint m I' L' R) ∧
      (∀ f, f ∈ I' ↔ f ∈ I ∨ f ∈ side <$> ws) ∧ (∀ f, f ∈ L' ↔ f ∈ L ∧ f ∉ side <$> ws).
  Proof.
    induction ws as [|w ws IH]; intros I L HF.
    { exists I, L. split; [done|]. split; intros f; cbn; rewrite elem_of_nil; tauto. }
    apply list.Forall_cons in HF as [Hw HF]. cbn [mfoldl]. unfold restart_tri at 2. rewrite put_imm_paint by apply Hw. cbn [mbind option_bind].
    rewrite put_limit_paint by apply Hw. cbn [mbind option_bind].
    destruct (IH (upd true I (side w)) (upd false L (side w)) HF) as (I' & L' & HI & HI' & HL'). exists I', L'. split; [done|]. split; intros f.
    - rewrite HI', elem_upd, fmap_cons, elem_of_cons. destruct (decide (f = side w)); tauto.
    - rewrite HL', elem_upd, fmap_cons, not_elem_of_cons. destruct (decide (f = side w)); [|tauto]. split; [intros [? _]; done|tauto].
  Qed.
End retract.
