(** Turning the tets of the boundary triangles into a cone. *)
From stdpp Require Import base numbers list gmap option relations.
From Coq Require Import NArith ZArith ZifyN ZifyNat ZifyBool Lia.
From Verif Require Import IdMapModel IdMapSpec IdMapProofs WalkerModel WalkerSpec WalkerProofs SortProofs
  MeshModel WalkerMore MeshOps MeshSpec MeshViews Surgery MeshLink MeshRun FlipBase FlipRun IterModel CavSpec InsModel InsStep InsOwn.
Local Open Scope nat_scope.

Lemma entry_for_ok e x : e < 12 → w_edge x < 12 → ∃ y, entry_for e x = Some y ∧ rot (e / 4) y = x ∧ w_edge y < 12.
Proof.
  intros He Hx. unfold entry_for. assert (e / 4 < 3) as H by (apply Nat.div_lt_upper_bound; lia).
  destruct (e / 4) as [|[|[|k]]]; [..|lia]; eexists; (split; [done|]); cbn [rot].
  - done.
  - split; [by apply pfe_nfe|apply to_nfe_ok].
  - split; [by apply nfe_pfe|apply to_pfe_ok].
Qed.

(** The inner triangles at the three sides of a triangle. *)
Lemma inner_faces w d d' : w_edge w < 12 → d ∈ [w; to_nfe w; to_pfe w] → d' ∈ [w; to_nfe w; to_pfe w] →
  w_edge (to_twin_edge d) mod 4 = w_edge (to_twin_edge d') mod 4 → d = d'.
Proof.
  destruct w as [t e]. cbn [w_edge]. intros He. rewrite !elem_of_cons, !elem_of_nil.
  case12 e He; (intros [->|[->|[->|[]]]] [->|[->|[->|[]]]]; cbn; congruence).
Qed.
Lemma inner_outer w d : w_edge w < 12 → d ∈ [w; to_nfe w; to_pfe w] → w_edge (to_twin_edge d) mod 4 ≠ w_edge w mod 4.
Proof.
  destruct w as [t e]. cbn [w_edge]. intros He. rewrite !elem_of_cons, !elem_of_nil.
  case12 e He; (intros [->|[->|[->|[]]]]; cbn; congruence).
Qed.
Lemma set_fourth (vs : arr4 N) e v : e < 12 →
  verts_at (set4 vs (e mod 4) v) e = A4 (q0 (verts_at vs e)) (q1 (verts_at vs e)) (q2 (verts_at vs e)) v.
Proof. destruct vs as [a b c d]. intros He. case12 e He; reflexivity. Qed.

Section cone.
  Context {V T : Type}.
  Context (tr : bool) (ctr : pt) (nv : N).
  Implicit Types (m : mesh V T) (F G : N → tet T) (w u d r : walker) (id e : N)
    (Ed : N → option uedge) (Vt : N → option (vertex V)).
  Notation st := (st tr ctr nv).

  Lemma av_set_opp G a y r : w_edge a < 12 →
    av (fupd G (w_tet a) (set_opp (w_edge a mod 4) y (G (w_tet a)))) r =
      if decide (sf a r) then rot (w_edge r / 4) y else av G r.
  Proof.
    intros Ha. unfold av, fupd. destruct (decide (w_tet r = w_tet a)) as [E|E].
    - cbn [t_opp set_opp]. rewrite get4_set4 by apply mod4. destruct (decide (w_edge a mod 4 = w_edge r mod 4)) as [E'|E'].
      + rewrite decide_True; [done|]. by split.
      + rewrite decide_False; [by rewrite E|]. by intros [_ ?].
    - rewrite decide_False; [done|]. intros [? _]. done.
  Qed.
  Lemma entry_set_opp G a y id i : i < 4 →
    get4 (t_opp (fupd G (w_tet a) (set_opp (w_edge a mod 4) y (G (w_tet a))) id)) i =
      if decide (w_tet a = id ∧ w_edge a mod 4 = i) then y else get4 (t_opp (G id)) i.
  Proof.
    intros Hi. unfold fupd. destruct (decide (id = w_tet a)) as [->|E].
    - cbn [t_opp set_opp]. rewrite get4_set4 by (apply mod4 || done). destruct (decide (w_edge a mod 4 = i)) as [E'|E'].
      + by rewrite decide_True.
      + rewrite decide_False; [done|]. tauto.
    - rewrite decide_False; [done|]. intros [? _]. done.
  Qed.

  Context (O : gset N) (F3 : N → tet T) (Ed3 : N → option uedge) (B : list walker) (M : walker → walker → Prop).
  Notation L := (O ∪ list_to_set (w_tet <$> B)).
  Notation κ := (uv F3).
  Notation D := (darts B).
  Context (HB : ∀ w, w ∈ B → w_edge w < 12 ∧ w_tet w ∉ O ∧ w_tet w ≠ invalid_id) (Hnd : NoDup (w_tet <$> B)).
  Context (Mdec : ∀ d d', Decision (M d d')).
  Context (Msym : ∀ d d', M d d' → M d' d) (Mfun : ∀ d d1 d2, M d d1 → M d d2 → d1 = d2)
    (Mtot : ∀ d, d ∈ D → ∃ d', M d d') (Min : ∀ d d', M d d' → d ∈ D) (Mirr : ∀ d, ¬ M d d)
    (Mκ : ∀ d d', M d d' → κ d = κ d') (κM : ∀ d d', d ∈ D → d' ∈ D → κ d = κ d' → d = d' ∨ M d d').
  Context (HE3 : ∀ d, d ∈ D → is_Some (Ed3 (κ d))).

  Lemma B_tet w w' : w ∈ B → w' ∈ B → w_tet w = w_tet w' → w = w'.
  Proof.
    clear -Hnd. induction B as [|x l IH]; [by intros ?%elem_of_nil|]. cbn in Hnd. apply NoDup_cons in Hnd as [H1 H2].
    rewrite !elem_of_cons. intros [->|H] [->|H'] E; [done|..]; [| |by apply IH].
    - exfalso. apply H1. rewrite E. by apply elem_of_list_fmap_1.
    - exfalso. apply H1. rewrite <- E. by apply elem_of_list_fmap_1.
  Qed.
  Lemma D_B d : d ∈ D → ∃ w, w ∈ B ∧ d ∈ [w; to_nfe w; to_pfe w].
  Proof. intros (w & Hw & H)%elem_darts. exists w. rewrite !elem_of_cons, elem_of_nil. tauto. Qed.
  Lemma dart_tet w d : d ∈ [w; to_nfe w; to_pfe w] → w_tet d = w_tet w.
  Proof. rewrite !elem_of_cons, elem_of_nil. by intros [->|[->|[->|[]]]]. Qed.
  Lemma dart_edge w d : w_edge w < 12 → d ∈ [w; to_nfe w; to_pfe w] → w_edge d < 12.
  Proof. intros H. rewrite !elem_of_cons, elem_of_nil. intros [->|[->|[->|[]]]]; [done|apply to_nfe_ok|apply to_pfe_ok]. Qed.
  Lemma D_edge d : d ∈ D → w_edge d < 12.
  Proof. intros (w & Hw & H)%D_B. eapply dart_edge; [|done]. by apply HB. Qed.
  Lemma D_tet d : d ∈ D → w_tet d ∈ w_tet <$> B.
  Proof. intros (w & Hw & H)%D_B. rewrite (dart_tet _ _ H). by apply elem_of_list_fmap_1. Qed.
  Lemma D_in d : d ∈ D → w_tet d ∈ L.
  Proof. intros H. apply elem_of_union_r, elem_of_list_to_set. by apply D_tet. Qed.
  Lemma D_ok d : d ∈ D → w_tet d ∉ O ∧ w_tet d ≠ invalid_id.
  Proof. intros (w & Hw & H)%D_B. rewrite (dart_tet _ _ H). by apply HB. Qed.
  Lemma D_face d d' : d ∈ D → d' ∈ D → sf (to_twin_edge d) (to_twin_edge d') → d = d'.
  Proof.
    intros (w & Hw & H)%D_B (w' & Hw' & H')%D_B [E1 E2]. cbn [w_tet to_twin_edge] in E1.
    assert (w = w') as <-. { apply B_tet; [done..|]. rewrite <- (dart_tet _ _ H), <- (dart_tet _ _ H'). done. }
    by apply (inner_faces w); [apply HB|..].
  Qed.
  Lemma D_outer d w : d ∈ D → w ∈ B → ¬ sf (to_twin_edge d) w.
  Proof.
    intros (w' & Hw' & H)%D_B Hw [E1 E2]. cbn [w_tet to_twin_edge] in E1.
    assert (w = w') as <-. { apply B_tet; [done..|]. rewrite <- (dart_tet _ _ H). done. }
    by apply (inner_outer w d (proj1 (HB _ Hw))).
  Qed.

  (** ** Linking the inner triangles. *)
  Record joins (P : list walker) F Ed : Prop := Joins {
    jo_es id : t_edges (F id) = t_edges (F3 id);
    jo_O id : id ∈ O → t_opp (F id) = t_opp (F3 id);
    jo_ok id : id ∈ L → oppok F id;
    jo_out w : w ∈ B → get4 (t_opp (F (w_tet w))) (w_edge w mod 4) = get4 (t_opp (F3 (w_tet w))) (w_edge w mod 4);
    jo_in d d' : d ∈ P → d' ∈ P → M d d' → av F (to_twin_edge d) = to_twin_edge d';
    jo_ex d : d ∈ D → is_Some (Ed (κ d));
    jo_one d ue : d ∈ P → (∀ d', M d d' → d' ∉ P) → Ed (κ d) = Some ue → ue_bw ue = d;
    jo_none e ue : Ed e = Some ue → (∀ d, d ∈ P → κ d = e → ∃ d', d' ∈ P ∧ M d d') → w_tet (ue_bw ue) = invalid_id }.

  (** Nothing but links and boundary walkers changes. *)
  Definition frame F Ed F' Ed' : Prop :=
    (∀ id, same_but_opp (F id) (F' id)) ∧
    ∀ e, (λ ue, (ue_vs ue, ue_boundary ue, ue_locked ue)) <$> Ed' e = (λ ue, (ue_vs ue, ue_boundary ue, ue_locked ue)) <$> Ed e.
  Lemma frame_refl F Ed : frame F Ed F Ed.
  Proof. split; [|done]. by intros id. Qed.
  Lemma frame_trans F1 Ed1 F2 Ed2 F4 Ed4 : frame F1 Ed1 F2 Ed2 → frame F2 Ed2 F4 Ed4 → frame F1 Ed1 F4 Ed4.
  Proof.
    intros [A1 A2] [B1 B2]. split.
    - intros id. destruct (A1 id) as (?&?&?&?), (B1 id) as (?&?&?&?). repeat split; congruence.
    - intros e. by rewrite B2.
  Qed.

  Lemma join_s nt ne Vt gf tm P F Ed m d : st nt ne L F Ed Vt gf tm m → joins P F Ed → d ∈ D → d ∉ P → (∀ x, x ∈ P → x ∈ D) →
    ∃ m' F' Ed', join_edge m d = Some m' ∧ st nt ne L F' Ed' Vt gf tm m' ∧ joins (P ++ [d]) F' Ed' ∧ frame F Ed F' Ed'.
  Proof.
    intros Hst [J1 J2 J3 J4 J5 J6 J7 J8] Hd HdP HP. unfold join_edge. pose proof (D_in d Hd) as HdL.
    rewrite (mv_undir _ _ _ _ (st_mv _ _ _ _ _ _ _ _ _ _ _ _ Hst) HdL). cbn [mbind option_bind].
    assert (uv F d = κ d) as Eκ by (unfold uv; by rewrite J1). rewrite Eκ.
    rewrite (st_E _ _ _ _ _ _ _ _ _ _ _ _ Hst). destruct (J6 d Hd) as [ue Eue]. rewrite Eue. cbn [mbind option_bind].
    destruct (Mtot d Hd) as [d' Hm]. assert (d' ∈ D) as Hd' by (eapply Min, Msym, Hm).
    destruct (decide (d' ∈ P)) as [HdP'|HdP'].
    - assert (ue_bw ue = d') as Ebw.
      { apply (J7 d'); [done| |by rewrite <- (Mκ _ _ Hm)]. intros x Hx. by rewrite (Mfun d' x d Hx (Msym _ _ Hm)). }
      rewrite Ebw. destruct (D_ok d' Hd') as [_ Hinv]. rewrite (proj2 (N.eqb_neq _ _) Hinv). cbn [negb].
      assert (w_edge (to_twin_edge d) < 12) as He by (apply to_twin_edge_ok, D_edge, Hd).
      assert (w_edge (to_twin_edge d') < 12) as He' by (apply to_twin_edge_ok, D_edge, Hd').
      destruct (entry_for_ok _ _ He He') as (x & -> & Rx & Hx). destruct (entry_for_ok _ _ He' He) as (y & Ey & Ry & Hy).
      cbn [mbind option_bind].
      destruct (upd_s _ _ _ _ _ _ _ _ _ _ _ _ (w_tet (to_twin_edge d)) (set_opp (w_edge (to_twin_edge d) mod 4) x) Hst HdL) as (m1 & -> & H1).
      cbn [mbind option_bind]. rewrite Ey. cbn [mbind option_bind].
      destruct (upd_s _ _ _ _ _ _ _ _ _ _ _ _ (w_tet (to_twin_edge d')) (set_opp (w_edge (to_twin_edge d') mod 4) y) H1 (D_in d' Hd')) as (m2 & -> & H2).
      cbn [mbind option_bind].
      destruct (edge_s _ _ _ _ _ _ _ _ _ _ _ _ (κ d) ue (set_bw (Walker invalid_id (w_edge d'))) H2 Eue) as (m3 & -> & H3).
      eexists m3, _, _. split; [reflexivity|]. split; [exact H3|].
      set (F1 := fupd F (w_tet (to_twin_edge d)) _) in *. set (F2 := fupd F1 (w_tet (to_twin_edge d')) _) in *.
      assert (∀ id, same_but_opp (F id) (F2 id)) as Hfr.
      { intros id. unfold F2, F1, fupd. destruct (decide (id = _)) as [->|]; [destruct (decide _) as [E|]|destruct (decide _) as [->|]]; try done.
        by rewrite E. }
      assert (¬ sf (to_twin_edge d') (to_twin_edge d)) as Hns.
      { intros E. apply D_face in E; [|done..]. rewrite E in Hm. exact (Mirr _ Hm). }
      assert (∀ r, (∀ a, a ∈ [d; d'] → ¬ sf (to_twin_edge a) r) → av F2 r = av F r) as Hav.
      { intros r Hr. unfold F2. rewrite av_set_opp by done. rewrite decide_False by (apply Hr; by right; left).
        unfold F1. rewrite av_set_opp by done. by rewrite decide_False by (apply Hr; by left). }
      assert (∀ id i, i < 4 → (∀ a, a ∈ [d; d'] → ¬ (w_tet (to_twin_edge a) = id ∧ w_edge (to_twin_edge a) mod 4 = i)) →
        get4 (t_opp (F2 id)) i = get4 (t_opp (F id)) i) as Hen.
      { intros id i Hi Hr. unfold F2. rewrite entry_set_opp by done. rewrite decide_False by (apply Hr; by right; left).
        unfold F1. rewrite entry_set_opp by done. by rewrite decide_False by (apply Hr; by left). }
      assert (∀ a, a ∈ [d; d'] → a ∈ D) as HaD.
      { intros a. rewrite !elem_of_cons, elem_of_nil. by intros [->|[->|[]]]. }
      split; [|split].
      + split.
        * intros id. destruct (Hfr id) as (_ & E & _). by rewrite E.
        * intros id Hid. rewrite <- (J2 id Hid). unfold F2, F1, fupd. rewrite !decide_False; [done|..]; intros ->.
          -- by destruct (proj1 (D_ok d Hd)).
          -- by destruct (proj1 (D_ok d' Hd')).
        * intros id Hid i Hi. unfold F2. rewrite entry_set_opp by done. destruct (decide _); [done|].
          unfold F1. rewrite entry_set_opp by done. destruct (decide _); [done|]. by apply J3.
        * intros w Hw. rewrite <- (J4 w Hw). apply Hen; [apply mod4|]. intros a Ha E. by apply (D_outer a w (HaD a Ha) Hw).
        * intros a b Ha Hb Hab. apply elem_of_app in Ha as [Ha|Ha%elem_of_list_singleton].
          -- destruct (decide (a = d')) as [->|Hne].
             ++ rewrite (Mfun d' b d Hab (Msym _ _ Hm)). unfold F2. rewrite av_set_opp by done. rewrite decide_True by done. done.
             ++ assert (a ≠ d) as Hne' by by intros ->. apply elem_of_app in Hb as [Hb|Hb%elem_of_list_singleton].
                ** rewrite Hav; [by apply J5|]. intros x' [->|[->|[]%elem_of_nil]%elem_of_cons]%elem_of_cons E%D_face; try done; by apply HP.
                ** subst b. exfalso. apply Hne. exact (Mfun d a d' (Msym _ _ Hab) Hm).
          -- subst a. rewrite (Mfun d b d' Hab Hm). unfold F2. rewrite av_set_opp by done. rewrite decide_False by done.
             unfold F1. rewrite av_set_opp by done. rewrite decide_True by done. done.
        * intros a Ha. unfold eupd. destruct (decide _); [eauto|]. by apply J6.
        * intros a ue' Ha Hno. unfold eupd. destruct (decide (κ a = κ d)) as [E|E].
          -- exfalso. destruct (Mtot a) as [b Hb]. { apply elem_of_app in Ha as [Ha|Ha%elem_of_list_singleton]; [by apply HP|by subst]. }
             apply (Hno b Hb). apply elem_of_app.
             destruct (κM a d) as [->|Had]; [|done|done|..]. { by eapply Min. }
             ++ left. by rewrite (Mfun d b d' Hb Hm).
             ++ right. apply elem_of_list_singleton. exact (Mfun a b d Hb Had).
          -- intros Hue. apply J7; [| |done].
             ++ apply elem_of_app in Ha as [Ha|Ha%elem_of_list_singleton]; [done|by subst].
             ++ intros b Hb Hin. apply (Hno b Hb). apply elem_of_app. by left.
        * intros e ue' . unfold eupd. destruct (decide (e = κ d)) as [->|E].
          -- intros [= <-] _. done.
          -- intros Hue Hall. apply (J8 e ue' Hue). intros a Ha Hκ. destruct (Hall a) as (b & Hb & Hab); [apply elem_of_app; by left|done|].
             exists b. split; [|done]. apply elem_of_app in Hb as [Hb|Hb%elem_of_list_singleton]; [done|]. subst b. exfalso. apply E.
             rewrite <- Hκ. by apply Mκ.
      + done.
      + intros e. unfold eupd. destruct (decide (e = κ d)) as [->|]; [|done]. by rewrite Eue.
    - assert (w_tet (ue_bw ue) = invalid_id) as Ebw.
      { apply (J8 (κ d) ue Eue). intros a Ha Hκ. destruct (κM a d) as [->|Had]; [by apply HP|done|done|done|].
        exfalso. apply HdP'. by rewrite (Mfun d d' a Hm (Msym _ _ Had)). }
      rewrite Ebw. rewrite N.eqb_refl. cbn [negb].
      destruct (edge_s _ _ _ _ _ _ _ _ _ _ _ _ (κ d) ue (set_bw d) Hst Eue) as (m3 & -> & H3).
      eexists m3, F, _. split; [reflexivity|]. split; [exact H3|]. split; [|split].
      + split; try done.
        * intros a b Ha Hb Hab. apply J5; [| |done].
          -- apply elem_of_app in Ha as [Ha|Ha%elem_of_list_singleton]; [done|]. subst a. exfalso.
             apply elem_of_app in Hb as [Hb|Hb%elem_of_list_singleton].
             ++ apply HdP'. by rewrite (Mfun d d' b Hm Hab).
             ++ subst b. exact (Mirr _ Hab).
          -- apply elem_of_app in Hb as [Hb|Hb%elem_of_list_singleton]; [done|]. subst b. exfalso.
             apply elem_of_app in Ha as [Ha|Ha%elem_of_list_singleton].
             ++ apply HdP'. by rewrite (Mfun d d' a Hm (Msym _ _ Hab)).
             ++ subst a. exact (Mirr _ Hab).
        * intros a Ha. unfold eupd. destruct (decide _); [eauto|]. by apply J6.
        * intros a ue' Ha Hno. unfold eupd. destruct (decide (κ a = κ d)) as [E|E].
          -- intros [= <-]. cbn. apply elem_of_app in Ha as [Ha|Ha%elem_of_list_singleton]; [|done].
             destruct (κM a d) as [->|Had]; [by apply HP|done|done|done|]. exfalso. apply HdP'. by rewrite (Mfun d d' a Hm (Msym _ _ Had)).
          -- intros Hue. apply J7; [| |done].
             ++ apply elem_of_app in Ha as [Ha|Ha%elem_of_list_singleton]; [done|by subst].
             ++ intros b Hb Hin. apply (Hno b Hb). apply elem_of_app. by left.
        * intros e ue' . unfold eupd. destruct (decide (e = κ d)) as [->|E].
          -- intros _ Hall. exfalso. destruct (Hall d) as (b & Hb & Hab); [apply elem_of_app; right; by apply elem_of_list_singleton|done|].
             apply elem_of_app in Hb as [Hb|Hb%elem_of_list_singleton].
             ++ apply HdP'. by rewrite (Mfun d d' b Hm Hab).
             ++ subst b. exact (Mirr _ Hab).
          -- intros Hue Hall. apply (J8 e ue' Hue). intros a Ha Hκ. destruct (Hall a) as (b & Hb & Hab); [apply elem_of_app; by left|done|].
             exists b. split; [|done]. apply elem_of_app in Hb as [Hb|Hb%elem_of_list_singleton]; [done|]. subst b. exfalso. apply E.
             rewrite <- Hκ. by apply Mκ.
      + by intros id.
      + intros e. unfold eupd. destruct (decide (e = κ d)) as [->|]; [|done]. by rewrite Eue.
  Qed.
  Lemma joins_s nt ne Vt gf tm l : ∀ P F Ed m, st nt ne L F Ed Vt gf tm m → joins P F Ed → NoDup (P ++ l) → (∀ x, x ∈ P ++ l → x ∈ D) →
    ∃ m' F' Ed', mfoldl join_edge l m = Some m' ∧ st nt ne L F' Ed' Vt gf tm m' ∧ joins (P ++ l) F' Ed' ∧ frame F Ed F' Ed'.
  Proof.
    induction l as [|d l IH]; intros P F Ed m Hst Hj Hn Hl; cbn [mfoldl].
    - exists m, F, Ed. rewrite app_nil_r. split; [done|]. split; [done|]. split; [done|apply frame_refl].
    - destruct (join_s nt ne Vt gf tm P F Ed m d Hst Hj) as (m1 & F1 & Ed1 & -> & H1 & H2 & H3).
      { apply Hl. apply elem_of_app. right. by left. }
      { apply NoDup_app in Hn as (_ & Hd & _). intros H. apply (Hd _ H). by left. }
      { intros x Hx. apply Hl. apply elem_of_app. by left. }
      cbn [mbind option_bind]. destruct (IH (P ++ [d]) F1 Ed1 m1 H1 H2) as (m2 & F2 & Ed2 & E & A1 & A2 & A3).
      { by rewrite <- app_assoc. } { by rewrite <- app_assoc. }
      exists m2, F2, Ed2. split; [done|]. split; [done|]. rewrite <- app_assoc in A2. split; [done|]. by eapply frame_trans.
  Qed.

  (** ** The whole loop. *)
  Context (v : N) (Vt3 : N → option (vertex V)).
  Context (Hv : ∃ vt, Vt3 v = Some vt ∧ w_tet (v_tet vt) = invalid_id).

  Definition cone_t w (t : tet T) : tet T :=
    set_v (w_edge w mod 4) v (set_locked ((w_edge w + 3) mod 4) false (set_locked ((w_edge w + 2) mod 4) false
      (set_locked ((w_edge w + 1) mod 4) false (set_tdup false (set_tbound false t))))).
  Lemma same_cone w t t' : same_but_opp t t' → same_but_opp (cone_t w t) (cone_t w t').
  Proof. intros (E1 & E2 & E3 & E4). unfold same_but_opp, cone_t. cbn. by rewrite E1, E2, E3, E4. Qed.
  Lemma same_trans t1 t2 t3 : same_but_opp (T := T) t1 t2 → same_but_opp t2 t3 → same_but_opp t1 t3.
  Proof. intros (?&?&?&?) (?&?&?&?). repeat split; congruence. Qed.

  Definition clearE Ed (l : list N) e : option uedge := if decide (e ∈ l) then set_ebound false <$> Ed e else Ed e.
  Lemma clearE_Some Ed l e : is_Some (Ed e) → is_Some (clearE Ed l e).
  Proof. unfold clearE. intros [ue ->]. destruct (decide _); eauto. Qed.
  Lemma clearE_app Ed l l' e : clearE (clearE Ed l) l' e = clearE Ed (l ++ l') e.
  Proof.
    unfold clearE. destruct (decide (e ∈ l')) as [H|H], (decide (e ∈ l)) as [H'|H'].
    - rewrite decide_True by (apply elem_of_app; tauto). by destruct (Ed e).
    - rewrite decide_True by (apply elem_of_app; tauto). done.
    - rewrite decide_True by (apply elem_of_app; tauto). done.
    - rewrite decide_False by (rewrite elem_of_app; tauto). done.
  Qed.
  Lemma put_false_s nt ne L F Ed Vt gf tm m w : st nt ne L F Ed Vt gf tm m → w_tet w ∈ L → is_Some (Ed (uv F w)) →
    ∃ m', put_ebound false m w = Some m' ∧ st nt ne L F (clearE Ed [uv F w]) Vt gf tm m'.
  Proof.
    clear. intros H Hw [ue He]. destruct (put_ebound_s _ _ _ _ _ _ _ _ _ _ _ _ w ue false H Hw He) as (m' & E & H'). exists m'. split; [done|].
    eapply st_ext; [..|exact H']; try done. intros x. unfold eupd, clearE. destruct (decide (x = uv F w)) as [->|Hx].
    - rewrite decide_True by by apply elem_of_list_singleton. by rewrite He.
    - by rewrite decide_False by by rewrite elem_of_list_singleton.
  Qed.

  Definition refd Vt (l : list (N * walker)) (x : N) : option (vertex V) := (λ vt, vset (last_ref l x (v_tet vt)) vt) <$> Vt x.
  Lemma refd_snoc Vt l x0 w x : vupd (refd Vt l) x0 (vset w) x = refd Vt (l ++ [(x0, w)]) x.
  Proof.
    clear. unfold vupd, refd. destruct (Vt x) as [vt|]; cbn; [|by destruct (decide _)].
    assert (∀ l y, last_ref (l ++ [(x0, w)]) x y = if decide (x = x0) then w else last_ref l x y) as E.
    { intros l'. induction l' as [|[a b] l' IH]; intros y; [done|]. cbn. by rewrite IH. }
    rewrite E. by destruct (decide (x = x0)).
  Qed.
  Lemma last_ref_in l x y : x ∈ l.*1 → (x, last_ref l x y) ∈ l.
  Proof.
    clear. revert y. induction l as [|[a b] l IH]; intros y; [by intros ?%elem_of_nil|]. cbn. rewrite elem_of_cons.
    destruct (decide (x ∈ l.*1)) as [H|H]; intros Hx.
    - apply elem_of_cons. right. by apply IH.
    - destruct Hx as [->|]; [|done]. rewrite last_ref_out by done. rewrite decide_True by done. by left.
  Qed.

  Record cones (P : list walker) F Ed (l : list (N * walker)) : Prop := Cones {
    cn_todo w : w ∈ B → w ∉ P → same_but_opp (F3 (w_tet w)) (F (w_tet w));
    cn_done w : w ∈ P → same_but_opp (cone_t w (F3 (w_tet w))) (F (w_tet w));
    cn_O id : id ∈ O → same_but_opp (F3 id) (F id);
    cn_E e : (λ ue, (ue_vs ue, ue_locked ue)) <$> Ed e = (λ ue, (ue_vs ue, ue_locked ue)) <$> Ed3 e;
    cn_b e ue : Ed e = Some ue → ue_boundary ue = if decide (e ∈ κ <$> darts P) then false else isb (Ed3 e);
    cn_l x u : (x, u) ∈ l → (u ∈ darts P ∧ x = q0 (vv F3 u)) ∨ (x = v ∧ ∃ w, w ∈ P ∧ u = to_perm w P3210);
    cn_ref d : d ∈ darts P → q0 (vv F3 d) ∈ l.*1;
    cn_v w : w ∈ P → v ∈ l.*1 }.

  Lemma joins_ext P F Ed F' Ed' : (∀ id, t_opp (F' id) = t_opp (F id) ∧ t_edges (F' id) = t_edges (F id)) →
    (∀ e, ue_bw <$> Ed' e = ue_bw <$> Ed e) → joins P F Ed → joins P F' Ed'.
  Proof.
    clear. intros HF HE [J1 J2 J3 J4 J5 J6 J7 J8].
    assert (∀ e ue, Ed' e = Some ue → ∃ ue0, Ed e = Some ue0 ∧ ue_bw ue = ue_bw ue0) as HE'.
    { intros e ue H. specialize (HE e). rewrite H in HE. destruct (Ed e) as [ue0|]; [|done]. injection HE as HE. eauto. }
    split.
    - intros id. by rewrite (proj2 (HF id)).
    - intros id Hid. rewrite (proj1 (HF id)). by apply J2.
    - intros id Hid. unfold oppok. rewrite (proj1 (HF id)). by apply J3.
    - intros w Hw. rewrite (proj1 (HF _)). by apply J4.
    - intros d d' Hd Hd' Hm. rewrite <- (J5 d d' Hd Hd' Hm). unfold av. by rewrite (proj1 (HF _)).
    - intros d Hd. destruct (J6 d Hd) as [ue Hue]. specialize (HE (κ d)). rewrite Hue in HE. destruct (Ed' (κ d)); [eauto|done].
    - intros d ue Hd Hno (ue0 & H1 & ->)%HE'. by apply J7.
    - intros e ue (ue0 & H1 & ->)%HE'. by apply J8.
  Qed.
  Lemma clear_bw Ed l e : ue_bw <$> clearE Ed l e = ue_bw <$> Ed e.
  Proof. clear. unfold clearE. destruct (decide _); [|done]. by destruct (Ed e). Qed.
  Lemma vv_cone F w d : w_edge w < 12 → d ∈ [w; to_nfe w; to_pfe w] → t_vs (F (w_tet w)) = set4 (t_vs (F3 (w_tet w))) (w_edge w mod 4) v →
    vv F d = A4 (q0 (vv F3 d)) (q1 (vv F3 d)) (q2 (vv F3 d)) v.
  Proof.
    clear. intros Hw Hd E. unfold vv. rewrite (dart_tet _ _ Hd), E.
    assert (w_edge w mod 4 = w_edge d mod 4) as ->.
    { rewrite !elem_of_cons, elem_of_nil in Hd. destruct Hd as [->|[->|[->|[]]]]; [done|..]; cbn [w_edge to_nfe to_pfe].
      - by rewrite nfe_mod4.
      - by rewrite pfe_mod4. }
    apply set_fourth. by eapply dart_edge.
  Qed.

  Lemma cone_s nt ne gf tm P F Ed l m w :
    st nt ne L F Ed (refd Vt3 l) gf tm m → joins (darts P) F Ed → cones P F Ed l → NoDup (darts (P ++ [w])) →
    w ∈ B → w ∉ P → (∀ x, x ∈ P → x ∈ B) →
    ∃ m' F' Ed' l', cone_tri v m w = Some m' ∧ st nt ne L F' Ed' (refd Vt3 l') gf tm m' ∧
      joins (darts (P ++ [w])) F' Ed' ∧ cones (P ++ [w]) F' Ed' l'.
  Proof.
    intros Hst Hj [C1 C2 C3 C4 C5 C6 C7 C8] Hndd Hw HwP HP. destruct (HB w Hw) as (Hwe & HwO & Hwi).
    assert (w_tet w ∈ L) as HwL. { apply elem_of_union_r, elem_of_list_to_set. by apply elem_of_list_fmap_1. }
    assert (∀ d, d ∈ [w; to_nfe w; to_pfe w] → d ∈ D) as HdD.
    { intros d Hd. apply elem_darts. exists w. rewrite !elem_of_cons, elem_of_nil in Hd. tauto. }
    assert (∀ d, d ∈ [w; to_nfe w; to_pfe w] → is_Some (Ed (κ d))) as HdE.
    { intros d Hd. apply (jo_ex _ _ _ Hj). by apply HdD. }
    unfold cone_tri.
    destruct (upd_s _ _ _ _ _ _ _ _ _ _ _ _ (w_tet w) (λ t, set_tdup false (set_tbound false t)) Hst HwL) as (m1 & -> & H1). cbn [mbind option_bind].
    set (F1 := fupd F (w_tet w) _) in *.
    assert (∀ d, uv F1 d = κ d) as Eu1.
    { intros d. unfold uv, F1, fupd. destruct (decide _) as [->|]; cbn; by rewrite (jo_es _ _ _ Hj). }
    destruct (put_false_s _ _ _ _ _ _ _ _ _ w H1) as (m2 & -> & H2); [done|rewrite Eu1; apply HdE; by left|]. cbn [mbind option_bind].
    destruct (put_false_s _ _ _ _ _ _ _ _ _ (to_nfe w) H2) as (m3 & -> & H3); [done|rewrite !Eu1; apply clearE_Some, HdE; by right; left|]. cbn [mbind option_bind].
    destruct (put_false_s _ _ _ _ _ _ _ _ _ (to_pfe w) H3) as (m4 & -> & H4); [done|rewrite !Eu1; apply clearE_Some, clearE_Some, HdE; by right; right; left|]. cbn [mbind option_bind].
    clear H1 H2 H3 m1 m2 m3.
    assert (st nt ne L F1 (clearE Ed (κ <$> [w; to_nfe w; to_pfe w])) (refd Vt3 l) gf tm m4) as H4'.
    { eapply st_ext; [..|exact H4]; try done. intros e. by rewrite !clearE_app, !Eu1. }
    clear H4. set (Ed1 := clearE Ed _) in *.
    match goal with |- context [tet_upd m4 (w_tet w) ?f] =>
      destruct (upd_s _ _ _ _ _ _ _ _ _ _ _ _ (w_tet w) f H4' HwL) as (m5 & -> & H5) end. cbn [mbind option_bind].
    destruct (upd_s _ _ _ _ _ _ _ _ _ _ _ _ (w_tet w) (set_v (w_edge w mod 4) v) H5 HwL) as (m6 & -> & H6). cbn [mbind option_bind].
    assert (st nt ne L (fupd F (w_tet w) (cone_t w (F (w_tet w)))) Ed1 (refd Vt3 l) gf tm m6) as H6'.
    { eapply st_ext; [..|exact H6]; try done. intros x _. unfold F1, fupd. destruct (decide (x = w_tet w)) as [->|]; [|done].
      rewrite !decide_True by done. done. }
    clear H4' H5 H6 m4 m5. set (F2 := fupd F (w_tet w) (cone_t w (F (w_tet w)))) in *.
    rewrite (st_V _ _ _ _ _ _ _ _ _ _ _ _ H6'). destruct Hv as (vt & Ev & Ei). unfold refd at 1. rewrite Ev. cbn [fmap option_fmap option_map mbind option_bind vset v_tet].
    (* the reference of the new vertex *)
    set (l1 := if N.eqb (w_tet (last_ref l v (v_tet vt))) invalid_id then l ++ [(v, to_perm w P3210)] else l).
    set (m7 := if N.eqb (w_tet (last_ref l v (v_tet vt))) invalid_id then _ else _).
    assert (st nt ne L F2 Ed1 (refd Vt3 l1) gf tm m7) as H7.
    { unfold l1, m7. destruct (N.eqb _ _).
      2:{ idtac. exact H6'. } eapply st_ext; [..|exact (vref_s _ _ _ _ _ _ _ _ _ _ _ _ v (to_perm w P3210) H6')]; try done.
      intros x. apply refd_snoc. }
    clearbody m7. clear H6' m6.
    assert (v ∈ l1.*1 ∧ (∀ p, p ∈ l → p ∈ l1) ∧ (∀ p, p ∈ l1 → p ∈ l ∨ p = (v, to_perm w P3210))) as (Hl1 & Hl2 & Hl3).
    { unfold l1. destruct (N.eqb_spec (w_tet (last_ref l v (v_tet vt))) invalid_id) as [E|E].
      - split; [rewrite fmap_app, elem_of_app; right; by left|]. split.
        + intros p Hp. apply elem_of_app. by left.
        + intros p [Hp|Hp%elem_of_list_singleton]%elem_of_app; tauto.
      - split; [|tauto]. destruct (decide (v ∈ l.*1)) as [|H]; [done|]. rewrite last_ref_out in E by done. done. }
    clearbody l1.
    assert (∀ d, d ∈ [w; to_nfe w; to_pfe w] → vv F2 d = A4 (q0 (vv F3 d)) (q1 (vv F3 d)) (q2 (vv F3 d)) v) as Hvv.
    { intros d Hd. apply (vv_cone F2 w); [done|done|]. unfold F2, fupd. rewrite decide_True by done. cbn.
      by rewrite (proj1 (C1 w Hw HwP)). }
    rewrite (mv_tri _ _ _ w (st_mv _ _ _ _ _ _ _ _ _ _ _ _ H7) HwL). unfold tri3. rewrite (Hvv w) by by left. cbn [mbind option_bind q0 q1 q2].
    pose proof (vref_s _ _ _ _ _ _ _ _ _ _ _ _ (q0 (vv F3 w)) w H7) as H8.
    pose proof (vref_s _ _ _ _ _ _ _ _ _ _ _ _ (q1 (vv F3 w)) (to_nfe w) H8) as H9.
    pose proof (vref_s _ _ _ _ _ _ _ _ _ _ _ _ (q2 (vv F3 w)) (to_pfe w) H9) as H10.
    set (m10 := vert_ref _ _ (to_pfe w)) in *. clearbody m10.
    set (l2 := l1 ++ ((λ d, (q0 (vv F3 d), d)) <$> [w; to_nfe w; to_pfe w])).
    assert (st nt ne L F2 Ed1 (refd Vt3 l2) gf tm m10) as H10'.
    { eapply st_ext; [..|exact H10]; try done. intros x. unfold l2. cbn [fmap list_fmap].
      change [(q0 (vv F3 w), w); (q0 (vv F3 (to_nfe w)), to_nfe w); (q0 (vv F3 (to_pfe w)), to_pfe w)] with
        ([(q0 (vv F3 w), w)] ++ [(q0 (vv F3 (to_nfe w)), to_nfe w)] ++ [(q0 (vv F3 (to_pfe w)), to_pfe w)]). rewrite !app_assoc.
      rewrite <- refd_snoc. rewrite vv_nfe, vv_pfe by done. cbn [q0]. unfold vupd at 1 4. destruct (decide _) as [->|]; [f_equal|].
      - rewrite <- refd_snoc. unfold vupd at 1 3. destruct (decide _) as [E|]; [f_equal|]; by rewrite <- refd_snoc.
      - rewrite <- refd_snoc. unfold vupd at 1 3. destruct (decide _) as [E|]; [f_equal|]; by rewrite <- refd_snoc. }
    clear H7 H8 H9 H10.
    destruct (joins_s nt ne _ gf tm [w; to_nfe w; to_pfe w] (darts P) F2 Ed1 m10 H10') as (m11 & F4 & Ed4 & E11 & H11 & Hj11 & [Fr1 Fr2]).
    { eapply joins_ext; [..|exact Hj].
      - intros id. unfold F2, fupd. destruct (decide _) as [->|]; done.
      - intros e. apply clear_bw. }
    { rewrite darts_app in Hndd. exact Hndd. }
    { intros x Hx. apply elem_of_app in Hx as [Hx|Hx]; [|by apply HdD]. apply elem_darts in Hx as (y & Hy & Hx). apply elem_darts.
      exists y. split; [by apply HP|done]. }
    exists m11, F4, Ed4, l2. split; [exact E11|]. split; [exact H11|]. split; [by rewrite darts_app|].
    assert (κ <$> darts (P ++ [w]) = (κ <$> darts P) ++ (κ <$> [w; to_nfe w; to_pfe w])) as Eκ by (rewrite darts_app, fmap_app; done).
    split.
    - intros x Hx HxP. apply not_elem_of_app in HxP as [HxP Hxw]. eapply same_trans; [|apply Fr1].
      unfold F2. rewrite fupd_ne; [by apply C1|]. intros E. apply Hxw. apply elem_of_list_singleton. by apply B_tet.
    - intros x [Hx|Hx%elem_of_list_singleton]%elem_of_app; (eapply same_trans; [|apply Fr1]).
      + unfold F2. rewrite fupd_ne; [by apply C2|]. intros E. apply HwP. apply B_tet in E; [by subst|by apply HP|done].
      + subst x. unfold F2, fupd. rewrite decide_True by done. apply same_cone. by apply C1.
    - intros id Hid. eapply same_trans; [|apply Fr1]. unfold F2. rewrite fupd_ne; [by apply C3|]. by intros ->.
    - intros e. specialize (Fr2 e). rewrite <- C4. unfold Ed1, clearE in Fr2.
      destruct (Ed4 e) as [ue4|], (Ed e) as [ue|]; destruct (decide _); cbn in *; congruence.
    - intros e ue4 H4. specialize (Fr2 e). rewrite H4 in Fr2. unfold Ed1, clearE in Fr2.
      destruct (Ed e) as [ue|] eqn:Ee; [|by destruct (decide _)]. pose proof (C5 e ue Ee) as C5'. rewrite Eκ.
      destruct (decide (e ∈ κ <$> [w; to_nfe w; to_pfe w])) as [Hin|Hin].
      + rewrite decide_True by (apply elem_of_app; tauto). cbn in Fr2. congruence.
      + cbn in Fr2. injection Fr2 as F1' F2' F3'. rewrite F2', C5'. destruct (decide (e ∈ κ <$> darts P)) as [H|H].
        * by rewrite decide_True by (apply elem_of_app; tauto).
        * by rewrite decide_False by (rewrite elem_of_app; tauto).
    - intros x u Hin. unfold l2 in Hin. apply elem_of_app in Hin as [Hin|Hin].
      + destruct (Hl3 _ Hin) as [H|[= -> ->]].
        * destruct (C6 x u H) as [[H1 ->]|[-> (y & Hy & ->)]]; [left|right].
          -- rewrite darts_app, elem_of_app. tauto.
          -- split; [done|]. exists y. rewrite elem_of_app. tauto.
        * right. split; [done|]. exists w. split; [|done]. apply elem_of_app. right. by left.
      + left. apply elem_of_list_fmap in Hin as (d & [= -> ->] & Hd). split; [|done]. rewrite darts_app, elem_of_app. by right.
    - intros d Hd. rewrite darts_app, elem_of_app in Hd. unfold l2. rewrite fmap_app, elem_of_app. destruct Hd as [Hd|Hd].
      + left. apply C7 in Hd. apply elem_of_list_fmap in Hd as ([a b] & E & Hd). apply elem_of_list_fmap. exists (a, b). split; [done|]. by apply Hl2.
      + right. apply elem_of_list_fmap. exists (q0 (vv F3 d), d). split; [done|]. apply elem_of_list_fmap. by exists d.
    - intros x Hx. unfold l2. rewrite fmap_app, elem_of_app. by left.
  Qed.
  Lemma darts_nodup l : NoDup (w_tet <$> l) → (∀ w, w ∈ l → w_edge w < 12) → NoDup (darts l).
  Proof.
    clear. induction l as [|w l IH]; intros H1 H2; [apply NoDup_nil_2|]. cbn in H1. apply NoDup_cons in H1 as [H1 H3].
    change (NoDup ([w; to_nfe w; to_pfe w] ++ darts l)). apply NoDup_app. split; [|split].
    - assert (w_edge w < 12) as He by (apply H2; by left). destruct w as [t e]. cbn [w_edge] in He. rewrite <- (bool_decide_spec (NoDup _)).
      case12 e He; unfold to_nfe, to_pfe; cbn; apply bool_decide_spec; repeat constructor; rewrite ?elem_of_cons, ?elem_of_nil; intuition congruence.
    - intros d Hd Hd'. apply H1. rewrite <- (dart_tet _ _ Hd). apply elem_darts in Hd' as (x & Hx & E). apply elem_of_list_fmap. exists x.
      split; [|done]. destruct E as [->|[->| ->]]; done.
    - apply IH; [done|]. intros x Hx. apply H2. by right.
  Qed.
  Lemma cones_s nt ne gf tm l0 : ∀ P F Ed l m, P ++ l0 = B →
    st nt ne L F Ed (refd Vt3 l) gf tm m → joins (darts P) F Ed → cones P F Ed l →
    ∃ m' F' Ed' l', mfoldl (cone_tri v) l0 m = Some m' ∧ st nt ne L F' Ed' (refd Vt3 l') gf tm m' ∧
      joins D F' Ed' ∧ cones B F' Ed' l'.
  Proof.
    induction l0 as [|w l0 IH]; intros P F Ed l m HBP Hst Hj Hc; cbn [mfoldl].
    - rewrite app_nil_r in HBP. subst P. exists m, F, Ed, l. done.
    - assert (w ∈ B) as Hw by (rewrite <- HBP; apply elem_of_app; right; by left).
      destruct (cone_s nt ne gf tm P F Ed l m w Hst Hj Hc) as (m1 & F1 & Ed1 & l1 & -> & A1 & A2 & A3).
      + apply darts_nodup.
        * rewrite <- HBP in Hnd. rewrite (fmap_app w_tet P), (fmap_cons w_tet w l0) in Hnd. rewrite fmap_app. cbn.
          apply NoDup_app in Hnd as (N1 & N2 & N3). apply NoDup_app. split; [done|]. split; [|apply NoDup_singleton].
          intros x Hx Hx'%elem_of_list_singleton. apply (N2 _ Hx). rewrite Hx'. by left.
        * intros x Hx. apply HB. rewrite <- HBP. rewrite !elem_of_app, ?elem_of_cons in *. rewrite elem_of_nil in Hx. tauto.
      + done.
      + intros Hin. rewrite <- HBP in Hnd. rewrite (fmap_app w_tet P), (fmap_cons w_tet w l0) in Hnd. apply NoDup_app in Hnd as (N1 & N2 & N3).
        apply (N2 (w_tet w)); [by apply elem_of_list_fmap_1|by left].
      + intros x Hx. rewrite <- HBP. apply elem_of_app. by left.
      + cbn [mbind option_bind]. eapply (IH (P ++ [w])); [by rewrite <- app_assoc|done..].
  Qed.
End cone.
