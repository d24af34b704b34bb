(** The 3-to-2 flip is a local replacement. *)
From stdpp Require Import base numbers list gmap option relations.
From Coq Require Import NArith ZArith ZifyN ZifyNat ZifyBool Lia.
From Verif Require Import IdMapModel IdMapSpec IdMapProofs IdMapMore WalkerModel WalkerSpec WalkerProofs SortProofs
  MeshModel WalkerMore MeshSpec MeshViews Surgery MeshLink MeshRun FlipBase FlipRun Flip32.
Local Open Scope nat_scope.

Section flip32.
  Context {V T : Type}.
  Implicit Types (m : mesh V T) (F G : N → tet T) (w u : walker) (L O K : gset N) (id : N).

  Definition f32_K F (self : walker) : gset N := list_to_set [w_tet self; w_tet (f32_r F self 1); w_tet (f32_r F self 2)].
  Definition f32_K' F (self : walker) : gset N := list_to_set [w_tet self; w_tet (f32_r F self 1)].

  (** Only three tets contain the edge. *)
  Lemma f32_ring_all L F self v0 v1 v2 v3 v4 : vok L F → f32_ring L F self v0 v1 v2 v3 v4 → rn F (rn F (rn F self)) = self →
    ∀ id, id ∈ L → v3 ∈ list4 (t_vs (F id)) → v4 ∈ list4 (t_vs (F id)) → id ∈ f32_K F self.
  Proof.
    intros Hok [Hvd G0 _ _ Hnd _ _] Hb id Hid H3 H4.
    destruct (pair_of_tet F id v3 v4 H3 H4) as (w & W1 & W2 & W3 & W4); [tauto|].
    assert (vd L w) as Hw by (split; [by rewrite W1|done]).
    assert (rtsc (estep L F) self w) as Hr.
    { apply (vo_ring _ _ Hok); [apply (Hvd 0)|done|]. unfold pair2. rewrite G0, W3, W4. done. }
    assert (∀ x y, vd L x → vd L y → rn F x = rn F y → x = y) as Hinj.
    { intros x y Hx Hy E. unfold rn in E.
      rewrite <- (twin_twin x (proj2 Hx)), <- (twin_twin y (proj2 Hy)). f_equal.
      rewrite <- (av_av L F (to_twin_edge x)), <- (av_av L F (to_twin_edge y)) by (done || by apply vd_twin). by rewrite E. }
    assert (w = self ∨ w = rn F self ∨ w = rn F (rn F self)) as Hin.
    { pose proof (Hvd 0) as V0. pose proof (Hvd 1) as V1. pose proof (Hvd 2) as V2. cbn [f32_r] in V0, V1, V2.
      clear W1 W2 W3 W4 Hw. revert w Hr.
      apply (rtc_ind_r (λ w, w = self ∨ w = rn F self ∨ w = rn F (rn F self)) self); [by left|].
      intros x y _ Hr IH. destruct Hr as [[_ -> ]|[Hy Ex]].
      - destruct IH as [-> | [-> | -> ]]; [right; by left|right; by right|by left].
      - destruct IH as [E | [E | E]]; rewrite Ex in E.
        + right; right. apply Hinj; [done..|congruence].
        + left. by apply Hinj.
        + right; left. by apply Hinj. }
    unfold f32_K. rewrite elem_of_list_to_set, !elem_of_cons. rewrite <- W1. destruct Hin as [-> | [-> | -> ]]; cbn; tauto.
  Qed.

  (** What is known about the two new tets and the six outer neighbours. *)
  Record f32_shape L F (self : walker) G (O : gset N) F' (v0 v1 v2 v3 v4 : N) : Prop := F32Shape {
    s32_at i : i < 3 → vd O (f32_at F self i) ∧ av F' (f32_at F self i) = Walker (w_tet self) (nth i [2; 9; 4] 0) ∧
       av F (f32_at F self i) = to_perm (f32_r F self i) P2301;
    s32_ab i : i < 3 → vd O (f32_ab F self i) ∧ av F' (f32_ab F self i) = Walker (w_tet (f32_r F self 1)) (nth i [2; 4; 9] 0) ∧
       av F (f32_ab F self i) = to_perm (f32_r F self i) P3210;
    s32_F0 : F' (w_tet self) = f32_tet0 F (F (w_tet self)) v0 v1 v2 v3 (w_tet (f32_r F self 1)) (f32_at F self 0) (f32_at F self 1) (f32_at F self 2);
    s32_F1 : F' (w_tet (f32_r F self 1)) = f32_tet1 F (F (w_tet (f32_r F self 1))) v0 v1 v2 v4 (w_tet self) (f32_at F self 0) (f32_at F self 1) (f32_at F self 2)
       (f32_ab F self 0) (f32_ab F self 1) (f32_ab F self 2);
    s32_O x : x ∈ O → F' x = G x;
    s32_L : L = O ∪ f32_K F self;
    s32_disj : O ## f32_K F self;
    s32_att i : i < 3 → tri3 (vv F (f32_at F self i)) = (nth i [v0; v2; v1] 0%N, nth i [v1; v0; v2] 0%N, v3);
    s32_abt i : i < 3 → tri3 (vv F (f32_ab F self i)) = (nth i [v1; v0; v2] 0%N, nth i [v0; v2; v1] 0%N, v4);
    s32_opp id : id ∈ O → oppok F' id;
    s32_edge id : id ∈ O → v3 ∈ list4 (t_vs (F id)) → v4 ∈ list4 (t_vs (F id)) → False }.

  Lemma flip32_shape m L F self m' G v0 v1 v2 v3 v4 :
    vmesh m L F → f32_ring L F self v0 v1 v2 v3 v4 → rn F (rn F (rn F self)) = self → f32_result m L F self m' G →
    f32_shape L F self G (L ∖ f32_K F self) (ov (f32_tets F self) G) v0 v1 v2 v3 v4.
  Proof.
    intros Hvm Hring Hb Hres. destruct Hres as [Hst Hrl _ _ _ _ _ _ _ _ _ _].
    destruct Hvm as [Hmv Hwv Hwe Hwt Hg Hok Hex Heo Hvr Htm].
    pose proof (f32_ring_all L F self v0 v1 v2 v3 v4 Hok Hring Hb) as Hall.
    destruct Hring as [Hvd G0 G1 G2 Hnd Hnd3 Hout].
    set (O := L ∖ _). set (F' := ov _ G).
    assert (∀ id, id ∈ f32_K F self ↔ id ∈ [w_tet self; w_tet (f32_r F self 1); w_tet (f32_r F self 2)]) as HK.
    { intros id. unfold f32_K. by rewrite elem_of_list_to_set. }
    assert (∀ i p, i < 3 → p = P2301 ∨ p = P3210 → vd O (av F (to_perm (f32_r F self i) p))) as HvO.
    { intros i p Hi Hp. destruct (vo_adj _ _ Hok (to_perm (f32_r F self i) p)) as [[A1 A2] _]; [by apply vd_perm|].
      split; [|done]. unfold O. rewrite elem_of_difference, HK. split; [done|]. by apply Hout. }
    assert (∀ x, x ∈ O → F' x = G x) as HFO.
    { intros x Hx. unfold O in Hx. apply elem_of_difference in Hx as [Hx1 Hx2]. rewrite HK in Hx2.
      rewrite !not_elem_of_cons in Hx2. unfold F'. apply ov_out. cbn.
      rewrite !not_elem_of_cons. repeat split; [tauto|tauto|apply not_elem_of_nil]. }
    assert (NoDup (f32_tets F self).*1) as Hnd2.
    { apply NoDup_cons in Hnd3 as [D0 _]. apply not_elem_of_cons in D0 as [D01 _]. cbn.
      apply NoDup_cons. split; [by rewrite elem_of_list_singleton|]. apply NoDup_singleton. }
    assert (∀ a u, (a, u) ∈ f32_links F self → w_tet a ∈ O → av F' a = u) as Hlink.
    { intros a u Hin Ha. unfold av. rewrite HFO by done. by apply (rl_in _ _ _ Hrl). }
    split.
    - intros i Hi. split; [apply HvO; auto|].
      split; [apply Hlink; [|apply HvO; auto]|by apply (av_av L F); [|apply vd_perm]].
      unfold f32_links. rewrite !elem_of_cons. destruct i as [|[|[|]]]; [| | |lia]; cbn [nth]; tauto.
    - intros i Hi. split; [apply HvO; auto|].
      split; [apply Hlink; [|apply HvO; auto]|by apply (av_av L F); [|apply vd_perm]].
      unfold f32_links. rewrite !elem_of_cons. destruct i as [|[|[|]]]; [| | |lia]; cbn [nth]; tauto.
    - erewrite (ov_in (f32_tets F self) G _ _ 0); [|reflexivity|done]. rewrite G0, G1. reflexivity.
    - erewrite (ov_in (f32_tets F self) G _ _ 1); [|reflexivity|done]. rewrite G0, G1. reflexivity.
    - exact HFO.
    - apply set_eq. intros x. unfold O. rewrite elem_of_union, elem_of_difference.
      split; [intros Hx; destruct (decide (x ∈ f32_K F self)); tauto|].
      intros [[? _]|Hx%HK]; [done|]. rewrite !elem_of_cons, elem_of_nil in Hx.
      destruct Hx as [-> | [-> | [-> | []]]]; [apply (Hvd 0)|apply (Hvd 1)|apply (Hvd 2)].
    - unfold O. clear. set_solver.
    - intros i Hi. unfold f32_at.
      destruct (vo_adj _ _ Hok (to_perm (f32_r F self i) P2301)) as [_ (T1 & T2 & T3)]; [by apply vd_perm|].
      unfold tri3. rewrite T1, T2, T3. rewrite vv_perm by apply Hvd.
      destruct i as [|[|[|]]]; [| | |lia]; cbn [nth]; [cbn [f32_r]; rewrite G0|rewrite G1|rewrite G2]; done.
    - intros i Hi. unfold f32_ab.
      destruct (vo_adj _ _ Hok (to_perm (f32_r F self i) P3210)) as [_ (T1 & T2 & T3)]; [by apply vd_perm|].
      unfold tri3. rewrite T1, T2, T3. rewrite vv_perm by apply Hvd.
      destruct i as [|[|[|]]]; [| | |lia]; cbn [nth]; [cbn [f32_r]; rewrite G0|rewrite G1|rewrite G2]; done.
    - intros id Hid. assert (oppok G id) as H.
      { apply (rl_oppok _ _ _ Hrl). apply (vok_oppok L F); [done|]. unfold O in Hid. by apply elem_of_difference in Hid as [? _]. }
      intros i Hi. rewrite HFO by done. by apply H.
    - intros id Hid H3 H4. unfold O in Hid. apply elem_of_difference in Hid as [Hid1 Hid2]. apply Hid2. by apply Hall.
  Qed.

  Lemma f32_surgery L F self G O F' v0 v1 v2 v3 v4 :
    vok L F → f32_ring L F self v0 v1 v2 v3 v4 → relinked F G (f32_links F self) →
    f32_shape L F self G O F' v0 v1 v2 v3 v4 →
    (∀ id, id ∈ O → v0 ∈ list4 (t_vs (F id)) → v1 ∈ list4 (t_vs (F id)) → v2 ∈ list4 (t_vs (F id)) → False) →
    surgery O (f32_K F self) F (f32_K' F self) F'.
  Proof.
    intros Hok [Hvd G0 G1 G2 (Q01&Q02&Q03&Q12&Q13&Q23&Q04&Q14&Q24&Q34) Hnd3 _] Hrl [Hat Hab F0 F1 HFO EL HD Hatt Habt HopO Hedge] Hntri.
    pose proof (Hat 0 ltac:(lia)) as (At0 & Bt0 & Ct0). pose proof (Hat 1 ltac:(lia)) as (At1 & Bt1 & Ct1).
    pose proof (Hat 2 ltac:(lia)) as (At2 & Bt2 & Ct2).
    pose proof (Hab 0 ltac:(lia)) as (Ab0 & Bb0 & Cb0). pose proof (Hab 1 ltac:(lia)) as (Ab1 & Bb1 & Cb1).
    pose proof (Hab 2 ltac:(lia)) as (Ab2 & Bb2 & Cb2).
    pose proof (Hatt 0 ltac:(lia)) as Et0. pose proof (Hatt 1 ltac:(lia)) as Et1. pose proof (Hatt 2 ltac:(lia)) as Et2.
    pose proof (Habt 0 ltac:(lia)) as Eb0. pose proof (Habt 1 ltac:(lia)) as Eb1. pose proof (Habt 2 ltac:(lia)) as Eb2.
    pose proof (Hvd 0) as V0. pose proof (Hvd 1) as V1. pose proof (Hvd 2) as V2.
    assert (w_tet self ≠ w_tet (f32_r F self 1)) as D01.
    { apply NoDup_cons in Hnd3 as [D0 _]. by apply not_elem_of_cons in D0 as [? _]. }
    assert (∀ id, id ∈ f32_K F self ↔ id = w_tet self ∨ id = w_tet (f32_r F self 1) ∨ id = w_tet (f32_r F self 2)) as HK.
    { intros id. unfold f32_K. rewrite elem_of_list_to_set, !elem_of_cons, elem_of_nil. tauto. }
    assert (∀ id, id ∈ f32_K' F self ↔ id = w_tet self ∨ id = w_tet (f32_r F self 1)) as HK'.
    { intros id. unfold f32_K'. rewrite elem_of_list_to_set, !elem_of_cons, elem_of_nil. tauto. }
    assert (∀ a u, (a, u) ∈ f32_links F self → w_tet (av F a) ∈ f32_K F self) as Hlk.
    { intros a u Hin. unfold f32_links in Hin. rewrite !elem_of_cons, elem_of_nil in Hin. apply HK.
      destruct Hin as [[= -> ->]|[[= -> ->]|[[= -> ->]|[[= -> ->]|[[= -> ->]|[[= -> ->]|[]]]]]]];
        rewrite ?Ct0, ?Ct1, ?Ct2, ?Cb0, ?Cb1, ?Cb2; cbn; tauto. }
    unfold f32_tet0 in F0. unfold f32_tet1 in F1. cbn [nth] in *.
    (* the four faces of the old tets *)
    assert (∀ i, w_tet (av F (to_perm (f32_r F self i) P0123)) ∈ O ∨ w_tet (av F (to_perm (f32_r F self i) P1032)) ∈ O → False) as Hin.
    { intros i.
      assert (∀ p, (p = P0123 ∨ p = P1032) → w_tet (av F (to_perm (f32_r F self i) p)) ∈ O → False) as H.
      { intros p Hp HO. destruct (vo_adj _ _ Hok (to_perm (f32_r F self i) p)) as [Ha (T1 & T2 & _)]; [by apply vd_perm|].
        rewrite vv_perm in T1, T2 by apply Hvd.
        assert (q0 (vv F (f32_r F self i)) = v3 ∧ q1 (vv F (f32_r F self i)) = v4) as [E3 E4].
        { destruct i as [|[|i]]; [cbn [f32_r]; by rewrite G0|by rewrite G1|]. change (f32_r F self (S (S i))) with (f32_r F self 2). by rewrite G2. }
        apply (Hedge _ HO); rewrite <- vv_elem by apply Ha; rewrite elem_list4, T1, T2;
          destruct Hp as [-> | -> ]; cbn; rewrite E3, E4; tauto. }
      intros [HO|HO]; eapply H; [|exact HO| |exact HO]; auto. }
    assert (∀ i, i < 3 → av F (to_perm (f32_r F self i) P0231) = to_nfe (f32_at F self i)) as Hnf.
    { intros i Hi. unfold f32_at. rewrite <- av_pfe; [|apply to_perm_ok, Hvd|].
      2:{ apply (vok_oppok L F); [done|]. apply (Hvd i). }
      f_equal. pose proof (proj2 (Hvd i)) as He. destruct (f32_r F self i) as [id e]. cbn in He. unfold to_pfe. cbn [to_perm w_tet w_edge].
      clear -He. case12 e He; reflexivity. }
    assert (∀ i, i < 3 → av F (to_perm (f32_r F self i) P2130) = to_pfe (f32_ab F self i)) as Hpf.
    { intros i Hi. unfold f32_ab. rewrite <- av_nfe; [|apply to_perm_ok, Hvd|].
      2:{ apply (vok_oppok L F); [done|]. apply (Hvd i). }
      f_equal. pose proof (proj2 (Hvd i)) as He. destruct (f32_r F self i) as [id e]. cbn in He. unfold to_nfe. cbn [to_perm w_tet w_edge].
      clear -He. case12 e He; reflexivity. }
    pose proof (Hnf 0 ltac:(lia)) as Dt0. pose proof (Hnf 1 ltac:(lia)) as Dt1. pose proof (Hnf 2 ltac:(lia)) as Dt2.
    pose proof (Hpf 0 ltac:(lia)) as Db0. pose proof (Hpf 1 ltac:(lia)) as Db1. pose proof (Hpf 2 ltac:(lia)) as Db2.
    pose proof (Hin 0) as Hin0. pose proof (Hin 1) as Hin1. pose proof (Hin 2) as Hin2.
    change (f32_r F self 0) with self in *.
    set (K := f32_K F self) in *. set (K' := f32_K' F self) in *.
    set (o1 := f32_r F self 1) in *. set (o2 := f32_r F self 2) in *.
    set (id0 := w_tet self) in *. set (id1 := w_tet o1) in *. set (id2 := w_tet o2) in *.
    assert (∀ x, x ∈ list4 (t_vs (F id0)) ↔ x = v0 ∨ x = v1 ∨ x = v3 ∨ x = v4) as HV0.
    { intros x. unfold id0. rewrite <- (vv_elem F self) by apply V0. rewrite G0, elem_list4. cbn. tauto. }
    assert (∀ x, x ∈ list4 (t_vs (F id1)) ↔ x = v0 ∨ x = v2 ∨ x = v3 ∨ x = v4) as HV1.
    { intros x. unfold id1. rewrite <- (vv_elem F o1) by apply V1. rewrite G1, elem_list4. cbn. tauto. }
    assert (∀ x, x ∈ list4 (t_vs (F id2)) ↔ x = v1 ∨ x = v2 ∨ x = v3 ∨ x = v4) as HV2.
    { intros x. unfold id2. rewrite <- (vv_elem F o2) by apply V2. rewrite G2, elem_list4. cbn. tauto. }
    set (at0 := f32_at F self 0) in *. set (at1 := f32_at F self 1) in *. set (at2 := f32_at F self 2) in *.
    set (ab0 := f32_ab F self 0) in *. set (ab1 := f32_ab F self 1) in *. set (ab2 := f32_ab F self 2) in *.
    clearbody at0 at1 at2 ab0 ab1 ab2. clear Hat Hab Hatt Habt Hnf Hpf Hin.
    clearbody K K'.
    assert (∀ id, id ∈ O → t_vs (F' id) = t_vs (F id)) as Hvs.
    { intros id Hid. rewrite HFO by done. apply (rl_rest _ _ _ Hrl id). }
    assert (∀ id, id ∈ K' → oppok F' id) as HopK'.
    { intros id Hid%HK' i Hi.
      destruct Hid as [-> | -> ]; rewrite ?F0, ?F1; case4 i Hi; cbn [get4 t_opp q0 q1 q2 q3]; cbn [w_edge]; try lia;
        first [apply to_nfe_ok|apply to_pfe_ok|apply At0|apply Ab0]. }
    assert (∀ x, vd O x → vd O (to_nfe x)) as Hvn by (intros; by apply vd_nfe).
    split.
    - exact HD.
    - intros x Hx Hx'%HK'. apply (HD x Hx). apply HK. tauto.
    - exact Hvs.
    - intros id Hid. rewrite HFO by done. destruct (rl_rest _ _ _ Hrl id) as (_&_&E&_). by rewrite E.
    - by apply (sg_out_relinked O K F G F' _ Hrl HFO HD).
    - apply (sg_bd_faces O K); [done|by rewrite <- EL|done|].
      assert (∀ a id i vs, av F' a = Walker id i → id ∈ K' → i < 12 → vv F' (Walker id i) = vs →
         tri3 (vv F a) = (q1 vs, q0 vs, q2 vs) → lv F' (Walker id i) = lv F a → sg_bdP K' F F' a) as Hbd.
      { intros a id i vs E3 Hid Hi <- Htw Hl. unfold sg_bdP. rewrite E3. split; [done|]. split; [|done].
        unfold tri3 in Htw. unfold twist. split; [congruence|]. split; congruence. }
      assert (∀ a, vd O a → sg_bdP K' F F' a → sg_bdP K' F F' (to_nfe a)) as Hbn.
      { intros a Ha H. apply (sg_bdP_nfe O); [apply HopO, Ha|done|done]. }
      assert (∀ a, vd O a → sg_bdP K' F F' a → sg_bdP K' F F' (to_pfe a)) as Hbp.
      { intros a Ha H. rewrite <- nfe_nfe by apply Ha. apply Hbn; [by apply vd_nfe|]. by apply Hbn. }
      Ltac bdt := lazymatch goal with |- vv _ _ = _ => unfold vv | |- _ => unfold lv at 1 end; cbn [w_tet w_edge];
        match goal with H : ?F' ?id = Tet _ _ _ _ _ |- context [?F' ?id] => rewrite H end; reflexivity.
      Ltac bdl := unfold lv at 1; cbn [w_tet w_edge];
        match goal with H : ?F' ?id = Tet _ _ _ _ _ |- context [?F' ?id] => rewrite H end;
        cbn; rewrite ?lv_nfe, ?lv_pfe by match goal with H : vd _ ?a |- w_edge ?a < 12 => apply H end; reflexivity.
      intros id Hid%HK. destruct Hid as [-> | [-> | -> ]].
      + exists self. split; [done|]. split; [apply V0|]. intros p Hp.
        rewrite !elem_of_cons, elem_of_nil in Hp.
        destruct Hp as [-> | [-> | [-> | [-> | []]]]].
        * intros HO. destruct Hin0. by left.
        * intros HO. destruct Hin0. by right.
        * intros _. rewrite Dt0. apply Hbn; [done|]. eapply (Hbd _ id0 2 _ Bt0); [apply HK'; clear; tauto|clear; lia|bdt|exact Et0|bdl].
        * intros _. rewrite Db0. apply Hbp; [done|]. eapply (Hbd _ id1 2 _ Bb0); [apply HK'; clear; tauto|clear; lia|bdt|exact Eb0|bdl].
      + exists o1. split; [done|]. split; [apply V1|]. intros p Hp.
        rewrite !elem_of_cons, elem_of_nil in Hp.
        destruct Hp as [-> | [-> | [-> | [-> | []]]]].
        * intros HO. destruct Hin1. by left.
        * intros HO. destruct Hin1. by right.
        * intros _. rewrite Dt1. apply Hbn; [done|]. eapply (Hbd _ id0 9 _ Bt1); [apply HK'; clear; tauto|clear; lia|bdt|exact Et1|bdl].
        * intros _. rewrite Db1. apply Hbp; [done|]. eapply (Hbd _ id1 4 _ Bb1); [apply HK'; clear; tauto|clear; lia|bdt|exact Eb1|bdl].
      + exists o2. split; [done|]. split; [apply V2|]. intros p Hp.
        rewrite !elem_of_cons, elem_of_nil in Hp.
        destruct Hp as [-> | [-> | [-> | [-> | []]]]].
        * intros HO. destruct Hin2. by left.
        * intros HO. destruct Hin2. by right.
        * intros _. rewrite Dt2. apply Hbn; [done|]. eapply (Hbd _ id0 4 _ Bt2); [apply HK'; clear; tauto|clear; lia|bdt|exact Et2|bdl].
        * intros _. rewrite Db2. apply Hbp; [done|]. eapply (Hbd _ id1 9 _ Bb2); [apply HK'; clear; tauto|clear; lia|bdt|exact Eb2|bdl].
    - intros id Hid%HK'.
      destruct Hid as [-> | -> ]; rewrite ?F0, ?F1; apply NoDup4; cbn; repeat split; congruence.
    - apply (sg_faces O K); [done..|]. intros id i Hid%HK' Hi.
      destruct (decide (i = 3)) as [-> |Hi3].
      + left. unfold sg_inner. split; [|split; [|split]].
        * destruct Hid as [-> | -> ]; unfold vd, av; cbn [w_tet w_edge]; rewrite ?F0, ?F1; cbn; rewrite HK'; clear; (split; [tauto|lia]).
        * destruct Hid as [-> | -> ]; unfold twist, vv, av; cbn [w_tet w_edge]; rewrite ?F0, ?F1; cbn; rewrite ?F0, ?F1; cbn; repeat split; reflexivity.
        * destruct Hid as [-> | -> ]; unfold lv, av; cbn [w_tet w_edge]; rewrite ?F0, ?F1; cbn; rewrite ?F0, ?F1; cbn; reflexivity.
        * intros w Hw E. apply tri3_eq in E as (E1 & E2 & E3).
          assert (∀ x, x = v0 ∨ x = v1 ∨ x = v2 → x ∈ list4 (t_vs (F (w_tet w)))) as Hm.
          { intros x Hx. rewrite <- (vv_elem F w) by apply Hw. rewrite elem_list4, E1, E2, E3.
            destruct Hid as [-> | -> ]; unfold vv; cbn [w_tet w_edge]; rewrite ?F0, ?F1; cbn; clear -Hx; tauto. }
          apply (Hntri _ (proj1 Hw)); apply Hm; clear; tauto.
      + right. unfold sg_outer.
        assert (∀ a y, av F' (Walker id i) = a → vd O a → av F a = y → w_tet y ∈ K → av F' a = Walker id i →
          vd O (av F' (Walker id i)) ∧ w_tet (av F (av F' (Walker id i))) ∈ K ∧ av F' (av F' (Walker id i)) = Walker id i) as Hgo.
        { intros a y -> H1 -> H3 H4. done. }
        assert (∀ a k j, vd O a → av F' a = Walker k j → av F' (to_nfe a) = to_pfe (Walker k j) ∧ av F' (to_pfe a) = to_nfe (Walker k j)) as Hrot.
        { intros a k j Ha E. rewrite av_nfe, av_pfe, E by (apply Ha || apply HopO, Ha). done. }
        assert (∀ a y, vd O a → av F a = y → w_tet y ∈ K → (∃ y', av F (to_nfe a) = y' ∧ w_tet y' ∈ K) ∧ (∃ y', av F (to_pfe a) = y' ∧ w_tet y' ∈ K)) as HrK.
        { intros a y Ha <- Hy. split; eexists; (split; [reflexivity|]); [rewrite av_tet_nfe by apply Ha|rewrite av_tet_pfe by apply Ha]; done. }
        assert (∀ y, w_tet y = id0 ∨ w_tet y = id1 ∨ w_tet y = id2 → w_tet y ∈ K) as HyK by (intros; by apply HK).
        Ltac avt := unfold av; cbn [w_tet w_edge];
          match goal with H : ?F' ?id = Tet _ _ _ _ _ |- context [?F' ?id] => rewrite H end; reflexivity.
        assert (i = 0 ∨ i = 1 ∨ i = 2) as [-> | [-> | -> ]] by (clear -Hi Hi3; lia); destruct Hid as [-> | -> ].
        * destruct (HrK at2 _ At2 Ct2 ltac:(apply HyK; cbn; tauto)) as [(y & Y1 & Y2) _].
          eapply (Hgo (to_nfe at2)); [avt|by apply vd_nfe|exact Y1|done|]. by rewrite (proj1 (Hrot _ _ _ At2 Bt2)).
        * destruct (HrK ab1 _ Ab1 Cb1 ltac:(apply HyK; cbn; tauto)) as [(y & Y1 & Y2) _].
          eapply (Hgo (to_nfe ab1)); [avt|by apply vd_nfe|exact Y1|done|]. by rewrite (proj1 (Hrot _ _ _ Ab1 Bb1)).
        * destruct (HrK at1 _ At1 Ct1 ltac:(apply HyK; cbn; tauto)) as [_ (y & Y1 & Y2)].
          eapply (Hgo (to_pfe at1)); [avt|by apply vd_pfe|exact Y1|done|]. by rewrite (proj2 (Hrot _ _ _ At1 Bt1)).
        * destruct (HrK ab2 _ Ab2 Cb2 ltac:(apply HyK; cbn; tauto)) as [_ (y & Y1 & Y2)].
          eapply (Hgo (to_pfe ab2)); [avt|by apply vd_pfe|exact Y1|done|]. by rewrite (proj2 (Hrot _ _ _ Ab2 Bb2)).
        * eapply (Hgo at0); [avt|done|exact Ct0|apply HyK; cbn; tauto|done].
        * eapply (Hgo ab0); [avt|done|exact Cb0|apply HyK; cbn; tauto|done].
    - intros A B HA%HK' HB%HK' HAB.
      exists (Walker A 3). split; [done|]. split; [cbn; lia|].
      destruct HA as [-> | -> ], HB as [-> | -> ]; try (by destruct HAB);
      unfold av, vv; cbn [w_tet w_edge]; rewrite ?F0, ?F1; (split; [reflexivity|]);
      rewrite elem_list4; cbn; clear -Q01 Q02 Q03 Q12 Q13 Q23 Q04 Q14 Q24 Q34;
      intros [E|[E|[E|E]]]; congruence.
    - assert (∀ a b, (a = v0 ∨ a = v1 ∨ a = v2) → (b = v0 ∨ b = v1 ∨ b = v2 ∨ b = v3 ∨ b = v4) →
        ∃ id0', id0' ∈ K ∧ a ∈ list4 (t_vs (F id0')) ∧ b ∈ list4 (t_vs (F id0'))) as Hpair.
      { intros a b Ha Hb.
        assert ((a = v0 ∨ a = v1) ∧ b ≠ v2 ∨ (a = v0 ∨ a = v2) ∧ b ≠ v1 ∨ (a = v1 ∨ a = v2) ∧ b ≠ v0) as Hc.
        { clear -Ha Hb Q01 Q02 Q12 Q03 Q13 Q23 Q04 Q14 Q24. destruct Ha as [Ha|[Ha|Ha]], Hb as [Hb|[Hb|[Hb|[Hb|Hb]]]]; subst;
          first [left; split; [tauto|congruence]|right; left; split; [tauto|congruence]|right; right; split; [tauto|congruence]]. }
        destruct Hc as [[Ha' Hb']|[[Ha' Hb']|[Ha' Hb']]]; [exists id0|exists id1|exists id2]; rewrite HK, ?HV0, ?HV1, ?HV2; clear -Ha' Hb' Hb; tauto. }
      intros id a b Hid%HK' Ha Hb Hab. left.
      assert ((a = v0 ∨ a = v1 ∨ a = v2) ∨ (b = v0 ∨ b = v1 ∨ b = v2)) as Hor.
      { rewrite elem_list4 in Ha, Hb. destruct Hid as [-> | -> ]; rewrite ?F0, ?F1 in Ha; rewrite ?F0, ?F1 in Hb; cbn in Ha, Hb;
        clear -Ha Hb Hab; naive_solver. }
      assert (∀ x, x ∈ list4 (t_vs (F' id)) → x = v0 ∨ x = v1 ∨ x = v2 ∨ x = v3 ∨ x = v4) as Hx.
      { intros x Hx. rewrite elem_list4 in Hx. destruct Hid as [-> | -> ]; rewrite ?F0, ?F1 in Hx; cbn in Hx; clear -Hx; tauto. }
      destruct Hor as [Hor|Hor].
      + apply Hpair; [done|by apply Hx].
      + destruct (Hpair b a) as (i' & ?&?&?); [done|by apply Hx|]. by exists i'.
    - intros id a b Hid%HK Ha Hb Hab.
      assert (∀ x, x ∈ list4 (t_vs (F id)) → x = v0 ∨ x = v1 ∨ x = v2 ∨ x = v3 ∨ x = v4) as Hx.
      { intros x Hx. destruct Hid as [-> | [-> | -> ]]; rewrite ?HV0, ?HV1, ?HV2 in Hx; clear -Hx; tauto. }
      pose proof (Hx a Ha) as Ha'. pose proof (Hx b Hb) as Hb'.
      destruct (decide (a = v3 ∧ b = v4 ∨ a = v4 ∧ b = v3)) as [[[-> -> ]|[-> -> ]]|Hn].
      + right. intros id' H1 H2 H3. by apply (Hedge id').
      + right. intros id' H1 H2 H3. by apply (Hedge id').
      + left. destruct (decide (a = v4 ∨ b = v4)) as [Hd|Hd]; [exists id1|exists id0]; rewrite HK', !elem_list4, ?F0, ?F1; cbn;
        clear -Ha' Hb' Hn Hd Hab; naive_solver.
    - intros id a Hid%HK' Ha. left. rewrite elem_list4 in Ha.
      destruct (decide (a = v2)) as [->|N2]; [exists id1|exists id0]; rewrite HK, ?HV0, ?HV1; (split; [tauto|]);
      destruct Hid as [-> | -> ]; rewrite ?F0, ?F1 in Ha; cbn in Ha; tauto.
    - intros id a Hid%HK Ha. left.
      destruct (decide (a = v4)) as [->|N4]; [exists id1|exists id0]; rewrite HK', elem_list4, ?F0, ?F1; cbn; (split; [tauto|]);
      destruct Hid as [-> | [-> | -> ]]; rewrite ?HV0, ?HV1, ?HV2 in Ha; first [clear -Ha N4; tauto|clear -Ha; tauto].
  Qed.
End flip32.
