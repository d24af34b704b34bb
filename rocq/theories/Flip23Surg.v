(** The 2-to-3 flip is a local replacement. *)
From stdpp Require Import base numbers list gmap option relations.
From Coq Require Import NArith ZArith ZifyN ZifyNat ZifyBool Lia.
From Verif Require Import IdMapModel IdMapSpec IdMapProofs IdMapMore WalkerModel WalkerSpec WalkerProofs SortProofs
  MeshModel WalkerMore MeshSpec MeshViews Surgery MeshLink MeshRun FlipBase FlipRun Flip23.
Local Open Scope nat_scope.

Section flip23.
  Context {V T : Type}.
  Implicit Types (m : mesh V T) (F G : N → tet T) (w u : walker) (L O K : gset N) (id : N).

  Lemma f23_surgery L F self id2 e G O F' v0 v1 v2 v3 v4 :
    vok L F → vd L self → relinked F G (f23_links F self id2) →
    f23_shape L F self id2 e G O F' v0 v1 v2 v3 v4 →
    (∀ id, id ∈ O → v3 ∈ list4 (t_vs (F id)) → v4 ∈ list4 (t_vs (F id)) → False) →
    surgery O {[w_tet self; w_tet (av F self)]} F (list_to_set [w_tet self; w_tet (av F self); id2]) F'.
  Proof.
    intros Hok Hself Hrl [Hat Hab Es Eo F0 F1 F2 HFO EL HD N2 (D01&D02&D12) (Q01&Q02&Q03&Q12&Q13&Q23&Q04&Q14&Q24&Q34) Hatt Habt HopO] Hnj.
    destruct (vo_adj _ _ Hok self Hself) as [Hoth _].
    pose proof (Hat 0 ltac:(lia)) as (At0 & Bt0 & Ct0). pose proof (Hat 1 ltac:(lia)) as (At1 & Bt1 & Ct1).
    pose proof (Hat 2 ltac:(lia)) as (At2 & Bt2 & Ct2).
    pose proof (Hab 0 ltac:(lia)) as (Ab0 & Bb0 & Cb0). pose proof (Hab 1 ltac:(lia)) as (Ab1 & Bb1 & Cb1).
    pose proof (Hab 2 ltac:(lia)) as (Ab2 & Bb2 & Cb2).
    pose proof (Hatt 0 ltac:(lia)) as Et0. pose proof (Hatt 1 ltac:(lia)) as Et1. pose proof (Hatt 2 ltac:(lia)) as Et2.
    pose proof (Habt 0 ltac:(lia)) as Eb0. pose proof (Habt 1 ltac:(lia)) as Eb1. pose proof (Habt 2 ltac:(lia)) as Eb2.
    assert (∀ p, vd L (to_perm self p)) as Hvp by (intros p; by apply vd_perm).
    assert (∀ p, vd L (to_perm (av F self) p)) as Hvo by (intros p; by apply vd_perm).
    assert (∀ a u, (a, u) ∈ f23_links F self id2 → w_tet (av F a) = w_tet self ∨ w_tet (av F a) = w_tet (av F self)) as Hlk.
    { intros a u Hin. unfold f23_links in Hin. rewrite !elem_of_cons, elem_of_nil in Hin.
      destruct Hin as [[= -> ->]|[[= -> ->]|[[= -> ->]|[[= -> ->]|[[= -> ->]|[[= -> ->]|[]]]]]]];
        rewrite ?Ct0, ?Ct1, ?Ct2, ?Cb0, ?Cb1, ?Cb2; tauto. }
    unfold f23_tet in F0, F1, F2. cbn [nth] in *.
    assert (∀ p, av F (to_perm self p) = f23_at F self 0 ↔ av F (to_perm self p) = f23_at F self 0) as _ by done.
    assert (av F (to_perm self P1032) = f23_at F self 0) as Dt0 by done.
    assert (av F (to_perm self P0231) = f23_at F self 1) as Dt1 by done.
    assert (av F (to_perm self P2130) = f23_at F self 2) as Dt2 by done.
    assert (av F (to_perm (av F self) P1032) = f23_ab F self 0) as Db0 by done.
    assert (av F (to_perm (av F self) P2130) = f23_ab F self 1) as Db1 by done.
    assert (av F (to_perm (av F self) P0231) = f23_ab F self 2) as Db2 by done.
    assert (av F (to_perm self P0123) = av F self) as Ds by (by rewrite to_perm_id by apply Hself).
    assert (av F (to_perm (av F self) P0123) = self) as Do.
    { rewrite to_perm_id by apply Hoth. by apply (av_av L). }
    assert (∀ w p, w_edge w < 12 → vv F (to_perm w p) = reorder (vv F w) (perm_digits p)) as Hperm by (intros; by apply vv_perm).
    assert (∀ w, vd L w → lv F (av F w) = lv F w) as Hlock by apply Hok.
    set (other := av F self) in *.
    set (id0 := w_tet self) in *. set (id1 := w_tet other) in *.
    set (at0 := f23_at F self 0) in *. set (at1 := f23_at F self 1) in *. set (at2 := f23_at F self 2) in *.
    set (ab0 := f23_ab F self 0) in *. set (ab1 := f23_ab F self 1) in *. set (ab2 := f23_ab F self 2) in *.
    clearbody at0 at1 at2 ab0 ab1 ab2. clear Hat Hab Hatt Habt.
    set (K := {[id0; id1]} : gset N) in *. set (K' := list_to_set [id0; id1; id2] : gset N) in *.
    assert (∀ id, id ∈ K ↔ id = id0 ∨ id = id1) as HK.
    { intros id. unfold K. by rewrite elem_of_union, !elem_of_singleton. }
    assert (∀ id, id ∈ K' ↔ id = id0 ∨ id = id1 ∨ id = id2) as HK'.
    { intros id. unfold K'. rewrite elem_of_list_to_set, !elem_of_cons, elem_of_nil. tauto. }
    clearbody K K'.
    assert (∀ x, x ∈ O → x ≠ id0 ∧ x ≠ id1 ∧ x ≠ id2) as HOne.
    { intros x Hx. assert (x ∉ K) as Hxk by (intros H; by apply (HD x)). rewrite HK in Hxk.
      split; [tauto|]. split; [tauto|]. congruence. }
    assert (∀ id, id ∈ O → t_vs (F' id) = t_vs (F id)) as Hvs.
    { intros id Hid. rewrite HFO by done. apply (rl_rest _ _ _ Hrl id). }
    assert (∀ id, id ∈ K' → oppok F' id) as HopK'.
    { intros id Hid%HK' i Hi.
      destruct Hid as [-> | [-> | -> ]]; rewrite ?F0, ?F1, ?F2; case4 i Hi; cbn; try lia;
        first [apply At0|apply At1|apply At2|apply Ab0|apply Ab1|apply Ab2]. }
    (* vertices of the replaced tets *)
    assert (∀ x, x ∈ list4 (t_vs (F id0)) ↔ x = v0 ∨ x = v1 ∨ x = v2 ∨ x = v3) as HV0.
    { intros x. unfold id0. rewrite <- (vv_elem F self) by apply Hself. rewrite Es, elem_list4. cbn. tauto. }
    assert (∀ x, x ∈ list4 (t_vs (F id1)) ↔ x = v0 ∨ x = v1 ∨ x = v2 ∨ x = v4) as HV1.
    { intros x. unfold id1. rewrite <- (vv_elem F other) by apply Hoth. rewrite Eo, elem_list4. cbn. tauto. }
    split.
    - exact HD.
    - intros x Hx Hx'%HK'. destruct (HOne x Hx) as (?&?&?). tauto.
    - exact Hvs.
    - intros id Hid. rewrite HFO by done. destruct (rl_rest _ _ _ Hrl id) as (_&_&E&_). by rewrite E.
    - apply (sg_out_relinked O K F G F' _ Hrl HFO HD).
      intros a u Hau. apply HK. by apply (Hlk a u).
    - apply (sg_bd_faces O K); [done|by rewrite <- EL|done|].
      assert (∀ a id i vs, av F' a = Walker id i → id ∈ K' → i < 12 → vv F' (Walker id i) = vs →
         tri3 (vv F a) = (q1 vs, q0 vs, q2 vs) → lv F' (Walker id i) = lv F a → sg_bdP K' F F' a) as Hbd.
      { intros a id i vs E3 Hid Hi <- Htw Hl. unfold sg_bdP. rewrite E3. split; [done|]. split; [|done].
        unfold tri3 in Htw. unfold twist. split; [congruence|]. split; congruence. }
      Ltac bdt := lazymatch goal with |- vv _ _ = _ => unfold vv | |- _ => unfold lv at 1 end; cbn [w_tet w_edge];
        match goal with H : ?F' ?id = Tet _ _ _ _ _ |- context [?F' ?id] => rewrite H end; reflexivity.
      intros id Hid%HK. destruct Hid as [-> | -> ].
      + exists self. split; [done|]. split; [apply Hself|]. intros p Hp.
        rewrite !elem_of_cons, elem_of_nil in Hp.
        destruct Hp as [-> | [-> | [-> | [-> | []]]]].
        * rewrite Ds. intros Hin. destruct (HD id1); [done|]. apply HK. by right.
        * intros _. rewrite Dt0. eapply (Hbd _ id0 3 _ Bt0); [apply HK'; clear; tauto|clear; lia|bdt|exact Et0|bdt].
        * intros _. rewrite Dt1. eapply (Hbd _ id1 3 _ Bt1); [apply HK'; clear; tauto|clear; lia|bdt|exact Et1|bdt].
        * intros _. rewrite Dt2. eapply (Hbd _ id2 3 _ Bt2); [apply HK'; clear; tauto|clear; lia|bdt|exact Et2|bdt].
      + exists other. split; [done|]. split; [apply Hoth|]. intros p Hp.
        rewrite !elem_of_cons, elem_of_nil in Hp.
        destruct Hp as [-> | [-> | [-> | [-> | []]]]].
        * rewrite Do. intros Hin. destruct (HD id0); [done|]. apply HK. by left.
        * intros _. rewrite Db0. eapply (Hbd _ id0 2 _ Bb0); [apply HK'; clear; tauto|clear; lia|bdt|exact Eb0|bdt].
        * intros _. rewrite Db2. eapply (Hbd _ id2 2 _ Bb2); [apply HK'; clear; tauto|clear; lia|bdt|exact Eb2|bdt].
        * intros _. rewrite Db1. eapply (Hbd _ id1 2 _ Bb1); [apply HK'; clear; tauto|clear; lia|bdt|exact Eb1|bdt].
    - intros id Hid%HK'.
      destruct Hid as [-> | [-> | -> ]]; rewrite ?F0, ?F1, ?F2; apply NoDup4; cbn; repeat split; congruence.
    - apply (sg_faces O K); [done..|]. intros id i Hid%HK' Hi.
      assert (∀ u, v3 ∈ [q0 (vv F' u); q1 (vv F' u); q2 (vv F' u)] → v4 ∈ [q0 (vv F' u); q1 (vv F' u); q2 (vv F' u)] →
        ∀ w, vd O w → tri3 (vv F w) ≠ tri3 (vv F' u)) as Hno.
      { intros u Hu3 Hu4 w Hw E. apply (Hnj _ (proj1 Hw)); rewrite <- (vv_elem F w) by apply Hw; rewrite elem_list4;
        apply tri3_eq in E as (E1 & E2 & E3); rewrite E1, E2, E3; rewrite !elem_of_cons, elem_of_nil in Hu3, Hu4; tauto. }
      destruct (decide (i < 2)) as [Hi2|Hi2].
      + left. unfold sg_inner. split; [|split; [|split; [|apply Hno]]];
        unfold vd, twist, vv, lv, av; cbn [w_tet w_edge]; clear Hno;
        (destruct i as [|[|]]; [| |exfalso; clear -Hi2; lia]); destruct Hid as [-> | [-> | -> ]];
        rewrite ?F0, ?F1, ?F2;
        cbn; rewrite ?HK', ?F0, ?F1, ?F2; cbn; rewrite ?elem_of_cons;
        clear; try tauto; try (split; [tauto|lia]); try (repeat split; reflexivity).
      + right. unfold sg_outer.
        assert (∀ a y, av F' (Walker id i) = a → vd O a → av F a = y → w_tet y ∈ K → av F' a = Walker id i →
          vd O (av F' (Walker id i)) ∧ w_tet (av F (av F' (Walker id i))) ∈ K ∧ av F' (av F' (Walker id i)) = Walker id i) as Hgo.
        { intros a y -> H1 -> H3 H4. done. }
        Ltac avt := unfold av; cbn [w_tet w_edge];
          match goal with H : ?F' ?id = Tet _ _ _ _ _ |- context [?F' ?id] => rewrite H end; reflexivity.
        clear Hno. assert (i = 2 ∨ i = 3) as [-> | -> ] by (clear -Hi Hi2; lia); destruct Hid as [-> | [-> | -> ]].
        * eapply (Hgo ab0); [avt|done|exact Cb0|apply HK; by right|done].
        * eapply (Hgo ab1); [avt|done|exact Cb1|apply HK; by right|done].
        * eapply (Hgo ab2); [avt|done|exact Cb2|apply HK; by right|done].
        * eapply (Hgo at0); [avt|done|exact Ct0|apply HK; by left|done].
        * eapply (Hgo at1); [avt|done|exact Ct1|apply HK; by left|done].
        * eapply (Hgo at2); [avt|done|exact Ct2|apply HK; by left|done].
    - intros A B HA%HK' HB%HK' HAB.
      assert (∃ i, i < 2 ∧ w_tet (av F' (Walker A i)) = B ∧ q3 (vv F' (Walker A i)) ∉ list4 (t_vs (F' B))) as (i & Hi & H1 & H2).
      { assert (∀ i, i < 12 → i < 12) as _ by done.
        destruct HA as [-> | [-> | -> ]], HB as [-> | [-> | -> ]]; try (by destruct HAB);
        [exists 0|exists 1|exists 1|exists 0|exists 0|exists 1]; (split; [clear; lia|]);
        unfold av, vv; cbn [w_tet w_edge]; rewrite ?F0, ?F1, ?F2; (split; [reflexivity|]);
        rewrite elem_list4; cbn; clear -Q01 Q02 Q03 Q12 Q13 Q23 Q04 Q14 Q24 Q34;
        intros [E|[E|[E|E]]]; congruence. }
      exists (Walker A i). split; [done|]. split; [cbn; lia|]. done.
    - intros id a b Hid%HK' Ha Hb Hab.
      assert (((a = v0 ∨ a = v1 ∨ a = v2 ∨ a = v3 ∨ a = v4) ∧ (b = v0 ∨ b = v1 ∨ b = v2 ∨ b = v3 ∨ b = v4))) as [Ha' Hb'].
      { rewrite elem_list4 in Ha, Hb.
        destruct Hid as [-> | [-> | -> ]]; rewrite ?F0, ?F1, ?F2 in Ha; rewrite ?F0, ?F1, ?F2 in Hb; cbn in Ha, Hb; clear -Ha Hb; tauto. }
      destruct (decide (a = v4)) as [->|Na4]; [|destruct (decide (b = v4)) as [->|Nb4]].
      + destruct (decide (b = v3)) as [->|]; [right; intros id1' H1 H2 H3; by apply (Hnj id1')|].
        left. exists id1. rewrite !HV1, HK. clear -Hb' n Hab. naive_solver.
      + destruct (decide (a = v3)) as [->|]; [right; intros id1' H1 H2 H3; by apply (Hnj id1')|].
        left. exists id1. rewrite !HV1, HK. clear -Ha' n Na4. tauto.
      + left. exists id0. rewrite !HV0, HK. clear -Ha' Hb' Na4 Nb4. tauto.
    - assert (∀ a b, (a = v0 ∨ a = v1 ∨ a = v2) → (b = v0 ∨ b = v1 ∨ b = v2 ∨ b = v3 ∨ b = v4) → a ≠ b →
        ∃ id0', id0' ∈ K' ∧ a ∈ list4 (t_vs (F' id0')) ∧ b ∈ list4 (t_vs (F' id0'))) as Hpair.
      { intros a b Ha Hb Hab.
        assert (∃ i, i < 3 ∧ (a = nth i [v0; v1; v2] 0%N ∨ a = nth i [v1; v2; v0] 0%N) ∧
          (b = nth i [v0; v1; v2] 0%N ∨ b = nth i [v1; v2; v0] 0%N ∨ b = v3 ∨ b = v4)) as (i & Hi & Ha' & Hb').
        { clear -Ha Hb. destruct Ha as [Ha|[Ha|Ha]], Hb as [Hb|[Hb|[Hb|[Hb|Hb]]]];
          first [exists 0; cbn; split; [lia|tauto]|exists 1; cbn; split; [lia|tauto]|exists 2; cbn; split; [lia|tauto]]. }
        exists (nth i [id0; id1; id2] 0%N). rewrite HK', !elem_list4.
        destruct i as [|[|[|]]]; [| | |exfalso; clear -Hi; lia]; cbn [nth] in *; rewrite ?F0, ?F1, ?F2; cbn; clear -Ha' Hb'; tauto. }
      intros id a b Hid%HK Ha Hb Hab. left.
      assert ((a = v0 ∨ a = v1 ∨ a = v2) ∨ (b = v0 ∨ b = v1 ∨ b = v2)) as Hor.
      { destruct Hid as [-> | -> ]; rewrite ?HV0, ?HV1 in Ha; rewrite ?HV0, ?HV1 in Hb.
        - clear -Ha Hb Hab. destruct Ha as [?|[?|[?|Ha]]], Hb as [?|[?|[?|Hb]]]; try tauto. congruence.
        - clear -Ha Hb Hab. destruct Ha as [?|[?|[?|Ha]]], Hb as [?|[?|[?|Hb]]]; try tauto. congruence. }
      assert (∀ x, x ∈ list4 (t_vs (F id)) → x = v0 ∨ x = v1 ∨ x = v2 ∨ x = v3 ∨ x = v4) as Hx.
      { intros x Hx. destruct Hid as [-> | -> ]; rewrite ?HV0, ?HV1 in Hx; clear -Hx; tauto. }
      destruct Hor as [Hor|Hor].
      + apply Hpair; [done|by apply Hx|done].
      + destruct (Hpair b a) as (i' & ?&?&?); [done|by apply Hx|congruence|]. by exists i'.
    - intros id a Hid%HK' Ha. left. destruct (decide (a = v4)) as [->|N4].
      + exists id1. rewrite HK, HV1. clear. tauto.
      + exists id0. rewrite HK, HV0. rewrite elem_list4 in Ha.
        destruct Hid as [-> | [-> | -> ]]; rewrite ?F0, ?F1, ?F2 in Ha; cbn in Ha; clear -Ha N4; tauto.
    - intros id a Hid%HK Ha. left. destruct (decide (a = v2)) as [->|N2'].
      + exists id1. rewrite HK', elem_list4, F1. cbn. clear. tauto.
      + exists id0. rewrite HK', elem_list4, F0. cbn.
        destruct Hid as [-> | -> ]; rewrite ?HV0, ?HV1 in Ha; clear -Ha N2'; tauto.
  Qed.
End flip23.
