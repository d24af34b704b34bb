(** Quality flips keep the meshed region if its boundary is locked. *)
From Coq Require Import NArith ZArith Lia.
From stdpp Require Import base numbers list gmap option relations.
From Verif Require Import IdMapModel IdMapProofs WalkerModel WalkerSpec WalkerProofs MeshModel WalkerMore MeshSpec MeshOps
  FlipBase FlipSpec Flip44Ok HistSpec History FlipMore GeoModel GeoSpec Volume QualModel QualSpec QualProofs QualTerm.
Local Open Scope nat_scope.

Section hull.
  Context {V T F : Type} (ar : qarith F) (Hsim : sim_even ar) (Hlt : lt_order ar).
  Implicit Types (m : mesh V T) (w : walker).
  Context (Hinf : ∀ q, qa_lt ar (qa_inf ar) q = false).

  Lemma ghost_corner m w vs t : valid m w → w_verts m w = Some vs → tet_get m (w_tet w) = Some t → (GHOST ∈ list4 (t_vs t) ↔ GHOST ∈ list4 vs).
  Proof.
    intros Hw Ev Ht. destruct (wverts_in m w vs Hw Ev) as (vs' & E1 & E2). unfold vs_of in E1.
    rewrite Ht in E1. apply (inj Some) in E1. subst vs'. symmetry. apply E2.
  Qed.

  Lemma keeps_hull m m' old new ea ed : mesh_ok m → mesh_ok m' → replaces m m' old new ea ed → hull_locked m → ghosts_best ar m →
    (∀ id, id ∈ old → ¬ is_ghost_tet m id) → (∀ id vs, (id, vs) ∈ new → GHOST ∉ list4 vs) →
    same_ghost_tets m m' ∧ hull_locked m' ∧ ghosts_best ar m'.
  Proof.
    intros Hok Hok' Hr Hl Hb Hold Hnew.
    assert (∀ id, is_ghost_tet m' id → id ∉ old ∧ id ∉ new.*1) as Hout'.
    { intros id (t & Ht & Hg).
      assert (id ∉ new.*1) as Hn. { intros ([k vs] & -> & Hin)%elem_of_list_fmap. pose proof (rp_new _ _ _ _ _ _ Hr k vs Hin) as E.
        cbn in Ht. rewrite Ht in E. apply (inj Some) in E. apply (Hnew k vs Hin). by rewrite <- E. }
      split; [|done]. intros Ho. pose proof (rp_gone _ _ _ _ _ _ Hr id Ho Hn) as E. by rewrite E in Ht. }
    assert (∀ id, is_ghost_tet m id → id ∉ old ∧ id ∉ new.*1) as Hout.
    { intros id Hg. assert (id ∉ old) as Ho by (intros Ho; by apply (Hold id Ho)). split; [done|]. intros Hn.
      destruct Hg as (t & Ht & _). pose proof (rp_fresh _ _ _ _ _ _ Hr id Hn Ho) as E. by rewrite E in Ht. }
    assert (∀ id, id ∉ old → id ∉ new.*1 → t_vs <$> tet_get m' id = t_vs <$> tet_get m id ∧ t_flags <$> tet_get m' id = t_flags <$> tet_get m id) as Hsame.
    { intros id Ho Hn. pose proof (rp_out _ _ _ _ _ _ Hr id Ho Hn) as H. destruct (tet_get m' id), (tet_get m id); try done. cbn in H |- *.
      injection H as -> _ -> _. done. }
    assert (∀ id, is_ghost_tet m id ↔ is_ghost_tet m' id) as Hgt.
    { intros id. split; intros Hg.
      - destruct (Hout id Hg) as [Ho Hn]. destruct Hg as (t & Ht & Hg). destruct (Hsame id Ho Hn) as [E _]. rewrite Ht in E.
        destruct (tet_get m' id) as [t'|] eqn:Ht'; [|done]. apply (inj Some) in E. exists t'. split; [done|]. by rewrite E.
      - destruct (Hout' id Hg) as [Ho Hn]. destruct Hg as (t & Ht & Hg). destruct (Hsame id Ho Hn) as [E _]. rewrite Ht in E.
        destruct (tet_get m id) as [t'|] eqn:Ht'; [|done]. apply (inj Some) in E. exists t'. split; [done|]. by rewrite <- E. }
    split; [|split].
    - intros id vs Hg. split; intros E.
      + assert (is_ghost_tet m id) as Hi. { destruct (tet_get m id) as [t|] eqn:Et; [|done]. exists t. split; [done|]. apply (inj Some) in E. by rewrite E. }
        destruct (Hout id Hi) as [Ho Hn]. by rewrite (proj1 (Hsame id Ho Hn)).
      + assert (is_ghost_tet m' id) as Hi. { destruct (tet_get m' id) as [t|] eqn:Et; [|done]. exists t. split; [done|]. apply (inj Some) in E. by rewrite E. }
        destruct (Hout' id Hi) as [Ho Hn]. by rewrite <- (proj1 (Hsame id Ho Hn)).
    - intros w o Hw Ho Hg Hs. destruct (Hout' _ Hg) as [Go Gn]. destruct (Hsame _ Go Gn) as [Ev Ef].
      assert (valid m w) as Hwm. { split; [|apply Hw]. destruct (proj2 (Hgt _) Hg) as (t & Ht & _). eauto. }
      assert (∀ u, is_ghost_tet m' (w_tet u) → w_verts m' u = w_verts m u) as Hvv.
      { intros u Hu. destruct (Hout' _ Hu) as [Uo Un]. destruct (Hsame _ Uo Un) as [E _].
        destruct (tet_get m' (w_tet u)) as [t'|] eqn:E', (tet_get m (w_tet u)) as [t|] eqn:E0; [| |done|].
        - apply (inj Some) in E. rewrite (w_verts_eq m' u t' E'), (w_verts_eq m u t E0), E. done.
        - done.
        - destruct Hu as (? & ? & _). congruence. }
      assert (w_locked m' w = w_locked m w) as ->.
      { unfold w_locked. destruct (tet_get m' (w_tet w)) as [t'|], (tet_get m (w_tet w)) as [t|]; try done. apply (inj Some) in Ef. cbn. by rewrite Ef. }
      destruct (wverts_ex m w Hwm) as (a & b & c & d & Evm). destruct (ok_adj m Hok w a b c d Hwm Evm) as (om & x & A1 & A2 & A3 & _).
      apply (Hl w om Hwm A1); [by apply Hgt|]. intros Hgo.
      assert (valid m' om) as Vo. { split; [|apply A2]. destruct (proj1 (Hgt _) Hgo) as (t & Ht & _). eauto. }
      pose proof (Hvv w Hg) as E1. rewrite Evm in E1. pose proof (Hvv om (proj1 (Hgt _) Hgo)) as E2. rewrite A3 in E2.
      destruct (adj_info m' w o a b c d Hok' Hw E1 Ho) as (Vo' & [x' E3] & _).
      assert (om = o) as <- by exact (tri_same m' om o b a c x x' Hok' Vo Vo' E2 E3). by apply Hs, Hgt.
    - intros id Hg. destruct (Hout' id Hg) as [Ho Hn]. destruct (Hsame id Ho Hn) as [E _].
      rewrite <- (Hb id (proj2 (Hgt id) Hg)). unfold tet_quality.
      destruct (tet_get m' id) as [t'|], (tet_get m id) as [t|]; try done. apply (inj Some) in E. cbn [mbind option_bind]. rewrite E.
      by eapply replaces_quality.
  Qed.

  Lemma ghost_dec m id : is_ghost_tet m id ∨ ¬ is_ghost_tet m id.
  Proof.
    unfold is_ghost_tet. destruct (tet_get m id) as [t|]; [|right; by intros (? & ? & _)].
    destruct (decide (GHOST ∈ list4 (t_vs t))); [left; eauto|right]. intros (? & [= <-] & ?). done.
  Qed.
  Lemma improves_no_ghost m m' old new n : ghosts_best ar m → improves ar m m' old new → n ∈ new → ∃ id, id ∈ old ∧ ¬ is_ghost_tet m id.
  Proof.
    intros Hb Hi Hn. destruct (im_worst _ _ _ _ _ Hi) as (id & q & Hid & Hq & _ & Hall). exists id. split; [done|]. intros Hg.
    rewrite (Hb id Hg) in Hq. injection Hq as <-. destruct (im_new_all _ _ _ _ _ Hi n Hn) as [q' Hq'].
    pose proof (Hall n q' Hn Hq') as H. by rewrite Hinf in H.
  Qed.
  (** Across an unlocked triangle both tets are solid or both are ghosts. *)
  Lemma unlocked_same m w o : mesh_ok m → valid m w → to_adj m w = Some o → hull_locked m → w_locked m w ≠ Some true →
    (is_ghost_tet m (w_tet w) ↔ is_ghost_tet m (w_tet o)).
  Proof.
    intros Hok Hw Ho Hl Hn. destruct (wverts_ex m w Hw) as (a & b & c & d & Ev). destruct (adj_info m w o a b c d Hok Hw Ev Ho) as (Hvo & _ & Ho').
    split; intros Hg.
    - destruct (ghost_dec m (w_tet o)) as [|H]; [done|]. exfalso. by apply Hn, (Hl w o).
    - destruct (ghost_dec m (w_tet w)) as [|H]; [done|]. exfalso. apply Hn. rewrite <- (ok_lock m Hok w o Hw Ho). by apply (Hl o w).
  Qed.

  Lemma qflip_hull m m' : mesh_ok m → hull_locked m → ghosts_best ar m → quality_flip ar m m' →
    mesh_ok m' ∧ same_ghost_tets m m' ∧ hull_locked m' ∧ ghosts_best ar m' ∧ solid_volume_x6 m' = solid_volume_x6 m.
  Proof.
    intros Hok Hl Hb [(w & ws & Hrd & Hroom & E)|(w & ws & Hrd & E)].
    - destruct (step23 m w Hok Hrd Hroom) as (m1 & ws1 & a & b & c & d & e & o & id2 & Eu & Hs & Hg & _).
      destruct (qual23 ar Hsim Hlt m w Hok Hrd (room_weaken m 2 1 1 1 (roomy_id m 1 1 Hroom) ltac:(lia) ltac:(lia)))
        as [[E' _]|(m2 & ws2 & o' & n & E' & Eu' & El & Hok' & Ho & Hi & _)];
        rewrite E in E'; [done|]. rewrite Eu in Eu'. injection Eu' as <- <-. injection E' as -> ->.
      destruct (fs23_other _ _ _ _ _ _ _ _ _ _ _ Hs) as [Ho' Evo]. rewrite Ho in Ho'. injection Ho' as ->.
      pose proof (fs23_self _ _ _ _ _ _ _ _ _ _ _ Hs) as Ev. pose proof (proj1 Hrd) as Hw.
      destruct (adj_info m w o a b c d Hok Hw Ev Ho) as (Hvo & _ & _).
      pose proof (unlocked_same m w o Hok Hw Ho Hl ltac:(congruence)) as Hgg.
      destruct (improves_no_ghost m m1 _ _ (w_tet w) Hb Hi ltac:(by left)) as (id & Hid & Hng).
      assert (¬ is_ghost_tet m (w_tet w) ∧ ¬ is_ghost_tet m (w_tet o)) as [G1 G2].
      { rewrite !elem_of_cons, elem_of_nil in Hid. destruct Hid as [->|[->|[]]]; tauto. }
      assert (GHOST ∉ list4 (A4 a b c d)) as C1.
      { intros Hc. apply G1. pose proof Hw as [[t Ht] _]. exists t. split; [done|]. by apply (ghost_corner m w _ t Hw Ev Ht). }
      assert (GHOST ∉ list4 (A4 b a c e)) as C2.
      { intros Hc. apply G2. pose proof Hvo as [[t Ht] _]. exists t. split; [done|]. by apply (ghost_corner m o _ t Hvo Evo Ht). }
      pose proof (fs23_repl _ _ _ _ _ _ _ _ _ _ _ Hs) as Hr.
      destruct (keeps_hull m m1 _ _ _ _ Hok Hok' Hr Hl Hb) as (K1 & K2 & K3).
      { intros k Hk. rewrite !elem_of_cons, elem_of_nil in Hk. destruct Hk as [->|[->|[]]]; done. }
      { intros k vs Hk. rewrite !elem_of_cons, elem_of_nil in Hk. rewrite elem_list4 in C1, C2. cbn in C1, C2.
        destruct Hk as [[= -> ->]|[[= -> ->]|[[= -> ->]|[]]]]; rewrite elem_list4; cbn; tauto. }
      split; [done|]. split; [done|]. split; [done|]. split; [done|].
      pose proof (step23_vol m w m1 ws1 a b c d e o id2 Hok Hw Hs Hok') as Hv.
      pose proof (solid_hull m). pose proof (solid_hull m1). pose proof (vs_sum _ _ Hv).
      pose proof (hull_same m m1 Hok Hok' (vs_pos _ _ Hv) K1). lia.
    - destruct (step32 m w Hok Hrd) as (m1 & ws1 & p & q & x & y & z & o1 & o2 & Eu & Hs & Hg & _).
      destruct (qual32 ar Hsim Hlt m w Hok Hrd) as [[E' _]|(m2 & ws2 & o1' & o2' & E' & Eu' & El & Hok' & R1 & R2 & Hi & _)];
        rewrite E in E'; [done|]. rewrite Eu in Eu'. injection Eu' as <- <-. injection E' as -> ->.
      destruct (fs32_other1 _ _ _ _ _ _ _ _ _ _ _ Hs) as [R1' E1]. rewrite R1 in R1'. injection R1' as ->.
      destruct (fs32_other2 _ _ _ _ _ _ _ _ _ _ _ Hs) as [R2' E2]. rewrite R2 in R2'. injection R2' as ->.
      pose proof (fs32_self _ _ _ _ _ _ _ _ _ _ _ Hs) as Ev. pose proof (proj1 Hrd) as Hw.
      destruct (ring_info m w o1 p q x y Hok Hw Ev R1) as (V1 & _). destruct (ring_info m o1 o2 p q y z Hok V1 E1 R2) as (V2 & _).
      assert (∀ u u', valid m u → ring_next m u = Some u' → w_locked m u' ≠ Some true → (is_ghost_tet m (w_tet u) ↔ is_ghost_tet m (w_tet u'))) as Hnx.
      { intros u u' Hu Ru Lu. unfold ring_next in Ru. pose proof (valid_twin m u Hu) as Ht.
        destruct (wverts_ex m _ Ht) as (? & ? & ? & ? & Et). destruct (adj_info m _ u' _ _ _ _ Hok Ht Et Ru) as (Vu' & _ & _).
        pose proof (unlocked_same m (to_twin_edge u) u' Hok Ht Ru Hl) as H. cbn in H. apply H.
        by rewrite <- (ok_lock m Hok _ u' Ht Ru). }
      assert (w_locked m o1 ≠ Some true ∧ w_locked m o2 ≠ Some true) as [L1 L2].
      { split; intros HL; apply El; exists o1, o2; tauto. }
      pose proof (Hnx w o1 Hw R1 L1) as N1. pose proof (Hnx o1 o2 V1 R2 L2) as N2.
      destruct (improves_no_ghost m m1 _ _ (w_tet w) Hb Hi ltac:(by left)) as (id & Hid & Hng).
      assert (¬ is_ghost_tet m (w_tet w) ∧ ¬ is_ghost_tet m (w_tet o1) ∧ ¬ is_ghost_tet m (w_tet o2)) as (G1 & G2 & G3).
      { rewrite !elem_of_cons, elem_of_nil in Hid. destruct Hid as [->|[->|[->|[]]]]; tauto. }
      assert (GHOST ∉ list4 (A4 p q x y)) as C1.
      { intros Hc. apply G1. pose proof Hw as [[t Ht] _]. exists t. split; [done|]. by apply (ghost_corner m w _ t Hw Ev Ht). }
      assert (GHOST ∉ list4 (A4 p q y z)) as C2.
      { intros Hc. apply G2. pose proof V1 as [[t Ht] _]. exists t. split; [done|]. by apply (ghost_corner m o1 _ t V1 E1 Ht). }
      pose proof (fs32_repl _ _ _ _ _ _ _ _ _ _ _ Hs) as Hr.
      destruct (keeps_hull m m1 _ _ _ _ Hok Hok' Hr Hl Hb) as (K1 & K2 & K3).
      { intros k Hk. rewrite !elem_of_cons, elem_of_nil in Hk. destruct Hk as [->|[->|[->|[]]]]; done. }
      { intros k vs Hk. rewrite !elem_of_cons, elem_of_nil in Hk. rewrite elem_list4 in C1, C2. cbn in C1, C2.
        destruct Hk as [[= -> ->]|[[= -> ->]|[]]]; rewrite elem_list4; cbn; tauto. }
      split; [done|]. split; [done|]. split; [done|]. split; [done|].
      pose proof (step32_vol m w m1 ws1 p q x y z o1 o2 Hok Hw Hs Hok') as Hv.
      pose proof (solid_hull m). pose proof (solid_hull m1). pose proof (vs_sum _ _ Hv).
      pose proof (hull_same m m1 Hok Hok' (vs_pos _ _ Hv) K1). lia.
  Qed.

  Lemma qflips_hull m m' : mesh_ok m → hull_locked m → ghosts_best ar m → rtc (quality_flip ar) m m' →
    same_ghost_tets m m' ∧ solid_volume_x6 m' = solid_volume_x6 m.
  Proof.
    intros Hok Hl Hb Hr. induction Hr as [m|m m1 m' H1 Hr IH]; [done|].
    destruct (qflip_hull m m1 Hok Hl Hb H1) as (Hok1 & S1 & Hl1 & Hb1 & E1). destruct (IH Hok1 Hl1 Hb1) as [S2 E2].
    split; [|congruence]. intros id vs Hg. rewrite (S1 id vs Hg). by apply S2.
  Qed.
End hull.
