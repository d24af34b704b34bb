(** The 3-to-2 flip on a consistent mesh. *)
From stdpp Require Import base numbers list gmap option relations.
From Coq Require Import NArith ZArith ZifyN ZifyNat ZifyBool Lia.
From Verif Require Import IdMapModel IdMapSpec IdMapProofs IdMapMore WalkerModel WalkerSpec WalkerProofs SortProofs
  MeshModel WalkerMore MeshSpec MeshViews Surgery MeshLink MeshRun FlipBase FlipRun.
Local Open Scope nat_scope.

Section flip32.
  Context {V T : Type}.
  Implicit Types (m : mesh V T) (F G : N → tet T) (w u : walker) (L O K : gset N) (id : N).

  (** The three walkers around the edge. *)
  Definition f32_r F (self : walker) (i : nat) : walker :=
    match i with 0 => self | 1 => rn F self | _ => rn F (rn F self) end.
  Definition f32_at F (self : walker) (i : nat) : walker := av F (to_perm (f32_r F self i) P2301).
  Definition f32_ab F (self : walker) (i : nat) : walker := av F (to_perm (f32_r F self i) P3210).

  (** The two tets after the flip. *)
  Definition f32_tet0 F (t : tet T) (v0 v1 v2 v3 id1 : N) (a0 a1 a2 : walker) : tet T :=
    Tet (A4 v0 v1 v2 v3) (A4 (to_nfe a2) (to_pfe a1) a0 (Walker id1 3))
      (A6 (uv F (to_pfe a1)) (uv F a0) (uv F a2) (uv F (to_pfe a0)) (uv F (to_pfe a2)) (uv F a1))
      (lk4 (t_flags t) (A4 (lv F (to_nfe a2)) (lv F (to_pfe a1)) (lv F a0) false)) (t_val t).
  Definition f32_tet1 F (t : tet T) (v0 v1 v2 v4 id0 : N) (a0 a1 a2 b0 b1 b2 : walker) : tet T :=
    Tet (A4 v1 v0 v2 v4) (A4 (to_nfe b1) (to_pfe b2) b0 (Walker id0 3))
      (A6 (uv F (to_nfe b1)) (uv F a0) (uv F a1) (uv F (to_nfe b2)) (uv F (to_nfe b0)) (uv F a2))
      (lk4 (t_flags t) (A4 (lv F (to_nfe b1)) (lv F (to_pfe b2)) (lv F b0) false)) (t_val t).
  Definition f32_tets F (self : walker) : list (N * tet T) :=
    let at' := f32_at F self in let ab := f32_ab F self in
    let id0 := w_tet self in let id1 := w_tet (f32_r F self 1) in
    let v3 := q0 (vv F self) in let v4 := q1 (vv F self) in let v1 := q2 (vv F self) in
    let v0 := q3 (vv F self) in let v2 := q3 (vv F (f32_r F self 1)) in
    [(id0, f32_tet0 F (F id0) v0 v1 v2 v3 id1 (at' 0) (at' 1) (at' 2));
     (id1, f32_tet1 F (F id1) v0 v1 v2 v4 id0 (at' 0) (at' 1) (at' 2) (ab 0) (ab 1) (ab 2))].
  Definition f32_refs F (self : walker) : list (N * walker) :=
    let id0 := w_tet self in let id1 := w_tet (f32_r F self 1) in
    [(q3 (vv F self), Walker id0 3); (q2 (vv F self), Walker id0 7); (q3 (vv F (f32_r F self 1)), Walker id0 11);
     (q0 (vv F self), Walker id0 0); (q1 (vv F self), Walker id1 0)].
  Definition f32_links F (self : walker) : list (walker * walker) :=
    let id0 := w_tet self in let id1 := w_tet (f32_r F self 1) in
    [(f32_ab F self 2, Walker id1 9); (f32_ab F self 1, Walker id1 4); (f32_ab F self 0, Walker id1 2);
     (f32_at F self 2, Walker id0 4); (f32_at F self 1, Walker id0 9); (f32_at F self 0, Walker id0 2)].

  Record f32_result m L F (self : walker) m' G : Prop := F32Result {
    r32_tst : tst m' (L ∖ {[w_tet (f32_r F self 2)]}) (ov (f32_tets F self) G);
    r32_rl : relinked F G (f32_links F self);
    r32_verts : vrel (m_verts m) (m_verts m') (f32_refs F self);
    r32_wfe : im_wf (m_edges m');
    r32_egone : im_get (m_edges m') (uv F (f32_r F self 2)) = None;
    r32_eold e' : e' ≠ uv F (f32_r F self 2) → im_get (m_edges m') e' = im_get (m_edges m) e';
    r32_npie : im_npi (m_edges m') = im_npi (m_edges m);
    r32_npit : im_npi (m_tets m') = im_npi (m_tets m);
    r32_gf : m_ghost_flags m' = m_ghost_flags m;
    r32_track : m_track m' = m_track m;
    r32_center : m_center m' = m_center m;
    r32_tm : m_track m = true → tmrel F [w_tet self; w_tet (f32_r F self 1); w_tet (f32_r F self 2)]
      (ov (f32_tets F self) G) [w_tet self; w_tet (f32_r F self 1)] (m_trimap m) (m_trimap m')
  }.

  (** Three tets around an edge. *)
  Record f32_ring L F (self : walker) (v0 v1 v2 v3 v4 : N) : Prop := F32Ring {
    g32_vd i : vd L (f32_r F self i);
    g32_0 : vv F self = A4 v3 v4 v1 v0;
    g32_1 : vv F (f32_r F self 1) = A4 v3 v4 v0 v2;
    g32_2 : vv F (f32_r F self 2) = A4 v3 v4 v2 v1;
    g32_nd : v0 ≠ v1 ∧ v0 ≠ v2 ∧ v0 ≠ v3 ∧ v1 ≠ v2 ∧ v1 ≠ v3 ∧ v2 ≠ v3 ∧ v0 ≠ v4 ∧ v1 ≠ v4 ∧ v2 ≠ v4 ∧ v3 ≠ v4;
    g32_ids : NoDup [w_tet self; w_tet (f32_r F self 1); w_tet (f32_r F self 2)];
    g32_out i p : i < 3 → (p = P2301 ∨ p = P3210) →
      w_tet (av F (to_perm (f32_r F self i) p)) ∉ [w_tet self; w_tet (f32_r F self 1); w_tet (f32_r F self 2)] }.

  Lemma f32_ring_of L F self : vok L F → vd L self → rn F (rn F (rn F self)) = self →
    f32_ring L F self (q3 (vv F self)) (q2 (vv F self)) (q3 (vv F (rn F self))) (q0 (vv F self)) (q1 (vv F self)).
  Proof.
    intros Hok Hs Hb.
    assert (∀ w, vd L w → vd L (rn F w) ∧ vv F (rn F w) = A4 (q0 (vv F w)) (q1 (vv F w)) (q3 (vv F w)) (q3 (vv F (rn F w)))) as Hrn.
    { intros w Hw. unfold rn. destruct (vo_adj _ _ Hok (to_twin_edge w)) as [Ha (T1 & T2 & T3)]; [by apply vd_twin|].
      split; [done|]. rewrite vv_twin in T1, T2, T3 by apply Hw. cbn in T1, T2, T3.
      destruct (vv F (av F (to_twin_edge w))). cbn in *. congruence. }
    destruct (Hrn self Hs) as [V1 E1]. destruct (Hrn (rn F self) V1) as [V2 E2].
    destruct (Hrn _ V2) as [V3 E3]. rewrite Hb in E3.
    set (r1 := rn F self) in *. set (r2 := rn F r1) in *.
    pose proof (vv_nodup F self (proj2 Hs) (vo_nodup _ _ Hok _ (proj1 Hs))) as N0.
    pose proof (vv_nodup F r1 (proj2 V1) (vo_nodup _ _ Hok _ (proj1 V1))) as N1.
    pose proof (vv_nodup F r2 (proj2 V2) (vo_nodup _ _ Hok _ (proj1 V2))) as N2.
    assert (vv F r1 = A4 (q0 (vv F self)) (q1 (vv F self)) (q3 (vv F self)) (q3 (vv F r1))) as G1 by done.
    assert (vv F r2 = A4 (q0 (vv F self)) (q1 (vv F self)) (q3 (vv F r1)) (q2 (vv F self))) as G2.
    { rewrite E2, E1. cbn. f_equal. symmetry. by rewrite E3 at 1. }
    assert (vv F self = A4 (q0 (vv F self)) (q1 (vv F self)) (q2 (vv F self)) (q3 (vv F self))) as G0 by by destruct (vv F self).
    set (v3 := q0 (vv F self)) in *. set (v4 := q1 (vv F self)) in *. set (v1 := q2 (vv F self)) in *.
    set (v0 := q3 (vv F self)) in *. set (v2 := q3 (vv F r1)) in *. clearbody v0 v1 v2 v3 v4.
    rewrite G0 in N0. rewrite G1 in N1. rewrite G2 in N2. clear E1 E2 E3.
    apply NoDup4 in N0 as (A1&A2&A3&A4'&A5&A6'). apply NoDup4 in N1 as (B1&B2&B3&B4&B5&B6).
    apply NoDup4 in N2 as (C1&C2&C3&C4&C5&C6). cbn in *.
    assert (∀ x, x ∈ list4 (t_vs (F (w_tet self))) ↔ x = v3 ∨ x = v4 ∨ x = v1 ∨ x = v0) as X0.
    { intros x. rewrite <- (vv_elem F self) by apply Hs. by rewrite G0, elem_list4. }
    assert (∀ x, x ∈ list4 (t_vs (F (w_tet r1))) ↔ x = v3 ∨ x = v4 ∨ x = v0 ∨ x = v2) as X1.
    { intros x. rewrite <- (vv_elem F r1) by apply V1. by rewrite G1, elem_list4. }
    assert (∀ x, x ∈ list4 (t_vs (F (w_tet r2))) ↔ x = v3 ∨ x = v4 ∨ x = v2 ∨ x = v1) as X2.
    { intros x. rewrite <- (vv_elem F r2) by apply V2. by rewrite G2, elem_list4. }
    assert (w_tet self ≠ w_tet r1 ∧ w_tet self ≠ w_tet r2 ∧ w_tet r1 ≠ w_tet r2) as (D01 & D02 & D12).
    { split; [|split]; intros E.
      - assert (v1 ∈ list4 (t_vs (F (w_tet r1)))) as H by (rewrite <- E; apply X0; tauto).
        apply X1 in H. clear -H A2 A4' A6' C6. destruct H as [?|[?|[?|?]]]; congruence.
      - assert (v0 ∈ list4 (t_vs (F (w_tet r2)))) as H by (rewrite <- E; apply X0; tauto).
        apply X2 in H. clear -H A3 A5 A6' B6. destruct H as [?|[?|[?|?]]]; congruence.
      - assert (v0 ∈ list4 (t_vs (F (w_tet r2)))) as H by (rewrite <- E; apply X1; tauto).
        apply X2 in H. clear -H A3 A5 A6' B6. destruct H as [?|[?|[?|?]]]; congruence. }
    split.
    - intros [|[|i]]; done.
    - done.
    - done.
    - done.
    - clear X0 X1 X2. repeat split; congruence.
    - cbn [f32_r]. fold r1 r2. apply NoDup_cons. split; [rewrite !elem_of_cons, elem_of_nil; tauto|].
      apply NoDup_cons. split; [rewrite !elem_of_cons, elem_of_nil; tauto|]. apply NoDup_singleton.
    - intros i p Hi Hp. cbn [f32_r]. fold r1 r2.
      assert (∀ w, vd L w → w_tet (av F (to_perm w p)) ≠ w_tet w ∧ q2 (vv F w) ∈ list4 (t_vs (F (w_tet (av F (to_perm w p))))) ∧
        q3 (vv F w) ∈ list4 (t_vs (F (w_tet (av F (to_perm w p)))))) as Hw.
      { intros w Hw. split; [apply (av_other L F (to_perm w p)); [done|by apply vd_perm]|].
        destruct (vo_adj _ _ Hok (to_perm w p)) as [Ha' (T1 & T2 & T3)]; [by apply vd_perm|].
        rewrite <- !vv_elem by apply Ha'. rewrite !elem_list4, T1, T2.
        rewrite vv_perm by apply Hw. destruct Hp as [-> | -> ]; cbn; tauto. }
      assert (f32_r F self i = self ∨ f32_r F self i = r1 ∨ f32_r F self i = r2) as Hr.
      { destruct i as [|[|[|]]]; [by left|right; by left|right; by right|lia]. }
      destruct Hr as [-> | [-> | -> ]].
      + destruct (Hw self Hs) as (H1 & H2 & H3). rewrite G0 in H2, H3. cbn in H2, H3.
        rewrite !not_elem_of_cons. split; [done|]. split; [intros E; rewrite E in H2; apply X1 in H2|].
        * clear -H2 A2 A4' A6' C6. destruct H2 as [?|[?|[?|?]]]; congruence.
        * split; [|apply not_elem_of_nil]. intros E; rewrite E in H3; apply X2 in H3.
          clear -H3 A3 A5 A6' B6. destruct H3 as [?|[?|[?|?]]]; congruence.
      + destruct (Hw r1 V1) as (H1 & H2 & H3). rewrite G1 in H2, H3. cbn in H2, H3.
        rewrite !not_elem_of_cons. split; [intros E; rewrite E in H3; apply X0 in H3|].
        * clear -H3 B3 B5 B6 C6. destruct H3 as [?|[?|[?|?]]]; congruence.
        * split; [done|]. split; [|apply not_elem_of_nil]. intros E; rewrite E in H2; apply X2 in H2.
          clear -H2 B2 B4 B6 A6'. destruct H2 as [?|[?|[?|?]]]; congruence.
      + destruct (Hw r2 V2) as (H1 & H2 & H3). rewrite G2 in H2, H3. cbn in H2, H3.
        rewrite !not_elem_of_cons. split; [intros E; rewrite E in H2; apply X0 in H2|].
        * clear -H2 C2 C4 C6 B6. destruct H2 as [?|[?|[?|?]]]; congruence.
        * split; [|split; [done|apply not_elem_of_nil]]. intros E; rewrite E in H3; apply X1 in H3.
          clear -H3 C3 C5 C6 A6'. destruct H3 as [?|[?|[?|?]]]; congruence.
  Qed.

  Lemma remove_st m L F id : tst m L F → id ∈ L →
    tst (with_tets m (im_remove (m_tets m) id).1) (L ∖ {[id]}) F ∧
    im_npi (im_remove (m_tets m) id).1 = im_npi (m_tets m).
  Proof.
    intros [Hmv Hwf] Hid. pose proof (wf_remove (m_tets m) id Hwf) as Hw.
    destruct (im_remove (m_tets m) id) as [ts old]. destruct Hw as (Hwf' & _ & Eabs). injection Eabs as E1 E2.
    split; [|done]. split; [|done]. intros x. unfold tet_get, im_get. cbn [m_tets with_tets fst]. rewrite E1.
    pose proof (Hmv x) as Hx. unfold tet_get, im_get in Hx.
    destruct (decide (x = id)) as [->|Hne].
    - rewrite lookup_delete, decide_False; [done|]. rewrite elem_of_difference, elem_of_singleton. tauto.
    - rewrite lookup_delete_ne by done. rewrite Hx.
      destruct (decide (x ∈ L)); [rewrite decide_True|rewrite decide_False]; [done| |done|];
        rewrite elem_of_difference, elem_of_singleton; tauto.
  Qed.
  Lemma remove_facts {A} (es : idmap A) e : im_wf es →
    im_wf (im_remove es e).1 ∧ im_get (im_remove es e).1 e = None ∧
    (∀ e', e' ≠ e → im_get (im_remove es e).1 e' = im_get es e') ∧ im_npi (im_remove es e).1 = im_npi es.
  Proof.
    intros Hwf. pose proof (wf_remove es e Hwf) as Hw. destruct (im_remove es e) as [es' old].
    destruct Hw as (W1 & _ & W3). cbn [fst]. injection W3 as E1 E2. unfold im_get. rewrite E1.
    split; [done|]. split; [by rewrite lookup_delete|]. split; [|done]. intros e' He. by rewrite lookup_delete_ne.
  Qed.

  Lemma perm_faces32 e : e < 12 →
    let f p := w_edge (to_perm (Walker 0 e) p) in
    f P2301 mod 4 ≠ f P3210 mod 4 ∧
    perm_inv (f P3210) (f P2301) = 2 ∧ perm_inv (f P2130) (f P2301) = 9 ∧ perm_inv (f P1320) (f P2301) = 4 ∧
    perm_inv (f P2301) (f P3210) = 2 ∧ perm_inv (f P0231) (f P3210) = 4 ∧ perm_inv (f P3021) (f P3210) = 9.
  Proof. intros He. case12 e He; cbn; repeat split; done. Qed.

  Ltac ce k Hl1 Hkk :=
    match goal with
    | HS : tst ?m ?L (ov (<[_ := (?id, ?t)]> ?l) ?G) |- context [copy_edge ?m ?id ?j ?src] =>
      let m' := fresh "m" in let E := fresh "E" in let HS' := fresh "HS" in let R := fresh "R" in
      destruct (copy_edge_st m L (<[k := (id, t)]> l) G id t k j src HS) as (m' & E & HS' & R);
        [apply Hkk|by rewrite Hl1|done|done|by rewrite Hl1|];
      setoid_rewrite E; clear E; cbn [mbind option_bind]; rewrite list_insert_insert in HS'; clear HS; rename HS' into HS
    end.
  Ltac clk k Hl1 Hkk :=
    match goal with
    | HS : tst ?m ?L (ov (<[_ := (?id, ?t)]> ?l) ?G) |- context [copy_lock ?m ?id ?j ?src] =>
      let m' := fresh "m" in let E := fresh "E" in let HS' := fresh "HS" in let R := fresh "R" in
      destruct (copy_lock_st m L (<[k := (id, t)]> l) G id t k j src HS) as (m' & E & HS' & R);
        [apply Hkk|by rewrite Hl1|done|done|by rewrite Hl1|lia|
         cbn [set_locked set_edge set_opp set_vs t_flags f_locked set_flags]; match goal with H : f_locked _ = _ |- _ => rewrite H end; reflexivity|];
      setoid_rewrite E; clear E; cbn [mbind option_bind]; rewrite list_insert_insert in HS'; clear HS; rename HS' into HS
    end.

  Lemma f32_fill0 m L l F G rl k id0 id1 t v0 v1 v2 v3 a0 a1 a2 :
    tst m L (ov l G) → relinked F G rl → l !! k = Some (id0, t) → NoDup (l.*1) → id0 ∈ L →
    f_locked (t_flags t) = A4 false false false false →
    w_tet a0 ∈ L → w_tet a0 ∉ l.*1 → w_tet a1 ∈ L → w_tet a1 ∉ l.*1 → w_tet a2 ∈ L → w_tet a2 ∉ l.*1 →
    ∃ m', (∀ X (kk : mesh V T → option X), (m ← tet_upd m id0 (λ t,
          set_opp 3 (Walker id1 3) (set_opp 2 a0
          (set_opp 1 (to_pfe a1) (set_opp 0 (to_nfe a2) (set_vs (A4 v0 v1 v2 v3) t)))));
      m ← copy_edge m id0 0 (to_pfe a1);
      m ← copy_edge m id0 1 a0;
      m ← copy_edge m id0 2 a2;
      m ← copy_edge m id0 3 (to_pfe a0);
      m ← copy_edge m id0 4 (to_pfe a2);
      m ← copy_edge m id0 5 a1;
      m ← copy_lock m id0 0 (to_nfe a2);
      m ← copy_lock m id0 1 (to_pfe a1);
      copy_lock m id0 2 a0 ≫= kk) = kk m') ∧
      tst m' L (ov (<[k := (id0, f32_tet0 F t v0 v1 v2 v3 id1 a0 a1 a2)]> l) G) ∧ same_rest m m'.
  Proof.
    intros Hst Hrl Hk Hnd Hid Hlk A1 A2 A3 A4' A5 A6'.
    assert (k < length l) as Hlen by (apply lookup_lt_is_Some; eauto).
    assert (∀ t', (<[k:=(id0, t')]> l).*1 = l.*1) as Hl1.
    { intros t'. rewrite list_fmap_insert. cbn. apply list_insert_id. by rewrite list_lookup_fmap, Hk. }
    assert (∀ t', (<[k:=(id0, t')]> l) !! k = Some (id0, t')) as Hkk.
    { intros t'. by apply list_lookup_insert. }
    match goal with |- context [tet_upd m id0 ?f] => destruct (upd_ov m L l G id0 t k f Hst Hk Hnd Hid) as (m1 & E & HS & R1) end.
    setoid_rewrite E; clear E; cbn [mbind option_bind].
    ce k Hl1 Hkk. ce k Hl1 Hkk. ce k Hl1 Hkk. ce k Hl1 Hkk. ce k Hl1 Hkk. ce k Hl1 Hkk. clk k Hl1 Hkk. clk k Hl1 Hkk. clk k Hl1 Hkk.
    eexists. split; [reflexivity|]. split.
    - rewrite !(rl_uv F G rl), !(rl_lv F G rl) in HS by done.
      destruct t as [vs [? ? ? ?] [? ? ? ? ? ?] [lk im li bd wfv dup ne] va']. cbn in Hlk. subst lk.
      cbn [set_edge set_opp set_vs set_locked set_flags set4 set6 t_vs t_opp t_edges t_flags t_val f_locked f_imm f_limit
        f_boundary f_wfv f_dup f_notenc] in HS.
      exact HS.
    - repeat (eapply same_rest_trans; [|eassumption]). apply same_rest_refl.
  Qed.

  Ltac cpe k Hl1 Hkk Hj Hnd :=
    match goal with
    | HS : tst ?m ?L (ov (<[_ := (?id, ?t)]> ?l) ?G) |- context [tet_get ?m ?id0] =>
      let m' := fresh "m" in let E := fresh "E" in let HS' := fresh "HS" in let R := fresh "R" in
      setoid_rewrite (mv_in m L _ id0 (proj1 HS)); [|done]; cbn [mbind option_bind];
      setoid_rewrite (ov_in (<[k := (id, t)]> l) G id0 _ _ (Hj t)); [|by rewrite Hl1];
      match goal with |- context [tet_upd m id ?f] =>
        destruct (upd_ov m L (<[k := (id, t)]> l) G id t k f HS) as (m' & E & HS' & R);
        [apply Hkk|by rewrite Hl1|done|] end;
      setoid_rewrite E; clear E; cbn [mbind option_bind]; rewrite list_insert_insert in HS'; clear HS; rename HS' into HS
    end.

  Lemma f32_fill1 m L l F G rl k k0 id0 id1 t t0 v0 v1 v2 v3 v4 id1' a0 a1 a2 b0 b1 b2 :
    tst m L (ov l G) → relinked F G rl → l !! k = Some (id1, t) → l !! k0 = Some (id0, f32_tet0 F t0 v0 v1 v2 v3 id1' a0 a1 a2) → k ≠ k0 →
    NoDup (l.*1) → id1 ∈ L → id0 ∈ L →
    f_locked (t_flags t) = A4 false false false false →
    w_tet b0 ∈ L → w_tet b0 ∉ l.*1 → w_tet b1 ∈ L → w_tet b1 ∉ l.*1 → w_tet b2 ∈ L → w_tet b2 ∉ l.*1 →
    ∃ m', (∀ X (kk : mesh V T → option X), (m ← tet_upd m id1 (λ t,
          set_opp 3 (Walker id0 3) (set_opp 2 b0
          (set_opp 1 (to_pfe b2) (set_opp 0 (to_nfe b1) (set_vs (A4 v1 v0 v2 v4) t)))));
      m ← copy_edge m id1 0 (to_nfe b1);
      t0 ← tet_get m id0; m ← tet_upd m id1 (set_edge 1 (s1 (t_edges t0)));
      t0 ← tet_get m id0; m ← tet_upd m id1 (set_edge 2 (s5 (t_edges t0)));
      m ← copy_edge m id1 3 (to_nfe b2);
      m ← copy_edge m id1 4 (to_nfe b0);
      t0 ← tet_get m id0; m ← tet_upd m id1 (set_edge 5 (s2 (t_edges t0)));
      m ← copy_lock m id1 0 (to_nfe b1);
      m ← copy_lock m id1 1 (to_pfe b2);
      copy_lock m id1 2 b0 ≫= kk) = kk m') ∧
      tst m' L (ov (<[k := (id1, f32_tet1 F t v0 v1 v2 v4 id0 a0 a1 a2 b0 b1 b2)]> l) G) ∧ same_rest m m'.
  Proof.
    intros Hst Hrl Hk Hk0 Hkne Hnd Hid Hid0 Hlk A1 A2 A3 A4' A5 A6'.
    assert (k < length l) as Hlen by (apply lookup_lt_is_Some; eauto).
    assert (∀ t', (<[k:=(id1, t')]> l).*1 = l.*1) as Hl1.
    { intros t'. rewrite list_fmap_insert. cbn. apply list_insert_id. by rewrite list_lookup_fmap, Hk. }
    assert (∀ t', (<[k:=(id1, t')]> l) !! k = Some (id1, t')) as Hkk.
    { intros t'. by apply list_lookup_insert. }
    assert (∀ t', (<[k:=(id1, t')]> l) !! k0 = Some (id0, f32_tet0 F t0 v0 v1 v2 v3 id1' a0 a1 a2)) as Hj.
    { intros t'. by rewrite list_lookup_insert_ne. }
    match goal with |- context [tet_upd m id1 ?f] => destruct (upd_ov m L l G id1 t k f Hst Hk Hnd Hid) as (m1 & E & HS & R1) end.
    setoid_rewrite E; clear E; cbn [mbind option_bind].
    ce k Hl1 Hkk. cpe k Hl1 Hkk Hj Hnd. cpe k Hl1 Hkk Hj Hnd. ce k Hl1 Hkk. ce k Hl1 Hkk. cpe k Hl1 Hkk Hj Hnd.
    clk k Hl1 Hkk. clk k Hl1 Hkk. clk k Hl1 Hkk.
    eexists. split; [reflexivity|]. split.
    - rewrite !(rl_uv F G rl), !(rl_lv F G rl) in HS by done.
      destruct t as [vs [? ? ? ?] [? ? ? ? ? ?] [lk im li bd wfv dup ne] va']. cbn in Hlk. subst lk.
      cbn [set_edge set_opp set_vs set_locked set_flags set4 set6 t_vs t_opp t_edges t_flags t_val f_locked f_imm f_limit
        f_boundary f_wfv f_dup f_notenc] in HS.
      exact HS.
    - repeat (eapply same_rest_trans; [|eassumption]). apply same_rest_refl.
  Qed.

  Lemma flip32_run m L F self v0 v1 v2 v3 v4 :
    vmesh m L F → f32_ring L F self v0 v1 v2 v3 v4 →
    ∃ m' G,
      flip32_unchecked m self = Some (m', (Walker (w_tet self) 10, Walker (w_tet (f32_r F self 1)) 10)) ∧
      f32_result m L F self m' G.
  Proof.
    intros Hvm [Hvd G0 G1 G2 _ Hnd3 Hout]. destruct Hvm as [Hmv Hwv Hwe Hwt Hg Hok Hex Heo Hvr Htm].
    unfold flip32_unchecked.
    pose proof (Hvd 0) as Vs. pose proof (Hvd 1) as Vo1. pose proof (Hvd 2) as Vo2. cbn [f32_r] in Vs, Vo1, Vo2.
    rewrite (mv_adj _ _ _ _ Hmv) by (by apply vd_twin). cbn [mbind option_bind].
    fold (rn F self).
    rewrite (mv_adj _ _ _ _ Hmv) by (by apply vd_twin). cbn [mbind option_bind].
    fold (rn F (rn F self)).
    assert (tst m L F) as Hst by done.
    unfold f32_r in G1, G2, Hnd3.
    assert (∀ i, i < 3 → f32_r F self i = nth i [self; rn F self; rn F (rn F self)] self) as Hri.
    { intros i Hi. destruct i as [|[|[|]]]; [done..|lia]. }
    assert (∀ p, (p = P2301 ∨ p = P3210) → ∀ s, s = self ∨ s = rn F self ∨ s = rn F (rn F self) →
       w_tet (av F (to_perm s p)) ∉ [w_tet self; w_tet (rn F self); w_tet (rn F (rn F self))] ∧ w_tet (av F (to_perm s p)) ∈ L ∧ vd L (to_perm s p)) as HoutL.
    { intros p Hp s Hs. split; [|split].
      - destruct Hs as [-> | [-> | -> ]]; [apply (Hout 0)|apply (Hout 1)|apply (Hout 2)]; [lia|done|lia|done|lia|done].
      - apply (vo_adj _ _ Hok). apply vd_perm. destruct Hs as [-> | [-> | -> ]]; done.
      - apply vd_perm. destruct Hs as [-> | [-> | -> ]]; done. }
    unfold f32_at, f32_ab in *. cbn [f32_r] in *.
    set (o1 := rn F self) in *. set (o2 := rn F o1) in *.
    set (id0 := w_tet self) in *. set (id1 := w_tet o1) in *. set (id2 := w_tet o2) in *.
    assert (id0 ∈ L) as I0 by apply Vs. assert (id1 ∈ L) as I1 by apply Vo1. assert (id2 ∈ L) as I2 by apply Vo2.
    pose proof Hnd3 as Hnd3'. apply NoDup_cons in Hnd3' as [D0 [D1 _]%NoDup_cons].
    apply not_elem_of_cons in D0 as [D01 [D02 _]%not_elem_of_cons]. apply not_elem_of_cons in D1 as [D12 _].
    assert (tst m L (ov [(id0, F id0); (id1, F id1); (id2, F id2)] F)) as HS.
    { split; [|apply Hst]. eapply mv_ext; [|apply Hst]. intros x _. cbn.
      destruct (decide (x = id0)) as [->|]; [done|].
      destruct (decide (x = id1)) as [->|]; [done|].
      destruct (decide (x = id2)) as [->|]; done. }
    destruct (clear_locks_st m L _ F id0 _ 0 HS eq_refl Hnd3 I0) as (m2 & E & HS2 & R2).
    rewrite E; clear E; cbn [mbind option_bind insert list_insert] in HS2 |- *. clear HS.
    destruct (clear_locks_st m2 L _ F id1 _ 1 HS2 eq_refl Hnd3 I1) as (m4 & E & HS & R4).
    rewrite E; clear E; cbn [mbind option_bind insert list_insert] in HS |- *. clear HS2.
    set (l := [(id0, cl (F id0)); (id1, cl (F id1)); (id2, F id2)]) in *.
    assert (l.*1 = [id0; id1; id2]) as El1 by reflexivity.
    destruct (trimap_remove_tets_st m4 L (ov l F) [id0; id1; id2] (proj1 HS)) as (tm1 & E & Htm1).
    { intros id. rewrite !elem_of_cons, elem_of_nil. by intros [-> | [-> | [-> | []]]]. }
    rewrite E. clear E. cbn [mbind option_bind].
    set (m5 := with_trimap m4 tm1). assert (tst m5 L (ov l F)) as HS5 by exact HS. clear HS.
    assert (∀ G w, w_tet w = id0 ∨ w_tet w = id1 ∨ w_tet w = id2 → t_opp (ov l G (w_tet w)) = t_opp (F (w_tet w)) ∧ vv (ov l G) w = vv F w) as Hin.
    { intros G w Hw. unfold vv. destruct Hw as [-> | [-> | -> ]].
      - by rewrite (ov_in l G id0 _ 0 eq_refl Hnd3).
      - by rewrite (ov_in l G id1 _ 1 eq_refl Hnd3).
      - by rewrite (ov_in l G id2 _ 2 eq_refl Hnd3). }
    destruct (perm_faces32 (w_edge self) (proj2 Vs)) as (S1&S2&_&_&S5&_&_).
    destruct (perm_faces32 (w_edge o1) (proj2 Vo1)) as (O1&_&O3&_&_&O6&_).
    destruct (perm_faces32 (w_edge o2) (proj2 Vo2)) as (U1&_&_&U4&_&_&U7).
    rewrite !to_opp_edge_perm by first [apply Vs|apply Vo1|apply Vo2].
    assert (P2301 = P2301 ∨ P2301 = P3210) as J0 by by left. assert (P3210 = P2301 ∨ P3210 = P3210) as J1 by by right.
    assert (self = self ∨ self = o1 ∨ self = o2) as K0 by by left.
    assert (o1 = self ∨ o1 = o1 ∨ o1 = o2) as K1 by (right; by left).
    assert (o2 = self ∨ o2 = o1 ∨ o2 = o2) as K2 by (right; by right).
    assert (∀ s p, s = self ∨ s = o1 ∨ s = o2 → w_tet (to_perm s p) = id0 ∨ w_tet (to_perm s p) = id1 ∨ w_tet (to_perm s p) = id2) as Hid.
    { intros s p [-> | [-> | -> ]]; [by left|right; by left|right; by right]. }
    assert (∀ s p, s = self ∨ s = o1 ∨ s = o2 → w_edge (to_perm s p) < 12) as Hed.
    { intros s p [-> | [-> | -> ]]; apply to_perm_ok; [apply Vs|apply Vo1|apply Vo2]. }
    assert (∀ p q, ¬ sf (to_perm self p) (to_perm o1 q)) as Q01 by (intros p q [E _]; by apply D01).
    assert (∀ p q, ¬ sf (to_perm self p) (to_perm o2 q)) as Q02 by (intros p q [E _]; by apply D02).
    assert (∀ p q, ¬ sf (to_perm o1 p) (to_perm o2 q)) as Q12 by (intros p q [E _]; by apply D12).
    assert (∀ p q, ¬ sf (to_perm o1 p) (to_perm self q)) as Q10 by (intros p q [E _]; by apply D01).
    assert (∀ p q, ¬ sf (to_perm o2 p) (to_perm self q)) as Q20 by (intros p q [E _]; by apply D02).
    assert (∀ p q, ¬ sf (to_perm o2 p) (to_perm o1 q)) as Q21 by (intros p q [E _]; by apply D12).
    assert (¬ sf (to_perm self P2301) (to_perm self P3210)) as Q00 by (intros [_ E]; by apply S1).
    assert (¬ sf (to_perm o1 P2301) (to_perm o1 P3210)) as Q11 by (intros [_ E]; by apply O1).
    assert (¬ sf (to_perm o2 P2301) (to_perm o2 P3210)) as Q22 by (intros [_ E]; by apply U1).
    assert (∀ x, x ∈ L → x ∈ L) as Hsub by done.
    Ltac rl0 := by intros ? ? ?%elem_of_nil.
    Ltac rlt HoutL := let H := fresh "H" in intros ? ? H; rewrite ?elem_of_cons, ?elem_of_nil in H;
      repeat (destruct H as [[= -> -> ]|H]; [eexists; split; [reflexivity|split; [apply HoutL; by auto|by auto]]|]); done.
    destruct (relink_in m5 L L l F F [] (to_perm self P2301) id0 (w_edge (to_perm self P3210)) 2 HS5 (relinked_nil F) Hok Hsub
      (proj2 (proj2 (HoutL _ J0 _ K0))) (proj1 (Hin _ _ (Hid _ _ K0))) (proj1 (HoutL _ J0 _ K0)) (Hed _ _ K0) S2 ltac:(rl0)) as (m6 & G6 & E & HS6 & Hrl6 & R6).
    rewrite E; clear E; cbn [mbind option_bind].
    destruct (relink_in m6 L L l F G6 _ (to_perm o1 P2301) id0 (w_edge (to_perm o1 P2130)) 9 HS6 Hrl6 Hok Hsub
      (proj2 (proj2 (HoutL _ J0 _ K1))) (proj1 (Hin _ _ (Hid _ _ K1))) (proj1 (HoutL _ J0 _ K1)) (Hed _ _ K1) O3 ltac:(rlt HoutL)) as (m7 & G7 & E & HS7 & Hrl7 & R7).
    rewrite E; clear E; cbn [mbind option_bind].
    destruct (relink_in m7 L L l F G7 _ (to_perm o2 P2301) id0 (w_edge (to_perm o2 P1320)) 4 HS7 Hrl7 Hok Hsub
      (proj2 (proj2 (HoutL _ J0 _ K2))) (proj1 (Hin _ _ (Hid _ _ K2))) (proj1 (HoutL _ J0 _ K2)) (Hed _ _ K2) U4 ltac:(rlt HoutL)) as (m8 & G8 & E & HS8 & Hrl8 & R8).
    rewrite E; clear E; cbn [mbind option_bind].
    destruct (relink_in m8 L L l F G8 _ (to_perm self P3210) id1 (w_edge (to_perm self P2301)) 2 HS8 Hrl8 Hok Hsub
      (proj2 (proj2 (HoutL _ J1 _ K0))) (proj1 (Hin _ _ (Hid _ _ K0))) (proj1 (HoutL _ J1 _ K0)) (Hed _ _ K0) S5 ltac:(rlt HoutL)) as (m9 & G9 & E & HS9 & Hrl9 & R9).
    rewrite E; clear E; cbn [mbind option_bind].
    destruct (relink_in m9 L L l F G9 _ (to_perm o1 P3210) id1 (w_edge (to_perm o1 P0231)) 4 HS9 Hrl9 Hok Hsub
      (proj2 (proj2 (HoutL _ J1 _ K1))) (proj1 (Hin _ _ (Hid _ _ K1))) (proj1 (HoutL _ J1 _ K1)) (Hed _ _ K1) O6 ltac:(rlt HoutL)) as (m10 & G10 & E & HS10 & Hrl10 & R10).
    rewrite E; clear E; cbn [mbind option_bind].
    destruct (relink_in m10 L L l F G10 _ (to_perm o2 P3210) id1 (w_edge (to_perm o2 P3021)) 9 HS10 Hrl10 Hok Hsub
      (proj2 (proj2 (HoutL _ J1 _ K2))) (proj1 (Hin _ _ (Hid _ _ K2))) (proj1 (HoutL _ J1 _ K2)) (Hed _ _ K2) U7 ltac:(rlt HoutL)) as (m11 & G & E & HS & Hrl & R11).
    rewrite E; clear E; cbn [mbind option_bind].
    clear HS5 HS6 HS7 HS8 HS9 HS10 Hrl6 Hrl7 Hrl8 Hrl9 Hrl10.
    rewrite (mv_verts _ _ _ _ (proj1 HS)) by apply Vs. rewrite (mv_fourth _ _ _ _ (proj1 HS)) by apply Vo1. cbn [mbind option_bind].
    rewrite (proj2 (Hin G self (or_introl eq_refl))), (proj2 (Hin G o1 (or_intror (or_introl eq_refl)))).
    change (vert_ref (vert_ref (vert_ref (vert_ref (vert_ref m11 (q3 (vv F self)) (Walker id0 3)) (q2 (vv F self)) (Walker id0 7))
      (q3 (vv F o1)) (Walker id0 11)) (q0 (vv F self)) (Walker id0 0)) (q1 (vv F self)) (Walker id1 0)) with (vert_refs m11 (f32_refs F self)).
    set (w3 := q0 (vv F self)). set (w4 := q1 (vv F self)). set (w1 := q2 (vv F self)). set (w0 := q3 (vv F self)).
    set (w2 := q3 (vv F o1)).
    set (m12 := vert_refs m11 _).
    assert (same_rest m m4) as Hr4.
    { repeat (eapply same_rest_trans; [|eassumption]). apply same_rest_refl. }
    assert (same_rest m5 m11) as Hr11.
    { repeat (eapply same_rest_trans; [|eassumption]). apply same_rest_refl. }
    assert (m_verts m11 = m_verts m) as Ev11.
    { rewrite (sr_verts _ _ Hr11). cbn. rewrite (sr_verts _ _ Hr4). done. }
    destruct (vert_refs_vrel m11 (f32_refs F self)) as (Hvrel & X1 & X2 & X3 & X4 & X5 & X6); [by rewrite Ev11|].
    fold m12 in Hvrel, X1, X2, X3, X4, X5, X6. rewrite Ev11 in Hvrel.
    assert (tst m12 L (ov l G)) as HS12.
    { unfold tst, mv, tet_get. rewrite X1. exact HS. }
    clearbody m12. clear HS.
    assert (m_edges m12 = m_edges m) as Ee12.
    { rewrite X3, (sr_edges _ _ Hr11). cbn. rewrite (sr_edges _ _ Hr4). done. }
    destruct (f32_fill0 m12 L l F G _ 0 id0 id1 (cl (F id0)) w0 w1 w2 w3 (av F (to_perm self P2301)) (av F (to_perm o1 P2301)) (av F (to_perm o2 P2301))
      HS12 Hrl eq_refl Hnd3 I0 eq_refl) as (m14 & E & HS14 & R14).
    1-6: apply HoutL; by auto.
    rewrite E; clear E; cbn [insert list_insert] in HS14.
    match type of HS14 with context [ov ?x G] => set (l14 := x) in * end.
    assert (NoDup l14.*1) as Hnd14 by exact Hnd3.
    destruct (f32_fill1 m14 L l14 F G _ 1 0 id0 id1 (cl (F id1)) _ _ _ _ _ w4 _ _ _ _ (av F (to_perm self P3210)) (av F (to_perm o1 P3210)) (av F (to_perm o2 P3210))
      HS14 Hrl eq_refl eq_refl ltac:(lia) Hnd14 I1 I0 eq_refl) as (m15 & E & HS15 & R15).
    1-6: apply HoutL; by auto.
    rewrite E; clear E; cbn [insert list_insert] in HS15.
    match type of HS15 with context [ov ?x G] => set (l15 := x) in * end.
    assert (NoDup l15.*1) as Hnd15 by exact Hnd3.
    rewrite (mv_undir _ _ _ _ (proj1 HS15)) by apply Vo2. cbn [mbind option_bind].
    assert (uv (ov l15 G) o2 = uv F o2) as Eu.
    { unfold uv. fold id2. by rewrite (ov_in l15 G id2 _ 2 eq_refl Hnd15). }
    rewrite Eu. set (m16 := with_edges m15 _).
    assert (tst m16 L (ov l15 G)) as HS16 by exact HS15.
    destruct (remove_st m16 L _ id2 HS16 I2) as [HS17 Enp]. fold id2.
    set (m17 := with_tets m16 _) in *. 
    assert (tst m17 (L ∖ {[id2]}) (ov (f32_tets F self) G)) as HS.
    { split; [|apply HS17]. eapply mv_ext; [|apply HS17]. intros x Hx.
      unfold l15. cbn. fold o1 id0 id1. destruct (decide (x = id0)) as [->|]; [done|].
      destruct (decide (x = id1)) as [->|]; [done|].
      destruct (decide (x = id2)) as [->|]; [|done]. exfalso. clear -Hx. set_solver. }
    clear HS12 HS14 HS15 HS16 HS17.
    assert (id0 ∈ L ∖ {[id2]} ∧ id1 ∈ L ∖ {[id2]}) as [I0' I1'].
    { rewrite !elem_of_difference, !elem_of_singleton. done. }
    destruct (trimap_insert_tets_st m17 (L ∖ {[id2]}) (ov (f32_tets F self) G) [id0; id1] (proj1 HS)) as (tm2 & E & Htm2).
    { intros id. rewrite !elem_of_cons, elem_of_nil. by intros [-> | [-> | []]]. }
    rewrite E; clear E; cbn [mbind option_bind].
    assert (same_rest m12 m15) as Hr.
    { repeat (eapply same_rest_trans; [|eassumption]). apply same_rest_refl. }
    assert (m_edges m15 = m_edges m) as Ee15 by (rewrite (sr_edges _ _ Hr); done).
    eexists _, G. split; [reflexivity|].
    assert (m_track m4 = m_track m) as Et4 by (rewrite (sr_track _ _ Hr4); congruence).
    assert (m_track m17 = m_track m) as Et17.
    { cbn. rewrite (sr_track _ _ Hr). rewrite X5, (sr_track _ _ Hr11). cbn. done. }
    assert (m_edges m17 = (im_remove (m_edges m) (uv F o2)).1) as Ee17.
    { cbn. by rewrite Ee15. }
    destruct (remove_facts (m_edges m) (uv F o2) Hwe) as (Y1 & Y2 & Y3 & Y4).
    split; cbn [f32_r]; fold o1; fold o2; fold id0 id1 id2; cbn [m_verts m_edges m_tets m_ghost_flags m_track m_center m_trimap with_trimap].
    - exact HS.
    - exact Hrl.
    - cbn. by rewrite (sr_verts _ _ Hr).
    - by rewrite Ee17.
    - by rewrite Ee17.
    - intros e' He. rewrite Ee17. by apply Y3.
    - by rewrite Ee17.
    - transitivity (im_npi (m_tets m16)); [exact Enp|]. cbn. rewrite (sr_npi _ _ Hr), X1, (sr_npi _ _ Hr11). cbn [m5 m_tets with_trimap].
      by rewrite (sr_npi _ _ Hr4).
    - cbn. rewrite (sr_gf _ _ Hr). rewrite X2, (sr_gf _ _ Hr11). cbn. by rewrite (sr_gf _ _ Hr4).
    - exact Et17.
    - cbn. rewrite (sr_center _ _ Hr). rewrite X6, (sr_center _ _ Hr11). cbn. by rewrite (sr_center _ _ Hr4).
    - intros Ht. exists tm1. split.
      + rewrite Et4 in Htm1. specialize (Htm1 Ht).
        assert (tkeys (ov l F) [id0; id1; id2] = tkeys F [id0; id1; id2]) as Ek.
        { unfold tkeys, tkey, vv. cbn [mbind list_bind fmap list_fmap w_tet w_edge app].
          by rewrite (ov_in l F id0 _ 0 eq_refl Hnd3), (ov_in l F id1 _ 1 eq_refl Hnd3), (ov_in l F id2 _ 2 eq_refl Hnd3). }
        rewrite Ek in Htm1. intros k. specialize (Htm1 k).
        replace (m_trimap m) with (m_trimap m4); [done|]. by rewrite (sr_tm _ _ Hr4).
      + cbv zeta. rewrite Et17 in Htm2. destruct (Htm2 Ht) as [Z1 Z2].
        split; [|exact Z2]. intros k Hk. rewrite Z1 by done. cbn. rewrite (sr_tm _ _ Hr). rewrite X4, (sr_tm _ _ Hr11). done.
  Qed.
End flip32.
