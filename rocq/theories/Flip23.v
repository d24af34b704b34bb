(** The 2-to-3 flip on a consistent mesh. *)
From stdpp Require Import base numbers list gmap option relations.
From Coq Require Import NArith ZArith ZifyN ZifyNat ZifyBool Lia.
From Verif Require Import IdMapModel IdMapSpec IdMapProofs IdMapMore WalkerModel WalkerSpec WalkerProofs SortProofs
  MeshModel WalkerMore MeshSpec MeshViews Surgery MeshLink MeshRun FlipBase FlipRun.
Local Open Scope nat_scope.

Section flip23.
  Context {V T : Type}.
  Implicit Types (m : mesh V T) (F G : N → tet T) (w u : walker) (L O K : gset N) (id : N).

  (** One of the three tets after the flip. *)
  Definition f23_tet F (t : tet T) (va vb v3 v4 nxt prv : N) (ab at_ : walker) (e : N) : tet T :=
    Tet (A4 va vb v3 v4) (A4 (Walker nxt 1) (Walker prv 0) ab at_)
      (A6 e (uv F at_) (uv F (to_pfe at_)) (uv F (to_pfe ab)) (uv F (to_nfe ab)) (uv F (to_nfe at_)))
      (lk4 (t_flags t) (A4 false false (lv F ab) (lv F at_))) (t_val t).

  Lemma f23_fill m L l F G rl k id t va vb v3 v4 nxt prv ab at_ edge :
    tst m L (ov l G) → relinked F G rl → l !! k = Some (id, t) → NoDup (l.*1) → id ∈ L →
    f_locked (t_flags t) = A4 false false false false →
    w_tet ab ∈ L → w_tet ab ∉ l.*1 → w_tet at_ ∈ L → w_tet at_ ∉ l.*1 →
    ∃ m', (m ← tet_upd m id (λ t,
             set_edge 0 edge (set_opp 3 at_ (set_opp 2 ab
             (set_opp 1 (Walker prv 0) (set_opp 0 (Walker nxt 1)
             (set_vs (A4 va vb v3 v4) t))))));
           m ← copy_edge m id 1 at_;
           m ← copy_edge m id 2 (to_pfe at_);
           m ← copy_edge m id 3 (to_pfe ab);
           m ← copy_edge m id 4 (to_nfe ab);
           m ← copy_edge m id 5 (to_nfe at_);
           m ← copy_lock m id 2 ab;
           copy_lock m id 3 at_) = Some m' ∧
      tst m' L (ov (<[k := (id, f23_tet F t va vb v3 v4 nxt prv ab at_ edge)]> l) G) ∧ same_rest m m'.
  Proof.
    intros Hst Hrl Hk Hnd Hid Hlk Hb1 Hb2 Ha1 Ha2.
    assert (k < length l) as Hlen by (apply lookup_lt_is_Some; eauto).
    assert (∀ t', (<[k:=(id, t')]> l).*1 = l.*1) as Hl1.
    { intros t'. rewrite list_fmap_insert. cbn. apply list_insert_id. by rewrite list_lookup_fmap, Hk. }
    assert (∀ t', (<[k:=(id, t')]> l) !! k = Some (id, t')) as Hkk.
    { intros t'. by apply list_lookup_insert. }
    match goal with |- context [tet_upd m id ?f] => destruct (upd_ov m L l G id t k f Hst Hk Hnd Hid) as (m1 & E & HS & R1) end.
    rewrite E; clear E; cbn [mbind option_bind].
    Ltac ce k Hl1 Hkk :=
      match goal with
      | HS : tst ?m ?L (ov (<[_ := (?id, ?t)]> ?l) ?G) |- context [copy_edge ?m ?id ?j ?src] =>
        let m' := fresh "m" in let E := fresh "E" in let HS' := fresh "HS" in let R := fresh "R" in
        destruct (copy_edge_st m L (<[k := (id, t)]> l) G id t k j src HS) as (m' & E & HS' & R);
          [apply Hkk|by rewrite Hl1|done|done|by rewrite Hl1|];
        rewrite E; clear E; cbn [mbind option_bind]; rewrite list_insert_insert in HS'; clear HS; rename HS' into HS
      end.
    Ltac clk k Hl1 Hkk :=
      match goal with
      | HS : tst ?m ?L (ov (<[_ := (?id, ?t)]> ?l) ?G) |- context [copy_lock ?m ?id ?j ?src] =>
        let m' := fresh "m" in let E := fresh "E" in let HS' := fresh "HS" in let R := fresh "R" in
        destruct (copy_lock_st m L (<[k := (id, t)]> l) G id t k j src HS) as (m' & E & HS' & R);
          [apply Hkk|by rewrite Hl1|done|done|by rewrite Hl1|lia|
           cbn [set_locked set_edge set_opp set_vs t_flags f_locked set_flags]; match goal with H : f_locked _ = _ |- _ => rewrite H end; reflexivity|];
        rewrite E; clear E; cbn [mbind option_bind]; rewrite list_insert_insert in HS'; clear HS; rename HS' into HS
      end.
    ce k Hl1 Hkk. ce k Hl1 Hkk. ce k Hl1 Hkk. ce k Hl1 Hkk. ce k Hl1 Hkk. clk k Hl1 Hkk. clk k Hl1 Hkk.
    eexists. split; [reflexivity|]. split.
    - rewrite !(rl_uv F G rl), !(rl_lv F G rl) in HS by done.
      destruct t as [vs [? ? ? ?] [? ? ? ? ? ?] [lk im li bd wfv dup ne] va']. cbn in Hlk. subst lk.
      cbn [set_edge set_opp set_vs set_locked set_flags set4 set6 t_vs t_opp t_edges t_flags t_val f_locked f_imm f_limit
        f_boundary f_wfv f_dup f_notenc] in HS.
      exact HS.
    - repeat (eapply same_rest_trans; [|eassumption]). apply same_rest_refl.
  Qed.

  Definition f23_at F (self : walker) (i : nat) : walker :=
    av F (to_perm self (nth i [P1032; P0231; P2130] P0123)).
  Definition f23_ab F (self : walker) (i : nat) : walker :=
    av F (to_perm (av F self) (nth i [P1032; P2130; P0231] P0123)).

  Definition f23_tets F (self : walker) (id2 e : N) : list (N * tet T) :=
    let id0 := w_tet self in let id1 := w_tet (av F self) in
    let v1 := q0 (vv F self) in let v0 := q1 (vv F self) in let v2 := q2 (vv F self) in
    let v3 := q3 (vv F self) in let v4 := q3 (vv F (av F self)) in
    [(id0, f23_tet F (F id0) v0 v1 v3 v4 id1 id2 (f23_ab F self 0) (f23_at F self 0) e);
     (id1, f23_tet F (F id1) v1 v2 v3 v4 id2 id0 (f23_ab F self 1) (f23_at F self 1) e);
     (id2, f23_tet F (F id0) v2 v0 v3 v4 id0 id1 (f23_ab F self 2) (f23_at F self 2) e)].
  Definition f23_refs F (self : walker) (id2 : N) : list (N * walker) :=
    let id0 := w_tet self in let id1 := w_tet (av F self) in
    [(q1 (vv F self), Walker id0 3); (q0 (vv F self), Walker id1 3); (q2 (vv F self), Walker id2 3);
     (q3 (vv F self), Walker id0 1); (q3 (vv F (av F self)), Walker id0 0)].
  Definition f23_links F (self : walker) (id2 : N) : list (walker * walker) :=
    let id0 := w_tet self in let id1 := w_tet (av F self) in
    [(f23_ab F self 2, Walker id2 2); (f23_ab F self 1, Walker id1 2); (f23_ab F self 0, Walker id0 2);
     (f23_at F self 2, Walker id2 3); (f23_at F self 1, Walker id1 3); (f23_at F self 0, Walker id0 3)].

  Record f23_result m L F (self : walker) m' (id2 e : N) G : Prop := F23Result {
    r23_id2 : id2 ∉ L;
    r23_e : im_get (m_edges m) e = None;
    r23_tst : tst m' ({[id2]} ∪ L) (ov (f23_tets F self id2 e) G);
    r23_rl : relinked F G (f23_links F self id2);
    r23_verts : vrel (m_verts m) (m_verts m') (f23_refs F self id2);
    r23_wfe : im_wf (m_edges m');
    r23_enew : im_get (m_edges m') e = Some (uedge_new (q3 (vv F self), q3 (vv F (av F self))));
    r23_eold e' : e' ≠ e → im_get (m_edges m') e' = im_get (m_edges m) e';
    r23_npie : (im_npi (m_edges m') ≤ im_npi (m_edges m) + 1)%N;
    r23_npit : (im_npi (m_tets m') ≤ im_npi (m_tets m) + 1)%N;
    r23_gf : m_ghost_flags m' = m_ghost_flags m;
    r23_track : m_track m' = m_track m;
    r23_center : m_center m' = m_center m;
    r23_tm : m_track m = true → tmrel F [w_tet self; w_tet (av F self)]
      (ov (f23_tets F self id2 e) G) [w_tet self; w_tet (av F self); id2] (m_trimap m) (m_trimap m')
  }.

  (** Vertices on both sides of a triangle. *)
  Lemma f23_verts L F self : vok L F → vd L self →
    vd L (av F self) ∧ vv F (av F self) = A4 (q1 (vv F self)) (q0 (vv F self)) (q2 (vv F self)) (q3 (vv F (av F self))) ∧
    NoDup [q0 (vv F self); q1 (vv F self); q2 (vv F self); q3 (vv F self)] ∧
    q3 (vv F (av F self)) ∉ [q0 (vv F self); q1 (vv F self); q2 (vv F self)].
  Proof.
    intros Hok Hs. destruct (vo_adj _ _ Hok self Hs) as [Ha (T1 & T2 & T3)].
    split; [done|].
    assert (vv F (av F self) = A4 (q1 (vv F self)) (q0 (vv F self)) (q2 (vv F self)) (q3 (vv F (av F self)))) as E.
    { rewrite <- T1, <- T2, <- T3. by destruct (vv F (av F self)). }
    split; [done|]. pose proof (vv_nodup F self (proj2 Hs) (vo_nodup _ _ Hok _ (proj1 Hs))) as H1.
    pose proof (vv_nodup F (av F self) (proj2 Ha) (vo_nodup _ _ Hok _ (proj1 Ha))) as H2.
    split; [exact H1|]. rewrite E in H2. unfold list4 in H2. cbn [q0 q1 q2 q3] in H2.
    apply NoDup4 in H2 as (?&?&?&?&?&?). rewrite !not_elem_of_cons. repeat split; try congruence. apply not_elem_of_nil.
  Qed.

  (** The six outer neighbours are not replaced. *)
  Lemma f23_outer L F self : vok L F → vd L self → q3 (vv F self) ≠ q3 (vv F (av F self)) →
    ∀ p, p ∈ [P1032; P0231; P2130] →
      (w_tet (av F (to_perm self p)) ≠ w_tet self ∧ w_tet (av F (to_perm self p)) ≠ w_tet (av F self)) ∧
      (w_tet (av F (to_perm (av F self) p)) ≠ w_tet self ∧ w_tet (av F (to_perm (av F self) p)) ≠ w_tet (av F self)).
  Proof.
    intros Hok Hs Hne p Hp.
    destruct (f23_verts L F self Hok Hs) as (Ha & Ev & Hnd & Hn4).
    assert (∀ s, vd L s → w_tet (av F (to_perm s p)) ≠ w_tet s) as H1.
    { intros s Hs'. apply (av_other L F (to_perm s p)); [done|by apply vd_perm]. }
    assert (∀ s, vd L s → q3 (vv F s) ∈ list4 (t_vs (F (w_tet (av F (to_perm s p)))))) as H2.
    { intros s Hs'. destruct (vo_adj _ _ Hok (to_perm s p)) as [Ha' (T1 & T2 & T3)]; [by apply vd_perm|].
      rewrite <- vv_elem by apply Ha'. rewrite elem_list4. rewrite T3. right. right. left.
      rewrite vv_perm by apply Hs'. rewrite !elem_of_cons, elem_of_nil in Hp.
      destruct Hp as [-> | [-> | [-> | []]]]; done. }
    assert (q3 (vv F self) ∉ list4 (t_vs (F (w_tet (av F self))))) as H3.
    { rewrite <- vv_elem by apply Ha. rewrite Ev. rewrite elem_list4. cbn.
      apply NoDup4 in Hnd. destruct_and?. intros [E|[E|[E|E]]]; congruence. }
    assert (q3 (vv F (av F self)) ∉ list4 (t_vs (F (w_tet self)))) as H4.
    { rewrite <- vv_elem by apply Hs. rewrite elem_list4. rewrite !not_elem_of_cons in Hn4. naive_solver. }
    split; split.
    - by apply H1.
    - intros E. apply H3. rewrite <- E. by apply H2.
    - intros E. apply H4. rewrite <- E. by apply H2.
    - by apply H1.
  Qed.

  Lemma perm_faces e : e < 12 →
    let f p := to_perm (Walker 0 e) p in
    w_edge (f P1032) mod 4 ≠ w_edge (f P0231) mod 4 ∧ w_edge (f P1032) mod 4 ≠ w_edge (f P2130) mod 4 ∧
    w_edge (f P0231) mod 4 ≠ w_edge (f P2130) mod 4 ∧
    perm_inv (w_edge (f P1032)) (w_edge (f P1032)) = 3 ∧
    perm_inv (w_edge (f P0231)) (w_edge (f P0231)) = 3 ∧
    perm_inv (w_edge (f P2130)) (w_edge (f P2130)) = 3 ∧
    perm_inv e (w_edge (f P1032)) = 2 ∧
    perm_inv (w_edge (to_nfe (Walker 0 e))) (w_edge (f P2130)) = 2 ∧
    perm_inv (w_edge (to_pfe (Walker 0 e))) (w_edge (f P0231)) = 2.
  Proof. intros He. case12 e He; cbn; repeat split; done. Qed.

  Lemma flip23_run m L F self :
    vmesh m L F → vd L self → q3 (vv F self) ≠ q3 (vv F (av F self)) →
    (im_npi (m_tets m) + 1 ≤ u32_mod)%N → (im_npi (m_edges m) + 1 ≤ u32_mod)%N →
    ∃ m' id2 e G,
      flip23_unchecked m self = Some (m', (Walker (w_tet self) 2, Walker (w_tet (av F self)) 2, Walker id2 2)) ∧
      f23_result m L F self m' id2 e G.
  Proof.
    intros Hvm Hself Hne34 Hnt Hne. destruct Hvm as [Hmv Hwv Hwe Hwt Hg Hok Hex Heo Hvr Htm].
    pose proof (f23_verts L F self Hok Hself) as (Hoth & Ev & Hnd & Hn4).
    pose proof (f23_outer L F self Hok Hself Hne34) as Hout.
    pose proof (av_other L F self Hok Hself) as D10.
    unfold flip23_unchecked. rewrite (mv_adj _ _ _ _ Hmv) by done. cbn [mbind option_bind].
    assert (tst m L F) as Hst by done.
    unfold f23_at, f23_ab in *.
    set (other := av F self) in *.
    rewrite (mv_in _ _ _ _ Hmv (proj1 Hself)). cbn [mbind option_bind].
    destruct (insert_st m L F (F (w_tet self)) Hst ltac:(lia)) as (m1 & id2 & E1 & N1 & Hst1 & P1 & _ & A1 & A2 & A3 & A4' & A5 & A6').
    rewrite E1. clear E1.
    set (L' := ({[id2]} ∪ L : gset N)) in *.
    assert (∀ x, x ∈ L → x ∈ L') as Hsub by (intros x Hx; unfold L'; inu).
    set (id0 := w_tet self) in *. set (id1 := w_tet other) in *.
    assert (id0 ∈ L) as I0 by apply Hself. assert (id1 ∈ L) as I1 by apply Hoth.
    assert (id0 ∈ L') as I0' by by apply Hsub. assert (id1 ∈ L') as I1' by by apply Hsub.
    assert (id2 ∈ L') as I2' by (unfold L'; inu).
    assert (id0 ≠ id1 ∧ id0 ≠ id2 ∧ id1 ≠ id2) as (D01 & D02 & D12).
    { repeat split; intros E; [by apply D10|apply N1; by rewrite <- E|apply N1; by rewrite <- E]. }
    assert (NoDup [id0; id1; id2]) as Hnd3.
    { apply NoDup_cons. split; [rewrite !elem_of_cons, elem_of_nil; tauto|].
      apply NoDup_cons. split; [rewrite !elem_of_cons, elem_of_nil; tauto|]. apply NoDup_singleton. }
    assert (tst m1 L' (ov [(id0, F id0); (id1, F id1); (id2, F id0)] F)) as HS.
    { split; [|apply Hst1]. eapply mv_ext; [|apply Hst1]. intros x _. unfold fupd. cbn.
      destruct (decide (x = id0)) as [->|]; [by rewrite !decide_False|].
      destruct (decide (x = id1)) as [->|]; [by rewrite !decide_False by done|].
      destruct (decide (x = id2)) as [->|]; done. }
    clear Hst1.
    destruct (clear_locks_st m1 L' _ F id0 _ 0 HS eq_refl Hnd3 I0') as (m2 & E & HS2 & R2).
    rewrite E; clear E; cbn [mbind option_bind insert list_insert] in HS2 |- *. clear HS.
    destruct (clear_locks_st m2 L' _ F id1 _ 1 HS2 eq_refl Hnd3 I1') as (m3 & E & HS3 & R3).
    rewrite E; clear E; cbn [mbind option_bind insert list_insert] in HS3 |- *. clear HS2.
    destruct (clear_locks_st m3 L' _ F id2 _ 2 HS3 eq_refl Hnd3 I2') as (m4 & E & HS & R4).
    rewrite E; clear E; cbn [mbind option_bind insert list_insert] in HS |- *. clear HS3.
    set (l := [(id0, cl (F id0)); (id1, cl (F id1)); (id2, cl (F id0))]) in *.
    assert (l.*1 = [id0; id1; id2]) as El1 by reflexivity.
    destruct (trimap_remove_tets_st m4 L' (ov l F) [id0; id1] (proj1 HS)) as (tm1 & E & Htm1).
    { intros id. rewrite !elem_of_cons, elem_of_nil. by intros [-> | [-> | []]]. }
    rewrite E. clear E. cbn [mbind option_bind].
    set (m5 := with_trimap m4 tm1). assert (tst m5 L' (ov l F)) as HS5 by exact HS. clear HS.
    assert (∀ G w, w_tet w = id0 ∨ w_tet w = id1 → t_opp (ov l G (w_tet w)) = t_opp (F (w_tet w)) ∧ vv (ov l G) w = vv F w) as Hin.
    { intros G w Hw. unfold vv. destruct Hw as [-> | -> ].
      - by rewrite (ov_in l G id0 _ 0 eq_refl Hnd3).
      - by rewrite (ov_in l G id1 _ 1 eq_refl Hnd3). }
    assert (∀ p, p ∈ [P1032; P0231; P2130] → ∀ s, s = self ∨ s = other → w_tet (av F (to_perm s p)) ∉ l.*1 ∧ w_tet (av F (to_perm s p)) ∈ L) as HoutL.
    { intros p Hp s Hs'. destruct (Hout p Hp) as [[O1 O2] [O3 O4]].
      assert (w_tet (av F (to_perm s p)) ∈ L) as HL.
      { apply (vo_adj _ _ Hok). apply vd_perm. destruct Hs' as [-> | -> ]; done. }
      split; [|done]. rewrite El1, !not_elem_of_cons.
      assert (w_tet (av F (to_perm s p)) ≠ id2) by congruence.
      destruct Hs' as [-> | -> ]; (split; [done|]; split; [done|]; split; [done|]; by apply not_elem_of_nil). }
    destruct (perm_faces (w_edge self) (proj2 Hself)) as (S1&S2&S3&S4&S5&S6&S7&S8&S9).
    destruct (perm_faces (w_edge other) (proj2 Hoth)) as (O1&O2&O3&O4&O5&O6&O7&O8&O9).
    pose proof (λ p, vd_perm L self p Hself) as Hvp. pose proof (λ p, vd_perm L other p Hoth) as Hvo.
    assert (∀ p, w_edge (to_perm self p) < 12) as Hep by (intros p; apply Hvp).
    assert (P1032 ∈ [P1032; P0231; P2130]) as J0 by (repeat constructor).
    assert (P0231 ∈ [P1032; P0231; P2130]) as J1 by (repeat constructor).
    assert (P2130 ∈ [P1032; P0231; P2130]) as J2 by (repeat constructor).
    assert (∀ p q, ¬ sf (to_perm self p) (to_perm other q)) as Hso.
    { intros p q [E _]. by apply D01. }
    Ltac rl0 := by intros ? ? ?%elem_of_nil.
    Ltac rlt := let H := fresh "H" in intros ? ? H; rewrite ?elem_of_cons, ?elem_of_nil in H;
      repeat (destruct H as [[= -> -> ]|H]; [eexists; split; [reflexivity|split; [auto|first [by auto | intros [_ ?]; cbn in *; congruence]]]|]); done.
    destruct (relink_in m5 L' L l F F [] (to_perm self P1032) id0 (w_edge (to_perm self P1032)) 3 HS5 (relinked_nil F) Hok Hsub
      (Hvp _) (proj1 (Hin _ _ (or_introl eq_refl))) (proj1 (HoutL _ J0 _ (or_introl eq_refl))) (Hep _) S4 ltac:(rl0)) as (m6 & G6 & E & HS6 & Hrl6 & R6).
    rewrite E; clear E; cbn [mbind option_bind]. 
    destruct (relink_in m6 L' L l F G6 _ (to_perm self P0231) id1 (w_edge (to_perm self P0231)) 3 HS6 Hrl6 Hok Hsub
      (Hvp _) (proj1 (Hin _ _ (or_introl eq_refl))) (proj1 (HoutL _ J1 _ (or_introl eq_refl))) (Hep _) S5 ltac:(rlt)) as (m7 & G7 & E & HS7 & Hrl7 & R7).
    rewrite E; clear E; cbn [mbind option_bind].
    destruct (relink_in m7 L' L l F G7 _ (to_perm self P2130) id2 (w_edge (to_perm self P2130)) 3 HS7 Hrl7 Hok Hsub
      (Hvp _) (proj1 (Hin _ _ (or_introl eq_refl))) (proj1 (HoutL _ J2 _ (or_introl eq_refl))) (Hep _) S6 ltac:(rlt)) as (m8 & G8 & E & HS8 & Hrl8 & R8).
    rewrite E; clear E; cbn [mbind option_bind].
    destruct (relink_in m8 L' L l F G8 _ (to_perm other P1032) id0 (w_edge other) 2 HS8 Hrl8 Hok Hsub
      (Hvo _) (proj1 (Hin _ _ (or_intror eq_refl))) (proj1 (HoutL _ J0 _ (or_intror eq_refl))) (proj2 Hoth) O7 ltac:(rlt)) as (m9 & G9 & E & HS9 & Hrl9 & R9).
    rewrite E; clear E; cbn [mbind option_bind].
    destruct (relink_in m9 L' L l F G9 _ (to_perm other P2130) id1 (w_edge (to_nfe other)) 2 HS9 Hrl9 Hok Hsub
      (Hvo _) (proj1 (Hin _ _ (or_intror eq_refl))) (proj1 (HoutL _ J2 _ (or_intror eq_refl))) (to_nfe_ok _) O8 ltac:(rlt)) as (m10 & G10 & E & HS10 & Hrl10 & R10).
    rewrite E; clear E; cbn [mbind option_bind].
    destruct (relink_in m10 L' L l F G10 _ (to_perm other P0231) id2 (w_edge (to_pfe other)) 2 HS10 Hrl10 Hok Hsub
      (Hvo _) (proj1 (Hin _ _ (or_intror eq_refl))) (proj1 (HoutL _ J1 _ (or_intror eq_refl))) (to_pfe_ok _) O9 ltac:(rlt)) as (m11 & G & E & HS & Hrl & R11).
    rewrite E; clear E; cbn [mbind option_bind].
    clear HS5 HS6 HS7 HS8 HS9 HS10 Hrl6 Hrl7 Hrl8 Hrl9 Hrl10.
    assert (w_tet self ∈ L') as Is' by exact I0'. assert (w_tet other ∈ L') as Io' by exact I1'.
    rewrite (mv_verts _ _ _ _ (proj1 HS) Is'), (mv_fourth _ _ _ _ (proj1 HS) Io'). cbn [mbind option_bind].
    rewrite (proj2 (Hin G self (or_introl eq_refl))), (proj2 (Hin G other (or_intror eq_refl))).
    set (v1 := q0 (vv F self)). set (v0 := q1 (vv F self)). set (v2 := q2 (vv F self)). set (v3 := q3 (vv F self)).
    set (v4 := q3 (vv F other)).
    change (vert_ref (vert_ref (vert_ref (vert_ref (vert_ref m11 v0 (Walker id0 3)) v1 (Walker id1 3)) v2 (Walker id2 3)) v3
      (Walker id0 1)) v4 (Walker id0 0)) with (vert_refs m11 (f23_refs F self id2)).
    set (m12 := vert_refs m11 _).
    assert (same_rest m1 m4) as Hr4.
    { repeat (eapply same_rest_trans; [|eassumption]). apply same_rest_refl. }
    assert (same_rest m5 m11) as Hr11.
    { repeat (eapply same_rest_trans; [|eassumption]). apply same_rest_refl. }
    assert (m_verts m11 = m_verts m) as Ev11.
    { rewrite (sr_verts _ _ Hr11). cbn. rewrite (sr_verts _ _ Hr4). done. }
    destruct (vert_refs_vrel m11 (f23_refs F self id2)) as (Hvrel & Q1 & Q2 & Q3 & Q4 & Q5 & Q6); [by rewrite Ev11|].
    fold m12 in Hvrel, Q1, Q2, Q3, Q4, Q5, Q6. rewrite Ev11 in Hvrel.
    assert (tst m12 L' (ov l G)) as HS12.
    { unfold tst, mv, tet_get. rewrite Q1. exact HS. }
    clearbody m12. clear HS.
    unfold edge_insert.
    assert (m_edges m12 = m_edges m) as Ee12.
    { rewrite Q3, (sr_edges _ _ Hr11). cbn. rewrite (sr_edges _ _ Hr4). done. }
    rewrite Ee12.
    destruct (insert_facts (m_edges m) (uedge_new (v3, v4)) Hwe Hne) as (es' & e & Ees & We & X1 & X2 & X3 & X4).
    rewrite Ees.
    set (m13 := with_edges m12 es').
    assert (tst m13 L' (ov l G)) as HS13 by exact HS12. clear HS12.
    cbn [mfoldl].
    destruct (f23_fill m13 L' l F G _ 0 id0 (cl (F id0)) v0 v1 v3 v4 id1 id2 (av F (to_perm other P1032)) (av F (to_perm self P1032)) e
      HS13 Hrl eq_refl Hnd3 I0' eq_refl) as (m14 & E & HS14 & R14).
    1,3: apply Hsub. 1-4: apply HoutL; auto.
    rewrite E; clear E; cbn [mbind option_bind insert list_insert] in HS14 |- *.
    match type of HS14 with context [ov ?x G] => set (l14 := x) in * end.
    assert (NoDup l14.*1) as Hnd14 by exact Hnd3.
    destruct (f23_fill m14 L' l14 F G _ 1 id1 (cl (F id1)) v1 v2 v3 v4 id2 id0 (av F (to_perm other P2130)) (av F (to_perm self P0231)) e
      HS14 Hrl eq_refl Hnd14 I1' eq_refl) as (m15 & E & HS15 & R15).
    1,3: apply Hsub. 1-4: apply HoutL; auto.
    rewrite E; clear E; cbn [mbind option_bind insert list_insert] in HS15 |- *.
    match type of HS15 with context [ov ?x G] => set (l15 := x) in * end.
    assert (NoDup l15.*1) as Hnd15 by exact Hnd3.
    destruct (f23_fill m15 L' l15 F G _ 2 id2 (cl (F id0)) v2 v0 v3 v4 id0 id1 (av F (to_perm other P0231)) (av F (to_perm self P2130)) e
      HS15 Hrl eq_refl Hnd15 I2' eq_refl) as (m16 & E & HS16 & R16).
    1,3: apply Hsub. 1-4: apply HoutL; auto.
    rewrite E; clear E; cbn [mbind option_bind insert list_insert] in HS16 |- *.
    assert (tst m16 L' (ov (f23_tets F self id2 e) G)) as HS by exact HS16.
    clear HS13 HS14 HS15 HS16.
    destruct (trimap_insert_tets_st m16 L' (ov (f23_tets F self id2 e) G) [id0; id1; id2] (proj1 HS)) as (tm2 & E & Htm2).
    { intros id. rewrite !elem_of_cons, elem_of_nil. by intros [-> | [-> | [-> | []]]]. }
    rewrite E; clear E; cbn [mbind option_bind].
    assert (same_rest m13 m16) as Hr.
    { repeat (eapply same_rest_trans; [|eassumption]). apply same_rest_refl. }
    eexists _, id2, e, G. split; [reflexivity|].
    assert (m_track m4 = m_track m) as Et4 by (rewrite (sr_track _ _ Hr4); congruence).
    assert (m_track m16 = m_track m) as Et16.
    { rewrite (sr_track _ _ Hr). cbn. rewrite Q5, (sr_track _ _ Hr11). cbn. done. }
    split; fold other id0 id1; cbn [m_verts m_edges m_tets m_ghost_flags m_track m_center m_trimap with_trimap].
    - done.
    - done.
    - exact HS.
    - exact Hrl.
    - by rewrite (sr_verts _ _ Hr).
    - rewrite (sr_edges _ _ Hr). done.
    - rewrite (sr_edges _ _ Hr). done.
    - intros e' He. rewrite (sr_edges _ _ Hr). by apply X3.
    - rewrite (sr_edges _ _ Hr). done.
    - rewrite (sr_npi _ _ Hr). cbn [m13 m_tets with_edges]. rewrite Q1. rewrite (sr_npi _ _ Hr11). cbn [m5 m_tets with_trimap].
      rewrite (sr_npi _ _ Hr4). exact P1.
    - rewrite (sr_gf _ _ Hr). cbn. rewrite Q2, (sr_gf _ _ Hr11). cbn. rewrite (sr_gf _ _ Hr4). congruence.
    - exact Et16.
    - rewrite (sr_center _ _ Hr). cbn. rewrite Q6, (sr_center _ _ Hr11). cbn. rewrite (sr_center _ _ Hr4). congruence.
    - intros Ht. exists tm1. split.
      + rewrite Et4 in Htm1. specialize (Htm1 Ht).
        assert (tkeys (ov l F) [id0; id1] = tkeys F [id0; id1]) as Ek.
        { unfold tkeys, tkey, vv. cbn [mbind list_bind fmap list_fmap w_tet w_edge app].
          by rewrite (ov_in l F id0 _ 0 eq_refl Hnd3), (ov_in l F id1 _ 1 eq_refl Hnd3). }
        rewrite Ek in Htm1. intros k. specialize (Htm1 k).
        replace (m_trimap m) with (m_trimap m4); [done|]. rewrite (sr_tm _ _ Hr4). congruence.
      + cbv zeta. rewrite Et16 in Htm2. destruct (Htm2 Ht) as [U1 U2].
        split; [|exact U2]. intros k Hk. rewrite U1 by done. rewrite (sr_tm _ _ Hr). cbn. rewrite Q4, (sr_tm _ _ Hr11). done.
  Qed.

  (** What is known about the three new tets and the six outer neighbours. *)
  Record f23_shape L F (self : walker) (id2 e : N) G (O : gset N) F' (v0 v1 v2 v3 v4 : N) : Prop := F23Shape {
    s23_at i : i < 3 → vd O (f23_at F self i) ∧ av F' (f23_at F self i) = Walker (nth i [w_tet self; w_tet (av F self); id2] 0%N) 3 ∧
       av F (f23_at F self i) = to_perm self (nth i [P1032; P0231; P2130] P0123);
    s23_ab i : i < 3 → vd O (f23_ab F self i) ∧ av F' (f23_ab F self i) = Walker (nth i [w_tet self; w_tet (av F self); id2] 0%N) 2 ∧
       av F (f23_ab F self i) = to_perm (av F self) (nth i [P1032; P2130; P0231] P0123);
    s23_self : vv F self = A4 v1 v0 v2 v3;
    s23_other : vv F (av F self) = A4 v0 v1 v2 v4;
    s23_F0 : F' (w_tet self) = f23_tet F (F (w_tet self)) v0 v1 v3 v4 (w_tet (av F self)) id2 (f23_ab F self 0) (f23_at F self 0) e;
    s23_F1 : F' (w_tet (av F self)) = f23_tet F (F (w_tet (av F self))) v1 v2 v3 v4 id2 (w_tet self) (f23_ab F self 1) (f23_at F self 1) e;
    s23_F2 : F' id2 = f23_tet F (F (w_tet self)) v2 v0 v3 v4 (w_tet self) (w_tet (av F self)) (f23_ab F self 2) (f23_at F self 2) e;
    s23_O x : x ∈ O → F' x = G x;
    s23_L : L = O ∪ {[w_tet self; w_tet (av F self)]};
    s23_disj : O ## {[w_tet self; w_tet (av F self)]};
    s23_id2 : id2 ∉ O;
    s23_ids : w_tet self ≠ w_tet (av F self) ∧ w_tet self ≠ id2 ∧ w_tet (av F self) ≠ id2;
    s23_nd : v0 ≠ v1 ∧ v0 ≠ v2 ∧ v0 ≠ v3 ∧ v1 ≠ v2 ∧ v1 ≠ v3 ∧ v2 ≠ v3 ∧ v0 ≠ v4 ∧ v1 ≠ v4 ∧ v2 ≠ v4 ∧ v3 ≠ v4;
    s23_att i : i < 3 → tri3 (vv F (f23_at F self i)) = (nth i [v1; v2; v0] 0%N, nth i [v0; v1; v2] 0%N, v3);
    s23_abt i : i < 3 → tri3 (vv F (f23_ab F self i)) = (nth i [v0; v1; v2] 0%N, nth i [v1; v2; v0] 0%N, v4);
    s23_opp id : id ∈ O → oppok F' id }.

  Lemma flip23_shape m L F self m' id2 e G :
    vmesh m L F → vd L self → q3 (vv F self) ≠ q3 (vv F (av F self)) →
    f23_result m L F self m' id2 e G →
    f23_shape L F self id2 e G (L ∖ {[w_tet self; w_tet (av F self)]}) (ov (f23_tets F self id2 e) G)
      (q1 (vv F self)) (q0 (vv F self)) (q2 (vv F self)) (q3 (vv F self)) (q3 (vv F (av F self))).
  Proof.
    intros Hvm Hself Hne34 Hres. destruct Hres as [N2 He Hst Hrl _ _ _ _ _ _ _ _ _ _].
    destruct Hvm as [Hmv Hwv Hwe Hwt Hg Hok Hex Heo Hvr Htm].
    pose proof (f23_verts L F self Hok Hself) as (Hoth & Ev & Hnd & Hn4).
    pose proof (f23_outer L F self Hok Hself Hne34) as Hout.
    pose proof (av_other L F self Hok Hself) as D10.
    set (O := L ∖ _). set (F' := ov _ G).
    set (v1 := q0 (vv F self)) in *. set (v0 := q1 (vv F self)) in *. set (v2 := q2 (vv F self)) in *.
    set (v3 := q3 (vv F self)) in *. set (v4 := q3 (vv F (av F self))) in *.
    assert (w_tet self ≠ w_tet (av F self) ∧ w_tet self ≠ id2 ∧ w_tet (av F self) ≠ id2) as (D01 & D02 & D12).
    { pose proof (proj1 Hself). pose proof (proj1 Hoth). repeat split; intros E; congruence. }
    assert (∀ p, p ∈ [P1032; P0231; P2130] → vd O (av F (to_perm self p)) ∧ vd O (av F (to_perm (av F self) p))) as HvO.
    { intros p Hp. destruct (Hout p Hp) as [[O1 O2] [O3 O4]].
      destruct (vo_adj _ _ Hok (to_perm self p)) as [[A1 A2] _]; [by apply vd_perm|].
      destruct (vo_adj _ _ Hok (to_perm (av F self) p)) as [[B1 B2] _]; [by apply vd_perm|].
      unfold O. split; (split; [|done]); rewrite elem_of_difference, elem_of_union, !elem_of_singleton; tauto. }
    assert (P1032 ∈ [P1032; P0231; P2130]) as J0 by (repeat constructor).
    assert (P0231 ∈ [P1032; P0231; P2130]) as J1 by (repeat constructor).
    assert (P2130 ∈ [P1032; P0231; P2130]) as J2 by (repeat constructor).
    assert (∀ x, x ∈ O → F' x = G x) as HFO.
    { intros x Hx. unfold O in Hx. apply elem_of_difference in Hx as [Hx1 Hx2].
      rewrite elem_of_union, !elem_of_singleton in Hx2. unfold F'. apply ov_out. cbn.
      rewrite !not_elem_of_cons. repeat split; [tauto|tauto|congruence|apply not_elem_of_nil]. }
    assert (NoDup (f23_tets F self id2 e).*1) as Hnd3.
    { cbn. apply NoDup_cons. split; [rewrite !elem_of_cons, elem_of_nil; tauto|].
      apply NoDup_cons. split; [rewrite !elem_of_cons, elem_of_nil; tauto|]. apply NoDup_singleton. }
    assert (∀ a u, (a, u) ∈ f23_links F self id2 → w_tet a ∈ O → av F' a = u) as Hlink.
    { intros a u Hin Ha. unfold av. rewrite HFO by done. by apply (rl_in _ _ _ Hrl). }
    split.
    - intros i Hi. destruct i as [|[|[|]]]; [| | |lia]; unfold f23_at; cbn [nth];
      (split; [by apply HvO|]; split; [apply Hlink; [|by apply HvO]|by apply (av_av L F); [|apply vd_perm]]);
      unfold f23_links, f23_at; cbn [nth]; rewrite !elem_of_cons; tauto.
    - intros i Hi. destruct i as [|[|[|]]]; [| | |lia]; unfold f23_ab; cbn [nth];
      (split; [by apply HvO|]; split; [apply Hlink; [|by apply HvO]|by apply (av_av L F); [|apply vd_perm]]);
      unfold f23_links, f23_ab; cbn [nth]; rewrite !elem_of_cons; tauto.
    - unfold v0, v1, v2, v3. by destruct (vv F self).
    - exact Ev.
    - by apply (ov_in (f23_tets F self id2 e) G _ _ 0).
    - by apply (ov_in (f23_tets F self id2 e) G _ _ 1).
    - by apply (ov_in (f23_tets F self id2 e) G _ _ 2).
    - exact HFO.
    - apply set_eq. intros x. unfold O. rewrite elem_of_union, elem_of_difference.
      split; [|intros [[? _]|[->%elem_of_singleton | ->%elem_of_singleton]%elem_of_union]; [done|apply Hself|apply Hoth]].
      intros Hx. destruct (decide (x ∈ ({[w_tet self; w_tet (av F self)]} : gset N))); tauto.
    - unfold O. clear. set_solver.
    - unfold O. rewrite elem_of_difference. tauto.
    - done.
    - apply NoDup4 in Hnd as (?&?&?&?&?&?). rewrite !not_elem_of_cons in Hn4. destruct Hn4 as (?&?&?&_).
      repeat split; congruence.
    - intros i Hi. unfold f23_at.
      destruct (vo_adj _ _ Hok (to_perm self (nth i [P1032; P0231; P2130] P0123))) as [_ (T1 & T2 & T3)]; [by apply vd_perm|].
      unfold tri3. rewrite T1, T2, T3. rewrite vv_perm by apply Hself.
      destruct i as [|[|[|]]]; [done|done|done|lia].
    - intros i Hi. unfold f23_ab.
      destruct (vo_adj _ _ Hok (to_perm (av F self) (nth i [P1032; P2130; P0231] P0123))) as [_ (T1 & T2 & T3)]; [by apply vd_perm|].
      unfold tri3. rewrite T1, T2, T3. rewrite vv_perm by apply Hoth. rewrite Ev.
      destruct i as [|[|[|]]]; [done|done|done|lia].
    - intros id Hid. assert (oppok G id) as H.
      { apply (rl_oppok _ _ _ Hrl). apply (vok_oppok L F); [done|]. unfold O in Hid. by apply elem_of_difference in Hid as [? _]. }
      intros i Hi. rewrite HFO by done. by apply H.
  Qed.
End flip23.
