(** Meshes made by [TetMesh::new] and the flips have no doubled tets. *)
From stdpp Require Import base numbers list gmap option relations.
From Coq Require Import NArith ZArith Lia.
From Verif Require Import IdMapModel WalkerModel WalkerSpec WalkerProofs WalkerMore MeshModel MeshOps MeshSpec MeshViews FlipSpec HistSpec FlipBase
  Flip14Ok Flip23Ok Flip32Ok Flip44Ok MeshOpsOk NewMesh History Reach IterProofs FlipMore QualModel ProgSpec SortProofs ProgBase ProgFlip.
Local Open Scope nat_scope.

Section hist.
  Context {V T : Type}.
  Implicit Types (m : mesh V T) (w : walker).

  Lemma thick_same m m' : (∀ id, t_vs <$> tet_get m' id = t_vs <$> tet_get m id) → thick m → thick m'.
  Proof.
    rewrite !thick_vs. intros H Hth id id' vs vs' E E'. unfold vs_of in *. 
    apply Hth; [by rewrite <- H|by rewrite <- H].
  Qed.
  Lemma thick_tets m m' : m_tets m' = m_tets m → thick m → thick m'.
  Proof. intros E. apply thick_same. intros id. unfold tet_get. by rewrite E. Qed.

  Lemma thick14 m w v m' ws : mesh_ok m → valid m w → ¬ attached m v → flip14_spec m w v m' ws → thick m → thick m'.
  Proof.
    intros Hok Hw Hna Hs. destruct (fs14_repl _ _ _ _ _ Hs) as (a & b & c & d & id1 & id2 & id3 & E0 & Hnd & _ & Hrep).
    assert (vs_of m (w_tet w) = Some (A4 a b c d)) as Ev.
    { unfold vs_of. destruct (tet_get m (w_tet w)); [|done]. cbn in *. congruence. }
    assert (NoDup [a; b; c; d]) as Hd.
    { pose proof Ev as Ev'. unfold vs_of in Ev'. destruct (tet_get m (w_tet w)) as [t|] eqn:Et; [|done]. cbn in Ev'. injection Ev' as Evs.
      apply (ok_distinct m Hok (Walker (w_tet w) 3) a b c d).
      - split; [eexists; exact Et|cbn; lia].
      - unfold w_verts, w_first, w_second, w_third, w_fourth. cbn [w_tet w_edge]. rewrite Et. cbn. by rewrite Evs. }
    assert (∀ id vs, vs_of m id = Some vs → v ∉ list4 vs) as Hno.
    { intros id vs E Hin. apply Hna, attached_vs. unfold vs_of in E. destruct (tet_get m id) as [t|] eqn:Et; [|done]. injection E as <-. eauto. }
    assert (v ∉ [a; b; c; d]) as Hv by (intros H; by apply (Hno _ _ Ev)).
    assert (∀ id vs, vs_of m' id = Some vs →
      (id, vs) ∈ [(w_tet w, A4 v b c d); (id1, A4 a v c d); (id2, A4 a b v d); (id3, A4 a b c v)] ∨ vs_of m id = Some vs) as HN.
    { intros id vs E. apply (vs_replaces _ _ _ _ _ _ _ _ Hrep) in E as [H|[_ H]]; [by left|by right]. }
    assert (∀ id vs, (id, vs) ∈ [(w_tet w, A4 v b c d); (id1, A4 a v c d); (id2, A4 a b v d); (id3, A4 a b c v)] → v ∈ list4 vs) as Hin.
    { intros id vs H. rewrite ?elem_of_cons, ?elem_of_nil in H. destruct H as [[= -> ->]|[[= -> ->]|[[= -> ->]|[[= -> ->]|[]]]]];
        unfold list4; cbn [q0 q1 q2 q3]; rewrite ?elem_of_cons; clear; tauto. }
    assert (∀ id vs, (id, vs) ∈ [(w_tet w, A4 v b c d); (id1, A4 a v c d); (id2, A4 a b v d); (id3, A4 a b c v)] →
      ∃ x, (id, x) ∈ [(w_tet w, a); (id1, b); (id2, c); (id3, d)] ∧ ∀ y, y ∈ [a; b; c; d] → y ∈ list4 vs ↔ y ≠ x) as Hlack.
    { intros id vs H. rewrite ?elem_of_cons, ?elem_of_nil in H. rewrite ?elem_of_cons, ?elem_of_nil in Hv. apply NoDup4 in Hd as (D1&D2&D3&D4&D5&D6). cbn in D1, D2, D3, D4, D5, D6.
      clear - H D1 D2 D3 D4 D5 D6 Hv.
      destruct H as [[= -> ->]|[[= -> ->]|[[= -> ->]|[[= -> ->]|[]]]]]; eexists; (split; [rewrite ?elem_of_cons; eauto 6|]);
        intros y; rewrite elem_list4, ?elem_of_cons, ?elem_of_nil; cbn [q0 q1 q2 q3]; intros [->|[->|[->|[->|[]]]]]; intuition congruence. }
    rewrite !thick_vs. intros Hth id id' vs vs' E E' Hsame.
    destruct (HN id vs E) as [H|H], (HN id' vs' E') as [H'|H'].
    - destruct (Hlack id vs H) as (x & Hx & Lx), (Hlack id' vs' H') as (x' & Hx' & Lx').
      assert (x ∈ [a; b; c; d]) as Ix by (clear - Hx; set_solver).
      assert (x = x') as <-.
      { destruct (decide (x = x')) as [|Hne]; [done|]. exfalso. apply (Lx x Ix); [|done]. apply Hsame, Lx'; done. }
      apply NoDup4 in Hd as (?&?&?&?&?&?). cbn in *. rewrite ?elem_of_cons, ?elem_of_nil in Hx. rewrite ?elem_of_cons, ?elem_of_nil in Hx'.
      destruct Hx as [[= -> ->]|[[= -> ->]|[[= -> ->]|[[= -> ->]|[]]]]], Hx' as [K|[K|[K|[K|[]]]]]; injection K; congruence.
    - exfalso. apply (Hno _ _ H'), Hsame. by eapply Hin.
    - exfalso. apply (Hno _ _ H), Hsame. by eapply Hin.
    - by apply (Hth id id' vs vs').
  Qed.

  Lemma thick23 m w m' ws : mesh_ok m → flip23_ready m w → roomy m 1 1 → flip23_unchecked m w = Some (m', ws) → thick m → thick m'.
  Proof.
    intros Hok (Hw & other & d & e & Ho & Ed & Ee & Hde & Hj) Hr Er. apply roomy_id in Hr.
    destruct (wverts_ex m w Hw) as (a & b & c & d' & Ev).
    assert (d' = d) as -> by (pose proof (wverts_fourth _ _ _ _ _ _ Ev); congruence).
    destruct (flip23_step m w other a b c d e Hok Hw Ev Ho Ee Hde Hj) as (m1 & ws1 & id2 & E & Hs & Hok'); [by eapply room_weaken|].
    rewrite Er in E. injection E as <- <-. apply (ef_thick _ _ _ _ (effect23 m w m' ws a b c d e other id2 Hok Hok' Hw Hs Hde Hj)).
  Qed.
  Lemma thick32 m w m' ws : mesh_ok m → flip32_ready m w → flip32_unchecked m w = Some (m', ws) → thick m → thick m'.
  Proof.
    intros Hok (Hw & (o1 & o2 & R1 & R2 & R3) & (o1' & x & y & z & R1' & Exy & Ez & Hn)) Er.
    rewrite R1 in R1'. injection R1' as <-.
    destruct (wverts_ex m w Hw) as (p & q & x' & y' & Ev).
    assert (x' = x ∧ y' = y) as [-> ->].
    { pose proof (walker_accessors m w _ _ _ _ Ev) as (_ & _ & _ & _ & _ & K & _). rewrite Exy in K. by injection K. }
    destruct (flip32_step m w o1 o2 p q x y z Hok Hw Ev R1 Ez R2 R3 Hn) as (m1 & ws1 & E & Hs & Hok').
    rewrite Er in E. injection E as <- <-. apply (ef_thick _ _ _ _ (effect32 m w m' ws p q x y z o1 o2 Hok Hok' Hw Hs Hn)).
  Qed.
  Lemma thick44 m w m' ws : mesh_ok m → flip44_ready m w → roomy m 1 1 → flip44_unchecked m w = Some (m', ws) → thick m → thick m'.
  Proof.
    intros Hok (Hw & r1 & r2 & r3 & x & z & R1 & R2 & R3 & R4 & Hne & Ex & Ez & Hj) Hr Er. apply roomy_id in Hr.
    destruct (wverts_ex m w Hw) as (p & q & x' & y & Ev).
    assert (x' = x) as -> by (pose proof (walker_accessors m w _ _ _ _ Ev) as (_ & _ & K & _); congruence).
    destruct (flip44_step m w r1 r2 r3 p q x y z Hok Hw Ev R1 R2 R3 R4 Hne Ez Hj) as (m1 & ws1 & u & E & Hs & Hok'); [by eapply room_weaken|].
    rewrite Er in E. injection E as <- <-.
    destruct (ring_info m w r1 _ _ _ _ Hok Hw Ev R1) as (V1 & (z' & E1)).
    destruct (ring_info m r1 r2 _ _ _ _ Hok V1 E1 R2) as (V2 & (u' & E2)).
    destruct (ring_info m r2 r3 _ _ _ _ Hok V2 E2 R3) as (V3 & _).
    apply (ef_thick _ _ _ _ (effect44 m w m' ws p q x y z u r1 r2 r3 Hok Hok' Hw V1 V2 V3 Hs Hj)).
  Qed.

  Lemma thick_op m o m' : mesh_ok m → admissible m o → run_op m o = Some m' → thick m → thick m'.
  Proof.
    intros Hok Ha. destruct o as [p v|w p v|w v|w|w|w|w|w|b|w b|w b]; cbn [run_op admissible] in *.
    - destruct (add_vertex_step m p v Hok Ha) as (m1 & id & -> & _ & _ & _ & _ & _ & _ & _ & _ & Et & _). intros [= <-]. by apply thick_tets.
    - destruct Ha as (Hn & Hw & Hc & Hr).
      destruct (add_vertex_step m p v Hok Hn) as (m1 & id & -> & Hok1 & Hf & Hna & Hng & Hid & Hoth & _ & Ee & Et & _).
      assert (valid m1 w) as Hw1 by (by apply (valid_tets _ _ _ Et)).
      destruct (step14 m1 w id) as (m2 & ws & -> & Hs & _); [done|done| | | |done|].
      + revert Hc. unfold canonical_start, w_first, tet_get. by rewrite Et.
      + revert Hr. unfold roomy. by rewrite Et, Ee.
      + by rewrite Hid.
      + intros [= <-] Hth. eapply thick14; [done|done| |done|by eapply thick_tets]. done.
    - destruct Ha as (Hw & Hc & Hr & Hv & Hna).
      destruct (step14 m w v Hok Hw Hc Hr Hv Hna) as (m1 & ws & -> & Hs & _). intros [= <-]. by eapply thick14.
    - destruct Ha as [Ha Hr]. intros ([m1 ws] & E & ->)%fmap_Some. cbn [fst]. by eapply thick23.
    - intros ([m1 ws] & E & ->)%fmap_Some. cbn [fst]. by eapply thick32.
    - destruct Ha as [Ha Hr]. intros ([m1 ws] & E & ->)%fmap_Some. cbn [fst]. by eapply thick44.
    - destruct Ha as [Hw Ha]. destruct (flip23_unlocked_cases m w Hw) as [[_ ->]|[Hl ->]]; [by intros [= <-]|].
      destruct (Ha Hl) as [Ha' Hr]. destruct (flip23_unchecked m w) as [[m1 ws]|] eqn:E; [|done]. intros [= <-]. by eapply thick23.
    - destruct Ha as [Hw Ha]. destruct (flip32_unlocked_cases m w Hok Hw) as [[_ ->]|(H3 & Hl & ->)]; [by intros [= <-]|].
      destruct (flip32_unchecked m w) as [[m1 ws]|] eqn:E; [|done]. intros [= <-]. eapply thick32; [done| |done]. split; [done|]. split; [done|by apply Ha].
    - destruct (set_track_step m b Hok) as (m1 & -> & _ & _ & _ & _ & _ & Et & _). intros [= <-]. by apply thick_tets.
    - destruct (wverts_ex m w Ha) as (p & q & x & y & E).
      destruct (set_tri_lock_step m w b (p, q, x) Hok Ha) as (m1 & -> & _ & Hnf & _).
      { by apply (walker_accessors m w p q x y). }
      intros [= <-]. apply thick_same. intros id. specialize (Hnf id). unfold no_flags in Hnf.
      destruct (tet_get m1 id), (tet_get m id); cbn in *; congruence.
    - destruct (set_edge_lock_step m w b Hok Ha) as (m1 & e & ue & -> & _ & _ & _ & _ & _ & _ & Ev & _ & Et & _). intros [= <-]. by apply thick_tets.
  Qed.

  Lemma thick_new sim ctr (ps : arr4 (pt * V)) (d : T) m : mesh_new sim ctr ps d = Some m → thick m.
  Proof.
    intros E. destruct (new_facts sim ctr ps d) as (m1 & E1 & Hok & Hc & _). rewrite E in E1. injection E1 as <-.
    destruct (new_unpack _ m Hok Hc) as (_ & _ & Hids & T0 & (T1 & T2 & T3 & T4) & _). clear E Hc.
    assert (∀ id vs, vs_of m id = Some vs → ∃ l, (id, l) ∈ [(0, [0;1;2;3]); (1, [1;2;3;GHOST]); (2, [0;2;3;GHOST]);
      (3, if sim (q0 ps).1 (q1 ps).1 (q2 ps).1 (q3 ps).1 then [0;1;3;GHOST] else [0;1;2;GHOST]); (4, if sim (q0 ps).1 (q1 ps).1 (q2 ps).1 (q3 ps).1 then [0;1;2;GHOST] else [0;1;3;GHOST])]%N ∧
      ∀ x, x ∈ list4 vs ↔ x ∈ l) as HL.
    { intros id vs E. assert (id ∈ [0; 1; 2; 3; 4]%N) as Hid. { apply Hids. unfold vs_of in E. destruct (tet_get m id); [eauto|done]. }
      unfold vs_of in E. rewrite ?elem_of_cons, ?elem_of_nil in Hid.
      destruct Hid as [->|[->|[->|[->|[->|[]]]]]]; destruct (sim _ _ _ _); 
        rewrite E in *; match goal with H : Some vs = Some _ |- _ => injection H as -> end; clear; eexists; (split; [rewrite ?elem_of_cons; tauto|]);
        intros x; rewrite elem_list4, ?elem_of_cons, ?elem_of_nil; cbn [q0 q1 q2 q3]; tauto. }
    rewrite thick_vs. intros id id' vs vs' E E' Hs. destruct (HL id vs E) as (l & Hl & Sl), (HL id' vs' E') as (l' & Hl' & Sl').
    assert (∀ x, x ∈ l ↔ x ∈ l') as Hll by (intros x; by rewrite <- Sl, <- Sl'). clear - Hl Hl' Hll.
    assert (∀ x : N, bool_decide (x ∈ l) = bool_decide (x ∈ l')) as Hb by (intros x; by apply bool_decide_ext). clear Hll.
    pose proof (Hb 0%N) as S0. pose proof (Hb 1%N) as S1. pose proof (Hb 2%N) as S2. pose proof (Hb 3%N) as S3. pose proof (Hb GHOST) as S4. clear Hb.
    destruct (sim _ _ _ _); rewrite ?elem_of_cons, ?elem_of_nil in Hl; rewrite ?elem_of_cons, ?elem_of_nil in Hl';
      destruct Hl as [[= -> ->]|[[= -> ->]|[[= -> ->]|[[= -> ->]|[[= -> ->]|[]]]]]], Hl' as [[= -> ->]|[[= -> ->]|[[= -> ->]|[[= -> ->]|[[= -> ->]|[]]]]]];
      try done; exfalso; clear -S0 S1 S2 S3 S4; vm_compute in S0, S1, S2, S3, S4; congruence.
  Qed.

  Lemma thick_ops m os m' : mesh_ok m → all_admissible m os → run_ops m os = Some m' → thick m → thick m'.
  Proof.
    revert m. induction os as [|o os IH]; intros m Hok Ha; cbn [run_ops all_admissible] in *; [by intros [= <-]|].
    destruct Ha as [Ha Has]. destruct (op_step m o Hok Ha) as (m1 & E & [G1 _ _] & _). rewrite E. cbn [mbind option_bind].
    intros Er Hth. apply (IH m1); [done|by apply Has|done|by apply (thick_op m o)].
  Qed.
  Lemma reachable_thick m : reachable m → thick m.
  Proof.
    intros (sim & ctr & ps & dflt & m0 & os & E0 & Ha & Er). eapply thick_ops; [|done|done|by eapply thick_new].
    destruct (new_facts sim ctr ps dflt) as (m1 & E1 & Hok & _). rewrite E0 in E1. by injection E1 as <-.
  Qed.
End hist.
