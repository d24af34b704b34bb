(** One flip of the search: when it can be done, and what it keeps. *)
From stdpp Require Import base numbers list gmap option relations.
From Coq Require Import NArith ZArith Lia.
From Verif Require Import IdMapModel WalkerModel WalkerSpec WalkerProofs WalkerMore MeshModel MeshSpec MeshViews FlipSpec HistSpec FlipBase
  Flip23Ok Flip32Ok Flip44Ok History Reach IterProofs FlipMore HistCheck QualModel ProgSpec SortProofs ProgBase ProgFlip.
Local Open Scope nat_scope.

Ltac newtet :=
  eexists _, _; first [split; [left|unfold list4; cbn [q0 q1 q2 q3]; inset]|split; [right; left|unfold list4; cbn [q0 q1 q2 q3]; inset]|
    split; [do 2 right; left|unfold list4; cbn [q0 q1 q2 q3]; inset]|split; [do 3 right; left|unfold list4; cbn [q0 q1 q2 q3]; inset]].

Section step.
  Context {V T : Type}.
  Implicit Types (m : mesh V T) (w : walker).
  Context (ea : mesh V T → N * N → bool) (ta : mesh V T → N * N * N → bool) (ori : mesh V T → N → N → N → N → Z).

  Lemma joined_dec m a b : joined m a b ∨ ¬ joined m a b.
  Proof. pose proof (joinedb_spec m a b) as H. destruct (joinedb m a b); [left; by apply H|right; intros K; by apply H in K]. Qed.
  Lemma tri_dec m a b c : has_tri m a b c ∨ ¬ has_tri m a b c.
  Proof. pose proof (has_trib_spec m a b c) as H. destruct (has_trib m a b c); [left; by apply H|right; intros K; by apply H in K]. Qed.
  Lemma room_dec m nt ne : id_room m nt ne ∨ ¬ id_room m nt ne.
  Proof. clear. unfold id_room. lia. Qed.

  (** What a step of the search keeps. *)
  Record keeps m m' : Prop := Keeps {
    kp_fit : fit m';
    kp_tri t : locked_tri m' t ↔ locked_tri m t;
    kp_edge a b : locked_edge m' a b ↔ locked_edge m a b;
    kp_verts x : (λ vt, (v_flags vt, v_pos vt, v_val vt)) <$> im_get (m_verts m') x =
      (λ vt, (v_flags vt, v_pos vt, v_val vt)) <$> im_get (m_verts m) x;
    kp_att v : attached m v → attached m' v }.

  Lemma thick_fourth m w o a b c d e : mesh_ok m → thick m → valid m w → w_verts m w = Some (A4 a b c d) → to_adj m w = Some o →
    w_verts m o = Some (A4 b a c e) → d ≠ e.
  Proof.
    intros Hok Hth Hw Ew Ea Eo ->. destruct (adj_spec m w _ _ _ _ Hok Hw Ew) as (o' & x & E & Ho & _ & _ & Hne).
    rewrite Ea in E. injection E as <-. apply Hne. symmetry.
    destruct (wverts_in m w _ Hw Ew) as (v1 & V1 & W1). destruct (wverts_in m o _ Ho Eo) as (v2 & V2 & W2).
    rewrite thick_vs in Hth. apply (Hth _ _ v1 v2 V1 V2). intros v. rewrite <- W1, <- W2. unfold list4. cbn [q0 q1 q2 q3].
    rewrite ?elem_of_cons. clear. tauto.
  Qed.

  Lemma ring4_members m w r1 r2 r3 u : mesh_ok m → valid m w → ring_next m w = Some r1 → ring_next m r1 = Some r2 →
    ring_next m r2 = Some r3 → ring_next m r3 = Some w → rtsc (edge_step m) w u → u ∈ [w; r1; r2; r3].
  Proof.
    intros Hok Hw R1 R2 R3 R4 H.
    destruct (ring_total m w Hok Hw) as (? & E & V1). rewrite R1 in E. injection E as <-.
    destruct (ring_total m r1 Hok V1) as (? & E & V2). rewrite R2 in E. injection E as <-.
    destruct (ring_total m r2 Hok V2) as (? & E & V3). rewrite R3 in E. injection E as <-.
    apply (rtsc_inv (edge_step m) (λ x, x ∈ [w; r1; r2; r3]) w u); [|done|left].
    intros a b [Va E]. rewrite ?elem_of_cons, ?elem_of_nil. split.
    - intros [->|[->|[->|[->|[]]]]]; rewrite ?R1, ?R2, ?R3, ?R4 in E; injection E as <-; pick.
    - intros [->|[->|[->|[->|[]]]]].
      + rewrite (IterProofs.ring_inj m a r3 w Hok Va V3 E R4). pick.
      + rewrite (IterProofs.ring_inj m a w r1 Hok Va Hw E R1). pick.
      + rewrite (IterProofs.ring_inj m a r1 r2 Hok Va V1 E R2). pick.
      + rewrite (IterProofs.ring_inj m a r2 r3 Hok Va V2 E R3). pick.
  Qed.

  Lemma do23 m w a b c d e : fit m → wants23 ea ta ori m w a b c d e → ¬ joined m d e → id_room m 1 1 →
    ∃ m' ws, flip23_unchecked m w = Some (m', ws) ∧ keeps m m' ∧
      effect m m' [STri (sorted_3 (a, b, c))] [(a, d); (a, e); (b, d); (b, e); (c, d); (c, e)].
  Proof.
    intros (Hok & Htr & Hth) (Hw & Ew & (o & Ea & Ee) & Hl & _) Hnj Hroom.
    destruct (adj_info m w o _ _ _ _ Hok Hw Ew Ea) as (Ho & (e' & Eo) & _).
    assert (e' = e) as -> by (pose proof (wverts_fourth _ _ _ _ _ _ Eo); congruence).
    pose proof (thick_fourth m w o _ _ _ _ _ Hok Hth Hw Ew Ea Eo) as Hde.
    destruct (flip23_step m w o a b c d e Hok Hw Ew Ea Ee Hde Hnj Hroom) as (m' & ws & id2 & Er & Hs & Hok').
    pose proof (effect23 m w m' ws a b c d e o id2 Hok Hok' Hw Hs Hde Hnj) as He.
    pose proof (fs23_repl _ _ _ _ _ _ _ _ _ _ _ Hs) as Hr.
    exists m', ws. split; [done|]. split; [|done]. split.
    - split; [done|]. split; [by rewrite (rp_track _ _ _ _ _ _ Hr)|]. by apply (ef_thick _ _ _ _ He).
    - intros t. rewrite (fs23_locks _ _ _ _ _ _ _ _ _ _ _ Hs t). split; [tauto|]. intros Hl'. split; [done|].
      intros Hc. pose proof (corners_locked m w a b c t Hok Hw (wverts_tri _ _ _ _ _ _ Ew) Hl' Hc). congruence.
    - intros x y. rewrite (replaces_locked_edge _ _ _ _ _ _ x y Hr). split; [tauto|]. intros H. split; [done|]. apply not_elem_of_nil.
    - apply (rp_verts _ _ _ _ _ _ Hr).
    - intros v. apply (attached_replaces _ _ _ _ _ _ v Hr). intros id t x Hid Et Hx.
      assert (vs_of m id = Some (t_vs t)) as Ev by (unfold vs_of; by rewrite Et).
      rewrite ?elem_of_cons, ?elem_of_nil in Hid. destruct Hid as [->|[->|[]]].
      + apply (wverts_vs m w _ _ _ _ _ Hw Ew Ev) in Hx. rewrite ?elem_of_cons, ?elem_of_nil in Hx.
        destruct Hx as [->|[->|[->|[->|[]]]]]; newtet.
      + apply (wverts_vs m o _ _ _ _ _ Ho Eo Ev) in Hx. rewrite ?elem_of_cons, ?elem_of_nil in Hx.
        destruct Hx as [->|[->|[->|[->|[]]]]]; newtet.
  Qed.

  Lemma do32 m w p q x y z : fit m → wants32 ta ori m w p q x y z → ¬ has_tri m x y z →
    ∃ m' ws, flip32_unchecked m w = Some (m', ws) ∧ keeps m m' ∧
      effect m m' [SEdge (sorted_2 (p, q)); STri (sorted_3 (p, q, x)); STri (sorted_3 (p, q, y)); STri (sorted_3 (p, q, z))] [(x, y); (y, z); (z, x)].
  Proof.
    intros (Hok & Htr & Hth) (Hw & Ew & (o1 & o2 & R1 & Ez & R2 & R3 & L0 & L1 & L2) & Hle & _) Hnt.
    destruct (ring_info m w o1 _ _ _ _ Hok Hw Ew R1) as (Ho1 & (z' & E1)).
    assert (z' = z) as -> by (pose proof (wverts_fourth _ _ _ _ _ _ E1); congruence).
    destruct (ring_info m o1 o2 _ _ _ _ Hok Ho1 E1 R2) as (Ho2 & _).
    destruct (flip32_step m w o1 o2 p q x y z Hok Hw Ew R1 Ez R2 R3 Hnt) as (m' & ws & Er & Hs & Hok').
    pose proof (effect32 m w m' ws p q x y z o1 o2 Hok Hok' Hw Hs Hnt) as He.
    pose proof (fs32_repl _ _ _ _ _ _ _ _ _ _ _ Hs) as Hr.
    pose proof (ok_distinct m Hok _ _ _ _ _ Hw Ew) as (N1&_)%NoDup4. cbn in N1.
    destruct (fs32_other2 _ _ _ _ _ _ _ _ _ _ _ Hs) as [_ E2].
    exists m', ws. split; [done|]. split; [|done]. split.
    - split; [done|]. split; [by rewrite (rp_track _ _ _ _ _ _ Hr)|]. by apply (ef_thick _ _ _ _ He).
    - intros t. rewrite (fs32_locks _ _ _ _ _ _ _ _ _ _ _ Hs t). split; [tauto|]. intros Hl. split; [done|].
      intros [Hp Hq]. destruct (locked_at_edge m p q t Hok N1 Hl Hp Hq) as (u & Hu & Eu & Lu).
      destruct (ring3_members m w o1 o2 u Hok Hw R1 R2 R3) as [->|[->| ->]]; [|congruence..].
      apply (ok_ring m Hok w u (p, q) Hw Hu); [by eapply wverts_pair|done].
    - intros a b. rewrite (replaces_locked_edge _ _ _ _ _ _ a b Hr). split; [tauto|]. intros H. split; [done|].
      intros Hin. cbn [fmap list_fmap] in Hin. apply elem_of_list_singleton in Hin. apply Hle.
      destruct H as (e & ue & H1 & H2 & H3). exists e, ue. by rewrite <- Hin.
    - apply (rp_verts _ _ _ _ _ _ Hr).
    - intros v. apply (attached_replaces _ _ _ _ _ _ v Hr). intros id t x' Hid Et Hx.
      assert (vs_of m id = Some (t_vs t)) as Ev by (unfold vs_of; by rewrite Et).
      rewrite ?elem_of_cons, ?elem_of_nil in Hid. destruct Hid as [->|[->|[->|[]]]].
      + apply (wverts_vs m w _ _ _ _ _ Hw Ew Ev) in Hx. rewrite ?elem_of_cons, ?elem_of_nil in Hx.
        destruct Hx as [->|[->|[->|[->|[]]]]]; newtet.
      + apply (wverts_vs m o1 _ _ _ _ _ Ho1 E1 Ev) in Hx. rewrite ?elem_of_cons, ?elem_of_nil in Hx.
        destruct Hx as [->|[->|[->|[->|[]]]]]; newtet.
      + apply (wverts_vs m o2 _ _ _ _ _ Ho2 E2 Ev) in Hx. rewrite ?elem_of_cons, ?elem_of_nil in Hx.
        destruct Hx as [->|[->|[->|[->|[]]]]]; newtet.
  Qed.

  Lemma do44 m w p q x y z u : fit m → wants44 ea ta ori m w p q x y z u → ¬ joined m x z → id_room m 1 1 →
    ∃ m' ws, flip44_unchecked m w = Some (m', ws) ∧ keeps m m' ∧
      effect m m' [SEdge (sorted_2 (p, q)); STri (sorted_3 (p, q, x)); STri (sorted_3 (p, q, y)); STri (sorted_3 (p, q, z)); STri (sorted_3 (p, q, u))]
        [(z, u); (u, x); (x, y); (y, z); (p, z); (z, q); (q, x); (x, p)].
  Proof.
    intros (Hok & Htr & Hth) (Hw & Ew & (r1 & r2 & r3 & R1 & R2 & R3 & R4 & Hne & Ez & Eu & L0 & L1 & L2 & L3) & Hle & _) Hnj Hroom.
    destruct (ring_info m w r1 _ _ _ _ Hok Hw Ew R1) as (V1 & (z' & E1)).
    assert (z' = z) as -> by (pose proof (wverts_fourth _ _ _ _ _ _ E1); congruence).
    destruct (ring_info m r1 r2 _ _ _ _ Hok V1 E1 R2) as (V2 & (u' & E2)).
    assert (u' = u) as -> by (pose proof (wverts_fourth _ _ _ _ _ _ E2); congruence).
    destruct (ring_info m r2 r3 _ _ _ _ Hok V2 E2 R3) as (V3 & _).
    destruct (flip44_step m w r1 r2 r3 p q x y z Hok Hw Ew R1 R2 R3 R4 Hne Ez Hnj Hroom) as (m' & ws & u' & Er & Hs & Hok').
    destruct (fs44_ring _ _ _ _ _ _ _ _ _ _ _ _ _ Hs) as (_ & _ & E2' & E3).
    assert (u' = u) as -> by congruence.
    pose proof (effect44 m w m' ws p q x y z u r1 r2 r3 Hok Hok' Hw V1 V2 V3 Hs Hnj) as He.
    destruct (fs44_repl _ _ _ _ _ _ _ _ _ _ _ _ _ Hs) as (id2 & _ & Hr).
    pose proof (ok_distinct m Hok _ _ _ _ _ Hw Ew) as (N1&_)%NoDup4. cbn in N1.
    exists m', ws. split; [done|]. split; [|done]. split.
    - split; [done|]. split; [by rewrite (rp_track _ _ _ _ _ _ Hr)|]. by apply (ef_thick _ _ _ _ He).
    - intros t. rewrite (fs44_locks _ _ _ _ _ _ _ _ _ _ _ _ _ Hs t). split; [tauto|]. intros Hl. split; [done|].
      intros [Hp Hq]. destruct (locked_at_edge m p q t Hok N1 Hl Hp Hq) as (o & Ho & Eo & Lo).
      assert (o ∈ [w; r1; r2; r3]) as Hin.
      { apply (ring4_members m w r1 r2 r3 o Hok Hw R1 R2 R3 R4). apply (ok_ring m Hok w o (p, q) Hw Ho); [by eapply wverts_pair|done]. }
      rewrite ?elem_of_cons, ?elem_of_nil in Hin. destruct Hin as [->|[->|[->|[->|[]]]]]; congruence.
    - intros a b. rewrite (replaces_locked_edge _ _ _ _ _ _ a b Hr). split; [tauto|]. intros H. split; [done|].
      intros Hin. cbn [fmap list_fmap] in Hin. apply elem_of_list_singleton in Hin. apply Hle.
      destruct H as (e & ue & H1 & H2 & H3). exists e, ue. rewrite sorted_2_comm, <- Hin. done.
    - apply (rp_verts _ _ _ _ _ _ Hr).
    - intros v. apply (attached_replaces _ _ _ _ _ _ v Hr). intros id t x' Hid Et Hx.
      assert (vs_of m id = Some (t_vs t)) as Ev by (unfold vs_of; by rewrite Et).
      rewrite ?elem_of_cons, ?elem_of_nil in Hid. destruct Hid as [->|[->|[->|[->|[]]]]].
      + apply (wverts_vs m w _ _ _ _ _ Hw Ew Ev) in Hx. rewrite ?elem_of_cons, ?elem_of_nil in Hx.
        destruct Hx as [->|[->|[->|[->|[]]]]]; newtet.
      + apply (wverts_vs m r1 _ _ _ _ _ V1 E1 Ev) in Hx. rewrite ?elem_of_cons, ?elem_of_nil in Hx.
        destruct Hx as [->|[->|[->|[->|[]]]]]; newtet.
      + apply (wverts_vs m r2 _ _ _ _ _ V2 E2 Ev) in Hx. rewrite ?elem_of_cons, ?elem_of_nil in Hx.
        destruct Hx as [->|[->|[->|[->|[]]]]]; newtet.
      + apply (wverts_vs m r3 _ _ _ _ _ V3 E3 Ev) in Hx. rewrite ?elem_of_cons, ?elem_of_nil in Hx.
        destruct Hx as [->|[->|[->|[->|[]]]]]; newtet.
  Qed.

  Lemma step_keeps m m' : fit m → search_flip ea ta ori m m' → keeps m m'.
  Proof.
    intros Hf [w a b c d e ws Hw Hn Hr E|w p q x y z ws Hw Hn E|w p q x y z u ws Hw Hn Hr E].
    - destruct (do23 m w a b c d e Hf Hw Hn Hr) as (m1 & ws1 & E1 & Hk & _). rewrite E in E1. by injection E1 as <- _.
    - destruct (do32 m w p q x y z Hf Hw Hn) as (m1 & ws1 & E1 & Hk & _). rewrite E in E1. by injection E1 as <- _.
    - destruct (do44 m w p q x y z u Hf Hw Hn Hr) as (m1 & ws1 & E1 & Hk & _). rewrite E in E1. by injection E1 as <- _.
  Qed.
  Lemma keeps_refl m : fit m → keeps m m.
  Proof. by split. Qed.
  Lemma keeps_trans m1 m2 m3 : keeps m1 m2 → keeps m2 m3 → keeps m1 m3.
  Proof.
    intros H K. split.
    - apply K.
    - intros t. by rewrite (kp_tri _ _ K), (kp_tri _ _ H).
    - intros a b. by rewrite (kp_edge _ _ K), (kp_edge _ _ H).
    - intros x. by rewrite (kp_verts _ _ K), (kp_verts _ _ H).
    - intros v Hv. by apply K, H.
  Qed.
  Lemma steps_keep m m' : fit m → rtc (search_flip ea ta ori) m m' → keeps m m'.
  Proof.
    intros Hf H. revert Hf. induction H as [m|m1 m2 m3 H1 _ IH]; intros Hf; [by apply keeps_refl|].
    pose proof (step_keeps _ _ Hf H1) as K. eapply keeps_trans; [done|]. apply IH, K.
  Qed.
End step.
