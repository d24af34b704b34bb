(** Replacing tets: what has been taken out and put in is a replacement. *)
From stdpp Require Import base numbers list gmap option relations.
From Coq Require Import NArith ZArith ZifyN ZifyNat ZifyBool Lia.
From Verif Require Import IdMapModel IdMapSpec IdMapProofs WalkerModel WalkerSpec WalkerProofs SortProofs
  MeshModel WalkerMore MeshOps MeshSpec FlipSpec MeshViews Surgery MeshLink MeshRun FlipBase FlipRun IterModel IntOk InsModel InsStep InsCone TransModel TransSpec TransOk TakeOk PutOk ReplOk.
Local Open Scope nat_scope.

Lemma rots_at (q : arr4 N) (j : nat) t : NoDup (list4 q) → j < 12 → tri3 (verts_at q j) = t → t ∈ rots3 (tri3 q) ↔ j mod 4 = 3.
Proof.
  intros Hnd Hj <-. destruct q as [a b c d]. apply NoDup4 in Hnd as (?&?&?&?&?&?). cbn in *.
  case12 j Hj; cbn; unfold rots3, tri3; cbn; rewrite !elem_of_cons, elem_of_nil; split; try done; try tauto; intros; exfalso; naive_solver.
Qed.
Lemma rots_walk (q : arr4 N) t : t ∈ rots3 (tri3 q) → ∃ j, j < 12 ∧ j mod 4 = 3 ∧ tri3 (verts_at q j) = t.
Proof.
  destruct q as [a b c d]. unfold rots3, tri3. cbn. rewrite !elem_of_cons, elem_of_nil. intros [->|[->|[->|[]]]]; [exists 3|exists 7|exists 11]; (split; [lia|done]).
Qed.

Section fin.
  Context {V T : Type}.
  Context (dflt : T).
  Implicit Types (m : mesh V T) (F G : N → tet T) (w u d r : walker) (L : gset N) (id e : N)
    (Ed : N → option uedge) (Vt : N → option (vertex V)) (em : gmap (N * N) N) (tm : gmap (N * N * N) walker).

  Lemma rot_uniq L F Ed tm w u : opn L F Ed tm → vd L w → vd L u → face_of w u ↔ tri3 (vv F u) ∈ rots3 (tri3 (vv F w)).
  Proof.
    intros Hop Hw Hu. pose proof Hop as [P1 P2 P3 _ _ _]. unfold face_of. split.
    - intros [Ht He]. destruct w as [x e], u as [y k]. destruct Hw as [Hx Hxe], Hu as [Hy Hye]. cbn in *. subst y. unfold vv. cbn [w_tet w_edge]. destruct (t_vs (F x)) as [a b c d]. clear -He Hxe Hye.
      case12 e Hxe; case12 k Hye; try (cbn in He; lia); cbn; unfold rots3, tri3; cbn; rewrite !elem_of_cons; tauto.
    - intros H. assert (∃ w', vd L w' ∧ face_of w w' ∧ tri3 (vv F w') = tri3 (vv F u)) as (w' & Hw' & Hf & E).
      { destruct w as [x e]. destruct Hw as [Hx Hxe]. cbn [w_tet w_edge] in *. unfold rots3 in H. rewrite !elem_of_cons, elem_of_nil in H.
        assert (∀ k, k < 12 → k mod 4 = e mod 4 → tri3 (vv F u) = tri3 (vv F (Walker x k)) → ∃ w', vd L w' ∧ face_of (Walker x e) w' ∧ tri3 (vv F w') = tri3 (vv F u)) as Hg.
        { intros k Hk Hm E. exists (Walker x k). split; [by split|]. split; [by split|done]. }
        assert (∀ y k, vv F (Walker y k) = verts_at (t_vs (F y)) k) as Hvv by done. rewrite Hvv in H. setoid_rewrite Hvv in Hg. clear Hvv. destruct (t_vs (F x)) as [a b c d].
        destruct H as [H|[H|[H|[]]]].
        - by apply (Hg e).
        - apply (Hg ((e + 4) mod 12)); [by apply Nat.mod_upper_bound|exact (mod12 e 1)|]. refine (eq_trans H _). clear -Hxe. case12 e Hxe; done.
        - apply (Hg ((e + 8) mod 12)); [by apply Nat.mod_upper_bound|exact (mod12 e 2)|]. refine (eq_trans H _). clear -Hxe. case12 e Hxe; done. }
      assert (w' = u) as <- by by apply P3. done.
  Qed.

  Lemma finish m L F sp l L1 F1 Ed1 em1 ts P nt ne L2 F2 Ed2 Vt2 tm2 m2 out new gone ftris ltris fedges :
    mesh_ok m → m_track m = true → mv m L F → tooks sp l L F (im_get (m_edges m)) L1 F1 Ed1 em1 →
    (∀ p, p ∈ l → vd L p.1 ∧ vd L p.2) → out = (λ p, vv F p.1) <$> l →
    st true (m_center m) (im_npi (m_verts m)) nt ne L2 F2 Ed2 Vt2 (m_ghost_flags m) tm2 m2 → opn L2 F2 Ed2 tm2 →
    put dflt ts P L1 F1 Ed1 (im_get (m_verts m)) L2 F2 Ed2 Vt2 → new = (λ x, x.1.2) <$> ts → replaceable m out new gone →
    (∀ e ue a b, im_get (m_edges m) e = Some ue → ue_vs ue = sorted_2 (a, b) → a ≠ b → sp = Some e ↔ (a, b) ∈ gone ∨ (b, a) ∈ gone) →
    ftris = (λ p, tri3 (vv F p.2)) <$> l → (∀ t, t ∈ ltris ↔ ∃ x q, (x, q, true) ∈ ts ∧ t = tri3 q) →
    fedges = (l ≫= λ p, [pair2 (vv F p.1); pair2 (vv F (to_nfe p.1))]) →
    replaced dflt m out new gone ftris ltris fedges P m2.
  Proof using Type.
    intros Hok Htr Hmv [T1 T2 T3 T4 T5 _ _] Hl Eout Hst Hop [U1 U2 U3 U4 U5 U6 U7 U8 U9 U10] Enew [R1 R2 R3 R4 R5 R6 R7 R8] Hsp Eft Hlt Efe.
    pose proof (view_open _ _ _ _ _ _ _ _ _ _ _ Hst Hop) as Hopen. destruct (open_view m L F Hmv) as [_ Hop0].
    { by apply closed_open. }
    pose proof (st_mv _ _ _ _ _ _ _ _ _ _ _ _ Hst) as Hmv2. pose proof (st_E _ _ _ _ _ _ _ _ _ _ _ _ Hst) as HE2. pose proof (st_V _ _ _ _ _ _ _ _ _ _ _ _ Hst) as HV2.
    pose proof Hop0 as [O1 O2 O3 O4 O5 O6]. pose proof Hop as [Q1 Q2 Q3 Q4 Q5 Q6].
    assert (∀ w, vd L w → ∃ w', vd L w' ∧ twist (vv F w) (vv F w') ∧ av F w' = w) as Hcl.
    { intros w Hw. destruct (ok_adj _ Hok w (q0 (vv F w)) (q1 (vv F w)) (q2 (vv F w)) (q3 (vv F w))) as (w' & x & A & B & C & D); [by apply (mv_valid _ _ _ _ Hmv)| |].
      - rewrite (mv_verts _ _ _ _ Hmv) by apply Hw. by destruct (vv F w).
      - apply (mv_valid _ _ _ _ Hmv) in B. exists w'. split; [done|]. rewrite (mv_verts _ _ _ _ Hmv) in C by apply B. rewrite (mv_adj _ _ _ _ Hmv B) in D. split; [|congruence].
        apply (inj Some) in C. unfold twist. by rewrite C. }
    (* the triangles taken out *)
    assert (∀ p, p ∈ l → vv F p.1 ∈ out) as Hpo by (intros p Hp; rewrite Eout; apply elem_of_list_fmap; by exists p).
    assert (∀ t, t ∈ out ≫= tris_of ↔ ∃ p u, p ∈ l ∧ w_tet u = w_tet p.1 ∧ w_edge u < 12 ∧ tri3 (vv F u) = t) as HR.
    { intros t. rewrite elem_of_list_bind. split.
      - intros (q & Ht & Hq). rewrite Eout in Hq. apply elem_of_list_fmap in Hq as (p & -> & Hp). rewrite tris_of_12 in Ht. apply elem_of_list_fmap in Ht as (j & -> & Hj). apply elem_of_seq in Hj.
        destruct (Hl p Hp) as [[_ He] _]. destruct (comp_at (t_vs (F (w_tet p.1))) (w_edge p.1) j He) as (k & Hk & E); [lia|]. exists p, (Walker (w_tet p.1) k). split; [done|]. split; [done|]. split; [done|].
        f_equal. symmetry. exact E.
      - intros (p & u & Hp & Ht & Hu & <-). exists (vv F p.1). split; [|by apply Hpo]. rewrite tris_of_12.
        destruct (Hl p Hp) as [[_ He] _]. destruct (comp_to (t_vs (F (w_tet p.1))) (w_edge p.1) (w_edge u) He Hu) as (j & Hj & E).
        assert (vv F u = verts_at (vv F p.1) j) as -> by (unfold vv at 1; rewrite Ht; symmetry; exact E). by apply elem_tris12. }
    assert (∀ p, p ∈ l → w_tet p.1 ∉ L1) as Hgone by (intros p Hp [_ H]%T1; by apply (H p Hp)).
    assert (∀ x, x ∈ L1 → x ∈ L) as HL1 by (intros x Hx; by apply T1).
    assert (∀ u, vd L u → w_tet u ∉ L1 → ∃ p, p ∈ l ∧ w_tet p.1 = w_tet u) as Hout.
    { intros u Hu Hn. destruct (decide (Exists (λ p : walker * walker, w_tet p.1 = w_tet u) l)) as [Hex|Hex]; [by apply Exists_exists in Hex|].
      exfalso. apply Hn, T1. split; [apply Hu|]. intros p Hp E. apply Hex, Exists_exists. by exists p. }
    assert (∀ u, vd L u → tri3 (vv F u) ∈ out ≫= tris_of ↔ w_tet u ∉ L1) as HRL.
    { intros u Hu. rewrite HR. split.
      - intros (p & u' & Hp & Ht & Hu' & E). assert (u' = u) as <- by (apply O3; [split; [rewrite Ht; apply (Hl p Hp)|done]|done..]). rewrite Ht. by apply Hgone.
      - intros Hn. destruct (Hout u Hu Hn) as (p & Hp & E). exists p, u. split; [done|]. split; [done|]. split; [apply Hu|done]. }
    assert (∀ t, t ∈ out ≫= tris_of → ∃ u, vd L u ∧ w_tet u ∉ L1 ∧ tri3 (vv F u) = t) as HRu.
    { intros t (p & u & Hp & Ht & Hu & E)%HR. exists u. split; [split; [rewrite Ht; apply (Hl p Hp)|done]|]. split; [rewrite Ht; by apply Hgone|done]. }
    (* the new triangles *)
    assert (∀ u, w_tet u ∈ L1 → vv F2 u = vv F u) as Hvk.
    { intros u Hu. unfold vv. rewrite (proj1 (U4 _ Hu)). by rewrite (proj1 (T2 _)). }
    assert (∀ x q b j, (x, q, b) ∈ ts → vv F2 (Walker x j) = verts_at q j) as Hvn.
    { intros x q b j H. unfold vv. cbn [w_tet w_edge]. by rewrite (proj1 (U5 _ _ _ H)). }
    assert (∀ x q b, (x, q, b) ∈ ts → q ∈ new) as Hqn by (intros x q b H; rewrite Enew; apply elem_of_list_fmap; by exists (x, q, b)).
    assert (∀ q, q ∈ new → ∃ x b, (x, q, b) ∈ ts) as Hnq. { intros q H. rewrite Enew in H. apply elem_of_list_fmap in H as ([[x q'] b] & -> & H). by exists x, b. }
    assert (∀ x q b, (x, q, b) ∈ ts → x ∈ L2) as HtL by (intros x q b H; apply U1; right; by exists q, b).
    assert (∀ x, x ∈ L1 → x ∈ L2) as HL12 by (intros x H; apply U1; by left).
    assert (∀ t, t ∈ new ≫= tris_of ↔ ∃ x q b j, (x, q, b) ∈ ts ∧ j < 12 ∧ tri3 (verts_at q j) = t) as HN.
    { intros t. rewrite elem_of_list_bind. split.
      - intros (q & Ht & Hq). destruct (Hnq q Hq) as (x & b & H). rewrite tris_of_12 in Ht. apply elem_of_list_fmap in Ht as (j & -> & Hj). apply elem_of_seq in Hj. exists x, q, b, j. split; [done|]. split; [lia|done].
      - intros (x & q & b & j & H & Hj & <-). exists q. split; [|by eapply Hqn]. rewrite tris_of_12. by apply elem_tris12. }
    assert (∀ w, vd L2 w → (vd L1 w ∧ vd L w ∧ vv F2 w = vv F w) ∨ ∃ x q b, (x, q, b) ∈ ts ∧ w_tet w = x ∧ vv F2 w = verts_at q (w_edge w)) as Hcase.
    { intros w [Hw He]. apply U1 in Hw as [Hw|(q & b & H)]; [left; split; [done|]; split; [split; [by apply HL1|done]|by apply Hvk]|right].
      exists (w_tet w), q, b. split; [done|]. split; [done|]. rewrite <- (Hvn _ _ _ (w_edge w) H). by destruct w. }
    assert (∀ w, vd L1 w → vd L2 w) as Hvd12 by (intros w [? ?]; split; [by apply HL12|done]).
    assert (∀ w, vd L1 w → vd L w) as Hvd1 by (intros w [? ?]; split; [by apply HL1|done]).
    assert (∀ x q b j, (x, q, b) ∈ ts → j < 12 → vd L2 (Walker x j)) as Hvdn by (intros x q b j H Hj; split; [by eapply HtL|done]).
    assert (∀ t, t ∈ new ≫= tris_of → ∃ w, vd L2 w ∧ tri3 (vv F2 w) = t) as HNw.
    { intros t (x & q & b & j & H & Hj & E)%HN. exists (Walker x j). split; [by eapply Hvdn|]. by erewrite Hvn. }
    assert (∀ w, vd L w → w_tet w ∈ L1 → vd L2 w ∧ tri3 (vv F2 w) = tri3 (vv F w)) as Hkw.
    { intros w [Hw He] H1. split; [split; [by apply HL12|done]|]. by rewrite Hvk. }
    (* every triangle has its other side *)
    assert (∀ w, vd L2 w → ∃ w', vd L2 w' ∧ tri3 (vv F2 w') = swap3 (tri3 (vv F2 w))) as Htwin.
    { intros w Hw. destruct (Hcase w Hw) as [(H1 & H2 & E)|(x & q & b & H & Hx & E)].
      - rewrite E. destruct (Hcl w H2) as (w' & Hw' & Tw & _). apply twist_swap in Tw. destruct (decide (w_tet w' ∈ L1)) as [H'|H'].
        + exists w'. rewrite <- Tw. by apply Hkw.
        + apply HNw. apply R5. rewrite swap_swap, <- Tw. split; [by apply HRL|]. rewrite (HRL w H2). intros Hn. apply Hn, H1.
      - assert (tri3 (vv F2 w) ∈ new ≫= tris_of) as Ht by (apply HN; exists x, q, b, (w_edge w); split; [done|]; split; [apply Hw|by rewrite E]).
        destruct (decide (swap3 (tri3 (vv F2 w)) ∈ new ≫= tris_of)) as [Hs|Hs]; [by apply HNw|].
        destruct (proj1 (R5 _) (conj Ht Hs)) as [Hr Hnr]. destruct (HRu _ Hr) as (u & Hu & _ & Eu). destruct (Hcl u Hu) as (w' & Hw' & Tw & _). apply twist_swap in Tw. rewrite Eu in Tw.
        exists w'. rewrite <- Tw. apply Hkw; [done|]. apply dec_stable. intros Hn. apply Hnr. rewrite <- Tw. by apply HRL. }
    assert (∀ x y, joined m2 x y ↔ ∃ w, vd L2 w ∧ pair2 (vv F2 w) = (x, y)) as Hj2.
    { intros x y. unfold joined. split; intros (w & A & B); exists w.
      - apply (mv_valid _ _ _ _ Hmv2) in A. rewrite (mv_pair _ _ _ _ Hmv2) in B by apply A. split; [done|]. unfold pair2. congruence.
      - split; [by apply (mv_valid _ _ _ _ Hmv2)|]. rewrite (mv_pair _ _ _ _ Hmv2) by apply A. by rewrite <- B. }
    assert (∀ q x y, q ∈ new → both q x y → joined m2 x y) as Hjn.
    { intros q x y Hq Hb. destruct (Hnq q Hq) as (i & b & H). destruct (both_walker q x y Hb) as (j & Hj & E). apply Hj2. exists (Walker i j). split; [by eapply Hvdn|]. by erewrite Hvn. }
    split.
    - done.
    - intros w a b c d Hw E. apply (mv_valid _ _ _ _ Hmv2) in Hw. rewrite (mv_verts _ _ _ _ Hmv2) in E by apply Hw. destruct (Htwin w Hw) as (w' & Hw' & Tw). apply twist_swap in Tw.
      assert (twist (vv F2 w') (vv F2 w)) as Tw' by (destruct Tw as (? & ? & ?); split; [done|]; split; done).
      exists w', (q3 (vv F2 w')). rewrite (mv_adj _ _ _ _ Hmv2 Hw), (mv_adj _ _ _ _ Hmv2 Hw'), (Q2 w w'), (Q2 w' w), (mv_verts _ _ _ _ Hmv2) by (done || apply Hw').
      split; [done|]. split; [by apply (mv_valid _ _ _ _ Hmv2)|]. split; [|done]. apply (inj Some) in E. rewrite E in Tw. destruct Tw as (A & B & C). cbn in A, B, C. destruct (vv F2 w'). cbn in *. congruence.
    - intros u t Hu E Hn. apply (mv_valid _ _ _ _ Hmv) in Hu. rewrite (mv_tri _ _ _ _ Hmv) in E by apply Hu. injection E as <-. change (q0 (vv F u), q1 (vv F u), q2 (vv F u)) with (tri3 (vv F u)) in Hn. rewrite (HRL u Hu) in Hn. apply dec_stable in Hn.
      assert (vd L2 u) as Hu2 by (apply Hkw; done). split; [by apply (mv_valid _ _ _ _ Hmv2)|].
      rewrite (mv_verts _ _ _ _ Hmv), (mv_verts _ _ _ _ Hmv2), (mv_undir _ _ _ _ Hmv), (mv_undir _ _ _ _ Hmv2), (mv_in _ _ _ _ Hmv), (mv_in _ _ _ _ Hmv2) by (apply Hu || apply Hu2).
      destruct (U4 _ Hn) as (A1 & A2 & A3 & A4'). destruct (T2 (w_tet u)) as (B1 & B2 & B3 & B4). rewrite Hvk by done. unfold uv. cbn. split; [done|]. split; [by rewrite A2, B3|]. by rewrite A4', B4.
    - intros q Hq. destruct (Hnq q Hq) as (x & b & H). exists (Walker x 3). assert (vd L2 (Walker x 3)) as Hw by (eapply Hvdn; [done|lia]). split; [by apply (mv_valid _ _ _ _ Hmv2)|].
      rewrite (mv_verts _ _ _ _ Hmv2), (mv_in _ _ _ _ Hmv2) by apply Hw. rewrite (Hvn _ _ _ _ H). split; [by destruct q|]. cbn. f_equal. apply (U5 _ _ _ H).
    - intros a b c. unfold has_tri. split.
      + intros (w & Hw & E). apply (mv_valid _ _ _ _ Hmv2) in Hw. rewrite (mv_tri _ _ _ _ Hmv2) in E by apply Hw. apply (inj Some) in E. change (tri3 (vv F2 w) = (a, b, c)) in E. destruct (Hcase w Hw) as [(H1 & H2 & Ew)|(x & q & d & H & Hx & Ew)].
        * left. rewrite Ew in E. split; [exists w; split; [by apply (mv_valid _ _ _ _ Hmv)|]; rewrite (mv_tri _ _ _ _ Hmv) by apply H2; by f_equal|]. rewrite <- E, (HRL w H2). intros Hn. apply Hn, H1.
        * right. apply HN. exists x, q, d, (w_edge w). split; [done|]. split; [apply Hw|by rewrite <- Ew].
      + intros [[(w & Hw & E) Hn]|H].
        * apply (mv_valid _ _ _ _ Hmv) in Hw. rewrite (mv_tri _ _ _ _ Hmv) in E by apply Hw. apply (inj Some) in E. change (tri3 (vv F w) = (a, b, c)) in E. rewrite <- E, (HRL w Hw) in Hn. apply dec_stable in Hn. destruct (Hkw w Hw Hn) as [A B].
          exists w. split; [by apply (mv_valid _ _ _ _ Hmv2)|]. rewrite (mv_tri _ _ _ _ Hmv2) by apply A. f_equal. change (tri3 (vv F2 w) = (a, b, c)). congruence.
        * destruct (HNw _ H) as (w & A & B). exists w. split; [by apply (mv_valid _ _ _ _ Hmv2)|]. rewrite (mv_tri _ _ _ _ Hmv2) by apply A. by f_equal.
    - intros e ue. rewrite HE2. intros H. destruct (U7 e (ue_vs ue)) as [H1|(_ & x & q & b & a & c & Hx & Ha & Hc & Hne & E)]; [by rewrite H| |].
      + destruct (Ed1 e) as [ue1|] eqn:E1; [|done]. injection H1 as H1. destruct (T5 e ue1 E1) as (ue0 & C1 & C2 & _). rewrite <- H1, C2. pose proof (T4 e) as Hs. rewrite E1 in Hs. destruct (decide (sp = Some e)) as [|Hspe]; [done|].
        destruct (ok_edge_used _ Hok e ue0 C1) as (w & Hw & Ew). pose proof (ok_edge_sorted _ Hok e ue0 C1) as Hlt'. apply (mv_valid _ _ _ _ Hmv) in Hw. rewrite (mv_pair _ _ _ _ Hmv) in Ew by apply Hw. apply (inj Some), pair_equal_spec in Ew as [Ea Eb].
        set (a := (ue_vs ue0).1) in *. set (b := (ue_vs ue0).2) in *.
        destruct (decide (w_tet w ∈ L1)) as [Hi|Hi].
        * apply Hj2. exists w. split; [by apply Hkw|]. rewrite Hvk by done. unfold pair2. congruence.
        * destruct (Hout w Hw Hi) as (p & Hp & Et). assert (both (vv F p.1) a b) as Hb.
          { destruct (Hl p Hp) as [Hp1 _]. destruct (comp_to (t_vs (F (w_tet p.1))) (w_edge p.1) (w_edge w) (proj2 Hp1) (proj2 Hw)) as (j & Hj & Ej).
            assert (vv F w = verts_at (vv F p.1) j) as Ew by (unfold vv at 1; rewrite <- Et; symmetry; exact Ej). rewrite <- Ea, <- Eb, Ew. apply both_at; [done|]. apply vv_nodup; [apply Hp1|]. apply O1, Hp1. }
          destruct (R8 (vv F p.1) a b) as [[Hg _]|(_ & q' & Hq' & Hb')]; [by apply Hpo|done| |by eapply Hjn].
          exfalso. apply Hspe, (Hsp e ue0 a b C1); [|lia|by left]. unfold sorted_2. destruct (N.ltb_spec b a); [lia|]. by destruct (ue_vs ue0).
      + rewrite E. unfold sorted_2. destruct (c <? a)%N; cbn; (eapply Hjn; [by eapply Hqn|]); split; (split; congruence) || auto.
    - intros e ue. rewrite HE2. intros H. destruct (U7 e (ue_vs ue)) as [H1|(_ & x & q & b & a & c & Hx & Ha & Hc & Hne & E)]; [by rewrite H| |].
      + destruct (Ed1 e) as [ue1|] eqn:E1; [|done]. injection H1 as H1. destruct (T5 e ue1 E1) as (ue0 & C1 & C2 & _). rewrite <- H1, C2. by apply (ok_edge_sorted _ Hok e).
      + rewrite E. by apply sorted_lt.
    - intros t. assert (∀ u, vd L1 u → lv F2 u = lv F1 u) as Hlv by (intros u [Hu _]; unfold lv; by rewrite (proj1 (proj2 (proj2 (U4 _ Hu))))).
      assert (∀ u, vd L u → (∀ p, p ∈ l → ¬ face_of p.2 u) ↔ tri3 (vv F u) ∉ ftris ≫= rots3) as Hff.
      { intros u Hu. rewrite elem_of_list_bind. split.
        - intros Hn (t' & A & B). rewrite Eft in B. apply elem_of_list_fmap in B as (p & -> & Hp). apply (Hn p Hp), (rot_uniq L F _ _ _ _ Hop0); [apply (Hl p Hp)|done..].
        - intros Hn p Hp Hf. apply Hn. exists (tri3 (vv F p.2)). split; [by apply (rot_uniq L F _ _ _ _ Hop0); [apply (Hl p Hp)|..]|]. rewrite Eft. apply elem_of_list_fmap. by exists p. }
      unfold locked_tri. split.
      + intros (w & Hw & E & Hlk). apply (mv_valid _ _ _ _ Hmv2) in Hw. rewrite (mv_tri _ _ _ _ Hmv2) in E by apply Hw. rewrite (mv_locked _ _ _ _ Hmv2) in Hlk by apply Hw. apply (inj Some) in E. injection Hlk as Hlk. change (tri3 (vv F2 w) = t) in E.
        destruct (Hcase w Hw) as [(H1 & H2 & Ew)|(x & q & b & H & Hx & Ew)].
        * right. rewrite Hlv in Hlk by done. apply T3 in Hlk as [Hlk Hn]; [|apply H1]. rewrite Ew in E. split; [|rewrite <- E, <- (Hff w H2), (HRL w H2); split; [intros Hx; apply Hx, H1|done]].
          exists w. split; [by apply (mv_valid _ _ _ _ Hmv)|]. rewrite (mv_tri _ _ _ _ Hmv), (mv_locked _ _ _ _ Hmv) by apply H2. rewrite Hlk. split; [by f_equal|done].
        * left. pose proof (proj2 (proj2 (U5 _ _ _ H)) (w_edge w)) as Hb. assert (Walker x (w_edge w) = w) as Ew' by (rewrite <- Hx; by destruct w). rewrite Ew', Hlk in Hb. destruct b; [|done]. symmetry in Hb. cbn [andb] in Hb. apply Nat.eqb_eq in Hb.
          apply elem_of_list_bind. exists (tri3 q). split; [|apply Hlt; by exists x, q]. apply (rots_at q (w_edge w)); [apply (R2 q); by eapply Hqn|apply Hw|by rewrite <- Ew|done].
      + intros [H|((w & Hw & E & Hlk) & Hn1 & Hn2)].
        * apply elem_of_list_bind in H as (t' & A & B). apply Hlt in B as (x & q & H & ->). destruct (rots_walk q t A) as (j & Hj & Hj3 & E). exists (Walker x j). assert (vd L2 (Walker x j)) as Hw by by eapply Hvdn.
          split; [by apply (mv_valid _ _ _ _ Hmv2)|]. rewrite (mv_tri _ _ _ _ Hmv2), (mv_locked _ _ _ _ Hmv2) by apply Hw. rewrite (Hvn _ _ _ _ H), (proj2 (proj2 (U5 _ _ _ H)) j), Hj3. split; [by f_equal|done].
        * apply (mv_valid _ _ _ _ Hmv) in Hw. rewrite (mv_tri _ _ _ _ Hmv) in E by apply Hw. rewrite (mv_locked _ _ _ _ Hmv) in Hlk by apply Hw. apply (inj Some) in E. injection Hlk as Hlk. change (tri3 (vv F w) = t) in E.
          rewrite <- E, (HRL w Hw) in Hn1. apply dec_stable in Hn1. rewrite <- E, <- (Hff w Hw) in Hn2. destruct (Hkw w Hw Hn1) as [A B]. exists w. split; [by apply (mv_valid _ _ _ _ Hmv2)|].
          rewrite (mv_tri _ _ _ _ Hmv2), (mv_locked _ _ _ _ Hmv2) by apply A. split; [f_equal; change (tri3 (vv F2 w) = t); congruence|]. f_equal. rewrite Hlv by (split; [done|apply Hw]). by apply T3.
    - intros a b Hab. assert (locked_edge m2 a b ↔ elk Ed2 (sorted_2 (a, b))) as ->.
      { unfold locked_edge, elk. split; intros (e & ue & A & B); exists e, ue; (split; [|done]); [by rewrite <- HE2|by rewrite HE2]. }
      rewrite U8. assert (sorted_2 (a, b) ∈ sorted_2 <$> P ↔ (a, b) ∈ P ∨ (b, a) ∈ P) as ->.
      { rewrite elem_of_list_fmap. split.
        - intros ([c d] & E & H). apply sorted_eq in E as [[= -> ->]|[= -> ->]]; tauto.
        - intros [H|H]; eexists; (split; [|exact H]); [done|apply sorted_swap]. }
      assert (∀ e ue u, im_get (m_edges m) e = Some ue → ue_vs ue = sorted_2 (a, b) → vd L u → e = uv F u ↔ (a, b) = pair2 (vv F u) ∨ (b, a) = pair2 (vv F u)) as Heu.
      { intros e ue u A B Hu. destruct (O5 u Hu) as (ue' & A' & B'). unfold pair2 at 1 2. rewrite <- sorted_eq. split.
        - intros ->. rewrite <- B. unfold pair2 in B'. congruence.
        - intros E. eapply (O6 e (uv F u)); [done..|]. unfold pair2 in B'. congruence. }
      assert (∀ x, x ∈ fedges ↔ ∃ p, p ∈ l ∧ (x = pair2 (vv F p.1) ∨ x = pair2 (vv F (to_nfe p.1)))) as Hfe.
      { intros x. rewrite Efe, elem_of_list_bind. split; intros (p & A & B); exists p; rewrite !elem_of_cons, elem_of_nil in *; tauto. }
      assert (∀ u, vd L u → vd L (to_nfe u)) as Hnf by (intros u [A B]; split; [done|unfold to_nfe; cbn [w_edge]; by apply Nat.mod_upper_bound]).
      assert (elk Ed1 (sorted_2 (a, b)) ↔ locked_edge m a b ∧ (a, b) ∉ fedges ∧ (b, a) ∉ fedges ∧ (a, b) ∉ gone ∧ (b, a) ∉ gone) as ->; [|tauto].
      unfold elk, locked_edge. split.
      + intros (e & ue1 & A & B & C). destruct (T5 e ue1 A) as (ue & D1 & D2 & D3). destruct (proj1 D3 C) as [C' Hn]. rewrite D2 in B. split; [by exists e, ue|].
        assert (∀ x, x = (a, b) ∨ x = (b, a) → x ∉ fedges) as Hx.
        { intros x Hx (p & Hp & H)%Hfe. destruct (Hl p Hp) as [Hp1 _]. destruct (Hn p Hp) as [N1 N2]. rewrite (Heu e ue _ D1 B Hp1) in N1. rewrite (Heu e ue _ D1 B (Hnf _ Hp1)) in N2. destruct Hx as [-> | ->]; tauto. }
        split; [apply Hx; by left|]. split; [apply Hx; by right|]. pose proof (T4 e) as Hs. rewrite A in Hs. destruct (decide (sp = Some e)) as [|Hspe]; [done|]. rewrite (Hsp e ue a b D1 B Hab) in Hspe. tauto.
      + intros ((e & ue & A & B & C) & N1 & N2 & N3 & N4). pose proof (T4 e) as Hs. rewrite decide_False in Hs by (rewrite (Hsp e ue a b A B Hab); tauto). rewrite A in Hs. destruct (Ed1 e) as [ue1|] eqn:E1; [|done]. injection Hs as Hs.
        exists e, ue1. split; [done|]. split; [congruence|]. destruct (T5 e ue1 E1) as (ue' & D1 & D2 & D3). rewrite A in D1. injection D1 as <-. apply D3. split; [done|]. intros p Hp. destruct (Hl p Hp) as [Hp1 _].
        rewrite (Heu e ue _ A B Hp1), (Heu e ue _ A B (Hnf _ Hp1)). rewrite Hfe in N1, N2. split; intros [H|H]; [apply N1|apply N2|apply N1|apply N2]; exists p; tauto.
    - intros v vt. rewrite HV2. intros Hv (w & Hw & Ef). apply (mv_valid _ _ _ _ Hmv2) in Hw. rewrite (mv_first _ _ _ _ Hmv2) in Ef by apply Hw. apply (inj Some) in Ef.
      destruct (decide (Exists (λ x : N * arr4 N * bool, v ∈ list4 x.1.2) ts)) as [Hex|Hex].
      + apply Exists_exists in Hex as ([[x q] b] & H & Hvq). cbn in Hvq. destruct (U10 v x q b H Hvq) as (vt0 & u & x' & q' & b' & A & B & C & D & E & G). rewrite Hv in B. injection B as ->. cbn [vset v_tet].
        assert (vd L2 u) as Hu by (split; [rewrite D; by eapply HtL|done]). split; [by apply (mv_valid _ _ _ _ Hmv2)|]. rewrite (mv_first _ _ _ _ Hmv2) by apply Hu. by f_equal.
      + assert (∀ id q b, (id, q, b) ∈ ts → v ∉ list4 q) as Hn by (intros id q b H Hi; apply Hex, Exists_exists; by exists (id, q, b)).
        rewrite (U9 v Hn) in Hv. destruct (Hcase w Hw) as [(H1 & H2 & Ew)|(x & q & b & H & Hx & Ew)].
        * destruct (ok_vref _ Hok v vt Hv) as [A B].
          { exists w. split; [by apply (mv_valid _ _ _ _ Hmv)|]. rewrite (mv_first _ _ _ _ Hmv) by apply H2. congruence. }
          apply (mv_valid _ _ _ _ Hmv) in A. rewrite (mv_first _ _ _ _ Hmv) in B by apply A. apply (inj Some) in B. destruct (decide (w_tet (v_tet vt) ∈ L1)) as [Hi|Hi].
          -- destruct (Hkw _ A Hi) as [A2 _]. split; [by apply (mv_valid _ _ _ _ Hmv2)|]. rewrite (mv_first _ _ _ _ Hmv2) by apply A2. rewrite Hvk by done. by f_equal.
          -- exfalso. destruct (Hout _ A Hi) as (p & Hp & Et). destruct (R7 (vv F p.1) v) as (q' & Hq' & Hv'); [by apply Hpo| |].
             ++ destruct (Hl p Hp) as [Hp1 _]. destruct (comp_to (t_vs (F (w_tet p.1))) (w_edge p.1) (w_edge (v_tet vt)) (proj2 Hp1) (proj2 A)) as (j & Hj & Ej).
                assert (vv F (v_tet vt) = verts_at (vv F p.1) j) as Ew' by (unfold vv at 1; rewrite <- Et; symmetry; exact Ej). rewrite <- B, Ew'. by apply verts_in.
             ++ destruct (Hnq q' Hq') as (x & b & H). by apply (Hn x q' b H).
        * exfalso. apply (Hn x q b H). rewrite <- Ef, Ew. apply verts_in, Hw.
    - intros v. rewrite HV2. destruct (decide (Exists (λ x : N * arr4 N * bool, v ∈ list4 x.1.2) ts)) as [Hex|Hex].
      + apply Exists_exists in Hex as ([[x q] b] & H & Hvq). cbn in Hvq. destruct (U10 v x q b H Hvq) as (vt0 & u & x' & q' & b' & A & B & _). by rewrite A, B.
      + rewrite (U9 v); [done|]. intros id q b H Hi. apply Hex, Exists_exists. by exists (id, q, b).
    - split; [apply (st_gf _ _ _ _ _ _ _ _ _ _ _ _ Hst)|apply (st_c _ _ _ _ _ _ _ _ _ _ _ _ Hst)].
  Qed.
End fin.
