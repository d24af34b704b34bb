(** Putting tets into a mesh with holes. *)
From stdpp Require Import base numbers list gmap option relations.
From Coq Require Import NArith ZArith ZifyN ZifyNat ZifyBool Lia.
From Verif Require Import IdMapModel IdMapSpec IdMapProofs WalkerModel WalkerSpec WalkerProofs SortProofs
  MeshModel WalkerMore MeshOps MeshSpec MeshViews Surgery MeshLink MeshRun FlipBase FlipRun IterModel InsModel InsStep InsCone TransModel TransOk TakeOk.
Local Open Scope nat_scope.

Section put.
  Context {V T : Type}.
  Context (ctr : pt) (nv : N) (dflt : T).
  Implicit Types (m : mesh V T) (F G : N → tet T) (w u d r : walker) (L : gset N) (id e : N)
    (Ed : N → option uedge) (Vt : N → option (vertex V)) (em : gmap (N * N) N) (tm : gmap (N * N * N) walker).
  Notation st := (st true ctr nv).

  Definition elk Ed (p : N * N) : Prop := ∃ e ue, Ed e = Some ue ∧ ue_vs ue = p ∧ ue_locked ue = true.
  Record put (ts : list (N * arr4 N * bool)) (P : list (N * N)) L F Ed Vt L' F' Ed' Vt' : Prop := Put {
    pu_L x : x ∈ L' ↔ x ∈ L ∨ ∃ q b, (x, q, b) ∈ ts;
    pu_fresh x q b : (x, q, b) ∈ ts → x ∉ L;
    pu_nd : NoDup (fst ∘ fst <$> ts);
    pu_old x : x ∈ L → same_but_opp (F x) (F' x);
    pu_tet x q b : (x, q, b) ∈ ts → t_vs (F' x) = q ∧ t_val (F' x) = dflt ∧ ∀ j, lv F' (Walker x j) = b && (j mod 4 =? 3);
    pu_eold e p : ue_vs <$> Ed e = Some p → ue_vs <$> Ed' e = Some p;
    pu_enew e p : ue_vs <$> Ed' e = Some p → ue_vs <$> Ed e = Some p ∨
      (Ed e = None ∧ ∃ x q b a c, (x, q, b) ∈ ts ∧ a ∈ list4 q ∧ c ∈ list4 q ∧ a ≠ c ∧ p = sorted_2 (a, c));
    pu_elock p : elk Ed' p ↔ elk Ed p ∨ p ∈ sorted_2 <$> P;
    pu_vold x : (∀ id q b, (id, q, b) ∈ ts → x ∉ list4 q) → Vt' x = Vt x;
    pu_vnew x id q b : (id, q, b) ∈ ts → x ∈ list4 q → ∃ vt w id' q' b', Vt x = Some vt ∧ Vt' x = Some (vset w vt) ∧
      (id', q', b') ∈ ts ∧ w_tet w = id' ∧ w_edge w < 12 ∧ q0 (vv F' w) = x }.

  Lemma put_nil L F Ed Vt : put [] [] L F Ed Vt L F Ed Vt.
  Proof.
    split; try done; try (by intros ? ? ? ?%elem_of_nil).
    - intros x. split; [by left|]. intros [?|(q & b & ?%elem_of_nil)]; done.
    - constructor.
    - intros e p H. by left.
    - intros p. cbn. rewrite elem_of_nil. tauto.
    - by intros ? ? ? ? ?%elem_of_nil.
  Qed.
  Lemma lv_same F F' u : t_flags (F' (w_tet u)) = t_flags (F (w_tet u)) → lv F' u = lv F u.
  Proof. intros H. unfold lv. by rewrite H. Qed.
  Lemma put_trans ts1 P1 ts2 P2 L F Ed Vt L1 F1 Ed1 Vt1 L2 F2 Ed2 Vt2 : put ts1 P1 L F Ed Vt L1 F1 Ed1 Vt1 → put ts2 P2 L1 F1 Ed1 Vt1 L2 F2 Ed2 Vt2 →
    put (ts1 ++ ts2) (P1 ++ P2) L F Ed Vt L2 F2 Ed2 Vt2.
  Proof.
    intros [A1 A2 A3 A4' A5 A6' A7 A8 A9 A10] [B1 B2 B3 B4 B5 B6 B7 B8 B9 B10].
    assert (∀ x q b, (x, q, b) ∈ ts1 → x ∈ L1) as Hin1 by (intros x q b H; apply A1; right; eauto).
    assert (∀ x q b, (x, q, b) ∈ ts2 → x ∉ L ∧ ∀ q' b', (x, q', b') ∉ ts1) as Hn2.
    { intros x q b H. pose proof (B2 x q b H) as Hx. rewrite A1 in Hx. split; [tauto|]. intros q' b' H'. apply Hx. eauto. }
    split.
    - intros x. rewrite B1, A1. setoid_rewrite elem_of_app. split.
      + intros [[?|(q & b & ?)]|(q & b & ?)]; [by left|right; exists q, b; tauto..].
      + intros [?|(q & b & [?|?])]; [tauto|left; right; by exists q, b|right; by exists q, b].
    - intros x q b [H|H]%elem_of_app; [by eapply A2|by apply (Hn2 x q b)].
    - rewrite fmap_app. apply NoDup_app. split; [done|]. split; [|done]. intros x ([[y q] b] & -> & H)%elem_of_list_fmap ([[y' q'] b'] & E & H')%elem_of_list_fmap. cbn in E. subst y'.
      destruct (Hn2 _ _ _ H') as [_ Hc]. by destruct (Hc q b).
    - intros x Hx. destruct (A4' x Hx) as (C1 & C2 & C3 & C4). destruct (B4 x) as (D1 & D2 & D3 & D4); [apply A1; by left|]. split; [congruence|]. split; [congruence|]. split; congruence.
    - intros x q b [H|H]%elem_of_app; [|by apply B5]. destruct (A5 x q b H) as (C1 & C2 & C3). destruct (B4 x) as (D1 & D2 & D3 & D4); [by eapply Hin1|].
      split; [congruence|]. split; [congruence|]. intros j. rewrite <- C3. by apply lv_same.
    - intros e p H. by apply B6, A6'.
    - intros e p H. destruct (B7 e p H) as [H'|(H' & x & q & b & a & c & C1 & C2)].
      + destruct (A7 e p H') as [?|(? & x & q & b & a & c & C1 & C2)]; [by left|right]. split; [done|]. exists x, q, b, a, c. rewrite elem_of_app. tauto.
      + right. split; [|exists x, q, b, a, c; rewrite elem_of_app; tauto]. destruct (Ed e) as [ue|] eqn:E; [|done]. pose proof (A6' e (ue_vs ue)) as C. rewrite E, H' in C. by specialize (C eq_refl).
    - intros p. rewrite B8, A8, fmap_app, elem_of_app. tauto.
    - intros x Hx. rewrite B9, A9; [done|..]; intros id q b H; eapply Hx, elem_of_app; [by left|by right].
    - intros x id q b H Hx.
      destruct (decide (Exists (λ t : N * arr4 N * bool, x ∈ list4 t.1.2) ts2)) as [Hex|Hex].
      + apply Exists_exists in Hex as ([[id2 q2] b2] & H2 & Hx2). cbn in Hx2. destruct (B10 x id2 q2 b2 H2 Hx2) as (vt & w & id' & q' & b' & C1 & C2 & C3 & C4 & C5 & C6).
        assert (∃ vt0, Vt x = Some vt0 ∧ vset w vt = vset w vt0) as (vt0 & D1 & D2).
        { destruct (decide (Exists (λ t : N * arr4 N * bool, x ∈ list4 t.1.2) ts1)) as [Hey|Hey].
          - apply Exists_exists in Hey as ([[id1 q1'] b1] & H1 & Hx1). cbn in Hx1. destruct (A10 x id1 q1' b1 H1 Hx1) as (vt1 & w1 & _ & _ & _ & E1 & E2 & _). exists vt1. split; [done|].
            rewrite E2 in C1. injection C1 as <-. done.
          - exists vt. split; [|done]. rewrite <- C1. symmetry. apply A9. intros id1 q1' b1 H1 H1'. apply Hey, Exists_exists. exists (id1, q1', b1). done. }
        exists vt0, w, id', q', b'. rewrite <- D2, elem_of_app. tauto.
      + apply elem_of_app in H as [H|H]; [|exfalso; apply Hex, Exists_exists; by exists (id, q, b)].
        destruct (A10 x id q b H Hx) as (vt & w & id' & q' & b' & C1 & C2 & C3 & C4 & C5 & C6). exists vt, w, id', q', b'. rewrite elem_of_app.
        rewrite B9 by (intros id1 q1' b1 H1 H1'; apply Hex, Exists_exists; by exists (id1, q1', b1)).
        split; [done|]. split; [done|]. split; [by left|]. split; [done|]. split; [done|]. assert (w_tet w ∈ L1) as Hw1 by (rewrite C4; by eapply Hin1). unfold vv in *. by rewrite (proj1 (B4 (w_tet w) Hw1)).
  Qed.

  Definition tris12 (q : arr4 N) : list (N * N * N) := (λ j, tri3 (verts_at q j)) <$> seq 0 12.
  Lemma elem_tris12 q (j : nat) : j < 12 → tri3 (verts_at q j) ∈ tris12 q.
  Proof. intros H. apply elem_of_list_fmap. exists j. split; [done|]. apply elem_of_seq. lia. Qed.
  (** Inserting a tet and, if [b], locking the triangle of the walker returned. *)
  Definition insert_lock (b : bool) m (q : arr4 N) em : option (mesh V T * gmap (N * N) N * walker) :=
    '(m, em, walker) ← insert_tet dflt m q em;
    m ← (if b then tet_upd m (w_tet walker) (set_locked (w_edge walker mod 4) true) else Some m);
    Some (m, em, walker).
  Lemma insert_lock_s (b : bool) (S : N → N → Prop) nt ne L F Ed Vt gf tm m em vs : st nt ne L F Ed Vt gf tm m → opn L F Ed tm →
    NoDup (list4 vs) → (∀ x, x ∈ list4 vs → is_Some (Vt x)) → (∀ x y, x ∈ list4 vs → y ∈ list4 vs → x ≠ y → S x y) →
    (∀ w, vd L w → tri3 (vv F w) ∉ tris12 vs) → knows S Ed em →
    (nt < u32_mod)%N → (ne + 6 ≤ u32_mod)%N →
    ∃ m' em' id F' Ed' Vt' tm', insert_lock b m vs em = Some (m', em', Walker id 3) ∧
      st (nt + 1) (ne + 6) ({[id]} ∪ L) F' Ed' Vt' gf tm' m' ∧ opn ({[id]} ∪ L) F' Ed' tm' ∧ knows S Ed' em' ∧
      put [(id, vs, b)] [] L F Ed Vt ({[id]} ∪ L) F' Ed' Vt'.
  Proof.
    intros Hst Hop Hnd Hx HS Hd Hk Hnt Hne. unfold insert_lock.
    destruct (insert_s ctr nv S nt ne L F Ed Vt gf tm m em vs dflt Hst Hop Hnd Hx HS) as (m1 & em1 & id & F1 & Ed1 & Vt1 & tm1 & -> & Hst1 & [I1 I2 I3 I4 I5 I6 I7 I8]); [|done..|].
    { intros w j Hw Hj E. apply (Hd w Hw). rewrite E. by apply elem_tris12. }
    cbn [mbind option_bind w_tet w_edge]. assert (id ∈ {[id]} ∪ L) as Hid by (apply elem_of_union_l, elem_of_singleton; done).
    assert (∃ m2 F2, (if b then tet_upd m1 id (set_locked (3 mod 4) true) else Some m1) = Some m2 ∧ st (nt + 1) (ne + 6) ({[id]} ∪ L) F2 Ed1 Vt1 gf tm1 m2 ∧
      (∀ x, sbf (F1 x) (F2 x)) ∧ (∀ x, x ≠ id → F2 x = F1 x) ∧ ∀ j, lv F2 (Walker id j) = b && (j mod 4 =? 3)) as (m2 & F2 & -> & Hst2 & G1 & G2 & G3).
    { assert (∀ j, lv F1 (Walker id j) = false) as Hl0.
      { intros j. unfold lv. cbn [w_tet w_edge]. rewrite (proj1 (proj2 I4)). assert (j mod 4 < 4) as H by (by apply Nat.mod_upper_bound). clear -H. by destruct (j mod 4) as [|[|[|[|?]]]]. }
      destruct b.
      - destruct (upd_s _ _ _ _ _ _ _ _ _ _ _ _ id (set_locked (3 mod 4) true) Hst1 Hid) as (m2 & -> & Hst2). eexists m2, _. split; [done|]. split; [exact Hst2|].
        split; [apply sbf_lock|]. split; [intros x Hxi; unfold fupd; by rewrite decide_False|]. intros j. rewrite lv_lock by (cbn; lia). cbn [w_tet w_edge]. rewrite Hl0. change (3 mod 4) with 3.
        destruct (Nat.eqb_spec (j mod 4) 3) as [E|E]; [by rewrite decide_True|]. rewrite decide_False; [done|]. by intros [_ ?].
      - exists m1, F1. split; [done|]. split; [done|]. split; [done|]. split; [done|]. intros j. by rewrite Hl0. }
    cbn [mbind option_bind]. exists m2, em1, id, F2, Ed1, Vt1, tm1. split; [done|]. split; [done|]. split; [by apply (opn_flags _ F1 F2 Ed1 Ed1)|]. split; [done|].
    split.
    - intros x. rewrite elem_of_union, elem_of_singleton. setoid_rewrite elem_of_list_singleton. split.
      + intros [->|?]; [right; by exists vs, b|by left].
      + intros [?|(q & b' & [= -> -> ->])]; [by right|by left].
    - intros x q b' [= -> -> ->]%elem_of_list_singleton. done.
    - apply NoDup_singleton.
    - intros x Hxl. assert (x ≠ id) as Hxi by (intros ->; done). rewrite G2 by done. by apply I3.
    - intros x q b' [= -> -> ->]%elem_of_list_singleton. destruct (G1 id) as (C1 & C2 & C3 & C4). split; [rewrite C1; apply I4|]. split; [rewrite C4; apply I4|done].
    - intros e p H. destruct (Ed e) as [ue|] eqn:E; [|done]. by rewrite (I6 e ue E).
    - intros e p H. destruct (Ed1 e) as [ue|] eqn:E; [|done]. destruct (I7 e ue E) as [->|(-> & a & c & Ha & Hc & Hac & ->)]; [by left|right]. split; [done|].
      injection H as <-. exists id, vs, b, a, c. split; [by apply elem_of_list_singleton|]. done.
    - intros p. cbn. rewrite elem_of_nil. split.
      + intros (e & ue & A & B & C). left. exists e, ue. destruct (I7 e ue A) as [?|(_ & a & c & _ & _ & _ & ->)]; done.
      + intros [(e & ue & A & B & C)|[]]. exists e, ue. split; [by apply I6|done].
    - intros x Hxn. specialize (Hxn id vs b). rewrite elem_of_list_singleton in Hxn. specialize (Hxn eq_refl). unfold list4 in Hxn. rewrite !elem_of_cons, elem_of_nil in Hxn.
      rewrite I8. unfold vset4. rewrite !decide_False by tauto. done.
    - intros x id' q b' [= -> -> ->]%elem_of_list_singleton Hin. destruct (Hx x Hin) as [vt Evt].
      assert (∀ j, j < 4 → get4 vs j = x → ∃ w id' q' b', Some (vset (to_perm (Walker id j) P3210) vt) = Some (vset w vt) ∧ (id', q', b') ∈ [(id, vs, b)] ∧ w_tet w = id' ∧ w_edge w < 12 ∧ q0 (vv F2 w) = x) as Hgen.
      { intros j Hj Ej. exists (to_perm (Walker id j) P3210), id, vs, b. split; [done|]. split; [by apply elem_of_list_singleton|].
        assert (w_tet (to_perm (Walker id j) P3210) = id ∧ w_edge (to_perm (Walker id j) P3210) < 12) as [Ht He] by (clear -Hj; case4 j Hj; cbn; split; (done || lia)).
        split; [done|]. split; [done|]. unfold vv. rewrite Ht, (proj1 (G1 id)), (proj1 I4), <- Ej. clear -Hj. case4 j Hj; done. }
      exists vt. rewrite I8. unfold vset4. rewrite Evt. cbn [fmap option_fmap option_map]. unfold list4 in Hin. rewrite !elem_of_cons, elem_of_nil in Hin.
      destruct (decide (x = q0 vs)) as [->|N0]; [destruct (Hgen 0) as (w & ?&?&?&?); [lia|by destruct vs|by eexists w, _, _, _]|].
      destruct (decide (x = q1 vs)) as [->|N1]; [destruct (Hgen 1) as (w & ?&?&?&?); [lia|by destruct vs|by eexists w, _, _, _]|].
      destruct (decide (x = q2 vs)) as [->|N2]; [destruct (Hgen 2) as (w & ?&?&?&?); [lia|by destruct vs|by eexists w, _, _, _]|].
      destruct (decide (x = q3 vs)) as [->|N3]; [destruct (Hgen 3) as (w & ?&?&?&?); [lia|by destruct vs|by eexists w, _, _, _]|].
      exfalso. tauto.
  Qed.

  Lemma put_walkers ts P L F Ed Vt L' F' Ed' Vt' w : put ts P L F Ed Vt L' F' Ed' Vt' → vd L' w →
    (vd L w ∧ vv F' w = vv F w) ∨ (∃ q b, (w_tet w, q, b) ∈ ts ∧ vv F' w = verts_at q (w_edge w)).
  Proof.
    intros Hp [Hw He]. apply (pu_L _ _ _ _ _ _ _ _ _ _ Hp) in Hw as [Hw|(q & b & Hw)].
    - left. split; [done|]. unfold vv. by rewrite (proj1 (pu_old _ _ _ _ _ _ _ _ _ _ Hp _ Hw)).
    - right. exists q, b. split; [done|]. unfold vv. by rewrite (proj1 (pu_tet _ _ _ _ _ _ _ _ _ _ Hp _ _ _ Hw)).
  Qed.

  Lemma lock_put nt ne L F Vt gf tm em ps Ed m : st nt ne L F Ed Vt gf tm m → (∀ p, p ∈ ps → ∃ e ue, em !! sorted_2 p = Some e ∧ Ed e = Some ue ∧ ue_vs ue = sorted_2 p) →
    ∃ m' Ed', lock3 em m ps = Some m' ∧ st nt ne L F Ed' Vt gf tm m' ∧ (∀ e, ue_vs <$> Ed' e = ue_vs <$> Ed e) ∧ put [] ps L F Ed Vt L F Ed' Vt.
  Proof.
    intros Hst Hps. destruct (lock_edges_s ctr nv nt ne L F Vt gf tm em ps Ed m Hst) as (m' & Ed' & E & Hst' & A & B & C).
    { intros p Hp. destruct (Hps p Hp) as (e & ue & E1 & E2 & _). exists e. split; [done|]. by exists ue. }
    exists m', Ed'. split; [done|]. split; [done|]. split; [done|]. split; try done; try (by intros ? ? ? ?%elem_of_nil).
    - intros x. split; [by left|]. intros [?|(q & b & ?%elem_of_nil)]; done.
    - constructor.
    - intros e p. by rewrite A.
    - intros e p. rewrite A. by left.
    - intros p. split.
      + intros (e & ue & E1 & E2 & E3). destruct (decide (Exists (λ q, em !! sorted_2 q = Some e) ps)) as [Hex|Hex].
        * apply Exists_exists in Hex as (q & Hq & Eq). right. apply elem_of_list_fmap. exists q. split; [|done]. destruct (Hps q Hq) as (e' & ue' & G1 & G2 & G3).
          assert (e' = e) as -> by congruence. rewrite (B e q Hq Eq), G2 in E1. injection E1 as <-. by rewrite <- E2, <- G3.
        * left. exists e, ue. rewrite C in E1; [done|]. intros q Hq Eq. apply Hex, Exists_exists. by exists q.
      + intros [(e & ue & E1 & E2 & E3)|Hin].
        * destruct (decide (Exists (λ q, em !! sorted_2 q = Some e) ps)) as [Hex|Hex].
          -- apply Exists_exists in Hex as (q & Hq & Eq). exists e, (set_elocked true ue). by rewrite (B e q Hq Eq), E1.
          -- exists e, ue. rewrite C; [done|]. intros q Hq Eq. apply Hex, Exists_exists. by exists q.
        * apply elem_of_list_fmap in Hin as (q & -> & Hq). destruct (Hps q Hq) as (e & ue & G1 & G2 & G3). exists e, (set_elocked true ue). by rewrite (B e q Hq G1), G2.
    - by intros ? ? ? ? ?%elem_of_nil.
  Qed.

  (** ** Both sides of a triangle. *)
  Definition tri_quads (vt vb : N) (t : N * N * N) : list (arr4 N) := [A4 t.1.2 t.1.1 t.2 vt; A4 t.1.1 t.1.2 t.2 vb].
  Definition tri_sides (t : N * N * N) : list (N * N) := [(t.1.1, t.1.2); (t.1.2, t.2); (t.2, t.1.1)].
  Lemma put_tri_eq vt vb m em t : put_tri dflt vt vb (m, em) t =
    ('(m, em, _) ← insert_lock true m (A4 t.1.2 t.1.1 t.2 vt) em; '(m, em, _) ← insert_lock true m (A4 t.1.1 t.1.2 t.2 vb) em;
     m ← lock3 em m (tri_sides t); Some (m, em)).
  Proof.
    destruct t as [[v0 v1] v2]. unfold put_tri, insert_lock, lock3, tri_sides. cbn [fst snd].
    destruct (insert_tet dflt m _ em) as [[[m1 em1] w1]|]; [|done]. cbn [mbind option_bind].
    destruct (tet_upd m1 _ _) as [m2|]; [|done]. cbn [mbind option_bind].
    destruct (insert_tet dflt m2 _ em1) as [[[m3 em3] w3]|]; [|done]. cbn [mbind option_bind].
    destruct (tet_upd m3 _ _) as [m4|]; done.
  Qed.
  (** The edges of a tet of the mesh are known. *)
  Lemma knows_tet S L F Ed tm em w : opn L F Ed tm → knows S Ed em → vd L w → S (q0 (vv F w)) (q1 (vv F w)) →
    ∃ e ue, em !! sorted_2 (pair2 (vv F w)) = Some e ∧ Ed e = Some ue ∧ ue_vs ue = sorted_2 (pair2 (vv F w)).
  Proof.
    intros Hop Hk Hw HS. destruct (op_edge _ _ _ _ Hop w Hw) as (ue & A & B). exists (uv F w), ue. split; [|done]. apply Hk; [done| |by exists ue].
    pose proof (vv_nodup F _ (proj2 Hw) (op_nodup _ _ _ _ Hop _ (proj1 Hw))) as Hd. unfold list4 in Hd. by apply NoDup4 in Hd as (N1&_).
  Qed.

  Lemma put_tri_s (S : N → N → Prop) nt ne L F Ed Vt gf tm m em vt vb t : st nt ne L F Ed Vt gf tm m → opn L F Ed tm →
    (∀ q, q ∈ tri_quads vt vb t → NoDup (list4 q) ∧ (∀ x, x ∈ list4 q → is_Some (Vt x)) ∧ (∀ x y, x ∈ list4 q → y ∈ list4 q → x ≠ y → S x y)) →
    NoDup (tri_quads vt vb t ≫= tris12) → (∀ w, vd L w → tri3 (vv F w) ∉ tri_quads vt vb t ≫= tris12) → knows S Ed em →
    (nt + 2 ≤ u32_mod)%N → (ne + 12 ≤ u32_mod)%N →
    ∃ m' em' ts L' F' Ed' Vt' tm', put_tri dflt vt vb (m, em) t = Some (m', em') ∧
      st (nt + 2) (ne + 12) L' F' Ed' Vt' gf tm' m' ∧ opn L' F' Ed' tm' ∧ knows S Ed' em' ∧
      put ts (tri_sides t) L F Ed Vt L' F' Ed' Vt' ∧ (λ x, (x.1.2, x.2)) <$> ts = (λ q, (q, true)) <$> tri_quads vt vb t.
  Proof.
    intros Hst Hop Hq Hnd Hd Hk Hnt Hne. rewrite put_tri_eq. unfold tri_quads in *. cbn [mbind list_bind] in Hnd, Hd. rewrite app_nil_r in Hnd, Hd. set (qa := A4 t.1.2 t.1.1 t.2 vt) in *. set (qb := A4 t.1.1 t.1.2 t.2 vb) in *.
    destruct (Hq qa) as (X1 & X2 & X3); [by left|]. destruct (Hq qb) as (Y1 & Y2 & Y3); [by right; left|].
    destruct (insert_lock_s true S nt ne L F Ed Vt gf tm m em qa Hst Hop X1 X2 X3) as (m1 & em1 & id1 & F1 & Ed1 & Vt1 & tm1 & -> & Hst1 & Hop1 & Hk1 & Hp1); [|done|lia|lia|].
    { intros w Hw Hin. apply (Hd w Hw). apply elem_of_app. by left. }
    cbn [mbind option_bind].
    destruct (insert_lock_s true S (nt + 1) (ne + 6) _ F1 Ed1 Vt1 gf tm1 m1 em1 qb Hst1 Hop1 Y1) as (m2 & em2 & id2 & F2 & Ed2 & Vt2 & tm2 & -> & Hst2 & Hop2 & Hk2 & Hp2); [|done| |done|lia|lia|].
    { intros x Hx. destruct (decide (x ∈ list4 qa)) as [Hxa|Hxa].
      - destruct (pu_vnew _ _ _ _ _ _ _ _ _ _ Hp1 x id1 qa true) as (vt0 & w & _ & _ & _ & _ & -> & _); [by left|done|by eexists].
      - rewrite (pu_vold _ _ _ _ _ _ _ _ _ _ Hp1 x); [by apply Y2|]. intros id q b [= -> -> ->]%elem_of_list_singleton. done. }
    { intros w Hw Hin. destruct (put_walkers _ _ _ _ _ _ _ _ _ _ w Hp1 Hw) as [[A B]|(q & b & A & B)]; rewrite B in Hin.
      - apply (Hd w A). apply elem_of_app. by right.
      - apply elem_of_list_singleton in A as [= _ -> _]. apply NoDup_app in Hnd as (_ & Hnd & _). apply (Hnd (tri3 (verts_at qa (w_edge w)))); [|done]. apply elem_tris12, Hw. }
    cbn [mbind option_bind]. pose proof (put_trans _ _ _ _ _ _ _ _ _ _ _ _ _ _ _ _ Hp1 Hp2) as Hp. cbn [app] in Hp.
    destruct (lock_put _ _ _ F2 _ _ _ em2 (tri_sides t) Ed2 m2 Hst2) as (m3 & Ed3 & -> & Hst3 & Hev & Hp3).
    { assert (∀ j, j < 12 → S (q0 (verts_at qb j)) (q1 (verts_at qb j)) → ∃ e ue, em2 !! sorted_2 (pair2 (verts_at qb j)) = Some e ∧ Ed2 e = Some ue ∧ ue_vs ue = sorted_2 (pair2 (verts_at qb j))) as Hgen.
      { intros j Hj HS. pose proof (knows_tet S _ F2 Ed2 tm2 em2 (Walker id2 j) Hop2 Hk2) as H. assert (vv F2 (Walker id2 j) = verts_at qb j) as Ev.
        { unfold vv. cbn [w_tet w_edge]. destruct (pu_tet _ _ _ _ _ _ _ _ _ _ Hp2 id2 qb true) as [-> _]; [by left|done]. }
        rewrite Ev in H. apply H; [|done]. split; [apply elem_of_union_l, elem_of_singleton; done|done]. }
      assert (∀ j, j < 12 → S (q0 (verts_at qb j)) (q1 (verts_at qb j))) as HSj.
      { intros j Hj. pose proof Y1 as Y1'. unfold qb in Y1'. apply NoDup4 in Y1' as (N1&N2&N3&N4&N5&N6). cbn in N1, N2, N3, N4, N5, N6. apply Y3; unfold list4, qb; rewrite ?elem_of_cons; clear -Hj N1 N2 N3 N4 N5 N6; case12 j Hj; cbn; first [tauto|congruence]. }
      intros p Hp0. unfold tri_sides in Hp0. rewrite !elem_of_cons, elem_of_nil in Hp0.
      destruct Hp0 as [->|[->|[->|[]]]]; [apply (Hgen 3)|apply (Hgen 7)|apply (Hgen 11)]; try lia; apply HSj; lia. }
    cbn [mbind option_bind]. pose proof (put_trans _ _ _ _ _ _ _ _ _ _ _ _ _ _ _ _ Hp Hp3) as Hp4. rewrite app_nil_r in Hp4. cbn [app] in Hp4.
    exists m3, em2. eexists _, _, F2, Ed3, Vt2, tm2. split; [done|]. split; [replace (nt + 2)%N with (nt + 1 + 1)%N by lia; replace (ne + 12)%N with (ne + 6 + 6)%N by lia; exact Hst3|].
    split; [by apply (opn_flags _ F2 F2 Ed2 Ed3)|]. split; [by apply (knows_flags _ Ed2 Ed3)|]. split; [exact Hp4|done].
  Qed.

  Lemma puts_s (S : N → N → Prop) gf vt vb (tris : list (N * N * N)) : ∀ nt ne L F Ed Vt tm m em, st nt ne L F Ed Vt gf tm m → opn L F Ed tm →
    (∀ q, q ∈ tris ≫= tri_quads vt vb → NoDup (list4 q) ∧ (∀ x, x ∈ list4 q → is_Some (Vt x)) ∧ (∀ x y, x ∈ list4 q → y ∈ list4 q → x ≠ y → S x y)) →
    NoDup ((tris ≫= tri_quads vt vb) ≫= tris12) → (∀ w, vd L w → tri3 (vv F w) ∉ (tris ≫= tri_quads vt vb) ≫= tris12) → knows S Ed em →
    (nt + 2 * N.of_nat (length tris) ≤ u32_mod)%N → (ne + 12 * N.of_nat (length tris) ≤ u32_mod)%N →
    ∃ m' em' ts L' F' Ed' Vt' tm', mfoldl (put_tri dflt vt vb) tris (m, em) = Some (m', em') ∧
      st (nt + 2 * N.of_nat (length tris)) (ne + 12 * N.of_nat (length tris)) L' F' Ed' Vt' gf tm' m' ∧ opn L' F' Ed' tm' ∧ knows S Ed' em' ∧
      put ts (tris ≫= tri_sides) L F Ed Vt L' F' Ed' Vt' ∧ (λ x, (x.1.2, x.2)) <$> ts = (λ q, (q, true)) <$> (tris ≫= tri_quads vt vb).
  Proof.
    induction tris as [|t tris IH]; intros nt ne L F Ed Vt tm m em Hst Hop Hq Hnd Hd Hk Hnt Hne.
    - cbn [mfoldl mbind list_bind length]. exists m, em, [], L, F, Ed, Vt, tm. split; [done|]. split; [eapply st_le, Hst; lia|]. split; [done|]. split; [done|]. split; [apply put_nil|done].
    - rewrite !bind_cons in *. rewrite bind_app in Hnd, Hd. cbn [length mfoldl] in *. apply NoDup_app in Hnd as (Hn1 & Hn2 & Hn3).
      destruct (put_tri_s S nt ne L F Ed Vt gf tm m em vt vb t Hst Hop) as (m1 & em1 & ts1 & L1 & F1 & Ed1 & Vt1 & tm1 & -> & Hst1 & Hop1 & Hk1 & Hp1 & Et1); [|done| |done|lia|lia|].
      { intros q Hin. apply Hq, elem_of_app. by left. }
      { intros w Hw Hin. apply (Hd w Hw), elem_of_app. by left. }
      assert (∀ id q b, (id, q, b) ∈ ts1 → q ∈ tri_quads vt vb t) as Hts1.
      { intros id q b Hin. assert ((q, b) ∈ (λ q, (q, true)) <$> tri_quads vt vb t) as H; [|by apply elem_of_list_fmap in H as (? & [= -> _] & ?)].
        rewrite <- Et1. apply elem_of_list_fmap. by exists (id, q, b). }
      cbn [mbind option_bind].
      destruct (IH (nt + 2)%N (ne + 12)%N L1 F1 Ed1 Vt1 tm1 m1 em1 Hst1 Hop1) as (m2 & em2 & ts2 & L2 & F2 & Ed2 & Vt2 & tm2 & -> & Hst2 & Hop2 & Hk2 & Hp2 & Et2); [|done| |done|lia|lia|].
      { intros q Hin. destruct (Hq q) as (A & B & C); [apply elem_of_app; by right|]. split; [done|]. split; [|done]. intros x Hx.
        destruct (decide (Exists (λ y : N * arr4 N * bool, x ∈ list4 y.1.2) ts1)) as [Hex|Hex].
        - apply Exists_exists in Hex as ([[id q'] b] & H1 & H2). destruct (pu_vnew _ _ _ _ _ _ _ _ _ _ Hp1 x id q' b H1 H2) as (vt0 & w & _ & _ & _ & _ & -> & _). by eexists.
        - rewrite (pu_vold _ _ _ _ _ _ _ _ _ _ Hp1 x); [by apply B|]. intros id q' b H H'. apply Hex, Exists_exists. by exists (id, q', b). }
      { intros w Hw Hin. destruct (put_walkers _ _ _ _ _ _ _ _ _ _ w Hp1 Hw) as [[A B]|(q & b & A & B)]; rewrite B in Hin.
        - apply (Hd w A), elem_of_app. by right.
        - apply (Hn2 (tri3 (verts_at q (w_edge w)))); [|done]. apply elem_of_list_bind. exists q. split; [apply elem_tris12, Hw|]. by eapply Hts1. }
      exists m2, em2, (ts1 ++ ts2), L2, F2, Ed2, Vt2, tm2. split; [done|]. split; [eapply st_le, Hst2; lia|]. split; [done|]. split; [done|]. split; [by eapply put_trans|].
      by rewrite !fmap_app, Et1, Et2.
  Qed.
End put.
