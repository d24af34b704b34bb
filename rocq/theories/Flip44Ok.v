(** The 4-to-4 flip keeps the mesh consistent, and facts about rings stated on the walker API. *)
From stdpp Require Import base numbers list gmap option relations.
From Coq Require Import NArith ZArith ZifyN ZifyNat ZifyBool Lia.
From Verif Require Import IdMapModel IdMapSpec IdMapProofs IdMapMore WalkerModel WalkerSpec WalkerProofs SortProofs
  MeshModel WalkerMore MeshSpec MeshViews FlipBase FlipSpec Flip23Ok Flip32Ok.
Local Open Scope nat_scope.

Section api.
  Context {V T : Type}.
  Implicit Types (m : mesh V T) (w u : walker).

  Definition vs_of m (id : N) : option (arr4 N) := t_vs <$> tet_get m id.

  Lemma valid_twin m w : valid m w → valid m (to_twin_edge w).
  Proof. intros [H1 H2]. split; [done|by apply to_twin_edge_ok]. Qed.
  Lemma valid_nfe m w : valid m w → valid m (to_nfe w).
  Proof. intros [H1 H2]. split; [done|by apply to_nfe_ok]. Qed.
  Lemma valid_pfe m w : valid m w → valid m (to_pfe w).
  Proof. intros [H1 H2]. split; [done|by apply to_pfe_ok]. Qed.
  Lemma valid_nve m w : valid m w → valid m (to_nve w).
  Proof. intros [H1 H2]. split; [done|by apply to_nve_ok]. Qed.
  Lemma valid_pve m w : valid m w → valid m (to_pve w).
  Proof. intros [H1 H2]. split; [done|by apply to_pve_ok]. Qed.
  Lemma valid_opp m w : valid m w → valid m (to_opp_edge w).
  Proof. intros [H1 H2]. split; [done|by apply to_opp_edge_ok]. Qed.

  Lemma wverts_ex m w : valid m w → ∃ a b c d, w_verts m w = Some (A4 a b c d).
  Proof. intros [[t Ht] _]. rewrite (w_verts_eq m w t Ht). destruct (verts_at _ _). eauto. Qed.
  Lemma wverts_twin m w a b c d : valid m w → w_verts m w = Some (A4 a b c d) → w_verts m (to_twin_edge w) = Some (A4 b a d c).
  Proof. intros [_ H] E. by apply (walker_moves m w a b c d). Qed.
  Lemma wverts_opp m w a b c d : valid m w → w_verts m w = Some (A4 a b c d) → w_verts m (to_opp_edge w) = Some (A4 c d a b).
  Proof. intros [_ H] E. by apply (walker_moves m w a b c d). Qed.
  Lemma wverts_nfe m w a b c d : valid m w → w_verts m w = Some (A4 a b c d) → w_verts m (to_nfe w) = Some (A4 b c a d).
  Proof. intros [_ H] E. by apply (walker_moves m w a b c d). Qed.
  Lemma wverts_pfe m w a b c d : valid m w → w_verts m w = Some (A4 a b c d) → w_verts m (to_pfe w) = Some (A4 c a b d).
  Proof. intros [_ H] E. by apply (walker_moves m w a b c d). Qed.
  Lemma wverts_nve m w a b c d : valid m w → w_verts m w = Some (A4 a b c d) → w_verts m (to_nve w) = Some (A4 a c d b).
  Proof. intros [_ H] E. by apply (walker_moves m w a b c d). Qed.
  Lemma wverts_tri m w a b c d : w_verts m w = Some (A4 a b c d) → w_tri m w = Some (a, b, c).
  Proof. intros E. by apply (walker_accessors m w a b c d). Qed.
  Lemma wverts_pair m w a b c d : w_verts m w = Some (A4 a b c d) → w_pair m w = Some (a, b).
  Proof. intros E. by apply (walker_accessors m w a b c d). Qed.
  Lemma wverts_first m w a b c d : w_verts m w = Some (A4 a b c d) → w_first m w = Some a.
  Proof. intros E. by apply (walker_accessors m w a b c d). Qed.
  Lemma wverts_fourth m w a b c d : w_verts m w = Some (A4 a b c d) → w_fourth m w = Some d.
  Proof. intros E. by apply (walker_accessors m w a b c d). Qed.

  Lemma wverts_same m m' w vs : vs_of m' (w_tet w) = vs_of m (w_tet w) → w_verts m w = Some vs → w_verts m' w = Some vs.
  Proof.
    unfold vs_of. intros H E. destruct (tet_get m (w_tet w)) as [t|] eqn:Et.
    - cbn in H. destruct (tet_get m' (w_tet w)) as [t'|] eqn:Et'; [|done]. cbn in H. injection H as H.
      rewrite (w_verts_eq m w t Et) in E. rewrite (w_verts_eq m' w t' Et'). by rewrite H.
    - unfold w_verts, w_first in E. rewrite Et in E. done.
  Qed.
  Lemma valid_same m m' w : vs_of m' (w_tet w) = vs_of m (w_tet w) → valid m w → valid m' w.
  Proof.
    unfold vs_of. intros H [[t Et] He]. split; [|done]. rewrite Et in H. destruct (tet_get m' (w_tet w)); [eauto|done].
  Qed.

  (** The walker across a triangle is the one that shows it reversed. *)
  Lemma adj_is m w w' a b c d x : mesh_ok m → valid m w → valid m w' → w_verts m w = Some (A4 a b c d) →
    w_verts m w' = Some (A4 b a c x) → to_adj m w = Some w'.
  Proof.
    intros Hok Hw Hw' E E'. destruct (ok_adj m Hok w a b c d Hw E) as (u & y & H1 & H2 & H3 & _). rewrite H1. f_equal.
    apply (ok_tri_unique m Hok u w' (b, a, c)); [done|done|by eapply wverts_tri..].
  Qed.
  Lemma adj_info m w w' a b c d : mesh_ok m → valid m w → w_verts m w = Some (A4 a b c d) → to_adj m w = Some w' →
    valid m w' ∧ (∃ x, w_verts m w' = Some (A4 b a c x)) ∧ to_adj m w' = Some w.
  Proof.
    intros Hok Hw E E'. destruct (ok_adj m Hok w a b c d Hw E) as (u & y & H1 & H2 & H3 & H4).
    rewrite E' in H1. injection H1 as <-. eauto.
  Qed.
  Lemma ring_is m w w' p q x y z : mesh_ok m → valid m w → valid m w' → w_verts m w = Some (A4 p q x y) →
    w_verts m w' = Some (A4 p q y z) → ring_next m w = Some w'.
  Proof.
    intros Hok Hw Hw' E E'. unfold ring_next. eapply adj_is; [done|by apply valid_twin|done|by eapply wverts_twin|done].
  Qed.
  Lemma ring_info m w w' p q x y : mesh_ok m → valid m w → w_verts m w = Some (A4 p q x y) → ring_next m w = Some w' →
    valid m w' ∧ ∃ z, w_verts m w' = Some (A4 p q y z).
  Proof.
    intros Hok Hw E E'. unfold ring_next in E'. destruct (adj_info m (to_twin_edge w) w' q p y x Hok) as (H1 & H2 & _);
      [by apply valid_twin|by eapply wverts_twin|done|done].
  Qed.
  Lemma tri_same m w w' a b c d d' : mesh_ok m → valid m w → valid m w' → w_verts m w = Some (A4 a b c d) →
    w_verts m w' = Some (A4 a b c d') → w = w'.
  Proof.
    intros Hok Hw Hw' E E'. apply (ok_tri_unique m Hok w w' (a, b, c)); [done|done|by eapply wverts_tri..].
  Qed.
  (** Walkers of one tet showing the same first two vertices are equal. *)
  Lemma pair_same m w w' a b c d c' d' : mesh_ok m → valid m w → valid m w' → w_verts m w = Some (A4 a b c d) →
    w_verts m w' = Some (A4 a b c' d') → w_tet w = w_tet w' → w = w'.
  Proof.
    intros Hok Hw Hw' E E' Ht. pose proof (ok_distinct m Hok w a b c d Hw E) as Hnd.
    destruct w as [t e], w' as [t' e']. cbn in Ht. subst t'. f_equal.
    destruct Hw as [[tt Et] He]. destruct Hw' as [_ He']. cbn in He, He', Et.
    rewrite (w_verts_eq m (Walker t e) tt Et) in E. rewrite (w_verts_eq m (Walker t e') tt Et) in E'. cbn in E, E'.
    apply (inj Some) in E, E'. destruct (t_vs tt) as [v0 v1 v2 v3].
    apply NoDup4 in Hnd. cbn in Hnd. destruct Hnd as (?&?&?&?&?&?).
    revert E E'. case12 e He; case12 e' He'; cbn; try (intros; reflexivity); intros X1 X2; exfalso;
      injection X1 as <- <- <- <-; injection X2; intros; congruence.
  Qed.
  Lemma pair_in_tet m id vs a b : vs_of m id = Some vs → a ∈ list4 vs → b ∈ list4 vs → a ≠ b → joined m a b.
  Proof.
    unfold vs_of. intros Hv Ha Hb Hab. destruct (tet_get m id) as [t|] eqn:Et; [|done]. injection Hv as <-.
    destruct (pair_of_tet (λ _, t) id a b Ha Hb Hab) as (w & W1 & W2 & W3 & W4).
    exists w. rewrite <- W1 in Et. split; [split; [eauto|done]|].
    pose proof (w_verts_eq m w t Et) as E. unfold vv in W3, W4. destruct (verts_at (t_vs t) (w_edge w)) as [a' b' c d].
    cbn in W3, W4. subst. by eapply wverts_pair.
  Qed.
  Lemma wverts_in m w vs : valid m w → w_verts m w = Some vs → ∃ vs', vs_of m (w_tet w) = Some vs' ∧ ∀ x, x ∈ list4 vs ↔ x ∈ list4 vs'.
  Proof.
    intros [[t Et] He] E. exists (t_vs t). unfold vs_of. rewrite Et. split; [done|].
    rewrite (w_verts_eq m w t Et) in E. injection E as <-. intros x. apply (vv_elem (λ _, t) w x He).
  Qed.
  Lemma wtri_verts m w a b c : valid m w → w_tri m w = Some (a, b, c) → ∃ d, w_verts m w = Some (A4 a b c d).
  Proof.
    intros Hw E. destruct (wverts_ex m w Hw) as (a'&b'&c'&d&E'). pose proof (wverts_tri _ _ _ _ _ _ E') as E2.
    rewrite E in E2. injection E2 as -> -> ->. eauto.
  Qed.
End api.

Section flip44ok.
  Context {V T : Type}.
  Implicit Types (m : mesh V T) (w u : walker).

  (** The edge p-q of [self], surrounded by the four tets [self], [r1], [r2], [r3] with outer
      vertices x, y, z, u, is replaced by the edge z-x. *)
  Lemma flip44_step m self r1 r2 r3 p q x y z :
    mesh_ok m → valid m self → w_verts m self = Some (A4 p q x y) →
    ring_next m self = Some r1 → ring_next m r1 = Some r2 → ring_next m r2 = Some r3 → ring_next m r3 = Some self →
    r2 ≠ self → w_fourth m r1 = Some z → ¬ joined m x z → id_room m 1 1 →
    ∃ m' ws (u : N), flip44_unchecked m self = Some (m', ws) ∧ flip44_spec m self m' ws p q x y z u r1 r2 r3 ∧ mesh_ok m'.
  Proof.
    intros Hok V0 E0 R1 R2 R3 R4 Hne Ez Hnj Hroom.
    destruct (ring_info m self r1 _ _ _ _ Hok V0 E0 R1) as (V1 & z' & E1).
    assert (z' = z) as -> by (pose proof (wverts_fourth _ _ _ _ _ _ E1); congruence).
    destruct (ring_info m r1 r2 _ _ _ _ Hok V1 E1 R2) as (V2 & u & E2).
    destruct (ring_info m r2 r3 _ _ _ _ Hok V2 E2 R3) as (V3 & x' & E3).
    destruct (ring_info m r3 self _ _ _ _ Hok V3 E3 R4) as (_ & y' & E0').
    rewrite E0 in E0'. injection E0' as <- <-.
    pose proof (ok_distinct m Hok _ _ _ _ _ V0 E0) as D0. pose proof (ok_distinct m Hok _ _ _ _ _ V1 E1) as D1.
    pose proof (ok_distinct m Hok _ _ _ _ _ V2 E2) as D2. pose proof (ok_distinct m Hok _ _ _ _ _ V3 E3) as D3.
    apply NoDup4 in D0 as (N1&N2&N3&N4&N5&N6). apply NoDup4 in D1 as (_&M2&M3&M4&M5&M6).
    apply NoDup4 in D2 as (_&L2&L3&L4&L5&L6). apply NoDup4 in D3 as (_&K2&K3&K4&K5&K6). cbn in *.
    (* four different tets *)
    assert (self ≠ r1) as W01.
    { intros ->. congruence. }
    assert (r1 ≠ r2) as W12 by (intros <-; congruence).
    assert (r2 ≠ r3) as W23 by (intros <-; congruence).
    assert (self ≠ r3) as W03 by (intros <-; congruence).
    assert (r1 ≠ r3) as W13.
    { intros <-. congruence. }
    assert (NoDup [w_tet self; w_tet r1; w_tet r2; w_tet r3]) as Hids.
    { apply NoDup4. cbn. repeat split; intros Ht;
      [apply W01|apply Hne; symmetry|apply W03|apply W12|apply W13|apply W23];
      (eapply pair_same; [exact Hok| | | | |exact Ht]; eassumption). }
    pose proof Hids as Hids'. apply NoDup4 in Hids' as (T01&T02&T03&T12&T13&T23). cbn in T01, T02, T03, T12, T13, T23.
    assert (x ≠ z) as Hxz by (intros <-; apply Hne; symmetry; by eapply (tri_same m self r2)).
    assert (y ≠ u) as Hyu by (intros <-; apply W13; by eapply (tri_same m r1 r3)).
    (* first flip *)
    destruct (flip23_step m (to_twin_edge self) r1 q p y x z) as (m1 & ws1 & id2 & F1 & S1 & Hok1);
      [done|by apply valid_twin|by eapply wverts_twin|done|by eapply wverts_fourth|done|done|done|].
    destruct S1 as [_ _ I1 P1 -> Wv1 We1 Lk1 Rm1 Nv1]. cbn [w_tet fst snd] in *.
    change (w_tet (to_twin_edge self)) with (w_tet self) in *.
    assert (id2 ≠ w_tet self ∧ id2 ≠ w_tet r1) as [Hi0 Hi1].
    { apply NoDup_cons in I1 as [I1 [I2 _]%NoDup_cons]. rewrite !not_elem_of_cons in I1. rewrite !not_elem_of_cons in I2.
      split; intros ->; tauto. }
    assert (tet_get m id2 = None) as Hi2.
    { apply (rp_fresh _ _ _ _ _ _ P1); cbn; [repeat constructor|]. rewrite !not_elem_of_cons. split; [done|]. split; [done|]. by apply not_elem_of_nil. }
    assert (id2 ≠ w_tet r2 ∧ id2 ≠ w_tet r3) as [Hi3 Hi4].
    { split; intros ->; [destruct V2 as [[? V2] _]|destruct V3 as [[? V3] _]]; congruence. }
    assert (∀ id, id ≠ w_tet self → id ≠ w_tet r1 → id ≠ id2 → vs_of m1 id = vs_of m id) as Hsame1.
    { intros id H1 H2 H3. pose proof (rp_out _ _ _ _ _ _ P1 id) as H. cbn in H. rewrite !not_elem_of_cons in H.
      unfold vs_of. specialize (H ltac:(split; [done|]; split; [done|]; apply not_elem_of_nil)
        ltac:(split; [done|]; split; [done|]; split; [done|]; apply not_elem_of_nil)).
      destruct (tet_get m1 id), (tet_get m id); cbn in H |- *; try done. by injection H as -> _ _ _. }
    assert (valid m1 (to_twin_edge r3) ∧ w_verts m1 (to_twin_edge r3) = Some (A4 q p x u)) as [A1 B1].
    { assert (vs_of m1 (w_tet r3) = vs_of m (w_tet r3)) as Hs by (apply Hsame1; congruence).
      split; [eapply (valid_same m); [done|by apply valid_twin]|eapply (wverts_same m); [done|by eapply wverts_twin]]. }
    assert (valid m1 (to_twin_edge r2) ∧ w_verts m1 (to_twin_edge r2) = Some (A4 q p u z)) as [A2 B2].
    { assert (vs_of m1 (w_tet r2) = vs_of m (w_tet r2)) as Hs by (apply Hsame1; congruence).
      split; [eapply (valid_same m); [done|by apply valid_twin]|eapply (wverts_same m); [done|by eapply wverts_twin]]. }
    destruct Wv1 as (A0 & A4v & A5v), We1 as (B0 & B4 & B5).
    set (w0 := Walker (w_tet self) 2) in *.
    assert (ring_next m1 w0 = Some (to_twin_edge r3)) as Q1 by (by eapply ring_is).
    assert (ring_next m1 (to_twin_edge r3) = Some (to_twin_edge r2)) as Q2 by (by eapply ring_is).
    assert (ring_next m1 (to_twin_edge r2) = Some w0) as Q3 by (by eapply ring_is).
    assert (∀ id vs, vs_of m1 id = Some vs → x ∈ list4 vs → z ∈ list4 vs → 
      vs = A4 p q x z ∨ vs = A4 q y x z ∨ vs = A4 y p x z) as Hnew.
    { intros id vs Hid Hx Hz. destruct (decide (id ∈ [w_tet self; w_tet r1; id2])) as [Hin|Hout].
      - pose proof (rp_new _ _ _ _ _ _ P1) as Hn. unfold vs_of in Hid.
        rewrite !elem_of_cons, elem_of_nil in Hin. destruct Hin as [-> | [-> | [-> | []]]].
        + rewrite (Hn (w_tet self) (A4 p q x z)) in Hid by repeat constructor. injection Hid as <-. tauto.
        + rewrite (Hn (w_tet r1) (A4 q y x z)) in Hid by repeat constructor. injection Hid as <-. tauto.
        + rewrite (Hn id2 (A4 y p x z)) in Hid by repeat constructor. injection Hid as <-. tauto.
      - exfalso. rewrite !not_elem_of_cons in Hout. rewrite Hsame1 in Hid by tauto. apply Hnj. by eapply pair_in_tet. }
    assert (¬ has_tri m1 z x u) as Hnt.
    { intros (w & Hw & Ew). destruct (wtri_verts _ _ _ _ _ Hw Ew) as [d Ed]. destruct (wverts_in _ _ _ Hw Ed) as (vs & Hvs & Hin).
      pose proof (proj1 (Hin z)) as Iz. pose proof (proj1 (Hin x)) as Ix. pose proof (proj1 (Hin u)) as Iu.
      rewrite (elem_list4 (A4 z x u d)) in Iz, Ix, Iu. cbn in Iz, Ix, Iu.
      specialize (Iz ltac:(tauto)). specialize (Ix ltac:(tauto)). specialize (Iu ltac:(tauto)). clear Hin.
      destruct (Hnew _ _ Hvs Ix Iz) as [-> | [-> | -> ]]; rewrite elem_list4 in Iu; cbn in Iu;
      clear -Iu L3 L5 L6 K6 Hyu; destruct Iu as [?|[?|[?|?]]]; congruence. }
    (* second flip *)
    destruct (flip32_step m1 w0 (to_twin_edge r3) (to_twin_edge r2) q p z x u) as (m2 & ws2 & F2 & S2 & Hok2);
      [done|done|done|done|by eapply wverts_fourth|done|done|done|].
    destruct S2 as [_ _ _ I2 P2 -> Wv2 We2 Lk2 Rm2 Nv2]. cbn [fst snd] in *.
    change (w_tet (to_twin_edge r3)) with (w_tet r3) in *. change (w_tet (to_twin_edge r2)) with (w_tet r2) in *.
    change (w_tet w0) with (w_tet self) in *.
    assert (∀ id, id ≠ w_tet self → id ≠ w_tet r3 → id ≠ w_tet r2 → vs_of m2 id = vs_of m1 id) as Hsame2.
    { intros id H1 H2 H3. pose proof (rp_out _ _ _ _ _ _ P2 id) as H. cbn in H. rewrite !not_elem_of_cons in H.
      unfold vs_of. specialize (H ltac:(split; [done|]; split; [done|]; split; [done|]; apply not_elem_of_nil)
        ltac:(split; [done|]; split; [done|]; apply not_elem_of_nil)).
      destruct (tet_get m2 id), (tet_get m1 id); cbn in H |- *; try done. by injection H as -> _ _ _. }
    set (w1 := Walker (w_tet r1) 2) in *. set (w2 := Walker id2 2) in *.
    assert (valid m2 (to_opp_edge w1) ∧ w_verts m2 (to_opp_edge w1) = Some (A4 z x y q)) as [C0 G0].
    { assert (vs_of m2 (w_tet r1) = vs_of m1 (w_tet r1)) as Hs by (apply Hsame2; congruence).
      split; [eapply (valid_same m1); [done|by apply valid_opp]|eapply (wverts_same m1); [done|by eapply wverts_opp]]. }
    assert (valid m2 (to_opp_edge w2) ∧ w_verts m2 (to_opp_edge w2) = Some (A4 z x p y)) as [C3 G3].
    { assert (vs_of m2 id2 = vs_of m1 id2) as Hs by (apply Hsame2; congruence).
      split; [eapply (valid_same m1); [done|by apply valid_opp]|eapply (wverts_same m1); [done|by eapply wverts_opp]]. }
    destruct Wv2 as [C1 C2], We2 as [G1 G2].
    set (v1 := Walker (w_tet self) 10) in *. set (v2 := Walker (w_tet r3) 10) in *.
    assert (valid m2 (to_nfe v1) ∧ w_verts m2 (to_nfe v1) = Some (A4 z x q u)) as [C1' G1'].
    { split; [by apply valid_nfe|by eapply wverts_nfe]. }
    assert (valid m2 (to_twin_edge (to_nfe v2)) ∧ w_verts m2 (to_twin_edge (to_nfe v2)) = Some (A4 z x u p)) as [C2' G2'].
    { split; [by apply valid_twin, valid_nfe|]. eapply wverts_twin; [by apply valid_nfe|]. by eapply wverts_nfe. }
    set (k0 := to_opp_edge w1) in *. set (k1 := to_nfe v1) in *. set (k2 := to_twin_edge (to_nfe v2)) in *. set (k3 := to_opp_edge w2) in *.
    assert (ring_next m2 k0 = Some k1) as R1' by (by eapply ring_is).
    assert (ring_next m2 k1 = Some k2) as R2' by (by eapply ring_is).
    assert (ring_next m2 k2 = Some k3) as R3' by (by eapply ring_is).
    assert (ring_next m2 k3 = Some k0) as R4' by (by eapply ring_is).
    assert (w_tet k0 = w_tet r1 ∧ w_tet k1 = w_tet self ∧ w_tet k2 = w_tet r3 ∧ w_tet k3 = id2) as (Z0 & Z1 & Z2 & Z3) by done.
    assert (k1 ≠ k0 ∧ k2 ≠ k0 ∧ k3 ≠ k0) as (Y1 & Y2 & Y3).
    { split; [|split]; intros Hk; congruence. }
    exists m2, [k0; k1; k2; k3], u. split; [|split].
    - unfold flip44_unchecked. rewrite F1. cbn [mbind option_bind]. rewrite F2. cbn [mbind option_bind]. fold k0.
      rewrite R1'. cbn [mbind option_bind]. rewrite bool_decide_eq_false_2 by done.
      rewrite R2'. cbn [mbind option_bind]. rewrite bool_decide_eq_false_2 by done.
      rewrite R3'. cbn [mbind option_bind]. rewrite bool_decide_eq_false_2 by done. done.
    - split.
      + done.
      + done.
      + exists id2. split; [apply C3|].
        pose proof (rp_new _ _ _ _ _ _ P1) as N1'. pose proof (rp_new _ _ _ _ _ _ P2) as N2'.
        split.
        * intros id Hin. rewrite !elem_of_cons, elem_of_nil in Hin.
          destruct Hin as [-> | [-> | [-> | [-> | []]]]]; [apply V0|apply V1|apply V2|apply V3].
        * intros id vs Hin. rewrite !elem_of_cons, elem_of_nil in Hin.
          destruct Hin as [[= -> ->]|[[= -> ->]|[[= -> ->]|[[= -> ->]|[]]]]].
          -- apply N2'. repeat constructor.
          -- change (vs_of m2 (w_tet r1) = Some (A4 q y x z)). rewrite Hsame2 by congruence. apply N1'. repeat constructor.
          -- change (vs_of m2 id2 = Some (A4 y p x z)). rewrite Hsame2 by congruence. apply N1'. repeat constructor.
          -- apply N2'. repeat constructor.
        * intros id Hin Hn. cbn in Hn. rewrite !not_elem_of_cons in Hn. rewrite !elem_of_cons, elem_of_nil in Hin.
          assert (id = w_tet r2) as -> by (clear -Hin Hn; tauto).
          apply (rp_gone _ _ _ _ _ _ P2); cbn; [repeat constructor|]. rewrite !not_elem_of_cons.
          split; [congruence|]. split; [congruence|]. apply not_elem_of_nil.
        * intros id Hin Hn. cbn in Hin. rewrite !elem_of_cons, elem_of_nil in Hin. rewrite !not_elem_of_cons in Hn.
          assert (id = id2) as -> by (clear -Hin Hn; tauto). done.
        * intros id Ho Hn. cbn in Hn. rewrite !not_elem_of_cons in Hn, Ho.
          destruct Ho as (O0&O1&O2&O3&_), Hn as (_&_&O4&_).
          pose proof (rp_out _ _ _ _ _ _ P1 id) as H. cbn in H. rewrite !not_elem_of_cons in H.
          pose proof (rp_out _ _ _ _ _ _ P2 id) as H'. cbn in H'. rewrite !not_elem_of_cons in H'.
          assert (id ∉ @nil N) as Hnil by apply not_elem_of_nil.
          rewrite H' by (clear -Hnil O0 O1 O2 O3 O4; tauto). apply H; clear -Hnil O0 O1 O2 O3 O4; tauto.
        * intros e ue. pose proof (rp_edges _ _ _ _ _ _ P1 e ue) as H. pose proof (rp_edges _ _ _ _ _ _ P2 e ue) as H'.
          split.
          -- intros E. pose proof E as E'. apply H' in E' as [[E1' E2']|(_ & _ & pr & []%elem_of_nil & _)].
             apply H in E1' as [[E1' _]|(E1' & _ & Hp)]; [by left|]. right. done.
          -- intros [[E1' E2']|(_ & E1' & _)]; [|done]. apply H'. left. split; [|done]. apply H. left. split; [done|]. apply not_elem_of_nil.
        * intros v. rewrite (rp_verts _ _ _ _ _ _ P2), (rp_verts _ _ _ _ _ _ P1). done.
        * rewrite (rp_ghost_flags _ _ _ _ _ _ P2), (rp_ghost_flags _ _ _ _ _ _ P1). done.
        * rewrite (rp_track _ _ _ _ _ _ P2), (rp_track _ _ _ _ _ _ P1). done.
        * rewrite (rp_center _ _ _ _ _ _ P2), (rp_center _ _ _ _ _ _ P1). done.
      + exists k0, k1, k2, k3. split; [done|]. split.
        { change (NoDup [w_tet r1; w_tet self; w_tet r3; id2]). apply NoDup4. cbn. repeat split; congruence. }
        split; [apply Forall_cons; split; [done|]; apply Forall_cons; split; [done|]; apply Forall_cons; split; [done|];
          apply Forall_cons; split; [done|]; by apply Forall_nil|]. done.
      + intros t. rewrite Lk2, Lk1. split.
        * intros [[H1 H2] H3]. split; [done|]. tauto.
        * intros [H1 H2]. split; [|tauto]. split; [done|]. intros Hc. apply H2. unfold same_corners in Hc.
          split; apply Hc; cbn; rewrite !elem_of_cons; tauto.
      + intros nt ne Hr. apply Rm1 in Hr. destruct Rm2 as [X1 X2]. unfold id_room. rewrite X1, X2. exact Hr.
      + congruence.
    - done.
  Qed.
End flip44ok.
