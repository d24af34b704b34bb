(** In a mesh of positively oriented tets the triangles that a segment crosses come in order. *)
From stdpp Require Import base numbers list gmap option.
From Coq Require Import NArith ZArith QArith Sorted Lia.
From Verif Require Import IdMapModel WalkerModel WalkerSpec WalkerProofs MeshModel MeshSpec MeshViews IterProofs MeshOps FlipSpec FlipBase Flip44Ok FlipCommon QualModel ProgSpec ProgBase GeoModel GeoSpec GeoProofs GeoMesh CrossModel
  WayModel WaySpec WayOk WayGeo.
Local Open Scope Z_scope.

(** ** Determinants *)
Lemma det_shift p0 p1 p2 p3 o : orient p0 p1 p2 p3 = orient (vsub p0 o) (vsub p1 o) (vsub p2 o) (vsub p3 o).
Proof. destruct p0, p1, p2, p3, o. geo. ring. Qed.
Lemma vsub_self b : vsub b b = Pt 0 0 0.
Proof. apply pt_eq. destruct b. geo. repeat split; ring. Qed.
Lemma det_exit0 a c d p q : let b := Pt 0 0 0 in orient a b c q * orient d c b p - orient a b c p * orient d c b q = orient b c p q * orient a b c d.
Proof. destruct a, c, d, p, q. geo. ring. Qed.
Lemma det_exit a b c d p q : orient a b c q * orient d c b p - orient a b c p * orient d c b q = orient b c p q * orient a b c d.
Proof. rewrite (det_shift a b c q b), (det_shift d c b p b), (det_shift a b c p b), (det_shift d c b q b), (det_shift b c p q b), (det_shift a b c d b), vsub_self. apply det_exit0. Qed.
Lemma det_left0 a c d p q : let b := Pt 0 0 0 in orient b c p q * orient d a c q = orient c a p q * orient d c b q + orient a b c q * orient c d p q.
Proof. destruct a, c, d, p, q. geo. ring. Qed.
Lemma det_left a b c d p q : orient b c p q * orient d a c q = orient c a p q * orient d c b q + orient a b c q * orient c d p q.
Proof. rewrite (det_shift b c p q b), (det_shift d a c q b), (det_shift c a p q b), (det_shift d c b q b), (det_shift a b c q b), (det_shift c d p q b), vsub_self. apply det_left0. Qed.
Lemma det_right0 a c d p q : let b := Pt 0 0 0 in orient b c p q * orient d b a q = orient a b p q * orient d c b q - orient a b c q * orient b d p q.
Proof. destruct a, c, d, p, q. geo. ring. Qed.
Lemma det_right a b c d p q : orient b c p q * orient d b a q = orient a b p q * orient d c b q - orient a b c q * orient b d p q.
Proof. rewrite (det_shift b c p q b), (det_shift d b a q b), (det_shift a b p q b), (det_shift d c b q b), (det_shift a b c q b), (det_shift b d p q b), vsub_self. apply det_right0. Qed.
Lemma det_apex0 a c d p q : let b := Pt 0 0 0 in orient b c p q * orient a d p q + orient c a p q * orient b d p q + orient a b p q * orient c d p q = 0.
Proof. destruct a, c, d, p, q. geo. ring. Qed.
Lemma det_apex a b c d p q : orient b c p q * orient a d p q + orient c a p q * orient b d p q + orient a b p q * orient c d p q = 0.
Proof. rewrite (det_shift b c p q b), (det_shift a d p q b), (det_shift c a p q b), (det_shift b d p q b), (det_shift a b p q b), (det_shift c d p q b), vsub_self. apply det_apex0. Qed.

Section moves.
  Context {V T : Type}.
  Context (m : mesh V T).
  Lemma o3_03 a b c d z : orient_3d m a b c d = Some z → orient_3d m d b c a = Some (- z).
  Proof. apply (o3s (λ a b c d, A4 d b c a)). tauto. Qed.
  Lemma o3_13 a b c d z : orient_3d m a b c d = Some z → orient_3d m a d c b = Some (- z).
  Proof. apply (o3s (λ a b c d, A4 a d c b)). tauto. Qed.
  Lemma o3_23 a b c d z : orient_3d m a b c d = Some z → orient_3d m a b d c = Some (- z).
  Proof. apply (o3s (λ a b c d, A4 a b d c)). tauto. Qed.
  Lemma o3_to_front a b c d z : orient_3d m d c b a = Some z → orient_3d m a b c d = Some z.
  Proof. intros E%o3_03%o3_12. by rewrite Z.opp_involutive in E. Qed.
  Lemma o3_to_second a q c d z : orient_3d m d a c q = Some z → orient_3d m a q c d = Some z.
  Proof. intros E%o3_01%o3_13. by rewrite Z.opp_involutive in E. Qed.
  Lemma o3_to_third a b q d z : orient_3d m d b a q = Some z → orient_3d m a b q d = Some z.
  Proof. intros E%o3_02%o3_23. by rewrite Z.opp_involutive in E. Qed.
End moves.

Section order.
  Context {V T : Type}.
  Context (m : mesh V T) (p q : N).
  Context (Hp : p ≠ GHOST) (Hq : q ≠ GHOST).

  Definition gs (v : N) : Z := if N.eqb GHOST v then -1 else 1.
  Lemma gs_solid v : v ≠ GHOST → gs v = 1.
  Proof. intros H. unfold gs. destruct (N.eqb_spec GHOST v); congruence. Qed.
  Lemma sign_prod a b c d : (if has_ghost [a; b; c; d] then -1 else 1) = gs a * gs b * gs c * gs d ∨
    (a = GHOST ∧ (b = GHOST ∨ c = GHOST ∨ d = GHOST)) ∨ (b = GHOST ∧ (c = GHOST ∨ d = GHOST)) ∨ (c = GHOST ∧ d = GHOST).
  Proof.
    unfold has_ghost, gs. cbn [existsb]. destruct (N.eqb_spec GHOST a), (N.eqb_spec GHOST b), (N.eqb_spec GHOST c), (N.eqb_spec GHOST d); cbn [orb]; subst; try (left; reflexivity); right; tauto.
  Qed.

  Lemma o3_form a b c d z : NoDup [a; b; c; d] → orient_3d m a b c d = Some z →
    ∃ pa pb pc pd, idx_ori m a = Some pa ∧ idx_ori m b = Some pb ∧ idx_ori m c = Some pc ∧ idx_ori m d = Some pd ∧ z = gs a * gs b * gs c * gs d * orient pa pb pc pd.
  Proof.
    intros (N1 & N2 & N3 & N4 & N5 & N6)%NoDup4 E. unfold orient_3d in E. destruct (idx_ori m a) as [pa|]; [|done]. destruct (idx_ori m b) as [pb|]; [|done].
    destruct (idx_ori m c) as [pc|]; [|done]. destruct (idx_ori m d) as [pd|]; [|done]. cbn [mbind option_bind] in E. apply (inj Some) in E. subst z.
    exists pa, pb, pc, pd. repeat (split; [done|]). destruct (sign_prod a b c d) as [->|H]; [done|]. exfalso. destruct H as [[? [?|[?|?]]]|[[? [?|?]]|[? ?]]]; congruence.
  Qed.
  (** The same with the two ends of the segment. *)
  Lemma o3_form2 a b z : a ≠ b → orient_3d m a b p q = Some z →
    ∃ pa pb pp pq, idx_ori m a = Some pa ∧ idx_ori m b = Some pb ∧ idx_ori m p = Some pp ∧ idx_ori m q = Some pq ∧ z = gs a * gs b * orient pa pb pp pq.
  Proof.
    intros Hn E. unfold orient_3d in E. destruct (idx_ori m a) as [pa|]; [|done]. destruct (idx_ori m b) as [pb|]; [|done].
    destruct (idx_ori m p) as [pc|]; [|done]. destruct (idx_ori m q) as [pd|]; [|done]. cbn [mbind option_bind] in E. apply (inj Some) in E. subst z.
    exists pa, pb, pc, pd. repeat (split; [done|]). destruct (sign_prod a b p q) as [->|H]; [rewrite (gs_solid p), (gs_solid q) by done; ring|]. exfalso. destruct H as [[? [?|[?|?]]]|[[? [?|?]]|[? ?]]]; congruence.
  Qed.
  Lemma o3_form1 a b c d z : NoDup [a; b; c] → d ≠ GHOST → orient_3d m a b c d = Some z →
    ∃ pa pb pc pd, idx_ori m a = Some pa ∧ idx_ori m b = Some pb ∧ idx_ori m c = Some pc ∧ idx_ori m d = Some pd ∧ z = gs a * gs b * gs c * orient pa pb pc pd.
  Proof.
    intros (N1 & N2 & N3)%nodup3 Hd E. unfold orient_3d in E. destruct (idx_ori m a) as [pa|]; [|done]. destruct (idx_ori m b) as [pb|]; [|done].
    destruct (idx_ori m c) as [pc|]; [|done]. destruct (idx_ori m d) as [pd|]; [|done]. cbn [mbind option_bind] in E. apply (inj Some) in E. subst z.
    exists pa, pb, pc, pd. repeat (split; [done|]). destruct (sign_prod a b c d) as [->|H]; [rewrite (gs_solid d) by done; ring|]. exfalso. destruct H as [[? [?|[?|?]]]|[[? [?|?]]|[? ?]]]; congruence.
  Qed.
  Ltac same := repeat match goal with H : idx_ori m ?v = Some _, H' : idx_ori m ?v = Some _ |- _ => rewrite H in H'; apply (inj Some) in H'; subst end.

  Lemma exit_id a b c d F0 F1 H0 H1 A D : NoDup [a; b; c; d] →
    orient_3d m a b c p = Some F0 → orient_3d m a b c q = Some F1 → orient_3d m d c b p = Some H0 → orient_3d m d c b q = Some H1 →
    orient_3d m b c p q = Some A → orient_3d m a b c d = Some D → F1 * H0 - F0 * H1 = A * D.
  Proof.
    intros Hn E1 E2 E3 E4 E5 E6. pose proof Hn as (N1 & N2 & N3 & N4 & N5 & N6)%NoDup4.
    assert (NoDup [a; b; c]) by (by apply nodup3). assert (NoDup [d; c; b]) by (apply nodup3; repeat split; congruence).
    apply o3_form1 in E1 as (? & ? & ? & ? & ? & ? & ? & ? & ->), E2 as (? & ? & ? & ? & ? & ? & ? & ? & ->), E3 as (? & ? & ? & ? & ? & ? & ? & ? & ->), E4 as (? & ? & ? & ? & ? & ? & ? & ? & ->); [|done..].
    apply o3_form2 in E5 as (? & ? & ? & ? & ? & ? & ? & ? & ->); [|done]. apply o3_form in E6 as (? & ? & ? & ? & ? & ? & ? & ? & ->); [|done]. same.
    match goal with |- context [gs b * gs c * ?O * (gs a * gs b * gs c * gs d * ?D)] => transitivity (gs a * gs b * gs b * gs c * gs c * gs d * (O * D)); [|ring] end.
    rewrite <- det_exit. ring.
  Qed.

  Lemma left_id a b c d A G B H F U : NoDup [a; b; c; d] →
    orient_3d m b c p q = Some A → orient_3d m d a c q = Some G → orient_3d m c a p q = Some B → orient_3d m d c b q = Some H →
    orient_3d m a b c q = Some F → orient_3d m c d p q = Some U → A * G = B * H + F * U.
  Proof.
    intros Hn E1 E2 E3 E4 E5 E6. pose proof Hn as (N1 & N2 & N3 & N4 & N5 & N6)%NoDup4.
    assert (NoDup [a; b; c]) by (by apply nodup3). assert (NoDup [d; c; b]) by (apply nodup3; repeat split; congruence). assert (NoDup [d; a; c]) by (apply nodup3; repeat split; congruence).
    apply o3_form2 in E1 as (? & ? & ? & ? & ? & ? & ? & ? & ->), E3 as (? & ? & ? & ? & ? & ? & ? & ? & ->), E6 as (? & ? & ? & ? & ? & ? & ? & ? & ->); [|congruence..].
    apply o3_form1 in E2 as (? & ? & ? & ? & ? & ? & ? & ? & ->), E4 as (? & ? & ? & ? & ? & ? & ? & ? & ->), E5 as (? & ? & ? & ? & ? & ? & ? & ? & ->); [|done..]. same.
    match goal with |- gs b * gs c * ?O * (gs d * gs a * gs c * ?D) = _ => transitivity (gs a * gs b * gs c * gs c * gs d * (O * D)); [ring|] end.
    erewrite det_left. ring.
  Qed.
  Lemma right_id a b c d A K B H F U : NoDup [a; b; c; d] →
    orient_3d m b c p q = Some A → orient_3d m d b a q = Some K → orient_3d m a b p q = Some B → orient_3d m d c b q = Some H →
    orient_3d m a b c q = Some F → orient_3d m b d p q = Some U → A * K = B * H - F * U.
  Proof.
    intros Hn E1 E2 E3 E4 E5 E6. pose proof Hn as (N1 & N2 & N3 & N4 & N5 & N6)%NoDup4.
    assert (NoDup [a; b; c]) by (by apply nodup3). assert (NoDup [d; c; b]) by (apply nodup3; repeat split; congruence). assert (NoDup [d; b; a]) by (apply nodup3; repeat split; congruence).
    apply o3_form2 in E1 as (? & ? & ? & ? & ? & ? & ? & ? & ->), E3 as (? & ? & ? & ? & ? & ? & ? & ? & ->), E6 as (? & ? & ? & ? & ? & ? & ? & ? & ->); [|congruence..].
    apply o3_form1 in E2 as (? & ? & ? & ? & ? & ? & ? & ? & ->), E4 as (? & ? & ? & ? & ? & ? & ? & ? & ->), E5 as (? & ? & ? & ? & ? & ? & ? & ? & ->); [|done..]. same.
    match goal with |- gs b * gs c * ?O * (gs d * gs b * gs a * ?D) = _ => transitivity (gs a * gs b * gs b * gs c * gs d * (O * D)); [ring|] end.
    erewrite det_right. ring.
  Qed.
  Lemma apex_id a b c d A B C Ua Ub Uc : NoDup [a; b; c; d] →
    orient_3d m b c p q = Some A → orient_3d m c a p q = Some B → orient_3d m a b p q = Some C →
    orient_3d m a d p q = Some Ua → orient_3d m b d p q = Some Ub → orient_3d m c d p q = Some Uc → A * Ua + B * Ub + C * Uc = 0.
  Proof.
    intros Hn E1 E2 E3 E4 E5 E6. pose proof Hn as (N1 & N2 & N3 & N4 & N5 & N6)%NoDup4.
    apply o3_form2 in E1 as (? & ? & ? & ? & ? & ? & ? & ? & ->), E2 as (? & ? & ? & ? & ? & ? & ? & ? & ->), E3 as (? & ? & ? & ? & ? & ? & ? & ? & ->),
      E4 as (? & ? & ? & ? & ? & ? & ? & ? & ->), E5 as (? & ? & ? & ? & ? & ? & ? & ? & ->), E6 as (? & ? & ? & ? & ? & ? & ? & ? & ->); [|congruence..]. same.
    match goal with |- gs b * gs c * ?O1 * (gs a * gs d * ?O2) + gs c * gs a * ?O3 * (gs b * gs d * ?O4) + gs a * gs b * ?O5 * (gs c * gs d * ?O6) = 0 =>
      transitivity (gs a * gs b * gs c * gs d * (O1 * O2 + O3 * O4 + O5 * O6)); [ring|] end.
    rewrite det_apex. ring.
  Qed.

  Lemma NoDup_rot (a b c d : N) : NoDup [a; b; c; d] → NoDup [b; c; a; d].
  Proof. assert ([a; b; c; d] ≡ₚ [b; c; a; d]) as -> by solve_Permutation. done. Qed.

  (** ** Through a tet *)
  Lemma leave_step a b c d D b0 b1 b2 b3 b4 h0 h1 h2 h3 h4 : NoDup [a; b; c; d] → orient_3d m a b c d = Some D → 0 < D →
    tri_edge_bary m a b c p q = Some [b0; b1; b2; b3; b4] → Forall (λ z, 0 < z) [b0; b1; b2; b3; b4] →
    tri_edge_bary m d c b p q = Some [h0; h1; h2; h3; h4] → Forall (λ z, 0 < z) [h0; h1; h2; h3; h4] ∨ Forall (λ z, z < 0) [h0; h1; h2; h3; h4] →
    Forall (λ z, z < 0) [h0; h1; h2; h3; h4] ∧ h4 * (b3 + b4) < b4 * (h3 + h4).
  Proof.
    intros Hn ED HD (? & ? & ? & ? & ? & [= <- <- <- <- <-] & E0 & E1 & E2 & E3 & E4)%teb_inv Hb (? & ? & ? & ? & ? & [= <- <- <- <- <-] & G0 & G1 & G2 & G3 & G4)%teb_inv Hh.
    apply o3_01 in G0. rewrite E0 in G0. apply (inj Some) in G0. apply o3_02 in E4, G4.
    pose proof (exit_id a b c d _ _ _ _ _ _ Hn E4 E3 G4 G3 E0 ED) as Hid. rewrite forall5 in Hb. destruct Hh as [Hh|Hh]; [rewrite forall5 in Hh; lia|]. split; [done|]. rewrite forall5 in Hh. assert (0 < b0 * D) by (apply Z.mul_pos_pos; lia). lia.
  Qed.
  Lemma leaves_some a b c d D b0 b1 b2 b3 b4 : NoDup [a; b; c; d] → orient_3d m a b c d = Some D → 0 < D →
    tri_edge_bary m a b c p q = Some [b0; b1; b2; b3; b4] → Forall (λ z, 0 < z) [b0; b1; b2; b3; b4] →
    (∀ x, x ∈ [a; b; c] → ∃ z, orient_3d m x d p q = Some z ∧ z ≠ 0) →
    ¬ (∃ f h g k, orient_3d m a b c q = Some f ∧ orient_3d m d c b q = Some h ∧ orient_3d m d a c q = Some g ∧ orient_3d m d b a q = Some k ∧ 0 ≤ f ∧ 0 ≤ h ∧ 0 ≤ g ∧ 0 ≤ k) →
    ∃ x y hs, (x, y) ∈ [(c, b); (b, a); (a, c)] ∧ tri_edge_bary m d x y p q = Some hs ∧ Forall (λ z, z < 0) hs.
  Proof.
    assert (∀ a b c b0 b1 b2 b3 b4 Ub Uc, NoDup [a; b; c; d] → orient_3d m a b c d = Some D → 0 < D → tri_edge_bary m a b c p q = Some [b0; b1; b2; b3; b4] → Forall (λ z, 0 < z) [b0; b1; b2; b3; b4] →
      orient_3d m b d p q = Some Ub → Ub < 0 → orient_3d m c d p q = Some Uc → 0 < Uc →
      ¬ (∃ f h g k, orient_3d m a b c q = Some f ∧ orient_3d m d c b q = Some h ∧ orient_3d m d a c q = Some g ∧ orient_3d m d b a q = Some k ∧ 0 ≤ f ∧ 0 ≤ h ∧ 0 ≤ g ∧ 0 ≤ k) →
      ∃ hs, tri_edge_bary m d c b p q = Some hs ∧ Forall (λ z, z < 0) hs) as Hmain.
    { clear a b c b0 b1 b2 b3 b4. intros a b c b0 b1 b2 b3 b4 Ub Uc Hn ED HD (? & ? & ? & ? & ? & [= <- <- <- <- <-] & E0 & E1 & E2 & E3 & E4)%teb_inv Hb Eub Hub Euc Huc Hout.
      assert (∀ x y z, is_Some (idx_ori m x) → is_Some (idx_ori m y) → is_Some (idx_ori m z) → ∀ v, is_Some (idx_ori m v) → ∃ o, orient_3d m x y z v = Some o) as Hk.
      { intros x y z [? Ex] [? Ey] [? Ez] v [? Ev]. unfold orient_3d. rewrite Ex, Ey, Ez, Ev. cbn. eauto. }
      destruct (o3_form _ _ _ _ _ Hn ED) as (pa & pb & pc & pd & Ka & Kb & Kc & Kd & _).
      assert (is_Some (idx_ori m p) ∧ is_Some (idx_ori m q)) as [Kp Kq]. { apply NoDup4 in Hn as (N1 & N2 & N3 & N4 & N5 & N6). destruct (o3_form2 _ _ _ N4 E0) as (? & ? & ? & ? & _ & _ & -> & -> & _). eauto. }
      destruct (Hk d c b) with (v := q) as [H1 EH1]; [eauto..|]. destruct (Hk d c b) with (v := p) as [H0 EH0]; [eauto..|].
      destruct (Hk d a c) with (v := q) as [G1 EG1]; [eauto..|]. destruct (Hk d b a) with (v := q) as [K1 EK1]; [eauto..|].
      apply o3_02 in E4. pose proof (exit_id a b c d _ _ _ _ _ _ Hn E4 E3 EH0 EH1 E0 ED) as Hid.
      pose proof (left_id a b c d _ _ _ _ _ _ Hn E0 EG1 E1 EH1 E3 Euc) as Hl. pose proof (right_id a b c d _ _ _ _ _ _ Hn E0 EK1 E2 EH1 E3 Eub) as Hr.
      rewrite forall5 in Hb. destruct Hb as (P0 & P1 & P2 & P3 & P4).
      assert (H1 < 0). { apply Z.nle_gt. intros HH. apply Hout. exists b3, H1, G1, K1. repeat (split; [done|]). split; [lia|]. split; [done|]. split; nia. }
      assert (0 < H0) by nia.
      exists [- b0; Ub; - Uc; H1; - H0]. split; [|rewrite forall5; lia]. unfold tri_edge_bary. rewrite (o3_01 _ _ _ _ _ _ E0). cbn [mbind option_bind].
      rewrite Eub. cbn [mbind option_bind]. rewrite (o3_01 _ _ _ _ _ _ Euc). cbn [mbind option_bind]. rewrite EH1. cbn [mbind option_bind]. by rewrite (o3_02 _ _ _ _ _ _ EH0). }
    intros Hn ED HD Eb Hb Hu Hout. destruct (Hu a) as (Ua & Eua & Na); [set_solver|]. destruct (Hu b) as (Ub & Eub & Nb); [set_solver|]. destruct (Hu c) as (Uc & Euc & Nc); [set_solver|].
    pose proof Eb as (? & ? & ? & ? & ? & [= <- <- <- <- <-] & E0 & E1 & E2 & E3 & E4)%teb_inv. pose proof (apex_id a b c d _ _ _ _ _ _ Hn E0 E1 E2 Eua Eub Euc) as Hid.
    pose proof Hb as (P0 & P1 & P2 & P3 & P4)%forall5.
    assert ((Ub < 0 ∧ 0 < Uc) ∨ (Uc < 0 ∧ 0 < Ua) ∨ (Ua < 0 ∧ 0 < Ub)) as Hcase. { destruct (Z.lt_ge_cases Ua 0), (Z.lt_ge_cases Ub 0), (Z.lt_ge_cases Uc 0); try lia; exfalso; nia. }
    destruct Hcase as [[? ?]|[[? ?]|[? ?]]].
    - destruct (Hmain a b c b0 b1 b2 b3 b4 Ub Uc) as (hs & ? & ?); [done..|]. exists c, b, hs. split; [set_solver|done].
    - destruct (Hmain b c a b1 b2 b0 b3 b4 Uc Ua) as (hs & ? & ?); try done; [by apply (NoDup_rot a b c d)|by apply o3_rot|by apply teb_rot|rewrite forall5; tauto| |].
      + intros (f & h & g & k & F1 & F2 & F3 & F4 & ?). apply Hout. exists f, k, h, g. split; [by apply o3_rot, o3_rot|]. tauto.
      + exists a, c, hs. split; [set_solver|done].
    - destruct (Hmain c a b b2 b0 b1 b3 b4 Ua Ub) as (hs & ? & ?); try done; [by do 2 apply NoDup_rot|by do 2 apply o3_rot|by do 2 apply teb_rot|rewrite forall5; tauto| |].
      + intros (f & h & g & k & F1 & F2 & F3 & F4 & ?). apply Hout. exists f, g, k, h. split; [by apply o3_rot|]. tauto.
      + exists b, a, hs. split; [set_solver|done].
  Qed.
End order.

(** ** Along the segment *)
Section along.
  Context {V T : Type}.
  Context (m : mesh V T) (p q : N).
  Context (Hok : mesh_ok m) (Hp : p ≠ GHOST) (Hq : q ≠ GHOST).
  Context (Hpos : ∀ id t, tet_get m id = Some t → ∃ z, orient_3d m (q0 (t_vs t)) (q1 (t_vs t)) (q2 (t_vs t)) (q3 (t_vs t)) = Some z ∧ 0 < z).
  Notation hit := (hits tri_edge_bary edge_edge_bary coplanar m p q).
  Notation opp2 x := (- x.1, - x.2).

  Definition face (k : N) (g : simplex) a b c d : Prop := ∃ w, valid m w ∧ w_tet w = k ∧ w_verts m w = Some (A4 a b c d) ∧ alike g (STri (a, b, c)).
  Lemma face_facts k g a b c d : face k g a b c d → NoDup [a; b; c; d] ∧ ∃ D, orient_3d m a b c d = Some D ∧ 0 < D.
  Proof.
    intros (w & Hw & <- & Ev & _). split; [by apply (ok_distinct m Hok _ _ _ _ _ Hw Ev)|]. destruct Hw as [[t Et] He]. rewrite (wverts_at m w t Et) in Ev.
    injection Ev as <- <- <- <-. pose proof (o3_even m (t_vs t) (w_edge w) He) as E. cbv zeta in E. cbn [verts_at q0 q1 q2 q3] in E. rewrite E. by apply (Hpos _ _ Et).
  Qed.
  Lemma face_within k g a b c d vs : face k g a b c d → within m k vs ↔ ∀ v, v ∈ vs → v ∈ [a; b; c; d].
  Proof. intros (w & Hw & <- & Ev & _). by apply within_verts. Qed.

  (** The faces of a tet. *)
  Lemma faces k g0 a b c d g : face k g0 a b c d → within m k (corners (STri g)) → NoDup (corners (STri g)) →
    face k (STri g) a b c d ∨ face k (STri g) b a d c ∨ face k (STri g) c d a b ∨ face k (STri g) d c b a.
  Proof.
    intros Hf Hi Hn. pose proof Hf as (w & Hw & <- & Ev & _). destruct g as [[x y] z].
    destruct (four_tri a b c d x y z) as [H|[H|[H|H]]]; [by apply (ok_distinct m Hok _ _ _ _ _ Hw Ev)|done|by apply (face_within _ _ _ _ _ _ _ Hf)|left|right; left|do 2 right; left|do 3 right].
    - by exists w.
    - exists (to_perm w P1032). split; [by apply valid_perm|]. split; [done|]. split; [|done]. pose proof (wverts_perm m w _ _ _ _ P1032 Hw Ev) as Ep. unfold reorder in Ep; cbn [perm_digits nth get4 q0 q1 q2 q3] in Ep. exact Ep.
    - exists (to_perm w P2301). split; [by apply valid_perm|]. split; [done|]. split; [|done]. pose proof (wverts_perm m w _ _ _ _ P2301 Hw Ev) as Ep. unfold reorder in Ep; cbn [perm_digits nth get4 q0 q1 q2 q3] in Ep. exact Ep.
    - exists (to_perm w P3210). split; [by apply valid_perm|]. split; [done|]. split; [|done]. pose proof (wverts_perm m w _ _ _ _ P3210 Hw Ev) as Ep. unfold reorder in Ep; cbn [perm_digits nth get4 q0 q1 q2 q3] in Ep. exact Ep.
  Qed.
  Lemma face_of k g : within m k (corners (STri g)) → NoDup (corners (STri g)) → ∃ a b c d, face k (STri g) a b c d.
  Proof.
    intros Hi Hn. destruct (within_walker m Hok _ _ Hi) as (w & a & b & c & d & Hw & Hk & Ev & _ & _).
    destruct (faces k (STri (a, b, c)) a b c d g) as [H|[H|[H|H]]]; [exists w; repeat (split; [done|]); unfold alike; done|done|done|eauto 6..].
  Qed.

  (** The segment enters (leaves) the tet through the triangle. *)
  Definition passes (P : Z → Prop) (k : N) (g : simplex) (x : Z * Z) : Prop := ∃ a b c d b0 b1 b2 b3 b4,
    face k g a b c d ∧ tri_edge_bary m a b c p q = Some [b0; b1; b2; b3; b4] ∧ Forall P [b0; b1; b2; b3; b4] ∧ (x = (b3, b4) ∨ x = (- b3, - b4)).
  Notation enters := (passes (λ z, 0 < z)).
  Notation leaves := (passes (λ z, z < 0)).

  Lemma alike_nodup g h : alike g h → NoDup (corners g) → NoDup (corners h).
  Proof. unfold alike. by intros ->. Qed.
  Lemma face_hits k g a b c d x : face k (STri g) a b c d → hit (STri g) x → ∃ b0 b1 b2 b3 b4, tri_edge_bary m a b c p q = Some [b0; b1; b2; b3; b4] ∧
    (Forall (λ z, 0 < z) [b0; b1; b2; b3; b4] ∨ Forall (λ z, z < 0) [b0; b1; b2; b3; b4]) ∧ (x = (b3, b4) ∨ x = (- b3, - b4)).
  Proof.
    intros Hf Hh. pose proof (face_facts _ _ _ _ _ _ Hf) as [Hn _]. pose proof Hf as (_ & _ & _ & _ & Ha).
    assert (NoDup [a; b; c]) as Hn3 by (apply NoDup4 in Hn as (? & ? & ? & ? & ? & ?); by apply nodup3).
    assert (NoDup (corners (STri g))) as Hng. { unfold alike in Ha. rewrite Ha. done. }
    assert (∀ y, hit (STri (a, b, c)) y → ∃ b0 b1 b2 b3 b4, tri_edge_bary m a b c p q = Some [b0; b1; b2; b3; b4] ∧
      (Forall (λ z, 0 < z) [b0; b1; b2; b3; b4] ∨ Forall (λ z, z < 0) [b0; b1; b2; b3; b4]) ∧ y = (b3, b4)) as H.
    { intros y (bs & E & Hs & ->). destruct (teb_inv _ _ _ _ _ _ _ E) as (b0 & b1 & b2 & b3 & b4 & -> & _). by exists b0, b1, b2, b3, b4. }
    destruct (hits_alike m p q g (a, b, c) x Hng Ha Hh) as [(b0 & b1 & b2 & b3 & b4 & E & Hs & Ex)%H|(b0 & b1 & b2 & b3 & b4 & E & Hs & Ex)%H]; exists b0, b1, b2, b3, b4; (split; [done|]; split; [done|]).
    - by left.
    - right. destruct x as [x1 x2]. cbn [fst snd] in Ex. injection Ex as <- <-. by rewrite !Z.opp_involutive.
  Qed.

  Lemma along_lt b3 b4 h3 h4 x y : 0 < b3 → 0 < b4 → h3 < 0 → h4 < 0 → h4 * (b3 + b4) < b4 * (h3 + h4) → x = (b3, b4) ∨ x = (- b3, - b4) → y = (h3, h4) ∨ y = (- h3, - h4) →
    (along x < along y)%Q.
  Proof.
    intros H1 H2 H3 H4 H Hx Hy. assert (along x = Qmake b4 (Z.to_pos (b3 + b4))) as ->. { destruct Hx as [->| ->]; unfold along; cbn [fst snd]; f_equal; [|f_equal| |f_equal]; lia. }
    assert (along y = Qmake (- h4) (Z.to_pos (- (h3 + h4)))) as ->. { destruct Hy as [->| ->]; unfold along; cbn [fst snd]; f_equal; [|f_equal| |f_equal]; lia. }
    unfold Qlt. cbn [Qnum Qden]. rewrite !Z2Pos.id by lia. lia.
  Qed.

  (** What is crossed after having entered a tet is left, and lies farther on. *)
  Lemma enters_leaves k t x g y : enters k (STri t) x → ahead m (Past k t) k (STri g) → hit (STri g) y → leaves k (STri g) y ∧ (along x < along y)%Q.
  Proof.
    intros (a & b & c & d & b0 & b1 & b2 & b3 & b4 & Hf & Eb & Hb & Hx) (Hi & Hn & _ & v & Hv & Hvt) Hh.
    pose proof (face_facts _ _ _ _ _ _ Hf) as (Hnd & D & ED & HD). pose proof Hf as (_ & _ & _ & _ & Ha). unfold alike in Ha. rewrite Ha in Hvt. cbn [corners] in Hvt.
    pose proof Hb as (P0 & P1 & P2 & P3 & P4)%forall5.
    destruct (faces _ _ _ _ _ _ _ Hf Hi Hn) as [H|[H|[H|H]]].
    - exfalso. destruct H as (_ & _ & _ & _ & H). unfold alike in H. rewrite H in Hv. done.
    - pose proof (face_hits _ _ _ _ _ _ _ H Hh) as (h0 & h1 & h2 & h3 & h4 & Eh & Hs & Hy).
      destruct (leave_step m p q Hp Hq c a b d D b2 b0 b1 b3 b4 h2 h0 h1 h3 h4) as [Hneg Hlt]; [by do 2 apply NoDup_rot|by do 2 apply o3_rot|done|by do 2 apply teb_rot|rewrite forall5; tauto|by do 2 apply teb_rot|rewrite !forall5 in Hs |- *; tauto|].
      pose proof Hneg as (? & ? & ? & ? & ?)%forall5. split; [|by apply (along_lt b3 b4 h3 h4)]. exists b, a, d, c, h0, h1, h2, h3, h4. split; [done|]. split; [done|]. split; [rewrite forall5; tauto|done].
    - pose proof (face_hits _ _ _ _ _ _ _ H Hh) as (h0 & h1 & h2 & h3 & h4 & Eh & Hs & Hy).
      destruct (leave_step m p q Hp Hq b c a d D b1 b2 b0 b3 b4 h1 h2 h0 h3 h4) as [Hneg Hlt]; [by apply NoDup_rot|by apply o3_rot|done|by apply teb_rot|rewrite forall5; tauto|by apply teb_rot|rewrite !forall5 in Hs |- *; tauto|].
      pose proof Hneg as (? & ? & ? & ? & ?)%forall5. split; [|by apply (along_lt b3 b4 h3 h4)]. exists c, d, a, b, h0, h1, h2, h3, h4. split; [done|]. split; [done|]. split; [rewrite forall5; tauto|done].
    - pose proof (face_hits _ _ _ _ _ _ _ H Hh) as (h0 & h1 & h2 & h3 & h4 & Eh & Hs & Hy).
      destruct (leave_step m p q Hp Hq a b c d D b0 b1 b2 b3 b4 h0 h1 h2 h3 h4) as [Hneg Hlt]; [done..|].
      pose proof Hneg as (? & ? & ? & ? & ?)%forall5. split; [|by apply (along_lt b3 b4 h3 h4)]. by exists d, c, b, a, h0, h1, h2, h3, h4.
  Qed.

  (** Leaving a tet is entering the one behind the triangle. *)
  Lemma leaves_enters k g y k' : leaves k (STri g) y → k' ≠ k → within m k' (corners (STri g)) → enters k' (STri g) y.
  Proof.
    intros (a & b & c & d & b0 & b1 & b2 & b3 & b4 & Hf & Eb & Hb & Hx) Hk Hi. pose proof Hf as (w & Hw & Ek & Ev & Ha). unfold alike in Ha. cbn [corners] in Ha.
    pose proof (face_facts _ _ _ _ _ _ Hf) as (Hnd & _).
    assert (NoDup [a; b; c]) as Hn3 by (apply NoDup4 in Hnd as (? & ? & ? & ? & ? & ?); by apply nodup3).
    destruct (face_of k' g Hi) as (a' & b' & c' & d' & Hf'). { by rewrite Ha. }
    pose proof Hf' as (w' & Hw' & Ek' & Ev' & Ha'). unfold alike in Ha'. cbn [corners] in Ha'.
    assert (same_corners (a', b', c') (a, b, c)) as Hc.
    { unfold same_corners. cbn [fst snd]. intros z. assert (z ∈ [a'; b'; c'] ↔ z ∈ [a; b; c]) as Hz by by rewrite <- Ha, <- Ha'. revert Hz. rewrite !elem_of_cons, !elem_of_nil. clear. naive_solver. }
    pose proof (face_facts _ _ _ _ _ _ Hf') as (Hnd' & _). apply NoDup4 in Hnd' as (N1 & N2 & _ & N3 & _).
    assert (∀ t, w_tri m w' = Some t → (∃ u, valid m u ∧ w_tet u = k ∧ w_tri m u = Some t) → False) as Hu.
    { intros t Et (u & Hu & Eu & Etu). apply Hk. rewrite <- Ek', <- Eu. f_equal. by apply (ok_tri_unique m Hok w' u t). }
    pose proof (Hu _ (wverts_tri _ _ _ _ _ _ Ev')) as Hu'. clear Hu.
    assert (∀ r x y z v, reorder (A4 a b c d) (perm_digits r) = A4 x y z v → (a', b', c') = (x, y, z) → False) as Hno.
    { intros r x1 y1 z1 v1 Er E. apply Hu'. exists (to_perm w r). split; [by apply valid_perm|]. split; [done|]. rewrite E. pose proof (wverts_perm m w _ _ _ _ r Hw Ev) as Ep. rewrite Er in Ep. by eapply wverts_tri. }
    apply teb_swap in Eb. pose proof Hb as (? & ? & ? & ? & ?)%forall5.
    destruct (corners_perm a b c a' b' c' N1 N2 N3 Hc) as [E|[E|[E|[E|[E|E]]]]].
    - exfalso. by apply (Hno P0123 a b c d).
    - exfalso. by apply (Hno P1203 b c a d).
    - exfalso. by apply (Hno P2013 c a b d).
    - injection E as -> -> ->. exists b, a, c, d', (- b1), (- b0), (- b2), (- b3), (- b4). split; [done|]. split; [done|]. split; [rewrite forall5; lia|]. rewrite !Z.opp_involutive. tauto.
    - injection E as -> -> ->. apply teb_rot in Eb. exists a, c, b, d', (- b0), (- b2), (- b1), (- b3), (- b4). split; [done|]. split; [done|]. split; [rewrite forall5; lia|]. rewrite !Z.opp_involutive. tauto.
    - injection E as -> -> ->. apply teb_rot, teb_rot in Eb. exists c, b, a, d', (- b2), (- b1), (- b0), (- b3), (- b4). split; [done|]. split; [done|]. split; [rewrite forall5; lia|]. rewrite !Z.opp_involutive. tauto.
  Qed.

  (** At the start a tet is left. *)
  Lemma start_leaves id g y : ahead m (From p) id (STri g) → hit (STri g) y → leaves id (STri g) y.
  Proof.
    intros (Hi & Hn & Hv & Hvg) Hh. destruct (face_of id g Hi Hn) as (a & b & c & d & Hf). pose proof Hf as (_ & _ & _ & _ & Ha). unfold alike in Ha. rewrite Ha in Hvg. cbn [corners] in Hvg.
    assert (d = p) as ->. { assert (p ∈ [a; b; c; d]) as Hin. { apply (face_within _ _ _ _ _ _ [p] Hf); [done|set_solver]. } set_solver. }
    destruct (face_hits _ _ _ _ _ _ _ Hf Hh) as (b0 & b1 & b2 & b3 & b4 & E & Hs & Hy). pose proof (face_facts _ _ _ _ _ _ Hf) as (_ & D & ED & HD).
    pose proof E as (? & ? & ? & ? & ? & [= <- <- <- <- <-] & _ & _ & _ & _ & E4)%teb_inv. apply o3_02 in E4. rewrite ED in E4. apply (inj Some) in E4.
    exists a, b, c, p, b0, b1, b2, b3, b4. split; [done|]. split; [done|]. split; [|done]. destruct Hs as [Hs|Hs]; [|done]. rewrite forall5 in Hs. lia.
  Qed.

  (** ** The whole way *)
  Notation back := (hits_back tri_edge_bary m p q).
  Definition is_tri (g : simplex) : Prop := match g with STri _ => True | SEdge _ => False end.

  Lemma way_sorted pl l all : way hit back m q pl l all → (∀ g x, (g, x) ∈ l → is_tri g) →
    match pl with
    | From v => v = p → Sorted Qlt (along <$> l.*2)
    | Past k t => ∀ x, enters k (STri t) x → Sorted Qlt (along <$> x :: l.*2)
    | On _ _ => True
    end.
  Proof.
    induction 1 as [pl|pl Ha|pl Hl|pl id g x p' l all Ha Hh Hq' He Hb Hl Hw IH]; intros Htri; [destruct pl; try done; repeat constructor..|].
    destruct g as [e|t]; [by specialize (Htri (SEdge e) x ltac:(left))|]. destruct Hl as (k' & -> & Hk & Hi).
    assert (∀ g x, (g, x) ∈ l → is_tri g) as Ht by (intros g' x' Hin; apply (Htri g' x'); by right). specialize (IH Ht). cbn beta iota in IH.
    destruct pl as [v|k t0|e before]; [| |done].
    - intros ->. apply IH. apply (leaves_enters id); [|done|done]. by apply start_leaves.
    - intros x0 Hx0. assert (id = k) as -> by apply Ha. destruct (enters_leaves _ _ _ _ _ Hx0 Ha Hh) as [Hlv Hlt].
      cbn [fmap list_fmap]. constructor; [|by constructor]. apply IH. by apply (leaves_enters k).
  Qed.

  Lemma face_list k g a b c d : face k g a b c d → ∃ t, tet_get m k = Some t ∧ list4 (t_vs t) ≡ₚ [a; b; c; d].
  Proof.
    intros Hf. pose proof (face_facts _ _ _ _ _ _ Hf) as [Hn _]. destruct Hf as (w & Hw & <- & Ev & _). destruct (wverts_in m w _ Hw Ev) as (vs' & E & Hs). unfold vs_of in E. apply fmap_Some in E as (t & Et & ->).
    exists t. split; [done|]. symmetry. apply submseteq_Permutation_length_eq; [done|]. apply NoDup_submseteq; [done|]. intros v Hv. by apply Hs.
  Qed.

  (** General position: no edge lies in a plane with the segment, and the goal lies in no other tet. *)
  Context (Hgen : ∀ a b, joined m a b → a ∉ [p; q] → b ∉ [p; q] → orient_3d m a b p q ≠ Some 0).
  Context (Hin : ∀ id, ¬ within m id [q] → ¬ in_tet m id q).
  Context (Kp : is_Some (idx_ori m p)) (Kq : is_Some (idx_ori m q)).

  Lemma no_edge a b x : joined m a b → q ∉ [a; b] → ¬ hit (SEdge (a, b)) x.
  Proof.
    intros Hj Hqn (Hf & bs & Eb & Hs & _). unfold coplanar in Hf. apply bind_Some in Hf as (o & Eo & Ho). apply (inj Some) in Ho. apply bool_decide_eq_true in Ho as ->.
    assert (∀ z, (if has_ghost z then -1 else 1) * 0 = 0) as Hz by (intros z; destruct (has_ghost z); done).
    assert (p ∉ [a; b]) as Hpn.
    { intros Hpi. unfold edge_edge_bary in Eb. destruct (idx_ori m a) as [pa|] eqn:Ea; [|done]. destruct (idx_ori m b) as [pb|] eqn:Eb'; [|done].
      destruct (idx_ori m p) as [pp|] eqn:Ep; [|done]. destruct (idx_ori m q) as [pq|]; [|done]. cbn [mbind option_bind] in Eb.
      destruct (_ && _ && _). { injection Eb as <-. rewrite !forall4 in Hs. lia. }
      rewrite eqb_ghost in Eb by done. apply (inj Some) in Eb. subst bs. rewrite !forall4 in Hs.
      rewrite !elem_of_cons, elem_of_nil in Hpi. destruct Hpi as [<-|[<-|[]]].
      - assert (pa = pp) as -> by congruence. replace (orient pq pp pp _) with 0 in Hs by (destruct pp, pq; geo; ring). rewrite Hz in Hs. lia.
      - assert (pb = pp) as -> by congruence. replace (orient pp pp pq _) with 0 in Hs by (destruct pp, pq; geo; ring). rewrite Hz in Hs. lia. }
    apply (Hgen a b); [done|set_solver..|done].
  Qed.

  Lemma enters_goes_on k t x : enters k (STri t) x → ¬ within m k [q] → ∃ g, ahead m (Past k t) k (STri g) ∧ crossed hit (STri g).
  Proof.
    intros (a & b & c & d & b0 & b1 & b2 & b3 & b4 & Hf & Eb & Hb & Hx) Hnw. pose proof (face_facts _ _ _ _ _ _ Hf) as (Hn & D & ED & HD).
    pose proof Hf as (w & Hw & Ek & Ev & Ha). unfold alike in Ha.
    assert (q ∉ [a; b; c; d]) as Hqn. { intros Hin'. apply Hnw, (face_within _ _ _ _ _ _ [q] Hf). intros v ->%elem_of_list_singleton. done. }
    pose proof Hb as (P0 & P1 & P2 & P3 & P4)%forall5. pose proof Eb as (? & ? & ? & ? & ? & [= <- <- <- <- <-] & E0 & E1 & E2 & E3 & E4)%teb_inv.
    assert (∀ v w, orient_3d m v p p w = Some 0 ∨ orient_3d m v p p w = None) as Hz1.
    { intros v u. unfold orient_3d. destruct (idx_ori m v) as [pv|]; [|tauto]. destruct (idx_ori m p) as [pp|]; [|tauto]. destruct (idx_ori m u) as [pu|]; cbn [mbind option_bind]; [|tauto]. left. f_equal.
      replace (orient pv pp pp pu) with 0 by (destruct pv, pp, pu; geo; ring). by destruct (has_ghost _). }
    assert (p ∉ [a; b; c; d]) as Hpn.
    { rewrite !elem_of_cons, elem_of_nil. intros [<-|[<-|[<-|[<-|[]]]]].
      - destruct (Hz1 c q) as [Z|Z]; rewrite E1 in Z; [injection Z as ->; lia|done].
      - destruct (Hz1 a q) as [Z|Z]; rewrite E2 in Z; [injection Z as ->; lia|done].
      - destruct (Hz1 b q) as [Z|Z]; rewrite E0 in Z; [injection Z as ->; lia|done].
      - apply o3_02 in E4. rewrite ED in E4. injection E4 as ->. lia. }
    assert (∀ x y, x ≠ y → x ∈ [a; b; c; d] → y ∈ [a; b; c; d] → joined m x y) as Hj.
    { intros x1 y1 Hxy Hx1 Hy1. assert (present m (SEdge (x1, y1))) as Hpr; [|exact Hpr]. apply (present_covers m (SEdge (x1, y1)) Hok). split; [apply NoDup_cons_2; [set_solver|apply NoDup_singleton]|].
      assert (within m k [x1; y1]) as (t' & Et' & Hs). { apply (face_within _ _ _ _ _ _ _ Hf). set_solver. } exists k, (t_vs t'). unfold vs_of. by rewrite Et'. }
    destruct (o3_form m _ _ _ _ _ Hn ED) as (pa & pb & pc & pd & Ka & Kb & Kc & Kd & _).
    assert (∀ x, x ∈ [a; b; c] → ∃ z, orient_3d m x d p q = Some z ∧ z ≠ 0) as Hu.
    { intros x1 Hx1. assert (∃ z, orient_3d m x1 d p q = Some z) as [z Ez].
      { assert (is_Some (idx_ori m x1)) as [px1 Ex1]. { rewrite !elem_of_cons, elem_of_nil in Hx1. destruct Hx1 as [->|[->|[->|[]]]]; eauto. }
        unfold orient_3d. destruct Kp as [? ->], Kq as [? ->]. rewrite Ex1, Kd. cbn. eauto. }
      exists z. split; [done|]. intros ->. apply (Hgen x1 d); [| | |done].
      - apply Hj; [|set_solver..]. intros ->. apply NoDup4 in Hn as (?&?&?&?&?&?). rewrite !elem_of_cons, elem_of_nil in Hx1. destruct Hx1 as [?|[?|[?|[]]]]; congruence.
      - set_solver.
      - set_solver. }
    destruct (leaves_some m p q Hp Hq a b c d D b0 b1 b2 b3 b4) as (y & z & hs & Hyz & Eh & Hneg); [done..| |].
    { intros (f & h & g & k' & F1 & F2 & F3 & F4 & S1 & S2 & S3 & S4). apply (Hin k Hnw). exists a, b, c, d. split; [by apply (face_list _ _ _ _ _ _ Hf)|].
      exists D, h, g, k', f. split; [done|]. split; [by apply (o3_to_front m)|]. split; [by apply (o3_to_second m)|]. split; [by apply (o3_to_third m)|]. done. }
    assert (within m k [d; y; z] ∧ NoDup [d; y; z] ∧ d ∈ [d; y; z]) as (Hi & Hnd & Hd).
    { apply NoDup4 in Hn as (?&?&?&?&?&?). rewrite (face_within _ _ _ _ _ _ _ Hf), nodup3. rewrite !elem_of_cons, elem_of_nil in Hyz. destruct Hyz as [[= -> ->]|[[= -> ->]|[[= -> ->]|[]]]]; (split; [set_solver|]; split; [repeat split; congruence|left]). }
    exists (d, y, z). split.
    - split; [done|]. split; [done|]. split; [done|]. exists d. split; [done|]. rewrite Ha. cbn [corners]. apply NoDup4 in Hn as (?&?&?&?&?&?). set_solver.
    - exists (nth 3 hs 0, nth 4 hs 0). exists hs. split; [done|]. split; [by right|done].
  Qed.

  Lemma ahead_edge pl id a b : ahead m pl id (SEdge (a, b)) → joined m a b.
  Proof. intros Ha. by apply (ahead_present m Hok pl id (SEdge (a, b))). Qed.

  Lemma way_tris pl l all : way hit back m q pl l all → ∀ g x, (g, x) ∈ l → is_tri g.
  Proof.
    induction 1 as [pl|pl Ha|pl Hl|pl id g x p' l all Ha Hh Hq' He Hb Hl Hw IH]; intros g' x' Hi; [by apply elem_of_nil in Hi..|].
    apply elem_of_cons in Hi as [[= -> ->]|Hi]; [|by apply (IH g' x')]. destruct g as [[a b]|t]; [|done]. exfalso. apply (no_edge a b x); [by eapply ahead_edge|done|done].
  Qed.

  Lemma way_goal pl l all : way hit back m q pl l all → all = true →
    match pl with
    | From v => v = p → l = [] ∨ ∃ g x id, stdpp.list.last l = Some (g, x) ∧ within m id (q :: corners g)
    | Past k t => ∀ x, enters k (STri t) x → (l = [] ∧ within m k (q :: corners (STri t))) ∨ ∃ g x id, stdpp.list.last l = Some (g, x) ∧ within m id (q :: corners g)
    | On _ _ => True
    end.
  Proof.
    induction 1 as [pl|pl Ha|pl Hl|pl id g x p' l all Ha Hh Hq' He Hb Hl Hw IH]; intros Hall; [done|..].
    - destruct pl as [v|k t|e before]; [by left| |done]. intros x Hx. left. split; [done|]. destruct Ha as (id & t' & Hah & Hqt). assert (id = k) as -> by apply Hah. destruct Hah as (Hi & _).
      destruct Hx as (a & b & c & d & b0 & b1 & b2 & b3 & b4 & Hf & _). pose proof Hf as (_ & _ & _ & _ & Hal). apply (face_within _ _ _ _ _ _ _ Hf). rewrite (face_within _ _ _ _ _ _ _ Hf) in Hi.
      intros v [->|Hv]%elem_of_cons; [by apply Hi|]. unfold alike in Hal. rewrite Hal in Hv. cbn [corners] in Hv. set_solver.
    - destruct pl as [v|k t|e before]; [by left| |done]. intros x Hx. pose proof Hx as (a & b & c & d & b0 & b1 & b2 & b3 & b4 & Hf & _). destruct (decide (q ∈ [a; b; c; d])) as [Hqi|Hqi].
      + left. split; [done|]. pose proof Hf as (_ & _ & _ & _ & Hal). apply (face_within _ _ _ _ _ _ _ Hf).
        intros v [->|Hv]%elem_of_cons; [done|]. unfold alike in Hal. rewrite Hal in Hv. cbn [corners] in Hv. set_solver.
      + exfalso. destruct (enters_goes_on _ _ _ Hx) as (g & Hg & Hc); [|by apply (Hl k (STri g))]. rewrite (face_within _ _ _ _ _ _ _ Hf). intros H. apply Hqi, H. left.
    - destruct g as [[a b]|t]; [exfalso; apply (no_edge a b x); [by eapply ahead_edge|done|done]|]. destruct Hl as (k' & -> & Hk & Hi). specialize (IH Hall). cbn beta iota in IH.
      assert (∀ y, enters k' (STri t) y → ∃ g y id, stdpp.list.last ((STri t, x) :: l) = Some (g, y) ∧ within m id (q :: corners g)) as Hlast.
      { intros y Hy. destruct (IH y Hy) as [[-> Hi']|(g & y' & id' & El & Hi')]; [by exists (STri t), x, k'|]. exists g, y', id'. split; [|done]. by rewrite stdpp.list.last_cons, El. }
      destruct pl as [v|k t0|e before]; [| |done].
      + intros ->. right. apply (Hlast x). apply (leaves_enters id); [|done|done]. by apply start_leaves.
      + intros x0 Hx0. right. assert (id = k) as -> by apply Ha. destruct (enters_leaves _ _ _ _ _ Hx0 Ha Hh) as [Hlv Hlt]. apply (Hlast x). by apply (leaves_enters k).
  Qed.
End along.
