(** A moving point and a triangle. *)
From stdpp Require Import base numbers list gmap option.
From Coq Require Import NArith ZArith QArith Lia.
From Verif Require Import IdMapModel WalkerModel MeshModel GeoModel GeoSpec GeoProofs MidModel MidSpec.
Local Open Scope Z_scope.

Definition barys (p0 p1 p2 c d : pt) : list Z := [orient p1 p2 c d; orient p2 p0 c d; orient p0 p1 c d; orient p0 p1 p2 d; orient p2 p1 p0 c].

Lemma inj_eq a b : (inject_Z a == inject_Z b)%Q ↔ a = b.
Proof. unfold Qeq, inject_Z. cbn. lia. Qed.
Lemma inj_nz a : a ≠ 0 → ¬ (inject_Z a == 0)%Q.
Proof. intros H. change 0%Q with (inject_Z 0). by rewrite inj_eq. Qed.
Lemma div_eq a b s : b ≠ 0 → (inject_Z a / inject_Z b == s)%Q ↔ (s * inject_Z b == inject_Z a)%Q.
Proof.
  intros Hb%inj_nz. split; intros H.
  - rewrite <- H. by field.
  - rewrite <- H. by field.
Qed.
(** [z / k] is the same as [b / S]. *)
Lemma same_ratio s z k b S : k ≠ 0 → S ≠ 0 → z * S = k * b → (s * inject_Z k == inject_Z z)%Q ↔ (s * inject_Z S == inject_Z b)%Q.
Proof.
  intros Hk HS E. apply (f_equal inject_Z) in E. rewrite !inject_Z_mult in E. pose proof (inj_nz _ Hk) as Hk'. pose proof (inj_nz _ HS) as HS'.
  assert (inject_Z z * inject_Z S == inject_Z k * inject_Z b)%Q as E' by by rewrite E. split; intros H.
  - apply (Qmult_inj_l _ _ (inject_Z k)); [done|]. rewrite <- E', <- H. ring.
  - apply (Qmult_inj_l _ _ (inject_Z S)); [done|]. rewrite (Qmult_comm (inject_Z S) (inject_Z z)), E', <- H. ring.
Qed.

Lemma passes_relation p0 p1 p2 c d x0 x1 x2 y z : x0 + x1 + x2 = y + z →
  vadd (vadd (vscale x0 p0) (vscale x1 p1)) (vscale x2 p2) = vadd (vscale y c) (vscale z d) →
  z * orient p0 p1 p2 d = y * orient p2 p1 p0 c ∧ z * orient p1 p2 c d = x0 * orient p2 p1 p0 c ∧
  z * orient p2 p0 c d = x1 * orient p2 p1 p0 c ∧ z * orient p0 p1 c d = x2 * orient p2 p1 p0 c.
Proof.
  intros Es Ev. pose proof (orient_comb _ _ _ _ _ _ _ _ _ _ Es Ev) as C.
  pose proof (C p0 p1 p2) as C0. rewrite orient_same03, orient_same13, orient_same23 in C0.
  pose proof (C p0 p1 c) as C2. rewrite orient_same03, orient_same13, orient_same23 in C2.
  pose proof (C p1 p2 c) as C3. rewrite orient_same03, orient_same13, orient_same23 in C3.
  pose proof (C p2 p0 c) as C4. rewrite orient_same03, orient_same13, orient_same23 in C4.
  clear C. rewrite (orient_swap02 p0 p1 p2 c).
  assert (orient p0 p1 c p2 = - orient p0 p1 p2 c) as T1 by (rewrite orient_swap23; lia).
  assert (orient p1 p2 c p0 = - orient p0 p1 p2 c) as T2. { rewrite orient_swap23, orient_swap12, orient_swap01. lia. }
  assert (orient p2 p0 c p1 = - orient p0 p1 p2 c) as T3. { rewrite orient_swap23, orient_swap01, orient_swap12. lia. }
  rewrite T1 in C2. rewrite T2 in C3. rewrite T3 in C4. lia.
Qed.

Lemma sided_iff l : one_sided l = true ↔ Forall (λ x, 0 ≤ x) l ∨ Forall (λ x, x ≤ 0) l.
Proof.
  unfold one_sided. rewrite orb_true_iff, !forallb_forall, !stdpp.list.Forall_forall. setoid_rewrite <- elem_of_list_In. by setoid_rewrite Z.leb_le.
Qed.
Lemma Forall5' (P : Z → Prop) a b c d e : Forall P [a; b; c; d; e] ↔ P a ∧ P b ∧ P c ∧ P d ∧ P e.
Proof. apply Forall5. Qed.

(** The coordinates tell when the point is in the triangle. *)
Lemma passes_barys p0 p1 p2 c d s : (passes_at p0 p1 p2 c d s ∧ (0 < s)%Q) ↔
  one_sided (barys p0 p1 p2 c d) = true ∧ ∃ t, time_of (barys p0 p1 p2 c d) = Some t ∧ (t == s)%Q.
Proof.
  rewrite sided_iff. unfold time_of, barys. cbn [nth]. rewrite !Forall5'.
  pose proof (seg_weights p0 p1 p2 c d) as [W1 W2]. pose proof (orient_swap02 p0 p1 p2 c) as S.
  set (b0 := orient p1 p2 c d) in *. set (b1 := orient p2 p0 c d) in *. set (b2 := orient p0 p1 c d) in *. set (b3 := orient p0 p1 p2 d) in *. set (b4 := orient p2 p1 p0 c) in *. split.
  - intros [[Ho (x0 & x1 & x2 & y & z & P0 & P1 & P2 & P3 & P4 & P5 & Es & Ev & Et)] Hs].
    destruct (passes_relation p0 p1 p2 c d x0 x1 x2 y z Es Ev) as (R3 & R0 & R1 & R2). fold b0 b1 b2 b3 b4 in R0, R1, R2, R3.
    assert (b3 + b4 ≠ 0) as HS by (unfold b3 in *; lia).
    assert (0 < z) as Hz. { destruct (decide (z = 0)) as [->|]; [|lia]. exfalso. apply (Qmult_integral_l _ _ (inj_nz (y + 0) ltac:(lia))) in Et || idtac.
      assert (s == 0)%Q as E0. { apply (Qmult_inj_r _ _ (inject_Z (y + 0))); [apply inj_nz; lia|]. rewrite Et. change (inject_Z 0) with 0%Q. ring. } rewrite E0 in Hs. by apply Qlt_irrefl in Hs. }
    assert (z * (b3 + b4) = (y + z) * b4) as E by lia. apply (same_ratio s z (y + z) b4 (b3 + b4)) in Et; [|lia..|done].
    split.
    + destruct (decide (0 < b4)); [left; split_and!; nia|]. right. split_and!; nia.
    + rewrite (proj2 (Z.eqb_neq _ _) HS). assert (inject_Z b4 / inject_Z (b3 + b4) == s)%Q as Eq by (by apply div_eq).
      destruct (Qle_bool _ 0) eqn:El; [|eauto]. apply Qle_bool_iff in El. rewrite Eq in El. exfalso. by apply (Qlt_not_le _ _ Hs).
  - intros (Hs & t & Et & Hts). destruct (b3 + b4 =? 0) eqn:HS; [done|]. apply Z.eqb_neq in HS. destruct (Qle_bool _ 0) eqn:El; [done|].
    injection Et as <-. assert (0 < s)%Q as Hpos. { rewrite <- Hts. apply Qnot_le_lt. intros Hl%Qle_bool_iff. congruence. }
    split; [|done]. apply (div_eq _ _ _ HS) in Hts. split; [unfold b3 in *; lia|]. destruct Hs as [(H0 & H1 & H2 & H3 & H4)|(H0 & H1 & H2 & H3 & H4)].
    + exists b0, b1, b2, b3, b4. split_and!; [lia..|done|done].
    + exists (- b0), (- b1), (- b2), (- b3), (- b4). split_and!; [lia..| |].
      * rewrite !vscale_opp. apply (f_equal (vscale (-1))) in W1. revert W1. clear. generalize b0 b1 b2 b3 b4. clear. intros b0 b1 b2 b3 b4.
        destruct p0 as [xa ya za], p1 as [xb yb zb], p2 as [xc yc zc], c as [xd yd zd], d as [xe ye ze]. rewrite !pt_eq. unfold vscale, vadd. cbn [px py pz].
        intros (E1 & E2 & E3). split; [|split]; lia.
      * apply (same_ratio s (- b4) (- b3 + - b4) b4 (b3 + b4)); [lia..|ring|done].
Qed.

Lemma passes_rot p0 p1 p2 c d s : passes_at p0 p1 p2 c d s → passes_at p1 p2 p0 c d s.
Proof.
  intros [Ho (x0 & x1 & x2 & y & z & P0 & P1 & P2 & P3 & P4 & P5 & Es & Ev & Et)].
  assert (∀ q, orient p1 p2 p0 q = orient p0 p1 p2 q) as E by (intros q; rewrite (orient_swap12 p1 p0 p2 q), (orient_swap01 p0 p1 p2 q); lia). split; [by rewrite !E|].
  exists x1, x2, x0, y, z. split_and!; [lia..| |done]. rewrite <- Ev. destruct p0, p1, p2. rewrite pt_eq. split_and!; cbn; ring.
Qed.
Lemma passes_swap p0 p1 p2 c d s : passes_at p0 p1 p2 c d s → passes_at p1 p0 p2 c d s.
Proof.
  intros [Ho (x0 & x1 & x2 & y & z & P0 & P1 & P2 & P3 & P4 & P5 & Es & Ev & Et)].
  split; [rewrite !(orient_swap01 p0 p1 p2); lia|].
  exists x1, x0, x2, y, z. split_and!; [lia..| |done]. rewrite <- Ev. destruct p0, p1, p2. rewrite pt_eq. split_and!; cbn; ring.
Qed.
