(** Property C60: the first four points are apart by the tolerance. *)
From stdpp Require Import base numbers list gmap option relations.
From Coq Require Import NArith ZArith Lia.
From Verif Require Import IdMapModel WalkerModel WalkerSpec MeshModel GeoModel GeoSpec GeoProofs UtilModel IterModel QualModel DelModel
  PropMesh FromModel FromOk PropFrom TolModel TolSpec TolOk StartModel.
Local Open Scope Z_scope.

(** Every point of the line [a b] is at least [tol] away from [p]. *)
Definition far_from_line (tol : Z) (a b p : pt) : Prop :=
  ∀ i j, 0 < i + j → (tol * (i + j)) ^ 2 ≤ dist2 (vscale (i + j) p) (weigh2 i j a b).
(** Each corner of the triangle is at least [tol] away from the line of the opposite side. *)
Definition heights_far (tol : Z) (a b c : pt) : Prop :=
  far_from_line tol b c a ∧ far_from_line tol a c b ∧ far_from_line tol a b c.

(** ** Preliminaries. *)
Lemma far_line_iff tol a b p : a ≠ b → far_from_line tol a b p ↔ tol * tol * norm2 (vsub b a) ≤ area2 a b a p.
Proof.
  intros Hne. set (u := vsub b a). set (w := vsub p a).
  assert (0 < norm2 u) as Hu.
  { pose proof (norm2_nonneg u). destruct (decide (norm2 u = 0)) as [E|]; [|lia]. exfalso. apply Hne. apply norm2_zero in E. unfold u, vsub in E. injection E as E1 E2 E3.
    destruct a, b. cbn in *. f_equal; lia. }
  assert (∀ i j, dist2 (vscale (i + j) p) (weigh2 i j a b) = norm2 (vadd (vscale (i + j) w) (vscale (- j) u))) as E.
  { intros i j. unfold u, w, weigh2. destruct a, b, p. geo. ring. }
  assert (area2 a b a p = norm2 (vcross u w)) as EA by done.
  split.
  - intros H. specialize (H (norm2 u - vdot u w) (vdot u w)). rewrite E in H. replace (norm2 u - vdot u w + vdot u w) with (norm2 u) in H by ring. specialize (H Hu).
    assert (norm2 (vadd (vscale (norm2 u) w) (vscale (- vdot u w) u)) = norm2 u * norm2 (vcross u w)) as E' by (clearbody u w; destruct u, w; geo; ring).
    rewrite E' in H. rewrite EA. revert H. generalize (norm2 (vcross u w)) (norm2 u) Hu. clear. intros A N HN H. apply (Z.mul_le_mono_pos_l _ _ N HN). lia.
  - intros H i j Hs. rewrite E. rewrite EA in H.
    assert (norm2 (vcross u (vadd (vscale (i + j) w) (vscale (- j) u))) = (i + j) * (i + j) * norm2 (vcross u w)) as E1 by (clearbody u w; destruct u, w; geo; ring).
    assert (norm2 (vcross u (vadd (vscale (i + j) w) (vscale (- j) u))) ≤ norm2 u * norm2 (vadd (vscale (i + j) w) (vscale (- j) u))) as E2.
    { generalize (vadd (vscale (i + j) w) (vscale (- j) u)). clear. intros x.
      assert (norm2 u * norm2 x - vdot u x * vdot u x = norm2 (vcross u x)) by (clearbody u; destruct u, x; geo; ring). nia. }
    rewrite E1 in E2. revert E2 H. generalize (norm2 (vadd (vscale (i + j) w) (vscale (- j) u))) (norm2 (vcross u w)) (norm2 u) Hu.
    clear -Hs. intros X A N HN H1 H2. apply (Z.mul_le_mono_pos_l _ _ N HN). transitivity ((i + j) * (i + j) * A); [|done].
    assert ((i + j) * (i + j) * (tol * tol * N) ≤ (i + j) * (i + j) * A) by (apply Z.mul_le_mono_nonneg_l; [nia|done]). lia.
Qed.
Lemma far_line_ne tol a b p : 0 < tol → far_from_line tol a b p → a ≠ p ∧ b ≠ p.
Proof.
  intros Ht H. pose proof (H 1 0 ltac:(lia)) as H1. pose proof (H 0 1 ltac:(lia)) as H2. split; intros ->.
  - assert (dist2 (vscale (1 + 0) p) (weigh2 1 0 p b) = 0) as E by (destruct p, b; unfold weigh2; geo; ring). rewrite E in H1. nia.
  - assert (dist2 (vscale (0 + 1) p) (weigh2 0 1 a p) = 0) as E by (destruct p, a; unfold weigh2; geo; ring). rewrite E in H2. nia.
Qed.
Lemma norm2_sub_pos a b : a ≠ b ↔ 0 < norm2 (vsub a b).
Proof.
  pose proof (norm2_nonneg (vsub a b)) as Hn. split; intros H.
  - destruct (decide (norm2 (vsub a b) = 0)) as [E|]; [|lia]. exfalso. apply H. apply norm2_zero in E. unfold vsub in E. injection E as E1 E2 E3. destruct a, b. cbn in *. f_equal; lia.
  - intros ->. assert (norm2 (vsub b b) = 0) by (destruct b; geo; ring). lia.
Qed.
Lemma norm2_sub_sym a b : norm2 (vsub a b) = norm2 (vsub b a).
Proof. destruct a, b. geo. ring. Qed.

(** The test of the triangle. *)
Lemma wide2x_iff tol p0 p1 p2 : 0 < tol → wide2x tol p0 p1 p2 = true ↔ heights_far tol p0 p1 p2.
Proof.
  intros Ht. unfold wide2x, height, heights_far. destruct (tri2_all p0 p1 p2) as (e1 & e2 & e3 & e4 & e5).
  pose proof (norm2_nonneg (vsub p1 p0)) as N1. pose proof (norm2_nonneg (vsub p2 p1)) as N2. pose proof (norm2_nonneg (vsub p0 p2)) as N3.
  destruct (Z.eqb_spec (Z.max (Z.max (norm2 (vsub p1 p0)) (norm2 (vsub p2 p1))) (norm2 (vsub p0 p2))) 0) as [E|E].
  - split; [done|]. intros (H & _). destruct (far_line_ne tol p1 p2 p0 Ht H) as [H' _]. apply norm2_sub_pos in H'. lia.
  - unfold xge, xint. cbn [xnan negb andb xlt]. rewrite negb_true_iff, Z.ltb_ge, (sq_nonneg tol) by lia.
    assert (p0 ≠ p1 ∧ p1 ≠ p2 ∧ p0 ≠ p2 → heights_far tol p0 p1 p2 ↔ tol * tol * Z.max (Z.max (norm2 (vsub p1 p0)) (norm2 (vsub p2 p1))) (norm2 (vsub p0 p2)) ≤ area2 p0 p1 p0 p2) as H.
    { intros (n1 & n2 & n3). unfold heights_far. rewrite !far_line_iff by done. rewrite e3, e1, (norm2_sub_sym p2 p0).
      assert (0 < tol * tol) as Htt by nia. revert Htt. generalize (tol * tol) (norm2 (vsub p1 p0)) (norm2 (vsub p2 p1)) (norm2 (vsub p0 p2)) (area2 p0 p1 p0 p2). clear. intros t x y z A Ht.
      split.
      - intros (H1 & H2 & H3). destruct (Z.max_spec (Z.max x y) z) as [[_ ->]|[_ ->]]; [lia|]. destruct (Z.max_spec x y) as [[_ ->]|[_ ->]]; lia.
      - intros H. assert (∀ s, s ≤ Z.max (Z.max x y) z → t * s ≤ A) as H' by (intros s Hs; nia). repeat split; apply H'; lia. }
    unfold heights_far in H. split.
    + intros Hw. apply H; [|lia]. 
      assert (0 < area2 p0 p1 p0 p2) as Ha. { assert (0 < tol * tol) by nia. nia. }
      repeat split; intros ->.
      * assert (area2 p1 p1 p1 p2 = 0) by (unfold area2; destruct p1, p2; geo; ring). lia.
      * assert (area2 p0 p2 p0 p2 = 0) by (unfold area2; destruct p0, p2; geo; ring). lia.
      * assert (area2 p2 p1 p2 p2 = 0) by (unfold area2; destruct p1, p2; geo; ring). lia.
    + intros Hf. pose proof Hf as (f1 & f2 & f3). destruct (far_line_ne tol p1 p2 p0 Ht f1) as [g1 g2]. destruct (far_line_ne tol p0 p2 p1 Ht f2) as [g3 g4].
      apply H in Hf; [lia|]. done.
Qed.

(** The test of the tet. *)
Lemma max_by_Z l z : max_by Z.leb l = Some z → z ∈ l ∧ ∀ y, y ∈ l → y ≤ z.
Proof.
  destruct l as [|x l]; [done|]. cbn [max_by]. intros [= <-]. revert x. induction l as [|y l IH]; intros x; cbn [fold_left].
  - split; [by left|]. intros y ->%elem_of_list_singleton. lia.
  - destruct (Z.leb_spec x y) as [E|E].
    + destruct (IH y) as [Hin Hle]. split; [by right|]. intros y' [->|Hy]%elem_of_cons; [|by apply Hle].
      assert (y ≤ fold_left (λ m z, if m <=? z then z else m) l y) by (apply Hle; by left). lia.
    + destruct (IH x) as [Hin Hle]. split; [apply elem_of_cons in Hin as [Hin|Hin]; [rewrite Hin; by left|right; by right]|].
      intros y' [->|[->|Hy]%elem_of_cons]%elem_of_cons; [apply Hle; by left| |apply Hle; by right].
      assert (x ≤ fold_left (λ m z, if m <=? z then z else m) l x) by (apply Hle; by left). lia.
Qed.
Lemma wide3x_iff tol p0 p1 p2 p3 : 0 < tol →
  wide3x tol p0 p1 p2 p3 = true ↔ orient p0 p1 p2 p3 ≠ 0 ∧ opposites_far tol p0 p1 p2 p3.
Proof.
  intros Ht. unfold wide3x. fold (orient p0 p1 p2 p3). cbn [map].
  destruct (max_by Z.leb _) as [z|] eqn:Em; [|done]. apply max_by_Z in Em as [Hin Hmax].
  assert (∀ x, x ∈ [area2 p0 p1 p0 p2; area2 p3 p2 p3 p1; area2 p2 p3 p2 p0; area2 p1 p0 p1 p3; area2 p0 p1 p2 p3; area2 p0 p2 p1 p3; area2 p0 p3 p1 p2] ↔
    x ∈ areas (A4 p0 p1 p2 p3)) as Hl.
  { intros x. unfold areas. destruct (tri2_all p1 p2 p3) as (_ & _ & _ & _ & a5). destruct (tri2_all p0 p2 p3) as (_ & _ & b3 & _).
    destruct (tri2_all p0 p1 p3) as (_ & c2 & _). rewrite a5, b3, c2. rewrite !elem_of_cons. tauto. }
  assert (orient p0 p1 p2 p3 ≠ 0 → 0 < z) as Hz.
  { intros Ho. pose proof (tri_area_pos p0 p1 p2 p3 Ho). assert (area2 p0 p1 p0 p2 ≤ z) by (apply Hmax; by left). lia. }
  destruct (Z.eqb_spec z 0) as [->|Hz0].
  - split; [done|]. intros [Ho _]. specialize (Hz Ho). lia.
  - assert (0 < z) as Hzp.
    { assert (0 ≤ z); [|lia]. transitivity (area2 p0 p1 p0 p2); [apply norm2_nonneg|]. apply Hmax. by left. }
    unfold xge, xint. cbn [xnan negb andb xlt]. rewrite negb_true_iff, Z.ltb_ge, !sq_nonneg by lia.
    replace (Z.abs (orient p0 p1 p2 p3) * Z.abs (orient p0 p1 p2 p3) * 1) with (orient p0 p1 p2 p3 * orient p0 p1 p2 p3) by (rewrite <- Z.abs_mul, Z.abs_eq; nia).
    split.
    + intros H. assert (orient p0 p1 p2 p3 ≠ 0) as Ho. { intros E. rewrite E in H. assert (0 < tol * tol) by nia. nia. }
      split; [done|]. rewrite opposites_iff by done. intros x Hx. apply Hl, Hmax in Hx.
      assert (tol * tol * x ≤ tol * tol * z); [|lia]. apply Z.mul_le_mono_nonneg_l; [nia|done].
    + intros [Ho H]. rewrite opposites_iff in H by done. apply H. by apply Hl.
Qed.

(** ** The first four points of the order in which the points are inserted: the triangle of the first three
    has heights of at least the tolerance, and in the tet all opposite elements are at least the tolerance
    apart. *)
Theorem C60_apart {V T} sim norm curve tol (ps : list (pt * V)) (dflt : T) m L : 0 < tol → (N.of_nat (length ps) < 2 ^ 32)%N →
  delaunay_start sim norm curve (wide2x tol) le2x (wide3x tol) ps dflt = Some (m, L) →
  L ≡ₚ imap (λ i p, (N.of_nat i, p)) ps ∧
  ∃ i0 i1 i2 i3 p0 p1 p2 p3 a0 a1 a2 a3, take 4 L = [(i0, (p0, a0)); (i1, (p1, a1)); (i2, (p2, a2)); (i3, (p3, a3))] ∧
    heights_far tol p0 p1 p2 ∧ orient p0 p1 p2 p3 ≠ 0 ∧ opposites_far tol p0 p1 p2 p3.
Proof.
  intros Ht Hl E. destruct (C50_start _ _ _ _ _ _ _ _ _ _ Hl E) as (HL & ([i0 [p0 a0]] & [i1 [p1 a1]] & [i2 [p2 a2]] & [i3 [p3 a3]] & E4 & H2 & H3) & _).
  split; [done|]. exists i0, i1, i2, i3, p0, p1, p2, p3, a0, a1, a2, a3. split; [done|]. cbn in H2, H3.
  apply wide2x_iff in H2; [|done]. apply wide3x_iff in H3; [|done]. done.
Qed.
Print Assumptions C60_apart.

(** The third point is the one that makes the widest triangle, and there is none exactly if no point makes a
    triangle with heights of at least the tolerance. *)
Lemma height_pos tol p0 p1 y : 0 < tol → wide2x tol p0 p1 y = true → ∃ A M, height p0 p1 y = XSq A M ∧ 0 < M.
Proof.
  intros Ht. unfold wide2x, height. pose proof (norm2_nonneg (vsub p1 p0)). destruct (Z.eqb_spec (Z.max (Z.max (norm2 (vsub p1 p0)) (norm2 (vsub y p1))) (norm2 (vsub p0 y))) 0); [done|].
  intros _. do 2 eexists. split; [done|]. lia.
Qed.
Lemma max_by_le {A} (leb : A → A → bool) (l : list A) z :
  (∀ x y, x ∈ l → y ∈ l → leb x y = true ∨ leb y x = true) → (∀ x y t, x ∈ l → y ∈ l → t ∈ l → leb x y = true → leb y t = true → leb x t = true) →
  max_by leb l = Some z → z ∈ l ∧ ∀ y, y ∈ l → leb y z = true.
Proof.
  destruct l as [|x l]; [done|]. cbn [max_by]. intros Ht Htr [= <-]. revert x Ht Htr. induction l as [|y l IH]; intros x Ht Htr; cbn [fold_left].
  - split; [by left|]. intros y ->%elem_of_list_singleton. destruct (Ht x x); [by left..|done|done].
  - assert (leb x x = true) as Hx by (destruct (Ht x x); [by left..|done|done]). assert (leb y y = true) as Hy by (destruct (Ht y y); [right; by left..|done|done]).
    destruct (leb x y) eqn:E.
    + destruct (IH y) as [Hin Hle]; [intros; apply Ht; by right|intros a b c Ha Hb Hc; apply Htr; by right|]. split; [by right|].
      intros y' [->|Hy']%elem_of_cons; [|by apply Hle]. apply (Htr _ y); [by left|right; by left|by right|done|]. apply Hle. by left.
    + destruct (IH x) as [Hin Hle].
      { intros a b Ha Hb. apply Ht; apply elem_of_cons; [apply elem_of_cons in Ha as [->|Ha]; [by left|right; by right]|apply elem_of_cons in Hb as [->|Hb]; [by left|right; by right]]. }
      { intros a b c Ha Hb Hc. apply Htr; apply elem_of_cons; [apply elem_of_cons in Ha as [->|Ha]; [by left|right; by right]|apply elem_of_cons in Hb as [->|Hb]; [by left|right; by right]|apply elem_of_cons in Hc as [->|Hc]; [by left|right; by right]]. }
      assert (fold_left (λ m y0, if leb m y0 then y0 else m) l x ∈ x :: y :: l) as Hin' by (apply elem_of_cons in Hin as [Hin|Hin]; [rewrite Hin; by left|right; by right]).
      split; [done|]. intros y' [->|[->|Hy']%elem_of_cons]%elem_of_cons; [apply Hle; by left| |apply Hle; by right].
      destruct (Ht x y) as [H|H]; [by left|right; by left|congruence|]. apply (Htr _ x); [right; by left|by left|done|done|]. apply Hle. by left.
Qed.
Lemma heights_le t p0 p1 a b A M A' M' : 0 < t → height p0 p1 a = XSq A M → height p0 p1 b = XSq A' M' → 0 < M → 0 < M' →
  xlt (height p0 p1 b) (height p0 p1 a) = false → heights_far t p0 p1 a → heights_far t p0 p1 b.
Proof.
  intros Ht Ea Eb HM HM' Hlt. rewrite <- !wide2x_iff by done. unfold wide2x. rewrite Ea, Eb in *. unfold xge, xint. cbn [xnan negb andb xlt] in *.
  rewrite !negb_true_iff, !Z.ltb_ge in *. intros H. nia.
Qed.

Theorem C60_third {V} tol (l : list (N * (pt * V))) x0 x1 : 0 < tol → l !! 0%nat = Some x0 → l !! 1%nat = Some x1 →
  match pick2 (wide2x tol) le2x l with
  | Some i => (2 ≤ i)%nat ∧ ∃ x, l !! i = Some x ∧ heights_far tol x0.2.1 x1.2.1 x.2.1 ∧
      ∀ j y t, (2 ≤ j)%nat → l !! j = Some y → tol ≤ t → heights_far t x0.2.1 x1.2.1 y.2.1 → heights_far t x0.2.1 x1.2.1 x.2.1
  | None => ∀ j y, (2 ≤ j)%nat → l !! j = Some y → ¬ heights_far tol x0.2.1 x1.2.1 y.2.1
  end.
Proof.
  intros Ht E0 E1. unfold pick2. rewrite E0, E1. cbn [fmap option_fmap option_map mbind option_bind]. set (p0 := x0.2.1). set (p1 := x1.2.1).
  set (cands := filter _ _).
  assert (∀ i p, (i, p) ∈ cands ↔ (2 ≤ i)%nat ∧ wide2x tol p0 p1 p = true ∧ ∃ y, l !! i = Some y ∧ p = y.2.1) as Hc.
  { intros i p. unfold cands. rewrite elem_of_list_filter, elem_of_lookup_imap. cbn [snd]. split.
    - intros [Hw (k & y & [= -> ->] & Hy)]. rewrite lookup_drop in Hy. split; [lia|]. split; [done|]. by exists y.
    - intros (Hi & Hw & y & Hy & ->). split; [done|]. exists (i - 2)%nat, y. split; [f_equal; lia|]. rewrite lookup_drop. replace (2 + (i - 2))%nat with i by lia. done. }
  destruct (max_by (λ a b : nat * pt, le2x p0 p1 a.2 b.2) cands) as [[i p]|] eqn:Em; cbn [fmap option_fmap option_map].
  - assert (∀ c, c ∈ cands → ∃ A M, height p0 p1 c.2 = XSq A M ∧ 0 < M) as Hh.
    { intros [k q] Hk. apply Hc in Hk as (_ & Hw & _). apply (height_pos tol); done. }
    apply max_by_le in Em as [Hin Hle].
    + apply Hc in Hin as Hin'. destruct Hin' as (Hi & Hw & x & Hx & ->). cbn [fst]. split; [done|]. exists x. split; [done|]. split; [by apply wide2x_iff|].
      intros j y t Hj Hy Htt Hf.
      assert ((j, y.2.1) ∈ cands) as Hcj.
      { apply Hc. split; [done|]. split; [|by exists y]. apply wide2x_iff; [done|].
        destruct Hf as (f1 & f2 & f3). assert (∀ a b c, far_from_line t a b c → far_from_line tol a b c) as Hmono.
        { intros a b c H i' j' Hs. specialize (H i' j' Hs). etrans; [|exact H]. apply Z.pow_le_mono_l. nia. }
        repeat split; by apply Hmono. }
      destruct (Hh _ Hcj) as (A & M & EA & HM). destruct (Hh _ Hin) as (A' & M' & EA' & HM'). cbn [snd] in EA, EA'.
      apply (heights_le t p0 p1 y.2.1 x.2.1 A M A' M'); [lia|done..| |done]. specialize (Hle _ Hcj). cbn [snd] in Hle. unfold le2x in Hle. by apply negb_true_iff in Hle.
    + intros a b Ha Hb. destruct (Hh _ Ha) as (A & M & EA & HM). destruct (Hh _ Hb) as (A' & M' & EA' & HM'). unfold le2x. rewrite EA, EA'. cbn [xlt].
      rewrite !negb_true_iff, !Z.ltb_ge. lia.
    + intros a b c Ha Hb Hd. destruct (Hh _ Ha) as (A & M & EA & HM). destruct (Hh _ Hb) as (A' & M' & EA' & HM'). destruct (Hh _ Hd) as (A'' & M'' & EA'' & HM'').
      unfold le2x. rewrite EA, EA', EA''. cbn [xlt]. rewrite !negb_true_iff, !Z.ltb_ge.
      clear -HM HM' HM''. intros H1 H2. apply (Z.mul_le_mono_pos_l _ _ M' HM').
      assert (A * M' * M'' ≤ A' * M * M'') by (apply Z.mul_le_mono_nonneg_r; lia). assert (A' * M'' * M ≤ A'' * M' * M) by (apply Z.mul_le_mono_nonneg_r; lia). lia.
  - intros j y Hj Hy Hf. assert ((j, y.2.1) ∈ cands) as H.
    { apply Hc. split; [done|]. split; [by apply wide2x_iff|by exists y]. }
    destruct cands; [by apply elem_of_nil in H|done].
Qed.
Print Assumptions C60_third.

(** The fourth point is the first that makes a tet with opposite elements at least the tolerance apart, and
    there is none exactly if no point does. *)
Theorem C60_fourth {V} tol (l : list (N * (pt * V))) x0 x1 x2 : 0 < tol → l !! 0%nat = Some x0 → l !! 1%nat = Some x1 → l !! 2%nat = Some x2 →
  let good (y : N * (pt * V)) := orient x0.2.1 x1.2.1 x2.2.1 y.2.1 ≠ 0 ∧ opposites_far tol x0.2.1 x1.2.1 x2.2.1 y.2.1 in
  match pick3 (wide3x tol) l with
  | Some i => (∃ x, l !! (i + 3)%nat = Some x ∧ good x) ∧ ∀ j y, (3 ≤ j < i + 3)%nat → l !! j = Some y → ¬ good y
  | None => ∀ j y, (3 ≤ j)%nat → l !! j = Some y → ¬ good y
  end.
Proof.
  intros Ht E0 E1 E2 good. unfold pick3. rewrite E0, E1, E2. cbn [fmap option_fmap option_map mbind option_bind].
  assert (∀ y, wide3x tol x0.2.1 x1.2.1 x2.2.1 y.2.1 = true ↔ good y) as Hg by (intros y; by apply wide3x_iff).
  destruct (list_find _ _) as [[i x]|] eqn:El; cbn.
  - apply list_find_Some in El as (Ex & Hw & Hn). rewrite lookup_drop in Ex. split.
    + exists x. split; [rewrite Nat.add_comm; done|]. by apply Hg.
    + intros j y Hj Hy Hgy. apply (Hn (j - 3)%nat y); [rewrite lookup_drop; replace (3 + (j - 3))%nat with j by lia; done|lia|]. by apply Hg.
  - intros j y Hj Hy Hgy. apply list_find_None in El. rewrite stdpp.list.Forall_forall in El. apply (El y); [|by apply Hg].
    apply elem_of_list_lookup. exists (j - 3)%nat. rewrite lookup_drop. by replace (3 + (j - 3))%nat with j by lia.
Qed.
Print Assumptions C60_fourth.

(** Seven points: with tolerance 1 the start succeeds, with tolerance 10 it does not. *)
Example C60_witness :
  (λ r, (take 4 r.2).*1) <$> delaunay_start sim_z (λ lo hi x, Z.to_N (x - lo)) (λ p, p.1.1 + p.1.2 + p.2)%N (wide2x 1) le2x (wide3x 1) seven () = Some [0; 4; 3; 2]%N ∧
  delaunay_start sim_z (λ lo hi x, Z.to_N (x - lo)) (λ p, p.1.1 + p.1.2 + p.2)%N (wide2x 10) le2x (wide3x 10) seven () = None.
Proof. vm_compute. split; reflexivity. Qed.

(** Points among which there are four that would do can be rejected: the first two of the order are kept
    whatever they are, and here they are closer than the tolerance. *)
Definition five_close : list (pt * Z) := [(Pt 0 0 0, 0); (Pt 1 0 0, 1); (Pt 100 0 0, 2); (Pt 0 100 0, 3); (Pt 0 0 100, 4)].
Theorem C60_complete_refuted : ¬ ∀ norm curve tol (ps : list (pt * Z)) a b c d, 0 < tol → a ∈ ps → b ∈ ps → c ∈ ps → d ∈ ps →
  orient a.1 b.1 c.1 d.1 ≠ 0 → opposites_far tol a.1 b.1 c.1 d.1 →
  is_Some (delaunay_start (T := unit) sim_z norm curve (wide2x tol) le2x (wide3x tol) ps ()).
Proof.
  intros H. destruct (H (λ lo hi x, Z.to_N (x - lo)) (λ p, p.1.1 + p.1.2 + p.2)%N 2 five_close (Pt 0 0 0, 0) (Pt 100 0 0, 2) (Pt 0 100 0, 3) (Pt 0 0 100, 4)) as [r Hr].
  - lia.
  - by apply (elem_of_list_lookup_2 five_close 0).
  - by apply (elem_of_list_lookup_2 five_close 2).
  - by apply (elem_of_list_lookup_2 five_close 3).
  - by apply (elem_of_list_lookup_2 five_close 4).
  - vm_compute. discriminate.
  - apply wide3x_iff; [lia|]. vm_compute. reflexivity.
  - revert Hr. vm_compute. discriminate.
Qed.
Print Assumptions C60_complete_refuted.
