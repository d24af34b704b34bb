(** Proofs about the geometric predicates on points. *)
From stdpp Require Import base numbers list gmap option.
From Coq Require Import NArith ZArith Lia.
From Verif Require Import IdMapModel WalkerModel MeshModel GeoModel GeoSpec.
Local Open Scope Z_scope.

Lemma pt_eq p q : p = q ↔ px p = px q ∧ py p = py q ∧ pz p = pz q.
Proof. destruct p, q. cbn. split; [by intros [= -> -> ->]|by intros (-> & -> & ->)]. Qed.

Ltac geo := unfold orient, insphere in *; cbv zeta in *; unfold norm2, dist2 in *; unfold vdot, vcross, vsub, vadd, vscale in *; cbn [px py pz] in *.

Ltac pts := unfold vadd, vscale, vsub; cbn [px py pz].

(** ** Orientation. *)
Lemma orient_swap01 a b c d : orient b a c d = - orient a b c d.
Proof. destruct a, b, c, d. geo. ring. Qed.
Lemma orient_swap12 a b c d : orient a c b d = - orient a b c d.
Proof. destruct a, b, c, d. geo. ring. Qed.
Lemma orient_swap23 a b c d : orient a b d c = - orient a b c d.
Proof. destruct a, b, c, d. geo. ring. Qed.
Lemma orient_swap02 a b c d : orient c b a d = - orient a b c d.
Proof. destruct a, b, c, d. geo. ring. Qed.
Lemma orient_swap03 a b c d : orient d b c a = - orient a b c d.
Proof. destruct a, b, c, d. geo. ring. Qed.
Lemma orient_swap13 a b c d : orient a d c b = - orient a b c d.
Proof. destruct a, b, c, d. geo. ring. Qed.
Lemma orient_translate t a b c d : orient (vadd a t) (vadd b t) (vadd c t) (vadd d t) = orient a b c d.
Proof. destruct a, b, c, d, t. geo. ring. Qed.
Lemma orient_even a b c d e : orient a b c d = orient (q0 (verts_at (A4 a b c d) e)) (q1 (verts_at (A4 a b c d) e))
  (q2 (verts_at (A4 a b c d) e)) (q3 (verts_at (A4 a b c d) e)) ∨ (12 ≤ e)%nat.
Proof.
  destruct (decide (12 ≤ e)%nat) as [|He]; [by right|left].
  do 12 (destruct e as [|e]; [destruct a, b, c, d; cbn; geo; ring|]). lia.
Qed.

(** The five point identity: replacing each corner in turn. *)
Lemma orient_five a b c d x :
  orient a b c d = orient x b c d + orient a x c d + orient a b x d + orient a b c x.
Proof. destruct a, b, c, d, x. geo. ring. Qed.

(** ** The circumsphere. *)
Lemma insphere_identity p0 p1 p2 p3 p4 c :
  insphere p0 p1 p2 p3 p4 =
    (dist2 p1 c - dist2 p4 c) * orient p0 p2 p3 p4 - (dist2 p0 c - dist2 p4 c) * orient p1 p2 p3 p4
    - (dist2 p2 c - dist2 p4 c) * orient p0 p1 p3 p4 + (dist2 p3 c - dist2 p4 c) * orient p0 p1 p2 p4.
Proof. destruct p0, p1, p2, p3, p4, c. geo. ring. Qed.

Lemma insphere_scale k p0 p1 p2 p3 p4 :
  insphere (vscale k p0) (vscale k p1) (vscale k p2) (vscale k p3) (vscale k p4) = k * k * k * k * k * insphere p0 p1 p2 p3 p4.
Proof. destruct p0, p1, p2, p3, p4. geo. ring. Qed.
Lemma orient_scale k p0 p1 p2 p3 :
  orient (vscale k p0) (vscale k p1) (vscale k p2) (vscale k p3) = k * k * k * orient p0 p1 p2 p3.
Proof. destruct p0, p1, p2, p3. geo. ring. Qed.

Lemma insphere_ball k c r2 p0 p1 p2 p3 p4 : on_sphere k c r2 p0 → on_sphere k c r2 p1 → on_sphere k c r2 p2 →
  on_sphere k c r2 p3 →
  k * k * insphere p0 p1 p2 p3 p4 = orient p0 p1 p2 p3 * (r2 - dist2 (vscale k p4) c) ∨ k = 0.
Proof.
  intros H0 H1 H2 H3. destruct (decide (k = 0)) as [->|Hk]; [by right|left].
  pose proof (insphere_identity (vscale k p0) (vscale k p1) (vscale k p2) (vscale k p3) (vscale k p4) c) as E.
  unfold on_sphere in *. rewrite H0, H1, H2, H3, insphere_scale, !orient_scale in E.
  assert (orient p0 p1 p2 p3 = orient p0 p2 p3 p4 - orient p1 p2 p3 p4 - orient p0 p1 p3 p4 + orient p0 p1 p2 p4) as E2.
  { clear. destruct p0, p1, p2, p3, p4. geo. ring. }
  rewrite E2. revert E. clear -Hk.
  generalize (insphere p0 p1 p2 p3 p4) (orient p0 p2 p3 p4) (orient p1 p2 p3 p4) (orient p0 p1 p3 p4) (orient p0 p1 p2 p4)
    (dist2 (vscale k p4) c).
  intros i o0 o1 o2 o3 d E. apply (Z.mul_reg_l _ _ (k * k * k)); [nia|]. rewrite <- Z.sub_0_r. 
  transitivity (k * k * k * k * k * i); [ring|]. rewrite E. ring.
Qed.

Lemma in_sphere_iff k c r2 p0 p1 p2 p3 p4 : 0 < k → on_sphere k c r2 p0 → on_sphere k c r2 p1 → on_sphere k c r2 p2 →
  on_sphere k c r2 p3 → 0 < orient p0 p1 p2 p3 →
  (0 < insphere p0 p1 p2 p3 p4 ↔ in_ball k c r2 p4) ∧ (insphere p0 p1 p2 p3 p4 = 0 ↔ on_sphere k c r2 p4).
Proof.
  intros Hk H0 H1 H2 H3 Ho. destruct (insphere_ball k c r2 p0 p1 p2 p3 p4 H0 H1 H2 H3) as [E|E]; [|lia].
  unfold in_ball, on_sphere. revert E Ho. generalize (insphere p0 p1 p2 p3 p4) (orient p0 p1 p2 p3) (dist2 (vscale k p4) c).
  intros i o d E Ho. split; split; intros; nia.
Qed.

(** Every non degenerate tet has a circumsphere of this form. *)
Definition circumcentre (p0 p1 p2 p3 : pt) : pt :=
  let a := vsub p1 p0 in let b := vsub p2 p0 in let c := vsub p3 p0 in
  let n := vadd (vadd (vscale (norm2 a) (vcross b c)) (vscale (norm2 b) (vcross c a))) (vscale (norm2 c) (vcross a b)) in
  let d := vdot (vcross a b) c in
  vadd (vscale (2 * d) p0) n.
Lemma dist2_comb k s p0 p1 n :
  dist2 (vscale (k * s) p1) (vscale s (vadd (vscale k p0) n)) =
  s * s * (k * k * norm2 (vsub p1 p0) - 2 * k * vdot (vsub p1 p0) n + norm2 n).
Proof. destruct p0, p1, n. geo. ring. Qed.
Lemma cc_dot a b c :
  let n := vadd (vadd (vscale (norm2 a) (vcross b c)) (vscale (norm2 b) (vcross c a))) (vscale (norm2 c) (vcross a b)) in
  let d := vdot (vcross a b) c in
  vdot a n = norm2 a * d ∧ vdot b n = norm2 b * d ∧ vdot c n = norm2 c * d.
Proof. intros n d. unfold n, d. destruct a, b, c. geo. split; [ring|]. split; ring. Qed.
Lemma circumsphere p0 p1 p2 p3 : orient p0 p1 p2 p3 ≠ 0 →
  ∃ k c r2, 0 < k ∧ on_sphere k c r2 p0 ∧ on_sphere k c r2 p1 ∧ on_sphere k c r2 p2 ∧ on_sphere k c r2 p3.
Proof.
  intros Ho. set (d := vdot (vcross (vsub p1 p0) (vsub p2 p0)) (vsub p3 p0)).
  assert (∃ s, (s = 1 ∨ s = -1) ∧ 0 < 2 * d * s) as (s & Hs & Hpos).
  { assert (d ≠ 0) by (unfold orient in Ho; unfold d; lia). destruct (decide (0 < d)); [exists 1|exists (-1)]; lia. }
  exists (2 * d * s), (vscale s (circumcentre p0 p1 p2 p3)), (dist2 (vscale (2 * d * s) p0) (vscale s (circumcentre p0 p1 p2 p3))).
  split; [done|]. clear Hpos Ho Hs. unfold on_sphere, circumcentre. split; [done|].
  pose proof (cc_dot (vsub p1 p0) (vsub p2 p0) (vsub p3 p0)) as H. cbv zeta in H. fold d in H. fold d. cbv zeta.
  revert H. generalize (vadd (vadd (vscale (norm2 (vsub p1 p0)) (vcross (vsub p2 p0) (vsub p3 p0)))
    (vscale (norm2 (vsub p2 p0)) (vcross (vsub p3 p0) (vsub p1 p0)))) (vscale (norm2 (vsub p3 p0)) (vcross (vsub p1 p0) (vsub p2 p0)))).
  intros n (E1 & E2 & E3). rewrite !dist2_comb, E1, E2, E3.
  assert (vsub p0 p0 = Pt 0 0 0) as -> by (apply pt_eq; destruct p0; unfold vsub; cbn; lia).
  assert (norm2 (Pt 0 0 0) = 0) as -> by done. assert (vdot (Pt 0 0 0) n = 0) as -> by done.
  split; [ring|]. split; ring.
Qed.

Lemma insphere_swap01 p0 p1 p2 p3 p4 : insphere p1 p0 p2 p3 p4 = - insphere p0 p1 p2 p3 p4.
Proof. destruct p0, p1, p2, p3, p4. geo. ring. Qed.
Lemma insphere_swap12 p0 p1 p2 p3 p4 : insphere p0 p2 p1 p3 p4 = - insphere p0 p1 p2 p3 p4.
Proof. destruct p0, p1, p2, p3, p4. geo. ring. Qed.
Lemma insphere_swap23 p0 p1 p2 p3 p4 : insphere p0 p1 p3 p2 p4 = - insphere p0 p1 p2 p3 p4.
Proof. destruct p0, p1, p2, p3, p4. geo. ring. Qed.

(** ** Segments and triangles. *)
Lemma seg_weights p0 p1 p2 p3 p4 :
  vadd (vadd (vscale (orient p1 p2 p3 p4) p0) (vscale (orient p2 p0 p3 p4) p1)) (vscale (orient p0 p1 p3 p4) p2) =
  vadd (vscale (orient p0 p1 p2 p4) p3) (vscale (orient p2 p1 p0 p3) p4) ∧
  orient p1 p2 p3 p4 + orient p2 p0 p3 p4 + orient p0 p1 p3 p4 = orient p0 p1 p2 p4 + orient p2 p1 p0 p3.
Proof.
  split; [apply pt_eq|]; destruct p0, p1, p2, p3, p4; geo; [|ring]. split; [ring|]. split; ring.
Qed.
Lemma vscale_opp k p : vscale (- k) p = vscale (-1) (vscale k p).
Proof. destruct p. apply pt_eq. geo. split; [ring|]. split; ring. Qed.

(** Multiplying an affine relation into the last two slots of the orientation determinant. *)
Lemma orient_comb a0 a1 a2 b3 b4 p0 p1 p2 p3 p4 :
  a0 + a1 + a2 = b3 + b4 →
  vadd (vadd (vscale a0 p0) (vscale a1 p1)) (vscale a2 p2) = vadd (vscale b3 p3) (vscale b4 p4) →
  ∀ x y z, a0 * orient x y z p0 + a1 * orient x y z p1 + a2 * orient x y z p2 = b3 * orient x y z p3 + b4 * orient x y z p4.
Proof.
  intros Hs (E1 & E2 & E3)%pt_eq [xx xy xz] [yx yy yz] [zx zy zz].
  destruct p0 as [x0 y0 z0], p1 as [x1 y1 z1], p2 as [x2 y2 z2], p3 as [x3 y3 z3], p4 as [x4 y4 z4].
  geo. apply Z.sub_move_0_r in E1, E2, E3, Hs.
  set (A := (yy - xy) * (zz - xz) - (yz - xz) * (zy - xy)). set (B := (yz - xz) * (zx - xx) - (yx - xx) * (zz - xz)).
  set (C := (yx - xx) * (zy - xy) - (yy - xy) * (zx - xx)).
  apply Z.sub_move_0_r.
  transitivity (- A * (a0 * x0 + a1 * x1 + a2 * x2 - (b3 * x3 + b4 * x4)) - B * (a0 * y0 + a1 * y1 + a2 * y2 - (b3 * y3 + b4 * y4))
    - C * (a0 * z0 + a1 * z1 + a2 * z2 - (b3 * z3 + b4 * z4)) + (A * xx + B * xy + C * xz) * (a0 + a1 + a2 - (b3 + b4))); [ring|].
  rewrite E1, E2, E3, Hs. ring.
Qed.
Lemma orient_same01 a b c : orient a a b c = 0.
Proof. destruct a, b, c. geo. ring. Qed.
Lemma orient_same23 a b c : orient b c a a = 0.
Proof. destruct a, b, c. geo. ring. Qed.
Lemma orient_same02 a b c : orient a b a c = 0.
Proof. destruct a, b, c. geo. ring. Qed.
Lemma orient_same03 a b c : orient a b c a = 0.
Proof. destruct a, b, c. geo. ring. Qed.
Lemma orient_same12 a b c : orient b a a c = 0.
Proof. destruct a, b, c. geo. ring. Qed.
Lemma orient_same13 a b c : orient b a c a = 0.
Proof. destruct a, b, c. geo. ring. Qed.

Lemma Forall5 (P : Z → Prop) a b c d e : Forall P [a; b; c; d; e] ↔ P a ∧ P b ∧ P c ∧ P d ∧ P e.
Proof.
  split.
  - intros H. inversion_clear H as [|? ? H0 H']. inversion_clear H' as [|? ? H1 H]. inversion_clear H as [|? ? H2 H'].
    inversion_clear H' as [|? ? H3 H]. inversion_clear H as [|? ? H4 H']. done.
  - intros (H0 & H1 & H2 & H3 & H4). repeat constructor; done.
Qed.

Lemma tri_segment p0 p1 p2 p3 p4 :
  let b := [orient p1 p2 p3 p4; orient p2 p0 p3 p4; orient p0 p1 p3 p4; orient p0 p1 p2 p4; orient p2 p1 p0 p3] in
  (Forall (λ x, 0 < x) b ∨ Forall (λ x, x < 0) b) ↔
  open_tri_meets_open_segment p0 p1 p2 p3 p4 ∧ orient p0 p1 p2 p3 ≠ 0.
Proof.
  intros b. unfold b. rewrite !Forall5. pose proof (seg_weights p0 p1 p2 p3 p4) as [W1 W2].
  pose proof (orient_swap02 p0 p1 p2 p3) as S. split.
  - intros [(H0 & H1 & H2 & H3 & H4)|(H0 & H1 & H2 & H3 & H4)].
    + split; [|lia]. exists (orient p1 p2 p3 p4), (orient p2 p0 p3 p4), (orient p0 p1 p3 p4), (orient p0 p1 p2 p4), (orient p2 p1 p0 p3). do 5 (split; [done|]). exact (conj W2 W1).
    + split; [|lia]. exists (- orient p1 p2 p3 p4), (- orient p2 p0 p3 p4), (- orient p0 p1 p3 p4), (- orient p0 p1 p2 p4), (- orient p2 p1 p0 p3).
      do 6 (split; [lia|]). rewrite !vscale_opp. apply (f_equal (vscale (-1))) in W1. 
      revert W1. clear. destruct p0, p1, p2, p3, p4. rewrite !pt_eq. pts.
      intros (E1 & E2 & E3). split; [|split]; lia.
  - intros [(a0 & a1 & a2 & b3 & b4 & P0 & P1 & P2 & P3 & P4 & Es & Ev) Ho].
    pose proof (orient_comb _ _ _ _ _ _ _ _ _ _ Es Ev) as C.
    pose proof (C p0 p1 p2) as C0. rewrite orient_same03, orient_same13, orient_same23 in C0.
    pose proof (C p0 p1 p3) as C2. rewrite orient_same03, orient_same13, orient_same23 in C2.
    pose proof (C p1 p2 p3) as C3. rewrite orient_same03, orient_same13, orient_same23 in C3.
    pose proof (C p2 p0 p3) as C4. rewrite orient_same03, orient_same13, orient_same23 in C4.
    assert (orient p0 p1 p3 p2 = - orient p0 p1 p2 p3) as S1 by apply orient_swap23.
    assert (orient p1 p2 p3 p0 = - orient p0 p1 p2 p3) as S2 by (clear; destruct p0, p1, p2, p3; geo; ring).
    assert (orient p2 p0 p3 p1 = - orient p0 p1 p2 p3) as S3 by (clear; destruct p0, p1, p2, p3; geo; ring).
    rewrite S1 in C2. rewrite S2 in C3. rewrite S3 in C4. rewrite S.
    revert C0 C2 C3 C4 Ho P0 P1 P2 P3 P4. clear.
    generalize (orient p0 p1 p2 p3) (orient p0 p1 p2 p4) (orient p0 p1 p3 p4) (orient p1 p2 p3 p4) (orient p2 p0 p3 p4).
    intros o o4 u0 u1 u2 C0 C2 C3 C4 Ho P0 P1 P2 P3 P4.
    destruct (decide (0 < o)) as [Hp|Hn].
    + right. repeat split; try lia; nia.
    + left. assert (o < 0) by lia. repeat split; try lia; nia.
Qed.

(** The same with the ghost vertex as end point: the centre [c] is then behind [p3]. *)
Lemma tri_ray p0 p1 p2 p3 c :
  let b := [- orient p1 p2 p3 c; - orient p2 p0 p3 c; - orient p0 p1 p3 c; - orient p0 p1 p2 c; orient p2 p1 p0 p3] in
  (Forall (λ x, 0 < x) b ∨ Forall (λ x, x < 0) b) ↔
  open_tri_meets_open_ray p0 p1 p2 p3 c ∧ orient p0 p1 p2 p3 ≠ 0.
Proof.
  intros b. unfold b. rewrite !Forall5. pose proof (seg_weights p0 p1 p2 p3 c) as [W1 W2].
  pose proof (orient_swap02 p0 p1 p2 p3) as S. split.
  - intros [(H0 & H1 & H2 & H3 & H4)|(H0 & H1 & H2 & H3 & H4)].
    + split; [|lia].
      exists (- orient p1 p2 p3 c), (- orient p2 p0 p3 c), (- orient p0 p1 p3 c), (- orient p0 p1 p2 c - orient p2 p1 p0 p3), (orient p2 p1 p0 p3).
      do 3 (split; [lia|]). split; [lia|]. split; [lia|]. split; [lia|].
      revert W1. clear. destruct p0, p1, p2, p3, c. rewrite !pt_eq. pts.
      intros (E1 & E2 & E3). split; [|split]; lia.
    + split; [|lia].
      exists (orient p1 p2 p3 c), (orient p2 p0 p3 c), (orient p0 p1 p3 c), (orient p0 p1 p2 c + orient p2 p1 p0 p3), (- orient p2 p1 p0 p3).
      do 3 (split; [lia|]). split; [lia|]. split; [lia|]. split; [lia|].
      revert W1. clear. destruct p0, p1, p2, p3, c. rewrite !pt_eq. pts.
      intros (E1 & E2 & E3). split; [|split]; lia.
  - intros [(a0 & a1 & a2 & k & t & P0 & P1 & P2 & P3 & P4 & Es & Ev) Ho].
    assert (a0 + a1 + a2 = (k + t) + (- t)) as Es' by lia.
    assert (vadd (vadd (vscale a0 p0) (vscale a1 p1)) (vscale a2 p2) = vadd (vscale (k + t) p3) (vscale (- t) c)) as Ev'.
    { rewrite Ev. clear. destruct p3, c. apply pt_eq. pts. split; [ring|]. split; ring. }
    pose proof (orient_comb _ _ _ _ _ _ _ _ _ _ Es' Ev') as C.
    pose proof (C p0 p1 p2) as C0. rewrite orient_same03, orient_same13, orient_same23 in C0.
    pose proof (C p0 p1 p3) as C2. rewrite orient_same03, orient_same13, orient_same23 in C2.
    pose proof (C p1 p2 p3) as C3. rewrite orient_same03, orient_same13, orient_same23 in C3.
    pose proof (C p2 p0 p3) as C4. rewrite orient_same03, orient_same13, orient_same23 in C4.
    assert (orient p0 p1 p3 p2 = - orient p0 p1 p2 p3) as S1 by apply orient_swap23.
    assert (orient p1 p2 p3 p0 = - orient p0 p1 p2 p3) as S2 by (clear; destruct p0, p1, p2, p3; geo; ring).
    assert (orient p2 p0 p3 p1 = - orient p0 p1 p2 p3) as S3 by (clear; destruct p0, p1, p2, p3; geo; ring).
    rewrite S1 in C2. rewrite S2 in C3. rewrite S3 in C4. rewrite S.
    revert C0 C2 C3 C4 Ho P0 P1 P2 P3 P4. clear.
    generalize (orient p0 p1 p2 p3) (orient p0 p1 p2 c) (orient p0 p1 p3 c) (orient p1 p2 p3 c) (orient p2 p0 p3 c).
    intros o o4 u0 u1 u2 C0 C2 C3 C4 Ho P0 P1 P2 P3 P4.
    destruct (decide (0 < o)) as [Hp|Hn].
    + right. repeat split; try lia; nia.
    + left. assert (o < 0) by lia. repeat split; try lia; nia.
Qed.

(** ** Points and tets. *)
Lemma tet_weights p0 p1 p2 p3 p :
  vadd (vadd (vadd (vscale (orient p p1 p2 p3) p0) (vscale (orient p0 p p2 p3) p1)) (vscale (orient p0 p1 p p3) p2)) (vscale (orient p0 p1 p2 p) p3) =
  vscale (orient p0 p1 p2 p3) p.
Proof. destruct p0, p1, p2, p3, p. apply pt_eq. geo. split; [ring|]. split; ring. Qed.

(** Barycentric coordinates of the affine combinations. *)
Lemma tet_coords a0 a1 a2 a3 p0 p1 p2 p3 p :
  vadd (vadd (vadd (vscale a0 p0) (vscale a1 p1)) (vscale a2 p2)) (vscale a3 p3) = vscale (a0 + a1 + a2 + a3) p →
  (a0 + a1 + a2 + a3) * orient p p1 p2 p3 = a0 * orient p0 p1 p2 p3 ∧
  (a0 + a1 + a2 + a3) * orient p0 p p2 p3 = a1 * orient p0 p1 p2 p3 ∧
  (a0 + a1 + a2 + a3) * orient p0 p1 p p3 = a2 * orient p0 p1 p2 p3 ∧
  (a0 + a1 + a2 + a3) * orient p0 p1 p2 p = a3 * orient p0 p1 p2 p3.
Proof.
  intros E. set (S := a0 + a1 + a2 + a3) in *.
  assert (∀ x y z, a0 * orient x y z p0 + a1 * orient x y z p1 + a2 * orient x y z p2 + a3 * orient x y z p3 = S * orient x y z p) as C.
  { apply pt_eq in E as (E1 & E2 & E3). intros [xx xy xz] [yx yy yz] [zx zy zz].
    destruct p0 as [x0 y0 z0], p1 as [x1 y1 z1], p2 as [x2 y2 z2], p3 as [x3 y3 z3], p as [x4 y4 z4].
    geo. apply Z.sub_move_0_r in E1, E2, E3.
    set (A := (yy - xy) * (zz - xz) - (yz - xz) * (zy - xy)). set (B := (yz - xz) * (zx - xx) - (yx - xx) * (zz - xz)).
    set (C := (yx - xx) * (zy - xy) - (yy - xy) * (zx - xx)).
    apply Z.sub_move_0_r.
    transitivity (- A * (a0 * x0 + a1 * x1 + a2 * x2 + a3 * x3 - S * x4) - B * (a0 * y0 + a1 * y1 + a2 * y2 + a3 * y3 - S * y4)
      - C * (a0 * z0 + a1 * z1 + a2 * z2 + a3 * z3 - S * z4) + (A * xx + B * xy + C * xz) * (a0 + a1 + a2 + a3 - S)); [ring|].
    rewrite E1, E2, E3. unfold S. ring. }
  pose proof (C p1 p2 p3) as C0. rewrite orient_same03, orient_same13, orient_same23 in C0.
  pose proof (C p0 p2 p3) as C1. rewrite orient_same03, orient_same13, orient_same23 in C1.
  pose proof (C p0 p1 p3) as C2. rewrite orient_same03, orient_same13, orient_same23 in C2.
  pose proof (C p0 p1 p2) as C3. rewrite orient_same03, orient_same13, orient_same23 in C3.
  assert (∀ a b c d, orient b c d a = - orient a b c d) as R1 by (clear; intros [] [] [] []; geo; ring).
  assert (∀ a b c d, orient a c d b = orient a b c d) as R2 by (clear; intros [] [] [] []; geo; ring).
  assert (∀ a b c d, orient a b d c = - orient a b c d) as R3 by (clear; intros [] [] [] []; geo; ring).
  rewrite (R1 p0), (R1 p) in C0. rewrite (R2 p0 p1), (R2 p0 p) in C1. rewrite (R3 p0 p1 p2), (R3 p0 p1 p) in C2.
  clear -C0 C1 C2 C3. lia.
Qed.

Lemma in_closed_iff p0 p1 p2 p3 p : 0 < orient p0 p1 p2 p3 →
  in_closed_tet p0 p1 p2 p3 p ↔
  0 ≤ orient p p1 p2 p3 ∧ 0 ≤ orient p0 p p2 p3 ∧ 0 ≤ orient p0 p1 p p3 ∧ 0 ≤ orient p0 p1 p2 p.
Proof.
  intros Ho. split.
  - intros (a0 & a1 & a2 & a3 & P0 & P1 & P2 & P3 & PS & E). apply tet_coords in E.
    revert E Ho PS. generalize (a0 + a1 + a2 + a3) (orient p0 p1 p2 p3) (orient p p1 p2 p3) (orient p0 p p2 p3) (orient p0 p1 p p3) (orient p0 p1 p2 p).
    clear -P0 P1 P2 P3. intros s o b0 b1 b2 b3 (E0 & E1 & E2 & E3) Ho Hs. repeat split; nia.
  - intros (P0 & P1 & P2 & P3). exists (orient p p1 p2 p3), (orient p0 p p2 p3), (orient p0 p1 p p3), (orient p0 p1 p2 p).
    do 4 (split; [done|]). rewrite <- orient_five. split; [done|]. apply tet_weights.
Qed.
Lemma in_open_iff p0 p1 p2 p3 p : 0 < orient p0 p1 p2 p3 →
  in_open_tet p0 p1 p2 p3 p ↔
  0 < orient p p1 p2 p3 ∧ 0 < orient p0 p p2 p3 ∧ 0 < orient p0 p1 p p3 ∧ 0 < orient p0 p1 p2 p.
Proof.
  intros Ho. split.
  - intros (a0 & a1 & a2 & a3 & P0 & P1 & P2 & P3 & E). assert (0 < a0 + a1 + a2 + a3) as PS by lia. apply tet_coords in E.
    revert E Ho PS. generalize (a0 + a1 + a2 + a3) (orient p0 p1 p2 p3) (orient p p1 p2 p3) (orient p0 p p2 p3) (orient p0 p1 p p3) (orient p0 p1 p2 p).
    clear -P0 P1 P2 P3. intros s o b0 b1 b2 b3 (E0 & E1 & E2 & E3) Ho Hs. repeat split; nia.
  - intros (P0 & P1 & P2 & P3). exists (orient p p1 p2 p3), (orient p0 p p2 p3), (orient p0 p1 p p3), (orient p0 p1 p2 p).
    do 4 (split; [done|]). rewrite <- orient_five. apply tet_weights.
Qed.
