(** Distances to planes and between lines, by exact arithmetic. *)
From stdpp Require Import base numbers list option.
From Coq Require Import NArith ZArith Lia.
From Verif Require Import IdMapModel WalkerModel WalkerSpec WalkerProofs MeshModel GeoModel GeoSpec GeoProofs UtilModel QualModel TolModel TolSpec.
Local Open Scope Z_scope.

Lemma sq_nonneg x : 0 ≤ x → sq x = x * x.
Proof. intros H. unfold sq. rewrite Z.abs_eq; done. Qed.
Lemma sq_neg x : x < 0 → sq x < 0.
Proof. intros H. unfold sq. nia. Qed.

Lemma norm2_nonneg v : 0 ≤ norm2 v.
Proof. destruct v. geo. nia. Qed.
Lemma norm2_zero v : norm2 v = 0 ↔ v = Pt 0 0 0.
Proof. destruct v as [x y z]. geo. split; [intros H; f_equal; nia|intros [= -> -> ->]; done]. Qed.
(** Cauchy-Schwarz. *)
Lemma cauchy n w : vdot n w * vdot n w ≤ norm2 n * norm2 w.
Proof.
  assert (norm2 n * norm2 w - vdot n w * vdot n w = norm2 (vcross n w)) as H by (destruct n, w; geo; ring).
  pose proof (norm2_nonneg (vcross n w)). lia.
Qed.

(** The vectors [w + span u v], in fractions. *)
Definition comb (k s t : Z) (w u v : pt) : pt := vadd (vscale k w) (vadd (vscale s u) (vscale t v)).
Lemma comb_normal k s t w u v : vdot (vcross u v) (comb k s t w u v) = k * vdot (vcross u v) w.
Proof. destruct w, u, v. unfold comb. geo. ring. Qed.
Lemma comb_foot w u v : let n := vcross u v in let x := vcross w n in
  comb (norm2 n) (vdot v x) (- vdot u x) w u v = vscale (vdot n w) n.
Proof. destruct w as [w1 w2 w3], u as [u1 u2 u3], v as [v1 v2 v3]. cbv zeta. unfold comb. apply pt_eq. geo. split; [ring|]. split; ring. Qed.
Lemma norm2_scale k v : norm2 (vscale k v) = k * k * norm2 v.
Proof. destruct v. geo. ring. Qed.

Lemma apart_iff tol w u v : let n := vcross u v in 0 < norm2 n →
  (∀ k s t, 0 < k → (tol * k) ^ 2 ≤ norm2 (comb k s t w u v)) ↔ tol * tol * norm2 n ≤ vdot n w * vdot n w.
Proof.
  intros n Hn. split.
  - intros H. specialize (H (norm2 n) (vdot v (vcross w n)) (- vdot u (vcross w n)) Hn).
    pose proof (comb_foot w u v) as E. cbv zeta in E. fold n in E. rewrite E, norm2_scale in H.
    revert H. generalize (vdot n w) (norm2 n) Hn. clear. intros d N HN H. nia.
  - intros H k s t Hk. pose proof (cauchy n (comb k s t w u v)) as C. unfold n in C at 1 2. rewrite comb_normal in C. fold n in C.
    revert C H Hn. generalize (norm2 (comb k s t w u v)) (vdot n w) (norm2 n). clear -Hk. intros X d N C H HN.
    assert (N * (tol * k) ^ 2 ≤ N * X); [|nia]. nia.
Qed.
(** The opposite: some vector is short. *)
Lemma near_iff tol w u v : let n := vcross u v in 0 < norm2 n →
  (∃ k s t, 0 < k ∧ norm2 (comb k s t w u v) < (tol * k) ^ 2) ↔ vdot n w * vdot n w < tol * tol * norm2 n.
Proof.
  intros n Hn. split.
  - intros (k & s & t & Hk & H). apply Z.nle_gt. intros H'. apply (proj2 (apart_iff tol w u v Hn)) with (k := k) (s := s) (t := t) in H'; [|done]. lia.
  - intros H. exists (norm2 n), (vdot v (vcross w n)), (- vdot u (vcross w n)). split; [done|].
    pose proof (comb_foot w u v) as E. cbv zeta in E. fold n in E. rewrite E, norm2_scale.
    revert H. generalize (vdot n w) (norm2 n) Hn. clear. intros d N HN H. nia.
Qed.

Definition nrm (a b c : pt) : pt := vcross (vsub b a) (vsub c a).
Lemma nrm_area a b c : norm2 (nrm a b c) = area2 a b a c.
Proof. done. Qed.
Lemma nrm_orient a b c p : vdot (nrm a b c) (vsub p a) = - orient a b c p.
Proof. unfold orient, nrm. ring. Qed.

Lemma far_plane_iff tol a b c p : 0 < area2 a b a c →
  far_from_plane tol a b c p ↔ tol * tol * area2 a b a c ≤ orient a b c p * orient a b c p.
Proof.
  intros Hn. pose proof (apart_iff tol (vsub p a) (vsub b a) (vsub c a) Hn) as H. cbv zeta in H.
  fold (nrm a b c) in H. rewrite nrm_orient in H. rewrite Z.mul_opp_opp in H. rewrite nrm_area in H. rewrite <- H. clear H. split.
  - intros H k s t Hk. specialize (H (k + s + t) (- s) (- t)).
    assert (dist2 (vscale (k + s + t + - s + - t) p) (weigh3 (k + s + t) (- s) (- t) a b c) = norm2 (comb k s t (vsub p a) (vsub b a) (vsub c a))) as E.
    { destruct p, a, b, c. unfold weigh3, comb. geo. ring. }
    rewrite E in H. replace (k + s + t + - s + - t) with k in H by ring. by apply H.
  - intros H i j l Hs. specialize (H (i + j + l) (- j) (- l) Hs). 
    assert (dist2 (vscale (i + j + l) p) (weigh3 i j l a b c) = norm2 (comb (i + j + l) (- j) (- l) (vsub p a) (vsub b a) (vsub c a))) as ->; [|done].
    destruct p, a, b, c. unfold weigh3, comb. geo. ring.
Qed.
Lemma near_plane_iff tol a b c p : 0 < area2 a b a c →
  near_plane tol a b c p ↔ orient a b c p * orient a b c p < tol * tol * area2 a b a c.
Proof.
  intros Hn. pose proof (far_plane_iff tol a b c p Hn) as H. split.
  - intros (i & j & l & Hs & Hd). apply Z.nle_gt. intros H'. apply H in H'. specialize (H' i j l Hs). lia.
  - intros Hlt. pose proof (near_iff tol (vsub p a) (vsub b a) (vsub c a) Hn) as H'. cbv zeta in H'.
    fold (nrm a b c) in H'. rewrite nrm_orient, Z.mul_opp_opp, nrm_area in H'. apply H' in Hlt as (k & s & t & Hk & Hd).
    exists (k + s + t), (- s), (- t). replace (k + s + t + - s + - t) with k by ring. split; [done|].
    assert (dist2 (vscale k p) (weigh3 (k + s + t) (- s) (- t) a b c) = norm2 (comb k s t (vsub p a) (vsub b a) (vsub c a))) as ->; [|done].
    destruct p, a, b, c. unfold weigh3, comb. geo. ring.
Qed.
Lemma far_lines_iff tol a b c d : 0 < area2 a b c d →
  far_lines tol a b c d ↔ tol * tol * area2 a b c d ≤ orient a b c d * orient a b c d.
Proof.
  intros Hn. pose proof (apart_iff tol (vsub a c) (vsub b a) (vsub d c) Hn) as H. cbv zeta in H.
  assert (vdot (vcross (vsub b a) (vsub d c)) (vsub a c) * vdot (vcross (vsub b a) (vsub d c)) (vsub a c) = orient a b c d * orient a b c d) as E
    by (destruct a, b, c, d; geo; ring).
  rewrite E in H. clear E. fold (area2 a b c d) in H. rewrite <- H. clear H. split.
  - intros H k s t Hk. specialize (H (k - s) s (k + t) (- t)). replace (k - s + s) with k in H by ring.
    assert (dist2 (weigh2 (k - s) s a b) (weigh2 (k + t) (- t) c d) = norm2 (comb k s t (vsub a c) (vsub b a) (vsub d c))) as E.
    { destruct a, b, c, d. unfold weigh2, comb. geo. ring. }
    rewrite E in H. apply H; lia.
  - intros H i j i' j' Hs E. specialize (H (i + j) j (- j') Hs).
    assert (dist2 (weigh2 i j a b) (weigh2 i' j' c d) = norm2 (comb (i + j) j (- j') (vsub a c) (vsub b a) (vsub d c))) as ->; [|done].
    assert (i' = i + j - j') as -> by lia. destruct a, b, c, d. unfold weigh2, comb. geo. ring.
Qed.

(** ** The seven areas. *)
Lemma area_pos a b c d p : vdot (vcross (vsub b a) (vsub d c)) p ≠ 0 → 0 < area2 a b c d.
Proof.
  intros H. pose proof (norm2_nonneg (vcross (vsub b a) (vsub d c))) as Hn. unfold area2.
  apply Z.lt_eq_cases in Hn as [Hn|Hn]; [done|]. symmetry in Hn. apply norm2_zero in Hn. rewrite Hn in H.
  exfalso. apply H. destruct p. geo. ring.
Qed.
Lemma tri_area_pos a b c d : orient a b c d ≠ 0 → 0 < area2 a b a c.
Proof. intros H. apply (area_pos a b a c (vsub d a)). fold (nrm a b c). rewrite nrm_orient. lia. Qed.
Lemma line_area_pos a b c d : orient a b c d ≠ 0 → 0 < area2 a b c d.
Proof.
  intros H. apply (area_pos a b c d (vsub a c)). intros E. apply H. transitivity (- vdot (vcross (vsub b a) (vsub d c)) (vsub a c)); [|lia].
  destruct a, b, c, d. geo. ring.
Qed.

Definition areas (x : arr4 pt) : list Z :=
  let '(A4 p0 p1 p2 p3) := x in
  [area2 p1 p2 p1 p3; area2 p0 p2 p0 p3; area2 p0 p1 p0 p3; area2 p0 p1 p0 p2;
   area2 p0 p1 p2 p3; area2 p0 p2 p1 p3; area2 p0 p3 p1 p2].
Lemma area2_swap12 a b c d : area2 b a c d = area2 a b c d.
Proof. destruct a, b, c, d. unfold area2. geo. ring. Qed.
Lemma area2_swap34 a b c d : area2 a b d c = area2 a b c d.
Proof. destruct a, b, c, d. unfold area2. geo. ring. Qed.
Lemma area2_swap a b c d : area2 c d a b = area2 a b c d.
Proof. destruct a, b, c, d. unfold area2. geo. ring. Qed.
Lemma tri2_swap a b c : area2 b a b c = area2 a b a c.
Proof. destruct a, b, c. unfold area2. geo. ring. Qed.
Lemma tri2_swap' a b c : area2 a c a b = area2 a b a c.
Proof. apply area2_swap. Qed.

Lemma tri2_all a b c : area2 a c a b = area2 a b a c ∧ area2 b a b c = area2 a b a c ∧ area2 b c b a = area2 a b a c ∧
  area2 c a c b = area2 a b a c ∧ area2 c b c a = area2 a b a c.
Proof.
  split; [apply tri2_swap'|]. split; [apply tri2_swap|]. split; [by rewrite tri2_swap', tri2_swap|].
  split; [by rewrite tri2_swap, tri2_swap'|]. by rewrite tri2_swap', tri2_swap, tri2_swap'.
Qed.
Lemma line2_all a b c d : area2 b a c d = area2 a b c d ∧ area2 a b d c = area2 a b c d ∧ area2 b a d c = area2 a b c d ∧
  area2 c d a b = area2 a b c d ∧ area2 d c a b = area2 a b c d ∧ area2 c d b a = area2 a b c d ∧ area2 d c b a = area2 a b c d.
Proof.
  split; [apply area2_swap12|]. split; [apply area2_swap34|]. split; [by rewrite area2_swap12, area2_swap34|].
  split; [apply area2_swap|]. split; [by rewrite area2_swap12, area2_swap|]. split; [by rewrite area2_swap34, area2_swap|].
  by rewrite area2_swap12, area2_swap34, area2_swap.
Qed.

Lemma areas_reorder x σ : even_perm σ → ∀ z, z ∈ areas (reorder x σ) ↔ z ∈ areas x.
Proof.
  intros [p ->]%even_perms_enum z. destruct x as [p0 p1 p2 p3].
  destruct (tri2_all p1 p2 p3) as (a1 & a2 & a3 & a4 & a5). destruct (tri2_all p0 p2 p3) as (b1 & b2 & b3 & b4 & b5).
  destruct (tri2_all p0 p1 p3) as (c1 & c2 & c3 & c4 & c5). destruct (tri2_all p0 p1 p2) as (d1 & d2 & d3 & d4 & d5).
  destruct (line2_all p0 p1 p2 p3) as (e1 & e2 & e3 & e4 & e5 & e6 & e7). destruct (line2_all p0 p2 p1 p3) as (f1 & f2 & f3 & f4 & f5 & f6 & f7).
  destruct (line2_all p0 p3 p1 p2) as (g1 & g2 & g3 & g4 & g5 & g6 & g7).
  destruct p; cbv [perm_digits reorder get4 nth areas q0 q1 q2 q3];
    rewrite ?a1, ?a2, ?a3, ?a4, ?a5, ?b1, ?b2, ?b3, ?b4, ?b5, ?c1, ?c2, ?c3, ?c4, ?c5, ?d1, ?d2, ?d3, ?d4, ?d5,
      ?e1, ?e2, ?e3, ?e4, ?e5, ?e6, ?e7, ?f1, ?f2, ?f3, ?f4, ?f5, ?f6, ?f7, ?g1, ?g2, ?g3, ?g4, ?g5, ?g6, ?g7;
    rewrite !elem_of_cons; tauto.
Qed.

(** All opposite elements are far apart: a bound on the areas. *)
Lemma opposites_iff tol p0 p1 p2 p3 : orient p0 p1 p2 p3 ≠ 0 →
  opposites_far tol p0 p1 p2 p3 ↔ ∀ z, z ∈ areas (A4 p0 p1 p2 p3) → tol * tol * z ≤ orient p0 p1 p2 p3 * orient p0 p1 p2 p3.
Proof.
  intros Ho. unfold opposites_far.
  assert (orient p1 p2 p3 p0 = - orient p0 p1 p2 p3) as E0 by (clear; destruct p0, p1, p2, p3; geo; ring).
  assert (orient p0 p2 p3 p1 = orient p0 p1 p2 p3) as E1 by (clear; destruct p0, p1, p2, p3; geo; ring).
  assert (orient p0 p1 p3 p2 = - orient p0 p1 p2 p3) as E2 by (clear; destruct p0, p1, p2, p3; geo; ring).
  assert (orient p0 p2 p1 p3 = - orient p0 p1 p2 p3) as E5 by (clear; destruct p0, p1, p2, p3; geo; ring).
  assert (orient p0 p3 p1 p2 = orient p0 p1 p2 p3) as E6 by (clear; destruct p0, p1, p2, p3; geo; ring).
  rewrite (far_plane_iff tol p1 p2 p3 p0) by (apply (tri_area_pos p1 p2 p3 p0); lia).
  rewrite (far_plane_iff tol p0 p2 p3 p1) by (apply (tri_area_pos p0 p2 p3 p1); lia).
  rewrite (far_plane_iff tol p0 p1 p3 p2) by (apply (tri_area_pos p0 p1 p3 p2); lia).
  rewrite (far_plane_iff tol p0 p1 p2 p3) by (apply (tri_area_pos p0 p1 p2 p3); lia).
  rewrite (far_lines_iff tol p0 p1 p2 p3) by (apply line_area_pos; lia).
  rewrite (far_lines_iff tol p0 p2 p1 p3) by (apply line_area_pos; lia).
  rewrite (far_lines_iff tol p0 p3 p1 p2) by (apply line_area_pos; lia).
  rewrite E0, E1, E2, E5, E6, Z.mul_opp_opp. generalize (orient p0 p1 p2 p3 * orient p0 p1 p2 p3). clear. intros B. unfold areas. split.
  - intros (H0 & H1 & H2 & H3 & H4 & H5 & H6) z Hz. rewrite !elem_of_cons, elem_of_nil in Hz.
    destruct Hz as [-> | [-> | [-> | [-> | [-> | [-> | [-> | []]]]]]]]; done.
  - intros H. repeat split; apply H; rewrite !elem_of_cons; tauto.
Qed.
