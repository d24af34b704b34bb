(** Property C58: the tests against the tolerance, and the functions that go with them. *)
From stdpp Require Import base numbers list gmap option.
From Coq Require Import NArith ZArith Lia.
From Verif Require Import IdMapModel WalkerModel WalkerSpec WalkerProofs SortProofs MeshModel MeshSpec GeoModel GeoSpec GeoProofs UtilModel IterModel
  QualModel QualProofs WalkerMore PropQual HistSpec HistCheck PropMesh DelModel TolModel TolSpec TolOk.
From Verif Require Import MeshOps History NewMesh Reach.
Local Open Scope Z_scope.

(** ** Preliminaries. *)
Definition xok (a : xn) : Prop := match a with XSq _ q => 0 < q | XNan => False | _ => True end.
Lemma xlt_trans a b c : xok a → xok b → xok c → xlt a b = true → xlt b c = true → xlt a c = true.
Proof.
  destruct a as [| | |p q], b as [| | |p' q'], c as [| | |p'' q'']; cbn; try done.
  rewrite !Z.ltb_lt. intros Hq Hq' Hq'' H H'. nia.
Qed.
Lemma xlt_ge_trans a b c : xok a → xok b → xok c → xlt a b = false → xlt a c = true → xlt b c = true.
Proof.
  destruct a as [| | |p q], b as [| | |p' q'], c as [| | |p'' q'']; cbn; try done.
  rewrite Z.ltb_ge, !Z.ltb_lt. intros Hq Hq' Hq'' H H'. nia.
Qed.
Lemma xmax_ok a b : xok a → xok b → xok (xmax a b).
Proof. intros Ha Hb. unfold xmax. destruct (xnan a); [done|]. destruct (xnan b); [done|]. by destruct (xlt a b). Qed.
Lemma xmax_lt a b c : xok a → xok b → xok c → xlt (xmax a b) c = true ↔ xlt a c = true ∧ xlt b c = true.
Proof.
  intros Ha Hb Hc. unfold xmax. assert (xnan a = false) as -> by (by destruct a). assert (xnan b = false) as -> by (by destruct b).
  destruct (xlt a b) eqn:E.
  - split; [|by intros []]. intros H. split; [|done]. by apply (xlt_trans a b c).
  - split; [|by intros []]. intros H. split; [done|]. by apply (xlt_ge_trans a b c).
Qed.

Lemma max_areas l : l ≠ [] → ∃ z, max_by (λ a b, negb (xlt b a)) (map (λ z, XSq z 1) l) = Some (XSq z 1) ∧ z ∈ l ∧ ∀ y, y ∈ l → y ≤ z.
Proof.
  destruct l as [|x l]; [done|]. intros _. unfold max_by. cbn [map]. revert x. induction l as [|y l IH]; intros x.
  - exists x. split; [done|]. split; [by left|]. intros y ->%elem_of_list_singleton. lia.
  - cbn [map fold_left xlt]. destruct (y * 1 <? x * 1) eqn:E; cbn [negb].
    + apply Z.ltb_lt in E. destruct (IH x) as (z & Hz & Hin & Hle). exists z. split; [done|]. split.
      * apply elem_of_cons in Hin as [->|Hin]; [by left|]. right. by right.
      * intros y' [->|[->|Hy]%elem_of_cons]%elem_of_cons; [apply Hle; by left| |apply Hle; by right].
        assert (x ≤ z) by (apply Hle; by left). lia.
    + apply Z.ltb_ge in E. destruct (IH y) as (z & Hz & Hin & Hle). exists z. split; [done|]. split.
      * by right.
      * intros y' [->|Hy]%elem_of_cons; [|by apply Hle]. assert (y ≤ z) by (apply Hle; by left). lia.
Qed.

Lemma idx_vpos {V T} (m : mesh V T) v : v ≠ GHOST → idx_ori m v = vpos m v.
Proof. intros H. unfold idx_ori. by rewrite (proj2 (N.eqb_neq _ _) H). Qed.
Lemma vpos_idx {V T} (m : mesh V T) v p : vpos m v = Some p → im_get (m_verts m) GHOST = None → idx_ori m v = Some p.
Proof. intros H Hg. rewrite idx_vpos; [done|]. intros ->. unfold vpos in H. by rewrite Hg in H. Qed.

Lemma collinear_area a b c : collinear a b c ↔ area2 a b a c = 0.
Proof.
  unfold collinear, area2. rewrite norm2_zero.
  destruct a as [ax ay az], b as [bx b_y bz], c as [cx cy cz]. unfold vcross, vsub, vscale; cbn [px py pz].
  generalize (bx - ax) (b_y - ay) (bz - az) (cx - ax) (cy - ay) (cz - az). clear. intros u1 u2 u3 v1 v2 v3. split.
  - intros (i & j & Hij & [= E1 E2 E3]). 
    assert (i * (u2 * v3 - u3 * v2) = 0) by (transitivity ((i * u2) * v3 - (i * u3) * v2); [ring|]; rewrite E2, E3; ring).
    assert (i * (u3 * v1 - u1 * v3) = 0) by (transitivity ((i * u3) * v1 - (i * u1) * v3); [ring|]; rewrite E1, E3; ring).
    assert (i * (u1 * v2 - u2 * v1) = 0) by (transitivity ((i * u1) * v2 - (i * u2) * v1); [ring|]; rewrite E1, E2; ring).
    assert (j * (u2 * v3 - u3 * v2) = 0) by (transitivity (u2 * (j * v3) - u3 * (j * v2)); [ring|]; rewrite <- E2, <- E3; ring).
    assert (j * (u3 * v1 - u1 * v3) = 0) by (transitivity (u3 * (j * v1) - u1 * (j * v3)); [ring|]; rewrite <- E1, <- E3; ring).
    assert (j * (u1 * v2 - u2 * v1) = 0) by (transitivity (u1 * (j * v2) - u2 * (j * v1)); [ring|]; rewrite <- E1, <- E2; ring).
    destruct Hij as [Hi|Hj]; f_equal; nia.
  - intros [= E1 E2 E3]. destruct (decide (u1 = 0)) as [->|H1].
    + destruct (decide (u2 = 0)) as [->|H2].
      * destruct (decide (u3 = 0)) as [->|H3].
        -- exists 1, 0. split; [by left|]. f_equal; ring.
        -- exists v3, u3. split; [by right|]. f_equal; lia.
      * exists v2, u2. split; [by right|]. f_equal; lia.
    + exists v1, u1. split; [by right|]. f_equal; lia.
Qed.
Lemma area2_nonneg a b c d : 0 ≤ area2 a b c d.
Proof. apply norm2_nonneg. Qed.

(** ** The normal of a triangle. *)
Theorem C58_normal {V T} (m : mesh V T) v0 v1 v2 p0 p1 p2 :
  vpos m v0 = Some p0 → vpos m v1 = Some p1 → vpos m v2 = Some p2 →
  ∃ n, tri_normal m v0 v1 v2 = Some n ∧
    vdot n (vsub p1 p0) = 0 ∧ vdot n (vsub p2 p0) = 0 ∧
    (∀ p, orient p0 p1 p2 p = - vdot n (vsub p p0)) ∧
    (n = Pt 0 0 0 ↔ collinear p0 p1 p2) ∧
    tri_normal m v1 v2 v0 = Some n ∧ tri_normal m v1 v0 v2 = Some (vscale (-1) n).
Proof.
  intros E0 E1 E2. exists (nrm p0 p1 p2). unfold tri_normal. rewrite E0, E1, E2. cbn [mbind option_bind].
  split; [done|].
  split; [destruct p0, p1, p2; unfold nrm; geo; ring|]. split; [destruct p0, p1, p2; unfold nrm; geo; ring|].
  split; [done|]. split; [|split].
  - rewrite collinear_area. unfold area2. by rewrite norm2_zero.
  - f_equal. destruct p0, p1, p2. apply pt_eq. unfold nrm, orient_2d. cbn. lia.
  - f_equal. destruct p0, p1, p2. apply pt_eq. unfold nrm, orient_2d. cbn. lia.
Qed.
Print Assumptions C58_normal.

(** ** [non_sliver]. *)
Theorem C58_non_sliver {V T} nan sim tol (m : mesh V T) v0 v1 v2 v3 p0 p1 p2 p3 : 0 ≤ tol →
  GHOST ∉ [v0; v1; v2; v3] →
  vpos m v0 = Some p0 → vpos m v1 = Some p1 → vpos m v2 = Some p2 → vpos m v3 = Some p3 →
  ∃ b, non_sliver nan sim tol m v0 v1 v2 v3 = Some b ∧
    (b = true ↔ 0 < orient p0 p1 p2 p3 ∧ opposites_far tol p0 p1 p2 p3).
Proof.
  intros Ht Hg E0 E1 E2 E3. unfold non_sliver, quality.
  destruct (has_ghost [v0; v1; v2; v3]) eqn:Eg; [by apply has_ghost_true in Eg|]. clear Eg.
  rewrite !not_elem_of_cons in Hg. destruct Hg as (g0 & g1 & g2 & g3 & _).
  destruct (even_sorted_4_even (A4 v0 v1 v2 v3)) as (σ & Hσ & ->).
  pose proof (orient_reorder (A4 p0 p1 p2 p3) σ Hσ) as Ho. pose proof (areas_reorder (A4 p0 p1 p2 p3) σ Hσ) as Ha. cbv zeta in Ho.
  assert (∀ k, idx_ori m (get4 (A4 v0 v1 v2 v3) k) = Some (get4 (A4 p0 p1 p2 p3) k)) as Hk
    by (intros [|[|[|[|k]]]]; cbn; rewrite idx_vpos by done; done).
  unfold reorder at 1. rewrite !Hk. cbn [mbind option_bind]. unfold reorder in Ho, Ha. cbn [q0 q1 q2 q3] in Ho.
  revert Ho Ha. generalize (get4 (A4 p0 p1 p2 p3) (nth 0 σ 0%nat)) (get4 (A4 p0 p1 p2 p3) (nth 1 σ 0%nat)) (get4 (A4 p0 p1 p2 p3) (nth 2 σ 0%nat)) (get4 (A4 p0 p1 p2 p3) (nth 3 σ 0%nat)).
  intros y0 y1 y2 y3 Ho Ha. cbn [qa_orient qa_nonpos exact_q xint]. rewrite Ho.
  destruct (sq (orient p0 p1 p2 p3) <=? 0) eqn:En.
  - apply Z.leb_le in En. cbn [mbind option_bind]. eexists. split; [done|]. cbn [qa_neg exact_q]. 
    assert (orient p0 p1 p2 p3 ≤ 0) as Hle. { unfold sq in En. nia. }
    unfold xge, xint. cbn [xnan negb andb xlt]. rewrite (sq_nonneg tol) by done. change (sq (-1)) with (-1).
    rewrite negb_true_iff, Z.ltb_ge. split; [nia|]. intros [H _]. lia.
  - apply Z.leb_gt in En. assert (0 < orient p0 p1 p2 p3) as Hp. { unfold sq in En. nia. }
    destruct (max_areas [area2 y0 y1 y0 y2; area2 y3 y2 y3 y1; area2 y2 y3 y2 y0; area2 y1 y0 y1 y3; area2 y0 y1 y2 y3; area2 y0 y2 y1 y3; area2 y0 y3 y1 y2])
      as (z & Hz & Hin & Hmax); [done|].
    assert (qa_max_area (exact_q nan sim) y0 y1 y2 y3 = Some (XSq z 1)) as -> by exact Hz. cbn [mbind option_bind qa_div exact_q].
    eexists. split; [done|]. rewrite (opposites_iff tol p0 p1 p2 p3) by lia.
    assert (∀ x, x ∈ [area2 y0 y1 y0 y2; area2 y3 y2 y3 y1; area2 y2 y3 y2 y0; area2 y1 y0 y1 y3; area2 y0 y1 y2 y3; area2 y0 y2 y1 y3; area2 y0 y3 y1 y2] ↔
      x ∈ areas (A4 p0 p1 p2 p3)) as Hl.
    { intros x. rewrite <- Ha. unfold areas.
      destruct (tri2_all y1 y2 y3) as (_ & _ & _ & _ & a5). destruct (tri2_all y0 y2 y3) as (_ & _ & b3 & _).
      destruct (tri2_all y0 y1 y3) as (_ & c2 & _). rewrite a5, b3, c2. rewrite !elem_of_cons. tauto. }
    assert (xge (XSq (sq (orient p0 p1 p2 p3) * 1) (1 * z)) (xint tol) = true ↔ tol * tol * z ≤ orient p0 p1 p2 p3 * orient p0 p1 p2 p3) as ->.
    { unfold xge, xint. cbn [xnan negb andb xlt]. rewrite negb_true_iff, Z.ltb_ge, (sq_nonneg tol), (sq_nonneg (orient p0 p1 p2 p3)) by lia. lia. }
    split.
    + intros H. split; [done|]. intros x Hx. apply Hl, Hmax in Hx. revert H Hx. generalize (orient p0 p1 p2 p3). clear -Ht. intros o H Hx.
      assert (tol * tol * x ≤ tol * tol * z); [|lia]. apply Z.mul_le_mono_nonneg_l; [nia|done].
    + intros [_ H]. apply H. by apply Hl.
Qed.
Print Assumptions C58_non_sliver.

(** With the ghost vertex only the orientation counts. *)
Theorem C58_non_sliver_ghost {V T} nan sim tol (m : mesh V T) v0 v1 v2 v3 p0 p1 p2 p3 : 0 ≤ tol →
  GHOST ∈ [v0; v1; v2; v3] → nan (m_center m) = false →
  idx_ori m v0 = Some p0 → idx_ori m v1 = Some p1 → idx_ori m v2 = Some p2 → idx_ori m v3 = Some p3 →
  non_sliver nan sim tol m v0 v1 v2 v3 = orient_3d_sim sim m v0 v1 v2 v3.
Proof.
  intros Ht Hg Hn E0 E1 E2 E3. unfold non_sliver, quality, orient_3d_sim.
  assert (has_ghost [v0; v1; v2; v3] = true) as -> by (by apply has_ghost_true). cbn [qa_nan qa_sim qa_inf qa_neg exact_q]. rewrite Hn, E0, E1, E2, E3. cbn [mbind option_bind].
  f_equal. destruct (sim _ _ _ _); cbn [negb]; [|done].
  unfold xge, xint. cbn [xnan negb andb xlt]. rewrite (sq_nonneg tol) by done. rewrite negb_false_iff, Z.ltb_lt. change (sq (-1)) with (-1). nia.
Qed.
Print Assumptions C58_non_sliver_ghost.

(** ** [tet_close_to_vertex]. *)
Lemma plane_dist_lt tol a b c p : 0 < tol → 0 < area2 a b a c →
  xok (plane_dist a b c p) ∧ (xlt (plane_dist a b c p) (xint tol) = true ↔ 0 < orient a b c p ∨ near_plane tol a b c p).
Proof.
  intros Ht Ha. unfold plane_dist. fold (nrm a b c). rewrite nrm_orient, nrm_area. rewrite (proj2 (Z.eqb_neq _ _)) by lia. split; [done|].
  unfold xint. cbn [xlt]. rewrite Z.ltb_lt, near_plane_iff by done. rewrite (sq_nonneg tol) by lia.
  destruct (decide (0 < orient a b c p)) as [Ho|Ho].
  - pose proof (sq_neg (- orient a b c p)). split; [by left|]. intros _. assert (0 < tol * tol * area2 a b a c) by (assert (0 < tol * tol) by nia; nia). lia.
  - rewrite sq_nonneg by lia. split; [intros H; right; lia|]. intros [H|H]; lia.
Qed.
Lemma near_plane_rot tol a b c p : 0 < area2 a b a c → near_plane tol b c a p ↔ near_plane tol a b c p.
Proof.
  intros Ha. destruct (tri2_all a b c) as (_ & _ & E & _). rewrite (near_plane_iff tol a b c), (near_plane_iff tol b c a) by (rewrite ?E; done).
  rewrite E. assert (orient b c a p = orient a b c p) as -> by (clear; destruct a, b, c, p; geo; ring). done.
Qed.
Lemma near_plane_swap tol a b c p : 0 < area2 a b a c → near_plane tol b a c p ↔ near_plane tol a b c p.
Proof.
  intros Ha. destruct (tri2_all a b c) as (_ & E & _). rewrite (near_plane_iff tol a b c), (near_plane_iff tol b a c) by (rewrite ?E; done).
  rewrite E, orient_swap01, Z.mul_opp_opp. done.
Qed.

(** A solid tet, and any vertex: each face has the vertex on its inner side, or its plane is near. *)
Theorem C58_close {V T} tol (m : mesh V T) v0 v1 v2 v3 v4 p0 p1 p2 p3 p4 : 0 < tol →
  GHOST ∉ [v0; v1; v2; v3; v4] →
  vpos m v0 = Some p0 → vpos m v1 = Some p1 → vpos m v2 = Some p2 → vpos m v3 = Some p3 → vpos m v4 = Some p4 →
  0 < orient p0 p1 p2 p3 →
  ∃ b, tet_close_to_vertex tol m v0 v1 v2 v3 v4 = Some b ∧
    (b = true ↔
      (same_side p1 p2 p3 p4 p0 ∨ near_plane tol p1 p2 p3 p4) ∧ (same_side p0 p2 p3 p4 p1 ∨ near_plane tol p0 p2 p3 p4) ∧
      (same_side p0 p1 p3 p4 p2 ∨ near_plane tol p0 p1 p3 p4) ∧ (same_side p0 p1 p2 p4 p3 ∨ near_plane tol p0 p1 p2 p4)).
Proof.
  intros Ht Hg E0 E1 E2 E3 E4 Ho. unfold tet_close_to_vertex. rewrite !not_elem_of_cons in Hg. destruct Hg as (g0 & g1 & g2 & g3 & g4 & _).
  rewrite !idx_vpos by done. rewrite E0, E1, E2, E3, E4. cbn [mbind option_bind]. eexists. split; [done|].
  assert (ghost_pos v0 v1 v2 v3 = None) as ->. { unfold ghost_pos. rewrite !(proj2 (N.eqb_neq _ _)); done. }
  cbn [face_dist].
  assert (orient p3 p2 p1 p0 = orient p0 p1 p2 p3) as O0 by (clear; destruct p0, p1, p2, p3; geo; ring).
  assert (orient p2 p3 p0 p1 = orient p0 p1 p2 p3) as O1 by (clear; destruct p0, p1, p2, p3; geo; ring).
  assert (orient p1 p0 p3 p2 = orient p0 p1 p2 p3) as O2 by (clear; destruct p0, p1, p2, p3; geo; ring).
  pose proof (tri_area_pos p3 p2 p1 p0 ltac:(lia)) as A0. pose proof (tri_area_pos p2 p3 p0 p1 ltac:(lia)) as A1.
  pose proof (tri_area_pos p1 p0 p3 p2 ltac:(lia)) as A2. pose proof (tri_area_pos p0 p1 p2 p3 ltac:(lia)) as A3.
  destruct (plane_dist_lt tol p3 p2 p1 p4 Ht A0) as [X0 L0]. destruct (plane_dist_lt tol p2 p3 p0 p4 Ht A1) as [X1 L1].
  destruct (plane_dist_lt tol p1 p0 p3 p4 Ht A2) as [X2 L2]. destruct (plane_dist_lt tol p0 p1 p2 p4 Ht A3) as [X3 L3].
  assert (xok (xint tol)) as Xt by done. rewrite !xmax_lt by (repeat apply xmax_ok; done). rewrite L0, L1, L2, L3. clear L0 L1 L2 L3 X0 X1 X2 X3 Xt.
  assert (near_plane tol p3 p2 p1 p4 ↔ near_plane tol p1 p2 p3 p4) as ->.
  { destruct (tri2_all p1 p2 p3) as (e1 & e2 & e3 & e4 & e5). rewrite e5 in A0. rewrite <- (near_plane_rot tol p3 p2 p1) by (by rewrite e5).
    rewrite <- (near_plane_swap tol p1 p2 p3) by done. done. }
  assert (near_plane tol p2 p3 p0 p4 ↔ near_plane tol p0 p2 p3 p4) as ->.
  { destruct (tri2_all p0 p2 p3) as (e1 & e2 & e3 & e4 & e5). rewrite e3 in A1. by apply near_plane_rot. }
  assert (near_plane tol p1 p0 p3 p4 ↔ near_plane tol p0 p1 p3 p4) as ->.
  { destruct (tri2_all p0 p1 p3) as (e1 & e2 & e3 & e4 & e5). rewrite e2 in A2. by apply near_plane_swap. }
  unfold same_side.
  assert (0 < orient p1 p2 p3 p4 * orient p1 p2 p3 p0 ↔ 0 < orient p3 p2 p1 p4) as ->.
  { rewrite (orient_swap02 p3 p2 p1 p4), (orient_swap02 p3 p2 p1 p0), O0. split; nia. }
  assert (0 < orient p0 p2 p3 p4 * orient p0 p2 p3 p1 ↔ 0 < orient p2 p3 p0 p4) as ->.
  { assert (∀ q, orient p0 p2 p3 q = orient p2 p3 p0 q) as R by (clear; intros []; destruct p0, p2, p3; geo; ring). rewrite !R, O1. split; nia. }
  assert (0 < orient p0 p1 p3 p4 * orient p0 p1 p3 p2 ↔ 0 < orient p1 p0 p3 p4) as ->.
  { rewrite (orient_swap01 p1 p0 p3 p4), (orient_swap01 p1 p0 p3 p2), O2. split; nia. }
  assert (0 < orient p0 p1 p2 p4 * orient p0 p1 p2 p3 ↔ 0 < orient p0 p1 p2 p4) as -> by (split; nia).
  tauto.
Qed.
Print Assumptions C58_close.

(** So the answer is yes whenever the vertex is closer than the tolerance to some point of the tet. *)
Theorem C58_close_complete {V T} tol (m : mesh V T) v0 v1 v2 v3 v4 p0 p1 p2 p3 p4 : 0 < tol →
  GHOST ∉ [v0; v1; v2; v3; v4] →
  vpos m v0 = Some p0 → vpos m v1 = Some p1 → vpos m v2 = Some p2 → vpos m v3 = Some p3 → vpos m v4 = Some p4 →
  0 < orient p0 p1 p2 p3 → near_tet tol p0 p1 p2 p3 p4 →
  tet_close_to_vertex tol m v0 v1 v2 v3 v4 = Some true.
Proof.
  intros Ht Hg E0 E1 E2 E3 E4 Ho (a0 & a1 & a2 & a3 & P0 & P1 & P2 & P3 & PS & Hd).
  destruct (C58_close tol m v0 v1 v2 v3 v4 p0 p1 p2 p3 p4 Ht Hg E0 E1 E2 E3 E4 Ho) as (b & -> & Hb). f_equal. apply Hb. clear Hb.
  set (s := a0 + a1 + a2 + a3) in *. set (q := vadd (weigh3 a0 a1 a2 p0 p1 p2) (vscale a3 p3)) in *.
  assert (∀ a b c d k, 0 ≤ k → 0 < orient a b c d * orient a b c d → vdot (nrm a b c) (vsub q (vscale s a)) = - k * orient a b c d →
    same_side a b c p4 d ∨ near_plane tol a b c p4) as H.
  { clear -Ht Hd PS. intros a b c d k Hk Ho Hq. pose proof (tri_area_pos a b c d ltac:(nia)) as Ha. rewrite near_plane_iff by done.
    assert (s * orient a b c p4 = - vdot (nrm a b c) (vsub q (vscale s a)) - vdot (nrm a b c) (vsub (vscale s p4) q)) as E.
    { unfold nrm. destruct a, b, c, q, p4. geo. ring. }
    pose proof (cauchy (nrm a b c) (vsub (vscale s p4) q)) as C. rewrite nrm_area in C. rewrite Hq in E.
    assert (norm2 (vsub (vscale s p4) q) = dist2 (vscale s p4) q) as E' by (destruct p4, q; geo; ring). rewrite E' in C. clear E' Hq.
    unfold same_side. revert E C Hd Ha Ho. generalize (vdot (nrm a b c) (vsub (vscale s p4) q)) (dist2 (vscale s p4) q) (area2 a b a c) (orient a b c p4) (orient a b c d).
    intros x X A o d' E C Hd Ha Ho.
    destruct (decide (0 < o * d')) as [|Hs]; [by left|]. right.
    assert (s * s * (o * o) ≤ x * x) as H1.
    { assert (s * (o * d') ≤ 0) by nia. assert (s * (o * d') = k * (d' * d') - x * d') by nia.
      assert (0 ≤ k * (d' * d')) by nia.
      assert (s * o = k * d' - x) by lia.
      assert (0 ≤ (- (s * (o * d'))) * (k * (d' * d'))) as H5 by (apply Z.mul_nonneg_nonneg; lia).
      assert (0 ≤ (d' * d') * (x * x - s * s * (o * o))) as H6; [|nia].
      assert (x = k * d' - s * o) as -> by lia.
      replace (d' * d' * ((k * d' - s * o) * (k * d' - s * o) - s * s * (o * o))) with ((k * (d' * d')) * (k * (d' * d')) + 2 * (- (s * (o * d')) * (k * (d' * d')))) by ring. nia. }
    assert (x * x < A * (tol * s) ^ 2) as H2 by nia.
    assert (s * s * (o * o) < s * s * (tol * tol * A)) as H3 by nia. nia. }
  assert (orient p1 p2 p3 p0 = - orient p0 p1 p2 p3) as O0 by (clear; destruct p0, p1, p2, p3; geo; ring).
  assert (orient p0 p2 p3 p1 = orient p0 p1 p2 p3) as O1 by (clear; destruct p0, p1, p2, p3; geo; ring).
  assert (orient p0 p1 p3 p2 = - orient p0 p1 p2 p3) as O2 by (clear; destruct p0, p1, p2, p3; geo; ring).
  split; [|split; [|split]].
  - apply (H _ _ _ _ a0); [done|rewrite O0; nia|]. unfold q, s, nrm, weigh3. clear. destruct p0, p1, p2, p3. geo. ring.
  - apply (H _ _ _ _ a1); [done|rewrite O1; nia|]. unfold q, s, nrm, weigh3. clear. destruct p0, p1, p2, p3. geo. ring.
  - apply (H _ _ _ _ a2); [done|rewrite O2; nia|]. unfold q, s, nrm, weigh3. clear. destruct p0, p1, p2, p3. geo. ring.
  - apply (H _ _ _ _ a3); [done|nia|]. unfold q, s, nrm, weigh3. clear. destruct p0, p1, p2, p3. geo. ring.
Qed.
Print Assumptions C58_close_complete.

(** A ghost tet, with its vertices in any even order: the vertex is beyond the triangle, or the plane
    of the triangle is near. *)
Theorem C58_close_ghost {V T} tol (m : mesh V T) a b c v σ pa pb pc p : 0 < tol →
  GHOST ∉ [a; b; c; v] → even_perm σ →
  vpos m a = Some pa → vpos m b = Some pb → vpos m c = Some pc → vpos m v = Some p → ¬ collinear pa pb pc →
  let t := reorder (A4 a b c GHOST) σ in
  ∃ r, tet_close_to_vertex tol m (q0 t) (q1 t) (q2 t) (q3 t) v = Some r ∧
    (r = true ↔ 0 < orient pa pb pc p ∨ near_plane tol pa pb pc p).
Proof.
  intros Ht Hg Hσ Ea Eb Ec Ev Hc. cbv zeta. rewrite !not_elem_of_cons in Hg. destruct Hg as (ga & gb & gc & gv & _).
  assert (0 < area2 pa pb pa pc) as Hp. { rewrite collinear_area in Hc. pose proof (area2_nonneg pa pb pa pc). lia. }
  assert (idx_ori m a = Some pa) as Ia by (by rewrite idx_vpos). assert (idx_ori m b = Some pb) as Ib by (by rewrite idx_vpos).
  assert (idx_ori m c = Some pc) as Ic by (by rewrite idx_vpos). assert (idx_ori m v = Some p) as Iv by (by rewrite idx_vpos).
  assert (N.eqb a GHOST = false) as na by (by apply N.eqb_neq). assert (N.eqb b GHOST = false) as nb by (by apply N.eqb_neq).
  assert (N.eqb c GHOST = false) as nc by (by apply N.eqb_neq).
  assert (∀ r, (xlt (plane_dist pa pb pc p) (xint tol) = r) → r = true ↔ 0 < orient pa pb pc p ∨ near_plane tol pa pb pc p) as H.
  { intros r <-. apply (plane_dist_lt tol pa pb pc p Ht Hp). }
  assert (plane_dist pb pc pa p = plane_dist pa pb pc p) as R1.
  { unfold plane_dist. fold (nrm pb pc pa) (nrm pa pb pc). rewrite !nrm_orient, !nrm_area.
    destruct (tri2_all pa pb pc) as (_ & _ & -> & _). assert (orient pb pc pa p = orient pa pb pc p) as -> by (clear; destruct pa, pb, pc, p; geo; ring). done. }
  assert (plane_dist pc pa pb p = plane_dist pa pb pc p) as R2.
  { unfold plane_dist. fold (nrm pc pa pb) (nrm pa pb pc). rewrite !nrm_orient, !nrm_area.
    destruct (tri2_all pa pb pc) as (_ & _ & _ & -> & _). assert (orient pc pa pb p = orient pa pb pc p) as -> by (clear; destruct pa, pb, pc, p; geo; ring). done. }
  assert (xok (plane_dist pa pb pc p)) as Hx by (apply (plane_dist_lt tol pa pb pc p Ht Hp)).
  remember (plane_dist pa pb pc p) as d eqn:R0.
  assert (idx_ori m GHOST = Some (m_center m)) as Ig by done.
  apply even_perms_enum in Hσ as [k ->].
  destruct k; cbv [perm_digits reorder get4 nth q0 q1 q2 q3]; unfold tet_close_to_vertex, ghost_pos;
    rewrite Ia, Ib, Ic, Ig, Iv; cbn [mbind option_bind]; rewrite ?na, ?nb, ?nc, N.eqb_refl; cbn [face_dist Nat.eqb];
    eexists; (split; [done|]); apply H; rewrite ?R1, ?R2, <- ?R0; destruct d; done.
Qed.
Print Assumptions C58_close_ghost.

(** The converse fails: beyond a sharp corner the planes of all faces are near while the tet is far. *)
Definition spike : arr4 (pt * Z) := A4 (Pt 0 0 0, 10%Z) (Pt 1 0 100, 11%Z) (Pt (-1) 1 100, 12%Z) (Pt (-1) (-1) 100, 13%Z).
Definition spike_mesh : mesh Z unit :=
  default mesh_empty (m ← mesh_new sim_z ctr_z spike (); run_ops m [OInsert (walker_from_tet_id 0) (Pt 0 0 (-50)) 14%Z]).
Theorem C58_close_sound_refuted :
  ¬ (∀ tol (m : mesh Z unit) v0 v1 v2 v3 v4 p0 p1 p2 p3 p4, 0 < tol → GHOST ∉ [v0; v1; v2; v3; v4] →
       vpos m v0 = Some p0 → vpos m v1 = Some p1 → vpos m v2 = Some p2 → vpos m v3 = Some p3 → vpos m v4 = Some p4 →
       0 < orient p0 p1 p2 p3 → tet_close_to_vertex tol m v0 v1 v2 v3 v4 = Some true → near_tet tol p0 p1 p2 p3 p4).
Proof.
  intros H. specialize (H 2 spike_mesh 0%N 2%N 1%N 3%N 4%N (Pt 0 0 0) (Pt (-1) 1 100) (Pt 1 0 100) (Pt (-1) (-1) 100) (Pt 0 0 (-50))).
  destruct H as (a0 & a1 & a2 & a3 & P0 & P1 & P2 & P3 & PS & H).
  - lia.
  - apply (bool_decide_unpack _). vm_compute. exact I.
  - vm_compute. reflexivity.
  - vm_compute. reflexivity.
  - vm_compute. reflexivity.
  - vm_compute. reflexivity.
  - vm_compute. reflexivity.
  - vm_compute. reflexivity.
  - vm_compute. reflexivity.
  - unfold weigh3, dist2, vscale, vadd in H. cbn [px py pz] in H. set (s := a0 + a1 + a2 + a3) in *.
    assert (0 ≤ a1 + a2 + a3) by lia. nia.
Qed.
Print Assumptions C58_close_sound_refuted.

(** ** [sliver_kind] names a closest pair of opposite elements of the tet. *)
Theorem C58_sliver_kind {V T} (m : mesh V T) w v0 v1 v2 v3 p0 p1 p2 p3 : pos_ok w →
  w_verts m w = Some (A4 v0 v1 v2 v3) →
  vpos m v0 = Some p0 → vpos m v1 = Some p1 → vpos m v2 = Some p2 → vpos m v3 = Some p3 → orient p0 p1 p2 p3 ≠ 0 →
  ∃ k w' a b c d pa pb pc pd, sliver_kind m w = Some k ∧
    w_tet w' = w_tet w ∧ pos_ok w' ∧ w_verts m w' = Some (A4 a b c d) ∧
    vpos m a = Some pa ∧ vpos m b = Some pb ∧ vpos m c = Some pc ∧ vpos m d = Some pd ∧
    ((k = TriVertex w' ∧ ∀ tol, opposites_far tol p0 p1 p2 p3 ↔ far_from_plane tol pa pb pc pd) ∨
     (k = EdgeEdge w' ∧ ∀ tol, opposites_far tol p0 p1 p2 p3 ↔ far_lines tol pa pb pc pd)).
Proof.
  intros Hw Ev E0 E1 E2 E3 Ho. destruct (walker_moves m w v0 v1 v2 v3 Hw Ev) as (_ & _ & Wnve & Wpve & Wtw & Wop & Wp).
  destruct (walker_laws w Hw) as (Hl & _). destruct (walker_accessors m w v0 v1 v2 v3 Ev) as (F0 & F1 & F2 & F3 & _).
  unfold sliver_kind. rewrite F0, F1, F2, F3. cbn [mbind option_bind]. rewrite E0, E1, E2, E3. cbn [mbind option_bind]. cbv zeta.
  set (mx := Z.max _ _).
  assert (∀ z, z ∈ areas (A4 p0 p1 p2 p3) → z ≤ mx) as Hle.
  { intros z Hz. unfold areas in Hz.
    destruct (tri2_all p1 p2 p3) as (a1 & a2 & a3 & a4 & a5). destruct (tri2_all p0 p2 p3) as (b1 & b2 & b3 & b4 & b5).
    destruct (tri2_all p0 p1 p3) as (c1 & c2 & c3 & c4 & c5).
    destruct (line2_all p0 p1 p2 p3) as (e1 & e2 & e3 & e4 & e5 & e6 & e7). destruct (line2_all p0 p2 p1 p3) as (f1 & f2 & f3 & f4 & f5 & f6 & f7).
    destruct (line2_all p0 p3 p1 p2) as (g1 & g2 & g3 & g4 & g5 & g6 & g7).
    unfold mx. rewrite a5, b3, c2, e7, f5, g3. rewrite !elem_of_cons, elem_of_nil in Hz. revert Hz.
    generalize (area2 p1 p2 p1 p3) (area2 p0 p2 p0 p3) (area2 p0 p1 p0 p3) (area2 p0 p1 p0 p2) (area2 p0 p1 p2 p3) (area2 p0 p2 p1 p3) (area2 p0 p3 p1 p2).
    clear. intros z0 z1 z2 z3 z4 z5 z6 Hz.
    assert (∀ x y t, t ≤ x → t ≤ Z.max x y) as L by (intros x y t Ht; lia). assert (∀ x y t, t = y → t ≤ Z.max x y) as R by (intros x y t ->; lia).
    destruct Hz as [-> | [-> | [-> | [-> | [-> | [-> | [-> | []]]]]]]]; repeat (first [by apply R | apply L]); lia. }
  assert (∀ w', w' ∈ [w; to_nve w; to_pve w; to_twin_edge w; to_opp_edge w; to_perm w P3210] → w_tet w' = w_tet w ∧ pos_ok w') as Hs.
  { intros w' H. rewrite !elem_of_cons, elem_of_nil in H. destruct H as [-> | [-> | [-> | [-> | [-> | [-> | []]]]]]]; [done|apply Hl; cbn; rewrite !elem_of_cons; tauto..]. }
  assert (∀ tol A B, orient p0 p1 p2 p3 * orient p0 p1 p2 p3 = B → mx = A → (opposites_far tol p0 p1 p2 p3 → tol * tol * A ≤ B) →
    opposites_far tol p0 p1 p2 p3 ↔ tol * tol * A ≤ B) as Hiff.
  { intros tol A B <- <- H. split; [done|]. intros Hm. rewrite opposites_iff by done. intros z Hz. apply Hle in Hz.
    assert (tol * tol * z ≤ tol * tol * mx) by (apply Z.mul_le_mono_nonneg_l; [nia|done]). lia. }
  assert (orient p3 p2 p1 p0 = orient p0 p1 p2 p3) as O0 by (clear; destruct p0, p1, p2, p3; geo; ring).
  assert (orient p2 p3 p0 p1 = orient p0 p1 p2 p3) as O1 by (clear; destruct p0, p1, p2, p3; geo; ring).
  assert (orient p1 p0 p3 p2 = orient p0 p1 p2 p3) as O2 by (clear; destruct p0, p1, p2, p3; geo; ring).
  assert (orient p0 p3 p1 p2 = orient p0 p1 p2 p3) as O3 by (clear; destruct p0, p1, p2, p3; geo; ring).
  assert (orient p0 p2 p3 p1 = orient p0 p1 p2 p3) as O4 by (clear; destruct p0, p1, p2, p3; geo; ring).
  assert (∀ tol a b c d, area2 a b a c ∈ areas (A4 p0 p1 p2 p3) → orient a b c d = orient p0 p1 p2 p3 → mx = area2 a b a c →
    opposites_far tol p0 p1 p2 p3 ↔ far_from_plane tol a b c d) as HT.
  { intros tol a b c d Hin Eo Em. rewrite (far_plane_iff tol a b c d) by (apply (tri_area_pos a b c d); lia). rewrite Eo.
    apply Hiff; [done..|]. intros H. by apply (proj1 (opposites_iff tol p0 p1 p2 p3 Ho) H). }
  assert (∀ tol a b c d, area2 a b c d ∈ areas (A4 p0 p1 p2 p3) → orient a b c d = orient p0 p1 p2 p3 → mx = area2 a b c d →
    opposites_far tol p0 p1 p2 p3 ↔ far_lines tol a b c d) as HL.
  { intros tol a b c d Hin Eo Em. rewrite (far_lines_iff tol a b c d) by (apply (line_area_pos a b c d); lia). rewrite Eo.
    apply Hiff; [done..|]. intros H. by apply (proj1 (opposites_iff tol p0 p1 p2 p3 Ho) H). }
  destruct (tri2_all p1 p2 p3) as (a1 & a2 & a3 & a4 & a5). destruct (tri2_all p0 p2 p3) as (b1 & b2 & b3 & b4 & b5).
  destruct (tri2_all p0 p1 p3) as (c1 & c2 & c3 & c4 & c5).
  destruct (line2_all p0 p1 p2 p3) as (e1 & e2 & e3 & e4 & e5 & e6 & e7). destruct (line2_all p0 p2 p1 p3) as (f1 & f2 & f3 & f4 & f5 & f6 & f7).
  destruct (line2_all p0 p3 p1 p2) as (g1 & g2 & g3 & g4 & g5 & g6 & g7).
  destruct (mx =? area2 p3 p2 p3 p1) eqn:M0; [apply Z.eqb_eq in M0|apply Z.eqb_neq in M0].
  { exists (TriVertex (to_perm w P3210)), (to_perm w P3210), v3, v2, v1, v0, p3, p2, p1, p0.
    split; [done|]. split; [apply Hs; rewrite !elem_of_cons; tauto|]. split; [apply Hs; rewrite !elem_of_cons; tauto|]. split; [by rewrite Wp|]. do 4 (split; [done|]). left. split; [done|].
    intros tol. apply HT; [|done..]. rewrite a5. unfold areas. rewrite !elem_of_cons. tauto. }
  destruct (mx =? area2 p2 p3 p2 p0) eqn:M1; [apply Z.eqb_eq in M1|apply Z.eqb_neq in M1].
  { exists (TriVertex (to_opp_edge w)), (to_opp_edge w), v2, v3, v0, v1, p2, p3, p0, p1.
    split; [done|]. split; [apply Hs; rewrite !elem_of_cons; tauto|]. split; [apply Hs; rewrite !elem_of_cons; tauto|]. split; [done|]. do 4 (split; [done|]). left. split; [done|].
    intros tol. apply HT; [|done..]. rewrite b3. unfold areas. rewrite !elem_of_cons. tauto. }
  destruct (mx =? area2 p1 p0 p1 p3) eqn:M2; [apply Z.eqb_eq in M2|apply Z.eqb_neq in M2].
  { exists (TriVertex (to_twin_edge w)), (to_twin_edge w), v1, v0, v3, v2, p1, p0, p3, p2.
    split; [done|]. split; [apply Hs; rewrite !elem_of_cons; tauto|]. split; [apply Hs; rewrite !elem_of_cons; tauto|]. split; [done|]. do 4 (split; [done|]). left. split; [done|].
    intros tol. apply HT; [|done..]. rewrite c2. unfold areas. rewrite !elem_of_cons. tauto. }
  destruct (mx =? area2 p0 p1 p0 p2) eqn:M3; [apply Z.eqb_eq in M3|apply Z.eqb_neq in M3].
  { exists (TriVertex w), w, v0, v1, v2, v3, p0, p1, p2, p3.
    split; [done|]. split; [done|]. split; [done|]. split; [done|]. do 4 (split; [done|]). left. split; [done|].
    intros tol. apply HT; [|done..]. unfold areas. rewrite !elem_of_cons. tauto. }
  destruct (mx =? area2 p3 p0 p2 p1) eqn:M4; [apply Z.eqb_eq in M4|apply Z.eqb_neq in M4].
  { exists (EdgeEdge (to_pve w)), (to_pve w), v0, v3, v1, v2, p0, p3, p1, p2.
    split; [done|]. split; [apply Hs; rewrite !elem_of_cons; tauto|]. split; [apply Hs; rewrite !elem_of_cons; tauto|]. split; [done|]. do 4 (split; [done|]). right. split; [done|].
    rewrite g3 in M4. intros tol. apply HL; [|done..]. unfold areas. rewrite !elem_of_cons. tauto. }
  destruct (mx =? area2 p3 p1 p0 p2) eqn:M5; [apply Z.eqb_eq in M5|apply Z.eqb_neq in M5].
  { exists (EdgeEdge (to_nve w)), (to_nve w), v0, v2, v3, v1, p0, p2, p3, p1.
    split; [done|]. split; [apply Hs; rewrite !elem_of_cons; tauto|]. split; [apply Hs; rewrite !elem_of_cons; tauto|]. split; [done|]. do 4 (split; [done|]). right. split; [done|].
    rewrite f5, <- f2 in M5. intros tol. apply HL; [|done..]. rewrite f2. unfold areas. rewrite !elem_of_cons. tauto. }
  assert (mx = area2 p3 p2 p1 p0) as M6.
  { revert M0 M1 M2 M3 M4 M5. unfold mx.
    generalize (area2 p3 p2 p3 p1) (area2 p2 p3 p2 p0) (area2 p1 p0 p1 p3) (area2 p0 p1 p0 p2) (area2 p3 p0 p2 p1) (area2 p3 p1 p0 p2) (area2 p3 p2 p1 p0).
    clear. intros z0 z1 z2 z3 z4 z5 z6.
    assert (∀ x y t : Z, Z.max x y = x ∨ Z.max x y = y) as L by (intros x y t; lia).
    destruct (L (Z.max (Z.max (Z.max (Z.max (Z.max z0 z1) z2) z3) z4) z5) z6 0) as [-> | ->]; [|done].
    destruct (L (Z.max (Z.max (Z.max (Z.max z0 z1) z2) z3) z4) z5 0) as [-> | ->]; [|done].
    destruct (L (Z.max (Z.max (Z.max z0 z1) z2) z3) z4 0) as [-> | ->]; [|done].
    destruct (L (Z.max (Z.max z0 z1) z2) z3 0) as [-> | ->]; [|done].
    destruct (L (Z.max z0 z1) z2 0) as [-> | ->]; [|done].
    destruct (L z0 z1 0) as [-> | ->]; done. } rewrite (proj2 (Z.eqb_eq _ _) M6).
  exists (EdgeEdge w), w, v0, v1, v2, v3, p0, p1, p2, p3.
  split; [done|]. split; [done|]. split; [done|]. split; [done|]. do 4 (split; [done|]). right. split; [done|].
  rewrite e7 in M6. intros tol. apply HL; [|done..]. unfold areas. rewrite !elem_of_cons. tauto.
Qed.
Print Assumptions C58_sliver_kind.

(** ** Positions and distances of vertices. *)
Theorem C58_distance {V T} (m : mesh V T) a b :
  vertex_position m GHOST = Some None ∧
  (a ≠ GHOST → b ≠ GHOST → ∀ p q, vpos m a = Some p → vpos m b = Some q →
     vertex_position m a = Some (Some p) ∧ vertex_distance m a b = Some (XSq (dist2 p q) 1) ∧
     vertex_distance m b a = vertex_distance m a b ∧ (xeq (XSq (dist2 p q) 1) (xint 0) = true ↔ p = q)) ∧
  (a ≠ GHOST → vertex_distance m a GHOST = Some XInf ∧ vertex_distance m GHOST a = Some XInf) ∧
  vertex_distance m GHOST GHOST = Some (xint 0).
Proof.
  split; [done|]. split; [|split; [|done]].
  - intros Ha Hb p q Ep Eq. unfold vertex_position, vertex_distance, vertex_distance2. rewrite !(proj2 (N.eqb_neq _ _)) by done.
    fold (vpos m a) (vpos m b). rewrite Ep, Eq. cbn [mbind option_bind].
    assert (norm2 (vsub p q) = dist2 p q) as -> by (destruct p, q; geo; ring).
    assert (norm2 (vsub q p) = dist2 p q) as -> by (destruct p, q; geo; ring).
    split; [done|]. split; [done|]. split; [done|].
    unfold xeq, xge, xint. cbn [xnan negb andb xlt]. rewrite andb_true_iff, !negb_true_iff, !Z.ltb_ge. change (sq 0) with 0.
    destruct p as [x y z], q as [x' y' z']. unfold dist2. cbn [px py pz]. split.
    + intros [_ H]. assert (x - x' = 0 ∧ y - y' = 0 ∧ z - z' = 0) as (H1 & H2 & H3); [|f_equal; lia].
      revert H. generalize (x - x') (y - y') (z - z'). clear. intros u v w H. repeat split; nia.
    + intros [= -> -> ->]. lia.
  - intros Ha. unfold vertex_distance, vertex_distance2. rewrite N.eqb_refl, (proj2 (N.eqb_neq _ _) Ha). done.
Qed.
Print Assumptions C58_distance.

(** Vertices 0 to 3 of the mesh are the corner of a cube of side 80: the corner is 80 / sqrt 3, that is
    46.18..., away from the opposite triangle. *)
Example C58_witness :
  vpos (qm qops1) 0 = Some (Pt 0 0 0) ∧ vpos (qm qops1) 3 = Some (Pt 80 0 0) ∧ 0 < orient (Pt 0 0 0) (Pt 0 0 80) (Pt 0 80 0) (Pt 80 0 0) ∧
  non_sliver (λ _, false) (qa_sim qz) 46 (qm qops1) 0 1 2 3 = Some true ∧ non_sliver (λ _, false) (qa_sim qz) 47 (qm qops1) 0 1 2 3 = Some false ∧
  non_sliver (λ _, false) (qa_sim qz) 0 (qm qops1) 1 0 2 3 = Some false ∧
  non_sliver (λ _, false) (qa_sim qz) 1000 (qm qops1) 1 2 3 GHOST = Some true ∧
  tet_close_to_vertex 1 (qm qops1) 0 1 2 3 4 = Some true ∧ tet_close_to_vertex 18 (qm qops1) 0 4 2 3 1 = Some false ∧
  tet_close_to_vertex 1 (qm qops1) 0 2 1 GHOST 3 = Some false ∧ tet_close_to_vertex 81 (qm qops1) 0 2 1 GHOST 3 = Some true ∧
  tri_normal (qm qops1) 0 1 2 = Some (Pt (-6400) 0 0) ∧
  (∃ w, w_verts (qm qops1) w = Some (A4 3 2 1 4)%N ∧ sliver_kind (qm qops1) (walker_from_tet_id 0) = Some (TriVertex w)).
Proof. do 12 (split; [vm_compute; reflexivity|]). exists (Walker 0 0). split; vm_compute; reflexivity. Qed.
