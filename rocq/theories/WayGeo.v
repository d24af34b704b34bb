(** The exact tests of the walk along a segment. *)
From stdpp Require Import base numbers list gmap option.
From Coq Require Import NArith ZArith Lia.
From Verif Require Import IdMapModel WalkerModel WalkerSpec MeshModel MeshSpec MeshOps FlipSpec FlipCommon QualModel ProgSpec ProgBase GeoModel GeoSpec GeoProofs GeoMesh CrossModel WayModel WaySpec WayOk.
Local Open Scope Z_scope.

(** Some point is strictly inside both segments, [p0 p1] and [p2 p3]. *)
Definition open_segments_meet (p0 p1 p2 p3 : pt) : Prop :=
  ∃ a0 a1 b2 b3, 0 < a0 ∧ 0 < a1 ∧ 0 < b2 ∧ 0 < b3 ∧ a0 + a1 = b2 + b3 ∧
    vadd (vscale a0 p0) (vscale a1 p1) = vadd (vscale b2 p2) (vscale b3 p3).

(** ** Two segments *)
Section segments.
  Context (p0 p1 p2 p3 : pt).
  Let d := vsub p1 p0.
  Let e := vsub p3 p2.
  Let w := vsub p0 p2.
  Let c := vcross d e.
  Let p4 := vadd p2 c.
  Let b0 := orient p2 p1 p3 p4.
  Let b1 := orient p3 p0 p2 p4.
  Let b2 := orient p1 p3 p0 p4.
  Let b3 := orient p0 p2 p1 p4.
  Let o := orient p0 p1 p2 p3.

  Ltac go := unfold b0, b1, b2, b3, o, p4, c, w, e, d; destruct p0, p1, p2, p3; geo; ring.
  Lemma seg_b0 : b0 = - vdot (vcross (vadd w d) e) c.
  Proof. go. Qed.
  Lemma seg_b1 : b1 = vdot (vcross w e) c.
  Proof. go. Qed.
  Lemma seg_b3 : b3 = vdot (vcross w d) c.
  Proof. go. Qed.
  Lemma seg_o : o = - vdot w c ∨ o = vdot w c.
  Proof. first [left; go|right; go]. Qed.
  Lemma seg_01 : b0 + b1 = - norm2 c.
  Proof. go. Qed.
  Lemma seg_23 : b2 + b3 = - norm2 c - o.
  Proof. go. Qed.
  Lemma seg_point : vadd (vscale (- b0) p0) (vscale (- b1) p1) = vadd (vadd (vscale (- b2) p2) (vscale (- b3) p3)) (vscale (- o) (vadd c p2)).
  Proof. apply pt_eq. unfold b0, b1, b2, b3, o, p4, c, w, e, d. destruct p0, p1, p2, p3. geo. repeat split; ring. Qed.

  Lemma norm2_pos v : v ≠ Pt 0 0 0 → 0 < norm2 v.
  Proof.
    intros Hv. destruct v as [x y z]. unfold norm2, vdot. cbn [px py pz].
    destruct (decide (x = 0)) as [->|]; [|nia]. destruct (decide (y = 0)) as [->|]; [|nia]. destruct (decide (z = 0)) as [->|]; [done|nia].
  Qed.

  Lemma seg_seg : c ≠ Pt 0 0 0 → (o = 0 ∧ (Forall (λ z, 0 < z) [b0; b1; b2; b3] ∨ Forall (λ z, z < 0) [b0; b1; b2; b3])) ↔ open_segments_meet p0 p1 p2 p3.
  Proof.
    intros Hc. apply norm2_pos in Hc. pose proof seg_01 as H01. pose proof seg_23 as H23. split.
    - intros [Ho Hs]. assert (b0 < 0 ∧ b1 < 0 ∧ b2 < 0 ∧ b3 < 0) as (N0 & N1 & N2 & N3).
      { rewrite !stdpp.list.Forall_cons, !stdpp.list.Forall_nil in Hs. destruct Hs as [Hs|Hs]; [|tauto]. lia. }
      exists (- b0), (- b1), (- b2), (- b3). do 4 (split; [lia|]). split; [lia|]. pose proof seg_point as E. rewrite Ho in E. rewrite E.
      assert (∀ u v, vadd u (vscale (- 0) v) = u) as Hz by (intros [] []; apply pt_eq; pts; lia). apply Hz.
    - intros (a0 & a1 & u2 & u3 & A0 & A1 & U2 & U3 & Hs & E).
      assert (vscale (a0 + a1) w = vsub (vscale u3 e) (vscale a1 d)) as Ew.
      { assert (a0 = u2 + u3 - a1) as -> by lia. apply pt_eq in E as (E1 & E2 & E3). apply pt_eq. unfold w, d, e. revert E1 E2 E3. pts. intros E1 E2 E3. repeat split; lia. }
      assert (∀ x y z, vdot (vcross (vscale z x) y) c = z * vdot (vcross x y) c) as L1 by (intros [] [] ?; unfold c; generalize (vcross d e); intros []; geo; ring).
      assert ((a0 + a1) * b1 = - a1 * norm2 c) as K1.
      { rewrite seg_b1, <- L1, Ew. unfold c. destruct d, e. geo. ring. }
      assert ((a0 + a1) * b3 = - u3 * norm2 c) as K3.
      { rewrite seg_b3, <- L1, Ew. unfold c. destruct d, e. geo. ring. }
      assert ((a0 + a1) * o = 0) as Ko.
      { assert (∀ x z, vdot (vscale z x) c = z * vdot x c) as L2 by (intros [] ?; unfold c; generalize (vcross d e); intros []; geo; ring).
        assert ((a0 + a1) * vdot w c = 0) as K; [|destruct seg_o as [->| ->]; lia]. rewrite <- L2, Ew. unfold c. destruct d, e. geo. ring. }
      assert (o = 0) as Ho by nia. split; [done|]. right. rewrite !stdpp.list.Forall_cons, stdpp.list.Forall_nil. rewrite Ho in H23.
      assert (b1 < 0) by nia. assert (b3 < 0) by nia. assert (b0 < 0) by nia. assert (b2 < 0) by nia. done.
  Qed.
End segments.

Section exact.
  Context {V T : Type}.
  Implicit Types (m : mesh V T).

  (** ** How a triangle is written does not matter *)
  Lemma o3s f m v0 v1 v2 v3 : (f = (λ a b c d, A4 b a c d) ∨ f = (λ a b c d, A4 c b a d) ∨ f = (λ a b c d, A4 d b c a) ∨
     f = (λ a b c d, A4 a c b d) ∨ f = (λ a b c d, A4 a d c b) ∨ f = (λ a b c d, A4 a b d c)) → ∀ z, orient_3d m v0 v1 v2 v3 = Some z →
    orient_3d m (q0 (f v0 v1 v2 v3)) (q1 (f v0 v1 v2 v3)) (q2 (f v0 v1 v2 v3)) (q3 (f v0 v1 v2 v3)) = Some (- z).
  Proof. intros Hf z E. pose proof (o3_swap f m v0 v1 v2 v3 Hf) as H. cbv zeta in H. rewrite H, E. done. Qed.
  Lemma o3_01 m a b c d z : orient_3d m a b c d = Some z → orient_3d m b a c d = Some (- z).
  Proof. apply (o3s (λ a b c d, A4 b a c d)). tauto. Qed.
  Lemma o3_12 m a b c d z : orient_3d m a b c d = Some z → orient_3d m a c b d = Some (- z).
  Proof. apply (o3s (λ a b c d, A4 a c b d)). tauto. Qed.
  Lemma o3_02 m a b c d z : orient_3d m a b c d = Some z → orient_3d m c b a d = Some (- z).
  Proof. apply (o3s (λ a b c d, A4 c b a d)). tauto. Qed.
  Lemma o3_rot m a b c d z : orient_3d m a b c d = Some z → orient_3d m b c a d = Some z.
  Proof. intros E%o3_02%o3_01. rewrite Z.opp_involutive in E. exact E. Qed.

  Lemma teb_inv m a b c p q bs : tri_edge_bary m a b c p q = Some bs → ∃ b0 b1 b2 b3 b4, bs = [b0; b1; b2; b3; b4] ∧
    orient_3d m b c p q = Some b0 ∧ orient_3d m c a p q = Some b1 ∧ orient_3d m a b p q = Some b2 ∧ orient_3d m a b c q = Some b3 ∧ orient_3d m c b a p = Some b4.
  Proof.
    unfold tri_edge_bary. intros E. apply bind_Some in E as (b0 & E0 & E). apply bind_Some in E as (b1 & E1 & E). apply bind_Some in E as (b2 & E2 & E).
    apply bind_Some in E as (b3 & E3 & E). apply bind_Some in E as (b4 & E4 & E). injection E as <-. eauto 15.
  Qed.
  Lemma teb_rot m a b c p q b0 b1 b2 b3 b4 : tri_edge_bary m a b c p q = Some [b0; b1; b2; b3; b4] → tri_edge_bary m b c a p q = Some [b1; b2; b0; b3; b4].
  Proof.
    intros (x0 & x1 & x2 & x3 & x4 & [= <- <- <- <- <-] & E0 & E1 & E2 & E3 & E4)%teb_inv. unfold tri_edge_bary. rewrite E0, E1, E2. cbn [mbind option_bind].
    rewrite (o3_rot _ _ _ _ _ _ E3). cbn [mbind option_bind]. by rewrite (o3_rot _ _ _ _ _ _ (o3_rot _ _ _ _ _ _ E4)).
  Qed.
  Lemma teb_swap m a b c p q b0 b1 b2 b3 b4 : tri_edge_bary m a b c p q = Some [b0; b1; b2; b3; b4] → tri_edge_bary m b a c p q = Some [- b1; - b0; - b2; - b3; - b4].
  Proof.
    intros (x0 & x1 & x2 & x3 & x4 & [= <- <- <- <- <-] & E0 & E1 & E2 & E3 & E4)%teb_inv. unfold tri_edge_bary.
    rewrite (o3_01 _ _ _ _ _ _ E1). cbn [mbind option_bind]. rewrite (o3_01 _ _ _ _ _ _ E0). cbn [mbind option_bind]. rewrite (o3_01 _ _ _ _ _ _ E2). cbn [mbind option_bind].
    rewrite (o3_01 _ _ _ _ _ _ E3). cbn [mbind option_bind]. by rewrite (o3_12 _ _ _ _ _ _ E4).
  Qed.
  Lemma forall5 (P : Z → Prop) b0 b1 b2 b3 b4 : Forall P [b0; b1; b2; b3; b4] ↔ P b0 ∧ P b1 ∧ P b2 ∧ P b3 ∧ P b4.
  Proof. rewrite !stdpp.list.Forall_cons, stdpp.list.Forall_nil. tauto. Qed.
  Lemma forall4 (P : Z → Prop) b0 b1 b2 b3 : Forall P [b0; b1; b2; b3] ↔ P b0 ∧ P b1 ∧ P b2 ∧ P b3.
  Proof. rewrite !stdpp.list.Forall_cons, stdpp.list.Forall_nil. tauto. Qed.

  Notation hits_exact := (hits tri_edge_bary edge_edge_bary coplanar).
  Notation opp2 x := (- x.1, - x.2).

  Lemma hits_rot m p q a b c x : hits_exact m p q (STri (a, b, c)) x → hits_exact m p q (STri (b, c, a)) x.
  Proof.
    intros (bs & E & Hs & ->). destruct (teb_inv _ _ _ _ _ _ _ E) as (b0 & b1 & b2 & b3 & b4 & -> & _). cbn [hits]. exists [b1; b2; b0; b3; b4]. split; [by apply teb_rot|].
    split; [|done]. rewrite !forall5 in Hs |- *. tauto.
  Qed.
  Lemma hits_swap m p q a b c x : hits_exact m p q (STri (a, b, c)) x → hits_exact m p q (STri (b, a, c)) (opp2 x).
  Proof.
    intros (bs & E & Hs & ->). destruct (teb_inv _ _ _ _ _ _ _ E) as (b0 & b1 & b2 & b3 & b4 & -> & _). cbn [hits]. exists [- b1; - b0; - b2; - b3; - b4]. split; [by apply teb_swap|].
    split; [|done]. rewrite !forall5 in Hs |- *. lia.
  Qed.
  Lemma hits_alike m p q t t' x : NoDup (corners (STri t)) → alike (STri t) (STri t') → hits_exact m p q (STri t) x →
    hits_exact m p q (STri t') x ∨ hits_exact m p q (STri t') (opp2 x).
  Proof.
    destruct t as [[a b] c], t' as [[u v] w]. unfold alike. cbn [corners]. intros Hn Hp Hh. assert (NoDup [u; v; w]) as (N1 & N2 & N3)%nodup3 by by rewrite <- Hp.
    assert (same_corners (u, v, w) (a, b, c)) as Hc. { unfold same_corners. cbn [fst snd]. intros z. assert (z ∈ [u; v; w] ↔ z ∈ [a; b; c]) as Hz by by rewrite Hp. revert Hz. rewrite !elem_of_cons, !elem_of_nil. clear. naive_solver. }
    destruct (corners_perm a b c u v w N1 N2 N3 Hc) as [E|[E|[E|[E|[E|E]]]]]; injection E as -> -> ->.
    - by left.
    - left. by apply hits_rot.
    - left. by do 2 apply hits_rot.
    - right. by apply hits_swap.
    - right. by apply hits_rot, hits_swap.
    - right. by apply hits_rot, hits_rot, hits_swap.
  Qed.

  (** ** Nor how an edge is written *)
  Lemma eeb_swap m a b p q b0 b1 b2 b3 : p ≠ GHOST → q ≠ GHOST → orient_3d m a b p q = Some 0 → edge_edge_bary m a b p q = Some [b0; b1; b2; b3] →
    edge_edge_bary m b a p q = Some [b1; b0; b2; b3].
  Proof.
    intros Np Nq Ho. unfold orient_3d in Ho. unfold edge_edge_bary. destruct (idx_ori m a) as [pa|]; [|done]. destruct (idx_ori m b) as [pb|]; [|done].
    destruct (idx_ori m p) as [pp|]; [|done]. destruct (idx_ori m q) as [pq|]; [|done]. cbn [mbind option_bind] in Ho |- *. apply (inj Some) in Ho.
    assert (orient pa pb pp pq = 0) as Ho'. { destruct (has_ghost _); lia. } clear Ho.
    rewrite !eqb_ghost by done.
    assert (vcross (vsub pa pb) (vsub pq pp) = vscale (-1) (vcross (vsub pb pa) (vsub pq pp))) as Ec. { apply pt_eq. destruct pa, pb, pp, pq. geo. repeat split; ring. }
    rewrite Ec. remember (vcross (vsub pb pa) (vsub pq pp)) as c eqn:Hc.
    assert ((px (vscale (-1) c) =? 0) && (py (vscale (-1) c) =? 0) && (pz (vscale (-1) c) =? 0) = (px c =? 0) && (py c =? 0) && (pz c =? 0)) as ->.
    { assert (∀ x, (-1 * x =? 0) = (x =? 0)) as Hx. { intros x. destruct (Z.eqb_spec (-1 * x) 0), (Z.eqb_spec x 0); try done; lia. } clear Hc Ec. destruct c as [x y z]. cbn [vscale px py pz]. by rewrite !Hx. }
    destruct (_ && _ && _); [congruence|].
    replace (has_ghost [a; p; q]) with (has_ghost [p; a; q]) by (apply has_ghost_perm; intros x; rewrite !elem_of_cons; tauto).
    replace (has_ghost [p; b; q]) with (has_ghost [b; p; q]) by (apply has_ghost_perm; intros x; rewrite !elem_of_cons; tauto).
    replace (has_ghost [b; a; q]) with (has_ghost [a; b; q]) by (apply has_ghost_perm; intros x; rewrite !elem_of_cons; tauto).
    replace (has_ghost [b; a; p]) with (has_ghost [a; b; p]) by (apply has_ghost_perm; intros x; rewrite !elem_of_cons; tauto).
    replace (orient pp pa pq (vadd pp (vscale (-1) c))) with (orient pq pa pp (vadd pp c)) by (destruct pa, pp, pq, c; geo; ring).
    replace (orient pq pb pp (vadd pp (vscale (-1) c))) with (orient pp pb pq (vadd pp c)) by (destruct pb, pp, pq, c; geo; ring).
    replace (orient pa pq pb (vadd pp (vscale (-1) c))) with (orient pb pq pa (vadd pp c) + 2 * orient pa pb pp pq) by (clear; destruct pa, pb, pp, pq, c; geo; ring).
    replace (orient pb pp pa (vadd pp (vscale (-1) c))) with (orient pa pp pb (vadd pp c)) by (clear; destruct pa, pb, pp, c; geo; ring).
    rewrite Ho', Z.mul_0_r, Z.add_0_r. intros [= <- <- <- <-]. done.
  Qed.
End exact.
