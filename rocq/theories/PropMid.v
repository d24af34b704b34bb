(** C54, C55: the points at which a segment crosses things, and the time a vertex may travel inside its ball. *)
From stdpp Require Import base numbers list gmap option relations.
From Coq Require Import NArith ZArith QArith Sorted Lia.
From Verif Require Import IdMapModel IdMapSpec IdMapProofs WalkerModel WalkerSpec WalkerProofs MeshModel MeshOps MeshSpec MeshViews MeshCheck FlipSpec FlipBase FlipCommon HistSpec HistCheck NewMesh History Reach IterProofs IterLookup Flip44Ok GeoModel GeoSpec GeoProofs GeoMesh UtilModel
  UtilSpec SortProofs DelOk PropMesh QualModel ProgModel ProgSpec ProgBase RecModel RecSpec PropRec CrossModel CrossSpec CrossOk PropCross WayModel WaySpec WayOk WayGeo WayOrder PropWay MidModel MidSpec.
Local Open Scope nat_scope.

(** ** The least element *)
Section least.
  Context {A : Type} (less : A → A → bool).
  Context (Hirr : ∀ a, less a a = false) (Htr : ∀ a b c, less a b = false → less b c = false → less a c = false) (Has : ∀ a b, less a b = true → less b a = false).
  (* [less b a = false] reads: [a] is at most [b]. *)
  Lemma least_fold l x : let y := fold_left (λ best y, if less y best then y else best) l x in
    less x y = false ∧ (∀ z, z ∈ l → less z y = false) ∧ (y = x ∨ ∃ i, l !! i = Some y ∧ less y x = true ∧ ∀ j z, j < i → l !! j = Some z → less z y = false ∧ less y z = true).
  Proof.
    revert x. induction l as [|z l IH]; intros x; cbn.
    - split; [apply Hirr|]. split; [by intros z ?%elem_of_nil|by left].
    - destruct (less z x) eqn:E.
      + destruct (IH z) as (H1 & H2 & H3). set (y := fold_left _ l z) in *. split; [|split].
        * apply Htr with z; [by apply Has|done].
        * intros u [->|Hu]%elem_of_cons; [done|by apply H2].
        * right. destruct H3 as [->|(i & Hi & H3 & H4)].
          { exists 0. split; [done|]. split; [done|]. lia. }
          exists (S i). split; [done|]. assert (less y x = true) as Hyx.
          { destruct (less y x) eqn:E'; [done|]. assert (less z x = false); [|congruence]. apply Htr with y; [|done]. by apply Has. }
          split; [done|]. intros [|j] u Hj Hu; cbn in Hu; [injection Hu as <-; by split|]. apply (H4 j u); [lia|done].
      + destruct (IH x) as (H1 & H2 & H3). set (y := fold_left _ l x) in *. split; [done|]. split.
        * intros u [->|Hu]%elem_of_cons; [by apply Htr with x|by apply H2].
        * destruct H3 as [->|(i & Hi & H3 & H4)]; [by left|]. right. exists (S i). split; [done|]. split; [done|].
          intros [|j] u Hj Hu; cbn in Hu; [injection Hu as <-|apply (H4 j u); [lia|done]].
          assert (less y z = true) as Hyz. { destruct (less y z) eqn:E'; [done|]. assert (less y x = false); [|congruence]. by apply Htr with z. }
          split; [by apply Has|done].
  Qed.
  Lemma least_spec l : match least less l with
    | None => l = []
    | Some y => ∃ i, l !! i = Some y ∧ (∀ j z, l !! j = Some z → less z y = false) ∧ (∀ j z, j < i → l !! j = Some z → less y z = true)
    end.
  Proof.
    destruct l as [|x l]; [done|]. cbn. destruct (least_fold l x) as (H1 & H2 & H3). set (y := fold_left _ l x) in *.
    assert (∀ j z, (x :: l) !! j = Some z → less z y = false) as H.
    { intros [|j] z Hz; cbn in Hz; [by injection Hz as <-|]. apply H2. by eapply elem_of_list_lookup_2. }
    destruct H3 as [->|(i & Hi & H3 & H4)]; [exists 0; split; [done|]; split; [done|]; lia|].
    exists (S i). split; [done|]. split; [done|]. intros [|j] z Hj Hz; cbn in Hz; [by injection Hz as <-|]. by apply (H4 j z); [lia|].
  Qed.
End least.

Lemma position_ori {V T} (m : mesh V T) v : v ≠ GHOST → position m v = idx_ori m v.
Proof. intros Hv. unfold idx_ori. by rewrite (proj2 (N.eqb_neq _ _) Hv). Qed.

(** ** C54 *)
(** [edge_intersections] lists the same crossings as [edge_intersections_raw] (C52), each with its point.  For a crossing
    without the ghost vertex this is well-defined and lies strictly between the ends of the segment and strictly inside the
    triangle or edge crossed. *)
Theorem C54_points {V T} (m : mesh V T) v0 v1 n p0 p1 l all : v0 ≠ GHOST → v1 ≠ GHOST → idx_ori m v0 = Some p0 → idx_ori m v1 = Some p1 →
  exact_way n m v0 v1 = Some (l, all) → (∀ g x, (g, x) ∈ l → hits tri_edge_bary edge_edge_bary coplanar m v0 v1 g x) →
  ∃ L, edge_intersections tri_edge_bary edge_edge_bary coplanar n m v0 v1 = Some (L, all) ∧ L.*1 = l.*1 ∧
    ∀ g P k qs, (g, (P, k)) ∈ L → GHOST ∉ corners g → mapM (idx_ori m) (corners g) = Some qs →
      k ≠ 0%Z ∧ between P k p0 p1 ∧ inside P k qs.
Proof.
  intros N0 N1 E0 E1 E Hh. unfold edge_intersections. rewrite !position_ori, E0, E1, E by done. cbn [mbind option_bind]. eexists. split; [done|]. split.
  { rewrite <- list_fmap_compose. by apply list_fmap_ext. }
  intros G P k qs ([g x] & [= <- <- <-] & Hi)%elem_of_list_In%in_map_iff Hg Eq. apply elem_of_list_In, Hh in Hi. 
  destruct g as [[a b]|[[a b] c]]; cbn [hits corners mapM mbind option_bind] in *.
  - destruct Hi as (Hf & bs & Eb & Hs & ->). destruct (idx_ori m a) as [q0|] eqn:Ea; [|done]. cbn in Eq. destruct (idx_ori m b) as [q1|] eqn:Eb'; [|done]. cbn in Eq. injection Eq as <-.
    assert (∃ b0 b1 b2 b3, bs = [b0; b1; b2; b3]) as (b0 & b1 & b2 & b3 & ->).
    { unfold edge_edge_bary in Eb. repeat (destruct (idx_ori m _); [|done]; cbn in Eb). destruct (_ && _ && _); injection Eb as <-; eauto. }
    destruct (C53_point m a b v0 v1 q0 q1 p0 p1 b0 b1 b2 b3) as [H1 H2]; [|done..|]. { rewrite !not_elem_of_cons in *. split_and!; set_solver. }
    cbn [nth fst snd] in *. rewrite !forall4 in Hs. split; [lia|]. rewrite pt_eq in H2. destruct p0 as [xa ya za], p1 as [xb yb zb], q0 as [xc yc zc], q1 as [xd yd zd]. 
    unfold scale, vadd, vsub in H2. cbn [px py pz] in H2. destruct H2 as (K1 & K2 & K3). 
    split; unfold between, inside.
    + exists (Z.abs b2), (Z.abs b3). split; [lia|]. split; [lia|]. rewrite pt_eq. unfold vscale, vadd, vsub. cbn [px py pz].
      assert (Z.abs b2 = Z.sgn (b2 + b3) * b2 ∧ Z.abs b3 = Z.sgn (b2 + b3) * b3)%Z as [-> ->] by lia. split; [|split]; ring.
    + exists (Z.abs b0), (Z.abs b1). split; [lia|]. split; [lia|]. rewrite pt_eq. unfold vscale, vadd, vsub. cbn [px py pz].
      assert (Z.abs b0 = Z.sgn (b2 + b3) * b0 ∧ Z.abs b1 = Z.sgn (b2 + b3) * b1)%Z as [-> ->] by lia. rewrite <- K1, <- K2, <- K3, <- H1. split; [|split]; ring.
  - destruct Hi as (bs & Eb & Hs & ->). destruct (idx_ori m a) as [q0|] eqn:Ea; [|done]. cbn in Eq. destruct (idx_ori m b) as [q1|] eqn:Eb'; [|done]. cbn in Eq.
    destruct (idx_ori m c) as [q2|] eqn:Ec; [|done]. cbn in Eq. injection Eq as <-.
    destruct (teb_inv _ _ _ _ _ _ _ Eb) as (b0 & b1 & b2 & b3 & b4 & -> & _).
    destruct (C51_point m a b c v0 v1 q0 q1 q2 p0 p1 b0 b1 b2 b3 b4) as [H1 H2]; [|done..|]. { rewrite !not_elem_of_cons in *. split_and!; set_solver. }
    cbn [nth fst snd] in *. rewrite !forall5 in Hs. split; [lia|]. rewrite pt_eq in H2. destruct p0 as [xa ya za], p1 as [xb yb zb], q0 as [xc yc zc], q1 as [xd yd zd], q2 as [xe ye ze].
    unfold scale, vadd, vsub in H2. cbn [px py pz] in H2. destruct H2 as (K1 & K2 & K3). 
    split; unfold between, inside.
    + exists (Z.abs b3), (Z.abs b4). split; [lia|]. split; [lia|]. rewrite pt_eq. unfold vscale, vadd, vsub. cbn [px py pz].
      assert (Z.abs b3 = Z.sgn (b3 + b4) * b3 ∧ Z.abs b4 = Z.sgn (b3 + b4) * b4)%Z as [-> ->] by lia. split; [|split]; ring.
    + exists (Z.abs b0), (Z.abs b1), (Z.abs b2). split; [lia|]. split; [lia|]. split; [lia|]. rewrite pt_eq. unfold vscale, vadd, vsub. cbn [px py pz].
      assert (Z.abs b0 = Z.sgn (b3 + b4) * b0 ∧ Z.abs b1 = Z.sgn (b3 + b4) * b1 ∧ Z.abs b2 = Z.sgn (b3 + b4) * b2)%Z as (-> & -> & ->) by lia. rewrite <- K1, <- K2, <- K3, <- H1. split; [|split]; ring.
Qed.
Print Assumptions C54_points.

(** [edge_mid_intersection] returns nothing just if nothing is crossed, and otherwise the first of the crossings, with its
    point, whose two coordinates along the segment, as they are, differ least. *)
Theorem C54_choice {V T} tbary ebary flat (m : mesh V T) v0 v1 n L l all :
  edge_intersections_raw tbary ebary flat n m v0 v1 = Some (l, all) → edge_intersections tbary ebary flat n m v0 v1 = Some (L, all) →
  ∃ r, edge_mid_intersection tbary ebary flat n m v0 v1 = Some (r, all) ∧
    match r with
    | None => l = []
    | Some e => ∃ i g x, L !! i = Some e ∧ l !! i = Some (g, x) ∧
        (∀ j h y, l !! j = Some (h, y) → (Z.abs (x.1 - x.2) ≤ Z.abs (y.1 - y.2))%Z) ∧
        (∀ j h y, j < i → l !! j = Some (h, y) → (Z.abs (x.1 - x.2) < Z.abs (y.1 - y.2))%Z)
    end.
Proof.
  intros E. unfold edge_intersections, edge_mid_intersection. rewrite E. destruct (position m v0) as [p0|]; [|done]. destruct (position m v1) as [p1|]; [|done].
  cbn [mbind option_bind]. intros [= <-]. eexists. split; [done|].
  set (less := λ a b : crossing, _). assert (∀ a b, less a b = true ↔ (Z.abs (a.2.1 - a.2.2) < Z.abs (b.2.1 - b.2.2))%Z) as Hl by (intros a b; apply Z.ltb_lt).
  assert (∀ a b, less a b = false ↔ (Z.abs (b.2.1 - b.2.2) ≤ Z.abs (a.2.1 - a.2.2))%Z) as Hl' by (intros a b; apply Z.ltb_ge).
  pose proof (least_spec less) as Hs. specialize (Hs ltac:(intros a; apply Hl'; lia) ltac:(intros a b c; rewrite !Hl'; lia) ltac:(intros a b; rewrite Hl, Hl'; lia) l).
  destruct (least less l) as [[g x]|]; cbn [option_map]; [|done]. destruct Hs as (i & Hi & H1 & H2). exists i, g, x. split.
  { change (List.map (λ c : crossing, (c.1, point_at p0 p1 c.2)) l) with ((λ c : crossing, (c.1, point_at p0 p1 c.2)) <$> l). rewrite list_lookup_fmap, Hi. done. }
  split; [done|]. split.
  - intros j h y Hj. by apply H1, Hl' in Hj.
  - intros j h y Hj Hy. by apply (H2 j (h, y) Hj), Hl in Hy.
Qed.
Print Assumptions C54_choice.

(** In general position (see C52) the search ends, and returns nothing or a triangle of the mesh, with a well-defined point
    strictly between the ends of the segment, and inside the triangle if that does not contain the ghost vertex. *)
Theorem C54_general {V T} (m : mesh V T) v0 v1 p0 p1 : mesh_ok m → upright m → solid m v0 → solid m v1 → generic m v0 v1 → idx_ori m v0 = Some p0 → idx_ori m v1 = Some p1 →
  ∃ r, (∀ n, 12 * length (im_keys (m_tets m)) < n → edge_mid_intersection tri_edge_bary edge_edge_bary coplanar n m v0 v1 = Some (r, true)) ∧
    match r with
    | None => True
    | Some (g, (P, k)) => ∃ a b c, g = STri (a, b, c) ∧ has_tri m a b c ∧ k ≠ 0%Z ∧ between P k p0 p1 ∧
        (GHOST ∉ [a; b; c] → ∀ q0 q1 q2, idx_ori m a = Some q0 → idx_ori m b = Some q1 → idx_ori m c = Some q2 → inside P k [q0; q1; q2])
    end.
Proof.
  intros Hok Hup H0 H1 Hg E0 E1. pose proof (C52_exact_tests m v0 v1 Hok H0 H1) as Hev. destruct (C52_general m v0 v1 Hok Hup H0 H1 Hg) as (l & El & Htri & _).
  set (less := λ a b : crossing, Z.ltb (Z.abs (a.2.1 - a.2.2)) (Z.abs (b.2.1 - b.2.2))). exists (option_map (λ c : crossing, (c.1, point_at p0 p1 c.2)) (least less l)). split.
  { intros n Hn. unfold edge_mid_intersection. rewrite !position_ori, E0, E1, (El n Hn) by apply H0 || apply H1. done. }
  specialize (El _ (Nat.lt_succ_diag_r _)). destruct (C52_each _ _ _ m v0 v1 _ l true Hok Hev H0 El) as [Heach _].
  destruct (C54_points m v0 v1 _ p0 p1 l true (proj1 H0) (proj1 H1) E0 E1 El) as (L & EL & _ & HL). { intros g x Hi. by apply Heach. }
  destruct (C54_choice _ _ _ m v0 v1 _ L l true El EL) as (r & Er & Hr). unfold edge_mid_intersection in Er. rewrite !position_ori, E0, E1, El in Er by apply H0 || apply H1.
  cbn [mbind option_bind] in Er. fold less in Er. injection Er as Er. rewrite Er. clear Er. destruct r as [[g [P k]]|]; [|done]. destruct Hr as (i & g' & x & HLi & Hli & _).
  assert ((g', x) ∈ l) as Hi by (by eapply elem_of_list_lookup_2). assert ((g, (P, k)) ∈ L) as HI by (by eapply elem_of_list_lookup_2).
  assert (g' = g ∧ (P, k) = point_at p0 p1 x) as [-> Ep].
  { unfold edge_intersections in EL. rewrite !position_ori, E0, E1, El in EL by apply H0 || apply H1. cbn [mbind option_bind] in EL. injection EL as <-.
    change (List.map (λ c : crossing, (c.1, point_at p0 p1 c.2)) l) with ((λ c : crossing, (c.1, point_at p0 p1 c.2)) <$> l) in HLi. apply list_lookup_fmap_Some in HLi as (c & Hc & Ec). assert (c = (g', x)) as -> by (apply (inj Some); rewrite <- Hc; exact Hli). cbn in Ec. injection Ec as -> -> ->. done. }
  destruct (Htri _ _ Hi) as [[[a b] c] ->]. destruct (Heach _ _ Hi) as (Hp & Hh & _). exists a, b, c. split; [done|]. split; [exact Hp|].
  injection Ep as -> ->. destruct Hh as (bs & Eb & Hs & ->). destruct (teb_inv _ _ _ _ _ _ _ Eb) as (b0 & b1 & b2 & b3 & b4 & -> & _). cbn [nth fst snd] in *. rewrite !forall5 in Hs. split; [lia|]. split.
  - destruct p0 as [xa ya za], p1 as [xb yb zb]. exists (Z.abs b3), (Z.abs b4). split; [lia|]. split; [lia|]. rewrite pt_eq. unfold vscale, vadd, vsub. cbn [px py pz].
    assert (Z.abs b3 = Z.sgn (b3 + b4) * b3 ∧ Z.abs b4 = Z.sgn (b3 + b4) * b4)%Z as [-> ->] by lia. split; [|split]; ring.
  - intros Hn q0 q1 q2 Ea Eb' Ec. destruct (HL _ _ _ [q0; q1; q2] HI Hn) as (_ & _ & ?); [|done]. cbn [corners mapM]. rewrite Ea, Eb', Ec. done.
Qed.
Print Assumptions C54_general.

(** Two new vertices: the segment (0, 4) crosses two triangles, at 4/7 and 2/3 of its length.  The second one is returned,
    because its coordinates, (8, 16), are closer together than those of the first one, (48, 64); they add up to different sums. *)
Definition mid_ops : list (op Z) := [OInsert (walker_from_tet_id 1) (Pt 1 2 4) 14%Z; OInsert (walker_from_tet_id 7) (Pt 1 1 3) 15%Z].
Notation exact_points := (edge_intersections tri_edge_bary edge_edge_bary coplanar).
Notation exact_mid := (edge_mid_intersection tri_edge_bary edge_edge_bary coplanar).
Example C54_witness : reachable (ex mid_ops) ∧ upright (ex mid_ops) ∧ solid (ex mid_ops) 0 ∧ solid (ex mid_ops) 4 ∧ generic (ex mid_ops) 0 4 ∧
  idx_ori (ex mid_ops) 0 = Some (Pt 0 0 0) ∧ idx_ori (ex mid_ops) 4 = Some (Pt 1 2 4) ∧
  exact_points 200 (ex mid_ops) 0 4 = Some ([(STri (3, 2, 1)%N, (Pt (-64) (-128) (-256), -112)%Z); (STri (1, 5, 2)%N, (Pt (-16) (-32) (-64), -24)%Z)], true) ∧
  exact_mid 200 (ex mid_ops) 0 4 = Some (Some (STri (1, 5, 2)%N, (Pt (-16) (-32) (-64), -24)%Z), true).
Proof.
  split; [apply ex_reachable; vm_compute; reflexivity|]. split; [apply uprightb_spec; vm_compute; reflexivity|].
  split; [apply solidb_spec; vm_compute; reflexivity|]. split; [apply solidb_spec; vm_compute; reflexivity|]. split; [apply genericb_spec; vm_compute; reflexivity|].
  repeat (split; [vm_compute; reflexivity|]). vm_compute. reflexivity.
Qed.

(** The point returned is not the one closest to the middle of the segment, as the documentation has it. *)
Theorem C54_closest_refuted : ¬ (∀ (m : mesh Z unit) v0 v1 p0 p1 n L g P k, reachable m → upright m → solid m v0 → solid m v1 → generic m v0 v1 →
  idx_ori m v0 = Some p0 → idx_ori m v1 = Some p1 →
  exact_points n m v0 v1 = Some (L, true) → exact_mid n m v0 v1 = Some (Some (g, (P, k)), true) → ∀ h Q j, (h, (Q, j)) ∈ L → no_farther P k Q j p0 p1).
Proof.
  intros H. destruct C54_witness as (W1 & W2 & W3 & W4 & W5 & W6 & W7 & W8 & W9).
  specialize (H _ _ _ _ _ _ _ _ _ _ W1 W2 W3 W4 W5 W6 W7 W8 W9 _ _ _ ltac:(left)). vm_compute in H. by apply H.
Qed.
Print Assumptions C54_closest_refuted.
