(** The geometric predicates of a mesh. *)
From Coq Require Import NArith ZArith Lia.
From stdpp Require Import base numbers list gmap option.
From Verif Require Import IdMapModel WalkerModel WalkerSpec MeshModel MeshSpec MeshViews WalkerProofs MeshOps MeshCheck Flip44Ok History GeoModel GeoSpec GeoProofs.
Local Open Scope Z_scope.

Section geo.
  Context {V T : Type}.
  Implicit Types (m : mesh V T) (w : walker) (v : N).

  Lemma idx_ori_ghost m : idx_ori m GHOST = Some (m_center m).
  Proof. done. Qed.
  Lemma idx_ori_real m v p : v ≠ GHOST → idx_ori m v = Some p ↔ v_pos <$> im_get (m_verts m) v = Some p.
  Proof. intros Hv. unfold idx_ori. by rewrite (proj2 (N.eqb_neq v GHOST) Hv). Qed.

  Lemma has_ghost_in l : has_ghost l = true ↔ GHOST ∈ l.
  Proof.
    unfold has_ghost. rewrite existsb_exists. split.
    - intros (x & Hin & E). apply N.eqb_eq in E as <-. by apply elem_of_list_In.
    - intros H. exists GHOST. split; [by apply elem_of_list_In|]. apply N.eqb_refl.
  Qed.
  Lemma has_ghost_perm l l' : (∀ x, x ∈ l ↔ x ∈ l') → has_ghost l = has_ghost l'.
  Proof.
    intros H. apply eq_true_iff_eq. rewrite !has_ghost_in. apply H.
  Qed.

  (** ** [orient_3d]. *)
  Ltac points := repeat match goal with
    | |- context [idx_ori ?m ?v] => let p := fresh "p" in destruct (idx_ori m v) as [p|] eqn:?
    end.

  Lemma o3_swap (f : N → N → N → N → arr4 N) m v0 v1 v2 v3 :
    (f = (λ a b c d, A4 b a c d) ∨ f = (λ a b c d, A4 c b a d) ∨ f = (λ a b c d, A4 d b c a) ∨
     f = (λ a b c d, A4 a c b d) ∨ f = (λ a b c d, A4 a d c b) ∨ f = (λ a b c d, A4 a b d c)) →
    let u := f v0 v1 v2 v3 in
    orient_3d m (q0 u) (q1 u) (q2 u) (q3 u) = Z.opp <$> orient_3d m v0 v1 v2 v3.
  Proof.
    intros Hf u. unfold orient_3d.
    assert (has_ghost [q0 u; q1 u; q2 u; q3 u] = has_ghost [v0; v1; v2; v3]) as Hg.
    { apply has_ghost_perm. intros x. unfold u. destruct Hf as [-> |[-> |[-> |[-> |[-> | -> ]]]]]; cbn [q0 q1 q2 q3];
        rewrite !elem_of_cons; tauto. }
    rewrite Hg. clear Hg. generalize (if has_ghost [v0; v1; v2; v3] then -1 else 1). intros s. unfold u. clear u.
    destruct Hf as [-> |[-> |[-> |[-> |[-> | -> ]]]]]; cbn [q0 q1 q2 q3];
    destruct (idx_ori m v0) as [p0|]; destruct (idx_ori m v1) as [p1|]; destruct (idx_ori m v2) as [p2|]; destruct (idx_ori m v3) as [p3|];
      cbn [mbind option_bind fmap option_fmap option_map]; try done; f_equal; rewrite <- Z.mul_opp_r; f_equal.
    - apply orient_swap01.
    - apply orient_swap02.
    - apply orient_swap03.
    - apply orient_swap12.
    - apply orient_swap13.
    - apply orient_swap23.
  Qed.

  Lemma opp_opp (o : option Z) : Z.opp <$> (Z.opp <$> o) = o.
  Proof. destruct o; cbn; [|done]. by rewrite Z.opp_involutive. Qed.

  (** The twelve walker positions of a tet are even reorderings. *)
  Lemma o3_even m vs (e : nat) : (e < 12)%nat →
    let u := verts_at vs e in orient_3d m (q0 u) (q1 u) (q2 u) (q3 u) = orient_3d m (q0 vs) (q1 vs) (q2 vs) (q3 vs).
  Proof.
    intros He u. unfold orient_3d. destruct vs as [v0 v1 v2 v3].
    assert (has_ghost [q0 u; q1 u; q2 u; q3 u] = has_ghost [v0; v1; v2; v3]) as Hg.
    { apply has_ghost_perm. intros x. unfold u. do 12 (destruct e as [|e]; [cbn; rewrite !elem_of_cons; tauto|]). lia. }
    rewrite Hg. clear Hg. cbn [q0 q1 q2 q3]. generalize (if has_ghost [v0; v1; v2; v3] then -1 else 1). intros s.
    assert (∀ p0 p1 p2 p3, let v := verts_at (A4 p0 p1 p2 p3) e in orient p0 p1 p2 p3 = orient (q0 v) (q1 v) (q2 v) (q3 v)) as Ho.
    { intros p0 p1 p2 p3 v. destruct (orient_even p0 p1 p2 p3 e) as [->|]; [done|lia]. }
    do 12 (destruct e as [|e]; [unfold u; cbn;
      destruct (idx_ori m v0) as [p0|]; destruct (idx_ori m v1) as [p1|]; destruct (idx_ori m v2) as [p2|]; destruct (idx_ori m v3) as [p3|];
      cbn [mbind option_bind fmap option_fmap option_map]; try done; do 2 f_equal; symmetry; apply Ho|]). lia.
  Qed.

  Lemma o3_repeat m v0 v1 v2 v3 : ¬ NoDup [v0; v1; v2; v3] → is_Some (orient_3d m v0 v1 v2 v3) → orient_3d m v0 v1 v2 v3 = Some 0.
  Proof.
    intros Hn. unfold orient_3d. assert (v0 = v1 ∨ v0 = v2 ∨ v0 = v3 ∨ v1 = v2 ∨ v1 = v3 ∨ v2 = v3) as Hd.
    { destruct (decide (v0 = v1)); [tauto|]. destruct (decide (v0 = v2)); [tauto|]. destruct (decide (v0 = v3)); [tauto|].
      destruct (decide (v1 = v2)); [tauto|]. destruct (decide (v1 = v3)); [tauto|]. destruct (decide (v2 = v3)); [tauto|].
      exfalso. apply Hn. repeat apply NoDup_cons_2; rewrite ?elem_of_cons, ?elem_of_nil; try tauto. apply NoDup_nil_2. }
    destruct (idx_ori m v0) as [p0|] eqn:E0; [|by intros []]. destruct (idx_ori m v1) as [p1|] eqn:E1; [|by intros []].
    destruct (idx_ori m v2) as [p2|] eqn:E2; [|by intros []]. destruct (idx_ori m v3) as [p3|] eqn:E3; [|by intros []].
    intros _. cbn [mbind option_bind]. f_equal. assert (orient p0 p1 p2 p3 = 0) as ->; [|ring].
    destruct Hd as [->|[->|[->|[->|[->| ->]]]]].
    - rewrite E0 in E1. injection E1 as ->. apply orient_same01.
    - rewrite E0 in E2. injection E2 as ->. apply orient_same02.
    - rewrite E0 in E3. injection E3 as ->. apply orient_same03.
    - rewrite E1 in E2. injection E2 as ->. apply orient_same12.
    - rewrite E1 in E3. injection E3 as ->. apply orient_same13.
    - rewrite E2 in E3. injection E3 as ->. apply orient_same23.
  Qed.

  Lemma o3_translate m m' t v0 v1 v2 v3 : (∀ v, idx_ori m' v = (λ p, vadd p t) <$> idx_ori m v) →
    orient_3d m' v0 v1 v2 v3 = orient_3d m v0 v1 v2 v3.
  Proof.
    intros H. unfold orient_3d. rewrite !H.
    destruct (idx_ori m v0) as [p0|]; destruct (idx_ori m v1) as [p1|]; destruct (idx_ori m v2) as [p2|]; destruct (idx_ori m v3) as [p3|];
      cbn [mbind option_bind fmap option_fmap option_map]; try done. by rewrite orient_translate.
  Qed.

  Lemma pos_idx m v : v ≠ GHOST → v_pos <$> im_get (m_verts m) v = idx_ori m v.
  Proof. intros H. unfold idx_ori. by rewrite (proj2 (N.eqb_neq v GHOST) H). Qed.

  Lemma volume_orient m id t : tet_get m id = Some t → GHOST ∉ list4 (t_vs t) →
    tet_volume_x6 m id = Some <$> orient_3d m (q0 (t_vs t)) (q1 (t_vs t)) (q2 (t_vs t)) (q3 (t_vs t)).
  Proof.
    intros Ht Hg. unfold tet_volume_x6, orient_3d. rewrite Ht. cbn [mbind option_bind].
    assert (has_ghost (list4 (t_vs t)) = false) as Hg' by (apply not_true_iff_false; by rewrite has_ghost_in).
    assert (has_ghost [q0 (t_vs t); q1 (t_vs t); q2 (t_vs t); q3 (t_vs t)] = false) as Hg2 by exact Hg'.
    rewrite Hg', Hg2. unfold list4 in Hg. rewrite !elem_of_cons, elem_of_nil in Hg.
    rewrite !pos_idx by (intros E; apply Hg; rewrite E; tauto).
    destruct (idx_ori m (q0 _)) as [p0|]; destruct (idx_ori m (q1 _)) as [p1|]; destruct (idx_ori m (q2 _)) as [p2|];
      destruct (idx_ori m (q3 _)) as [p3|]; cbn [mbind option_bind fmap option_fmap option_map]; try done.
    do 2 f_equal. unfold orient. ring.
  Qed.

  Lemma wverts_at m w t : tet_get m (w_tet w) = Some t → w_verts m w = Some (verts_at (t_vs t) (w_edge w)).
  Proof. intros E. unfold w_verts, w_first, w_second, w_third, w_fourth. by rewrite E. Qed.

  Lemma volume_walker m w a b c d x : valid m w → w_verts m w = Some (A4 a b c d) →
    tet_volume_x6 m (w_tet w) = Some (Some x) → orient_3d m a b c d = Some x.
  Proof.
    intros [[t Ht] He] Hv Hx. rewrite (wverts_at m w t Ht) in Hv. injection Hv as <- <- <- <-.
    pose proof (o3_even m (t_vs t) (w_edge w) He) as E. cbv zeta in E. cbn [verts_at q0 q1 q2 q3] in E. rewrite E.
    assert (GHOST ∉ list4 (t_vs t)) as Hg.
    { intros Hg. apply has_ghost_in in Hg. unfold tet_volume_x6 in Hx. rewrite Ht in Hx. cbn [mbind option_bind] in Hx.
      by rewrite Hg in Hx. }
    rewrite (volume_orient m _ t Ht Hg) in Hx. destruct (orient_3d _ _ _ _ _); [|done]. injection Hx as ->. done.
  Qed.

  Lemma o3_ghost m v0 v1 v2 p0 p1 p2 : idx_ori m v0 = Some p0 → idx_ori m v1 = Some p1 → idx_ori m v2 = Some p2 →
    orient_3d m v0 v1 v2 GHOST = Some (- orient p0 p1 p2 (m_center m)).
  Proof.
    intros E0 E1 E2. unfold orient_3d. rewrite E0, E1, E2, idx_ori_ghost. cbn [mbind option_bind].
    assert (has_ghost [v0; v1; v2; GHOST] = true) as -> by (apply has_ghost_in; rewrite !elem_of_cons; tauto).
    done.
  Qed.

  (** ** [in_sphere]. *)
  Lemma one_ghost_cases v0 v1 v2 v3 : NoDup [v0; v1; v2; v3] →
    (v0 ≠ GHOST ∧ v1 ≠ GHOST ∧ v2 ≠ GHOST ∧ v3 ≠ GHOST) ∨ (v0 = GHOST ∧ v1 ≠ GHOST ∧ v2 ≠ GHOST ∧ v3 ≠ GHOST) ∨
    (v0 ≠ GHOST ∧ v1 = GHOST ∧ v2 ≠ GHOST ∧ v3 ≠ GHOST) ∨ (v0 ≠ GHOST ∧ v1 ≠ GHOST ∧ v2 = GHOST ∧ v3 ≠ GHOST) ∨
    (v0 ≠ GHOST ∧ v1 ≠ GHOST ∧ v2 ≠ GHOST ∧ v3 = GHOST).
  Proof.
    intros (H01 & H02 & H03 & H12 & H13 & H23)%NoDup4.
    destruct (decide (v0 = GHOST)) as [E0|E0], (decide (v1 = GHOST)) as [E1|E1], (decide (v2 = GHOST)) as [E2|E2], (decide (v3 = GHOST)) as [E3|E3];
      try tauto; exfalso; subst; tauto.
  Qed.

  Lemma eqb_ghost v : v ≠ GHOST → N.eqb v GHOST = false.
  Proof. apply N.eqb_neq. Qed.

  Lemma is_swap (f : N → N → N → N → arr4 N) m v0 v1 v2 v3 v4 : NoDup [v0; v1; v2; v3] →
    (f = (λ a b c d, A4 b a c d) ∨ f = (λ a b c d, A4 c b a d) ∨ f = (λ a b c d, A4 d b c a) ∨
     f = (λ a b c d, A4 a c b d) ∨ f = (λ a b c d, A4 a d c b) ∨ f = (λ a b c d, A4 a b d c)) →
    let u := f v0 v1 v2 v3 in
    in_sphere m (q0 u) (q1 u) (q2 u) (q3 u) v4 = Z.opp <$> in_sphere m v0 v1 v2 v3 v4.
  Proof.
    intros Hn Hf u. unfold in_sphere, u. clear u.
    assert (∀ a b c d e, insphere b a c d e = - insphere a b c d e) as I01 by (intros; apply insphere_swap01).
    assert (∀ a b c d e, insphere a c b d e = - insphere a b c d e) as I12 by (intros; apply insphere_swap12).
    assert (∀ a b c d e, insphere a b d c e = - insphere a b c d e) as I23 by (intros; apply insphere_swap23).
    assert (∀ a b c d e, insphere c b a d e = - insphere a b c d e) as I02 by (intros; rewrite (I01 b c), (I12 b a c), (I01 a b); lia).
    assert (∀ a b c d e, insphere a d c b e = - insphere a b c d e) as I13 by (intros; rewrite (I12 a c d), (I23 a c b), (I12 a b c); lia).
    assert (∀ a b c d e, insphere d b c a e = - insphere a b c d e) as I03.
    { intros. rewrite (I01 b d), (I13 b a c d), (I01 a b). lia. }
    assert (∀ a b c d, orient b a c d = - orient a b c d) as O01 by (intros; apply orient_swap01).
    assert (∀ a b c d, orient a c b d = - orient a b c d) as O12 by (intros; apply orient_swap12).
    assert (∀ a b c d, orient c b a d = - orient a b c d) as O02 by (intros; apply orient_swap02).
    pose proof (one_ghost_cases _ _ _ _ Hn) as Hc. clear Hn.
    destruct Hf as [-> |[-> |[-> |[-> |[-> | -> ]]]]]; cbn [q0 q1 q2 q3];
    (destruct (idx_ori m v0) as [p0|]; [|destruct (idx_ori m v1); destruct (idx_ori m v2); destruct (idx_ori m v3); done]);
    (destruct (idx_ori m v1) as [p1|]; [|destruct (idx_ori m v2); destruct (idx_ori m v3); done]);
    (destruct (idx_ori m v2) as [p2|]; [|destruct (idx_ori m v3); done]);
    (destruct (idx_ori m v3) as [p3|]; [|done]);
    (destruct (v_pos <$> im_get (m_verts m) v4) as [p4|]; [|done]);
    cbn [mbind option_bind fmap option_fmap option_map]; f_equal;
    destruct Hc as [(E0 & E1 & E2 & E3)|[(-> & E1 & E2 & E3)|[(E0 & -> & E2 & E3)|[(E0 & E1 & -> & E3)|(E0 & E1 & E2 & ->)]]]];
      rewrite ?(eqb_ghost v0), ?(eqb_ghost v1), ?(eqb_ghost v2), ?(eqb_ghost v3), ?N.eqb_refl by assumption;
      first [apply I01|apply I12|apply I23|apply I02|apply I13|apply I03|apply O01|apply O12|apply O02|
             (rewrite (O01 _ _ _ p4), (O12 _ _ _ p4); lia)|idtac].
  Qed.
  Lemma is_even m vs (e : nat) v4 : NoDup (list4 vs) → (e < 12)%nat →
    let u := verts_at vs e in in_sphere m (q0 u) (q1 u) (q2 u) (q3 u) v4 = in_sphere m (q0 vs) (q1 vs) (q2 vs) (q3 vs) v4.
  Proof.
    intros Hn He u. destruct vs as [v0 v1 v2 v3]. unfold list4 in Hn. cbn [q0 q1 q2 q3] in Hn.
    assert (∀ f g : N → N → N → N → arr4 N,
      (f = (λ a b c d, A4 b a c d) ∨ f = (λ a b c d, A4 c b a d) ∨ f = (λ a b c d, A4 d b c a) ∨
       f = (λ a b c d, A4 a c b d) ∨ f = (λ a b c d, A4 a d c b) ∨ f = (λ a b c d, A4 a b d c)) →
      (g = (λ a b c d, A4 b a c d) ∨ g = (λ a b c d, A4 c b a d) ∨ g = (λ a b c d, A4 d b c a) ∨
       g = (λ a b c d, A4 a c b d) ∨ g = (λ a b c d, A4 a d c b) ∨ g = (λ a b c d, A4 a b d c)) →
      let t := f v0 v1 v2 v3 in let r := g (q0 t) (q1 t) (q2 t) (q3 t) in
      in_sphere m (q0 r) (q1 r) (q2 r) (q3 r) v4 = in_sphere m v0 v1 v2 v3 v4) as H2.
    { intros f g Hf Hg t r. unfold r. rewrite is_swap; [|clear g r Hg|done].
      - unfold t. rewrite is_swap by done. apply opp_opp.
      - apply NoDup4 in Hn as (?&?&?&?&?&?). unfold t.
        destruct Hf as [-> |[-> |[-> |[-> |[-> | -> ]]]]]; cbn [q0 q1 q2 q3]; apply NoDup4; repeat split; done. }
    pose (A := λ a b c d : N, A4 b a c d). pose (B := λ a b c d : N, A4 c b a d). pose (C := λ a b c d : N, A4 d b c a).
    pose (D := λ a b c d : N, A4 a c b d). pose (E := λ a b c d : N, A4 a d c b). pose (F := λ a b c d : N, A4 a b d c).
    unfold u. cbn [q0 q1 q2 q3].
    do 12 (destruct e as [|e]; [first
      [reflexivity|apply (H2 A B); tauto|apply (H2 A C); tauto|apply (H2 A D); tauto|apply (H2 A E); tauto|apply (H2 A F); tauto
      |apply (H2 B C); tauto|apply (H2 B D); tauto|apply (H2 B E); tauto|apply (H2 C D); tauto|apply (H2 B F); tauto
      |apply (H2 C B); tauto|apply (H2 C E); tauto|apply (H2 C F); tauto|apply (H2 D E); tauto|apply (H2 D F); tauto|apply (H2 E D); tauto|apply (H2 E F); tauto]|]). lia.
  Qed.

  Lemma is_solid m v0 v1 v2 v3 v4 x o : GHOST ∉ [v0; v1; v2; v3] →
    in_sphere m v0 v1 v2 v3 v4 = Some x → orient_3d m v0 v1 v2 v3 = Some o → 0 < o →
    ∃ p0 p1 p2 p3 p4, idx_ori m v0 = Some p0 ∧ idx_ori m v1 = Some p1 ∧ idx_ori m v2 = Some p2 ∧ idx_ori m v3 = Some p3 ∧
      v_pos <$> im_get (m_verts m) v4 = Some p4 ∧
      (∃ k c r2, 0 < k ∧ on_sphere k c r2 p0 ∧ on_sphere k c r2 p1 ∧ on_sphere k c r2 p2 ∧ on_sphere k c r2 p3) ∧
      ∀ k c r2, 0 < k → on_sphere k c r2 p0 → on_sphere k c r2 p1 → on_sphere k c r2 p2 → on_sphere k c r2 p3 →
        (0 < x ↔ in_ball k c r2 p4) ∧ (x = 0 ↔ on_sphere k c r2 p4).
  Proof.
    intros Hg Hx Ho Hp. rewrite !elem_of_cons, elem_of_nil in Hg. unfold in_sphere in Hx. unfold orient_3d in Ho.
    assert (has_ghost [v0; v1; v2; v3] = false) as Hgh.
    { apply not_true_iff_false. rewrite has_ghost_in, !elem_of_cons, elem_of_nil. tauto. }
    rewrite Hgh in Ho.
    destruct (idx_ori m v0) as [p0|]; [|done]. destruct (idx_ori m v1) as [p1|]; [|done].
    destruct (idx_ori m v2) as [p2|]; [|done]. destruct (idx_ori m v3) as [p3|]; [|done].
    destruct (v_pos <$> im_get (m_verts m) v4) as [p4|]; [|done].
    cbn [mbind option_bind] in Hx, Ho. rewrite !eqb_ghost in Hx by (intros ->; tauto). injection Hx as <-. injection Ho as Ho.
    assert (0 < orient p0 p1 p2 p3) as Ho' by (destruct (orient p0 p1 p2 p3); lia).
    exists p0, p1, p2, p3, p4. do 5 (split; [done|]). split; [apply circumsphere; lia|].
    intros. by apply in_sphere_iff.
  Qed.

  Lemma is_ghost m v0 v1 v2 v4 e x o p0 p1 p2 p4 : NoDup [v0; v1; v2; GHOST] → (e < 12)%nat →
    idx_ori m v0 = Some p0 → idx_ori m v1 = Some p1 → idx_ori m v2 = Some p2 → v_pos <$> im_get (m_verts m) v4 = Some p4 →
    let u := verts_at (A4 v0 v1 v2 GHOST) e in
    in_sphere m (q0 u) (q1 u) (q2 u) (q3 u) v4 = Some x → orient_3d m (q0 u) (q1 u) (q2 u) (q3 u) = Some o → 0 < o →
    (0 < x ↔ separates p0 p1 p2 p4 (m_center m)) ∧ x = orient p0 p1 p2 p4.
  Proof.
    intros Hn He E0 E1 E2 E4 u Hx Ho Hp. unfold u in *. rewrite is_even in Hx by done. rewrite o3_even in Ho by done.
    cbn [q0 q1 q2 q3] in *. rewrite (o3_ghost m v0 v1 v2 p0 p1 p2 E0 E1 E2) in Ho. injection Ho as Ho.
    unfold in_sphere in Hx. rewrite E0, E1, E2, E4, idx_ori_ghost in Hx. cbn [mbind option_bind] in Hx.
    apply NoDup4 in Hn as (_&_&N0&_&N1&N2). rewrite !eqb_ghost, N.eqb_refl in Hx by done. injection Hx as <-.
    split; [|done]. unfold separates. clear -Hp Ho. revert Ho. generalize (orient p0 p1 p2 p4) (orient p0 p1 p2 (m_center m)). intros; nia.
  Qed.

  (** ** Segments, triangles, tets. *)
  Lemma forallb_pos l : forallb (λ c, 0 <? c) l = true ↔ Forall (λ x, 0 < x) l.
  Proof. rewrite forallb_forall, List.Forall_forall. setoid_rewrite Z.ltb_lt. done. Qed.
  Lemma forallb_neg l : forallb (λ c, c <? 0) l = true ↔ Forall (λ x, x < 0) l.
  Proof. rewrite forallb_forall, List.Forall_forall. setoid_rewrite Z.ltb_lt. done. Qed.

  Lemma no_ghost l : GHOST ∉ l → has_ghost l = false.
  Proof. intros H. apply not_true_iff_false. by rewrite has_ghost_in. Qed.

  Lemma tie_solid m v0 v1 v2 v3 v4 p0 p1 p2 p3 p4 r : GHOST ∉ [v0; v1; v2; v3; v4] →
    idx_ori m v0 = Some p0 → idx_ori m v1 = Some p1 → idx_ori m v2 = Some p2 → idx_ori m v3 = Some p3 → idx_ori m v4 = Some p4 →
    tri_intersects_edge m v0 v1 v2 v3 v4 = Some r →
    r = true ↔ open_tri_meets_open_segment p0 p1 p2 p3 p4 ∧ orient p0 p1 p2 p3 ≠ 0.
  Proof.
    intros Hg E0 E1 E2 E3 E4. rewrite !elem_of_cons, elem_of_nil in Hg. unfold tri_intersects_edge, tri_edge_bary, orient_3d.
    rewrite E0, E1, E2, E3, E4. rewrite !no_ghost by (rewrite !elem_of_cons, elem_of_nil; tauto).
    cbn [mbind option_bind]. rewrite !Z.mul_1_l. intros H. apply (inj Some) in H as <-.
    rewrite orb_true_iff, forallb_pos, forallb_neg. apply tri_segment.
  Qed.

  Lemma tie_ghost_end m v0 v1 v2 v3 p0 p1 p2 p3 r : GHOST ∉ [v0; v1; v2; v3] →
    idx_ori m v0 = Some p0 → idx_ori m v1 = Some p1 → idx_ori m v2 = Some p2 → idx_ori m v3 = Some p3 →
    tri_intersects_edge m v0 v1 v2 v3 GHOST = Some r →
    r = true ↔ open_tri_meets_open_ray p0 p1 p2 p3 (m_center m) ∧ orient p0 p1 p2 p3 ≠ 0.
  Proof.
    intros Hg E0 E1 E2 E3. rewrite !elem_of_cons, elem_of_nil in Hg. unfold tri_intersects_edge, tri_edge_bary, orient_3d.
    rewrite E0, E1, E2, E3, idx_ori_ghost. rewrite (no_ghost [v2; v1; v0; v3]) by (rewrite !elem_of_cons, elem_of_nil; tauto).
    rewrite !(proj2 (has_ghost_in _)) by (rewrite !elem_of_cons; tauto).
    cbn [mbind option_bind]. rewrite !Z.mul_1_l. intros H. apply (inj Some) in H as <-.
    rewrite orb_true_iff, forallb_pos, forallb_neg.
    assert (∀ z, -1 * z = - z) as Hz by (intros; lia).
    pose proof (tri_ray p0 p1 p2 p3 (m_center m)) as Ht. cbv zeta in Ht. rewrite <- Ht. by rewrite !Hz.
  Qed.

  Lemma tie_sym m v0 v1 v2 v3 v4 : tri_intersects_edge m v0 v1 v2 v4 v3 = tri_intersects_edge m v0 v1 v2 v3 v4.
  Proof.
    unfold tri_intersects_edge, tri_edge_bary.
    pose proof (o3_swap (λ a b c d, A4 a b d c) m v1 v2 v3 v4) as S0. pose proof (o3_swap (λ a b c d, A4 a b d c) m v2 v0 v3 v4) as S1.
    pose proof (o3_swap (λ a b c d, A4 a b d c) m v0 v1 v3 v4) as S2. pose proof (o3_swap (λ a b c d, A4 c b a d) m v0 v1 v2 v4) as S3.
    pose proof (o3_swap (λ a b c d, A4 c b a d) m v2 v1 v0 v3) as S4. cbn [q0 q1 q2 q3] in *.
    rewrite S0, S1, S2, S3, S4 by tauto. clear.
    destruct (orient_3d m v1 v2 v3 v4) as [b0|]; [|done]. destruct (orient_3d m v2 v0 v3 v4) as [b1|]; [|done].
    destruct (orient_3d m v0 v1 v3 v4) as [b2|]; [|done].
    destruct (orient_3d m v0 v1 v2 v4) as [b3|]; destruct (orient_3d m v2 v1 v0 v3) as [b4|]; cbn; try done. f_equal.
    rewrite !andb_true_r.
    assert (∀ z, (0 <? - z) = (z <? 0)) as H1 by (intros; apply eq_true_iff_eq; rewrite !Z.ltb_lt; lia).
    assert (∀ z, (- z <? 0) = (0 <? z)) as H2 by (intros; apply eq_true_iff_eq; rewrite !Z.ltb_lt; lia).
    rewrite !H1, !H2. destruct (b0 <? 0), (b1 <? 0), (b2 <? 0), (b3 <? 0), (b4 <? 0), (0 <? b0), (0 <? b1), (0 <? b2), (0 <? b3), (0 <? b4); done.
  Qed.

  (** With a tie-breaking test that never contradicts the exact one. *)
  Lemma tie_sim sim m v0 v1 v2 v3 v4 p0 p1 p2 p3 p4 r : sim_exact sim → GHOST ∉ [v0; v1; v2; v3; v4] →
    idx_ori m v0 = Some p0 → idx_ori m v1 = Some p1 → idx_ori m v2 = Some p2 → idx_ori m v3 = Some p3 → idx_ori m v4 = Some p4 →
    tri_intersects_edge_sim sim m v0 v1 v2 v3 v4 = Some r →
    (open_tri_meets_open_segment p0 p1 p2 p3 p4 ∧ orient p0 p1 p2 p3 ≠ 0 → r = true) ∧
    (Forall (λ x, x ≠ 0) [orient p1 p2 p3 p4; orient p2 p0 p3 p4; orient p0 p1 p3 p4; orient p0 p1 p2 p4; orient p0 p1 p2 p3] →
     r = true → open_tri_meets_open_segment p0 p1 p2 p3 p4).
  Proof.
    intros Hs Hg E0 E1 E2 E3 E4. rewrite !elem_of_cons, elem_of_nil in Hg. unfold tri_intersects_edge_sim, orient_3d_sim.
    rewrite E0, E1, E2, E3, E4. rewrite !no_ghost by (rewrite !elem_of_cons, elem_of_nil; tauto).
    cbn [mbind option_bind]. rewrite !xorb_false_l. intros H. apply (inj Some) in H as <-.
    pose proof (tri_segment p0 p1 p2 p3 p4) as Ht. cbv zeta in Ht.
    pose proof (orient_swap02 p0 p1 p2 p3) as S. split.
    - intros H%Ht. rewrite !andb_true_iff, !Bool.eqb_true_iff.
      destruct H as [H|H]; rewrite !list.Forall_cons in H; destruct H as (H0 & H1 & H2 & H3 & H4 & _).
      + rewrite (proj1 (Hs v2 v1 v0 v3 p2 p1 p0 p3) H4), (proj1 (Hs v0 v1 v2 v4 p0 p1 p2 p4) H3), (proj1 (Hs v0 v1 v3 v4 p0 p1 p3 p4) H2),
          (proj1 (Hs v1 v2 v3 v4 p1 p2 p3 p4) H0), (proj1 (Hs v2 v0 v3 v4 p2 p0 p3 p4) H1). done.
      + rewrite (proj2 (Hs v2 v1 v0 v3 p2 p1 p0 p3) H4), (proj2 (Hs v0 v1 v2 v4 p0 p1 p2 p4) H3), (proj2 (Hs v0 v1 v3 v4 p0 p1 p3 p4) H2),
          (proj2 (Hs v1 v2 v3 v4 p1 p2 p3 p4) H0), (proj2 (Hs v2 v0 v3 v4 p2 p0 p3 p4) H1). done.
    - intros Hz H. rewrite !list.Forall_cons in Hz. destruct Hz as (Z0 & Z1 & Z2 & Z3 & Z4 & _).
      rewrite !andb_true_iff, !Bool.eqb_true_iff in H. destruct H as (((H3 & H2) & H0) & H1). apply Ht.
      assert (orient p2 p1 p0 p3 ≠ 0) as Z4' by lia.
      assert (∀ a b c d pa pb pc pd, orient pa pb pc pd ≠ 0 → sim (a, pa) (b, pb) (c, pc) (d, pd) = true → 0 < orient pa pb pc pd) as Hp.
      { intros a b c d pa pb pc pd Hne Ht'. destruct (Z.lt_trichotomy (orient pa pb pc pd) 0) as [Hl|[Hl|Hl]]; [|done|done].
        by rewrite (proj2 (Hs a b c d pa pb pc pd) Hl) in Ht'. }
      assert (∀ a b c d pa pb pc pd, orient pa pb pc pd ≠ 0 → sim (a, pa) (b, pb) (c, pc) (d, pd) = false → orient pa pb pc pd < 0) as Hn.
      { intros a b c d pa pb pc pd Hne Ht'. destruct (Z.lt_trichotomy (orient pa pb pc pd) 0) as [Hl|[Hl|Hl]]; [done|done|].
        by rewrite (proj1 (Hs a b c d pa pb pc pd) Hl) in Ht'. }
      destruct (sim (v2, p2) (v1, p1) (v0, p0) (v3, p3)) eqn:H4; [left|right];
        (repeat apply Forall_cons_2); try apply Forall_nil_2; first [by eapply Hp|by eapply Hn].
  Qed.

  Lemma tiv_spec sim m v0 v1 v2 v3 v4 p0 p1 p2 p3 p4 r : sim_exact sim → GHOST ∉ [v0; v1; v2; v3; v4] →
    idx_ori m v0 = Some p0 → idx_ori m v1 = Some p1 → idx_ori m v2 = Some p2 → idx_ori m v3 = Some p3 → idx_ori m v4 = Some p4 →
    0 < orient p0 p1 p2 p3 → tet_intersects_vertex sim m v0 v1 v2 v3 v4 = Some r →
    (in_open_tet p0 p1 p2 p3 p4 → r = true) ∧ (r = true → in_closed_tet p0 p1 p2 p3 p4).
  Proof.
    intros Hs Hg E0 E1 E2 E3 E4 Ho. rewrite !elem_of_cons, elem_of_nil in Hg. unfold tet_intersects_vertex, orient_3d_sim.
    rewrite E0, E1, E2, E3, E4. rewrite !no_ghost by (rewrite !elem_of_cons, elem_of_nil; tauto).
    cbn [mbind option_bind]. rewrite !xorb_false_l. intros H. apply (inj Some) in H as <-.
    rewrite in_open_iff, in_closed_iff by done. rewrite !andb_true_iff.
    assert (orient p3 p2 p1 p4 = orient p4 p1 p2 p3) as R0 by (clear; destruct p1, p2, p3, p4; geo; ring).
    assert (orient p2 p3 p0 p4 = orient p0 p4 p2 p3) as R1 by (clear; destruct p0, p2, p3, p4; geo; ring).
    assert (orient p1 p0 p3 p4 = orient p0 p1 p4 p3) as R2 by (clear; destruct p0, p1, p3, p4; geo; ring).
    rewrite <- R0, <- R1, <- R2. split.
    - intros (H0 & H1 & H2 & H3). split; [split; [split|]|]; by apply Hs.
    - intros (((H3 & H0) & H1) & H2).
      assert (∀ v0 v1 v2 v3 a b c d, sim (v0, a) (v1, b) (v2, c) (v3, d) = true → 0 ≤ orient a b c d) as Hx.
      { intros w0 w1 w2 w3 a b c d E. destruct (Z.le_gt_cases 0 (orient a b c d)) as [|Hn]; [done|].
        apply (proj2 (Hs w0 w1 w2 w3 a b c d)) in Hn. congruence. }
      split; [by eapply Hx|]. split; [by eapply Hx|]. split; by eapply Hx.
  Qed.

  (** ** Volume and centroid. *)
  Lemma volume_total m id t : mesh_ok m → tet_get m id = Some t →
    (GHOST ∈ list4 (t_vs t) ∧ tet_volume_x6 m id = Some None ∧ tet_centroid_x4 m id = Some None) ∨
    (GHOST ∉ list4 (t_vs t) ∧ ∃ p0 p1 p2 p3,
       idx_ori m (q0 (t_vs t)) = Some p0 ∧ idx_ori m (q1 (t_vs t)) = Some p1 ∧ idx_ori m (q2 (t_vs t)) = Some p2 ∧ idx_ori m (q3 (t_vs t)) = Some p3 ∧
       tet_volume_x6 m id = Some (Some (orient p0 p1 p2 p3)) ∧
       tet_centroid_x4 m id = Some (Some (vadd (vadd (vadd p0 p1) p2) p3))).
  Proof.
    intros Hok Ht. destruct (decide (GHOST ∈ list4 (t_vs t))) as [Hg|Hg].
    - left. split; [done|]. apply has_ghost_in in Hg. unfold tet_volume_x6, tet_centroid_x4. rewrite Ht. cbn [mbind option_bind]. by rewrite Hg.
    - right. split; [done|].
      assert (∀ x, x ∈ list4 (t_vs t) → ∃ p, v_pos <$> im_get (m_verts m) x = Some p ∧ idx_ori m x = Some p) as Hp.
      { intros x Hx. assert (attached m x) as (w & Hw & Hf) by (apply attached_vs; eauto).
        destruct (ok_exist m Hok w x Hw Hf) as [->|[vt Hv]]; [done|]. exists (v_pos vt).
        rewrite <- pos_idx by (by intros ->). by rewrite Hv. }
      pose proof (no_ghost _ Hg) as Hg'.
      destruct (Hp (q0 (t_vs t))) as (p0 & P0 & I0); [unfold list4; rewrite !elem_of_cons; tauto|].
      destruct (Hp (q1 (t_vs t))) as (p1 & P1 & I1); [unfold list4; rewrite !elem_of_cons; tauto|].
      destruct (Hp (q2 (t_vs t))) as (p2 & P2 & I2); [unfold list4; rewrite !elem_of_cons; tauto|].
      destruct (Hp (q3 (t_vs t))) as (p3 & P3 & I3); [unfold list4; rewrite !elem_of_cons; tauto|].
      exists p0, p1, p2, p3. do 4 (split; [done|]). unfold tet_volume_x6, tet_centroid_x4. rewrite Ht. cbn [mbind option_bind].
      rewrite Hg', P0, P1, P2, P3. done.
  Qed.

  Lemma volume_sign (f : N → N → N → N → arr4 N) m m' id t t' :
    (f = (λ a b c d, A4 b a c d) ∨ f = (λ a b c d, A4 c b a d) ∨ f = (λ a b c d, A4 d b c a) ∨
     f = (λ a b c d, A4 a c b d) ∨ f = (λ a b c d, A4 a d c b) ∨ f = (λ a b c d, A4 a b d c)) →
    (∀ v, idx_ori m' v = idx_ori m v) → tet_get m id = Some t → tet_get m' id = Some t' →
    t_vs t' = f (q0 (t_vs t)) (q1 (t_vs t)) (q2 (t_vs t)) (q3 (t_vs t)) →
    tet_volume_x6 m' id = (λ o : option Z, Z.opp <$> o) <$> tet_volume_x6 m id.
  Proof.
    intros Hf Hi Ht Ht' Hvs.
    assert (∀ x, x ∈ list4 (t_vs t') ↔ x ∈ list4 (t_vs t)) as Hp.
    { intros x. rewrite Hvs. destruct (t_vs t) as [a b c d]. unfold list4. clear -Hf.
      repeat (destruct Hf as [->|Hf]); [..|subst f]; cbn [q0 q1 q2 q3]; rewrite !elem_of_cons; tauto. }
    destruct (decide (GHOST ∈ list4 (t_vs t))) as [Hg|Hg].
    - unfold tet_volume_x6. rewrite Ht, Ht'. cbn [mbind option_bind]. rewrite (proj2 (has_ghost_in _) Hg), (proj2 (has_ghost_in (list4 (t_vs t')))); [done|by apply Hp].
    - rewrite (volume_orient m id t Ht Hg), (volume_orient m' id t' Ht'); [|by rewrite Hp]. rewrite Hvs.
      assert (∀ a b c d, orient_3d m' a b c d = orient_3d m a b c d) as Ho by (intros; unfold orient_3d; by rewrite !Hi).
      rewrite Ho, (o3_swap f m _ _ _ _ Hf). by destruct (orient_3d m _ _ _ _).
  Qed.
End geo.
