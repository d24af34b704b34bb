(** Walkers read through a mesh. *)
From stdpp Require Import base numbers list gmap option.
From Coq Require Import NArith ZArith Lia.
From Verif Require Import IdMapModel WalkerModel WalkerSpec WalkerProofs SortProofs MeshModel.
Local Open Scope nat_scope.

Lemma w_verts_eq {V T} (m : mesh V T) w t : tet_get m (w_tet w) = Some t →
  w_verts m w = Some (verts_at (t_vs t) (w_edge w)).
Proof. intros E. unfold w_verts, w_first, w_second, w_third, w_fourth. by rewrite E. Qed.

Lemma w_verts_inv {V T} (m : mesh V T) w x : w_verts m w = Some x →
  ∃ t, tet_get m (w_tet w) = Some t ∧ x = verts_at (t_vs t) (w_edge w).
Proof.
  intros H. destruct (tet_get m (w_tet w)) as [t|] eqn:E.
  - exists t. split; [done|]. rewrite (w_verts_eq m w t E) in H. congruence.
  - unfold w_verts, w_first in H. rewrite E in H. done.
Qed.

Lemma walker_accessors {V T} (m : mesh V T) w a b c d :
  w_verts m w = Some (A4 a b c d) →
  w_first m w = Some a ∧ w_second m w = Some b ∧ w_third m w = Some c ∧ w_fourth m w = Some d ∧
  w_pair m w = Some (a, b) ∧ w_opp_pair m w = Some (c, d) ∧
  w_tri m w = Some (a, b, c) ∧ w_opp_tri m w = Some (d, c, b).
Proof.
  intros (t & E & Ev)%w_verts_inv. unfold verts_at in Ev. injection Ev as -> -> -> ->.
  unfold w_pair, w_opp_pair, w_tri, w_opp_tri, w_first, w_second, w_third, w_fourth. by rewrite E.
Qed.

Lemma verts_at_perms {X} (vs : arr4 X) e : e < 12 → verts_at vs e = reorder vs (nth e perms []).
Proof. intros He. destruct vs. case12 e He; reflexivity. Qed.

Lemma perms_digits p : nth (perm_index p) perms [] = perm_digits p.
Proof. by destruct p. Qed.

Lemma perms_even e : e < 12 → even_perm (nth e perms []).
Proof.
  intros He. apply even_perms_enum.
  case12 e He; cbn;
  first [by exists P3210|by exists P2301|by exists P1032|by exists P0123|by exists P2130|by exists P3021
        |by exists P0312|by exists P1203|by exists P1320|by exists P0231|by exists P3102|by exists P2013].
Qed.

Lemma walker_positions {V T} (m : mesh V T) id t : tet_get m id = Some t →
  (∀ e, e < 12 → ∃ σ, even_perm σ ∧ w_verts m (Walker id e) = Some (reorder (t_vs t) σ)) ∧
  (NoDup (list4 (t_vs t)) → ∀ σ, even_perm σ →
     ∃ e, (e < 12 ∧ w_verts m (Walker id e) = Some (reorder (t_vs t) σ)) ∧
          ∀ e', e' < 12 → w_verts m (Walker id e') = Some (reorder (t_vs t) σ) → e' = e).
Proof.
  intros E. split.
  - intros e He. exists (nth e perms []). split; [by apply perms_even|].
    rewrite (w_verts_eq m (Walker id e) t E). cbn [w_edge]. by rewrite verts_at_perms.
  - intros Hnd σ [p ->]%even_perms_enum. exists (perm_index p).
    pose proof (perm_index_lt p) as Hp.
    assert (w_verts m (Walker id (perm_index p)) = Some (reorder (t_vs t) (perm_digits p))) as Hv.
    { rewrite (w_verts_eq m (Walker id _) t E). cbn [w_edge]. by rewrite verts_at_perms, perms_digits. }
    split; [done|]. intros e' He' Hv'. rewrite <- Hv' in Hv.
    rewrite (w_verts_eq m (Walker id e') t E), (w_verts_eq m (Walker id (perm_index p)) t E) in Hv.
    injection Hv as H1 H2 H3 H4. cbn [w_edge] in *.
    apply (verts_at_inj (t_vs t)); try done; cbn; congruence.
Qed.

Lemma walker_moves {V T} (m : mesh V T) w a b c d : pos_ok w →
  w_verts m w = Some (A4 a b c d) →
  w_verts m (to_nfe w) = Some (A4 b c a d) ∧
  w_verts m (to_pfe w) = Some (A4 c a b d) ∧
  w_verts m (to_nve w) = Some (A4 a c d b) ∧
  w_verts m (to_pve w) = Some (A4 a d b c) ∧
  w_verts m (to_twin_edge w) = Some (A4 b a d c) ∧
  w_verts m (to_opp_edge w) = Some (A4 c d a b) ∧
  ∀ p, w_verts m (to_perm w p) = Some (reorder (A4 a b c d) (perm_digits p)).
Proof.
  intros Hw (t & E & Ev)%w_verts_inv.
  assert (∀ p, w_verts m (to_perm w p) = Some (reorder (A4 a b c d) (perm_digits p))) as Hp.
  { intros p. rewrite (w_verts_eq m (to_perm w p) t E). cbn [to_perm w_edge].
    by rewrite verts_at_perm, <- Ev by done. }
  rewrite to_nfe_perm, to_pfe_perm, to_nve_perm, to_pve_perm, to_twin_edge_perm, to_opp_edge_perm by done.
  rewrite !Hp. done.
Qed.

Lemma walker_laws w : pos_ok w →
  (∀ w', w' ∈ [to_nfe w; to_pfe w; to_nve w; to_pve w; to_twin_edge w; to_opp_edge w;
               to_canon_tet w; to_canon_tri w] ++ (to_perm w <$> [P3210; P2301; P1032; P0123; P2130;
               P3021; P0312; P1203; P1320; P0231; P3102; P2013]) →
     w_tet w' = w_tet w ∧ pos_ok w') ∧
  to_pfe (to_nfe w) = w ∧ to_nfe (to_pfe w) = w ∧ to_nfe (to_nfe (to_nfe w)) = w ∧
  to_pve (to_nve w) = w ∧ to_nve (to_pve w) = w ∧ to_nve (to_nve (to_nve w)) = w ∧
  to_twin_edge (to_twin_edge w) = w ∧ to_opp_edge (to_opp_edge w) = w ∧
  to_perm w P0123 = w.
Proof.
  intros Hw. split.
  - intros w' [H|H]%elem_of_app.
    + rewrite !elem_of_cons, elem_of_nil in H.
      destruct H as [->|[->|[->|[->|[->|[->|[->|[->|[]]]]]]]]]; (split; [done|]);
        eauto using to_nfe_ok, to_pfe_ok, to_nve_ok, to_pve_ok, to_twin_edge_ok, to_opp_edge_ok.
      * unfold pos_ok, to_canon_tet; cbn; lia.
      * unfold pos_ok, to_canon_tri; cbn [w_edge].
        pose proof (Nat.mod_upper_bound (w_edge w) 4). lia.
    + apply elem_of_list_fmap in H as (p & -> & _). split; [done|]. by apply to_perm_ok.
  - destruct w as [t e]. unfold pos_ok in Hw. cbn [w_edge] in Hw. case12 e Hw; done.
Qed.

Lemma undir_idx_pair (vs : arr4 N) e e' :
  e < 12 → e' < 12 → NoDup (list4 vs) →
  (undir_idx e = undir_idx e' ↔
   same_pair (q0 (verts_at vs e)) (q1 (verts_at vs e)) (q0 (verts_at vs e')) (q1 (verts_at vs e'))).
Proof.
  intros He He' Hnd. destruct vs as [a b c d]. apply NoDup4 in Hnd. cbn in Hnd.
  destruct Hnd as (?&?&?&?&?&?). unfold same_pair.
  case12 e He; case12 e' He'; cbn; split; intros; try discriminate; try tauto;
    exfalso; intuition congruence.
Qed.

Lemma walker_undir_edges {V T} (m : mesh V T) w t :
  pos_ok w → tet_get m (w_tet w) = Some t → NoDup (list4 (t_vs t)) →
  (∀ i, i < 6 → ∃ w', to_undir_edge w i = Some w' ∧ w_tet w' = w_tet w ∧ pos_ok w' ∧
                      undir_edge m w' = Some (get6 (t_edges t) i)) ∧
  ∃ a b c d es, w_verts m w = Some (A4 a b c d) ∧ undir_edges m w = Some es ∧
    ∀ w', w_tet w' = w_tet w → pos_ok w' → ∀ x y, w_pair m w' = Some (x, y) →
      ∀ k, (same_pair x y c d ∧ k = 0) ∨ (same_pair x y a b ∧ k = 1) ∨ (same_pair x y b c ∧ k = 2) ∨
           (same_pair x y a d ∧ k = 3) ∨ (same_pair x y b d ∧ k = 4) ∨ (same_pair x y a c ∧ k = 5) →
      undir_edge m w' = es !! k.
Proof.
  intros Hw E Hnd. split.
  - intros i Hi. unfold undir_edge, pos_ok.
    case_n 6 i Hi; cbn; eexists; (split; [reflexivity|]); cbn; rewrite E;
      (split; [done|]); (split; [lia|done]).
  - pose proof (w_verts_eq m w t E) as Hv.
    destruct (verts_at (t_vs t) (w_edge w)) as [a b c d] eqn:Ev.
    exists a, b, c, d.
    assert (undir_edges m w = Some ((λ w, get6 (t_edges t) (undir_idx (w_edge w))) <$>
       [to_opp_edge w; w; to_nfe w; to_pve w; to_perm w P1320; to_pfe w])) as Hes.
    { unfold undir_edges, undir_edge. cbn. by rewrite E. }
    eexists. split; [done|]. split; [done|].
    intros w' Ht' Hp' x y Hxy k Hk.
    unfold undir_edge. rewrite Ht', E. cbn [mbind option_bind].
    assert (x = q0 (verts_at (t_vs t) (w_edge w')) ∧ y = q1 (verts_at (t_vs t) (w_edge w'))) as [Hx Hy].
    { unfold w_pair, w_first, w_second in Hxy. rewrite Ht', E in Hxy. cbn in Hxy.
      unfold verts_at; cbn. split; congruence. }
    assert (∀ w2 x2 y2, pos_ok w2 → w_tet w2 = w_tet w →
       q0 (verts_at (t_vs t) (w_edge w2)) = x2 → q1 (verts_at (t_vs t) (w_edge w2)) = y2 →
       same_pair x y x2 y2 → undir_idx (w_edge w') = undir_idx (w_edge w2)) as Key.
    { intros w2 x2 y2 H2 _ <- <- Hs. apply (undir_idx_pair (t_vs t)); try done. by rewrite <- Hx, <- Hy. }
    destruct (walker_moves m w a b c d Hw Hv) as (M1&M2&M3&M4&M5&M6&M7).
    specialize (M7 P1320). cbn in M7.
    rewrite (w_verts_eq m _ t) in M1 by exact E. rewrite (w_verts_eq m _ t) in M2 by exact E.
    rewrite (w_verts_eq m _ t) in M4 by exact E. rewrite (w_verts_eq m _ t) in M6 by exact E.
    rewrite (w_verts_eq m _ t) in M7 by exact E.
    injection M1 as M10 M11 _ _. injection M2 as M20 M21 _ _. injection M4 as M40 M41 _ _.
    injection M6 as M60 M61 _ _. injection M7 as M70 M71 _ _. injection Ev as Ev0 Ev1 _ _.
    destruct Hk as [[Hs ->]|[[Hs ->]|[[Hs ->]|[[Hs ->]|[[Hs ->]|[Hs ->]]]]]]; cbn [fmap list_fmap lookup list_lookup]; do 2 f_equal.
    + apply (Key (to_opp_edge w) c d); eauto using to_opp_edge_ok.
    + apply (Key w a b); eauto.
    + apply (Key (to_nfe w) b c); eauto using to_nfe_ok.
    + apply (Key (to_pve w) a d); eauto using to_pve_ok.
    + apply (Key (to_perm w P1320) b d); eauto using to_perm_ok.
    + apply (Key (to_pfe w) c a); eauto using to_pfe_ok. destruct Hs as [[??]|[??]]; [right|left]; done.
Qed.

Lemma sorted_3_spec' x y z a b c : sorted_3 (x, y, z) = (a, b, c) →
  [a; b; c] ≡ₚ [x; y; z] ∧ (a <= b)%N ∧ (b <= c)%N.
Proof. intros E. pose proof (sorted_3_spec x y z) as H. cbv zeta in H. rewrite E in H. exact H. Qed.

Lemma even_sorted_3_spec' x y z a b c : even_sorted_3 (x, y, z) = (a, b, c) →
  ((a, b, c) = (x, y, z) ∨ (a, b, c) = (y, z, x) ∨ (a, b, c) = (z, x, y)) ∧
  (x ≠ y → y ≠ z → x ≠ z → (a < b)%N ∧ (a < c)%N).
Proof.
  intros E. pose proof (even_sorted_3_rotation (x, y, z)) as H1.
  pose proof (even_sorted_3_min x y z) as H2. rewrite E in H1. cbv zeta in H2. rewrite E in H2.
  split; [exact H1|exact H2].
Qed.
