(** Facts about the walker tables. *)
From stdpp Require Import base numbers list gmap.
From Coq Require Import NArith ZifyN ZifyNat ZifyBool Lia.
From Verif Require Import WalkerModel WalkerSpec.
Local Open Scope nat_scope.

(** Case analysis on a position below 12. *)
Ltac case_n n e H :=
  lazymatch n with
  | O => exfalso; revert H; clear; intros H; lia
  | S ?n' => destruct e as [|e]; [clear H|case_n n' e H]
  end.
Ltac case12 e H := case_n 12 e H.
Ltac case4 e H := case_n 4 e H.

Lemma FWD_spec : PERMUTATION_FWD = permutation_arr false.
Proof. vm_compute. reflexivity. Qed.
Lemma INV_spec : PERMUTATION_INV = permutation_arr true.
Proof. vm_compute. reflexivity. Qed.

Ltac perm0123 := symmetry; apply permutations_Permutation; cbn; rewrite !elem_of_cons; tauto.

(** Lifting of exhaustive checks. *)
Lemma forall12 (P : nat → bool) : forallb P (seq 0 12) = true → ∀ e, e < 12 → P e = true.
Proof.
  intros H e He. rewrite forallb_forall in H. apply H. apply elem_of_list_In, elem_of_seq. lia.
Qed.

Lemma perm_fwd_lt a b : a < 12 → b < 12 → perm_fwd a b < 12.
Proof.
  intros Ha Hb. apply Nat.ltb_lt. revert b Hb. apply forall12. revert a Ha.
  apply (forall12 (λ a, forallb (λ b, perm_fwd a b <? 12) (seq 0 12))). vm_compute. reflexivity.
Qed.
Lemma perm_inv_lt a b : a < 12 → b < 12 → perm_inv a b < 12.
Proof.
  intros Ha Hb. apply Nat.ltb_lt. revert b Hb. apply forall12. revert a Ha.
  apply (forall12 (λ a, forallb (λ b, perm_inv a b <? 12) (seq 0 12))). vm_compute. reflexivity.
Qed.
Lemma perm_inv_fwd a b c : a < 12 → b < 12 → c < 12 →
  perm_inv a (perm_fwd b c) = perm_fwd (perm_inv a b) c.
Proof.
  intros Ha Hb Hc. apply Nat.eqb_eq. revert c Hc. apply forall12. revert b Hb.
  apply (forall12 (λ b, forallb (λ c, perm_inv a (perm_fwd b c) =? perm_fwd (perm_inv a b) c) (seq 0 12))).
  revert a Ha.
  apply (forall12 (λ a, forallb (λ b, forallb (λ c, perm_inv a (perm_fwd b c) =? perm_fwd (perm_inv a b) c) (seq 0 12)) (seq 0 12))).
  vm_compute. reflexivity.
Qed.
Lemma perm_fwd_assoc a b c : a < 12 → b < 12 → c < 12 →
  perm_fwd (perm_fwd a b) c = perm_fwd a (perm_fwd b c).
Proof.
  intros Ha Hb Hc. apply Nat.eqb_eq. revert c Hc. apply forall12. revert b Hb.
  apply (forall12 (λ b, forallb (λ c, perm_fwd (perm_fwd a b) c =? perm_fwd a (perm_fwd b c)) (seq 0 12))).
  revert a Ha.
  apply (forall12 (λ a, forallb (λ b, forallb (λ c, perm_fwd (perm_fwd a b) c =? perm_fwd a (perm_fwd b c)) (seq 0 12)) (seq 0 12))).
  vm_compute. reflexivity.
Qed.
Lemma perm_inv_self a : a < 12 → perm_inv a a = 3.
Proof.
  intros Ha. apply Nat.eqb_eq. revert a Ha. apply forall12. vm_compute. reflexivity.
Qed.
Lemma perm_fwd_inv a b : a < 12 → b < 12 → perm_fwd a (perm_inv a b) = b.
Proof.
  intros Ha Hb. apply Nat.eqb_eq. revert b Hb. apply forall12. revert a Ha.
  apply (forall12 (λ a, forallb (λ b, perm_fwd a (perm_inv a b) =? b) (seq 0 12))). vm_compute. reflexivity.
Qed.
Lemma perm_fwd_id_l b : b < 12 → perm_fwd 3 b = b.
Proof. intros Hb. apply Nat.eqb_eq. revert b Hb. apply forall12. vm_compute. reflexivity. Qed.
Lemma perm_fwd_id_r b : b < 12 → perm_fwd b 3 = b.
Proof. intros Hb. apply Nat.eqb_eq. revert b Hb. apply forall12. vm_compute. reflexivity. Qed.

Lemma perm_index_lt p : perm_index p < 12.
Proof. destruct p; cbn; lia. Qed.

(** Moves as permutations. *)
Lemma nfe_fwd e : e < 12 → (e + 4) mod 12 = perm_fwd e 7.
Proof. intros He. case12 e He; reflexivity. Qed.
Lemma pfe_fwd e : e < 12 → (e + 8) mod 12 = perm_fwd e 11.
Proof. intros He. case12 e He; reflexivity. Qed.
Lemma to_nfe_perm w : pos_ok w → to_nfe w = to_perm w P1203.
Proof. intros H. unfold to_nfe, to_perm. f_equal. by apply nfe_fwd. Qed.
Lemma to_pfe_perm w : pos_ok w → to_pfe w = to_perm w P2013.
Proof. intros H. unfold to_pfe, to_perm. f_equal. by apply pfe_fwd. Qed.
Lemma to_nve_perm w : pos_ok w → to_nve w = to_perm w P0231.
Proof. destruct w as [t e]. unfold pos_ok. cbn [w_edge]. intros He. case12 e He; reflexivity. Qed.
Lemma to_pve_perm w : pos_ok w → to_pve w = to_perm w P0312.
Proof. destruct w as [t e]. unfold pos_ok. cbn [w_edge]. intros He. case12 e He; reflexivity. Qed.
Lemma to_twin_edge_perm w : pos_ok w → to_twin_edge w = to_perm w P1032.
Proof. destruct w as [t e]. unfold pos_ok. cbn [w_edge]. intros He. case12 e He; reflexivity. Qed.
Lemma to_opp_edge_perm w : pos_ok w → to_opp_edge w = to_perm w P2301.
Proof. destruct w as [t e]. unfold pos_ok. cbn [w_edge]. intros He. case12 e He; reflexivity. Qed.
Lemma to_perm_id w : pos_ok w → to_perm w P0123 = w.
Proof. destruct w as [t e]. unfold pos_ok. cbn [w_edge]. intros He. case12 e He; reflexivity. Qed.
Lemma to_perm_ok w p : pos_ok w → pos_ok (to_perm w p).
Proof. intros H. apply perm_fwd_lt; [done|apply perm_index_lt]. Qed.
Lemma to_nfe_ok w : pos_ok (to_nfe w).
Proof. apply Nat.mod_upper_bound. done. Qed.
Lemma to_pfe_ok w : pos_ok (to_pfe w).
Proof. apply Nat.mod_upper_bound. done. Qed.
Lemma to_twin_edge_ok w : pos_ok w → pos_ok (to_twin_edge w).
Proof. intros. rewrite to_twin_edge_perm by done. by apply to_perm_ok. Qed.
Lemma to_opp_edge_ok w : pos_ok w → pos_ok (to_opp_edge w).
Proof. intros. rewrite to_opp_edge_perm by done. by apply to_perm_ok. Qed.
Lemma to_nve_ok w : pos_ok w → pos_ok (to_nve w).
Proof. intros. rewrite to_nve_perm by done. by apply to_perm_ok. Qed.
Lemma to_pve_ok w : pos_ok w → pos_ok (to_pve w).
Proof. intros. rewrite to_pve_perm by done. by apply to_perm_ok. Qed.

(** The reported vertices under a permutation. *)
Lemma verts_at_perm {X} (vs : arr4 X) e p : e < 12 →
  verts_at vs (perm_fwd e (perm_index p)) = reorder (verts_at vs e) (perm_digits p).
Proof. intros He. destruct vs. case12 e He; destruct p; reflexivity. Qed.

Lemma verts_at_nfe {X} (vs : arr4 X) e : e < 12 →
  verts_at vs ((e + 4) mod 12) =
  A4 (q1 (verts_at vs e)) (q2 (verts_at vs e)) (q0 (verts_at vs e)) (q3 (verts_at vs e)).
Proof. intros He. rewrite nfe_fwd by done. change 7 with (perm_index P1203). by rewrite verts_at_perm. Qed.
Lemma verts_at_pfe {X} (vs : arr4 X) e : e < 12 →
  verts_at vs ((e + 8) mod 12) =
  A4 (q2 (verts_at vs e)) (q0 (verts_at vs e)) (q1 (verts_at vs e)) (q3 (verts_at vs e)).
Proof. intros He. rewrite pfe_fwd by done. change 11 with (perm_index P2013). by rewrite verts_at_perm. Qed.

Lemma verts_at_canon {X} (vs : arr4 X) : verts_at vs 3 = vs.
Proof. by destruct vs. Qed.

Lemma NoDup4 {X} (a b c d : X) :
  NoDup [a; b; c; d] ↔ a ≠ b ∧ a ≠ c ∧ a ≠ d ∧ b ≠ c ∧ b ≠ d ∧ c ≠ d.
Proof.
  rewrite !NoDup_cons. rewrite !not_elem_of_cons.
  assert (NoDup (@nil X)) by apply NoDup_nil_2.
  assert (∀ x : X, x ∉ []) by (intros x; apply not_elem_of_nil).
  naive_solver.
Qed.

(** A position is determined by the first two reported vertices. *)
Lemma verts_at_inj {X} (vs : arr4 X) e e' : e < 12 → e' < 12 → NoDup (list4 vs) →
  q0 (verts_at vs e) = q0 (verts_at vs e') → q1 (verts_at vs e) = q1 (verts_at vs e') → e = e'.
Proof.
  intros He He' Hnd. destruct vs as [a b c d]. apply NoDup4 in Hnd. cbn in Hnd.
  destruct Hnd as (?&?&?&?&?&?).
  case12 e He; case12 e' He'; cbn; try reflexivity; intros; congruence.
Qed.

Lemma reorder_NoDup {X} (vs : arr4 X) σ : σ ≡ₚ [0; 1; 2; 3] →
  list4 (reorder vs σ) ≡ₚ list4 vs.
Proof.
  intros Hσ. assert (list4 (reorder vs σ) = get4 vs <$> σ) as ->.
  { assert (length σ = 4) as Hl by (by rewrite Hσ).
    destruct σ as [|a [|b [|c [|d [|]]]]]; try done. }
  rewrite Hσ. by destruct vs.
Qed.

Lemma verts_at_Permutation {X} (vs : arr4 X) e : e < 12 → list4 (verts_at vs e) ≡ₚ list4 vs.
Proof.
  intros He. rewrite <- (reorder_NoDup vs (nth e perms [])); [destruct vs; case12 e He; reflexivity|].
  case12 e He; cbn; perm0123.
Qed.

Lemma even_perms_enum σ : even_perm σ ↔ ∃ p, σ = perm_digits p.
Proof.
  split.
  - intros [Hp He]. symmetry in Hp. apply permutations_Permutation in Hp. cbn in Hp.
    rewrite !elem_of_cons, elem_of_nil in Hp.
    destruct_or?; try done; subst; cbn in He; try done;
      first [by exists P3210|by exists P2301|by exists P1032|by exists P0123|by exists P2130|by exists P3021|by exists P0312|by exists P1203|by exists P1320|by exists P0231|by exists P3102|by exists P2013].
  - intros [p ->]. split; [|by destruct p].
    destruct p; cbn; perm0123.
Qed.
