(** Facts about [sorted_2], [sorted_3], [even_sorted_3], [even_sorted_4], [TriVertices]. *)
From stdpp Require Import base numbers list gmap.
From Coq Require Import NArith ZifyN ZifyNat ZifyBool Lia.
From Verif Require Import WalkerModel WalkerSpec WalkerProofs.
Local Open Scope N_scope.

Ltac ltb := repeat match goal with
  | |- context [N.ltb ?a ?b] => destruct (N.ltb_spec a b); cbn [andb]
  end.

Lemma sorted_2_spec x y :
  [(sorted_2 (x, y)).1; (sorted_2 (x, y)).2] ≡ₚ [x; y] ∧ (sorted_2 (x, y)).1 ≤ (sorted_2 (x, y)).2.
Proof.
  unfold sorted_2. destruct (N.ltb_spec y x); cbn; (split; [|lia]); [apply perm_swap|done].
Qed.

Lemma sorted_2_comm x y : sorted_2 (x, y) = sorted_2 (y, x).
Proof. unfold sorted_2. ltb; try done; try lia. by assert (x = y) as -> by lia. Qed.

Lemma sorted_2_eq a b c d : sorted_2 (a, b) = sorted_2 (c, d) ↔ same_pair a b c d.
Proof.
  unfold same_pair. split.
  - unfold sorted_2. ltb; intros [= -> ->]; tauto.
  - intros [[-> ->]|[-> ->]]; [done|apply sorted_2_comm].
Qed.

Definition tri_list (t : N * N * N) : list N := [t.1.1; t.1.2; t.2].

Lemma sorted_3_spec x y z :
  let r := sorted_3 (x, y, z) in
  tri_list r ≡ₚ [x; y; z] ∧ r.1.1 ≤ r.1.2 ∧ r.1.2 ≤ r.2.
Proof.
  unfold sorted_3, tri_list.
  destruct (N.ltb_spec y x); cbn -[N.ltb];
  match goal with |- context [N.ltb ?a ?b] => destruct (N.ltb_spec a b); cbn -[N.ltb] end;
  match goal with |- context [N.ltb ?a ?b] => destruct (N.ltb_spec a b); cbn end;
  (split; [|lia]);
  first [reflexivity | apply perm_swap | apply perm_skip, perm_swap
        | (etrans; [apply perm_swap|]; apply perm_skip, perm_swap)
        | (etrans; [apply perm_skip, perm_swap|]; apply perm_swap)
        | (etrans; [apply perm_swap|]; etrans; [apply perm_skip, perm_swap|]; apply perm_swap)].
Qed.

Definition rotation3 (t s : N * N * N) : Prop :=
  let '(x, y, z) := t in s = (x, y, z) ∨ s = (y, z, x) ∨ s = (z, x, y).

Lemma even_sorted_3_rotation t : rotation3 t (even_sorted_3 t).
Proof. destruct t as [[x y] z]. unfold rotation3, even_sorted_3. ltb; tauto. Qed.

Lemma even_sorted_3_min x y z : x ≠ y → y ≠ z → x ≠ z →
  let r := even_sorted_3 (x, y, z) in r.1.1 < r.1.2 ∧ r.1.1 < r.2.
Proof. intros H1 H2 H3. cbv zeta. unfold even_sorted_3. ltb; cbn; lia. Qed.

Lemma even_sorted_3_eq x y z s : x ≠ y → y ≠ z → x ≠ z →
  even_sorted_3 (x, y, z) = even_sorted_3 s ↔ rotation3 (x, y, z) s.
Proof.
  intros H1 H2 H3. destruct s as [[a b] c]. split.
  - intros E. pose proof (even_sorted_3_rotation (x, y, z)) as R1.
    pose proof (even_sorted_3_rotation (a, b, c)) as R2. rewrite <- E in R2.
    destruct (even_sorted_3 (x, y, z)) as [[p q] r]. unfold rotation3 in *.
    destruct R1 as [R1|[R1|R1]], R2 as [R2|[R2|R2]]; simplify_eq; tauto.
  - unfold rotation3. intros [E|[E|E]]; injection E as -> -> ->; unfold even_sorted_3; ltb;
      try done; lia.
Qed.

Lemma tri_key_eq x y z s : x ≠ y → y ≠ z → x ≠ z →
  tri_key (x, y, z) = tri_key s ↔ rotation3 (x, y, z) s.
Proof. apply even_sorted_3_eq. Qed.

Lemma tri_key_mirror x y z : x ≠ y → y ≠ z → x ≠ z → tri_key (x, y, z) ≠ tri_key (y, x, z).
Proof.
  intros H1 H2 H3 E. apply tri_key_eq in E; try done.
  destruct E as [E|[E|E]]; congruence.
Qed.

Lemma even_sorted_4_even a : ∃ σ, even_perm σ ∧ even_sorted_4 a = reorder a σ.
Proof.
  destruct a as [a b c d]. unfold even_sorted_4, even_sorted_3.
  assert (Hev : ∀ p, even_perm (perm_digits p)) by (intros p; apply even_perms_enum; by exists p).
  ltb; cbn -[N.ltb] in *; ltb;
  first [exists (perm_digits P3210); split; [apply Hev|reflexivity]
        |exists (perm_digits P2301); split; [apply Hev|reflexivity]
        |exists (perm_digits P1032); split; [apply Hev|reflexivity]
        |exists (perm_digits P0123); split; [apply Hev|reflexivity]
        |exists (perm_digits P2130); split; [apply Hev|reflexivity]
        |exists (perm_digits P3021); split; [apply Hev|reflexivity]
        |exists (perm_digits P0312); split; [apply Hev|reflexivity]
        |exists (perm_digits P1203); split; [apply Hev|reflexivity]
        |exists (perm_digits P1320); split; [apply Hev|reflexivity]
        |exists (perm_digits P0231); split; [apply Hev|reflexivity]
        |exists (perm_digits P3102); split; [apply Hev|reflexivity]
        |exists (perm_digits P2013); split; [apply Hev|reflexivity]].
Qed.

(** The result starts with the two smallest entries in order. *)
Lemma even_sorted_4_min a : NoDup (list4 a) →
  let r := even_sorted_4 a in q0 r < q1 r ∧ q1 r < q2 r ∧ q1 r < q3 r.
Proof.
  destruct a as [a b c d]. intros Hnd. apply NoDup4 in Hnd. cbn in Hnd.
  destruct Hnd as (?&?&?&?&?&?). cbv zeta. unfold even_sorted_4, even_sorted_3.
  ltb; cbn -[N.ltb]; ltb; cbn; lia.
Qed.

Lemma reorder_compose {X} (a : arr4 X) p q :
  ∃ r, reorder (reorder a (perm_digits p)) (perm_digits q) = reorder a (perm_digits r).
Proof.
  destruct a as [x y z w].
  destruct p, q; cbn;
  first [by exists P3210|by exists P2301|by exists P1032|by exists P0123|by exists P2130|by exists P3021
        |by exists P0312|by exists P1203|by exists P1320|by exists P0231|by exists P3102|by exists P2013].
Qed.

Lemma reorder_inverse {X} (a b : arr4 X) p : b = reorder a (perm_digits p) →
  ∃ q, a = reorder b (perm_digits q).
Proof.
  intros ->. destruct a as [x y z w].
  destruct p; cbn;
  first [by exists P3210|by exists P2301|by exists P1032|by exists P0123|by exists P2130|by exists P3021
        |by exists P0312|by exists P1203|by exists P1320|by exists P0231|by exists P3102|by exists P2013].
Qed.

(** Two even reorderings of each other whose first two entries are their two smallest agree. *)
Lemma even_min_unique a b p : b = reorder a (perm_digits p) →
  q0 a < q1 a ∧ q1 a < q2 a ∧ q1 a < q3 a → q0 b < q1 b ∧ q1 b < q2 b ∧ q1 b < q3 b →
  a = b.
Proof.
  destruct a as [x y z w]. intros ->. destruct p; cbn; intros; try reflexivity; lia.
Qed.

Lemma even_sorted_4_canonical a b : NoDup (list4 a) →
  even_sorted_4 a = even_sorted_4 b ↔ ∃ σ, even_perm σ ∧ b = reorder a σ.
Proof.
  intros Hnd. destruct (even_sorted_4_even a) as (σa & [pa ->]%even_perms_enum & Ea).
  destruct (even_sorted_4_even b) as (σb & [pb ->]%even_perms_enum & Eb).
  split.
  - intros E. rewrite Ea in E. rewrite Eb in E.
    destruct (reorder_inverse b _ pb eq_refl) as [q Hq]. rewrite <- E in Hq.
    destruct (reorder_compose a pa q) as [r Hr]. rewrite Hr in Hq.
    exists (perm_digits r). split; [|done]. apply even_perms_enum. by exists r.
  - intros (σ & [p ->]%even_perms_enum & ->).
    assert (Hnd' : NoDup (list4 (reorder a (perm_digits p)))).
    { assert (even_perm (perm_digits p)) as [Hp _] by (apply even_perms_enum; by exists p).
      by rewrite (reorder_NoDup _ _ Hp). }
    destruct (reorder_inverse a _ pa Ea) as [q Hq].
    destruct (reorder_compose (even_sorted_4 a) q p) as [r Hr].
    rewrite <- Hq in Hr. rewrite Hr in Eb.
    destruct (reorder_compose (even_sorted_4 a) r pb) as [s Hs]. rewrite Hs in Eb.
    rewrite <- Hr in Eb.
    apply (even_min_unique _ _ s Eb); by apply even_sorted_4_min.
Qed.
