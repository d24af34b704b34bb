(** A sound decision procedure for [mesh_ok], used on concrete meshes. *)
From stdpp Require Import base numbers list gmap option relations.
From Coq Require Import NArith ZArith ZifyN ZifyNat ZifyBool Lia.
From Verif Require Import IdMapModel IdMapSpec IdMapProofs WalkerModel WalkerSpec WalkerProofs SortProofs
  MeshModel WalkerMore MeshSpec MeshViews MeshLink.
Local Open Scope nat_scope.

Global Instance arr4_eq_dec {X} `{EqDecision X} : EqDecision (arr4 X).
Proof. solve_decision. Defined.

Definition all {A} (l : list A) (P : A → bool) : bool := forallb P l.
Definition any {A} (l : list A) (P : A → bool) : bool := existsb P l.
Lemma all_spec {A} (l : list A) P : all l P = true ↔ ∀ x, x ∈ l → P x = true.
Proof. unfold all. rewrite forallb_forall. split; intros H x Hx; apply H; by apply elem_of_list_In. Qed.
Lemma any_spec {A} (l : list A) P : any l P = true ↔ ∃ x, x ∈ l ∧ P x = true.
Proof. unfold any. rewrite existsb_exists. split; intros (x & Hx & H); exists x; (split; [by apply elem_of_list_In|done]). Qed.
Definition eqb {A} `{EqDecision A} (x y : A) : bool := if decide (x = y) then true else false.
Lemma eqb_spec {A} `{EqDecision A} (x y : A) : eqb x y = true ↔ x = y.
Proof. unfold eqb. by destruct (decide (x = y)). Qed.
Lemma eqb_eq {A} `{EqDecision A} (x y : A) : eqb x y = true → x = y.
Proof. apply eqb_spec. Qed.
Definition memb {A} `{EqDecision A} (x : A) (l : list A) : bool := any l (eqb x).
Lemma memb_spec {A} `{EqDecision A} (x : A) l : memb x l = true ↔ x ∈ l.
Proof.
  unfold memb. rewrite any_spec. split.
  - intros (y & Hy & ->%eqb_eq). done.
  - intros H. exists x. split; [done|]. by apply eqb_spec.
Qed.
Fixpoint nodupb {A} `{EqDecision A} (l : list A) : bool :=
  match l with [] => true | x :: l' => negb (memb x l') && nodupb l' end.
Lemma nodupb_spec {A} `{EqDecision A} (l : list A) : nodupb l = true → NoDup l.
Proof.
  induction l as [|x l IH]; intros H; [constructor|]. cbn in H. apply andb_true_iff in H as [H1 H2].
  constructor; [|by apply IH]. intros Hin. apply memb_spec in Hin. by rewrite Hin in H1.
Qed.
Definition someb {A} (x : option A) : bool := match x with Some _ => true | None => false end.
Lemma someb_spec {A} (x : option A) : someb x = true ↔ is_Some x.
Proof. destruct x; split; intros H; try done; eauto. by destruct H. Qed.

(** ** Id maps. *)
Definition mkeys {X} (g : gmap N X) : list N := (map_to_list g).*1.
Lemma mkeys_spec {X} (g : gmap N X) k : k ∈ mkeys g ↔ is_Some (g !! k).
Proof.
  unfold mkeys. rewrite elem_of_list_fmap. split.
  - intros ([k' x] & -> & H%elem_of_map_to_list). eauto.
  - intros [x H]. exists (k, x). split; [done|]. by apply elem_of_map_to_list.
Qed.
Definition wfb {X} (m : idmap X) : bool :=
  all (mkeys (im_slots m)) (λ k, N.ltb k (im_npi m)) &&
  all (im_free m) (λ k, N.ltb k (im_npi m) && negb (someb (im_slots m !! k))) &&
  all (N_range 0 (im_npi m)) (λ k, someb (im_slots m !! k) || memb k (im_free m)) &&
  nodupb (im_free m).
Lemma elem_N_range a b k : (a ≤ k)%N → (k < b)%N → k ∈ N_range a b.
Proof.
  intros H1 H2. unfold N_range. apply elem_of_list_fmap. exists (N.to_nat (k - a)). split; [lia|].
  apply elem_of_seq. lia.
Qed.
Lemma wfb_spec {X} (m : idmap X) : wfb m = true → im_wf m.
Proof.
  unfold wfb. rewrite !andb_true_iff, !all_spec. intros [[[H1 H2] H3] H4]. split.
  - intros k Hk. apply N.ltb_lt, H1. by apply mkeys_spec.
  - intros k. split.
    + intros Hk. specialize (H2 k Hk). apply andb_true_iff in H2 as [H2 H5]. split; [by apply N.ltb_lt|].
      by destruct (im_slots m !! k).
    + intros [Hlt Hn]. specialize (H3 k (elem_N_range 0 _ k ltac:(lia) Hlt)). rewrite Hn in H3. cbn in H3.
      by apply memb_spec.
  - by apply nodupb_spec.
Qed.

Section check.
  Context {V T : Type}.
  Implicit Types (m : mesh V T) (w : walker).

  Definition validb m w : bool := someb (tet_get m (w_tet w)) && Nat.ltb (w_edge w) 12.
  Lemma validb_spec m w : validb m w = true ↔ valid m w.
  Proof. unfold validb, valid. by rewrite andb_true_iff, someb_spec, Nat.ltb_lt. Qed.
  Definition walkers m : list walker := id ← mkeys (im_slots (m_tets m)); Walker id <$> seq 0 12.
  Lemma walkers_spec m w : w ∈ walkers m ↔ valid m w.
  Proof.
    unfold walkers. rewrite elem_of_list_bind. setoid_rewrite mkeys_spec. setoid_rewrite elem_of_list_fmap.
    split.
    - intros (id & (e & -> & He%elem_of_seq) & Hid). split; [done|]. cbn. lia.
    - destruct w as [id e]. intros [H1 H2]. cbn [w_tet w_edge] in H1, H2. exists id. split; [|done]. exists e. split; [done|].
      apply elem_of_seq. lia.
  Qed.

  Fixpoint orbit m (n : nat) w : list walker :=
    w :: match n, ring_next m w with S n', Some w' => orbit m n' w' | _, _ => [] end.
  Lemma orbit_spec m n w w' : (∀ u u', valid m u → ring_next m u = Some u' → valid m u') →
    valid m w → w' ∈ orbit m n w → rtsc (edge_step m) w w'.
  Proof.
    intros Hv. revert w. induction n as [|n IH]; intros w Hw Hin; cbn [orbit] in Hin; apply elem_of_cons in Hin as [->|Hin].
    - apply rtc_refl.
    - by apply elem_of_nil in Hin.
    - apply rtc_refl.
    - destruct (ring_next m w) as [u|] eqn:E; [|by apply elem_of_nil in Hin].
      eapply rtc_l; [left; split; done|]. apply IH; [by apply (Hv w)|done].
  Qed.

  Definition vsucc m w : list walker := to_nve w :: match to_adj m w with Some x => [to_nfe x] | None => [] end.
  Fixpoint grow m (n : nat) (l : list walker) : list walker :=
    match n with
    | 0 => l
    | S n' => grow m n' (l ++ remove_dups (filter (λ w, w ∉ l) (l ≫= vsucc m)))
    end.
  Lemma grow_spec m n l w : Forall (λ u, valid m u ∧ rtsc (vertex_step m) w u) l →
    (∀ u u', valid m u → to_adj m u = Some u' → valid m u') →
    Forall (λ u, valid m u ∧ rtsc (vertex_step m) w u) (grow m n l).
  Proof.
    intros Hl Hv. revert l Hl. induction n as [|n IH]; intros l Hl; [done|]. cbn [grow]. apply IH. apply Forall_app. split; [done|].
    rewrite Forall_forall in Hl |- *. intros u Hu. rewrite elem_of_remove_dups in Hu. apply elem_of_list_filter in Hu as [_ Hu].
    apply elem_of_list_bind in Hu as (x & Hu & Hx). destruct (Hl x Hx) as [Hxv Hxr].
    assert (valid m u ∧ vertex_step m x u) as [Hu1 Hu2].
    { unfold vsucc in Hu. apply elem_of_cons in Hu as [->|Hu].
      - split; [|split; [done|by left]]. split; [apply Hxv|]. apply to_nve_ok. apply Hxv.
      - destruct (to_adj m x) as [y|] eqn:E; [|by apply elem_of_nil in Hu]. apply elem_of_list_singleton in Hu as ->.
        pose proof (Hv x y Hxv E) as Hy. split; [split; [apply Hy|apply to_nfe_ok]|]. split; [done|right; eauto]. }
    split; [done|]. eapply rtc_r; [exact Hxr|by left].
  Qed.

  Definition chk_adj m w : bool :=
    match w_verts m w, to_adj m w with
    | Some (A4 a b c d), Some w' =>
        nodupb [a; b; c; d] && validb m w' &&
        match w_verts m w' with Some (A4 a' b' c' _) => eqb a' b && eqb b' a && eqb c' c | None => false end &&
        eqb (to_adj m w') (Some w) && eqb (w_locked m w') (w_locked m w) &&
        (eqb a GHOST || someb (im_get (m_verts m) a)) &&
        match undir_edge m w with
        | Some e => match im_get (m_edges m) e with Some ue => eqb (ue_vs ue) (sorted_2 (a, b)) | None => false end
        | None => false
        end
    | _, _ => false
    end.
  Definition chk_pairs m (n : nat) : bool :=
    let W := walkers m in
    all W (λ w, let o := orbit m n w in let s := grow m n [w] in
      all W (λ w', (negb (eqb (w_tri m w) (w_tri m w')) || eqb w w') &&
                   (negb (eqb (w_pair m w) (w_pair m w')) || memb w' o) &&
                   (negb (eqb (w_first m w) (w_first m w')) || memb w' s))).
  Definition chk_edges m : bool :=
    let es := mkeys (im_slots (m_edges m)) in let W := walkers m in
    all es (λ e, match im_get (m_edges m) e with
      | Some ue => N.ltb (ue_vs ue).1 (ue_vs ue).2 && any W (λ w, eqb (w_pair m w) (Some (ue_vs ue))) &&
          all es (λ e', match im_get (m_edges m) e' with
            | Some ue' => negb (eqb (ue_vs ue) (ue_vs ue')) || eqb e e' | None => false end)
      | None => false end).
  Definition chk_verts m : bool :=
    let W := walkers m in
    negb (someb (im_get (m_verts m) GHOST)) &&
    all (mkeys (im_slots (m_verts m))) (λ v, match im_get (m_verts m) v with
      | Some vt => negb (any W (λ w, eqb (w_first m w) (Some v))) ||
                   validb m (v_tet vt) && eqb (w_first m (v_tet vt)) (Some v)
      | None => false end).
  Definition chk_trimap m : bool :=
    negb (m_track m) ||
    all (walkers m) (λ w, negb (Nat.ltb (w_edge w) 4) ||
      match w_tri m w with Some t => eqb (m_trimap m !! tri_key t) (Some w) | None => false end) &&
    all (map_to_list (m_trimap m)) (λ '(k, w), validb m w && Nat.ltb (w_edge w) 4 &&
      match w_tri m w with Some t => eqb (tri_key t) k | None => false end).
  Definition mesh_check (n : nat) m : bool :=
    wfb (m_verts m) && wfb (m_edges m) && wfb (m_tets m) && all (walkers m) (chk_adj m) &&
    chk_pairs m n && chk_edges m && chk_verts m && chk_trimap m.

  Lemma mesh_check_ok n m : mesh_check n m = true → mesh_ok m.
  Proof.
    unfold mesh_check. rewrite !andb_true_iff. intros [[[[[[[C1 C2] C3] C4] C5] C6] C7] C8].
    assert (∀ w, valid m w → ∃ a b c d w' x e ue, w_verts m w = Some (A4 a b c d) ∧ to_adj m w = Some w' ∧
      NoDup [a; b; c; d] ∧ valid m w' ∧ w_verts m w' = Some (A4 b a c x) ∧ to_adj m w' = Some w ∧
      w_locked m w' = w_locked m w ∧ (a = GHOST ∨ is_Some (im_get (m_verts m) a)) ∧ undir_edge m w = Some e ∧
      im_get (m_edges m) e = Some ue ∧ ue_vs ue = sorted_2 (a, b)) as HW.
    { intros w Hw%walkers_spec. rewrite all_spec in C4. specialize (C4 w Hw). unfold chk_adj in C4.
      destruct (w_verts m w) as [[a b c d]|]; [|done]. destruct (to_adj m w) as [w'|]; [|done].
      rewrite !andb_true_iff in C4. destruct C4 as [[[[[[D1 D2] D3] D4] D5] D6] D7].
      destruct (w_verts m w') as [[a' b' c' x]|] eqn:E'; [|done].
      rewrite !andb_true_iff in D3. destruct D3 as [[->%eqb_eq ->%eqb_eq] ->%eqb_eq].
      destruct (undir_edge m w) as [e|]; [|done]. destruct (im_get (m_edges m) e) as [ue|] eqn:E; [|done].
      exists a, b, c, d, w', x, e, ue.
      split; [done|]. split; [done|]. split; [by apply nodupb_spec|]. split; [by apply validb_spec|]. split; [done|].
      split; [by apply eqb_spec|]. split; [by apply eqb_spec|]. split.
      { apply orb_true_iff in D6 as [->%eqb_eq|D6%someb_spec]; auto. }
      split; [done|]. split; [done|]. by apply eqb_spec. }
    assert (∀ w a b c d, w_verts m w = Some (A4 a b c d) → w_first m w = Some a ∧ w_pair m w = Some (a, b)) as Hacc.
    { intros w a b c d H. apply walker_accessors in H as (?&?&?&?&?&?). done. }
    assert (∀ u u', valid m u → to_adj m u = Some u' → valid m u') as Hadj.
    { intros u u' Hu E. destruct (HW u Hu) as (?&?&?&?&w'&?&?&?&_&E'&_&Hv&_). congruence. }
    assert (∀ w w', valid m w → valid m w' → (w_tri m w = w_tri m w' → w = w') ∧
      (w_pair m w = w_pair m w' → rtsc (edge_step m) w w') ∧ (w_first m w = w_first m w' → rtsc (vertex_step m) w w')) as HP.
    { intros w w' Hw Hw'. unfold chk_pairs in C5. rewrite all_spec in C5. specialize (C5 w (proj2 (walkers_spec m w) Hw)).
      cbn beta zeta in C5. rewrite all_spec in C5. specialize (C5 w' (proj2 (walkers_spec m w') Hw')).
      rewrite !andb_true_iff, !orb_true_iff, !negb_true_iff in C5. destruct C5 as [[D1 D2] D3].
      split; [|split]; intros E.
      - destruct D1 as [D1|D1%eqb_eq]; [|done]. rewrite E in D1. exfalso. revert D1. by rewrite (proj2 (eqb_spec _ _)).
      - destruct D2 as [D2|D2%memb_spec]; [exfalso; revert D2; by rewrite (proj2 (eqb_spec _ _))|].
        apply (orbit_spec m n); [|done|done]. intros u u' Hu Hr. unfold ring_next in Hr. apply (Hadj (to_twin_edge u)); [|done].
        split; [apply Hu|apply to_twin_edge_ok, Hu].
      - destruct D3 as [D3|D3%memb_spec]; [exfalso; revert D3; by rewrite (proj2 (eqb_spec _ _))|].
        pose proof (grow_spec m n [w] w) as Hg. rewrite !Forall_forall in Hg. apply Hg; [|done|done].
        intros x ->%elem_of_list_singleton. split; [done|apply rtc_refl]. }
    unfold chk_edges in C6. rewrite all_spec in C6.
    assert (∀ e ue, im_get (m_edges m) e = Some ue → ((ue_vs ue).1 < (ue_vs ue).2)%N ∧ (∃ w, valid m w ∧ w_pair m w = Some (ue_vs ue)) ∧
      ∀ e' ue', im_get (m_edges m) e' = Some ue' → ue_vs ue = ue_vs ue' → e = e') as HE.
    { intros e ue E. specialize (C6 e (proj2 (mkeys_spec _ _) (mk_is_Some _ _ E))). cbn beta in C6. rewrite E in C6.
      rewrite !andb_true_iff, any_spec, all_spec in C6. destruct C6 as [[D1 (w & Hw%walkers_spec & Ew%eqb_eq)] D3].
      split; [by apply N.ltb_lt|]. split; [eauto|]. intros e' ue' E' Heq.
      specialize (D3 e' (proj2 (mkeys_spec _ _) (mk_is_Some _ _ E'))). cbn beta in D3. rewrite E' in D3.
      apply orb_true_iff in D3 as [D3|D3]; [|by apply eqb_spec]. rewrite (proj2 (eqb_spec _ _) Heq) in D3. done. }
    unfold chk_verts in C7. rewrite andb_true_iff, all_spec in C7. destruct C7 as [C7 C9].
    split.
    - by apply wfb_spec.
    - by apply wfb_spec.
    - by apply wfb_spec.
    - by destruct (im_get (m_verts m) GHOST).
    - intros w a b c d Hw E. destruct (HW w Hw) as (?&?&?&?&?&?&?&?&E'&_&H&_). rewrite E in E'. by injection E' as <- <- <- <-.
    - intros w a Hw E. destruct (HW w Hw) as (?&?&?&?&?&?&?&?&E'&_&_&_&_&_&_&H&_).
      apply Hacc in E' as [E' _]. rewrite E in E'. by injection E' as <-.
    - intros w a b c d Hw E. destruct (HW w Hw) as (?&?&?&?&w'&x&?&?&E'&H1&H2&H3&H4&H5&_). rewrite E in E'. injection E' as <- <- <- <-.
      exists w', x. done.
    - intros w w' t Hw Hw' E E'. apply HP; [done..|congruence].
    - intros w a b Hw E. destruct (HW w Hw) as (?&?&?&?&w'&x&e&ue&E'&_&_&_&_&_&_&_&H1&H2&H3).
      apply Hacc in E' as [_ E']. rewrite E in E'. injection E' as <- <-. by exists e, ue.
    - intros e e' ue ue' E E' Heq. destruct (HE e ue E) as (_ & _ & H). by apply (H e' ue').
    - intros e ue E. destruct (HE e ue E) as (_ & (w & Hw & Ew) & _). exists w. split; [done|]. by destruct (ue_vs ue).
    - intros e ue E. by apply (HE e).
    - intros v vt E (w & Hw & Ew). specialize (C9 v (proj2 (mkeys_spec _ _) (mk_is_Some _ _ E))). cbn beta in C9. rewrite E in C9.
      apply orb_true_iff in C9 as [D|D].
      + exfalso. apply negb_true_iff in D. rewrite (proj2 (any_spec _ _)) in D; [done|]. exists w.
        split; [by apply walkers_spec|by apply eqb_spec].
      + apply andb_true_iff in D as [D1 D2]. split; [by apply validb_spec|by apply eqb_spec].
    - intros w w' Hw E. destruct (HW w Hw) as (?&?&?&?&?&?&?&?&_&H1&_&_&_&_&H2&_). congruence.
    - intros Ht k w. unfold chk_trimap in C8. rewrite Ht in C8. cbn [negb orb] in C8. rewrite andb_true_iff, !all_spec in C8.
      destruct C8 as [D1 D2]. split.
      + intros H. specialize (D2 (k, w) (proj2 (elem_of_map_to_list _ _ _) H)). cbn beta iota in D2.
        rewrite !andb_true_iff in D2. destruct D2 as [[D2%validb_spec D3%Nat.ltb_lt] D4].
        split; [done|]. split; [done|]. destruct (w_tri m w) as [t|]; [|done]. exists t. split; [done|by apply eqb_spec].
      + intros (Hw & He & t & Et & <-). specialize (D1 w (proj2 (walkers_spec m w) Hw)). cbn beta in D1.
        rewrite (proj2 (Nat.ltb_lt _ _) He), Et in D1. cbn in D1. by apply eqb_eq.
    - intros w w' p Hw Hw' E E'. apply HP; [done..|congruence].
    - intros w w' v Hw Hw' E E'. apply HP; [done..|congruence].
  Qed.

  (** ** The mesh made from four points. *)
  Lemma mesh_new_ok sim ctr (ps : arr4 (pt * V)) (d : T) : ∃ m, mesh_new sim ctr ps d = Some m ∧ mesh_ok m.
  Proof.
    assert (match mesh_new sim ctr ps d with Some m => mesh_check 12 m | None => false end = true) as H.
    { unfold mesh_new. destruct (sim _ _ _ _); vm_compute; reflexivity. }
    destruct (mesh_new sim ctr ps d) as [m|]; [|done]. exists m. split; [done|]. by apply (mesh_check_ok 12).
  Qed.
End check.
