(** A sound decision procedure for a boundary being a connected surface, used on concrete regions. *)
From stdpp Require Import base numbers list gmap option relations.
From Coq Require Import NArith ZArith.
From Verif Require Import IdMapModel WalkerModel WalkerSpec MeshModel MeshOps MeshSpec MeshCheck CavSpec InsSpec.
Local Open Scope nat_scope.

Section check.
  Context {V T : Type}.
  Implicit Types (m : mesh V T) (u : walker) (E : list N).

  Definition leavesb m E u : bool := memb (w_tet u) E && match to_adj m u with Some x => negb (memb (w_tet x) E) | None => false end.
  Lemma leavesb_spec m E u : leavesb m E u = true ↔ leaves m E u.
  Proof.
    unfold leavesb, leaves. rewrite andb_true_iff, memb_spec. destruct (to_adj m u) as [x|].
    - rewrite negb_true_iff. split; intros [H1 H2]; (split; [done|]).
      + exists x. split; [done|]. intros Hx%memb_spec. congruence.
      + destruct H2 as (y & [= <-] & Hy). destruct (memb (w_tet x) E) eqn:Em; [|done]. by apply memb_spec in Em.
    - split; [by intros [_ ?]|]. intros [_ (y & ? & _)]. done.
  Qed.
  Definition bwalkers m E : list walker := filter (λ u, leavesb m E u = true) (walkers m).
  Lemma bwalkers_spec m E u : u ∈ bwalkers m E ↔ on_boundary m E u.
  Proof. unfold bwalkers, on_boundary. rewrite elem_of_list_filter, walkers_spec, leavesb_spec. tauto. Qed.

  Definition next_fan m (l : list walker) u : list walker :=
    match w_pair m u with
    | Some (a, b) => to_nfe <$> filter (λ u', w_pair m u' = Some (b, a)) l
    | None => []
    end.
  Fixpoint closure (f : walker → list walker) (n : nat) (l : list walker) : list walker :=
    match n with 0 => l | S n => closure f n (remove_dups (l ++ (l ≫= f))) end.
  Lemma closure_spec (R : relation walker) (P : walker → Prop) f n l u : (∀ a b, P a → b ∈ f a → R a b ∧ P b) → (∀ a, a ∈ l → P a) →
    u ∈ closure f n l → ∃ a, a ∈ l ∧ rtsc R a u.
  Proof.
    intros Hf. revert l. induction n as [|n IH]; intros l Hl; cbn [closure]; [intros H; exists u; done|].
    intros H. apply IH in H as (y & Hy & HR).
    - rewrite elem_of_remove_dups, elem_of_app, elem_of_list_bind in Hy. destruct Hy as [Hy|(a & Hy & Ha)]; [by exists y|]. exists a. split; [done|].
      etrans; [|exact HR]. apply rtc_once. left. apply (Hf a y); [by apply Hl|done].
    - intros a Ha. rewrite elem_of_remove_dups, elem_of_app, elem_of_list_bind in Ha. destruct Ha as [Ha|(b & Hb & Hb')]; [by apply Hl|]. apply (Hf b a); [by apply Hl|done].
  Qed.

  Definition surfaceb m E : bool :=
    let l := bwalkers m E in
    all l (λ u, memb (to_nfe u) l) &&
    all l (λ u, all l (λ u', negb (eqb (w_pair m u) (w_pair m u')) || eqb u u')) &&
    all l (λ u, let r := closure (next_fan m l) (length l) [u] in all l (λ u', negb (eqb (w_first m u) (w_first m u')) || memb u' r)) &&
    match l with
    | [] => true
    | u :: _ => let r := closure (λ x, to_nfe x :: next_fan m l x) (length l) [u] in all l (λ u', memb u' r)
    end.

  Lemma surfaceb_spec m E : surfaceb m E = true → surface m E.
  Proof.
    unfold surfaceb. cbv zeta. set (l := bwalkers m E). rewrite !andb_true_iff, !all_spec. intros [[[H0 H1] H2] H3].
    assert (∀ u, u ∈ l ↔ on_boundary m E u) as Hl by (intros; apply bwalkers_spec).
    assert (∀ u, u ∈ l → to_nfe u ∈ l) as Hn by (intros u Hu; by apply memb_spec, H0).
    assert (∀ a b, a ∈ l → b ∈ next_fan m l a → around m E a b ∧ b ∈ l) as Hf.
    { intros a b Ha. unfold next_fan. destruct (w_pair m a) as [[x y]|] eqn:Ep; [|by intros ?%elem_of_nil]. intros (c & -> & Hc)%elem_of_list_fmap.
      apply elem_of_list_filter in Hc as [Hc Hcl]. split; [|by apply Hn]. exists c, x, y. split; [by apply Hl|]. split; [by apply Hl|]. done. }
    split.
    - intros u u' p Hu%Hl Hu'%Hl E1 E2. specialize (H1 u Hu). rewrite all_spec in H1. specialize (H1 u' Hu'). rewrite orb_true_iff, negb_true_iff, eqb_spec in H1.
      destruct H1 as [H1|H1]; [|done]. rewrite E1, E2 in H1. assert (eqb (Some p) (Some p) = true) by by apply eqb_spec. congruence.
    - intros u u' a Hu%Hl Hu'%Hl E1 E2. specialize (H2 u Hu). rewrite all_spec in H2. specialize (H2 u' Hu'). rewrite orb_true_iff, negb_true_iff, memb_spec in H2.
      destruct H2 as [H2|H2]; [rewrite E1, E2 in H2; assert (eqb (Some a) (Some a) = true) by (by apply eqb_spec); congruence|].
      apply (closure_spec (around m E) (.∈ l)) in H2 as (b & ->%elem_of_list_singleton & H2); [done|done|]. by intros b ->%elem_of_list_singleton.
    - set (R := λ x y, around m E x y ∨ (on_boundary m E x ∧ y = to_nfe x)).
      assert (∀ u, u ∈ l → ∃ r, head l = Some r ∧ rtsc R r u) as Hr.
      { intros u Hu. destruct l as [|r l'] eqn:El; [by apply elem_of_nil in Hu|]. exists r. split; [done|]. rewrite all_spec in H3. specialize (H3 u Hu). apply memb_spec in H3.
        rewrite <- El in *. apply (closure_spec R (.∈ l)) in H3 as (b & ->%elem_of_list_singleton & H3); [done| |].
        - intros a b Ha [->|Hb]%elem_of_cons; [split; [right; split; [by apply Hl|done]|by apply Hn]|]. destruct (Hf a b Ha Hb). split; [by left|done].
        - intros b ->%elem_of_list_singleton. rewrite El. by left. }
      intros u u' Hu%Hl Hu'%Hl. destruct (Hr u Hu) as (r & E1 & R1), (Hr u' Hu') as (r' & E2 & R2). assert (r = r') as <- by congruence.
      etrans; [|exact R2]. by symmetry.
  Qed.

  Definition boundaryb m E (B : list walker) : bool :=
    all B (validb m) && nodupb (side <$> B) && all (walkers m) (λ w, Bool.eqb (memb (side w) (side <$> B)) (leavesb m E w)).
  Lemma boundaryb_spec m E B : boundaryb m E B = true → boundary_of m E B.
  Proof.
    unfold boundaryb. rewrite !andb_true_iff, !all_spec. intros [[H1 H2] H3]. split; [|split].
    - apply list.Forall_forall. intros w Hw. by apply validb_spec, H1.
    - by apply nodupb_spec.
    - intros w Hw. rewrite <- memb_spec, <- leavesb_spec. specialize (H3 w). rewrite walkers_spec in H3. apply Bool.eqb_prop in H3; [|done]. by rewrite H3.
  Qed.
  Definition regionb m E : bool := nodupb E && all E (λ id, someb (tet_get m id)).
  Lemma regionb_spec m E : regionb m E = true → region m E.
  Proof.
    unfold regionb. rewrite andb_true_iff, all_spec. intros [H1 H2]. split; [by apply nodupb_spec|]. intros id Hid. by apply someb_spec, H2.
  Qed.
  Definition edge_okb m w : bool :=
    match w_pair m w, undir_edge m w ≫= im_get (m_edges m) with Some p, Some ue => eqb (ue_vs ue) (sorted_2 p) | _, _ => false end.
  Lemma edge_okb_spec m w : mesh_ok m → valid m w → edge_okb m w = true.
  Proof.
    intros Hok Hw. unfold edge_okb. assert (is_Some (w_pair m w)) as [[a b] Hp].
    { destruct Hw as [[t Ht] _]. unfold w_pair, w_first, w_second. rewrite Ht. cbn. eauto. }
    rewrite Hp. destruct (ok_edge _ Hok w a b Hw Hp) as (e & ue & H1 & H2 & H3). rewrite H1. cbn. rewrite H2. by apply eqb_spec.
  Qed.
End check.
