(** A sound decision procedure for [flips_safe], used on concrete meshes. *)
From Coq Require Import NArith ZArith Lia.
From stdpp Require Import base numbers list gmap option relations.
From Verif Require Import IdMapModel WalkerModel WalkerSpec MeshModel MeshOps MeshSpec MeshCheck HistSpec History HistCheck
  QualModel QualSpec QualProofs QualTerm.
Local Open Scope nat_scope.

Section check.
  Context {V T F : Type} (ar : qarith F) (Hsim : sim_even ar) (Hlt : lt_order ar).
  Implicit Types (m : mesh V T) (w : walker).

  Fixpoint safeb (fuel : nat) m : bool :=
    match fuel with
    | 0 => false
    | S fuel => forallb (λ w,
        match flip23_quality ar m w with
        | Some (m', Some _) => ready23b m w && roomyb m 1 1 && safeb fuel m'
        | Some (_, None) => true
        | None => false
        end &&
        match flip32_quality ar m w with
        | Some (m', Some _) => validb m w && ring3b m w && link_freeb m w && safeb fuel m'
        | Some (_, None) => true
        | None => false
        end) (walkers m)
    end.

  Lemma q23_none m w m' : mesh_ok m → valid m w → flip23_quality ar m w = Some (m', None) → flip23_quality ar m w = Some (m, None).
  Proof.
    intros Hok Hw E. destruct (qual23_cases ar m w Hok Hw) as [H|[_ H]]; [done|]. rewrite H in E.
    destruct (flip23_unchecked m w) as [[? ?]|]; done.
  Qed.
  Lemma q32_none m w m' : mesh_ok m → valid m w → flip32_quality ar m w = Some (m', None) → flip32_quality ar m w = Some (m, None).
  Proof.
    intros Hok Hw E. destruct (qual32_cases ar m w Hok Hw) as [H|(_ & _ & H)]; [done|]. rewrite H in E.
    destruct (flip32_unchecked m w) as [[? ?]|]; done.
  Qed.

  Lemma safeb_spec fuel m : mesh_ok m → safeb fuel m = true → flips_safe ar m.
  Proof.
    revert m. induction fuel as [|fuel IH]; intros m Hok; [done|]. cbn [safeb]. rewrite forallb_forall. intros H.
    assert (∀ w, valid m w → (∀ m' r, flip23_quality ar m w = Some (m', Some r) → ready23b m w = true ∧ roomyb m 1 1 = true ∧ safeb fuel m' = true) ∧
      (flip23_quality ar m w ≠ None) ∧ (flip32_quality ar m w ≠ None) ∧
      (∀ m' r, flip32_quality ar m w = Some (m', Some r) → validb m w = true ∧ ring3b m w = true ∧ link_freeb m w = true ∧ safeb fuel m' = true)) as Hall.
    { intros w Hw%walkers_spec. specialize (H w (proj1 (elem_of_list_In _ _) Hw)). apply andb_true_iff in H as [H1 H2].
      split; [|split; [|split]].
      - intros m' r E. rewrite E in H1. rewrite !andb_true_iff in H1. tauto.
      - intros E. by rewrite E in H1.
      - intros E. by rewrite E in H2.
      - intros m' r E. rewrite E in H2. rewrite !andb_true_iff in H2. tauto. }
    clear H. intros m1 Hr. apply rtc_inv in Hr as [->|(m2 & Hq & Hr)].
    - split; intros w Hw Hne; destruct (Hall w Hw) as (A & B & C & D).
      + destruct (flip23_quality ar m1 w) as [[m' [r|]]|] eqn:E; [| |done].
        * destruct (A m' r eq_refl) as (X & Y & _). split; [by apply ready23b_spec|by apply roomyb_spec].
        * exfalso. apply Hne. pose proof (q23_none m1 w m' Hok Hw E). congruence.
      + destruct (flip32_quality ar m1 w) as [[m' [r|]]|] eqn:E; [| |done].
        * destruct (D m' r eq_refl) as (X & Y & Z & _). split; [done|]. split; [by apply ring3b_spec|by apply link_freeb_spec].
        * exfalso. apply Hne. pose proof (q32_none m1 w m' Hok Hw E). congruence.
    - pose proof (qs_ok _ _ _ (qflip_step ar Hsim Hlt m m2 Hok Hq)) as Hok2. refine (IH m2 Hok2 _ m1 Hr).
      destruct Hq as [(w & ws & Hrd & _ & E)|(w & ws & Hrd & E)]; destruct (Hall w (proj1 Hrd)) as (A & _ & _ & D).
      + by apply (A m2 ws).
      + by apply (D m2 ws).
  Qed.
End check.
