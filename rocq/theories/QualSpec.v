(** Vocabulary for tet quality and its improvement. *)
From stdpp Require Import base numbers list gmap option.
From Coq Require Import NArith ZArith.
From Verif Require Import IdMapModel WalkerModel WalkerSpec MeshModel MeshSpec FlipSpec HistSpec GeoModel QualModel.
Local Open Scope nat_scope.

Section spec.
  Context {V T F : Type} (ar : qarith F).
  Implicit Types (m : mesh V T) (w : walker).

  (** The orientation test with simulation of simplicity does not change under even reorderings. *)
  Definition sim_even : Prop :=
    ∀ (x : arr4 (N * pt)) σ, even_perm σ →
      let y := reorder x σ in qa_sim ar (q0 y) (q1 y) (q2 y) (q3 y) = qa_sim ar (q0 x) (q1 x) (q2 x) (q3 x).

  (** [<] on the values is a strict weak order (true of f64 without NaN). *)
  Definition lt_order : Prop :=
    (∀ a, qa_lt ar a a = false) ∧
    (∀ a b c, qa_lt ar a b = true → qa_lt ar b c = true → qa_lt ar a c = true) ∧
    (∀ a b c, qa_lt ar a b = false → qa_lt ar b c = false → qa_lt ar a c = false).

  (** The quality of a tet of the mesh. *)
  Definition tet_quality m (id : N) : option F :=
    t ← tet_get m id; quality ar m (q0 (t_vs t)) (q1 (t_vs t)) (q2 (t_vs t)) (q3 (t_vs t)).

  (** The tets [old] are replaced by the tets [new], all others keep their quality, and every new
      tet is strictly better than the worst old tet. *)
  Record improves m m' (old new : list N) : Prop := Improves {
    im_worst : ∃ id q, id ∈ old ∧ tet_quality m id = Some q ∧
      (∀ id' q', id' ∈ old → tet_quality m id' = Some q' → qa_lt ar q' q = false) ∧
      (∀ id' q', id' ∈ new → tet_quality m' id' = Some q' → qa_lt ar q q' = true);
    im_old_all id : id ∈ old → is_Some (tet_quality m id);
    im_new_all id : id ∈ new → is_Some (tet_quality m' id);
    im_gone id : id ∈ old → id ∉ new → tet_get m' id = None;
    im_fresh id : id ∈ new → id ∉ old → tet_get m id = None;
    im_rest id : id ∉ old → id ∉ new → tet_quality m' id = tet_quality m id ∧
      t_vs <$> tet_get m' id = t_vs <$> tet_get m id }.

  (** A successful quality flip in a situation where the flip keeps the mesh consistent. *)
  Definition quality_flip m m' : Prop :=
    (∃ w ws, flip23_ready m w ∧ roomy m 1 1 ∧ flip23_quality ar m w = Some (m', Some ws)) ∨
    (∃ w ws, flip32_ready m w ∧ flip32_quality ar m w = Some (m', Some ws)).

  (** Every flip that the quality test accepts, in any mesh reached by such flips, is one that keeps
      the mesh consistent and finds room for its ids.  (The quality test alone does not ensure it.) *)
  Definition flips_safe m : Prop := ∀ m1, rtc quality_flip m m1 →
    (∀ w, valid m1 w → flip23_quality ar m1 w ≠ Some (m1, None) → flip23_ready m1 w ∧ roomy m1 1 1) ∧
    (∀ w, valid m1 w → flip32_quality ar m1 w ≠ Some (m1, None) → flip32_ready m1 w).

  (** No tet of [m'] is worse than all tets of [m]. *)
  Definition no_worse m m' : Prop := ∀ id' q', tet_quality m' id' = Some q' →
    ∃ id q, tet_quality m id = Some q ∧ qa_lt ar q' q = false.

  (** Every triangle between a ghost tet and a solid tet is locked. *)
  Definition is_ghost_tet m (id : N) : Prop := ∃ t, tet_get m id = Some t ∧ GHOST ∈ list4 (t_vs t).
  Definition hull_locked m : Prop := ∀ w o, valid m w → to_adj m w = Some o →
    is_ghost_tet m (w_tet w) → ¬ is_ghost_tet m (w_tet o) → w_locked m w = Some true.
  (** Every ghost tet has infinite quality (it is positively oriented, or the centre is NaN). *)
  Definition ghosts_best m : Prop := ∀ id, is_ghost_tet m id → tet_quality m id = Some (qa_inf ar).
End spec.
