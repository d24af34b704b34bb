(** What a list of crossed edges should contain. *)
From stdpp Require Import base numbers list gmap option relations.
From Coq Require Import NArith ZArith.
From Verif Require Import IdMapModel WalkerModel WalkerSpec MeshModel MeshSpec MeshOps.
Local Open Scope nat_scope.

Section spec.
  Context {V T A : Type}.
  Implicit Types (m : mesh V T) (w : walker) (e f : N * N).

  (** Two edges of one triangle of the mesh. *)
  Definition share_tri m e f : Prop := ∃ a b c, has_tri m a b c ∧ (e = (a, b) ∨ e = (b, a)) ∧ (f = (b, c) ∨ f = (c, b)).

  (** The edge opposite to [(a, b)] in some tet. *)
  Definition opposite m (a b : N) e : Prop := ∃ w c d, valid m w ∧ w_verts m w = Some (A4 a b c d) ∧ (e = (c, d) ∨ e = (d, c)).

  (** The test says that the edge crosses. *)
  Definition crosses (test : N * N → option (option A)) e : Prop := ∃ a, test e = Some (Some a).

  (** The test does not panic on edges of the mesh, and their direction does not matter. *)
  Record fair m (test : N * N → option (option A)) : Prop := Fair {
    fa_total a b : joined m a b → is_Some (test (a, b));
    fa_sym a b : joined m a b → crosses test (a, b) → crosses test (b, a) }.

  (** Going from an edge to another edge of a triangle, one that crosses.  Edges are written with the
      smaller end first. *)
  Definition cross_step m test e f : Prop := share_tri m e f ∧ crosses test f ∧ sorted_2 f = f.
End spec.
