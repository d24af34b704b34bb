(** Triangles of tets and the tets across them. *)
From Coq Require Import NArith ZArith Lia.
From stdpp Require Import base numbers list gmap option relations.
From Verif Require Import IdMapModel IdMapProofs WalkerModel WalkerSpec WalkerProofs WalkerMore MeshModel MeshSpec MeshOps MeshViews MeshLink Reach CavModel CavSpec CavPaint.
Local Open Scope nat_scope.

Section base.
  Context {V T : Type}.
  Implicit Types (m : mesh V T) (w : walker).

  Definition lf m (f : N * nat) : Prop := is_Some (tet_get m f.1) ∧ f.2 < 4.
  Definition tw m (f : N * nat) : N * nat :=
    match to_adj_ae m (Walker f.1 f.2) with Some x => side x | None => f end.

  Lemma side_lf m w : valid m w → lf m (side w).
  Proof. intros [H _]. split; [done|]. cbn -[Nat.modulo]. apply Nat.mod_upper_bound. lia. Qed.
  Lemma lf_walker m f : lf m f → valid m (Walker f.1 f.2) ∧ side (Walker f.1 f.2) = f.
  Proof.
    intros [H1 H2]. split; [split; [done|cbn; lia]|]. destruct f as [id i]. cbn in *. unfold side. cbn -[Nat.modulo]. rewrite Nat.mod_small by lia. done.
  Qed.
  Lemma valid_verts m w : valid m w → ∃ a b c d, w_verts m w = Some (A4 a b c d).
  Proof. intros [[t H] _]. unfold w_verts, w_first, w_second, w_third, w_fourth. rewrite H. cbn. eauto. Qed.
  Lemma adj_ae_side m w : to_adj_ae m w = to_adj_ae m (Walker (side w).1 (side w).2).
  Proof. unfold to_adj_ae. cbn -[Nat.modulo]. destruct (tet_get m (w_tet w)); [|done]. cbn -[Nat.modulo]. by rewrite Nat.mod_mod. Qed.
  Lemma adj_ae_canon m id i : i < 4 → to_adj m (Walker id i) = to_adj_ae m (Walker id i).
  Proof. intros H. unfold to_adj. destruct (to_adj_ae m (Walker id i)); [|done]. cbn -[Nat.div]. by rewrite Nat.div_small. Qed.
  Lemma side_nfe w : w_edge w < 12 → side (to_nfe w) = side w.
  Proof. intros H. unfold side, to_nfe. cbn [w_tet w_edge]. by rewrite nfe_mod4. Qed.
  Lemma side_pfe w : w_edge w < 12 → side (to_pfe w) = side w.
  Proof. intros H. unfold side, to_pfe. cbn [w_tet w_edge]. by rewrite pfe_mod4. Qed.

  Lemma adj_side m w : mesh_ok m → valid m w → ∃ x, to_adj_ae m w = Some x ∧ valid m x ∧ side x = tw m (side w) ∧ w_tet x ≠ w_tet w ∧
    (∃ y, to_adj m w = Some y ∧ side y = side x).
  Proof.
    intros Hok Hw. destruct (lf_walker m (side w) (side_lf m w Hw)) as [Hv Hs]. destruct (valid_verts m _ Hv) as (a & b & c & d & E).
    destruct (adj_spec m _ a b c d Hok Hv E) as (x & z & H1 & H2 & H3 & H4 & H5).
    pose proof (adj_ae_canon m (side w).1 (side w).2 (proj2 (side_lf m w Hw))) as Hc. rewrite H1 in Hc. symmetry in Hc.
    rewrite <- adj_ae_side in Hc. exists x. split; [done|]. split; [done|]. split.
    { unfold tw. rewrite <- adj_ae_side, Hc. done. }
    split; [done|]. unfold to_adj. rewrite Hc. cbn -[Nat.div]. destruct Hw as [_ He]. destruct H2 as [_ Hx].
    assert (w_edge w / 4 < 3) by (apply Nat.div_lt_upper_bound; lia). destruct (w_edge w / 4) as [|[|[|?]]]; [..|lia]; eexists; (split; [done|]); [done|by apply side_pfe|by apply side_nfe].
  Qed.
  Lemma tw_lf m f : mesh_ok m → lf m f → lf m (tw m f) ∧ (tw m f).1 ≠ f.1.
  Proof.
    intros Hok Hf. destruct (lf_walker m f Hf) as [Hv Hs]. destruct (adj_side m _ Hok Hv) as (x & _ & H2 & H3 & H4 & _).
    rewrite Hs in H3. rewrite <- H3. split; [by apply side_lf|]. exact H4.
  Qed.
  Lemma tw_tw m f : mesh_ok m → lf m f → tw m (tw m f) = f.
  Proof.
    intros Hok Hf. destruct (lf_walker m f Hf) as [Hv Hs]. destruct (valid_verts m _ Hv) as (a & b & c & d & E).
    destruct (adj_spec m _ a b c d Hok Hv E) as (x & z & H1 & H2 & H3 & H4 & H5).
    rewrite adj_ae_canon in H1 by apply Hf. assert (tw m f = side x) as -> by (unfold tw; by rewrite H1).
    destruct (adj_side m x Hok H2) as (y & Hy1 & Hy2 & Hy3 & _ & (u & Hu1 & Hu2)). rewrite H4 in Hu1. injection Hu1 as <-. by rewrite <- Hy3, <- Hu2.
  Qed.
  Lemma tw_inj m f g : mesh_ok m → lf m f → lf m g → tw m f = tw m g → f = g.
  Proof. intros Hok Hf Hg E. rewrite <- (tw_tw m f Hok Hf), <- (tw_tw m g Hok Hg). by rewrite E. Qed.
  (** Crossing, seen from the walkers. *)
  Lemma adj_tw m w y : mesh_ok m → valid m w → to_adj m w = Some y → valid m y ∧ side y = tw m (side w).
  Proof.
    intros Hok Hw E. destruct (adj_side m w Hok Hw) as (x & _ & Hv & H3 & _ & (u & Hu1 & Hu2)). rewrite E in Hu1. injection Hu1 as <-.
    split; [|congruence]. destruct (valid_verts m w Hw) as (a & b & c & d & Ew). destruct (adj_spec m w a b c d Hok Hw Ew) as (z & ? & Hz & Hzv & _). congruence.
  Qed.
  Lemma leaves_tw m E w : mesh_ok m → valid m w → leaves m E w ↔ (side w).1 ∈ E ∧ (tw m (side w)).1 ∉ E.
  Proof.
    intros Hok Hw. unfold leaves. split.
    - intros [H1 (x & Hx & H2)]. destruct (adj_tw m w x Hok Hw Hx) as [_ <-]. done.
    - intros [H1 H2]. split; [done|]. destruct (adj_side m w Hok Hw) as (x & _ & _ & H3 & _ & (y & Hy & Hs)). exists y. split; [done|].
      assert (w_tet y = (tw m (side w)).1) as ->; [|done]. by rewrite <- H3, <- Hs.
  Qed.
  Lemma bound_sides m E B f : mesh_ok m → boundary_of m E B → lf m f → f ∈ side <$> B ↔ f.1 ∈ E ∧ (tw m f).1 ∉ E.
  Proof.
    intros Hok (_ & _ & H) Hf. destruct (lf_walker m f Hf) as [Hv Hs]. specialize (H _ Hv). rewrite (leaves_tw m E _ Hok Hv), Hs in H. exact H.
  Qed.
  Lemma sides_bound m E B : mesh_ok m → Forall (valid m) B → NoDup (side <$> B) →
    (∀ f, lf m f → f ∈ side <$> B ↔ f.1 ∈ E ∧ (tw m f).1 ∉ E) → boundary_of m E B.
  Proof. intros Hok HF Hn H. split; [done|]. split; [done|]. intros w Hw. rewrite (leaves_tw m E w Hok Hw). apply H. by apply side_lf. Qed.

  (** The four triangles of a walker's tet. *)
  Lemma other_sides m w : valid m w → Forall (valid m) (other_tris w) ∧ Forall (λ x, w_tet x = w_tet w) (other_tris w) ∧
    NoDup (side <$> w :: other_tris w) ∧ (∀ f, lf m f → f.1 = w_tet w → f ∈ side <$> w :: other_tris w).
  Proof.
    intros [Ht He]. destruct w as [id e]. cbn [w_tet w_edge] in *. split.
    { assert (∀ w', w_tet w' = id → w_edge w' < 12 → valid m w') as Hv by (intros [i' e'] ? ?; cbn in *; subst; done).
      unfold other_tris. apply list.Forall_cons. split; [apply Hv; [done|by apply to_opp_edge_ok]|].
      apply list.Forall_cons. split; [apply Hv; [done|by apply to_twin_edge_ok]|].
      apply list.Forall_cons. split; [apply Hv; [done|by apply to_perm_ok]|]. done. }
    split; [repeat constructor|].
    assert (∃ l, (snd <$> (side <$> Walker id e :: other_tris (Walker id e))) = l ∧ NoDup l ∧ (∀ i, i < 4 → i ∈ l)) as (l & Hl & Hn & Hi).
    { case12 e He; eexists; (split; [vm_compute; reflexivity|]); (split; [apply (bool_decide_unpack _); vm_compute; exact Logic.I|]);
      intros i Hi; do 4 (destruct i as [|i]; [apply (bool_decide_unpack _); vm_compute; exact Logic.I|]); lia. }
    split.
    - apply (NoDup_fmap_1 snd). by rewrite Hl.
    - intros [id' i] [_ Hf] E. cbn in Hf, E. subst id'. specialize (Hi i Hf). rewrite <- Hl in Hi. apply elem_of_list_fmap in Hi as ([id' i'] & E' & Hin).
      cbn in E'. subst i'. apply elem_of_list_fmap in Hin as Hin'. destruct Hin' as (x & Ex & Hx).
      assert (id' = id) as ->; [|done]. assert (id' = w_tet x) as -> by (by injection Ex). unfold other_tris in Hx.
      repeat (apply elem_of_cons in Hx as [->|Hx]; [done|]). by apply elem_of_nil in Hx.
  Qed.
End base.
