(** Lookups by edge, triangle and tet; meshes built by the operations carry no traversal marks. *)
From Coq Require Import NArith ZArith Lia.
From stdpp Require Import base numbers list gmap option.
From Verif Require Import IdMapModel IdMapProofs WalkerModel WalkerSpec WalkerProofs MeshModel WalkerMore MeshSpec MeshOps Flip44Ok
  HistSpec Reach UtilModel UtilSpec UtilProofs IterModel IterDfs IterProofs IterOpt.
Local Open Scope nat_scope.

Section lookup.
  Context {V T : Type}.
  Implicit Types (m : mesh V T) (w : walker).

  Lemma head_omap {A B} (g : A → option B) l :
    match head (omap g l) with Some y => ∃ x, x ∈ l ∧ g x = Some y | None => ∀ x, x ∈ l → g x = None end.
  Proof.
    induction l as [|a l IH]; cbn; [intros x Hx; by apply elem_of_nil in Hx|]. destruct (g a) as [y|] eqn:E; cbn.
    - exists a. split; [apply elem_of_list_here|done].
    - destruct (head (omap g l)) as [y|].
      + destruct IH as (x & Hx & Ex). exists x. split; [by apply elem_of_list_further|done].
      + intros x [->|Hx]%elem_of_cons; [done|by apply IH].
  Qed.

  Lemma edge_lookup m a b : mesh_ok m → attached m a → a ≠ GHOST →
    (joined m a b ∧ ∃ w, walker_from_edge m a b = Some (Some w) ∧ valid m w ∧ w_pair m w = Some (a, b)) ∨
    (¬ joined m a b ∧ walker_from_edge m a b = Some None).
  Proof.
    intros Hok Ha Hg. destruct (vertex_target_list m a Hok Ha Hg) as (w & l & Ew & Es & Hy & Hlen & Hnd & HP & Hall).
    unfold walker_from_edge. rewrite Es. cbn [mbind option_bind].
    set (g := λ x, if decide (snd_of m x = b) then Some x else None : option walker).
    rewrite (find_map_yields (vt_next m) _ g (∅, [w]) (w :: l)); [|done|lia|].
    2:{ intros x Hx. destruct (HP x Hx) as (_ & _ & ->). done. }
    pose proof (head_omap g (w :: l)) as Hh. destruct (head (omap g (w :: l))) as [y|].
    - left. destruct Hh as (x & Hx & Ex). unfold g in Ex. destruct (decide (snd_of m x = b)) as [Hb|]; [|done]. injection Ex as <-.
      destruct (HP x Hx) as (Hv & Hf & Hs).
      assert (w_pair m x = Some (a, b)) as Hp. { unfold w_pair. rewrite Hf, Hs, Hb. done. }
      split; [by exists x|]. exists x. done.
    - right. split; [|done]. intros Hj%Hall. apply elem_of_list_fmap in Hj as (x & -> & Hx).
      specialize (Hh x Hx). unfold g in Hh. by rewrite decide_True in Hh.
  Qed.

  Lemma tri_lookup_untracked m (t : N * N * N) : mesh_ok m → m_track m = false → attached m t.1.1 → t.1.1 ≠ GHOST →
    (has_tri m t.1.1 t.1.2 t.2 ∧ ∃ w, walker_from_tri m t = Some (Some w) ∧ valid m w ∧ w_tri m w = Some t) ∨
    (¬ has_tri m t.1.1 t.1.2 t.2 ∧ walker_from_tri m t = Some None).
  Proof.
    intros Hok Htr Ha Hg. destruct (vertex_walkers m t.1.1 Hok Ha Hg) as (w & l & Ew & Es & Hy & Hlen & Hnd & HP & Hall).
    unfold walker_from_tri. rewrite Htr, Es. cbn [mbind option_bind].
    set (g := λ x, default None (tri_of_walker m t x)).
    assert (∀ x, x ∈ w :: l → tri_of_walker m t x = Some (g x) ∧ (∀ y, g x = Some y → valid m y ∧ w_tri m y = Some t) ∧
      (g x = None → w_tri m x ≠ Some t ∧ w_tri m (to_nve x) ≠ Some t ∧ w_tri m (to_pve x) ≠ Some t)) as Hgx.
    { intros x Hx. destruct (HP x Hx) as (Hv & Hf). destruct (wverts_of_first m x _ Hv Hf) as (b & c & d & F).
      pose proof (wverts_tri _ _ _ _ _ _ F) as T1. pose proof (wverts_tri _ _ _ _ _ _ (wverts_nve m x _ _ _ _ Hv F)) as T2.
      pose proof (wverts_tri _ _ _ _ _ _ (wverts_pve m x _ _ _ _ Hv F)) as T3.
      unfold g, tri_of_walker. rewrite T1, T2, T3. cbn [mbind option_bind].
      destruct (decide (_ = t)) as [E1|E1]; [cbn; split; [done|]; split; [by intros y [= <-]; rewrite T1, E1|done]|].
      destruct (decide (_ = t)) as [E2|E2]; [cbn; split; [done|]; split; [intros y [= <-]; rewrite T2, E2; split; [by apply valid_nve|done]|done]|].
      destruct (decide (_ = t)) as [E3|E3]; [cbn; split; [done|]; split; [intros y [= <-]; rewrite T3, E3; split; [by apply valid_pve|done]|done]|].
      cbn. split; [done|]. split; [done|]. intros _. split_and!; congruence. }
    rewrite (find_map_yields (wfv_next m) _ g (∅, [w]) (w :: l)); [|done|lia|intros x Hx; by apply Hgx].
    pose proof (head_omap g (w :: l)) as Hh. destruct (head (omap g (w :: l))) as [y|].
    - left. destruct Hh as (x & Hx & Ex). destruct (Hgx x Hx) as (_ & H & _). destruct (H y Ex) as [Hv Ht].
      split; [exists y; by destruct t as [[??]?]|]. exists y. done.
    - right. split; [|done]. intros (u & Hu & Eu).
      destruct (wtri_verts m u _ _ _ Hu Eu) as (d & Fu). pose proof (wverts_first _ _ _ _ _ _ Fu) as Ff.
      pose proof (Hall u Hu Ff) as Hin. apply elem_of_list_fmap in Hin as (x & Et & Hx). destruct (HP x Hx) as [Hxv Hxf].
      destruct (Hgx x Hx) as (_ & _ & H). destruct (H (Hh x Hx)) as (N1 & N2 & N3).
      assert (w_tri m u = Some t) as Ht by (rewrite Eu; by destruct t as [[??]?]).
      destruct (first_same m x u _ Hok Hxv Hu Hxf Ff (eq_sym Et)) as [Q|[Q|Q]]; subst u; done.
  Qed.

  Lemma tri_lookup_any m (t : N * N * N) : mesh_ok m → (m_track m = false → attached m t.1.1 ∧ t.1.1 ≠ GHOST) →
    (has_tri m t.1.1 t.1.2 t.2 ∧ ∃ w, walker_from_tri m t = Some (Some w) ∧ valid m w ∧ w_tri m w = Some t) ∨
    (¬ has_tri m t.1.1 t.1.2 t.2 ∧ walker_from_tri m t = Some None).
  Proof.
    intros Hok H. destruct (m_track m) eqn:E.
    - unfold walker_from_tri. rewrite E. by apply tri_lookup.
    - destruct H; [done|]. by apply tri_lookup_untracked.
  Qed.

  Lemma tet_lookup m a b c d : mesh_ok m → (m_track m = false → attached m a ∧ a ≠ GHOST) →
    ((∃ u, valid m u ∧ w_verts m u = Some (A4 a b c d)) ∧
       ∃ w, walker_from_tet m a b c d = Some (Some w) ∧ valid m w ∧ w_verts m w = Some (A4 a b c d)) ∨
    (¬ (∃ u, valid m u ∧ w_verts m u = Some (A4 a b c d)) ∧ walker_from_tet m a b c d = Some None).
  Proof.
    intros Hok H. unfold walker_from_tet. destruct (tri_lookup_any m (a, b, c) Hok H) as [[_ (w & -> & Hw & Ew)]|[Hn ->]]; cbn [mbind option_bind].
    - destruct (wtri_verts m w a b c Hw Ew) as (d' & F). rewrite (wverts_fourth _ _ _ _ _ _ F). cbn [mbind option_bind].
      destruct (decide (d' = d)) as [->|Hne].
      + left. split; [by exists w|]. exists w. done.
      + right. split; [|done]. intros (u & Hu & Eu). pose proof (tri_same m u w a b c d d' Hok Hu Hw Eu F) as ->. congruence.
    - right. split; [|done]. intros (u & Hu & Eu). apply Hn. exists u. split; [done|]. by eapply wverts_tri.
  Qed.

  (** Position [i] of a tet: the triangle opposite its [i]-th vertex. *)
  Lemma adjacent_lookup m id t : mesh_ok m → tet_get m id = Some t →
    ∃ l, adjacent_tets m id = Some l ∧ length l = 4 ∧
      ∀ i n, l !! i = Some n → ∃ w w' a b c d d',
        valid m w ∧ w_tet w = id ∧ w_verts m w = Some (A4 a b c d) ∧ get4 (t_vs t) i = d ∧
        valid m w' ∧ w_tet w' = n ∧ w_verts m w' = Some (A4 b a c d').
  Proof.
    intros Hok Et. exists [w_tet (q0 (t_opp t)); w_tet (q1 (t_opp t)); w_tet (q2 (t_opp t)); w_tet (q3 (t_opp t))].
    split; [unfold adjacent_tets; by rewrite Et|]. split; [done|]. intros i n Hi.
    assert (i < 4) as Hlt by (apply lookup_lt_Some in Hi; exact Hi).
    assert (valid m (Walker id i)) as Hv by (split; [cbn; eauto|cbn; lia]).
    destruct (wverts_ex m (Walker id i) Hv) as (a & b & c & d & F).
    destruct (ok_adj m Hok _ a b c d Hv F) as (w' & x & Ea & Hv' & F' & _).
    exists (Walker id i), w', a, b, c, d, x.
    assert (w_tet w' = n ∧ get4 (t_vs t) i = d) as [En Ed].
    { pose proof (wverts_fourth _ _ _ _ _ _ F) as F4. unfold w_fourth in F4. cbn [w_tet w_edge] in F4. rewrite Et in F4.
      cbn [mbind option_bind] in F4. apply (inj Some) in F4.
      unfold to_adj, to_adj_ae in Ea. cbn [w_tet w_edge] in Ea. rewrite Et in Ea.
      split; [|rewrite <- F4; destruct i as [|[|[|[|?]]]]; [reflexivity..|lia]].
      destruct i as [|[|[|[|?]]]]; [..|lia]; cbn in Ea, Hi; injection Hi as <-; injection Ea as <-; reflexivity. }
    repeat split; try done; apply Hv || apply Hv'.
  Qed.

End lookup.
