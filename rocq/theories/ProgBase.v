(** Edges and triangles of a mesh as sets of vertices, and what flips do to them. *)
From stdpp Require Import base numbers list gmap option relations.
From Coq Require Import NArith ZArith Lia.
From Verif Require Import IdMapModel WalkerModel WalkerSpec WalkerProofs WalkerMore MeshModel MeshSpec MeshViews FlipSpec HistSpec FlipBase Flip44Ok History Reach IterProofs QualModel ProgSpec SortProofs.
Local Open Scope nat_scope.

(** ** Sorted corner lists. *)
Lemma nodup2 {A} (a b : A) : NoDup [a; b] ↔ a ≠ b.
Proof. rewrite !stdpp.list.NoDup_cons, !elem_of_cons, !elem_of_nil. pose proof (@NoDup_nil_2 A). naive_solver. Qed.
Lemma nodup3 {A} (a b c : A) : NoDup [a; b; c] ↔ a ≠ b ∧ a ≠ c ∧ b ≠ c.
Proof. rewrite !stdpp.list.NoDup_cons, !elem_of_cons, !elem_of_nil. pose proof (@NoDup_nil_2 A). naive_solver. Qed.
Lemma sorted3_same a b c x y z : NoDup [a; b; c] → NoDup [x; y; z] → (∀ v, v ∈ [a; b; c] → v ∈ [x; y; z]) →
  sorted_3 (a, b, c) = sorted_3 (x, y, z).
Proof.
  intros (H1 & H2 & H3)%nodup3 (K1 & K2 & K3)%nodup3 Hs.
  assert (a = x ∨ a = y ∨ a = z) as Ha by (specialize (Hs a ltac:(left)); set_solver).
  assert (b = x ∨ b = y ∨ b = z) as Hb by (specialize (Hs b ltac:(right; left)); set_solver).
  assert (c = x ∨ c = y ∨ c = z) as Hc by (specialize (Hs c ltac:(do 2 right; left)); set_solver).
  clear Hs. unfold sorted_3.
  destruct Ha as [->|[->| ->]], Hb as [->|[->| ->]], Hc as [->|[->| ->]]; try done;
  repeat match goal with |- context [N.ltb ?u ?v] => destruct (N.ltb_spec u v); try lia end; f_equal; lia || done.
Qed.
Lemma sorted3_id a b c : (a < b)%N → (b < c)%N → sorted_3 (a, b, c) = (a, b, c).
Proof.
  intros H1 H2. unfold sorted_3. repeat match goal with |- context [N.ltb ?u ?v] => destruct (N.ltb_spec u v); try lia end; done.
Qed.
Lemma sorted3_elem a b c x y z : sorted_3 (a, b, c) = (x, y, z) → ∀ v, v ∈ [x; y; z] ↔ v ∈ [a; b; c].
Proof. intros E v. apply sorted_3_spec' in E as [E _]. by rewrite E. Qed.
Lemma sorted3_order a b c : NoDup [a; b; c] → in_order (STri (sorted_3 (a, b, c))).
Proof.
  intros H. destruct (sorted_3 (a, b, c)) as [[x y] z] eqn:E. apply sorted_3_spec' in E as (E & E1 & E2). cbn.
  rewrite <- E in H. apply nodup3 in H as (?&?&?). lia.
Qed.
Lemma sorted2_order a b : a ≠ b → in_order (SEdge (sorted_2 (a, b))).
Proof. intros H. cbn. destruct (N.ltb_spec b a); cbn; lia. Qed.
Lemma sorted2_elem a b x y : sorted_2 (a, b) = (x, y) → ∀ v, v ∈ [x; y] ↔ v ∈ [a; b].
Proof. intros E v. cbn in E. destruct (N.ltb b a); injection E as <- <-; set_solver. Qed.

Section base.
  Context {V T : Type}.
  Implicit Types (m : mesh V T) (w : walker).

  (** Some tet has all these vertices. *)
  Definition covers m (s : list N) : Prop := ∃ id vs, vs_of m id = Some vs ∧ ∀ x, x ∈ s → x ∈ list4 vs.

  Lemma covers_sub m s s' : (∀ x, x ∈ s' → x ∈ s) → covers m s → covers m s'.
  Proof. intros H (id & vs & H1 & H2). exists id, vs. eauto. Qed.

  Lemma joined_covers m a b : mesh_ok m → joined m a b ↔ a ≠ b ∧ covers m [a; b].
  Proof.
    intros Hok. split.
    - intros (w & Hw & E). destruct (wverts_of_pair m w a b Hw E) as (c & d & Ev).
      pose proof (ok_distinct m Hok w _ _ _ _ Hw Ev) as Hn. apply NoDup4 in Hn. destruct (wverts_in m w _ Hw Ev) as (vs & E1 & E2).
      split; [tauto|]. exists (w_tet w), vs. split; [done|]. intros x Hx. apply E2. cbn. set_solver.
    - intros (Hab & id & vs & E & H). apply (pair_in_tet m id vs); [done|apply H; set_solver..|done].
  Qed.

  (** A walker of the covering tet showing the triangle, in one orientation or the other. *)
  Lemma tri_in_tet m id vs a b c : vs_of m id = Some vs → (∀ x, x ∈ [a; b; c] → x ∈ list4 vs) → NoDup [a; b; c] →
    ∃ w, valid m w ∧ w_tet w = id ∧ (w_tri m w = Some (a, b, c) ∨ w_tri m w = Some (b, a, c)).
  Proof.
    intros E Hs (Hab & Hac & Hbc)%nodup3. unfold vs_of in E. destruct (tet_get m id) as [t|] eqn:Et; [|done]. injection E as <-.
    destruct (pair_of_tet (λ _, t) id a b) as (w & W1 & W2 & W3 & W4); [apply Hs; set_solver..|done|].
    assert (valid m w) as Hw by (split; [rewrite W1; eauto|done]).
    pose proof Et as Et'. rewrite <- W1 in Et'. pose proof (w_verts_eq m w t Et') as Ev. unfold vv in W3, W4.
    pose proof (vv_elem (λ _, t) w c W2) as Hc. unfold vv in Hc.
    destruct (verts_at (t_vs t) (w_edge w)) as [a' b' x y]. cbn in W3, W4. subst a' b'.
    assert (c = x ∨ c = y) as [->| ->]. { assert (c ∈ list4 (A4 a b x y)) as Hc' by (apply Hc, Hs; set_solver). cbn in Hc'. set_solver. }
    - exists w. split; [done|]. split; [done|]. left. by eapply wverts_tri.
    - exists (to_twin_edge w). split; [by apply valid_twin|]. split; [done|]. right. eapply wverts_tri. by apply wverts_twin.
  Qed.

  Lemma tri_flip m a b c : mesh_ok m → has_tri m a b c → has_tri m b a c.
  Proof.
    intros Hok (w & Hw & E). destruct (wtri_verts m w a b c Hw E) as (d & Ev).
    destruct (ok_adj m Hok w a b c d Hw Ev) as (w' & x & _ & H1 & H2 & _). exists w'. split; [done|]. by eapply wverts_tri.
  Qed.
  Lemma tri_covers m a b c : mesh_ok m → has_tri m a b c ↔ NoDup [a; b; c] ∧ covers m [a; b; c].
  Proof.
    intros Hok. split.
    - intros (w & Hw & E). destruct (wtri_verts m w a b c Hw E) as (d & Ev).
      pose proof (ok_distinct m Hok w _ _ _ _ Hw Ev) as Hn. apply NoDup4 in Hn. destruct (wverts_in m w _ Hw Ev) as (vs & E1 & E2).
      split; [apply nodup3; tauto|]. exists (w_tet w), vs. split; [done|]. intros x Hx. apply E2. cbn. set_solver.
    - intros (Hn & id & vs & E & H). destruct (tri_in_tet m id vs a b c E H Hn) as (w & Hw & _ & [E'|E']).
      + exists w. done.
      + apply tri_flip; [done|]. exists w. done.
  Qed.

  Definition corners (g : simplex) : list N := match g with SEdge (a, b) => [a; b] | STri (a, b, c) => [a; b; c] end.
  Lemma in_order_nodup g : in_order g → NoDup (corners g).
  Proof. destruct g as [[a b]|[[a b] c]]; cbn; [intros; apply nodup2; lia|intros; apply nodup3; lia]. Qed.
  Lemma present_covers m g : mesh_ok m → present m g ↔ NoDup (corners g) ∧ covers m (corners g).
  Proof.
    intros Hok. destruct g as [[a b]|[[a b] c]]; cbn; [|by apply tri_covers].
    rewrite nodup2. by apply joined_covers.
  Qed.
  Lemma tri_sub m g g' : mesh_ok m → present m g → NoDup (corners g') → (∀ x, x ∈ corners g' → x ∈ corners g) → present m g'.
  Proof. intros Hok (H1 & H2)%present_covers Hn Hs; [|done]. apply present_covers; [done|]. split; [done|]. by eapply covers_sub. Qed.
  Lemma present_tri m a b c : mesh_ok m → NoDup [a; b; c] → present m (STri (sorted_3 (a, b, c))) ↔ has_tri m a b c.
  Proof.
    intros Hok Hn. change (has_tri m a b c) with (present m (STri (a, b, c))).
    pose proof (sorted3_order a b c Hn) as Ho%in_order_nodup. destruct (sorted_3 (a, b, c)) as [[x y] z] eqn:E.
    pose proof (sorted3_elem _ _ _ _ _ _ E) as Hs. cbn in Ho.
    split; intros H; (eapply tri_sub; [done|exact H|done|]); cbn [corners]; intros v; apply Hs.
  Qed.
  Lemma present_edge m a b : mesh_ok m → a ≠ b → present m (SEdge (sorted_2 (a, b))) ↔ joined m a b.
  Proof.
    intros Hok Hn. change (joined m a b) with (present m (SEdge (a, b))).
    pose proof (sorted2_order a b Hn) as Ho%in_order_nodup. destruct (sorted_2 (a, b)) as [x y] eqn:E.
    pose proof (sorted2_elem _ _ _ _ E) as Hs. cbn in Ho.
    split; intros H; (eapply tri_sub; [done|exact H|first [done|by apply nodup2]|]); cbn [corners]; intros v; apply Hs.
  Qed.
  Lemma joined_sym m a b : mesh_ok m → joined m a b → joined m b a.
  Proof. intros Hok (H1 & H2)%joined_covers; [|done]. apply joined_covers; [done|]. split; [done|]. eapply covers_sub; [|done]. set_solver. Qed.
  Lemma tri_joined m a b c : mesh_ok m → has_tri m a b c → joined m a b.
  Proof. intros Hok (w & Hw & E). destruct (wtri_verts m w a b c Hw E) as (d & Ev). exists w. split; [done|]. by eapply wverts_pair. Qed.

  (** ** Replacing tets. *)
  Lemma vs_replaces m m' old new ead edl id vs : replaces m m' old new ead edl →
    vs_of m' id = Some vs ↔ (id, vs) ∈ new ∨ (id ∉ old ∧ vs_of m id = Some vs).
  Proof.
    intros Hr. unfold vs_of. destruct (decide (id ∈ new.*1)) as [Hn|Hn].
    - apply elem_of_list_fmap in Hn as ([? vs'] & -> & Hn). cbn. pose proof (rp_new _ _ _ _ _ _ Hr _ _ Hn) as E. split.
      + rewrite E. intros [= <-]. by left.
      + intros [H|[H1 H2]].
        * by apply (rp_new _ _ _ _ _ _ Hr).
        * rewrite (rp_fresh _ _ _ _ _ _ Hr) in H2; [done| |done]. apply elem_of_list_fmap. by exists (n, vs').
    - assert (∀ vs, (id, vs) ∉ new) as Hn' by (intros vs' H; apply Hn, elem_of_list_fmap; by exists (id, vs')).
      destruct (decide (id ∈ old)) as [Ho|Ho].
      + rewrite (rp_gone _ _ _ _ _ _ Hr id Ho Hn). naive_solver.
      + pose proof (rp_out _ _ _ _ _ _ Hr id Ho Hn) as E. 
        assert (t_vs <$> tet_get m' id = t_vs <$> tet_get m id) as ->.
        { destruct (tet_get m' id), (tet_get m id); cbn in *; congruence. }
        naive_solver.
  Qed.
  Lemma vs_frame m m' old new ead edl id vs : replaces m m' old new ead edl → id ∉ old → vs_of m id = Some vs → vs_of m' id = Some vs.
  Proof. intros Hr Ho E. apply (vs_replaces _ _ _ _ _ _ _ _ Hr). by right. Qed.
  Lemma vs_added m m' old new ead edl id vs : replaces m m' old new ead edl → (id, vs) ∈ new → vs_of m' id = Some vs.
  Proof. intros Hr Ho. apply (vs_replaces _ _ _ _ _ _ _ _ Hr). by left. Qed.

  Lemma wverts_vs m w a b c d vs : valid m w → w_verts m w = Some (A4 a b c d) → vs_of m (w_tet w) = Some vs →
    ∀ x, x ∈ list4 vs ↔ x ∈ [a; b; c; d].
  Proof. intros Hw E E'. destruct (wverts_in m w _ Hw E) as (vs' & E1 & E2). rewrite E' in E1. injection E1 as <-. intros x. symmetry. apply E2. Qed.
  Lemma wverts_covers m w a b c d s : valid m w → w_verts m w = Some (A4 a b c d) → (∀ x, x ∈ s → x ∈ [a; b; c; d]) → covers m s.
  Proof. intros Hw E Hs. destruct (wverts_in m w _ Hw E) as (vs' & E1 & E2). exists (w_tet w), vs'. split; [done|]. intros x Hx. by apply E2, Hs. Qed.

  (** What a flip does to edges and triangles. *)
  Record effect m m' (gone : list simplex) (pairs : list (N * N)) : Prop := Effect {
    ef_kept g : in_order g → present m g → g ∉ gone → present m' g;
    ef_gone g : g ∈ gone → ¬ present m' g;
    ef_added a b c : has_tri m' a b c → joined m a b → sorted_2 (a, b) ∉ sorted_2 <$> pairs → has_tri m a b c;
    ef_thick : thick m → thick m' }.

  Lemma nodup_in (s : list N) (l : list N) : NoDup l → (∀ x, x ∈ l → x ∈ s) → length l ≤ length s.
  Proof. intros Hn Hs. by apply submseteq_length, NoDup_submseteq. Qed.
  Lemma thick_vs m : thick m ↔ ∀ id id' vs vs', vs_of m id = Some vs → vs_of m id' = Some vs' → (∀ x, x ∈ list4 vs ↔ x ∈ list4 vs') → id = id'.
  Proof.
    unfold thick, vs_of. split.
    - intros H id id' vs vs' E E' Hs. destruct (tet_get m id) as [t|] eqn:Et; [|done]. destruct (tet_get m id') as [t'|] eqn:Et'; [|done].
      injection E as <-. injection E' as <-. by apply (H id id' t t').
    - intros H id id' t t' Et Et' Hs. apply (H id id' (t_vs t) (t_vs t')); [by rewrite Et|by rewrite Et'|done].
  Qed.

  Lemma joined_edge m a b : mesh_ok m → joined m a b → ∃ e ue, im_get (m_edges m) e = Some ue ∧ ue_vs ue = sorted_2 (a, b).
  Proof. intros Hok (w & Hw & E). destruct (ok_edge m Hok w a b Hw E) as (e & ue & _ & H1 & H2). eauto. Qed.
  Lemma edge_gone m m' old new ead edl a b : mesh_ok m' → replaces m m' old new ead edl →
    sorted_2 (a, b) ∈ sorted_2 <$> edl → sorted_2 (a, b) ∉ sorted_2 <$> ead → ¬ joined m' a b.
  Proof.
    intros Hok Hr H1 H2 H. destruct (joined_edge m' a b Hok H) as (e & ue & E1 & E2).
    apply (rp_edges _ _ _ _ _ _ Hr) in E1 as [[_ E1]|(_ & _ & p & Hp & ->)]; [by rewrite E2 in E1|].
    apply H2. change (sorted_2 p = sorted_2 (a, b)) in E2. rewrite <- E2. apply elem_of_list_fmap. by exists p.
  Qed.
End base.
