(** Renaming the vertices of a mesh in an order-preserving way keeps it well formed. *)
From stdpp Require Import base numbers list gmap option relations.
From Coq Require Import NArith ZArith Lia.
From Verif Require Import IdMapModel IdMapSpec IdMapProofs WalkerModel WalkerSpec MeshModel MeshOps MeshSpec.
Local Open Scope nat_scope.

Definition map4 {A B} (f : A → B) (a : arr4 A) : arr4 B := A4 (f (q0 a)) (f (q1 a)) (f (q2 a)) (f (q3 a)).
Lemma get4_map {A B} (f : A → B) a i : get4 (map4 f a) i = f (get4 a i).
Proof. destruct i as [|[|[|i]]]; done. Qed.
Lemma get4_in {A} (a : arr4 A) i : get4 a i ∈ list4 a.
Proof. unfold list4. rewrite !elem_of_cons. destruct i as [|[|[|i]]]; cbn; tauto. Qed.
Definition rn_tet {T} (f : N → N) (t : tet T) : tet T := Tet (map4 f (t_vs t)) (t_opp t) (t_edges t) (t_flags t) (t_val t).
Definition rn_edge (f : N → N) (ue : uedge) : uedge := UEdge (f (ue_vs ue).1, f (ue_vs ue).2) (ue_boundary ue) (ue_locked ue) (ue_bw ue).

Section rename.
  Context {V T : Type}.
  Context (f : N → N) (P : N → Prop).
  Implicit Types (w : walker).

  (** [m'] is [m] with the vertices in [P] renamed by [f], apart from vertices in no tet. *)
  Record renamed (m m' : mesh V T) : Prop := Renamed {
    rn_mono a b : P a → P b → (a < b)%N → (f a < f b)%N;
    rn_ghost : f GHOST = GHOST;
    rn_tets id : tet_get m' id = rn_tet f <$> tet_get m id;
    rn_in id t : tet_get m id = Some t → Forall P (list4 (t_vs t));
    rn_edges e : im_get (m_edges m') e = rn_edge f <$> im_get (m_edges m) e;
    rn_verts u vt : P u → im_get (m_verts m) u = Some vt → ∃ vt', im_get (m_verts m') (f u) = Some vt' ∧ v_tet vt' = v_tet vt;
    rn_track : m_track m' = false }.

  Context (m m' : mesh V T) (R : renamed m m').

  Lemma rn_inj a b : P a → P b → f a = f b → a = b.
  Proof.
    intros Ha Hb E. destruct (N.lt_trichotomy a b) as [H|[H|H]]; [|done|].
    - pose proof (rn_mono _ _ R a b Ha Hb H). lia.
    - pose proof (rn_mono _ _ R b a Hb Ha H). lia.
  Qed.
  Lemma rn_sorted a b : P a → P b → sorted_2 (f a, f b) = (f (sorted_2 (a, b)).1, f (sorted_2 (a, b)).2).
  Proof.
    intros Ha Hb. unfold sorted_2. cbn [fst snd].
    destruct (N.lt_trichotomy a b) as [H|[H|H]].
    - pose proof (rn_mono _ _ R a b Ha Hb H). repeat case_match; cbn [fst snd]; rewrite ?N.ltb_lt, ?N.ltb_ge, ?N.leb_le, ?N.leb_gt in *; try done; try lia.
    - subst. repeat case_match; done.
    - pose proof (rn_mono _ _ R b a Hb Ha H). repeat case_match; cbn [fst snd]; rewrite ?N.ltb_lt, ?N.ltb_ge, ?N.leb_le, ?N.leb_gt in *; try done; try lia.
  Qed.

  Lemma rn_valid w : valid m' w ↔ valid m w.
  Proof. unfold valid. rewrite (rn_tets _ _ R). by rewrite fmap_is_Some. Qed.
  Lemma rn_first w : w_first m' w = f <$> w_first m w.
  Proof. unfold w_first. rewrite (rn_tets _ _ R). destruct (tet_get m (w_tet w)); cbn; [|done]. by rewrite get4_map. Qed.
  Lemma rn_pair w : w_pair m' w = (λ p : N * N, (f p.1, f p.2)) <$> w_pair m w.
  Proof. unfold w_pair, w_first, w_second. rewrite (rn_tets _ _ R). destruct (tet_get m (w_tet w)); cbn; [|done]. by rewrite !get4_map. Qed.
  Lemma rn_tri w : w_tri m' w = (λ p : N * N * N, (f p.1.1, f p.1.2, f p.2)) <$> w_tri m w.
  Proof. unfold w_tri, w_first, w_second, w_third. rewrite (rn_tets _ _ R). destruct (tet_get m (w_tet w)); cbn; [|done]. by rewrite !get4_map. Qed.
  Lemma rn_wverts w : w_verts m' w = map4 f <$> w_verts m w.
  Proof. unfold w_verts, w_first, w_second, w_third, w_fourth. rewrite (rn_tets _ _ R). destruct (tet_get m (w_tet w)); cbn; [|done]. by rewrite !get4_map. Qed.
  Lemma rn_undir w : undir_edge m' w = undir_edge m w.
  Proof. unfold undir_edge. rewrite (rn_tets _ _ R). by destruct (tet_get m (w_tet w)). Qed.
  Lemma rn_adj w : to_adj m' w = to_adj m w.
  Proof. unfold to_adj, to_adj_ae. rewrite (rn_tets _ _ R). by destruct (tet_get m (w_tet w)). Qed.
  Lemma rn_lock w : w_locked m' w = w_locked m w.
  Proof. unfold w_locked. rewrite (rn_tets _ _ R). by destruct (tet_get m (w_tet w)). Qed.
  Lemma rn_in_tri w a b c : w_tri m w = Some (a, b, c) → P a ∧ P b ∧ P c.
  Proof.
    unfold w_tri, w_first, w_second, w_third. destruct (tet_get m (w_tet w)) as [t|] eqn:E; [|done]. cbn. pose proof (rn_in _ _ R _ _ E) as HP. rewrite Forall_forall in HP.
    intros [= <- <- <-]. split; [|split]; apply HP, get4_in.
  Qed.
  Lemma rn_in_verts w a b c d : w_verts m w = Some (A4 a b c d) → P a ∧ P b ∧ P c ∧ P d.
  Proof.
    unfold w_verts, w_first, w_second, w_third, w_fourth. destruct (tet_get m (w_tet w)) as [t|] eqn:E; [|done]. cbn. pose proof (rn_in _ _ R _ _ E) as HP. rewrite Forall_forall in HP.
    intros [= <- <- <- <-]. split; [|split; [|split]]; apply HP, get4_in.
  Qed.
  Lemma rn_in_first w a : w_first m w = Some a → P a.
  Proof.
    unfold w_first. destruct (tet_get m (w_tet w)) as [t|] eqn:E; [|done]. cbn. pose proof (rn_in _ _ R _ _ E) as HP. rewrite Forall_forall in HP.
    intros [= <-]. apply HP, get4_in.
  Qed.
  Lemma rn_in_pair w a b : w_pair m w = Some (a, b) → P a ∧ P b.
  Proof.
    unfold w_pair, w_first, w_second. destruct (tet_get m (w_tet w)) as [t|] eqn:E; [|done]. cbn. pose proof (rn_in _ _ R _ _ E) as HP. rewrite Forall_forall in HP.
    intros [= <- <-]. split; apply HP, get4_in.
  Qed.

  Lemma rtsc_same (Q Q' : walker → walker → Prop) w w' : (∀ a b, Q a b → Q' a b) → rtsc Q w w' → rtsc Q' w w'.
  Proof. intros H. apply rtc_subrel. intros a b [?|?]; [left|right]; by apply H. Qed.

  Lemma renamed_ok : mesh_ok m → im_wf (m_verts m') → im_wf (m_edges m') → im_wf (m_tets m') → im_get (m_verts m') GHOST = None → mesh_ok m'.
  Proof.
    intros Hok W1 W2 W3 Hg. split; try done.
    - intros w a' b' c' d' Hw%rn_valid. rewrite rn_wverts. intros ([a b c d] & E & Ev)%fmap_Some. unfold map4 in Ev. cbn in Ev. injection Ev as -> -> -> ->.
      destruct (rn_in_verts _ _ _ _ _ E) as (Pa & Pb & Pc & Pd). pose proof (ok_distinct _ Hok w _ _ _ _ Hw E) as Hn.
      change [f a; f b; f c; f d] with (f <$> [a; b; c; d]). revert Hn. assert (∀ x, x ∈ [a; b; c; d] → P x) as HP by (intros x; rewrite !elem_of_cons, elem_of_nil; naive_solver).
      clear - HP R. revert HP. generalize [a; b; c; d]. induction l as [|x l IH]; intros HP; [constructor|]. rewrite fmap_cons, !stdpp.list.NoDup_cons. intros [Hx Hl]. split; [|apply IH; [|done]; intros y Hy; apply HP; by right].
      intros (y & E & Hy)%elem_of_list_fmap. apply rn_inj in E as ->; [done|apply HP; by left|apply HP; by right].
    - intros w a' Hw%rn_valid. rewrite rn_first. intros (a & E & ->)%fmap_Some. destruct (ok_exist _ Hok w a Hw E) as [->|[vt Hv]]; [left; apply (rn_ghost _ _ R)|right].
      apply (rn_verts _ _ R) in Hv as (vt' & -> & _); [eauto|]. by eapply rn_in_first.
    - intros w a' b' c' d' Hw%rn_valid. rewrite rn_wverts. intros ([a b c d] & E & Ev)%fmap_Some. unfold map4 in Ev. cbn in Ev. injection Ev as -> -> -> ->.
      destruct (ok_adj _ Hok w _ _ _ _ Hw E) as (w' & x & A1 & A2 & A3 & A4). exists w', (f x). rewrite !rn_adj, rn_valid, rn_wverts, A3. done.
    - intros w w' t Hw%rn_valid Hw'%rn_valid. rewrite !rn_tri. intros ([[a b] c] & E1 & ->)%fmap_Some ([[a' b'] c'] & E2 & Et)%fmap_Some. cbn in Et. injection Et as Ea Eb Ec.
      destruct (rn_in_tri _ _ _ _ E1) as (Pa & Pb & Pc), (rn_in_tri _ _ _ _ E2) as (Pa' & Pb' & Pc').
      apply rn_inj in Ea; [|done..]. apply rn_inj in Eb; [|done..]. apply rn_inj in Ec; [|done..]. subst. by apply (ok_tri_unique _ Hok w w' (a', b', c')).
    - intros w a' b' Hw%rn_valid. rewrite rn_pair. intros ([a b] & E & Ev)%fmap_Some. cbn in Ev. injection Ev as -> ->. destruct (rn_in_pair _ _ _ E) as [Pa Pb].
      destruct (ok_edge _ Hok w _ _ Hw E) as (e & ue & E1 & E2 & E3). exists e, (rn_edge f ue). rewrite rn_undir, (rn_edges _ _ R), E2. split; [done|]. split; [done|].
      rewrite rn_sorted by done. by rewrite <- E3.
    - intros e e' ue ue'. rewrite !(rn_edges _ _ R). intros (x & Ex & ->)%fmap_Some (y & Ey & ->)%fmap_Some. unfold rn_edge. cbn. intros [= Ea Eb].
      apply (ok_edge_unique _ Hok e e' x y); [done..|].
      destruct (ok_edge_used _ Hok _ _ Ex) as (w & _ & Ew), (ok_edge_used _ Hok _ _ Ey) as (w' & _ & Ew').
      destruct (rn_in_pair _ _ _ Ew) as [Pa Pb], (rn_in_pair _ _ _ Ew') as [Pa' Pb'].
      apply rn_inj in Ea; [|done..]. apply rn_inj in Eb; [|done..]. destruct (ue_vs x), (ue_vs y). cbn in *. congruence.
    - intros e ue. rewrite (rn_edges _ _ R). intros (x & Ex & ->)%fmap_Some. cbn. destruct (ok_edge_used _ Hok _ _ Ex) as (w & Hw & Ew). exists w. by rewrite rn_valid, rn_pair, Ew.
    - intros e ue. rewrite (rn_edges _ _ R). intros (x & Ex & ->)%fmap_Some. cbn. destruct (ok_edge_used _ Hok _ _ Ex) as (w & Hw & Ew). destruct (rn_in_pair _ _ _ Ew) as [Pa Pb].
      apply (rn_mono _ _ R); [done..|]. by apply (ok_edge_sorted _ Hok e).
    - intros v vt' Hv (w & Hw%rn_valid & Hf). rewrite rn_first in Hf. apply fmap_Some in Hf as (u & Hf & ->). apply rn_in_first in Hf as Pu.
      destruct (ok_exist _ Hok w u Hw Hf) as [->|[vt Hu]]; [rewrite (rn_ghost _ _ R) in Hv; congruence|].
      destruct (rn_verts _ _ R u vt Pu Hu) as (vt2 & E2 & Et). assert (vt2 = vt') as -> by congruence. rewrite Et, rn_valid, rn_first.
      destruct (ok_vref _ Hok u vt Hu) as [H1 H2]; [by exists w|]. rewrite H2. done.
    - intros w w' Hw%rn_valid. rewrite rn_adj, !rn_lock. by apply (ok_lock _ Hok).
    - rewrite (rn_track _ _ R). done.
    - intros w w' p Hw%rn_valid Hw'%rn_valid. rewrite !rn_pair. intros ([a b] & E1 & ->)%fmap_Some ([a' b'] & E2 & Ep)%fmap_Some. cbn in Ep. injection Ep as Ea Eb.
      destruct (rn_in_pair _ _ _ E1) as [Pa Pb], (rn_in_pair _ _ _ E2) as [Pa' Pb']. apply rn_inj in Ea; [|done..]. apply rn_inj in Eb; [|done..]. subst.
      apply (rtsc_same (edge_step m)); [|by apply (ok_ring _ Hok w w' (a', b'))]. intros x y [H1 H2]. split; [by apply rn_valid|]. unfold ring_next in *. by rewrite rn_adj.
    - intros w w' v Hw%rn_valid Hw'%rn_valid. rewrite !rn_first. intros (a & E1 & ->)%fmap_Some (a' & E2 & Ea)%fmap_Some.
      apply rn_in_first in E1 as Pa. apply rn_in_first in E2 as Pa'. apply rn_inj in Ea; [|done..]. subst.
      apply (rtsc_same (vertex_step m)); [|by apply (ok_star _ Hok w w' a')]. intros x y [H1 H2]. split; [by apply rn_valid|]. by rewrite rn_adj.
  Qed.
End rename.

(** Filling an id map commutes with mapping its values. *)
Section map.
  Context {A B : Type} (g : A → B).
  Definition im_fmap (im : idmap A) : idmap B := IdMap (g <$> im_slots im) (im_npi im) (im_free im).
  Lemma im_fmap_insert im x : im_insert (im_fmap im) (g x) = (im_fmap (im_insert im x).1, (im_insert im x).2).
  Proof.
    unfold im_insert. cbn [im_fmap im_free]. destruct (vec_pop (im_free im)) as [[fr k]|]; unfold im_fmap, sv_insert; cbn; by rewrite fmap_insert.
  Qed.
  Lemma im_fmap_extend xs : ∀ im, im_extend_values (im_fmap im) (g <$> xs) = (im_fmap (im_extend_values im xs).1, (im_extend_values im xs).2).
  Proof.
    induction xs as [|x xs IH]; intros im; [done|]. rewrite fmap_cons. cbn [im_extend_values]. rewrite im_fmap_insert. destruct (im_insert im x) as [im1 k]. cbn [fst snd].
    rewrite IH. by destruct (im_extend_values im1 xs).
  Qed.
  Lemma im_fmap_get im k : im_get (im_fmap im) k = g <$> im_get im k.
  Proof. unfold im_get. cbn. apply lookup_fmap. Qed.
  Lemma im_fmap_empty : im_fmap im_empty = im_empty.
  Proof. unfold im_fmap, im_empty. cbn. by rewrite fmap_empty. Qed.
  Lemma im_fmap_wf im : im_wf im → im_wf (im_fmap im).
  Proof.
    intros [H1 H2 H3]. split; cbn [im_fmap im_slots im_npi im_free].
    - intros k. rewrite lookup_fmap, fmap_is_Some. apply H1.
    - intros k. rewrite H2, lookup_fmap, fmap_None. done.
    - exact H3.
  Qed.
End map.
