(** Iterating over the rings, vertices and edges of a face. *)
From Coq Require Import NArith Lia Sorted.
From stdpp Require Import base numbers list gmap option sorting.
From Verif Require Import IdMapModel IdMapProofs WalkerModel MeshModel UtilModel UtilSpec UtilProofs PlcModel PlcSpec PlcList PlcNet PlcFace PlcAdd.
Local Open Scope N_scope.

Lemma collect_yields {St A} (next : St → option (option A * St)) s l n : yields next s l → (length l < n)%nat → collect next n s = Some l.
Proof.
  intros H Hn. unfold collect. destruct (H n) as (s' & E). rewrite E. cbn [mbind option_bind]. rewrite take_ge by lia. by rewrite decide_True.
Qed.
(** An iterator that maps the items of another one. *)
Lemma map_yields {St St' A B} (next : St → option (option A * St)) (next' : St' → option (option B * St')) (inj : St → St') (h : A → option B) :
  (∀ s, next' (inj s) = '(r, s') ← next s; match r with None => Some (None, inj s') | Some a => b ← h a; Some (Some b, inj s') end) →
  ∀ s l l', yields next s l → Forall2 (λ a b, h a = Some b) l l' → yields next' (inj s) l'.
Proof.
  intros Hn s l l' Hy Hf n. destruct (Hy n) as (s' & E). exists (inj s').
  assert (∀ n s k s', iter_take next n s = Some (k, s') → ∀ k', Forall2 (λ a b, h a = Some b) k k' → iter_take next' n (inj s) = Some (k', inj s')) as H.
  { clear - Hn. induction n as [|n IH]; intros s k s' E k' Hf; cbn in *.
    - injection E as <- <-. by apply Forall2_nil_inv_l in Hf as ->.
    - rewrite Hn. destruct (next s) as [[[a|] s1]|]; cbn [mbind option_bind] in *; [| |done].
      + destruct (iter_take next n s1) as [[k1 s2]|] eqn:E1; cbn [mbind option_bind] in E; [|done]. injection E as <- <-.
        apply Forall2_cons_inv_l in Hf as (b & k1' & Hb & Hf & ->). rewrite Hb. cbn [mbind option_bind]. by rewrite (IH _ _ _ E1 _ Hf).
      + injection E as <- <-. by apply Forall2_nil_inv_l in Hf as ->. }
  eapply H; [exact E|]. by apply Forall2_take.
Qed.
Lemma lists_length P l n : lists P l → (∀ k, P k → k < n) → (length l ≤ N.to_nat n)%nat.
Proof.
  intros Hl Hn. rewrite <- (seq_length (N.to_nat n) 0). rewrite <- (fmap_length N.of_nat (seq 0 (N.to_nat n))).
  apply submseteq_length, NoDup_submseteq; [by eapply lists_nodup|]. intros k Hk. apply (proj2 Hl), Hn in Hk.
  apply elem_of_list_fmap. exists (N.to_nat k). split; [lia|]. apply elem_of_seq. lia.
Qed.
Lemma mapM_ok {A B} (f : A → option B) l l' : Forall2 (λ a b, f a = Some b) l l' → mapM f l = Some l'.
Proof. intros H. by apply mapM_Some. Qed.
Lemma Forall2_some {A B} (P : A → B → Prop) l : (∀ x, x ∈ l → ∃ y, P x y) → ∃ l', Forall2 P l l'.
Proof.
  induction l as [|x l IH]; intros H; [by exists []|]. destruct (H x) as [y Hy]; [by left|]. destruct IH as [l' Hl']; [intros; apply H; by right|].
  exists (y :: l'). by constructor.
Qed.

Section iter.
  Context {V E F Pl : Type}.
  Context (plane_of : list pt → list (pt * pt) → Pl).
  Implicit Types (p : plc V E F Pl).

  Definition fe0 : fedge := FEdge 0 0 0 0 0 0.
  Definition fr0 : fring := FRing (RVertex 0) 0 0 0.

  (** The face edges of a ring of two or more vertices. *)
  Lemma fes_yield p r v0 v1 (vs : list N) head l : dense (p_fes p) → lists (λ x, fering p x = Some r) l → circular (fenext p) (feprev p) head l →
    length l = length (v0 :: v1 :: vs) →
    yields (fes_next p) (ci_new head) ((λ x, (x, default fe0 (im_get (p_fes p) x))) <$> l) ∧ (length l < S (N.to_nat (im_npi (p_fes p))))%nat.
  Proof.
    intros Hd Hl Hc Hlen. split.
    - apply circular_yields.
      + eapply circular_round; [exact Hc|by eapply lists_nodup|by destruct l].
      + intros x Hx. apply (proj2 Hl) in Hx. destruct (get_fmap _ _ _ _ Hx) as (fe & Hfe & _). by rewrite Hfe.
    - apply lists_length with (n := im_npi (p_fes p)) in Hl; [lia|]. intros k Hk. eapply dense_lt; [done|by eapply fmap_Some_is].
  Qed.

  Lemma ring_vertex_list_ok p r rr vs : pbase p → im_get (p_rings p) r = Some rr → ring_of p r vs →
    ∃ vl, ring_vertex_list p rr = Some vl ∧ vl.*1 = vs ∧ ∀ v x, (v, x) ∈ vl → im_get (p_verts p) v = Some x.
  Proof.
    intros Hb Hr Ho. destruct vs as [|v0 [|v1 vs]]; [done| |].
    - destruct Ho as (H1 & [x Hx] & _). unfold relement in H1. rewrite Hr in H1. cbn in H1. injection H1 as H1.
      exists [(v0, x)]. split.
      + unfold ring_vertex_list, ring_vertices. rewrite H1, Hx. cbn [mbind option_bind]. apply collect_yields with (l := [(v0, x)]).
        * intros [|[|n]]; cbn; eauto.
        * cbn. lia.
      + split; [done|]. intros v y Hv. apply elem_of_list_singleton in Hv. by injection Hv as -> ->.
    - destruct Ho as (h & l & H1 & H2 & H3 & H4 & H5). unfold relement in H1. rewrite Hr in H1. cbn in H1. injection H1 as H1.
      destruct (fes_yield p r v0 v1 vs h l (pb_fes _ Hb) H2 H3 H4) as [Y1 Y2].
      destruct (Forall2_some (λ (a : N * fedge) (b : N * pvert V), (e ← im_get (p_edges p) (fe_edge a.2); v ← im_get (p_verts p) (pe_vs e).1; Some ((pe_vs e).1, v)) = Some b)
        ((λ x, (x, default fe0 (im_get (p_fes p) x))) <$> l)) as [vl Hvl].
      { intros a Ha. apply elem_of_list_fmap in Ha as (x & -> & Hx). apply elem_of_list_lookup_1 in Hx as [i Hx].
        destruct (H5 i x Hx) as (e & a & E1 & E2 & E3). destruct (get_fmap _ _ _ _ E1) as (fe & F1 & F2). rewrite F1. cbn [default from_option id snd].
        destruct (get_fmap _ _ _ _ E3) as (ed & G1 & G2). rewrite F2, G1. cbn [mbind option_bind]. rewrite G2. cbn [fst].
        destruct (pb_ends _ Hb e _ _ E3) as [[w Hw] _]. rewrite Hw. cbn. eauto. }
      exists vl. split; [|split].
      + unfold ring_vertex_list, ring_vertices. rewrite H1. cbn [mbind option_bind]. apply collect_yields.
        * refine (map_yields (fes_next p) (frv_next p) FrvMultiple _ _ _ _ _ Y1 Hvl). intros s. cbn. destruct (fes_next p s) as [[[[x fe]|] s']|]; cbn [mbind option_bind]; [|done|done].
          cbn [snd]. destruct (im_get (p_edges p) (fe_edge fe)) as [ed|]; cbn [mbind option_bind]; [|done]. by destruct (im_get (p_verts p) (pe_vs ed).1).
        * apply Forall2_length in Hvl. rewrite fmap_length in Hvl. rewrite <- Hvl. lia.
      + apply list_eq. intros i. rewrite list_lookup_fmap. destruct (vl !! i) as [[v y]|] eqn:Hv.
        * destruct (Forall2_lookup_r _ _ _ _ _ Hvl Hv) as (a & Ha & Hab). rewrite list_lookup_fmap in Ha. apply fmap_Some in Ha as (x & Hx & ->).
          destruct (H5 i x Hx) as (e & a & E1 & E2 & E3). destruct (get_fmap _ _ _ _ E1) as (fe & F1 & F2).
          destruct (get_fmap _ _ _ _ E3) as (ed & G1 & G2). rewrite F1 in Hab. cbn [default from_option id snd] in Hab. rewrite F2, G1 in Hab. cbn [mbind option_bind] in Hab.
          rewrite G2 in Hab. cbn [fst] in Hab. destruct (im_get (p_verts p) a); [|done]. cbn in Hab. injection Hab as <- <-. cbn. by rewrite E2.
        * cbn. apply lookup_ge_None in Hv. symmetry. apply lookup_ge_None. apply Forall2_length in Hvl. rewrite fmap_length in Hvl. lia.
      + intros v x Hv. apply elem_of_list_lookup_1 in Hv as [i Hv]. destruct (Forall2_lookup_r _ _ _ _ _ Hvl Hv) as (a & _ & Hab).
        destruct (im_get (p_edges p) _); [|done]. cbn [mbind option_bind] in Hab. destruct (im_get (p_verts p) (pe_vs p0).1) eqn:Hw; [|done].
        cbn in Hab. injection Hab as <- <-. done.
  Qed.

  Lemma ring_edge_list_ok p r rr vs : pbase p → im_get (p_rings p) r = Some rr → ring_of p r vs →
    ∃ el, ring_edge_list p rr = Some el ∧ (λ e, pe_vs e.2) <$> el = ring_pairs vs ∧ ∀ e x, (e, x) ∈ el → im_get (p_edges p) e = Some x.
  Proof.
    intros Hb Hr Ho. destruct vs as [|v0 [|v1 vs]]; [done| |].
    - destruct Ho as (H1 & _ & _). unfold relement in H1. rewrite Hr in H1. cbn in H1. injection H1 as H1.
      exists []. split.
      + unfold ring_edge_list, ring_edges. rewrite H1. apply collect_yields with (l := []); [|cbn; lia]. intros [|n]; cbn; eauto.
      + split; [done|]. intros v y Hv. by apply elem_of_nil in Hv.
    - destruct Ho as (h & l & H1 & H2 & H3 & H4 & H5). unfold relement in H1. rewrite Hr in H1. cbn in H1. injection H1 as H1.
      destruct (fes_yield p r v0 v1 vs h l (pb_fes _ Hb) H2 H3 H4) as [Y1 Y2].
      destruct (Forall2_some (λ (a : N * fedge) (b : N * pedge E), (e ← im_get (p_edges p) (fe_edge a.2); Some (fe_edge a.2, e)) = Some b)
        ((λ x, (x, default fe0 (im_get (p_fes p) x))) <$> l)) as [vl Hvl].
      { intros a Ha. apply elem_of_list_fmap in Ha as (x & -> & Hx). apply elem_of_list_lookup_1 in Hx as [i Hx].
        destruct (H5 i x Hx) as (e & a & E1 & E2 & E3). destruct (get_fmap _ _ _ _ E1) as (fe & F1 & F2). rewrite F1. cbn [default from_option id snd].
        destruct (get_fmap _ _ _ _ E3) as (ed & G1 & G2). rewrite F2, G1. cbn. eauto. }
      exists vl. split; [|split].
      + unfold ring_edge_list, ring_edges. rewrite H1. apply collect_yields.
        * refine (map_yields (fes_next p) (fre_next p) Some _ _ _ _ _ Y1 Hvl). intros s. cbn. destruct (fes_next p s) as [[[[x fe]|] s']|]; cbn [mbind option_bind]; [|done|done].
          cbn [snd]. by destruct (im_get (p_edges p) (fe_edge fe)) as [ed|].
        * apply Forall2_length in Hvl. rewrite fmap_length in Hvl. rewrite <- Hvl. exact Y2.
      + apply list_eq. intros i. rewrite list_lookup_fmap, ring_pairs_lookup. destruct (vl !! i) as [[v y]|] eqn:Hv.
        * destruct (Forall2_lookup_r _ _ _ _ _ Hvl Hv) as (a & Ha & Hab). rewrite list_lookup_fmap in Ha. apply fmap_Some in Ha as (x & Hx & ->).
          destruct (H5 i x Hx) as (e & a & E1 & E2 & E3). destruct (get_fmap _ _ _ _ E1) as (fe & F1 & F2).
          destruct (get_fmap _ _ _ _ E3) as (ed & G1 & G2). rewrite F1 in Hab. cbn [default from_option id snd] in Hab. rewrite F2, G1 in Hab. cbn [mbind option_bind] in Hab.
          injection Hab as <- <-. rewrite E2. cbn [fmap option_fmap option_map snd]. by rewrite G2.
        * cbn. apply lookup_ge_None in Hv. apply Forall2_length in Hvl. rewrite fmap_length in Hvl.
          rewrite lookup_ge_None_2; [done|]. cbn in *. lia.
      + intros v x Hv. apply elem_of_list_lookup_1 in Hv as [i Hv]. destruct (Forall2_lookup_r _ _ _ _ _ Hvl Hv) as (a & _ & Hab).
        destruct (im_get (p_edges p) _) eqn:Hw; [|done]. cbn in Hab. injection Hab as <- <-. done.
  Qed.

  Lemma face_ring_list_ok p f fc vss : pbase p → im_get (p_faces p) f = Some fc → face_of p f vss →
    ∃ rl, face_ring_list p fc = Some rl ∧ Forall2 (λ a vs, ring_of p a.1 vs ∧ im_get (p_rings p) a.1 = Some a.2) rl vss ∧
      lists (λ r, rface p r = Some f) rl.*1.
  Proof.
    intros Hb Hf (Hne & h & rl & H1 & H2 & H3 & H4). unfold fcring in H1. rewrite Hf in H1. cbn in H1. injection H1 as H1.
    exists ((λ r, (r, default fr0 (im_get (p_rings p) r))) <$> rl).
    assert (∀ r, r ∈ rl → ∃ rr, im_get (p_rings p) r = Some rr) as Hin.
    { intros r Hr. apply (proj2 H2) in Hr. destruct (get_fmap _ _ _ _ Hr) as (x & Hx & _). eauto. }
    split; [|split].
    - apply collect_yields.
      + unfold rings_next, face_rings. rewrite H1. apply circular_yields.
        * eapply circular_round; [exact H3|by eapply lists_nodup|]. intros ->. apply Forall2_nil_inv_l in H4. done.
        * intros x Hx. destruct (Hin x Hx) as [rr Hrr]. by rewrite Hrr.
      + rewrite fmap_length. apply lists_length with (n := im_npi (p_rings p)) in H2; [lia|]. intros k Hk. eapply dense_lt; [apply (pb_rings _ Hb)|by eapply fmap_Some_is].
    - apply Forall2_fmap_l. eapply Forall2_impl_strong; [|exact H4]. intros r vs Hr _ Ho. cbn. split; [done|]. by destruct (Hin r Hr) as [rr Hrr]; rewrite Hrr.
    - rewrite <- list_fmap_compose. cbn. by rewrite list_fmap_id.
  Qed.

  Lemma face_vertices_ok p f fc vss : pbase p → im_get (p_faces p) f = Some fc → face_of p f vss →
    ∃ vll, face_vertices p fc = Some vll ∧ (λ vl : list (N * pvert V), vl.*1) <$> vll = vss ∧ ∀ v x, (v, x) ∈ concat vll → im_get (p_verts p) v = Some x.
  Proof.
    intros Hb Hf Ho. destruct (face_ring_list_ok p f fc vss Hb Hf Ho) as (rl & E0 & Hf2 & _). unfold face_vertices. rewrite E0. cbn [mbind option_bind].
    clear E0 Ho. induction Hf2 as [|[r rr] vs rl vss [A1 A2] Hf2 IH]; [exists []; split; [done|]; split; [done|]; intros ? ? H'; by apply elem_of_nil in H'|]. cbn in *.
    destruct (ring_vertex_list_ok p r rr vs Hb A2 A1) as (vl & B1 & B2 & B3). destruct IH as (vll & C1 & C2 & C3).
    exists (vl :: vll). cbn. rewrite B1. cbn [mbind option_bind]. rewrite C1. cbn. split; [done|]. split; [by rewrite B2, C2|].
    intros v x Hv. apply elem_of_app in Hv as [Hv|Hv]; auto.
  Qed.
  Lemma face_edges_ok p f fc vss : pbase p → im_get (p_faces p) f = Some fc → face_of p f vss →
    ∃ ell, face_edges p fc = Some ell ∧ (λ el : list (N * pedge E), (λ e, pe_vs e.2) <$> el) <$> ell = ring_pairs <$> vss ∧
      ∀ e x, (e, x) ∈ concat ell → im_get (p_edges p) e = Some x.
  Proof.
    intros Hb Hf Ho. destruct (face_ring_list_ok p f fc vss Hb Hf Ho) as (rl & E' & Hf2 & _). unfold face_edges. rewrite E'. cbn [mbind option_bind].
    clear E' Ho. induction Hf2 as [|[r rr] vs rl vss [A1 A2] Hf2 IH]; [exists []; split; [done|]; split; [done|]; intros ? ? H'; by apply elem_of_nil in H'|]. cbn [fst snd] in *.
    destruct (ring_edge_list_ok p r rr vs Hb A2 A1) as (vl & B1 & B2 & B3). destruct IH as (vll & C1 & C2 & C3).
    exists (vl :: vll). split; [cbn [mapM snd]; rewrite B1; cbn [mbind option_bind]; by rewrite C1|]. cbn. split; [by rewrite B2, C2|].
    intros v x Hv. apply elem_of_app in Hv as [Hv|Hv]; auto.
  Qed.

  (** Positions, from the vertex ids. *)
  Definition vpos p v : option pt := pv_pos <$> im_get (p_verts p) v.
  Definition epos p (vs : N * N) : option (pt * pt) := a ← vpos p vs.1; b ← vpos p vs.2; Some (a, b).

  Lemma calc_face_plane_ok p f vss : pbase p → is_Some (im_get (p_faces p) f) → face_of p f vss →
    ∃ pts ends, mapM (vpos p) (concat vss) = Some pts ∧ mapM (epos p) (concat (ring_pairs <$> vss)) = Some ends ∧
      calc_face_plane plane_of p f = Some (with_faces p (im_alter (p_faces p) f (set_plane (plane_of pts ends)))).
  Proof.
    intros Hb [fc Hf] Ho. destruct (face_vertices_ok p f fc vss Hb Hf Ho) as (vll & A1 & A2 & A3).
    destruct (face_edges_ok p f fc vss Hb Hf Ho) as (ell & B1 & B2 & B3).
    unfold calc_face_plane. rewrite Hf. cbn [mbind option_bind]. rewrite A1. cbn [mbind option_bind]. rewrite B1. cbn [mbind option_bind].
    destruct (Forall2_some (λ (e : N * pedge E) b, (a ← im_get (p_verts p) (pe_vs e.2).1; b ← im_get (p_verts p) (pe_vs e.2).2; Some (pv_pos a, pv_pos b)) = Some b) (concat ell)) as [ends He].
    { intros [e x] Hx. apply B3 in Hx. destruct (pe_vs x) as [a b] eqn:Ex. destruct (pb_ends _ Hb e a b) as [[va Ha] [vb Hvb]].
      { unfold evs. by rewrite Hx, <- Ex. } cbn [snd]. rewrite Ex. cbn [fst snd]. rewrite Ha. cbn [mbind option_bind]. rewrite Hvb. cbn. eauto. }
    exists ((λ v, pv_pos v.2) <$> concat vll), ends. rewrite (mapM_ok _ _ _ He). cbn [mbind option_bind]. split; [|split].
    - assert (concat vss = (concat vll).*1) as ->. { rewrite <- A2. clear. induction vll as [|vl vll IH]; [done|]. cbn. by rewrite fmap_app, IH. }
      apply mapM_ok. apply Forall2_fmap_2. apply Forall_Forall2_diag. apply Forall_forall. intros [v x] Hv. unfold vpos. cbn [fst snd]. by rewrite (A3 v x Hv).
    - assert (concat (ring_pairs <$> vss) = (λ e, pe_vs e.2) <$> concat ell) as ->. { rewrite <- B2. clear. induction ell as [|el ell IH]; [done|]. cbn. by rewrite fmap_app, IH. }
      apply mapM_ok. apply Forall2_fmap_l. eapply Forall2_impl; [exact He|]. intros [e x] b Hx. cbn [snd] in Hx. change (epos p (pe_vs x) = Some b). unfold epos, vpos.
      destruct (im_get (p_verts p) (pe_vs x).1); [|done]. cbn [mbind option_bind fmap option_fmap option_map] in *.
      destruct (im_get (p_verts p) (pe_vs x).2); [exact Hx|discriminate Hx].
    - by rewrite upd_face_ok by (by rewrite Hf).
  Qed.
End iter.
