(** The vertices and edges of a piecewise linear complex, and the uses of edges by faces. *)
From Coq Require Import NArith Lia Sorted.
From stdpp Require Import base numbers list gmap option sorting.
From Verif Require Import IdMapModel IdMapProofs WalkerModel MeshModel UtilModel UtilSpec PlcModel PlcSpec PlcList.
Local Open Scope N_scope.

Lemma fmap_alter_set {A B} (g : A → B) (m : idmap A) k f j y : is_Some (im_get m k) → (∀ x, g (f x) = y) →
  g <$> im_get (im_alter m k f) j = if decide (j = k) then Some y else g <$> im_get m j.
Proof. intros [x Hx] H. rewrite fmap_alter. destruct (decide (j = k)) as [->|]; [|done]. rewrite Hx. cbn. by rewrite H. Qed.
Lemma get_fmap {A B} (g : A → B) (m : idmap A) k y : g <$> im_get m k = Some y → ∃ x, im_get m k = Some x ∧ g x = y.
Proof. destruct (im_get m k); [|done]. cbn. intros [= <-]. eauto. Qed.

Section net.
  Context {V E F Pl : Type}.
  Context (default_edge : E).
  Implicit Types (p : plc V E F Pl).

  Lemma upd_vert_ok p k f : is_Some (im_get (p_verts p) k) → upd_vert p k f = Some (with_verts p (im_alter (p_verts p) k f)).
  Proof. intros H. unfold upd_vert. by rewrite im_upd_alter. Qed.
  Lemma upd_edge_ok p k f : is_Some (im_get (p_edges p) k) → upd_edge p k f = Some (with_edges p (im_alter (p_edges p) k f)).
  Proof. intros H. unfold upd_edge. by rewrite im_upd_alter. Qed.
  Lemma upd_fe_ok p k f : is_Some (im_get (p_fes p) k) → upd_fe p k f = Some (with_fes p (im_alter (p_fes p) k f)).
  Proof. intros H. unfold upd_fe. by rewrite im_upd_alter. Qed.
  Lemma upd_ring_ok p k f : is_Some (im_get (p_rings p) k) → upd_ring p k f = Some (with_rings p (im_alter (p_rings p) k f)).
  Proof. intros H. unfold upd_ring. by rewrite im_upd_alter. Qed.
  Lemma upd_face_ok p k f : is_Some (im_get (p_faces p) k) → upd_face p k f = Some (with_faces p (im_alter (p_faces p) k f)).
  Proof. intros H. unfold upd_face. by rewrite im_upd_alter. Qed.

  (** What linking an edge into the lists of its ends leaves alone. *)
  Record net_frame p p' : Prop := NetFrame {
    nf_fes : p_fes p' = p_fes p; nf_rings : p_rings p' = p_rings p; nf_faces : p_faces p' = p_faces p; nf_emap : p_emap p' = p_emap p;
    nf_verts : dense (p_verts p) → dense (p_verts p'); nf_edges : dense (p_edges p) → dense (p_edges p');
    nf_nv : im_npi (p_verts p') = im_npi (p_verts p); nf_ne : im_npi (p_edges p') = im_npi (p_edges p);
    nf_vring v : vring p' v = vring p v; nf_vdata v : vdata p' v = vdata p v;
    nf_evs e : evs p' e = evs p e; nf_efe e : efe p' e = efe p e; nf_eval e : eval p' e = eval p e;
    nf_isv v : is_Some (im_get (p_verts p') v) ↔ is_Some (im_get (p_verts p) v);
    nf_ise e : is_Some (im_get (p_edges p') e) ↔ is_Some (im_get (p_edges p) e) }.

  Ltac framed := split; cbn; try done; intros; cbn;
    try (by repeat apply dense_alter); try (by rewrite ?is_Some_alter);
    unfold vring, vdata, evs, efe, eval; cbn; by rewrite ?fmap_alter_same.

  Lemma link_out_ok p id a : is_Some (im_get (p_verts p) a) → esrc p id = Some a →
    (∀ e v, esrc p e = Some v → e ≤ id) → id < invalid_id →
    (∀ v h, vout p v = Some h → ∃ l, lists (λ e, e ≠ id ∧ esrc p e = Some v) l ∧ circular (enout p) (epout p) h l) →
    ∃ p', link_out p id a = Some p' ∧ net_frame p p' ∧ (∀ v, vin p' v = vin p v) ∧ (∀ e, enin p' e = enin p e) ∧ (∀ e, epin p' e = epin p e) ∧
      ∀ v h, vout p' v = Some h → ∃ l, lists (λ e, esrc p' e = Some v) l ∧ circular (enout p') (epout p') h l.
  Proof.
    intros [va Hva] Hsrc Hle Hinv Hall.
    assert (is_Some (im_get (p_edges p) id)) as Hid.
    { unfold esrc, evs in Hsrc. destruct (im_get (p_edges p) id); [eauto|done]. }
    assert (vout p a = Some (pv_out va)) as Hh by (unfold vout; by rewrite Hva).
    unfold link_out. rewrite Hva. cbn [mbind option_bind]. destruct (N.eqb_spec (pv_out va) invalid_id) as [He|Hne].
    - rewrite upd_vert_ok by (by rewrite Hva). cbn [mbind option_bind]. rewrite upd_edge_ok by done. cbn [mbind option_bind].
      rewrite upd_edge_ok by (by apply is_Some_alter). eexists. split; [done|]. split; [framed|].
      split; [intros v; unfold vin; cbn; by rewrite fmap_alter_same|].
      split; [intros e; unfold enin; cbn; by rewrite !fmap_alter_same|]. split; [intros e; unfold epin; cbn; by rewrite !fmap_alter_same|].
      match goal with |- ∀ v h, vout ?p' v = _ → _ =>
        assert (∀ e, esrc p' e = esrc p e) as Hes by (intros e; unfold esrc, evs; cbn; by rewrite !fmap_alter_same) end.
      eapply (attach' (esrc p) _ (vout p) (enout p) (epout p)); [exact Hes|exact Hall|exact Hsrc|exact Hle|exact Hinv|exact Hh|].
      rewrite decide_True by done. split; [|split].
      + intros v. unfold vout. cbn. by rewrite (fmap_alter_set _ _ _ _ _ id) by (by rewrite ?Hva).
      + intros e. unfold enout. cbn. rewrite fmap_alter_same by done. by rewrite (fmap_alter_set _ _ _ _ _ id).
      + intros e. unfold epout. cbn. rewrite (fmap_alter_set _ _ _ _ _ id) by (by rewrite ?is_Some_alter). by rewrite fmap_alter_same.
    - destruct (Hall a _ Hh) as (l & L1 & L2). destruct l as [|x0 l]; [by cbn in L2|].
      destruct (circular_last _ _ _ _ _ L2) as (y & Hlast & Hy). destruct L2 as [Hx0 L2].
      assert (∀ x, x ∈ x0 :: l → x ≠ id ∧ is_Some (im_get (p_edges p) x)) as Hin.
      { intros x Hx. apply (proj2 L1) in Hx as [X1 X2]. split; [done|]. unfold esrc, evs in X2. destruct (im_get (p_edges p) x); [eauto|done]. }
      destruct (Hin x0) as [Hn0 Hs0]; [by left|]. destruct (Hin y) as [Hny Hsy].
      { rewrite last_lookup in Hlast. by eapply elem_of_list_lookup_2. }
      rewrite Hx0. destruct (get_fmap _ _ _ _ Hy) as (ey & Hg & Hyy). rewrite Hg. cbn [mbind option_bind]. rewrite Hyy.
      rewrite upd_edge_ok by done. cbn [mbind option_bind]. rewrite upd_edge_ok by (by apply is_Some_alter). cbn [mbind option_bind].
      rewrite upd_edge_ok by (cbn; by rewrite !is_Some_alter). cbn [mbind option_bind].
      rewrite upd_edge_ok by (cbn; by rewrite !is_Some_alter). eexists. split; [done|]. split; [framed|].
      split; [done|].
      split; [intros e; unfold enin; cbn; by rewrite !fmap_alter_same|]. split; [intros e; unfold epin; cbn; by rewrite !fmap_alter_same|].
      match goal with |- ∀ v h, vout ?p' v = _ → _ =>
        assert (∀ e, esrc p' e = esrc p e) as Hes by (intros e; unfold esrc, evs; cbn; by rewrite !fmap_alter_same) end.
      eapply (attach' (esrc p) _ (vout p) (enout p) (epout p)); [exact Hes|exact Hall|exact Hsrc|exact Hle|exact Hinv|exact Hh|].
      rewrite decide_False by done. split; [done|]. rewrite Hx0. exists y. split; [done|]. split.
      + intros e. unfold enout. cbn. rewrite fmap_alter_same by done. rewrite (fmap_alter_set _ _ _ _ _ x0) by (by rewrite ?is_Some_alter).
        rewrite fmap_alter_same by done. by rewrite (fmap_alter_set _ _ _ _ _ id).
      + intros e. unfold epout. cbn. rewrite (fmap_alter_set _ _ _ _ _ y) by (by rewrite ?is_Some_alter). rewrite fmap_alter_same by done.
        rewrite (fmap_alter_set _ _ _ _ _ id) by (by rewrite ?is_Some_alter). by rewrite fmap_alter_same.
  Qed.

  Lemma link_in_ok p id a : is_Some (im_get (p_verts p) a) → etgt p id = Some a →
    (∀ e v, etgt p e = Some v → e ≤ id) → id < invalid_id →
    (∀ v h, vin p v = Some h → ∃ l, lists (λ e, e ≠ id ∧ etgt p e = Some v) l ∧ circular (enin p) (epin p) h l) →
    ∃ p', link_in p id a = Some p' ∧ net_frame p p' ∧ (∀ v, vout p' v = vout p v) ∧ (∀ e, enout p' e = enout p e) ∧ (∀ e, epout p' e = epout p e) ∧
      ∀ v h, vin p' v = Some h → ∃ l, lists (λ e, etgt p' e = Some v) l ∧ circular (enin p') (epin p') h l.
  Proof.
    intros [va Hva] Hsrc Hle Hinv Hall.
    assert (is_Some (im_get (p_edges p) id)) as Hid.
    { unfold etgt, evs in Hsrc. destruct (im_get (p_edges p) id); [eauto|done]. }
    assert (vin p a = Some (pv_in va)) as Hh by (unfold vin; by rewrite Hva).
    unfold link_in. rewrite Hva. cbn [mbind option_bind]. destruct (N.eqb_spec (pv_in va) invalid_id) as [He|Hne].
    - rewrite upd_vert_ok by (by rewrite Hva). cbn [mbind option_bind]. rewrite upd_edge_ok by done. cbn [mbind option_bind].
      rewrite upd_edge_ok by (by apply is_Some_alter). eexists. split; [done|]. split; [framed|].
      split; [intros v; unfold vout; cbn; by rewrite fmap_alter_same|].
      split; [intros e; unfold enout; cbn; by rewrite !fmap_alter_same|]. split; [intros e; unfold epout; cbn; by rewrite !fmap_alter_same|].
      match goal with |- ∀ v h, vin ?p' v = _ → _ =>
        assert (∀ e, etgt p' e = etgt p e) as Hes by (intros e; unfold etgt, evs; cbn; by rewrite !fmap_alter_same) end.
      eapply (attach' (etgt p) _ (vin p) (enin p) (epin p)); [exact Hes|exact Hall|exact Hsrc|exact Hle|exact Hinv|exact Hh|].
      rewrite decide_True by done. split; [|split].
      + intros v. unfold vin. cbn. by rewrite (fmap_alter_set _ _ _ _ _ id) by (by rewrite ?Hva).
      + intros e. unfold enin. cbn. rewrite fmap_alter_same by done. by rewrite (fmap_alter_set _ _ _ _ _ id).
      + intros e. unfold epin. cbn. rewrite (fmap_alter_set _ _ _ _ _ id) by (by rewrite ?is_Some_alter). by rewrite fmap_alter_same.
    - destruct (Hall a _ Hh) as (l & L1 & L2). destruct l as [|x0 l]; [by cbn in L2|].
      destruct (circular_last _ _ _ _ _ L2) as (y & Hlast & Hy). destruct L2 as [Hx0 L2].
      assert (∀ x, x ∈ x0 :: l → x ≠ id ∧ is_Some (im_get (p_edges p) x)) as Hin.
      { intros x Hx. apply (proj2 L1) in Hx as [X1 X2]. split; [done|]. unfold etgt, evs in X2. destruct (im_get (p_edges p) x); [eauto|done]. }
      destruct (Hin x0) as [Hn0 Hs0]; [by left|]. destruct (Hin y) as [Hny Hsy].
      { rewrite last_lookup in Hlast. by eapply elem_of_list_lookup_2. }
      rewrite Hx0. destruct (get_fmap _ _ _ _ Hy) as (ey & Hg & Hyy). rewrite Hg. cbn [mbind option_bind]. rewrite Hyy.
      rewrite upd_edge_ok by done. cbn [mbind option_bind]. rewrite upd_edge_ok by (by apply is_Some_alter). cbn [mbind option_bind].
      rewrite upd_edge_ok by (cbn; by rewrite !is_Some_alter). cbn [mbind option_bind].
      rewrite upd_edge_ok by (cbn; by rewrite !is_Some_alter). eexists. split; [done|]. split; [framed|].
      split; [done|].
      split; [intros e; unfold enout; cbn; by rewrite !fmap_alter_same|]. split; [intros e; unfold epout; cbn; by rewrite !fmap_alter_same|].
      match goal with |- ∀ v h, vin ?p' v = _ → _ =>
        assert (∀ e, etgt p' e = etgt p e) as Hes by (intros e; unfold etgt, evs; cbn; by rewrite !fmap_alter_same) end.
      eapply (attach' (etgt p) _ (vin p) (enin p) (epin p)); [exact Hes|exact Hall|exact Hsrc|exact Hle|exact Hinv|exact Hh|].
      rewrite decide_False by done. split; [done|]. rewrite Hx0. exists y. split; [done|]. split.
      + intros e. unfold enin. cbn. rewrite fmap_alter_same by done. rewrite (fmap_alter_set _ _ _ _ _ x0) by (by rewrite ?is_Some_alter).
        rewrite fmap_alter_same by done. by rewrite (fmap_alter_set _ _ _ _ _ id).
      + intros e. unfold epin. cbn. rewrite (fmap_alter_set _ _ _ _ _ y) by (by rewrite ?is_Some_alter). rewrite fmap_alter_same by done.
        rewrite (fmap_alter_set _ _ _ _ _ id) by (by rewrite ?is_Some_alter). by rewrite fmap_alter_same.
  Qed.

  (** ** Everything but the faces. *)
  Record pbase p : Prop := PBase {
    pb_verts : dense (p_verts p); pb_edges : dense (p_edges p); pb_fes : dense (p_fes p);
    pb_rings : dense (p_rings p); pb_faces : dense (p_faces p);
    pb_out v h : vout p v = Some h → ∃ l, lists (λ e, esrc p e = Some v) l ∧ circular (enout p) (epout p) h l;
    pb_in v h : vin p v = Some h → ∃ l, lists (λ e, etgt p e = Some v) l ∧ circular (enin p) (epin p) h l;
    pb_ends e a b : evs p e = Some (a, b) → is_Some (im_get (p_verts p) a) ∧ is_Some (im_get (p_verts p) b);
    pb_map vs e : edge_id p vs = Some e ↔ evs p e = Some vs;
    pb_uses e h : efe p e = Some h → ∃ l, lists (λ x, feedge p x = Some e) l ∧ circular (fenoe p) (fepoe p) h l;
    pb_fe x e : feedge p x = Some e → is_Some (im_get (p_edges p) e);
    pb_fering x r : fering p x = Some r → is_Some (im_get (p_rings p) r);
    pb_rface r f : rface p r = Some f → is_Some (im_get (p_faces p) f);
    pb_vring v r : vring p v = Some r → r = invalid_id ∨ relement p r = Some (RVertex v) }.

  (** The edge table grows by the pairs [ps]; new edges get the value [d]. *)
  Record egrow (ps : list (N * N)) (d : E) p p' : Prop := EGrow {
    eg_dom vs : is_Some (edge_id p' vs) ↔ is_Some (edge_id p vs) ∨ vs ∈ ps;
    eg_id vs e : edge_id p vs = Some e → edge_id p' vs = Some e;
    eg_evs e vs : evs p e = Some vs → evs p' e = Some vs;
    eg_val e x : eval p e = Some x → eval p' e = Some x;
    eg_new e x : eval p' e = Some x → eval p e = Some x ∨ eval p e = None ∧ x = d }.
  Lemma egrow_refl d p : egrow [] d p p.
  Proof. split; intros; auto. split; [auto|]. intros [?|H]; [done|]. by apply elem_of_nil in H. Qed.
  Lemma egrow_trans ps qs d p p' p'' : egrow ps d p p' → egrow qs d p' p'' → egrow (ps ++ qs) d p p''.
  Proof.
    intros [A1 A2 A3 A4 A5] [B1 B2 B3 B4 B5]. split; intros; auto.
    - rewrite B1, A1, elem_of_app. tauto.
    - destruct (B5 _ _ H) as [H1|[H1 H2]]; [by apply A5|]. destruct (eval p e) as [z|] eqn:Ez; [|by right]. apply A4 in Ez. congruence.
  Qed.
  Lemma egrow_same ps d p p' p'' : egrow ps d p p' → p_emap p'' = p_emap p' → (∀ e, evs p'' e = evs p' e) → (∀ e, eval p'' e = eval p' e) → egrow ps d p p''.
  Proof.
    intros [A1 A2 A3 A4 A5] Hm He Hv. unfold edge_id in *. split; unfold edge_id; intros; rewrite ?Hm, ?He, ?Hv in *; auto.
  Qed.

  (** Numbers of elements grow by at most one. *)
  Definition room p (n : N) : Prop :=
    im_npi (p_verts p) + n ≤ invalid_id ∧ im_npi (p_edges p) + n ≤ invalid_id ∧ im_npi (p_fes p) + n ≤ invalid_id ∧
    im_npi (p_rings p) + n ≤ invalid_id ∧ im_npi (p_faces p) + n ≤ invalid_id.

  Definition ensured p (vs : N * N) (val : E) p' (id : N) : Prop :=
    pbase p' ∧ egrow [vs] val p p' ∧ edge_id p' vs = Some id ∧
    p_fes p' = p_fes p ∧ p_rings p' = p_rings p ∧ p_faces p' = p_faces p ∧
    im_npi (p_verts p') = im_npi (p_verts p) ∧ im_npi (p_edges p') ≤ im_npi (p_edges p) + 1 ∧
    (∀ v, vdata p' v = vdata p v) ∧ (∀ v, is_Some (im_get (p_verts p') v) ↔ is_Some (im_get (p_verts p) v)).

  Lemma add_new_edge_ok p a b val : pbase p → im_npi (p_edges p) < invalid_id → p_emap p !! (a, b) = None →
    is_Some (im_get (p_verts p) a) → is_Some (im_get (p_verts p) b) →
    ∃ p', add_new_edge p (a, b) val = Some (p', im_npi (p_edges p)) ∧ ensured p (a, b) val (set_emap p' (a, b) (im_npi (p_edges p))) (im_npi (p_edges p)).
  Proof.
    intros Hb Hlt Hnone Ha Hbv. destruct Hb as [D1 D2 D3 D4 D5 Ho Hi Hends Hmap Huses Hfe Hfr Hrf Hvr].
    unfold add_new_edge. rewrite dense_insert by done. set (id := im_npi (p_edges p)) in *.
    set (ne := PEdge (a, b) invalid_id invalid_id invalid_id invalid_id invalid_id val).
    set (p1 := with_edges p (im_push (p_edges p) ne)). cbn [fst snd].
    assert (∀ e, evs p1 e = if decide (e = id) then Some (a, b) else evs p e) as Hevs1 by (intros e; unfold evs; cbn; by rewrite fmap_push).
    assert (evs p id = None) as Hfresh by (by apply dense_fresh_fmap).
    assert (∀ e vs, evs p e = Some vs → e < id) as Hold by (intros e vs He; eapply dense_lt; [done|by eapply fmap_Some_is]).
    assert (∀ e v, esrc p1 e = Some v ↔ (e = id ∧ v = a) ∨ (e ≠ id ∧ esrc p e = Some v)) as Hs1.
    { intros e v. unfold esrc. rewrite Hevs1. destruct (decide (e = id)) as [->|]; cbn; naive_solver. }
    assert (∀ e v, etgt p1 e = Some v ↔ (e = id ∧ v = b) ∨ (e ≠ id ∧ etgt p e = Some v)) as Ht1.
    { intros e v. unfold etgt. rewrite Hevs1. destruct (decide (e = id)) as [->|]; cbn; naive_solver. }
    assert (∀ e v, esrc p e = Some v → e < id) as Hso.
    { intros e v He. unfold esrc in He. destruct (evs p e) eqn:E1; [|done]. by eapply Hold. }
    assert (∀ e v, etgt p e = Some v → e < id) as Hto.
    { intros e v He. unfold etgt in He. destruct (evs p e) eqn:E1; [|done]. by eapply Hold. }
    destruct (link_out_ok p1 id a) as (p2 & E2 & F2 & V2 & N2 & P2 & O2).
    { exact Ha. } { apply Hs1. by left. } { intros e v He. apply Hs1 in He as [[-> _]|[_ He]]; [lia|]. apply Hso in He. lia. } { done. }
    { intros v h Hv. destruct (Ho v h Hv) as (l & L1 & L2). exists l. split.
      - eapply lists_ext; [|exact L1]. intros k. rewrite Hs1. split; [|naive_solver]. intros Hk. pose proof (Hso _ _ Hk). split; [lia|]. right. split; [lia|done].
      - eapply circular_ext; [|exact L2]. intros x Hx. apply (proj2 L1) in Hx. apply Hso in Hx. unfold enout, epout. cbn. rewrite !fmap_push, !decide_False by (fold id; lia). done. }
    assert (∀ e, etgt p2 e = etgt p1 e) as Ht2 by (intros e; unfold etgt; by rewrite (nf_evs _ _ F2)).
    destruct (link_in_ok p2 id b) as (p3 & E3 & F3 & V3 & N3 & P3 & O3).
    { apply (nf_isv _ _ F2). exact Hbv. } { rewrite Ht2. apply Ht1. by left. }
    { intros e v He. rewrite Ht2 in He. apply Ht1 in He as [[-> _]|[_ He]]; [lia|]. apply Hto in He. lia. } { done. }
    { intros v h Hv. rewrite V2 in Hv. destruct (Hi v h Hv) as (l & L1 & L2). exists l. split.
      - eapply lists_ext; [|exact L1]. intros k. rewrite Ht2, Ht1. split; [|naive_solver]. intros Hk. pose proof (Hto _ _ Hk). split; [lia|]. right. split; [lia|done].
      - eapply circular_ext; [|exact L2]. intros x Hx. apply (proj2 L1) in Hx. apply Hto in Hx. rewrite N2, P2. unfold enin, epin. cbn. rewrite !fmap_push, !decide_False by (fold id; lia). done. }
    rewrite E2. cbn [mbind option_bind]. rewrite E3. cbn [mbind option_bind].
    exists p3. split; [done|].
    assert (∀ e, evs p3 e = if decide (e = id) then Some (a, b) else evs p e) as Hevs3 by (intros e; by rewrite (nf_evs _ _ F3), (nf_evs _ _ F2)).
    assert (∀ e, eval p3 e = if decide (e = id) then Some val else eval p e) as Heval3.
    { intros e. rewrite (nf_eval _ _ F3), (nf_eval _ _ F2). unfold eval. cbn. by rewrite fmap_push. }
    assert (∀ e, efe p3 e = if decide (e = id) then Some invalid_id else efe p e) as Hefe3.
    { intros e. rewrite (nf_efe _ _ F3), (nf_efe _ _ F2). unfold efe. cbn. by rewrite fmap_push. }
    assert (∀ v, is_Some (im_get (p_verts p3) v) ↔ is_Some (im_get (p_verts p) v)) as Hisv by (intros v; by rewrite (nf_isv _ _ F3), (nf_isv _ _ F2)).
    assert (∀ e, is_Some (im_get (p_edges p3) e) ↔ is_Some (im_get (p_edges p) e) ∨ e = id) as Hise.
    { intros e. rewrite (nf_ise _ _ F3), (nf_ise _ _ F2). cbn. rewrite get_push. destruct (decide (e = im_npi (p_edges p))); [naive_solver|]. fold id in n. naive_solver. }
    pose proof (nf_fes _ _ F3) as Xf. rewrite (nf_fes _ _ F2) in Xf. cbn in Xf.
    pose proof (nf_rings _ _ F3) as Xr. rewrite (nf_rings _ _ F2) in Xr. cbn in Xr.
    pose proof (nf_faces _ _ F3) as Xc. rewrite (nf_faces _ _ F2) in Xc. cbn in Xc.
    pose proof (nf_emap _ _ F3) as Xm. rewrite (nf_emap _ _ F2) in Xm. cbn in Xm.
    assert (∀ vs, p_emap p !! vs ≠ Some id) as Hmfresh.
    { intros vs Hv. apply (Hmap vs id) in Hv. congruence. }
    split.
    { split; cbn; try (by rewrite ?Xf, ?Xr, ?Xc).
      - apply (nf_verts _ _ F3), (nf_verts _ _ F2), D1.
      - apply (nf_edges _ _ F3), (nf_edges _ _ F2). by apply dense_push.
      - intros v h Hv. change (vout p3 v = Some h) in Hv. rewrite V3 in Hv. destruct (O2 v h Hv) as (l & L1 & L2). exists l. split.
        + eapply lists_ext; [|exact L1]. intros k. change (esrc p2 k = Some v ↔ esrc p3 k = Some v). unfold esrc. by rewrite (nf_evs _ _ F3).
        + eapply circular_ext; [|exact L2]. intros x _. change (enout p3 x = enout p2 x ∧ epout p3 x = epout p2 x). by rewrite N3, P3.
      - intros e x y He. change (evs p3 e = Some (x, y)) in He. rewrite Hevs3 in He. rewrite !Hisv. destruct (decide (e = id)); [|by eapply Hends].
        injection He as <- <-. done.
      - intros vs e. unfold edge_id. cbn. rewrite Xm. change (<[(a, b):=id]> (p_emap p) !! vs = Some e ↔ evs p3 e = Some vs). rewrite Hevs3.
        destruct (decide (vs = (a, b))) as [->|Hn].
        + rewrite lookup_insert. destruct (decide (e = id)) as [->|Hne]; [done|]. split; [congruence|].
          intros He. apply (Hmap (a, b) e) in He. unfold edge_id in He. congruence.
        + rewrite lookup_insert_ne by done. destruct (decide (e = id)) as [->|Hne]; [|apply Hmap]. split; [|congruence].
          intros He. by apply Hmfresh in He.
      - intros e h He. change (efe p3 e = Some h) in He. rewrite Hefe3 in He. unfold feedge, fenoe, fepoe. cbn. rewrite Xf. destruct (decide (e = id)) as [->|].
        + injection He as <-. exists []. split; [|done]. apply lists_nil. intros k Hk. apply (Hfe k id) in Hk.
          pose proof (dense_fresh _ D2) as Hf. fold id in Hf. rewrite Hf in Hk. by destruct Hk.
        + by apply Huses.
      - intros x e. unfold feedge. cbn. rewrite Xf. intros He. apply Hise. left. by eapply Hfe.
      - intros x r. unfold fering. cbn. rewrite Xf, Xr. apply Hfr.
      - intros r f. unfold rface. cbn. rewrite Xr, Xc. apply Hrf.
      - intros v r Hv. change (vring p3 v = Some r) in Hv. rewrite (nf_vring _ _ F3), (nf_vring _ _ F2) in Hv. unfold relement. cbn. rewrite Xr. by apply Hvr. }
    split.
    { split.
      - intros vs. unfold edge_id. cbn. rewrite Xm. rewrite elem_of_list_singleton. destruct (decide (vs = (a, b))) as [->|Hn].
        + rewrite lookup_insert. naive_solver.
        + rewrite lookup_insert_ne by done. naive_solver.
      - intros vs e. unfold edge_id. cbn. rewrite Xm. intros He. rewrite lookup_insert_ne; [done|]. intros <-. congruence.
      - intros e vs He. change (evs p3 e = Some vs). rewrite Hevs3. rewrite decide_False; [done|]. intros ->. congruence.
      - intros e x He. change (eval p3 e = Some x). rewrite Heval3. rewrite decide_False; [done|]. intros ->.
        pose proof (dense_fresh_fmap pe_val _ D2) as Hf. fold id in Hf. unfold eval in He. congruence.
      - intros e x He. change (eval p3 e = Some x) in He. rewrite Heval3 in He. destruct (decide (e = id)) as [->|]; [|by left]. right.
        split; [by apply dense_fresh_fmap|congruence]. }
    split; [unfold edge_id; cbn; by rewrite lookup_insert|]. split; [done|]. split; [done|]. split; [done|].
    split; [cbn; by rewrite (nf_nv _ _ F3), (nf_nv _ _ F2)|]. split; [cbn; rewrite (nf_ne _ _ F3), (nf_ne _ _ F2); cbn; lia|].
    split; [intros v; change (vdata p3 v = vdata p v); by rewrite (nf_vdata _ _ F3), (nf_vdata _ _ F2)|exact Hisv].
  Qed.

  Lemma ensured_same p vs val id : pbase p → edge_id p vs = Some id → ensured p vs val p id.
  Proof.
    intros Hb Hid. split; [done|]. split. { split; intros; auto. rewrite elem_of_list_singleton. split; [auto|]. intros [?| ->]; [done|by rewrite Hid]. }
    split; [done|]. repeat (split; [done|]). split; [lia|]. done.
  Qed.
  Lemma if_absent_ok p a b val : pbase p → room p 1 → is_Some (im_get (p_verts p) a) → is_Some (im_get (p_verts p) b) →
    ∃ p' id, add_edge_if_absent p (a, b) val = Some (p', id) ∧ ensured p (a, b) val p' id.
  Proof.
    intros Hb (_ & Hr & _) Ha Hbv. unfold add_edge_if_absent. destruct (p_emap p !! (a, b)) as [id|] eqn:Hm.
    - exists p, id. split; [done|]. by apply ensured_same.
    - destruct (add_new_edge_ok p a b val) as (p' & Hp & He); [done|lia|done|done|done|]. rewrite Hp. cbn. eauto.
  Qed.
End net.
