(** Recovering a triangle by vertices inserted on it. *)
From stdpp Require Import base numbers list gmap option relations.
From Coq Require Import NArith ZArith Lia.
From Verif Require Import IdMapModel WalkerModel WalkerSpec WalkerProofs MeshModel MeshRun MeshOps MeshOpsOk MeshSpec MeshViews HistSpec History FlipSpec GeoModel GeoProofs IterModel IterProofs IterLookup CavModel CavSpec CavBase CavOk
  InsModel InsSpec InsRest Marks DelModel DelSpec DelOk QualModel ProgModel ProgSpec RecSpec RecOk CrossModel CrossOk Flip44Ok WayModel WaySpec WayOk MidModel SteinModel SteinSpec SteinStart SteinOk SteinStep TSteinModel TSteinSpec PropCav PropIns PropDel PropWay FromReady SortProofs ProgBase.
Local Open Scope nat_scope.

Section first.
  Context {V T A : Type}.
  Implicit Types (m : mesh V T) (w : walker).
  Context (test : mesh V T → N * N → option (option A)).

  Lemma edge_raw_in m ws w e a : edge_raw test m ws = Some (Some (w, e, a)) → w ∈ ws ∧ w_pair m w = Some e.
  Proof.
    induction ws as [|x ws IH]; cbn [edge_raw]; [done|]. intros (e' & E1 & ([a'|] & E2 & H)%bind_Some)%bind_Some.
    - injection H as <- <- <-. split; [left|done].
    - destruct (IH H) as [? ?]. split; [by right|done].
  Qed.

  (** The first crossing is an edge of the mesh. *)
  Lemma cross_first_joined m v0 v1 l e a : mesh_ok m → solid m v0 → joined m v0 v1 → cross_search test m v0 v1 = Some ((e, a) :: l) → joined m e.1 e.2.
  Proof.
    intros Hok [Hg Ha] Hj. destruct (edge_lookup m v0 v1 Hok Ha Hg) as [(_ & w & E & Hw & Ep)|[? _]]; [|done].
    unfold cross_search. rewrite E. cbn [mbind option_bind]. destruct (ring_all m w _ Hok Hw Ep) as (r & -> & Hset & _). cbn [mbind option_bind].
    intros ([[[w' e'] a']|] & Er & H)%bind_Some; [|done]. destruct (edge_raw_in _ _ _ _ _ Er) as [(x & -> & Hx)%elem_of_list_fmap Ep'].
    apply bind_Some in H as (e2 & _ & H). apply bind_Some in H as (r2 & _ & H). apply bind_Some in H as (l2 & _ & H). injection H as -> -> _.
    exists (to_opp_edge x). apply Hset in Hx as [Hx _]. split; [by apply valid_opp|]. by destruct e.
  Qed.
End first.

Section ok.
  Context {V T : Type}.
  Implicit Types (m : mesh V T) (w : walker).

  (** ** The tets around an unlocked edge *)
  Lemma edge_start_ok m v a b B0 E0 : mesh_ok m → joined m a b → tri_steiner_start m (a, b) = Some (B0, E0) →
    Forall (valid m) B0 ∧
    ((∀ u t, u ∈ B0 → w_tri m u = Some t → 0 < side_of m v t)%Z →
     region m E0 ∧ boundary_of m E0 B0 ∧ E0 ≠ [] ∧
     (∀ u, valid m u → w_edge_locked m u = Some true → ¬ edge_inside m E0 u) ∧
     (∀ u, valid m u → Forall (λ x, w_edge_locked m x = Some true) [u; to_nfe u; to_pfe u] → ¬ tri_inside m E0 u)).
  Proof.
    intros Hok Hg. unfold tri_steiner_start. cbn [fst snd].
    intros (wo & E1 & (w & -> & (u1 & E2 & (l & E3 & (u2 & E4 & E5)%bind_Some)%bind_Some)%bind_Some)%bind_Some)%bind_Some. injection E5 as <- <-.
    assert (valid m w ∧ w_pair m w = Some (a, b)) as [Hw Ep].
    { assert (a ≠ GHOST) as Hn. { intros ->. unfold walker_from_edge, vertex_target_walkers, walker_from_vertex in E1. by rewrite (ok_ghost m Hok) in E1. }
      assert (attached m a) as Ha. { destruct Hg as (u & Hu & Epu). exists u. split; [done|]. unfold w_pair in Epu. destruct (w_first m u); [|done]. cbn in Epu. destruct (w_second m u); [|done]. cbn in Epu. by injection Epu as -> ->. }
      destruct (edge_lookup m a b Hok Ha Hn) as [(_ & w' & E' & Hw & Ep)|[_ E']]; [|congruence]. rewrite E1 in E'. by injection E' as <-. }
    destruct (edge_ring_list m w (a, b) Hok Hw Ep) as (l' & Hy & _ & Hnd & Hset & _).
    destruct (ring_all m w (a, b) Hok Hw Ep) as (l2 & E3' & Hset2 & Hlen). rewrite E3 in E3'. injection E3' as <-.
    assert (NoDup (w_tet <$> l)) as Hndl.
    { unfold ring_list in E3. destruct (Hy (length (im_keys (m_tets m)) + 1)) as (s' & Ey). rewrite Ey in E3. cbn in E3. injection E3 as <-. rewrite fmap_take. rewrite <- (take_drop (length (im_keys (m_tets m)) + 1) (w_tet <$> l')) in Hnd. by apply NoDup_app in Hnd as [Hnd _]. }
    clear Hset Hnd Hy l'.
    assert (w_edge_locked m w = Some false) as Hef. { unfold assert_edge_free_t in E2. destruct (w_edge_locked m w) as [[|]|]; done. }
    fold (ring_sides l). split.
    { apply list.Forall_forall. intros u (x & Hx & Hu)%ring_sides_in. pose proof Hx as [Hv _]%Hset2. destruct (other_sides m x Hv) as (O1 & _). unfold other_tris in O1.
      rewrite !list.Forall_cons in O1. destruct O1 as (V1 & _ & V3 & _). destruct Hu as [-> | ->]; done. }
    intros Hp. destruct (ring_start m v a b l Hok Hset2 Hndl Hp) as [HR HB]. split; [done|]. split; [done|]. split.
    { assert (w ∈ l) as Hwl by by apply Hset2. destruct l; [by apply elem_of_nil in Hwl|done]. }
    assert (∀ f, lf m f → f.1 ∈ w_tet <$> l → f ∉ side <$> ring_sides l → ∃ x, x ∈ l ∧ w_tet x = f.1 ∧ (f = side x ∨ f = side (to_twin_edge x))) as Hin.
    { intros f Hf (x & E & Hx)%elem_of_list_fmap Hn. pose proof Hx as [Hv _]%Hset2. destruct (other_sides m x Hv) as (_ & _ & _ & O4). specialize (O4 f Hf E). unfold other_tris in O4.
      rewrite !fmap_cons in O4. cbn [fmap list_fmap] in O4. rewrite !elem_of_cons, elem_of_nil in O4. exists x. split; [done|]. split; [done|]. destruct O4 as [-> |[-> |[-> |[-> |[]]]]]; [by left| |by right|].
      - destruct Hn. apply elem_of_list_fmap. exists (to_opp_edge x). split; [done|]. apply ring_sides_in. exists x. split; [done|by left].
      - destruct Hn. apply elem_of_list_fmap. exists (to_perm x P3210). split; [done|]. apply ring_sides_in. exists x. split; [done|by right]. }
    assert (∀ x y, x ∈ l → y ∈ l → w_tet x = w_tet y → x = y) as Hone.
    { intros x y Hx Hy Ht. apply elem_of_list_lookup in Hx as [i Hi], Hy as [j Hj]. assert (i = j) as ->.
      { eapply NoDup_lookup; [exact Hndl|rewrite list_lookup_fmap, Hi; reflexivity|rewrite list_lookup_fmap, Hj; cbn; by rewrite Ht]. } congruence. }
    split.
    + intros u Hu Hl Hi. destruct (inner_edge m _ _ u Hok HB Hu Hi) as (H1 & H2 & H3). pose proof (valid_twin m u Hu) as Hu'.
      destruct (Hin (side u)) as (x & Hx & Htx & Hc); [by apply side_lf|done|done|]. destruct (Hin (side (to_twin_edge u))) as (y & Hy & Hty & Hd); [by apply side_lf|done|done|].
      assert (y = x) as -> by (apply Hone; [done..|by rewrite Hty, Htx]). pose proof Hx as [Hv Epx]%Hset2. 
      assert (side u ≠ side (to_twin_edge u)) as Hne. { destruct (other_sides m u Hu) as (_ & _ & O3 & _). unfold other_tris in O3. revert O3. rewrite !fmap_cons, stdpp.list.NoDup_cons, !not_elem_of_cons. tauto. }
      assert (u = x ∨ u = to_twin_edge x) as Hux.
      { destruct Hc as [Hc|Hc], Hd as [Hd|Hd]; [congruence|left|right|congruence].
        - apply side_eq; [apply Hu|apply Hv|done|done].
        - apply side_eq; [apply Hu|apply (valid_twin m x Hv)|done|]. by rewrite twin_twin by apply Hv. }
      assert (w_edge_locked m x = Some true) as Hlx. { destruct Hux as [-> | ->]; [done|]. by rewrite <- (twin_elocked m Hok x Hv). }
      rewrite (elocked_pair m Hok w x a b Hw Hv Ep) in Hlx; [congruence|by left].
    + intros u Hu Hl Hi. destruct (inner_tri m _ _ u Hok HB Hu Hi) as (H1 & H2). destruct (Hin (side u)) as (x & Hx & Htx & Hc); [by apply side_lf|done|done|]. pose proof Hx as [Hv Epx]%Hset2.
      rewrite !list.Forall_cons in Hl. destruct Hl as (L1 & L2 & L3 & _).
      (* one of the edges of [u] is the edge from [a] to [b] *)
      assert (∃ y, w_edge_locked m y = Some true ∧ (y = x ∨ y = to_twin_edge x)) as (y & Hy & Hyx).
      { destruct Hc as [Hc|Hc].
        - assert (x = u ∨ x = to_nfe u ∨ x = to_pfe u) as Hr by (apply same_side_rot; [apply Hv|apply Hu|done]). exists x. split; [|by left]. destruct Hr as [-> | [-> | ->]]; done.
        - assert (to_twin_edge x = u ∨ to_twin_edge x = to_nfe u ∨ to_twin_edge x = to_pfe u) as Hr by (apply same_side_rot; [apply (valid_twin m x Hv)|apply Hu|done]).
          exists (to_twin_edge x). split; [|by right]. destruct Hr as [-> | [-> | ->]]; done. }
      assert (w_edge_locked m x = Some true) as Hlx. { destruct Hyx as [-> | ->]; [done|]. by rewrite <- (twin_elocked m Hok x Hv). }
      rewrite (elocked_pair m Hok w x a b Hw Hv Ep) in Hlx; [congruence|by left].
  Qed.

  (** ** One vertex *)
  Lemma cavity_ok round m t0 inter m1 s B E : ready m → can_place m None → joined m inter.1.1 inter.1.2 →
    tri_cavity round m t0 inter = Some (m1, s, B, E) → sound_cavity m1 B E →
    ∃ m2 B' vt vt0, flip_in_vertex_unchecked m1 s B E = Some (m2, B') ∧ extends m m2 [s] [] [] ∧
      im_get (m_verts m2) s = Some vt ∧ im_get (m_verts m) t0 = Some vt0 ∧ v_val vt = v_val vt0 ∧ v_pos vt = round inter.2.
  Proof.
    destruct inter as [[a b] x]. cbn [fst snd]. intros Hr Hp Hj Hc Hsc. unfold tri_cavity in Hc. cbn [fst snd] in Hc.
    apply bind_Some in Hc as (val & (vt0 & Ev0 & ->)%fmap_Some & Hc).
    destruct (put_vertex_ok m None (round x) (v_val vt0) Hr Hp) as (m1' & s' & Ea & _ & Hno & Hsg & Hpl & Hr1 & Hl). cbn [put_vertex] in Ea. injection Ea as Ea. rewrite Ea in Hc.
    apply bind_Some in Hc as ([B0 E0] & Est & Hc). apply bind_Some in Hc as ([[m1'' B''] E''] & Ecav & Hc). injection Hc as -> -> -> ->.
    specialize (Hno eq_refl). pose proof (rd_ok _ Hr1) as Hok1. pose proof (ar_search _ (rd_rest _ Hr1)) as Hrest1.
    destruct (placed_same m s _ _ m1' Hpl) as (S1 & S2 & S3 & S4 & S5 & S6).
    destruct (edge_start_ok m1' s a b B0 E0 Hok1 (proj2 (S3 a b) Hj) Est) as [HF Hst].
    assert (∀ u t, u ∈ B0 → w_tri m1' u = Some t → 0 < side_of m1' s t)%Z as Hpos.
    { intros u t Hu Et. destruct (decide (0 < side_of m1' s t)%Z) as [?|Hn]; [done|]. exfalso.
      assert (mfoldl (start_tri (side_of m1' s) true) B0 m1' = None) as H.
      { rewrite <- (CavPaint.paint_none m1' Hrest1). apply (start_fail m1' (side_of m1' s)); [done|]. exists u, t. split; [done|]. split; [done|]. lia. }
      unfold point_cavity in Ecav. by rewrite H in Ecav. }
    destruct (Hst Hpos) as (HR & HB & Hne & He & Ht).
    destruct (C35_predicates m1' s Hok1) as [_ Htn]. change (turning (side_of m1' s)) in Htn.
    pose proof (C35_concave m1' (sphere_of m1' s) (side_of m1' s) true true E0 B0 [] Hok1 Hrest1 Htn HR HB (λ _, Hpos)) as (found & _ & _ & _ & Hres). rewrite Ecav in Hres.
    destruct Hres as (-> & HneE & HRE & HBE & _). destruct (C35_locks m1' _ _ true true E0 B0 [] B E Hok1 Hrest1 Htn HR HB Ecav) as [L1 L2].
    destruct Hsc as [Hsu Hroom Hvs].
    assert (B ≠ []) as HneB by (by apply (cavity_boundary m1' B E)).
    assert (fillable m1' s B E) as Hfill by done.
    destruct (C36_fill m1' s B E Hok1 (rd_rest _ Hr1) Hfill) as (m2 & B' & Efl & Hok2 & Hrest2 & F).
    pose proof (C36_vertex_attached m1' s B E m2 B' Hok1 (rd_rest _ Hr1) Hfill HneB Efl) as Hat.
    pose proof (fi_verts _ _ _ _ _ _ F s) as Hv. rewrite (pl_vert _ _ _ _ _ Hpl) in Hv. apply fmap_Some in Hv as (vt & Evt & Hv). cbn in Hv.
    exists m2, B', vt, vt0. split; [done|]. split; [|split; [done|]; split; [done|]; split; congruence].
    split.
    - by apply (ready_fill m1' s B E m2 B').
    - apply NoDup_singleton.
    - intros y ->%elem_of_list_singleton. split; [done|]. split; [by eexists|done].
    - intros c. rewrite <- (placed_attached m s _ _ m1' c Hpl), elem_of_list_singleton. split.
      + intros Hc. apply (filled_attached m1' s E B m2 B') in Hc as [->|Hc]; [by right|by left| |done]. destruct HBE as (Hbv & _). intros w Hw. by apply (proj1 (list.Forall_forall _ _) Hbv).
      + intros [Hc| ->]; [|done]. destruct (Hvs c Hc) as (u & Hu & Hf & Hn). destruct (kept_views m1' s E B m2 B' u F Hu Hn) as (Hu' & _ & _ & Hf' & _). exists u. split; [done|congruence].
    - intros y Hy%not_elem_of_cons. destruct Hy as [Hy _]. rewrite <- (pl_others _ _ _ _ _ Hpl y Hy). pose proof (fi_verts _ _ _ _ _ _ F y) as Hvy.
      destruct (im_get (m_verts m2) y), (im_get (m_verts m1') y); cbn in *; congruence.
    - intros c d. rewrite <- S4. rewrite (filled_locks m1' s E B m2 B' Hok1 Hok2 F); [|intros w Hw Hlw Hin; by apply (He w Hw Hlw), L1].
      split; [by left|]. intros [?|(? & ? & []%elem_of_nil & _)]; done.
    - intros t Hlt. left. apply S5. apply (fi_locks _ _ _ _ _ _ F) in Hlt as (w & Hw & Ew & Hlw & _). by exists w.
    - intros c d e Hlt Hc Hd Hce. apply S5 in Hlt as (w & Hw & Ew & Hlw). apply (fi_locks _ _ _ _ _ _ F). exists w. split; [done|]. split; [done|]. split; [done|].
      assert (Forall (λ x, w_edge_locked m1' x = Some true) [w; to_nfe w; to_pfe w]) as HFe.
      { destruct (wverts_ex m1' w Hw) as (x1 & x2 & x3 & x4 & Ev). rewrite (wverts_tri _ _ _ _ _ _ Ev) in Ew. injection Ew as -> -> ->. apply S4 in Hc, Hd, Hce.
        repeat (apply list.Forall_cons; split); [| | |done].
        + apply (locked_edge_walker m1' w c d Hok1 Hw); [by eapply wverts_pair|done].
        + apply (locked_edge_walker m1' (to_nfe w) d e Hok1); [by apply valid_nfe| |done]. eapply wverts_pair. by apply (wverts_nfe m1' w c d e x4).
        + apply (locked_edge_walker m1' (to_pfe w) e c Hok1); [by apply valid_pfe| |done]. eapply wverts_pair. by apply (wverts_pfe m1' w c d e x4). }
      intros Hin. apply (Ht w Hw HFe), L2; done.
  Qed.

  (** ** Composition *)
  Lemma extends_refl m : ready m → extends m m [] [] [].
  Proof.
    intros Hr. split.
    - done.
    - constructor.
    - intros s []%elem_of_nil.
    - intros a. rewrite elem_of_nil. tauto.
    - done.
    - intros a b. split; [by left|]. intros [?|(? & ? & []%elem_of_nil & _)]; done.
    - intros t H. by left.
    - done.
  Qed.
  Lemma extends_trans m m1 m2 L1 L2 E1 E2 P1 P2 : extends m m1 L1 E1 P1 → extends m1 m2 L2 E2 P2 → extends m m2 (L1 ++ L2) (E1 ++ E2) (P1 ++ P2).
  Proof.
    intros X Y. assert (∀ s, s ∈ L1 → s ∉ L2) as Hd.
    { intros s H1 H2. destruct (ex_new _ _ _ _ _ X s H1) as (_ & [vt Hvt] & _). destruct (ex_new _ _ _ _ _ Y s H2) as (Hn & _). congruence. }
    assert (∀ a b, locked_edge m a b → locked_edge m1 a b) as Hmono by (intros a b H; apply (ex_edges _ _ _ _ _ X); by left).
    split.
    - apply Y.
    - apply NoDup_app. split; [apply X|]. split; [done|apply Y].
    - intros s Hs. destruct (decide (s ∈ L1)) as [H1|H1].
      + destruct (ex_new _ _ _ _ _ X s H1) as (Hn & [vt Hvt] & Hg). split; [done|]. split; [|done]. pose proof (ex_verts _ _ _ _ _ Y s (Hd s H1)) as Hv. rewrite Hvt in Hv. destruct (im_get (m_verts m2) s); [eauto|done].
      + apply elem_of_app in Hs as [?|H2]; [done|]. destruct (ex_new _ _ _ _ _ Y s H2) as (Hn & Hi & Hg). split; [|done]. pose proof (ex_verts _ _ _ _ _ X s H1) as Hv. rewrite Hn in Hv. by destruct (im_get (m_verts m) s).
    - intros a. rewrite (ex_attached _ _ _ _ _ Y), (ex_attached _ _ _ _ _ X), elem_of_app. tauto.
    - intros x Hx. rewrite elem_of_app in Hx. rewrite (ex_verts _ _ _ _ _ Y) by tauto. apply (ex_verts _ _ _ _ _ X). tauto.
    - intros a b. rewrite (ex_edges _ _ _ _ _ Y), (ex_edges _ _ _ _ _ X). setoid_rewrite elem_of_app. naive_solver.
    - intros t Ht. setoid_rewrite elem_of_app. apply (ex_tris _ _ _ _ _ Y) in Ht as [Ht|]; [apply (ex_tris _ _ _ _ _ X) in Ht|]; naive_solver.
    - intros a b c Ht Ha Hb Hc. apply (ex_kept _ _ _ _ _ Y); [|by apply Hmono..]. by apply (ex_kept _ _ _ _ _ X).
  Qed.
  Lemma extends_recovered tbary ebary flat round m v0 v1 m' L : recovered tbary ebary flat round m v0 v1 m' L → extends m m' L (segments v0 L v1) [].
  Proof.
    intros R. split; try apply R.
    - intros s Hs. destruct (rc_new _ _ _ _ _ _ _ _ _ R s Hs) as [? ?], (rc_value _ _ _ _ _ _ _ _ _ R s Hs) as [_ ?]. done.
    - intros [[a b] c] H. left. by apply (rc_tris _ _ _ _ _ _ _ _ _ R).
  Qed.
  Lemma extends_secured m m' L E P p : mesh_ok m → extends m m' L E P → piece_secured m p → piece_secured m' p.
  Proof.
    destruct p as [[a b] c]. intros Hok X. unfold piece_secured. cbn [fst snd]. intros (Hs & H1 & H2 & H3).
    assert (∀ a b, locked_edge m a b → locked_edge m' a b) as Hmono by (intros x y H; apply (ex_edges _ _ _ _ _ X); by left). split; [|split; [|split]; by apply Hmono].
    assert (∀ x y, locked_edge m x y → locked_edge m y x) as Hsym.
    { intros x y (e & ue & ? & Hsx & ?). exists e, ue. split; [done|]. split; [|done]. by rewrite sorted_2_comm. }
    assert (∀ x y, x ∈ [a; b; c] → y ∈ [a; b; c] → x ≠ y → locked_edge m x y) as Hall.
    { intros x y Hx Hy Hne. rewrite !elem_of_cons, elem_of_nil in Hx. rewrite !elem_of_cons, elem_of_nil in Hy. destruct Hx as [-> | [-> | [-> | []]]], Hy as [-> | [-> | [-> | []]]]; try done; auto. }
    assert (NoDup [a; b; c]) as Hnd.
    { destruct (Hs a b c (reflexivity _)) as (w & Hw & Et & _). destruct (wverts_ex m w Hw) as (x0 & x1 & x2 & x3 & Ev). rewrite (wverts_tri _ _ _ _ _ _ Ev) in Et. injection Et as -> -> ->.
      pose proof (ok_distinct m Hok w _ _ _ _ Hw Ev) as Hd. rewrite !stdpp.list.NoDup_cons, !elem_of_cons, !elem_of_nil in *. tauto. }
    intros x y z Hp. pose proof (Hs x y z Hp) as Ht. assert (NoDup [x; y; z]) as Hnd' by (by rewrite Hp).
    apply nodup3 in Hnd' as (N1 & N2 & N3). assert (x ∈ [a; b; c] ∧ y ∈ [a; b; c] ∧ z ∈ [a; b; c]) as (I1 & I2 & I3) by (rewrite <- Hp, !elem_of_cons; tauto).
    apply (ex_kept _ _ _ _ _ X); [done|by apply Hall..|]. by apply Hall.
  Qed.
End ok.
