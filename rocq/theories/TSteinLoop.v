(** The loop that recovers a triangle by vertices inserted on it. *)
From stdpp Require Import base numbers list gmap option relations.
From Coq Require Import NArith ZArith Lia.
From Verif Require Import IdMapModel WalkerModel WalkerSpec WalkerProofs MeshModel MeshRun MeshOps MeshOpsOk MeshSpec MeshViews HistSpec History FlipSpec GeoModel GeoProofs IterModel IterProofs IterLookup CavModel CavSpec CavBase CavOk
  InsModel InsSpec InsRest Marks DelModel DelSpec DelOk QualModel ProgBase ProgModel ProgSpec RecSpec RecOk CrossModel CrossOk Flip44Ok WayModel WaySpec WayOk MidModel SteinModel SteinSpec SteinStart SteinOk TSteinModel TSteinSpec TSteinOk PropDel FromReady SortProofs.
Local Open Scope nat_scope.

Section locks.
  Context {V T : Type}.
  Implicit Types (m : mesh V T) (w : walker).

  Lemma lock_edge_ext m w a b : ready m → valid m w → w_pair m w = Some (a, b) →
    ∃ m', set_edge_lock m w true = Some m' ∧ extends m m' [] [(a, b)] [] ∧ m_tets m' = m_tets m ∧ m_verts m' = m_verts m.
  Proof.
    intros Hr Hw Hp. pose proof (rd_ok _ Hr) as Hok.
    destruct (set_edge_lock_step m w true Hok Hw) as (m' & e & ue & E & Hok' & F1 & F2 & F3 & F4 & _ & Ev & Eg & Et & Em & Etr & Ec). exists m'. split; [done|].
    destruct (ok_edge m Hok w a b Hw Hp) as (e' & ue' & K1 & K2 & K3). rewrite F1 in K1. injection K1 as <-. rewrite F2 in K2. injection K2 as <-.
    assert (run_op m (OLockEdge w true) = Some m') as Hop by exact E. split; [|done].
    split.
    - apply unmarked_ready; [done| |].
      + by apply (rest_run_op m (OLockEdge w true) m'), Hr.
      + exact (um_op m (OLockEdge w true) (ready_unmarked m Hr) _ Hop).
    - constructor.
    - intros s []%elem_of_nil.
    - intros c. rewrite elem_of_nil. unfold attached, valid, w_first, tet_get. rewrite Et. tauto.
    - intros x _. by rewrite Ev.
    - intros x y. unfold locked_edge. setoid_rewrite elem_of_list_singleton. split.
      + intros (i & u & I1 & I2 & I3). destruct (decide (i = e)) as [->|Hne].
        * rewrite F3 in I1. injection I1 as <-. right. cbn [ue_vs] in I2. exists a, b. split; [done|]. congruence.
        * rewrite F4 in I1 by done. left. by exists i, u.
      + intros [(i & u & I1 & I2 & I3)|(x' & y' & [= -> ->] & Hs)].
        * destruct (decide (i = e)) as [->|Hne]; [|exists i, u; by rewrite F4]. rewrite F2 in I1. injection I1 as ->. by eexists e, _.
        * eexists e, _. split; [done|]. split; [|done]. cbn [ue_vs]. congruence.
    - intros t. unfold locked_tri, valid, w_tri, w_locked, w_first, w_second, w_third, tet_get. rewrite Et. by left.
    - intros x y z H _ _ _. revert H. unfold locked_tri, valid, w_tri, w_locked, w_first, w_second, w_third, tet_get. by rewrite Et.
  Qed.

  Lemma lock_tri_ext m w a b c : ready m → valid m w → w_tri m w = Some (a, b, c) →
    ∃ m', set_tri_lock m w true = Some m' ∧ extends m m' [] [] [(a, b, c)] ∧ secured m' a b c ∧ (∀ u, valid m' u ↔ valid m u) ∧ (∀ u, w_verts m' u = w_verts m u).
  Proof.
    intros Hr Hw Ht. pose proof (rd_ok _ Hr) as Hok. destruct (set_tri_lock_step m w true _ Hok Hw Ht) as (m' & E & Hok' & Hnf & Hl & Hrest). exists m'. split; [done|].
    assert (run_op m (OLockTri w true) = Some m') as Hop by exact E. pose proof Hrest as [R1 R2 R3 R4 R5 R6 _].
    assert (∀ u, valid m' u ↔ valid m u) as Hv.
    { intros u. unfold valid. specialize (Hnf (w_tet u)). destruct (tet_get m' (w_tet u)), (tet_get m (w_tet u)); cbn in Hnf; try done. split; intros [_ ?]; (split; [by eexists|done]). }
    assert (∀ u, w_verts m' u = w_verts m u ∧ w_first m' u = w_first m u) as Hvs.
    { intros u. unfold w_verts, w_first, w_second, w_third, w_fourth. specialize (Hnf (w_tet u)). destruct (tet_get m' (w_tet u)), (tet_get m (w_tet u)); cbn in Hnf |- *; try done. injection Hnf as E1 _ _ _. by rewrite E1. }
    split; [|split; [|split; [done|apply Hvs]]].
    - split.
      + apply unmarked_ready; [done| |].
        * by apply (rest_run_op m (OLockTri w true) m'), Hr.
        * exact (um_op m (OLockTri w true) (ready_unmarked m Hr) _ Hop).
      + constructor.
      + intros s []%elem_of_nil.
      + intros x. rewrite elem_of_nil. unfold attached. setoid_rewrite Hv. setoid_rewrite (λ u, proj2 (Hvs u)). tauto.
      + intros x _. by rewrite R1.
      + intros x y. unfold locked_edge. rewrite R3. split; [by left|]. intros [?|(? & ? & []%elem_of_nil & _)]; done.
      + intros [[x y] z] [H|[_ H]]%Hl; [by left|right]. exists (a, b, c). split; [left|done].
      + intros x y z H _ _ _. apply Hl. by left.
    - intros x y z Hp. apply Hl. right. split; [apply (has_tri_perm m a b c); [done|by exists w|done]|]. intros q. cbn [fst snd]. by rewrite Hp.
  Qed.

  (** Locking a piece. *)
  Lemma lock_piece_ext m w a b c d : ready m → valid m w → w_verts m w = Some (A4 a b c d) →
    ∃ m', lock_piece m w = Some m' ∧ extends m m' [] (sides_of (a, b, c)) [(a, b, c)] ∧ piece_secured m' (a, b, c).
  Proof.
    intros Hr Hw Ev. unfold lock_piece. destruct (lock_tri_ext m w a b c Hr Hw (wverts_tri _ _ _ _ _ _ Ev)) as (m1 & -> & X1 & Hs1 & Hv1 & Hvs1). cbn [mbind option_bind].
    assert (valid m1 w) as W1 by (by apply Hv1). assert (w_verts m1 w = Some (A4 a b c d)) as Ev1 by (by rewrite Hvs1).
    destruct (lock_edge_ext m1 w a b (ex_ready _ _ _ _ _ X1) W1 (wverts_pair _ _ _ _ _ _ Ev1)) as (m2 & -> & X2 & T2 & _). cbn [mbind option_bind].
    assert (∀ m m' : mesh V T, m_tets m' = m_tets m → ∀ u, (valid m u → valid m' u) ∧ w_verts m' u = w_verts m u) as Hsame.
    { intros x x' E u. unfold valid, w_verts, w_first, w_second, w_third, w_fourth, tet_get. by rewrite E. }
    pose proof (proj1 (Hsame m1 m2 T2 w) W1) as W2. assert (w_verts m2 w = Some (A4 a b c d)) as Ev2 by (by rewrite (proj2 (Hsame m1 m2 T2 w))).
    destruct (lock_edge_ext m2 (to_nfe w) b c (ex_ready _ _ _ _ _ X2)) as (m3 & -> & X3 & T3 & _); [by apply valid_nfe|eapply wverts_pair; by apply (wverts_nfe m2 w a b c d)|]. cbn [mbind option_bind].
    pose proof (proj1 (Hsame m2 m3 T3 w) W2) as W3. assert (w_verts m3 w = Some (A4 a b c d)) as Ev3 by (by rewrite (proj2 (Hsame m2 m3 T3 w))).
    destruct (lock_edge_ext m3 (to_pfe w) c a (ex_ready _ _ _ _ _ X3)) as (m4 & -> & X4 & T4 & _); [by apply valid_pfe|eapply wverts_pair; by apply (wverts_pfe m3 w a b c d)|].
    exists m4. split; [done|]. pose proof (extends_trans _ _ _ _ _ _ _ _ _ X1 (extends_trans _ _ _ _ _ _ _ _ _ X2 (extends_trans _ _ _ _ _ _ _ _ _ X3 X4))) as X. split; [exact X|].
    split; cbn [fst snd].
    - intros x y z Hp. specialize (Hs1 x y z Hp). revert Hs1. unfold FlipSpec.locked_tri, InsSpec.locked_tri, valid, w_tri, w_locked, w_first, w_second, w_third, tet_get. by rewrite T4, T3, T2.
    - split; [|split]; apply (ex_edges _ _ _ _ _ X); right; [exists a, b|exists b, c|exists c, a]; (split; [|done]); unfold sides_of; cbn; set_solver.
  Qed.
End locks.

Section keeps.
  Context {V T : Type}.
  Implicit Types (m : mesh V T).

  Lemma extends_solid m m' L E P v : extends m m' L E P → solid m v → solid m' v.
  Proof. intros X [? ?]. split; [done|]. apply (ex_attached _ _ _ _ _ X). by left. Qed.
  Lemma extends_value m m' L E P v : mesh_ok m → extends m m' L E P → solid m v → v_val <$> im_get (m_verts m') v = v_val <$> im_get (m_verts m) v ∧ v_pos <$> im_get (m_verts m') v = v_pos <$> im_get (m_verts m) v ∧ is_Some (im_get (m_verts m) v).
  Proof.
    intros Hok X [Hg Ha]. destruct (PropCross.attached_known _ v Hok Ha) as [q Eq]. unfold idx_ori in Eq. rewrite (proj2 (N.eqb_neq v GHOST) Hg) in Eq. apply fmap_Some in Eq as (vt & Ev & _).
    apply and_assoc. split; [|by eexists]. assert (v ∉ L) as Hn. { intros Hv. destruct (ex_new _ _ _ _ _ X v Hv) as [? _]. congruence. }
    pose proof (ex_verts _ _ _ _ _ X v Hn) as H. rewrite Ev in *. destruct (im_get (m_verts m') v); cbn in *; split; congruence.
  Qed.
End keeps.

Section loop.
  Context {V T C : Type}.
  Implicit Types (m : mesh V T) (w : walker).
  Context (tbary : mesh V T → N → N → N → N → N → option (list Z)).
  Context (round : ratio → pt).
  Context (eng : engine C).
  Context (Hpick : ∀ c E e, e_pick eng c E = Some e → e ∈ E).

  Record tri_inv (m3 : mesh V T) (t0 : N) (loop : list N) (st : tstate V T C) : Prop := TriInv {
    ti_ext : extends m3 (ts_mesh st) (ts_inner st) (ts_pieces st ≫= sides_of) (ts_pieces st);
    ti_verts : ts_vertices st = loop ++ ts_inner st;
    ti_edges a b : (a, b) ∈ ts_edges st → a ∈ ts_vertices st ∧ b ∈ ts_vertices st ∧ locked_edge (ts_mesh st) a b;
    ti_solid v : v ∈ ts_vertices st → solid (ts_mesh st) v;
    ti_pieces p : p ∈ ts_pieces st → piece_secured (ts_mesh st) p ∧ p.1.1 ∈ ts_vertices st ∧ p.1.2 ∈ ts_vertices st ∧ p.2 ∈ ts_vertices st;
    ti_value s : s ∈ ts_inner st → v_val <$> im_get (m_verts (ts_mesh st)) s = v_val <$> im_get (m_verts m3) t0 }.

  Lemma locked_sym m a b : locked_edge m a b → locked_edge m b a.
  Proof. intros (e & u & H1 & H2 & H3). exists e, u. split; [done|]. split; [|done]. by rewrite sorted_2_comm. Qed.

  Lemma find_piece_in m vs c e ring w v2 : find_piece eng m vs c e ring = Some (Some (w, v2)) → w ∈ ring ∧ w_third m w = Some v2 ∧ v2 ∈ vs.
  Proof.
    induction ring as [|x ring IH]; cbn [find_piece]; [done|]. intros (z & Ez & H)%bind_Some. destruct (bool_decide (z ∈ vs) && _) eqn:Eb.
    - injection H as -> ->. apply andb_true_iff in Eb as [Hb%bool_decide_eq_true _]. split; [left|]. done.
    - destruct (IH H) as (? & ? & ?). split; [by right|]. done.
  Qed.

  Lemma pass_in E e x : x ∈ pass E e → x ∈ E ∨ x = (e.2, e.1).
  Proof. unfold pass. destruct (decide _); set_solver. Qed.

  Lemma next_joined st edge inter : mesh_ok (ts_mesh st) → (∀ a b, (a, b) ∈ ts_edges st → solid (ts_mesh st) a ∧ joined (ts_mesh st) a b) →
    tri_next tbary eng st = Some (edge, inter) → edge ∈ ts_edges st ∧ match inter with Some i => joined (ts_mesh st) i.1.1 i.1.2 | None => True end.
  Proof.
    intros Hok He H. unfold tri_next in H. apply bind_Some in H as (e & Ep & H). apply Hpick in Ep. apply bind_Some in H as (ts & _ & H). apply bind_Some in H as (l & El & H).
    injection H as -> <-. split; [done|]. unfold tris_intersections in El. apply bind_Some in El as (r & Er & El). destruct edge as [a b]. destruct (He a b Ep) as [Hs Hj].
    destruct r as [|[e' [bary [[v0 v1] v2]]] r]; cbn [mapM mbind option_bind] in El; [by injection El as <-|].
    apply bind_Some in El as (y & Ey & El). apply bind_Some in El as (l' & _ & El). injection El as <-. cbn [head].
    pose proof (cross_first_joined _ _ _ _ _ _ _ Hok Hs Hj Er) as Hj'.
    apply bind_Some in Ey as (? & _ & Ey). apply bind_Some in Ey as (? & _ & Ey). apply bind_Some in Ey as (? & _ & Ey). apply (inj Some) in Ey. rewrite <- Ey. exact Hj'.
  Qed.

  Lemma tri_step_inv m3 t0 loop st st' : ready m3 → is_Some (im_get (m_verts m3) t0) → tri_inv m3 t0 loop st → sound_round tbary round eng t0 st → tri_step tbary round eng t0 st = Some st' →
    tri_inv m3 t0 loop st' ∧ (∃ L E P, extends (ts_mesh st) (ts_mesh st') L E P) ∧ ((ts_pieces st' = ts_pieces st ∧ ts_edges st' = ts_edges st ∧
      ∃ s edge inter, ts_inner st' = ts_inner st ++ [s] ∧ tri_next tbary eng st = Some (edge, Some inter) ∧ edge ∈ ts_edges st ∧ joined (ts_mesh st) inter.1.1 inter.1.2 ∧
        v_pos <$> im_get (m_verts (ts_mesh st')) s = Some (round inter.2)) ∨
      ∃ a b c, ts_inner st' = ts_inner st ∧ ts_pieces st' = ts_pieces st ++ [(a, b, c)] ∧ NoDup [a; b; c] ∧ ts_edges st' = foldl pass (ts_edges st) (sides_of (a, b, c))).
  Proof.
    intros Hr3 Ht0 I Hs. pose proof (ex_ready _ _ _ _ _ (ti_ext _ _ _ _ I)) as Hr. pose proof (rd_ok _ Hr) as Hok. unfold tri_step.
    intros ([edge inter] & En & H)%bind_Some.
    destruct (next_joined st edge inter Hok) as [Hin Hj]; [|done|].
    { intros a b Hab. destruct (ti_edges _ _ _ _ I a b Hab) as (? & ? & ?). split; [by apply (ti_solid _ _ _ _ I)|by apply locked_edge_joined]. }
    destruct inter as [inter|].
    - apply bind_Some in H as ([[[m1 s] B] E] & Ec & H). destruct (Hs _ _ _ _ _ _ En Ec) as [Hcp Hsc].
      destruct (cavity_ok round (ts_mesh st) t0 inter m1 s B E Hr Hcp Hj Ec Hsc) as (m2 & B' & vt & vt0 & Ef & X & Evt & Evt0 & Hval & Hpos).
      rewrite Ef in H. cbn [mbind option_bind] in H. injection H as <-. pose proof (extends_trans _ _ _ _ _ _ _ _ _ (ti_ext _ _ _ _ I) X) as X2. rewrite !app_nil_r in X2.
      assert (∀ v, v ∈ ts_vertices st → v ≠ s) as Hne.
      { intros v Hv ->. destruct (ex_new _ _ _ _ _ X s) as [Hno _]; [left|]. destruct (ti_solid _ _ _ _ I s Hv) as [Hg Ha]. destruct (PropCross.attached_known _ s Hok Ha) as [q Eq].
        unfold idx_ori in Eq. by rewrite (proj2 (N.eqb_neq s GHOST) Hg), Hno in Eq. }
      split; [|split; [by eexists _, _, _|]; left; split; [done|]; split; [done|]; exists s, edge, inter; cbn [ts_mesh ts_inner]; rewrite Evt; cbn; rewrite Hpos; done]. split; cbn [ts_mesh ts_inner ts_pieces ts_vertices ts_edges].
      + exact X2.
      + rewrite (ti_verts _ _ _ _ I). by rewrite <- app_assoc.
      + intros a b Hab. destruct (ti_edges _ _ _ _ I a b Hab) as (? & ? & ?). split; [set_solver|]. split; [set_solver|]. apply (ex_edges _ _ _ _ _ X). by left.
      + intros v Hv. apply elem_of_app in Hv as [Hv|Hv%elem_of_list_singleton].
        * destruct (ti_solid _ _ _ _ I v Hv) as [? ?]. split; [done|]. apply (ex_attached _ _ _ _ _ X). by left.
        * subst v. split; [by apply (ex_new _ _ _ _ _ X s); left|]. apply (ex_attached _ _ _ _ _ X). right. left.
      + intros p Hp. destruct (ti_pieces _ _ _ _ I p Hp) as (? & ? & ? & ?). split; [by eapply extends_secured|]. set_solver.
      + intros x Hx. apply elem_of_app in Hx as [Hx|Hx%elem_of_list_singleton].
        * rewrite <- (ti_value _ _ _ _ I x Hx). assert (x ∈ ts_vertices st) as Hxv by (rewrite (ti_verts _ _ _ _ I); set_solver).
          pose proof (ex_verts _ _ _ _ _ X x) as Hv. destruct (im_get (m_verts m2) x), (im_get (m_verts (ts_mesh st)) x); cbn in *; try (destruct Hv; [|done]; apply not_elem_of_cons; split; [by apply Hne|by apply not_elem_of_nil]).
          all: specialize (Hv ltac:(apply not_elem_of_cons; split; [by apply Hne|by apply not_elem_of_nil])); congruence.
        * subst x. rewrite Evt. cbn. rewrite Hval. assert (t0 ∉ ts_inner st) as Hn.
          { intros Hi. destruct (ex_new _ _ _ _ _ (ti_ext _ _ _ _ I) t0 Hi) as [Hno _]. rewrite Hno in Ht0. by destruct Ht0. }
          pose proof (ex_verts _ _ _ _ _ (ti_ext _ _ _ _ I) t0 Hn) as Hv. rewrite Evt0 in Hv. cbn in Hv. destruct (im_get (m_verts m3) t0); cbn in *; congruence.
    - apply bind_Some in H as (wo & Ew & H). apply bind_Some in H as (w0 & -> & H). apply bind_Some in H as (ring & Er & H). apply bind_Some in H as (f & Ef & H).
      apply bind_Some in H as ([w v2] & -> & H). apply bind_Some in H as (m' & El & H). apply bind_Some in H as (c & _ & H). injection H as <-.
      destruct edge as [a b]. cbn [fst snd] in *. destruct (ti_edges _ _ _ _ I a b Hin) as (Ia & Ib & Hlk). destruct (ti_solid _ _ _ _ I a Ia) as [Hga Haa].
      destruct (edge_lookup (ts_mesh st) a b Hok Haa Hga) as [(_ & w' & E' & Hw' & Hp')|[Hn _]]; [|destruct Hn; by apply locked_edge_joined].
      rewrite Ew in E'. injection E' as <-. destruct (ring_all _ w0 _ Hok Hw' Hp') as (r' & Er' & Hset & _). rewrite Er in Er'. injection Er' as <-.
      destruct (find_piece_in _ _ _ _ _ _ _ Ef) as (Hwr & Hth & Hv2). apply Hset in Hwr as [Hw Hp].
      destruct (wverts_of_pair _ w a b Hw Hp) as (c2 & d & Ev). pose proof (wverts_tri _ _ _ _ _ _ Ev) as Et.
      assert (v2 = c2) as -> by (clear -Et Hth; unfold w_tri in Et; rewrite Hth in Et; destruct (w_first _ w), (w_second _ w); cbn in Et; congruence).
      destruct (lock_piece_ext (ts_mesh st) w a b c2 d Hr Hw Ev) as (m'' & El' & X & Hps). rewrite El in El'. injection El' as <-.
      pose proof (extends_trans _ _ _ _ _ _ _ _ _ (ti_ext _ _ _ _ I) X) as X2. rewrite app_nil_r in X2.
      split.
      + split; cbn [ts_mesh ts_inner ts_pieces ts_vertices ts_edges].
        * rewrite bind_app. cbn [mbind list_bind]. by rewrite app_nil_r.
        * apply I.
        * assert (∀ x y, (x, y) ∈ ts_edges st → x ∈ ts_vertices st ∧ y ∈ ts_vertices st ∧ locked_edge m' x y) as Hold.
          { intros x y Hxy. destruct (ti_edges _ _ _ _ I x y Hxy) as (? & ? & ?). split; [done|]. split; [done|]. apply (ex_edges _ _ _ _ _ X). by left. }
          destruct Hps as (_ & K1 & K2 & K3). cbn [fst snd] in K1, K2, K3. intros x y Hxy. cbn [foldl] in Hxy.
          apply pass_in in Hxy as [Hxy|[= -> ->]]; [|split; [done|]; split; [done|]; by apply locked_sym].
          apply pass_in in Hxy as [Hxy|[= -> ->]]; [|split; [done|]; split; [done|]; by apply locked_sym].
          apply pass_in in Hxy as [Hxy|[= -> ->]]; [|split; [done|]; split; [done|]; by apply locked_sym]. by apply Hold.
        * intros v Hv. destruct (ti_solid _ _ _ _ I v Hv) as [? ?]. split; [done|]. apply (ex_attached _ _ _ _ _ X). by left.
        * intros p Hpp. apply elem_of_app in Hpp as [Hpp|Hpp%elem_of_list_singleton].
          -- destruct (ti_pieces _ _ _ _ I p Hpp) as (? & ? & ? & ?). split; [by eapply extends_secured|]. done.
          -- subst p. by split.
        * intros s Hs'. rewrite <- (ti_value _ _ _ _ I s Hs'). pose proof (ex_verts _ _ _ _ _ X s (not_elem_of_nil s)) as Hv.
          destruct (im_get (m_verts m') s), (im_get (m_verts (ts_mesh st)) s); cbn in *; congruence.
      + split; [by eexists _, _, _|]. right. exists a, b, c2. split; [done|]. split; [done|]. split; [|done]. pose proof (ok_distinct _ Hok w _ _ _ _ Hw Ev) as Hd.
        rewrite !stdpp.list.NoDup_cons, !elem_of_cons, !elem_of_nil in *. tauto.
  Qed.

  Lemma tri_loop_ok m3 t0 loop fuel : ready m3 → is_Some (im_get (m_verts m3) t0) → ∀ st st', tri_inv m3 t0 loop st →
    (∀ st1, rtc (tri_round tbary round eng t0) st st1 → sound_round tbary round eng t0 st1) → tri_loop tbary round eng fuel t0 st = Some st' →
    tri_inv m3 t0 loop st' ∧ rtc (tri_round tbary round eng t0) st st' ∧ ts_edges st' = ∅.
  Proof.
    intros Hr3 Ht0. induction fuel as [|fuel IH]; intros st st' I Hs; cbn [tri_loop].
    { destruct (decide _); [|done]. intros [= <-]. by split. }
    destruct (decide _) as [|Hne]; [intros [= <-]; by split|]. intros (st1 & E1 & H)%bind_Some.
    destruct (tri_step_inv m3 t0 loop st st1 Hr3 Ht0 I (Hs st (rtc_refl _ _)) E1) as (I1 & _ & _).
    assert (tri_round tbary round eng t0 st st1) as Hst by done.
    destruct (IH st1 st' I1) as (I' & R & Hempty); [|done|].
    - intros st2 H2. apply Hs. by eapply rtc_l.
    - split; [done|]. split; [by eapply rtc_l|done].
  Qed.

  (** ** The border of the pieces *)
  Definition here (E : gset (N * N)) (e : N * N) : Z := if decide (e ∈ E) then 1 else 0.
  Definition flow (E : gset (N * N)) (a b : N) : Z := (here E (a, b) - here E (b, a))%Z.

  Lemma here_iff E E' e : (e ∈ E ↔ e ∈ E') → here E e = here E' e.
  Proof. unfold here. intros H. destruct (decide (e ∈ E)), (decide (e ∈ E')); tauto. Qed.

  Lemma pass_other E x y e : e ≠ (x, y) → e ≠ (y, x) → e ∈ pass E (x, y) ↔ e ∈ E.
  Proof. intros H1 H2. unfold pass. cbn [fst snd]. destruct (decide _); set_solver. Qed.

  Lemma times_cons e x l : times e (x :: l) = ((if decide (x = e) then 1 else 0) + times e l)%Z.
  Proof. unfold times. rewrite filter_cons. destruct (decide (x = e)); cbn [length]; lia. Qed.
  Lemma times_app e l l' : times e (l ++ l') = (times e l + times e l')%Z.
  Proof. unfold times. rewrite filter_app, app_length. lia. Qed.

  Lemma pass_flow E x y a b : x ≠ y → ((x, y) ∉ E → (y, x) ∉ E) →
    (flow (pass E (x, y)) a b + (times (a, b) [(x, y)] - times (b, a) [(x, y)]) = flow E a b)%Z.
  Proof.
    intros Hxy Hn. rewrite !times_cons. unfold flow. change (times (a, b) []) with 0%Z. change (times (b, a) []) with 0%Z.
    destruct (decide ((x, y) = (a, b))) as [[= <- <-]|H1].
    { rewrite (decide_False (P := (x, y) = (y, x))) by congruence. unfold pass, here. cbn [fst snd]. destruct (decide ((x, y) ∈ E)) as [Hi|Hi].
      - rewrite (decide_False (P := (x, y) ∈ E ∖ {[(x, y)]})) by set_solver.
        destruct (decide ((y, x) ∈ E ∖ _)) as [H|H], (decide ((y, x) ∈ E)) as [H'|H']; try lia; exfalso; [set_solver|]. apply H. apply elem_of_difference. split; [done|]. rewrite elem_of_singleton. congruence.
      - specialize (Hn Hi). rewrite (decide_False (P := (y, x) ∈ E)) by done. rewrite (decide_True (P := (y, x) ∈ {[(y, x)]} ∪ E)) by set_solver.
        rewrite decide_False; [lia|]. rewrite elem_of_union, elem_of_singleton. intros [[= H _]|H]; done. }
    destruct (decide ((x, y) = (b, a))) as [[= <- <-]|H2].
    { unfold pass, here. cbn [fst snd]. destruct (decide ((x, y) ∈ E)) as [Hi|Hi].
      - rewrite (decide_False (P := (x, y) ∈ E ∖ {[(x, y)]})) by set_solver.
        destruct (decide ((y, x) ∈ E ∖ _)) as [H|H], (decide ((y, x) ∈ E)) as [H'|H']; try lia; exfalso; [set_solver|]. apply H. apply elem_of_difference. split; [done|]. rewrite elem_of_singleton. congruence.
      - specialize (Hn Hi). rewrite (decide_False (P := (y, x) ∈ E)) by done. rewrite (decide_True (P := (y, x) ∈ {[(y, x)]} ∪ E)) by set_solver.
        rewrite decide_False; [lia|]. rewrite elem_of_union, elem_of_singleton. intros [[= H _]|H]; done. }
    rewrite (here_iff (pass E (x, y)) E (a, b)), (here_iff (pass E (x, y)) E (b, a)); [lia|apply pass_other; congruence..].
  Qed.

  Lemma piece_flow E x y z a b : NoDup [x; y; z] → (∀ u v, (u, v) ∈ sides_of (x, y, z) → (u, v) ∉ E → (v, u) ∉ E) →
    (flow (foldl pass E (sides_of (x, y, z))) a b + border [(x, y, z)] a b = flow E a b)%Z.
  Proof.
    intros (N1 & N2 & N3)%nodup3 Hn. unfold sides_of in *. cbn [fst snd foldl] in *.
    assert (flow (pass E (x, y)) a b + (times (a, b) [(x, y)] - times (b, a) [(x, y)]) = flow E a b)%Z as F1 by (apply pass_flow; [done|apply Hn; left]).
    assert (flow (pass (pass E (x, y)) (y, z)) a b + (times (a, b) [(y, z)] - times (b, a) [(y, z)]) = flow (pass E (x, y)) a b)%Z as F2.
    { apply pass_flow; [done|]. rewrite !pass_other by congruence. apply Hn. right. left. }
    assert (flow (pass (pass (pass E (x, y)) (y, z)) (z, x)) a b + (times (a, b) [(z, x)] - times (b, a) [(z, x)]) = flow (pass (pass E (x, y)) (y, z)) a b)%Z as F3.
    { apply pass_flow; [congruence|]. rewrite !pass_other by congruence. apply Hn. right. right. left. }
    unfold border. cbn [mbind list_bind]. unfold sides_of. cbn [fst snd app]. rewrite !times_cons in *. change (times (a, b) []) with 0%Z in *. change (times (b, a) []) with 0%Z in *. lia.
  Qed.

  Lemma border_app ps ps' a b : border (ps ++ ps') a b = (border ps a b + border ps' a b)%Z.
  Proof. unfold border. rewrite bind_app, !times_app. lia. Qed.

  Lemma rounds_flow m3 t0 loop st0 st a b : ready m3 → is_Some (im_get (m_verts m3) t0) → tri_inv m3 t0 loop st0 →
    (∀ st1, rtc (tri_round tbary round eng t0) st0 st1 → sound_round tbary round eng t0 st1 ∧ neat_round tbary round eng t0 st1) →
    rtc (tri_round tbary round eng t0) st0 st →
    (flow (ts_edges st) a b + border (ts_pieces st) a b = flow (ts_edges st0) a b + border (ts_pieces st0) a b)%Z.
  Proof.
    intros Hr3 Ht0 I Hs R. revert I Hs. induction R as [st|st0 st1 st [Hne E] R IH]; intros I Hs; [done|].
    destruct (Hs st0 (rtc_refl _ _)) as [Hs0 Hn0]. destruct (tri_step_inv m3 t0 loop st0 st1 Hr3 Ht0 I Hs0 E) as (I1 & [L [E' [P X]]] & H).
    rewrite IH; [|done|]. 2: { intros st2 H2. apply Hs. by eapply rtc_l. }
    destruct H as [(E1 & E2 & _)|(x & y & z & _ & E1 & Hnd & E2)]; [by rewrite E1, E2|].
    rewrite E1, E2, border_app. pose proof (piece_flow (ts_edges st0) x y z a b Hnd) as F. specialize (Hn0 st1 (x, y, z) E E1). lia.
  Qed.

  (** Where the new vertices are. *)
  Lemma rounds_places m3 t0 loop st0 st : ready m3 → is_Some (im_get (m_verts m3) t0) → tri_inv m3 t0 loop st0 →
    (∀ st1, rtc (tri_round tbary round eng t0) st0 st1 → sound_round tbary round eng t0 st1) →
    rtc (tri_round tbary round eng t0) st0 st → ∀ s, s ∈ ts_inner st → s ∈ ts_inner st0 ∨
      ∃ st1 edge inter, rtc (tri_round tbary round eng t0) st0 st1 ∧ ready (ts_mesh st1) ∧ tri_next tbary eng st1 = Some (edge, Some inter) ∧
        solid (ts_mesh st1) edge.1 ∧ joined (ts_mesh st1) edge.1 edge.2 ∧ joined (ts_mesh st1) inter.1.1 inter.1.2 ∧
        v_pos <$> im_get (m_verts (ts_mesh st)) s = Some (round inter.2).
  Proof.
    intros Hr3 Ht0 I Hs R. revert I Hs.
    induction R as [st|st0 st1 st [Hne E] R IH]; intros I Hs s Hin; [by left|].
    destruct (tri_step_inv m3 t0 loop st0 st1 Hr3 Ht0 I (Hs st0 (rtc_refl _ _)) E) as (I1 & [L [E' [P X]]] & H).
    assert (tri_round tbary round eng t0 st0 st1) as Hst by done.
    assert (∀ st2, rtc (tri_round tbary round eng t0) st1 st2 → sound_round tbary round eng t0 st2) as Hs1 by (intros st2 H2; apply Hs; by eapply rtc_l).
    destruct (IH I1 Hs1 s Hin) as [H1|(st2 & edge & inter & R2 & Hrest)].
    2: { right. exists st2, edge, inter. split; [by eapply rtc_l|done]. }
    destruct H as [(_ & _ & x & edge & inter & E1 & E2 & Hed & Hj & Hp)|(x & y & z & E1 & _)].
    2: { left. congruence. }
    rewrite E1 in H1. apply elem_of_app in H1 as [H1|H1%elem_of_list_singleton]; [by left|]. subst x. right. exists st0, edge, inter. split; [done|].
    pose proof (ex_ready _ _ _ _ _ (ti_ext _ _ _ _ I)) as Hr0. split; [done|]. split; [done|]. destruct edge as [a b]. destruct (ti_edges _ _ _ _ I a b Hed) as (? & ? & ?). cbn [fst snd].
    split; [by apply (ti_solid _ _ _ _ I)|]. split; [apply locked_edge_joined; [apply Hr0|done]|]. split; [done|].
    (* the place is kept *)
    assert (is_Some (im_get (m_verts (ts_mesh st1)) s)) as Hsome by (destruct (im_get (m_verts (ts_mesh st1)) s); [by eexists|done]).
    assert (s ∈ ts_vertices st1) as Hsv by (rewrite (ti_verts _ _ _ _ I1), E1; set_solver).
    clear -R I1 Hs1 Hp Hsv Hr3 Ht0 Hpick. apply (ti_solid _ _ _ _ I1) in Hsv. revert I1 Hs1 Hp Hsv. induction R as [st|st1 st2 st [Hne E] R IH]; intros I1 Hs1 Hp Hsv; [done|].
    destruct (tri_step_inv m3 t0 loop st1 st2 Hr3 Ht0 I1 (Hs1 st1 (rtc_refl _ _)) E) as (I2 & (L & E' & P & X) & _).
    apply IH; [done| | |].
    - intros st3 H3. apply Hs1. eapply rtc_l; [|done]. by split.
    - rewrite <- Hp. apply (extends_value _ _ _ _ _ s (rd_ok _ (ex_ready _ _ _ _ _ (ti_ext _ _ _ _ I1))) X). done.
    - by apply (extends_solid _ _ _ _ _ _ X).
  Qed.
End loop.

(** ** The whole *)
Section whole.
  Context {V T C : Type}.
  Implicit Types (m : mesh V T).
  Context (tbary : mesh V T → N → N → N → N → N → option (list Z)).
  Context (ebary : mesh V T → N → N → N → N → option (list Z)).
  Context (flat : mesh V T → N → N → N → N → option bool).
  Context (round : ratio → pt).
  Context (eng : engine C).
  Context (Hpick : ∀ c E e, e_pick eng c E = Some e → e ∈ E).
  Context (Heven : ∀ m a b, mesh_ok m → solid m a → solid m b → even_handed tbary ebary flat m a b).

  Lemma zip_segments a l b : zip (a :: l) (l ++ [b]) = segments a l b.
  Proof. revert a. induction l as [|x l IH]; intros a; cbn; [done|]. f_equal. apply IH. Qed.

  Lemma around_rim t0 t1 t2 l0 l1 l2 : around (t0 :: l0 ++ t1 :: l1 ++ t2 :: l2) = rim (t0, t1, t2) (l0, l1, l2).
  Proof.
    unfold around, rim. cbn [fst snd tail take]. rewrite take_0 || idtac.
    replace ((l0 ++ t1 :: l1 ++ t2 :: l2) ++ [t0]) with ((l0 ++ [t1]) ++ (l1 ++ [t2]) ++ (l2 ++ [t0])) by (repeat (rewrite <- app_assoc; cbn [app]); done).
    change (t0 :: l0 ++ t1 :: l1 ++ t2 :: l2) with ((t0 :: l0) ++ (t1 :: l1) ++ (t2 :: l2)).
    rewrite !zip_with_app by (cbn; rewrite app_length; cbn; lia). by rewrite !zip_segments.
  Qed.

  Lemma segments_ends a l b x y : (x, y) ∈ segments a l b → x ∈ a :: l ∧ y ∈ l ++ [b].
  Proof.
    revert a. induction l as [|z l IH]; intros a; cbn [segments]; rewrite elem_of_cons.
    - rewrite elem_of_nil. intros [[= -> ->]|[]]. split; left.
    - intros [[= -> ->]|H]; [split; left|]. destruct (IH _ H). split; [by right|by right].
  Qed.

  Lemma extends_locked m m' L E P a b : extends m m' L E P → locked_edge m a b → locked_edge m' a b.
  Proof. intros X H. apply (ex_edges _ _ _ _ _ X). by left. Qed.
  Lemma sides_ok depth n m t0 t1 t2 m3 l : ready m → solid m t0 → solid m t1 → solid m t2 → sound_sides tbary ebary flat round depth n m (t0, t1, t2) →
    recover_sides tbary ebary flat round depth n m (t0, t1, t2) = Some (m3, l) →
    extends m m3 (l.1.1 ++ l.1.2 ++ l.2) (rim (t0, t1, t2) l) [] ∧ (∀ v, v ∈ t0 :: l.1.1 ++ t1 :: l.1.2 ++ t2 :: l.2 → solid m3 v) ∧
    (∀ s v, (s ∈ l.1.1 ∧ v = t0) ∨ (s ∈ l.1.2 ∧ v = t1) ∨ (s ∈ l.2 ∧ v = t2) →
      v_val <$> im_get (m_verts m3) s = v_val <$> im_get (m_verts m) v).
  Proof.
    intros Hr H0 H1 H2 (S0 & Hs). unfold recover_sides. intros ([m1 l0] & E0 & H)%bind_Some. apply bind_Some in H as ([m2 l1] & E1 & H). apply bind_Some in H as ([m3' l2] & E2 & H). injection H as -> <-.
    destruct (Hs m1 l0 E0) as [S1 Hs']. specialize (Hs' m2 l1 E1). cbn [fst snd].
    pose proof (recover_ok _ _ _ _ depth n Heven m t0 t1 m1 l0 Hr H0 H1 S0 E0) as R0. pose proof (extends_recovered _ _ _ _ _ _ _ _ _ R0) as X0.
    assert (ready m1) as Hr1 by apply X0.
    pose proof (recover_ok _ _ _ _ depth n Heven m1 t1 t2 m2 l1 Hr1 (extends_solid _ _ _ _ _ _ X0 H1) (extends_solid _ _ _ _ _ _ X0 H2) S1 E1) as R1. pose proof (extends_recovered _ _ _ _ _ _ _ _ _ R1) as X1.
    pose proof (extends_trans _ _ _ _ _ _ _ _ _ X0 X1) as X01. assert (ready m2) as Hr2 by apply X1.
    pose proof (recover_ok _ _ _ _ depth n Heven m2 t2 t0 m3 l2 Hr2 (extends_solid _ _ _ _ _ _ X01 H2) (extends_solid _ _ _ _ _ _ X01 H0) Hs' E2) as R2. pose proof (extends_recovered _ _ _ _ _ _ _ _ _ R2) as X2.
    pose proof (extends_trans _ _ _ _ _ _ _ _ _ X01 X2) as X. rewrite <- !app_assoc in X. split; [exact X|]. split.
    - intros v Hv. assert (v ∈ [t0; t1; t2] ∨ v ∈ l0 ++ l1 ++ l2) as [Hv'|Hv'] by set_solver.
      + apply (extends_solid _ _ _ _ _ _ X). rewrite !elem_of_cons, elem_of_nil in Hv'. destruct Hv' as [-> | [-> | [-> | []]]]; done.
      + split; [by apply (ex_new _ _ _ _ _ X v Hv')|]. apply (ex_attached _ _ _ _ _ X). by right.
    - assert (∀ s, s ∈ l0 → solid m1 s) as Q0. { intros s Hss. split; [by apply (ex_new _ _ _ _ _ X0 s Hss)|]. apply (ex_attached _ _ _ _ _ X0). by right. }
      assert (∀ s, s ∈ l1 → solid m2 s) as Q1. { intros s Hss. split; [by apply (ex_new _ _ _ _ _ X1 s Hss)|]. apply (ex_attached _ _ _ _ _ X1). by right. }
      intros s v [[Hin ->]|[[Hin ->]|[Hin ->]]].
      + rewrite (proj1 (extends_value m1 m3 _ _ _ s (rd_ok _ Hr1) (extends_trans _ _ _ _ _ _ _ _ _ X1 X2) (Q0 s Hin))). by apply R0.
      + rewrite (proj1 (extends_value m2 m3 _ _ _ s (rd_ok _ Hr2) X2 (Q1 s Hin))). destruct (rc_value _ _ _ _ _ _ _ _ _ R1 s Hin) as [-> _]. by apply (extends_value m m1 _ _ _ t1 (rd_ok _ Hr) X0).
      + destruct (rc_value _ _ _ _ _ _ _ _ _ R2 s Hin) as [-> _]. by apply (extends_value m m2 _ _ _ t2 (rd_ok _ Hr) X01).
  Qed.

  Lemma start_inv m3 t0 t1 t2 l0 l1 l2 st : ready m3 → (∀ v, v ∈ t0 :: l0 ++ t1 :: l1 ++ t2 :: l2 → solid m3 v) →
    (∀ a b, (a, b) ∈ rim (t0, t1, t2) (l0, l1, l2) → locked_edge m3 a b) →
    tri_start eng m3 (t0, t1, t2) (l0, l1, l2) = Some st →
    tri_inv m3 t0 (t0 :: l0 ++ t1 :: l1 ++ t2 :: l2) st ∧ ts_edges st = list_to_set (rim (t0, t1, t2) (l0, l1, l2)) ∧ ts_pieces st = [] ∧ ts_inner st = [].
  Proof.
    intros Hr Hsol Hrim. unfold tri_start. intros (? & _ & H)%bind_Some. apply bind_Some in H as (? & _ & H). apply bind_Some in H as (c & _ & H). rewrite around_rim in H. injection H as <-.
    split; [|done]. split; cbn [ts_mesh ts_inner ts_pieces ts_vertices ts_edges].
    - by apply extends_refl.
    - by rewrite app_nil_r.
    - intros a b Hab%elem_of_list_to_set. split; [|split; [|by apply Hrim]].
      all: unfold rim in Hab; cbn [fst snd] in Hab; rewrite !elem_of_app in Hab; destruct Hab as [Hab|[Hab|Hab]]; apply segments_ends in Hab; set_solver.
    - done.
    - intros p []%elem_of_nil.
    - intros s []%elem_of_nil.
  Qed.

  Lemma recover_tri_ok fuel depth n m t0 t1 t2 m' l inner pieces : ready m → solid m t0 → solid m t1 → solid m t2 →
    sound_tri tbary ebary flat round eng depth n m (t0, t1, t2) →
    recover_tri_steiner tbary ebary flat round eng fuel depth n m (t0, t1, t2) = Some (m', l, inner, pieces) →
    tri_recovered m (t0, t1, t2) m' l inner pieces ∧
    ∃ m3 st0 st, recover_sides tbary ebary flat round depth n m (t0, t1, t2) = Some (m3, l) ∧ tri_start eng m3 (t0, t1, t2) l = Some st0 ∧ ready m3 ∧
      tri_inv m3 t0 (t0 :: l.1.1 ++ t1 :: l.1.2 ++ t2 :: l.2) st0 ∧ is_Some (im_get (m_verts m3) t0) ∧ ts_edges st0 = list_to_set (rim (t0, t1, t2) l) ∧ ts_pieces st0 = [] ∧ ts_inner st0 = [] ∧
      rtc (tri_round tbary round eng t0) st0 st ∧ ts_edges st = ∅ ∧ ts_mesh st = m' ∧ ts_pieces st = pieces ∧ ts_inner st = inner.
  Proof.
    intros Hr H0 H1 H2 [Ss Sr]. unfold recover_tri_steiner. intros ([m3 l'] & E3 & H)%bind_Some. apply bind_Some in H as (st0 & E0 & H). apply bind_Some in H as (st & El & H). injection H as <- <- <- <-.
    destruct (sides_ok depth n m t0 t1 t2 m3 l' Hr H0 H1 H2 Ss E3) as (X & Hsol & Hval). assert (ready m3) as Hr3 by apply X. destruct l' as [[l0 l1] l2]. cbn [fst snd] in *.
    assert (is_Some (im_get (m_verts m3) t0)) as Ht0. { destruct (extends_value m3 m3 [] [] [] t0 (rd_ok _ Hr3) (extends_refl _ Hr3)) as (_ & _ & ?); [apply Hsol; left|done]. }
    destruct (start_inv m3 t0 t1 t2 l0 l1 l2 st0 Hr3 Hsol) as (I0 & Ee & Ep & Ei); [|done|].
    { intros a b Hab. apply (ex_edges _ _ _ _ _ X). right. by exists a, b. }
    destruct (tri_loop_ok tbary round eng Hpick m3 t0 _ fuel Hr3 Ht0 st0 st I0) as (I & R & Hemp); [|done|].
    { intros st1 HR. exact (Sr m3 (l0, l1, l2) st0 st1 E3 E0 HR). }
    split; [|exists m3, st0, st; by split_and!].
    pose proof (extends_trans _ _ _ _ _ _ _ _ _ X (ti_ext _ _ _ _ I)) as X'. rewrite <- !app_assoc in X'. cbn [app] in X'. split; cbn [fst snd].
    - exact X'.
    - intros a b Hab. apply locked_edge_joined; [apply (ex_ready _ _ _ _ _ X')|]. apply (ex_edges _ _ _ _ _ X'). right. exists a, b. split; [|done]. apply elem_of_app. by left.
    - intros p Hp. by apply (ti_pieces _ _ _ _ I).
    - intros p v Hp Hv. destruct (ti_pieces _ _ _ _ I p Hp) as (_ & K1 & K2 & K3). rewrite (ti_verts _ _ _ _ I) in K1, K2, K3.
      assert (v ∈ (t0 :: l0 ++ t1 :: l1 ++ t2 :: l2) ++ ts_inner st) as Hv' by (rewrite !elem_of_cons, elem_of_nil in Hv; destruct Hv as [-> | [-> | [-> | []]]]; done). clear -Hv'. set_solver.
    - intros s v Hsv. assert (s ∈ l0 ++ l1 ++ l2 ++ ts_inner st) as HL by (clear -Hsv; set_solver). split; [|by apply (ex_new _ _ _ _ _ X' s HL)].
      destruct Hsv as [Hc|[Hc|[Hc|[Hin ->]]]].
      4: { rewrite (ti_value _ _ _ _ I s Hin). by apply (extends_value m m3 _ _ _ t0 (rd_ok _ Hr) X). }
      all: rewrite <- (Hval s v) by tauto; apply (extends_value m3 (ts_mesh st) _ _ _ s (rd_ok _ Hr3) (ti_ext _ _ _ _ I)); apply Hsol; clear -Hc; set_solver.
  Qed.
End whole.
