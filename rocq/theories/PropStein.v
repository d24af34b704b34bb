(** Property C56: recovering an edge by vertices inserted on it. *)
From stdpp Require Import base numbers list gmap option relations.
From Coq Require Import NArith ZArith QArith Sorted Lia.
From Verif Require Import IdMapModel IdMapProofs WalkerModel WalkerSpec MeshModel MeshOps MeshSpec MeshCheck HistSpec HistCheck History GeoModel GeoSpec IterModel IterLookup CavModel CavSpec InsModel InsSpec InsCheck DelModel DelSpec DelOk QualModel CrossModel CrossOk ProgModel ProgSpec RecSpec
  WayModel WaySpec WayOk MidModel MidSpec SteinModel SteinSpec SteinOk SteinStep WayGeo WayOrder GeoProofs PropCross PropMesh PropCav PropDel PropRec PropWay PropMid.
Local Open Scope nat_scope.

Notation exact_steiner := (recover_steiner tri_edge_bary edge_edge_bary coplanar).
Notation exact_recovered := (recovered tri_edge_bary edge_edge_bary coplanar).

(** Whatever the tests and the rounding, if all cavities on the way can be filled: when the recovery returns, the segment from
    [v0] to [v1] is a chain of edges over the vertices returned, all of them new and with the value of [v0], and the edges of the
    chain are locked.  No other vertex or lock of an edge is lost or added, and no locked triangle with locked edges is lost. *)
Theorem C56_recovers {V T} tbary ebary flat round fuel n (m : mesh V T) v0 v1 m' L :
  (∀ m a b, mesh_ok m → solid m a → solid m b → even_handed tbary ebary flat m a b) →
  ready m → solid m v0 → solid m v1 → sound_run tbary ebary flat round fuel n m v0 v1 →
  recover_steiner tbary ebary flat round fuel n m v0 v1 = Some (m', L) → recovered tbary ebary flat round m v0 v1 m' L.
Proof. intros. by eapply recover_ok. Qed.
Print Assumptions C56_recovers.

(** With the exact tests. *)
Theorem C56_exact {V T} round fuel n (m : mesh V T) v0 v1 m' L :
  ready m → solid m v0 → solid m v1 → sound_run tri_edge_bary edge_edge_bary coplanar round fuel n m v0 v1 →
  exact_steiner round fuel n m v0 v1 = Some (m', L) → exact_recovered round m v0 v1 m' L.
Proof. apply C56_recovers. intros. by apply C52_exact_tests. Qed.
Print Assumptions C56_exact.

(** If the vertices are joined already, and no triangle opposite to [v0] is crossed backwards, their edge is locked and
    nothing else is done. *)
Theorem C56_joined {V T} tbary ebary flat round fuel n (m : mesh V T) v0 v1 : even_handed tbary ebary flat m v0 v1 →
  ready m → solid m v0 → solid m v1 → joined m v0 v1 → 0 < fuel → 0 < n →
  (∀ id t, ahead m (From v0) id (STri t) → ¬ hits_back tbary m v0 v1 (STri t)) →
  ∃ m', recover_steiner tbary ebary flat round fuel n m v0 v1 = Some (m', []) ∧ recovered tbary ebary flat round m v0 v1 m' [].
Proof.
  intros Hev Hr H0 H1 Hj Hf Hn Hb. pose proof (rd_ok _ Hr) as Hok. destruct fuel as [|fuel]; [lia|]. cbn [recover_steiner].
  assert (steiner_cavity tbary ebary flat round n m v0 v1 = Some None) as ->.
  { unfold steiner_cavity, edge_mid_intersection. rewrite (C52_joined _ _ _ m v0 v1 n Hok Hev H0 Hj Hn Hb).
    assert (∀ v, solid m v → is_Some (position m v)) as Hp.
    { intros v [Hg Ha]. rewrite position_ori by done. by apply PropCross.attached_known. }
    destruct (Hp v0 H0) as [? ->], (Hp v1 H1) as [? ->]. done. }
  cbn [mbind option_bind]. destruct (edge_lookup m v0 v1 Hok (proj2 H0) (proj1 H0)) as [(_ & w & E & Hw & Hp)|(Hn' & _)]; [|done].
  rewrite E. cbn [mbind option_bind]. destruct (MeshOpsOk.set_edge_lock_step m w true Hok Hw) as (m' & _ & _ & El & _). rewrite El. cbn [mbind option_bind]. exists m'. split; [done|].
  by apply (lock_ok tbary ebary flat round m v0 v1 w m').
Qed.
Print Assumptions C56_joined.

(** ** The vertices are in order *)
Inductive straight {V T} (m : mesh V T) : N → list N → N → Prop :=
| straight_none a b : straight m a [] b
| straight_one a l s l' b pa pb ps :
    v_pos <$> im_get (m_verts m) a = Some pa → v_pos <$> im_get (m_verts m) b = Some pb → v_pos <$> im_get (m_verts m) s = Some ps →
    between ps 1 pa pb → straight m a l s → straight m s l' b → straight m a (l ++ s :: l') b.
Lemma straight_mono {V T} (m m' : mesh V T) a l b : at_same_places m m' → straight m a l b → straight m' a l b.
Proof.
  intros P. induction 1 as [a b|a l s l' b pa pb ps Ha Hb Hs Hbt _ IH1 _ IH2]; [constructor|].
  apply (straight_one _ _ _ _ _ _ pa pb ps); try done; by apply P.
Qed.

(** The point of a crossing is strictly between the ends, whatever is crossed. *)
Lemma hit_between {V T} (m : mesh V T) v0 v1 g x p0 p1 q : hits tri_edge_bary edge_edge_bary coplanar m v0 v1 g x →
  vscale (x.1 + x.2) q = vadd (vscale (x.1 + x.2) p0) (vscale x.2 (vsub p1 p0)) → between q 1 p0 p1.
Proof.
  intros Hh Eq. assert ((0 < x.1 ∧ 0 < x.2) ∨ (x.1 < 0 ∧ x.2 < 0))%Z as Hs.
  { destruct g as [[a b]|[[a b] c]]; cbn [hits] in Hh.
    - destruct Hh as (_ & bs & Eb & Hs & ->). assert (∃ b0 b1 b2 b3, bs = [b0; b1; b2; b3]) as (b0 & b1 & b2 & b3 & ->).
      { unfold edge_edge_bary in Eb. repeat (apply bind_Some in Eb as (? & _ & Eb)). cbv zeta in Eb. destruct (andb (andb _ _) _); injection Eb as <-; eauto. }
      rewrite !forall4 in Hs. cbn [nth fst snd]. lia.
    - destruct Hh as (bs & Eb & Hs & ->). destruct (teb_inv _ _ _ _ _ _ _ Eb) as (b0 & b1 & b2 & b3 & b4 & -> & _). rewrite !forall5 in Hs. cbn [nth fst snd]. lia. }
  destruct x as [x y]. cbn [fst snd] in *. exists (Z.abs x), (Z.abs y). split; [lia|]. split; [lia|].
  rewrite pt_eq in *. unfold vscale, vadd, vsub in *. cbn [px py pz] in *. destruct Eq as (K1 & K2 & K3).
  destruct Hs as [[H1 H2]|[H1 H2]].
  - rewrite !Z.abs_eq by lia. lia.
  - rewrite !Z.abs_neq by lia. lia.
Qed.

Lemma straight_run {V T} round fuel n : ∀ (m : mesh V T) v0 v1 m' L,
  ready m → solid m v0 → solid m v1 → sound_run tri_edge_bary edge_edge_bary coplanar round fuel n m v0 v1 →
  exact_run tri_edge_bary edge_edge_bary coplanar round fuel n m v0 v1 →
  exact_steiner round fuel n m v0 v1 = Some (m', L) → straight m' v0 L v1.
Proof.
  induction fuel as [|fuel IH]; intros m v0 v1 m' L Hr H0 H1 Hs Hx E; [done|]. pose proof E as Eall. cbn [recover_steiner sound_run exact_run] in *.
  apply bind_Some in E as ([[[[m1 s] B] E]|] & Ec & H).
  - pose proof (C52_exact_tests m v0 v1 (rd_ok _ Hr) H0 H1) as Hev.
    destruct (Hs _ _ _ _ Ec) as (Hp & Hsc & Hn). destruct (Hx _ _ _ _ Ec) as (Hr' & Hxn).
    destruct (step_ok tri_edge_bary edge_edge_bary coplanar round n m v0 v1 m1 s B E) as (m2 & B' & Ef & S & g & [P k] & Em & Eps); [done..|].
    rewrite Ef in H. cbn [mbind option_bind] in H. apply bind_Some in H as ([m3 L1] & E1 & H). apply bind_Some in H as ([m4 L2] & E2 & H). injection H as <- <-.
    destruct (Hn m2 B' Ef) as [Hs1 Hs2]. specialize (Hs2 m3 L1 E1). destruct (Hxn m2 B' Ef) as [Hx1 Hx2]. specialize (Hx2 m3 L1 E1).
    assert (solid m2 v0 ∧ solid m2 v1 ∧ solid m2 s) as (G0 & G1 & Gs).
    { unfold solid. rewrite !(st_attached _ _ _ _ _ _ _ _ _ S). destruct H0, H1. pose proof (st_new _ _ _ _ _ _ _ _ _ S) as [_ ?]. tauto. }
    assert (exact_recovered round m2 v0 s m3 L1) as R1 by (apply (C56_exact round fuel n m2 v0 s m3 L1); [apply S|done..]).
    assert (solid m3 s ∧ solid m3 v1) as [K1 K2]. { unfold solid. rewrite !(rc_attached _ _ _ _ _ _ _ _ _ R1). destruct Gs, G1. tauto. }
    assert (exact_recovered round m3 s v1 m4 L2) as R2 by (apply (C56_exact round fuel n m3 s v1 m4 L2); [apply R1|done..]).
    pose proof (recovered_places _ _ _ _ _ _ _ _ _ R1) as P1. pose proof (recovered_places _ _ _ _ _ _ _ _ _ R2) as P2. pose proof (stepped_places _ _ _ _ _ _ _ _ _ S) as P0.
    destruct (mid_in tri_edge_bary edge_edge_bary coplanar n m v0 v1 g (P, k) true (rd_ok _ Hr) Hev H0 Em) as (p0 & p1 & b & Ep0 & Ep1 & Hg & Hh & Exy).
    specialize (Hr' g P k Em).
    apply (straight_one _ _ _ _ _ _ p0 p1 (round (P, k))); [by apply P2, P1, P0|by apply P2, P1, P0|by apply P2, P1| | |].
    + injection Exy as -> ->. by apply (hit_between m v0 v1 g b).
    + eapply straight_mono; [exact P2|]. apply (IH m2 v0 s m3 L1); [apply S|done..].
    + apply (IH m3 s v1 m4 L2); [apply R1|done..].
  - apply bind_Some in H as (wo & Ew & H). apply bind_Some in H as (w & -> & H). apply bind_Some in H as (m3 & El & [= <- <-]). constructor.
Qed.

(** Times on the way: if [a] and [b] are at the times [ta] and [tb], what is between them is at times between these, in order. *)
Lemma at_time_between p0 p1 pa pb ps ta tb : at_time p0 p1 pa ta → at_time p0 p1 pb tb → (ta < tb)%Q → between ps 1 pa pb → ∃ ts, at_time p0 p1 ps ts ∧ (ta < ts)%Q ∧ (ts < tb)%Q.
Proof.
  intros (A1 & A2 & A3) (B1 & B2 & B3) Hlt (b0 & b1 & H0 & H1 & E). rewrite pt_eq in E. unfold vscale, vadd in E. cbn [px py pz] in E. destruct E as (E1 & E2 & E3).
  set (x0 := inject_Z b0). set (x1 := inject_Z b1).
  assert (0 < x0)%Q as P0 by (unfold x0, Qlt; cbn; lia). assert (0 < x1)%Q as P1 by (unfold x1, Qlt; cbn; lia).
  assert (0 < x0 + x1)%Q as P. { apply (Qlt_trans _ x0); [done|]. rewrite <- (Qplus_0_r x0) at 1. by apply Qplus_lt_r. }
  assert (¬ x0 + x1 == 0)%Q as Pn. { intros H. rewrite H in P. by apply Qlt_irrefl in P. }
  exists ((x0 * ta + x1 * tb) / (x0 + x1))%Q.
  assert (∀ q a b c d : Z, (b0 + b1) * q = 1 * (b0 * a + b1 * b) → inject_Z a == inject_Z c + ta * inject_Z d → inject_Z b == inject_Z c + tb * inject_Z d →
    inject_Z q == inject_Z c + (x0 * ta + x1 * tb) / (x0 + x1) * inject_Z d)%Z%Q as Hc.
  { intros q a b c d Hq Ha Hb. assert ((x0 + x1) * inject_Z q == x0 * inject_Z a + x1 * inject_Z b)%Q as Hq'.
    { unfold x0, x1. rewrite <- inject_Z_plus, <- !inject_Z_mult, <- inject_Z_plus. apply inject_Z_injective. lia. }
    rewrite Ha, Hb in Hq'. apply (Qmult_inj_l _ _ (x0 + x1) Pn). rewrite Hq'. field. done. }
  split; [|split].
  - split; [|split]; [by apply (Hc _ (px pa) (px pb))|by apply (Hc _ (py pa) (py pb))|by apply (Hc _ (pz pa) (pz pb))].
  - apply Qlt_shift_div_l; [done|]. setoid_replace (ta * (x0 + x1))%Q with (x0 * ta + x1 * ta)%Q by ring. apply Qplus_lt_r. rewrite !(Qmult_comm x1). by apply Qmult_lt_compat_r.
  - apply Qlt_shift_div_r; [done|]. setoid_replace (tb * (x0 + x1))%Q with (x0 * tb + x1 * tb)%Q by ring. apply Qplus_lt_l. rewrite !(Qmult_comm x0). by apply Qmult_lt_compat_r.
Qed.

Lemma straight_times {V T} (m : mesh V T) p0 p1 a l b : straight m a l b → ∀ pa pb ta tb, v_pos <$> im_get (m_verts m) a = Some pa → v_pos <$> im_get (m_verts m) b = Some pb →
  at_time p0 p1 pa ta → at_time p0 p1 pb tb → (ta < tb)%Q →
  ∃ ts, Forall2 (λ s t, ∃ q, v_pos <$> im_get (m_verts m) s = Some q ∧ at_time p0 p1 q t) l ts ∧ StronglySorted Qlt ts ∧ Forall (λ t, ta < t ∧ t < tb)%Q ts.
Proof.
  induction 1 as [a b|a l s l' b pa' pb' ps Ea Eb Es Hb H1 IH1 H2 IH2]; intros pa pb ta tb Ha Hb' Ta Tb Hlt; [exists []; split; [done|]; split; [constructor|done]|].
  assert (pa' = pa) as -> by congruence. assert (pb' = pb) as -> by congruence.
  destruct (at_time_between p0 p1 pa pb ps ta tb Ta Tb Hlt Hb) as (t & Tt & L1 & L2).
  destruct (IH1 pa ps ta t Ha Es Ta Tt L1) as (ts1 & F1 & S1 & B1). destruct (IH2 ps pb t tb Es Hb' Tt Tb L2) as (ts2 & F2 & S2 & B2).
  exists (ts1 ++ t :: ts2). split; [|split].
  - apply Forall2_app; [done|]. constructor; [eauto|done].
  - clear F1 F2 IH1 IH2. induction S1 as [|x ts1 S1 IH HF]; cbn [app].
    + constructor; [done|]. eapply Forall_impl; [exact B2|]. cbn. tauto.
    + apply list.Forall_cons in B1 as [[Bx Bx'] B1]. constructor; [by apply IH|]. apply Forall_app. split; [done|]. apply list.Forall_cons. split; [done|].
      eapply Forall_impl; [exact B2|]. cbn. intros y [Hy _]. by apply (Qlt_trans _ t).
  - apply Forall_app. split; [|apply list.Forall_cons; split; [done|]].
    + eapply Forall_impl; [exact B1|]. cbn. intros y [Hy1 Hy2]. split; [done|by apply (Qlt_trans _ t)].
    + eapply Forall_impl; [exact B2|]. cbn. intros y [Hy1 Hy2]. split; [by apply (Qlt_trans _ t)|done].
Qed.

(** With the exact tests, if no point has to be rounded, the new vertices are on the segment, strictly between its ends, in the
    order in which they are returned. *)
Theorem C56_order {V T} round fuel n (m : mesh V T) v0 v1 m' L p0 p1 :
  ready m → solid m v0 → solid m v1 → sound_run tri_edge_bary edge_edge_bary coplanar round fuel n m v0 v1 →
  exact_run tri_edge_bary edge_edge_bary coplanar round fuel n m v0 v1 →
  exact_steiner round fuel n m v0 v1 = Some (m', L) →
  v_pos <$> im_get (m_verts m) v0 = Some p0 → v_pos <$> im_get (m_verts m) v1 = Some p1 →
  ∃ ts, Forall2 (λ s t, ∃ q, v_pos <$> im_get (m_verts m') s = Some q ∧ at_time p0 p1 q t) L ts ∧
    StronglySorted Qlt ts ∧ Forall (λ t, 0 < t ∧ t < 1)%Q ts.
Proof.
  intros Hr H0 H1 Hs Hx E E0 E1. pose proof (C56_exact round fuel n m v0 v1 m' L Hr H0 H1 Hs E) as R. pose proof (recovered_places _ _ _ _ _ _ _ _ _ R) as P.
  apply (straight_times m' p0 p1 v0 L v1) with (pa := p0) (pb := p1); [by apply (straight_run round fuel n m)|by apply P|by apply P| | |done].
  - split; [|split]; ring.
  - split; [|split]; rewrite <- inject_Z_plus || idtac; rewrite Qmult_1_l, <- inject_Z_plus; apply inject_Z_injective; lia.
Qed.
Print Assumptions C56_order.

(** ** A step does not panic *)
(** On an upright mesh with room for a vertex: if the crossing taken is of a triangle or edge without the ghost vertex, its point does
    not have to be rounded, the triangle is not locked (for an edge: neither the edge nor a triangle with that edge), then a
    cavity for the new vertex is found. *)
Theorem C56_step {V T} round n (m : mesh V T) v0 v1 g P k : ready m → upright m → solid m v0 → solid m v1 → (im_npi (m_verts m) < GHOST)%N →
  edge_mid_intersection tri_edge_bary edge_edge_bary coplanar n m v0 v1 = Some (Some (g, (P, k)), true) →
  GHOST ∉ corners g → vscale k (round (P, k)) = P →
  match g with
  | SEdge (a, b) => ¬ FlipSpec.locked_edge m a b ∧ ∀ c, ¬ locked_tri m (a, b, c)
  | STri (a, b, c) => ¬ locked_tri m (a, b, c)
  end →
  ∃ m1 s B E, steiner_cavity tri_edge_bary edge_edge_bary coplanar round n m v0 v1 = Some (Some (m1, s, B, E)).
Proof. intros Hr Hu H0 H1 Hn Em Hg Hx Hf. by apply (step_succeeds round n m v0 v1 g P k). Qed.
Print Assumptions C56_step.

(** ** A run *)
(** Runs can be checked. *)
Definition no_inner_vertexb {V T} (m : mesh V T) (E : list N) : bool :=
  all (im_iter (m_tets m)) (λ x, all (list4 (t_vs x.2)) (λ a, any (im_iter (m_tets m)) (λ y, negb (existsb (N.eqb y.1) E) && existsb (N.eqb a) (list4 (t_vs y.2))))).
Lemma existsb_N x l : existsb (N.eqb x) l = true ↔ x ∈ l.
Proof. rewrite existsb_exists, elem_of_list_In. split; [intros (y & Hy & ->%N.eqb_eq); done|]. intros H. exists x. by rewrite N.eqb_refl. Qed.
Lemma no_inner_vertexb_spec {V T} (m : mesh V T) E : mesh_ok m → no_inner_vertexb m E = true → ∀ a, attached m a → ∃ u, valid m u ∧ w_first m u = Some a ∧ w_tet u ∉ E.
Proof.
  intros Hok H a (id & t & Ht & Ha)%attached_vs. unfold no_inner_vertexb in H. rewrite all_spec in H.
  specialize (H (id, t) (proj2 (elem_of_im_iter _ _ _ (ok_ids_tets _ Hok)) Ht)). rewrite all_spec in H. specialize (H a Ha). apply any_spec in H as ([k t'] & Hk & [Hn Ha']%andb_true_iff). cbn [fst snd] in *.
  apply (elem_of_im_iter _ _ _ (ok_ids_tets _ Hok)) in Hk. rewrite existsb_N in Ha'. assert (tet_get m k = Some t') as Hk' by exact Hk.
  assert (k ∉ E) as Hn'. { intros Hin%existsb_N. by rewrite Hin in Hn. }
  destruct (MeshViews.first_of_tet (λ _, t') k a Ha') as (w & E1 & Hw & E2). exists w. split; [split; [rewrite E1; eauto|done]|]. rewrite E1. split; [|done].
  unfold w_first. rewrite E1, Hk'. cbn. by f_equal.
Qed.

Fixpoint run_okb {V T} (round : ratio → pt) (fuel n : nat) (m : mesh V T) (v0 v1 : N) : bool :=
  match fuel with
  | 0 => true
  | S fuel =>
    match steiner_cavity tri_edge_bary edge_edge_bary coplanar round n m v0 v1 with
    | Some (Some (m1, s, B, E)) =>
      N.ltb (im_npi (m_verts m)) GHOST && mesh_check 100 m1 && surfaceb m1 E && roomyb m1 (N.of_nat (length B)) (N.of_nat (3 * length B)) && no_inner_vertexb m1 E &&
      match exact_mid n m v0 v1 with
      | Some (Some (_, (P, k)), true) => let q := vscale k (round (P, k)) in Z.eqb (px q) (px P) && Z.eqb (py q) (py P) && Z.eqb (pz q) (pz P)
      | _ => true
      end &&
      match flip_in_vertex_unchecked m1 s B E with
      | Some (m2, _) => run_okb round fuel n m2 v0 s &&
          match exact_steiner round fuel n m2 v0 s with Some (m3, _) => run_okb round fuel n m3 s v1 | None => true end
      | None => true
      end
    | _ => true
    end
  end.
Lemma run_check {V T} round fuel n : ∀ (m : mesh V T) v0 v1, run_okb round fuel n m v0 v1 = true →
  sound_run tri_edge_bary edge_edge_bary coplanar round fuel n m v0 v1 ∧ exact_run tri_edge_bary edge_edge_bary coplanar round fuel n m v0 v1.
Proof.
  induction fuel as [|fuel IH]; intros m v0 v1; [done|]. cbn [run_okb sound_run exact_run]. intros H.
  destruct (steiner_cavity _ _ _ _ _ _ _ _) as [[[[[m1 s] B] E]|]|]; [|by split..].
  rewrite !andb_true_iff in H. destruct H as ((((((H1%N.ltb_lt & H2%mesh_check_ok) & H3%surfaceb_spec) & H4%roomyb_spec) & H5) & H6) & H7).
  pose proof (no_inner_vertexb_spec m1 E H2 H5) as H5'.
  split; intros ? ? ? ? [= <- <- <- <-].
  - split; [done|]. split; [by split|]. intros m2 B' Ef. rewrite Ef, andb_true_iff in H7. destruct H7 as [H7 H8]. split; [by apply IH|]. intros m3 l Er. rewrite Er in H8. by apply IH.
  - split.
    + intros g P k Em. rewrite Em in H6. cbv zeta in H6. rewrite !andb_true_iff, !Z.eqb_eq in H6. rewrite pt_eq. tauto.
    + intros m2 B' Ef. rewrite Ef, andb_true_iff in H7. destruct H7 as [H7 H8]. split; [by apply IH|]. intros m3 l Er. rewrite Er in H8. by apply IH.
Qed.

(** The segment from the vertex 0 to the vertex 5 crosses two triangles, at (6, 3, 3) and (2, 1, 1); the first one is taken, and
    the second one is still in the way of its first half.  One triangle is locked, with its edges. *)
Definition to_point (r : ratio) : pt := Pt (px r.1 / r.2) (py r.1 / r.2) (pz r.1 / r.2).
Definition stein_ops : list (op Z) := [OInsert (walker_from_tet_id 1) (Pt 10 6 4) 14%Z; OInsert (walker_from_tet_id 5) (Pt 8 4 4) 15%Z] ++ lock_all (Walker 2 3).
Example C56_witness : ready (ex stein_ops) ∧ solid (ex stein_ops) 0 ∧ solid (ex stein_ops) 5 ∧
  sound_run tri_edge_bary edge_edge_bary coplanar to_point 5 100 (ex stein_ops) 0 5 ∧
  exact_run tri_edge_bary edge_edge_bary coplanar to_point 5 100 (ex stein_ops) 0 5 ∧
  ¬ joined (ex stein_ops) 0 5 ∧ locked_tri (ex stein_ops) (0, 3, 2)%N ∧
  match exact_steiner to_point 5 100 (ex stein_ops) 0 5 with
  | Some (m', L) => L = [7; 6]%N ∧ (λ v, v_pos <$> im_get (m_verts m') v) <$> L = [Some (Pt 2 1 1); Some (Pt 6 3 3)] ∧
      (λ e, ue_vs e.2) <$> List.filter (λ e, ue_locked e.2) (im_iter (m_edges m')) = [(0, 2); (0, 3); (2, 3); (5, 6); (0, 7); (6, 7)]%N
  | None => False
  end.
Proof.
  assert (reachable (ex stein_ops)) as Hr by (apply ex_reachable; vm_compute; reflexivity).
  assert (run_okb to_point 5 100 (ex stein_ops) 0 5 = true) as Hc by (vm_compute; reflexivity).
  split; [by apply C48_histories, PropIns.reachable_built|]. split; [apply solidb_spec; vm_compute; reflexivity|]. split; [apply solidb_spec; vm_compute; reflexivity|].
  destruct (run_check _ _ _ _ _ _ Hc) as [H1 H2]. split; [exact H1|]. split; [exact H2|]. clear H1 H2 Hc.
  split; [|split].
  - assert (joinedb (ex stein_ops) 0 5 = false) as Hj by (vm_compute; reflexivity). intros H%joinedb_spec. by rewrite Hj in H.
  - exists (Walker 2 3). split; [split; [vm_compute; eauto|cbn; lia]|]. split; vm_compute; reflexivity.
  - vm_compute. repeat split.
Qed.

Definition no_locked_trib {V T} (m : mesh V T) (t : N * N * N) : bool :=
  all (im_iter (m_tets m)) (λ x, all (seq 0 12) (λ e, match w_tri m (Walker x.1 e), w_locked m (Walker x.1 e) with
    | Some (a, b, c), Some true => negb (N.eqb a t.1.1 && N.eqb b t.1.2 && N.eqb c t.2) | _, _ => true end)).
Lemma no_locked_trib_spec {V T} (m : mesh V T) t : mesh_ok m → no_locked_trib m t = true → ¬ locked_tri m t.
Proof.
  intros Hok Hc ([i e] & [[x Ht] He] & Et & Hl). cbn [w_tet w_edge] in *. unfold no_locked_trib in Hc. rewrite all_spec in Hc.
  specialize (Hc (i, x) (proj2 (elem_of_im_iter _ _ _ (ok_ids_tets _ Hok)) Ht)). rewrite all_spec in Hc. specialize (Hc e). cbn [fst] in Hc. rewrite Et, Hl in Hc.
  destruct t as [[a b] c]. cbn [fst snd] in Hc. rewrite !N.eqb_refl in Hc. assert (e ∈ seq 0 12) as He' by (apply elem_of_seq; lia). by specialize (Hc He').
Qed.

(** The first step of that run meets the hypotheses of [C56_step]. *)
Example C56_step_witness : ready (ex stein_ops) ∧ upright (ex stein_ops) ∧ (im_npi (m_verts (ex stein_ops)) < GHOST)%N ∧
  edge_mid_intersection tri_edge_bary edge_edge_bary coplanar 100 (ex stein_ops) 0 5 = Some (Some (STri (4, 1, 3)%N, (Pt (-768) (-384) (-384), (-128)%Z)), true) ∧
  vscale (-128) (to_point (Pt (-768) (-384) (-384), (-128)%Z)) = Pt (-768) (-384) (-384) ∧ ¬ locked_tri (ex stein_ops) (4, 1, 3)%N.
Proof.
  assert (reachable (ex stein_ops)) as Hr by (apply ex_reachable; vm_compute; reflexivity).
  pose proof (C48_histories _ (PropIns.reachable_built _ Hr)) as Hrd.
  split; [done|]. split; [apply uprightb_spec; vm_compute; reflexivity|]. split; [vm_compute; reflexivity|]. split; [vm_compute; reflexivity|]. split; [vm_compute; reflexivity|].
  apply no_locked_trib_spec; [apply Hrd|vm_compute; reflexivity].
Qed.
