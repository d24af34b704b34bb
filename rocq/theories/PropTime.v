(** C55: the time a vertex may travel inside the ball of tets around a vertex. *)
From stdpp Require Import base numbers list gmap option relations.
From Coq Require Import NArith ZArith QArith Sorted Lia.
From Verif Require Import IdMapModel IdMapSpec IdMapProofs WalkerModel WalkerSpec WalkerProofs MeshModel MeshOps MeshSpec MeshViews MeshCheck FlipSpec FlipBase FlipCommon HistSpec HistCheck NewMesh History Reach IterProofs IterLookup Flip44Ok GeoModel GeoSpec GeoProofs GeoMesh UtilModel
  UtilSpec SortProofs DelOk PropMesh QualModel ProgModel ProgSpec ProgBase RecModel RecSpec PropRec CrossModel CrossSpec CrossOk PropCross WayModel WaySpec WayOk WayGeo WayOrder PropWay MidModel MidSpec MidGeo PropMid.
Local Open Scope nat_scope.

Lemma perm3_any (R : N → N → N → Prop) : (∀ a b c, R a b c → R b c a) → (∀ a b c, R a b c → R b a c) →
  ∀ a b c u v w, NoDup [a; b; c] → [a; b; c] ≡ₚ [u; v; w] → R a b c → R u v w.
Proof.
  intros Hr Hs a b c u v w Hn Hp HR. assert (NoDup [u; v; w]) as (N1 & N2 & N3)%nodup3 by by rewrite <- Hp.
  assert (same_corners (u, v, w) (a, b, c)) as Hc. { unfold same_corners. cbn [fst snd]. intros z. assert (z ∈ [u; v; w] ↔ z ∈ [a; b; c]) as Hz by by rewrite Hp. revert Hz. rewrite !elem_of_cons, !elem_of_nil. clear. naive_solver. }
  destruct (corners_perm a b c u v w N1 N2 N3 Hc) as [E|[E|[E|[E|[E|E]]]]]; injection E as -> -> ->; auto.
Qed.

Lemma opp_tri_verts {V T} (m : mesh V T) w a b c d : w_verts m w = Some (A4 a b c d) → w_opp_tri m w = Some (d, c, b).
Proof.
  unfold w_verts, w_opp_tri. destruct (w_first m w), (w_second m w), (w_third m w), (w_fourth m w); cbn; try done. by intros [= -> -> -> ->].
Qed.

Section time.
  Context {V T : Type} (m : mesh V T) (Hok : mesh_ok m) (v c d : N) (pc pd : pt).
  Context (Hv : solid m v) (Hin : interior m v) (Nc : c ≠ GHOST) (Nd : d ≠ GHOST) (Ec : idx_ori m c = Some pc) (Ed : idx_ori m d = Some pd).

  Lemma around w : valid m w → w_first m w = Some v → ∃ a0 a1 a2 p0 p1 p2, w_verts m w = Some (A4 v a0 a1 a2) ∧ NoDup [v; a0; a1; a2] ∧ opposite m (w_tet w) v a0 a1 a2 ∧
    GHOST ∉ [v; a0; a1; a2] ∧ idx_ori m a0 = Some p0 ∧ idx_ori m a1 = Some p1 ∧ idx_ori m a2 = Some p2.
  Proof.
    intros Hw Ef. destruct (wverts_of_first m w v Hw Ef) as (a0 & a1 & a2 & Ev). pose proof (ok_distinct m Hok _ _ _ _ _ Hw Ev) as Hn.
    destruct (wverts_in m w _ Hw Ev) as (vs & Et & Hvs). unfold vs_of in Et. apply fmap_Some in Et as (t & Et & ->). cbn [list4 q0 q1 q2 q3] in Hvs.
    assert (list4 (t_vs t) ≡ₚ [v; a0; a1; a2]) as Hp. { symmetry. apply NoDup_Permutation_bis; [by apply NoDup_ListNoDup|by destruct (t_vs t); cbn|]. intros x Hx%elem_of_list_In. apply elem_of_list_In. by apply Hvs. }
    assert (∀ x, x ∈ [v; a0; a1; a2] → attached m x) as Hat. { intros x Hx. apply attached_vs. exists (w_tet w), t. split; [done|]. by apply Hvs. }
    destruct (attached_known m a0 Hok) as [p0 E0]; [apply Hat; set_solver|]. destruct (attached_known m a1 Hok) as [p1 E1]; [apply Hat; set_solver|]. destruct (attached_known m a2 Hok) as [p2 E2]; [apply Hat; set_solver|].
    exists a0, a1, a2, p0, p1, p2. split; [done|]. split; [done|]. split; [by exists t|]. split; [|done].
    intros Hg. apply (Hin (w_tet w)); exists t; (split; [done|]); intros x ->%elem_of_list_singleton; apply Hvs; [set_solver|done].
  Qed.

  Lemma bary_solid a0 a1 a2 p0 p1 p2 : GHOST ∉ [a0; a1; a2] → idx_ori m a0 = Some p0 → idx_ori m a1 = Some p1 → idx_ori m a2 = Some p2 → tri_edge_bary m a0 a1 a2 c d = Some (barys p0 p1 p2 pc pd).
  Proof.
    intros Hg E0 E1 E2. unfold tri_edge_bary, orient_3d. rewrite E0, E1, E2, Ec, Ed. cbn [mbind option_bind].
    assert (∀ l : list N, (∀ x, x ∈ l → x ∈ [a0; a1; a2; c; d]) → has_ghost l = false) as Hng.
    { intros l Hl. apply not_true_iff_false. unfold has_ghost. rewrite existsb_exists. intros (x & Hx%elem_of_list_In & <-%N.eqb_eq). apply Hl in Hx. set_solver. }
    rewrite !Hng; [|intros x; rewrite ?elem_of_cons, ?elem_of_nil; clear; tauto..]. rewrite !Z.mul_1_l. done.
  Qed.

  (** The times found are those at which the surface is passed. *)
  Lemma times : ∃ bs, (ws ← from_list m v; mapM (λ w, t ← w_opp_tri m w; tri_edge_bary m t.1.1 t.1.2 t.2 c d) ws) = Some bs ∧
    ∀ s, (on_surface m v c d s ∧ (0 < s)%Q) ↔ ∃ t, t ∈ omap time_of (List.filter one_sided bs) ∧ (t == s)%Q.
  Proof.
    destruct (from_list_ok tri_edge_bary edge_edge_bary coplanar m v v Hok (C52_exact_tests m v v Hok Hv Hv) v Hv) as (ws & -> & Hws & Hall). cbn [mbind option_bind].
    set (f := λ w, t ← w_opp_tri m w; tri_edge_bary m t.1.1 t.1.2 t.2 c d).
    assert (∀ w, valid m w → w_first m w = Some v → ∃ a0 a1 a2 p0 p1 p2, NoDup [v; a0; a1; a2] ∧ opposite m (w_tet w) v a0 a1 a2 ∧
      idx_ori m a0 = Some p0 ∧ idx_ori m a1 = Some p1 ∧ idx_ori m a2 = Some p2 ∧ f w = Some (barys p2 p1 p0 pc pd)) as Hf.
    { intros w Hw Ef. destruct (around w Hw Ef) as (a0 & a1 & a2 & p0 & p1 & p2 & Ev & Hn & Ho & Hg & E0 & E1 & E2). exists a0, a1, a2, p0, p1, p2. split; [done|]. split; [done|]. do 3 (split; [done|]).
      unfold f. rewrite (opp_tri_verts _ _ _ _ _ _ Ev). cbn [mbind option_bind fst snd]. apply bary_solid; [|done..]. set_solver. }
    destruct (mapM f ws) as [bs|] eqn:Em.
    2: { apply mapM_None in Em. apply Exists_exists in Em as (w & Hw & E). destruct (Hws w Hw) as [H1 H2]. destruct (Hf w H1 H2) as (?&?&?&?&?&?&_&_&_&_&_&E'). by rewrite E' in E. }
    exists bs. split; [done|]. apply mapM_Some in Em. intros s. split.
    - intros [(id & a0 & a1 & a2 & p0 & p1 & p2 & pc' & pd' & Ho & E0 & E1 & E2 & Ec' & Ed' & Hpass) Hs]. rewrite Ec in Ec'. injection Ec' as <-. rewrite Ed in Ed'. injection Ed' as <-.
      destruct (Hall id) as (w & Hw & <-). { destruct Ho as (t & Et & Hp). exists t. split; [done|]. intros x ->%elem_of_list_singleton. rewrite Hp. left. }
      destruct (Hws w Hw) as [H1 H2]. destruct (Hf w H1 H2) as (b0 & b1 & b2 & q0 & q1 & q2 & Hn & Ho' & F0 & F1 & F2 & Efw).
      assert ([a0; a1; a2] ≡ₚ [b0; b1; b2]) as Hp.
      { destruct Ho as (t & Et & Hp), Ho' as (t' & Et' & Hp'). rewrite Et in Et'. injection Et' as <-. rewrite Hp in Hp'. by apply Permutation_cons_inv in Hp'. }
      assert (passes_at q2 q1 q0 pc pd s) as Hpass'.
      { assert (∀ q0 q1 q2, idx_ori m b2 = Some q0 → idx_ori m b1 = Some q1 → idx_ori m b0 = Some q2 → passes_at q0 q1 q2 pc pd s) as HH; [|by apply HH].
        apply (perm3_any (λ x y z, ∀ q0 q1 q2, idx_ori m x = Some q0 → idx_ori m y = Some q1 → idx_ori m z = Some q2 → passes_at q0 q1 q2 pc pd s)) with (a := a0) (b := a1) (c := a2).
        - intros a b e H u0 u1 u2 G0 G1 G2. by apply passes_rot, H.
        - intros a b e H u0 u1 u2 G0 G1 G2. by apply passes_swap, H.
        - rewrite Hp. by apply stdpp.list.NoDup_cons in Hn as [_ ?].
        - rewrite Hp. solve_Permutation.
        - intros u0 u1 u2. rewrite E0, E1, E2. by intros [= <-] [= <-] [= <-]. }
      destruct (proj1 (passes_barys q2 q1 q0 pc pd s) (conj Hpass' Hs)) as (Hside & t & Et & Hts). exists t. split; [|done].
      apply elem_of_list_omap. exists (barys q2 q1 q0 pc pd). split; [|done]. apply elem_of_list_In, filter_In. split; [|done]. apply elem_of_list_In.
      apply elem_of_list_lookup in Hw as [i Hi]. destruct (Forall2_lookup_l _ _ _ _ _ Em Hi) as (b & Hb & Eb). rewrite Efw in Eb. injection Eb as ->. by eapply elem_of_list_lookup_2.
    - intros (t & (b & Hb & Et)%elem_of_list_omap & Hts). apply elem_of_list_In, filter_In in Hb as [Hb%elem_of_list_In Hside]. apply elem_of_list_lookup in Hb as [i Hb].
      destruct (Forall2_lookup_r _ _ _ _ _ Em Hb) as (w & Hw & Eb). apply elem_of_list_lookup_2 in Hw. destruct (Hws w Hw) as [H1 H2].
      destruct (Hf w H1 H2) as (b0 & b1 & b2 & q0 & q1 & q2 & Hn & Ho' & F0 & F1 & F2 & Efw). rewrite Efw in Eb. injection Eb as <-.
      destruct (proj2 (passes_barys q2 q1 q0 pc pd s)) as [Hpass Hs]; [split; [done|by exists t]|]. split; [|done].
      exists (w_tet w), b2, b1, b0, q2, q1, q0, pc, pd. split; [|done]. destruct Ho' as (u & Eu & Hp). exists u. split; [done|]. rewrite Hp. solve_Permutation.
  Qed.
End time.

(** ** C55 *)
(** [time_until_not_star_shaped] looks at a vertex [v] that no ghost tet is around, and at a point that moves straight from the place of
    the vertex [c] to that of [d].  It returns the first time, after the start and until the end, at which the point is on the
    surface of the ball around [v] and passes through it, or nothing if there is none. *)
Theorem C55_first_time {V T} (m : mesh V T) v c d : mesh_ok m → solid m v → interior m v → c ≠ GHOST → d ≠ GHOST → is_Some (idx_ori m c) → is_Some (idx_ori m d) →
  ∃ r, time_until_not_star_shaped m v c d = Some r ∧
    match r with
    | None => ∀ s, (0 < s)%Q → ¬ on_surface m v c d s
    | Some t => (0 < t <= 1)%Q ∧ on_surface m v c d t ∧ ∀ s, (0 < s)%Q → on_surface m v c d s → (t <= s)%Q
    end.
Proof.
  intros Hok Hv Hin Nc Nd [pc Ec] [pd Ed]. destruct (times m Hok v c d pc pd Hv Hin Nc Nd Ec Ed) as (bs & E & Ht). unfold time_until_not_star_shaped.
  destruct (from_list m v) as [ws|]; [|done]. cbn [mbind option_bind] in *. rewrite E. cbn [mbind option_bind]. eexists. split; [done|].
  set (less := λ s t : Q, _). assert (∀ a b, less a b = false ↔ (b <= a)%Q) as Hl. { intros a b. unfold less. by rewrite negb_false_iff, Qle_bool_iff. }
  assert (∀ a b, less a b = true ↔ (a < b)%Q) as Hl'. { intros a b. unfold less. rewrite negb_true_iff, <- not_true_iff_false, Qle_bool_iff. split; [apply Qnot_le_lt|apply Qlt_not_le]. }
  pose proof (least_spec less) as Hs. specialize (Hs ltac:(intros a; apply Hl, Qle_refl) ltac:(intros a b e; rewrite !Hl; intros ? ?; by eapply Qle_trans) ltac:(intros a b; rewrite Hl, Hl'; apply Qlt_le_weak) (omap time_of (List.filter one_sided bs))).
  destruct (least less _) as [t|].
  - destruct Hs as (i & Hi & H1 & _). destruct (proj2 (Ht t)) as [Hon Hpos]; [exists t; split; [by eapply elem_of_list_lookup_2|apply Qeq_refl]|].
    split; [split; [done|]|split; [done|]].
    + destruct Hon as (id & a0 & a1 & a2 & p0 & p1 & p2 & pc' & pd' & _ & _ & _ & _ & _ & _ & _ & x0 & x1 & x2 & y & z & _ & _ & _ & Hy & Hz & Hyz & _ & _ & Et).
      apply (Qmult_le_r _ _ (inject_Z (y + z))); [by change 0%Q with (inject_Z 0); rewrite <- Zlt_Qlt|]. rewrite Et, Qmult_1_l, <- Zle_Qle. lia.
    + intros s Hs Hons. destruct (proj1 (Ht s) (conj Hons Hs)) as (t' & [j Hj]%elem_of_list_lookup & Hts). rewrite <- Hts. by apply Hl, (H1 j).
  - intros s Hs' Hons. destruct (proj1 (Ht s) (conj Hons Hs')) as (t' & Hj & _). rewrite Hs in Hj. by apply elem_of_nil in Hj.
Qed.
Print Assumptions C55_first_time.

(** By the time returned the ball is indeed no longer star-shaped: a vertex [v] there would have a tet around it that is
    not positively oriented. *)
Theorem C55_lost {V T} (m : mesh V T) v c d t y z : mesh_ok m → solid m v → interior m v → c ≠ GHOST → d ≠ GHOST → is_Some (idx_ori m c) → is_Some (idx_ori m d) →
  time_until_not_star_shaped m v c d = Some (Some t) → (0 < y + z)%Z → (t * inject_Z (y + z) == inject_Z z)%Q → ¬ sees_surface m v c d y z.
Proof.
  intros Hok Hv Hin Nc Nd [pc Ec] [pd Ed] E Hyz Ht Hsee. destruct (C55_first_time m v c d Hok Hv Hin Nc Nd ltac:(eauto) ltac:(eauto)) as (r & E' & Hr). rewrite E in E'. injection E' as <-.
  destruct Hr as (_ & (id & a0 & a1 & a2 & p0 & p1 & p2 & pc' & pd' & Ho & E0 & E1 & E2 & Ec' & Ed' & Hpass) & _). rewrite Ec in Ec'. injection Ec' as <-. rewrite Ed in Ed'. injection Ed' as <-.
  assert (within m id [v]) as Hi. { destruct Ho as (u & Eu & Hp). exists u. split; [done|]. intros x ->%elem_of_list_singleton. rewrite Hp. left. }
  destruct (first_in tri_edge_bary edge_edge_bary coplanar m v v Hok (C52_exact_tests m v v Hok Hv Hv) id v Hi) as (w & Hw & <- & Ef). destruct (around m Hok v c d pc pd Hv Hin Nc Nd Ec Ed w Hw Ef) as (b0 & b1 & b2 & q0 & q1 & q2 & Ev & Hn & Ho' & _ & F0 & F1 & F2).
  assert ([a0; a1; a2] ≡ₚ [b0; b1; b2]) as Hp.
  { destruct Ho as (u & Eu & Hp), Ho' as (u' & Eu' & Hp'). rewrite Eu in Eu'. injection Eu' as <-. rewrite Hp in Hp'. by apply Permutation_cons_inv in Hp'. }
  assert (passes_at q0 q1 q2 pc pd t) as Hpass'.
  { assert (∀ q0 q1 q2, idx_ori m b0 = Some q0 → idx_ori m b1 = Some q1 → idx_ori m b2 = Some q2 → passes_at q0 q1 q2 pc pd t) as HH; [|by apply HH].
    apply (perm3_any (λ x y z, ∀ q0 q1 q2, idx_ori m x = Some q0 → idx_ori m y = Some q1 → idx_ori m z = Some q2 → passes_at q0 q1 q2 pc pd t)) with (a := a0) (b := a1) (c := a2).
    - intros a b e H u0 u1 u2 G0 G1 G2. by apply passes_rot, H.
    - intros a b e H u0 u1 u2 G0 G1 G2. by apply passes_swap, H.
    - rewrite Hp. by apply stdpp.list.NoDup_cons in Hn as [_ ?].
    - done.
    - intros u0 u1 u2. rewrite E0, E1, E2. by intros [= <-] [= <-] [= <-]. }
  specialize (Hsee w b0 b1 b2 q0 q1 q2 pc pd Hw Ev F0 F1 F2 Ec Ed). destruct Hpass' as (_ & x0 & x1 & x2 & y' & z' & _ & _ & _ & Hy' & Hz' & Hk' & Es & Evs & Et).
  destruct (passes_relation _ _ _ _ _ _ _ _ _ _ Es Evs) as (R & _). rewrite (orient_swap02 q0 q1 q2 pc) in R.
  assert (z * (y' + z') = z' * (y + z))%Z as Ezz.
  { apply inj_eq. rewrite !inject_Z_mult, <- Ht, <- Et. ring. }
  assert (orient (vadd (vscale y pc) (vscale z pd)) (vscale (y + z) q0) (vscale (y + z) q1) (vscale (y + z) q2) =
    - ((y + z) * (y + z)) * (y * orient q0 q1 q2 pc + z * orient q0 q1 q2 pd))%Z as Eo.
  { destruct pc, pd, q0, q1, q2. unfold orient, vadd, vscale, vsub, vdot, vcross. cbn. ring. }
  rewrite Eo in Hsee. assert (y * orient q0 q1 q2 pc + z * orient q0 q1 q2 pd = 0)%Z as E0'; [|rewrite E0' in Hsee; lia].
  assert (z * y' = z' * y)%Z as Ezy by lia. set (Oc := orient q0 q1 q2 pc) in *. set (Od := orient q0 q1 q2 pd) in *.
  assert ((y' + z') * (y * Oc + z * Od) = y * (y' * Oc + z' * Od) + z * (y' * Oc + z' * Od))%Z as Ef'.
  { assert ((y' + z') * (y * Oc + z * Od) = y * (y' * Oc + z' * Od) + z * (y' * Oc + z' * Od) + (z' * y - z * y') * (Oc - Od))%Z as -> by ring. rewrite Ezy. ring. }
  assert (y' * Oc + z' * Od = 0)%Z as Z0 by lia. rewrite Z0, !Z.mul_0_r in Ef'. change (0 + 0)%Z with 0%Z in Ef'. apply Z.mul_eq_0 in Ef' as [?|?]; [lia|done].
Qed.
Print Assumptions C55_lost.

(** ** Witnesses *)
(** In a large tet, the vertex 4 near the corner 0, then 5 beyond it towards the middle of the opposite side, then 6 close to the corner 3.
    The ball around 4 has a dent at 5. *)
Definition wide_points : arr4 (pt * Z) := (A4 (Pt 0 0 0, 10) (Pt 0 0 60, 11) (Pt 0 60 0, 12) (Pt 60 0 0, 13))%Z.
Definition wide_new : mesh Z unit := default mesh_empty (mesh_new sim_z ctr_z wide_points ()).
Definition wide (os : list (op Z)) : mesh Z unit := default mesh_empty (run_ops wide_new os).
Definition wide_ops : list (op Z) :=
  [OInsert (walker_from_tet_id 0) (Pt 5 5 5) 14%Z; OInsert (walker_from_tet_id 0) (Pt 10 10 10) 15%Z; OInsert (walker_from_tet_id 6) (Pt 40 1 3) 16%Z].
Lemma wide_reachable os : all_admissibleb wide_new os = true → reachable (wide os).
Proof.
  intros H. destruct (new_facts sim_z ctr_z wide_points ()) as (m0 & E & _). assert (wide_new = m0) as En by (unfold wide_new; by rewrite E).
  apply all_admissibleb_spec in H. rewrite En in H. destruct (history_ok _ _ _ _ os m0 E H) as (m & Er & _).
  exists sim_z, ctr_z, wide_points, (), m0, os. split; [done|]. split; [done|]. unfold wide. rewrite En, Er. done.
Qed.
Definition interiorb {V T} (m : mesh V T) (v : N) : bool := forallb (λ x : N * tet T, negb (bool_decide (v ∈ list4 (t_vs x.2)) && bool_decide (GHOST ∈ list4 (t_vs x.2)))) (map_to_list (im_slots (m_tets m))).
Lemma interiorb_spec {V T} (m : mesh V T) v : interiorb m v = true → interior m v.
Proof.
  unfold interiorb. rewrite forallb_forall. intros H id (t & Et & H1) (t' & Et' & H2). rewrite Et in Et'. injection Et' as <-.
  specialize (H (id, t)). cbn [snd] in H. rewrite negb_true_iff, andb_false_iff, !bool_decide_eq_false in H. destruct H as [H|H].
  - by apply elem_of_list_In, elem_of_map_to_list.
  - apply H, H1. left.
  - apply H, H2. left.
Qed.
(** On the way from 5 to the corner 0 the surface of the ball around 5 is passed at the vertex 4, half way. *)
Example C55_witness : reachable (wide wide_ops) ∧ upright (wide wide_ops) ∧ solid (wide wide_ops) 4 ∧ solid (wide wide_ops) 5 ∧ interior (wide wide_ops) 4 ∧ interior (wide wide_ops) 5 ∧
  (∀ v, v ∈ [0; 4; 5; 6]%N → is_Some (idx_ori (wide wide_ops) v)) ∧
  (∃ t, time_until_not_star_shaped (wide wide_ops) 5 5 0 = Some (Some t) ∧ t == 1 # 2)%Q ∧
  (∃ t, time_until_not_star_shaped (wide wide_ops) 4 4 6 = Some (Some t) ∧ t == 1)%Q ∧
  time_until_not_star_shaped (wide wide_ops) 5 4 0 = Some None.
Proof.
  split; [apply wide_reachable; vm_compute; reflexivity|]. split; [apply uprightb_spec; vm_compute; reflexivity|].
  split; [apply solidb_spec; vm_compute; reflexivity|]. split; [apply solidb_spec; vm_compute; reflexivity|].
  split; [apply interiorb_spec; vm_compute; reflexivity|]. split; [apply interiorb_spec; vm_compute; reflexivity|].
  split; [intros v Hv; rewrite !elem_of_cons, elem_of_nil in Hv; destruct Hv as [->|[->|[->|[->|[]]]]]; vm_compute; eauto|].
  split; [eexists; split; vm_compute; reflexivity|]. split; [eexists; split; vm_compute; reflexivity|vm_compute; reflexivity].
Qed.

Definition blindb {V T} (m : mesh V T) (v c d : N) (y z : Z) : bool :=
  existsb (λ w, match w_verts m w with
    | Some (A4 v' a0 a1 a2) => match idx_ori m a0, idx_ori m a1, idx_ori m a2, idx_ori m c, idx_ori m d with
      | Some p0, Some p1, Some p2, Some pc, Some pd => N.eqb v' v && Z.leb (orient (vadd (vscale y pc) (vscale z pd)) (vscale (y + z) p0) (vscale (y + z) p1) (vscale (y + z) p2)) 0
      | _, _, _, _, _ => false
      end
    | None => false
    end) (walkers m).
Lemma blindb_spec {V T} (m : mesh V T) v c d y z : blindb m v c d y z = true → sees_surface m v c d y z → False.
Proof.
  unfold blindb. rewrite existsb_exists. intros (w & Hw%elem_of_list_In%walkers_spec & H) Hs. destruct (w_verts m w) as [[v' a0 a1 a2]|] eqn:Ev; [|done].
  destruct (idx_ori m a0) as [p0|] eqn:E0; [|done]. destruct (idx_ori m a1) as [p1|] eqn:E1; [|done]. destruct (idx_ori m a2) as [p2|] eqn:E2; [|done].
  destruct (idx_ori m c) as [pc|] eqn:Ec; [|done]. destruct (idx_ori m d) as [pd|] eqn:Ed; [|done]. apply andb_true_iff in H as [->%N.eqb_eq H%Z.leb_le].
  specialize (Hs w a0 a1 a2 p0 p1 p2 pc pd Hw Ev E0 E1 E2 Ec Ed). lia.
Qed.

(** Before the time returned, the ball need not be star-shaped: on the way from 4 to 6 it no longer is half way, where the point is
    behind the plane of the triangle (5, 1, 2), but not in that triangle.  The function says 1. *)
Theorem C55_star_shaped_until_then_refuted : ¬ (∀ (m : mesh Z unit) v d t y z, reachable m → upright m → solid m v → interior m v → d ≠ GHOST → is_Some (idx_ori m d) →
  time_until_not_star_shaped m v v d = Some (Some t) → (0 < y + z)%Z → (0 <= z)%Z → (inject_Z z < t * inject_Z (y + z))%Q → sees_surface m v v d y z).
Proof.
  intros H. destruct C55_witness as (W1 & W2 & W3 & _ & W4 & _ & W5 & _ & (t & W6 & W7) & _).
  assert (blindb (wide wide_ops) 4 4 6 1 1 = true) as Hb by (vm_cast_no_check (eq_refl true)).
  refine (blindb_spec (wide wide_ops) 4 4 6 1 1 Hb (H (wide wide_ops) 4%N 6%N t 1%Z 1%Z W1 W2 W3 W4 _ (W5 6%N _) W6 _ _ _)).
  - discriminate.
  - right; right; right; left.
  - lia.
  - lia.
  - rewrite W7. reflexivity.
Qed.
Print Assumptions C55_star_shaped_until_then_refuted.
