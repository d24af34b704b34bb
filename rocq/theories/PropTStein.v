(** Property C57: recovering a triangle by vertices inserted on it. *)
From stdpp Require Import base numbers list gmap option relations.
From Coq Require Import NArith ZArith Lia.
From Verif Require Import IdMapModel IdMapProofs WalkerModel WalkerSpec MeshModel MeshOps MeshSpec MeshCheck HistSpec HistCheck History FlipSpec GeoModel GeoSpec IterModel IterLookup CavModel CavSpec InsModel InsSpec InsCheck DelModel DelSpec DelOk QualModel CrossModel CrossOk ProgBase ProgModel ProgSpec RecSpec
  WayModel WaySpec WayOk MidModel MidSpec SteinModel SteinSpec SteinOk WayGeo GeoProofs PropCross PropMesh PropCav PropDel PropRec PropWay PropMid PropStein TSteinModel TSteinSpec TSteinOk TSteinLoop.
Local Open Scope nat_scope.

Notation exact_tri_steiner := (recover_tri_steiner tri_edge_bary edge_edge_bary coplanar).
Notation exact_sound_tri := (sound_tri tri_edge_bary edge_edge_bary coplanar).
Notation exact_neat_tri := (neat_tri tri_edge_bary edge_edge_bary coplanar).

(** Whatever the tests, the rounding and the triangulation of the plane, if the latter picks edges that are left, and all cavities
    on the way can be filled: when the recovery returns, the sides of the triangle are chains of locked edges over the vertices
    returned, and the pieces are locked triangles over these and the other vertices returned.  All of them are new and have the
    values of corners of the triangle; no other vertex is lost or changed; other edges are locked if they were before; other
    triangles are not locked if they were not, and they stay locked if their edges are locked. *)
Theorem C57_recovers {V T C} tbary ebary flat round (eng : engine C) fuel depth n (m : mesh V T) t0 t1 t2 m' l inner pieces :
  (∀ m a b, mesh_ok m → solid m a → solid m b → even_handed tbary ebary flat m a b) →
  (∀ c E e, e_pick eng c E = Some e → e ∈ E) →
  ready m → solid m t0 → solid m t1 → solid m t2 → sound_tri tbary ebary flat round eng depth n m (t0, t1, t2) →
  recover_tri_steiner tbary ebary flat round eng fuel depth n m (t0, t1, t2) = Some (m', l, inner, pieces) →
  tri_recovered m (t0, t1, t2) m' l inner pieces.
Proof. intros Hev Hp Hr H0 H1 H2 Hs E. by apply (recover_tri_ok tbary ebary flat round eng Hp Hev fuel depth n m t0 t1 t2). Qed.
Print Assumptions C57_recovers.

(** With the exact tests. *)
Theorem C57_exact {V T C} round (eng : engine C) fuel depth n (m : mesh V T) t0 t1 t2 m' l inner pieces :
  (∀ c E e, e_pick eng c E = Some e → e ∈ E) →
  ready m → solid m t0 → solid m t1 → solid m t2 → exact_sound_tri round eng depth n m (t0, t1, t2) →
  exact_tri_steiner round eng fuel depth n m (t0, t1, t2) = Some (m', l, inner, pieces) →
  tri_recovered m (t0, t1, t2) m' l inner pieces.
Proof. apply C57_recovers. intros. by apply C52_exact_tests. Qed.
Print Assumptions C57_exact.

(** ** The border *)
Lemma fst_segments a l b : (segments a l b).*1 = a :: l.
Proof. revert a. induction l as [|x l IH]; intros a; cbn; [done|]. f_equal. apply IH. Qed.
Lemma fst_rim t0 t1 t2 l : (rim (t0, t1, t2) l).*1 = t0 :: l.1.1 ++ t1 :: l.1.2 ++ t2 :: l.2.
Proof. unfold rim. cbn [fst snd]. rewrite !fmap_app, !fst_segments. by cbn [app]. Qed.
Lemma times_nodup e l : NoDup l → times e l = here (list_to_set l) e.
Proof.
  intros Hn. unfold here. induction Hn as [|x l Hx Hn IH].
  - rewrite decide_False by set_solver. done.
  - rewrite times_cons, IH. destruct (decide (x = e)) as [->|Hne].
    + rewrite (decide_False (P := e ∈ list_to_set l)) by set_solver. by rewrite decide_True by set_solver.
    + destruct (decide (e ∈ list_to_set l)), (decide (e ∈ list_to_set (x :: l))); set_solver.
Qed.

(** If no piece is laid on the wrong side, the pieces fill the triangle: their sides cancel out, but for the way around. *)
Theorem C57_boundary {V T C} tbary ebary flat round (eng : engine C) fuel depth n (m : mesh V T) t0 t1 t2 m' l inner pieces :
  (∀ m a b, mesh_ok m → solid m a → solid m b → even_handed tbary ebary flat m a b) →
  (∀ c E e, e_pick eng c E = Some e → e ∈ E) →
  ready m → solid m t0 → solid m t1 → solid m t2 → NoDup [t0; t1; t2] → sound_tri tbary ebary flat round eng depth n m (t0, t1, t2) →
  neat_tri tbary ebary flat round eng depth n m (t0, t1, t2) →
  recover_tri_steiner tbary ebary flat round eng fuel depth n m (t0, t1, t2) = Some (m', l, inner, pieces) →
  ∀ a b, border pieces a b = (times (a, b) (rim (t0, t1, t2) l) - times (b, a) (rim (t0, t1, t2) l))%Z.
Proof.
  intros Hev Hp Hr H0 H1 H2 Hnd Hs Hneat E a b.
  destruct (recover_tri_ok tbary ebary flat round eng Hp Hev fuel depth n m t0 t1 t2 m' l inner pieces Hr H0 H1 H2 Hs E) as (R & m3 & st0 & st & E3 & E0 & Hr3 & I & Ht0 & Ee & Ep & Ei & HR & Hemp & Em & Epp & _).
  pose proof (rounds_flow tbary round eng Hp m3 t0 _ st0 st a b Hr3 Ht0 I) as F.
  assert (NoDup (rim (t0, t1, t2) l)) as HnR.
  { apply (NoDup_fmap_1 fst). rewrite fst_rim. pose proof (tr_extends _ _ _ _ _ _ R) as X. pose proof (ex_distinct _ _ _ _ _ X) as Hd.
    assert (∀ v, v ∈ [t0; t1; t2] → v ∉ l.1.1 ++ l.1.2 ++ l.2 ++ inner) as Hnew.
    { intros v Hv Hin. destruct (ex_new _ _ _ _ _ X v Hin) as [Hno _]. assert (solid m v) as Hsv by (rewrite !elem_of_cons, elem_of_nil in Hv; destruct Hv as [-> | [-> | [-> | []]]]; done).
      destruct (extends_value m m [] [] [] v (rd_ok _ Hr) (extends_refl _ Hr) Hsv) as (_ & _ & [x Hx]). congruence. }
    assert (t0 :: l.1.1 ++ t1 :: l.1.2 ++ t2 :: l.2 ≡ₚ [t0; t1; t2] ++ l.1.1 ++ l.1.2 ++ l.2) as -> by solve_Permutation.
    apply NoDup_app. split; [done|]. split; [intros v Hv; specialize (Hnew v Hv); set_solver|]. rewrite !app_assoc in Hd. apply NoDup_app in Hd as [Hd _]. by rewrite <- app_assoc in Hd. }
  rewrite !times_nodup by done. rewrite Ep, Hemp, Epp, Ee in F. change (border [] a b) with 0%Z in F. unfold flow in F.
  assert (∀ e, here ∅ e = 0%Z) as H0e by (intros e; unfold here; by rewrite decide_False by set_solver). rewrite !H0e in F. assert (∀ x y z : Z, 0 - 0 + x = y - z + 0 → x = y - z)%Z as Hl by lia. apply Hl, F; [|done].
  intros st1 HR1. split; [exact (proj2 Hs m3 l st0 st1 E3 E0 HR1)|exact (Hneat m3 l st0 st1 E3 E0 HR1)].
Qed.
Print Assumptions C57_boundary.

(** ** Where the vertices are *)
(** The point [P / k] is on the segment or triangle with the corners [qs], the rim included. *)
Definition on_hull (P : pt) (k : Z) (qs : list pt) : Prop := ∃ ws, length ws = length qs ∧ Forall (λ w, 0 ≤ w)%Z ws ∧
  foldr Z.add 0%Z ws = Z.abs k ∧ foldr vadd (Pt 0 0 0) (zip_with vscale ws qs) = vscale (Z.sgn k) P.

Lemma cross_first_test {V T A} (test : mesh V T → N * N → option (option A)) m v0 v1 l e a : cross_search test m v0 v1 = Some ((e, a) :: l) → test m e = Some (Some a).
Proof.
  unfold cross_search. intros (wo & _ & H)%bind_Some. apply bind_Some in H as (w & _ & H). apply bind_Some in H as (ring & _ & H). apply bind_Some in H as (first & Ef & H).
  destruct first as [[[w' e'] a']|]; [|done]. apply bind_Some in H as (? & _ & H). apply bind_Some in H as (? & _ & H). apply bind_Some in H as (? & _ & H). injection H as -> -> _.
  clear -Ef. induction (to_opp_edge <$> ring) as [|u us IH]; cbn [edge_raw] in Ef; [done|]. apply bind_Some in Ef as (p & _ & Ef). apply bind_Some in Ef as (r & Er & Ef).
  destruct r; [by injection Ef as -> -> ->|by apply IH].
Qed.
Lemma tris_first_hit {V T} (bary : mesh V T → N → N → N → N → N → option (list Z)) all tris m e b t : tris_first bary all tris m e = Some (Some (b, t)) →
  t ∈ tris ∧ ∃ bs, bary m t.1.1 t.1.2 t.2 e.1 e.2 = Some bs ∧ b = take 3 bs ∧ (Forall (λ c, 0 ≤ c)%Z bs ∨ Forall (λ c, c ≤ 0)%Z bs).
Proof.
  induction tris as [|x tris IH]; cbn [tris_first]; [done|]. intros (bs & Eb & H)%bind_Some. destruct (tris_hit all e bs) eqn:Eh.
  - injection H as <- <-. split; [left|]. exists bs. split; [done|]. split; [done|]. unfold tris_hit in Eh. apply orb_true_iff in Eh as [[_ Eh]%andb_true_iff|Eh].
    + left. apply list.Forall_forall. intros c Hc. rewrite forallb_forall in Eh. by apply Z.leb_le, Eh, elem_of_list_In.
    + right. apply list.Forall_forall. intros c Hc. rewrite forallb_forall in Eh. by apply Z.leb_le, Eh, elem_of_list_In.
  - destruct (IH H) as [? ?]. split; [by right|done].
Qed.

(** Each of the other vertices was put, when its turn came, at the point where an edge of the mesh met a triangle of the plane's
    triangulation: this point is on both, if the edge does not end at the ghost vertex and does not lie in the plane. *)
Theorem C57_places {V T C} round (eng : engine C) fuel depth n (m : mesh V T) t0 t1 t2 m' l inner pieces s :
  (∀ c E e, e_pick eng c E = Some e → e ∈ E) →
  ready m → solid m t0 → solid m t1 → solid m t2 → exact_sound_tri round eng depth n m (t0, t1, t2) →
  exact_tri_steiner round eng fuel depth n m (t0, t1, t2) = Some (m', l, inner, pieces) → s ∈ inner →
  ∃ (st : tstate V T C) edge tris tri e P k qs, e_region eng (ts_plane st) edge = Some tris ∧ tri ∈ tris ∧ joined (ts_mesh st) e.1 e.2 ∧
    mapM (position (ts_mesh st)) [tri.1.1; tri.1.2; tri.2] = Some qs ∧ v_pos <$> im_get (m_verts m') s = Some (round (P, k)) ∧
    (GHOST ∉ [e.1; e.2] → ∃ ps, mapM (position (ts_mesh st)) [e.1; e.2] = Some ps ∧ (k ≠ 0%Z → on_hull P k qs ∧ on_hull P k ps)).
Proof.
  intros Hp Hr H0 H1 H2 Hs E Hin. assert (∀ (m : mesh V T) a b, mesh_ok m → solid m a → solid m b → even_handed tri_edge_bary edge_edge_bary coplanar m a b) as Hev by (intros; by apply C52_exact_tests).
  destruct (recover_tri_ok _ _ _ round eng Hp Hev fuel depth n m t0 t1 t2 m' l inner pieces Hr H0 H1 H2 Hs E) as (R & m3 & st0 & st & E3 & E0 & Hr3 & I & Ht0 & Ee & Ep & Ei & HR & Hemp & Em & Epp & Eii).
  destruct (rounds_places tri_edge_bary round eng Hp m3 t0 _ st0 st Hr3 Ht0 I) with (s := s) as [Hf|(st1 & edge & [e [P k]] & HR1 & Hr1 & En & Hsol & Hje & Hj & Hpos)].
  { intros st1 HR1. exact (proj2 Hs m3 l st0 st1 E3 E0 HR1). }
  { done. }
  { congruence. }
  { rewrite Ei in Hf. by apply elem_of_nil in Hf. }
  unfold tri_next in En. apply bind_Some in En as (edge' & _ & En). apply bind_Some in En as (tris & Et & En). apply bind_Some in En as (L & EL & En). injection En as -> Eh.
  destruct L as [|x L]; [done|]. injection Eh as ->. unfold tris_intersections in EL. apply bind_Some in EL as (r & Er & EL). unfold tris_intersections_raw in Er.
  destruct r as [|[e' [b [[v0 v1] v2]]] r]; cbn [mapM mbind option_bind] in EL; [done|]. pose proof (cross_first_test _ _ _ _ _ _ _ Er) as Htest.
  apply bind_Some in EL as (y & Ey & EL). apply bind_Some in EL as (L' & _ & EL). injection EL as -> ->.
  apply bind_Some in Ey as (p0 & Ep0 & Ey). apply bind_Some in Ey as (p1 & Ep1 & Ey). apply bind_Some in Ey as (p2 & Ep2 & Ey). apply (inj Some) in Ey. 
  pose proof (f_equal fst Ey) as Hee. cbn [fst] in Hee. subst e'. pose proof (f_equal snd Ey) as HP. cbn [snd] in HP. clear Ey.
  destruct (tris_first_hit _ _ _ _ _ _ _ Htest) as (Htin & bs & Ebs & -> & Hsg). cbn [fst snd] in *.
  exists st1, edge, tris, (v0, v1, v2), e, P, k, [p0; p1; p2]. split; [done|]. split; [done|]. split; [done|]. cbn [fst snd]. split; [cbn [mapM mbind option_bind]; by rewrite Ep0, Ep1, Ep2|].
  subst m'. split; [done|]. intros Hg. destruct e as [e0 e1]. cbn [fst snd] in *. pose proof (rd_ok _ Hr1) as Hok1.
  assert (∀ v, v ∈ [e0; e1] → is_Some (position (ts_mesh st1) v)) as Hknown.
  { intros v Hv. assert (v ≠ GHOST) as Hvg by (intros ->; done). rewrite position_ori by done. apply attached_known; [done|]. destruct Hj as (w & Hw & Ew). destruct (IterProofs.wverts_of_pair _ w e0 e1 Hw Ew) as (c & d & Evv).
    rewrite !elem_of_cons, elem_of_nil in Hv. destruct Hv as [-> | [-> | []]].
    - exists w. split; [done|]. by eapply Flip44Ok.wverts_first.
    - exists (to_twin_edge w). split; [by apply Flip44Ok.valid_twin|]. eapply Flip44Ok.wverts_first. by apply Flip44Ok.wverts_twin. }
  destruct (Hknown e0) as [p3 Ep3]; [left|]. destruct (Hknown e1) as [p4 Ep4]; [right; left|]. exists [p3; p4]. split; [cbn [mapM mbind option_bind]; by rewrite Ep3, Ep4|]. intros Hk.
  destruct (teb_inv _ _ _ _ _ _ _ Ebs) as (b0 & b1 & b2 & b3 & b4 & -> & _).
  assert (∀ v p, position (ts_mesh st1) v = Some p → v ≠ GHOST) as Hng.
  { intros v p Ev ->. unfold position in Ev. by rewrite (ok_ghost _ Hok1) in Ev. }
  destruct (C51_point (ts_mesh st1) v0 v1 v2 e0 e1 p0 p1 p2 p3 p4 b0 b1 b2 b3 b4) as [K1 K2]; [|rewrite <- position_ori; eauto..|done|].
  { rewrite !not_elem_of_cons. split_and!; try apply not_elem_of_nil; apply not_eq_sym; eauto. }
  unfold point_in in HP. cbn [take nth] in HP. injection HP as EP Ek. cbn [take nth] in Ek.
  assert (vadd (vadd (vscale (b0 + b1 + b2) p0) (vscale b1 (vsub p1 p0))) (vscale b2 (vsub p2 p0)) = P) as EP' by exact EP. clear EP. rewrite pt_eq in EP', K2. subst k.
  destruct p0 as [x0 y0 z0], p1 as [x1 y1 z1], p2 as [x2 y2 z2], p3 as [x3 y3 z3], p4 as [x4 y4 z4], P as [X Y Z]. unfold scale, vadd, vsub, vscale in EP', K2. cbn [px py pz] in EP', K2.
  destruct EP' as (P1 & P2 & P3), K2 as (Q1 & Q2 & Q3). 
  assert (∃ g, (g = 1 ∨ g = -1) ∧ Z.sgn (b0 + b1 + b2) = g ∧ Z.abs b0 = g * b0 ∧ Z.abs b1 = g * b1 ∧ Z.abs b2 = g * b2 ∧ Z.abs b3 = g * b3 ∧ Z.abs b4 = g * b4)%Z as (g & Hg1 & Hsgn & A0 & A1 & A2 & A3 & A4').
  { destruct Hsg as [Hsg|Hsg]; rewrite !list.Forall_cons in Hsg; destruct Hsg as (? & ? & ? & ? & ? & _); [exists 1%Z|exists (-1)%Z]; lia. }
  assert (Z.abs (b0 + b1 + b2) = g * (b0 + b1 + b2))%Z as Hab by lia.
  split.
  - exists [Z.abs b0; Z.abs b1; Z.abs b2]. split; [done|]. split; [repeat constructor; lia|]. split; [cbn; lia|]. rewrite Hsgn, A0, A1, A2, pt_eq. unfold vscale, vadd. cbn. rewrite <- P1, <- P2, <- P3. split; [|split]; ring.
  - exists [Z.abs b3; Z.abs b4]. split; [done|]. split; [repeat constructor; lia|]. split; [cbn; lia|]. rewrite Hsgn, A3, A4', pt_eq. unfold vscale, vadd. cbn. rewrite <- P1, <- P2, <- P3, Q1, Q2, Q3. split; [|split]; ring.
Qed.
Print Assumptions C57_places.

(** ** A run *)
(** Runs can be checked. *)
Section check.
  Context {V T C : Type} (round : ratio → pt) (eng : engine C) (t0 : N).
  Definition round_okb (st : tstate V T C) : bool :=
    match tri_next tri_edge_bary eng st with
    | Some (_, Some inter) =>
      match tri_cavity round (ts_mesh st) t0 inter with
      | Some (m1, s, B, E) => N.ltb (im_npi (m_verts (ts_mesh st))) GHOST && mesh_check 100 m1 && surfaceb m1 E && roomyb m1 (N.of_nat (length B)) (N.of_nat (3 * length B)) && no_inner_vertexb m1 E
      | None => true
      end
    | _ => true
    end &&
    match tri_step tri_edge_bary round eng t0 st with
    | Some st' => match list.last (ts_pieces st') with
      | Some p => forallb (λ e : N * N, bool_decide (e ∈ ts_edges st) || bool_decide ((e.2, e.1) ∉ ts_edges st)) (sides_of p) || bool_decide (ts_pieces st' = ts_pieces st)
      | None => true end
    | None => true
    end.
  Lemma round_check st : round_okb st = true → sound_round tri_edge_bary round eng t0 st ∧ neat_round tri_edge_bary round eng t0 st.
  Proof.
    unfold round_okb. rewrite andb_true_iff. intros [H1 H2]. split.
    - intros edge inter m1 s B E En Ec. rewrite En, Ec, !andb_true_iff in H1. destruct H1 as ((((K1%N.ltb_lt & K2%mesh_check_ok) & K3%surfaceb_spec) & K4%roomyb_spec) & K5).
      split; [done|]. split; [done|done|]. by apply no_inner_vertexb_spec.
    - intros st' p Es Ep x y Hxy Hn. rewrite Es, Ep, last_snoc in H2. apply orb_true_iff in H2 as [H2|H2%bool_decide_eq_true].
      + rewrite forallb_forall in H2. specialize (H2 (x, y) (proj1 (elem_of_list_In _ _) Hxy)). apply orb_true_iff in H2 as [H2%bool_decide_eq_true|H2%bool_decide_eq_true]; done.
      + exfalso. apply (f_equal length) in H2. rewrite app_length in H2. cbn in H2. lia.
  Qed.
  Fixpoint rounds_okb (fuel : nat) (st : tstate V T C) : bool :=
    match fuel with
    | 0 => false
    | S fuel => round_okb st && (bool_decide (ts_edges st = ∅) || match tri_step tri_edge_bary round eng t0 st with Some st' => rounds_okb fuel st' | None => true end)
    end.
  Lemma rounds_check fuel : ∀ st st', rounds_okb fuel st = true → rtc (tri_round tri_edge_bary round eng t0) st st' → round_okb st' = true.
  Proof.
    induction fuel as [|fuel IH]; intros st st'; [done|]. cbn [rounds_okb]. rewrite andb_true_iff. intros [H1 H2] R. destruct R as [st|st st1 st' [Hne E] R]; [done|].
    rewrite E in H2. apply orb_true_iff in H2 as [H2%bool_decide_eq_true|H2]; [done|]. by apply (IH st1).
  Qed.
End check.
Definition tri_okb {V T C} (round : ratio → pt) (eng : engine C) (fuel depth n : nat) (m : mesh V T) (t : N * N * N) : bool :=
  let '(t0, t1, t2) := t in
  run_okb round depth n m t0 t1 &&
  match exact_steiner round depth n m t0 t1 with Some (m1, _) => run_okb round depth n m1 t1 t2 &&
    match exact_steiner round depth n m1 t1 t2 with Some (m2, _) => run_okb round depth n m2 t2 t0 | None => true end
  | None => true end &&
  match recover_sides tri_edge_bary edge_edge_bary coplanar round depth n m t with
  | Some (m3, l) => match tri_start eng m3 t l with Some st => rounds_okb round eng t0 fuel st | None => true end
  | None => true
  end.
Lemma tri_check {V T C} round (eng : engine C) fuel depth n (m : mesh V T) t : tri_okb round eng fuel depth n m t = true →
  exact_sound_tri round eng depth n m t ∧ exact_neat_tri round eng depth n m t.
Proof.
  destruct t as [[t0 t1] t2]. unfold tri_okb. rewrite !andb_true_iff. intros [[H1 H2] H3].
  assert (∀ m1 l st0 st, recover_sides tri_edge_bary edge_edge_bary coplanar round depth n m (t0, t1, t2) = Some (m1, l) → tri_start eng m1 (t0, t1, t2) l = Some st0 →
    rtc (tri_round tri_edge_bary round eng t0) st0 st → sound_round tri_edge_bary round eng t0 st ∧ neat_round tri_edge_bary round eng t0 st) as H.
  { intros m1 l st0 st E1 E2 R. rewrite E1, E2 in H3. by apply round_check, (rounds_check round eng t0 fuel st0). }
  split; [split|].
  - split; [by apply (run_check round depth n m t0 t1)|]. intros m1 l0 E0. rewrite E0, andb_true_iff in H2. destruct H2 as [H2 H4]. split; [by apply (run_check round depth n m1 t1 t2)|].
    intros m2 l1 E1. rewrite E1 in H4. by apply (run_check round depth n m2 t2 t0).
  - intros m1 l st0 st E1 E2 R. by apply (H m1 l st0 st).
  - intros m1 l st0 st E1 E2 R. by apply (H m1 l st0 st).
Qed.

(** A simple triangulation of the plane, seen along an axis: the piece at an edge has the newest vertex on its left. *)
Definition seen (c : list (N * pt)) (v : N) : pt := default (Pt 0 0 0) (snd <$> List.find (λ x, N.eqb x.1 v) c).
Definition seen_left (c : list (N * pt)) (a b v : N) : bool :=
  let '(p, q, r) := (seen c a, seen c b, seen c v) in
  (0 <? (px q - px p) * (py r - py p) - (py q - py p) * (px r - px p))%Z.
Definition simple_engine : engine (list (N * pt)) := {|
  e_start := λ _ places _, Some (reverse places);
  e_pick := λ _ E, head (elements E);
  e_region := λ c e, (λ x : N * pt, [(e.1, e.2, x.1)]) <$> List.find (λ x : N * pt, seen_left c e.1 e.2 x.1) c;
  e_insert := λ c v p, (v, p) :: c;
  e_left := seen_left;
  e_constrain := λ c _ _, Some c |}.
Lemma simple_picks c E e : e_pick simple_engine c E = Some e → e ∈ E.
Proof. cbn. intros H. apply elem_of_elements. destruct (elements E); [done|]. injection H as ->. left. Qed.

(** The edge from 0 to 4 crosses the triangle (1, 3, 2) at (2, 1, 1): the vertex 5 is put there, and the triangle is made of
    three pieces. *)
Definition tri_ops : list (op Z) := [OTrack true; OInsert (walker_from_tet_id 1) (Pt 4 2 2) 14%Z; OFlip23 (Walker 0 0)].
Example C57_witness : ready (ex tri_ops) ∧ solid (ex tri_ops) 1 ∧ solid (ex tri_ops) 3 ∧ solid (ex tri_ops) 2 ∧
  exact_sound_tri to_point simple_engine 3 100 (ex tri_ops) (1, 3, 2)%N ∧ exact_neat_tri to_point simple_engine 3 100 (ex tri_ops) (1, 3, 2)%N ∧
  joined (ex tri_ops) 0 4 ∧ ¬ has_tri (ex tri_ops) 1 3 2 ∧
  match exact_tri_steiner to_point simple_engine 10 3 100 (ex tri_ops) (1, 3, 2)%N with
  | Some (m', l, inner, pieces) => l = ([], [], []) ∧ inner = [5]%N ∧ pieces = [(1, 3, 5); (5, 3, 2); (1, 5, 2)]%N ∧ v_pos <$> im_get (m_verts m') 5 = Some (Pt 2 1 1)
  | None => False
  end.
Proof.
  assert (reachable (ex tri_ops)) as Hr by (apply ex_reachable; vm_compute; reflexivity).
  assert (tri_okb to_point simple_engine 10 3 100 (ex tri_ops) (1, 3, 2)%N = true) as Hc by (vm_compute; reflexivity).
  split; [by apply C48_histories, PropIns.reachable_built|]. split; [apply solidb_spec; vm_compute; reflexivity|]. split; [apply solidb_spec; vm_compute; reflexivity|]. split; [apply solidb_spec; vm_compute; reflexivity|].
  destruct (tri_check _ _ _ _ _ _ _ Hc) as [H1 H2]. split; [exact H1|]. split; [exact H2|]. clear H1 H2 Hc.
  split; [|split].
  - apply joinedb_spec. vm_compute. reflexivity.
  - assert (has_trib (ex tri_ops) 1 3 2 = false) as Hj by (vm_compute; reflexivity). intros H%has_trib_spec. by rewrite Hj in H.
  - vm_compute. repeat split.
Qed.

(** A locked triangle whose edges are not locked can be lost: the check that no locked triangle is removed looks at the lock of an
    edge (src/tet.rs 2758-2763). *)
Definition lost_ops : list (op Z) := tri_ops ++ [OLockTri (Walker 0 0) true].
Theorem C57_locked_triangle_kept_refuted : ¬ (∀ (m : mesh Z unit) t m' l inner pieces, ready m → solid m t.1.1 → solid m t.1.2 → solid m t.2 →
  exact_sound_tri to_point simple_engine 3 100 m t → exact_tri_steiner to_point simple_engine 10 3 100 m t = Some (m', l, inner, pieces) →
  ∀ a b c, locked_tri m (a, b, c) → locked_tri m' (a, b, c)).
Proof.
  intros H. assert (reachable (ex lost_ops)) as Hr by (apply ex_reachable; vm_compute; reflexivity).
  assert (tri_okb to_point simple_engine 10 3 100 (ex lost_ops) (1, 3, 2)%N = true) as Hc by (vm_compute; reflexivity).
  assert (match exact_tri_steiner to_point simple_engine 10 3 100 (ex lost_ops) (1, 3, 2)%N with Some (m', _, _, _) => negb (has_trib m' 4 0 3) | None => false end = true) as Hm by (vm_compute; reflexivity).
  destruct (exact_tri_steiner to_point simple_engine 10 3 100 (ex lost_ops) (1, 3, 2)%N) as [[[[m' l] inner] pieces]|] eqn:E; [|discriminate Hm].
  assert (locked_tri m' (4, 0, 3)%N) as (w & Hw & Et & _).
  { apply (H (ex lost_ops) (1, 3, 2)%N m' l inner pieces).
    - by apply C48_histories, PropIns.reachable_built.
    - apply solidb_spec. vm_compute. reflexivity.
    - apply solidb_spec. vm_compute. reflexivity.
    - apply solidb_spec. vm_compute. reflexivity.
    - by apply (tri_check _ _ _ _ _ _ _ Hc).
    - exact E.
    - exists (Walker 0 0). split; [split; [vm_compute; eauto|cbn; lia]|]. split; vm_compute; reflexivity. }
  clear H Hr Hc E. assert (has_tri m' 4 0 3) as Ht by exact (ex_intro _ w (conj Hw Et)). apply has_trib_spec in Ht. rewrite Ht in Hm. discriminate Hm.
Qed.
Print Assumptions C57_locked_triangle_kept_refuted.
