(** C63: what moving the inserted vertices off a triangle does with the vertices, and what it returns. *)
From stdpp Require Import base numbers list gmap option.
From Coq Require Import NArith ZArith QArith Lia.
From Verif Require Import IdMapModel IdMapProofs WalkerModel MeshModel MeshOps MeshSpec HistSpec HistCheck IterModel Marks GeoModel TolModel TransModel MoveModel FromKept MoveOk PropMesh PropRec PropTime.
Local Open Scope nat_scope.

(** ** Specification *)
Section spec.
  Context {V T : Type} (scaled : option Q → pt → pt → pt).
  Implicit Types (m : mesh V T).
  (** The place and value of a vertex. *)
  Definition place_value m (v : N) : option (pt * V) := (λ vt, (v_pos vt, v_val vt)) <$> im_get (m_verts m) v.
  (** [p] and its twin [s] are moved from the place of [p] in the directions [up] and [down], for times that may differ; both have the value of [p]. *)
  Definition parted m m' (len : pt → Prop) (up down : pt) (p s : N) : Prop :=
    ∃ at_ x e t1 t2, len e ∧ place_value m p = Some (at_, x) ∧
      place_value m' p = Some (vadd at_ (scaled t1 e up), x) ∧ place_value m' s = Some (vadd at_ (scaled t2 e down), x).
  (** Each with its twin. *)
  Definition with_twins (ps zs : list N) : list N := concat (zip_with (λ p z, [p; z]) ps zs).
  (** The vertices on the side from [a] to [b] part: both go off the side along the plane, in the direction [tan], and to the two sides of the plane. *)
  Definition side_parted (unit : pt → pt) m m' (normal : pt) (a b : N) (ps zs : list N) : Prop :=
    ∃ pa pb, vpos m a = Some pa ∧ vpos m b = Some pb ∧
      let tan := unit (vcross (vsub pb pa) normal) in Forall2 (parted m m' (eq (vsub pb pa)) (vadd normal tan) (vsub tan normal)) ps zs.
End spec.

Lemma quads_p E up down (ps zs : list N) : length zs = length ps → q_p <$> quads E up down ps zs = ps.
Proof. revert zs. induction ps as [|p ps IH]; intros [|z zs]; cbn; try done. intros [= H]. f_equal. by apply IH. Qed.
Lemma quads_s E up down (ps zs : list N) : length zs = length ps → q_s <$> quads E up down ps zs = zs.
Proof. revert zs. induction ps as [|p ps IH]; intros [|z zs]; cbn; try done. intros [= H]. f_equal. by apply IH. Qed.
Lemma quads_parted {V T} scaled (m m' : mesh V T) E up down (ps zs : list N) : length zs = length ps →
  (∀ q, q ∈ quads E up down ps zs → places scaled (vdata m) (vdata m') q) → Forall2 (parted scaled m m' E up down) ps zs.
Proof.
  revert zs. induction ps as [|p ps IH]; intros [|z zs]; cbn; try done. intros [= Hl] H. constructor; [|apply IH; [done|]; intros q Hq; apply H; by right].
  destruct (H (Quad p z E up down)) as (po & x & ev & t1 & t2 & H1); [left|]. exists po, x, ev, t1, t2. exact H1.
Qed.
Lemma in_pairs v ps zs : length zs = length ps → v ∈ with_twins ps zs ↔ v ∈ ps ∨ v ∈ zs.
Proof.
  revert zs. induction ps as [|p ps IH]; intros [|z zs]; try done; [intros _; cbn; set_solver|]. intros [= Hl]. specialize (IH zs Hl). unfold with_twins in *. cbn. set_solver.
Qed.
Lemma pos_place {V T} (m : mesh V T) v : vpos m v = fst <$> vdata m v.
Proof. unfold vpos, vdata. by destruct (im_get (m_verts m) v). Qed.

(** Whatever the triangulation in the plane answers: if the function returns, it has made one new vertex for each given one, and it returns each given vertex followed
    by its twin.  A given vertex and its twin have the value of the given one and lie in the two directions from where it was.  No other vertex has changed its place
    or value, and there are no further ones. *)
Theorem C63_twins {V T C} (ops : cdt_ops C) (dflt : T) unit scaled (m : mesh V T) t0 t1 t2 s0 s1 s2 sf cdt vmap imap m' new n :
  let given := s0 ++ s1 ++ s2 ++ sf in
  im_wf (m_verts m) → (im_npi (m_verts m) + N.of_nat (length given) < u32_mod)%N →
  NoDup (t0 :: t1 :: t2 :: given) → (∀ p, p ∈ given → is_Some (im_get (m_verts m) p)) →
  tri_normal m t0 t1 t2 = Some n →
  move_inside ops dflt unit scaled m (t0, t1, t2) s0 s1 s2 sf cdt vmap imap = Some (m', new) →
  ∃ z0 z1 z2 zf,
    new = with_twins s0 z0 ++ with_twins s1 z1 ++ with_twins s2 z2 ++ with_twins sf zf ∧
    NoDup (z0 ++ z1 ++ z2 ++ zf) ∧ (∀ z, z ∈ z0 ++ z1 ++ z2 ++ zf → im_get (m_verts m) z = None ∧ z ≠ GHOST) ∧
    side_parted scaled unit m m' (unit n) t0 t1 s0 z0 ∧ side_parted scaled unit m m' (unit n) t1 t2 s1 z1 ∧ side_parted scaled unit m m' (unit n) t2 t0 s2 z2 ∧
    Forall2 (parted scaled m m' (λ _, True) (unit n) (vsub (Pt 0 0 0) (unit n))) sf zf ∧
    ∀ v, v ∉ new → place_value m' v = place_value m v.
Proof.
  cbv zeta. intros Hwf Hroom Hnd Hex En E. unfold move_inside in E. rewrite En in E. cbn [mbind option_bind] in E. cbv zeta in E.
  set (normal := unit n) in *. rewrite !app_length in Hroom.
  assert (∀ t, t ∈ [t0; t1; t2] → is_Some (vdata m t)) as Hc.
  { unfold tri_normal in En. rewrite !pos_place in En. destruct (vdata m t0) eqn:X0; [|done]. destruct (vdata m t1) eqn:X1; [|done]. destruct (vdata m t2) eqn:X2; [|done].
    intros t. rewrite !elem_of_cons, elem_of_nil. intros [->|[->|[->|[]]]]; eauto. }
  assert (vkeep (vdata m) (im_npi (m_verts m)) m) as H0 by (by split).
  destruct (mfoldl (move_side ops dflt unit scaled normal) _ _) as [st|] eqn:Es; [|done]. cbn [mbind option_bind] in E.
  destruct (mfoldl (move_inner_point ops dflt scaled normal) sf st) as [st'|] eqn:Ef; [|done]. cbn [mbind option_bind] in E. apply (inj Some), pair_equal_spec in E as [E1 E2]. subst m' new.
  cbn [mfoldl] in Es.
  destruct (move_side _ _ _ _ _ _ ((t0, t1), s0)) as [st1|] eqn:Ea; [|done]. cbn [mbind option_bind] in Es.
  destruct (move_side _ _ _ _ _ _ ((t1, t2), s1)) as [st2|] eqn:Eb; [|done]. cbn [mbind option_bind] in Es.
  destruct (move_side _ _ _ _ _ _ ((t2, t0), s2)) as [st3|] eqn:Ec; [|done]. cbn [mbind option_bind] in Es. apply (inj Some) in Es as <-.
  destruct (move_side_s ops dflt unit scaled (vdata m) (im_npi (m_verts m)) normal (t0, t1) s0 (MState m cdt vmap imap []) H0 ltac:(lia) st1 Ea) as (a0 & a1 & z0 & D1 & A1 & A2 & A3 & A4 & A5 & A6).
  destruct (move_side_s ops dflt unit scaled D1 _ normal (t1, t2) s1 st1 A5 ltac:(lia) st2 Eb) as (b0 & b1 & z1 & D2 & B1 & B2 & B3 & B4 & B5 & B6).
  destruct (move_side_s ops dflt unit scaled D2 _ normal (t2, t0) s2 st2 B5 ltac:(lia) st3 Ec) as (c0 & c1 & z2 & D3 & C1 & C2 & C3 & C4 & C5 & C6).
  destruct (fold_points unit scaled (move_inner_point ops dflt scaled normal) id (λ _, True) normal (vsub (Pt 0 0 0) normal) sf
    ltac:(intros D n0 s a Hk Hn0; exact (inner_point_s ops dflt scaled D n0 normal s a Hk Hn0)) D3 _ st3 C5 ltac:(lia) st' Ef) as (zf & D4 & F1 & F2 & F3 & F4).
  rewrite list_fmap_id in *. cbv zeta in *. cbn [fst snd] in *.
  set (qa := quads _ _ _ s0 z0) in *. set (qb := quads _ _ _ s1 z1) in *. set (qc := quads _ _ _ s2 z2) in *. set (qf := quads _ _ _ sf zf) in *.
  assert (q_p <$> qa = s0) as Pa by (by apply quads_p). assert (q_p <$> qb = s1) as Pb by (by apply quads_p). assert (q_p <$> qc = s2) as Pc by (by apply quads_p). assert (q_p <$> qf = sf) as Pf by (by apply quads_p).
  assert (q_s <$> qa = z0) as Sa by (by apply quads_s). assert (q_s <$> qb = z1) as Sb by (by apply quads_s). assert (q_s <$> qc = z2) as Sc by (by apply quads_s). assert (q_s <$> qf = zf) as Sf by (by apply quads_s).
  assert (∀ p, p ∈ s0 ++ s1 ++ s2 ++ sf → is_Some (vdata m p)) as Hex'.
  { intros p Hp. apply Hex in Hp as [vt Hvt]. unfold vdata. rewrite Hvt. eauto. }
  assert (NoDup (s0 ++ s1 ++ s2 ++ sf)) as Hnd' by (by do 3 apply stdpp.list.NoDup_cons in Hnd as [_ Hnd]).
  assert (∀ t, t ∈ [t0; t1; t2] → t ∉ s0 ++ s1 ++ s2 ++ sf) as Htn.
  { intros t Ht Hin. change (NoDup ([t0; t1; t2] ++ (s0 ++ s1 ++ s2 ++ sf))) in Hnd. apply NoDup_app in Hnd as (_ & Hx & _). by apply (Hx t). }
  assert (∀ l D, qrun scaled (vdata m) l D → NoDup (q_p <$> l) → (∀ p, p ∈ q_p <$> l → p ∈ s0 ++ s1 ++ s2 ++ sf) → ∀ t, t ∈ [t0; t1; t2] → D t = vdata m t) as Hst.
  { intros l D Hr Hn Hin t Ht. destruct (qrun_facts scaled l _ _ Hr Hn) as (_ & X2 & _ & X4); [intros p Hp; by apply Hex', Hin|].
    apply X4; [intros Hx; by apply (Htn t Ht), Hin|]. intros Hx. apply X2 in Hx as [Hx _]. destruct (Hc t Ht). congruence. }
  pose proof (qrun_app scaled _ _ _ _ _ A4 B4) as R2. pose proof (qrun_app scaled _ _ _ _ _ R2 C4) as R3. pose proof (qrun_app scaled _ _ _ _ _ R3 F2) as R4.
  assert (∀ t, t ∈ [t0; t1; t2] → D1 t = vdata m t) as T1.
  { apply (Hst qa D1 A4); rewrite Pa; [by apply NoDup_app in Hnd' as (? & _)|]. intros p Hp. rewrite !elem_of_app. tauto. }
  assert (∀ t, t ∈ [t0; t1; t2] → D2 t = vdata m t) as T2.
  { apply (Hst _ D2 R2); rewrite fmap_app, Pa, Pb; [rewrite app_assoc in Hnd'; by apply NoDup_app in Hnd' as (? & _)|]. intros p. rewrite !elem_of_app. tauto. }
  rewrite T1 in B1, B2 by set_solver. rewrite T2 in C1, C2 by set_solver.
  assert (∀ v, vdata (ms_mesh st') v = D4 v) as ED by apply (vk_data _ _ _ F3).
  assert (q_p <$> ((qa ++ qb) ++ qc) ++ qf = s0 ++ s1 ++ s2 ++ sf) as EP by (rewrite !fmap_app, Pa, Pb, Pc, Pf, <- !app_assoc; reflexivity).
  assert (q_s <$> ((qa ++ qb) ++ qc) ++ qf = z0 ++ z1 ++ z2 ++ zf) as ES by (rewrite !fmap_app, Sa, Sb, Sc, Sf, <- !app_assoc; reflexivity).
  destruct (qrun_facts scaled _ _ _ R4) as (X1 & X2 & X3 & X4); [by rewrite EP|by rewrite EP|].
  rewrite EP in X4. rewrite ES in X1. rewrite ES in X2. rewrite ES in X4.
  assert (∀ q, q ∈ qa ++ qb ++ qc ++ qf → places scaled (vdata m) (vdata (ms_mesh st')) q) as Hpl.
  { intros q Hq. rewrite !app_assoc in Hq. destruct (X3 q Hq) as (po & x & ev & y1 & y2 & G). exists po, x, ev, y1, y2. by rewrite !ED. }
  assert (ms_new st' = with_twins s0 z0 ++ with_twins s1 z1 ++ with_twins s2 z2 ++ with_twins sf zf) as Enew.
  { rewrite F4, C6, B6, A6. cbn [ms_new]. rewrite <- !app_assoc. done. }
  exists z0, z1, z2, zf. split; [exact Enew|]. split; [exact X1|]. split; [|split; [|split; [|split; [|split]]]].
  - intros z Hz. apply X2 in Hz as [Hz Hg]. split; [|done]. unfold vdata in Hz. by destruct (im_get (m_verts m) z).
  - exists a0, a1. rewrite !pos_place. split; [done|]. split; [done|]. cbv zeta. apply quads_parted; [done|]. intros q Hq. apply Hpl. rewrite !elem_of_app. by left.
  - exists b0, b1. rewrite !pos_place. split; [done|]. split; [done|]. cbv zeta. apply quads_parted; [done|]. intros q Hq. apply Hpl. rewrite !elem_of_app. right; by left.
  - exists c0, c1. rewrite !pos_place. split; [done|]. split; [done|]. cbv zeta. apply quads_parted; [done|]. intros q Hq. apply Hpl. rewrite !elem_of_app. right; right; by left.
  - apply quads_parted; [done|]. intros q Hq. apply Hpl. rewrite !elem_of_app. right; right; by right.
  - intros v Hv. rewrite Enew, !elem_of_app, !in_pairs in Hv by done. change (vdata (ms_mesh st') v = vdata m v). rewrite ED. apply X4; rewrite !elem_of_app; tauto.
Qed.
Print Assumptions C63_twins.

(** ** The two sides of the triangle *)
(** [u] is a positive multiple of [v]. *)
Definition positive_multiple (u v : pt) : Prop := ∃ a b, (0 < a)%Z ∧ (0 < b)%Z ∧ (b * px u = a * px v)%Z ∧ (b * py u = a * py v)%Z ∧ (b * pz u = a * pz v)%Z.
(** How far above the plane through [at_], with normal [n], the place of [v] is (times the length of [n]). *)
Definition above {V T} (m : mesh V T) (n at_ : pt) (v : N) : option Z := (λ p, vdot n (vsub p at_)) <$> vpos m v.
Lemma pm_dot n u v : positive_multiple u v → ((0 < vdot n v) → (0 < vdot n u))%Z ∧ ((vdot n v < 0) → (vdot n u < 0))%Z ∧ ((vdot n v = 0) → (vdot n u = 0))%Z.
Proof.
  intros (a & b & Ha & Hb & E1 & E2 & E3). assert (b * vdot n u = a * vdot n v)%Z as E.
  { unfold vdot. replace (b * (px n * px u + py n * py u + pz n * pz u))%Z with (px n * (b * px u) + py n * (b * py u) + pz n * (b * pz u))%Z by ring. rewrite E1, E2, E3. ring. }
  split; [|split]; intros H; nia.
Qed.
Lemma dot_add n u v : vdot n (vadd u v) = (vdot n u + vdot n v)%Z. Proof. unfold vdot, vadd. cbn. ring. Qed.
Lemma dot_sub n u v : vdot n (vsub u v) = (vdot n u - vdot n v)%Z. Proof. unfold vdot, vsub. cbn. ring. Qed.
Lemma dot_cross e n : vdot n (vcross e n) = 0%Z. Proof. unfold vdot, vcross. cbn. ring. Qed.
Lemma dot_self n : n ≠ Pt 0 0 0 → (0 < vdot n n)%Z.
Proof. destruct n as [x y z]. unfold vdot. cbn. intros H. assert (x ≠ 0 ∨ y ≠ 0 ∨ z ≠ 0)%Z as Hn by (destruct (decide (x = 0%Z)), (decide (y = 0%Z)), (decide (z = 0%Z)); subst; tauto). nia. Qed.

Lemma dot_zero q : vdot q q = 0%Z → q = Pt 0 0 0.
Proof. destruct q as [x y z]. unfold vdot. cbn. intros H. f_equal; nia. Qed.
Lemma cross_ne q r n u : n = vcross q r → n ≠ Pt 0 0 0 → positive_multiple u n → vcross q u ≠ Pt 0 0 0.
Proof.
  intros En Hn (a & b & Ha & Hb & E1 & E2 & E3) E0. assert (vdot q n = 0%Z) as Hq by (rewrite En; unfold vdot, vcross; cbn; ring).
  assert (vdot (vcross q n) (vcross q n) = 0)%Z as Hc.
  { assert (a * a * vdot (vcross q n) (vcross q n) = b * b * vdot (vcross q u) (vcross q u))%Z as E; [|rewrite E0 in E; unfold vdot at 2 in E; cbn in E; nia].
    transitivity (vdot (vcross q (Pt (a * px n) (a * py n) (a * pz n))) (vcross q (Pt (a * px n) (a * py n) (a * pz n)))); [unfold vdot, vcross; cbn; ring|].
    rewrite <- E1, <- E2, <- E3. unfold vdot, vcross. cbn. ring. }
  assert (vdot q q * vdot n n = vdot (vcross q n) (vcross q n) + vdot q n * vdot q n)%Z as E by (unfold vdot, vcross; cbn; ring). rewrite Hc, Hq in E.
  pose proof (dot_self n Hn). assert (vdot q q = 0)%Z as H0 by nia. apply dot_zero in H0. subst q. apply Hn. rewrite En. unfold vcross. cbn. f_equal; ring.
Qed.

(** If normalizing and scaling give positive multiples and the given vertices lie in the plane of the triangle, which has an area, then in the end the given vertices are
    strictly above the plane and their twins strictly below it. *)
Theorem C63_sides {V T C} (ops : cdt_ops C) (dflt : T) unit scaled (m : mesh V T) t0 t1 t2 s0 s1 s2 sf cdt vmap imap m' new n p0 :
  let given := s0 ++ s1 ++ s2 ++ sf in
  im_wf (m_verts m) → (im_npi (m_verts m) + N.of_nat (length given) < u32_mod)%N →
  NoDup (t0 :: t1 :: t2 :: given) → tri_normal m t0 t1 t2 = Some n → vpos m t0 = Some p0 → n ≠ Pt 0 0 0 →
  (∀ v, v ≠ Pt 0 0 0 → positive_multiple (unit v) v) → (∀ t e d, positive_multiple (scaled t e d) d) →
  (∀ p, p ∈ given → above m n p0 p = Some 0%Z) →
  move_inside ops dflt unit scaled m (t0, t1, t2) s0 s1 s2 sf cdt vmap imap = Some (m', new) →
  ∃ twins, length twins = length given ∧ new = with_twins given twins ∧
    Forall2 (λ p z, ∃ a b, above m' n p0 p = Some a ∧ above m' n p0 z = Some b ∧ (b < 0 < a)%Z) given twins.
Proof.
  cbv zeta. intros Hwf Hroom Hnd En Ep Hn Hu Hsc Hpl E.
  assert (∀ p, p ∈ s0 ++ s1 ++ s2 ++ sf → is_Some (im_get (m_verts m) p)) as Hex.
  { intros p Hp%Hpl. unfold above, vpos in Hp. destruct (im_get (m_verts m) p); [eauto|done]. }
  destruct (C63_twins ops dflt unit scaled m t0 t1 t2 s0 s1 s2 sf cdt vmap imap m' new n Hwf Hroom Hnd Hex En E) as (z0 & z1 & z2 & zf & -> & _ & _ & S0 & S1 & S2 & Sf & _).
  pose proof (dot_self n Hn) as Hnn. assert (0 < vdot n (unit n))%Z as Hnu by (by apply (pm_dot n (unit n) n (Hu n Hn))).
  assert (∀ q r, n = vcross q r → vdot n (unit (vcross q (unit n))) = 0%Z) as Htan.
  { intros q r Eq. assert (vdot n (vcross q (unit n)) = 0%Z) as H0.
    { destruct (Hu n Hn) as (a & b & Ha & Hb & E1 & E2 & E3). assert (b * vdot n (vcross q (unit n)) = 0)%Z; [|nia].
      transitivity (vdot n (vcross q (Pt (b * px (unit n)) (b * py (unit n)) (b * pz (unit n))))); [unfold vdot, vcross; cbn; ring|].
      rewrite E1, E2, E3. unfold vdot, vcross. cbn. ring. }
    apply (pm_dot n _ _ (Hu _ (cross_ne q r n _ Eq Hn (Hu n Hn)))), H0. }
  assert (∃ p1 p2, vpos m t1 = Some p1 ∧ vpos m t2 = Some p2 ∧ n = vcross (vsub p1 p0) (vsub p2 p0) ∧ n = vcross (vsub p2 p1) (vsub p0 p1) ∧ n = vcross (vsub p0 p2) (vsub p1 p2)) as (p1 & p2 & V1 & V2 & N1 & N2 & N3).
  { unfold tri_normal in En. rewrite Ep in En. cbn in En. destruct (vpos m t1) as [p1|]; [|done]. destruct (vpos m t2) as [p2|]; [|done]. cbn in En. injection En as <-.
    exists p1, p2. split; [done|]. split; [done|]. unfold orient_2d, vcross, vsub. cbn. split; [|split]; f_equal; ring. }
  assert (∀ len up down ps zs, (0 < vdot n up)%Z → (vdot n down < 0)%Z → (∀ p, p ∈ ps → p ∈ s0 ++ s1 ++ s2 ++ sf) → Forall2 (parted scaled m m' len up down) ps zs →
    Forall2 (λ p z, ∃ a b, above m' n p0 p = Some a ∧ above m' n p0 z = Some b ∧ (b < 0 < a)%Z) ps zs) as Hgo.
  { intros len up down ps zs Hup Hdn Hin HF. induction HF as [|p z ps zs (at_ & x & e & y1 & y2 & _ & P1 & P2 & P3) HF IH]; [constructor|].
    constructor; [|apply IH; intros; apply Hin; by right]. specialize (Hpl p (Hin p (elem_of_list_here _ _))). unfold above in *. rewrite !pos_place in *.
    unfold place_value in *. fold (vdata m p) in P1. fold (vdata m' p) in P2. fold (vdata m' z) in P3. rewrite P1 in Hpl. rewrite P2, P3. cbn in Hpl |- *. injection Hpl as Hpl.
    eexists _, _. split; [done|]. split; [done|]. rewrite dot_sub in Hpl. rewrite !dot_sub, !dot_add. pose proof (proj1 (pm_dot n _ _ (Hsc y1 e up)) Hup). pose proof (proj1 (proj2 (pm_dot n _ _ (Hsc y2 e down))) Hdn). lia. }
  assert (∀ a b pa pb r ps zs, vpos m a = Some pa → vpos m b = Some pb → n = vcross (vsub pb pa) r → (∀ p, p ∈ ps → p ∈ s0 ++ s1 ++ s2 ++ sf) → side_parted scaled unit m m' (unit n) a b ps zs →
    Forall2 (λ p z, ∃ a b, above m' n p0 p = Some a ∧ above m' n p0 z = Some b ∧ (b < 0 < a)%Z) ps zs) as Hside.
  { intros a b pa pb r ps zs Ea Eb Er Hin (pa' & pb' & Ea' & Eb' & HF). rewrite Ea in Ea'. rewrite Eb in Eb'. apply (inj Some) in Ea', Eb'. subst pa' pb'. cbv zeta in HF. pose proof (Htan _ _ Er).
    eapply Hgo; [| |exact Hin|exact HF]; rewrite ?dot_add, ?dot_sub; lia. }
  apply (Hside _ _ _ _ _ _ _ Ep V1 N1) in S0; [|set_solver]. apply (Hside _ _ _ _ _ _ _ V1 V2 N2) in S1; [|set_solver]. apply (Hside _ _ _ _ _ _ _ V2 Ep N3) in S2; [|set_solver].
  apply Hgo in Sf; [|done|rewrite dot_sub; unfold vdot at 1; cbn; lia|set_solver].
  pose proof (Forall2_length _ _ _ S0) as L0. pose proof (Forall2_length _ _ _ S1) as L1. pose proof (Forall2_length _ _ _ S2) as L2. pose proof (Forall2_length _ _ _ Sf) as Lf.
  exists (z0 ++ z1 ++ z2 ++ zf). split; [rewrite !app_length; lia|]. split; [|by repeat apply Forall2_app].
  unfold with_twins. rewrite !zip_with_app, !concat_app by done. done.
Qed.
Print Assumptions C63_sides.

(** ** Witness *)
(** A triangle with corners 4, 1, 2 between the vertices 0 and 3 of a tet, in three pieces around the vertex 5; the triangulation knows these by the handles 0, 1, 2, 3
    (of vertices and of edges); vectors are normalized by dividing by the greatest common divisor, and the ways have that length. *)
Definition mv_ops : list (op Z) := [OTrack true; OInsert (walker_from_tet_id 0) (Pt 12 12 12) 14%Z; OInsert (walker_from_tet_id 0) (Pt 4 24 24) 15%Z; OFlip23 (Walker 10 3)].
Definition mv_cdt : cdt_ops unit := CdtOps unit (λ _ _ _ _, None) (λ _ _, Some [0; 1; 2]) (λ _ e, [(0, 3, 1); (1, 3, 2); (2, 3, 0)] !! e) (λ _ _, Some tt)
  (λ _ p, if (px p =? 12)%Z then Some 0 else if (pz p =? 60)%Z then Some 1 else Some 2) (λ _ _ _, None) (λ _ _ _ _ _, Some [(4, 1, 2)%N]).
Definition mv_unit (p : pt) : pt := let g := Z.gcd (Z.gcd (px p) (py p)) (pz p) in Pt (px p / g) (py p / g) (pz p / g).
Lemma mv_unit_ok v : v ≠ Pt 0 0 0 → positive_multiple (mv_unit v) v.
Proof.
  destruct v as [x y z]. intros Hv. unfold mv_unit. cbn. set (g := Z.gcd (Z.gcd x y) z).
  assert (0 <= g)%Z as Hg by apply Z.gcd_nonneg. assert (g ≠ 0)%Z as Hn. { intros [H1 H2]%Z.gcd_eq_0. apply Z.gcd_eq_0 in H1 as [H1 H3]. subst. done. }
  assert ((g | z))%Z as D3 by apply Z.gcd_divide_r. assert ((g | Z.gcd x y))%Z as D by apply Z.gcd_divide_l.
  assert ((g | x))%Z as D1 by (etransitivity; [exact D|apply Z.gcd_divide_l]). assert ((g | y))%Z as D2 by (etransitivity; [exact D|apply Z.gcd_divide_r]).
  exists 1%Z, g. cbn [px py pz]. split; [lia|]. split; [lia|]. rewrite <- !Znumtheory.Zdivide_Zdiv_eq by (done || lia). lia.
Qed.
Definition mv_vmap : gmap N nat := list_to_map [(4%N, 0); (1%N, 1); (2%N, 2); (5%N, 3)].
Definition mv_imap : gmap nat N := list_to_map [(0, 4%N); (1, 1%N); (2, 2%N); (3, 5%N)].
Definition mv_run : option (mesh Z unit * list N) :=
  move_inside mv_cdt tt mv_unit (λ _ _ d, d) (wide mv_ops) (4, 1, 2)%N [] [] [] [5%N] tt mv_vmap mv_imap.
Example C63_witness : let m := wide mv_ops in
  im_wf (m_verts m) ∧ (im_npi (m_verts m) + 1 < u32_mod)%N ∧ NoDup [4; 1; 2; 5]%N ∧ is_Some (im_get (m_verts m) 5) ∧ tri_normal m 4 1 2 = Some (Pt (-2160) (-720) (-720)) ∧
  has_trib m 4 1 2 = false ∧ vpos m 4 = Some (Pt 12 12 12) ∧ above m (Pt (-2160) (-720) (-720)) (Pt 12 12 12) 5 = Some 0%Z ∧
  (∀ v, v ≠ Pt 0 0 0 → positive_multiple (mv_unit v) v) ∧ (∀ d, positive_multiple d d) ∧
  (r ← mv_run; Some (r.2, has_trib r.1 4 1 2, has_trib r.1 1 4 2, place_value r.1 5, place_value r.1 6)) = Some ([5; 6]%N, true, true, Some (Pt 1 23 23, 15%Z), Some (Pt 7 25 25, 15%Z)).
Proof.
  cbv zeta. split; [apply (ok_ids_verts _ (reachable_ok _ (wide_reachable mv_ops ltac:(vm_compute; reflexivity))))|].
  split; [vm_compute; reflexivity|]. split; [apply (bool_decide_unpack _); vm_compute; exact I|]. split; [vm_compute; eauto|].
  do 4 (split; [vm_compute; reflexivity|]). split; [exact mv_unit_ok|]. split; [intros d; exists 1%Z, 1%Z; lia|]. vm_compute; reflexivity.
Qed.

(** The same triangulation with other numbers for its edges. *)
Definition renumber {C} (f g : nat → nat) (ops : cdt_ops C) : cdt_ops C :=
  CdtOps C (λ c a b s, option_map (List.map f) (c_half ops c a b s)) (λ c a, option_map (List.map f) (c_disk ops c a)) (λ c e, c_tri ops c (g e)) (c_remove ops) (c_locate ops) (c_constrain ops) (c_region ops).
(** Whether the function returns depends on how the triangulation numbers its edges: line 3195 looks up the number of an edge among those of vertices. *)
Theorem C63_numbering_refuted : ¬ ∀ (C : Type) (ops : cdt_ops C) f g unit scaled (m : mesh Z ()) tri s0 s1 s2 sf cdt vmap imap, (∀ e, g (f e) = e) →
  is_Some (move_inside ops () unit scaled m tri s0 s1 s2 sf cdt vmap imap) → is_Some (move_inside (renumber f g ops) () unit scaled m tri s0 s1 s2 sf cdt vmap imap).
Proof.
  intros H. specialize (H unit mv_cdt (λ e, e + 10) (λ e, e - 10) mv_unit (λ _ _ d, d) (wide mv_ops) (4, 1, 2)%N [] [] [] [5%N] () mv_vmap mv_imap ltac:(intros e; cbv beta; lia)).
  assert (match mv_run with Some _ => true | None => false end = true) as H1 by (vm_cast_no_check (eq_refl true)).
  assert (match move_inside (renumber (λ e, e + 10) (λ e, e - 10) mv_cdt) () mv_unit (λ _ _ d, d) (wide mv_ops) (4, 1, 2)%N [] [] [] [5%N] () mv_vmap mv_imap with Some _ => true | None => false end = false) as H2 by (vm_cast_no_check (eq_refl false)).
  revert H1 H2. unfold mv_run. revert H. generalize (wide mv_ops). intros m.
  destruct (move_inside mv_cdt _ _ _ _ _ _ _ _ _ _ _ _) as [r|]; [|discriminate]. intros H _. destruct (H (mk_is_Some _ _ eq_refl)) as [r' ->]. discriminate.
Qed.
Print Assumptions C63_numbering_refuted.
