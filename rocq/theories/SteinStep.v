(** When the search for the cavity of a vertex on an edge to be recovered does not panic. *)
From stdpp Require Import base numbers list gmap option relations.
From Coq Require Import NArith ZArith Lia.
From Verif Require Import IdMapModel WalkerModel WalkerSpec WalkerProofs MeshModel MeshOps MeshOpsOk MeshSpec MeshViews HistSpec History FlipSpec GeoModel GeoSpec GeoProofs IterModel IterProofs IterLookup CavModel CavSpec CavBase CavOk
  InsModel InsSpec DelModel DelSpec DelOk QualModel ProgModel ProgSpec RecSpec CrossModel CrossOk Flip44Ok WayModel WaySpec WayOk WayGeo WayOrder MidModel MidSpec SteinModel SteinStart SteinSpec SteinOk PropCav PropDel PropCross PropWay PropMid.
Local Open Scope nat_scope.

Lemma orient_mix k0 k1 k2 k3 p0 p1 p2 p3 q : vscale (k0 + k1 + k2 + k3) q = vadd (vadd (vadd (vscale k0 p0) (vscale k1 p1)) (vscale k2 p2)) (vscale k3 p3) →
  ((k0 + k1 + k2 + k3) * orient p0 p1 p2 q = k3 * orient p0 p1 p2 p3)%Z.
Proof.
  rewrite pt_eq. destruct p0 as [x0 y0 z0], p1 as [x1 y1 z1], p2 as [x2 y2 z2], p3 as [x3 y3 z3], q as [x y z]. unfold vscale, vadd, orient, vdot, vcross, vsub. cbn [px py pz]. intros (E1 & E2 & E3).
  set (S := (k0 + k1 + k2 + k3)%Z) in *.
  match goal with |- (_ * ?o)%Z = _ => transitivity (let A := ((y1 - y0) * (z2 - z0) - (z1 - z0) * (y2 - y0))%Z in let B := ((z1 - z0) * (x2 - x0) - (x1 - x0) * (z2 - z0))%Z in let C := ((x1 - x0) * (y2 - y0) - (y1 - y0) * (x2 - x0))%Z in
    - (A * (S * x - S * x0) + B * (S * y - S * y0) + C * (S * z - S * z0)))%Z end; [cbv zeta; ring|]. cbv zeta. rewrite E1, E2, E3. unfold S. ring.
Qed.

Section step.
  Context {V T : Type}.
  Implicit Types (m : mesh V T) (w : walker).

  (** A point that is a mixture of the corners of a tet, with some of the last one, sees the opposite triangle. *)
  Lemma see m s x y t u q p0 p1 p2 p3 z k0 k1 k2 k3 : s ≠ GHOST → u ≠ GHOST → idx_ori m s = Some q → idx_ori m x = Some p0 → idx_ori m y = Some p1 → idx_ori m t = Some p2 → idx_ori m u = Some p3 →
    orient_3d m x y t u = Some z → (0 < z)%Z → (0 < k3)%Z → (0 < k0 + k1 + k2 + k3)%Z →
    vscale (k0 + k1 + k2 + k3) q = vadd (vadd (vadd (vscale k0 p0) (vscale k1 p1)) (vscale k2 p2)) (vscale k3 p3) → (0 < side_of m s (x, y, t))%Z.
  Proof.
    intros Hs Hu Es E0 E1 E2 E3 Ez Hz Hk HS Hm. apply orient_mix in Hm. unfold side_of, orient_3d in *. cbn [fst snd]. rewrite E0, E1, E2, E3 in *. rewrite Es. cbn [mbind option_bind default] in *. apply (inj Some) in Ez.
    assert (has_ghost [x; y; t; s] = has_ghost [x; y; t; u]) as ->.
    { unfold has_ghost. cbn [existsb]. destruct (N.eqb_spec GHOST s), (N.eqb_spec GHOST u); congruence. }
    cbv beta iota delta [default from_option id]. destruct (has_ghost [x; y; t; u]); nia.
  Qed.

  Lemma up_walker m w a b c d : upright m → valid m w → w_verts m w = Some (A4 a b c d) → ∃ z, orient_3d m a b c d = Some z ∧ (0 < z)%Z.
  Proof.
    intros Hup [[t Et] He] Ev. destruct (Hup _ _ Et) as (z & Ez & Hz). exists z. split; [|done]. unfold w_verts, w_first, w_second, w_third, w_fourth in Ev. rewrite Et in Ev. cbn [mbind option_bind] in Ev. apply (inj Some) in Ev.
    destruct (t_vs t) as [x0 x1 x2 x3]. cbn [q0 q1 q2 q3] in Ez. destruct w as [id e]. cbn [w_edge w_tet] in *. clear Et Hup Hz.
    assert (∀ x y u v z, orient_3d m x y u v = Some z → orient_3d m y u x v = Some z) as R1.
    { intros x y u v z'. unfold orient_3d. destruct (idx_ori m x) as [px'|], (idx_ori m y) as [py'|], (idx_ori m u) as [pu|], (idx_ori m v) as [pv|]; cbn [mbind option_bind]; try done.
      assert (has_ghost [y; u; x; v] = has_ghost [x; y; u; v]) as -> by (unfold has_ghost; cbn [existsb]; by destruct (N.eqb GHOST x), (N.eqb GHOST y), (N.eqb GHOST u)).
      rewrite (orient_swap12 py' px' pu pv), (orient_swap01 px' py' pu pv). intros <-. f_equal. ring. }
    assert (∀ x y u v z, orient_3d m x y u v = Some z → orient_3d m y x v u = Some z) as R2.
    { intros x y u v z'. unfold orient_3d. destruct (idx_ori m x) as [px'|], (idx_ori m y) as [py'|], (idx_ori m u) as [pu|], (idx_ori m v) as [pv|]; cbn [mbind option_bind]; try done.
      assert (has_ghost [y; x; v; u] = has_ghost [x; y; u; v]) as -> by (unfold has_ghost; cbn [existsb]; by destruct (N.eqb GHOST x), (N.eqb GHOST y), (N.eqb GHOST u), (N.eqb GHOST v)).
      rewrite (orient_swap23 py' px' pu pv), (orient_swap01 px' py' pu pv). intros <-. f_equal. ring. }
    do 12 (destruct e as [|e]; [vm_compute in Ev; injection Ev as <- <- <- <-; first [exact Ez|by apply R1|by apply R1, R1|by apply R2|by apply R2, R1|by apply R2, R1, R1|by apply R1, R2|by apply R1, R2, R1|by apply R1, R2, R1, R1|by apply R1, R1, R2|by apply R1, R1, R2, R1|by apply R1, R1, R2, R1, R1]|]). lia.
  Qed.

  (** What the search starts from can be made, and is star-shaped. *)
  Definition free m (g : simplex) : Prop :=
    match g with
    | SEdge (a, b) => ¬ locked_edge m a b ∧ ∀ c, ¬ locked_tri m (a, b, c)
    | STri (a, b, c) => ¬ locked_tri m (a, b, c)
    end.

  Lemma wt_some m w : valid m w → ∃ b, w_locked m w = Some b.
  Proof. intros [[t Et] _]. unfold w_locked. rewrite Et. cbn [mbind option_bind]. eauto. Qed.

  Lemma start_sees m s q g qs : mesh_ok m → upright m → present m g → GHOST ∉ corners g → s ≠ GHOST → idx_ori m s = Some q → mapM (idx_ori m) (corners g) = Some qs → inside q 1 qs → free m g →
    ∃ B0 E0, steiner_start m g = Some (B0, E0) ∧ ∀ u t, u ∈ B0 → w_tri m u = Some t → (0 < side_of m s t)%Z.
  Proof.
    intros Hok Hup Hg Hng Hs Es Eqs Hin Hfree.
    assert (∀ w a b c d, valid m w → w_verts m w = Some (A4 a b c d) → ∃ p0 p1 p2 p3, idx_ori m a = Some p0 ∧ idx_ori m b = Some p1 ∧ idx_ori m c = Some p2 ∧ idx_ori m d = Some p3) as Hk.
    { intros w a b c d Hw Ev. destruct (up_walker m w a b c d Hup Hw Ev) as (z & Ez & _). unfold orient_3d in Ez. apply bind_Some in Ez as (p0 & E0 & (p1 & E1 & (p2 & E2 & (p3 & E3 & _)%bind_Some)%bind_Some)%bind_Some). eauto 10. }
    destruct g as [[a b]|[[a b] c]]; cbn [corners steiner_start present fst snd free] in *.
    - cbn [mapM mbind option_bind] in Eqs. destruct (idx_ori m a) as [pa|] eqn:Ea; [|done]. cbn [mbind option_bind] in Eqs. destruct (idx_ori m b) as [pb|] eqn:Eb; [|done]. cbn [mbind option_bind] in Eqs. injection Eqs as <-.
      destruct Hin as (k0 & k1 & K0 & K1 & Em). rewrite !not_elem_of_cons in Hng. destruct Hng as (Na & Nb & _). destruct Hfree as [Hf1 Hf2].
      assert (attached m a) as Ha by (by eapply joined_attached2).
      destruct (edge_lookup m a b Hok Ha (not_eq_sym Na)) as [(_ & w & Ew & Hw & Hp)|(Hn & _)]; [|done]. rewrite Ew. cbn [mbind option_bind].
      assert (w_edge_locked m w = Some false) as El.
      { destruct (ok_edge m Hok w a b Hw Hp) as (e & ue & U1 & U2 & U3). rewrite (locked_edge_walker m w a b Hok Hw Hp) in Hf1. unfold w_edge_locked in *. rewrite U1 in *. cbn [mbind option_bind] in *. rewrite U2 in *. cbn [mbind option_bind] in *. destruct (ue_locked ue); [done|done]. }
      unfold assert_edge_free. rewrite El. cbn [mbind option_bind]. destruct (ring_all m w (a, b) Hok Hw Hp) as (l & E3 & Hset & _). rewrite E3. cbn [mbind option_bind].
      assert (∃ us, mapM (assert_tri_free m) l = Some us) as (us & Eus).
      { apply mapM_is_Some. apply list.Forall_forall. intros x Hx. apply Hset in Hx as [Hx Hpx]. destruct (wverts_of_pair m x a b Hx Hpx) as (c & d & Ev). change (is_Some (assert_tri_free m x)). unfold assert_tri_free. destruct (wt_some m x Hx) as [[|] Elx]; rewrite Elx; cbn [mbind option_bind]; [|by eexists].
        exfalso. apply (Hf2 c). exists x. split; [done|]. split; [by eapply wverts_tri|done]. }
      rewrite Eus. cbn [mbind option_bind]. eexists _, _. split; [reflexivity|]. intros u t Hu Et. fold (ring_sides l) in Hu. apply ring_sides_in in Hu as (x & Hx & Hu). apply Hset in Hx as [Hx Hpx].
      destruct (wverts_of_pair m x a b Hx Hpx) as (c & d & Ev). destruct (Hk x a b c d Hx Ev) as (pa' & pb' & pc & pd & Ea' & Eb' & Ec & Ed). assert (pa' = pa) as -> by congruence. assert (pb' = pb) as -> by congruence.
      pose proof Em as Em'. rewrite pt_eq in Em'. unfold vscale, vadd in Em'. cbn [px py pz] in Em'. destruct Em' as (M1 & M2 & M3).
      destruct Hu as [-> | ->].
      + pose proof (wverts_opp m x a b c d Hx Ev) as Ev'. assert (valid m (to_opp_edge x)) as Hx' by (by apply valid_opp). destruct (up_walker m _ _ _ _ _ Hup Hx' Ev') as (z & Ez & Hz).
        rewrite (wverts_tri _ _ _ _ _ _ Ev') in Et. injection Et as <-.
        apply (see m s c d a b q pc pd pa pb z 0 0 k0 k1); try done; [lia|]. rewrite pt_eq. unfold vscale, vadd. cbn [px py pz]. lia.
      + pose proof (wverts_perm m x a b c d P3210 Hx Ev) as Ev'. change (reorder (A4 a b c d) (perm_digits P3210)) with (A4 d c b a) in Ev'. assert (valid m (to_perm x P3210)) as Hx' by (by apply valid_perm). destruct (up_walker m _ _ _ _ _ Hup Hx' Ev') as (z & Ez & Hz).
        rewrite (wverts_tri _ _ _ _ _ _ Ev') in Et. injection Et as <-.
        apply (see m s d c b a q pd pc pb pa z 0 0 k1 k0); try done; [lia|]. rewrite pt_eq. unfold vscale, vadd. cbn [px py pz]. lia.
    - cbn [mapM mbind option_bind] in Eqs. destruct (idx_ori m a) as [pa|] eqn:Ea; [|done]. cbn [mbind option_bind] in Eqs. destruct (idx_ori m b) as [pb|] eqn:Eb; [|done]. cbn [mbind option_bind] in Eqs. destruct (idx_ori m c) as [pc|] eqn:Ec; [|done]. cbn [mbind option_bind] in Eqs. injection Eqs as <-.
      destruct Hin as (k0 & k1 & k2 & K0 & K1 & K2 & Em). rewrite !not_elem_of_cons in Hng. destruct Hng as (Na & Nb & Nc & _).
      assert (attached m a) as Ha. { destruct Hg as (u & Hu & Et). exists u. split; [done|]. destruct (wverts_ex m u Hu) as (a' & b' & c' & d & Ev). rewrite (wverts_tri _ _ _ _ _ _ Ev) in Et. injection Et as -> -> ->. by eapply wverts_first. }
      destruct (tri_lookup_any m (a, b, c) Hok (λ _, conj Ha (not_eq_sym Na))) as [(_ & w & Ew & Hw & Et)|(Hn & _)]; [|done]. rewrite Ew. cbn [mbind option_bind].
      destruct (adj_side m w Hok Hw) as (adj & Ead & Hadj & Hsa & Hne & (y & Ey & Hsy)). rewrite Ead. cbn [mbind option_bind].
      assert (w_locked m w = Some false) as El. { destruct (wt_some m w Hw) as [[|] E]; [|done]. exfalso. apply Hfree. by exists w. }
      unfold assert_tri_free. rewrite El. cbn [mbind option_bind]. eexists _, _. split; [reflexivity|].
      destruct (wverts_ex m w Hw) as (a' & b' & c' & d & Ev). rewrite (wverts_tri _ _ _ _ _ _ Ev) in Et. injection Et as -> -> ->.
      destruct (ok_adj m Hok w a b c d Hw Ev) as (y' & e & Ey' & Hy & Evy & _). rewrite Ey in Ey'. injection Ey' as <-.
      pose proof Em as Em'. rewrite pt_eq in Em'. unfold vscale, vadd in Em'. cbn [px py pz] in Em'. destruct Em' as (M1 & M2 & M3).
      (* the three triangles of a tet on [a b c] *)
      assert (∀ x x0 x1 x2 y0 p0 p1 p2 j0 j1 j2, valid m x → w_verts m x = Some (A4 x0 x1 x2 y0) → idx_ori m x0 = Some p0 → idx_ori m x1 = Some p1 → idx_ori m x2 = Some p2 → x0 ≠ GHOST → x1 ≠ GHOST → x2 ≠ GHOST →
        (0 < j0)%Z → (0 < j1)%Z → (0 < j2)%Z → vscale (j0 + j1 + j2) q = vadd (vadd (vscale j0 p0) (vscale j1 p1)) (vscale j2 p2) →
        ∀ u t, u ∈ [to_twin_edge x; to_opp_edge x; to_perm x P3210] → w_tri m u = Some t → (0 < side_of m s t)%Z) as Hsix.
      { clear - Hok Hup Hs Es Hk. intros x x0 x1 x2 y0 p0 p1 p2 j0 j1 j2 Hx Ev E0 E1 E2 N0 N1 N2 J0 J1 J2 Em u t Hu Et. destruct (Hk x x0 x1 x2 y0 Hx Ev) as (p0' & p1' & p2' & pd & E0' & E1' & E2' & Ed).
        assert (p0' = p0) as -> by congruence. assert (p1' = p1) as -> by congruence. assert (p2' = p2) as -> by congruence. rewrite pt_eq in Em. unfold vscale, vadd in Em. cbn [px py pz] in Em. destruct Em as (M1 & M2 & M3).
        rewrite !elem_of_cons, elem_of_nil in Hu. destruct Hu as [-> | [-> | [-> | []]]].
        + pose proof (wverts_twin m x _ _ _ _ Hx Ev) as Ev'. assert (valid m (to_twin_edge x)) as Hx' by (by apply valid_twin). destruct (up_walker m _ _ _ _ _ Hup Hx' Ev') as (z & Ez & Hz).
          rewrite (wverts_tri _ _ _ _ _ _ Ev') in Et. injection Et as <-.
          apply (see m s x1 x0 y0 x2 q p1 p0 pd p2 z j1 j0 0 j2); try done; [lia|]. rewrite pt_eq. unfold vscale, vadd. cbn [px py pz]. lia.
        + pose proof (wverts_opp m x _ _ _ _ Hx Ev) as Ev'. assert (valid m (to_opp_edge x)) as Hx' by (by apply valid_opp). destruct (up_walker m _ _ _ _ _ Hup Hx' Ev') as (z & Ez & Hz).
          rewrite (wverts_tri _ _ _ _ _ _ Ev') in Et. injection Et as <-.
          apply (see m s x2 y0 x0 x1 q p2 pd p0 p1 z j2 0 j0 j1); try done; [lia|]. rewrite pt_eq. unfold vscale, vadd. cbn [px py pz]. lia.
        + pose proof (wverts_perm m x _ _ _ _ P3210 Hx Ev) as Ev'. change (reorder (A4 x0 x1 x2 y0) (perm_digits P3210)) with (A4 y0 x2 x1 x0) in Ev'. assert (valid m (to_perm x P3210)) as Hx' by (by apply valid_perm). destruct (up_walker m _ _ _ _ _ Hup Hx' Ev') as (z & Ez & Hz).
          rewrite (wverts_tri _ _ _ _ _ _ Ev') in Et. injection Et as <-.
          apply (see m s y0 x2 x1 x0 q pd p2 p1 p0 z 0 j2 j1 j0); try done; [lia|]. rewrite pt_eq. unfold vscale, vadd. cbn [px py pz]. lia. }
      assert (adj = y ∨ adj = to_nfe y ∨ adj = to_pfe y) as Hc.
      { destruct adj as [i f], y as [j h]. unfold side in Hsy. cbn [w_tet w_edge] in Hsy. injection Hsy as -> E.
        destruct Hadj as [_ He], Hy as [_ Hf]. cbn [w_edge] in *. clear - E He Hf. unfold to_nfe, to_pfe. cbn [w_tet w_edge].
        do 12 (destruct f as [|f]; [do 12 (destruct h as [|h]; [first [discriminate E|left; reflexivity|right; left; reflexivity|right; right; reflexivity]|]); lia|]); lia. }
      intros u t Hu Et. change (u ∈ [to_twin_edge w; to_opp_edge w; to_perm w P3210] ++ [to_twin_edge adj; to_opp_edge adj; to_perm adj P3210]) in Hu. apply elem_of_app in Hu as [Hu|Hu].
      + apply (Hsix w a b c d pa pb pc k0 k1 k2) with (u := u); try done; [congruence..|]. rewrite pt_eq. unfold vscale, vadd. cbn [px py pz]. lia.
      + destruct Hc as [-> | [-> | ->]].
        * apply (Hsix y b a c e pb pa pc k1 k0 k2) with (u := u); try done; [congruence..|]. rewrite pt_eq. unfold vscale, vadd. cbn [px py pz]. lia.
        * apply (Hsix (to_nfe y) a c b e pa pc pb k0 k2 k1) with (u := u); try done; [by apply (wverts_nfe m y b a c e)|congruence..|]. rewrite pt_eq. unfold vscale, vadd. cbn [px py pz]. lia.
        * apply (Hsix (to_pfe y) c b a e pc pb pa k2 k1 k0) with (u := u); try done; [by apply (wverts_pfe m y b a c e)|congruence..|]. rewrite pt_eq. unfold vscale, vadd. cbn [px py pz]. lia.
  Qed.

  Lemma same_side_rot u y : w_edge u < 12 → w_edge y < 12 → side u = side y → u = y ∨ u = to_nfe y ∨ u = to_pfe y.
  Proof.
    destruct u as [i f], y as [j h]. unfold side. cbn [w_tet w_edge]. intros He Hf [= -> E]. unfold to_nfe, to_pfe. cbn [w_tet w_edge]. revert E.
    do 12 (destruct f as [|f]; [do 12 (destruct h as [|h]; [intros E; first [discriminate E|left; reflexivity|right; left; reflexivity|right; right; reflexivity]|]); lia|]); lia.
  Qed.

  Lemma mapM_same {A B} (f g : A → option B) l : (∀ a, a ∈ l → f a = g a) → mapM f l = mapM g l.
  Proof. induction l as [|a l IH]; intros H; [done|]. cbn. rewrite H by left. rewrite IH; [done|]. intros x Hx. apply H. by right. Qed.

  Lemma placed_ori m v p x m1 a : placed m v p x m1 → a ≠ v → idx_ori m1 a = idx_ori m a.
  Proof. intros [_ H (_ & _ & _ & _ & _ & Hc)] Ha. unfold idx_ori. rewrite Hc. destruct (_ : bool); [done|]. by rewrite H. Qed.

  Lemma step_succeeds round n m v0 v1 g P k : ready m → upright m → solid m v0 → solid m v1 → can_place m None →
    edge_mid_intersection tri_edge_bary edge_edge_bary coplanar n m v0 v1 = Some (Some (g, (P, k)), true) → GHOST ∉ corners g → vscale k (round (P, k)) = P → free m g →
    ∃ m1 s B E, steiner_cavity tri_edge_bary edge_edge_bary coplanar round n m v0 v1 = Some (Some (m1, s, B, E)).
  Proof.
    intros Hr Hup H0 H1 Hp Em Hng Hx Hfree. pose proof (rd_ok _ Hr) as Hok. pose proof (C52_exact_tests m v0 v1 Hok H0 H1) as Hev.
    destruct (mid_in tri_edge_bary edge_edge_bary coplanar n m v0 v1 g (P, k) true Hok Hev H0 Em) as (p0 & p1 & b & Ep0 & Ep1 & Hg & Hh & Exy).
    assert (idx_ori m v0 = Some p0) as I0 by (rewrite <- position_ori by apply H0; done). assert (idx_ori m v1 = Some p1) as I1 by (rewrite <- position_ori by apply H1; done).
    assert (∃ qs, mapM (idx_ori m) (corners g) = Some qs) as (qs & Eqs).
    { apply mapM_is_Some, list.Forall_forall. intros x Hxg. apply (attached_known m x Hok). by apply (covers_attached m g x Hok Hg). }
    assert (k ≠ 0%Z ∧ inside P k qs) as [Hk Hin].
    { unfold edge_mid_intersection in Em. apply bind_Some in Em as (p0' & E0' & (p1' & E1' & ([l all] & E2 & E3)%bind_Some)%bind_Some). apply (inj Some) in E3.
      assert (all = true) as -> by congruence. destruct (C52_each _ _ _ m v0 v1 n l true Hok Hev H0 E2) as [He _].
      destruct (C54_points m v0 v1 n p0 p1 l true (proj1 H0) (proj1 H1) I0 I1 E2) as (L & EL & _ & HL). { intros g' x' Hi. by apply He. }
      assert ((g, (P, k)) ∈ L) as HI; [|destruct (HL _ _ _ qs HI Hng Eqs) as (? & _ & ?); done].
      unfold edge_intersections in EL. rewrite E0', E1', E2 in EL. cbn [mbind option_bind] in EL. injection EL as <-.
      destruct (least _ l) as [c|] eqn:El; cbn [option_map] in E3; [|done]. destruct c as [cg [y z]]. assert ((cg, point_at p0' p1' (y, z)) = (g, (P, k))) as E4 by (apply (inj Some), (f_equal fst E3)).
      assert ((cg, (y, z)) ∈ l) as Hc.
      { unfold least in El. destruct l as [|c0 l]; [done|]. injection El as <-. clear. revert c0. induction l as [|y l IH]; intros c0; cbn; [left|].
        destruct (Z.ltb _ _); [specialize (IH y); rewrite !elem_of_cons in *; tauto|specialize (IH c0); rewrite !elem_of_cons in *; tauto]. }
      apply elem_of_list_In, in_map_iff. exists (cg, (y, z)). split; [exact E4|by apply elem_of_list_In]. }
    unfold steiner_cavity. rewrite Em. cbn [mbind option_bind negb].
    assert (∃ vt0, im_get (m_verts m) v0 = Some vt0) as (vt0 & Evt). { destruct (im_get (m_verts m) v0); [eauto|by cbn in Ep0]. } rewrite Evt. cbn [fmap option_fmap option_map mbind option_bind].
    destruct (put_vertex_ok m None (round (P, k)) (v_val vt0) Hr Hp) as (m1 & s & Ea & _ & Hno & Hsg & Hpl & Hr1 & Hl). cbn [put_vertex] in Ea. injection Ea as Ea. rewrite Ea. specialize (Hno eq_refl).
    pose proof (rd_ok _ Hr1) as Hok1. destruct (placed_same m s _ _ m1 Hpl) as (S1 & S2 & S3 & S4 & S5 & S6).
    assert (∀ a, attached m a → idx_ori m1 a = idx_ori m a) as Hsame.
    { intros a Ha. apply (placed_ori m s (round (P, k)) (v_val vt0)); [done|]. intros ->. apply (attached_known m s Hok) in Ha as [p Hpos]. unfold idx_ori in Hpos.
      rewrite (proj2 (N.eqb_neq _ _) Hsg), Hno in Hpos. done. }
    assert (idx_ori m1 s = Some (round (P, k))) as Ios. { unfold idx_ori. rewrite (proj2 (N.eqb_neq _ _) Hsg), (pl_vert _ _ _ _ _ Hpl). done. }
    assert (m_tets m1 = m_tets m) as Et by apply Hpl.
    assert (upright m1) as Hup1.
    { intros id t Eid. unfold tet_get in Eid. rewrite Et in Eid. destruct (Hup id t Eid) as (z & Ez & Hz). exists z. split; [|done].
      assert (∀ a, a ∈ list4 (t_vs t) → idx_ori m1 a = idx_ori m a) as Hs' by (intros a Ha; apply Hsame, attached_vs; eauto).
      unfold orient_3d in *. destruct (t_vs t) as [x0 x1 x2 x3]. cbn [q0 q1 q2 q3] in *. rewrite !Hs' by (unfold list4; cbn; set_solver). done. }
    assert (mapM (idx_ori m1) (corners g) = Some qs) as Eqs1.
    { rewrite <- Eqs. apply mapM_same. intros a Ha. apply Hsame. by apply (covers_attached m g a Hok Hg). }
    assert (free m1 g) as Hfree1.
    { destruct g as [[a c]|[[a c] d]]; cbn [free] in *; [|by rewrite S5]. split; [by rewrite S4; apply Hfree|]. intros d. rewrite S5. apply Hfree. }
    assert (inside (round (P, k)) 1 qs) as Hin1.
    { destruct qs as [|x0 [|x1 [|x2 [|x3 qs]]]]; cbn [inside] in *; try done.
      - destruct Hin as (a0 & a1 & A0 & A1 & E). exists a0, a1. split; [done|]. split; [done|]. rewrite <- Hx in E. rewrite pt_eq in *. unfold vscale, vadd in *. cbn [px py pz] in *.
        destruct E as (K1 & K2 & K3). split; [|split]; apply (Z.mul_reg_l _ _ k Hk); lia.
      - destruct Hin as (a0 & a1 & a2 & A0 & A1 & A2 & E). exists a0, a1, a2. split; [done|]. split; [done|]. split; [done|]. rewrite <- Hx in E. rewrite pt_eq in *. unfold vscale, vadd in *. cbn [px py pz] in *.
        destruct E as (K1 & K2 & K3). split; [|split]; apply (Z.mul_reg_l _ _ k Hk); lia. }
    destruct (start_sees m1 s (round (P, k)) g qs Hok1 Hup1 (proj2 (S6 g) Hg) Hng Hsg Ios Eqs1 Hin1 Hfree1) as (B0 & E0 & Est & Hpos). rewrite Est. cbn [mbind option_bind].
    destruct (start_ok m1 s g B0 E0 Hok1 (proj2 (S6 g) Hg) Est) as [HF Hst]. destruct (Hst Hpos) as (HR & HB & Hne & _).
    destruct (C35_predicates m1 s Hok1) as [_ Htn]. change (turning (side_of m1 s)) in Htn.
    destruct (C35_star_shaped_start_is_kept m1 (sphere_of m1 s) (side_of m1 s) true true E0 B0 Hok1 (ar_search _ (rd_rest _ Hr1)) Htn HR HB Hne) as (B & E & Ecav & _).
    { intros w t Hw Hlv Ew. split; [apply not_elem_of_nil|]. pose proof HB as (Hv & _ & HB'). apply (HB' w Hw) in Hlv. apply elem_of_list_fmap in Hlv as (y & Hsy & Hy).
      rewrite list.Forall_forall in Hv. pose proof (Hv y Hy) as Hvy. apply (same_side_rot w y) in Hsy; [|apply Hw|apply Hvy].
      destruct (wverts_ex m1 y Hvy) as (a & b' & c & d & Ev). pose proof (Hpos y _ Hy (wverts_tri _ _ _ _ _ _ Ev)) as Hp0. destruct Hsy as [-> | [-> | ->]].
      - rewrite (wverts_tri _ _ _ _ _ _ Ev) in Ew. by injection Ew as <-.
      - rewrite (wverts_tri _ _ _ _ _ _ (wverts_nfe m1 y a b' c d Hvy Ev)) in Ew. injection Ew as <-. by apply Htn.
      - rewrite (wverts_tri _ _ _ _ _ _ (wverts_pfe m1 y a b' c d Hvy Ev)) in Ew. injection Ew as <-. by apply Htn, Htn. }
    rewrite Ecav. cbn [mbind option_bind]. eauto.
  Qed.
End step.
