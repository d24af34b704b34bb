(** C52, C53: what a segment crosses. *)
From stdpp Require Import base numbers list gmap option relations.
From Coq Require Import NArith ZArith QArith Sorted Lia.
From Verif Require Import IdMapModel IdMapSpec IdMapProofs WalkerModel WalkerSpec WalkerProofs MeshModel MeshOps MeshSpec MeshViews MeshCheck FlipSpec FlipBase FlipCommon HistSpec HistCheck Reach IterProofs IterLookup Flip44Ok GeoModel GeoSpec GeoProofs GeoMesh UtilModel
  UtilSpec SortProofs DelOk PropMesh QualModel ProgModel ProgSpec ProgBase RecModel RecSpec PropRec CrossModel CrossSpec CrossOk PropCross WayModel WaySpec WayOk WayGeo WayOrder.
Local Open Scope nat_scope.

(** ** C52 *)
(** [edge_intersections_raw] starts at a vertex [v0] of the mesh.  For all tests that do not panic and treat the ways to write
    a triangle or an edge alike, however they round, it does not panic.  The first [n] things that it lists are a way
    from [v0] towards [v1]: see [way].  If there are fewer, these are all. *)
Theorem C52_way {V T} tbary ebary flat (m : mesh V T) v0 v1 n : mesh_ok m → even_handed tbary ebary flat m v0 v1 → solid m v0 →
  ∃ l all, edge_intersections_raw tbary ebary flat n m v0 v1 = Some (l, all) ∧
    way (hits tbary ebary flat m v0 v1) (hits_back tbary m v0 v1) m v1 (From v0) l all ∧ (all = false → length l = n).
Proof. intros Hok Hev Hs. by apply edge_intersections_ok. Qed.
Print Assumptions C52_way.

Lemma way_each {V T} hit back (m : mesh V T) v1 p l all : mesh_ok m → way hit back m v1 p l all → ∀ g x, (g, x) ∈ l → present m g ∧ hit g x ∧ v1 ∉ corners g.
Proof.
  intros Hok. induction 1 as [p|p Ha|p Hl|p id g x p' l all Ha Hh Hq He Hb Hl Hw IH]; intros g' x' Hi; [by apply elem_of_nil in Hi..|].
  apply elem_of_cons in Hi as [[= -> ->]|Hi]; [|by apply IH]. split; [|done]. by apply (ahead_present m Hok p id).
Qed.
(** All that is listed is in the mesh, is crossed, and does not touch [v1]; so it may be handed to the removal of what is
    in the way of an edge (C45). *)
Theorem C52_each {V T} tbary ebary flat (m : mesh V T) v0 v1 n l all : mesh_ok m → even_handed tbary ebary flat m v0 v1 → solid m v0 →
  edge_intersections_raw tbary ebary flat n m v0 v1 = Some (l, all) →
  (∀ g x, (g, x) ∈ l → present m g ∧ hits tbary ebary flat m v0 v1 g x ∧ v1 ∉ corners g) ∧
  ((∀ v x, ¬ hits tbary ebary flat m v0 v1 (SEdge (GHOST, v)) x) → listed m l.*1).
Proof.
  intros Hok Hev Hs E. destruct (C52_way _ _ _ m v0 v1 n Hok Hev Hs) as (l' & all' & E' & Hw & _). rewrite E in E'. injection E' as <- <-.
  assert (∀ g x, (g, x) ∈ l → present m g ∧ hits tbary ebary flat m v0 v1 g x ∧ v1 ∉ corners g) as He by (by eapply way_each). split; [done|].
  intros Hg g ([g' x] & -> & Hi)%elem_of_list_fmap. cbn [fst]. destruct (He _ _ Hi) as (H1 & H2 & _). split; [done|]. destruct g' as [[a b]|t]; [|done]. cbn [fst]. intros ->. by apply (Hg b x).
Qed.
Print Assumptions C52_each.

(** If [v0] and [v1] are joined, nothing is listed, unless a triangle opposite to [v0] is crossed with negative coordinates. *)
Theorem C52_joined {V T} tbary ebary flat (m : mesh V T) v0 v1 n : mesh_ok m → even_handed tbary ebary flat m v0 v1 → solid m v0 → joined m v0 v1 → 0 < n →
  (∀ id t, ahead m (From v0) id (STri t) → ¬ hits_back tbary m v0 v1 (STri t)) →
  edge_intersections_raw tbary ebary flat n m v0 v1 = Some ([], true).
Proof.
  intros Hok Hev Hs (w & Hw & Ep) Hn Hno. destruct (C52_way _ _ _ m v0 v1 n Hok Hev Hs) as (l & all & E & Hway & Hlen). rewrite E. enough ((l, all) = ([], true)) as -> by done. clear E.
  assert (arrived m v1 (From v0)) as Harr.
  { destruct (wverts_ex m w Hw) as (a & b & c & d & Ev). rewrite (wverts_pair _ _ _ _ _ _ Ev) in Ep. injection Ep as -> ->. pose proof (ok_distinct m Hok _ _ _ _ _ Hw Ev) as Hnd.
    apply NoDup4 in Hnd as (?&?&?&?&?&?). exists (w_tet w), (v1, c, d). cbn [corners]. split; [|set_solver]. split; [rewrite (within_verts m _ _ _ _ _ _ Hw Ev); set_solver|].
    split; [by apply nodup3|]. split; [rewrite (within_verts m _ _ _ _ _ _ Hw Ev); set_solver|]. set_solver. }
  inversion Hway as [p|p Ha|p Hl|p id g x p' l' all' Ha Hh Hq He Hb Hl Hw']; subst; [specialize (Hlen eq_refl); cbn in Hlen; lia|done|done|].
  exfalso. destruct (Hb Harr) as (_ & (t & ->) & Hback). by apply (Hno id t).
Qed.
Print Assumptions C52_joined.

(** The exact tests are such tests. *)
Lemma covers_attached {V T} (m : mesh V T) g v : mesh_ok m → present m g → v ∈ corners g → attached m v.
Proof.
  intros Hok Hp Hv. apply (present_covers m g Hok) in Hp as (_ & id & vs & E & Hs). unfold vs_of in E. apply fmap_Some in E as (t & Et & ->).
  apply History.attached_vs. exists id, t. split; [done|]. by apply Hs.
Qed.
Theorem C52_exact_tests {V T} (m : mesh V T) v0 v1 : mesh_ok m → solid m v0 → solid m v1 → even_handed tri_edge_bary edge_edge_bary coplanar m v0 v1.
Proof.
  intros Hok [N0 A0] [N1 A1]. assert (∀ v, attached m v → is_Some (idx_ori m v)) as Hk by (intros v; by apply attached_known).
  assert (∀ a b c d, attached m a → attached m b → attached m c → attached m d → ∃ z, orient_3d m a b c d = Some z) as Ho.
  { intros a b c d Ha Hb Hc Hd. by destruct (orient_3d_known m a b c d) as [z Ez]; eauto. }
  split.
  - intros a b c Ht. assert (∀ v, v ∈ [a; b; c] → attached m v) as Hat by (intros v; by apply (covers_attached m (STri (a, b, c)))).
    assert (attached m a) by (apply Hat; set_solver). assert (attached m b) by (apply Hat; set_solver). assert (attached m c) by (apply Hat; set_solver). unfold tri_edge_bary.
    destruct (Ho b c v0 v1) as [? ->]; [done..|]. destruct (Ho c a v0 v1) as [? ->]; [done..|]. destruct (Ho a b v0 v1) as [? ->]; [done..|].
    destruct (Ho a b c v1) as [? ->]; [done..|]. destruct (Ho c b a v0) as [? ->]; [done..|]. cbn. eauto.
  - intros a b [Ha Hb]%joined_attached; [|done]. unfold coplanar. destruct (Ho a b v0 v1) as [? ->]; [done..|]. cbn. eauto.
  - intros a b [Ha Hb]%joined_attached _; [|done]. unfold edge_edge_bary. destruct (Hk a Ha) as [? ->], (Hk b Hb) as [? ->], (Hk v0 A0) as [? ->], (Hk v1 A1) as [? ->]. cbn [mbind option_bind]. destruct (_ && _); eauto.
  - intros g h Hp Ha [x Hx]. apply (present_covers m g Hok) in Hp as (Hn & _). destruct g as [[a b]|t], h as [[c d]|t'].
    + unfold alike in Ha. cbn [corners] in Ha. apply Permutation_length_2_inv in Ha as [[= -> ->]|[= -> ->]]; [by exists x|]. destruct Hx as (Hf & bs & Eb & Hs & ->). unfold coplanar in Hf.
      destruct (orient_3d m a b v0 v1) as [o|] eqn:Eo; [|done]. cbn [mbind option_bind] in Hf. apply (inj Some), bool_decide_eq_true in Hf as ->.
      assert (∃ b0 b1 b2 b3, bs = [b0; b1; b2; b3]) as (b0 & b1 & b2 & b3 & ->).
      { unfold edge_edge_bary in Eb. repeat (apply bind_Some in Eb as (? & _ & Eb)). destruct (_ && _); injection Eb as <-; eauto 10. }
      exists (b2, b3). split; [unfold coplanar; by rewrite (o3_01 _ _ _ _ _ _ Eo)|]. exists [b1; b0; b2; b3]. split; [by apply eeb_swap|]. split; [|done].
      rewrite !forall4 in Hs |- *. tauto.
    + destruct t' as [[? ?] ?]. apply Permutation_length in Ha. done.
    + destruct t as [[? ?] ?]. apply Permutation_length in Ha. done.
    + destruct (hits_alike m v0 v1 t t' x Hn Ha Hx) as [H|H]; by eexists.
Qed.
Print Assumptions C52_exact_tests.

(** With exact tests, in a mesh of positively oriented tets: as long as only triangles are crossed, they are listed in the order
    in which they come on the segment, so none is listed twice. *)
Notation exact_way := (edge_intersections_raw tri_edge_bary edge_edge_bary coplanar).
Lemma along_alike {V T} (m : mesh V T) v0 v1 t t' x y : NoDup (corners (STri t)) → alike (STri t) (STri t') →
  hits tri_edge_bary edge_edge_bary coplanar m v0 v1 (STri t) x → hits tri_edge_bary edge_edge_bary coplanar m v0 v1 (STri t') y → along x = along y.
Proof.
  intros Hn Ha Hx Hy. assert (∀ u z z', hits tri_edge_bary edge_edge_bary coplanar m v0 v1 (STri u) z → hits tri_edge_bary edge_edge_bary coplanar m v0 v1 (STri u) z' → z = z') as Hu.
  { intros [[a b] c] z z' (bs & E & _ & ->) (bs' & E' & _ & ->). congruence. }
  destruct (hits_alike m v0 v1 t t' x Hn Ha Hx) as [H|H]; rewrite (Hu _ _ _ Hy H); [done|]. unfold along. cbn [fst snd]. f_equal; [|f_equal]; lia.
Qed.
Lemma sorted_nodup {A} (f : A → Q) (same : A → A → Prop) (l : list A) : StronglySorted Qlt (f <$> l) → (∀ a b, a ∈ l → b ∈ l → same a b → f a = f b) → ∀ i j a b, l !! i = Some a → l !! j = Some b → same a b → i = j.
Proof.
  intros Hs Hf. assert (∀ i j a b, i < j → l !! i = Some a → l !! j = Some b → (f a < f b)%Q) as Hlt.
  { clear Hf. induction l as [|c l IH]; intros i j a b Hij Ha Hb; [done|]. cbn [fmap list_fmap] in Hs. apply StronglySorted_inv in Hs as [Hs Hc]. destruct j as [|j]; [lia|]. cbn in Hb. destruct i as [|i].
    - cbn in Ha. injection Ha as <-. rewrite List.Forall_forall in Hc. apply Hc, elem_of_list_In, elem_of_list_fmap. exists b. split; [done|]. by eapply elem_of_list_lookup_2.
    - cbn in Ha. apply (IH Hs i j); [lia|done|done]. }
  intros i j a b Ha Hb Hab. pose proof (Hf a b (elem_of_list_lookup_2 _ _ _ Ha) (elem_of_list_lookup_2 _ _ _ Hb) Hab) as E.
  destruct (Nat.lt_trichotomy i j) as [Hij|[->|Hij]]; [|done|].
  - exfalso. pose proof (Hlt _ _ _ _ Hij Ha Hb) as H. rewrite E in H. by apply Qlt_irrefl in H.
  - exfalso. pose proof (Hlt _ _ _ _ Hij Hb Ha) as H. rewrite E in H. by apply Qlt_irrefl in H.
Qed.
Theorem C52_order {V T} (m : mesh V T) v0 v1 n l all : mesh_ok m → upright m → solid m v0 → solid m v1 →
  exact_way n m v0 v1 = Some (l, all) → (∀ e x, (SEdge e, x) ∉ l) →
  StronglySorted Qlt (along <$> l.*2) ∧ (∀ i j g h x y, l !! i = Some (g, x) → l !! j = Some (h, y) → alike g h → i = j).
Proof.
  intros Hok Hup H0 H1 E Htri. destruct (C52_way _ _ _ m v0 v1 n Hok (C52_exact_tests m v0 v1 Hok H0 H1) H0) as (l' & all' & E' & Hw & _). rewrite E in E'. injection E' as <- <-.
  pose proof (way_sorted m v0 v1 Hok (proj1 H0) (proj1 H1) Hup _ _ _ Hw) as Hs. cbn beta iota in Hs.
  assert (Sorted Qlt (along <$> l.*2)) as Hs'. { apply Hs; [|done]. intros [e|t] x Hi; [by apply Htri in Hi|done]. } clear Hs.
  apply Sorted_StronglySorted in Hs'; [|intros x y z; apply Qlt_trans]. split; [done|].
  assert (StronglySorted Qlt ((λ e : crossing, along e.2) <$> l)) as Hs2. { rewrite <- list_fmap_compose in Hs'. exact Hs'. }
  intros i j g h x y Hi Hj Ha. apply (sorted_nodup (λ e : crossing, along e.2) (λ e f, alike e.1 f.1) l Hs2) with (a := (g, x)) (b := (h, y)); [|done|done|done].
  intros [g' x'] [h' y'] Hg Hh Hal. cbn [fst snd] in *. pose proof (way_each _ _ m v1 _ _ _ Hok Hw _ _ Hg) as (P1 & P2 & _). pose proof (way_each _ _ m v1 _ _ _ Hok Hw _ _ Hh) as (_ & P3 & _).
  destruct g' as [e|t]; [by apply Htri in Hg|]. destruct h' as [e|t']; [by apply Htri in Hh|]. apply (along_alike m v0 v1 t t'); [|done..]. by apply (present_covers m (STri t) Hok) in P1 as (Hn & _).
Qed.
Print Assumptions C52_order.

Lemma follow_more {V T} tbary ebary flat (m : mesh V T) v0 v1 n : ∀ n' prev w x l, n ≤ n' → follow tbary ebary flat n m v0 v1 prev w x = Some (l, true) → follow tbary ebary flat n' m v0 v1 prev w x = Some (l, true).
Proof.
  induction n as [|n IH]; intros n' prev w x l Hn; cbn [follow]; [done|]. destruct n' as [|n']; [lia|]. cbn [follow]. destruct (way_next _ _ _ _ _ _ _ _ _) as [[[w' x']|]|]; cbn [mbind option_bind]; [|done..].
  destruct (follow tbary ebary flat n m v0 v1 _ w' x') as [[l' all]|] eqn:E; cbn [mbind option_bind]; [|done]. intros [= <- ->]. rewrite (IH n' _ _ _ _ ltac:(lia) E). done.
Qed.
Lemma way_more {V T} tbary ebary flat (m : mesh V T) v0 v1 n n' l : n ≤ n' → edge_intersections_raw tbary ebary flat n m v0 v1 = Some (l, true) → edge_intersections_raw tbary ebary flat n' m v0 v1 = Some (l, true).
Proof.
  destruct n as [|n]; [done|]. destruct n' as [|n']; [lia|]. intros Hn. cbn [edge_intersections_raw]. destruct (way_first _ _ _ _ _ _) as [[[w' x']|]|]; cbn [mbind option_bind]; [|done..].
  destruct (follow tbary ebary flat n m v0 v1 _ w' x') as [[l' all]|] eqn:E; cbn [mbind option_bind]; [|done]. intros [= <- ->]. rewrite (follow_more _ _ _ _ _ _ n n' _ _ _ _ ltac:(lia) E). done.
Qed.
Lemma few_tris {V T} (m : mesh V T) (l : list simplex) : mesh_ok m → (∀ g, g ∈ l → present m g ∧ ∃ t, g = STri t) → (∀ i j g h, l !! i = Some g → l !! j = Some h → alike g h → i = j) →
  length l ≤ 12 * length (im_keys (m_tets m)).
Proof.
  intros Hok Hp Hu. set (ws := im_keys (m_tets m) ≫= λ id, Walker id <$> seq 0 12).
  assert (∀ w, valid m w → w ∈ ws) as Hws.
  { intros [id e] [Hid He]. cbn in Hid, He. apply elem_of_list_bind. exists id. split; [apply elem_of_list_fmap; exists e; split; [done|]; apply elem_of_seq; lia|].
    apply elem_of_im_keys; [apply Hok|done]. }
  assert (length ws = 12 * length (im_keys (m_tets m))) as <-.
  { unfold ws. generalize (im_keys (m_tets m)). intros k. induction k as [|a k IH]; [done|]. rewrite bind_cons, app_length, IH, fmap_length, seq_length. cbn [length]. lia. }
  rewrite <- (fmap_length (λ w, w_tri m w)). rewrite <- (fmap_length (λ g, match g with STri t => Some t | SEdge _ => None end) l).
  apply submseteq_length, NoDup_submseteq.
  - apply NoDup_alt. intros i j x Hi Hj. apply list_lookup_fmap_Some in Hi as (g & Hi & ->). apply list_lookup_fmap_Some in Hj as (h & Hj & Eq). apply (Hu i j g h Hi Hj).
    destruct (Hp g) as [_ [t ->]]; [by eapply elem_of_list_lookup_2|]. destruct (Hp h) as [_ [t' ->]]; [by eapply elem_of_list_lookup_2|]. injection Eq as ->. unfold alike. done.
  - intros x (g & -> & Hg)%elem_of_list_fmap. destruct (Hp g Hg) as [Hpr [[[a b] c] ->]]. destruct Hpr as (w & Hw & E). apply elem_of_list_fmap. exists w. split; [done|]. by apply Hws.
Qed.

(** In general position only triangles are crossed.  Then the search ends, with a list of at most twelve times as many triangles as
    there are tets.  Unless there is nothing to list, it has come all the way to [v1]: the last triangle listed and
    [v1] are in one tet. *)
Theorem C52_general {V T} (m : mesh V T) v0 v1 : mesh_ok m → upright m → solid m v0 → solid m v1 → generic m v0 v1 →
  ∃ l, (∀ n, 12 * length (im_keys (m_tets m)) < n → exact_way n m v0 v1 = Some (l, true)) ∧
    (∀ g x, (g, x) ∈ l → ∃ t, g = STri t) ∧ StronglySorted Qlt (along <$> l.*2) ∧
    (l = [] ∨ ∃ g x id, stdpp.list.last l = Some (g, x) ∧ within m id (v1 :: corners g)).
Proof.
  intros Hok Hup H0 H1 [Hg1 Hg2]. set (N := 12 * length (im_keys (m_tets m))).
  pose proof (C52_exact_tests m v0 v1 Hok H0 H1) as Hev.
  destruct (C52_way _ _ _ m v0 v1 (S N) Hok Hev H0) as (l & all & E & Hw & Hlen).
  assert (∀ g x, (g, x) ∈ l → ∃ t, g = STri t) as Htri.
  { intros g x Hi. pose proof (way_tris m v0 v1 Hok (proj1 H0) (proj1 H1) Hup Hg1 Hg2 (attached_known m v0 Hok (proj2 H0)) (attached_known m v1 Hok (proj2 H1)) _ _ _ Hw g x Hi) as Ht. destruct g; [done|eauto]. }
  destruct (C52_order m v0 v1 (S N) l all Hok Hup H0 H1 E) as [Hs Hnd]. { intros e x Hi. by destruct (Htri _ _ Hi). }
  assert (length l ≤ N) as Hl.
  { assert (length (fst <$> l) ≤ N) as Hx; [|rewrite fmap_length in Hx; exact Hx]. apply few_tris; [done| |].
    - intros g ([g' x] & -> & Hi)%elem_of_list_fmap. cbn [fst]. split; [by apply (way_each _ _ m v1 _ _ _ Hok Hw _ _ Hi)|by eapply Htri].
    - intros i j g h Hi Hj Ha. apply list_lookup_fmap_Some in Hi as ([g' x] & Hi & ->). apply list_lookup_fmap_Some in Hj as ([h' y] & Hj & ->). by apply (Hnd i j g' h' x y). }
  destruct all; [|specialize (Hlen eq_refl); lia].
  exists l. split; [|split; [done|split; [done|]]].
  - intros n Hn. apply (way_more _ _ _ m v0 v1 (S N)); [lia|done].
  - apply (way_goal m v0 v1 Hok (proj1 H0) (proj1 H1) Hup Hg1 Hg2 (attached_known m v0 Hok (proj2 H0)) (attached_known m v1 Hok (proj2 H1)) _ _ _ Hw); done.
Qed.
Print Assumptions C52_general.

(** ** C53 *)
(** [edge_intersects_edge] says whether two segments in no common line cross at a point strictly inside both. *)
Theorem C53_segments {V T} (m : mesh V T) v0 v1 v2 v3 p0 p1 p2 p3 : GHOST ∉ [v0; v1; v2; v3] →
  idx_ori m v0 = Some p0 → idx_ori m v1 = Some p1 → idx_ori m v2 = Some p2 → idx_ori m v3 = Some p3 →
  ∃ r, edge_intersects_edge m v0 v1 v2 v3 = Some r ∧
    (r = true ↔ open_segments_meet p0 p1 p2 p3 ∧ vcross (vsub p1 p0) (vsub p3 p2) ≠ Pt 0 0 0).
Proof.
  intros Hg E0 E1 E2 E3. assert (∀ l : list N, (∀ x, x ∈ l → x ∈ [v0; v1; v2; v3]) → has_ghost l = false) as Hng.
  { intros l Hl. apply not_true_iff_false. unfold has_ghost. rewrite existsb_exists. intros (x & Hx%elem_of_list_In & <-%N.eqb_eq). by apply Hg, Hl. }
  unfold edge_intersects_edge, orient_3d, edge_edge_bary. rewrite E0, E1, E2, E3. cbn [mbind option_bind]. rewrite !Hng by set_solver. rewrite !Z.mul_1_l.
  rewrite eqb_ghost by set_solver. pose proof (seg_seg p0 p1 p2 p3) as Hss. remember (vcross (vsub p1 p0) (vsub p3 p2)) as c eqn:Ec.
  assert (((px c =? 0) && (py c =? 0) && (pz c =? 0) = true)%Z ↔ c = Pt 0 0 0) as Hc.
  { destruct c as [x y z]. cbn [px py pz]. rewrite !andb_true_iff, !Z.eqb_eq. split; [intros [[-> ->] ->]; done|by intros [= -> -> ->]]. }
  destruct (_ && _ && _).
  - assert (c = Pt 0 0 0) as Hz by by apply Hc. destruct (bool_decide_reflect (orient p0 p1 p2 p3 ≠ 0%Z)); cbn [mbind option_bind]; exists false; (split; [done|]); (split; [done|by intros [_ ?]]).
  - assert (c ≠ Pt 0 0 0) as Hz. { intros H%Hc. done. } specialize (Hss Hz). destruct (bool_decide_reflect (orient p0 p1 p2 p3 ≠ 0%Z)) as [Ho|Ho]; cbn [mbind option_bind].
    + exists false. split; [done|]. split; [done|]. intros [H _]. apply Hss in H as [H _]. done.
    + eexists. split; [done|]. rewrite orb_true_iff, all_pos_spec, all_neg_spec. rewrite <- Hss. split; [intros H; split; [split; [|done]|done]; lia|intros [[_ H] _]; done].
Qed.
Print Assumptions C53_segments.

(** The point that [edge_intersections] computes for an edge that is crossed (src/tet/geo.rs 436-438), before the division: as a combination of
    the ends of the edge it is the same as as a combination of the ends of the segment. *)
Theorem C53_point {V T} (m : mesh V T) v0 v1 v2 v3 p0 p1 p2 p3 b0 b1 b2 b3 : GHOST ∉ [v0; v1; v2; v3] →
  idx_ori m v0 = Some p0 → idx_ori m v1 = Some p1 → idx_ori m v2 = Some p2 → idx_ori m v3 = Some p3 →
  coplanar m v0 v1 v2 v3 = Some true → edge_edge_bary m v0 v1 v2 v3 = Some [b0; b1; b2; b3] →
  (b0 + b1 = b2 + b3)%Z ∧ vadd (scale (b0 + b1) p0) (scale b1 (vsub p1 p0)) = vadd (scale (b2 + b3) p2) (scale b3 (vsub p3 p2)).
Proof.
  intros Hg E0 E1 E2 E3. assert (∀ l : list N, (∀ x, x ∈ l → x ∈ [v0; v1; v2; v3]) → has_ghost l = false) as Hng.
  { intros l Hl. apply not_true_iff_false. unfold has_ghost. rewrite existsb_exists. intros (x & Hx%elem_of_list_In & <-%N.eqb_eq). by apply Hg, Hl. }
  unfold coplanar, orient_3d, edge_edge_bary. rewrite E0, E1, E2, E3. cbn [mbind option_bind]. rewrite !Hng by set_solver. rewrite !Z.mul_1_l. rewrite eqb_ghost by set_solver.
  intros Ho%(inj Some)%bool_decide_eq_true. pose proof (seg_01 p0 p1 p2 p3) as S1. pose proof (seg_23 p0 p1 p2 p3) as S2. pose proof (seg_point p0 p1 p2 p3) as S3. rewrite Ho in S2, S3.
  destruct (_ && _ && _).
  - intros [= <- <- <- <-]. split; [done|]. apply pt_eq. unfold scale, vadd, vsub. cbn [px py pz]. repeat split; ring.
  - intros [= <- <- <- <-]. revert S1 S2 S3. generalize (orient p2 p1 p3 (vadd p2 (vcross (vsub p1 p0) (vsub p3 p2)))) (orient p3 p0 p2 (vadd p2 (vcross (vsub p1 p0) (vsub p3 p2))))
      (orient p1 p3 p0 (vadd p2 (vcross (vsub p1 p0) (vsub p3 p2)))) (orient p0 p2 p1 (vadd p2 (vcross (vsub p1 p0) (vsub p3 p2)))). intros c0 c1 c2 c3 S1 S2 S3. split; [lia|].
    apply pt_eq in S3. apply pt_eq. revert S3. unfold scale, vscale, vadd, vsub. cbn [px py pz]. intros (Hx & Hy & Hz). lia.
Qed.
Print Assumptions C53_point.

(** ** Witnesses *)
(** A tet, a vertex beyond one of its triangles, and one more vertex in the second tet. *)
Definition way_ops : list (op Z) := [OInsert (walker_from_tet_id 1) (Pt 4 5 6) 14%Z; OInsert (walker_from_tet_id 7) (Pt 2 2 2) 15%Z].
Definition pairsb {V T} (m : mesh V T) : list (N * N) := omap (w_pair m) (walkers m).
Definition uprightb {V T} (m : mesh V T) : bool :=
  forallb (λ x : N * tet T, match orient_3d m (q0 (t_vs x.2)) (q1 (t_vs x.2)) (q2 (t_vs x.2)) (q3 (t_vs x.2)) with Some z => Z.ltb 0 z | None => false end) (map_to_list (im_slots (m_tets m))).
Lemma uprightb_spec {V T} (m : mesh V T) : uprightb m = true → upright m.
Proof.
  unfold uprightb. rewrite forallb_forall. intros H id t Et. specialize (H (id, t)). cbn [snd] in H. destruct (orient_3d _ _ _ _ _) as [z|]; [exists z; split; [done|]; apply Z.ltb_lt, H|discriminate H];
    by apply elem_of_list_In, elem_of_map_to_list.
Qed.
Definition in_placeb {V T} (m : mesh V T) (v : N) (l : list N) : bool :=
  match l with
  | [a; b; c; d] =>
    match orient_3d m a b c d, orient_3d m v b c d, orient_3d m a v c d, orient_3d m a b v d, orient_3d m a b c v with
    | Some D, Some za, Some zb, Some zc, Some zd => Z.ltb 0 D && Z.leb 0 za && Z.leb 0 zb && Z.leb 0 zc && Z.leb 0 zd
    | _, _, _, _, _ => false
    end
  | _ => false
  end.
Definition genericb {V T} (m : mesh V T) (v0 v1 : N) : bool :=
  forallb (λ e : N * N, bool_decide (e.1 ∈ [v0; v1]) || bool_decide (e.2 ∈ [v0; v1]) || negb (bool_decide (orient_3d m e.1 e.2 v0 v1 = Some 0%Z))) (pairsb m) &&
  forallb (λ x : N * tet T, bool_decide (v1 ∈ list4 (t_vs x.2)) || forallb (λ l, negb (in_placeb m v1 l)) (permutations (list4 (t_vs x.2)))) (map_to_list (im_slots (m_tets m))).
Lemma genericb_spec {V T} (m : mesh V T) v0 v1 : genericb m v0 v1 = true → generic m v0 v1.
Proof.
  unfold genericb. rewrite andb_true_iff, !forallb_forall. intros [H1 H2]. split.
  - intros a b (w & Hw & E) Ha Hb Eo. assert ((a, b) ∈ pairsb m) as Hi. { apply elem_of_list_omap. exists w. split; [by apply walkers_spec|done]. }
    apply elem_of_list_In, H1 in Hi. cbn [fst snd] in Hi. rewrite !orb_true_iff, negb_true_iff, !bool_decide_eq_true, bool_decide_eq_false in Hi. tauto.
  - intros id Hn (a & b & c & d & (t & Et & Hp) & D & za & zb & zc & zd & E0 & E1 & E2 & E3 & E4 & Hs).
    specialize (H2 (id, t)). cbn [snd] in H2. rewrite orb_true_iff, bool_decide_eq_true, forallb_forall in H2. destruct H2 as [H2|H2].
    + by apply elem_of_list_In, elem_of_map_to_list.
    + apply Hn. exists t. split; [done|]. by intros v ->%elem_of_list_singleton.
    + specialize (H2 [a; b; c; d]). rewrite negb_true_iff in H2. unfold in_placeb in H2. rewrite E0, E1, E2, E3, E4 in H2. rewrite !andb_false_iff, !Z.ltb_ge, !Z.leb_gt in H2.
      assert (In [a; b; c; d] (permutations (list4 (t_vs t)))) as Hi; [|specialize (H2 Hi); lia]. apply elem_of_list_In, permutations_Permutation. done.
Qed.
Example C52_witness : mesh_ok (ex way_ops) ∧ upright (ex way_ops) ∧ solid (ex way_ops) 0 ∧ solid (ex way_ops) 4 ∧ generic (ex way_ops) 0 4 ∧
  exact_way 200 (ex way_ops) 0 4 = Some ([(STri (3, 2, 1)%N, (-176, -64)%Z); (STri (1, 5, 2)%N, (-56, -32)%Z)], true) ∧
  joinedb (ex way_ops) 0 4 = false ∧ joined (ex way_ops) 5 4 ∧ exact_way 5 (ex way_ops) 5 4 = Some ([], true).
Proof.
  split; [apply (reachable_ok (ex way_ops)), ex_reachable; vm_compute; reflexivity|]. split; [apply uprightb_spec; vm_compute; reflexivity|].
  split; [apply solidb_spec; vm_compute; reflexivity|]. split; [apply solidb_spec; vm_compute; reflexivity|]. split; [apply genericb_spec; vm_compute; reflexivity|].
  split; [vm_compute; reflexivity|]. split; [vm_compute; reflexivity|]. split; [apply joinedb_spec; vm_compute; reflexivity|vm_compute; reflexivity].
Qed.
Print Assumptions C52_witness.
(** A segment that meets an edge: (0, 4) and (2, 3) are the diagonals of a quadrilateral. *)
Definition way_ops2 : list (op Z) := [OInsert (walker_from_tet_id 1) (Pt 3 3 0) 14%Z].
Example C53_witness : mesh_ok (ex way_ops2) ∧ solid (ex way_ops2) 0 ∧ solid (ex way_ops2) 4 ∧ GHOST ∉ [0; 4; 2; 3]%N ∧
  idx_ori (ex way_ops2) 0 = Some (Pt 0 0 0) ∧ idx_ori (ex way_ops2) 4 = Some (Pt 3 3 0) ∧ idx_ori (ex way_ops2) 2 = Some (Pt 0 4 0) ∧ idx_ori (ex way_ops2) 3 = Some (Pt 4 0 0) ∧
  edge_intersects_edge (ex way_ops2) 0 4 2 3 = Some true ∧ edge_intersects_edge (ex way_ops2) 0 4 1 3 = Some false ∧
  coplanar (ex way_ops2) 2 3 0 4 = Some true ∧ edge_edge_bary (ex way_ops2) 2 3 0 4 = Some [-288; -288; -192; -384]%Z ∧
  exact_way 200 (ex way_ops2) 0 4 = Some ([(SEdge (3, 2)%N, (-192, -384)%Z)], true).
Proof.
  split; [apply (reachable_ok (ex way_ops2)), ex_reachable; vm_compute; reflexivity|].
  split; [apply solidb_spec; vm_compute; reflexivity|]. split; [apply solidb_spec; vm_compute; reflexivity|]. split; [apply (bool_decide_unpack _); vm_compute; done|].
  repeat (split; [vm_compute; reflexivity|]). vm_compute. reflexivity.
Qed.
