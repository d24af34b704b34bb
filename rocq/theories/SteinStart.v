(** The regions that the search for the cavity of a new vertex starts from. *)
From stdpp Require Import base numbers list gmap option.
From Coq Require Import NArith ZArith Lia.
From Verif Require Import IdMapModel WalkerModel WalkerProofs MeshModel MeshOps MeshSpec MeshViews GeoModel GeoProofs IterModel IterProofs CavModel CavSpec CavBase QualModel ProgModel DelModel CavOk ProgSpec CrossOk Flip44Ok IterLookup SteinModel.
Local Open Scope nat_scope.

Section start.
  Context {V T : Type}.
  Implicit Types (m : mesh V T) (w : walker).

  Lemma side_of_rot m v p q r : side_of m v (p, q, r) = side_of m v (q, r, p).
  Proof.
    unfold side_of, orient_3d. cbn [fst snd]. assert (has_ghost [q; r; p; v] = has_ghost [p; q; r; v]) as ->.
    { unfold has_ghost. cbn [existsb]. by destruct (N.eqb GHOST p), (N.eqb GHOST q), (N.eqb GHOST r). }
    destruct (idx_ori m p) as [a|], (idx_ori m q) as [b|], (idx_ori m r) as [c|], (idx_ori m v) as [d|]; cbn [mbind option_bind default]; try done.
    rewrite (orient_swap12 b a c d), (orient_swap01 a b c d). unfold default, from_option, id. ring.
  Qed.
  Lemma side_of_swap m v p q r : (side_of m v (q, p, r) = - side_of m v (p, q, r))%Z.
  Proof.
    unfold side_of, orient_3d. cbn [fst snd]. assert (has_ghost [q; p; r; v] = has_ghost [p; q; r; v]) as ->.
    { unfold has_ghost. cbn [existsb]. by destruct (N.eqb GHOST p), (N.eqb GHOST q). }
    destruct (idx_ori m p) as [a|], (idx_ori m q) as [b|], (idx_ori m r) as [c|], (idx_ori m v) as [d|]; cbn [mbind option_bind default]; try done.
    rewrite (orient_swap01 a b c d). unfold default, from_option, id. ring.
  Qed.

  (** Two boundary triangles that all see the vertex are not the two sides of one triangle. *)
  Lemma seen_apart m v w w' a b c : mesh_ok m → valid m w → valid m w' → side w' = tw m (side w) → w_tri m w = Some (a, b, c) →
    (0 < side_of m v (a, b, c))%Z → (∀ t, w_tri m w' = Some t → 0 < side_of m v t)%Z → False.
  Proof.
    intros Hok Hw Hw' Hs Et Hp Hp'. destruct (wverts_ex m w Hw) as (a' & b' & c' & d & Ev). rewrite (wverts_tri _ _ _ _ _ _ Ev) in Et. injection Et as -> -> ->.
    destruct (ok_adj m Hok w a b c d Hw Ev) as (y & x & Ey & Hy & Evy & _). destruct (adj_tw m w y Hok Hw Ey) as [_ Hsy].
    assert (w' = y ∨ w' = to_nfe y ∨ w' = to_pfe y) as Hc.
    { assert (side w' = side y) as E by congruence. destruct w' as [i e], y as [j f]. unfold side in E. cbn [w_tet w_edge] in E. injection E as -> E.
      destruct Hw' as [_ He], Hy as [_ Hf]. cbn [w_edge] in *. clear - E He Hf. unfold to_nfe, to_pfe. cbn [w_tet w_edge].
      do 12 (destruct e as [|e]; [do 12 (destruct f as [|f]; [first [discriminate E|left; reflexivity|right; left; reflexivity|right; right; reflexivity]|]); lia|]); lia. }
    assert (∀ p q r, side_of m v (p, q, r) = side_of m v (q, r, p)) as Hrot by (intros; apply side_of_rot).
    assert (∀ p q r, side_of m v (q, p, r) = - side_of m v (p, q, r))%Z as Hswap by (intros; apply side_of_swap).
    destruct Hc as [-> | [-> | -> ]].
    - specialize (Hp' _ (wverts_tri _ _ _ _ _ _ Evy)). rewrite Hswap in Hp'. lia.
    - specialize (Hp' _ (wverts_tri _ _ _ _ _ _ (wverts_nfe m y b a c x Hy Evy))). rewrite <- Hrot, Hswap in Hp'. lia.
    - specialize (Hp' _ (wverts_tri _ _ _ _ _ _ (wverts_pfe m y b a c x Hy Evy))). rewrite Hrot, Hswap in Hp'. lia.
  Qed.

  (** Tets, some of their triangles, and others that are glued in pairs: the first are the boundary. *)
  Lemma start_bound m v E B (I : N * nat → Prop) : mesh_ok m → (∀ id, id ∈ E → is_Some (tet_get m id)) → Forall (λ w, valid m w ∧ w_tet w ∈ E) B → NoDup (side <$> B) →
    (∀ f, lf m f → f.1 ∈ E → f ∈ side <$> B ∨ I f) → (∀ f, lf m f → I f → f ∉ side <$> B ∧ f.1 ∈ E ∧ I (tw m f)) →
    (∀ w t, w ∈ B → w_tri m w = Some t → 0 < side_of m v t)%Z → boundary_of m E B.
  Proof.
    intros Hok HE HB Hn Hall HI Hp. rewrite list.Forall_forall in HB. apply sides_bound; [done| |done|].
    { rewrite list.Forall_forall. intros w Hw. by apply HB. }
    assert (∀ f, f ∈ side <$> B → lf m f ∧ f.1 ∈ E) as HB'.
    { intros f (w & -> & Hw)%elem_of_list_fmap. destruct (HB w Hw). split; [by apply side_lf|done]. }
    intros f Hf. split.
    - intros Hin. split; [by apply HB'|]. intros Ht. destruct (tw_lf m f Hok Hf) as [Hf' _]. destruct (Hall _ Hf' Ht) as [Hin'|Hi].
      + apply elem_of_list_fmap in Hin as (w & -> & Hw). apply elem_of_list_fmap in Hin' as (w' & Hs & Hw'). destruct (HB w Hw) as [Hv _], (HB w' Hw') as [Hv' _].
        destruct (wverts_ex m w Hv) as (a & b & c & d & Ev). apply (seen_apart m v w w' a b c); [done|done|done|done|by eapply wverts_tri|..].
        * apply (Hp w); [done|by eapply wverts_tri].
        * intros t. by apply Hp.
      + destruct (HI _ Hf' Hi) as (_ & _ & Hi'). rewrite tw_tw in Hi' by done. by destruct (HI _ Hf Hi').
    - intros [H1 H2]. destruct (Hall f Hf H1) as [?|Hi]; [done|]. destruct (HI f Hf Hi) as (_ & _ & Hi'). destruct H2.
      destruct (tw_lf m f Hok Hf) as [Hf' _]. by apply (HI _ Hf').
  Qed.

  (** The two tets at a triangle. *)
  Lemma tri_start m v w adj : mesh_ok m → valid m w → to_adj_ae m w = Some adj →
    (∀ u t, u ∈ [to_twin_edge w; to_opp_edge w; to_perm w P3210; to_twin_edge adj; to_opp_edge adj; to_perm adj P3210] → w_tri m u = Some t → 0 < side_of m v t)%Z →
    region m [w_tet w; w_tet adj] ∧
    boundary_of m [w_tet w; w_tet adj] [to_twin_edge w; to_opp_edge w; to_perm w P3210; to_twin_edge adj; to_opp_edge adj; to_perm adj P3210].
  Proof.
    intros Hok Hw Ea Hp. destruct (adj_side m w Hok Hw) as (adj' & Ea' & Ha & Hs & Hne & _). rewrite Ea in Ea'. injection Ea' as <-.
    assert (region m [w_tet w; w_tet adj]) as HR.
    { split; [by apply NoDup_cons_2; [set_solver|apply NoDup_singleton]|]. intros id Hid. apply elem_of_cons in Hid as [-> | ->%elem_of_list_singleton]; [apply Hw|apply Ha]. }
    split; [done|]. destruct (other_sides m w Hw) as (O1 & O2 & O3 & O4), (other_sides m adj Ha) as (P1 & P2 & P3 & P4).
    unfold other_tris in *. rewrite !list.Forall_cons in *. destruct O1 as (V1 & V2 & V3 & _), P1 as (V4 & V5 & V6 & _), O2 as (T1 & T2 & T3 & _), P2 as (T4 & T5 & T6 & _).
    apply (start_bound m v _ _ (λ f, f = side w ∨ f = side adj)); [done|apply HR| | | | |done].
    - repeat (apply list.Forall_cons; split; [split; [done|rewrite ?T1, ?T2, ?T3, ?T4, ?T5, ?T6; set_solver]|]). done.
    - assert (∀ x y, w_tet x = w_tet w → w_tet y = w_tet adj → side x ≠ side y) as Hd by (unfold side; intros x y ?? [= ??]; congruence).
      revert O3 P3. rewrite !fmap_cons. cbn [fmap list_fmap]. rewrite !stdpp.list.NoDup_cons. intros (_ & N1 & N2 & _) (_ & N3 & N4 & _). rewrite !not_elem_of_cons in *.
      split_and!; [..|apply NoDup_nil_2]; try apply not_elem_of_nil; try (by apply Hd); try naive_solver.
    - intros f Hf Hin. apply elem_of_cons in Hin as [E | E%elem_of_list_singleton].
      + specialize (O4 f Hf E). rewrite !fmap_cons in *. cbn [fmap list_fmap] in *. set_solver.
      + specialize (P4 f Hf E). rewrite !fmap_cons in *. cbn [fmap list_fmap] in *. set_solver.
    - assert (∀ x y, w_tet x = w_tet w → w_tet y = w_tet adj → side x ≠ side y) as Hd by (unfold side; intros x y ?? [= ??]; congruence).
      revert O3 P3. rewrite !fmap_cons. cbn [fmap list_fmap]. rewrite !stdpp.list.NoDup_cons, !not_elem_of_cons. intros (N1 & _) (N2 & _) f Hf Hc.
      assert (tw m (side adj) = side w) as Hb by (rewrite Hs; apply tw_tw; [done|by apply side_lf]).
      destruct Hc as [-> | ->].
      + split; [|split; [left|rewrite <- Hs; by right]]. rewrite !not_elem_of_cons. split_and!; try apply not_elem_of_nil; try (by apply Hd); naive_solver.
      + split; [|split; [right; left|rewrite Hb; by left]]. rewrite !not_elem_of_cons. split_and!; try apply not_elem_of_nil; try (intros E; symmetry in E; revert E; by apply Hd); naive_solver.
  Qed.

  Definition ring_sides (l : list walker) : list walker := concat (List.map (λ w, [to_opp_edge w; to_perm w P3210]) l).
  Lemma ring_sides_in l u : u ∈ ring_sides l ↔ ∃ w, w ∈ l ∧ (u = to_opp_edge w ∨ u = to_perm w P3210).
  Proof.
    unfold ring_sides. induction l as [|w l IH]; cbn [List.map concat].
    - split; [by intros ?%elem_of_nil|]. intros (w & ?%elem_of_nil & _). done.
    - rewrite elem_of_app, IH. split.
      + intros [H|(x & Hx & Hu)]; [|exists x; split; [by right|done]]. exists w. split; [by left|]. by apply elem_of_cons in H as [-> | ->%elem_of_list_singleton]; [left|right].
      + intros (x & Hx & Hu). apply elem_of_cons in Hx as [-> | Hx]; [left; set_solver|right; eauto].
  Qed.
  Lemma ring_sides_nodup m l : Forall (valid m) l → NoDup (w_tet <$> l) → NoDup (side <$> ring_sides l).
  Proof.
    induction l as [|w l IH]; [intros; apply NoDup_nil_2|]. intros [Hw Hl]%list.Forall_cons. rewrite fmap_cons. intros [Hn Hnd]%stdpp.list.NoDup_cons.
    change (ring_sides (w :: l)) with ([to_opp_edge w; to_perm w P3210] ++ ring_sides l). rewrite fmap_app. apply NoDup_app. split; [|split; [|by apply IH]].
    - destruct (other_sides m w Hw) as (_ & _ & O3 & _). unfold other_tris in O3. revert O3. rewrite !fmap_cons. cbn [fmap list_fmap]. rewrite !stdpp.list.NoDup_cons, !not_elem_of_cons.
      intros (_ & N1 & _). split; [|split; [apply not_elem_of_nil|apply NoDup_nil_2]]. split; [apply N1|apply not_elem_of_nil].
    - intros f Hf Hin. apply Hn. apply elem_of_list_fmap in Hin as (u & -> & Hu). apply ring_sides_in in Hu as (x & Hx & Hu). apply elem_of_list_fmap. exists x. split; [|done].
      assert ((side u).1 = w_tet w) as <-. { cbn [fmap list_fmap] in Hf. apply elem_of_cons in Hf as [-> | ->%elem_of_list_singleton]; done. }
      destruct Hu as [-> | ->]; done.
  Qed.

  (** The tets at an edge. *)
  Lemma ring_start m v a b l : mesh_ok m → (∀ x, x ∈ l ↔ valid m x ∧ w_pair m x = Some (a, b)) → NoDup (w_tet <$> l) →
    (∀ u t, u ∈ ring_sides l → w_tri m u = Some t → 0 < side_of m v t)%Z →
    region m (w_tet <$> l) ∧ boundary_of m (w_tet <$> l) (ring_sides l).
  Proof.
    intros Hok Hl Hnd Hp.
    assert (region m (w_tet <$> l)) as HR.
    { split; [done|]. intros id (x & -> & Hx)%elem_of_list_fmap. by apply Hl in Hx as [[? _] _]. }
    assert (∀ x y, x ∈ l → y ∈ l → w_tet x = w_tet y → x = y) as Hone.
    { intros x y Hx Hy Ht. apply elem_of_list_lookup in Hx as [i Hi], Hy as [j Hj]. assert (i = j) as ->.
      { eapply NoDup_lookup; [exact Hnd|rewrite list_lookup_fmap, Hi; reflexivity|rewrite list_lookup_fmap, Hj; cbn; by rewrite Ht]. } congruence. }
    split; [done|]. apply (start_bound m v _ _ (λ f, ∃ x, x ∈ l ∧ (f = side x ∨ f = side (to_twin_edge x)))); [done|apply HR| | | | |done].
    - apply list.Forall_forall. intros u (x & Hx & Hu)%ring_sides_in. pose proof Hx as [Hv _]%Hl. destruct (other_sides m x Hv) as (O1 & _). unfold other_tris in O1.
      rewrite !list.Forall_cons in O1. destruct O1 as (V1 & _ & V3 & _). split; [destruct Hu as [-> | ->]; done|]. apply elem_of_list_fmap. exists x. split; [|done]. destruct Hu as [-> | ->]; done.
    - apply (ring_sides_nodup m); [|done]. apply list.Forall_forall. intros x Hx. by apply Hl.
    - intros f Hf (x & E & Hx)%elem_of_list_fmap. pose proof Hx as [Hv _]%Hl. destruct (other_sides m x Hv) as (_ & _ & _ & O4). specialize (O4 f Hf E). unfold other_tris in O4.
      rewrite !fmap_cons in O4. cbn [fmap list_fmap] in O4. rewrite !elem_of_cons, elem_of_nil in O4. destruct O4 as [-> |[-> |[-> |[-> |[]]]]].
      + right. exists x. split; [done|by left].
      + left. apply elem_of_list_fmap. exists (to_opp_edge x). split; [done|]. apply ring_sides_in. exists x. split; [done|by left].
      + right. exists x. split; [done|by right].
      + left. apply elem_of_list_fmap. exists (to_perm x P3210). split; [done|]. apply ring_sides_in. exists x. split; [done|by right].
    - intros f Hf (x & Hx & Hfx). pose proof Hx as [Hv Ep]%Hl. destruct (wverts_of_pair m x a b Hv Ep) as (c & d & Ev).
      split; [|split].
      + intros (u & E & (y & Hy & Hu)%ring_sides_in)%elem_of_list_fmap. assert (y = x) as ->.
        { apply Hone; [done..|]. assert (w_tet y = (side u).1) as -> by (destruct Hu as [-> | ->]; done). rewrite <- E. destruct Hfx as [-> | ->]; done. }
        destruct (other_sides m x Hv) as (_ & _ & O3 & _). unfold other_tris in O3. revert O3. rewrite !fmap_cons. cbn [fmap list_fmap]. rewrite !stdpp.list.NoDup_cons, !not_elem_of_cons.
        intros (N1 & N2 & N3 & _). destruct Hfx as [-> | ->], Hu as [-> | ->]; naive_solver.
      + apply elem_of_list_fmap. exists x. split; [destruct Hfx as [-> | ->]; done|done].
      + destruct Hfx as [-> | ->].
        * destruct (ok_adj m Hok x a b c d Hv Ev) as (y & e & Ey & Hy & Evy & _). destruct (adj_tw m x y Hok Hv Ey) as [_ <-].
          exists (to_twin_edge y). split; [|right; by rewrite twin_twin by apply Hy]. apply Hl. split; [by apply valid_twin|]. eapply wverts_pair. by apply wverts_twin.
        * pose proof (valid_twin m x Hv) as Hv'. pose proof (wverts_twin m x a b c d Hv Ev) as Ev'.
          destruct (ok_adj m Hok _ _ _ _ _ Hv' Ev') as (y & e & Ey & Hy & Evy & _). destruct (adj_tw m _ y Hok Hv' Ey) as [_ <-].
          exists y. split; [|by left]. apply Hl. split; [done|]. by eapply wverts_pair.
  Qed.

  (** An edge in the inside of a region is on no boundary triangle. *)
  Lemma inner_edge m E B u : mesh_ok m → boundary_of m E B → valid m u → edge_inside m E u →
    w_tet u ∈ E ∧ side u ∉ side <$> B ∧ side (to_twin_edge u) ∉ side <$> B.
  Proof.
    intros Hok (_ & _ & HB) Hu Hin. destruct (wverts_ex m u Hu) as (a & b & c & d & Ev). pose proof (wverts_pair _ _ _ _ _ _ Ev) as Ep. split; [by apply (Hin u (a, b))|].
    pose proof (valid_twin m u Hu) as Hu'. pose proof (wverts_twin m u a b c d Hu Ev) as Ev'. split.
    - intros (_ & y & Ey & Hn)%(HB u Hu). destruct (ok_adj m Hok _ _ _ _ _ Hu Ev) as (y' & x & Ey' & Hy & Evy & _). rewrite Ey in Ey'. injection Ey' as <-.
      apply Hn. apply (Hin (to_twin_edge y) (a, b)); [by apply valid_twin|done|]. eapply wverts_pair. by apply wverts_twin.
    - intros (_ & y & Ey & Hn)%(HB _ Hu'). destruct (ok_adj m Hok _ _ _ _ _ Hu' Ev') as (y' & x & Ey' & Hy & Evy & _). rewrite Ey in Ey'. injection Ey' as <-.
      apply Hn. apply (Hin y (a, b)); [done|done|]. by eapply wverts_pair.
  Qed.
  Lemma inner_tri m E B u : mesh_ok m → boundary_of m E B → valid m u → tri_inside m E u → w_tet u ∈ E ∧ side u ∉ side <$> B.
  Proof.
    intros Hok (_ & _ & HB) Hu (Hin & y & Ey & Hy). split; [done|]. intros (_ & y' & Ey' & Hn)%(HB u Hu). congruence.
  Qed.
  Lemma side_eq u x : w_edge u < 12 → w_edge x < 12 → side u = side x → side (to_twin_edge u) = side (to_twin_edge x) → u = x.
  Proof.
    destruct u as [i e], x as [j f]. cbn [w_edge]. intros He Hf. unfold side, to_twin_edge. cbn [w_tet w_edge]. intros [= -> E] [= E']. f_equal. revert E E'.
    do 12 (destruct e as [|e]; [do 12 (destruct f as [|f]; [first [reflexivity|intros E E'; first [discriminate E|discriminate E']]|]); lia|]); lia.
  Qed.
  Lemma side_locked m u x : side u = side x → w_locked m u = w_locked m x.
  Proof.
    destruct u as [i e], x as [j f]. unfold side, w_locked. cbn [w_tet w_edge]. intros E. assert (i = j) as -> by congruence. assert (e mod 4 = f mod 4) as -> by congruence. done.
  Qed.

  (** What the search starts from, if all its triangles see the vertex: the tets at an edge, or at a triangle, that are not locked. *)
  Lemma start_ok m v g B0 E0 : mesh_ok m → present m g → steiner_start m g = Some (B0, E0) →
    Forall (valid m) B0 ∧
    ((∀ u t, u ∈ B0 → w_tri m u = Some t → 0 < side_of m v t)%Z →
     region m E0 ∧ boundary_of m E0 B0 ∧ E0 ≠ [] ∧
     (∀ u, valid m u → w_edge_locked m u = Some true → ¬ edge_inside m E0 u) ∧
     (∀ u, valid m u → w_locked m u = Some true → ¬ tri_inside m E0 u)).
  Proof.
    intros Hok Hg. destruct g as [[a b]|[[a b] c]]; cbn [steiner_start present fst snd] in *.
    - intros (wo & E1 & (w & -> & (u1 & E2 & (l & E3 & (u2 & E4 & E5)%bind_Some)%bind_Some)%bind_Some)%bind_Some)%bind_Some. injection E5 as <- <-.
      assert (valid m w ∧ w_pair m w = Some (a, b)) as [Hw Ep].
      { assert (a ≠ GHOST) as Hn. { intros ->. unfold walker_from_edge, vertex_target_walkers, walker_from_vertex in E1. by rewrite (ok_ghost m Hok) in E1. }
        assert (attached m a) as Ha. { destruct Hg as (u & Hu & Epu). exists u. split; [done|]. unfold w_pair in Epu. destruct (w_first m u); [|done]. cbn in Epu. destruct (w_second m u); [|done]. cbn in Epu. by injection Epu as -> ->. }
        destruct (edge_lookup m a b Hok Ha Hn) as [(_ & w' & E' & Hw & Ep)|[_ E']]; [|congruence]. rewrite E1 in E'. by injection E' as <-. }
      destruct (edge_ring_list m w (a, b) Hok Hw Ep) as (l' & Hy & _ & Hnd & Hset & _).
      destruct (ring_all m w (a, b) Hok Hw Ep) as (l2 & E3' & Hset2 & Hlen). rewrite E3 in E3'. injection E3' as <-.
      assert (NoDup (w_tet <$> l)) as Hndl.
      { unfold ring_list in E3. destruct (Hy (length (im_keys (m_tets m)) + 1)) as (s' & Ey). rewrite Ey in E3. cbn in E3. injection E3 as <-. rewrite fmap_take. rewrite <- (take_drop (length (im_keys (m_tets m)) + 1) (w_tet <$> l')) in Hnd. by apply NoDup_app in Hnd as [Hnd _]. }
      clear Hset Hnd Hy l'.
      assert (∀ x, x ∈ l → w_locked m x = Some false) as Hfree.
      { intros x Hx. apply mapM_Some in E4. apply elem_of_list_lookup in Hx as [i Hi]. destruct (Forall2_lookup_l _ _ _ _ _ E4 Hi) as (? & _ & E). unfold assert_tri_free in E. destruct (w_locked m x) as [[|]|]; done. }
      assert (w_edge_locked m w = Some false) as Hef. { unfold assert_edge_free in E2. destruct (w_edge_locked m w) as [[|]|]; done. }
      fold (ring_sides l). split.
      { apply list.Forall_forall. intros u (x & Hx & Hu)%ring_sides_in. pose proof Hx as [Hv _]%Hset2. destruct (other_sides m x Hv) as (O1 & _). unfold other_tris in O1.
        rewrite !list.Forall_cons in O1. destruct O1 as (V1 & _ & V3 & _). destruct Hu as [-> | ->]; done. }
      intros Hp. destruct (ring_start m v a b l Hok Hset2 Hndl Hp) as [HR HB]. split; [done|]. split; [done|]. split.
      { assert (w ∈ l) as Hwl by by apply Hset2. destruct l; [by apply elem_of_nil in Hwl|done]. }
      assert (∀ f, lf m f → f.1 ∈ w_tet <$> l → f ∉ side <$> ring_sides l → ∃ x, x ∈ l ∧ w_tet x = f.1 ∧ (f = side x ∨ f = side (to_twin_edge x))) as Hin.
      { intros f Hf (x & E & Hx)%elem_of_list_fmap Hn. pose proof Hx as [Hv _]%Hset2. destruct (other_sides m x Hv) as (_ & _ & _ & O4). specialize (O4 f Hf E). unfold other_tris in O4.
        rewrite !fmap_cons in O4. cbn [fmap list_fmap] in O4. rewrite !elem_of_cons, elem_of_nil in O4. exists x. split; [done|]. split; [done|]. destruct O4 as [-> |[-> |[-> |[-> |[]]]]]; [by left| |by right|].
        - destruct Hn. apply elem_of_list_fmap. exists (to_opp_edge x). split; [done|]. apply ring_sides_in. exists x. split; [done|by left].
        - destruct Hn. apply elem_of_list_fmap. exists (to_perm x P3210). split; [done|]. apply ring_sides_in. exists x. split; [done|by right]. }
      assert (∀ x y, x ∈ l → y ∈ l → w_tet x = w_tet y → x = y) as Hone.
      { intros x y Hx Hy Ht. apply elem_of_list_lookup in Hx as [i Hi], Hy as [j Hj]. assert (i = j) as ->.
        { eapply NoDup_lookup; [exact Hndl|rewrite list_lookup_fmap, Hi; reflexivity|rewrite list_lookup_fmap, Hj; cbn; by rewrite Ht]. } congruence. }
      split.
      + intros u Hu Hl Hi. destruct (inner_edge m _ _ u Hok HB Hu Hi) as (H1 & H2 & H3). pose proof (valid_twin m u Hu) as Hu'.
        destruct (Hin (side u)) as (x & Hx & Htx & Hc); [by apply side_lf|done|done|]. destruct (Hin (side (to_twin_edge u))) as (y & Hy & Hty & Hd); [by apply side_lf|done|done|].
        assert (y = x) as -> by (apply Hone; [done..|by rewrite Hty, Htx]). pose proof Hx as [Hv Epx]%Hset2. 
        assert (side u ≠ side (to_twin_edge u)) as Hne. { destruct (other_sides m u Hu) as (_ & _ & O3 & _). unfold other_tris in O3. revert O3. rewrite !fmap_cons, stdpp.list.NoDup_cons, !not_elem_of_cons. tauto. }
        assert (u = x ∨ u = to_twin_edge x) as Hux.
        { destruct Hc as [Hc|Hc], Hd as [Hd|Hd]; [congruence|left|right|congruence].
          - apply side_eq; [apply Hu|apply Hv|done|done].
          - apply side_eq; [apply Hu|apply (valid_twin m x Hv)|done|]. by rewrite twin_twin by apply Hv. }
        assert (w_edge_locked m x = Some true) as Hlx. { destruct Hux as [-> | ->]; [done|]. by rewrite <- (twin_elocked m Hok x Hv). }
        rewrite (elocked_pair m Hok w x a b Hw Hv Ep) in Hlx; [congruence|by left].
      + intros u Hu Hl Hi. destruct (inner_tri m _ _ u Hok HB Hu Hi) as (H1 & H2). destruct (Hin (side u)) as (x & Hx & Htx & Hc); [by apply side_lf|done|done|]. pose proof Hx as [Hv Epx]%Hset2.
        destruct Hc as [Hc|Hc]; rewrite (side_locked m _ _ Hc) in Hl; [specialize (Hfree x Hx); congruence|].
        destruct (wverts_of_pair m x a b Hv Epx) as (c & d & Ev). pose proof (valid_twin m x Hv) as Hv'. pose proof (wverts_twin m x a b c d Hv Ev) as Ev'.
        destruct (ok_adj m Hok _ _ _ _ _ Hv' Ev') as (y & e & Ey & Hy & Evy & _). rewrite <- (ok_lock m Hok _ _ Hv' Ey) in Hl. rewrite (Hfree y) in Hl; [done|]. apply Hset2. split; [done|]. by eapply wverts_pair.
    - intros (wo & E1 & (w & -> & (adj & E2 & (u1 & E3 & E4)%bind_Some)%bind_Some)%bind_Some)%bind_Some. injection E4 as <- <-.
      assert (valid m w) as Hw.
      { assert (m_track m = false → attached m a ∧ a ≠ GHOST) as Hta.
        { intros Htr. split.
          - destruct Hg as (u & Hu & Et). exists u. split; [done|]. destruct (wverts_ex m u Hu) as (a' & b' & c' & d & Ev). rewrite (wverts_tri _ _ _ _ _ _ Ev) in Et. injection Et as -> -> ->. by eapply wverts_first.
          - intros ->. unfold walker_from_tri, walkers_from_vertex, walker_from_vertex in E1. rewrite Htr in E1. cbn [fst] in E1. by rewrite (ok_ghost m Hok) in E1. }
        destruct (tri_lookup_any m (a, b, c) Hok Hta) as [(_ & w' & E' & Hw & _)|[_ E']]; [|congruence]. rewrite E1 in E'. by injection E' as <-. }
      destruct (adj_side m w Hok Hw) as (adj' & Ea' & Ha & Hs & Hne & (y & Ey & Hsy)). rewrite E2 in Ea'. injection Ea' as <-.
      assert (w_locked m w = Some false) as Hfree. { unfold assert_tri_free in E3. destruct (w_locked m w) as [[|]|]; done. }
      assert (w_locked m adj = Some false) as Hfree'. { rewrite <- (side_locked m _ _ Hsy), (ok_lock m Hok _ _ Hw Ey). done. }
      destruct (other_sides m w Hw) as (O1 & O2 & O3 & O4), (other_sides m adj Ha) as (P1 & P2 & P3 & P4). split.
      { unfold other_tris in *. rewrite !list.Forall_cons in *. naive_solver. }
      intros Hp. destruct (tri_start m v w adj Hok Hw E2 Hp) as [HR HB]. split; [done|]. split; [done|]. split; [done|].
      assert (∀ f, lf m f → f.1 ∈ [w_tet w; w_tet adj] → f ∉ side <$> [to_twin_edge w; to_opp_edge w; to_perm w P3210; to_twin_edge adj; to_opp_edge adj; to_perm adj P3210] → f = side w ∨ f = side adj) as Hin.
      { intros f Hf Hi Hn. unfold other_tris in *. apply elem_of_cons in Hi as [E | E%elem_of_list_singleton].
        + specialize (O4 f Hf E). rewrite !fmap_cons in *. cbn [fmap list_fmap] in *. set_solver.
        + specialize (P4 f Hf E). rewrite !fmap_cons in *. cbn [fmap list_fmap] in *. set_solver. }
      split.
      + intros u Hu Hl Hi. destruct (inner_edge m _ _ u Hok HB Hu Hi) as (H1 & H2 & H3). pose proof (valid_twin m u Hu) as Hu'.
        assert (side u ≠ side (to_twin_edge u)) as Hne'. { destruct (other_sides m u Hu) as (_ & _ & Q3 & _). unfold other_tris in Q3. revert Q3. rewrite !fmap_cons, stdpp.list.NoDup_cons, !not_elem_of_cons. tauto. }
        destruct (Hin (side u)) as [Hc|Hc], (Hin (side (to_twin_edge u))) as [Hd|Hd]; try (by apply side_lf); try done; try congruence.
        * injection Hc as Hc _. injection Hd as Hd _. congruence.
        * injection Hc as Hc _. injection Hd as Hd _. congruence.
      + intros u Hu Hl Hi. destruct (inner_tri m _ _ u Hok HB Hu Hi) as (H1 & H2). destruct (Hin (side u)) as [Hc|Hc]; [by apply side_lf|done|done|..]; rewrite (side_locked m _ _ Hc) in Hl; congruence.
  Qed.
End start.
