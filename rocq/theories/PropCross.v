(** C51: what a triangle crosses. *)
From stdpp Require Import base numbers list gmap option relations.
From Coq Require Import NArith ZArith Lia.
From Verif Require Import IdMapModel WalkerModel WalkerSpec MeshModel MeshOps MeshSpec MeshCheck HistSpec HistCheck Reach IterLookup GeoModel GeoMesh UtilModel DelOk PropMesh QualModel ProgModel ProgSpec ProgBase RecModel RecSpec PropRec
  CrossModel CrossSpec CrossOk.
Local Open Scope nat_scope.

(** The search of [tri_intersections_raw] and [tris_intersections_raw] starts from an edge [(v0, v1)] of
    the mesh.  For every test that treats the two directions of an edge alike, however it rounds, it
    ends; it lists no edge twice and only edges of the mesh that cross.  If it lists nothing, none of
    the edges opposite to [(v0, v1)] crosses.  Otherwise it lists one of these, and exactly those that
    can be reached from it by going from an edge that crosses to another one in the same triangle. *)
Theorem C51_search {V T A} (test : mesh V T → N * N → option (option A)) m v0 v1 :
  mesh_ok m → fair m (test m) → solid m v0 → joined m v0 v1 →
  ∃ l, cross_search test m v0 v1 = Some l ∧ NoDup (sorted_2 <$> l.*1) ∧
    (∀ e a, (e, a) ∈ l → joined m e.1 e.2 ∧ test m e = Some (Some a)) ∧
    ((l = [] ∧ ∀ e, opposite m v0 v1 e → ¬ crosses (test m) e) ∨
     (∃ e0 a0 l', l = (e0, a0) :: l' ∧ opposite m v0 v1 e0 ∧
        ∀ f, f ∈ sorted_2 <$> l.*1 ↔ rtc (cross_step m (test m)) (sorted_2 e0) f)).
Proof. apply cross_search_ok. Qed.
Print Assumptions C51_search.

(** Without the edge to start from it panics. *)
Theorem C51_panics {V T A} (test : mesh V T → N * N → option (option A)) m v0 v1 :
  mesh_ok m → solid m v0 → ¬ joined m v0 v1 → cross_search test m v0 v1 = None.
Proof.
  intros Hok [Hg Ha] Hn. unfold cross_search. destruct (edge_lookup m v0 v1 Hok Ha Hg) as [[? _]|[_ ->]]; [done|]. done.
Qed.
Print Assumptions C51_panics.

Lemma attached_known {V T} (m : mesh V T) v : mesh_ok m → attached m v → is_Some (idx_ori m v).
Proof.
  intros Hok (w & [[t Et] Hlt] & Ew). unfold w_first in Ew. unfold tet_get in *. rewrite Et in Ew. cbn in Ew. injection Ew as <-.
  by apply (tet_known m (w_tet w) t).
Qed.
Lemma orient_3d_known {V T} (m : mesh V T) a b c d : is_Some (idx_ori m a) → is_Some (idx_ori m b) → is_Some (idx_ori m c) → is_Some (idx_ori m d) → is_Some (orient_3d m a b c d).
Proof. intros [pa Ea] [pb Eb] [pc Ec] [pd Ed]. unfold orient_3d. rewrite Ea, Eb, Ec, Ed. cbn. eauto. Qed.
Lemma joined_attached {V T} (m : mesh V T) a b : mesh_ok m → joined m a b → attached m a ∧ attached m b.
Proof.
  intros Hok Hj. assert (∀ x y, joined m x y → attached m x) as H.
  { intros x y (w & Hw & E). exists w. split; [done|]. unfold w_pair in E. destruct (w_first m w); [|done]. cbn in E. destruct (w_second m w); [|done]. cbn in E. congruence. }
  split; [by apply (H a b)|]. apply (H b a). by apply joined_sym.
Qed.

(** The exact test is fair, and it says that an edge crosses just if [tri_intersects_edge] does (see
    C32 for what that means). *)
Theorem C51_exact_test {V T} (m : mesh V T) a b c : mesh_ok m → attached m a → attached m b → attached m c →
  fair m (tri_test tri_edge_bary (a, b, c) m) ∧
  (∀ e, crosses (tri_test tri_edge_bary (a, b, c) m) e ↔ tri_intersects_edge m a b c e.1 e.2 = Some true) ∧
  (∀ e x, tri_test tri_edge_bary (a, b, c) m e = Some (Some x) → ∃ y z, tri_edge_bary m a b c e.1 e.2 = Some (x ++ [y; z])).
Proof.
  intros Hok Ha Hb Hc. apply (attached_known m) in Ha, Hb, Hc; [|done..].
  assert (∀ e, crosses (tri_test tri_edge_bary (a, b, c) m) e ↔ tri_intersects_edge m a b c e.1 e.2 = Some true) as Hcr.
  { intros [d e]. unfold crosses, tri_test, tri_intersects_edge. cbn [fst snd]. destruct (tri_edge_bary m a b c d e) as [l|]; cbn [mbind option_bind]; [|split; [by intros [? ?]|done]].
    change (forallb (λ c, (0 <? c)%Z) l) with (all_pos l). change (forallb (λ c, (c <? 0)%Z) l) with (all_neg l).
    destruct (all_pos l || all_neg l); split; [done|eauto|by intros [? ?]|done]. }
  split; [|split; [done|]].
  - split.
    + intros d e Hj. apply joined_attached in Hj as [Hd He]; [|done]. apply attached_known in Hd, He; [|done..].
      unfold tri_test. cbn [fst snd]. unfold tri_edge_bary.
      destruct (orient_3d_known m b c d e) as [? ->]; [done..|]. destruct (orient_3d_known m c a d e) as [? ->]; [done..|]. destruct (orient_3d_known m a b d e) as [? ->]; [done..|].
      destruct (orient_3d_known m a b c e) as [? ->]; [done..|]. destruct (orient_3d_known m c b a d) as [? ->]; [done..|]. cbn. eauto.
    + intros d e _. rewrite !Hcr. cbn [fst snd]. by rewrite tie_sym.
  - intros [d e] x. unfold tri_test. cbn [fst snd]. destruct (tri_edge_bary m a b c d e) as [l|] eqn:E; cbn [mbind option_bind]; [|done].
    destruct (_ || _); [|done]. intros [= <-]. unfold tri_edge_bary in E.
    repeat (apply bind_Some in E as (? & _ & E)). injection E as <-. cbn. eauto.
Qed.
Print Assumptions C51_exact_test.

(** So with exact coordinates [tri_intersections_raw] lists, from a triangle with one edge in the mesh,
    a connected set of edges that cross it. *)
Theorem C51_exact {V T} (m : mesh V T) a b c : mesh_ok m → solid m a → attached m c → joined m a b →
  ∃ l, tri_intersections_raw tri_edge_bary m a b c = Some l ∧ NoDup (sorted_2 <$> l.*1) ∧
    (∀ d e x, ((d, e), x) ∈ l → joined m d e ∧ tri_intersects_edge m a b c d e = Some true ∧ ∃ y z, tri_edge_bary m a b c d e = Some (x ++ [y; z])) ∧
    ((l = [] ∧ ∀ d e, opposite m a b (d, e) → tri_intersects_edge m a b c d e = Some false) ∨
     (∃ e0 x0 l', l = (e0, x0) :: l' ∧ opposite m a b e0 ∧
        ∀ f, f ∈ sorted_2 <$> l.*1 ↔ rtc (λ e f, share_tri m e f ∧ tri_intersects_edge m a b c f.1 f.2 = Some true ∧ sorted_2 f = f) (sorted_2 e0) f)).
Proof.
  intros Hok Ha Hc Hj. destruct (joined_attached m a b Hok Hj) as [Ha' Hb]. destruct (C51_exact_test m a b c Hok Ha' Hb Hc) as (Hf & Hcr & Hx).
  destruct (C51_search (tri_test tri_edge_bary (a, b, c)) m a b Hok Hf Ha Hj) as (l & E & Hn & Hl & Hcase). exists l. split; [done|]. split; [done|]. split.
  { intros d e x Hin. destruct (Hl _ _ Hin) as [H1 H2]. split; [done|]. split; [apply (Hcr (d, e)); by exists x|by apply (Hx (d, e))]. }
  destruct Hcase as [[-> Hno]|(e0 & a0 & l' & -> & Hop & Hiff)]; [left|right].
  - split; [done|]. intros d e Hop. specialize (Hno _ Hop). rewrite Hcr in Hno. cbn [fst snd] in Hno.
    assert (is_Some (tri_intersects_edge m a b c d e)) as [[] E']; [|congruence|done].
    assert (joined m d e) as Hde.
    { destruct Hop as (w & x & y & Hw & Ev & Hd). assert (joined m x y) as Hxy by (exists (to_opp_edge w); split; [by apply Flip44Ok.valid_opp|eapply Flip44Ok.wverts_pair; by apply Flip44Ok.wverts_opp]).
      destruct Hd as [[= -> ->]|[= -> ->]]; [done|by apply joined_sym]. }
    destruct (fa_total m _ Hf d e Hde) as [r Er]. unfold tri_test in Er. cbn [fst snd] in Er. unfold tri_intersects_edge. destruct (tri_edge_bary m a b c d e); [|done]. cbn. eauto.
  - exists e0, a0, l'. split; [done|]. split; [done|]. intros f. rewrite Hiff.
    split; apply rtc_subrel; intros x y (H1 & H2 & H3); (split; [done|]); (split; [by apply Hcr|done]).
Qed.
Print Assumptions C51_exact.

(** The point that [tri_intersections] and [edge_intersections] compute from the coordinates (src/tet/geo.rs
    436-438, 606-611), before the division by the sum: as a combination of the corners of the triangle it
    is the same as as a combination of the ends of the edge. *)
Definition scale (z : Z) (p : pt) : pt := Pt (z * px p) (z * py p) (z * pz p).
Theorem C51_point {V T} (m : mesh V T) v0 v1 v2 v3 v4 p0 p1 p2 p3 p4 b0 b1 b2 b3 b4 : GHOST ∉ [v0; v1; v2; v3; v4] →
  idx_ori m v0 = Some p0 → idx_ori m v1 = Some p1 → idx_ori m v2 = Some p2 → idx_ori m v3 = Some p3 → idx_ori m v4 = Some p4 →
  tri_edge_bary m v0 v1 v2 v3 v4 = Some [b0; b1; b2; b3; b4] →
  (b0 + b1 + b2 = b3 + b4)%Z ∧
  vadd (vadd (scale (b0 + b1 + b2) p0) (scale b1 (vsub p1 p0))) (scale b2 (vsub p2 p0)) =
  vadd (scale (b3 + b4) p3) (scale b4 (vsub p4 p3)).
Proof.
  intros Hg E0 E1 E2 E3 E4. unfold tri_edge_bary, orient_3d. rewrite E0, E1, E2, E3, E4. cbn [mbind option_bind].
  assert (∀ l : list N, (∀ x, x ∈ l → x ∈ [v0; v1; v2; v3; v4]) → has_ghost l = false) as Hng.
  { intros l Hl. apply not_true_iff_false. unfold has_ghost. rewrite existsb_exists. intros (x & Hx%elem_of_list_In & <-%N.eqb_eq). by apply Hg, Hl. }
  rewrite !Hng; [|intros x; rewrite ?elem_of_cons, ?elem_of_nil; clear; tauto..]. intros [= <- <- <- <- <-]. unfold orient, scale, vadd, vsub, vdot, vcross. cbn [px py pz].
  split; [ring|]. f_equal; ring.
Qed.
Print Assumptions C51_point.

(** What is listed can be handed to the removal of edges (C46): the edges are in the mesh, and none starts
    at the ghost vertex if the test never lets an edge to it cross. *)
Theorem C51_listed {V T} bary (m : mesh V T) a b c : mesh_ok m → fair m (tri_test bary (a, b, c) m) → solid m a → joined m a b →
  (∀ v, joined m GHOST v → ¬ crosses (tri_test bary (a, b, c) m) (GHOST, v)) →
  ∃ l, tri_intersections_raw bary m a b c = Some l ∧ listed m (SEdge <$> l.*1).
Proof.
  intros Hok Hf Ha Hj Hg. destruct (C51_search (tri_test bary (a, b, c)) m a b Hok Hf Ha Hj) as (l & E & _ & Hl & _). exists l. split; [done|].
  intros g (e & -> & ([e' x] & -> & Hin)%elem_of_list_fmap)%elem_of_list_fmap. cbn [fst]. destruct (Hl _ _ Hin) as [H1 H2]. destruct e' as [d e]. cbn [fst snd] in *.
  split; [done|]. intros ->. apply (Hg e H1). by exists x.
Qed.
Print Assumptions C51_listed.

(** ** Witnesses *)
(** A tet with a vertex beyond the triangle (1, 2, 3), after a flip: the edge from 0 to 4 crosses it. *)
Example C51_witness : mesh_ok (ex rec_ops2) ∧ solidb (ex rec_ops2) 1 = true ∧ solidb (ex rec_ops2) 3 = true ∧ joinedb (ex rec_ops2) 1 2 = true ∧
  tri_intersections_raw tri_edge_bary (ex rec_ops2) 1 2 3 = Some [((0, 4)%N, [32; 32; 32]%Z)].
Proof.
  split; [apply (reachable_ok (ex rec_ops2)), ex_reachable; vm_compute; reflexivity|]. vm_compute. repeat split.
Qed.

(** For several triangles the code means to leave out edges that only touch a corner, but [&&] binds tighter
    than [||]: such edges are listed, even the edges of the triangle itself. *)
Theorem C51_corners_refuted : ¬ (∀ (m : mesh Z unit) t e l, reachable m → tris_intersections_raw tri_edge_bary m [t] e = Some l →
  ∀ f x, (f, x) ∈ l → f.1 ∉ [t.1.1; t.1.2; t.2] ∧ f.2 ∉ [t.1.1; t.1.2; t.2]).
Proof.
  intros H. assert (reachable (ex rec_ops2)) as Hr by (apply ex_reachable; vm_compute; reflexivity).
  assert (match tris_intersections_raw tri_edge_bary (ex rec_ops2) [(1, 2, 3)%N] (1, 2)%N with Some l => bool_decide ((2, 1)%N ∈ l.*1) | None => false end = true) as E by (vm_compute; reflexivity).
  destruct (tris_intersections_raw tri_edge_bary (ex rec_ops2) [(1, 2, 3)%N] (1, 2)%N) as [l|] eqn:El; [|discriminate E].
  apply bool_decide_eq_true in E. apply elem_of_list_fmap in E as ([f x] & Ef & Hin). cbn [fst] in Ef. subst f.
  destruct (H _ _ _ l Hr El _ _ Hin) as [H1 _]. apply H1. cbn [fst snd]. right. left.
Qed.
Print Assumptions C51_corners_refuted.
