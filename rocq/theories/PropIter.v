(** Properties C23-C27, C37 and C38: traversals, lookups by search, circular lists, sorting. *)
From stdpp Require Import base numbers list gmap option relations.
From Coq Require Import NArith ZArith Lia Sorting.Sorted.
From Verif Require Import IdMapModel WalkerModel WalkerSpec MeshModel MeshOps MeshSpec GeoModel HistSpec MeshCheck HistCheck Reach
  UtilModel UtilSpec UtilProofs IterModel IterDfs IterOpt IterProofs IterLookup Marks PropMesh.
Local Open Scope nat_scope.

(** ** C23. Edge rings. *)
Theorem C23_edge_ring {V T} (m : mesh V T) w p : mesh_ok m → valid m w → w_pair m w = Some p →
  ∃ l, yields (edge_ring_next m) (edge_ring m w) l ∧ head l = Some w ∧ NoDup (w_tet <$> l) ∧
    (∀ x, x ∈ l ↔ valid m x ∧ w_pair m x = Some p) ∧
    (∀ i x, l !! i = Some x → w_third m (default w (l !! S i)) = w_fourth m x).
Proof. exact (edge_ring_list m w p). Qed.
Print Assumptions C23_edge_ring.

Example C23_witness : valid (ex ex_ops4) (Walker 7 4) ∧ w_pair (ex ex_ops4) (Walker 7 4) = Some (2, 1)%N ∧
  fst <$> iter_take (edge_ring_next (ex ex_ops4)) 20 (edge_ring (ex ex_ops4) (Walker 7 4)) =
    Some [Walker 7 4; Walker 4 3; Walker 0 9; Walker 8 7].
Proof. split; [apply validb_spec; vm_compute; reflexivity|]. vm_compute. done. Qed.

(** ** C24. Walkers around a vertex. *)
Theorem C24_walkers_from_vertex {V T} (m : mesh V T) v : mesh_ok m → attached m v → v ≠ GHOST →
  ∃ s l, walkers_from_vertex m v = Some s ∧ yields (wfv_next m) s l ∧ NoDup (w_tet <$> l) ∧
    (∀ x, x ∈ l → valid m x ∧ w_first m x = Some v) ∧
    (∀ x, valid m x → w_first m x = Some v → w_tet x ∈ w_tet <$> l).
Proof.
  intros Hok Ha Hg. destruct (vertex_walkers m v Hok Ha Hg) as (w & l & _ & E & Hy & _ & H). exists (∅, [w]), (w :: l). done.
Qed.
Print Assumptions C24_walkers_from_vertex.

Theorem C24_vertex_tets {V T} (m : mesh V T) v : mesh_ok m → attached m v → v ≠ GHOST →
  ∃ s l, walkers_from_vertex m v = Some s ∧ yields (vertex_tets_next m) s l ∧ NoDup l ∧
    ∀ id, id ∈ l ↔ ∃ w, valid m w ∧ w_tet w = id ∧ w_first m w = Some v.
Proof. exact (vertex_tets_list m v). Qed.
Print Assumptions C24_vertex_tets.

(** ** C26. Neighbours of a vertex. *)
Theorem C26_vertex_targets {V T} (m : mesh V T) v : mesh_ok m → attached m v → v ≠ GHOST →
  ∃ s l, vertex_target_walkers m v = Some s ∧ yields (vertex_targets_next m) s l ∧ NoDup l ∧
    (∀ b, b ∈ l ↔ joined m v b) ∧ v ∉ l.
Proof. exact (vertex_targets_ids m v). Qed.
Print Assumptions C26_vertex_targets.

Theorem C26_vertex_target_walkers {V T} (m : mesh V T) v : mesh_ok m → attached m v → v ≠ GHOST →
  ∃ s l, vertex_target_walkers m v = Some s ∧ yields (vt_next m) s l ∧ NoDup (w_second m <$> l) ∧
    (∀ x, x ∈ l → valid m x ∧ w_first m x = Some v) ∧
    (∀ b, joined m v b → Some b ∈ w_second m <$> l).
Proof.
  intros Hok Ha Hg. destruct (vertex_target_list m v Hok Ha Hg) as (w & l & _ & E & Hy & _ & Hnd & HP & Hall).
  exists (∅, [w]), (w :: l). split; [done|]. split; [done|].
  assert (w_second m <$> w :: l = Some <$> (snd_of m <$> w :: l)) as Hs.
  { rewrite <- list_fmap_compose. apply list_fmap_ext. intros i x Hx. apply HP. apply elem_of_list_lookup. by exists i. }
  rewrite Hs. split; [by apply NoDup_fmap_2; [apply _|]|]. split; [intros x Hx; destruct (HP x Hx) as (? & ? & ?); done|].
  intros b Hb. apply elem_of_list_fmap. exists b. split; [done|]. by apply Hall.
Qed.
Print Assumptions C26_vertex_target_walkers.

Example C24_C26_witness : mesh_ok (ex ex_ops4) ∧ attached (ex ex_ops4) 4 ∧
  (s ← walkers_from_vertex (ex ex_ops4) 4; fst <$> iter_take (vertex_tets_next (ex ex_ops4)) 20 s) =
    Some [8; 12; 5; 7; 6; 11]%N ∧
  (s ← vertex_target_walkers (ex ex_ops4) 4; fst <$> iter_take (vertex_targets_next (ex ex_ops4)) 20 s) =
    Some [1; 5; 2; 0; 3]%N.
Proof.
  split; [apply reachable_ok, ex4_reachable|]. split; [apply attachedb_spec; vm_compute; reflexivity|].
  split; vm_compute; reflexivity.
Qed.

(** ** C25. Traversals leave no marks.  The flag based variants yield the same items as the others
    (C24, C26), for any number [n] of consumed items, and dropping them gives back the mesh. *)
Theorem C25_walkers_from_vertex_opt {V T} (m : mesh V T) v n : reachable m → attached m v → v ≠ GHOST →
  ∃ s l so s', walkers_from_vertex m v = Some s ∧ yields (wfv_next m) s l ∧
    walkers_from_vertex_opt m v = Some so ∧ iter_take wfvo_next n so = Some (take n l, s') ∧ wfvo_drop s' = Some m.
Proof.
  intros Hr Ha Hg. destruct (vertex_walkers m v (reachable_ok m Hr) Ha Hg) as (w & l & _ & E & Hy & _).
  destruct (wfvo_traversal m v _ _ n (proj1 (reachable_unmarked m Hr)) E Hy) as (so & s' & H). eauto 10.
Qed.
Print Assumptions C25_walkers_from_vertex_opt.

Theorem C25_vertex_target_walkers_opt {V T} (m : mesh V T) v n : reachable m → attached m v → v ≠ GHOST →
  ∃ s l so s', vertex_target_walkers m v = Some s ∧ yields (vt_next m) s l ∧
    vertex_target_walkers_opt m v = Some so ∧ iter_take vto_next n so = Some (take n l, s') ∧ vto_drop s' = Some m.
Proof.
  intros Hr Ha Hg. destruct (vertex_target_list m v (reachable_ok m Hr) Ha Hg) as (w & l & _ & E & Hy & _).
  destruct (vto_traversal m v _ _ n (reachable_ok m Hr) (proj2 (reachable_unmarked m Hr)) E Hy) as (so & s' & H). eauto 10.
Qed.
Print Assumptions C25_vertex_target_walkers_opt.

(** Halfway through, the marks are really set. *)
Example C25_witness : reachable (ex ex_ops4) ∧ attached (ex ex_ops4) 4 ∧
  match so ← walkers_from_vertex_opt (ex ex_ops4) 4; iter_take wfvo_next 3 so with
  | Some (l, s') => Some (map w_tet l, map (λ id, option_map (λ t, f_wfv (t_flags t)) (tet_get s'.1.1 id)) [8; 5; 7]%N)
  | None => None
  end =
    Some ([8; 12; 5]%N, [Some true; Some true; Some false]).
Proof.
  split; [exact ex4_reachable|]. split; [apply attachedb_spec; vm_compute; reflexivity|]. vm_compute. reflexivity.
Qed.

(** ** C27. Looking up edges, triangles and tets. *)
Theorem C27_edge {V T} (m : mesh V T) a b : mesh_ok m → attached m a → a ≠ GHOST →
  (joined m a b ∧ ∃ w, walker_from_edge m a b = Some (Some w) ∧ valid m w ∧ w_pair m w = Some (a, b)) ∨
  (¬ joined m a b ∧ walker_from_edge m a b = Some None).
Proof. exact (edge_lookup m a b). Qed.
Print Assumptions C27_edge.

Theorem C27_triangle {V T} (m : mesh V T) a b c : mesh_ok m → (m_track m = false → attached m a ∧ a ≠ GHOST) →
  (has_tri m a b c ∧ ∃ w, walker_from_tri m (a, b, c) = Some (Some w) ∧ valid m w ∧ w_tri m w = Some (a, b, c)) ∨
  (¬ has_tri m a b c ∧ walker_from_tri m (a, b, c) = Some None).
Proof. exact (tri_lookup_any m (a, b, c)). Qed.
Print Assumptions C27_triangle.

Theorem C27_tet {V T} (m : mesh V T) a b c d : mesh_ok m → (m_track m = false → attached m a ∧ a ≠ GHOST) →
  ((∃ u, valid m u ∧ w_verts m u = Some (A4 a b c d)) ∧
     ∃ w, walker_from_tet m a b c d = Some (Some w) ∧ valid m w ∧ w_verts m w = Some (A4 a b c d)) ∨
  (¬ (∃ u, valid m u ∧ w_verts m u = Some (A4 a b c d)) ∧ walker_from_tet m a b c d = Some None).
Proof. exact (tet_lookup m a b c d). Qed.
Print Assumptions C27_tet.

Theorem C27_adjacent_tets {V T} (m : mesh V T) id t : mesh_ok m → tet_get m id = Some t →
  ∃ l, adjacent_tets m id = Some l ∧ length l = 4 ∧
    ∀ i n, l !! i = Some n → ∃ w w' a b c d d',
      valid m w ∧ w_tet w = id ∧ w_verts m w = Some (A4 a b c d) ∧ get4 (t_vs t) i = d ∧
      valid m w' ∧ w_tet w' = n ∧ w_verts m w' = Some (A4 b a c d').
Proof. exact (adjacent_lookup m id t). Qed.
Print Assumptions C27_adjacent_tets.

Definition ex_untracked : mesh Z unit := default mesh_empty (set_track_tri_map (ex ex_ops4) false).
Example C27_witness : mesh_ok (ex ex_ops4) ∧ attached (ex ex_ops4) 4 ∧
  walker_from_edge (ex ex_ops4) 4 2 = Some (Some (Walker 8 10)) ∧
  walker_from_edge (ex ex_ops4) 4 GHOST = Some None ∧
  m_track ex_untracked = false ∧
  walker_from_tri ex_untracked (4, 0, 2)%N = Some (Some (Walker 7 5)) ∧
  walker_from_tri ex_untracked (2, 1, 3)%N = Some None ∧
  walker_from_tet ex_untracked 4 0 2 1 = Some (Some (Walker 7 5)) ∧
  walker_from_tet ex_untracked 4 0 2 5 = Some None ∧
  adjacent_tets (ex ex_ops4) 7 = Some [8; 5; 6; 4]%N.
Proof.
  split; [apply reachable_ok, ex4_reachable|]. split; [apply attachedb_spec; vm_compute; reflexivity|].
  vm_compute. done.
Qed.

(** ** C37. Circular list iteration. *)
(** On any round trip, whatever is computed for the elements: exactly the elements of the trip come
    out, each once, the start first. *)
Theorem C37_circular_list {K A} `{EqDecision K} (value : K → option A) (val : K → A) (next : K → option K) start l :
  round_trip next start l → (∀ x, x ∈ l → value x = Some (val x)) →
  yields (ci_next value next) (ci_new start) ((λ x, (x, val x)) <$> l) ∧ NoDup l ∧ head l = Some start.
Proof.
  intros Hr Hv. split; [exact (circular_yields value val next start l Hr Hv)|]. split; [by eapply round_trip_nodup|].
  rewrite head_lookup. apply Hr.
Qed.
Print Assumptions C37_circular_list.

(** An injective successor function on a finite set makes a round trip from every start. *)
Theorem C37_terminates {K A} `{EqDecision K} (value : K → option A) (val : K → A) (next : K → option K) (S : list K) start :
  (∀ x, x ∈ S → ∃ y, next x = Some y ∧ y ∈ S) →
  (∀ x y z, x ∈ S → y ∈ S → next x = Some z → next y = Some z → x = y) →
  (∀ x, x ∈ S → value x = Some (val x)) → start ∈ S →
  ∃ l, round_trip next start l ∧ length l ≤ length S ∧ (∀ x, x ∈ l → x ∈ S) ∧
    yields (ci_next value next) (ci_new start) ((λ x, (x, val x)) <$> l).
Proof.
  intros Hc Hi Hv Hs. destruct (round_trip_ex next S Hc Hi start Hs) as (l & Hr & Hl & Hin).
  exists l. split; [done|]. split; [done|]. split; [done|]. apply circular_yields; [done|]. intros x Hx. by apply Hv, Hin.
Qed.
Print Assumptions C37_terminates.

(** As long as the start is not met again, iteration goes on. *)
Theorem C37_stops_only_at_start {K A} `{EqDecision K} (value : K → option A) (val : K → A) (next : K → option K) start n l :
  length l = S n → l !! 0 = Some start →
  (∀ i x y, l !! i = Some x → l !! S i = Some y → next x = Some y ∧ y ≠ start) → (∀ x, x ∈ l → value x = Some (val x)) →
  ∃ it, iter_take (ci_next value next) n (ci_new start) = Some ((λ x, (x, val x)) <$> take n l, it) ∧ ci_done it = false.
Proof. exact (circular_no_stop value val next start n l). Qed.
Print Assumptions C37_stops_only_at_start.

Example C37_witness : round_trip (λ x : nat, Some ((x + 3) mod 7)) 2 [2; 5; 1; 4; 0; 3; 6].
Proof.
  split; [done|]. split.
  - intros i x H. do 7 (destruct i as [|i]; [injection H as <-; done|]). done.
  - intros i H. do 7 (destruct i as [|i]; [done|]). done.
Qed.

(** ** C38. Hilbert sorting. *)
Theorem C38_hilbert_sort_permutes {F V} (leb : F → F → bool) norm curve (ps : list ((F * F * F) * V)) :
  (N.of_nat (length ps) ≤ 2 ^ 32)%N →
  (hilbert_sort leb norm curve ps = None ↔ ps = []) ∧
  (∀ l, hilbert_sort leb norm curve ps = Some l → l ≡ₚ imap (λ i p, (N.of_nat i, p)) ps).
Proof.
  intros Hl. rewrite <- (enumerate_number ps Hl). pose proof (hilbert_sort_perm leb norm curve ps) as H.
  destruct (hilbert_sort leb norm curve ps) as [l|]; [|by subst]. destruct H as [Hne Hp].
  split; [by split|]. by intros ? [= <-].
Qed.
Print Assumptions C38_hilbert_sort_permutes.

(** With a total comparison: sorted by the curve index of the normalised point, ties in input
    order. *)
Theorem C38_hilbert_sort_order {F V} (leb : F → F → bool) norm curve (ps : list ((F * F * F) * V)) l :
  (∀ a b, leb a b = true ∨ leb b a = true) → (∀ a b c, leb a b = true → leb b c = true → leb a c = true) →
  (N.of_nat (length ps) ≤ 2 ^ 32)%N → hilbert_sort leb norm curve ps = Some l →
  ∃ x0 x1 y0 y1 z0 z1,
    least leb x0 ((λ p, p.1.1.1) <$> ps) ∧ greatest leb x1 ((λ p, p.1.1.1) <$> ps) ∧
    least leb y0 ((λ p, p.1.1.2) <$> ps) ∧ greatest leb y1 ((λ p, p.1.1.2) <$> ps) ∧
    least leb z0 ((λ p, p.1.2) <$> ps) ∧ greatest leb z1 ((λ p, p.1.2) <$> ps) ∧
    let key (p : F * F * F) := curve (norm x0 x1 p.1.1, norm y0 y1 p.1.2, norm z0 z1 p.2) in
    StronglySorted (λ a b, key a.2.1 < key b.2.1 ∨ key a.2.1 = key b.2.1 ∧ a.1 < b.1)%N l.
Proof.
  intros Ht Htr Hl E. pose proof (hilbert_sort_spec leb norm curve ps Hl) as H. rewrite E in H.
  destruct H as (_ & _ & H); [|exact Htr|exact H].
  intros a b H. destruct (Ht a b) as [H'|H']; [congruence|done].
Qed.
Print Assumptions C38_hilbert_sort_order.

Example C38_witness :
  hilbert_sort N.leb (λ lo hi x, x - lo)%N (λ p, p.1.1 + p.1.2 + p.2)%N [((3, 1, 4), 10); ((1, 1, 1), 11); ((2, 5, 1), 12)]%N =
  Some [(1, ((1, 1, 1), 11)); (0, ((3, 1, 4), 10)); (2, ((2, 5, 1), 12))]%N.
Proof. vm_compute. done. Qed.
