(** Property C34: removing an edge or a triangle by a search over flips. *)
From stdpp Require Import base numbers list gmap option relations.
From Coq Require Import NArith ZArith Lia.
From Verif Require Import IdMapModel WalkerModel WalkerSpec MeshModel MeshOps MeshSpec FlipSpec GeoModel HistSpec MeshCheck HistCheck Integrity History Reach
  WalkerMore Flip44Ok PropMesh UtilSpec QualModel QualProofs ProgModel ProgSpec ProgBase ProgStep ProgRing ProgOk ProgEdge ProgHist.
Local Open Scope nat_scope.

Section prog.
  Context {V T : Type}.
  Implicit Types (m : mesh V T) (w : walker).
  Context (ea : mesh V T → N * N → bool) (ta : mesh V T → N * N * N → bool) (ori : mesh V T → N → N → N → N → Z).

  (** ** C34. The search for an edge.  Whatever the depth, the caller's predicates and the orientation
      test: unless some flip it may reach is asked to make an element that the mesh already has (or
      there is no id left), the search ends without a panic, gives back both stacks as they were, has
      changed the mesh by wanted flips only, has added no triangle at a bad edge, and reports rightly:
      either nothing, and every goal and the edge itself are still there, or the first goal that is
      gone (the edge itself counting as the last goal). *)
  Theorem C34_edge depth m w goals bads e :
    fit m → valid m w → w_pair m w = Some e →
    (∀ g, g ∈ goals → present m g ∧ in_order g) → (∀ b, b ∈ bads → SEdge b ∈ goals) →
    (∃ m1, rtc (search_flip ea ta ori) m m1 ∧ clash ea ta ori m1) ∨
    ∃ m' r, remove_edge ea ta ori depth w m goals bads = Some (m', goals, bads, r) ∧
      rtc (search_flip ea ta ori) m m' ∧ fit m' ∧
      (∀ a b c, sorted_2 (a, b) ∈ bads → has_tri m' a b c → has_tri m a b c) ∧
      reports m' (goals ++ [SEdge (sorted_2 e)]) r.
  Proof.
    intros Hf Hw He Hg Hb.
    destruct (proj1 (search_ok ea ta ori depth) w m goals bads e) as [Hs|(o & E & m' & r & -> & (H1 & H2 & H3) & H4)];
      [done|done|done|by left|right]. exists m', r. done.
  Qed.

  (** The same for a triangle. *)
  Theorem C34_tri depth m w goals bads t :
    fit m → valid m w → w_tri m w = Some t →
    (∀ g, g ∈ goals → present m g ∧ in_order g) → (∀ b, b ∈ bads → SEdge b ∈ goals) →
    (∃ m1, rtc (search_flip ea ta ori) m m1 ∧ clash ea ta ori m1) ∨
    ∃ m' r, remove_tri ea ta ori depth w m goals bads = Some (m', goals, bads, r) ∧
      rtc (search_flip ea ta ori) m m' ∧ fit m' ∧
      (∀ a b c, sorted_2 (a, b) ∈ bads → has_tri m' a b c → has_tri m a b c) ∧
      reports m' (goals ++ [STri (sorted_3 t)]) r.
  Proof.
    intros Hf Hw He Hg Hb.
    destruct (proj2 (search_ok ea ta ori depth) w m goals bads t) as [Hs|(o & E & m' & r & -> & (H1 & H2 & H3) & H4)];
      [done|done|done|by left|right]. exists m', r. done.
  Qed.

  (** Wanted flips, however many: the mesh stays well formed and tracked, locked triangles and edges
      stay, nothing else becomes locked, no vertex is touched and none is cut off. *)
  Theorem C34_keeps m m' : fit m → rtc (search_flip ea ta ori) m m' →
    mesh_ok m' ∧ m_track m' = true ∧ thick m' ∧
    (∀ t, locked_tri m' t ↔ locked_tri m t) ∧ (∀ a b, locked_edge m' a b ↔ locked_edge m a b) ∧
    (∀ a b, locked_edge m a b → joined m' a b) ∧
    (∀ v, (λ vt, (v_flags vt, v_pos vt, v_val vt)) <$> im_get (m_verts m') v =
          (λ vt, (v_flags vt, v_pos vt, v_val vt)) <$> im_get (m_verts m) v) ∧
    (∀ v, attached m v → attached m' v).
  Proof.
    intros Hf H. destruct (steps_keep ea ta ori m m' Hf H) as [(Hok & Htr & Hth) H1 H2 H3 H4].
    do 5 (split; [done|]). split; [|done].
    intros a b Hl. apply H2 in Hl as (e & ue & E1 & E2 & _). pose proof (ok_edge_used m' Hok e ue E1) as Hj. rewrite E2 in Hj.
    unfold sorted_2 in Hj. destruct (_ <? _)%N; [|done]. by apply joined_sym.
  Qed.

  (** How the library calls it, with both stacks empty: the index it asserts to be 0 is 0, and the
      edge is then gone; otherwise the edge is still there. *)
  Theorem C34_recover_call depth m w a b :
    fit m → valid m w → w_pair m w = Some (a, b) →
    (∃ m1, rtc (search_flip ea ta ori) m m1 ∧ clash ea ta ori m1) ∨
    ∃ m' r, remove_edge ea ta ori depth w m [] [] = Some (m', [], [], r) ∧ rtc (search_flip ea ta ori) m m' ∧ fit m' ∧
      ((r = None ∧ joined m' a b) ∨ (r = Some 0 ∧ ¬ joined m' a b)).
  Proof.
    intros Hf Hw Hp. destruct (C34_edge depth m w [] [] (a, b) Hf Hw Hp) as [Hs|(m' & r & E & H1 & H2 & _ & H3)].
    { intros g Hg. by apply elem_of_nil in Hg. } { intros g Hg. by apply elem_of_nil in Hg. } { by left. }
    right. exists m', r. do 3 (split; [done|]). destruct (wpair_in_order m w a b (proj1 Hf) Hw Hp) as (Hne & _).
    pose proof (present_edge m' a b (proj1 H2) Hne) as Hpe. cbn [app] in H3. destruct r as [i|].
    - destruct H3 as ((g & Hi & Hn) & _). destruct i as [|i]; [|done]. injection Hi as <-. right. split; [done|]. by rewrite <- Hpe.
    - left. split; [done|]. apply Hpe, H3. by left.
  Qed.
  Theorem C34_recover_call_tri depth m w a b c :
    fit m → valid m w → w_tri m w = Some (a, b, c) →
    (∃ m1, rtc (search_flip ea ta ori) m m1 ∧ clash ea ta ori m1) ∨
    ∃ m' r, remove_tri ea ta ori depth w m [] [] = Some (m', [], [], r) ∧ rtc (search_flip ea ta ori) m m' ∧ fit m' ∧
      ((r = None ∧ has_tri m' a b c) ∨ (r = Some 0 ∧ ¬ has_tri m' a b c)).
  Proof.
    intros Hf Hw Hp. destruct (C34_tri depth m w [] [] (a, b, c) Hf Hw Hp) as [Hs|(m' & r & E & H1 & H2 & _ & H3)].
    { intros g Hg. by apply elem_of_nil in Hg. } { intros g Hg. by apply elem_of_nil in Hg. } { by left. }
    right. exists m', r. do 3 (split; [done|]). destruct (wtri_in_order m w a b c (proj1 Hf) Hw Hp) as (Hne & _).
    pose proof (present_tri m' a b c (proj1 H2) Hne) as Hpe. cbn [app] in H3. destruct r as [i|].
    - destruct H3 as ((g & Hi & Hn) & _). destruct i as [|i]; [|done]. injection Hi as <-. right. split; [done|]. by rewrite <- Hpe.
    - left. split; [done|]. apply Hpe, H3. by left.
  Qed.

  (** With predicates that refuse what the mesh already has and mind the ids, there is no exception. *)
  Theorem C34_careful_predicates depth m w goals bads e :
    (∀ m1 a b, ea m1 (a, b) = true → ¬ joined m1 a b ∧ ¬ joined m1 b a ∧ id_room m1 1 1) →
    (∀ m1 a b c, ta m1 (a, b, c) = true → ¬ has_tri m1 a b c) →
    fit m → valid m w → w_pair m w = Some e →
    (∀ g, g ∈ goals → present m g ∧ in_order g) → (∀ b, b ∈ bads → SEdge b ∈ goals) →
    ∃ m' r, remove_edge ea ta ori depth w m goals bads = Some (m', goals, bads, r) ∧
      rtc (search_flip ea ta ori) m m' ∧ fit m' ∧ reports m' (goals ++ [SEdge (sorted_2 e)]) r.
  Proof.
    intros Hea Hta Hf Hw He Hg Hb. destruct (C34_edge depth m w goals bads e Hf Hw He Hg Hb) as [(m1 & H1 & Hc)|(m' & r & E & H1 & H2 & _ & H3)]; [|by exists m', r].
    exfalso. destruct Hc as [u a b c d f Hx Hj|u p q x y z Hx Ht|u p q x y z v Hx Hj].
    - destruct Hx as (_ & _ & _ & _ & _ & _ & _ & K & _). destruct (Hea _ _ _ K) as (? & ? & ?). by destruct Hj.
    - destruct Hx as (_ & _ & _ & _ & _ & _ & K). by destruct (Hta _ _ _ _ K).
    - destruct Hx as (_ & _ & _ & _ & _ & _ & _ & _ & K & _). destruct (Hea _ _ _ K) as (? & ? & ?). by destruct Hj.
  Qed.

  (** No depth, or a locked element: nothing happens. *)
  Theorem C34_nothing depth m w goals bads : fit m → valid m w →
    remove_edge ea ta ori 0 w m goals bads = Some (m, goals, bads, None) ∧
    remove_tri ea ta ori 0 w m goals bads = Some (m, goals, bads, None) ∧
    (∀ a b, w_pair m w = Some (a, b) → locked_edge m a b → remove_edge ea ta ori depth w m goals bads = Some (m, goals, bads, None)) ∧
    (w_locked m w = Some true → remove_tri ea ta ori depth w m goals bads = Some (m, goals, bads, None)).
  Proof.
    intros Hf Hw. split; [done|]. split; [done|]. split.
    - intros a b Hp (e & ue & E1 & E2 & E3). destruct depth; [done|]. cbn [remove_edge]. unfold remove_edge_body.
      destruct Hf as (Hok & _). destruct (ok_edge m Hok w a b Hw Hp) as (e' & ue' & F1 & F2 & F3).
      assert (e = e') as <- by (apply (ok_edge_unique m Hok e e' ue ue'); [done|done|congruence]).
      unfold w_edge_locked. rewrite F1. cbn [mbind option_bind]. rewrite E1. cbn [mbind option_bind]. by rewrite E3.
    - intros Hl. destruct depth; [done|]. cbn [remove_tri]. unfold remove_tri_body. by rewrite Hl.
  Qed.

  (** A wanted flip is found: a triangle whose 2-to-3 flip is wanted is removed by that flip. *)
  Theorem C34_direct_tri depth m w a b c d e : fit m → wants23 ea ta ori m w a b c d e → ¬ joined m d e → id_room m 1 1 →
    ∃ m' ws, flip23_unchecked m w = Some (m', ws) ∧ remove_tri ea ta ori (S depth) w m [] [] = Some (m', [], [], Some 0).
  Proof.
    intros Hf Hx Hj Hroom. destruct (do23 ea ta ori m w a b c d e Hf Hx Hj Hroom) as (m' & ws & E & _). exists m', ws. split; [done|].
    destruct Hx as (Hw & Ew & (o & Ea & E4) & Hl & O1 & O2 & O3 & A & T1 & T2 & T3).
    cbn [remove_tri]. unfold remove_tri_body. rewrite Hl. cbn [mbind option_bind]. rewrite (wverts_tri _ _ _ _ _ _ Ew). cbn [mbind option_bind].
    destruct (adj_ae_fourth m w o Ea) as (o' & Eo' & F4). rewrite Eo'. cbn [mbind option_bind]. rewrite Ew. cbn [mbind option_bind].
    rewrite F4, E4. cbn [mbind option_bind]. unfold blocking. rewrite (proj2 (Z.leb_gt _ _) O1), (proj2 (Z.leb_gt _ _) O2), (proj2 (Z.leb_gt _ _) O3).
    rewrite A, T1, T2, T3. cbn. rewrite E. cbn. unfold removed, goal_index. cbn. rewrite decide_True by (apply elem_of_list_singleton; done). done.
  Qed.
  (** An edge with three tets around it whose 3-to-2 flip is wanted is removed by that flip (seen
      from the tet that comes before the walker's). *)
  Theorem C34_direct_edge depth m r w p q x y z : fit m → wants32 ta ori m r p q x y z → ¬ has_tri m x y z → ring_next m r = Some w →
    ∃ m' ws, flip32_unchecked m r = Some (m', ws) ∧ remove_edge ea ta ori (S depth) w m [] [] = Some (m', [], [], Some 0).
  Proof.
    intros Hf Hx Ht Hn. destruct (do32 ea ta ori m r p q x y z Hf Hx Ht) as (m' & ws & E & _). exists m', ws. split; [done|].
    destruct Hx as (Hr & Er & (r1 & r2 & R1 & F1 & R2 & R3 & L0 & L1 & L2) & Hnl & O1 & O2 & A). rewrite Hn in R1. injection R1 as <-.
    pose proof Hf as (Hok & Htr & Hth).
    destruct (ring_info m r w _ _ _ _ Hok Hr Er Hn) as (Hw & (z' & Ew)). rewrite (wverts_fourth _ _ _ _ _ _ Ew) in F1. injection F1 as ->.
    destruct (ring_info m w r2 _ _ _ _ Hok Hw Ew R2) as (Hv2 & (x' & E2)).
    destruct (ring_info m r2 r _ _ _ _ Hok Hv2 E2 R3) as (_ & (y' & E3)). rewrite Er in E3. injection E3 as <- <-.
    pose proof (wverts_pair _ _ _ _ _ _ Ew) as Hp.
    cbn [remove_edge]. unfold remove_edge_body.
    destruct (ok_edge m Hok w p q Hw Hp) as (e & ue & G1 & G2 & G3).
    assert (w_edge_locked m w = Some false) as ->.
    { unfold w_edge_locked. rewrite G1. cbn [mbind option_bind]. rewrite G2. cbn. destruct (ue_locked ue) eqn:K; [|done]. exfalso. apply Hnl. exists e, ue. done. }
    cbn [mbind option_bind]. rewrite Hp. cbn [mbind option_bind].
    destruct (ring_walk m w p q Hok Hth Hw Hp) as (ring & Er' & Hround & _ & H3 & Hnd & _).
    assert (ring = [w; r2; r]) as ->.
    { destruct Hround as (H0 & Hs & _). destruct ring as [|w' [|u1 [|u2 rest]]]; try (cbn in H3; lia). injection H0 as ->.
      pose proof (Hs 0 w eq_refl) as K1. cbn in K1. pose proof (Hs 1 u1 eq_refl) as K2. pose proof (Hs 2 u2 eq_refl) as K3. cbn in K1.
      destruct rest as [|u3 rest]; cbn in K2, K3; [congruence|]. exfalso. assert (u3 = w) as -> by congruence.
      apply stdpp.list.NoDup_cons in Hnd as [Hnd _]. apply Hnd. right. right. by left. }
    rewrite Er'. cbn [mbind option_bind mapM]. rewrite (proj1 (proj2 (proj2 (walker_accessors m w _ _ _ _ Ew)))), (proj1 (proj2 (proj2 (walker_accessors m r2 _ _ _ _ E2)))), (proj1 (proj2 (proj2 (walker_accessors m r _ _ _ _ Er)))).
    change (finish ta ori (remove_tri ea ta ori depth) (p, q) m [SEdge (sorted_2 (p, q))] [] [y; z; x] = Some (m', [], [], Some 0)).
    unfold finish. rewrite decide_True by done. cbn [list.last mbind option_bind].
    destruct (tri_walker m p q x Hok Htr) as (u & y' & _ & K & Hu & Eu); [exists r; split; [done|by eapply wverts_tri]|].
    assert (u = r) as -> by (apply (ok_tri_unique m Hok u r (p, q, x) Hu Hr); eapply wverts_tri; eauto).
    rewrite K. cbn [mbind option_bind]. rewrite Hn. cbn [mbind option_bind]. rewrite R2. cbn [mbind option_bind].
    rewrite (proj1 (proj2 (proj2 (proj2 (proj2 (proj2 (walker_accessors m r _ _ _ _ Er))))))). cbn [mbind option_bind].
    rewrite (wverts_fourth _ _ _ _ _ _ Ew). cbn [mbind option_bind].
    rewrite (proj2 (Z.leb_gt _ _) O1), (proj2 (Z.leb_gt _ _) O2). rewrite L0, L1, L2, A, E. cbn.
    unfold removed, goal_index. cbn. rewrite decide_True by (by left). done.
  Qed.

  (** Every mesh made by [TetMesh::new] and the mesh operations will do, once it tracks its triangles. *)
  Theorem C34_histories m : reachable m → m_track m = true → fit m.
  Proof.
    intros Hr Ht. split; [|split; [done|by apply reachable_thick]].
    destruct Hr as (sim & ctr & ps & dflt & m0 & os & E & Ha & Er). destruct (history_ok _ _ _ _ os m0 E Ha) as (m1 & Er' & Hok & _).
    rewrite Er in Er'. by injection Er' as <-.
  Qed.
End prog.
Print Assumptions C34_edge.
Print Assumptions C34_tri.
Print Assumptions C34_keeps.
Print Assumptions C34_recover_call.
Print Assumptions C34_recover_call_tri.
Print Assumptions C34_careful_predicates.
Print Assumptions C34_nothing.
Print Assumptions C34_direct_tri.
Print Assumptions C34_direct_edge.
Print Assumptions C34_histories.

(** ** Concrete cases, with the exact orientation test. *)
Definition ori_z (m : mesh Z unit) (a b c d : N) : Z := default 0%Z (orient_3d m a b c d).
Definition any2 (_ : mesh Z unit) (_ : N * N) : bool := true.
Definition any3 (_ : mesh Z unit) (_ : N * N * N) : bool := true.
(** Predicates as in [C34_careful_predicates]. *)
Definition new2 (m : mesh Z unit) (e : N * N) : bool :=
  negb (joinedb m e.1 e.2) && negb (joinedb m e.2 e.1) && N.leb (im_npi (m_tets m) + 1) u32_mod && N.leb (im_npi (m_edges m) + 1) u32_mod.
Definition new3 (m : mesh Z unit) (t : N * N * N) : bool := negb (has_trib m t.1.1 t.1.2 t.2).

Lemma ex_fit os : all_admissibleb ex_new os = true → m_track (ex os) = true → fit (ex os).
Proof. intros H. by apply C34_histories, ex_reachable. Qed.

(** In a mesh with a locked edge and a locked triangle, an edge is removed by a 3-to-2 flip, and a
    triangle of it by first removing the edge that is in its way. *)
Example C34_witness :
  fit (ex ex_ops4) ∧ validb (ex ex_ops4) (Walker 11 0) = true ∧ validb (ex ex_ops4) (Walker 11 4) = true ∧
  match remove_edge any2 any3 ori_z 3 (Walker 11 0) (ex ex_ops4) [] [] with
  | Some (m', g, b, r) => negb (bool_decide (num_tets m' = num_tets (ex ex_ops4))) && bool_decide (g = [] ∧ b = [] ∧ r = Some 0)
  | None => false end = true ∧
  match remove_tri any2 any3 ori_z 2 (Walker 11 4) (ex ex_ops4) [] [] with
  | Some (m', g, b, r) => negb (bool_decide (num_tets m' = num_tets (ex ex_ops4))) && bool_decide (g = [] ∧ b = [] ∧ r = Some 0)
  | None => false end = true.
Proof. split; [apply ex_fit; vm_compute; reflexivity|]. vm_compute. done. Qed.

(** The same edge with predicates that look for themselves, and with an outer goal and a bad edge. *)
Example C34_careful_witness :
  (∀ m1 a b, new2 m1 (a, b) = true → ¬ joined m1 a b ∧ ¬ joined m1 b a ∧ id_room m1 1 1) ∧
  (∀ m1 a b c, new3 m1 (a, b, c) = true → ¬ has_tri m1 a b c) ∧
  (∀ g, g ∈ [SEdge (0, 1)%N] → present (ex ex_ops4) g ∧ in_order g) ∧
  match remove_edge new2 new3 ori_z 3 (Walker 11 0) (ex ex_ops4) [SEdge (0, 1)%N] [(0, 1)%N] with
  | Some (m', g, b, r) => bool_decide (g = [SEdge (0, 1)%N] ∧ b = [(0, 1)%N] ∧ r = Some 1)
  | None => false end = true.
Proof.
  split.
  { intros m1 a b. unfold new2. rewrite !andb_true_iff, !negb_true_iff, !N.leb_le. cbn [fst snd]. intros [[[H1 H2] H3] H4].
    pose proof (joinedb_spec m1 a b) as J1. pose proof (joinedb_spec m1 b a) as J2. rewrite H1 in J1. rewrite H2 in J2.
    split; [by intros K%J1|]. split; [by intros K%J2|]. done. }
  split.
  { intros m1 a b c. unfold new3. rewrite negb_true_iff. cbn [fst snd]. intros H. pose proof (has_trib_spec m1 a b c) as J. rewrite H in J. by intros K%J. }
  split; [|vm_compute; done].
  intros g ->%elem_of_list_singleton. split; [|done]. cbn [present]. apply joinedb_spec. vm_compute. reflexivity.
Qed.

(** A search that fails may leave a changed mesh behind. *)
Theorem C34_failure_changes_nothing_refuted : ¬ (∀ depth (m m' : mesh Z unit) w, fit m → valid m w →
  remove_edge any2 any3 ori_z depth w m [] [] = Some (m', [], [], None) → num_tets m' = num_tets m).
Proof.
  intros H. assert (fit (ex ex_ops2)) as Hf by (apply ex_fit; vm_compute; reflexivity).
  assert (validb (ex ex_ops2) (Walker 0 4) = true) as Hv%validb_spec by (vm_compute; reflexivity).
  assert (match remove_edge any2 any3 ori_z 3 (Walker 0 4) (ex ex_ops2) [] [] with
    | Some (m', [], [], None) => negb (bool_decide (num_tets m' = num_tets (ex ex_ops2))) | _ => false end = true) as Hr by (vm_compute; reflexivity).
  revert Hf Hv Hr. generalize (ex ex_ops2). intros m Hf Hv Hr.
  destruct (remove_edge _ _ _ _ _ _ _ _) as [[[[m' [|]] [|]] [|]]|] eqn:E; try done.
  rewrite (H 3 m m' (Walker 0 4) Hf Hv E) in Hr. rewrite bool_decide_eq_true_2 in Hr; done.
Qed.
Print Assumptions C34_failure_changes_nothing_refuted.

(** The search relies on the geometry to keep out elements that the mesh already has: with an
    orientation test that says yes to everything it makes a broken mesh. *)
Theorem C34_any_orientation_refuted : ¬ (∀ ori depth (m m' : mesh Z unit) w r, fit m → valid m w →
  remove_tri any2 any3 ori depth w m [] [] = Some (m', [], [], r) → mesh_ok m').
Proof.
  intros H. assert (fit (ex ex_ops1)) as Hf by (apply ex_fit; vm_compute; reflexivity).
  assert (validb (ex ex_ops1) (Walker 0 1) = true) as Hv%validb_spec by (vm_compute; reflexivity).
  assert (match remove_tri any2 any3 (λ _ _ _ _ _, 1%Z) 1 (Walker 0 1) (ex ex_ops1) [] [] with
    | Some (m', [], [], _) => validb m' (Walker 0 0) && validb m' (Walker 7 3) && eqb (w_tri m' (Walker 0 0)) (w_tri m' (Walker 7 3)) && someb (w_tri m' (Walker 0 0)) | _ => false end = true) as Hr by (vm_compute; reflexivity).
  revert Hf Hv Hr. generalize (ex ex_ops1). intros m Hf Hv Hr.
  destruct (remove_tri _ _ _ _ _ _ _ _) as [[[[m' [|]] [|]] r]|] eqn:E; try done.
  pose proof (H _ 1 m m' (Walker 0 1) r Hf Hv E) as Hok. rewrite !andb_true_iff in Hr. destruct Hr as [[[H1%validb_spec H2%validb_spec] H3%eqb_eq] H4].
  destruct (w_tri m' (Walker 0 0)) as [t|] eqn:E1; [|done]. discriminate (ok_tri_unique m' Hok _ _ t H1 H2 E1 (eq_sym H3)).
Qed.
Print Assumptions C34_any_orientation_refuted.
