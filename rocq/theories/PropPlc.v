(** Construction of piecewise linear complexes: C39, C40 and C41. *)
From Coq Require Import NArith ZArith Lia Sorted.
From stdpp Require Import base numbers list gmap option sorting fin_maps fin_sets.
From Verif Require Import IdMapModel IdMapProofs WalkerModel MeshModel UtilModel UtilSpec PlcModel PlcSpec PlcList PlcNet PlcFace PlcAdd PlcIter PlcProofs PlcHist.
Local Open Scope N_scope.

(** The two hypotheses of most theorems: the calls use vertices added before and non-empty faces and
    rings ([refs_exist 0 os]); they create at most [2^32 - 1] elements ([pops_size os ≤ invalid_id]).
    The default edge value, the plane given to a face before its own one is computed and the function
    that computes the plane from the positions are arbitrary. *)
Section props.
  Context {V E F Pl : Type}.
  Implicit Types (p : plc V E F Pl) (os : list (pop V E F)).

  (** ** C39: no call fails and the linked structure is well formed. *)
  Theorem C39_construction (plane0 : Pl) (d : E) (plane_of : list pt → list (pt * pt) → Pl) os :
    refs_exist 0 os → pops_size os ≤ invalid_id →
    ∃ p, run_pops plane0 d plane_of plc_new os = Some p ∧ plc_ok p ∧
      p_num_vertices p = Some (N.of_nat (length (added_verts os))) ∧
      p_num_faces p = Some (N.of_nat (length (added_faces os))) ∧
      p_num_edges p = Some (N.of_nat (size (list_to_set (concat (map pop_pairs os)) : gset (N * N)))) ∧
      ∀ v, vdata p v = added_verts os !! N.to_nat v.
  Proof.
    intros Hr Hs. destruct (run_content plane0 d plane_of os Hr Hs) as (p & E1 & Hc). exists p. split; [done|]. split; [by apply Hc|].
    destruct (content_counts _ _ _ _ Hc) as (-> & -> & ->). do 3 (split; [done|]). by apply (ct_verts _ _ _ _ Hc).
  Qed.

  (** Iterating over any face of the result never fails. *)
  Theorem C39_iteration (plane0 : Pl) (d : E) (plane_of : list pt → list (pt * pt) → Pl) os p f fc :
    refs_exist 0 os → pops_size os ≤ invalid_id → run_pops plane0 d plane_of plc_new os = Some p → im_get (p_faces p) f = Some fc →
    is_Some (face_ring_list p fc) ∧ is_Some (face_vertices p fc) ∧ is_Some (face_edges p fc).
  Proof.
    intros Hr Hs E0 Hf. destruct (run_content plane0 d plane_of os Hr Hs) as (p' & E1 & Hc). simplify_eq.
    pose proof (ct_ok _ _ _ _ Hc) as Hok. pose proof (ok_base _ Hok) as Hb. destruct (pk_face _ Hok f) as [vss Hv]; [eauto|].
    destruct (face_ring_list_ok _ _ _ _ Hb Hf Hv) as (? & -> & _). destruct (face_vertices_ok _ _ _ _ Hb Hf Hv) as (? & -> & _).
    destruct (face_edges_ok _ _ _ _ Hb Hf Hv) as (? & -> & _). eauto.
  Qed.

  (** Each call of a history returns the id of what it made: the next vertex id, the next face id, or
      the id under which the edge is found. *)
  Theorem C39_returned_ids (plane0 : Pl) (d : E) (plane_of : list pt → list (pt * pt) → Pl) os o os' :
    refs_exist 0 (os ++ o :: os') → pops_size (os ++ o :: os') ≤ invalid_id →
    ∃ p p' id, run_pops plane0 d plane_of plc_new os = Some p ∧ run_pop plane0 d plane_of p o = Some (p', id) ∧
      match o with
      | PAddVertex _ _ => id = N.of_nat (length (added_verts os))
      | PAddFace _ _ => id = N.of_nat (length (added_faces os))
      | PAddEdge vs _ | PAddEdgeIfAbsent vs _ => edge_id p' vs = Some id ∧ (∀ e, edge_id p vs = Some e → id = e)
      end.
  Proof.
    intros Hr Hs. destruct (run_content_split plane0 d plane_of os (o :: os') Hr Hs) as (p & _ & E1 & _ & Hc & _ & _ & Hr2 & Hrm).
    destruct (content_step plane0 d plane_of os p o Hc) as (p' & id & E2 & Hc' & He).
    { destruct o; cbn in *; tauto. }
    { eapply room_le; [|exact Hrm]. cbn. lia. }
    exists p, p', id. split; [done|]. split; [done|]. pose proof (oe_id _ _ _ _ _ _ He) as Hid. destruct o; cbn in Hid.
    - by rewrite Hid, (ct_nv _ _ _ _ Hc).
    - split; [done|]. intros e H. apply (oe_edge _ _ _ _ _ _ He) in H. congruence.
    - split; [done|]. intros e H. apply (oe_edge _ _ _ _ _ _ He) in H. congruence.
    - destruct Hid as (-> & _). by rewrite (ct_nf _ _ _ _ Hc).
  Qed.

  (** Reading an obj file makes exactly these calls: all positions, then an edge for each polygon with
      two corners and a face with one ring for each other one. *)
  Theorem C39_from_obj (plane0 : Pl) (d : E) (plane_of : list pt → list (pt * pt) → Pl) (dv : V) (de : E) (df : F) positions objects :
    (∀ poly v, poly ∈ concat (concat objects) → v ∈ poly → v < u32_mod) →
    from_obj plane0 d plane_of dv de df positions objects =
    run_pops plane0 d plane_of plc_new (obj_ops dv de df positions (concat (concat objects))).
  Proof. apply from_obj_run. Qed.

  (** ** C40: a face returns the rings it was made from. *)
  Theorem C40_faces (plane0 : Pl) (d : E) (plane_of : list pt → list (pt * pt) → Pl) os i rings val :
    refs_exist 0 os → pops_size os ≤ invalid_id → added_faces os !! i = Some (rings, val) →
    ∃ p fc vll ell, run_pops plane0 d plane_of plc_new os = Some p ∧ im_get (p_faces p) (N.of_nat i) = Some fc ∧ pf_val fc = val ∧
      (** the vertices, ring by ring, with the positions and values they were added with *)
      face_vertices p fc = Some vll ∧ (λ vl, vl.*1) <$> vll = rings ∧
      (∀ v x, (v, x) ∈ concat vll → added_verts os !! N.to_nat v = Some (pv_pos x, pv_val x)) ∧
      (** the edges, ring by ring *)
      face_edges p fc = Some ell ∧ (λ el, (λ e : N * pedge E, pe_vs e.2) <$> el) <$> ell = ring_pairs <$> rings ∧
      (∀ e x, (e, x) ∈ concat ell → edge_id p (pe_vs x) = Some e) ∧
      (** the plane, computed from the positions of the vertices and of the ends of the edges *)
      ∃ pts ends, mapM (pos_in os) (concat rings) = Some pts ∧ mapM (ends_in os) (concat (map ring_pairs rings)) = Some ends ∧
        pf_plane fc = plane_of pts ends.
  Proof.
    intros Hr Hs Hi. destruct (run_content plane0 d plane_of os Hr Hs) as (p & E1 & Hc).
    destruct (ct_faces _ _ _ _ Hc i rings val Hi) as (Hf & pts & ends & H1 & H2 & H3). pose proof (ok_base _ (ct_ok _ _ _ _ Hc)) as Hb.
    unfold fcdata in H3. apply fmap_Some in H3 as (fc & Hfc & Hd). injection Hd as Hd1 Hd2.
    destruct (face_vertices_ok _ _ _ _ Hb Hfc Hf) as (vll & A1 & A2 & A3). destruct (face_edges_ok _ _ _ _ Hb Hfc Hf) as (ell & B1 & B2 & B3).
    exists p, fc, vll, ell. do 5 (split; [done|]). split.
    { intros v x Hv. apply A3 in Hv. rewrite <- (ct_verts _ _ _ _ Hc). unfold vdata. by rewrite Hv. }
    do 2 (split; [done|]). split.
    { intros e x He. apply B3 in He. apply (pb_map _ Hb). unfold evs. by rewrite He. }
    exists pts, ends. done.
  Qed.

  (** ** C41: one edge per ordered vertex pair, with the right value. *)
  Theorem C41_values (plane0 : Pl) (d : E) (plane_of : list pt → list (pt * pt) → Pl) os :
    refs_exist 0 os → pops_size os ≤ invalid_id →
    ∃ p, run_pops plane0 d plane_of plc_new os = Some p ∧
      (** the value found for a pair is the one the calls give it; none if no call made that edge *)
      (∀ vs, (e ← edge_id p vs; eval p e) = value_after d os vs) ∧
      (∀ vs, is_Some (edge_id p vs) ↔ vs ∈ concat (map pop_pairs os)) ∧
      (** an edge is found under the pair of its vertices, and under no other *)
      (∀ vs e, edge_id p vs = Some e ↔ evs p e = Some vs).
  Proof.
    intros Hr Hs. destruct (run_content plane0 d plane_of os Hr Hs) as (p & E1 & Hc). pose proof (ok_base _ (ct_ok _ _ _ _ Hc)) as Hb.
    exists p. split; [done|]. split; [apply (ct_edges _ _ _ _ Hc)|]. split; [|apply (pb_map _ Hb)].
    intros vs. rewrite <- (value_after_some d), <- (ct_edges _ _ _ _ Hc). by rewrite ev_some.
  Qed.

  (** Later calls do not change the id of an edge. *)
  Theorem C41_ids_stable (plane0 : Pl) (d : E) (plane_of : list pt → list (pt * pt) → Pl) os os' :
    refs_exist 0 (os ++ os') → pops_size (os ++ os') ≤ invalid_id →
    ∃ p p', run_pops plane0 d plane_of plc_new os = Some p ∧ run_pops plane0 d plane_of plc_new (os ++ os') = Some p' ∧
      ∀ vs e, edge_id p vs = Some e → edge_id p' vs = Some e.
  Proof.
    intros Hr Hs. destruct (run_content_split plane0 d plane_of os os' Hr Hs) as (p & p' & E1 & E2 & _ & _ & Hk & _).
    exists p, p'. split; [done|]. split; [|done]. by rewrite run_app, E1.
  Qed.

  (** ** Finding: an empty face and an empty ring panic, although the vertices exist. *)
  Theorem C39_no_rings_refuted (plane0 : Pl) (d : E) (plane_of : list pt → list (pt * pt) → Pl) (val : F) p :
    plc_ok p → run_pop plane0 d plane_of p (PAddFace [] val) = None.
  Proof.
    intros Hok. cbn. unfold p_add_face. destruct (im_insert _ _) as [m id]. cbn [foldM mbind option_bind]. unfold upd_ring.
    cbn [p_rings with_faces]. unfold im_upd. destruct (im_get (p_rings p) invalid_id) eqn:H; [|done].
    destruct (pk_rings _ Hok) as (_ & H1 & H2). assert (is_Some (im_get (p_rings p) invalid_id)) as H3 by eauto. apply H1 in H3. lia.
  Qed.
  Theorem C39_empty_ring_refuted (plane0 : Pl) (d : E) (plane_of : list pt → list (pt * pt) → Pl) (val : F) p rings :
    run_pop plane0 d plane_of p (PAddFace ([] :: rings) val) = None.
  Proof.
    assert (∀ id s, face_step d id s [] = (None : option (plc V E F Pl * N * N))) as H.
    { intros id [[q a] b]. unfold face_step. destruct (im_insert (p_rings q) (FRing (RFaceEdge invalid_id) id invalid_id invalid_id)) as [m r].
      destruct (N.eqb a invalid_id); [by destruct (upd_face _ _ _)|]. destruct (upd_ring _ b _) as [q1|]; [|done]. cbn [mbind option_bind].
      by destruct (upd_ring q1 _ _). }
    cbn. unfold p_add_face. destruct (im_insert (p_faces p) _) as [m id]. cbn [foldM]. by rewrite H.
  Qed.
End props.

Print Assumptions C39_construction.
Print Assumptions C39_iteration.
Print Assumptions C39_returned_ids.
Print Assumptions C39_from_obj.
Print Assumptions C40_faces.
Print Assumptions C41_values.
Print Assumptions C41_ids_stable.
Print Assumptions C39_no_rings_refuted.
Print Assumptions C39_empty_ring_refuted.

(** ** A history that meets the hypotheses: a square face with a triangular hole and an isolated
    vertex, a second face that shares an edge with it, and edges given values before and after. *)
Definition plc_ops : list (pop N N N) :=
  ((λ i : N, PAddVertex (Pt (Z.of_N i) (Z.of_N (i * i)) 0) (100 + i)) <$> [0; 1; 2; 3; 4; 5; 6; 7]) ++
  [PAddEdge (1, 2) 11; PAddEdgeIfAbsent (1, 2) 12; PAddEdgeIfAbsent (2, 1) 21;
   PAddFace [[0; 1; 2; 3]; [4; 5; 6]; [7]] 50;
   PAddFace [[0; 1; 6]] 51; PAddEdge (0, 1) 99; PAddFace [[7]; [3; 3]] 52].
Definition plc_plane (pts : list pt) (ends : list (pt * pt)) : N * N := (N.of_nat (length pts), N.of_nat (length ends)).
Example plc_ops_ok : refs_exist 0 plc_ops ∧ pops_size plc_ops ≤ invalid_id.
Proof.
  split; [|vm_compute; discriminate]. cbn.
  repeat match goal with
  | |- _ ∧ _ => split | |- True => done | |- _ < _ => reflexivity | |- _ ≠ [] => discriminate
  | |- ∀ _, _ ∈ _ → _ => let H := fresh in intros ? H; repeat (apply elem_of_cons in H as [->|H]); try (by apply elem_of_nil in H)
  end.
Qed.
(** The whole structure, as the model computes it. *)
Definition plc_ex : plc N N N (N * N) := default plc_new (run_pops (0, 0) 7 plc_plane plc_new plc_ops).
Example plc_ex_faces :
  map (λ f, (match im_get (p_faces plc_ex) f with Some fc => map (map fst) (default [] (face_vertices plc_ex fc)) | None => [] end, fcdata plc_ex f)) [0; 1; 2] =
  [([[0; 1; 2; 3]; [4; 5; 6]; [7]], Some ((8, 7), 50)); ([[0; 1; 6]], Some ((3, 3), 51)); ([[7]; [3; 3]], Some ((3, 2), 52))].
Proof. by vm_compute. Qed.
Example plc_ex_edges :
  map (λ vs, (e ← edge_id plc_ex vs; eval plc_ex e)) [(1, 2); (2, 1); (0, 1); (6, 0); (3, 3); (1, 0)] = [Some 11; Some 21; Some 99; Some 7; Some 7; None].
Proof. by vm_compute. Qed.
(** Finding: the ring field of a vertex keeps only its last isolated ring: the third ring of face 0
    (ring 2) consists of vertex 7, but the vertex points to ring 4. *)
Example plc_ex_isolated : relement plc_ex 2 = Some (RVertex 7) ∧ vring plc_ex 7 = Some 4.
Proof. by vm_compute. Qed.
(** Finding: an edge from a vertex to itself is accepted (and made by a ring that repeats a vertex). *)
Example plc_ex_loop : is_Some (edge_id plc_ex (3, 3)).
Proof. vm_compute. eauto. Qed.
