(** Property C59: the exported triangles are the faces of the solid tets. *)
From stdpp Require Import base numbers list gmap option.
From Coq Require Import NArith ZArith Lia.
From Verif Require Import IdMapModel IdMapProofs WalkerModel WalkerSpec MeshModel MeshSpec MeshOps GeoModel GeoSpec GeoProofs
  HistSpec History HistCheck NewMesh Reach PropMesh PropQual ObjModel.
Local Open Scope nat_scope.

Section spec.
  Context {V T P : Type} (round : pt → P).
  Implicit Types (m : mesh V T).

  (** A tet without the ghost vertex. *)
  Definition solid_id m (id : N) : Prop := ∃ t, tet_get m id = Some t ∧ GHOST ∉ list4 (t_vs t).
  Global Instance solid_id_dec m id : Decision (solid_id m id).
  Proof.
    unfold solid_id. destruct (tet_get m id) as [t|]; [destruct (decide (GHOST ∈ list4 (t_vs t))) as [H|H]|].
    - right. intros (t' & [= <-] & H'). done.
    - left. by exists t.
    - right. intros (t' & [=] & _).
  Defined.

  (** The corners of the triangle number [i] of the export. *)
  Definition exported (o : obj_data P) (f : nat * nat * nat) : option (P * P * P) :=
    let '(i, j, k) := f in
    a ← od_position o !! i; b ← od_position o !! j; c ← od_position o !! k; Some (a, b, c).

  (** The triangle of a walker, with rounded corners. *)
  Definition walker_face m (w : walker) : option (P * P * P) :=
    '(a, b, c) ← w_tri m w;
    va ← im_get (m_verts m) a; vb ← im_get (m_verts m) b; vc ← im_get (m_verts m) c;
    Some (round (v_pos va), round (v_pos vb), round (v_pos vc)).
End spec.

Lemma flat_app {A} (g : nat → list A) n k : flat_map g (seq k n) = flat_map (λ i, g (k + i)) (seq 0 n).
Proof.
  revert k g. induction n as [|n IH]; intros k g; [done|]. cbn. rewrite Nat.add_0_r. f_equal. rewrite (IH (S k)), (IH 1 (λ i, g (k + i))).
  apply flat_map_ext. intros i. f_equal. lia.
Qed.
Lemma mapM_nil {A B} (f : A → option B) : mapM f [] = Some [].
Proof. done. Qed.
Lemma mapM_cons {A B} (f : A → option B) x l : mapM f (x :: l) = (y ← f x; k ← mapM f l; Some (y :: k)).
Proof. done. Qed.
Lemma mapM_app {A B} (f : A → option B) l k : mapM f (l ++ k) = (x ← mapM f l; y ← mapM f k; Some (x ++ y)).
Proof.
  induction l as [|a l IH]; cbn; [by destruct (mapM f k)|]. destruct (f a); cbn; [|done].
  rewrite IH. destruct (mapM f l); cbn; [|done]. by destruct (mapM f k).
Qed.
Lemma mapM_cong {A B} (f g : A → option B) l : (∀ x, x ∈ l → f x = g x) → mapM f l = mapM g l.
Proof.
  induction l as [|a l IH]; intros H; cbn; [done|]. rewrite H by (by left). destruct (g a); cbn; [|done]. rewrite IH; [done|]. intros x Hx. apply H. by right.
Qed.

Section proofs.
  Context {V T P : Type} (round : pt → P).
  Implicit Types (m : mesh V T).
  Notation posf m := (λ v : N, vt ← im_get (m_verts m) v; Some (round (v_pos vt))).

  Lemma solid_values m : mesh_ok m →
    solid_tets m = omap (tet_get m) (filter (solid_id m) (im_keys (m_tets m))).
  Proof.
    intros Hok. pose proof (ok_ids_tets _ Hok) as Hwf. unfold solid_tets, im_values, im_keys.
    assert (∀ x, x ∈ im_iter (m_tets m) → tet_get m x.1 = Some x.2) as H.
    { intros [k t] Hx. apply elem_of_im_iter in Hx; [|done]. unfold tet_get. cbn. done. }
    revert H. generalize (im_iter (m_tets m)). clear Hwf. intros l. induction l as [|[k t] l IH]; intros H; [done|].
    assert (tet_get m k = Some t) as Ek by (apply (H (k, t)); by left). specialize (IH (λ x Hx, H x (elem_of_list_further _ _ _ Hx))).
    cbn [fmap list_fmap fst snd List.filter]. destruct (existsb (N.eqb GHOST) (list4 (t_vs t))) eqn:Eg; cbn [negb].
    - rewrite filter_cons_False; [done|]. intros (t' & E' & Hg). rewrite Ek in E'. injection E' as <-. apply Hg.
      apply existsb_exists in Eg as (x & Hx & E). apply N.eqb_eq in E as <-. by apply elem_of_list_In.
    - rewrite filter_cons_True; [|exists t; split; [done|]; intros Hg; assert (existsb (N.eqb GHOST) (list4 (t_vs t)) = true); [|congruence];
        apply existsb_exists; exists GHOST; split; [by apply elem_of_list_In|apply N.eqb_refl]].
      cbn. rewrite Ek. by f_equal.
  Qed.

  Lemma export_list m ids : mesh_ok m → Forall (solid_id m) ids →
    ∃ ps, mapM (posf m) (flat_map (λ t, list4 (t_vs t)) (omap (tet_get m) ids)) = Some ps ∧
      length (omap (tet_get m) ids) = length ids ∧ length ps = 4 * length ids ∧
      ∀ pre, mapM (λ f : nat * nat * nat, let '(i, j, k) := f in a ← (pre ++ ps) !! (length pre + i); b ← (pre ++ ps) !! (length pre + j); c ← (pre ++ ps) !! (length pre + k); Some (a, b, c))
          (flat_map tet_polys (seq 0 (length ids))) =
        mapM (walker_face round m) (flat_map (λ id, [Walker id 3; Walker id 0; Walker id 1; Walker id 2]) ids).
  Proof.
    intros Hok. induction ids as [|id ids IH]; intros Hs; [by exists []|].
    apply stdpp.list.Forall_cons in Hs as [(t & Et & Hg) Hs]. destruct (IH Hs) as (ps & Eps & El & Elp & Hps). clear IH.
    cbn [omap list_omap]. rewrite Et. cbn [flat_map].
    destruct t as [[a b c d] es op fl dt] eqn:Htt. rewrite <- Htt in Et. cbn [t_vs list4 q0 q1 q2 q3] in *.
    assert (∀ e, e < 12 → valid m (Walker id e)) as Hv by (intros e He; split; [by exists t|done]).
    assert (∀ x, x ∈ [a; b; c; d] → is_Some (im_get (m_verts m) x)) as Hx.
    { intros x Hx. assert (∃ e, e < 12 ∧ w_first m (Walker id e) = Some x) as (e & He & Ef).
      { unfold w_first. cbn [w_tet w_edge]. rewrite Et, Htt. cbn [mbind option_bind t_vs].
        rewrite !elem_of_cons, elem_of_nil in Hx. destruct Hx as [-> | [-> | [-> | [-> | []]]]]; [exists 3|exists 2|exists 1|exists 0]; split; try lia; done. }
      destruct (ok_exist m Hok _ _ (Hv e He) Ef) as [->|]; [|done]. by apply Hg in Hx. }
    destruct (Hx a ltac:(set_solver)) as [xa Ea]. destruct (Hx b ltac:(set_solver)) as [xb Eb].
    destruct (Hx c ltac:(set_solver)) as [xc Ec]. destruct (Hx d ltac:(set_solver)) as [xd Ed].
    exists ([round (v_pos xa); round (v_pos xb); round (v_pos xc); round (v_pos xd)] ++ ps).
    split. { rewrite mapM_app, Eps. unfold list4; cbn [q0 q1 q2 q3]; rewrite !mapM_cons, mapM_nil, Ea, Eb, Ec, Ed. done. } split; [cbn; by rewrite El|]. split; [cbn; lia|]. intros pre.
    cbn [length seq flat_map]. rewrite !mapM_app.
    assert (∀ k, (pre ++ [round (v_pos xa); round (v_pos xb); round (v_pos xc); round (v_pos xd)] ++ ps) !! (length pre + k) =
      ([round (v_pos xa); round (v_pos xb); round (v_pos xc); round (v_pos xd)] ++ ps) !! k) as Hk.
    { intros k. rewrite lookup_app_r by lia. f_equal. lia. }
    assert (mapM (walker_face round m) [Walker id 3; Walker id 0; Walker id 1; Walker id 2] =
      Some [(round (v_pos xa), round (v_pos xb), round (v_pos xc)); (round (v_pos xd), round (v_pos xc), round (v_pos xb));
            (round (v_pos xc), round (v_pos xd), round (v_pos xa)); (round (v_pos xb), round (v_pos xa), round (v_pos xd))]) as Ew.
    { assert (∀ e, e < 12 → w_tri m (Walker id e) = Some (get4 (A4 a b c d) (first_idx e), get4 (A4 a b c d) (second_idx e), get4 (A4 a b c d) (third_idx e))) as Hw.
      { intros e _. unfold w_tri, w_first, w_second, w_third. cbn [w_tet w_edge]. rewrite Et, Htt. done. }
      rewrite !mapM_cons, mapM_nil. unfold walker_face. rewrite !Hw by lia.
      cbv [first_idx second_idx third_idx tbl nth get4 q0 q1 q2 q3]. cbn [mbind option_bind]. rewrite Ea, Eb, Ec, Ed. done. }
    rewrite Ew. change (tet_polys 0) with [(0, 1, 2); (3, 2, 1); (2, 3, 0); (1, 0, 3)]. rewrite !mapM_cons, mapM_nil. rewrite !Hk. cbn [mbind option_bind mret option_ret app lookup list_lookup].
    rewrite flat_app. 
    specialize (Hps (pre ++ [round (v_pos xa); round (v_pos xb); round (v_pos xc); round (v_pos xd)])).
    rewrite <- Hps. clear Hps. rewrite <- !app_assoc.
    assert (∀ F (l : list nat), mapM F (flat_map (λ i, tet_polys (1 + i)) l) = mapM (λ f : nat * nat * nat, F (4 + f.1.1, 4 + f.1.2, 4 + f.2)) (flat_map tet_polys l) :> option (list (P * P * P))) as Hsh.
    { intros F l. induction l as [|i l IH]; [done|]. cbn [flat_map]. rewrite !mapM_app, IH. f_equal. unfold tet_polys. rewrite !mapM_cons, !mapM_nil. cbn [fst snd].
      replace (4 * (1 + i) + 0) with (4 + (4 * i + 0)) by lia. replace (4 * (1 + i) + 1) with (4 + (4 * i + 1)) by lia.
      replace (4 * (1 + i) + 2) with (4 + (4 * i + 2)) by lia. replace (4 * (1 + i) + 3) with (4 + (4 * i + 3)) by lia. done. }
    rewrite Hsh. f_equal. apply mapM_cong. intros [[i j] k] _. cbn [fst snd]. rewrite app_length. cbn [length].
    rewrite !Nat.add_assoc. done.
  Qed.
End proofs.

(** Nothing is assumed of the rounding.  The export succeeds, its triangles are, in this order, the four
    faces of each tet without the ghost vertex, in the order of the ids, and no position is left over. *)
Theorem C59_export {V T P} (round : pt → P) (m : mesh V T) : mesh_ok m →
  ∃ o, export_obj round m = Some o ∧
    mapM (exported o) (od_polys o) =
      mapM (walker_face round m) (flat_map (λ id, [Walker id 3; Walker id 0; Walker id 1; Walker id 2]) (filter (solid_id m) (im_keys (m_tets m)))) ∧
    length (od_position o) = 4 * length (filter (solid_id m) (im_keys (m_tets m))) ∧
    ∀ i j k, (i, j, k) ∈ od_polys o → i < length (od_position o) ∧ j < length (od_position o) ∧ k < length (od_position o).
Proof.
  intros Hok. unfold export_obj. rewrite (solid_values m Hok).
  destruct (export_list round m (filter (solid_id m) (im_keys (m_tets m))) Hok) as (ps & -> & El & Elp & H).
  { apply stdpp.list.Forall_forall. intros id [Hs _]%elem_of_list_filter. done. }
  cbn [mbind option_bind]. eexists. split; [done|]. cbn [od_position od_polys]. rewrite El. split; [exact (H [])|]. split; [done|].
  intros i j k Hin. rewrite Elp. apply elem_of_list_In, in_flat_map in Hin as (n & Hn & Hin). apply in_seq in Hn.
  unfold tet_polys in Hin. cbn in Hin. destruct Hin as [[= <- <- <-]|[[= <- <- <-]|[[= <- <- <-]|[[= <- <- <-]|[]]]]]; lia.
Qed.
Print Assumptions C59_export.

(** Each exported face of a positively oriented tet is seen from outside: its normal points away from the
    fourth vertex. *)
Theorem C59_outward {V T} (m : mesh V T) w a b c d pa pb pc pd : w_verts m w = Some (A4 a b c d) →
  idx_ori m a = Some pa → idx_ori m b = Some pb → idx_ori m c = Some pc → idx_ori m d = Some pd →
  GHOST ∉ [a; b; c; d] → (∃ s, orient_3d m a b c d = Some s ∧ (0 < s)%Z) →
  (vdot (vcross (vsub pb pa) (vsub pc pa)) (vsub pd pa) < 0)%Z.
Proof.
  intros _ Ea Eb Ec Ed Hg (s & Es & Hs). unfold orient_3d in Es. rewrite Ea, Eb, Ec, Ed in Es. cbn [mbind option_bind] in Es.
  destruct (has_ghost [a; b; c; d]) eqn:Eg.
  - exfalso. apply Hg. unfold has_ghost in Eg. apply existsb_exists in Eg as (x & Hx & E). apply N.eqb_eq in E as <-. by apply elem_of_list_In.
  - injection Es as <-. unfold orient in Hs. lia.
Qed.
Print Assumptions C59_outward.

Example C59_witness : (λ o, (length (od_position o), od_polys o !! 4, exported o (5, 4, 7))) <$> export_obj id (qm qops1) =
  Some (16, Some (4, 5, 6), Some (Pt 10 13 18, Pt 0 0 0, Pt 80 0 0)).
Proof. vm_compute. reflexivity. Qed.
