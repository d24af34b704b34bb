(** Validation of piecewise linear complexes: proofs. *)
From Coq Require Import NArith ZArith Lia Sorted.
From stdpp Require Import base numbers list gmap option sorting fin_maps fin_sets.
From Verif Require Import IdMapModel IdMapProofs WalkerModel MeshModel UtilModel UtilSpec PlcModel PlcSpec PlcList PlcNet PlcFace PlcAdd PlcIter PlcProofs PlcHist PlcValModel PlcValSpec.
Local Open Scope N_scope.

(** ** Boxes. *)
Lemma meet_spec a b : boxes_meet a b = true ↔
  (px (b_lo a) <= px (b_hi b) ∧ px (b_lo b) <= px (b_hi a) ∧ py (b_lo a) <= py (b_hi b) ∧ py (b_lo b) <= py (b_hi a) ∧
   pz (b_lo a) <= pz (b_hi b) ∧ pz (b_lo b) <= pz (b_hi a))%Z.
Proof. unfold boxes_meet. rewrite !andb_true_iff, !Z.leb_le. tauto. Qed.
Lemma meet_sym a b : boxes_meet a b = boxes_meet b a.
Proof. apply eq_true_iff_eq. rewrite !meet_spec. tauto. Qed.
Lemma meet_mono a a' b b' : box_in a a' → box_in b b' → boxes_meet a b = true → boxes_meet a' b' = true.
Proof. unfold box_in. rewrite !meet_spec. lia. Qed.
Lemma box_in_refl a : box_in a a.
Proof. unfold box_in. lia. Qed.
Lemma box_in_trans a b c : box_in a b → box_in b c → box_in a c.
Proof. unfold box_in. lia. Qed.

Definition meeting (l k : list (element * box)) : list (element * element) :=
  concat (map (λ a, omap (λ b, if boxes_meet a.2 b.2 then Some (a.1, b.1) else None) k) l).
Lemma meeting_app_l l l' k : meeting (l ++ l') k = meeting l k ++ meeting l' k.
Proof. unfold meeting. by rewrite map_app, concat_app. Qed.
Lemma meeting_app_r l k k' : meeting l (k ++ k') ≡ₚ meeting l k ++ meeting l k'.
Proof.
  unfold meeting. induction l as [|a l IH]; [done|]. cbn. rewrite omap_app, IH, <- !app_assoc. f_equiv. rewrite !app_assoc. f_equiv. apply Permutation_app_comm.
Qed.
Lemma leaf_in t : tree_ok t → ∀ x b, (x, b) ∈ tree_leaves t → box_in b (bvt_box t).
Proof.
  induction t as [b0 x0|b0 l IHl r IHr]; cbn; intros Hok x b H.
  - apply elem_of_list_singleton in H as [= -> ->]. apply box_in_refl.
  - destruct Hok as (Hl & Hr & Ol & Or). apply elem_of_app in H as [H|H]; eapply box_in_trans; eauto.
Qed.
Lemma meeting_nil s t : tree_ok s → tree_ok t → boxes_meet (bvt_box s) (bvt_box t) = false → meeting (tree_leaves s) (tree_leaves t) = [].
Proof.
  intros Hs Ht Hm. assert (∀ x y, (x, y) ∉ meeting (tree_leaves s) (tree_leaves t)) as H.
  { intros x y H. unfold meeting in H. apply elem_of_list_In, in_concat in H as (l & H1 & H2). apply in_map_iff in H1 as ([a ba] & <- & H1).
    apply elem_of_list_In, elem_of_list_omap in H2 as ([b bb] & H2 & H3). cbn in H3. destruct (boxes_meet ba bb) eqn:E; [|done].
    apply elem_of_list_In in H1. rewrite (meet_mono _ _ _ _ (leaf_in _ Hs _ _ H1) (leaf_in _ Ht _ _ H2) E) in Hm. done. }
  destruct (meeting _ _) as [|[x y] l]; [done|]. exfalso. apply (H x y). by left.
Qed.
Lemma visit_trees_ok s : tree_ok s → ∀ t, tree_ok t → visit_trees s t ≡ₚ meeting (tree_leaves s) (tree_leaves t).
Proof.
  induction s as [bs x|bs s1 IH1 s2 IH2]; intros Hs t.
  - induction t as [bt y|bt t1 IHt1 t2 IHt2]; intros Ht.
    + cbn. by destruct (boxes_meet bs bt).
    + cbn [visit_trees]. destruct (boxes_meet _ _) eqn:E; [|by rewrite meeting_nil].
      destruct Ht as (_ & _ & H1 & H2). cbn [tree_leaves]. rewrite meeting_app_r. f_equiv; [by apply IHt1|by apply IHt2].
  - destruct Hs as (Hb1 & Hb2 & Hs1 & Hs2). destruct t as [bt y|bt t1 t2]; intros Ht.
    + cbn [visit_trees]. destruct (boxes_meet _ _) eqn:E; [|by rewrite meeting_nil].
      cbn [tree_leaves]. rewrite meeting_app_l. f_equiv; [by apply IH1|by apply IH2].
    + cbn [visit_trees]. destruct (boxes_meet _ _) eqn:E; [|by rewrite meeting_nil].
      destruct Ht as (_ & _ & H1 & H2). cbn [tree_leaves]. rewrite meeting_app_l, !meeting_app_r, <- app_assoc. rewrite !IH1, !IH2 by done. done.
Qed.
Lemma elem_meeting l k x y : (x, y) ∈ meeting l k ↔ ∃ a b, (x, a) ∈ l ∧ (y, b) ∈ k ∧ boxes_meet a b = true.
Proof.
  unfold meeting. rewrite elem_of_list_In, in_concat. split.
  - intros (m & H1 & H2). apply in_map_iff in H1 as ([z a] & <- & H1). apply elem_of_list_In, elem_of_list_omap in H2 as ([w b] & H2 & H3). cbn in H3.
    destruct (boxes_meet a b) eqn:E; [|done]. injection H3 as -> ->. exists a, b. by rewrite elem_of_list_In.
  - intros (a & b & H1 & H2 & H3). eexists. split; [apply in_map_iff; exists (x, a); split; [done|by apply elem_of_list_In]|].
    apply elem_of_list_In, elem_of_list_omap. exists (y, b). cbn. by rewrite H3.
Qed.
Lemma meeting_nodup l k : NoDup l.*1 → NoDup k.*1 → NoDup (meeting l k).
Proof.
  intros Hl Hk. induction l as [|[x a] l IH]; [constructor|]. cbn in Hl. apply NoDup_cons in Hl as [Hx Hl]. specialize (IH Hl).
  change ((x, a) :: l) with ([(x, a)] ++ l). rewrite meeting_app_l. apply NoDup_app. split; [|split; [|done]].
  - unfold meeting. cbn. rewrite app_nil_r. clear -Hk. induction k as [|[y b] k IH]; [constructor|]. cbn in *. apply NoDup_cons in Hk as [Hy Hk].
    destruct (boxes_meet a b); [|by apply IH]. apply NoDup_cons. split; [|by apply IH]. intros H. apply elem_of_list_omap in H as ([w c] & H1 & H2). cbn in H2.
    destruct (boxes_meet a c); [|done]. injection H2 as ->. apply Hy. apply elem_of_list_fmap. by exists (y, c).
  - intros [y z] H1 H2. apply elem_meeting in H1 as (? & ? & H1 & _). apply elem_meeting in H2 as (? & ? & H2 & _).
    apply elem_of_list_singleton in H1 as [= -> ->]. apply Hx. apply elem_of_list_fmap. by eexists (_, _).
Qed.

(** ** The boxes of close point sets meet. *)
Lemma foldl_min_le (c : pt → Z) l : (∀ a b, c (pt_min a b) = Z.min (c a) (c b)) → ∀ a x, x ∈ a :: l → (c (foldl pt_min a l) <= c x)%Z.
Proof.
  intros H. induction l as [|b l IH]; intros a x Hx; cbn.
  - apply elem_of_list_singleton in Hx as ->. lia.
  - apply elem_of_cons in Hx as [->|Hx]; [etransitivity; [apply IH; by left|rewrite H; lia]|].
    apply elem_of_cons in Hx as [->|Hx]; [etransitivity; [apply IH; by left|rewrite H; lia]|apply IH; by right].
Qed.
Lemma foldl_max_ge (c : pt → Z) l : (∀ a b, c (pt_max a b) = Z.max (c a) (c b)) → ∀ a x, x ∈ a :: l → (c x <= c (foldl pt_max a l))%Z.
Proof.
  intros H. induction l as [|b l IH]; intros a x Hx; cbn.
  - apply elem_of_list_singleton in Hx as ->. lia.
  - apply elem_of_cons in Hx as [->|Hx]; [etransitivity; [|apply IH; by left]; rewrite H; lia|].
    apply elem_of_cons in Hx as [->|Hx]; [etransitivity; [|apply IH; by left]; rewrite H; lia|apply IH; by right].
Qed.
Lemma wsum_le (c : pt → Z) (m : Z) ws l : length ws = length l → (∀ w, w ∈ ws → (0 <= w)%Z) → (∀ x, x ∈ l → (c x <= m)%Z) → (wsum c ws l <= zsum ws * m)%Z.
Proof.
  revert l. induction ws as [|w ws IH]; intros [|x l] Hlen Hw Hx; try done. unfold wsum, zsum in *. cbn [zip_with foldr].
  assert (0 <= w)%Z by (apply Hw; by left). assert (c x <= m)%Z by (apply Hx; by left).
  assert (foldr Z.add 0%Z (zip_with (λ w x, (w * c x)%Z) ws l) <= foldr Z.add 0%Z ws * m)%Z by (apply IH; [by injection Hlen|intros; apply Hw; by right|intros; apply Hx; by right]). nia.
Qed.
Lemma wsum_ge (c : pt → Z) (m : Z) ws l : length ws = length l → (∀ w, w ∈ ws → (0 <= w)%Z) → (∀ x, x ∈ l → (m <= c x)%Z) → (zsum ws * m <= wsum c ws l)%Z.
Proof.
  revert l. induction ws as [|w ws IH]; intros [|x l] Hlen Hw Hx; try done. unfold wsum, zsum in *. cbn [zip_with foldr].
  assert (0 <= w)%Z by (apply Hw; by left). assert (m <= c x)%Z by (apply Hx; by left).
  assert (foldr Z.add 0%Z ws * m <= foldr Z.add 0%Z (zip_with (λ w x, (w * c x)%Z) ws l))%Z by (apply IH; [by injection Hlen|intros; apply Hw; by right|intros; apply Hx; by right]). nia.
Qed.
Lemma near_coord (tol : Z) ws us (A B sa sb ha lb : Z) : (0 < ws → 0 < us → sa <= ws * ha → us * lb <= sb →
  Z.abs (us * sa - ws * sb) <= 2 * tol * ws * us → lb - tol <= ha + tol)%Z.
Proof.
  intros Hw Hu Ha Hb Hn. destruct (Z.le_gt_cases (lb - tol) (ha + tol)); [done|exfalso].
  assert (us * sa <= us * (ws * ha))%Z by nia. assert (ws * (us * lb) <= ws * sb)%Z by nia.
  assert (0 < ws * us)%Z by nia. assert ((ws * us) * (2 * tol + 1) <= (ws * us) * (lb - ha))%Z by (apply Z.mul_le_mono_nonneg_l; lia). lia.
Qed.
Lemma near_meet tol a l b k : near tol (a :: l) (b :: k) → boxes_meet (grow tol (cloud_box a l)) (grow tol (cloud_box b k)) = true.
Proof.
  intros (ws & us & (Lw & Pw & Sw) & (Lu & Pu & Su) & Hn). apply meet_spec. unfold grow, cloud_box. cbn [b_lo b_hi px py pz].
  assert (∀ c, c ∈ [px; py; pz] → (c (foldl pt_min a l) - tol <= c (foldl pt_max b k) + tol ∧ c (foldl pt_min b k) - tol <= c (foldl pt_max a l) + tol)%Z) as H.
  { intros c Hc. specialize (Hn c Hc).
    assert ((∀ x y, c (pt_min x y) = Z.min (c x) (c y)) ∧ (∀ x y, c (pt_max x y) = Z.max (c x) (c y))) as [Hmin Hmax].
    { repeat (apply elem_of_cons in Hc as [->|Hc]; [done|]). by apply elem_of_nil in Hc. }
    pose proof (wsum_le c (c (foldl pt_max a l)) ws (a :: l) Lw Pw (foldl_max_ge c l Hmax a)).
    pose proof (wsum_ge c (c (foldl pt_min a l)) ws (a :: l) Lw Pw (foldl_min_le c l Hmin a)).
    pose proof (wsum_le c (c (foldl pt_max b k)) us (b :: k) Lu Pu (foldl_max_ge c k Hmax b)).
    pose proof (wsum_ge c (c (foldl pt_min b k)) us (b :: k) Lu Pu (foldl_min_le c k Hmin b)).
    split.
    - eapply (near_coord tol (zsum us) (zsum ws) 0 0 (wsum c us (b :: k)) (wsum c ws (a :: l))); try done. rewrite <- Z.abs_opp. 
      replace (- (zsum ws * wsum c us (b :: k) - zsum us * wsum c ws (a :: l)))%Z with (zsum us * wsum c ws (a :: l) - zsum ws * wsum c us (b :: k))%Z by lia. lia.
    - by eapply (near_coord tol (zsum ws) (zsum us) 0 0 (wsum c ws (a :: l)) (wsum c us (b :: k))). }
  destruct (H px) as [? ?]; [by left|]. destruct (H py) as [? ?]; [by right; left|]. destruct (H pz) as [? ?]; [by right; right; left|]. done.
Qed.

(** ** Loops. *)
Lemma push_some_ok {A B} (f : A → option (option B)) (g : A → option B) l : (∀ a, a ∈ l → f a = Some (g a)) → push_some f l = Some (omap g l).
Proof.
  induction l as [|a l IH]; intros H; [done|]. cbn. rewrite H by (by left). cbn. rewrite IH by (intros; apply H; by right). cbn. by destruct (g a).
Qed.
Lemma mapM_fun {A B} (f : A → option B) (g : A → B) l : (∀ a, a ∈ l → f a = Some (g a)) → mapM f l = Some (g <$> l).
Proof. intros H. apply mapM_Some. induction l as [|a l IH]; constructor; [apply H; by left|]. apply IH. intros. apply H. by right. Qed.

Lemma dense_wf {A} (m : idmap A) : dense m → im_wf m.
Proof.
  intros (H1 & H2 & _). split.
  - intros k Hk. by apply H2.
  - intros k. rewrite H1. split; [intros H; by apply elem_of_nil in H|]. intros [Hk Hn]. apply H2 in Hk as [x Hx]. unfold im_get in Hx. congruence.
  - rewrite H1. constructor.
Qed.
Lemma sorted_nodup l : StronglySorted N.lt l → NoDup l.
Proof.
  induction 1 as [|x l Hs IH Hf]; constructor; [|done]. intros Hx. rewrite Forall_forall in Hf. apply Hf in Hx. lia.
Qed.
Lemma dense_keys {A} (m : idmap A) : dense m → lists (λ k, is_Some (im_get m k)) (im_keys m).
Proof. intros H. split; [apply im_keys_sorted|]. intros k. by apply elem_of_im_keys, dense_wf. Qed.

Section val.
  Context {V E F Pl D : Type}.
  Context (d : E) (plane_of : list pt → list (pt * pt) → Pl) (tol : Z).
  Context (twist : Pl → pt → option D) (vv : pt → pt → option D) (ve : pt → pt * pt → option D)
          (ee : pt * pt → pt * pt → option D) (vf : pt → Pl → list (list pt) → option D)
          (ef : pt * pt → Pl → list (list pt) → option D).
  Context (build : list (element * box) → option bvt).
  Implicit Types (p : plc V E F Pl) (os : list (pop V E F)).
  Notation visit := (visit vv ve ee vf ef).
  Notation conflict := (conflict plane_of vv ve ee vf ef).

  Lemma vert_pos_in os p v : content d plane_of os p → vert_pos p v = pos_in os v.
  Proof.
    intros Hc. pose proof (ct_verts _ _ _ _ Hc v) as H. unfold vdata in H. unfold vert_pos, pos_in. rewrite <- H. by destruct (im_get (p_verts p) v).
  Qed.
  Lemma edge_pos_in os p vs : content d plane_of os p → edge_pos p vs = ends_in os vs.
  Proof. intros Hc. unfold edge_pos, ends_in. by rewrite !(vert_pos_in os) by done. Qed.
  Lemma pos_in_some os v : is_Some (pos_in os v) ↔ is_Some (added_verts os !! N.to_nat v).
  Proof. unfold pos_in. by rewrite fmap_is_Some. Qed.
  Lemma vert_in os p v : content d plane_of os p → is_Some (im_get (p_verts p) v) ↔ is_Some (added_verts os !! N.to_nat v).
  Proof. intros Hc. rewrite <- (ct_verts _ _ _ _ Hc). unfold vdata. by rewrite fmap_is_Some. Qed.
  Lemma edge_in os p e a b : content d plane_of os p → evs p e = Some (a, b) → is_Some (ends_in os (a, b)) ∧ is_Some (pos_in os a) ∧ is_Some (pos_in os b).
  Proof.
    intros Hc He. destruct (pk_ends _ (ct_ok _ _ _ _ Hc) _ _ _ He) as [Ha Hb]. rewrite !(vert_in os), <- !pos_in_some in Ha, Hb by done.
    destruct Ha as [x Hx], Hb as [y Hy]. unfold ends_in. cbn [fst snd]. rewrite Hx, Hy. cbn. eauto.
  Qed.
  Lemma face_in os p f : content d plane_of os p → is_Some (im_get (p_faces p) f) ↔ is_Some (face_rings_in os f).
  Proof.
    intros Hc. unfold face_rings_in. rewrite fmap_is_Some. rewrite lookup_lt_is_Some. pose proof (ct_nf _ _ _ _ Hc).
    destruct (pk_faces _ (ct_ok _ _ _ _ Hc)) as (_ & H2 & _). rewrite H2. lia.
  Qed.

  Lemma face_facts os p f rings : content d plane_of os p → face_rings_in os f = Some rings →
    ∃ fc rl vll qss, im_get (p_faces p) f = Some fc ∧ face_ring_list p fc = Some rl ∧ mapM (λ r : N * fring, ring_vertex_list p r.2) rl = Some vll ∧
      face_vertices p fc = Some vll ∧ map (map fst) vll = rings ∧ map (map (λ w : N * pvert V, pv_pos w.2)) vll = qss ∧
      mapM (mapM (pos_in os)) rings = Some qss ∧ face_plane_in plane_of os f = Some (pf_plane fc) ∧ (∀ v x, (v, x) ∈ concat vll → pos_in os v = Some (pv_pos x)) ∧
      concat rings ≠ [].
  Proof.
    intros Hc Hr. pose proof Hr as Hr'. unfold face_rings_in in Hr. apply fmap_Some in Hr as ([rings' val] & Hi & ->). cbn [fst] in *.
    destruct (ct_faces _ _ _ _ Hc _ _ _ Hi) as (Hf & pts & ends & H1 & H2 & H3). rewrite N2Nat.id in *.
    unfold fcdata in H3. apply fmap_Some in H3 as (fc & Hfc & Hd). injection Hd as Hd1 Hd2. pose proof (ok_base _ (ct_ok _ _ _ _ Hc)) as Hb.
    destruct (face_vertices_ok _ _ _ _ Hb Hfc Hf) as (vll & A1 & A2 & A3). pose proof A1 as A1'. unfold face_vertices in A1. apply bind_Some in A1 as (rl & A1 & A4).
    assert (∀ v x, (v, x) ∈ concat vll → pos_in os v = Some (pv_pos x)) as Hpos.
    { intros v x Hv. apply A3 in Hv. rewrite <- (vert_pos_in os p) by done. unfold vert_pos. by rewrite Hv. }
    exists fc, rl, vll, (map (map (λ w : N * pvert V, pv_pos w.2)) vll). do 4 (split; [done|]). split; [exact A2|]. split; [done|].
    split; [|split; [|split; [done|]]].
    - rewrite <- A2. clear -Hpos. induction vll as [|vl vll IH]; [done|]. cbn [fmap list_fmap map mapM mbind]. cbn [concat] in Hpos.
      assert (mapM (pos_in os) vl.*1 = Some (map (λ w : N * pvert V, pv_pos w.2) vl)) as ->.
      { assert (∀ v x, (v, x) ∈ vl → pos_in os v = Some (pv_pos x)) as Hp by (intros; apply Hpos, elem_of_app; by left).
        clear -Hp. induction vl as [|[v x] vl IH]; [done|]. cbn. rewrite (Hp v x) by (by left). cbn. rewrite IH; [done|]. intros. apply Hp. by right. }
      cbn [option_bind mbind]. rewrite IH; [done|]. intros. apply Hpos, elem_of_app. by right.
    - unfold face_plane_in. rewrite Hr'. cbn [mbind option_bind]. rewrite H1. cbn [mbind option_bind]. rewrite H2. cbn [mbind option_bind]. by rewrite Hd1.
    - destruct Hf as (Hne & head & rl' & _ & _ & _ & Hf2). destruct rings' as [|r rs]; [done|]. apply Forall2_cons_inv_r in Hf2 as (r0 & ? & H & _).
      destruct r as [|v r]; [by destruct H|]. done.
  Qed.

  (** ** Degenerate and twisted faces. *)
  Lemma iter_face os p f fc : content d plane_of os p → (f, fc) ∈ im_iter (p_faces p) → im_get (p_faces p) f = Some fc.
  Proof. intros Hc H. by apply elem_of_im_iter in H; [|apply dense_wf, (pk_faces _ (ct_ok _ _ _ _ Hc))]. Qed.
  Lemma omap_keys {A B} (g : N → option B) (l : list (N * A)) : omap (λ a, g a.1) l = omap g l.*1.
  Proof. induction l as [|[k a] l IH]; [done|]. cbn. rewrite IH. done. Qed.
  Lemma omap_ext' {A B} (g h : A → option B) (l : list A) : (∀ a, a ∈ l → g a = h a) → omap g l = omap h l.
  Proof. induction l as [|a l IH]; intros H; [done|]. cbn. rewrite H by (by left). rewrite IH; [done|]. intros. apply H. by right. Qed.
  Lemma omap_sorted (g : N → option N) (l : list N) : (∀ k j, g k = Some j → j = k) → StronglySorted N.lt l → StronglySorted N.lt (omap g l).
  Proof.
    intros Hg. induction 1 as [|k l Hs IH Hf]; [constructor|]. cbn. destruct (g k) as [j|] eqn:Ej; [|done]. apply Hg in Ej as ->. constructor; [done|].
    rewrite Forall_forall in *. intros j Hj. apply elem_of_list_omap in Hj as (i & Hi & Ei). apply Hg in Ei as ->. by apply Hf.
  Qed.

  Definition short (rings : list (list N)) : bool := negb (existsb (λ n, (3 <=? n)%nat) (length <$> rings)).
  Lemma short_ok rings : short rings = true ↔ ∀ r, r ∈ rings → (length r < 3)%nat.
  Proof.
    unfold short. rewrite negb_true_iff, <- not_true_iff_false, existsb_exists. split.
    - intros H r Hr. destruct (decide (length r < 3)%nat); [done|]. exfalso. apply H. exists (length r). split; [|by apply Nat.leb_le; lia].
      apply elem_of_list_In, elem_of_list_fmap. eauto.
    - intros H (n & Hn & Hl). apply elem_of_list_In, elem_of_list_fmap in Hn as (r & -> & Hr). apply Nat.leb_le in Hl. apply H in Hr. lia.
  Qed.
  Lemma degenerate_ok os p : content d plane_of os p → ∃ l, degenerate_faces p = Some l ∧ lists (degenerate os) l.
  Proof.
    intros Hc. set (g := λ f : N, if short (default [] (face_rings_in os f)) then Some f else None).
    exists (omap g (im_keys (p_faces p))). split.
    - unfold degenerate_faces, im_keys. rewrite <- omap_keys. apply push_some_ok. intros [f fc] Hf. apply (iter_face os) in Hf; [|done]. cbn [fst snd].
      destruct (proj1 (face_in os p f Hc)) as [rings Hr]; [eauto|]. destruct (face_facts os p f rings Hc Hr) as (fc' & rl & vll & qss & B1 & B2 & B3 & B4 & B5 & _).
      rewrite Hf in B1. injection B1 as <-. rewrite B2. cbn [mbind option_bind].
      assert (mapM (λ r : N * fring, length <$> ring_vertex_list p r.2) rl = Some (length <$> rings)) as ->.
      { rewrite <- B5. clear -B3. revert vll B3. induction rl as [|r rl IH]; intros vll H; cbn in H; [by injection H as <-|]. apply bind_Some in H as (vl & H1 & H2). apply bind_Some in H2 as (vls & H2 & H3).
        injection H3 as <-. cbn. rewrite H1. cbn. rewrite (IH _ H2). cbn. by rewrite map_length. }
      cbn [mbind option_bind]. unfold g. rewrite Hr. cbn [default]. unfold short. by destruct (existsb _ _).
    - pose proof (dense_keys _ (pk_faces _ (ct_ok _ _ _ _ Hc))) as [Hs Hk]. split.
      + apply omap_sorted; [|done]. intros k j. unfold g. destruct (short _); congruence.
      + intros f. rewrite elem_of_list_omap. unfold degenerate. split.
        * intros (k & Hk1 & Hg). unfold g in Hg. destruct (short _) eqn:Es; [|done]. injection Hg as ->. apply Hk, (face_in os) in Hk1 as [rings Hr]; [|done].
          rewrite Hr in Es. exists rings. split; [done|]. by apply short_ok.
        * intros (rings & Hr & Hl). exists f. split; [apply Hk, (face_in os); [done|eauto]|]. unfold g. rewrite Hr. cbn. apply short_ok in Hl. by rewrite Hl.
  Qed.

  Lemma omap_pos {A} os (h : pt → option A) (vl : list (N * pvert V)) : (∀ v x, (v, x) ∈ vl → pos_in os v = Some (pv_pos x)) →
    omap (λ v : N * pvert V, r ← h (pv_pos v.2); Some (v.1, r)) vl = omap (λ v, a ← pos_in os v; r ← h a; Some (v, r)) (map fst vl).
  Proof.
    induction vl as [|[v x] vl IH]; intros H; [done|]. cbn. rewrite (H v x) by (by left). cbn. rewrite IH; [done|]. intros. apply H. by right.
  Qed.
  Lemma twisted_ok os p : content d plane_of os p →
    ∃ l, twisted_faces twist p = Some l ∧ lists (λ f, fails plane_of twist os f ≠ []) l.*1 ∧ ∀ f fs, (f, fs) ∈ l → fs = fails plane_of twist os f.
  Proof.
    intros Hc. set (g := λ f : N, match fails plane_of twist os f with [] => None | fs => Some (f, fs) end).
    assert (∀ f, fails plane_of twist os f ≠ [] → is_Some (im_get (p_faces p) f)) as Hex.
    { intros f Hf. apply (face_in os); [done|]. unfold fails in Hf. destruct (face_rings_in os f); [eauto|done]. }
    exists (omap g (im_keys (p_faces p))). split; [|split].
    - unfold twisted_faces, im_keys. rewrite <- omap_keys. apply push_some_ok. intros [f fc] Hf. apply (iter_face os) in Hf; [|done]. cbn [fst snd].
      destruct (proj1 (face_in os p f Hc)) as [rings Hr]; [eauto|]. destruct (face_facts os p f rings Hc Hr) as (fc' & rl & vll & qss & B1 & B2 & B3 & B4 & B5 & B6 & B7 & B8 & B9 & _).
      rewrite Hf in B1. injection B1 as <-. rewrite B4. cbn [mbind option_bind]. unfold g, fails. rewrite Hr, B8. rewrite (omap_pos os) by done.
      assert (map fst (concat vll) = concat rings) as -> by (rewrite <- B5; apply concat_map). by destruct (omap _ _).
    - pose proof (dense_keys _ (pk_faces _ (ct_ok _ _ _ _ Hc))) as [Hs Hk].
      assert ((omap g (im_keys (p_faces p))).*1 = omap (λ f, match fails plane_of twist os f with [] => None | _ => Some f end) (im_keys (p_faces p))) as ->.
      { generalize (im_keys (p_faces p)). intros l. induction l as [|k l IH]; [done|]. cbn. unfold g at 1. destruct (fails plane_of twist os k); cbn; by rewrite IH. }
      split.
      + apply omap_sorted; [|done]. intros k j. destruct (fails _ _ _ _); congruence.
      + intros f. rewrite elem_of_list_omap. split.
        * intros (k & _ & Hg). destruct (fails plane_of twist os k) eqn:Ef; [done|]. injection Hg as ->. by rewrite Ef.
        * intros Hf. exists f. split; [by apply Hk, Hex|]. by destruct (fails _ _ _ _).
    - intros f fs H. apply elem_of_list_omap in H as (k & _ & Hg). unfold g in Hg. destruct (fails plane_of twist os k) eqn:Ef; [done|]. injection Hg as <- <-. done.
  Qed.

  (** ** The visitor. *)
  Lemma existsb_fst (P : N → bool) (vll : list (list (N * pvert V))) rings : map (map fst) vll = rings →
    existsb (λ w : N * pvert V, P w.1) (concat vll) = existsb P (concat rings).
  Proof. intros <-. rewrite <- concat_map. generalize (concat vll). intros l. induction l as [|w l IH]; [done|]. cbn. by rewrite IH. Qed.
  Lemma existsb_elem (P : N → bool) l : existsb P l = true ↔ ∃ v, v ∈ l ∧ P v = true.
  Proof. rewrite existsb_exists. by setoid_rewrite elem_of_list_In. Qed.
  Lemma elem_edge os p e vs : content d plane_of os p → evs p e = Some vs → ∃ x, im_get (p_edges p) e = Some x ∧ pe_vs x = vs.
  Proof. intros Hc H. apply fmap_Some in H as (x & Hx & ->). eauto. Qed.

  Lemma visit_ok os p x y : content d plane_of os p → is_Some (elem_verts os p x) → is_Some (elem_verts os p y) →
    ∃ r, visit p x y = Some r ∧ ∀ dist, r = Some dist ↔ conflict os p x y dist.
  Proof.
    intros Hc Hx Hy. destruct x as [v|e|f], y as [v'|e'|f']; cbn [elem_verts] in Hx, Hy; cbn [PlcValModel.visit PlcValSpec.conflict];
      try (eexists; split; [done|]; intros; split; [done|by intros []]).
    - destruct (decide (is_Some (added_verts os !! N.to_nat v))) as [Hv|]; [|by destruct Hx]. destruct (decide (is_Some (added_verts os !! N.to_nat v'))) as [Hv'|]; [|by destruct Hy]. apply pos_in_some in Hv as [a Ha], Hv' as [b Hb].
      rewrite !(vert_pos_in os) by done. destruct (N.ltb_spec v v').
      + rewrite Ha, Hb. cbn. eexists. split; [done|]. intros dist. split.
        * intros H1. split; [done|]. exists a, b. done.
        * intros (_ & a' & b' & H1 & H2 & H3). congruence.
      + eexists. split; [done|]. intros. split; [done|]. intros [? _]. lia.
    - case_decide as Hv; [|by destruct Hx]. apply pos_in_some in Hv as [q Hq]. apply fmap_is_Some in Hy as [[a b] He].
      destruct (elem_edge os p e' (a, b) Hc He) as (x & Hxe & Hvs). rewrite Hxe. cbn [mbind option_bind]. rewrite Hvs. cbn [fst snd].
      destruct (edge_in os p e' a b Hc He) as ([s Hs] & _). rewrite (edge_pos_in os), (vert_pos_in os) by done. rewrite Hq, Hs. cbn [mbind option_bind].
      destruct (N.eqb_spec v a); [|destruct (N.eqb_spec v b)]; cbn [orb]; eexists; (split; [done|]); intros dist; (split; [intros H1|intros (a' & b' & q' & s' & H1 & H2 & H3 & H4 & H5 & H6)]); try done; try congruence.
      exists a, b, q, s. done.
    - case_decide as Hv; [|by destruct Hx]. apply pos_in_some in Hv as [q Hq]. apply fmap_is_Some in Hy as [rings Hr].
      destruct (face_facts os p f' rings Hc Hr) as (fc & rl & vll & qss & B1 & B2 & B3 & B4 & B5 & B6 & B7 & B8 & B9 & _).
      rewrite B1. cbn [mbind option_bind]. rewrite B4. cbn [mbind option_bind]. rewrite (existsb_fst (λ w, v =? w) vll rings) by done. rewrite (vert_pos_in os) by done. rewrite Hq, B6. cbn [mbind option_bind].
      assert (existsb (λ w, v =? w) (concat rings) = true ↔ v ∈ concat rings) as Hin.
      { rewrite existsb_elem. split; [intros (w & H1 & ->%N.eqb_eq); done|]. intros H. exists v. split; [done|apply N.eqb_refl]. }
      destruct (existsb _ _).
      + eexists. split; [done|]. intros. split; [done|]. intros (r' & pl & q' & qss' & H1 & H2 & H3 & _). rewrite Hr in H1. injection H1 as <-. destruct H3. by apply Hin.
      + eexists. split; [done|]. intros dist. split.
        * intros H1. exists rings, (pf_plane fc), q, qss. do 2 (split; [done|]). split; [intros H; by apply Hin in H|]. done.
        * intros (r' & pl & q' & qss' & H1 & H2 & H3 & H4 & H5 & H6). congruence.
    - apply fmap_is_Some in Hx as [[a b] He]. apply fmap_is_Some in Hy as [[c f] He'].
      destruct (elem_edge os p e (a, b) Hc He) as (x & Hxe & Hvs). destruct (elem_edge os p e' (c, f) Hc He') as (x' & Hxe' & Hvs').
      rewrite Hxe, Hxe'. cbn [mbind option_bind]. rewrite Hvs, Hvs'. rewrite !(edge_pos_in os) by done.
      destruct (edge_in os p e a b Hc He) as ([s Hs] & _). destruct (edge_in os p e' c f Hc He') as ([s' Hs'] & _). rewrite Hs, Hs'. cbn [mbind option_bind].
      assert (pair_lt (a, b) (c, f) && negb ((c =? a) || (c =? b)) && negb ((f =? a) || (f =? b)) = true ↔ a < c ∧ a ≠ f ∧ b ≠ c ∧ b ≠ f) as Hin.
      { unfold pair_lt. cbn [fst snd]. rewrite !andb_true_iff, !negb_true_iff, !orb_false_iff, orb_true_iff, andb_true_iff, !N.eqb_neq, !N.ltb_lt, N.eqb_eq.
        split; [intros (([?|[? ?]] & ? & ?) & ? & ?); repeat split; try done; lia|]. intros (? & ? & ? & ?). repeat split; try lia. }
      destruct (_ && _).
      + eexists. split; [done|]. intros dist. destruct (proj1 Hin eq_refl) as (I1 & I2 & I3 & I4). split.
        * intros H1. exists a, b, c, f, s, s'. done.
        * intros (? & ? & ? & ? & ? & ? & H1 & H2 & _ & _ & _ & _ & H3 & H4 & H5). congruence.
      + eexists. split; [done|]. intros dist. split; [done|]. intros (? & ? & ? & ? & ? & ? & H1 & H2 & I1 & I2 & I3 & I4 & _).
        rewrite He in H1. rewrite He' in H2. simplify_eq. assert (false = true) by (apply Hin; done). done.
    - apply fmap_is_Some in Hx as [[a b] He]. apply fmap_is_Some in Hy as [rings Hr].
      destruct (elem_edge os p e (a, b) Hc He) as (x & Hxe & Hvs). destruct (edge_in os p e a b Hc He) as ([s Hs] & _).
      destruct (face_facts os p f' rings Hc Hr) as (fc & rl & vll & qss & B1 & B2 & B3 & B4 & B5 & B6 & B7 & B8 & B9 & _).
      rewrite B1. cbn [mbind option_bind]. rewrite B4. cbn [mbind option_bind]. rewrite Hxe. cbn [mbind option_bind]. rewrite Hvs. cbn [fst snd].
      rewrite (existsb_fst (λ w, (a =? w) || (b =? w)) vll rings) by done. rewrite (edge_pos_in os) by done. rewrite Hs, B6. cbn [mbind option_bind].
      assert (existsb (λ w, (a =? w) || (b =? w)) (concat rings) = true ↔ a ∈ concat rings ∨ b ∈ concat rings) as Hin.
      { rewrite existsb_elem. split.
        - intros (w & H1 & H2). apply orb_true_iff in H2 as [->%N.eqb_eq| ->%N.eqb_eq]; tauto.
        - intros [H|H]; eexists; (split; [exact H|]); rewrite N.eqb_refl; [done|]. by rewrite orb_true_r. }
      destruct (existsb _ _).
      + eexists. split; [done|]. intros. split; [done|]. intros (a' & b' & r' & pl & s' & qss' & H0 & H1 & H2 & H3 & H4 & _).
        rewrite Hr in H1. rewrite He in H0. simplify_eq. by destruct (proj1 Hin eq_refl).
      + eexists. split; [done|]. intros dist. split.
        * intros H1. exists a, b, rings, (pf_plane fc), s, qss. do 3 (split; [done|]). split; [intros H; by assert (false = true) by (apply Hin; tauto)|].
          split; [intros H; by assert (false = true) by (apply Hin; tauto)|]. done.
        * intros (a' & b' & r' & pl & s' & qss' & H0 & H1 & H2 & H3 & H4 & H5 & H6 & H7). congruence.
  Qed.

  (** ** The leaves. *)
  Lemma mapM_rel {K A B} (f : K → option (A * B)) (c : K → A) (Q : A → B → Prop) ks : (∀ k, k ∈ ks → ∃ b, f k = Some (c k, b) ∧ Q (c k) b) →
    ∃ l, mapM f ks = Some l ∧ l.*1 = c <$> ks ∧ ∀ x b, (x, b) ∈ l → Q x b.
  Proof.
    induction ks as [|k ks IH]; intros H; [exists []; split; [done|]; split; [done|]; intros ? ? Hx; by apply elem_of_nil in Hx|].
    destruct (H k) as (b & H1 & H2); [by left|]. destruct IH as (l & I1 & I2 & I3); [intros; apply H; by right|].
    exists ((c k, b) :: l). cbn. rewrite H1. cbn. rewrite I1. cbn. split; [done|]. split; [by rewrite I2|]. intros x b' Hx. apply elem_of_cons in Hx as [[= -> ->]|Hx]; [done|]. by apply I3.
  Qed.
  Definition leaf_box os p (x : element) (b : box) : Prop := ∃ a l, elem_points os p x = Some (a :: l) ∧ b = grow tol (cloud_box a l).
  Lemma leaves_ok os p : content d plane_of os p → ∃ ls, leaves tol p = Some ls ∧ NoDup ls.*1 ∧ ∀ x b, (x, b) ∈ ls ↔ leaf_box os p x b.
  Proof.
    intros Hc. pose proof (ct_ok _ _ _ _ Hc) as Hok. pose proof (dense_keys _ (pk_verts _ Hok)) as [Sv Kv].
    pose proof (dense_keys _ (pk_edges _ Hok)) as [Se Ke]. pose proof (dense_keys _ (pk_faces _ Hok)) as [Sf Kf].
    destruct (mapM_rel (vertex_bound tol p) EVertex (leaf_box os p) (im_keys (p_verts p))) as (lv & V1 & V2 & V3).
    { intros v Hv. apply Kv, (vert_in os) in Hv; [|done]. pose proof (proj2 (pos_in_some os v) Hv) as [a Ha]. unfold vertex_bound. rewrite (vert_pos_in os), Ha by done.
      cbn. eexists. split; [done|]. exists a, []. split; [|done]. unfold elem_points. cbn. rewrite decide_True by done. cbn. by rewrite Ha. }
    destruct (mapM_rel (edge_bound tol p) EEdge (leaf_box os p) (im_keys (p_edges p))) as (le & E1 & E2 & E3).
    { intros e He. apply Ke in He as [x Hx]. unfold edge_bound. rewrite Hx. cbn [mbind option_bind]. assert (evs p e = Some (pe_vs x)) as Hev by (unfold evs; by rewrite Hx).
      destruct (pe_vs x) as [a b]. destruct (edge_in os p e a b Hc Hev) as ([s Hs] & [pa Ha] & [pb Hb]). rewrite (edge_pos_in os) by done. unfold ends_in. cbn [fst snd]. rewrite Ha, Hb.
      cbn. eexists. split; [done|]. exists pa, [pb]. split; [|done]. unfold elem_points. cbn. rewrite Hev. cbn. rewrite Ha. cbn. by rewrite Hb. }
    destruct (mapM_rel (face_bound tol p) EFace (leaf_box os p) (im_keys (p_faces p))) as (lf & F1 & F2 & F3).
    { intros f Hf. apply Kf, (face_in os) in Hf as [rings Hr]; [|done].
      destruct (face_facts os p f rings Hc Hr) as (fc & rl & vll & qss & B1 & B2 & B3 & B4 & B5 & B6 & B7 & B8 & B9 & B10).
      unfold face_bound. rewrite B1. cbn [mbind option_bind]. rewrite B4. cbn [mbind option_bind].
      assert (mapM (pos_in os) (concat rings) = Some ((λ v : N * pvert V, pv_pos v.2) <$> concat vll)) as Hm.
      { rewrite <- B5, <- concat_map. clear -B9. induction (concat vll) as [|[v x] l IH]; [done|]. cbn. rewrite (B9 v x) by (by left). cbn. rewrite IH; [done|]. intros. apply B9. by right. }
      destruct ((λ v : N * pvert V, pv_pos v.2) <$> concat vll) as [|a l] eqn:El.
      { exfalso. apply B10. rewrite <- B5, <- concat_map. by destruct (concat vll). }
      eexists. split; [done|]. exists a, l. split; [|done]. unfold elem_points. cbn. rewrite Hr. cbn [fmap option_fmap option_map mbind option_bind]. by rewrite Hm. }
    exists (lv ++ le ++ lf). split; [|split].
    - unfold leaves. rewrite V1. cbn [mbind option_bind]. rewrite E1. cbn [mbind option_bind]. by rewrite F1.
    - rewrite !fmap_app, V2, E2, F2. apply NoDup_app. split; [apply NoDup_fmap_2; [by intros ? ? [=]|by apply sorted_nodup]|]. split.
      + intros x Hx Hx'. apply elem_of_list_fmap in Hx as (? & -> & _). apply elem_of_app in Hx' as [H|H]; apply elem_of_list_fmap in H as (? & [=] & _).
      + apply NoDup_app. split; [apply NoDup_fmap_2; [by intros ? ? [=]|by apply sorted_nodup]|]. split; [|apply NoDup_fmap_2; [by intros ? ? [=]|by apply sorted_nodup]].
        intros x Hx Hx'. apply elem_of_list_fmap in Hx as (? & -> & _). apply elem_of_list_fmap in Hx' as (? & [=] & _).
    - assert (∀ x b, (x, b) ∈ lv ++ le ++ lf → leaf_box os p x b) as Hto.
      { intros x b. rewrite !elem_of_app. intros [H|[H|H]]; eauto. }
      intros x b. split; [apply Hto|]. intros Hb. assert (x ∈ (lv ++ le ++ lf).*1) as Hx.
      { rewrite !fmap_app, V2, E2, F2, !elem_of_app. destruct Hb as (a & l & Hp & _). unfold elem_points in Hp. apply bind_Some in Hp as (vs & Hp & _).
        destruct x as [v|e|f]; cbn in Hp.
        - left. apply elem_of_list_fmap. exists v. split; [done|]. destruct (decide (is_Some (added_verts os !! N.to_nat v))); [|done]. apply Kv. by apply (vert_in os).
        - right. left. apply elem_of_list_fmap. exists e. split; [done|]. apply Ke. destruct (evs p e) eqn:He; [|done]. unfold evs in He. destruct (im_get (p_edges p) e); [eauto|done].
        - right. right. apply elem_of_list_fmap. exists f. split; [done|]. apply Kf, (face_in os); [done|]. destruct (face_rings_in os f); [eauto|done]. }
      apply elem_of_list_fmap in Hx as ([x' b'] & -> & Hx). cbn [fst] in *. pose proof (Hto _ _ Hx) as (a & l & H1 & ->). destruct Hb as (a' & l' & H2 & ->). rewrite H1 in H2. by injection H2 as -> ->.
  Qed.

  (** ** The result. *)
  Lemma intersections_ok os p : content d plane_of os p → builds build →
    ∃ l, intersections tol vv ve ee vf ef build p = Some l ∧ NoDup l.*1 ∧
      ∀ x y dist, (x, y, dist) ∈ l ↔ boxes_overlap tol os p x y ∧ conflict os p x y dist.
  Proof.
    intros Hc Hb. destruct (leaves_ok os p Hc) as (ls & L1 & L2 & L3). unfold intersections. rewrite L1. cbn [mbind option_bind].
    assert (∃ vis, (match build ls with None => Some [] | Some t => push_some (λ xy : element * element, r ← visit p xy.1 xy.2; Some (option_map (pair xy) r)) (visit_trees t t) end)
                   = push_some (λ xy : element * element, r ← visit p xy.1 xy.2; Some (option_map (pair xy) r)) vis ∧ vis ≡ₚ meeting ls ls) as (vis & -> & Hvis).
    { specialize (Hb ls). destruct (build ls) as [t|].
      - destruct Hb as [Hp Ht]. exists (visit_trees t t). split; [done|]. rewrite visit_trees_ok by done.
        assert (∀ l l' k, l ≡ₚ l' → meeting l k ≡ₚ meeting l' k) as Hl.
        { intros l l' k. induction 1 as [|x l l' H IH|x y l|l l' l'' H1 IH1 H2 IH2]; unfold meeting in *; cbn; try done.
          - by rewrite IH.
          - rewrite !app_assoc. f_equiv. apply Permutation_app_comm.
          - by rewrite IH1. }
        assert (∀ l k k', k ≡ₚ k' → meeting l k ≡ₚ meeting l k') as Hr.
        { intros l k k' Hk. unfold meeting. induction l as [|a l IH]; [done|]. cbn. rewrite IH. f_equiv. by rewrite Hk. }
        by rewrite (Hl _ _ _ Hp), (Hr _ _ _ Hp).
      - subst ls. exists []. done. }
    assert (∀ x y, (x, y) ∈ vis ↔ boxes_overlap tol os p x y) as Hin.
    { intros x y. rewrite Hvis, elem_meeting. unfold boxes_overlap. setoid_rewrite L3. unfold leaf_box. split.
      - intros (b1 & b2 & (a & l & H1 & ->) & (b & k & H2 & ->) & H3). exists a, l, b, k. done.
      - intros (a & l & b & k & H1 & H2 & H3). eexists _, _. split; [exists a, l; done|]. split; [exists b, k; done|]. done. }
    assert (∀ x y, (x, y) ∈ vis → ∃ r, visit p x y = Some r ∧ ∀ dist, r = Some dist ↔ conflict os p x y dist) as Hv.
    { intros x y H. apply Hin in H as (a & l & b & k & H1 & H2 & _). apply visit_ok; [done|..].
      - unfold elem_points in H1. apply bind_Some in H1 as (? & H1 & _). eauto.
      - unfold elem_points in H2. apply bind_Some in H2 as (? & H2 & _). eauto. }
    assert (NoDup vis) as Hnd by (rewrite Hvis; by apply meeting_nodup).
    set (g := λ xy : element * element, option_map (pair xy) (default None (visit p xy.1 xy.2))).
    rewrite (push_some_ok _ g).
    2: { intros [x y] H. cbn [fst snd]. destruct (Hv x y H) as (r & Hr & _). unfold g. cbn [fst snd]. by rewrite Hr. }
    exists (omap g vis). split; [done|]. split.
    - clear -Hnd. induction vis as [|xy vis IH]; [constructor|]. apply NoDup_cons in Hnd as [H1 H2]. cbn [omap list_omap]. destruct (g xy) as [[xy' r]|] eqn:Eg; [|by apply IH].
      cbn [fmap list_fmap fst]. unfold g in Eg. destruct (default None _); [|done]. injection Eg as <- _. apply NoDup_cons. split; [|by apply IH].
      intros H. apply elem_of_list_fmap in H as ([z r'] & -> & H). apply elem_of_list_omap in H as (w & H3 & H4). unfold g in H4. destruct (default None _); [|done]. injection H4 as -> _. done.
    - intros x y dist. rewrite elem_of_list_omap. split.
      + intros ([x' y'] & H1 & H2). destruct (Hv x' y' H1) as (r & Hr & Hr'). unfold g in H2. cbn [fst snd] in H2. rewrite Hr in H2. cbn [default] in H2. destruct r as [dd|]; [|done].
        injection H2 as -> -> ->. split; [by apply Hin|by apply Hr'].
      + intros [H1 H2]. apply Hin in H1. exists (x, y). split; [done|]. destruct (Hv x y H1) as (r & Hr & Hr'). unfold g. cbn [fst snd]. rewrite Hr. cbn [default]. apply Hr' in H2. by rewrite H2.
  Qed.

  Lemma validate_ok os p : content d plane_of os p → builds build →
    ∃ w, validate tol twist vv ve ee vf ef build p = Some w ∧
    match w with
    | VDegenerate l => l ≠ [] ∧ lists (degenerate os) l
    | VTwisted l => (∀ f, ¬ degenerate os f) ∧ l ≠ [] ∧ lists (λ f, fails plane_of twist os f ≠ []) l.*1 ∧ ∀ f fs, (f, fs) ∈ l → fs = fails plane_of twist os f
    | VIntersects l => (∀ f, ¬ degenerate os f) ∧ (∀ f, fails plane_of twist os f = []) ∧ l ≠ [] ∧ NoDup l.*1 ∧
        ∀ x y dist, (x, y, dist) ∈ l ↔ boxes_overlap tol os p x y ∧ conflict os p x y dist
    | VOk => (∀ f, ¬ degenerate os f) ∧ (∀ f, fails plane_of twist os f = []) ∧
        ∀ x y dist, boxes_overlap tol os p x y → ¬ conflict os p x y dist
    end.
  Proof.
    intros Hc Hb. destruct (degenerate_ok os p Hc) as (ld & D1 & D2). destruct (twisted_ok os p Hc) as (lt & T1 & T2 & T3).
    destruct (intersections_ok os p Hc Hb) as (li & I1 & I2 & I3). unfold validate. rewrite D1. cbn [mbind option_bind].
    destruct ld as [|f ld]; [|eexists; split; [done|]; done]. assert (∀ f, ¬ degenerate os f) as Hd.
    { intros f Hf. apply D2 in Hf. by apply elem_of_nil in Hf. }
    rewrite T1. cbn [mbind option_bind]. destruct lt as [|f lt]; [|eexists; split; [done|]; done]. assert (∀ f, fails plane_of twist os f = []) as Ht.
    { intros f. destruct (fails plane_of twist os f) eqn:Ef; [done|]. exfalso. assert (f ∈ ([] : list N)) as H by (apply T2; by rewrite Ef). by apply elem_of_nil in H. }
    rewrite I1. cbn [mbind option_bind]. destruct li as [|xy li]; eexists; (split; [done|]); [|done]. split; [done|]. split; [done|].
    intros x y dist H1 H2. assert ((x, y, dist) ∈ ([] : list (element * element * D))) as H by (by apply I3). by apply elem_of_nil in H.
  Qed.
End val.
