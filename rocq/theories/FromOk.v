(** Building a Delaunay tetrahedralization stores all points under their positions. *)
From stdpp Require Import base numbers list gmap option.
From Coq Require Import NArith ZArith Lia.
From Verif Require Import IdMapModel IdMapProofs WalkerModel MeshModel MeshOps MeshSpec UtilModel UtilProofs Marks GeoModel NewMesh DelModel IntSpec IntOk FromModel FromKept.
Local Open Scope nat_scope.

Section swap.
  Context {A : Type}.
  Lemma swap_perm (l l' : list A) i j : swap l i j = Some l' → l' ≡ₚ l.
  Proof.
    unfold swap. intros E. apply bind_Some in E as (x & Ex & E). apply bind_Some in E as (y & Ey & E). injection E as <-.
    apply lookup_lt_Some in Ex as Hi. apply lookup_lt_Some in Ey as Hj.
    apply (Permutation_inj (<[j := x]> (<[i := y]> l)) l). split; [by rewrite !insert_length|].
    exists (λ k, if decide (k = i) then j else if decide (k = j) then i else k). split.
    - intros a b. repeat case_decide; intros; subst; done.
    - intros k. destruct (decide (k = j)) as [->|Hkj].
      + rewrite list_lookup_insert by (by rewrite insert_length). repeat case_decide; subst; congruence.
      + rewrite list_lookup_insert_ne by done. destruct (decide (k = i)) as [->|Hki].
        * rewrite list_lookup_insert by done. repeat case_decide; congruence.
        * rewrite list_lookup_insert_ne by done. repeat case_decide; congruence.
  Qed.
  Lemma swap_length (l l' : list A) i j : swap l i j = Some l' → i < length l ∧ j < length l ∧ length l' = length l.
  Proof.
    unfold swap. intros E. apply bind_Some in E as (x & Ex & E). apply bind_Some in E as (y & Ey & E). injection E as <-.
    apply lookup_lt_Some in Ex. apply lookup_lt_Some in Ey. by rewrite !insert_length.
  Qed.
End swap.

Section data.
  Context {V T : Type}.
  Implicit Types (m : mesh V T) (D : N → option (pt * V)) (L : list (N * (pt * V))).

  Lemma kept_ext D D' m : (∀ a, D a = D' a) → kept D m → kept D' m.
  Proof. intros H []. split; try done. intros v. rewrite <- H. done. Qed.

  (** The data after storing the listed pairs. *)
  Fixpoint upds L D : N → option (pt * V) :=
    match L with [] => D | x :: L => upds L (λ a, if decide (a = x.1) then Some x.2 else D a) end.
  Lemma upds_out L : ∀ D a, a ∉ L.*1 → upds L D a = D a.
  Proof.
    induction L as [|x L IH]; intros D a H; cbn; [done|]. rewrite fmap_cons, not_elem_of_cons in H. destruct H as [H1 H2]. rewrite IH by done. by rewrite decide_False.
  Qed.
  Lemma upds_in L : NoDup L.*1 → ∀ D a d, (a, d) ∈ L → upds L D a = Some d.
  Proof.
    induction L as [|x L IH]; intros Hn D a d Hin; cbn; [by apply elem_of_nil in Hin|]. rewrite fmap_cons in Hn. apply stdpp.list.NoDup_cons in Hn as [Hx Hn].
    apply elem_of_cons in Hin as [<-|Hin]; [|by apply IH]. rewrite upds_out by done. cbn. by rewrite decide_True.
  Qed.
  Lemma upds_app L1 L2 D a : upds (L1 ++ L2) D a = upds L2 (upds L1 D) a.
  Proof. revert D. induction L1 as [|x L1 IH]; intros D; cbn; [done|]. apply IH. Qed.

  Lemma ext_data L (f : nat → N * (pt * V) → N * vertex V) m D : (∀ i x, (f i x).1 = x.1 ∧ v_pos (f i x).2 = x.2.1 ∧ v_val (f i x).2 = x.2.2) →
    ∀ vs, kept D m → im_extend (m_verts m) (imap f L) = Some vs → kept (upds L D) (with_verts m vs).
  Proof.
    intros Hf vs. revert f Hf m D. induction L as [|x L IH]; intros f Hf m D H; cbn [imap im_extend upds].
    - intros [= <-]. destruct H. by split.
    - destruct (f 0 x) as [k y] eqn:E0. destruct (Hf 0 x) as (F1 & F2 & F3). rewrite E0 in F1, F2, F3. cbn [fst snd] in *. subst k.
      destruct (im_insert_with_key (m_verts m) x.1 y) as [[vs1 o]|] eqn:E1; [|done]. intros E.
      assert (kept (λ a, if decide (a = x.1) then Some x.2 else D a) (with_verts m vs1)) as H1.
      { destruct H. apply iwk_get in E1 as E1'. destruct E1' as (Es & _). split; try done; [by eapply bd_iwk|]. intros a. unfold vdata, im_get. cbn. rewrite Es.
        destruct (decide (a = x.1)) as [->|]; [rewrite lookup_insert; cbn; rewrite F2, F3; by destruct x as [? []]|]. rewrite lookup_insert_ne by done. apply kp_data. }
      apply (IH (λ i, f (S i)) (λ i, Hf (S i)) (with_verts m vs1) _ H1) in E. done.
  Qed.

  Lemma with_ids_kept sim m m' vertices dflt D : kept D m → with_ids_at sim m vertices dflt = Some m' → kept (upds (sort_key fst vertices) D) m' ∧ length vertices = 4.
  Proof.
    intros H. unfold with_ids_at. pose proof (sort_key_perm fst vertices) as Hp. apply Permutation_length in Hp.
    destruct (sort_key fst vertices) as [|x0 [|x1 [|x2 [|x3 [|]]]]]; try done. intros E. cbv zeta in E. apply bind_Some in E as (vs & E1 & E).
    apply (ext_data [x0; x1; x2; x3] _ m D) in E1; [|done|done]. destruct E1.
    pose proof (λ xs, bd_extend_values xs (m_edges m) kp_edges) as Be. pose proof (λ xs, bd_extend_values xs (m_tets m) kp_tets) as Bt.
    match type of E with context [im_extend_values (m_edges m) ?xs] => specialize (Be xs); destruct (im_extend_values (m_edges m) xs) as [es ei] end.
    match type of E with context [im_extend_values (m_tets m) ?xs] => specialize (Bt xs); destruct (im_extend_values (m_tets m) xs) as [ts ei'] end.
    apply (inj Some) in E as <-. split; [by split|done].
  Qed.

  Lemma insert_all_kept less lt order L : ∀ m prev D m', kept D m → insert_all less lt order m prev L = Some m' → kept (upds L D) m'.
  Proof.
    induction L as [|[id [p x]] L IH]; intros m prev D m' H; cbn [insert_all upds]; [by intros [= <-]|].
    destruct (add_vertex_delaunay_internal _ _ _ _ _ _ _ _) as [[m1 v]|] eqn:E; [|done]. apply (kp_insert_vertex _ _ D) in E as [_ H1]; [|done]. by apply IH.
  Qed.

  Lemma npi_extend_values {A} (xs : list A) : ∀ im, (im_npi (im_extend_values im xs).1 <= N.max (im_npi im) (im_npi im + N.of_nat (length xs)))%N ∨ im_free im ≠ [].
  Proof.
    induction xs as [|x xs IH]; intros im; cbn [im_extend_values length]; [left; cbn; lia|]. unfold im_insert. destruct (im_free im) eqn:Ef; [|by right]. left. cbn [vec_pop].
    unfold vec_pop. cbn. specialize (IH (IdMap (<[im_npi im:=x]> (im_slots im)) (im_npi im + 1) [])). destruct (im_extend_values _ xs) as [im' ks]. cbn [fst im_npi im_free] in *. destruct IH as [IH|]; [lia|done].
  Qed.

  Lemma max_by_in {A} (leb : A → A → bool) l x : max_by leb l = Some x → x ∈ l.
  Proof.
    unfold max_by. destruct l as [|y l]; [done|]. intros [= <-]. revert y. induction l as [|z l IH]; intros y; cbn; [by left|]. destruct (leb y z).
    - right. apply IH.
    - specialize (IH y). apply elem_of_cons in IH as [IH|IH]; [rewrite IH; by left|do 2 right; done].
  Qed.
  Lemma swap_get {A} (l l' : list A) i j k : swap l i j = Some l' → k ≠ i → k ≠ j → l' !! k = l !! k.
  Proof.
    unfold swap. intros E H1 H2. apply bind_Some in E as (x & Ex & E). apply bind_Some in E as (y & Ey & E). injection E as <-. by rewrite !list_lookup_insert_ne.
  Qed.
  Lemma swap_fst {A} (l l' : list A) i j : swap l i j = Some l' → l' !! i = l !! j.
  Proof.
    unfold swap. intros E. apply bind_Some in E as (x & Ex & E). apply bind_Some in E as (y & Ey & E). injection E as <-. apply lookup_lt_Some in Ex as Hi. apply lookup_lt_Some in Ey as Hj.
    rewrite Ey. destruct (decide (i = j)) as [->|]; [rewrite list_lookup_insert by (by rewrite insert_length); congruence|]. rewrite list_lookup_insert_ne by done. by rewrite list_lookup_insert.
  Qed.

  Lemma start_facts sim norm curve wide2 le2 wide3 (ps : list (pt * V)) (dflt : T) m L : (N.of_nat (length ps) <= u32_mod)%N →
    delaunay_start sim norm curve wide2 le2 wide3 ps dflt = Some (m, L) →
    L ≡ₚ imap (λ i p, (N.of_nat i, p)) ps ∧
    (∃ x0 x1 x2 x3, take 4 L = [x0; x1; x2; x3] ∧ wide2 x0.2.1 x1.2.1 x2.2.1 = true ∧ wide3 x0.2.1 x1.2.1 x2.2.1 x3.2.1 = true) ∧
    ∃ xs M0, M0 = with_verts mesh_empty (im_extend_values im_empty ((λ x, Vertex (Walker invalid_id 0) vf_empty origin x) <$> xs)).1 ∧ length xs = length ps ∧
      with_ids_at sim M0 (take 4 L) dflt = Some m.
  Proof.
    intros Hl. unfold delaunay_start. intros E. apply bind_Some in E as (sorted & Es & E). cbv zeta in E.
    pose proof (hilbert_sort_perm Z.leb norm curve ((λ x : pt * V, ((px x.1, py x.1, pz x.1), x.2)) <$> ps)) as Hp. rewrite Es in Hp. destruct Hp as [_ Hp].
    rewrite enumerate_number in Hp by (by rewrite fmap_length).
    set (L0 := (λ x : N * ((Z * Z * Z) * V), (x.1, (Pt x.2.1.1.1 x.2.1.1.2 x.2.1.2, x.2.2))) <$> sorted) in E.
    assert (L0 ≡ₚ imap (λ i p, (N.of_nat i, p)) ps) as HL.
    { unfold L0. rewrite Hp. rewrite imap_fmap, fmap_imap. apply reflexive_eq. apply imap_ext. intros i [[] ?] _. done. }
    clearbody L0. clear Hp Es sorted.
    apply bind_Some in E as (x0 & Ex0 & E). apply bind_Some in E as (v2i & Ep2 & E). apply bind_Some in E as (L1 & E1 & E).
    apply bind_Some in E as (v3i & Ep3 & E). apply bind_Some in E as (L2 & E2 & E). apply bind_Some in E as (m1 & Em1 & E). injection E as <- <-.
    pose proof (swap_perm _ _ _ _ E1) as P1. pose proof (swap_perm _ _ _ _ E2) as P2.
    split; [by rewrite P2, P1|]. split.
    - unfold pick2 in Ep2. apply bind_Some in Ep2 as (p0 & (y0 & Ey0 & ->)%fmap_Some & Ep2). apply bind_Some in Ep2 as (p1 & (y1 & Ey1 & ->)%fmap_Some & Ep2). cbv zeta in Ep2.
      apply fmap_Some in Ep2 as ([i2 p2] & Em & Ei). cbn [fst] in Ei. subst v2i. apply max_by_in in Em. apply elem_of_list_filter in Em as [Hw2 Em]. cbn [snd] in Hw2.
      apply elem_of_lookup_imap in Em as (i & y2 & [= -> ->] & Ey2). rewrite lookup_drop in Ey2.
      unfold pick3 in Ep3. apply bind_Some in Ep3 as (p0' & (z0 & Ez0 & ->)%fmap_Some & Ep3). apply bind_Some in Ep3 as (p1' & (z1 & Ez1 & ->)%fmap_Some & Ep3).
      apply bind_Some in Ep3 as (p2' & (z2 & Ez2 & ->)%fmap_Some & Ep3).
      apply fmap_Some in Ep3 as ([i3 z3] & (Ez3 & Hw3 & _)%list_find_Some & Ei3). cbn [fst] in Ei3. subst v3i. rewrite lookup_drop in Ez3.
      rewrite (swap_get _ _ _ _ 0 E1) in Ez0 by lia. rewrite (swap_get _ _ _ _ 1 E1) in Ez1 by lia. rewrite (swap_fst _ _ _ _ E1) in Ez2.
      assert (z0 = y0) as -> by congruence. assert (z1 = y1) as -> by congruence. cbn [Nat.add] in Ez2, Ey2. assert (z2 = y2) as -> by congruence.
      pose proof (swap_fst _ _ _ _ E2) as F3. rewrite (Nat.add_comm i3 3), Ez3 in F3.
      assert (L2 !! 0 = Some y0) as F0. { rewrite (swap_get _ _ _ _ 0 E2) by lia. rewrite (swap_get _ _ _ _ 0 E1) by lia. done. }
      assert (L2 !! 1 = Some y1) as F1. { rewrite (swap_get _ _ _ _ 1 E2) by lia. rewrite (swap_get _ _ _ _ 1 E1) by lia. done. }
      assert (L2 !! 2 = Some y2) as F2. { rewrite (swap_get _ _ _ _ 2 E2) by lia. rewrite (swap_fst _ _ _ _ E1). done. }
      exists y0, y1, y2, z3. split; [|done]. clear - F0 F1 F2 F3. destruct L2 as [|a [|b [|c [|d L2]]]]; try done. apply (inj Some) in F0, F1, F2, F3. by subst.
    - exists ((λ _, x0.2.2) <$> L0). eexists. split; [reflexivity|]. split; [rewrite fmap_length, HL, imap_length; done|].
      rewrite <- list_fmap_compose. exact Em1.
  Qed.

  Lemma from_kept sim norm curve wide2 le2 wide3 less lt order center (ps : list (pt * V)) (dflt : T) m : (N.of_nat (length ps) <= u32_mod)%N →
    delaunay_from_vertices sim norm curve wide2 le2 wide3 less lt order center ps dflt = Some m →
    4 ≤ length ps ∧ kept (λ v, ps !! N.to_nat v) m ∧ assert_integrity (Some (positive m)) m = true.
  Proof.
    intros Hl. unfold delaunay_from_vertices. intros E. apply bind_Some in E as ([m1 L2] & Est & E).
    apply (start_facts _ _ _ _ _ _ _ _ _ _ Hl) in Est as (HL2 & (x0 & x1 & x2 & x3 & H4 & _) & xs & M0 & EM0 & Hxs & Em1).
    apply bind_Some in E as (v3 & Ev3 & E). apply bind_Some in E as (m2 & Em2 & E).
    destruct (assert_integrity _ _) eqn:Ei; [|done]. apply (inj Some) in E as <-.
    assert (kept (vdata M0) M0) as HK0.
    { assert (∀ A, bounded (im_empty : idmap A)) as Hb by (intros A k y; unfold im_get; cbn; by rewrite lookup_empty).
      rewrite EM0. split; [apply bd_extend_values, Hb|apply Hb|apply Hb|done|done]. }
    assert (∀ v, (N.of_nat (length ps) <= v)%N → vdata M0 v = None) as Hout.
    { intros v Hv. unfold vdata. destruct (im_get (m_verts M0) v) as [vt|] eqn:Eg; [|done]. exfalso. apply (kp_verts _ _ HK0) in Eg.
      rewrite EM0 in Eg. cbn [with_verts m_verts] in Eg. match type of Eg with context [im_extend_values ?a ?b] => destruct (npi_extend_values b a) as [Hn|]; [|done] end.
      rewrite fmap_length in Hn. cbn [im_npi im_empty] in Hn. lia. }
    clear EM0.
    apply (with_ids_kept _ _ _ _ _ _ HK0) in Em1 as [HK1 _]. apply (insert_all_kept _ _ _ _ _ _ _ _ HK1) in Em2.
    assert (4 ≤ length ps) as Hps. { apply Permutation_length in HL2. rewrite imap_length in HL2. apply (f_equal length) in H4. rewrite take_length in H4. cbn [length] in H4. lia. }
    split; [done|]. split; [|done].
    assert (kept (λ v, ps !! N.to_nat v) m2) as []; [|by split].
    apply (kept_ext (upds (sort_key fst (take 4 L2) ++ drop 4 L2) (vdata M0))).
    2: { eapply kept_ext; [|exact Em2]. intros a. by rewrite upds_app. }
    intros v. set (R := sort_key fst (take 4 L2) ++ drop 4 L2).
    assert (R ≡ₚ imap (λ i p, (N.of_nat i, p)) ps) as HR. { unfold R. by rewrite sort_key_perm, take_drop. }
    destruct (ps !! N.to_nat v) as [d|] eqn:Ed.
    - apply upds_in.
      + rewrite HR. apply NoDup_alt. intros i j y. rewrite !list_lookup_fmap, !list_lookup_imap.
        destruct (ps !! i); [|done]. destruct (ps !! j); [|done]. cbn. intros [= <-] [= E']. lia.
      + rewrite HR. apply elem_of_lookup_imap. exists (N.to_nat v), d. by rewrite N2Nat.id.
    - rewrite upds_out; [apply Hout; apply lookup_ge_None in Ed; lia|]. rewrite HR. intros ((v' & d) & -> & Hin)%elem_of_list_fmap.
      apply elem_of_lookup_imap in Hin as (i & p & [= -> ->] & Hi). cbn in Ed. rewrite Nat2N.id in Ed. congruence.
  Qed.
End data.
