(** The edges and triangles removed and added by each flip. *)
From stdpp Require Import base numbers list gmap option relations.
From Coq Require Import NArith ZArith Lia.
From Verif Require Import IdMapModel WalkerModel WalkerSpec WalkerProofs WalkerMore MeshModel MeshSpec MeshViews FlipSpec HistSpec FlipBase Flip44Ok History Reach IterProofs QualModel ProgSpec SortProofs ProgBase.
Local Open Scope nat_scope.

(** [∀ x, x ∈ s → x ∈ [..]] from [H : ∀ x, x ∈ s → x ∈ [..]]. *)
Ltac pick := first [reflexivity|left; reflexivity|right; pick].
Ltac inset := rewrite ?elem_of_cons, ?elem_of_nil; pick.
Ltac sub H :=
  let x := fresh "x" in let Hx := fresh "Hx" in let Hs := fresh "Hs" in
  intros x Hx; pose proof (H x Hx) as Hs; try unfold list4 in Hs; try unfold list4; cbn [q0 q1 q2 q3] in Hs |- *;
  rewrite ?elem_of_cons, ?elem_of_nil in Hs; rewrite ?elem_of_cons, ?elem_of_nil; destruct Hs as [->|[->|[->|[->|[]]]]]; first [contradiction|pick].

(** [v] is in the first of two lists with the same elements, but not in the second. *)
Ltac lone Hs v :=
  let K := fresh in pose proof (proj1 (Hs v) ltac:(unfold list4; cbn [q0 q1 q2 q3]; inset)) as K;
  unfold list4 in K; cbn [q0 q1 q2 q3] in K; rewrite ?elem_of_cons, ?elem_of_nil in K; clear Hs; intuition congruence.

Lemma tri_is g a b c : in_order g → NoDup [a; b; c] → a ∈ corners g → b ∈ corners g → c ∈ corners g → g = STri (sorted_3 (a, b, c)).
Proof.
  intros Ho Hn Ha Hb Hc. pose proof (in_order_nodup g Ho) as Hg.
  destruct g as [[x y]|[[x y] z]].
  - exfalso. pose proof (nodup_in (corners (SEdge (x, y))) [a; b; c] Hn) as H. cbn [length corners] in H.
    assert (3 ≤ 2); [apply H; intros v Hv; apply elem_of_cons in Hv as [->|Hv]; [done|]; apply elem_of_cons in Hv as [->|Hv]; [done|];
      apply elem_of_list_singleton in Hv as ->; done|lia].
  - f_equal. cbn in Ho. rewrite <- (sorted3_id x y z) by tauto. symmetry. apply sorted3_same; [done|done|].
    intros v Hv. apply elem_of_cons in Hv as [->|Hv]; [done|]. apply elem_of_cons in Hv as [->|Hv]; [done|].
    by apply elem_of_list_singleton in Hv as ->.
Qed.
Lemma edge_or_tri g p q : in_order g → p ≠ q → p ∈ corners g → q ∈ corners g →
  g = SEdge (sorted_2 (p, q)) ∨ ∃ v, v ∈ corners g ∧ NoDup [p; q; v] ∧ g = STri (sorted_3 (p, q, v)).
Proof.
  intros Ho Hn Hp Hq. destruct g as [[x y]|[[x y] z]].
  - left. f_equal. cbn in Ho, Hp, Hq. rewrite ?elem_of_cons, ?elem_of_nil in Hp; rewrite ?elem_of_cons, ?elem_of_nil in Hq. cbn.
    destruct (N.ltb_spec q p); f_equal; lia.
  - right. assert (∃ v, v ∈ [x; y; z] ∧ NoDup [p; q; v]) as (v & Hv & Hnd).
    { cbn in Ho, Hp, Hq. rewrite ?elem_of_cons, ?elem_of_nil in Hp; rewrite ?elem_of_cons, ?elem_of_nil in Hq.
      destruct Hp as [->|[->|[->|[]]]], Hq as [->|[->|[->|[]]]]; try done;
      [exists z|exists y|exists z|exists x|exists y|exists x]; (split; [rewrite !elem_of_cons; tauto|apply nodup3; lia]). }
    exists v. split; [done|]. split; [done|]. by apply tri_is.
Qed.

Section flips.
  Context {V T : Type}.
  Implicit Types (m : mesh V T) (w : walker).

  (** The tets with a given triangle. *)
  Lemma tri_tets m w w' a b c d x id vs : mesh_ok m → valid m w → w_verts m w = Some (A4 a b c d) → to_adj m w = Some w' →
    w_verts m w' = Some (A4 b a c x) → vs_of m id = Some vs → a ∈ list4 vs → b ∈ list4 vs → c ∈ list4 vs → id = w_tet w ∨ id = w_tet w'.
  Proof.
    intros Hok Hw E Ea E' Ev Ha Hb Hc. destruct (adj_info m w w' _ _ _ _ Hok Hw E Ea) as (Hw' & _ & _).
    pose proof (ok_distinct m Hok w _ _ _ _ Hw E) as Hn. apply NoDup4 in Hn.
    destruct (tri_in_tet m id vs a b c Ev) as (u & Hu & <- & [Et|Et]).
    { intros y Hy. rewrite ?elem_of_cons, ?elem_of_nil in Hy. by destruct Hy as [->|[->|[->|[]]]]. }
    { apply nodup3. tauto. }
    - left. f_equal. eapply (ok_tri_unique m Hok u w (a, b, c)); [done..|by eapply wverts_tri].
    - right. f_equal. eapply (ok_tri_unique m Hok u w' (b, a, c)); [done..|by eapply wverts_tri].
  Qed.

  Lemma effect23 m w m' ws a b c d e other id2 : mesh_ok m → mesh_ok m' → valid m w →
    flip23_spec m w m' ws a b c d e other id2 → d ≠ e → ¬ joined m d e →
    effect m m' [STri (sorted_3 (a, b, c))] [(a, d); (a, e); (b, d); (b, e); (c, d); (c, e)].
  Proof.
    intros Hok Hok' Hw S Hde Hnj. pose proof (fs23_self _ _ _ _ _ _ _ _ _ _ _ S) as Ew.
    destruct (fs23_other _ _ _ _ _ _ _ _ _ _ _ S) as [Ea Eo]. pose proof (fs23_repl _ _ _ _ _ _ _ _ _ _ _ S) as Hr.
    pose proof (fs23_ids _ _ _ _ _ _ _ _ _ _ _ S) as Hids.
    destruct (adj_info m w other _ _ _ _ Hok Hw Ew Ea) as (Ho & _ & _).
    pose proof (ok_distinct m Hok w _ _ _ _ Hw Ew) as Hn1. apply NoDup4 in Hn1.
    pose proof (ok_distinct m Hok other _ _ _ _ Ho Eo) as Hn2. apply NoDup4 in Hn2. cbn in Hn1, Hn2.
    assert (vs_of m' (w_tet w) = Some (A4 b a d e)) as N1 by (eapply vs_added; [done|]; left).
    assert (vs_of m' (w_tet other) = Some (A4 a c d e)) as N2 by (eapply vs_added; [done|]; right; left).
    assert (vs_of m' id2 = Some (A4 c b d e)) as N3 by (eapply vs_added; [done|]; do 2 right; left).
    assert (∀ id vs, vs_of m' id = Some vs → (id, vs) ∈ [(w_tet w, A4 b a d e); (w_tet other, A4 a c d e); (id2, A4 c b d e)] ∨
      (id ∉ [w_tet w; w_tet other] ∧ vs_of m id = Some vs)) as HN.
    { intros id vs. apply (vs_replaces _ _ _ _ _ _ id vs Hr). }
    split.
    - intros g Hg (Hnd & id & vs & Ev & Hs)%present_covers Hng; [|done]. apply present_covers; [done|]. split; [done|].
      destruct (decide (id ∈ [w_tet w; w_tet other])) as [Hin|Hin].
      2:{ exists id, vs. split; [by eapply vs_frame|done]. }
      destruct (decide (c ∈ corners g)) as [Hc|Hc]; [destruct (decide (b ∈ corners g)) as [Hb|Hb]; [destruct (decide (a ∈ corners g)) as [Ha'|Ha']|]|].
      + exfalso. apply Hng. rewrite (tri_is g a b c Hg) by (try done; apply nodup3; tauto). left.
      + exists id2, (A4 c b d e). split; [done|]. rewrite ?elem_of_cons, ?elem_of_nil in Hin. destruct Hin as [->|[->|[]]].
        * pose proof (wverts_vs m w _ _ _ _ vs Hw Ew Ev) as Hx. assert (∀ x, x ∈ corners g → x ∈ [a; b; c; d]) as Hs' by (intros x Hx'; by apply Hx, Hs). sub Hs'.
        * pose proof (wverts_vs m other _ _ _ _ vs Ho Eo Ev) as Hx. assert (∀ x, x ∈ corners g → x ∈ [b; a; c; e]) as Hs' by (intros x Hx'; by apply Hx, Hs). sub Hs'.
      + exists (w_tet other), (A4 a c d e). split; [done|]. rewrite ?elem_of_cons, ?elem_of_nil in Hin. destruct Hin as [->|[->|[]]].
        * pose proof (wverts_vs m w _ _ _ _ vs Hw Ew Ev) as Hx. assert (∀ x, x ∈ corners g → x ∈ [a; b; c; d]) as Hs' by (intros x Hx'; by apply Hx, Hs). sub Hs'.
        * pose proof (wverts_vs m other _ _ _ _ vs Ho Eo Ev) as Hx. assert (∀ x, x ∈ corners g → x ∈ [b; a; c; e]) as Hs' by (intros x Hx'; by apply Hx, Hs). sub Hs'.
      + exists (w_tet w), (A4 b a d e). split; [done|]. rewrite ?elem_of_cons, ?elem_of_nil in Hin. destruct Hin as [->|[->|[]]].
        * pose proof (wverts_vs m w _ _ _ _ vs Hw Ew Ev) as Hx. assert (∀ x, x ∈ corners g → x ∈ [a; b; c; d]) as Hs' by (intros x Hx'; by apply Hx, Hs). sub Hs'.
        * pose proof (wverts_vs m other _ _ _ _ vs Ho Eo Ev) as Hx. assert (∀ x, x ∈ corners g → x ∈ [b; a; c; e]) as Hs' by (intros x Hx'; by apply Hx, Hs). sub Hs'.
    - intros g ->%elem_of_list_singleton H. apply present_tri in H; [|done|apply nodup3; tauto].
      apply tri_covers in H as (_ & id & vs & Ev & Hs); [|done].
      destruct (HN id vs Ev) as [Hin|[Hin Ev']].
      + rewrite ?elem_of_cons, ?elem_of_nil in Hin.
        destruct Hin as [[= -> ->]|[[= -> ->]|[[= -> ->]|[]]]]; unfold list4 in Hs; cbn [q0 q1 q2 q3] in Hs.
        * pose proof (Hs c ltac:(inset)) as Hx. rewrite ?elem_of_cons, ?elem_of_nil in Hx. clear - Hx Hn1 Hn2. intuition congruence.
        * pose proof (Hs b ltac:(inset)) as Hx. rewrite ?elem_of_cons, ?elem_of_nil in Hx. clear - Hx Hn1 Hn2. intuition congruence.
        * pose proof (Hs a ltac:(inset)) as Hx. rewrite ?elem_of_cons, ?elem_of_nil in Hx. clear - Hx Hn1 Hn2. intuition congruence.
      + destruct (tri_tets m w other a b c d e id vs Hok Hw Ew Ea Eo Ev') as [->| ->]; [apply Hs; inset..| |]; apply Hin; inset.
    - intros x y z H Hj Hp. apply tri_covers in H as (Hnd & id & vs & Ev & Hs); [|done]. apply tri_covers; [done|]. split; [done|].
      destruct (HN id vs Ev) as [Hin|[Hin Ev']]; [|by exists id, vs].
      assert (∀ u v, u ∈ [a; b; c] → v ∈ [d; e] → sorted_2 (u, v) ∈ sorted_2 <$> [(a, d); (a, e); (b, d); (b, e); (c, d); (c, e)]) as Hpairs.
      { clear. intros u v Hu Hv. rewrite ?elem_of_cons, ?elem_of_nil in Hu; rewrite ?elem_of_cons, ?elem_of_nil in Hv. cbn [fmap list_fmap]. rewrite !elem_of_cons.
        destruct Hu as [->|[->|[->|[]]]], Hv as [->|[->|[]]]; tauto. }
      assert (d ∈ [x; y; z] → e ∈ [x; y; z] → (∀ v, v ∈ [x; y; z] → v = d ∨ v = e ∨ v ∈ [a; b; c]) → False) as Hno.
      { intros Hd He Hv. pose proof (Hv x ltac:(inset)) as Hx. pose proof (Hv y ltac:(inset)) as Hy.
        apply nodup3 in Hnd as (Hxy & _ & _).
        destruct Hx as [->|[->|Hx]], Hy as [->|[->|Hy]]; try done.
        - apply Hp. rewrite sorted_2_comm. apply Hpairs; [done|inset].
        - apply Hnj; first [done|by apply joined_sym].
        - apply Hp. rewrite sorted_2_comm. apply Hpairs; [done|inset].
        - apply Hp, Hpairs; [done|inset].
        - apply Hp, Hpairs; [done|inset].
        - assert (d ∉ [a; b; c] ∧ e ∉ [a; b; c]) as [K1 K2] by (rewrite ?elem_of_cons, ?elem_of_nil; clear - Hn1 Hn2; intuition congruence).
          rewrite ?elem_of_cons, ?elem_of_nil in Hd; rewrite ?elem_of_cons, ?elem_of_nil in He. clear - Hd He K1 K2 Hx Hy Hde.
          destruct Hd as [->|[->|[->|[]]]]; [done|done|]. destruct He as [->|[->|[->|[]]]]; done. }
      assert (covers m [x; y; z] ∨ (d ∈ [x; y; z] ∧ e ∈ [x; y; z])) as [Hc|[Hd He]]; [|done|].
      { destruct (decide (d ∈ [x; y; z])) as [Hd|Hd]; [destruct (decide (e ∈ [x; y; z])) as [He|He]; [by right|]|]; left;
          rewrite ?elem_of_cons, ?elem_of_nil in Hin; destruct Hin as [[= -> ->]|[[= -> ->]|[[= -> ->]|[]]]].
        1-3: apply (wverts_covers m w _ _ _ _ _ Hw Ew); sub Hs.
        all: apply (wverts_covers m other _ _ _ _ _ Ho Eo); sub Hs. }
      destruct Hno; [done|done|]. intros v Hv. pose proof (Hs v Hv) as Hv'.
      rewrite ?elem_of_cons, ?elem_of_nil in Hin; destruct Hin as [[= -> ->]|[[= -> ->]|[[= -> ->]|[]]]]; unfold list4 in Hv'; cbn [q0 q1 q2 q3] in Hv';
        rewrite ?elem_of_cons, ?elem_of_nil in Hv'; rewrite ?elem_of_cons; clear - Hv'; tauto.
    - rewrite !thick_vs. intros Hth id id' vs vs' E E' Hs. destruct (HN id vs E) as [Hin|[Hin Ev]], (HN id' vs' E') as [Hin'|[Hin' Ev']].
      + rewrite ?elem_of_cons, ?elem_of_nil in Hin. rewrite ?elem_of_cons, ?elem_of_nil in Hin'.
        clear - Hin Hin' Hs Hn1 Hn2.
        destruct Hin as [[= -> ->]|[[= -> ->]|[[= -> ->]|[]]]], Hin' as [[= -> ->]|[[= -> ->]|[[= -> ->]|[]]]]; try reflexivity; exfalso;
          first [lone Hs a|lone Hs b|lone Hs c].
      + destruct Hnj. apply (pair_in_tet m id' vs'); [done|apply Hs|apply Hs|done];
          rewrite ?elem_of_cons, ?elem_of_nil in Hin; destruct Hin as [[= -> ->]|[[= -> ->]|[[= -> ->]|[]]]]; unfold list4; cbn [q0 q1 q2 q3]; inset.
      + destruct Hnj. apply (pair_in_tet m id vs); [done|apply Hs|apply Hs|done];
          rewrite ?elem_of_cons, ?elem_of_nil in Hin'; destruct Hin' as [[= -> ->]|[[= -> ->]|[[= -> ->]|[]]]]; unfold list4; cbn [q0 q1 q2 q3]; inset.
      + by apply (Hth id id' vs vs').
  Qed.

  (** The tets around an edge lose it: shared part of the 3-to-2 and 4-to-4 flips. *)
  Lemma kept_edge m m' p q (rim : list N) (old : list walker) ead edl new :
    mesh_ok m → mesh_ok m' → p ≠ q →
    replaces m m' (w_tet <$> old) new ead edl →
    (∀ w, w ∈ old → valid m w ∧ ∃ x y, w_verts m w = Some (A4 p q x y) ∧ x ∈ rim ∧ y ∈ rim ∧
       covers m' [p; x; y] ∧ covers m' [q; x; y]) →
    ∀ g, in_order g → present m g → g ∉ SEdge (sorted_2 (p, q)) :: ((λ v, STri (sorted_3 (p, q, v))) <$> rim) → present m' g.
  Proof.
    intros Hok Hok' Hpq Hr Hold g Hg (Hnd & id & vs & Ev & Hs)%present_covers Hng; [|done]. apply present_covers; [done|]. split; [done|].
    destruct (decide (id ∈ w_tet <$> old)) as [Hin|Hin].
    2:{ exists id, vs. split; [by eapply vs_frame|done]. }
    apply elem_of_list_fmap in Hin as (w & -> & Hin). destruct (Hold w Hin) as (Hw & x & y & Ew & Hx & Hy & C1 & C2).
    pose proof (wverts_vs m w _ _ _ _ vs Hw Ew Ev) as Hv.
    assert (∀ x', x' ∈ corners g → x' ∈ [p; q; x; y]) as Hs' by (intros x' Hx'; by apply Hv, Hs).
    destruct (decide (q ∈ corners g)) as [Hq|Hq]; [destruct (decide (p ∈ corners g)) as [Hp|Hp]|].
    - exfalso. apply Hng. destruct (edge_or_tri g p q Hg Hpq Hp Hq) as [->|(v & Hv' & Hn & ->)]; [left|right].
      apply elem_of_list_fmap. exists v. split; [done|]. apply nodup3 in Hn as (_ & Hn1 & Hn2).
      pose proof (Hs' v Hv') as H. rewrite ?elem_of_cons, ?elem_of_nil in H. destruct H as [->|[->|[->|[->|[]]]]]; done.
    - eapply covers_sub; [|exact C2]. sub Hs'.
    - eapply covers_sub; [|exact C1]. sub Hs'.
  Qed.
  Lemma gone_edge m m' p q (rim : list N) : mesh_ok m' → p ≠ q → ¬ joined m' p q → (∀ v, v ∈ rim → NoDup [p; q; v]) →
    ∀ g, g ∈ SEdge (sorted_2 (p, q)) :: ((λ v, STri (sorted_3 (p, q, v))) <$> rim) → ¬ present m' g.
  Proof.
    intros Hok' Hpq Hnj Hn g [->|Hg]%elem_of_cons H; [by apply present_edge in H|].
    apply elem_of_list_fmap in Hg as (v & -> & Hv). apply present_tri in H; [|done|by apply Hn].
    by apply tri_joined in H.
  Qed.

  Lemma effect32 m w m' ws p q x y z o1 o2 : mesh_ok m → mesh_ok m' → valid m w →
    flip32_spec m w m' ws p q x y z o1 o2 → ¬ has_tri m x y z →
    effect m m' [SEdge (sorted_2 (p, q)); STri (sorted_3 (p, q, x)); STri (sorted_3 (p, q, y)); STri (sorted_3 (p, q, z))] [(x, y); (y, z); (z, x)].
  Proof.
    intros Hok Hok' Hw S Hnt. pose proof (fs32_self _ _ _ _ _ _ _ _ _ _ _ S) as Ew.
    destruct (fs32_other1 _ _ _ _ _ _ _ _ _ _ _ S) as [R1 E1]. destruct (fs32_other2 _ _ _ _ _ _ _ _ _ _ _ S) as [R2 E2].
    pose proof (fs32_repl _ _ _ _ _ _ _ _ _ _ _ S) as Hr. pose proof (fs32_ids _ _ _ _ _ _ _ _ _ _ _ S) as Hids.
    destruct (ring_info m w o1 _ _ _ _ Hok Hw Ew R1) as (Ho1 & _). destruct (ring_info m o1 o2 _ _ _ _ Hok Ho1 E1 R2) as (Ho2 & _).
    pose proof (ok_distinct m Hok w _ _ _ _ Hw Ew) as Hn1. apply NoDup4 in Hn1.
    pose proof (ok_distinct m Hok o1 _ _ _ _ Ho1 E1) as Hn2. apply NoDup4 in Hn2.
    pose proof (ok_distinct m Hok o2 _ _ _ _ Ho2 E2) as Hn3. apply NoDup4 in Hn3. cbn in Hn1, Hn2, Hn3.
    assert (vs_of m' (w_tet w) = Some (A4 y x z p)) as N1 by (eapply vs_added; [done|]; left).
    assert (vs_of m' (w_tet o1) = Some (A4 x y z q)) as N2 by (eapply vs_added; [done|]; right; left).
    assert (∀ id vs, vs_of m' id = Some vs → (id, vs) ∈ [(w_tet w, A4 y x z p); (w_tet o1, A4 x y z q)] ∨
      (id ∉ [w_tet w; w_tet o1; w_tet o2] ∧ vs_of m id = Some vs)) as HN.
    { intros id vs. apply (vs_replaces _ _ _ _ _ _ id vs Hr). }
    assert (∀ a b, a ∈ [x; y; z] → b ∈ [x; y; z] → covers m' [p; a; b] ∧ covers m' [q; a; b]) as Hcov.
    { intros a b Ha Hb. split; [exists (w_tet w), (A4 y x z p)|exists (w_tet o1), (A4 x y z q)]; (split; [done|]); intros v Hv;
        rewrite ?elem_of_cons, ?elem_of_nil in Hv; rewrite ?elem_of_cons, ?elem_of_nil in Ha; rewrite ?elem_of_cons, ?elem_of_nil in Hb;
        unfold list4; cbn [q0 q1 q2 q3]; rewrite ?elem_of_cons; clear - Hv Ha Hb; intuition congruence. }
    assert (¬ joined m' p q) as Hnpq by (eapply edge_gone; [done|exact Hr|left|apply not_elem_of_nil]).
    split.
    - apply (kept_edge m m' p q [x; y; z] [w; o1; o2] [] [(p, q)] _ Hok Hok' ltac:(tauto) Hr).
      intros u Hu. rewrite ?elem_of_cons, ?elem_of_nil in Hu. destruct Hu as [->|[->|[->|[]]]].
      + split; [done|]. exists x, y. split; [done|]. split; [inset|]. split; [inset|]. apply Hcov; inset.
      + split; [done|]. exists y, z. split; [done|]. split; [inset|]. split; [inset|]. apply Hcov; inset.
      + split; [done|]. exists z, x. split; [done|]. split; [inset|]. split; [inset|]. apply Hcov; inset.
    - apply (gone_edge m m' p q [x; y; z] Hok' ltac:(tauto) Hnpq).
      intros v Hv. rewrite ?elem_of_cons, ?elem_of_nil in Hv. apply nodup3. clear - Hv Hn1 Hn2 Hn3. intuition congruence.
    - intros a b c H Hj Hp. apply tri_covers in H as (Hnd & id & vs & Ev & Hs); [|done]. apply tri_covers; [done|]. split; [done|].
      destruct (HN id vs Ev) as [Hin|[Hin Ev']]; [|by exists id, vs].
      assert (∀ u v, u ∈ [x; y; z] → v ∈ [x; y; z] → u ≠ v → sorted_2 (u, v) ∈ sorted_2 <$> [(x, y); (y, z); (z, x)]) as Hpairs.
      { clear. intros u v Hu Hv Huv. rewrite ?elem_of_cons, ?elem_of_nil in Hu. rewrite ?elem_of_cons, ?elem_of_nil in Hv.
        cbn [fmap list_fmap]. rewrite (sorted_2_comm x y), (sorted_2_comm y z), (sorted_2_comm z x), ?elem_of_cons.
        destruct Hu as [->|[->|[->|[]]]], Hv as [->|[->|[->|[]]]]; try done; rewrite ?(sorted_2_comm y x), ?(sorted_2_comm z y), ?(sorted_2_comm x z); pick. }
      assert (∀ o, (o = p ∨ o = q) → (∀ v, v ∈ [a; b; c] → v ∈ [x; y; z; o]) → covers m [a; b; c]) as Hone.
      { intros o Ho Hv.
        destruct (decide (z ∈ [a; b; c])) as [Hz|Hz]; [destruct (decide (x ∈ [a; b; c])) as [Hx|Hx]; [destruct (decide (y ∈ [a; b; c])) as [Hy|Hy]|]|].
        - exfalso. assert (∀ v, v ∈ [a; b; c] → v ∈ [x; y; z]) as Hv'.
          { intros v Hv'. pose proof (Hv v Hv') as H. rewrite ?elem_of_cons, ?elem_of_nil in H. destruct H as [->|[->|[->|[->|[]]]]]; [inset..|].
            exfalso. pose proof (nodup_in [a; b; c] [x; y; z; o]) as HL. cbn [length] in HL. assert (4 ≤ 3); [|lia]. apply HL.
            - apply NoDup4. cbn. clear - Hn1 Hn2 Hn3 Ho. intuition congruence.
            - intros u Hu. rewrite ?elem_of_cons, ?elem_of_nil in Hu. destruct Hu as [->|[->|[->|[->|[]]]]]; done. }
          apply Hp, Hpairs; [apply Hv'; inset..|]. apply nodup3 in Hnd. tauto.
        - apply (wverts_covers m o2 _ _ _ _ _ Ho2 E2). destruct Ho as [->| ->]; sub Hv.
        - apply (wverts_covers m o1 _ _ _ _ _ Ho1 E1). destruct Ho as [->| ->]; sub Hv.
        - apply (wverts_covers m w _ _ _ _ _ Hw Ew). destruct Ho as [->| ->]; sub Hv. }
      rewrite ?elem_of_cons, ?elem_of_nil in Hin. destruct Hin as [[= -> ->]|[[= -> ->]|[]]].
      + apply (Hone p); [by left|]. sub Hs.
      + apply (Hone q); [by right|]. sub Hs.
    - rewrite !thick_vs. intros Hth id id' vs vs' E E' Hs. destruct (HN id vs E) as [Hin|[Hin Ev]], (HN id' vs' E') as [Hin'|[Hin' Ev']].
      + rewrite ?elem_of_cons, ?elem_of_nil in Hin. rewrite ?elem_of_cons, ?elem_of_nil in Hin'.
        clear - Hin Hin' Hs Hn1 Hn2 Hn3.
        destruct Hin as [[= -> ->]|[[= -> ->]|[]]], Hin' as [[= -> ->]|[[= -> ->]|[]]]; try reflexivity; exfalso;
          first [lone Hs p|lone Hs q].
      + destruct Hnt. apply tri_covers; [done|]. split; [apply nodup3; clear - Hn1 Hn2 Hn3; intuition congruence|]. exists id', vs'. split; [done|]. intros v Hv. apply Hs.
        rewrite ?elem_of_cons, ?elem_of_nil in Hv. rewrite ?elem_of_cons, ?elem_of_nil in Hin; destruct Hin as [[= -> ->]|[[= -> ->]|[]]];
          unfold list4; cbn [q0 q1 q2 q3]; rewrite ?elem_of_cons; clear - Hv; tauto.
      + destruct Hnt. apply tri_covers; [done|]. split; [apply nodup3; clear - Hn1 Hn2 Hn3; intuition congruence|]. exists id, vs. split; [done|]. intros v Hv. apply Hs.
        rewrite ?elem_of_cons, ?elem_of_nil in Hv. rewrite ?elem_of_cons, ?elem_of_nil in Hin'; destruct Hin' as [[= -> ->]|[[= -> ->]|[]]];
          unfold list4; cbn [q0 q1 q2 q3]; rewrite ?elem_of_cons; clear - Hv; tauto.
      + by apply (Hth id id' vs vs').
  Qed.

  Lemma effect44 m w m' ws p q x y z u r1 r2 r3 : mesh_ok m → mesh_ok m' → valid m w → valid m r1 → valid m r2 → valid m r3 →
    flip44_spec m w m' ws p q x y z u r1 r2 r3 → ¬ joined m x z →
    effect m m' [SEdge (sorted_2 (p, q)); STri (sorted_3 (p, q, x)); STri (sorted_3 (p, q, y)); STri (sorted_3 (p, q, z)); STri (sorted_3 (p, q, u))]
      [(z, u); (u, x); (x, y); (y, z); (p, z); (z, q); (q, x); (x, p)].
  Proof.
    intros Hok Hok' Hw Hr1 Hr2 Hr3 S Hnj. destruct (fs44_ring _ _ _ _ _ _ _ _ _ _ _ _ _ S) as (Ew & E1 & E2 & E3).
    destruct (fs44_repl _ _ _ _ _ _ _ _ _ _ _ _ _ S) as (id2 & _ & Hr).
    pose proof (ok_distinct m Hok w _ _ _ _ Hw Ew) as Hn1. apply NoDup4 in Hn1.
    pose proof (ok_distinct m Hok r1 _ _ _ _ Hr1 E1) as Hn2. apply NoDup4 in Hn2.
    pose proof (ok_distinct m Hok r2 _ _ _ _ Hr2 E2) as Hn3. apply NoDup4 in Hn3.
    pose proof (ok_distinct m Hok r3 _ _ _ _ Hr3 E3) as Hn4. apply NoDup4 in Hn4. cbn in Hn1, Hn2, Hn3, Hn4.
    assert (vs_of m' (w_tet w) = Some (A4 x z u q)) as N1 by (eapply vs_added; [done|]; left).
    assert (vs_of m' (w_tet r1) = Some (A4 q y x z)) as N2 by (eapply vs_added; [done|]; right; left).
    assert (vs_of m' id2 = Some (A4 y p x z)) as N3 by (eapply vs_added; [done|]; do 2 right; left).
    assert (vs_of m' (w_tet r3) = Some (A4 z x u p)) as N4 by (eapply vs_added; [done|]; do 3 right; left).
    assert (∀ id vs, vs_of m' id = Some vs → (id, vs) ∈ [(w_tet w, A4 x z u q); (w_tet r1, A4 q y x z); (id2, A4 y p x z); (w_tet r3, A4 z x u p)] ∨
      (id ∉ [w_tet w; w_tet r1; w_tet r2; w_tet r3] ∧ vs_of m id = Some vs)) as HN.
    { intros id vs. apply (vs_replaces _ _ _ _ _ _ id vs Hr). }
    pose proof (ok_distinct m' Hok' (Walker id2 3) y p x z) as Hn5.
    assert (x ≠ z) as Hxz.
    { assert (NoDup [y; p; x; z]) as Hn.
      { apply Hn5; [split; [unfold vs_of in N3; cbn; destruct (tet_get m' id2); [eauto|done]|cbn; lia]|].
        unfold vs_of in N3. destruct (tet_get m' id2) as [t|] eqn:Et; [|done]. injection N3 as N3.
        rewrite (w_verts_eq m' (Walker id2 3) t Et). f_equal. rewrite <- N3. apply verts_at_canon. }
      apply NoDup4 in Hn. cbn in Hn. tauto. }
    clear Hn5.
    assert (∀ v a b vs id, vs_of m' id = Some vs → v ∈ list4 vs → a ∈ list4 vs → b ∈ list4 vs → covers m' [v; a; b]) as Hcov.
    { intros v a b vs id E Hv Ha Hb. exists id, vs. split; [done|]. intros x' Hx'. rewrite ?elem_of_cons, ?elem_of_nil in Hx'.
      destruct Hx' as [->|[->|[->|[]]]]; done. }
    assert (¬ joined m' p q) as Hnpq.
    { eapply edge_gone; [done|exact Hr|cbn [fmap list_fmap]; rewrite sorted_2_comm; left|].
      cbn [fmap list_fmap]. intros H%elem_of_list_singleton. apply sorted_2_eq in H. unfold same_pair in H. clear - H Hn1. intuition congruence. }
    assert (p ≠ q) as Hpq by tauto.
    split.
    - apply (kept_edge m m' p q [x; y; z; u] [w; r1; r2; r3] [(x, z)] [(q, p)] _ Hok Hok' Hpq Hr).
      intros o Ho. rewrite ?elem_of_cons, ?elem_of_nil in Ho. destruct Ho as [->|[->|[->|[->|[]]]]].
      + split; [done|]. exists x, y. split; [done|]. split; [inset|]. split; [inset|].
        split; [apply (Hcov _ _ _ _ _ N3)|apply (Hcov _ _ _ _ _ N2)]; unfold list4; cbn [q0 q1 q2 q3]; inset.
      + split; [done|]. exists y, z. split; [done|]. split; [inset|]. split; [inset|].
        split; [apply (Hcov _ _ _ _ _ N3)|apply (Hcov _ _ _ _ _ N2)]; unfold list4; cbn [q0 q1 q2 q3]; inset.
      + split; [done|]. exists z, u. split; [done|]. split; [inset|]. split; [inset|].
        split; [apply (Hcov _ _ _ _ _ N4)|apply (Hcov _ _ _ _ _ N1)]; unfold list4; cbn [q0 q1 q2 q3]; inset.
      + split; [done|]. exists u, x. split; [done|]. split; [inset|]. split; [inset|].
        split; [apply (Hcov _ _ _ _ _ N4)|apply (Hcov _ _ _ _ _ N1)]; unfold list4; cbn [q0 q1 q2 q3]; inset.
    - apply (gone_edge m m' p q [x; y; z; u] Hok' Hpq Hnpq).
      intros v Hv. rewrite ?elem_of_cons, ?elem_of_nil in Hv. apply nodup3. clear - Hv Hn1 Hn2 Hn3 Hn4. intuition congruence.
    - intros a b c H Hj Hp. apply tri_covers in H as (Hnd & id & vs & Ev & Hs); [|done]. apply tri_covers; [done|]. split; [done|].
      destruct (HN id vs Ev) as [Hin|[Hin Ev']]; [|by exists id, vs].
      assert (∀ i v, i ∈ [x; z] → v ∈ [p; q; y; u] → sorted_2 (i, v) ∈ sorted_2 <$> [(z, u); (u, x); (x, y); (y, z); (p, z); (z, q); (q, x); (x, p)]) as Hpairs.
      { clear. intros i v Hi Hv. rewrite ?elem_of_cons, ?elem_of_nil in Hi. rewrite ?elem_of_cons, ?elem_of_nil in Hv.
        cbn [fmap list_fmap]. rewrite (sorted_2_comm u x), (sorted_2_comm y z), (sorted_2_comm p z), (sorted_2_comm q x), ?elem_of_cons.
        destruct Hi as [->|[->|[]]], Hv as [->|[->|[->|[->|[]]]]]; pick. }
      assert (∀ s, (∀ v, v ∈ s → v ∈ [p; q; y; u]) → (∀ v, v ∈ [a; b; c] → v ∈ x :: z :: s) → x ∈ [a; b; c] → z ∈ [a; b; c] → False) as Hno.
      { intros s Hsub Hv Hx Hz. pose proof (Hv a ltac:(inset)) as Ka. pose proof (Hv b ltac:(inset)) as Kb.
        apply nodup3 in Hnd as (Hab & _ & _). rewrite ?elem_of_cons in Ka. rewrite ?elem_of_cons in Kb.
        destruct Ka as [->|[->|Ka]], Kb as [->|[->|Kb]]; try done.
        - apply Hp, Hpairs; [inset|by apply Hsub].
        - by apply Hnj, joined_sym.
        - apply Hp, Hpairs; [inset|by apply Hsub].
        - apply Hp. rewrite sorted_2_comm. apply Hpairs; [inset|by apply Hsub].
        - apply Hp. rewrite sorted_2_comm. apply Hpairs; [inset|by apply Hsub].
        - assert (x ∉ [p; q; y; u] ∧ z ∉ [p; q; y; u]) as [K1 K2] by (rewrite ?elem_of_cons, ?elem_of_nil; clear - Hn1 Hn2 Hn3 Hn4; intuition congruence).
          apply Hsub in Ka, Kb. rewrite ?elem_of_cons, ?elem_of_nil in Hx; rewrite ?elem_of_cons, ?elem_of_nil in Hz.
          clear - Hx Hz K1 K2 Ka Kb Hxz. destruct Hx as [->|[->|[->|[]]]]; [done|done|]. destruct Hz as [->|[->|[->|[]]]]; done. }
      assert (∀ s o t wx wz, (∀ v, v ∈ s → v ∈ [p; q; y; u]) → (∀ v, v ∈ [a; b; c] → v ∈ x :: z :: s) → s = [o; t] →
        valid m wx → valid m wz → (∃ l, w_verts m wx = Some l ∧ x ∈ list4 l ∧ o ∈ list4 l ∧ t ∈ list4 l) →
        (∃ l, w_verts m wz = Some l ∧ z ∈ list4 l ∧ o ∈ list4 l ∧ t ∈ list4 l) → covers m [a; b; c]) as Hone.
      { intros s o t wx wz Hsub Hv -> Hwx Hwz ([l0 l1 l2 l3] & L1 & L2 & L3 & L4) ([k0 k1 k2 k3] & M1 & M2 & M3 & M4).
        destruct (decide (x ∈ [a; b; c])) as [Hx|Hx]; [destruct (decide (z ∈ [a; b; c])) as [Hz|Hz]|].
        - by destruct (Hno [o; t]).
        - apply (wverts_covers m wx _ _ _ _ _ Hwx L1). intros v Hv'. pose proof (Hv v Hv') as K. rewrite ?elem_of_cons, ?elem_of_nil in K.
          destruct K as [->|[->|[->|[->|[]]]]]; done.
        - apply (wverts_covers m wz _ _ _ _ _ Hwz M1). intros v Hv'. pose proof (Hv v Hv') as K. rewrite ?elem_of_cons, ?elem_of_nil in K.
          destruct K as [->|[->|[->|[->|[]]]]]; done. }
      rewrite ?elem_of_cons, ?elem_of_nil in Hin. destruct Hin as [[= -> ->]|[[= -> ->]|[[= -> ->]|[[= -> ->]|[]]]]].
      + apply (Hone [u; q] u q r3 r2); [|sub Hs|done|done|done|eexists; split; [exact E3|]|eexists; split; [exact E2|]];
          [|unfold list4; cbn [q0 q1 q2 q3]; split_and!; inset..].
        intros v Hv. rewrite ?elem_of_cons, ?elem_of_nil in Hv. destruct Hv as [->|[->|[]]]; inset.
      + apply (Hone [q; y] q y w r1); [|sub Hs|done|done|done|eexists; split; [exact Ew|]|eexists; split; [exact E1|]];
          [|unfold list4; cbn [q0 q1 q2 q3]; split_and!; inset..].
        intros v Hv. rewrite ?elem_of_cons, ?elem_of_nil in Hv. destruct Hv as [->|[->|[]]]; inset.
      + apply (Hone [y; p] y p w r1); [|sub Hs|done|done|done|eexists; split; [exact Ew|]|eexists; split; [exact E1|]];
          [|unfold list4; cbn [q0 q1 q2 q3]; split_and!; inset..].
        intros v Hv. rewrite ?elem_of_cons, ?elem_of_nil in Hv. destruct Hv as [->|[->|[]]]; inset.
      + apply (Hone [u; p] u p r3 r2); [|sub Hs|done|done|done|eexists; split; [exact E3|]|eexists; split; [exact E2|]];
          [|unfold list4; cbn [q0 q1 q2 q3]; split_and!; inset..].
        intros v Hv. rewrite ?elem_of_cons, ?elem_of_nil in Hv. destruct Hv as [->|[->|[]]]; inset.
    - rewrite !thick_vs. intros Hth id id' vs vs' E E' Hs. destruct (HN id vs E) as [Hin|[Hin Ev]], (HN id' vs' E') as [Hin'|[Hin' Ev']].
      + assert (u ≠ y) as Huy.
        { intros ->. destruct (wverts_in m r1 _ Hr1 E1) as (v1 & V1 & W1). destruct (wverts_in m r2 _ Hr2 E2) as (v2 & V2 & W2).
          pose proof (fs44_ids _ _ _ _ _ _ _ _ _ _ _ _ _ S) as Hids. apply NoDup4 in Hids. cbn in Hids.
          assert (w_tet r1 = w_tet r2) as Heq; [|clear - Hids Heq; tauto].
          apply (Hth _ _ v1 v2 V1 V2). intros v. rewrite <- W1, <- W2. unfold list4. cbn [q0 q1 q2 q3]. rewrite ?elem_of_cons. clear. tauto. }
        rewrite ?elem_of_cons, ?elem_of_nil in Hin. rewrite ?elem_of_cons, ?elem_of_nil in Hin'.
        assert (∀ x, x ∈ list4 vs' ↔ x ∈ list4 vs) as Hs' by (intros; symmetry; apply Hs).
        clear - Hin Hin' Hs Hs' Hn1 Hn2 Hn3 Hn4 Huy Hxz.
        destruct Hin as [[= -> ->]|[[= -> ->]|[[= -> ->]|[[= -> ->]|[]]]]], Hin' as [[= -> ->]|[[= -> ->]|[[= -> ->]|[[= -> ->]|[]]]]]; try reflexivity; exfalso;
          first [clear Hs'; lone Hs p|clear Hs'; lone Hs q|clear Hs'; lone Hs y|clear Hs'; lone Hs u|clear Hs; lone Hs' p|clear Hs; lone Hs' q].
      + destruct Hnj. apply (pair_in_tet m id' vs'); [done|apply Hs|apply Hs|done];
          rewrite ?elem_of_cons, ?elem_of_nil in Hin; destruct Hin as [[= -> ->]|[[= -> ->]|[[= -> ->]|[[= -> ->]|[]]]]]; unfold list4; cbn [q0 q1 q2 q3]; inset.
      + destruct Hnj. apply (pair_in_tet m id vs); [done|apply Hs|apply Hs|done];
          rewrite ?elem_of_cons, ?elem_of_nil in Hin'; destruct Hin' as [[= -> ->]|[[= -> ->]|[[= -> ->]|[[= -> ->]|[]]]]]; unfold list4; cbn [q0 q1 q2 q3]; inset.
      + by apply (Hth id id' vs vs').
  Qed.
End flips.
