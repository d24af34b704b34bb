(** The search for a removable edge: its loops. *)
From stdpp Require Import base numbers list gmap option relations.
From Coq Require Import NArith ZArith Lia.
From Verif Require Import IdMapModel IdMapSpec IdMapProofs WalkerModel WalkerSpec WalkerProofs WalkerMore MeshModel MeshSpec MeshViews FlipSpec HistSpec FlipBase
  Flip23Ok Flip32Ok Flip44Ok History Reach UtilModel UtilSpec UtilProofs IterModel IterDfs IterProofs IterLookup MeshOps FlipMore QualModel QualProofs CavExpand
  ProgModel ProgSpec SortProofs ProgBase ProgFlip ProgStep ProgRing ProgOk.
Local Open Scope nat_scope.

Section edge.
  Context {V T : Type}.
  Implicit Types (m : mesh V T) (w : walker) (goals : list simplex) (bads : list (N * N)).
  Context (ea : mesh V T → N * N → bool) (ta : mesh V T → N * N * N → bool) (ori : mesh V T → N → N → N → N → Z).
  Notation reach := (reach ea ta ori).
  Notation stuck := (stuck ea ta ori).
  Notation fin := (fin ea ta ori).
  Notation good := (good ea ta ori).
  Context (rt : call) (Hrt : tri_spec ea ta ori rt).
  Context (p q : N) (goals : list simplex) (bads : list (N * N)) (Hpq : p ≠ q) (Hbg : ∀ b, b ∈ bads → SEdge b ∈ goals).
  Notation own := (SEdge (sorted_2 (p, q))).
  Notation G := (goals ++ [own]).
  Notation B := (bads ++ [sorted_2 (p, q)]).

  Lemma ready_bad m : ready m G bads → ready m G B.
  Proof.
    intros (Hf & Hg & Hb). split; [done|]. split; [done|]. intros b. rewrite elem_of_app, elem_of_list_singleton. intros [?| ->]; [auto|].
    apply elem_of_app. right. by apply elem_of_list_singleton.
  Qed.
  Lemma ready_joined m : ready m G bads → joined m p q.
  Proof.
    intros Hr. eapply (bad_joined m G B); [by apply ready_bad|]. apply elem_of_app. right. by apply elem_of_list_singleton.
  Qed.
  Lemma ready_after m m1 : ready m G bads → fit m1 → (∀ g, g ∈ G → present m1 g) → ready m1 G bads.
  Proof. intros (_ & Hg & Hb) Hf H. split; [done|]. split; [|done]. intros g Hin. split; [auto|]. by apply Hg. Qed.
  Lemma give_up' m : ready m G bads → fin m goals bads own (m, removelast G, bads, None).
  Proof.
    intros (Hf & Hg & _). rewrite removelast_last. exists m, None. split; [done|]. split; [by apply reach_refl|]. intros g Hin. by apply Hg.
  Qed.

  (** One try of removing a triangle at the edge. *)
  Lemma guarded_ok m w v : ready m G bads → valid m w → w_tri m w = Some (p, q, v) →
    stuck m ∨ ∃ m1 r, guarded rt (p, q) w m G bads = Some (m1, G, bads, r) ∧ reach m bads m1 ∧
      (∀ u, has_tri m1 p q u → has_tri m p q u) ∧
      ((r = None ∧ has_tri m1 p q v ∧ ready m1 G bads) ∨
       (∃ i, r = Some i ∧ i < length G ∧ reports m1 G (Some i)) ∨
       (r = Some (length G) ∧ ¬ has_tri m1 p q v ∧ ready m1 G bads)).
  Proof.
    intros Hr Hw Ht. destruct (Hrt w m G B (p, q, v)) as [Hs|(o & E & m1 & r & -> & Hreach & Hrep)]; [by apply ready_bad|done|done|by left|].
    right. exists m1, r. unfold guarded. rewrite E. cbn [mbind option_bind]. rewrite removelast_last. split; [done|].
    split; [apply (reach_less ea ta ori m B); [|done]; intros b Hb; apply elem_of_app; by left|].
    split; [intros u; apply Hreach; apply elem_of_app; right; by apply elem_of_list_singleton|].
    pose proof Hr as ((Hok & Hrest) & Hg & Hb). destruct (wtri_in_order m w p q v Hok Hw Ht) as (Hnd & _).
    assert (fit m1) as Hf1 by apply Hreach. pose proof Hf1 as (Hok1 & _).
    apply reports_inner in Hrep as [(-> & H1 & H2)|[(i & -> & Hi & H)|(-> & H1 & H2)]].
    - left. split; [done|]. split; [by apply present_tri in H1|]. apply (ready_after m); done.
    - right. left. eauto.
    - right. right. split; [done|]. split; [intros K; by apply H1, present_tri|]. apply (ready_after m); done.
  Qed.

  Definition cover m (l : list N) : Prop := ∀ v, has_tri m p q v → v ∈ l.

  Definition pass_fin m (n0 : nat) (opps : list N) (out : pass_end) : Prop :=
    match out with
    | PReturn o => fin m goals bads own o
    | PContinue m1 g b o n => g = G ∧ b = bads ∧ reach m bads m1 ∧ ready m1 G bads ∧ cover m1 (o ++ n) ∧ NoDup (o ++ n) ∧ length (o ++ n) ≤ 3
    | PEmpty m1 g b n => g = G ∧ b = bads ∧ reach m bads m1 ∧ ready m1 G bads ∧ cover m1 n ∧ NoDup n ∧ length n ≤ n0 ∧
        (length n = n0 → (∀ v, v ∈ opps → has_tri m p q v) ∧ (opps ≠ [] → ∀ v, list.last n = Some v → has_tri m1 p q v))
    end.

  Lemma pass_ok opps : ∀ m next, ready m G bads → cover m (opps ++ next) → NoDup (opps ++ next) →
    stuck m ∨ ∃ out, pass rt (p, q) m G bads opps next = Some out ∧ pass_fin m (length opps + length next) opps out.
  Proof.
    induction opps as [|v opps IH]; intros m next Hr Hc Hnd.
    { right. eexists. split; [done|]. do 2 (split; [done|]). split; [apply reach_refl, Hr|]. split; [done|].
      split; [done|]. split; [done|]. split; [done|]. intros _. split; [|done]. intros v Hv. by apply elem_of_nil in Hv. }
    cbn [pass fst snd]. pose proof Hr as ((Hok & Htr & Hth) & _). cbn in Hnd. apply stdpp.list.NoDup_cons in Hnd as [Hv Hnd].
    assert (∀ m1, reach m bads m1 → ready m1 G bads → (∀ u, has_tri m1 p q u → has_tri m p q u) → ¬ has_tri m1 p q v →
      ¬ (length (opps ++ next) ≤ 3) → stuck m ∨ ∃ out, pass rt (p, q) m1 G bads opps next = Some out ∧ pass_fin m (S (length opps + length next)) (v :: opps) out) as Hskip.
    { intros m1 Hreach Hr1 Hsub Hn Hlen. destruct (IH m1 next Hr1) as [Hs|(out & E & Ho)]; [|done|left; by eapply stuck_back|].
      { intros u Hu. specialize (Hc u (Hsub u Hu)). cbn in Hc. apply elem_of_cons in Hc as [->|]; done. }
      right. exists out. split; [done|]. destruct out as [o|m2 g b o n|m2 g b n]; cbn in *.
      - by eapply fin_back.
      - destruct Ho as (? & ? & H & ?). split; [done|]. split; [done|]. split; [by eapply reach_trans|done].
      - destruct Ho as (? & ? & H & ? & ? & ? & ? & _). do 2 (split; [done|]). split; [by eapply reach_trans|].
        do 3 (split; [done|]). split; lia. }
    destruct (tri_dec m p q v) as [Hpres|Hpres].
    2:{ rewrite (no_tri_walker m p q v Hok Htr Hpres). cbn [mbind option_bind]. destruct (decide _) as [Hl|Hl].
      - right. eexists. split; [done|]. do 2 (split; [done|]). split; [apply reach_refl, Hr|]. split; [done|].
        assert (reverse opps ++ next ≡ₚ opps ++ next) as Hp by (by rewrite reverse_Permutation).
        split; [|split; [by rewrite Hp|rewrite Hp, app_length; lia]].
        intros u Hu. rewrite Hp. specialize (Hc u Hu). cbn in Hc. apply elem_of_cons in Hc as [->|]; done.
      - apply Hskip; [apply reach_refl, Hr|done|done|done|]. rewrite app_length. lia. }
    destruct (tri_walker m p q v Hok Htr Hpres) as (w & d & E & _ & Hw & Ew). rewrite E. cbn [mbind option_bind]. clear E.
    destruct (guarded_ok m w v Hr Hw (wverts_tri _ _ _ _ _ _ Ew)) as [Hs|(m1 & r & E & Hreach & Hsub & Hcase)]; [by left|].
    rewrite E. cbn [mbind option_bind].
    destruct Hcase as [(-> & Hv1 & Hr1)|[(i & -> & Hi & Hrep)|(-> & Hv1 & Hr1)]].
    - assert (opps ++ next ++ [v] ≡ₚ v :: opps ++ next) as Hp by (rewrite !app_assoc; symmetry; apply Permutation_cons_append).
      assert (NoDup (opps ++ next ++ [v])) as Hnd1 by (rewrite Hp; by apply stdpp.list.NoDup_cons).
      assert (cover m1 (opps ++ next ++ [v])) as Hc1 by (intros u Hu; rewrite Hp; by apply Hc, Hsub).
      destruct (decide _) as [Hl|Hl].
      + right. eexists. split; [done|]. do 2 (split; [done|]). split; [done|]. split; [done|].
        assert (reverse opps ++ next ++ [v] ≡ₚ opps ++ next ++ [v]) as Hp' by (by rewrite reverse_Permutation).
        split; [intros u Hu; rewrite Hp'; by apply Hc1|]. split; [by rewrite Hp'|]. rewrite Hp', app_length. lia.
      + destruct (IH m1 (next ++ [v]) Hr1 Hc1 Hnd1) as [Hs|(out & E' & Ho)]; [left; by eapply stuck_back|].
        right. exists out. split; [done|]. rewrite app_length in Ho. cbn in Ho. destruct out as [o|m2 g b o n|m2 g b n]; cbn in *.
        * by eapply fin_back.
        * destruct Ho as (? & ? & H & ?). split; [done|]. split; [done|]. split; [by eapply reach_trans|done].
        * destruct Ho as (? & ? & H & ? & ? & ? & Hle & Hall). do 2 (split; [done|]). split; [by eapply reach_trans|].
          do 3 (split; [done|]). split; [lia|]. intros Hn. destruct Hall as [Ha Hb]; [lia|]. split.
          -- intros u [->|Hu]%elem_of_cons; [done|]. by apply Hsub, Ha.
          -- intros _ u Hu. destruct opps as [|u0 opps]; [|by apply Hb].
             cbn in E'. injection E' as <- <- <- <-. rewrite last_snoc in Hu. injection Hu as <-. done.
    - right. assert (Nat.ltb i (length G) = true) as -> by (by apply Nat.ltb_lt). eexists. split; [done|].
      rewrite removelast_last. exists m1, (Some i). done.
    - assert (Nat.ltb (length G) (length G) = false) as -> by (apply Nat.ltb_irrefl).
      destruct (decide _) as [Hl|Hl].
      + right. eexists. split; [done|]. do 2 (split; [done|]). split; [done|]. split; [done|].
        assert (reverse opps ++ next ≡ₚ opps ++ next) as Hp by (by rewrite reverse_Permutation).
        split; [|split; [by rewrite Hp|rewrite Hp, app_length; lia]].
        intros u Hu. rewrite Hp. specialize (Hc u (Hsub u Hu)). cbn in Hc. apply elem_of_cons in Hc as [->|]; done.
      + apply Hskip; [done|done|done|done|]. rewrite app_length. lia.
  Qed.

  Lemma own_facts m : ready m G bads → ready m goals bads ∧ present m own ∧ in_order own.
  Proof.
    intros (Hf & Hg & _). split; [|apply Hg, elem_of_app; right; by apply elem_of_list_singleton].
    split; [done|]. split; [|done]. intros g Hin. apply Hg, elem_of_app. by left.
  Qed.

  Lemma same_tri a b c : NoDup [a; b; c] → sorted_3 (a, b, c) = sorted_3 (b, c, a).
  Proof.
    intros H. pose proof H as (?&?&?)%nodup3. apply sorted3_same; [done|apply nodup3; split; [congruence|split; congruence]|].
    intros v. rewrite ?elem_of_cons, ?elem_of_nil. clear. tauto.
  Qed.

  (** The 4-to-4 flips. *)
  Lemma try44_ok m w r1 r2 r3 : ready m G bads → ¬ locked_edge m p q → valid m w → w_pair m w = Some (p, q) →
    ring_next m w = Some r1 → ring_next m r1 = Some r2 → ring_next m r2 = Some r3 → ring_next m r3 = Some w → r2 ≠ w →
    stuck m ∨ ∃ a, try44 ea ta ori m G bads w r1 r2 r3 = Some a ∧ match a with None => True | Some o => fin m goals bads own o end.
  Proof.
    intros Hr Hnl Hw Hp R1 R2 R3 R4 Hne. pose proof Hr as (Hf & _). pose proof Hf as (Hok & Htr & Hth).
    destruct (wverts_of_pair m w p q Hw Hp) as (x & y & Ew).
    destruct (ring_info m w r1 _ _ _ _ Hok Hw Ew R1) as (V1 & (z & E1)).
    destruct (ring_info m r1 r2 _ _ _ _ Hok V1 E1 R2) as (V2 & (u & E2)).
    destruct (ring_info m r2 r3 _ _ _ _ Hok V2 E2 R3) as (V3 & (x' & E3)).
    destruct (walker_accessors m w _ _ _ _ Ew) as (A1 & A2 & A3 & A4 & _).
    destruct (walker_accessors m r2 _ _ _ _ E2) as (_ & _ & C3 & C4 & _).
    destruct (locked_ex m w Hw) as (l0 & L0), (locked_ex m r1 V1) as (l1 & L1), (locked_ex m r2 V2) as (l2 & L2), (locked_ex m r3 V3) as (l3 & L3).
    unfold try44. rewrite A1, C3, A2, A3, C4, A4, L0, L1, L2, L3. cbn [mbind option_bind].
    match goal with |- context[if ?b then _ else _] => destruct b eqn:Ec end; [|right; by eexists].
    rewrite !andb_true_iff, !negb_true_iff, !Z.ltb_lt in Ec.
    destruct Ec as (((((((((((((Hn & H1) & H2) & H3) & H4) & H5) & ->) & ->) & ->) & ->) & O1) & O2) & O3) & O4).
    assert (wants44 ea ta ori m w p q x y z u) as Hwant.
    { split; [done|]. split; [done|]. split; [|done]. exists r1, r2, r3. do 5 (split; [done|]). split; [by eapply wverts_fourth|]. done. }
    destruct (joined_dec m x z) as [Hj|Hj]; [left; exists m; split; [done|eapply clash44; eauto]|].
    destruct (room_dec m 1 1) as [Hroom|Hroom]; [|left; exists m; split; [done|eapply clash44; eauto]].
    destruct (do44 ea ta ori m w p q x y z u Hf Hwant Hj Hroom) as (m' & ws & E & Hk & He). rewrite E. cbn [mbind option_bind].
    destruct (own_facts m Hr) as (Hr0 & Hp0 & Ho0). right.
    assert (search_flip ea ta ori m m') as Hsf by (by eapply sf44).
    destruct (flip_good ea ta ori m m' goals bads own [STri (sorted_3 (p, q, x)); STri (sorted_3 (p, q, y)); STri (sorted_3 (p, q, z)); STri (sorted_3 (p, q, u))] _ _ Hr0 Hp0 Ho0 Hsf Hk He Hn) as (o & Eo & Ho); [done|].
    rewrite Eo. cbn. by exists (Some o).
  Qed.

  Lemma last_resort_ok m w ring : ready m G bads → ¬ locked_edge m p q → valid m w → w_pair m w = Some (p, q) → ring_list m w = Some ring →
    stuck m ∨ ∃ o, last_resort ea ta ori m G bads ring = Some o ∧ fin m goals bads own o.
  Proof.
    intros Hr Hnl Hw Hp El. pose proof Hr as (Hf & _). pose proof Hf as (Hok & Htr & Hth).
    destruct (ring_walk m w p q Hok Hth Hw Hp) as (l & El' & Hrt' & Hset & _ & Hnd & _). rewrite El in El'. injection El' as <-.
    pose proof (give_up' m Hr) as Hgive.
    destruct ring as [|w' [|r1 [|r2 [|r3 [|]]]]]; try (right; eexists; split; [reflexivity|exact Hgive]).
    destruct Hrt' as (H0 & Hn & _). injection H0 as ->.
    pose proof (Hn 0 w eq_refl) as R1. pose proof (Hn 1 r1 eq_refl) as R2. pose proof (Hn 2 r2 eq_refl) as R3. pose proof (Hn 3 r3 eq_refl) as R4. cbn in R1, R2, R3, R4.
    apply NoDup4 in Hnd as (N1 & N2 & N3 & N4 & N5 & N6). cbn in N1, N2, N3, N4, N5, N6.
    cbn [last_resort].
    destruct (try44_ok m w r1 r2 r3 Hr Hnl Hw Hp R1 R2 R3 R4) as [Hs|(a & E & Ha)]; [congruence|by left|].
    rewrite E. cbn [mbind option_bind]. destruct a as [o|]; [right; by exists o|].
    assert (valid m r1 ∧ w_pair m r1 = Some (p, q)) as [Hv1 Hp1] by (apply Hset; rewrite ?elem_of_cons; tauto).
    destruct (try44_ok m r1 r2 r3 w Hr Hnl Hv1 Hp1 R2 R3 R4 R1) as [Hs|(b & E' & Hb)]; [congruence|by left|].
    rewrite E'. cbn [mbind option_bind]. right. eexists. split; [done|]. destruct b; [exact Hb|exact Hgive].
  Qed.

  Definition reduce_fin m (out : reduce_end) : Prop :=
    match out with
    | RReturn o => fin m goals bads own o
    | RDone m1 g b o => g = G ∧ b = bads ∧ reach m bads m1 ∧ ready m1 G bads ∧ cover m1 o ∧ NoDup o ∧ length o ≤ 3
    end.
  Lemma reduce_fin_back m m1 out : reach m bads m1 → reduce_fin m1 out → reduce_fin m out.
  Proof.
    intros H. destruct out as [o|m2 g b o]; cbn; [by apply fin_back|]. intros (? & ? & K & ?). do 2 (split; [done|]). split; [by eapply reach_trans|done].
  Qed.

  Lemma reduce_ok fuel : ∀ m opps next, ready m G bads → ¬ locked_edge m p q → cover m (opps ++ next) → NoDup (opps ++ next) →
    2 * length (opps ++ next) + 1 < fuel ∨ (2 * length (opps ++ next) < fuel ∧ ∃ v, v ∈ opps ++ next ∧ ¬ has_tri m p q v) →
    stuck m ∨ ∃ out, reduce ea ta ori fuel rt (p, q) m G bads opps next = Some out ∧ reduce_fin m out.
  Proof.
    induction fuel as [|fuel IH]; intros m opps next Hr Hnl Hc Hnd Hfuel; [exfalso; destruct Hfuel as [?|[? _]]; lia|].
    cbn [reduce]. destruct (decide _) as [Hl|Hl].
    { right. eexists. split; [done|]. do 2 (split; [done|]). split; [apply reach_refl, Hr|]. done. }
    destruct (pass_ok (reverse (opps ++ next)) m [] Hr) as [Hs|(out & E & Ho)].
    { intros v Hv. rewrite app_nil_r. apply elem_of_reverse. by apply Hc. }
    { rewrite app_nil_r. by rewrite reverse_Permutation. }
    { by left. }
    rewrite E. cbn [mbind option_bind]. cbn [length] in Ho. rewrite Nat.add_0_r, reverse_length in Ho.
    assert (∀ m1, reach m bads m1 → ¬ locked_edge m1 p q) as Hnl1.
    { intros m1 (H & _) K. apply Hnl. apply (steps_keep ea ta ori m m1); [apply Hr|done|done]. }
    destruct out as [o|m1 g b o n|m1 g b n]; cbn [pass_fin] in Ho.
    - right. eexists. split; [done|]. exact Ho.
    - destruct Ho as (-> & -> & Hreach & Hr1 & Hc1 & Hnd1 & Hl1).
      destruct (IH m1 o n Hr1 (Hnl1 m1 Hreach) Hc1 Hnd1) as [Hs|(out & E' & Ho)]; [left; destruct Hfuel as [?|[? _]]; lia|left; by eapply stuck_back|].
      right. exists out. split; [done|]. by eapply reduce_fin_back.
    - destruct Ho as (-> & -> & Hreach & Hr1 & Hc1 & Hnd1 & Hl1 & Hall).
      destruct (decide _) as [Heq|Heq].
      + destruct Hall as [Ha Hb]; [done|].
        assert (2 * length (opps ++ next) + 1 < S fuel) as Hfuel'.
        { destruct Hfuel as [?|[_ (v & Hv & Hn)]]; [done|]. destruct Hn. apply Ha. by apply elem_of_reverse. }
        destruct (list.last n) as [v|] eqn:Elast.
        2:{ apply last_None in Elast. subst n. cbn in Heq. lia. }
        cbn [mbind option_bind fst snd].
        assert (has_tri m1 p q v) as Hv.
        { apply Hb; [|done]. intros K. apply (f_equal length) in K. rewrite reverse_length in K. cbn in K. lia. }
        pose proof Hr1 as ((Hok1 & Htr1 & Hth1) & _).
        destruct (tri_walker m1 p q v Hok1 Htr1 Hv) as (w & d & Ewk & _ & Hw & Ew). rewrite Ewk. cbn [mbind option_bind].
        destruct (ring_walk m1 w p q Hok1 Hth1 Hw (wverts_pair _ _ _ _ _ _ Ew)) as (ring & Ering & _ & _ & _ & _ & vs & _ & Hndv & Hlv & Hvs).
        rewrite Ering. cbn [mbind option_bind]. destruct (decide _) as [H3|H3].
        * destruct (IH m1 [] n Hr1 (Hnl1 m1 Hreach) Hc1 Hnd1) as [Hs|(out & E' & Ho)]; [|left; by eapply stuck_back|].
          -- right. cbn [app]. split; [lia|].
             assert (Exists (λ v, ¬ has_tri m1 p q v) n) as Hex.
             { apply Exists_Forall_neg; [intros u; apply tri_dec|]. intros HF. rewrite list.Forall_forall in HF.
               assert (length n ≤ length vs); [|lia]. apply submseteq_length, NoDup_submseteq; [done|]. intros u Hu. by apply Hvs, HF. }
             apply Exists_exists in Hex as (u & ? & ?). eauto.
          -- right. exists out. split; [done|]. by eapply reduce_fin_back.
        * destruct (last_resort_ok m1 w ring Hr1 (Hnl1 m1 Hreach) Hw (wverts_pair _ _ _ _ _ _ Ew) Ering) as [Hs|(o & E' & Ho)]; [left; by eapply stuck_back|].
          right. rewrite E'. eexists. split; [done|]. cbn. by eapply fin_back.
      + destruct (IH m1 [] n Hr1 (Hnl1 m1 Hreach) Hc1 Hnd1) as [Hs|(out & E' & Ho)]; [left; cbn [app]; destruct Hfuel as [?|[? _]]; lia|left; by eapply stuck_back|].
        right. exists out. split; [done|]. by eapply reduce_fin_back.
  Qed.

  Lemma try_tris_ok x y z vs : ∀ m, ready m G bads → (∀ v, has_tri m p q v ↔ v ∈ [x; y; z]) → (∀ v, v ∈ vs → v ∈ [x; y; z]) →
    stuck m ∨ ∃ o, try_tris rt (p, q) m G bads vs = Some o ∧ fin m goals bads own o.
  Proof.
    induction vs as [|v vs IH]; intros m Hr Hxyz Hvs; cbn [try_tris].
    { right. eexists. split; [done|]. by apply give_up'. }
    pose proof Hr as ((Hok & Htr & Hth) & _).
    assert (has_tri m p q v) as Hv by (apply Hxyz, Hvs; left).
    destruct (tri_walker m p q v Hok Htr Hv) as (w & d & _ & E & Hw & Ew). rewrite E. cbn [mbind option_bind].
    destruct (guarded_ok m w v Hr Hw (wverts_tri _ _ _ _ _ _ Ew)) as [Hs|(m1 & r & E' & Hreach & Hsub & Hcase)]; [by left|].
    rewrite E'. cbn [mbind option_bind].
    assert (ready m1 G bads → ∀ u, u ∈ [x; y; z] → has_tri m1 p q u) as Hkeep.
    { intros Hr1. apply (cover_three m1 p q); [apply Hr1|by apply ready_joined| |done]. intros u Hu. by apply Hxyz, Hsub. }
    destruct Hcase as [(-> & Hv1 & Hr1)|[(i & -> & Hi & Hrep)|(-> & Hv1 & Hr1)]].
    - destruct (IH m1 Hr1) as [Hs|(o & Eo & Ho)].
      + intros u. split; [intros Hu; by apply Hxyz, Hsub|by apply Hkeep].
      + intros u Hu. apply Hvs. by right.
      + left. by eapply stuck_back.
      + right. exists o. split; [done|]. by eapply fin_back.
    - right. eexists. split; [done|]. rewrite removelast_last. exists m1, (Some i). done.
    - exfalso. apply Hv1, Hkeep; [done|]. apply Hvs. left.
  Qed.

  Lemma finish_ok m opps : ready m G bads → ¬ locked_edge m p q → cover m opps → NoDup opps → length opps ≤ 3 →
    stuck m ∨ ∃ o, finish ta ori rt (p, q) m G bads opps = Some o ∧ fin m goals bads own o.
  Proof.
    intros Hr Hnl Hc Hnd Hl. pose proof Hr as (Hf & _). pose proof Hf as (Hok & Htr & Hth).
    destruct (cover_three m p q opps Hf (ready_joined m Hr) Hc Hl) as [H3 Hall].
    unfold finish. destruct (decide _) as [_|Hn]; [|done].
    destruct (list.last opps) as [x|] eqn:El; [|apply last_None in El; by subst opps]. cbn [mbind option_bind].
    assert (has_tri m p q x) as Hx.
    { apply Hall. rewrite last_lookup in El. apply elem_of_list_lookup. eauto. }
    destruct (tri_walker m p q x Hok Htr Hx) as (w & y & _ & E & Hw & Ew). rewrite E. cbn [mbind option_bind].
    destruct (ring_of_three m w p q x y Hf Hw Ew opps) as (r1 & r2 & z & R1 & R2 & R3 & V1 & V2 & E1 & E2 & Hxyz); [|done|done|].
    { intros v. split; [apply Hc|apply Hall]. }
    rewrite R1. cbn [mbind option_bind]. rewrite R2. cbn [mbind option_bind].
    rewrite (proj1 (proj2 (proj2 (proj2 (proj2 (proj2 (walker_accessors m w _ _ _ _ Ew))))))). cbn [mbind option_bind].
    rewrite (wverts_fourth _ _ _ _ _ _ E1). cbn [mbind option_bind].
    destruct (_ || _) eqn:Eo.
    { apply (try_tris_ok x y z); done. }
    apply orb_false_iff in Eo as [O1%Z.leb_gt O2%Z.leb_gt].
    destruct (locked_ex m w Hw) as (l0 & L0), (locked_ex m r1 V1) as (l1 & L1), (locked_ex m r2 V2) as (l2 & L2). rewrite L0, L1, L2. cbn [mbind option_bind].
    destruct (_ && _) eqn:Ec; [|right; eexists; split; [done|by apply give_up']].
    rewrite !andb_true_iff, !negb_true_iff in Ec. destruct Ec as ((((Hn & H1) & ->) & ->) & ->).
    assert (wants32 ta ori m w p q x y z) as Hwant.
    { split; [done|]. split; [done|]. split; [|done]. exists r1, r2. split; [done|]. split; [by eapply wverts_fourth|]. done. }
    destruct (tri_dec m x y z) as [Ht|Ht]; [left; exists m; split; [done|eapply clash32; eauto]|].
    destruct (do32 ea ta ori m w p q x y z Hf Hwant Ht) as (m' & ws & E' & Hk & He). rewrite E'. cbn [mbind option_bind].
    destruct (own_facts m Hr) as (Hr0 & Hp0 & Ho0). right.
    assert (∀ v, has_tri m p q v → sorted_3 (v, p, q) = sorted_3 (p, q, v)) as Hrot.
    { intros v [Hnv _]%tri_covers; [|done]. apply same_tri. apply nodup3 in Hnv as (?&?&?). apply nodup3. split; [congruence|]. split; congruence. }
    rewrite (Hrot x), (Hrot y), (Hrot z) by (apply Hxyz; rewrite ?elem_of_cons; tauto).
    eapply (flip_good ea ta ori m m' goals bads own _ _ _ Hr0 Hp0 Ho0); [by eapply sf32|done|exact He|done|done].
  Qed.
End edge.

Section depth.
  Context {V T : Type}.
  Implicit Types (m : mesh V T) (w : walker) (goals : list simplex) (bads : list (N * N)).
  Context (ea : mesh V T → N * N → bool) (ta : mesh V T → N * N * N → bool) (ori : mesh V T → N → N → N → N → Z).

  Lemma edge_unlocked m w p q : mesh_ok m → valid m w → w_pair m w = Some (p, q) → w_edge_locked m w = Some false → ¬ locked_edge m p q.
  Proof.
    intros Hok Hw Hp El (e & ue & E1 & E2 & E3). destruct (ok_edge m Hok w p q Hw Hp) as (e' & ue' & F1 & F2 & F3).
    unfold w_edge_locked in El. rewrite F1 in El. cbn in El. rewrite F2 in El. cbn in El.
    assert (e = e') as -> by (apply (ok_edge_unique m Hok e e' ue ue'); [done|done|congruence]). congruence.
  Qed.

  Lemma edge_body rt : tri_spec ea ta ori rt → edge_spec ea ta ori (remove_edge_body ea ta ori rt).
  Proof.
    intros Hrt w m goals bads [p q] Hr Hw Hp. pose proof Hr as ((Hok & Htr & Hth) & Hg & Hb).
    destruct (wpair_in_order m w p q Hok Hw Hp) as (Hpq & Hio & Hpres).
    unfold remove_edge_body. destruct (elocked_total m Hok w Hw) as (l & El). rewrite El. cbn [mbind option_bind].
    destruct l; [right; eexists; split; [done|by apply give_up]|].
    rewrite Hp. cbn [mbind option_bind].
    destruct (ring_walk m w p q Hok Hth Hw Hp) as (ring & -> & _ & _ & _ & _ & vs & Evs & Hndv & Hlv & Hvs). cbn [mbind option_bind].
    rewrite Evs. cbn [mbind option_bind].
    pose proof (edge_unlocked m w p q Hok Hw Hp El) as Hnl.
    pose proof (ready_more m goals bads _ Hr Hpres Hio) as Hr1.
    destruct (reduce_ok ea ta ori rt Hrt p q goals bads Hpq Hb (2 * length vs + 4) m vs [] Hr1 Hnl) as [Hs|(out & -> & Ho)].
    - intros v Hv. rewrite app_nil_r. by apply Hvs.
    - by rewrite app_nil_r.
    - left. rewrite app_nil_r. lia.
    - by left.
    - cbn [mbind option_bind]. destruct out as [o|m1 g b o]; [right; by exists o|].
      destruct Ho as (-> & -> & Hreach & Hr2 & Hc & Hnd & Hl).
      eapply good_back; [done|]. apply finish_ok; try done.
      intros K. apply Hnl. apply (steps_keep ea ta ori m m1); [apply Hr|apply Hreach|done].
  Qed.

  Lemma search_ok depth : edge_spec ea ta ori (remove_edge ea ta ori depth) ∧ tri_spec ea ta ori (remove_tri ea ta ori depth).
  Proof.
    induction depth as [|depth [IHe IHt]].
    - split.
      + intros w m goals bads [p q] Hr Hw Hp. right. eexists. split; [done|]. apply give_up; [done|]. destruct Hr as ((Hok & _) & _). by apply (wpair_in_order m w).
      + intros w m goals bads [[a b] c] Hr Hw Hp. right. eexists. split; [done|]. apply give_up; [done|]. destruct Hr as ((Hok & _) & _). by apply (wtri_in_order m w).
    - split; [by apply edge_body|by apply tri_body].
  Qed.
End depth.
