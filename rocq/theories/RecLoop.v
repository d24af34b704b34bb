(** The loops that remove the elements in the way. *)
From stdpp Require Import base numbers list gmap option relations.
From Coq Require Import NArith ZArith Lia.
From Verif Require Import IdMapModel WalkerModel WalkerSpec MeshModel MeshSpec FlipSpec HistSpec UtilModel IterModel IterLookup MeshOps Reach QualModel QualProofs
  ProgModel ProgSpec ProgBase ProgStep ProgRing ProgOk ProgEdge PropProg RecModel RecSpec RecBase.
Local Open Scope nat_scope.

Section loop.
  Context {V T : Type}.
  Implicit Types (m : mesh V T) (w : walker) (g : simplex).
  Context (G : geometry V T) (ea : mesh V T → N * N → bool) (ta : mesh V T → N * N * N → bool).
  Notation SF := (search_flip ea ta (g_ori G)).
  Definition jam m : Prop := ∃ m1, rtc SF m m1 ∧ clash ea ta (g_ori G) m1.
  Definition avoids m g : Prop := ∀ m1, rtc SF m m1 → ¬ approved ea ta m1 g.

  (** The element can be looked up. *)
  Definition findable m g : Prop := match g with SEdge e => e.1 ≠ GHOST ∧ attached m e.1 | STri _ => True end.

  Lemma jam_back m m1 : rtc SF m m1 → jam m1 → jam m.
  Proof. intros H (m2 & H1 & H2). exists m2. split; [by etrans|done]. Qed.
  Lemma avoids_on m m1 g : rtc SF m m1 → avoids m g → avoids m1 g.
  Proof. intros H Ha m2 H2. apply Ha. by etrans. Qed.
  Lemma findable_on m m1 g : fit m → rtc SF m m1 → findable m g → findable m1 g.
  Proof.
    intros Hf H. destruct g as [e|t]; [|done]. intros [H1 H2]. split; [done|]. by apply (kp_att _ _ (steps_keep _ _ _ m m1 Hf H)).
  Qed.
  Lemma listed_findable m l g : mesh_ok m → listed m l → g ∈ l → findable m g.
  Proof.
    intros Hok Hl Hg. destruct (Hl g Hg) as [Hp Hn]. destruct g as [[a b]|t]; [|done]. split; [done|]. cbn in *.
    destruct Hp as (w & Hw & Ep). exists w. split; [done|]. unfold w_pair in Ep. destruct (w_first m w); [|done]. cbn in Ep.
    destruct (w_second m w); [|done]. cbn in Ep. congruence.
  Qed.

  Lemma attempt_ok depth m g : fit m → findable m g →
    jam m ∨ ∃ m1 ok, attempt G ea ta depth m g = Some (m1, ok) ∧ rtc SF m m1 ∧ fit m1 ∧
      ((ok = true ∧ ¬ present m1 g) ∨ (ok = false ∧ present m1 g)).
  Proof.
    intros Hf Hl. pose proof Hf as (Hok & Htr & Hth). destruct g as [[a b]|[[a b] c]]; cbn [attempt present].
    - destruct Hl as [Hg Ha]. cbn [fst snd] in *. destruct (edge_lookup m a b Hok Ha Hg) as [(Hj & w & -> & Hw & Ep)|(Hn & ->)]; cbn [mbind option_bind].
      2:{ right. exists m, true. split; [done|]. split; [done|]. split; [done|]. by left. }
      destruct (C34_recover_call ea ta (g_ori G) depth m w a b Hf Hw Ep) as [Hj'|(m1 & r & -> & H1 & H2 & H3)]; [by left|]. cbn [mbind option_bind].
      right. destruct H3 as [[-> H3]|[-> H3]]; eexists m1, _; (split; [done|]); eauto.
    - destruct (tri_lookup m (a, b, c) Hok Htr) as [(_ & w & E & Hw & Ep)|(Hn & E)].
      + unfold walker_from_tri. rewrite Htr, E. cbn [mbind option_bind].
        destruct (C34_recover_call_tri ea ta (g_ori G) depth m w a b c Hf Hw Ep) as [Hj'|(m1 & r & -> & H1 & H2 & H3)]; [by left|]. cbn [mbind option_bind].
        right. destruct H3 as [[-> H3]|[-> H3]]; eexists m1, _; (split; [done|]); eauto.
      + unfold walker_from_tri. rewrite Htr, E. cbn [mbind option_bind]. right. exists m, true. split; [done|]. split; [done|]. split; [done|]. by left.
  Qed.

  (** [stubborn] is empty or starts with an element of the mesh. *)
  Definition blocked m (st : list simplex) : Prop := match st with [] => True | g :: _ => present m g end.

  Lemma drain_ok depth st : ∀ m, fit m → (∀ g, g ∈ st → findable m g) →
    jam m ∨ ∃ m1 pre st1, drain (attempt G ea ta depth) st m = Some (m1, st1) ∧ rtc SF m m1 ∧ fit m1 ∧ st = pre ++ st1 ∧
      (∀ g, g ∈ pre → avoids m g → ¬ present m1 g) ∧ blocked m1 st1.
  Proof.
    induction st as [|g st IH]; intros m Hf Hl; cbn [drain].
    { right. exists m, [], []. do 4 (split; [done|]). split; [|done]. intros g Hg. by apply elem_of_nil in Hg. }
    destruct (attempt_ok depth m g Hf (Hl g ltac:(left))) as [Hj|(m1 & ok & -> & H1 & H2 & H3)]; [by left|]. cbn [mbind option_bind].
    destruct H3 as [[-> Hn]|[-> Hp]].
    - destruct (IH m1 H2) as [Hj|(m2 & pre & st1 & -> & K1 & K2 & -> & K3 & K4)].
      { intros g' Hg'. apply (findable_on m m1); [done|done|]. apply Hl. by right. }
      { left. by eapply jam_back. }
      right. exists m2, (g :: pre), st1. split; [done|]. split; [by etrans|]. split; [done|]. split; [done|]. split; [|done].
      intros g' [->|Hg']%elem_of_cons Ha.
      + eapply (stays_away ea ta (g_ori G) m1 m2); [done|done| |done]. by apply (avoids_on m m1).
      + apply K3; [done|]. by apply (avoids_on m m1).
    - right. exists m1, [], (g :: st). do 4 (split; [done|]). split; [|done]. intros g' Hg. by apply elem_of_nil in Hg.
  Qed.

  Lemma sweep_ok depth inters : ∀ m st, fit m → (∀ g, g ∈ inters ++ st → findable m g) → blocked m st →
    jam m ∨ ∃ m1 st1, sweep (attempt G ea ta depth) inters st m = Some (m1, st1) ∧ rtc SF m m1 ∧ fit m1 ∧
      (∀ g, g ∈ st1 → g ∈ inters ++ st) ∧ (∀ g, g ∈ inters ++ st → g ∈ st1 ∨ (avoids m g → ¬ present m1 g)) ∧ blocked m1 st1.
  Proof.
    induction inters as [|g inters IH]; intros m st Hf Hl Hb; cbn [sweep].
    { right. exists m, st. do 4 (split; [done|]). split; [|done]. intros g Hg. by left. }
    destruct (drain_ok depth (g :: st) m Hf) as [Hj|(m1 & pre & st1 & -> & H1 & H2 & H3 & H4 & H5)].
    { intros g' Hg'. apply Hl. apply elem_of_cons in Hg' as [->|Hg']; [by left|]. right. apply elem_of_app. by right. }
    { by left. }
    cbn [mbind option_bind].
    assert (∀ g', g' ∈ st1 → g' ∈ g :: st) as Hsub by (intros g' Hg'; rewrite H3; apply elem_of_app; by right).
    assert (∀ g', g' ∈ inters ++ st1 → g' ∈ (g :: inters) ++ st) as Hsub'.
    { intros g' [Hg'|Hg']%elem_of_app; [right; apply elem_of_app; by left|]. apply Hsub in Hg' as [->|Hg']%elem_of_cons; [left|right; apply elem_of_app; by right]. }
    destruct (IH m1 st1 H2) as [Hj|(m2 & st2 & -> & K1 & K2 & K3 & K4 & K5)].
    { intros g' Hg'. apply (findable_on m m1); [done|done|]. apply Hl. by apply Hsub'. }
    { done. } { left. by eapply jam_back. }
    right. exists m2, st2. split; [done|]. split; [by etrans|]. split; [done|]. split; [intros g' Hg'; by apply Hsub', K3|]. split; [|done].
    intros g' Hg'. assert (g' ∈ inters ++ st1 ∨ g' ∈ pre) as [Hi|Hi].
    { cbn in Hg'. assert (g' ∈ inters ∨ g' ∈ g :: st) as [Hi|Hi].
      { apply elem_of_cons in Hg' as [->|Hg']; [right; left|]. apply elem_of_app in Hg' as [Hg'|Hg']; [by left|right; by right]. }
      - left. apply elem_of_app. by left.
      - rewrite H3 in Hi. apply elem_of_app in Hi as [Hi|Hi]; [by right|left; apply elem_of_app; by right]. }
    - destruct (K4 g' Hi) as [?|K]; [by left|right]. intros Ha. apply K. by apply (avoids_on m m1).
    - right. intros Ha. eapply (stays_away ea ta (g_ori G) m1 m2); [done|done|by apply (avoids_on m m1)|by apply H4].
  Qed.

  (** The whole loop. *)
  Lemma clear_ok depth l m : fit m → listed m l →
    jam m ∨ ∃ m1 st1, sweep (attempt G ea ta depth) (reverse l) [] m = Some (m1, st1) ∧ rtc SF m m1 ∧ fit m1 ∧
      ((st1 = [] ∧ ∀ g, g ∈ l → avoids m g → ¬ present m1 g) ∨ (st1 ≠ [] ∧ ∃ g, g ∈ l ∧ present m1 g)).
  Proof.
    intros Hf Hl. destruct (sweep_ok depth (reverse l) m [] Hf) as [Hj|(m1 & st1 & E & H1 & H2 & H3 & H4 & H5)].
    { intros g Hg. rewrite app_nil_r in Hg. rewrite elem_of_reverse in Hg. apply (listed_findable m l); [apply Hf|done|done]. }
    { done. } { by left. }
    right. exists m1, st1. split; [done|]. split; [done|]. split; [done|]. destruct st1 as [|g st1].
    - left. split; [done|]. intros g Hg. assert (g ∈ reverse l ++ []) as Hg' by (by rewrite app_nil_r, elem_of_reverse). destruct (H4 g Hg') as [H|H]; [by apply elem_of_nil in H|done].
    - right. split; [done|]. exists g. split; [|done]. specialize (H3 g ltac:(left)). rewrite app_nil_r in H3. by rewrite elem_of_reverse in H3.
  Qed.
End loop.
