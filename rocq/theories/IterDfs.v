(** A depth first search with a set of visited keys, and iterators that map another one. *)
From Coq Require Import NArith ZArith Lia.
From stdpp Require Import base numbers list gmap option.
From Verif Require Import UtilModel UtilSpec UtilProofs.
Local Open Scope nat_scope.

Section dfs.
  Context {W : Type} (key : W → option N) (succ : W → list W → option (list W)).
  Implicit Types (vis : gset N) (st : list W).

  Fixpoint gpop vis st : option (option W * (gset N * list W)) :=
    match st with
    | [] => Some (None, (vis, []))
    | w :: st =>
      match key w with
      | None => None
      | Some k =>
        if decide (k ∈ vis) then gpop vis st
        else match succ w st with
             | None => None
             | Some st' => Some (Some w, ({[k]} ∪ vis, st'))
             end
      end
    end.
  Definition gnext (s : gset N * list W) : option (option W * (gset N * list W)) := gpop s.1 s.2.

  Context (P : W → Prop) (kf : W → N) (sl : W → list W) (U : gset N).
  Hypothesis Hkey : ∀ w, P w → key w = Some (kf w) ∧ kf w ∈ U.
  Hypothesis Hsucc : ∀ w st, P w → succ w st = Some (sl w ++ st) ∧ ∀ x, x ∈ sl w → P x.

  Lemma gpop_cases vis st : (∀ w, w ∈ st → P w) →
    (gpop vis st = Some (None, (vis, [])) ∧ ∀ w, w ∈ st → kf w ∈ vis) ∨
    ∃ pre w st', st = pre ++ w :: st' ∧ (∀ x, x ∈ pre → kf x ∈ vis) ∧ kf w ∉ vis ∧
      gpop vis st = Some (Some w, ({[kf w]} ∪ vis, sl w ++ st')).
  Proof.
    induction st as [|w st IH]; intros HP.
    - left. split; [done|]. intros w Hw. by apply elem_of_nil in Hw.
    - destruct (Hkey w) as [Hk _]; [apply HP, elem_of_list_here|]. cbn [gpop]. rewrite Hk.
      destruct (decide (kf w ∈ vis)) as [Hv|Hv].
      + destruct IH as [[E H]|(pre & x & st' & -> & H1 & H2 & E)].
        { intros x Hx. apply HP. by apply elem_of_list_further. }
        * left. split; [done|]. intros x [->|Hx]%elem_of_cons; [done|by apply H].
        * right. exists (w :: pre), x, st'. split; [done|]. split; [|done].
          intros y [->|Hy]%elem_of_cons; [done|by apply H1].
      + right. exists [], w, st. split; [done|]. split; [intros x Hx; by apply elem_of_nil in Hx|].
        split; [done|]. destruct (Hsucc w st) as [-> _]; [apply HP, elem_of_list_here|]. done.
  Qed.

  Lemma gnext_run n : ∀ vis st, (∀ w, w ∈ st → P w) → size (U ∖ vis) ≤ n →
    ∃ l vis', iter_take gnext (S n) (vis, st) = Some (l, (vis', [])) ∧ length l ≤ n ∧
      NoDup (kf <$> l) ∧ (∀ w, w ∈ l → P w ∧ kf w ∉ vis) ∧
      (∀ k, k ∈ vis' ↔ k ∈ vis ∨ k ∈ kf <$> l) ∧
      (∀ w, w ∈ st → kf w ∈ vis') ∧ (∀ w x, w ∈ l → x ∈ sl w → kf x ∈ vis').
  Proof.
    induction n as [|n IH]; intros vis st HP Hn.
    all: destruct (gpop_cases vis st HP) as [[E H]|(pre & w & st' & -> & H1 & H2 & E)].
    - exists [], vis. cbn. unfold gnext. cbn. rewrite E. cbn. split; [done|]. split; [done|]. split; [constructor|].
      split; [intros w Hw; by apply elem_of_nil in Hw|]. split; [|split; [done|intros w x Hw; by apply elem_of_nil in Hw]].
      intros k. rewrite elem_of_nil. tauto.
    - exfalso. destruct (Hkey w) as [_ Hu]; [apply HP, elem_of_app; right; apply elem_of_list_here|].
      assert (size (U ∖ vis) ≠ 0); [|lia]. apply size_non_empty_iff. set_solver.
    - exists [], vis. cbn. unfold gnext. cbn. rewrite E. cbn. split; [done|]. split; [lia|]. split; [constructor|].
      split; [intros w Hw; by apply elem_of_nil in Hw|]. split; [|split; [done|intros w x Hw; by apply elem_of_nil in Hw]].
      intros k. rewrite elem_of_nil. tauto.
    - assert (P w) as Hw by (apply HP, elem_of_app; right; apply elem_of_list_here).
      destruct (Hkey w Hw) as [_ Hu]. destruct (Hsucc w [] Hw) as [_ Hsl].
      destruct (IH ({[kf w]} ∪ vis) (sl w ++ st')) as (l & vis' & Er & Hl & Hnd & HPl & Hvis & Hst & Hcl).
      { intros x [Hx|Hx]%elem_of_app; [by apply Hsl|]. apply HP, elem_of_app. right. by apply elem_of_list_further. }
      { assert (U ∖ ({[kf w]} ∪ vis) ⊂ U ∖ vis) as Hsub%subset_size by set_solver. lia. }
      exists (w :: l), vis'.
      assert (kf w ∈ vis') as Hwv by (apply Hvis; left; set_solver).
      split.
      { change (iter_take gnext (S (S n)) (vis, pre ++ w :: st')) with
          ('(r, s') ← gpop vis (pre ++ w :: st');
             match r with None => Some ([], s') | Some a => '(l, s'') ← iter_take gnext (S n) s'; Some (a :: l, s'') end).
        rewrite E. cbn [mbind option_bind]. rewrite Er. done. }
      split; [cbn; lia|]. split.
      { rewrite fmap_cons. apply NoDup_cons_2; [|done]. intros (x & Hx & Hxl)%elem_of_list_fmap.
        destruct (HPl x Hxl) as [_ Hx']. apply Hx'. set_solver. }
      split.
      { intros x [->|Hx]%elem_of_cons; [done|]. destruct (HPl x Hx). set_solver. }
      split.
      { intros k. rewrite Hvis, fmap_cons, elem_of_cons. set_solver. }
      split.
      { intros x [Hx|[->|Hx]%elem_of_cons]%elem_of_app; [apply Hvis; left; set_solver|done|].
        apply Hst, elem_of_app. by right. }
      { intros x y [->|Hx]%elem_of_cons Hy; [|by apply (Hcl x)]. apply Hst, elem_of_app. by left. }
  Qed.

  Lemma gnext_yields w : P w →
    ∃ l, yields gnext (∅, [w]) (w :: l) ∧ length (w :: l) ≤ size U ∧ NoDup (kf <$> w :: l) ∧ (∀ x, x ∈ w :: l → P x) ∧
      (∀ x y, x ∈ w :: l → y ∈ sl x → kf y ∈ kf <$> w :: l).
  Proof.
    intros Hw. destruct (gnext_run (size U) ∅ [w]) as (l & vis' & E & Hl & Hnd & HP & Hvis & Hst & Hcl).
    { intros x Hx. apply elem_of_list_singleton in Hx. by subst. }
    { apply subseteq_size. set_solver. }
    destruct (Hkey w Hw) as [Hk Hu]. destruct (Hsucc w [] Hw) as [Hs _].
    assert (head l = Some w) as Hh.
    { cbn in E. unfold gnext at 1 in E. cbn in E. rewrite Hk in E. rewrite decide_False in E by set_solver. rewrite Hs in E.
      cbn in E. destruct (iter_take _ (size U) ({[kf w]} ∪ ∅, sl w ++ [])) as [[??]|]; [|done]. cbn in E. by injection E as <- _. }
    destruct l as [|w' l]; [done|]. injection Hh as ->. exists l. split.
    { eapply yields_intro; [exact E|lia| |]; unfold gnext; cbn; [by intros s1 [= <-]|eauto]. }
    split; [done|]. split; [done|]. split; [by intros x [??]%HP|].
    intros x y Hx Hy. destruct (proj1 (Hvis (kf y)) (Hcl x y Hx Hy)) as [?|?]; [set_solver|done].
  Qed.
End dfs.

Section ext.
  Context {St A : Type} (next next' : St → option (option A * St)).
  Lemma iter_take_ext n s : (∀ s, next s = next' s) → iter_take next n s = iter_take next' n s.
  Proof.
    intros H. revert s. induction n as [|n IH]; intros s; cbn; [done|]. rewrite H.
    destruct (next' s) as [[[a|] s']|]; cbn; try done. by rewrite IH.
  Qed.
End ext.

Section map.
  Context {St A B : Type} (next : St → option (option A * St)) (next' : St → option (option B * St)) (f : A → option B).
  Hypothesis Hn : ∀ s, next' s = match next s with
    | None => None
    | Some (None, s') => Some (None, s')
    | Some (Some a, s') => match f a with None => None | Some b => Some (Some b, s') end
    end.
  Lemma yields_map s l (g : A → B) : yields next s l → (∀ a, a ∈ l → f a = Some (g a)) → yields next' s (g <$> l).
  Proof.
    intros Hy Hf n. destruct (Hy n) as (s' & E). exists s'. clear Hy. revert s l Hf E.
    induction n as [|n IH]; intros s l Hf E; cbn in *.
    - by injection E as <-.
    - rewrite Hn. destruct (next s) as [[[a|] s1]|]; cbn in *; [|destruct l; [by injection E as <-|done]|done].
      destruct (iter_take next n s1) as [[l1 s2]|] eqn:E1; [|done]. cbn in E.
      destruct l as [|a' l]; cbn in E; [done|]. injection E as -> E2 <-. rewrite Hf by apply elem_of_list_here. cbn.
      rewrite (IH s1 l); [done| |by rewrite E1, E2]. intros x Hx. apply Hf. by apply elem_of_list_further.
  Qed.
End map.
