(** Proofs about iterators, circular lists and sorting. *)
From Coq Require Import NArith Lia Sorted.
From stdpp Require Import base numbers list option sorting.
From Verif Require Import IdMapModel UtilModel UtilSpec.
Local Open Scope nat_scope.

Section iter.
  Context {St A : Type} (next : St → option (option A * St)).

  Lemma take_app_run n k s l s' : iter_take next n s = Some (l, s') → length l = n →
    iter_take next (n + k) s = '(l', s'') ← iter_take next k s'; Some (l ++ l', s'').
  Proof.
    revert s l. induction n as [|n IH]; intros s l H Hl; cbn in *.
    - injection H as <- <-. by destruct (iter_take next k s) as [[]|].
    - destruct (next s) as [[r s1]|]; [|done]. cbn [mbind option_bind] in *. destruct r as [a|].
      + destruct (iter_take next n s1) as [[l1 s2]|] eqn:E; [|done]. cbn [mbind option_bind] in H. injection H as <- <-.
        cbn in Hl. rewrite (IH s1 l1 E) by lia. destruct (iter_take next k s2) as [[]|]; done.
      + injection H as <- <-. done.
  Qed.

  (** Enough: the items come out one by one, and then [None] again and again. *)
  Lemma yields_intro s l s' n : iter_take next n s = Some (l, s') → length l < n →
    (∀ s1, next s' = Some (None, s1) → s1 = s') → (∃ s1, next s' = Some (None, s1)) →
    yields next s l.
  Proof.
    intros H Hl Hst Hex k. revert n s l H Hl. induction k as [|k IH]; intros n s l H Hl.
    - exists s. by destruct l.
    - cbn. destruct n as [|n]; [lia|]. cbn in H. destruct (next s) as [[r s1]|] eqn:E; [|done]. cbn [mbind option_bind] in *.
      destruct r as [a|].
      + destruct (iter_take next n s1) as [[l1 s2]|] eqn:E1; [|done]. cbn [mbind option_bind] in H. injection H as <- ->.
        cbn in Hl. destruct (IH n s1 l1 E1 ltac:(lia)) as (s3 & ->). eexists. done.
      + injection H as <- <-. eexists. done.
  Qed.

  Lemma find_map_yields {B} (f : A → option (option B)) (g : A → option B) s l n : yields next s l → length l < n →
    (∀ a, a ∈ l → f a = Some (g a)) →
    iter_find_map next f n s = Some (head (omap g l)).
  Proof.
    intros Hy. revert s n Hy. induction l as [|a l IH]; intros s n Hy Hn Hf; (destruct n as [|n]; [cbn in Hn; lia|]); cbn.
    - destruct (Hy 1) as (s' & E). cbn in E. destruct (next s) as [[[a|] s1]|]; [done| |done]. done.
    - destruct (Hy 1) as (s' & E). cbn in E. destruct (next s) as [[[a'|] s1]|] eqn:En; [|done|done]. cbn [mbind option_bind] in *.
      injection E as -> _. rewrite (Hf a) by left. cbn [mbind option_bind]. destruct (g a) eqn:Ega; [done|].
      apply IH; [|cbn in Hn; lia|intros; apply Hf; by right].
      intros k. destruct (Hy (S k)) as (s2 & E2). cbn in E2. rewrite En in E2. cbn [mbind option_bind] in E2.
      destruct (iter_take next k s1) as [[l2 s3]|]; [|done]. cbn [mbind option_bind] in E2. injection E2 as -> ->. eauto.
  Qed.
End iter.

(** ** Round trips. *)
Section round.
  Context {K : Type} `{EqDecision K} (next : K → option K).

  Lemma round_trip_nodup start l : round_trip next start l → NoDup l.
  Proof.
    intros (H0 & Hn & Hs). apply NoDup_alt.
    (* equal elements have equal distances to the end *)
    assert (∀ d i j x, l !! i = Some x → l !! j = Some x → i < j → j + d = length l → False) as Hd.
    { induction d as [|d IH]; intros i j x Hi Hj Hij Hl.
      - apply lookup_lt_Some in Hj. lia.
      - pose proof (Hn i x Hi) as N1. pose proof (Hn j x Hj) as N2. rewrite N1 in N2. apply (inj Some) in N2.
        destruct (l !! S j) as [y|] eqn:Ey.
        + assert (is_Some (l !! S i)) as [z Ez] by (apply lookup_lt_is_Some; apply lookup_lt_Some in Ey; lia).
          rewrite Ez in N2. cbn in N2. subst z. apply (IH (S i) (S j) y); [done|done|lia|lia].
        + assert (is_Some (l !! S i)) as [z Ez] by (apply lookup_lt_is_Some; apply lookup_lt_Some in Hj; lia).
          rewrite Ez in N2. cbn in N2. subst z. specialize (Hs _ Ez). lia. }
    intros i j x Hi Hj. destruct (decide (i = j)) as [|Hne]; [done|]. exfalso.
    pose proof (lookup_lt_Some _ _ _ Hi). pose proof (lookup_lt_Some _ _ _ Hj).
    destruct (decide (i < j)); [apply (Hd (length l - j) i j x)|apply (Hd (length l - i) j i x)]; done || lia.
  Qed.

  (** A total injective step on a finite set comes back. *)
  Fixpoint orbit (n : nat) (x : K) : list K :=
    match n with 0 => [] | S n => x :: match next x with Some y => orbit n y | None => [] end end.

  Lemma orbit_lookup n x i y : orbit n x !! i = Some y →
    (i = 0 ∧ y = x) ∨ ∃ j z, i = S j ∧ orbit n x !! j = Some z ∧ next z = Some y.
  Proof.
    revert x i. induction n as [|n IH]; intros x i; cbn; [done|]. destruct i as [|i]; cbn.
    - intros [= <-]. by left.
    - intros H. right. destruct (next x) as [x'|] eqn:Ex; [|done]. destruct (IH x' i H) as [[-> ->]|(j & z & -> & Hj & Hz)].
      + exists 0, x. done.
      + exists (S j), z. done.
  Qed.
  Lemma orbit_next n x i y z : orbit n x !! i = Some y → S i < n → next y = Some z → orbit n x !! S i = Some z.
  Proof.
    revert x i. induction n as [|n IH]; intros x i; cbn; [done|]. destruct i as [|i]; cbn.
    - intros [= <-] Hi ->. destruct n; [lia|]. done.
    - intros H Hi Hz. destruct (next x) as [x'|]; [|done]. apply (IH x' i H); [lia|done].
  Qed.

  Context (S : list K) (Hc : ∀ x, x ∈ S → ∃ y, next x = Some y ∧ y ∈ S)
          (Hinj : ∀ x y z, x ∈ S → y ∈ S → next x = Some z → next y = Some z → x = y).

  Lemma orbit_in n x : x ∈ S → ∀ y, y ∈ orbit n x → y ∈ S.
  Proof.
    revert x. induction n as [|n IH]; intros x Hx y; cbn; [by intros ?%elem_of_nil|].
    destruct (Hc x Hx) as (x' & -> & Hx'). intros [->|Hy]%elem_of_cons; [done|]. by apply (IH x').
  Qed.
  Lemma orbit_length n x : x ∈ S → length (orbit n x) = n.
  Proof.
    revert x. induction n as [|n IH]; intros x Hx; cbn; [done|].
    destruct (Hc x Hx) as (x' & -> & Hx'). by rewrite IH.
  Qed.

  Lemma pigeon (l : list K) : (∀ x, x ∈ l → x ∈ S) → length S < length l → ∃ i j x, i < j ∧ l !! i = Some x ∧ l !! j = Some x.
  Proof.
    intros Hin Hlen. destruct (decide (NoDup l)) as [Hnd|Hnd].
    - exfalso. pose proof (submseteq_length l S (NoDup_submseteq l S Hnd Hin)). lia.
    - clear Hin Hlen. induction l as [|x l IH].
      + exfalso. apply Hnd. constructor.
      + destruct (decide (x ∈ l)) as [Hx|Hx].
        * apply elem_of_list_lookup in Hx as [j Hj]. exists 0, (Datatypes.S j), x. split; [lia|done].
        * destruct IH as (i & j & y & Hij & Hi & Hj); [intros Hn; apply Hnd; by constructor|].
          exists (Datatypes.S i), (Datatypes.S j), y. split; [lia|done].
  Qed.

  Lemma return_ex start : start ∈ S → ∃ k, 0 < k ∧ k ≤ length S ∧ orbit (Datatypes.S k) start !! k = Some start.
  Proof.
    intros Hs. destruct (pigeon (orbit (Datatypes.S (length S)) start)) as (i & j & x & Hij & Hi & Hj).
    { by apply orbit_in. }
    { rewrite orbit_length by done. lia. }
    set (n := Datatypes.S (length S)) in *.
    (* pull back to position 0 *)
    assert (∀ d i x, orbit n start !! i = Some x → orbit n start !! (i + d) = Some x → orbit n start !! d = Some start) as Hb.
    { intros d i'. induction i' as [|i' IH]; intros y H1 H2.
      - destruct (orbit_lookup _ _ _ _ H1) as [[_ ->]|(?&?&?&_)]; [exact H2|lia].
      - destruct (orbit_lookup _ _ _ _ H1) as [[? _]|(j1 & z1 & [= <-] & J1 & Z1)]; [lia|].
        destruct (orbit_lookup _ _ _ _ H2) as [[? _]|(j2 & z2 & Ej & J2 & Z2)]; [lia|].
        injection Ej as <-. assert (z1 = z2) as <-; [|by apply (IH z1)].
        apply (Hinj z1 z2 y); [..|done|done]; apply (orbit_in n start Hs); by eapply elem_of_list_lookup_2. }
    specialize (Hb (j - i) i x Hi). replace (i + (j - i)) with j in Hb by lia. specialize (Hb Hj).
    assert (j < n) as Hjn by (apply lookup_lt_Some in Hj; by rewrite orbit_length in Hj).
    exists (j - i). split; [lia|]. split; [unfold n in Hjn; lia|].
    assert (∀ k n x, k ≤ n → x ∈ S → orbit (Datatypes.S k) x !! k = orbit (Datatypes.S n) x !! k) as Hsub.
    { clear -Hc. induction k as [|k IH]; intros n x Hk Hx; [done|]. destruct n as [|n]; [lia|].
      change (match next x with Some y => orbit (Datatypes.S k) y | None => [] end !! k = match next x with Some y => orbit (Datatypes.S n) y | None => [] end !! k).
      destruct (Hc x Hx) as (y & -> & Hy). apply IH; [lia|done]. }
    rewrite (Hsub _ (length S)); [done|unfold n in Hjn; lia|done].
  Qed.

  Lemma round_trip_ex start : start ∈ S →
    ∃ l, round_trip next start l ∧ length l ≤ length S ∧ ∀ x, x ∈ l → x ∈ S.
  Proof.
    intros Hs.
    assert (∃ k, (0 < k ∧ orbit (Datatypes.S k) start !! k = Some start) ∧ k ≤ length S ∧
      ∀ k', k' < k → ¬ (0 < k' ∧ orbit (Datatypes.S k') start !! k' = Some start)) as (k & (Hk & Ek) & Hle & Hmin).
    { destruct (return_ex start Hs) as (k0 & K1 & K2 & K3). revert K1 K2 K3. induction k0 as [k0 IH] using lt_wf_ind. intros K1 K2 K3.
      destruct (decide (Exists (λ k', 0 < k' ∧ orbit (Datatypes.S k') start !! k' = Some start) (seq 0 k0))) as [He|Hn].
      - apply Exists_exists in He as (k' & Hin & H1 & H2). rewrite elem_of_list_In, in_seq in Hin. apply (IH k'); [lia|done|lia|done].
      - exists k0. split; [done|]. split; [done|]. intros k' Hk' H. apply Hn, Exists_exists. exists k'. split; [rewrite elem_of_list_In, in_seq; lia|done]. }
    assert (∀ k n x, k ≤ n → x ∈ S → orbit (Datatypes.S k) x !! k = orbit (Datatypes.S n) x !! k) as Hsub.
    { clear -Hc. induction k as [|k IH]; intros n x Hk Hx; [done|]. destruct n as [|n]; [lia|].
      change (match next x with Some y => orbit (Datatypes.S k) y | None => [] end !! k = match next x with Some y => orbit (Datatypes.S n) y | None => [] end !! k).
      destruct (Hc x Hx) as (y & -> & Hy). apply IH; [lia|done]. }
    assert (∀ n i x, i < n → x ∈ S → orbit n x !! i = orbit (Datatypes.S i) x !! i) as Hsub2.
    { intros n i x Hi Hx. destruct n as [|n]; [lia|]. symmetry. apply Hsub; [lia|done]. }
    exists (orbit k start). split; [|rewrite orbit_length by done; split; [done|by apply orbit_in]]. split; [|split].
    - destruct k; [lia|]. done.
    - intros i x Hi. assert (i < k) as Hik by (apply lookup_lt_Some in Hi; by rewrite orbit_length in Hi).
      assert (x ∈ S) as Hx by (apply (orbit_in k start Hs); by eapply elem_of_list_lookup_2).
      destruct (Hc x Hx) as (y & Hy & _). rewrite Hy. f_equal.
      assert (orbit (Datatypes.S k) start !! Datatypes.S i = Some y) as Hk'.
      { apply (orbit_next _ _ i x y); [|lia|done]. rewrite Hsub2 in Hi by done. rewrite Hsub2 by (done || lia). done. }
      destruct (decide (Datatypes.S i = k)) as [<-|Hne].
      + rewrite Ek in Hk'. injection Hk' as <-. rewrite lookup_ge_None_2; [done|]. by rewrite orbit_length.
      + assert (orbit k start !! Datatypes.S i = Some y) as ->; [|done].
        rewrite Hsub2 by (done || lia). rewrite Hsub2 in Hk' by (done || lia). done.
    - intros i Hi. assert (i < k) as Hik by (apply lookup_lt_Some in Hi; by rewrite orbit_length in Hi).
      destruct i as [|i]; [done|]. exfalso. apply (Hmin (Datatypes.S i) Hik). split; [lia|]. by rewrite Hsub2 in Hi.
  Qed.
End round.

(** ** The circular list iterator. *)
Section circular.
  Context {K A : Type} `{EqDecision K} (value : K → option A) (val : K → A) (next : K → option K).

  Lemma circular_take start l : round_trip next start l → (∀ x, x ∈ l → value x = Some (val x)) →
    ∀ n i, i < length l →
    ∃ it, iter_take (ci_next value next) n (CIter start (default start (l !! i)) false) =
          Some (take n ((λ x, (x, val x)) <$> drop i l), it) ∧
          (length l ≤ i + n → it = CIter start start true).
  Proof.
    intros (H0 & Hn & Hs) Hv. induction n as [|n IH]; intros i Hi.
    - exists (CIter start (default start (l !! i)) false). split; [by rewrite take_0|lia].
    - apply lookup_lt_is_Some in Hi as Hi'. destruct Hi' as [x Hx]. rewrite Hx. cbn [default from_option id iter_take].
      assert (drop i l = x :: drop (S i) l) as Ed by (by apply drop_S).
      assert (ci_next value next (CIter start x false) = Some (Some (x, val x),
        CIter start (default start (l !! S i)) (bool_decide (default start (l !! S i) = start)))) as ->.
      { unfold ci_next. cbn [ci_done ci_key ci_start]. rewrite (Hv x) by (by eapply elem_of_list_lookup_2). cbn [mbind option_bind].
        by rewrite (Hn i x Hx). }
      cbn [mbind option_bind]. rewrite Ed. cbn [fmap list_fmap take].
      destruct (decide (S i < length l)) as [Hlt|Hge].
      + apply lookup_lt_is_Some in Hlt as Hy. destruct Hy as [y Hy]. rewrite bool_decide_eq_false_2.
        2:{ rewrite Hy. cbn. intros ->. specialize (Hs _ Hy). lia. }
        destruct (IH (S i) Hlt) as (it & E & Hit). exists it. rewrite E. cbn [mbind option_bind]. split; [done|]. intros. apply Hit. lia.
      + rewrite (lookup_ge_None_2 l (S i)) by lia. cbn [default from_option id]. rewrite bool_decide_eq_true_2 by done.
        rewrite (drop_ge l (S i)) by lia. cbn [fmap list_fmap]. rewrite take_nil.
        destruct n as [|n]; cbn; eexists; (split; [reflexivity|done]).
  Qed.

  Lemma circular_yields start l : round_trip next start l → (∀ x, x ∈ l → value x = Some (val x)) →
    yields (ci_next value next) (ci_new start) ((λ x, (x, val x)) <$> l).
  Proof.
    intros Hr Hv n. pose proof Hr as (H0 & _). pose proof (lookup_lt_Some _ _ _ H0) as Hl.
    destruct (circular_take start l Hr Hv n 0 Hl) as (it & E & _). rewrite H0, drop_0 in E. cbn in E. exists it. exact E.
  Qed.

  (** As long as the walk has not come back, every call yields an item. *)
  Lemma circular_no_stop start n l : length l = S n → l !! 0 = Some start →
    (∀ i x y, l !! i = Some x → l !! S i = Some y → next x = Some y ∧ y ≠ start) → (∀ x, x ∈ l → value x = Some (val x)) →
    ∃ it, iter_take (ci_next value next) n (ci_new start) = Some ((λ x, (x, val x)) <$> take n l, it) ∧ ci_done it = false.
  Proof.
    intros Hl H0 Hn Hv.
    assert (∀ k i x, i + k = n → l !! i = Some x → ∃ it,
      iter_take (ci_next value next) k (CIter start x false) = Some ((λ x, (x, val x)) <$> take k (drop i l), it) ∧ ci_done it = false) as H.
    { induction k as [|k IH]; intros i x Hk Hi.
      - exists (CIter start x false). by rewrite take_0.
      - assert (is_Some (l !! S i)) as [y Hy] by (apply lookup_lt_is_Some; lia).
        destruct (Hn i x y Hi Hy) as [N1 N2]. cbn [iter_take].
        assert (ci_next value next (CIter start x false) = Some (Some (x, val x), CIter start y false)) as ->.
        { unfold ci_next. cbn [ci_done ci_key ci_start].
          rewrite (Hv x) by (by eapply elem_of_list_lookup_2). cbn [mbind option_bind]. rewrite N1. cbn [mbind option_bind].
          by rewrite bool_decide_eq_false_2 by done. }
        cbn [mbind option_bind]. destruct (IH (S i) y ltac:(lia) Hy) as (it & -> & Hd). exists it. split; [|done].
        cbn [mbind option_bind]. by rewrite (drop_S l x i Hi). }
    destruct (H n 0 start ltac:(lia) H0) as (it & E & Hd). rewrite drop_0 in E. eauto.
  Qed.
End circular.

(** ** Sorting. *)
Section sort.
  Context {A : Type} (key : A → N).
  Lemma insert_key_perm x l : insert_key key x l ≡ₚ x :: l.
  Proof. induction l as [|y l IH]; cbn; [done|]. destruct (key x <=? key y)%N; [done|]. rewrite IH. constructor. Qed.
  Lemma sort_key_perm l : sort_key key l ≡ₚ l.
  Proof. induction l as [|x l IH]; cbn; [done|]. by rewrite insert_key_perm, IH. Qed.

  Lemma insert_key_sorted x l : StronglySorted (λ a b, key a ≤ key b)%N l → StronglySorted (λ a b, key a ≤ key b)%N (insert_key key x l).
  Proof.
    induction 1 as [|y l Hs IH Hf]; cbn; [repeat constructor|]. destruct (N.leb_spec (key x) (key y)).
    - constructor; [by constructor|]. constructor; [done|]. eapply Forall_impl; [exact Hf|]. cbn. intros; lia.
    - constructor; [done|]. rewrite insert_key_perm. constructor; [lia|done].
  Qed.
  Lemma sort_key_sorted l : StronglySorted (λ a b, key a ≤ key b)%N (sort_key key l).
  Proof. induction l as [|x l IH]; cbn; [constructor|]. by apply insert_key_sorted. Qed.

  (** Stability: items with the same key keep their order. *)
  Lemma insert_key_filter k x l : List.filter (λ a, (key a =? k)%N) (insert_key key x l) = List.filter (λ a, (key a =? k)%N) (x :: l).
  Proof.
    induction l as [|y l IH]; cbn; [done|]. destruct (N.leb_spec (key x) (key y)); [done|]. cbn in *. rewrite IH.
    destruct (N.eqb_spec (key x) k), (N.eqb_spec (key y) k); try done. lia.
  Qed.
  Lemma sort_key_stable k l : List.filter (λ a, (key a =? k)%N) (sort_key key l) = List.filter (λ a, (key a =? k)%N) l.
  Proof. induction l as [|x l IH]; cbn; [done|]. rewrite insert_key_filter. cbn. by rewrite IH. Qed.

  (** Items whose tags increase come out in increasing order of key, then tag. *)
  Definition lex_lt (tag : A → N) (a b : A) : Prop := (key a < key b)%N ∨ key a = key b ∧ (tag a < tag b)%N.
  Lemma insert_key_lex tag x l : StronglySorted (lex_lt tag) l → Forall (λ y, tag x < tag y)%N l →
    StronglySorted (lex_lt tag) (insert_key key x l).
  Proof.
    induction 1 as [|y l Hs IH Hf]; intros Ht; cbn; [repeat constructor|]. apply Forall_cons in Ht as [Hy Ht].
    destruct (N.leb_spec (key x) (key y)).
    - constructor; [by constructor|]. constructor; [unfold lex_lt; lia|]. rewrite Forall_forall in Hf, Ht |- *.
      intros z Hz. specialize (Hf z Hz). specialize (Ht z Hz). unfold lex_lt in *. lia.
    - constructor; [by apply IH|]. rewrite insert_key_perm. constructor; [unfold lex_lt; lia|done].
  Qed.
  Lemma sort_key_lex tag l : StronglySorted (λ a b, tag a < tag b)%N l → StronglySorted (lex_lt tag) (sort_key key l).
  Proof.
    induction 1 as [|x l Hs IH Hf]; cbn; [constructor|]. apply insert_key_lex; [done|]. by rewrite sort_key_perm.
  Qed.
End sort.

Section hilbert.
  Context {F V : Type} (leb : F → F → bool) (norm : F → F → F → N) (curve : N * N * N → N).

  Lemma min_by_some l : l ≠ [] → is_Some (min_by leb l).
  Proof. destruct l; [done|]. cbn. eauto. Qed.
  Lemma max_by_some l : l ≠ [] → is_Some (max_by leb l).
  Proof. destruct l; [done|]. cbn. eauto. Qed.
  Lemma fold_min (x : F) l : (∀ a b, leb a b = false → leb b a = true) → (∀ a b c, leb a b = true → leb b c = true → leb a c = true) →
    leb x x = true →
    let m := fold_left (λ m y, if leb m y then m else y) l x in m ∈ x :: l ∧ ∀ y, y ∈ x :: l → leb m y = true.
  Proof.
    intros Ht Htr. revert x. induction l as [|z l IH]; intros x Hx; cbn.
    - split; [by left|]. intros y [->|[]%elem_of_nil]%elem_of_cons. done.
    - assert (leb z z = true) as Hz by (destruct (leb z z) eqn:E; [done|]; by rewrite (Ht _ _ E) in E).
      destruct (leb x z) eqn:E.
      + destruct (IH x Hx) as [H1 H2]. split.
        * apply elem_of_cons in H1 as [->|H1]; [by left|]. right. by right.
        * intros y [->|[->|Hy]%elem_of_cons]%elem_of_cons; [apply H2; by left| |apply H2; by right].
          eapply Htr; [apply H2; by left|done].
      + destruct (IH z Hz) as [H1 H2]. split; [by right|].
        intros y [->|Hy]%elem_of_cons; [|by apply H2]. eapply Htr; [apply H2; by left|by apply Ht].
  Qed.

  Lemma fold_max (x : F) l : (∀ a b, leb a b = false → leb b a = true) → (∀ a b c, leb a b = true → leb b c = true → leb a c = true) →
    leb x x = true →
    let m := fold_left (λ m y, if leb m y then y else m) l x in m ∈ x :: l ∧ ∀ y, y ∈ x :: l → leb y m = true.
  Proof.
    intros Ht Htr. revert x. induction l as [|z l IH]; intros x Hx; cbn.
    - split; [by left|]. intros y [->|[]%elem_of_nil]%elem_of_cons. done.
    - assert (leb z z = true) as Hz by (destruct (leb z z) eqn:E; [done|]; by rewrite (Ht _ _ E) in E).
      destruct (leb x z) eqn:E.
      + destruct (IH z Hz) as [H1 H2]. split; [by right|].
        intros y [->|Hy]%elem_of_cons; [|by apply H2]. eapply Htr; [exact E|apply H2; by left].
      + destruct (IH x Hx) as [H1 H2]. split.
        * apply elem_of_cons in H1 as [->|H1]; [by left|]. right. by right.
        * intros y [->|[->|Hy]%elem_of_cons]%elem_of_cons; [apply H2; by left| |apply H2; by right].
          eapply Htr; [by apply Ht|apply H2; by left].
  Qed.

  (** [number l]: every element with its position. *)
  Lemma enumerate_number {A} (l : list A) : (N.of_nat (length l) ≤ u32_mod)%N →
    enumerate l = imap (λ i x, (N.of_nat i, x)) l.
  Proof.
    intros Hl. apply list_eq. intros i. unfold enumerate. rewrite !list_lookup_imap.
    destruct (l !! i) eqn:E; [|done]. cbn. apply lookup_lt_Some in E. rewrite N.mod_small by lia. done.
  Qed.
  Lemma enumerate_snd {A} (l : list A) : (enumerate l).*2 = l.
  Proof. apply list_eq. intros i. rewrite list_lookup_fmap. unfold enumerate. rewrite list_lookup_imap. by destruct (l !! i). Qed.

  (** [x] is a least / greatest element of [l]. *)
  Definition least (x : F) (l : list F) : Prop := x ∈ l ∧ ∀ y, y ∈ l → leb x y = true.
  Definition greatest (x : F) (l : list F) : Prop := x ∈ l ∧ ∀ y, y ∈ l → leb y x = true.

  Lemma imap_sorted {A} (l : list A) k : StronglySorted (λ a b : N * A, a.1 < b.1)%N (imap (λ i x, (N.of_nat (k + i), x)) l).
  Proof.
    revert k. induction l as [|x l IH]; intros k; cbn; constructor.
    - rewrite (imap_ext _ (λ i x, (N.of_nat (S k + i), x))); [apply IH|]. intros i y _. cbn. f_equal. lia.
    - apply Forall_forall. intros y (i & z & -> & _)%elem_of_lookup_imap. cbn. lia.
  Qed.
  Lemma enumerate_sorted {A} (l : list A) : (N.of_nat (length l) ≤ u32_mod)%N →
    StronglySorted (λ a b : N * A, a.1 < b.1)%N (enumerate l).
  Proof. intros Hl. rewrite (enumerate_number l Hl). exact (imap_sorted l 0). Qed.

  Lemma hilbert_sort_spec (ps : list ((F * F * F) * V)) : (N.of_nat (length ps) ≤ u32_mod)%N →
    (∀ a b, leb a b = false → leb b a = true) → (∀ a b c, leb a b = true → leb b c = true → leb a c = true) →
    match hilbert_sort leb norm curve ps with
    | None => ps = []
    | Some l => ps ≠ [] ∧ l ≡ₚ enumerate ps ∧ ∃ x0 x1 y0 y1 z0 z1,
        least x0 ((λ p, p.1.1.1) <$> ps) ∧ greatest x1 ((λ p, p.1.1.1) <$> ps) ∧
        least y0 ((λ p, p.1.1.2) <$> ps) ∧ greatest y1 ((λ p, p.1.1.2) <$> ps) ∧
        least z0 ((λ p, p.1.2) <$> ps) ∧ greatest z1 ((λ p, p.1.2) <$> ps) ∧
        let key (p : F * F * F) := curve (norm x0 x1 p.1.1, norm y0 y1 p.1.2, norm z0 z1 p.2) in
        StronglySorted (λ a b, key a.2.1 < key b.2.1 ∨ key a.2.1 = key b.2.1 ∧ a.1 < b.1)%N l
    end.
  Proof.
    intros Hlen Ht Htr. unfold hilbert_sort. destruct ps as [|p ps]; [done|].
    assert (∀ f : (F * F * F) * V → F, map (λ p, f p.2) (enumerate (p :: ps)) = f <$> p :: ps) as Hm.
    { intros f. rewrite <- (enumerate_snd (p :: ps)) at 2. rewrite <- list_fmap_compose. done. }
    rewrite (Hm (λ p, p.1.1.1)), (Hm (λ p, p.1.1.2)), (Hm (λ p, p.1.2)). clear Hm.
    assert (∀ f : (F * F * F) * V → F, ∃ x, min_by leb (f <$> p :: ps) = Some x ∧ least x (f <$> p :: ps)) as Hmin.
    { intros f. rewrite fmap_cons. eexists. split; [done|]. apply (fold_min (f p) (f <$> ps)); [done..|].
      destruct (leb (f p) (f p)) eqn:E; [done|]. by rewrite (Ht _ _ E) in E. }
    assert (∀ f : (F * F * F) * V → F, ∃ x, max_by leb (f <$> p :: ps) = Some x ∧ greatest x (f <$> p :: ps)) as Hmax.
    { intros f. rewrite fmap_cons. eexists. split; [done|]. apply (fold_max (f p) (f <$> ps)); [done..|].
      destruct (leb (f p) (f p)) eqn:E; [done|]. by rewrite (Ht _ _ E) in E. }
    set (q := enumerate (p :: ps)) in *.
    destruct (Hmin (λ p, p.1.1.1)) as (x0 & -> & Hx0), (Hmin (λ p, p.1.1.2)) as (y0 & -> & Hy0), (Hmin (λ p, p.1.2)) as (z0 & -> & Hz0),
      (Hmax (λ p, p.1.1.1)) as (x1 & -> & Hx1), (Hmax (λ p, p.1.1.2)) as (y1 & -> & Hy1), (Hmax (λ p, p.1.2)) as (z1 & -> & Hz1).
    cbn [mbind option_bind]. split; [done|]. split; [apply sort_key_perm|].
    exists x0, x1, y0, y1, z0, z1. do 6 (split; [done|]).
    apply (sort_key_lex (λ p : N * ((F * F * F) * V), curve (norm x0 x1 p.2.1.1.1, norm y0 y1 p.2.1.1.2, norm z0 z1 p.2.1.2)) fst).
    by apply enumerate_sorted.
  Qed.

  (** Without any assumption on the comparison. *)
  Lemma hilbert_sort_perm (ps : list ((F * F * F) * V)) :
    match hilbert_sort leb norm curve ps with None => ps = [] | Some l => ps ≠ [] ∧ l ≡ₚ enumerate ps end.
  Proof.
    unfold hilbert_sort. destruct ps as [|p ps]; [done|]. cbn -[sort_key]. split; [done|]. apply sort_key_perm.
  Qed.
End hilbert.
