(** Circular doubly linked lists of ids. *)
From Coq Require Import NArith Lia Sorted.
From stdpp Require Import base numbers list gmap option sorting.
From Verif Require Import IdMapModel IdMapProofs WalkerModel MeshModel UtilModel UtilSpec PlcModel PlcSpec.
Local Open Scope N_scope.

(** ** Id maps without removals. *)
Definition im_alter {A} (m : idmap A) (k : N) (f : A → A) : idmap A := IdMap (alter f k (im_slots m)) (im_npi m) (im_free m).
Definition im_push {A} (m : idmap A) (x : A) : idmap A := IdMap (<[im_npi m := x]> (im_slots m)) (im_npi m + 1) (im_free m).

Lemma im_upd_alter {A} (m : idmap A) k f : is_Some (im_get m k) → im_upd m k f = Some (im_alter m k f).
Proof.
  intros [x Hx]. unfold im_upd. rewrite Hx. cbn [mbind option_bind]. unfold im_set. rewrite Hx. f_equal. unfold im_alter. f_equal.
  apply map_eq. intros j. destruct (decide (j = k)) as [->|Hn].
  - rewrite lookup_insert, lookup_alter. unfold im_get in Hx. by rewrite Hx.
  - by rewrite lookup_insert_ne, lookup_alter_ne.
Qed.
Lemma get_alter {A} (m : idmap A) k f j : im_get (im_alter m k f) j = if decide (j = k) then f <$> im_get m j else im_get m j.
Proof. unfold im_get, im_alter. cbn. destruct (decide (j = k)) as [->|Hn]; [apply lookup_alter|by rewrite lookup_alter_ne]. Qed.
Lemma fmap_alter {A B} (g : A → B) (m : idmap A) k f j :
  g <$> im_get (im_alter m k f) j = if decide (j = k) then (λ x, g (f x)) <$> im_get m j else g <$> im_get m j.
Proof. rewrite get_alter. destruct (decide (j = k)); [|done]. by destruct (im_get m j). Qed.
Lemma fmap_alter_same {A B} (g : A → B) (m : idmap A) k f j : (∀ x, g (f x) = g x) → g <$> im_get (im_alter m k f) j = g <$> im_get m j.
Proof. intros H. rewrite fmap_alter. destruct (decide (j = k)); [|done]. destruct (im_get m j); [|done]. cbn. by rewrite H. Qed.
Lemma is_Some_alter {A} (m : idmap A) k f j : is_Some (im_get (im_alter m k f) j) ↔ is_Some (im_get m j).
Proof. rewrite get_alter. destruct (decide (j = k)); [|done]. by rewrite fmap_is_Some. Qed.
Lemma dense_alter {A} (m : idmap A) k f : dense m → dense (im_alter m k f).
Proof. intros (H1 & H2 & H3). split; [done|]. split; [|done]. intros j. by rewrite is_Some_alter. Qed.

Lemma get_push {A} (m : idmap A) x j : im_get (im_push m x) j = if decide (j = im_npi m) then Some x else im_get m j.
Proof. unfold im_get, im_push. cbn. destruct (decide (j = im_npi m)) as [->|]; [apply lookup_insert|by rewrite lookup_insert_ne]. Qed.
Lemma fmap_push {A B} (g : A → B) (m : idmap A) x j :
  g <$> im_get (im_push m x) j = if decide (j = im_npi m) then Some (g x) else g <$> im_get m j.
Proof. rewrite get_push. by destruct (decide (j = im_npi m)). Qed.
Lemma dense_insert {A} (m : idmap A) x : dense m → im_npi m < invalid_id → im_insert m x = (im_push m x, im_npi m).
Proof.
  intros (H1 & H2 & H3) Hlt. unfold im_insert. rewrite H1. cbn [vec_pop]. unfold im_push. rewrite N.mod_small, H1; [done|].
  unfold invalid_id, u32_mod in *. lia.
Qed.
Lemma dense_push {A} (m : idmap A) x : dense m → im_npi m < invalid_id → dense (im_push m x).
Proof.
  intros (H1 & H2 & H3) Hlt. split; [done|]. split; [|cbn; lia]. intros k. rewrite get_push. cbn.
  destruct (decide (k = im_npi m)) as [->|Hn]; [split; [lia|eauto]|]. rewrite H2. lia.
Qed.
Lemma dense_fresh {A} (m : idmap A) : dense m → im_get m (im_npi m) = None.
Proof. intros (_ & H & _). apply eq_None_not_Some. rewrite H. lia. Qed.
Lemma dense_fresh_fmap {A B} (g : A → B) (m : idmap A) : dense m → g <$> im_get m (im_npi m) = None.
Proof. intros H. by rewrite dense_fresh. Qed.
Lemma dense_lt {A} (m : idmap A) k : dense m → is_Some (im_get m k) → k < im_npi m.
Proof. intros (_ & H & _). apply H. Qed.
Lemma dense_ne {A} (m : idmap A) k : dense m → is_Some (im_get m k) → k ≠ invalid_id.
Proof. intros (_ & H & H'). rewrite H. lia. Qed.
Lemma fmap_Some_is {A B} (g : A → B) (m : idmap A) k y : g <$> im_get m k = Some y → is_Some (im_get m k).
Proof. destruct (im_get m k); [eauto|done]. Qed.

(** ** Ascending lists. *)
Lemma lists_ext P Q l : (∀ k, P k ↔ Q k) → lists P l → lists Q l.
Proof. intros H [H1 H2]. split; [done|]. intros k. by rewrite H2, H. Qed.
Lemma lists_nodup P l : lists P l → NoDup l.
Proof. intros [H _]. by apply StronglySorted_lt_NoDup. Qed.
Lemma sorted_snoc l x : StronglySorted N.lt l → (∀ k, k ∈ l → k < x) → StronglySorted N.lt (l ++ [x]).
Proof.
  induction 1 as [|y l Hl IH Hy]; cbn; intros Hx; [repeat constructor|]. constructor.
  - apply IH. intros k Hk. apply Hx. by right.
  - apply Forall_app. split; [done|]. constructor; [|constructor]. apply Hx. by left.
Qed.
Lemma lists_snoc P l x Q : lists P l → (∀ k, P k → k < x) → (∀ k, Q k ↔ P k ∨ k = x) → lists Q (l ++ [x]).
Proof.
  intros [H1 H2] Hlt HQ. split; [apply sorted_snoc; [done|]; intros k Hk; by apply Hlt, H2|].
  intros k. rewrite elem_of_app, elem_of_list_singleton, H2. symmetry. apply HQ.
Qed.
Lemma lists_nil P : (∀ k, ¬ P k) → lists P [].
Proof. intros H. split; [constructor|]. intros k. rewrite elem_of_nil. split; [done|apply H]. Qed.
Lemma lists_unique P l l' : lists P l → lists P l' → l = l'.
Proof.
  intros [S1 E1] [S2 E2]. assert (∀ k, k ∈ l ↔ k ∈ l') as H by (intros k; by rewrite E1, E2). clear E1 E2 P.
  revert l' S2 H. induction S1 as [|x l Hl IH Hx]; intros l' S2 H.
  - destruct l' as [|y l']; [done|]. exfalso. apply (not_elem_of_nil y). apply H. by left.
  - destruct S2 as [|y l' Hl' Hy]. { exfalso. apply (not_elem_of_nil x). apply H. by left. }
    rewrite Forall_forall in Hx, Hy.
    assert (x = y) as <-.
    { assert (x ∈ y :: l') as H1 by (apply H; by left). assert (y ∈ x :: l) as H2 by (apply H; by left).
      apply elem_of_cons in H1 as [->|H1]; [done|]. apply elem_of_cons in H2 as [->|H2]; [done|].
      apply Hy in H1. apply Hx in H2. lia. }
    f_equal. apply IH; [done|]. intros k. split; intros Hk.
    + assert (k ∈ x :: l') as Hk' by (apply H; by right). apply elem_of_cons in Hk' as [->|]; [|done].
      apply Hx in Hk. lia.
    + assert (k ∈ x :: l) as Hk' by (apply H; by right). apply elem_of_cons in Hk' as [->|]; [|done].
      apply Hy in Hk. lia.
Qed.

(** ** Circular lists. *)
Lemma circular_ext next prev next' prev' h l : (∀ x, x ∈ l → next' x = next x ∧ prev' x = prev x) →
  circular next prev h l → circular next' prev' h l.
Proof.
  intros H. destruct l as [|x0 l]; [done|]. intros [Hh Hl]. split; [done|]. intros i x Hx.
  destruct (Hl i x Hx) as [H1 H2]. destruct (H x) as [-> _]; [by eapply elem_of_list_lookup_2|].
  split; [done|]. destruct (H (default x0 ((x0 :: l) !! S i))) as [_ ->]; [|done].
  destruct ((x0 :: l) !! S i) as [y|] eqn:E; cbn; [by eapply elem_of_list_lookup_2|by left].
Qed.
Lemma circular_last next prev h x0 l : circular next prev h (x0 :: l) → ∃ y, last (x0 :: l) = Some y ∧ prev x0 = Some y.
Proof.
  intros [_ H]. set (n := length l). assert (is_Some ((x0 :: l) !! n)) as [x Hx] by (apply lookup_lt_is_Some; cbn; lia).
  exists x. rewrite last_lookup. split; [exact Hx|]. destruct (H n x Hx) as [_ H2].
  by rewrite (lookup_ge_None_2 _ (S n)) in H2 by (cbn; lia).
Qed.

(** Appending [x] at the end, that is, before the head. *)
Lemma circular_snoc next prev next' prev' h h' l x : circular next prev h l → NoDup l → x ∉ l →
  match l with
  | [] => h' = x ∧ next' x = Some x ∧ prev' x = Some x
  | x0 :: _ => h' = h ∧ ∃ y, prev x0 = Some y ∧
      (∀ j, j ∈ l ∨ j = x → next' j = if decide (j = x) then Some x0 else if decide (j = y) then Some x else next j) ∧
      (∀ j, j ∈ l ∨ j = x → prev' j = if decide (j = x) then Some y else if decide (j = x0) then Some x else prev j)
  end →
  circular next' prev' h' (l ++ [x]).
Proof.
  intros Hc Hnd Hx. destruct l as [|x0 l].
  - intros (-> & H1 & H2). cbn. split; [done|]. intros [|i] z Hz; cbn in Hz; [|done]. injection Hz as <-. done.
  - intros (-> & y & Hy & Hn & Hp). destruct (circular_last _ _ _ _ _ Hc) as (y' & Hlast & Hy'). rewrite Hy in Hy'. injection Hy' as <-.
    destruct Hc as [-> Hc]. cbn [app]. split; [done|]. change (x0 :: l ++ [x]) with ((x0 :: l) ++ [x]).
    rewrite last_lookup in Hlast. cbn [length pred] in Hlast.
    assert (y ∈ x0 :: l) as Hyin by (by eapply elem_of_list_lookup_2).
    assert (x0 ≠ x) as Hne0 by (intros ->; apply Hx; by left).
    assert (y ≠ x) as Hney by (by intros ->).
    intros i z Hz. destruct (decide (i < length (x0 :: l))%nat) as [Hi|Hi].
    + rewrite lookup_app_l in Hz by done. assert (z ∈ x0 :: l) as Hzin by (by eapply elem_of_list_lookup_2).
      assert (z ≠ x) as Hzx by (by intros ->). rewrite (Hn z) by (by left). rewrite decide_False by done.
      destruct (decide (S i < length (x0 :: l))%nat) as [Hi2|Hi2].
      * rewrite lookup_app_l by done. apply lookup_lt_is_Some in Hi2 as Hw. destruct Hw as [w Hw]. rewrite Hw. cbn [default from_option id].
        destruct (Hc i z Hz) as [C1 C2]. rewrite Hw in C1, C2. cbn in C1, C2.
        rewrite decide_False. 2:{ intros ->. pose proof (NoDup_lookup _ _ _ _ Hnd Hz Hlast). cbn in Hi2. lia. }
        split; [done|]. assert (w ∈ x0 :: l) as Hwin by (by eapply elem_of_list_lookup_2).
        rewrite Hp by (by left). rewrite decide_False by (by intros ->). rewrite decide_False; [done|].
        intros ->. pose proof (NoDup_lookup _ (S i) 0%nat _ Hnd Hw eq_refl). lia.
      * assert (i = length l) as -> by (cbn in Hi, Hi2; lia). rewrite Hlast in Hz. injection Hz as <-.
        rewrite decide_True by done. rewrite lookup_app_r by (cbn; lia). cbn [length]. replace (S (length l) - S (length l))%nat with 0%nat by lia. cbn.
        split; [done|]. rewrite Hp by (by right). by rewrite decide_True.
    + rewrite lookup_app_r in Hz by lia. apply list_lookup_singleton_Some in Hz as [Hi0 <-].
      rewrite (lookup_ge_None_2 _ (S i)) by (rewrite app_length; cbn in *; lia). cbn [default from_option id].
      rewrite Hn by (by right). rewrite Hp by (left; by left). rewrite decide_True by done. rewrite decide_False by done. by rewrite decide_True.
Qed.

(** ** Attaching a new element to the list of its owner. *)
Lemma attach (owner : N → option N) head next prev head' next' prev' id c h :
  (∀ v h, head v = Some h → ∃ l, lists (λ e, e ≠ id ∧ owner e = Some v) l ∧ circular next prev h l) →
  owner id = Some c → (∀ e v, owner e = Some v → e ≤ id) → id < invalid_id → head c = Some h →
  (if decide (h = invalid_id) then
     (∀ v, head' v = if decide (v = c) then Some id else head v) ∧
     (∀ e, next' e = if decide (e = id) then Some id else next e) ∧
     (∀ e, prev' e = if decide (e = id) then Some id else prev e)
   else
     (∀ v, head' v = head v) ∧ ∃ y, prev h = Some y ∧
     (∀ e, next' e = if decide (e = id) then Some h else if decide (e = y) then Some id else next e) ∧
     (∀ e, prev' e = if decide (e = id) then Some y else if decide (e = h) then Some id else prev e)) →
  ∀ v h, head' v = Some h → ∃ l, lists (λ e, owner e = Some v) l ∧ circular next' prev' h l.
Proof.
  intros Hall Hid Hle Hinv Hc Hupd v hv Hv.
  assert (∃ lc, lists (λ e, e ≠ id ∧ owner e = Some c) lc ∧ circular next prev h lc) as (lc & Ll & Lc) by (by apply Hall).
  assert (h = invalid_id ↔ lc = []) as Hnil.
  { destruct lc as [|x0 lc]; [cbn in Lc; done|]. destruct Lc as [-> _]. split; [|done]. intros ->. exfalso.
    destruct (proj1 (proj2 Ll invalid_id) ltac:(by left)) as [_ Ho]. apply Hle in Ho. lia. }
  destruct (decide (v = c)) as [->|Hvc].
  - exists (lc ++ [id]). split.
    + eapply lists_snoc; [exact Ll| |].
      * intros k [Hk1 Hk2]. apply Hle in Hk2. lia.
      * intros k. destruct (decide (k = id)) as [->|]; naive_solver.
    + eapply circular_snoc; [exact Lc|by eapply lists_nodup|intros H; by apply (proj2 Ll) in H as [? _]|].
      destruct (decide (h = invalid_id)) as [Hi|Hi].
      * rewrite (proj1 Hnil Hi). destruct Hupd as (U1 & U2 & U3). rewrite U1, decide_True in Hv by done. injection Hv as <-.
        rewrite U2, U3, !decide_True by done. done.
      * destruct lc as [|x0 lc]; [by destruct Hi; apply Hnil|]. destruct Lc as [-> _].
        destruct Hupd as (U1 & y & Hy & U2 & U3). rewrite U1, Hc in Hv. injection Hv as <-. split; [done|].
        exists y. split; [done|]. split; intros j _; [apply U2|apply U3].
  - assert (head v = Some hv) as Hv0.
    { destruct (decide (h = invalid_id)); destruct Hupd as (U1 & _); rewrite U1 in Hv; [by rewrite decide_False in Hv|done]. }
    destruct (Hall v hv Hv0) as (l & L1 & L2). exists l. split.
    + eapply lists_ext; [|exact L1]. intros k. split; [by intros [_ ?]|]. intros Hk. split; [|done]. intros ->. congruence.
    + eapply circular_ext; [|exact L2]. intros x Hx. apply (proj2 L1) in Hx as [X1 X2].
      destruct (decide (h = invalid_id)) as [Hi|Hi].
      * destruct Hupd as (_ & U2 & U3). rewrite U2, U3, !decide_False by done. done.
      * destruct lc as [|x0 lc]; [by destruct Hi; apply Hnil|]. destruct (circular_last _ _ _ _ _ Lc) as (y' & Hlast & Hy').
        destruct Lc as [-> _]. destruct Hupd as (_ & y & Hy & U2 & U3). rewrite Hy in Hy'. injection Hy' as <-.
        rewrite U2, U3. rewrite !(decide_False (P := x = id)) by done.
        assert (∀ z, z ∈ x0 :: lc → x ≠ z) as Hz. { intros z Hz ->. apply (proj2 Ll) in Hz as [_ Hz]. congruence. }
        rewrite !decide_False; [done| |]; apply Hz; [by left|]. rewrite last_lookup in Hlast. by eapply elem_of_list_lookup_2.
Qed.

Lemma attach' (owner owner' : N → option N) head next prev head' next' prev' id c h :
  (∀ e, owner' e = owner e) →
  (∀ v h, head v = Some h → ∃ l, lists (λ e, e ≠ id ∧ owner e = Some v) l ∧ circular next prev h l) →
  owner id = Some c → (∀ e v, owner e = Some v → e ≤ id) → id < invalid_id → head c = Some h →
  (if decide (h = invalid_id) then
     (∀ v, head' v = if decide (v = c) then Some id else head v) ∧
     (∀ e, next' e = if decide (e = id) then Some id else next e) ∧
     (∀ e, prev' e = if decide (e = id) then Some id else prev e)
   else
     (∀ v, head' v = head v) ∧ ∃ y, prev h = Some y ∧
     (∀ e, next' e = if decide (e = id) then Some h else if decide (e = y) then Some id else next e) ∧
     (∀ e, prev' e = if decide (e = id) then Some y else if decide (e = h) then Some id else prev e)) →
  ∀ v h, head' v = Some h → ∃ l, lists (λ e, owner' e = Some v) l ∧ circular next' prev' h l.
Proof.
  intros Ho H1 H2 H3 H4 H5 H6 v hv Hv. destruct (attach _ _ _ _ _ _ _ _ _ _ H1 H2 H3 H4 H5 H6 v hv Hv) as (l & L1 & L2).
  exists l. split; [|done]. eapply lists_ext; [|exact L1]. intros k. by rewrite Ho.
Qed.

(** ** Open segments, closed at the end. *)
Definition segment (next prev : N → option N) (l : list N) : Prop :=
  ∀ i x y, l !! i = Some x → l !! S i = Some y → next x = Some y ∧ prev y = Some x.
Lemma segment_ext next prev next' prev' l : (∀ x, x ∈ l → next' x = next x ∧ prev' x = prev x) → segment next prev l → segment next' prev' l.
Proof.
  intros H Hs i x y Hx Hy. destruct (H x) as [-> _]; [by eapply elem_of_list_lookup_2|].
  destruct (H y) as [_ ->]; [by eapply elem_of_list_lookup_2|]. by apply (Hs i).
Qed.
Lemma segment_snoc next prev next' prev' l x : segment next prev l → NoDup l → x ∉ l →
  (∀ y, last l = Some y → next' y = Some x ∧ prev' x = Some y) →
  (∀ z, z ∈ l → (last l ≠ Some z → next' z = next z) ∧ prev' z = prev z) →
  segment next' prev' (l ++ [x]).
Proof.
  intros Hs Hnd Hx Hl Ho i a b Ha Hb. destruct (decide (S i < length l)%nat) as [Hi|Hi].
  - rewrite lookup_app_l in Ha, Hb by lia. destruct (Hs i a b Ha Hb) as [S1 S2].
    destruct (Ho a) as [O1 _]; [by eapply elem_of_list_lookup_2|]. destruct (Ho b) as [_ O2]; [by eapply elem_of_list_lookup_2|].
    rewrite O2. split; [|done]. rewrite O1; [done|]. rewrite last_lookup. intros He.
    pose proof (NoDup_lookup _ _ _ _ Hnd Ha He). lia.
  - assert (i < length l)%nat as Hi'.
    { apply lookup_lt_Some in Hb. rewrite app_length in Hb. cbn in Hb. lia. }
    rewrite lookup_app_l in Ha by done. rewrite lookup_app_r in Hb by lia. apply list_lookup_singleton_Some in Hb as [Hi0 <-].
    apply Hl. rewrite last_lookup. by replace (pred (length l)) with i by lia.
Qed.
Lemma segment_close next prev next' prev' x0 l y : segment next prev (x0 :: l) → NoDup (x0 :: l) → last (x0 :: l) = Some y →
  (∀ z, z ∈ x0 :: l → next' z = if decide (z = y) then Some x0 else next z) →
  (∀ z, z ∈ x0 :: l → prev' z = if decide (z = x0) then Some y else prev z) →
  circular next' prev' x0 (x0 :: l).
Proof.
  intros Hs Hnd Hlast Hn Hp. split; [done|]. intros i x Hx. rewrite last_lookup in Hlast. cbn [length pred] in Hlast.
  assert (x ∈ x0 :: l) as Hxin by (by eapply elem_of_list_lookup_2). rewrite Hn by done.
  destruct ((x0 :: l) !! S i) as [z|] eqn:Hz; cbn [default from_option id].
  - destruct (Hs i x z Hx Hz) as [S1 S2]. rewrite decide_False.
    2:{ intros ->. pose proof (NoDup_lookup _ _ _ _ Hnd Hx Hlast). apply lookup_lt_Some in Hz. cbn in Hz. lia. }
    split; [done|]. rewrite Hp by (by eapply elem_of_list_lookup_2). rewrite decide_False; [done|].
    intros ->. pose proof (NoDup_lookup _ (S i) 0%nat _ Hnd Hz eq_refl). lia.
  - assert (i = length l) as ->. { apply lookup_ge_None_1 in Hz. apply lookup_lt_Some in Hx. cbn in *. lia. }
    rewrite Hlast in Hx. injection Hx as <-. rewrite decide_True by done. split; [done|]. rewrite Hp by (by left). by rewrite decide_True.
Qed.

(** A circular list is one round trip. *)
Lemma circular_round next prev h l : circular next prev h l → NoDup l → l ≠ [] → round_trip next h l.
Proof.
  destruct l as [|x0 l]; [done|]. intros [-> H] Hnd _. split; [done|]. split.
  - intros i x Hx. by apply H.
  - intros i Hi. exact (NoDup_lookup _ i 0%nat _ Hnd Hi eq_refl).
Qed.
