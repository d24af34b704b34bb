(** The walk along the line from a vertex to another one is correct. *)
From stdpp Require Import base numbers list gmap option.
From Coq Require Import NArith ZArith Lia.
From Verif Require Import IdMapModel IdMapSpec IdMapProofs WalkerModel WalkerSpec WalkerProofs WalkerMore MeshModel MeshSpec MeshViews FlipSpec HistSpec FlipBase
  Flip44Ok History Reach UtilModel UtilSpec UtilProofs IterModel IterProofs IterLookup MeshOps QualModel ProgModel ProgSpec SortProofs ProgBase ProgRing RecModel RecSpec RecOk CavBase
  CrossModel CrossSpec CrossOk WayModel WaySpec.
Local Open Scope nat_scope.

(** ** Sets of corners *)
Lemma tri_has_spec t v : tri_has t v = true ↔ v ∈ corners (STri t).
Proof.
  destruct t as [[a b] c]. unfold tri_has. cbn [fst snd corners]. rewrite !orb_true_iff, !N.eqb_eq, !elem_of_cons, elem_of_nil.
  split; [intros [[->| ->]| ->]; tauto|intros [->|[->|[->|[]]]]; tauto].
Qed.
Lemma perm_of_elems (l k : list N) : NoDup l → NoDup k → length l = length k → (∀ x : N, x ∈ l → x ∈ k) → l ≡ₚ k.
Proof. intros H1 H2 HL H. apply submseteq_Permutation_length_eq; [done|by apply NoDup_submseteq]. Qed.

Lemma four_tri (a b c d x y z : N) : NoDup [a; b; c; d] → NoDup [x; y; z] → (∀ v, v ∈ [x; y; z] → v ∈ [a; b; c; d]) →
  [x; y; z] ≡ₚ [a; b; c] ∨ [x; y; z] ≡ₚ [b; a; d] ∨ [x; y; z] ≡ₚ [c; d; a] ∨ [x; y; z] ≡ₚ [d; c; b].
Proof.
  intros Hn Hx Hin. pose proof Hn as (N1 & N2 & N3 & N4 & N5 & N6)%NoDup4.
  assert (∀ k, NoDup k → length k = 3 → (∀ v, v ∈ [x; y; z] → v ∈ k) → [x; y; z] ≡ₚ k) as Hp by (intros; apply perm_of_elems; done).
  assert (∀ p q r s, [p; q; r; s] ≡ₚ [a; b; c; d] → s ∉ [x; y; z] → [x; y; z] ≡ₚ [p; q; r]) as Hq.
  { intros p q r s Hpm Hs. assert (NoDup [p; q; r; s]) as Hnd by by rewrite Hpm. apply Hp; [|done|].
    - change [p; q; r; s] with ([p; q; r] ++ [s]) in Hnd. by apply NoDup_app in Hnd as (? & _).
    - intros v Hv. pose proof (Hin v Hv) as Hi. rewrite <- Hpm in Hi. rewrite !elem_of_cons, elem_of_nil in *. destruct Hi as [|[|[|[->|[]]]]]; [tauto..|]. done. }
  destruct (decide (d ∈ [x; y; z])) as [Hd|Hd]; [|left; by apply (Hq _ _ _ d)].
  destruct (decide (c ∈ [x; y; z])) as [Hc|Hc]; [|right; left; apply (Hq _ _ _ c); [solve_Permutation|done]].
  destruct (decide (b ∈ [x; y; z])) as [Hb|Hb]; [|do 2 right; left; apply (Hq _ _ _ b); [solve_Permutation|done]].
  destruct (decide (a ∈ [x; y; z])) as [Ha|Ha]; [|do 3 right; apply (Hq _ _ _ a); [solve_Permutation|done]].
  exfalso. assert (length [a; b; c; d] ≤ length [x; y; z]) as HL; [|cbn in HL; lia]. apply submseteq_length, NoDup_submseteq; [done|].
  intros v. rewrite !elem_of_cons, elem_of_nil. intros [->|[->|[->|[->|[]]]]]; rewrite !elem_of_cons, elem_of_nil in *; tauto.
Qed.
Lemma four_edge (a b c d x y : N) : x ≠ y → x ∈ [a; b; c; d] → y ∈ [a; b; c; d] →
  [x; y] ≡ₚ [a; b] ∨ [x; y] ≡ₚ [b; c] ∨ [x; y] ≡ₚ [a; c] ∨ [x; y] ≡ₚ [a; d] ∨ [x; y] ≡ₚ [b; d] ∨ [x; y] ≡ₚ [c; d].
Proof.
  intros Hn. rewrite !elem_of_cons, !elem_of_nil.
  intros [->|[->|[->|[->|[]]]]] [->|[->|[->|[->|[]]]]]; try done; rewrite ?(perm_swap x y []); first
   [left; solve_Permutation|right; left; solve_Permutation|do 2 right; left; solve_Permutation|do 3 right; left; solve_Permutation|do 4 right; left; solve_Permutation|do 5 right; solve_Permutation].
Qed.

Lemma alike_sorted_3 t t' : NoDup (corners (STri t)) → sorted_3 t = sorted_3 t' ↔ alike (STri t) (STri t').
Proof.
  destruct t as [[a b] c], t' as [[x y] z]. intros Hn. unfold alike. cbn [corners] in *. split.
  - intros E. destruct (sorted_3 (a, b, c)) as [[p q] r] eqn:E1. symmetry in E. pose proof (sorted_3_spec a b c) as [H1 _]. pose proof (sorted_3_spec x y z) as [H2 _].
    rewrite E1 in H1. rewrite E in H2. unfold tri_list in *. cbn [fst snd] in *. by rewrite <- H1, <- H2.
  - intros Hp. apply sorted3_same; [done|by rewrite <- Hp|]. intros v. by rewrite Hp.
Qed.
Lemma alike_sorted_2 e e' : sorted_2 e = sorted_2 e' ↔ alike (SEdge e) (SEdge e').
Proof.
  destruct e as [a b], e' as [x y]. rewrite SortProofs.sorted_2_eq. unfold alike, same_pair. cbn [corners]. split.
  - intros [[-> ->]|[-> ->]]; [done|apply perm_swap].
  - intros Hp. apply Permutation_length_2_inv in Hp as [[= -> ->]|[= -> ->]]; tauto.
Qed.

Lemma all_pos_spec l : all_pos l = true ↔ Forall (λ z, 0 < z)%Z l.
Proof. unfold all_pos. induction l as [|z l IH]; cbn [forallb]; [by split; constructor|]. rewrite andb_true_iff, Z.ltb_lt. split; [intros [? ?%IH]; by constructor|inversion 1; subst; split; [done|by apply IH]]. Qed.
Lemma all_neg_spec l : all_neg l = true ↔ Forall (λ z, z < 0)%Z l.
Proof. unfold all_neg. induction l as [|z l IH]; cbn [forallb]; [by split; constructor|]. rewrite andb_true_iff, Z.ltb_lt. split; [intros [? ?%IH]; by constructor|inversion 1; subst; split; [done|by apply IH]]. Qed.

Section way.
  Context {V T : Type}.
  Implicit Types (m : mesh V T) (w : walker) (g : simplex).
  Context (tbary : mesh V T → N → N → N → N → N → option (list Z)).
  Context (ebary : mesh V T → N → N → N → N → option (list Z)).
  Context (flat : mesh V T → N → N → N → N → option bool).
  Context (m : mesh V T) (v0 v1 : N) (Hok : mesh_ok m) (Heh : even_handed tbary ebary flat m v0 v1).
  Notation hit := (hits tbary ebary flat m v0 v1).
  Notation back := (hits_back tbary m v0 v1).

  Lemma tri_pass_spec stop ws : Forall (valid m) ws → ∃ l stop', tri_pass tbary m v0 v1 stop ws = Some (l, stop') ∧
    (stop' = true ↔ stop = true ∨ ∃ w t, w ∈ ws ∧ w_tri m w = Some t ∧ v1 ∈ corners (STri t)) ∧
    (∀ w t b, (w, t, b) ∈ l → w ∈ ws ∧ w_tri m w = Some t ∧ (all_pos b || all_neg b = true → v1 ∉ corners (STri t) ∧ tbary m t.1.1 t.1.2 t.2 v0 v1 = Some b)) ∧
    (stop' = false → ∀ w t, w ∈ ws → w_tri m w = Some t → ∃ b, (w, t, b) ∈ l ∧ tbary m t.1.1 t.1.2 t.2 v0 v1 = Some b).
  Proof.
    intros Hf. revert stop. induction Hf as [|w ws Hw Hf IH]; intros stop; cbn [tri_pass].
    - exists [], stop. split; [done|]. split; [split; [tauto|intros [?|(w & t & Hw & _)]; [done|by apply elem_of_nil in Hw]]|].
      split; [intros w t b H; by apply elem_of_nil in H|intros _ w t H; by apply elem_of_nil in H].
    - destruct (wverts_ex m w Hw) as (a & b & c & d & Ev). pose proof (wverts_tri _ _ _ _ _ _ Ev) as Et. rewrite Et. cbn [mbind option_bind].
      destruct (tri_has (a, b, c) v1 || stop) eqn:Eh.
      + destruct (IH true) as (l & stop' & E & H1 & H2 & H3). rewrite E. cbn [mbind option_bind]. assert (stop' = true) as -> by (apply H1; by left).
        eexists _, true. split; [done|]. split.
        { split; [intros _|done]. apply orb_true_iff in Eh as [Eh|Eh]; [|by left]. right. exists w, (a, b, c). split; [left|]. split; [done|]. by apply tri_has_spec. }
        split; [|done]. intros w' t b' Hin. apply elem_of_cons in Hin as [[= -> -> ->]|Hin].
        * split; [left|]. split; [done|]. cbn. done.
        * destruct (H2 _ _ _ Hin) as (K1 & K2 & K3). split; [by right|done].
      + apply orb_false_iff in Eh as [Eh ->]. assert (v1 ∉ corners (STri (a, b, c))) as Hn by (intros H%tri_has_spec; congruence).
        destruct (eh_tri _ _ _ _ _ _ Heh a b c) as [bs Eb]; [by exists w|]. cbn [fst snd]. rewrite Eb. cbn [mbind option_bind].
        destruct (IH false) as (l & stop' & E & H1 & H2 & H3). rewrite E. cbn [mbind option_bind]. eexists _, stop'. split; [done|]. split; [|split].
        * rewrite H1. split; [intros [?|(w' & t & K1 & K2)]; [by left|]; right; exists w', t; split; [by right|done]|].
          intros [?|(w' & t & K1 & K2 & K3)]; [by left|]. right. apply elem_of_cons in K1 as [->|K1]; [|eauto]. rewrite Et in K2. injection K2 as <-. done.
        * intros w' t b' Hin. apply elem_of_cons in Hin as [[= -> -> ->]|Hin].
          -- split; [left|]. split; [done|]. intros _. split; [done|]. exact Eb.
          -- destruct (H2 _ _ _ Hin) as (K1 & K2 & K3). split; [by right|done].
        * intros Hs w' t Hw' Et'. apply elem_of_cons in Hw' as [->|Hw'].
          -- rewrite Et in Et'. injection Et' as <-. exists bs. split; [left|]. exact Eb.
          -- destruct (H3 Hs w' t Hw' Et') as (b' & K1 & K2). exists b'. split; [by right|done].
  Qed.

  Lemma tri_raw_spec ws : Forall (valid m) ws → ∃ res stop, tri_raw tbary m v0 v1 ws = Some (res, stop) ∧
    (stop = true ↔ ∃ w t, w ∈ ws ∧ w_tri m w = Some t ∧ v1 ∈ corners (STri t)) ∧
    (∀ w g x, res = Some (w, (g, x)) → ∃ t, w ∈ ws ∧ w_tri m w = Some t ∧ g = STri t ∧ hit g x ∧ v1 ∉ corners g ∧ (stop = true → back g)) ∧
    (res = None → stop = false → ∀ w t, w ∈ ws → w_tri m w = Some t → ¬ crossed hit (STri t)).
  Proof.
    intros Hf. destruct (tri_pass_spec false ws Hf) as (l & stop & E & H1 & H2 & H3). unfold tri_raw. rewrite E. cbn [mbind option_bind].
    eexists _, stop. split; [done|]. split; [|split].
    - rewrite H1. split; [intros [?|?]; done|by right].
    - intros w g x Er. apply fmap_Some in Er as ([[w' t] b] & Ef & Eg). cbn [fst snd] in Eg. injection Eg as -> -> ->.
      apply List.find_some in Ef as [Hin Hb]. cbn [snd] in Hb. apply elem_of_list_In in Hin. destruct (H2 _ _ _ Hin) as (K1 & K2 & K3).
      assert (all_pos b || all_neg b = true) as Hpn. { destruct stop; cbn in Hb; [rewrite Hb; apply orb_true_r|done]. }
      destruct (K3 Hpn) as [Hn Eb]. exists t. split; [done|]. split; [done|]. split; [done|]. destruct t as [[a c] d]. cbn [fst snd] in Eb.
      split; [|split; [done|]].
      + cbn [hits]. exists b. split; [done|]. split; [|done]. apply orb_true_iff in Hpn as [?%all_pos_spec|?%all_neg_spec]; tauto.
      + intros ->. cbn in Hb. exists b. split; [done|by apply all_neg_spec].
    - intros En Hs w t Hw Et (x & Hx). destruct (H3 Hs w t Hw Et) as (b & Hin & Eb). rewrite Hs in En.
      destruct (List.find _ l) eqn:Ef; [done|]. pose proof (List.find_none _ _ Ef (w, t, b) ltac:(by apply elem_of_list_In)) as Hb. cbn [snd negb andb] in Hb.
      destruct t as [[a c] d]. destruct Hx as (bs & Ebs & Hpn & _). cbn [fst snd] in Eb. rewrite Eb in Ebs. injection Ebs as <-.
      rewrite <- all_pos_spec, <- all_neg_spec in Hpn. apply orb_false_iff in Hb as [E1 E2]. rewrite E1, E2 in Hpn. by destruct Hpn.
  Qed.

  Lemma edge_find_spec ws : Forall (valid m) ws → ∃ res, edge_find ebary flat m v0 v1 ws = Some res ∧
    (∀ w g x, res = Some (w, (g, x)) → ∃ e, w ∈ ws ∧ w_pair m w = Some e ∧ g = SEdge e ∧ hit g x) ∧
    (res = None → ∀ w e, w ∈ ws → w_pair m w = Some e → ¬ crossed hit (SEdge e)).
  Proof.
    induction 1 as [|w ws Hw Hf (res & E & H1 & H2)]; cbn [edge_find].
    - exists None. split; [done|]. split; [done|]. intros _ w e H. by apply elem_of_nil in H.
    - destruct (wverts_ex m w Hw) as (a & b & c & d & Ev). pose proof (wverts_pair _ _ _ _ _ _ Ev) as Ep. rewrite Ep. cbn [mbind option_bind fst snd].
      assert (joined m a b) as Hj by by exists w. destruct (eh_flat _ _ _ _ _ _ Heh a b Hj) as [f Ef]. rewrite Ef. cbn [mbind option_bind].
      assert (∀ (Hno : ¬ crossed hit (SEdge (a, b))), ∃ res', edge_find ebary flat m v0 v1 ws = Some res' ∧
        (∀ w' g x, res' = Some (w', (g, x)) → ∃ e, w' ∈ w :: ws ∧ w_pair m w' = Some e ∧ g = SEdge e ∧ hit g x) ∧
        (res' = None → ∀ w' e, w' ∈ w :: ws → w_pair m w' = Some e → ¬ crossed hit (SEdge e))) as Hskip.
      { intros Hno. exists res. split; [done|]. split.
        - intros w' g x Er. destruct (H1 _ _ _ Er) as (e & K1 & K2). exists e. split; [by right|done].
        - intros Er w' e Hw' Ep'. apply elem_of_cons in Hw' as [->|Hw']; [|by eapply H2]. rewrite Ep in Ep'. by injection Ep' as <-. }
      destruct f; [|apply Hskip; intros (x & Hx & _); congruence].
      destruct (eh_edge _ _ _ _ _ _ Heh a b Hj Ef) as [bs Eb]. rewrite Eb. cbn [mbind option_bind].
      destruct (all_pos bs || all_neg bs) eqn:Epn.
      + eexists. split; [done|]. split; [|done]. intros w' g x [= <- <- <-]. exists (a, b). split; [left|]. split; [done|]. split; [done|].
        cbn [hits]. split; [done|]. exists bs. split; [done|]. split; [|done]. apply orb_true_iff in Epn as [?%all_pos_spec|?%all_neg_spec]; tauto.
      + apply Hskip. intros (x & _ & bs' & Ebs & Hpn & _). rewrite Eb in Ebs. injection Ebs as <-.
        rewrite <- all_pos_spec, <- all_neg_spec in Hpn. apply orb_false_iff in Epn as [E1 E2]. rewrite E1, E2 in Hpn. by destruct Hpn.
  Qed.

  (** ** Places *)
  Lemma within_verts w a b c d vs : valid m w → w_verts m w = Some (A4 a b c d) → within m (w_tet w) vs ↔ ∀ v, v ∈ vs → v ∈ [a; b; c; d].
  Proof.
    intros Hw Ev. destruct (wverts_in m w _ Hw Ev) as (vs' & E & Hs). unfold vs_of in E. apply fmap_Some in E as (t & Et & ->). cbn in Hs. split.
    - intros (t' & Et' & H) v Hv. rewrite Et in Et'. injection Et' as <-. by apply Hs, H.
    - intros H. exists t. split; [done|]. intros v Hv. by apply Hs, H.
  Qed.
  Lemma within_walker id vs : within m id vs → ∃ w a b c d, valid m w ∧ w_tet w = id ∧ w_verts m w = Some (A4 a b c d) ∧ NoDup [a; b; c; d] ∧ ∀ v, v ∈ vs → v ∈ [a; b; c; d].
  Proof.
    intros Hi. pose proof Hi as (t & Et & H). assert (valid m (Walker id 0)) as Hv by (split; [cbn; eauto|cbn; lia]).
    destruct (wverts_ex m _ Hv) as (a & b & c & d & Ev). exists (Walker id 0), a, b, c, d. split; [done|]. split; [done|]. split; [done|].
    split; [by apply (ok_distinct m Hok _ _ _ _ _ Hv Ev)|]. by apply (within_verts _ _ _ _ _ _ Hv Ev).
  Qed.
  Lemma ahead_present p id g : ahead m p id g → present m g.
  Proof.
    intros (Hi & Hn & _). apply (present_covers m g Hok). split; [done|]. destruct Hi as (t & Et & Hs). exists id, (t_vs t). unfold vs_of. by rewrite Et.
  Qed.
  Lemma within_sub id vs vs' : within m id vs → (∀ v, v ∈ vs' → v ∈ vs) → within m id vs'.
  Proof. intros (t & Et & H) Hs. exists t. split; [done|]. auto. Qed.

  (** The goal is no corner of what was crossed last. *)
  Definition clear (p : place) : Prop :=
    match p with From _ => True | Past _ t => v1 ∉ corners (STri t) | On e q => v1 ∉ corners (SEdge e) ∧ ∀ h, q = Some h → v1 ∉ corners h end.

  Lemma edge_arrived p id e : clear p → ahead m p id (SEdge e) → v1 ∈ corners (SEdge e) → arrived m v1 p.
  Proof.
    intros Hc (Hi & Hn & Hp) Hv. destruct (within_walker _ _ Hi) as (w & a & b & c & d & Hw & Hid & Ev & Hnd & Hs). pose proof (Hs v1 Hv) as Hv1.
    assert (∀ x y, x ≠ y → x ≠ v1 → y ≠ v1 → x ∈ [a; b; c; d] → y ∈ [a; b; c; d] → within m id (corners (STri (v1, x, y))) ∧ NoDup (corners (STri (v1, x, y)))) as Hmk.
    { intros x y K1 K2 K3 Hx Hy. split; [|cbn; apply nodup3; repeat split; congruence]. rewrite <- Hid. apply (within_verts w a b c d); [done..|].
      cbn [corners]. intros v. rewrite !elem_of_cons, elem_of_nil. intros [->|[->|[->|[]]]]; by rewrite ?elem_of_cons, ?elem_of_nil in *. }
    pose proof Hnd as (N1 & N2 & N3 & N4 & N5 & N6)%NoDup4.
    (* a triangle of the tet with the corner [v1] and without some other given one *)
    assert (∀ u, u ∈ [a; b; c; d] → u ≠ v1 → ∃ x y, x ≠ y ∧ x ≠ v1 ∧ y ≠ v1 ∧ x ≠ u ∧ y ≠ u ∧ x ∈ [a; b; c; d] ∧ y ∈ [a; b; c; d]) as Hpick.
    { intros u Hu Huv. rewrite !elem_of_cons, !elem_of_nil in Hv1, Hu.
      destruct Hv1 as [->|[->|[->|[->|[]]]]], Hu as [->|[->|[->|[->|[]]]]]; try done; first
        [exists a, b; split; [congruence|]; repeat (split; [congruence|]); rewrite !elem_of_cons; tauto
        |exists a, c; split; [congruence|]; repeat (split; [congruence|]); rewrite !elem_of_cons; tauto
        |exists a, d; split; [congruence|]; repeat (split; [congruence|]); rewrite !elem_of_cons; tauto
        |exists b, c; split; [congruence|]; repeat (split; [congruence|]); rewrite !elem_of_cons; tauto
        |exists b, d; split; [congruence|]; repeat (split; [congruence|]); rewrite !elem_of_cons; tauto
        |exists c, d; split; [congruence|]; repeat (split; [congruence|]); rewrite !elem_of_cons; tauto]. }
    destruct p as [v|k t|e' q].
    - destruct Hp as [Hi' Hne]. rewrite <- Hid in Hi'. rewrite (within_verts w a b c d) in Hi' by done.
      destruct (Hpick v) as (x & y & K1 & K2 & K3 & K4 & K5 & K6 & K7); [apply Hi'; left|congruence|].
      destruct (Hmk x y) as [H1 H2]; [done..|]. exists id, (v1, x, y). split; [|left]. split; [done|]. split; [done|]. split; [rewrite <- Hid; by apply (within_verts w a b c d)|].
      cbn [corners]. rewrite !elem_of_cons, elem_of_nil. intros [->|[?|[?|[]]]]; congruence.
    - destruct Hp as [-> _]. assert (∃ u, u ∈ [a; b; c; d] ∧ u ≠ v1) as (u & Hu & Huv).
      { destruct (decide (a = v1)) as [->|]; [exists b|exists a]; (split; [rewrite !elem_of_cons; tauto|congruence]). }
      destruct (Hpick u Hu Huv) as (x & y & K1 & K2 & K3 & K4 & K5 & K6 & K7). destruct (Hmk x y) as [H1 H2]; [done..|].
      exists k, (v1, x, y). split; [|left]. split; [done|]. split; [done|]. split; [done|]. exists v1. split; [left|done].
    - destruct Hp as (Hi' & _ & _), Hc as [Hc1 Hc2]. rewrite <- Hid in Hi'. rewrite (within_verts w a b c d) in Hi' by done. destruct e' as [u u']. cbn [corners] in *.
      destruct (Hpick u) as (x & y & K1 & K2 & K3 & K4 & K5 & K6 & K7); [apply Hi'; left|intros ->; apply Hc1; left|].
      destruct (Hmk x y) as [H1 H2]; [done..|]. exists id, (v1, x, y). split; [|left]. split; [done|]. split; [done|].
      split; [rewrite <- Hid; by apply (within_verts w a b c d)|]. split.
      + exists u. cbn [corners]. split; [left|]. rewrite !elem_of_cons, elem_of_nil. intros [->|[?|[?|[]]]]; [|congruence..]. apply Hc1. left.
      + intros h Eh Ha. apply (Hc2 h Eh). unfold alike in Ha. rewrite <- Ha. left.
  Qed.

  (** The walkers [tw] stand on all triangles that may come next, [ew] on all edges. *)
  Record finds (p : place) (tw ew : list walker) : Prop := Finds {
    fd_tri w : w ∈ tw → valid m w ∧ ∃ t, w_tri m w = Some t ∧ ahead m p (w_tet w) (STri t);
    fd_tris id t : ahead m p id (STri t) → ∃ w t', w ∈ tw ∧ w_tri m w = Some t' ∧ alike (STri t) (STri t');
    fd_edge w : w ∈ ew → valid m w ∧ ∃ e, w_pair m w = Some e ∧ ahead m p (w_tet w) (SEdge e);
    fd_edges id e : ahead m p id (SEdge e) → ∃ w e', w ∈ ew ∧ w_pair m w = Some e' ∧ alike (SEdge e) (SEdge e') }.

  Definition stands w g : Prop := valid m w ∧ match g with STri t => w_tri m w = Some t | SEdge e => w_pair m w = Some e end.

  Lemma pick p tw ew : clear p → finds p tw ew → ∃ res stop, tri_raw tbary m v0 v1 tw = Some (res, stop) ∧
    ((stop = true ∧ arrived m v1 p ∧ ∀ w g x, res = Some (w, (g, x)) → stands w g ∧ ahead m p (w_tet w) g ∧ hit g x ∧ v1 ∉ corners g ∧ (∃ t, g = STri t) ∧ back g) ∨
     (stop = false ∧ ¬ arrived m v1 p ∧ ∃ r, or_edges ebary flat m v0 v1 res ew = Some r ∧
        ((r = None ∧ ∀ id g, ahead m p id g → ¬ crossed hit g) ∨
         (∃ w g x, r = Some (w, (g, x)) ∧ stands w g ∧ ahead m p (w_tet w) g ∧ hit g x ∧ v1 ∉ corners g ∧
            ∀ e, g = SEdge e → ∀ id t, ahead m p id (STri t) → ¬ crossed hit (STri t))))).
  Proof.
    intros Hc [F1 F2 F3 F4]. destruct (tri_raw_spec tw) as (res & stop & E & H1 & H2 & H3). { apply stdpp.list.Forall_forall. intros w Hw. by apply F1. }
    exists res, stop. split; [done|].
    assert (arrived m v1 p ↔ stop = true) as Harr.
    { rewrite H1. split.
      - intros (id & t & Ha & Hv). destruct (F2 id t Ha) as (w & t' & K1 & K2 & K3). exists w, t'. split; [done|]. split; [done|]. unfold alike in K3. by rewrite <- K3.
      - intros (w & t & Hw & Et & Hv). destruct (F1 w Hw) as (_ & t' & Et' & Ha). rewrite Et in Et'. injection Et' as <-. by exists (w_tet w), t. }
    destruct stop; [left|right]; (split; [done|]).
    - split; [by apply Harr|]. intros w g x Er. destruct (H2 w g x Er) as (t & K1 & K2 & -> & K4 & K5 & K6). destruct (F1 w K1) as (Hw & t' & Et' & Ha).
      rewrite K2 in Et'. injection Et' as <-. split; [by split|]. split; [done|]. split; [done|]. split; [done|]. split; [by exists t|by apply K6].
    - split; [by rewrite Harr|]. destruct res as [[w [g x]]|].
      + eexists. split; [done|]. right. exists w, g, x. split; [done|]. destruct (H2 w g x eq_refl) as (t & K1 & K2 & -> & K4 & K5 & K6). destruct (F1 w K1) as (Hw & t' & Et' & Ha).
        rewrite K2 in Et'. injection Et' as <-. split; [by split|]. split; [done|]. split; [done|]. split; [done|]. intros e [=].
      + cbn [or_edges]. destruct (edge_find_spec ew) as (r & Er & G1 & G2). { apply stdpp.list.Forall_forall. intros w Hw. by apply F3. }
        assert (∀ id t, ahead m p id (STri t) → ¬ crossed hit (STri t)) as Hnt.
        { intros id t Ha Hx. destruct (F2 id t Ha) as (w & t' & K1 & K2 & K3). apply (H3 eq_refl eq_refl w t' K1 K2).
          apply (eh_same _ _ _ _ _ _ Heh (STri t)); [by eapply ahead_present|done..]. }
        exists r. split; [done|]. destruct r as [[w [g x]]|]; [right|left].
        * exists w, g, x. split; [done|]. destruct (G1 w g x eq_refl) as (e & K1 & K2 & -> & K4). destruct (F3 w K1) as (Hw & e' & Ep' & Ha).
          rewrite K2 in Ep'. injection Ep' as <-. split; [by split|]. split; [done|]. split; [done|]. split; [|done].
          intros Hv. apply (edge_arrived p _ e Hc Ha) in Hv. apply Harr in Hv. done.
        * split; [done|]. intros id [e|t] Ha; [|by eapply Hnt]. intros Hx. destruct (F4 id e Ha) as (w & e' & K1 & K2 & K3). apply (G2 eq_refl w e' K1 K2).
          apply (eh_same _ _ _ _ _ _ Heh (SEdge e)); [by eapply ahead_present|done..].
  Qed.

  Lemma pair_in id a b : within m id [a; b] → a ≠ b → ∃ w c d, valid m w ∧ w_tet w = id ∧ w_verts m w = Some (A4 a b c d) ∧ NoDup [a; b; c; d].
  Proof.
    intros (t & Et & Hs) Hab. destruct (pair_of_tet (λ _, t) id a b) as (w & W1 & W2 & W3 & W4); [apply Hs; set_solver..|done|].
    assert (valid m w) as Hw by (split; [rewrite W1; eauto|done]). pose proof Et as Et'. rewrite <- W1 in Et'. pose proof (w_verts_eq m w t Et') as Ev. unfold vv in W3, W4.
    destruct (verts_at (t_vs t) (w_edge w)) as [a' b' x y]. cbn in W3, W4. subst a' b'. exists w, x, y. split; [done|]. split; [done|]. split; [done|].
    by apply (ok_distinct m Hok _ _ _ _ _ Hw Ev).
  Qed.
  Lemma first_in id a : within m id [a] → ∃ w, valid m w ∧ w_tet w = id ∧ w_first m w = Some a.
  Proof.
    intros Hi. destruct (within_walker _ _ Hi) as (w & p & q & r & s & Hw & Hid & Ev & (N1 & _)%NoDup4 & Hs). pose proof (Hs a ltac:(left)) as Ha.
    assert (∃ b, a ≠ b ∧ b ∈ [p; q; r; s]) as (b & Hab & Hb). { destruct (decide (a = p)) as [->|]; [exists q|exists p]; (split; [congruence|rewrite !elem_of_cons; tauto]). }
    destruct (pair_in id a b) as (w' & c & d & H1 & H2 & H3 & _); [|done|].
    - rewrite <- Hid. apply (within_verts w p q r s); [done..|]. intros v. rewrite (elem_of_cons [b]), elem_of_list_singleton. by intros [->| ->].
    - exists w'. split; [done|]. split; [done|]. by eapply wverts_first.
  Qed.

  Lemma from_list_ok v : solid m v → ∃ ws, from_list m v = Some ws ∧
    (∀ x, x ∈ ws → valid m x ∧ w_first m x = Some v) ∧ (∀ id, within m id [v] → ∃ x, x ∈ ws ∧ w_tet x = id).
  Proof.
    intros [Hg Ha]. destruct (vertex_walkers m v Hok Ha Hg) as (w & l & _ & E & Hy & Hlen & _ & H1 & H2). exists (w :: l). split; [|split; [done|]].
    - unfold from_list. rewrite E. cbn [mbind option_bind]. destruct (Hy (length (im_keys (m_tets m)) + 1)) as (s' & Es). rewrite Es. cbn [fmap option_fmap option_map fst].
      rewrite take_ge by lia. done.
    - intros id Hi. destruct (first_in id v Hi) as (x & K1 & <- & K3). pose proof (H2 x K1 K3) as (y & K4 & K5)%elem_of_list_fmap. eauto.
  Qed.

  Ltac in4 := rewrite ?elem_of_cons, ?elem_of_nil in *; tauto.
  Ltac nin := cbn [corners]; rewrite ?elem_of_cons, ?elem_of_nil; naive_solver.

  Lemma finds_from v ws : (∀ x, x ∈ ws → valid m x ∧ w_first m x = Some v) → (∀ id, within m id [v] → ∃ x, x ∈ ws ∧ w_tet x = id) →
    finds (From v) ((λ w, to_perm w P3210) <$> ws) (ws ≫= outer_edges).
  Proof.
    intros Hws Hall.
    assert (∀ x, x ∈ ws → ∃ a b c, valid m x ∧ w_verts m x = Some (A4 v a b c) ∧ NoDup [v; a; b; c]) as Hx.
    { intros x Hx. destruct (Hws x Hx) as [Hv Hf]. destruct (wverts_of_first m x v Hv Hf) as (a & b & c & Ev). exists a, b, c. split; [done|]. split; [done|]. by apply (ok_distinct m Hok _ _ _ _ _ Hv Ev). }
    assert (∀ id vs, within m id vs → within m id [v] → ∃ x a b c, x ∈ ws ∧ valid m x ∧ w_verts m x = Some (A4 v a b c) ∧ NoDup [v; a; b; c] ∧ ∀ u, u ∈ vs → u ∈ [v; a; b; c]) as Hy.
    { intros id vs Hi Hi'. destruct (Hall id Hi') as (x & Hin & <-). destruct (Hx x Hin) as (a & b & c & Hv & Ev & Hn). exists x, a, b, c. split; [done|]. split; [done|]. split; [done|].
      split; [done|]. by apply (within_verts x v a b c). }
    split.
    - intros w (x & -> & Hin)%elem_of_list_fmap. destruct (Hx x Hin) as (a & b & c & Hv & Ev & Hn). split; [by apply valid_perm|].
      pose proof (wverts_perm m x _ _ _ _ P3210 Hv Ev) as Ep. unfold reorder in Ep; cbn [perm_digits nth get4 q0 q1 q2 q3] in Ep. exists (c, b, a). split; [by eapply wverts_tri|]. change (w_tet (to_perm x P3210)) with (w_tet x).
      apply NoDup4 in Hn as (N1 & N2 & N3 & N4 & N5 & N6). split; [apply (within_verts x v a b c); [done..|]; cbn [corners]; intros u; in4|].
      split; [cbn; apply nodup3; repeat split; congruence|]. split; [apply (within_verts x v a b c); [done..|]; intros u; in4|nin].
    - intros id t (Hi & Hn & Hi' & Hv). destruct (Hy _ _ Hi Hi') as (x & a & b & c & Hin & Hx' & Ev & Hnd & Hs). exists (to_perm x P3210), (c, b, a).
      split; [apply elem_of_list_fmap; eauto|]. pose proof (wverts_perm m x _ _ _ _ P3210 Hx' Ev) as Ep. unfold reorder in Ep; cbn [perm_digits nth get4 q0 q1 q2 q3] in Ep. split; [by eapply wverts_tri|].
      destruct t as [[p q] r]. unfold alike. cbn [corners] in *. destruct (four_tri v a b c p q r Hnd Hn Hs) as [E|[E|[E|E]]]; [exfalso; apply Hv; rewrite E..|done]; in4.
    - intros w (x & Hw & Hin)%elem_of_list_bind. destruct (Hx x Hin) as (a & b & c & Hv & Ev & Hn). apply NoDup4 in Hn as (N1 & N2 & N3 & N4 & N5 & N6).
      assert (∀ y p q r s, y = to_perm x r → w_verts m y = Some (A4 p q s v) → p ≠ q → p ∈ [a; b; c] → q ∈ [a; b; c] → v ∉ [p; q] →
        valid m y ∧ ∃ e, w_pair m y = Some e ∧ ahead m (From v) (w_tet y) (SEdge e)) as Hmk.
      { intros y p q r s -> Ey Hpq Hp Hq Hvn. split; [by apply valid_perm|]. exists (p, q). split; [by eapply wverts_pair|]. change (w_tet (to_perm x r)) with (w_tet x).
        split; [apply (within_verts x v a b c); [done..|]; cbn [corners]; intros u; rewrite (elem_of_cons [q]), elem_of_list_singleton; intros [->| ->]; right; done|].
        split; [cbn; by apply nodup2|]. split; [apply (within_verts x v a b c); [done..|]; intros u; in4|done]. }
      unfold outer_edges in Hw. rewrite !elem_of_cons, elem_of_nil in Hw. pose proof (wverts_perm m x _ _ _ _ P3210 Hv Ev) as E1. pose proof (wverts_perm m x _ _ _ _ P2130 Hv Ev) as E2. pose proof (wverts_perm m x _ _ _ _ P1320 Hv Ev) as E3. unfold reorder in E1, E2, E3; cbn [perm_digits nth get4 q0 q1 q2 q3] in E1, E2, E3.
      destruct Hw as [->|[->|[->|[]]]];
        (eapply Hmk; [done|eassumption|congruence|in4|in4|]); rewrite !elem_of_cons, elem_of_nil; naive_solver.
    - intros id [p q] (Hi & Hn & Hi' & Hv). destruct (Hy _ _ Hi Hi') as (x & a & b & c & Hin & Hx' & Ev & Hnd & Hs). cbn [corners] in *.
      assert (∀ r e, to_perm x r ∈ outer_edges x → w_pair m (to_perm x r) = Some e → [p; q] ≡ₚ corners (SEdge e) →
        ∃ w e', w ∈ ws ≫= outer_edges ∧ w_pair m w = Some e' ∧ alike (SEdge (p, q)) (SEdge e')) as Hmk.
      { intros r e K1 K2 K3. exists (to_perm x r), e. split; [apply elem_of_list_bind; eauto|]. split; [done|]. exact K3. }
      assert (p ≠ q) as Hpq by by apply nodup2. pose proof (Hs p ltac:(left)) as Hp. pose proof (Hs q ltac:(right; left)) as Hq.
      pose proof (wverts_perm m x _ _ _ _ P3210 Hx' Ev) as E1. pose proof (wverts_perm m x _ _ _ _ P2130 Hx' Ev) as E2. pose proof (wverts_perm m x _ _ _ _ P1320 Hx' Ev) as E3. unfold reorder in E1, E2, E3; cbn [perm_digits nth get4 q0 q1 q2 q3] in E1, E2, E3.
      destruct (four_edge v a b c p q Hpq Hp Hq) as [E|[E|[E|[E|[E|E]]]]]; try (exfalso; apply Hv; rewrite E; left).
      + apply (Hmk P2130 (b, a)); [right; left|by eapply wverts_pair|]. rewrite E. apply perm_swap.
      + apply (Hmk P1320 (a, c)); [do 2 right; left|by eapply wverts_pair|]. done.
      + apply (Hmk P3210 (c, b)); [left|by eapply wverts_pair|]. rewrite E. apply perm_swap.
  Qed.

  (** The other side of a triangle. *)
  Lemma adj_ae_ok w a b c d : valid m w → w_verts m w = Some (A4 a b c d) →
    ∃ y a' b' c' d', to_adj_ae m w = Some y ∧ valid m y ∧ w_tet y ≠ w_tet w ∧ w_verts m y = Some (A4 a' b' c' d') ∧ NoDup [a'; b'; c'; d'] ∧ [a; b; c] ≡ₚ [a'; b'; c'].
  Proof.
    intros Hw Ev. destruct (adj_side m w Hok Hw) as (y & E & Hy & _ & Hne & z & Ez & Hs). destruct (adj_spec m w a b c d Hok Hw Ev) as (z' & x & Ez' & Hz & Evz & _).
    rewrite Ez in Ez'. injection Ez' as <-. destruct (wverts_ex m y Hy) as (a' & b' & c' & d' & Evy). pose proof (ok_distinct m Hok _ _ _ _ _ Hy Evy) as Hn.
    exists y, a', b', c', d'. do 5 (split; [done|]).
    destruct (QualProofs.adj_ae_fourth m w z Ez) as (y' & Ey' & Hf). rewrite E in Ey'. injection Ey' as <-.
    assert (w_fourth m y = Some d') as F1 by by apply (walker_accessors m y a' b' c' d'). assert (w_fourth m z = Some x) as F2 by by apply (walker_accessors m z b a c x).
    assert (d' = x) as -> by congruence. clear F1 F2 Hf.
    assert (w_tet z = w_tet y) as Ht by by injection Hs.
    destruct (wverts_in m y _ Hy Evy) as (vs & G & Hvs). destruct (wverts_in m z _ Hz Evz) as (vs' & G' & Hvs'). rewrite Ht, G in G'. injection G' as <-.
    pose proof (ok_distinct m Hok _ _ _ _ _ Hz Evz) as Hnz. apply NoDup4 in Hnz as (N1 & N2 & N3 & N4 & N5 & N6). pose proof Hn as (M1 & M2 & M3 & M4 & M5 & M6)%NoDup4.
    apply perm_of_elems; [by apply nodup3|by apply nodup3|done|]. intros v Hv.
    assert (v ∈ list4 (A4 a' b' c' x)) as Hi. { apply Hvs, Hvs'. cbn. set_solver. }
    assert (v ≠ x) as Hvx by (intros ->; set_solver). cbn in Hi. set_solver.
  Qed.

  Lemma finds_past y a b c d t : valid m y → w_verts m y = Some (A4 a b c d) → corners (STri t) ≡ₚ [a; b; c] →
    finds (Past (w_tet y) t) [to_twin_edge y; to_opp_edge y; to_perm y P3210] (other_edges y).
  Proof.
    intros Hy Ev Ht. pose proof (ok_distinct m Hok _ _ _ _ _ Hy Ev) as Hn. pose proof Hn as (N1 & N2 & N3 & N4 & N5 & N6)%NoDup4.
    assert (d ∉ corners (STri t)) as Hd by (rewrite Ht; nin).
    pose proof (wverts_twin m y _ _ _ _ Hy Ev) as G1. pose proof (wverts_opp m y _ _ _ _ Hy Ev) as G2. pose proof (wverts_perm m y _ _ _ _ P3210 Hy Ev) as G3.
    pose proof (wverts_perm m y _ _ _ _ P0312 Hy Ev) as E1. pose proof (wverts_perm m y _ _ _ _ P1320 Hy Ev) as E2. pose proof (wverts_perm m y _ _ _ _ P2301 Hy Ev) as E3.
    unfold reorder in G3, E1, E2, E3. cbn [perm_digits nth get4 q0 q1 q2 q3] in G3, E1, E2, E3.
    assert (∀ g, (∀ u, u ∈ corners g → u ∈ [a; b; c; d]) → NoDup (corners g) → d ∈ corners g → ahead m (Past (w_tet y) t) (w_tet y) g) as Hah.
    { intros g K1 K2 K3. split; [by apply (within_verts y a b c d)|]. split; [done|]. split; [done|]. by exists d. }
    split.
    - intros w Hw. rewrite !elem_of_cons, elem_of_nil in Hw. destruct Hw as [->|[->|[->|[]]]].
      + split; [by apply valid_twin|]. exists (b, a, d). split; [by eapply wverts_tri|]. apply Hah; cbn [corners]; [intros u; in4|apply nodup3; repeat split; congruence|in4].
      + split; [by apply valid_opp|]. exists (c, d, a). split; [by eapply wverts_tri|]. apply Hah; cbn [corners]; [intros u; in4|apply nodup3; repeat split; congruence|in4].
      + split; [by apply valid_perm|]. exists (d, c, b). split; [by eapply wverts_tri|]. apply Hah; cbn [corners]; [intros u; in4|apply nodup3; repeat split; congruence|in4].
    - intros id [[p q] r] (Hi & Hnd & -> & v & Hv & Hvt). rewrite (within_verts y a b c d) in Hi by done. cbn [corners] in Hi, Hnd, Hv. unfold alike. cbn [corners].
      destruct (four_tri a b c d p q r Hn Hnd Hi) as [E|[E|[E|E]]].
      + exfalso. apply Hvt. rewrite Ht, <- E. done.
      + exists (to_twin_edge y), (b, a, d). split; [left|]. split; [by eapply wverts_tri|done].
      + exists (to_opp_edge y), (c, d, a). split; [right; left|]. split; [by eapply wverts_tri|done].
      + exists (to_perm y P3210), (d, c, b). split; [do 2 right; left|]. split; [by eapply wverts_tri|done].
    - intros w Hw. unfold other_edges in Hw. rewrite !elem_of_cons, elem_of_nil in Hw. destruct Hw as [->|[->|[->|[]]]]; (split; [by apply valid_perm|]).
      + exists (a, d). split; [by eapply wverts_pair|]. apply Hah; cbn [corners]; [intros u; in4|apply nodup2; congruence|in4].
      + exists (b, d). split; [by eapply wverts_pair|]. apply Hah; cbn [corners]; [intros u; in4|apply nodup2; congruence|in4].
      + exists (c, d). split; [by eapply wverts_pair|]. apply Hah; cbn [corners]; [intros u; in4|apply nodup2; congruence|in4].
    - intros id [p q] (Hi & Hnd & -> & v & Hv & Hvt). rewrite (within_verts y a b c d) in Hi by done. cbn [corners] in Hi, Hnd, Hv. unfold alike. cbn [corners].
      rewrite Ht in Hvt. apply nodup2 in Hnd. destruct (four_edge a b c d p q Hnd (Hi p ltac:(left)) (Hi q ltac:(right; left))) as [E|[E|[E|[E|[E|E]]]]].
      + exfalso. apply Hvt. rewrite E in Hv. in4.
      + exfalso. apply Hvt. rewrite E in Hv. in4.
      + exfalso. apply Hvt. rewrite E in Hv. in4.
      + exists (to_perm y P0312), (a, d). split; [left|]. split; [by eapply wverts_pair|done].
      + exists (to_perm y P1320), (b, d). split; [right; left|]. split; [by eapply wverts_pair|done].
      + exists (to_perm y P2301), (c, d). split; [do 2 right; left|]. split; [by eapply wverts_pair|done].
  Qed.

  (** [prev] as it is kept by the code. *)
  Definition kept (prev : simplex) (q : option simplex) : Prop :=
    match q with None => prev = SEdge (invalid_id, invalid_id) | Some h => prev = sort_simplex h end.
  Lemma kept_tri prev q t : kept prev q → NoDup (corners (STri t)) → sorted_3 <$> Some t = as_tri prev ↔ ∃ h, q = Some h ∧ alike (STri t) h.
  Proof.
    intros Hk Hn. destruct q as [[e|t']|]; cbn in Hk; subst prev; cbn [sort_simplex as_tri fmap option_fmap option_map].
    - split; [done|]. intros (h & [= <-] & Ha). apply Permutation_length in Ha. by destruct t as [[? ?] ?], e.
    - rewrite (inj_iff Some). rewrite (alike_sorted_3 t t' Hn). split; [eauto|]. by intros (h & [= <-] & Ha).
    - split; [done|]. by intros (h & ? & _).
  Qed.
  Lemma kept_edge prev q e : kept prev q → NoDup (corners (SEdge e)) → sorted_2 <$> Some e = as_edge prev ↔ ∃ h, q = Some h ∧ alike (SEdge e) h.
  Proof.
    intros Hk Hn. destruct q as [[e'|t']|]; cbn in Hk; subst prev; cbn [sort_simplex as_edge fmap option_fmap option_map].
    - rewrite (inj_iff Some). rewrite (alike_sorted_2 e e'). split; [eauto|]. by intros (h & [= <-] & Ha).
    - split; [done|]. intros (h & [= <-] & Ha). apply Permutation_length in Ha. by destruct t' as [[? ?] ?], e.
    - split; [|by intros (h & ? & _)]. destruct e as [a b]. cbn in Hn. apply nodup2 in Hn. intros E. apply (inj Some) in E. exfalso. revert E. unfold sorted_2. destruct (b <? a)%N; congruence.
  Qed.

  Lemma finds_on a b ring prev q : a ≠ b → (∀ x, x ∈ ring ↔ valid m x ∧ w_pair m x = Some (a, b)) → kept prev q →
    finds (On (a, b) q) (List.filter (λ w, negb (bool_decide (sorted_3 <$> w_tri m w = as_tri prev))) (ring ≫= λ w, [to_opp_edge w; to_perm w P3210]))
      (List.filter (λ w, negb (bool_decide (sorted_2 <$> w_pair m w = as_edge prev))) (ring ≫= other_edges)).
  Proof.
    intros Hab Hring Hk.
    assert (∀ x, x ∈ ring → ∃ c d, valid m x ∧ w_verts m x = Some (A4 a b c d) ∧ NoDup [a; b; c; d]) as Hx.
    { intros x [Hv Hp]%Hring. destruct (wverts_of_pair m x a b Hv Hp) as (c & d & Ev). exists c, d. split; [done|]. split; [done|]. by apply (ok_distinct m Hok _ _ _ _ _ Hv Ev). }
    assert (∀ id vs, within m id vs → within m id [a; b] → ∃ x c d, x ∈ ring ∧ valid m x ∧ w_verts m x = Some (A4 a b c d) ∧ NoDup [a; b; c; d] ∧ ∀ u, u ∈ vs → u ∈ [a; b; c; d]) as Hy.
    { intros id vs Hi Hi'. destruct (pair_in id a b Hi' Hab) as (x & c & d & Hv & <- & Ev & Hn). exists x, c, d. split; [apply Hring; split; [done|by eapply wverts_pair]|]. split; [done|]. split; [done|].
      split; [done|]. by apply (within_verts x a b c d). }
    (* the tet before [x] around the edge *)
    assert (∀ x c d, x ∈ ring → valid m x → w_verts m x = Some (A4 a b c d) → ∃ x' c', x' ∈ ring ∧ valid m x' ∧ w_verts m x' = Some (A4 a b c' c)) as turn.
    { intros x c d Hin Hv Ev. destruct (adj_spec m x a b c d Hok Hv Ev) as (y & z & _ & Hyv & Evy & _).
      exists (to_twin_edge y), z. pose proof (wverts_twin m y _ _ _ _ Hyv Evy) as Et. split; [|split; [by apply valid_twin|done]]. apply Hring. split; [by apply valid_twin|by eapply wverts_pair]. }
    assert (∀ x c d g, valid m x → w_verts m x = Some (A4 a b c d) → (∀ u, u ∈ corners g → u ∈ [a; b; c; d]) → NoDup (corners g) → (a ∉ corners g ∨ b ∉ corners g) →
      (¬ ∃ h, q = Some h ∧ alike g h) → ahead m (On (a, b) q) (w_tet x) g) as Hah.
    { intros x c d g Hv Ev K1 K2 K3 K4. split; [by apply (within_verts x a b c d)|]. split; [done|]. cbn [corners]. split; [apply (within_verts x a b c d); [done..|]; intros u; in4|].
      split; [destruct K3; [exists a|exists b]; (split; [in4|done])|]. intros h Eh Ha. apply K4. eauto. }
    split.
    - intros w' Hw'. apply elem_of_list_In, List.filter_In in Hw' as [Hw' Hf]. apply elem_of_list_In, elem_of_list_bind in Hw' as (x & Hw' & Hin).
      destruct (Hx x Hin) as (c & d & Hv & Ev & Hn). pose proof (wverts_opp m x _ _ _ _ Hv Ev) as G2. pose proof (wverts_perm m x _ _ _ _ P3210 Hv Ev) as G3.
      unfold reorder in G3. cbn [perm_digits nth get4 q0 q1 q2 q3] in G3. apply NoDup4 in Hn as (N1 & N2 & N3 & N4 & N5 & N6).
      apply negb_true_iff, bool_decide_eq_false in Hf. rewrite !elem_of_cons, elem_of_nil in Hw'. destruct Hw' as [->|[->|[]]].
      + split; [by apply valid_opp|]. exists (c, d, a). pose proof (wverts_tri _ _ _ _ _ _ G2) as Et. split; [done|]. rewrite Et in Hf.
        assert (NoDup (corners (STri (c, d, a)))) as Hnd by (cbn; apply nodup3; repeat split; congruence). rewrite (kept_tri prev q (c, d, a) Hk Hnd) in Hf.
        change (w_tet (to_opp_edge x)) with (w_tet x). apply (Hah x c d); [done|done|cbn [corners]; intros u; in4|done|right; nin|done].
      + split; [by apply valid_perm|]. exists (d, c, b). pose proof (wverts_tri _ _ _ _ _ _ G3) as Et. split; [done|]. rewrite Et in Hf.
        assert (NoDup (corners (STri (d, c, b)))) as Hnd by (cbn; apply nodup3; repeat split; congruence). rewrite (kept_tri prev q (d, c, b) Hk Hnd) in Hf.
        change (w_tet (to_perm x P3210)) with (w_tet x). apply (Hah x c d); [done|done|cbn [corners]; intros u; in4|done|left; nin|done].
    - intros id t (Hi & Hnd & Hi' & (v & Hv & Hvt) & Hq). destruct (Hy _ _ Hi Hi') as (x & c & d & Hin & Hx' & Ev & Hn & Hs).
      pose proof (wverts_opp m x _ _ _ _ Hx' Ev) as G2. pose proof (wverts_perm m x _ _ _ _ P3210 Hx' Ev) as G3.
      unfold reorder in G3. cbn [perm_digits nth get4 q0 q1 q2 q3] in G3.
      assert (∀ x' t', x' ∈ [to_opp_edge x; to_perm x P3210] → w_tri m x' = Some t' → alike (STri t) (STri t') →
        ∃ w0 t', w0 ∈ List.filter (λ w, negb (bool_decide (sorted_3 <$> w_tri m w = as_tri prev))) (ring ≫= λ w, [to_opp_edge w; to_perm w P3210]) ∧ w_tri m w0 = Some t' ∧ alike (STri t) (STri t')) as Hmk.
      { intros x' t' Hx'' Et Ha. exists x', t'. split; [|done]. apply elem_of_list_In, List.filter_In. split; [apply elem_of_list_In, elem_of_list_bind; eauto|].
        apply negb_true_iff, bool_decide_eq_false. rewrite Et. assert (NoDup (corners (STri t'))) as Hnd' by (unfold alike in Ha; by rewrite <- Ha). rewrite (kept_tri prev q t' Hk Hnd').
        intros (h & Eh & Hh). apply (Hq h Eh). unfold alike in *. by rewrite Ha. }
      destruct t as [[p1 p2] p3]. cbn [corners] in *. destruct (four_tri a b c d p1 p2 p3 Hn Hnd Hs) as [E|[E|[E|E]]].
      + exfalso. apply Hvt. rewrite E. in4.
      + exfalso. apply Hvt. rewrite E. in4.
      + apply (Hmk (to_opp_edge x) (c, d, a)); [left|by eapply wverts_tri|done].
      + apply (Hmk (to_perm x P3210) (d, c, b)); [right; left|by eapply wverts_tri|done].
    - intros w' Hw'. apply elem_of_list_In, List.filter_In in Hw' as [Hw' Hf]. apply elem_of_list_In, elem_of_list_bind in Hw' as (x & Hw' & Hin).
      destruct (Hx x Hin) as (c & d & Hv & Ev & Hn).
      pose proof (wverts_perm m x _ _ _ _ P0312 Hv Ev) as E1. pose proof (wverts_perm m x _ _ _ _ P1320 Hv Ev) as E2. pose proof (wverts_perm m x _ _ _ _ P2301 Hv Ev) as E3.
      unfold reorder in E1, E2, E3. cbn [perm_digits nth get4 q0 q1 q2 q3] in E1, E2, E3. apply NoDup4 in Hn as (N1 & N2 & N3 & N4 & N5 & N6).
      apply negb_true_iff, bool_decide_eq_false in Hf. unfold other_edges in Hw'. rewrite !elem_of_cons, elem_of_nil in Hw'.
      assert (∀ r e, w' = to_perm x r → w_pair m (to_perm x r) = Some e → (∀ u, u ∈ corners (SEdge e) → u ∈ [a; b; c; d]) → NoDup (corners (SEdge e)) →
        (a ∉ corners (SEdge e) ∨ b ∉ corners (SEdge e)) → valid m w' ∧ ∃ e, w_pair m w' = Some e ∧ ahead m (On (a, b) q) (w_tet w') (SEdge e)) as Hmk.
      { intros r e -> Ee K1 K2 K3. split; [by apply valid_perm|]. exists e. split; [done|]. rewrite Ee, (kept_edge prev q e Hk K2) in Hf.
        change (w_tet (to_perm x r)) with (w_tet x). by apply (Hah x c d). }
      destruct Hw' as [Ew|[Ew|[Ew|[]]]]; (eapply Hmk; [exact Ew|by eapply wverts_pair|cbn [corners]; intros u; in4|cbn; apply nodup2; congruence|]).
      + right. nin.
      + left. nin.
      + left. nin.
    - intros id [p1 p2] (Hi & Hnd & Hi' & (v & Hv & Hvt) & Hq). destruct (Hy _ _ Hi Hi') as (x & c & d & Hin & Hx' & Ev & Hn & Hs).
      assert (∀ x' e', x' ∈ ring ≫= other_edges → w_pair m x' = Some e' → alike (SEdge (p1, p2)) (SEdge e') →
        ∃ w0 e', w0 ∈ List.filter (λ w, negb (bool_decide (sorted_2 <$> w_pair m w = as_edge prev))) (ring ≫= other_edges) ∧ w_pair m w0 = Some e' ∧ alike (SEdge (p1, p2)) (SEdge e')) as Hmk.
      { intros x' e' Hx'' Ee Ha. exists x', e'. split; [|done]. apply elem_of_list_In, List.filter_In. split; [by apply elem_of_list_In|].
        apply negb_true_iff, bool_decide_eq_false. rewrite Ee. assert (NoDup (corners (SEdge e'))) as Hnd' by (unfold alike in Ha; by rewrite <- Ha). rewrite (kept_edge prev q e' Hk Hnd').
        intros (h & Eh & Hh). apply (Hq h Eh). unfold alike in *. by rewrite Ha. }
      (* the edges from a corner of [(a, b)] to [c] belong to the walker of the next tet around it *)
      assert (∃ x c' d', x ∈ ring ∧ valid m x ∧ w_verts m x = Some (A4 a b c' d') ∧ ([p1; p2] ≡ₚ [a; d'] ∨ [p1; p2] ≡ₚ [b; d'] ∨ [p1; p2] ≡ₚ [c'; d'])) as (x' & c' & d' & Hin' & Hv' & Ev' & Hcase).
      { cbn [corners] in *. apply nodup2 in Hnd. destruct (four_edge a b c d p1 p2 Hnd (Hs p1 ltac:(left)) (Hs p2 ltac:(right; left))) as [E|[E|[E|[E|[E|E]]]]].
        - exfalso. apply Hvt. rewrite E. done.
        - destruct (turn x c d Hin Hx' Ev) as (x' & c' & H1 & H2 & H3). exists x', c', c. split; [done|]. split; [done|]. split; [done|]. right. by left.
        - destruct (turn x c d Hin Hx' Ev) as (x' & c' & H1 & H2 & H3). exists x', c', c. split; [done|]. split; [done|]. split; [done|]. by left.
        - exists x, c, d. split; [done|]. split; [done|]. split; [done|]. by left.
        - exists x, c, d. split; [done|]. split; [done|]. split; [done|]. right. by left.
        - exists x, c, d. split; [done|]. split; [done|]. split; [done|]. right. by right. }
      pose proof (wverts_perm m x' _ _ _ _ P0312 Hv' Ev') as E1. pose proof (wverts_perm m x' _ _ _ _ P1320 Hv' Ev') as E2. pose proof (wverts_perm m x' _ _ _ _ P2301 Hv' Ev') as E3.
      unfold reorder in E1, E2, E3. cbn [perm_digits nth get4 q0 q1 q2 q3] in E1, E2, E3.
      assert (∀ r, to_perm x' r ∈ other_edges x' → to_perm x' r ∈ ring ≫= other_edges) as Hin2 by (intros r Hr; apply elem_of_list_bind; eauto).
      destruct Hcase as [E|[E|E]].
      + apply (Hmk (to_perm x' P0312) (a, d')); [apply Hin2; left|by eapply wverts_pair|exact E].
      + apply (Hmk (to_perm x' P1320) (b, d')); [apply Hin2; right; left|by eapply wverts_pair|exact E].
      + apply (Hmk (to_perm x' P2301) (c', d')); [apply Hin2; do 2 right; left|by eapply wverts_pair|exact E].
  Qed.

  (** [p] is the place after crossing [g] at [w]. *)
  Definition after (p : place) (prev : simplex) w g : Prop :=
    match g with STri t => ∃ y, to_adj_ae m w = Some y ∧ p = Past (w_tet y) t | SEdge e => ∃ q, p = On e q ∧ kept prev q end.
  Lemma after_latest p prev w g : after p prev w g → latest p = Some g.
  Proof. destruct g; [intros (q & -> & _)|intros (y & _ & ->)]; done. Qed.

  Lemma leads_ok p prev w g : stands w g → kept prev (latest p) → clear p → v1 ∉ corners g → (∀ h, latest p = Some h → v1 ∉ corners h) →
    ∃ p', leads m p (w_tet w) g p' ∧ after p' prev w g ∧ clear p'.
  Proof.
    intros [Hw Hg] Hk Hc Hv Hl. destruct g as [e|[[a b] c]].
    - exists (On e (latest p)). split; [done|]. split; [by exists (latest p)|]. split; done.
    - destruct (wtri_verts m w a b c Hw Hg) as (d & Ev). destruct (adj_ae_ok w a b c d Hw Ev) as (y & a' & b' & c' & d' & Ey & Hy & Hne & Evy & _ & Hp).
      exists (Past (w_tet y) (a, b, c)). split; [|split; [by exists y|done]]. exists (w_tet y). split; [done|]. split; [done|].
      apply (within_verts y a' b' c' d'); [done..|]. cbn [corners]. intros u. rewrite Hp. in4.
  Qed.
  Lemma clear_latest p h : clear p → latest p = Some h → v1 ∉ corners h.
  Proof. destruct p as [v|k t|e q]; cbn [latest clear]; [done|intros H [= <-]; done|intros [H _] [= <-]; done]. Qed.

  Lemma way_next_ok p prev w g x : stands w g → after p prev w g → clear p → ∃ r, way_next tbary ebary flat m v0 v1 prev w (g, x) = Some r ∧
    ((r = None ∧ (arrived m v1 p ∨ ∀ id g, ahead m p id g → ¬ crossed hit g)) ∨
     (∃ w' g' x', r = Some (w', (g', x')) ∧ ¬ arrived m v1 p ∧ stands w' g' ∧ ahead m p (w_tet w') g' ∧ hit g' x' ∧ v1 ∉ corners g' ∧
        ∀ e, g' = SEdge e → ∀ id t, ahead m p id (STri t) → ¬ crossed hit (STri t))).
  Proof.
    intros [Hw Hg] Ha Hc. unfold way_next. cbn [fst].
    assert (∀ tw ew, finds p tw ew → ∃ res stop, tri_raw tbary m v0 v1 tw = Some (res, stop) ∧ ∃ r, (if stop : bool then Some None else or_edges ebary flat m v0 v1 res ew) = Some r ∧
      ((r = None ∧ (arrived m v1 p ∨ ∀ id g, ahead m p id g → ¬ crossed hit g)) ∨
       (∃ w' g' x', r = Some (w', (g', x')) ∧ ¬ arrived m v1 p ∧ stands w' g' ∧ ahead m p (w_tet w') g' ∧ hit g' x' ∧ v1 ∉ corners g' ∧
          ∀ e, g' = SEdge e → ∀ id t, ahead m p id (STri t) → ¬ crossed hit (STri t)))) as Hgo.
    { intros tw ew Hf. destruct (pick p tw ew Hc Hf) as (res & stop & E & [(-> & Harr & _)|(-> & Harr & r & Er & Hr)]); exists res; eexists; (split; [done|]).
      - exists None. split; [done|]. left. split; [done|]. by left.
      - exists r. split; [done|]. destruct Hr as [[-> Hr]|(w' & g' & x' & -> & Hr)]; [left; split; [done|by right]|right]. exists w', g', x'. done. }
    destruct g as [[a b]|[[a b] c]].
    - destruct Ha as (q & -> & Hk). destruct (ring_all m w (a, b) Hok Hw Hg) as (ring & Er & Hring & _). rewrite Er. cbn [mbind option_bind].
      assert (a ≠ b) as Hab. { destruct (wverts_of_pair m w a b Hw Hg) as (c & d & Ev). pose proof (ok_distinct m Hok _ _ _ _ _ Hw Ev) as Hn%NoDup4. tauto. }
      destruct (Hgo _ _ (finds_on a b ring prev q Hab Hring Hk)) as (res & stop & E & r & E' & Hr). exists r. split; [|done]. cbv zeta. rewrite E. cbn [mbind option_bind]. exact E'.
    - destruct Ha as (y & Ey & ->). destruct (wtri_verts m w a b c Hw Hg) as (d & Ev). destruct (adj_ae_ok w a b c d Hw Ev) as (y' & a' & b' & c' & d' & Ey' & Hy & _ & Evy & _ & Hp).
      rewrite Ey in Ey'. injection Ey' as <-. rewrite Ey. cbn [mbind option_bind].
      destruct (Hgo _ _ (finds_past y a' b' c' d' (a, b, c) Hy Evy Hp)) as (res & stop & E & r & E' & Hr). exists r. split; [|done]. rewrite E. cbn [mbind option_bind]. exact E'.
  Qed.

  Lemma follow_ok n : ∀ p prev w g x, stands w g → after p prev w g → clear p →
    ∃ l all, follow tbary ebary flat n m v0 v1 prev w (g, x) = Some (l, all) ∧ way hit back m v1 p l all ∧ (all = false → length l = n).
  Proof.
    induction n as [|n IH]; intros p prev w g x Hst Ha Hc; cbn [follow].
    { exists [], false. split; [done|]. split; [constructor|done]. }
    destruct (way_next_ok p prev w g x Hst Ha Hc) as (r & -> & Hr). cbn [mbind option_bind]. destruct Hr as [[-> Hr]|(w' & g' & x' & -> & Harr & Hst' & Hah & Hh & Hv & He)].
    - exists [], true. split; [done|]. split; [|done]. destruct Hr; [by apply way_arrived|by apply way_lost].
    - destruct (leads_ok p (sort_simplex g) w' g' Hst') as (p' & Hl & Ha' & Hc'); [by rewrite (after_latest p prev w g Ha)|done|done|intros h; by apply clear_latest|].
      destruct (IH p' (sort_simplex g) w' g' x' Hst' Ha' Hc') as (l & all & E & Hway & Hlen). cbn [fst]. rewrite E. cbn [mbind option_bind]. exists ((g', x') :: l), all. split; [done|].
      split; [|intros Hf; cbn [length]; f_equal; by apply Hlen]. eapply way_step; try done.
  Qed.

  Lemma edge_intersections_ok n : solid m v0 →
    ∃ l all, edge_intersections_raw tbary ebary flat n m v0 v1 = Some (l, all) ∧ way hit back m v1 (From v0) l all ∧ (all = false → length l = n).
  Proof.
    intros Hs. destruct n as [|n]; cbn [edge_intersections_raw].
    { exists [], false. split; [done|]. split; [constructor|done]. }
    destruct (from_list_ok v0 Hs) as (ws & Ews & H1 & H2). unfold way_first. rewrite Ews. cbn [mbind option_bind].
    assert (∀ w g x, stands w g → ahead m (From v0) (w_tet w) g → hit g x → v1 ∉ corners g →
      (∀ e, g = SEdge e → ∀ id t, ahead m (From v0) id (STri t) → ¬ crossed hit (STri t)) → (arrived m v1 (From v0) → (∃ t, g = STri t) ∧ back g) →
      ∃ l all, follow tbary ebary flat n m v0 v1 (SEdge (invalid_id, invalid_id)) w (g, x) = Some (l, all) ∧ way hit back m v1 (From v0) ((g, x) :: l) all ∧ (all = false → length ((g, x) :: l) = S n)) as Hgo.
    { intros w g x Hst Hah Hh Hv He Hb. destruct (leads_ok (From v0) (SEdge (invalid_id, invalid_id)) w g Hst) as (p' & Hl & Ha' & Hc'); [done..|].
      destruct (follow_ok n p' _ w g x Hst Ha' Hc') as (l & all & E & Hway & Hlen). exists l, all. split; [done|].
      split; [|intros Hf; cbn [length]; f_equal; by apply Hlen]. eapply way_step; try done. intros Harr. split; [by exists v0|]. by apply Hb. }
    destruct (pick (From v0) _ _ I (finds_from v0 ws H1 H2)) as (res & stop & E & Hcase). rewrite E. cbn [mbind option_bind].
    destruct Hcase as [(-> & Harr & Hr)|(-> & Harr & r & -> & Hr)]; cbn [mbind option_bind].
    - destruct res as [[w [g x]]|].
      + destruct (Hr w g x eq_refl) as (K1 & K2 & K3 & K4 & (t & ->) & K6). destruct (Hgo w (STri t) x) as (l & all & E' & Hway & Hlen); [done..|by eauto|].
        rewrite E'. cbn [mbind option_bind]. exists ((STri t, x) :: l), all. done.
      + exists [], true. split; [done|]. split; [by apply way_arrived|done].
    - destruct Hr as [[-> Hr]|(w & g & x & -> & K1 & K2 & K3 & K4 & K5)].
      + exists [], true. split; [done|]. split; [by apply way_lost|done].
      + destruct (Hgo w g x) as (l & all & E' & Hway & Hlen); [done..|]. rewrite E'. cbn [mbind option_bind]. exists ((g, x) :: l), all. done.
  Qed.
End way.
