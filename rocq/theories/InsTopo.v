(** The combinatorial effect of replacing a region by the cone over its boundary. *)
From stdpp Require Import base numbers list gmap option relations.
From Coq Require Import NArith ZArith ZifyN ZifyNat ZifyBool Lia.
From Verif Require Import IdMapModel IdMapProofs WalkerModel WalkerSpec WalkerProofs SortProofs
  MeshModel WalkerMore MeshSpec MeshViews Surgery MeshLink MeshRun FlipBase FlipCommon CavSpec.
Local Open Scope nat_scope.

(** Every position of a tet is on the triangle of a given position or on one of the other three. *)
Lemma pos_cover w z : w_tet z = w_tet w → w_edge w < 12 → w_edge z < 12 →
  ∃ x, x ∈ [w; to_nfe w; to_pfe w] ∧
    (z = x ∨ z = to_twin_edge x ∨ z = to_nfe (to_twin_edge x) ∨ z = to_pfe (to_twin_edge x)).
Proof.
  destruct w as [t e], z as [t' e']. cbn [w_tet w_edge]. intros -> He He'.
  assert (existsb (λ x, Nat.eqb e' x || Nat.eqb e' (w_edge (to_twin_edge (Walker t x))) ||
            Nat.eqb e' (w_edge (to_nfe (to_twin_edge (Walker t x)))) || Nat.eqb e' (w_edge (to_pfe (to_twin_edge (Walker t x)))))
            [e; w_edge (to_nfe (Walker t e)); w_edge (to_pfe (Walker t e))] = true) as H.
  { case12 e He; case12 e' He'; reflexivity. }
  apply existsb_exists in H as (x & Hx & H). exists (Walker t x). split.
  - rewrite !elem_of_cons, elem_of_nil. cbn [In] in Hx. destruct Hx as [<-|[<-|[<-|[]]]]; tauto.
  - rewrite !orb_true_iff, !Nat.eqb_eq in H. destruct H as [[[->| ->]| ->]| ->]; tauto.
Qed.

Section topo.
  Context {T : Type}.
  Implicit Types (w u r x y z : walker).
  Context (O K K' : gset N) (F F' : N → tet T) (v : N) (ρ : N * nat → N).

  (** [u] is on a boundary triangle, on the inner side; [mvd u] the corresponding walker afterwards. *)
  Definition bw u : Prop := vd K u ∧ w_tet (av F u) ∈ O.
  Definition mvd u : walker := Walker (ρ (side u)) (w_edge u).
  (** [u'] is the other boundary triangle at the edge of [u]. *)
  Definition mate u u' : Prop := bw u ∧ bw u' ∧ q0 (vv F u') = q1 (vv F u) ∧ q1 (vv F u') = q0 (vv F u).
  Definition bturn u u'' : Prop := ∃ u', mate u u' ∧ u'' = to_nfe u'.

  Record coned : Prop := Coned {
    co_disj : O ## K;
    co_disj' : O ## K';
    co_new w : vd (O ∪ K) w → q0 (vv F w) ≠ v;
    co_K' id : id ∈ K' ↔ ∃ u, bw u ∧ ρ (side u) = id;
    co_inj u u' : bw u → bw u' → ρ (side u) = ρ (side u') → side u = side u';
    co_vsO id : id ∈ O → t_vs (F' id) = t_vs (F id);
    co_lkO id : id ∈ O → f_locked (t_flags (F' id)) = f_locked (t_flags (F id));
    co_avO r : vd O r → w_tet (av F r) ∈ O → av F' r = av F r;
    co_avB r : vd O r → w_tet (av F r) ∈ K → av F' r = mvd (av F r);
    co_opp id : id ∈ O ∪ K' → oppok F' id;
    co_vsD u : bw u → vv F' (mvd u) = A4 (q0 (vv F u)) (q1 (vv F u)) (q2 (vv F u)) v;
    co_avD u : bw u → av F' (mvd u) = av F u;
    co_lkD u : bw u → lv F' (mvd u) = lv F u;
    co_lkI u : bw u → lv F' (to_twin_edge (mvd u)) = false;
    co_avI u u' : mate u u' → av F' (to_twin_edge (mvd u)) = to_twin_edge (mvd u') }.

  Record closed_surface : Prop := ClosedSurface {
    cs_edge u u' : bw u → bw u' → pair2 (vv F u) = pair2 (vv F u') → u = u';
    cs_mate u : bw u → ∃ u', mate u u';
    cs_fan u u' : bw u → bw u' → q0 (vv F u) = q0 (vv F u') → rtsc bturn u u';
    cs_conn u u' : bw u → bw u' → rtsc (λ a b, bturn a b ∨ (bw a ∧ b = to_nfe a)) u u' }.

  Context (Hok : vok (O ∪ K) F) (Hc : coned) (Hs : closed_surface).

  Local Lemma vdO w : vd O w → vd (O ∪ K) w.
  Proof. intros [H ?]. split; [by apply elem_of_union_l|done]. Qed.
  Local Lemma vdK w : vd K w → vd (O ∪ K) w.
  Proof. intros [H ?]. split; [by apply elem_of_union_r|done]. Qed.
  Local Lemma vdO' w : vd O w → vd (O ∪ K') w.
  Proof. intros [H ?]. split; [by apply elem_of_union_l|done]. Qed.
  Local Lemma vdK' w : vd K' w → vd (O ∪ K') w.
  Proof. intros [H ?]. split; [by apply elem_of_union_r|done]. Qed.
  Local Lemma vd_cases w : vd (O ∪ K) w → vd O w ∨ vd K w.
  Proof. intros [[H|H]%elem_of_union ?]; [left|right]; done. Qed.
  Local Lemma vd_cases' w : vd (O ∪ K') w → vd O w ∨ vd K' w.
  Proof. intros [[H|H]%elem_of_union ?]; [left|right]; done. Qed.
  Local Lemma vvO w : w_tet w ∈ O → vv F' w = vv F w.
  Proof. intros H. unfold vv. by rewrite (co_vsO Hc). Qed.
  Local Lemma lvO w : w_tet w ∈ O → lv F' w = lv F w.
  Proof. intros H. unfold lv. by rewrite (co_lkO Hc). Qed.

  Lemma bw_vd u : bw u → vd (O ∪ K) u.
  Proof. intros [H _]. by apply vdK. Qed.
  Lemma bw_nfe u : bw u → bw (to_nfe u).
  Proof. intros [H1 H2]. split; [by apply vd_nfe|]. by rewrite av_tet_nfe by apply H1. Qed.
  Lemma bw_pfe u : bw u → bw (to_pfe u).
  Proof. intros [H1 H2]. split; [by apply vd_pfe|]. by rewrite av_tet_pfe by apply H1. Qed.
  Lemma side_nfe u : w_edge u < 12 → side (to_nfe u) = side u.
  Proof. intros H. unfold side. cbn [to_nfe w_tet w_edge]. by rewrite nfe_mod4. Qed.
  Lemma side_pfe u : w_edge u < 12 → side (to_pfe u) = side u.
  Proof. intros H. unfold side. cbn [to_pfe w_tet w_edge]. by rewrite pfe_mod4. Qed.
  Lemma mvd_nfe u : w_edge u < 12 → mvd (to_nfe u) = to_nfe (mvd u).
  Proof. intros H. unfold mvd. by rewrite side_nfe. Qed.
  Lemma mvd_pfe u : w_edge u < 12 → mvd (to_pfe u) = to_pfe (mvd u).
  Proof. intros H. unfold mvd. by rewrite side_pfe. Qed.
  Lemma bw_edge u : bw u → w_edge u < 12.
  Proof. intros [[_ H] _]. done. Qed.
  Lemma mvd_edge u : bw u → w_edge (mvd u) < 12.
  Proof. apply bw_edge. Qed.
  Lemma mvd_vd u : bw u → vd K' (mvd u).
  Proof. intros H. split; [|by apply mvd_edge]. apply (co_K' Hc). eauto. Qed.
  Lemma mvd_twin_vd u : bw u → vd K' (to_twin_edge (mvd u)).
  Proof. intros H. by apply vd_twin, mvd_vd. Qed.

  Lemma mvd_inj u u' : bw u → bw u' → mvd u = mvd u' → u = u'.
  Proof.
    intros H H' E. injection E as E1 E2. apply (co_inj Hc) in E1; [|done..]. injection E1 as E1 E3.
    destruct u, u'; cbn in *; congruence.
  Qed.

  (** The walkers of the new tets. *)
  Lemma new_cases z : vd K' z → ∃ u, bw u ∧
    (z = mvd u ∨ z = to_twin_edge (mvd u) ∨ z = to_nfe (to_twin_edge (mvd u)) ∨ z = to_pfe (to_twin_edge (mvd u))).
  Proof.
    intros [Hz He]. apply (co_K' Hc) in Hz as (u & Hu & E).
    destruct (pos_cover (mvd u) z) as (x & Hx & Hzx); [by rewrite <- E|by apply mvd_edge|done|].
    rewrite !elem_of_cons, elem_of_nil in Hx. destruct Hx as [->|[->|[->|[]]]].
    - by exists u.
    - exists (to_nfe u). split; [by apply bw_nfe|]. by rewrite mvd_nfe by by apply bw_edge.
    - exists (to_pfe u). split; [by apply bw_pfe|]. by rewrite mvd_pfe by by apply bw_edge.
  Qed.

  Lemma old_ne w : vd (O ∪ K) w → q0 (vv F w) ≠ v ∧ q1 (vv F w) ≠ v ∧ q2 (vv F w) ≠ v ∧ q3 (vv F w) ≠ v.
  Proof.
    intros Hw. split; [by apply (co_new Hc)|]. split.
    - pose proof (co_new Hc (to_nfe w) (vd_nfe _ _ Hw)) as H. rewrite vv_nfe in H by apply Hw. done.
    - split.
      + pose proof (co_new Hc (to_pfe w) (vd_pfe _ _ Hw)) as H. rewrite vv_pfe in H by apply Hw. done.
      + pose proof (co_new Hc (to_perm w P3210) (vd_perm _ _ _ Hw)) as H. rewrite vv_perm in H by apply Hw. done.
  Qed.
  Lemma bw_ne u : bw u → q0 (vv F u) ≠ v ∧ q1 (vv F u) ≠ v ∧ q2 (vv F u) ≠ v ∧ q3 (vv F u) ≠ v.
  Proof. intros H. by apply old_ne, bw_vd. Qed.

  Lemma vvD u : bw u → vv F' (mvd u) = A4 (q0 (vv F u)) (q1 (vv F u)) (q2 (vv F u)) v.
  Proof. apply (co_vsD Hc). Qed.
  Lemma vvI u : bw u → vv F' (to_twin_edge (mvd u)) = A4 (q1 (vv F u)) (q0 (vv F u)) v (q2 (vv F u)).
  Proof. intros H. rewrite vv_twin by by apply mvd_edge. by rewrite vvD. Qed.

  Lemma mate_sym u u' : mate u u' → mate u' u.
  Proof. intros (H1 & H2 & H3 & H4). done. Qed.
  Lemma mate_unique u u1 u2 : mate u u1 → mate u u2 → u1 = u2.
  Proof.
    intros (_ & H2 & H3 & H4) (_ & H2' & H3' & H4'). apply (cs_edge Hs); [done..|]. unfold pair2. congruence.
  Qed.

  (** From the outside. *)
  Lemma outer_bw r : vd O r → w_tet (av F r) ∈ K → bw (av F r) ∧ av F (av F r) = r.
  Proof.
    intros Hr HK. destruct (vo_adj _ _ Hok r (vdO _ Hr)) as [H1 _]. pose proof (av_av _ _ _ Hok (vdO _ Hr)) as E.
    split; [|done]. split; [split; [done|apply H1]|]. rewrite E. apply Hr.
  Qed.
  Lemma bw_outer u : bw u → vd O (av F u) ∧ av F (av F u) = u.
  Proof.
    intros Hu. destruct (vo_adj _ _ Hok u (bw_vd _ Hu)) as [H1 _]. split; [split; [apply Hu|apply H1]|].
    apply (av_av _ _ _ Hok), bw_vd, Hu.
  Qed.

  Definition linked z : Prop :=
    vd (O ∪ K') (av F' z) ∧ twist (vv F' z) (vv F' (av F' z)) ∧ lv F' (av F' z) = lv F' z.
  Lemma linked_nfe z : vd (O ∪ K') z → linked z → linked (to_nfe z).
  Proof.
    intros Hz (H1 & H2 & H3). unfold linked. rewrite av_nfe by (apply Hz || apply (co_opp Hc), Hz).
    split; [by apply vd_pfe|]. split; [apply twist_nfe; [apply Hz|apply H1|done]|].
    rewrite lv_pfe by apply H1. by rewrite lv_nfe by apply Hz.
  Qed.
  Lemma new_linked z : vd (O ∪ K') z → linked z.
  Proof.
    intros Hz. destruct (vd_cases' _ Hz) as [H|H].
    - destruct (vo_adj _ _ Hok z (vdO _ H)) as [H1 H2]. unfold linked. rewrite (vvO z), (lvO z) by apply H.
      destruct (vd_cases _ H1) as [H3|H3].
      + rewrite (co_avO Hc) by (done || apply H3). rewrite vvO, lvO by apply H3. split; [by apply vdO'|]. split; [done|].
        apply (vo_lock _ _ Hok). by apply vdO.
      + destruct (outer_bw z H (proj1 H3)) as [Hb _]. rewrite (co_avB Hc) by (done || apply H3).
        split; [by apply vdK', mvd_vd|]. rewrite vvD, (co_lkD Hc) by done. split; [|by apply (vo_lock _ _ Hok), vdO].
        destruct H2 as (T1 & T2 & T3). done.
    - destruct (new_cases z H) as (u & Hu & C).
      assert (linked (to_twin_edge (mvd u))) as HI.
      { destruct (cs_mate Hs u Hu) as [u' Hm]. unfold linked. rewrite (co_avI Hc u u') by done.
        pose proof Hm as (_ & Hu' & E0 & E1). split; [by apply vdK', mvd_twin_vd|]. rewrite !vvI, !(co_lkI Hc) by done. by split. }
      destruct C as [->|[->|[->| ->]]].
      + unfold linked. rewrite (co_avD Hc), vvD, (co_lkD Hc) by done. destruct (bw_outer u Hu) as [Ho _].
        destruct (vo_adj _ _ Hok u (bw_vd _ Hu)) as [_ (T1 & T2 & T3)]. rewrite vvO, lvO by apply Ho.
        split; [by apply vdO'|]. split; [done|]. by apply (vo_lock _ _ Hok), bw_vd.
      + done.
      + apply linked_nfe; [|done]. by apply vdK', mvd_twin_vd.
      + rewrite <- nfe_nfe by apply mvd_twin_vd, Hu. apply linked_nfe; [by apply vd_nfe, vdK', mvd_twin_vd|].
        apply linked_nfe; [|done]. by apply vdK', mvd_twin_vd.
  Qed.

  Lemma new_nodup id : id ∈ O ∪ K' → NoDup (list4 (t_vs (F' id))).
  Proof.
    intros [H|H]%elem_of_union.
    - rewrite (co_vsO Hc) by done. apply (vo_nodup _ _ Hok). by apply elem_of_union_l.
    - apply (co_K' Hc) in H as (u & Hu & <-).
      assert (NoDup (list4 (vv F' (mvd u)))) as H.
      { rewrite vvD by done. pose proof (vv_nodup F u (bw_edge _ Hu) (vo_nodup _ _ Hok _ (proj1 (bw_vd _ Hu)))) as H.
        destruct (bw_ne u Hu) as (?&?&?&_). unfold list4 in *. cbn. apply NoDup4 in H as (?&?&?&?&?&?). apply NoDup4. done. }
      revert H. unfold vv, mvd. cbn [w_tet w_edge]. generalize (t_vs (F' (ρ (side u)))) as vs. intros [a b c d].
      pose proof (bw_edge _ Hu) as He. generalize dependent (w_edge u). intros e He. unfold list4. rewrite !NoDup4.
      case12 e He; cbn; intros (?&?&?&?&?&?); repeat split; congruence.
  Qed.

  (** Triangles without the new vertex. *)
  Lemma outer_uniq z z' : vd (O ∪ K') z → vd (O ∪ K') z' → tri3 (vv F' z) = tri3 (vv F' z') →
    (vd O z ∨ ∃ u, bw u ∧ z = mvd u) → (vd O z' ∨ ∃ u, bw u ∧ z' = mvd u) → z = z'.
  Proof.
    assert (∀ w u, vd O w → bw u → tri3 (vv F w) ≠ tri3 (vv F u)) as Hn.
    { intros w u Hw Hu E. assert (w = u) as -> by (apply (vo_uniq _ _ Hok); [by apply vdO|by apply bw_vd|done]).
      apply (co_disj Hc (w_tet u)); [apply Hw|apply Hu]. }
    intros Hz Hz' E [H|(u & Hu & ->)] [H'|(u' & Hu' & ->)].
    - rewrite !vvO in E by (apply H || apply H'). apply (vo_uniq _ _ Hok); [by apply vdO..|done].
    - rewrite vvO, vvD in E by (done || apply H). destruct (Hn z u' H Hu'). done.
    - rewrite (vvO z'), vvD in E by (done || apply H'). destruct (Hn z' u H' Hu). done.
    - rewrite !vvD in E by done. f_equal. apply (vo_uniq _ _ Hok); [by apply bw_vd..|]. exact E.
  Qed.
  (** The position of the new vertex. *)
  Lemma third_new z : vd (O ∪ K') z → q2 (vv F' z) = v → ∃ u, bw u ∧ z = to_twin_edge (mvd u).
  Proof.
    intros Hz E. destruct (vd_cases' _ Hz) as [H|H].
    - rewrite vvO in E by apply H. destruct (old_ne z (vdO _ H)) as (_&_&?&_). done.
    - destruct (new_cases z H) as (u & Hu & [->|[->|[->| ->]]]).
      + rewrite vvD in E by done. destruct (bw_ne u Hu) as (_&_&?&_). done.
      + by exists u.
      + rewrite vv_nfe, vvI in E by (done || by apply mvd_twin_vd). destruct (bw_ne u Hu) as (_&?&_). done.
      + rewrite vv_pfe, vvI in E by (done || by apply mvd_twin_vd). destruct (bw_ne u Hu) as (?&?&_). done.
  Qed.
  Lemma fourth_new z : vd (O ∪ K') z → q0 (vv F' z) ≠ v → q1 (vv F' z) ≠ v → q2 (vv F' z) ≠ v → vd O z ∨ ∃ u, bw u ∧ z = mvd u.
  Proof.
    intros Hz E0 E1 E2. destruct (vd_cases' _ Hz) as [H|H]; [by left|]. right.
    destruct (new_cases z H) as (u & Hu & [->|[->|[->| ->]]]).
    - by exists u.
    - by rewrite vvI in E2.
    - by rewrite vv_nfe, vvI in E1 by (done || by apply mvd_twin_vd).
    - by rewrite vv_pfe, vvI in E0 by (done || by apply mvd_twin_vd).
  Qed.
  Lemma inner_uniq z z' : vd (O ∪ K') z → vd (O ∪ K') z' → tri3 (vv F' z) = tri3 (vv F' z') → q2 (vv F' z) = v → z = z'.
  Proof.
    intros Hz Hz' E Ev. apply tri3_eq in E as (E0 & E1 & E2).
    destruct (third_new z Hz Ev) as (u & Hu & ->). destruct (third_new z' Hz') as (u' & Hu' & ->); [congruence|].
    rewrite !vvI in E0, E1 by done. cbn in E0, E1. f_equal. f_equal. apply (cs_edge Hs); [done..|]. unfold pair2. congruence.
  Qed.
  Lemma new_uniq z z' : vd (O ∪ K') z → vd (O ∪ K') z' → tri3 (vv F' z) = tri3 (vv F' z') → z = z'.
  Proof.
    intros Hz Hz' E. pose proof E as (E0 & E1 & E2)%tri3_eq.
    destruct (decide (q2 (vv F' z) = v)) as [D2|D2]; [by apply inner_uniq|].
    destruct (decide (q0 (vv F' z) = v)) as [D0|D0].
    { rewrite <- (pfe_nfe z), <- (pfe_nfe z') by (apply Hz || apply Hz'). f_equal.
      apply inner_uniq; [by apply vd_nfe..| |]; rewrite !vv_nfe by (apply Hz || apply Hz'); unfold tri3; cbn; congruence. }
    destruct (decide (q1 (vv F' z) = v)) as [D1|D1].
    { rewrite <- (nfe_pfe z), <- (nfe_pfe z') by (apply Hz || apply Hz'). f_equal.
      apply inner_uniq; [by apply vd_pfe..| |]; rewrite !vv_pfe by (apply Hz || apply Hz'); unfold tri3; cbn; congruence. }
    apply outer_uniq; [done..| |]; apply fourth_new; congruence.
  Qed.
  Lemma new_avav z : vd (O ∪ K') z → av F' (av F' z) = z.
  Proof.
    intros Hz. destruct (new_linked z Hz) as (H1 & T1 & _). destruct (new_linked _ H1) as (H2 & T2 & _).
    apply new_uniq; [done..|]. eapply twist_tri; [exact T2|by apply twist_sym].
  Qed.

  Local Ltac no_both := exfalso; match goal with H1 : vd O ?a, H2 : vd K ?a |- _ => exact (co_disj Hc _ (proj1 H1) (proj1 H2)) end.

  (** ** Rings. *)
  Lemma rn_pair z : vd (O ∪ K') z → vd (O ∪ K') (rn F' z) ∧ pair2 (vv F' (rn F' z)) = pair2 (vv F' z).
  Proof.
    intros Hz. destruct (new_linked _ (vd_twin _ _ Hz)) as (H1 & T1 & _). split; [done|].
    unfold rn. rewrite vv_twin in T1 by apply Hz. destruct T1 as (E1 & E2 & _). cbn in E1, E2. unfold pair2. congruence.
  Qed.
  Lemma rn_back z : vd (O ∪ K') z → rn F' (to_twin_edge (rn F' z)) = to_twin_edge z.
  Proof.
    intros Hz. destruct (rn_pair z Hz) as [H1 _]. unfold rn at 1. rewrite twin_twin by apply H1. unfold rn. by apply new_avav, vd_twin.
  Qed.
  Notation R := (rtsc (estep (O ∪ K') F')).
  Local Lemma Rfwd z : vd (O ∪ K') z → R z (rn F' z).
  Proof. intros H. apply rtsc_lr. by split. Qed.
  Local Lemma Rsym x y : R x y → R y x.
  Proof. apply rtsc_sym || (intros H; by symmetry). Qed.

  Lemma mate_ring u u' : mate u u' → rn F' (mvd u) = to_twin_edge (mvd u').
  Proof. intros H. unfold rn. by apply (co_avI Hc). Qed.

  (** Old edges: follow the old ring, jumping over the region. *)
  Local Definition at_ring w0 (p : N * N) x : Prop :=
    (vd O x ∧ pair2 (vv F x) = p ∧ R w0 x) ∨ (vd K x ∧ pair2 (vv F x) = p ∧ ∃ u, bw u ∧ pair2 (vv F u) = p ∧ R w0 (mvd u)).
  Local Lemma rn_old x : vd (O ∪ K) x → vd (O ∪ K) (rn F x) ∧ pair2 (vv F (rn F x)) = pair2 (vv F x) ∧ av F (rn F x) = to_twin_edge x.
  Proof.
    intros Hx. destruct (vo_adj _ _ Hok _ (vd_twin _ _ Hx)) as [H1 T1]. unfold rn. split; [done|].
    rewrite vv_twin in T1 by apply Hx. destruct T1 as (E1 & E2 & _). cbn in E1, E2. split; [unfold pair2; congruence|].
    by apply (av_av _ _ _ Hok), vd_twin.
  Qed.
  Local Lemma at_ring_step w0 p x : vd (O ∪ K) x → at_ring w0 p x ↔ at_ring w0 p (rn F x).
  Proof.
    intros Hx. destruct (rn_old x Hx) as (Hy & Ep & Eb). set (y := rn F x) in *.
    destruct (vd_cases _ Hx) as [HxO|HxK], (vd_cases _ Hy) as [HyO|HyK].
    - assert (rn F' x = y) as E by (unfold rn; apply (co_avO Hc); [by apply vd_twin|apply HyO]).
      assert (R x y) as HR by (rewrite <- E; by apply Rfwd, vdO').
      unfold at_ring. rewrite Ep. split; intros [(_ & H1 & H2)|(? & _)]; try (no_both); left;
        (split; [done|]); (split; [done|]); (etrans; [exact H2|]); [done|by apply Rsym].
    - assert (bw y) as Hb by (split; [done|rewrite Eb; apply HxO]).
      assert (rn F' x = mvd y) as E by (unfold rn; rewrite (co_avB Hc); [done|by apply vd_twin|apply HyK]).
      assert (R x (mvd y)) as HR by (rewrite <- E; by apply Rfwd, vdO').
      unfold at_ring. rewrite Ep. split.
      + intros [(_ & H1 & H2)|(? & _)]; [|no_both]. right. split; [done|]. split; [done|]. exists y.
        split; [done|]. split; [by rewrite Ep|]. by etrans.
      + intros [(? & _)|(_ & H1 & u & Hu & Eu & Hr)]; [no_both|]. left. split; [done|]. split; [done|].
        assert (u = y) as -> by (apply (cs_edge Hs); [done..|congruence]). etrans; [exact Hr|by apply Rsym].
    - assert (bw (to_twin_edge x)) as Hb by (split; [by apply vd_twin|exact (proj1 HyO)]).
      destruct (cs_mate Hs _ Hb) as [u' Hm].
      assert (rn F' (mvd u') = to_twin_edge (mvd (to_twin_edge x))) as E1 by by apply mate_ring, mate_sym.
      assert (rn F' (to_twin_edge (mvd (to_twin_edge x))) = y) as E2.
      { unfold rn. rewrite twin_twin by by apply mvd_edge. by rewrite (co_avD Hc). }
      pose proof Hm as (_ & Hb' & M0 & M1). rewrite vv_twin in M0, M1 by apply Hx. cbn in M0, M1.
      assert (R (mvd u') y) as HR.
      { etrans; [by apply Rfwd, vdK', mvd_vd|]. rewrite E1. etrans; [by apply Rfwd, vdK', mvd_twin_vd|]. by rewrite E2. }
      assert (pair2 (vv F u') = pair2 (vv F x)) as Eu' by (unfold pair2; congruence).
      unfold at_ring. rewrite Ep. split.
      + intros [(? & _)|(_ & H1 & u & Hu & Eu & Hr)]; [no_both|]. left. split; [done|]. split; [done|].
        assert (u = u') as -> by (apply (cs_edge Hs); [done..|congruence]). by etrans.
      + intros [(_ & H1 & H2)|(? & _)]; [|no_both]. right. split; [done|]. split; [done|]. exists u'.
        split; [done|]. split; [by rewrite Eu'|]. etrans; [exact H2|by apply Rsym].
    - unfold at_ring. rewrite Ep. split; intros [(? & _)|(_ & H1 & H2)]; try (no_both); right; done.
  Qed.
  Local Lemma at_ring_all w0 p x y : rtsc (estep (O ∪ K) F) x y → at_ring w0 p x → at_ring w0 p y.
  Proof.
    intros Hr. induction Hr as [|a b c [[Ha ->]|[Hb ->]] _ IH]; [done|..]; intros H; apply IH.
    - by apply (proj1 (at_ring_step w0 p a Ha)).
    - by apply (proj2 (at_ring_step w0 p b Hb)).
  Qed.

  (** The walker from a boundary vertex to the new vertex. *)
  Definition spoke u : walker := to_perm (mvd u) P0312.
  Lemma spoke_vd u : bw u → vd K' (spoke u).
  Proof. intros H. by apply vd_perm, mvd_vd. Qed.
  Lemma vv_spoke u : bw u → vv F' (spoke u) = A4 (q0 (vv F u)) v (q1 (vv F u)) (q2 (vv F u)).
  Proof. intros H. unfold spoke. rewrite vv_perm by by apply mvd_edge. by rewrite vvD. Qed.
  Lemma spoke_face w : w_edge w < 12 → to_twin_edge (to_perm w P0312) = to_pfe (to_twin_edge (to_pfe w)) ∧
    to_perm w P0312 = to_nfe (to_twin_edge w).
  Proof. destruct w as [t e]. cbn [w_edge]. intros He. case12 e He; split; reflexivity. Qed.
  (** Around a spoke: to the next triangle around the boundary vertex. *)
  Lemma spoke_next u u' : bw u → mate (to_pfe u) u' → rn F' (spoke u) = spoke u'.
  Proof.
    intros Hu Hm. unfold rn, spoke. rewrite (proj1 (spoke_face _ (mvd_edge _ Hu))).
    rewrite <- mvd_pfe by by apply bw_edge. pose proof (bw_pfe _ Hu) as Hp. pose proof Hm as (_ & Hu' & _).
    rewrite av_pfe; [|apply vdK', mvd_twin_vd, Hp|apply (co_opp Hc), vdK', mvd_twin_vd, Hp].
    rewrite (co_avI Hc _ u') by done. by rewrite (proj2 (spoke_face _ (mvd_edge _ Hu'))).
  Qed.
  Lemma turn_spoke u u' : bturn u u' → rn F' (spoke u') = spoke u.
  Proof.
    intros (x & Hm & ->). pose proof Hm as (Hu & Hx & _). apply spoke_next; [by apply bw_nfe|].
    rewrite pfe_nfe by by apply bw_edge. by apply mate_sym.
  Qed.
  Lemma turn_bw u u' : bturn u u' → bw u ∧ bw u' ∧ q0 (vv F u') = q0 (vv F u).
  Proof.
    intros (x & (Hu & Hx & E0 & E1) & ->). split; [done|]. split; [by apply bw_nfe|]. rewrite vv_nfe by by apply bw_edge. done.
  Qed.
  Lemma spokes u u' : bw u → bw u' → q0 (vv F u) = q0 (vv F u') → R (spoke u) (spoke u').
  Proof.
    intros Hu Hu' E. pose proof (cs_fan Hs u u' Hu Hu' E) as Hr. clear Hu Hu' E.
    induction Hr as [|a b c [H|H] _ IH]; [done|..]; (etrans; [|exact IH]).
    - apply Rsym. rewrite <- (turn_spoke _ _ H). destruct (turn_bw _ _ H) as (?&?&_). by apply Rfwd, vdK', spoke_vd.
    - rewrite <- (turn_spoke _ _ H). destruct (turn_bw _ _ H) as (?&?&_). by apply Rfwd, vdK', spoke_vd.
  Qed.
  Lemma R_twin x y : vd (O ∪ K') x → R x y → R (to_twin_edge x) (to_twin_edge y).
  Proof.
    intros Hx Hr. revert Hx. induction Hr as [|a b c [[Ha ->]|[Hb ->]] _ IH]; [done|..]; intros Hx.
    - destruct (rn_pair a Ha) as [H1 _]. etrans; [|by apply IH]. apply Rsym. rewrite <- (rn_back a) by done. by apply Rfwd, vd_twin.
    - etrans; [|by apply IH]. rewrite <- (rn_back b) by done. by apply Rfwd, vd_twin.
  Qed.
  Lemma second_new z : vd (O ∪ K') z → q1 (vv F' z) = v → ∃ u, bw u ∧ z = spoke u.
  Proof.
    intros Hz E. destruct (third_new (to_pfe z)) as (u & Hu & Eu).
    - by apply vd_pfe.
    - by rewrite vv_pfe by apply Hz.
    - exists u. split; [done|]. unfold spoke. rewrite (proj2 (spoke_face _ (mvd_edge _ Hu))), <- Eu. by rewrite nfe_pfe by apply Hz.
  Qed.
  (** Walkers along an old edge. *)
  Lemma edge_cases z : vd (O ∪ K') z → q0 (vv F' z) ≠ v → q1 (vv F' z) ≠ v →
    vd O z ∨ ∃ u, bw u ∧ (z = mvd u ∨ z = to_twin_edge (mvd u)).
  Proof.
    intros Hz E0 E1. destruct (vd_cases' _ Hz) as [H|H]; [by left|]. right.
    destruct (new_cases z H) as (u & Hu & [->|[->|[->| ->]]]).
    - exists u. tauto.
    - exists u. tauto.
    - by rewrite vv_nfe, vvI in E1 by (done || by apply mvd_twin_vd).
    - by rewrite vv_pfe, vvI in E0 by (done || by apply mvd_twin_vd).
  Qed.
  Lemma edge_rep z : vd (O ∪ K') z → q0 (vv F' z) ≠ v → q1 (vv F' z) ≠ v →
    ∃ x, vd (O ∪ K) x ∧ pair2 (vv F x) = pair2 (vv F' z) ∧
      ((vd O x ∧ R z x) ∨ (bw x ∧ R z (mvd x))).
  Proof.
    intros Hz E0 E1. destruct (edge_cases z Hz E0 E1) as [H|(u & Hu & [->| ->])].
    - exists z. split; [by apply vdO|]. rewrite vvO by apply H. split; [done|]. left. split; [done|]. apply rtc_refl.
    - exists u. split; [by apply bw_vd|]. rewrite vvD by done. split; [done|]. right. split; [done|apply rtc_refl].
    - destruct (cs_mate Hs u Hu) as [u' Hm]. pose proof Hm as (_ & Hu' & M0 & M1). exists u'. split; [by apply bw_vd|].
      rewrite vvI by done. split; [unfold pair2; cbn; congruence|]. right. split; [done|]. apply Rsym.
      rewrite <- (mate_ring u' u) by by apply mate_sym. by apply Rfwd, vdK', mvd_vd.
  Qed.
  Lemma new_ring z z' : vd (O ∪ K') z → vd (O ∪ K') z' → pair2 (vv F' z) = pair2 (vv F' z') → R z z'.
  Proof.
    intros Hz Hz' E. pose proof (pair2_eq _ _ E) as [E0 E1].
    destruct (decide (q1 (vv F' z) = v)) as [D1|D1].
    { destruct (second_new z Hz D1) as (u & Hu & ->). destruct (second_new z' Hz') as (u' & Hu' & ->); [congruence|].
      rewrite !vv_spoke in E0 by done. by apply spokes. }
    destruct (decide (q0 (vv F' z) = v)) as [D0|D0].
    { destruct (second_new (to_twin_edge z)) as (u & Hu & Eu); [by apply vd_twin|by rewrite vv_twin by apply Hz|].
      destruct (second_new (to_twin_edge z')) as (u' & Hu' & Eu'); [by apply vd_twin|rewrite vv_twin by apply Hz'; cbn; congruence|].
      rewrite <- (twin_twin z), <- (twin_twin z') by (apply Hz || apply Hz'). apply R_twin; [by apply vd_twin|].
      rewrite Eu, Eu'. apply spokes; [done..|].
      assert (q0 (vv F' (spoke u)) = q1 (vv F' z)) as H1 by (rewrite <- Eu; by rewrite vv_twin by apply Hz).
      assert (q0 (vv F' (spoke u')) = q1 (vv F' z')) as H2 by (rewrite <- Eu'; by rewrite vv_twin by apply Hz').
      rewrite vv_spoke in H1, H2 by done. cbn in H1, H2. congruence. }
    destruct (edge_rep z Hz D0 D1) as (x & Hx & Ex & Cx). destruct (edge_rep z' Hz') as (x' & Hx' & Ex' & Cx'); [congruence..|].
    assert (at_ring z (pair2 (vv F x)) x) as H.
    { destruct Cx as [[H1 H2]|[H1 H2]]; [by left|right]. split; [apply H1|]. split; [done|]. by exists x. }
    apply (at_ring_all _ _ x x') in H; [|apply (vo_ring _ _ Hok); [done..|congruence]].
    destruct H as [(H1 & H2 & H3)|(H1 & H2 & u & Hu & Eu & H3)], Cx' as [[H4 H5]|[H4 H5]].
    - etrans; [exact H3|by apply Rsym].
    - exfalso. apply (co_disj Hc (w_tet x')); [apply H1|apply H4].
    - exfalso. apply (co_disj Hc (w_tet x')); [apply H4|apply H1].
    - assert (u = x') as -> by (apply (cs_edge Hs); [done..|congruence]). etrans; [exact H3|by apply Rsym].
  Qed.

  (** ** Stars. *)
  Notation S := (rtsc (vstep (O ∪ K') F')).
  Local Lemma Ssym x y : S x y → S y x.
  Proof. apply rtsc_sym || (intros H; by symmetry). Qed.
  Lemma star_tet z z' : vd (O ∪ K') z → vd (O ∪ K') z' → w_tet z = w_tet z' → q0 (vv F' z) = q0 (vv F' z') → S z z'.
  Proof.
    intros Hu Hu' Et E0. pose proof (new_nodup _ (proj1 Hu)) as Hnd.
    assert (z' = z ∨ z' = to_nve z ∨ z' = to_nve (to_nve z)) as [-> | [-> | -> ]].
    { destruct z as [t e], z' as [t' e']. cbn in Et. subst t'. destruct Hu as [_ He], Hu' as [_ He'].
      cbn in He, He', Hnd. unfold vv in E0; cbn in E0. revert E0 Hnd. destruct (t_vs (F' t)) as [a b c d]. intros E0 Hnd.
      apply NoDup4 in Hnd. cbn in Hnd. destruct Hnd as (?&?&?&?&?&?). revert E0. case12 e He; case12 e' He'; cbn; intros; tauto || congruence. }
    - apply rtc_refl.
    - apply rtsc_lr. split; [done|]. by left.
    - etrans; [apply rtsc_lr; split; [done|left; done]|]. apply rtsc_lr. split; [by apply vd_nve|]. by left.
  Qed.
  Lemma star_cross z : vd (O ∪ K') z → S z (to_nfe (av F' z)).
  Proof. intros Hz. apply rtsc_lr. split; [done|]. by right. Qed.

  Lemma mate_star u u' : mate u u' → S (mvd u) (mvd (to_nfe u')).
  Proof.
    intros Hm. pose proof Hm as (Hu & Hu' & E0 & E1). set (z := to_nfe (to_twin_edge (mvd u))).
    assert (vd (O ∪ K') z) as Hz by by apply vd_nfe, vdK', mvd_twin_vd.
    assert (to_nfe (av F' z) = to_twin_edge (mvd u')) as Ez.
    { unfold z. rewrite av_nfe; [|apply vdK', mvd_twin_vd, Hu|apply (co_opp Hc), vdK', mvd_twin_vd, Hu].
      rewrite (co_avI Hc u u') by done. apply nfe_pfe. by apply (mvd_twin_vd u'). }
    etrans; [apply (star_tet _ z)|].
    - by apply vdK', mvd_vd.
    - done.
    - done.
    - unfold z. rewrite vv_nfe, vvI, vvD by (done || by apply mvd_twin_vd). done.
    - etrans; [by apply star_cross|]. rewrite Ez. apply star_tet.
      + by apply vdK', mvd_twin_vd.
      + by apply vdK', mvd_vd, bw_nfe.
      + by rewrite mvd_nfe by by apply bw_edge.
      + rewrite vvI by done. rewrite vvD by by apply bw_nfe. rewrite vv_nfe by by apply bw_edge. done.
  Qed.
  Lemma fan_star u u' : bw u → bw u' → q0 (vv F u) = q0 (vv F u') → S (mvd u) (mvd u').
  Proof.
    intros Hu Hu' E. pose proof (cs_fan Hs u u' Hu Hu' E) as Hr. clear Hu Hu' E.
    induction Hr as [|a b c [H|H] _ IH]; [apply rtc_refl|..]; (etrans; [|exact IH]); destruct H as (x & Hm & ->).
    - by apply mate_star.
    - by apply Ssym, mate_star.
  Qed.
  (** The walker from the new vertex. *)
  Definition hub u : walker := to_twin_edge (spoke u).
  Lemma hub_vd u : bw u → vd K' (hub u).
  Proof. intros H. by apply vd_twin, spoke_vd. Qed.
  Lemma vv_hub u : bw u → vv F' (hub u) = A4 v (q0 (vv F u)) (q2 (vv F u)) (q1 (vv F u)).
  Proof. intros H. unfold hub. rewrite vv_twin by apply spoke_vd, H. by rewrite vv_spoke. Qed.
  Lemma mate_hub u u' : mate u u' → S (hub u) (hub (to_nfe u')).
  Proof.
    intros Hm. pose proof Hm as (Hu & Hu' & E0 & E1).
    (* the inner triangle (v, b, a) of [u], seen from v *)
    set (z := to_pfe (to_twin_edge (mvd u))).
    assert (vd (O ∪ K') z) as Hz by by apply vd_pfe, vdK', mvd_twin_vd.
    assert (q0 (vv F' z) = v) as Ez0 by (unfold z; rewrite vv_pfe, vvI by (done || by apply mvd_twin_vd); done).
    assert (av F' z = to_nfe (to_twin_edge (mvd u'))) as Ez.
    { unfold z. rewrite av_pfe; [|apply vdK', mvd_twin_vd, Hu|apply (co_opp Hc), vdK', mvd_twin_vd, Hu].
      by rewrite (co_avI Hc u u'). }
    etrans; [apply (star_tet _ z); [by apply vdK', hub_vd|done|done|by rewrite vv_hub]|].
    etrans; [by apply star_cross|]. rewrite Ez. apply star_tet.
    - by apply vd_nfe, vd_nfe, vdK', mvd_twin_vd.
    - by apply vdK', hub_vd, bw_nfe.
    - unfold hub, spoke. rewrite mvd_nfe by by apply bw_edge. done.
    - rewrite vv_hub by by apply bw_nfe. rewrite vv_nfe by apply to_nfe_ok. rewrite vv_nfe by by apply mvd_twin_vd. by rewrite vvI.
  Qed.
  Lemma hub_star u u' : bw u → bw u' → S (hub u) (hub u').
  Proof.
    intros Hu Hu'. pose proof (cs_conn Hs u u' Hu Hu') as Hr. clear Hu Hu'.
    assert (∀ a b, bturn a b ∨ (bw a ∧ b = to_nfe a) → S (hub a) (hub b)) as Hstep.
    { intros a b [(x & Hm & ->)|[Ha ->]]; [by apply mate_hub|]. apply star_tet.
      - by apply vdK', hub_vd.
      - by apply vdK', hub_vd, bw_nfe.
      - unfold hub, spoke. by rewrite mvd_nfe by by apply bw_edge.
      - by rewrite !vv_hub by (done || by apply bw_nfe). }
    induction Hr as [|a b c [H|H] _ IH]; [apply rtc_refl|..]; (etrans; [|exact IH]).
    - by apply Hstep.
    - by apply Ssym, Hstep.
  Qed.

  Local Definition at_star w0 (a : N) x : Prop :=
    q0 (vv F x) = a ∧ ((vd O x ∧ S w0 x) ∨ (vd K x ∧ ∃ u, bw u ∧ q0 (vv F u) = a ∧ S w0 (mvd u))).
  Local Lemma cross_old x : vd (O ∪ K) x → vd (O ∪ K) (to_nfe (av F x)) ∧ q0 (vv F (to_nfe (av F x))) = q0 (vv F x).
  Proof.
    intros Hx. destruct (vo_adj _ _ Hok x Hx) as [H1 (T1 & T2 & _)]. split; [by apply vd_nfe|].
    rewrite vv_nfe by apply H1. cbn. done.
  Qed.
  Local Lemma at_star_step w0 a x y : vstep (O ∪ K) F x y → at_star w0 a x ↔ at_star w0 a y.
  Proof.
    intros [Hx Hy].
    destruct Hy as [->| ->].
    - assert (q0 (vv F (to_nve x)) = q0 (vv F x)) as E by by rewrite vv_nve by apply Hx.
      unfold at_star. rewrite E. destruct (vd_cases _ Hx) as [H|H].
      + assert (S x (to_nve x)) as HS by (apply rtsc_lr; split; [by apply vdO'|by left]).
        pose proof (vd_nve _ _ H) as H'. split; (intros [? [[_ H1]|[H1 _]]]; [|no_both]); (split; [done|]); left;
          (split; [done|]); (etrans; [exact H1|]); [done|by apply Ssym].
      + pose proof (vd_nve _ _ H) as H'. split; (intros [? [[H1 _]|[_ H1]]]; [no_both|]); (split; [done|]); by right.
    - destruct (cross_old x Hx) as [Hy Ey]. unfold at_star. rewrite Ey.
      destruct (vo_adj _ _ Hok x Hx) as [Ha _]. pose proof (av_av _ _ _ Hok Hx) as Eb.
      destruct (vd_cases _ Hx) as [HxO|HxK], (vd_cases _ Ha) as [HaO|HaK].
      + pose proof (vd_nfe _ _ HaO) as HyO. assert (S x (to_nfe (av F x))) as HS.
        { etrans; [by apply star_cross, vdO'|]. rewrite (co_avO Hc) by (done || apply HaO). apply rtc_refl. }
        split; (intros [? [[_ H1]|[H1 _]]]; [|no_both]); (split; [done|]); left; (split; [done|]); (etrans; [exact H1|]); [done|by apply Ssym].
      + pose proof (vd_nfe _ _ HaK) as HyK. destruct (outer_bw x HxO (proj1 HaK)) as [Hb _].
        assert (S x (mvd (to_nfe (av F x)))) as HS.
        { etrans; [by apply star_cross, vdO'|]. rewrite (co_avB Hc) by (done || apply HaK). rewrite mvd_nfe by apply Ha. apply rtc_refl. }
        split; intros [E [[H1 H2]|[H1 H2]]]; try (no_both); (split; [done|]).
        * right. split; [done|]. exists (to_nfe (av F x)). split; [by apply bw_nfe|]. split; [congruence|]. by etrans.
        * left. split; [done|]. destruct H2 as (u & Hu & Eu & Hr). etrans; [exact Hr|].
          etrans; [apply (fan_star u (to_nfe (av F x))); [done|by apply bw_nfe|congruence]|by apply Ssym].
      + pose proof (vd_nfe _ _ HaO) as HyO. assert (bw x) as Hb by (split; [done|apply HaO]).
        assert (S (mvd x) (to_nfe (av F x))) as HS.
        { etrans; [by apply star_cross, vdK', mvd_vd|]. rewrite (co_avD Hc) by done. apply rtc_refl. }
        split; intros [E [[H1 H2]|[H1 H2]]]; try (no_both); (split; [done|]).
        * left. split; [done|]. destruct H2 as (u & Hu & Eu & Hr). etrans; [exact Hr|].
          etrans; [apply (fan_star u x); [done..|congruence]|done].
        * right. split; [done|]. exists x. split; [done|]. split; [done|]. etrans; [exact H2|by apply Ssym].
      + pose proof (vd_nfe _ _ HaK) as HyK. split; (intros [? [[H1 _]|[_ H1]]]; [no_both|]); (split; [done|]); by right.
  Qed.
  Local Lemma at_star_all w0 a x y : rtsc (vstep (O ∪ K) F) x y → at_star w0 a x → at_star w0 a y.
  Proof.
    intros Hr. induction Hr as [|b c d [H|H] _ IH]; [done|..]; intros H'; apply IH.
    - by apply (proj1 (at_star_step w0 a b c H)).
    - by apply (proj2 (at_star_step w0 a c b H)).
  Qed.
  (** Walkers at an old vertex. *)
  Lemma vert_rep z : vd (O ∪ K') z → q0 (vv F' z) ≠ v →
    ∃ x, vd (O ∪ K) x ∧ q0 (vv F x) = q0 (vv F' z) ∧ ((vd O x ∧ S z x) ∨ (bw x ∧ S z (mvd x))).
  Proof.
    intros Hz Hne. destruct (vd_cases' _ Hz) as [H|H].
    - exists z. split; [by apply vdO|]. rewrite vvO by apply H. split; [done|]. left. split; [done|apply rtc_refl].
    - destruct (new_cases z H) as (u & Hu & C).
      assert (∀ x, bw x → w_tet z = w_tet (mvd x) → q0 (vv F' z) = q0 (vv F x) → ∃ x, vd (O ∪ K) x ∧ q0 (vv F x) = q0 (vv F' z) ∧ ((vd O x ∧ S z x) ∨ (bw x ∧ S z (mvd x)))) as Hx.
      { intros x Hx Et E. exists x. split; [by apply bw_vd|]. split; [done|]. right. split; [done|].
        apply star_tet; [done|by apply vdK', mvd_vd|done|]. by rewrite vvD. }
      destruct C as [->|[->|[->| ->]]].
      + apply (Hx u); [done|done|]. by rewrite vvD.
      + apply (Hx (to_nfe u)); [by apply bw_nfe|by rewrite mvd_nfe by by apply bw_edge|]. rewrite vvI by done. by rewrite vv_nfe by by apply bw_edge.
      + apply (Hx u); [done|done|]. rewrite vv_nfe, vvI by (done || by apply mvd_twin_vd). done.
      + exfalso. apply Hne. rewrite vv_pfe, vvI by (done || by apply mvd_twin_vd). done.
  Qed.
  Lemma first_new z : vd (O ∪ K') z → q0 (vv F' z) = v → ∃ u, bw u ∧ z = hub u.
  Proof.
    intros Hz E. destruct (second_new (to_twin_edge z)) as (u & Hu & Eu); [by apply vd_twin|by rewrite vv_twin by apply Hz|].
    exists u. split; [done|]. unfold hub. rewrite <- Eu. by rewrite twin_twin by apply Hz.
  Qed.
  Lemma new_star z z' : vd (O ∪ K') z → vd (O ∪ K') z' → q0 (vv F' z) = q0 (vv F' z') → S z z'.
  Proof.
    intros Hz Hz' E. destruct (decide (q0 (vv F' z) = v)) as [D|D].
    { destruct (first_new z Hz D) as (u & Hu & ->). destruct (first_new z' Hz') as (u' & Hu' & ->); [congruence|]. by apply hub_star. }
    destruct (vert_rep z Hz D) as (x & Hx & Ex & Cx). destruct (vert_rep z' Hz') as (x' & Hx' & Ex' & Cx'); [congruence|].
    assert (at_star z (q0 (vv F x)) x) as H.
    { split; [done|]. destruct Cx as [[H1 H2]|[H1 H2]]; [by left|right]. split; [apply H1|]. by exists x. }
    apply (at_star_all _ _ x x') in H; [|apply (vo_star _ _ Hok); [done..|congruence]].
    destruct H as [H0 [(H1 & H3)|(H1 & u & Hu & Eu & H3)]], Cx' as [[H4 H5]|[H4 H5]].
    - etrans; [exact H3|by apply Ssym].
    - exfalso. apply (co_disj Hc (w_tet x')); [apply H1|apply H4].
    - exfalso. apply (co_disj Hc (w_tet x')); [apply H4|apply H1].
    - etrans; [exact H3|]. etrans; [apply (fan_star u x'); [done..|congruence]|by apply Ssym].
  Qed.

  Lemma coned_vok : vok (O ∪ K') F'.
  Proof.
    split.
    - apply new_nodup.
    - intros z Hz. destruct (new_linked z Hz) as (H1 & H2 & _). done.
    - apply new_uniq.
    - intros z Hz. by destruct (new_linked z Hz) as (_ & _ & H).
    - apply new_ring.
    - apply new_star.
  Qed.
End topo.
