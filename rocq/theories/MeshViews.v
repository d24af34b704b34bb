(** Tets as total functions, and the combinatorial core of mesh consistency on them. *)
From stdpp Require Import base numbers list gmap option relations.
From Coq Require Import NArith ZArith ZifyN ZifyNat ZifyBool Lia.
From Verif Require Import IdMapModel WalkerModel WalkerSpec WalkerProofs SortProofs MeshModel WalkerMore.
Local Open Scope nat_scope.

Section views.
  Context {T : Type}.
  Implicit Types (F : N → tet T) (w u r : walker) (L K O : gset N).

  Definition vv F w : arr4 N := verts_at (t_vs (F (w_tet w))) (w_edge w).
  Definition rot (k : nat) (x : walker) : walker :=
    match k with 0 => x | 1 => to_pfe x | _ => to_nfe x end.
  Definition av F w : walker :=
    rot (w_edge w / 4) (get4 (t_opp (F (w_tet w))) (w_edge w mod 4)).
  Definition lv F w : bool := get4 (f_locked (t_flags (F (w_tet w)))) (w_edge w mod 4).
  Definition uv F w : N := get6 (t_edges (F (w_tet w))) (undir_idx (w_edge w)).
  Definition rn F w : walker := av F (to_twin_edge w).
  Definition vd L w : Prop := w_tet w ∈ L ∧ w_edge w < 12.
  Definition tri3 (x : arr4 N) : N * N * N := (q0 x, q1 x, q2 x).
  Definition pair2 (x : arr4 N) : N * N := (q0 x, q1 x).
  Definition twist (x y : arr4 N) : Prop := q0 y = q1 x ∧ q1 y = q0 x ∧ q2 y = q2 x.

  Definition estep L F w w' : Prop := vd L w ∧ w' = rn F w.
  Definition vstep L F w w' : Prop := vd L w ∧ (w' = to_nve w ∨ w' = to_nfe (av F w)).

  Record vok L F : Prop := VOk {
    vo_nodup id : id ∈ L → NoDup (list4 (t_vs (F id)));
    vo_adj w : vd L w → vd L (av F w) ∧ twist (vv F w) (vv F (av F w));
    vo_uniq w w' : vd L w → vd L w' → tri3 (vv F w) = tri3 (vv F w') → w = w';
    vo_lock w : vd L w → lv F (av F w) = lv F w;
    vo_ring w w' : vd L w → vd L w' → pair2 (vv F w) = pair2 (vv F w') → rtsc (estep L F) w w';
    vo_star w w' : vd L w → vd L w' → q0 (vv F w) = q0 (vv F w') → rtsc (vstep L F) w w'
  }.

  (** ** Moves on views. *)
  Lemma vd_same_tet L w w' : vd L w → w_tet w' = w_tet w → w_edge w' < 12 → vd L w'.
  Proof. intros [H1 H2] E H. split; [by rewrite E|done]. Qed.
  Lemma vd_nfe L w : vd L w → vd L (to_nfe w).
  Proof. intros H. eapply vd_same_tet; [done|done|apply to_nfe_ok]. Qed.
  Lemma vd_pfe L w : vd L w → vd L (to_pfe w).
  Proof. intros H. eapply vd_same_tet; [done|done|apply to_pfe_ok]. Qed.
  Lemma vd_nve L w : vd L w → vd L (to_nve w).
  Proof. intros H. eapply vd_same_tet; [done|done|apply to_nve_ok, H]. Qed.
  Lemma vd_twin L w : vd L w → vd L (to_twin_edge w).
  Proof. intros H. eapply vd_same_tet; [done|done|apply to_twin_edge_ok, H]. Qed.
  Lemma vd_opp L w : vd L w → vd L (to_opp_edge w).
  Proof. intros H. eapply vd_same_tet; [done|done|apply to_opp_edge_ok, H]. Qed.
  Lemma vd_perm L w p : vd L w → vd L (to_perm w p).
  Proof. intros H. eapply vd_same_tet; [done|done|apply to_perm_ok, H]. Qed.

  Lemma vv_perm F w p : w_edge w < 12 → vv F (to_perm w p) = reorder (vv F w) (perm_digits p).
  Proof. intros H. unfold vv, to_perm; cbn [w_tet w_edge]. by apply verts_at_perm. Qed.
  Lemma vv_nfe F w : w_edge w < 12 →
    vv F (to_nfe w) = A4 (q1 (vv F w)) (q2 (vv F w)) (q0 (vv F w)) (q3 (vv F w)).
  Proof. intros H. rewrite to_nfe_perm by done. by rewrite vv_perm. Qed.
  Lemma vv_pfe F w : w_edge w < 12 →
    vv F (to_pfe w) = A4 (q2 (vv F w)) (q0 (vv F w)) (q1 (vv F w)) (q3 (vv F w)).
  Proof. intros H. rewrite to_pfe_perm by done. by rewrite vv_perm. Qed.
  Lemma vv_nve F w : w_edge w < 12 →
    vv F (to_nve w) = A4 (q0 (vv F w)) (q2 (vv F w)) (q3 (vv F w)) (q1 (vv F w)).
  Proof. intros H. rewrite to_nve_perm by done. by rewrite vv_perm. Qed.
  Lemma vv_pve F w : w_edge w < 12 →
    vv F (to_pve w) = A4 (q0 (vv F w)) (q3 (vv F w)) (q1 (vv F w)) (q2 (vv F w)).
  Proof. intros H. rewrite to_pve_perm by done. by rewrite vv_perm. Qed.
  Lemma vv_twin F w : w_edge w < 12 →
    vv F (to_twin_edge w) = A4 (q1 (vv F w)) (q0 (vv F w)) (q3 (vv F w)) (q2 (vv F w)).
  Proof. intros H. rewrite to_twin_edge_perm by done. by rewrite vv_perm. Qed.
  Lemma vv_opp F w : w_edge w < 12 →
    vv F (to_opp_edge w) = A4 (q2 (vv F w)) (q3 (vv F w)) (q0 (vv F w)) (q1 (vv F w)).
  Proof. intros H. rewrite to_opp_edge_perm by done. by rewrite vv_perm. Qed.

  Lemma twin_twin w : w_edge w < 12 → to_twin_edge (to_twin_edge w) = w.
  Proof. intros H. apply (walker_laws w H). Qed.
  Lemma nfe_pfe w : w_edge w < 12 → to_nfe (to_pfe w) = w.
  Proof. intros H. apply (walker_laws w H). Qed.
  Lemma pfe_nfe w : w_edge w < 12 → to_pfe (to_nfe w) = w.
  Proof. intros H. apply (walker_laws w H). Qed.
  Lemma nfe_nfe w : w_edge w < 12 → to_nfe (to_nfe w) = to_pfe w.
  Proof. destruct w as [t e]. cbn. intros He. case12 e He; reflexivity. Qed.
  Lemma pfe_pfe w : w_edge w < 12 → to_pfe (to_pfe w) = to_nfe w.
  Proof. destruct w as [t e]. cbn. intros He. case12 e He; reflexivity. Qed.

  Lemma nfe_mod4 e : e < 12 → ((e + 4) mod 12) mod 4 = e mod 4.
  Proof. intros He. case12 e He; reflexivity. Qed.
  Lemma pfe_mod4 e : e < 12 → ((e + 8) mod 12) mod 4 = e mod 4.
  Proof. intros He. case12 e He; reflexivity. Qed.

  (** Crossing commutes with turning the triangle (the other way round). *)
  Definition oppok F (id : N) : Prop := ∀ i, i < 4 → w_edge (get4 (t_opp (F id)) i) < 12.

  Lemma rot_nfe x : w_edge x < 12 → ∀ e, e < 12 → rot (((e + 4) mod 12) / 4) x = to_pfe (rot (e / 4) x).
  Proof.
    intros Hx e He. case12 e He; cbn -[to_nfe to_pfe]; rewrite ?pfe_pfe, ?pfe_nfe by done; done.
  Qed.
  Lemma rot_pfe x : w_edge x < 12 → ∀ e, e < 12 → rot (((e + 8) mod 12) / 4) x = to_nfe (rot (e / 4) x).
  Proof.
    intros Hx e He. case12 e He; cbn -[to_nfe to_pfe]; rewrite ?nfe_nfe, ?nfe_pfe by done; done.
  Qed.
  Lemma rot_ok k x : w_edge x < 12 → w_edge (rot k x) < 12.
  Proof. intros H. destruct k as [|[|k]]; cbn [rot]; [done|apply to_pfe_ok|apply to_nfe_ok]. Qed.
  Lemma rot_tet k x : w_tet (rot k x) = w_tet x.
  Proof. destruct k as [|[|k]]; done. Qed.

  Lemma av_nfe F w : w_edge w < 12 → oppok F (w_tet w) → av F (to_nfe w) = to_pfe (av F w).
  Proof.
    intros He Hok. unfold av. change (w_tet (to_nfe w)) with (w_tet w).
    change (w_edge (to_nfe w)) with ((w_edge w + 4) mod 12). rewrite nfe_mod4 by done.
    apply rot_nfe; [|done]. apply Hok. by apply Nat.mod_upper_bound.
  Qed.
  Lemma av_pfe F w : w_edge w < 12 → oppok F (w_tet w) → av F (to_pfe w) = to_nfe (av F w).
  Proof.
    intros He Hok. unfold av. change (w_tet (to_pfe w)) with (w_tet w).
    change (w_edge (to_pfe w)) with ((w_edge w + 8) mod 12). rewrite pfe_mod4 by done.
    apply rot_pfe; [|done]. apply Hok. by apply Nat.mod_upper_bound.
  Qed.
  Lemma av_ok F w : oppok F (w_tet w) → w_edge (av F w) < 12.
  Proof. intros Hok. apply rot_ok, Hok. by apply Nat.mod_upper_bound. Qed.
  Lemma oppok_canon F id : (∀ i, i < 4 → w_edge (av F (Walker id i)) < 12) → oppok F id.
  Proof. intros H i Hi. specialize (H i Hi). case4 i Hi; exact H. Qed.
  Lemma vok_oppok L F id : vok L F → id ∈ L → oppok F id.
  Proof.
    intros H Hid. apply oppok_canon. intros i Hi. apply (vo_adj L F H (Walker id i)).
    split; [done|cbn; lia].
  Qed.

  Lemma lv_nfe F w : w_edge w < 12 → lv F (to_nfe w) = lv F w.
  Proof. intros H. unfold lv. cbn [to_nfe w_tet w_edge]. by rewrite nfe_mod4. Qed.
  Lemma lv_pfe F w : w_edge w < 12 → lv F (to_pfe w) = lv F w.
  Proof. intros H. unfold lv. cbn [to_pfe w_tet w_edge]. by rewrite pfe_mod4. Qed.

  Lemma twist_sym x y : twist x y → twist y x.
  Proof. intros (?&?&?). done. Qed.
  Lemma twist_tri x y y' : twist x y → twist x y' → tri3 y = tri3 y'.
  Proof. intros (H1&H2&H3) (H4&H5&H6). unfold tri3. congruence. Qed.
  Lemma twist_nfe F F' w u : w_edge w < 12 → w_edge u < 12 →
    twist (vv F w) (vv F' u) → twist (vv F (to_nfe w)) (vv F' (to_pfe u)).
  Proof. intros Hw Hu (?&?&?). rewrite vv_nfe, vv_pfe by done. by unfold twist; cbn. Qed.
  Lemma twist_pfe F F' w u : w_edge w < 12 → w_edge u < 12 →
    twist (vv F w) (vv F' u) → twist (vv F (to_pfe w)) (vv F' (to_nfe u)).
  Proof. intros Hw Hu (?&?&?). rewrite vv_nfe, vv_pfe by done. by unfold twist; cbn. Qed.

  (** A property of positions that is invariant under turning the triangle holds everywhere in a
      tet as soon as it holds for one position of each of the four faces. *)
  Lemma face_same (P : nat → Prop) :
    (∀ e, e < 12 → P e → P ((e + 4) mod 12)) →
    ∀ e e', e < 12 → e' < 12 → e mod 4 = e' mod 4 → P e → P e'.
  Proof.
    intros Hrot e e' He He' Hm H.
    assert (e' = e ∨ e' = (e + 4) mod 12 ∨ e' = ((e + 4) mod 12 + 4) mod 12) as [-> | [-> | -> ]].
    { case12 e He; case12 e' He'; cbn in Hm |- *; try discriminate; tauto. }
    - done.
    - by apply Hrot.
    - apply Hrot; [by apply Nat.mod_upper_bound|]. by apply Hrot.
  Qed.
  Lemma face_reps (P : nat → Prop) (e0 e1 e2 e3 : nat) :
    (∀ e, e < 12 → P e → P ((e + 4) mod 12)) →
    e0 < 12 → e1 < 12 → e2 < 12 → e3 < 12 →
    e0 mod 4 = 0 → e1 mod 4 = 1 → e2 mod 4 = 2 → e3 mod 4 = 3 →
    P e0 → P e1 → P e2 → P e3 → ∀ e, e < 12 → P e.
  Proof.
    intros Hrot L0 L1 L2 L3 M0 M1 M2 M3 P0 P1 P2 P3 e He.
    pose proof (face_same P Hrot) as Hall.
    pose proof (Nat.mod_upper_bound e 4).
    destruct (e mod 4) as [|[|[|[|]]]] eqn:E; try lia.
    - apply (Hall e0); try done; lia.
    - apply (Hall e1); try done; lia.
    - apply (Hall e2); try done; lia.
    - apply (Hall e3); try done; lia.
  Qed.

  Lemma walker_face_same (P : walker → Prop) :
    (∀ u, w_edge u < 12 → P u → P (to_nfe u)) →
    ∀ w u, w_edge w < 12 → w_edge u < 12 → w_tet w = w_tet u → w_edge w mod 4 = w_edge u mod 4 →
    P w → P u.
  Proof.
    intros Hrot [t e] [t' e']. cbn. intros He He' -> Hm HP.
    apply (face_same (λ e, P (Walker t' e))) with e; try done.
    intros e1 He1 HP1. exact (Hrot (Walker t' e1) He1 HP1).
  Qed.

  (** The same, with the four faces of a walker given by moves from it. *)
  Lemma face_cases (P : walker → Prop) w : w_edge w < 12 →
    (∀ u, w_edge u < 12 → P u → P (to_nfe u)) →
    P w → P (to_perm w P1032) → P (to_perm w P0231) → P (to_perm w P2130) →
    ∀ u, w_tet u = w_tet w → w_edge u < 12 → P u.
  Proof.
    intros Hw Hrot Pw P1 P2 P3 u Ht He.
    pose proof (walker_face_same P Hrot) as K.
    assert (w_edge w mod 4 = w_edge u mod 4 ∨ w_edge (to_perm w P1032) mod 4 = w_edge u mod 4 ∨
            w_edge (to_perm w P0231) mod 4 = w_edge u mod 4 ∨ w_edge (to_perm w P2130) mod 4 = w_edge u mod 4) as C.
    { unfold to_perm; cbn [w_edge]. pose proof (Nat.mod_upper_bound (w_edge u) 4).
      generalize dependent (w_edge u mod 4). generalize dependent (w_edge w). clear.
      intros e He k Hk. case12 e He; cbn; lia. }
    destruct C as [C|[C|[C|C]]]; [apply (K w u)|apply (K (to_perm w P1032) u)
      |apply (K (to_perm w P0231) u)|apply (K (to_perm w P2130) u)]; try done; apply to_perm_ok, Hw.
  Qed.

  (** Every vertex (ordered pair, ordered triple up to orientation) of a tet is reported by some
      position. *)
  Lemma verts_at_first (vs : arr4 N) a : a ∈ list4 vs → ∃ e, e < 12 ∧ q0 (verts_at vs e) = a.
  Proof.
    destruct vs as [p q r s]. unfold list4; cbn. rewrite !elem_of_cons, elem_of_nil.
    intros [-> | [-> | [-> | [-> | []]]]]; [exists 3|exists 2|exists 1|exists 0]; (split; [lia|done]).
  Qed.
  Lemma verts_at_pair (vs : arr4 N) a b : a ∈ list4 vs → b ∈ list4 vs → a ≠ b →
    ∃ e, e < 12 ∧ q0 (verts_at vs e) = a ∧ q1 (verts_at vs e) = b.
  Proof.
    destruct vs as [p q r s]. unfold list4; cbn. rewrite !elem_of_cons, !elem_of_nil.
    intros Ha Hb Hab.
    destruct Ha as [-> | [-> | [-> | [-> | []]]]]; destruct Hb as [-> | [-> | [-> | [-> | []]]]]; try done;
    first [exists 0; split; [lia|done]|exists 1; split; [lia|done]|exists 2; split; [lia|done]
          |exists 3; split; [lia|done]|exists 4; split; [lia|done]|exists 5; split; [lia|done]
          |exists 6; split; [lia|done]|exists 7; split; [lia|done]|exists 8; split; [lia|done]
          |exists 9; split; [lia|done]|exists 10; split; [lia|done]|exists 11; split; [lia|done]].
  Qed.
  Lemma verts_at_elem (vs : arr4 N) e x : e < 12 → x ∈ list4 (verts_at vs e) ↔ x ∈ list4 vs.
  Proof. intros He. by rewrite verts_at_Permutation. Qed.

  Lemma vv_elem F w x : w_edge w < 12 → x ∈ list4 (vv F w) ↔ x ∈ list4 (t_vs (F (w_tet w))).
  Proof. intros He. unfold vv. by apply verts_at_elem. Qed.
  Lemma vv_nodup F w : w_edge w < 12 → NoDup (list4 (t_vs (F (w_tet w)))) → NoDup (list4 (vv F w)).
  Proof. intros He H. unfold vv. by rewrite verts_at_Permutation. Qed.
  Lemma vv_inj F w w' : w_edge w < 12 → w_edge w' < 12 → w_tet w = w_tet w' →
    NoDup (list4 (t_vs (F (w_tet w)))) → pair2 (vv F w) = pair2 (vv F w') → w = w'.
  Proof.
    destruct w as [t e], w' as [t' e']. cbn. intros He He' -> Hnd Hp. f_equal.
    unfold vv in Hp. cbn in Hp. unfold pair2 in Hp. injection Hp as Hp1 Hp2.
    by apply (verts_at_inj (t_vs (F t'))).
  Qed.
  Lemma pair_of_tet F id a b : a ∈ list4 (t_vs (F id)) → b ∈ list4 (t_vs (F id)) → a ≠ b →
    ∃ w, w_tet w = id ∧ w_edge w < 12 ∧ q0 (vv F w) = a ∧ q1 (vv F w) = b.
  Proof.
    intros Ha Hb Hab. destruct (verts_at_pair _ a b Ha Hb Hab) as (e & He & H1 & H2).
    exists (Walker id e). done.
  Qed.
  Lemma first_of_tet F id a : a ∈ list4 (t_vs (F id)) →
    ∃ w, w_tet w = id ∧ w_edge w < 12 ∧ q0 (vv F w) = a.
  Proof.
    intros Ha. destruct (verts_at_first _ a Ha) as (e & He & H1). exists (Walker id e). done.
  Qed.

  (** ** Consequences of consistency. *)
  Lemma av_av L F w : vok L F → vd L w → av F (av F w) = w.
  Proof.
    intros Hok Hw. destruct (vo_adj L F Hok w Hw) as [H1 T1].
    destruct (vo_adj L F Hok _ H1) as [H2 T2].
    apply (vo_uniq L F Hok); [done..|]. eapply twist_tri; [exact T2|by apply twist_sym].
  Qed.
End views.
Global Arguments vv : simpl never.
Global Arguments av : simpl never.
Global Arguments lv : simpl never.
Global Arguments uv : simpl never.
Global Arguments rn : simpl never.
