(** Inserting tets one by one into a mesh with holes. *)
From stdpp Require Import base numbers list gmap option relations.
From Coq Require Import NArith ZArith ZifyN ZifyNat ZifyBool Lia.
From Verif Require Import IdMapModel IdMapSpec IdMapProofs WalkerModel WalkerSpec WalkerProofs SortProofs
  MeshModel WalkerMore MeshOps MeshSpec MeshViews Surgery MeshLink MeshRun FlipBase FlipRun IterModel InsModel InsStep InsCone TransModel.
Local Open Scope nat_scope.

Section trans.
  Context {V T : Type}.
  Context (ctr : pt) (nv : N).
  Implicit Types (m : mesh V T) (F G : N → tet T) (w u d r : walker) (L : gset N) (id e : N)
    (Ed : N → option uedge) (Vt : N → option (vertex V)) (em : gmap (N * N) N) (tm : gmap (N * N * N) walker).
  Notation st := (st true ctr nv).

  (** A mesh whose triangles need not have two sides. *)
  Record opn L F Ed tm : Prop := Opn {
    op_nodup id : id ∈ L → NoDup (list4 (t_vs (F id)));
    op_glue w w' : vd L w → vd L w' → twist (vv F w) (vv F w') → av F w = w';
    op_uniq w w' : vd L w → vd L w' → tri3 (vv F w) = tri3 (vv F w') → w = w';
    op_tm : tmok L F tm;
    op_edge w : vd L w → ∃ ue, Ed (uv F w) = Some ue ∧ ue_vs ue = sorted_2 (pair2 (vv F w));
    op_einj e e' ue ue' : Ed e = Some ue → Ed e' = Some ue' → ue_vs ue = ue_vs ue' → e = e' }.
  (** The edges of the mesh between the pairs of vertices in [S] are those listed. *)
  Definition knows (S : N → N → Prop) Ed em : Prop := ∀ a b e, S a b → a ≠ b →
    em !! sorted_2 (a, b) = Some e ↔ ∃ ue, Ed e = Some ue ∧ ue_vs ue = sorted_2 (a, b).

  (** ** Looking up a triangle among the faces in [P]. *)
  Lemma lookup_s nt ne L F Ed Vt gf tm m (P : walker → Prop) t : st nt ne L F Ed Vt gf tm m →
    (∀ id, id ∈ L → NoDup (list4 (t_vs (F id)))) → (∀ w, w_edge w < 12 → P w → P (to_nfe w)) →
    (∀ k w, tm !! k = Some w ↔ w_tet w ∈ L ∧ w_edge w < 4 ∧ P w ∧ tri_key (tri3 (vv F w)) = k) →
    (∃ w, vd L w ∧ P w ∧ tri3 (vv F w) = t ∧ walker_from_tri m t = Some (Some w)) ∨
    (walker_from_tri m t = Some None ∧ ∀ w, vd L w → P w → tri3 (vv F w) ≠ t).
  Proof.
    intros Hst Hnd HP Htm. pose proof (st_mv _ _ _ _ _ _ _ _ _ _ _ _ Hst) as Hmv.
    assert (∀ w, w_edge w < 12 → to_nfe (to_nfe w) = to_pfe w) as Hnn by apply nfe_nfe.
    unfold walker_from_tri, walker_from_tri_tracked. rewrite (st_tr _ _ _ _ _ _ _ _ _ _ _ _ Hst), (st_tm _ _ _ _ _ _ _ _ _ _ _ _ Hst).
    destruct (tm !! tri_key t) as [w|] eqn:Et.
    - left. apply Htm in Et as (Hw & He & Pw & Ek). assert (vd L w) as Hv by (split; [done|lia]).
      pose proof (vv_nodup F _ (proj2 Hv) (Hnd _ Hw)) as Hd. unfold list4 in Hd. apply NoDup4 in Hd as (N1&N2&N3&N4&N5&N6).
      unfold to_edge_assuming_tri. rewrite (mv_verts _ _ _ _ Hmv Hw). cbn [mbind option_bind].
      unfold tri3 in Ek. apply tri_key_eq in Ek; [|done..]. unfold rotation3 in Ek. destruct Ek as [->|[->| ->]]; cbn [fst snd].
      + rewrite N.eqb_refl. exists w. split; [done|]. split; [done|]. done.
      + rewrite (proj2 (N.eqb_neq _ _) N1), N.eqb_refl. exists (to_nfe w). split; [by apply vd_nfe|]. split; [apply HP; [lia|done]|]. split; [|done].
        rewrite vv_nfe by lia. done.
      + rewrite (proj2 (N.eqb_neq _ _) N2), (proj2 (N.eqb_neq _ _) N4), N.eqb_refl. exists (to_pfe w). split; [by apply vd_pfe|].
        split; [rewrite <- Hnn by lia; apply HP; [apply to_nfe_ok|apply HP; [lia|done]]|]. split; [|done]. rewrite vv_pfe by lia. done.
    - right. split; [done|]. intros w Hw Pw Ew.
      assert (∃ u, w_tet u = w_tet w ∧ w_edge u < 4 ∧ P u ∧ (u = w ∨ u = to_nfe w ∨ u = to_pfe w)) as (u & Hu & He & Pu & Hc).
      { pose proof (proj2 Hw) as Hlt. assert (w_edge w < 4 ∨ w_edge (to_nfe w) < 4 ∨ w_edge (to_pfe w) < 4) as Hc.
        { destruct w as [i e]. clear -Hlt. cbn in Hlt. case12 e Hlt; cbn; lia. }
        destruct Hc as [Hc|[Hc|Hc]]; [exists w|exists (to_nfe w)|exists (to_pfe w)]; (split; [done|]); (split; [done|]); (split; [|tauto]);
          [done|by apply HP|rewrite <- Hnn by done; apply HP; [apply to_nfe_ok|by apply HP]]. }
      assert (tm !! tri_key t = Some u) as H; [|congruence]. apply Htm. rewrite Hu. split; [apply Hw|]. split; [done|]. split; [done|].
      pose proof (vv_nodup F _ (proj2 Hw) (Hnd _ (proj1 Hw))) as Hd. unfold list4 in Hd. apply NoDup4 in Hd as (N1&N2&N3&N4&N5&N6).
      rewrite <- Ew. symmetry. unfold tri3 at 1. apply tri_key_eq; [done..|]. unfold rotation3. 
      destruct Hc as [->|[->| ->]]; [by left|right; left|right; right]; [rewrite vv_nfe by apply Hw|rewrite vv_pfe by apply Hw]; done.
  Qed.
  Lemma key_inj L F w w' : (∀ id, id ∈ L → NoDup (list4 (t_vs (F id)))) →
    (∀ w w', vd L w → vd L w' → tri3 (vv F w) = tri3 (vv F w') → w = w') → w_tet w ∈ L → w_tet w' ∈ L → w_edge w < 4 → w_edge w' < 4 →
    tri_key (tri3 (vv F w)) = tri_key (tri3 (vv F w')) → w = w'.
  Proof.
    intros Hnd Hun Hw Hw' He He' E. assert (vd L w) as Hv by (split; [done|lia]). assert (vd L w') as Hv' by (split; [done|lia]).
    pose proof (vv_nodup F _ (proj2 Hv) (Hnd _ Hw)) as Hd. unfold list4 in Hd. apply NoDup4 in Hd as (N1&N2&N3&N4&N5&N6).
    unfold tri3 in E. apply tri_key_eq in E; [|done..].
    assert (w = w' ∨ w = to_pfe w' ∨ w = to_nfe w') as C.
    { destruct E as [E|[E|E]].
      - left. apply Hun; [done..|]. unfold tri3. congruence.
      - right. left. apply Hun; [done|by apply vd_pfe|]. rewrite vv_pfe by apply Hv'. unfold tri3. cbn. congruence.
      - right. right. apply Hun; [done|by apply vd_nfe|]. rewrite vv_nfe by apply Hv'. unfold tri3. cbn. congruence. }
    destruct C as [C|C]; [done|]. exfalso. destruct w as [i e], w' as [i' e']. unfold to_pfe, to_nfe in C. cbn [w_tet w_edge] in *.
    clear -C He He'. destruct C as [C|C]; injection C as _ C; case4 e He; case4 e' He'; cbn in C; discriminate.
  Qed.

  (** ** The faces of the new tet. *)
  Section face.
    Context (L : gset N) (F0 : N → tet T) (id : N) (vs : arr4 N).
    Notation L' := ({[id]} ∪ L).
    Context (Hid : id ∉ L) (Hvs : t_vs (F0 id) = vs).
    Context (Hnd : ∀ x, x ∈ L' → NoDup (list4 (t_vs (F0 x)))).
    Context (Hun : ∀ w w', vd L' w → vd L' w' → tri3 (vv F0 w) = tri3 (vv F0 w') → w = w').
    Definition seen (j : nat) w : Prop := w_tet w = id → w_edge w mod 4 < j.
    Record half (j : nat) F tm : Prop := Half {
      hf_same x : same_but_opp (F0 x) (F x);
      hf_glue w w' : vd L' w → vd L' w' → seen j w → seen j w' → twist (vv F w) (vv F w') → av F w = w';
      hf_tm k w : tm !! k = Some w ↔ w_tet w ∈ L' ∧ w_edge w < 4 ∧ seen j w ∧ tri_key (tri3 (vv F w)) = k }.
    Lemma seen_nfe j w : seen j w → w_edge w < 12 → seen j (to_nfe w).
    Proof. intros H He E. specialize (H E). cbn [to_nfe w_edge]. by rewrite nfe_mod4. Qed.
    Lemma vv_half F w : (∀ x, same_but_opp (F0 x) (F x)) → vv F w = vv F0 w.
    Proof. intros H. unfold vv. by rewrite (proj1 (H (w_tet w))). Qed.
    (** Two faces seen from both sides, turned alike. *)
    Lemma twist_sf F c a w w' : (∀ x, same_but_opp (F0 x) (F x)) → vd L' c → vd L' a → vd L' w → vd L' w' → twist (vv F c) (vv F a) → twist (vv F w) (vv F w') →
      sf c w → (w = c ∧ w' = a) ∨ (w = to_nfe c ∧ w' = to_pfe a) ∨ (w = to_pfe c ∧ w' = to_nfe a).
    Proof.
      intros Hs Hc Ha Hw Hw' Tc Tw Hsf. rewrite !(vv_half F) in * by done.
      destruct (sf_rot c w (proj2 Hc) (proj2 Hw) Hsf) as [-> | [-> | ->]].
      - left. split; [done|]. apply Hun; [done..|]. eapply twist_tri; [exact Tw|done].
      - right. left. split; [done|]. apply Hun; [done|by apply vd_pfe|]. eapply twist_tri; [exact Tw|]. apply twist_nfe; [apply Hc|apply Ha|done].
      - right. right. split; [done|]. apply Hun; [done|by apply vd_nfe|]. eapply twist_tri; [exact Tw|]. apply twist_pfe; [apply Hc|apply Ha|done].
    Qed.
    Lemma glue_face_s nt ne Ed Vt gf tm F m j : st nt ne L' F Ed Vt gf tm m → half j F tm → j < 4 → is_Some (Vt (get4 vs j)) →
      ∃ m' F' tm', glue_face id vs m j = Some m' ∧ half (S j) F' tm' ∧
        st nt ne L' F' Ed (vupd Vt (get4 vs j) (vset (to_perm (Walker id j) P3210))) gf tm' m'.
    Proof.
      intros Hst [H1 H2 H3] Hj [vt Hvt]. pose proof (st_mv _ _ _ _ _ _ _ _ _ _ _ _ Hst) as Hmv. set (c := Walker id j).
      assert (id ∈ L') as HidL by set_solver. assert (vd L' c) as Hc by (split; [done|cbn; lia]).
      assert (∀ w, vd L' w → seen (S j) w → seen j w ∨ sf c w) as Hcase.
      { intros w Hw Hs. destruct (decide (w_tet w = id)) as [E|E]; [|left; intros ?; done]. specialize (Hs E).
        destruct (decide (w_edge w mod 4 = j)) as [E'|E']; [right|left; intros _; lia]. split; [done|]. rewrite E'. unfold c. cbn [w_edge]. by apply Nat.mod_small. }
      assert (∀ w w', vd L' w → vd L' w' → twist (vv F w) (vv F w') → sf c w → w_tet w' ≠ id) as Hno.
      { intros w w' Hw Hw' Tw [E _] E'. rewrite !(vv_half F) in Tw by done. unfold vv in Tw. rewrite <- E, E' in Tw. cbn in Tw.
        revert Tw. apply verts_at_no_twist; [apply Hw|apply Hw'|]. by apply Hnd. }
      unfold glue_face. cbn zeta. fold c. rewrite (mv_tri _ _ _ c Hmv) by done. cbn [mbind option_bind]. unfold tri3 at 1.
      assert (∀ F' tm0 m0, st nt ne L' F' Ed Vt gf tm0 m0 → (∀ x, same_but_opp (F0 x) (F' x)) → tm0 = tm →
        (∀ w w', vd L' w → vd L' w' → seen (S j) w → seen (S j) w' → twist (vv F' w) (vv F' w') → av F' w = w') →
        ∃ m' tm', (m1 ← trimap_insert m0 c; vert_ref_idx m1 (get4 vs j) (to_perm c P3210)) = Some m' ∧ half (S j) F' tm' ∧
        st nt ne L' F' Ed (vupd Vt (get4 vs j) (vset (to_perm c P3210))) gf tm' m') as Hend.
      { intros F' tm0 m0 Hst' Hs' -> Hg. pose proof (st_mv _ _ _ _ _ _ _ _ _ _ _ _ Hst') as Hmv'.
        rewrite (trimap_insert_eq _ _ _ c Hmv') by done. cbn [mbind option_bind]. rewrite (st_tm _ _ _ _ _ _ _ _ _ _ _ _ Hst').
        set (tm' := <[_ := c]> tm).
        assert (st nt ne L' F' Ed Vt gf tm' (with_trimap m0 tm')) as Hst1 by (destruct Hst'; split; try done).
        unfold vert_ref_idx. rewrite (st_V _ _ _ _ _ _ _ _ _ _ _ _ Hst1), Hvt.
        eexists _, tm'. split; [reflexivity|]. split; [|by apply vref_s]. split; [done|done|].
        intros k w. unfold tm'. rewrite (vv_half F') by done. rewrite (vv_half F' w) by done.
        destruct (decide (k = tri_key (tri3 (vv F0 c)))) as [->|Hk].
        - rewrite lookup_insert. split.
          + intros [= <-]. split; [done|]. split; [done|]. split; [|done]. intros _. unfold c. cbn [w_edge]. rewrite Nat.mod_small by done. lia.
          + intros (A1 & A2 & A3 & A4). f_equal. symmetry. apply (key_inj L' F0); [done..|exact A4].
        - rewrite lookup_insert_ne by done. rewrite H3. rewrite (vv_half F w) by done. split; intros (A1 & A2 & A3 & A4).
          + split; [done|]. split; [done|]. split; [|done]. intros E. specialize (A3 E). lia.
          + split; [done|]. split; [done|]. split; [|done]. destruct (Hcase w) as [?|[E E']]; [split; [done|lia]|done|done|].
            exfalso. apply Hk. rewrite <- A4. do 3 f_equal. destruct w as [i e]. unfold c in E, E' |- *. cbn [w_tet w_edge] in *. subst i. rewrite !Nat.mod_small in E' by done. by rewrite E'. }
      destruct (lookup_s _ _ _ _ _ _ _ _ _ (seen j) (q1 (vv F c), q0 (vv F c), q2 (vv F c)) Hst) as [(adj & Ha & Pa & Ta & ->)|[-> Hnone]].
      { intros x Hx. rewrite (proj1 (H1 x)). by apply Hnd. }
      { intros w Hw Hs. by apply seen_nfe. }
      { exact H3. }
      - assert (twist (vv F c) (vv F adj)) as Tc. { unfold tri3 in Ta. unfold twist. split; [congruence|]. split; congruence. }
        assert (w_tet adj ≠ id) as Hai by (apply (Hno c adj); done).
        cbn [mbind option_bind].
        destruct (upd_s _ _ _ _ _ _ _ _ _ _ _ _ id (set_opp j adj) Hst HidL) as (m1 & -> & Hst1). cbn [mbind option_bind].
        destruct (entry_for_ok (w_edge adj) c (proj2 Ha) (proj2 Hc)) as (x & -> & Rx & Hx). cbn [mbind option_bind].
        destruct (upd_s _ _ _ _ _ _ _ _ _ _ _ _ (w_tet adj) (set_opp (w_edge adj mod 4) x) Hst1 (proj1 Ha)) as (m2 & -> & Hst2). cbn [mbind option_bind].
        set (F1 := fupd F id _) in *. set (F2 := fupd F1 (w_tet adj) _) in *.
        assert (F1 = fupd F (w_tet c) (set_opp (w_edge c mod 4) adj (F (w_tet c)))) as EF1 by (unfold F1, c; cbn [w_tet w_edge]; by rewrite Nat.mod_small).
        assert (∀ r, av F2 r = if decide (sf adj r) then rot (w_edge r / 4) x else if decide (sf c r) then rot (w_edge r / 4) adj else av F r) as Hav.
        { intros r. unfold F2. rewrite av_set_opp by apply Ha. destruct (decide (sf adj r)); [done|]. rewrite EF1. rewrite av_set_opp by apply Hc. done. }
        assert (∀ y, same_but_opp (F y) (F2 y)) as Hs2.
        { intros y. unfold F2, F1, fupd. destruct (decide (y = w_tet adj)) as [->|]; [|destruct (decide (y = id)) as [->|]; done].
          rewrite decide_False by done. done. }
        assert (∀ y, same_but_opp (F0 y) (F2 y)) as Hs02.
        { intros y. destruct (H1 y) as (A1 & A2 & A3 & A4), (Hs2 y) as (B1 & B2 & B3 & B4). split; [|split; [|split]]; congruence. }
        destruct (Hend F2 tm m2 Hst2 Hs02 eq_refl) as (m' & tm' & Em & Hh & Hs'); [|by exists m', F2, tm'].
        intros w w' Hw Hw' Sw Sw' Tw. rewrite !(vv_half F2) in Tw by done. rewrite <- !(vv_half F) in Tw by done.
        assert (sf c w → ¬ sf adj w) as Hx1. { intros [E1 _] [E2 _]. apply Hai. by rewrite E2, <- E1. }
        rewrite Hav. destruct (decide (sf adj w)) as [Hs|Hs].
        + destruct (twist_sf F adj c w w' H1 Ha Hc Hw Hw' (twist_sym _ _ Tc) Tw Hs) as [[-> ->]|[[-> ->]|[-> ->]]].
          * done.
          * cbn [to_nfe w_edge]. rewrite rot_nfe by (done || apply Ha). by rewrite Rx.
          * cbn [to_pfe w_edge]. rewrite rot_pfe by (done || apply Ha). by rewrite Rx.
        + destruct (decide (sf c w)) as [Hs1|Hs1].
          * destruct (twist_sf F c adj w w' H1 Hc Ha Hw Hw' Tc Tw Hs1) as [[-> ->]|[[-> ->]|[-> ->]]]; unfold c; cbn [to_nfe to_pfe w_edge].
            -- rewrite Nat.div_small by done. done.
            -- rewrite Nat.mod_small by lia. clear -Hj. case4 j Hj; done.
            -- rewrite Nat.mod_small by lia. clear -Hj. case4 j Hj; done.
          * destruct (Hcase w Hw Sw) as [S1|]; [|done]. destruct (Hcase w' Hw' Sw') as [S2|S2]; [by apply H2|].
            exfalso. destruct (twist_sf F c adj w' w H1 Hc Ha Hw' Hw Tc (twist_sym _ _ Tw) S2) as [[-> ->]|[[-> ->]|[-> ->]]]; apply Hs; split; try done;
              cbn [to_nfe to_pfe w_edge]; symmetry; [apply pfe_mod4|apply nfe_mod4]; apply Ha.
      - cbn [mbind option_bind]. destruct (Hend F tm m Hst H1 eq_refl) as (m' & tm' & Em & Hh & Hs'); [|by exists m', F, tm'].
        assert (∀ w w', vd L' w → vd L' w' → seen (S j) w' → twist (vv F w) (vv F w') → sf c w → False) as Hbad.
        { intros w w' Hw Hw' Sw' Tw Hs. assert (w_tet w' ≠ id) as Hi by (by apply (Hno w w')).
          assert (∀ u, w_tet u = w_tet w' → seen j u) as Hsu. { intros u E1 E2. exfalso. apply Hi. congruence. }
          destruct (sf_rot c w (proj2 Hc) (proj2 Hw) Hs) as [-> | [-> | ->]].
          - destruct Tw as (T1 & T2 & T3). apply (Hnone w'); [done|by apply Hsu|]. unfold tri3. congruence.
          - pose proof (twist_pfe F F _ _ (proj2 Hw) (proj2 Hw') Tw) as Tw2. rewrite pfe_nfe in Tw2 by apply Hc.
            destruct Tw2 as (T1 & T2 & T3). apply (Hnone (to_nfe w')); [by apply vd_nfe|by apply Hsu|]. unfold tri3. congruence.
          - pose proof (twist_nfe F F _ _ (proj2 Hw) (proj2 Hw') Tw) as Tw2. rewrite nfe_pfe in Tw2 by apply Hc.
            destruct Tw2 as (T1 & T2 & T3). apply (Hnone (to_pfe w')); [by apply vd_pfe|by apply Hsu|]. unfold tri3. congruence. }
        intros w w' Hw Hw' Sw Sw' Tw. destruct (Hcase w Hw Sw) as [S1|S1]; [|by destruct (Hbad w w')].
        destruct (Hcase w' Hw' Sw') as [S2|S2]; [by apply H2|]. destruct (Hbad w' w); try done. by apply twist_sym.
    Qed.
  End face.

  (** ** The edges of the new tet. *)
  Lemma set6_get {X} (a : arr6 X) i j (x : X) : i < 6 → j < 6 → get6 (set6 a i x) j = if decide (i = j) then x else get6 a j.
  Proof. intros Hi Hj. destruct i as [|[|[|[|[|[|i]]]]]]; [..|lia]; destruct j as [|[|[|[|[|[|j]]]]]]; try lia; done. Qed.
  Lemma sorted_idem p : sorted_2 (sorted_2 p) = sorted_2 p.
  Proof. destruct p as [a b]. unfold sorted_2. destruct (N.ltb_spec b a) as [H|H]; [destruct (N.ltb_spec a b); [lia|done]|destruct (N.ltb_spec b a); [lia|done]]. Qed.
  Lemma sorted_swap a b : sorted_2 (a, b) = sorted_2 (b, a).
  Proof. unfold sorted_2. destruct (N.ltb_spec b a), (N.ltb_spec a b); try done; try lia. by assert (a = b) as -> by lia. Qed.
  Definition epos (i : nat) : nat := tbl [0; 3; 7; 5; 8; 11] i.
  Lemma epos_lt i : i < 6 → epos i < 12.
  Proof. intros Hi. destruct i as [|[|[|[|[|[|i]]]]]]; [..|lia]; unfold epos; cbn; lia. Qed.

  Section edge.
    Context (S : N → N → Prop) (L : gset N) (F1 : N → tet T) (id : N) (vs : arr4 N) (Ed1 : N → option uedge).
    Context (Hid : id ∈ L) (Hvs : t_vs (F1 id) = vs) (Hnd : NoDup (list4 vs)) (HS : ∀ x y, x ∈ list4 vs → y ∈ list4 vs → x ≠ y → S x y).
    Definition epair (i : nat) : N * N := pair2 (verts_at vs (epos i)).
    Lemma epair_ok i : i < 6 → S (epair i).1 (epair i).2 ∧ (epair i).1 ≠ (epair i).2 ∧ (epair i).1 ∈ list4 vs ∧ (epair i).2 ∈ list4 vs.
    Proof using Hnd HS.
      clear -Hnd HS. intros Hi. unfold epair. destruct vs as [a b c d]. 
      pose proof Hnd as (?&?&?&?&?&?)%NoDup4. cbn in *. unfold list4 in *. cbn [q0 q1 q2 q3] in *.
      destruct i as [|[|[|[|[|[|i]]]]]]; [..|lia]; unfold epos; cbn -[elem_of]; rewrite ?elem_of_cons; (split; [apply HS; [rewrite !elem_of_cons; tauto..|congruence]|]; split; [congruence|]; split; tauto).
    Qed.
    Record ehalf (j : nat) F Ed em : Prop := EHalf {
      eh_other x : x ≠ id → F x = F1 x;
      eh_same : t_vs (F id) = vs ∧ t_opp (F id) = t_opp (F1 id) ∧ t_flags (F id) = t_flags (F1 id) ∧ t_val (F id) = t_val (F1 id);
      eh_old e ue : Ed1 e = Some ue → Ed e = Some ue;
      eh_new e ue : Ed e = Some ue → Ed1 e = Some ue ∨ (Ed1 e = None ∧ ∃ k, k < j ∧ ue = uedge_new (epair k));
      eh_knows : knows S Ed em;
      eh_inj e e' ue ue' : Ed e = Some ue → Ed e' = Some ue' → ue_vs ue = ue_vs ue' → e = e';
      eh_in k : k < j → ∃ ue, Ed (get6 (t_edges (F id)) k) = Some ue ∧ ue_vs ue = sorted_2 (epair k) }.
    Lemma glue_edge_s nt ne Ed Vt gf tm F em m j : st nt ne L F Ed Vt gf tm m → ehalf j F Ed em → j < 6 → (ne < u32_mod)%N →
      ∃ m' F' Ed' em', glue_edge id (m, em) j = Some (m', em') ∧ st nt (ne + 1) L F' Ed' Vt gf tm m' ∧ ehalf (1 + j) F' Ed' em'.
    Proof.
      intros Hst [H1 H2 H3 H4 H5 H6 H7] Hj Hne. unfold glue_edge. pose proof (st_mv _ _ _ _ _ _ _ _ _ _ _ _ Hst) as Hmv.
      assert (to_undir_edge (Walker id 3) j = Some (Walker id (epos j))) as -> by (destruct j as [|[|[|[|[|[|j]]]]]]; [..|lia]; done).
      cbn [mbind option_bind]. rewrite (mv_pair _ _ _ _ Hmv) by done. cbn [mbind option_bind].
      assert ((q0 (vv F (Walker id (epos j))), q1 (vv F (Walker id (epos j)))) = epair j) as -> by (unfold vv; cbn [w_tet w_edge]; by rewrite (proj1 H2)).
      destruct (epair_ok j Hj) as (S1 & Sne & Sin1 & Sin2). destruct (epair j) as [a b] eqn:Ep. cbn [fst snd] in *.
      assert (∀ Ed0 em0 m0 e ue, st nt (ne + 1) L F Ed0 Vt gf tm m0 → Ed0 e = Some ue → ue_vs ue = sorted_2 (a, b) →
        (∀ e ue, Ed e = Some ue → Ed0 e = Some ue) → (∀ e ue, Ed0 e = Some ue → Ed1 e = Some ue ∨ (Ed1 e = None ∧ ∃ k, k < 1 + j ∧ ue = uedge_new (epair k))) →
        knows S Ed0 em0 → (∀ e e' ue ue', Ed0 e = Some ue → Ed0 e' = Some ue' → ue_vs ue = ue_vs ue' → e = e') →
        ∃ m' F' Ed' em', (m1 ← tet_upd m0 id (set_edge j e); Some (m1, em0)) = Some (m', em') ∧ st nt (ne + 1) L F' Ed' Vt gf tm m' ∧ ehalf (1 + j) F' Ed' em') as Hend.
      { intros Ed0 em0 m0 e ue Hst0 He Hp A1 A2 A3 A4. destruct (upd_s _ _ _ _ _ _ _ _ _ _ _ _ id (set_edge j e) Hst0 Hid) as (m1 & -> & Hst1).
        cbn [mbind option_bind]. eexists m1, _, Ed0, em0. split; [reflexivity|]. split; [exact Hst1|]. split; try done.
        - intros x Hx. unfold fupd. rewrite decide_False by done. by apply H1.
        - unfold fupd. rewrite decide_True by done. done.
        - intros e0 ue0 H. apply A1. by apply H3.
        - intros k Hk. unfold fupd. rewrite decide_True by done. cbn [set_edge t_edges]. rewrite set6_get by lia. destruct (decide (j = k)) as [<-|Hjk].
          + exists ue. rewrite Ep. done.
          + destruct (H7 k) as (ue' & B1 & B2); [lia|]. exists ue'. split; [by apply A1|done]. }
      destruct (em !! sorted_2 (a, b)) as [e|] eqn:Ee.
      - apply H5 in Ee as Ee'; [|done..]. destruct Ee' as (ue & He & Hp).
        apply (Hend Ed em m e ue); try done; [by eapply st_le, Hst; lia|].
        intros e0 ue0 H. destruct (H4 e0 ue0 H) as [?|[? (k & ? & ?)]]; [by left|right]. split; [done|]. exists k. split; [lia|done].
      - destruct (einsert_s _ _ _ _ _ _ _ _ _ _ _ _ (sorted_2 (a, b)) Hst Hne) as (m0 & e & -> & He & Hst0).
        assert (∀ e0 ue0, Ed e0 = Some ue0 → ue_vs ue0 = sorted_2 (a, b) → False) as Hno.
        { intros e0 ue0 A B. assert (em !! sorted_2 (a, b) = Some e0) as C; [|congruence]. apply H5; [done..|]. by exists ue0. }
        assert (uedge_new (sorted_2 (a, b)) = uedge_new (a, b)) as En by (unfold uedge_new; by rewrite sorted_idem). rewrite En in Hst0.
        apply (Hend (eupd Ed e (uedge_new (a, b))) (<[sorted_2 (a, b) := e]> em) m0 e (uedge_new (a, b))); try done.
        + unfold eupd. by rewrite decide_True.
        + intros e0 ue0 H. unfold eupd. destruct (decide (e0 = e)) as [->|]; [congruence|done].
        + intros e0 ue0. unfold eupd. destruct (decide (e0 = e)) as [->|].
          * intros [= <-]. right. split; [destruct (Ed1 e) eqn:E1; [apply H3 in E1; congruence|done]|]. exists j. split; [lia|]. by rewrite Ep.
          * intros H. destruct (H4 e0 ue0 H) as [?|[? (k & ? & ?)]]; [by left|right]. split; [done|]. exists k. split; [lia|done].
        + intros a' b' e0 Sa Hab. destruct (decide (sorted_2 (a', b') = sorted_2 (a, b))) as [->|Hs].
          * rewrite lookup_insert. unfold eupd. split.
            -- intros [= ->]. rewrite decide_True by done. by eexists.
            -- intros (ue & Hu & Hp). destruct (decide (e0 = e)) as [->|]; [done|]. exfalso. by eapply Hno.
          * rewrite lookup_insert_ne by done. rewrite (H5 a' b' e0 Sa Hab). unfold eupd. split.
            -- intros (ue & Hu & Hp). exists ue. split; [|done]. destruct (decide (e0 = e)) as [->|]; [congruence|done].
            -- intros (ue & Hu & Hp). destruct (decide (e0 = e)) as [->|]; [|by exists ue]. exfalso. injection Hu as <-. apply Hs. by rewrite <- Hp.
        + intros e0 e1 ue0 ue1. unfold eupd. destruct (decide (e0 = e)) as [->|], (decide (e1 = e)) as [->|].
          * done.
          * intros [= <-] Hu Hp. exfalso. by eapply Hno.
          * intros Hu [= <-] Hp. exfalso. by eapply Hno.
          * apply H6.
    Qed.
  End edge.

  (** The last reference of each vertex. *)
  Definition vset4 (id : N) (vs : arr4 N) Vt (x : N) : option (vertex V) :=
    if decide (x = q0 vs) then vset (to_perm (Walker id 0) P3210) <$> Vt x
    else if decide (x = q1 vs) then vset (to_perm (Walker id 1) P3210) <$> Vt x
    else if decide (x = q2 vs) then vset (to_perm (Walker id 2) P3210) <$> Vt x
    else if decide (x = q3 vs) then vset (to_perm (Walker id 3) P3210) <$> Vt x else Vt x.

  Record inserted (S : N → N → Prop) L F Ed Vt (vs : arr4 N) (dflt : T) id F' Ed' Vt' tm' em' : Prop := Inserted {
    is_new : id ∉ L;
    is_open : opn ({[id]} ∪ L) F' Ed' tm';
    is_old x : x ∈ L → same_but_opp (F x) (F' x);
    is_tet : t_vs (F' id) = vs ∧ t_flags (F' id) = tf_empty ∧ t_val (F' id) = dflt;
    is_knows : knows S Ed' em';
    is_eold e ue : Ed e = Some ue → Ed' e = Some ue;
    is_enew e ue : Ed' e = Some ue → Ed e = Some ue ∨ (Ed e = None ∧ ∃ a b, a ∈ list4 vs ∧ b ∈ list4 vs ∧ a ≠ b ∧ ue = uedge_new (a, b));
    is_verts x : Vt' x = vset4 id vs Vt x }.

  Lemma insert_s (S : N → N → Prop) nt ne L F Ed Vt gf tm m em vs (dflt : T) : st nt ne L F Ed Vt gf tm m → opn L F Ed tm →
    NoDup (list4 vs) → (∀ x, x ∈ list4 vs → is_Some (Vt x)) → (∀ x y, x ∈ list4 vs → y ∈ list4 vs → x ≠ y → S x y) →
    (∀ w (j : nat), vd L w → j < 12 → tri3 (vv F w) ≠ tri3 (verts_at vs j)) → knows S Ed em →
    (nt < u32_mod)%N → (ne + 6 ≤ u32_mod)%N →
    ∃ m' em' id F' Ed' Vt' tm', insert_tet dflt m vs em = Some (m', em', Walker id 3) ∧
      st (nt + 1) (ne + 6) ({[id]} ∪ L) F' Ed' Vt' gf tm' m' ∧ inserted S L F Ed Vt vs dflt id F' Ed' Vt' tm' em'.
  Proof.
    intros Hst [P1 P2 P3 P4 P5 P6] Hnd Hx HS Hdiff Hk Hnt Hne. unfold insert_tet. cbn zeta.
    destruct (tinsert_s _ _ _ _ _ _ _ _ _ _ _ _ (tet_new vs (A4 (Walker invalid_id 0) (Walker invalid_id 0) (Walker invalid_id 0) (Walker invalid_id 0))
      (A6 invalid_id invalid_id invalid_id invalid_id invalid_id invalid_id) dflt) Hst Hnt) as (m0 & id & -> & Hid & Hst0).
    set (F0 := fupd F id _) in *. set (L' := {[id]} ∪ L) in *.
    assert (∀ x, x ∈ L → F0 x = F x) as HF0. { intros x Hxl. unfold F0, fupd. rewrite decide_False; [done|]. intros ->. done. }
    assert (t_vs (F0 id) = vs) as HF0v by (unfold F0, fupd; by rewrite decide_True).
    assert (∀ w, vd L' w → vd L w ∨ (w_tet w = id ∧ w_edge w < 12)) as Hcase.
    { intros w [H%elem_of_union He]. destruct H as [->%elem_of_singleton|H]; [right|left]; done. }
    assert (∀ x, x ∈ L' → NoDup (list4 (t_vs (F0 x)))) as Hnd0.
    { intros x [->%elem_of_singleton|H]%elem_of_union; [by rewrite HF0v|]. rewrite HF0 by done. by apply P1. }
    assert (∀ w, vd L w → vv F0 w = vv F w) as Hvv by (intros w [Hw _]; unfold vv; by rewrite HF0).
    assert (∀ w, w_tet w = id → vv F0 w = verts_at vs (w_edge w)) as Hvn by (intros w <-; unfold vv; by rewrite HF0v).
    assert (∀ w w', vd L' w → vd L' w' → tri3 (vv F0 w) = tri3 (vv F0 w') → w = w') as Hun0.
    { intros w w' Hw Hw' E. destruct (Hcase w Hw) as [A|[A A']], (Hcase w' Hw') as [B|[B B']].
      - rewrite !Hvv in E by done. by apply P3.
      - exfalso. rewrite (Hvv w), (Hvn w') in E by done. by apply (Hdiff w (w_edge w')).
      - exfalso. rewrite (Hvv w'), (Hvn w) in E by done. by apply (Hdiff w' (w_edge w)).
      - apply (vv_inj F0); [apply Hw|apply Hw'|congruence|apply Hnd0; apply Hw|]. unfold pair2. unfold tri3 in E. congruence. }
    assert (half L F0 id 0 F0 tm) as Hh0.
    { split; [done|..].
      - intros w w' Hw Hw' S1 S2 Tw. destruct (Hcase w Hw) as [A|[A _]]; [|specialize (S1 A); lia]. destruct (Hcase w' Hw') as [B|[B _]]; [|specialize (S2 B); lia].
        rewrite !Hvv in Tw by done. rewrite <- (P2 w w' A B Tw). unfold av. by rewrite HF0 by apply A.
      - intros k w. rewrite (P4 k w). split.
        + intros (A & B & C). assert (vd L w) as Hw by (split; [done|lia]). rewrite Hvv by done. split; [by apply elem_of_union_r|]. split; [done|]. split; [|done]. intros E. by rewrite E in A.
        + intros (A & B & C & D). assert (vd L' w) as Hw by (split; [done|lia]). destruct (Hcase w Hw) as [E|[E _]]; [|specialize (C E); lia].
          rewrite Hvv in D by done. split; [apply E|done]. }
    assert (∀ i, i < 4 → get4 vs i ∈ list4 vs) as Hg4. { intros i Hi. destruct vs. unfold list4. rewrite !elem_of_cons. case4 i Hi; cbn; tauto. }
    assert (∀ Vt x v f, is_Some (Vt x) → is_Some (@vupd V Vt v f x)) as Hvs. { intros Vt0 x v f [? E]. unfold vupd. rewrite E. destruct (decide _); by eexists. }
    cbn [mfoldl].
    destruct (glue_face_s L F0 id vs Hid HF0v Hnd0 Hun0 _ _ _ _ _ _ _ _ 0 Hst0 Hh0) as (m1 & F1 & tm1 & -> & Hh1 & Hst1); [lia|by apply Hx, Hg4; lia|]. cbn [mbind option_bind].
    destruct (glue_face_s L F0 id vs Hid HF0v Hnd0 Hun0 _ _ _ _ _ _ _ _ 1 Hst1 Hh1) as (m2 & F2 & tm2 & -> & Hh2 & Hst2); [lia|by apply Hvs, Hx, Hg4; lia|]. cbn [mbind option_bind].
    destruct (glue_face_s L F0 id vs Hid HF0v Hnd0 Hun0 _ _ _ _ _ _ _ _ 2 Hst2 Hh2) as (m3 & F3 & tm3 & -> & Hh3 & Hst3); [lia|by apply Hvs, Hvs, Hx, Hg4; lia|]. cbn [mbind option_bind].
    destruct (glue_face_s L F0 id vs Hid HF0v Hnd0 Hun0 _ _ _ _ _ _ _ _ 3 Hst3 Hh3) as (m4 & F4 & tm4 & -> & Hh4 & Hst4); [lia|by apply Hvs, Hvs, Hvs, Hx, Hg4; lia|]. cbn [mbind option_bind].
    destruct Hh4 as [G1 G2 G3]. assert (id ∈ L') as HidL by (apply elem_of_union_l, elem_of_singleton; done).
    assert (t_vs (F4 id) = vs) as HF4v by (rewrite (proj1 (G1 id)); done).
    assert (ehalf S F4 id vs Ed 0 F4 Ed em) as Eh0.
    { split; try done; try (intros; lia). intros e ue H. by left. }
    destruct (glue_edge_s S L' F4 id vs Ed HidL Hnd HS _ _ _ _ _ _ _ _ _ 0 Hst4 Eh0) as (n1 & E1F & E1d & em1 & -> & Hs1 & Eh1); [lia|lia|]. cbn [mbind option_bind].
    destruct (glue_edge_s S L' F4 id vs Ed HidL Hnd HS _ _ _ _ _ _ _ _ _ 1 Hs1 Eh1) as (n2 & E2F & E2d & em2 & -> & Hs2 & Eh2); [lia|lia|]. cbn [mbind option_bind].
    destruct (glue_edge_s S L' F4 id vs Ed HidL Hnd HS _ _ _ _ _ _ _ _ _ 2 Hs2 Eh2) as (n3 & E3F & E3d & em3 & -> & Hs3 & Eh3); [lia|lia|]. cbn [mbind option_bind].
    destruct (glue_edge_s S L' F4 id vs Ed HidL Hnd HS _ _ _ _ _ _ _ _ _ 3 Hs3 Eh3) as (n4 & E4F & E4d & em4 & -> & Hs4 & Eh4); [lia|lia|]. cbn [mbind option_bind].
    destruct (glue_edge_s S L' F4 id vs Ed HidL Hnd HS _ _ _ _ _ _ _ _ _ 4 Hs4 Eh4) as (n5 & E5F & E5d & em5 & -> & Hs5 & Eh5); [lia|lia|]. cbn [mbind option_bind].
    destruct (glue_edge_s S L' F4 id vs Ed HidL Hnd HS _ _ _ _ _ _ _ _ _ 5 Hs5 Eh5) as (n6 & F' & Ed' & em' & -> & Hs6 & Eh6); [lia|lia|]. cbn [mbind option_bind].
    exists n6, em', id, F', Ed'. eexists _, tm4. split; [reflexivity|]. split; [replace (ne + 6)%N with (ne + 1 + 1 + 1 + 1 + 1 + 1)%N by lia; exact Hs6|].
    clear Eh0 Eh1 Eh2 Eh3 Eh4 Eh5 Hs1 Hs2 Hs3 Hs4 Hs5 Hs6 Hst1 Hst2 Hst3 Hst4 Hst0 Hh0 Hh1 Hh2 Hh3. destruct Eh6 as [Q1 Q2 Q3 Q4 Q5 Q6 Q7].
    assert (∀ x, t_vs (F' x) = t_vs (F0 x)) as Hvs'.
    { intros x. destruct (decide (x = id)) as [->|Hxi]; [rewrite HF0v; apply Q2|]. rewrite Q1 by done. apply G1. }
    assert (∀ x, t_opp (F' x) = t_opp (F4 x)) as Hop'. { intros x. destruct (decide (x = id)) as [->|Hxi]; [apply Q2|]. by rewrite Q1. }
    assert (∀ w, vv F' w = vv F0 w) as Hvv' by (intros w; unfold vv; by rewrite Hvs').
    assert (∀ w, vv F4 w = vv F0 w) as Hvv4 by (intros w; unfold vv; by rewrite (proj1 (G1 _))).
    assert (∀ w, seen id 4 w) as Hseen by (intros w _; by apply Nat.mod_upper_bound).
    split; try done.
    - split.
      + intros x Hxl. rewrite Hvs'. by apply Hnd0.
      + intros w w' Hw Hw' Tw. rewrite !Hvv', <- !Hvv4 in Tw. unfold av. rewrite Hop'. by apply (G2 w w').
      + intros w w' Hw Hw'. rewrite !Hvv'. by apply Hun0.
      + intros k w. rewrite (G3 k w), Hvv', Hvv4. split; [intros (?&?&?&?)|intros (?&?&?)]; done.
      + intros w Hw. rewrite Hvv'. destruct (Hcase w Hw) as [A|[A A']].
        * rewrite Hvv by done. destruct (P5 w A) as (ue & Hu & Hp). exists ue. split; [|done]. apply Q3. rewrite <- Hu. f_equal. unfold uv.
          assert (w_tet w ≠ id) as Hwi by (intros E; apply Hid; rewrite <- E; apply A). rewrite Q1 by done.
          destruct (G1 (w_tet w)) as (_ & -> & _). by rewrite HF0 by apply A.
        * rewrite Hvn by done. unfold uv. rewrite A. assert (undir_idx (w_edge w) < 6) as Hu. { clear -A'. destruct w as [i e]. cbn in *. case12 e A'; cbn; lia. }
          destruct (Q7 _ Hu) as (ue & Hue & Hp). exists ue. split; [done|]. rewrite Hp. clear -A'. destruct w as [i e]. cbn [w_edge] in *. unfold epair, epos.
          destruct vs. case12 e A'; cbn; first [done|apply sorted_swap].
      + exact Q6.
    - intros x Hxl. assert (x ≠ id) as Hxi by (intros ->; done). rewrite Q1 by done. rewrite <- (HF0 x Hxl). apply G1.
    - destruct Q2 as (B1 & B2 & B3 & B4). destruct (G1 id) as (C1 & C2 & C3 & C4). split; [done|]. rewrite B3, B4, C3, C4. unfold F0, fupd. rewrite decide_True by done. done.
    - intros e ue H. destruct (Q4 e ue H) as [?|[? (k & Hk' & ->)]]; [by left|right]. split; [done|].
      destruct (epair_ok S vs Hnd HS k Hk') as (_ & A & B & C). exists (epair vs k).1, (epair vs k).2. by destruct (epair vs k).
    - intros x. destruct vs as [a b c d]. apply NoDup4 in Hnd as (N1&N2&N3&N4&N5&N6). cbn in N1,N2,N3,N4,N5,N6. unfold vset4, vupd. cbn [get4 q0 q1 q2 q3].
      destruct (decide (x = a)) as [->|]; [rewrite !decide_False by congruence; done|].
      destruct (decide (x = b)) as [->|]; [rewrite !decide_False by congruence; done|].
      destruct (decide (x = c)) as [->|]; [rewrite !decide_False by congruence; done|].
      by destruct (decide (x = d)) as [->|].
  Qed.
End trans.
