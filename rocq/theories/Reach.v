(** Facts about every reachable mesh. *)
From stdpp Require Import base numbers list gmap option relations fin_sets.
From Coq Require Import NArith ZArith ZifyN ZifyNat ZifyBool Lia.
From Verif Require Import IdMapModel IdMapSpec IdMapProofs IdMapMore WalkerModel WalkerSpec WalkerProofs SortProofs
  MeshModel WalkerMore MeshOps MeshSpec MeshViews Surgery MeshLink MeshRun FlipBase FlipRun FlipSpec FlipCommon
  MeshCheck Flip44Ok MeshOpsOk Integrity GeoModel HistSpec HistCheck History FlipMore NewMesh.
Local Open Scope nat_scope.

Section reach.
  Context {V T : Type}.
  Implicit Types (m : mesh V T) (w : walker) (id : N).

  Lemma history_ok sim ctr ps (d : T) (os : list (op V)) m0 : mesh_new sim ctr ps d = Some m0 → all_admissible m0 os →
    ∃ m, run_ops m0 os = Some m ∧ mesh_ok m ∧
      (Forall (λ o, is_add o = false) os → all_attached m) ∧
      (Forall (λ o, is_add o = false) os → assert_integrity None m = true).
  Proof.
    intros E Ha. destruct (new_facts sim ctr ps d) as (m0' & E' & Hok & Hc & _). rewrite E in E'. injection E' as <-.
    destruct (new_unpack _ _ Hok Hc) as (_ & _ & _ & _ & _ & _ & _ & Hall & _ & Hn & _).
    destruct (ops_step m0 os Hok Ha) as (m & Er & [G1 G2 G3] & Hat).
    exists m. split; [done|]. split; [done|]. split; [by intros; apply Hat|].
    intros Hf. apply integrity_holds; [done|by apply Hat| |done]. apply room_no_invalid; [done|]. apply G2. unfold invalid_id. lia.
  Qed.

  Lemma reachable_ok m : reachable m → mesh_ok m.
  Proof.
    intros (sim & ctr & ps & d & m0 & os & E & Ha & Er). destruct (history_ok sim ctr ps d os m0 E Ha) as (m' & Er' & Hok & _).
    rewrite Er in Er'. by injection Er' as ->.
  Qed.

  (** ** Adjacency. *)
  Lemma adj_spec m w a b c d : mesh_ok m → valid m w → w_verts m w = Some (A4 a b c d) →
    ∃ w' x, to_adj m w = Some w' ∧ valid m w' ∧ w_verts m w' = Some (A4 b a c x) ∧ to_adj m w' = Some w ∧ w_tet w' ≠ w_tet w.
  Proof.
    intros Hok Hw E. destruct (ok_adj m Hok w a b c d Hw E) as (w' & x & A1 & A2 & A3 & A4).
    exists w', x. do 4 (split; [done|]). destruct (view_of m w Hw) as (L & F & Hmv).
    pose proof (ok_vmesh m L F Hmv Hok) as Hvm. apply (mv_valid _ _ _ _ Hmv) in Hw.
    rewrite (mv_adj _ _ _ _ Hmv Hw) in A1. injection A1 as <-. by apply (av_other L F w (vm_vok _ _ _ Hvm)).
  Qed.

  Lemma stored_valid m id t i : mesh_ok m → tet_get m id = Some t → i < 4 → valid m (get4 (t_opp t) i).
  Proof.
    intros Hok Ht Hi. assert (valid m (Walker id i)) as Hw by (split; [cbn; eauto|cbn; lia]).
    destruct (wverts_ex m _ Hw) as (a & b & c & d & E). destruct (ok_adj m Hok _ a b c d Hw E) as (w' & x & A1 & A2 & _).
    unfold to_adj, to_adj_ae in A1. cbn [w_tet w_edge] in A1. rewrite Ht in A1. cbn [mbind option_bind] in A1.
    rewrite Nat.mod_small in A1 by done. rewrite Nat.div_small in A1 by done. injection A1 as <-. done.
  Qed.

  (** ** The triangle map. *)
  Lemma tri_lookup m t : mesh_ok m → m_track m = true →
    (has_tri m t.1.1 t.1.2 t.2 ∧ ∃ w, walker_from_tri_tracked m t = Some (Some w) ∧ valid m w ∧ w_tri m w = Some t) ∨
    (¬ has_tri m t.1.1 t.1.2 t.2 ∧ walker_from_tri_tracked m t = Some None).
  Proof.
    intros Hok Htr. pose proof (ok_trimap m Hok Htr) as Htm. unfold walker_from_tri_tracked.
    destruct (m_trimap m !! tri_key t) as [w|] eqn:E.
    - left. apply Htm in E as (Hw & He & t' & Et & Ek).
      destruct (wverts_ex m w Hw) as (x & y & z & k & Ev). pose proof (wverts_tri _ _ _ _ _ _ Ev) as Et'.
      rewrite Et in Et'. injection Et' as ->.
      pose proof (ok_distinct m Hok _ _ _ _ _ Hw Ev) as (N1&N2&_&N3&_)%NoDup4. cbn in N1, N2, N3.
      apply tri_key_eq in Ek; [|done..]. unfold to_edge_assuming_tri. rewrite Ev. cbn [mbind option_bind q0 q1 q2].
      unfold rotation3 in Ek. destruct Ek as [->|[->| ->]]; cbn [fst snd].
      + rewrite N.eqb_refl. split; [exists w; done|]. eexists. split; [done|]. done.
      + rewrite (proj2 (N.eqb_neq x y) N1), N.eqb_refl.
        assert (valid m (to_nfe w)) by (by apply valid_nfe). assert (w_tri m (to_nfe w) = Some (y, z, x)) by (eapply wverts_tri, wverts_nfe; done).
        split; [eexists; done|]. eexists. split; [done|]. done.
      + rewrite (proj2 (N.eqb_neq x z) N2), (proj2 (N.eqb_neq y z) N3), N.eqb_refl.
        assert (valid m (to_pfe w)) by (by apply valid_pfe).
        assert (w_tri m (to_pfe w) = Some (z, x, y)).
        { eapply wverts_tri. apply (walker_moves m w x y z k); [apply Hw|done]. }
        split; [eexists; done|]. eexists. split; [done|]. done.
    - right. split; [|done]. intros (w & Hw & Et). destruct t as [[a b] c]. cbn in Et.
      destruct (wverts_ex m w Hw) as (x & y & z & k & Ev). pose proof (wverts_tri _ _ _ _ _ _ Ev) as Et'.
      rewrite Et in Et'. injection Et' as <- <- <-.
      pose proof (ok_distinct m Hok _ _ _ _ _ Hw Ev) as (N1&N2&_&N3&_)%NoDup4. cbn in N1, N2, N3.
      (* the walker on the same triangle at a position below 4 *)
      assert (∃ u t, valid m u ∧ w_edge u < 4 ∧ w_tri m u = Some t ∧ rotation3 (a, b, c) t) as (u & t & Hu & Hlt & Eu & Hrot).
      { destruct w as [i e]. pose proof Hw as [Hi He]. cbn in He.
        assert (e < 4 ∨ w_edge (to_nfe (Walker i e)) < 4 ∨ w_edge (to_pfe (Walker i e)) < 4) as Hc.
        { clear -He. case12 e He; cbn; lia. }
        destruct Hc as [Hc|[Hc|Hc]].
        - exists (Walker i e), (a, b, c). split; [done|]. split; [done|]. split; [done|]. unfold rotation3. tauto.
        - exists (to_nfe (Walker i e)), (b, c, a). split; [by apply valid_nfe|]. split; [done|].
          split; [eapply wverts_tri, wverts_nfe; done|]. unfold rotation3. cbn. tauto.
        - exists (to_pfe (Walker i e)), (c, a, b). split; [by apply valid_pfe|]. split; [done|].
          split; [eapply wverts_tri; apply (walker_moves m _ a b c k); [apply Hw|done]|]. unfold rotation3. cbn. tauto. }
      apply (tri_key_eq a b c t N1 N3 N2) in Hrot.
      assert (m_trimap m !! tri_key (a, b, c) = Some u) as Hx by (apply Htm; rewrite Hrot; eauto 10).
      congruence.
  Qed.

  (** ** Vertices. *)
  Lemma vertex_lookup m v : mesh_ok m → attached m v → v ≠ GHOST →
    ∃ w, walker_from_vertex m v = Some w ∧ valid m w ∧ w_first m w = Some v.
  Proof.
    intros Hok Ha Hg. pose proof Ha as (w & Hw & Hf). destruct (ok_exist m Hok w v Hw Hf) as [->|[vt Hv]]; [done|].
    destruct (ok_vref m Hok v vt Hv Ha) as [H1 H2]. exists (v_tet vt). unfold walker_from_vertex. by rewrite Hv.
  Qed.
End reach.
