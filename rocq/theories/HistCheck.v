(** Sound decision procedures for admissibility, used on concrete histories. *)
From stdpp Require Import base numbers list gmap option relations.
From Coq Require Import NArith ZArith ZifyN ZifyNat ZifyBool Lia.
From Verif Require Import IdMapModel WalkerModel WalkerSpec MeshModel MeshOps MeshSpec MeshCheck HistSpec.
Local Open Scope nat_scope.

Section check.
  Context {V T : Type}.
  Implicit Types (m : mesh V T) (w : walker).

  Definition attachedb m v : bool := any (walkers m) (λ w, eqb (w_first m w) (Some v)).
  Lemma attachedb_spec m v : attachedb m v = true ↔ attached m v.
  Proof.
    unfold attachedb, attached. rewrite any_spec. setoid_rewrite walkers_spec. setoid_rewrite eqb_spec. done.
  Qed.
  Definition joinedb m a b : bool := any (walkers m) (λ w, eqb (w_pair m w) (Some (a, b))).
  Lemma joinedb_spec m a b : joinedb m a b = true ↔ joined m a b.
  Proof.
    unfold joinedb, joined. rewrite any_spec. setoid_rewrite walkers_spec. setoid_rewrite eqb_spec. done.
  Qed.
  Definition has_trib m a b c : bool := any (walkers m) (λ w, eqb (w_tri m w) (Some (a, b, c))).
  Lemma has_trib_spec m a b c : has_trib m a b c = true ↔ has_tri m a b c.
  Proof.
    unfold has_trib, has_tri. rewrite any_spec. setoid_rewrite walkers_spec. setoid_rewrite eqb_spec. done.
  Qed.
  Lemma negb_iff (b : bool) (P : Prop) : (b = true ↔ P) → negb b = true → ¬ P.
  Proof. destruct b; intros H1 H2; [done|]. intros HP%H1. done. Qed.

  Definition roomyb m nt ne : bool := N.leb (im_npi (m_tets m) + nt) invalid_id && N.leb (im_npi (m_edges m) + ne) u32_mod.
  Lemma roomyb_spec m nt ne : roomyb m nt ne = true → roomy m nt ne.
  Proof. unfold roomyb, roomy. rewrite andb_true_iff, !N.leb_le. done. Qed.
  Definition canonb m w : bool := eqb (w_first m w) (w_first m (walker_from_tet_id (w_tet w))).

  Definition ready23b m w : bool :=
    validb m w &&
    match to_adj m w with
    | Some other => match w_fourth m w, w_fourth m other with
                    | Some d, Some e => negb (eqb d e) && negb (joinedb m d e)
                    | _, _ => false
                    end
    | None => false
    end.
  Lemma ready23b_spec m w : ready23b m w = true → flip23_ready m w.
  Proof.
    unfold ready23b. rewrite andb_true_iff, validb_spec. intros [Hv H]. split; [done|].
    destruct (to_adj m w) as [o|]; [|done]. destruct (w_fourth m w) as [d|]; [|done].
    destruct (w_fourth m o) as [e|] eqn:E; [|done]. apply andb_true_iff in H as [H1 H2].
    exists o, d, e. split; [done|]. split; [done|]. split; [done|].
    split; [apply (negb_iff _ _ (eqb_spec d e) H1)|apply (negb_iff _ _ (joinedb_spec m d e) H2)].
  Qed.

  Definition ring3b m w : bool :=
    match ring_next m w with
    | Some o1 => match ring_next m o1 with Some o2 => eqb (ring_next m o2) (Some w) | None => false end
    | None => false
    end.
  Lemma ring3b_spec m w : ring3b m w = true ↔ ring3 m w.
  Proof.
    unfold ring3b, ring3. split.
    - destruct (ring_next m w) as [o1|] eqn:E1; [|done]. destruct (ring_next m o1) as [o2|] eqn:E2; [|done].
      intros H%eqb_eq. exists o1, o2. repeat split; done.
    - intros (o1 & o2 & -> & -> & ->). by apply eqb_spec.
  Qed.
  Definition link_freeb m w : bool :=
    match ring_next m w with
    | Some o1 => match w_opp_pair m w, w_fourth m o1 with
                 | Some (x, y), Some z => negb (has_trib m x y z)
                 | _, _ => false
                 end
    | None => false
    end.
  Lemma link_freeb_spec m w : link_freeb m w = true → link_free m w.
  Proof.
    unfold link_freeb, link_free. destruct (ring_next m w) as [o1|]; [|done].
    destruct (w_opp_pair m w) as [[x y]|]; [|done]. destruct (w_fourth m o1) as [z|] eqn:E; [|done].
    intros H. exists o1, x, y, z. split; [done|]. split; [done|]. split; [done|].
    apply (negb_iff _ _ (has_trib_spec m x y z) H).
  Qed.
  Definition ready44b m w : bool :=
    validb m w &&
    match ring_next m w with
    | Some r1 => match ring_next m r1 with
      | Some r2 => match ring_next m r2 with
        | Some r3 => eqb (ring_next m r3) (Some w) && negb (eqb r2 w) &&
            match w_third m w, w_fourth m r1 with Some x, Some z => negb (joinedb m x z) | _, _ => false end
        | None => false end
      | None => false end
    | None => false
    end.
  Lemma ready44b_spec m w : ready44b m w = true → flip44_ready m w.
  Proof.
    unfold ready44b. rewrite andb_true_iff, validb_spec. intros [Hv H]. split; [done|].
    destruct (ring_next m w) as [r1|]; [|done]. destruct (ring_next m r1) as [r2|] eqn:E2; [|done].
    destruct (ring_next m r2) as [r3|] eqn:E3; [|done]. rewrite !andb_true_iff in H. destruct H as [[H1 H2] H3].
    apply eqb_eq in H1. destruct (w_third m w) as [x|] eqn:Ex; [|done]. destruct (w_fourth m r1) as [z|] eqn:Ez; [|done].
    exists r1, r2, r3, x, z. do 4 (split; [done|]). split; [apply (negb_iff _ _ (eqb_spec r2 w) H2)|].
    split; [done|]. split; [done|]. apply (negb_iff _ _ (joinedb_spec m x z) H3).
  Qed.

  Definition admissibleb m (o : op V) : bool :=
    match o with
    | OAddVertex p v => N.ltb (im_npi (m_verts m)) GHOST
    | OInsert w p v => N.ltb (im_npi (m_verts m)) GHOST && validb m w && canonb m w && roomyb m 3 4
    | OFlip14 w v => validb m w && canonb m w && roomyb m 3 4 && someb (im_get (m_verts m) v) && negb (attachedb m v)
    | OFlip23 w => ready23b m w && roomyb m 1 1
    | OFlip32 w => validb m w && ring3b m w && link_freeb m w
    | OFlip44 w => ready44b m w && roomyb m 1 1
    | OFlip23U w => validb m w && (eqb (w_locked m w) (Some true) || (ready23b m w && roomyb m 1 1))
    | OFlip32U w => validb m w && (negb (ring3b m w) || link_freeb m w)
    | OTrack _ => true
    | OLockTri w _ => validb m w
    | OLockEdge w _ => validb m w
    end.
  Lemma admissibleb_spec m o : admissibleb m o = true → admissible m o.
  Proof.
    destruct o; cbn [admissibleb admissible]; rewrite ?andb_true_iff, ?validb_spec, ?N.ltb_lt, ?someb_spec; try done.
    - intros [[[H1 H2] H3%eqb_eq] H4%roomyb_spec]. done.
    - intros [[[[H1 H2%eqb_eq] H3%roomyb_spec] H4] H5]. repeat (split; [done|]).
      apply (negb_iff _ _ (attachedb_spec m v) H5).
    - intros [H1%ready23b_spec H2%roomyb_spec]. done.
    - intros [[H1 H2%ring3b_spec] H3%link_freeb_spec]. done.
    - intros [H1%ready44b_spec H2%roomyb_spec]. done.
    - intros [H1 H2]. split; [done|]. intros Hl. rewrite Hl, orb_true_iff, andb_true_iff in H2.
      destruct H2 as [H2|[H2%ready23b_spec H3%roomyb_spec]]; done.
    - intros [H1 H2]. split; [done|]. intros Hr. apply ring3b_spec in Hr. rewrite Hr in H2. cbn in H2. by apply link_freeb_spec.
  Qed.

  Fixpoint all_admissibleb m (os : list (op V)) : bool :=
    match os with
    | [] => true
    | o :: os => admissibleb m o && match run_op m o with Some m1 => all_admissibleb m1 os | None => true end
    end.
  Lemma all_admissibleb_spec m os : all_admissibleb m os = true → all_admissible m os.
  Proof.
    revert m. induction os as [|o os IH]; intros m; [done|]. cbn. rewrite andb_true_iff.
    intros [H1%admissibleb_spec H2]. split; [done|]. intros m1 E. rewrite E in H2. auto.
  Qed.
End check.
