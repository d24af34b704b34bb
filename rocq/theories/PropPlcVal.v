(** Validation of piecewise linear complexes: C42. *)
From Coq Require Import NArith ZArith Lia Sorted.
From stdpp Require Import base numbers list gmap option sorting fin_maps fin_sets.
From Verif Require Import IdMapModel IdMapProofs WalkerModel MeshModel UtilModel UtilSpec PlcModel PlcSpec PlcProofs PlcHist PlcValModel PlcValSpec PlcVal.
Local Open Scope N_scope.

(** Everything is said about the complex [p] that a history [os] of calls builds, for all geometric
    tests (functions of positions), all bounding volume trees the library may build, every tolerance. *)
Section props.
  Context {V E F Pl D : Type}.
  Implicit Types (p : plc V E F Pl) (os : list (pop V E F)).

  (** ** C42: the verdict. *)
  Theorem C42_validate (plane0 : Pl) (d : E) (plane_of : list pt → list (pt * pt) → Pl) (tol : Z)
      (twist : Pl → pt → option D) (vv : pt → pt → option D) (ve : pt → pt * pt → option D) (ee : pt * pt → pt * pt → option D)
      (vf : pt → Pl → list (list pt) → option D) (ef : pt * pt → Pl → list (list pt) → option D) (build : list (element * box) → option bvt) os p :
    refs_exist 0 os → pops_size os ≤ invalid_id → run_pops plane0 d plane_of plc_new os = Some p → builds build →
    ∃ w, validate tol twist vv ve ee vf ef build p = Some w ∧
    match w with
    | VDegenerate l => l ≠ [] ∧ lists (degenerate os) l
    | VTwisted l => (∀ f, ¬ degenerate os f) ∧ l ≠ [] ∧ lists (λ f, fails plane_of twist os f ≠ []) l.*1 ∧
        ∀ f fs, (f, fs) ∈ l → fs = fails plane_of twist os f
    | VIntersects l => (∀ f, ¬ degenerate os f) ∧ (∀ f, fails plane_of twist os f = []) ∧ l ≠ [] ∧ NoDup l.*1 ∧
        ∀ x y dist, (x, y, dist) ∈ l ↔ boxes_overlap tol os p x y ∧ conflict plane_of vv ve ee vf ef os p x y dist
    | VOk => (∀ f, ¬ degenerate os f) ∧ (∀ f, fails plane_of twist os f = []) ∧
        ∀ x y dist, boxes_overlap tol os p x y → ¬ conflict plane_of vv ve ee vf ef os p x y dist
    end.
  Proof.
    intros Hr Hs E0 Hb. destruct (run_content plane0 d plane_of os Hr Hs) as (p' & E1 & Hc). simplify_eq. by apply (validate_ok d plane_of).
  Qed.

  (** The boxes hide nothing: elements with points within twice the tolerance of each other (in each
      coordinate) have boxes that overlap. *)
  Theorem C42_boxes (tol : Z) os p x y l k :
    elem_points os p x = Some l → elem_points os p y = Some k → near tol l k → boxes_overlap tol os p x y.
  Proof.
    intros Hx Hy Hn. pose proof Hn as (ws & us & (Lw & _ & Sw) & (Lu & _ & Su) & _).
    destruct l as [|a l]; [by destruct ws; cbn in *|]. destruct k as [|b k]; [by destruct us; cbn in *|].
    exists a, l, b, k. split; [done|]. split; [done|]. by apply near_meet.
  Qed.

  (** So, if the tests fire only for elements that close, success means that there is no conflict at all. *)
  Theorem C42_ok_iff (plane0 : Pl) (d : E) (plane_of : list pt → list (pt * pt) → Pl) (tol : Z)
      (twist : Pl → pt → option D) (vv : pt → pt → option D) (ve : pt → pt * pt → option D) (ee : pt * pt → pt * pt → option D)
      (vf : pt → Pl → list (list pt) → option D) (ef : pt * pt → Pl → list (list pt) → option D) (build : list (element * box) → option bvt) os p :
    refs_exist 0 os → pops_size os ≤ invalid_id → run_pops plane0 d plane_of plc_new os = Some p → builds build →
    (∀ a b r, vv a b = Some r → near tol [a] [b]) → (∀ a s r, ve a s = Some r → near tol [a] [s.1; s.2]) →
    (∀ s t r, ee s t = Some r → near tol [s.1; s.2] [t.1; t.2]) → (∀ a pl rings r, vf a pl rings = Some r → near tol [a] (concat rings)) →
    (∀ s pl rings r, ef s pl rings = Some r → near tol [s.1; s.2] (concat rings)) →
    validate tol twist vv ve ee vf ef build p = Some VOk ↔
    (∀ f, ¬ degenerate os f) ∧ (∀ f, fails plane_of twist os f = []) ∧ ∀ x y dist, ¬ conflict plane_of vv ve ee vf ef os p x y dist.
  Proof.
    intros Hr Hs E0 Hb Lvv Lve Lee Lvf Lef.
    destruct (C42_validate plane0 d plane_of tol twist vv ve ee vf ef build os p Hr Hs E0 Hb) as (w & E1 & Hw).
    assert (∀ x y dist, conflict plane_of vv ve ee vf ef os p x y dist → boxes_overlap tol os p x y) as Hloc.
    { assert (∀ rings qss, mapM (mapM (pos_in os)) rings = Some qss → mapM (pos_in os) (concat rings) = Some (concat qss)) as Hcat.
      { induction rings as [|r rings IH]; intros qss H; cbn in H; [by injection H as <-|]. apply bind_Some in H as (q & H1 & H). apply bind_Some in H as (qs & H2 & H).
        injection H as <-. cbn. apply mapM_Some. apply mapM_Some in H1. specialize (IH qs H2). apply mapM_Some in IH. by apply Forall2_app. }
      assert (∀ a x, pos_in os a = Some x → is_Some (added_verts os !! N.to_nat a)) as Hav.
      { intros a x H. unfold pos_in in H. apply fmap_Some in H as (y & Hy & _). eauto. }
      intros x y dist. destruct x as [v|e|f], y as [v'|e'|f']; cbn [conflict]; try done.
      - intros (_ & a & b & H1 & H2 & H3). apply (C42_boxes _ _ _ _ _ [a] [b]); [..|by eapply Lvv]; unfold elem_points; cbn; rewrite decide_True by eauto; cbn; by rewrite ?H1, ?H2.
      - intros (a & b & q & s & H1 & _ & _ & H2 & H3 & H4). unfold ends_in in H3. cbn [fst snd] in H3. apply bind_Some in H3 as (pa & Ha & H3). apply bind_Some in H3 as (pb & Hb' & H3). injection H3 as <-.
        apply (C42_boxes _ _ _ _ _ [q] [pa; pb]); [..|by apply (Lve q (pa, pb) dist)]; unfold elem_points; cbn.
        + rewrite decide_True by eauto; cbn; by rewrite H2.
        + rewrite H1. cbn. rewrite Ha. cbn. by rewrite Hb'.
      - intros (rings & pl & q & qss & H1 & _ & _ & H2 & H3 & H4). apply (C42_boxes _ _ _ _ _ [q] (concat qss)); [..|by eapply Lvf]; unfold elem_points; cbn.
        + rewrite decide_True by eauto; cbn; by rewrite H2.
        + rewrite H1. cbn. by apply Hcat.
      - intros (a & b & c & f & s0 & s1 & H1 & H2 & _ & _ & _ & _ & H3 & H4 & H5).
        unfold ends_in in H3, H4. cbn [fst snd] in H3, H4. apply bind_Some in H3 as (pa & Ha & H3). apply bind_Some in H3 as (pb & Hb' & H3). injection H3 as <-.
        apply bind_Some in H4 as (pc & Hc' & H4). apply bind_Some in H4 as (pf & Hf' & H4). injection H4 as <-.
        apply (C42_boxes _ _ _ _ _ [pa; pb] [pc; pf]); [..|by apply (Lee (pa, pb) (pc, pf) dist)]; unfold elem_points; cbn; rewrite ?H1, ?H2; cbn; rewrite ?Ha, ?Hc'; cbn; by rewrite ?Hb', ?Hf'.
      - intros (a & b & rings & pl & s & qss & H1 & H2 & _ & _ & _ & H3 & H4 & H5).
        unfold ends_in in H3. cbn [fst snd] in H3. apply bind_Some in H3 as (pa & Ha & H3). apply bind_Some in H3 as (pb & Hb' & H3). injection H3 as <-.
        apply (C42_boxes _ _ _ _ _ [pa; pb] (concat qss)); [..|by apply (Lef (pa, pb) pl qss dist)]; unfold elem_points; cbn.
        + rewrite H1. cbn. rewrite Ha. cbn. by rewrite Hb'.
        + rewrite H2. cbn. by apply Hcat. }
    rewrite E1. split.
    - intros [= ->]. destruct Hw as (H1 & H2 & H3). split; [done|]. split; [done|]. intros x y dist H. apply (H3 x y dist); [by eapply Hloc|done].
    - intros (H1 & H2 & H3). destruct w as [|l|l|l]; [done|exfalso..].
      + destruct Hw as (Hne & _ & Hl). destruct l as [|f l]; [done|]. apply (H1 f). apply Hl. by left.
      + destruct Hw as (_ & Hne & (_ & Hl) & _). destruct l as [|[f fs] l]; [done|]. specialize (proj1 (Hl f)). rewrite H2. intros H. apply H; [by left|done].
      + destruct Hw as (_ & _ & Hne & _ & Hl). destruct l as [|[[x y] dist] l]; [done|]. apply (H3 x y dist). apply Hl. by left.
  Qed.

  (** A pair of elements that share a vertex is never reported, and no pair is reported in both orders. *)
  Theorem C42_reported (plane0 : Pl) (d : E) (plane_of : list pt → list (pt * pt) → Pl) (tol : Z)
      (twist : Pl → pt → option D) (vv : pt → pt → option D) (ve : pt → pt * pt → option D) (ee : pt * pt → pt * pt → option D)
      (vf : pt → Pl → list (list pt) → option D) (ef : pt * pt → Pl → list (list pt) → option D) (build : list (element * box) → option bvt) os p l x y dist :
    refs_exist 0 os → pops_size os ≤ invalid_id → run_pops plane0 d plane_of plc_new os = Some p → builds build →
    validate tol twist vv ve ee vf ef build p = Some (VIntersects l) → (x, y, dist) ∈ l →
    (∀ v vs ws, elem_verts os p x = Some vs → elem_verts os p y = Some ws → v ∈ vs → v ∉ ws) ∧ ∀ dist', (y, x, dist') ∉ l.
  Proof.
    intros Hr Hs E0 Hb E1 Hin. destruct (C42_validate plane0 d plane_of tol twist vv ve ee vf ef build os p Hr Hs E0 Hb) as (w & E2 & Hw).
    rewrite E1 in E2. injection E2 as <-. destruct Hw as (_ & _ & _ & _ & Hl). apply Hl in Hin as [_ Hc]. split.
    - intros v vs ws Hx Hy Hv Hw. destruct x as [a|a|a], y as [b|b|b]; cbn [conflict elem_verts] in *; try done.
      + repeat case_decide; simplify_eq. apply elem_of_list_singleton in Hv, Hw. subst. destruct Hc as [? _]. lia.
      + case_decide; [|done]. simplify_eq. apply elem_of_list_singleton in Hv as ->. destruct Hc as (c & e & _ & _ & H1 & H2 & H3 & _). rewrite H1 in Hy. cbn in Hy. simplify_eq.
        apply elem_of_cons in Hw as [->|Hw]; [done|]. by apply elem_of_list_singleton in Hw as ->.
      + case_decide; [|done]. simplify_eq. apply elem_of_list_singleton in Hv as ->. destruct Hc as (rings & _ & _ & _ & H1 & _ & H2 & _). rewrite H1 in Hy. cbn in Hy. by simplify_eq.
      + destruct Hc as (c & e & c' & e' & _ & _ & H1 & H2 & H3 & H4 & H5 & H6 & _). rewrite H1 in Hx. rewrite H2 in Hy. cbn in Hx, Hy. simplify_eq.
        apply elem_of_cons in Hv as [->|Hv]; [|apply elem_of_list_singleton in Hv as ->]; (apply elem_of_cons in Hw as [Hw|Hw]; [|apply elem_of_list_singleton in Hw]); subst; try done; lia.
      + destruct Hc as (c & e & rings & _ & _ & _ & H1 & H2 & _ & H3 & H4 & _). rewrite H1 in Hx. rewrite H2 in Hy. cbn in Hx, Hy. simplify_eq.
        apply elem_of_cons in Hv as [->|Hv]; [done|]. by apply elem_of_list_singleton in Hv as ->.
    - intros dist' Hin'. apply Hl in Hin' as [_ Hc']. destruct x as [a|a|a], y as [b|b|b]; cbn [conflict] in *; try done.
      + destruct Hc as [? _], Hc' as [? _]. lia.
      + destruct Hc as (c & e & c' & e' & _ & _ & H1 & H2 & H3 & _). destruct Hc' as (g & h & g' & h' & _ & _ & H4 & H5 & H6 & _). rewrite H1 in H5. rewrite H2 in H4. simplify_eq. lia.
  Qed.

  (** ** Finding: elements that share a vertex may overlap and still pass.  An edge and its reverse are
      never compared, nor is an edge with a face it crosses if one of its ends is a corner of the face. *)
  Theorem C42_shared_vertex_refuted plane_of (vv : pt → pt → option D) ve ee (vf : pt → Pl → list (list pt) → option D) ef os p e e' a b dist :
    evs p e = Some (a, b) → evs p e' = Some (b, a) → ¬ conflict plane_of vv ve ee vf ef os p (EEdge e) (EEdge e') dist.
  Proof. intros H1 H2 (c & f & c' & f' & _ & _ & H3 & H4 & H5 & H6 & H7 & H8 & _). rewrite H1 in H3. rewrite H2 in H4. by simplify_eq. Qed.
End props.

Print Assumptions C42_validate.
Print Assumptions C42_boxes.
Print Assumptions C42_ok_iff.
Print Assumptions C42_reported.
Print Assumptions C42_shared_vertex_refuted.

(** ** Concrete cases.  Tests on a lattice: the plane is the height of the first vertex; points conflict
    at distance below 2; a segment conflicts with a point at its midpoint; and so on. *)
Definition dist2 (a b : pt) : Z := ((px a - px b) * (px a - px b) + (py a - py b) * (py a - py b) + (pz a - pz b) * (pz a - pz b))%Z.
Global Instance pt_eq_dec : EqDecision pt.
Proof. solve_decision. Defined.
Definition ex_plane (pts : list pt) (_ : list (pt * pt)) : Z := match pts with [] => 0%Z | a :: _ => pz a end.
Definition ex_twist (pl : Z) (a : pt) : option Z := if decide (1 <= Z.abs (pz a - pl))%Z then Some (Z.abs (pz a - pl)) else None.
Definition ex_vv (a b : pt) : option Z := if decide (dist2 a b < 4)%Z then Some (dist2 a b) else None.
Definition ex_ve (a : pt) (s : pt * pt) : option Z :=
  if decide (Pt (2 * px a) (2 * py a) (2 * pz a) = Pt (px s.1 + px s.2) (py s.1 + py s.2) (pz s.1 + pz s.2)) then Some 0%Z else None.
Definition ex_ee (s t : pt * pt) : option Z :=
  if decide (Pt (px s.1 + px s.2) (py s.1 + py s.2) (pz s.1 + pz s.2) = Pt (px t.1 + px t.2) (py t.1 + py t.2) (pz t.1 + pz t.2)) then Some 0%Z else None.
Definition ex_vf (a : pt) (pl : Z) (rings : list (list pt)) : option Z := if decide (a ∈ concat rings) then Some 0%Z else None.
Definition ex_ef (s : pt * pt) (pl : Z) (rings : list (list pt)) : option Z := if decide (s.1 ∈ concat rings) then Some 0%Z else None.
(** A right-leaning tree. *)
Definition merge (a b : box) : box := Box (pt_min (b_lo a) (b_lo b)) (pt_max (b_hi a) (b_hi b)).
Fixpoint ex_build (ls : list (element * box)) : option bvt :=
  match ls with
  | [] => None
  | (x, b) :: ls => Some (match ex_build ls with None => BLeaf b x | Some t => BNode (merge b (bvt_box t)) (BLeaf b x) t end)
  end.
Example ex_builds : builds ex_build.
Proof.
  intros ls. induction ls as [|[x b] ls IH]; [done|]. cbn. destruct (ex_build ls) as [t|].
  - destruct IH as [H1 H2]. cbn. rewrite H1. split; [done|]. unfold box_in, merge. cbn. repeat split; try lia; done.
  - by subst ls.
Qed.
Definition ex_validate (os : list (pop unit unit unit)) : option (verdict Z) :=
  p ← run_pops 0%Z () ex_plane plc_new os; validate 2 ex_twist ex_vv ex_ve ex_ee ex_vf ex_ef ex_build p.
Definition ex_verts (l : list (Z * Z * Z)) : list (pop unit unit unit) := map (λ '(x, y, z), PAddVertex (Pt x y z) ()) l.
Definition ex_square := ex_verts [(0, 0, 0); (10, 0, 0); (10, 10, 0); (0, 10, 0); (5, 5, 20); (6, 6, 9)]%Z.
Definition ex_good := ex_square ++ [PAddFace [[0; 1; 2; 3]; [4]] (); PAddEdge (4, 5) ()].
(** The isolated vertex 4 is far above the plane of the face. *)
Example ex_twisted : ex_validate ex_good = Some (VTwisted [(0, [(4, 20%Z)])]).
Proof. by vm_compute. Qed.
Example ex_ok : ex_validate (ex_square ++ [PAddFace [[0; 1; 2; 3]] (); PAddEdge (4, 5) ()]) = Some VOk.
Proof. by vm_compute. Qed.
Example ex_degenerate : ex_validate (ex_square ++ [PAddFace [[0; 1]; [4]] (); PAddFace [[0; 1; 2]] (); PAddFace [[5]] ()]) = Some (VDegenerate [0; 2]).
Proof. by vm_compute. Qed.
(** The two diagonals of the square cross in the middle, where a further vertex lies too. *)
Example ex_crossing : ex_validate (ex_verts [(0, 0, 0); (10, 10, 0); (10, 0, 0); (0, 10, 0); (5, 5, 0); (5, 6, 0)]%Z ++ [PAddEdge (0, 1) (); PAddEdge (1, 0) (); PAddEdge (2, 3) ()]) =
  Some (VIntersects [(EVertex 4, EVertex 5, 1%Z); (EVertex 4, EEdge 0, 0%Z); (EVertex 4, EEdge 1, 0%Z); (EVertex 4, EEdge 2, 0%Z); (EEdge 0, EEdge 2, 0%Z); (EEdge 1, EEdge 2, 0%Z)]).
Proof. by vm_compute. Qed.
(** These tests meet the hypotheses of [C42_ok_iff]. *)
Lemma pick_weights (a : pt) (l : list pt) : a ∈ l → ∃ us, weights us l ∧ zsum us = 1%Z ∧ ∀ c, wsum c us l = c a.
Proof.
  assert (∀ l : list pt, ∃ us, length us = length l ∧ (∀ w, w ∈ us → (0 <= w)%Z) ∧ zsum us = 0%Z ∧ ∀ c, wsum c us l = 0%Z) as Hz.
  { clear. induction l as [|b l (us & H1 & H2 & H3 & H4)]; [exists []; repeat split; try done; intros w Hw; by apply elem_of_nil in Hw|].
    exists (0%Z :: us). split; [by cbn; f_equal|]. split; [intros w Hw; apply elem_of_cons in Hw as [->|Hw]; [lia|auto]|]. split; [done|]. intros c. specialize (H4 c). unfold wsum, zsum in *. cbn. by rewrite H4. }
  induction 1 as [a l|a b l H (us & (H1 & H2 & H3) & H4 & H5)].
  - destruct (Hz l) as (us & H1 & H2 & H3 & H4). exists (1%Z :: us). assert (zsum (1%Z :: us) = 1%Z) as Hs by (unfold zsum in *; cbn; by rewrite H3). split; [split; [by cbn; f_equal|]; split; [|by rewrite Hs]|split; [done|]].
    + intros w Hw. apply elem_of_cons in Hw as [->|Hw]; [lia|auto].
    + intros c. specialize (H4 c). unfold wsum, zsum in *. cbn [zip_with foldr]. rewrite H4. lia.
  - exists (0%Z :: us). assert (zsum (0%Z :: us) = 1%Z) as Hs by done. split; [split; [by cbn; f_equal|]; split; [|by rewrite Hs]|split; [done|]].
    + intros w Hw. apply elem_of_cons in Hw as [->|Hw]; [lia|auto].
    + intros c. specialize (H5 c). unfold wsum, zsum in *. cbn [zip_with foldr]. rewrite H5. lia.
Qed.
Example ex_local :
  (∀ a b r, ex_vv a b = Some r → near 2 [a] [b]) ∧ (∀ a s r, ex_ve a s = Some r → near 2 [a] [s.1; s.2]) ∧
  (∀ s t r, ex_ee s t = Some r → near 2 [s.1; s.2] [t.1; t.2]) ∧ (∀ a pl rings r, ex_vf a pl rings = Some r → near 2 [a] (concat rings)) ∧
  (∀ s pl rings r, ex_ef s pl rings = Some r → near 2 [s.1; s.2] (concat rings)).
Proof.
  assert (∀ n m l k, length l = n → length k = m → (0 < n)%nat → (0 < m)%nat → (∀ c, c ∈ [px; py; pz] →
    (Z.abs (zsum (replicate m 1%Z) * wsum c (replicate n 1%Z) l - zsum (replicate n 1%Z) * wsum c (replicate m 1%Z) k) <= 2 * 2 * zsum (replicate n 1%Z) * zsum (replicate m 1%Z))%Z) → near 2 l k) as Hone.
  { intros n m l k Hl Hk Hn Hm H. exists (replicate n 1%Z), (replicate m 1%Z).
    assert (∀ n, (0 < n)%nat → (∀ w, w ∈ replicate n 1%Z → (0 <= w)%Z) ∧ (0 < zsum (replicate n 1%Z))%Z) as Hw.
    { clear. intros n Hn. split; [intros w Hw; apply elem_of_replicate in Hw as [-> _]; lia|]. assert (zsum (replicate n 1%Z) = Z.of_nat n) as -> by (clear; unfold zsum; induction n as [|n IH]; [done|]; cbn [replicate foldr]; rewrite IH; lia). lia. }
    split; [split; [by rewrite replicate_length|by apply Hw]|]. split; [split; [by rewrite replicate_length|by apply Hw]|]. done. }
  split; [|split; [|split; [|split]]].
  - intros a b r H. unfold ex_vv, dist2 in H. case_decide as Hd; [|done]. apply (Hone 1%nat 1%nat); try done; try lia. intros c Hc. cbn [replicate]. unfold wsum, zsum. cbn [zip_with foldr].
    assert (∀ x, x * x < 4 → Z.abs x <= 4)%Z as Hq by (intros x; destruct (Z.le_gt_cases (Z.abs x) 4); [done|]; nia).
    pose proof (Z.square_nonneg (px a - px b)). pose proof (Z.square_nonneg (py a - py b)). pose proof (Z.square_nonneg (pz a - pz b)).
    pose proof (Hq (px a - px b)%Z). pose proof (Hq (py a - py b)%Z). pose proof (Hq (pz a - pz b)%Z).
    repeat (apply elem_of_cons in Hc as [->|Hc]; [lia|]). by apply elem_of_nil in Hc.
  - intros a [s t] r H. unfold ex_ve in H. case_decide as Hd; [|done]. injection Hd as ? ? ?. cbn in *. apply (Hone 1%nat 2%nat); try done; try lia. intros c Hc. cbn [replicate]. unfold wsum, zsum. cbn [zip_with foldr].
    repeat (apply elem_of_cons in Hc as [->|Hc]; [lia|]). by apply elem_of_nil in Hc.
  - intros [s t] [s' t'] r H. unfold ex_ee in H. case_decide as Hd; [|done]. injection Hd as ? ? ?. cbn in *. apply (Hone 2%nat 2%nat); try done; try lia. intros c Hc. cbn [replicate]. unfold wsum, zsum. cbn [zip_with foldr].
    repeat (apply elem_of_cons in Hc as [->|Hc]; [lia|]). by apply elem_of_nil in Hc.
  - intros a pl rings r H. unfold ex_vf in H. case_decide as Hd; [|done]. destruct (pick_weights _ _ Hd) as (us & H1 & H2 & H3).
    exists [1%Z], us. split; [split; [done|]; split; [intros w Hw; apply elem_of_list_singleton in Hw as ->; lia|done]|]. split; [done|]. intros c Hc. rewrite H2, H3. unfold wsum, zsum. cbn [zip_with foldr]. lia.
  - intros [s t] pl rings r H. unfold ex_ef in H. case_decide as Hd; [|done]. destruct (pick_weights _ _ Hd) as (us & H1 & H2 & H3). cbn [fst snd] in *.
    exists [1%Z; 0%Z], us. split; [split; [done|]; split; [intros w Hw; repeat (apply elem_of_cons in Hw as [->|Hw]; [lia|]); by apply elem_of_nil in Hw|done]|]. split; [done|]. intros c Hc. rewrite H2, H3. unfold wsum, zsum. cbn [zip_with foldr]. lia.
Qed.
