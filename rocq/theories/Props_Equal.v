(** C85: what NodesEqual and Highscore.Equal compare. *)
From Coq Require Import Reals Lra Psatz SpecFloat.
From Verif Require Import Base Num Mat Model_Node Proof_XR Proof_Util Proof_Norm Proof_Node Proof_Node2 Proof_Models Proof_Fit Proof_Cov Props_Cov Props_Highscore.
Open Scope R_scope.

(** ** Specification *)

(** equal up to 1e-10, absolutely or relative to the larger of the two *)
Definition near (a b : R) : Prop := Rabs (a - b) <= / 10 ^ 10 * Rmax 1 (Rmax (Rabs a) (Rabs b)).

(** a node all of whose numbers are real *)
Record real_node (n : Node XR) (c : list R) (lo up sc : R) : Prop := mkRealNode {
  rn_c : ndCoeff n = map XFin c; rn_lo : ndLower n = XFin lo; rn_up : ndUpper n = XFin up; rn_sc : ndScore n = XFin sc }.

Lemma within_xr : forall a b, EqualWithinAbsOrRel (N := XR) (fin a) (fin b) (ndec 1 (-10)) = true <-> near a b.
Proof.
  intros a b. unfold near. rewrite <- approx_xr. unfold EqualWithinAbsOrRel, Model_Cov.float_approx, go_eq, min_normal.
  assert (M : nmax2 (N := XR) (nabs (fin a)) (nabs (fin b)) =
    (if nltb (n := XR) (nabs (fin a)) (nabs (fin b)) then nabs (fin b) else nabs (fin a))).
  { change ((if Rltb (Rabs b) (Rabs a) then fin (Rabs a) else fin (Rabs b)) = (if Rltb (Rabs a) (Rabs b) then fin (Rabs b) else fin (Rabs a))).
    destruct (Rltb (Rabs b) (Rabs a)) eqn:E1, (Rltb (Rabs a) (Rabs b)) eqn:E2; try reflexivity.
    - apply Rltb_true in E1, E2. lra.
    - apply Rltb_false in E1, E2. apply (f_equal fin). lra. }
  rewrite M.
  destruct (_ && _)%bool; [cbn [orb]; tauto|]. cbn [orb].
  destruct (nleb _ (ndec 1 (-10))); cbn [orb]; tauto.
Qed.

Lemma lt_tol : forall a b, nltb (n := XR) (ndec 1 (-10)) (nabs (nsub (fin a) (fin b))) = false <-> Rabs (a - b) <= / 10 ^ 10.
Proof. intros a b. rewrite e10_fin, xsub_fin, xabs_fin. change (Rltb (/ 10 ^ 10) (Rabs (a - b)) = false <-> Rabs (a - b) <= / 10 ^ 10). apply Rltb_false. Qed.

Lemma models_equal : forall a b : list bool, length a = length b ->
  (forallb (fun p => Bool.eqb (fst p) (snd p)) (combine a b) = true <-> a = b).
Proof.
  induction a as [|x a IH]; intros [|y b] H; try discriminate H; cbn; [tauto|].
  rewrite andb_true_iff, eqb_true_iff, IH by (cbn in H; lia). split; [intros [-> ->]; reflexivity|intro E; injection E; auto].
Qed.

Lemma forallb_combine : forall A (f : A -> A -> bool) d (a b : list A), length a = length b ->
  (forallb (fun p => f (fst p) (snd p)) (combine a b) = true <-> forall i, (i < length a)%nat -> f (nth i a d) (nth i b d) = true).
Proof.
  induction a as [|x a IH]; intros [|y b] H; try discriminate H; cbn [combine forallb length].
  - split; [intros _ i Hi; lia|reflexivity].
  - rewrite andb_true_iff, IH by (cbn in H; lia). cbn [fst snd]. split.
    + intros [H1 H2] [|i] Hi; [exact H1|]. apply H2. lia.
    + intro G. split; [exact (G 0%nat ltac:(lia))|]. intros i Hi. exact (G (S i) ltac:(lia)).
Qed.

(** Model, level and all numbers are compared, WasFlipped is not. *)
Theorem C85_nodes_equal : forall n1 n2 c1 c2 lo1 lo2 up1 up2 sc1 sc2,
  real_node n1 c1 lo1 up1 sc1 -> real_node n2 c2 lo2 up2 sc2 ->
  (NodesEqual n1 n2 = true <->
   ndModel n1 = ndModel n2 /\ ndLevel n1 = ndLevel n2 /\
   Rabs (lo1 - lo2) <= / 10 ^ 10 /\ Rabs (up1 - up2) <= / 10 ^ 10 /\ Rabs (sc1 - sc2) <= / 10 ^ 10 /\
   length c1 = length c2 /\ forall i, (i < length c1)%nat -> near (nth i c1 0) (nth i c2 0)).
Proof.
  intros n1 n2 c1 c2 lo1 lo2 up1 up2 sc1 sc2 [A1 A2 A3 A4] [B1 B2 B3 B4].
  assert (EA : EqualApprox (ndCoeff n1) (ndCoeff n2) (ndec 1 (-10)) = true <->
    length c1 = length c2 /\ forall i, (i < length c1)%nat -> near (nth i c1 0) (nth i c2 0)).
  { unfold EqualApprox. rewrite A1, B1, !map_length, andb_true_iff, Nat.eqb_eq. split; intros [H1 H2]; (split; [exact H1|]).
    - intros i Hi. rewrite (forallb_combine _ (fun a b => EqualWithinAbsOrRel (N := XR) a b (ndec 1 (-10))) (fin 0)) in H2 by (rewrite !map_length; exact H1).
      specialize (H2 i). rewrite map_length, !(map_nth fin) in H2. apply within_xr. apply H2. exact Hi.
    - apply (forallb_combine _ (fun a b => EqualWithinAbsOrRel (N := XR) a b (ndec 1 (-10))) (fin 0)); [rewrite !map_length; exact H1|].
      intros i Hi. rewrite map_length in Hi. rewrite !(map_nth fin). apply within_xr. apply H2. exact Hi. }
  unfold NodesEqual. rewrite A2, A3, A4, B2, B3, B4.
  destruct (Nat.eqb_spec (length (ndModel n1)) (length (ndModel n2))) as [El|El]; cbn [negb].
  2:{ split; [discriminate|]. intros (C & _). rewrite C in El. contradiction. }
  destruct (Z.eqb_spec (ndLevel n1) (ndLevel n2)) as [Ez|Ez]; cbn [negb].
  2:{ split; [discriminate|]. intros (_ & C & _). contradiction. }
  pose proof (models_equal _ _ El) as Em.
  destruct (forallb _ (combine (ndModel n1) (ndModel n2))); cbn [negb].
  2:{ split; [discriminate|]. intros (C & _). apply Em in C. discriminate C. }
  pose proof (lt_tol lo1 lo2) as L1. pose proof (lt_tol up1 up2) as L2. pose proof (lt_tol sc1 sc2) as L3. unfold fin in L1, L2, L3.
  cbv zeta.
  destruct (nltb (n := XR) _ (nabs (nsub (n := XR) (XFin lo1) _))); cbn [orb].
  1:{ split; [discriminate|]. intros (_ & _ & C & _). apply L1 in C. discriminate C. }
  destruct (nltb (n := XR) _ (nabs (nsub (n := XR) (XFin up1) _))); cbn [orb].
  1:{ split; [discriminate|]. intros (_ & _ & _ & C & _). apply L2 in C. discriminate C. }
  destruct (nltb (n := XR) _ (nabs (nsub (n := XR) (XFin sc1) _))); cbn [orb].
  1:{ split; [discriminate|]. intros (_ & _ & _ & _ & C & _). apply L3 in C. discriminate C. }
  destruct (EqualApprox _ _ _); cbn [negb].
  - split; [|reflexivity]. intros _. split; [apply Em; reflexivity|]. split; [exact Ez|].
    split; [apply L1; reflexivity|]. split; [apply L2; reflexivity|]. split; [apply L3; reflexivity|]. apply EA. reflexivity.
  - split; [discriminate|]. intros (_ & _ & _ & _ & _ & C). apply EA in C. discriminate C.
Qed.
Print Assumptions C85_nodes_equal.

(** NewNode: a copy of the model, one zero coefficient per feature, bounds and
    score zero, not flipped.  Two new nodes are equal exactly when they have the
    same level and model. *)
Theorem C85_new_nodes :
  (forall l m, real_node (NewNode (N := XR) l m) (repeat 0 (count_occ Bool.bool_dec m true)) 0 0 0 /\
     ndModel (NewNode (N := XR) l m) = m /\ ndLevel (NewNode (N := XR) l m) = l /\ ndWasFlipped (NewNode (N := XR) l m) = false) /\
  (forall l l' m m', NodesEqual (NewNode (N := XR) l m) (NewNode (N := XR) l' m') = true <-> l = l' /\ m = m').
Proof.
  assert (G : forall l m, real_node (NewNode (N := XR) l m) (repeat 0 (count_occ Bool.bool_dec m true)) 0 0 0 /\
     ndModel (NewNode (N := XR) l m) = m /\ ndLevel (NewNode (N := XR) l m) = l /\ ndWasFlipped (NewNode (N := XR) l m) = false).
  { intros l m. split.
    - split; try reflexivity. cbn [ndCoeff NewNode]. rewrite <- Proof_Models.nf_count. induction (NumFeatures m) as [|k IH]; [reflexivity|]. exact (f_equal (cons (XFin 0)) IH).
    - split; [|split; reflexivity]. cbn [ndModel NewNode]. apply go_copy_full. }
  split; [exact G|]. intros l l' m m'.
  destruct (G l m) as (R & E1 & E2 & _). destruct (G l' m') as (R' & E1' & E2' & _).
  rewrite (C85_nodes_equal _ _ _ _ _ _ _ _ _ _ R R'), E1, E1', E2, E2'.
  assert (T : 0 < / 10 ^ 10) by (apply Rinv_0_lt_compat; apply pow_lt; lra).
  replace (0 - 0) with 0 by ring. rewrite Rabs_R0. split.
  - intros (H1 & H2 & _). auto.
  - intros (-> & ->). split; [reflexivity|]. split; [reflexivity|]. do 3 (split; [lra|]). split; [reflexivity|].
    intros i _. unfold near. rewrite Rminus_diag_eq by reflexivity. rewrite Rabs_R0. apply Rmult_le_pos; [lra|].
    apply Rle_trans with 1; [lra|apply Rmax_l].
Qed.
Print Assumptions C85_new_nodes.

(** so it is symmetric ... *)
Theorem C85_symmetric : forall n1 n2 c1 c2 lo1 lo2 up1 up2 sc1 sc2,
  real_node n1 c1 lo1 up1 sc1 -> real_node n2 c2 lo2 up2 sc2 -> NodesEqual n1 n2 = NodesEqual n2 n1.
Proof.
  assert (G : forall n1 n2 c1 c2 lo1 lo2 up1 up2 sc1 sc2, real_node n1 c1 lo1 up1 sc1 -> real_node n2 c2 lo2 up2 sc2 ->
    NodesEqual n1 n2 = true -> NodesEqual n2 n1 = true).
  { intros n1 n2 c1 c2 lo1 lo2 up1 up2 sc1 sc2 H1 H2 E.
    apply (C85_nodes_equal n1 n2 c1 c2 lo1 lo2 up1 up2 sc1 sc2 H1 H2) in E. apply (C85_nodes_equal n2 n1 c2 c1 lo2 lo1 up2 up1 sc2 sc1 H2 H1).
    destruct E as (E1 & E2 & E3 & E4 & E5 & E6 & E7). rewrite (Rabs_minus_sym lo2), (Rabs_minus_sym up2), (Rabs_minus_sym sc2).
    split; [auto|]. split; [auto|]. split; [auto|]. split; [auto|]. split; [auto|]. split; [auto|].
    intros i Hi. unfold near. rewrite Rabs_minus_sym, (Rmax_comm (Rabs _)). apply E7. lia. }
  intros n1 n2 c1 c2 lo1 lo2 up1 up2 sc1 sc2 H1 H2.
  destruct (NodesEqual n1 n2) eqn:E1, (NodesEqual n2 n1) eqn:E2; try reflexivity.
  - rewrite (G n1 n2 c1 c2 lo1 lo2 up1 up2 sc1 sc2 H1 H2 E1) in E2. discriminate E2.
  - rewrite (G n2 n1 c2 c1 lo2 lo1 up2 up1 sc2 sc1 H2 H1 E2) in E1. discriminate E1.
Qed.
Print Assumptions C85_symmetric.

Definition scored (s : R) : Node XR := mkNode (N := XR) [true] [XFin 1] 0 (XFin 0) (XFin 0) (XFin s) false.
Lemma scored_real : forall s, real_node (scored s) [1] 0 0 s.
Proof. intro s. split; reflexivity. Qed.
Lemma scored_equal : forall s t, NodesEqual (scored s) (scored t) = true <-> Rabs (s - t) <= / 10 ^ 10.
Proof.
  intros s t. rewrite (C85_nodes_equal _ _ _ _ _ _ _ _ _ _ (scored_real s) (scored_real t)).
  assert (T : 0 < / 10 ^ 10) by (apply Rinv_0_lt_compat, pow_lt; lra).
  split; [tauto|]. intro H. split; [reflexivity|]. split; [reflexivity|].
  rewrite !Rminus_0_r, Rabs_R0. split; [lra|]. split; [lra|]. split; [exact H|]. split; [reflexivity|].
  intros [|i] Hi; [|cbn in Hi; lia]. unfold near. cbn [nth]. rewrite Rminus_diag_eq, Rabs_R0 by reflexivity.
  pose proof (Rmax_l 1 (Rmax (Rabs 1) (Rabs 1))). nra.
Qed.

(** ... but not transitive. *)
Theorem C85_transitive_refuted : exists a b c : Node XR,
  NodesEqual a b = true /\ NodesEqual b c = true /\ NodesEqual a c = false.
Proof.
  assert (T : 0 < / 10 ^ 10) by (apply Rinv_0_lt_compat, pow_lt; lra).
  exists (scored 0), (scored (/ 10 ^ 10)), (scored (2 * / 10 ^ 10)). rewrite !scored_equal.
  split; [rewrite Rminus_0_l, Rabs_Ropp, Rabs_right; lra|].
  split; [replace (_ - _) with (- / 10 ^ 10) by ring; rewrite Rabs_Ropp, Rabs_right; lra|].
  destruct (NodesEqual (scored 0) (scored (2 * / 10 ^ 10))) eqn:E; [|reflexivity].
  apply scored_equal in E. rewrite Rminus_0_l, Rabs_Ropp, Rabs_right in E by lra. lra.
Qed.
Print Assumptions C85_transitive_refuted.

(** ** NaN (binary64) *)

(** A NaN among the coefficients makes a node different from itself ... *)
Theorem C85_nan_coefficient : forall o (n m : Node (F64 o)), In S754_nan (ndCoeff n) -> NodesEqual n m = false.
Proof.
  intros o n m H. unfold NodesEqual. destruct (negb _); [reflexivity|]. destruct (negb _); [reflexivity|].
  destruct (negb _); [reflexivity|]. cbv zeta. destruct (_ || _)%bool; [reflexivity|].
  assert (E : EqualApprox (ndCoeff n) (ndCoeff m) (ndec 1 (-10)) = false); [|rewrite E; reflexivity].
  unfold EqualApprox. destruct (Nat.eqb_spec (length (ndCoeff n)) (length (ndCoeff m))) as [El|]; [|reflexivity]. cbn [andb].
  revert H El. generalize (ndCoeff m). induction (ndCoeff n) as [|x l IH]; intros [|y k] H El; try contradiction; try discriminate El.
  cbn [combine forallb fst snd]. destruct H as [->|H].
  - assert (EN : EqualWithinAbsOrRel (N := F64 o) S754_nan y (ndec 1 (-10)) = false); [|rewrite EN; reflexivity].
    unfold EqualWithinAbsOrRel, go_eq. destruct y; reflexivity.
  - rewrite IH; [apply andb_false_r|exact H|injection El; auto].
Qed.
Print Assumptions C85_nan_coefficient.

(** ... while a NaN score or bound is equal to every score or bound: "equal
    nodes have equal scores" is false. *)
Theorem C85_nan_score : forall o (n m : Node (F64 o)),
  ndModel n = ndModel m -> ndLevel n = ndLevel m -> ndCoeff n = ndCoeff m -> ~ In S754_nan (ndCoeff n) ->
  ndLower n = S754_nan -> ndUpper n = S754_nan -> ndScore n = S754_nan -> NodesEqual n m = true.
Proof.
  intros o n m E1 E2 E3 H L U S. unfold NodesEqual.
  rewrite E1, E2, L, U, S, Nat.eqb_refl, Z.eqb_refl, eqb_combine_refl. cbn [negb].
  assert (T : forall x : F64 o, nltb (n := F64 o) (ndec 1 (-10)) (nabs (nsub (n := F64 o) S754_nan x)) = false) by (intros [| | |]; vm_compute; reflexivity).
  cbv zeta. rewrite !T. cbn [orb]. rewrite <- E3, (EqualApprox_refl _ (f64_OrdLaws o)); [reflexivity|].
  apply forallb_forall. intros x Hx. destruct x; try reflexivity. contradiction.
Qed.
Print Assumptions C85_nan_score.

Theorem C85_equal_scores_refuted : exists a b : Node (F64 fenv0), NodesEqual a b = true /\ SFltb (ndScore a) (f64_ofZ 2) = true /\
  NodesEqual b a = true /\ ndScore b = S754_nan.
Proof.
  exists (mkNode (N := F64 fenv0) [true] [f64_ofZ 1] 0 S754_nan S754_nan (f64_ofZ 1) false : Node (F64 fenv0)),
         (mkNode (N := F64 fenv0) [true] [f64_ofZ 1] 0 S754_nan S754_nan S754_nan false : Node (F64 fenv0)).
  vm_compute. auto.
Qed.
Print Assumptions C85_equal_scores_refuted.

(** ** Highscore lists *)

(** Equal compares the capacities, the lengths and the items one by one. *)
Theorem C85_highscore_equal : forall (N : Num) (h1 h2 : Highscore N),
  hsEqual h1 h2 = true <->
  hsMaxItems h1 = hsMaxItems h2 /\ hsLen h1 = hsLen h2 /\
  forall i a b, nth_error (hsItems h1) i = Some a -> nth_error (hsItems h2) i = Some b -> NodesEqual a b = true.
Proof.
  intros N h1 h2. unfold hsEqual.
  destruct (Z.eqb_spec (hsMaxItems h1) (hsMaxItems h2)) as [E1|E1]; cbn [negb orb]; [|split; [discriminate|tauto]].
  destruct (Z.eqb_spec (hsLen h1) (hsLen h2)) as [E2|E2]; cbn [negb orb]; [|split; [discriminate|tauto]].
  transitivity (forall i a b, nth_error (hsItems h1) i = Some a -> nth_error (hsItems h2) i = Some b -> NodesEqual a b = true); [|tauto].
  generalize (hsItems h1) (hsItems h2). clear. induction l as [|x l IH]; intros [|y k]; cbn [combine forallb].
  - split; [intros _ [|i]; discriminate|reflexivity].
  - split; [intros _ [|i]; discriminate|reflexivity].
  - split; [intros _ [|i] a b _; discriminate|reflexivity].
  - rewrite andb_true_iff, IH. cbn [fst snd]. split.
    + intros [H1 H2] [|i] a b Ha Hb; cbn in Ha, Hb; [injection Ha as <-; injection Hb as <-; exact H1|eapply H2; eauto].
    + intro H. split; [exact (H 0%nat x y eq_refl eq_refl)|]. intros i a b. exact (H (S i) a b).
Qed.
Print Assumptions C85_highscore_equal.

(** A list that is not full is Equal to the one restored from its JSON; a full
    one whose last two scores differ is not. *)
Theorem C85_restored_is_equal : forall o M M0 (nodes : list (Node (F64 o))) h,
  M <> 1%Z -> Forall score_ok nodes -> hsInsertAll (NewHighscore M) nodes = Ok h ->
  (hsLen h < hsMaxItems h)%Z -> forallb node_finite (hsItems h) = true ->
  exists j h', hsMarshalJSON h = Ok (Some j) /\ hsUnmarshalJSON (NewHighscore M0) j = Ok h' /\ hsEqual h h' = true.
Proof.
  intros o M M0 nodes h HM Hn E Hl Hf.
  destruct (C04_highscore_json_roundtrip o M M0 nodes h HM Hn E Hl Hf) as (j & E1 & E2).
  eexists j, _. split; [exact E1|]. split; [exact E2|]. apply C85_highscore_equal. cbn [hsMaxItems hsItems].
  split; [reflexivity|]. split; [unfold hsLen; cbn [hsItems]; rewrite map_length; reflexivity|].
  intros i a b Ha Hb. rewrite nth_error_map, Ha in Hb. injection Hb as <-.
  rewrite forallb_forall in Hf. apply nth_error_In in Ha. specialize (Hf a Ha).
  apply NodesEqual_same; try reflexivity. apply (finite_nonan (F64 o)).
  unfold node_finite in Hf. rewrite !andb_true_iff in Hf. tauto.
Qed.
Print Assumptions C85_restored_is_equal.

Theorem C85_restored_full_list : forall o M M0 (nodes l : list (Node (F64 o))) x y h,
  (2 <= M)%Z -> Forall score_ok nodes -> hsInsertAll (NewHighscore M) nodes = Ok h ->
  hsItems h = l ++ [x; y] -> hsLen h = hsMaxItems h -> forallb node_finite (hsItems h) = true ->
  SFltb (ndScore y) (ndScore x) = true ->
  exists j h', hsMarshalJSON h = Ok (Some j) /\ hsUnmarshalJSON (NewHighscore M0) j = Ok h' /\ hsEqual h h' = false.
Proof.
  intros o M M0 nodes l x y h HM Hn E Hi Hl Hf Hlt.
  destruct (C04_highscore_json_full_list o M M0 nodes l x y h HM Hn E Hi Hl Hf) as (j & E1 & E2). rewrite Hlt in E2.
  eexists j, _. split; [exact E1|]. split; [exact E2|].
  destruct (hsEqual h _) eqn:Eq; [|reflexivity]. exfalso. apply C85_highscore_equal in Eq. destruct Eq as (_ & C & _).
  unfold hsLen in C. cbn [hsItems] in C. rewrite Hi, map_length, !app_length in C. cbn [length] in C. lia.
Qed.
Print Assumptions C85_restored_full_list.

Example C85_example :
  (exists h, hsInsertAll (NewHighscore 4) [nd 5; nd 3; nd 4] = Ok h /\ Forall score_ok [nd 5; nd 3; nd 4] /\
     (hsLen h < hsMaxItems h)%Z /\ forallb node_finite (hsItems h) = true) /\
  (exists h l x y, hsInsertAll (NewHighscore 3) [nd 5; nd 3; nd 3; nd 4] = Ok h /\ hsItems h = l ++ [x; y] /\
     hsLen h = hsMaxItems h /\ forallb node_finite (hsItems h) = true /\ SFltb (ndScore y) (ndScore x) = true).
Proof.
  split.
  - eexists. split; [reflexivity|]. split; [repeat constructor|]. vm_compute. auto.
  - eexists _, [_], _, _. split; [reflexivity|]. split; [reflexivity|]. vm_compute. auto.
Qed.
