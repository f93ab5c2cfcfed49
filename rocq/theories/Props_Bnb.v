(** C83: goselect bnb from the data file to the output file. *)
From Coq Require Import String Sorted Permutation SpecFloat.
From Verif Require Import Base Num Mat Model_Node Model_Util Model_Fit Model_CSV Model_SA Model_Search Model_Save Model_Cmd Model_Bnb
  Proof_Node Proof_Node2 Proof_SA2 Proof_Crit Proof_Models Proof_Util Proof_Search Proof_Search2 Proof_Search3 Proof_Search5 Proof_Cmd Spec_Cmd
  Props_SA Props_Anneal Props_Search Props_Cmd.
Open Scope list_scope.

(** ** Specification *)

(** A whole execution of the command, [b] being the state when the search
    starts: the goroutines of SelectModel take the steps [ls], which end the
    search; the steps [bls] of the search and of the saving (as seen by the
    shared list) end the program.  The nodes inserted are the same ones. *)
Record bnb_execution {N : Num} (b : bnb_ready N) (ls : list Model_Search.label) (s : st N) (bls : list (bnb_label N)) (e : bnb N) : Prop := mkExec {
  ex_search : run (brProblem b) (brSearch b) ls = Some (Ok s);
  ex_closed : exists k, sMain s = MClose k;
  ex_saving : bnb_run bls bnb_init = Some (Ok e);
  ex_end : bbMain e = BEnd;
  ex_same : inserted bls = gInserted s
}.

(** the models in the output file, with their scores, best first *)
Definition models_in {N : Num} (f : option (content N)) : list (list Z * N) :=
  match f with
  | Some (CJson _ items) =>
      map (fun o => match o with Some j => (njSelected j, njScore j) | None => ([], n0) end) items
  | _ => []
  end.

(** ** Proofs *)

Lemma run_inserts : forall (N : Num) (P : problem N) h s, reach N P (init_st h) s -> hsInsertAll h (gInserted s) = Ok (sHs s).
Proof.
  intros N P h s R. induction R as [|s l s' R IH Hs]; [reflexivity|].
  destruct Hs as
      [i Mm E|j n h' Mm E En Eh|j n Mm E En|i p flip Mm E|i Mm E|i n Mm E|i j c p flip Ec E Ew|j n E
      |i p flip c E Em|i p flip E Em|i c p flip E El|i c p flip E El|i c p flip e E El|i c p flip e E El
      |k Mm Hk|j E Ec|i E Ec]; try exact IH.
  - unfold finish. cbn [gInserted sHs]. unfold hsInsertAll in *. rewrite for_each_app, IH. cbn [bind for_each]. rewrite Eh. reflexivity.
  - unfold main_ready. destruct (sQueue (set_cw s i CWIdle)); exact IH.
Qed.

(** What the search is started with. *)
Theorem C83_parameters : forall (N : Num) svd parse ri rf fuel fit bnd file targetCol (cutoff : N) maxq b,
  bnb_start svd parse ri rf fuel fit bnd file targetCol cutoff maxq = Ok b ->
  let X := dsX (brData b) in
  ReadCSV parse file targetCol = Ok (Some (brData b)) /\
  (exists st, SelectModelSA svd X (dsY (brData b)) 100 Aicc ri rf fuel = Ok (brAnneal b, st)) /\
  (3 <= mcols X)%nat /\
  pRows (brProblem b) = mrows X /\ pCols (brProblem b) = mcols X /\ pFit (brProblem b) = fit /\ pBounds (brProblem b) = bnd /\
  pMaxQ (brProblem b) = maxq /\ pCutoff (brProblem b) = cutoff /\
  length (pRoot (brProblem b)) = mcols X /\
  (forall i, (i < mcols X)%nat -> (nth i (pRoot (brProblem b)) false = true <-> In (Z.of_nat i) (srSelected (brAnneal b)))) /\
  (forall z, In z (srSelected (brAnneal b)) -> (0 <= z < Z.of_nat (mcols X))%Z) /\
  SelectModel_start (mrows X) (mcols X) fit bnd (Some (pRoot (brProblem b))) maxq cutoff (NewHighscore 10) = Ok (brProblem b, brSearch b).
Proof.
  intros N svd parse ri rf fuel fit bnd file targetCol cutoff maxq b E. unfold bnb_start in E.
  destruct (ReadCSV parse file targetCol) as [[d|]| |] eqn:E1; try discriminate E. cbn [bind] in E.
  destruct (SelectModelSA svd (dsX d) (dsY d) 100 Aicc ri rf fuel) as [[r sst]| |] eqn:E2; try discriminate E. cbn [bind] in E.
  unfold bnb_params in E.
  destruct (Selected2Model (srSelected r) (Z.of_nat (mcols (dsX d)))) as [root| |] eqn:E3; try discriminate E. cbn [bind opRoot opMaxQueue opCutoff] in E.
  destruct (SelectModel_start (mrows (dsX d)) (mcols (dsX d)) fit bnd (Some root) maxq cutoff (NewHighscore 10)) as [[P s0]| |] eqn:E4; try discriminate E.
  cbn [bind] in E. injection E as <-. cbn [brData brAnneal brProblem brSearch].
  destruct (start_inv _ _ _ _ _ _ _ _ _ _ _ E4) as (-> & K1 & K2 & K3 & K4 & K5 & K6 & K7 & K8).
  destruct (selected2model_spec (srSelected r) (Z.of_nat (mcols (dsX d))) ltac:(lia)) as [S1 S2].
  assert (Hin : forall z, In z (srSelected r) -> (0 <= z < Z.of_nat (mcols (dsX d)))%Z).
  { intros z Hz. destruct (Z_lt_dec z 0) as [Hl|Hl].
    - rewrite S2 in E3; [discriminate|]. exists z. split; [exact Hz|lia].
    - destruct (Z_lt_dec z (Z.of_nat (mcols (dsX d)))) as [Hg|Hg]; [lia|].
      rewrite S2 in E3; [discriminate|]. exists z. split; [exact Hz|lia]. }
  destruct (S1 Hin) as (m & Em & Lm & Hm). rewrite E3 in Em. injection Em as <-.
  assert (Kc : pCutoff P = cutoff).
  { unfold SelectModel_start in E4. destruct (mcols (dsX d) <? 3)%nat; [discriminate|].
    destruct (length root =? mcols (dsX d))%nat; cbn [bind] in E4; [|discriminate]. injection E4 as <-. reflexivity. }
  cbv zeta. rewrite K8. split; [reflexivity|]. split; [exists sst; exact E2|].
  split; [lia|]. split; [exact K1|]. split; [exact K2|]. split; [exact K3|]. split; [exact K4|]. split; [exact K5|]. split; [exact Kc|].
  split; [lia|]. split; [intros i Hi; apply Hm; lia|]. split; [exact Hin|]. exact E4.
Qed.
Print Assumptions C83_parameters.

(** ReadCSV returns nil for a missing data file, which kills the program; so do fewer than three columns
    (after the annealing). *)
Theorem C83_no_start : forall (N : Num) svd parse ri rf fuel fit bnd file targetCol (cutoff : N) maxq,
  ReadCSV parse None targetCol = Ok None /\ bnb_start svd parse ri rf fuel fit bnd None targetCol cutoff maxq = Panic /\
  (forall d r, ReadCSV parse file targetCol = Ok (Some d) -> SelectModelSA svd (dsX d) (dsY d) 100 Aicc ri rf fuel = Ok r ->
     (mcols (dsX d) < 3)%nat -> bnb_start svd parse ri rf fuel fit bnd file targetCol cutoff maxq = Panic).
Proof.
  intros. split; [reflexivity|]. split; [reflexivity|]. intros d [r sst] E1 E2 H. unfold bnb_start. rewrite E1. cbn [bind]. rewrite E2. cbn [bind].
  unfold bnb_params. destruct (Selected2Model (srSelected r) (Z.of_nat (mcols (dsX d)))) as [root| |] eqn:E3; cbn [bind opRoot opMaxQueue opCutoff].
  - unfold SelectModel_start. destruct (Nat.ltb_spec (mcols (dsX d)) 3); [reflexivity|lia].
  - reflexivity.
  - exfalso. destruct (selected2model_spec (srSelected r) (Z.of_nat (mcols (dsX d))) ltac:(lia)) as [S1 S2].
    destruct (Forall_dec (fun z => (0 <= z < Z.of_nat (mcols (dsX d)))%Z)
      (fun z => ltac:(destruct (Z_le_dec 0 z); [destruct (Z_lt_dec z (Z.of_nat (mcols (dsX d)))); [left; lia|right; lia]|right; lia])) (srSelected r)) as [F|F].
    + rewrite Forall_forall in F. destruct (S1 F) as (m & Em & _). congruence.
    + rewrite S2 in E3; [discriminate|]. apply Exists_Forall_neg in F; [|intro z; destruct (Z_le_dec 0 z); [destruct (Z_lt_dec z (Z.of_nat (mcols (dsX d)))); [left; lia|right; lia]|right; lia]].
      apply Exists_exists in F. exact F.
Qed.
Print Assumptions C83_no_start.

(** ** The output file *)

Lemma models_of_items : forall (N : Num) (h : Highscore N) j, hsMarshalJSON h = Ok (Some j) ->
  hjMaxItems j = hsMaxItems h /\ map (fun i => (njSelected i, njScore i)) (hjItems j) = map (fun n => (sel_from 0 (ndModel n), ndScore n)) (hsItems h).
Proof.
  intros N h j E. unfold hsMarshalJSON in E. destruct (forallb node_finite (hsItems h)) eqn:F.
  - rewrite marshal_nodes_ok in E by exact F. cbn [bind] in E. injection E as <-. cbn [hjMaxItems hjItems].
    split; [reflexivity|]. rewrite map_map. reflexivity.
  - rewrite marshal_nodes_err in E by exact F. discriminate E.
Qed.
Definition bnb_nan_free {o} (cols : nat) (fit : list bool -> list (F64 o) * F64 o) : Prop :=
  forall a, length a = cols -> nonempty a -> f64_isnan (snd (fit a)) = false.

(** The file is the JSON of at most ten different models, each with its own
    score, and the model found by the annealing is not among them; or it has no
    bytes (a number encoding/json refuses). *)
Theorem C83_file : forall o svd parse ri rf fuel fit bnd file targetCol (cutoff : F64 o) maxq b ls s bls e,
  bnb_start svd parse ri rf fuel fit bnd file targetCol cutoff maxq = Ok b ->
  bnb_execution b ls s bls e ->
  let cols := mcols (dsX (brData b)) in
  bnb_nan_free cols fit ->
  (bbFile e = Some CEmpty \/ exists items, bbFile e = Some (CJson 10 items) /\ length (models_in (bbFile e)) = length items /\ (length items <= 10)%nat) /\
  NoDup (map fst (models_in (bbFile e))) /\
  ~ In (srSelected (brAnneal b)) (map fst (models_in (bbFile e))) /\
  StronglySorted (fun x y => nltb (snd x) (snd y) = false) (models_in (bbFile e)) /\
  (forall sel v, In (sel, v) (models_in (bbFile e)) ->
     exists m, length m = cols /\ (forall z, In z sel <-> exists i, z = Z.of_nat i /\ nth i m false = true) /\
       (nonempty m -> v = snd (fit m)) /\ (~ nonempty m -> v = SFopp f64_max)).
Proof.
  intros o svd parse ri rf fuel fit bnd file targetCol cutoff maxq b ls s bls e Hb [X1 (k & X2) X3 X4 X5] cols Hn.
  destruct (C83_parameters _ _ _ _ _ _ _ _ _ _ _ _ _ Hb) as (_ & _ & Hc & _ & _ & _ & _ & _ & _ & Hl & Hroot & Hin & Hst).
  destruct (C16_list_without_root o _ _ _ _ _ _ _ 10 _ _ _ _ ltac:(lia) Hn Hst X1) as [N1 N2].
  assert (Hh : hsMaxItems (NewHighscore (N := F64 o) 10) <> 1%Z) by (cbn; lia).
  destruct (started o _ _ _ _ _ _ _ _ _ _ _ _ Hh Hst X1) as (Hc1 & Hr & Es0 & R & I).
  pose proof (run_inserts _ _ _ _ R) as Ei. rewrite <- X5 in Ei.
  destruct (C70_final_file _ _ _ X3 X4) as (h & j & E1 & E2 & E3). rewrite Ei in E1. injection E1 as <-.
  assert (Hnn : forall x, length x = pCols (brProblem b) -> nisnan (scoreOf (F64 o) (brProblem b) x) = false).
  { destruct (start_inv _ _ _ _ _ _ _ _ _ _ _ Hst) as (_ & K1 & K2 & K3 & K4 & K5 & K6 & K7 & K8).
    intros x Hx. unfold scoreOf. destruct (Nat.eqb_spec (NumFeatures x) 0); [reflexivity|].
    rewrite K3. apply Hn; [unfold cols; lia|]. apply nonempty_nf. lia. }
  pose proof (reach_hs (F64 o) (brProblem b) Hc1 Hr (f64_OrdLaws o) 10 [] _ ltac:(lia) (hinv_init (F64 o) 10 ltac:(lia)) Hnn s R) as HI.
  destruct j as [j|]; rewrite E3; cbn [models_in].
  2:{ split; [left; reflexivity|]. split; [apply NoDup_nil|]. split; [intros []|]. split; [apply SSorted_nil|]. intros sel v []. }
  destruct (models_of_items _ _ _ E2) as [J1 J2].
  assert (JM : map (fun o0 : option (nodeJsonified (F64 o)) => match o0 with Some j => (njSelected j, njScore j) | None => ([], n0) end) (map Some (hjItems j))
             = map (fun n => (sel_from 0 (ndModel n), ndScore n)) (hsItems (sHs s))).
  { rewrite map_map. exact J2. }
  assert (JL : length (hjItems j) = length (hsItems (sHs s))).
  { apply (f_equal (@length _)) in J2. rewrite !map_length in J2. exact J2. }
  rewrite JM.
  assert (Hlen : forall n, In n (hsItems (sHs s)) -> length (ndModel n) = cols).
  { intros n Hi. apply (C16_nodes_of_the_list o _ _ _ _ _ _ _ 10 _ _ _ _ n ltac:(lia) Hn Hst X1 Hi). }
  split; [|split; [|split; [|split]]].
  - right. exists (map Some (hjItems j)). rewrite J1, (hi_max _ _ _ _ HI). split; [reflexivity|].
    rewrite !map_length. split; [symmetry; exact JL|]. rewrite JL. pose proof (hi_cap _ _ _ _ HI) as HL. unfold hsLen in HL. lia.
  - rewrite map_map. cbn [fst]. clear - N1 Hlen. induction (hsItems (sHs s)) as [|n l IH]; cbn [map] in *; [constructor|].
    inversion N1 as [|? ? Q1 Q2]; subst. constructor; [|apply IH; [exact Q2|intros; apply Hlen; right; assumption]].
    intro Q. apply in_map_iff in Q. destruct Q as (n' & Q3 & Q4). apply Q1. apply in_map_iff. exists n'. split; [|exact Q4].
    apply sel_from_inj; [|exact Q3]. rewrite !Hlen; [reflexivity|left; reflexivity|right; exact Q4].
  - rewrite map_map. cbn [fst]. intro Q. apply in_map_iff in Q. destruct Q as (n & Q1 & Q2). apply N2. apply in_map_iff. exists n. split; [|exact Q2].
    apply nth_ext with (d := false) (d' := false); [rewrite Hl; apply Hlen; exact Q2|].
    intros i Hi. rewrite Hlen in Hi by exact Q2. pose proof (Hroot i Hi) as Hri. rewrite <- Q1 in Hri. rewrite (sel_from_In (ndModel n) 0) in Hri.
    assert (G : nth i (ndModel n) false = true <-> nth i (pRoot (brProblem b)) false = true).
    { rewrite Hri. split.
      - intro G. exists i. split; [lia|]. rewrite <- G. apply nth_error_nth'. rewrite Hlen by exact Q2. exact Hi.
      - intros (i' & G1 & G2). assert (i' = i) as -> by lia. apply nth_error_nth. exact G2. }
    destruct (nth i (ndModel n) false), (nth i (pRoot (brProblem b)) false); intuition congruence.
  - pose proof (hi_sorted _ _ _ _ HI) as HS. clear - HS. induction HS as [|n l HS IH HF]; cbn [map]; constructor; [exact IH|].
    rewrite Forall_forall in *. intros x Hx. apply in_map_iff in Hx. destruct Hx as (n' & <- & Hx). cbn [snd]. apply HF. exact Hx.
  - intros sel v Hv. apply in_map_iff in Hv. destruct Hv as (n & Q1 & Q2). injection Q1 as <- <-.
    destruct (C16_nodes_of_the_list o _ _ _ _ _ _ _ 10 _ _ _ _ n ltac:(lia) Hn Hst X1 Q2) as (L1 & _ & _ & _ & L2 & L3).
    exists (ndModel n). split; [exact L1|]. split.
    + intro z. rewrite (sel_from_In (ndModel n) 0). split; intros (i & G1 & G2); exists i; (split; [lia|]).
      * apply nth_error_nth. exact G2.
      * rewrite <- G2. apply nth_error_nth'. destruct (Nat.lt_ge_cases i (length (ndModel n))) as [G|G]; [exact G|].
        rewrite nth_overflow in G2 by exact G. discriminate G2.
    + split; [|intro G; apply (L3 G)]. intro G. destruct (L2 G) as [G1 _]. rewrite <- G1. reflexivity.
Qed.
Print Assumptions C83_file.

(** ** The consequences *)

(** If the annealing has found the best model, the file does not have it: every
    score in the file is strictly worse. *)
Theorem C83_optimum_lost : forall o svd parse ri rf fuel fit bnd file targetCol (cutoff : F64 o) maxq b ls s bls e m,
  bnb_start svd parse ri rf fuel fit bnd file targetCol cutoff maxq = Ok b ->
  bnb_execution b ls s bls e ->
  let cols := mcols (dsX (brData b)) in
  bnb_nan_free cols fit ->
  length m = cols -> (forall i, (i < cols)%nat -> (nth i m false = true <-> In (Z.of_nat i) (srSelected (brAnneal b)))) ->
  SFltb (SFopp f64_max) (snd (fit m)) = true ->
  (forall a, length a = cols -> nonempty a -> a <> m -> SFltb (snd (fit a)) (snd (fit m)) = true) ->
  forall sel v, In (sel, v) (models_in (bbFile e)) -> SFltb v (snd (fit m)) = true.
Proof.
  intros o svd parse ri rf fuel fit bnd file targetCol cutoff maxq b ls s bls e m Hb He cols Hn Hl Hm Hmax Hbest sel v Hv.
  destruct (C83_file _ _ _ _ _ _ _ _ _ _ _ _ _ _ _ _ _ Hb He Hn) as (_ & _ & F1 & _ & F2).
  destruct (C83_parameters _ _ _ _ _ _ _ _ _ _ _ _ _ Hb) as (_ & _ & _ & _ & _ & _ & _ & _ & _ & _ & _ & Hin & _).
  destruct (F2 _ _ Hv) as (a & A1 & A2 & A3 & A4).
  destruct (nonemptyb a) eqn:En.
  - assert (Ha : nonempty a).
    { apply existsb_exists in En. destruct En as (x & Q1 & Q2). destruct x; [exact Q1|discriminate Q2]. }
    rewrite (A3 Ha). apply Hbest; [exact A1|exact Ha|]. intros ->.
    (* the list selects the same features as the annealing; both are lists in the file *)
    destruct He as [X1 X2 X3 X4 X5].
    destruct (C83_parameters _ _ _ _ _ _ _ _ _ _ _ _ _ Hb) as (_ & _ & _ & _ & _ & _ & _ & _ & _ & Lr & Hroot & _ & Hst).
    destruct (C16_list_without_root o _ _ _ _ _ _ _ 10 _ _ _ _ ltac:(lia) Hn Hst X1) as [_ N2].
    assert (Hh : hsMaxItems (NewHighscore (N := F64 o) 10) <> 1%Z) by (cbn; lia).
    destruct (started o _ _ _ _ _ _ _ _ _ _ _ _ Hh Hst X1) as (_ & _ & _ & R & _).
    pose proof (run_inserts _ _ _ _ R) as Ei. rewrite <- X5 in Ei.
    destruct (C70_final_file _ _ _ X3 X4) as (h & j & E1 & E2 & E3). rewrite Ei in E1. injection E1 as <-.
    rewrite E3 in Hv. destruct j as [j|]; [|exact Hv]. cbn [models_in] in Hv.
    destruct (models_of_items _ _ _ E2) as [_ J2]. rewrite map_map in Hv. rewrite J2 in Hv.
    apply in_map_iff in Hv. destruct Hv as (n & Q1 & Q2). injection Q1 as Q3 _. apply N2. apply in_map_iff. exists n. split; [|exact Q2].
    pose proof (proj1 (C16_nodes_of_the_list o _ _ _ _ _ _ _ 10 _ _ _ _ n ltac:(lia) Hn Hst X1 Q2)) as L1.
    transitivity m.
    + apply sel_from_inj; [rewrite L1; symmetry; exact Hl|]. rewrite Q3. apply sorted_unique; [rewrite <- Q3; apply sel_from_sorted|apply sel_from_sorted|].
      intro z. rewrite A2, (sel_from_In m 0). split; intros (i & G1 & G2); exists i; (split; [lia|]).
      * rewrite <- G2. apply nth_error_nth'. destruct (Nat.lt_ge_cases i (length m)) as [G|G]; [exact G|].
        rewrite nth_overflow in G2 by exact G. discriminate G2.
      * apply nth_error_nth. exact G2.
    + apply nth_ext with (d := false) (d' := false); [rewrite Lr; exact Hl|].
      intros i Hi. rewrite Hl in Hi. pose proof (Hm i Hi) as H1. pose proof (Hroot i Hi) as H2.
      destruct (nth i m false), (nth i (pRoot (brProblem b)) false); intuition congruence.
  - rewrite A4; [exact Hmax|]. intro Q. apply nonemptyb_ok in Q. congruence.
Qed.
Print Assumptions C83_optimum_lost.

(** Any other model whose way from the annealing result is not cut off is in
    the file or beaten by a model there. *)
Theorem C83_otherwise_optimal : forall o svd parse ri rf fuel fit bnd file targetCol (cutoff : F64 o) maxq b ls s bls e m,
  bnb_start svd parse ri rf fuel fit bnd file targetCol cutoff maxq = Ok b ->
  bnb_execution b ls s bls e ->
  let cols := mcols (dsX (brData b)) in
  sane_scores cols fit [] m ->
  reachable_model (mrows (dsX (brData b))) cols fit bnd (pRoot (brProblem b)) m ->
  gRaced s = false -> gTrimmed s = false -> models_in (bbFile e) <> [] ->
  exists sel v, In (sel, v) (models_in (bbFile e)) /\ SFltb v (snd (fit m)) = false.
Proof.
  intros o svd parse ri rf fuel fit bnd file targetCol cutoff maxq b ls s bls e m Hb [X1 (k & X2) X3 X4 X5] cols Hs Hm Hr Ht Hne.
  destruct (C83_parameters _ _ _ _ _ _ _ _ _ _ _ _ _ Hb) as (_ & _ & _ & _ & _ & _ & _ & _ & _ & _ & _ & _ & Hst).
  pose proof (C14_branch_and_bound_optimal o _ _ _ _ _ _ _ 10 [] _ _ _ _ _ _ m ltac:(lia) eq_refl Hst X1 X2 Hs Hm Hr Ht) as Hopt.
  assert (Hh : hsMaxItems (NewHighscore (N := F64 o) 10) <> 1%Z) by (cbn; lia).
  destruct (started o _ _ _ _ _ _ _ _ _ _ _ _ Hh Hst X1) as (_ & _ & _ & R & _).
  pose proof (run_inserts _ _ _ _ R) as Ei. rewrite <- X5 in Ei.
  destruct (C70_final_file _ _ _ X3 X4) as (h & j & E1 & E2 & E3). rewrite Ei in E1. injection E1 as <-.
  rewrite E3 in Hne |- *. destruct j as [j|]; [|contradiction Hne; reflexivity]. cbn [models_in] in *.
  destruct (models_of_items _ _ _ E2) as [_ J2]. rewrite map_map in Hne |- *. rewrite J2 in Hne |- *.
  unfold hsBestScore in Hopt. destruct (hsItems (sHs s)) as [|n l]; [contradiction Hne; reflexivity|].
  exists (sel_from 0 (ndModel n)), (ndScore n). split; [left; reflexivity|exact Hopt].
Qed.
Print Assumptions C83_otherwise_optimal.

(** With at most five rows of data the annealing always returns the first
    column (C25), so the model that consists of the first column is never in
    the output of bnb, however good it is. *)
Theorem C83_five_rows : forall o svd parse ri rf fuel fit bnd file targetCol (cutoff : F64 o) maxq b ls s bls e,
  bnb_start svd parse ri rf fuel fit bnd file targetCol cutoff maxq = Ok b ->
  bnb_execution b ls s bls e ->
  let X := dsX (brData b) in
  bnb_nan_free (mcols X) fit ->
  exp_zero o -> below_one rf -> finite_costs svd X (dsY (brData b)) Aicc -> (mrows X <= 5)%nat ->
  ~ In [0%Z] (map fst (models_in (bbFile e))).
Proof.
  intros o svd parse ri rf fuel fit bnd file targetCol cutoff maxq b ls s bls e Hb He X Hn H1 H2 H3 H4.
  destruct (C83_file _ _ _ _ _ _ _ _ _ _ _ _ _ _ _ _ _ Hb He Hn) as (_ & _ & F1 & _).
  destruct (C83_parameters _ _ _ _ _ _ _ _ _ _ _ _ _ Hb) as (_ & (st0 & Hsa) & _).
  rewrite (proj2 (C25_five_rows o svd _ _ 100 Aicc ri rf H1 H2 H3 H4) _ _ _ Hsa) in F1. exact F1.
Qed.
Print Assumptions C83_five_rows.

(** ** A case: five rows, three features, the first of which explains the target *)

Definition parseB (s : string) : option (F64 fenvE) :=
  if String.eqb s "0" then Some (f64_ofZ 0) else if String.eqb s "1" then Some (f64_ofZ 1)
  else if String.eqb s "2" then Some (f64_ofZ 2) else if String.eqb s "3" then Some (f64_ofZ 3) else None.
Open Scope string_scope.
Definition fileB : list (list string) :=
  [["a"; "b"; "c"; "y"]; ["1"; "0"; "0"; "3"]; ["0"; "1"; "0"; "0"]; ["0"; "0"; "1"; "0"]; ["0"; "0"; "0"; "1"]; ["0"; "0"; "0"; "0"]].
Close Scope string_scope.
Definition dataB : Dataset (F64 fenvE) :=
  match ReadCSV parseB (Some fileB) 3 with Ok (Some d) => d | _ => mkDataset (mkMat 0 0 (fun _ _ => n0)) [] [] 0 end.
Definition fitB (m : list bool) : list (F64 fenvE) * F64 fenvE :=
  match fit_score svdE (dsX dataB) (dsY dataB) m with Ok v => v | _ => ([], S754_nan) end.
Definition bndB (m : list bool) (l : Z) : F64 fenvE * F64 fenvE :=
  match BoundsAICC svdE m l (dsX dataB) (dsY dataB) with Ok v => v | _ => (S754_nan, S754_nan) end.
Definition rfB (k : nat) : F64 fenvE := f64_dec 5 (-1).
Definition startB (fuel : nat) : res (bnb_ready (F64 fenvE)) :=
  bnb_start svdE parseB (fun _ => 0%nat) rfB fuel fitB bndB (Some fileB) 3 (f64_ofZ 0) 100.
(** what comes after the annealing, which selects the first feature *)
Definition restB : res (problem (F64 fenvE) * st (F64 fenvE)) :=
  do params <- bnb_params dataB (f64_ofZ 0 : F64 fenvE) 100 [0%Z];
  SelectModel_start (mrows (dsX dataB)) (mcols (dsX dataB)) fitB bndB
    (opRoot params) (opMaxQueue params) (opCutoff params) (NewHighscore 10).

(** one child worker and one score worker take turns *)
Fixpoint drive (P : problem (F64 fenvE)) (n : nat) (s : st (F64 fenvE)) : list Model_Search.label :=
  match n with
  | O => []
  | S n =>
      (fix try c := match c with
                    | [] => []
                    | l :: c => match exec P s l with Some (Ok s') => l :: drive P n s' | _ => try c end
                    end)
      [LCompute 0; LScore 0; LPrune 0; LNode 0 0; LChild 0; LReady 0; LWant 0; LRoot 0]
  end.

(** the search done, the program saves its list and ends *)
Definition savingB (s : st (F64 fenvE)) : list (bnb_label (F64 fenvE)) :=
  map (@BInsert (F64 fenvE)) (gInserted s) ++ [@BReturn (F64 fenvE); @BMeet (F64 fenvE); @BDone (F64 fenvE)] ++ repeat (@BSave (F64 fenvE)) 9 ++ [@BExit (F64 fenvE)].
Definition closedB (s : st (F64 fenvE)) : bool := match sMain s with MClose 0 => true | _ => false end.
Definition endedB (e : bnb (F64 fenvE)) : bool := match bbMain e with BEnd => true | _ => false end.
Definition zlist_eqb (a b : list Z) : bool := if list_eq_dec Z.eq_dec a b then true else false.
Definition listedB (l : list (list Z)) : bool :=
  match l with
  | [x1; x2; x3] => zlist_eqb x1 [0; 1]%Z && zlist_eqb x2 [0; 2]%Z && zlist_eqb x3 []
  | _ => false
  end.
Definition check_end (s : st (F64 fenvE)) (r : option (res (bnb (F64 fenvE)))) : bool :=
  match r with Some (Ok e) => endedB e && listedB (map fst (models_in (bbFile e))) | _ => false end.
Definition check_run (r : option (res (st (F64 fenvE)))) : bool :=
  match r with Some (Ok s) => closedB s && check_end s (bnb_run (savingB s) bnb_init) | _ => false end.
Definition check_rest (n : nat) (r : res (problem (F64 fenvE) * st (F64 fenvE))) : bool :=
  match r with Ok (P, s0) => check_run (run P s0 (drive P n s0)) | _ => false end.
Lemma restB_true : check_rest 100 restB = true.
Proof. vm_cast_no_check (eq_refl true). Qed.

Lemma zlist_eqb_eq : forall a b, zlist_eqb a b = true -> a = b.
Proof. intros a b. unfold zlist_eqb. destruct (list_eq_dec Z.eq_dec a b); [auto|discriminate]. Qed.

Lemma inserted_savingB : forall s, inserted (savingB s) = gInserted s.
Proof.
  intro s. unfold savingB. assert (G : forall l r, inserted (map (@BInsert (F64 fenvE)) l ++ r) = l ++ inserted r).
  { induction l as [|n l IH]; intro r; [reflexivity|]. cbn [map app inserted]. rewrite IH. reflexivity. }
  rewrite G. cbn. apply app_nil_r.
Qed.

Definition optB : list bool := [true; false; false].

Lemma models3 : forall (f : list bool -> bool), forallb f (all_models 3) = true -> forall m, length m = 3%nat -> f m = true.
Proof. intros f H m Hm. rewrite forallb_forall in H. apply H. apply all_models_in. exact Hm. Qed.

Lemma check_inv : forall n r, check_rest n r = true -> exists P s0 ls s bls e,
  r = Ok (P, s0) /\ (forall b, brProblem b = P -> brSearch b = s0 -> bnb_execution b ls s bls e) /\
  map fst (models_in (bbFile e)) = [[0; 1]; [0; 2]; []]%Z.
Proof.
  intros n r C. destruct r as [[P s0]| |]; try discriminate C. unfold check_rest in C.
  destruct (run P s0 (drive P n s0)) as [[s| |]|] eqn:Es; try discriminate C. unfold check_run in C.
  apply andb_prop in C. destruct C as [C1 C].
  destruct (bnb_run (savingB s) bnb_init) as [[e| |]|] eqn:Ee; try discriminate C. unfold check_end in C.
  apply andb_prop in C. destruct C as [C2 C4].
  exists P, s0, (drive P n s0), s, (savingB s), e.
  split; [reflexivity|]. split.
  { intros b Hp Hs. constructor; [rewrite Hp, Hs; exact Es| |exact Ee| |apply inserted_savingB].
    - exists 0%nat. unfold closedB in C1. destruct (sMain s) as [| | |[|k]]; try discriminate C1. reflexivity.
    - unfold endedB in C2. destruct (bbMain e); try discriminate C2. reflexivity. }
  unfold listedB in C4. destruct (map fst (models_in (bbFile e))) as [|x1 [|x2 [|x3 [|x4 l]]]]; try discriminate C4.
  apply andb_prop in C4. destruct C4 as [C4 C5]. apply andb_prop in C4. destruct C4 as [C4 C6].
  apply zlist_eqb_eq in C4, C5, C6. subst. reflexivity.
Qed.

Lemma dataB_read : ReadCSV parseB (Some fileB) 3 = Ok (Some dataB).
Proof.
  assert (A : match ReadCSV parseB (Some fileB) 3 with Ok (Some _) => true | _ => false end = true) by (vm_compute; reflexivity).
  unfold dataB. destruct (ReadCSV parseB (Some fileB) 3) as [[d|]| |]; try discriminate A. reflexivity.
Qed.

Lemma finite_costsB : finite_costs svdE (dsX dataB) (dsY dataB) Aicc /\
  (forall m, proposable (dsX dataB) m -> exists c s, fit_cost svdE (dsX dataB) (dsY dataB) Aicc m c s).
Proof.
  assert (A : forall m, length m = 3%nat ->
    match sa_cost svdE (dsX dataB) (dsY dataB) Aicc m (Z.of_nat (NumFeatures m)) with
    | Ok (c, s) => (finite s && nltb s nmaxf)%bool | _ => (count_occ bool_dec m true =? 0)%nat end = true).
  { apply (models3 (fun m => match sa_cost svdE (dsX dataB) (dsY dataB) Aicc m (Z.of_nat (NumFeatures m)) with
      | Ok (c, s) => (finite s && nltb s nmaxf)%bool | _ => (count_occ bool_dec m true =? 0)%nat end)). vm_compute. reflexivity. }
  split.
  - intros m c v (Hm & _) H. apply fit_cost_eq in H. specialize (A m Hm). rewrite H in A. apply andb_prop in A. exact A.
  - intros m (Hm & Hn). specialize (A m Hm).
    destruct (sa_cost svdE (dsX dataB) (dsY dataB) Aicc m (Z.of_nat (NumFeatures m))) as [[c s]| |] eqn:E;
      [|apply Nat.eqb_eq in A; lia|apply Nat.eqb_eq in A; lia].
    exists c, s. apply fit_cost_eq. exact E.
Qed.

Lemma startB_ready : exists fuel r P s0 ls s bls e, startB fuel = Ok (mkReady dataB r P s0) /\
  srSelected r = [0%Z] /\ bnb_execution (mkReady dataB r P s0) ls s bls e /\
  map fst (models_in (bbFile e)) = [[0; 1]; [0; 2]; []]%Z.
Proof.
  destruct (check_inv _ _ restB_true) as (P & s0 & ls & s & bls & e & Er & He & Hf).
  assert (H5 : mrows (dsX dataB) = 5%nat) by (vm_compute; reflexivity).
  assert (H3 : mcols (dsX dataB) = 3%nat) by (vm_compute; reflexivity).
  assert (Hb : below_one rfB) by (intro; vm_compute; reflexivity).
  destruct finite_costsB as [F1 F2].
  destruct (C84_five_rows fenvE svdE (dsX dataB) (dsY dataB) 100 Aicc (fun _ => 0%nat) rfB exp_zero_E Hb F1 F2)
    as (_ & (fuel & r & st & E) & _); [rewrite H5; lia|rewrite H3; lia|lia| |].
  { intro k. exists k. split; [lia|]. rewrite H3. reflexivity. }
  assert (Es : srSelected r = [0%Z]).
  { refine (proj2 (C25_five_rows fenvE svdE (dsX dataB) (dsY dataB) 100 Aicc (fun _ => 0%nat) rfB exp_zero_E Hb F1 _) _ _ _ E). rewrite H5. lia. }
  exists fuel, r, P, s0, ls, s, bls, e. split; [|split; [exact Es|split; [apply He; reflexivity|exact Hf]]].
  unfold startB, bnb_start. rewrite dataB_read. cbn [bind]. rewrite E. cbn [bind]. rewrite Es.
  unfold restB in Er. destruct (bnb_params dataB (f64_ofZ 0 : F64 fenvE) 100 [0%Z]) as [params| |]; try discriminate Er.
  cbn [bind] in Er |- *. rewrite Er. reflexivity.
Qed.

(** the file has b and c added to a, and no features at all, but not a alone,
    which the annealing has found and which is better than all others *)
Example C83_example : exists fuel b ls s bls e,
  startB fuel = Ok b /\ bnb_execution b ls s bls e /\
  brData b = dataB /\ mrows (dsX dataB) = 5%nat /\ mcols (dsX dataB) = 3%nat /\
  bnb_nan_free 3 fitB /\ exp_zero fenvE /\ below_one rfB /\ finite_costs svdE (dsX dataB) (dsY dataB) Aicc /\
  srSelected (brAnneal b) = [0%Z] /\
  SFltb (SFopp f64_max) (snd (fitB optB)) = true /\
  (forall a, length a = 3%nat -> nonempty a -> a <> optB -> SFltb (snd (fitB a)) (snd (fitB optB)) = true) /\
  map fst (models_in (bbFile e)) = [[0; 1]; [0; 2]; []]%Z.
Proof.
  destruct startB_ready as (fuel & r & P & s0 & ls & s & bls & e & Eb & C3 & He & C4).
  exists fuel, (mkReady dataB r P s0), ls, s, bls, e. split; [exact Eb|]. split; [exact He|].
  split; [reflexivity|]. split; [vm_compute; reflexivity|]. split; [vm_compute; reflexivity|]. split.
  { intros a Ha Hne. assert (G : (negb (nonemptyb a) || negb (f64_isnan (snd (fitB a))))%bool = true).
    { apply (models3 (fun a => (negb (nonemptyb a) || negb (f64_isnan (snd (fitB a))))%bool)); [vm_compute; reflexivity|exact Ha]. }
    apply nonemptyb_ok in Hne. rewrite Hne in G. destruct (f64_isnan (snd (fitB a))); [discriminate G|reflexivity]. }
  split; [exact exp_zero_E|]. split; [intro; vm_compute; reflexivity|]. split; [exact (proj1 finite_costsB)|].
  split; [exact C3|]. split; [vm_compute; reflexivity|]. split; [|exact C4].
  { intros a Ha Hne Hno. assert (G : (bleqb a optB || negb (nonemptyb a) || SFltb (snd (fitB a)) (snd (fitB optB)))%bool = true).
    { apply (models3 (fun a => (bleqb a optB || negb (nonemptyb a) || SFltb (snd (fitB a)) (snd (fitB optB)))%bool)); [vm_compute; reflexivity|exact Ha]. }
    apply nonemptyb_ok in Hne. rewrite Hne in G. unfold bleqb in G. destruct (list_eq_dec bool_dec a optB); [contradiction|]. exact G. }
Qed.
