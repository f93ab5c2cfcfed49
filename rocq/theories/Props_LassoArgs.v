(** C75: the arguments of the lasso command. *)
From Coq Require Import String Permutation Reals Lra.
From Verif Require Import Base Num Mat Model_Node Model_Util Model_Norm Model_Fit Model_CSV Model_Lars Model_Path Model_Cov Model_Crd Model_CrdPath
  Model_Cmd Proof_Util Proof_Norm Proof_Cov Proof_CSV Proof_Cmd Props_Util Props_CSV Props_Crd Props_CrdPath Props_Cmd.
Open Scope list_scope.

(** ** Specification *)

(** [p] is what LassoCrdDescPath returns for these arguments, in some order of
    execution of its workers (maxIter and the correction are those of
    cmd/lasso.go:94) *)
Definition crd_path_result {N : Num} (get : Mat N -> res (Mat N)) (nd : NormalizedData N) (lambs : list N) (tol : N)
    (p : list (LassoLarsNode N)) : Prop :=
  exists schedule c, path_run get nd lambs 100000 tol schedule (path_init lambs PureLasso) = Some c /\ plMain c = PDone p.

(** ** Helpers *)

Lemma for_loop_keep : forall S (P : S -> Prop) (body : nat -> S -> res S) n a s s',
  (forall i s s', P s -> body i s = Ok s' -> P s') -> P s -> for_loop a n body s = Ok s' -> P s'.
Proof.
  induction n as [|n IH]; intros a s s' Hb Hs E; cbn [for_loop] in E; [injection E as <-; exact Hs|].
  destruct (body a s) as [s1| |] eqn:E1; cbn [bind] in E; [|discriminate E|discriminate E].
  exact (IH _ _ _ Hb (Hb _ _ _ Hs E1) E).
Qed.

Lemma setn_length : forall A (l : list A) i v l', setn l i v = Ok l' -> length l' = length l.
Proof. intros A l i v l' E. unfold setn in E. destruct (_ <? _)%nat; [|discriminate E]. injection E as <-. apply upd_length. Qed.

Lemma nnd_dims : forall (N : Num) (X : Mat N) y nd, NewNormalizedData X y = Ok nd ->
  mrows (ndX nd) = mrows X /\ mcols (ndX nd) = mcols X /\ length (ndy nd) = length y.
Proof.
  intros N X y nd E. unfold NewNormalizedData in E.
  destruct (Std y) as [sy| |]; try discriminate E. cbn [bind] in E.
  destruct (Mean y) as [my| |]; try discriminate E. cbn [bind] in E.
  destruct (for_loop 0 (length y) _ _) as [y'| |] eqn:E0; try discriminate E. cbn [bind] in E.
  destruct (for_loop 0 (mcols X) _ _) as [st| |] eqn:E1; try discriminate E. cbn [bind] in E.
  destruct st as [[[[tmp X'] mu] std] hb]. injection E as <-. cbn [ndX ndy].
  set (P := fun Y : Mat N => mrows Y = mrows X /\ mcols Y = mcols X).
  assert (HP : forall Y Y' i j v, P Y -> mat_set Y i j v = Ok Y' -> P Y').
  { intros Y Y' i j v H Es. unfold mat_set in Es. destruct (_ && _)%bool; [|discriminate Es]. injection Es as <-. exact H. }
  assert (H : P X').
  { apply (for_loop_keep _ (fun st : list N * Mat N * list N * list N * bool => let '(_, X', _, _, _) := st in P X')) in E1;
      [exact E1| |split; reflexivity].
    clear E1. intros i [[[[tmp1 X1] mu1] std1] hb1] s' HX E.
    destruct (for_loop 0 (mrows X) _ tmp1) as [tmp'| |]; try discriminate E. cbn [bind] in E.
    destruct (Std tmp') as [s| |]; try discriminate E. cbn [bind] in E.
    destruct (setn std1 i s) as [std'| |]; try discriminate E. cbn [bind] in E.
    destruct (Mean tmp') as [m| |]; try discriminate E. cbn [bind] in E.
    destruct (setn mu1 i m) as [mu'| |]; try discriminate E. cbn [bind] in E.
    destruct (_ && _)%bool; [discriminate E|].
    destruct (if nltb s (ndec 1 (-10)) then (true, n1) else (hb1, s)) as (hb', st').
    destruct (for_loop 0 (mrows X) _ X1) as [X2| |] eqn:E2; try discriminate E. cbn [bind] in E. injection E as <-.
    apply (for_loop_keep _ P) in E2; [exact E2| |exact HX].
    intros r Y Y' HY Eb. destruct (getn tmp' r) as [tv| |]; try discriminate Eb. cbn [bind] in Eb.
    exact (HP _ _ _ _ _ HY Eb). }
  split; [exact (proj1 H)|]. split; [exact (proj2 H)|].
  apply (for_loop_keep _ (fun l : list N => length l = length y)) in E0; [exact E0| |reflexivity].
  intros i l l' Hl Eb.
  repeat match type of Eb with
  | bind ?e _ = _ => let H := fresh in destruct e eqn:H; cbn [bind] in Eb; [|discriminate Eb|discriminate Eb]
  | (if ?b then _ else _) = _ => destruct b
  end.
  all: try (rewrite (setn_length _ _ _ _ _ Eb); exact Hl); try (injection Eb as <-; exact Hl).
Qed.

Lemma node_lamb : forall (N : Num) (nd : NormalizedData N) node node', unnormalize_node nd node = Ok node' -> lnLamb node' = lnLamb node.
Proof.
  intros N nd node node' E. unfold unnormalize_node in E.
  destruct (LinearTransformationBias _ _ _) as [b| |]; cbn [bind] in E; [|discriminate E|discriminate E].
  destruct (for_loop _ _ _ _) as [c| |]; cbn [bind] in E; [|discriminate E|discriminate E].
  destruct (ndHasBias nd); injection E as <-; reflexivity.
Qed.
Lemma path_lambs : forall (N : Num) (nd : NormalizedData N) path path', Path2Unnormalized nd path = Ok path' ->
  map lnLamb path' = map lnLamb path.
Proof.
  intros N nd. induction path as [|node path IH]; intros path' E; cbn [Path2Unnormalized] in E; [injection E as <-; reflexivity|].
  destruct (unnormalize_node nd node) as [node'| |] eqn:E1; cbn [bind] in E; [|discriminate E|discriminate E].
  destruct (Path2Unnormalized nd path) as [rest| |] eqn:E2; cbn [bind] in E; [|discriminate E|discriminate E].
  injection E as <-. cbn [map]. rewrite (node_lamb _ _ _ _ E1), (IH _ eq_refl). reflexivity.
Qed.

Lemma empirical_shape : forall (N : Num) (X : Mat N), (0 < mcols X)%nat ->
  exists cov, Empirical_Get X = Ok cov /\ mrows cov = mcols X /\ mcols cov = mcols X.
Proof.
  intros N X H. unfold Empirical_Get, new_dense. rewrite (proj2 (Nat.eqb_neq (mcols X) 0)) by lia. cbn [orb bind].
  unfold mat_mul. cbn [mat_T mcols mrows]. rewrite Nat.eqb_refl. cbn [bind]. eexists. split; [reflexivity|]. split; reflexivity.
Qed.
Lemma identity_shape : forall (N : Num) (X : Mat N), (0 < mcols X)%nat ->
  exists cov, Identity_Get X = Ok cov /\ mrows cov = mcols X /\ mcols cov = mcols X.
Proof.
  intros N X H. unfold Identity_Get.
  destruct (for_loop_inv _ (fun _ (l : list N) => length l = mcols X) (fun i l => setn l i n1) (mcols X) 0%nat (repeat n0 (mcols X))) as (l & E & Hl).
  - apply repeat_length.
  - intros i l Hi Hl. rewrite setn_lt by lia. eexists. split; [reflexivity|]. rewrite upd_length. exact Hl.
  - rewrite E. cbn [bind]. rewrite (proj2 (Nat.eqb_neq (mcols X) 0)) by lia. eexists. split; [reflexivity|]. unfold mat_diag. cbn [mrows mcols]. auto.
Qed.

Lemma forallb_false : forall A (f : A -> bool) l x, In x l -> f x = false -> forallb f l = false.
Proof. intros A f l x Hx Hf. apply not_true_is_false. intro C. rewrite forallb_forall in C. rewrite (C x Hx) in Hf. discriminate Hf. Qed.

(** ** C75 *)

(** Coordinate descent with an unknown covariance estimator: nothing is
    computed and the output file is not touched, whatever else is given. *)
Theorem C75_unknown_covariance : forall (N : Num) srt larsF crdF thr (d : Dataset N) lambMin lambMax num cov tol nd,
  cov <> "empirical"%string -> cov <> "identity"%string -> cov <> "threshold"%string ->
  NewNormalizedData (dsX d) (dsY d) = Ok nd ->
  lassoFit srt larsF crdF thr (Some d) lambMin lambMax num "cd" cov tol = Ok (mkLassoOut None None).
Proof.
  intros N srt larsF crdF thr d lambMin lambMax num cov tol nd H1 H2 H3 E. unfold lassoFit, lasso_path. rewrite E. cbn [bind].
  cbn [String.eqb Ascii.eqb Bool.eqb]. apply String.eqb_neq in H1, H2, H3. rewrite H1, H2, H3. reflexivity.
Qed.
Print Assumptions C75_unknown_covariance.

(** An unknown algorithm is not noticed: the command succeeds, prints an empty
    table and replaces the output file by one that holds the data and no
    model. *)
Theorem C75_unknown_algorithm : forall (N : Num) srt larsF crdF thr (d : Dataset N) lambMin lambMax num ltype cov tol nd,
  OrdLaws N -> sort_spec byValueLess srt -> ltype <> "lars"%string -> ltype <> "cd"%string ->
  (0 < mrows (dsX d))%nat -> (0 < mcols (dsX d))%nat ->
  (forall i j, (i < mrows (dsX d))%nat -> (j < mcols (dsX d))%nat -> finite (mval (dsX d) i j) = true) ->
  (forall y, In y (dsY d) -> finite y = true) ->
  NewNormalizedData (dsX d) (dsY d) = Ok nd ->
  exists j d', lassoFit srt larsF crdF thr (Some d) lambMin lambMax num ltype cov tol = Ok (mkLassoOut (Some []) (Some j)) /\
    LassoLarsPathFromBytes j = Ok (mkPath d' [], [], []) /\
    meq (dsX d') (dsX d) /\ dsY d' = dsY d /\ dsNames d' = dsNames d /\ dsTargetCol d' = dsTargetCol d.
Proof.
  intros N srt larsF crdF thr d lambMin lambMax num ltype cov tol nd OL HS H1 H2 Hr Hc HX HY E.
  destruct (C68_lasso_file_roundtrip N d [] [] [] Hr Hc HX HY) as (j & d' & EJ & Q).
  { intros n x []. } { intros x [[]|[]]. }
  exists j, d'. split; [|exact Q].
  unfold lassoFit, lasso_path. rewrite E. cbn [bind]. apply String.eqb_neq in H1, H2. rewrite H1, H2. cbn [bind].
  unfold lasso_finish. cbn [Path2Unnormalized bind].
  assert (G : forall crit, GetCriteria (mkPath d []) crit = Ok []) by reflexivity.
  rewrite !G. cbn [bind].
  assert (PH : PrintHighscore srt (@nil (LassoLarsNode N)) [] [] 20 = Ok []).
  { unfold PrintHighscore. destruct (Argsort_spec N OL srt [] HS) as (s & Es & _). rewrite Es. reflexivity. }
  rewrite PH. cbn [bind]. rewrite EJ. reflexivity.
Qed.
Print Assumptions C75_unknown_algorithm.

(** The limits, the number of penalties, the covariance estimator and the
    tolerance play no part with LARS, and without a dataset the program dies. *)
Theorem C75_lars_ignores : forall (N : Num) srt larsF crdF thr (d : option (Dataset N)) lambMin lambMax num cov tol crdF' thr' lambMax' num' cov' tol',
  lassoFit srt larsF crdF thr d lambMin lambMax num "lars" cov tol = lassoFit srt larsF crdF' thr' d lambMin lambMax' num' "lars" cov' tol' /\
  forall ltype, lassoFit srt larsF crdF thr None lambMin lambMax num ltype cov tol = Panic.
Proof. intros. split; reflexivity. Qed.
Print Assumptions C75_lars_ignores.

(** Coordinate descent: if the first value of the list of penalties is not
    finite, no file is written, although the fit runs and is shown. *)
Theorem C75_nonfinite_penalty : forall (N : Num) srt larsF crdF thr (d : Dataset N) lambMin lambMax num cov tol lambs l0 out,
  (forall get nd lambs tol p, crdF get nd lambs tol = Ok p -> crd_path_result get nd lambs tol p) ->
  cov = "empirical"%string \/ cov = "identity"%string ->
  (0 < mcols (dsX d))%nat -> length (dsY d) = mrows (dsX d) ->
  Logspace lambMin lambMax num = Ok lambs -> nth_error lambs 0 = Some l0 -> finite l0 = false ->
  lassoFit srt larsF crdF thr (Some d) lambMin lambMax num "cd" cov tol = Ok out ->
  (exists rows, loTable out = Some rows) /\ loFile out = None.
Proof.
  intros N srt larsF crdF thr d lambMin lambMax num cov tol lambs l0 out HF Hcov Hn Hy EL El Hl E.
  unfold lassoFit, lasso_path in E. destruct (NewNormalizedData _ _) as [nd| |] eqn:End; cbn [bind] in E; [|discriminate E|discriminate E].
  destruct (nnd_dims N _ _ _ End) as (D1 & D2 & D3).
  cbn [String.eqb Ascii.eqb Bool.eqb] in E. 
  assert (K : exists get p, shaped get nd PureLasso /\ crdF get nd lambs tol = Ok p /\ lasso_finish srt d nd p = Ok out).
  { destruct Hcov as [-> | ->]; cbn [String.eqb Ascii.eqb Bool.eqb bind] in E; rewrite EL in E; cbn [bind] in E.
    - destruct (crdF Empirical_Get nd lambs tol) as [p| |] eqn:Ep; cbn [bind] in E; [|discriminate E|discriminate E].
      exists Empirical_Get, p. split; [|auto]. constructor; [lia|congruence| |exact I]. apply empirical_shape. lia.
    - destruct (crdF Identity_Get nd lambs tol) as [p| |] eqn:Ep; cbn [bind] in E; [|discriminate E|discriminate E].
      exists Identity_Get, p. split; [|auto]. constructor; [lia|congruence| |exact I]. apply identity_shape. lia. }
  clear E. destruct K as (get & p & Hsh & Ep & E).
  destruct (HF _ _ _ _ _ Ep) as (sch & c & Er & Ec).
  destruct (C35_every_schedule N get nd lambs 100000 tol PureLasso Hsh I) as (path & F & Hall).
  destruct (Hall sch c Er) as (_ & _ & _ & Hdone). destruct (Hdone p Ec) as (Hw & _).
  (* the last node of the path belongs to the first penalty *)
  assert (Lr : map lnLamb path = rev lambs).
  { clear - F. induction F as [|a b la lb H _ IH]; [reflexivity|]. cbn [map]. f_equal; [|exact IH].
    destruct H as (? & ? & ? & ? & _ & H & _). exact H. }
  destruct lambs as [|l lambs]; [discriminate El|]. injection El as ->. cbn [rev] in Lr.
  assert (Hin : In l0 (map lnLamb p)).
  { destruct Hw as [(dr & Ew & _ & nd0 & t & Er0 & _)|(-> & _)].
    - subst path. rewrite map_app, Er0 in Lr. cbn [map] in Lr. rewrite Er0. cbn [map].
      assert (HL : last (map lnLamb dr ++ lnLamb nd0 :: map lnLamb t) l0 = l0) by (rewrite Lr; apply last_last).
      assert (G : forall (a : list N) b s d0, In (last (a ++ b :: s) d0) (b :: s)).
      { clear. induction a as [|x a IH]; intros b s0 d0.
        - cbn [app]. revert b. induction s0 as [|y s0 IHs]; intro b; [left; reflexivity|]. right. exact (IHs y).
        - cbn [app last]. destruct (a ++ b :: s0) as [|z q] eqn:Eq; [destruct a; discriminate Eq|]. rewrite <- Eq. apply IH. }
      pose proof (G (map lnLamb dr) (lnLamb nd0) (map lnLamb t) l0) as Q. rewrite HL in Q. exact Q.
    - rewrite Lr. apply in_or_app. right. left. reflexivity. }
  unfold lasso_finish in E. destruct (Path2Unnormalized nd p) as [nodes| |] eqn:EP; cbn [bind] in E; [|discriminate E|discriminate E].
  destruct (GetCriteria _ Aicc) as [aicc| |]; cbn [bind] in E; [|discriminate E|discriminate E].
  destruct (GetCriteria _ Bic) as [bic| |]; cbn [bind] in E; [|discriminate E|discriminate E].
  destruct (PrintHighscore _ _ _ _ _) as [rows| |]; cbn [bind] in E; [|discriminate E|discriminate E].
  destruct (pathMarshal d nodes aicc bic) as [js| |] eqn:EJ; cbn [bind] in E; [|discriminate E|discriminate E].
  injection E as <-. cbn [loTable loFile]. split; [eauto|].
  unfold pathMarshal in EJ. destruct (dsMarshalJSON d) as [jd| |]; cbn [bind] in EJ; [|discriminate EJ|discriminate EJ].
  destruct jd as [jd|]; [|injection EJ as <-; reflexivity].
  rewrite <- (path_lambs _ _ _ _ EP) in Hin. apply in_map_iff in Hin. destruct Hin as (node & En & Hin).
  rewrite (forallb_false _ _ nodes node Hin) in EJ; [injection EJ as <-; reflexivity|]. rewrite En, Hl. apply Bool.andb_false_r.
Qed.
Print Assumptions C75_nonfinite_penalty.

Lemma logspace_first : forall (N : Num) (mn mx : N) num lambs, (2 <= num)%Z -> Logspace mn mx num = Ok lambs ->
  nth_error lambs 0 = Some (nexp (nlog mn + (nlog mx - nlog mn) / nofZ (num - 1) * nofnat 0))%num.
Proof.
  intros N mn mx num lambs Hn E. unfold Logspace, go_make in E.
  destruct (Z.eqb_spec num 0) as [?|N1]; [lia|]. destruct (Z.eqb_spec num 1) as [?|N2]; [lia|]. destruct (Z.ltb_spec num 0) as [?|N3]; [lia|]. cbn [bind] in E.
  set (f := fun i => nexp (nlog mn + (nlog mx - nlog mn) / nofZ (num - 1) * nofnat i)%num) in *.
  destruct (for_loop_inv _ (fun i (l : list N) => length l = Z.to_nat num /\ ((0 < i)%nat -> nth_error l 0 = Some (f 0%nat)))
    (fun i r => setn r i (f i)) (Z.to_nat num) 0%nat (repeat n0 (Z.to_nat num))) as (l & El & H1 & H2).
  - split; [apply repeat_length|lia].
  - intros i l Hi (H1 & H2). rewrite setn_lt by lia. eexists. split; [reflexivity|]. rewrite upd_length. split; [exact H1|]. intros _.
    rewrite nth_error_upd. destruct (Nat.eqb_spec 0 i) as [<-|Hne].
    + replace (0 <? length l)%nat with true by (symmetry; apply Nat.ltb_lt; lia). reflexivity.
    + apply H2. lia.
  - change (for_loop 0 (Z.to_nat num) (fun i r => setn r i (f i)) (repeat n0 (Z.to_nat num)) = Ok lambs) in E. rewrite El in E. injection E as <-.
    apply H2. lia.
Qed.

(** ... which is the case for every non-positive limit, in exact arithmetic. *)
Theorem C75_nonpositive_limit : forall lmin lmax num lambs, (lmin <= 0 \/ lmax <= 0)%R -> (2 <= num)%Z ->
  Logspace (N := XR) (XFin lmin) (XFin lmax) num = Ok lambs ->
  exists l0, nth_error lambs 0 = Some l0 /\ finite l0 = false.
Proof.
  intros lmin lmax num lambs H Hn E. rewrite (logspace_first XR _ _ num lambs Hn E). eexists. split; [reflexivity|].
  assert (L : forall r, xlog (XFin r) = if Rltb 0 r then XFin (ln r) else if Rltb r 0 then XNaN else XNInf) by reflexivity.
  assert (K : (1 <= IZR (num - 1))%R) by (apply IZR_le; lia).
  assert (Z0 : nofnat (N := XR) 0 = XFin 0) by reflexivity. rewrite Z0.
  change (nlog (n := XR)) with xlog. change (nofZ (n := XR) (num - 1)) with (XFin (IZR (num - 1))).
  assert (D : forall x : XR, x = XPInf \/ x = XNInf \/ x = XNaN -> forall b : XR, finite (nexp (n := XR) (b + x / (XFin (IZR (num - 1)) : XR) * (XFin 0 : XR))%num) = false).
  { assert (Inf0 : forall x, x = XPInf \/ x = XNInf \/ x = XNaN -> xmul x (XFin 0) = XNaN).
    { intros x [->|[->| ->]]; cbn; rewrite ?(proj2 (Rltb_false 0 0)) by lra; reflexivity. }
    intros x Hx b. cbn [nadd nmul ndiv nexp XR]. rewrite Inf0; [destruct b; reflexivity|].
    destruct Hx as [->|[->| ->]]; cbn; rewrite ?(proj2 (Rltb_false (IZR (num - 1)) 0)) by lra; cbn; auto. }
  rewrite !L. destruct (Rltb 0 lmin) eqn:E1.
  - apply Rltb_true in E1. destruct (Rltb 0 lmax) eqn:E2; [apply Rltb_true in E2; lra|].
    apply D. destruct (Rltb lmax 0); cbn; auto.
  - destruct (Rltb lmin 0); [|].
    + apply D. destruct (Rltb 0 lmax); [|destruct (Rltb lmax 0)]; cbn; auto.
    + apply D. destruct (Rltb 0 lmax); [|destruct (Rltb lmax 0)]; cbn; auto.
Qed.
Print Assumptions C75_nonpositive_limit.

(** ** Examples *)

(** an environment in which math.Log of a negative number is NaN *)
Definition fenvN : fenv := mkFenv (o_exp fenv0) (fun x => if nltb (n := F64 fenv0) x n0 then nnan (n := F64 fenv0) else x) (o_log2 fenv0) (o_exp2 fenv0) (o_pow fenv0).
Definition exa_d : Dataset (F64 fenvN) :=
  mkDataset (mkMat 4 2 (fun i j => match j with 0%nat => n1 | _ => nofnat (nth i [0; 1; 3; 4] 0)%nat end)) (map (nofnat (N := F64 fenvN)) [1; 2; 4; 4]%nat) ["a"; "b"]%string 2%Z.

(** LassoCrdDescPath with one fixed order of execution (for two penalties) *)
Definition exa_crd (get : Mat (F64 fenvN) -> res (Mat (F64 fenvN))) (nd : NormalizedData (F64 fenvN)) (lambs : list (F64 fenvN)) (tol : F64 fenvN)
    : res (list (LassoLarsNode (F64 fenvN))) :=
  match path_run get nd lambs 100000 tol [Start; Give 0; Start; Compute 0; Give 1; Compute 1; Take 1; Take 0] (path_init lambs PureLasso) with
  | Some c => match plMain c with PDone p => Ok p | _ => Panic end
  | None => Panic
  end.
Lemma exa_crd_ok : forall get nd lambs tol p, exa_crd get nd lambs tol = Ok p -> crd_path_result get nd lambs tol p.
Proof.
  intros get nd lambs tol p E. unfold exa_crd in E. destruct (path_run _ _ _ _ _ _ _) as [c|] eqn:E1; [|discriminate E].
  destruct (plMain c) eqn:E2; try discriminate E. injection E as <-. eexists _, c. eauto.
Qed.
Definition exa_run lmin ltype cov := lassoFit (isort byValueLess) (fun _ _ => Panic) exa_crd (fun _ => Panic) (Some exa_d) lmin n1 2%Z ltype cov (ndec 1 (-4)).
Definition exa_view (o : res (LassoOut (F64 fenvN))) : option (option nat * bool) :=
  match o with
  | Ok o => Some (option_map (@length _) (loTable o), match loFile o with Some _ => true | None => false end)
  | _ => None
  end.

(** A positive lower limit gives a file, a negative one does not although the
    fit is printed; a misspelt algorithm gives a file with an empty table, a
    misspelt estimator nothing at all. *)
Example C75_example :
  exa_view (exa_run (ndec 1 (-1)) "cd" "empirical") = Some (Some 1%nat, true) /\
  exa_view (exa_run (nofZ (-1)) "cd" "empirical") = Some (Some 2%nat, false) /\
  exa_view (exa_run (ndec 1 (-1)) "lar" "empirical") = Some (Some 0%nat, true) /\
  exa_view (exa_run (ndec 1 (-1)) "cd" "empiric") = Some (None, false).
Proof. vm_compute. auto. Qed.

(** the hypotheses of the theorems hold for this dataset *)
Example C75_hypotheses :
  (forall get nd lambs tol p, exa_crd get nd lambs tol = Ok p -> crd_path_result get nd lambs tol p) /\
  (0 < mcols (dsX exa_d))%nat /\ length (dsY exa_d) = mrows (dsX exa_d) /\
  (exists lambs l0, Logspace (N := F64 fenvN) (nofZ (-1)) n1 2 = Ok lambs /\ nth_error lambs 0 = Some l0 /\ finite l0 = false) /\
  (forall i j, (i < mrows (dsX exa_d))%nat -> (j < mcols (dsX exa_d))%nat -> finite (mval (dsX exa_d) i j) = true) /\
  (forall y, In y (dsY exa_d) -> finite y = true) /\
  (exists nd, NewNormalizedData (dsX exa_d) (dsY exa_d) = Ok nd).
Proof.
  split; [exact exa_crd_ok|]. split; [cbn; lia|]. split; [reflexivity|].
  split. { eexists _, _. split; [vm_compute; reflexivity|]. split; reflexivity. }
  split. { intros i j Hi Hj. cbn in Hi, Hj. destruct i as [|[|[|[|i]]]]; try lia; destruct j as [|[|j]]; try lia; vm_compute; reflexivity. }
  split. { intros y Hy. cbn [exa_d dsY map] in Hy. repeat destruct Hy as [<-|Hy]; try (vm_compute; reflexivity); destruct Hy. }
  destruct (NewNormalizedData (dsX exa_d) (dsY exa_d)) as [nd| |] eqn:E; [eauto| |];
    exfalso; assert (C : match NewNormalizedData (dsX exa_d) (dsY exa_d) with Ok _ => true | _ => false end = true) by (vm_compute; reflexivity);
    rewrite E in C; discriminate C.
Qed.

(** -1 and 10 as limits, in exact arithmetic *)
Example C75_limit_example : exists lambs l0, Logspace (N := XR) (XFin (-1)) (XFin 10) 3 = Ok lambs /\ nth_error lambs 0 = Some l0 /\ finite l0 = false.
Proof.
  assert (E : exists lambs, Logspace (N := XR) (XFin (-1)) (XFin 10) 3 = Ok lambs) by (eexists; reflexivity). destruct E as (lambs & E).
  exists lambs. destruct (C75_nonpositive_limit (-1) 10 3 lambs ltac:(left; lra) ltac:(lia) E) as (l0 & H). exists l0. auto.
Qed.
