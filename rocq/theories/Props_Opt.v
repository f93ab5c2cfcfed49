(** C90: the optional parameters of SelectModel. *)
From Coq Require Import Reals Lra Psatz Floats.SpecFloat.
From Verif Require Import Base Num Mat RSum Model_Node Model_Search Model_Util Model_Fit Model_Cmd Model_Opt Spec_Fit.
From Verif Require Import Proof_Node Proof_Node2 Proof_Models Proof_XR Proof_Norm Proof_Fit Proof_Fit2.
From Verif Require Import Proof_Search Proof_Search2 Proof_Search3 Proof_Search4 Proof_Search5.
From Verif Require Import Props_Search Props_Fit Props_EndToEnd.
Open Scope Z_scope.

(** C90: nil stands for no cutoff, no root model and room for 10^10 nodes. *)
Theorem C90_nil : forall (N : Num) rows cols fit bnd (h : Highscore N) P s p',
  SelectModel_call rows cols fit bnd None h = Ok (P, s, p') <->
  p' = None /\ exists q, SelectModel_call rows cols fit bnd (Some (mkOpt n0 None (10 ^ 10))) h = Ok (P, s, Some q).
Proof.
  intros N rows cols fit bnd h P s p'. unfold SelectModel_call, NewSelectModelOptParams. cbn [opRoot opMaxQueue opCutoff].
  change (10 ^ 10) with 10000000000.
  destruct (SelectModel_start _ _ _ _ _ _ _ _) as [[P' s']| |]; cbn [bind]; split.
  - intros E. injection E as <- <- <-. split; [reflexivity|]. eexists. reflexivity.
  - intros (-> & q & E). injection E as <- <- _. reflexivity.
  - discriminate.
  - intros (_ & q & E). discriminate E.
  - discriminate.
  - intros (_ & q & E). discriminate E.
Qed.
Print Assumptions C90_nil.

(** BruteForceSelect uses neither *)
Lemma brute_irrel : forall (N : Num) rows cols fit bnd root maxq cutoff maxq' cutoff' fuel q (h : Highscore N),
  brute_loop (mkProblem rows cols fit bnd root maxq cutoff) fuel q h
  = brute_loop (mkProblem rows cols fit bnd root maxq' cutoff') fuel q h.
Proof.
  intros N rows cols fit bnd root maxq cutoff maxq' cutoff'. induction fuel as [|fuel IH]; intros q h; destruct q as [|c q]; try reflexivity.
  cbn [brute_loop].
  match goal with |- bind ?e _ = bind ?e' _ => change e' with e; destruct e as [[c' h']| |]; try reflexivity end. cbn [bind].
  cbn [pCols]. destruct (ndLevel c' <? Z.of_nat cols)%Z; [|apply IH].
  destruct (GetChildNode c' false); try reflexivity. cbn [bind].
  destruct (GetChildNode c' true); try reflexivity. cbn [bind]. apply IH.
Qed.

(** With these defaults, in exact arithmetic: for up to 34 features the queue
    is never cut down, and the best score is the one of BruteForceSelect (under
    the conditions of C14: no worker read the empty list at the critical
    moment, or some model has a positive score). *)
Theorem C90_defaults_optimal : forall svd X A y fit bnd maxq cutoff M P s0 p' ls s k fuel hb,
  rmat X A -> length y = mrows X -> good_svd svd X -> (mcols X < mrows X)%nat -> (mcols X <= 34)%nat ->
  (lsum (map Rsqr y) <= IZR ((2 ^ 53 - 1) * 2 ^ 971))%R ->
  (forall m, length m = mcols X -> In true m -> fit_score svd X (fins y) m = Ok (fit m)) ->
  (forall m l, length m = mcols X -> (0 <= l <= Z.of_nat (mcols X))%Z -> In true m ->
     BoundsAICC svd m l X (fins y) = Ok (bnd m l)) ->
  (forall m, length m = mcols X -> In true m ->
     snd (fit m) = XPInf \/ nleb (snd (fit m)) (XFin (IZR (10 ^ 100)) : XR) = true) ->
  2 <= M ->
  SelectModel_call (mrows X) (mcols X) fit bnd None (NewHighscore M) = Ok (P, s0, p') ->
  run P s0 ls = Some (Ok s) -> sMain s = MClose k ->
  BruteForceSelect (mkProblem (mrows X) (mcols X) fit bnd (repeat false (mcols X)) maxq cutoff) fuel = Ok hb ->
  (gRaced s = false \/ exists m, length m = mcols X /\ In true m /\ nltb (XFin 0 : XR) (snd (fit m)) = true) ->
  hsBestScore (sHs s) = hsBestScore hb.
Proof.
  intros svd X A y fit bnd maxq cutoff M P s0 p' ls s k fuel hb HA Hy Hsvd Hdim H34 Hmax Hfit Hbnd Hbig HM Hst Hrun Hend Hbf Hcase.
  unfold SelectModel_call in Hst. cbn [NewSelectModelOptParams opRoot opMaxQueue opCutoff] in Hst.
  destruct (SelectModel_start _ _ _ _ _ _ _ _) as [[P1 s1]| |] eqn:E; try discriminate Hst. cbn [bind] in Hst.
  assert (EP : P1 = P) by congruence. assert (Es : s1 = s0) by congruence. subst P1 s1.
  apply (C14_end_to_end svd X A y fit bnd 10000000000 n0 M P s0 ls s k fuel hb HA Hy Hsvd Hdim Hmax Hfit Hbnd Hbig HM E); auto.
  2:{ rewrite <- Hbf. unfold BruteForceSelect. apply brute_irrel. }
  change (2 * 10000000000) with 20000000000. apply Z.le_trans with (2 ^ 34); [|vm_compute; discriminate].
  apply Z.pow_le_mono_r; lia.
Qed.
Print Assumptions C90_defaults_optimal.

(** C90: SelectModel writes to the parameters it is given.  After the call the
    root model is set to the one the search started from, of the length of this
    dataset; cutoff and queue size are unchanged. *)
Theorem C90_written : forall (N : Num) rows cols fit bnd p (h : Highscore N) P s p',
  SelectModel_call rows cols fit bnd (Some p) h = Ok (P, s, p') ->
  (exists q, p' = Some q /\ opRoot q = Some (pRoot P) /\ opCutoff q = opCutoff p /\ opMaxQueue q = opMaxQueue p) /\
  length (pRoot P) = cols /\
  match opRoot p with None => ~ In true (pRoot P) | Some r => pRoot P = r end.
Proof.
  intros N rows cols fit bnd p h P s p' E. unfold SelectModel_call, SelectModel_start in E.
  destruct (cols <? 3)%nat; try discriminate E. destruct (opRoot p) as [r|] eqn:Er; cbn [bind] in E.
  - destruct (length r =? cols)%nat eqn:El; try discriminate E. cbn [bind] in E. injection E as <- _ <-.
    cbn [pRoot]. apply Nat.eqb_eq in El. split; [|auto]. eexists. split; [reflexivity|]. auto.
  - injection E as <- _ <-. cbn [pRoot]. rewrite repeat_length. split; [|split; [reflexivity|]].
    + eexists. split; [reflexivity|]. auto.
    + intros H. apply repeat_spec in H. discriminate H.
Qed.
Print Assumptions C90_written.

(** Passing the same parameters again, for a dataset with the same number of
    features: the second search is the one new parameters would give. *)
Theorem C90_reused : forall (N : Num) rows cols fit bnd p (h : Highscore N) P s q rows' fit' bnd' (h' : Highscore N),
  SelectModel_call rows cols fit bnd (Some p) h = Ok (P, s, Some q) ->
  SelectModel_call rows' cols fit' bnd' (Some q) h' = SelectModel_call rows' cols fit' bnd' (Some p) h'.
Proof.
  intros N rows cols fit bnd p h P s q rows' fit' bnd' h' E. unfold SelectModel_call, SelectModel_start in *.
  destruct (cols <? 3)%nat; try discriminate E. destruct p as [cu ro mq]. cbn [opRoot opCutoff opMaxQueue] in *.
  destruct ro as [r|]; cbn [bind] in E.
  - destruct (length r =? cols)%nat eqn:El; try discriminate E. cbn [bind] in E. injection E as _ _ <-.
    cbn [opRoot opCutoff opMaxQueue]. rewrite El. reflexivity.
  - injection E as _ _ <-. cbn [opRoot opCutoff opMaxQueue]. rewrite repeat_length, Nat.eqb_refl. reflexivity.
Qed.
Print Assumptions C90_reused.

(** For a dataset with another number of features it panics, even though the
    caller never set a root model and new parameters work. *)
Theorem C90_other_width : forall (N : Num) rows cols fit bnd p (h : Highscore N) P s q rows' cols' fit' bnd' (h' : Highscore N),
  SelectModel_call rows cols fit bnd (Some p) h = Ok (P, s, Some q) -> cols' <> cols ->
  SelectModel_call rows' cols' fit' bnd' (Some q) h' = Panic /\
  (opRoot p = None -> (3 <= cols')%nat -> exists P' s' q',
     SelectModel_call rows' cols' fit' bnd' (Some p) h' = Ok (P', s', Some q') /\ length (pRoot P') = cols').
Proof.
  intros N rows cols fit bnd p h P s q rows' cols' fit' bnd' h' E Hne.
  destruct (C90_written N rows cols fit bnd p h P s (Some q) E) as ((q1 & Eq & Er & Ec & Em) & L & _).
  injection Eq as <-. split.
  - unfold SelectModel_call, SelectModel_start. rewrite Er. destruct (cols' <? 3)%nat; [reflexivity|].
    rewrite L. destruct (Nat.eqb_spec cols cols') as [->|_]; [congruence|reflexivity].
  - intros Hp H3. unfold SelectModel_call, SelectModel_start. rewrite Hp.
    destruct (Nat.ltb_spec cols' 3) as [|_]; [lia|]. cbn [bind]. eexists _, _, _. split; [reflexivity|]. apply repeat_length.
Qed.
Print Assumptions C90_other_width.

(** One parameter struct for a dataset with three and one with four features. *)
Theorem C90_shared_parameters_refuted : exists p P s q,
  opRoot p = None /\
  SelectModel_call 10 3 rfit rbounds (Some p) (NewHighscore 20) = Ok (P, s, Some q) /\
  SelectModel_call 10 4 rfit rbounds (Some q) (NewHighscore 20) = Panic /\
  exists P' s' q', SelectModel_call 10 4 rfit rbounds (Some p) (NewHighscore 20) = Ok (P', s', Some q').
Proof.
  exists (NewSelectModelOptParams (N := F64 fenv0)). eexists _, _, _.
  split; [reflexivity|]. split; [reflexivity|]. split; [reflexivity|]. eexists _, _, _. reflexivity.
Qed.
Print Assumptions C90_shared_parameters_refuted.

(** the search of C14's example with nil for the parameters: it starts at the
    empty model; the data of C14_end_to_end_example meets the hypotheses of
    C90_defaults_optimal *)
Example C90_example :
  (exists P s, SelectModel_call 10 3 rfit rbounds None (NewHighscore 20) = Ok (P, s, None) /\
     pRoot P = [false; false; false] /\ pMaxQ P = 10000000000) /\
  (exists P s, SelectModel_call 4 3 fite bnde None (NewHighscore 5) = Ok (P, s, None)) /\
  (mcols xe < mrows xe)%nat /\ (mcols xe <= 34)%nat /\ good_svd svd_orth xe.
Proof.
  split; [eexists _, _; split; [reflexivity|split; reflexivity]|].
  split; [eexists _, _; reflexivity|]. split; [cbn; lia|]. split; [cbn; lia|]. exact xe_good.
Qed.
