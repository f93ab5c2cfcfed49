(** Orthogonal matching pursuit: the run, for any arithmetic. *)
From Verif Require Import Base Num Mat Model_Node Model_Util Model_Fit Model_Omp Spec_Omp.
From Verif Require Import Proof_Node Proof_Node2.

Lemma indicator_length : forall n P, length (indicator n P) = n.
Proof. intros. unfold indicator. rewrite map_length, seq_length. reflexivity. Qed.

Lemma nth_error_indicator : forall n P i, i < n ->
  nth_error (indicator n P) i = Some (existsb (Nat.eqb i) P).
Proof.
  intros n P i H. unfold indicator.
  rewrite (map_nth_error _ i (seq 0 n) (d := i)); auto.
  rewrite (nth_error_nth' _ 0) by (rewrite seq_length; auto). rewrite seq_nth by auto. reflexivity.
Qed.

Lemma indicator_In : forall n P i, i < n -> (nth i (indicator n P) false = true <-> In i P).
Proof.
  intros n P i H. rewrite (nth_error_nth _ _ _ (nth_error_indicator n P i H)).
  rewrite existsb_exists. split.
  - intros (x & Hx & E). apply Nat.eqb_eq in E. subst; auto.
  - intros Hi. exists i. split; auto. apply Nat.eqb_refl.
Qed.

Lemma nth_error_ext : forall A (l l' : list A), (forall k, nth_error l k = nth_error l' k) -> l = l'.
Proof.
  induction l as [|x l IH]; intros [|y l'] H; auto.
  - specialize (H 0). discriminate.
  - specialize (H 0). discriminate.
  - pose proof (H 0) as H0. injection H0 as ->. f_equal. apply IH. intros k. exact (H (S k)).
Qed.

Lemma indicator_upd : forall n P i, i < n -> upd (indicator n P) i true = indicator n (P ++ [i]).
Proof.
  intros n P i H. apply nth_error_ext. intros k. rewrite nth_error_upd, indicator_length.
  destruct (Nat.ltb_spec k n) as [Hk|Hk].
  - rewrite !nth_error_indicator by auto. rewrite existsb_app. simpl.
    rewrite orb_false_r. destruct (Nat.eqb_spec k i) as [->|Hne].
    + rewrite (proj2 (Nat.ltb_lt _ _)) by auto. rewrite orb_true_r. reflexivity.
    + rewrite orb_false_r. reflexivity.
  - rewrite (proj2 (nth_error_None (indicator n (P ++ [i])) k)) by (rewrite indicator_length; lia).
    destruct (Nat.eqb_spec k i); [lia|]. apply nth_error_None. rewrite indicator_length; lia.
Qed.

Lemma indicator_same : forall n P i, In i P -> indicator n (P ++ [i]) = indicator n P.
Proof.
  intros n P i H. unfold indicator. apply map_ext. intros k. rewrite existsb_app. simpl.
  rewrite orb_false_r. destruct (Nat.eqb_spec k i) as [->|]; [|apply orb_false_r].
  rewrite orb_true_r. symmetry. apply existsb_exists. exists i. split; auto. apply Nat.eqb_refl.
Qed.

Lemma indicator_nil : forall n, indicator n [] = repeat false n.
Proof.
  intros n. unfold indicator. cbn [existsb]. generalize 0. induction n; intros a; simpl; auto.
  rewrite IHn. reflexivity.
Qed.

Lemma loop_pres : forall S (Q : S -> Prop) (body : nat -> S -> res S) n a s s',
  (forall i s s', Q s -> body i s = Ok s' -> Q s') -> Q s -> for_loop a n body s = Ok s' -> Q s'.
Proof.
  intros S Q body n. induction n as [|n IH]; intros a s s' H Hs E; simpl in E.
  - injection E as <-; auto.
  - apply bind_ok in E. destruct E as (s1 & E1 & E). apply (IH _ _ _ H (H _ _ _ Hs E1) E).
Qed.

Section P.
  Variable N : Num.
  Variable svd : Mat N -> SVD N.

  (** overlay *)
  Fixpoint overlay (m : list bool) (c out : list N) : list N :=
    match m, out with
    | true :: m, _ :: out => hd n0 c :: overlay m (tl c) out
    | false :: m, x :: out => x :: overlay m c out
    | _, _ => out
    end.

  Lemma write_gen : forall m c0 c pre out, length out = length m -> length c = NumFeatures m ->
    for_eachi (length c0) (sel_from (length pre) m)
      (fun i v out => do c <- getn (c0 ++ c) i; setz out v c) (pre ++ out)
    = Ok (pre ++ overlay m c out).
  Proof.
    induction m as [|b m IH]; intros c0 c pre out Lo Lc.
    - destruct out; [|discriminate]. reflexivity.
    - destruct out as [|x out]; [discriminate|]. simpl in Lo. rewrite NumFeatures_cons in Lc.
      destruct b; simpl sel_from.
      + destruct c as [|c1 c]; [simpl in Lc; lia|]. cbn [for_eachi].
        assert (G : getn (c0 ++ c1 :: c) (length c0) = Ok c1).
        { apply getn_ok. rewrite nth_error_app2, Nat.sub_diag by lia. reflexivity. }
        rewrite G. cbn [bind]. rewrite setz_nat.
        assert (St : setn (pre ++ x :: out) (length pre) c1 = Ok (pre ++ c1 :: out)) by apply setn_at_end.
        rewrite St. cbn [bind].
        specialize (IH (c0 ++ [c1]) c (pre ++ [c1]) out ltac:(lia) ltac:(simpl in Lc; lia)).
        rewrite !app_length in IH. simpl in IH. rewrite <- !app_assoc in IH. simpl in IH.
        rewrite !Nat.add_1_r in IH. rewrite IH. reflexivity.
      + specialize (IH c0 c (pre ++ [x]) out ltac:(lia) ltac:(lia)).
        rewrite !app_length in IH. simpl in IH. rewrite <- !app_assoc in IH. simpl in IH.
        rewrite !Nat.add_1_r in IH. rewrite IH. reflexivity.
  Qed.

  Lemma write_spec : forall m c out, length out = length m -> length c = NumFeatures m ->
    omp_write (sel_from 0 m) c out = Ok (overlay m c out).
  Proof. intros m c out. exact (write_gen m [] c [] out). Qed.

  Lemma overlay_expand : forall m c out, length out = length m ->
    (forall i, nth i m false = false -> i < length m -> nth i out n0 = n0) ->
    overlay m c out = expand m c.
  Proof.
    induction m as [|b m IH]; intros c out L Z; destruct out as [|x out]; simpl in *; try discriminate; auto.
    assert (Z' : forall i, nth i m false = false -> i < length m -> nth i out n0 = n0).
    { intros i Hi Hl. apply (Z (S i)); [exact Hi|lia]. }
    destruct b.
    - rewrite IH; auto.
    - rewrite IH by auto. rewrite (Z 0 eq_refl) by lia. reflexivity.
  Qed.

  Lemma expand_length : forall m (c : list N), length (expand m c) = length m.
  Proof. induction m as [|[] m IH]; intros c; simpl; auto. Qed.

  Lemma expand_zero : forall m (c : list N) i, nth i m false = false -> nth i (expand m c) n0 = n0.
  Proof.
    induction m as [|[] m IH]; intros c [|i] H; simpl in *; auto; try discriminate.
  Qed.

  Lemma Fit_length : forall D y c, Fit svd D y = Ok c -> length c = mcols D /\ mrows D = length y.
  Proof.
    intros D y c E. unfold Fit in E.
    destruct (Nat.eqb_spec (mrows D) (length y)) as [Er|]; [|discriminate E]. cbn [negb] in E.
    destruct (length y =? 0); [discriminate E|].
    apply bind_ok in E. destruct E as (u & _ & E).
    apply bind_ok in E. destruct E as (u2 & _ & E).
    apply bind_ok in E. destruct E as (xm & _ & E).
    split; auto.
    apply (loop_pres _ (fun x => length x = mcols D)) in E; auto.
    2: apply repeat_length.
    - intros i s s' L B. apply bind_ok in B. destruct B as (v & _ & B).
      unfold setn in B. destruct (_ <? _); [|discriminate B]. injection B as <-.
      rewrite upd_length. exact L.
  Qed.

  Lemma design_dims : forall m (X D : Mat N), GetDesignMatrix m X = Ok D ->
    mrows D = mrows X /\ mcols D = NumFeatures m /\ 0 < mrows X.
  Proof.
    intros m X D E.
    assert (F : NumFeatures m <> 0).
    { intros F. unfold GetDesignMatrix in E. rewrite F in E. discriminate. }
    assert (R : 0 < mrows X).
    { destruct (mrows X) eqn:R; [|lia]. unfold GetDesignMatrix in E. rewrite R in E.
      destruct (NumFeatures m =? 0); discriminate. }
    destruct (design_gen N m X R F) as [(E' & _)|(D' & E' & A & B & _)]; rewrite E in E'; [discriminate|].
    injection E' as <-. auto.
  Qed.

  Lemma predict_length : forall (D : Mat N) c p, Predict D c = Ok p -> length p = mrows D.
  Proof.
    intros D c p E. unfold Predict in E. destruct (_ =? _); [discriminate|].
    unfold mat_mulvec in E. destruct (_ =? _); [|discriminate]. injection E as <-.
    rewrite map_length, seq_length. reflexivity.
  Qed.

  Definition diffs (pred y : list N) : list N :=
    map (fun p => (fst p - snd p)%num) (combine pred y).

  Lemma residuals_gen : forall (pred y : list N) (p0 y0 : list N) (pre re : list N) s,
    length y = length pred -> length re = length pred ->
    length y0 = length p0 -> length pre = length p0 ->
    for_loop (length p0) (length pred) (fun i (st : list N * N) =>
      do p <- getn (p0 ++ pred) i;
      do v <- getn (y0 ++ y) i;
      do r <- setn (fst st) i (p - v)%num;
      Ok (r, (snd st + npow (v - p) 2)%num)) (pre ++ re, s)
    = Ok (pre ++ diffs pred y,
          fold_left (fun s p => (s + npow (snd p - fst p) 2)%num) (combine pred y) s).
  Proof.
    induction pred as [|p pred IH]; intros y p0 y0 pre re s Ly Lr L0 Lp.
    - destruct y, re; try discriminate. reflexivity.
    - destruct y as [|v y]; [discriminate|]. destruct re as [|r re]; [discriminate|].
      simpl length in *. cbn [for_loop].
      assert (G1 : getn (p0 ++ p :: pred) (length p0) = Ok p).
      { apply getn_ok. rewrite nth_error_app2, Nat.sub_diag by lia. reflexivity. }
      assert (G2 : getn (y0 ++ v :: y) (length p0) = Ok v).
      { apply getn_ok. rewrite nth_error_app2, L0, Nat.sub_diag by lia. reflexivity. }
      rewrite G1. cbn [bind]. rewrite G2. cbn [bind fst snd].
      rewrite <- Lp, setn_at_end. cbn [bind].
      specialize (IH y (p0 ++ [p]) (y0 ++ [v]) (pre ++ [(p - v)%num]) re
        (s + npow (v - p) 2)%num ltac:(lia) ltac:(lia)).
      rewrite !app_length in IH. simpl in IH. rewrite <- !app_assoc in IH. simpl in IH.
      rewrite !Nat.add_1_r in IH. rewrite Lp. rewrite IH by lia. reflexivity.
  Qed.

  Lemma residuals_spec : forall y pred re, length y = length pred -> length re = length pred ->
    omp_residuals y pred re = Ok (diffs pred y, rms y pred).
  Proof.
    intros y pred re Ly Lr. unfold omp_residuals.
    pose proof (residuals_gen pred y [] [] [] re n0 Ly Lr eq_refl eq_refl) as G.
    simpl app in G. simpl length in G. rewrite G. reflexivity.
  Qed.

  Variables (X : Mat N) (y : list N) (tol : N) (norms : list N).
  Let nc := mcols X.

  Lemma Argmax_lt : forall (l : list N) k, Argmax l = Ok k -> k < length l.
  Proof.
    intros l k E. unfold Argmax in E. apply bind_ok in E. destruct E as (v0 & E0 & E).
    apply bind_ok in E. destruct E as (st & E1 & E). injection E as <-.
    apply (loop_pres _ (fun st : nat * N => fst st < length l)) in E1; auto.
    - intros i s s' H B. apply bind_ok in B. destruct B as (x & Ex & B). injection B as <-.
      destruct (nltb _ _); auto. simpl. apply getn_ok in Ex. apply nth_error_Some. congruence.
    - simpl. apply getn_ok in E0. apply nth_error_Some. congruence.
  Qed.

  Lemma proj_length : forall re p, omp_proj X norms re = Ok p -> length p = nc.
  Proof.
    intros re p E. unfold omp_proj in E. apply bind_ok in E. destruct E as (q & Eq & E).
    unfold mat_mulvec in Eq. destruct (_ =? _); [|discriminate]. injection Eq as <-.
    apply (loop_pres _ (fun p : list N => length p = nc)) in E; auto.
    - intros i s s' H B. apply bind_ok in B. destruct B as (a & _ & B).
      apply bind_ok in B. destruct B as (b & _ & B). unfold setn in B.
      destruct (_ <? _); [|discriminate]. injection B as <-. rewrite upd_length. exact H.
    - rewrite map_length, seq_length. reflexivity.
  Qed.

  (** the features [P] have been picked and fitted *)
  Record reached (P : list nat) (co : list N) (m : list bool) (re : list N) : Prop := {
    rc_m : m = indicator nc P;
    rc_co : length co = nc /\ forall i, ~ In i P -> i < nc -> nth i co n0 = n0;
    rc_re : length re = length y;
    rc_fit : match P with
             | [] => re = y
             | _ => exists c pred, fit_on svd X y P c pred /\
                 co = expand (indicator nc P) c /\ re = diffs pred y
             end }.

  Lemma fit_on_fun : forall P c p c' p', fit_on svd X y P c p -> fit_on svd X y P c' p' ->
    c = c' /\ p = p'.
  Proof.
    intros P c p c' p' (D & E1 & E2 & E3) (D' & E1' & E2' & E3').
    rewrite E1 in E1'. injection E1' as <-. rewrite E2 in E2'. injection E2' as <-.
    rewrite E3 in E3'. injection E3' as <-. auto.
  Qed.

  Lemma fit_on_lengths : forall P c p, fit_on svd X y P c p -> length p = length y.
  Proof.
    intros P c p (D & E1 & E2 & E3). rewrite (predict_length _ _ _ E3).
    apply (Fit_length D y c E2).
  Qed.

  Lemma round_spec : forall P co order m re current st' stop,
    reached P co m re ->
    omp_round svd X y tol norms current (mkOmpSt co order m re) = Ok (st', stop) ->
    exists proj imax c pred,
      omp_proj X norms re = Ok proj /\ Argmax proj = Ok imax /\ imax < nc /\
      current < length order /\ osOrder st' = upd order current (Z.of_nat imax) /\
      fit_on svd X y (P ++ [imax]) c pred /\
      reached (P ++ [imax]) (osCoeff st') (osModel st') (osRes st') /\
      osCoeff st' = expand (indicator nc (P ++ [imax])) c /\ osRes st' = diffs pred y /\
      stop = nltb (rms y pred) tol.
  Proof.
    intros P co order m re current st' stop [Rm [Rc Rz] Rr Rf] E. unfold omp_round in E. simpl in E.
    apply bind_ok in E. destruct E as (proj & Ep & E).
    apply bind_ok in E. destruct E as (imax & Em & E).
    pose proof (Argmax_lt _ _ Em) as Hi. rewrite (proj_length _ _ Ep) in Hi.
    apply bind_ok in E. destruct E as (model & E1 & E).
    subst m. rewrite setn_lt in E1 by (rewrite indicator_length; exact Hi).
    injection E1 as <-. rewrite indicator_upd in E by exact Hi.
    apply bind_ok in E. destruct E as (order' & E1 & E).
    unfold setn in E1. destruct (Nat.ltb_spec current (length order)) as [Hc|]; [|discriminate].
    injection E1 as <-.
    apply bind_ok in E. destruct E as (D & ED & E).
    apply bind_ok in E. destruct E as (c & Ec & E).
    unfold SelectedFeatures in E. rewrite selected_loop_eq in E. cbn [bind] in E.
    destruct (design_dims _ _ _ ED) as (D1 & D2 & D3).
    destruct (Fit_length _ _ _ Ec) as (L1 & L2).
    rewrite write_spec in E; [|rewrite indicator_length; exact Rc|congruence].
    cbn [bind] in E.
    apply bind_ok in E. destruct E as (pred & Epr & E).
    pose proof (predict_length _ _ _ Epr) as Lp.
    rewrite residuals_spec in E by congruence. cbn [bind] in E. injection E as <- <-.
    assert (FO : fit_on svd X y (P ++ [imax]) c pred) by (exists D; auto).
    assert (OV : overlay (indicator nc (P ++ [imax])) c co = expand (indicator nc (P ++ [imax])) c).
    { apply overlay_expand; [rewrite indicator_length; exact Rc|].
      intros i Hn Hl. rewrite indicator_length in Hl. apply Rz; auto. intros HP.
      assert (X1 : nth i (indicator nc (P ++ [imax])) false = true).
      { apply indicator_In; auto. apply in_or_app; auto. }
      congruence. }
    assert (LD : length (diffs pred y) = length y).
    { unfold diffs. rewrite map_length, combine_length. lia. }
    exists proj, imax, c, pred. simpl. rewrite OV.
    repeat (split; auto).
    - rewrite expand_length. apply indicator_length.
    - intros i Hn Hl. apply expand_zero. apply not_true_is_false. intros X1.
      apply indicator_In in X1; auto.
    - destruct (P ++ [imax]) eqn:EP; [destruct P; discriminate|]. exists c, pred. auto.
  Qed.

  (** a round that picks a feature already there changes nothing but Order *)
  Lemma round_again : forall P co order m re current st' stop proj imax,
    reached P co m re -> omp_proj X norms re = Ok proj -> Argmax proj = Ok imax -> In imax P ->
    omp_round svd X y tol norms current (mkOmpSt co order m re) = Ok (st', stop) ->
    current < length order /\
    st' = mkOmpSt co (upd order current (Z.of_nat imax)) m re /\
    (stop = true -> exists c pred, fit_on svd X y P c pred /\ nltb (rms y pred) tol = true).
  Proof.
    intros P co order m re current st' stop proj imax R Ep Em HP E.
    destruct (round_spec _ _ _ _ _ _ _ _ R E)
      as (proj' & imax' & c & pred & Ep' & Em' & Hi & Hc & Eo & FO & R' & Eco & Ere & Es).
    rewrite Ep in Ep'. injection Ep' as <-. rewrite Em in Em'. injection Em' as <-.
    assert (SM : indicator nc (P ++ [imax]) = indicator nc P) by (apply indicator_same; auto).
    assert (FO' : fit_on svd X y P c pred).
    { destruct FO as (D & E1 & E2). fold nc in E1. rewrite SM in E1. exists D. auto. }
    destruct R as [Rm Rc Rr Rf]. destruct P as [|p0 P]; [contradiction HP|].
    destruct Rf as (c' & pred' & F' & Co' & Re').
    destruct (fit_on_fun _ _ _ _ _ FO' F') as [<- <-].
    destruct R' as [Rm' _ _ _]. destruct st' as [co' o' m' re']. simpl in *.
    split; auto. split.
    - rewrite SM in Rm', Eco. subst. reflexivity.
    - intros ->. exists c, pred. auto.
  Qed.

  (** once a feature repeats, all later rounds repeat it *)
  Lemma loop_stuck : forall n P co P0 t m re proj imax st',
    reached P co m re -> omp_proj X norms re = Ok proj -> Argmax proj = Ok imax -> In imax P ->
    omp_loop svd X y tol norms n (length (P0 ++ Z.of_nat imax :: t))
      (mkOmpSt co ((P0 ++ Z.of_nat imax :: t) ++ repeat (-1)%Z n) m re) = Ok st' ->
    osCoeff st' = co /\ exists t', osOrder st' = P0 ++ Z.of_nat imax :: t'.
  Proof.
    induction n as [|n IH]; intros P co P0 t m re proj imax st' R Ep Em HP E.
    - simpl in E. injection E as <-. simpl. split; auto. exists t. rewrite app_nil_r. reflexivity.
    - cbn [omp_loop] in E. apply bind_ok in E. destruct E as ([st1 stop] & E1 & E).
      destruct (round_again _ _ _ _ _ _ _ _ _ _ R Ep Em HP E1) as (Hc & -> & _).
      assert (U : upd ((P0 ++ Z.of_nat imax :: t) ++ repeat (-1)%Z (S n))
                    (length (P0 ++ Z.of_nat imax :: t)) (Z.of_nat imax)
                  = (P0 ++ Z.of_nat imax :: (t ++ [Z.of_nat imax])) ++ repeat (-1)%Z n).
      { pose proof (setn_at_end _ (P0 ++ Z.of_nat imax :: t) (-1)%Z (Z.of_nat imax) (repeat (-1)%Z n)) as S1.
        rewrite setn_lt in S1 by (rewrite !app_length; simpl; lia). injection S1 as S1.
        simpl repeat. rewrite S1. rewrite <- !app_assoc. simpl. rewrite <- !app_assoc. reflexivity. }
      rewrite U in E. destruct stop.
      + injection E as <-. simpl. split; auto.
        exists ((t ++ [Z.of_nat imax]) ++ repeat (-1)%Z n). rewrite <- app_assoc. reflexivity.
      + apply (IH P co P0 (t ++ [Z.of_nat imax]) m re proj imax st'); auto.
        replace (length (P0 ++ Z.of_nat imax :: t ++ [Z.of_nat imax]))
          with (S (length (P0 ++ Z.of_nat imax :: t))) by (rewrite !app_length; simpl; rewrite app_length; simpl; lia).
        exact E.
  Qed.

  (** not yet within the tolerance *)
  Definition unfinished (P : list nat) : Prop :=
    P = [] \/ exists c pred, fit_on svd X y P c pred /\ nltb (rms y pred) tol = false.

  (** every feature of [P] was the first of the largest correlations when picked,
      and the tolerance had not been met *)
  Definition greedy (P : list nat) : Prop :=
    forall k j, nth_error P k = Some j -> unfinished (firstn k P) /\
      exists re proj, residual svd X y (firstn k P) re /\
        omp_proj X norms re = Ok proj /\ Argmax proj = Ok j.

  Definition stopped (P : list nat) : Prop :=
    (exists c pred, fit_on svd X y P c pred /\ nltb (rms y pred) tol = true) \/
    length P = nc \/
    (exists re proj j, residual svd X y P re /\ omp_proj X norms re = Ok proj /\
       Argmax proj = Ok j /\ In j P).

  Definition ends_at (L : nat) (P : list nat) (o : list Z) : Prop :=
    exists t, o = map Z.of_nat P ++ t /\
      (t = [] \/ hd 0%Z t = (-1)%Z \/ exists v, hd 0%Z t = Z.of_nat v /\ In v P).

  Lemma reached_residual : forall P co m re, reached P co m re -> residual svd X y P re.
  Proof.
    intros P co m re [_ _ _ F]. destruct P; [exact F|].
    destruct F as (c & pred & F1 & _ & F2). exists c, pred. auto.
  Qed.

  Lemma loop_spec : forall n P co m re st',
    n + length P = nc -> reached P co m re -> NoDup P -> Forall (fun i => i < nc) P -> greedy P ->
    unfinished P -> (P <> [] \/ 0 < n) ->
    omp_loop svd X y tol norms n (length P)
      (mkOmpSt co (map Z.of_nat P ++ repeat (-1)%Z n) m re) = Ok st' ->
    exists P' c pred, P' <> [] /\ NoDup P' /\ Forall (fun i => i < nc) P' /\ greedy P' /\ stopped P' /\
      fit_on svd X y P' c pred /\ osCoeff st' = expand (indicator nc P') c /\
      ends_at nc P' (osOrder st').
  Proof.
    induction n as [|n IH]; intros P co m re st' Hn R ND HF G HU Hne E.
    - simpl in E. injection E as <-. simpl.
      destruct P as [|p P]; [destruct Hne; [contradiction|lia]|].
      destruct R as [Rm Rc Rr (c & pred & F & Co & Re)].
      exists (p :: P), c, pred. repeat (split; auto).
      + discriminate.
      + right; left. exact Hn.
      + exists []. auto.
    - cbn [omp_loop] in E. apply bind_ok in E. destruct E as ([st1 stop] & E1 & E).
      destruct (round_spec _ _ _ _ _ _ _ _ R E1)
        as (proj & imax & c & pred & Ep & Em & Hi & Hc & Eo & FO & R' & Eco & Ere & Es).
      destruct (in_dec Nat.eq_dec imax P) as [HP|HP].
      + (* repeated *)
        destruct (round_again _ _ _ _ _ _ _ _ _ _ R Ep Em HP E1) as (_ & -> & Hst).
        assert (U : upd (map Z.of_nat P ++ repeat (-1)%Z (S n)) (length P) (Z.of_nat imax)
                    = (map Z.of_nat P ++ Z.of_nat imax :: []) ++ repeat (-1)%Z n).
        { pose proof (setn_at_end _ (map Z.of_nat P) (-1)%Z (Z.of_nat imax) (repeat (-1)%Z n)) as S1.
          rewrite setn_lt in S1 by (rewrite !app_length; simpl; lia). injection S1 as S1.
          rewrite map_length in S1. simpl repeat. rewrite S1. rewrite <- !app_assoc. reflexivity. }
        assert (OC : exists t', osCoeff st' = co /\ osOrder st' = map Z.of_nat P ++ Z.of_nat imax :: t').
        { rewrite U in E. destruct stop.
          - injection E as <-. simpl. exists (repeat (-1)%Z n). rewrite <- app_assoc. auto.
          - destruct (loop_stuck n P co (map Z.of_nat P) [] m re proj imax st' R Ep Em HP) as (A & t' & B).
            + replace (length (map Z.of_nat P ++ [Z.of_nat imax])) with (S (length P))
                by (rewrite app_length, map_length; simpl; lia).
              exact E.
            + exists t'. auto. }
        destruct OC as (t' & OC & OO).
        pose proof (reached_residual _ _ _ _ R) as RR.
        destruct P as [|p P]; [contradiction HP|].
        destruct R as [Rm Rc Rr (c' & pred' & F & Co & Re)].
        exists (p :: P), c', pred'. rewrite OC, OO.
        repeat (split; auto).
        * discriminate.
        * right; right. exists re, proj, imax. auto.
        * exists (Z.of_nat imax :: t'). split; auto. right; right. exists imax. auto.
      + (* new *)
        assert (ND' : NoDup (P ++ [imax])).
        { apply NoDup_Add with (a := imax) (l := P).
          - pose proof (Add_app imax P []) as A. rewrite app_nil_r in A. exact A.
          - auto. }
        assert (HF' : Forall (fun i => i < nc) (P ++ [imax])).
        { apply Forall_app. split; auto. }
        assert (G' : greedy (P ++ [imax])).
        { intros k j Hk. destruct (Nat.ltb_spec k (length P)) as [Hl|Hl].
          - rewrite nth_error_app1 in Hk by auto. rewrite firstn_app.
            replace (k - length P) with 0 by lia. simpl firstn. rewrite app_nil_r. apply G; auto.
          - rewrite nth_error_app2 in Hk by auto.
            destruct (k - length P) as [|d] eqn:Ek; [|destruct d; discriminate].
            injection Hk as <-. rewrite firstn_app, Ek. simpl firstn.
            rewrite firstn_all2, app_nil_r by lia. split; auto. exists re, proj. split; auto.
            eapply reached_residual; eauto. }
        assert (U : osOrder st1 = map Z.of_nat (P ++ [imax]) ++ repeat (-1)%Z n).
        { rewrite Eo.
          pose proof (setn_at_end _ (map Z.of_nat P) (-1)%Z (Z.of_nat imax) (repeat (-1)%Z n)) as S1.
          rewrite setn_lt in S1 by (rewrite !app_length; simpl; lia). injection S1 as S1.
          rewrite map_length in S1. simpl repeat. rewrite S1, map_app, <- app_assoc. reflexivity. }
        destruct stop.
        * injection E as <-. exists (P ++ [imax]), c, pred.
          repeat (split; auto).
          -- destruct P; discriminate.
          -- left. exists c, pred. auto.
          -- exists (repeat (-1)%Z n). split; auto. destruct n; simpl; auto.
        * clear Eo. destruct st1 as [co1 o1 m1 re1]. simpl in U, R', E. subst o1.
          apply (IH (P ++ [imax]) co1 m1 re1 st'); auto.
          -- rewrite app_length. simpl. lia.
          -- right. exists c, pred. auto.
          -- left. destruct P; discriminate.
          -- replace (length (P ++ [imax])) with (S (length P)) by (rewrite app_length; simpl; lia).
             exact E.
  Qed.

  (** trimming *)
  Lemma trim_gen : forall P Q found t L, length found = L ->
    (forall i, i < L -> nth i found false = existsb (Nat.eqb i) Q) ->
    NoDup (Q ++ P) -> Forall (fun i => i < L) P -> Forall (fun i => i < L) Q ->
    (t = [] \/ hd 0%Z t = (-1)%Z \/ exists v, hd 0%Z t = Z.of_nat v /\ In v (Q ++ P)) ->
    omp_trim found (map Z.of_nat P ++ t) = Ok (map Z.of_nat P).
  Proof.
    induction P as [|p P IH]; intros Q found t L Lf HQ ND HP HQL Ht.
    - simpl. destruct t as [|v t]; auto. simpl in Ht.
      destruct Ht as [Ht|[Ht|(u & Hu & Iu)]]; [discriminate| |].
      + subst v. reflexivity.
      + subst v. simpl. destruct (Z.eqb_spec (Z.of_nat u) (-1)); [lia|].
        rewrite app_nil_r in Iu. rewrite Forall_forall in HQL. specialize (HQL u Iu).
        rewrite getz_nat. rewrite (proj2 (getn_ok _ found u true)).
        * reflexivity.
        * rewrite (nth_error_nth' found false) by lia. rewrite HQ by auto.
          f_equal. apply existsb_exists. exists u. split; auto. apply Nat.eqb_refl.
    - simpl. destruct (Z.eqb_spec (Z.of_nat p) (-1)); [lia|].
      inversion HP as [|? ? Hp HP']; subst. rewrite getz_nat.
      assert (NI : ~ In p Q).
      { intros I. apply NoDup_remove_2 in ND. apply ND. apply in_or_app; auto. }
      rewrite (proj2 (getn_ok _ found p false)).
      2: { rewrite (nth_error_nth' found false) by lia. rewrite HQ by auto. f_equal.
           apply not_true_is_false. intros X1. apply existsb_exists in X1.
           destruct X1 as (x & Hx & Ex). apply Nat.eqb_eq in Ex. subst x. contradiction. }
      cbn [bind]. rewrite setz_nat, setn_lt by auto. cbn [bind].
      rewrite (IH (Q ++ [p]) (upd found p true) t (length found)); auto.
      + apply upd_length.
      + intros i Hl. rewrite nth_upd. rewrite existsb_app. simpl. rewrite orb_false_r.
        destruct (Nat.eqb_spec i p) as [->|].
        * rewrite (proj2 (Nat.ltb_lt _ _)) by auto. rewrite orb_true_r. reflexivity.
        * rewrite orb_false_r. apply HQ; auto.
      + rewrite <- app_assoc. exact ND.
      + apply Forall_app; auto.
      + rewrite <- app_assoc. exact Ht.
  Qed.
End P.
