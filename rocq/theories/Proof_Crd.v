(** Structure of coordinate descent, for every number type. *)
From Verif Require Import Base Num Mat Model_Node Model_Util Model_Fit Model_Norm Model_Cov Model_Crd
  Proof_Node Proof_Util.

Section Crd.
  Variable N : Num.

  Definition active (beta : list N) (j : nat) : bool := nltb lassoCrdDescZero (nabs (nth j beta n0)).

  Lemma filter_firstn_le : forall A (f : A -> bool) l i, (length (filter f (firstn i l)) <= i)%nat.
  Proof.
    intros A f l i. apply Nat.le_trans with (length (firstn i l)); [|apply firstn_le_length].
    generalize (firstn i l). induction l0 as [|x l0 IH]; cbn [filter length]; [lia|].
    destruct (f x); cbn [length]; lia.
  Qed.

  Lemma firstn_S_nth : forall A (l : list A) i d, (i < length l)%nat -> firstn (S i) l = firstn i l ++ [nth i l d].
  Proof.
    induction l as [|x l IH]; intros [|i] d H; cbn [length firstn nth app] in *; try lia; [reflexivity|].
    f_equal. apply IH. lia.
  Qed.

  Lemma firstn_upd_same : forall A (l : list A) k x, (k < length l)%nat -> firstn (S k) (upd l k x) = firstn k l ++ [x].
  Proof.
    induction l as [|y l IH]; intros [|k] x H; cbn [length firstn upd app] in *; try lia; [reflexivity|].
    f_equal. apply IH. lia.
  Qed.

  Lemma compact_eq : forall (beta : list N) iter, (forall j, In j iter -> (j < length beta)%nat) ->
    crd_compact beta iter = Ok (filter (active beta) iter).
  Proof.
    intros beta iter H. unfold crd_compact.
    match goal with |- (do _ <- for_loop 0 ?n ?b ?s; _) = _ =>
      destruct (for_loop_inv _ (fun i (st : list nat * nat) =>
        length (fst st) = length iter /\ snd st = length (filter (active beta) (firstn i iter)) /\
        firstn (snd st) (fst st) = filter (active beta) (firstn i iter) /\
        (forall p, (i <= p)%nat -> nth p (fst st) 0%nat = nth p iter 0%nat)) b n 0%nat s) as ([l na] & E & H1 & H2 & H3 & H4) end.
    - cbn [fst snd firstn filter length]. auto.
    - intros i [l na] Hi (H1 & H2 & H3 & H4). cbn [fst snd] in *.
      rewrite (getn_lt _ l i 0%nat) by lia. cbn [bind]. rewrite H4 by lia.
      assert (Hj : (nth i iter 0%nat < length beta)%nat) by (apply H; apply nth_In; lia).
      rewrite (getn_lt _ beta _ n0 Hj). cbn [bind].
      pose proof (filter_firstn_le _ (active beta) iter i) as Hle.
      pose proof (firstn_S_nth _ iter i 0%nat ltac:(lia)) as Es. 
      fold (active beta (nth i iter 0%nat)).
      destruct (active beta (nth i iter 0%nat)) eqn:Ea.
      + rewrite setn_lt by lia. cbn [bind]. eexists. split; [reflexivity|]. cbn [fst snd].
        rewrite Es, filter_app. cbn [filter]. rewrite Ea. split; [rewrite upd_length; exact H1|]. split.
        * rewrite app_length. cbn [length]. lia.
        * split; [rewrite firstn_upd_same by lia; rewrite H3; reflexivity|].
          intros p Hp. rewrite nth_upd. destruct (Nat.eqb_spec p na); [lia|]. apply H4. lia.
      + eexists. split; [reflexivity|]. cbn [fst snd].
        rewrite Es, filter_app. cbn [filter]. rewrite Ea, app_nil_r.
        split; [exact H1|]. split; [exact H2|]. split; [exact H3|]. intros p Hp. apply H4. lia.
    - cbn [fst snd] in *. rewrite Nat.add_0_l in *. rewrite E. cbn [bind].
      rewrite H3, firstn_all. reflexivity.
  Qed.

  Lemma union_noop : forall b a : list Z, (forall z, In z b -> In z a) -> UnionInt a b = a.
  Proof.
    unfold UnionInt. induction b as [|z b IH]; intros a H; [reflexivity|]. cbn [fold_left].
    rewrite (proj2 (ExistInt_In a z)) by (apply H; left; reflexivity).
    apply IH. intros z' Hz'. apply H. right. exact Hz'.
  Qed.

  (** the correction has one stored coefficient per feature *)
  Definition corr_ok (n : nat) (c : Correction N) : Prop :=
    match c with CLasso b _ => length b = n | _ => True end.

  Lemma Deriv_ok : forall n c (beta : list N) j, corr_ok n c -> length beta = n -> (j < n)%nat ->
    exists d, Deriv c beta (Z.of_nat j) = Ok d.
  Proof.
    intros n [|cb eta|lamb] beta j Hc Hb Hj; cbn [Deriv corr_ok] in *.
    - eexists; reflexivity.
    - destruct (for_loop_inv _ (fun _ (_ : N * N) => True) (fun i (st : N * N) =>
        let '(normSq, inner) := st in
        do c <- getn cb i;
        do b <- getn beta i;
        Ok ((normSq + c * c)%num, (inner + c * b)%num)) (length cb) 0%nat (n0, n0)) as ([ns inn] & E & _).
      + exact I.
      + intros i [ns inn] Hi _. rewrite (getn_lt _ cb i n0) by lia. rewrite (getn_lt _ beta i n0) by lia.
        cbn [bind]. eexists. split; [reflexivity|exact I].
      + rewrite E. cbn [bind]. destruct (nltb _ _); [eexists; reflexivity|].
        rewrite getz_nat, (getn_lt _ cb j n0) by lia. cbn [bind]. eexists. reflexivity.
    - rewrite getz_nat, (getn_lt _ beta j n0) by lia. cbn [bind]. eexists. reflexivity.
  Qed.

  Lemma Update_ok : forall n c (beta : list N), corr_ok n c -> length beta = n -> corr_ok n (Update c beta).
  Proof.
    intros n [|cb eta|lamb] beta Hc Hb; cbn [Update corr_ok] in *; auto.
    unfold go_copy. rewrite app_length, firstn_length, skipn_length. lia.
  Qed.

  Lemma unsat_ok : forall n (Xy cdb coeff : list N) lamb c, (0 < n)%nat ->
    length Xy = n -> length cdb = n -> length coeff = n -> corr_ok n c ->
    exists uns, UnsatisfiedKKTConditions Xy cdb coeff lamb c = Ok uns /\
      forall z, In z uns -> exists i, z = Z.of_nat i /\ (1 <= i < n)%nat /\ active coeff i = true.
  Proof.
    intros n Xy cdb coeff lamb c Hn H1 H2 H3 H4. unfold UnsatisfiedKKTConditions.
    match goal with |- context [for_loop 1 ?k ?b ?s] =>
      destruct (for_loop_inv _ (fun _ (uns : list Z) =>
        forall z, In z uns -> exists i, z = Z.of_nat i /\ (1 <= i < n)%nat /\ active coeff i = true) b k 1%nat s)
        as (uns & E & H) end.
    - intros z [].
    - intros i uns Hi H. rewrite (getn_lt _ Xy i n0) by lia. rewrite (getn_lt _ cdb i n0) by lia. cbn [bind].
      destruct (Deriv_ok n c coeff i H4 H3 ltac:(lia)) as (d & Ed). rewrite Ed. cbn [bind].
      rewrite (getn_lt _ coeff i n0) by lia. cbn [bind]. fold (active coeff i).
      destruct (nltb _ lamb && active coeff i)%bool eqn:Ea.
      + eexists. split; [reflexivity|]. intros z Hz. apply in_app_or in Hz. destruct Hz as [Hz|[<-|[]]]; [apply H; exact Hz|].
        exists i. split; [reflexivity|]. split; [lia|]. apply andb_true_iff in Ea. apply Ea.
      + eexists. split; [reflexivity|]. exact H.
    - exists uns. split; [exact E|exact H].
  Qed.

  Lemma update_cdb_ok : forall (cov : Mat N) cdb j o v, (j < mcols cov)%nat -> length cdb = mrows cov ->
    exists cdb', UpdateCovDotBeta cov cdb j o v = Ok cdb' /\ length cdb' = length cdb /\
      forall i, (i < length cdb)%nat -> nth i cdb' n0 = (nth i cdb n0 + mval cov i j * (v - o))%num.
  Proof.
    intros cov cdb j o v Hj Hl. unfold UpdateCovDotBeta.
    match goal with |- context [for_loop 0 ?k ?b ?s] =>
      destruct (for_loop_inv _ (fun p (l : list N) => length l = length cdb /\
        forall i, nth i l n0 = if (i <? p)%nat then (nth i cdb n0 + mval cov i j * (v - o))%num else nth i cdb n0) b k 0%nat s)
        as (l & E & H1 & H2) end.
    - split; [reflexivity|]. reflexivity.
    - intros p l Hp (H1 & H2). rewrite (getn_lt _ l p n0) by lia. cbn [bind].
      rewrite mat_at_in by lia. cbn [bind]. rewrite setn_lt by lia. eexists. split; [reflexivity|].
      split; [rewrite upd_length; exact H1|]. intro i. rewrite nth_upd.
      destruct (Nat.eqb_spec i p) as [->|Hne].
      + replace (p <? length l)%nat with true by (symmetry; apply Nat.ltb_lt; lia).
        replace (p <? S p)%nat with true by (symmetry; apply Nat.ltb_lt; lia).
        rewrite H2. rewrite Nat.ltb_irrefl. reflexivity.
      + rewrite H2. destruct (Nat.ltb_spec i p); destruct (Nat.ltb_spec i (S p)); try lia; reflexivity.
    - exists l. split; [exact E|]. split; [exact H1|]. intros i Hi. rewrite H2.
      replace (i <? 0 + length cdb)%nat with true by (symmetry; apply Nat.ltb_lt; lia). reflexivity.
  Qed.

  (** the value coordinate j is set to *)
  Definition new_coeff (nr : nat) (cov : Mat N) (XTy betaOld cdb : list N) (lamb d : N) (j : nat) : N :=
    (SoftThreshold (nth j XTy n0 / nofnat nr - (nth j cdb n0 - nth j betaOld n0 * mval cov j j) - d)%num lamb
     / mval cov j j)%num.

  Lemma coord_ok : forall n nr (cov : Mat N) XTy betaOld lamb c j cdb beta,
    mrows cov = n -> mcols cov = n -> length XTy = n -> length betaOld = n -> length cdb = n -> length beta = n ->
    corr_ok n c -> (j < n)%nat ->
    exists d cdb', Deriv c betaOld (Z.of_nat j) = Ok d /\
      crd_coord nr cov XTy betaOld lamb c j (cdb, beta)
      = Ok (cdb', upd beta j (new_coeff nr cov XTy betaOld cdb lamb d j)) /\ length cdb' = n /\
      forall i, (i < n)%nat -> nth i cdb' n0 =
        (nth i cdb n0 + mval cov i j * (new_coeff nr cov XTy betaOld cdb lamb d j - nth j betaOld n0))%num.
  Proof.
    intros n nr cov XTy betaOld lamb c j cdb beta H1 H2 H3 H4 H5 H6 H7 Hj.
    destruct (Deriv_ok n c betaOld j H7 H4 Hj) as (d & Ed).
    destruct (update_cdb_ok cov cdb j (nth j betaOld n0) (new_coeff nr cov XTy betaOld cdb lamb d j))
      as (cdb' & E & A & B); try lia.
    exists d, cdb'. split; [exact Ed|]. split.
    - unfold crd_coord. rewrite mat_at_in by lia. cbn [bind].
      rewrite (getn_lt _ betaOld j n0), (getn_lt _ cdb j n0), (getn_lt _ XTy j n0) by lia. cbn [bind].
      rewrite Ed. cbn [bind]. unfold new_coeff in *. rewrite E. cbn [bind].
      rewrite setn_lt by lia. reflexivity.
    - split; [lia|]. intros i Hi. apply B. lia.
  Qed.

  Definition shapes (n : nat) (cov : Mat N) (XTy : list N) : Prop :=
    (0 < n)%nat /\ mrows cov = n /\ mcols cov = n /\ length XTy = n.

  Lemma sweep_ok : forall n nr (cov : Mat N) XTy lamb c betaOld, shapes n cov XTy -> length betaOld = n -> corr_ok n c ->
    forall iter cdb beta, length cdb = n -> length beta = n -> (forall j, In j iter -> (j < n)%nat) ->
    exists cdb' beta', for_each iter (crd_coord nr cov XTy betaOld lamb c) (cdb, beta) = Ok (cdb', beta') /\
      length cdb' = n /\ length beta' = n /\ forall j, ~ In j iter -> nth j beta' n0 = nth j beta n0.
  Proof.
    intros n nr cov XTy lamb c betaOld (Hn & H1 & H2 & H3) H4 H5.
    induction iter as [|j iter IH]; intros cdb beta Hc Hb Hi.
    - exists cdb, beta. cbn [for_each]. auto.
    - cbn [for_each].
      destruct (coord_ok n nr cov XTy betaOld lamb c j cdb beta H1 H2 H3 H4 Hc Hb H5) as (d & cdb' & _ & E & A & _);
        [apply Hi; left; reflexivity|].
      rewrite E. cbn [bind].
      destruct (IH cdb' (upd beta j (new_coeff nr cov XTy betaOld cdb lamb d j))) as (cdb2 & beta2 & E2 & A2 & B2 & C2).
      + exact A.
      + rewrite upd_length. exact Hb.
      + intros k Hk. apply Hi. right. exact Hk.
      + exists cdb2, beta2. split; [exact E2|]. split; [exact A2|]. split; [exact B2|].
        intros k Hk. rewrite C2 by (intro C; apply Hk; right; exact C). rewrite nth_upd.
        destruct (Nat.eqb_spec k j); [exfalso; apply Hk; left; congruence|reflexivity].
  Qed.

  Lemma change_ok : forall n (beta betaOld : list N) iter, length beta = n -> length betaOld = n ->
    (forall j, In j iter -> (j < n)%nat) -> exists p, crd_change beta betaOld iter = Ok p.
  Proof.
    intros n beta betaOld iter H1 H2 H3. unfold crd_change.
    generalize (n0 (N := N), n0 (N := N)). induction iter as [|j iter IH]; intros [a b].
    - exists (a, b). reflexivity.
    - cbn [for_each]. assert (Hj : (j < n)%nat) by (apply H3; left; reflexivity).
      rewrite (getn_lt _ beta j n0), (getn_lt _ betaOld j n0) by lia. cbn [bind].
      apply IH. intros k Hk. apply H3. right. exact Hk.
  Qed.

  (** invariant of the outer loop *)
  Record GInv (n : nat) (st : Crd N) : Prop := mkGInv {
    gi_beta : length (crBeta st) = n;
    gi_old : crOld st = crBeta st;
    gi_cdb : length (crCdb st) = n;
    gi_iter : forall j, In j (crIter st) -> (1 <= j < n)%nat;
    gi_nodup : NoDup (crIter st);
    gi_cover : forall j, (1 <= j < n)%nat -> active (crBeta st) j = true -> In j (crIter st);
    gi_zero : nth 0 (crBeta st) n0 = n0;
    gi_corr : corr_ok n (crCorr st)
  }.

  Lemma iter_ok : forall n nr cov XTy lamb tol st, shapes n cov XTy -> GInv n st ->
    exists st' mc mx, crd_iter nr cov XTy lamb tol st = Ok st' /\ GInv n st' /\
      for_each (crIter st) (crd_coord nr cov XTy (crBeta st) lamb (crCorr st)) (crCdb st, crBeta st)
        = Ok (crCdb st', crBeta st') /\
      crIter st' = filter (active (crBeta st')) (crIter st) /\
      (forall j, ~ In j (crIter st) -> nth j (crBeta st') n0 = nth j (crBeta st) n0) /\
      crCorr st' = Update (crCorr st) (crBeta st') /\
      crd_change (crBeta st') (crBeta st) (crIter st) = Ok (mc, mx) /\
      crConv st' = nltb (mc / mx)%num tol /\
      (crStop st' = true -> crConv st' = true).
  Proof.
    intros n nr cov XTy lamb tol st Hsh G. pose proof Hsh as (Hn & H1 & H2 & H3).
    unfold crd_iter. rewrite (gi_old _ _ G).
    destruct (sweep_ok n nr cov XTy lamb (crCorr st) (crBeta st) Hsh (gi_beta _ _ G) (gi_corr _ _ G)
      (crIter st) (crCdb st) (crBeta st)) as (cdb & beta & E & A & B & C).
    { exact (gi_cdb _ _ G). } { exact (gi_beta _ _ G). } { intros j Hj. apply (gi_iter _ _ G j Hj). }
    rewrite E. cbn [bind].
    destruct (change_ok n beta (crBeta st) (crIter st) B (gi_beta _ _ G)) as ([mc mx] & Ec).
    { intros j Hj. apply (gi_iter _ _ G j Hj). }
    rewrite Ec. cbn [bind].
    rewrite compact_eq by (intros j Hj; rewrite B; apply (gi_iter _ _ G j Hj)). cbn [bind].
    assert (Eold : go_copy (crBeta st) beta = beta).
    { unfold go_copy. rewrite (gi_beta _ _ G), <- B, firstn_all. rewrite skipn_all2; [apply app_nil_r|].
      rewrite (gi_beta _ _ G), B. lia. }
    rewrite Eold.
    assert (Hcov : forall j, (1 <= j < n)%nat -> active beta j = true -> In j (filter (active beta) (crIter st))).
    { intros j Hj Ha. apply filter_In. split; [|exact Ha].
      destruct (in_dec Nat.eq_dec j (crIter st)) as [Hin|Hin]; [exact Hin|].
      apply (gi_cover _ _ G); [exact Hj|]. unfold active in *. rewrite (C j Hin) in Ha. exact Ha. }
    assert (Hz : nth 0 beta n0 = n0).
    { rewrite C; [apply (gi_zero _ _ G)|]. intro Hin. apply (gi_iter _ _ G) in Hin. lia. }
    assert (HG : forall it cv sp, it = filter (active beta) (crIter st) ->
      GInv n (mkCrd beta beta cdb it cv (Update (crCorr st) beta) sp)).
    { intros it cv sp ->. constructor; cbn [crBeta crOld crCdb crIter crCorr]; auto.
      - intros j Hj. apply filter_In in Hj. apply (gi_iter _ _ G j (proj1 Hj)).
      - apply NoDup_filter. apply (gi_nodup _ _ G).
      - apply Update_ok; [apply (gi_corr _ _ G)|exact B]. }
    destruct (nltb (mc / mx)%num tol) eqn:Ecv.
    - destruct (unsat_ok n XTy cdb beta lamb (Update (crCorr st) beta) Hn H3 A B) as (uns & Eu & Hu).
      { apply Update_ok; [apply (gi_corr _ _ G)|exact B]. }
      rewrite Eu. cbn [bind].
      destruct (length uns =? 0)%nat.
      + eexists. exists mc, mx. split; [reflexivity|]. cbn [crBeta crCdb crIter crCorr crConv crStop].
        split; [apply HG; reflexivity|]. rewrite Ecv. auto 10.
      + assert (En : map Z.to_nat (UnionInt (map Z.of_nat (filter (active beta) (crIter st))) uns)
                     = filter (active beta) (crIter st)).
        { rewrite union_noop.
          - rewrite map_map. rewrite <- (map_id (filter (active beta) (crIter st))) at 2.
            apply map_ext. intro; apply Nat2Z.id.
          - intros z Hz'. destruct (Hu z Hz') as (i & -> & Hi & Ha). apply in_map. apply Hcov; assumption. }
        rewrite En. eexists. exists mc, mx. split; [reflexivity|]. cbn [crBeta crCdb crIter crCorr crConv crStop].
        split; [apply HG; reflexivity|]. rewrite Ecv. auto 10.
    - eexists. exists mc, mx. split; [reflexivity|]. cbn [crBeta crCdb crIter crCorr crConv crStop].
      split; [apply HG; reflexivity|]. rewrite Ecv. split; [reflexivity|]. split; [reflexivity|].
      split; [exact C|]. split; [reflexivity|]. split; [exact Ec|]. split; [reflexivity|]. discriminate.
  Qed.

  (** ** start *)

  Lemma mulslice_ok : forall (X : Mat N) v, length v = mcols X ->
    exists r, MulSlice X v = Ok r /\ length r = mrows X.
  Proof.
    intros X v Hv. unfold MulSlice. rewrite Hv, Nat.eqb_refl. cbn [negb].
    match goal with |- context [for_loop 0 ?k ?b ?s] =>
      destruct (for_loop_inv _ (fun _ (l : list N) => length l = mrows X) b k 0%nat s) as (l & E & H) end.
    - apply repeat_length.
    - intros i l Hi Hl.
      match goal with |- context [for_loop 0 ?k ?b ?s] =>
        destruct (for_loop_inv _ (fun _ (l : list N) => length l = mrows X) b k 0%nat s) as (l' & E & H) end.
      + exact Hl.
      + intros j l2 Hj Hl2. rewrite (getn_lt _ l2 i n0) by lia. cbn [bind]. rewrite mat_at_in by lia. cbn [bind].
        rewrite (getn_lt _ v j n0) by lia. cbn [bind]. rewrite setn_lt by lia. eexists. split; [reflexivity|].
        rewrite upd_length. exact Hl2.
      + exists l'. auto.
    - exists l. auto.
  Qed.

  Lemma start_iter : forall n, for_loop 1 n (fun i l => setn l (i - 1) i) (repeat 0%nat n) = Ok (seq 1 n).
  Proof.
    intro n.
    destruct (for_loop_inv _ (fun k (l : list nat) => length l = n /\ forall p, (p < k - 1)%nat -> nth p l 0%nat = S p)
      (fun i l => setn l (i - 1) i) n 1%nat (repeat 0%nat n)) as (l & E & H1 & H2).
    - split; [apply repeat_length|]. intros; lia.
    - intros k l Hk (H1 & H2). rewrite setn_lt by lia. eexists. split; [reflexivity|].
      split; [rewrite upd_length; exact H1|]. intros p Hp. rewrite nth_upd.
      destruct (Nat.eqb_spec p (k - 1)).
      + replace (k - 1 <? length l)%nat with true by (symmetry; apply Nat.ltb_lt; lia). lia.
      + apply H2. lia.
    - rewrite E. f_equal. apply nth_ext with (d := 0%nat) (d' := 0%nat); [rewrite seq_length; exact H1|].
      intros p Hp. rewrite seq_nth by lia. rewrite H2 by lia. reflexivity.
  Qed.

  Lemma start_ok : forall n (cov : Mat N) c, (0 < n)%nat -> mrows cov = n -> mcols cov = n -> corr_ok n c ->
    exists st, crd_start cov n c = Ok st /\ GInv n st /\ crBeta st = repeat n0 n /\ crIter st = seq 1 (n - 1) /\
      crCorr st = c /\ crStop st = false /\ crConv st = false /\ MulSlice cov (repeat n0 n) = Ok (crCdb st).
  Proof.
    intros n cov c Hn H1 H2 Hc. unfold crd_start. rewrite start_iter. cbn [bind].
    destruct (mulslice_ok cov (repeat n0 n)) as (cdb & E & Hl); [rewrite repeat_length; lia|].
    rewrite E. cbn [bind]. eexists. split; [reflexivity|].
    cbn [crBeta crIter crCorr crStop crConv crCdb]. split; [|auto 10].
    constructor; cbn [crBeta crOld crCdb crIter crCorr].
    - apply repeat_length.
    - reflexivity.
    - lia.
    - intros j Hj. apply in_seq in Hj. lia.
    - apply seq_NoDup.
    - intros j Hj _. apply in_seq. lia.
    - destruct n; [lia|reflexivity].
    - exact Hc.
  Qed.

  (** ** runs *)

  (** [sweeps k st st']: st' is reached from st by k passes, none of which
      but possibly the last took the break *)
  Inductive sweeps (nr : nat) (cov : Mat N) (XTy : list N) (lamb tol : N) : nat -> Crd N -> Crd N -> Prop :=
  | sw_O : forall st, sweeps nr cov XTy lamb tol 0 st st
  | sw_S : forall k st st1 st2, sweeps nr cov XTy lamb tol k st st1 -> crStop st1 = false ->
      crd_iter nr cov XTy lamb tol st1 = Ok st2 -> sweeps nr cov XTy lamb tol (S k) st st2.

  Lemma sweeps_inv : forall n nr cov XTy lamb tol k st st', shapes n cov XTy -> GInv n st ->
    sweeps nr cov XTy lamb tol k st st' -> GInv n st'.
  Proof.
    intros n nr cov XTy lamb tol k st st' Hsh G H. induction H as [st|k st st1 st2 H IH Hs E]; [exact G|].
    destruct (iter_ok n nr cov XTy lamb tol st1 Hsh (IH G)) as (st' & mc & mx & E' & G' & _).
    rewrite E in E'. injection E' as <-. exact G'.
  Qed.

  Lemma sweeps_left : forall nr cov XTy lamb tol k st st1 st2,
    crStop st = false -> crd_iter nr cov XTy lamb tol st = Ok st1 -> (crStop st1 = false \/ k = 0%nat) ->
    sweeps nr cov XTy lamb tol k st1 st2 -> sweeps nr cov XTy lamb tol (S k) st st2.
  Proof.
    intros nr cov XTy lamb tol k st st1 st2 Hs E Hst H. induction H as [|k s s1 s2 H IH Hs1 E1].
    - econstructor; [constructor|exact Hs|exact E].
    - econstructor; [|exact Hs1|exact E1]. apply IH; [exact E|].
      destruct k; [right; reflexivity|left; destruct Hst; [assumption|lia]].
  Qed.

  Lemma loop_sweeps : forall n nr cov XTy lamb tol, shapes n cov XTy -> forall k st, GInv n st -> crStop st = false ->
    exists j st', crd_loop nr cov XTy lamb tol k st = Ok st' /\ (j <= k)%nat /\
      sweeps nr cov XTy lamb tol j st st' /\ ((j < k)%nat -> crStop st' = true) .
  Proof.
    intros n nr cov XTy lamb tol Hsh. induction k as [|k IH]; intros st G Hs.
    - exists 0%nat, st. cbn [crd_loop]. split; [reflexivity|]. split; [lia|]. split; [constructor|lia].
    - cbn [crd_loop]. destruct (iter_ok n nr cov XTy lamb tol st Hsh G) as (st1 & mc & mx & E & G1 & _).
      rewrite E. cbn [bind]. destruct (crStop st1) eqn:Es.
      + exists 1%nat, st1. split; [reflexivity|]. split; [lia|]. split; [|intros _; exact Es].
        econstructor; [constructor|exact Hs|exact E].
      + destruct (IH st1 G1 Es) as (j & st' & E' & Hj & Hsw & Hst). exists (S j), st'.
        split; [exact E'|]. split; [lia|]. split.
        * apply sweeps_left with st1; auto.
        * intro. apply Hst. lia.
  Qed.

  Lemma loop_split : forall nr (cov : Mat N) (XTy : list N) (lamb tol : N) a b (st : Crd N),
    crd_loop nr cov XTy lamb tol (a + b) st =
    if crStop st then crd_loop nr cov XTy lamb tol (a + b) st else
    do st1 <- crd_loop nr cov XTy lamb tol a st;
    if crStop st1 then Ok st1 else crd_loop nr cov XTy lamb tol b st1.
  Proof.
    intros nr cov XTy lamb tol a b. induction a as [|a IH]; intro st.
    - destruct (crStop st) eqn:E; [reflexivity|]. cbn [crd_loop bind Nat.add]. rewrite E. reflexivity.
    - destruct (crStop st); [reflexivity|]. cbn [crd_loop Nat.add].
      destruct (crd_iter nr cov XTy lamb tol st) as [st1| |]; cbn [bind]; try reflexivity.
      destruct (crStop st1) eqn:E1; cbn [bind]; [rewrite E1; reflexivity|].
      rewrite IH, E1. reflexivity.
  Qed.

  (** once at least one pass was made the indices are exactly the active ones *)
  Lemma sweeps_active : forall n nr cov XTy lamb tol k st st', shapes n cov XTy -> GInv n st ->
    sweeps nr cov XTy lamb tol (S k) st st' -> forall j, In j (crIter st') -> active (crBeta st') j = true.
  Proof.
    intros n nr cov XTy lamb tol k st st' Hsh G H j Hj. inversion H as [|k' s s1 s2 H' Hs E]; subst.
    destruct (iter_ok n nr cov XTy lamb tol s1 Hsh (sweeps_inv _ _ _ _ _ _ _ _ _ Hsh G H')) as (st2 & mc & mx & E' & _ & _ & Ei & _).
    rewrite E in E'. injection E' as <-. rewrite Ei in Hj. apply filter_In in Hj. apply Hj.
  Qed.

  (** coordinates outside the index list keep their value for ever *)
  Lemma sweeps_frozen : forall n nr cov XTy lamb tol k st st', shapes n cov XTy -> GInv n st ->
    sweeps nr cov XTy lamb tol k st st' -> incl (crIter st') (crIter st) /\
    forall j, ~ In j (crIter st) -> nth j (crBeta st') n0 = nth j (crBeta st) n0.
  Proof.
    intros n nr cov XTy lamb tol k st st' Hsh G H. induction H as [st|k st st1 st2 H IH Hs E].
    - split; [apply incl_refl|reflexivity].
    - destruct (IH G) as [I1 I2].
      destruct (iter_ok n nr cov XTy lamb tol st1 Hsh (sweeps_inv _ _ _ _ _ _ _ _ _ Hsh G H)) as (st' & mc & mx & E' & _ & _ & Ei & Ef & _).
      rewrite E in E'. injection E' as <-. split.
      + intros j Hj. rewrite Ei in Hj. apply filter_In in Hj. apply I1. apply Hj.
      + intros j Hj. rewrite Ef by (intro C; apply Hj; apply I1; exact C). apply I2. exact Hj.
  Qed.
End Crd.
