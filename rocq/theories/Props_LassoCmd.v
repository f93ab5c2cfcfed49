(** C74: what the lasso command writes. *)
From Coq Require Import FunctionalExtensionality String Sorted Permutation Reals Lra.
From Verif Require Import Base Num Mat Model_Node Model_Util Model_Norm Model_Fit Model_CSV Model_Lars Model_Path Model_Cmd
  RSum Stats Proof_Util Proof_XR Proof_Norm Proof_Norm2 Spec_Fit Spec_Lars Spec_Path Proof_Homotopy Proof_Lars2 Proof_Fit
  Eval Ex_Nested Props_Util Props_Fit Spec_LassoCmd Proof_LassoCmd Proof_Cmd Props_CSV Props_Norm Props_Lars Props_Path Props_Cmd.
Open Scope R_scope.

Lemma of_nat_inj : forall a b, map Z.of_nat a = map Z.of_nat b -> a = b.
Proof.
  induction a as [|u a IH]; intros [|v b] H; try discriminate H; [reflexivity|]. cbn [map] in H. injection H as H1 H2.
  f_equal; [lia|auto].
Qed.

Lemma aicc_fin : forall k m r, 0 < r -> exists a, Aicc (N := XR) k m (fin r) = fin a.
Proof.
  intros k m r Hr. unfold Aicc, Aic.
  assert (L : nlog (n := XR) (fin r) = fin (ln r)).
  { cbn. unfold xlog. rewrite (proj2 (Rltb_true _ _)) by exact Hr. reflexivity. }
  rewrite L. destruct (Z.leb_spec (m - 1) k) as [H|H].
  - eexists. change (n1 (N := XR)) with (fin 1). change (nofZ (n := XR)) with (fun z => fin (IZR z)). cbn beta.
    rewrite xdiv_fin by lra. rewrite !xmul_fin, !xadd_fin. reflexivity.
  - eexists. change (nofZ (n := XR)) with (fun z => fin (IZR z)). cbn beta.
    rewrite xdiv_fin by (apply not_0_IZR; lia). rewrite !xmul_fin, !xadd_fin. reflexivity.
Qed.
Lemma bic_fin : forall k m r, (0 < m)%Z -> 0 < r -> exists a, Bic (N := XR) k m (fin r) = fin a.
Proof.
  intros k m r Hm Hr. unfold Bic.
  assert (L : forall r, 0 < r -> nlog (n := XR) (fin r) = fin (ln r)).
  { intros q Hq. cbn. unfold xlog. rewrite (proj2 (Rltb_true _ _)) by exact Hq. reflexivity. }
  change (nofZ (n := XR)) with (fun z => fin (IZR z)). cbn beta. rewrite !L by (try apply IZR_lt; assumption).
  eexists. rewrite !xmul_fin, !xadd_fin. reflexivity.
Qed.
Lemma finite_fin : forall r, finite (N := XR) (fin r) = true. Proof. reflexivity. Qed.

(** What is written for one model of the path: the features [E] with intercept
    [b0] and coefficients [w], for the penalty [l].  It uses the bias column
    and at least one other, its scores are those of its own squared error on the
    data of the file, and no other model has a smaller lasso objective, up to
    2e-6 times the size of the other model. *)
Definition written_node (m n : nat) (x : nat -> nat -> R) (y : list R) (lambMin : R)
    (node : LassoLarsNode XR) (aicc bic : XR) : Prop :=
  exists E b0 w l,
    lnSelection node = 0%Z :: map Z.of_nat E /\ lnCoeff node = fins (b0 :: w) /\ lnLamb node = fin l /\
    lambMin < l /\ length w = length E /\ E <> [] /\ StronglySorted lt E /\ (forall f, In f E -> (0 < f < n)%nat) /\
    aicc = Aicc (Z.of_nat (S (length E))) (Z.of_nat m) (fin (squared_error m n x y b0 (spread E w))) /\
    bic = Bic (Z.of_nat (S (length E))) (Z.of_nat m) (fin (squared_error m n x y b0 (spread E w))) /\
    0 < squared_error m n x y b0 (spread E w) /\
    forall c0 c, objective m n x y l b0 (spread E w) <= objective m n x y l c0 c + 2 / 1000000 * size m n x y c.

Lemma sorted_nat : forall E, StronglySorted Z.lt (map Z.of_nat E) -> StronglySorted lt E.
Proof.
  induction E as [|a E IH]; intro H; [constructor|]. cbn [map] in H. apply StronglySorted_inv in H. destruct H as (H1 & H2).
  constructor; [auto|]. apply Forall_forall. intros b Hb. rewrite Forall_forall in H2.
  specialize (H2 (Z.of_nat b) (in_map _ _ _ Hb)). lia.
Qed.

Lemma table_ok : forall srt (nodes : list (LassoLarsNode XR)) aicc bic num, sort_spec byValueLess srt ->
  length aicc = length nodes -> length bic = length nodes ->
  exists rows, PrintHighscore srt nodes aicc bic num = Ok rows.
Proof.
  intros srt nodes aicc bic num HS Ha Hb. unfold PrintHighscore.
  destruct (Argsort_spec XR XR_OrdLaws srt aicc HS) as (s & E & P & _). rewrite E. cbn [bind].
  assert (Ls : length s = length aicc) by (rewrite (Permutation_length P), seq_length; reflexivity).
  match goal with |- exists rows, for_loop 0 ?k ?b ?s = _ => destruct (for_loop_inv _ (fun _ _ => True) b k 0%nat s I) as (r & Er & _) end; [|eauto].
  intros i rows Hi _. assert (Hi' : (i < length s)%nat).
  { destruct (Z.ltb_spec (Z.of_nat (length aicc)) num); lia. }
  destruct (nth_error s i) as [v|] eqn:Ev; [|apply nth_error_None in Ev; lia].
  assert (Hv : (v < length aicc)%nat).
  { apply nth_error_In in Ev. apply (Permutation_in _ P) in Ev. apply in_seq in Ev. lia. }
  unfold getn. rewrite Ev. cbn [bind].
  destruct (nth_error nodes v) eqn:E1; [|apply nth_error_None in E1; lia].
  destruct (nth_error aicc v) eqn:E2; [|apply nth_error_None in E2; lia].
  destruct (nth_error bic v) eqn:E3; [|apply nth_error_None in E3; lia].
  cbn [bind]. eexists. split; [reflexivity|exact I].
Qed.

Section Command.
  Variables (cd : CDParam XR) (P : cdState cd -> Prop) (est : cdState cd) (fuel : nat)
    (srt : list (XR * nat) -> list (XR * nat))
    (crdF : (Mat XR -> res (Mat XR)) -> NormalizedData XR -> list XR -> XR -> res (list (LassoLarsNode XR)))
    (thr : Mat XR -> res XR)
    (d : Dataset XR) (x : nat -> nat -> R) (y : list R) (lambMin : R) (nd : NormalizedData XR) (path : list (LassoLarsNode XR)).
  Let m := mrows (dsX d).
  Let n := mcols (dsX d).
  Hypotheses (Hsrt : sort_spec byValueLess srt) (Hm : (0 < m)%nat) (Hn : (0 < n)%nat)
    (HX : rmat (dsX d) x) (HY : dsY d = fins y) (Hy : length y = m)
    (Hb : forall i, (i < m)%nat -> x i 0%nat = 1)
    (Hs : forall k, (0 < k < n)%nat -> / 10 ^ 10 <= sdev (column m x k)) (HsY : 0 < sdev y)
    (FR : full_rank m n x) (Hl : 0 <= lambMin)
    (End : NewNormalizedData (dsX d) (dsY d) = Ok nd).

  Lemma the_nd : exists X', nd = mkND X' (fins (standard_y y))
        (fins (map (fun c => sdev (rcol m x c)) (seq 0 n))) (fins (map (fun c => mean (rcol m x c)) (seq 0 n)))
        (fin (sdev y)) (fin (mean y)) true /\ mrows X' = m /\ mcols X' = n /\ rmat X' (standard_x m x).
  Proof.
    assert (Et : tol10 = / 10 ^ 10).
    { unfold tol10. change (10 ^ 10)%Z with 10000000000%Z. field. }
    assert (Hyn : y <> []) by (intros ->; cbn in Hy; lia).
    destruct (nnd_ok (dsX d) x HX Hm y Hyn) as (X' & E & R1 & C1 & M1).
    { intros c Hcc. rewrite Et. apply Hs. exact Hcc. }
    assert (Hall : forall v, In v (rcol m x 0) -> v = 1).
    { intros v Hv. unfold rcol in Hv. apply in_map_iff in Hv. destruct Hv as (i & <- & Hi). apply in_seq in Hi. apply Hb. lia. }
    assert (Hne := rcol_ne m x 0 Hm).
    assert (Hmean : mean (rcol m x 0) = 1).
    { unfold mean. rewrite (map_ext_in_lsum _ 1 Hall). pose proof (len_pos _ _ Hne). field. lra. }
    assert (Hsd0 : sdev (rcol m x 0) = 0) by (apply sdev_zero; [exact Hne|]; intros v Hv; rewrite Hmean; apply Hall; exact Hv).
    fold m in E, R1, M1. fold n in E, C1.
    rewrite Hsd0, (proj2 (Rltb_true 0 tol10) tol10_pos), (proj2 (Nat.ltb_lt 0 n) Hn) in E. cbn [andb] in E.
    unfold ydone in E. rewrite Reqb_ne in E by lra. rewrite HY in End. rewrite End in E. injection E as ->.
    exists X'. split; [reflexivity|]. split; [exact R1|]. split; [exact C1|].
    intros i k Hi Hk. rewrite (M1 i k Hi Hk). f_equal. unfold normed. fold m. destruct k as [|k]; cbn [standard_x].
    - rewrite Hmean, Hb by lia. unfold Rdiv. ring.
    - unfold scale. change (rcol m x (S k)) with (column m x (S k)).
      rewrite (proj2 (Rltb_false _ _)) by (rewrite Et; apply Hs; lia). reflexivity.
  Qed.

  Hypotheses (HE : exact_cd (ndX nd) (standard_x m x) (standard_y y) cd P) (HP : P (cdSetX cd est (ndX nd)))
    (EL : LassoLars cd est nd (fin lambMin) fuel = Ok path)
    (NT : no_ties m n (standard_x m x) (fun i => nth i (standard_y y) 0) path).

  Lemma fit_lars : forall lambMax num cov tol,
    exists rows j nodes aicc bic d',
      lassoFit srt (fun nd l => LassoLars cd est nd l fuel) crdF thr (Some d) (fin lambMin) lambMax num "lars" cov tol =
        Ok (mkLassoOut (Some rows) (Some j)) /\
      PrintHighscore srt nodes aicc bic 20 = Ok rows /\
      LassoLarsPathFromBytes j = Ok (mkPath d' nodes, aicc, bic) /\
      meq (dsX d') (dsX d) /\ dsY d' = dsY d /\ dsNames d' = dsNames d /\ dsTargetCol d' = dsTargetCol d /\
      length nodes = length path /\ length aicc = length path /\ length bic = length path /\
      (forall i node a b, nth_error nodes i = Some node -> nth_error aicc i = Some a -> nth_error bic i = Some b ->
         written_node m n x y lambMin node a b).
  Proof.
    intros lambMax num cov tol.
    destruct the_nd as (X' & En & R1 & C1 & M1).
    assert (Hsd : forall k, (0 < k < n)%nat -> 0 < sdev (column m x k)).
    { intros k Hk. specialize (Hs k Hk). assert (0 < / 10 ^ 10) by (apply Rinv_0_lt_compat, pow_lt; lra). lra. }
    assert (En' : n = S (n - 1)) by lia.
    assert (Ind : independent m n (standard_x m x)).
    { rewrite En'. apply standard_independent with (y := y); try assumption.
      - intros k Hk. apply Hsd. lia.
      - rewrite <- En'. exact FR. }
    (* the nodes of the path *)
    pose proof (lars_path XR XR_OrdLaws ltac:(cbn; apply Rltb_false; lra) eq_refl cd est nd (fin lambMin) fuel path EL) as (Good & _ & _).
    rewrite Forall_forall in Good.
    assert (Shape : ndX nd = X' /\ ndy nd = fins (standard_y y)) by (rewrite En; split; reflexivity).
    destruct Shape as (EX & Ey). rewrite EX in *.
    assert (Ly : length (standard_y y) = mrows X') by (unfold standard_y; rewrite map_length, R1; exact Hy).
    assert (HX' : rmat (ndX nd) (standard_x m x)) by (rewrite EX; exact M1).
    assert (Node : forall node, In node path -> exists E v l s, lnSelection node = map Z.of_nat E /\ lnCoeff node = fins v /\
      lnLamb node = fin l /\ lambMin < l /\ length v = length E /\ E <> [] /\ StronglySorted lt E /\ (forall f, In f E -> (0 < f < n)%nat) /\
      (forall f, In f E -> (s f = 1 \/ s f = -1) /\
        corr m n (standard_x m x) (fun i => nth i (standard_y y) 0) (spread E v) f = l * s f) /\
      forall b', lasso_cost m n (standard_x m x) (fun i => nth i (standard_y y) 0) l (spread E v) <=
        lasso_cost m n (standard_x m x) (fun i => nth i (standard_y y) 0) l b' + 2 / 1000000 * rsum n (fun k => Rabs (b' k))).
    { intros node Hin. destruct (Good node Hin) as (G1 & G2 & G3 & G4 & G5).
      pose proof (C37_stationary nd (standard_x m x) (standard_y y) cd P est (fin lambMin) fuel path HX' Ey) as St.
      pose proof (C37_lasso_optimal nd (standard_x m x) (standard_y y) cd P est lambMin fuel path HX' Ey) as Op.
      rewrite EX in St, Op.
      destruct (St Ly HE HP (or_introl (proj2 (xlt_false lambMin 0) Hl)) EL node Hin) as (E & v & l & s & N1 & N2 & N3 & N4 & N5).
      rewrite R1, C1 in *.
      destruct (Op Ly HE HP Ind Hl EL NT node Hin) as (E' & v' & l' & O1 & O2 & O3 & O4 & O5).
      assert (E' = E) by (apply of_nat_inj; congruence). subst E'. assert (v' = v) by (apply fins_inj; congruence). subst v'.
      assert (l' = l) by (rewrite N3 in O3; injection O3; auto). subst l'.
      rewrite N3 in G5. apply (proj1 (xlt_true _ _)) in G5. rewrite N1 in G1, G2, G3.
      exists E, v, l, s. split; [exact N1|]. split; [exact N2|]. split; [exact N3|]. split; [exact G5|]. split; [exact N4|].
      split; [intros ->; apply G2; reflexivity|]. split; [apply sorted_nat; exact G1|]. split; [|split; [exact N5|exact O5]].
      intros f Hf. specialize (G3 (Z.of_nat f) (in_map _ _ _ Hf)). destruct f as [|f]; [|lia]. exfalso.
      destruct (N5 0%nat Hf) as (S1 & S2). assert (Z0 : corr m n (standard_x m x) (fun i => nth i (standard_y y) 0) (spread E v) 0 = 0).
      { unfold corr. apply rsum_0'. intros i Hi. cbn [standard_x]. ring. }
      rewrite Z0 in S2. destruct S1 as [S1|S1]; rewrite S1 in S2; lra. }
    (* conversion *)
    set (conv := fun node node' : LassoLarsNode XR => exists E v l s,
      lnSelection node = map Z.of_nat E /\ lnCoeff node = fins v /\ lnLamb node = fin l /\ lambMin < l /\ length v = length E /\ E <> [] /\
      StronglySorted lt E /\ (forall f, In f E -> (0 < f < n)%nat) /\
      (forall f, In f E -> (s f = 1 \/ s f = -1) /\
        corr m n (standard_x m x) (fun i => nth i (standard_y y) 0) (spread E v) f = l * s f) /\
      (forall b', lasso_cost m n (standard_x m x) (fun i => nth i (standard_y y) 0) l (spread E v) <=
        lasso_cost m n (standard_x m x) (fun i => nth i (standard_y y) 0) l b' + 2 / 1000000 * rsum n (fun k => Rabs (b' k))) /\
      node' = mkLN (N := XR) (fins ((mean y - sdev y * shift m x (map Z.of_nat E) v) ::
        map (fun p => snd p * sdev y / sdev (rcol m x (Z.to_nat (fst p)))) (combine (map Z.of_nat E) v))) (fin l) (0%Z :: map Z.of_nat E)).
    destruct (Path2_Forall2 XR nd conv path) as (nodes & EP & F).
    { intros node Hin. destruct (Node node Hin) as (E & v & l & s & N1 & N2 & N3 & N4 & N5 & N6 & N7 & N8 & N9 & N10).
      destruct (unnormalize_xr m n x nd y ltac:(rewrite En; reflexivity) ltac:(rewrite En; reflexivity) ltac:(rewrite En; reflexivity)
        ltac:(rewrite En; reflexivity) (fin l) (map Z.of_nat E) v) as (cs' & Hcs' & EU).
      { rewrite map_length. symmetry. exact N5. }
      { intros u Hu. apply in_map_iff in Hu. destruct Hu as (f & <- & Hf). specialize (N8 f Hf). rewrite Nat2Z.id. split; [lia|]. split.
        - specialize (Hsd f N8). change (rcol m x f) with (column m x f). lra.
        - lia. }
      replace (mkLN (N := XR) (fins v) (fin l) (map Z.of_nat E)) with node in EU by (destruct node; cbn in *; subst; reflexivity).
      eexists. split; [exact EU|]. rewrite En. cbn [ndHasBias]. exists E, v, l, s. rewrite Hcs'. repeat (split; [assumption|]). reflexivity. }
    (* scores *)
    assert (CN : forall node', In node' nodes -> exists node, conv node node').
    { clear - F. induction F as [|a b la lb H _ IH]; intros node' Hin; [contradiction|]. destruct Hin as [<-|Hin]; eauto. }
    assert (Crit : forall node', In node' nodes -> exists w, lnCoeff node' = fins w /\ length w = length (lnSelection node') /\ lnSelection node' <> [] /\
      StronglySorted Z.lt (lnSelection node') /\ (forall v, In v (lnSelection node') -> (0 <= v < Z.of_nat n)%Z)).
    { intros node' Hin. destruct (CN node' Hin) as (node & E & v & l & s & N1 & N2 & N3 & N4 & N5 & N6 & N7 & N8 & _ & _ & ->).
      cbn [lnCoeff lnSelection]. eexists. split; [reflexivity|]. split; [cbn [length]; rewrite map_length, combine_length, map_length; lia|].
      split; [discriminate|]. split.
      - constructor.
        + clear - N7. induction N7 as [|a l _ IH H]; [constructor|]. cbn [map]. constructor; [exact IH|].
          apply Forall_forall. intros u Hu. apply in_map_iff in Hu. destruct Hu as (f & <- & Hf). rewrite Forall_forall in H. specialize (H f Hf). lia.
        + apply Forall_forall. intros u Hu. apply in_map_iff in Hu. destruct Hu as (f & <- & Hf). specialize (N8 f Hf). lia.
      - intros u [<-|Hu]; [lia|]. apply in_map_iff in Hu. destruct Hu as (f & <- & Hf). specialize (N8 f Hf). lia. }
    destruct (C61_criteria (mkPath d nodes) x y Aicc HX Hm HY Hy Crit) as (aicc & EA & LA & VA).
    destruct (C61_criteria (mkPath d nodes) x y Bic HX Hm HY Hy Crit) as (bic & EB & LB & VB).
    cbn [lpNodes lpDset] in *. fold m in VA, VB.
    assert (LF : length path = length nodes) by (clear - F; induction F; cbn; congruence).
    (* every node *)
    assert (Each : forall i node' a b, nth_error nodes i = Some node' -> nth_error aicc i = Some a -> nth_error bic i = Some b ->
      written_node m n x y lambMin node' a b).
    { intros i node' a b Hi Ha Hbi. destruct (CN node' (nth_error_In _ _ Hi)) as (node & E & v & l & s & N1 & N2 & N3 & N4 & N5 & N6 & N7 & N8 & N9 & N10 & En0).
      pose proof (SSlt_NoDup E N7) as ND.
      specialize (VA i node' _ Hi ltac:(rewrite En0; reflexivity)). specialize (VB i node' _ Hi ltac:(rewrite En0; reflexivity)).
      rewrite En0 in VA, VB. cbn [lnSelection] in VA, VB.
      rewrite (node_rss_error m (n - 1) x y Hm Hy) in VA, VB; try assumption; try (intros k Hk; apply Hsd; lia); try (intros f Hf; specialize (N8 f Hf); lia).
      rewrite <- En' in VA, VB. rewrite Ha in VA. rewrite Hbi in VB. injection VA as ->. injection VB as ->.
      rewrite En0. set (b0 := mean y - sdev y * _). set (w := map _ _).
      assert (HN8 : forall f, In f E -> (0 < f < S (n - 1))%nat) by (intros f Hf; specialize (N8 f Hf); lia).
      assert (Hsd' : forall k, (0 < k < S (n - 1))%nat -> 0 < sdev (column m x k)) by (intros k Hk; apply Hsd; lia).
      exists E, b0, w, l. cbn [lnSelection lnCoeff lnLamb]. split; [reflexivity|]. split; [reflexivity|]. split; [reflexivity|]. split; [exact N4|].
      split; [unfold w; rewrite map_length, combine_length, map_length; lia|]. split; [exact N6|]. split; [exact N7|]. split; [exact N8|].
      cbn [length]. rewrite map_length.
      split; [reflexivity|]. split; [reflexivity|]. split.
      - destruct E as [|f E]; [congruence|]. destruct (N9 f (or_introl eq_refl)) as (S1 & S2). rewrite En' in S2 |- *.
        refine (node_error_pos m (n - 1) x y Hm Hy HsY Hsd' (f :: E) v HN8 ND N5 f l (s f) (or_introl eq_refl) S1 _ S2). lra.
      - rewrite En' in N10 |- *. exact (node_optimal m (n - 1) x y Hm Hy HsY Hsd' E v HN8 ND N5 l (2 / 1000000) N10). }
    destruct (table_ok srt nodes aicc bic 20 Hsrt LA LB) as (rows & ER).
    destruct (C68_lasso_file_roundtrip XR d nodes aicc bic Hm Hn) as (j & d' & EJ & EF & D1 & D2 & D3 & D4).
    - intros i k Hi Hk. rewrite (HX i k Hi Hk). reflexivity.
    - intros u Hu. rewrite HY in Hu. apply in_map_iff in Hu. destruct Hu as (r & <- & _). reflexivity.
    - intros node' u Hin Hu. destruct (CN node' Hin) as (node & E & v & l & s & _ & _ & _ & _ & _ & _ & _ & _ & _ & _ & ->).
      cbn [lnCoeff lnLamb] in Hu. destruct Hu as [<-|Hu]; [reflexivity|]. apply in_map_iff in Hu. destruct Hu as (r & <- & _). reflexivity.
    - intros u [Hu|Hu]; apply In_nth_error in Hu; destruct Hu as (i & Hi).
      + assert (L : (i < length aicc)%nat) by (apply nth_error_Some; congruence).
        destruct (nth_error nodes i) as [node'|] eqn:E1; [|apply nth_error_None in E1; lia].
        destruct (nth_error bic i) as [b|] eqn:E2; [|apply nth_error_None in E2; lia].
        destruct (Each i node' u b E1 Hi E2) as (E & b0 & w & l & _ & _ & _ & _ & _ & _ & _ & _ & -> & _ & Q & _).
        destruct (aicc_fin (Z.of_nat (S (length E))) (Z.of_nat m) _ Q) as (a & ->). reflexivity.
      + assert (L : (i < length bic)%nat) by (apply nth_error_Some; congruence).
        destruct (nth_error nodes i) as [node'|] eqn:E1; [|apply nth_error_None in E1; lia].
        destruct (nth_error aicc i) as [a|] eqn:E2; [|apply nth_error_None in E2; lia].
        destruct (Each i node' a u E1 E2 Hi) as (E & b0 & w & l & _ & _ & _ & _ & _ & _ & _ & _ & _ & -> & Q & _).
        destruct (bic_fin (Z.of_nat (S (length E))) (Z.of_nat m) _ ltac:(lia) Q) as (b & ->). reflexivity.
    - exists rows, j, nodes, aicc, bic, d'. split.
      + unfold lassoFit. rewrite End. cbn [bind]. unfold lasso_path. cbn [String.eqb Ascii.eqb Bool.eqb]. rewrite EL. cbn [bind].
        unfold lasso_finish. rewrite EP. cbn [bind]. rewrite EA. cbn [bind]. rewrite EB. cbn [bind]. rewrite ER. cbn [bind]. rewrite EJ. reflexivity.
      + split; [exact ER|]. split; [exact EF|]. split; [exact D1|]. split; [exact D2|]. split; [exact D3|]. split; [exact D4|].
        split; [lia|]. split; [lia|]. split; [lia|exact Each].
  Qed.
End Command.

(** The lasso command with the LARS algorithm, in exact arithmetic with exact
    singular value decompositions, on a file with a bias column of ones, no
    linearly dependent columns, and no column or target that is (nearly)
    constant.  If LARS returns a path without ties, the command prints a table
    and writes a file from which the dataset and the models are read back: one
    model per point of the path, in the units of the data, with its own scores,
    each an (almost) optimal lasso model. *)
Theorem C74_lars_command : forall svd est fuel srt crdF thr (d : Dataset XR) x y lambMin lambMax num cov tol nd path,
  let m := mrows (dsX d) in let n := mcols (dsX d) in
  sort_spec byValueLess srt -> (0 < m)%nat -> (0 < n)%nat ->
  rmat (dsX d) x -> dsY d = fins y -> length y = m ->
  (forall i, (i < m)%nat -> x i 0%nat = 1) ->
  (forall k, (0 < k < n)%nat -> / 10 ^ 10 <= sdev (column m x k)) -> 0 < sdev y ->
  full_rank m n x -> 0 <= lambMin ->
  NewNormalizedData (dsX d) (dsY d) = Ok nd ->
  (forall E, StronglySorted lt E -> E <> [] -> (forall f, In f E -> (0 < f < n)%nat) ->
     exact_svd (icv_mat (ndX nd) (map Z.of_nat E)) (svd (icv_mat (ndX nd) (map Z.of_nat E))) /\
     no_tiny_sq (/ 1000000) (svd (icv_mat (ndX nd) (map Z.of_nat E)))) ->
  LassoLars (MorsePenroseCD svd) est nd (fin lambMin) fuel = Ok path ->
  no_ties m n (standard_x m x) (fun i => nth i (standard_y y) 0) path ->
  exists rows j nodes aicc bic d',
    lassoFit srt (fun nd l => LassoLars (MorsePenroseCD svd) est nd l fuel) crdF thr (Some d)
      (fin lambMin) lambMax num "lars" cov tol = Ok (mkLassoOut (Some rows) (Some j)) /\
    PrintHighscore srt nodes aicc bic 20 = Ok rows /\
    LassoLarsPathFromBytes j = Ok (mkPath d' nodes, aicc, bic) /\
    meq (dsX d') (dsX d) /\ dsY d' = dsY d /\ dsNames d' = dsNames d /\ dsTargetCol d' = dsTargetCol d /\
    length nodes = length path /\ length aicc = length path /\ length bic = length path /\
    (forall i node a b, nth_error nodes i = Some node -> nth_error aicc i = Some a -> nth_error bic i = Some b ->
       written_node m n x y lambMin node a b).
Proof.
  intros svd est fuel srt crdF thr d x y lambMin lambMax num cov tol nd path m n Hsrt Hm Hn HX HY Hy Hb Hs HsY FR Hl End HS EL NT.
  destruct (the_nd d x y nd Hm Hn HX HY Hy Hb Hs HsY End) as (X' & En & R1 & C1 & M1).
  assert (Hsd : forall k, (0 < k < n)%nat -> 0 < sdev (column m x k)).
  { intros k Hk. specialize (Hs k Hk). assert (0 < / 10 ^ 10) by (apply Rinv_0_lt_compat, pow_lt; lra). lra. }
  assert (En' : n = S (n - 1)) by lia.
  assert (EX : ndX nd = X') by (rewrite En; reflexivity).
  apply (fit_lars (MorsePenroseCD svd) (fun st => fst st = ndX nd) est fuel srt crdF thr d x y lambMin nd path); try assumption; [|reflexivity].
  rewrite EX in *. apply C37_morse_penrose_is_exact; try assumption.
  - rewrite R1. unfold standard_y. rewrite map_length. exact Hy.
  - rewrite R1. exact Hm.
  - rewrite R1, C1. fold m n. rewrite En'. apply standard_independent with (y := y); try assumption.
    + intros k Hk. apply Hsd. lia.
    + rewrite <- En'. exact FR.
  - intros E SS Hne HE HG. apply HS; [exact SS|exact Hne|]. intros f Hf. specialize (HE f Hf). rewrite C1 in HE. fold n in HE.
    destruct f as [|f]; [|lia]. destruct (HG 0%nat Hf) as (i & _ & C). exfalso. apply C. reflexivity.
Qed.
Print Assumptions C74_lars_command.

(** *** an example *)

(** bias, two orthogonal columns with deviation 2 and 1, and a target *)
Definition exc_x (i j : nat) : R :=
  match j with O => 1 | 1%nat => nth i [9; 5; 9; 5; 7] 0 | 2%nat => nth i [1; 1; -1; -1; 0] 0 | _ => 0 end.
Definition exc_y : list R := [15; 7; 9; 9; 10].
Definition exc_d : Dataset XR :=
  mkDataset (mkMat 5 3 (fun i j => if (i <? 5)%nat && (j <? 3)%nat then fin (exc_x i j) else fin 0)) (fins exc_y)
    ["one"; "a"; "b"; "t"]%string 3%Z.
Definition exc_z (i j : nat) : R :=
  match j with 1%nat => nth i [1; -1; 1; -1; 0] 0 | 2%nat => nth i [1; 1; -1; -1; 0] 0 | _ => 0 end.
Definition exc_X : Mat XR := mkMat 5 3 (fun i j => fin (exc_z i j)).
Definition exc_yz : list R := [5 / 3; -3 / 3; -1 / 3; -1 / 3; 0].
Definition exc_svd (M : Mat XR) : SVD XR :=
  mkSVD (fins (repeat 2 (mcols M))) (mkMat (mrows M) (mcols M) (fun i j => (mval M i j / nofZ 2)%num))
    (mkMat (mcols M) (mcols M) (fun i j => fin (delta i j))).
Definition exc_path : list (LassoLarsNode XR) :=
  [mkLN (N := XR) (fins [0]) (fin (8 / 3)) [1%Z]; mkLN (N := XR) (fins [1 / 3; 0]) (fin (4 / 3)) [1%Z; 2%Z]].

Lemma sdev_val : forall l s, (2 <= length l)%nat -> 0 <= s ->
  lsum (map (fun x => (x - mean l) * (x - mean l)) l) = INR (length l - 1) * (s * s) -> sdev l = s.
Proof.
  intros l s Hl Hs H. unfold sdev. rewrite (proj2 (Nat.leb_gt (length l) 1)) by lia. rewrite H.
  replace (INR (length l - 1) * (s * s) / INR (length l - 1)) with (s * s) by (field; apply not_0_INR; lia).
  apply sqrt_square. exact Hs.
Qed.
Lemma mean5 : forall a b c d e, mean [a; b; c; d; e] = (a + b + c + d + e) / 5.
Proof. intros. unfold mean, lsum. cbn. field. Qed.
Lemma sdev5 : forall a b c d e s, 0 <= s -> let mu := (a + b + c + d + e) / 5 in
  (a - mu) * (a - mu) + (b - mu) * (b - mu) + (c - mu) * (c - mu) + (d - mu) * (d - mu) + (e - mu) * (e - mu) = 4 * (s * s) ->
  sdev [a; b; c; d; e] = s.
Proof.
  intros a b c d e s Hs mu H. apply sdev_val; [cbn; lia|exact Hs|]. rewrite mean5. fold mu. unfold lsum. cbn [map fold_left length Nat.sub]. 
  change (INR 4) with (1 + 1 + 1 + 1). lra.
Qed.

Lemma exc_sd1 : sdev (column 5 exc_x 1) = 2. Proof. apply sdev5; [lra|]. cbn. lra. Qed.
Lemma exc_sd2 : sdev (column 5 exc_x 2) = 1. Proof. apply sdev5; [lra|]. cbn. lra. Qed.
Lemma exc_sdy : sdev exc_y = 3. Proof. apply sdev5; [lra|]. cbn. lra. Qed.
Lemma exc_mu1 : mean (column 5 exc_x 1) = 7. Proof. unfold column. cbn [map seq exc_x nth]. rewrite mean5. lra. Qed.
Lemma exc_mu2 : mean (column 5 exc_x 2) = 0. Proof. unfold column. cbn [map seq exc_x nth]. rewrite mean5. lra. Qed.
Lemma exc_muy : mean exc_y = 10. Proof. unfold exc_y. rewrite mean5. lra. Qed.

Lemma exc_standard : forall i k, (i < 5)%nat -> standard_x 5 exc_x i k = exc_z i k.
Proof.
  intros i k Hi. destruct k as [|[|[|k]]]; cbn [standard_x exc_z]; [reflexivity| | |].
  - rewrite exc_sd1, exc_mu1. destruct i as [|[|[|[|[|i]]]]]; try lia; cbn; lra.
  - rewrite exc_sd2, exc_mu2. destruct i as [|[|[|[|[|i]]]]]; try lia; cbn; lra.
  - cbn [exc_x]. replace (mean (column 5 exc_x (S (S (S k))))) with 0; [unfold Rdiv; ring|].
    unfold column. cbn [map seq exc_x]. rewrite mean5. lra.
Qed.
Lemma exc_standard_y : standard_y exc_y = exc_yz.
Proof. unfold standard_y. rewrite exc_sdy, exc_muy. unfold exc_y, exc_yz. cbn [map]. repeat (f_equal; [lra|]). f_equal; lra. Qed.

Notation exc_cd := (MorsePenroseCD exc_svd).
Lemma exc_start : forall est, lars_start (N := XR) exc_cd est exc_X (fins exc_yz) =
  Ok (mkLars (N := XR) (fin (8 / 3)) [1%nat] (fins [0; 1; 0]) None (fin 0) (exc_X, snd est) [] false).
Proof. intro est. unfold exc_yz. cmp. apply mkLars_eq; cmp. all: reflexivity. Qed.
Lemma exc_c1 : exists inv, mpSetActiveSet (N := XR) exc_svd exc_X [1%Z] = Ok (exc_svd (icv_mat exc_X [1%Z]), inv) /\
  mpD (N := XR) inv (fins [1]) = Ok (fins [1 / 4]).
Proof. eexists. split; [reflexivity|]. cmp. Qed.
Lemma exc_c2 : mpC (N := XR) (exc_svd (icv_mat exc_X [1%Z])) (fins exc_yz) = Ok (fins [2 / 3]).
Proof. unfold exc_yz. cmp. Qed.
Lemma exc_c3 : exists inv, mpSetActiveSet (N := XR) exc_svd exc_X [1%Z; 2%Z] = Ok (exc_svd (icv_mat exc_X [1%Z; 2%Z]), inv) /\
  mpD (N := XR) inv (fins [1; 1]) = Ok (fins [1 / 4; 1 / 4]).
Proof. eexists. split; [reflexivity|]. cmp. Qed.
Lemma exc_c4 : mpC (N := XR) (exc_svd (icv_mat exc_X [1%Z; 2%Z])) (fins exc_yz) = Ok (fins [2 / 3; 1 / 3]).
Proof. unfold exc_yz. cmp. Qed.
Lemma exc_step1 : forall est, exists o, lars_step (N := XR) exc_cd exc_X (fins exc_yz)
  (mkLars (N := XR) (fin (8 / 3)) [1%nat] (fins [0; 1; 0]) None (fin 0) (exc_X, est) [] false) =
  Ok (mkLars (N := XR) (fin (4 / 3)) [1%nat; 2%nat] (fins [0; 1; 1]) None (fin 0) (exc_X, o)
        [mkLN (N := XR) (fins [0]) (fin (8 / 3)) [1%Z]] false).
Proof.
  intro est. destruct exc_c1 as (inv & E1 & E2). exists (Some (exc_svd (icv_mat exc_X [1%Z]), inv)). unfold lars_step. cbn [laActive laSigns laLamb laEst laLastFeat laLastCoeff laRes length Nat.eqb].
  change (sort_ints [1%nat]) with [1%nat]. cbn [map Z.of_nat Pos.of_succ_nat].
  change (vec_view (N := XR) (fins [0; 1; 0]) [1%nat]) with (Ok (fins [1])). cbn [bind].
  change (cdSetActive exc_cd (exc_X, est) [1%Z]) with (do f <- mpSetActiveSet exc_svd exc_X [1%Z]; Ok (exc_X, Some f)).
  rewrite E1. cbn [bind]. 
  change (cdC exc_cd (exc_X, Some (exc_svd (icv_mat exc_X [1%Z]), inv)) (fins exc_yz)) with (mpC (exc_svd (icv_mat exc_X [1%Z])) (fins exc_yz)).
  rewrite exc_c2. cbn [bind].
  change (cdD exc_cd (exc_X, Some (exc_svd (icv_mat exc_X [1%Z]), inv)) (fins [1])) with (mpD inv (fins [1])).
  rewrite E2. cbn [bind]. generalize (Some (exc_svd (icv_mat exc_X [1%Z]), inv)). intro o.
  cmp. apply mkLars_eq; cmp. all: try (apply mkLN_eq; cmp). all: reflexivity.
Qed.
Lemma exc_step2 : forall est, exists o, lars_step (N := XR) exc_cd exc_X (fins exc_yz)
  (mkLars (N := XR) (fin (4 / 3)) [1%nat; 2%nat] (fins [0; 1; 1]) None (fin 0) (exc_X, est)
        [mkLN (N := XR) (fins [0]) (fin (8 / 3)) [1%Z]] false) =
  Ok (mkLars (N := XR) (fin 0) [2%nat] (fins [0; 1; 1]) (Some 1%nat) (fin (1 / 3)) (exc_X, o) exc_path false).
Proof.
  intro est. destruct exc_c3 as (inv & E1 & E2). set (E := [1%Z; 2%Z]) in *. exists (Some (exc_svd (icv_mat exc_X E), inv)).
  unfold lars_step. cbn [laActive laSigns laLamb laEst laLastFeat laLastCoeff laRes length Nat.eqb].
  change (sort_ints [1%nat; 2%nat]) with [1%nat; 2%nat]. change (map Z.of_nat [1%nat; 2%nat]) with E.
  change (vec_view (N := XR) (fins [0; 1; 1]) [1%nat; 2%nat]) with (Ok (fins [1; 1])). cbn [bind].
  change (cdSetActive exc_cd (exc_X, est) E) with (do f <- mpSetActiveSet exc_svd exc_X E; Ok (exc_X, Some f)).
  rewrite E1. cbn [bind].
  change (cdC exc_cd (exc_X, Some (exc_svd (icv_mat exc_X E), inv)) (fins exc_yz)) with (mpC (exc_svd (icv_mat exc_X E)) (fins exc_yz)).
  rewrite (exc_c4 : mpC (N := XR) (exc_svd (icv_mat exc_X E)) (fins exc_yz) = _). cbn [bind].
  change (cdD exc_cd (exc_X, Some (exc_svd (icv_mat exc_X E), inv)) (fins [1; 1])) with (mpD inv (fins [1; 1])).
  rewrite E2. cbn [bind]. generalize (Some (exc_svd (icv_mat exc_X E), inv)). intro o. subst E.
  cmp. apply mkLars_eq; cmp. all: try (apply mkLN_eq; cmp). all: reflexivity.
Qed.

Lemma exc_runs : forall est nd, ndX nd = exc_X -> ndy nd = fins exc_yz -> LassoLars exc_cd est nd (fin (/ 1000)) 10 = Ok exc_path.
Proof.
  intros est nd EX Ey.
  assert (L : forall a, / 1000 < a -> nltb (n := XR) (fin (/ 1000)) (fin a) = true) by (intros a Ha; apply Rltb_true; exact Ha).
  unfold LassoLars. rewrite EX, Ey, exc_start. cbn [bind lars_loop].
  cbn [laLamb]. rewrite L by lra. cbn [negb]. destruct (exc_step1 (snd est)) as (o & E1). rewrite E1. cbn [bind laStop laLamb]. rewrite L by lra. cbn [negb].
  destruct (exc_step2 o) as (o' & E2). rewrite E2. cbn [bind laStop laLamb].
  replace (nltb (n := XR) (fin (/ 1000)) (fin 0)) with false by (symmetry; apply Rltb_false; lra). reflexivity.
Qed.

Lemma exc_svd_exact : forall E, StronglySorted lt E -> (forall f, In f E -> (0 < f < 3)%nat) ->
  exact_svd (icv_mat exc_X (map Z.of_nat E)) (exc_svd (icv_mat exc_X (map Z.of_nat E))) /\
  no_tiny_sq (/ 1000000) (exc_svd (icv_mat exc_X (map Z.of_nat E))).
Proof.
  intros E SS HE. pose proof (SSlt_NoDup E SS) as ND. set (M := icv_mat exc_X (map Z.of_nat E)).
  assert (HM : rmat M (fun i j => exc_z i (nth j E 0%nat))).
  { apply icv_rmat; [intros i j _ _; reflexivity|]. intros f Hf. specialize (HE f Hf). cbn [exc_X mcols]. lia. }
  assert (LM : mcols M = length E) by (unfold M; cbn; apply map_length).
  split.
  - exists (fun i j => exc_z i (nth j E 0%nat)), (fun i j => exc_z i (nth j E 0%nat) / 2), delta, (repeat 2 (mcols M)).
    cbn [exc_svd svS svU svV mrows mcols]. rewrite !repeat_length.
    split; [exact HM|]. do 3 (split; [reflexivity|]).
    split. { intros i j Hi Hj. cbn [mval mrows mcols exc_svd svU] in *. rewrite (HM i j Hi Hj). change (nofZ (n := XR) 2) with (fin 2). apply xdiv_fin. lra. }
    do 2 (split; [reflexivity|]). split; [intros i j Hi Hj; reflexivity|]. change (mrows M) with 5%nat. rewrite LM.
    assert (O : forall f g, (0 < f < 3)%nat -> (0 < g < 3)%nat -> rsum 5 (fun i => exc_z i f / 2 * (exc_z i g / 2)) = delta f g).
    { intros f g Hf Hg. destruct f as [|[|[|f]]]; try lia; destruct g as [|[|[|g]]]; try lia; cbn; unfold delta; cbn; lra. }
    split; [|split; [|split]].
    + intros a b Ha Hb. rewrite O by (apply HE; apply nth_In; assumption). unfold delta.
      destruct (Nat.eqb_spec a b) as [->|N]; [rewrite Nat.eqb_refl; reflexivity|].
      destruct (Nat.eqb_spec (nth a E 0%nat) (nth b E 0%nat)) as [Q|Q]; [|reflexivity].
      exfalso. apply N. apply (proj1 (NoDup_nth E 0%nat) ND a b Ha Hb Q).
    + intros a b Ha Hb. rewrite (rsum_ext _ _ (fun j => delta a j * delta j b)) by (intros; rewrite (delta_sym i a); auto).
      apply (rsum_delta_l (length E) a (fun j => delta j b)); auto.
    + intros v Hv. apply repeat_spec in Hv. lra.
    + intros i j Hi Hj. rewrite (rsum_ext _ _ (fun l => delta j l * exc_z i (nth l E 0%nat))).
      * symmetry. apply (rsum_delta_l (length E) j (fun l => exc_z i (nth l E 0%nat))); auto.
      * intros l Hll. rewrite nth_repeat_lt by exact Hll. field.
  - intros v Hv. cbn [exc_svd svS] in Hv. apply in_map_iff in Hv. destruct Hv as (z & Ez & Hz).
    injection Ez as <-. apply repeat_spec in Hz. right. rewrite Hz. lra.
Qed.

Lemma exc_corr : forall b f, (0 < f < 3)%nat ->
  corr 5 3 (standard_x 5 exc_x) (fun i => nth i exc_yz 0) b f = nth f [0; 8 / 3; 4 / 3] 0 - 4 * b f.
Proof.
  intros b f Hf. unfold corr. cbn [rsum]. rewrite !exc_standard by lia.
  destruct f as [|[|[|f]]]; try lia; cbn; field.
Qed.

Lemma exc_no_ties : no_ties 5 3 (standard_x 5 exc_x) (fun i => nth i exc_yz 0) exc_path.
Proof.
  intros l1 a b l2 E. unfold exc_path in E.
  assert (Q : a = mkLN (N := XR) (fins [0]) (fin (8 / 3)) [1%Z] /\ b = mkLN (N := XR) (fins [1 / 3; 0]) (fin (4 / 3)) [1%Z; 2%Z]).
  { destruct l1 as [|x [|x' l1]]; cbn [app] in E; injection E; intros; subst; auto; try discriminate.
    destruct l1; discriminate. }
  destruct Q as (-> & ->). cbn [lnLamb lnSelection lnCoeff]. split.
  - exists (8 / 3), (4 / 3). repeat split; lra.
  - intros E0 v l s H1 H2 H3 (_ & Hseg) f Hf Hin t w Ht (Hw1 & Hw2) C.
    assert (Hl : l = 4 / 3) by (injection H3; auto). subst l.
    assert (HE0 : E0 = [1; 2]%nat) by (apply of_nat_inj; symmetry; exact H1). subst E0.
    assert (Hv : v = [1 / 3; 0]).
    { destruct v as [|x [|x' [|? ?]]]; cbn [fins map] in H2; try discriminate H2. injection H2 as X1 X2. subst. reflexivity. }
    subst v.
    assert (Hf1 : f = 1%nat) by (destruct Hin as [Hin|[]]; lia). subst f.
    specialize (Hseg 1%nat ltac:(simpl; auto)). specialize (Hw2 1%nat ltac:(simpl; auto)).
    rewrite exc_corr in Hseg, Hw2 by lia. rewrite (spread_nth [1; 2]%nat [1 / 3; 0] 0 ltac:(repeat constructor; simpl; lia) ltac:(simpl; lia) : spread [1; 2]%nat [1 / 3; 0] 1%nat = _) in Hseg.
    cbn in Hseg, Hw2. rewrite C in Hw2. nra.
Qed.

(** the hypotheses of C74 hold for this file, and two models are written *)
Example C74_example : exists nd rows j nodes aicc bic d',
  NewNormalizedData (dsX exc_d) (dsY exc_d) = Ok nd /\
  LassoLars exc_cd (exc_X, None) nd (fin (/ 1000)) 10 = Ok exc_path /\
  lassoFit (isort byValueLess) (fun nd l => LassoLars exc_cd (exc_X, None) nd l 10) (fun _ _ _ _ => Panic) (fun _ => Panic) (Some exc_d)
    (fin (/ 1000)) (fin 0) 0%Z "lars" "" (fin 0) = Ok (mkLassoOut (Some rows) (Some j)) /\
  LassoLarsPathFromBytes j = Ok (mkPath d' nodes, aicc, bic) /\ length nodes = 2%nat /\
  (forall i node a b, nth_error nodes i = Some node -> nth_error aicc i = Some a -> nth_error bic i = Some b ->
     written_node 5 3 exc_x exc_y (/ 1000) node a b).
Proof.
  assert (HX : rmat (dsX exc_d) exc_x).
  { intros i k Hi Hk. cbn [exc_d dsX mrows mcols mval] in *. rewrite (proj2 (Nat.ltb_lt i 5) Hi), (proj2 (Nat.ltb_lt k 3) Hk). reflexivity. }
  assert (Hb : forall i, (i < 5)%nat -> exc_x i 0%nat = 1) by reflexivity.
  assert (Hs : forall k, (0 < k < 3)%nat -> / 10 ^ 10 <= sdev (column 5 exc_x k)).
  { assert (B : / 10 ^ 10 <= 1) by (rewrite <- Rinv_1; apply Rinv_le_contravar; [lra|]; apply pow_R1_Rle; lra).
    intros k Hk. destruct k as [|[|[|k]]]; try lia; [rewrite exc_sd1|rewrite exc_sd2]; lra. }
  assert (HsY : 0 < sdev exc_y) by (rewrite exc_sdy; lra).
  assert (FR : full_rank 5 3 exc_x).
  { intros v H. pose proof (H 0 ltac:(lia))%nat as A0. pose proof (H 1 ltac:(lia))%nat as A1. pose proof (H 2 ltac:(lia))%nat as A2.
    cbn in A0, A1, A2. intros k Hk. destruct k as [|[|[|k]]]; try lia; lra. }
  assert (End : exists nd, NewNormalizedData (dsX exc_d) (dsY exc_d) = Ok nd).
  { destruct (nnd_ok (dsX exc_d) exc_x HX ltac:(cbn; lia) exc_y ltac:(discriminate)) as (X' & E & _); [|eauto].
    intros c Hc. unfold tol10. replace (1 / IZR (10 ^ 10)) with (/ 10 ^ 10); [apply Hs; exact Hc|].
    change (10 ^ 10)%Z with 10000000000%Z. field. }
  destruct End as (nd & End).
  destruct (the_nd exc_d exc_x exc_y nd ltac:(cbn; lia) ltac:(cbn; lia) HX eq_refl eq_refl Hb Hs HsY End) as (X' & En & R1 & C1 & M1).
  assert (EX : ndX nd = exc_X).
  { pose proof (nnd_outside _ _ _ End) as O. rewrite En in O |- *. cbn [ndX] in O |- *.
    destruct X' as [r c V]. cbn [mrows mcols mval] in *. unfold exc_X. f_equal; [exact R1|exact C1|].
    apply functional_extensionality. intro i. apply functional_extensionality. intro k.
    destruct (Nat.lt_ge_cases i 5) as [Hi|Hi]; [destruct (Nat.lt_ge_cases k 3) as [Hk|Hk]|].
    - rewrite <- (exc_standard i k Hi). apply M1; [rewrite R1|rewrite C1]; assumption.
    - rewrite O by (cbn; lia). cbn [exc_d dsX mval]. rewrite (proj2 (Nat.ltb_ge k 3) Hk), Bool.andb_false_r.
      destruct k as [|[|[|k]]]; try lia. reflexivity.
    - rewrite O by (cbn; lia). cbn [exc_d dsX mval]. rewrite (proj2 (Nat.ltb_ge i 5) Hi). cbn [andb].
      destruct k as [|[|[|k]]]; cbn [exc_z]; try reflexivity; rewrite nth_overflow by (cbn; lia); reflexivity. }
  assert (Ey : ndy nd = fins exc_yz) by (rewrite En, <- exc_standard_y; reflexivity).
  pose proof (exc_runs (exc_X, None) nd EX Ey) as EL.
  destruct (C74_lars_command exc_svd (exc_X, None) 10 (isort byValueLess) (fun _ _ _ _ => Panic) (fun _ => Panic) exc_d exc_x exc_y (/ 1000) (fin 0) 0%Z "" (fin 0) nd exc_path)
    as (rows & j & nodes & aicc & bic & d' & F1 & _ & F3 & _ & _ & _ & _ & F4 & _ & _ & F5); try assumption; try reflexivity; try (cbn; lia).
  - apply isort_spec. intros [u i] [v j]. apply (ltb_asym XR_OrdLaws).
  - lra.
  - intros E SS _ HE. rewrite EX. apply exc_svd_exact; assumption.
  - rewrite exc_standard_y. exact exc_no_ties.
  - exists nd, rows, j, nodes, aicc, bic, d'. split; [exact End|]. split; [exact EL|]. split; [exact F1|]. split; [exact F3|].
    split; [exact F4|exact F5].
Qed.
