(** C80: what goselect-plotlasso draws. *)
From Coq Require Import FunctionalExtensionality Reals Lra Sorted String.
From Verif Require Import Base Num Mat Model_Node Model_Util Proof_Util Proof_Node2 RSum Stats Proof_XR Model_Norm Proof_Norm Model_Fit Spec_Fit Model_CSV
  Model_Path Spec_Path Proof_Path Proof_Entrance Proof_Crit Model_Cmd Model_Plot Spec_Plot Proof_Plot Spec_Lars Model_Lars Spec_LassoCmd Proof_LassoCmd
  Model_Cov Model_Crd Model_CrdPath Proof_Homotopy Props_Util Props_Lars Props_Path Ex_Nested Spec_LassoCmd Props_LassoCmd Props_CrdCmd.
Open Scope R_scope.
Open Scope list_scope.

(** The quality figure has one point per model: the logarithm of its penalty
    and the AICC of its own residual. *)
Theorem C80_quality : forall (lg : XR -> XR) (p : LassoLarsPath XR) A y,
  let m := mrows (dsX (lpDset p)) in let nc := mcols (dsX (lpDset p)) in
  real_data (lpDset p) A y ->
  (forall n, In n (lpNodes p) -> exists sel w l, node_is nc n sel w l) ->
  exists pts, length pts = length (lpNodes p) /\
    (forall i n sel w l, nth_error (lpNodes p) i = Some n -> node_is nc n sel w l ->
       nth_error pts i = Some (lg (fin l), Aicc (Z.of_nat (length sel)) (Z.of_nat m) (fin (node_rss m A sel w y)))) /\
    forall drawable, PlotQualityScores lg drawable p = if drawable pts then Ok pts else Panic.
Proof.
  intros lg p A y m nc HD HN. exists (map (qual_pt p y lg) (lpNodes p)). split; [apply map_length|]. split.
  - intros i n sel w l Hi Hn. rewrite nth_error_map, Hi. cbn [option_map]. unfold qual_pt.
    destruct (rss_of_eq p A y HD n sel w l Hn) as (_ & _ & _ & _ & _ & _ & ->).
    destruct Hn as (-> & _ & -> & _). reflexivity.
  - apply (quality_eq p A y HD HN lg).
Qed.
Print Assumptions C80_quality.

(** The deviation figure has one point per model: the logarithms of its penalty
    and of the root of its mean squared residual. *)
Theorem C80_deviations : forall (lg : XR -> XR) (p : LassoLarsPath XR) A y,
  let m := mrows (dsX (lpDset p)) in let nc := mcols (dsX (lpDset p)) in
  real_data (lpDset p) A y ->
  (forall n, In n (lpNodes p) -> exists sel w l, node_is nc n sel w l) ->
  exists pts, length pts = length (lpNodes p) /\
    (forall i n sel w l, nth_error (lpNodes p) i = Some n -> node_is nc n sel w l ->
       nth_error pts i = Some (lg (fin l), lg (fin (sqrt (node_rss m A sel w y / INR m))))) /\
    forall drawable, PlotDeviations lg drawable p = if drawable pts then Ok pts else Panic.
Proof.
  intros lg p A y m nc HD HN. exists (map (dev_pt p y lg) (lpNodes p)). split; [apply map_length|]. split.
  - intros i n sel w l Hi Hn. rewrite nth_error_map, Hi. cbn [option_map]. unfold dev_pt.
    destruct (rss_of_eq p A y HD n sel w l Hn) as (_ & _ & _ & _ & _ & _ & ->).
    destruct Hn as (_ & _ & -> & _). fold m. destruct HD as (Hm & _). fold m in Hm.
    assert (Hp : 0 < INR m) by (apply lt_0_INR; exact Hm).
    change (nofnat (N := XR) m) with (XFin (IZR (Z.of_nat m))). rewrite <- INR_IZR_INZ. fold (fin (INR m)). rewrite xdiv_fin by lra.
    do 4 f_equal. cbn [nsqrt XR]. unfold xsqrt, fin. rewrite (proj2 (Rltb_false _ 0)); [reflexivity|].
    apply Rmult_le_pos; [|left; apply Rinv_0_lt_compat; exact Hp].
    unfold node_rss. apply rsum_nonneg. intros. apply Rle_0_sqr.
  - apply (deviations_eq p A y HD HN lg).
Qed.
Print Assumptions C80_deviations.

(** the entrance figure *)
Lemma entrance_drawn : forall (p : LassoLarsPath XR),
  let nc := mcols (dsX (lpDset p)) in let nodes := lpNodes p in
  (Z.of_nat nc <= 2 ^ 31)%Z -> nodes <> [] ->
  (forall n, In n nodes -> exists sel w l, node_is nc n sel w l /\ / 10 ^ 300 <= l) ->
  exists times line, PlotEntranceTimes xlog10 gonum_drawable p = Ok (times, line) /\
    times = flat_map (fun n => map (fun f => (fin (IZR f), xlog10 (lnLamb n))) (lnSelection n)) nodes /\ entrance_line nodes line.
Proof.
  intros p nc nodes Hnc Hne HN.
  assert (P300 : 0 < / 10 ^ 300) by (apply Rinv_0_lt_compat, pow_lt; lra).
  assert (HN' : forall n, In n nodes -> exists sel w l, node_is nc n sel w l).
  { intros n Hn. destruct (HN n Hn) as (sel & w & l & H & _). eauto. }
  assert (Hv : forall n v, In n nodes -> In v (lnSelection n) -> (0 <= v < 2 ^ 31)%Z).
  { intros n v Hn Hin. destruct (HN' n Hn) as (sel & w & l & E & _ & _ & _ & _ & _ & H). rewrite E in Hin. specialize (H v Hin). lia. }
  assert (Lam : forall n, In n nodes -> exists l, lnLamb n = fin l /\ / 10 ^ 300 <= l).
  { intros n Hn. destruct (HN n Hn) as (sel & w & l & (_ & _ & E & _) & H). eauto. }
  assert (LamF : forall n, In n nodes -> exists a, xlog10 (lnLamb n) = fin a).
  { intros n Hn. destruct (Lam n Hn) as (l & -> & Hl). rewrite xlog10_pos by lra. eauto. }
  assert (Some1 : exists n v, In n nodes /\ In v (lnSelection n)).
  { destruct nodes as [|n t] eqn:En; [congruence|]. exists n. destruct (HN' n (or_introl eq_refl)) as (sel & w & l & -> & _ & _ & _ & H & _).
    destruct sel as [|v s]; [congruence|]. exists v. split; left; reflexivity. }
  destruct (MaxMinFeatNo p) as (mn, mx) eqn:Em.
  destruct (maxmin_spec XR p mn mx Hv Em) as (M0 & M1 & M2 & _). clear M2.
  assert (Hle : (mn <= mx + 1)%Z) by (destruct Some1 as (n & v & A1 & A2); specialize (M1 n v A1 A2); lia).
  (* entrance *)
  destruct (entrance_eq p mn mx Em Hle M1 xlog10) as (times & line & Ent).
  pose proof (Ent (fun _ => true)) as E1. cbn [andb] in E1.
  destruct (entrance_ok XR XR_OrdLaws xlog10 (fun _ => true) p times line mn mx Em Hle M1 E1) as (Et & feats & F1 & F2 & F3).
  assert (EL : entrance_line nodes line).
  { exists feats. split; [exact F1|]. split.
    - intro f. rewrite F2. split.
      + intros (n & A1 & A2 & _). exists n. split; assumption.
      + intros (n & A1 & A2). exists n. split; [exact A1|]. split; [exact A2|]. destruct (Lam n A1) as (l & -> & Hl). apply above_floor. exact Hl.
    - clear - F3 Lam P300. induction F3 as [|f xy fs ls H F3 IH]; constructor; [|exact IH].
      destruct H as (H1 & (n & N1 & N2 & N3) & H3). destruct (Lam n N1) as (l & El & Hl). exists l. split.
      + destruct xy as (a, b). cbn [fst snd] in *. rewrite H1, N3, El, xlog10_pos by lra. reflexivity.
      + split; [exists n; repeat split; assumption|]. intros n' l' N1' N2' E' Hp.
        specialize (H3 n' N1' N2'). rewrite N3, El, E', !xlog10_pos in H3 by lra.
        cbn [nltb XR] in H3. unfold xltb, fin in H3. apply Rltb_false in H3. apply log10_le_inv; lra. }
  assert (Fin_t : times <> [] /\ forall q, In q times -> (exists a, fst q = fin a) /\ exists b, snd q = fin b).
  { rewrite Et. split.
    - destruct Some1 as (n & v & A1 & A2). intro C.
      assert (In (nofZ (n := XR) v, xlog10 (lnLamb n)) []); [|contradiction]. rewrite <- C. apply in_flat_map. exists n. split; [exact A1|].
      apply (in_map (fun f => (nofZ (n := XR) f, xlog10 (lnLamb n)))). exact A2.
    - intros q Hq. apply in_flat_map in Hq. destruct Hq as (n & A1 & A2). apply in_map_iff in A2. destruct A2 as (f & <- & _). cbn [fst snd].
      split; [eexists; reflexivity|apply LamF; exact A1]. }
  assert (Fin_l : line <> [] /\ forall q, In q line -> (exists a, fst q = fin a) /\ exists b, snd q = fin b).
  { destruct EL as (fs & _ & G2 & G3). split.
    - intro C. rewrite C in G3. inversion G3. subst fs. destruct Some1 as (n & v & A1 & A2).
      exact (proj2 (G2 v) (ex_intro _ n (conj A1 A2))).
    - clear - G3. induction G3 as [|f xy fs ls (l & -> & _) G3 IH]; [intros q []|].
      intros q [<-|Hq]; [|apply IH; exact Hq]. cbn [fst snd]. eauto. }
  exists times, line. split; [rewrite Ent, (drawable_fin times), (drawable_fin line) by tauto; reflexivity|]. split; [exact Et|exact EL].
Qed.

(** With at least one model, none of them perfect and no penalty below 1e-300,
    all four figures are made, and each of them shows what its title says. *)
Theorem C80_figures : forall saves (p : LassoLarsPath XR) A y (range : option (XR * XR)),
  let m := mrows (dsX (lpDset p)) in let nc := mcols (dsX (lpDset p)) in let nodes := lpNodes p in
  real_data (lpDset p) A y -> (Z.of_nat nc <= 2 ^ 31)%Z -> nodes <> [] ->
  (forall n, In n nodes -> exists sel w l, node_is nc n sel w l /\ / 10 ^ 300 <= l /\ 0 < node_rss m A sel w y) ->
  exists (times line q dv : list (XR * XR)) lines b first last,
    (let figs := [FigEntrance times line; FigQuality q; FigDev dv; FigPath lines range] in
     analyseLasso xlog10 saves p range = mkPlotOut figs (filter saves figs) true) /\
    times = flat_map (fun n => map (fun f => (fin (IZR f), xlog10 (lnLamb n))) (lnSelection n)) nodes /\
    entrance_line nodes line /\
    length q = length nodes /\ length dv = length nodes /\
    (forall i n sel w l, nth_error nodes i = Some n -> node_is nc n sel w l ->
       nth_error q i = Some (fin (log10 l), Aicc (Z.of_nat (length sel)) (Z.of_nat m) (fin (node_rss m A sel w y))) /\
       nth_error dv i = Some (fin (log10 l), fin (log10 (sqrt (node_rss m A sel w y / INR m))))) /\
    (exists n, In n nodes /\ In (Z.of_nat b) (lnSelection n)) /\
    (forall n v, In n nodes -> In v (lnSelection n) -> (v <= Z.of_nat b)%Z) /\
    length lines = S b /\
    (forall f, (f < b)%nat -> exists line, nth_error lines f = Some line /\ coefficient_line nodes (Z.of_nat f) line) /\
    nth_error nodes 0 = Some first /\ nth_error nodes (length nodes - 1) = Some last /\
    nth_error lines b = Some [(xlog10 (lnLamb last), fin 0); (xlog10 (lnLamb first), fin 0)].
Proof.
  intros saves p A y range m nc nodes HD Hnc Hne HN.
  assert (P300 : 0 < / 10 ^ 300) by (apply Rinv_0_lt_compat, pow_lt; lra).
  assert (HN' : forall n, In n nodes -> exists sel w l, node_is nc n sel w l).
  { intros n Hn. destruct (HN n Hn) as (sel & w & l & H & _). eauto. }
  assert (Hm : (0 < m)%nat) by exact (proj1 HD).
  assert (Hv : forall n v, In n nodes -> In v (lnSelection n) -> (0 <= v < 2 ^ 31)%Z).
  { intros n v Hn Hin. destruct (HN' n Hn) as (sel & w & l & E & _ & _ & _ & _ & _ & H). rewrite E in Hin. specialize (H v Hin). lia. }
  assert (Lam : forall n, In n nodes -> exists l, lnLamb n = fin l /\ / 10 ^ 300 <= l).
  { intros n Hn. destruct (HN n Hn) as (sel & w & l & (_ & _ & E & _) & H & _). eauto. }
  assert (LamF : forall n, In n nodes -> exists a, xlog10 (lnLamb n) = fin a).
  { intros n Hn. destruct (Lam n Hn) as (l & -> & Hl). rewrite xlog10_pos by lra. eauto. }
  assert (Hc : forall n, In n nodes -> (length (lnSelection n) <= length (lnCoeff n))%nat).
  { intros n Hn. destruct (HN' n Hn) as (sel & w & l & -> & -> & _ & L & _). unfold fins. rewrite map_length. lia. }
  assert (Some1 : exists n v, In n nodes /\ In v (lnSelection n)).
  { destruct nodes as [|n t] eqn:En; [congruence|]. exists n. destruct (HN' n (or_introl eq_refl)) as (sel & w & l & -> & _ & _ & _ & H & _).
    destruct sel as [|v s]; [congruence|]. exists v. split; left; reflexivity. }
  destruct (MaxMinFeatNo p) as (mn, mx) eqn:Em.
  destruct (maxmin_spec XR p mn mx Hv Em) as (M0 & M1 & M2 & _). destruct (M2 Some1) as (_ & nb & Hnb & Hb).
  destruct (entrance_drawn p Hnc Hne) as (times & line & Ent & Et & EL).
  { intros n Hn. destruct (HN n Hn) as (sel & w & l & H & Hl & _). exists sel, w, l. split; assumption. }
  (* quality and deviations *)
  destruct (C80_quality xlog10 p A y HD HN') as (q & Lq & Nq & Eq).
  destruct (C80_deviations xlog10 p A y HD HN') as (dv & Ld & Nd & Ed).
  assert (QD : forall i n sel w l, nth_error nodes i = Some n -> node_is nc n sel w l ->
       nth_error q i = Some (fin (log10 l), Aicc (Z.of_nat (length sel)) (Z.of_nat m) (fin (node_rss m A sel w y))) /\
       nth_error dv i = Some (fin (log10 l), fin (log10 (sqrt (node_rss m A sel w y / INR m)))) /\ 0 < node_rss m A sel w y).
  { intros i n sel w l Hi Hn. rewrite (Nq i n sel w l Hi Hn), (Nd i n sel w l Hi Hn).
    destruct (HN n (nth_error_In _ _ Hi)) as (sel' & w' & l' & Hn' & Hl & Hr).
    destruct Hn as (E1' & E2' & E3' & _). destruct Hn' as (E4' & E5' & E6' & _).
    rewrite E4' in E1'. subst sel'. rewrite E5' in E2'. apply fins_inj in E2'. subst w'. rewrite E6' in E3'. injection E3' as ->.
    rewrite !xlog10_pos; [tauto| |lra]. apply sqrt_lt_R0. apply Rdiv_lt_0_compat; [exact Hr|apply lt_0_INR; exact Hm]. }
  assert (Fin2 : forall pts, length pts = length nodes -> (forall i n, nth_error nodes i = Some n -> exists a b, nth_error pts i = Some (fin a, fin b)) -> gonum_drawable (N := XR) pts = true).
  { intros pts L H. apply drawable_fin.
    - intro C. subst pts. destruct nodes; [congruence|discriminate L].
    - intros z Hz. apply In_nth_error in Hz. destruct Hz as (i & Hi). assert (Q : (i < length pts)%nat) by (apply nth_error_Some; congruence).
      destruct (nth_error nodes i) as [n|] eqn:En; [|apply nth_error_None in En; lia].
      destruct (H i n En) as (a & b & E). rewrite E in Hi. injection Hi as <-. cbn [fst snd]. eauto. }
  assert (Dq : gonum_drawable (N := XR) q = true).
  { apply Fin2; [exact Lq|]. intros i n Hi. destruct (HN' n (nth_error_In _ _ Hi)) as (sel & w & l & Hn).
    destruct (QD i n sel w l Hi Hn) as (-> & _ & Hr). destruct (aicc_fin (Z.of_nat (length sel)) (Z.of_nat m) _ Hr) as (a & ->). eauto. }
  assert (Dd : gonum_drawable (N := XR) dv = true).
  { apply Fin2; [exact Ld|]. intros i n Hi. destruct (HN' n (nth_error_In _ _ Hi)) as (sel & w & l & Hn).
    destruct (QD i n sel w l Hi Hn) as (_ & -> & _). eauto. }
  (* path *)
  destruct (path_eq p xlog10 gonum_drawable Hc Hne) as (lines & EPath).
  { intros pts L H. apply drawable_fin.
    - intro C. subst pts. destruct (lpNodes p) eqn:En; [unfold nodes in Hne; congruence|]. cbn in L. destruct L; discriminate.
    - intros z Hz. destruct (H z Hz) as ((n & A1 & ->) & S). split; [apply LamF; exact A1|].
      destruct S as [->|(n' & B1 & B2)]; [eexists; reflexivity|].
      destruct (HN' n' B1) as (sel & w & l & _ & Hw & _). rewrite Hw in B2. apply in_map_iff in B2. destruct B2 as (r & <- & _). eexists; reflexivity. }
  destruct (plot_path XR xlog10 gonum_drawable p lines Hc EPath) as (first & last & P1 & P2 & P3).
  rewrite Em in P3. cbn [snd] in P3.
  exists times, line, q, dv, lines, (Z.to_nat mx), first, last. split.
  { cbv zeta. unfold analyseLasso. rewrite Ent, Eq, Dq, Ed, Dd, EPath. cbn [bind].
    unfold next_figure. cbn [poSaid poFiles poReturned filter]. reflexivity. }
  split; [exact Et|]. split; [exact EL|]. split; [exact Lq|]. split; [exact Ld|].
  split; [intros i n sel w l Hi Hn; destruct (QD i n sel w l Hi Hn) as (Q1 & Q2 & _); split; assumption|].
  split; [exists nb; rewrite Z2Nat.id by lia; split; assumption|].
  split; [intros n v A1 A2; rewrite Z2Nat.id by lia; apply (M1 n v A1 A2)|].
  assert (LL : length (map (fun f => map (fun n => (xlog10 (lnLamb n), coeff_of XR n (Z.of_nat f))) (lpNodes p)) (seq 0 (Z.to_nat mx))) = Z.to_nat mx)
    by (rewrite map_length, seq_length; reflexivity).
  split; [rewrite P3, app_length, LL; cbn [length]; lia|]. split.
  { intros f Hf. eexists. split.
    - rewrite P3, nth_error_app1 by lia. rewrite nth_error_map, (nth_error_nth' _ 0%nat) by (rewrite seq_length; lia).
      rewrite seq_nth by lia. reflexivity.
    - split; [apply map_length|]. intros i n Hi. exists (coeff_of XR n (Z.of_nat f)). cbn [Nat.add].
      split; [rewrite nth_error_map; unfold nodes in Hi; rewrite Hi; reflexivity|].
      unfold coeff_of. destruct (find_coeff_spec XR n (Z.of_nat f) (Hc n (nth_error_In _ _ Hi))) as [(N1 & ->)|(k & c & N1 & _ & N2 & ->)]; [left; split; [exact N1|reflexivity]|right; eauto]. }
  split; [exact P1|]. split; [exact P2|]. rewrite P3, nth_error_app2, LL, Nat.sub_diag by lia. reflexivity.
Qed.
Print Assumptions C80_figures.

Lemma aicc_zero : forall k m, (0 < m)%Z -> Aicc (N := XR) k m (fin 0) = XNInf.
Proof.
  intros k m Hm. assert (Hp : Rltb 0 (IZR m) = true) by (apply Rltb_true, IZR_lt; exact Hm).
  assert (Hn : Rltb (IZR m) 0 = false) by (apply Rltb_false; left; apply IZR_lt; exact Hm).
  assert (R0 : Rltb 0 0 = false) by (apply Rltb_false; lra).
  assert (L : nlog (n := XR) (fin 0) = XNInf) by (cbn [nlog XR]; unfold fin, xlog; rewrite !R0; reflexivity).
  assert (M : nmul (n := XR) (nofZ m) XNInf = XNInf) by (cbn [nmul nofZ XR]; unfold xmul, xsgn; rewrite Hn, Hp; reflexivity).
  unfold Aicc, Aic. rewrite L, M.
  destruct (_ <=? _)%Z eqn:E.
  - change (n1 (N := XR)) with (fin 1). change (nofZ (n := XR)) with (fun z => fin (IZR z)). cbn beta. rewrite xdiv_fin by lra. reflexivity.
  - apply Z.leb_gt in E. change (nofZ (n := XR)) with (fun z => fin (IZR z)). cbn beta. rewrite xdiv_fin by (apply not_0_IZR; lia). reflexivity.
Qed.

(** A model that fits the data exactly has AICC -Inf, which cannot be drawn: the
    program panics after the first figure. *)
Theorem C80_perfect_fit : forall saves (p : LassoLarsPath XR) A y (range : option (XR * XR)),
  let m := mrows (dsX (lpDset p)) in let nc := mcols (dsX (lpDset p)) in let nodes := lpNodes p in
  real_data (lpDset p) A y -> (Z.of_nat nc <= 2 ^ 31)%Z ->
  (forall n, In n nodes -> exists sel w l, node_is nc n sel w l /\ / 10 ^ 300 <= l) ->
  (exists n sel w l, In n nodes /\ node_is nc n sel w l /\ node_rss m A sel w y = 0) ->
  exists times line, let fig := FigEntrance times line in
    analyseLasso xlog10 saves p range = mkPlotOut [fig] (if saves fig then [fig] else []) false /\ entrance_line nodes line.
Proof.
  intros saves p A y range m nc nodes HD Hnc HN (n & sel & w & l & Hin & Hn & H0).
  assert (Hne : nodes <> []) by (destruct nodes; [destruct Hin|discriminate]).
  destruct (entrance_drawn p Hnc Hne HN) as (times & line & Ent & _ & EL). exists times, line. split; [|exact EL].
  assert (HN' : forall n, In n nodes -> exists sel w l, node_is nc n sel w l).
  { intros n' Hn'. destruct (HN n' Hn') as (sel' & w' & l' & H & _). eauto. }
  destruct (C80_quality xlog10 p A y HD HN') as (q & Lq & Nq & Eq).
  unfold analyseLasso. rewrite Ent, Eq. cbn [bind].
  assert (D : gonum_drawable (N := XR) q = false).
  { apply In_nth_error in Hin. destruct Hin as (i & Hi). specialize (Nq i n sel w l Hi Hn). fold m nc in Nq. rewrite H0 in Nq.
    unfold gonum_drawable. apply Bool.andb_false_iff. right. apply Bool.not_true_iff_false. rewrite forallb_forall. intro C.
    specialize (C _ (nth_error_In _ _ Nq)). cbn [fst snd] in C. apply andb_prop in C. destruct C as (_ & C). revert C.
    rewrite aicc_zero by (pose proof (proj1 HD); unfold m; lia). discriminate. }
  rewrite D. cbn [bind next_figure poSaid poFiles poReturned]. reflexivity.
Qed.
Print Assumptions C80_perfect_fit.

Lemma no_range : forall (N : Num) lg saves parse file lines range,
  nltb (n := N) (ndec 1 (-10)) (nabs (nsub n0 n0)) = false ->
  In (FigPath (N := N) lines range) (poSaid (plotlasso lg saves parse file)) -> range = None.
Proof.
  intros N lg saves parse file lines range E H. unfold plotlasso, plot_range, plot_defaults in H. cbn [fgMin fgMax] in H.
  rewrite E in H. destruct file as [j|]; [|destruct H].
  destruct (LassoLarsPathFromBytes j) as [((p & a) & b)| |]; [|destruct H|destruct H].
  unfold analyseLasso in H.
  destruct (PlotEntranceTimes _ _ _) as [(t & l)| |]; cbn [bind next_figure poSaid] in H; [|destruct H|destruct H].
  destruct H as [H|H]; [discriminate H|].
  destruct (PlotQualityScores _ _ _); cbn [bind next_figure poSaid] in H; [|destruct H|destruct H]. destruct H as [H|H]; [discriminate H|].
  destruct (PlotDeviations _ _ _); cbn [bind next_figure poSaid] in H; [|destruct H|destruct H]. destruct H as [H|H]; [discriminate H|].
  destruct (PlotPath _ _ _); cbn [bind next_figure poSaid] in H; [|destruct H|destruct H]. destruct H as [H|[]]. injection H as _ <-. reflexivity.
Qed.

(** Whatever is given for -coeffmin and -coeffmax, the vertical axis of the last
    figure is never given a range (C73). *)
Theorem C80_no_range : forall lg saves parse file lines range,
  In (FigPath (N := XR) lines range) (poSaid (plotlasso lg saves parse file)) -> range = None.
Proof.
  intros lg saves parse file lines range. apply no_range.
  change (xltb (ndec (n := XR) 1 (-10)) (XFin (Rabs (0 + - 0))) = false).
  change (ndec (n := XR) 1 (-10)) with (XFin (1 / IZR (10 ^ 10))). unfold xltb.
  apply Rltb_false. replace (0 + - 0) with 0 by ring. rewrite Rabs_R0. change (10 ^ 10)%Z with 10000000000%Z. lra.
Qed.
Print Assumptions C80_no_range.

Theorem C80_no_range_binary64 : forall o lg saves parse file lines range,
  In (FigPath (N := F64 o) lines range) (poSaid (plotlasso lg saves parse file)) -> range = None.
Proof. intros o lg saves parse file lines range. apply no_range. apply tol_lt. Qed.
Print Assumptions C80_no_range_binary64.

(** What the program says it wrote does not depend on whether the files could
    be written; the files are those of the announced figures that could. *)
Theorem C80_announced : forall (N : Num) (lg : N -> N) saves parse file,
  let out := plotlasso lg saves parse file in
  poFiles out = filter saves (poSaid out) /\
  (forall saves', poSaid (plotlasso lg saves' parse file) = poSaid out /\ poReturned (plotlasso lg saves' parse file) = poReturned out) /\
  (poReturned out = true -> length (poSaid out) = 4%nat) /\ (poReturned out = false -> (length (poSaid out) < 4)%nat).
Proof.
  intros N lg saves parse file out. unfold out, plotlasso.
  destruct file as [j|]; [|cbn; repeat split; intros; try discriminate; lia].
  destruct (LassoLarsPathFromBytes j) as [((p & a) & b)| |]; [|cbn; repeat split; intros; try discriminate; lia|cbn; repeat split; intros; try discriminate; lia].
  unfold analyseLasso. destruct (PlotEntranceTimes _ _ _) as [(t & l)| |]; cbn [bind next_figure poSaid poFiles poReturned filter length];
    [|repeat split; intros; try discriminate; lia|repeat split; intros; try discriminate; lia].
  destruct (PlotQualityScores _ _ _); cbn [bind next_figure poSaid poFiles poReturned filter length]; [|repeat split; intros; try discriminate; lia|repeat split; intros; try discriminate; lia].
  destruct (PlotDeviations _ _ _); cbn [bind next_figure poSaid poFiles poReturned filter length]; [|repeat split; intros; try discriminate; lia|repeat split; intros; try discriminate; lia].
  destruct (PlotPath _ _ _); cbn [bind next_figure poSaid poFiles poReturned filter length]; repeat split; intros; try discriminate; lia.
Qed.
Print Assumptions C80_announced.

(** A file that is missing, or that has no models (as after goselect lasso with
    a misspelt algorithm, C75), gives no figure at all. *)
Theorem C80_no_models : forall (N : Num) (lg : N -> N) saves parse,
  plotlasso lg saves parse None = mkPlotOut [] [] false /\
  forall j d aicc bic, LassoLarsPathFromBytes j = Ok (mkPath d [], aicc, bic) ->
    plotlasso lg saves parse (Some j) = mkPlotOut [] [] false.
Proof.
  intros N lg saves parse. split; [reflexivity|]. intros j d aicc bic E. unfold plotlasso. rewrite E. reflexivity.
Qed.
Print Assumptions C80_no_models.

(** ** The figures of a file written by goselect lasso *)

(** All four figures are made.  [nodes] and [aicc] are the models and scores in
    the file, [x] and [y] the data. *)
Definition all_drawn (m n : nat) (x : nat -> nat -> R) (y : list R) (nodes : list (LassoLarsNode XR)) (aicc : list XR)
    (saves : Figure XR -> bool) (out : PlotOut XR) : Prop :=
  exists (times line q dv : list (XR * XR)) lines b first last,
    (let figs := [FigEntrance times line; FigQuality q; FigDev dv; FigPath lines None] in
     out = mkPlotOut figs (filter saves figs) true) /\
    times = flat_map (fun n => map (fun f => (fin (IZR f), xlog10 (lnLamb n))) (lnSelection n)) nodes /\
    entrance_line nodes line /\
    length q = length nodes /\ length dv = length nodes /\
    (forall i node a E b0 w l, nth_error nodes i = Some node -> nth_error aicc i = Some a -> model_of node E b0 w -> lnLamb node = fin l ->
       nth_error q i = Some (fin (log10 l), a) /\
       nth_error dv i = Some (fin (log10 l), fin (log10 (sqrt (squared_error m n x y b0 (spread E w) / INR m))))) /\
    (exists n, In n nodes /\ In (Z.of_nat b) (lnSelection n)) /\
    (forall n v, In n nodes -> In v (lnSelection n) -> (v <= Z.of_nat b)%Z) /\
    length lines = S b /\
    (forall f, (f < b)%nat -> exists line, nth_error lines f = Some line /\ coefficient_line nodes (Z.of_nat f) line) /\
    nth_error nodes 0 = Some first /\ nth_error nodes (length nodes - 1) = Some last /\
    nth_error lines b = Some [(xlog10 (lnLamb last), fin 0); (xlog10 (lnLamb first), fin 0)].

Lemma model_rss : forall m n x y E b0 w, (0 < m)%nat -> (0 < n)%nat -> length y = m -> (forall i, (i < m)%nat -> x i 0%nat = 1) ->
  (forall f, In f E -> (0 < f < n)%nat) -> length w = length E ->
  node_rss m x (0%Z :: map Z.of_nat E) (b0 :: w) y = squared_error m n x y b0 (spread E w).
Proof.
  intros m n x y E b0 w Hm Hn Hy Hb HE Hw. unfold node_rss, squared_error, prediction. apply rsum_ext. intros i Hi. rewrite <- Rsqr_neg_minus. f_equal. f_equal.
  cbn [length]. rewrite rsum_shift. cbn [nth]. change (Z.to_nat 0) with 0%nat. rewrite Hb, Rmult_1_l by exact Hi. f_equal.
  rewrite (sum_others m (n - 1) y Hm Hy E w) with (g := fun k => x i k); [|intros f Hf; specialize (HE f Hf); lia|exact Hw|exact Hw].
  rewrite map_length. apply rsum_ext. intros j Hj.
  rewrite (nth_indep (map Z.of_nat E) 0%Z (Z.of_nat 0)) by (rewrite map_length; exact Hj). rewrite (map_nth Z.of_nat), Nat2Z.id. reflexivity.
Qed.

Lemma sorted_of_nat : forall E, StronglySorted lt E -> StronglySorted Z.lt (map Z.of_nat E).
Proof.
  induction E as [|a E IH]; intro H; [constructor|]. apply StronglySorted_inv in H. destruct H as (H1 & H2). cbn [map]. constructor; [auto|].
  apply Forall_forall. intros z Hz. apply in_map_iff in Hz. destruct Hz as (b & <- & Hb). rewrite Forall_forall in H2. specialize (H2 b Hb). lia.
Qed.

Lemma file_drawn : forall saves (d d' : Dataset XR) x y nodes aicc bic j parse,
  let m := mrows (dsX d) in let n := mcols (dsX d) in
  (0 < m)%nat -> (0 < n)%nat -> (Z.of_nat n <= 2 ^ 31)%Z -> rmat (dsX d) x -> dsY d = fins y -> length y = m ->
  (forall i, (i < m)%nat -> x i 0%nat = 1) ->
  LassoLarsPathFromBytes j = Ok (mkPath d' nodes, aicc, bic) -> meq (dsX d') (dsX d) -> dsY d' = dsY d ->
  nodes <> [] -> length aicc = length nodes ->
  (forall i node a, nth_error nodes i = Some node -> nth_error aicc i = Some a ->
     exists E b0 w l, model_of node E b0 w /\ lnLamb node = fin l /\ / 10 ^ 300 <= l /\ (forall f, In f E -> (0 < f < n)%nat) /\
       a = Aicc (Z.of_nat (S (length E))) (Z.of_nat m) (fin (squared_error m n x y b0 (spread E w))) /\
       0 < squared_error m n x y b0 (spread E w)) ->
  all_drawn m n x y nodes aicc saves (plotlasso xlog10 saves parse (Some j)).
Proof.
  intros saves d d' x y nodes aicc bic j parse m n Hm Hn Hn31 HX HY Hy Hb EJ (M1 & M2 & M3) EY Hne La HN.
  assert (HD : real_data d' x y).
  { split; [rewrite M1; exact Hm|]. split; [|rewrite EY, M1; split; assumption].
    intros i k Hi Hk. rewrite M3 by assumption. apply HX; [rewrite M1 in Hi|rewrite M2 in Hk]; assumption. }
  assert (NI : forall node E b0 w l, model_of node E b0 w -> lnLamb node = fin l -> (forall f, In f E -> (0 < f < n)%nat) ->
    node_is (mcols (dsX d')) node (0%Z :: map Z.of_nat E) (b0 :: w) l).
  { intros node E b0 w l (A1 & A2 & A3 & A4) A5 A6. split; [exact A1|]. split; [exact A2|]. split; [exact A5|].
    split; [cbn [length]; rewrite map_length; lia|]. split; [discriminate|]. split.
    - constructor; [apply sorted_of_nat; exact A4|]. apply Forall_forall. intros z Hz. apply in_map_iff in Hz. destruct Hz as (f & <- & Hf).
      specialize (A6 f Hf). lia.
    - intros v Hv. rewrite M2. fold n. destruct Hv as [<-|Hv]; [lia|]. apply in_map_iff in Hv. destruct Hv as (f & <- & Hf). specialize (A6 f Hf). lia. }
  assert (AI : forall node, In node nodes -> exists i a, nth_error nodes i = Some node /\ nth_error aicc i = Some a).
  { intros node Hin. apply In_nth_error in Hin. destruct Hin as (i & Hi). assert (Q : (i < length nodes)%nat) by (apply nth_error_Some; congruence).
    destruct (nth_error aicc i) as [a|] eqn:Ea; [|apply nth_error_None in Ea; lia]. eauto. }
  destruct (C80_figures saves (mkPath d' nodes) x y None HD) as (times & line & q & dv & lines & b & first & last & F1 & F2 & F3 & F4 & F5 & F6 & F7).
  - cbn [lpDset]. rewrite M2. exact Hn31.
  - exact Hne.
  - cbn [lpDset lpNodes]. intros node Hin. destruct (AI node Hin) as (i & a & Hi & Ha).
    destruct (HN i node a Hi Ha) as (E & b0 & w & l & A1 & A2 & A3 & A4 & _ & A6).
    exists (0%Z :: map Z.of_nat E), (b0 :: w), l. split; [apply NI; assumption|]. split; [exact A3|].
    rewrite M1. fold m. rewrite (model_rss m n) by (try assumption; apply A1). exact A6.
  - cbn [lpDset lpNodes] in *. exists times, line, q, dv, lines, b, first, last. split.
    + cbv zeta in F1 |- *. rewrite <- F1. unfold plotlasso, plot_range, plot_defaults. rewrite EJ. cbn [fgMin fgMax].
      assert (R : nltb (n := XR) (ndec 1 (-10)) (nabs (nsub n0 n0)) = false).
      { change (xltb (ndec (n := XR) 1 (-10)) (XFin (Rabs (0 + - 0))) = false).
        change (ndec (n := XR) 1 (-10)) with (XFin (1 / IZR (10 ^ 10))). unfold xltb.
        apply Rltb_false. replace (0 + - 0) with 0 by ring. rewrite Rabs_R0. change (10 ^ 10)%Z with 10000000000%Z. lra. }
      rewrite R. reflexivity.
    + split; [exact F2|]. split; [exact F3|]. split; [exact F4|]. split; [exact F5|]. split; [|exact F7].
      intros i node a E b0 w l Hi Ha Hmod Hl. destruct (HN i node a Hi Ha) as (E' & b0' & w' & l' & A1 & A2 & A3 & A4 & A5 & A6).
      destruct Hmod as (B1 & B2 & B3 & B4). destruct A1 as (C1 & C2 & C3 & C4).
      rewrite B1 in C1. injection C1 as C1. apply of_nat_inj in C1. subst E'.
      rewrite B2 in C2. apply fins_inj in C2. injection C2 as <- <-. rewrite Hl in A2. injection A2 as <-.
      destruct (F6 i node (0%Z :: map Z.of_nat E) (b0 :: w) l Hi (NI node E b0 w l (conj B1 (conj B2 (conj B3 B4))) Hl A4)) as (G1 & G2).
      rewrite M1 in G1, G2. fold m in G1, G2. rewrite (model_rss m n) in G1, G2 by assumption. cbn [length] in G1. rewrite map_length in G1.
      rewrite <- A5 in G1. split; assumption.
Qed.

(** With the hypotheses of C74 (goselect lasso with LARS), a path that is not
    empty and a smallest penalty of at least 1e-300, goselect-plotlasso makes
    its four figures from the file the lasso command has written.  The quality
    figure shows the AICC scores of the file. *)
Theorem C80_lars_file : forall saves parse svd est fuel srt crdF thr (d : Dataset XR) x y lambMin lambMax num cov tol nd path,
  let m := mrows (dsX d) in let n := mcols (dsX d) in
  sort_spec byValueLess srt -> (0 < m)%nat -> (0 < n)%nat -> (Z.of_nat n <= 2 ^ 31)%Z ->
  rmat (dsX d) x -> dsY d = fins y -> length y = m ->
  (forall i, (i < m)%nat -> x i 0%nat = 1) ->
  (forall k, (0 < k < n)%nat -> / 10 ^ 10 <= sdev (column m x k)) -> 0 < sdev y ->
  full_rank m n x -> / 10 ^ 300 <= lambMin ->
  NewNormalizedData (dsX d) (dsY d) = Ok nd ->
  (forall E, StronglySorted lt E -> E <> [] -> (forall f, In f E -> (0 < f < n)%nat) ->
     exact_svd (icv_mat (ndX nd) (map Z.of_nat E)) (svd (icv_mat (ndX nd) (map Z.of_nat E))) /\
     no_tiny_sq (/ 1000000) (svd (icv_mat (ndX nd) (map Z.of_nat E)))) ->
  LassoLars (MorsePenroseCD svd) est nd (fin lambMin) fuel = Ok path -> path <> [] ->
  no_ties m n (standard_x m x) (fun i => nth i (standard_y y) 0) path ->
  exists rows j nodes aicc bic d',
    lassoFit srt (fun nd l => LassoLars (MorsePenroseCD svd) est nd l fuel) crdF thr (Some d)
      (fin lambMin) lambMax num "lars" cov tol = Ok (mkLassoOut (Some rows) (Some j)) /\
    LassoLarsPathFromBytes j = Ok (mkPath d' nodes, aicc, bic) /\ length nodes = length path /\
    all_drawn m n x y nodes aicc saves (plotlasso xlog10 saves parse (Some j)).
Proof.
  intros saves parse svd est fuel srt crdF thr d x y lambMin lambMax num cov tol nd path m n Hsrt Hm Hn Hn31 HX HY Hy Hb Hs HsY FR Hl End HS EL Hne NT.
  assert (P300 : 0 < / 10 ^ 300) by (apply Rinv_0_lt_compat, pow_lt; lra).
  destruct (C74_lars_command svd est fuel srt crdF thr d x y lambMin lambMax num cov tol nd path Hsrt Hm Hn HX HY Hy Hb Hs HsY FR ltac:(lra) End HS EL NT)
    as (rows & j & nodes & aicc & bic & d' & F1 & _ & F3 & F4 & F5 & _ & _ & L1 & L2 & L3 & W).
  exists rows, j, nodes, aicc, bic, d'. split; [exact F1|]. split; [exact F3|]. split; [exact L1|].
  apply (file_drawn saves d d' x y nodes aicc bic j parse); try assumption; [|rewrite L1; exact L2|].
  - intro C. subst nodes. destruct path; [congruence|discriminate L1].
  - intros i node a Hi Ha. assert (Q : (i < length nodes)%nat) by (apply nth_error_Some; congruence).
    destruct (nth_error bic i) as [b|] eqn:Eb; [|apply nth_error_None in Eb; lia].
    destruct (W i node a b Hi Ha Eb) as (E & b0 & w & l & W1 & W2 & W3 & W4 & W5 & _ & W7 & W8 & W9 & _ & W11 & _).
    exists E, b0, w, l. split; [repeat split; assumption|]. split; [exact W3|]. split; [lra|]. split; [exact W8|]. split; [exact W9|exact W11].
Qed.
Print Assumptions C80_lars_file.

(** The same for coordinate descent (C77), if no model fits the data exactly. *)
Theorem C80_cd_file : forall saves parse srt larsF crdF thr (d : Dataset XR) x y lambMin lambMax num tol nd lambs schedule c r,
  let m := mrows (dsX d) in let n := mcols (dsX d) in
  sort_spec byValueLess srt -> (0 < m)%nat -> (0 < n)%nat -> (Z.of_nat n <= 2 ^ 31)%Z ->
  rmat (dsX d) x -> dsY d = fins y -> length y = m ->
  (forall i, (i < m)%nat -> x i 0%nat = 1) ->
  (forall k, (0 < k < n)%nat -> / 10 ^ 10 <= sdev (column m x k)) -> 0 < sdev y ->
  / 10 ^ 300 <= lambMin <= lambMax -> (2 <= num)%Z ->
  NewNormalizedData (dsX d) (dsY d) = Ok nd ->
  Logspace (N := XR) (fin lambMin) (fin lambMax) num = Ok (fins lambs) ->
  path_run Empirical_Get nd (fins lambs) 100000 (fin tol) schedule (path_init (fins lambs) PureLasso) = Some c ->
  plMain c = PDone r ->
  crdF Empirical_Get nd (fins lambs) (fin tol) = Ok r ->
  exists rows nodes aicc bic file,
    lassoFit srt larsF crdF thr (Some d) (fin lambMin) (fin lambMax) num "cd" "empirical" (fin tol) =
      Ok (mkLassoOut (Some rows) file) /\
    PrintHighscore srt nodes aicc bic 20 = Ok rows /\
    ((forall node E b0 w, In node nodes -> model_of node E b0 w -> squared_error m n x y b0 (spread E w) <> 0) ->
       nodes <> [] ->
       exists j d', file = Some j /\ LassoLarsPathFromBytes j = Ok (mkPath d' nodes, aicc, bic) /\
         all_drawn m n x y nodes aicc saves (plotlasso xlog10 saves parse (Some j))).
Proof.
  intros saves parse srt larsF crdF thr d x y lambMin lambMax num tol nd lambs schedule c r m n Hsrt Hm Hn Hn31 HX HY Hy Hb Hs HsY Hl Hnum End EL ER ED EC.
  assert (P300 : 0 < / 10 ^ 300) by (apply Rinv_0_lt_compat, pow_lt; lra).
  destruct (C77_cd_command srt larsF crdF thr d x y lambMin lambMax num tol nd lambs schedule c r Hsrt Hm Hn HX HY Hy Hb Hs HsY ltac:(lra) Hnum End EL ER ED EC)
    as (rows & nodes & aicc & bic & file & kept & dropped & F1 & F2 & L1 & L2 & L3 & K & _ & _ & W & F3 & _).
  exists rows, nodes, aicc, bic, file. split; [exact F1|]. split; [exact F2|]. intros NZ Hne.
  destruct (F3 NZ) as (j & d' & -> & G1 & G2 & G3 & _). exists j, d'. split; [reflexivity|]. split; [exact G1|].
  assert (Low : forall l, In l kept -> lambMin <= l).
  { destruct (C51_logspace lambMin lambMax num ltac:(lra) Hnum) as (l0 & q & E0 & L0 & F0 & _ & _ & _ & _ & Mono).
    pose proof (eq_trans (eq_sym E0) EL) as Q. injection Q as Q. apply fins_inj in Q. subst l0.
    intros l Hin. assert (Hin' : In l lambs) by (rewrite K; apply in_or_app; left; rewrite <- in_rev; exact Hin).
    destruct (In_nth lambs l 0 Hin') as (i & Hi & <-). specialize (Mono 0%nat i ltac:(lia)). lra. }
  apply (file_drawn saves d d' x y nodes aicc bic j parse); try assumption; [rewrite L1; exact L2|].
  intros i node a Hi Ha. assert (Q : (i < length nodes)%nat) by (apply nth_error_Some; congruence).
  destruct (nth_error bic i) as [b|] eqn:Eb; [|apply nth_error_None in Eb; lia].
  destruct (nth_error kept i) as [l|] eqn:Ek; [|apply nth_error_None in Ek; lia].
  destruct (W i l node a b Ek Hi Ha Eb) as (E & b0 & w & W1 & W2 & W3 & W4 & _).
  exists E, b0, w, l. split; [exact W1|]. split; [exact W2|]. split; [specialize (Low l (nth_error_In _ _ Ek)); lra|]. split; [exact W3|]. split; [exact W4|].
  assert (P : 0 <= squared_error m n x y b0 (spread E w)) by (apply rsum_nonneg; intros; apply Rle_0_sqr).
  specialize (NZ node E b0 w (nth_error_In _ _ Hi) W1). destruct P as [P|P]; [exact P|]. exfalso. apply NZ. symmetry. exact P.
Qed.
Print Assumptions C80_cd_file.

(** ** Examples *)

(** two models for the identity matrix and the targets 3 and 5: the second
    column alone, then both *)
Definition plot_ex (w0 w1 : R) : LassoLarsPath XR :=
  mkPath (mkDataset (mkMat 2 2 (fun i j => fin (if (i =? j)%nat then 1 else 0))) (fins [3; 5]) ["a"; "b"; "t"]%string 2%Z)
    [mkLN (fins [4]) (fin 2) [1%Z]; mkLN (fins [w0; w1]) (fin 1) [0%Z; 1%Z]].
Definition id2 (i j : nat) : R := if (i =? j)%nat then 1 else 0.

Lemma plot_ex_data : forall w0 w1, real_data (lpDset (plot_ex w0 w1)) id2 [3; 5].
Proof. intros. split; [cbn; lia|]. split; [intros i j _ _; reflexivity|split; reflexivity]. Qed.
Lemma small300 : / 10 ^ 300 <= 1.
Proof. apply (Rle_trans _ (/ 1)); [|lra]. apply Rinv_le_contravar; [lra|]. apply pow_R1_Rle. lra. Qed.
Lemma plot_ex_first : node_is 2 (mkLN (fins [4]) (fin 2) [1%Z]) [1%Z] [4] 2.
Proof. repeat split; try discriminate; [repeat constructor| |]; destruct H as [<-|[]]; lia. Qed.
Lemma plot_ex_second : forall w0 w1, node_is 2 (mkLN (fins [w0; w1]) (fin 1) [0%Z; 1%Z]) [0%Z; 1%Z] [w0; w1] 1.
Proof. intros. repeat split; try discriminate; [repeat constructor; lia| |]; destruct H as [<-|[<-|[]]]; lia. Qed.
Lemma plot_ex_rss1 : node_rss 2 id2 [1%Z] [4] [3; 5] = 10.
Proof. unfold node_rss, id2, Rsqr. cbn. unfold Pos.to_nat. cbn. lra. Qed.
Lemma plot_ex_rss2 : forall w0 w1, node_rss 2 id2 [0%Z; 1%Z] [w0; w1] [3; 5] = Rsqr (w0 - 3) + Rsqr (w1 - 5).
Proof. intros. unfold node_rss, id2, Rsqr. cbn. unfold Pos.to_nat. cbn. ring. Qed.

(** With the coefficients 3 and 4 the residual of the second model is 1 and the
    four figures are made.  They are all announced also when none of the files
    can be written. *)
Example C80_example : exists times line q dv lines,
  let figs := [FigEntrance times line; FigQuality q; FigDev dv; FigPath lines None] in
  analyseLasso xlog10 (fun _ => true) (plot_ex 3 4) None = mkPlotOut figs figs true /\
  analyseLasso xlog10 (fun _ => false) (plot_ex 3 4) None = mkPlotOut figs [] true /\
  times = [(fin 1, fin (log10 2)); (fin 0, fin (log10 1)); (fin 1, fin (log10 1))] /\
  dv = [(fin (log10 2), fin (log10 (sqrt (10 / 2)))); (fin (log10 1), fin (log10 (sqrt (1 / 2))))] /\
  length lines = 2%nat.
Proof.
  assert (H : forall saves, exists (times line q dv : list (XR * XR)) lines,
    (let figs := [FigEntrance times line; FigQuality q; FigDev dv; FigPath lines None] in
    analyseLasso xlog10 saves (plot_ex 3 4) None = mkPlotOut figs (filter saves figs) true) /\
    times = [(fin 1, fin (log10 2)); (fin 0, fin (log10 1)); (fin 1, fin (log10 1))] /\
    dv = [(fin (log10 2), fin (log10 (sqrt (10 / 2)))); (fin (log10 1), fin (log10 (sqrt (1 / 2))))] /\
    length lines = 2%nat).
  { intro saves. pose proof small300 as S.
    destruct (C80_figures saves (plot_ex 3 4) id2 [3; 5] None (plot_ex_data 3 4)) as (times & line & q & dv & lines & b & first & last & F1 & F2 & _ & F4 & F5 & F6 & (n & F7 & F8) & F9 & F10 & _).
    - cbn. lia.
    - discriminate.
    - intros n [<-|[<-|[]]].
      + exists [1%Z], [4], 2. split; [exact plot_ex_first|]. split; [lra|]. cbn [mrows dsX lpDset plot_ex]. rewrite plot_ex_rss1. lra.
      + exists [0%Z; 1%Z], [3; 4], 1. split; [apply plot_ex_second|]. split; [exact S|]. cbn [mrows dsX lpDset plot_ex]. rewrite plot_ex_rss2. unfold Rsqr. lra.
    - exists times, line, q, dv, lines. split; [exact F1|]. split.
      + rewrite F2. cbn [lpNodes plot_ex flat_map map lnSelection lnLamb app]. rewrite !xlog10_pos by lra. reflexivity.
      + destruct (F6 0%nat _ [1%Z] [4] 2 eq_refl plot_ex_first) as (_ & G1).
        destruct (F6 1%nat _ [0%Z; 1%Z] [3; 4] 1 eq_refl (plot_ex_second 3 4)) as (_ & G2).
        cbn [mrows dsX lpDset plot_ex] in G1, G2. rewrite plot_ex_rss1 in G1. rewrite plot_ex_rss2 in G2.
        replace (Rsqr (3 - 3) + Rsqr (4 - 5)) with 1 in G2 by (unfold Rsqr; ring). change (INR 2) with 2 in G1, G2.
        split.
        * cbn in F5. destruct dv as [|u [|v [|]]]; try discriminate F5. cbn in G1, G2. injection G1 as ->. injection G2 as ->. reflexivity.
        * rewrite F10. assert (b = 1)%nat; [|subst; reflexivity].
          pose proof (F9 _ 1%Z (or_introl eq_refl) (or_introl eq_refl)). destruct F7 as [<-|[<-|[]]]; cbn [lnSelection] in F8.
          -- destruct F8 as [F8|[]]. lia.
          -- destruct F8 as [F8|[F8|[]]]; lia. }
  destruct (H (fun _ => true)) as (t & l & q & dv & ls & E & A1 & A2 & A3).
  destruct (H (fun _ => false)) as (t' & l' & q' & dv' & ls' & E' & B1 & B2 & B3).
  exists t, l, q, dv, ls. cbv zeta in *. cbn [filter] in E, E'. split; [exact E|].
  split; [|split; [exact A1|split; [exact A2|exact A3]]].
  assert (Q : poSaid (analyseLasso xlog10 (fun _ => false) (plot_ex 3 4) None) = poSaid (analyseLasso xlog10 (fun _ => true) (plot_ex 3 4) None)).
  { unfold analyseLasso. destruct (PlotEntranceTimes _ _ _) as [(u & v)| |]; cbn [bind next_figure poSaid]; try reflexivity.
    destruct (PlotQualityScores _ _ _); cbn [bind next_figure poSaid]; try reflexivity.
    destruct (PlotDeviations _ _ _); cbn [bind next_figure poSaid]; try reflexivity.
    destruct (PlotPath _ _ _); cbn [bind next_figure poSaid]; reflexivity. }
  rewrite E, E' in Q. cbn [poSaid] in Q. rewrite E', Q. reflexivity.
Qed.

(** With the coefficients 3 and 5 the second model is perfect. *)
Example C80_perfect_example : exists times line,
  analyseLasso xlog10 (fun _ => true) (plot_ex 3 5) None = mkPlotOut [FigEntrance times line] [FigEntrance times line] false.
Proof.
  pose proof small300 as S.
  destruct (C80_perfect_fit (fun _ => true) (plot_ex 3 5) id2 [3; 5] None (plot_ex_data 3 5)) as (times & line & E & _).
  - cbn. lia.
  - intros n [<-|[<-|[]]].
    + exists [1%Z], [4], 2. split; [exact plot_ex_first|lra].
    + exists [0%Z; 1%Z], [3; 5], 1. split; [apply plot_ex_second|exact S].
  - exists (mkLN (fins [3; 5]) (fin 1) [0%Z; 1%Z]), [0%Z; 1%Z], [3; 5], 1. split; [right; left; reflexivity|]. split; [apply plot_ex_second|].
    cbn [mrows dsX lpDset plot_ex]. rewrite plot_ex_rss2. unfold Rsqr. lra.
  - exists times, line. exact E.
Qed.

(** The file written for the data of C74_example is drawn. *)
Example C80_lars_example : exists nd rows j nodes aicc bic d',
  NewNormalizedData (dsX exc_d) (dsY exc_d) = Ok nd /\
  lassoFit (isort byValueLess) (fun nd l => LassoLars exc_cd (exc_X, None) nd l 10) (fun _ _ _ _ => Panic) (fun _ => Panic) (Some exc_d)
    (fin (/ 1000)) (fin 0) 0%Z "lars" "" (fin 0) = Ok (mkLassoOut (Some rows) (Some j)) /\
  LassoLarsPathFromBytes j = Ok (mkPath d' nodes, aicc, bic) /\ length nodes = 2%nat /\
  all_drawn 5 3 exc_x exc_y nodes aicc (fun _ => true) (plotlasso xlog10 (fun _ => true) (fun _ => mkFlags (N := XR) (fin 0) (fin 10)) (Some j)).
Proof.
  assert (HX : rmat (dsX exc_d) exc_x).
  { intros i k Hi Hk. cbn [exc_d dsX mrows mcols mval] in *. rewrite (proj2 (Nat.ltb_lt i 5) Hi), (proj2 (Nat.ltb_lt k 3) Hk). reflexivity. }
  assert (Hb : forall i, (i < 5)%nat -> exc_x i 0%nat = 1) by reflexivity.
  assert (Hs : forall k, (0 < k < 3)%nat -> / 10 ^ 10 <= sdev (column 5 exc_x k)).
  { assert (B : / 10 ^ 10 <= 1) by (rewrite <- Rinv_1; apply Rinv_le_contravar; [lra|]; apply pow_R1_Rle; lra).
    intros k Hk. destruct k as [|[|[|k]]]; try lia; [rewrite exc_sd1|rewrite exc_sd2]; lra. }
  assert (HsY : 0 < sdev exc_y) by (rewrite exc_sdy; lra).
  assert (FR : full_rank 5 3 exc_x).
  { intros v H. pose proof (H 0 ltac:(lia))%nat as A0. pose proof (H 1 ltac:(lia))%nat as A1. pose proof (H 2 ltac:(lia))%nat as A2.
    cbn in A0, A1, A2. intros k Hk. destruct k as [|[|[|k]]]; try lia; lra. }
  assert (End : exists nd, NewNormalizedData (dsX exc_d) (dsY exc_d) = Ok nd).
  { destruct (nnd_ok (dsX exc_d) exc_x HX ltac:(cbn; lia) exc_y ltac:(discriminate)) as (X' & E & _); [|eauto].
    intros c Hc. unfold tol10. replace (1 / IZR (10 ^ 10)) with (/ 10 ^ 10); [apply Hs; exact Hc|].
    change (10 ^ 10)%Z with 10000000000%Z. field. }
  destruct End as (nd & End).
  destruct (the_nd exc_d exc_x exc_y nd ltac:(cbn; lia) ltac:(cbn; lia) HX eq_refl eq_refl Hb Hs HsY End) as (X' & En & R1 & C1 & M1).
  assert (EX : ndX nd = exc_X).
  { pose proof (nnd_outside _ _ _ End) as O. rewrite En in O |- *. cbn [ndX] in O |- *.
    destruct X' as [r c V]. cbn [mrows mcols mval] in *. unfold exc_X. f_equal; [exact R1|exact C1|].
    apply functional_extensionality. intro i. apply functional_extensionality. intro k.
    destruct (Nat.lt_ge_cases i 5) as [Hi|Hi]; [destruct (Nat.lt_ge_cases k 3) as [Hk|Hk]|].
    - rewrite <- (exc_standard i k Hi). apply M1; [rewrite R1|rewrite C1]; assumption.
    - rewrite O by (cbn; lia). cbn [exc_d dsX mval]. rewrite (proj2 (Nat.ltb_ge k 3) Hk), Bool.andb_false_r.
      destruct k as [|[|[|k]]]; try lia. reflexivity.
    - rewrite O by (cbn; lia). cbn [exc_d dsX mval]. rewrite (proj2 (Nat.ltb_ge i 5) Hi). cbn [andb].
      destruct k as [|[|[|k]]]; cbn [exc_z]; try reflexivity; rewrite nth_overflow by (cbn; lia); reflexivity. }
  assert (Ey : ndy nd = fins exc_yz) by (rewrite En, <- exc_standard_y; reflexivity).
  pose proof (exc_runs (exc_X, None) nd EX Ey) as EL.
  destruct (C80_lars_file (fun _ => true) (fun _ => mkFlags (N := XR) (fin 0) (fin 10)) exc_svd (exc_X, None) 10 (isort byValueLess) (fun _ _ _ _ => Panic) (fun _ => Panic) exc_d exc_x exc_y (/ 1000) (fin 0) 0%Z "" (fin 0) nd exc_path)
    as (rows & j & nodes & aicc & bic & d' & F1 & F3 & F4 & F5); try assumption; try reflexivity; try (cbn; lia).
  - apply isort_spec. intros [u i] [v j]. apply (ltb_asym XR_OrdLaws).
  - replace 1000 with (10 ^ 3) by (cbn; lra). apply Rinv_le_contravar; [apply pow_lt; lra|]. apply Rle_pow; [lra|lia].
  - intros E SS _ HE. rewrite EX. apply exc_svd_exact; assumption.
  - discriminate.
  - rewrite exc_standard_y. exact exc_no_ties.
  - exists nd, rows, j, nodes, aicc, bic, d'. split; [exact End|]. split; [exact F1|]. split; [exact F3|].
    split; [exact F4|exact F5].
Qed.
