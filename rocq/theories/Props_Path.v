(** C54, C61: queries on a lasso path. *)
From Coq Require Import Reals Lra Sorting.Sorted SpecFloat String.
From Verif Require Import Base Num Mat Model_Node Model_Util RSum Proof_XR Model_Norm Proof_Norm Model_Fit Spec_Fit Model_CSV
  Model_Path Spec_Path Proof_Path Proof_Entrance Proof_Crit.
From Verif Require Props_Util.
Open Scope list_scope.

(** a path over three features *)
Definition ex_path (N : Num) (v : Z -> N) : LassoLarsPath N :=
  mkPath (mkDataset (mkMat 0 0 (fun _ _ => n0)) [] ["a"; "b"; "c"; "t"]%string 3%Z)
    [mkLN [v 5%Z] (v 9%Z) [2%Z]; mkLN [v 6%Z; v 7%Z] (v 8%Z) [0%Z; 2%Z]; mkLN [v 1%Z; v 2%Z; v 3%Z] (v 4%Z) [0%Z; 1%Z; 2%Z]].

(** ** C54 *)

(** Point i of ExtractPath(f) is the (log) regularisation of node i with the
    coefficient standing at the (first) place of f in the selection, or 0. *)
Theorem C54_extract_path : forall (N : Num) (lg : N -> N) (p : LassoLarsPath N) f,
  (forall n, In n (lpNodes p) -> (length (lnSelection n) <= length (lnCoeff n))%nat) ->
  exists xys, ExtractPath lg p f = Ok xys /\ length xys = length (lpNodes p) /\
    forall i n, nth_error (lpNodes p) i = Some n ->
      exists c, nth_error xys i = Some (lg (lnLamb n), c) /\
        ((~ In f (lnSelection n) /\ c = n0) \/
         (exists j, nth_error (lnSelection n) j = Some f /\ ~ In f (firstn j (lnSelection n)) /\
            nth_error (lnCoeff n) j = Some c)).
Proof.
  intros N lg p f H. exists (map (fun n => (lg (lnLamb n), coeff_of N n f)) (lpNodes p)).
  split; [apply extract_path; exact H|]. split; [apply map_length|].
  intros i n Hi. exists (coeff_of N n f). rewrite nth_error_map, Hi. split; [reflexivity|].
  assert (Hn : In n (lpNodes p)) by (apply nth_error_In in Hi; exact Hi). unfold coeff_of.
  destruct (find_coeff_spec N n f (H n Hn)) as [(A & E)|(k & c & A & B & C & E)]; rewrite E.
  - left. split; [exact A|reflexivity].
  - right. exists k. tauto.
Qed.
Print Assumptions C54_extract_path.

(** The features in order of first entry, without repetitions, up to the first
    node at which the requested number is reached. *)
Theorem C54_most_relevant : forall (N : Num) (p : LassoLarsPath N) numFeat,
  let entries k := keep_first (flat_map (fun n => lnSelection n) (firstn k (lpNodes p))) in
  exists k, (k <= length (lpNodes p))%nat /\ (lpNodes p <> [] -> (1 <= k)%nat) /\
    PickMostRelevantFeatures p numFeat = entries k /\
    (forall k', (1 <= k' < k)%nat -> (Z.of_nat (length (entries k')) < numFeat)%Z) /\
    (k = length (lpNodes p) \/ (numFeat <= Z.of_nat (length (entries k)))%Z) /\
    NoDup (entries k) /\
    (forall v, In v (entries k) <-> exists i n, (i < k)%nat /\ nth_error (lpNodes p) i = Some n /\ In v (lnSelection n)).
Proof.
  intros N p numFeat entries. destruct (pick_spec N p numFeat) as (k & A & B & C & D & E).
  exists k. split; [exact A|]. split; [exact B|]. split; [exact C|]. split; [exact D|].
  split; [rewrite C in E; exact E|]. split; [apply keep_first_NoDup|].
  intro v. unfold entries. rewrite keep_first_In, in_flat_map. split.
  - intros (n & Hn & Hv). apply In_nth_error in Hn. destruct Hn as (i & Hi).
    assert (Hik : (i < k)%nat).
    { assert (Hl : (i < length (firstn k (lpNodes p)))%nat) by (apply nth_error_Some; congruence).
      rewrite firstn_length in Hl. lia. }
    exists i, n. split; [exact Hik|]. split; [|exact Hv].
    rewrite <- Hi. rewrite <- (firstn_skipn k (lpNodes p)) at 1. apply nth_error_app1.
    rewrite firstn_length. lia.
  - intros (i & n & Hik & Hi & Hv). exists n. split; [|exact Hv].
    apply (nth_error_In _ i). rewrite <- Hi. rewrite <- (firstn_skipn k (lpNodes p)) at 2. symmetry.
    apply nth_error_app1. rewrite firstn_length. lia.
Qed.
Print Assumptions C54_most_relevant.

Theorem C54_extremes : forall (N : Num) (p : LassoLarsPath N) a b,
  (forall n v, In n (lpNodes p) -> In v (lnSelection n) -> (0 <= v < 2 ^ 31)%Z) ->
  MaxMinFeatNo p = (a, b) ->
  (forall n v, In n (lpNodes p) -> In v (lnSelection n) -> (a <= v <= b)%Z) /\
  ((exists n v, In n (lpNodes p) /\ In v (lnSelection n)) ->
    (exists n, In n (lpNodes p) /\ In a (lnSelection n)) /\ (exists n, In n (lpNodes p) /\ In b (lnSelection n))) /\
  ((forall n, In n (lpNodes p) -> lnSelection n = []) -> (a, b) = (2 ^ 31 - 1, 0)%Z).
Proof. intros N p a b H E. exact (proj2 (maxmin_spec N p a b H E)). Qed.
Print Assumptions C54_extremes.

(** The plot has one line for each feature number below the largest one and the
    zero line; the feature with the largest number has none. *)
Theorem C54_plot_misses_largest : forall (N : Num) (lg : N -> N) drawable (p : LassoLarsPath N) lines b,
  (forall n, In n (lpNodes p) -> (length (lnSelection n) <= length (lnCoeff n))%nat) ->
  (forall n v, In n (lpNodes p) -> In v (lnSelection n) -> (0 <= v <= b)%Z) -> (b < 2 ^ 31)%Z ->
  (exists n, In n (lpNodes p) /\ In b (lnSelection n)) ->
  PlotPath lg drawable p = Ok lines ->
  exists first last, nth_error (lpNodes p) 0 = Some first /\
    nth_error (lpNodes p) (length (lpNodes p) - 1) = Some last /\
    Z.of_nat (length lines) = (b + 1)%Z /\
    (forall f, (0 <= f < b)%Z -> exists xys, ExtractPath lg p f = Ok xys /\ nth_error lines (Z.to_nat f) = Some xys) /\
    nth_error lines (Z.to_nat b) = Some [(lg (lnLamb last), n0); (lg (lnLamb first), n0)].
Proof.
  intros N lg drawable p lines b Hc Hv Hb (n & Hn & Hbn) E.
  destruct (plot_path N lg drawable p lines Hc E) as (first & last & E1 & E2 & E3).
  destruct (MaxMinFeatNo p) as (mn, mx) eqn:Em. cbn [snd] in E3.
  assert (Hr : forall n v, In n (lpNodes p) -> In v (lnSelection n) -> (0 <= v < 2 ^ 31)%Z).
  { intros n' v' A B. specialize (Hv n' v' A B). lia. }
  destruct (maxmin_spec N p mn mx Hr Em) as (H0 & H1 & H2 & _).
  destruct (H2 (ex_intro _ n (ex_intro _ b (conj Hn Hbn)))) as (_ & n' & Hn' & Hmx).
  pose proof (H1 n b Hn Hbn). pose proof (Hv n' mx Hn' Hmx). assert (mx = b) by lia. subst mx.
  exists first, last. split; [exact E1|]. split; [exact E2|]. rewrite E3.
  assert (Hl : length (map (fun f => map (fun n => (lg (lnLamb n), coeff_of N n (Z.of_nat f))) (lpNodes p)) (seq 0 (Z.to_nat b))) = Z.to_nat b)
    by (rewrite map_length, seq_length; reflexivity).
  split; [rewrite app_length, Hl; cbn [length]; lia|]. split.
  - intros f Hf. eexists. split; [apply extract_path; exact Hc|].
    rewrite nth_error_app1 by lia. rewrite nth_error_map.
    rewrite (nth_error_nth' _ 0%nat) by (rewrite seq_length; lia). rewrite seq_nth by lia. cbn [option_map Nat.add].
    rewrite Z2Nat.id by lia. reflexivity.
  - rewrite nth_error_app2 by lia. rewrite Hl, Nat.sub_diag. reflexivity.
Qed.
Print Assumptions C54_plot_misses_largest.

Theorem C54_plot_empty_panics : forall (N : Num) (lg : N -> N) drawable d, PlotPath lg drawable (mkPath d []) = Panic.
Proof. reflexivity. Qed.
Print Assumptions C54_plot_empty_panics.

(** PlotEntranceTimes scatters every (feature, regularisation) pair and joins,
    in ascending order of the features, the largest regularisation at which
    each of them is selected. *)
Theorem C54_entrance_times : forall o (lg : F64 o -> F64 o) drawable (p : LassoLarsPath (F64 o)) times line,
  (forall n v, In n (lpNodes p) -> In v (lnSelection n) -> (0 <= v < 2 ^ 31)%Z) ->
  PlotEntranceTimes lg drawable p = Ok (times, line) ->
  times = flat_map (fun n => map (fun f => (nofZ f, lg (lnLamb n))) (lnSelection n)) (lpNodes p) /\
  exists feats, StronglySorted Z.lt feats /\
    (forall f, In f feats <-> exists n, In n (lpNodes p) /\ In f (lnSelection n) /\ nltb (nneg nmaxf) (lg (lnLamb n)) = true) /\
    Forall2 (fun f xy => fst xy = nofZ f /\
      (exists n, In n (lpNodes p) /\ In f (lnSelection n) /\ snd xy = lg (lnLamb n)) /\
      (forall n, In n (lpNodes p) -> In f (lnSelection n) -> nltb (snd xy) (lg (lnLamb n)) = false)) feats line.
Proof.
  intros o lg drawable p times line Hv E. destruct (MaxMinFeatNo p) as (mn, mx) eqn:Em.
  destruct (maxmin_spec (F64 o) p mn mx Hv Em) as (H0 & H1 & H2 & H3).
  assert (D : (exists n v, In n (lpNodes p) /\ In v (lnSelection n)) \/ (forall n, In n (lpNodes p) -> lnSelection n = [])).
  { clear. induction (lpNodes p) as [|n l IH]; [right; intros n []|].
    destruct (lnSelection n) as [|v s] eqn:En.
    - destruct IH as [(n' & v & A & B)|H]; [left; exists n', v; split; [right; exact A|exact B]|].
      right. intros n' [<-|Hn']; [exact En|exact (H n' Hn')].
    - left. exists n, v. rewrite En. split; left; reflexivity. }
  destruct D as [(n & v & A & B)|D].
  - apply (entrance_ok (F64 o) (f64_OrdLaws o) lg drawable p times line mn mx Em); [|exact H1|exact E].
    pose proof (H1 n v A B). lia.
  - exfalso. specialize (H3 D). injection H3 as -> ->. clear - E Em.
    unfold PlotEntranceTimes, entrance_tables in E. rewrite Em in E. unfold go_make, maxInt32 in E.
    destruct (Z.ltb_spec (0 - (2 ^ 31 - 1) + 1) 0) as [_|H]; [discriminate E|lia].
Qed.
Print Assumptions C54_entrance_times.

(** On a path with features 0, 1 and 2: the coefficients of feature 0, the
    order in which the features entered, and the plot without feature 2. *)
Example C54_example :
  let p := ex_path (F64 fenv0) nofZ in
  let f z := nofZ (n := F64 fenv0) z in
  ExtractPath (fun x => x) p 0 = Ok [(f 9%Z, f 0%Z); (f 8%Z, f 6%Z); (f 4%Z, f 1%Z)] /\
  PickMostRelevantFeatures p 2 = [2; 0]%Z /\ PickMostRelevantFeatures p 7 = [2; 0; 1]%Z /\
  MaxMinFeatNo p = (0, 2)%Z /\
  PlotPath (fun x => x) (fun _ => true) p = Ok [[(f 9%Z, f 0%Z); (f 8%Z, f 6%Z); (f 4%Z, f 1%Z)];
    [(f 9%Z, f 0%Z); (f 8%Z, f 0%Z); (f 4%Z, f 2%Z)]; [(f 4%Z, f 0%Z); (f 9%Z, f 0%Z)]] /\
  exists times, PlotEntranceTimes (fun x => x) (fun _ => true) p = Ok (times, [(f 0%Z, f 8%Z); (f 1%Z, f 4%Z); (f 2%Z, f 9%Z)]) /\
    length times = 6%nat.
Proof.
  split; [vm_compute; reflexivity|]. split; [vm_compute; reflexivity|]. split; [vm_compute; reflexivity|].
  split; [vm_compute; reflexivity|]. split; [vm_compute; reflexivity|].
  eexists. split; vm_compute; reflexivity.
Qed.

(** ** C61 *)
Open Scope R_scope.

Lemma fins_inj : forall a b, fins a = fins b -> a = b.
Proof. induction a as [|x a IH]; intros [|z b] H; try discriminate H; [reflexivity|]. injection H as -> H. f_equal. apply IH. exact H. Qed.

(** For nodes with strictly ascending selections (those of LassoLars are, C36)
    the criterion is taken at the residual of the node's own coefficients. *)
Theorem C61_criteria : forall (p : LassoLarsPath XR) A y crit,
  rmat (dsX (lpDset p)) A -> (0 < mrows (dsX (lpDset p)))%nat ->
  dsY (lpDset p) = fins y -> length y = mrows (dsX (lpDset p)) ->
  (forall n, In n (lpNodes p) -> exists w, lnCoeff n = fins w /\ length w = length (lnSelection n) /\ lnSelection n <> [] /\
     StronglySorted Z.lt (lnSelection n) /\ (forall v, In v (lnSelection n) -> (0 <= v < Z.of_nat (mcols (dsX (lpDset p))))%Z)) ->
  exists vals, GetCriteria p crit = Ok vals /\ length vals = length (lpNodes p) /\
    forall i n w, nth_error (lpNodes p) i = Some n -> lnCoeff n = fins w ->
      nth_error vals i = Some (crit (Z.of_nat (length (lnSelection n))) (Z.of_nat (mrows (dsX (lpDset p))))
        (fin (node_rss (mrows (dsX (lpDset p))) A (lnSelection n) w y))).
Proof.
  intros p A y crit HA Hr HY Hy Hn.
  destruct (criteria_spec p A y crit HA Hr HY Hy Hn) as (vals & E & L & V). exists vals. split; [exact E|]. split; [exact L|].
  intros i n w Hi Hw. destruct (Hn n (nth_error_In _ _ Hi)) as (w' & G). pose proof G as (Hc & _).
  assert (w = w') by (apply fins_inj; rewrite <- Hw, <- Hc; reflexivity). subst w'. exact (V i n w Hi G).
Qed.
Print Assumptions C61_criteria.

(** X has the columns (1,0) and (0,1), y = (3,5) *)
Definition ex_crit (sel : list Z) (w : list R) : LassoLarsPath XR :=
  mkPath (mkDataset (mkMat 2 2 (fun i j => if (i =? j)%nat then fin 1 else fin 0)) (fins [3; 5]) ["a"; "b"; "t"]%string 2%Z)
    [mkLN (fins w) (fin 1) sel].

Lemma ex_crit_rmat : forall sel w, rmat (dsX (lpDset (ex_crit sel w))) (fun i j => if (i =? j)%nat then 1 else 0).
Proof. intros sel w i j _ _. cbn. destruct (i =? j)%nat; reflexivity. Qed.

Lemma ex_crit_sorted : forall w0 w1, GetCriteria (ex_crit [0; 1]%Z [w0; w1]) (fun _ _ r => r) = Ok [fin (Rsqr (w0 - 3) + Rsqr (w1 - 5))].
Proof.
  intros w0 w1.
  destruct (C61_criteria (ex_crit [0; 1]%Z [w0; w1]) (fun i j => if (i =? j)%nat then 1 else 0) [3; 5] (fun _ _ r => r)) as (vals & E & L & V).
  - apply ex_crit_rmat. 
  - cbn; lia. 
  - reflexivity. 
  - reflexivity.
  - intros n [<-|[]]. exists [w0; w1]. split; [reflexivity|]. split; [reflexivity|]. split; [discriminate|]. split.
    + repeat constructor.
    + cbn. intros v [<-|[<-|[]]]; lia.
  - rewrite E. specialize (V 0%nat _ [w0; w1] eq_refl eq_refl). destruct vals as [|v [|]]; try discriminate L.
    injection V as ->. assert (G : node_rss 2 (fun i j => if (i =? j)%nat then 1 else 0) [0; 1]%Z [w0; w1] [3; 5] = Rsqr (w0 - 3) + Rsqr (w1 - 5)).
    { unfold node_rss. cbn -[Z.to_nat]. change (Z.to_nat 1) with 1%nat. change (Z.to_nat 0) with 0%nat. cbn. unfold Rsqr. ring. }
    apply (f_equal (fun r => Ok [fin r])). exact G.
Qed.

(** The coefficients are paired with the columns in ascending order, whatever
    the order of the selection: an exact fit listed as (1, 0) gets residual 8.
    Selections that NestedLasso maps to the original features need not be
    ascending. *)
Theorem C61_unsorted_refuted : exists (p : LassoLarsPath XR) A y n w,
  rmat (dsX (lpDset p)) A /\ dsY (lpDset p) = fins y /\ lpNodes p = [n] /\ lnCoeff n = fins w /\
  NoDup (lnSelection n) /\ (forall v, In v (lnSelection n) -> (0 <= v < Z.of_nat (mcols (dsX (lpDset p))))%Z) /\
  length w = length (lnSelection n) /\
  node_rss (mrows (dsX (lpDset p))) A (lnSelection n) w y = 0 /\
  GetCriteria p (fun _ _ r => r) = Ok [fin 8].
Proof.
  exists (ex_crit [1; 0]%Z [5; 3]), (fun i j => if (i =? j)%nat then 1 else 0), [3; 5],
    (mkLN (fins [5; 3]) (fin 1) [1; 0]%Z), [5; 3].
  split; [apply ex_crit_rmat|]. split; [reflexivity|]. split; [reflexivity|]. split; [reflexivity|].
  split; [repeat constructor; cbn; intuition lia|]. split; [cbn; intros v [<-|[<-|[]]]; lia|]. split; [reflexivity|]. split.
  - unfold node_rss. cbn -[Z.to_nat]. change (Z.to_nat 1) with 1%nat. change (Z.to_nat 0) with 0%nat. cbn. unfold Rsqr. ring.
  - transitivity (GetCriteria (ex_crit [0; 1]%Z [5; 3]) (fun _ _ r => r)); [reflexivity|]. rewrite ex_crit_sorted.
    apply (f_equal (fun r => Ok [fin r])). unfold Rsqr. ring.
Qed.
Print Assumptions C61_unsorted_refuted.

Example C61_example : GetCriteria (ex_crit [0; 1]%Z [3; 6]) (fun _ _ r => r) = Ok [fin 1].
Proof. rewrite ex_crit_sorted. apply (f_equal (fun r => Ok [fin r])). unfold Rsqr. ring. Qed.

(** ** C53 on a lasso path: the average of the nodes of a path, expanded *)
Theorem C53_path_average : forall numFeat (ws : list R) (nodes : list (LassoLarsNode XR)),
  (0 <= numFeat)%Z -> length ws = length nodes ->
  (forall n, In n nodes -> exists w, lnCoeff n = fins w /\ NoDup (lnSelection n) /\
     (forall v, In v (lnSelection n) -> 0 <= v < numFeat)%Z /\ (length (lnSelection n) <= length w)%nat) ->
  exists full : list (list R),
    (forall i n, nth_error nodes i = Some n ->
       FullCoeffVector numFeat (lnSelection n) (lnCoeff n) = Ok (fins (nth i full []))) /\
    WeightedAveragedCoeff numFeat (fins ws) (LassoNodesSlice2SparsCoeff nodes) =
    Ok (fins (map (fun k => rsum (length ws) (fun i => nth i ws 0 * nth k (nth i full []) 0)%R) (seq 0 (Z.to_nat numFeat)))).
Proof.
  intros numFeat ws nodes H0 Hl Hn.
  assert (H : exists cs : list (list R * list Z), map (fun n => (lnCoeff n, lnSelection n)) nodes = map (fun p => (fins (fst p), snd p)) cs).
  { clear Hl. induction nodes as [|n nodes IH]; [exists []; reflexivity|].
    destruct IH as (cs & E); [intros m Hm; apply Hn; right; exact Hm|]. destruct (Hn n (or_introl eq_refl)) as (w & Ew & _).
    exists ((w, lnSelection n) :: cs). cbn [map fst snd]. rewrite E, Ew. reflexivity. }
  destruct H as (cs & E).
  assert (Lc : length cs = length nodes) by (rewrite <- (map_length (fun p => (fins (fst p), snd p)) cs), <- E; apply map_length).
  assert (K : forall i n, nth_error nodes i = Some n -> exists p, nth_error cs i = Some p /\ lnCoeff n = fins (fst p) /\ lnSelection n = snd p).
  { intros i n Hi. pose proof (map_nth_error (fun n => (lnCoeff n, lnSelection n)) i nodes Hi) as M. rewrite E, nth_error_map in M.
    destruct (nth_error cs i) as [p|]; cbn in M; [|discriminate M]. injection M as M1 M2. exists p. auto. }
  destruct (Props_Util.C53_weighted_average numFeat ws cs H0 ltac:(lia)) as (full & F1 & F2).
  { intros p Hp. destruct (In_nth_error _ _ Hp) as (i & Hi).
    destruct (nth_error nodes i) as [n|] eqn:En; [|apply nth_error_None in En; assert (i < length cs)%nat by (apply nth_error_Some; congruence); lia].
    destruct (K i n En) as (p' & P1 & P2 & P3). assert (p' = p) by congruence. subst p'.
    destruct (Hn n (nth_error_In _ _ En)) as (w & W1 & W2 & W3 & W4). rewrite P3 in W2, W3, W4.
    split; [exact W2|]. split; [exact W3|]. assert (w = fst p) by (apply fins_inj; congruence). subst w. exact W4. }
  exists full. split.
  - intros i n Hi. destruct (K i n Hi) as (p & P1 & P2 & P3). rewrite P2, P3. exact (F1 i p P1).
  - refine (eq_trans _ F2). f_equal. unfold LassoNodesSlice2SparsCoeff.
    transitivity (map (fun q : list XR * list Z => mkSparse (N := XR) (fst q) (snd q)) (map (fun n => (lnCoeff n, lnSelection n)) nodes)).
    + rewrite map_map. reflexivity.
    + rewrite E, map_map. reflexivity.
Qed.
Print Assumptions C53_path_average.

Example C53_path_example :
  match WeightedAveragedCoeff (N := F64 fenv0) 3 (map f64_ofZ [2; 10; 100]%Z) (LassoNodesSlice2SparsCoeff (lpNodes (ex_path (F64 fenv0) f64_ofZ))) with
  | Ok l => l = map f64_ofZ [160; 200; 380]%Z | _ => False end.
Proof. vm_compute. reflexivity. Qed.
