(** C36, C37, C60: lasso by LARS. *)
From Coq Require Import Permutation Sorted Reals Lra Psatz.
From Verif Require Import Base Num Mat Model_Node Model_Util Model_Fit Model_Norm Model_Lars
  Proof_Node Proof_Util RSum Proof_XR Proof_Norm Proof_Fit Spec_Fit Proof_Fit3 Props_Fit
  Proof_Lars Spec_Lars Proof_Homotopy Proof_Lars2 Proof_Lars3 Eval.

(** ** C36: the structure of the path, in binary64 *)

(** what every node looks like *)
Definition node_ok {N : Num} (nc : nat) (lambMin : N) (nd : LassoLarsNode N) : Prop :=
  StronglySorted Z.lt (lnSelection nd) /\ lnSelection nd <> [] /\
  (forall s, In s (lnSelection nd) -> (0 <= s < Z.of_nat nc)%Z) /\
  length (lnCoeff nd) = length (lnSelection nd) /\ nltb lambMin (lnLamb nd) = true.

Lemma lars_path : forall (N : Num), OrdLaws N -> nltb (n0 (N := N)) (nofZ (-1)) = false -> nisnan (n0 (N := N)) = false ->
  forall (cd : CDParam N) est data lambMin fuel path,
  LassoLars cd est data lambMin fuel = Ok path ->
  Forall (node_ok (mcols (ndX data)) lambMin) path /\
  (forall l1 a b l2, path = l1 ++ a :: b :: l2 ->
     nltb (lnLamb a) (lnLamb b) = false /\
     exists f, (Permutation (lnSelection b) (f :: lnSelection a) /\ ~ In f (lnSelection a)) \/
               (Permutation (lnSelection a) (f :: lnSelection b) /\ ~ In f (lnSelection b))) /\
  (forall a l, path = a :: l -> exists xty feat,
     mat_mulvec (mat_T (ndX data)) (ndy data) = Ok xty /\ lnSelection a = [Z.of_nat feat] /\
     (forall j x, nth_error xty j = Some x -> nltb (lnLamb a) (nabs x) = false) /\
     ((exists x, nth_error xty feat = Some x /\ lnLamb a = nabs x) \/ (lnLamb a = n0 /\ feat = 0%nat))).
Proof.
  intros N OL Hm1 H0 cd est data lambMin fuel path E. unfold LassoLars in E.
  destruct (lars_start cd est (ndX data) (ndy data)) as [st| |] eqn:Es; cbn [bind] in E; try discriminate E.
  destruct (lars_loop cd (ndX data) (ndy data) lambMin fuel st) as [st'| |] eqn:El; cbn [bind] in E; try discriminate E.
  injection E as <-.
  destruct (start_LI N OL H0 cd (ndX data) (ndy data) lambMin est st Es) as (xty & Ex & Hlen & _ & _ & _ & feat & HI & Ha & Hs & Hmax & _ & _ & Hat & _).
  pose proof (loop_LI N OL Hm1 H0 cd (ndX data) (ndy data) lambMin (laLamb st) feat fuel st st' HI Hs El) as HI'.
  split; [exact (li_good _ _ _ _ _ _ _ HI')|]. split.
  - intros l1 a b l2 Ep. destruct (li_chain _ _ _ _ _ _ _ HI' l1 a b l2 Ep) as (A1 & A2). split; [exact A1|]. exact A2.
  - intros a l Ep. destruct (li_head _ _ _ _ _ _ _ HI' a l Ep) as (H1 & H2). exists xty, feat. rewrite H2.
    split; [exact Ex|]. split; [exact H1|]. split; [exact Hmax|]. destruct Hat as [Hat|Hat]; auto.
Qed.

(** For every estimator, dataset, lower limit and number of rounds, with the
    comparisons of binary64:
    - every node is well formed and above the limit,
    - along the path lambda never increases, and from one node to the next
      exactly one feature enters or leaves,
    - the first node has the one feature with the largest |x_j . y| (which is
      also its lambda; with nothing but zeros or NaNs it is 0 and feature 0). *)
Theorem C36_path_structure : forall o (cd : CDParam (F64 o)) est (data : NormalizedData (F64 o)) (lambMin : F64 o) fuel path,
  LassoLars cd est data lambMin fuel = Ok path ->
  Forall (node_ok (mcols (ndX data)) lambMin) path /\
  (forall l1 a b l2, path = l1 ++ a :: b :: l2 ->
     nltb (lnLamb a) (lnLamb b) = false /\
     exists f, (Permutation (lnSelection b) (f :: lnSelection a) /\ ~ In f (lnSelection a)) \/
               (Permutation (lnSelection a) (f :: lnSelection b) /\ ~ In f (lnSelection b))) /\
  (forall a l, path = a :: l -> exists xty feat,
     mat_mulvec (mat_T (ndX data)) (ndy data) = Ok xty /\ lnSelection a = [Z.of_nat feat] /\
     (forall j x, nth_error xty j = Some x -> nltb (lnLamb a) (nabs x) = false) /\
     ((exists x, nth_error xty feat = Some x /\ lnLamb a = nabs x) \/ (lnLamb a = n0 /\ feat = 0%nat))).
Proof. intros o. apply lars_path; [apply f64_OrdLaws|reflexivity|reflexivity]. Qed.
Print Assumptions C36_path_structure.

(** the estimator for orthonormal columns: c = X_E^T y, d = s *)
Definition orthonormalCD {N : Num} : CDParam N := {|
  cdState := (Mat N * list Z)%type;
  cdSetX := fun st X => (X, snd st);
  cdSetActive := fun st active => Ok (fst st, active);
  cdC := fun st y => mat_mulvec (mat_T (icv_mat (fst st) (snd st))) y;
  cdD := fun st signs => Ok signs
|}.

Definition exl_X {N : Num} : Mat N := mkMat 3 2 (fun i j => if (i =? j)%nat then n1 else n0).
Definition exl_nd : NormalizedData (F64 fenv0) :=
  mkND exl_X (map (nofZ (n := F64 fenv0)) [1; -3; 2]%Z) [] [] n0 n0 false.

Example C36_example :
  match LassoLars orthonormalCD (exl_X, []) exl_nd (ndec 1 (-3)) 10 with
  | Ok [a; b] => lnSelection a = [1]%Z /\ lnSelection b = [0; 1]%Z /\ lnLamb a = nofZ 3 /\ lnLamb b = n1 /\
                 lnCoeff b = [n0; nofZ (-2)]
  | _ => False
  end.
Proof. vm_compute. auto 10. Qed.

(** ** C37: the nodes and the lasso problem, with exact arithmetic *)

(** An exact estimator: in the states [P] (those in which it has been given X),
    C returns c with X_E^T (y - X_E c) = 0 and D returns d with
    X_E^T X_E d = s, for every set E of columns none of which is identically
    zero.  (For a zero column, such as a normalised bias column, the second
    equation has no solution.) *)
Definition exact_cd (X : Mat XR) (A : nat -> nat -> R) (yr : list R) (cd : CDParam XR) (P : cdState cd -> Prop) : Prop :=
  forall st E est, P st -> StronglySorted lt E -> E <> [] -> (forall f, In f E -> (f < mcols X)%nat) ->
    (forall f, In f E -> nonzero_col (mrows X) A f) ->
    cdSetActive cd st (map Z.of_nat E) = Ok est -> P est /\
    (forall c, cdC cd est (fins yr) = Ok c -> exists cr, c = fins cr /\ length cr = length E /\
       forall f, In f E -> corr (mrows X) (mcols X) A (fun i => nth i yr 0) (spread E cr) f = 0) /\
    (forall (s : nat -> R) d, (forall f, In f E -> s f = 1 \/ s f = -1) -> cdD cd est (fins (map s E)) = Ok d ->
       exists dr, d = fins dr /\ length dr = length E /\
       forall f, In f E -> rsum (mrows X) (fun i => A i f * rsum (mcols X) (fun k => A i k * spread E dr k)) = s f).

Lemma exact_cd_est : forall X A yr cd P, exact_cd X A yr cd P -> exact_estimator X A yr cd P.
Proof.
  intros X A yr cd P H st E est H1 H2 H3 H4 HG H5. destruct (H st E est H1 H2 H3 H4 HG H5) as (Q1 & Q2 & Q3). split; [exact Q1|]. split.
  - intros c Hc. destruct (Q2 c Hc) as (cr & R1 & R2 & R3). exists cr. split; [exact R1|]. split; [exact R2|]. intros f Hf.
    specialize (R3 f Hf). rewrite corr_gv in R3. lra.
  - intros s d Hs Hd. destruct (Q3 s d Hs Hd) as (dr & R1 & R2 & R3). exists dr. split; [exact R1|]. split; [exact R2|]. exact R3.
Qed.

(** Every node of every path: the correlation of each selected feature with
    the residual is lambda times a sign.  (The dataset may have zero columns
    unless the lower limit is negative.) *)
Theorem C37_stationary : forall (data : NormalizedData XR) A yr (cd : CDParam XR) P est lambMin fuel path,
  rmat (ndX data) A -> ndy data = fins yr -> length yr = mrows (ndX data) ->
  exact_cd (ndX data) A yr cd P -> P (cdSetX cd est (ndX data)) ->
  nltb lambMin n0 = false \/ (forall f, (f < mcols (ndX data))%nat -> nonzero_col (mrows (ndX data)) A f) ->
  LassoLars cd est data lambMin fuel = Ok path ->
  forall nd, In nd path -> exists E v l s,
    lnSelection nd = map Z.of_nat E /\ lnCoeff nd = fins v /\ lnLamb nd = fin l /\ length v = length E /\
    forall f, In f E -> (s f = 1 \/ s f = -1) /\
      corr (mrows (ndX data)) (mcols (ndX data)) A (fun i => nth i yr 0) (spread E v) f = l * s f.
Proof.
  intros data A yr cd P est lambMin fuel path HX Ey Hy HE HP HLM E. unfold LassoLars in E. rewrite Ey in E.
  apply exact_cd_est in HE.
  destruct (lars_start cd est (ndX data) (fins yr)) as [st| |] eqn:Es; cbn [bind] in E; try discriminate E.
  destruct (lars_loop cd (ndX data) (fins yr) lambMin fuel st) as [st'| |] eqn:El; cbn [bind] in E; try discriminate E.
  injection E as <-.
  destruct (start_rs (ndX data) A yr HX Hy cd P est st Es HP) as (l & s & feat & HS & _ & HR & _).
  pose proof (loop_stat (ndX data) A yr HX Hy cd P HE lambMin fuel st st') as H.
  apply Forall_forall. apply H; [|eauto|rewrite HR; constructor|exact El].
  destruct HLM as [HLM|HLM]; [left|right; exact HLM]. intros l' Hl'. destruct lambMin as [| | |r]; try discriminate.
  apply (proj1 (xlt_false r 0)) in HLM. apply (proj1 (xlt_true r l')) in Hl'. lra.
Qed.
Print Assumptions C37_stationary.

(** Hypotheses on the path itself: lambda strictly decreases, and no coefficient
    that was already present in the previous node vanishes between lambda and
    lambda - 1e-6 on the line through the node. *)
Definition no_ties (m n : nat) (A : nat -> nat -> R) (y : nat -> R) (path : list (LassoLarsNode XR)) : Prop :=
  forall l1 a b l2, path = l1 ++ a :: b :: l2 ->
    (exists la lb, lnLamb a = fin la /\ lnLamb b = fin lb /\ lb < la) /\
    (forall E v l s, lnSelection b = map Z.of_nat E -> lnCoeff b = fins v -> lnLamb b = fin l ->
       segment m n A y E s l (spread E v) ->
       forall f, In f E -> In (Z.of_nat f) (lnSelection a) ->
       forall t w, l - / 1000000 < t <= l -> segment m n A y E s t w -> w f <> 0).

(** Then every node is a minimiser of 1/2 |y - X b|^2 + lambda |b|_1, up to
    2e-6 |b'|_1 against the competitor b'. *)
Theorem C37_lasso_optimal : forall (data : NormalizedData XR) A yr (cd : CDParam XR) P est mn fuel path,
  rmat (ndX data) A -> ndy data = fins yr -> length yr = mrows (ndX data) ->
  exact_cd (ndX data) A yr cd P -> P (cdSetX cd est (ndX data)) -> independent (mrows (ndX data)) (mcols (ndX data)) A ->
  0 <= mn -> LassoLars cd est data (fin mn) fuel = Ok path ->
  no_ties (mrows (ndX data)) (mcols (ndX data)) A (fun i => nth i yr 0) path ->
  forall nd, In nd path -> exists E v l,
    lnSelection nd = map Z.of_nat E /\ lnCoeff nd = fins v /\ lnLamb nd = fin l /\ length v = length E /\
    forall b', lasso_cost (mrows (ndX data)) (mcols (ndX data)) A (fun i => nth i yr 0) l (spread E v) <=
      lasso_cost (mrows (ndX data)) (mcols (ndX data)) A (fun i => nth i yr 0) l b' +
      2 / 1000000 * rsum (mcols (ndX data)) (fun k => Rabs (b' k)).
Proof.
  intros data A yr cd P est mn fuel path HX Ey Hy HE HP FR Hmn E NT nd Hnd. unfold LassoLars in E. rewrite Ey in E.
  apply exact_cd_est in HE.
  destruct (lars_start cd est (ndX data) (fins yr)) as [st| |] eqn:Es; cbn [bind] in E; try discriminate E.
  destruct (lars_loop cd (ndX data) (fins yr) (fin mn) fuel st) as [st'| |] eqn:El; cbn [bind] in E; try discriminate E.
  injection E as <-.
  destruct (start_rs (ndX data) A yr HX Hy cd P est st Es HP) as (l0 & s0 & feat & HS & _ & HR & _ & _ & _ & _ & HK).
  assert (H : Forall (node_kkt (ndX data) A yr) (laRes st')).
  { apply (loop_kkt (ndX data) A yr HX Hy cd P HE FR mn fuel st st' Hmn); [|rewrite HR; constructor|exact El|exact NT].
    exists l0, s0, 0, (Some feat). split; [exact HS|]. intros Hl0 _. apply HK; [exact FR|exact Hl0]. }
  rewrite Forall_forall in H. destruct (H nd Hnd) as (E & v & l & s & N1 & N2 & N3 & Hl & Hlen & Hin & Hout).
  exists E, v, l. split; [exact N1|]. split; [exact N2|]. split; [exact N3|]. split; [exact Hlen|].
  apply kkt_optimal; [lra| |].
  - intros f Hf. destruct (in_dec Nat.eq_dec f E) as [C|C]; [|apply Hout; assumption].
    destruct (Hin f C) as (Hs & -> & _). destruct Hs as [Hs|Hs]; rewrite Hs.
    + rewrite Rabs_right by lra. lra.
    + rewrite Rabs_left1 by lra. lra.
  - intros f Hf. destruct (in_dec Nat.eq_dec f E) as [C|C].
    + destruct (Hin f C) as (Hs & -> & Hp). destruct Hs as [Hs|Hs]; rewrite Hs in *.
      * rewrite Rabs_right by lra. ring.
      * rewrite Rabs_left1 by lra. ring.
    + rewrite spread_out by exact C. rewrite Rabs_R0. ring.
Qed.
Print Assumptions C37_lasso_optimal.

(** Two points of a path, the second with the smaller lambda: up to the
    tolerance 2e-6 of the optimality the coefficients are larger in total size
    and the residual is smaller. *)
Definition l1_size (n : nat) (b : nat -> R) : R := rsum n (fun k => Rabs (b k)).
Definition rss_of (m n : nat) (A : nat -> nat -> R) (y : nat -> R) (b : nat -> R) : R :=
  rsum m (fun i => Rsqr (y i - rsum n (fun k => A i k * b k))).

Theorem C37_shrinkage : forall (data : NormalizedData XR) A yr (cd : CDParam XR) P est mn fuel path,
  rmat (ndX data) A -> ndy data = fins yr -> length yr = mrows (ndX data) ->
  exact_cd (ndX data) A yr cd P -> P (cdSetX cd est (ndX data)) -> independent (mrows (ndX data)) (mcols (ndX data)) A ->
  0 <= mn -> LassoLars cd est data (fin mn) fuel = Ok path ->
  no_ties (mrows (ndX data)) (mcols (ndX data)) A (fun i => nth i yr 0) path ->
  forall nd1 nd2, In nd1 path -> In nd2 path -> exists E1 v1 l1 E2 v2 l2,
    lnSelection nd1 = map Z.of_nat E1 /\ lnCoeff nd1 = fins v1 /\ lnLamb nd1 = fin l1 /\
    lnSelection nd2 = map Z.of_nat E2 /\ lnCoeff nd2 = fins v2 /\ lnLamb nd2 = fin l2 /\
    let m := mrows (ndX data) in let n := mcols (ndX data) in let y := fun i => nth i yr 0 in
    let b1 := spread E1 v1 in let b2 := spread E2 v2 in
    (l1 - l2 - 2 / 1000000) * l1_size n b1 <= (l1 - l2 + 2 / 1000000) * l1_size n b2 /\
    rss_of m n A y b2 <= rss_of m n A y b1 + 2 * l2 * (l1_size n b1 - l1_size n b2) + 4 / 1000000 * l1_size n b1.
Proof.
  intros data A yr cd P est mn fuel path HX Ey Hy HE HP FR Hmn E NT nd1 nd2 H1 H2.
  destruct (C37_lasso_optimal data A yr cd P est mn fuel path HX Ey Hy HE HP FR Hmn E NT nd1 H1) as (E1 & v1 & l1 & A1 & A2 & A3 & _ & A5).
  destruct (C37_lasso_optimal data A yr cd P est mn fuel path HX Ey Hy HE HP FR Hmn E NT nd2 H2) as (E2 & v2 & l2 & B1 & B2 & B3 & _ & B5).
  exists E1, v1, l1, E2, v2, l2. do 6 (split; [assumption|]). cbv zeta.
  specialize (A5 (spread E2 v2)). specialize (B5 (spread E1 v1)). unfold lasso_cost in A5, B5.
  fold (l1_size (mcols (ndX data)) (spread E1 v1)) in A5, B5. fold (l1_size (mcols (ndX data)) (spread E2 v2)) in A5, B5.
  fold (rss_of (mrows (ndX data)) (mcols (ndX data)) A (fun i => nth i yr 0) (spread E1 v1)) in A5, B5.
  fold (rss_of (mrows (ndX data)) (mcols (ndX data)) A (fun i => nth i yr 0) (spread E2 v2)) in A5, B5.
  split; lra.
Qed.
Print Assumptions C37_shrinkage.

(** The estimator of the library is exact for independent non-zero columns, given exact
    factorisations without singular values between 0 and the cut-off. *)
Lemma gv_spread : forall m n A E v f, (forall g, In g E -> (g < n)%nat) ->
  rsum m (fun i => A i f * rsum n (fun k => A i k * spread E v k)) =
  rsum (length E) (fun j => rsum m (fun i => A i f * A i (nth j E 0%nat)) * nth j v 0).
Proof.
  intros m n A E v f HE.
  transitivity (rsum m (fun i => rsum (length E) (fun j => A i f * A i (nth j E 0%nat) * nth j v 0))).
  - apply rsum_ext. intros i Hi. rewrite (spread_sum n E v (fun k => A i k) HE), <- rsum_scal. apply rsum_ext. intros. ring.
  - rewrite rsum_swap. apply rsum_ext. intros j Hj. apply rsum_scal_r.
Qed.

(** the D parameter for independent columns *)
Lemma mpd_full : forall X A f sg inv, rmat X A -> exact_svd X f -> no_tiny_sq (/ 1000000) f -> full_rank (mrows X) (mcols X) A ->
  PseudoInverseXTX f (ndec 1 (-6)) = Ok inv -> length sg = mcols X ->
  exists d, mpD inv (fins sg) = Ok (fins d) /\ length d = mcols X /\
    forall j, (j < mcols X)%nat ->
      rsum (mcols X) (fun j' => rsum (mrows X) (fun i => A i j * A i j') * nth j' d 0) = nth j sg 0.
Proof.
  intros X A f sg inv HA HS Hn FR Hi Hl.
  destruct (pseudo_inverse_xtx_mp X A f (/ 1000000) HA HS ltac:(lra) Hn) as (Q & p & EP & RP & CP & QP & (MP1 & _) & _).
  rewrite e6_fin in Hi. rewrite EP in Hi. injection Hi as <-.
  unfold mpD. rewrite (mat_mulvec_fin Q p sg QP) by lia.
  eexists. split; [reflexivity|]. split; [rewrite map_length, seq_length; auto|].
  set (k := mcols X) in *. set (G := fun i j => rsum (mrows X) (fun a => A a i * A a j)).
  (* G p = 1 *)
  assert (GP : forall i j, (i < k)%nat -> (j < k)%nat -> rsum k (fun a => G i a * p a j) = delta i j).
  { intros i j Hi Hj. set (u := fun c => rsum k (fun a => G i a * p a c) - delta i c).
    assert (U0 : forall c, (c < k)%nat -> u c = 0).
    { apply (FR u). intros a Ha.
      assert (Z : rsum k (fun b => u b * rsum k (fun c => G b c * u c)) = 0).
      { apply rsum_0'. intros b Hb. replace (rsum k (fun c => G b c * u c)) with 0; [ring|]. symmetry.
        transitivity (rsum k (fun c => rsum k (fun a => G i a * p a c) * G c b) - G i b).
        - transitivity (rsum k (fun c => rsum k (fun a => G i a * p a c) * G c b) - rsum k (fun c => delta i c * G c b)).
          + rewrite <- rsum_minus. apply rsum_ext. intros c Hc. unfold u.
            replace (G b c) with (G c b) by (unfold G; apply rsum_ext; intros; ring). ring.
          + rewrite rsum_delta_l by exact Hi. reflexivity.
        - pose proof (MP1 i b Hi Hb) as M1. change (rsum k (fun a => G i a * rsum k (fun c => p a c * G c b)) = G i b) in M1. rewrite <- M1.
          transitivity (rsum k (fun a => G i a * rsum k (fun c => p a c * G c b)) - rsum k (fun a => G i a * rsum k (fun c => p a c * G c b))); [|ring].
          f_equal. transitivity (rsum k (fun c => rsum k (fun a => G i a * p a c * G c b))).
          + apply rsum_ext. intros c Hc. symmetry. apply rsum_scal_r.
          + rewrite rsum_swap. apply rsum_ext. intros a0 Ha0. rewrite <- rsum_scal. apply rsum_ext. intros. ring. }
      assert (Z2 : rsum k (fun b => u b * gv (mrows X) k A u b) = 0).
      { rewrite <- Z. apply rsum_ext. intros b Hb. f_equal. unfold gv, G.
        transitivity (rsum (mrows X) (fun i0 => rsum k (fun c => A i0 b * A i0 c * u c))).
        - apply rsum_ext. intros i0 Hi0. rewrite <- rsum_scal. apply rsum_ext. intros. ring.
        - rewrite rsum_swap. apply rsum_ext. intros c Hc. apply rsum_scal_r. }
      rewrite gv_quad in Z2.
      pose proof (rsum_zero_terms (mrows X) _ (fun i _ => Rle_0_sqr _) Z2 a Ha) as Q0. cbv beta in Q0. apply Rsqr_0_uniq in Q0. exact Q0. }
    specialize (U0 j Hj). unfold u in U0. lra. }
  intros j Hj.
  transitivity (rsum k (fun c => rsum k (fun a => G j a * p a c) * nth c sg 0)).
  - transitivity (rsum k (fun j' => rsum k (fun c => G j j' * p j' c * nth c sg 0))).
    + apply rsum_ext. intros j' Hj'. rewrite nth_map_seq by lia. rewrite CP. fold (G j j'). rewrite <- rsum_scal. apply rsum_ext. intros. ring.
    + rewrite rsum_swap. apply rsum_ext. intros c Hc. apply rsum_scal_r.
  - rewrite (rsum_ext k _ (fun c => delta j c * nth c sg 0)) by (intros c Hc; rewrite GP by assumption; reflexivity).
    rewrite rsum_delta_l by exact Hj. reflexivity.
Qed.

Theorem C37_morse_penrose_is_exact : forall (svd : Mat XR -> SVD XR) (X : Mat XR) A yr,
  rmat X A -> length yr = mrows X -> (0 < mrows X)%nat -> independent (mrows X) (mcols X) A ->
  (forall E, StronglySorted lt E -> E <> [] -> (forall f, In f E -> (f < mcols X)%nat) ->
     (forall f, In f E -> nonzero_col (mrows X) A f) ->
     exact_svd (icv_mat X (map Z.of_nat E)) (svd (icv_mat X (map Z.of_nat E))) /\
     no_tiny_sq (/ 1000000) (svd (icv_mat X (map Z.of_nat E)))) ->
  exact_cd X A yr (MorsePenroseCD svd) (fun st => fst st = X).
Proof.
  intros svd X A yr HX Hy Hm FR HS st E est HP SS Hne HE HG Hset.
  cbn [cdSetActive MorsePenroseCD] in Hset. destruct (HS E SS Hne HE HG) as (HS1 & HS2).
  assert (ND : NoDup E).
  { clear - SS. induction SS as [|a l _ IH H]; constructor; [|exact IH]. intro C. rewrite Forall_forall in H. specialize (H a C). lia. }
  set (M := icv_mat X (map Z.of_nat E)) in *.
  assert (HM : rmat M (fun i j => A i (nth j E 0%nat))) by (apply icv_rmat; assumption).
  assert (Hmc : mcols M = length E) by (cbn [M icv_mat mcols]; apply map_length).
  assert (FRM : full_rank (mrows M) (mcols M) (fun i j => A i (nth j E 0%nat))).
  { intros v Hv k Hk. rewrite Hmc in *. set (vl := map v (seq 0 (length E))).
    assert (Hvl : forall j, (j < length E)%nat -> nth j vl 0 = v j) by (intros j Hj; unfold vl; apply nth_map_seq; exact Hj).
    assert (F : forall k, (k < mcols X)%nat -> spread E vl k = 0).
    { apply (FR (spread E vl)). { intros k0 _ C. apply spread_out. intro D. apply C, HG, D. }
      intros i Hi. rewrite (spread_sum (mcols X) E vl (fun k => A i k) HE).
      etransitivity; [|apply (Hv i Hi)]. apply rsum_ext. intros j Hj. rewrite Hvl by exact Hj. reflexivity. }
    rewrite <- (Hvl k Hk), <- (spread_nth E vl k ND Hk). apply F. apply HE. apply nth_In. exact Hk. }
  rewrite HP in Hset. unfold mpSetActiveSet in Hset. destruct (forallb _ _); [|discriminate Hset]. fold M in Hset.
  destruct (PseudoInverseXTX (svd M) (ndec 1 (-6))) as [inv| |] eqn:Ei; cbn [bind] in Hset; try discriminate Hset.
  injection Hset as <-. cbn [fst snd cdC cdD MorsePenroseCD]. split; [reflexivity|]. split.
  - intros c Hc. destruct (C38_c_parameter M _ (svd M) yr HM HS1 HS2 Hy Hm) as (cr & E1 & L1 & N1).
    cbn [snd] in Hc. rewrite E1 in Hc. injection Hc as <-. exists cr. split; [reflexivity|]. split; [congruence|].
    intros f Hf. destruct (In_nth E f 0%nat Hf) as (j & Hj & Ej). rewrite corr_gv. unfold gv. rewrite gv_spread by exact HE.
    rewrite Hmc in N1. specialize (N1 j Hj). cbv beta in N1. rewrite Ej in N1. cbn [M icv_mat mrows] in N1. lra.
  - intros s d Hs Hd. destruct (mpd_full M _ (svd M) (map s E) inv HM HS1 HS2 FRM Ei) as (dr & E1 & L1 & N1).
    { rewrite map_length. symmetry. exact Hmc. }
    cbn [snd] in Hd. rewrite E1 in Hd. injection Hd as <-. exists dr. split; [reflexivity|]. split; [congruence|].
    intros f Hf. destruct (In_nth E f 0%nat Hf) as (j & Hj & Ej). rewrite gv_spread by exact HE.
    rewrite Hmc in N1. specialize (N1 j Hj). cbv beta in N1. rewrite Ej in N1.
    rewrite (nth_map_lt _ _ s E j 0%nat 0 Hj), Ej in N1. exact N1.
Qed.
Print Assumptions C37_morse_penrose_is_exact.

(** ** C60: LassoLars ends *)

(** With exact arithmetic and a lower limit that is not negative the number of
    rounds is bounded: if max |x_j . y| <= K * 1e-6 then (n + 1) * K + n rounds
    are enough, whatever the path. *)
Theorem C60_lars_ends : forall (data : NormalizedData XR) A yr (cd : CDParam XR) P est mn K fuel,
  rmat (ndX data) A -> ndy data = fins yr -> length yr = mrows (ndX data) ->
  exact_cd (ndX data) A yr cd P -> P (cdSetX cd est (ndX data)) ->
  (forall st a, cdSetActive cd st a <> Fuel) -> (forall st y, cdC cd st y <> Fuel) -> (forall st y, cdD cd st y <> Fuel) ->
  0 <= mn ->
  (forall f, (f < mcols (ndX data))%nat -> Rabs (rsum (mrows (ndX data)) (fun i => A i f * nth i yr 0)) <= INR K * / 1000000) ->
  ((mcols (ndX data) + 1) * K + mcols (ndX data) <= fuel)%nat ->
  LassoLars cd est data (fin mn) fuel <> Fuel.
Proof.
  intros data A yr cd P est mn K fuel HX Ey Hy HE HP NF1 NF2 NF3 Hmn HK Hf. unfold LassoLars. rewrite Ey. apply exact_cd_est in HE.
  destruct (lars_start cd est (ndX data) (fins yr)) as [st| |] eqn:Es; cbn [bind]; [|discriminate|].
  - destruct (start_rs (ndX data) A yr HX Hy cd P est st Es HP) as (l & s & feat & HS & Ha & _ & _ & _ & _ & Hl & _).
    pose proof (loop_total (ndX data) A yr HX Hy cd P HE mn K fuel st Hmn (conj NF1 (conj NF2 NF3)) l s 0 HS) as H.
    assert (Hl' : l <= INR K * tol).
    { rewrite tol_val. assert (0 <= INR K) by apply pos_INR. destruct Hl as [(f & Hfn & ->)| ->]; [|nra].
      replace (corr _ _ A _ (fun _ => 0) f) with (rsum (mrows (ndX data)) (fun i => A i f * nth i yr 0)); [apply HK; exact Hfn|].
      unfold corr. apply rsum_ext. intros i Hi. rewrite (rsum_0' _ (fun k => A i k * 0)) by (intros; ring). ring. }
    specialize (H Hl' ltac:(rewrite Ha; cbn [length]; lia)).
    destruct (lars_loop cd (ndX data) (fins yr) (fin mn) fuel st) as [st'| |]; cbn [bind]; [discriminate|discriminate|congruence].
  - exfalso. revert Es. unfold lars_start. destruct (_ || _)%bool; [discriminate|]. apply bind_nf; [apply mulvec_nf|]. intro lj.
    destruct (fold_left _ _ _) as (mt & ft). nf.
Qed.
Print Assumptions C60_lars_ends.

Lemma mat_mul_nf : forall (A B : Mat XR), mat_mul A B <> Fuel.
Proof. intros A B. unfold mat_mul. destruct (_ =? _)%nat; discriminate. Qed.

(** the estimator of the library never fails to return *)
Lemma morse_penrose_no_fuel : forall svd : Mat XR -> SVD XR,
  (forall st a, cdSetActive (MorsePenroseCD svd) st a <> Fuel) /\
  (forall st y, cdC (MorsePenroseCD svd) st y <> Fuel) /\ (forall st y, cdD (MorsePenroseCD svd) st y <> Fuel).
Proof.
  intros svd. split; [|split].
  - intros st a. cbn [cdSetActive MorsePenroseCD]. apply bind_nf; [|discriminate]. unfold mpSetActiveSet.
    destruct (forallb _ _); [|discriminate]. apply bind_nf; [|discriminate]. unfold PseudoInverseXTX.
    repeat first [apply mat_mul_nf | apply bind_nf; [|intro]].
  - intros st y. cbn [cdC MorsePenroseCD]. destruct (snd st) as [(f & ?)|]; [|discriminate]. unfold mpC.
    repeat first [apply mat_mul_nf | progress nf].
  - intros st y. cbn [cdD MorsePenroseCD]. destruct (snd st) as [(f & inv)|]; [|discriminate]. unfold mpD. nf.
Qed.

(** *** a concrete path: a normalised dataset with a bias column (all zeros)
    followed by the first two columns of the identity, y = (1, -3, 2) *)
Definition exb_X : Mat XR := mkMat 3 3 (fun i j => match j with O => n0 | S j => if (i =? j)%nat then n1 else n0 end).
Definition exb_A (i j : nat) : R := match j with O => 0 | S j => delta i j end.
Definition exb_y : list R := [1; -3; 2].
Definition exb_nd : NormalizedData XR := mkND exb_X (fins exb_y) [] [] n0 n0 true.
Definition exb_path : list (LassoLarsNode XR) :=
  [mkLN (N := XR) (fins [0]) (fin 3) [2%Z]; mkLN (N := XR) (fins [0; -2]) (fin 1) [1%Z; 2%Z]].

Lemma mkLars_eq : forall (E : Type) (a a' : xr) b b' (c c' : list xr) d d' (e e' : xr) (f f' : E) g g' h h',
  a = a' -> b = b' -> c = c' -> d = d' -> e = e' -> f = f' -> g = g' -> h = h' ->
  mkLars (N := XR) a b c d e f g h = mkLars (N := XR) a' b' c' d' e' f' g' h'.
Proof. intros. subst. reflexivity. Qed.
Lemma mkLN_eq : forall (a a' : list xr) (b b' : xr) c c', a = a' -> b = b' -> c = c' -> mkLN (N := XR) a b c = mkLN (N := XR) a' b' c'.
Proof. intros. subst. reflexivity. Qed.

Lemma exb_start : lars_start (N := XR) orthonormalCD (exb_X, []) exb_X (fins exb_y) =
  Ok (mkLars (N := XR) (fin 3) [2%nat] (fins [0; 0; -1]) None (fin 0) (exb_X, []) [] false).
Proof. unfold exb_y. cmp. apply mkLars_eq; cmp. reflexivity. Qed.
Lemma exb_step1 : lars_step (N := XR) orthonormalCD exb_X (fins exb_y)
  (mkLars (N := XR) (fin 3) [2%nat] (fins [0; 0; -1]) None (fin 0) (exb_X, []) [] false) =
  Ok (mkLars (N := XR) (fin 1) [2%nat; 1%nat] (fins [0; 1; -1]) None (fin 0) (exb_X, [2%Z])
        [mkLN (N := XR) (fins [0]) (fin 3) [2%Z]] false).
Proof. unfold exb_y. cmp. apply mkLars_eq; cmp. all: try (apply mkLN_eq; cmp). all: reflexivity. Qed.
Lemma exb_step2 : lars_step (N := XR) orthonormalCD exb_X (fins exb_y)
  (mkLars (N := XR) (fin 1) [2%nat; 1%nat] (fins [0; 1; -1]) None (fin 0) (exb_X, [2%Z])
        [mkLN (N := XR) (fins [0]) (fin 3) [2%Z]] false) =
  Ok (mkLars (N := XR) (fin 0) [2%nat] (fins [0; 1; -1]) (Some 1%nat) (fin 0) (exb_X, [1%Z; 2%Z]) exb_path false).
Proof. unfold exb_y. cmp. apply mkLars_eq; cmp. all: try (apply mkLN_eq; cmp). all: reflexivity. Qed.

Lemma exb_runs : LassoLars orthonormalCD (exb_X, []) exb_nd (fin (/ 1000)) 10 = Ok exb_path.
Proof.
  assert (L : forall a, / 1000 < a -> nltb (n := XR) (fin (/ 1000)) (fin a) = true) by (intros a Ha; apply Rltb_true; exact Ha).
  unfold LassoLars, exb_nd. cbn [ndX ndy]. rewrite exb_start. cbn [bind lars_loop].
  cbn [laLamb]. rewrite L by lra. cbn [negb]. rewrite exb_step1. cbn [bind laStop laLamb]. rewrite L by lra. cbn [negb].
  rewrite exb_step2. cbn [bind laStop laLamb].
  replace (nltb (n := XR) (fin (/ 1000)) (fin 0)) with false by (symmetry; apply Rltb_false; lra). reflexivity.
Qed.

Lemma exb_rmat : rmat exb_X exb_A.
Proof. intros i j Hi Hj. cbn [exb_X mval]. destruct j as [|j]; [reflexivity|]. unfold exb_A, delta. destruct (i =? j)%nat; reflexivity. Qed.

Lemma exb_nonzero : forall f, nonzero_col 3 exb_A f -> f <> 0%nat.
Proof. intros f (i & _ & H) ->. apply H. reflexivity. Qed.

Lemma exb_row : forall (v : nat -> R) i, (i < 2)%nat -> rsum 3 (fun k => exb_A i k * v k) = v (S i).
Proof. intros v i Hi. destruct i as [|[|i]]; [| |lia]; cbn; unfold delta; cbn; ring. Qed.

Lemma exb_independent : independent 3 3 exb_A.
Proof.
  intros v H0 H k Hk. destruct k as [|k].
  - apply H0; [lia|]. intro C. apply exb_nonzero in C. contradiction.
  - rewrite <- (exb_row v k) by lia. apply H. lia.
Qed.

Lemma exb_gv : forall (v : nat -> R) f, (0 < f < 3)%nat ->
  rsum 3 (fun i => exb_A i f * rsum 3 (fun k => exb_A i k * v k)) = v f.
Proof. intros v f Hf. destruct f as [|[|[|f]]]; try lia; cbn; unfold delta; cbn; ring. Qed.

Lemma SSlt_NoDup : forall E, StronglySorted lt E -> NoDup E.
Proof. intros E SS. induction SS as [|a l _ IH H]; constructor; [|exact IH]. intro C. rewrite Forall_forall in H. specialize (H a C). lia. Qed.

(** the estimator for orthonormal columns is exact here *)
Lemma exb_exact : exact_cd exb_X exb_A exb_y orthonormalCD (fun st => fst st = exb_X).
Proof.
  intros st E est HP SS Hne HE HG Hset. cbn [cdSetActive orthonormalCD] in Hset. injection Hset as <-. rewrite HP.
  cbn [fst snd cdC cdD orthonormalCD]. change (mcols exb_X) with 3%nat in *. change (mrows exb_X) with 3%nat in *.
  pose proof (SSlt_NoDup E SS) as ND.
  assert (HE' : forall f, In f E -> (0 < f < 3)%nat).
  { intros f Hf. specialize (HE f Hf). specialize (HG f Hf). apply exb_nonzero in HG. lia. }
  split; [reflexivity|]. split.
  - intros c Hc. set (M := icv_mat exb_X (map Z.of_nat E)) in *.
    assert (HM : rmat M (fun i j => exb_A i (nth j E 0%nat))) by (apply icv_rmat; [apply exb_rmat|exact HE]).
    rewrite (mat_mulvec_fin (mat_T M) (fun i j => exb_A j (nth i E 0%nat))) in Hc; [|apply (mat_T_fin M _ HM)|reflexivity].
    injection Hc as <-. change (mrows (mat_T M)) with (length (map Z.of_nat E)). change (mcols (mat_T M)) with 3%nat. rewrite map_length.
    eexists. split; [reflexivity|]. split; [rewrite map_length, seq_length; reflexivity|].
    intros f Hf. rewrite corr_gv. unfold gv.
    rewrite exb_gv by (apply HE'; exact Hf). destruct (In_nth E f 0%nat Hf) as (j & Hj & Ej).
    match goal with |- context [spread E ?l f] => pose proof (spread_nth E l j ND Hj) as Q end. rewrite Ej in Q. rewrite Q.
    rewrite nth_map_seq by exact Hj. rewrite Ej. cbn. ring.
  - intros s d Hs Hd. injection Hd as <-. exists (map s E). split; [reflexivity|]. split; [apply map_length|].
    intros f Hf. rewrite exb_gv by (apply HE'; exact Hf). destruct (In_nth E f 0%nat Hf) as (j & Hj & Ej).
    pose proof (spread_nth E (map s E) j ND Hj) as Q. rewrite Ej in Q. rewrite Q. rewrite (nth_map_lt _ _ s E j 0%nat 0 Hj), Ej. reflexivity.
Qed.

Lemma exb_corr : forall b f, (0 < f < 3)%nat -> corr 3 3 exb_A (fun i => nth i exb_y 0) b f = nth (f - 1) exb_y 0 - b f.
Proof. intros b f Hf. rewrite corr_gv. unfold gv. rewrite exb_gv by exact Hf. destruct f as [|[|[|f]]]; try lia; cbn; unfold delta; cbn; ring. Qed.

Lemma exb_no_ties : no_ties 3 3 exb_A (fun i => nth i exb_y 0) exb_path.
Proof.
  intros l1 a b l2 E. unfold exb_path in E.
  assert (Q : a = mkLN (N := XR) (fins [0]) (fin 3) [2%Z] /\ b = mkLN (N := XR) (fins [0; -2]) (fin 1) [1%Z; 2%Z]).
  { destruct l1 as [|x [|x' l1]]; cbn [app] in E; injection E; intros; subst; auto; try discriminate.
    destruct l1; discriminate. }
  destruct Q as (-> & ->). cbn [lnLamb lnSelection lnCoeff]. split.
  - exists 3, 1. repeat split; lra.
  - intros E0 v l s H1 H2 H3 (_ & Hseg) f Hf Hin t w Ht (Hw1 & Hw2) C.
    assert (Hl : l = 1) by (injection H3; auto). subst l.
    assert (HE0 : E0 = [1; 2]%nat).
    { destruct E0 as [|x [|x' [|? ?]]]; cbn [map] in H1; try discriminate H1. injection H1 as X1 X2.
      rewrite (Nat2Z.inj x 1) by (symmetry; exact X1). rewrite (Nat2Z.inj x' 2) by (symmetry; exact X2). reflexivity. }
    subst E0. assert (Hv : v = [0; -2]).
    { destruct v as [|x [|x' [|? ?]]]; cbn [fins map] in H2; try discriminate H2. injection H2 as X1 X2. subst. reflexivity. }
    subst v.
    assert (Hf1 : f = 2%nat) by (destruct Hin as [Hin|[]]; lia). subst f.
    specialize (Hseg 2%nat ltac:(simpl; auto)). specialize (Hw2 2%nat ltac:(simpl; auto)).
    rewrite exb_corr in Hseg, Hw2 by lia. rewrite (spread_nth [1; 2]%nat [0; -2] 1 ltac:(repeat constructor; simpl; lia) ltac:(simpl; lia) : spread [1; 2]%nat [0; -2] 2%nat = _) in Hseg.
    cbn in Hseg, Hw2. rewrite C in Hw2. nra.
Qed.

Example C37_example :
  exact_cd exb_X exb_A exb_y orthonormalCD (fun st => fst st = exb_X) /\ independent 3 3 exb_A /\
  LassoLars orthonormalCD (exb_X, []) exb_nd (fin (/ 1000)) 10 = Ok exb_path /\
  no_ties 3 3 exb_A (fun i => nth i exb_y 0) exb_path /\
  (forall b', lasso_cost 3 3 exb_A (fun i => nth i exb_y 0) 1 (spread [1; 2]%nat [0; -2]) <=
     lasso_cost 3 3 exb_A (fun i => nth i exb_y 0) 1 b' + 2 / 1000000 * rsum 3 (fun k => Rabs (b' k))).
Proof.
  split; [exact exb_exact|]. split; [exact exb_independent|]. split; [exact exb_runs|]. split; [exact exb_no_ties|].
  pose proof (C37_lasso_optimal exb_nd exb_A exb_y orthonormalCD _ (exb_X, []) (/ 1000) 10 exb_path
    exb_rmat eq_refl eq_refl exb_exact eq_refl exb_independent ltac:(lra) exb_runs exb_no_ties
    (mkLN (N := XR) (fins [0; -2]) (fin 1) [1%Z; 2%Z]) ltac:(simpl; auto)) as (E & v & l & H1 & H2 & H3 & _ & H).
  cbn [lnLamb lnSelection lnCoeff] in H1, H2, H3.
  assert (Hl : l = 1) by (injection H3; auto). subst l.
  assert (HE0 : E = [1; 2]%nat).
  { destruct E as [|x [|x' [|? ?]]]; cbn [map] in H1; try discriminate H1. injection H1 as X1 X2.
    rewrite (Nat2Z.inj x 1) by (symmetry; exact X1). rewrite (Nat2Z.inj x' 2) by (symmetry; exact X2). reflexivity. }
  subst E. assert (Hv : v = [0; -2]).
  { destruct v as [|x [|x' [|? ?]]]; cbn [fins map] in H2; try discriminate H2. injection H2 as X1 X2. subst. reflexivity. }
  subst v. exact H.
Qed.

(** the hypotheses on the library's estimator, met by the same columns *)
Example C37_morse_penrose_example : exact_cd exb_X exb_A exb_y (MorsePenroseCD svd_orth) (fun st => fst st = exb_X).
Proof.
  apply C37_morse_penrose_is_exact; [exact exb_rmat|reflexivity|cbn; lia|exact exb_independent|].
  intros E SS Hne HE HG. change (mcols exb_X) with 3%nat in HE. change (mrows exb_X) with 3%nat in HG.
  pose proof (SSlt_NoDup E SS) as ND.
  assert (HE' : forall f, In f E -> (0 < f < 3)%nat).
  { intros f Hf. specialize (HE f Hf). specialize (HG f Hf). apply exb_nonzero in HG. lia. }
  set (M := icv_mat exb_X (map Z.of_nat E)) in *.
  assert (HM : rmat M (fun i j => exb_A i (nth j E 0%nat))) by (apply icv_rmat; [apply exb_rmat|exact HE]).
  split.
  - apply (svd_orth_exact M _ HM). change (mrows M) with 3%nat. change (mcols M) with (length (map Z.of_nat E)). rewrite map_length.
    intros a b Ha Hb.
    assert (O : forall f g, (0 < f < 3)%nat -> (0 < g < 3)%nat -> rsum 3 (fun i => exb_A i f * exb_A i g) = delta f g).
    { intros f g Hf Hg. destruct f as [|[|[|f]]]; try lia; destruct g as [|[|[|g]]]; try lia; cbn; unfold delta; cbn; ring. }
    rewrite O by (apply HE'; apply nth_In; assumption). unfold delta.
    destruct (Nat.eqb_spec a b) as [->|N]; [rewrite Nat.eqb_refl; reflexivity|].
    destruct (Nat.eqb_spec (nth a E 0%nat) (nth b E 0%nat)) as [Q|Q]; [|reflexivity].
    exfalso. apply N. apply (proj1 (NoDup_nth E 0%nat) ND a b Ha Hb Q).
  - intros x Hx. cbn [svd_orth svS] in Hx. apply in_map_iff in Hx. destruct Hx as (z & Ez & Hz).
    injection Ez as <-. apply repeat_spec in Hz. right. rewrite Hz. lra.
Qed.

Example C60_example : forall fuel, (4 * Z.to_nat 3000000 + 3 <= fuel)%nat ->
  LassoLars (MorsePenroseCD svd_orth) (exb_X, None) exb_nd (fin (/ 1000)) fuel <> Fuel.
Proof.
  intros fuel Hfuel. destruct (morse_penrose_no_fuel svd_orth) as (N1 & N2 & N3).
  apply (C60_lars_ends exb_nd exb_A exb_y (MorsePenroseCD svd_orth) _ (exb_X, None) (/ 1000) (Z.to_nat 3000000) _ exb_rmat eq_refl eq_refl
    C37_morse_penrose_example eq_refl N1 N2 N3); [lra| |exact Hfuel].
  intros f Hf. change (mcols (ndX exb_nd)) with 3%nat in Hf. change (mrows (ndX exb_nd)) with 3%nat.
  rewrite INR_IZR_INZ, Z2Nat.id by lia. destruct f as [|[|[|f]]]; [| | |lia]; unfold exb_A, delta; cbn [rsum Nat.eqb nth exb_y]; apply Rabs_le; split; lra.
Qed.
