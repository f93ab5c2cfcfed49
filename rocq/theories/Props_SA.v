(** Properties C22-C25: simulated annealing (saScore.go, simmulatedAnnealing.go). *)
From Coq Require Import Floats.SpecFloat Sorted.
From Verif Require Import Base Num Mat Model_Node Model_Util Model_Fit Model_SA
  Proof_Node Proof_Node2 Proof_Models Proof_Util Proof_SA Proof_SA2 Proof_SA3.

(** ** C22: SAScore bookkeeping *)

(** After any sequence of insertions without NaN scores: at most max(Cap,1)
    entries, pairwise different selections, every entry an inserted
    (selection, score) pair; WorstItem is an entry of minimal score, BestItem
    has the selection and score of an entry of maximal score. *)
Theorem C22_sascore_invariant : forall o cap (items : list (SAItem (F64 o))),
  Forall (fun i => nisnan (siScore i) = false) items ->
  exists s, saInsertAll (NewSAScore cap) items = Ok s /\
    (Z.of_nat (length (saContents s)) <= Z.max 1 cap)%Z /\
    NoDup (map siSelection (saContents s)) /\
    (forall c, In c (saContents s) ->
       exists i, In i items /\ siSelection c = siSelection i /\ siScore c = siScore i) /\
    (items <> [] ->
       exists w b wi bi,
         saWorst s = Some w /\ saBest s = Some b /\
         nth_error (saHeap s) w = Some wi /\ nth_error (saHeap s) b = Some bi /\
         In wi (saContents s) /\
         (exists c, In c (saContents s) /\ siSelection c = siSelection bi /\ siScore c = siScore bi) /\
         (forall c, In c (saContents s) -> le (siScore wi) (siScore c) /\ le (siScore c) (siScore bi))).
Proof.
  intros o cap items Hn.
  destruct (sinv_all (F64 o) (f64_OrdLaws o) items _ [] (sinv_init _ cap) Hn) as (s & E & C & I).
  cbn [app] in I. exists s. split; [exact E|]. cbn [saCap NewSAScore] in C.
  split; [unfold saContents; rewrite map_length, <- C; exact (si_cap _ _ _ I)|].
  split; [exact (si_sel _ _ _ I)|].
  split; [exact (si_from _ _ _ I)|].
  intro Hne. destruct (si_worst _ _ _ I Hne) as (w & W1 & W2 & W3).
  destruct (si_best _ _ _ I Hne) as (b & B1 & B2 & B3 & B4).
  exists w, b, (nth w (saHeap s) (mkSAItem [] [] n0)), (nth b (saHeap s) (mkSAItem [] [] n0)).
  split; [exact W1|]. split; [exact B1|].
  split; [apply nth_error_nth'; apply (si_range _ _ _ I); exact W2|].
  split; [apply nth_error_nth'; exact B2|].
  split; [apply in_contents; exists w; auto|].
  split; [exact B3|]. intros c Hc. split; [apply W3; exact Hc|apply B4; exact Hc].
Qed.
Print Assumptions C22_sascore_invariant.

(** If the score is a function of the selection, BestItem has the best score
    ever inserted and the list holds the best distinct selections: an inserted
    item is an entry, or the list is full of entries that are at least as good. *)
Theorem C22_sascore_keeps_best : forall o cap (items : list (SAItem (F64 o))) s,
  Forall (fun i => nisnan (siScore i) = false) items ->
  (forall a b, In a items -> In b items -> siSelection a = siSelection b -> siScore a = siScore b) ->
  saInsertAll (NewSAScore cap) items = Ok s ->
  forall i, In i items ->
    (exists b bi, saBest s = Some b /\ nth_error (saHeap s) b = Some bi /\ le (siScore i) (siScore bi)) /\
    ((exists c, In c (saContents s) /\ siSelection c = siSelection i /\ siScore c = siScore i) \/
     (Z.of_nat (length (saContents s)) = Z.max 1 cap /\
      forall c, In c (saContents s) -> le (siScore i) (siScore c))).
Proof.
  intros o cap items s Hn Hdet E i Hi.
  destruct (sinv_all (F64 o) (f64_OrdLaws o) items _ [] (sinv_init _ cap) Hn) as (s' & E' & C & I).
  assert (s' = s) by congruence. subst s'. cbn [app] in I. cbn [saCap NewSAScore] in C.
  assert (Hne : items <> []) by (intros ->; destruct Hi).
  destruct (si_best _ _ _ I Hne) as (b & B1 & B2 & B3 & B4). split.
  - exists b, (nth b (saHeap s) (mkSAItem [] [] n0)). split; [exact B1|].
    split; [apply nth_error_nth'; exact B2|].
    exact (sinv_best _ s items b I Hdet Hn B1 i Hi).
  - unfold saContents at 2. rewrite map_length, <- C. exact (si_keep _ _ _ I Hdet i Hi).
Qed.
Print Assumptions C22_sascore_keeps_best.

Definition sx (z : Z) : F64 fenv0 := f64_ofZ z.
Definition sit (sel : list Z) (c : list (F64 fenv0)) (score : Z) : SAItem (F64 fenv0) :=
  mkSAItem sel c (sx score).
Definition hist22 : list (SAItem (F64 fenv0)) :=
  [sit [0%Z] [sx 7] 1; sit [1%Z] [sx 8] 5; sit [0%Z] [sx 7] 1; sit [0%Z; 2%Z] [sx 1; sx 2] 3;
   sit [2%Z] [sx 9] 2].

(** five insertions into a list of capacity 2: one duplicate, one replacement,
    one rejection *)
Example C22_nonvacuous :
  Forall (fun i => nisnan (siScore i) = false) hist22 /\
  (forall a b, In a hist22 -> In b hist22 -> siSelection a = siSelection b -> siScore a = siScore b) /\
  match saInsertAll (NewSAScore 2) hist22 with
  | Ok s => map siSelection (saContents s) = [[0%Z; 2%Z]; [1%Z]] /\ saWorst s = Some 0%nat /\ saBest s = Some 1%nat
  | _ => False
  end.
Proof.
  split; [repeat constructor|]. split.
  - intros a b Ha Hb. cbn [hist22 In] in Ha, Hb.
    repeat (destruct Ha as [<-|Ha]; [|]); try contradiction;
      repeat (destruct Hb as [<-|Hb]; [|]); try contradiction; cbn [sit siSelection siScore]; intro E;
      try discriminate E; reflexivity.
  - vm_compute. auto.
Qed.

(** ** C23: stale coefficients *)

(** When a new item replaces the worst entry of a full list, the entry gets the
    new selection and score but keeps the coefficients of the replaced model. *)
Theorem C23_replaced_entry_keeps_old_coefficients : forall o cap (items : list (SAItem (F64 o))) s w wi it,
  Forall (fun i => nisnan (siScore i) = false) items -> items <> [] ->
  saInsertAll (NewSAScore cap) items = Ok s ->
  Z.of_nat (length (saContents s)) = Z.max 1 cap ->
  saWorst s = Some w -> nth_error (saHeap s) w = Some wi ->
  nltb (siScore wi) (siScore it) = true ->
  ~ In (siSelection it) (map siSelection (saContents s)) ->
  exists s' c, saInsertNew s it = Ok s' /\ In c (saContents s') /\
    siSelection c = siSelection it /\ siScore c = siScore it /\ siCoeff c = siCoeff wi.
Proof.
  intros o cap items s w wi it Hn Hne E Hlen Hw Hwi Hlt Hnew.
  destruct (sinv_all (F64 o) (f64_OrdLaws o) items _ [] (sinv_init _ cap) Hn) as (s0 & E' & C & I).
  assert (s0 = s) by congruence. subst s0. cbn [app] in I. cbn [saCap NewSAScore] in C.
  destruct (si_worst _ _ _ I Hne) as (w' & W1 & W2 & W3). assert (w' = w) by congruence. subst w'.
  assert (Hit : nisnan (siScore it) = false).
  { destruct (ltb_nan (f64_OrdLaws o) _ _ Hlt). assumption. }
  destruct (sinv_step _ (f64_OrdLaws o) s items it I Hit) as (s' & Es & _ & _).
  destruct (si_best _ _ _ I Hne) as (b & B1 & B2 & _ & _).
  assert (Hwl : (w < length (saHeap s))%nat) by (apply nth_error_Some; congruence).
  assert (Hl : length (saHeap s ++ [it]) = S (length (saHeap s))) by (rewrite app_length; cbn; lia).
  set (d := mkSAItem [] [] (n0 : F64 o)) in *.
  exists s', (mkSAItem (siSelection it) (siCoeff wi) (siScore it)). split; [exact Es|].
  split; [|cbn [siSelection siScore siCoeff]; auto].
  unfold saInsertNew, saInsert in Es.
  destruct (saExists_spec (F64 o) (alloc _ s it) (length (saHeap s))) as (ex & Eex & Hex).
  { intros q Hq. cbn [alloc saItems saHeap] in *. apply (si_range _ _ _ I) in Hq. lia. }
  { cbn [alloc saHeap]. lia. }
  unfold alloc in Eex. rewrite Eex in Es. cbn [bind] in Es.
  destruct ex.
  { exfalso. destruct Hex as [Hex _]. destruct (Hex eq_refl) as (c & Hc & Hs).
    rewrite alloc_contents in Hc by (apply (si_range _ _ _ I)). cbn [alloc saHeap] in Hs.
    rewrite nth_snoc in Hs. apply Hnew. rewrite <- Hs. apply in_map. exact Hc. }
  cbn [saHeap saItems saBest saWorst saCap] in Es.
  rewrite (getn_lt _ _ (length (saHeap s)) d) in Es by lia. unfold d in Es. rewrite nth_snoc in Es. fold d in Es.
  cbn [bind] in Es.
  assert (Hlen' : Z.of_nat (length (saItems s)) = Z.max 1 cap) by (unfold saContents in Hlen; rewrite map_length in Hlen; exact Hlen).
  destruct (Z.eqb_spec (Z.of_nat (length (saItems s))) 0) as [|_]; [lia|].
  destruct (Z.ltb_spec (Z.of_nat (length (saItems s))) (saCap s)) as [|_]; [lia|].
  rewrite Hw in Es. cbn [deref] in Es.
  assert (Ew : getn (saHeap s ++ [it]) w = Ok wi).
  { apply getn_ok. rewrite nth_error_app1 by exact Hwl. exact Hwi. }
  rewrite Ew in Es. cbn [bind] in Es. rewrite Hlt in Es. rewrite setn_lt in Es by lia. cbn [bind] in Es.
  apply bind_ok in Es. destruct Es as (bi & _ & Es).
  apply bind_ok in Es. destruct Es as (it' & _ & Es).
  apply bind_ok in Es. destruct Es as (sc & _ & Es). injection Es as <-.
  apply in_contents. exists w. cbn [saItems saHeap]. split; [exact W2|].
  rewrite nth_upd, Nat.eqb_refl.
  replace (w <? length (saHeap s ++ [it]))%nat with true by (symmetry; apply Nat.ltb_lt; lia).
  reflexivity.
Qed.
Print Assumptions C23_replaced_entry_keeps_old_coefficients.

(** a list of at most one entry: the entry for the selection [1] keeps the coefficient 7 of [0] *)
Example C23_replaced_example : exists s w wi,
  saInsertAll (NewSAScore 1) [sit [0%Z] [sx 7] 1] = Ok s /\ Z.of_nat (length (saContents s)) = Z.max 1 1 /\
  saWorst s = Some w /\ nth_error (saHeap s) w = Some wi /\ nltb (siScore wi) (siScore (sit [1%Z] [sx 8] 5)) = true /\
  ~ In [1%Z] (map siSelection (saContents s)) /\
  match saInsertNew s (sit [1%Z] [sx 8] 5) with
  | Ok s' => map (fun c => (siSelection c, siCoeff c)) (saContents s') = [([1%Z], [sx 7])]
  | _ => False end.
Proof.
  eexists. eexists. eexists. split; [reflexivity|]. split; [reflexivity|]. split; [reflexivity|]. split; [reflexivity|].
  split; [reflexivity|]. split; [cbn; intuition discriminate|]. vm_compute. reflexivity.
Qed.

(** So "every entry has one coefficient per selected feature" is false, even if
    every inserted item has it. *)
Theorem C23_one_coefficient_per_feature_refuted :
  exists items : list (SAItem (F64 fenv0)),
    Forall (fun i => nisnan (siScore i) = false) items /\
    Forall (fun i => length (siCoeff i) = length (siSelection i)) items /\
    exists s, saInsertAll (NewSAScore 10) items = Ok s /\
      exists c, In c (saContents s) /\ length (siCoeff c) <> length (siSelection c).
Proof.
  exists (map (fun k => sit [Z.of_nat k] [sx (Z.of_nat k)] (Z.of_nat k)) (seq 0 10)
          ++ [sit [0%Z; 1%Z] [sx 1; sx 2] 11]).
  split; [repeat constructor|]. split; [repeat constructor|].
  match goal with |- exists s, ?e = Ok s /\ _ => destruct e as [s| |] eqn:E end.
  - exists s. split; [reflexivity|].
    assert (H : match saInsertAll (NewSAScore 10)
        (map (fun k => sit [Z.of_nat k] [sx (Z.of_nat k)] (Z.of_nat k)) (seq 0 10)
          ++ [sit [0%Z; 1%Z] [sx 1; sx 2] 11]) with
      | Ok s => existsb (fun c => negb (length (siCoeff c) =? length (siSelection c))%nat) (saContents s)
      | _ => false end = true) by (vm_compute; reflexivity).
    rewrite E in H. apply existsb_exists in H. destruct H as (c & Hc & H).
    exists c. split; [exact Hc|]. apply negb_true_iff, Nat.eqb_neq in H. exact H.
  - exfalso. assert (H : match saInsertAll (NewSAScore 10)
        (map (fun k => sit [Z.of_nat k] [sx (Z.of_nat k)] (Z.of_nat k)) (seq 0 10)
          ++ [sit [0%Z; 1%Z] [sx 1; sx 2] 11]) with Ok s => true
      | _ => false end = true) by (vm_compute; reflexivity). rewrite E in H. discriminate H.
  - exfalso. assert (H : match saInsertAll (NewSAScore 10)
        (map (fun k => sit [Z.of_nat k] [sx (Z.of_nat k)] (Z.of_nat k)) (seq 0 10)
          ++ [sit [0%Z; 1%Z] [sx 1; sx 2] 11]) with Ok s => true
      | _ => false end = true) by (vm_compute; reflexivity). rewrite E in H. discriminate H.
Qed.
Print Assumptions C23_one_coefficient_per_feature_refuted.

(** ** C24: executions of SelectModelSA *)

(** exp(+0) = exp(-0) = 1, as math.Exp documents *)
Definition exp_zero (o : fenv) : Prop := forall b, o_exp o (S754_zero b) = f64_ofZ 1.

(** rand.Float64() < 1 *)
Definition below_one {o} (rf : nat -> F64 o) : Prop := forall k, nltb (rf k) n1 = true.

(** the least squares fit of model [m] and its cost, as the three calls of
    simmulatedAnnealing.go:46-48 *)
Definition fit_cost {N : Num} (svd : Mat N -> SVD N) (X : Mat N) (y : list N) (cost : Z -> Z -> N -> N)
  (m : list bool) (c : list N) (s : N) : Prop :=
  exists D rss, GetDesignMatrix m X = Ok D /\ Fit svd D y = Ok c /\ Rss D c y = Ok rss /\
    s = cost (Z.of_nat (count_occ bool_dec m true)) (Z.of_nat (length y)) (nmax2 rss RssTol).

(** the models the annealing may propose: one feature, or fewer than half as
    many as there are rows (simmulatedAnnealing.go:37-44) *)
Definition proposable {N : Num} (X : Mat N) (m : list bool) : Prop :=
  length m = mcols X /\
  (count_occ bool_dec m true = 1%nat \/ (1 <= count_occ bool_dec m true < mrows X / 2)%nat).

(** none of these models has a cost that is NaN, infinite or MaxFloat64 and above *)
Definition finite_costs {N : Num} (svd : Mat N -> SVD N) (X : Mat N) (y : list N) (cost : Z -> Z -> N -> N) : Prop :=
  forall m c s, proposable X m -> fit_cost svd X y cost m c s ->
    finite s = true /\ nltb s nmaxf = true.

Lemma fit_cost_eq : forall (N : Num) svd (X : Mat N) y cost m c s,
  fit_cost svd X y cost m c s <-> sa_cost svd X y cost m (Z.of_nat (NumFeatures m)) = Ok (c, s).
Proof.
  intros. unfold fit_cost, sa_cost. rewrite nf_count. split.
  - intros (D & rss & -> & E1 & E2 & ->). cbn [bind]. rewrite E1. cbn [bind]. rewrite E2. reflexivity.
  - intro H. apply bind_ok in H. destruct H as (D & HD & H).
    apply bind_ok in H. destruct H as (c' & HF & H).
    apply bind_ok in H. destruct H as (rss & HR & H). injection H as <- <-.
    exists D, rss. auto.
Qed.

Lemma run_linv : forall o svd (X : Mat (F64 o)) y nSweeps cost ri rf k st b,
  exp_zero o -> below_one rf -> finite_costs svd X y cost ->
  sa_run svd X y nSweeps cost ri rf k st b ->
  LInv (F64 o) svd X y cost st /\ (b = true -> ssAcc st <> []).
Proof.
  intros o svd X y nSweeps cost ri rf k st b He Hrf Hc R.
  destruct (run_inv (F64 o) (f64_OrdLaws o) svd X y nSweeps cost ri rf temp_ok temp_ok_500
     temp_ok_2 temp_ok_half) with (k := k) (st := st) (b := b) as (I & _ & H); auto.
  - intros t s k' Ht Hs. apply same_accept_f64; auto.
  - intros m c s Hm Hnf H. apply fit_cost_eq in H. rewrite nf_count in Hnf. eapply Hc; eauto. split; assumption.
Qed.

(** Every call of the cost function is for a non-empty model that is a single
    feature or has fewer than rows/2 features, with its number of features and
    the RSS of its least squares fit. *)
Theorem C24_allowed_models : forall o svd (X : Mat (F64 o)) y nSweeps cost ri rf k st b,
  exp_zero o -> below_one rf -> finite_costs svd X y cost ->
  sa_run svd X y nSweeps cost ri rf k st b ->
  forall m n s, In (m, n, s) (ssEval st) ->
    length m = mcols X /\ n = Z.of_nat (count_occ bool_dec m true) /\ (1 <= n)%Z /\
    (n = 1%Z \/ (n < Z.of_nat (mrows X / 2))%Z) /\
    exists c, fit_cost svd X y cost m c s.
Proof.
  intros o svd X y nSweeps cost ri rf k st b He Hrf Hc R m n s Hin.
  destruct (run_linv _ _ _ _ _ _ _ _ _ _ _ He Hrf Hc R) as (I & _).
  destruct (li_eval _ _ _ _ _ _ I _ _ _ Hin) as (A & B & C & (c & D) & _).
  split; [exact A|]. split; [rewrite <- nf_count; exact B|]. split; [lia|]. split; [lia|].
  exists c. apply fit_cost_eq. rewrite <- B. exact D.
Qed.
Print Assumptions C24_allowed_models.

(** On return the result is the last accepted model with its fit, and Scores
    covers the run: BestItem is a cheapest of all models ever evaluated, and
    every accepted model is in the list or beaten by ten entries. *)
Theorem C24_result : forall o svd (X : Mat (F64 o)) y nSweeps cost ri rf fuel r st,
  exp_zero o -> below_one rf -> finite_costs svd X y cost ->
  SelectModelSA svd X y nSweeps cost ri rf fuel = Ok (r, st) ->
  (exists m c s rest, ssAcc st = (m, c, s) :: rest /\
     StronglySorted Z.lt (srSelected r) /\
     (forall z, In z (srSelected r) <-> exists i, z = Z.of_nat i /\ nth i m false = true) /\
     srCoeff r = c /\ length c = length (srSelected r) /\ fit_cost svd X y cost m c s) /\
  (exists b bi m c s, saBest (srScores r) = Some b /\ nth_error (saHeap (srScores r)) b = Some bi /\
     In (m, c, s) (ssAcc st) /\ SelectedFeatures m = Ok (siSelection bi) /\ siScore bi = nneg s /\
     forall m' n' s', In (m', n', s') (ssEval st) -> le s s') /\
  (forall m c s, In (m, c, s) (ssAcc st) ->
     (exists e, In e (saContents (srScores r)) /\ SelectedFeatures m = Ok (siSelection e) /\
        siScore e = nneg s) \/
     (length (saContents (srScores r)) = 10%nat /\
      forall e, In e (saContents (srScores r)) -> le (nneg s) (siScore e))).
Proof.
  intros o svd X y nSweeps cost ri rf fuel r st He Hrf Hc H.
  unfold SelectModelSA in H. apply bind_ok in H. destruct H as (st0 & E0 & H).
  apply bind_ok in H. destruct H as (st1 & E1 & H).
  apply bind_ok in H. destruct H as (r' & Er & H). injection H as -> ->.
  destruct (sa_loop_run _ _ _ _ _ _ _ _ _ _ _ _ (sa_run_0 _ _ _ _ _ _ _ _ E0) E1) as (k & R).
  destruct (run_linv _ _ _ _ _ _ _ _ _ _ _ He Hrf Hc R) as (I & Hne). specialize (Hne eq_refl).
  unfold sa_result in Er. apply bind_ok in Er. destruct Er as (co & Eco & Er).
  rewrite selected_loop_eq in Er. cbn [bind] in Er. injection Er as <-.
  cbn [srSelected srCoeff srScores].
  assert (Hdet := det_acc _ _ _ _ _ _ I).
  assert (Hnan : Forall (fun i => nisnan (siScore i) = false) (map (item_of (F64 o)) (rev (ssAcc st)))).
  { apply Forall_forall. intros i Hi. apply in_map_iff in Hi. destruct Hi as ([[m c] s] & <- & Hi).
    rewrite <- in_rev in Hi. destruct (li_acc _ _ _ _ _ _ I _ _ _ Hi) as (Hm & Hnf & Hcost & _).
    cbn [item_of siScore]. rewrite (ol_nan_neg (f64_OrdLaws o)).
    apply finite_nan. apply fit_cost_eq in Hcost. rewrite nf_count in Hnf. eapply Hc; eauto. split; assumption. }
  split; [|split].
  - destruct (ssAcc st) as [|[[m c] s] t] eqn:Ea; [congruence|].
    exists m, c, s, t. split; [reflexivity|].
    assert (S := li_score _ _ _ _ _ _ I). rewrite Ea in S. destruct S as (S1 & S2 & S3).
    destruct (li_acc _ _ _ _ _ _ I m c s) as (Hm & _ & Hcost & _); [rewrite Ea; left; reflexivity|].
    rewrite S1. split; [apply sel_from_sorted|]. split.
    { intro z. rewrite sel_from_In. split.
      - intros (i & -> & Hi). exists i. split; [lia|]. apply nth_error_nth_bool; exact Hi.
      - intros (i & -> & Hi). exists i. split; [lia|]. apply nth_error_nth_bool; exact Hi. }
    unfold slice_to in Eco. rewrite S1 in Eco.
    destruct (_ || _)%bool; [discriminate|]. injection Eco as <-. rewrite Nat2Z.id.
    split; [exact S3|]. split; [rewrite sel_from_length; eapply sa_cost_length; exact Hcost|].
    apply fit_cost_eq. exact Hcost.
  - assert (Hne' : map (item_of (F64 o)) (rev (ssAcc st)) <> []).
    { intro C. apply map_eq_nil in C. apply Hne. rewrite <- (rev_involutive (ssAcc st)), C. reflexivity. }
    destruct (si_best _ _ _ (li_list _ _ _ _ _ _ I) Hne') as (b & B1 & B2 & (c0 & B3 & B3') & B4).
    destruct (si_from _ _ _ (li_list _ _ _ _ _ _ I) c0 B3) as (i & Hi & Ei1 & Ei2).
    apply in_map_iff in Hi. destruct Hi as ([[m c] s] & <- & Hi). rewrite <- in_rev in Hi.
    cbn [item_of siSelection siScore] in Ei1, Ei2. destruct B3' as [B5 B6].
    exists b, (nth b (saHeap (ssScores st)) (mkSAItem [] [] n0)), m, c, s.
    split; [exact B1|]. split; [apply nth_error_nth'; exact B2|]. split; [exact Hi|].
    split; [unfold SelectedFeatures; rewrite selected_loop_eq; congruence|].
    split; [congruence|].
    intros m' n' s' Hev. destruct (li_eval _ _ _ _ _ _ I _ _ _ Hev) as (_ & _ & _ & _ & (m2 & c2 & s2 & Hacc2 & Hle)).
    assert (Hb := sinv_best _ _ _ b (li_list _ _ _ _ _ _ I) Hdet Hnan B1 (item_of _ (m2, c2, s2))).
    assert (Hin2 : In (item_of (F64 o) (m2, c2, s2)) (map (item_of (F64 o)) (rev (ssAcc st))))
      by (apply in_map; rewrite <- in_rev; exact Hacc2).
    specialize (Hb Hin2). cbn [item_of siScore] in Hb.
    rewrite <- B6, Ei2 in Hb. unfold le in Hb. rewrite (ltb_neg_swap (f64_OrdLaws o)) in Hb.
    eapply (le_trans (f64_OrdLaws o)); [|exact Hb|exact Hle].
    rewrite Forall_forall in Hnan. specialize (Hnan _ Hin2). cbn [item_of siScore] in Hnan.
    rewrite (ol_nan_neg (f64_OrdLaws o)) in Hnan. exact Hnan.
  - intros m c s Hacc.
    assert (Hin2 : In (item_of (F64 o) (m, c, s)) (map (item_of (F64 o)) (rev (ssAcc st))))
      by (apply in_map; rewrite <- in_rev; exact Hacc).
    destruct (si_keep _ _ _ (li_list _ _ _ _ _ _ I) Hdet _ Hin2) as [(e & He' & E2 & E3)|(E2 & E3)].
    + left. exists e. split; [exact He'|]. cbn [item_of siSelection siScore] in E2, E3.
      split; [unfold SelectedFeatures; rewrite selected_loop_eq; congruence|exact E3].
    + right. rewrite (li_cap _ _ _ _ _ _ I) in E2. split; [unfold saContents; rewrite map_length; lia|exact E3].
Qed.
Print Assumptions C24_result.

(** A run on six rows and two orthogonal features. *)
Definition fenvE : fenv := {|
  o_exp := fun x => match x with S754_zero _ => f64_ofZ 1 | S754_nan => S754_nan | _ => f64_ofZ 0 end;
  o_log := fun x => x; o_log2 := fun x => x; o_exp2 := fun x => x;
  o_pow := fun x _ => SFmul fprec femax x x |}.
Definition XE : Mat (F64 fenvE) :=
  mkMat 6 2 (fun i j => if (i =? j)%nat then n1 else n0).
Definition yE : list (F64 fenvE) := map f64_ofZ [3; 4; 1; 0; 0; 0]%Z.
Definition svdE (D : Mat (F64 fenvE)) : SVD (F64 fenvE) :=
  mkSVD (repeat n1 (mcols D)) D (mkMat (mcols D) (mcols D) (fun i j => if (i =? j)%nat then n1 else n0)).
Definition costE (n d : Z) (rss : F64 fenvE) : F64 fenvE := (rss + nofZ n)%num.

Lemma exp_zero_E : exp_zero fenvE.
Proof. intro b. reflexivity. Qed.

Lemma finite_E : finite_costs svdE XE yE costE.
Proof.
  intros m c s (Hm & _) H. apply fit_cost_eq in H.
  assert (A : match sa_cost svdE XE yE costE m (Z.of_nat (NumFeatures m)) with
              | Ok (c, s) => (finite s && nltb s nmaxf)%bool | _ => true end = true).
  { destruct m as [|[] [|[] [|? ?]]]; try discriminate Hm; vm_compute; reflexivity. }
  rewrite H in A. apply andb_prop in A. exact A.
Qed.

Example C24_nonvacuous :
  exp_zero fenvE /\ below_one (fun _ => f64_dec 5 (-1) : F64 fenvE) /\ finite_costs svdE XE yE costE /\
  match SelectModelSA svdE XE yE 1 costE (fun k => k) (fun _ => f64_dec 5 (-1)) 300 with
  | Ok (r, st) => srSelected r = [0%Z; 1%Z] /\ (2 <=? length (ssEval st))%nat = true
  | _ => False
  end.
Proof.
  split; [exact exp_zero_E|]. split; [intro; vm_compute; reflexivity|]. split; [exact finite_E|].
  vm_compute. auto.
Qed.

(** ** C25: corner cases *)

(** With at most five rows only the model {0} is ever evaluated and returned. *)
Theorem C25_five_rows : forall o svd (X : Mat (F64 o)) y nSweeps cost ri rf,
  exp_zero o -> below_one rf -> finite_costs svd X y cost -> (mrows X <= 5)%nat ->
  (forall k st b, sa_run svd X y nSweeps cost ri rf k st b ->
     forall m n s, In (m, n, s) (ssEval st) -> forall i, nth i m false = true -> i = 0%nat) /\
  (forall fuel r st, SelectModelSA svd X y nSweeps cost ri rf fuel = Ok (r, st) -> srSelected r = [0%Z]).
Proof.
  intros o svd X y nSweeps cost ri rf He Hrf Hc Hr.
  assert (RS : forall k st b, sa_run svd X y nSweeps cost ri rf k st b ->
    ssCurrent st = upd (repeat false (mcols X)) 0 true /\
    forall m n s, In (m, n, s) (ssEval st) -> m = upd (repeat false (mcols X)) 0 true).
  { apply (run_small (F64 o) (f64_OrdLaws o) svd X y nSweeps cost ri rf temp_ok temp_ok_500
     temp_ok_2 temp_ok_half); auto.
    - intros t s k' Ht Hs. apply same_accept_f64; auto.
    - intros m c s Hm Hnf H. apply fit_cost_eq in H. rewrite nf_count in Hnf. eapply Hc; eauto. split; assumption. }
  split.
  - intros k st b R m n s Hin i Hi. destruct (RS _ _ _ R) as (_ & H). apply H in Hin. subst m.
    rewrite nth_upd in Hi. destruct (Nat.eqb_spec i 0) as [Ei|_]; [exact Ei|].
    rewrite nth_repeat_false in Hi. discriminate.
  - intros fuel r st H.
    unfold SelectModelSA in H. apply bind_ok in H. destruct H as (st0 & E0 & H).
    apply bind_ok in H. destruct H as (st1 & E1 & H).
    apply bind_ok in H. destruct H as (r' & Er & H). injection H as -> ->.
    assert (Hmc : (0 < mcols X)%nat).
    { unfold sa_init, setn in E0. rewrite repeat_length in E0.
      destruct (Nat.ltb_spec 0 (mcols X)); [assumption|discriminate]. }
    destruct (sa_loop_run _ _ _ _ _ _ _ _ _ _ _ _ (sa_run_0 _ _ _ _ _ _ _ _ E0) E1) as (k & R).
    destruct (RS _ _ _ R) as (Hcur & _).
    unfold sa_result in Er. apply bind_ok in Er. destruct Er as (co & Eco & Er).
    rewrite selected_loop_eq in Er. cbn [bind] in Er. injection Er as <-. cbn [srSelected].
    rewrite Hcur. destruct (mcols X) as [|n]; [lia|]. cbn [repeat upd sel_from].
    f_equal. destruct (sel_from 1 (repeat false n)) as [|z l] eqn:E; [reflexivity|].
    exfalso. assert (Hz : In z (sel_from 1 (repeat false n))) by (rewrite E; left; reflexivity).
    apply sel_from_In in Hz. destruct Hz as (i & _ & Hi).
    apply nth_error_nth_bool in Hi. rewrite nth_repeat_false in Hi. discriminate.
Qed.
Print Assumptions C25_five_rows.

(** If every cost is NaN the search never returns, whatever the random numbers. *)
Theorem C25_nan_never_returns : forall o svd (X : Mat (F64 o)) y nSweeps cost ri rf,
  o_exp o S754_nan = S754_nan -> (0 < mcols X)%nat ->
  (forall m n, length m = mcols X -> (exists i, nth i m false = true) ->
     exists c s, sa_cost svd X y cost m n = Ok (c, s) /\ nisnan s = true) ->
  forall fuel, SelectModelSA svd X y nSweeps cost ri rf fuel = Fuel.
Proof.
  intros o svd X y nSweeps cost ri rf He Hc Hn fuel.
  apply nan_never_returns; auto.
  intros m n Hm Hnf. apply Hn; [exact Hm|].
  destruct (nth_error_sel m 0) as (i & _ & _ & Hi); [lia|]. exists i; exact Hi.
Qed.
Print Assumptions C25_nan_never_returns.

(** In particular one NaN among the observations is enough with the AICc cost. *)
Theorem C25_nan_observation_never_returns : forall o svd (X : Mat (F64 o)) y nSweeps ri rf,
  o_exp o S754_nan = S754_nan -> o_log o S754_nan = S754_nan -> o_pow o S754_nan 2 = S754_nan ->
  (0 < mcols X)%nat -> mrows X = length y ->
  (forall D, mrows D = length y -> (1 <= mcols D)%nat -> thin_shape D (svd D)) ->
  (exists j, nth_error y j = Some (S754_nan : F64 o)) ->
  forall fuel, SelectModelSA svd X y nSweeps (Aicc (N := F64 o)) ri rf fuel = Fuel.
Proof.
  intros o svd X y nSweeps ri rf He Hl Hp Hc Hr Hsvd (j & Hj) fuel.
  assert (Hjl : (j < length y)%nat) by (apply nth_error_Some; congruence).
  assert (Hjn : nth j y n0 = (S754_nan : F64 o)) by (apply nth_error_nth; exact Hj).
  apply nan_never_returns; auto.
  apply (cost_nan_y o y j); auto.
Qed.
Print Assumptions C25_nan_observation_never_returns.

Definition yN : list (F64 fenvE) := [f64_ofZ 1; S754_nan; f64_ofZ 2; f64_ofZ 0; f64_ofZ 0; f64_ofZ 0].

Example C25_nonvacuous :
  finite_costs svdE (mkMat 5 2 (mval XE)) (firstn 5 yE) costE /\
  match SelectModelSA svdE (mkMat 5 2 (mval XE)) (firstn 5 yE) 1 costE (fun k => k) (fun _ => f64_dec 5 (-1)) 400 with
  | Ok (r, st) => srSelected r = [0%Z] /\ (1 <=? length (ssEval st))%nat = true
  | _ => False
  end /\
  o_exp fenvE S754_nan = S754_nan /\ o_log fenvE S754_nan = S754_nan /\
  o_pow fenvE S754_nan 2 = S754_nan /\
  (forall D : Mat (F64 fenvE), mrows D = length yN -> (1 <= mcols D)%nat -> thin_shape D (svdE D)) /\
  nth_error yN 1 = Some S754_nan.
Proof.
  split.
  { intros m c s (Hm & _) H. apply fit_cost_eq in H.
    assert (A : match sa_cost svdE (mkMat 5 2 (mval XE)) (firstn 5 yE) costE m (Z.of_nat (NumFeatures m)) with
                | Ok (c, s) => (finite s && nltb s nmaxf)%bool | _ => true end = true).
    { destruct m as [|[] [|[] [|? ?]]]; try discriminate Hm; vm_compute; reflexivity. }
    rewrite H in A. apply andb_prop in A. exact A. }
  split; [vm_compute; auto|].
  do 3 (split; [reflexivity|]). split; [|reflexivity].
  intros D HD Hc. unfold thin_shape, svdE. cbn [svS svU svV mrows mcols]. rewrite repeat_length. auto.
Qed.

(** ** C08: items of the list of the annealing *)
Theorem C08_sa_item : forall o model, exists sel,
  SelectedFeatures model = Ok sel /\
  NewSAItem (N := F64 o) model = Ok (mkSAItem sel (repeat n0 (NumFeatures model)) n0).
Proof.
  intros o model. exists (sel_from 0 model). split; [apply selected_loop_eq|].
  unfold NewSAItem. rewrite selected_loop_eq. reflexivity.
Qed.
Print Assumptions C08_sa_item.
