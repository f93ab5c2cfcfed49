(** Properties C14-C21: branch and bound under every schedule, brute force. *)
From Coq Require Import Reals Lra Sorting.Sorted Sorting.Permutation Floats.SpecFloat.
From Verif Require Import Base Num Mat Model_Node Model_Search.
From Verif Require Import Proof_Node Proof_Node2 Proof_Models Proof_Search Proof_Search2 Proof_Search3 Proof_Search4 Proof_Search5.

(** ** Vocabulary *)

(** some feature is selected *)
Definition nonempty (m : list bool) : Prop := In true m.

(** the first [l] bits of [m], the others as in [root]: the node at level [l]
    on the way from the root to [m] *)
Definition toward (root m : list bool) (l : nat) : list bool := firstn l m ++ skipn l root.

(** number of features *)
Definition nfeat (m : list bool) : nat := length (filter (fun b => b) m).

(** What is assumed about the nodes on the way to [m]: few enough features,
    and a lower bound that does not exceed the AICC (minus the score) of [m]. *)
Record reachable_model {o} rows (cols : nat) (fit : list bool -> list (F64 o) * F64 o)
    (bounds : list bool -> Z -> F64 o * F64 o) (root m : list bool) : Prop := {
  rm_len : length m = cols;
  rm_ne : nonempty m;
  rm_not_root : m <> root;
  rm_feasible : forall l, (l <= cols)%nat -> (nfeat (toward root m l) < rows)%nat;
  rm_bounds : forall l, (1 <= l <= cols)%nat -> nonempty (toward root m l) ->
    SFltb (SFopp (snd (fit m))) (fst (bounds (toward root m l) (Z.of_nat l))) = false
}.

(** Scores are numbers; those above 1e100 (the constant CreateChild uses for
    the model without features) are at least as good as the score of [m]. *)
Definition sane_scores {o} (cols : nat) (fit : list bool -> list (F64 o) * F64 o)
    (pre : list (Node (F64 o))) (m : list bool) : Prop :=
  (forall a, length a = cols -> nonempty a -> f64_isnan (snd (fit a)) = false) /\
  (forall n, In n pre -> f64_isnan (ndScore n) = false) /\
  (forall a, length a = cols -> nonempty a -> SFltb (f64_dec 1 100) (snd (fit a)) = true ->
     SFltb (snd (fit a)) (snd (fit m)) = false) /\
  (forall n, In n pre -> SFltb (f64_dec 1 100) (ndScore n) = true -> SFltb (ndScore n) (snd (fit m)) = false).

Lemma nonempty_nf : forall m, nonempty m <-> (0 < NumFeatures m)%nat.
Proof.
  intro m. rewrite nf_count. induction m as [|[] m IH]; simpl; unfold nonempty in *; simpl.
  - split; [intros []|lia].
  - split; auto. lia.
  - rewrite <- IH. split; [intros [H|H]; [discriminate|auto]|auto].
Qed.

Lemma nf_nfeat : forall m, NumFeatures m = nfeat m.
Proof. intro m. rewrite nf_count. unfold nfeat. induction m as [|[] m IH]; simpl; auto. Qed.

Lemma start_inv : forall (N : Num) rows cols fit bounds root maxq cutoff (h : Highscore N) P s0,
  SelectModel_start rows cols fit bounds root maxq cutoff h = Ok (P, s0) ->
  s0 = init_st h /\ pRows P = rows /\ pCols P = cols /\ pFit P = fit /\ pBounds P = bounds /\
  pMaxQ P = maxq /\ (3 <= pCols P)%nat /\ length (pRoot P) = pCols P /\
  pRoot P = match root with None => repeat false cols | Some r => r end.
Proof.
  intros N rows cols fit bounds root maxq cutoff h P s0 H. unfold SelectModel_start in H.
  destruct (Nat.ltb_spec cols 3); [discriminate|].
  destruct root as [r|]; [destruct (Nat.eqb_spec (length r) cols)|]; cbn [bind] in H; try discriminate;
    injection H as <- <-; cbn; repeat split; auto. apply repeat_length.
Qed.

Section Opt14.
  Variable o : fenv.
  Notation F := (F64 o).
  Variables (rows cols : nat) (fit : list bool -> list F * F) (bounds : list bool -> Z -> F * F).
  Variables (root : option (list bool)) (maxq : Z) (cutoff : F) (M : Z) (pre : list (Node F)).
  Variables (h : Highscore F) (P : problem F) (s0 s : st F) (ls : list label) (k : nat) (m : list bool).
  Hypothesis HM : (2 <= M)%Z.
  Hypothesis Hh : hsInsertAll (NewHighscore M) pre = Ok h.
  Hypothesis Hst : SelectModel_start rows cols fit bounds root maxq cutoff h = Ok (P, s0).
  Hypothesis Hrun : run P s0 ls = Some (Ok s).
  Hypothesis Hend : sMain s = MClose k.
  Hypothesis Hsane : sane_scores cols fit pre m.
  Hypothesis Hm : reachable_model rows cols fit bounds (pRoot P) m.

  Lemma neg_dec : @nneg F (ndec (-1) 100) = f64_dec 1 100.
  Proof. vm_compute. reflexivity. Qed.

  Lemma opt14 :
    (1 <= pCols P)%nat /\ length (pRoot P) = pCols P /\ pMaxQ P = maxq /\ pCols P = cols /\
    hsMaxItems h <> 1%Z /\ HInv F M h pre /\ Forall (@nonan F) pre /\
    (forall x, length x = pCols P -> nisnan (scoreOf F P x) = false) /\
    reach F P (init_st h) s /\
    (nltb (hsBestScore (sHs s)) (snd (fit m)) = false \/
     (gRaced s = true /\ pre = [] /\ nltb (n0 (N := F)) (snd (fit m)) = false) \/ gTrimmed s = true).
  Proof.
    destruct (start_inv _ _ _ _ _ _ _ _ _ _ _ Hst) as (-> & E1 & E2 & E3 & E4 & E5 & E6 & E7 & E8).
    destruct Hsane as (A1 & A2 & A3 & A4).
    assert (Hp : Forall (@nonan F) pre) by (apply Forall_forall; intros n Hn; apply A2; auto).
    destruct (hs_reach F (f64_OrdLaws o) M pre HM Hp) as (h' & Eh & HI).
    rewrite Hh in Eh. injection Eh as <-.
    assert (Hmax : hsMaxItems h <> 1%Z) by (rewrite (hi_max _ _ _ _ HI); lia).
    assert (Hc1 : (1 <= pCols P)%nat) by lia.
    assert (R : reach F P (init_st h) s).
    { destruct (run_reach F P Hc1 E7 ls (init_st h) (Ok s) (pinv_init F P h Hmax) Hrun) as (s' & Es & R).
      injection Es as <-. exact R. }
    assert (Hsc : forall x, (0 < NumFeatures x)%nat -> scoreOf F P x = snd (fit x)).
    { intros x Hx. unfold scoreOf. rewrite E3. destruct (Nat.eqb_spec (NumFeatures x) 0); [lia|reflexivity]. }
    assert (Hnan : forall x, length x = pCols P -> nisnan (scoreOf F P x) = false).
    { intros x Hx. destruct (Nat.eq_dec (NumFeatures x) 0) as [E|E].
      - unfold scoreOf. rewrite E. reflexivity.
      - rewrite Hsc by lia. apply A1; [lia|]. apply nonempty_nf. lia. }
    destruct Hm as [B1 B2 B3 B4 B5].
    assert (Hnm : (0 < NumFeatures m)%nat) by (apply nonempty_nf; auto).
    repeat (split; [assumption|]).
    rewrite <- (Hsc m Hnm).
    eapply (optimal F P Hc1 E7 (f64_OrdLaws o) M pre h HM HI Hp Hnan m); try eassumption.
    - lia.
    - intros l Hl. rewrite E1, nf_nfeat. apply B4. lia.
    - intros l Hl x.
      destruct (Nat.eq_dec (NumFeatures x) 0) as [E0|E0].
      + assert (Elow : lowerOf F P x (Z.of_nat l) = ndec (-1) 100) by (unfold lowerOf; rewrite E0; reflexivity).
        rewrite Elow. rewrite (Hsc m Hnm). split.
        * intros sc Hs Hlt. rewrite (ol_neg_lt (f64_OrdLaws o)), neg_dec in Hlt.
          destruct Hs as [Hs|(a & Ha & ->)].
          -- apply in_map_iff in Hs. destruct Hs as (n & <- & Hn). apply A4; auto.
          -- destruct (Nat.eq_dec (NumFeatures a) 0) as [Ea|Ea].
             ++ exfalso. unfold scoreOf in Hlt. rewrite Ea in Hlt. vm_compute in Hlt. discriminate.
             ++ rewrite (Hsc a) in Hlt by lia. rewrite (Hsc a) by lia. apply A3; auto; [lia|]. apply nonempty_nf; lia.
        * intro Hlt. exfalso. vm_compute in Hlt. discriminate.
      + assert (Elow : lowerOf F P x (Z.of_nat l) = fst (bounds x (Z.of_nat l))).
        { unfold lowerOf. rewrite E4. destruct (Nat.eqb_spec (NumFeatures x) 0); [lia|reflexivity]. }
        rewrite Elow, (Hsc m Hnm).
        assert (Hx : nonempty (toward (pRoot P) m l)) by (apply nonempty_nf; unfold toward; fold x; lia).
        specialize (B5 l ltac:(lia) Hx). unfold toward in B5; fold x in B5.
        assert (Hgen : forall sc : F, nltb (nneg sc) (fst (bounds x (Z.of_nat l))) = true -> nltb sc (snd (fit m)) = false).
        { intros sc Hlt. destruct (nltb sc (snd (fit m))) eqn:Ec; auto.
          (* -score m < -sc < lower *)
          exfalso. assert (Hn : nltb (nneg (snd (fit m))) (nneg sc) = true).
          { rewrite (ol_neg_lt (f64_OrdLaws o)), (ol_negneg (f64_OrdLaws o)). exact Ec. }
          pose proof (ol_trans (f64_OrdLaws o) _ _ _ Hn Hlt) as Ht.
          change (nltb (n := F) (nneg (snd (fit m))) (fst (bounds x (Z.of_nat l))) = false) in B5. congruence. }
        split; [intros sc _; apply Hgen|apply Hgen].
  Qed.
End Opt14.

(** ** C14.  [run P s0 ls = Some (Ok s)] with [sMain s = MClose k]: SelectModel
    has left its loop after the schedule [ls].  [gRaced]/[gTrimmed] record the
    two ways of losing a subtree that are not justified by its bound. *)
Theorem C14_branch_and_bound_optimal : forall o rows cols fit bounds root maxq cutoff M
    (pre : list (Node (F64 o))) h P s0 ls s k m,
  (2 <= M)%Z -> hsInsertAll (NewHighscore M) pre = Ok h ->
  SelectModel_start rows cols fit bounds root maxq cutoff h = Ok (P, s0) ->
  run P s0 ls = Some (Ok s) -> sMain s = MClose k ->
  sane_scores cols fit pre m ->
  reachable_model rows cols fit bounds (pRoot P) m ->
  gRaced s = false -> gTrimmed s = false ->
  SFltb (hsBestScore (sHs s)) (snd (fit m)) = false.
Proof.
  intros o rows cols fit bounds root maxq cutoff M pre h P s0 ls s k m HM Hh Hst Hrun Hend Hs Hm Hr Ht.
  destruct (opt14 o rows cols fit bounds root maxq cutoff M pre h P s0 s ls k m HM Hh Hst Hrun Hend Hs Hm)
    as (_ & _ & _ & _ & _ & _ & _ & _ & _ & [H|[(H & _)|H]]); auto; congruence.
Qed.
Print Assumptions C14_branch_and_bound_optimal.

(** A list that already holds a model when the search starts, and a queue limit
    of at least half the number of models: no assumption on the schedule. *)
Theorem C14_branch_and_bound_optimal_seeded : forall o rows cols fit bounds root maxq cutoff M
    (pre : list (Node (F64 o))) h P s0 ls s k m,
  (2 <= M)%Z -> hsInsertAll (NewHighscore M) pre = Ok h -> pre <> [] ->
  SelectModel_start rows cols fit bounds root maxq cutoff h = Ok (P, s0) ->
  (2 ^ Z.of_nat cols <= 2 * maxq)%Z ->
  run P s0 ls = Some (Ok s) -> sMain s = MClose k ->
  sane_scores cols fit pre m ->
  reachable_model rows cols fit bounds (pRoot P) m ->
  SFltb (hsBestScore (sHs s)) (snd (fit m)) = false.
Proof.
  intros o rows cols fit bounds root maxq cutoff M pre h P s0 ls s k m HM Hh Hne Hst Hq Hrun Hend Hs Hm.
  destruct (opt14 o rows cols fit bounds root maxq cutoff M pre h P s0 s ls k m HM Hh Hst Hrun Hend Hs Hm)
    as (Hc & Hr & Eq & Ec & Hmax & HI & Hp & Hnan & R & [H|[(_ & H & _)|H]]); auto; [congruence|].
  rewrite (trimmed_false (F64 o) P Hc Hr h s Hmax) in H; auto; [discriminate|]. rewrite Eq, Ec. exact Hq.
Qed.
Print Assumptions C14_branch_and_bound_optimal_seeded.

(** Empty list at the start: the only models that can be lost have a score of at
    most zero (an AICC of at least zero). *)
Theorem C14_branch_and_bound_positive_scores : forall o rows cols fit bounds root maxq cutoff M
    h P s0 ls s k m,
  (2 <= M)%Z -> hsInsertAll (NewHighscore (N := F64 o) M) [] = Ok h ->
  SelectModel_start rows cols fit bounds root maxq cutoff h = Ok (P, s0) ->
  (2 ^ Z.of_nat cols <= 2 * maxq)%Z ->
  run P s0 ls = Some (Ok s) -> sMain s = MClose k ->
  sane_scores cols fit [] m ->
  reachable_model rows cols fit bounds (pRoot P) m ->
  SFltb (S754_zero false) (snd (fit m)) = true ->
  SFltb (hsBestScore (sHs s)) (snd (fit m)) = false.
Proof.
  intros o rows cols fit bounds root maxq cutoff M h P s0 ls s k m HM Hh Hst Hq Hrun Hend Hs Hm Hpos.
  destruct (opt14 o rows cols fit bounds root maxq cutoff M [] h P s0 s ls k m HM Hh Hst Hrun Hend Hs Hm)
    as (Hc & Hr & Eq & Ec & Hmax & HI & Hp & Hnan & R & [H|[(_ & _ & H)|H]]); auto.
  - exfalso. change (SFltb (S754_zero false) (snd (fit m)) = false) in H. congruence.
  - rewrite (trimmed_false (F64 o) P Hc Hr h s Hmax) in H; auto; [discriminate|]. rewrite Eq, Ec. exact Hq.
Qed.
Print Assumptions C14_branch_and_bound_positive_scores.

(** ** A concrete search with three features: the optimum is 010 *)
Definition bleqb (a b : list bool) : bool := if list_eq_dec bool_dec a b then true else false.
Definition opt3 : list bool := [false; true; false].
Definition rfit (m : list bool) : list (F64 fenv0) * F64 fenv0 :=
  ([], f64_ofZ (if bleqb m opt3 then -5 else -10)).
Definition rbounds (x : list bool) (l : Z) : F64 fenv0 * F64 fenv0 :=
  (f64_ofZ (if bleqb (firstn (Z.to_nat l) x) (firstn (Z.to_nat l) opt3) then 5 else 10), f64_ofZ 10).
Definition rP : problem (F64 fenv0) :=
  mkProblem (N := F64 fenv0) 10 3 rfit rbounds [false; false; false] 4 (f64_ofZ 0).

(** a scheduler: always the first possible step of this list *)
Definition cand : list label :=
  [LRoot 0] ++ map LCompute (seq 0 8) ++ map LScore (seq 0 8) ++ map LPrune (seq 0 8) ++
  flat_map (fun i => map (LNode i) (seq 0 8)) (seq 0 8) ++ map LChild (seq 0 8) ++
  map LReady (seq 0 8) ++ map LWant (seq 0 8) ++ [LClose] ++ map LExitSW (seq 0 8) ++ map LExitCW (seq 0 8).
Fixpoint pick (s : st (F64 fenv0)) (c : list label) : option (label * st (F64 fenv0)) :=
  match c with
  | [] => None
  | l :: c => match exec rP s l with Some (Ok s') => Some (l, s') | _ => pick s c end
  end.
Fixpoint greedy (fuel : nat) (s : st (F64 fenv0)) : list label :=
  match fuel with
  | O => []
  | S f => match pick s cand with None => [] | Some (l, s') => l :: greedy f s' end
  end.

Definition rstart (pre : list (Node (F64 fenv0))) : st (F64 fenv0) :=
  match hsInsertAll (NewHighscore 20) pre with Ok h => init_st h | _ => init_st (NewHighscore 20) end.

Definition rcheck (pre : list (Node (F64 fenv0))) (ls : list label) (f : st (F64 fenv0) -> bool) : bool :=
  match run rP (rstart pre) ls with Some (Ok s) => f s | _ => false end.

Lemma rcheck_ex : forall pre ls f, rcheck pre ls f = true ->
  exists s, run rP (rstart pre) ls = Some (Ok s) /\ f s = true.
Proof.
  intros pre ls f. unfold rcheck. generalize (run rP (rstart pre) ls).
  intros [[s| |]|] H; try discriminate H. eauto.
Qed.

Definition is_close (n : nat) (s : st (F64 fenv0)) : bool :=
  match sMain s with MClose k => (k =? n)%nat | _ => false end.

Definition nonemptyb (m : list bool) : bool := existsb (fun b => b) m.
Lemma nonemptyb_ok : forall m, nonempty m -> nonemptyb m = true.
Proof. intros m H. apply existsb_exists. exists true. auto. Qed.

(** the bounds of this search are right for every pair of models and level *)
Lemma rbounds_valid : forall x m l, length x = 3%nat -> length m = 3%nat -> nonempty x -> nonempty m ->
  (1 <= l <= 3)%nat -> firstn l x = firstn l m ->
  SFltb (SFopp (snd (rfit m))) (fst (rbounds x (Z.of_nat l))) = false.
Proof.
  assert (H : forallb (fun x => forallb (fun m => forallb (fun l =>
     implb (bleqb (firstn l x) (firstn l m))
       (negb (SFltb (SFopp (snd (rfit m))) (fst (rbounds x (Z.of_nat l)))))) [1; 2; 3]%nat)
     (all_models 3)) (all_models 3) = true) by (vm_compute; reflexivity).
  intros x m l Hx Hm _ _ Hl E. rewrite forallb_forall in H.
  specialize (H x (proj2 (all_models_in 3 x) Hx)). rewrite forallb_forall in H.
  specialize (H m (proj2 (all_models_in 3 m) Hm)). rewrite forallb_forall in H.
  assert (Hin : In l [1; 2; 3]%nat) by (simpl; lia). specialize (H l Hin).
  unfold bleqb at 1 in H. destruct (list_eq_dec bool_dec (firstn l x) (firstn l m)); [|contradiction].
  apply negb_true_iff in H. exact H.
Qed.

Lemma toward_agree : forall root m l, length root = length m -> (l <= length m)%nat ->
  length (toward root m l) = length m /\ firstn l (toward root m l) = firstn l m.
Proof.
  intros root m l Hr Hl. unfold toward. rewrite app_length, skipn_length, firstn_length. split; [lia|].
  rewrite firstn_app, firstn_firstn, firstn_length.
  replace (Nat.min l l) with l by lia. replace (l - Nat.min l (length m))%nat with 0%nat by lia.
  simpl. apply app_nil_r.
Qed.

Lemma nfeat_le : forall m, (nfeat m <= length m)%nat.
Proof. intro m. unfold nfeat. induction m as [|[] m IH]; simpl; lia. Qed.

Lemma rP_reachable : forall m, length m = 3%nat -> nonempty m ->
  reachable_model 10 3 rfit rbounds (pRoot rP) m.
Proof.
  intros m Hl Hn. constructor; auto.
  - intros ->. destruct Hn as [H|[H|[H|[]]]]; discriminate.
  - intros l Hle. destruct (toward_agree (pRoot rP) m l) as (E & _); [rewrite Hl; reflexivity|lia|].
    pose proof (nfeat_le (toward (pRoot rP) m l)). lia.
  - intros l Hle Hx. destruct (toward_agree (pRoot rP) m l) as (E & E2); [rewrite Hl; reflexivity|lia|].
    apply rbounds_valid; auto; lia.
Qed.

Lemma rP_sane : forall (pre : list (Node (F64 fenv0))) m, (forall n, In n pre -> ndScore n = f64_ofZ (-10)) ->
  length m = 3%nat -> sane_scores 3 rfit pre m.
Proof.
  intros pre m Hp Hm. unfold rfit. repeat split.
  - intros a _ _. cbn [snd]. destruct (bleqb a opt3); reflexivity.
  - intros n Hn. rewrite (Hp n Hn). reflexivity.
  - intros a _ _ H. exfalso. cbn [snd] in H. destruct (bleqb a opt3); vm_compute in H; discriminate H.
  - intros n Hn H. exfalso. rewrite (Hp n Hn) in H. vm_compute in H; discriminate H.
Qed.

Definition seed : Node (F64 fenv0) :=
  mkNode (N := F64 fenv0) [true; true; false] [] 3 (S754_zero false) (S754_zero false) (f64_ofZ (-10)) true.

Example C14_nonvacuous :
  (exists P s0, SelectModel_start 10 3 rfit rbounds None 4 (f64_ofZ 0) (NewHighscore 20) = Ok (P, s0) /\
     pRoot P = [false; false; false]) /\
  sane_scores 3 rfit [] opt3 /\ sane_scores 3 rfit [seed] opt3 /\
  reachable_model 10 3 rfit rbounds [false; false; false] opt3 /\
  rcheck [] (greedy 300 (rstart []))
    (fun s => (is_close 4 s && negb (gRaced s) && negb (gTrimmed s) &&
               SFeqb (hsBestScore (sHs s)) (f64_ofZ (-5)))%bool) = true /\
  rcheck [seed] (greedy 300 (rstart [seed]))
    (fun s => (is_close 4 s && SFeqb (hsBestScore (sHs s)) (f64_ofZ (-5)) &&
               (length (gPruned s) =? 2)%nat)%bool) = true.
Proof.
  split; [eexists; eexists; split; reflexivity|].
  split; [apply rP_sane; [intros n []|reflexivity]|].
  split; [apply rP_sane; [intros n [<-|[]]; reflexivity|reflexivity]|].
  split; [apply rP_reachable; [reflexivity|unfold nonempty; simpl; auto]|].
  split; vm_compute; reflexivity.
Qed.

(** ** C15.  Valid bounds, sane scores, empty list at the start, queue limit not
    reached - and still the search ends with a worse model than brute force. *)
Definition race_ls : list label :=
  [LRoot 0; LChild 0; LChild 0; LNode 0 0; LChild 0; LChild 0; LChild 0; LNode 0 1;
   LCompute 0; LScore 0; LReady 0; LWant 0; LChild 0; LChild 0; LNode 0 2; LChild 0;
   LChild 0;              (* worker 0 reads BestScore() = 0 of the empty list *)
   LCompute 1; LScore 1;  (* main inserts 100 *)
   LChild 0;              (* worker 0 reads Len() = 1: subtree of 010 pruned *)
   LPrune 0;
   LCompute 2; LScore 2; LReady 0; LWant 0; LChild 0; LChild 0; LNode 0 0; LCompute 0; LScore 0;
   LChild 0; LChild 0; LNode 0 0; LCompute 0; LScore 0; LReady 0; LWant 0; LChild 0; LChild 0;
   LNode 0 0; LCompute 0; LScore 0; LChild 0; LChild 0; LNode 0 0; LCompute 0; LScore 0;
   LReady 0; LWant 0; LChild 0; LChild 0; LNode 0 0; LCompute 0; LScore 0; LChild 0; LChild 0;
   LNode 0 0; LCompute 0; LScore 0; LReady 0; LWant 0; LChild 0; LChild 0; LNode 0 0; LCompute 0;
   LScore 0; LChild 0; LChild 0; LNode 0 0; LCompute 0; LScore 0; LClose; LClose; LClose; LClose].

Theorem C15_optimal_without_guard_refuted :
  exists rows cols (fit : list bool -> list (F64 fenv0) * F64 fenv0) bounds maxq cutoff M P s0 ls s hb m,
    (2 <= M)%Z /\ (2 ^ Z.of_nat cols <= 2 * maxq)%Z /\
    SelectModel_start rows cols fit bounds None maxq cutoff (NewHighscore M) = Ok (P, s0) /\
    (forall a, length a = cols -> nonempty a -> sane_scores cols fit [] a /\
       reachable_model rows cols fit bounds (pRoot P) a) /\
    run P s0 ls = Some (Ok s) /\ sMain s = MClose 4 /\ gTrimmed s = false /\
    BruteForceSelect P 100 = Ok hb /\
    length m = cols /\ nonempty m /\
    hsBestScore hb = snd (fit m) /\
    SFltb (hsBestScore (sHs s)) (hsBestScore hb) = true.
Proof.
  assert (H : rcheck [] race_ls (fun s => (is_close 4 s && negb (gTrimmed s) &&
               SFltb (hsBestScore (sHs s)) (f64_ofZ (-5)))%bool) = true) by (vm_compute; reflexivity).
  apply rcheck_ex in H. destruct H as (s & E & H).
  apply andb_true_iff in H. destruct H as (H & H3). apply andb_true_iff in H. destruct H as (H1 & H2).
  assert (B : match BruteForceSelect rP 100 with Ok hb => hsBestScore hb = f64_ofZ (-5) | _ => False end)
    by (vm_compute; reflexivity).
  assert (B' : exists hb, BruteForceSelect rP 100 = Ok hb /\ hsBestScore hb = f64_ofZ (-5)).
  { revert B. generalize (BruteForceSelect rP 100). intros [hb| |] B; try contradiction. eauto. }
  clear B. destruct B' as (hb & Eb & B).
  exists 10%nat, 3%nat, rfit, rbounds, 4%Z, (f64_ofZ 0), 20%Z, rP, (rstart []), race_ls, s, hb, opt3.
  split; [lia|]. split; [simpl; lia|]. split; [reflexivity|]. split.
  { intros a Ha Hn. split; [apply rP_sane; auto; intros n []|apply rP_reachable; auto]. }
  split; [exact E|]. split.
  { clear E H3 B Eb. unfold is_close in H1. destruct (sMain s); try discriminate H1.
    apply Nat.eqb_eq in H1. rewrite H1. reflexivity. }
  split; [apply negb_true_iff; exact H2|]. split; [exact Eb|]. split; [reflexivity|].
  split; [unfold nonempty; simpl; auto|]. split; [rewrite B; reflexivity|]. rewrite B. exact H3.
Qed.
Print Assumptions C15_optimal_without_guard_refuted.

(** ** C16 *)
Section C16.
  Variable o : fenv.
  Notation F := (F64 o).
  Lemma started : forall rows cols fit bounds root maxq cutoff (h : Highscore F) P s0 ls s,
    hsMaxItems h <> 1%Z ->
    SelectModel_start rows cols fit bounds root maxq cutoff h = Ok (P, s0) ->
    run P s0 ls = Some (Ok s) ->
    (1 <= pCols P)%nat /\ length (pRoot P) = pCols P /\ s0 = init_st h /\
    reach F P (init_st h) s /\ PInv F P s.
  Proof.
    intros rows cols fit bounds root maxq cutoff h P s0 ls s Hh Hst Hrun.
    destruct (start_inv _ _ _ _ _ _ _ _ _ _ _ Hst) as (-> & E1 & E2 & E3 & E4 & E5 & E6 & E7 & E8).
    assert (Hc : (1 <= pCols P)%nat) by lia.
    destruct (run_reach F P Hc E7 ls _ _ (pinv_init F P h Hh) Hrun) as (s' & Es & R).
    injection Es as <-. split; [exact Hc|]. split; [exact E7|]. split; [reflexivity|]. split; [exact R|].
    eapply reach_inv; [exact Hc|exact E7|apply pinv_init; exact Hh|exact R].
  Qed.
End C16.

(** [gScored s]: the models whose fit was computed, in order; [gInserted s]: the
    nodes passed to highscore.Insert.  Neither ever holds the root model or a
    model twice. *)
Theorem C16_root_never_scored : forall o rows cols fit bounds root maxq cutoff (h : Highscore (F64 o)) P s0 ls s,
  hsMaxItems h <> 1%Z ->
  SelectModel_start rows cols fit bounds root maxq cutoff h = Ok (P, s0) ->
  run P s0 ls = Some (Ok s) ->
  NoDup (gScored s) /\ ~ In (pRoot P) (gScored s) /\
  NoDup (map ndModel (gInserted s)) /\ ~ In (pRoot P) (map ndModel (gInserted s)).
Proof.
  intros o rows cols fit bounds root maxq cutoff h P s0 ls s Hh Hst Hrun.
  destruct (started o _ _ _ _ _ _ _ _ _ _ _ _ Hh Hst Hrun) as (Hc & Hr & -> & R & _).
  destruct (scored_nodup (F64 o) P Hc Hr h s Hh R). destruct (inserted_nodup (F64 o) P Hc Hr h s Hh R). auto.
Qed.
Print Assumptions C16_root_never_scored.

(** The list of a search started with an empty list holds each model at most
    once and never the root model ... *)
Theorem C16_list_without_root : forall o rows cols (fit : list bool -> list (F64 o) * F64 o) bounds root maxq cutoff M P s0 ls s,
  (2 <= M)%Z -> (forall a, length a = cols -> nonempty a -> f64_isnan (snd (fit a)) = false) ->
  SelectModel_start rows cols fit bounds root maxq cutoff (NewHighscore (N := F64 o) M) = Ok (P, s0) ->
  run P s0 ls = Some (Ok s) ->
  NoDup (map ndModel (hsItems (sHs s))) /\ ~ In (pRoot P) (map ndModel (hsItems (sHs s))).
Proof.
  intros o rows cols fit bounds root maxq cutoff M P s0 ls s HM Hnan Hst Hrun.
  assert (Hh : hsMaxItems (NewHighscore (N := F64 o) M) <> 1%Z) by (cbn; lia).
  destruct (started o _ _ _ _ _ _ _ _ _ _ _ _ Hh Hst Hrun) as (Hc & Hr & -> & R & I).
  destruct (start_inv _ _ _ _ _ _ _ _ _ _ _ Hst) as (_ & E1 & E2 & E3 & E4 & E5 & E6 & E7 & E8).
  destruct (inserted_nodup (F64 o) P Hc Hr _ s Hh R) as (H1 & H2).
  assert (Hn : forall x, length x = pCols P -> nisnan (scoreOf (F64 o) P x) = false).
  { intros x Hx. unfold scoreOf. destruct (Nat.eqb_spec (NumFeatures x) 0); [reflexivity|].
    rewrite E3. apply Hnan; [lia|]. apply nonempty_nf. lia. }
  pose proof (reach_hs (F64 o) P Hc Hr (f64_OrdLaws o) M [] _ HM (hinv_init (F64 o) M HM) Hn s R) as HI.
  unfold all_ins in HI. rewrite app_nil_l in HI.
  destruct (hi_drop _ _ _ _ HI) as (d & Hp & _).
  pose proof (Permutation_map ndModel Hp) as Hpm. rewrite map_app in Hpm.
  pose proof (Permutation_NoDup (Permutation_sym Hpm) H1) as Hnd.
  split; [eapply NoDup_app_l; eauto|].
  intro Hin. apply H2. eapply Permutation_in; [exact Hpm|].
  apply in_or_app. auto.
Qed.
Print Assumptions C16_list_without_root.

(** ... so a root model better than all others is lost: the best score of a
    non-empty list stays below the score of the root model. *)
Theorem C16_best_root_model_is_lost : forall o rows cols (fit : list bool -> list (F64 o) * F64 o) bounds root maxq cutoff M P s0 ls s,
  (2 <= M)%Z -> (forall a, length a = cols -> nonempty a -> f64_isnan (snd (fit a)) = false) ->
  SelectModel_start rows cols fit bounds root maxq cutoff (NewHighscore (N := F64 o) M) = Ok (P, s0) ->
  run P s0 ls = Some (Ok s) ->
  SFltb (SFopp f64_max) (snd (fit (pRoot P))) = true ->
  (forall a, length a = cols -> nonempty a -> a <> pRoot P -> SFltb (snd (fit a)) (snd (fit (pRoot P))) = true) ->
  hsItems (sHs s) <> [] ->
  SFltb (hsBestScore (sHs s)) (snd (fit (pRoot P))) = true.
Proof.
  intros o rows cols fit bounds root maxq cutoff M P s0 ls s HM Hnan Hst Hrun Hmaxf Hbest Hne.
  destruct (C16_list_without_root o rows cols fit bounds root maxq cutoff M P s0 ls s HM Hnan Hst Hrun) as (_ & Hnr).
  assert (Hh : hsMaxItems (NewHighscore (N := F64 o) M) <> 1%Z) by (cbn; lia).
  destruct (started o _ _ _ _ _ _ _ _ _ _ _ _ Hh Hst Hrun) as (Hc & Hr & -> & R & I).
  destruct (start_inv _ _ _ _ _ _ _ _ _ _ _ Hst) as (_ & E1 & E2 & E3 & E4 & E5 & E6 & E7 & E8).
  assert (Hn : forall x, length x = pCols P -> nisnan (scoreOf (F64 o) P x) = false).
  { intros x Hx. unfold scoreOf. destruct (Nat.eqb_spec (NumFeatures x) 0); [reflexivity|].
    rewrite E3. apply Hnan; [lia|]. apply nonempty_nf. lia. }
  pose proof (reach_hs (F64 o) P Hc Hr (f64_OrdLaws o) M [] _ HM (hinv_init (F64 o) M HM) Hn s R) as HI.
  unfold all_ins in HI. rewrite app_nil_l in HI.
  destruct (hi_drop _ _ _ _ HI) as (d & Hp & _).
  unfold hsBestScore. destruct (hsItems (sHs s)) as [|x items] eqn:Ei; [contradiction|].
  assert (Hx : In x (gInserted s)).
  { eapply Permutation_in; [exact Hp|]. simpl; auto. }
  pose proof (proj1 (Forall_forall _ _) (i_ins _ _ s I) x Hx) as (W & _ & Es & _).
  rewrite Es. unfold scoreOf. destruct (Nat.eqb_spec (NumFeatures (ndModel x)) 0) as [En|En].
  - exact Hmaxf.
  - rewrite E3. apply Hbest.
    + rewrite (w_len _ _ _ (w_0 _ _ _ W)). lia.
    + apply nonempty_nf. lia.
    + intro Heq. apply Hnr. simpl. left. exact Heq.
Qed.
Print Assumptions C16_best_root_model_is_lost.

(** Every node of the list is a model one of whose bits was changed (level-1
    is its position), with the fit of its model and the bounds that BoundsAICC
    gives for its model and level; the empty model, which cannot be fitted,
    gets the two ends of the scale instead. *)
Theorem C16_nodes_of_the_list : forall o rows cols (fit : list bool -> list (F64 o) * F64 o) bounds root maxq cutoff M P s0 ls s n,
  (2 <= M)%Z -> (forall a, length a = cols -> nonempty a -> f64_isnan (snd (fit a)) = false) ->
  SelectModel_start rows cols fit bounds root maxq cutoff (NewHighscore (N := F64 o) M) = Ok (P, s0) ->
  run P s0 ls = Some (Ok s) -> In n (hsItems (sHs s)) ->
  length (ndModel n) = cols /\ (1 <= ndLevel n <= Z.of_nat cols)%Z /\ ndWasFlipped n = true /\
  nth (Z.to_nat (ndLevel n - 1)) (ndModel n) false <> nth (Z.to_nat (ndLevel n - 1)) (pRoot P) false /\
  (nonempty (ndModel n) ->
     (ndCoeff n, ndScore n) = fit (ndModel n) /\ (ndLower n, ndUpper n) = bounds (ndModel n) (ndLevel n)) /\
  (~ nonempty (ndModel n) -> ndScore n = SFopp f64_max /\
     (ndLower n, ndUpper n) = (ndec (n := F64 o) (-1) 100, ndec (n := F64 o) 1 100)).
Proof.
  intros o rows cols fit bounds root maxq cutoff M P s0 ls s n HM Hnan Hst Hrun Hin.
  assert (Hh : hsMaxItems (NewHighscore (N := F64 o) M) <> 1%Z) by (cbn; lia).
  destruct (started o _ _ _ _ _ _ _ _ _ _ _ _ Hh Hst Hrun) as (Hc & Hr & -> & R & I).
  destruct (start_inv _ _ _ _ _ _ _ _ _ _ _ Hst) as (_ & E1 & E2 & E3 & E4 & E5 & E6 & E7 & E8).
  assert (Hn : forall x, length x = pCols P -> nisnan (scoreOf (F64 o) P x) = false).
  { intros x Hx. unfold scoreOf. destruct (Nat.eqb_spec (NumFeatures x) 0); [reflexivity|].
    rewrite E3. apply Hnan; [lia|]. apply nonempty_nf. lia. }
  pose proof (reach_hs (F64 o) P Hc Hr (f64_OrdLaws o) M [] _ HM (hinv_init (F64 o) M HM) Hn s R) as HI.
  unfold all_ins in HI. rewrite app_nil_l in HI.
  destruct (hi_drop _ _ _ _ HI) as (d & Hp & _).
  assert (Hx : In n (gInserted s)).
  { eapply Permutation_in; [exact Hp|]. apply in_or_app. left. exact Hin. }
  pose proof (proj1 (Forall_forall _ _) (i_ins _ _ s I) n Hx) as (W & Hf & Es & Ec).
  destruct W as [[W1 W2 W3 W4] W5 W6 W7]. destruct (W4 Hf) as (_ & W8).
  split; [congruence|]. split; [lia|]. split; [exact Hf|]. split; [exact W8|].
  unfold scoreOf in Es. unfold lowerOf in W6. unfold upperOf in W7. rewrite E3 in Es, Ec. rewrite E4 in W6, W7.
  destruct (Nat.eqb_spec (NumFeatures (ndModel n)) 0) as [En|En].
  - split.
    + intro Hne. apply nonempty_nf in Hne. lia.
    + intros _. split; [exact Es|]. congruence.
  - split.
    + intros _. rewrite Ec by lia. rewrite Es, W6, W7. split; symmetry; apply surjective_pairing.
    + intro Hne. exfalso. apply Hne. apply nonempty_nf. lia.
Qed.
Print Assumptions C16_nodes_of_the_list.

Definition rP_opt : problem (F64 fenv0) :=
  mkProblem (N := F64 fenv0) 10 3 rfit rbounds opt3 4 (f64_ofZ 0).

(** the search of C14 started at its optimum 010: two models scored, the best of
    them is worse than the root *)
Example C16_nonvacuous :
  (exists s0, SelectModel_start 10 3 rfit rbounds (Some opt3) 4 (f64_ofZ 0) (NewHighscore 20) = Ok (rP_opt, s0)) /\
  SFltb (SFopp f64_max) (snd (rfit opt3)) = true /\
  (forall a, length a = 3%nat -> nonempty a -> a <> opt3 -> SFltb (snd (rfit a)) (snd (rfit opt3)) = true) /\
  match run rP_opt (init_st (NewHighscore 20))
          [LRoot 0; LChild 0; LChild 0; LChild 0; LNode 0 0; LChild 0; LChild 0; LChild 0; LNode 0 3; LCompute 3; LScore 3] with
  | Some (Ok s) => (length (hsItems (sHs s)) =? 1)%nat = true
  | _ => False
  end.
Proof.
  split; [eexists; reflexivity|]. split; [vm_compute; reflexivity|]. split; [|vm_compute; reflexivity].
  intros a _ _ Ha. unfold rfit, bleqb. cbn [snd].
  destruct (list_eq_dec bool_dec a opt3); [contradiction|]. vm_compute. reflexivity.
Qed.

(** ** C17.  Deadlock freedom, no panics, termination. *)

Lemma run_app : forall (N : Num) (P : problem N) l1 l2 s s', run P s l1 = Some (Ok s') ->
  run P s (l1 ++ l2) = run P s' l2.
Proof.
  induction l1 as [|l l1 IH]; intros l2 s s' H; simpl in *; [injection H as <-; auto|].
  destruct (exec P s l) as [[s1| |]|]; try discriminate. eauto.
Qed.

Lemma reach_run : forall (N : Num) (P : problem N) s s', reach N P s s' -> exists ls, run P s ls = Some (Ok s').
Proof.
  intros N P s s' R. induction R as [|s1 l s2 R (ls & IH) Hs]; [exists []; reflexivity|].
  exists (ls ++ [l]). rewrite (run_app _ _ _ _ _ _ IH). simpl. rewrite (stp_exec N P _ _ _ Hs). reflexivity.
Qed.

(** SelectModel has returned; every score worker has ended; every child worker
    but one has ended; that one waits forever to send on the ready channel. *)
Definition all_over {N} (s : st N) : Prop :=
  sMain s = MClose 4 /\ (forall w, In w (sSW s) -> w = SWDone) /\
  exists i, nth_error (sCW s) i = Some CWReady /\
    forall i' c, nth_error (sCW s) i' = Some c -> i' <> i -> c = CWDone.

(** main answers a ready child worker while the queue is empty: the one kind of
    step that can repeat without bound (busy waiting for the score workers) *)
Definition busy_waiting {N} (s : st N) (l : label) : bool :=
  match l, sMain s with
  | LReady _, _ => match sQueue s with [] => true | _ => false end
  | LWant _, MWant None => true
  | _, _ => false
  end.

(** number of steps of a schedule that are not busy waiting *)
Fixpoint work {N} (P : problem N) (s : st N) (ls : list label) : nat :=
  match ls with
  | [] => 0
  | l :: t => (if busy_waiting s l then 0 else 1) +
              match exec P s l with Some (Ok s') => work P s' t | _ => 0 end
  end.

Definition worker_busy {N} (c : cwst N) : bool := match c with CWIdle | CWDone => false | _ => true end.

Lemma spin_waiting : forall (N : Num) (s : st N) l, spin s l = busy_waiting s l.
Proof.
  intros N s l. unfold spin, busy_waiting. destruct l; try reflexivity; try (destruct (sQueue s); reflexivity);
    destruct (sMain s) as [| |[]|]; reflexivity.
Qed.

Theorem C17_no_panic : forall o rows cols fit bounds root maxq cutoff (h : Highscore (F64 o)) P s0 ls r,
  hsMaxItems h <> 1%Z ->
  SelectModel_start rows cols fit bounds root maxq cutoff h = Ok (P, s0) ->
  run P s0 ls = Some r -> exists s, r = Ok s.
Proof.
  intros o rows cols fit bounds root maxq cutoff h P s0 ls r Hh Hst Hrun.
  destruct (start_inv _ _ _ _ _ _ _ _ _ _ _ Hst) as (-> & E1 & E2 & E3 & E4 & E5 & E6 & E7 & E8).
  assert (Hc : (1 <= pCols P)%nat) by lia.
  destruct (run_reach (F64 o) P Hc E7 ls _ _ (pinv_init (F64 o) P h Hh) Hrun) as (s' & Es & R). eauto.
Qed.
Print Assumptions C17_no_panic.

Theorem C17_no_deadlock : forall o rows cols fit bounds root maxq cutoff (h : Highscore (F64 o)) P s0 ls s,
  hsMaxItems h <> 1%Z ->
  SelectModel_start rows cols fit bounds root maxq cutoff h = Ok (P, s0) ->
  run P s0 ls = Some (Ok s) ->
  (* some step is possible, or everything is over *)
  (all_over s \/ exists l s', exec P s l = Some (Ok s')) /\
  (* from here the search can be driven to its end *)
  (exists ls' s', run P s ls' = Some (Ok s') /\ all_over s') /\
  (* when everything is over nothing moves: the waiting child worker is leaked *)
  (all_over s -> forall l r, exec P s l <> Some r).
Proof.
  intros o rows cols fit bounds root maxq cutoff h P s0 ls s Hh Hst Hrun.
  destruct (started o _ _ _ _ _ _ _ _ _ _ _ _ Hh Hst Hrun) as (Hc & Hr & -> & R & I).
  split; [|split].
  - destruct (progress (F64 o) P Hc Hr s I) as [Hf|[(l & s' & H & _)|(l & s1 & _ & _ & H & _)]]; [left; exact Hf| |];
      right; eexists; eexists; eapply stp_exec; eauto.
  - destruct (can_finish (F64 o) P Hc Hr _ s (le_n _) I) as (s' & R' & F).
    destruct (reach_run _ _ _ _ R') as (ls' & E). exists ls', s'. split; auto.
  - intros Hf l r E. destruct (exec_view (F64 o) P s l r E) as [(s' & _ & Hs)|B].
    + exact (final_stuck (F64 o) P Hc Hr s Hf l s' Hs).
    + exact (not_bad (F64 o) P Hc Hr s I B).
Qed.
Print Assumptions C17_no_deadlock.

Theorem C17_one_child_worker_at_a_time : forall o rows cols fit bounds root maxq cutoff (h : Highscore (F64 o)) P s0 ls s,
  hsMaxItems h <> 1%Z ->
  SelectModel_start rows cols fit bounds root maxq cutoff h = Ok (P, s0) ->
  run P s0 ls = Some (Ok s) ->
  (length (filter worker_busy (sCW s)) <= 1)%nat /\ length (sCW s) = 8%nat /\ length (sSW s) = 8%nat.
Proof.
  intros o rows cols fit bounds root maxq cutoff h P s0 ls s Hh Hst Hrun.
  destruct (started o _ _ _ _ _ _ _ _ _ _ _ _ Hh Hst Hrun) as (Hc & Hr & -> & R & I).
  split; [|split; [apply (i_cw _ _ s I)|apply (i_sw _ _ s I)]].
  assert (E : length (filter worker_busy (sCW s)) = sumn (cw_busy (F64 o)) (sCW s)).
  { generalize (sCW s). induction l as [|c l IH]; simpl; auto. destruct c; simpl; rewrite IH; reflexivity. }
  rewrite E, (i_tok _ _ s I). destruct (sMain s); simpl; lia.
Qed.
Print Assumptions C17_one_child_worker_at_a_time.

(** Whatever the schedule, at most 14 * 2^cols + 6 steps are not busy waiting. *)
Theorem C17_bounded_work : forall o rows cols fit bounds root maxq cutoff (h : Highscore (F64 o)) P s0 ls s,
  hsMaxItems h <> 1%Z ->
  SelectModel_start rows cols fit bounds root maxq cutoff h = Ok (P, s0) ->
  run P s0 ls = Some (Ok s) ->
  (work P s0 ls <= 14 * 2 ^ cols + 6)%nat.
Proof.
  intros o rows cols fit bounds root maxq cutoff h P s0 ls s Hh Hst Hrun.
  destruct (started o _ _ _ _ _ _ _ _ _ _ _ _ Hh Hst Hrun) as (Hc & Hr & -> & R & I).
  destruct (start_inv _ _ _ _ _ _ _ _ _ _ _ Hst) as (_ & _ & E2 & _).
  pose proof (productive_bound (F64 o) P Hc Hr ls _ _ (pinv_init (F64 o) P h Hh) Hrun) as Hb.
  rewrite (psi_init (F64 o) P Hc Hr), E2 in Hb.
  assert (E : forall ls s, productive (F64 o) P s ls = work P s ls).
  { induction ls0 as [|l ls0 IH]; intro s1; simpl; auto. rewrite spin_waiting.
    destruct (exec P s1 l) as [[s2| |]|]; auto. }
  rewrite E in Hb. lia.
Qed.
Print Assumptions C17_bounded_work.

(** An infinite execution would have to leave a score worker without progress
    forever: if every running computation ends and every score on offer is
    received, there is none. *)
Theorem C17_terminates_if_fair : forall o rows cols fit bounds root maxq cutoff (h : Highscore (F64 o)) P
    (state : nat -> st (F64 o)) (step : nat -> label),
  hsMaxItems h <> 1%Z ->
  SelectModel_start rows cols fit bounds root maxq cutoff h = Ok (P, state 0%nat) ->
  (forall i, exec P (state i) (step i) = Some (Ok (state (S i)))) ->
  (forall i j n, nth_error (sSW (state i)) j = Some (SWBusy n) -> exists k, (i <= k)%nat /\ step k = LCompute j) ->
  (forall i j n, nth_error (sSW (state i)) j = Some (SWSend n) -> exists k, (i <= k)%nat /\ step k = LScore j) ->
  False.
Proof.
  intros o rows cols fit bounds root maxq cutoff h P state step Hh Hst Hex H1 H2.
  destruct (start_inv _ _ _ _ _ _ _ _ _ _ _ Hst) as (E0 & E1 & E2 & E3 & E4 & E5 & E6 & E7 & E8).
  assert (Hc : (1 <= pCols P)%nat) by lia.
  assert (I0 : PInv (F64 o) P (state 0%nat)) by (rewrite E0; apply pinv_init; auto).
  assert (Hs : forall i, stp (F64 o) P (state i) (step i) (state (S i)) /\ PInv (F64 o) P (state (S i))).
  { induction i as [|i (IH1 & IH2)].
    - destruct (exec_view (F64 o) P _ _ _ (Hex 0%nat)) as [(s' & E & Hs)|B]; [|exfalso; refine (not_bad (F64 o) P Hc E7 _ _ B); assumption].
      injection E as <-. split; auto. eapply stp_inv; eauto.
    - destruct (exec_view (F64 o) P _ _ _ (Hex (S i))) as [(s' & E & Hs)|B]; [|exfalso; refine (not_bad (F64 o) P Hc E7 _ _ B); assumption].
      injection E as <-. split; auto. eapply stp_inv; eauto. }
  apply (no_infinite (F64 o) P Hc E7 state step I0 (fun i => proj1 (Hs i))).
  split; auto.
Qed.
Print Assumptions C17_terminates_if_fair.

(** a complete run, and one that waits for a score worker twice on the way *)
Example C17_nonvacuous :
  rcheck [] (greedy 300 (rstart [])) (fun s => (is_close 4 s &&
     forallb (fun w => match w with SWDone => true | _ => false end) (sSW s) &&
     match sCW s with CWReady :: l => forallb (fun w => match w with CWDone => true | _ => false end) l
     | _ => false end)%bool) = true /\
  (work rP (rstart []) (greedy 300 (rstart [])) =? 65)%nat = true /\
  rcheck [] [LRoot 3; LChild 3; LChild 3; LNode 3 0; LChild 3; LChild 3; LChild 3; LNode 3 1;
             LReady 3; LWant 5; LReady 5; LWant 3; LCompute 1; LScore 1]
    (fun s => match sMain s with MSelect => true | _ => false end) = true.
Proof. repeat split; vm_compute; reflexivity. Qed.

(** ** C18 *)
Theorem C18_cutoff_ignored_by_CreateChild : forall o (P : problem (F64 o)) node flip c1 c2 h,
  CreateChild P node flip c1 h = CreateChild P node flip c2 h.
Proof. reflexivity. Qed.
Print Assumptions C18_cutoff_ignored_by_CreateChild.

(** CreateChild is what a child worker computes when nobody changes the list
    between its two reads: it sends the child, or prunes. *)
Theorem C18_worker_runs_CreateChild : forall o (P : problem (F64 o)) s i p flip,
  nth_error (sCW s) i = Some (CWCreate p flip) ->
  match CreateChild P p flip (pCutoff P) (sHs s) with
  | Ok (Some c) => exists k s', run P s (repeat (LChild i) k) = Some (Ok s') /\
                     sCW s' = upd (sCW s) i (CWSendNode c p flip)
  | Ok None => exists k s', run P s (repeat (LChild i) k) = Some (Ok s') /\
                     sCW s' = upd (sCW s) i (CWPrune p flip)
  | Panic => run P s [LChild i] = Some Panic
  | Fuel => False
  end.
Proof.
  intros o P s i p flip E. apply create_child_steps; auto. apply nth_error_Some. congruence.
Qed.
Print Assumptions C18_worker_runs_CreateChild.

(** every execution is possible with every cutoff *)
Theorem C18_cutoff_ignored_by_SelectModel : forall o rows cols fit bounds root maxq c1 c2 (h : Highscore (F64 o)) P1 s1,
  SelectModel_start rows cols fit bounds root maxq c1 h = Ok (P1, s1) ->
  exists P2, SelectModel_start rows cols fit bounds root maxq c2 h = Ok (P2, s1) /\
    forall ls, run P1 s1 ls = run P2 s1 ls.
Proof.
  intros o rows cols fit bounds root maxq c1 c2 h P1 s1 H. unfold SelectModel_start in *.
  destruct (cols <? 3)%nat; [discriminate|].
  destruct (match root with None => _ | Some r => _ end) as [r| |]; cbn [bind] in *; try discriminate.
  injection H as <- <-. eexists. split; [reflexivity|].
  intro ls. generalize (init_st h). induction ls as [|l ls IH]; intro s; simpl; auto.
  assert (E : exec (mkProblem rows cols fit bounds r maxq c1) s l = exec (mkProblem rows cols fit bounds r maxq c2) s l)
    by (destruct l; reflexivity).
  rewrite E. destruct (exec _ s l) as [[s'| |]|]; auto.
Qed.
Print Assumptions C18_cutoff_ignored_by_SelectModel.

(** The documented rule - add the node iff lower_bound + cutoff < best AICC - is
    not what happens: with bound 5, cutoff 10 and best AICC 10 it says no. *)
Theorem C18_documented_rule_refuted :
  exists o (P : problem (F64 o)) node flip cutoff (h : Highscore (F64 o)) child,
    (0 < hsLen h)%Z /\ make_child P node flip = Ok (Some child) /\
    SFltb (SFadd fprec femax (ndLower child) cutoff) (SFopp (hsBestScore h)) = false /\
    CreateChild P node flip cutoff h = Ok (Some child).
Proof.
  pose (p := mkNode (N := F64 fenv0) [false; false; false] [] 1 (S754_zero false) (S754_zero false) (S754_zero false) false).
  pose (h := mkHS (N := F64 fenv0) [seed] 20).
  assert (H : match make_child rP p true with
              | Ok (Some c) => (negb (SFltb (SFadd fprec femax (ndLower c) (f64_ofZ 10)) (SFopp (hsBestScore h))) &&
                                negb (nltb (n := F64 fenv0) (nneg (hsBestScore h)) (ndLower c) && (0 <? hsLen h)%Z))%bool
              | _ => false
              end = true) by (vm_compute; reflexivity).
  assert (H' : exists c, make_child rP p true = Ok (Some c) /\
    SFltb (SFadd fprec femax (ndLower c) (f64_ofZ 10)) (SFopp (hsBestScore h)) = false /\
    (nltb (n := F64 fenv0) (nneg (hsBestScore h)) (ndLower c) && (0 <? hsLen h)%Z)%bool = false).
  { revert H. generalize (make_child rP p true). generalize h.
    intros h' [[c|]| |] H; try discriminate H. apply andb_true_iff in H. destruct H as (H1 & H2).
    exists c. apply negb_true_iff in H1, H2. auto. }
  clear H. destruct H' as (c & E & H1 & H2).
  exists fenv0, rP, p, true, (f64_ofZ 10), h, c.
  split; [reflexivity|]. split; [exact E|]. split; [exact H1|].
  unfold CreateChild. rewrite E. cbn [bind]. rewrite H2. reflexivity.
Qed.
Print Assumptions C18_documented_rule_refuted.

Example C18_nonvacuous :
  match CreateChild rP (root_node rP) true (f64_ofZ 1000) (NewHighscore 20) with
  | Ok (Some c) => ndModel c = [true; false; false]
  | _ => False
  end /\
  match CreateChild rP (mkNode (N := F64 fenv0) [true; false; false] [] 1 (S754_zero false) (S754_zero false) (S754_zero false) true)
          true (f64_ofZ (-1000)) (mkHS (N := F64 fenv0) [mkNode (N := F64 fenv0) opt3 [] 2 (S754_zero false) (S754_zero false) (f64_ofZ (-5)) true] 20) with
  | Ok None => True
  | _ => False
  end.
Proof. split; vm_compute; [reflexivity|exact I]. Qed.

(** ** C19, exact arithmetic.  [log2 x = ln x / ln 2], [exp2 x = 2^x]. *)
Theorem C19_counter_formula : forall c n,
  NewLog2Pruned (N := XR) (XFin c) n = XFin (ln (exp (c * ln 2) + exp (IZR n * ln 2)) / ln 2).
Proof. exact newlog2_spec. Qed.
Print Assumptions C19_counter_formula.

(** the same for counts: log2 a and log2 (2^n) give log2 (a + 2^n) *)
Theorem C19_counter_adds : forall (a n : nat), (0 < a)%nat ->
  NewLog2Pruned (N := XR) (XFin (ln (INR a) / ln 2)) (Z.of_nat n) = XFin (ln (INR (a + 2 ^ n)) / ln 2).
Proof.
  intros a n Ha. rewrite C19_counter_formula. f_equal. f_equal. f_equal.
  pose proof ln2_pos as Hl. assert (Hp : (0 < INR a)%R) by (apply lt_0_INR; auto).
  replace (ln (INR a) / ln 2 * ln 2)%R with (ln (INR a)) by (field; lra).
  rewrite exp_ln by auto. rewrite plus_INR, pow_INR.
  pose proof (exp2_pow n) as E. unfold exp2R in E. rewrite E. reflexivity.
Qed.
Print Assumptions C19_counter_adds.

(** What SelectModel reports: every received prune message with level [l] adds
    2^(cols-l), starting from one. *)
Theorem C19_reported_value : forall rows cols fit bounds root maxq cutoff (h : Highscore XR) P s0 ls s,
  SelectModel_start rows cols fit bounds root maxq cutoff h = Ok (P, s0) ->
  hsMaxItems h <> 1%Z ->
  run P s0 ls = Some (Ok s) ->
  sLog2 s = XFin (ln (1 + fold_right Rplus 0%R (map (fun l => exp (IZR (Z.of_nat cols - l) * ln 2)%R) (gPruned s))) / ln 2)%R.
Proof.
  intros rows cols fit bounds root maxq cutoff h P s0 ls s Hst Hh Hrun.
  destruct (start_inv _ _ _ _ _ _ _ _ _ _ _ Hst) as (-> & E1 & E2 & E3 & E4 & E5 & E6 & E7 & E8).
  assert (Hc : (1 <= pCols P)%nat) by lia.
  destruct (run_reach XR P Hc E7 ls _ _ (pinv_init XR P h Hh) Hrun) as (s' & Es & R).
  injection Es as <-. rewrite (counter P h s R). f_equal. unfold log2R. f_equal. f_equal. f_equal.
  unfold pruned_weight. rewrite E2. induction (gPruned s) as [|l q IH]; simpl; auto. rewrite IH. reflexivity.
Qed.
Print Assumptions C19_reported_value.

Lemma bleqb_cons : forall a b x y, bleqb (a :: x) (b :: y) = (Bool.eqb a b && bleqb x y)%bool.
Proof.
  intros a b x y. unfold bleqb. destruct (list_eq_dec bool_dec x y), (list_eq_dec bool_dec (a :: x) (b :: y)), a, b;
    simpl; congruence.
Qed.

(** A pruned child of a parent at level [l] stands for the models that agree
    with it in the first [l+1] bits; there are half as many as are counted. *)
Theorem C19_counted_twice : forall cols (l : nat) (c : list bool), (l < cols)%nat -> length c = cols ->
  (2 * length (filter (fun m => bleqb (firstn (S l) m) (firstn (S l) c)) (all_models cols)) = 2 ^ (cols - l))%nat.
Proof.
  intros cols l c Hl Hc.
  assert (H : forall k n (c : list bool), (k <= n)%nat -> length c = n ->
    length (filter (fun m => bleqb (firstn k m) (firstn k c)) (all_models n)) = (2 ^ (n - k))%nat).
  { clear. induction k as [|k IH]; intros n c Hk Hc.
    - rewrite Nat.sub_0_r, <- all_models_len. f_equal. induction (all_models n) as [|x l IHl]; simpl; auto.
      f_equal. exact IHl.
    - destruct n as [|n]; [lia|]. destruct c as [|b c]; [discriminate|]. injection Hc as Hc.
      specialize (IH n c ltac:(lia) Hc). cbn [all_models]. rewrite filter_app, app_length.
      assert (Hb : forall b', length (filter (fun m => bleqb (firstn (S k) m) (firstn (S k) (b :: c))) (map (cons b') (all_models n)))
                   = if Bool.eqb b' b then (2 ^ (n - k))%nat else 0%nat).
      { intro b'. rewrite <- IH. clear IH Hc Hk. induction (all_models n) as [|x l IHl]; [destruct (Bool.eqb b' b); reflexivity|].
        cbn [map filter]. change (firstn (S k) (b' :: x)) with (b' :: firstn k x).
        change (firstn (S k) (b :: c)) with (b :: firstn k c) in *. rewrite bleqb_cons.
        destruct (Bool.eqb b' b), (bleqb (firstn k x) (firstn k c)); cbn [andb length]; rewrite IHl; reflexivity. }
      rewrite !Hb. replace (S n - S k)%nat with (n - k)%nat by lia. destruct b; simpl; lia. }
  rewrite H by lia. replace (cols - l)%nat with (S (cols - S l)) by lia. rewrite Nat.pow_succ_r'. lia.
Qed.
Print Assumptions C19_counted_twice.

(** pruning one child of the root (half of the space) reports more than
    2^cols models, the whole space *)
Theorem C19_half_reported_as_more_than_all : forall cols : nat,
  exists r, NewLog2Pruned (N := XR) (XFin 0) (Z.of_nat cols - 0) = XFin r /\ (r > IZR (Z.of_nat cols))%R.
Proof.
  intro cols. rewrite C19_counter_formula. eexists. split; [reflexivity|].
  rewrite Rmult_0_l, exp_0. pose proof ln2_pos as Hl.
  replace (Z.of_nat cols - 0)%Z with (Z.of_nat cols) by lia.
  set (x := (IZR (Z.of_nat cols) * ln 2)%R).
  assert (Hx : (ln (1 + exp x) > x)%R).
  { rewrite <- (ln_exp x) at 2. apply ln_increasing; [apply exp_pos|lra]. }
  apply Rmult_gt_reg_l with (ln 2); [exact Hl|].
  replace (ln 2 * (ln (1 + exp x) / ln 2))%R with (ln (1 + exp x)) by (field; lra).
  unfold x in *. lra.
Qed.
Print Assumptions C19_half_reported_as_more_than_all.

(** One row: the child with a feature is infeasible and pruned at level 0. *)
Example C19_nonvacuous :
  match run (mkProblem (N := F64 fenv0) 1 3 rfit rbounds [false; false; false] 4 (f64_ofZ 0)) (init_st (NewHighscore 20))
        [LRoot 0; LChild 0; LChild 0; LNode 0 0; LChild 0; LPrune 0] with
  | Some (Ok s) => gPruned s = [0%Z]
  | _ => False
  end.
Proof. vm_compute. reflexivity. Qed.

(** ** C20 *)
Theorem C20_clean_queue : forall o (q : list (Node (F64 o))) t,
  CleanQueue q t = filter (fun n : Node (F64 o) => negb (SFltb t (ndLower n))) q.
Proof. intros o. exact (clean_filter (F64 o)). Qed.
Print Assumptions C20_clean_queue.

Theorem C20_remove_keeps_something : forall q : list (Node XR), q <> [] -> RemoveLeastPromising q <> [].
Proof. exact rlp_nonempty. Qed.
Print Assumptions C20_remove_keeps_something.

Theorem C20_remove_equal_bounds_noop : forall (q : list (Node XR)) r,
  (forall n, In n q -> ndLower n = XFin r) -> RemoveLeastPromising q = q.
Proof. exact rlp_all_equal. Qed.
Print Assumptions C20_remove_equal_bounds_noop.

Definition qnode (x : f64) : Node (F64 fenv0) :=
  mkNode (N := F64 fenv0) [true; false; true] [] 1 x (S754_zero false) (S754_zero false) true.

(** rounding: ten equal bounds 0.1 have a computed mean below 0.1 *)
Theorem C20_remove_keeps_something_f64_refuted :
  exists q : list (Node (F64 fenv0)), length q = 10%nat /\
    (forall n, In n q -> ndLower n = f64_dec 1 (-1)) /\ RemoveLeastPromising q = [].
Proof.
  exists (repeat (qnode (f64_dec 1 (-1))) 10). split; [apply repeat_length|]. split.
  - intros n Hn. apply repeat_spec in Hn. rewrite Hn. reflexivity.
  - assert (H : match RemoveLeastPromising (repeat (qnode (f64_dec 1 (-1))) 10) with [] => true | _ => false end = true)
      by (vm_compute; reflexivity).
    revert H. generalize (RemoveLeastPromising (repeat (qnode (f64_dec 1 (-1))) 10)).
    intros [|x l] H; [reflexivity|discriminate H].
Qed.
Print Assumptions C20_remove_keeps_something_f64_refuted.

(** The queue of a search never holds more than half the number of models. *)
Theorem C20_queue_bound : forall o rows cols fit bounds root maxq cutoff (h : Highscore (F64 o)) P s0 ls s,
  hsMaxItems h <> 1%Z ->
  SelectModel_start rows cols fit bounds root maxq cutoff h = Ok (P, s0) ->
  run P s0 ls = Some (Ok s) ->
  (2 * length (sQueue s) <= 2 ^ cols)%nat.
Proof.
  intros o rows cols fit bounds root maxq cutoff h P s0 ls s Hh Hst Hrun.
  destruct (started o _ _ _ _ _ _ _ _ _ _ _ _ Hh Hst Hrun) as (Hc & Hr & -> & R & I).
  destruct (start_inv _ _ _ _ _ _ _ _ _ _ _ Hst) as (_ & _ & E2 & _). rewrite <- E2.
  eapply queue_bound; eauto.
Qed.
Print Assumptions C20_queue_bound.

Example C20_nonvacuous :
  map (@ndLower (F64 fenv0)) (CleanQueue (map qnode (map f64_ofZ [3; 7; 5; 4]%Z)) (f64_ofZ 5)) = map f64_ofZ [3; 5; 4]%Z /\
  map (@ndLower (F64 fenv0)) (RemoveLeastPromising (map qnode (map f64_ofZ [3; 7; 5; 4]%Z))) = map f64_ofZ [3; 4]%Z.
Proof. split; vm_compute; reflexivity. Qed.

(** ** C21 *)
Theorem C21_brute_force : forall o rows cols (fit : list bool -> list (F64 o) * F64 o) bounds root maxq cutoff fuel,
  (1 <= cols)%nat ->
  (forall m, length m = cols -> nonempty m -> f64_isnan (snd (fit m)) = false) ->
  (2 ^ S cols - 1 <= fuel)%nat ->
  exists h, BruteForceSelect (mkProblem rows cols fit bounds root maxq cutoff) fuel = Ok h /\
    (* all non-empty models, each once *)
    hsLen h = (2 ^ Z.of_nat cols - 1)%Z /\
    NoDup (map ndModel (hsItems h)) /\
    (forall m, In m (map ndModel (hsItems h)) <-> length m = cols /\ nonempty m) /\
    (* with their fit, sorted *)
    (forall n, In n (hsItems h) -> (ndCoeff n, ndScore n) = fit (ndModel n)) /\
    StronglySorted (fun a b => SFltb a b = false) (hsScores h) /\
    (* the best is the maximum *)
    (forall m, length m = cols -> nonempty m -> SFltb (hsBestScore h) (snd (fit m)) = false) /\
    (exists m, length m = cols /\ nonempty m /\ hsBestScore h = snd (fit m)).
Proof.
  intros o rows cols fit bounds root maxq cutoff fuel Hc Hnan Hf.
  rewrite (brute_root_irrelevant (F64 o) rows cols fit bounds root (repeat false cols) maxq maxq cutoff cutoff fuel).
  destruct (brute_all (F64 o) (mkProblem rows cols fit bounds (repeat false cols) maxq cutoff) (f64_OrdLaws o) Hc eq_refl)
    with (fuel := fuel) as (h & E & A1 & A2 & A3 & A4 & A5 & A6 & A7 & A8).
  - intros m Hm Hn. apply Hnan; auto. apply nonempty_nf; auto.
  - exact Hf.
  - exists h. cbn [pCols pFit] in *. split; [exact E|]. split; [exact A2|]. split; [exact A3|]. split.
    { intro m. rewrite A4, nonempty_nf. reflexivity. }
    split; [exact A5|]. split; [exact (map_desc (F64 o) _ A6)|]. split.
    + intros m Hm Hn. apply A7; auto. apply nonempty_nf; auto.
    + destruct A8 as (m & B1 & B2 & B3). exists m. rewrite nonempty_nf. auto.
Qed.
Print Assumptions C21_brute_force.

Example C21_nonvacuous :
  (forall m, length m = 3%nat -> nonempty m -> f64_isnan (snd (rfit m)) = false) /\
  match BruteForceSelect rP 15 with
  | Ok h => (hsLen h = 7)%Z /\ hsBestScore h = f64_ofZ (-5)
  | _ => False
  end.
Proof.
  split; [|vm_compute; split; reflexivity].
  intros m _ _. unfold rfit. cbn [snd]. destruct (bleqb m opt3); reflexivity.
Qed.
