(** Model of /repo/featselect/saScore.go and simmulatedAnnealing.go.

    SAItem values live behind pointers that Items, BestItem and WorstItem
    share, so the list carries its heap: a pointer is a position in it. *)
From Verif Require Import Base Num Mat Model_Node Model_Util Model_Fit.

Section SA.
  Variable N : Num.

  (** saScore.go:4-8 *)
  Record SAItem := mkSAItem { siSelection : list Z; siCoeff : list N; siScore : N }.

  (** saScore.go:11-28 (nil and the empty slice are not distinguished: both
      give an item with empty Selection and Coeff) *)
  Definition NewSAItem (model : list bool) : res SAItem :=
    let n := NumFeatures model in
    do sel <- selected_loop model;
    Ok (mkSAItem sel (repeat n0 n) n0).

  (** saScore.go:32-37.  [saHeap] holds every SAItem allocated so far. *)
  Record SAScore := mkSAScore {
    saCap : Z;
    saHeap : list SAItem;
    saItems : list nat;
    saBest : option nat;
    saWorst : option nat
  }.

  (** saScore.go:40-44 *)
  Definition NewSAScore (length : Z) : SAScore := mkSAScore length [] [] None None.

  (** dereferencing a pointer; nil panics *)
  Definition deref (heap : list SAItem) (p : option nat) : res SAItem :=
    match p with Some p => getn heap p | None => Panic end.

  (** saScore.go:87-94 *)
  Definition saExists (s : SAScore) (item : nat) : res bool :=
    do it <- getn (saHeap s) item;
    (fix go (l : list nat) : res bool :=
       match l with
       | [] => Ok false
       | p :: t =>
           do v <- getn (saHeap s) p;
           do e <- EqualInt (siSelection v) (siSelection it);
           if e : bool then Ok true else go t
       end) (saItems s).

  (** saScore.go:47-84 for the item behind pointer [item] *)
  Definition saInsert (s : SAScore) (item : nat) : res SAScore :=
    do ex <- saExists s item;
    if ex : bool then Ok s else
    do it <- getn (saHeap s) item;
    let len := Z.of_nat (length (saItems s)) in
    if (len =? 0)%Z then
      Ok (mkSAScore (saCap s) (saHeap s) (saItems s ++ [item]) (Some item) (Some item))
    else if (len <? saCap s)%Z then
      do b <- deref (saHeap s) (saBest s);
      let best := if nltb (siScore b) (siScore it) then Some item else saBest s in
      do w <- deref (saHeap s) (saWorst s);
      let worst := if nltb (siScore it) (siScore w) then Some item else saWorst s in
      Ok (mkSAScore (saCap s) (saHeap s) (saItems s ++ [item]) best worst)
    else
      do w <- deref (saHeap s) (saWorst s);
      if nltb (siScore w) (siScore it) then
        do heap <- match saWorst s with
                   | Some p => setn (saHeap s) p (mkSAItem (siSelection it) (siCoeff w) (siScore it))
                   | None => Panic
                   end;
        do b <- deref heap (saBest s);
        do it' <- getn heap item;
        let best := if nltb (siScore b) (siScore it') then Some item else saBest s in
        do st <- for_each (saItems s)
          (fun p (st : N * option nat) =>
             do v <- getn heap p;
             Ok (if nltb (siScore v) (fst st) then (siScore v, Some p) else st))
          (siScore it', saWorst s);
        Ok (mkSAScore (saCap s) heap (saItems s) best (snd st))
      else Ok s.

  (** Allocating an item and inserting it, as simmulatedAnnealing.go:56-59 *)
  Definition saInsertNew (s : SAScore) (it : SAItem) : res SAScore :=
    saInsert (mkSAScore (saCap s) (saHeap s ++ [it]) (saItems s) (saBest s) (saWorst s))
             (length (saHeap s)).

  Definition saInsertAll (s : SAScore) (l : list SAItem) : res SAScore :=
    for_each l (fun it s => saInsertNew s it) s.

  (** The items of the list as values *)
  Definition saContents (s : SAScore) : list SAItem :=
    map (fun p => nth p (saHeap s) (mkSAItem [] [] n0)) (saItems s).

  (** ** simmulatedAnnealing.go *)

  (** simmulatedAnnealing.go:12-16 *)
  Record SARes := mkSARes { srSelected : list Z; srCoeff : list N; srScores : SAScore }.

  (** The variables of SelectModelSA, lines 21-34.  [ssEval] and [ssAcc] are
      ghosts: the calls of the cost function (model, first argument, result)
      and the accepted models with coefficients and score, latest first. *)
  Record SASt := mkSASt {
    ssCurrent : list bool;
    ssScore : N;
    ssCoeff : list N;
    ssTemp : N;
    ssNumAccept : Z;
    ssNumSteps : Z;
    ssReached : bool;
    ssScores : SAScore;
    ssEval : list (list bool * Z * N);
    ssAcc : list (list bool * list N * N)
  }.

  Section Run.
    Variable svd : Mat N -> SVD N.
    Variable X : Mat N.
    Variable y : list N.
    Variable nSweeps : Z.
    Variable cost : Z -> Z -> N -> N.
    (** the random numbers of the k-th pass through the loop: rand.Intn(nc) is
        [ri k mod nc], rand.Float64() is [rf k].  Every sequence of draws is
        obtained for some [ri], [rf] (a pass that does not reach line 50 leaves
        its [rf k] unused). *)
    Variable ri : nat -> nat.
    Variable rf : nat -> N.

    (** simmulatedAnnealing.go:21-32 *)
    Definition sa_init : res SASt :=
      let nc := mcols X in
      do current <- setn (repeat false nc) 0 true;
      Ok (mkSASt current nmaxf (repeat n0 nc) (nofZ 500) 0 0 false (NewSAScore 10) [] []).

    (** current[index] = !current[index] *)
    Definition flip_at (m : list bool) (i : nat) : res (list bool) :=
      do b <- getn m i; setn m i (negb b).

    (** simmulatedAnnealing.go:46-48: fit of the current model and its cost *)
    Definition sa_cost (model : list bool) (n : Z) : res (list N * N) :=
      do design <- GetDesignMatrix model X;
      do coeffTemp <- Fit svd design y;
      do rss <- Rss design coeffTemp y;
      Ok (coeffTemp, cost n (Z.of_nat (length y)) (nmax2 rss RssTol)).

    (** simmulatedAnnealing.go:65-93, after the acceptance test: temperature
        and stop condition; [true] is [break].  (Line 91 prints.) *)
    Definition sa_temper (st : SASt) : SASt * bool :=
      let nc := Z.of_nat (mcols X) in
      let rate : N := (nofZ (ssNumAccept st) / nofZ (ssNumSteps st))%num in
      let '(reached, temp) :=
        if (Z.rem (ssNumSteps st) nc =? 0)%Z then
          let reached := ssReached st || nltb (ndec 5 (-1)) rate in
          (reached, if reached then ssTemp st else (ssTemp st * nofZ 2)%num)
        else (ssReached st, ssTemp st) in
      if (nc * nSweeps <=? ssNumSteps st)%Z then
        if ((ssNumAccept st =? 0)%Z && reached)%bool then
          (mkSASt (ssCurrent st) (ssScore st) (ssCoeff st) temp (ssNumAccept st) (ssNumSteps st)
                  reached (ssScores st) (ssEval st) (ssAcc st), true)
        else
          let temp := if reached then (temp * ndec 5 (-1))%num else temp in
          (mkSASt (ssCurrent st) (ssScore st) (ssCoeff st) temp 0 0
                  reached (ssScores st) (ssEval st) (ssAcc st), nltb temp (ndec 1 (-12)))
      else
        (mkSASt (ssCurrent st) (ssScore st) (ssCoeff st) temp (ssNumAccept st) (ssNumSteps st)
                reached (ssScores st) (ssEval st) (ssAcc st), false).

    (** simmulatedAnnealing.go:46-93: one pass from line 46 on, [current]
        already flipped *)
    Definition sa_try (k index : nat) (current : list bool) (n : Z) (st : SASt)
      : res (SASt * bool) :=
      do cs <- sa_cost current n;
      let '(coeffTemp, score) := cs in
      let eval := (current, n, score) :: ssEval st in
      let accept := nltb score (ssScore st)
                    || nltb (rf k) (nexp (nneg (score - ssScore st) / ssTemp st)%num) in
      do st' <-
        (if accept then
           do item0 <- NewSAItem current;
           let item := mkSAItem (siSelection item0) (go_copy (siCoeff item0) coeffTemp) (nneg score) in
           do scores <- saInsertNew (ssScores st) item;
           Ok (mkSASt current score (go_copy (ssCoeff st) coeffTemp) (ssTemp st)
                      (ssNumAccept st + 1) (ssNumSteps st + 1) (ssReached st) scores
                      eval ((current, coeffTemp, score) :: ssAcc st))
         else
           do current <- flip_at current index;
           Ok (mkSASt current (ssScore st) (ssCoeff st) (ssTemp st)
                      (ssNumAccept st) (ssNumSteps st + 1) (ssReached st) (ssScores st)
                      eval (ssAcc st)));
      Ok (sa_temper st').

    (** simmulatedAnnealing.go:34-93: one pass through the loop; rand.Intn(0)
        panics *)
    Definition sa_step (k : nat) (st : SASt) : res (SASt * bool) :=
      let nr := mrows X in
      let nc := mcols X in
      if (nc =? 0)%nat then Panic else
      let index := (ri k mod nc)%nat in
      do current <- flip_at (ssCurrent st) index;
      let n := NumFeatures current in
      if (n =? 0)%nat then
        do current <- flip_at current index;
        sa_try k index current 1 st
      else if (nr / 2 <=? n)%nat then
        do current <- flip_at current index;
        Ok (mkSASt current (ssScore st) (ssCoeff st) (ssTemp st) (ssNumAccept st) (ssNumSteps st)
                   (ssReached st) (ssScores st) (ssEval st) (ssAcc st), false)
      else sa_try k index current (Z.of_nat n) st.

    (** the [for] loop; [fuel] bounds the number of passes *)
    Fixpoint sa_loop (fuel k : nat) (st : SASt) : res SASt :=
      match fuel with
      | O => Fuel
      | S fuel' =>
          do r <- sa_step k st;
          if snd r : bool then Ok (fst r) else sa_loop fuel' (S k) (fst r)
      end.

    (** simmulatedAnnealing.go:95-104 *)
    Definition sa_result (st : SASt) : res SARes :=
      do coeff <- slice_to (ssCoeff st) (Z.of_nat (NumFeatures (ssCurrent st)));
      do sel <- selected_loop (ssCurrent st);
      Ok (mkSARes sel coeff (ssScores st)).

    (** simmulatedAnnealing.go:19-105, with the final state for the ghosts *)
    Definition SelectModelSA (fuel : nat) : res (SARes * SASt) :=
      do st <- sa_init;
      do st' <- sa_loop fuel 0 st;
      do r <- sa_result st';
      Ok (r, st').
  End Run.
End SA.

Arguments mkSAItem {N} _ _ _. Arguments siSelection {N} _. Arguments siCoeff {N} _.
Arguments siScore {N} _. Arguments NewSAItem {N} _.
Arguments mkSAScore {N} _ _ _ _ _. Arguments saCap {N} _. Arguments saHeap {N} _.
Arguments saItems {N} _. Arguments saBest {N} _. Arguments saWorst {N} _.
Arguments NewSAScore {N} _. Arguments deref {N} _ _. Arguments saExists {N} _ _.
Arguments saInsert {N} _ _. Arguments saInsertNew {N} _ _. Arguments saInsertAll {N} _ _.
Arguments saContents {N} _.
Arguments mkSARes {N} _ _ _. Arguments srSelected {N} _. Arguments srCoeff {N} _.
Arguments srScores {N} _.
Arguments mkSASt {N} _ _ _ _ _ _ _ _ _ _. Arguments ssCurrent {N} _. Arguments ssScore {N} _.
Arguments ssCoeff {N} _. Arguments ssTemp {N} _. Arguments ssNumAccept {N} _.
Arguments ssNumSteps {N} _. Arguments ssReached {N} _. Arguments ssScores {N} _.
Arguments ssEval {N} _. Arguments ssAcc {N} _.
Arguments sa_init {N} X. Arguments sa_cost {N} svd X y cost model n.
Arguments sa_temper {N} X nSweeps st. Arguments sa_try {N} svd X y nSweeps cost rf k index current n st.
Arguments sa_step {N} svd X y nSweeps cost ri rf k st.
Arguments sa_loop {N} svd X y nSweeps cost ri rf fuel k st.
Arguments sa_result {N} st. Arguments SelectModelSA {N} svd X y nSweeps cost ri rf fuel.
