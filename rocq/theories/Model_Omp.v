(** Model of featselect/orthogonalMatchingPursuit.go:13-94 (Omp).  Argmax and
    SelectedFeatures of the same file are in Model_Util.v and Model_Node.v. *)
From Verif Require Import Base Num Mat Model_Node Model_Util Model_Fit.

Section Omp.
  Variable N : Num.
  (** gonum's singular value decomposition, see Model_Fit.v *)
  Variable svd : Mat N -> SVD N.

  (** orthogonalMatchingPursuit.go:13-16 OmpResult *)
  Record OmpResult := mkOmp { ompCoeff : list N; ompOrder : list Z }.

  (** orthogonalMatchingPursuit.go:20-29 NewOmpResult *)
  Definition NewOmpResult (numFeatures : nat) : res OmpResult :=
    do order <- for_loop 0 numFeatures (fun i o => setn o i (-1)%Z) (repeat 0%Z numFeatures);
    Ok (mkOmp (repeat n0 numFeatures) order).

  (** orthogonalMatchingPursuit.go:43-48: Gram matrix and column norms *)
  Definition omp_norms (X : Mat N) : res (list N) :=
    do innerProds <- mat_mul (mat_T X) X;
    for_loop 0 (mcols X) (fun i norms =>
      do d <- mat_at innerProds i i; setn norms i (nsqrt d)) (repeat n0 (mcols X)).

  (** orthogonalMatchingPursuit.go:51-55: absolute correlations with the
      residual.  mat.Norm(residuals, 2) is written as the square root of the sum
      of squares (gonum's scaling against overflow is not modelled). *)
  Definition omp_proj (X : Mat N) (norms residuals : list N) : res (list N) :=
    let resNorm := nsqrt (nsum (length residuals)
                            (fun i => (nth i residuals n0 * nth i residuals n0)%num)) in
    do proj <- mat_mulvec (mat_T X) residuals;
    for_loop 0 (length proj) (fun i p =>
      do a <- getn p i; do b <- getn norms i; setn p i (nabs (a / (resNorm * b))%num)) proj.

  (** orthogonalMatchingPursuit.go:65-67: [for i, v := range selected] *)
  Definition omp_write (selected : list Z) (coeff out : list N) : res (list N) :=
    for_eachi 0 selected (fun i v out => do c <- getn coeff i; setz out v c) out.

  (** orthogonalMatchingPursuit.go:69-75: prediction, new residuals and their
      root mean square *)
  Definition omp_residuals (y ypred residuals : list N) : res (list N * N) :=
    do st <- for_loop 0 (length ypred) (fun i (st : list N * N) =>
      do p <- getn ypred i;
      do v <- getn y i;
      do r <- setn (fst st) i (p - v)%num;
      Ok (r, (snd st + npow (v - p) 2)%num)) (residuals, n0);
    Ok (fst st, nsqrt (snd st / nofnat (length y))%num).

  (** variables of the loop: res, model, residuals *)
  Record omp_state := mkOmpSt {
    osCoeff : list N; osOrder : list Z; osModel : list bool; osRes : list N }.

  (** orthogonalMatchingPursuit.go:51-79, one round; the Boolean says whether
      the loop is left *)
  Definition omp_round (X : Mat N) (y : list N) (tol : N) (norms : list N) (current : nat)
      (st : omp_state) : res (omp_state * bool) :=
    do proj <- omp_proj X norms (osRes st);
    do imax <- Argmax proj;
    do model <- setn (osModel st) imax true;
    do order <- setn (osOrder st) current (Z.of_nat imax);
    do design <- GetDesignMatrix model X;
    do coeff <- Fit svd design y;
    do selected <- SelectedFeatures model;
    do out <- omp_write selected coeff (osCoeff st);
    do ypred <- Predict design coeff;
    do (residuals, rms) <- omp_residuals y ypred (osRes st);
    Ok (mkOmpSt out order model residuals, nltb rms tol).

  (** orthogonalMatchingPursuit.go:50 [for current < ncols], [n] rounds left *)
  Fixpoint omp_loop (X : Mat N) (y : list N) (tol : N) (norms : list N) (n current : nat)
      (st : omp_state) : res omp_state :=
    match n with
    | O => Ok st
    | S n' =>
        do (st', stop) <- omp_round X y tol norms current st;
        if stop : bool then Ok st' else omp_loop X y tol norms n' (S current) st'
    end.

  (** orthogonalMatchingPursuit.go:84-92: Order up to the first -1 or duplicate *)
  Fixpoint omp_trim (found : list bool) (order : list Z) : res (list Z) :=
    match order with
    | [] => Ok []
    | v :: t =>
        if (v =? -1)%Z then Ok []
        else do f <- getz found v;
             if f : bool then Ok []
             else do found' <- setz found v true;
                  do r <- omp_trim found' t; Ok (v :: r)
    end.

  (** orthogonalMatchingPursuit.go:32-94.  mat.NewVecDense panics for length 0
      (no observations, no columns). *)
  Definition Omp (X : Mat N) (y : list N) (tol : N) : res OmpResult :=
    let ncols := mcols X in
    do r0 <- NewOmpResult ncols;
    if (length y =? 0)%nat then Panic else
    if (ncols =? 0)%nat then Panic else
    do norms <- omp_norms X;
    do st <- omp_loop X y tol norms ncols 0
               (mkOmpSt (ompCoeff r0) (ompOrder r0) (repeat false ncols) y);
    do order <- omp_trim (repeat false (length (osOrder st))) (osOrder st);
    Ok (mkOmp (osCoeff st) order).
End Omp.
Arguments mkOmp {N} _ _. Arguments ompCoeff {N} _. Arguments ompOrder {N} _.
Arguments NewOmpResult {N} _. Arguments omp_norms {N} _. Arguments omp_proj {N} _ _ _.
Arguments omp_write {N} _ _ _. Arguments omp_residuals {N} _ _ _.
Arguments mkOmpSt {N} _ _ _ _. Arguments osCoeff {N} _. Arguments osOrder {N} _.
Arguments osModel {N} _. Arguments osRes {N} _.
Arguments omp_round {N} _ _ _ _ _ _ _. Arguments omp_loop {N} _ _ _ _ _ _ _ _.
Arguments omp_trim _ _ : clear implicits. Arguments Omp {N} _ _ _ _.
