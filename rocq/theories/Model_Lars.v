(** Model of the LARS lasso (/repo/featselect/lasso_lars.go:42-248) with the
    CDParam interface (lasso_cd.go:10-26).  Indices are kept as natural
    numbers (all of them are loop counters). *)
From Verif Require Import Base Num Mat Model_Node Model_Util Model_Fit Model_Norm.

(** lasso_lars.go:11 *)
Definition lassoTol {N : Num} : N := ndec 1 (-6).

(** lasso_cd.go:10-26.  An implementation of CDParam: its state and methods.
    C and D do not change the state (they do not for MorsePenroseCD). *)
Record CDParam (N : Num) := mkCD {
  cdState : Type;
  cdSetX : cdState -> Mat N -> cdState;
  cdSetActive : cdState -> list Z -> res cdState;
  cdC : cdState -> list N -> res (list N);
  cdD : cdState -> list N -> res (list N)
}.
Arguments mkCD {N} _ _ _ _ _. Arguments cdState {N} _. Arguments cdSetX {N} _ _ _.
Arguments cdSetActive {N} _ _ _. Arguments cdC {N} _ _ _. Arguments cdD {N} _ _ _.

(** lasso_cd.go:31-83: MorsePenroseCD.  The state is the design matrix and,
    after SetActiveSet, the factors and invDesign (calling C or D before is a
    nil dereference). *)
Definition MorsePenroseCD {N : Num} (svd : Mat N -> SVD N) : CDParam N := {|
  cdState := (Mat N * option (SVD N * Mat N))%type;
  cdSetX := fun st X => (X, snd st);
  cdSetActive := fun st active => do f <- mpSetActiveSet svd (fst st) active; Ok (fst st, Some f);
  cdC := fun st y => match snd st with Some (f, _) => mpC f y | None => Panic end;
  cdD := fun st signs => match snd st with Some (_, inv) => mpD inv signs | None => Panic end
|}.

(** the result of sort.Ints, which is determined by its specification *)
Fixpoint ins (x : nat) (l : list nat) : list nat :=
  match l with [] => [x] | y :: t => if (x <=? y)%nat then x :: l else y :: ins x t end.
Definition sort_ints (l : list nat) : list nat := fold_right ins [] l.

(** subview.go:37-74: reading a column vector view *)
Definition vec_view {N : Num} (v : list N) (rows : list nat) : res (list N) :=
  for_each rows (fun r l => do x <- getn v r; Ok (l ++ [x])) [].

(** lasso_lars.go:135-150 *)
Definition maxJoinTime {N : Num} (v : list N) (active : list nat) : res (N * nat) :=
  do v <- for_each active (fun ind v => setn v ind (nofZ (-1))) v;
  Ok (fold_left (fun (m : N * nat) (p : nat * N) => if nltb (fst m) (snd p) then (snd p, fst p) else m)
        (combine (seq 0 (length v)) v) (n0, 0%nat)).

(** lasso_lars.go:152-162 *)
Definition maxCrossTime {N : Num} (v : list N) : N * nat :=
  fold_left (fun (m : N * nat) (p : nat * N) => if nltb (fst m) (snd p) then (snd p, fst p) else m)
    (combine (seq 0 (length v)) v) (n0, 0%nat).

(** lasso_lars.go:190-207: the join time of one feature from a = (Xy -
    XXeC)[i] and b = XXeD[i]; [last] is last.coeff if last.feat = i *)
Definition join_time {N : Num} (a b lamb : N) (last : option N) : res N :=
  let tpluss := (a / (n1 - b))%num in
  let tminus := (a / (nofZ (-1) - b))%num in
  let '(tpluss, tminus) :=
    match last with
    | Some c => if nltb n0 c then (nofZ (-10), tminus) else if nltb c n0 then (tpluss, nofZ (-10)) else (tpluss, tminus)
    | None => (tpluss, tminus)
    end in
  if nleb (nneg lassoTol) tpluss && nleb tpluss (lamb + lassoTol)%num then Ok tpluss
  else if nleb (nneg lassoTol) tminus && nleb tminus (lamb + lassoTol)%num then Ok tminus
  else Panic.

(** lasso_lars.go:165-210; [lastFeat] is None for -1 *)
Definition tJoin {N : Num} (X Xe : Mat N) (y c d : list N) (lamb : N) (active : list nat)
  (lastFeat : option nat) (lastCoeff : N) : res (list N) :=
  let nc := mcols X in
  do Xy <- mat_mulvec (mat_T X) y;
  do tmp <- mat_mulvec Xe c;
  do XXeC <- mat_mulvec (mat_T X) tmp;
  do tmp <- mat_mulvec Xe d;
  do XXeD <- mat_mulvec (mat_T X) tmp;
  do _ <- for_each active (fun v l => setn l v true) (repeat false nc);
  for_loop 0 nc (fun i joinTime =>
    do xy <- getn Xy i;
    do xc <- getn XXeC i;
    do xd <- getn XXeD i;
    let last := match lastFeat with Some f => if (f =? i)%nat then Some lastCoeff else None | None => None end in
    do t <- join_time (xy - xc)%num xd lamb last;
    setn joinTime i t) (repeat n0 nc).

(** lasso_lars.go:213-224 *)
Definition tCross {N : Num} (c d : list N) (lamb : N) : res (list N) :=
  for_loop 0 (length c) (fun i cross =>
    do ci <- getn c i;
    do di <- getn d i;
    let ratio := (ci / di)%num in
    setn cross i (if nltb lamb (ratio + lassoTol)%num then n0 else ratio)) (repeat n0 (length c)).

(** lasso_lars.go:227-234 *)
Definition betaLARS {N : Num} (c d : list N) (lamb : N) : res (list N) :=
  for_loop 0 (length c) (fun i beta =>
    do ci <- getn c i;
    do di <- getn d i;
    setn beta i (ci - lamb * di)%num) (repeat n0 (length c)).

(** lasso_lars.go:236-248 *)
Definition joinFeatSign {N : Num} (jFeat : nat) (X Xe : Mat N) (y coeffVec : list N) : res N :=
  do v <- mat_mulvec Xe coeffVec;
  do dotProd <- for_loop 0 (length y) (fun i s =>
    do x <- mat_at X i jFeat;
    do yi <- getn y i;
    do vi <- getn v i;
    Ok (s + x * (yi - vi))%num) n0;
  Ok (if nltb n0 dotProd then n1 else nofZ (-1)).

(** the variables of LassoLars that change in the loop; [laStop] says that a
    break was taken *)
Record Lars (N : Num) (E : Type) := mkLars {
  laLamb : N;
  laActive : list nat;
  laSigns : list N;
  laLastFeat : option nat;
  laLastCoeff : N;
  laEst : E;
  laRes : list (LassoLarsNode N);
  laStop : bool
}.
Arguments mkLars {N E} _ _ _ _ _ _ _ _.
Arguments laLamb {N E} _. Arguments laActive {N E} _. Arguments laSigns {N E} _. Arguments laLastFeat {N E} _.
Arguments laLastCoeff {N E} _. Arguments laEst {N E} _. Arguments laRes {N E} _. Arguments laStop {N E} _.

(** lasso_lars.go:51-82 *)
Definition lars_start {N : Num} (cd : CDParam N) (est : cdState cd) (X : Mat N) (y : list N) : res (Lars N (cdState cd)) :=
  if (mcols X =? 0)%nat || (mrows X =? 0)%nat || negb (length y =? mrows X)%nat then Panic else
  do lambJoin <- mat_mulvec (mat_T X) y;
  let '(maxTime, feat) :=
    fold_left (fun (m : N * nat) (p : nat * N) => if nltb (fst m) (nabs (snd p)) then (nabs (snd p), fst p) else m)
      (combine (seq 0 (length lambJoin)) lambJoin) (n0, 0%nat) in
  do v <- getn lambJoin feat;
  do signs <- setn (repeat n0 (mcols X)) feat (if nltb v n0 then nofZ (-1) else n1);
  Ok (mkLars maxTime [feat] signs None n0 (cdSetX cd est X) [] false).

(** lasso_lars.go:84-130: the loop body *)
Definition lars_step {N : Num} (cd : CDParam N) (X : Mat N) (y : list N) (st : Lars N (cdState cd))
  : res (Lars N (cdState cd)) :=
  if (length (laActive st) =? 0)%nat then Panic else
  let active := sort_ints (laActive st) in
  let lamb := laLamb st in
  do signs <- vec_view (laSigns st) active;
  let Xe := icv_mat X (map Z.of_nat active) in
  do est <- cdSetActive cd (laEst st) (map Z.of_nat active);
  do c <- cdC cd est y;
  do d <- cdD cd est signs;
  do joinTimes <- tJoin X Xe y c d lamb active (laLastFeat st) (laLastCoeff st);
  do crossTimes <- tCross c d lamb;
  do (jt, jFeat) <- maxJoinTime joinTimes active;
  let '(ct, cFeat) := maxCrossTime crossTimes in
  do lrs <- betaLARS c d lamb;
  do node <- NewLassoLarsNode lrs lamb (map Z.of_nat active);
  let nodes := laRes st ++ [node] in
  if nltb ct jt then
    do coeffVec <- betaLARS c d jt;
    do sign <- joinFeatSign jFeat X Xe y coeffVec;
    do allSigns <- setn (laSigns st) jFeat sign;
    if nltb lamb jt
    then Ok (mkLars lamb (active ++ [jFeat]) allSigns None (laLastCoeff st) est nodes true)
    else Ok (mkLars jt (active ++ [jFeat]) allSigns None (laLastCoeff st) est nodes false)
  else
    do b <- betaLARS c d lamb;
    do lastCoeff <- getn b cFeat;
    do lastFeat <- getn active cFeat;
    do end_ <- getn active (length active - 1);
    do active <- setn active cFeat end_;
    let active := firstn (length active - 1) active in
    if nltb lamb ct
    then Ok (mkLars lamb active (laSigns st) (Some lastFeat) lastCoeff est nodes true)
    else Ok (mkLars ct active (laSigns st) (Some lastFeat) lastCoeff est nodes false).

(** lasso_lars.go:83: the loop, for at most [fuel] rounds *)
Fixpoint lars_loop {N : Num} (cd : CDParam N) (X : Mat N) (y : list N) (lambMin : N) (fuel : nat)
  (st : Lars N (cdState cd)) : res (Lars N (cdState cd)) :=
  if negb (nltb lambMin (laLamb st)) then Ok st else
  match fuel with
  | O => Fuel
  | S fuel =>
    do st <- lars_step cd X y st;
    if laStop st then Ok st else lars_loop cd X y lambMin fuel st
  end.

(** lasso_lars.go:50-133 *)
Definition LassoLars {N : Num} (cd : CDParam N) (est : cdState cd) (data : NormalizedData N) (lambMin : N) (fuel : nat)
  : res (list (LassoLarsNode N)) :=
  do st <- lars_start cd est (ndX data) (ndy data);
  do st <- lars_loop cd (ndX data) (ndy data) lambMin fuel st;
  Ok (laRes st).
