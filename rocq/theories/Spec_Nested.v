(** Words used in the statements of C55 and C62. *)
From Coq Require Import Reals.
From Verif Require Import Base Num Mat Model_Norm Model_Lars Model_CSV Model_Fit Model_Path Model_Nested Proof_XR.
Open Scope list_scope.

(** the node with its selected features renumbered *)
Definition relabel {N : Num} (g : Z -> Z) (n : LassoLarsNode N) : LassoLarsNode N :=
  mkLN (lnCoeff n) (lnLamb n) (map g (lnSelection n)).

(** feature number v of a dataset made of the columns [cols] of another one *)
Definition original (cols : list nat) (v : Z) : Z := Z.of_nat (nth (Z.to_nat v) cols 0%nat).

Section Stages.
  Variables (cd : CDParam XR) (lambMin keep : XR) (fuelL : nat).
  Variables (d : Dataset XR).
  Variables (nr : nat) (z : nat -> nat -> R) (yz : list R).

  (** [path] is the LARS path of the target [yz] on the columns [cols] of [z] *)
  Definition lars_on (cols : list nat) (path : list (LassoLarsNode XR)) : Prop :=
    exists (est : cdState cd) (nd : NormalizedData XR), mrows (ndX nd) = nr /\ mcols (ndX nd) = length cols /\
      (forall i j, (i < nr)%nat -> (j < length cols)%nat -> mval (ndX nd) i j = XFin (z i (nth j cols 0%nat))) /\
      ndy nd = map XFin yz /\
      LassoLars cd est nd lambMin fuelL = Ok path.

  (** [p] has the two criteria of the nodes of [path], as a path of the target
      [yz] on the columns [cols] of [z] *)
  Definition criteria_on (cols : list nat) (path : list (LassoLarsNode XR)) (p : PathWithCrit XR) : Prop :=
    exists cur : Dataset XR, mrows (dsX cur) = nr /\ mcols (dsX cur) = length cols /\
      (forall i j, (i < nr)%nat -> (j < length cols)%nat -> mval (dsX cur) i j = XFin (z i (nth j cols 0%nat))) /\
      dsY cur = map XFin yz /\
      GetCriteria (mkPath cur path) Aicc = Ok (pwAicc p) /\ GetCriteria (mkPath cur path) Bic = Ok (pwBic p).

  (** how many features the next stage keeps *)
  Definition next_num (cols : list nat) : Z := go_int (keep * nofnat (length cols))%num.

  (** the nested fits: each one on the features that entered the previous path
      first, until at most two would be kept *)
  Inductive nested_stages : list nat -> list (list nat * list (LassoLarsNode XR)) -> Prop :=
  | stages_last : forall cols path, lars_on cols path -> (next_num cols <= 2)%Z ->
      nested_stages cols [(cols, path)]
  | stages_next : forall cols path cols' rest, lars_on cols path -> (2 < next_num cols)%Z ->
      cols' = map (fun v => nth (Z.to_nat v) cols 0%nat) (PickMostRelevantFeatures (mkPath d path) (next_num cols)) ->
      nested_stages cols' rest ->
      nested_stages cols ((cols, path) :: rest).
End Stages.
