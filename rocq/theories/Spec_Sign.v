(** Vocabulary of C89: the same data with some signs reversed. *)
From Verif Require Import Base Num Mat Model_Norm Model_Cov.

(** equal to zero as a number (either sign of zero) *)
Definition zero {N : Num} (x : N) : Prop := nleb x n0 = true /\ nleb n0 x = true.

(** [x'] is [x] with its sign reversed if [s] is true and [x] itself if not;
    the sign of a zero does not count *)
Definition mirror {N : Num} (s : bool) (x x' : N) : Prop :=
  x' = (if s then nneg x else x) \/ (zero x /\ zero x').

(** the same for vectors and matrices, entry by entry *)
Definition mirror_list {N : Num} (s : nat -> bool) (l l' : list N) : Prop :=
  length l = length l' /\ forall i, i < length l -> mirror (s i) (nth i l n0) (nth i l' n0).
Definition mirror_mat {N : Num} (s : nat -> nat -> bool) (A A' : Mat N) : Prop :=
  mrows A = mrows A' /\ mcols A = mcols A' /\
  forall i j, i < mrows A -> j < mcols A -> mirror (s i j) (mval A i j) (mval A' i j).

(** a model with the same features and penalty, and the coefficient of feature
    [j] with its sign reversed where [s j] is true *)
Definition mirror_node {N : Num} (s : Z -> bool) (n n' : LassoLarsNode N) : Prop :=
  lnSelection n = lnSelection n' /\ lnLamb n = lnLamb n' /\ length (lnCoeff n) = length (lnCoeff n') /\
  forall k, k < length (lnCoeff n) ->
    mirror (s (nth k (lnSelection n) 0%Z)) (nth k (lnCoeff n) n0) (nth k (lnCoeff n') n0).

(** normalised data: the features with signs [sf], the target with sign [sy] *)
Definition mirror_nd {N : Num} (sf : nat -> bool) (sy : bool) (d d' : NormalizedData N) : Prop :=
  mirror_mat (fun _ j => sf j) (ndX d) (ndX d') /\ mirror_list (fun _ => sy) (ndy d) (ndy d') /\
  ndstd d = ndstd d' /\ mirror_list sf (ndmu d) (ndmu d') /\ ndstdY d = ndstdY d' /\ mirror sy (ndmuY d) (ndmuY d') /\
  ndHasBias d = ndHasBias d'.

(** corrections: the remembered coefficients of CLasso change their signs *)
Definition mirror_corr {N : Num} (s : nat -> bool) (c c' : Correction N) : Prop :=
  match c, c' with
  | PureLasso, PureLasso => True
  | CLasso b e, CLasso b' e' => mirror_list s b b' /\ e = e'
  | ElasticNet l, ElasticNet l' => l = l'
  | _, _ => False
  end.

(** both panic, or both give values that are related *)
Definition alike {A B} (R : A -> B -> Prop) (x : res A) (y : res B) : Prop :=
  match x, y with Ok a, Ok b => R a b | Panic, Panic => True | Fuel, Fuel => True | _, _ => False end.

(** the arithmetic of the code (binary64, for any transcendental functions) and exact arithmetic *)
Inductive arithmetic : Num -> Prop :=
| binary64 : forall o, arithmetic (F64 o)
| exact_reals : arithmetic XR.
