(** Words used in the statements of C80. *)
From Coq Require Import Reals Sorted List ZArith.
From Verif Require Import Base Num Mat Model_Norm Model_Fit Model_CSV Model_Path Proof_XR Proof_Norm Spec_Path.
Import ListNotations.
Open Scope R_scope.

Definition log10 (r : R) : R := ln r / ln 10.

(** math.Log10 in exact arithmetic *)
Definition xlog10 : XR -> XR := fun x : xr =>
  match x with
  | XNaN | XNInf => XNaN
  | XPInf => XPInf
  | XFin r => if Rltb 0 r then XFin (log10 r) else if Rltb r 0 then XNaN else XNInf
  end.

(** [node] uses the columns [sel] (ascending, at least one, all among the nc
    columns of the data) with the coefficients [w] at penalty [l] *)
Definition node_is (nc : nat) (node : LassoLarsNode XR) (sel : list Z) (w : list R) (l : R) : Prop :=
  lnSelection node = sel /\ lnCoeff node = fins w /\ lnLamb node = fin l /\
  length w = length sel /\ sel <> [] /\ StronglySorted Z.lt sel /\ (forall v, In v sel -> (0 <= v < Z.of_nat nc)%Z).

(** a dataset of real numbers *)
Definition real_data (d : Dataset XR) (A : nat -> nat -> R) (y : list R) : Prop :=
  (0 < mrows (dsX d))%nat /\ rmat (dsX d) A /\ dsY d = fins y /\ length y = mrows (dsX d).

(** the line of the entrance figure: for every column that is in some model, in
    ascending order, the largest penalty with that column *)
Definition entrance_line (nodes : list (LassoLarsNode XR)) (line : list (XR * XR)) : Prop :=
  exists feats, StronglySorted Z.lt feats /\
    (forall f, In f feats <-> exists n, In n nodes /\ In f (lnSelection n)) /\
    Forall2 (fun f xy => exists l, xy = (fin (IZR f), fin (log10 l)) /\
      (exists n, In n nodes /\ In f (lnSelection n) /\ lnLamb n = fin l) /\
      (forall n l', In n nodes -> In f (lnSelection n) -> lnLamb n = fin l' -> 0 < l' -> l' <= l)) feats line.

(** the line of column f in the figure of the path: the coefficient of f in
    each model, 0 where it has none *)
Definition coefficient_line (nodes : list (LassoLarsNode XR)) (f : Z) (line : list (XR * XR)) : Prop :=
  length line = length nodes /\
  forall i n, nth_error nodes i = Some n -> exists c, nth_error line i = Some (xlog10 (lnLamb n), c) /\
    ((~ In f (lnSelection n) /\ c = fin 0) \/
     (exists j, nth_error (lnSelection n) j = Some f /\ nth_error (lnCoeff n) j = Some c)).
