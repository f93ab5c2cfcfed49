(** Numbers: the operations Go code performs on [float64], IEEE binary64
    ([F64]) and exact reals with IEEE special values ([XR]). *)
From Coq Require Import Floats.SpecFloat Reals Lra.
From Verif Require Import Base.

(** The [float64] operations used by /repo/featselect.  [npow x k] is
    [math.Pow(x, float64(k))]; [ndec m e] is the literal [m]e[e];
    [ntrunc] is the Go conversion [int(x)] ([None] where Go leaves the
    result implementation-defined). *)
Record Num := mkNum {
  T :> Type;
  nadd : T -> T -> T;
  nsub : T -> T -> T;
  nmul : T -> T -> T;
  ndiv : T -> T -> T;
  nneg : T -> T;
  nabs : T -> T;
  nsqrt : T -> T;
  nexp : T -> T;
  nlog : T -> T;
  nlog2 : T -> T;
  nexp2 : T -> T;
  npow : T -> Z -> T;
  nofZ : Z -> T;
  ndec : Z -> Z -> T;
  nltb : T -> T -> bool;
  nleb : T -> T -> bool;
  nisnan : T -> bool;
  nmaxf : T;
  ninf : T;
  nnan : T;
  ntrunc : T -> option Z
}.

Arguments nadd {_} _ _. Arguments nsub {_} _ _. Arguments nmul {_} _ _.
Arguments ndiv {_} _ _. Arguments nneg {_} _. Arguments nabs {_} _.
Arguments nsqrt {_} _. Arguments nexp {_} _. Arguments nlog {_} _.
Arguments nlog2 {_} _. Arguments nexp2 {_} _. Arguments npow {_} _ _.
Arguments nofZ {_} _. Arguments ndec {_} _ _. Arguments nltb {_} _ _.
Arguments nleb {_} _ _. Arguments nisnan {_} _. Arguments nmaxf {_}.
Arguments ninf {_}. Arguments nnan {_}. Arguments ntrunc {_} _.

Declare Scope num_scope.
Delimit Scope num_scope with num.
Bind Scope num_scope with T.
Infix "+" := nadd : num_scope.
Infix "-" := nsub : num_scope.
Infix "*" := nmul : num_scope.
Infix "/" := ndiv : num_scope.
Notation "- x" := (nneg x) : num_scope.
Infix "<?" := nltb : num_scope.
Infix "<=?" := nleb : num_scope.
Notation "x >? y" := (nltb y x) (only parsing) : num_scope.
Notation "x >=? y" := (nleb y x) (only parsing) : num_scope.

Definition n0 {N : Num} : N := nofZ 0.
Definition n1 {N : Num} : N := nofZ 1.
Definition nofnat {N : Num} (n : nat) : N := nofZ (Z.of_nat n).

(** math.Max (Go standard library): +Inf wins, then NaN, then the larger. *)
Definition nmax2 {N : Num} (x y : N) : N :=
  if (ninf <=? x)%num || (ninf <=? y)%num then ninf
  else if nisnan x || nisnan y then nnan
  else if (y <? x)%num then x else y.

(** ** IEEE binary64 *)

Definition f64 := spec_float.
Notation fprec := 53%Z.
Notation femax := 1024%Z.

(** Functions whose rounding Go does not specify bit by bit. *)
Record fenv := mkFenv {
  o_exp : f64 -> f64;
  o_log : f64 -> f64;
  o_log2 : f64 -> f64;
  o_exp2 : f64 -> f64;
  o_pow : f64 -> Z -> f64
}.

Definition f64_ofZ (z : Z) : f64 := binary_normalize fprec femax z 0 false.

Definition f64_ofpos (s : bool) (p : positive) : f64 := S754_finite s p 0.

(** Correctly rounded decimal literal. *)
Definition f64_dec (m e : Z) : f64 :=
  if (0 <=? e)%Z then f64_ofZ (m * 10 ^ e)
  else match m with
       | Z0 => S754_zero false
       | Zpos p => SFdiv fprec femax (f64_ofpos false p) (f64_ofpos false (Z.to_pos (10 ^ (- e))))
       | Zneg p => SFdiv fprec femax (f64_ofpos true p) (f64_ofpos false (Z.to_pos (10 ^ (- e))))
       end.

Definition f64_max : f64 := S754_finite false (2 ^ 53 - 1) 971.

Definition f64_isnan (x : f64) : bool :=
  match x with S754_nan => true | _ => false end.

Definition f64_trunc (x : f64) : option Z :=
  match x with
  | S754_zero _ => Some 0%Z
  | S754_finite s m e =>
      let a := if (0 <=? e)%Z then (Zpos m * 2 ^ e)%Z else (Zpos m / 2 ^ (- e))%Z in
      let v := if s then (- a)%Z else a in
      if ((- 2 ^ 63 <=? v) && (v <? 2 ^ 63))%Z then Some v else None
  | _ => None
  end.

Definition F64 (o : fenv) : Num := {|
  T := f64;
  nadd := SFadd fprec femax;
  nsub := SFsub fprec femax;
  nmul := SFmul fprec femax;
  ndiv := SFdiv fprec femax;
  nneg := SFopp;
  nabs := SFabs;
  nsqrt := SFsqrt fprec femax;
  nexp := o_exp o;
  nlog := o_log o;
  nlog2 := o_log2 o;
  nexp2 := o_exp2 o;
  npow := o_pow o;
  nofZ := f64_ofZ;
  ndec := f64_dec;
  nltb := SFltb;
  nleb := SFleb;
  nisnan := f64_isnan;
  nmaxf := f64_max;
  ninf := S754_infinity false;
  nnan := S754_nan;
  ntrunc := f64_trunc
|}.

(** A concrete (crude) environment for executing examples that do not use
    transcendental functions; [math.Pow(x,2)] is [x*x]. *)
Definition fenv0 : fenv := {|
  o_exp := fun x => x; o_log := fun x => x; o_log2 := fun x => x; o_exp2 := fun x => x;
  o_pow := fun x k => if (k =? 2)%Z then SFmul fprec femax x x else x |}.

(** ** Exact reals with IEEE special values *)

Inductive xr : Type :=
| XNaN
| XPInf
| XNInf
| XFin (r : R).

Definition Rltb (x y : R) : bool := if Rlt_dec x y then true else false.
Definition Rleb (x y : R) : bool := if Rle_dec x y then true else false.
Definition Reqb (x y : R) : bool := if Req_EM_T x y then true else false.

Definition xneg (x : xr) : xr :=
  match x with XNaN => XNaN | XPInf => XNInf | XNInf => XPInf | XFin r => XFin (- r) end.

Definition xadd (x y : xr) : xr :=
  match x, y with
  | XNaN, _ | _, XNaN => XNaN
  | XPInf, XNInf | XNInf, XPInf => XNaN
  | XPInf, _ | _, XPInf => XPInf
  | XNInf, _ | _, XNInf => XNInf
  | XFin a, XFin b => XFin (a + b)
  end.

Definition xsub (x y : xr) : xr := xadd x (xneg y).

(** sign of a non-NaN value: [-1], [0] or [1] *)
Definition xsgn (x : xr) : Z :=
  match x with
  | XNaN => 0
  | XPInf => 1
  | XNInf => -1
  | XFin r => if Rltb r 0 then -1 else if Rltb 0 r then 1 else 0
  end%Z.

Definition xinf_of_sgn (s : Z) : xr :=
  match s with Z0 => XNaN | Zpos _ => XPInf | Zneg _ => XNInf end.

Definition xmul (x y : xr) : xr :=
  match x, y with
  | XNaN, _ | _, XNaN => XNaN
  | XFin a, XFin b => XFin (a * b)
  | _, _ => xinf_of_sgn (xsgn x * xsgn y)
  end.

(** Division.  There is no signed zero in [xr]: [x/0] has the sign of [x]
    (simplification: Go uses the sign of the zero as well). *)
Definition xdiv (x y : xr) : xr :=
  match x, y with
  | XNaN, _ | _, XNaN => XNaN
  | XFin a, XFin b => if Reqb b 0 then xinf_of_sgn (xsgn x) else XFin (a / b)
  | XFin _, _ => XFin 0
  | _, XFin b => xinf_of_sgn (xsgn x * (if Rltb b 0 then -1 else 1))
  | _, _ => XNaN
  end.

Definition xabs (x : xr) : xr :=
  match x with XNaN => XNaN | XPInf | XNInf => XPInf | XFin r => XFin (Rabs r) end.

Definition xsqrt (x : xr) : xr :=
  match x with
  | XNaN | XNInf => XNaN
  | XPInf => XPInf
  | XFin r => if Rltb r 0 then XNaN else XFin (sqrt r)
  end.

Definition xexp (x : xr) : xr :=
  match x with XNaN => XNaN | XPInf => XPInf | XNInf => XFin 0 | XFin r => XFin (exp r) end.

(** math.Log: [log 0 = -Inf], negative arguments give NaN. *)
Definition xlog (x : xr) : xr :=
  match x with
  | XNaN | XNInf => XNaN
  | XPInf => XPInf
  | XFin r => if Rltb 0 r then XFin (ln r) else if Rltb r 0 then XNaN else XNInf
  end.

Definition xlog2 (x : xr) : xr :=
  match x with
  | XNaN | XNInf => XNaN
  | XPInf => XPInf
  | XFin r => if Rltb 0 r then XFin (ln r / ln 2) else if Rltb r 0 then XNaN else XNInf
  end.

Definition xexp2 (x : xr) : xr :=
  match x with
  | XNaN => XNaN | XPInf => XPInf | XNInf => XFin 0
  | XFin r => XFin (exp (r * ln 2))
  end.

(** math.Pow with integral exponent. *)
Definition xpow (x : xr) (k : Z) : xr :=
  if (k =? 0)%Z then XFin 1 else
  match x with
  | XNaN => XNaN
  | XFin r => if (0 <? k)%Z then XFin (r ^ Z.to_nat k)
              else if Reqb r 0 then XPInf else XFin (/ (r ^ Z.to_nat (- k)))
  | XPInf => if (0 <? k)%Z then XPInf else XFin 0
  | XNInf => if (0 <? k)%Z then (if Z.even k then XPInf else XNInf) else XFin 0
  end.

Definition xltb (x y : xr) : bool :=
  match x, y with
  | XNaN, _ | _, XNaN => false
  | XNInf, XNInf => false
  | XNInf, _ => true
  | _, XNInf => false
  | XPInf, _ => false
  | _, XPInf => true
  | XFin a, XFin b => Rltb a b
  end.

Definition xisnan (x : xr) : bool := match x with XNaN => true | _ => false end.

Definition xleb (x y : xr) : bool :=
  negb (xisnan x) && negb (xisnan y) && negb (xltb y x).

Definition xdec (m e : Z) : xr :=
  if (0 <=? e)%Z then XFin (IZR (m * 10 ^ e)) else XFin (IZR m / IZR (10 ^ (- e))).

(** math.MaxFloat64 *)
Definition xmaxf : xr := XFin (IZR ((2 ^ 53 - 1) * 2 ^ 971)).

(** Truncation towards zero. *)
Definition xtrunc (x : xr) : option Z :=
  match x with
  | XFin r => Some (if Rltb r 0 then (- (up (- r) - 1))%Z else (up r - 1)%Z)
  | _ => None
  end.

Definition XR : Num := {|
  T := xr;
  nadd := xadd; nsub := xsub; nmul := xmul; ndiv := xdiv; nneg := xneg; nabs := xabs;
  nsqrt := xsqrt; nexp := xexp; nlog := xlog; nlog2 := xlog2; nexp2 := xexp2; npow := xpow;
  nofZ := fun z => XFin (IZR z);
  ndec := xdec; nltb := xltb; nleb := xleb; nisnan := xisnan;
  nmaxf := xmaxf; ninf := XPInf; nnan := XNaN; ntrunc := xtrunc
|}.

(** ** Order laws shared by both instances *)

Record OrdLaws (N : Num) : Prop := mkOrdLaws {
  ol_irrefl : forall x : N, nltb x x = false;
  ol_trans : forall x y z : N, nltb x y = true -> nltb y z = true -> nltb x z = true;
  ol_negtrans : forall x y z : N, nisnan y = false ->
      nltb x y = false -> nltb y z = false -> nltb x z = false;
  ol_nan_l : forall x y : N, nisnan x = true -> nltb x y = false;
  ol_nan_r : forall x y : N, nisnan x = true -> nltb y x = false;
  ol_leb : forall x y : N,
      nleb x y = negb (nisnan x) && negb (nisnan y) && negb (nltb y x);
  ol_neg_lt : forall x y : N, nltb (nneg x) y = nltb (nneg y) x;
  ol_negneg : forall x : N, nneg (nneg x) = x;
  ol_nan_neg : forall x : N, nisnan (nneg x) = nisnan x
}.

Arguments ol_irrefl {N} _ _. Arguments ol_trans {N} _ _ _ _ _ _.
Arguments ol_negtrans {N} _ _ _ _ _ _ _. Arguments ol_nan_l {N} _ _ _ _.
Arguments ol_nan_r {N} _ _ _ _. Arguments ol_leb {N} _ _ _.
Arguments ol_neg_lt {N} _ _ _. Arguments ol_negneg {N} _ _. Arguments ol_nan_neg {N} _ _.

(* numeric key: lexicographic comparison on finite spec_floats *)
Definition fin_lt (e1 : Z) (m1 : positive) (e2 : Z) (m2 : positive) : Prop :=
  (e1 < e2)%Z \/ (e1 = e2 /\ (m1 < m2)%positive).

Definition cls (x : f64) : Z :=
  match x with
  | S754_nan => 0
  | S754_infinity true => -2
  | S754_infinity false => 2
  | S754_zero _ => 0
  | S754_finite true _ _ => -1
  | S754_finite false _ _ => 1
  end%Z.

Definition f64_lt (x y : f64) : Prop :=
  f64_isnan x = false /\ f64_isnan y = false /\
  ((cls x < cls y)%Z \/
   match x, y with
   | S754_finite false m1 e1, S754_finite false m2 e2 => fin_lt e1 m1 e2 m2
   | S754_finite true m1 e1, S754_finite true m2 e2 => fin_lt e2 m2 e1 m1
   | _, _ => False
   end).

Lemma SFltb_lt : forall x y, SFltb x y = true <-> f64_lt x y.
Proof.
  intros x y. unfold SFltb, SFcompare, f64_lt, fin_lt.
  destruct x as [sx|sx| |sx mx ex]; destruct y as [sy|sy| |sy my ey];
    try (destruct sx); try (destruct sy); simpl;
    try (split; [discriminate | intros (?&?&[?|?]); (lia || discriminate || contradiction)]);
    try (split; [intros _; repeat split; left; lia | reflexivity]).
  - (* both negative *)
    change (Pos.compare_cont Eq mx my) with (Pos.compare mx my).
    destruct (Z.compare_spec ex ey) as [He|He|He].
    + subst. destruct (Pos.compare_spec mx my) as [Hm|Hm|Hm]; simpl;
        (split; [intro H; try discriminate; try (repeat split; right; right; split; [reflexivity|assumption])
                |intros (_&_&[H|[H|(H&H')]]); try lia; reflexivity]).
    + split; [discriminate| intros (_&_&[H|[H|(H&H')]]); lia].
    + split; [intros _; repeat split; right; left; assumption| reflexivity].
  - change (Pos.compare_cont Eq mx my) with (Pos.compare mx my).
    destruct (Z.compare_spec ex ey) as [He|He|He].
    + subst. destruct (Pos.compare_spec mx my) as [Hm|Hm|Hm]; simpl;
        (split; [intro H; try discriminate; try (repeat split; right; right; split; [reflexivity|assumption])
                |intros (_&_&[H|[H|(H&H')]]); try lia; reflexivity]).
    + split; [intros _; repeat split; right; left; assumption| reflexivity].
    + split; [discriminate| intros (_&_&[H|[H|(H&H')]]); lia].
Qed.

Lemma f64_lt_trans : forall x y z, f64_lt x y -> f64_lt y z -> f64_lt x z.
Proof.
  intros x y z (Nx & Ny & H1) (_ & Nz & H2). split; [|split]; auto.
  unfold fin_lt in *.
  destruct x as [[]|[]| |[] mx ex]; destruct y as [[]|[]| |[] my ey];
    destruct z as [[]|[]| |[] mz ez]; simpl in *; try discriminate;
    try (left; lia);
    destruct H1 as [H1|H1]; destruct H2 as [H2|H2]; try lia; try (exfalso; assumption);
    right; lia.
Qed.

Lemma f64_lt_total : forall x y, f64_isnan x = false -> f64_isnan y = false ->
  ~ f64_lt x y -> ~ f64_lt y x ->
  cls x = cls y /\
  match x, y with
  | S754_finite _ m1 e1, S754_finite _ m2 e2 => m1 = m2 /\ e1 = e2
  | _, _ => True
  end.
Proof.
  intros x y Nx Ny H1 H2. unfold f64_lt, fin_lt in *.
  destruct x as [[]|[]| |[] mx ex]; destruct y as [[]|[]| |[] my ey]; simpl in *;
    try discriminate; try (split; [reflexivity|exact I]);
    try (exfalso; apply H1; repeat split; left; lia);
    try (exfalso; apply H2; repeat split; left; lia).
  - split; [reflexivity|].
    destruct (Z.lt_trichotomy ex ey) as [H|[H|H]].
    + exfalso; apply H2; repeat split; right; left; exact H.
    + subst. destruct (Pos.lt_total mx my) as [H|[H|H]].
      * exfalso; apply H2; repeat split; right; right; split; auto.
      * auto.
      * exfalso; apply H1; repeat split; right; right; split; auto.
    + exfalso; apply H1; repeat split; right; left; exact H.
  - split; [reflexivity|].
    destruct (Z.lt_trichotomy ex ey) as [H|[H|H]].
    + exfalso; apply H1; repeat split; right; left; exact H.
    + subst. destruct (Pos.lt_total mx my) as [H|[H|H]].
      * exfalso; apply H1; repeat split; right; right; split; auto.
      * auto.
      * exfalso; apply H2; repeat split; right; right; split; auto.
    + exfalso; apply H2; repeat split; right; left; exact H.
Qed.

Lemma SFltb_false : forall x y, SFltb x y = false <-> ~ f64_lt x y.
Proof.
  intros x y. rewrite <- SFltb_lt. destruct (SFltb x y); split; intro H; auto; try discriminate.
  exfalso; apply H; reflexivity.
Qed.

Lemma f64_lt_irrefl : forall x, ~ f64_lt x x.
Proof.
  intros x (_ & _ & H). unfold fin_lt in H.
  destruct x as [[]|[]| |[] mx ex]; simpl in H; destruct H as [H|H]; try lia; contradiction.
Qed.

Lemma f64_OrdLaws : forall o, OrdLaws (F64 o).
Proof.
  intro o. constructor; simpl.
  - intro x. apply SFltb_false, f64_lt_irrefl.
  - intros x y z H1 H2. rewrite SFltb_lt in *. eapply f64_lt_trans; eauto.
  - intros x y z Ny H1 H2. rewrite SFltb_false in *. intro H.
    assert (Nx := proj1 H). assert (Nz := proj1 (proj2 H)).
    destruct (SFltb y x) eqn:E1; [|destruct (SFltb z y) eqn:E2].
    + rewrite SFltb_lt in E1. apply H2. eapply f64_lt_trans; eauto.
    + rewrite SFltb_lt in E2. apply H1. eapply f64_lt_trans; eauto.
    + rewrite SFltb_false in E1, E2.
      assert (A := f64_lt_total x y Nx Ny H1 E1).
      assert (B := f64_lt_total y z Ny Nz H2 E2).
      destruct H as (_ & _ & H). unfold fin_lt in H.
      destruct x as [[]|[]| |[] mx ex]; destruct y as [[]|[]| |[] my ey];
        destruct z as [[]|[]| |[] mz ez]; simpl in *; try discriminate; try lia;
        destruct A as [A1 A2]; destruct B as [B1 B2]; try lia;
        destruct H as [H|H]; try lia; try contradiction.
  - intros x y H. destruct x; try discriminate. reflexivity.
  - intros x y H. destruct x; try discriminate. destruct y as [[]|[]| |[]]; reflexivity.
  - intros x y. unfold SFleb, SFltb, SFcompare.
    destruct x as [[]|[]| |[] mx ex]; destruct y as [[]|[]| |[] my ey]; simpl; auto.
    + change (Pos.compare_cont Eq mx my) with (Pos.compare mx my).
      change (Pos.compare_cont Eq my mx) with (Pos.compare my mx).
      rewrite (Z.compare_antisym ex ey), (Pos.compare_antisym mx my).
      destruct (Z.compare ex ey); simpl; try reflexivity; destruct (Pos.compare mx my); reflexivity.
    + change (Pos.compare_cont Eq mx my) with (Pos.compare mx my).
      change (Pos.compare_cont Eq my mx) with (Pos.compare my mx).
      rewrite (Z.compare_antisym ex ey), (Pos.compare_antisym mx my).
      destruct (Z.compare ex ey); simpl; try reflexivity; destruct (Pos.compare mx my); reflexivity.
  - intros x y. unfold SFltb, SFcompare.
    destruct x as [[]|[]| |[] mx ex]; destruct y as [[]|[]| |[] my ey]; simpl; auto.
    + change (Pos.compare_cont Eq mx my) with (Pos.compare mx my).
      change (Pos.compare_cont Eq my mx) with (Pos.compare my mx).
      rewrite (Z.compare_antisym ex ey), (Pos.compare_antisym mx my).
      destruct (Z.compare ex ey); simpl; try reflexivity; destruct (Pos.compare mx my); reflexivity.
    + change (Pos.compare_cont Eq mx my) with (Pos.compare mx my).
      change (Pos.compare_cont Eq my mx) with (Pos.compare my mx).
      rewrite (Z.compare_antisym ex ey), (Pos.compare_antisym mx my).
      destruct (Z.compare ex ey); simpl; try reflexivity; destruct (Pos.compare mx my); reflexivity.
  - intros [[]|[]| |[]]; reflexivity.
  - intros [[]|[]| |[]]; reflexivity.
Qed.

Lemma Rltb_true : forall x y, Rltb x y = true <-> (x < y)%R.
Proof. intros; unfold Rltb; destruct (Rlt_dec x y); split; intros; auto; discriminate. Qed.
Lemma Rltb_false : forall x y, Rltb x y = false <-> (y <= x)%R.
Proof.
  intros; unfold Rltb; destruct (Rlt_dec x y); split; intros; auto; try discriminate; try lra.
Qed.
Lemma Reqb_true : forall x y, Reqb x y = true <-> x = y.
Proof. intros; unfold Reqb; destruct (Req_EM_T x y); split; intros; auto; discriminate. Qed.
Lemma Reqb_false : forall x y, Reqb x y = false <-> x <> y.
Proof. intros; unfold Reqb; destruct (Req_EM_T x y); split; intros; auto; try discriminate; contradiction. Qed.

Lemma XR_OrdLaws : OrdLaws XR.
Proof.
  constructor; simpl.
  - intros [| | |r]; simpl; auto. apply Rltb_false; lra.
  - intros [| | |x] [| | |y] [| | |z]; simpl; auto; try discriminate.
    rewrite !Rltb_true; lra.
  - intros [| | |x] [| | |y] [| | |z]; simpl; auto; try discriminate.
    rewrite !Rltb_false; lra.
  - intros [| | |x] y H; try discriminate; reflexivity.
  - intros [| | |x] [| | |y] H; try discriminate; reflexivity.
  - reflexivity.
  - intros [| | |x] [| | |y]; simpl; auto.
    destruct (Rltb (- x) y) eqn:E; symmetry;
      [rewrite Rltb_true in *|rewrite Rltb_false in *]; lra.
  - intros [| | |x]; simpl; auto. f_equal; lra.
  - intros [| | |x]; reflexivity.
Qed.

(** Derived order facts. *)
Section OrdFacts.
  Variable N : Num.
  Hypothesis L : OrdLaws N.

  Lemma ltb_asym : forall x y : N, nltb x y = true -> nltb y x = false.
  Proof.
    intros x y H. destruct (nltb y x) eqn:E; auto.
    rewrite <- (ol_irrefl L x). symmetry. eapply ol_trans; eauto.
  Qed.

  Lemma ltb_nan : forall x y : N, nltb x y = true -> nisnan x = false /\ nisnan y = false.
  Proof.
    intros x y H; split.
    - destruct (nisnan x) eqn:E; auto. rewrite (ol_nan_l L x y E) in H; discriminate.
    - destruct (nisnan y) eqn:E; auto. rewrite (ol_nan_r L y x E) in H; discriminate.
  Qed.

  (** [x <= y] in the sense "not [y < x]" *)
  Definition le (x y : N) : Prop := nltb y x = false.

  Lemma le_refl : forall x, le x x.
  Proof. intro x; apply (ol_irrefl L). Qed.

  Lemma le_trans : forall x y z, nisnan y = false -> le x y -> le y z -> le x z.
  Proof. unfold le; intros x y z Ny H1 H2. eapply (ol_negtrans L); eauto. Qed.

  Lemma lt_le : forall x y, nltb x y = true -> le x y.
  Proof. unfold le; intros; apply ltb_asym; auto. Qed.

  Lemma lt_le_trans : forall x y z, nisnan z = false -> nltb x y = true -> le y z -> nltb x z = true.
  Proof.
    unfold le; intros x y z Nz H1 H2. destruct (nltb x z) eqn:E; auto.
    rewrite (ol_negtrans L x z y Nz E H2) in H1. discriminate.
  Qed.

  Lemma le_lt_trans : forall x y z, nisnan x = false -> le x y -> nltb y z = true -> nltb x z = true.
  Proof.
    unfold le; intros x y z Nx H1 H2. destruct (nltb x z) eqn:E; auto.
    rewrite (ol_negtrans L y x z Nx H1 E) in H2. discriminate.
  Qed.

  Lemma le_neg : forall x y, le x y -> le (nneg y) (nneg x).
  Proof.
    unfold le; intros x y H. rewrite (ol_neg_lt L). rewrite (ol_negneg L). exact H.
  Qed.

  Lemma ltb_neg_swap : forall x y : N, nltb (nneg x) (nneg y) = nltb y x.
  Proof. intros x y. rewrite (ol_neg_lt L), (ol_negneg L). reflexivity. Qed.

  Lemma ltb_neg_r : forall x y : N, nltb x (nneg y) = nltb y (nneg x).
  Proof.
    intros x y. rewrite <- (ltb_neg_swap (nneg x) y), (ol_negneg L). reflexivity.
  Qed.
End OrdFacts.

Arguments le {N} x y.
Arguments ltb_asym {N} L x y _. Arguments ltb_nan {N} L x y _.
Arguments le_refl {N} L x. Arguments le_trans {N} L x y z _ _ _.
Arguments lt_le {N} L x y _. Arguments lt_le_trans {N} L x y z _ _ _.
Arguments le_lt_trans {N} L x y z _ _ _. Arguments le_neg {N} L x y _.
Arguments ltb_neg_swap {N} L x y. Arguments ltb_neg_r {N} L x y.
