(** C85, continued: NodesEqual and Highscore.Equal are symmetric in binary64. *)
From Coq Require Import SpecFloat ZArith Lia Bool List.
From Verif Require Import Base Num Mat Model_Node Proof_Sign.
Import ListNotations.

Lemma sf_add_comm : forall p em a b, SFadd p em a b = SFadd p em b a.
Proof.
  intros p em [sa|sa| |sa ma ea] [sb|sb| |sb mb eb]; cbn [SFadd]; try reflexivity;
    try (destruct sa, sb; reflexivity).
  rewrite (Z.min_comm eb ea), Z.add_comm. reflexivity.
Qed.

Lemma sf_dist_sym : forall p em a b, SFabs (SFsub p em a b) = SFabs (SFsub p em b a).
Proof.
  intros p em a b. rewrite !sub_add, (sf_add_comm p em b).
  pose proof (add_opp p em a (SFopp b)) as H. rewrite opp_invol in H.
  destruct H as [E|(s & s' & E & E')].
  - rewrite E. destruct (SFadd p em a (SFopp b)); reflexivity.
  - rewrite E. destruct (SFadd p em a (SFopp b)); try discriminate E'. reflexivity.
Qed.

Lemma f64_abs_max : forall o (a b : F64 o), nmax2 (N := F64 o) (nabs a) (nabs b) = nmax2 (N := F64 o) (nabs b) (nabs a).
Proof.
  intros o a b. unfold nmax2. destruct a as [sa|sa| |sa ma ea], b as [sb|sb| |sb mb eb]; try reflexivity.
  cbn. change (Pos.compare_cont Eq mb ma) with (Pos.compare mb ma). change (Pos.compare_cont Eq ma mb) with (Pos.compare ma mb).
  rewrite (Z.compare_antisym ea eb), (Pos.compare_antisym ma mb).
  destruct (Z.compare_spec ea eb) as [->| |]; cbn; try reflexivity.
  destruct (Pos.compare_spec ma mb) as [->| |]; reflexivity.
Qed.

Lemma within_sym : forall o (a b tol : F64 o), EqualWithinAbsOrRel a b tol = EqualWithinAbsOrRel b a tol.
Proof.
  intros o a b tol. unfold EqualWithinAbsOrRel, go_eq. rewrite (andb_comm (nleb a b)), (f64_abs_max o a b).
  assert (E : nabs (nsub a b) = nabs (nsub b a)) by apply sf_dist_sym. rewrite E. reflexivity.
Qed.

Lemma forallb_swap : forall {A B} (f : A * B -> bool) (g : B * A -> bool) l k, (forall x y, f (x, y) = g (y, x)) ->
  forallb f (combine l k) = forallb g (combine k l).
Proof. intros A B f g l k H. revert k. induction l as [|x l IH]; intros [|y k]; cbn [combine forallb]; auto. rewrite H, IH. reflexivity. Qed.

(** In binary64, and whatever the numbers of the nodes are (NaN and infinities
    too), NodesEqual does not depend on the order of its arguments. *)
Theorem C85_symmetric_binary64 : forall o (n1 n2 : Node (F64 o)), NodesEqual n1 n2 = NodesEqual n2 n1.
Proof.
  intros o n1 n2. unfold NodesEqual. cbv zeta. rewrite (Nat.eqb_sym (length (ndModel n1))), (Z.eqb_sym (ndLevel n1)).
  rewrite (forallb_swap _ (fun p => Bool.eqb (fst p) (snd p)) (ndModel n1)) by (intros [|] [|]; reflexivity).
  assert (T : forall a b : F64 o, nabs (nsub a b) = nabs (nsub b a)) by (intros; apply sf_dist_sym).
  rewrite (T (ndLower n1)), (T (ndUpper n1)), (T (ndScore n1)).
  assert (E : EqualApprox (ndCoeff n1) (ndCoeff n2) (ndec 1 (-10)) = EqualApprox (ndCoeff n2) (ndCoeff n1) (ndec 1 (-10))).
  { unfold EqualApprox. rewrite Nat.eqb_sym. f_equal. apply forallb_swap. intros x y. apply within_sym. }
  rewrite E. reflexivity.
Qed.
Print Assumptions C85_symmetric_binary64.

(** So does Highscore.Equal. *)
Theorem C85_highscore_symmetric : forall o (h1 h2 : Highscore (F64 o)), hsEqual h1 h2 = hsEqual h2 h1.
Proof.
  intros o h1 h2. unfold hsEqual. rewrite (Z.eqb_sym (hsMaxItems h1)), (Z.eqb_sym (hsLen h1)).
  rewrite (forallb_swap _ (fun p => NodesEqual (fst p) (snd p)) (hsItems h1)) by (intros; apply C85_symmetric_binary64). reflexivity.
Qed.
Print Assumptions C85_highscore_symmetric.

Definition far (c s : Z) : Node (F64 fenv0) := mkNode (N := F64 fenv0) [true; false] [f64_ofZ c] 0 S754_nan (S754_infinity true) (f64_ofZ s) false.
(** two different nodes that are equal either way round (their coefficients
    differ by one part in 10^11), and two that are not, either way round *)
Example C85_symmetric_example :
  NodesEqual (far 100000000000 7) (far 100000000001 7) = true /\ NodesEqual (far 100000000001 7) (far 100000000000 7) = true /\
  NodesEqual (far 1 7) (far 1 8) = false /\ NodesEqual (far 1 8) (far 1 7) = false.
Proof. vm_compute. auto. Qed.
