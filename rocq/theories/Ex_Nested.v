(** The parts of the concrete run in the example of C62. *)
From Coq Require Import Reals Lra String Permutation Sorting.Sorted.
From Verif Require Import Base Num Mat Model_Node Model_Util Proof_Util RSum Stats Proof_XR Model_Norm Proof_Norm Model_Fit Model_CSV Proof_CSV Proof_CSV2
  Model_Lars Props_Lars Model_Path Model_Nested Proof_Nested Proof_Nested2 Eval.
Open Scope list_scope.
Open Scope R_scope.

(** *** a concrete run: three standardised columns a, b, c and the target b *)
Definition halfCD {N : Num} : CDParam N := {|
  cdState := (Mat N * list Z)%type;
  cdSetX := fun st X => (X, snd st);
  cdSetActive := fun st active => Ok (fst st, active);
  cdC := fun st y => do v <- mat_mulvec (mat_T (icv_mat (fst st) (snd st))) y; Ok (map (fun x => x / nofZ 2)%num v);
  cdD := fun st signs => Ok (map (fun x => x / nofZ 2)%num signs)
|}.
Definition ex62_f (i j : nat) : R :=
  match i, j with
  | O, O => 1 | 1%nat, O => 0 | 2%nat, O => -1
  | O, 1%nat => -3/7 | 1%nat, 1%nat => 8/7 | 2%nat, 1%nat => -5/7
  | O, 2%nat => 8/7 | 1%nat, 2%nat => -3/7 | _, _ => -5/7
  end.
Definition ex62_y : list R := [-3/7; 8/7; -5/7].
Definition ex62_X : Mat XR := mkMat 3 3 (fun i j => fin (ex62_f i j)).
Definition ex62 : Dataset XR := mkDataset ex62_X (fins ex62_y) ["a"; "b"; "c"; "t"]%string 3%Z.

Lemma nnd_outside : forall (X : Mat XR) y nd, NewNormalizedData X y = Ok nd ->
  forall i j, ~ ((i < mrows X)%nat /\ (j < mcols X)%nat) -> mval (ndX nd) i j = mval X i j.
Proof.
  intros X y nd E i0 j0 Hout. unfold NewNormalizedData in E.
  destruct (Std y) as [sy| |]; try discriminate E. cbn [bind] in E.
  destruct (Mean y) as [my| |]; try discriminate E. cbn [bind] in E.
  destruct (for_loop 0 (length y) _ _) as [y'| |]; try discriminate E. cbn [bind] in E.
  destruct (for_loop 0 (mcols X) _ _) as [st| |] eqn:E1; try discriminate E. cbn [bind] in E.
  destruct st as [[[[tmp X'] mu] std] hb]. injection E as <-. cbn [ndX].
  set (P := fun Y : Mat XR => mrows Y = mrows X /\ mcols Y = mcols X /\ mval Y i0 j0 = mval X i0 j0).
  assert (HP : forall Y Y' i j v, P Y -> mat_set Y i j v = Ok Y' -> P Y').
  { intros Y Y' i j v (P1 & P2 & P3) Es. unfold mat_set in Es. destruct (_ && _)%bool eqn:Eb; [|discriminate Es]. injection Es as <-.
    apply andb_prop in Eb. destruct Eb as (B1 & B2). apply Nat.ltb_lt in B1, B2.
    split; [exact P1|]. split; [exact P2|]. rewrite mat_upd_val.
    destruct (Nat.eqb_spec i0 i); destruct (Nat.eqb_spec j0 j); cbn [andb]; try exact P3. exfalso. apply Hout. lia. }
  apply (for_loop_pres _ (fun st : list XR * Mat XR * list XR * list XR * bool => let '(_, X', _, _, _) := st in P X') _ _ _ _ _) in E1; [exact (proj2 (proj2 E1))| |split; [reflexivity|split; reflexivity]].
  clear E1. intros i [[[[tmp1 X1] mu1] std1] hb1] s' HX E.
  destruct (for_loop 0 (mrows X) _ tmp1) as [tmp'| |]; try discriminate E. cbn [bind] in E.
  destruct (Std tmp') as [s| |]; try discriminate E. cbn [bind] in E.
  destruct (setn std1 i s) as [std'| |]; try discriminate E. cbn [bind] in E.
  destruct (Mean tmp') as [m| |]; try discriminate E. cbn [bind] in E.
  destruct (setn mu1 i m) as [mu'| |]; try discriminate E. cbn [bind] in E.
  destruct (_ && _)%bool; [discriminate E|].
  destruct (if nltb s (ndec 1 (-10)) then (true, n1) else (hb1, s)) as (hb', st').
  destruct (for_loop 0 (mrows X) _ X1) as [X2| |] eqn:E2; try discriminate E. cbn [bind] in E. injection E as <-.
  apply (for_loop_pres _ P _ _ _ _ _) in E2; [exact E2| |exact HX].
  intros r Y Y' HY Eb. destruct (getn tmp' r) as [tv| |]; try discriminate Eb. cbn [bind] in Eb.
  exact (HP _ _ _ _ _ HY Eb).
Qed.

(** a standardised dataset is normalised to itself *)
Lemma nnd_standard : forall (X : Mat XR) f y, rmat X f -> (0 < mrows X)%nat -> (0 < mcols X)%nat ->
  (forall c, (c < mcols X)%nat -> mean (rcol (mrows X) f c) = 0 /\ sdev (rcol (mrows X) f c) = 1) ->
  mean y = 0 -> sdev y = 1 ->
  NewNormalizedData X (fins y) = Ok (mkND X (fins y) (fins (map (fun _ => 1) (seq 0 (mcols X)))) (fins (map (fun _ => 0) (seq 0 (mcols X))))
    (fin 1) (fin 0) false).
Proof.
  intros X f y HX Hr Hc Hs Hm Hsd.
  assert (T1 : tol10 < 1) by (unfold tol10; change (10 ^ 10)%Z with 10000000000%Z; lra).
  assert (Hy : y <> []) by (intros ->; cbn in Hsd; lra).
  destruct (nnd_ok X f HX Hr y Hy) as (X' & E & R1 & C1 & M1).
  { intros c Hcc. destruct (Hs c ltac:(lia)) as (_ & ->). lra. }
  assert (EX : X' = X).
  { pose proof (nnd_outside X _ _ E) as Hout. cbn [ndX] in Hout. destruct X' as [r' c' v'], X as [r c v]. cbn [mrows mcols mval] in *. subst r' c'.
    f_equal. apply FunctionalExtensionality.functional_extensionality. intro i. apply FunctionalExtensionality.functional_extensionality. intro j.
    destruct (Nat.lt_ge_cases i r) as [Hi|Hi]; [|apply Hout; lia]. destruct (Nat.lt_ge_cases j c) as [Hj|Hj]; [|apply Hout; lia].
    pose proof (M1 i j Hi Hj) as E1. cbn [mval] in E1. rewrite E1. rewrite (renorm (mkMat r c v) f); [symmetry; apply (HX i j Hi Hj)| |exact Hj].
    intros c0 Hc0. destruct (Hs c0 Hc0) as (A & B). split; [exact A|left; exact B]. }
  rewrite E, EX, Hm, Hsd. f_equal. f_equal.
  - unfold ydone. rewrite Reqb_ne by lra. rewrite Hsd, Hm. f_equal. rewrite <- (map_id y) at 2. apply map_ext. intro v. field.
  - f_equal. apply map_ext_in. intros c Hcc. apply in_seq in Hcc. apply Hs. lia.
  - f_equal. apply map_ext_in. intros c Hcc. apply in_seq in Hcc. apply Hs. lia.
  - destruct (Hs 0%nat Hc) as (_ & ->). rewrite (proj2 (Rltb_false 1 tol10)) by lra. apply andb_false_r.
Qed.

Lemma sdev3 : forall a b c, a + b + c = 0 -> a * a + b * b + c * c = 2 -> mean [a; b; c] = 0 /\ sdev [a; b; c] = 1.
Proof.
  intros a b c H1 H2. assert (M : mean [a; b; c] = 0).
  { unfold mean. cbn [length]. rewrite !lsum_cons, lsum_nil. replace (a + (b + (c + 0))) with 0 by lra. unfold Rdiv. ring. }
  split; [exact M|]. unfold sdev. cbn [length Nat.leb map]. rewrite M, !lsum_cons, lsum_nil.
  replace (_ / _) with 1; [apply sqrt_1|]. replace (INR (3 - 1)) with 2 by (cbn; ring). 
  replace ((a - 0) * (a - 0) + ((b - 0) * (b - 0) + ((c - 0) * (c - 0) + 0))) with 2 by lra. field.
Qed.

Definition ex62_nd (X : Mat XR) : NormalizedData XR :=
  mkND X (fins ex62_y) (fins (map (fun _ => 1) (seq 0 (mcols X)))) (fins (map (fun _ => 0) (seq 0 (mcols X)))) (fin 1) (fin 0) false.
Definition ex62_s : Dataset XR := match GetSubset ex62 [1%Z] with Ok s => s | _ => ex62 end.

Lemma ex62_norm : NewNormalizedData (dsX ex62) (dsY ex62) = Ok (ex62_nd ex62_X).
Proof.
  destruct (sdev3 (-3/7) (8/7) (-5/7)) as (Y1 & Y2); [lra|lra|].
  apply (nnd_standard ex62_X ex62_f ex62_y); [intros i j _ _; reflexivity|cbn; lia|cbn; lia| |exact Y1|exact Y2].
  intros [|[|[|c]]] Hc; [| | |cbn in Hc; lia]; (apply sdev3; unfold ex62_f; lra).
Qed.
Lemma ex62_subset : GetSubset (normalized_in_place ex62 (ex62_nd ex62_X)) [1%Z] = Ok ex62_s.
Proof. reflexivity. Qed.
Lemma ex62_norm2 : NewNormalizedData (dsX ex62_s) (dsY ex62_s) = Ok (ex62_nd (dsX ex62_s)).
Proof.
  destruct (sdev3 (-3/7) (8/7) (-5/7)) as (Y1 & Y2); [lra|lra|].
  assert (R : mrows (dsX ex62_s) = 3%nat) by reflexivity. assert (C : mcols (dsX ex62_s) = 1%nat) by reflexivity.
  apply (nnd_standard (dsX ex62_s) (fun i _ => ex62_f i 1) ex62_y); [|lia|lia| |exact Y1|exact Y2].
  - intros i j Hi Hj. rewrite R in Hi. rewrite C in Hj. assert (j = 0%nat) by lia. subst j.
    destruct i as [|[|[|i]]]; try lia; reflexivity.
  - intros c Hc. rewrite R. apply sdev3; unfold ex62_f; lra.
Qed.

Lemma ex62_lars1 : LassoLars_est halfCD (ex62_X, []) (ex62_nd ex62_X) (fin 1) 3 =
  Ok ([mkLN (N := XR) (fins [0]) (fin 2) [1%Z]], (ex62_X, [1%Z])).
Proof.
  unfold LassoLars_est, ex62_nd. cbn [ndX ndy].
  assert (S0 : lars_start (N := XR) halfCD (ex62_X, []) ex62_X (fins ex62_y) =
    Ok (mkLars (N := XR) (fin 2) [1%nat] (fins [0; 1; 0]) None (fin 0) (ex62_X, []) [] false)).
  { cmp. apply mkLars_eq; cmp. reflexivity. }
  rewrite S0. cbn [bind].
  assert (S1 : exists a sg fe lc, lars_step (N := XR) halfCD ex62_X (fins ex62_y)
    (mkLars (N := XR) (fin 2) [1%nat] (fins [0; 1; 0]) None (fin 0) (ex62_X, []) [] false) =
    Ok (mkLars (N := XR) (fin 0) a sg fe lc (ex62_X, [1%Z]) [mkLN (N := XR) (fins [0]) (fin 2) [1%Z]] false)).
  { exists [], (fins [0; 1; 0]), (Some 1%nat), (fin 0). cmp. apply mkLars_eq; cmp. all: try (apply mkLN_eq; cmp). all: reflexivity. }
  destruct S1 as (a & sg & fe & lc & S1).
  cbn [lars_loop laLamb]. replace (nltb (n := XR) (fin 1) (fin 2)) with true by (symmetry; apply Rltb_true; lra). cbn [negb].
  rewrite S1. cbn [bind laStop laLamb]. replace (nltb (n := XR) (fin 1) (fin 0)) with false by (symmetry; apply Rltb_false; lra).
  reflexivity.
Qed.
Lemma ex62_lars2 : forall A0, exists est', LassoLars_est halfCD (A0, [1%Z]) (ex62_nd (dsX ex62_s)) (fin 1) 3 =
  Ok ([mkLN (N := XR) (fins [0]) (fin 2) [0%Z]], est').
Proof.
  intro A0. unfold LassoLars_est, ex62_nd. cbn [ndX ndy].
  assert (S0 : lars_start (N := XR) halfCD (A0, [1%Z]) (dsX ex62_s) (fins ex62_y) =
    Ok (mkLars (N := XR) (fin 2) [0%nat] (fins [1]) None (fin 0) (dsX ex62_s, [1%Z]) [] false)).
  { cmp. apply mkLars_eq; cmp. reflexivity. }
  rewrite S0. cbn [bind].
  assert (S1 : exists a sg fe lc, lars_step (N := XR) halfCD (dsX ex62_s) (fins ex62_y)
    (mkLars (N := XR) (fin 2) [0%nat] (fins [1]) None (fin 0) (dsX ex62_s, [1%Z]) [] false) =
    Ok (mkLars (N := XR) (fin 0) a sg fe lc (dsX ex62_s, [0%Z]) [mkLN (N := XR) (fins [0]) (fin 2) [0%Z]] false)).
  { exists [], (fins [1]), (Some 0%nat), (fin 0). cmp. apply mkLars_eq; cmp. all: try (apply mkLN_eq; cmp). all: reflexivity. }
  destruct S1 as (a & sg & fe & lc & S1).
  cbn [lars_loop laLamb]. replace (nltb (n := XR) (fin 1) (fin 2)) with true by (symmetry; apply Rltb_true; lra). cbn [negb].
  rewrite S1. cbn [bind laStop laLamb]. replace (nltb (n := XR) (fin 1) (fin 0)) with false by (symmetry; apply Rltb_false; lra).
  eexists. reflexivity.
Qed.

