(** Properties C29, C30 (normalisation and back) and C45 (Cohen's kappa). *)
From Coq Require Import Reals Lra.
From Verif Require Import Base Num Mat RSum Stats Model_Node Model_Util Model_Norm.
From Verif Require Import Proof_Util Proof_XR Proof_Norm Proof_Norm2 Proof_Kappa.

(** ** C29.  [mean] and [sdev] (Stats.v) are the mean and the sample standard
    deviation (divisor n-1). *)
Theorem C29_array : forall l, (exists x y, In x l /\ In y l /\ x <> y) ->
  exists l', NormalizeArray (N := XR) (map XFin l) = Ok (map XFin l') /\
    length l' = length l /\ mean l' = 0%R /\ sdev l' = 1%R /\
    (forall i j, (i < length l)%nat -> (j < length l)%nat ->
       (nth i l 0 < nth j l 0 <-> nth i l' 0 < nth j l' 0)%R).
Proof.
  intros l H. assert (Hl : l <> []) by (intros ->; destruct H as (x & y & [] & _)).
  assert (Hs : (0 < sdev l)%R) by (apply sdev_pos_iff; auto).
  exists (map (fun x => (x - mean l) / sdev l)%R l). split; [apply normalize_array_xr; lra|].
  split; [apply map_length|]. split; [apply normalized_mean; auto|]. split; [apply normalized_sdev; lra|].
  intros i j Hi Hj. rewrite !(nth_map_lt _ _ _ l _ 0%R) by auto.
  pose proof (Rinv_0_lt_compat _ Hs). unfold Rdiv. split; intro; nra.
Qed.
Print Assumptions C29_array.

Theorem C29_array_constant : forall l a, l <> [] -> (forall x, In x l -> x = a) ->
  NormalizeArray (N := XR) (map XFin l) = Ok (repeat XNaN (length l)).
Proof.
  intros l a Hl H. apply normalize_array_const; auto. apply sdev_zero; auto.
  assert (E : mean l = a).
  { unfold mean. rewrite (map_ext_in_lsum l a) by auto. pose proof (len_pos _ l Hl). field. lra. }
  rewrite E. auto.
Qed.
Print Assumptions C29_array_constant.

Definition col (X : Mat XR) (c : nat) : list XR := map (fun r => mval X r c) (seq 0 (mrows X)).

Lemma rmat_of_cols : forall (X : Mat XR) (cs : nat -> list R),
  (forall c, (c < mcols X)%nat -> col X c = map XFin (cs c)) ->
  rmat X (fun i j => nth i (cs j) 0%R) /\
  (forall c, (c < mcols X)%nat -> rcol (mrows X) (fun i j => nth i (cs j) 0%R) c = cs c).
Proof.
  intros X cs H.
  assert (L : forall c, (c < mcols X)%nat -> length (cs c) = mrows X).
  { intros c Hc. specialize (H c Hc). apply (f_equal (@length xr)) in H. unfold col in H.
    rewrite !map_length, seq_length in H. auto. }
  split.
  - intros i j Hi Hj. specialize (H j Hj). apply (f_equal (fun l => nth i l (XFin 0))) in H. unfold col in H.
    rewrite (nth_map_seq _ (fun r => mval X r j)) in H by auto.
    rewrite (nth_map_lt _ _ XFin (cs j) i 0%R) in H by (rewrite L; auto). exact H.
  - intros c Hc. unfold rcol. apply (nth_ext _ _ 0%R 0%R).
    + rewrite map_length, seq_length, L; auto.
    + rewrite map_length, seq_length. intros k Hk.
      apply (nth_map_seq _ (fun r => nth r (cs c) 0%R)). auto.
Qed.

Lemma col_of_rmat : forall X f c, rmat X f -> (c < mcols X)%nat -> col X c = map XFin (rcol (mrows X) f c).
Proof.
  intros X f c H Hc. unfold col, rcol. rewrite map_map. apply map_ext_in. intros r Hr. apply in_seq in Hr.
  apply H; lia.
Qed.

(** NormalizeCols: column by column the same as NormalizeArray. *)
Theorem C29_cols : forall (X : Mat XR) (cs : nat -> list R), (0 < mrows X)%nat ->
  (forall c, (c < mcols X)%nat -> col X c = map XFin (cs c)) ->
  exists X', NormalizeCols X = Ok X' /\ mrows X' = mrows X /\ mcols X' = mcols X /\
    forall c, (c < mcols X)%nat -> NormalizeArray (col X c) = Ok (col X' c).
Proof.
  intros X cs Hr Hc. destruct (rmat_of_cols X cs Hc) as [HM HC].
  destruct (normalize_cols_xr X _ HM Hr) as (X' & E & H1 & H2 & H3). exists X'. repeat split; auto.
  intros c Hcc. rewrite (col_of_rmat X _ c HM Hcc).
  etransitivity; [exact (normalize_array_all _ (rcol_ne _ _ _ Hr))|]. f_equal. symmetry.
  unfold col. rewrite H1. apply (nth_ext _ _ (fin 0) (fin 0)).
  - rewrite map_length, seq_length, ydone_length, rcol_length. reflexivity.
  - rewrite map_length, seq_length. intros k Hk.
    rewrite (nth_map_seq _ (fun r => mval X' r c)) by auto. apply H3; auto.
Qed.
Print Assumptions C29_cols.

(** NormalizeRows does to every row what NormalizeArray does, whatever the
    numbers (binary64 included): so C29_array and C29_array_constant hold of the
    rows. *)
Definition row {N : Num} (X : Mat N) (r : nat) : list N := map (fun c => mval X r c) (seq 0 (mcols X)).

Lemma normalize_array_ok : forall (N : Num) (v : list N), exists r, NormalizeArray v = Ok r /\ length r = length v.
Proof.
  intros N v.
  assert (G : forall (S : Type) (f : N -> S -> S) s, exists s', for_loop 0 (length v) (fun i s => do x <- getn v i; Ok (f x s)) s = Ok s').
  { intros S f s. destruct (for_loop_inv _ (fun _ _ => True) (fun i s => do x <- getn v i; Ok (f x s)) (length v) 0 s I) as (s' & E & _); [|eauto].
    intros i s0 Hi _. unfold getn. destruct (nth_error v i) as [x|] eqn:Ex; [cbn; eauto|]. apply nth_error_None in Ex. lia. }
  assert (GM : exists mu, Mean v = Ok mu).
  { unfold Mean. destruct (G N (fun x mu => mu + x)%num n0) as (s & ->). cbn [bind]. eauto. }
  destruct GM as (mu & Em). unfold NormalizeArray. rewrite Em. cbn [bind].
  assert (GS : exists sd, Std v = Ok sd).
  { unfold Std. destruct (length v <=? 1)%nat; [eauto|]. rewrite Em. cbn [bind].
    destruct (G N (fun x s => s + (x - mu) * (x - mu))%num n0) as (s & ->). cbn [bind]. eauto. }
  destruct GS as (sd & ->). cbn [bind]. rewrite for_loop_map. eexists. split; [reflexivity|]. apply map_length.
Qed.

Theorem C29_rows : forall (N : Num) (X : Mat N),
  exists X', NormalizeRows X = Ok X' /\ mrows X' = mrows X /\ mcols X' = mcols X /\
    forall i, (i < mrows X)%nat -> NormalizeArray (row X i) = Ok (row X' i).
Proof.
  intros N X. unfold NormalizeRows.
  pose (P := fun k (Y : Mat N) => mrows Y = mrows X /\ mcols Y = mcols X /\
    forall i, (i < mrows X)%nat -> if (i <? k)%nat then NormalizeArray (row X i) = Ok (row Y i) else row Y i = row X i).
  destruct (for_loop_inv _ P (fun i X => do r <- NormalizeArray (map (mval X i) (seq 0 (mcols X)));
    for_loop 0 (mcols X) (fun j X => do v <- getn r j; mat_set X i j v) X) (mrows X) 0 X) as (X' & E & R & C & V).
  - split; [reflexivity|]. split; [reflexivity|]. intros i _. destruct (Nat.ltb_spec i 0); [lia|reflexivity].
  - intros i Y Hi (R & C & V).
    assert (Ei : row Y i = row X i) by (specialize (V i ltac:(lia)); destruct (Nat.ltb_spec i i); [lia|exact V]).
    destruct (normalize_array_ok N (row X i)) as (r & Er & Lr). unfold row in Lr. rewrite map_length, seq_length in Lr.
    change (map (mval Y i) (seq 0 (mcols Y))) with (row Y i). rewrite Ei, Er. cbn [bind].
    pose (Q := fun k (Z : Mat N) => mrows Z = mrows X /\ mcols Z = mcols X /\
      forall a b, (a < mrows X)%nat -> (b < mcols X)%nat -> mval Z a b = if (a =? i)%nat && (b <? k)%nat then nth b r n0 else mval Y a b).
    destruct (for_loop_inv _ Q (fun j X => do v <- getn r j; mat_set X i j v) (mcols Y) 0 Y) as (Z & EZ & RZ & CZ & VZ).
    + split; [exact R|]. split; [exact C|]. intros a b _ _. destruct (Nat.ltb_spec b 0); [lia|]. rewrite andb_false_r. reflexivity.
    + intros j Z Hj (RZ & CZ & VZ). unfold getn. rewrite (nth_error_nth' r n0) by lia. cbn [bind].
      rewrite mat_set_in by lia. eexists. split; [reflexivity|]. split; [exact RZ|]. split; [exact CZ|].
      intros a b Ha Hb. rewrite mat_upd_val, VZ by auto.
      destruct (Nat.eqb_spec a i); cbn [andb]; [|reflexivity].
      destruct (Nat.eqb_spec b j) as [->|]; [destruct (Nat.ltb_spec j (S j)); [reflexivity|lia]|].
      destruct (Nat.ltb_spec b j), (Nat.ltb_spec b (S j)); try reflexivity; lia.
    + exists Z. split; [exact EZ|]. split; [exact RZ|]. split; [exact CZ|]. intros a Ha. cbn [Nat.add] in VZ.
      assert (Ez : row Z a = if (a =? i)%nat then r else row Y a).
      { unfold row. rewrite CZ, C. destruct (Nat.eqb_spec a i) as [->|Hne].
        - apply (nth_ext _ _ n0 n0); [rewrite map_length, seq_length; lia|]. intros b Hb.
          rewrite map_length, seq_length in Hb. rewrite nth_map_seq by exact Hb.
          rewrite VZ, Nat.eqb_refl by lia. destruct (Nat.ltb_spec b (mcols Y)); [reflexivity|lia].
        - apply map_ext_in. intros b Hb. apply in_seq in Hb. rewrite VZ by lia.
          destruct (Nat.eqb_spec a i); [contradiction|]. reflexivity. }
      rewrite Ez. specialize (V a Ha). destruct (Nat.eqb_spec a i) as [->|Hne].
      * destruct (Nat.ltb_spec i (S i)); [exact Er|lia].
      * destruct (Nat.ltb_spec a i), (Nat.ltb_spec a (S i)); try lia; exact V.
  - exists X'. split; [exact E|]. split; [exact R|]. split; [exact C|]. intros i Hi. specialize (V i Hi).
    destruct (Nat.ltb_spec i (0 + mrows X)); [exact V|lia].
Qed.
Print Assumptions C29_rows.

Example C29_rows_example : exists X', NormalizeRows (mkMat 1 3 (fun _ j => fin (INR j))) = Ok X' /\
  row X' 0 = [XFin (-1); XFin 0; XFin 1].
Proof.
  destruct (C29_rows XR (mkMat 1 3 (fun _ j => fin (INR j)))) as (X' & E & _ & _ & H). exists X'. split; [exact E|].
  specialize (H 0%nat ltac:(cbn; lia)).
  assert (M : mean [INR 0; INR 1; INR 2] = 1%R) by (unfold mean; cbn; lra).
  assert (S : sdev [INR 0; INR 1; INR 2] = 1%R).
  { unfold sdev. rewrite M. replace (_ / _)%R with 1%R; [apply sqrt_1|]. cbn. unfold Rsqr. lra. }
  change (NormalizeArray (N := XR) (map XFin [INR 0; INR 1; INR 2]) = Ok (row X' 0)) in H.
  rewrite normalize_array_xr in H by (rewrite S; lra). rewrite M, S in H. cbn [map] in H. injection H as H. rewrite <- H.
  assert (forall a b : R, a = b -> fin a = fin b) as Q by (intros a b ->; reflexivity).
  rewrite (Q ((0 - 1) / 1)%R (-1)%R), (Q ((1 - 1) / 1)%R 0%R), (Q ((1 + 1 - 1) / 1)%R 1%R) by lra. reflexivity.
Qed.

(** The unit of the data does not matter: shifting and scaling by a positive
    number changes nothing, a negative factor changes the signs. *)
Theorem C29_units : forall l a b, (exists x y, In x l /\ In y l /\ x <> y) -> a <> 0%R ->
  exists l', NormalizeArray (N := XR) (map XFin l) = Ok (map XFin l') /\
    NormalizeArray (N := XR) (map XFin (map (fun x => a * x + b)%R l)) =
      Ok (map XFin (if Rlt_dec 0 a then l' else map Ropp l')).
Proof.
  intros l a b H Ha. assert (Hl : l <> []) by (intros ->; destruct H as (x & y & [] & _)).
  assert (Hs : (0 < sdev l)%R) by (apply sdev_pos_iff; auto).
  assert (Ea : sdev (map (fun x => a * x + b)%R l) = (Rabs a * sdev l)%R) by (apply sdev_affine; exact Hl).
  assert (Em : mean (map (fun x => a * x + b)%R l) = (a * mean l + b)%R) by (apply mean_affine; exact Hl).
  exists (map (fun x => (x - mean l) / sdev l)%R l). split; [apply normalize_array_xr; lra|].
  assert (Hp : (0 < Rabs a)%R) by (apply Rabs_pos_lt; exact Ha).
  rewrite normalize_array_xr by (rewrite Ea; nra). rewrite Ea, Em.
  apply (f_equal (fun z => Ok (map fin z))).
  destruct (Rlt_dec 0 a) as [P|P]; rewrite !map_map; apply map_ext; intro x.
  - rewrite Rabs_right by lra. field. lra.
  - rewrite Rabs_left by lra. field. lra.
Qed.
Print Assumptions C29_units.

Example C29_units_example : (exists x y, In x [1; 2; 4]%R /\ In y [1; 2; 4]%R /\ x <> y) /\ (-2 <> 0)%R.
Proof. split; [|lra]. exists 1%R, 2%R. cbn. split; [auto|]. split; [auto|]. lra. Qed.


(** NewNormalizedData.  "Constant" is decided with a tolerance: a standard
    deviation below 1e-10. *)
Theorem C29_normalized_data : forall (X : Mat XR) (cs : nat -> list R) (y : list R),
  (0 < mrows X)%nat -> (0 < mcols X)%nat ->
  (forall c, (c < mcols X)%nat -> col X c = map XFin (cs c)) ->
  (exists a b, In a y /\ In b y /\ a <> b) ->
  (forall c, (0 < c < mcols X)%nat -> (/ 10 ^ 10 <= sdev (cs c))%R) ->
  exists nd y', NewNormalizedData X (map XFin y) = Ok nd /\
    ndy nd = map XFin y' /\ length y' = length y /\ mean y' = 0%R /\ sdev y' = 1%R /\
    mrows (ndX nd) = mrows X /\ mcols (ndX nd) = mcols X /\
    (forall c, (c < mcols X)%nat -> exists l, col (ndX nd) c = map XFin l /\ mean l = 0%R /\
       ((/ 10 ^ 10 <= sdev (cs c))%R -> sdev l = 1%R) /\
       (sdev (cs c) = 0%R -> l = repeat 0%R (mrows X))) /\
    (ndHasBias nd = true <-> (sdev (cs 0%nat) < / 10 ^ 10)%R).
Proof.
  intros X cs y Hr Hc0 Hc Hy Hs. destruct (rmat_of_cols X cs Hc) as [HM HC].
  set (f := fun i j => nth i (cs j) 0%R) in *.
  assert (Hyn : y <> []) by (intros ->; destruct Hy as (a & b & [] & _)).
  assert (Hsy : (0 < sdev y)%R) by (apply sdev_pos_iff; auto).
  assert (Et : tol10 = (/ 10 ^ 10)%R).
  { unfold tol10. change (10 ^ 10)%Z with 10000000000%Z. field. }
  destruct (nnd_ok X f HM Hr y Hyn) as (X' & E & R1 & C1 & M1).
  { intros c Hcc. rewrite HC by lia. rewrite Et. auto. }
  eexists; exists (map (fun v => (v - mean y) / sdev y)%R y). split; [exact E|]. cbn [ndX ndy ndHasBias].
  split; [unfold ydone; rewrite Reqb_ne by lra; reflexivity|].
  split; [apply map_length|]. split; [apply normalized_mean; auto|]. split; [apply normalized_sdev; lra|].
  split; auto. split; auto. split.
  - intros c Hcc. exists (rcol (mrows X) (normed X f) c).
    split; [rewrite <- R1; apply col_of_rmat; auto; lia|].
    assert (Ec : rcol (mrows X) (normed X f) c =
       map (fun v => (v - mean (cs c)) / scale (mrows X) f c)%R (cs c)).
    { rewrite <- (HC c Hcc). unfold rcol at 1. unfold rcol at 2. rewrite map_map. reflexivity. }
    assert (Hne : cs c <> []) by (rewrite <- (HC c Hcc); apply rcol_ne; auto).
    rewrite Ec. split; [apply normalized_mean; auto|]. split.
    + intro Hge. unfold scale. rewrite (HC c Hcc). rewrite (proj2 (Rltb_false _ _)) by (rewrite Et; auto).
      apply normalized_sdev. pose proof tol10_pos. rewrite Et in *. lra.
    + intro H0. pose proof (proj1 (sdev_zero _ Hne) H0) as Hall.
      rewrite (map_ext_in _ (fun _ => 0%R)).
      * rewrite <- (rcol_length (mrows X) f c), (HC c Hcc). clear. induction (cs c); cbn; f_equal; auto.
      * intros x Hx. rewrite <- (Hall x Hx). unfold Rdiv. ring.
  - destruct (Nat.ltb_spec 0 (mcols X)); [|lia]. cbn [andb]. rewrite (HC O Hc0), Et. apply Rltb_true.
Qed.
Print Assumptions C29_normalized_data.

Theorem C29_constant_column_panics : forall (X : Mat XR) (cs : nat -> list R) (y : list R) c,
  (0 < mrows X)%nat -> (forall c, (c < mcols X)%nat -> col X c = map XFin (cs c)) -> y <> [] ->
  (0 < c < mcols X)%nat -> (sdev (cs c) < / 10 ^ 10)%R ->
  NewNormalizedData X (map XFin y) = Panic.
Proof.
  intros X cs y c Hr Hc Hy Hcc Hs. destruct (rmat_of_cols X cs Hc) as [HM HC].
  apply (nnd_panic X _ HM Hr y Hy). exists c. split; auto. rewrite HC by lia.
  replace tol10 with (/ 10 ^ 10)%R; auto. unfold tol10. change (10 ^ 10)%Z with 10000000000%Z. field.
Qed.
Print Assumptions C29_constant_column_panics.

(** A constant target is not caught: every target value becomes NaN. *)
Theorem C29_constant_target : forall (X : Mat XR) (cs : nat -> list R) (y : list R) a,
  (0 < mrows X)%nat -> (forall c, (c < mcols X)%nat -> col X c = map XFin (cs c)) -> y <> [] ->
  (forall v, In v y -> v = a) ->
  (forall c, (0 < c < mcols X)%nat -> (/ 10 ^ 10 <= sdev (cs c))%R) ->
  exists nd, NewNormalizedData X (map XFin y) = Ok nd /\ ndy nd = repeat XNaN (length y).
Proof.
  intros X cs y a Hr Hc Hy Ha Hs. destruct (rmat_of_cols X cs Hc) as [HM HC].
  assert (Hm : mean y = a).
  { unfold mean. rewrite (map_ext_in_lsum y a) by auto. pose proof (len_pos _ y Hy). field. lra. }
  assert (H0 : sdev y = 0%R) by (apply sdev_zero; auto; rewrite Hm; auto).
  destruct (nnd_ok X _ HM Hr y Hy) as (X' & E & _).
  { intros c Hcc. rewrite HC by lia. replace tol10 with (/ 10 ^ 10)%R; auto.
    unfold tol10. change (10 ^ 10)%Z with 10000000000%Z. field. }
  eexists. split; [exact E|]. cbn [ndy]. unfold ydone. rewrite H0, Reqb_refl. reflexivity.
Qed.
Print Assumptions C29_constant_target.

(** rows (1,1), (1,3): a bias column and a column of mean 2 *)
Definition ex29X : Mat XR := mkMat (N := XR) 2 2 (fun i j =>
  XFin (match i, j with 1%nat, 1%nat => 3 | _, _ => 1 end)).
Definition ex29cs (c : nat) : list R := match c with 1%nat => [1; 3]%R | _ => [1; 1]%R end.
Lemma ex29_cols : forall c, (c < mcols ex29X)%nat -> col ex29X c = map XFin (ex29cs c).
Proof. intros [|[|c]] H; [reflexivity|reflexivity|cbn in H; lia]. Qed.
Lemma ex29_sd : forall c, (0 < c < mcols ex29X)%nat -> (1 <= sdev (ex29cs c))%R.
Proof.
  intros [|[|c]] H; [lia| |cbn in H; lia]. unfold sdev, mean, lsum. simpl.
  rewrite <- sqrt_1 at 1. apply sqrt_le_1; lra.
Qed.
Lemma tiny_le : (/ 10 ^ 10 <= 1)%R.
Proof. rewrite <- Rinv_1. apply Rinv_le_contravar; [lra|]. simpl. lra. Qed.
Example C29_nonvacuous : exists nd y', NewNormalizedData ex29X (map XFin [0; 4]%R) = Ok nd /\
  ndHasBias nd = true /\ ndy nd = map XFin y' /\ mean y' = 0%R /\ sdev y' = 1%R.
Proof.
  destruct (C29_normalized_data ex29X ex29cs [0; 4]%R) as (nd & y' & E & Y & L & M1 & S1 & _ & _ & _ & B).
  - cbn; lia.
  - cbn; lia.
  - apply ex29_cols.
  - exists 0%R, 4%R. simpl. repeat split; auto; lra.
  - intros c Hc. pose proof (ex29_sd c Hc). pose proof tiny_le. lra.
  - exists nd, y'. repeat split; auto. apply B.
    replace (sdev (ex29cs 0)) with 0%R; [apply Rinv_0_lt_compat; simpl; lra|].
    symmetry. apply sdev_zero; [discriminate|]. intros x Hx.
    unfold mean, lsum. simpl in *. destruct Hx as [<-|[<-|[]]]; lra.
Qed.

(** ** C30.  [predict X r sel cs] is the value the sparse coefficients predict
    for row r. *)
Definition predict (x : nat -> nat -> R) (r : nat) (sel : list Z) (cs : list R) : R :=
  lsum (map (fun p => snd p * x r (Z.to_nat (fst p)))%R (combine sel cs)).

(** a node with finite coefficients that uses columns from number lo on (1
    when the first one is the constant bias column) *)
Definition good_node (lo : Z) (nc : nat) (nd : LassoLarsNode XR) (sel : list Z) (cs : list R) : Prop :=
  lnSelection nd = sel /\ lnCoeff nd = map XFin cs /\ length sel = length cs /\
  (forall v, In v sel -> lo <= v < Z.of_nat nc)%Z.

Lemma Path2_Forall2 : forall (N : Num) (d : NormalizedData N) P path,
  (forall n, In n path -> exists n', unnormalize_node d n = Ok n' /\ P n n') ->
  exists path', Path2Unnormalized d path = Ok path' /\ Forall2 P path path'.
Proof.
  induction path as [|n path IH]; intro H; [exists []; split; [reflexivity|constructor]|].
  destruct (H n (or_introl eq_refl)) as (n' & E & HP).
  destruct IH as (p' & E' & F); [intros m Hm; apply H; right; auto|].
  exists (n' :: p'). cbn [Path2Unnormalized]. rewrite E. cbn [bind]. rewrite E'. split; [reflexivity|].
  constructor; auto.
Qed.

Lemma dotsel_normed : forall X f r sel cs,
  (forall v, In v sel -> (tol10 <= sdev (rcol (mrows X) f (Z.to_nat v)))%R) ->
  predict (normed X f) r sel cs = normpred (mrows X) f r sel cs.
Proof.
  intros X f r sel cs H. unfold predict, normpred, dotsel. f_equal. apply map_ext_in.
  intros [v c] Hv. cbn [fst snd]. f_equal. unfold normed, scale. apply in_combine_l in Hv.
  rewrite (proj2 (Rltb_false _ _)) by (apply H; auto). reflexivity.
Qed.

(** With a first column equal to b in every row, the converted coefficients
    predict stdY*(prediction on the normalised data)+muY, except that the
    intercept is multiplied by b: exact iff the column is all ones. *)
Theorem C30_predictions : forall (X : Mat XR) (x : nat -> nat -> R) (y : list R) (path : list (LassoLarsNode XR)) b,
  (0 < mrows X)%nat -> (0 < mcols X)%nat -> y <> [] ->
  (forall i j, (i < mrows X)%nat -> (j < mcols X)%nat -> mval X i j = XFin (x i j)) ->
  (forall i, (i < mrows X)%nat -> x i O = b) ->
  (forall c, (0 < c < mcols X)%nat -> (/ 10 ^ 10 <= sdev (map (fun r => x r c) (seq 0 (mrows X))))%R) ->
  (forall n, In n path -> exists sel cs, good_node 1 (mcols X) n sel cs) ->
  exists nd z path', NewNormalizedData X (map XFin y) = Ok nd /\
    (forall i j, (i < mrows X)%nat -> (j < mcols X)%nat -> mval (ndX nd) i j = XFin (z i j)) /\
    Path2Unnormalized nd path = Ok path' /\
    Forall2 (fun n n' : LassoLarsNode XR => forall sel cs, good_node 1 (mcols X) n sel cs ->
      exists b0 cs', lnSelection n' = 0%Z :: sel /\ lnCoeff n' = map XFin (b0 :: cs') /\ lnLamb n' = lnLamb n /\ length cs' = length sel /\
        forall r, (r < mrows X)%nat ->
          predict x r (0%Z :: sel) (b0 :: cs') =
          (sdev y * predict z r sel cs + mean y + b0 * (b - 1))%R) path path'.
Proof.
  intros X x y path b Hr Hc Hy HX Hb Hs Hgood.
  assert (Et : tol10 = (/ 10 ^ 10)%R).
  { unfold tol10. change (10 ^ 10)%Z with 10000000000%Z. field. }
  destruct (nnd_ok X x HX Hr y Hy) as (X' & E & R1 & C1 & M1).
  { intros c Hcc. rewrite Et. apply Hs. auto. }
  assert (HB : ((0 <? mcols X)%nat && Rltb (sdev (rcol (mrows X) x 0)) tol10) = true).
  { destruct (Nat.ltb_spec 0 (mcols X)); [|lia]. apply Rltb_true.
    replace (sdev (rcol (mrows X) x 0)) with 0%R; [apply tol10_pos|]. symmetry.
    assert (Hall : forall v, In v (rcol (mrows X) x 0) -> v = b).
    { intros v Hv. unfold rcol in Hv. apply in_map_iff in Hv. destruct Hv as (i & <- & Hi). apply in_seq in Hi.
      apply Hb. lia. }
    assert (Hne := rcol_ne (mrows X) x 0 Hr).
    apply sdev_zero; auto. intros v Hv. rewrite (Hall v Hv). unfold mean.
    rewrite (map_ext_in_lsum _ b) by auto. pose proof (len_pos _ _ Hne). field. lra. }
  rewrite HB in E.
  match type of E with _ = Ok ?d => set (nd := d) in * end.
  destruct (Path2_Forall2 XR nd (fun n n' : LassoLarsNode XR => forall sel cs, good_node 1 (mcols X) n sel cs ->
      exists b0 cs', lnSelection n' = 0%Z :: sel /\ lnCoeff n' = map XFin (b0 :: cs') /\ lnLamb n' = lnLamb n /\ length cs' = length sel /\
        forall r, (r < mrows X)%nat ->
          predict x r (0%Z :: sel) (b0 :: cs') =
          (sdev y * predict (normed X x) r sel cs + mean y + b0 * (b - 1))%R) path) as (path' & EP & F).
  { intros n Hn. destruct (Hgood n Hn) as (sel & cs & Hs1 & Hs2 & Hl & Hv).
    assert (Hv' : forall v, In v sel -> (tol10 <= sdev (rcol (mrows X) x (Z.to_nat v)))%R).
    { intros v Hin. rewrite Et. apply Hs. specialize (Hv v Hin). lia. }
    assert (Hne : forall v, In v sel -> sdev (rcol (mrows X) x (Z.to_nat v)) <> 0%R).
    { intros v Hin. specialize (Hv' v Hin). pose proof tol10_pos. lra. }
    destruct (unnormalize_xr (mrows X) (mcols X) x nd y eq_refl eq_refl eq_refl eq_refl (lnLamb n) sel cs Hl)
      as (cs' & Hcs' & EU).
    { intros v Hin. split; [specialize (Hv v Hin); lia|]. split; [apply Hne; auto|].
      intros ->. specialize (Hv _ Hin). lia. }
    assert (En : mkLN (N := XR) (fins cs) (lnLamb n) sel = n) by (destruct n; cbn in *; subst; reflexivity).
    rewrite En in EU. eexists. split; [exact EU|].
    { intros sel2 cs2 (G1 & G2 & _ & _).
      assert (Hsel : sel2 = sel) by congruence. clear G1. subst sel2.
      assert (cs2 = cs).
      { rewrite Hs2 in G2. clear -G2. revert cs2 G2. induction cs as [|c cs IH]; intros [|d cs2] H; try discriminate; auto.
        injection H as H1 H2. f_equal; auto. }
      subst cs2. do 2 eexists. cbn [lnSelection lnCoeff lnLamb ndHasBias].
      split; [reflexivity|]. split; [reflexivity|]. split; [reflexivity|].
      split; [rewrite Hcs', map_length, combine_length, <- Hl; apply Nat.min_id|].
      intros r Hrr. unfold predict at 1. cbn [combine map fst snd]. rewrite lsum_cons.
      change (lsum (map (fun p => snd p * x r (Z.to_nat (fst p)))%R (combine sel cs'))) with (dotsel x r sel cs').
      rewrite Hcs', (pred_split (mrows X) x y sel cs r Hl Hne). rewrite dotsel_normed by auto.
      change (Z.to_nat 0) with O. rewrite (Hb r Hrr). ring. } }
  exists nd, (normed X x), path'. split; [exact E|]. split; [intros i j Hi Hj; apply M1; cbn [ndX nd] in *; lia|].
  split; [exact EP|exact F].
Qed.
Print Assumptions C30_predictions.

(** Without a bias column the intercept is dropped: all predictions are off by
    the same constant. *)
Theorem C30_no_bias_column : forall (X : Mat XR) (x : nat -> nat -> R) (y : list R) (path : list (LassoLarsNode XR)),
  (0 < mrows X)%nat -> (0 < mcols X)%nat -> y <> [] ->
  (forall i j, (i < mrows X)%nat -> (j < mcols X)%nat -> mval X i j = XFin (x i j)) ->
  (forall c, (c < mcols X)%nat -> (/ 10 ^ 10 <= sdev (map (fun r => x r c) (seq 0 (mrows X))))%R) ->
  (forall n, In n path -> exists sel cs, good_node 0 (mcols X) n sel cs) ->
  exists nd z path', NewNormalizedData X (map XFin y) = Ok nd /\
    (forall i j, (i < mrows X)%nat -> (j < mcols X)%nat -> mval (ndX nd) i j = XFin (z i j)) /\
    Path2Unnormalized nd path = Ok path' /\
    Forall2 (fun n n' : LassoLarsNode XR => forall sel cs, good_node 0 (mcols X) n sel cs ->
      exists cs', lnSelection n' = sel /\ lnCoeff n' = map XFin cs' /\ lnLamb n' = lnLamb n /\ length cs' = length sel /\
        forall r, (r < mrows X)%nat ->
          predict x r sel cs' =
          (sdev y * predict z r sel cs + mean y
           - (mean y - lsum (map (fun p => snd p * mean (map (fun r => x r (Z.to_nat (fst p))) (seq 0 (mrows X))))
                                 (combine sel cs'))))%R) path path'.
Proof.
  intros X x y path Hr Hc Hy HX Hs Hgood.
  assert (Et : tol10 = (/ 10 ^ 10)%R).
  { unfold tol10. change (10 ^ 10)%Z with 10000000000%Z. field. }
  destruct (nnd_ok X x HX Hr y Hy) as (X' & E & R1 & C1 & M1).
  { intros c Hcc. rewrite Et. apply Hs. lia. }
  assert (HB : ((0 <? mcols X)%nat && Rltb (sdev (rcol (mrows X) x 0)) tol10) = false).
  { destruct (Nat.ltb_spec 0 (mcols X)); [|lia]. apply Rltb_false. rewrite Et. apply Hs. auto. }
  rewrite HB in E.
  match type of E with _ = Ok ?d => set (nd := d) in * end.
  destruct (Path2_Forall2 XR nd (fun n n' : LassoLarsNode XR => forall sel cs, good_node 0 (mcols X) n sel cs ->
      exists cs', lnSelection n' = sel /\ lnCoeff n' = map XFin cs' /\ lnLamb n' = lnLamb n /\ length cs' = length sel /\
        forall r, (r < mrows X)%nat ->
          predict x r sel cs' =
          (sdev y * predict (normed X x) r sel cs + mean y
           - (mean y - lsum (map (fun p => snd p * mean (map (fun r => x r (Z.to_nat (fst p))) (seq 0 (mrows X))))
                                 (combine sel cs'))))%R) path) as (path' & EP & F).
  { intros n Hn. destruct (Hgood n Hn) as (sel & cs & Hs1 & Hs2 & Hl & Hv).
    assert (Hv' : forall v, In v sel -> (tol10 <= sdev (rcol (mrows X) x (Z.to_nat v)))%R).
    { intros v Hin. rewrite Et. apply Hs. specialize (Hv v Hin). lia. }
    assert (Hne : forall v, In v sel -> sdev (rcol (mrows X) x (Z.to_nat v)) <> 0%R).
    { intros v Hin. specialize (Hv' v Hin). pose proof tol10_pos. lra. }
    destruct (unnormalize_xr (mrows X) (mcols X) x nd y eq_refl eq_refl eq_refl eq_refl (lnLamb n) sel cs Hl)
      as (cs' & Hcs' & EU).
    { intros v Hin. split; [specialize (Hv v Hin); lia|]. split; [apply Hne; auto|]. reflexivity. }
    assert (En : mkLN (N := XR) (fins cs) (lnLamb n) sel = n) by (destruct n; cbn in *; subst; reflexivity).
    rewrite En in EU. eexists. split; [exact EU|].
    { intros sel2 cs2 (G1 & G2 & _ & _).
      assert (Hsel : sel2 = sel) by congruence. clear G1. subst sel2.
      assert (cs2 = cs).
      { rewrite Hs2 in G2. clear -G2. revert cs2 G2. induction cs as [|c cs IH]; intros [|d cs2] H; try discriminate; auto.
        injection H as H1 H2. f_equal; auto. }
      subst cs2. eexists. cbn [lnSelection lnCoeff lnLamb ndHasBias].
      split; [reflexivity|]. split; [reflexivity|]. split; [reflexivity|].
      split; [rewrite Hcs', map_length, combine_length, <- Hl; apply Nat.min_id|].
      intros r Hrr.
      change (predict x r sel cs') with (dotsel x r sel cs'). rewrite dotsel_normed by auto.
      assert (Eshift : lsum (map (fun p => snd p * mean (map (fun r => x r (Z.to_nat (fst p))) (seq 0 (mrows X))))%R
          (combine sel cs')) = (sdev y * shift (mrows X) x sel cs)%R).
      { rewrite Hcs'. unfold shift. clear -Hl Hne. revert cs Hl.
        induction sel as [|v sel IH]; intros [|c cs] Hl; try discriminate; cbn [combine map fst snd].
        - rewrite !lsum_nil. ring.
        - rewrite !lsum_cons, IH; [|intros w Hw; apply Hne; right; auto|simpl in Hl; lia].
          specialize (Hne v (or_introl eq_refl)). unfold rcol in *. field. auto. }
      rewrite Eshift, Hcs', (pred_split (mrows X) x y sel cs r Hl Hne). ring. } }
  exists nd, (normed X x), path'. split; [exact E|]. split; [intros i j Hi Hj; apply M1; cbn [ndX nd] in *; lia|].
  split; [exact EP|exact F].
Qed.
Print Assumptions C30_no_bias_column.

Lemma bind_not_fuel : forall {A B} (e : res A) (f : A -> res B), e <> Fuel -> (forall x, f x <> Fuel) -> bind e f <> Fuel.
Proof. intros A B [x| |] f H1 H2; cbn; [apply H2|discriminate|contradiction]. Qed.
Lemma for_loop_not_fuel : forall {S} n a (f : nat -> S -> res S) s, (forall i s, f i s <> Fuel) -> for_loop a n f s <> Fuel.
Proof.
  intros S. induction n as [|n IH]; intros a f s H; cbn [for_loop]; [discriminate|].
  apply bind_not_fuel; [apply H|]. intro. apply IH. exact H.
Qed.
Lemma eachi_not_fuel : forall {A S} (l : list A) i (f : nat -> A -> S -> res S) s, (forall i x s, f i x s <> Fuel) -> for_eachi i l f s <> Fuel.
Proof.
  intros A S. induction l as [|x l IH]; intros i f s H; cbn [for_eachi]; [discriminate|].
  apply bind_not_fuel; [apply H|]. intro. apply IH. exact H.
Qed.
Lemma getz_not_fuel : forall {A} (l : list A) i, getz l i <> Fuel.
Proof. intros A l i. unfold getz, getn. destruct (_ <? _)%Z; [discriminate|]. destruct (nth_error _ _); discriminate. Qed.
Lemma getn_not_fuel : forall {A} (l : list A) i, getn l i <> Fuel.
Proof. intros A l i. unfold getn. destruct (nth_error _ _); discriminate. Qed.
Lemma setn_not_fuel : forall {A} (l : list A) i x, setn l i x <> Fuel.
Proof. intros A l i x. unfold setn. destruct (_ <? _)%nat; discriminate. Qed.
Ltac unnorm_nf := repeat first
  [ discriminate | apply getz_not_fuel | apply getn_not_fuel | apply setn_not_fuel
  | apply bind_not_fuel; [|intro] | apply for_loop_not_fuel; intros | apply eachi_not_fuel; intros
  | match goal with |- (if ?c then _ else _) <> Fuel => destruct c end ].

(** selecting the bias column itself panics *)
Theorem C30_bias_selected_panics : forall o (nd : NormalizedData (F64 o)) n,
  ndHasBias nd = true -> In 0%Z (lnSelection n) -> unnormalize_node nd n = Panic.
Proof.
  intros o nd n HB Hin.
  destruct (unnormalize_node nd n) as [n'| |] eqn:E; [exfalso|reflexivity|exfalso].
  - unfold unnormalize_node in E.
    apply bind_ok in E. destruct E as (b & _ & E). apply bind_ok in E. destruct E as (c & E & _).
    destruct (In_nth_error _ _ Hin) as (k & Hk). assert (Hlt : (k < length (lnSelection n))%nat) by (apply nth_error_Some; congruence).
    replace (length (lnSelection n)) with (k + S (length (lnSelection n) - S k))%nat in E by lia.
    rewrite for_loop_add in E. apply bind_ok in E. destruct E as (s & _ & E). cbn [for_loop plus] in E.
    apply bind_ok in E. destruct E as (s' & E & _). unfold getn at 1 in E. rewrite Hk in E. cbn [bind] in E.
    apply bind_ok in E. destruct E as (v & _ & E). unfold LinearNormalizationTransformation in E.
    rewrite HB in E. discriminate.
  - revert E. unfold unnormalize_node, LinearTransformationBias, LinearNormalizationTransformation. unnorm_nf.
Qed.
Print Assumptions C30_bias_selected_panics.

Example C30_nonvacuous : exists nd path', NewNormalizedData ex29X (map XFin [0; 4]%R) = Ok nd /\
  Path2Unnormalized nd [mkLN (N := XR) (map XFin [/2]%R) (XFin 1) [1%Z]] = Ok path' /\
  exists n' b0 c1, path' = [n'] /\ lnSelection n' = [0; 1]%Z /\ lnCoeff n' = map XFin [b0; c1].
Proof.
  destruct (C30_predictions ex29X (fun i j => match i, j with 1%nat, 1%nat => 3 | _, _ => 1 end)%R [0; 4]%R
     [mkLN (N := XR) (map XFin [/2]%R) (XFin 1) [1%Z]] 1%R) as (nd & z & p' & E & _ & EP & F).
  - cbn; lia.
  - cbn; lia.
  - discriminate.
  - intros; reflexivity.
  - intros [|[|i]] H; reflexivity.
  - intros c Hc. pose proof (ex29_sd c Hc). pose proof tiny_le.
    assert (Ec : map (fun r => match r, c with 1%nat, 1%nat => 3 | _, _ => 1 end)%R (seq 0 (mrows ex29X)) = ex29cs c).
    { destruct c as [|[|c]]; reflexivity. }
    rewrite Ec. lra.
  - intros n [<-|[]]. exists [1%Z], [/2]%R. repeat split; cbn; auto; destruct H as [<-|[]]; lia.
  - exists nd, p'. split; [exact E|]. split; [exact EP|].
    inversion F as [|? n' ? ? HP F2]; subst. inversion F2; subst.
    destruct (HP [1%Z] [/2]%R) as (b0 & cs' & H1 & H2 & _).
    { repeat split; cbn; auto; destruct H as [<-|[]]; lia. }
    exists n', b0. destruct cs' as [|c1 [|c2 cs']].
    + exfalso. assert (Hx := EP). cbn [Path2Unnormalized] in Hx. apply bind_ok in Hx. destruct Hx as (m & Hm & Hx).
      injection Hx as ->. unfold unnormalize_node in Hm. apply bind_ok in Hm. destruct Hm as (b1 & _ & Hm).
      apply bind_ok in Hm. destruct Hm as (co & Hco & Hm). cbn [length lnSelection for_loop] in Hco.
      apply bind_ok in Hco. destruct Hco as (co2 & Hco & Hx). injection Hx as ->.
      cbn [getn nth_error bind lnCoeff map] in Hco. apply bind_ok in Hco. destruct Hco as (c' & _ & Hco).
      cbn in Hco. injection Hco as <-.
      destruct (ndHasBias nd); injection Hm as <-; cbn in H1, H2; discriminate.
    + exists c1. auto.
    + exfalso. assert (Hx := EP). cbn [Path2Unnormalized] in Hx. apply bind_ok in Hx. destruct Hx as (m & Hm & Hx).
      injection Hx as ->. unfold unnormalize_node in Hm. apply bind_ok in Hm. destruct Hm as (b1 & _ & Hm).
      apply bind_ok in Hm. destruct Hm as (co & Hco & Hm). cbn [length lnSelection for_loop] in Hco.
      apply bind_ok in Hco. destruct Hco as (co2 & Hco & Hx). injection Hx as ->.
      cbn [getn nth_error bind lnCoeff map] in Hco. apply bind_ok in Hco. destruct Hco as (c' & _ & Hco).
      cbn in Hco. injection Hco as <-.
      destruct (ndHasBias nd); injection Hm as <-; cbn in H1, H2; discriminate.
Qed.

(** ** C45 *)
Definition chosen (s : list Z) (i : nat) : bool := if in_dec Z.eq_dec (Z.of_nat i) s then true else false.
(** observed agreement and agreement expected by chance among features 0..n-1 *)
Definition observed (s1 s2 : list Z) (n : nat) : R :=
  (INR (count n (fun i => Bool.eqb (chosen s1 i) (chosen s2 i))) / INR n)%R.
Definition share (s : list Z) (n : nat) : R := (INR (count n (chosen s)) / INR n)%R.
Definition expected (s1 s2 : list Z) (n : nat) : R :=
  (share s1 n * share s2 n + (1 - share s1 n) * (1 - share s2 n))%R.
Definition valid_sel (n : nat) (s : list Z) : Prop := NoDup s /\ forall v, In v s -> (0 <= v < Z.of_nat n)%Z.

Lemma chosen_sel : forall s i, chosen s i = sel s i.
Proof.
  intros s i. unfold chosen, sel. destruct (in_dec _ _ _) as [H|H]; symmetry.
  - apply ExistInt_In; auto.
  - apply ExistInt_false; auto.
Qed.

Lemma observed_po : forall s1 s2 n, observed s1 s2 n = po s1 s2 n.
Proof.
  intros s1 s2 n. unfold observed, po. do 2 f_equal. unfold count.
  induction (seq 0 n) as [|i l IH]; auto. cbn [filter]. rewrite !chosen_sel.
  destruct (sel s1 i), (sel s2 i); cbn [eqb andb negb length]; lia.
Qed.

Lemma expected_pe : forall s1 s2 n, expected s1 s2 n = pe s1 s2 n.
Proof.
  intros s1 s2 n. unfold expected, pe, share.
  rewrite (count_ext n (chosen s1) (sel s1)), (count_ext n (chosen s2) (sel s2)) by (intros; apply chosen_sel).
  reflexivity.
Qed.

Lemma nr_complete : forall n s, valid_sel n s -> count n (sel s) = length s.
Proof.
  intros n s [D I]. pose proof (count_sel s n (fun _ => true) D I) as H.
  assert (E : filter (fun _ : Z => true) s = s) by (clear; induction s; cbn; f_equal; auto).
  rewrite E in H. rewrite H. apply count_ext. intros. rewrite andb_true_r. reflexivity.
Qed.

Lemma pe_lt_1 : forall s1 s2 n, (0 < n)%nat -> valid_sel n s1 -> valid_sel n s2 ->
  ~ (s1 = [] /\ s2 = []) -> ~ (length s1 = n /\ length s2 = n) -> (pe s1 s2 n < 1)%R.
Proof.
  intros s1 s2 n Hn V1 V2 He Hc.
  pose proof (pe_1 s1 s2 n Hn) as P. pose proof (counts_total s1 s2 n) as T.
  pose proof (count_1 s1 s2 n) as K1. pose proof (count_2 s1 s2 n) as K2.
  rewrite (nr_complete n s1 V1) in K1. rewrite (nr_complete n s2 V2) in K2.
  set (a := count n (fun i => sel s1 i && sel s2 i)) in *.
  set (b := count n (fun i => sel s1 i && negb (sel s2 i))) in *.
  set (c := count n (fun i => sel s2 i && negb (sel s1 i))) in *.
  set (d := count n (fun i => negb (sel s1 i) && negb (sel s2 i))) in *.
  assert (Hp : (0 < (a + b) * (b + d) + (a + c) * (c + d))%nat).
  { assert (~ (length s1 = 0 /\ length s2 = 0)%nat).
    { intros [H1 H2]. apply length_zero_iff_nil in H1. apply length_zero_iff_nil in H2. auto. }
    nia. }
  apply lt_INR in Hp. rewrite plus_INR, !mult_INR, !plus_INR in Hp. change (INR 0) with 0%R in Hp.
  assert (Hn2 : (0 < INR n)%R) by (apply lt_0_INR; auto).
  assert (0 < 1 - pe s1 s2 n)%R; [|lra]. rewrite P. apply Rdiv_lt_0_compat; auto. nra.
Qed.

(** the textbook formula, whenever it is defined *)
Theorem C45_textbook : forall s1 s2 n, (0 < n)%nat -> valid_sel n s1 -> valid_sel n s2 ->
  ~ (s1 = [] /\ s2 = []) -> ~ (length s1 = n /\ length s2 = n) ->
  (expected s1 s2 n < 1)%R /\
  CohenKappa (N := XR) s1 s2 (Z.of_nat n) =
    XFin ((observed s1 s2 n - expected s1 s2 n) / (1 - expected s1 s2 n)).
Proof.
  intros s1 s2 n Hn V1 V2 He Hc. pose proof (pe_lt_1 s1 s2 n Hn V1 V2 He Hc) as P.
  rewrite expected_pe, observed_po. split; auto. destruct V1 as [D1 I1], V2 as [D2 I2].
  rewrite (kappa_counts s1 s2 n D1 D2 I1 I2 He), (kform_fin s1 s2 n Hn), n1_fin, !xsub_fin, xdiv_fin by lra.
  reflexivity.
Qed.
Print Assumptions C45_textbook.

Theorem C45_symmetric : forall s1 s2 n, (0 < n)%nat -> valid_sel n s1 -> valid_sel n s2 ->
  CohenKappa (N := XR) s1 s2 (Z.of_nat n) = CohenKappa (N := XR) s2 s1 (Z.of_nat n).
Proof.
  intros s1 s2 n Hn V1 V2.
  destruct s1 as [|v1 t1].
  { destruct s2 as [|v2 t2]; [reflexivity|].
    destruct (C45_textbook [] (v2 :: t2) n) as [_ E1]; auto; [intros [_ H]; discriminate|intros [H _]; simpl in H; lia|].
    destruct (C45_textbook (v2 :: t2) [] n) as [_ E2]; auto; [intros [H _]; discriminate|intros [_ H]; simpl in H; lia|].
    rewrite E1, E2. unfold observed, expected.
    rewrite (count_ext n (fun i => Bool.eqb (chosen [] i) (chosen (v2 :: t2) i))
       (fun i => Bool.eqb (chosen (v2 :: t2) i) (chosen [] i))).
    - f_equal. f_equal; ring.
    - intros i _. destruct (chosen [] i), (chosen (v2 :: t2) i); reflexivity. }
  set (s1 := v1 :: t1) in *.
  assert (He : ~ (s1 = [] /\ s2 = [])) by (intros [H _]; discriminate).
  assert (He' : ~ (s2 = [] /\ s1 = [])) by (intros [_ H]; discriminate).
  destruct V1 as [D1 I1], V2 as [D2 I2].
  rewrite (kappa_counts s1 s2 n D1 D2 I1 I2 He), (kappa_counts s2 s1 n D2 D1 I2 I1 He').
  rewrite (kform_fin s1 s2 n Hn), (kform_fin s2 s1 n Hn).
  rewrite <- !expected_pe, <- !observed_po.
  assert (EO : observed s1 s2 n = observed s2 s1 n).
  { unfold observed. do 2 f_equal. apply count_ext. intros i _.
    destruct (chosen s1 i), (chosen s2 i); reflexivity. }
  assert (EE : expected s1 s2 n = expected s2 s1 n) by (unfold expected; ring).
  rewrite EO, EE. reflexivity.
Qed.
Print Assumptions C45_symmetric.

Theorem C45_range : forall s1 s2 n, (0 < n)%nat -> valid_sel n s1 -> valid_sel n s2 ->
  ~ (length s1 = n /\ length s2 = n) ->
  exists k, CohenKappa (N := XR) s1 s2 (Z.of_nat n) = XFin k /\ (-1 <= k <= 1)%R.
Proof.
  intros s1 s2 n Hn V1 V2 Hc.
  destruct (list_eq_dec Z.eq_dec s1 []) as [E1|E1]; [destruct (list_eq_dec Z.eq_dec s2 []) as [E2|E2]|].
  { subst. exists 1%R. split; [reflexivity|lra]. }
  all: assert (He : ~ (s1 = [] /\ s2 = [])) by tauto.
  all: destruct (C45_textbook s1 s2 n Hn V1 V2 He Hc) as [P E]; rewrite E.
  all: eexists; split; [reflexivity|].
  all: assert (Hn2 : (0 < INR n)%R) by (apply lt_0_INR; auto).
  all: assert (G : (2 * expected s1 s2 n - 1 <= observed s1 s2 n <= 1)%R).
  1, 3: rewrite expected_pe, observed_po; unfold po; rewrite plus_INR;
    pose proof (c_tot s1 s2 n) as T; pose proof (pe_1 s1 s2 n Hn) as P1;
    set (a := INR (count n (fun i => sel s1 i && sel s2 i))) in *;
    set (b := INR (count n (fun i => sel s1 i && negb (sel s2 i)))) in *;
    set (c := INR (count n (fun i => sel s2 i && negb (sel s1 i)))) in *;
    set (d := INR (count n (fun i => negb (sel s1 i) && negb (sel s2 i)))) in *;
    assert (0 <= a /\ 0 <= b /\ 0 <= c /\ 0 <= d)%R as (Ha & Hb & Hcc & Hd) by (repeat split; apply pos_INR).
  1, 2: split.
  1, 3: assert (Ep : pe s1 s2 n = (1 - ((a + b) * (b + d) + (a + c) * (c + d)) / (INR n * INR n))%R) by lra;
     rewrite Ep; apply Rmult_le_reg_r with (INR n * INR n)%R; [nra|];
     replace ((a + d) / INR n * (INR n * INR n))%R with ((a + d) * INR n)%R by (field; lra);
     replace ((2 * (1 - ((a + b) * (b + d) + (a + c) * (c + d)) / (INR n * INR n)) - 1) * (INR n * INR n))%R
       with (INR n * INR n - 2 * ((a + b) * (b + d) + (a + c) * (c + d)))%R by (field; lra);
     rewrite <- T; pose proof (Rmult_le_pos _ _ Ha Hb); pose proof (Rmult_le_pos _ _ Hb Hd);
     pose proof (Rmult_le_pos _ _ Ha Hcc); pose proof (Rmult_le_pos _ _ Hcc Hd);
     pose proof (Rmult_le_pos _ _ Ha Hd); pose proof (Rle_0_sqr (b - c)); unfold Rsqr in *; lra.
  1, 2: apply Rmult_le_reg_r with (INR n); auto; unfold Rdiv; rewrite Rmult_assoc, Rinv_l by lra; lra.
  all: assert (0 < 1 - expected s1 s2 n)%R by lra.
  all: split; [apply Rmult_le_reg_r with (1 - expected s1 s2 n)%R|apply Rmult_le_reg_r with (1 - expected s1 s2 n)%R];
    auto; unfold Rdiv; rewrite Rmult_assoc, Rinv_l by lra; lra.
Qed.
Print Assumptions C45_range.

Theorem C45_equal_selections : forall s n, (0 < n)%nat -> valid_sel n s -> length s <> n ->
  CohenKappa (N := XR) s s (Z.of_nat n) = XFin 1.
Proof.
  intros s n Hn V Hl. destruct (list_eq_dec Z.eq_dec s []) as [->|Hne]; [reflexivity|].
  destruct (C45_textbook s s n Hn V V) as [P E]; [tauto|tauto|]. rewrite E. f_equal.
  assert (Ho : observed s s n = 1%R).
  { unfold observed. rewrite (count_ext n _ (fun _ => true)) by (intros; apply eqb_reflx).
    unfold count. assert (Ef : filter (fun _ : nat => true) (seq 0 n) = seq 0 n).
    { clear. induction (seq 0 n); cbn; f_equal; auto. }
    rewrite Ef, seq_length. apply Rinv_r. assert (0 < INR n)%R by (apply lt_0_INR; auto). lra. }
  rewrite Ho. apply Rinv_r. lra.
Qed.
Print Assumptions C45_equal_selections.

Theorem C45_corner_cases : forall n s1 s2, (0 < n)%nat ->
  CohenKappa (N := XR) [] [] (Z.of_nat n) = XFin 1 /\
  (valid_sel n s1 -> valid_sel n s2 -> length s1 = n -> length s2 = n ->
   CohenKappa (N := XR) s1 s2 (Z.of_nat n) = XNaN).
Proof.
  intros n s1 s2 Hn. split; [reflexivity|]. intros V1 V2 L1 L2.
  assert (He : ~ (s1 = [] /\ s2 = [])) by (intros [H _]; subst; simpl in Hn; lia).
  pose proof (nr_complete n s1 V1) as N1. pose proof (nr_complete n s2 V2) as N2. rewrite L1 in N1. rewrite L2 in N2.
  destruct V1 as [D1 I1], V2 as [D2 I2].
  rewrite (kappa_counts s1 s2 n D1 D2 I1 I2 He), (kform_fin s1 s2 n Hn).
  assert (Hn2 : (0 < INR n)%R) by (apply lt_0_INR; auto).
  assert (Epe : pe s1 s2 n = 1%R).
  { unfold pe. rewrite N1, N2. field. lra. }
  assert (Epo : po s1 s2 n = 1%R).
  { unfold po. pose proof (counts_total s1 s2 n) as T. pose proof (count_1 s1 s2 n) as K1.
    pose proof (count_2 s1 s2 n) as K2. rewrite N1 in K1. rewrite N2 in K2.
    replace (_ + _)%nat with n by lia. field. lra. }
  rewrite Epe, Epo, n1_fin, xsub_fin. replace (1 - 1)%R with 0%R by ring.
  cbn. unfold xdiv. rewrite Reqb_refl, !(proj2 (Rltb_false 0 0)) by lra. reflexivity.
Qed.
Print Assumptions C45_corner_cases.

Lemma valid_sel2 : forall a b, (0 <= a < 4)%Z -> (0 <= b < 4)%Z -> a <> b -> valid_sel 4 [a; b].
Proof.
  intros a b Ha Hb Hab. split.
  - constructor; [intros [H|[]]; auto|constructor; [intros []|constructor]].
  - intros v [<-|[<-|[]]]; simpl; lia.
Qed.

Example C45_nonvacuous : valid_sel 4 [0; 2]%Z /\ valid_sel 4 [2; 3]%Z /\
  CohenKappa (N := XR) [0; 2]%Z [2; 3]%Z 4 = XFin 0 /\ CohenKappa (N := XR) [0; 2]%Z [1; 3]%Z 4 = XFin (-1).
Proof.
  assert (V1 : valid_sel 4 [0; 2]%Z) by (apply valid_sel2; lia).
  assert (V2 : valid_sel 4 [2; 3]%Z) by (apply valid_sel2; lia).
  assert (V3 : valid_sel 4 [1; 3]%Z) by (apply valid_sel2; lia).
  split; auto. split; auto. split.
  - destruct (C45_textbook [0; 2]%Z [2; 3]%Z 4 ltac:(lia) V1 V2 ltac:(intros [H _]; discriminate) ltac:(simpl; lia)) as [_ E].
    change (Z.of_nat 4) with 4%Z in E. rewrite E. f_equal. unfold observed, expected, share.
    cbn [count chosen seq filter in_dec]. unfold count, chosen. simpl. field.
  - destruct (C45_textbook [0; 2]%Z [1; 3]%Z 4 ltac:(lia) V1 V3 ltac:(intros [H _]; discriminate) ltac:(simpl; lia)) as [_ E].
    change (Z.of_nat 4) with 4%Z in E. rewrite E. f_equal. unfold observed, expected, share.
    unfold count, chosen. simpl. field.
Qed.
