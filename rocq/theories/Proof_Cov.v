(** Proofs about the threshold operator, row splits and covariance matrices. *)
From Coq Require Import Reals Lra Permutation.
From Verif Require Import Base Num Mat RSum Proof_XR Proof_Util Proof_Norm Model_Fit Proof_Fit Model_Cov.

(** ** loops over all cells of a matrix *)
Definition cells (r c : nat) : list (nat * nat) := list_prod (seq 0 r) (seq 0 c).

Lemma for_each_map : forall A B S (f : A -> B) (body : B -> S -> res S) l s,
  for_each (map f l) body s = for_each l (fun a => body (f a)) s.
Proof. induction l as [|a l IH]; intro s; cbn; auto. destruct (body (f a) s); cbn; auto. Qed.

Lemma for_loop_each : forall S (body : nat -> S -> res S) n a s,
  for_loop a n body s = for_each (seq a n) body s.
Proof. induction n as [|n IH]; intros a s; cbn; auto. destruct (body a s); cbn; auto. Qed.

Lemma double_loop_gen : forall S (body : nat -> nat -> S -> res S) rows c s,
  for_each rows (fun i s => for_loop 0 c (fun j s => body i j s) s) s =
  for_each (list_prod rows (seq 0 c)) (fun p s => body (fst p) (snd p) s) s.
Proof.
  induction rows as [|a rows IH]; intros c s; cbn [list_prod for_each]; auto.
  rewrite for_each_app, for_each_map, for_loop_each. cbn [fst snd].
  destruct (for_each (seq 0 c) (fun j s => body a j s) s); cbn; auto.
Qed.

Lemma double_loop : forall S (body : nat -> nat -> S -> res S) r c s,
  for_loop 0 r (fun i s => for_loop 0 c (fun j s => body i j s) s) s =
  for_each (cells r c) (fun p s => body (fst p) (snd p) s) s.
Proof. intros. rewrite for_loop_each. apply double_loop_gen. Qed.

Lemma cells_in : forall r c i j, In (i, j) (cells r c) <-> (i < r)%nat /\ (j < c)%nat.
Proof. intros. unfold cells. rewrite in_prod_iff, !in_seq. lia. Qed.

Lemma NoDup_prod : forall A B (l : list A) (m : list B), NoDup l -> NoDup m -> NoDup (list_prod l m).
Proof.
  induction l as [|a l IH]; intros m Hl Hm; cbn; [constructor|]. inversion Hl; subst.
  assert (HM : NoDup (map (fun y => (a, y)) m)).
  { apply FinFun.Injective_map_NoDup; auto. intros x y E. congruence. }
  assert (G : forall x, In x (map (fun y => (a, y)) m) -> ~ In x (list_prod l m)).
  { intros (p, q) Hi Hj. apply in_map_iff in Hi. destruct Hi as (y & Ey & _). injection Ey as -> ->.
    apply in_prod_iff in Hj. tauto. }
  specialize (IH m H2 Hm). revert HM G. generalize (map (fun y => (a, y)) m).
  induction l0 as [|x l0 IH0]; intros HM G; cbn; auto. inversion HM; subst. constructor.
  - rewrite in_app_iff. intros [Hx|Hx]; [contradiction|]. apply (G x); auto. left; reflexivity.
  - apply IH0; auto. intros y Hy. apply G. right; auto.
Qed.

Lemma cells_nodup : forall r c, NoDup (cells r c).
Proof. intros. apply NoDup_prod; apply seq_NoDup. Qed.

Definition pair_eqb (p q : nat * nat) : bool := (fst p =? fst q)%nat && (snd p =? snd q)%nat.
Definition inb (p : nat * nat) (l : list (nat * nat)) : bool := existsb (pair_eqb p) l.
Lemma pair_eqb_spec : forall p q, pair_eqb p q = true <-> p = q.
Proof.
  intros [a b] [c d]. unfold pair_eqb. cbn. rewrite andb_true_iff, !Nat.eqb_eq. split; [intros [-> ->]; auto|].
  intro E; injection E as -> ->; auto.
Qed.
Lemma inb_spec : forall p l, inb p l = true <-> In p l.
Proof.
  intros p l. unfold inb. rewrite existsb_exists. split.
  - intros (x & Hx & E). apply pair_eqb_spec in E. subst; auto.
  - intro H. exists p. split; auto. apply pair_eqb_spec; auto.
Qed.

(** every cell is replaced, in any order without repetition, by a function of
    its own previous value *)
Lemma cell_loop : forall (N : Num) (g : nat -> nat -> N -> N) (r c : nat) l body (X : Mat N),
  NoDup l -> (forall p, In p l -> (fst p < r)%nat /\ (snd p < c)%nat) ->
  mrows X = r -> mcols X = c ->
  (forall i j (X : Mat N), (i < r)%nat -> (j < c)%nat -> mrows X = r -> mcols X = c -> In (i, j) l ->
     body (i, j) X = Ok (mat_upd X i j (g i j (mval X i j)))) ->
  exists X', for_each l body X = Ok X' /\ mrows X' = r /\ mcols X' = c /\
    forall i j, mval X' i j = if inb (i, j) l then g i j (mval X i j) else mval X i j.
Proof.
  induction l as [|[a b] l IH]; intros body X Hnd Hin Hr Hc Hb.
  - exists X. cbn. auto.
  - inversion Hnd; subst. cbn [for_each].
    destruct (Hin (a, b) (or_introl eq_refl)) as (Ha & Hb').
    rewrite Hb by (auto; left; reflexivity). cbn [bind].
    destruct (IH body (mat_upd X a b (g a b (mval X a b)))) as (X' & E & R & C & V); auto.
    + intros p Hp. apply Hin. right; auto.
    + intros i j Y Hi Hj Hr Hc Hp. apply Hb; auto. right; auto.
    + exists X'. split; auto. split; auto. split; auto. intros i j. rewrite V. cbn [mval mat_upd inb existsb].
      change (existsb (pair_eqb (i, j)) l) with (inb (i, j) l).
      destruct (pair_eqb (i, j) (a, b)) eqn:Ep; unfold pair_eqb in Ep; cbn [fst snd] in Ep; rewrite Ep; cbn [orb];
        destruct (inb (i, j) l) eqn:El; auto.
      * apply inb_spec in El. apply andb_true_iff in Ep. destruct Ep as (E1 & E2).
        apply Nat.eqb_eq in E1; apply Nat.eqb_eq in E2. subst. contradiction.
      * apply andb_true_iff in Ep. destruct Ep as (E1 & E2).
        apply Nat.eqb_eq in E1; apply Nat.eqb_eq in E2. subst. reflexivity.
Qed.

Lemma grid_map : forall (N : Num) (g : nat -> nat -> N -> N) (body : nat -> nat -> Mat N -> res (Mat N)) (X : Mat N),
  (forall i j (Y : Mat N), (i < mrows X)%nat -> (j < mcols X)%nat -> mrows Y = mrows X -> mcols Y = mcols X ->
     body i j Y = Ok (mat_upd Y i j (g i j (mval Y i j)))) ->
  exists X', for_loop 0 (mrows X) (fun i Y => for_loop 0 (mcols X) (fun j Y => body i j Y) Y) X = Ok X' /\
    mrows X' = mrows X /\ mcols X' = mcols X /\
    forall i j, (i < mrows X)%nat -> (j < mcols X)%nat -> mval X' i j = g i j (mval X i j).
Proof.
  intros N g body X H. rewrite double_loop.
  destruct (cell_loop N g (mrows X) (mcols X) (cells (mrows X) (mcols X))
    (fun p => body (fst p) (snd p)) X) as (X' & E & R & C & V); auto using cells_nodup.
  - intros [i j] Hp. apply cells_in in Hp. exact Hp.
  - exists X'. split; auto. split; auto. split; auto. intros i j Hi Hj. rewrite V.
    rewrite (proj2 (inb_spec _ _)); auto. apply cells_in. auto.
Qed.

(** ** Apply *)
Lemma apply_gen : forall (N : Num) (t : N) (r c : nat) l (X : Mat N) k,
  NoDup l -> (forall p, In p l -> (fst p < r)%nat /\ (snd p < c)%nat) -> mrows X = r -> mcols X = c ->
  exists X', for_each l (fun p (st : Mat N * Z) =>
      let '(X, numRemoved) := st in
      do v <- mat_at X (fst p) (snd p);
      if nltb (nabs v) t
      then do X <- mat_set X (fst p) (snd p) n0; Ok (X, (numRemoved + 1)%Z)
      else Ok (X, numRemoved)) (X, k) =
    Ok (X', (k + Z.of_nat (length (filter (fun p => nltb (nabs (mval X (fst p) (snd p))) t) l)))%Z) /\
    mrows X' = r /\ mcols X' = c /\
    forall i j, mval X' i j = if inb (i, j) l && nltb (nabs (mval X i j)) t then n0 else mval X i j.
Proof.
  induction l as [|[a b] l IH]; intros X k Hnd Hin Hr Hc.
  - exists X. cbn. rewrite Z.add_0_r. auto.
  - inversion Hnd; subst. destruct (Hin (a, b) (or_introl eq_refl)) as (Ha & Hb). cbn [fst snd] in Ha, Hb.
    cbn [for_each fst snd filter]. rewrite mat_at_in by auto. cbn [bind].
    assert (Hin' : forall p, In p l -> (fst p < mrows X)%nat /\ (snd p < mcols X)%nat)
      by (intros p Hp; apply Hin; right; auto).
    assert (Hne : forall i j, In (i, j) l -> (i =? a)%nat && (j =? b)%nat = false).
    { intros i j Hp. destruct (Nat.eqb_spec i a); auto. destruct (Nat.eqb_spec j b); auto. subst. contradiction. }
    destruct (nltb (nabs (mval X a b)) t) eqn:E.
    + rewrite mat_set_in by auto. cbn [bind].
      destruct (IH (mat_upd X a b n0) (k + 1)%Z) as (X' & EX & R & C & V); auto.
      exists X'. rewrite EX. split; [|split; auto; split; auto].
      * f_equal. f_equal. cbn [length]. rewrite Nat2Z.inj_succ.
        replace (filter (fun p => nltb (nabs (mval (mat_upd X a b n0) (fst p) (snd p))) t) l)
          with (filter (fun p => nltb (nabs (mval X (fst p) (snd p))) t) l); [lia|].
        apply filter_ext_in. intros [i j] Hp. cbn [mval mat_upd fst snd]. rewrite (Hne i j Hp). reflexivity.
      * intros i j. rewrite V. cbn [mval mat_upd inb existsb]. change (existsb (pair_eqb (i, j)) l) with (inb (i, j) l).
        unfold pair_eqb. cbn [fst snd].
        destruct ((i =? a)%nat && (j =? b)%nat) eqn:Ep; cbn [orb].
        -- apply andb_true_iff in Ep. destruct Ep as (E1 & E2). apply Nat.eqb_eq in E1; apply Nat.eqb_eq in E2. subst.
           rewrite E. destruct (inb (a, b) l) eqn:El; [apply inb_spec in El; contradiction|]. reflexivity.
        -- reflexivity.
    + destruct (IH X k) as (X' & EX & R & C & V); auto. exists X'. split; [exact EX|]. split; auto. split; auto.
      intros i j. rewrite V. cbn [inb existsb]. change (existsb (pair_eqb (i, j)) l) with (inb (i, j) l).
      unfold pair_eqb. cbn [fst snd].
      destruct ((i =? a)%nat && (j =? b)%nat) eqn:Ep; cbn [orb]; auto.
      apply andb_true_iff in Ep. destruct Ep as (E1 & E2). apply Nat.eqb_eq in E1; apply Nat.eqb_eq in E2. subst.
      rewrite E, Bool.andb_false_r. reflexivity.
Qed.

Lemma apply_spec : forall (N : Num) (t : N) (X : Mat N),
  exists X', Apply t X =
    Ok (X', Z.of_nat (length (filter (fun p => nltb (nabs (mval X (fst p) (snd p))) t) (cells (mrows X) (mcols X))))) /\
    mrows X' = mrows X /\ mcols X' = mcols X /\
    forall i j, (i < mrows X)%nat -> (j < mcols X)%nat ->
      mval X' i j = if nltb (nabs (mval X i j)) t then n0 else mval X i j.
Proof.
  intros N t X. unfold Apply. rewrite (double_loop _ (fun i j (st : Mat N * Z) => let '(X, numRemoved) := st in _)).
  destruct (apply_gen N t (mrows X) (mcols X) (cells (mrows X) (mcols X)) X 0%Z) as (X' & E & R & C & V);
    auto using cells_nodup.
  - intros [i j] Hp. apply cells_in in Hp. exact Hp.
  - exists X'. split; [exact E|]. split; auto. split; auto. intros i j Hi Hj. rewrite V.
    rewrite (proj2 (inb_spec _ _)); auto. apply cells_in. auto.
Qed.

(** ** Shuffle *)
Lemma shuffle_perm : forall A (rnd : nat -> nat) i (l : list A), (i < length l)%nat ->
  exists l', shuffle_from rnd i l = Ok l' /\ Permutation l l'.
Proof.
  induction i as [|i IH]; intros l H; cbn [shuffle_from]; [exists l; auto|].
  pose proof (Nat.mod_upper_bound (rnd (S i)) (S (S i)) ltac:(lia)) as Hj.
  set (j := (rnd (S i) mod S (S i))%nat) in *.
  destruct (nth_error l (S i)) as [a|] eqn:Ea; [|apply nth_error_None in Ea; lia].
  destruct (nth_error l j) as [b|] eqn:Eb; [|apply nth_error_None in Eb; lia].
  rewrite (proj2 (getn_ok _ _ _ _) Ea), (proj2 (getn_ok _ _ _ _) Eb). cbn [bind].
  rewrite setn_lt by lia. cbn [bind]. rewrite setn_lt by (rewrite upd_length; lia). cbn [bind].
  destruct (IH (upd (upd l (S i) b) j a)) as (l' & E & P); [rewrite !upd_length; lia|].
  exists l'. split; auto. eapply Permutation_trans; [|exact P].
  (* swapping two positions *)
  clear P E IH l'.
  assert (G : forall (l : list A) p q x y, nth_error l p = Some x -> nth_error l q = Some y ->
    Permutation l (upd (upd l p y) q x)).
  { clear. induction l as [|h l IH]; intros p q x y Hp Hq; [destruct p; discriminate|].
    destruct p as [|p], q as [|q]; cbn in *.
    - injection Hp as ->. constructor. apply Permutation_refl.
    - injection Hp as ->. assert (K : forall (l : list A) q y x, nth_error l q = Some y ->
        Permutation (x :: l) (y :: upd l q x)).
      { clear. induction l as [|h l IH]; intros q y x H; [destruct q; discriminate|].
        destruct q as [|q]; cbn in *; [injection H as ->; constructor|].
        eapply Permutation_trans; [apply perm_swap|]. eapply Permutation_trans; [|apply perm_swap].
        constructor. apply IH; auto. }
      apply K; auto.
    - injection Hq as ->. assert (K : forall (l : list A) q y x, nth_error l q = Some y ->
        Permutation (x :: l) (y :: upd l q x)).
      { clear. induction l as [|h l IH]; intros q y x H; [destruct q; discriminate|].
        destruct q as [|q]; cbn in *; [injection H as ->; constructor|].
        eapply Permutation_trans; [apply perm_swap|]. eapply Permutation_trans; [|apply perm_swap].
        constructor. apply IH; auto. }
      apply K; auto.
    - constructor. apply IH; auto. }
  apply G; auto.
Qed.

Lemma Shuffle_perm : forall A (rnd : nat -> nat) (l : list A), exists l', Shuffle rnd l = Ok l' /\ Permutation l l'.
Proof.
  intros A rnd [|a l]; [exists []; split; [reflexivity|constructor]|].
  unfold Shuffle. apply shuffle_perm. cbn. lia.
Qed.

(** ** RandomRowSplit *)
Lemma copy_rows : forall (N : Num) (X D : Mat N) (ix : nat -> nat) (r off : nat),
  mrows D = r -> mcols D = mcols X -> (forall i, (i < r)%nat -> (ix i < mrows X)%nat) ->
  exists D', for_loop off r (fun i D =>
      for_loop 0 (mcols X) (fun j D => do v <- mat_at X (ix (i - off)%nat) j; mat_set D (i - off) j v) D) D = Ok D' /\
    mrows D' = r /\ mcols D' = mcols X /\
    forall i j, (i < r)%nat -> (j < mcols X)%nat -> mval D' i j = mval X (ix i) j.
Proof.
  intros N X D ix r off Hr Hc Hix.
  assert (E : for_loop off r (fun i D =>
      for_loop 0 (mcols X) (fun j D => do v <- mat_at X (ix (i - off)%nat) j; mat_set D (i - off) j v) D) D =
    for_loop 0 r (fun i D =>
      for_loop 0 (mcols X) (fun j D => do v <- mat_at X (ix i) j; mat_set D i j v) D) D).
  { rewrite !for_loop_each. replace (seq off r) with (map (fun i => (off + i)%nat) (seq 0 r)).
    - rewrite for_each_map. clear. generalize (seq 0 r). induction l as [|a l IH] in D |- *; cbn; auto.
      replace (off + a - off)%nat with a by lia. destruct (for_loop _ _ _ D); cbn; auto.
    - clear. revert off. induction r as [|r IH] using nat_ind; intro off; auto.
      rewrite !seq_S, map_app, IH. reflexivity. }
  rewrite E. clear E. subst r. rewrite <- Hc.
  destruct (grid_map N (fun i j _ => mval X (ix i) j)
    (fun i j D => do v <- mat_at X (ix i) j; mat_set D i j v) D) as (D' & E & R & C & V).
  - intros i j Y Hi Hj HYr HYc. rewrite mat_at_in by (auto; lia). cbn [bind]. rewrite mat_set_in by lia. reflexivity.
  - exists D'. auto.
Qed.

Lemma split_spec : forall (N : Num) rnd (X : Mat N) (num : Z),
  (0 < num < Z.of_nat (mrows X))%Z -> (0 < mcols X)%nat ->
  exists M1 M2 ix, RandomRowSplit rnd X num = Ok (M1, M2) /\ Permutation (seq 0 (mrows X)) ix /\
    mrows M1 = Z.to_nat num /\ mrows M2 = (mrows X - Z.to_nat num)%nat /\
    mcols M1 = mcols X /\ mcols M2 = mcols X /\
    (forall i j, (i < mrows M1)%nat -> (j < mcols X)%nat -> mval M1 i j = mval X (nth i ix 0%nat) j) /\
    (forall i j, (i < mrows M2)%nat -> (j < mcols X)%nat ->
       mval M2 i j = mval X (nth (Z.to_nat num + i) ix 0%nat) j).
Proof.
  intros N rnd X num Hn Hc. unfold RandomRowSplit, new_densez.
  destruct (Z.leb_spec num 0); [lia|]. destruct (Z.leb_spec (Z.of_nat (mcols X)) 0); [lia|].
  destruct (Z.leb_spec (Z.of_nat (mrows X) - num) 0); [lia|]. cbn [orb bind]. rewrite !Nat2Z.id.
  rewrite (for_loop_fill0 _ (fun i => i)) by apply repeat_length. cbn [bind]. rewrite map_id.
  destruct (Shuffle_perm nat rnd (seq 0 (mrows X))) as (ix & E & P). rewrite E. cbn [bind].
  assert (Lix : length ix = mrows X) by (rewrite <- (Permutation_length P), seq_length; auto).
  assert (Bix : forall k, (k < mrows X)%nat -> (nth k ix 0 < mrows X)%nat).
  { intros k Hk. assert (HI : In (nth k ix 0%nat) ix) by (apply nth_In; lia).
    eapply Permutation_in in HI; [|apply Permutation_sym; exact P]. apply in_seq in HI. lia. }
  set (n := Z.to_nat num) in *. set (n2 := Z.to_nat (Z.of_nat (mrows X) - num)).
  assert (Hn2 : n2 = (mrows X - n)%nat) by (unfold n2, n; lia).
  destruct (copy_rows N X (mkMat n (mcols X) (fun _ _ => n0)) (fun i => nth i ix 0%nat) n 0 eq_refl eq_refl)
    as (M1 & E1 & R1 & C1 & V1); [intros; apply Bix; unfold n in *; lia|].
  destruct (copy_rows N X (mkMat n2 (mcols X) (fun _ _ => n0)) (fun i => nth (n + i) ix 0%nat) n2 n eq_refl eq_refl)
    as (M2 & E2 & R2 & C2 & V2); [intros; apply Bix; unfold n in *; lia|].
  exists M1, M2, ix.
  assert (E1' : for_loop 0 n (fun i mat1 => for_loop 0 (mcols X) (fun j mat1 =>
      do idx <- getn ix i; do v <- mat_at X idx j; mat_set mat1 i j v) mat1) (mkMat n (mcols X) (fun _ _ => n0)) = Ok M1).
  { rewrite <- E1. apply for_loop_ext. intros i s Hi. apply for_loop_ext. intros j s' Hj.
    rewrite (getn_lt _ ix i 0%nat) by (unfold n in *; lia). cbn [bind].
    replace (i - 0)%nat with i by lia. reflexivity. }
  assert (E2' : for_loop n (mrows X - n) (fun i mat2 => for_loop 0 (mcols X) (fun j mat2 =>
      do idx <- getn ix i; do v <- mat_at X idx j; mat_set mat2 (i - n) j v) mat2) (mkMat n2 (mcols X) (fun _ _ => n0)) = Ok M2).
  { rewrite <- E2, <- Hn2. apply for_loop_ext. intros i s Hi. apply for_loop_ext. intros j s' Hj.
    rewrite (getn_lt _ ix i 0%nat) by (unfold n in *; lia). cbn [bind].
    replace (n + (i - n))%nat with i by lia. reflexivity. }
  rewrite E1'. cbn [bind]. rewrite E2'. cbn [bind].
  split; [reflexivity|]. split; auto. split; auto. split; [lia|]. split; auto. split; auto.
  split; intros i j Hi Hj; [apply V1|apply V2]; lia.
Qed.

Lemma split_panics : forall (N : Num) rnd (X : Mat N) (num : Z),
  ~ (0 < num < Z.of_nat (mrows X))%Z \/ mcols X = 0%nat -> RandomRowSplit rnd X num = Panic.
Proof.
  intros N rnd X num H. unfold RandomRowSplit, new_densez.
  destruct (Z.leb_spec num 0); [reflexivity|]. destruct (Z.leb_spec (Z.of_nat (mcols X)) 0); [reflexivity|].
  destruct (Z.leb_spec (Z.of_nat (mrows X) - num) 0); [reflexivity|]. lia.
Qed.

(** ** Covariance matrices *)
Open Scope R_scope.

(** column mean *)
Definition cmean (n : nat) (A : nat -> nat -> R) (j : nat) : R := rsum n (fun i => A i j) / INR n.

Lemma mu_loop : forall X A, rmat X A -> (0 < mrows X)%nat ->
  for_loop 0 (mrows X) (fun i mu => for_loop 0 (mcols X) (fun j mu =>
      do m <- getn mu j; do v <- mat_at X i j; setn mu j (m + v / nofnat (mrows X))%num) mu) (repeat n0 (mcols X)) =
  Ok (fins (map (cmean (mrows X) A) (seq 0 (mcols X)))).
Proof.
  intros X A HA Hr.
  assert (Hn : INR (mrows X) <> 0) by (apply not_0_INR; lia).
  assert (Hin : forall i (f : nat -> R), (i < mrows X)%nat ->
    for_loop 0 (mcols X) (fun j mu => do m <- getn mu j; do v <- mat_at X i j; setn mu j (m + v / nofnat (mrows X))%num)
      (fins (map f (seq 0 (mcols X)))) =
    Ok (fins (map (fun j => f j + A i j / INR (mrows X)) (seq 0 (mcols X))))).
  { intros i f Hi. transitivity (for_loop 0 (mcols X) (fun j mu => do m <- getn mu j;
      setn mu j ((fun j m => nadd (n := XR) m (fin (A i j / INR (mrows X)))) j m)) (fins (map f (seq 0 (mcols X))))).
    - apply for_loop_ext. intros j s Hj. destruct (getn s j); cbn [bind]; auto.
      rewrite mat_at_in by lia. cbn [bind]. rewrite (HA i j) by lia. rewrite nofnat_fin, xdiv_fin by auto. reflexivity.
    - rewrite for_loop_map_upd by (rewrite fins_length, map_length, seq_length; lia).
      cbn [firstn skipn app]. f_equal.
      rewrite skipn_all2, app_nil_r by (rewrite fins_length, map_length, seq_length; lia).
      rewrite firstn_all2 by (rewrite fins_length, map_length, seq_length; lia).
      unfold fins. rewrite !map_map.
      assert (G : forall (l : list nat), map (fun p => nadd (n := XR) (snd p) (fin (A i (fst p) / INR (mrows X))))
        (combine l (map (fun x => fin (f x)) l)) = map (fun x => fin (f x + A i x / INR (mrows X))) l).
      { induction l as [|a l IH]; cbn [combine map]; auto. rewrite IH. reflexivity. }
      apply G. }
  assert (G : forall n, (n <= mrows X)%nat ->
    for_loop 0 n (fun i mu => for_loop 0 (mcols X) (fun j mu =>
      do m <- getn mu j; do v <- mat_at X i j; setn mu j (m + v / nofnat (mrows X))%num) mu) (repeat n0 (mcols X)) =
    Ok (fins (map (fun j => rsum n (fun i => A i j / INR (mrows X))) (seq 0 (mcols X))))).
  { induction n as [|n IH]; intro Hle.
    - cbn [for_loop rsum]. f_equal. clear. generalize 0%nat as k. induction (mcols X); intro k; cbn; auto.
      f_equal. apply IHn.
    - replace (S n) with (n + 1)%nat at 1 by lia. rewrite for_loop_add, IH by lia. cbn [bind for_loop].
      rewrite Nat.add_0_l, (Hin n) by lia. reflexivity. }
  rewrite (G (mrows X)) by lia. do 2 f_equal. apply map_ext_in. intros j _. unfold cmean, Rdiv.
  rewrite (rsum_scal_r _ (/ INR (mrows X)) (fun i => A i j)). reflexivity.
Qed.

Lemma empirical_xr : forall X A, rmat X A -> (0 < mrows X)%nat -> (0 < mcols X)%nat ->
  exists C, Empirical_Get X = Ok C /\ mrows C = mcols X /\ mcols C = mcols X /\
    rmat C (fun i j => rsum (mrows X) (fun k => A k i * A k j) / INR (mrows X)).
Proof.
  intros X A HA Hr Hc. unfold Empirical_Get, new_dense.
  destruct (Nat.eqb_spec (mcols X) 0) as [Hz|_]; [lia|]. cbn [orb bind].
  destruct (mat_mul_fin (mat_T X) X _ A (mat_T_fin X A HA) HA) as (C & -> & R1 & C1 & Q); [reflexivity|].
  cbn [bind]. eexists. split; [reflexivity|]. cbn [mat_scale mrows mcols]. split; [exact R1|]. split; [exact C1|].
  intros i j Hi Hj. cbn [mat_scale mrows mcols mval] in *. rewrite (Q i j) by auto.
  rewrite n1_fin, nofnat_fin, xdiv_fin by (apply not_0_INR; lia). rewrite xmul_fin. f_equal.
  unfold mm. cbn [mat_T mcols]. unfold Rdiv. ring.
Qed.

Lemma covariance_xr : forall X A, rmat X A -> (0 < mrows X)%nat -> (0 < mcols X)%nat ->
  exists C, CovarianceMatrix X = Ok C /\ mrows C = mcols X /\ mcols C = mcols X /\
    rmat C (fun i j => rsum (mrows X) (fun k => A k i * A k j) / INR (mrows X) -
                       cmean (mrows X) A i * cmean (mrows X) A j).
Proof.
  intros X A HA Hr Hc. destruct (empirical_xr X A HA Hr Hc) as (C & E & R1 & C1 & Q).
  unfold CovarianceMatrix. rewrite (mu_loop X A HA Hr). cbn [bind].
  unfold Empirical_Get in E. destruct (new_dense (mcols X) (mcols X)); try discriminate. cbn [bind] in *.
  destruct (mat_mul (mat_T X) X) as [CC| |]; try discriminate. cbn [bind] in *.
  assert (E' : mat_scale (n1 / nofnat (mrows X))%num CC = C) by congruence. rewrite E'. clear E E'.
  destruct (grid_map XR (fun i j c => nsub c (fin (cmean (mrows X) A i * cmean (mrows X) A j)))
    (fun i j cov => do c <- mat_at cov i j;
      do mi <- getn (fins (map (cmean (mrows X) A) (seq 0 (mcols X)))) i;
      do mj <- getn (fins (map (cmean (mrows X) A) (seq 0 (mcols X)))) j;
      mat_set cov i j (c - mi * mj)%num) C) as (C' & E & R2 & C2 & V).
  - intros i j Y Hi Hj HYr HYc. rewrite mat_at_in by lia. cbn [bind].
    rewrite !getn_fins by (rewrite map_length, seq_length; lia). cbn [bind].
    rewrite !nth_map_seq by lia. rewrite mat_set_in by lia. reflexivity.
  - rewrite R1, C1 in E. exists C'. split; [exact E|]. split; [congruence|]. split; [congruence|].
    intros i j Hi Hj. rewrite V by lia. rewrite (Q i j) by lia. reflexivity.
Qed.

Lemma cov_deviations : forall n A i j, (0 < n)%nat ->
  rsum n (fun k => A k i * A k j) / INR n - cmean n A i * cmean n A j =
  rsum n (fun k => (A k i - cmean n A i) * (A k j - cmean n A j)) / INR n.
Proof.
  intros n A i j Hn. assert (Hz : INR n <> 0) by (apply not_0_INR; lia).
  rewrite (rsum_ext n (fun k => (A k i - cmean n A i) * (A k j - cmean n A j))
    (fun k => A k i * A k j - (A k i * cmean n A j + cmean n A i * A k j - cmean n A i * cmean n A j)))
    by (intros; ring).
  rewrite rsum_minus, rsum_minus, rsum_plus, rsum_scal_r, rsum_scal, rsum_const.
  unfold cmean. field. auto.
Qed.

Lemma quad_form : forall n m (B : nat -> nat -> R) v,
  rsum m (fun i => rsum m (fun j => v i * (rsum n (fun k => B k i * B k j)) * v j)) =
  rsum n (fun k => Rsqr (rsum m (fun i => B k i * v i))).
Proof.
  intros n m B v.
  rewrite (rsum_ext m _ (fun i => rsum m (fun j => rsum n (fun k => (B k i * v i) * (B k j * v j))))).
  2:{ intros i _. apply rsum_ext. intros j _. rewrite <- rsum_scal, <- rsum_scal_r. apply rsum_ext. intros; ring. }
  rewrite (rsum_ext m _ (fun i => rsum n (fun k => rsum m (fun j => (B k i * v i) * (B k j * v j)))))
    by (intros; apply rsum_swap).
  rewrite rsum_swap. apply rsum_ext. intros k _.
  unfold Rsqr. rewrite <- rsum_scal_r. apply rsum_ext. intros i _. apply rsum_scal.
Qed.
