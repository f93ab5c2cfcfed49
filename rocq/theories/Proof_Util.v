(** Lemmas behind C40, C41, C42, C44, C53: helpers of util.go. *)
From Coq Require Import Sorting.Permutation Sorting.Sorted.
From Verif Require Import Base Num Mat Model_Node Model_Util.

(** ** Generic loop facts *)

(** [for_eachi] that writes cell [i] on round [i]. *)
Lemma for_eachi_fill : forall A B (f : nat -> A -> B) l (d r : list B),
  length r = length l ->
  for_eachi (length d) l (fun i v s => setn s i (f i v)) (d ++ r)
  = Ok (d ++ map (fun p => f (fst p) (snd p)) (combine (seq (length d) (length l)) l)).
Proof.
  induction l as [|v l IH]; intros d r H; simpl.
  - destruct r; simpl in *; [reflexivity|discriminate].
  - destruct r as [|y r]; simpl in H; [discriminate|].
    rewrite setn_lt by (rewrite app_length; simpl; lia). simpl.
    assert (E : upd (d ++ y :: r) (length d) (f (length d) v) = (d ++ [f (length d) v]) ++ r).
    { clear. generalize (f (length d) v). intro b.
      induction d as [|x d IH]; simpl; [reflexivity|rewrite IH; reflexivity]. }
    rewrite E.
    specialize (IH (d ++ [f (length d) v]) r). rewrite app_length in IH. simpl in IH.
    replace (length d + 1)%nat with (S (length d)) in IH by lia.
    rewrite IH by lia. rewrite <- app_assoc. reflexivity.
Qed.

Lemma for_loop_map_upd : forall A (f : nat -> A -> A) n k (l : list A),
  (k + n <= length l)%nat ->
  for_loop k n (fun i l => do x <- getn l i; setn l i (f i x)) l
  = Ok (firstn k l ++ map (fun p => f (fst p) (snd p)) (combine (seq k n) (firstn n (skipn k l)))
        ++ skipn (k + n) l).
Proof.
  induction n as [|n IH]; intros k l H; simpl.
  - rewrite Nat.add_0_r, firstn_skipn. reflexivity.
  - destruct (nth_error l k) as [x|] eqn:E; [|apply nth_error_None in E; lia].
    unfold getn; rewrite E; simpl. rewrite setn_lt by lia. simpl.
    rewrite IH by (rewrite upd_length; lia).
    destruct (nth_error_split l k E) as (l1 & l2 & -> & <-).
    assert (U : upd (l1 ++ x :: l2) (length l1) (f (length l1) x) = l1 ++ f (length l1) x :: l2).
    { clear. generalize (f (length l1) x). intro y.
      induction l1 as [|z l1 IH]; simpl; [reflexivity|rewrite IH; reflexivity]. }
    rewrite U.
    assert (F1 : forall y, firstn (S (length l1)) (l1 ++ y :: l2) = l1 ++ [y]).
    { intro y. rewrite firstn_app. replace (S (length l1) - length l1)%nat with 1%nat by lia.
      rewrite firstn_all2 by lia. reflexivity. }
    assert (F0 : forall y, firstn (length l1) (l1 ++ y :: l2) = l1).
    { intro y. rewrite firstn_app, Nat.sub_diag, firstn_all, app_nil_r. reflexivity. }
    assert (S1 : forall y m, skipn (length l1 + S m) (l1 ++ y :: l2) = skipn m l2).
    { intros y m. rewrite skipn_app, skipn_all2 by lia.
      replace (length l1 + S m - length l1)%nat with (S m) by lia. reflexivity. }
    assert (S0 : forall y, skipn (length l1) (l1 ++ y :: l2) = y :: l2).
    { intros y. rewrite skipn_app, skipn_all2, Nat.sub_diag by lia. reflexivity. }
    rewrite F1, F0, S0.
    replace (S (length l1)) with (length l1 + 1)%nat at 2 by lia. rewrite S1.
    replace (S (length l1) + n)%nat with (length l1 + S n)%nat by lia. rewrite !S1.
    cbn [skipn firstn map combine seq fst snd app]. rewrite <- app_assoc. reflexivity.
Qed.

(** A whole slice mapped in place. *)
Lemma for_loop_map : forall A (f : A -> A) (l : list A),
  for_loop 0 (length l) (fun i l => do x <- getn l i; setn l i (f x)) l = Ok (map f l).
Proof.
  intros A f l. rewrite (for_loop_map_upd A (fun _ => f)) by lia.
  simpl. rewrite firstn_all, skipn_all. rewrite app_nil_r. f_equal.
  assert (G : forall k m, length m = length l ->
     map (fun p => f (snd p)) (combine (seq k (length l)) m) = map f m).
  { generalize (length l). clear. intros n k m; revert n k.
    induction m as [|x m IH]; intros [|n] k H; simpl in *; try discriminate; auto.
    rewrite IH by lia. reflexivity. }
  apply G; reflexivity.
Qed.

(** Filling a fresh slice of the same length from the loop index. *)
Lemma for_loop_fill : forall A (f : nat -> A) n k (d r : list A),
  length d = k -> length r = n ->
  for_loop k n (fun i l => setn l i (f i)) (d ++ r) = Ok (d ++ map f (seq k n)).
Proof.
  induction n as [|n IH]; intros k d r Hd Hr; simpl.
  - destruct r; [reflexivity|discriminate].
  - destruct r as [|y r]; [discriminate|]. simpl in Hr.
    rewrite setn_lt by (rewrite app_length; simpl; lia). simpl.
    assert (E : upd (d ++ y :: r) k (f k) = (d ++ [f k]) ++ r).
    { clear -Hd. subst k. generalize (f (length d)). intro b.
      induction d as [|x d IH]; simpl; [reflexivity|rewrite IH; reflexivity]. }
    rewrite E, (IH (S k) (d ++ [f k]) r); try lia.
    + rewrite <- app_assoc. reflexivity.
    + rewrite app_length; simpl; lia.
Qed.

Lemma for_loop_fill0 : forall A (f : nat -> A) n (r : list A), length r = n ->
  for_loop 0 n (fun i l => setn l i (f i)) r = Ok (map f (seq 0 n)).
Proof. intros A f n r H. exact (for_loop_fill A f n 0 [] r eq_refl H). Qed.

(** ** C41: integer sets *)

Lemma ExistInt_In : forall l v, ExistInt l v = true <-> In v l.
Proof.
  induction l as [|x l IH]; intro v; unfold ExistInt; simpl; [split; [discriminate|tauto]|].
  fold (ExistInt l v). destruct (Z.eqb_spec x v); [subst; tauto|].
  rewrite IH. split; auto. intros [H|H]; [contradiction|auto].
Qed.

Lemma ExistInt_false : forall l v, ExistInt l v = false <-> ~ In v l.
Proof.
  intros l v. rewrite <- ExistInt_In. destruct (ExistInt l v); split; intro H; auto; try discriminate.
  exfalso; apply H; reflexivity.
Qed.

Lemma All_spec : forall l v, All l v = true <-> (forall x, In x l -> x = v).
Proof.
  induction l as [|x l IH]; intro v; unfold All; simpl; [tauto|].
  fold (All l v). destruct (Z.eqb_spec x v); simpl.
  - subst. rewrite IH. split; intros H y; [intros [->|Hy]; auto|intro; apply H; auto].
  - split; [discriminate|]. intro H; exfalso; apply n; apply H; auto.
Qed.

Lemma Sum_acc : forall l a, fold_left (fun s v => s + v)%Z l a = (a + fold_right Z.add 0 l)%Z.
Proof. induction l as [|x l IH]; intro a; simpl; [lia|]. rewrite IH; lia. Qed.

Lemma Sum_spec : forall l, Sum l = fold_right Z.add 0%Z l.
Proof. intro l; unfold Sum. rewrite Sum_acc. lia. Qed.

Lemma EqualInt_gen : forall a b i pre,
  length pre = i ->  length a = length b ->
  (fix go (i : nat) (l : list Z) : res bool :=
     match l with
     | [] => Ok true
     | x :: t => do y <- getn (pre ++ b) i; if negb (x =? y)%Z then Ok false else go (S i) t
     end) i a = Ok (if list_eq_dec Z.eq_dec a b then true else false).
Proof.
  induction a as [|x a IH]; intros b i pre Hi Hl.
  - destruct b; [reflexivity|discriminate].
  - destruct b as [|y b]; [discriminate|]. cbn [length] in Hl.
    assert (E : getn (pre ++ y :: b) i = Ok y).
    { apply getn_ok. rewrite nth_error_app2 by lia. subst i. rewrite Nat.sub_diag. reflexivity. }
    rewrite E; cbn [bind].
    destruct (Z.eqb_spec x y); cbn [negb].
    + subst y. specialize (IH b (S i) (pre ++ [x])). rewrite app_length in IH. simpl in IH.
      rewrite <- app_assoc in IH. simpl in IH. rewrite IH by lia.
      destruct (list_eq_dec Z.eq_dec a b), (list_eq_dec Z.eq_dec (x :: a) (x :: b)); congruence.
    + destruct (list_eq_dec Z.eq_dec (x :: a) (y :: b)); congruence.
Qed.

Lemma EqualInt_spec : forall a b,
  EqualInt a b = Ok (if list_eq_dec Z.eq_dec a b then true else false).
Proof.
  intros a b; unfold EqualInt. destruct (Nat.eqb_spec (length a) (length b)) as [H|H]; cbn [negb].
  - exact (EqualInt_gen a b 0 [] eq_refl H).
  - destruct (list_eq_dec Z.eq_dec a b); [subst; lia|reflexivity].
Qed.

Lemma UnionInt_spec : forall s2 s1,
  exists extra, UnionInt s1 s2 = s1 ++ extra /\
    (forall x, In x extra <-> In x s2 /\ ~ In x s1) /\
    NoDup extra.
Proof.
  induction s2 as [|v s2 IH]; intro s1; unfold UnionInt; simpl.
  - exists []. rewrite app_nil_r. split; auto. split; [simpl; tauto|constructor].
  - destruct (ExistInt s1 v) eqn:E; simpl.
    + apply ExistInt_In in E.
      destruct (IH s1) as (ex & H1 & H2 & H3). exists ex. split; [exact H1|]. split; auto.
      intro x; rewrite H2. split; [tauto|]. intros [[->|H] Hn]; tauto.
    + apply ExistInt_false in E.
      destruct (IH (s1 ++ [v])) as (ex & H1 & H2 & H3).
      exists (v :: ex). split; [unfold UnionInt in H1; rewrite H1, <- app_assoc; reflexivity|].
      split.
      * intro x; simpl; rewrite H2, in_app_iff; simpl.
        split; [intros [->|[? ?]]; tauto|]. intros [[->|?] ?]; auto.
        destruct (Z.eq_dec v x); [auto|right; split; [auto|intros [?|[?|[]]]; auto]].
      * constructor; auto. rewrite H2, in_app_iff; simpl. tauto.
Qed.

(** ** C40 *)

Lemma MaxInt_acc : forall l m,
  let r := fold_left (fun m v => if (m <? v)%Z then v else m) l m in
  (m <= r)%Z /\ (forall x, In x l -> x <= r)%Z /\ (r = m \/ In r l).
Proof.
  induction l as [|x l IH]; intros m r; simpl in r; subst r; [simpl; split; [lia|tauto]|].
  destruct (Z.ltb_spec m x) as [H|H].
  - destruct (IH x) as (H1 & H2 & H3). cbv zeta in *. simpl.
    repeat split; [lia| |intuition]. intros y [->|Hy]; [lia|auto].
  - destruct (IH m) as (H1 & H2 & H3). cbv zeta in *. simpl.
    repeat split; [lia| |intuition]. intros y [->|Hy]; [lia|auto].
Qed.

Lemma MinInt_acc : forall l m,
  let r := fold_left (fun m v => if (v <? m)%Z then v else m) l m in
  (r <= m)%Z /\ (forall x, In x l -> r <= x)%Z /\ (r = m \/ In r l).
Proof.
  induction l as [|x l IH]; intros m r; simpl in r; subst r; [simpl; split; [lia|tauto]|].
  destruct (Z.ltb_spec x m) as [H|H].
  - destruct (IH x) as (H1 & H2 & H3). cbv zeta in *. simpl.
    repeat split; [lia| |intuition]. intros y [->|Hy]; [lia|auto].
  - destruct (IH m) as (H1 & H2 & H3). cbv zeta in *. simpl.
    repeat split; [lia| |intuition]. intros y [->|Hy]; [lia|auto].
Qed.

Section Ord.
  Variable N : Num.
  Hypothesis L : OrdLaws N.

  Lemma MinFloat_acc : forall (l : list N) (m : N), nisnan m = false ->
    let r := fold_left (fun m v => if (v <? m)%num then v else m) l m in
    nisnan r = false /\ nltb m r = false /\ (forall x, In x l -> nltb x r = false) /\
    (r = m \/ In r l).
  Proof.
    induction l as [|x l IH]; intros m Hm; cbn [fold_left]; cbv zeta.
    - split; [auto|]. split; [apply (ol_irrefl L)|]. split; [intros ? []|auto].
    - destruct (nltb x m) eqn:E.
      + destruct (IH x) as (H0 & H1 & H2 & H3); [apply (ltb_nan L _ _ E)|]. cbv zeta in *.
        split; [auto|]. split.
        { apply (le_trans L _ x m); [apply (ltb_nan L _ _ E)|exact H1|apply (lt_le L); exact E]. }
        split; [intros y [->|Hy]; auto|]. simpl. destruct H3; auto.
      + destruct (IH m Hm) as (H0 & H1 & H2 & H3). cbv zeta in *.
        split; [auto|]. split; [auto|]. split; [|simpl; tauto].
        intros y [<-|Hy]; [|auto].
        exact (le_trans L _ m x Hm H1 E).
  Qed.

  (** one scan, shared by Argmin and Argmax: [lt v best] replaces *)
  Variable lt : N -> N -> bool.
  Hypothesis lt_irr : forall x, lt x x = false.
  Hypothesis lt_nt : forall x y z, nisnan y = false -> lt x y = false -> lt y z = false -> lt x z = false.
  Hypothesis lt_nan : forall x y, lt x y = true -> nisnan x = false /\ nisnan y = false.
  Hypothesis lt_tr : forall x y z, lt x y = true -> lt y z = true -> lt x z = true.

  (** [best k pre] : index [k] holds the first extremal entry of the list [pre] *)
  Definition first_best (k : nat) (l : list N) : Prop :=
    exists b, nth_error l k = Some b /\
      (forall x, In x l -> lt x b = false) /\
      (forall j x, (j < k)%nat -> nth_error l j = Some x -> lt b x = true).

  Lemma scan_step : forall l k (b v : N),
    nisnan b = false -> nisnan v = false ->
    nth_error l k = Some b ->
    (forall x, In x l -> nisnan x = false /\ lt x b = false) ->
    (forall j x, (j < k)%nat -> nth_error l j = Some x -> lt b x = true) ->
    let '(k', b') := if lt v b then (length l, v) else (k, b) in
    nisnan b' = false /\
    nth_error (l ++ [v]) k' = Some b' /\
    (forall x, In x (l ++ [v]) -> nisnan x = false /\ lt x b' = false) /\
    (forall j x, (j < k')%nat -> nth_error (l ++ [v]) j = Some x -> lt b' x = true).
  Proof.
    intros l k b v Hb Hv Hk Hall Hfirst. destruct (lt v b) eqn:E.
    - split; auto. split; [rewrite nth_error_app2, Nat.sub_diag by lia; reflexivity|].
      assert (G : forall x, In x l -> lt v x = true).
      { intros x Hx. destruct (Hall x Hx) as [Hn Hx'].
        destruct (lt v x) eqn:F; auto. rewrite (lt_nt v x b Hn F Hx') in E. discriminate E. }
      split.
      + intros x Hx. apply in_app_or in Hx. destruct Hx as [Hx|[<-|[]]]; [|split; auto].
        split; [apply Hall, Hx|]. destruct (lt x v) eqn:F; auto.
        rewrite <- (lt_irr x). symmetry. apply (lt_tr x v x F). apply G, Hx.
      + intros j x Hj Hx. rewrite nth_error_app1 in Hx by lia. apply G. eapply nth_error_In; eauto.
    - assert (Hlt : (k < length l)%nat) by (apply nth_error_Some; congruence).
      split; auto. split; [rewrite nth_error_app1 by lia; exact Hk|].
      split.
      + intros x Hx. apply in_app_or in Hx. destruct Hx as [Hx|[<-|[]]]; [apply Hall, Hx|auto].
      + intros j x Hj Hx. rewrite nth_error_app1 in Hx by lia. eauto.
  Qed.

  Lemma scan_all : forall l pre k (b : N),
    (forall x, In x l -> nisnan x = false) ->
    nisnan b = false ->
    nth_error pre k = Some b ->
    (forall x, In x pre -> nisnan x = false /\ lt x b = false) ->
    (forall j x, (j < k)%nat -> nth_error pre j = Some x -> lt b x = true) ->
    exists k' b', for_eachi (length pre) l
      (fun i v (st : nat * N) => Ok (if lt v (snd st) then (i, v) else st)) (k, b) = Ok (k', b') /\
      first_best k' (pre ++ l).
  Proof.
    induction l as [|v l IH]; intros pre k b Hl Hb Hk Hall Hfirst.
    - exists k, b. split; [reflexivity|]. exists b. rewrite app_nil_r. split; auto. split; auto.
      intros x Hx; apply Hall, Hx.
    - cbn [for_eachi bind snd].
      pose proof (scan_step pre k b v Hb (Hl v (or_introl eq_refl)) Hk Hall Hfirst) as S1.
      destruct (lt v b).
      + destruct S1 as (A & B & C & D).
        destruct (IH (pre ++ [v]) (length pre) v) as (k' & b' & E & F); auto.
        { intros; apply Hl; right; auto. }
        rewrite app_length, Nat.add_1_r in E. exists k', b'. split; [exact E|].
        rewrite <- app_assoc in F. exact F.
      + destruct S1 as (A & B & C & D).
        destruct (IH (pre ++ [v]) k b) as (k' & b' & E & F); auto.
        { intros; apply Hl; right; auto. }
        rewrite app_length, Nat.add_1_r in E. exists k', b'. split; [exact E|].
        rewrite <- app_assoc in F. exact F.
  Qed.

  Lemma scan_first : forall v0 l,
    (forall x, In x (v0 :: l) -> nisnan x = false) ->
    exists k b, for_eachi 0 (v0 :: l)
      (fun i v (st : nat * N) => Ok (if lt v (snd st) then (i, v) else st)) (O, v0) = Ok (k, b) /\
      first_best k (v0 :: l).
  Proof.
    intros v0 l H. cbn [for_eachi bind snd].
    assert (E : (if lt v0 v0 then (O, v0) else (O, v0)) = (O, v0)) by (destruct (lt v0 v0); reflexivity).
    rewrite E.
    destruct (scan_all l [v0] O v0) as (k & b & E' & F).
    - intros; apply H; right; auto.
    - apply H; left; auto.
    - reflexivity.
    - intros x [<-|[]]; split; [apply H; left; auto|apply lt_irr].
    - intros j x Hj; lia.
    - exists k, b. split; [exact E'|exact F].
  Qed.

  (** the first entry NaN: nothing ever replaces it *)
  Lemma scan_nan : forall l i k (b : N), nisnan b = true ->
    for_eachi i l (fun i v (st : nat * N) => Ok (if lt v (snd st) then (i, v) else st)) (k, b) = Ok (k, b).
  Proof.
    induction l as [|v l IH]; intros i k b Hb; [reflexivity|]. cbn [for_eachi bind snd].
    destruct (lt v b) eqn:E; [apply lt_nan in E; destruct E; congruence|]. apply IH; auto.
  Qed.
End Ord.

Arguments first_best {N} lt k l.

Lemma for_loop_as_eachi : forall A S (body : nat -> A -> S -> res S) l pre s,
  for_loop (length pre) (length l) (fun i s => do x <- getn (pre ++ l) i; body i x s) s
  = for_eachi (length pre) l body s.
Proof.
  induction l as [|v l IH]; intros pre s; [reflexivity|].
  cbn [for_loop for_eachi length].
  assert (E : getn (pre ++ v :: l) (length pre) = Ok v).
  { apply getn_ok. rewrite nth_error_app2, Nat.sub_diag by lia. reflexivity. }
  rewrite E; cbn [bind]. destruct (body (length pre) v s); cbn [bind]; auto.
  specialize (IH (pre ++ [v])). rewrite <- app_assoc in IH. simpl in IH.
  rewrite app_length, Nat.add_1_r in IH. apply IH.
Qed.

Lemma Argmin_spec : forall (N : Num) (L : OrdLaws N) (a : list N),
  a <> [] -> (forall x, In x a -> nisnan x = false) ->
  exists k, Argmin a = Ok k /\ first_best (fun x y => nltb x y) k a.
Proof.
  intros N L [|v0 l] Hne Hn; [contradiction|].
  unfold Argmin. cbn [getn nth_error bind].
  destruct (scan_first N (fun x y => nltb x y)) with (v0 := v0) (l := l) as (k & b & E & F); auto.
  - apply (ol_irrefl L).
  - intros x y z; apply (ol_negtrans L).
  - intros x y z; apply (ol_trans L).
  - exists k. split; [|exact F].
    change (getn (v0 :: l) 0) with (@Ok N v0). cbn [bind].
    rewrite E. reflexivity.
Qed.

Lemma Argmax_spec : forall (N : Num) (L : OrdLaws N) (a : list N),
  a <> [] -> (forall x, In x a -> nisnan x = false) ->
  exists k, Argmax a = Ok k /\ first_best (fun x y => nltb y x) k a.
Proof.
  intros N L [|v0 l] Hne Hn; [contradiction|].
  unfold Argmax. change (getn (v0 :: l) 0) with (@Ok N v0). cbn [bind].
  destruct (scan_first N (fun x y => nltb y x)) with (v0 := v0) (l := l) as (k & b & E & F); auto.
  - apply (ol_irrefl L).
  - intros x y z Hy H1 H2; apply (ol_negtrans L z y x Hy H2 H1).
  - intros x y z H1 H2; apply (ol_trans L z y x H2 H1).
  - exists k. split; [|exact F].
    pose proof (for_loop_as_eachi N (nat * N)
      (fun i x st => Ok (if nltb (snd st) x then (i, x) else st)) (v0 :: l) [] (O, v0)) as Q.
    cbn [app length] in Q. cbn [length]. rewrite Q. cbn [length] in *. rewrite E. reflexivity.
Qed.

Lemma Argmin_nan : forall (N : Num) (L : OrdLaws N) v0 (l : list N), nisnan v0 = true ->
  Argmin (v0 :: l) = Ok 0%nat.
Proof.
  intros N L v0 l H. unfold Argmin. change (getn (v0 :: l) 0) with (@Ok N v0). cbn [bind].
  rewrite (scan_nan N (fun x y => nltb x y)); auto. intros x y; apply (ltb_nan L).
Qed.

Lemma Argmax_nan : forall (N : Num) (L : OrdLaws N) v0 (l : list N), nisnan v0 = true ->
  Argmax (v0 :: l) = Ok 0%nat.
Proof.
  intros N L v0 l H. unfold Argmax. change (getn (v0 :: l) 0) with (@Ok N v0). cbn [bind].
  pose proof (for_loop_as_eachi N (nat * N)
      (fun i x st => Ok (if nltb (snd st) x then (i, x) else st)) (v0 :: l) [] (O, v0)) as Q.
  cbn [app length] in Q. cbn [length]. rewrite Q.
  rewrite (scan_nan N (fun x y => nltb y x)); auto.
  intros x y E. destruct (ltb_nan L _ _ E); auto.
Qed.

(** Argsort *)
Lemma argsort_pairs : forall (N : Num) (a : list N),
  for_eachi 0 a (fun i v s => setn s i (v, i)) (repeat (n0, O) (length a))
  = Ok (combine a (seq 0 (length a))).
Proof.
  intros N a.
  pose proof (for_eachi_fill N (N * nat) (fun i v => (v, i)) a [] (repeat (n0, O) (length a))) as Q.
  simpl in Q. rewrite Q by apply repeat_length. f_equal.
  clear Q. generalize 0%nat. induction a as [|x a IH]; intro k; simpl; auto. rewrite IH. reflexivity.
Qed.

Lemma combine_snd_seq : forall A (a : list A) k, map snd (combine a (seq k (length a))) = seq k (length a).
Proof. induction a as [|x a IH]; intro k; simpl; auto. rewrite IH; reflexivity. Qed.

Lemma in_combine_seq : forall A (a : list A) k x i, In (x, i) (combine a (seq k (length a))) ->
  (k <= i)%nat /\ nth_error a (i - k) = Some x.
Proof.
  induction a as [|y a IH]; intros k x i; simpl; [tauto|].
  intros [H|H].
  - inversion H; subst. rewrite Nat.sub_diag. auto.
  - destruct (IH (S k) x i H) as [H1 H2]. split; [lia|].
    replace (i - k)%nat with (S (i - S k)) by lia. exact H2.
Qed.

Lemma Argsort_spec : forall (N : Num) (L : OrdLaws N) srt (a : list N),
  sort_spec byValueLess srt ->
  exists r, Argsort srt a = Ok r /\ Permutation r (seq 0 (length a)) /\
    ((forall x, In x a -> nisnan x = false) ->
     forall d p q, (p < q < length a)%nat ->
       nltb (nth (nth q r O) a d) (nth (nth p r O) a d) = false).
Proof.
  intros N L srt a SS. unfold Argsort. rewrite argsort_pairs. cbn [bind].
  set (prs := combine a (seq 0 (length a))).
  assert (Lp : length prs = length a).
  { unfold prs. rewrite combine_length, seq_length. lia. }
  pose proof (ss_perm _ _ SS prs) as P.
  assert (Ls : length (srt prs) = length a) by (rewrite <- Lp; symmetry; apply Permutation_length, P).
  exists (map snd (srt prs)). split; [|split].
  - pose proof (for_eachi_fill (N * nat) nat (fun _ v => snd v) (srt prs) [] (repeat O (length a))) as Q.
    simpl in Q. rewrite Q by (rewrite repeat_length; auto). f_equal.
    rewrite Ls. clear Q SS P.
    assert (G : forall l k n, length l = n -> map (fun p : nat * (N * nat) => snd (snd p)) (combine (seq k n) l) = map snd l).
    { induction l as [|y l IH]; intros k [|n] Hn; simpl in *; try discriminate; auto.
      rewrite IH by lia; reflexivity. }
    apply G; auto.
  - rewrite <- (combine_snd_seq N a 0). fold prs. apply Permutation_sym, Permutation_map, P.
  - intros Hn d p q Hpq.
    assert (W : strict_weak byValueLess prs).
    { split.
      - intros x _. apply (ol_irrefl L).
      - intros [x i] [y j] [z k] _ Hy _. unfold byValueLess; simpl. intros H1 H2.
        eapply (ol_negtrans L); eauto. apply Hn. unfold prs in Hy. eapply in_combine_l; eauto. }
    pose proof (ss_sorted _ _ SS prs W) as S1.
    assert (V : forall m, (m < length a)%nat -> nth (nth m (map snd (srt prs)) O) a d = fst (nth m (srt prs) (d, O))).
    { intros m Hm. change O with (snd (d, O)) at 1. rewrite map_nth.
      destruct (nth m (srt prs) (d, O)) as [x i] eqn:E. simpl.
      assert (In (x, i) prs).
      { apply (Permutation_in _ (Permutation_sym P)). rewrite <- E. apply nth_In. lia. }
      apply in_combine_seq in H. destruct H as [_ H]. rewrite Nat.sub_0_r in H.
      apply nth_error_nth with (d := d) in H. exact H. }
    rewrite !V by lia.
    assert (G : forall l p q, StronglySorted (fun a b : N * nat => byValueLess b a = false) l ->
       (p < q < length l)%nat -> byValueLess (nth q l (d, O)) (nth p l (d, O)) = false).
    { clear. induction l as [|x l IH]; intros p q HS Hpq; simpl in Hpq; [lia|].
      inversion HS as [|? ? HS' HF]; subst.
      destruct q as [|q]; [lia|]. destruct p as [|p]; simpl.
      - rewrite Forall_forall in HF. apply HF, nth_In. lia.
      - apply IH; auto; lia. }
    exact (G (srt prs) p q S1 ltac:(lia)).
Qed.
