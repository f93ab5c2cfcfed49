(** Lemmas behind C43. *)
From Coq Require Import Permutation Reals Lra.
From Verif Require Import Base Num Mat Model_Util Proof_Util Proof_Product Proof_XR RSum Proof_Norm Model_Lazy.

Lemma firstn_S_nth_error : forall A (l : list A) a x, nth_error l a = Some x -> firstn (S a) l = firstn a l ++ [x].
Proof.
  induction l as [|y l IH]; intros [|a] x H; try discriminate H.
  - injection H as ->. reflexivity.
  - cbn [nth_error] in H. change (y :: firstn (S a) l = y :: (firstn a l ++ [x])). rewrite (IH a x H). reflexivity.
Qed.

Lemma NoDup_nth_error_firstn : forall A (l : list A) i x, NoDup l -> nth_error l i = Some x -> In x (firstn i l) -> False.
Proof.
  induction l as [|y l IH]; intros [|i] x ND H C; try discriminate H; [destruct C|].
  cbn [nth_error firstn In] in *. inversion ND as [|? ? N1 N2]; subst. destruct C as [->|C]; [|eauto].
  apply N1. eapply nth_error_In; exact H.
Qed.

(** *** the maps built by AddPowerSequence *)
Definition pos_part (cols : list Z) (pow : list Z) : gomap := filter (fun kv => (0 <? snd kv)%Z) (combine cols pow).

Lemma map_set_new : forall m k v, ~ In k (map fst m) -> map_set m k v = m ++ [(k, v)].
Proof.
  induction m as [|(k', v') m IH]; intros k v H; cbn [map_set app]; auto. cbn [map fst In] in H.
  destruct (Z.eqb_spec k' k) as [E|E]; [exfalso; auto|]. rewrite IH by auto. reflexivity.
Qed.

Lemma filter_keys : forall cols pow k, In k (map fst (pos_part cols pow)) -> In k cols.
Proof.
  intros cols pow k H. apply in_map_iff in H. destruct H as ((a, b) & E & H). apply filter_In in H. destruct H as (H & _).
  apply in_combine_l in H. cbn in E. subst. exact H.
Qed.

Lemma build_map : forall cols pow, NoDup cols -> length pow = length cols ->
  for_loop 0 (length cols) (fun i p =>
      do v <- getn pow i;
      if (0 <? v)%Z then do c <- getn cols i; Ok (map_set p c v) else Ok p) [] = Ok (pos_part cols pow).
Proof.
  intros cols pow ND Hl.
  assert (G : forall n a (p : gomap), a = (length cols - n)%nat -> (n <= length cols)%nat -> p = pos_part (firstn a cols) (firstn a pow) ->
    for_loop a n (fun i p =>
      do v <- getn pow i;
      if (0 <? v)%Z then do c <- getn cols i; Ok (map_set p c v) else Ok p) p = Ok (pos_part cols pow)).
  { induction n as [|n IH]; intros a p Ha Hn Hp; cbn [for_loop].
    - rewrite Hp. replace a with (length cols) by lia. rewrite firstn_all, <- Hl, firstn_all. reflexivity.
    - destruct (nth_error pow a) as [v|] eqn:Ev; [|apply nth_error_None in Ev; lia].
      destruct (nth_error cols a) as [c|] eqn:Ec; [|apply nth_error_None in Ec; lia].
      assert (Fp : firstn (S a) pow = firstn a pow ++ [v]).
      { apply firstn_S_nth_error. exact Ev. }
      assert (Fc : firstn (S a) cols = firstn a cols ++ [c]).
      { apply firstn_S_nth_error. exact Ec. }
      assert (Q : pos_part (firstn (S a) cols) (firstn (S a) pow) =
                  pos_part (firstn a cols) (firstn a pow) ++ (if (0 <? v)%Z then [(c, v)] else [])).
      { unfold pos_part. rewrite Fp, Fc, combine_app_eq by (rewrite !firstn_length; lia).
        rewrite filter_app. cbn [combine filter snd]. destruct (0 <? v)%Z; reflexivity. }
      unfold getn at 1. rewrite Ev. cbn [bind]. destruct (Z.ltb_spec 0 v) as [Hv|Hv].
      + unfold getn at 1. rewrite Ec. cbn [bind].
        assert (Hnin : ~ In c (map fst p)).
        { rewrite Hp. intro C. apply filter_keys in C.
          exact (NoDup_nth_error_firstn _ cols a c ND Ec C). }
        rewrite (map_set_new p c v Hnin). apply IH; [lia|lia|].
        rewrite Q, Hp. reflexivity.
      + cbn [bind]. apply IH; [lia|lia|]. rewrite Q, app_nil_r. exact Hp. }
  apply G; [lia|lia|reflexivity].
Qed.

Definition in_degree (d : Z) (t : list Z) : bool := negb ((Sum t <=? 1)%Z || (d <? Sum t)%Z).

Lemma add_sequence : forall (N : Num) grow (m : LazyPowerMatrix N) cols d rows, NoDup cols -> (-1 <= d)%Z ->
  IterProduct grow (map Z.of_nat (seq 0 (Z.to_nat (d + 1)))) (length cols) = Ok rows ->
  (forall t, In t rows -> length t = length cols) ->
  lzAddPowerSequence grow m cols d = Ok (mkLazy (lzX m) (lzPowers m ++ map (pos_part cols) (filter (in_degree d) rows))).
Proof.
  intros N grow m cols d rows ND Hd E Hr. unfold lzAddPowerSequence.
  destruct (Z.ltb_spec (d + 1) 0) as [C|C]; [lia|]. rewrite E. cbn [bind]. clear E C.
  revert m. induction rows as [|t rows IH]; intros m; cbn [for_each].
  - cbn [filter map]. rewrite app_nil_r. destruct m; reflexivity.
  - cbn [filter]. unfold in_degree at 1. destruct ((Sum t <=? 1)%Z || (d <? Sum t)%Z); cbn [negb bind].
    + apply IH. intros; apply Hr; simpl; auto.
    + rewrite (build_map cols t ND) by (apply Hr; simpl; auto). cbn [bind].
      rewrite IH by (intros; apply Hr; simpl; auto). cbn [lzAddPower lzX lzPowers map]. rewrite <- app_assoc. reflexivity.
Qed.

(** exponent of column k in a map *)
Definition mget (m : gomap) (k : Z) : Z :=
  match find (fun kv => (fst kv =? k)%Z) m with Some kv => snd kv | None => 0%Z end.

Lemma mget_pos_part : forall cols pow, NoDup cols -> length pow = length cols -> Forall (fun x => 0 <= x)%Z pow ->
  map (mget (pos_part cols pow)) cols = pow.
Proof.
  induction cols as [|c cols IH]; intros [|v pow] ND Hl F; try discriminate Hl; [reflexivity|].
  inversion ND as [|? ? N1 N2]; subst. inversion F as [|? ? F1 F2]; subst. cbn [map]. f_equal.
  - unfold pos_part. cbn [combine filter snd]. destruct (Z.ltb_spec 0 v) as [Hv|Hv].
    + unfold mget. cbn [find fst]. rewrite Z.eqb_refl. reflexivity.
    + fold (pos_part cols pow). unfold mget. destruct (find _ _) as [kv|] eqn:Ef; [|lia].
      exfalso. apply find_some in Ef. destruct Ef as (Ef & Ek). apply Z.eqb_eq in Ek. apply N1. rewrite <- Ek.
      apply (filter_keys cols pow). apply in_map. exact Ef.
  - rewrite <- (IH pow N2) at 2 by (simpl in Hl; auto). apply map_ext_in. intros k Hk. unfold pos_part. cbn [combine filter snd].
    destruct (0 <? v)%Z; [|reflexivity]. unfold mget. cbn [find fst]. destruct (Z.eqb_spec c k) as [->|E]; [contradiction|reflexivity].
Qed.

(** *** columns *)
Fixpoint prod_list (l : list R) : R := match l with [] => 1%R | x :: t => (x * prod_list t)%R end.
Lemma prod_perm : forall l l', Permutation l l' -> prod_list l = prod_list l'.
Proof. intros l l' H. induction H; cbn [prod_list]; auto; try lra; congruence. Qed.

Lemma prod_pos_part : forall (f : Z -> R) cols pow, length pow = length cols ->  Forall (fun x => 0 <= x)%Z pow ->
  prod_list (map (fun kv => f (fst kv) ^ Z.to_nat (snd kv))%R (pos_part cols pow)) =
  prod_list (map (fun kv => f (fst kv) ^ Z.to_nat (snd kv))%R (combine cols pow)).
Proof.
  intros f cols. induction cols as [|c cols IH]; intros [|v pw] Hl F; try discriminate Hl; [reflexivity|].
  inversion F as [|? ? F1 F2]; subst. unfold pos_part. cbn [combine filter snd]. fold (pos_part cols pw).
  destruct (Z.ltb_spec 0 v) as [Hv|Hv]; cbn [map prod_list fst snd]; rewrite IH by (auto; simpl in Hl; lia); [reflexivity|].
  replace v with 0%Z by lia. cbn [Z.to_nat Rpow_def.pow]. ring.
Qed.

Lemma upd_same_nth : forall B (l : list B) i x, nth_error l i = Some x -> upd l i x = l.
Proof. induction l as [|y l IH]; intros [|i] x H; try discriminate H; cbn [upd]; [injection H as ->; reflexivity|]. f_equal. apply IH. exact H. Qed.
Lemma upd_upd : forall B (l : list B) i a b, upd (upd l i a) i b = upd l i b.
Proof. induction l as [|y l IH]; intros [|i] a b; cbn [upd]; auto. f_equal. apply IH. Qed.
Lemma nth_error_upd_eq : forall B (l : list B) i a, (i < length l)%nat -> nth_error (upd l i a) i = Some a.
Proof. induction l as [|y l IH]; intros [|i] a H; cbn [length] in H; try lia; cbn [upd nth_error]; auto. apply IH. lia. Qed.

Lemma upd_app_mid : forall B (p : list B) x q v, upd (p ++ x :: q) (length p) v = p ++ v :: q.
Proof. induction p as [|y p IH]; intros x q v; cbn [app length upd]; [reflexivity|]. f_equal. apply IH. Qed.

Lemma fill_map : forall (B : Type) (body : nat -> list B -> res (list B)) (F : nat -> B) n (l0 : list B),
  (forall i s, (i < n)%nat -> length s = n -> body i s = Ok (upd s i (F i))) -> length l0 = n ->
  for_loop 0 n body l0 = Ok (map F (seq 0 n)).
Proof.
  intros B body F n l0 Hb Hl.
  assert (G : forall k a s, (a + k = n)%nat -> length s = n -> firstn a s = map F (seq 0 a) -> for_loop a k body s = Ok (map F (seq 0 n))).
  { induction k as [|k IH]; intros a s Hk Hs Hp; cbn [for_loop].
    - replace a with n in Hp by lia. rewrite <- Hp. rewrite <- Hs at 1. rewrite firstn_all. reflexivity.
    - rewrite Hb by lia. cbn [bind]. apply IH; [lia|rewrite upd_length; exact Hs|].
      rewrite seq_S, map_app. cbn [map Nat.add]. rewrite <- Hp.
      assert (Hlt : (a < length s)%nat) by lia.
      destruct (nth_error s a) as [x|] eqn:Ex; [|apply nth_error_None in Ex; lia].
      apply nth_error_split in Ex. destruct Ex as (p & q & -> & <-). rewrite upd_app_mid.
      rewrite !firstn_app. replace (S (length p) - length p)%nat with 1%nat by lia. rewrite Nat.sub_diag.
      rewrite (firstn_all2 p) by lia. rewrite (firstn_all2 p) by lia. cbn [firstn]. rewrite app_nil_r. reflexivity. }
  apply G; [lia|exact Hl|reflexivity].
Qed.

Lemma getcol_orig : forall (N : Num) ord (m : LazyPowerMatrix N) col, (col < mcols (lzX m))%nat ->
  lzGetCol ord m col = Ok (map (fun i => mval (lzX m) i col) (seq 0 (mrows (lzX m)))).
Proof.
  intros N ord m col H. unfold lzGetCol. replace (col <? mcols (lzX m))%nat with true by (symmetry; apply Nat.ltb_lt; exact H).
  apply fill_map; [|apply repeat_length]. intros i s Hi Hs. rewrite mat_at_in by assumption. cbn [bind]. apply setn_lt. lia.
Qed.

Lemma getcol_power : forall ord (m : LazyPowerMatrix XR) A k pw, rmat (lzX m) A ->
  nth_error (lzPowers m) k = Some pw -> (forall r, Permutation (ord r pw) pw) ->
  (forall kv, In kv pw -> (0 <= fst kv < Z.of_nat (mcols (lzX m)))%Z /\ (0 < snd kv)%Z) ->
  lzGetCol ord m (mcols (lzX m) + k) =
    Ok (map (fun i => fin (prod_list (map (fun kv => A i (Z.to_nat (fst kv)) ^ Z.to_nat (snd kv))%R pw))) (seq 0 (mrows (lzX m)))).
Proof.
  intros ord m A k pw HA Hk Ho Hpw. unfold lzGetCol.
  replace (mcols (lzX m) + k <? mcols (lzX m))%nat with false by (symmetry; apply Nat.ltb_ge; lia).
  apply fill_map; [|apply repeat_length]. intros i s Hi Hs. rewrite setn_lt by lia. cbn [bind].
  replace (mcols (lzX m) + k - mcols (lzX m))%nat with k by lia. unfold getn at 1. rewrite Hk. cbn [bind].
  assert (HF : forall kv, In kv (ord i pw) -> (0 <= fst kv < Z.of_nat (mcols (lzX m)))%Z /\ (0 < snd kv)%Z).
  { intros kv H. apply Hpw. eapply Permutation_in; [apply Ho|exact H]. }
  rewrite <- (prod_perm _ _ (Permutation_map (fun kv => A i (Z.to_nat (fst kv)) ^ Z.to_nat (snd kv))%R (Ho i))).
  set (f := fun kv => (A i (Z.to_nat (fst kv)) ^ Z.to_nat (snd kv))%R).
  assert (G : forall l c s, length s = mrows (lzX m) -> nth_error s i = Some (fin c) ->
    (forall kv, In kv l -> (0 <= fst kv < Z.of_nat (mcols (lzX m)))%Z /\ (0 < snd kv)%Z) ->
    for_each l (fun kp r => do x <- mat_atz (lzX m) (Z.of_nat i) (fst kp); do cur <- getn r i; setn r i (cur * npow x (snd kp))%num) s =
    Ok (upd s i (fin (c * prod_list (map f l))))).
  { induction l as [|kv l IH]; intros c s0 Hs0 Hc Hl; cbn [for_each].
    - cbn [map prod_list]. rewrite Rmult_1_r. f_equal. symmetry. apply upd_same_nth. exact Hc.
    - destruct (Hl kv ltac:(simpl; auto)) as (K1 & K2).
      assert (Q0 : mat_atz (lzX m) (Z.of_nat i) (fst kv) = Ok (fin (A i (Z.to_nat (fst kv))))).
      { unfold mat_atz. replace ((Z.of_nat i <? 0)%Z || (fst kv <? 0)%Z) with false
          by (symmetry; apply orb_false_iff; split; apply Z.ltb_ge; lia).
        rewrite Nat2Z.id, mat_at_in by lia. rewrite (HA i (Z.to_nat (fst kv))) by lia. reflexivity. }
      rewrite Q0. cbn [bind].
      unfold getn at 1. rewrite Hc. cbn [bind]. rewrite setn_lt by lia. cbn [bind].
      assert (Q : (fin c * npow (n := XR) (fin (A i (Z.to_nat (fst kv)))) (snd kv))%num = fin (c * f kv)).
      { unfold f. cbn [npow XR nmul]. unfold xpow. destruct (Z.eqb_spec (snd kv) 0) as [Q|Q]; [lia|].
        replace (0 <? snd kv)%Z with true by (symmetry; apply Z.ltb_lt; lia). reflexivity. }
      rewrite Q. clear Q. etransitivity; [apply (IH (c * f kv)%R)|].
      + rewrite upd_length. exact Hs0.
      + apply nth_error_upd_eq. lia.
      + intros; apply Hl; simpl; auto.
      + cbn [map prod_list]. rewrite upd_upd. do 3 f_equal. ring. }
  rewrite (G (ord i pw) 1%R (upd s i n1)).
  - rewrite upd_upd, Rmult_1_l. reflexivity.
  - rewrite upd_length. exact Hs.
  - apply nth_error_upd_eq. lia.
  - exact HF.
Qed.

Lemma full_matrix : forall (N : Num) ord (m : LazyPowerMatrix N) (col : nat -> list N), (0 < mrows (lzX m))%nat -> (0 < lzNumCols m)%nat ->
  (forall c, (c < lzNumCols m)%nat -> lzGetCol (ord c) m c = Ok (col c) /\ length (col c) = mrows (lzX m)) ->
  exists F, lzFullMatrix ord m = Ok F /\ mrows F = mrows (lzX m) /\ mcols F = lzNumCols m /\
    forall i j, (i < mrows (lzX m))%nat -> (j < lzNumCols m)%nat -> mval F i j = nth i (col j) n0.
Proof.
  intros N ord m col Hr Hc H. unfold lzFullMatrix, new_dense.
  replace (mrows (lzX m) =? 0)%nat with false by (symmetry; apply Nat.eqb_neq; lia).
  replace (lzNumCols m =? 0)%nat with false by (symmetry; apply Nat.eqb_neq; lia). cbn [orb bind].
  destruct (for_loop_inv (Mat N) (fun k F => mrows F = mrows (lzX m) /\ mcols F = lzNumCols m /\
     forall i j, (i < mrows (lzX m))%nat -> (j < k)%nat -> mval F i j = nth i (col j) n0)
     (fun c X => do l <- lzGetCol (ord c) m c; mat_setcol X c l) (lzNumCols m) 0 (mkMat (mrows (lzX m)) (lzNumCols m) (fun _ _ => n0)))
    as (F & E & HF).
  - split; [reflexivity|]. split; [reflexivity|]. intros; lia.
  - intros c F Hcc (F1 & F2 & F3). destruct (H c ltac:(lia)) as (E & L). rewrite E. cbn [bind]. unfold mat_setcol.
    rewrite F1, F2, L, Nat.eqb_refl. replace (c <? lzNumCols m)%nat with true by (symmetry; apply Nat.ltb_lt; lia).
    eexists. split; [reflexivity|]. cbn [mrows mcols mval]. split; [reflexivity|]. split; [reflexivity|].
    intros i j Hi Hj. destruct (Nat.eqb_spec j c) as [->|Q]; [reflexivity|]. apply F3; lia.
  - exists F. split; [exact E|]. destruct HF as (F1 & F2 & F3). split; [exact F1|]. split; [exact F2|]. intros. apply F3; lia.
Qed.
