(** Lemmas behind C54 and C61: queries on a lasso path. *)
From Coq Require Import Sorting.Sorted.
From Verif Require Import Base Num Mat Model_Node Model_Util Proof_Util Model_Norm Model_Fit Model_CSV Model_Path Spec_Path.

(** ** Loops that write cell i on round i with a body that may fail *)

Lemma eachi_fill_gen : forall A B (body : nat -> A -> list B -> res (list B)) (F : A -> B) l (d r : list B),
  length r = length l ->
  (forall i v s, In v l -> body i v s = setn s i (F v)) ->
  for_eachi (length d) l body (d ++ r) = Ok (d ++ map F l).
Proof.
  induction l as [|v l IH]; intros d r H Hb; cbn [for_eachi map].
  - destruct r; [rewrite !app_nil_r; reflexivity|discriminate].
  - destruct r as [|y r]; [discriminate|]. injection H as H.
    rewrite Hb by (left; reflexivity).
    rewrite setn_lt by (rewrite app_length; simpl; lia). cbn [bind].
    assert (E : upd (d ++ y :: r) (length d) (F v) = (d ++ [F v]) ++ r).
    { clear. generalize (F v). intro b. induction d as [|x d IH]; simpl; [reflexivity|rewrite IH; reflexivity]. }
    rewrite E.
    specialize (IH (d ++ [F v]) r). rewrite app_length in IH. cbn [length] in IH.
    replace (length d + 1)%nat with (S (length d)) in IH by lia.
    rewrite IH; [rewrite <- app_assoc; reflexivity|exact H|].
    intros. apply Hb. right; assumption.
Qed.

Lemma eachi_fill : forall A B (body : nat -> A -> list B -> res (list B)) (F : A -> B) l (b0 : B),
  (forall i v s, In v l -> body i v s = setn s i (F v)) ->
  for_eachi 0 l body (repeat b0 (length l)) = Ok (map F l).
Proof.
  intros A B body F l b0 Hb. apply (eachi_fill_gen A B body F l [] (repeat b0 (length l))); [apply repeat_length|exact Hb].
Qed.

Section Path.
  Variable N : Num.

  (** ** ExtractPath *)

  Definition coeff_of (n : LassoLarsNode N) (f : Z) : N :=
    match find_coeff n f with Ok (Some c) => c | _ => n0 end.

  Lemma find_coeff_gen : forall (coeff : list N) f l j,
    let go := (fix go (j : nat) (l : list Z) : res (option N) :=
       match l with
       | [] => Ok None
       | s :: t => if (s =? f)%Z then do c <- getn coeff j; Ok (Some c) else go (S j) t
       end) in
    (j + length l <= length coeff)%nat ->
    (~ In f l /\ go j l = Ok None) \/
    exists k c, nth_error l k = Some f /\ ~ In f (firstn k l) /\ nth_error coeff (j + k) = Some c /\
      go j l = Ok (Some c).
  Proof.
    intros coeff f. induction l as [|s t IH]; intros j go Hl.
    - left. split; [intros []|reflexivity].
    - cbn [length] in Hl. unfold go. destruct (Z.eqb_spec s f) as [->|Hne].
      + right. destruct (nth_error coeff j) as [c|] eqn:E; [|apply nth_error_None in E; lia].
        exists 0%nat, c. split; [reflexivity|]. split; [intros []|]. rewrite Nat.add_0_r.
        split; [exact E|]. apply getn_ok in E. rewrite E. reflexivity.
      + destruct (IH (S j)) as [(Hn & E)|(k & c & A & B & C & D)]; [lia| |].
        * left. split; [intros [H|H]; [congruence|exact (Hn H)]|exact E].
        * right. exists (S k), c. split; [exact A|]. split.
          -- intros [H|H]; [congruence|exact (B H)].
          -- split; [|exact D]. replace (j + S k)%nat with (S j + k)%nat by lia. exact C.
  Qed.

  Lemma find_coeff_spec : forall (n : LassoLarsNode N) f, (length (lnSelection n) <= length (lnCoeff n))%nat ->
    (~ In f (lnSelection n) /\ find_coeff n f = Ok None) \/
    exists k c, nth_error (lnSelection n) k = Some f /\ ~ In f (firstn k (lnSelection n)) /\
      nth_error (lnCoeff n) k = Some c /\ find_coeff n f = Ok (Some c).
  Proof.
    intros n f H. exact (find_coeff_gen (lnCoeff n) f (lnSelection n) 0%nat H).
  Qed.

  Lemma extract_path : forall lg (p : LassoLarsPath N) f,
    (forall n, In n (lpNodes p) -> (length (lnSelection n) <= length (lnCoeff n))%nat) ->
    ExtractPath lg p f = Ok (map (fun n => (lg (lnLamb n), coeff_of n f)) (lpNodes p)).
  Proof.
    intros lg p f H. unfold ExtractPath. apply eachi_fill.
    intros i n s Hn. unfold coeff_of.
    destruct (find_coeff_spec n f (H n Hn)) as [(_ & E)|(k & c & _ & _ & _ & E)]; rewrite E; reflexivity.
  Qed.

  (** ** PickMostRelevantFeatures *)

  Definition add_new (mr : list Z) (v : Z) : list Z := if negb (ExistInt mr v) then mr ++ [v] else mr.

  Lemma keep_first_In : forall l v, In v (keep_first l) <-> In v l.
  Proof.
    induction l as [|x t IH]; intro v; [reflexivity|]. cbn [keep_first In]. rewrite filter_In, IH.
    destruct (Z.eqb_spec v x) as [->|Hne]; cbn [negb]; intuition congruence.
  Qed.

  Lemma keep_first_NoDup : forall l, NoDup (keep_first l).
  Proof.
    induction l as [|x t IH]; [constructor|]. cbn [keep_first]. constructor.
    - rewrite filter_In, Z.eqb_refl. cbn. intros [_ H]; discriminate.
    - apply NoDup_filter, IH.
  Qed.

  Lemma filter_filter_comm : forall A (f g : A -> bool) l, filter f (filter g l) = filter g (filter f l).
  Proof.
    induction l as [|x l IH]; [reflexivity|]. cbn [filter].
    destruct (f x) eqn:Ef; destruct (g x) eqn:Eg; cbn [filter]; rewrite ?Ef, ?Eg, IH; reflexivity.
  Qed.

  Lemma filter_id : forall A (f : A -> bool) l, (forall x, In x l -> f x = true) -> filter f l = l.
  Proof.
    induction l as [|x l IH]; intro H; [reflexivity|]. cbn [filter]. rewrite H by (left; reflexivity).
    rewrite IH; [reflexivity|]. intros; apply H; right; assumption.
  Qed.

  Lemma filter_idem : forall A (f : A -> bool) l, filter f (filter f l) = filter f l.
  Proof. intros. apply filter_id. intros x H. apply filter_In in H. tauto. Qed.

  Lemma keep_first_snoc : forall l v, keep_first (l ++ [v]) = add_new (keep_first l) v.
  Proof.
    induction l as [|x t IH]; intro v; [reflexivity|]. cbn [keep_first app]. rewrite IH.
    unfold add_new. cbn [ExistInt].
    destruct (Z.eqb_spec x v) as [->|Hne].
    - cbn [negb]. f_equal. destruct (ExistInt (keep_first t) v) eqn:E; cbn [negb]; [reflexivity|].
      rewrite filter_app. cbn [filter]. rewrite Z.eqb_refl. cbn [negb]. rewrite app_nil_r. reflexivity.
    - change ((fix go (l : list Z) : bool := match l with [] => false | v0 :: t0 => if (v0 =? v)%Z then true else go t0 end)
                (filter (fun y : Z => negb (y =? x)%Z) (keep_first t)))
        with (ExistInt (filter (fun y => negb (y =? x)%Z) (keep_first t)) v).
      assert (E : ExistInt (filter (fun y => negb (y =? x)%Z) (keep_first t)) v = ExistInt (keep_first t) v).
      { apply Bool.eq_true_iff_eq. rewrite !ExistInt_In, filter_In.
        destruct (Z.eqb_spec v x); [congruence|]. cbn. tauto. }
      rewrite E. destruct (ExistInt (keep_first t) v); cbn [negb]; [reflexivity|].
      rewrite filter_app. cbn [filter]. destruct (Z.eqb_spec v x); [congruence|]. cbn [negb]. reflexivity.
  Qed.

  Lemma fold_add_new : forall s l, fold_left add_new s (keep_first l) = keep_first (l ++ s).
  Proof.
    induction s as [|v s IH]; intro l; cbn [fold_left]; [rewrite app_nil_r; reflexivity|].
    rewrite <- keep_first_snoc, IH, <- app_assoc. reflexivity.
  Qed.

  Definition sel_of (k : nat) (nodes : list (LassoLarsNode N)) : list Z :=
    flat_map (fun n => lnSelection n) (firstn k nodes).

  Lemma pick_gen : forall numFeat (nodes : list (LassoLarsNode N)) pre,
    let go := (fix go (nodes : list (LassoLarsNode N)) (mostRelevant : list Z) : list Z :=
       match nodes with
       | [] => mostRelevant
       | node :: rest =>
           let mostRelevant :=
             fold_left (fun mr v => if negb (ExistInt mr v) then mr ++ [v] else mr)
               (lnSelection node) mostRelevant in
           if (numFeat <=? Z.of_nat (length mostRelevant))%Z then mostRelevant
           else go rest mostRelevant
       end) in
    exists k, (k <= length nodes)%nat /\ (nodes <> [] -> (1 <= k)%nat) /\
      go nodes (keep_first pre) = keep_first (pre ++ sel_of k nodes) /\
      (forall k', (1 <= k' < k)%nat -> (Z.of_nat (length (keep_first (pre ++ sel_of k' nodes))) < numFeat)%Z) /\
      (k = length nodes \/ (numFeat <= Z.of_nat (length (keep_first (pre ++ sel_of k nodes))))%Z).
  Proof.
    intros numFeat. induction nodes as [|node rest IH]; intros pre go.
    - exists 0%nat. split; [cbn; lia|]. split; [congruence|]. unfold sel_of. cbn. rewrite app_nil_r.
      split; [reflexivity|]. split; [lia|]. left; reflexivity.
    - assert (E : go (node :: rest) (keep_first pre) =
        if (numFeat <=? Z.of_nat (length (keep_first (pre ++ lnSelection node))))%Z
        then keep_first (pre ++ lnSelection node) else go rest (keep_first (pre ++ lnSelection node))).
      { unfold go at 1. change (fun (mr : list Z) (v : Z) => if negb (ExistInt mr v) then mr ++ [v] else mr) with add_new.
        rewrite fold_add_new. reflexivity. }
      rewrite E. clear E.
      destruct (Z.leb_spec numFeat (Z.of_nat (length (keep_first (pre ++ lnSelection node))))) as [Hle|Hgt].
      + exists 1%nat. split; [cbn; lia|]. split; [lia|].
        assert (S1 : sel_of 1 (node :: rest) = lnSelection node) by (unfold sel_of; cbn; apply app_nil_r).
        rewrite S1. split; [reflexivity|]. split; [lia|]. right. exact Hle.
      + destruct (IH (pre ++ lnSelection node)) as (k & Hk & _ & Ek & Hlt & Hend).
        assert (SS : forall k, (pre ++ lnSelection node) ++ sel_of k rest = pre ++ sel_of (S k) (node :: rest)).
        { intro k0. unfold sel_of. cbn [firstn flat_map]. rewrite app_assoc. reflexivity. }
        exists (S k). split; [cbn [length]; lia|]. split; [lia|].
        split; [rewrite <- SS; exact Ek|]. split.
        * intros k' Hk'. destruct k' as [|k']; [lia|]. rewrite <- SS.
          destruct k' as [|k'].
          -- unfold sel_of. cbn [firstn flat_map]. rewrite app_nil_r. exact Hgt.
          -- apply Hlt. lia.
        * rewrite <- SS. destruct Hend as [->|H]; [left; reflexivity|right; exact H].
  Qed.

  Lemma pick_spec : forall (p : LassoLarsPath N) numFeat,
    exists k, (k <= length (lpNodes p))%nat /\ (lpNodes p <> [] -> (1 <= k)%nat) /\
      PickMostRelevantFeatures p numFeat = keep_first (sel_of k (lpNodes p)) /\
      (forall k', (1 <= k' < k)%nat -> (Z.of_nat (length (keep_first (sel_of k' (lpNodes p)))) < numFeat)%Z) /\
      (k = length (lpNodes p) \/ (numFeat <= Z.of_nat (length (PickMostRelevantFeatures p numFeat)))%Z).
  Proof.
    intros p numFeat. destruct (pick_gen numFeat (lpNodes p) []) as (k & A & B & C & D & E).
    assert (C' : PickMostRelevantFeatures p numFeat = keep_first (sel_of k (lpNodes p))) by exact C.
    exists k. repeat (split; [assumption|]). rewrite C'. exact E.
  Qed.

  (** ** MaxMinFeatNo *)

  Lemma maxmin_acc : forall (nodes : list (LassoLarsNode N)) mn mx,
    (forall n v, In n nodes -> In v (lnSelection n) -> (0 <= v < 2 ^ 31)%Z) ->
    (0 <= mx)%Z -> (mn <= maxInt32)%Z ->
    let '(a, b) := fold_left (fun (mm : Z * Z) (n : LassoLarsNode N) =>
      let '(minVal, maxVal) := mm in
      let max := MaxInt (lnSelection n) in
      let min := MinInt (lnSelection n) in
      let maxVal := if (maxVal <? max)%Z then max else maxVal in
      let minVal := if (min <? minVal)%Z then min else minVal in
      (minVal, maxVal)) nodes (mn, mx) in
    let all := flat_map (fun n => lnSelection n) nodes in
    (a <= mn)%Z /\ (mx <= b)%Z /\ (forall v, In v all -> (a <= v <= b)%Z) /\
    (a = mn \/ In a all) /\ (b = mx \/ In b all).
  Proof.
    induction nodes as [|n nodes IH]; intros mn mx Hv Hmx Hmn.
    - cbn. repeat split; try lia; try tauto.
    - cbn [fold_left flat_map].
      pose proof (MaxInt_acc (lnSelection n) minInt32) as M. pose proof (MinInt_acc (lnSelection n) maxInt32) as m.
      cbv zeta in M, m. fold (MaxInt (lnSelection n)) in M. fold (MinInt (lnSelection n)) in m.
      assert (Hn : forall v, In v (lnSelection n) -> (0 <= v < 2 ^ 31)%Z) by (intros v Hv'; apply (Hv n v); [left; reflexivity|exact Hv']).
      destruct M as (M1 & M2 & M3). destruct m as (m1 & m2 & m3).
      set (mx' := if (mx <? MaxInt (lnSelection n))%Z then MaxInt (lnSelection n) else mx).
      set (mn' := if (MinInt (lnSelection n) <? mn)%Z then MinInt (lnSelection n) else mn).
      assert (X1 : (mx <= mx')%Z /\ (MaxInt (lnSelection n) <= mx')%Z /\ (mx' = mx \/ In mx' (lnSelection n))).
      { unfold mx'. destruct (Z.ltb_spec mx (MaxInt (lnSelection n))) as [H|H]; [|repeat split; try lia; left; reflexivity].
        split; [lia|]. split; [lia|]. right. destruct M3 as [E|E]; [|exact E]. exfalso.
        rewrite E in H. unfold minInt32 in H. lia. }
      assert (X2 : (mn' <= mn)%Z /\ (mn' <= MinInt (lnSelection n))%Z /\ (mn' = mn \/ In mn' (lnSelection n))).
      { unfold mn'. destruct (Z.ltb_spec (MinInt (lnSelection n)) mn) as [H|H]; [|repeat split; try lia; left; reflexivity].
        split; [lia|]. split; [lia|]. right. destruct m3 as [E|E]; [|exact E]. exfalso. lia. }
      destruct X1 as (X1 & X1' & X1''). destruct X2 as (X2 & X2' & X2'').
      specialize (IH mn' mx').
      destruct (fold_left _ nodes (mn', mx')) as (a, b).
      destruct IH as (I1 & I2 & I3 & I4 & I5).
      { intros n' v Hn' Hv'. apply (Hv n' v); [right; exact Hn'|exact Hv']. } { lia. } { lia. }
      split; [lia|]. split; [lia|]. split.
      + intros v Hin. apply in_app_or in Hin. destruct Hin as [Hin|Hin]; [|exact (I3 v Hin)].
        pose proof (M2 v Hin). pose proof (m2 v Hin). lia.
      + split.
        * destruct I4 as [E|H]; [|right; apply in_or_app; right; exact H]. rewrite E.
          destruct X2'' as [E2|E2]; [left; exact E2|right; apply in_or_app; left; exact E2].
        * destruct I5 as [E|H]; [|right; apply in_or_app; right; exact H]. rewrite E.
          destruct X1'' as [E2|E2]; [left; exact E2|right; apply in_or_app; left; exact E2].
  Qed.

  Lemma maxmin_spec : forall (p : LassoLarsPath N) a b,
    (forall n v, In n (lpNodes p) -> In v (lnSelection n) -> (0 <= v < 2 ^ 31)%Z) ->
    MaxMinFeatNo p = (a, b) ->
    (0 <= b)%Z /\
    (forall n v, In n (lpNodes p) -> In v (lnSelection n) -> (a <= v <= b)%Z) /\
    ((exists n v, In n (lpNodes p) /\ In v (lnSelection n)) ->
      (exists n, In n (lpNodes p) /\ In a (lnSelection n)) /\ (exists n, In n (lpNodes p) /\ In b (lnSelection n))) /\
    ((forall n, In n (lpNodes p) -> lnSelection n = []) -> (a, b) = (maxInt32, 0%Z)).
  Proof.
    intros p a b Hv E. pose proof (maxmin_acc (lpNodes p) maxInt32 0%Z Hv ltac:(lia) ltac:(lia)) as H.
    match type of H with context [fold_left ?f ?l ?i] => change (fold_left f l i) with (MaxMinFeatNo p) in H end.
    rewrite E in H. cbv zeta in H. destruct H as (H1 & H2 & H3 & H4 & H5).
    split; [exact H2|]. split.
    - intros n v Hn Hvn. apply H3. apply in_flat_map. exists n; tauto.
    - split.
      + intros (n & v & Hn & Hvn).
        assert (Hin : In v (flat_map (fun n => lnSelection n) (lpNodes p))) by (apply in_flat_map; exists n; tauto).
        pose proof (Hv n v Hn Hvn) as Hr. pose proof (H3 v Hin) as Hb.
        assert (W : forall z, In z (flat_map (fun n => lnSelection n) (lpNodes p)) -> exists n, In n (lpNodes p) /\ In z (lnSelection n)).
        { intros z Hz. apply in_flat_map in Hz. exact Hz. }
        split.
        * destruct H4 as [H4|H4]; [|exact (W _ H4)].
          assert (v = a) by (unfold maxInt32 in H4; lia). subst v. exists n; tauto.
        * destruct H5 as [H5|H5]; [|exact (W _ H5)].
          assert (v = b) by lia. subst v. exists n; tauto.
      + intro He. assert (Z0 : flat_map (fun n => lnSelection n) (lpNodes p) = []).
        { clear - He. induction (lpNodes p) as [|n l IH]; [reflexivity|]. cbn. rewrite He by (left; reflexivity).
          apply IH. intros; apply He; right; assumption. }
        rewrite Z0 in *. destruct H4 as [->|[]]. destruct H5 as [->|[]]. reflexivity.
  Qed.

  (** ** PlotPath *)

  Lemma plot_path : forall lg drawable (p : LassoLarsPath N) lines,
    (forall n, In n (lpNodes p) -> (length (lnSelection n) <= length (lnCoeff n))%nat) ->
    PlotPath lg drawable p = Ok lines ->
    exists first last, nth_error (lpNodes p) 0 = Some first /\
      nth_error (lpNodes p) (length (lpNodes p) - 1) = Some last /\
      lines = map (fun f => map (fun n => (lg (lnLamb n), coeff_of n (Z.of_nat f))) (lpNodes p))
                  (seq 0 (Z.to_nat (snd (MaxMinFeatNo p)))) ++
              [[(lg (lnLamb last), n0); (lg (lnLamb first), n0)]].
  Proof.
    intros lg drawable p lines Hc E. unfold PlotPath in E. destruct (MaxMinFeatNo p) as (mn, mx). cbn [snd].
    assert (G : forall k a acc, for_loop a k (fun featNo lines =>
        do xy <- ExtractPath lg p (Z.of_nat featNo);
        if negb (drawable xy) then Panic else Ok (lines ++ [xy])) acc = Panic \/
      for_loop a k (fun featNo lines =>
        do xy <- ExtractPath lg p (Z.of_nat featNo);
        if negb (drawable xy) then Panic else Ok (lines ++ [xy])) acc =
      Ok (acc ++ map (fun f => map (fun n => (lg (lnLamb n), coeff_of n (Z.of_nat f))) (lpNodes p)) (seq a k))).
    { induction k as [|k IH]; intros a acc; cbn [for_loop seq map].
      - right. rewrite app_nil_r. reflexivity.
      - rewrite (extract_path lg p (Z.of_nat a) Hc). cbn [bind].
        destruct (negb (drawable _)); [left; reflexivity|]. cbn [bind].
        destruct (IH (S a) (acc ++ [map (fun n => (lg (lnLamb n), coeff_of n (Z.of_nat a))) (lpNodes p)])) as [H|H]; rewrite H; [left; reflexivity|].
        right. rewrite <- app_assoc. reflexivity. }
    destruct (G (Z.to_nat mx) 0%nat []) as [H|H]; rewrite H in E; [discriminate E|]. cbn [bind app] in E. clear G H.
    destruct (lpNodes p) as [|n0' rest] eqn:En; [discriminate E|]. rewrite <- En in *.
    assert (Hl : (0 < length (lpNodes p))%nat) by (rewrite En; cbn; lia).
    replace (Z.of_nat (length (lpNodes p)) - 1)%Z with (Z.of_nat (length (lpNodes p) - 1)) in E by lia.
    rewrite getz_nat in E.
    destruct (nth_error (lpNodes p) (length (lpNodes p) - 1)) as [last|] eqn:El; [|apply nth_error_None in El; lia].
    destruct (nth_error (lpNodes p) 0) as [first|] eqn:Ef; [|apply nth_error_None in Ef; lia].
    rewrite (proj2 (getn_ok _ _ _ _) El) in E. rewrite (proj2 (getn_ok _ _ _ _) Ef) in E. cbn [bind] in E.
    destruct (negb _); [discriminate E|]. injection E as E.
    exists first, last. split; [reflexivity|]. split; [reflexivity|]. symmetry; exact E.
  Qed.
End Path.
