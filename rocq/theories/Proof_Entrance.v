(** Lemmas behind C54: PlotEntranceTimes. *)
From Coq Require Import Sorting.Sorted.
From Verif Require Import Base Num Mat Model_Node Model_Util Proof_Util Model_Norm Model_CSV Model_Path Proof_Path.

Lemma for_each_flat : forall A B S (g : A -> list B) (body : A -> B -> S -> res S) l s,
  for_each l (fun v st => for_each (g v) (body v) st) s =
  for_each (flat_map (fun v => map (pair v) (g v)) l) (fun p st => body (fst p) (snd p) st) s.
Proof.
  induction l as [|v l IH]; intro s; [reflexivity|]. cbn [for_each flat_map].
  rewrite for_each_app.
  assert (E : forall t s, for_each t (body v) s = for_each (map (pair v) t) (fun p st => body (fst p) (snd p) st) s).
  { induction t as [|b t IHt]; intro s0; [reflexivity|]. cbn [for_each map fst snd].
    destruct (body v b s0); cbn [bind]; [apply IHt|reflexivity|reflexivity]. }
  rewrite E. destruct (for_each _ _ s); cbn [bind]; [apply IH|reflexivity|reflexivity].
Qed.

Section Entrance.
  Variable N : Num.
  Hypothesis L : OrdLaws N.
  Variable lg : N -> N.

  Definition floor_ : N := nneg nmaxf.
  Notation Node := (LassoLarsNode N).

  (** what the tables hold after the pairs in [done] (node, feature) *)
  Definition table_inv (mn : Z) (W : nat) (done : list (Node * Z)) (st : list (N * N) * list bool * list (N * N)) : Prop :=
    let '(fe, did, times) := st in
    length fe = W /\ length did = W /\
    times = map (fun p => (nofZ (snd p), lg (lnLamb (fst p)))) done /\
    forall k, (k < W)%nat -> exists y, nth_error fe k = Some (nofZ (Z.of_nat k + mn), y) /\
      (forall n, In (n, (Z.of_nat k + mn)%Z) done -> nltb y (lg (lnLamb n)) = false) /\
      ((nth_error did k = Some false /\ y = floor_) \/
       (nth_error did k = Some true /\ nltb floor_ y = true /\
        exists n, In (n, (Z.of_nat k + mn)%Z) done /\ y = lg (lnLamb n))).

  Definition ebody (mn : Z) (p : Node * Z) (st : list (N * N) * list bool * list (N * N)) :=
    let '(fe, did, times) := st in
    let times := times ++ [(nofZ (snd p), lg (lnLamb (fst p)))] in
    do xy <- getz fe (snd p - mn);
    if nltb (snd xy) (lg (lnLamb (fst p))) then
      do fe <- setz fe (snd p - mn) (fst xy, lg (lnLamb (fst p)));
      do did <- setz did (snd p - mn) true;
      Ok (fe, did, times)
    else Ok (fe, did, times).

  Lemma table_step : forall mn W done st n f, (mn <= f < mn + Z.of_nat W)%Z ->
    table_inv mn W done st -> exists st', ebody mn (n, f) st = Ok st' /\ table_inv mn W (done ++ [(n, f)]) st'.
  Proof.
    intros mn W done ((fe, did), times) n f Hf (H1 & H2 & H3 & H4). unfold ebody. cbn [fst snd].
    set (k0 := Z.to_nat (f - mn)). assert (Ek0 : (f - mn)%Z = Z.of_nat k0) by (unfold k0; lia).
    assert (Hk0 : (k0 < W)%nat) by lia. rewrite Ek0, getz_nat.
    destruct (H4 k0 Hk0) as (y & Ey & Hy & Hd). rewrite (proj2 (getn_ok _ _ _ _) Ey). cbn [bind fst snd].
    assert (Ef : (Z.of_nat k0 + mn)%Z = f) by lia.
    destruct (nltb y (lg (lnLamb n))) eqn:Elt.
    - rewrite !setz_nat, !setn_lt by lia. cbn [bind]. eexists. split; [reflexivity|].
      split; [rewrite upd_length; exact H1|]. split; [rewrite upd_length; exact H2|].
      split; [rewrite H3, map_app; reflexivity|].
      intros k Hk. destruct (Nat.eq_dec k k0) as [->|Hne].
      + exists (lg (lnLamb n)). split; [rewrite nth_error_upd, Nat.eqb_refl, Ef; destruct (Nat.ltb_spec k0 (length fe)); [reflexivity|lia]|].
        split.
        * intros n' Hin. apply in_app_or in Hin. destruct Hin as [Hin|[E|[]]].
          -- specialize (Hy n' Hin). destruct (nltb (lg (lnLamb n)) (lg (lnLamb n'))) eqn:E; [|reflexivity].
             rewrite (ol_trans L _ _ _ Elt E) in Hy. discriminate Hy.
          -- injection E as -> _. apply (ol_irrefl L).
        * right. split; [rewrite nth_error_upd, Nat.eqb_refl; destruct (Nat.ltb_spec k0 (length did)); [reflexivity|lia]|].
          split.
          -- destruct Hd as [(_ & ->)|(_ & Hfl & _)]; [exact Elt|exact (ol_trans L _ _ _ Hfl Elt)].
          -- exists n. split; [|reflexivity]. apply in_or_app. right. left. rewrite Ef. reflexivity.
      + destruct (H4 k Hk) as (y' & Ey' & Hy' & Hd'). exists y'.
        rewrite !nth_error_upd. destruct (Nat.eqb_spec k k0); [contradiction|]. cbn [andb].
        split; [exact Ey'|]. split.
        * intros n' Hin. apply in_app_or in Hin. destruct Hin as [Hin|[E|[]]]; [exact (Hy' n' Hin)|].
          exfalso. injection E as _ E. lia.
        * destruct Hd' as [Hd'|(A & B & n' & C & D)]; [left; exact Hd'|right].
          split; [exact A|]. split; [exact B|]. exists n'. split; [apply in_or_app; left; exact C|exact D].
    - eexists. split; [reflexivity|].
      split; [exact H1|]. split; [exact H2|]. split; [rewrite H3, map_app; reflexivity|].
      intros k Hk. destruct (H4 k Hk) as (y' & Ey' & Hy' & Hd'). exists y'.
      split; [exact Ey'|]. split.
      + intros n' Hin. apply in_app_or in Hin. destruct Hin as [Hin|[E|[]]]; [exact (Hy' n' Hin)|].
        injection E as <- Ek. assert (k = k0) by lia. subst k. rewrite Ey in Ey'. injection Ey' as ->. exact Elt.
      + destruct Hd' as [Hd'|(A & B & n' & C & D)]; [left; exact Hd'|right].
        split; [exact A|]. split; [exact B|]. exists n'. split; [apply in_or_app; left; exact C|exact D].
  Qed.

  Definition visits (nodes : list Node) : list (Node * Z) := flat_map (fun v => map (pair v) (lnSelection v)) nodes.

  Lemma visits_In : forall nodes n f, In (n, f) (visits nodes) <-> In n nodes /\ In f (lnSelection n).
  Proof.
    intros nodes n f. unfold visits. rewrite in_flat_map. split.
    - intros (v & Hv & H). apply in_map_iff in H. destruct H as (f' & E & Hf). injection E as -> ->. tauto.
    - intros (Hn & Hf). exists n. split; [exact Hn|]. apply in_map. exact Hf.
  Qed.

  Lemma table_loop : forall mn W l done st,
    (forall n f, In (n, f) l -> (mn <= f < mn + Z.of_nat W)%Z) ->
    table_inv mn W done st -> exists st', for_each l (ebody mn) st = Ok st' /\ table_inv mn W (done ++ l) st'.
  Proof.
    induction l as [|(n, f) l IH]; intros done st Hr H; cbn [for_each].
    - exists st. rewrite app_nil_r. split; [reflexivity|exact H].
    - destruct (table_step mn W done st n f (Hr n f (or_introl eq_refl)) H) as (st1 & E1 & H1).
      rewrite E1. cbn [bind].
      destruct (IH (done ++ [(n, f)]) st1) as (st2 & E2 & H2); [intros n1 f1 Hin; apply (Hr n1 f1); right; exact Hin|exact H1|].
      exists st2. split; [exact E2|]. rewrite <- app_assoc in H2. exact H2.
  Qed.

  Lemma tables_ok : forall (p : LassoLarsPath N) mn mx, MaxMinFeatNo p = (mn, mx) ->
    (mn <= mx + 1)%Z -> (forall n f, In n (lpNodes p) -> In f (lnSelection n) -> (mn <= f <= mx)%Z) ->
    exists st, entrance_tables lg p = Ok st /\ table_inv mn (Z.to_nat (mx - mn + 1)) (visits (lpNodes p)) st.
  Proof.
    intros p mn mx Em Hle Hr. unfold entrance_tables. rewrite Em. unfold go_make.
    destruct (Z.ltb_spec (mx - mn + 1) 0); [lia|]. cbn [bind]. set (W := Z.to_nat (mx - mn + 1)).
    rewrite repeat_length.
    rewrite (for_loop_fill0 _ (fun i => (nofZ (Z.of_nat i + mn), nneg nmaxf))) by apply repeat_length. cbn [bind].
    rewrite (for_each_flat _ _ _ (fun v : Node => lnSelection v) (fun v feat st => ebody mn (v, feat) st)).
    assert (E : forall l s, for_each l (fun p0 st => ebody mn (fst p0, snd p0) st) s = for_each l (ebody mn) s).
    { induction l as [|(a, b) l IH]; intro s; [reflexivity|]. cbn [for_each fst snd]. destruct (ebody mn (a, b) s); cbn [bind]; auto. }
    rewrite E. apply (table_loop mn W (visits (lpNodes p)) []).
    - intros n f H0. apply visits_In in H0. destruct H0 as (H0 & H1). specialize (Hr n f H0 H1). unfold W. lia.
    - split; [rewrite map_length, seq_length; reflexivity|]. split; [apply repeat_length|]. split; [reflexivity|].
      intros k Hk. exists floor_. split; [|split].
      + rewrite nth_error_map. rewrite (nth_error_nth' _ 0%nat) by (rewrite seq_length; exact Hk).
        rewrite seq_nth by exact Hk. reflexivity.
      + intros n' [].
      + left. split; [|reflexivity]. apply nth_error_repeat. exact Hk.
  Qed.

  Lemma filter_loop : forall (did : list bool) (fe acc : list (N * N)) i,
    (i + length fe <= length did)%nat ->
    for_eachi i fe (fun i v acc => do b <- getn did i; Ok (if b : bool then acc ++ [v] else acc)) acc
    = Ok (acc ++ map snd (filter (fun q => nth (fst q) did false) (combine (seq i (length fe)) fe))).
  Proof.
    intros did. induction fe as [|v fe IH]; intros acc i H; cbn [for_eachi length seq combine filter map].
    - rewrite app_nil_r. reflexivity.
    - cbn [length] in H. rewrite (getn_lt _ did i false) by lia. cbn [bind fst].
      rewrite IH by lia. destruct (nth i did false); cbn [map snd]; [rewrite <- app_assoc|]; reflexivity.
  Qed.

  Lemma sorted_filter_seq : forall (f : nat -> bool) mn n i,
    StronglySorted Z.lt (map (fun k => Z.of_nat k + mn)%Z (filter f (seq i n))).
  Proof.
    intros f mn. induction n as [|n IH]; intro i; cbn [seq filter map]; [constructor|].
    assert (F : Forall (Z.lt (Z.of_nat i + mn)) (map (fun k => Z.of_nat k + mn)%Z (filter f (seq (S i) n)))).
    { apply Forall_forall. intros z Hz. apply in_map_iff in Hz. destruct Hz as (k & <- & Hk).
      apply filter_In in Hk. destruct Hk as (Hk & _). apply in_seq in Hk. lia. }
    destruct (f i); [constructor; [apply IH|exact F]|apply IH].
  Qed.

  Definition entered (p : LassoLarsPath N) (f : Z) (xy : N * N) : Prop :=
    fst xy = nofZ f /\
    (exists n, In n (lpNodes p) /\ In f (lnSelection n) /\ snd xy = lg (lnLamb n)) /\
    (forall n, In n (lpNodes p) -> In f (lnSelection n) -> nltb (snd xy) (lg (lnLamb n)) = false).

  Lemma Forall2_filter_combine : forall (did : list bool) (fe : list (N * N)) (P : nat -> N * N -> Prop) i,
    (forall k xy, nth_error fe k = Some xy -> nth (i + k) did false = true -> P (i + k)%nat xy) ->
    Forall2 P (filter (fun k => nth k did false) (seq i (length fe)))
      (map snd (filter (fun q => nth (fst q) did false) (combine (seq i (length fe)) fe))).
  Proof.
    intros did fe P. induction fe as [|v fe IH]; intros i H; cbn [length seq filter combine map]; [constructor|].
    assert (R : Forall2 P (filter (fun k => nth k did false) (seq (S i) (length fe)))
      (map snd (filter (fun q => nth (fst q) did false) (combine (seq (S i) (length fe)) fe)))).
    { apply IH. intros k xy E D. replace (S i + k)%nat with (i + S k)%nat in * by lia. apply H; assumption. }
    cbn [fst]. destruct (nth i did false) eqn:E; [|exact R]. cbn [map snd]. constructor; [|exact R].
    specialize (H 0%nat v eq_refl). rewrite Nat.add_0_r in H. exact (H E).
  Qed.

  Lemma entrance_ok : forall drawable (p : LassoLarsPath N) times line mn mx, MaxMinFeatNo p = (mn, mx) ->
    (mn <= mx + 1)%Z -> (forall n f, In n (lpNodes p) -> In f (lnSelection n) -> (mn <= f <= mx)%Z) ->
    PlotEntranceTimes lg drawable p = Ok (times, line) ->
    times = flat_map (fun n => map (fun f => (nofZ f, lg (lnLamb n))) (lnSelection n)) (lpNodes p) /\
    exists feats, StronglySorted Z.lt feats /\
      (forall f, In f feats <-> exists n, In n (lpNodes p) /\ In f (lnSelection n) /\ nltb (nneg nmaxf) (lg (lnLamb n)) = true) /\
      Forall2 (entered p) feats line.
  Proof.
    intros drawable p times line mn mx Em Hle Hr E.
    destruct (tables_ok p mn mx Em Hle Hr) as (((fe, did), tm) & E1 & (H1 & H2 & H3 & H4)).
    unfold PlotEntranceTimes in E. rewrite E1 in E. cbn [bind] in E.
    destruct (negb (drawable tm)); [discriminate E|].
    rewrite (filter_loop did fe [] 0) in E by lia. cbn [bind app] in E.
    destruct (negb _); [discriminate E|]. injection E as <- <-. split.
    - rewrite H3. unfold visits. clear. induction (lpNodes p) as [|n l IH]; [reflexivity|].
      cbn [flat_map]. rewrite map_app, IH, map_map. reflexivity.
    - set (W := Z.to_nat (mx - mn + 1)) in *.
      exists (map (fun k => Z.of_nat k + mn)%Z (filter (fun k => nth k did false) (seq 0 (length fe)))).
      split; [apply sorted_filter_seq|]. split.
      + intro f. rewrite in_map_iff. split.
        * intros (k & <- & Hk). apply filter_In in Hk. destruct Hk as (Hk & Hd). apply in_seq in Hk.
          destruct (H4 k ltac:(lia)) as (y & _ & _ & [(D & _)|(_ & Hfl & n & Hin & ->)]).
          -- apply nth_error_nth with (d := false) in D. rewrite D in Hd. discriminate Hd.
          -- apply visits_In in Hin. exists n. tauto.
        * intros (n & Hn & Hf & Hfl). specialize (Hr n f Hn Hf). exists (Z.to_nat (f - mn)).
          split; [lia|]. apply filter_In. split; [apply in_seq; unfold W in H1; lia|].
          destruct (H4 (Z.to_nat (f - mn)) ltac:(unfold W; lia)) as (y & _ & Hy & [(D & ->)|(D & _)]);
            apply nth_error_nth with (d := false) in D; [|exact D].
          exfalso. replace (Z.of_nat (Z.to_nat (f - mn)) + mn)%Z with f in Hy by lia.
          specialize (Hy n (proj2 (visits_In _ _ _) (conj Hn Hf))). unfold floor_ in Hy. rewrite Hfl in Hy. discriminate Hy.
      + assert (FF : forall A B (g : A -> Z) (P : Z -> B -> Prop) la lb, Forall2 (fun a b => P (g a) b) la lb -> Forall2 P (map g la) lb).
        { intros A B g P la lb H. induction H; constructor; assumption. }
        apply FF. apply Forall2_filter_combine. intros k xy Ek Dk. cbn [Nat.add] in *.
        assert (Hk : (k < W)%nat) by (rewrite <- H1; apply nth_error_Some; congruence).
        destruct (H4 k Hk) as (y & Ey & Hy & Hd). rewrite Ey in Ek. injection Ek as <-. unfold entered. cbn [fst snd].
        split; [reflexivity|]. split.
        * destruct Hd as [(D & _)|(_ & _ & n & Hin & ->)].
          -- apply nth_error_nth with (d := false) in D. rewrite D in Dk. discriminate Dk.
          -- apply visits_In in Hin. exists n. tauto.
        * intros n Hn Hf. apply Hy. apply visits_In. tauto.
  Qed.
End Entrance.
