(** The LARS loop: inversion of a round, the active set, the path. *)
From Coq Require Import Permutation Sorted.
From Verif Require Import Base Num Mat Model_Node Model_Util Model_Fit Model_Norm Model_Lars Proof_Node Proof_Util.

(** ** sort.Ints *)

Lemma ins_perm : forall x l, Permutation (ins x l) (x :: l).
Proof.
  intros x. induction l as [|y l IH]; cbn [ins]; [reflexivity|]. destruct (x <=? y)%nat; [reflexivity|].
  rewrite IH. apply perm_swap.
Qed.
Lemma sort_ints_perm : forall l, Permutation (sort_ints l) l.
Proof.
  induction l as [|x l IH]; cbn [sort_ints fold_right]; [reflexivity|]. rewrite ins_perm. constructor. exact IH.
Qed.
Lemma ins_sorted : forall x l, StronglySorted Peano.le l -> StronglySorted Peano.le (ins x l).
Proof.
  intros x l H. induction H as [|y l H IH Hy]; cbn [ins]; [repeat constructor|]. destruct (Nat.leb_spec x y).
  - constructor; [constructor; assumption|]. constructor; [exact H0|]. eapply Forall_impl; [|exact Hy]. intros; lia.
  - constructor; [exact IH|]. rewrite (ins_perm x l). constructor; [lia|exact Hy].
Qed.
Lemma sort_ints_sorted : forall l, StronglySorted Peano.le (sort_ints l).
Proof. induction l as [|x l IH]; cbn [sort_ints fold_right]; [constructor|]. apply ins_sorted. exact IH. Qed.
Lemma sort_ints_strict : forall l, NoDup l -> StronglySorted lt (sort_ints l).
Proof.
  intros l H. assert (H' : NoDup (sort_ints l)) by (apply (Permutation_NoDup (Permutation_sym (sort_ints_perm l))); exact H).
  pose proof (sort_ints_sorted l) as S. induction S as [|x s S IH Hx]; [constructor|].
  inversion H' as [|? ? Hn Hd]; subst. constructor; [apply IH; exact Hd|].
  rewrite Forall_forall in *. intros y Hy. specialize (Hx y Hy). assert (x <> y) by (intros ->; contradiction). lia.
Qed.
Lemma sorted_Z : forall l, StronglySorted lt l -> StronglySorted Z.lt (map Z.of_nat l).
Proof.
  intros l H. induction H as [|x l H IH Hx]; cbn [map]; constructor; auto.
  rewrite Forall_forall in *. intros z Hz. apply in_map_iff in Hz. destruct Hz as (y & <- & Hy). specialize (Hx y Hy). lia.
Qed.

(** ** removing an element by moving the last one *)

Lemma swap_remove : forall A (l : list A) k x e l', getn l k = Ok x -> getn l (length l - 1) = Ok e -> setn l k e = Ok l' ->
  Permutation l (x :: firstn (length l' - 1) l').
Proof.
  intros A l k x e l' Ex Ee Es.
  pose proof (proj1 (getn_ok _ _ _ _) Ex) as Hx.
  assert (Hk : (k < length l)%nat) by (apply nth_error_Some; rewrite Hx; discriminate).
  assert (El : l' = upd l k e). { rewrite setn_lt in Es by exact Hk. injection Es as <-. reflexivity. }
  subst l'. rewrite upd_length. clear Es Ex.
  assert (Hl : exists t, l = t ++ [e]).
  { destruct (exists_last (l := l)) as (t & z & Hz); [intros ->; cbn in Hk; lia|].
    exists t. subst l. rewrite app_length in Ee. cbn [length] in Ee.
    replace (length t + 1 - 1)%nat with (length t) in Ee by lia. unfold getn in Ee.
    rewrite nth_error_app2 in Ee by lia. rewrite Nat.sub_diag in Ee. cbn in Ee. injection Ee as ->. reflexivity. }
  destruct Hl as (t & ->). rewrite app_length in *. cbn [length] in *. replace (length t + 1 - 1)%nat with (length t) in * by lia.
  assert (P : forall (t : list A) k, (k < length t + 1)%nat -> nth_error (t ++ [e]) k = Some x ->
    Permutation (t ++ [e]) (x :: firstn (length t) (upd (t ++ [e]) k e))).
  { clear. induction t as [|a t IH]; intros [|k] Hk Hx; cbn [app length upd firstn nth_error] in *.
    - injection Hx as ->. reflexivity.
    - lia.
    - injection Hx as ->. constructor.
      rewrite firstn_app, Nat.sub_diag, firstn_all. cbn [firstn]. rewrite app_nil_r.
      symmetry. apply Permutation_cons_append.
    - apply perm_trans with (a :: x :: firstn (length t) (upd (t ++ [e]) k e)); [|apply perm_swap].
      constructor. apply IH; [lia|exact Hx]. }
  apply P; [lia|exact Hx].
Qed.

(** ** maximum loops *)

Section Max.
  Variable N : Num.
  Hypothesis OL : OrdLaws N.
  Variable g : N -> N.

  Lemma fold_max : forall (l : list N) off m0 k0 m k, nisnan m0 = false ->
    fold_left (fun (m : N * nat) (p : nat * N) => if nltb (fst m) (g (snd p)) then (g (snd p), fst p) else m)
      (combine (seq off (length l)) l) (m0, k0) = (m, k) ->
    nisnan m = false /\ nltb m m0 = false /\ (forall i x, nth_error l i = Some x -> nltb m (g x) = false) /\
    ((m, k) = (m0, k0) \/ (nltb m0 m = true /\ (off <= k)%nat /\ exists x, nth_error l (k - off) = Some x /\ m = g x)).
  Proof.
    induction l as [|x l IH]; intros off m0 k0 m k Hn E; cbn [length seq combine fold_left] in E.
    - injection E as <- <-. split; [exact Hn|]. split; [apply (ol_irrefl OL)|]. split; [|left; reflexivity].
      intros i x Hx. destruct i; discriminate Hx.
    - cbn [fst snd] in E. destruct (nltb m0 (g x)) eqn:Ex.
      + assert (Hg : nisnan (g x) = false).
        { destruct (nisnan (g x)) eqn:En; [|reflexivity]. rewrite (ol_nan_r OL (g x) m0 En) in Ex. discriminate Ex. }
        destruct (IH _ _ _ _ _ Hg E) as (I1 & I2 & I3 & I4).
        assert (Hm : nltb m0 m = true).
        { destruct (nltb m0 m) eqn:C; [reflexivity|]. rewrite (ol_negtrans OL m0 m (g x) I1 C I2) in Ex. discriminate Ex. }
        split; [exact I1|]. split.
        { destruct (nltb m m0) eqn:C; [|reflexivity]. pose proof (ol_trans OL _ _ _ Hm C) as T. rewrite (ol_irrefl OL) in T. discriminate T. }
        split.
        { intros [|i] z Hz; cbn [nth_error] in Hz; [injection Hz as <-; exact I2|apply I3 with i; exact Hz]. }
        right. split; [exact Hm|]. destruct I4 as [I4|(I4 & I5 & z & Hz & I6)].
        * injection I4 as -> ->. split; [lia|]. exists x. rewrite Nat.sub_diag. split; reflexivity.
        * split; [lia|]. exists z. split; [|exact I6]. replace (k - off)%nat with (S (k - S off)) by lia. exact Hz.
      + destruct (IH _ _ _ _ _ Hn E) as (I1 & I2 & I3 & I4). split; [exact I1|]. split; [exact I2|]. split.
        { intros [|i] z Hz; cbn [nth_error] in Hz; [|apply I3 with i; exact Hz]. injection Hz as <-.
          apply (ol_negtrans OL m m0 (g x)); assumption. }
        destruct I4 as [I4|(I4 & I5 & z & Hz & I6)]; [left; exact I4|right]. split; [exact I4|]. split; [lia|].
        exists z. split; [|exact I6]. replace (k - off)%nat with (S (k - S off)) by lia. exact Hz.
  Qed.
End Max.

(** ** one round *)

Section Step.
  Variable N : Num.
  Variable cd : CDParam N.
  Variable X : Mat N.
  Variable y : list N.


  Lemma step_cases : forall st st' : Lars N (cdState cd), lars_step cd X y st = Ok st' ->
    laActive st <> [] /\
    exists active signs est c d jts cts jt jF ct cF lrs node,
      active = sort_ints (laActive st) /\
      vec_view (laSigns st) active = Ok signs /\
      cdSetActive cd (laEst st) (map Z.of_nat active) = Ok est /\
      cdC cd est y = Ok c /\ cdD cd est signs = Ok d /\
      tJoin X (icv_mat X (map Z.of_nat active)) y c d (laLamb st) active (laLastFeat st) (laLastCoeff st) = Ok jts /\
      tCross c d (laLamb st) = Ok cts /\
      maxJoinTime jts active = Ok (jt, jF) /\ maxCrossTime cts = (ct, cF) /\
      betaLARS c d (laLamb st) = Ok lrs /\ NewLassoLarsNode lrs (laLamb st) (map Z.of_nat active) = Ok node /\
      laRes st' = laRes st ++ [node] /\ laEst st' = est /\
      ((nltb ct jt = true /\ exists sg, setn (laSigns st) jF sg = Ok (laSigns st') /\
          (exists cv, betaLARS c d jt = Ok cv /\ joinFeatSign jF X (icv_mat X (map Z.of_nat active)) y cv = Ok sg) /\
          laActive st' = active ++ [jF] /\ laLastFeat st' = None /\ laStop st' = nltb (laLamb st) jt /\ (laStop st' = false -> laLamb st' = jt)) \/
       (nltb ct jt = false /\ exists lf, getn active cF = Ok lf /\ Permutation active (lf :: laActive st') /\
          laSigns st' = laSigns st /\ laLastFeat st' = Some lf /\ getn lrs cF = Ok (laLastCoeff st') /\ laStop st' = nltb (laLamb st) ct /\ (laStop st' = false -> laLamb st' = ct))).
  Proof.
    intros st st' E. unfold lars_step in E.
    destruct (Nat.eqb_spec (length (laActive st)) 0) as [H0|H0]; [discriminate E|].
    split; [intro C; rewrite C in H0; apply H0; reflexivity|].
    set (active := sort_ints (laActive st)) in *.
    destruct (vec_view (laSigns st) active) as [signs| |] eqn:E1; cbn [bind] in E; try discriminate E.
    destruct (cdSetActive cd (laEst st) (map Z.of_nat active)) as [est| |] eqn:E2; cbn [bind] in E; try discriminate E.
    destruct (cdC cd est y) as [c| |] eqn:E3; cbn [bind] in E; try discriminate E.
    destruct (cdD cd est signs) as [d| |] eqn:E4; cbn [bind] in E; try discriminate E.
    destruct (tJoin _ _ _ _ _ _ _ _ _) as [jts| |] eqn:E5; cbn [bind] in E; try discriminate E.
    destruct (tCross c d (laLamb st)) as [cts| |] eqn:E6; cbn [bind] in E; try discriminate E.
    destruct (maxJoinTime jts active) as [[jt jF]| |] eqn:E7; cbn [bind] in E; try discriminate E.
    destruct (maxCrossTime cts) as [ct cF] eqn:E8.
    destruct (betaLARS c d (laLamb st)) as [lrs| |] eqn:E9; cbn [bind] in E; try discriminate E.
    destruct (NewLassoLarsNode lrs (laLamb st) (map Z.of_nat active)) as [node| |] eqn:E10; cbn [bind] in E; try discriminate E.
    exists active, signs, est, c, d, jts, cts, jt, jF, ct, cF, lrs, node.
    do 11 (split; [first [reflexivity|assumption]|]).
    destruct (nltb ct jt) eqn:Ejc.
    - destruct (betaLARS c d jt) as [cv| |] eqn:E11; cbn [bind] in E; try discriminate E.
      destruct (joinFeatSign _ _ _ _ _) as [sg| |] eqn:E12; cbn [bind] in E; try discriminate E.
      destruct (setn (laSigns st) jF sg) as [as'| |] eqn:E13; cbn [bind] in E; try discriminate E.
      destruct (nltb (laLamb st) jt) eqn:Ej; injection E as <-; cbn [laRes laEst laSigns laActive laStop laLamb laLastFeat laLastCoeff];
        (split; [reflexivity|]); (split; [reflexivity|]); left; (split; [reflexivity|]);
        exists sg; (split; [exact E13|]); (split; [exists cv; auto|]); (split; [reflexivity|]); (split; [reflexivity|]); (split; [reflexivity|]); intro C;
        first [discriminate C|reflexivity].
    -
      destruct (getn lrs cF) as [lc| |] eqn:E12; cbn [bind] in E; try discriminate E.
      destruct (getn active cF) as [lf| |] eqn:E13; cbn [bind] in E; try discriminate E.
      destruct (getn active (length active - 1)) as [en| |] eqn:E14; cbn [bind] in E; try discriminate E.
      destruct (setn active cF en) as [ac'| |] eqn:E15; cbn [bind] in E; try discriminate E.
      pose proof (swap_remove _ active cF lf en ac' E13 E14 E15) as P.
      destruct (nltb (laLamb st) ct) eqn:Ej; injection E as <-; cbn [laRes laEst laSigns laActive laStop laLamb laLastFeat laLastCoeff];
        (split; [reflexivity|]); (split; [reflexivity|]); right; (split; [reflexivity|]);
        exists lf; (split; [reflexivity|]); (split; [exact P|]); (split; [reflexivity|]); (split; [reflexivity|]); (split; [reflexivity|]); (split; [reflexivity|]); intro C;
        first [discriminate C|reflexivity].
  Qed.
End Step.

(** ** the path *)

(** exactly one feature entered or left *)
Definition one_change (a b : list Z) : Prop :=
  exists f, (Permutation b (f :: a) /\ ~ In f a) \/ (Permutation a (f :: b) /\ ~ In f b).

Section Path.
  Variable N : Num.
  Hypothesis OL : OrdLaws N.
  Hypothesis Hm1 : nltb (n0 (N := N)) (nofZ (-1)) = false.
  Hypothesis H0nan : nisnan (n0 (N := N)) = false.
  Variable cd : CDParam N.
  Variable X : Mat N.
  Variable y : list N.
  Variable lambMin : N.
  Let nc := mcols X.

  Definition good (nd : LassoLarsNode N) : Prop :=
    StronglySorted Z.lt (lnSelection nd) /\ lnSelection nd <> [] /\
    (forall s, In s (lnSelection nd) -> (0 <= s < Z.of_nat nc)%Z) /\
    length (lnCoeff nd) = length (lnSelection nd) /\ nltb lambMin (lnLamb nd) = true.
  Definition adj (a b : LassoLarsNode N) : Prop :=
    nltb (lnLamb a) (lnLamb b) = false /\ one_change (lnSelection a) (lnSelection b).

  Record LI (lamb0 : N) (feat : nat) (st : Lars N (cdState cd)) : Prop := mkLI {
    li_nodup : NoDup (laActive st);
    li_range : forall f, In f (laActive st) -> (f < nc)%nat;
    li_signs : length (laSigns st) = nc;
    li_good : Forall good (laRes st);
    li_chain : forall l1 a b l2, laRes st = l1 ++ a :: b :: l2 -> adj a b;
    li_tail : laStop st = false -> forall l1 a, laRes st = l1 ++ [a] ->
      nltb (lnLamb a) (laLamb st) = false /\ one_change (lnSelection a) (map Z.of_nat (laActive st));
    li_head : forall a l, laRes st = a :: l -> lnSelection a = [Z.of_nat feat] /\ lnLamb a = lamb0;
    li_start : laRes st = [] -> laActive st = [feat] /\ laLamb st = lamb0
  }.

  Lemma betaLARS_length : forall (c d : list N) lamb b, betaLARS c d lamb = Ok b -> length b = length c.
  Proof.
    intros c d lamb b E. unfold betaLARS in E.
    assert (G : forall k a s s', for_loop a k (fun i beta => do ci <- getn c i; do di <- getn d i; setn beta i (ci - lamb * di)%num) s = Ok s' ->
      length s' = length s).
    { induction k as [|k IH]; intros a s s' E'; cbn [for_loop] in E'; [injection E' as <-; reflexivity|].
      destruct (getn c a) as [ci| |]; cbn [bind] in E'; try discriminate E'.
      destruct (getn d a) as [di| |]; cbn [bind] in E'; try discriminate E'.
      destruct (Nat.ltb_spec a (length s)) as [H|H].
      - rewrite setn_lt in E' by exact H. cbn [bind] in E'. apply IH in E'. rewrite upd_length in E'. exact E'.
      - rewrite setn_ge in E' by exact H. discriminate E'. }
    apply G in E. rewrite repeat_length in E. exact E.
  Qed.

  Lemma new_node : forall (co : list N) lamb sel nd, NewLassoLarsNode co lamb sel = Ok nd ->
    length co = length sel /\ lnCoeff nd = co /\ lnLamb nd = lamb /\ lnSelection nd = sel.
  Proof.
    intros co lamb sel nd E. unfold NewLassoLarsNode in E. destruct (Nat.eqb_spec (length co) (length sel)) as [H|H]; [|discriminate E].
    cbn [negb] in E. injection E as <-. cbn [lnCoeff lnLamb lnSelection].
    assert (Hc : forall A (a : A) (l : list A), go_copy (repeat a (length l)) l = l).
    { intros A a l. unfold go_copy. rewrite repeat_length, firstn_all, skipn_all2 by (rewrite repeat_length; lia). apply app_nil_r. }
    rewrite !Hc. auto.
  Qed.

  (** a positive join time belongs to a feature outside the active set *)
  Lemma mark_active : forall active (v v' : list N), for_each active (fun ind v => setn v ind (nofZ (-1))) v = Ok v' ->
    length v' = length v /\ forall i x, nth_error v' i = Some x -> (In i active -> x = nofZ (-1)) /\ (~ In i active -> nth_error v i = Some x).
  Proof.
    induction active as [|k active IH]; intros v v' E; cbn [for_each] in E.
    - injection E as <-. split; [reflexivity|]. intros i x Hx. split; [intros []|intros _; exact Hx].
    - destruct (Nat.ltb_spec k (length v)) as [H|H]; [rewrite setn_lt in E by exact H|rewrite setn_ge in E by exact H; discriminate E].
      cbn [bind] in E. destruct (IH _ _ E) as (I1 & I2). rewrite upd_length in I1. split; [exact I1|]. intros i x Hx.
      destruct (I2 i x Hx) as (J1 & J2). split.
      + intros [<-|Hi]; [|apply J1; exact Hi]. destruct (in_dec Nat.eq_dec k active) as [C|C]; [apply J1; exact C|].
        specialize (J2 C). rewrite nth_error_upd, Nat.eqb_refl in J2. destruct (Nat.ltb_spec k (length v)); [|lia].
        injection J2 as <-. reflexivity.
      + intro Hi. assert (Hk : i <> k /\ ~ In i active) by (split; intro C; apply Hi; [left; auto|right; exact C]).
        destruct Hk as (Hk & Hi'). specialize (J2 Hi'). rewrite nth_error_upd in J2.
        destruct (Nat.eqb_spec i k); [contradiction|]. exact J2.
  Qed.

  Lemma join_fresh : forall (jts : list N) active (jt : N) jF (cts : list N) (ct : N) cF, maxJoinTime jts active = Ok (jt, jF) -> maxCrossTime cts = (ct, cF) ->
    nltb ct jt = true -> ~ In jF active /\ nth_error jts jF = Some jt /\ nltb n0 jt = true.
  Proof.
    intros jts active jt jF cts ct cF EJ EC H.
    unfold maxJoinTime in EJ. destruct (for_each active _ jts) as [v| |] eqn:Ev; cbn [bind] in EJ; try discriminate EJ.
    assert (EJ' : fold_left (fun (m : N * nat) (p : nat * N) => if nltb (fst m) (snd p) then (snd p, fst p) else m)
      (combine (seq 0 (length v)) v) (n0, 0%nat) = (jt, jF)) by (injection EJ; auto).
    destruct (fold_max N OL (fun x => x) v 0 n0 0 jt jF H0nan EJ') as (J1 & J2 & J3 & J4).
    destruct (fold_max N OL (fun x => x) cts 0 n0 0 ct cF H0nan EC) as (C1 & C2 & C3 & C4).
    assert (Hj : nltb n0 jt = true).
    { destruct (nltb n0 jt) eqn:C; [reflexivity|]. rewrite (ol_negtrans OL ct n0 jt H0nan C2 C) in H. discriminate H. }
    destruct J4 as [J4|(_ & _ & x & J5 & J6)].
    { injection J4 as -> ->. rewrite (ol_irrefl OL) in Hj. discriminate Hj. }
    rewrite Nat.sub_0_r in J5. subst x. destruct (mark_active active jts v Ev) as (_ & M). destruct (M jF jt J5) as (M1 & M2).
    assert (Hn : ~ In jF active). { intro C. rewrite (M1 C) in Hj. rewrite Hm1 in Hj. discriminate Hj. }
    auto.
  Qed.

  Lemma tJoin_length : forall (Z0 : Mat N) c d lamb active lf lc jts,
    tJoin X Z0 y c d lamb active lf lc = Ok jts -> length jts = nc.
  Proof.
    intros Z0 c d lamb active lf lc jts E. unfold tJoin in E.
    destruct (mat_mulvec (mat_T X) y) as [Xy| |]; cbn [bind] in E; try discriminate E.
    destruct (mat_mulvec Z0 c) as [t1| |]; cbn [bind] in E; try discriminate E.
    destruct (mat_mulvec (mat_T X) t1) as [xc| |]; cbn [bind] in E; try discriminate E.
    destruct (mat_mulvec Z0 d) as [t2| |]; cbn [bind] in E; try discriminate E.
    destruct (mat_mulvec (mat_T X) t2) as [xd| |]; cbn [bind] in E; try discriminate E.
    destruct (for_each active _ _) as [q| |]; cbn [bind] in E; try discriminate E.
    fold nc in E.
    match type of E with for_loop 0 nc ?body _ = _ =>
      assert (G : forall k a s s', for_loop a k body s = Ok s' -> length s' = length s) end.
    { induction k as [|k IH]; intros a s s' E'; cbn [for_loop] in E'; [injection E' as <-; reflexivity|].
      destruct (getn Xy a) as [ci| |]; cbn [bind] in E'; try discriminate E'.
      destruct (getn xc a) as [di| |]; cbn [bind] in E'; try discriminate E'.
      destruct (getn xd a) as [ei| |]; cbn [bind] in E'; try discriminate E'.
      destruct (join_time _ _ _ _) as [t| |]; cbn [bind] in E'; try discriminate E'.
      destruct (Nat.ltb_spec a (length s)) as [H|H].
      - rewrite setn_lt in E' by exact H. cbn [bind] in E'. apply IH in E'. rewrite upd_length in E'. exact E'.
      - rewrite setn_ge in E' by exact H. discriminate E'. }
    apply G in E. rewrite repeat_length in E. exact E.
  Qed.

  Lemma one_change_perm : forall a b c, one_change a b -> Permutation b c -> one_change a c.
  Proof.
    intros a b c (f & [(H1 & H2)|(H1 & H2)]) P; exists f; [left|right]; (split; [|intro C; apply H2; try exact C]).
    - rewrite <- P. exact H1.
    - rewrite <- P. exact H1.
    - apply (Permutation_in f (Permutation_sym P)). exact C.
  Qed.

  Lemma chain_snoc : forall (l : list (LassoLarsNode N)) nd,
    (forall l1 a b l2, l = l1 ++ a :: b :: l2 -> adj a b) -> (forall l1 a, l = l1 ++ [a] -> adj a nd) ->
    forall l1 a b l2, l ++ [nd] = l1 ++ a :: b :: l2 -> adj a b.
  Proof.
    intros l nd H1 H2 l1 a b l2 E. destruct (exists_last (l := b :: l2)) as (t & z & Hz); [discriminate|].
    assert (E' : l ++ [nd] = (l1 ++ a :: t) ++ [z]).
    { rewrite E. rewrite <- app_assoc. cbn [app]. rewrite Hz. reflexivity. }
    apply app_inj_tail in E'. destruct E' as (E1 & <-). destruct t as [|b' t].
    - cbn [app] in Hz. injection Hz as -> ->. apply H2 with l1. exact E1.
    - cbn [app] in Hz. injection Hz as -> ->. apply H1 with l1 t. exact E1.
  Qed.

  Lemma round_LI : forall lamb0 feat st st', LI lamb0 feat st -> laStop st = false -> nltb lambMin (laLamb st) = true ->
    lars_step cd X y st = Ok st' -> LI lamb0 feat st'.
  Proof.
    intros lamb0 feat st st' HI Hs Hl E.
    destruct (step_cases N cd X y st st' E) as (Hne & active & signs & est & c & d & jts & cts & jt & jF & ct & cF & lrs & node &
      Ea & Es & Ee & Ec & Ed & EJ & EC & EmJ & EmC & Eb & En & ER & _ & Hcase).
    destruct (new_node _ _ _ _ En) as (N1 & N2 & N3 & N4).
    assert (Hp : Permutation active (laActive st)) by (rewrite Ea; apply sort_ints_perm).
    assert (Hnd : NoDup active) by (apply (Permutation_NoDup (Permutation_sym Hp)); apply (li_nodup _ _ _ HI)).
    assert (Hr : forall f, In f active -> (f < nc)%nat) by (intros f Hf; apply (li_range _ _ _ HI); apply (Permutation_in f Hp); exact Hf).
    assert (Hgood : good node).
    { unfold good. rewrite N2, N3, N4. split; [apply sorted_Z; rewrite Ea; apply sort_ints_strict; apply (li_nodup _ _ _ HI)|].
      split. { intro C. apply Hne. apply map_eq_nil in C. rewrite C in Hp. apply Permutation_nil. exact Hp. }
      split; [|split; [exact N1|exact Hl]].
      intros s Hin. apply in_map_iff in Hin. destruct Hin as (f & <- & Hf). specialize (Hr f Hf). lia. }
    assert (Hgd : Forall good (laRes st')) by (rewrite ER; apply Forall_app; split; [apply (li_good _ _ _ HI)|constructor; [exact Hgood|constructor]]).
    assert (Hch : forall l1 a b l2, laRes st' = l1 ++ a :: b :: l2 -> adj a b).
    { rewrite ER. apply chain_snoc; [apply (li_chain _ _ _ HI)|]. intros l1 a El.
      destruct (li_tail _ _ _ HI Hs l1 a El) as (T1 & T2). unfold adj. rewrite N3, N4. split; [exact T1|].
      apply one_change_perm with (map Z.of_nat (laActive st)); [exact T2|]. apply Permutation_map. symmetry. exact Hp. }
    assert (Hhd : forall a l, laRes st' = a :: l -> lnSelection a = [Z.of_nat feat] /\ lnLamb a = lamb0).
    { rewrite ER. intros a l El. destruct (laRes st) as [|a' l'] eqn:Er.
      - cbn [app] in El. injection El as <- <-. destruct (li_start _ _ _ HI Er) as (S1 & S2). rewrite N3, N4, Ea, S1, S2. split; reflexivity.
      - cbn [app] in El. injection El as <- <-. apply (li_head _ _ _ HI a' l' Er). }
    assert (Hst : laRes st' = [] -> laActive st' = [feat] /\ laLamb st' = lamb0).
    { rewrite ER. intro C. destruct (laRes st); discriminate C. }
    assert (Htl : forall l1 a, laRes st' = l1 ++ [a] -> a = node).
    { rewrite ER. intros l1 a El. apply app_inj_tail in El. destruct El. auto. }
    destruct Hcase as [(Hjc & sg & Esg & _ & EA & _ & EStop & ELamb)|(Hjc & lf & Elf & HP & ESg & _ & _ & EStop & ELamb)].
    - destruct (join_fresh jts active jt jF cts ct cF EmJ EmC Hjc) as (Hfr & HjF & Hpos).
      assert (HjFr : (jF < nc)%nat).
      { rewrite <- (tJoin_length _ _ _ _ _ _ _ _ EJ). apply nth_error_Some. congruence. }
      constructor; try assumption.
      + rewrite EA. apply (Permutation_NoDup (Permutation_cons_append active jF)). constructor; assumption.
      + rewrite EA. intros f Hf. apply in_app_or in Hf. destruct Hf as [Hf|[<-|[]]]; auto.
      + assert (Hlt : (jF < length (laSigns st))%nat) by (rewrite (li_signs _ _ _ HI); exact HjFr).
        rewrite setn_lt in Esg by exact Hlt. injection Esg as <-. rewrite upd_length. apply (li_signs _ _ _ HI).
      + intros Hst' l1 a El. rewrite (Htl l1 a El), N3, N4. rewrite EStop in Hst'. rewrite ELamb by congruence. split; [exact Hst'|].
        exists (Z.of_nat jF). left. split.
        * rewrite EA, map_app. cbn [map]. symmetry. apply Permutation_cons_append.
        * intro C. apply in_map_iff in C. destruct C as (f & Ef & Hf). apply Nat2Z.inj in Ef. subst f. contradiction.
    - assert (Hnd' : NoDup (lf :: laActive st')) by (apply (Permutation_NoDup HP); exact Hnd).
      constructor; try assumption.
      + inversion Hnd'; assumption.
      + intros f Hf. apply Hr. apply (Permutation_in f (Permutation_sym HP)). right. exact Hf.
      + rewrite ESg. apply (li_signs _ _ _ HI).
      + intros Hst' l1 a El. rewrite (Htl l1 a El), N3, N4. rewrite EStop in Hst'. rewrite ELamb by congruence. split; [exact Hst'|].
        exists (Z.of_nat lf). right. split.
        * change (Z.of_nat lf :: map Z.of_nat (laActive st')) with (map Z.of_nat (lf :: laActive st')). apply Permutation_map. exact HP.
        * intro C. apply in_map_iff in C. destruct C as (f & Ef & Hf). apply Nat2Z.inj in Ef. subst f. inversion Hnd'; contradiction.
  Qed.

  Lemma loop_LI : forall lamb0 feat fuel st st', LI lamb0 feat st -> laStop st = false ->
    lars_loop cd X y lambMin fuel st = Ok st' -> LI lamb0 feat st'.
  Proof.
    intros lamb0 feat. induction fuel as [|fuel IH]; intros st st' HI Hs E; cbn [lars_loop] in E.
    - destruct (nltb lambMin (laLamb st)); cbn [negb] in E; [discriminate E|injection E as <-; exact HI].
    - destruct (nltb lambMin (laLamb st)) eqn:El; cbn [negb] in E; [|injection E as <-; exact HI].
      destruct (lars_step cd X y st) as [st1| |] eqn:E1; cbn [bind] in E; try discriminate E.
      pose proof (round_LI lamb0 feat st st1 HI Hs El E1) as HI1.
      destruct (laStop st1) eqn:Es; [injection E as <-; exact HI1|]. apply IH with st1; assumption.
  Qed.

  Lemma start_LI : forall est st, lars_start cd est X y = Ok st -> exists xty,
    mat_mulvec (mat_T X) y = Ok xty /\ length xty = nc /\ (0 < nc)%nat /\ (0 < mrows X)%nat /\ length y = mrows X /\
    exists feat, LI (laLamb st) feat st /\ laActive st = [feat] /\ laStop st = false /\
      (forall j x, nth_error xty j = Some x -> nltb (laLamb st) (nabs x) = false) /\
      nltb (laLamb st) n0 = false /\ nisnan (laLamb st) = false /\
      ((laLamb st = n0 /\ feat = 0%nat) \/ exists x, nth_error xty feat = Some x /\ laLamb st = nabs x) /\
      (exists x, nth_error xty feat = Some x /\ setn (repeat n0 nc) feat (if nltb x n0 then nofZ (-1) else n1) = Ok (laSigns st)) /\
      laLastFeat st = None /\ laEst st = cdSetX cd est X.
  Proof.
    intros est st E. unfold lars_start in E. fold nc in E.
    destruct (Nat.eqb_spec nc 0) as [H1|H1]; [discriminate E|]. destruct (Nat.eqb_spec (mrows X) 0) as [H2|H2]; [discriminate E|].
    destruct (Nat.eqb_spec (length y) (mrows X)) as [H3|H3]; [|discriminate E]. cbn [orb negb] in E.
    destruct (mat_mulvec (mat_T X) y) as [xty| |] eqn:Ex; cbn [bind] in E; try discriminate E.
    exists xty. split; [reflexivity|].
    assert (Hlen : length xty = nc).
    { unfold mat_mulvec in Ex. cbn [mat_T mcols mrows] in Ex. rewrite H3, Nat.eqb_refl in Ex. injection Ex as <-.
      rewrite map_length, seq_length. reflexivity. }
    split; [exact Hlen|]. split; [lia|]. split; [lia|]. split; [exact H3|].
    destruct (fold_left _ _ _) as [mt feat] eqn:Ef.
    destruct (fold_max N OL nabs xty 0 n0 0 mt feat H0nan Ef) as (F1 & F2 & F3 & F4).
    destruct (getn xty feat) as [x| |] eqn:Eg; cbn [bind] in E; try discriminate E.
    assert (Hx : nth_error xty feat = Some x) by (apply getn_ok; exact Eg).
    assert (Hfeat : (feat < nc)%nat) by (rewrite <- Hlen; apply nth_error_Some; congruence).
    destruct (setn (repeat n0 nc) feat _) as [sg| |] eqn:Esg; cbn [bind] in E; try discriminate E.
    injection E as <-. exists feat. cbn [laLamb laActive laStop laSigns laLastFeat laEst].
    assert (Hsg : length sg = nc).
    { rewrite setn_lt in Esg by (rewrite repeat_length; exact Hfeat). injection Esg as <-. rewrite upd_length. apply repeat_length. }
    split.
    { constructor; cbn [laActive laSigns laRes laStop laLamb].
      - repeat constructor. intros [].
      - intros f [<-|[]]. exact Hfeat.
      - exact Hsg.
      - constructor.
      - intros [|z l1] a b l2 C; discriminate C.
      - intros _ [|z l1] a C; discriminate C.
      - intros a l C; discriminate C.
      - auto. }
    split; [reflexivity|]. split; [reflexivity|]. split; [exact F3|]. split; [exact F2|]. split; [exact F1|]. split.
    { destruct F4 as [F4|(_ & _ & z & Hz & Hm)]; [left; injection F4 as -> ->; auto|right]. rewrite Nat.sub_0_r in Hz. exists z. auto. }
    split; [exists x; auto|]. auto.
  Qed.
End Path.
