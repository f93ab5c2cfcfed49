(** Invariants of SAScore (saScore.go). *)
From Verif Require Import Base Num Mat Model_Node Model_Util Model_Fit Model_SA Proof_Node Proof_Util.

Section SAProof.
  Variable N : Num.
  Hypothesis L : OrdLaws N.
  Notation item := (SAItem N).
  Notation dflt := (mkSAItem [] [] (n0 : N)).

  Definition same_entry (a b : item) : Prop :=
    siSelection a = siSelection b /\ siScore a = siScore b.

  (** the score is a function of the selection *)
  Definition score_det (l : list item) : Prop :=
    forall a b, In a l -> In b l -> siSelection a = siSelection b -> siScore a = siScore b.

  Lemma scan_min : forall (heap : list item) l (m : N) (p : option nat),
    nisnan m = false ->
    (forall q, In q l -> (q < length heap)%nat /\ nisnan (siScore (nth q heap dflt)) = false) ->
    exists m' p',
      for_each l (fun p (st : N * option nat) =>
             do v <- getn heap p;
             Ok (if nltb (siScore v) (fst st) then (siScore v, Some p) else st)) (m, p)
      = Ok (m', p') /\
      nisnan m' = false /\ le m' m /\
      (forall q, In q l -> le m' (siScore (nth q heap dflt))) /\
      ((m' = m /\ p' = p) \/ (exists q, In q l /\ p' = Some q /\ m' = siScore (nth q heap dflt))).
  Proof.
    intros heap. induction l as [|q l IH]; intros m p Hm Hl.
    - exists m, p. split; [reflexivity|]. split; [exact Hm|]. split; [apply (le_refl L)|].
      split; [intros q []|left; auto].
    - destruct (Hl q (or_introl eq_refl)) as [Hq Hqn].
      cbn [for_each]. rewrite (getn_lt _ heap q dflt Hq). cbn [bind fst].
      destruct (nltb (siScore (nth q heap dflt)) m) eqn:E.
      + destruct (IH (siScore (nth q heap dflt)) (Some q)) as (m' & p' & H1 & H2 & H3 & H4 & H5);
          [exact Hqn|intros; apply Hl; right; auto|].
        exists m', p'. split; [exact H1|]. split; [exact H2|].
        split; [eapply (le_trans L); [exact Hqn|exact H3|apply (lt_le L); exact E]|].
        split.
        * intros r [<-|Hr]; [exact H3|apply H4; exact Hr].
        * right. destruct H5 as [[-> ->]|(r & Hr & -> & ->)].
          -- exists q; split; [left; reflexivity|auto].
          -- exists r; split; [right; exact Hr|auto].
      + destruct (IH m p) as (m' & p' & H1 & H2 & H3 & H4 & H5);
          [exact Hm|intros; apply Hl; right; auto|].
        exists m', p'. split; [exact H1|]. split; [exact H2|]. split; [exact H3|].
        split.
        * intros r [<-|Hr]; [|apply H4; exact Hr].
          eapply (le_trans L); [exact Hm|exact H3|exact E].
        * destruct H5 as [H5|(r & Hr & -> & ->)]; [left; exact H5|].
          right; exists r; split; [right; exact Hr|auto].
  Qed.

  Record SInv (s : SAScore N) (ins : list item) : Prop := mkSInv {
    si_nodup : NoDup (saItems s);
    si_range : forall p, In p (saItems s) -> (p < length (saHeap s))%nat;
    si_nonan : forall p, (p < length (saHeap s))%nat -> nisnan (siScore (nth p (saHeap s) dflt)) = false;
    si_sel : NoDup (map siSelection (saContents s));
    si_cap : (Z.of_nat (length (saItems s)) <= Z.max 1 (saCap s))%Z;
    si_from : forall c, In c (saContents s) -> exists i, In i ins /\ same_entry c i;
    si_empty : saItems s = [] -> ins = [];
    si_worst : ins <> [] -> exists w, saWorst s = Some w /\ In w (saItems s) /\
      forall c, In c (saContents s) -> le (siScore (nth w (saHeap s) dflt)) (siScore c);
    si_best : ins <> [] -> exists b, saBest s = Some b /\ (b < length (saHeap s))%nat /\
      (exists c, In c (saContents s) /\ same_entry c (nth b (saHeap s) dflt)) /\
      forall c, In c (saContents s) -> le (siScore c) (siScore (nth b (saHeap s) dflt));
    si_keep : score_det ins -> forall i, In i ins ->
      (exists c, In c (saContents s) /\ same_entry c i) \/
      (Z.of_nat (length (saItems s)) = Z.max 1 (saCap s) /\
       forall c, In c (saContents s) -> le (siScore i) (siScore c))
  }.

  Lemma sinv_init : forall cap, SInv (NewSAScore cap) [].
  Proof.
    intro cap. constructor; cbn; try (intros; contradiction); try constructor; try congruence; try lia.
  Qed.

  Lemma saExists_spec : forall (s : SAScore N) p,
    (forall q, In q (saItems s) -> (q < length (saHeap s))%nat) -> (p < length (saHeap s))%nat ->
    exists b, saExists s p = Ok b /\
      (b = true <-> exists c, In c (saContents s) /\ siSelection c = siSelection (nth p (saHeap s) dflt)).
  Proof.
    intros s p Hr Hp. unfold saExists. rewrite (getn_lt _ _ p dflt Hp). cbn [bind].
    unfold saContents. revert Hr. generalize (saItems s) as l. induction l as [|q l IH]; intros Hr.
    - exists false. split; [reflexivity|]. split; [discriminate|intros (c & [] & _)].
    - rewrite (getn_lt _ _ q dflt (Hr q (or_introl eq_refl))). cbn [bind].
      rewrite EqualInt_spec.
      destruct (list_eq_dec Z.eq_dec (siSelection (nth q (saHeap s) dflt))
                  (siSelection (nth p (saHeap s) dflt))) as [Hb|Hb]; cbn [bind].
      + exists true. split; [reflexivity|]. split; [intros _|auto].
        exists (nth q (saHeap s) dflt). split; [left; reflexivity|exact Hb].
      + destruct IH as (b & -> & Hb2); [intros; apply Hr; right; auto|].
        exists b. split; [reflexivity|]. rewrite Hb2. split.
        * intros (c & Hc & E). exists c. split; [right; exact Hc|exact E].
        * intros (c & [<-|Hc] & E); [|exists c; auto].
          contradiction.
  Qed.

  Lemma nodup_map_change : forall B (f g : nat -> B) (w : nat) l,
    NoDup l -> NoDup (map f l) -> (forall q, In q l -> q <> w -> g q = f q) ->
    ~ In (g w) (map f l) -> NoDup (map g l).
  Proof.
    intros B f g w l. induction l as [|a l IH]; intros Hl Hf Hg Hw; cbn [map]; [constructor|].
    inversion Hl; subst. inversion Hf; subst.
    assert (IH' : NoDup (map g l)).
    { apply IH; auto.
      - intros q Hq Hne; apply Hg; [right; exact Hq|exact Hne].
      - intro C; apply Hw; right; exact C. }
    constructor; [|exact IH'].
    intro C. apply in_map_iff in C. destruct C as (b & E & Hb).
    destruct (Nat.eq_dec a w) as [->|Ha].
    - rewrite (Hg b) in E; [|right; exact Hb|intros ->; contradiction].
      apply Hw. rewrite <- E. right. apply in_map; exact Hb.
    - rewrite (Hg a (or_introl eq_refl) Ha) in E.
      destruct (Nat.eq_dec b w) as [->|Hb'].
      + apply Hw. rewrite E. left; reflexivity.
      + rewrite (Hg b (or_intror Hb) Hb') in E. apply H3. rewrite <- E. apply in_map; exact Hb.
  Qed.

  Lemma nth_snoc : forall A (l : list A) x d, nth (length l) (l ++ [x]) d = x.
  Proof. intros. rewrite app_nth2, Nat.sub_diag by lia. reflexivity. Qed.

  (** membership in the contents *)
  Lemma in_contents : forall (s : SAScore N) c, In c (saContents s) <->
    exists q, In q (saItems s) /\ c = nth q (saHeap s) dflt.
  Proof.
    intros s c. unfold saContents. rewrite in_map_iff.
    split; intros (q & A & B); exists q; auto.
  Qed.

  Definition alloc (s : SAScore N) (it : item) : SAScore N :=
    mkSAScore (saCap s) (saHeap s ++ [it]) (saItems s) (saBest s) (saWorst s).

  Lemma alloc_contents : forall s it, (forall q, In q (saItems s) -> (q < length (saHeap s))%nat) ->
    saContents (alloc s it) = saContents s.
  Proof.
    intros s it H. unfold saContents, alloc. cbn. apply map_ext_in.
    intros q Hq. apply app_nth1. apply H; exact Hq.
  Qed.

  Lemma det_app : forall a b, score_det (a ++ b) -> score_det a.
  Proof. intros a b H x y Hx Hy. apply H; apply in_or_app; auto. Qed.

  Lemma sinv_nonempty : forall s ins, SInv s ins -> ins <> [] -> saItems s <> [].
  Proof. intros s ins I H C. apply H. apply (si_empty _ _ I C). Qed.

  Lemma sinv_step : forall s ins it, SInv s ins -> nisnan (siScore it) = false ->
    exists s', saInsertNew s it = Ok s' /\ saCap s' = saCap s /\ SInv s' (ins ++ [it]).
  Proof.
    intros s ins it I Hit. unfold saInsertNew, saInsert. fold (alloc s it).
    set (p := length (saHeap s)). set (s1 := alloc s it).
    assert (Hr1 : forall q, In q (saItems s1) -> (q < length (saHeap s1))%nat).
    { intros q Hq. cbn. rewrite app_length. cbn. apply (si_range _ _ I) in Hq. lia. }
    assert (Hp : (p < length (saHeap s1))%nat) by (unfold p; cbn; rewrite app_length; cbn; lia).
    assert (Hnp : nth p (saHeap s1) dflt = it) by (unfold p; cbn; apply nth_snoc).
    assert (Hnq : forall q, (q < length (saHeap s))%nat -> nth q (saHeap s1) dflt = nth q (saHeap s) dflt)
      by (intros q Hq; cbn; apply app_nth1; exact Hq).
    assert (Hc1 : saContents s1 = saContents s) by (apply alloc_contents; apply (si_range _ _ I)).
    assert (Hnan1 : forall q, (q < length (saHeap s1))%nat -> nisnan (siScore (nth q (saHeap s1) dflt)) = false).
    { intros q Hq. destruct (Nat.eq_dec q p) as [->|Hne]; [rewrite Hnp; exact Hit|].
      rewrite Hnq; [apply (si_nonan _ _ I)|];
        unfold s1, alloc in Hq; cbn [saHeap] in Hq; rewrite app_length in Hq; cbn [length] in Hq; unfold p in Hne; lia. }
    destruct (saExists_spec s1 p Hr1 Hp) as (ex & -> & Hex). cbn [bind].
    rewrite Hnp, Hc1 in Hex.
    assert (Hne : saItems s <> [] -> ins <> []).
    { intros H C. destruct (saItems s) as [|q t] eqn:E; [congruence|].
      destruct (si_from _ _ I (nth q (saHeap s) dflt)) as (i & Hi & _).
      - apply in_contents. exists q. rewrite E. split; [left|]; reflexivity.
      - rewrite C in Hi. destruct Hi. }
    assert (Hfrom : forall c, In c (saContents s) -> exists i, In i (ins ++ [it]) /\ same_entry c i).
    { intros c Hc. destruct (si_from _ _ I c Hc) as (i & Hi & E). exists i.
      split; [apply in_or_app; left; exact Hi|exact E]. }
    destruct ex.
    { (* already present *)
      destruct Hex as [Hex _]. destruct (Hex eq_refl) as (c & Hc & Hsel).
      exists s1. split; [reflexivity|]. split; [reflexivity|].
      assert (Hins : ins <> []).
      { intro C. destruct (si_from _ _ I c Hc) as (i & Hi & _). rewrite C in Hi. destruct Hi. }
      constructor.
      - apply (si_nodup _ _ I).
      - exact Hr1.
      - exact Hnan1.
      - rewrite Hc1. apply (si_sel _ _ I).
      - apply (si_cap _ _ I).
      - rewrite Hc1. exact Hfrom.
      - intro C. exfalso. apply Hins. apply (si_empty _ _ I). exact C.
      - intros _. rewrite Hc1. destruct (si_worst _ _ I Hins) as (w & H1 & H2 & H3).
        exists w. split; [exact H1|]. split; [exact H2|].
        rewrite Hnq by (apply (si_range _ _ I); exact H2). exact H3.
      - intros _. rewrite Hc1. destruct (si_best _ _ I Hins) as (b & H1 & H2 & H3 & H4).
        exists b. rewrite Hnq by exact H2. split; [exact H1|]. split; [|split; [exact H3|exact H4]].
        cbn. rewrite app_length. cbn. lia.
      - intros Hdet i Hi. rewrite Hc1. apply in_app_or in Hi. destruct Hi as [Hi|[<-|[]]].
        + exact (si_keep _ _ I (det_app _ _ Hdet) i Hi).
        + left. exists c. split; [exact Hc|]. split; [exact Hsel|].
          destruct (si_from _ _ I c Hc) as (i & Hi & E1 & E2). rewrite E2.
          apply Hdet; [apply in_or_app; left; exact Hi|apply in_or_app; right; left; reflexivity|].
          congruence. }
    assert (Hnew : ~ In (siSelection it) (map siSelection (saContents s))).
    { intro C. apply in_map_iff in C. destruct C as (c & E & Hc).
      assert (false = true) by (apply Hex; exists c; auto). discriminate. }
    rewrite (getn_lt _ _ p dflt Hp), Hnp. cbn [bind].
    change (saItems s1) with (saItems s). change (saCap s1) with (saCap s).
    change (saBest s1) with (saBest s). change (saWorst s1) with (saWorst s).
    destruct (Z.eqb_spec (Z.of_nat (length (saItems s))) 0) as [H0|H0].
    { (* first item *)
      assert (E : saItems s = []) by (destruct (saItems s); [reflexivity|cbn in H0; lia]).
      assert (Ei := si_empty _ _ I E). subst ins. rewrite E. cbn [app].
      eexists. split; [reflexivity|]. split; [reflexivity|].
      set (s2 := mkSAScore (saCap s) (saHeap s1) [p] (Some p) (Some p)).
      assert (Hc2 : forall c, In c (saContents s2) -> c = it).
      { intros c Hc. apply in_contents in Hc. destruct Hc as (q & [<-|[]] & ->). exact Hnp. }
      assert (Hin2 : In it (saContents s2)).
      { apply in_contents. exists p. split; [left; reflexivity|]. symmetry; exact Hnp. }
      constructor.
      - cbn. constructor; [intros []|constructor].
      - intros q [<-|[]]. exact Hp.
      - exact Hnan1.
      - unfold s2, saContents. cbn. constructor; [intros []|constructor].
      - cbn. lia.
      - intros c Hc. exists it. split; [left; reflexivity|]. rewrite (Hc2 c Hc). split; reflexivity.
      - cbn. discriminate.
      - intros _. exists p. split; [reflexivity|]. split; [left; reflexivity|].
        intros c Hc. rewrite (Hc2 c Hc). change (saHeap s2) with (saHeap s1). rewrite Hnp. apply (le_refl L).
      - intros _. exists p. split; [reflexivity|]. split; [exact Hp|].
        change (saHeap s2) with (saHeap s1). rewrite Hnp.
        split; [exists it; split; [exact Hin2|split; reflexivity]|].
        intros c Hc. rewrite (Hc2 c Hc). apply (le_refl L).
      - intros _ i [<-|[]]. left. exists it. split; [exact Hin2|split; reflexivity]. }
    assert (Hi0 : saItems s <> []) by (intro C; rewrite C in H0; cbn in H0; lia).
    assert (Hins := Hne Hi0).
    destruct (si_worst _ _ I Hins) as (w & Hw1 & Hw2 & Hw3).
    destruct (si_best _ _ I Hins) as (b & Hb1 & Hb2 & Hb3 & Hb4).
    assert (Hwl := si_range _ _ I w Hw2).
    rewrite Hw1, Hb1. cbn [deref].
    assert (Hlen1 : length (saHeap s1) = S (length (saHeap s)))
      by (cbn; rewrite app_length; cbn; lia).
    destruct (Z.ltb_spec (Z.of_nat (length (saItems s))) (saCap s)) as [Hlt|Hge].
    { (* append *)
      rewrite (getn_lt _ _ b dflt), (getn_lt _ _ w dflt) by lia. cbn [bind].
      rewrite !Hnq by assumption.
      set (best := if nltb (siScore (nth b (saHeap s) dflt)) (siScore it) then Some p else Some b).
      set (worst := if nltb (siScore it) (siScore (nth w (saHeap s) dflt)) then Some p else Some w).
      eexists. split; [reflexivity|]. split; [reflexivity|].
      set (s2 := mkSAScore (saCap s) (saHeap s1) (saItems s ++ [p]) best worst).
      assert (Hc2 : saContents s2 = saContents s ++ [it]).
      { unfold saContents at 1. cbn [saItems s2 saHeap]. rewrite map_app. cbn [map]. f_equal.
        - exact Hc1.
        - f_equal. exact Hnp. }
      assert (Hin2 : forall c, In c (saContents s2) <-> In c (saContents s) \/ c = it).
      { intro c. rewrite Hc2, in_app_iff. cbn. intuition. }
      assert (Hnb : nisnan (siScore (nth b (saHeap s) dflt)) = false) by (apply (si_nonan _ _ I); exact Hb2).
      assert (Hnw : nisnan (siScore (nth w (saHeap s) dflt)) = false) by (apply (si_nonan _ _ I); exact Hwl).
      constructor.
      - cbn [saItems s2]. 
        assert (Hnotin : ~ In p (saItems s)) by (intro C; apply (si_range _ _ I) in C; unfold p in C; lia).
        replace (saItems s ++ [p]) with (rev (p :: rev (saItems s))) by (cbn; rewrite rev_involutive; reflexivity).
        apply NoDup_rev. constructor; [rewrite <- in_rev; exact Hnotin|apply NoDup_rev; apply (si_nodup _ _ I)].
      - intros q Hq. cbn [saItems s2] in Hq. apply in_app_or in Hq. destruct Hq as [Hq|[<-|[]]]; [apply Hr1; exact Hq|exact Hp].
      - exact Hnan1.
      - rewrite Hc2, map_app. cbn [map].
        replace (map siSelection (saContents s) ++ [siSelection it])
          with (rev (siSelection it :: rev (map siSelection (saContents s)))) by (cbn; rewrite rev_involutive; reflexivity).
        apply NoDup_rev. constructor; [rewrite <- in_rev; exact Hnew|apply NoDup_rev; apply (si_sel _ _ I)].
      - cbn [saItems s2 saCap]. rewrite app_length. cbn [length]. lia.
      - intros c Hc. apply Hin2 in Hc. destruct Hc as [Hc| ->]; [apply Hfrom; exact Hc|].
        exists it. split; [apply in_or_app; right; left; reflexivity|split; reflexivity].
      - cbn [saItems s2]. intro C. destruct (saItems s); discriminate.
      - intros _. unfold s2; cbn [saWorst saItems saHeap]; fold s2. unfold worst.
        destruct (nltb (siScore it) (siScore (nth w (saHeap s) dflt))) eqn:E.
        + exists p. split; [reflexivity|]. split; [apply in_or_app; right; left; reflexivity|].
          rewrite Hnp. intros c Hc. apply Hin2 in Hc. destruct Hc as [Hc| ->]; [|apply (le_refl L)].
          eapply (le_trans L); [exact Hnw|apply (lt_le L); exact E|apply Hw3; exact Hc].
        + exists w. split; [reflexivity|]. split; [apply in_or_app; left; exact Hw2|].
          rewrite Hnq by exact Hwl. intros c Hc. apply Hin2 in Hc. destruct Hc as [Hc| ->]; [apply Hw3; exact Hc|exact E].
      - intros _. unfold s2; cbn [saBest saItems saHeap]; fold s2. unfold best.
        destruct (nltb (siScore (nth b (saHeap s) dflt)) (siScore it)) eqn:E.
        + exists p. split; [reflexivity|]. split; [exact Hp|]. rewrite Hnp.
          split; [exists it; split; [apply Hin2; right; reflexivity|split; reflexivity]|].
          intros c Hc. apply Hin2 in Hc. destruct Hc as [Hc| ->]; [|apply (le_refl L)].
          eapply (le_trans L); [exact Hnb|apply Hb4; exact Hc|apply (lt_le L); exact E].
        + exists b. split; [reflexivity|]. split; [lia|]. rewrite Hnq by exact Hb2.
          split; [destruct Hb3 as (c & Hc & E'); exists c; split; [apply Hin2; left; exact Hc|exact E']|].
          intros c Hc. apply Hin2 in Hc. destruct Hc as [Hc| ->]; [apply Hb4; exact Hc|exact E].
      - intros Hdet i Hi. apply in_app_or in Hi. destruct Hi as [Hi|[<-|[]]].
        + destruct (si_keep _ _ I (det_app _ _ Hdet) i Hi) as [(c & Hc & E)|(E & _)].
          * left. exists c. split; [apply Hin2; left; exact Hc|exact E].
          * exfalso. lia.
        + left. exists it. split; [apply Hin2; right; reflexivity|split; reflexivity]. }
    (* full list *)
    assert (Hfull : Z.of_nat (length (saItems s)) = Z.max 1 (saCap s)).
    { assert (H := si_cap _ _ I). assert (0 < length (saItems s))%nat by (destruct (saItems s); [congruence|cbn; lia]). lia. }
    rewrite (getn_lt _ _ w dflt) by lia. cbn [bind]. rewrite Hnq by exact Hwl.
    assert (Hnw : nisnan (siScore (nth w (saHeap s) dflt)) = false) by (apply (si_nonan _ _ I); exact Hwl).
    destruct (nltb (siScore (nth w (saHeap s) dflt)) (siScore it)) eqn:Ew.
    2:{ (* not better than the worst: rejected *)
      exists s1. split; [reflexivity|]. split; [reflexivity|].
      constructor.
      - apply (si_nodup _ _ I).
      - exact Hr1.
      - exact Hnan1.
      - rewrite Hc1. apply (si_sel _ _ I).
      - apply (si_cap _ _ I).
      - rewrite Hc1. exact Hfrom.
      - intro C. exfalso. apply Hi0. exact C.
      - intros _. rewrite Hc1. exists w. split; [exact Hw1|]. split; [exact Hw2|].
        rewrite Hnq by exact Hwl. exact Hw3.
      - intros _. rewrite Hc1. exists b. rewrite Hnq by exact Hb2. split; [exact Hb1|].
        split; [lia|split; [exact Hb3|exact Hb4]].
      - intros Hdet i Hi. rewrite Hc1. apply in_app_or in Hi. destruct Hi as [Hi|[<-|[]]].
        + exact (si_keep _ _ I (det_app _ _ Hdet) i Hi).
        + right. split; [exact Hfull|]. intros c Hc.
          eapply (le_trans L); [exact Hnw|exact Ew|apply Hw3; exact Hc]. }
    set (e := mkSAItem (siSelection it) (siCoeff (nth w (saHeap s) dflt)) (siScore it)).
    rewrite setn_lt by lia. cbn [bind].
    set (h2 := upd (saHeap s1) w e).
    assert (Hl2 : length h2 = S (length (saHeap s))) by (unfold h2; rewrite upd_length; exact Hlen1).
    assert (Hwp : w <> p) by (unfold p; lia).
    assert (H2w : nth w h2 dflt = e).
    { unfold h2. rewrite nth_upd, Nat.eqb_refl. replace (w <? length (saHeap s1))%nat with true; [reflexivity|].
      symmetry; apply Nat.ltb_lt; lia. }
    assert (H2p : nth p h2 dflt = it).
    { unfold h2. rewrite nth_upd. replace (p =? w)%nat with false; [exact Hnp|].
      symmetry; apply Nat.eqb_neq; congruence. }
    assert (H2q : forall q, (q < length (saHeap s))%nat -> q <> w -> nth q h2 dflt = nth q (saHeap s) dflt).
    { intros q Hq Hqw. unfold h2. rewrite nth_upd. replace (q =? w)%nat with false; [apply Hnq; exact Hq|].
      symmetry; apply Nat.eqb_neq; exact Hqw. }
    assert (Hb2' : (b < length h2)%nat) by lia.
    rewrite (getn_lt _ h2 b dflt Hb2'). cbn [bind].
    rewrite (getn_lt _ h2 p dflt) by lia. rewrite H2p. cbn [bind].
    assert (Hnan2 : forall q, (q < length h2)%nat -> nisnan (siScore (nth q h2 dflt)) = false).
    { intros q Hq. destruct (Nat.eq_dec q w) as [->|Hqw]; [rewrite H2w; exact Hit|].
      unfold h2. rewrite nth_upd. replace (q =? w)%nat with false by (symmetry; apply Nat.eqb_neq; exact Hqw).
      apply Hnan1. lia. }
    destruct (scan_min h2 (saItems s) (siScore it) (Some w) Hit) as (m & pw & Hscan & Hm1 & Hm2 & Hm3 & Hm4).
    { intros q Hq. apply (si_range _ _ I) in Hq. split; [lia|apply Hnan2; lia]. }
    rewrite Hscan. cbn [bind snd].
    set (best := if nltb (siScore (nth b h2 dflt)) (siScore it) then Some p else Some b).
    eexists. split; [reflexivity|]. split; [reflexivity|].
    set (s2 := mkSAScore (saCap s) h2 (saItems s) best pw).
    assert (Hine : In e (saContents s2)).
    { apply in_contents. exists w. split; [exact Hw2|symmetry; exact H2w]. }
    assert (Hin2 : forall c, In c (saContents s2) -> c = e \/ In c (saContents s)).
    { intros c Hc. apply in_contents in Hc. destruct Hc as (q & Hq & ->).
      cbn [saHeap saItems s2] in *. destruct (Nat.eq_dec q w) as [->|Hqw]; [left; exact H2w|].
      right. apply in_contents. exists q. split; [exact Hq|]. apply H2q; [apply (si_range _ _ I); exact Hq|exact Hqw]. }
    assert (Hkeep2 : forall c, In c (saContents s) -> nltb (siScore (nth w (saHeap s) dflt)) (siScore c) = true ->
      In c (saContents s2)).
    { intros c Hc Hlt. apply in_contents in Hc. destruct Hc as (q & Hq & ->).
      assert (Hqw : q <> w) by (intros ->; rewrite (ol_irrefl L) in Hlt; discriminate).
      apply in_contents. exists q. split; [exact Hq|]. symmetry. apply H2q; [apply (si_range _ _ I); exact Hq|exact Hqw]. }
    constructor.
    - apply (si_nodup _ _ I).
    - intros q Hq. cbn [saHeap s2]. apply (si_range _ _ I) in Hq. lia.
    - exact Hnan2.
    - unfold saContents. cbn [saHeap saItems s2]. rewrite map_map.
      apply nodup_map_change with (f := fun q => siSelection (nth q (saHeap s) dflt)) (w := w).
      + apply (si_nodup _ _ I).
      + assert (H := si_sel _ _ I). unfold saContents in H. rewrite map_map in H. exact H.
      + intros q Hq Hqw. rewrite H2q; [reflexivity|apply (si_range _ _ I); exact Hq|exact Hqw].
      + rewrite H2w. assert (H := Hnew). unfold saContents in H. rewrite map_map in H. exact H.
    - exact (si_cap _ _ I).
    - intros c Hc. apply Hin2 in Hc. destruct Hc as [-> |Hc]; [|apply Hfrom; exact Hc].
      exists it. split; [apply in_or_app; right; left; reflexivity|split; reflexivity].
    - intro C. exfalso. apply Hi0. exact C.
    - intros _. cbn [saWorst saItems saHeap s2].
      destruct Hm4 as [[Em Ep]|(q & Hq & Ep & Em)].
      + exists w. rewrite H2w. split; [exact Ep|]. split; [exact Hw2|].
        intros c Hc. apply in_contents in Hc. destruct Hc as (q & Hq & ->).
        cbn [siScore e]. rewrite <- Em. apply Hm3. exact Hq.
      + exists q. split; [exact Ep|]. split; [exact Hq|].
        intros c Hc. apply in_contents in Hc. destruct Hc as (r & Hr & ->).
        rewrite <- Em. apply Hm3. exact Hr.
    - intros _. cbn [saBest saHeap s2]. unfold best.
      destruct (Nat.eq_dec b w) as [->|Hbw].
      + (* all scores equal so far *)
        rewrite H2w. cbn [siScore e]. rewrite (ol_irrefl L).
        exists w. split; [reflexivity|]. split; [lia|]. rewrite H2w.
        split; [exists e; split; [exact Hine|split; reflexivity]|].
        intros c Hc. apply Hin2 in Hc. destruct Hc as [-> |Hc]; [apply (le_refl L)|].
        eapply (le_trans L); [exact Hnw|apply Hb4; exact Hc|apply (lt_le L); exact Ew].
      + rewrite (H2q b Hb2 Hbw).
        assert (Hnb : nisnan (siScore (nth b (saHeap s) dflt)) = false) by (apply (si_nonan _ _ I); exact Hb2).
        destruct (nltb (siScore (nth b (saHeap s) dflt)) (siScore it)) eqn:E.
        * exists p. split; [reflexivity|]. split; [lia|]. rewrite H2p.
          split; [exists e; split; [exact Hine|split; reflexivity]|].
          intros c Hc. apply Hin2 in Hc. destruct Hc as [-> |Hc]; [apply (le_refl L)|].
          eapply (le_trans L); [exact Hnb|apply Hb4; exact Hc|apply (lt_le L); exact E].
        * exists b. split; [reflexivity|]. split; [lia|]. rewrite (H2q b Hb2 Hbw).
          split.
          -- destruct Hb3 as (c & Hc & E1 & E2). exists c. split; [|split; assumption].
             apply Hkeep2; [exact Hc|]. rewrite E2.
             eapply (lt_le_trans L); [exact Hnb|exact Ew|exact E].
          -- intros c Hc. apply Hin2 in Hc. destruct Hc as [-> |Hc]; [exact E|apply Hb4; exact Hc].
    - intros Hdet i Hi.
      assert (Hge2 : forall c, In c (saContents s2) -> le (siScore (nth w (saHeap s) dflt)) (siScore c)).
      { intros c Hc. apply Hin2 in Hc. destruct Hc as [-> |Hc]; [apply (lt_le L); exact Ew|apply Hw3; exact Hc]. }
      apply in_app_or in Hi. destruct Hi as [Hi|[<-|[]]].
      + destruct (si_keep _ _ I (det_app _ _ Hdet) i Hi) as [(c & Hc & E)|(_ & Hle)].
        * destruct (nltb (siScore (nth w (saHeap s) dflt)) (siScore c)) eqn:Ec.
          -- left. exists c. split; [apply Hkeep2; assumption|exact E].
          -- right. split; [exact Hfull|]. intros d Hd. destruct E as [_ <-].
             eapply (le_trans L); [exact Hnw|exact Ec|apply Hge2; exact Hd].
        * right. split; [exact Hfull|]. intros d Hd.
          assert (Hww : In (nth w (saHeap s) dflt) (saContents s)) by (apply in_contents; exists w; auto).
          eapply (le_trans L); [exact Hnw|apply Hle; exact Hww|apply Hge2; exact Hd].
      + left. exists e. split; [exact Hine|split; reflexivity].
  Qed.

  Lemma sinv_all : forall l s ins, SInv s ins -> Forall (fun i => nisnan (siScore i) = false) l ->
    exists s', saInsertAll s l = Ok s' /\ saCap s' = saCap s /\ SInv s' (ins ++ l).
  Proof.
    induction l as [|it l IH]; intros s ins I Hl.
    - exists s. rewrite app_nil_r. auto.
    - inversion Hl; subst. destruct (sinv_step s ins it I H1) as (s1 & E1 & C1 & I1).
      destruct (IH s1 _ I1 H2) as (s2 & E2 & C2 & I2).
      exists s2. unfold saInsertAll. cbn [for_each]. rewrite E1. cbn [bind].
      split; [exact E2|]. split; [congruence|]. rewrite <- app_assoc in I2. exact I2.
  Qed.

  (** with scores determined by the selection no inserted item beats BestItem *)
  Lemma sinv_best : forall s ins b, SInv s ins -> score_det ins ->
    Forall (fun i => nisnan (siScore i) = false) ins -> saBest s = Some b ->
    forall i, In i ins -> le (siScore i) (siScore (nth b (saHeap s) dflt)).
  Proof.
    intros s ins b I Hdet Hn Hb i Hi.
    assert (Hins : ins <> []) by (intro C; rewrite C in Hi; destruct Hi).
    destruct (si_best _ _ I Hins) as (b' & Hb' & H2 & (c0 & Hc0 & E0) & H4).
    assert (b' = b) by congruence. subst b'.
    destruct (si_keep _ _ I Hdet i Hi) as [(c & Hc & E1 & E2)|(_ & H)].
    - rewrite <- E2. apply H4; exact Hc.
    - destruct E0 as [_ <-]. apply H. exact Hc0.
  Qed.
End SAProof.
