(** Invariants of the branch-and-bound search (Model_Search.v). *)
From Coq Require Import Sorting.Permutation.
From Verif Require Import Base Num Mat Model_Node Model_Search Proof_Node Proof_Node2 Proof_Models.

(** ** Sums over lists *)
Fixpoint sumn {A} (f : A -> nat) (l : list A) : nat :=
  match l with [] => 0 | x :: t => f x + sumn f t end.

Lemma sumn_app : forall A (f : A -> nat) l1 l2, sumn f (l1 ++ l2) = (sumn f l1 + sumn f l2)%nat.
Proof. induction l1 as [|x l1 IH]; intro l2; simpl; auto. rewrite IH; lia. Qed.

Lemma sumn_upd : forall A (f : A -> nat) l i x y, nth_error l i = Some x ->
  (sumn f (upd l i y) + f x = sumn f l + f y)%nat.
Proof.
  induction l as [|a l IH]; intros [|i] x y H; simpl in *; try discriminate.
  - injection H as <-. lia.
  - specialize (IH i x y H). lia.
Qed.

Lemma sumn_ge : forall A (f : A -> nat) l i x, nth_error l i = Some x -> (f x <= sumn f l)%nat.
Proof.
  induction l as [|a l IH]; intros [|i] x H; simpl in *; try discriminate.
  - injection H as <-. lia.
  - specialize (IH i x H). lia.
Qed.

Lemma sumn_zero : forall A (f : A -> nat) l, (forall x, In x l -> f x = 0%nat) -> sumn f l = 0%nat.
Proof. induction l as [|a l IH]; intro H; simpl; auto. rewrite H, IH; simpl; auto. intros; apply H; right; auto. Qed.

Lemma sumn_pos : forall A (f : A -> nat) l, (0 < sumn f l)%nat -> exists i x, nth_error l i = Some x /\ (0 < f x)%nat.
Proof.
  induction l as [|a l IH]; simpl; intro H; [lia|].
  destruct (Nat.eq_dec (f a) 0) as [E|E].
  - destruct IH as (i & x & H1 & H2); [lia|]. exists (S i), x; auto.
  - exists 0%nat, a; split; auto. lia.
Qed.

Lemma sumn_repeat : forall A (f : A -> nat) x n, sumn f (repeat x n) = (n * f x)%nat.
Proof. induction n; simpl; auto. Qed.

Lemma sumn_ext : forall A (f g : A -> nat) l, (forall x, In x l -> f x = g x) -> sumn f l = sumn g l.
Proof. induction l as [|a l IH]; intro H; simpl; auto. rewrite H by (left; auto). rewrite IH; auto. intros; apply H; right; auto. Qed.

Lemma Forall_upd : forall A (Q : A -> Prop) l i y, Forall Q l -> Q y -> Forall Q (upd l i y).
Proof.
  induction l as [|a l IH]; intros [|i] y H Hy; simpl; auto; inversion H; subst; constructor; auto.
Qed.

Lemma Forall_nth : forall A (Q : A -> Prop) l i x, Forall Q l -> nth_error l i = Some x -> Q x.
Proof. intros A Q l i x H E. rewrite Forall_forall in H. apply H. eapply nth_error_In; eauto. Qed.

Definition b2n (b : bool) : nat := if b then 1 else 0.

Section S.
  Variable N : Num.
  Variable P : problem N.
  Notation node := (Node N).
  Notation cols := (pCols P).

  (** ** The possible steps *)
  Definition finish (s : st N) (ns : node) (h : Highscore N) (checked : Z) (cur : N) (q1 ins : list node) : st N :=
    let p := (sInProg s - 1)%Z in
    let q2 := if (ndLevel ns <? Z.of_nat cols)%Z then q1 ++ [ns] else q1 in
    let over := (pMaxQ P <? Z.of_nat (length q2))%Z in
    let q3 := if over then RemoveLeastPromising q2 else q2 in
    let stop := ((p <=? 0)%Z && (length q3 =? 0)%nat)%bool in
    mkSt (if stop then MClose 0 else MSelect) q3 p cur h checked (sLog2 s)
         (hsBestScore (sHs s), sChecked s, sLog2 s)
         (sSW s) (sCW s) ins (gScored s) (gPruned s) (gRaced s) (gTrimmed s || over).

  Inductive stp (s : st N) : label -> st N -> Prop :=
  | sv_root i : sMain s = MRoot -> nth_error (sCW s) i = Some CWIdle ->
      stp s (LRoot i) (set_main (set_cw s i (CWCreate (root_node P) false)) MSelect 2)
  | sv_score_new j n h : sMain s = MSelect -> nth_error (sSW s) j = Some (SWSend n) ->
      isNewNode n = true -> hsInsert (sHs s) n = Ok h ->
      stp s (LScore j)
        (finish (set_sw s j SWIdle) n h (sChecked s + 1)
           (if nltb (sCurBest s) (hsBestScore h) then hsBestScore h else sCurBest s)
           (if nltb (sCurBest s) (hsBestScore h) then CleanQueue (sQueue s) (nneg (hsBestScore h))
            else sQueue s) (gInserted s ++ [n]))
  | sv_score_old j n : sMain s = MSelect -> nth_error (sSW s) j = Some (SWSend n) ->
      isNewNode n = false ->
      stp s (LScore j)
        (finish (set_sw s j SWIdle) n (sHs s) (sChecked s) (sCurBest s) (sQueue s) (gInserted s))
  | sv_prune i p flip : sMain s = MSelect -> nth_error (sCW s) i = Some (CWPrune p flip) ->
      stp s (LPrune i) (main_prune P (set_cw s i (cw_next p flip)) (ndLevel p))
  | sv_ready i : sMain s = MSelect -> nth_error (sCW s) i = Some CWReady ->
      stp s (LReady i) (main_ready (set_cw s i CWIdle))
  | sv_want i n : sMain s = MWant n -> nth_error (sCW s) i = Some CWIdle ->
      stp s (LWant i) (set_main (set_cw s i (cw_start n)) MSelect (sInProg s))
  | sv_node i j c p flip : closed s 0 = false -> nth_error (sCW s) i = Some (CWSendNode c p flip) ->
      nth_error (sSW s) j = Some SWIdle ->
      stp s (LNode i j) (set_sw (set_cw s i (cw_next p flip)) j (SWBusy c))
  | sv_compute j n : nth_error (sSW s) j = Some (SWBusy n) ->
      stp s (LCompute j) (add_scored (set_sw s j (SWSend (score_node P n)))
                        (if ((0 <? NumFeatures (ndModel n))%nat && isNewNode n)%bool
                         then [ndModel n] else []))
  | sv_create i p flip c : nth_error (sCW s) i = Some (CWCreate p flip) ->
      make_child P p flip = Ok (Some c) -> stp s (LChild i) (set_cw s i (CWReadBest c p flip))
  | sv_create_none i p flip : nth_error (sCW s) i = Some (CWCreate p flip) ->
      make_child P p flip = Ok None -> stp s (LChild i) (set_cw s i (CWPrune p flip))
  | sv_best_gt i c p flip : nth_error (sCW s) i = Some (CWReadBest c p flip) ->
      nltb (nneg (hsBestScore (sHs s))) (ndLower c) = true ->
      stp s (LChild i) (set_cw s i (CWReadLen c p flip (hsLen (sHs s) =? 0)%Z))
  | sv_best_le i c p flip : nth_error (sCW s) i = Some (CWReadBest c p flip) ->
      nltb (nneg (hsBestScore (sHs s))) (ndLower c) = false ->
      stp s (LChild i) (set_cw s i (CWSendNode c p flip))
  | sv_len_pos i c p flip e : nth_error (sCW s) i = Some (CWReadLen c p flip e) ->
      (0 < hsLen (sHs s))%Z ->
      stp s (LChild i) (set_raced (set_cw s i (CWPrune p flip)) (gRaced s || e))
  | sv_len_zero i c p flip e : nth_error (sCW s) i = Some (CWReadLen c p flip e) ->
      (hsLen (sHs s) <= 0)%Z ->
      stp s (LChild i) (set_cw s i (CWSendNode c p flip))
  | sv_close k : sMain s = MClose k -> (k < 4)%nat ->
      stp s LClose (set_main s (MClose (S k)) (sInProg s))
  | sv_exit_sw j : nth_error (sSW s) j = Some SWIdle -> closed s 0 = true ->
      stp s (LExitSW j) (set_sw s j SWDone)
  | sv_exit_cw i : nth_error (sCW s) i = Some CWIdle -> closed s 1 = true ->
      stp s (LExitCW i) (set_cw s i CWDone).

  (** steps that would panic *)
  Inductive bad (s : st N) : Prop :=
  | bad_ins j n : sMain s = MSelect -> nth_error (sSW s) j = Some (SWSend n) -> isNewNode n = true ->
      (forall h, hsInsert (sHs s) n <> Ok h) -> bad s
  | bad_score j n k : sMain s = MClose k -> nth_error (sSW s) j = Some (SWSend n) -> bad s
  | bad_child i p flip : nth_error (sCW s) i = Some (CWCreate p flip) ->
      (forall oc, make_child P p flip <> Ok oc) -> bad s
  | bad_node i c p flip : nth_error (sCW s) i = Some (CWSendNode c p flip) -> closed s 0 = true -> bad s
  | bad_prune i p flip : nth_error (sCW s) i = Some (CWPrune p flip) -> closed s 2 = true -> bad s.

  Lemma exec_view : forall s l r, exec P s l = Some r ->
    (exists s', r = Ok s' /\ stp s l s') \/ bad s.
  Proof.
    intros s l r E. destruct l; simpl in E.
    - destruct (sMain s) eqn:M; try discriminate. destruct (nth_error (sCW s) i) as [[]|] eqn:C; try discriminate.
      injection E as <-. left; eexists; split; [reflexivity|]. apply sv_root; auto.
    - destruct (sMain s) eqn:M; try discriminate.
      + destruct (nth_error (sSW s) j) as [[]|] eqn:C; try discriminate. injection E as <-.
        unfold main_score. cbn [sHs sCurBest sChecked sQueue set_sw].
        destruct (isNewNode n) eqn:En.
        * destruct (hsInsert (sHs s) n) as [h| |] eqn:Eh.
          -- left. eexists. split.
             2:{ eapply sv_score_new; eauto. }
             cbn [bind]. destruct (nltb (sCurBest s) (hsBestScore h)); reflexivity.
          -- right. eapply bad_ins; eauto. intros h0; congruence.
          -- right. eapply bad_ins; eauto. intros h0; congruence.
        * left. eexists. split; [|eapply sv_score_old; eauto]. reflexivity.
      + destruct (nth_error (sSW s) j) as [[]|] eqn:C; try discriminate.
        right. eapply bad_score; eauto.
    - destruct (sMain s) eqn:M; try discriminate. destruct (nth_error (sCW s) i) as [[]|] eqn:C; try discriminate.
      injection E as <-. left; eexists; split; [reflexivity|]. apply sv_prune; auto.
    - destruct (sMain s) eqn:M; try discriminate. destruct (nth_error (sCW s) i) as [[]|] eqn:C; try discriminate.
      injection E as <-. left; eexists; split; [reflexivity|]. apply sv_ready; auto.
    - destruct (sMain s) eqn:M; try discriminate. destruct (nth_error (sCW s) i) as [[]|] eqn:C; try discriminate.
      injection E as <-. left; eexists; split; [reflexivity|]. apply sv_want; auto.
    - destruct (closed s 0) eqn:Ec; try discriminate.
      destruct (nth_error (sCW s) i) as [[]|] eqn:C; try discriminate.
      destruct (nth_error (sSW s) j) as [[]|] eqn:D; try discriminate.
      injection E as <-. left; eexists; split; [reflexivity|]. eapply sv_node; eauto.
    - destruct (nth_error (sSW s) j) as [[]|] eqn:D; try discriminate.
      injection E as <-. left; eexists; split; [reflexivity|]. eapply sv_compute; eauto.
    - destruct (nth_error (sCW s) i) as [c|] eqn:C; try discriminate.
      destruct c; simpl in E; try discriminate.
      + injection E as <-. destruct (make_child P p flip) as [[c|]| |] eqn:Em; cbn [bind].
        * left; eexists; split; [reflexivity|]. eapply sv_create; eauto.
        * left; eexists; split; [reflexivity|]. eapply sv_create_none; eauto.
        * right. eapply bad_child; eauto. intro; congruence.
        * right. eapply bad_child; eauto. intro; congruence.
      + injection E as <-. left. eexists; split; [reflexivity|].
        destruct (nltb (nneg (hsBestScore (sHs s))) (ndLower c)) eqn:El.
        * apply sv_best_gt; auto.
        * apply sv_best_le; auto.
      + injection E as <-. left. eexists; split; [reflexivity|].
        destruct (Z.ltb_spec 0 (hsLen (sHs s))).
        * eapply sv_len_pos; eauto.
        * eapply sv_len_zero; eauto.
      + destruct (closed s 0) eqn:Ec; [|discriminate]. right. eapply bad_node; eauto.
      + destruct (closed s 2) eqn:Ec; [|discriminate]. right. eapply bad_prune; eauto.
    - destruct (sMain s) eqn:M; try discriminate. destruct (Nat.ltb_spec k 4); [|discriminate].
      injection E as <-. left; eexists; split; [reflexivity|]. apply sv_close; auto.
    - destruct (nth_error (sSW s) j) as [[]|] eqn:D; try discriminate.
      destruct (closed s 0) eqn:Ec; [|discriminate].
      injection E as <-. left; eexists; split; [reflexivity|]. apply sv_exit_sw; auto.
    - destruct (nth_error (sCW s) i) as [[]|] eqn:D; try discriminate.
      destruct (closed s 1) eqn:Ec; [|discriminate].
      injection E as <-. left; eexists; split; [reflexivity|]. apply sv_exit_cw; auto.
  Qed.

  (** and every [stp] is executable *)
  Lemma stp_exec : forall s l s', stp s l s' -> exec P s l = Some (Ok s').
  Proof.
    intros s l s' H. destruct H; simpl.
    - rewrite H, H0; reflexivity.
    - rewrite H, H0. unfold main_score. cbn [sHs sCurBest sChecked sQueue set_sw].
      rewrite H1, H2. cbn [bind]. destruct (nltb (sCurBest s) (hsBestScore h)); reflexivity.
    - rewrite H, H0. unfold main_score. rewrite H1. reflexivity.
    - rewrite H, H0; reflexivity.
    - rewrite H, H0; reflexivity.
    - rewrite H, H0; reflexivity.
    - rewrite H, H0, H1; reflexivity.
    - rewrite H; reflexivity.
    - rewrite H. cbn [cw_local]. rewrite H0. reflexivity.
    - rewrite H. cbn [cw_local]. rewrite H0. reflexivity.
    - rewrite H. cbn [cw_local]. rewrite H0. reflexivity.
    - rewrite H. cbn [cw_local]. rewrite H0. reflexivity.
    - rewrite H. cbn [cw_local]. destruct (Z.ltb_spec 0 (hsLen (sHs s))); [reflexivity|lia].
    - rewrite H. cbn [cw_local]. destruct (Z.ltb_spec 0 (hsLen (sHs s))); [lia|reflexivity].
    - rewrite H. destruct (Nat.ltb_spec k 4); [reflexivity|lia].
    - rewrite H, H0; reflexivity.
    - rewrite H, H0; reflexivity.
  Qed.

  (** ** Nodes of the search tree *)
  Definition lowerOf (m : list bool) (l : Z) : N :=
    if (NumFeatures m =? 0)%nat then ndec (-1) 100 else fst (pBounds P m l).
  Definition upperOf (m : list bool) (l : Z) : N :=
    if (NumFeatures m =? 0)%nat then ndec 1 100 else snd (pBounds P m l).
  Definition scoreOf (m : list bool) : N :=
    if (NumFeatures m =? 0)%nat then nneg nmaxf else snd (pFit P m).
  Definition scored (n : node) : Prop := ndScore n = scoreOf (ndModel n) /\
    ((0 < NumFeatures (ndModel n))%nat -> ndCoeff n = fst (pFit P (ndModel n))).

  (** bits from [level] on are those of the root; a flipped node differs from
      the root in bit [level-1] *)
  Record wf0 (n : node) : Prop := {
    w_len : length (ndModel n) = cols;
    w_lev : (0 <= ndLevel n <= Z.of_nat cols)%Z;
    w_tail : forall i, (Z.to_nat (ndLevel n) <= i)%nat -> nth i (ndModel n) false = nth i (pRoot P) false;
    w_flip : ndWasFlipped n = true -> (1 <= ndLevel n)%Z /\
      nth (Z.to_nat (ndLevel n - 1)) (ndModel n) false <> nth (Z.to_nat (ndLevel n - 1)) (pRoot P) false
  }.
  Record wf (n : node) : Prop := {
    w_0 : wf0 n;
    w_pos : (1 <= ndLevel n)%Z;
    w_low : ndLower n = lowerOf (ndModel n) (ndLevel n);
    w_up : ndUpper n = upperOf (ndModel n) (ndLevel n)
  }.
  Definition inner (n : node) : Prop := (ndLevel n < Z.of_nat cols)%Z.

  Definition child_model (p : node) (flip : bool) : list bool :=
    let k := Z.to_nat (ndLevel p) in
    if flip then upd (ndModel p) k (negb (nth k (ndModel p) false)) else ndModel p.

  Lemma make_child_spec : forall p flip, wf0 p -> inner p ->
    (exists c, make_child P p flip = Ok (Some c) /\ wf c /\ ndModel c = child_model p flip /\
       ndLevel c = (ndLevel p + 1)%Z /\ ndWasFlipped c = flip) \/
    (make_child P p flip = Ok None /\ (pRows P <= NumFeatures (child_model p flip))%nat).
  Proof.
    intros p flip [Wl Wv Wt Wf] Hi. unfold inner in Hi.
    assert (Hc : exists c, GetChildNode p flip = Ok c /\ ndModel c = child_model p flip /\
              ndLevel c = (ndLevel p + 1)%Z /\ ndWasFlipped c = flip).
    { destruct flip.
      - rewrite GetChildNode_true by lia. eexists; split; [reflexivity|]. cbn. auto.
      - rewrite GetChildNode_false. eexists; split; [reflexivity|]. cbn. auto. }
    destruct Hc as (c & Ec & Em & El & Ef).
    assert (Wc : wf0 c).
    { assert (Hlen : length (child_model p flip) = cols).
      { unfold child_model. destruct flip; [rewrite upd_length|]; auto. }
      constructor.
      - rewrite Em; auto.
      - rewrite El; lia.
      - intros i Hik. rewrite Em. rewrite El in Hik. unfold child_model. destruct flip.
        + rewrite nth_upd. destruct (Nat.eqb_spec i (Z.to_nat (ndLevel p))); [lia|]. apply Wt; lia.
        + apply Wt; lia.
      - rewrite Ef. intros ->. rewrite El, Em. split; [lia|].
        replace (ndLevel p + 1 - 1)%Z with (ndLevel p) by lia.
        unfold child_model. rewrite nth_upd, Nat.eqb_refl.
        destruct (Nat.ltb_spec (Z.to_nat (ndLevel p)) (length (ndModel p))); [|lia].
        rewrite Wt by lia. apply Bool.no_fixpoint_negb. }
    unfold make_child. rewrite Ec. cbn [bind].
    destruct (Nat.ltb_spec (NumFeatures (ndModel c)) (pRows P)) as [Hr|Hr].
    - left. destruct (Nat.ltb_spec 0 (NumFeatures (ndModel c))) as [Hz|Hz].
      + eexists; split; [reflexivity|]. cbn. split; [|auto].
        constructor; [destruct Wc; constructor; auto|cbn; lia|..].
        all: cbn; unfold lowerOf, upperOf; destruct (Nat.eqb_spec (NumFeatures (ndModel c)) 0); [lia|reflexivity].
      + eexists; split; [reflexivity|]. cbn. split; [|auto].
        constructor; [destruct Wc; constructor; auto|cbn; lia|..].
        all: cbn; unfold lowerOf, upperOf; destruct (Nat.eqb_spec (NumFeatures (ndModel c)) 0); [reflexivity|lia].
    - right. split; [reflexivity|]. rewrite <- Em; auto.
  Qed.

  Lemma score_node_fields : forall n, ndModel (score_node P n) = ndModel n /\
    ndLevel (score_node P n) = ndLevel n /\ ndLower (score_node P n) = ndLower n /\
    ndWasFlipped (score_node P n) = ndWasFlipped n.
  Proof.
    intro n. unfold score_node. destruct ((0 <? NumFeatures (ndModel n))%nat && isNewNode n)%bool.
    - destruct (pFit P (ndModel n)) as [c s]. cbn. auto.
    - cbn. auto.
  Qed.

  Lemma score_node_score : forall n, isNewNode n = true -> ndScore (score_node P n) = scoreOf (ndModel n).
  Proof.
    intros n H. unfold score_node, scoreOf. rewrite H, andb_true_r.
    destruct (Nat.ltb_spec 0 (NumFeatures (ndModel n))); destruct (Nat.eqb_spec (NumFeatures (ndModel n)) 0); try lia.
    - destruct (pFit P (ndModel n)); reflexivity.
    - reflexivity.
  Qed.

  Lemma score_node_scored : forall n, isNewNode n = true -> scored (score_node P n).
  Proof.
    intros n H. unfold scored. destruct (score_node_fields n) as (E1 & _). rewrite E1. split; [apply score_node_score; exact H|].
    intro Hn. unfold score_node. rewrite H, andb_true_r.
    destruct (Nat.ltb_spec 0 (NumFeatures (ndModel n))); [|lia]. destruct (pFit P (ndModel n)); reflexivity.
  Qed.

  Lemma score_node_upper : forall n, ndUpper (score_node P n) = ndUpper n.
  Proof.
    intro n. unfold score_node. destruct ((0 <? NumFeatures (ndModel n))%nat && isNewNode n)%bool; [|reflexivity].
    destruct (pFit P (ndModel n)); reflexivity.
  Qed.

  Lemma score_node_wf : forall n, wf n -> wf (score_node P n).
  Proof.
    intros n [[Wl Wv Wt Wf] Wp Wlo Wup]. destruct (score_node_fields n) as (E1 & E2 & E3 & E4).
    constructor; [constructor|..]; rewrite ?score_node_upper, ?E1, ?E2, ?E3, ?E4; auto.
  Qed.

  Lemma wf_isNew : forall n, wf n -> isNewNode n = ndWasFlipped n.
  Proof. intros n [_ Wp _ _]. unfold isNewNode. destruct (Z.eqb_spec (ndLevel n) 0); [lia|reflexivity]. Qed.

  Lemma clean_incl : forall (q : list node) t n, In n (CleanQueue q t) -> In n q.
  Proof.
    induction q as [|x q IH]; intros t n H; simpl in *; auto.
    destruct (nltb t (ndLower x)); [right; eauto|]. destruct H; [left; auto|right; eauto].
  Qed.

  Lemma rlp_incl : forall (q : list node) n, In n (RemoveLeastPromising q) -> In n q.
  Proof. intros q n H. unfold RemoveLeastPromising in H. eapply clean_incl; eauto. Qed.

  Lemma hsInsert_ok : forall (h : Highscore N) n, hsMaxItems h <> 1%Z ->
    exists h', hsInsert h n = Ok h' /\ hsMaxItems h' = hsMaxItems h.
  Proof.
    intros h n Hm. unfold hsInsert, hsLen.
    assert (C : exists h', match hs_insert_before n (hsItems h) with
      | Some l => Ok (mkHS (if (hsMaxItems h <=? Z.of_nat (length l))%Z then removelast l else l) (hsMaxItems h))
      | None => if (Z.of_nat (length (hsItems h)) <? hsMaxItems h)%Z
                then Ok (mkHS (hsItems h ++ [n]) (hsMaxItems h)) else Ok h end = Ok h' /\
      hsMaxItems h' = hsMaxItems h).
    { destruct (hs_insert_before n (hsItems h)); [eexists; split; reflexivity|].
      destruct (_ <? _)%Z; eexists; split; reflexivity. }
    destruct (Z.eqb_spec (Z.of_nat (length (hsItems h))) (hsMaxItems h - 1)) as [E|E]; auto.
    destruct (rev (hsItems h)) as [|x r] eqn:R.
    - apply (f_equal (@length _)) in R. rewrite rev_length in R. simpl in R. lia.
    - destruct (nltb (ndScore n) (ndScore x)); auto. eexists; split; reflexivity.
  Qed.

  (** ** Protocol invariant *)
  Definition cw_busy (c : cwst N) : nat := match c with CWIdle | CWDone => 0 | _ => 1 end.
  Definition two (flip : bool) : nat := if flip then 1 else 2.
  Definition cw_rem (c : cwst N) : nat :=
    match c with
    | CWCreate _ f | CWReadBest _ _ f | CWReadLen _ _ f _ | CWSendNode _ _ f | CWPrune _ f => two f
    | _ => 0
    end.
  Definition sw_busy (w : swst N) : nat := match w with SWBusy _ | SWSend _ => 1 | _ => 0 end.

  Definition cw_ok (c : cwst N) : Prop :=
    match c with
    | CWCreate p _ | CWPrune p _ => wf0 p /\ inner p
    | CWReadBest c p f | CWReadLen c p f _ | CWSendNode c p f =>
        (wf0 p /\ inner p) /\ wf c /\ ndModel c = child_model p f /\ ndLevel c = (ndLevel p + 1)%Z /\
        ndWasFlipped c = f
    | _ => True
    end.
  Definition sw_ok (w : swst N) : Prop :=
    match w with
    | SWBusy n => wf n
    | SWSend n => wf n /\ (isNewNode n = true -> scored n)
    | _ => True
    end.
  Definition main_ok (s : st N) : Prop :=
    match sMain s with
    | MRoot => sInProg s = 0%Z
    | MSelect => (0 < sInProg s)%Z \/ sQueue s <> []
    | MWant None => (0 < sInProg s)%Z /\ sQueue s = []
    | MWant (Some n) => wf0 n /\ inner n
    | MClose k => (k <= 4)%nat /\ sInProg s = 0%Z /\ sQueue s = []
    end.
  Definition token (m : mst N) : nat := match m with MRoot | MWant _ => 0 | _ => 1 end.
  Definition owed (m : mst N) : nat := match m with MWant (Some _) => 2 | _ => 0 end.

  Record PInv (s : st N) : Prop := {
    i_sw : length (sSW s) = numScoreWorkers;
    i_cw : length (sCW s) = numChildWorkers;
    i_tok : sumn cw_busy (sCW s) = token (sMain s);
    i_prog : sInProg s = Z.of_nat (sumn cw_rem (sCW s) + sumn sw_busy (sSW s) + owed (sMain s));
    i_main : main_ok s;
    i_cws : Forall cw_ok (sCW s);
    i_sws : Forall sw_ok (sSW s);
    i_q : Forall (fun n => wf n /\ inner n) (sQueue s);
    i_ins : Forall (fun n => wf n /\ ndWasFlipped n = true /\ scored n) (gInserted s);
    i_max : hsMaxItems (sHs s) <> 1%Z;
    i_swd : In SWDone (sSW s) -> closed s 0 = true;
    i_cwd : In CWDone (sCW s) -> closed s 1 = true
  }.

  Hypothesis Hcols : (1 <= cols)%nat.
  Hypothesis Hroot : length (pRoot P) = cols.

  Lemma wf0_root : wf0 (root_node P) /\ inner (root_node P).
  Proof.
    unfold root_node, NewNode. split.
    - constructor; cbn; rewrite ?go_copy_full; auto; try lia; try discriminate.
    - unfold inner; cbn; lia.
  Qed.

  Lemma pinv_init : forall h, hsMaxItems h <> 1%Z -> PInv (init_st h).
  Proof.
    intros h Hm. constructor; cbn; auto; try (repeat constructor);
      intros H; exfalso; repeat (destruct H as [H|H]; [discriminate|]); destruct H.
  Qed.

  Lemma in_upd : forall A (l : list A) i y x, In x (upd l i y) -> x = y \/ In x l.
  Proof.
    induction l as [|a l IH]; intros [|i] y x H; simpl in *; auto.
    - destruct H; auto.
    - destruct H as [H|H]; auto. apply IH in H. destruct H; auto.
  Qed.

  Lemma not_bad : forall s, PInv s -> ~ bad s.
  Proof.
    intros s I B. destruct B.
    - destruct (hsInsert_ok (sHs s) n (i_max s I)) as (h & E & _). exact (H2 h E).
    - pose proof (i_main s I) as M. unfold main_ok in M. rewrite H in M. destruct M as (_ & M & _).
      pose proof (i_prog s I) as Hp. pose proof (sumn_ge _ sw_busy _ _ _ H0) as Hs. simpl in Hs. lia.
    - pose proof (Forall_nth _ _ _ _ _ (i_cws s I) H) as (W & Hi).
      destruct (make_child_spec p flip W Hi) as [(c & E & _)|(E & _)]; eapply H0; eauto.
    - unfold closed in H0. destruct (sMain s) eqn:M; try discriminate.
      pose proof (i_main s I) as Hm. unfold main_ok in Hm. rewrite M in Hm. destruct Hm as (_ & Hm & _).
      pose proof (i_prog s I) as Hp. pose proof (sumn_ge _ cw_rem _ _ _ H) as Hs. simpl in Hs.
      destruct flip; simpl in Hs; lia.
    - unfold closed in H0. destruct (sMain s) eqn:M; try discriminate.
      pose proof (i_main s I) as Hm. unfold main_ok in Hm. rewrite M in Hm. destruct Hm as (_ & Hm & _).
      pose proof (i_prog s I) as Hp. pose proof (sumn_ge _ cw_rem _ _ _ H) as Hs. simpl in Hs.
      destruct flip; simpl in Hs; lia.
  Qed.

  Ltac sums :=
    repeat match goal with
    | E : nth_error (sCW ?s) ?i = Some ?c |- context [sumn ?f (upd (sCW ?s) ?i ?y)] =>
        pose proof (sumn_upd _ f (sCW s) i c y E);
        generalize dependent (sumn f (upd (sCW s) i y)); intros
    | E : nth_error (sSW ?s) ?i = Some ?c |- context [sumn ?f (upd (sSW ?s) ?i ?y)] =>
        pose proof (sumn_upd _ f (sSW s) i c y E);
        generalize dependent (sumn f (upd (sSW s) i y)); intros
    end.

  Lemma finish_inv : forall s j n h checked cur q1 ins,
    PInv s -> sMain s = MSelect -> nth_error (sSW s) j = Some (SWSend n) ->
    (forall x, In x q1 -> In x (sQueue s)) ->
    Forall (fun n => wf n /\ ndWasFlipped n = true /\ scored n) ins ->
    hsMaxItems h <> 1%Z ->
    PInv (finish (set_sw s j SWIdle) n h checked cur q1 ins).
  Proof.
    intros s j n h checked cur q1 ins I M E Hq Hins Hh.
    pose proof (Forall_nth _ _ _ _ _ (i_sws s I) E) as (W & Hsc).
    assert (Q2 : Forall (fun n => wf n /\ inner n)
               (if (ndLevel n <? Z.of_nat cols)%Z then q1 ++ [n] else q1)).
    { assert (Q1 : Forall (fun n => wf n /\ inner n) q1).
      { apply Forall_forall. intros x Hx. pose proof (i_q s I) as Q. rewrite Forall_forall in Q. auto. }
      destruct (Z.ltb_spec (ndLevel n) (Z.of_nat cols)); auto.
      apply Forall_app; split; auto. }
    pose proof (i_prog s I) as Hp. rewrite M in Hp. simpl owed in Hp.
    pose proof (sumn_upd _ sw_busy (sSW s) j _ SWIdle E) as Hs. simpl sw_busy in Hs.
    pose proof (i_tok s I) as Ht. rewrite M in Ht. simpl token in Ht.
    unfold finish. cbn [set_sw sInProg sSW sCW sHs sChecked sLog2 gScored gPruned gRaced gTrimmed].
    set (q2 := if (ndLevel n <? Z.of_nat cols)%Z then q1 ++ [n] else q1) in *.
    set (q3 := if (pMaxQ P <? Z.of_nat (length q2))%Z then RemoveLeastPromising q2 else q2).
    assert (Q3 : Forall (fun n => wf n /\ inner n) q3).
    { unfold q3. destruct (pMaxQ P <? Z.of_nat (length q2))%Z; auto. apply Forall_forall. intros x Hx. apply rlp_incl in Hx.
      rewrite Forall_forall in Q2; auto. }
    destruct (((sInProg s - 1 <=? 0)%Z && (length q3 =? 0)%nat)%bool) eqn:Stop.
    - apply andb_true_iff in Stop. destruct Stop as (S1 & S2). apply Z.leb_le in S1. apply Nat.eqb_eq in S2.
      constructor; cbn [sMain sQueue sInProg sHs sSW sCW gInserted]; auto.
      + rewrite upd_length. apply I.
      + apply I.
      + simpl owed. lia.
      + unfold main_ok; cbn. destruct q3; [|discriminate]. repeat split; lia.
      + apply I.
      + apply Forall_upd; [apply I|exact Logic.I].
      + intro Hd. apply in_upd in Hd. destruct Hd as [Hd|Hd]; [discriminate|].
        apply (i_swd s I) in Hd. unfold closed in Hd. rewrite M in Hd. discriminate.
      + intro Hd. apply (i_cwd s I) in Hd. unfold closed in Hd. rewrite M in Hd. discriminate.
    - constructor; cbn [sMain sQueue sInProg sHs sSW sCW gInserted]; auto.
      + rewrite upd_length. apply I.
      + apply I.
      + simpl owed. lia.
      + unfold main_ok; cbn [sMain sInProg sQueue]. apply andb_false_iff in Stop. destruct Stop as [S1|S2].
        * apply Z.leb_gt in S1. left; lia.
        * right. destruct q3; [discriminate|discriminate].
      + apply I.
      + apply Forall_upd; [apply I|exact Logic.I].
      + intro Hd. apply in_upd in Hd. destruct Hd as [Hd|Hd]; [discriminate|].
        apply (i_swd s I) in Hd. unfold closed in Hd. rewrite M in Hd. discriminate.
      + intro Hd. apply (i_cwd s I) in Hd. unfold closed in Hd. rewrite M in Hd. discriminate.
  Qed.

  Lemma cwd_upd : forall s i y, PInv s -> y <> CWDone ->
    In CWDone (upd (sCW s) i y) -> closed s 1 = true.
  Proof.
    intros s i y I Hy H. apply in_upd in H. destruct H as [H|H]; [congruence|]. apply (i_cwd s I H).
  Qed.
  Lemma swd_upd : forall s i y, PInv s -> y <> SWDone ->
    In SWDone (upd (sSW s) i y) -> closed s 0 = true.
  Proof.
    intros s i y I Hy H. apply in_upd in H. destruct H as [H|H]; [congruence|]. apply (i_swd s I H).
  Qed.

  Lemma cw_next_ok : forall p f, wf0 p -> inner p -> cw_ok (cw_next p f).
  Proof. intros p [] H1 H2; simpl; auto. Qed.
  Lemma cw_next_sums : forall p f, cw_busy (cw_next p f) = 1%nat /\
    (cw_rem (cw_next p f) + 1 = two f)%nat /\ cw_next p f <> CWDone.
  Proof. intros p []; simpl; repeat split; discriminate. Qed.

  (** a local step of child worker [i] from [c] to [c'] with the same counters *)
  Lemma local_inv : forall s i c c', PInv s -> nth_error (sCW s) i = Some c ->
    cw_busy c' = cw_busy c -> cw_rem c' = cw_rem c -> cw_ok c' -> c' <> CWDone ->
    PInv (set_cw s i c').
  Proof.
    intros s i c c' I E H1 H2 H3 H4.
    pose proof (sumn_upd _ cw_busy _ _ _ c' E) as S1. pose proof (sumn_upd _ cw_rem _ _ _ c' E) as S2.
    destruct I as [a1 a2 a3 a4 a5 a6 a7 a8 a9 b1 b2 b3].
    constructor; cbn; auto.
    - rewrite upd_length; auto.
    - lia.
    - lia.
    - apply Forall_upd; auto.
    - intro Hd. apply in_upd in Hd. destruct Hd as [Hd|Hd]; [congruence|]. exact (b3 Hd).
  Qed.

  Lemma set_raced_inv : forall s b, PInv s -> PInv (set_raced s b).
  Proof. intros s b []; constructor; auto. Qed.

  Theorem stp_inv : forall s l s', PInv s -> stp s l s' -> PInv s'.
  Proof.
    intros s l s' I H. destruct H as
      [i M E|j n h M E En Eh|j n M E En|i p flip M E|i M E|i n M E|i j c p flip Ec E Ew|j n E
      |i p flip c E Em|i p flip E Em|i c p flip E El|i c p flip E El|i c p flip e E El|i c p flip e E El
      |k M Hk|j E Ec|i E Ec].
    - (* root *)
      pose proof (sumn_upd _ cw_busy _ _ _ (CWCreate (root_node P) false) E) as S1.
      pose proof (sumn_upd _ cw_rem _ _ _ (CWCreate (root_node P) false) E) as S2.
      pose proof (i_main s I) as Hm. unfold main_ok in Hm. rewrite M in Hm.
      pose proof (i_tok s I) as Ht. rewrite M in Ht. pose proof (i_prog s I) as Hp. rewrite M in Hp.
      cbn [cw_busy cw_rem token owed two] in *.
      constructor; cbn; try apply I.
      + rewrite upd_length; apply I.
      + lia.
      + lia.
      + unfold main_ok; cbn. left; lia.
      + apply Forall_upd; [apply I|apply wf0_root].
      + intro Hd; apply (i_swd s I) in Hd. unfold closed in *; cbn in *. rewrite M in Hd; discriminate.
      + intro Hd; apply cwd_upd in Hd; auto; [|discriminate].
        unfold closed in *; cbn in *. rewrite M in Hd; discriminate.
    - eapply finish_inv; eauto.
      + intros x Hx. destruct (nltb (sCurBest s) (hsBestScore h)); auto. eapply clean_incl; eauto.
      + apply Forall_app; split; [apply I|].
        pose proof (Forall_nth _ _ _ _ _ (i_sws s I) E) as (W & Hsc).
        constructor; auto. split; auto. split; auto. rewrite <- (wf_isNew n W); auto.
      + destruct (hsInsert_ok (sHs s) n (i_max s I)) as (h' & E' & Hm). rewrite E' in Eh. injection Eh as <-.
        rewrite Hm. apply I.
    - eapply finish_inv; eauto; apply I.
    - (* prune *)
      destruct (cw_next_sums p flip) as (N1 & N2 & N3).
      pose proof (sumn_upd _ cw_busy _ _ _ (cw_next p flip) E) as S1.
      pose proof (sumn_upd _ cw_rem _ _ _ (cw_next p flip) E) as S2.
      pose proof (i_tok s I) as Ht. rewrite M in Ht. pose proof (i_prog s I) as Hp. rewrite M in Hp.
      pose proof (Forall_nth _ _ _ _ _ (i_cws s I) E) as (W & Hi).
      cbn [cw_busy cw_rem token owed] in *.
      unfold main_prune. cbn [set_cw sInProg sQueue].
      destruct (((sInProg s - 1 <=? 0)%Z && (length (sQueue s) =? 0)%nat)%bool) eqn:Stop.
      + apply andb_true_iff in Stop. destruct Stop as (T1 & T2). apply Z.leb_le in T1. apply Nat.eqb_eq in T2.
        constructor; cbn; try apply I.
        * rewrite upd_length; apply I.
        * lia.
        * lia.
        * unfold main_ok; cbn. destruct (sQueue s); [|discriminate]. repeat split; lia.
        * apply Forall_upd; [apply I|apply cw_next_ok; auto].
        * intro Hd; apply (i_swd s I) in Hd. unfold closed in *; cbn in *. rewrite M in Hd; discriminate.
        * intro Hd; apply cwd_upd in Hd; auto. unfold closed in *; cbn in *. rewrite M in Hd; discriminate.
      + constructor; cbn; try apply I.
        * rewrite upd_length; apply I.
        * lia.
        * lia.
        * unfold main_ok; cbn [sMain sInProg sQueue]. apply andb_false_iff in Stop. destruct Stop as [T1|T2].
          -- apply Z.leb_gt in T1. left; lia.
          -- right. destruct (sQueue s); [discriminate|discriminate].
        * apply Forall_upd; [apply I|apply cw_next_ok; auto].
        * intro Hd; apply (i_swd s I) in Hd. unfold closed in *; cbn in *. rewrite M in Hd; discriminate.
        * intro Hd; apply cwd_upd in Hd; auto. unfold closed in *; cbn in *. rewrite M in Hd; discriminate.
    - (* ready *)
      pose proof (sumn_upd _ cw_busy _ _ _ CWIdle E) as S1.
      pose proof (sumn_upd _ cw_rem _ _ _ CWIdle E) as S2.
      pose proof (i_tok s I) as Ht. rewrite M in Ht. pose proof (i_prog s I) as Hp. rewrite M in Hp.
      pose proof (i_main s I) as Hm. unfold main_ok in Hm. rewrite M in Hm.
      pose proof (i_q s I) as Hq.
      cbn [cw_busy cw_rem token owed] in *.
      unfold main_ready. cbn [set_cw sQueue]. destruct (sQueue s) as [|n q] eqn:Q.
      + constructor; cbn; try apply I.
        * rewrite upd_length; apply I.
        * lia.
        * lia.
        * unfold main_ok; cbn. destruct Hm as [Hm|Hm]; [auto|congruence].
        * apply Forall_upd; [apply I|exact Logic.I].
        * intro Hd; apply (i_swd s I) in Hd. unfold closed in *; cbn in *. rewrite M in Hd; discriminate.
        * intro Hd; apply cwd_upd in Hd; auto; [|discriminate]. unfold closed in *; cbn in *. rewrite M in Hd; discriminate.
      + inversion Hq as [|? ? (Hw & Hi) Hq']; subst.
        constructor; cbn; try apply I; auto.
        * rewrite upd_length; apply I.
        * lia.
        * lia.
        * unfold main_ok; cbn. split; auto. apply Hw.
        * apply Forall_upd; [apply I|exact Logic.I].
        * intro Hd; apply (i_swd s I) in Hd. unfold closed in *; cbn in *. rewrite M in Hd; discriminate.
        * intro Hd; apply cwd_upd in Hd; auto; [|discriminate]. unfold closed in *; cbn in *. rewrite M in Hd; discriminate.
    - (* want *)
      pose proof (sumn_upd _ cw_busy _ _ _ (cw_start n) E) as S1.
      pose proof (sumn_upd _ cw_rem _ _ _ (cw_start n) E) as S2.
      pose proof (i_tok s I) as Ht. rewrite M in Ht. pose proof (i_prog s I) as Hp. rewrite M in Hp.
      pose proof (i_main s I) as Hm. unfold main_ok in Hm. rewrite M in Hm.
      constructor; cbn; try apply I.
      + rewrite upd_length; apply I.
      + destruct n; cbn [cw_start cw_busy cw_rem token owed two] in *; lia.
      + destruct n; cbn [cw_start cw_busy cw_rem token owed two] in *; lia.
      + unfold main_ok; cbn. left. destruct n; cbn [cw_start cw_busy cw_rem token owed two] in *; lia.
      + apply Forall_upd; [apply I|]. destruct n; cbn; auto.
      + intro Hd; apply (i_swd s I) in Hd. unfold closed in *; cbn in *. rewrite M in Hd; discriminate.
      + intro Hd; apply cwd_upd in Hd; auto; [|destruct n; discriminate].
        unfold closed in *; cbn in *. rewrite M in Hd; discriminate.
    - (* node *)
      destruct (cw_next_sums p flip) as (N1 & N2 & N3).
      pose proof (sumn_upd _ cw_busy _ _ _ (cw_next p flip) E) as S1.
      pose proof (sumn_upd _ cw_rem _ _ _ (cw_next p flip) E) as S2.
      pose proof (sumn_upd _ sw_busy _ _ _ (SWBusy c) Ew) as S3.
      pose proof (Forall_nth _ _ _ _ _ (i_cws s I) E) as ((W & Hi) & Wc & _).
      pose proof (i_tok s I) as Ht. pose proof (i_prog s I) as Hp.
      cbn [cw_busy cw_rem sw_busy] in *.
      constructor; cbn; try apply I.
      + rewrite upd_length; apply I.
      + rewrite upd_length; apply I.
      + lia.
      + lia.
      + apply Forall_upd; [apply I|apply cw_next_ok; auto].
      + apply Forall_upd; [apply I|auto].
      + intro Hd; apply swd_upd in Hd; auto; discriminate.
      + intro Hd; apply cwd_upd in Hd; auto.
    - (* compute *)
      pose proof (sumn_upd _ sw_busy _ _ _ (SWSend (score_node P n)) E) as S3.
      pose proof (Forall_nth _ _ _ _ _ (i_sws s I) E) as W. simpl in W.
      pose proof (i_prog s I) as Hp. cbn [sw_busy] in *.
      constructor; cbn; try apply I.
      + rewrite upd_length; apply I.
      + lia.
      + apply Forall_upd; [apply I|]. simpl. split; [apply score_node_wf; auto|].
        intro Hn. destruct (score_node_fields n) as (E1 & E2 & E3 & E4).
        apply score_node_scored.
        rewrite (wf_isNew _ (score_node_wf n W)) in Hn. rewrite (wf_isNew n W). congruence.
      + intro Hd; apply swd_upd in Hd; auto; discriminate.
    - (* create *)
      pose proof (Forall_nth _ _ _ _ _ (i_cws s I) E) as (W & Hi).
      eapply local_inv; eauto; try reflexivity; try discriminate.
      destruct (make_child_spec p flip W Hi) as [(c' & E' & Wc & A & B & C)|(E' & _)]; [|congruence].
      rewrite E' in Em. injection Em as <-. simpl. auto 10.
    - pose proof (Forall_nth _ _ _ _ _ (i_cws s I) E) as (W & Hi).
      eapply local_inv; eauto; try reflexivity; try discriminate. simpl; auto.
    - pose proof (Forall_nth _ _ _ _ _ (i_cws s I) E) as W.
      eapply local_inv; eauto; try reflexivity; try discriminate.
    - pose proof (Forall_nth _ _ _ _ _ (i_cws s I) E) as W.
      eapply local_inv; eauto; try reflexivity; try discriminate.
    - pose proof (Forall_nth _ _ _ _ _ (i_cws s I) E) as W. simpl in W.
      apply set_raced_inv. eapply local_inv; eauto; try reflexivity; try discriminate. simpl; tauto.
    - pose proof (Forall_nth _ _ _ _ _ (i_cws s I) E) as W.
      eapply local_inv; eauto; try reflexivity; try discriminate.
    - (* close *)
      pose proof (i_tok s I) as Ht. rewrite M in Ht. pose proof (i_prog s I) as Hp. rewrite M in Hp.
      pose proof (i_main s I) as Hm. unfold main_ok in Hm. rewrite M in Hm.
      constructor; cbn; try apply I; auto.
      + unfold main_ok; cbn. destruct Hm as (? & ? & ?). repeat split; auto.
      + intro Hd; apply (i_cwd s I) in Hd. unfold closed in *; cbn in *. rewrite M in Hd.
        destruct k as [|[|k]]; try discriminate; reflexivity.
    - pose proof (sumn_upd _ sw_busy _ _ _ SWDone E) as S3. cbn [sw_busy] in *.
      pose proof (i_prog s I) as Hp.
      constructor; cbn; try apply I; auto.
      + rewrite upd_length; apply I.
      + lia.
      + apply Forall_upd; [apply I|exact Logic.I].
    - pose proof (sumn_upd _ cw_busy _ _ _ CWDone E) as S1. pose proof (sumn_upd _ cw_rem _ _ _ CWDone E) as S3.
      cbn [cw_busy cw_rem] in *.
      pose proof (i_prog s I) as Hp. pose proof (i_tok s I) as Ht.
      constructor; cbn; try apply I; auto.
      + rewrite upd_length; apply I.
      + lia.
      + lia.
      + apply Forall_upd; [apply I|exact Logic.I].
  Qed.

  (** reachable states *)
  Inductive reach (s0 : st N) : st N -> Prop :=
  | reach_0 : reach s0 s0
  | reach_step s l s' : reach s0 s -> stp s l s' -> reach s0 s'.

  Lemma reach_trans : forall s0 s1 s2, reach s0 s1 -> reach s1 s2 -> reach s0 s2.
  Proof. intros s0 s1 s2 H1 H2. induction H2; auto. econstructor; eauto. Qed.

  Lemma reach_inv : forall s0 s, PInv s0 -> reach s0 s -> PInv s.
  Proof. intros s0 s I H. induction H; auto. eapply stp_inv; eauto. Qed.

  Lemma run_reach : forall ls s r, PInv s -> run P s ls = Some r ->
    exists s', r = Ok s' /\ reach s s'.
  Proof.
    induction ls as [|l ls IH]; intros s r I E; simpl in E.
    - injection E as <-. exists s; split; auto. constructor.
    - destruct (exec P s l) as [r0|] eqn:Ex; [|discriminate].
      destruct (exec_view _ _ _ Ex) as [(s1 & -> & Hs)|B]; [|exfalso; eapply not_bad; eauto].
      destruct (IH s1 r (stp_inv _ _ _ I Hs) E) as (s2 & -> & R).
      exists s2; split; auto. eapply reach_trans; eauto. econstructor; [constructor|eauto].
  Qed.
End S.
