(** Proofs about Model_Node.v *)
From Coq Require Import Sorting.Permutation Sorting.Sorted.
From Verif Require Import Base Num Mat Model_Node.

(** ** Bit vectors *)

Lemma nf_acc : forall l a,
  fold_left (fun num flag => if flag : bool then S num else num) l a = (a + NumFeatures l)%nat.
Proof.
  unfold NumFeatures. induction l as [|b l IH]; intro a; simpl; [lia|].
  destruct b; rewrite IH; [rewrite (IH 1%nat)|]; lia.
Qed.

Lemma NumFeatures_nil : NumFeatures [] = 0%nat.
Proof. reflexivity. Qed.

Lemma NumFeatures_cons : forall b l,
  NumFeatures (b :: l) = ((if b then 1 else 0) + NumFeatures l)%nat.
Proof.
  intros b l. unfold NumFeatures at 1. simpl. rewrite nf_acc. destruct b; reflexivity.
Qed.

Lemma NumFeatures_app : forall l1 l2,
  NumFeatures (l1 ++ l2) = (NumFeatures l1 + NumFeatures l2)%nat.
Proof.
  induction l1 as [|b l1 IH]; intro l2; simpl; auto.
  rewrite !NumFeatures_cons, IH; lia.
Qed.

Lemma NumFeatures_le_length : forall l, (NumFeatures l <= length l)%nat.
Proof.
  induction l as [|b l IH]; [reflexivity|]. rewrite NumFeatures_cons; simpl; destruct b; lia.
Qed.

Lemma NumFeatures_repeat : forall b n,
  NumFeatures (repeat b n) = (if b then n else 0)%nat.
Proof.
  intros b n; induction n as [|n IH]; simpl; [destruct b; reflexivity|].
  rewrite NumFeatures_cons, IH; destruct b; lia.
Qed.

Fixpoint sel_from (i : nat) (l : list bool) : list Z :=
  match l with
  | [] => []
  | b :: t => if b then Z.of_nat i :: sel_from (S i) t else sel_from (S i) t
  end.

Lemma setn_at_end : forall A (d : list A) x y r,
  setn (d ++ x :: r) (length d) y = Ok (d ++ y :: r).
Proof.
  intros A d x y r. rewrite setn_lt by (rewrite app_length; simpl; lia). f_equal.
  induction d as [|a d IH]; simpl; auto. rewrite IH; reflexivity.
Qed.

Lemma selected_loop_gen : forall model i d,
  for_eachi i model
      (fun i v (st : list Z * nat) =>
         let '(sel, counter) := st in
         if v : bool then do sel' <- setn sel counter (Z.of_nat i); Ok (sel', S counter)
         else Ok (sel, counter))
      (d ++ repeat 0%Z (NumFeatures model), length d)
  = Ok (d ++ sel_from i model, (length d + NumFeatures model)%nat).
Proof.
  induction model as [|b model IH]; intros i d.
  - simpl. rewrite NumFeatures_nil; simpl. rewrite Nat.add_0_r; reflexivity.
  - rewrite NumFeatures_cons. destruct b; simpl.
    + rewrite setn_at_end. cbn [bind].
      specialize (IH (S i) (d ++ [Z.of_nat i])).
      rewrite app_length in IH; simpl in IH. rewrite <- !app_assoc in IH; simpl in IH.
      replace (length d + 1)%nat with (S (length d)) in IH by lia.
      rewrite IH. f_equal. f_equal. lia.
    + rewrite IH. reflexivity.
Qed.

Lemma selected_loop_eq : forall model, selected_loop model = Ok (sel_from 0 model).
Proof.
  intro model. unfold selected_loop.
  pose proof (selected_loop_gen model 0 []) as H. simpl in H. rewrite H. reflexivity.
Qed.

Lemma sel_from_length : forall l i, length (sel_from i l) = NumFeatures l.
Proof.
  induction l as [|b l IH]; intro i; [reflexivity|].
  rewrite NumFeatures_cons; simpl. destruct b; simpl; rewrite IH; reflexivity.
Qed.

Lemma sel_from_In : forall l i z,
  In z (sel_from i l) <-> exists k, z = Z.of_nat (i + k) /\ nth_error l k = Some true.
Proof.
  induction l as [|b l IH]; intros i z; simpl.
  - split; [intros []|intros (k & _ & H); destruct k; discriminate].
  - destruct b; simpl; rewrite IH; split.
    + intros [H|(k & H1 & H2)].
      * exists 0%nat; split; [subst; f_equal; lia|reflexivity].
      * exists (S k); split; [subst; f_equal; lia|exact H2].
    + intros ([|k] & H1 & H2).
      * left; subst; f_equal; lia.
      * right; exists k; split; [subst; f_equal; lia|exact H2].
    + intros (k & H1 & H2). exists (S k); split; [subst; f_equal; lia|exact H2].
    + intros ([|k] & H1 & H2); [discriminate|].
      exists k; split; [subst; f_equal; lia|exact H2].
Qed.

Lemma sel_from_sorted : forall l i, StronglySorted Z.lt (sel_from i l).
Proof.
  induction l as [|b l IH]; intro i; simpl; [constructor|].
  destruct b; auto. constructor; auto.
  apply Forall_forall. intros z Hz. apply sel_from_In in Hz.
  destruct Hz as (k & -> & _). lia.
Qed.

(** ** Selected2Model *)

Definition zmem (z : Z) (l : list Z) : bool := existsb (Z.eqb z) l.

Lemma zmem_In : forall z l, zmem z l = true <-> In z l.
Proof.
  intros z l; unfold zmem. rewrite existsb_exists. split.
  - intros (x & Hx & E). apply Z.eqb_eq in E; subst; auto.
  - intro H; exists z; split; auto. apply Z.eqb_refl.
Qed.

Lemma set_true_loop : forall sel m,
  (forall v, In v sel -> 0 <= v < Z.of_nat (length m))%Z ->
  exists m', for_each sel (fun v m => setz m v true) m = Ok m' /\
    length m' = length m /\
    forall k, nth k m' false = (nth k m false || ((k <? length m)%nat && zmem (Z.of_nat k) sel))%bool.
Proof.
  induction sel as [|v sel IH]; intros m H; simpl.
  - exists m; repeat split; auto. intro k. rewrite andb_false_r, orb_false_r; reflexivity.
  - assert (Hv : (0 <= v < Z.of_nat (length m))%Z) by (apply H; left; auto).
    rewrite setz_in by auto. simpl.
    destruct (IH (upd m (Z.to_nat v) true)) as (m' & H1 & H2 & H3).
    + intros v' Hin. rewrite upd_length. apply H; right; auto.
    + exists m'; split; [exact H1|]. rewrite upd_length in *. split; [exact H2|].
      intro k. rewrite H3, nth_upd.
      destruct (Z.eqb_spec (Z.of_nat k) v) as [E|E].
      * assert (k = Z.to_nat v) by lia. subst k. rewrite Nat.eqb_refl. simpl.
        destruct (Nat.ltb_spec (Z.to_nat v) (length m)); [|lia]. simpl.
        rewrite orb_true_r; reflexivity.
      * destruct (Nat.eqb_spec k (Z.to_nat v)); [exfalso; apply E; lia|]. simpl.
        reflexivity.
Qed.

Lemma set_true_loop_panic : forall sel m,
  (exists v, In v sel /\ ~ (0 <= v < Z.of_nat (length m))%Z) ->
  for_each sel (fun v m => setz m v true) m = Panic.
Proof.
  induction sel as [|v sel IH]; intros m (w & Hin & Hw); [destruct Hin|]. simpl.
  destruct (Z_lt_le_dec v 0) as [Hv|Hv]; [rewrite setz_out by lia; reflexivity|].
  destruct (Z_lt_le_dec v (Z.of_nat (length m))) as [Hv2|Hv2];
    [|rewrite setz_out by lia; reflexivity].
  rewrite setz_in by lia. simpl. apply IH. rewrite upd_length.
  destruct Hin as [->|Hin]; [lia|]. exists w; auto.
Qed.

Lemma list_nth_ext : forall (a b : list bool), length a = length b ->
  (forall k, (k < length a)%nat -> nth k a false = nth k b false) -> a = b.
Proof.
  intros a b Hl H. apply (nth_ext a b false false); auto.
Qed.

Lemma nth_error_nth_bool : forall (l : list bool) k,
  nth_error l k = Some true <-> nth k l false = true.
Proof.
  induction l as [|b l IH]; intros [|k]; simpl; split; intro H; try discriminate; try congruence.
  - apply IH; auto.
  - apply IH; auto.
Qed.

Lemma nth_repeat_false : forall n k, nth k (repeat false n) false = false.
Proof. induction n; intros [|k]; simpl; auto. Qed.

Lemma set_true_roundtrip : forall model,
  for_each (sel_from 0 model) (fun v m => setz m v true) (repeat false (length model)) = Ok model.
Proof.
  intro model.
  destruct (set_true_loop (sel_from 0 model) (repeat false (length model))) as (m' & H1 & H2 & H3).
  - intros v Hv. apply sel_from_In in Hv. destruct Hv as (k & -> & Hk).
    rewrite repeat_length. assert (k < length model)%nat by (apply nth_error_Some; congruence). lia.
  - rewrite H1. f_equal. apply list_nth_ext.
    + rewrite H2, repeat_length; auto.
    + intros k Hk. rewrite H3, nth_repeat_false. simpl. rewrite repeat_length in *.
      rewrite H2, ?repeat_length in Hk.
      destruct (Nat.ltb_spec k (length model)); [|lia]. simpl.
      apply eq_true_iff_eq. rewrite zmem_In, sel_from_In.
      rewrite <- nth_error_nth_bool. split.
      * intros (k' & E & Hk'). assert (k = k') by lia. subst; auto.
      * intro E; exists k; split; auto.
Qed.

(** ** go_copy *)
Lemma go_copy_full : forall A (z : A) l, go_copy (repeat z (length l)) l = l.
Proof.
  intros A z l. unfold go_copy. rewrite repeat_length, firstn_all, skipn_all2, app_nil_r; auto.
  rewrite repeat_length; lia.
Qed.

Lemma skipn_repeat : forall A (z : A) n k, skipn k (repeat z n) = repeat z (n - k).
Proof.
  intros A z n; induction n as [|n IH]; intros [|k]; simpl; auto.
Qed.

(** ** Gcs / Lcs *)
Lemma set_loop_tail : forall (v : bool) n l pre,
  length l = n ->
  for_loop (length pre) n (fun i g => setn g i v) (pre ++ l) = Ok (pre ++ repeat v n).
Proof.
  induction n as [|n IH]; intros l pre Hl; destruct l as [|x l]; simpl in *; try discriminate; auto.
  rewrite setn_at_end. simpl.
  specialize (IH l (pre ++ [v])). rewrite app_length in IH; simpl in IH.
  replace (length pre + 1)%nat with (S (length pre)) in IH by lia.
  rewrite <- !app_assoc in IH. simpl in IH. apply IH. lia.
Qed.

Lemma Xcs_eq : forall v model start, (0 <= start <= Z.of_nat (length model))%Z ->
  (do pre <- slice_to model start;
   let g := go_copy (repeat false (length model)) pre in
   let a := Z.to_nat start in
   for_loop a (length model - a) (fun i g => setn g i v) g)
  = Ok (firstn (Z.to_nat start) model ++ repeat v (length model - Z.to_nat start)).
Proof.
  intros v model start H. unfold slice_to.
  destruct (Z.ltb_spec start 0); [lia|].
  destruct (Z.ltb_spec (Z.of_nat (length model)) start); [lia|].
  cbn [orb bind]. unfold go_copy. cbv zeta. set (a := Z.to_nat start).
  assert (Ha : (a <= length model)%nat) by (unfold a; lia).
  assert (Hf : length (firstn a model) = a) by (rewrite firstn_length; lia).
  rewrite repeat_length. rewrite skipn_repeat, Hf.
  assert (E : firstn (length model) (firstn a model) = firstn a model).
  { rewrite firstn_firstn. f_equal; lia. }
  rewrite E.
  pose proof (set_loop_tail v (length model - a) (repeat false (length model - a)) (firstn a model)
               (repeat_length _ _)) as P.
  rewrite Hf in P. exact P.
Qed.

Lemma Gcs_eq : forall model start, (0 <= start <= Z.of_nat (length model))%Z ->
  Gcs model start
  = Ok (firstn (Z.to_nat start) model ++ repeat true (length model - Z.to_nat start)).
Proof. intros. apply Xcs_eq; auto. Qed.

Lemma Lcs_eq : forall model start, (0 <= start <= Z.of_nat (length model))%Z ->
  Lcs model start
  = Ok (firstn (Z.to_nat start) model ++ repeat false (length model - Z.to_nat start)).
Proof. intros. apply Xcs_eq; auto. Qed.

Lemma GcsLcs_panic : forall model start, ~ (0 <= start <= Z.of_nat (length model))%Z ->
  Gcs model start = Panic /\ Lcs model start = Panic.
Proof.
  intros model start H. unfold Gcs, Lcs, slice_to.
  destruct (Z.ltb_spec start 0); [auto|].
  destruct (Z.ltb_spec (Z.of_nat (length model)) start); [auto|lia].
Qed.

(** ** Highscore *)
Section HS.
  Variable N : Num.
  Hypothesis L : OrdLaws N.
  Notation node := (Node N).

  Definition desc (l : list node) : Prop :=
    StronglySorted (fun a b => nltb (ndScore a) (ndScore b) = false) l.

  Definition nonan (n : node) : Prop := nisnan (ndScore n) = false.

  Definition tie (l : list node) : Prop :=
    exists l1 x l2 y l3, l = l1 ++ x :: l2 ++ y :: l3 /\
      nltb (ndScore x) (ndScore y) = false /\ nltb (ndScore y) (ndScore x) = false.

  Record HInv (M : Z) (h : Highscore N) (ins : list node) : Prop := {
    hi_max : hsMaxItems h = M;
    hi_sorted : desc (hsItems h);
    hi_nonan : forall x, In x (hsItems h) -> nonan x;
    hi_drop : exists dropped, Permutation (hsItems h ++ dropped) ins /\
        (forall d x, In d dropped -> In x (hsItems h) -> nltb (ndScore x) (ndScore d) = false) /\
        (dropped <> [] -> (M - 1 <= hsLen h)%Z);
    hi_cap : (hsLen h <= M)%Z;
    hi_tie : hsLen h = M -> tie ins
  }.

  Lemma insert_before_some : forall (n : node) l l', hs_insert_before n l = Some l' ->
    exists a b0 b, l = a ++ b0 :: b /\ l' = a ++ n :: b0 :: b /\
      (forall x, In x a -> nltb (ndScore x) (ndScore n) = false) /\
      nltb (ndScore b0) (ndScore n) = true.
  Proof.
    induction l as [|y l IH]; intros l' H; simpl in H; [discriminate|].
    destruct (nltb (ndScore y) (ndScore n)) eqn:E.
    - injection H as <-. exists [], y, l. repeat split; auto. intros x [].
    - destruct (hs_insert_before n l) as [l0|] eqn:E0; [|discriminate].
      injection H as <-.
      destruct (IH l0 eq_refl) as (a & b0 & b & -> & -> & Ha & Hb).
      exists (y :: a), b0, b. repeat split; auto.
      intros x [<-|Hx]; auto.
  Qed.

  Lemma insert_before_none : forall (n : node) l, hs_insert_before n l = None ->
    forall x, In x l -> nltb (ndScore x) (ndScore n) = false.
  Proof.
    induction l as [|y l IH]; intros H x Hx; [destruct Hx|]. simpl in H.
    destruct (nltb (ndScore y) (ndScore n)) eqn:E; [discriminate|].
    destruct (hs_insert_before n l) as [l0|] eqn:E0; [discriminate|].
    destruct Hx as [<-|Hx]; auto.
  Qed.

  Lemma insert_before_none_iff : forall (n : node) l,
    (forall x, In x l -> nltb (ndScore x) (ndScore n) = false) -> hs_insert_before n l = None.
  Proof.
    induction l as [|y l IH]; intro H; simpl; auto.
    rewrite H by (left; auto). rewrite IH; auto. intros x Hx; apply H; right; auto.
  Qed.

  Lemma desc_app : forall a b, desc (a ++ b) <->
    desc a /\ desc b /\ forall x y, In x a -> In y b -> nltb (ndScore x) (ndScore y) = false.
  Proof.
    induction a as [|x a IH]; intro b; simpl.
    - split; [intro H; repeat split; auto; [constructor|intros x y []]|intros (_&H&_); auto].
    - unfold desc in *. split.
      + intro H. apply StronglySorted_inv in H. destruct H as [H1 H2].
        apply IH in H1. destruct H1 as (Ha & Hb & Hab). rewrite Forall_app in H2.
        destruct H2 as [H2a H2b]. repeat split; auto.
        * constructor; auto.
        * intros u v [<-|Hu] Hv; auto. rewrite Forall_forall in H2b; auto.
      + intros (Ha & Hb & Hab). apply StronglySorted_inv in Ha. destruct Ha as [Ha1 Ha2].
        constructor.
        * apply IH. repeat split; auto.
        * apply Forall_app; split; auto. apply Forall_forall; intros y Hy; apply Hab; auto.
  Qed.

  Lemma desc_cons : forall x b, desc (x :: b) <->
    desc b /\ forall y, In y b -> nltb (ndScore x) (ndScore y) = false.
  Proof.
    intros x b. unfold desc. split.
    - intro H. apply StronglySorted_inv in H. destruct H as [H1 H2]. rewrite Forall_forall in H2. auto.
    - intros [H1 H2]. constructor; auto. apply Forall_forall; auto.
  Qed.

  Lemma perm_tie : forall ins l (n x : node),
    In x ins -> nltb (ndScore x) (ndScore n) = false -> nltb (ndScore n) (ndScore x) = false ->
    tie (ins ++ n :: l).
  Proof.
    intros ins l n x Hin H1 H2. apply in_split in Hin. destruct Hin as (l1 & l2 & ->).
    exists l1, x, l2, n, l. rewrite <- app_assoc. simpl. auto.
  Qed.

  Lemma tie_app : forall ins l, tie ins -> tie (ins ++ l).
  Proof.
    intros ins l (l1 & x & l2 & y & l3 & -> & H). exists l1, x, l2, y, (l3 ++ l).
    split; auto. rewrite <- app_assoc. simpl. rewrite <- app_assoc. reflexivity.
  Qed.

  Lemma hinv_step : forall M h ins n, (2 <= M)%Z -> HInv M h ins -> nonan n ->
    exists h', hsInsert h n = Ok h' /\ HInv M h' (ins ++ [n]).
  Proof.
    intros M h ins n HM HI Hn. destruct h as [items mx].
    destruct HI as [Hmax Hs Hnn (dr & Hp & Hd & Hdl) Hc Ht].
    unfold hsLen in *; simpl in *. subst mx.
    assert (Hlen : (length items + length dr)%nat = length ins).
    { rewrite <- app_length. apply Permutation_length; auto. }
    (* the continuation after the early-return check *)
    assert (Hcont : (Z.of_nat (length items) = M - 1 ->
              exists a last, items = a ++ [last] /\ nltb (ndScore n) (ndScore last) = false)%Z ->
      exists h', match hs_insert_before n items with
      | Some l => Ok (mkHS (if (M <=? Z.of_nat (length l))%Z then removelast l else l) M)
      | None => if (Z.of_nat (length items) <? M)%Z then Ok (mkHS (items ++ [n]) M)
                else Ok (mkHS items M)
      end = Ok h' /\ HInv M h' (ins ++ [n])).
    { intro Hlast. destruct (hs_insert_before n items) as [l'|] eqn:E.
      - destruct (insert_before_some _ _ _ E) as (a & b0 & b & -> & -> & Ha & Hb).
        eexists; split; [reflexivity|].
        assert (Hab := proj1 (desc_app a (b0 :: b)) Hs). destruct Hab as (Da & Db & Dab).
        assert (Db' := proj1 (desc_cons b0 b) Db). destruct Db' as (Db1 & Db2).
        assert (Hnb : forall y, In y (b0 :: b) -> nltb (ndScore n) (ndScore y) = false).
        { intros y [<-|Hy]; [apply (ltb_asym L); auto|].
          apply (ol_negtrans L _ (ndScore b0)); [apply Hnn; apply in_or_app; right; left; auto| |auto].
          apply (ltb_asym L); auto. }
        assert (Hbn : forall y, In y (b0 :: b) -> nltb (ndScore y) (ndScore n) = true).
        { intros y [<-|Hy]; auto.
          eapply (le_lt_trans L); [apply Hnn; apply in_or_app; right; right; auto|apply Db2; auto|auto]. }
        assert (Dl' : desc (a ++ n :: b0 :: b)).
        { apply desc_app. repeat split; auto.
          - apply desc_cons; split; auto.
          - intros x y Hx [<-|Hy]; auto. }
        destruct (Z.leb_spec M (Z.of_nat (length (a ++ n :: b0 :: b)))) as [Hle|Hgt].
        + destruct (exists_last (l := b0 :: b)) as (b' & z & Hz); [discriminate|].
          assert (Hl' : a ++ n :: b0 :: b = (a ++ n :: b') ++ [z]).
          { rewrite Hz, <- app_assoc. reflexivity. }
          rewrite Hl', removelast_last.
          assert (Hleneq : length (a ++ n :: b') = length (a ++ b0 :: b)).
          { rewrite Hz, !app_length. simpl. lia. }
          assert (Hzin : In z (b0 :: b)) by (rewrite Hz; apply in_or_app; right; left; auto).
          rewrite Hl' in Dl'. apply desc_app in Dl'. destruct Dl' as (Dn & _ & Dnz).
          constructor; simpl; auto.
          * intros x Hx. apply in_app_or in Hx. destruct Hx as [Hx|[<-|Hx]]; auto.
            -- apply Hnn, in_or_app; auto.
            -- apply Hnn, in_or_app; right. rewrite Hz. apply in_or_app; auto.
          * exists (z :: dr). split; [|split].
            -- rewrite <- Hp. rewrite Hz.
               transitivity (n :: (a ++ b' ++ [z]) ++ dr).
               2:{ apply Permutation_cons_append. }
               replace ((a ++ n :: b') ++ z :: dr) with (a ++ n :: (b' ++ z :: dr))
                 by (rewrite <- app_assoc; reflexivity).
               replace ((a ++ b' ++ [z]) ++ dr) with (a ++ (b' ++ z :: dr))
                 by (rewrite <- !app_assoc; reflexivity).
               symmetry; apply Permutation_middle.
            -- intros d x [<-|Hdd] Hx.
               ++ apply Dnz; auto. left; auto.
               ++ apply in_app_or in Hx. destruct Hx as [Hx|[<-|Hx]].
                  ** apply Hd; auto. apply in_or_app; auto.
                  ** apply (ol_negtrans L _ (ndScore z)).
                     { apply Hnn, in_or_app; right; auto. }
                     { apply (ltb_asym L). apply Hbn; auto. }
                     { apply Hd; auto. apply in_or_app; right; auto. }
                  ** apply Hd; auto. apply in_or_app; right. rewrite Hz; apply in_or_app; auto.
            -- intros _. unfold hsLen; simpl. rewrite Hleneq.
               rewrite !app_length in *; simpl in *. lia.
          * unfold hsLen; simpl. rewrite Hleneq. auto.
          * unfold hsLen; simpl. rewrite Hleneq. intro E2. apply tie_app; auto.
        + assert (dr = []).
          { destruct dr; auto. exfalso.
            assert (M - 1 <= Z.of_nat (length (a ++ b0 :: b)))%Z by (apply Hdl; discriminate).
            rewrite !app_length in *; simpl in *. lia. }
          subst dr. rewrite app_nil_r in Hp.
          constructor; simpl; auto.
          * intros x Hx. apply in_app_or in Hx. destruct Hx as [Hx|[<-|Hx]]; auto;
              apply Hnn, in_or_app; auto.
          * exists []. rewrite app_nil_r. repeat split.
            -- rewrite <- Hp. rewrite <- Permutation_middle. apply Permutation_cons_append.
            -- intros d x [].
            -- intro H; exfalso; apply H; reflexivity.
          * unfold hsLen; simpl. rewrite !app_length in *; simpl in *. lia.
          * unfold hsLen; simpl. rewrite !app_length in *; simpl in *. lia.
      - assert (Hall := insert_before_none _ _ E).
        destruct (Z.ltb_spec (Z.of_nat (length items)) M) as [Hlt|Hge].
        + eexists; split; [reflexivity|]. constructor; simpl; auto.
          * apply desc_app. repeat split; auto.
            -- apply desc_cons; split; [constructor|intros y []].
            -- intros x y Hx [<-|[]]; auto.
          * intros x Hx. apply in_app_or in Hx. destruct Hx as [Hx|[<-|[]]]; auto.
          * exists dr. split; [|split].
            -- rewrite <- app_assoc. simpl. rewrite <- Permutation_middle.
               rewrite Hp. apply Permutation_cons_append.
            -- intros d x Hdd Hx. apply in_app_or in Hx. destruct Hx as [Hx|[<-|[]]]; auto.
               destruct Hlast as (a & last & -> & Hl).
               { assert (M - 1 <= Z.of_nat (length items))%Z; [|lia].
                 apply Hdl. intro; subst; destruct Hdd. }
               apply (ol_negtrans L _ (ndScore last)); auto.
               ++ apply Hnn, in_or_app; right; left; auto.
               ++ apply Hd; auto. apply in_or_app; right; left; auto.
            -- unfold hsLen; simpl. rewrite app_length; simpl. intro H.
               specialize (Hdl H). lia.
          * unfold hsLen; simpl. rewrite app_length; simpl. lia.
          * unfold hsLen; simpl. rewrite app_length; simpl. intro E2.
            destruct Hlast as (a & last & -> & Hl); [lia|].
            apply perm_tie with (x := last); auto.
            -- eapply Permutation_in; [exact Hp|]. apply in_or_app; left; apply in_or_app; right; left; auto.
            -- apply Hall. apply in_or_app; right; left; auto.
        + eexists; split; [reflexivity|]. constructor; simpl; auto.
          * exists (dr ++ [n]). split; [|split].
            -- rewrite app_assoc. apply Permutation_app_tail; auto.
            -- intros d x Hdd Hx. apply in_app_or in Hdd. destruct Hdd as [Hdd|[<-|[]]]; auto.
            -- intros _. unfold hsLen; simpl; lia.
          * unfold hsLen; simpl. intros _. apply tie_app; apply Ht. lia. }
    unfold hsInsert, hsLen; simpl.
    destruct (Z.eqb_spec (Z.of_nat (length items)) (M - 1)) as [E|E].
    - destruct (rev items) as [|last r] eqn:Er.
      { apply (f_equal (@length _)) in Er. rewrite rev_length in Er; simpl in Er. lia. }
      assert (Hi : items = rev r ++ [last]).
      { rewrite <- (rev_involutive items), Er. reflexivity. }
      destruct (nltb (ndScore n) (ndScore last)) eqn:El.
      + eexists; split; [reflexivity|]. constructor; simpl; auto.
        * exists (dr ++ [n]). split; [|split].
          -- rewrite app_assoc. apply Permutation_app_tail; auto.
          -- intros d x Hdd Hx. apply in_app_or in Hdd. destruct Hdd as [Hdd|[<-|[]]]; auto.
             apply (ol_negtrans L _ (ndScore last)).
             ++ apply Hnn. rewrite Hi. apply in_or_app; right; left; auto.
             ++ rewrite Hi in Hx, Hs. apply desc_app in Hs. destruct Hs as (_ & _ & Hs).
                apply in_app_or in Hx. destruct Hx as [Hx|[<-|[]]].
                ** apply Hs; auto. left; auto.
                ** apply (ol_irrefl L).
             ++ apply (ltb_asym L); auto.
          -- intros _. unfold hsLen; simpl. lia.
        * unfold hsLen; simpl. intro. lia.
      + apply Hcont. intros _. exists (rev r), last. auto.
    - apply Hcont. intro; contradiction.
  Qed.

  Lemma hinv_init : forall M, (2 <= M)%Z -> HInv M (NewHighscore M) [].
  Proof.
    intros M HM. constructor; simpl; auto.
    - constructor.
    - intros x [].
    - exists []. simpl. repeat split; auto. + intros d x []. + intro H; exfalso; apply H; auto.
    - unfold hsLen; simpl; lia.
    - unfold hsLen; simpl; lia.
  Qed.

  Lemma hinv_all : forall nodes M h ins, (2 <= M)%Z -> HInv M h ins -> Forall nonan nodes ->
    exists h', hsInsertAll h nodes = Ok h' /\ HInv M h' (ins ++ nodes).
  Proof.
    unfold hsInsertAll. induction nodes as [|n nodes IH]; intros M h ins HM HI Hn; simpl.
    - exists h; rewrite app_nil_r; auto.
    - inversion Hn; subst. destruct (hinv_step M h ins n HM HI) as (h1 & E1 & I1); auto.
      rewrite E1; simpl. destruct (IH M h1 _ HM I1) as (h2 & E2 & I2); auto.
      exists h2; split; auto. rewrite <- app_assoc in I2; exact I2.
  Qed.

  Lemma hs_nonpos_empty : forall nodes M, (M <= 0)%Z ->
    hsInsertAll (N:=N) (NewHighscore M) nodes = Ok (NewHighscore M).
  Proof.
    intros nodes M HM. unfold hsInsertAll.
    assert (E : forall n : node, hsInsert (NewHighscore M) n = Ok (NewHighscore M)).
    { intro n. unfold hsInsert. change (hsLen (N:=N) (NewHighscore M)) with 0%Z.
      cbn [hsMaxItems hsItems NewHighscore hs_insert_before].
      destruct (Z.eqb_spec 0 (M - 1)); [lia|]. destruct (Z.ltb_spec 0 M); [lia|]. reflexivity. }
    induction nodes as [|n nodes IH]; simpl; auto. rewrite E. exact IH.
  Qed.

  Lemma hs_one_panics : forall n nodes, hsInsertAll (N:=N) (NewHighscore 1) (n :: nodes) = Panic.
  Proof. reflexivity. Qed.

  (** re-inserting a sorted list with spare room rebuilds it *)
  Lemma reinsert : forall (rest done : list node) M,
    desc (done ++ rest) -> (Z.of_nat (length (done ++ rest)) < M)%Z ->
    hsInsertAll (mkHS done M) rest = Ok (mkHS (done ++ rest) M).
  Proof.
    unfold hsInsertAll. induction rest as [|n rest IH]; intros done M Hs Hl; simpl.
    - rewrite app_nil_r; auto.
    - assert (E : hsInsert (mkHS done M) n = Ok (mkHS (done ++ [n]) M)).
      { unfold hsInsert, hsLen; simpl. rewrite app_length in Hl; simpl in Hl.
        destruct (Z.eqb_spec (Z.of_nat (length done)) (M - 1)); [lia|].
        rewrite insert_before_none_iff.
        - destruct (Z.ltb_spec (Z.of_nat (length done)) M); [auto|lia].
        - intros x Hx. apply desc_app in Hs. destruct Hs as (_ & _ & Hs). apply Hs; auto. left; auto. }
      rewrite E; simpl.
      assert (E2 : done ++ n :: rest = (done ++ [n]) ++ rest) by (rewrite <- app_assoc; reflexivity).
      rewrite E2 in *. apply IH; auto.
  Qed.
End HS.
Arguments desc {N} _. Arguments nonan {N} _. Arguments tie {N} _.
