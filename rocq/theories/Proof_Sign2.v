(** Reversing signs: normalisation and coordinate descent, statement by statement. *)
From Verif Require Import Base Num Mat Model_Node Model_Util Model_Fit Model_Norm Model_Cov Model_Crd Spec_Sign Proof_Sign.

Lemma rr_bind : forall A A' B B' (R : A -> A' -> Prop) (Q : B -> B' -> Prop) x x' f f',
  alike R x x' -> (forall a a', R a a' -> alike Q (f a) (f' a')) -> alike Q (bind x f) (bind x' f').
Proof. intros A A' B B' R Q [a| |] [a'| |] f f' H K; cbn in *; auto; contradiction. Qed.

Lemma rr_imp : forall A B (R Q : A -> B -> Prop) x y, alike R x y -> (forall a b, R a b -> Q a b) -> alike Q x y.
Proof. intros A B R Q [a| |] [b| |] H K; cbn in *; auto. Qed.

Lemma rr_eq : forall A (x : res A), alike eq x x.
Proof. intros A [a| |]; cbn; auto. Qed.

Lemma rr_loop : forall S S' (R : nat -> S -> S' -> Prop) (b : nat -> S -> res S) (b' : nat -> S' -> res S') n a s s',
  R a s s' ->
  (forall i s s', (a <= i < a + n)%nat -> R i s s' -> alike (R (Datatypes.S i)) (b i s) (b' i s')) ->
  alike (R (a + n)%nat) (for_loop a n b s) (for_loop a n b' s').
Proof.
  induction n as [|n IH]; intros a s s' H K; cbn [for_loop].
  - rewrite Nat.add_0_r. exact H.
  - eapply rr_bind; [apply K; [lia|exact H]|]. intros t t' Ht. replace (a + Datatypes.S n)%nat with (Datatypes.S a + n)%nat by lia.
    apply IH; [exact Ht|]. intros i u u' Hi Hu. apply K; [lia|exact Hu].
Qed.

Lemma rr_each : forall A S S' (R : S -> S' -> Prop) (b : A -> S -> res S) (b' : A -> S' -> res S') l s s',
  R s s' -> (forall i s s', In i l -> R s s' -> alike R (b i s) (b' i s')) -> alike R (for_each l b s) (for_each l b' s').
Proof.
  induction l as [|v l IH]; intros s s' H K; cbn [for_each]; [exact H|].
  eapply rr_bind; [apply K; [left; reflexivity|exact H]|]. intros t t' Ht. apply IH; [exact Ht|].
  intros i u u' Hi Hu. apply K; [right; exact Hi|exact Hu].
Qed.

Lemma rr_conj : forall A B (R Q : A -> B -> Prop) x y, alike R x y -> (forall a b, x = Ok a -> Q a b) -> alike (fun a b => Q a b /\ R a b) x y.
Proof. intros A B R Q [a| |] [b| |] H K; cbn in *; auto. Qed.

Section Sign.
  Context (N : Num) (L : SignLaws N).

  Lemma mf : forall x : N, mirror false x x. Proof using. left. reflexivity. Qed.

  Lemma getn_rr : forall s (l l' : list N) i, mirror_list s l l' -> alike (mirror (s i)) (getn l i) (getn l' i).
  Proof using.
    intros s l l' i (Hl & H). destruct (Nat.lt_ge_cases i (length l)) as [Hi|Hi].
    - rewrite (getn_lt _ l i n0), (getn_lt _ l' i n0) by lia. apply H. exact Hi.
    - rewrite !getn_ge by lia. exact I.
  Qed.

  Lemma setn_rr : forall s (l l' : list N) i a a', mirror_list s l l' -> mirror (s i) a a' ->
    alike (mirror_list s) (setn l i a) (setn l' i a').
  Proof using.
    intros s l l' i a a' (Hl & H) Ha. destruct (Nat.lt_ge_cases i (length l)) as [Hi|Hi].
    - rewrite !setn_lt by lia. cbn. split; [rewrite !upd_length; exact Hl|]. rewrite upd_length. intros k Hk.
      rewrite !nth_upd. destruct (Nat.eqb_spec k i) as [->|]; [|apply H; exact Hk].
      rewrite <- Hl. apply Nat.ltb_lt in Hi. rewrite Hi. exact Ha.
    - rewrite !setn_ge by lia. exact I.
  Qed.

  Lemma getz_rr : forall s (l l' : list N) z, mirror_list s l l' -> alike (mirror (s (Z.to_nat z))) (getz l z) (getz l' z).
  Proof using. intros s l l' z H. unfold getz. destruct (z <? 0)%Z; [exact I|]. apply getn_rr. exact H. Qed.

  Lemma mat_at_rr : forall s (A A' : Mat N) i j, mirror_mat s A A' -> alike (mirror (s i j)) (mat_at A i j) (mat_at A' i j).
  Proof using.
    intros s A A' i j (Hr & Hc & H). unfold mat_at. rewrite <- Hr, <- Hc.
    destruct (Nat.ltb_spec i (mrows A)), (Nat.ltb_spec j (mcols A)); cbn; auto.
  Qed.

  Lemma mat_set_rr : forall s (A A' : Mat N) i j a a', mirror_mat s A A' -> mirror (s i j) a a' ->
    alike (mirror_mat s) (mat_set A i j a) (mat_set A' i j a').
  Proof using.
    intros s A A' i j a a' (Hr & Hc & H) Ha. unfold mat_set. rewrite <- Hr, <- Hc.
    destruct (Nat.ltb_spec i (mrows A)), (Nat.ltb_spec j (mcols A)); cbn [andb]; try exact I.
    cbn [alike]. split; [exact Hr|]. split; [exact Hc|]. intros p q Hp Hq. rewrite !mat_upd_val.
    destruct (Nat.eqb_spec p i) as [->|], (Nat.eqb_spec q j) as [->|]; cbn [andb]; auto.
  Qed.

  Lemma nsum_mirror : forall s n (f f' : nat -> N), (forall k, (k < n)%nat -> mirror s (f k) (f' k)) -> mirror s (nsum n f) (nsum n f').
  Proof using L.
    induction n as [|n IH]; intros f f' H; cbn [nsum]; [apply (sl_zero _ L)|].
    apply (sl_add _ L); [apply IH; intros; apply H; lia|apply H; lia].
  Qed.

  Lemma nsum_ext' : forall n (f f' : nat -> N), (forall k, (k < n)%nat -> f k = f' k) -> nsum n f = nsum n f'.
  Proof using. induction n as [|n IH]; intros f f' H; cbn [nsum]; [reflexivity|]. rewrite (IH f f'), (H n); auto. Qed.

  Lemma repeat_mirror : forall s n, mirror_list s (repeat (n0 (N := N)) n) (repeat n0 n).
  Proof using L.
    intros s n. split; [reflexivity|]. intros i Hi. rewrite repeat_length in Hi. rewrite nth_repeat. apply (sl_zero _ L).
  Qed.

  Lemma copy_mirror : forall s (a a' b b' : list N), mirror_list s a a' -> mirror_list s b b' ->
    mirror_list s (go_copy a b) (go_copy a' b').
  Proof using.
    intros s a a' b b' (Ha & HA) (Hb & HB). unfold go_copy. split.
    - rewrite !app_length, !firstn_length, !skipn_length. lia.
    - intros i Hi. rewrite app_length, firstn_length, skipn_length in Hi.
      assert (F : forall (l m : list N), nth i (firstn (length l) m ++ skipn (length m) l) n0 =
        if (i <? Nat.min (length l) (length m))%nat then nth i m n0 else nth i l n0).
      { intros l m. destruct (Nat.ltb_spec i (Nat.min (length l) (length m))) as [K|K].
        - rewrite app_nth1 by (rewrite firstn_length; lia).
          rewrite <- (firstn_skipn (length l) m) at 2. rewrite app_nth1 by (rewrite firstn_length; lia). reflexivity.
        - rewrite app_nth2 by (rewrite firstn_length; lia). rewrite firstn_length.
          rewrite <- (firstn_skipn (length m) l) at 3.
          destruct (Nat.le_gt_cases (length m) (length l)).
          + rewrite (app_nth2 (firstn _ l)) by (rewrite firstn_length; lia). rewrite firstn_length.
            f_equal. lia.
          + rewrite skipn_all2 by lia. rewrite app_nil_r, firstn_all2 by lia.
            rewrite !nth_overflow by (cbn; lia). reflexivity. }
      rewrite !F, <- Ha, <- Hb. destruct (Nat.ltb_spec i (Nat.min (length a) (length b))).
      + apply HB. lia.
      + destruct (Nat.lt_ge_cases i (length a)); [apply HA; assumption|].
        exfalso. lia.
  Qed.

  (** ** normalisation *)

  Lemma Mean_rr : forall s (v v' : list N), mirror_list (fun _ => s) v v' -> alike (mirror s) (Mean v) (Mean v').
  Proof using L.
    intros s v v' H. pose proof (proj1 H) as Hl. unfold Mean. rewrite <- Hl. eapply rr_bind.
    - apply (rr_loop _ _ (fun _ => mirror s)); [apply (sl_zero _ L)|]. intros i a a' Hi Ha.
      eapply rr_bind; [apply (getn_rr (fun _ => s)); exact H|]. intros x x' Hx. cbn. apply (sl_add _ L); assumption.
    - intros a a' Ha. cbn. apply (sl_div _ L). exact Ha.
  Qed.

  Lemma Std_rr : forall s (v v' : list N), mirror_list (fun _ => s) v v' -> alike eq (Std v) (Std v').
  Proof using L.
    intros s v v' H. pose proof (proj1 H) as Hl. unfold Std. rewrite <- Hl. destruct (_ <=? 1)%nat; [reflexivity|].
    eapply rr_bind; [apply (Mean_rr s); exact H|]. intros mu mu' Hmu. eapply rr_bind.
    - apply (rr_loop _ _ (fun _ => eq)); [reflexivity|]. intros i a a' Hi <-.
      eapply rr_bind; [apply (getn_rr (fun _ => s)); exact H|]. intros x x' Hx. cbn. f_equal.
      apply (sl_sqr _ L s). apply (sl_sub _ L); assumption.
    - intros a a' <-. reflexivity.
  Qed.

  Lemma normalise_rr : forall sf sy (X X' : Mat N) y y', mirror_mat (fun _ j => sf j) X X' -> mirror_list (fun _ => sy) y y' ->
    alike (mirror_nd sf sy) (NewNormalizedData X y) (NewNormalizedData X' y').
  Proof using L.
    intros sf sy X X' y y' HX Hy. unfold NewNormalizedData.
    eapply rr_bind; [apply (Std_rr sy); exact Hy|]. intros stdY ? <-.
    eapply rr_bind; [apply (Mean_rr sy); exact Hy|]. intros muY muY' HmuY.
    rewrite <- (proj1 Hy). eapply rr_bind.
    { apply (rr_loop _ _ (fun _ => mirror_list (fun _ => sy))); [exact Hy|]. intros i l l' Hi Hl.
      eapply rr_bind; [apply (getn_rr (fun _ => sy)); exact Hl|]. intros v v' Hv.
      apply (setn_rr (fun _ => sy)); [exact Hl|]. apply (sl_div _ L), (sl_sub _ L); assumption. }
    clear y y' Hy. intros y y' Hy. destruct HX as (Hr & Hc & HX). rewrite <- Hr, <- Hc.
    set (nr := mrows X) in *. set (nc := mcols X) in *.
    eapply rr_bind.
    { apply (rr_loop _ _ (fun _ (st st' : list N * Mat N * list N * list N * bool) =>
        let '(tmp, A, mu, std, b) := st in let '(tmp', A', mu', std', b') := st' in
        length tmp = nr /\ length tmp' = nr /\ mrows A = nr /\ mirror_mat (fun _ j => sf j) A A' /\ mirror_list sf mu mu' /\ std = std' /\ b = b')).
      - split; [apply repeat_length|]. split; [apply repeat_length|]. split; [reflexivity|].
        split; [split; [exact Hr|split; [exact Hc|exact HX]]|]. split; [apply repeat_mirror|]. split; reflexivity.
      - clear HX Hr Hc. intros c ((((tmp & A) & mu) & std) & b) ((((tmp' & A') & mu') & std') & b') Hc (Ht & Ht' & HAr & HA & Hmu & <- & <-).
        eapply rr_bind.
        { apply (rr_loop _ _ (fun r (t t' : list N) => length t = nr /\ length t' = nr /\
            forall i, (i < r)%nat -> mirror (sf c) (nth i t n0) (nth i t' n0))).
          - split; [exact Ht|]. split; [exact Ht'|]. intros; lia.
          - intros r t t' Hr (K1 & K2 & K3). eapply rr_bind; [apply mat_at_rr; exact HA|]. intros v v' Hv.
            rewrite !setn_lt by lia. cbn. rewrite !upd_length. split; [exact K1|]. split; [exact K2|].
            intros i Hi. rewrite !nth_upd, K1, K2. destruct (Nat.eqb_spec i r) as [->|].
            + replace (r <? nr)%nat with true by (symmetry; apply Nat.ltb_lt; lia). exact Hv.
            + apply K3. lia. }
        clear tmp tmp' Ht Ht'. intros tmp tmp' (Ht & Ht' & HT). rewrite Nat.add_0_l in HT.
        assert (HTT : mirror_list (fun _ => sf c) tmp tmp') by (split; [lia|intros i Hi; apply HT; lia]).
        eapply rr_bind; [apply (Std_rr (sf c)); exact HTT|]. intros s ? <-.
        eapply rr_bind; [apply rr_eq|]. intros std' ? <-.
        eapply rr_bind; [apply (Mean_rr (sf c)); exact HTT|]. intros m m' Hm.
        eapply rr_bind; [apply (setn_rr sf); [exact Hmu|exact Hm]|]. clear mu mu' Hmu. intros mu mu' Hmu.
        destruct (nltb s (ndec 1 (-10)) && negb (c =? 0)%nat)%bool; [exact I|].
        destruct (if nltb s (ndec 1 (-10)) then (true, n1) else (b, s)) as (hb, sd).
        eapply rr_bind.
        { apply (rr_loop _ _ (fun _ B B' => mrows B = nr /\ mirror_mat (fun _ j => sf j) B B')); [split; [exact HAr|exact HA]|].
          intros r B B' Hr (HBr & HB). eapply rr_bind; [apply (getn_rr (fun _ => sf c)); exact HTT|]. intros t t' Ht2.
          eapply rr_imp; [apply (rr_conj _ _ (fun B B' => mirror_mat (fun _ j => sf j) B B') (fun B _ => mrows B = nr))|].
          + apply mat_set_rr; [exact HB|]. apply (sl_div _ L), (sl_sub _ L); assumption.
          + intros D D' E. unfold mat_set in E. destruct (_ && _)%bool; [|discriminate]. injection E as <-. exact HBr.
          + intros ? ? (K1 & K2). split; assumption. }
        intros B B' (HBr & HB). cbn. auto 10. }
    intros ((((tmp & A) & mu) & std) & b) ((((tmp' & A') & mu') & std') & b') (_ & _ & _ & HA & Hmu & <- & <-).
    cbn. unfold mirror_nd. cbn. auto 10.
  Qed.
End Sign.
