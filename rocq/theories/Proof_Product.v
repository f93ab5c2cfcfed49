(** Lemmas behind C42: IterProduct and the sharing of backing arrays. *)
From Verif Require Import Base Num Mat Model_Node Model_Util.

(** All [n]-tuples over [vs] in lexicographic order (specification). *)
Fixpoint tuples (vs : list Z) (n : nat) : list (list Z) :=
  match n with
  | O => [[]]
  | S n => flat_map (fun v => map (cons v) (tuples vs n)) vs
  end.

Lemma flat_map_map : forall A B C (f : A -> B) (g : B -> list C) l,
  flat_map g (map f l) = flat_map (fun x => g (f x)) l.
Proof. induction l as [|x l IH]; simpl; auto. rewrite IH; reflexivity. Qed.

Lemma map_flat_map : forall A B C (f : A -> list B) (g : B -> C) l,
  map g (flat_map f l) = flat_map (fun x => map g (f x)) l.
Proof. induction l as [|x l IH]; simpl; auto. rewrite map_app, IH; reflexivity. Qed.

Lemma flat_map_flat_map : forall A B C (f : A -> list B) (g : B -> list C) l,
  flat_map g (flat_map f l) = flat_map (fun x => flat_map g (f x)) l.
Proof. induction l as [|x l IH]; simpl; auto. rewrite flat_map_app, IH; reflexivity. Qed.

Lemma tuples_snoc : forall vs n,
  tuples vs (S n) = flat_map (fun t => map (fun v => t ++ [v]) vs) (tuples vs n).
Proof.
  intros vs n; induction n as [|n IH].
  - simpl. rewrite app_nil_r. rewrite flat_map_concat_map, <- (map_id vs) at 1.
    induction vs as [|v vs IHv]; simpl; auto. f_equal. rewrite map_id in IHv. rewrite map_id. exact IHv.
  - change (tuples vs (S (S n))) with (flat_map (fun v => map (cons v) (tuples vs (S n))) vs).
    transitivity (flat_map (fun v => map (cons v) (flat_map (fun t => map (fun v => t ++ [v]) vs) (tuples vs n))) vs).
    { apply flat_map_ext. intro v. rewrite <- IH. reflexivity. }
    change (tuples vs (S n)) with (flat_map (fun v => map (cons v) (tuples vs n)) vs).
    rewrite flat_map_flat_map. apply flat_map_ext. intro v.
    rewrite map_flat_map, flat_map_map. apply flat_map_ext. intro t.
    rewrite map_map. reflexivity.
Qed.

Lemma tuples_In : forall vs n t, In t (tuples vs n) <-> length t = n /\ Forall (fun x => In x vs) t.
Proof.
  induction n as [|n IH]; intro t; simpl.
  - split; [intros [<-|[]]; auto|]. intros [H _]. destruct t; [auto|discriminate].
  - rewrite in_flat_map. split.
    + intros (v & Hv & Ht). apply in_map_iff in Ht. destruct Ht as (t' & <- & Ht').
      apply IH in Ht'. simpl. split; [lia|constructor; tauto].
    + intros [H1 H2]. destruct t as [|v t]; [discriminate|].
      inversion H2; subst. exists v; split; auto. apply in_map, IH. split; auto.
Qed.

Lemma tuples_length : forall vs n, length (tuples vs n) = (length vs ^ n)%nat.
Proof.
  induction n as [|n IH]; [reflexivity|].
  cbn [tuples]. rewrite Nat.pow_succ_r', <- IH. generalize (tuples vs n). intro t.
  clear IH n. induction vs as [|v vs IHv]; simpl; auto. rewrite app_length, map_length, IHv. reflexivity.
Qed.

(** Capacity of a row of length [r] produced by repeated append. *)
Fixpoint cap (grow : nat -> nat) (r : nat) : nat :=
  match r with
  | O => O
  | S r' => if (r' <? cap grow r')%nat then cap grow r' else grow (cap grow r')
  end.

Lemma cap_ge : forall grow, (forall c, (c < grow c)%nat) -> forall r, (r <= cap grow r)%nat.
Proof.
  intros grow G. induction r as [|r IH]; simpl; [lia|].
  destruct (Nat.ltb_spec r (cap grow r)); [lia|]. pose proof (G (cap grow r)). lia.
Qed.

(** Cell [k] of a row is written in place, hence shared. *)
Definition shared_cell (grow : nat -> nat) (k : nat) : bool := (k <? cap grow k)%nat.

(** Every shared cell replaced by the last value. *)
Definition blur (sh : nat -> bool) (vs : list Z) (t : list Z) : list Z :=
  map (fun p => if sh (fst p) then last vs 0%Z else snd p) (combine (seq 0 (length t)) t).

Lemma combine_app_eq : forall A B (a1 a2 : list A) (b1 b2 : list B), length a1 = length b1 ->
  combine (a1 ++ a2) (b1 ++ b2) = combine a1 b1 ++ combine a2 b2.
Proof.
  induction a1 as [|x a1 IH]; intros a2 [|y b1] b2 H; simpl in *; try discriminate; auto.
  rewrite IH by lia; reflexivity.
Qed.

Lemma blur_snoc : forall sh vs t v,
  blur sh vs (t ++ [v]) = blur sh vs t ++ [if sh (length t) then last vs 0%Z else v].
Proof.
  intros. unfold blur. rewrite app_length, Nat.add_1_r, seq_S. simpl.
  rewrite combine_app_eq by apply seq_length. rewrite map_app. reflexivity.
Qed.

Section Prod.
  Variable grow : nat -> nat.
  Hypothesis G : forall c, (c < grow c)%nat.
  Variable vs : list Z.

  Definition wf (h : heap) (r : nat) (s : slice) : Prop :=
    slLen s = r /\ slCap s = cap grow r /\
    ((0 < r)%nat -> exists a, nth_error h (slArr s) = Some a /\ length a = cap grow r).

  Definition body (row : slice) (st : heap * list slice) : res (heap * list slice) :=
    for_each vs (fun v (st3 : heap * list slice) =>
        do (h', newRow) <- go_append grow (fst st3) row v;
        Ok (h', snd st3 ++ [newRow])) st.

  Lemma read_ext : forall h x r s, wf h r s -> sl_read (h ++ x) s = sl_read h s.
  Proof.
    intros h x r s (H1 & H2 & H3). unfold sl_read.
    destruct r as [|r].
    - rewrite H1. destruct (nth_error (h ++ x) (slArr s)), (nth_error h (slArr s)); reflexivity.
    - destruct (H3 ltac:(lia)) as (a & Ha & _). rewrite nth_error_app1; [reflexivity|].
      apply nth_error_Some; congruence.
  Qed.

  Lemma wf_ext : forall h x r s, wf h r s -> wf (h ++ x) r s.
  Proof.
    intros h x r s (H1 & H2 & H3). split; auto. split; auto. intro Hr.
    destruct (H3 Hr) as (a & Ha & La). exists a. split; auto.
    rewrite nth_error_app1; auto. apply nth_error_Some; congruence.
  Qed.

  (** A round in which every append allocates. *)
  Lemma alloc_row : forall h r row vs' x acc,
    cap grow r = r -> wf h r row ->
    Forall (wf (h ++ x) (S r)) acc ->
    exists x' acc', for_each vs' (fun v (st3 : heap * list slice) =>
        do (h', newRow) <- go_append grow (fst st3) row v;
        Ok (h', snd st3 ++ [newRow])) (h ++ x, acc) = Ok (h ++ x', acc') /\
      Forall (wf (h ++ x') (S r)) acc' /\
      map (sl_read (h ++ x')) acc' =
      map (sl_read (h ++ x)) acc ++ map (fun v => sl_read h row ++ [v]) vs'.
  Proof.
    intros h r row vs'. induction vs' as [|v vs' IH]; intros x acc Hc Hw Hacc; cbn [for_each].
    - exists x, acc. split; auto. split; auto. rewrite app_nil_r. reflexivity.
    - pose proof Hw as Hw'. destruct Hw as (L1 & C1 & A1). unfold go_append at 1. cbn [fst snd].
      rewrite L1, C1, Hc, Nat.ltb_irrefl. cbn [bind fst snd].
      set (old := match nth_error (h ++ x) (slArr row) with Some a => firstn r a | None => [] end).
      assert (Eold : old = sl_read h row).
      { rewrite <- (read_ext h x r row Hw'). unfold sl_read, old. rewrite L1. reflexivity. }
      assert (Lold : length old = r).
      { unfold old. destruct r as [|r]; [destruct (nth_error (h ++ x) (slArr row)); reflexivity|].
        destruct (A1 ltac:(lia)) as (a & Ha & La). rewrite nth_error_app1 by (apply nth_error_Some; congruence).
        rewrite Ha, firstn_length. rewrite La, Hc. lia. }
      set (cell := old ++ v :: repeat 0%Z (grow r - S r)).
      rewrite <- app_assoc.
      assert (Ecap : cap grow (S r) = grow r).
      { simpl. rewrite Hc, Nat.ltb_irrefl. reflexivity. }
      assert (Wnew : wf (h ++ x ++ [cell]) (S r) (mkSlice (length (h ++ x)) (S r) (grow r))).
      { split; [reflexivity|]. split; [simpl slCap; symmetry; exact Ecap|]. intros _. exists cell. split.
        - rewrite app_assoc. cbn [slArr]. rewrite nth_error_app2, Nat.sub_diag by lia. reflexivity.
        - rewrite Ecap. unfold cell. rewrite app_length. cbn [length]. rewrite repeat_length, Lold.
          pose proof (G r). lia. }
      destruct (IH (x ++ [cell]) (acc ++ [mkSlice (length (h ++ x)) (S r) (grow r)])) as (x' & acc' & E & F & M); auto.
      { apply Forall_app. split; [|constructor; auto].
        eapply Forall_impl; [|exact Hacc]. intros s Hs. rewrite app_assoc. apply wf_ext; auto. }
      exists x', acc'. split; [exact E|]. split; [exact F|].
      rewrite M. rewrite map_app. cbn [map]. rewrite <- app_assoc. f_equal.
      + apply map_ext_in. intros s Hs. rewrite app_assoc. eapply read_ext.
        rewrite Forall_forall in Hacc. apply Hacc, Hs.
      + cbn [app]. f_equal. unfold sl_read at 1. cbn [slArr slLen].
        rewrite app_assoc. rewrite nth_error_app2, Nat.sub_diag by lia. cbn [nth_error].
        unfold cell. rewrite <- Eold. rewrite firstn_app.
        replace (S r - length old)%nat with 1%nat by lia. rewrite firstn_all2 by lia. reflexivity.
  Qed.

  Lemma alloc_rows : forall h r rows x acc,
    cap grow r = r -> Forall (wf h r) rows ->
    Forall (wf (h ++ x) (S r)) acc ->
    exists x' acc', for_each rows body (h ++ x, acc) = Ok (h ++ x', acc') /\
      Forall (wf (h ++ x') (S r)) acc' /\
      map (sl_read (h ++ x')) acc' =
      map (sl_read (h ++ x)) acc ++ flat_map (fun row => map (fun v => sl_read h row ++ [v]) vs) rows.
  Proof.
    intros h r rows. induction rows as [|row rows IH]; intros x acc Hc Hw Hacc; cbn [for_each].
    - exists x, acc. split; auto. split; auto. simpl. rewrite app_nil_r. reflexivity.
    - inversion Hw as [|? ? W1 W2]; subst.
      destruct (alloc_row h r row vs x acc Hc W1 Hacc) as (x1 & acc1 & E1 & F1 & M1).
      unfold body at 1. rewrite E1. cbn [bind].
      destruct (IH x1 acc1 Hc W2 F1) as (x2 & acc2 & E2 & F2 & M2).
      exists x2, acc2. split; [exact E2|]. split; [exact F2|].
      rewrite M2, M1. cbn [flat_map]. rewrite app_assoc. reflexivity.
  Qed.

  (** A round in which every append writes in place. *)
  Definition bump (s : slice) : slice := mkSlice (slArr s) (S (slLen s)) (slCap s).

  (** [h'] differs from [h] only at cell [r] of arrays. *)
  Definition same_but (r : nat) (h h' : heap) : Prop :=
    forall a c, nth_error h a = Some c ->
      exists c', nth_error h' a = Some c' /\ length c' = length c /\
        forall k, k <> r -> nth_error c' k = nth_error c k.

  Lemma same_but_refl : forall r h, same_but r h h.
  Proof. intros r h a c H. exists c; auto. Qed.

  Lemma same_but_trans : forall r h1 h2 h3, same_but r h1 h2 -> same_but r h2 h3 -> same_but r h1 h3.
  Proof.
    intros r h1 h2 h3 A B a c H. destruct (A a c H) as (c2 & H2 & L2 & E2).
    destruct (B a c2 H2) as (c3 & H3 & L3 & E3). exists c3. split; auto. split; [congruence|].
    intros k Hk. rewrite E3, E2; auto.
  Qed.

  Lemma inplace_row : forall r row vs' h acc,
    (r < cap grow r)%nat -> wf h r row ->
    exists h', for_each vs' (fun v (st3 : heap * list slice) =>
        do (h', newRow) <- go_append grow (fst st3) row v;
        Ok (h', snd st3 ++ [newRow])) (h, acc) = Ok (h', acc ++ map (fun _ => bump row) vs') /\
      same_but r h h' /\
      (vs' <> [] -> exists c', nth_error h' (slArr row) = Some c' /\ nth_error c' r = Some (last vs' 0%Z)) /\
      (forall a, a <> slArr row -> nth_error h' a = nth_error h a).
  Proof.
    intros r row vs'. induction vs' as [|v vs' IH]; intros h acc Hc Hw; cbn [for_each].
    - exists h. rewrite app_nil_r. split; auto. split; [apply same_but_refl|]. split; [congruence|auto].
    - assert (Hr : (0 < r)%nat) by (destruct r; [simpl in Hc; lia|lia]).
      destruct Hw as (L1 & C1 & A1). destruct (A1 Hr) as (a & Ha & La).
      unfold go_append at 1. cbn [fst snd].
      rewrite L1, C1. apply Nat.ltb_lt in Hc. rewrite Hc. apply Nat.ltb_lt in Hc.
      unfold getn. rewrite Ha. cbn [bind].
      rewrite setn_lt by lia. cbn [bind].
      assert (Hin : (slArr row < length h)%nat) by (apply nth_error_Some; congruence).
      rewrite setn_lt by lia. cbn [bind fst snd].
      set (h1 := upd h (slArr row) (upd a r v)).
      assert (Ha1 : nth_error h1 (slArr row) = Some (upd a r v)).
      { unfold h1. rewrite nth_error_upd, Nat.eqb_refl. apply Nat.ltb_lt in Hin. rewrite Hin. reflexivity. }
      assert (SB : same_but r h h1).
      { intros b c Hb. unfold h1. rewrite nth_error_upd. destruct (Nat.eqb_spec b (slArr row)) as [->|Hne].
        - apply Nat.ltb_lt in Hin. rewrite Hin. exists (upd a r v). split; auto.
          rewrite Ha in Hb. injection Hb as <-. split; [apply upd_length|].
          intros k Hk. rewrite nth_error_upd. destruct (Nat.eqb_spec k r); [contradiction|reflexivity].
        - exists c; auto. }
      assert (W1 : wf h1 r row).
      { split; auto. split; auto. intros _. exists (upd a r v). split; auto. rewrite upd_length; auto. }
      destruct (IH h1 (acc ++ [bump row]) Hc W1) as (h' & E & S2 & P2 & O2).
      exists h'. split.
      + assert (EB : bump row = mkSlice (slArr row) (S r) (cap grow r))
          by (unfold bump; rewrite L1, C1; reflexivity).
        rewrite EB in E. etransitivity; [exact E|]. cbn [map]. rewrite <- app_assoc, EB. reflexivity.
      + split; [eapply same_but_trans; eauto|]. split.
        * intros _. destruct vs' as [|v' vs''].
          { cbn [for_each map] in E. inversion E; subst h'.
            exists (upd a r v). split; auto. rewrite nth_error_upd, Nat.eqb_refl.
            rewrite La. apply Nat.ltb_lt in Hc. rewrite Hc. reflexivity. }
          { destruct P2 as (c' & Hc1 & Hc2); [congruence|]. exists c'. split; auto. }
        * intros b Hb. rewrite O2 by auto. unfold h1. rewrite nth_error_upd.
          destruct (Nat.eqb_spec b (slArr row)); [contradiction|reflexivity].
  Qed.

  Lemma wf_same : forall r h h' s, same_but r h h' -> wf h r s -> wf h' r s.
  Proof.
    intros r h h' s SB (A & B & C). split; auto. split; auto. intro Hr.
    destruct (C Hr) as (a & Ha & La). destruct (SB _ _ Ha) as (c' & H1 & H2 & _).
    exists c'. split; auto. congruence.
  Qed.

  Lemma inplace_rows : forall r rows h acc done,
    (r < cap grow r)%nat -> Forall (wf h r) rows ->
    (vs <> [] -> forall s, In s done -> exists c, nth_error h (slArr s) = Some c /\ nth_error c r = Some (last vs 0%Z)) ->
    exists h', for_each rows body (h, acc)
      = Ok (h', acc ++ flat_map (fun row => map (fun _ => bump row) vs) rows) /\
      same_but r h h' /\
      (vs <> [] -> forall s, In s (done ++ rows) ->
         exists c, nth_error h' (slArr s) = Some c /\ nth_error c r = Some (last vs 0%Z)).
  Proof.
    intros r rows. induction rows as [|row rows IH]; intros h acc done Hc Hw Hd; cbn [for_each].
    - exists h. simpl. rewrite !app_nil_r. split; auto. split; [apply same_but_refl|auto].
    - inversion Hw as [|? ? W1 W2]; subst.
      destruct (inplace_row r row vs h acc Hc W1) as (h1 & E1 & S1 & P1 & O1).
      unfold body at 1. rewrite E1. cbn [bind].
      destruct (IH h1 (acc ++ map (fun _ => bump row) vs) (done ++ [row])) as (h2 & E2 & S2 & P2); auto.
      { eapply Forall_impl; [|exact W2]. intros s; apply wf_same; auto. }
      { intros Hv s Hs. apply in_app_or in Hs. destruct Hs as [Hs|[<-|[]]]; [|auto].
        destruct (Nat.eq_dec (slArr s) (slArr row)) as [Es|Es].
        - rewrite Es. auto.
        - rewrite O1 by auto. auto. }
      exists h2. split.
      + rewrite E2. cbn [flat_map]. rewrite app_assoc. reflexivity.
      + split; [eapply same_but_trans; eauto|]. intros Hv s Hs. apply P2; auto.
        rewrite <- app_assoc. exact Hs.
  Qed.

  Lemma firstn_ext_nth : forall A r (a b : list A), length a = length b ->
    (forall k, (k < r)%nat -> nth_error a k = nth_error b k) -> firstn r a = firstn r b.
  Proof.
    induction r as [|r IH]; intros a b Hl H; [reflexivity|].
    destruct a as [|x a], b as [|y b]; simpl in *; try discriminate; auto.
    pose proof (H O ltac:(lia)) as H0. simpl in H0. inversion H0; subst. f_equal.
    apply IH; [lia|]. intros k Hk. apply (H (S k)). lia.
  Qed.

  Lemma round : forall r h rows,
    Forall (wf h r) rows ->
    map (sl_read h) rows = map (blur (shared_cell grow) vs) (tuples vs r) ->
    exists h' rows', for_each rows body (h, []) = Ok (h', rows') /\
      Forall (wf h' (S r)) rows' /\
      map (sl_read h') rows' = map (blur (shared_cell grow) vs) (tuples vs (S r)).
  Proof.
    intros r h rows Hw Hm.
    assert (TL : forall t, In t (tuples vs r) -> length t = r) by (intros t Ht; apply tuples_In in Ht; tauto).
    assert (RHS : map (blur (shared_cell grow) vs) (tuples vs (S r)) =
       flat_map (fun row => map (fun v => sl_read h row ++ [if shared_cell grow r then last vs 0%Z else v]) vs) rows).
    { rewrite tuples_snoc, map_flat_map.
      rewrite <- (flat_map_map _ _ _ (sl_read h) (fun c => map (fun v => c ++ [if shared_cell grow r then last vs 0%Z else v]) vs)).
      rewrite Hm, flat_map_map.
      rewrite !flat_map_concat_map. f_equal. apply map_ext_in. intros t Ht.
      rewrite map_map. apply map_ext. intro v. rewrite blur_snoc, (TL t Ht). reflexivity. }
    rewrite RHS. unfold shared_cell.
    destruct (Nat.ltb_spec r (cap grow r)) as [Hc|Hc].
    - destruct (inplace_rows r rows h [] [] Hc Hw ltac:(intros _ ? [])) as (h' & E & S1 & P1).
      exists h', (flat_map (fun row => map (fun _ => bump row) vs) rows). split; [exact E|].
      assert (Hcap : cap grow (S r) = cap grow r).
      { cbn [cap]. apply Nat.ltb_lt in Hc. rewrite Hc. reflexivity. }
      split.
      + apply Forall_forall. intros s Hs. apply in_flat_map in Hs. destruct Hs as (row & Hr & Hs).
        apply in_map_iff in Hs. destruct Hs as (v & <- & _).
        rewrite Forall_forall in Hw. destruct (wf_same r h h' row S1 (Hw row Hr)) as (A & B & C).
        split; [cbn [bump slLen]; rewrite A; reflexivity|].
        split; [cbn [bump slCap]; rewrite B; auto|]. intros _. cbn [bump slArr].
        rewrite Hcap. apply C. destruct r; [simpl in Hc; lia|lia].
      + rewrite map_flat_map. rewrite !flat_map_concat_map. f_equal. apply map_ext_in. intros row Hr.
        rewrite map_map. apply map_ext_in. intros v Hv.
        assert (Hvs : vs <> []) by (intro Z0; rewrite Z0 in Hv; destruct Hv).
        destruct (P1 Hvs row Hr) as (c' & Hc1 & Hc2).
        rewrite Forall_forall in Hw. destruct (Hw row Hr) as (A & B & C).
        destruct C as (c & Hcc & Lc); [destruct r; [simpl in Hc; lia|lia]|].
        unfold sl_read, bump; cbn [slArr slLen]. rewrite Hc1, Hcc, A.
        destruct (S1 _ _ Hcc) as (c2 & H1 & H2 & H3). rewrite Hc1 in H1. inversion H1; subst c2.
        rewrite <- (firstn_ext_nth Z r c' c H2) by (intros k Hk; apply H3; lia).
        destruct (nth_error_split c' r Hc2) as (l1 & l2 & El & Ll). rewrite El.
        rewrite !firstn_app. rewrite (firstn_all2 l1 (n := S r)) by lia. rewrite (firstn_all2 l1 (n := r)) by lia.
        replace (S r - length l1)%nat with 1%nat by lia. replace (r - length l1)%nat with 0%nat by lia.
        cbn [firstn]. rewrite app_nil_r. reflexivity.
    - assert (Hc' : cap grow r = r) by (pose proof (cap_ge grow G r); lia).
      destruct (alloc_rows h r rows [] [] Hc' Hw (Forall_nil _)) as (x' & acc' & E & F & M).
      rewrite app_nil_r in E. exists (h ++ x'), acc'. split; [exact E|]. split; [exact F|]. exact M.
  Qed.

  Lemma iter_product : forall n, IterProduct grow vs n = Ok (map (blur (shared_cell grow) vs) (tuples vs n)).
  Proof.
    intro n. unfold IterProduct, IterProduct_mem.
    destruct (for_loop_inv (heap * list slice)
      (fun r st => Forall (wf (fst st) r) (snd st) /\
         map (sl_read (fst st)) (snd st) = map (blur (shared_cell grow) vs) (tuples vs r))
      (fun _ (st : heap * list slice) => let '(h, rows) := st in
         for_each rows (fun row (st2 : heap * list slice) =>
           for_each vs (fun v (st3 : heap * list slice) =>
             do (h', newRow) <- go_append grow (fst st3) row v;
             Ok (h', snd st3 ++ [newRow])) st2) (h, []))
      n 0%nat ([], [nil_slice])) as ([h rows] & E & W & M).
    - split; [|reflexivity]. constructor; [|constructor]. split; [reflexivity|]. split; [reflexivity|]. lia.
    - intros i [h rows] Hi [W M]. cbn [fst snd] in *.
      destruct (round i h rows W M) as (h' & rows' & E & W' & M').
      exists (h', rows'). split; [exact E|]. split; auto.
    - rewrite E. cbn [bind]. cbn [fst snd] in M. rewrite M. reflexivity.
  Qed.
End Prod.

(** ** The growth policy of Go *)

Lemma go_grow_gt : forall c, (c < go_grow c)%nat.
Proof. intro c; unfold go_grow. destruct (Nat.eqb_spec c 0); lia. Qed.

Lemma cap_go : forall r, cap go_grow (S r) = (2 ^ Nat.log2_up (S r))%nat.
Proof.
  induction r as [|r IH]; [reflexivity|].
  cbn [cap] in *. rewrite IH. clear IH.
  pose proof (Nat.log2_up_spec (S (S r)) ltac:(lia)) as [H1 H2].
  destruct (Nat.ltb_spec (S r) (2 ^ Nat.log2_up (S r))) as [H|H].
  - f_equal. symmetry. apply Nat.log2_up_unique; [|].
    + destruct r; [cbn in H; lia|]. apply Nat.log2_up_pos; lia.
    + split; [|lia]. destruct r as [|r]; [cbn in H; lia|].
      pose proof (Nat.log2_up_spec (S (S r)) ltac:(lia)). lia.
  - destruct r as [|r]; [reflexivity|].
    pose proof (Nat.log2_up_spec (S (S r)) ltac:(lia)) as [H3 H4].
    assert (E : (2 ^ Nat.log2_up (S (S r)) = S (S r))%nat) by lia.
    unfold go_grow. destruct (Nat.eqb_spec (2 ^ Nat.log2_up (S (S r))) 0) as [Z0|_]; [lia|].
    rewrite <- Nat.pow_succ_r'. f_equal. symmetry.
    apply Nat.log2_up_unique; [lia|]. cbn [Nat.pred]. rewrite E, Nat.pow_succ_r', E. lia.
Qed.

(** Cell [k] is shared exactly when [k] is neither 0 nor a power of two. *)
Lemma shared_go : forall k, shared_cell go_grow k = true <->
  k <> O /\ (forall e, k <> 2 ^ e)%nat.
Proof.
  intro k. unfold shared_cell. rewrite Nat.ltb_lt. destruct k as [|r].
  - simpl. split; [lia|tauto].
  - rewrite cap_go. split.
    + intro H. split; [lia|]. intros e He. rewrite He in H. rewrite Nat.log2_up_pow2 in H by lia. lia.
    + intros [_ H]. pose proof (H (Nat.log2_up (S r))) as H0.
      destruct r as [|r]; [exfalso; apply (H O); reflexivity|].
      pose proof (Nat.log2_up_spec (S (S r)) ltac:(lia)). lia.
Qed.
