(** MarshalJSON interleaved with Insert. *)
From Verif Require Import Base Num Model_Node Proof_Node2 Model_Save.

Section P.
  Variable N : Num.
  Implicit Types (h : Live N) (n : Node N).

  Definition ids (h : Live N) := map fst (lvItems h).
  Definition fresh h := Forall (fun i => i < lvNext h) (ids h).

  (** ** Live.insert is Insert *)
  Lemma live_before_forget : forall id n l,
    option_map (map snd) (live_before id n l) = hs_insert_before n (map snd l).
  Proof.
    induction l as [|[i m] l IH]; simpl; auto.
    destruct (nltb (ndScore m) (ndScore n)); simpl; auto.
    rewrite <- IH. destruct (live_before id n l); reflexivity.
  Qed.

  Lemma removelast_map : forall A B (f : A -> B) l, map f (removelast l) = removelast (map f l).
  Proof.
    induction l as [|x l IH]; simpl; auto. destruct l as [|y l]; auto.
    simpl in *. rewrite IH. reflexivity.
  Qed.

  Lemma live_insert_forget : forall h n,
    match live_insert h n with
    | Ok h' => hsInsert (forget h) n = Ok (forget h')
    | Panic => hsInsert (forget h) n = Panic
    | Fuel => False
    end.
  Proof.
    intros [l mx nx] n. unfold live_insert, hsInsert, hsLen, forget. simpl.
    rewrite <- (live_before_forget nx n l), map_length, <- map_rev.
    assert (C : match
        match live_before nx n l with
        | Some l' => Ok (mkLive (if (mx <=? Z.of_nat (length l'))%Z then removelast l' else l') mx (S nx))
        | None => if (Z.of_nat (length l) <? mx)%Z then Ok (mkLive (l ++ [(nx, n)]) mx (S nx)) else Ok (mkLive l mx nx)
        end with
      | Ok h' =>
        match option_map (map snd) (live_before nx n l) with
        | Some l0 => Ok (mkHS (if (mx <=? Z.of_nat (length l0))%Z then removelast l0 else l0) mx)
        | None => if (Z.of_nat (length l) <? mx)%Z then Ok (mkHS (map snd l ++ [n]) mx)
                  else Ok (mkHS (map snd l) mx)
        end = Ok (mkHS (map snd (lvItems h')) (lvMax h'))
      | Panic => False
      | Fuel => False end).
    { destruct (live_before nx n l) as [l'|]; simpl.
      - rewrite map_length. destruct (_ <=? _)%Z; simpl; rewrite ?removelast_map; reflexivity.
      - destruct (_ <? _)%Z; simpl; rewrite ?map_app; reflexivity. }
    destruct (Z.of_nat (length l) =? mx - 1)%Z; simpl.
    - destruct (rev l) as [|[i last] r]; simpl; auto.
      destruct (nltb (ndScore n) (ndScore last)); simpl; auto.
      match type of C with context[match ?x with Ok _ => _ | Panic => False | Fuel => False end] =>
        destruct x; auto; contradiction end.
    - match type of C with context[match ?x with Ok _ => _ | Panic => False | Fuel => False end] =>
        destruct x; auto; contradiction end.
  Qed.

  (** with room for one more, Insert adds exactly one element *)
  Lemma live_before_length : forall id n l l', live_before id n l = Some l' ->
    length l' = S (length l).
  Proof.
    induction l as [|it l IH]; intros l' E; simpl in E; [discriminate|].
    destruct (nltb _ _).
    - injection E as <-. reflexivity.
    - destruct (live_before id n l) as [m|]; [|discriminate]. injection E as <-.
      simpl. rewrite (IH m); auto.
  Qed.

  Lemma live_before_split : forall id n l l', live_before id n l = Some l' ->
    exists a b, l = a ++ b /\ l' = a ++ (id, n) :: b.
  Proof.
    induction l as [|it l IH]; intros l' E; simpl in E; [discriminate|].
    destruct (nltb _ _).
    - injection E as <-. exists [], (it :: l). auto.
    - destruct (live_before id n l) as [m|] eqn:B; [|discriminate]. injection E as <-.
      destruct (IH _ eq_refl) as (a & b & -> & ->). exists (it :: a), b. auto.
  Qed.

  Lemma live_insert_room : forall h n, (Z.of_nat (length (lvItems h)) < lvMax h - 1)%Z ->
    exists a b, lvItems h = a ++ b /\
      live_insert h n = Ok (mkLive (a ++ (lvNext h, n) :: b) (lvMax h) (S (lvNext h))).
  Proof.
    intros [l mx nx] n H. unfold live_insert. simpl in *.
    rewrite (proj2 (Z.eqb_neq _ _)) by lia.
    destruct (live_before nx n l) as [l'|] eqn:E.
    - pose proof (live_before_length _ _ _ _ E) as L.
      rewrite (proj2 (Z.leb_gt _ _)) by lia.
      destruct (live_before_split _ _ _ _ E) as (a & b & -> & ->). exists a, b. auto.
    - rewrite (proj2 (Z.ltb_lt _ _)) by lia. exists l, []. rewrite app_nil_r. auto.
  Qed.

  Lemma live_before_none : forall id n l,
    Forall (fun it => nltb (ndScore (snd it)) (ndScore n) = false) l -> live_before id n l = None.
  Proof.
    intros id n l H. induction H as [|it l H1 H2 IH]; simpl; auto. rewrite H1, IH. reflexivity.
  Qed.

  Lemma live_insert_append : forall h n, (Z.of_nat (length (lvItems h)) < lvMax h - 1)%Z ->
    Forall (fun it => nltb (ndScore (snd it)) (ndScore n) = false) (lvItems h) ->
    live_insert h n = Ok (mkLive (lvItems h ++ [(lvNext h, n)]) (lvMax h) (S (lvNext h))).
  Proof.
    intros [l mx nx] n H F. unfold live_insert. simpl in *.
    rewrite (proj2 (Z.eqb_neq _ _)) by lia. rewrite live_before_none by auto.
    rewrite (proj2 (Z.ltb_lt _ _)) by lia. auto.
  Qed.

  (** ** The walk *)
  Lemma next_of_at : forall pre (e : nat * Node N) rest,
    NoDup (map fst (pre ++ e :: rest)) -> next_of (fst e) (pre ++ e :: rest) = hd_error rest.
  Proof.
    induction pre as [|x pre IH]; intros e rest H; simpl in *.
    - rewrite Nat.eqb_refl. reflexivity.
    - inversion H as [|? ? Hn Hd]; subst. destruct (Nat.eqb_spec (fst x) (fst e)) as [E|E].
      + exfalso. apply Hn. rewrite E, map_app. apply in_or_app. right. simpl. auto.
      + apply IH; auto.
  Qed.

  Lemma both_save : forall h s k, both (repeat LSave (S k)) (h, s)
    = do s' <- save_step h s; both (repeat LSave k) (h, s').
  Proof.
    intros h s k. unfold both. simpl. destruct (save_step h s); reflexivity.
  Qed.

  Lemma both_panic_more : forall (ls ls' : list (label N)) s, both ls s = Panic ->
    both (ls ++ ls') s = Panic.
  Proof.
    unfold both. induction ls as [|l ls IH]; intros ls' s E; simpl in *; [discriminate|].
    destruct (both_step l s) as [s'| |]; simpl in *; auto.
  Qed.

  Lemma both_app : forall (ls ls' : list (label N)) s s', both ls s = Ok s' ->
    both (ls ++ ls') s = both ls' s'.
  Proof.
    unfold both. induction ls as [|l ls IH]; intros ls' s s' E; simpl in *.
    - injection E as ->. reflexivity.
    - destruct (both_step l s) as [s1| |]; simpl in *; try discriminate. auto.
  Qed.

  Lemma walk_ok : forall rest pre e data c h,
    lvItems h = pre ++ e :: rest -> NoDup (ids h) -> c + S (length rest) <= length data ->
    both (repeat LSave (2 * S (length rest))) (h, SStore data c e)
    = Ok (h, SWalked (firstn c data ++ map (fun x => Some (snd x)) (e :: rest)
                       ++ skipn (c + S (length rest)) data)).
  Proof.
    induction rest as [|e2 rest IH]; intros pre e data c h El ND L.
    - simpl length in *. change (2 * 1) with 2. rewrite both_save. cbn [save_step].
      unfold setn. rewrite (proj2 (Nat.ltb_lt _ _)) by lia. cbn [bind].
      rewrite both_save. cbn [save_step].
      assert (Hn : next_of (fst e) (lvItems h) = hd_error []).
      { rewrite El. apply next_of_at. unfold ids in ND. rewrite El in ND. exact ND. }
      rewrite Hn. simpl. unfold both. simpl. do 3 f_equal.
      clear -L. revert c L. induction data as [|d data IH]; intros [|c] L; simpl in *; try lia; auto.
      rewrite IH by lia. reflexivity.
    - replace (2 * S (length (e2 :: rest))) with (S (S (2 * S (length rest)))) by (simpl length; lia).
      rewrite both_save. cbn [save_step]. simpl length in L.
      unfold setn. rewrite (proj2 (Nat.ltb_lt _ _)) by lia. cbn [bind].
      rewrite both_save. cbn [save_step].
      assert (Hn : next_of (fst e) (lvItems h) = hd_error (e2 :: rest)).
      { rewrite El. apply next_of_at. unfold ids in ND. rewrite El in ND. exact ND. }
      rewrite Hn. cbn [bind hd_error loop_head].
      rewrite (IH (pre ++ [e]) e2).
      + do 3 f_equal. simpl length.
        assert (A : firstn (S c) (upd data c (Some (snd e))) = firstn c data ++ [Some (snd e)]
                 /\ skipn (S c + S (length rest)) (upd data c (Some (snd e)))
                    = skipn (c + S (S (length rest))) data).
        { clear -L. revert c L. induction data as [|d data IHd]; intros [|c] L; simpl in L; try lia.
          - split; [reflexivity|]. reflexivity.
          - destruct (IHd c ltac:(lia)) as [A B]. split.
            + cbn [upd firstn app]. f_equal. exact A.
            + exact B. }
        destruct A as [-> ->]. simpl. rewrite <- app_assoc. reflexivity.
      + rewrite El, <- app_assoc. reflexivity.
      + exact ND.
      + rewrite upd_length. lia.
  Qed.

  Lemma walk_panic : forall rest pre e data c h,
    lvItems h = pre ++ e :: rest -> NoDup (ids h) -> length data < c + S (length rest) ->
    both (repeat LSave (2 * S (length rest))) (h, SStore data c e) = Panic.
  Proof.
    induction rest as [|e2 rest IH]; intros pre e data c h El ND L.
    - simpl length in *. change (2 * 1) with 2. rewrite both_save. cbn [save_step].
      unfold setn. rewrite (proj2 (Nat.ltb_ge _ _)) by lia. reflexivity.
    - replace (2 * S (length (e2 :: rest))) with (S (S (2 * S (length rest)))) by (simpl length; lia).
      rewrite both_save. cbn [save_step]. simpl length in L.
      unfold setn. destruct (Nat.ltb_spec c (length data)) as [Hc|Hc]; [|reflexivity].
      cbn [bind]. rewrite both_save. cbn [save_step].
      assert (Hn : next_of (fst e) (lvItems h) = hd_error (e2 :: rest)).
      { rewrite El. apply next_of_at. unfold ids in ND. rewrite El in ND. exact ND. }
      rewrite Hn. cbn [bind hd_error loop_head]. apply (IH (pre ++ [e]) e2).
      + rewrite El, <- app_assoc. reflexivity.
      + exact ND.
      + rewrite upd_length. lia.
  Qed.

  (** the first [2 * length mid] steps of a walk *)
  Lemma walk_part : forall mid pre e f rest data c h,
    lvItems h = pre ++ (e :: mid) ++ f :: rest -> NoDup (ids h) ->
    c + S (length mid) <= length data ->
    exists data', length data' = length data /\
    both (repeat LSave (2 * S (length mid))) (h, SStore data c e)
    = Ok (h, SStore data' (c + S (length mid)) f).
  Proof.
    induction mid as [|e2 mid IH]; intros pre e f rest data c h El ND L.
    - simpl length in *. change (2 * 1) with 2. exists (upd data c (Some (snd e))).
      split; [apply upd_length|]. rewrite both_save. cbn [save_step].
      unfold setn. rewrite (proj2 (Nat.ltb_lt _ _)) by lia. cbn [bind].
      rewrite both_save. cbn [save_step].
      assert (Hn : next_of (fst e) (lvItems h) = hd_error (f :: rest)).
      { rewrite El. apply next_of_at. unfold ids in ND. rewrite El in ND. exact ND. }
      rewrite Hn. simpl. unfold both. simpl. do 3 f_equal. lia.
    - simpl length in L.
      destruct (IH (pre ++ [e]) e2 f rest (upd data c (Some (snd e))) (S c) h) as (d & Ld & Ed).
      + rewrite El. simpl. rewrite <- app_assoc. reflexivity.
      + exact ND.
      + rewrite upd_length. lia.
      + exists d. split; [rewrite Ld; apply upd_length|].
        replace (2 * S (length (e2 :: mid))) with (S (S (2 * S (length mid)))) by (simpl length; lia).
        rewrite both_save. cbn [save_step].
        unfold setn. rewrite (proj2 (Nat.ltb_lt _ _)) by lia. cbn [bind].
        rewrite both_save. cbn [save_step].
        assert (Hn : next_of (fst e) (lvItems h) = hd_error (e2 :: mid ++ f :: rest)).
        { rewrite El. apply (next_of_at pre e). unfold ids in ND. rewrite El in ND. exact ND. }
        rewrite Hn. cbn [bind hd_error loop_head]. rewrite Ed.
        replace (c + S (length (e2 :: mid))) with (S c + S (length mid)) by (simpl length; lia).
        reflexivity.
  Qed.

  Lemma combine_fst : forall A B (a : list A) (b : list B), length a = length b ->
    map fst (combine a b) = a.
  Proof. induction a; intros [|y b] H; simpl in *; try discriminate; auto. rewrite IHa; auto. Qed.
  Lemma combine_snd : forall A B (a : list A) (b : list B), length a = length b ->
    map snd (combine a b) = b.
  Proof. induction a; intros [|y b] H; simpl in *; try discriminate; auto. rewrite IHa; auto. Qed.

  Lemma live_of_forget : forall h : Highscore N, forget (live_of h) = h.
  Proof.
    intros [l m]. unfold forget, live_of. simpl. rewrite combine_snd by apply seq_length. reflexivity.
  Qed.

  Lemma live_of_ids : forall h : Highscore N, ids (live_of h) = seq 0 (length (hsItems h)).
  Proof. intros [l m]. unfold ids, live_of. simpl. apply combine_fst. apply seq_length. Qed.

  Lemma live_of_length : forall h : Highscore N, length (lvItems (live_of h)) = length (hsItems h).
  Proof. intros [l m]. unfold live_of. simpl. rewrite combine_length, seq_length. lia. Qed.

  Lemma insert_nodup : forall (a b : list (nat * Node N)) k n,
    map fst (a ++ b) = seq 0 k -> NoDup (map fst (a ++ (k, n) :: b)).
  Proof.
    intros a b k n E. rewrite map_app in *. simpl.
    apply NoDup_Add with (a := k) (l := map fst a ++ map fst b).
    - apply Add_app.
    - split; rewrite E; [apply seq_NoDup|]. rewrite in_seq. lia.
  Qed.
End P.
