(** C57: periodic saving during the search. *)
From Coq Require Import Reals Lra Floats.SpecFloat.
From Verif Require Import Base Num Mat Model_Node Proof_Node Proof_Node2 Model_Fit Model_Search
  Model_Save Proof_Save Props_Fit Props_Highscore.

Open Scope nat_scope.
(** Nobody inserting: the walk ends with all nodes in order, in 2 statements
    per element. *)
Theorem C57_alone : forall (N : Num) (h : Highscore N),
  both (repeat LSave (2 + 2 * length (hsItems h))) (live_of h, SBegin)
  = Ok (live_of h, SWalked (map Some (hsItems h))).
Proof.
  intros N h. set (k := length (hsItems h)).
  assert (Lk : length (lvItems (live_of h)) = k) by apply live_of_length.
  change (2 + 2 * k) with (S (S (2 * k))). rewrite both_save. cbn [save_step bind]. rewrite Lk.
  rewrite both_save. cbn [save_step bind].
  pose proof (f_equal (@hsItems N) (live_of_forget N h)) as F. cbn [forget hsItems] in F.
  destruct (lvItems (live_of h)) as [|e rest] eqn:E.
  - simpl in Lk. rewrite <- Lk. cbn. rewrite <- F. reflexivity.
  - cbn [hd_error loop_head]. simpl in Lk. rewrite <- Lk.
    rewrite (walk_ok N rest [] e); [|exact E| |].
    + rewrite <- F. do 3 f_equal. rewrite Nat.add_0_l, skipn_all2 by (rewrite repeat_length; lia).
      rewrite app_nil_r. cbn [firstn app map]. rewrite map_map. reflexivity.
    + unfold ids. fold (ids N (live_of h)). rewrite live_of_ids. apply seq_NoDup.
    + rewrite repeat_length. lia.
Qed.
Print Assumptions C57_alone.

(** A node found by the search after MarshalJSON has allocated its array and
    before it has taken the first element, the list not being full, makes
    MarshalJSON run past the end of the array: the program dies.  This is so
    for every list and every node. *)
Theorem C57_insert_while_saving_panics : forall (N : Num) (h : Highscore N) (n : Node N),
  (hsLen h < hsMaxItems h - 1)%Z ->
  both ([LSave; LInsert n] ++ repeat LSave (3 + 2 * length (hsItems h))) (live_of h, SBegin) = Panic.
Proof.
  intros N h n H. unfold hsLen in H. set (k := length (hsItems h)) in *.
  assert (Lk : length (lvItems (live_of h)) = k) by apply live_of_length.
  destruct (live_insert_room N (live_of h) n) as (a & b & E & I).
  { rewrite Lk. exact H. }
  set (h2 := mkLive (a ++ (lvNext (live_of h), n) :: b) (lvMax (live_of h)) (S (lvNext (live_of h)))) in *.
  rewrite (both_app N [LSave; LInsert n] _ _ (h2, SFront (repeat None k))).
  2: { unfold both. cbn [for_each both_step fst snd save_step bind]. rewrite Lk.
       cbn [for_each both_step fst snd save_step bind]. rewrite I. reflexivity. }
  change (3 + 2 * k) with (S (2 + 2 * k)). rewrite both_save. cbn [save_step bind].
  assert (ND : NoDup (ids N h2)).
  { unfold ids, h2. cbn [lvItems]. apply (insert_nodup N a b k n).
    rewrite <- E. exact (live_of_ids N h). }
  assert (L2 : length (lvItems h2) = S k).
  { unfold h2. cbn [lvItems]. rewrite <- Lk, E, !app_length. simpl. lia. }
  destruct (lvItems h2) as [|e rest] eqn:E2; [discriminate L2|].
  cbn [hd_error loop_head]. simpl in L2. injection L2 as L2.
  replace (2 + 2 * k) with (2 * S (length rest)) by lia.
  apply (walk_panic N rest []); auto. rewrite repeat_length. lia.
Qed.
Print Assumptions C57_insert_while_saving_panics.

(** The same at any later moment of the walk ([j] statements done, the walk not
    finished) for a node that goes to the end of the list. *)
Theorem C57_append_while_saving_panics : forall (N : Num) (h : Highscore N) (n : Node N) j,
  (hsLen h < hsMaxItems h - 1)%Z ->
  Forall (fun m => nltb (ndScore m) (ndScore n) = false) (hsItems h) ->
  1 <= j <= 1 + 2 * length (hsItems h) ->
  exists k, both (repeat LSave j ++ [LInsert n] ++ repeat LSave k) (live_of h, SBegin) = Panic.
Proof.
  intros N h n j H F Hj. unfold hsLen in H. set (k := length (hsItems h)) in *.
  assert (Lk : length (lvItems (live_of h)) = k) by apply live_of_length.
  assert (F' : Forall (fun it => nltb (ndScore (snd it)) (ndScore n) = false) (lvItems (live_of h))).
  { rewrite <- Forall_map with (f := snd) (P := fun m => nltb (ndScore m) (ndScore n) = false).
    pose proof (f_equal (@hsItems N) (live_of_forget N h)) as G. cbn [forget hsItems] in G.
    rewrite G. exact F. }
  pose proof (live_insert_append N (live_of h) n ltac:(rewrite Lk; exact H) F') as I.
  set (h2 := mkLive (lvItems (live_of h) ++ [(lvNext (live_of h), n)]) (lvMax (live_of h))
               (S (lvNext (live_of h)))) in *.
  assert (ND0 : NoDup (ids N (live_of h))) by (rewrite live_of_ids; apply seq_NoDup).
  assert (ND : NoDup (ids N h2)).
  { unfold ids, h2. cbn [lvItems]. apply (insert_nodup N _ [] k n).
    rewrite app_nil_r. exact (live_of_ids N h). }
  assert (INS : forall s ls, both ([LInsert n] ++ ls) (live_of h, s) = both ls (h2, s)).
  { intros s ls. unfold both. cbn [app for_each both_step fst snd bind]. rewrite I. reflexivity. }
  destruct j as [|j]; [lia|].
  destruct j as [|j].
  { exists (3 + 2 * k). change ([LInsert n] ++ repeat LSave (3 + 2 * k))
      with (LInsert n :: repeat LSave (3 + 2 * k)).
    apply (C57_insert_while_saving_panics N h n). exact H. }
  (* the walk has begun: element number [j / 2] is in hand *)
  assert (ST : exists i s d e pre rest, j = i + i + s /\ (s = 0 \/ s = 1) /\
      length d = k /\ lvItems (live_of h) = pre ++ e :: rest /\ length pre = i /\
      both (repeat LSave (S (S j))) (live_of h, SBegin)
      = Ok (live_of h, if s =? 0 then SStore d i e else SNext d (S i) e)).
  { set (i := j / 2). pose proof (Nat.div_mod j 2 ltac:(lia)) as DM.
    pose proof (Nat.mod_upper_bound j 2 ltac:(lia)) as MU. fold i in DM.
    assert (Hi : i < k) by lia.
    destruct (lvItems (live_of h)) as [|e0 tl] eqn:E0; [simpl in Lk; lia|].
    assert (ST0 : exists d e pre rest, length d = k /\ e0 :: tl = pre ++ e :: rest /\ length pre = i /\
      both (repeat LSave (S (S (2 * i)))) (live_of h, SBegin) = Ok (live_of h, SStore d i e)).
    { rewrite both_save. cbn [save_step bind]. rewrite E0, Lk, both_save. cbn [save_step bind].
      rewrite E0. cbn [hd_error loop_head].
      destruct i as [|i'].
      - exists (repeat None k), e0, [], tl. rewrite repeat_length. auto.
      - simpl in Lk.
        set (mid := firstn i' tl).
        destruct (skipn i' tl) as [|f rest] eqn:ES.
        { apply (f_equal (@length _)) in ES. rewrite skipn_length in ES. simpl in ES. lia. }
        assert (Lm : length mid = i') by (unfold mid; rewrite firstn_length; lia).
        assert (TL : tl = mid ++ f :: rest) by (unfold mid; rewrite <- ES; symmetry; apply firstn_skipn).
        destruct (walk_part N mid [] e0 f rest (repeat None k) 0 (live_of h)) as (d & Ld & Ed).
        + rewrite E0, TL. reflexivity.
        + exact ND0.
        + rewrite repeat_length. lia.
        + exists d, f, (e0 :: mid), rest. rewrite repeat_length in Ld.
          rewrite Lm in Ed. split; [exact Ld|]. split; [rewrite TL; reflexivity|].
          split; [simpl; lia|]. exact Ed. }
    destruct ST0 as (d & e & pre & rest & Ld & El & Lp & Ed).
    destruct (Nat.eq_dec (j mod 2) 0) as [M|M].
    - exists i, 0, d, e, pre, rest. rewrite M in DM.
      split; [lia|]. split; auto. split; auto. split; auto. split; auto.
      replace j with (2 * i) by lia. exact Ed.
    - exists i, 1, (upd d i (Some (snd e))), e, pre, rest.
      split; [lia|]. split; auto. rewrite upd_length. split; auto. split; auto. split; auto.
      replace (S (S j)) with (S (S (2 * i)) + 1) by lia.
      rewrite repeat_app, (both_app N _ _ _ _ Ed). unfold both.
      cbn [repeat for_each both_step fst snd save_step bind]. unfold setn.
      rewrite (proj2 (Nat.ltb_lt _ _)) by lia. reflexivity. }
  destruct ST as (i & s & d & e & pre & rest & Ej & Hs & Ld & El & Lp & Ed).
  assert (Lr : i + S (length rest) = k).
  { rewrite <- Lk, El, app_length. simpl. lia. }
  destruct Hs as [-> | ->]; cbn [Nat.eqb] in Ed.
  - exists (2 * S (length (rest ++ [(lvNext (live_of h), n)]))).
    rewrite (both_app N _ _ _ _ Ed), INS. apply (walk_panic N _ pre).
    + unfold h2. cbn [lvItems]. rewrite El, <- app_assoc. reflexivity.
    + exact ND.
    + rewrite app_length. simpl. lia.
  - exists (S (2 * length (rest ++ [(lvNext (live_of h), n)]))).
    rewrite (both_app N _ _ _ _ Ed), INS, both_save. cbn [save_step bind].
    assert (E2 : lvItems h2 = pre ++ e :: (rest ++ [(lvNext (live_of h), n)])).
    { unfold h2. cbn [lvItems]. rewrite El, <- app_assoc. reflexivity. }
    rewrite E2, (next_of_at N pre e).
    2: { unfold ids in ND. rewrite E2 in ND. exact ND. }
    destruct (rest ++ [(lvNext (live_of h), n)]) as [|f r2] eqn:ER.
    + destruct rest; discriminate ER.
    + cbn [hd_error loop_head].
      assert (Lf : length rest = length r2).
      { apply (f_equal (@length _)) in ER. rewrite app_length in ER. simpl in ER. lia. }
      replace (2 * length (f :: r2)) with (2 * S (length r2)) by reflexivity.
      apply (walk_panic N r2 (pre ++ [e])).
      * rewrite E2, <- app_assoc. reflexivity.
      * exact ND.
      * lia.
Qed.
Print Assumptions C57_append_while_saving_panics.

(** ** What ends up in the file *)

Lemma encode_all : forall (N : Num) (l : list (Node N)),
  encode_items (map Some l)
  = Ok (if forallb node_finite l then Some (map (fun n => Some (nodeJ_of n)) l) else None).
Proof.
  induction l as [|n l IH]; simpl; auto. rewrite node_marshal. simpl. rewrite IH. simpl.
  destruct (node_finite n), (forallb node_finite l); reflexivity.
Qed.

(** Without a concurrent insertion the file holds exactly what MarshalJSON
    encodes, or nothing at all when that fails. *)
Theorem C57_file_alone : forall (N : Num) (h : Highscore N) j,
  hsMarshalJSON h = Ok j ->
  write_file (hsMaxItems h) (map Some (hsItems h))
  = Ok (match j with
        | Some j => CJson (hjMaxItems j) (map Some (hjItems j))
        | None => CEmpty
        end).
Proof.
  intros N h j E. unfold write_file. rewrite encode_all. cbn [bind].
  unfold hsMarshalJSON in E. destruct (forallb node_finite (hsItems h)) eqn:F.
  - rewrite marshal_nodes_ok in E by exact F. injection E as <-. cbn. rewrite map_map. reflexivity.
  - rewrite marshal_nodes_err in E by exact F. injection E as <-. reflexivity.
Qed.
Print Assumptions C57_file_alone.

(** One NaN or infinite number anywhere in the list: the save replaces the file
    by an empty one, which cannot be read back. *)
Theorem C57_nonfinite_empties_file : forall (N : Num) (h : Highscore N) n,
  In n (hsItems h) ->
  (exists x, In x (ndLower n :: ndUpper n :: ndScore n :: ndCoeff n) /\ finite x = false) ->
  write_file (hsMaxItems h) (map Some (hsItems h)) = Ok CEmpty /\
  load_file (N := N) CEmpty = Ok None.
Proof.
  intros N h n Hn (x & Hx & Fx). split; [|reflexivity].
  unfold write_file. rewrite encode_all.
  assert (F : forallb node_finite (hsItems h) = false).
  { apply not_true_is_false. intros F. rewrite forallb_forall in F. specialize (F n Hn).
    unfold node_finite in F. rewrite !andb_true_iff in F. destruct F as [[[F1 F2] F3] F4].
    rewrite forallb_forall in F4. simpl in Hx.
    destruct Hx as [<-|[<-|[<-|Hx]]]; try congruence. rewrite (F4 x Hx) in Fx. discriminate. }
  rewrite F. reflexivity.
Qed.
Print Assumptions C57_nonfinite_empties_file.

(** A model that fits the data exactly (residual sum of squares 0) gets such a
    number as its score, so the result of a search that finds it is never saved. *)
Theorem C57_perfect_fit_empties_file : forall (h : Highscore XR) (n : Node XR) k rows,
  (1 <= rows)%Z -> In n (hsItems h) ->
  ndScore n = nneg (Aicc (N := XR) k rows (XFin 0)) ->
  write_file (hsMaxItems h) (map Some (hsItems h)) = Ok CEmpty.
Proof.
  intros h n k rows Hr Hn E.
  apply (C57_nonfinite_empties_file XR h n Hn).
  exists (ndScore n). split; [simpl; auto|]. rewrite E.
  rewrite (proj1 (proj2 (C11_zero_residual k rows Hr))). reflexivity.
Qed.
Print Assumptions C57_perfect_fit_empties_file.

(** A file with [null] after a first node makes the program that reads it panic. *)
Lemma ptr_before_nil : forall (N : Num) x (l : list (option (Node N))),
  ptr_before None (x :: l) = Panic.
Proof. intros N [n|] l; reflexivity. Qed.

Lemma ptr_before_len : forall (N : Num) n (l l' : list (option (Node N))),
  ptr_before n l = Ok (Some l') -> length l' = S (length l).
Proof.
  intros N n l. induction l as [|x l IH]; intros l' E; simpl in E; [discriminate|].
  destruct (score_ptr x) as [a| |]; try discriminate. cbn [bind] in E.
  destruct (score_ptr n) as [b| |]; try discriminate. cbn [bind] in E.
  destruct (nltb a b).
  - injection E as <-. reflexivity.
  - destruct (ptr_before n l) as [[m|]| |]; try discriminate. injection E as <-.
    simpl. rewrite (IH m); auto.
Qed.

Lemma ptr_before_nofuel : forall (N : Num) n (l : list (option (Node N))), ptr_before n l <> Fuel.
Proof.
  intros N n l. induction l as [|x l IH]; simpl; [discriminate|].
  destruct x as [x|]; simpl; [|discriminate]. destruct n as [n|]; simpl; [|discriminate].
  destruct (nltb _ _); [discriminate|]. destruct (ptr_before (Some n) l); simpl; congruence.
Qed.

Lemma ptr_insert_nil : forall (N : Num) m x (l : list (option (Node N))),
  ptr_insert m (x :: l) None = Panic.
Proof.
  intros N m x l. unfold ptr_insert. rewrite ptr_before_nil. cbn [bind].
  destruct (_ =? _)%Z; auto. destruct (rev (x :: l)) as [|y r]; auto.
  destruct y; reflexivity.
Qed.

Lemma ptr_insert_some : forall (N : Num) m (l : list (option (Node N))) n, (1 <= m)%Z ->
  ptr_insert m l n = Panic \/ exists l', ptr_insert m l n = Ok l' /\ l' <> [].
Proof.
  intros N m l n Hm. unfold ptr_insert.
  assert (C : (do r <- ptr_before n l;
      match r with
      | Some l' => Ok (if (m <=? Z.of_nat (length l'))%Z then removelast l' else l')
      | None => if (Z.of_nat (length l) <? m)%Z then Ok (l ++ [n]) else Ok l
      end) = Panic \/ exists l', (do r <- ptr_before n l;
      match r with
      | Some l' => Ok (if (m <=? Z.of_nat (length l'))%Z then removelast l' else l')
      | None => if (Z.of_nat (length l) <? m)%Z then Ok (l ++ [n]) else Ok l
      end) = Ok l' /\ l' <> []).
  { destruct l as [|x l].
    - right. simpl. rewrite (proj2 (Z.ltb_lt 0 m)) by lia. eexists. split; [reflexivity|discriminate].
    - destruct (ptr_before n (x :: l)) as [[l'|]| |] eqn:E; auto.
      + right. cbn [bind]. eexists; split; [reflexivity|].
        apply ptr_before_len in E. destruct l' as [|a [|b l']]; try discriminate E.
        destruct (_ <=? _)%Z; simpl; discriminate.
      + right. cbn [bind]. destruct (_ <? _)%Z; eexists; split; try reflexivity; discriminate.
      + exfalso. exact (ptr_before_nofuel _ _ _ E). }
  destruct (_ =? _)%Z; auto. destruct (rev l) as [|y r] eqn:R; auto.
  destruct y as [y|]; simpl; auto. destruct n as [n|]; simpl; auto.
  destruct (nltb _ _); auto. right. exists l. split; auto. intros ->. discriminate R.
Qed.

Lemma unmarshal_nofuel : forall (N : Num) (z : Node N) j, NodeUnmarshalJSON z j <> Fuel.
Proof.
  intros N z j En. unfold NodeUnmarshalJSON in En.
  destruct (go_make false (njTotNumFeatures j)) as [a| |] eqn:G; try discriminate En.
  2: { unfold go_make in G. destruct (_ <? _)%Z; discriminate G. }
  cbn [bind] in En. clear G. revert a En. generalize (njSelected j).
  induction l as [|v l IH]; intros a.
  - discriminate.
  - cbn [for_each]. unfold setz, setn. destruct (v <? 0)%Z; [discriminate|].
    destruct (_ <? _); [|discriminate]. cbn [bind]. apply IH.
Qed.

Theorem C57_null_unreadable : forall (N : Num) m (j : nodeJsonified N) items,
  (1 <= m)%Z -> In None items -> load_file (CJson m (Some j :: items)) = Panic.
Proof.
  intros N m j items Hm Hi. unfold load_file. cbn [for_each].
  destruct (NodeUnmarshalJSON zero_node j) as [n0| |] eqn:En; cbn [bind]; auto.
  2: { exfalso. exact (unmarshal_nofuel _ _ _ En). }
  cbn [app].
  (* the decoded pointers: the first one, then a nil somewhere *)
  match goal with |- context [for_each items ?f _] => set (dec := f) end.
  assert (D : forall its acc,
     for_each its dec acc = Panic \/
     exists r, for_each its dec acc = Ok (acc ++ r) /\ (In None its -> In None r)).
  { clear -dec. induction its as [|x its IH]; intros acc.
    - right. exists []. rewrite app_nil_r. auto.
    - cbn [for_each]. unfold dec at 1 3. destruct x as [x|].
      + destruct (NodeUnmarshalJSON zero_node x) as [nx| |] eqn:Ex; cbn [bind]; auto.
        * destruct (IH (acc ++ [Some nx])) as [P|(r & P & Q)]; auto.
          right. exists (Some nx :: r). rewrite P, <- app_assoc. split; auto.
          intros [X|X]; [discriminate|]. right. auto.
        * exfalso. exact (unmarshal_nofuel _ _ _ Ex).
      + cbn [bind]. destruct (IH (acc ++ [None])) as [P|(r & P & Q)]; auto.
        right. exists (None :: r). rewrite P, <- app_assoc. split; auto. intros _. left; auto. }
  destruct (D items [Some n0]) as [P|(r & P & Q)].
  { unfold dec in P |- *. rewrite P. reflexivity. }
  unfold dec in P |- *. rewrite P. cbn [bind app for_each].
  assert (G : forall r l, l <> [] -> In None r -> for_each r (fun n l => ptr_insert m l n) l = Panic (A := list (option (Node N)))).
  { clear -Hm. induction r as [|x r IH]; intros l Hl HX; [contradiction HX|].
    cbn [for_each]. destruct HX as [X|X].
    - subst x. destruct l as [|y l]; [contradiction|]. rewrite ptr_insert_nil. reflexivity.
    - destruct (ptr_insert_some N m l x Hm) as [E|(l' & E & Hl')]; rewrite E; cbn [bind]; auto. }
  destruct (ptr_insert_some N m [] (Some n0) Hm) as [E|(l' & E & Hl')]; rewrite E; cbn [bind]; auto.
  rewrite (G r l' Hl' (Q Hi)). reflexivity.
Qed.
Print Assumptions C57_null_unreadable.

Lemma ptr_before_is : forall (N : Num) (n : Node N) l,
  ptr_before (Some n) (map Some l) = Ok (option_map (map Some) (hs_insert_before n l)).
Proof.
  intros N n l. induction l as [|a l IH]; [reflexivity|]. cbn [map ptr_before score_ptr bind hs_insert_before].
  destruct (nltb (ndScore a) (ndScore n)); [reflexivity|]. rewrite IH. cbn [bind].
  destruct (hs_insert_before n l); reflexivity.
Qed.

Lemma ptr_insert_is : forall (N : Num) m (n : Node N) l,
  ptr_insert m (map Some l) (Some n) = (do h <- hsInsert (mkHS l m) n; Ok (map Some (hsItems h))).
Proof.
  intros N m n l. unfold ptr_insert, hsInsert, hsLen. cbn [hsItems hsMaxItems]. rewrite ptr_before_is, map_length. cbn [bind].
  rewrite <- map_rev.
  assert (C : (match option_map (map Some) (hs_insert_before n l) with
      | Some l' => Ok (if (m <=? Z.of_nat (length l'))%Z then removelast l' else l')
      | None => if (Z.of_nat (length l) <? m)%Z then Ok (map Some l ++ [Some n]) else Ok (map Some l)
      end) = (do h <- (match hs_insert_before n l with
      | Some l => Ok (mkHS (if (m <=? Z.of_nat (length l))%Z then removelast l else l) m)
      | None => if (Z.of_nat (length l) <? m)%Z then Ok (mkHS (l ++ [n]) m) else Ok (mkHS l m)
      end); Ok (map Some (hsItems h)))).
  { assert (RL : forall q : list (Node N), removelast (map Some q) = map Some (removelast q)).
    { induction q as [|x [|y q] IH]; [reflexivity|reflexivity|]. cbn [map removelast] in *. rewrite IH. reflexivity. }
    destruct (hs_insert_before n l) as [q|]; cbn [option_map bind hsItems].
    - rewrite map_length, RL. destruct (m <=? _)%Z; reflexivity.
    - destruct (_ <? m)%Z; cbn [bind hsItems]; [rewrite map_app|]; reflexivity. }
  destruct (_ =? _)%Z; [|exact C]. destruct (rev l) as [|x r]; [reflexivity|]. cbn [map score_ptr bind].
  destruct (nltb (ndScore n) (ndScore x)); [reflexivity|exact C].
Qed.

(** A file without null is read like any JSON of a list: reading it over
    pointers gives what UnmarshalJSON gives (C04), so the file a completed
    program leaves can be read again. *)
Theorem C57_readable : forall (N : Num) m M0 (js : list (nodeJsonified N)),
  load_file (CJson m (map Some js)) =
  (do h <- hsUnmarshalJSON (NewHighscore M0) (mkHSJ m js); Ok (Some (map Some (hsItems h), m))).
Proof.
  intros N m M0 js. unfold load_file, hsUnmarshalJSON. cbn [hjItems hjMaxItems NewHighscore hsItems].
  assert (D : forall js (acc : list (Node N)),
    for_each (map Some js) (fun j acc => match j with
      | None => Ok (acc ++ [None]) | Some j => do n <- NodeUnmarshalJSON zero_node j; Ok (acc ++ [Some n]) end) (map Some acc)
    = (do r <- for_each js (fun jn acc => do n <- NodeUnmarshalJSON zero_node jn; Ok (acc ++ [n])) acc; Ok (map Some r))).
  { induction js0 as [|j js0 IH]; intro acc; [reflexivity|]. cbn [map for_each].
    destruct (NodeUnmarshalJSON zero_node j) as [n| |]; cbn [bind]; try reflexivity.
    rewrite <- IH, map_app. reflexivity. }
  pose proof (D js []) as D0. cbn [map] in D0. rewrite D0. clear D D0. destruct (for_each js _ []) as [nodes| |]; cbn [bind]; try reflexivity.
  assert (G : forall (nodes l : list (Node N)), for_each (map Some nodes) (fun n l => ptr_insert m l n) (map Some l)
    = (do h <- hsInsertAll (mkHS l m) nodes; Ok (map Some (hsItems h)))).
  { assert (Mx : forall (h h' : Highscore N) n, hsInsert h n = Ok h' -> hsMaxItems h' = hsMaxItems h).
    { intros h h' n E. unfold hsInsert in E.
      destruct (_ =? _)%Z; [destruct (rev _) as [|e r]; [discriminate E|]; destruct (nltb _ _)|].
      - injection E as <-. reflexivity.
      - destruct (hs_insert_before _ _) as [l'|]; [injection E as <-; reflexivity|]. destruct (_ <? _)%Z; injection E as <-; reflexivity.
      - destruct (hs_insert_before _ _) as [l'|]; [injection E as <-; reflexivity|]. destruct (_ <? _)%Z; injection E as <-; reflexivity. }
    induction nodes0 as [|n ns IH]; intro l; [reflexivity|]. cbn [map for_each]. rewrite ptr_insert_is. unfold hsInsertAll in *. cbn [for_each].
    destruct (hsInsert (mkHS l m) n) as [h| |] eqn:E; cbn [bind]; try reflexivity.
    rewrite IH. apply Mx in E. cbn [hsMaxItems] in E. destruct h as [it mm]. cbn [hsItems hsMaxItems] in *. subst mm. reflexivity. }
  pose proof (G nodes []) as G0. cbn [map] in G0. rewrite G0. destruct (hsInsertAll (mkHS [] m) nodes); reflexivity.
Qed.
Print Assumptions C57_readable.

(** ** Concrete runs *)


(** Three nodes, room for ten (bnb.go:90); one more node arrives while the
    saver holds the first element. *)
Definition scores_of (r : res (option (list (option (Node (F64 fenv0))) * Z))) : list (F64 fenv0) :=
  match r with Ok (Some (l, _)) => map (fun o : option (Node (F64 fenv0)) => match o with Some n => ndScore n | None => f64_ofZ 0 end) l | _ => [] end.
Example C57_example_readable :
  match write_file 4 (map Some [nd 7; nd 5; nd 3]) with
  | Ok c => scores_of (load_file c) = map f64_ofZ [7; 5; 3]%Z
  | _ => False
  end.
Proof. vm_compute. reflexivity. Qed.

Example C57_example_panic :
  match hsInsertAll (NewHighscore 10) [nd 7; nd 5; nd 3] with
  | Ok h => hsLen h = 3%Z /\
      match both (repeat LSave 9) (live_of h, SBegin) with
      | Ok (_, SWalked d) => length d = 3 | _ => False end /\
      match both ([LSave; LSave; LSave] ++ [LInsert (nd 2)] ++ repeat LSave 6) (live_of h, SBegin) with
      | Panic => True | _ => False end
  | _ => False
  end.
Proof. vm_compute. repeat split. Qed.

(** A list at its working capacity: three better nodes arrive while the saver
    holds the first element, which is thereby dropped from the list.  The walk
    ends there and the file ends with null. *)
Theorem C57_null_in_file :
  exists (h : Highscore (F64 fenv0)) ls l' d,
    hsInsertAll (NewHighscore 4) [nd 3; nd 2; nd 1] = Ok h /\
    both ls (live_of h, SBegin) = Ok (l', SWalked d) /\
    d = [Some (nd 3); None; None] /\
    (exists j, write_file 4 d = Ok (CJson 4 [Some j; None; None])) /\
    (exists c, write_file 4 d = Ok c /\ load_file c = Panic).
Proof.
  set (ls := [LSave; LSave; LSave; LInsert (nd 9); LInsert (nd 8); LInsert (nd 7); LSave]).
  exists (mkHS [nd 3; nd 2; nd 1] 4%Z), ls,
    (mkLive [(3, nd 9); (4, nd 8); (5, nd 7)] 4%Z 6), [Some (nd 3); None; None].
  split; [reflexivity|]. split; [reflexivity|]. split; auto.
  assert (W : exists j, write_file 4 [Some (nd 3); None; None] = Ok (CJson 4 [Some j; None; None])).
  { unfold write_file. cbn [encode_items]. rewrite node_marshal. cbn [bind].
    replace (node_finite (nd 3)) with true by (vm_compute; reflexivity).
    cbn [bind option_map]. eexists. reflexivity. }
  split; auto. destruct W as [j W]. exists (CJson 4 [Some j; None; None]).
  split; auto. apply C57_null_unreadable; [lia|simpl; auto].
Qed.
Print Assumptions C57_null_in_file.
