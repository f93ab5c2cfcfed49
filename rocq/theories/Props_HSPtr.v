(** C95: a Highscore has to come from NewHighscore. *)
From Verif Require Import Base Num Model_Node Model_Save Model_HSPtr Proof_Node Proof_Node2 Props_Save.

(** ** Specification *)

(** the list as pointers *)
Definition as_ptr {N : Num} (h : Highscore N) : HSPtr N := mkHSPtr (Some (map Some (hsItems h))) (hsMaxItems h).

(** ** Proofs *)
Lemma insert_max : forall (N : Num) (h h' : Highscore N) n, hsInsert h n = Ok h' -> hsMaxItems h' = hsMaxItems h.
Proof.
  intros N h h' n E. unfold hsInsert in E.
  destruct (_ =? _)%Z; [destruct (rev _) as [|e r]; [discriminate E|]; destruct (nltb _ _)|].
  - injection E as <-. reflexivity.
  - destruct (hs_insert_before _ _) as [l'|]; [injection E as <-; reflexivity|]. destruct (_ <? _)%Z; injection E as <-; reflexivity.
  - destruct (hs_insert_before _ _) as [l'|]; [injection E as <-; reflexivity|]. destruct (_ <? _)%Z; injection E as <-; reflexivity.
Qed.

Lemma insert_same : forall (N : Num) (h : Highscore N) n,
  hpInsert (as_ptr h) (Some n) = (do h' <- hsInsert h n; Ok (as_ptr h')).
Proof.
  intros N [l m] n. unfold hpInsert, as_ptr, list_of. cbn [hpItems hpMaxItems hsItems hsMaxItems bind].
  rewrite ptr_insert_is. destruct (hsInsert (mkHS l m) n) as [h'| |] eqn:E; cbn [bind]; try reflexivity.
  rewrite (insert_max N _ _ _ E). reflexivity.
Qed.

Lemma inserts_same : forall (N : Num) nodes (h : Highscore N),
  for_each (map Some nodes) (fun n h => hpInsert h n) (as_ptr h) = (do h' <- hsInsertAll h nodes; Ok (as_ptr h')).
Proof.
  intros N. unfold hsInsertAll. induction nodes as [|n t IH]; intro h; [reflexivity|]. cbn [map for_each]. rewrite insert_same.
  destruct (hsInsert h n) as [h'| |]; cbn [bind]; try reflexivity. apply IH.
Qed.

Lemma decode_same : forall (N : Num) js (acc : list (Node N)),
  for_each (map Some js) (fun j acc => match j with
      | None => Ok (acc ++ [None]) | Some j => do n <- NodeUnmarshalJSON zero_node j; Ok (acc ++ [Some n]) end) (map Some acc)
  = (do r <- for_each js (fun jn acc => do n <- NodeUnmarshalJSON zero_node jn; Ok (acc ++ [n])) acc; Ok (map Some r)).
Proof.
  induction js as [|j js IH]; intro acc; [reflexivity|]. cbn [map for_each].
  destruct (NodeUnmarshalJSON zero_node j) as [n| |]; cbn [bind]; try reflexivity.
  rewrite <- IH, map_app. reflexivity.
Qed.

Lemma scores_same : forall (N : Num) (l : list (Node N)), scores_ptr (map Some l) = Ok (map ndScore l).
Proof. induction l as [|n l IH]; [reflexivity|]. cbn [map scores_ptr score_ptr bind]. rewrite IH. reflexivity. Qed.

Lemma equal_same : forall (N : Num) (l l2 : list (Node N)), length l = length l2 ->
  pairs_equal (map Some l) (map Some l2) = Ok (forallb (fun p => NodesEqual (fst p) (snd p)) (combine l l2)).
Proof.
  induction l as [|a l IH]; intros [|b l2] H; try discriminate H; [reflexivity|]. cbn [map pairs_equal combine forallb fst snd].
  destruct (NodesEqual a b); [|reflexivity]. apply IH. cbn in H. congruence.
Qed.

(** ** C95 *)

(** On the zero value every method that looks at the list panics, whatever
    MaxItems is set to ... *)
Theorem C95_zero_value : forall (N : Num) (h : HSPtr N) n, hpItems h = None ->
  hpLen h = Panic /\ hpInsert h n = Panic /\ hpBestScore h = Panic /\ hpScores h = Panic /\ hpMarshalJSON h = Panic.
Proof.
  intros N h n H. unfold hpLen, hpInsert, hpBestScore, hpScores, hpMarshalJSON, list_of. rewrite H. repeat split.
Qed.
Print Assumptions C95_zero_value.

(** ... and Equal too, on either side, unless the capacities differ, which makes
    it false. *)
Theorem C95_zero_equal : forall (N : Num) (h h2 : HSPtr N), hpItems h = None \/ hpItems h2 = None ->
  hpEqual h h2 = if (hpMaxItems h =? hpMaxItems h2)%Z then Panic else Ok false.
Proof.
  intros N h h2 H. unfold hpEqual, hpLen, list_of. destruct (_ =? _)%Z; cbn [negb]; [|reflexivity].
  destruct H as [H|H]; rewrite H; [reflexivity|]. destruct (hpItems h); reflexivity.
Qed.
Print Assumptions C95_zero_equal.

(** UnmarshalJSON into the zero value: it panics as soon as there is an entry;
    with no entries it reports success and leaves a value that still panics. *)
Theorem C95_read : forall (N : Num) (h : HSPtr N) m (items : list (option (nodeJsonified N))), hpItems h = None ->
  (items <> [] -> hpUnmarshalJSON h (CJson m items) = Panic) /\
  (items = [] -> hpUnmarshalJSON h (CJson m items) = Ok (mkHSPtr None m, true)).
Proof.
  intros N h m items H. split; [|intros ->; cbn; rewrite H; reflexivity].
  intro Hne. cbn [hpUnmarshalJSON].
  set (dec := fun j acc => match j with None => Ok (acc ++ [None]) | Some j => do n <- NodeUnmarshalJSON zero_node j; Ok (acc ++ [Some n]) end).
  assert (D : forall js acc, for_each js dec acc = Panic \/ exists r, for_each js dec acc = Ok (acc ++ r) /\ length r = length js).
  { induction js as [|j js IH]; intro acc; [right; exists []; rewrite app_nil_r; auto|]. cbn [for_each]. unfold dec at 1 3.
    destruct j as [j|].
    - destruct (NodeUnmarshalJSON zero_node j) as [n| |] eqn:En; cbn [bind]; [|left; reflexivity|exfalso; exact (unmarshal_nofuel _ _ _ En)].
      destruct (IH (acc ++ [Some n])) as [E|(r & E & L)]; rewrite E; [left; reflexivity|]. right. exists (Some n :: r).
      rewrite <- app_assoc. cbn. auto.
    - cbn [bind]. destruct (IH (acc ++ [None])) as [E|(r & E & L)]; rewrite E; [left; reflexivity|]. right. exists (None :: r).
      rewrite <- app_assoc. cbn. auto. }
  destruct (D items []) as [E|(r & E & L)]; rewrite E; [reflexivity|]. cbn [bind app].
  destruct r as [|n r]; [destruct items; [congruence|discriminate L]|]. cbn [for_each]. unfold hpInsert at 1, list_of. cbn [hpItems]. rewrite H.
  reflexivity.
Qed.
Print Assumptions C95_read.

(** So what MarshalJSON writes for a list with an entry cannot be read into the
    zero value. *)
Theorem C95_written : forall (N : Num) (h : Highscore N) j, hsItems h <> [] ->
  hsMarshalJSON h = Ok (Some j) ->
  hpMarshalJSON (as_ptr h) = Ok (CJson (hjMaxItems j) (map Some (hjItems j))) /\
  hpUnmarshalJSON hpZero (CJson (hjMaxItems j) (map Some (hjItems j))) = Panic.
Proof.
  intros N h j Hne E. split.
  - exact (C57_file_alone N h (Some j) E).
  - apply C95_read; [reflexivity|]. unfold hsMarshalJSON in E. destruct (hsItems h) as [|n t]; [congruence|]. cbn [marshal_nodes] in E.
    destruct (NodeMarshalJSON n) as [a| |]; cbn [bind] in E; try discriminate E.
    destruct (marshal_nodes t) as [b| |]; cbn [bind] in E; try discriminate E.
    destruct a as [a|], b as [b|]; try discriminate E. injection E as <-. cbn [hjItems map]. discriminate.
Qed.
Print Assumptions C95_written.

(** Starting from NewHighscore, with nodes that exist, everything is as the
    other properties say: the operations are those of the list of nodes. *)
Theorem C95_same : forall (N : Num) (h h2 : Highscore N) n m js,
  as_ptr (NewHighscore m) = hpNew (N := N) m /\
  hpLen (as_ptr h) = Ok (hsLen h) /\
  hpInsert (as_ptr h) (Some n) = (do h' <- hsInsert h n; Ok (as_ptr h')) /\
  hpBestScore (as_ptr h) = Ok (hsBestScore h) /\
  hpScores (as_ptr h) = Ok (hsScores h) /\
  hpEqual (as_ptr h) (as_ptr h2) = Ok (hsEqual h h2) /\
  hpUnmarshalJSON (as_ptr h) (CJson m (map Some js)) = (do h' <- hsUnmarshalJSON h (mkHSJ m js); Ok (as_ptr h', true)).
Proof.
  intros N h h2 n m js. split; [reflexivity|].
  split; [unfold hpLen, as_ptr, list_of; cbn; rewrite map_length; reflexivity|].
  split; [apply insert_same|].
  split; [unfold hpBestScore, hsBestScore, as_ptr, list_of; cbn; destruct (hsItems h); reflexivity|].
  split; [apply scores_same|].
  split.
  - unfold hpEqual, hpLen, hsEqual, hsLen, as_ptr, list_of. cbn [hpItems hpMaxItems bind]. rewrite !map_length.
    destruct (hsMaxItems h =? hsMaxItems h2)%Z; cbn [negb orb]; [|reflexivity].
    destruct (Z.eqb_spec (Z.of_nat (length (hsItems h))) (Z.of_nat (length (hsItems h2)))) as [E|E]; cbn [negb]; [|reflexivity].
    apply equal_same. lia.
  - unfold hpUnmarshalJSON, hsUnmarshalJSON. cbn [hjItems hjMaxItems]. pose proof (decode_same N js []) as D. cbn [map] in D. rewrite D.
    destruct (for_each js _ []) as [nodes| |]; cbn [bind]; try reflexivity.
    change (mkHSPtr (hpItems (as_ptr h)) m) with (as_ptr (mkHS (hsItems h) m)). rewrite inserts_same.
    destruct (hsInsertAll _ nodes); reflexivity.
Qed.
Print Assumptions C95_same.

(** a list with two nodes, written and read into a new list and into the zero value *)
Example C95_example :
  let nd := fun s => mkNode (N := F64 fenv0) [true; false] [nofZ 1] 2 n0 n0 (nofZ s) false in
  match hsInsertAll (NewHighscore 4) [nd 5%Z; nd 7%Z] with
  | Ok h =>
      match hpMarshalJSON (as_ptr h) with
      | Ok c =>
          match hpUnmarshalJSON (hpNew 9) c, hpUnmarshalJSON hpZero c with
          | Ok (h', true), Panic => match hpEqual h' (as_ptr h) with Ok b => b | _ => false end
          | _, _ => false
          end
      | _ => false
      end
  | _ => false
  end = true.
Proof. vm_compute. reflexivity. Qed.
