(** Properties C01-C05: highscore list and JSON round trips (IEEE float64). *)
From Coq Require Import Sorting.Permutation Sorting.Sorted Floats.SpecFloat.
From Verif Require Import Base Num Mat Model_Node Proof_Node Proof_Node2.

(** The scores a caller may insert: any float64 but NaN. *)
Definition score_ok {o} (n : Node (F64 o)) : Prop := f64_isnan (ndScore n) = false.

(** Node with a given (integral) score, for the examples. *)
Definition nd (z : Z) : Node (F64 fenv0) :=
  mkNode (N := F64 fenv0) [true; false] [] 1 (S754_zero false) (S754_zero false) (f64_ofZ z) true.

(** ** C01 *)
Theorem C01_highscore_sorted : forall o M (nodes : list (Node (F64 o))),
  M <> 1%Z -> Forall score_ok nodes ->
  exists h, hsInsertAll (NewHighscore M) nodes = Ok h /\
    StronglySorted (fun a b => SFltb a b = false) (hsScores h) /\
    hsBestScore h = hd (f64_ofZ 0) (hsScores h).
Proof.
  intros o M nodes HM Hn.
  destruct (hs_sorted_any (F64 o) (f64_OrdLaws o) M nodes HM Hn) as (h & E & D).
  exists h. split; [exact E|]. split; [exact (map_desc (F64 o) _ D)|].
  unfold hsBestScore, hsScores. destruct (hsItems h); reflexivity.
Qed.
Print Assumptions C01_highscore_sorted.

Example C01_nonvacuous :
  Forall score_ok [nd 3; nd 7; nd 5; nd 7] /\
  match hsInsertAll (NewHighscore 3) [nd 3; nd 7; nd 5; nd 7] with
  | Ok h => hsScores h = map f64_ofZ [7; 7]%Z
  | _ => False
  end.
Proof. split; [repeat constructor|vm_compute; reflexivity]. Qed.

(** ** C02 *)
Theorem C02_highscore_capacity : forall o M (nodes : list (Node (F64 o))),
  (2 <= M)%Z -> Forall score_ok nodes ->
  exists h, hsInsertAll (NewHighscore M) nodes = Ok h /\
    (hsLen h <= M)%Z /\
    (Z.of_nat (length nodes) < M -> Permutation (hsItems h) nodes)%Z /\
    (Z.min (Z.of_nat (length nodes)) (M - 1) <= hsLen h)%Z /\
    (ForallOrdPairs (fun a b => SFltb a b = true \/ SFltb b a = true) (map ndScore nodes) ->
     hsLen h <= M - 1)%Z.
Proof.
  intros o M nodes HM Hn.
  destruct (hs_reach (F64 o) (f64_OrdLaws o) M nodes HM Hn) as (h & E & I).
  exists h; split; [exact E|]. exact (hinv_capacity (F64 o) M h nodes I).
Qed.
Print Assumptions C02_highscore_capacity.

Theorem C02_capacity_one_panics : forall o (n : Node (F64 o)) nodes,
  hsInsertAll (NewHighscore 1) (n :: nodes) = Panic.
Proof. intros o; exact (hs_one_panics (F64 o)). Qed.
Print Assumptions C02_capacity_one_panics.

Theorem C02_capacity_zero_empty : forall o M (nodes : list (Node (F64 o))),
  (M <= 0)%Z -> exists h, hsInsertAll (NewHighscore M) nodes = Ok h /\ hsLen h = 0%Z.
Proof.
  intros o M nodes HM. exists (NewHighscore M). split; [|reflexivity].
  exact (hs_nonpos_empty (F64 o) nodes M HM).
Qed.
Print Assumptions C02_capacity_zero_empty.

(** a list made for 3 entries keeps 2 of 5 different nodes, 3 when there are ties *)
Example C02_nonvacuous :
  ForallOrdPairs (fun a b => SFltb a b = true \/ SFltb b a = true) (map ndScore [nd 1; nd 2; nd 5; nd 4; nd 3]) /\
  match hsInsertAll (NewHighscore 3) [nd 1; nd 2; nd 5; nd 4; nd 3] with
  | Ok h => hsScores h = map f64_ofZ [5; 4]%Z | _ => False end /\
  match hsInsertAll (NewHighscore 3) [nd 5; nd 3; nd 3; nd 4] with
  | Ok h => hsScores h = map f64_ofZ [5; 4; 3]%Z | _ => False end.
Proof.
  split; [|split; vm_compute; reflexivity].
  repeat (constructor; [repeat (constructor; [vm_compute; auto|]); constructor|]). constructor.
Qed.

(** ** C03: what was kept and what was dropped *)
Theorem C03_highscore_keeps_best : forall o M (nodes : list (Node (F64 o))),
  (2 <= M)%Z -> Forall score_ok nodes ->
  exists h dropped, hsInsertAll (NewHighscore M) nodes = Ok h /\
    Permutation (hsItems h ++ dropped) nodes /\
    StronglySorted (fun a b : Node (F64 o) => SFltb (ndScore a) (ndScore b) = false) (hsItems h) /\
    (forall kept d : Node (F64 o), In kept (hsItems h) -> In d dropped ->
       SFltb (ndScore kept) (ndScore d) = false) /\
    (nodes <> [] ->
       (exists n : Node (F64 o), In n nodes /\ hsBestScore h = ndScore n) /\
       forall n : Node (F64 o), In n nodes -> SFltb (hsBestScore h) (ndScore n) = false).
Proof.
  intros o M nodes HM Hn.
  destruct (hs_reach (F64 o) (f64_OrdLaws o) M nodes HM Hn) as (h & E & I).
  destruct (hi_drop _ _ _ _ I) as (dr & Hp & Hd & _).
  exists h, dr. split; [exact E|]. split; [exact Hp|]. split; [exact (hi_sorted _ _ _ _ I)|].
  split; [intros k d Hk Hdd; exact (Hd d k Hdd Hk)|].
  exact (hinv_best (F64 o) (f64_OrdLaws o) M h nodes HM I).
Qed.
Print Assumptions C03_highscore_keeps_best.

Example C03_nonvacuous :
  Forall score_ok [nd 1; nd 9; nd 4; nd 6; nd 2] /\
  match hsInsertAll (NewHighscore 4) [nd 1; nd 9; nd 4; nd 6; nd 2] with
  | Ok h => hsScores h = map f64_ofZ [9; 6; 4]%Z | _ => False end.
Proof. split; [repeat constructor|vm_compute; reflexivity]. Qed.

(** ** C04 *)
Theorem C04_highscore_json_roundtrip : forall o M M0 (nodes : list (Node (F64 o))) h,
  M <> 1%Z -> Forall score_ok nodes ->
  hsInsertAll (NewHighscore M) nodes = Ok h ->
  (hsLen h < hsMaxItems h)%Z ->
  forallb node_finite (hsItems h) = true ->
  exists j, hsMarshalJSON h = Ok (Some j) /\
    hsUnmarshalJSON (NewHighscore M0) j
    = Ok (mkHS (map (with_flip false) (hsItems h)) (hsMaxItems h)).
Proof.
  intros o M M0 nodes h HM Hn E Hl Hf.
  destruct (hs_sorted_any (F64 o) (f64_OrdLaws o) M nodes HM Hn) as (h' & E' & D).
  rewrite E in E'. injection E' as <-. exact (hs_roundtrip (F64 o) h M0 D Hl Hf).
Qed.
Print Assumptions C04_highscore_json_roundtrip.

(** A completely filled list loses its last item exactly when the last two
    scores differ. *)
Theorem C04_highscore_json_full_list : forall o M M0 (nodes l : list (Node (F64 o))) x y h,
  (2 <= M)%Z -> Forall score_ok nodes ->
  hsInsertAll (NewHighscore M) nodes = Ok h ->
  hsItems h = l ++ [x; y] -> hsLen h = hsMaxItems h ->
  forallb node_finite (hsItems h) = true ->
  exists j, hsMarshalJSON h = Ok (Some j) /\
    hsUnmarshalJSON (NewHighscore M0) j
    = Ok (mkHS (map (with_flip false)
                 (if SFltb (ndScore y) (ndScore x) then l ++ [x] else l ++ [x; y])) M).
Proof.
  intros o M M0 nodes l x y h HM Hn E Hi Hl Hf.
  destruct (hs_reach (F64 o) (f64_OrdLaws o) M nodes HM Hn) as (h' & E' & I).
  rewrite E in E'. injection E' as <-.
  unfold hsMarshalJSON. rewrite marshal_nodes_ok by exact Hf.
  eexists; split; [reflexivity|]. unfold hsUnmarshalJSON. cbn [option_map hjItems hjMaxItems].
  rewrite unmarshal_nodes. cbn [bind app]. rewrite (hi_max _ _ _ _ I), Hi.
  rewrite map_app. cbn [map].
  pose proof (hs_roundtrip_full (F64 o) (map (with_flip false) l) (with_flip false x)
                (with_flip false y) M HM) as R.
  unfold NewHighscore in *. cbn [hsItems]. rewrite R.
  - cbn [ndScore with_flip nltb F64]. destruct (SFltb (ndScore y) (ndScore x)); rewrite map_app; reflexivity.
  - change [with_flip false x; with_flip false y] with (map (with_flip false) [x; y]).
    rewrite <- map_app. apply desc_flip. rewrite <- Hi. exact (hi_sorted _ _ _ _ I).
  - change [with_flip false x; with_flip false y] with (map (with_flip false) [x; y]).
    rewrite <- map_app, map_length, <- Hi. unfold hsLen in Hl. rewrite Hl. exact (hi_max _ _ _ _ I).
Qed.
Print Assumptions C04_highscore_json_full_list.

(** The unrestricted round trip fails: a reachable list of 3 items decodes to 2. *)
Theorem C04_highscore_json_roundtrip_refuted :
  exists (nodes : list (Node (F64 fenv0))) h j h',
    Forall score_ok nodes /\ hsInsertAll (NewHighscore 3) nodes = Ok h /\
    forallb node_finite (hsItems h) = true /\
    hsMarshalJSON h = Ok (Some j) /\ hsUnmarshalJSON (NewHighscore 3) j = Ok h' /\
    hsLen h = 3%Z /\ hsLen h' = 2%Z /\ hsEqual h h' = false.
Proof.
  set (nodes := [nd 5; nd 3; nd 3; nd 4]).
  assert (C : match hsInsertAll (NewHighscore 3) nodes with
    | Ok h => forallb node_finite (hsItems h) &&
        match hsMarshalJSON h with
        | Ok (Some j) =>
            match hsUnmarshalJSON (NewHighscore 3) j with
            | Ok h' => (hsLen h =? 3)%Z && (hsLen h' =? 2)%Z && negb (hsEqual h h')
            | _ => false end
        | _ => false end
    | _ => false end = true) by (vm_compute; reflexivity).
  destruct (hsInsertAll (NewHighscore 3) nodes) as [h| |] eqn:E1; try discriminate C.
  apply andb_true_iff in C; destruct C as [C0 C].
  destruct (hsMarshalJSON h) as [[j|]| |] eqn:E2; try discriminate C.
  destruct (hsUnmarshalJSON (NewHighscore 3) j) as [h'| |] eqn:E3; try discriminate C.
  rewrite !andb_true_iff, !Z.eqb_eq, negb_true_iff in C. destruct C as [[C1 C2] C3].
  exists nodes, h, j, h'. split; [repeat constructor|]. auto 10.
Qed.
Print Assumptions C04_highscore_json_roundtrip_refuted.

Example C04_nonvacuous :
  match hsInsertAll (NewHighscore 4) [nd 1; nd 9; nd 4; nd 6; nd 2] with
  | Ok h => (hsLen h < hsMaxItems h)%Z /\ forallb node_finite (hsItems h) = true /\
            hsLen h = 3%Z
  | _ => False end.
Proof. vm_compute. repeat split; reflexivity. Qed.

(** ** C05 *)
Theorem C05_node_json_roundtrip : forall o (n z : Node (F64 o)),
  node_finite n = true ->
  exists j n', NodeMarshalJSON n = Ok (Some j) /\ NodeUnmarshalJSON z j = Ok n' /\
    ndModel n' = ndModel n /\ ndCoeff n' = ndCoeff n /\ ndLevel n' = ndLevel n /\
    ndLower n' = ndLower n /\ ndUpper n' = ndUpper n /\ ndScore n' = ndScore n /\
    ndWasFlipped n' = ndWasFlipped z /\
    NodesEqual n n' = true.
Proof.
  intros o n z Hf. rewrite node_marshal, Hf. do 2 eexists. split; [reflexivity|].
  rewrite node_unmarshal. split; [reflexivity|].
  cbn [with_flip ndModel ndCoeff ndLevel ndLower ndUpper ndScore ndWasFlipped].
  repeat (split; [reflexivity|]). apply NodesEqual_same; try reflexivity.
  unfold node_finite in Hf. rewrite !andb_true_iff in Hf.
  exact (finite_nonan (F64 o) _ (proj2 Hf)).
Qed.
Print Assumptions C05_node_json_roundtrip.

(** A NaN or infinite number anywhere in the node makes the encoding fail. *)
Theorem C05_node_json_nonfinite : forall o (n : Node (F64 o)),
  node_finite n = false -> NodeMarshalJSON n = Ok None.
Proof. intros o n Hf. rewrite node_marshal, Hf. reflexivity. Qed.
Print Assumptions C05_node_json_nonfinite.

(** NodesEqual never identifies nodes with different models or levels. *)
Theorem C05_nodesequal_sound : forall o (a b : Node (F64 o)), NodesEqual a b = true ->
  ndModel a = ndModel b /\ ndLevel a = ndLevel b /\ length (ndCoeff a) = length (ndCoeff b).
Proof. intros o; exact (NodesEqual_model (F64 o)). Qed.
Print Assumptions C05_nodesequal_sound.

Example C05_nonvacuous :
  let n := mkNode (N := F64 fenv0) [true; false; true] [f64_ofZ 2; f64_dec 1 (-1)] 2
                  (f64_ofZ (-3)) (f64_ofZ 9) (f64_ofZ 1) true in
  node_finite n = true /\
  match NodeMarshalJSON n with Ok (Some j) => njSelected j = [0; 2]%Z | _ => False end.
Proof. vm_compute. auto. Qed.
