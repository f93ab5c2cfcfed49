(** Properties C06-C10: bit models, selections, branching, design matrix. *)
From Coq Require Import Sorting.Sorted Floats.SpecFloat.
From Verif Require Import Base Num Mat Model_Node Model_Bits.
From Verif Require Import Proof_Node Proof_Node2 Proof_Bits Proof_Models.

(** ** C06.  [bit_spec ops i] is what an array of booleans would hold at [i]. *)
Theorem C06_bit_model_refines_array : forall size ops,
  (0 <= size)%Z ->
  (forall op, In op ops -> 0 <= op_index op < size)%Z ->
  exists m0 m, NewModel size = Ok m0 /\ bm_run ops m0 = Ok m /\
    (forall i, (0 <= i < size)%Z -> bmGet m i = Ok (bit_spec ops i)) /\
    bmToBools m = Ok (map (fun i => bit_spec ops (Z.of_nat i)) (seq 0 (Z.to_nat size))).
Proof.
  intros size ops Hs Hops.
  assert (B : forall i, (0 <= i < size)%Z -> (0 <= i < 8 * (size / 8 + 1))%Z).
  { intros i Hi. pose proof (Z.div_mod size 8 ltac:(lia)).
    pose proof (Z.mod_pos_bound size 8 ltac:(lia)). lia. }
  destruct (bits_refine size ops Hs) as (m0 & m & E0 & E1 & G & TB);
    [intros op Hop; apply B, Hops, Hop|].
  exists m0, m. repeat (split; [assumption|]). split; [intros i Hi; apply G, B, Hi|assumption].
Qed.
Print Assumptions C06_bit_model_refines_array.

(** No range check against [size]: indices up to the end of the last byte are
    accepted; -7..-1 silently do nothing and read true; everything else panics. *)
Theorem C06_bit_model_out_of_range : forall m i,
  ((-8 < i < 0)%Z -> bmBits m <> [] ->
     bmGet m i = Ok true /\ bmSet m i = Ok m /\ bmFlip m i = Ok m) /\
  ((i <= -8 \/ 8 * Z.of_nat (length (bmBits m)) <= i)%Z ->
     bmGet m i = Panic /\ bmSet m i = Panic /\ bmFlip m i = Panic).
Proof. intros m i. split; [exact (bits_negative m i)|exact (bits_out m i)]. Qed.
Print Assumptions C06_bit_model_out_of_range.

Theorem C06_bit_model_slack_bits : forall size ops,
  (0 <= size)%Z ->
  (forall op, In op ops -> 0 <= op_index op < 8 * (size / 8 + 1))%Z ->
  exists m0 m, NewModel size = Ok m0 /\ bm_run ops m0 = Ok m /\
    (forall i, (0 <= i < 8 * (size / 8 + 1))%Z -> bmGet m i = Ok (bit_spec ops i)) /\
    bmToBools m = Ok (map (fun i => bit_spec ops (Z.of_nat i)) (seq 0 (Z.to_nat size))).
Proof. exact bits_refine. Qed.
Print Assumptions C06_bit_model_slack_bits.

Example C06_nonvacuous :
  match NewModel 11 with
  | Ok m0 => match bm_run [SetBit 3; FlipBit 9; SetBit 10; FlipBit 3; SetBit 9]%Z m0 with
             | Ok m => bmToBools m = Ok [false; false; false; false; false; false; false; false; false; true; true]
                       /\ bmGet m (-3) = Ok true /\ bmGet m 16 = Panic
             | _ => False end
  | _ => False end.
Proof. vm_compute. auto. Qed.

(** ** C07 *)
Theorem C07_gcs_lcs_extremal : forall model start,
  (0 <= start <= Z.of_nat (length model))%Z ->
  exists g l, Gcs model start = Ok g /\ Lcs model start = Ok l /\
    agree_upto (Z.to_nat start) model g /\ agree_upto (Z.to_nat start) model l /\
    forall m, agree_upto (Z.to_nat start) model m ->
      incl_model l m /\ incl_model m g /\
      (NumFeatures l <= NumFeatures m <= NumFeatures g)%nat.
Proof. exact gcs_lcs_extremal. Qed.
Print Assumptions C07_gcs_lcs_extremal.

Theorem C07_gcs_lcs_panic : forall model start,
  ~ (0 <= start <= Z.of_nat (length model))%Z -> Gcs model start = Panic /\ Lcs model start = Panic.
Proof. exact GcsLcs_panic. Qed.
Print Assumptions C07_gcs_lcs_panic.

Example C07_nonvacuous :
  Gcs [true; false; false; true] 2 = Ok [true; false; true; true] /\
  Lcs [true; false; false; true] 2 = Ok [true; false; false; false] /\
  agree_upto 2 [true; false; false; true] [true; false; true; false].
Proof.
  split; [reflexivity|]. split; [reflexivity|]. split; [reflexivity|].
  intros [|[|i]] Hi; try reflexivity. lia.
Qed.

(** ** C08 *)
Theorem C08_selected_features : forall model,
  NumFeatures model = count_occ bool_dec model true /\
  exists sel, SelectedFeatures model = Ok sel /\
    StronglySorted Z.lt sel /\ length sel = NumFeatures model /\
    (forall z, In z sel <-> exists i, z = Z.of_nat i /\ nth_error model i = Some true) /\
    Selected2Model sel (Z.of_nat (length model)) = Ok model.
Proof.
  intro model. split; [exact (nf_count model)|].
  exists (sel_from 0 model). split; [exact (selected_loop_eq model)|].
  split; [exact (sel_from_sorted model 0)|]. split; [exact (sel_from_length model 0)|].
  split; [exact (sel_from_In model 0)|exact (select_roundtrip model)].
Qed.
Print Assumptions C08_selected_features.

Theorem C08_selected2model : forall sel n,
  (0 <= n)%Z ->
  ((forall v, In v sel -> 0 <= v < n)%Z ->
    exists m, Selected2Model sel n = Ok m /\ Z.of_nat (length m) = n /\
      forall k, (Z.of_nat k < n)%Z -> (nth k m false = true <-> In (Z.of_nat k) sel)) /\
  ((exists v, In v sel /\ ~ (0 <= v < n)%Z) -> Selected2Model sel n = Panic).
Proof. exact selected2model_spec. Qed.
Print Assumptions C08_selected2model.

(** ToSparseCoeff and MarshalJSON list the indices SelectedFeatures gives. *)
Theorem C08_same_listing : forall o (n : Node (F64 o)) sel,
  SelectedFeatures (ndModel n) = Ok sel ->
  ToSparseCoeff n = Ok (mkSparse (ndCoeff n) sel) /\
  forall j, NodeMarshalJSON n = Ok (Some j) ->
    njSelected j = sel /\ njTotNumFeatures j = Z.of_nat (length (ndModel n)).
Proof.
  intros o n sel H. unfold ToSparseCoeff, SelectedFeatures in *. rewrite H. split; [reflexivity|].
  intros j Hj. rewrite node_marshal in Hj. rewrite selected_loop_eq in H. injection H as <-.
  destruct (node_finite n); [|discriminate]. injection Hj as <-. split; reflexivity.
Qed.
Print Assumptions C08_same_listing.

Example C08_nonvacuous :
  SelectedFeatures [false; true; true; false; true] = Ok [1; 2; 4]%Z /\
  Selected2Model [4; 1; 4]%Z 5 = Ok [false; true; false; false; true] /\
  Selected2Model [4; 5]%Z 5 = Panic /\ Selected2Model [-1]%Z 5 = Panic.
Proof. repeat split. Qed.

(** ** C09 *)
Theorem C09_branching_partition : forall o (n : Node (F64 o)),
  (0 <= ndLevel n < Z.of_nat (length (ndModel n)))%Z ->
  exists c0 c1, GetChildNode n false = Ok c0 /\ GetChildNode n true = Ok c1 /\
    ndLevel c0 = (ndLevel n + 1)%Z /\ ndLevel c1 = (ndLevel n + 1)%Z /\
    ndWasFlipped c0 = false /\ ndWasFlipped c1 = true /\
    ndModel c0 = ndModel n /\
    (length (ndModel c1) = length (ndModel n) /\
     forall i, (i < length (ndModel n))%nat ->
       (nth i (ndModel c1) false = nth i (ndModel n) false <-> i <> Z.to_nat (ndLevel n))) /\
    forall m,
      (agree_upto (Z.to_nat (ndLevel n)) (ndModel n) m <->
        (agree_upto (Z.to_nat (ndLevel c0)) (ndModel c0) m \/
         agree_upto (Z.to_nat (ndLevel c1)) (ndModel c1) m)) /\
      ~ (agree_upto (Z.to_nat (ndLevel c0)) (ndModel c0) m /\
         agree_upto (Z.to_nat (ndLevel c1)) (ndModel c1) m).
Proof. intro o; exact (branch_partition (F64 o)). Qed.
Print Assumptions C09_branching_partition.

Theorem C09_branching_panic : forall o (n : Node (F64 o)),
  ~ (0 <= ndLevel n < Z.of_nat (length (ndModel n)))%Z -> GetChildNode n true = Panic.
Proof. intro o; exact (GetChildNode_panic (F64 o)). Qed.
Print Assumptions C09_branching_panic.

Example C09_nonvacuous :
  let n := NewNode (N := F64 fenv0) 1 [true; false; true] in
  (0 <= ndLevel n < Z.of_nat (length (ndModel n)))%Z /\
  match GetChildNode n true with Ok c => ndModel c = [true; true; true] | _ => False end.
Proof. vm_compute. repeat split; congruence. Qed.

(** ** C10 *)
Theorem C10_design_matrix : forall o (model : list bool) (X : Mat (F64 o)),
  (0 < mrows X)%nat ->
  (GetDesignMatrix model X = Panic <->
     (forall i, nth i model false = false) \/
     exists i, nth i model false = true /\ (mcols X <= i)%nat) /\
  forall D, GetDesignMatrix model X = Ok D ->
    mrows D = mrows X /\ mcols D = NumFeatures model /\
    exists sel, SelectedFeatures model = Ok sel /\
      forall j k, (j < mrows X)%nat -> (k < NumFeatures model)%nat ->
        exists i, nth_error sel k = Some (Z.of_nat i) /\ (i < mcols X)%nat /\
          mval D j k = mval X j i /\
          icvAt (NewIndexedColView X sel) (Z.of_nat j) (Z.of_nat k) = Ok (mval D j k).
Proof. intro o; exact (design_spec (F64 o)). Qed.
Print Assumptions C10_design_matrix.

(** never out of fuel: the outcome is a matrix or a panic *)
Theorem C10_design_matrix_total : forall o (model : list bool) (X : Mat (F64 o)),
  (0 < mrows X)%nat ->
  GetDesignMatrix model X = Panic \/ exists D, GetDesignMatrix model X = Ok D.
Proof.
  intros o model X Hr. destruct (Nat.eq_dec (NumFeatures model) 0) as [E|E].
  - left. unfold GetDesignMatrix. rewrite E. reflexivity.
  - destruct (design_gen (F64 o) model X Hr E) as [[H _]|(D & H & _)]; [left|right; exists D]; exact H.
Qed.
Print Assumptions C10_design_matrix_total.

(** A view on some columns, in any order and with repetitions: as many rows as
    the matrix, a column for each index; an access is one to the matrix and
    panics when the row, the position or the index is out of range. *)
Theorem C10_column_view : forall (N : Num) (X : Mat N) cols,
  icvDims (NewIndexedColView X cols) = (mrows X, length cols) /\
  (forall i j c, (i < mrows X)%nat -> nth_error cols j = Some c -> (0 <= c < Z.of_nat (mcols X))%Z ->
     icvAt (NewIndexedColView X cols) (Z.of_nat i) (Z.of_nat j) = Ok (mval X i (Z.to_nat c))) /\
  (forall i j, ~ (0 <= i < Z.of_nat (mrows X))%Z \/ ~ (0 <= j < Z.of_nat (length cols))%Z \/
     (exists c, nth_error cols (Z.to_nat j) = Some c /\ ~ (0 <= c < Z.of_nat (mcols X))%Z) ->
     icvAt (NewIndexedColView X cols) i j = Panic).
Proof.
  intros N X cols. split; [reflexivity|]. split.
  - intros i j c Hi Hj Hc. unfold icvAt, NewIndexedColView. cbn [icvCols icvMatrix].
    rewrite getz_nat. unfold getn. rewrite Hj. cbn [bind]. unfold mat_atz.
    destruct (Z.ltb_spec (Z.of_nat i) 0); [lia|]. destruct (Z.ltb_spec c 0); [lia|]. cbn [orb].
    rewrite Nat2Z.id. apply mat_at_in; lia.
  - intros i j H. unfold icvAt, NewIndexedColView. cbn [icvCols icvMatrix].
    destruct (Z_lt_dec j 0) as [Hj|Hj]; [rewrite getz_out by lia; reflexivity|].
    destruct (Z_lt_dec j (Z.of_nat (length cols))) as [Hj2|Hj2]; [|rewrite getz_out by lia; reflexivity].
    rewrite (getz_in _ _ _ 0%Z) by lia. cbn [bind]. unfold mat_atz.
    destruct (Z.ltb_spec i 0) as [Hi|Hi]; [reflexivity|]. cbn [orb].
    destruct (Z.ltb_spec (nth (Z.to_nat j) cols 0%Z) 0) as [Hc|Hc]; [reflexivity|].
    apply mat_at_out. intros [C1 C2]. destruct H as [H|[H|(c & E & H)]]; [lia|lia|].
    apply (nth_error_nth _ _ 0%Z) in E. lia.
Qed.
Print Assumptions C10_column_view.

Example C10_nonvacuous :
  let X := mkMat (N := F64 fenv0) 2 3 (fun i j => f64_ofZ (Z.of_nat (10 * i + j))) in
  match GetDesignMatrix [true; false; true] X with
  | Ok D => mcols D = 2%nat /\ mval D 1 1 = f64_ofZ 12 | _ => False end.
Proof. vm_compute. auto. Qed.
