(** Model of featselect/node.go, featselect/highscore.go, and of the
    bit-vector helpers of featselect/optimize.go, util.go, saScore.go and
    orthogonalMatchingPursuit.go.  [model []bool] is [list bool]; slices are
    taken to have capacity equal to length, as [make] gives. *)
From Verif Require Import Base Num Mat.

(** copy(dst, src) (Go builtin): the first min(len dst, len src) elements. *)
Definition go_copy {A} (dst src : list A) : list A :=
  firstn (length dst) src ++ skipn (length src) dst.

(** s[:n] (Go slice expression, capacity = length): panics outside 0..len. *)
Definition slice_to {A} (l : list A) (n : Z) : res (list A) :=
  if ((n <? 0) || (Z.of_nat (length l) <? n))%Z then Panic else Ok (firstn (Z.to_nat n) l).

(** make([]T, n): panics for negative n; [z] is the zero value. *)
Definition go_make {A} (z : A) (n : Z) : res (list A) :=
  if (n <? 0)%Z then Panic else Ok (repeat z (Z.to_nat n)).

(** optimize.go:15-22 Gcs *)
Definition Gcs (model : list bool) (start : Z) : res (list bool) :=
  do pre <- slice_to model start;
  let g := go_copy (repeat false (length model)) pre in
  let a := Z.to_nat start in
  for_loop a (length model - a) (fun i g => setn g i true) g.

(** optimize.go:27-35 Lcs *)
Definition Lcs (model : list bool) (start : Z) : res (list bool) :=
  do pre <- slice_to model start;
  let g := go_copy (repeat false (length model)) pre in
  let a := Z.to_nat start in
  for_loop a (length model - a) (fun i g => setn g i false) g.

(** optimize.go:38-46 NumFeatures *)
Definition NumFeatures (model : list bool) : nat :=
  fold_left (fun num flag => if flag : bool then S num else num) model 0%nat.

(** The loop [for i, v := range model { if v { sel[counter] = i; counter++ } }]
    over a slice allocated with NumFeatures(model) entries.  It occurs verbatim in
    node.go:90-97, node.go:147-157, saScore.go:17-26,
    orthogonalMatchingPursuit.go:119-127 and simmulatedAnnealing.go:96-103. *)
Definition selected_loop (model : list bool) : res (list Z) :=
  do st <- for_eachi 0 model
      (fun i v (st : list Z * nat) =>
         let '(sel, counter) := st in
         if v : bool then do sel' <- setn sel counter (Z.of_nat i); Ok (sel', S counter)
         else Ok (sel, counter))
      (repeat 0%Z (NumFeatures model), 0%nat);
  Ok (fst st).

(** orthogonalMatchingPursuit.go:118-128 SelectedFeatures *)
Definition SelectedFeatures (model : list bool) : res (list Z) := selected_loop model.

(** util.go:113-120 Selected2Model *)
Definition Selected2Model (selected : list Z) (numFeatures : Z) : res (list bool) :=
  do model <- go_make false numFeatures;
  for_each selected (fun v model => setz model v true) model.

Section Node.
  Variable N : Num.

  (** node.go:15-23 Node *)
  Record Node := mkNode {
    ndModel : list bool;
    ndCoeff : list N;
    ndLevel : Z;
    ndLower : N;
    ndUpper : N;
    ndScore : N;
    ndWasFlipped : bool
  }.

  (** node.go:27-37 GetChildNode.  [var child Node] zero-initialises the
      fields that are not set. *)
  Definition GetChildNode (n : Node) (flip : bool) : res Node :=
    let m := go_copy (repeat false (length (ndModel n))) (ndModel n) in
    do m' <- (if flip then do b <- getz m (ndLevel n); setz m (ndLevel n) (negb b)
              else Ok m);
    Ok (mkNode m' [] (ndLevel n + 1)%Z n0 n0 n0 flip).

  (** node.go:67-74 NewNode *)
  Definition NewNode (level : Z) (model : list bool) : Node :=
    mkNode (go_copy (repeat false (length model)) model)
           (repeat n0 (NumFeatures model)) level n0 n0 n0 false.

  (** Go [a == b] on float64 *)
  Definition go_eq (a b : N) : bool := (nleb a b && nleb b a)%bool.

  (** gonum floats.EqualWithinAbsOrRel(a, b, tol, tol) (v0.6, external
      library, transcribed): exact equality, or |a-b| <= tol, or the relative
      test with the smallest normal number as lower scale. *)
  Definition min_normal : N := ndec 22250738585072014 (-324).
  Definition EqualWithinAbsOrRel (a b tol : N) : bool :=
    if go_eq a b then true
    else let delta := nabs (nsub a b) in
    if nleb delta tol then true
    else if nleb delta min_normal then nleb delta (nmul tol min_normal)
    else nleb (ndiv delta (nmax2 (nabs a) (nabs b))) tol.

  (** gonum floats.EqualApprox *)
  Definition EqualApprox (a b : list N) (tol : N) : bool :=
    (length a =? length b)%nat &&
    forallb (fun p => EqualWithinAbsOrRel (fst p) (snd p) tol) (combine a b).

  (** node.go:40-64 NodesEqual *)
  Definition NodesEqual (a b : Node) : bool :=
    if negb (length (ndModel a) =? length (ndModel b))%nat then false
    else if negb (ndLevel a =? ndLevel b)%Z then false
    else if negb (forallb (fun p => Bool.eqb (fst p) (snd p)) (combine (ndModel a) (ndModel b)))
    then false
    else let tol := ndec 1 (-10) in
    if (nltb tol (nabs (nsub (ndLower a) (ndLower b)))
        || nltb tol (nabs (nsub (ndUpper a) (ndUpper b)))
        || nltb tol (nabs (nsub (ndScore a) (ndScore b))))%bool then false
    else if negb (EqualApprox (ndCoeff a) (ndCoeff b) tol) then false
    else true.

  (** node.go:78-86 nodeJsonified.  The JSON text is left out here (see
      Model_JSON.v and Model_JSONFiles.v): encoding/json writes ints and finite
      float64 so that they decode to the same value, and rejects NaN and infinities. *)
  Record nodeJsonified := mkNodeJ {
    njSelected : list Z;
    njTotNumFeatures : Z;
    njLower : N;
    njUpper : N;
    njScore : N;
    njLevel : Z;
    njCoeff : list N
  }.

  (** finite in the sense json.Marshal requires *)
  Definition finite (x : N) : bool :=
    negb (nisnan x) && nltb x ninf && nltb (nneg ninf) x.

  Definition nodeJ_encodable (j : nodeJsonified) : bool :=
    finite (njLower j) && finite (njUpper j) && finite (njScore j) && forallb finite (njCoeff j).

  (** node.go:89-107 Node.MarshalJSON; [None] is json.Marshal's error return *)
  Definition NodeMarshalJSON (n : Node) : res (option nodeJsonified) :=
    do selected <- selected_loop (ndModel n);
    let j := mkNodeJ selected (Z.of_nat (length (ndModel n))) (ndLower n) (ndUpper n)
                     (ndScore n) (ndLevel n) (ndCoeff n) in
    Ok (if nodeJ_encodable j then Some j else None).

  (** node.go:110-126 Node.UnmarshalJSON into [n] *)
  Definition NodeUnmarshalJSON (n : Node) (aux : nodeJsonified) : res Node :=
    do m <- go_make false (njTotNumFeatures aux);
    do m' <- for_each (njSelected aux) (fun v m => setz m v true) m;
    Ok (mkNode m' (njCoeff aux) (njLevel aux) (njLower aux) (njUpper aux) (njScore aux)
               (ndWasFlipped n)).

  (** util.go:253-256 SparseCoeff *)
  Record SparseCoeff := mkSparse { spCoeff : list N; spSelection : list Z }.

  (** node.go:145-159 ToSparseCoeff *)
  Definition ToSparseCoeff (n : Node) : res SparseCoeff :=
    do sel <- selected_loop (ndModel n);
    Ok (mkSparse (ndCoeff n) sel).

  (** node.go:129-142 EstimateMemory *)
  Definition EstimateMemory (n : Node) : Z :=
    (Z.of_nat (length (ndModel n)) + 8 * Z.of_nat (length (ndCoeff n)) + 4 + 3 * 8 + 1)%Z.

  (** ** featselect/highscore.go *)

  (** highscore.go:9-12.  The container/list is a list of nodes, front first. *)
  Record Highscore := mkHS { hsItems : list Node; hsMaxItems : Z }.

  (** highscore.go:15-20 *)
  Definition NewHighscore (maxItems : Z) : Highscore := mkHS [] maxItems.

  (** highscore.go:52-54 *)
  Definition hsLen (h : Highscore) : Z := Z.of_nat (length (hsItems h)).

  (** highscore.go:32-44: walk to the first item with a smaller score and
      insert before it ([None]: no such item). *)
  Fixpoint hs_insert_before (node : Node) (l : list Node) : option (list Node) :=
    match l with
    | [] => None
    | it :: t => if nltb (ndScore it) (ndScore node) then Some (node :: it :: t)
                 else option_map (cons it) (hs_insert_before node t)
    end.

  (** highscore.go:23-49 Insert.  [h.Items.Back()] of an empty list is nil and
      dereferencing it panics. *)
  Definition hsInsert (h : Highscore) (node : Node) : res Highscore :=
    let cont :=
      match hs_insert_before node (hsItems h) with
      | Some l =>
          Ok (mkHS (if (hsMaxItems h <=? Z.of_nat (length l))%Z then removelast l else l)
                   (hsMaxItems h))
      | None =>
          if (hsLen h <? hsMaxItems h)%Z then Ok (mkHS (hsItems h ++ [node]) (hsMaxItems h))
          else Ok h
      end in
    if (hsLen h =? hsMaxItems h - 1)%Z then
      match rev (hsItems h) with
      | [] => Panic
      | last :: _ => if nltb (ndScore node) (ndScore last) then Ok h else cont
      end
    else cont.

  (** A sequence of Insert calls *)
  Definition hsInsertAll (h : Highscore) (nodes : list Node) : res Highscore :=
    for_each nodes (fun n h => hsInsert h n) h.

  (** highscore.go:57-64 BestScore *)
  Definition hsBestScore (h : Highscore) : N :=
    match hsItems h with [] => n0 | n :: _ => ndScore n end.

  (** highscore.go:67-75 Scores *)
  Definition hsScores (h : Highscore) : list N := map ndScore (hsItems h).

  (** highscore.go:85-91, 96-99: the encoded structure *)
  Record hsJSON := mkHSJ { hjMaxItems : Z; hjItems : list nodeJsonified }.

  (** highscore.go:78-92 MarshalJSON (no concurrent modification); [None] is
      the error of json.Marshal *)
  Fixpoint marshal_nodes (l : list Node) : res (option (list nodeJsonified)) :=
    match l with
    | [] => Ok (Some [])
    | n :: t =>
        do j <- NodeMarshalJSON n;
        do r <- marshal_nodes t;
        Ok (match j, r with Some j, Some r => Some (j :: r) | _, _ => None end)
    end.
  Definition hsMarshalJSON (h : Highscore) : res (option hsJSON) :=
    do items <- marshal_nodes (hsItems h);
    Ok (option_map (mkHSJ (hsMaxItems h)) items).

  (** the zero Node json.Unmarshal allocates for every element *)
  Definition zero_node : Node := mkNode [] [] 0%Z n0 n0 n0 false.

  (** highscore.go:95-110 UnmarshalJSON into [h] *)
  Definition hsUnmarshalJSON (h : Highscore) (j : hsJSON) : res Highscore :=
    do nodes <- for_each (hjItems j)
        (fun jn acc => do n <- NodeUnmarshalJSON zero_node jn; Ok (acc ++ [n])) [];
    hsInsertAll (mkHS (hsItems h) (hjMaxItems j)) nodes.

  (** highscore.go:112-123 Equal *)
  Definition hsEqual (h h2 : Highscore) : bool :=
    if negb (hsMaxItems h =? hsMaxItems h2)%Z || negb (hsLen h =? hsLen h2)%Z then false
    else forallb (fun p => NodesEqual (fst p) (snd p)) (combine (hsItems h) (hsItems h2)).
End Node.

Arguments mkNode {N} _ _ _ _ _ _ _.
Arguments ndModel {N} _. Arguments ndCoeff {N} _. Arguments ndLevel {N} _.
Arguments ndLower {N} _. Arguments ndUpper {N} _. Arguments ndScore {N} _.
Arguments ndWasFlipped {N} _.
Arguments GetChildNode {N} _ _. Arguments NewNode {N} _ _. Arguments go_eq {N} _ _.
Arguments EqualWithinAbsOrRel {N} _ _ _. Arguments EqualApprox {N} _ _ _.
Arguments NodesEqual {N} _ _. Arguments mkNodeJ {N} _ _ _ _ _ _ _.
Arguments njSelected {N} _. Arguments njTotNumFeatures {N} _. Arguments njLower {N} _.
Arguments njUpper {N} _. Arguments njScore {N} _. Arguments njLevel {N} _.
Arguments njCoeff {N} _. Arguments finite {N} _. Arguments nodeJ_encodable {N} _.
Arguments NodeMarshalJSON {N} _. Arguments NodeUnmarshalJSON {N} _ _.
Arguments mkSparse {N} _ _. Arguments spCoeff {N} _. Arguments spSelection {N} _.
Arguments ToSparseCoeff {N} _. Arguments EstimateMemory {N} _.
Arguments mkHS {N} _ _. Arguments hsItems {N} _. Arguments hsMaxItems {N} _.
Arguments NewHighscore {N} _. Arguments hsLen {N} _. Arguments hs_insert_before {N} _ _.
Arguments hsInsert {N} _ _. Arguments hsInsertAll {N} _ _. Arguments hsBestScore {N} _.
Arguments hsScores {N} _. Arguments mkHSJ {N} _ _. Arguments hjMaxItems {N} _.
Arguments hjItems {N} _. Arguments marshal_nodes {N} _. Arguments hsMarshalJSON {N} _.
Arguments zero_node {N}. Arguments hsUnmarshalJSON {N} _ _. Arguments hsEqual {N} _ _.

(** ** util.go / subview.go column selection *)

(** util.go:12-31 GetDesignMatrix *)
Definition GetDesignMatrix {N : Num} (model : list bool) (X : Mat N) : res (Mat N) :=
  let n := mrows X in
  let numFeat := NumFeatures model in
  if (numFeat =? 0)%nat then Panic else
  do design <- new_dense n numFeat;
  do st <- for_loop 0 (length model)
      (fun i (st : Mat N * nat) =>
         let '(design, col) := st in
         do b <- getn model i;
         if b : bool then
           do design' <- for_loop 0 n
               (fun j d => do v <- mat_at X j i; mat_set d j col v) design;
           Ok (design', S col)
         else Ok (design, col))
      (design, 0%nat);
  Ok (fst st).

(** subview.go:8-35 IndexedColView: At, Dims, NewIndexedColView *)
Record IndexedColView (N : Num) := mkICV { icvMatrix : Mat N; icvCols : list Z }.
Arguments mkICV {N} _ _. Arguments icvMatrix {N} _. Arguments icvCols {N} _.
Definition icvAt {N : Num} (v : IndexedColView N) (i j : Z) : res N :=
  do c <- getz (icvCols v) j; mat_atz (icvMatrix v) i c.
Definition icvDims {N : Num} (v : IndexedColView N) : nat * nat :=
  (mrows (icvMatrix v), length (icvCols v)).
Definition NewIndexedColView {N : Num} (m : Mat N) (cols : list Z) : IndexedColView N := mkICV m cols.
