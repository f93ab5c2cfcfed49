(** Model of cmd/bnb.go:66-72 (saveHighscoreList) and of
    Highscore.MarshalJSON (highscore.go:78-92) while another goroutine inserts
    into the same list (bnb.go:99-104 and 110-121: the search goroutine owns
    nothing, both use [highscore] without a lock). *)
From Verif Require Import Base Num Model_Node.

Section Save.
  Variable N : Num.

  (** The container/list with the identity of its elements: Next on an element
      depends on the element, not on its position.  [lvNext] numbers the
      elements in order of creation. *)
  Record Live := mkLive { lvItems : list (nat * Node N); lvMax : Z; lvNext : nat }.

  (** What the list contains (highscore.go:9-12). *)
  Definition forget (h : Live) : Highscore N := mkHS (map snd (lvItems h)) (lvMax h).

  (** A highscore list (highscore.go:9-12) with its elements numbered from the
      front. *)
  Definition live_of (h : Highscore N) : Live :=
    mkLive (combine (seq 0 (length (hsItems h))) (hsItems h)) (hsMaxItems h) (length (hsItems h)).

  (** highscore.go:32-44, as Model_Node.hs_insert_before; the new element gets
      number [id]. *)
  Fixpoint live_before (id : nat) (node : Node N) (l : list (nat * Node N))
    : option (list (nat * Node N)) :=
    match l with
    | [] => None
    | it :: t => if nltb (ndScore (snd it)) (ndScore node) then Some ((id, node) :: it :: t)
                 else option_map (cons it) (live_before id node t)
    end.

  (** highscore.go:23-49 Insert, as Model_Node.hsInsert.  Simplified: one atomic
      step. *)
  Definition live_insert (h : Live) (node : Node N) : res Live :=
    let id := lvNext h in
    let len := Z.of_nat (length (lvItems h)) in
    let cont :=
      match live_before id node (lvItems h) with
      | Some l =>
          Ok (mkLive (if (lvMax h <=? Z.of_nat (length l))%Z then removelast l else l)
                     (lvMax h) (S id))
      | None =>
          if (len <? lvMax h)%Z then Ok (mkLive (lvItems h ++ [(id, node)]) (lvMax h) (S id))
          else Ok h
      end in
    if (len =? lvMax h - 1)%Z then
      match rev (lvItems h) with
      | [] => Panic
      | last :: _ => if nltb (ndScore node) (ndScore (snd last)) then Ok h else cont
      end
    else cont.

  (** container/list Element.Next (external library): the following element;
      nil at the end of the list, and nil for an element that has been removed
      from the list. *)
  Fixpoint next_of (id : nat) (l : list (nat * Node N)) : option (nat * Node N) :=
    match l with
    | [] => None
    | it :: t => if (fst it =? id)%nat then hd_error t else next_of id t
    end.

  (** Where MarshalJSON is: line 79 not yet run; [data] allocated, line 81
      about to take Front; at line 82 with element [e] in hand (its number and
      Value); after line 83, about to call e.Next(); loop left.  An entry [None]
      of [data] is a nil pointer. *)
  Inductive saver :=
  | SBegin
  | SFront (data : list (option (Node N)))
  | SStore (data : list (option (Node N))) (counter : nat) (e : nat * Node N)
  | SNext (data : list (option (Node N))) (counter : nat) (e : nat * Node N)
  | SWalked (data : list (option (Node N))).

  (** highscore.go:81: head of the loop, [e] has been assigned *)
  Definition loop_head (data : list (option (Node N))) (counter : nat)
      (e : option (nat * Node N)) : saver :=
    match e with None => SWalked data | Some e => SStore data counter e end.

  (** highscore.go:79-84, one statement *)
  Definition save_step (h : Live) (s : saver) : res saver :=
    match s with
    | SBegin => Ok (SFront (repeat None (length (lvItems h))))
    | SFront data => Ok (loop_head data 0 (hd_error (lvItems h)))
    | SStore data counter e =>
        do data' <- setn data counter (Some (snd e));
        Ok (SNext data' (S counter) e)
    | SNext data counter e => Ok (loop_head data counter (next_of (fst e) (lvItems h)))
    | SWalked data => Ok (SWalked data)
    end.

  (** One step of the program: the search goroutine inserts, or the goroutine of
      bnb.go:110-121 runs the next statement of MarshalJSON. *)
  Inductive label := LInsert (n : Node N) | LSave.
  Definition both_step (l : label) (s : Live * saver) : res (Live * saver) :=
    match l with
    | LInsert n => do h <- live_insert (fst s) n; Ok (h, snd s)
    | LSave => do p <- save_step (fst s) (snd s); Ok (fst s, p)
    end.
  Definition both (ls : list label) (s : Live * saver) : res (Live * saver) :=
    for_each ls both_step s.

  (** ** The file *)

  (** Contents of the output file: no bytes, or the encoding of the structure
      of highscore.go:85-91 (a nil entry is written as [null]). *)
  Inductive content := CEmpty | CJson (maxItems : Z) (items : list (option (nodeJsonified N))).

  (** encoding/json on [data]: [None] is the error return. *)
  Fixpoint encode_items (data : list (option (Node N)))
    : res (option (list (option (nodeJsonified N)))) :=
    match data with
    | [] => Ok (Some [])
    | None :: t =>
        do r <- encode_items t; Ok (option_map (cons None) r)
    | Some n :: t =>
        do j <- NodeMarshalJSON n;
        do r <- encode_items t;
        Ok (match j, r with Some j, Some r => Some (Some j :: r) | _, _ => None end)
    end.

  (** bnb.go:70-71: [highscoreJSON, _ := json.Marshal(h)] drops the error, in
      which case highscoreJSON is nil; WriteFile truncates the file and writes
      it.  Failures of the file system are not modelled. *)
  Definition write_file (maxItems : Z) (data : list (option (Node N))) : res content :=
    do r <- encode_items data;
    Ok (match r with None => CEmpty | Some items => CJson maxItems items end).

  (** score of a *Node: reading it through a nil pointer panics *)
  Definition score_ptr (n : option (Node N)) : res N :=
    match n with None => Panic | Some n => Ok (ndScore n) end.

  (** highscore.go:31-44 over pointers *)
  Fixpoint ptr_before (node : option (Node N)) (l : list (option (Node N)))
    : res (option (list (option (Node N)))) :=
    match l with
    | [] => Ok None
    | it :: t =>
        do a <- score_ptr it;
        do b <- score_ptr node;
        if nltb a b then Ok (Some (node :: it :: t))
        else do r <- ptr_before node t; Ok (option_map (cons it) r)
    end.

  (** highscore.go:23-49 Insert over pointers: what UnmarshalJSON calls for the
      entries it has decoded, [null] giving a nil pointer. *)
  Definition ptr_insert (maxItems : Z) (l : list (option (Node N))) (node : option (Node N))
    : res (list (option (Node N))) :=
    let len := Z.of_nat (length l) in
    let cont :=
      do r <- ptr_before node l;
      match r with
      | Some l' => Ok (if (maxItems <=? Z.of_nat (length l'))%Z then removelast l' else l')
      | None => if (len <? maxItems)%Z then Ok (l ++ [node]) else Ok l
      end in
    if (len =? maxItems - 1)%Z then
      match rev l with
      | [] => Panic
      | last :: _ =>
          do a <- score_ptr last;
          do b <- score_ptr node;
          if nltb b a then Ok l else cont
      end
    else cont.

  (** highscore.go:95-110 UnmarshalJSON of the file into a new list
      ([NewHighscore]): [None] is the error json.Unmarshal returns for an empty
      file. *)
  Definition load_file (c : content) : res (option (list (option (Node N)) * Z)) :=
    match c with
    | CEmpty => Ok None
    | CJson m items =>
        do nodes <- for_each items
          (fun j acc =>
             match j with
             | None => Ok (acc ++ [None])
             | Some j => do n <- NodeUnmarshalJSON zero_node j; Ok (acc ++ [Some n])
             end) [];
        do l <- for_each nodes (fun n l => ptr_insert m l n) [];
        Ok (Some (l, m))
    end.
End Save.
Arguments mkLive {N} _ _ _. Arguments lvItems {N} _. Arguments lvMax {N} _. Arguments lvNext {N} _.
Arguments forget {N} _. Arguments live_of {N} _. Arguments live_before {N} _ _ _. Arguments live_insert {N} _ _.
Arguments next_of {N} _ _. Arguments SBegin {N}. Arguments SFront {N} _. Arguments SStore {N} _ _ _.
Arguments SNext {N} _ _ _. Arguments SWalked {N} _. Arguments loop_head {N} _ _ _.
Arguments save_step {N} _ _. Arguments LInsert {N} _. Arguments LSave {N}.
Arguments both_step {N} _ _. Arguments both {N} _ _.
Arguments CEmpty {N}. Arguments CJson {N} _ _. Arguments encode_items {N} _.
Arguments write_file {N} _ _. Arguments score_ptr {N} _. Arguments ptr_before {N} _ _.
Arguments ptr_insert {N} _ _ _. Arguments load_file {N} _.
