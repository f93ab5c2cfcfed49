(** The worker pool of LassoCrdDescPath: invariant, progress, termination. *)
From Coq Require Import Permutation.
From Verif Require Import Base Num Mat Model_Node Model_Util Model_Fit Model_Norm Model_Cov Model_Crd Model_CrdPath
  Proof_Node Proof_Util.

Lemma flat_map_upd : forall A B (h : A -> list B) ws k w w', nth_error ws k = Some w ->
  Permutation (h w' ++ flat_map h ws) (h w ++ flat_map h (upd ws k w')).
Proof.
  intros A B h. induction ws as [|x ws IH]; intros [|k] w w' E; cbn [nth_error upd flat_map] in *; try discriminate E.
  - injection E as ->. rewrite !app_assoc. apply Permutation_app_tail. apply Permutation_app_comm.
  - specialize (IH k w w' E). rewrite !app_assoc.
    rewrite (Permutation_app_comm (h w') (h x)), (Permutation_app_comm (h w) (h x)).
    rewrite <- !app_assoc. apply Permutation_app_head. exact IH.
Qed.

Lemma sum_upd : forall A (h : A -> nat) ws k w w', nth_error ws k = Some w ->
  (h w' + list_sum (map h ws) = h w + list_sum (map h (upd ws k w')))%nat.
Proof.
  intros A h. induction ws as [|x ws IH]; intros [|k] w w' E; cbn [nth_error upd map list_sum fold_right] in *; try discriminate E.
  - injection E as ->. lia.
  - specialize (IH k w w' E). unfold list_sum in IH. lia.
Qed.

Lemma Forall_upd : forall A (P : A -> Prop) l k x, Forall P l -> P x -> Forall P (upd l k x).
Proof.
  intros A P l k x H. revert k. induction H as [|y l Hy H IH]; intros [|k] Hx; cbn [upd]; constructor; auto.
Qed.

Lemma Forall_nth_error : forall A (P : A -> Prop) l k x, Forall P l -> nth_error l k = Some x -> P x.
Proof. intros A P l k x H E. rewrite Forall_forall in H. apply H. apply nth_error_In with k. exact E. Qed.

(** drop the models without features at the front, unless there are only such *)
Fixpoint drop_empty {N : Num} (l : list (LassoLarsNode N)) : list (LassoLarsNode N) :=
  match l with
  | [] => []
  | nd :: t => match lnSelection nd with [] => drop_empty t | _ => l end
  end.
Definition trim {N : Num} (l : list (LassoLarsNode N)) : list (LassoLarsNode N) :=
  match drop_empty l with [] => l | l' => l' end.

Lemma fwf_spec : forall (N : Num) (l : list (LassoLarsNode N)) i,
  first_with_features (map Some l) i = Ok (match drop_empty l with [] => 0%nat | l' => (i + (length l - length l'))%nat end) /\
  (length (drop_empty l) <= length l)%nat /\ skipn (length l - length (drop_empty l)) l = drop_empty l.
Proof.
  intros N. induction l as [|nd l IH]; intro i; cbn [map first_with_features drop_empty length skipn]; [auto|].
  destruct (lnSelection nd) eqn:E; cbn [length].
  - change (0 <? 0)%nat with false. cbn iota. destruct (IH (S i)) as (I1 & I2 & I3). rewrite I1. split; [|split].
    + destruct (drop_empty l) eqn:E2; [reflexivity|]. f_equal. cbn [length] in *. lia.
    + lia.
    + replace (S (length l) - length (drop_empty l))%nat with (S (length l - length (drop_empty l))) by lia. exact I3.
  - replace (0 <? S (length l0))%nat with true by reflexivity. split; [f_equal; lia|]. split; [lia|].
    replace (S (length l) - S (length l))%nat with 0%nat by lia. reflexivity.
Qed.

Lemma collect : forall (N : Num) (l acc : list (LassoLarsNode N)),
  for_each (map Some l) (fun o l => match o with Some nd => Ok (l ++ [nd]) | None => Panic end) acc = Ok (acc ++ l).
Proof.
  intros N. induction l as [|x l IH]; intro acc; cbn [map for_each]; [rewrite app_nil_r; reflexivity|].
  cbn [bind]. rewrite IH, <- app_assoc. reflexivity.
Qed.

Lemma finish_spec : forall (N : Num) (l : list (LassoLarsNode N)), path_finish (map Some l) = PDone (trim l).
Proof.
  intros N l. unfold path_finish, trim. destruct (fwf_spec N l 0) as (E & H1 & H2). rewrite E. cbn [bind].
  destruct (drop_empty l) as [|x t] eqn:Ed.
  - cbn [skipn]. rewrite collect. reflexivity.
  - rewrite Nat.add_0_l, skipn_map, H2, collect. reflexivity.
Qed.

Section PathProof.
  Variable N : Num.
  Variable get : Mat N -> res (Mat N).
  Variable dset : NormalizedData N.
  Variable lambs : list N.
  Variable maxIter : Z.
  Variable tol : N.
  Variable corr : Correction N.
  Variable sol : nat -> LassoLarsNode N.
  Let L := length lambs.
  Let n := mcols (ndX dset).
  Let W := numWorkers L.
  Hypothesis Hperf : forall idx lam x0, nth_error lambs idx = Some lam ->
    perform get dset maxIter tol corr (mkWork x0 lam idx) = Ok (mkRes (sol idx) idx, corr).
  Hypothesis Hsel : forall idx, (idx < L)%nat ->
    length (lnCoeff (sol idx)) = length (lnSelection (sol idx)) /\
    forall s, In s (lnSelection (sol idx)) -> (0 <= s < Z.of_nat n)%Z.

  Notation step := (path_step get dset lambs maxIter tol).

  Definition held (w : Worker N) : list nat :=
    match w with WIdle => [] | WBusy w => [wkIdx w] | WBlocked r => [lrIdx r] end.
  Definition wok (w : Workload N) : Prop := nth_error lambs (wkIdx w) = Some (wkLamb w).
  Definition worker_ok (w : Worker N) : Prop :=
    match w with WIdle => True | WBusy w => wok w | WBlocked r => lrNode r = sol (lrIdx r) end.
  Definition heldl (ws : list (Worker N)) : list nat := flat_map held ws.

  Definition sentS (s : nat) : list nat := firstn s (avail0 L).
  Definition availS (s : nat) : list nat := skipn s (avail0 L).
  Definition nodes_of (rc : list nat) (nodes : list (option (LassoLarsNode N))) : Prop :=
    length nodes = L /\ forall idx, (idx < L)%nat ->
      nth_error nodes (L - 1 - idx) = Some (if in_dec Nat.eq_dec idx rc then Some (sol idx) else None).
  Definition high_ok (rc : list nat) (h : nat) : Prop := exists idx, In idx rc /\ (idx < L)%nat /\ h = (L - 1 - idx)%nat.

  Lemma W_le : (W <= L)%nat /\ (W < L -> 10 = W)%nat.
  Proof. unfold W, numWorkers. destruct (Nat.ltb_spec L 10); lia. Qed.

  Definition inv_main (m : MainPC N) (ws : list (Worker N)) : Prop :=
    match m with
    | PSpawn i avail => (i < W)%nat /\ length ws = i /\ avail = availS i /\ Permutation (heldl ws) (sentS i)
    | PSend0 i w avail => (i < W)%nat /\ length ws = S i /\ avail = availS (S i) /\ wok w /\
        wkIdx w = (L - 1 - i)%nat /\ Permutation (heldl ws) (sentS i)
    | PRecv nodes avail r h => exists rc s, length rc = r /\ (r < L)%nat /\ s = Nat.min L (W + r) /\ length ws = W /\
        avail = availS s /\ Permutation (heldl ws ++ rc) (sentS s) /\ nodes_of rc nodes /\
        (r = 0%nat -> h = 0%nat) /\ ((0 < r)%nat -> (W < L)%nat -> high_ok rc h)
    | PSend w nodes avail r h => exists rc s, length rc = r /\ (0 < r <= L)%nat /\ S s = (W + r)%nat /\ (s < L)%nat /\
        length ws = W /\ avail = availS (S s) /\ wok w /\ wkIdx w = (L - 1 - s)%nat /\
        Permutation (heldl ws ++ rc) (sentS s) /\ nodes_of rc nodes /\ high_ok rc h
    | PDone l => l = trim (map sol (avail0 L)) /\ heldl ws = [] /\ length ws = W
    | PPanic => False
    end.

  Definition inv (c : Pool N) : Prop :=
    plCorr c = corr /\ Forall worker_ok (plWorkers c) /\ inv_main (plMain c) (plWorkers c).

  Lemma avail0_length : length (avail0 L) = L.
  Proof. unfold avail0. rewrite map_length, seq_length. reflexivity. Qed.

  Lemma avail0_nth : forall s, (s < L)%nat -> nth_error (avail0 L) s = Some (L - 1 - s)%nat.
  Proof.
    intros s Hs. unfold avail0. rewrite nth_error_map.
    replace (nth_error (seq 0 L) s) with (Some s).
    - cbn [option_map]. f_equal. lia.
    - symmetry. apply nth_error_nth' with (d := 0%nat) (n := s) (l := seq 0 L) in Hs as E || idtac.
      rewrite (nth_error_nth' (seq 0 L) 0%nat) by (rewrite seq_length; exact Hs). rewrite seq_nth by exact Hs. reflexivity.
  Qed.

  Lemma availS_cons : forall s, (s < L)%nat -> availS s = (L - 1 - s)%nat :: availS (S s).
  Proof.
    intros s Hs. unfold availS. pose proof (avail0_nth s Hs) as E. revert E. generalize (L - 1 - s)%nat. generalize (avail0 L).
    induction s as [|s IH]; intros [|x l] v E; cbn [nth_error] in E; try discriminate E.
    - injection E as ->. reflexivity.
    - cbn [skipn]. rewrite (IH ltac:(lia) l v E). reflexivity.
  Qed.

  Lemma sentS_S : forall s, (s < L)%nat -> Permutation (sentS (S s)) ((L - 1 - s)%nat :: sentS s).
  Proof.
    intros s Hs. unfold sentS. pose proof (avail0_nth s Hs) as E. revert E. generalize (L - 1 - s)%nat. generalize (avail0 L).
    induction s as [|s IH]; intros [|x l] v E; cbn [nth_error] in E; try discriminate E.
    - injection E as ->. reflexivity.
    - cbn [firstn]. rewrite perm_swap. constructor. exact (IH ltac:(lia) l v E).
  Qed.

  Lemma sentS_length : forall s, (s <= L)%nat -> length (sentS s) = s.
  Proof. intros s Hs. unfold sentS. rewrite firstn_length, avail0_length. lia. Qed.

  Lemma sentS_in : forall s idx, In idx (sentS s) -> (idx < L)%nat /\ (L <= idx + s)%nat.
  Proof.
    intros s idx H. unfold sentS in H. apply In_nth_error in H. destruct H as (k & E).
    assert (Hk : (k < length (firstn s (avail0 L)))%nat) by (apply nth_error_Some; congruence).
    rewrite firstn_length, avail0_length in Hk.
    assert (E' : nth_error (avail0 L) k = Some idx).
    { rewrite <- E. symmetry. clear - Hk. revert s Hk. generalize (avail0 L). generalize L. revert k.
      induction k as [|k IH]; intros m [|x l] [|s] Hk; cbn [firstn nth_error]; auto; try lia. apply IH with m. lia. }
    rewrite avail0_nth in E' by lia. injection E' as <-. lia.
  Qed.

  Lemma lamb_ok : forall idx, (idx < L)%nat -> exists lam, nth_error lambs idx = Some lam /\ getn lambs idx = Ok lam.
  Proof.
    intros idx H. destruct (nth_error lambs idx) as [lam|] eqn:E; [|apply nth_error_None in E; unfold L in H; lia].
    exists lam. split; [reflexivity|]. unfold getn. rewrite E. reflexivity.
  Qed.

  Lemma nodes0 : nodes_of [] (repeat None L).
  Proof.
    split; [apply repeat_length|]. intros idx H. destruct (in_dec Nat.eq_dec idx []) as [[]|_].
    rewrite (nth_error_nth' _ None) by (rewrite repeat_length; lia). rewrite nth_repeat. reflexivity.
  Qed.

  Lemma spawn_inv : forall i ws, (i <= W)%nat -> length ws = i -> Permutation (heldl ws) (sentS i) ->
    inv_main (path_spawn L i (availS i)) ws.
  Proof.
    intros i ws Hi Hl Hp. unfold path_spawn. fold W. destruct (Nat.ltb_spec i W) as [H|H].
    - cbn [inv_main]. auto.
    - assert (HiW : i = W) by lia. rewrite HiW in *. clear HiW i. unfold path_loop. destruct (Nat.ltb_spec 0 L) as [HL0|HL0].
      + cbn [inv_main]. exists [], W. rewrite app_nil_r. pose proof W_le as HW. cbn [length]. split; [reflexivity|]. split; [lia|].
        split; [lia|]. split; [lia|]. split; [reflexivity|]. split; [exact Hp|]. split; [apply nodes0|].
        split; [reflexivity|]. intros; lia.
      + assert (HL : L = 0%nat) by lia. pose proof W_le as HW. rewrite HL. cbn [repeat].
        change (path_finish []) with (path_finish (N := N) (map Some [])).
        rewrite finish_spec. cbn [inv_main]. rewrite HL. unfold avail0. cbn [seq map]. split; [reflexivity|].
        assert (Hl0 : length ws = 0%nat) by lia. destruct ws; [|discriminate Hl0]. split; [reflexivity|]. cbn [length]. lia.
  Qed.

  Lemma init_inv : inv (path_init lambs corr).
  Proof.
    split; [reflexivity|]. split; [constructor|]. cbn [path_init plMain plWorkers]. fold L.
    change (avail0 L) with (availS 0). apply spawn_inv; [lia|reflexivity|]. cbn. unfold sentS. cbn [firstn]. constructor.
  Qed.

  Lemma nodes_insert : forall rc nodes idx, (idx < L)%nat -> nodes_of rc nodes ->
    nodes_of (idx :: rc) (upd nodes (L - 1 - idx) (Some (sol idx))).
  Proof.
    intros rc nodes idx Hi (H1 & H2). split; [rewrite upd_length; exact H1|]. intros j Hj. rewrite nth_error_upd.
    destruct (Nat.eqb_spec (L - 1 - j) (L - 1 - idx)) as [E|E].
    - assert (j = idx) by lia. subst j. destruct (Nat.ltb_spec (L - 1 - idx) (length nodes)); [|lia].
      destruct (in_dec Nat.eq_dec idx (idx :: rc)) as [_|C]; [reflexivity|]. exfalso. apply C. left. reflexivity.
    - rewrite H2 by exact Hj. f_equal. destruct (in_dec Nat.eq_dec j rc) as [I|I], (in_dec Nat.eq_dec j (idx :: rc)) as [I'|I']; auto.
      + exfalso. apply I'. right. exact I.
      + exfalso. destruct I' as [->|I']; [lia|contradiction].
  Qed.

  Lemma nodes_all : forall rc nodes, nodes_of rc nodes -> (forall idx, (idx < L)%nat -> In idx rc) ->
    nodes = map Some (map sol (avail0 L)).
  Proof.
    intros rc nodes (H1 & H2) H. apply nth_ext with (d := None) (d' := None).
    - rewrite !map_length, avail0_length. exact H1.
    - intros p Hp. assert (Hi : (L - 1 - p < L)%nat) by lia. specialize (H2 _ Hi).
      replace (L - 1 - (L - 1 - p))%nat with p in H2 by lia.
      apply nth_error_nth with (d := None) in H2. rewrite H2.
      destruct (in_dec Nat.eq_dec (L - 1 - p) rc) as [_|C]; [|exfalso; apply C; apply H; exact Hi].
      symmetry. apply nth_error_nth. rewrite !nth_error_map, avail0_nth by lia. reflexivity.
  Qed.

  (** the start vector of the next item can be built *)
  Lemma x0_ok : forall idx, (idx < L)%nat -> exists x0,
    for_eachi 0 (lnSelection (sol idx)) (fun i s x0 => do c <- getn (lnCoeff (sol idx)) i; setz x0 s c) (repeat n0 n) = Ok x0.
  Proof.
    intros idx Hi. destruct (Hsel idx Hi) as [Hl Hs]. revert Hs Hl.
    generalize (lnCoeff (sol idx)) as co. intro co.
    assert (G : forall sel k x, (forall s, In s sel -> (0 <= s < Z.of_nat n)%Z) -> (k + length sel <= length co)%nat -> length x = n ->
      exists x0, for_eachi k sel (fun i s x0 => do c <- getn co i; setz x0 s c) x = Ok x0).
    { induction sel as [|s sel IH]; intros k x Hs Hl Hx; cbn [for_eachi].
      - eexists; reflexivity.
      - cbn [length] in Hl. rewrite (getn_lt _ co k n0) by lia. cbn [bind].
        assert (Hs0 : (0 <= s < Z.of_nat n)%Z) by (apply Hs; left; reflexivity).
        replace s with (Z.of_nat (Z.to_nat s)) by lia. rewrite setz_nat, setn_lt by lia. cbn [bind].
        apply IH; [intros t Ht; apply Hs; right; exact Ht|lia|rewrite upd_length; exact Hx]. }
    intros Hs Hl. apply (G (lnSelection (sol idx)) 0%nat); [exact Hs|lia|apply repeat_length].
  Qed.

  Lemma held_remove : forall ws k r, nth_error ws k = Some (WBlocked r) ->
    Permutation (heldl ws) (lrIdx r :: heldl (upd ws k WIdle)).
  Proof. intros ws k r E. exact (flat_map_upd _ _ held ws k (WBlocked r) WIdle E). Qed.

  Lemma held_add : forall ws k w, nth_error ws k = Some WIdle ->
    Permutation (heldl (upd ws k (WBusy w))) (wkIdx w :: heldl ws).
  Proof. intros ws k w E. symmetry. exact (flat_map_upd _ _ held ws k WIdle (WBusy w) E). Qed.

  Lemma held_same : forall ws k w r, nth_error ws k = Some (WBusy w) -> lrIdx r = wkIdx w ->
    Permutation (heldl (upd ws k (WBlocked r))) (heldl ws).
  Proof.
    intros ws k w r E Hr. pose proof (flat_map_upd _ _ held ws k (WBusy w) (WBlocked r) E) as P. cbn [held app] in P.
    rewrite Hr in P. apply Permutation_cons_inv in P. symmetry. exact P.
  Qed.

  Lemma take_inv : forall nodes avail r h ws k res, inv_main (PRecv nodes avail r h) ws -> Forall worker_ok ws ->
    nth_error ws k = Some (WBlocked res) ->
    inv_main (path_recv lambs n res nodes avail r h) (upd ws k WIdle).
  Proof.
    intros nodes avail r h ws k res (rc & s & Hrc & HrL & Hs & Hws & Hav & Hp & Hn & Hh0 & Hh) Hok Ek.
    pose proof (Forall_nth_error _ _ _ _ _ Hok Ek) as Hres. cbn [worker_ok] in Hres.
    pose proof (held_remove ws k res Ek) as Pr.
    set (idx := lrIdx res) in *.
    assert (Pr' : Permutation (heldl (upd ws k WIdle) ++ idx :: rc) (sentS s)).
    { rewrite <- Hp, Pr. cbn [app]. symmetry. apply Permutation_middle. }
    assert (Hin : In idx (sentS s)).
    { apply (Permutation_in idx Pr'). apply in_or_app. right. left. reflexivity. }
    pose proof (sentS_in s idx Hin) as [Hi Hi2].
    unfold path_recv. fold L idx.
    replace (Z.of_nat L - Z.of_nat idx - 1)%Z with (Z.of_nat (L - 1 - idx)) by lia.
    rewrite setz_nat, setn_lt by (rewrite (proj1 Hn); lia). cbn [bind]. rewrite Hres. rewrite Nat2Z.id.
    pose proof (nodes_insert rc nodes idx Hi Hn) as Hn'. fold idx.
    set (h' := if (h <? idx)%nat then (L - 1 - idx)%nat else h).
    assert (Hh' : (W < L)%nat -> high_ok (idx :: rc) h').
    { intro HW. unfold h'. destruct (Nat.ltb_spec h idx).
      - exists idx. split; [left; reflexivity|]. split; [exact Hi|reflexivity].
      - destruct (Nat.eq_dec r 0) as [Hr0|Hr0].
        + rewrite (Hh0 Hr0) in *. pose proof W_le. lia.
        + destruct (Hh ltac:(lia) HW) as (j & J1 & J2 & J3). exists j. split; [right; exact J1|]. auto. }
    subst avail. destruct (Nat.ltb_spec 0 (length (availS s))) as [Hlen|Hlen].
    - assert (HsL : (s < L)%nat).
      { unfold availS in Hlen. rewrite skipn_length, avail0_length in Hlen. lia. }
      assert (HW : (W < L)%nat) by lia.
      destruct (Hh' HW) as (j & J1 & J2 & J3).
      unfold node_at. rewrite (getn_lt _ _ h' None) by (rewrite upd_length, (proj1 Hn); lia).
      rewrite J3. rewrite (nth_error_nth _ _ None (proj2 Hn' j J2)).
      destruct (in_dec Nat.eq_dec j (idx :: rc)) as [_|C]; [|contradiction]. cbn [bind].
      destruct (x0_ok j J2) as (x0 & Ex). rewrite Ex. cbn [bind].
      rewrite (availS_cons s HsL). unfold getn at 1. cbn [nth_error bind tl].
      destruct (lamb_ok (L - 1 - s)%nat ltac:(lia)) as (lam & El1 & El2). rewrite El2. cbn [bind inv_main].
      exists (idx :: rc), s. cbn [length]. rewrite upd_length. rewrite Hrc.
      split; [reflexivity|]. split; [lia|]. split; [lia|]. split; [exact HsL|]. split; [exact Hws|]. split; [reflexivity|].
      split; [exact El1|]. split; [reflexivity|]. split; [exact Pr'|]. split; [exact Hn'|].
      rewrite <- J3. apply Hh'. exact HW.
    - assert (HsL : s = L).
      { unfold availS in Hlen. rewrite skipn_length, avail0_length in Hlen. lia. }
      unfold path_loop. destruct (Nat.ltb_spec (S r) L) as [HrL'|HrL'].
      + cbn [inv_main]. exists (idx :: rc), s. cbn [length]. rewrite upd_length, Hrc.
        split; [reflexivity|]. split; [exact HrL'|]. split; [lia|]. split; [exact Hws|]. split; [reflexivity|].
        split; [exact Pr'|]. split; [exact Hn'|]. split; [lia|]. intros _. exact Hh'.
      + assert (Hlen0 : length (heldl (upd ws k WIdle)) = 0%nat).
        { pose proof (Permutation_length Pr') as Hlp. rewrite app_length, sentS_length in Hlp by lia. cbn [length] in Hlp. lia. }
        assert (He : heldl (upd ws k WIdle) = []) by (destruct (heldl (upd ws k WIdle)); [reflexivity|discriminate Hlen0]).
        rewrite (nodes_all (idx :: rc) _ Hn').
        * rewrite finish_spec. cbn [inv_main]. rewrite upd_length. auto.
        * intros j Hj. rewrite He in Pr'. cbn [app] in Pr'. apply (Permutation_in j (Permutation_sym Pr')).
          rewrite HsL. unfold sentS. rewrite firstn_all2 by (rewrite avail0_length; lia).
          apply nth_error_In with (n := (L - 1 - j)%nat). rewrite avail0_nth by lia. f_equal. lia.
  Qed.

  Lemma step_inv : forall ch c c', inv c -> step ch c = Some c' -> inv c'.
  Proof.
    intros ch [m ws co] c' (Hc & Hok & Hm) E. cbn [plMain plWorkers plCorr] in *. subst co.
    destruct ch as [|k|k|k]; cbn [path_step plMain plWorkers plCorr] in E.
    - destruct m as [i avail| | | | |]; try discriminate E. injection E as <-.
      cbn [inv_main] in Hm. destruct Hm as (Hi & Hl & Hav & Hp). pose proof W_le as HW. split; [reflexivity|].
      split; [cbn [plWorkers]; apply Forall_app; split; [exact Hok|constructor; [exact I|constructor]]|].
      cbn [plMain plWorkers]. subst avail. unfold path_work0. rewrite (availS_cons i) by lia. unfold getn at 1. cbn [nth_error bind tl].
      destruct (lamb_ok (L - 1 - i)%nat ltac:(lia)) as (lam & El1 & El2). rewrite El2. cbn [bind inv_main].
      rewrite app_length. cbn [length]. split; [exact Hi|]. split; [lia|]. split; [reflexivity|]. split; [exact El1|].
      split; [reflexivity|]. unfold heldl. rewrite flat_map_app. cbn [flat_map held app]. rewrite app_nil_r. exact Hp.
    - destruct (nth_error ws k) as [[|w0|r0]|] eqn:Ek; try discriminate E.
      destruct m as [i avail|i w avail|nodes avail r h|w nodes avail r h|l|]; try discriminate E; injection E as <-.
      + cbn [inv_main] in Hm. destruct Hm as (Hi & Hl & Hav & Hw & Hwi & Hp). pose proof W_le as HW. split; [reflexivity|].
        split; [apply Forall_upd; [exact Hok|exact Hw]|]. cbn [plMain plWorkers]. fold L. subst avail.
        apply spawn_inv; [lia|rewrite upd_length; exact Hl|].
        rewrite (held_add ws k w Ek), Hwi, Hp. symmetry. apply sentS_S. lia.
      + cbn [inv_main] in Hm. destruct Hm as (rc & s & Hrc & Hr & Hs & HsL & Hl & Hav & Hw & Hwi & Hp & Hn & Hh).
        split; [reflexivity|]. split; [apply Forall_upd; [exact Hok|exact Hw]|]. cbn [plMain plWorkers]. fold L.
        assert (P : Permutation (heldl (upd ws k (WBusy w)) ++ rc) (sentS (S s))).
        { rewrite (held_add ws k w Ek), Hwi. cbn [app]. rewrite Hp. symmetry. apply sentS_S. exact HsL. }
        pose proof W_le as HW.
        assert (HrL : (r < L)%nat).
        { pose proof (Permutation_length P) as Hlp. rewrite app_length, sentS_length in Hlp by lia.
          rewrite (Permutation_length (held_add ws k w Ek)) in Hlp. cbn [length] in Hlp. lia. }
        unfold path_loop. destruct (Nat.ltb_spec r L); [|lia]. cbn [inv_main]. exists rc, (S s). rewrite upd_length.
        split; [exact Hrc|]. split; [exact HrL|]. split; [lia|]. split; [exact Hl|]. split; [exact Hav|]. split; [exact P|].
        split; [exact Hn|]. split; [lia|]. intros _ _. exact Hh.
    - assert (Ecomp : exists w, nth_error ws k = Some (WBusy w) /\
        c' = mkPool m (upd ws k (WBlocked (mkRes (sol (wkIdx w)) (wkIdx w)))) corr).
      { destruct m as [i0 av0|i0 wq av0|nd0 av0 r0 h0|wq nd0 av0 r0 h0|l0|]; try discriminate E; destruct (nth_error ws k) as [[|w|r']|] eqn:Ek; try discriminate E;
          exists w; (split; [reflexivity|]);
          pose proof (Forall_nth_error _ _ _ _ _ Hok Ek) as Hw; cbn [worker_ok] in Hw; destruct w as [x0 lam idx]; cbn [wkIdx wkLamb] in *;
          unfold wok in Hw; cbn [wkIdx wkLamb] in Hw; rewrite (Hperf idx lam x0 Hw) in E; injection E as <-; reflexivity. }
      destruct Ecomp as (w & Ek & ->). split; [reflexivity|]. cbn [plMain plWorkers].
      split; [apply Forall_upd; [exact Hok|reflexivity]|].
      pose proof (held_same ws k w (mkRes (sol (wkIdx w)) (wkIdx w)) Ek eq_refl) as P.
      destruct m as [i avail|i w' avail|nodes avail r h|w' nodes avail r h|l|]; cbn [inv_main] in *; rewrite ?upd_length, ?P; auto.
      + destruct Hm as (rc & s & Hm). exists rc, s. rewrite P. exact Hm.
      + destruct Hm as (rc & s & Hm). exists rc, s. rewrite P. exact Hm.
      + destruct Hm as (H1 & H2 & H3). split; [exact H1|]. split; [|exact H3]. rewrite H2 in P. apply Permutation_nil. symmetry. exact P.
    - destruct m as [i avail|i w avail|nodes avail r h|w nodes avail r h|l|]; try discriminate E.
      destruct (nth_error ws k) as [[|w0|res]|] eqn:Ek; try discriminate E. injection E as <-.
      split; [reflexivity|]. cbn [plMain plWorkers]. split; [apply Forall_upd; [exact Hok|exact I]|].
      apply take_inv; assumption.
  Qed.

  Lemma run_inv : forall l c c', inv c -> path_run get dset lambs maxIter tol l c = Some c' -> inv c'.
  Proof.
    induction l as [|ch l IH]; intros c c' Hc E; cbn [path_run] in E.
    - injection E as <-. exact Hc.
    - destruct (step ch c) as [c1|] eqn:E1; [|discriminate E]. apply IH with c1; [|exact E]. apply step_inv with ch c; assumption.
  Qed.

  Lemma idle_or_held : forall ws, heldl ws = [] \/ exists k, (exists w, nth_error ws k = Some (WBusy w)) \/ (exists r, nth_error ws k = Some (WBlocked r)).
  Proof.
    induction ws as [|w ws IH]; [left; reflexivity|]. destruct w as [|w|r].
    - destruct IH as [IH|(k & IH)]; [left; exact IH|right; exists (S k); exact IH].
    - right. exists 0%nat. left. exists w. reflexivity.
    - right. exists 0%nat. right. exists r. reflexivity.
  Qed.

  Lemma some_idle : forall ws, (length (heldl ws) < length ws)%nat -> exists k, nth_error ws k = Some WIdle.
  Proof.
    induction ws as [|w ws IH]; cbn [length heldl flat_map]; intro H; [lia|]. destruct w as [|w|r].
    - exists 0%nat. reflexivity.
    - cbn [held app length] in H. destruct IH as (k & E); [unfold heldl; lia|]. exists (S k). exact E.
    - cbn [held app length] in H. destruct IH as (k & E); [unfold heldl; lia|]. exists (S k). exact E.
  Qed.

  Lemma progress : forall c, inv c -> (exists l, plMain c = PDone l) \/ exists ch c', step ch c = Some c'.
  Proof.
    intros [m ws co] (Hc & Hok & Hm). cbn [plMain plWorkers plCorr] in *. pose proof W_le as HW.
    destruct m as [i avail|i w avail|nodes avail r h|w nodes avail r h|l|]; cbn [inv_main] in Hm.
    - right. exists Start. eexists. reflexivity.
    - right. destruct Hm as (Hi & Hl & Hav & Hw & Hwi & Hp).
      destruct (some_idle ws) as (k & Ek). { rewrite (Permutation_length Hp), sentS_length by lia. lia. }
      exists (Give k). eexists. cbn [path_step plMain plWorkers]. rewrite Ek. reflexivity.
    - right. destruct Hm as (rc & s & Hrc & HrL & Hs & Hl & Hav & Hp & Hn & _).
      destruct (idle_or_held ws) as [He|(k & [(w & Ek)|(rs & Ek)])].
      + exfalso. pose proof (Permutation_length Hp) as Hlp. rewrite He, sentS_length in Hlp by lia. cbn [app length] in Hlp.
        unfold W, numWorkers in *. destruct (Nat.ltb_spec L 10); lia.
      + exists (Compute k). cbn [path_step plMain plWorkers plCorr]. rewrite Ek.
        pose proof (Forall_nth_error _ _ _ _ _ Hok Ek) as Hw. destruct w as [x0 lam idx]. unfold worker_ok, wok in Hw.
        cbn [wkIdx wkLamb] in Hw. subst co. rewrite (Hperf idx lam x0 Hw). eexists. reflexivity.
      + exists (Take k). eexists. cbn [path_step plMain plWorkers]. rewrite Ek. reflexivity.
    - right. destruct Hm as (rc & s & Hrc & Hr & Hs & HsL & Hl & Hav & Hw & Hwi & Hp & Hn & Hh).
      destruct (some_idle ws) as (k & Ek).
      { pose proof (Permutation_length Hp) as Hlp. rewrite app_length, sentS_length in Hlp by lia. lia. }
      exists (Give k). eexists. cbn [path_step plMain plWorkers]. rewrite Ek. reflexivity.
    - left. exists l. reflexivity.
    - destruct Hm.
  Qed.

  Lemma done_final : forall c l ch, inv c -> plMain c = PDone l -> step ch c = None.
  Proof.
    intros [m ws co] l ch (Hc & Hok & Hm) E. cbn [plMain plWorkers plCorr] in *. subst m. cbn [inv_main] in Hm.
    destruct Hm as (_ & He & _).
    assert (Hid : forall k w, nth_error ws k = Some w -> w = WIdle).
    { intros k w Ek. apply nth_error_In in Ek. destruct w as [|w|r]; [reflexivity| |]; exfalso.
      - assert (In (wkIdx w) (heldl ws)) by (apply in_flat_map; exists (WBusy w); split; [exact Ek|left; reflexivity]). rewrite He in H. destruct H.
      - assert (In (lrIdx r) (heldl ws)) by (apply in_flat_map; exists (WBlocked r); split; [exact Ek|left; reflexivity]). rewrite He in H. destruct H. }
    destruct ch as [|k|k|k]; cbn [path_step plMain plWorkers]; try reflexivity.
    - destruct (nth_error ws k) as [[|w|r]|] eqn:Ek; reflexivity.
    - destruct (nth_error ws k) as [[|w|r]|] eqn:Ek; try reflexivity. specialize (Hid k _ Ek). discriminate Hid.
  Qed.

  (** every execution is finite *)
  Definition mmeas (m : MainPC N) : nat :=
    match m with
    | PSpawn _ avail => (5 * length avail + 1)%nat
    | PSend0 _ _ avail => (5 * S (length avail))%nat
    | PRecv _ avail _ _ => (5 * length avail)%nat
    | PSend _ _ avail _ _ => (5 * S (length avail))%nat
    | _ => 0%nat
    end.
  Definition wmeas (w : Worker N) : nat := match w with WIdle => 0 | WBusy _ => 2 | WBlocked _ => 1 end%nat.
  Definition meas (c : Pool N) : nat := (mmeas (plMain c) + list_sum (map wmeas (plWorkers c)))%nat.

  Lemma loop_meas : forall nodes avail r h, (mmeas (path_loop (N := N) L nodes avail r h) <= 5 * length avail)%nat.
  Proof.
    intros. unfold path_loop. destruct (r <? L)%nat; cbn [mmeas]; [lia|]. unfold path_finish.
    destruct (do f <- first_with_features nodes 0; _) as [l| |]; cbn [mmeas]; lia.
  Qed.

  Lemma spawn_meas : forall i avail, (mmeas (path_spawn (N := N) L i avail) <= 5 * length avail + 1)%nat.
  Proof.
    intros. unfold path_spawn. destruct (i <? numWorkers L)%nat; cbn [mmeas]; [lia|].
    pose proof (loop_meas (repeat None L) avail 0 0). lia.
  Qed.

  Lemma recv_meas : forall r nodes avail nr h, (mmeas (path_recv lambs n r nodes avail nr h) <= 5 * length avail)%nat.
  Proof.
    intros r nodes avail nr h. unfold path_recv. fold L.
    destruct (setz nodes _ _) as [nodes'| |]; cbn [bind]; try (cbn [mmeas]; lia).
    destruct (Nat.ltb_spec 0 (length avail)) as [Ha|Ha].
    - destruct (node_at nodes' _) as [hn| |]; cbn [bind]; try (cbn [mmeas]; lia).
      destruct (for_eachi 0 (lnSelection hn) _ _) as [x0| |]; cbn [bind]; try (cbn [mmeas]; lia).
      destruct (getn avail 0) as [i| |]; cbn [bind]; try (cbn [mmeas]; lia).
      destruct (getn lambs i) as [lam| |]; cbn [bind]; try (cbn [mmeas]; lia).
      cbn [mmeas]. destruct avail; cbn [tl length] in *; lia.
    - apply loop_meas.
  Qed.

  Lemma step_meas : forall ch c c', inv c -> step ch c = Some c' -> (meas c' < meas c)%nat.
  Proof.
    intros ch [m ws co] c' HI E. unfold meas. destruct ch as [|k|k|k]; cbn [path_step plMain plWorkers plCorr] in E.
    - destruct m as [i avail| | | | |]; try discriminate E. injection E as <-. cbn [plMain plWorkers].
      rewrite map_app, list_sum_app. cbn [map wmeas]. unfold path_work0.
      destruct HI as (_ & _ & Hm). cbn [plMain inv_main] in Hm. destruct Hm as (Hi & _ & -> & _). pose proof W_le.
      rewrite (availS_cons i) by lia. unfold getn at 1. cbn [nth_error bind tl].
      destruct (lamb_ok (L - 1 - i)%nat ltac:(lia)) as (lam & _ & El2). rewrite El2. cbn [bind mmeas length list_sum fold_right]. lia.
    - destruct (nth_error ws k) as [[|w0|r0]|] eqn:Ek; try discriminate E.
      destruct m as [i avail|i w avail|nodes avail r h|w nodes avail r h|l|]; try discriminate E; injection E as <-; cbn [plMain plWorkers];
        pose proof (sum_upd _ wmeas ws k WIdle (WBusy w) Ek) as SU; cbn [wmeas] in SU; fold L.
      + pose proof (spawn_meas (S i) avail). cbn [mmeas]. lia.
      + pose proof (loop_meas nodes avail r h). cbn [mmeas]. lia.
    - assert (Ecomp : exists w, nth_error ws k = Some (WBusy w) /\ ((exists r, plMain c' = m /\ plWorkers c' = upd ws k (WBlocked r)))).
      { pose proof HI as (Hc & Hok & _). cbn [plCorr plWorkers] in *.
        destruct m as [i0 av0|i0 wq av0|nd0 av0 r0 h0|wq nd0 av0 r0 h0|l0|]; try discriminate E; destruct (nth_error ws k) as [[|w|r']|] eqn:Ek; try discriminate E;
          exists w; (split; [reflexivity|]);
          pose proof (Forall_nth_error _ _ _ _ _ Hok Ek) as Hw; destruct w as [x0 lam idx]; 
          unfold worker_ok, wok in Hw; cbn [wkIdx wkLamb] in Hw; rewrite Hc, (Hperf idx lam x0 Hw) in E; injection E as <-; eexists; split; reflexivity. }
      destruct Ecomp as (w & Ek & r & E1 & E2). rewrite E1, E2.
      pose proof (sum_upd _ wmeas ws k (WBusy w) (WBlocked r) Ek) as SU. cbn [wmeas plMain plWorkers] in *. lia.
    - destruct m as [i avail|i w avail|nodes avail r h|w nodes avail r h|l|]; try discriminate E.
      destruct (nth_error ws k) as [[|w0|res]|] eqn:Ek; try discriminate E. injection E as <-. cbn [plMain plWorkers].
      pose proof (recv_meas res nodes avail r h). fold n.
      pose proof (sum_upd _ wmeas ws k (WBlocked res) WIdle Ek) as SU. cbn [wmeas mmeas] in *. lia.
  Qed.

  Lemma run_bound : forall l c c', inv c -> path_run get dset lambs maxIter tol l c = Some c' -> (length l + meas c' <= meas c)%nat.
  Proof.
    induction l as [|ch l IH]; intros c c' Hc E; cbn [path_run] in E.
    - injection E as <-. cbn [length]. lia.
    - destruct (step ch c) as [c1|] eqn:E1; [|discriminate E].
      pose proof (step_meas ch c c1 Hc E1). pose proof (IH c1 c' (step_inv ch c c1 Hc E1) E). cbn [length]. lia.
  Qed.

  Lemma init_meas : (meas (path_init lambs corr) <= 5 * L + 1)%nat.
  Proof.
    unfold meas. cbn [path_init plMain plWorkers map list_sum fold_right]. fold L.
    pose proof (spawn_meas 0 (avail0 L)). rewrite avail0_length in H. lia.
  Qed.
End PathProof.
