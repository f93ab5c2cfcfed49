(** LARS with exact arithmetic: the nodes are lasso solutions. *)
From Coq Require Import Permutation Sorted Reals Lra Psatz.
From Verif Require Import Base Num Mat Model_Node Model_Util Model_Fit Model_Norm Model_Lars
  Proof_Node Proof_Util RSum Proof_XR Proof_Norm Proof_Fit Proof_Lars Spec_Lars Proof_Homotopy Proof_Lars2.
Open Scope R_scope.

(** ** real inequalities of one feature outside the active set *)
Lemma lin_between : forall a b l t, a + l * b <= l -> ~ a + t * b <= t -> t <= l -> 1 - b > 0.
Proof.
  intros a b l t H1 H2 H3. apply Rnot_le_lt in H2.
  destruct (Rle_or_lt (1 - b) 0) as [C|C]; [|lra]. exfalso.
  assert ((l - t) * (1 - b) <= 0) by nra. nra.
Qed.

Lemma inactive_ok : forall a b l l' jt T lst t, 0 <= l' -> l' <= t <= l -> jt <= l' ->
  - tol <= T <= l + tol -> T <= jt ->
  ((plus_ok lst /\ plus_root a b T) \/
   (minus_ok lst /\ minus_root a b T /\ (plus_ok lst -> forall r, plus_root a b r -> ~ (- tol <= r <= l + tol)))) ->
  a + l * b <= l -> - l - 2 * tol <= a + l * b ->
  (~ plus_ok lst -> a + t * b <= t) -> (~ minus_ok lst -> - t <= a + t * b) ->
  - t - 2 * tol <= a + t * b <= t.
Proof.
  intros a b l l' jt T lst t H0 Ht Hj HT HTj Hc H1 H2 HL1 HL2. pose proof tol_pos as Hp.
  destruct Hc as [(Pok & R1 & R2)|(Mok & (R1 & R2) & Hno)].
  - assert (F1 : a + t * b <= t).
    { destruct (Rle_or_lt (a + t * b) t) as [C|C]; [exact C|exfalso].
      assert (Hb : 1 - b > 0) by (apply (lin_between a b l t); lra).
      assert ((t - T) * (1 - b) < 0) by (rewrite <- R2 in C; lra). nra. }
    split; [|exact F1].
    destruct (Rle_or_lt (- t - 2 * tol) (a + t * b)) as [C|C]; [exact C|exfalso].
    assert (Hb : 1 + b > 0).
    { destruct (Rle_or_lt (1 + b) 0) as [D|D]; [|lra]. exfalso. assert ((l - t) * (1 + b) <= 0) by nra. nra. }
    destruct (Rle_or_lt 0 (1 - b)) as [D|D].
    + assert (- tol * (1 - b) <= a) by (rewrite <- R2; apply Rmult_le_compat_r; lra). nra.
    + assert ((l - T) * (1 - b) >= 0) by (rewrite <- R2 in H1; lra).
      assert (l <= T) by (apply Rnot_lt_le; intro C2; nra). assert (t = l) by lra. subst t. lra.
  - split.
    + destruct (Rle_or_lt (- t - 2 * tol) (a + t * b)) as [C|C]; [exact C|exfalso].
      assert (C1 : (t - T) * (1 + b) < - 2 * tol) by (rewrite <- R2 in C; lra).
      assert (C2 : (l - T) * (1 + b) >= - 2 * tol) by (rewrite <- R2 in H2; lra).
      assert (1 + b < 0) by (destruct (Rle_or_lt 0 (1 + b)); [exfalso; nra|assumption]). nra.
    + destruct (Rle_or_lt (a + t * b) t) as [C|C]; [exact C|exfalso].
      assert (Hb : 1 - b > 0) by (apply (lin_between a b l t); lra).
      assert (Dec : plus_ok lst \/ ~ plus_ok lst) by (destruct lst as [c|]; cbn [plus_ok]; [destruct (Rle_or_lt c 0); [left; lra|right; lra]|left; exact I]).
      destruct Dec as [Pok|Pno]; [|specialize (HL1 Pno); lra].
      apply (Hno Pok (a / (1 - b))).
      * split; [lra|]. field. lra.
      * assert (D1 : a / (1 - b) * (1 - b) = a) by (field; lra). set (q := a / (1 - b)) in *.
        assert (t < q) by (apply Rnot_le_lt; intro C2; nra). assert (q <= l) by (apply Rnot_lt_le; intro C2; nra). lra.
Qed.

Lemma join_slope_plus : forall a b l l', l' < l -> a + l * b <= l -> plus_root a b l' -> 1 - b > 0.
Proof.
  intros a b l l' Hl H (R1 & R2). assert ((l - l') * (1 - b) >= 0) by (rewrite <- R2 in H; lra).
  destruct (Rle_or_lt (1 - b) 0) as [C|C]; [|lra]. exfalso. assert (1 - b < 0) by lra. nra.
Qed.

Lemma join_slope_minus : forall a b l l' lst, 0 < l' -> l' < l -> minus_root a b l' ->
  (plus_ok lst -> forall r, plus_root a b r -> ~ (- tol <= r <= l + tol)) ->
  (~ plus_ok lst -> a + l * b = l) -> 1 + b > 0.
Proof.
  intros a b l l' lst H0 Hl (R1 & R2) Hno HL. pose proof tol_pos as Hp.
  destruct (Rle_or_lt (1 + b) 0) as [C|C]; [|lra]. exfalso. assert (Cb : 1 + b < 0) by lra.
  assert (Dec : plus_ok lst \/ ~ plus_ok lst) by (destruct lst as [c|]; cbn [plus_ok]; [destruct (Rle_or_lt c 0); [left; lra|right; lra]|left; exact I]).
  destruct Dec as [Pok|Pno].
  - apply (Hno Pok (a / (1 - b))).
    + split; [lra|]. field. lra.
    + assert (D1 : a / (1 - b) * (1 - b) = a) by (field; lra). set (q := a / (1 - b)) in *.
      assert (0 < a) by (rewrite <- R2; nra).
      assert (0 < q) by (apply Rnot_le_lt; intro C2; nra).
      assert (q < l') by (apply Rnot_le_lt; intro C2; nra). lra.
  - specialize (HL Pno). assert ((l - l') * (1 + b) = 2 * l) by (rewrite <- R2 in HL; lra). nra.
Qed.

Lemma segment_in : forall m n A y E E' s t b, (forall f, In f E <-> In f E') -> segment m n A y E s t b -> segment m n A y E' s t b.
Proof.
  intros m n A y E E' s t b H (S1 & S2). split.
  - intros k Hk C. apply S1; [exact Hk|]. intro D. apply C. apply H. exact D.
  - intros f Hf. apply S2. apply H. exact Hf.
Qed.

(** ** nothing in a round can run out of fuel *)
Lemma bind_nf : forall B C (x : res B) (f : B -> res C), x <> Fuel -> (forall a, f a <> Fuel) -> bind x f <> Fuel.
Proof. intros B C [a| |] f H1 H2; cbn [bind]; [apply H2|discriminate|contradiction]. Qed.
Lemma for_loop_nf : forall B (body : nat -> B -> res B) k a s, (forall i x, body i x <> Fuel) -> for_loop a k body s <> Fuel.
Proof.
  intros B body. induction k as [|k IH]; intros a s H; cbn [for_loop]; [discriminate|]. apply bind_nf; [apply H|]. intro x. apply IH. exact H.
Qed.
Lemma for_each_nf : forall B C (body : C -> B -> res B) l s, (forall i x, body i x <> Fuel) -> for_each l body s <> Fuel.
Proof.
  intros B C body. induction l as [|c l IH]; intros s H; cbn [for_each]; [discriminate|]. apply bind_nf; [apply H|]. intro x. apply IH. exact H.
Qed.
Lemma getn_nf : forall B (l : list B) i, getn l i <> Fuel.
Proof. intros B l i. unfold getn. destruct (nth_error l i); discriminate. Qed.
Lemma setn_nf : forall B (l : list B) i a, setn l i a <> Fuel.
Proof. intros B l i a. unfold setn. destruct (_ <? _)%nat; discriminate. Qed.
Lemma mulvec_nf : forall (M : Mat XR) v, mat_mulvec M v <> Fuel.
Proof. intros M v. unfold mat_mulvec. destruct (_ =? _)%nat; discriminate. Qed.

Lemma mat_at_nf : forall (M : Mat XR) i j, mat_at M i j <> Fuel.
Proof. intros M i j. unfold mat_at. destruct (_ && _)%bool; discriminate. Qed.

Ltac nf := repeat first
  [ apply mat_at_nf | apply getn_nf | apply setn_nf | apply mulvec_nf | discriminate
  | apply bind_nf; [|intro] | apply for_loop_nf; intros | apply for_each_nf; intros
  | match goal with |- (if ?c then _ else _) <> Fuel => destruct c end
  | match goal with |- (let '(_, _) := ?c in _) <> Fuel => destruct c end ].

Section KKT.
  Variable X : Mat XR.
  Variable A : nat -> nat -> R.
  Variable yr : list R.
  Hypothesis HX : rmat X A.
  Hypothesis Hy : length yr = mrows X.
  Let m := mrows X.
  Let n := mcols X.
  Let yf := fun i => nth i yr 0.
  Local Notation rho := (corr m n A yf).
  Local Notation gvf := (gv m n A).
  Local Notation seg := (segment m n A yf).
  Variable cd : CDParam XR.
  Variable P : cdState cd -> Prop.
  Hypothesis EX : exact_estimator X A yr cd P.
  Local Notation lars := (Lars XR (cdState cd)).

  (** the sign of the coefficient that last became zero *)
  Definition sgc (c : R) : R := if Rltb 0 c then 1 else -1.

  Record kkt (st : lars) (l : R) (s : nat -> R) (lc : R) (jn : option nat) : Prop := mkKKT {
    k_sol : exists b, seg (laActive st) s l b;
    k_out : forall b, seg (laActive st) s l b -> forall f, (f < n)%nat -> ~ In f (laActive st) ->
      - l - 2 * tol <= rho b f <= l;
    k_in : forall b, seg (laActive st) s l b -> forall f, In f (laActive st) -> 0 <= s f * b f;
    k_leave : forall g, laLastFeat st = Some g -> lc <> 0 /\ (g < n)%nat /\ ~ In g (laActive st) /\
      (forall b, seg (laActive st) s l b -> rho b g = l * sgc lc) /\
      (forall t b, t <= l -> seg (laActive st) s t b -> sgc lc * rho b g <= t);
    k_join : forall g, jn = Some g -> In g (laActive st) /\
      forall t b, t <= l -> seg (laActive st) s t b -> 0 <= s g * b g;
    k_kept : forall f, In f (laActive st) -> jn <> Some f ->
      laRes st <> [] /\ forall l1 a, laRes st = l1 ++ [a] -> In (Z.of_nat f) (lnSelection a)
  }.

  (** No coefficient of a feature that was already in the previous node hits
      zero within the tolerance of the current lambda. *)
  Definition separated (a b : LassoLarsNode XR) : Prop :=
    forall E v l s, lnSelection b = map Z.of_nat E -> lnCoeff b = fins v -> lnLamb b = fin l ->
      seg E s l (spread E v) ->
      forall f, In f E -> In (Z.of_nat f) (lnSelection a) ->
      forall t w, l - / 1000000 < t <= l -> seg E s t w -> w f <> 0.
  Definition decreasing (a b : LassoLarsNode XR) : Prop :=
    exists la lb, lnLamb a = fin la /\ lnLamb b = fin lb /\ lb < la.

  (** the claim about one node *)
  Definition node_kkt (nd : LassoLarsNode XR) : Prop :=
    exists E v l s, lnSelection nd = map Z.of_nat E /\ lnCoeff nd = fins v /\ lnLamb nd = fin l /\ 0 <= l /\ length v = length E /\
      (forall f, In f E -> (s f = 1 \/ s f = -1) /\ rho (spread E v) f = l * s f /\ 0 <= s f * spread E v f) /\
      (forall f, (f < n)%nat -> ~ In f E -> Rabs (rho (spread E v) f) <= l + 2 / 1000000).

  Lemma tol_val : tol = / 1000000. Proof. Transparent tol. reflexivity. Opaque tol. Qed.

  Lemma spread_line : forall E cf df t, NoDup E -> (forall k, ~ In k E -> line cf df t k = 0) ->
    forall k, spread E (map (line cf df t) E) k = line cf df t k.
  Proof.
    intros E cf df t ND H k. rewrite spread_map by exact ND. destruct (in_dec Nat.eq_dec k E) as [C|C]; [reflexivity|].
    symmetry. apply H. exact C.
  Qed.

  (** ** the start *)
  Lemma start_rs : forall est st, lars_start cd est X (fins yr) = Ok st -> P (cdSetX cd est X) ->
    exists l s feat, rstate X A cd P st l s 0 /\ laActive st = [feat] /\ laRes st = [] /\ laStop st = false /\ (0 < n)%nat /\
      (forall f, (f < n)%nat -> Rabs (rho (fun _ => 0) f) <= l) /\
      ((exists f, (f < n)%nat /\ l = Rabs (rho (fun _ => 0) f)) \/ l = 0) /\
      (independent m n A -> 0 < l -> kkt st l s 0 (Some feat)).
  Proof.
    intros est st E HP.
    destruct (start_LI XR XR_OrdLaws eq_refl cd X (fins yr) n0 est st E) as (xty & Ex & Hlen & Hn & Hm & _ & feat & HI & Ha & Hs & Hmax & _ & _ & Hat & (x & Hx & Hsg) & Hlf & Hest).
    fold n in Hn, Hlen, Hsg.
    rewrite (mulvec_T X A HX yr Hy) in Ex. apply Ok_inj in Ex. fold m n in Ex.
    assert (Hxv : forall f z, nth_error xty f = Some z -> (f < n)%nat /\ z = fin (rho (fun _ => 0) f)).
    { intros f z Hz. rewrite <- Ex in Hz. apply nth_error_fins in Hz. destruct Hz as (Z1 & Z2). rewrite map_length, seq_length in Z1.
      split; [exact Z1|]. rewrite Z2, nth_map_seq by exact Z1. f_equal. unfold corr. apply rsum_ext. intros i Hi.
      rewrite (rsum_0' n (fun k => A i k * 0)) by (intros; ring). unfold yf. ring. }
    destruct (Hxv feat x Hx) as (Hfn & ->).
    set (sg := if Rltb (rho (fun _ => 0) feat) 0 then -1 else 1).
    set (s := fun f => if (f =? feat)%nat then sg else 0).
    assert (Hsl : exists l, laLamb st = fin l /\ 0 <= l /\ l = Rabs (rho (fun _ => 0) feat) \/ laLamb st = fin l /\ l = 0).
    { destruct Hat as [(H1 & _)|(z & Hz & H1)].
      - exists 0. right. split; [exact H1|reflexivity].
      - destruct (Hxv feat z Hz) as (_ & ->). rewrite xabs_fin in H1. exists (Rabs (rho (fun _ => 0) feat)). left. split; [exact H1|].
        split; [apply Rabs_pos|reflexivity]. }
    destruct Hsl as (l & Hl).
    assert (Hll : laLamb st = fin l /\ 0 <= l) by (destruct Hl as [(H1 & H2 & _)|(H1 & ->)]; (split; [exact H1|lra])).
    destruct Hll as (Hl1 & Hl2).
    assert (Hmx : forall f, (f < n)%nat -> Rabs (rho (fun _ => 0) f) <= l).
    { intros f Hf. destruct (nth_error xty f) as [z|] eqn:Ez; [|apply nth_error_None in Ez; lia].
      destruct (Hxv f z Ez) as (_ & Hz). specialize (Hmax f z Ez). rewrite Hz, Hl1, xabs_fin in Hmax.
      apply (proj1 (xlt_false _ _)) in Hmax. exact Hmax. }
    assert (Hfe : l = Rabs (rho (fun _ => 0) feat)).
    { destruct Hl as [(_ & _ & H1)|(_ & H1)]; [exact H1|]. pose proof (Hmx feat Hfn). pose proof (Rabs_pos (rho (fun _ => 0) feat)). lra. }
    assert (Hsgv : rho (fun _ => 0) feat = l * sg /\ (sg = 1 \/ sg = -1)).
    { unfold sg. rewrite Hfe. destruct (Rltb (rho (fun _ => 0) feat) 0) eqn:C.
      - apply Rltb_true in C. rewrite Rabs_left by exact C. split; [ring|auto].
      - apply Rltb_false in C. rewrite Rabs_right by lra. split; [ring|auto]. }
    destruct Hsgv as (Hsgv & Hsg1).
    assert (Hs1 : s feat = sg) by (unfold s; rewrite Nat.eqb_refl; reflexivity).
    assert (HR : laRes st = []).
    { destruct (laRes st) as [|a r] eqn:Er; [reflexivity|]. destruct (li_head _ _ _ _ _ _ _ HI a r Er) as (_ & _).
      unfold lars_start in E. destruct (_ || _)%bool in E; [discriminate E|]. destruct (mat_mulvec _ _) in E; cbn [bind] in E; try discriminate E.
      destruct (fold_left _ _ _) in E. destruct (getn _ _) in E; cbn [bind] in E; try discriminate E. destruct (setn _ _ _) in E; cbn [bind] in E; try discriminate E.
      injection E as <-. discriminate Er. }
    assert (S0 : seg (laActive st) s l (fun _ => 0)).
    { split; [reflexivity|]. rewrite Ha. intros f [<-|[]]. rewrite Hs1. exact Hsgv. }
    assert (Hin : forall f, In f (laActive st) -> (f < n)%nat) by (rewrite Ha; intros f [<-|[]]; exact Hfn).
    assert (HG : 0 < l -> forall f, In f (laActive st) -> nonzero_col m A f).
    { rewrite Ha. intros Hl0 f [<-|[]]. destruct (nonzero_dec m A feat) as [C|C]; [exact C|exfalso].
      rewrite Hfe, (zero_corr m n A yf feat (fun _ => 0) C), Rabs_R0 in Hl0. lra. }
    exists l, s, feat. split; [|split; [exact Ha|split; [exact HR|split; [exact Hs|split; [exact Hn|split; [exact Hmx|split; [left; exists feat; auto|]]]]]]].
    - constructor; try assumption.
      + rewrite setn_lt in Hsg by (rewrite repeat_length; exact Hfn). apply Ok_inj in Hsg. rewrite <- Hsg.
        apply (nth_ext _ _ (fin 0) (fin 0)). { rewrite upd_length, fins_length, map_length, seq_length, repeat_length. reflexivity. }
        intros k Hk. rewrite upd_length, repeat_length in Hk. rewrite nth_upd, repeat_length.
        rewrite nth_fins by (rewrite map_length, seq_length; exact Hk). rewrite nth_map_seq by exact Hk. unfold s.
        destruct (Nat.eqb_spec k feat) as [->|C].
        * destruct (Nat.ltb_spec feat n); [|lia]. unfold sg.
          change (nltb (n := XR) (fin (rho (fun _ => 0) feat)) n0) with (Rltb (rho (fun _ => 0) feat) 0).
          destruct (Rltb _ _); reflexivity.
        * rewrite nth_repeat. reflexivity.
      + rewrite Ha. intros f [<-|[]]. rewrite Hs1. exact Hsg1.
      + rewrite Hlf. intro C. contradiction C. reflexivity.
      + rewrite Hest. exact HP.
      + rewrite Ha. repeat constructor. intros [].
    - intros FR Hl0.
      assert (Uniq : forall b, seg (laActive st) s l b -> forall k, (k < n)%nat -> b k = 0).
      { intros b Hb. apply (seg_unique m n A yf FR (laActive st) s l b (fun _ => 0) Hb S0 Hin (HG Hl0)). }
      constructor.
      + exists (fun _ => 0). exact S0.
      + intros b Hb f Hf C. rewrite (corr_ext m n A yf b (fun _ => 0) f (Uniq b Hb)). pose proof (Hmx f Hf) as Q.
        pose proof tol_pos. pose proof (Rle_abs (rho (fun _ => 0) f)) as Q1. pose proof (Rle_abs (- rho (fun _ => 0) f)) as Q2.
        rewrite Rabs_Ropp in Q2. lra.
      + intros b Hb f Hf. rewrite (Uniq b Hb f (Hin f Hf)). lra.
      + intros g Hg. rewrite Hlf in Hg. discriminate Hg.
      + intros g Hg. injection Hg as <-. split; [rewrite Ha; left; reflexivity|]. intros t b Ht Hb.
        destruct (Req_dec t l) as [->|Hne]; [rewrite (Uniq b Hb feat Hfn); lra|].
        pose proof (move m n A yf (laActive st) (fun _ => 0) b feat Hfn) as M.
        assert (M1 : forall k, (k < n)%nat -> ~ In k (laActive st) -> k <> feat -> 0 = b k) by (intros k Hk C _; symmetry; apply (proj1 Hb k Hk C)).
        assert (M2 : forall f, In f (laActive st) -> f <> feat -> (f < n)%nat -> rho (fun _ => 0) f = rho b f).
        { rewrite Ha. intros f [<-|[]] C. congruence. }
        specialize (M M1 M2). rewrite (proj2 Hb feat) in M by (rewrite Ha; left; reflexivity). rewrite Hs1 in *. rewrite Hsgv in M.
        assert (M3 : 0 <= (sg * b feat) * (l - t)) by (replace ((sg * b feat) * (l - t)) with ((b feat - 0) * (l * sg - t * sg)) by ring; exact M).
        apply Rnot_lt_le. intro C. nra.
      + rewrite Ha. intros f [<-|[]] C. congruence.
  Qed.
  (** ** stationarity, for any rank *)
  Definition node_stat (nd : LassoLarsNode XR) : Prop :=
    exists E v l s, lnSelection nd = map Z.of_nat E /\ lnCoeff nd = fins v /\ lnLamb nd = fin l /\ length v = length E /\
      forall f, In f E -> (s f = 1 \/ s f = -1) /\ rho (spread E v) f = l * s f.

  Lemma loop_stat : forall lm fuel (st st' : lars),
    (forall l, nltb (n := XR) lm (fin l) = true -> 0 < l) \/ (forall f, (f < n)%nat -> nonzero_col m A f) -> (exists l s lc, rstate X A cd P st l s lc) ->
    Forall node_stat (laRes st) -> lars_loop cd X (fins yr) lm fuel st = Ok st' -> Forall node_stat (laRes st').
  Proof.
    intros lm. induction fuel as [|fuel IH]; intros st st' HLM (l & s & lc & HS) HF E; cbn [lars_loop] in E.
    - destruct (nltb lm (laLamb st)); cbn [negb] in E; [discriminate E|injection E as <-]. exact HF.
    - destruct (nltb lm (laLamb st)) eqn:El; cbn [negb] in E; [|injection E as <-; exact HF].
      destruct (lars_step cd X (fins yr) st) as [st1| |] eqn:E1; cbn [bind] in E; try discriminate E.
      assert (HG0 : forall f, In f (laActive st) -> nonzero_col m A f).
      { destruct HLM as [HLM|HLM].
        - apply (rs_G _ _ _ _ _ _ _ _ HS). apply HLM. rewrite <- (rs_l _ _ _ _ _ _ _ _ HS). exact El.
        - intros f Hf. apply HLM. apply (rs_in _ _ _ _ _ _ _ _ HS). exact Hf. }
      destruct (round_xr X A yr HX Hy cd P EX st st1 l s lc HS HG0 E1) as (E0 & cf & df & T & jt & ct & HR).
      destruct HR as [HE HneE ND Hin Hseg (nd & ER & N1 & N2 & N3) HT Hjt Hct Hcross Hnext].
      assert (HF1 : Forall node_stat (laRes st1)).
      { rewrite ER. apply Forall_app. split; [exact HF|]. constructor; [|constructor].
        exists E0, (map (line cf df l) E0), l, s. split; [exact N2|]. split; [exact N3|]. split; [exact N1|]. split; [apply map_length|].
        intros f Hf. split.
        - apply (rs_pm _ _ _ _ _ _ _ _ HS). apply (Permutation_in f (sort_ints_perm (laActive st))). rewrite <- HE. exact Hf.
        - rewrite <- (proj2 (Hseg l) f Hf). apply corr_ext. intros k Hk. rewrite spread_map by exact ND.
          destruct (in_dec Nat.eq_dec k E0) as [C|C]; [reflexivity|]. symmetry. apply (proj1 (Hseg l)); assumption. }
      destruct (laStop st1) eqn:Est; [injection E as <-; exact HF1|]. apply (IH st1 st'); [exact HLM| |exact HF1|exact E].
      destruct Hnext as [(_ & _ & jF & s' & _ & _ & _ & _ & _ & _ & _ & HRS)|(_ & _ & lf & _ & _ & _ & _ & HRS)]; eauto.
  Qed.

  (** ** termination *)
  Definition no_fuel : Prop :=
    (forall st a, cdSetActive cd st a <> Fuel) /\ (forall st y, cdC cd st y <> Fuel) /\ (forall st y, cdD cd st y <> Fuel).

  Lemma step_nf : no_fuel -> forall st : lars, lars_step cd X (fins yr) st <> Fuel.
  Proof.
    intros (F1 & F2 & F3) st. unfold lars_step. destruct (_ =? _)%nat; [discriminate|].
    apply bind_nf; [unfold vec_view; nf|intro]. apply bind_nf; [apply F1|intro]. apply bind_nf; [apply F2|intro]. apply bind_nf; [apply F3|intro].
    apply bind_nf; [unfold tJoin; nf; unfold join_time; destruct (match _ with Some _ => _ | None => _ end); nf|intro].
    apply bind_nf; [unfold tCross; nf|intro]. apply bind_nf; [unfold maxJoinTime; nf|intros (jt & jF)].
    destruct (maxCrossTime _) as (ct & cF). apply bind_nf; [unfold betaLARS; nf|intro].
    apply bind_nf; [unfold NewLassoLarsNode; nf|intro].
    destruct (nltb ct jt).
    - apply bind_nf; [unfold betaLARS; nf|intro]. apply bind_nf; [unfold joinFeatSign; nf|intro]. nf.
    - apply bind_nf; [unfold betaLARS; nf|intro]. nf.
  Qed.

  Lemma loop_total : forall mn K fuel (st : lars), 0 <= mn -> no_fuel ->
    forall l s lc, rstate X A cd P st l s lc -> l <= INR K * tol ->
    ((n + 1) * K + n <= fuel + length (laActive st))%nat -> lars_loop cd X (fins yr) (fin mn) fuel st <> Fuel.
  Proof.
    intros mn K fuel. revert K. induction fuel as [|fuel IH]; intros K st Hmn NF l s lc HS HK Hf; cbn [lars_loop];
      (destruct (nltb (fin mn) (laLamb st)) eqn:El; cbn [negb]; [|discriminate]);
      rewrite (rs_l _ _ _ _ _ _ _ _ HS) in El; apply xlt_true in El;
      assert (HK1 : (1 <= K)%nat) by (destruct K; [cbn in HK; lra|lia]);
      assert (Hlen : (length (laActive st) <= n)%nat) by
        (rewrite <- (seq_length n 0); apply NoDup_incl_length; [apply (rs_nd _ _ _ _ _ _ _ _ HS)|];
         intros f Hff; apply in_seq; pose proof (rs_in _ _ _ _ _ _ _ _ HS f Hff) as Q; fold n in Q; lia).
    - nia.
    - destruct (lars_step cd X (fins yr) st) as [st1| |] eqn:E1; cbn [bind]; [|discriminate|exfalso; apply (step_nf NF st); exact E1].
      destruct (round_xr X A yr HX Hy cd P EX st st1 l s lc HS (rs_G _ _ _ _ _ _ _ _ HS ltac:(lra)) E1) as (E0 & cf & df & T & jt & ct & HR).
      destruct HR as [HE HneE ND Hin Hseg _ HT Hjt Hct Hcross Hnext].
      assert (Hl0 : length E0 = length (laActive st)) by (rewrite HE; apply Permutation_length; apply sort_ints_perm).
      destruct (laStop st1) eqn:Est; [discriminate|].
      destruct Hnext as [(Hlt & Hs1 & jF & s' & Hfr & HjF & HTj & EA & _ & _ & _ & HRS)|(Hle & Hs1 & lf & Hlf & HPm & _ & Hc & HRS)].
      + apply (IH K st1 Hmn NF jt s' 0 (HRS eq_refl)).
        * apply Rle_trans with l; [|exact HK]. apply Rnot_lt_le. intro C. apply Hs1 in C. congruence.
        * rewrite EA, app_length. cbn [length]. lia.
      + assert (HA : length (laActive st) = S (length (laActive st1))) by (rewrite <- Hl0; exact (Permutation_length HPm)).
        destruct Hc as [Hc|(_ & _ & Hc)].
        * specialize (HRS eq_refl). pose proof (rs_l _ _ _ _ _ _ _ _ HRS) as HL. rewrite Hc in HL.
          assert (Hx : nltb (n := XR) (fin mn) (fin 0) = false) by (apply xlt_false; exact Hmn).
          destruct fuel; cbn [lars_loop]; rewrite HL, Hx; discriminate.
        * destruct K as [|K]; [lia|]. apply (IH K st1 Hmn NF ct s _ (HRS eq_refl)).
          -- rewrite S_INR in HK. lra.
          -- nia.
  Qed.

  Hypothesis FR : independent m n A.

  (** ** one round keeps the conditions *)
  Lemma kkt_round : forall st st' l s lc jn E cf df T jt ct, rstate X A cd P st l s lc ->
    round X A yr cd P st st' l s lc E cf df T jt ct -> kkt st l s lc jn -> 0 < l ->
    (forall f, In f E -> jn <> Some f -> forall t w, l - tol < t <= l -> seg E s t w -> w f <> 0) ->
    laStop st' = false ->
    exists l' s' lc' jn', rstate X A cd P st' l' s' lc' /\ (0 < l' -> l' < l -> kkt st' l' s' lc' jn').
  Proof.
    intros st st' l s lc jn E cf df T jt ct HS HR HK Hl Hsep Hst.
    destruct HR as [HE HneE ND Hin Hseg (nd & ER & N1 & N2 & N3) HT Hjt Hct Hcross Hnext].
    destruct HK as [Ksol Kout Kin Kleave Kjoin Kkept].
    change (mrows X) with m in HT, Hseg, Hnext. change (mcols X) with n in HT, Hseg, Hnext, Hin.
    change (fun i : nat => nth i yr 0) with yf in HT, Hseg, Hnext.
    assert (Hp : Permutation E (laActive st)) by (rewrite HE; apply sort_ints_perm).
    assert (Hiff : forall f, In f E <-> In f (laActive st)).
    { intro f. split; apply Permutation_in; [exact Hp|apply Permutation_sym; exact Hp]. }
    assert (SegA : forall t b, seg E s t b <-> seg (laActive st) s t b).
    { intros t b. split; apply segment_in; [exact Hiff|]. intro f. symmetry. apply Hiff. }
    assert (Rl : forall t f, rho (line cf df t) f = rho cf f + t * gvf df f) by (intros; unfold line; apply corr_lin).
    assert (KoutE : forall f, (f < n)%nat -> ~ In f E -> - l - 2 * tol <= rho (line cf df l) f <= l).
    { intros f Hf C. apply Kout; [apply SegA, Hseg|exact Hf|]. rewrite <- Hiff. exact C. }
    assert (KinE : forall f, In f E -> 0 <= s f * line cf df l f).
    { intros f Hf. apply Kin; [apply SegA, Hseg|]. apply Hiff. exact Hf. }
    assert (Out0 : forall k t, (k < n)%nat -> ~ In k E -> line cf df t k = 0) by (intros k t Hk C; apply (proj1 (Hseg t)); assumption).
    (* what is known about the feature that left last *)
    assert (Lst : forall f, (forall t, t <= l -> ~ plus_ok (lastof (laLastFeat st) lc f) -> rho (line cf df t) f <= t) /\
                            (forall t, t <= l -> ~ minus_ok (lastof (laLastFeat st) lc f) -> - t <= rho (line cf df t) f) /\
                            (~ plus_ok (lastof (laLastFeat st) lc f) -> rho (line cf df l) f = l)).
    { intro f. destruct (laLastFeat st) as [g|] eqn:Eg; cbn [lastof].
      2:{ cbn [plus_ok minus_ok]. split; [|split]; intros; exfalso; auto. }
      destruct (Nat.eqb_spec g f) as [->|C]; cbn [plus_ok minus_ok].
      2:{ split; [|split]; intros; exfalso; auto. }
      destruct (Kleave f eq_refl) as (_ & _ & _ & L1 & L2). unfold sgc in *. split; [|split].
      - intros t Ht Hno. apply Rnot_le_lt in Hno. specialize (L2 t (line cf df t) Ht (proj1 (SegA _ _) (Hseg t))).
        rewrite (proj2 (Rltb_true 0 lc) Hno) in L2. lra.
      - intros t Ht Hno. apply Rnot_le_lt in Hno. specialize (L2 t (line cf df t) Ht (proj1 (SegA _ _) (Hseg t))).
        rewrite (proj2 (Rltb_false 0 lc)) in L2 by lra. lra.
      - intros Hno. apply Rnot_le_lt in Hno. specialize (L1 _ (proj1 (SegA _ _) (Hseg l))).
        rewrite (proj2 (Rltb_true 0 lc) Hno) in L1. lra. }
    assert (Inact : forall l' t, 0 <= l' -> jt <= l' -> l' <= t <= l -> forall f, (f < n)%nat -> ~ In f E ->
      - t - 2 * tol <= rho (line cf df t) f <= t).
    { intros l' t H0 Hj Ht f Hf C. destruct (HT f Hf C) as (T1 & T2 & T3). rewrite Rl.
      destruct (Lst f) as (Q1 & Q2 & _). specialize (KoutE f Hf C). rewrite Rl in KoutE.
      apply (inactive_ok (rho cf f) (gvf df f) l l' jt (T f) (lastof (laLastFeat st) lc f) t); try assumption.
      - lra.
      - lra.
      - intro D. rewrite <- Rl. apply Q1; [lra|exact D].
      - intro D. rewrite <- Rl. apply Q2; [lra|exact D]. }
    assert (Act : forall l', 0 <= l' -> ct <= l' -> l' <= l -> forall f, In f E -> 0 <= s f * line cf df l' f).
    { intros l' H0 Hc Hl' f Hf.
      assert (Dj : jn = Some f \/ jn <> Some f) by (destruct jn as [g|]; [destruct (Nat.eq_dec g f) as [->|D]; [left; reflexivity|right; congruence]|right; discriminate]).
      destruct Dj as [Dj|Dj].
      - destruct (Kjoin f Dj) as (_ & J). apply (J l'); [exact Hl'|apply SegA, Hseg].
      - destruct (Rle_or_lt 0 (s f * line cf df l' f)) as [D|D]; [exact D|exfalso].
        pose proof (KinE f Hf) as K0.
        pose proof (rs_pm _ _ _ _ _ _ _ _ HS f (proj1 (Hiff f) Hf)) as Hs.
        pose proof tol_pos as Htol.
        pose proof (Hsep f Hf Dj l (line cf df l) ltac:(lra) (Hseg l)) as Hne.
        unfold line in D, K0, Hne.
        assert (Hd : df f <> 0). { intro Z. rewrite Z in D, K0. destruct Hs as [Hs|Hs]; rewrite Hs in D, K0; lra. }
        set (r := cf f / df f). assert (Hr : r * df f = cf f) by (unfold r; field; exact Hd).
        assert (Hrl : l' < r /\ r <= l).
        { rewrite <- Hr in D, K0.
          assert (D' : (r - l') * (s f * df f) < 0) by lra. assert (K' : (r - l) * (s f * df f) >= 0) by lra.
          destruct (Rlt_or_le (s f * df f) 0) as [Z|Z].
          - split; [apply Rnot_le_lt; intro; nra|apply Rnot_lt_le; intro; nra].
          - assert (Z' : 0 < s f * df f) by (destruct Z as [Z|Z]; [exact Z|rewrite <- Z in D'; lra]). exfalso.
            assert (r < l') by (apply Rnot_le_lt; intro; nra). assert (r >= l) by (apply Rnot_lt_ge; intro; nra). lra. }
        destruct (Rle_or_lt (r + tol) l) as [Q|Q].
        + pose proof (Hcross f Hf Hd r Hr Q). lra.
        + apply (Hsep f Hf Dj r (line cf df r) ltac:(lra) (Hseg r)). unfold line. rewrite <- Hr. ring. }
    destruct Hnext as [(Hlt & Hs1 & jF & s' & Hfr & HjF & HTj & EA & ELF & Hs' & Hsg & HRS)|(Hle & Hs1 & lf & Hlf & HPm & ELF & Hc & HRS)].
    - (* a feature joins *)
      exists jt, s', 0, (Some jF). split; [apply HRS; exact Hst|]. intros Hj0 Hjl.
      specialize (HT jF HjF Hfr). destruct HT as (T1 & _ & T3). rewrite HTj in T1, T3.
      specialize (KoutE jF HjF Hfr). rewrite Rl in KoutE.
      assert (Hroot : (s' jF = 1 /\ plus_root (rho cf jF) (gvf df jF) jt) \/ (s' jF = -1 /\ minus_root (rho cf jF) (gvf df jF) jt /\ 1 + gvf df jF > 0)).
      { rewrite Rl in Hsg. destruct T3 as [(Q1 & Q2)|(Q1 & Q2 & Q3)].
        - left. split; [|exact Q2]. destruct Q2 as (_ & Q2). destruct Hsg as [(_ & G)|(G & _)]; [exact G|]. exfalso. rewrite <- Q2 in G. lra.
        - right. split; [|split; [exact Q2|]].
          + destruct Q2 as (_ & Q2). destruct Hsg as [(G & _)|(_ & G)]; [|exact G]. exfalso. rewrite <- Q2 in G. lra.
          + apply (join_slope_minus (rho cf jF) (gvf df jF) l jt (lastof (laLastFeat st) lc jF)); try assumption.
            intro D. rewrite <- Rl. apply (Lst jF). exact D. }
      assert (Hrho : rho (line cf df jt) jF = jt * s' jF).
      { rewrite Rl. destruct Hroot as [(-> & _ & Q)|(-> & (_ & Q) & _)]; rewrite <- Q; ring. }
      assert (Hslope : forall t, t < jt -> 0 < s' jF * (rho (line cf df t) jF - t * s' jF)).
      { intros t Ht. rewrite Rl. destruct Hroot as [(-> & Q)|(-> & (Q1 & Q2) & Q3)].
        - pose proof (join_slope_plus _ _ l jt Hjl (proj2 KoutE) Q) as Hb. destruct Q as (_ & Q). rewrite <- Q.
          assert (0 < (jt - t) * (1 - gvf df jF)) by nra. lra.
        - rewrite <- Q2. assert (0 < (jt - t) * (1 + gvf df jF)) by nra. lra. }
      assert (Sjt : seg (laActive st') s' jt (line cf df jt)).
      { rewrite EA. split.
        - intros k Hk C. apply Out0; [exact Hk|]. intro D. apply C. apply in_or_app. left. exact D.
        - intros f Hf. apply in_app_or in Hf. destruct Hf as [Hf|[<-|[]]]; [|exact Hrho].
          rewrite Hs' by (intros ->; contradiction). apply (proj2 (Hseg jt)). exact Hf. }
      assert (Hin' : forall f, In f (laActive st') -> (f < n)%nat).
      { rewrite EA. intros f Hf. apply in_app_or in Hf. destruct Hf as [Hf|[<-|[]]]; auto. }
      assert (Uniq : forall b, seg (laActive st') s' jt b -> forall k, (k < n)%nat -> b k = line cf df jt k).
      { intros b Hb. apply (seg_unique m n A yf FR (laActive st') s' jt b (line cf df jt) Hb Sjt Hin' (rs_G _ _ _ _ _ _ _ _ (HRS Hst) Hj0)). }
      assert (HjF' : In jF (laActive st')) by (rewrite EA; apply in_or_app; right; left; reflexivity).
      constructor.
      + exists (line cf df jt). exact Sjt.
      + intros b Hb f Hf C. rewrite (corr_ext m n A yf b (line cf df jt) f (Uniq b Hb)).
        apply (Inact jt jt); [exact Hjt|lra|lra|exact Hf|]. intro D. apply C. rewrite EA. apply in_or_app. left. exact D.
      + intros b Hb f Hf. rewrite (Uniq b Hb f (Hin' f Hf)). rewrite EA in Hf. apply in_app_or in Hf. destruct Hf as [Hf|[<-|[]]].
        * rewrite Hs' by (intros ->; contradiction). apply Act; [exact Hjt|lra|lra|exact Hf].
        * rewrite (Out0 jF jt HjF Hfr). lra.
      + intros g Hg. rewrite ELF in Hg. discriminate Hg.
      + intros g Hg. injection Hg as <-. split; [exact HjF'|]. intros t b Ht Hb.
        destruct (Req_dec t jt) as [->|Hne]; [rewrite (Uniq b Hb jF HjF), (Out0 jF jt HjF Hfr); lra|].
        assert (Ht' : t < jt) by lra. specialize (Hslope t Ht').
        pose proof (move m n A yf E (line cf df t) b jF HjF) as M.
        assert (Hm1 : forall k, (k < n)%nat -> ~ In k E -> k <> jF -> line cf df t k = b k).
        { intros k Hk C Hk'. rewrite (Out0 k t Hk C). symmetry. apply (proj1 Hb k Hk). rewrite EA. intro D. apply in_app_or in D.
          destruct D as [D|[D|[]]]; [contradiction|congruence]. }
        assert (Hm2 : forall f, In f E -> f <> jF -> (f < n)%nat -> rho (line cf df t) f = rho b f).
        { intros f Hf Hf' _. rewrite (proj2 (Hseg t) f Hf). symmetry. rewrite <- (Hs' f Hf'). apply (proj2 Hb). rewrite EA. apply in_or_app. left. exact Hf. }
        specialize (M Hm1 Hm2). rewrite (Out0 jF t HjF Hfr) in M. rewrite (proj2 Hb jF HjF') in M.
        assert (Hsq : s' jF * s' jF = 1) by (destruct Hroot as [(-> & _)|(-> & _)]; lra).
        set (D := rho (line cf df t) jF - t * s' jF) in *.
        assert (M' : 0 <= (s' jF * b jF) * (s' jF * D)).
        { replace ((s' jF * b jF) * (s' jF * D)) with ((s' jF * s' jF) * (b jF * D)) by ring. rewrite Hsq. lra. }
        apply Rnot_lt_le. intro C. nra.
      + intros f Hf Hne. rewrite ER. split; [intro C; apply app_eq_nil in C; destruct C as (_ & C); discriminate C|].
        intros l1 a Ea. apply app_inj_tail in Ea. destruct Ea as (_ & <-). rewrite N2. apply in_map.
        rewrite EA in Hf. apply in_app_or in Hf. destruct Hf as [Hf|[<-|[]]]; [exact Hf|congruence].
    - (* a feature leaves *)
      exists ct, s, (line cf df l lf), None. split; [apply HRS; exact Hst|]. intros Hc0 Hcl.
      destruct Hc as [Hc|(Hd & Hcd & Hctol)]; [lra|].
      assert (ND' : NoDup (lf :: laActive st')) by (apply (Permutation_NoDup HPm); exact ND).
      assert (HsubE : forall f, In f (laActive st') -> In f E).
      { intros f Hf. apply (Permutation_in f (Permutation_sym HPm)). right. exact Hf. }
      assert (HnE : forall f, ~ In f (laActive st') -> f <> lf -> ~ In f E).
      { intros f C D H. apply (Permutation_in f HPm) in H. destruct H as [H|H]; [congruence|contradiction]. }
      assert (Hlf' : ~ In lf (laActive st')) by (inversion ND'; assumption).
      assert (Hlfn : (lf < n)%nat) by (apply Hin; exact Hlf).
      assert (Z0 : line cf df ct lf = 0) by (unfold line; rewrite Hcd; ring).
      assert (Sct : seg (laActive st') s ct (line cf df ct)).
      { split.
        - intros k Hk C. destruct (Nat.eq_dec k lf) as [->|D]; [exact Z0|]. apply Out0; [exact Hk|]. apply HnE; assumption.
        - intros f Hf. apply (proj2 (Hseg ct)). apply HsubE. exact Hf. }
      assert (Hin' : forall f, In f (laActive st') -> (f < n)%nat) by (intros f Hf; apply Hin, HsubE, Hf).
      assert (Uniq : forall b, seg (laActive st') s ct b -> forall k, (k < n)%nat -> b k = line cf df ct k).
      { intros b Hb. apply (seg_unique m n A yf FR (laActive st') s ct b (line cf df ct) Hb Sct Hin' (rs_G _ _ _ _ _ _ _ _ (HRS Hst) Hc0)). }
      pose proof (rs_pm _ _ _ _ _ _ _ _ HS lf (proj1 (Hiff lf) Hlf)) as Hs.
      assert (Hlc : line cf df l lf = df lf * (ct - l)) by (unfold line; rewrite <- Hcd; ring).
      assert (Hlc0 : 0 < s lf * line cf df l lf).
      { destruct (KinE lf Hlf) as [K|K]; [exact K|exfalso]. rewrite Hlc in K. symmetry in K.
        apply Rmult_integral in K. destruct K as [K|K]; [lra|]. apply Rmult_integral in K. destruct K; [contradiction|lra]. }
      assert (Hsgc : sgc (line cf df l lf) = s lf).
      { unfold sgc. destruct Hs as [Hs|Hs]; rewrite Hs in *.
        - rewrite (proj2 (Rltb_true _ _)) by lra. reflexivity.
        - rewrite (proj2 (Rltb_false _ _)) by lra. reflexivity. }
      constructor.
      + exists (line cf df ct). exact Sct.
      + intros b Hb f Hf C. rewrite (corr_ext m n A yf b (line cf df ct) f (Uniq b Hb)).
        destruct (Nat.eq_dec f lf) as [->|D].
        * rewrite (proj2 (Hseg ct) lf Hlf). pose proof tol_pos. destruct Hs as [Hs|Hs]; rewrite Hs; lra.
        * apply (Inact ct ct); [exact Hct|exact Hle|lra|exact Hf|]. apply HnE; assumption.
      + intros b Hb f Hf. rewrite (Uniq b Hb f (Hin' f Hf)). apply Act; [exact Hct|lra|lra|]. apply HsubE. exact Hf.
      + intros g Hg. rewrite ELF in Hg. injection Hg as <-. split; [intro C; rewrite C in Hlc0; lra|]. split; [exact Hlfn|]. split; [exact Hlf'|].
        rewrite Hsgc. split.
        * intros b Hb. rewrite (corr_ext m n A yf b (line cf df ct) lf (Uniq b Hb)). apply (proj2 (Hseg ct)). exact Hlf.
        * intros t b Ht Hb. assert (Hsq : s lf * s lf = 1) by (destruct Hs as [Hs|Hs]; rewrite Hs; lra).
          destruct (Req_dec t ct) as [->|Hne].
          { rewrite (corr_ext m n A yf b (line cf df ct) lf (Uniq b Hb)), (proj2 (Hseg ct) lf Hlf).
            replace (s lf * (ct * s lf)) with (ct * (s lf * s lf)) by ring. rewrite Hsq. lra. }
          assert (Ht' : t < ct) by lra.
          pose proof (move m n A yf (laActive st') (line cf df t) b lf Hlfn) as M.
          assert (Hm1 : forall k, (k < n)%nat -> ~ In k (laActive st') -> k <> lf -> line cf df t k = b k).
          { intros k Hk C Hk'. rewrite (Out0 k t Hk (HnE k C Hk')). symmetry. apply (proj1 Hb k Hk). exact C. }
          assert (Hm2 : forall f, In f (laActive st') -> f <> lf -> (f < n)%nat -> rho (line cf df t) f = rho b f).
          { intros f Hf _ _. rewrite (proj2 (Hseg t) f (HsubE f Hf)). symmetry. apply (proj2 Hb). exact Hf. }
          specialize (M Hm1 Hm2). rewrite (proj1 Hb lf Hlfn Hlf') in M. rewrite (proj2 (Hseg t) lf Hlf) in M.
          assert (Hlt : line cf df t lf = df lf * (ct - t)) by (unfold line; rewrite <- Hcd; ring).
          rewrite Hlt in M. rewrite Hlc in Hlc0.
          assert (Hneg : s lf * df lf < 0) by (apply Rnot_le_lt; intro C; nra).
          set (q := rho b lf) in *.
          assert (M' : 0 <= (- (s lf * df lf) * (ct - t)) * (t - s lf * q)).
          { replace ((- (s lf * df lf) * (ct - t)) * (t - s lf * q)) with
              ((0 - df lf * (ct - t)) * (t * s lf - (s lf * s lf) * q)) by ring. rewrite Hsq.
            replace (t * s lf - 1 * q) with (t * s lf - q) by ring. exact M. }
          apply Rnot_lt_le. intro C. assert (0 < - (s lf * df lf) * (ct - t)) by nra. nra.
      + intros g Hg. discriminate Hg.
      + intros f Hf _. rewrite ER. split; [intro C; apply app_eq_nil in C; destruct C as (_ & C); discriminate C|].
        intros l1 a Ea. apply app_inj_tail in Ea. destruct Ea as (_ & <-). rewrite N2. apply in_map. apply HsubE. exact Hf.
  Qed.

  Lemma segment_ext : forall E s t b b', (forall f, In f E -> (f < n)%nat) -> (forall k, (k < n)%nat -> b k = b' k) -> seg E s t b -> seg E s t b'.
  Proof.
    intros E s t b b' HE H (S1 & S2). split.
    - intros k Hk C. rewrite <- H by exact Hk. apply S1; assumption.
    - intros f Hf. rewrite <- (corr_ext m n A yf b b' f H). apply S2. exact Hf.
  Qed.

  Lemma loop_prefix : forall lm fuel (st st' : lars), lars_loop cd X (fins yr) lm fuel st = Ok st' -> exists rest, laRes st' = laRes st ++ rest.
  Proof.
    intros lm. induction fuel as [|fuel IH]; intros st st' E; cbn [lars_loop] in E.
    - destruct (nltb lm (laLamb st)); cbn [negb] in E; [discriminate E|injection E as <-]. exists []. rewrite app_nil_r. reflexivity.
    - destruct (nltb lm (laLamb st)) eqn:El; cbn [negb] in E; [|injection E as <-; exists []; rewrite app_nil_r; reflexivity].
      destruct (lars_step cd X (fins yr) st) as [st1| |] eqn:E1; cbn [bind] in E; try discriminate E.
      destruct (step_cases XR cd X (fins yr) st st1 E1) as (_ & ac & sg & es & c & d & jts & cts & jt & jF & ct & cF & lrs & node &
        _ & _ & _ & _ & _ & _ & _ & _ & _ & _ & _ & ER & _).
      destruct (laStop st1); [injection E as <-; eauto|].
      destruct (IH _ _ E) as (rest & Hr). rewrite Hr, ER, <- app_assoc. eauto.
  Qed.

  Lemma round_out : forall st st' l s lc E cf df T jt ct, round X A yr cd P st st' l s lc E cf df T jt ct ->
    forall t k, (k < n)%nat -> spread E (map (line cf df t) E) k = line cf df t k.
  Proof.
    intros st st' l s lc E cf df T jt ct HR t k Hk. rewrite spread_map by (apply (ro_nd _ _ _ _ _ _ _ _ _ _ _ _ _ _ _ _ HR)).
    destruct (in_dec Nat.eq_dec k E) as [C|C]; [reflexivity|]. symmetry.
    apply (proj1 (ro_seg _ _ _ _ _ _ _ _ _ _ _ _ _ _ _ _ HR t)); assumption.
  Qed.

  Lemma kkt_node : forall st st' l s lc jn E cf df T jt ct nd, rstate X A cd P st l s lc ->
    round X A yr cd P st st' l s lc E cf df T jt ct -> kkt st l s lc jn ->
    lnLamb nd = fin l -> lnSelection nd = map Z.of_nat E -> lnCoeff nd = fins (map (line cf df l) E) -> node_kkt nd.
  Proof.
    intros st st' l s lc jn E cf df T jt ct nd HS HR HK N1 N2 N3.
    pose proof (round_out _ _ _ _ _ _ _ _ _ _ _ HR l) as Hsp.
    assert (Hiff : forall f, In f E <-> In f (laActive st)).
    { intro f. rewrite (ro_E _ _ _ _ _ _ _ _ _ _ _ _ _ _ _ _ HR). split; apply Permutation_in; [|apply Permutation_sym]; apply sort_ints_perm. }
    pose proof (ro_seg _ _ _ _ _ _ _ _ _ _ _ _ _ _ _ _ HR l) as Hseg. change (mrows X) with m in Hseg. change (mcols X) with n in Hseg.
    change (fun i : nat => nth i yr 0) with yf in Hseg.
    assert (HsA : seg (laActive st) s l (line cf df l)) by (apply (segment_in m n A yf E); assumption).
    assert (Hc : forall f, rho (spread E (map (line cf df l) E)) f = rho (line cf df l) f) by (intro f; apply corr_ext; exact Hsp).
    exists E, (map (line cf df l) E), l, s. split; [exact N2|]. split; [exact N3|]. split; [exact N1|].
    split; [apply (rs_l0 _ _ _ _ _ _ _ _ HS)|]. split; [apply map_length|]. split.
    - intros f Hf. split; [apply (rs_pm _ _ _ _ _ _ _ _ HS); apply Hiff; exact Hf|]. rewrite Hc. split; [apply (proj2 Hseg); exact Hf|].
      rewrite Hsp by (apply (ro_in _ _ _ _ _ _ _ _ _ _ _ _ _ _ _ _ HR); exact Hf).
      apply (k_in _ _ _ _ _ HK); [exact HsA|]. apply Hiff. exact Hf.
    - intros f Hf C. rewrite Hc.
      pose proof (k_out _ _ _ _ _ HK _ HsA f Hf ltac:(rewrite <- Hiff; exact C)) as K. rewrite tol_val in K.
      apply Rabs_le. pose proof (rs_l0 _ _ _ _ _ _ _ _ HS). lra.
  Qed.

  Lemma loop_kkt : forall mn fuel (st st' : lars), 0 <= mn ->
    (exists l s lc jn, rstate X A cd P st l s lc /\
      (0 < l -> (forall l1 a, laRes st = l1 ++ [a] -> exists la, lnLamb a = fin la /\ l < la) -> kkt st l s lc jn)) ->
    Forall node_kkt (laRes st) -> lars_loop cd X (fins yr) (fin mn) fuel st = Ok st' ->
    (forall l1 a b l2, laRes st' = l1 ++ a :: b :: l2 -> decreasing a b /\ separated a b) ->
    Forall node_kkt (laRes st').
  Proof.
    intros mn. induction fuel as [|fuel IH]; intros st st' Hmn (l & s & lc & jn & HS & HK) HF E Hpath; cbn [lars_loop] in E.
    - destruct (nltb (fin mn) (laLamb st)); cbn [negb] in E; [discriminate E|injection E as <-]. exact HF.
    - destruct (nltb (fin mn) (laLamb st)) eqn:El; cbn [negb] in E; [|injection E as <-; exact HF].
      rewrite (rs_l _ _ _ _ _ _ _ _ HS) in El. apply xlt_true in El.
      destruct (lars_step cd X (fins yr) st) as [st1| |] eqn:E1; cbn [bind] in E; try discriminate E.
      destruct (round_xr X A yr HX Hy cd P EX st st1 l s lc HS (rs_G _ _ _ _ _ _ _ _ HS ltac:(lra)) E1) as (E0 & cf & df & T & jt & ct & HR).
      destruct (ro_res _ _ _ _ _ _ _ _ _ _ _ _ _ _ _ _ HR) as (nd & ER & N1 & N2 & N3).
      assert (Hrest : exists rest, laRes st' = laRes st ++ nd :: rest).
      { destruct (laStop st1).
        - injection E as <-. exists []. exact ER.
        - destruct (loop_prefix _ _ _ _ E) as (rest & Hr). rewrite Hr, ER, <- app_assoc. exists rest. reflexivity. }
      destruct Hrest as (rest & Hrest).
      assert (Hcons : forall l1 a, laRes st = l1 ++ [a] -> decreasing a nd /\ separated a nd).
      { intros l1 a Ea. apply (Hpath l1 a nd rest). rewrite Hrest, Ea, <- app_assoc. reflexivity. }
      assert (HK1 : kkt st l s lc jn).
      { apply HK; [lra|]. intros l1 a Ea. destruct (Hcons l1 a Ea) as ((la & lb & L1 & L2 & L3) & _).
        rewrite N1 in L2. injection L2 as <-. eauto. }
      assert (Hnd : node_kkt nd) by (apply (kkt_node _ _ _ _ _ _ _ _ _ _ _ _ nd HS HR HK1 N1 N2 N3)).
      assert (HF1 : Forall node_kkt (laRes st1)) by (rewrite ER; apply Forall_app; split; [exact HF|constructor; [exact Hnd|constructor]]).
      destruct (laStop st1) eqn:Est; [injection E as <-; exact HF1|].
      apply (IH st1 st' Hmn); [|exact HF1|exact E|exact Hpath].
      destruct (kkt_round st st1 l s lc jn E0 cf df T jt ct HS HR HK1 ltac:(lra)) as (l' & s' & lc' & jn' & HS' & HK').
      + intros f Hf Hjn t w Ht Hw.
        assert (HfA : In f (laActive st)) by (apply (Permutation_in f (sort_ints_perm (laActive st))); rewrite <- (ro_E _ _ _ _ _ _ _ _ _ _ _ _ _ _ _ _ HR); exact Hf).
        destruct (k_kept _ _ _ _ _ HK1 f HfA Hjn) as (Q1 & Q2).
        destruct (exists_last Q1) as (l1 & a & Ea). specialize (Q2 l1 a Ea). destruct (Hcons l1 a Ea) as (_ & Hsep).
        refine (Hsep E0 (map (line cf df l) E0) l s N2 N3 N1 _ f Hf Q2 t w _ Hw).
        * apply (segment_ext E0 s l (line cf df l)).
          -- apply (ro_in _ _ _ _ _ _ _ _ _ _ _ _ _ _ _ _ HR).
          -- intros k Hk. symmetry. apply (round_out _ _ _ _ _ _ _ _ _ _ _ HR l k Hk).
          -- apply (ro_seg _ _ _ _ _ _ _ _ _ _ _ _ _ _ _ _ HR l).
        * rewrite tol_val in Ht. exact Ht.
      + exact Est.
      + exists l', s', lc', jn'. split; [exact HS'|]. intros H0 Hstr. apply HK'; [exact H0|].
        destruct (Hstr (laRes st) nd ER) as (la & L1 & L2). rewrite N1 in L1. injection L1 as <-. exact L2.
  Qed.

End KKT.
