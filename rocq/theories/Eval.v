(** Evaluation of closed model terms over XR, for the examples: weak head
    reduction, and comparisons of rational expressions decided through Q. *)
From Coq Require Import Reals Lra QArith Qreduction.
From Verif Require Import Base Num.
Local Open Scope R_scope.

Ltac toQ e :=
  lazymatch e with
  | Rplus ?a ?b => let a := toQ a in let b := toQ b in constr:(Qplus a b)
  | Rminus ?a ?b => let a := toQ a in let b := toQ b in constr:(Qminus a b)
  | Rmult ?a ?b => let a := toQ a in let b := toQ b in constr:(Qmult a b)
  | Rdiv ?a ?b => let a := toQ a in let b := toQ b in constr:(Qdiv a b)
  | Ropp ?a => let a := toQ a in constr:(Qopp a)
  | Rinv ?a => let a := toQ a in constr:(Qinv a)
  | Rabs ?a => let a := toQ a in constr:(Qabs.Qabs a)
  | IZR ?z => constr:(inject_Z z)
  end.

(** the literal for a rational expression *)
Ltac lit e :=
  let q := toQ e in
  let q := eval vm_compute in (Qred q) in
  lazymatch q with
  | Qmake ?n 1%positive => constr:(IZR n)
  | Qmake ?n ?d => constr:(IZR n / IZR (Z.pos d))
  end.
Ltac is_lit e := lazymatch e with IZR _ => idtac | Rdiv (IZR _) (IZR _) => idtac end.
Ltac not_lit e := lazymatch e with IZR _ => fail | Rdiv (IZR _) (IZR _) => fail | _ => idtac end.
Ltac rat_eq :=
  first [lra | field; lra | repeat first [rewrite Rabs_right by lra | rewrite Rabs_left1 by lra]; first [lra | field; lra]].

Lemma Rleb_t : forall a b, a <= b -> Rleb a b = true.
Proof. intros a b H. unfold Rleb. destruct (Rle_dec a b); [reflexivity|contradiction]. Qed.
Lemma Rleb_f : forall a b, b < a -> Rleb a b = false.
Proof. intros a b H. unfold Rleb. destruct (Rle_dec a b); [lra|reflexivity]. Qed.
Lemma Reqb_t : forall a b, a = b -> Reqb a b = true.
Proof. intros a b H. unfold Reqb. destruct (Req_EM_T a b); [reflexivity|contradiction]. Qed.
Lemma Reqb_f : forall a b, a <> b -> Reqb a b = false.
Proof. intros a b H. unfold Reqb. destruct (Req_EM_T a b); [contradiction|reflexivity]. Qed.

(** replace the operands by literals, then decide *)
Ltac to_lit a := tryif is_lit a then idtac else (let a' := lit a in replace a with a' by rat_eq).
Ltac rw_with H :=
  lazymatch type of H with ?x = _ => pattern x; refine (eq_ind_r _ _ H); cbv beta; clear H end.
Ltac dec_by x a b :=
  let a1 := lit a in let b1 := lit b in
  let Ea := fresh in let Eb := fresh in let H := fresh in
  assert (Ea : a = a1) by rat_eq; assert (Eb : b = b1) by rat_eq;
  first
    [ assert (H : x = true) by (clear - Ea Eb; first [apply Rltb_true; lra | apply Rleb_t; lra | apply Reqb_t; lra])
    | assert (H : x = false) by (clear - Ea Eb; first [apply Rltb_false; lra | apply Rleb_f; lra | apply Reqb_f; lra]) ];
  clear Ea Eb; rw_with H.

Lemma xdec_m6 : xdec 1 (-6) = XFin (1 / 1000000).
Proof. unfold xdec. change (0 <=? -6)%Z with false. cbv iota. reflexivity. Qed.

(** weak head evaluation of the left side of an equation *)
Ltac real_nf a := let a' := eval lazy -[Rplus Rmult Rminus Rdiv Rinv Ropp Rabs IZR] in a in a'.
Ltac chg x x' := tryif constr_eq x x' then idtac else change x with x'.
Ltac decide_cmp x :=
  lazymatch x with
  | Rltb ?a ?b => let a' := real_nf a in let b' := real_nf b in chg x (Rltb a' b'); (dec_by (Rltb a' b') a' b')
  | Rleb ?a ?b => let a' := real_nf a in let b' := real_nf b in chg x (Rleb a' b'); (dec_by (Rleb a' b') a' b')
  | Reqb ?a ?b => let a' := real_nf a in let b' := real_nf b in chg x (Reqb a' b'); (dec_by (Reqb a' b') a' b')
  end.
Ltac descend x :=
  let x' := eval hnf in x in
  chg x x';
  lazymatch x' with
  | Rltb _ _ => decide_cmp x'
  | Rleb _ _ => decide_cmp x'
  | Reqb _ _ => decide_cmp x'
  | xdec 1 (-6) => let H := fresh in pose proof xdec_m6 as H; rw_with H
  | match ?y with _ => _ end => descend y
  | _ => idtac
  end.
Ltac wh := match goal with |- ?l = _ => descend l end.

(** comparison of the value with literals *)
Ltac lz a := eval lazy -[Rplus Rmult Rminus Rdiv Rinv Ropp Rabs IZR] in a.
Ltac cmp :=
  repeat (progress wh);
  (match goal with |- ?l = ?r => let r' := eval hnf in r in change (l = r') end);
  lazymatch goal with
  | |- XFin ?a = XFin ?b => apply (f_equal XFin); let a' := lz a in chg a a'; rat_eq
  | |- Ok _ = Ok _ => apply (f_equal Ok); cmp
  | |- cons _ _ = cons _ _ => apply f_equal2; cmp
  | |- pair _ _ = pair _ _ => apply f_equal2; cmp
  | |- nil = nil => reflexivity
  | |- None = None => reflexivity
  | |- Some _ = Some _ => apply (f_equal Some); cmp
  | |- @eq nat _ _ => vm_compute; reflexivity
  | |- @eq Z _ _ => vm_compute; reflexivity
  | |- @eq bool _ _ => vm_compute; reflexivity
  | |- _ => idtac
  end.
#[global] Opaque Rltb Rleb Reqb xdec Rabs.
