(** * Tactics for comparing expressions with formulas: powers, logarithms, literals *)
From Coq Require Import Reals QArith Qreals ZArith Arith Lia Lra List Bool String.
From Coquelicot Require Import Coquelicot.
From Verif Require Import Scalar RInst CTaylor CtAlg TMath Fps TFam TExp Ad Br Expr Functionals Sem AdEval RSem Dom Phys Pw92 Value.
Import ListNotations.
Local Open Scope R_scope.

Lemma ln_pw x y : ln (Rpower x y) = y * ln x.
Proof. unfold Rpower. apply ln_exp. Qed.
Lemma ln_dv x y : 0 < x -> 0 < y -> ln (x / y) = ln x - ln y.
Proof. intros X Y. unfold Rdiv. rewrite ln_mult, ln_Rinv; auto. now apply Rinv_0_lt_compat. Qed.
Lemma ln_pn x k : 0 < x -> ln (x ^ k) = INR k * ln x.
Proof. intro X. rewrite <- Rpower_pow by exact X. apply ln_pw. Qed.
Ltac pos := repeat match goal with
  | |- _ > 0 => apply Rlt_gt
  | |- _ <> 0 => apply Rgt_not_eq
  | |- 0 < PI => exact PI_RGT_0
  | |- 0 < IZR _ => lra
  | |- 0 < _ => assumption
  | |- 0 < Rmult _ _ => apply Rmult_lt_0_compat
  | |- 0 < Rdiv _ _ => apply Rdiv_lt_0_compat
  | |- 0 < Rinv _ => apply Rinv_0_lt_compat
  | |- 0 < pow _ _ => apply pow_lt
  | |- 0 < exp _ => apply exp_pos
  | |- 0 < Rpower _ _ => apply exp_pos
  | |- 0 < sqrt _ => apply sqrt_lt_R0
  end; try lra.
(** Positive monomials are equal when their logarithms are. *)
Ltac lnx := apply ln_inv; [pos|pos|];
  repeat first [ rewrite ln_pw | rewrite ln_mult by pos | rewrite ln_dv by pos | rewrite ln_Rinv by pos | rewrite ln_pn by pos ];
  try rewrite ln_1; cbn [INR].
Lemma ln4 : ln 4 = 2 * ln 2. Proof. replace 4 with (2 * 2) by lra. rewrite ln_mult by lra. lra. Qed.
Lemma ln8 : ln 8 = 3 * ln 2. Proof. replace 8 with (2 * 4) by lra. rewrite ln_mult, ln4 by lra. lra. Qed.
Lemma ln6 : ln 6 = ln 2 + ln 3. Proof. replace 6 with (2 * 3) by lra. rewrite ln_mult by lra. lra. Qed.
Lemma ln12 : ln 12 = 2 * ln 2 + ln 3. Proof. replace 12 with (4 * 3) by lra. rewrite ln_mult, ln4 by lra. lra. Qed.
Lemma ln16 : ln 16 = 4 * ln 2. Proof. replace 16 with (4 * 4) by lra. rewrite ln_mult, ln4 by lra. lra. Qed.
Lemma ln24 : ln 24 = 3 * ln 2 + ln 3. Proof. replace 24 with (8 * 3) by lra. rewrite ln_mult, ln8 by lra. lra. Qed.
Lemma ln32 : ln 32 = 5 * ln 2. Proof. replace 32 with (4 * 8) by lra. rewrite ln_mult, ln4, ln8 by lra. lra. Qed.
Lemma ln9 : ln 9 = 2 * ln 3. Proof. replace 9 with (3 * 3) by lra. rewrite ln_mult by lra. lra. Qed.
Lemma ln81 : ln 81 = 4 * ln 3. Proof. replace 81 with (9 * 9) by lra. rewrite ln_mult, ln9 by lra. lra. Qed.
Lemma ln10 : ln 10 = ln 2 + ln 5. Proof. replace 10 with (2 * 5) by lra. rewrite ln_mult by lra. lra. Qed.
Ltac lnum := rewrite ?ln4, ?ln8, ?ln6, ?ln12, ?ln16, ?ln24, ?ln32, ?ln9, ?ln81, ?ln10.
Ltac mono := lnx; lnum; field.
(** Reduction to real arithmetic. *)
Ltac vred := match goal with |- ?l = ?r =>
  let l' := eval cbv -[Rplus Rmult Ropp Rminus Rdiv Rinv Rpower ln exp sqrt PI IZR sqas erfR cbrtR arcsinh atan Rlt_dec Rabs Rmax pow Q2R] in l in change (l' = r) end.
(** Decimal literals as quotients of integers. *)
Lemma dec_lit p q : Q2R (p # q) = IZR p / IZR (Zpos q).
Proof. reflexivity. Qed.
Ltac decs := repeat match goal with |- context [Q2R (?p # ?q)] => rewrite (dec_lit p q) end.
Ltac vred_in E := match type of E with ?l = ?r =>
  let l' := eval cbv -[Rplus Rmult Ropp Rminus Rdiv Rinv Rpower ln exp sqrt PI IZR sqas erfR cbrtR arcsinh atan Rlt_dec Rabs Rmax pow Q2R] in l in change (l' = r) in E end.
