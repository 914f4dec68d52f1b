(** * The real-number instance of the scalar operations
    Exact arithmetic over the Coq reals (rounding is not modelled).  The functions of
    <cmath> are interpreted by the mathematical functions they approximate; partial
    functions are totalised here, every use in the model is guarded by the domain check
    of the calling code or by a [None] outcome (Expr.v). *)
From Coq Require Import Reals QArith Qreals Lra.
From Coquelicot Require Import Coquelicot.
From Verif Require Import Scalar.
Local Open Scope R_scope.

Definition Rltb (x y : R) : bool := if Rlt_dec x y then true else false.
Definition Reqb (x y : R) : bool := if Req_EM_T x y then true else false.
(** real power of a positive base *)
Definition powR (x a : R) : R := if Rlt_dec 0 x then Rpower x a else 0.
Definition cbrtR (x : R) : R :=
  if Rlt_dec 0 x then Rpower x (1 / 3)
  else if Rlt_dec x 0 then - Rpower (- x) (1 / 3) else 0.
Definition erfR (x : R) : R := 2 / sqrt PI * RInt (fun t => exp (- (t * t))) 0 x.

Definition ROps : Ops := {|
  T := R;
  Oadd := Rplus; Osub := Rminus; Omul := Rmult; Odiv := Rdiv; Oopp := Ropp;
  OofQ := Q2R; Opi := PI;
  Oltb := Rltb; Oeqb := Reqb;
  Oexp := exp; Olog := ln; Opow := powR; Osqrt := sqrt; Ocbrt := cbrtR;
  Oatan := atan; Oerf := erfR; Osin := sin; Ocos := cos;
  Oasinh := arcsinh; Osinh := sinh |}.

Lemma Rltb_true x y : Rltb x y = true <-> x < y.
Proof. unfold Rltb. destruct Rlt_dec; split; intro H; try tauto; discriminate. Qed.
Lemma Rltb_false x y : Rltb x y = false <-> y <= x.
Proof. unfold Rltb. destruct Rlt_dec; split; intro H; try lra; try discriminate; reflexivity. Qed.
Lemma Reqb_true x y : Reqb x y = true <-> x = y.
Proof. unfold Reqb. destruct Req_EM_T; split; intro H; try tauto; discriminate. Qed.
Lemma Reqb_false x y : Reqb x y = false <-> x <> y.
Proof. unfold Reqb. destruct Req_EM_T; split; intro H; try tauto; discriminate. Qed.

Lemma Q2R_0 : Q2R 0 = 0. Proof. unfold Q2R. cbn. lra. Qed.
Lemma Q2R_1 : Q2R 1 = 1. Proof. unfold Q2R. cbn. lra. Qed.
Lemma Q2R_Z z : Q2R (inject_Z z) = IZR z.
Proof. unfold Q2R. cbn. lra. Qed.
Lemma powR_pos x a : 0 < x -> powR x a = Rpower x a.
Proof. unfold powR. intro H. destruct Rlt_dec; [reflexivity|lra]. Qed.
Lemma cbrtR_pos x : 0 < x -> cbrtR x = Rpower x (1 / 3).
Proof. unfold cbrtR. intro H. destruct Rlt_dec; [reflexivity|lra]. Qed.
