(** * Property theorems: elementary function expansions (C27)
    [is_derive_n f k a v] (Coquelicot): the k-th derivative of f at a exists and is v. *)
From Coq Require Import Reals QArith Qreals Arith Lia Lra ZArith List.
From Coquelicot Require Import Coquelicot.
From Verif Require Import Scalar RInst CTaylor CtAlg TMath Fps TFam TExp.
Local Open Scope R_scope.

(** [taylor_of D N f e]: the routine e succeeds exactly on D, and there its coefficients
    0..N are the derivatives of f divided by factorials. *)
Definition taylor_of (D : R -> Prop) (N : nat) (f : R -> R) (e : R -> option (nat -> R)) : Prop :=
  (forall a, D a <-> exists c, e a = Some c) /\
  forall a c k, e a = Some c -> (k <= N)%nat -> is_derive_n f k a (INR (fact k) * c k).

Theorem C27_inv : forall N, taylor_of (fun x => x <> 0) N Rinv (inv_expand (K := ROps)).
Proof. intro N. exact (expands_derive_n _ _ _ _ (inv_expands N)). Qed.
Print Assumptions C27_inv.
Theorem C27_exp : forall N, taylor_of (fun _ => True) N exp (fun a => Some (exp_expand (K := ROps) a)).
Proof. intro N. exact (expands_derive_n _ _ _ _ (exp_expands N)). Qed.
Print Assumptions C27_exp.
Theorem C27_log : forall N, taylor_of (fun x => 0 < x) N ln (log_expand (K := ROps)).
Proof. intro N. exact (expands_derive_n _ _ _ _ (log_expands N)). Qed.
Print Assumptions C27_log.
Theorem C27_pow : forall (p : R) N,
  taylor_of (fun x => 0 < x) N (fun x => powR x p) (fun x => pow_expand (K := ROps) x p).
Proof. intros p N. exact (expands_derive_n _ _ _ _ (pow_expands p N)). Qed.
Print Assumptions C27_pow.
Theorem C27_sqrt : forall N, taylor_of (fun x => 0 < x) N sqrt (sqrt_expand (K := ROps)).
Proof. intro N. exact (expands_derive_n _ _ _ _ (sqrt_expands N)). Qed.
Print Assumptions C27_sqrt.
Theorem C27_cbrt : forall N, taylor_of (fun x => 0 < x) N cbrtR (cbrt_expand (K := ROps)).
Proof. intro N. exact (expands_derive_n _ _ _ _ (cbrt_expands N)). Qed.
Print Assumptions C27_cbrt.
Theorem C27_gauss : forall N,
  taylor_of (fun _ => True) N (fun x => exp (- (x * x))) (fun a => Some (gauss_expand (K := ROps) a)).
Proof. intro N. exact (expands_derive_n _ _ _ _ (gauss_expands N)). Qed.
Print Assumptions C27_gauss.
Theorem C27_erf : forall N, taylor_of (fun _ => True) N erfR (fun a => Some (erf_expand (K := ROps) a)).
Proof. intro N. exact (expands_derive_n _ _ _ _ (erf_expands N)). Qed.
Print Assumptions C27_erf.
Theorem C27_sin : forall N, taylor_of (fun _ => True) N sin (fun a => Some (sin_expand (K := ROps) N a)).
Proof. intro N. exact (expands_derive_n _ _ _ _ (sin_expands N)). Qed.
Print Assumptions C27_sin.
Theorem C27_cos : forall N, taylor_of (fun _ => True) N cos (fun a => Some (cos_expand (K := ROps) N a)).
Proof. intro N. exact (expands_derive_n _ _ _ _ (cos_expands N)). Qed.
Print Assumptions C27_cos.
(** The degree limit 6 is that of tfuns::compose (an assert). *)
Theorem C27_atan : forall N, (N <= 6)%nat -> taylor_of (fun _ => True) N atan (atan_expand (K := ROps) N).
Proof. intros N H. exact (expands_derive_n _ _ _ _ (atan_expands N H)). Qed.
Print Assumptions C27_atan.
Theorem C27_asinh : forall N, (N <= 6)%nat -> taylor_of (fun _ => True) N arcsinh (asinh_expand (K := ROps) N).
Proof. intros N H. exact (expands_derive_n _ _ _ _ (asinh_expands N H)). Qed.
Print Assumptions C27_asinh.
(** The rational approximation used inside sqrtx_asinh_sqrtx for |x| < 1/2 and the
    polynomial shift it is built from. *)
Theorem C27_shift : forall N (c : nat -> R),
  taylor_of (fun _ => True) N (peval_seq N c) (fun x => Some (tshift (K := ROps) N c x)).
Proof. intros N c. exact (expands_derive_n _ _ _ _ (shift_expands N c)). Qed.
Print Assumptions C27_shift.
Theorem C27_pade : forall N, (N <= 6)%nat ->
  taylor_of (fun x => polyQ x <> 0) N (fun x => polyP x / polyQ x) (pade_expand (K := ROps) N).
Proof. intros N H. exact (expands_derive_n _ _ _ _ (pade_expands N H)). Qed.
Print Assumptions C27_pade.
(** Above degree 6 these three routines fail (assert), for every expansion point. *)
Theorem C27_compose_limit : forall N (a : R), (6 < N)%nat ->
  atan_expand (K := ROps) N a = None /\ asinh_expand (K := ROps) N a = None /\ pade_expand (K := ROps) N a = None.
Proof.
  intros N a H. unfold atan_expand, asinh_expand, pade_expand, tcompose.
  rewrite (proj2 (Nat.leb_gt N 6) H).
  repeat split.
  - destruct (inv_expand _); reflexivity.
  - destruct (pow_expand _ _); reflexivity.
  - destruct (N <? 9); [|reflexivity]. destruct (inv_expand _); reflexivity.
Qed.
Print Assumptions C27_compose_limit.

(** asin and acos are wrong: their constant terms are asinh(a), and the sign of the last
    acos coefficient is wrong. *)
Lemma sinh_34 : / sqrt 2 < sinh (PI / 4).
Proof.
  assert (P : 3 / 4 < PI / 4) by (pose proof PI2_3_2; unfold PI2 in *; lra).
  assert (E : 19 / 16 < exp (PI / 16)).
  { pose proof (exp_ineq1 (PI / 16)). lra. }
  assert (E4 : exp (PI / 4) = exp (PI / 16) ^ 4).
  { rewrite <- Rpower_pow by apply exp_pos. unfold Rpower. rewrite ln_exp. f_equal. cbn. field. }
  assert (B : (19 / 16) ^ 4 < exp (PI / 4)).
  { rewrite E4. set (e := exp (PI / 16)) in *. assert (0 < e) by lra.
    assert ((19/16)*(19/16) < e * e) by nra. cbn. nra. }
  assert (I : exp (- (PI / 4)) < / (19 / 16) ^ 4).
  { rewrite exp_Ropp. apply Rinv_lt_contravar; [|exact B]. apply Rmult_lt_0_compat; [lra|apply exp_pos]. }
  assert (S : / sqrt 2 < 0.7072).
  { assert (1.4141 < sqrt 2). { rewrite <- (sqrt_square 1.4141) by lra. apply sqrt_lt_1; lra. }
    apply Rle_lt_trans with (/ 1.4141); [|lra]. left. apply Rinv_lt_contravar; nra. }
  unfold sinh. assert ((19/16)^4 = 130321/65536) by lra.
  assert (/ (19/16)^4 = 65536/130321) by (rewrite H; field). lra.
Qed.
Theorem C27_asin_refuted : forall N, (N <= 6)%nat ->
  exists a c, -1 < a < 1 /\ asin_expand (K := ROps) N a = Some c /\ c O <> asin a.
Proof.
  intros N HN. exists (/ sqrt 2).
  assert (S2 : 1 < sqrt 2) by (rewrite <- sqrt_1 at 1; apply sqrt_lt_1; lra).
  assert (R0 : 0 < / sqrt 2) by (apply Rinv_0_lt_compat; lra).
  assert (R1 : / sqrt 2 < 1) by (assert (/ sqrt 2 * sqrt 2 = 1) by (field; lra); nra).
  unfold asin_expand, pow_expand. ops.
  rewrite (proj2 (Rltb_true 0 (1 - / sqrt 2 * / sqrt 2))) by nra. cbn [obnd].
  match goal with |- context [tcompose N ?f ?x] => destruct (tcompose_compval N f x HN) as (t & -> & _) end.
  cbn [obnd]. eexists. split; [lra|]. split; [reflexivity|]. cbn. rewrite asin_inv_sqrt2. intro E.
  pose proof sinh_34 as H. rewrite <- E, sinh_arcsinh in H. lra.
Qed.
Print Assumptions C27_asin_refuted.
Theorem C27_acos_refuted : exists c, acos_expand (K := ROps) 1 0 = Some c /\
  c O <> acos 0 /\ ~ is_derive_n acos 1 0 (INR (fact 1) * c 1%nat).
Proof.
  unfold acos_expand, pow_expand. ops. rewrite (proj2 (Rltb_true 0 (1 - 0 * 0))) by lra. cbn [obnd].
  match goal with |- context [tcompose 1 ?f ?x] => destruct (tcompose_compval 1 f x) as (t & -> & Ht); [lia|] end.
  cbn [obnd]. eexists. split; [reflexivity|]. split.
  - cbn. rewrite arcsinh_0, acos_0. pose proof PI_RGT_0. lra.
  - intros Hd. cbn [set0 tintegrate fact INR Nat.leb Nat.ltb andb] in Hd. ops. rewrite (Ht 0%nat) in Hd by lia.
    cbn [compval pow_coef] in Hd. cbn in Hd. rewrite powR_pos in Hd by lra.
    replace (1 - 0 * 0) with 1 in Hd by ring. unfold Rpower in Hd. rewrite ln_1, Rmult_0_r, exp_0, Q2R_Z in Hd.
    assert (Hd2 : is_derive acos 0 (-1)).
    { apply is_derive_Reals. assert (X : -1 < 0 < 1) by lra.
      pose proof (derive_pt_acos 0 X) as D. apply derive_pt_eq_1 in D.
      match type of D with derivable_pt_lim _ _ ?v => replace v with (-1) in D end; [exact D|].
      unfold Rsqr. replace (1 - 0 * 0) with 1 by ring. rewrite sqrt_1. field. }
    assert (U := is_derive_unique _ _ _ Hd2). assert (V := is_derive_unique _ _ _ Hd).
    change (fun x : R => acos x) with acos in V. rewrite U in V. lra.
Qed.
Print Assumptions C27_acos_refuted.

(** A concrete instance: the second derivative of the square root at 4. *)
Example C27_example : exists c, sqrt_expand (K := ROps) 4 = Some c /\ c 2%nat = -1 / 64.
Proof.
  unfold sqrt_expand. ops. rewrite (proj2 (Rltb_true 0 4)) by lra. eexists. split; [reflexivity|].
  cbn [sqrt_coef]. ops. replace 4 with (2 * 2) at 1 by ring. rewrite sqrt_square by lra. cbn. field.
Qed.
