(** * The expansion routines of tmath.hpp produce Taylor coefficients *)
From Coq Require Import Reals QArith Qreals Arith Lia Lra ZArith List.
From Coquelicot Require Import Coquelicot.
From Verif Require Import Scalar SpecApi ApiProofs2 RInst CTaylor CtAlg TMath Fps TFam.
Import ListNotations.
Local Open Scope R_scope.

(** [expands D N f e]: on D (and only there) the routine [e] returns coefficients, and
    its first N+1 coefficients are values of a Taylor family of f. *)
Definition expands (D : R -> Prop) (N : nat) (f : R -> R) (e : R -> option (nat -> R)) : Prop :=
  open D /\
  exists t, is_fam D N t /\ (forall x, D x -> t O x = f x) /\
    (forall a, D a -> exists c, e a = Some c /\ forall k, (k <= N)%nat -> c k = t k a) /\
    (forall a c, e a = Some c -> D a).

Theorem expands_derive_n D N f e : expands D N f e ->
  (forall a, D a <-> exists c, e a = Some c) /\
  forall a c k, e a = Some c -> (k <= N)%nat -> is_derive_n f k a (INR (fact k) * c k).
Proof.
  intros (O & t & F & E0 & E & Ed). split.
  - intro a. split; [intro H; destruct (E a H) as (c & Hc & _); eauto|intros [c H]; exact (Ed a c H)].
  - intros a c k H Hk. assert (Da := Ed a c H). destruct (E a Da) as (c' & H' & K).
    rewrite H in H'. injection H' as <-. rewrite K by exact Hk.
    apply is_derive_n_ext_loc with (t 0%nat).
    + apply filter_imp with D; [exact E0|apply O; exact Da].
    + apply (fam_derive_n D N t O F); assumption.
Qed.

Ltac ops := cbn [Oadd Osub Omul Odiv Oopp OofQ Oltb Oeqb Oexp Olog Opow Osqrt Ocbrt Oatan Oerf Osin Ocos Oasinh Osinh Opi ROps T];
  unfold Oof_nat, OofZ; cbn [OofQ ROps]; rewrite ?Q2R_0, ?Q2R_1, ?Q2R_Z;
  try (match goal with |- @eq _ ?a ?b => change (@eq R a b) end).

Lemma IZR_INR n : IZR (Z.of_nat n) = INR n.
Proof. symmetry. apply INR_IZR_INZ. Qed.
Lemma INR_pos n : 0 < INR (S n).
Proof. apply lt_0_INR. lia. Qed.
Lemma INR_nz n : INR (S n) <> 0.
Proof. pose proof (INR_pos n). lra. Qed.
#[local] Hint Resolve INR_nz : core.

(** ** 1/x *)
Lemma inv_S (x : R) j : inv_coef (K := ROps) x (S j) = - inv_coef (K := ROps) x j * (1 / x).
Proof. cbn [inv_coef]. ops. reflexivity. Qed.
Lemma inv_fam N : is_fam (fun x => x <> 0) N (fun k x => inv_coef (K := ROps) x k).
Proof.
  intros k x _ Hx. induction k.
  - apply d_ext with (fun y => / y); [intro y; cbn; ops; unfold Rdiv; ring|].
    eapply is_derive_val; [apply (d_inv (fun y => y) x 1 (d_id x) Hx)|]. cbn. ops. field. exact Hx.
  - apply d_ext with (fun y => (- inv_coef (K := ROps) y k) * / y).
    { intro y. rewrite inv_S. unfold Rdiv. ring. }
    eapply is_derive_val.
    + apply d_mult; [apply d_opp; exact IHk|apply (d_inv (fun y => y) x 1 (d_id x) Hx)].
    + rewrite !inv_S, (S_INR (S k)). field. exact Hx.
Qed.
Theorem inv_expands N : expands (fun x => x <> 0) N Rinv (inv_expand (K := ROps)).
Proof.
  split; [exact open_nz|]. exists (fun k x => inv_coef (K := ROps) x k). split; [apply inv_fam|]. split.
  - intros x _. cbn. ops. unfold Rdiv. ring.
  - unfold inv_expand. ops. split.
    + intros a Ha. destruct (Reqb a 0) eqn:E; [apply Reqb_true in E; contradiction|]. eauto.
    + intros a c. destruct (Reqb a 0) eqn:E; [discriminate|]. intros _. now apply Reqb_false in E.
Qed.

(** ** exp *)
Lemma ifac_fact k : ifac (K := ROps) k = INR (fact k).
Proof.
  induction k; [cbn; ops; reflexivity|]. cbn [ifac]. ops. rewrite IHk, fact_simpl, mult_INR, IZR_INR. cbn. ring.
Qed.
Lemma exp_coef (x : R) k : exp_expand (K := ROps) x k = exp x / INR (fact k).
Proof.
  destruct k; cbn [exp_expand]; [ops; cbn; field|]. ops. now rewrite ifac_fact.
Qed.
Lemma d_exp x : is_derive exp x (exp x).
Proof. apply is_derive_exp. Qed.
Lemma exp_fam N : is_fam (fun _ => True) N (fun k x => exp_expand (K := ROps) x k).
Proof.
  intros k x _ _. apply d_ext with (fun y => / INR (fact k) * exp y); [intro; rewrite exp_coef; unfold Rdiv; ring|].
  eapply is_derive_val; [apply d_scal, d_exp|]. rewrite exp_coef, fact_simpl, mult_INR.
  field. split; [apply INR_fact_neq_0|apply INR_nz].
Qed.
Theorem exp_expands N : expands (fun _ => True) N exp (fun a => Some (exp_expand (K := ROps) a)).
Proof.
  split; [exact open_true|]. exists (fun k x => exp_expand (K := ROps) x k). split; [apply exp_fam|]. split.
  - reflexivity.
  - split; [eauto|auto].
Qed.

(** ** log *)
Lemma xn_pow_pow (x : R) k : xn_pow (K := ROps) x k = x ^ k.
Proof.
  induction k as [|[|k] IH]; [cbn; ops; reflexivity|cbn; ops; ring|].
  change (xn_pow (K := ROps) x (S (S k))) with (xn_pow (K := ROps) x (S k) * x). rewrite IH. cbn. ring.
Qed.
Lemma odd_sign k : IZR (2 * Z.b2z (Nat.odd (S k)) - 1) = (-1) ^ k.
Proof.
  induction k; [cbn; ring|]. rewrite Nat.odd_succ, <- Nat.negb_odd. cbn [pow]. rewrite <- IHk.
  destruct (Nat.odd (S k)); cbn; ring.
Qed.
Definition log_t (k : nat) (x : R) : R :=
  match k with O => ln x | S j => (/ x) ^ (S j) / INR (S j) * (-1) ^ j end.
Lemma d_invpow (x : R) k : x <> 0 -> is_derive (fun y => (/ y) ^ k) x (- INR k * (/ x) ^ (S k)).
Proof.
  intro Hx. induction k.
  - cbn [pow]. eapply is_derive_val; [apply d_const|]. cbn. ring.
  - cbn [pow]. eapply is_derive_val.
    + apply d_mult; [apply (d_inv (fun y => y) x 1 (d_id x) Hx)|exact IHk].
    + rewrite S_INR. cbn [pow]. field. exact Hx.
Qed.
Lemma log_fam N : is_fam (fun x => 0 < x) N log_t.
Proof.
  intros [|k] x _ Hx; cbn [log_t].
  - eapply is_derive_val; [apply is_derive_ln; exact Hx|]. cbn. field. lra.
  - apply d_ext with (fun y => / INR (S k) * (-1) ^ k * (/ y) ^ S k).
    { intro y. unfold log_t, Rdiv. generalize ((/ y) ^ S k) ((-1) ^ k) (/ INR (S k)). intros; ring. }
    eapply is_derive_val; [apply d_scal, d_invpow; lra|]. cbn [pow]. rewrite (S_INR (S k)). field.
    rewrite <- (S_INR (S k)). repeat split; try lra; auto.
Qed.
Theorem log_expands N : expands (fun x => 0 < x) N ln (log_expand (K := ROps)).
Proof.
  split; [exact open_pos|]. exists log_t. split; [apply log_fam|]. split; [reflexivity|].
  unfold log_expand. ops. split.
  - intros a Ha. rewrite (proj2 (Rltb_true 0 a) Ha). eexists. split; [reflexivity|].
    intros [|k] _; [reflexivity|]. cbn beta iota. unfold log_t. ops.
    rewrite xn_pow_pow, odd_sign, IZR_INR. unfold Rdiv. rewrite Rmult_1_l. reflexivity.
  - intros a c. destruct (Rltb 0 a) eqn:E; [|discriminate]. intros _. now apply Rltb_true in E.
Qed.

(** ** pow *)
Lemma pow_S (x a : R) j : pow_coef (K := ROps) x a (S j) = pow_coef (K := ROps) x a j * (1 / x) * (a - INR j) / INR (S j).
Proof.
  cbn [pow_coef]. ops. rewrite IZR_INR. f_equal. f_equal. rewrite S_INR. ring.
Qed.
Lemma d_powR x a : 0 < x -> is_derive (fun y => powR y a) x (a * powR x (a - 1)).
Proof.
  intro Hx. rewrite powR_pos by exact Hx.
  apply is_derive_ext_loc with (fun y => Rpower y a).
  - apply filter_imp with (fun y => 0 < y); [intros y Hy; now rewrite powR_pos|]. now apply open_pos.
  - apply is_derive_Reals. apply derivable_pt_lim_power. exact Hx.
Qed.
Lemma powR_pred x a : 0 < x -> powR x (a - 1) = powR x a * / x.
Proof.
  intro Hx. rewrite !powR_pos by exact Hx. unfold Rminus. rewrite Rpower_plus.
  rewrite <- (Rpower_1 x) at 4 by exact Hx. now rewrite Rpower_Ropp.
Qed.
Lemma pow_fam (a : R) N : is_fam (fun x => 0 < x) N (fun k x => pow_coef (K := ROps) x a k).
Proof.
  intros k x _ Hx. induction k.
  - eapply is_derive_val; [exact (d_powR x a Hx)|]. rewrite pow_S, powR_pred by exact Hx. cbn. field. lra.
  - apply d_ext with (fun y => (pow_coef (K := ROps) y a k * / y) * ((a - INR k) / INR (S k))).
    { intro y. rewrite pow_S. unfold Rdiv. ring. }
    eapply is_derive_val.
    + apply d_mult; [apply d_mult; [exact IHk|apply (d_inv (fun y => y) x 1 (d_id x)); lra]|apply d_const].
    + rewrite !pow_S, !S_INR. field. rewrite <- !S_INR. repeat split; auto; lra.
Qed.
Theorem pow_expands (a : R) N : expands (fun x => 0 < x) N (fun x => powR x a) (fun x => pow_expand (K := ROps) x a).
Proof.
  split; [exact open_pos|]. exists (fun k x => pow_coef (K := ROps) x a k). split; [apply pow_fam|]. split; [reflexivity|].
  unfold pow_expand. ops. split.
  - intros x Hx. rewrite (proj2 (Rltb_true 0 x) Hx). eauto.
  - intros x c. destruct (Rltb 0 x) eqn:E; [|discriminate]. intros _. now apply Rltb_true in E.
Qed.

(** ** sqrt, cbrt *)
Lemma sqrt_coef_pow (x : R) k : 0 < x -> sqrt_coef (K := ROps) x k = pow_coef (K := ROps) x (/ 2) k.
Proof.
  intro Hx. induction k.
  - cbn. rewrite powR_pos by exact Hx. symmetry. apply Rpower_sqrt. exact Hx.
  - rewrite pow_S, <- IHk. cbn [sqrt_coef]. ops.
    replace (IZR (2 * Z.of_nat (S k))) with (2 * INR (S k)) by (rewrite mult_IZR, IZR_INR; reflexivity).
    rewrite S_INR. field. rewrite <- S_INR. repeat split; first [apply INR_nz|lra].
Qed.
Theorem sqrt_expands N : expands (fun x => 0 < x) N sqrt (sqrt_expand (K := ROps)).
Proof.
  split; [exact open_pos|]. exists (fun k x => pow_coef (K := ROps) x (/ 2) k). split; [apply pow_fam|]. split.
  - intros x Hx. now rewrite <- sqrt_coef_pow.
  - unfold sqrt_expand. ops. split.
    + intros x Hx. rewrite (proj2 (Rltb_true 0 x) Hx). eexists. split; [reflexivity|].
      intros; now apply sqrt_coef_pow.
    + intros x c. destruct (Rltb 0 x) eqn:E; [|discriminate]. intros _. now apply Rltb_true in E.
Qed.
Lemma cbrt_coef_pow (x : R) k : 0 < x -> cbrt_coef (K := ROps) x k = pow_coef (K := ROps) x (1 / 3) k.
Proof.
  intro Hx. induction k.
  - cbn. rewrite powR_pos, cbrtR_pos by exact Hx. reflexivity.
  - rewrite pow_S, <- IHk. cbn [cbrt_coef]. ops.
    replace (IZR (3 * Z.of_nat (S k))) with (3 * INR (S k)) by (rewrite mult_IZR, IZR_INR; reflexivity).
    rewrite S_INR. field. rewrite <- S_INR. repeat split; first [apply INR_nz|lra].
Qed.
Theorem cbrt_expands N : expands (fun x => 0 < x) N cbrtR (cbrt_expand (K := ROps)).
Proof.
  split; [exact open_pos|]. exists (fun k x => pow_coef (K := ROps) x (1 / 3) k). split; [apply pow_fam|]. split.
  - intros x Hx. now rewrite <- cbrt_coef_pow.
  - unfold cbrt_expand. ops. split.
    + intros x Hx. rewrite (proj2 (Rltb_true 0 x) Hx). eexists. split; [reflexivity|].
      intros; now apply cbrt_coef_pow.
    + intros x c. destruct (Rltb 0 x) eqn:E; [|discriminate]. intros _. now apply Rltb_true in E.
Qed.

(** ** atan, asinh: composition with a quadratic, then integration *)
Definition quadR (q0 q1 q2 : R) : nat -> R := fun i => match i with O => q0 | 1%nat => q1 | 2%nat => q2 | _ => 0 end.
Lemma quad_R (q0 q1 q2 : R) k : quad (K := ROps) q0 q1 q2 k = quadR q0 q1 q2 k.
Proof. destruct k as [|[|[|k]]]; try reflexivity. cbn. ops. reflexivity. Qed.

(** the quadratic s + x^2 (s = 1) or s - x^2 as a family *)
Lemma quad_fam sg N : is_fam (fun _ => True) N (fun k x => quadR (1 + sg * (x * x)) (2 * sg * x) sg k).
Proof.
  intros k x _ _. destruct k as [|[|[|k]]]; cbn [quadR].
  - eapply is_derive_val.
    + apply d_plus; [apply d_const|apply d_scal; apply d_mult; apply d_id].
    + cbn. ring.
  - eapply is_derive_val; [apply d_scal, d_id|]. cbn. ring.
  - eapply is_derive_val; [apply d_const|]. ring.
  - eapply is_derive_val; [apply d_const|]. ring.
Qed.

Lemma compval_ext f f' x x' k : (k <= 6)%nat -> (forall i, (i <= k)%nat -> f i = f' i) ->
  (forall i, (1 <= i <= k)%nat -> x i = x' i) -> compval f x k = compval f' x' k.
Proof.
  intros Hk F X.
  destruct k as [|[|[|[|[|[|[|k]]]]]]]; [| | | | | | |lia]; cbn [compval];
    rewrite ?F, ?X by lia; reflexivity.
Qed.

Lemma one_sq x : 1 + x * x <> 0.
Proof. pose proof (Rle_0_sqr x) as H. unfold Rsqr in H. lra. Qed.
Lemma one_sq_pos x : 0 < 1 + x * x.
Proof. pose proof (Rle_0_sqr x) as H. unfold Rsqr in H. lra. Qed.

Definition inner_t (f : nat -> R -> R) (k : nat) (x : R) : R :=
  compval (fun j => f j (1 + x * x)) (quadR (1 + 1 * (x * x)) (2 * 1 * x) 1) k.
Lemma inner_fam (E : R -> Prop) f N : (N <= 6)%nat -> is_fam E N f -> (forall x, E (1 + x * x)) ->
  is_fam (fun _ => True) N (inner_t f).
Proof.
  intros HN Hf HE.
  eapply fam_ext; [exact open_true| |
    apply (fam_compval (fun _ => True) E N f (fun k x => quadR (1 + 1 * (x * x)) (2 * 1 * x) 1 k) HN Hf (quad_fam 1 N))].
  - intros k x Hk _. unfold inner_t. apply compval_ext; [lia| |reflexivity].
    intros i Hi. f_equal. cbn [quadR]. ring.
  - intros x _. cbn [quadR]. replace (1 + 1 * (x * x)) with (1 + x * x) by ring. apply HE.
Qed.

Lemma int_coef (t : nat -> R) v k : set0 (K := ROps) (tintegrate (K := ROps) t) v k
  = match k with O => v | S j => t j / INR (S j) end.
Proof.
  destruct k; [reflexivity|]. cbn [set0 tintegrate]. ops. now rewrite IZR_INR.
Qed.

Lemma d_atan x : is_derive atan x (/ (1 + x * x)).
Proof. apply is_derive_Reals. pose proof (derivable_pt_lim_atan x) as H. replace (1 + x * x) with (1 + x ^ 2) by ring. exact H. Qed.

Theorem atan_expands N : (N <= 6)%nat -> expands (fun _ => True) N atan (atan_expand (K := ROps) N).
Proof.
  intro HN. split; [exact open_true|].
  pose (f := fun (k : nat) (x : R) => inv_coef (K := ROps) x k).
  exists (fun k x => match k with O => atan x | S j => inner_t f j x / INR (S j) end).
  split; [|split; [reflexivity|split; [|auto]]].
  - apply fam_le with (S N); [lia|]. apply fam_int.
    + apply inner_fam with (fun x => x <> 0); [exact HN|apply inv_fam|apply one_sq].
    + intros x _. eapply is_derive_val; [apply d_atan|]. unfold inner_t, f. cbn. ops. field. apply one_sq.
  - intros a _. unfold atan_expand, inv_expand. ops.
    destruct (Reqb (1 + a * a) 0) eqn:E; [apply Reqb_true in E; now apply one_sq in E|]. cbn [obnd].
    destruct (tcompose_compval N (inv_coef (K := ROps) (1 + a * a)) (quad (K := ROps) 0 (2 * a) 1) HN) as (t & -> & Ht).
    cbn [obnd]. eexists. split; [reflexivity|]. intros k Hk. rewrite int_coef.
    destruct k; [reflexivity|]. f_equal. rewrite Ht by lia. unfold inner_t, f.
    apply compval_ext; [lia|reflexivity|]. intros i Hi. rewrite quad_R. destruct i as [|[|[|i]]]; cbn [quadR]; try lia; try ring.
Qed.

Lemma d_asinh x : is_derive arcsinh x (/ sqrt (x ^ 2 + 1)).
Proof. apply is_derive_Reals. apply derivable_pt_lim_arcsinh. Qed.
Theorem asinh_expands N : (N <= 6)%nat -> expands (fun _ => True) N arcsinh (asinh_expand (K := ROps) N).
Proof.
  intro HN. split; [exact open_true|].
  pose (al := - Q2R 0.5).
  assert (Hal : al = - / 2) by (unfold al, Q2R; cbn; lra).
  pose (f := fun (k : nat) (x : R) => pow_coef (K := ROps) x al k).
  exists (fun k x => match k with O => arcsinh x | S j => inner_t f j x / INR (S j) end).
  split; [|split; [reflexivity|split; [|auto]]].
  - apply fam_le with (S N); [lia|]. apply fam_int.
    + apply inner_fam with (fun x => 0 < x); [exact HN|apply pow_fam|apply one_sq_pos].
    + intros x _. eapply is_derive_val; [apply d_asinh|]. unfold inner_t, f. cbn. rewrite powR_pos by apply one_sq_pos.
      rewrite Hal, Rpower_Ropp, Rpower_sqrt by apply one_sq_pos. do 2 f_equal. ring.
  - intros a _. unfold asinh_expand, pow_expand. ops. fold al.
    rewrite (proj2 (Rltb_true 0 (1 + a * a)) (one_sq_pos a)). cbn [obnd].
    destruct (tcompose_compval N (pow_coef (K := ROps) (1 + a * a) al) (quad (K := ROps) (1 + a * a) (2 * a) 1) HN) as (t & -> & Ht).
    cbn [obnd]. eexists. split; [reflexivity|]. intros k Hk. rewrite int_coef.
    destruct k; [reflexivity|]. f_equal. rewrite Ht by lia. unfold inner_t, f.
    apply compval_ext; [lia|reflexivity|]. intros i Hi. rewrite quad_R. destruct i as [|[|[|i]]]; cbn [quadR]; try lia; try ring.
Qed.

(** ** sin, cos *)
Lemma sin_fac_S k : sin_fac (K := ROps) (S k) = (if Nat.even k then 1 else -1) * sin_fac (K := ROps) k / INR (S k).
Proof.
  cbn [sin_fac]. destruct (Nat.even k); ops; rewrite ?opp_IZR, IZR_INR; field; apply INR_nz.
Qed.
Lemma cos_fac_S k : cos_fac (K := ROps) (S k) = (if Nat.even k then -1 else 1) * cos_fac (K := ROps) k / INR (S k).
Proof.
  cbn [cos_fac]. destruct (Nat.even k); ops; rewrite ?opp_IZR, IZR_INR; field; apply INR_nz.
Qed.
Lemma d_sin x : is_derive sin x (cos x). Proof. apply is_derive_sin. Qed.
Lemma d_cos x : is_derive cos x (- sin x). Proof. apply is_derive_cos. Qed.
Theorem sin_expands N : expands (fun _ => True) N sin (fun a => Some (sin_expand (K := ROps) N a)).
Proof.
  split; [exact open_true|].
  exists (fun k x => if Nat.even k then sin_fac (K := ROps) k * sin x else sin_fac (K := ROps) k * cos x).
  split; [|split; [|split; [|auto]]].
  - intros k x _ _. rewrite sin_fac_S, Nat.even_succ, <- Nat.negb_even. destruct (Nat.even k); cbn [negb].
    + eapply is_derive_val; [apply d_scal, d_sin|]. field. apply INR_nz.
    + eapply is_derive_val; [apply d_scal, d_cos|]. field. apply INR_nz.
  - intros x _. cbn. ops. ring.
  - intros a _. eexists. split; [reflexivity|]. intros k Hk. unfold sin_expand. destruct N; [|reflexivity].
    assert (k = 0%nat) as -> by lia. cbn. ops. ring.
Qed.
Theorem cos_expands N : expands (fun _ => True) N cos (fun a => Some (cos_expand (K := ROps) N a)).
Proof.
  split; [exact open_true|].
  exists (fun k x => if Nat.even k then cos_fac (K := ROps) k * cos x else cos_fac (K := ROps) k * sin x).
  split; [|split; [|split; [|auto]]].
  - intros k x _ _. rewrite cos_fac_S, Nat.even_succ, <- Nat.negb_even. destruct (Nat.even k); cbn [negb].
    + eapply is_derive_val; [apply d_scal, d_cos|]. field. apply INR_nz.
    + eapply is_derive_val; [apply d_scal, d_sin|]. field. apply INR_nz.
  - intros x _. cbn. ops. ring.
  - intros a _. eexists. split; [reflexivity|]. intros k Hk. unfold cos_expand. destruct N; [|reflexivity].
    assert (k = 0%nat) as -> by lia. cbn. ops. ring.
Qed.

(** ** Gaussian and error function *)
Lemma an_pow_pow (a : R) k : an_pow (K := ROps) a k = a ^ k.
Proof.
  induction k as [|[|k] IH]; [cbn; ops; reflexivity|cbn; ops; ring|].
  change (an_pow (K := ROps) a (S (S k))) with (an_pow (K := ROps) a (S k) * a). rewrite IH. cbn. ring.
Qed.
Definition gE (a : R) (k : nat) : R := exp (- (a * a)) / INR (fact k) * (-2 * a) ^ k.
Lemma gE_spec (a : R) k : tstretch (K := ROps) (exp_expand (K := ROps) (- a * a)) (- (2) * a) k = gE a k.
Proof.
  unfold gE. replace (- (a * a)) with (- a * a) by ring. destruct k; cbn [tstretch].
  - rewrite exp_coef. cbn. ring.
  - ops. rewrite exp_coef, an_pow_pow. try reflexivity; do 2 f_equal; ring.
Qed.
Lemma gE_D (a : R) k : seqD (gE a) k = -2 * a * gE a k.
Proof.
  unfold seqD, gE. rewrite fact_simpl, mult_INR. cbn [pow]. field. split; [apply INR_fact_neq_0|apply INR_nz].
Qed.
Lemma gauss_g_SS k : INR (S (S k)) * gauss_g (K := ROps) (S (S k)) = -2 * gauss_g (K := ROps) k.
Proof.
  unfold gauss_g. replace (Nat.even (S (S k))) with (Nat.even k) by reflexivity.
  destruct (Nat.even k) eqn:E; [|ops; ring].
  replace (Nat.div2 (S (S k))) with (S (Nat.div2 k)) by reflexivity. cbn [gauss_even]. ops. rewrite IZR_INR.
  apply Nat.even_spec in E. destruct E as [m ->]. rewrite Nat.div2_double.
  replace (INR (S (S (2 * m)))) with (2 * INR (S m)) by (rewrite !S_INR, mult_INR; cbn; ring).
  field. apply INR_nz.
Qed.
Definition gshift (c : nat -> R) (k : nat) : R := match k with O => 0 | S j => c j end.
Lemma gauss_g_D k : seqD (gauss_g (K := ROps)) k = -2 * gshift (gauss_g (K := ROps)) k.
Proof.
  destruct k; unfold seqD.
  - unfold gauss_g. cbn. ops. ring.
  - exact (gauss_g_SS k).
Qed.
Lemma cau_gshift_r c d k : cau c (gshift d) k = gshift (cau c d) k.
Proof.
  revert c. induction k; intro c; [cbn; ring|]. cbn [cau gshift]. rewrite IHk. destruct k; cbn [gshift cau]; ring.
Qed.
Definition gauss_t (k : nat) (a : R) : R := cau (gE a) (gauss_g (K := ROps)) k.
Lemma gauss_coef (a : R) k : gauss_expand (K := ROps) a k = gauss_t k a.
Proof.
  unfold gauss_expand, gauss_t. rewrite tmulto_cau, cau_comm. ops.
  apply cau_ext; intros; [|reflexivity]. apply (gE_spec a).
Qed.
Lemma gauss_rec k a : INR (S k) * gauss_t (S k) a = -2 * a * gauss_t k a - 2 * gshift (fun j => gauss_t j a) k.
Proof.
  change (INR (S k) * gauss_t (S k) a) with (seqD (cau (gE a) (gauss_g (K := ROps))) k). rewrite cau_D.
  rewrite (cau_ext (seqD (gE a)) (fun i => -2 * a * gE a i) (gauss_g (K := ROps)) (gauss_g (K := ROps)))
    by (intros; try reflexivity; apply gE_D). rewrite cau_scal_l.
  rewrite (cau_ext (gE a) (gE a) (seqD (gauss_g (K := ROps))) (fun i => -2 * gshift (gauss_g (K := ROps)) i))
    by (intros; try reflexivity; apply gauss_g_D). rewrite cau_scal_r, cau_gshift_r.
  unfold gauss_t. destruct k; cbn [gshift]; ring.
Qed.
Lemma gauss_fam N : is_fam (fun _ => True) N gauss_t.
Proof.
  assert (G : forall k x, is_derive (gauss_t k) x (INR (S k) * gauss_t (S k) x) /\
                          is_derive (gauss_t (S k)) x (INR (S (S k)) * gauss_t (S (S k)) x)).
  { assert (G0 : forall x, is_derive (gauss_t 0) x (INR 1 * gauss_t 1 x)).
    { intro x. apply d_ext with (fun y => exp (- (y * y))).
      { intro y. unfold gauss_t, gE, gauss_g. cbn. ops. field. }
      eapply is_derive_val.
      - apply (d_comp exp (fun y => - (y * y))); [apply d_exp|apply d_opp, d_mult; apply d_id].
      - rewrite gauss_rec. unfold gauss_t, gE, gauss_g. cbn. ops. field. }
    assert (St : forall k, (forall x, is_derive (gauss_t k) x (INR (S k) * gauss_t (S k) x)) ->
                 (forall x, is_derive (fun y => gshift (fun j => gauss_t j y) k) x (INR k * gauss_t k x)) ->
                 forall x, is_derive (gauss_t (S k)) x (INR (S (S k)) * gauss_t (S (S k)) x)).
    { intros k H H' x.
      apply d_ext with (fun y => / INR (S k) * ((-2 * y) * gauss_t k y - 2 * gshift (fun j => gauss_t j y) k)).
      { intro y. rewrite <- gauss_rec. field. apply INR_nz. }
      eapply is_derive_val.
      - apply d_scal, d_minus; [apply d_mult; [apply d_scal, d_id|apply H]|apply d_scal, H'].
      - rewrite (gauss_rec (S k)). cbn [gshift]. rewrite S_INR. field. rewrite <- S_INR. apply INR_nz. }
    induction k; intro x.
    - split; [apply G0|]. apply St; [exact G0|]. intro y. cbn [gshift]. eapply is_derive_val; [apply d_const|]. cbn. ring.
    - split; [apply IHk|]. apply St; [apply IHk|]. intro y. cbn [gshift]. apply IHk. }
  intros k x _ _. apply G.
Qed.

Lemma d_erf x : is_derive erfR x (2 / sqrt PI * exp (- (x * x))).
Proof.
  unfold erfR. apply d_scal.
  assert (C : forall y, continuous (fun t => exp (- (t * t))) y).
  { intro y. apply (ex_derive_continuous (fun t => exp (- (t * t)))). eexists.
    apply (d_comp exp (fun y => - (y * y))); [apply d_exp|apply d_opp, d_mult; apply d_id]. }
  apply (is_derive_RInt (fun t => exp (- (t * t))) (fun x => RInt (fun t => exp (- (t * t))) 0 x) 0 x); [|apply C].
  apply filter_forall. intro y. apply (RInt_correct (V := R_CompleteNormedModule)). apply (ex_RInt_continuous (V := R_CompleteNormedModule)).
  intros z _. apply C.
Qed.

Theorem gauss_expands N : expands (fun _ => True) N (fun x => exp (- (x * x))) (fun a => Some (gauss_expand (K := ROps) a)).
Proof.
  split; [exact open_true|]. exists gauss_t. split; [apply gauss_fam|]. split; [|split; [|auto]].
  - intros x _. unfold gauss_t, gE, gauss_g. cbn. ops. field.
  - intros a _. eexists. split; [reflexivity|]. intros. apply gauss_coef.
Qed.
Theorem erf_expands N : expands (fun _ => True) N erfR (fun a => Some (erf_expand (K := ROps) a)).
Proof.
  split; [exact open_true|].
  exists (fun k x => match k with O => erfR x | S j => (2 / sqrt PI * gauss_t j x) / INR (S j) end).
  split; [|split; [reflexivity|split; [|auto]]].
  - apply fam_le with (S N); [lia|]. apply (fam_int _ N (fun k x => 2 / sqrt PI * gauss_t k x)).
    + apply fam_scal, gauss_fam.
    + intros x _. eapply is_derive_val; [apply d_erf|]. unfold gauss_t, gE, gauss_g. cbn. ops. field.
      apply Rgt_not_eq, sqrt_lt_R0, PI_RGT_0.
  - intros a _. eexists. split; [reflexivity|]. intros k _. unfold erf_expand. rewrite int_coef.
    destruct k; [reflexivity|]. f_equal. ops. rewrite gauss_coef. ring.
Qed.

(** ** tfuns::shift (for every degree) *)
Lemma binom_up m n : (n <= m)%nat -> ((S m - n) * binom (S m) n = S m * binom m n)%nat.
Proof.
  intro H. destruct n as [|k].
  - rewrite !binom_0_r. lia.
  - pose proof (binom_absorb m k) as A. change (binom (S m) (S k)) with (binom m k + binom m (S k))%nat in *. nia.
Qed.
Lemma binom_side i n : (n < i)%nat -> (binom i n * (i - n) = S n * binom i (S n))%nat.
Proof.
  intro H. destruct i as [|j]; [lia|]. rewrite binom_absorb, <- binom_up by lia. lia.
Qed.

(** sum over i = m .. m+todo of C(i,n) d^(i-n) c_i *)
Fixpoint ssum (n : nat) (d : R) (c : nat -> R) (todo m : nat) : R :=
  INR (binom m n) * d ^ (m - n) * c m +
  match todo with O => 0 | S todo' => ssum n d c todo' (S m) end.

Lemma dpow_pow (d : R) i : dpow (K := ROps) d i = d ^ i.
Proof. induction i; cbn [dpow]; ops; [reflexivity|]. cbn [pow]. now rewrite <- IHi. Qed.

Lemma shift_loop_ssum (d : R) (c : nat -> R) n : forall todo m fac acc,
  (n <= m)%nat -> fac = Z.of_nat (binom m n) ->
  shift_loop (K := ROps) (m + todo) n d c todo m fac acc = acc + ssum n d c todo m.
Proof.
  induction todo; intros m fac acc Hm ->; cbn [shift_loop ssum]; ops.
  - rewrite dpow_pow, IZR_INR, Nat.add_0_r. ring.
  - replace (m + S todo)%nat with (S m + todo)%nat by lia. rewrite IHtodo.
    + rewrite dpow_pow, IZR_INR. ring.
    + lia.
    + replace (Z.of_nat m - Z.of_nat n + 1)%Z with (Z.of_nat (S m - n)) by lia.
      replace (Z.of_nat m + 1)%Z with (Z.of_nat (S m)) by lia.
      rewrite <- Nat2Z.inj_mul, Nat.mul_comm, <- binom_up, Nat.mul_comm, Nat2Z.inj_mul by lia.
      apply Z.quot_mul. lia.
Qed.

Lemma binom_diag n : binom n n = 1%nat.
Proof. induction n; [reflexivity|]. cbn [binom]. rewrite IHn, binom_gt by lia. lia. Qed.

Lemma tshift_ssum N (c : nat -> R) (d : R) n : (n <= N)%nat ->
  tshift (K := ROps) N c d n = ssum n d c (N - n) n.
Proof.
  intro H. unfold tshift. destruct (Nat.ltb_spec n N) as [L|L].
  - replace N with (S n + (N - 1 - n))%nat at 1 by lia.
    rewrite shift_loop_ssum; [|lia|].
    + replace (N - n)%nat with (S (N - 1 - n)) by lia. cbn [ssum].
      rewrite binom_diag, Nat.sub_diag. cbn. ring.
    + pose proof (binom_absorb n 0) as A. pose proof (binom_up n n (Nat.le_refl n)) as B. rewrite binom_diag in B. lia.
  - assert (n = N) as -> by lia. rewrite Nat.sub_diag. cbn [ssum]. rewrite binom_diag, Nat.sub_diag. cbn. ring.
Qed.

Lemma d_pow (x : R) k : is_derive (fun y => y ^ k) x (INR k * x ^ (pred k)).
Proof. apply is_derive_Reals. apply derivable_pt_lim_pow. Qed.

Lemma d_ssum n c x : forall todo m, (n < m)%nat ->
  is_derive (fun y => ssum n y c todo m) x (INR (S n) * ssum (S n) x c todo m).
Proof.
  induction todo; intros m Hm; cbn [ssum].
  - eapply is_derive_val.
    + apply d_plus; [|apply d_const]. apply d_mult; [|apply d_const]. apply d_scal. apply d_pow.
    + rewrite !Rplus_0_r, Rmult_0_r, Rplus_0_r, <- !Rmult_assoc. f_equal.
      replace (pred (m - n)) with (m - S n)%nat by lia. f_equal.
      rewrite <- !mult_INR. f_equal. apply binom_side. exact Hm.
  - eapply is_derive_val.
    + apply d_plus; [|apply IHtodo; lia]. apply d_mult; [|apply d_const]. apply d_scal. apply d_pow.
    + rewrite Rmult_0_r, Rplus_0_r, Rmult_plus_distr_l. f_equal. rewrite <- !Rmult_assoc. f_equal.
      replace (pred (m - n)) with (m - S n)%nat by lia. f_equal.
      rewrite <- !mult_INR. f_equal. apply binom_side. exact Hm.
Qed.

Lemma shift_fam N (c : nat -> R) : is_fam (fun _ => True) N (fun k x => tshift (K := ROps) N c x k).
Proof.
  intros k x Hk _. rewrite tshift_ssum by lia.
  apply d_ext with (fun y => INR (binom k k) * y ^ (k - k) * c k + ssum k y c (N - S k) (S k)).
  { intro y. rewrite tshift_ssum by lia. replace (N - k)%nat with (S (N - S k)) by lia. reflexivity. }
  eapply is_derive_val.
  - apply d_plus; [|apply d_ssum; lia]. rewrite Nat.sub_diag. cbn [pow]. apply d_const.
  - ring.
Qed.

(** The polynomial with coefficients c_0 .. c_N. *)
Fixpoint peval_seq (N : nat) (c : nat -> R) (x : R) : R :=
  match N with O => c O | S M => peval_seq M c x + c N * x ^ N end.
Lemma ssum_last n d c todo : forall m, ssum n d c (S todo) m =
  ssum n d c todo m + INR (binom (m + S todo) n) * d ^ (m + S todo - n) * c (m + S todo)%nat.
Proof.
  induction todo; intro m.
  - cbn [ssum]. replace (m + 1)%nat with (S m) by lia. ring.
  - cbn [ssum] in *. rewrite IHtodo. replace (S m + S todo)%nat with (m + S (S todo))%nat by lia. ring.
Qed.
Lemma shift_poly N (c : nat -> R) (x : R) : tshift (K := ROps) N c x 0%nat = peval_seq N c x.
Proof.
  rewrite tshift_ssum by lia. rewrite Nat.sub_0_r. induction N.
  - cbn. ring.
  - rewrite ssum_last, IHN. cbn [peval_seq Nat.add]. rewrite binom_0_r, Nat.sub_0_r. cbn [INR]. rring.
Qed.

(** tfuns::shift replaces the coefficients of a polynomial by those of its Taylor
    expansion at x. *)
Theorem shift_expands N (c : nat -> R) :
  expands (fun _ => True) N (peval_seq N c) (fun x => Some (tshift (K := ROps) N c x)).
Proof.
  split; [exact open_true|]. exists (fun k x => tshift (K := ROps) N c x k). split; [apply shift_fam|]. split.
  - intros x _. apply shift_poly.
  - split; [eauto|auto].
Qed.

(** ** The rational function in sqrtx_asinh_sqrtx *)
Definition polyP : R -> R := peval_seq 8 (tab (K := ROps) padeP).
Definition polyQ : R -> R := peval_seq 8 (tab (K := ROps) padeQ).

Lemma open_polyQ : open (fun x => polyQ x <> 0).
Proof.
  intros x Hx. assert (C : continuous polyQ x).
  { apply (ex_derive_continuous polyQ). eexists.
    apply d_ext with (fun x => tshift (K := ROps) 8 (tab (K := ROps) padeQ) x 0%nat); [intro; apply shift_poly|].
    apply shift_fam; [lia|exact I]. }
  apply (C (fun y => y <> 0)). apply open_nz. exact Hx.
Qed.

Definition pade_t (k : nat) (x : R) : R :=
  cau (fun i => tshift (K := ROps) 8 (tab (K := ROps) padeP) x i)
      (fun i => compval (fun j => inv_coef (K := ROps) (tshift (K := ROps) 8 (tab (K := ROps) padeQ) x 0%nat) j)
                        (fun j => tshift (K := ROps) 8 (tab (K := ROps) padeQ) x j) i) k.

Theorem pade_expands N : (N <= 6)%nat ->
  expands (fun x => polyQ x <> 0) N (fun x => polyP x / polyQ x) (pade_expand (K := ROps) N).
Proof.
  intro HN. split; [exact open_polyQ|]. exists pade_t. split; [|split; [|split]].
  - apply fam_mul.
    + apply fam_le with 8%nat; [lia|]. apply fam_sub with (fun _ => True); [auto|]. apply shift_fam.
    + apply (fam_compval _ (fun x => x <> 0) N (fun k x => inv_coef (K := ROps) x k)
              (fun k x => tshift (K := ROps) 8 (tab (K := ROps) padeQ) x k) HN (inv_fam N)).
      * apply fam_le with 8%nat; [lia|]. apply fam_sub with (fun _ => True); [auto|]. apply shift_fam.
      * intros x Hx. rewrite shift_poly. exact Hx.
  - intros x Hx. unfold pade_t. cbn [cau compval inv_coef]. rewrite !shift_poly. ops. fold polyP polyQ. field. exact Hx.
  - intros a Ha. unfold pade_expand. rewrite (proj2 (Nat.ltb_lt N 9)) by lia.
    unfold inv_expand. ops. rewrite shift_poly. fold polyQ.
    destruct (Reqb (polyQ a) 0) eqn:E; [apply Reqb_true in E; contradiction|]. cbn [obnd].
    destruct (tcompose_compval N (inv_coef (K := ROps) (polyQ a)) (tshift (K := ROps) 8 (tab (K := ROps) padeQ) a) HN)
      as (t & -> & Ht). cbn [obnd]. eexists. split; [reflexivity|]. intros k Hk. rewrite tmulto_cau.
    unfold pade_t. rewrite shift_poly. fold polyQ. apply cau_ext; intros i Hi; [reflexivity|]. apply Ht. lia.
  - intros a c. unfold pade_expand. rewrite (proj2 (Nat.ltb_lt N 9)) by lia.
    unfold inv_expand. ops. rewrite shift_poly. fold polyQ.
    destruct (Reqb (polyQ a) 0) eqn:E; [discriminate|]. intros _. now apply Reqb_false in E.
Qed.
