(** * Property theorems: jumps of all Becke-Roussel energies are bounded by the accuracy of the hole potentials (C43) *)
From Coq Require Import Reals QArith Qreals ZArith Arith Lia Lra Psatz List Bool String.
From Coquelicot Require Import Coquelicot.
From Verif Require Import Scalar RInst Tables Api SpecApi ApiProofs ApiProofs2 CTaylor CtAlg TMath Br Expr Densvars Functionals
  Eval SpecEval EvalSem EvalProps Taint EvalExt Props_Eval Sem RSem EnergyR EvalR EvalReal EvalApi Phys Mk Props_Deriv.
From Verif Require Import BrReal BrInv PubBr Props_Br Cont Props_Cont4.
Import ListNotations.
Local Open Scope outcome_scope.
Local Open Scope R_scope.

Lemma ln1_range y : 0 <= y -> 0 <= ln (1 + y) <= y.
Proof.
  intro H. split.
  - destruct (Req_dec y 0) as [->|N]; [rewrite Rplus_0_r, ln_1; lra|]. rewrite <- ln_1. apply Rlt_le, ln_increasing; lra.
  - destruct (Rle_lt_dec (ln (1 + y)) y) as [L|L]; [exact L|]. exfalso. apply exp_increasing in L. rewrite exp_ln in L by lra. pose proof (exp_ineq1_le y). lra.
Qed.
Lemma bnd1 z : 0 < z -> Rabs (z ^ 2 * (1 - ln (1 + z) / z)) <= z ^ 2.
Proof.
  intro H. pose proof (ln1_range z ltac:(lra)) as L. replace (z ^ 2 * (1 - ln (1 + z) / z)) with (z * (z - ln (1 + z))) by (field; lra).
  rewrite Rabs_pos_eq by nra. nra.
Qed.
Lemma bnd2 z : 0 < z -> Rabs (z ^ 4 * (1 - 2 / z * ln (1 + z / 2))) <= z ^ 4.
Proof.
  intro H. pose proof (ln1_range (z / 2) ltac:(lra)) as L. replace (z ^ 4 * (1 - 2 / z * ln (1 + z / 2))) with (z ^ 3 * (z - 2 * ln (1 + z / 2))) by (field; lra).
  assert (P : 0 < z ^ 3) by now apply pow_lt. rewrite Rabs_pos_eq by nra. replace (z ^ 4) with (z ^ 3 * z) by ring. nra.
Qed.
(** How far apart two densities are in the quantities that multiply functions of the hole potentials. *)
Definition apart (D D' : dens) : R :=
  Rabs (rho (al D') - rho (al D)) + Rabs (rho (be D') - rho (be D)) + Rabs (rho (al D') * rho (be D') - rho (al D) * rho (be D)) +
  Rabs (rho (al D') * br_D (al D') - rho (al D) * br_D (al D)) + Rabs (rho (be D') * br_D (be D') - rho (be D) * br_D (be D)).
Definition size (P Q : R) : R := Rabs P + Rabs Q + (0.63 * (/ Rabs P + / Rabs Q)) ^ 2 + (2 * 0.88 * / Rabs P) ^ 4 + (2 * 0.88 * / Rabs Q) ^ 4.
Lemma energy_diff i D D' P Q : In i [10; 11; 12]%nat -> P <> 0 -> Q <> 0 -> Rabs (br_energy i D' P Q - br_energy i D P Q) <= apart D D' * size P Q.
Proof.
  intros Hi HP HQ. assert (Ip : 0 < / Rabs P) by (apply Rinv_0_lt_compat, Rabs_pos_lt, HP). assert (Iq : 0 < / Rabs Q) by (apply Rinv_0_lt_compat, Rabs_pos_lt, HQ).
  unfold apart, size. set (z1 := 0.63 * (/ Rabs P + / Rabs Q)). set (z2 := 2 * 0.88 * / Rabs P). set (z3 := 2 * 0.88 * / Rabs Q).
  assert (Z1 : 0 < z1) by (unfold z1; lra). assert (Z2 : 0 < z2) by (unfold z2; lra). assert (Z3 : 0 < z3) by (unfold z3; lra).
  pose proof (bnd1 z1 Z1) as B1. pose proof (bnd2 z2 Z2) as B2. pose proof (bnd2 z3 Z3) as B3.
  set (f1 := z1 ^ 2 * (1 - ln (1 + z1) / z1)) in *. set (f2 := z2 ^ 4 * (1 - 2 / z2 * ln (1 + z2 / 2))) in *. set (f3 := z3 ^ 4 * (1 - 2 / z3 * ln (1 + z3 / 2))) in *.
  set (a1 := rho (al D') - rho (al D)). set (a2 := rho (be D') - rho (be D)). set (a3 := rho (al D') * rho (be D') - rho (al D) * rho (be D)).
  set (a4 := rho (al D') * br_D (al D') - rho (al D) * br_D (al D)). set (a5 := rho (be D') * br_D (be D') - rho (be D) * br_D (be D)).
  assert (Ex : br_ex D' P Q - br_ex D P Q = / 2 * (a1 * P + a2 * Q)) by (unfold br_ex, a1, a2; field).
  assert (Ec : br_ec D' P Q - br_ec D P Q = - (0.8 * (a3 * f1) + 0.01 * (a4 * f2) + 0.01 * (a5 * f3))).
  { unfold br_ec, br_opp, br_par. fold z1 z2 z3. unfold a3, a4, a5, f1, f2, f3.
    generalize (1 - ln (1 + z1) / z1) (1 - 2 / z2 * ln (1 + z2 / 2)) (1 - 2 / z3 * ln (1 + z3 / 2)) (br_D (al D)) (br_D (be D)) (br_D (al D')) (br_D (be D')). intros. clearbody z1 z2 z3.
    replace (-0.8) with (- (0.8)) by lra. replace (-0.01) with (- (0.01)) by lra. generalize 0.8 0.01. intros. ring. }
  pose proof (Rabs_pos a1) as Q1. pose proof (Rabs_pos a2) as Q2. pose proof (Rabs_pos a3) as Q3. pose proof (Rabs_pos a4) as Q4. pose proof (Rabs_pos a5) as Q5. pose proof (Rabs_pos P) as Q6. pose proof (Rabs_pos Q) as Q7.
  assert (Xx : Rabs (/ 2 * (a1 * P + a2 * Q)) <= Rabs a1 * Rabs P + Rabs a2 * Rabs Q).
  { rewrite Rabs_mult, (Rabs_right (/ 2)) by lra. pose proof (Rabs_triang (a1 * P) (a2 * Q)) as T. rewrite !Rabs_mult in T. nra. }
  assert (Xc : Rabs (- (0.8 * (a3 * f1) + 0.01 * (a4 * f2) + 0.01 * (a5 * f3))) <= Rabs a3 * z1 ^ 2 + Rabs a4 * z2 ^ 4 + Rabs a5 * z3 ^ 4).
  { rewrite Rabs_Ropp. pose proof (Rabs_triang (0.8 * (a3 * f1) + 0.01 * (a4 * f2)) (0.01 * (a5 * f3))) as T1. pose proof (Rabs_triang (0.8 * (a3 * f1)) (0.01 * (a4 * f2))) as T2.
    rewrite !(Rabs_mult 0.8), !(Rabs_mult 0.01), (Rabs_right 0.8), (Rabs_right 0.01) in * by lra. rewrite !(Rabs_mult a3), !(Rabs_mult a4), !(Rabs_mult a5) in *.
    assert (Rabs a3 * Rabs f1 <= Rabs a3 * z1 ^ 2) by (apply Rmult_le_compat_l; assumption). assert (Rabs a4 * Rabs f2 <= Rabs a4 * z2 ^ 4) by (apply Rmult_le_compat_l; assumption). assert (Rabs a5 * Rabs f3 <= Rabs a5 * z3 ^ 4) by (apply Rmult_le_compat_l; assumption).
    assert (0 <= Rabs a3 * Rabs f1) by (apply Rmult_le_pos; [lra|apply Rabs_pos]). assert (0 <= Rabs a4 * Rabs f2) by (apply Rmult_le_pos; [lra|apply Rabs_pos]). assert (0 <= Rabs a5 * Rabs f3) by (apply Rmult_le_pos; [lra|apply Rabs_pos]). lra. }
  assert (W1 : 0 <= z1 ^ 2) by (apply pow_le; lra). assert (W2 : 0 <= z2 ^ 4) by (apply pow_le; lra). assert (W3 : 0 <= z3 ^ 4) by (apply pow_le; lra).
  set (w1 := z1 ^ 2) in *. set (w2 := z2 ^ 4) in *. set (w3 := z3 ^ 4) in *. clearbody w1 w2 w3.
  assert (Tot : Rabs a1 * Rabs P + Rabs a2 * Rabs Q + (Rabs a3 * w1 + Rabs a4 * w2 + Rabs a5 * w3) <= (Rabs a1 + Rabs a2 + Rabs a3 + Rabs a4 + Rabs a5) * (Rabs P + Rabs Q + w1 + w2 + w3)).
  { set (b1 := Rabs a1) in *. set (b2 := Rabs a2) in *. set (b3 := Rabs a3) in *. set (b4 := Rabs a4) in *. set (b5 := Rabs a5) in *. set (p := Rabs P) in *. set (q := Rabs Q) in *. clearbody b1 b2 b3 b4 b5 p q.
    assert (M : forall u v, 0 <= u -> 0 <= v -> 0 <= u * v) by (intros; now apply Rmult_le_pos).
    replace ((b1 + b2 + b3 + b4 + b5) * (p + q + w1 + w2 + w3)) with (b1 * p + b2 * q + (b3 * w1 + b4 * w2 + b5 * w3) + (b1 * (q + w1 + w2 + w3) + b2 * (p + w1 + w2 + w3) + b3 * (p + q + w2 + w3) + b4 * (p + q + w1 + w3) + b5 * (p + q + w1 + w2))) by ring.
    pose proof (M b1 (q + w1 + w2 + w3) ltac:(lra) ltac:(lra)). pose proof (M b2 (p + w1 + w2 + w3) ltac:(lra) ltac:(lra)). pose proof (M b3 (p + q + w2 + w3) ltac:(lra) ltac:(lra)). pose proof (M b4 (p + q + w1 + w3) ltac:(lra) ltac:(lra)). pose proof (M b5 (p + q + w1 + w2) ltac:(lra) ltac:(lra)). lra. }
  assert (N1 : 0 <= Rabs a1 * Rabs P + Rabs a2 * Rabs Q) by (apply Rplus_le_le_0_compat; now apply Rmult_le_pos).
  assert (N2 : 0 <= Rabs a3 * w1 + Rabs a4 * w2 + Rabs a5 * w3) by (repeat apply Rplus_le_le_0_compat; now apply Rmult_le_pos).
  cbn [In] in Hi. destruct Hi as [<-|[<-|[<-|[]]]]; cbn [br_energy].
  - rewrite Ex. lra.
  - rewrite Ec. lra.
  - replace (br_ex D' P Q + br_ec D' P Q - (br_ex D P Q + br_ec D P Q)) with (br_ex D' P Q - br_ex D P Q + (br_ec D' P Q - br_ec D P Q)) by ring.
    rewrite Ex, Ec. eapply Rle_trans; [apply Rabs_triang|]. lra.
Qed.
(** The size stays bounded when the potentials change by a factor between exp(-1) and exp(1). *)
Lemma size_bound P Q ea eb : P <> 0 -> Q <> 0 -> Rabs ea <= 1 -> Rabs eb <= 1 -> size (P * exp ea) (Q * exp eb) <= 81 * size P Q.
Proof.
  intros HP HQ Ha Hb.
  assert (E : forall e, Rabs e <= 1 -> / 3 <= exp e <= 3).
  { intros e He. assert (-1 <= e <= 1) by (unfold Rabs in He; destruct (Rcase_abs e); lra). pose proof exp_le_3 as E3. split.
    - apply Rle_trans with (exp (-1)); [|destruct (Req_dec e (-1)) as [->|]; [lra|apply Rlt_le, exp_increasing; lra]].
      replace (-1) with (- (1)) by lra. rewrite exp_Ropp. apply Rinv_le_contravar; [apply exp_pos|exact E3].
    - apply Rle_trans with (exp 1); [destruct (Req_dec e 1) as [->|]; [lra|apply Rlt_le, exp_increasing; lra]|exact E3]. }
  destruct (E ea Ha) as [Ea1 Ea2]. destruct (E eb Hb) as [Eb1 Eb2]. clear E.
  assert (I3 : forall p e, 0 < p -> / 3 <= e -> / (p * e) <= 3 * / p).
  { intros p e Pp He. rewrite Rinv_mult. rewrite Rmult_comm. apply Rmult_le_compat_r; [apply Rlt_le, Rinv_0_lt_compat, Pp|].
    replace 3 with (/ / 3) by field. apply Rinv_le_contravar; lra. }
  unfold size. rewrite !Rabs_mult, !(Rabs_pos_eq (exp _)) by (apply Rlt_le, exp_pos).
  pose proof (Rabs_pos_lt P HP) as Pp. pose proof (Rabs_pos_lt Q HQ) as Pq. set (p := Rabs P) in *. set (q := Rabs Q) in *. set (ua := exp ea) in *. set (ub := exp eb) in *. clearbody p q ua ub.
  pose proof (I3 p ua Pp Ea1) as Ip. pose proof (I3 q ub Pq Eb1) as Iq.
  assert (Jp : 0 < / (p * ua)) by (apply Rinv_0_lt_compat; nra). assert (Jq : 0 < / (q * ub)) by (apply Rinv_0_lt_compat; nra).
  assert (Kp : 0 < / p) by now apply Rinv_0_lt_compat. assert (Kq : 0 < / q) by now apply Rinv_0_lt_compat.
  assert (A1 : (0.63 * (/ (p * ua) + / (q * ub))) ^ 2 <= (3 * (0.63 * (/ p + / q))) ^ 2) by (apply pow_incr; lra).
  assert (A2 : (2 * 0.88 * / (p * ua)) ^ 4 <= (3 * (2 * 0.88 * / p)) ^ 4) by (apply pow_incr; lra).
  assert (A3 : (2 * 0.88 * / (q * ub)) ^ 4 <= (3 * (2 * 0.88 * / q)) ^ 4) by (apply pow_incr; lra).
  rewrite Rpow_mult_distr in A1. rewrite Rpow_mult_distr in A2. rewrite Rpow_mult_distr in A3.
  replace (3 ^ 2) with 9 in A1 by ring. replace (3 ^ 4) with 81 in A2, A3 by ring.
  assert (B1 : 0 <= (0.63 * (/ p + / q)) ^ 2) by (apply pow_le; lra).
  assert (p * ua <= 81 * p) by nra. assert (q * ub <= 81 * q) by nra. lra.
Qed.
Lemma t_D D sp : sp = al \/ sp = be -> 0 < rho (sp D) -> tends (by_dens D) (fun D' => br_D (sp D')) (br_D (sp D)).
Proof.
  intros Hs Pr. unfold br_D. apply tends_sub; [apply by_filter|apply t_scale, (t_kin D sp Hs)|].
  apply t_div; [|apply (t_rho D sp Hs)|lra]. apply tends_add; [apply by_filter| |apply (t_jp D sp Hs)]. apply t_div; [apply (t_grad D sp Hs)|apply t_c|lra].
Qed.
Lemma t_apart D : 0 < rho (al D) -> 0 < rho (be D) -> tends (by_dens D) (apart D) 0.
Proof.
  intros Pa Pb. pose proof (t_rho D al (or_introl eq_refl)) as Ra. pose proof (t_rho D be (or_intror eq_refl)) as Rb.
  pose proof (t_D D al (or_introl eq_refl) Pa) as Da. pose proof (t_D D be (or_intror eq_refl) Pb) as Db.
  assert (Z : forall u v, tends (by_dens D) u v -> tends (by_dens D) (fun D' => Rabs (u D' - v)) 0).
  { intros u v A. replace 0 with (Rabs (v - v)) by (rewrite Rminus_eq_0; apply Rabs_R0). apply tends_abs. apply tends_sub; [apply by_filter|exact A|apply t_c]. }
  unfold apart. replace 0 with (0 + 0 + 0 + 0 + 0) by lra. repeat apply tends_add; try apply by_filter; apply Z; try assumption; apply tends_mul; try apply by_filter; assumption.
Qed.
(** C43 (Becke-Roussel).  Close to a density, every energy the library returns for BRX, BRC or BRXC is as close as desired to
    the published formula at that density with each hole potential changed by a relative error of at most 5e-15 (1 + x), x the solution of the
    hole equation: all jumps come from the early stop of the iteration for the hole. *)
Theorem C43_br_jump_bound :
  forall (h h0 : handle ROps) v i D, reachable h -> xcfun_eval_setup h v XC_PARTIAL_DERIVATIVES 0 = Ok (h0, 0%Z) ->
    In i [10; 11; 12]%nat -> h_active h = [i] -> 0 < (h_settings h XC_RANGESEP_MU : R) -> above D ->
    exists xa xb, hole (al D) xa /\ hole (be D) xb /\
    (5e-15 * (1 + xa) <= 1 -> 5e-15 * (1 + xb) <= 1 ->
    forall eps, 0 < eps -> exists d, 0 < d /\ forall D' x' e', near_dens d D D' -> above D' -> describes v x' D' -> library_energy h0 x' e' ->
      exists ea eb, Rabs ea <= 5e-15 * (1 + xa) /\ Rabs eb <= 5e-15 * (1 + xb) /\
        Rabs (e' - h_settings h i * br_energy i D (br_U (al D) xa * exp ea) (br_U (be D) xb * exp eb)) <= eps).
Proof.
  intros h h0 v i D Hr S Hi A Mu Ab.
  assert (Q : forall D', above D' -> 0 < rho (al D') /\ 0 < rho (be D')) by (intros D' [Qa Qb]; change threshold with (1 * / 100000000000000) in *; lra).
  destruct (Q D Ab) as [Pa Pb]. exists (br_inv (br_arg (al D))), (br_inv (br_arg (be D))).
  split; [now apply hole_iff|]. split; [now apply hole_iff|]. intros Sa Sb eps He.
  pose proof (proj1 (br_inv_spec (br_arg (al D)))) as Xa. pose proof (proj1 (br_inv_spec (br_arg (be D)))) as Xb.
  pose proof (br_U_neg (al D) _ Xa Pa) as Ua. pose proof (br_U_neg (be D) _ Xb Pb) as Ub.
  set (xa := br_inv (br_arg (al D))) in *. set (xb := br_inv (br_arg (be D))) in *. set (P := br_U (al D) xa) in *. set (R' := br_U (be D) xb) in *.
  set (w := h_settings h i : R). set (K := 81 * size P R').
  assert (Kp : 0 < K). { unfold K, size. assert (0 < Rabs P) by (apply Rabs_pos_lt; lra). pose proof (Rabs_pos R'). pose proof (pow2_ge_0 (0.63 * (/ Rabs P + / Rabs R'))).
    assert (0 <= (2 * 0.88 * / Rabs P) ^ 4) by (replace 4%nat with (2 * 2)%nat by reflexivity; rewrite pow_mult; apply pow2_ge_0). assert (0 <= (2 * 0.88 * / Rabs R') ^ 4) by (replace 4%nat with (2 * 2)%nat by reflexivity; rewrite pow_mult; apply pow2_ge_0). lra. }
  assert (Pw : 0 <= Rabs w) by apply Rabs_pos.
  assert (Et : 0 < eps / ((Rabs w + 1) * K)) by (apply Rdiv_lt_0_compat; [exact He|nra]).
  assert (Lz : forall u v, 0 < u -> locally v (fun y => Rabs (y - v) < u)) by (intros u0 v0 H; exists (mkposreal u0 H); intros y Hy; exact Hy).
  pose proof (t_apart D Pa Pb _ (Lz _ 0 Et)) as T0.
  assert (Tl : forall sp, sp = al \/ sp = be -> 0 < rho (sp D) -> by_dens D (fun D' => Rabs (ln (br_U (sp D') (br_inv (br_arg (sp D'))) / br_U (sp D) (br_inv (br_arg (sp D))))) < 5e-16 /\ br_inv (br_arg (sp D')) < br_inv (br_arg (sp D)) + 1 / 10)).
  { intros sp Hs Pr. pose proof (br_U_neg (sp D) _ (proj1 (br_inv_spec (br_arg (sp D)))) Pr) as Un.
    assert (T : tends (by_dens D) (fun D' => ln (br_U (sp D') (br_inv (br_arg (sp D'))) / br_U (sp D) (br_inv (br_arg (sp D))))) (ln 1)).
    { apply (tends1 (by_dens D) (fun D' => br_U (sp D') (br_inv (br_arg (sp D'))) / br_U (sp D) (br_inv (br_arg (sp D)))) 1 ln).
      - replace 1 with (br_U (sp D) (br_inv (br_arg (sp D))) / br_U (sp D) (br_inv (br_arg (sp D)))) by (field; lra). apply t_div; [apply (t_U D sp Hs Pr)|apply t_c|lra].
      - eapply cont_d. apply is_derive_Reals. apply derivable_pt_lim_ln. lra. }
    rewrite ln_1 in T. pose proof (T _ (Lz 5e-16 0 ltac:(lra))) as T1. pose proof (t_x D sp Hs Pr (fun y => y < br_inv (br_arg (sp D)) + 1 / 10) (open_lt (br_inv (br_arg (sp D)) + 1 / 10) (br_inv (br_arg (sp D))) ltac:(lra))) as T2.
    generalize (filter_and (F := by_dens D) _ _ T1 T2). apply (filter_imp (F := by_dens D)). intros D' [H1 H2]. split; [rewrite Rminus_0_r in H1; exact H1|exact H2]. }
  destruct (filter_and (F := by_dens D) _ _ T0 (filter_and (F := by_dens D) _ _ (Tl al (or_introl eq_refl) Pa) (Tl be (or_intror eq_refl) Pb))) as (d & Hd & H). clear T0 Tl.
  exists d. split; [exact Hd|]. intros D' x' e' N Ab' De' Le'. destruct (H D' N) as (H0 & [Ha1 Ha2] & [Hb1 Hb2]). clear H. fold xa in Ha1, Ha2. fold xb in Hb1, Hb2. fold P in Ha1. fold R' in Hb1.
  destruct (Q D' Ab') as [Pa' Pb'].
  destruct (C38_energy h h0 v i D' x' Hr S Hi A Mu Ab' De') as (ya & yb & ea & eb & Ga & Gb & Ba & Bb & E).
  apply (hole_iff _ _ Pa') in Ga. apply (hole_iff _ _ Pb') in Gb. rewrite <- Ga in Ha1, Ha2. rewrite <- Gb in Hb1, Hb2. apply E in Le'.
  assert (Ya : 0 < ya) by (rewrite Ga; apply br_inv_spec). assert (Yb : 0 < yb) by (rewrite Gb; apply br_inv_spec).
  pose proof (br_U_neg (al D') ya Ya Pa') as Ua'. pose proof (br_U_neg (be D') yb Yb Pb') as Ub'.
  set (P' := br_U (al D') ya) in *. set (R2 := br_U (be D') yb) in *.
  assert (Fa : P' * exp ea = P * exp (ea + ln (P' / P))).
  { rewrite exp_plus, exp_ln; [field; lra|]. replace (P' / P) with (- P' / - P) by (field; lra). apply Rdiv_lt_0_compat; lra. }
  assert (Fb : R2 * exp eb = R' * exp (eb + ln (R2 / R'))).
  { rewrite exp_plus, exp_ln; [field; lra|]. replace (R2 / R') with (- R2 / - R') by (field; lra). apply Rdiv_lt_0_compat; lra. }
  assert (Ca : Rabs (ea + ln (P' / P)) <= 5e-15 * (1 + xa)) by (eapply Rle_trans; [apply Rabs_triang|]; lra).
  assert (Cb : Rabs (eb + ln (R2 / R')) <= 5e-15 * (1 + xb)) by (eapply Rle_trans; [apply Rabs_triang|]; lra).
  exists (ea + ln (P' / P)), (eb + ln (R2 / R')). split; [exact Ca|]. split; [exact Cb|].
  rewrite Le', Fa, Fb. set (fa := ea + ln (P' / P)) in *. set (fb := eb + ln (R2 / R')) in *.
  change (Rabs (w * br_energy i D' (P * exp fa) (R' * exp fb) - w * br_energy i D (P * exp fa) (R' * exp fb)) <= eps).
  rewrite <- Rmult_minus_distr_l.
  rewrite Rabs_mult.
  assert (Nz1 : P * exp fa <> 0) by (pose proof (exp_pos fa); nra). assert (Nz2 : R' * exp fb <> 0) by (pose proof (exp_pos fb); nra).
  pose proof (energy_diff i D D' _ _ Hi Nz1 Nz2) as Df. pose proof (size_bound P R' fa fb ltac:(lra) ltac:(lra) ltac:(lra) ltac:(lra)) as Sz. fold K in Sz.
  rewrite Rminus_0_r in H0. assert (Ap : 0 <= apart D D') by (unfold apart; repeat apply Rplus_le_le_0_compat; apply Rabs_pos). rewrite Rabs_pos_eq in H0 by exact Ap.
  apply Rle_trans with ((Rabs w + 1) * (eps / ((Rabs w + 1) * K) * K)).
  - apply Rmult_le_compat; [exact Pw|apply Rabs_pos|lra|]. eapply Rle_trans; [exact Df|]. apply Rmult_le_compat; [exact Ap| |lra|exact Sz].
    unfold size. pose proof (Rabs_pos (P * exp fa)). pose proof (Rabs_pos (R' * exp fb)). pose proof (pow2_ge_0 (0.63 * (/ Rabs (P * exp fa) + / Rabs (R' * exp fb)))).
    assert (F4 : forall y, 0 <= y ^ 4) by (intro y; replace 4%nat with (2 * 2)%nat by reflexivity; rewrite pow_mult; apply pow2_ge_0). pose proof (F4 (2 * 0.88 * / Rabs (P * exp fa))). pose proof (F4 (2 * 0.88 * / Rabs (R' * exp fb))). lra.
  - right. field. split; [lra|]. pose proof Pw. lra.
Qed.
Print Assumptions C43_br_jump_bound.
Example C43_br_case : exists (h h0 : handle ROps) x xa e, Api.run xcfun_new [CSet "brxc" (1 : ROps)] = Ok h /\ reachable h /\
  xcfun_eval_setup h XC_A_B_GAA_GAB_GBB_LAPA_LAPB_TAUA_TAUB_JPAA_JPBB XC_PARTIAL_DERIVATIVES 0 = Ok (h0, 0%Z) /\
  h_active h = [12%nat] /\ 0 < (h_settings h XC_RANGESEP_MU : R) /\ above D_br /\ describes XC_A_B_GAA_GAB_GBB_LAPA_LAPB_TAUA_TAUB_JPAA_JPBB x D_br /\
  hole (al D_br) xa /\ hole (be D_br) xa /\ 5e-15 * (1 + xa) <= 1 /\ near_dens 1 D_br D_br /\ library_energy h0 x e.
Proof.
  destruct (make (K := ROps) [("brxc"%string, 12%nat, 1)] eq_refl) as (h & Eh & Hr & A & Es). change (mactive _) with [12]%nat in A.
  assert (Mu : 0 < (h_settings h XC_RANGESEP_MU : R)) by (rewrite Es; unfold msettings; cbn [map fold_left fst snd]; unfold wr_settings, upd; cbn; unfold Q2R; cbn; lra).
  assert (S : exists h1, xcfun_eval_setup h XC_A_B_GAA_GAB_GBB_LAPA_LAPB_TAUA_TAUB_JPAA_JPBB XC_PARTIAL_DERIVATIVES 0 = Ok (h1, 0%Z)) by (eexists; apply accepts_ok; [exact Hr|rewrite A; vm_compute; reflexivity]).
  destruct S as [h0 S]. destruct C38_energy_case as (_ & _ & x & xa & _ & _ & _ & Ab & De & Hh & Hx & _).
  destruct (C38_energy h h0 _ 12 D_br _ Hr S ltac:(cbn; tauto) A Mu Ab De) as (ya & yb & ea & eb & _ & _ & _ & _ & E).
  exists h, h0, x, xa. eexists. split; [exact Eh|]. split; [exact Hr|]. split; [exact S|]. split; [exact A|]. split; [exact Mu|]. split; [exact Ab|]. split; [exact De|].
  split; [exact Hh|]. split; [exact Hh|]. split; [lra|]. split; [|apply E; reflexivity].
  unfold near_dens, near_spin. rewrite !Rminus_eq_0, Rabs_R0. repeat split; lra.
Qed.
