(** * Concrete case for the derivative theorems off the switching points: the TPSS correlation functionals (C10, C11, C13, C43) *)
From Coq Require Import Reals QArith Qreals ZArith Arith Lia Lra List Bool String.
From Coquelicot Require Import Coquelicot.
From Verif Require Import Scalar RInst Tables Api SpecApi ApiProofs ApiProofs2 CTaylor CtAlg TMath Fps TFam TExp Ad Br Expr Densvars Functionals
  Eval Sem AdEval SpecEval Layout EvalSem EvalProps Taint EvalExt EvalR EvalReal EvalApi Props_Eval Props_Deriv RSem Itv Dom Phys EnergyR Safe Pw92 Mk Props_Dens Props_Dens2
  VarsRel PotSlots Dead Props_Pot Smooth Props_Smooth Cont SmoothAway Props_Cont Cont2 Props_Cont2 Published PubR Value PubX PubTac ContS ContR ContR2 Safe2 Safe3 Props_Smooth2.
Import ListNotations.
Local Open Scope outcome_scope.
Local Open Scope R_scope.

Lemma ln_up y : 0 <= y -> 0 <= ln (1 + y) <= y.
Proof.
  intro H. split.
  - destruct (Req_dec y 0) as [->|N]; [rewrite Rplus_0_r, ln_1; lra|]. rewrite <- ln_1. apply Rlt_le, ln_increasing; lra.
  - apply exp_le_inv || (destruct (Rle_lt_dec (ln (1 + y)) y) as [L|L]; [exact L|]; exfalso; apply exp_increasing in L; rewrite exp_ln in L by lra; pose proof (exp_ineq1_le y); lra).
Qed.
Lemma H_bounds beta phi t2 eps : 0 <= beta -> 0 < phi -> 0 <= t2 -> eps < 0 -> 0 <= pbe_H beta phi t2 eps <= beta * phi ^ 3 * t2.
Proof.
  intros Hb Hp Ht He. unfold pbe_H. cbv zeta.
  assert (G : 0 < pbe_gamma) by (unfold pbe_gamma; assert (ln 2 < 1) by (pose proof (ln_up 1 ltac:(lra)); replace (1 + 1) with 2 in * by lra; assert (ln 2 <> 1) by (intro C; pose proof (exp_ineq1 1 ltac:(lra)) as E; rewrite <- C, exp_ln in E by lra; rewrite C in E; lra); lra); unfold Rdiv; apply Rmult_lt_0_compat; [lra|]; apply Rinv_0_lt_compat, pow_lt; apply PI_RGT_0).
  assert (P3 : 0 < phi ^ 3) by now apply pow_lt.
  set (A := beta / pbe_gamma / _).
  assert (HA : 0 <= A).
  { unfold A. unfold Rdiv at 1. apply Rmult_le_pos; [unfold Rdiv; apply Rmult_le_pos; [exact Hb|apply Rlt_le, Rinv_0_lt_compat, G]|]. apply Rlt_le, Rinv_0_lt_compat.
    assert (X : exp 0 < exp (- (eps / (pbe_gamma * phi ^ 3)))) by (apply exp_increasing; assert (0 < - eps / (pbe_gamma * phi ^ 3)) by (apply Rdiv_lt_0_compat; [lra|now apply Rmult_lt_0_compat]); lra). rewrite exp_0 in X. lra. }
  clearbody A.
  assert (Q : 0 <= (1 + A * t2) / (1 + A * t2 + A ^ 2 * t2 ^ 2) <= 1).
  { assert (0 <= A * t2) by now apply Rmult_le_pos. assert (0 <= A ^ 2 * t2 ^ 2) by (rewrite <- Rpow_mult_distr; apply pow2_ge_0). split.
    - apply Rmult_le_pos; [lra|]. apply Rlt_le, Rinv_0_lt_compat. lra.
    - apply Rmult_le_reg_r with (1 + A * t2 + A ^ 2 * t2 ^ 2); [lra|]. unfold Rdiv. rewrite Rmult_assoc, Rinv_l by lra. lra. }
  set (q := _ / _) in Q |- *. clearbody q.
  assert (B : 0 <= beta / pbe_gamma * t2) by (apply Rmult_le_pos; [apply Rmult_le_pos; [exact Hb|apply Rlt_le, Rinv_0_lt_compat, G]|exact Ht]).
  assert (Y : 0 <= beta / pbe_gamma * t2 * q <= beta / pbe_gamma * t2) by (split; [apply Rmult_le_pos; lra|nra]).
  pose proof (ln_up _ (proj1 Y)) as [L1 L2]. split; [apply Rmult_le_pos; [apply Rmult_le_pos; lra|exact L1]|].
  apply Rle_trans with (pbe_gamma * phi ^ 3 * (beta / pbe_gamma * t2)).
  - apply Rmult_le_compat_l; [apply Rmult_le_pos; lra|]. lra.
  - right. field. lra.
Qed.
(** Bounds of the uniform gas at r_s = 1 and, fully polarised, at r_s between 1 and 13/10. *)
Lemma ln_low : 2 / 3 <= ln (22 / 10).
Proof.
  apply Rle_trans with (ln ((12 / 10) ^ 4)).
  - rewrite ln_pow by lra. replace (INR 4) with 4 by (cbn; lra). assert (1 / 6 <= ln (12 / 10)); [|lra].
    replace (12 / 10) with (/ (10 / 12)) by lra. rewrite ln_Rinv by lra. pose proof (exp_ineq1_le (ln (10 / 12))) as E. rewrite exp_ln in E by lra. lra.
  - apply Rlt_le, ln_increasing; cbn; lra.
Qed.
Lemma ln_hi : ln (24 / 10) <= 1.
Proof.
  apply Rle_trans with (ln ((125 / 100) ^ 4)); [apply Rlt_le, ln_increasing; cbn; lra|].
  rewrite ln_pow by lra. replace (INR 4) with 4 by (cbn; lra). pose proof (ln_up (25 / 100) ltac:(lra)) as [_ L]. replace (1 + 25 / 100) with (125 / 100) in L by lra. lra.
Qed.
Lemma unpol : pw92_G 0.0310907 0.21370 7.5957 3.5876 1.6382 0.49294 1 <= - (5 / 100).
Proof.
  unfold pw92_G. rewrite sqrt_1. decs.
  match goal with |- context [ln (1 + 1 / ?d)] => assert (D : 22 / 10 <= 1 + 1 / d); [assert (d <= 10 / 12) by lra; assert (12 / 10 <= 1 / d); [|lra]; unfold Rdiv at 2; rewrite Rmult_1_l; replace (12 / 10) with (/ (10 / 12)) by lra; apply Rinv_le_contravar; lra|];
    assert (L : 2 / 3 <= ln (1 + 1 / d)) by (eapply Rle_trans; [apply ln_low|]; destruct (Rle_lt_or_eq_dec _ _ D) as [X| <-]; [apply Rlt_le, ln_increasing; lra|lra]); set (l := ln (1 + 1 / d)) in * end. lra.
Qed.
Lemma pol r : 1 <= r <= 13 / 10 -> - (4 / 100) <= pw92_G 0.01554535 0.20548 14.1189 6.1977 3.3662 0.62517 r < 0.
Proof.
  intro H. unfold pw92_G. decs.
  assert (S : 1 <= sqrt r) by (rewrite <- sqrt_1; apply sqrt_le_1_alt; lra).
  assert (S2 : 1 <= r * sqrt r) by nra. assert (S3 : 1 <= r ^ 2) by nra.
  match goal with |- context [ln (1 + 1 / ?d)] => assert (D0 : 3 / 4 <= d) by lra; set (dd := d) in *; clearbody dd end.
  assert (D : 1 < 1 + 1 / dd <= 24 / 10).
  { assert (0 < / dd) by (apply Rinv_0_lt_compat; lra). assert (/ dd <= / (3 / 4)) by (apply Rinv_le_contravar; lra). unfold Rdiv. lra. }
  assert (L : 0 < ln (1 + 1 / dd) <= 1).
  { split; [rewrite <- ln_1; apply ln_increasing; lra|]. eapply Rle_trans; [|apply ln_hi]. destruct (Rle_lt_or_eq_dec _ _ (proj2 D)) as [X| ->]; [apply Rlt_le, ln_increasing; lra|lra]. }
  set (l := ln _) in *. clearbody l. split; nra.
Qed.

(** Both spins have half the density with r_s = 1 and a small common gradient. *)
Definition D_t : dens :=
  let s := {| rho := n1 / 2; grad := V (1 / 100) 0 0; hes := Hes 0 0 0 0 0 0; kin := 1; jp := 0 |} in {| al := s; be := s |}.
Lemma n1_rs : Published.rs n1 = 1.
Proof. pose proof (rs_t 0 ltac:(lra)) as H. unfold n_t in H. replace (n1 * (1 + 0) ^ 3) with n1 in H by ring. rewrite H. lra. Qed.
Lemma half_rs : 1 <= Published.rs (n1 / 2) <= 13 / 10.
Proof.
  pose proof PI_RGT_0. unfold Published.rs, n1. replace (3 / (4 * PI * (3 / (4 * PI) / 2))) with 2 by (field; lra). split.
  - rewrite <- (Rpower_O 2) at 1 by lra. apply Rle_Rpower; lra.
  - replace (13 / 10) with (Rpower ((13 / 10) ^ 3) (1 / 3)).
    + apply Rle_Rpower_l; [lra|]. cbn. lra.
    + rewrite <- Rpower_pow by lra. rewrite Rpower_mult. replace (INR 3 * (1 / 3)) with 1 by (cbn; field). apply Rpower_1. lra.
Qed.
Lemma t_off beta : (forall r t, 1 <= r <= 13 / 10 -> 0 <= t -> 0 <= beta r t) -> (forall t, 0 <= t <= 1 -> beta 1 t <= 1) -> max_off beta D_t.
Proof.
  intros B0 B1. pose proof n1_range as N. pose proof half_rs as Hr. pose proof PI_4 as P4. pose proof PI2_3_2 as P3.
  assert (K : max_off beta D_t <-> off_max beta (n1 / 2 + n1 / 2) ((n1 / 2 - n1 / 2) / (n1 / 2 + n1 / 2)) (dot (gN D_t) (gN D_t)) (n1 / 2) (saa D_t) (n1 / 2) (sbb D_t)) by reflexivity.
  apply K. clear K. replace (n1 / 2 + n1 / 2) with n1 by lra. replace ((n1 / 2 - n1 / 2) / n1) with 0 by (field; lra).
  assert (Es : sbb D_t = saa D_t) by reflexivity. rewrite Es.
  assert (Eg : dot (gN D_t) (gN D_t) = 4 / 10000) by (unfold gN, vadd, dot, D_t; cbn [grad al be vx vy vz]; lra). rewrite Eg.
  assert (E2 : 0 <= saa D_t) by apply dot_pos. set (ga := saa D_t) in *. clearbody ga.
  assert (X : eps_pbe beta (eps_pw92 n1 0) n1 0 (4 / 10000) < eps_pbe_pol beta (n1 / 2) ga); [|split; lra].
  assert (Ph : pbe_phi 0 = 1) by (unfold pbe_phi; rewrite Rplus_0_r, Rminus_0_r; unfold Rpower; rewrite ln_1, Rmult_0_r, exp_0; lra).
  assert (Ee : eps_pw92 n1 0 <= - (5 / 100)).
  { unfold eps_pw92. rewrite fz0, n1_rs. cbv zeta. pose proof unpol. unfold Rdiv at 1. rewrite !Rmult_0_l, !Rmult_0_r. lra. }
  assert (Ep : - (4 / 100) <= eps_pw92_pol (n1 / 2) < 0) by (apply pol; exact Hr).
  assert (Kf : forall n, 0 < n -> 0 < kF n) by (intros; apply exp_pos).
  assert (T0 : forall phi n g, 0 <= g -> 0 < n -> 0 < phi -> 0 <= pbe_t2 phi n g).
  { intros phi n g G Nn Pp. unfold pbe_t2. pose proof (Kf n Nn). apply Rmult_le_pos; [apply Rmult_le_pos; [exact G|]|]; apply Rlt_le, Rinv_0_lt_compat; [apply pow_lt; nra|apply Rdiv_lt_0_compat; lra]. }
  assert (T1 : pbe_t2 1 n1 (4 / 10000) <= 1 / 200).
  { unfold pbe_t2. assert (1 <= 4 * kF n1 / PI).
    { assert (1 <= kF n1). { unfold kF. rewrite <- (Rpower_O (3 * PI ^ 2 * n1)) at 1 by (unfold n1; apply Rmult_lt_0_compat; [nra|apply Rdiv_lt_0_compat; lra]). apply Rle_Rpower; [|lra]. assert (9 <= PI ^ 2) by nra. nra. }
      apply Rmult_le_reg_r with PI; [lra|]. replace (4 * kF n1 / PI * PI) with (4 * kF n1) by (field; lra). lra. }
    apply Rmult_le_reg_r with (4 * kF n1 / PI); [lra|]. unfold Rdiv at 1. rewrite Rmult_assoc, Rinv_l by lra. rewrite Rmult_1_r.
    apply Rle_trans with (1 / 200 * 1); [|apply Rmult_le_compat_l; lra]. apply Rmult_le_reg_r with ((2 * 1 * n1) ^ 2); [nra|]. unfold Rdiv at 1. rewrite Rmult_assoc, Rinv_l by nra. nra. }
  pose proof (T0 1 n1 (4 / 10000) ltac:(lra) ltac:(lra) ltac:(lra)) as T2.
  assert (Pf : 0 < Rpower 2 (- (1 / 3))) by apply exp_pos.
  pose proof (T0 _ (n1 / 2) ga E2 ltac:(lra) Pf) as T3.
  unfold eps_pbe, eps_pbe_pol, eps_pbe_at. cbv zeta. rewrite Ph, n1_rs.
  pose proof (B0 1 _ ltac:(lra) T2) as B2. pose proof (B1 (pbe_t2 1 n1 (4 / 10000)) ltac:(lra)) as B3.
  destruct (H_bounds _ 1 _ (eps_pw92 n1 0) B2 ltac:(lra) T2 ltac:(lra)) as [_ U].
  destruct (H_bounds _ _ _ _ (B0 _ _ Hr T3) Pf T3 (proj2 Ep)) as [V _].
  assert (W : beta 1 (pbe_t2 1 n1 (4 / 10000)) * 1 ^ 3 * pbe_t2 1 n1 (4 / 10000) < 1 / 100).
  { set (b := beta 1 _) in *. set (t := pbe_t2 1 _ _) in *. clearbody b t. cbn [pow]. nra. }
  lra.
Qed.
Lemma t_pbe : max_off beta_pbe D_t.
Proof. apply t_off; intros; unfold beta_pbe; decs; lra. Qed.
Lemma t_rev : max_off beta_rev D_t.
Proof.
  apply t_off; intros; unfold beta_rev; decs.
  - apply Rmult_le_pos; [nra|]. apply Rlt_le, Rinv_0_lt_compat. lra.
  - lra.
Qed.
Lemma t_loc : max_off beta_loc D_t.
Proof.
  apply t_off; intros; unfold beta_loc; decs.
  - assert (X : exp (- r ^ 2) <= 1) by (rewrite <- exp_0; apply Rlt_le, exp_increasing; nra). set (q := exp _) in *. clearbody q. nra.
  - pose proof (exp_pos (- 1 ^ 2)). set (q := exp _) in *. clearbody q. nra.
Qed.
Lemma t_handle : exists h : handle ROps, reachable h /\ h_active h = [41; 43; 75]%nat /\ 0 < (h_settings h XC_RANGESEP_MU : R) /\ all_covered h D_t /\ none_at_switch h D_t.
Proof.
  destruct (make (K := ROps) [("tpssc"%string, 41%nat, 1); ("revtpssc"%string, 43%nat, / 2); ("tpsslocc"%string, 75%nat, 1)] eq_refl) as (h & _ & Hr & A & S). exists h. split; [exact Hr|].
  change (mactive _) with [41; 43; 75]%nat in A. split; [exact A|]. split; [|split].
  - rewrite S. unfold msettings. cbn [map fold_left fst snd]. unfold wr_settings, upd. cbn. unfold Q2R. cbn. lra.
  - intros i nm Hi N. rewrite A in Hi. cbn [In] in Hi.
    assert (Fu : full D_t) by (unfold full, gN, vadd, dot, D_t; cbn [al be grad kin vx vy vz]; repeat split; lra).
    destruct Hi as [<- | [<- | [<- | []]]]; vm_compute in N; injection N as <-; unfold covered; do 3 right; left; (split; [cbn; tauto|exact Fu]).
  - intros i nm Hi N. rewrite A in Hi. cbn [In] in Hi.
    destruct Hi as [<- | [<- | [<- | []]]]; vm_compute in N; injection N as <-; right; left; unfold off_mgga; cbv zeta; do 6 right; [left|right; left|right; right]; (split; [reflexivity|]); [exact t_pbe|exact t_rev|exact t_loc].
Qed.
Example C10_off_switches_tpss_example : exists (h hp h0 hc : handle ROps) vd D x, reachable h /\ h_active h = [41; 43; 75]%nat /\
  vars_entry XC_A_B_GAA_GAB_GBB_TAUA_TAUB = Ok vd /\
  xcfun_eval_setup h XC_A_B_GAA_GAB_GBB_TAUA_TAUB XC_PARTIAL_DERIVATIVES 3 = Ok (hp, 0%Z) /\
  xcfun_eval_setup h XC_A_B_GAA_GAB_GBB_TAUA_TAUB XC_PARTIAL_DERIVATIVES 0 = Ok (h0, 0%Z) /\
  xcfun_eval_setup h XC_A_B_GAA_GAB_GBB_TAUA_TAUB XC_CONTRACTED (Z.of_nat 4) = Ok (hc, 0%Z) /\
  0 < (h_settings h XC_RANGESEP_MU : R) /\ all_covered h D /\ none_at_switch h D /\ strictly_above D /\ describes XC_A_B_GAA_GAB_GBB_TAUA_TAUB x D /\
  xcfun_output_length hp = Ok 120%Z.
Proof.
  destruct t_handle as (h & Hr & A & Mu & Ac & Ns). exists h.
  do 4 eexists. exists D_t. eexists. split; [exact Hr|]. split; [exact A|]. split; [vm_compute; reflexivity|].
  split; [apply accepts_ok; [exact Hr|rewrite A; vm_compute; reflexivity]|].
  split; [apply accepts_ok; [exact Hr|rewrite A; vm_compute; reflexivity]|].
  split; [apply accepts_ok; [exact Hr|rewrite A; vm_compute; reflexivity]|].
  split; [exact Mu|]. split; [exact Ac|]. split; [exact Ns|].
  split; [unfold strictly_above; cbn [rho al be D_t]; pose proof n1_range; split; change threshold with (1 * / 100000000000000); lra|].
  split; [apply encode_describes; cbn; tauto|]. vm_compute. reflexivity.
Qed.
