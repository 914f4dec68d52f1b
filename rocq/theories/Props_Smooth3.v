(** * Concrete case for the derivative theorems off the switching points: the SCAN functionals (C10, C11, C13, C43) *)
From Coq Require Import Reals QArith Qreals ZArith Arith Lia Lra List Bool String.
From Coquelicot Require Import Coquelicot.
From Verif Require Import Scalar RInst Tables Api SpecApi ApiProofs ApiProofs2 CTaylor CtAlg TMath Fps TFam TExp Ad Br Expr Densvars Functionals
  Eval Sem AdEval SpecEval Layout EvalSem EvalProps Taint EvalExt EvalR EvalReal EvalApi Props_Eval Props_Deriv RSem Itv Dom Phys EnergyR Safe Pw92 Mk Props_Dens Props_Dens2
  VarsRel PotSlots Dead Props_Pot Smooth Props_Smooth Cont SmoothAway Props_Cont Cont2 Props_Cont2 Published PubR Value PubX ContS ContR ContR2 Safe2 Safe3 Props_Smooth2.
Import ListNotations.
Local Open Scope outcome_scope.
Local Open Scope R_scope.

(** ** A concrete case: SCAN exchange and correlation at a density with kinetic energy between the one-orbital value and that of the uniform gas. *)
Definition D_m : dens :=
  {| al := {| rho := 1; grad := V 1 0 0; hes := Hes 1 0 0 2 0 (-1); kin := 1; jp := 0 |};
     be := {| rho := 1; grad := V 0 2 0; hes := Hes 0 1 0 0 0 1; kin := 1; jp := 0 |} |}.
Lemma tf2 : 2 < tf 2.
Proof.
  unfold tf, c_tf. pose proof PI2_3_2. pose proof PI2_1.
  assert (A : 4 <= Rpower (3 * PI ^ 2) (2 / 3)).
  { apply Rle_trans with (Rpower 8 (2 / 3)).
    - replace 8 with (Rpower 2 3) by (replace 3 with (INR 3) by (cbn; lra); rewrite Rpower_pow; lra). rewrite Rpower_mult. replace (3 * (2 / 3)) with (INR 2) by (cbn; field). rewrite Rpower_pow; lra.
    - apply Rle_Rpower_l; [lra|]. split; [lra|]. nra. }
  assert (B : 2 <= Rpower 2 (5 / 3)).
  { rewrite <- (Rpower_1 2) at 1 by lra. apply Rle_Rpower; lra. }
  nra.
Qed.
Lemma below_gas w : w <= 2 -> w / tf 2 <> 1.
Proof. intros H C. pose proof tf2. assert (w = tf 2) by (replace w with (w / tf 2 * tf 2) by (field; lra); rewrite C; ring). lra. Qed.
Lemma scan_m n g t : n = 2 -> 4 <= g <= 16 -> t = 2 -> t - g / (8 * n) <> 0 -> Rabs (t - g / (8 * n)) <> 1 / 10 ^ 14 -> scan_x_reg n g t.
Proof.
  intros -> G -> Z T. unfold scan_x_reg, scan_x_off, off_g, off_tau, nz_tau, alpha_scan.
  repeat split; try assumption; try (apply below_gas; lra); lra.
Qed.
Ltac dm := unfold stot, zet, ntot, saa, sbb, gN, vadd, dot; cbn [rho grad kin al be D_m vx vy vz].
Lemma rs2 : 1 / 100 < Published.rs 2.
Proof.
  unfold Published.rs. pose proof PI_4. pose proof PI2_3_2.
  assert (A : 1 / 100 < 3 / (4 * PI * 2) < 1).
  { split; apply Rmult_lt_reg_r with (4 * PI * 2); try lra; replace (3 / (4 * PI * 2) * (4 * PI * 2)) with 3 by (field; lra); lra. }
  apply Rlt_le_trans with (3 / (4 * PI * 2)); [lra|]. set (b := 3 / (4 * PI * 2)) in *. rewrite <- (Rpower_1 b) at 1 by lra. unfold Rpower.
  assert (L : ln b < 0) by (rewrite <- ln_1; apply ln_increasing; lra). destruct (Req_dec (1 * ln b) (1 / 3 * ln b)) as [->|N]; [lra|]. apply Rlt_le, exp_increasing. lra.
Qed.
Lemma m_handle : exists h : handle ROps, reachable h /\ h_active h = [46; 45]%nat /\ 0 < (h_settings h XC_RANGESEP_MU : R) /\ all_covered h D_m /\ none_at_switch h D_m.
Proof.
  destruct (make (K := ROps) [("scanx"%string, 46%nat, 1); ("scanc"%string, 45%nat, 1)] eq_refl) as (h & _ & Hr & A & S). exists h. split; [exact Hr|].
  change (mactive _) with [46; 45]%nat in A. split; [exact A|]. split; [|split].
  - rewrite S. unfold msettings. cbn [map fold_left fst snd]. unfold wr_settings, upd. cbn. unfold Q2R. cbn. lra.
  - intros i nm Hi N. rewrite A in Hi. cbn [In] in Hi.
    assert (Fu : full D_m) by (unfold full; dm; repeat split; lra).
    destruct Hi as [<- | [<- | []]]; vm_compute in N; injection N as <-; unfold covered; do 4 right; [left|right].
    + split; [reflexivity|]. split; [exact Fu|]. unfold alpha_x, iso_orbital, t_gas. dm. fold c_tf. change (c_tf * Rpower (2 * 1) (5 / 3)) with (tf (2 * 1)). replace (2 * 1) with 2 by lra. split; apply below_gas; lra.
    + split; [reflexivity|]. split; [exact Fu|]. unfold alpha_c, iso_orbital, t_gas. dm. fold c_tf. change (c_tf * Rpower (1 + 1) (5 / 3)) with (tf (1 + 1)). replace ((1 - 1) / (1 + 1)) with 0 by lra. replace (1 + 0) with 1 by lra. replace (1 - 0) with 1 by lra.
      replace (Rpower 1 (5 / 3)) with 1 by (unfold Rpower; rewrite ln_1, Rmult_0_r, exp_0; reflexivity). replace (tf (1 + 1) * ((1 + 1) / 2)) with (tf 2) by (replace (1 + 1) with 2 by lra; lra). apply below_gas; lra.
  - intros i nm Hi N. rewrite A in Hi. cbn [In] in Hi.
    destruct Hi as [<- | [<- | []]]; vm_compute in N; injection N as <-; right; left; unfold off_mgga; cbv zeta; [left|do 3 right; left].
    + split; [reflexivity|]. split; dm; apply scan_m; try lra; rewrite Rabs_pos_eq; lra.
    + split; [reflexivity|]. unfold off_rs, off_tau, nz_tau, alpha_scan, ds_z. dm. replace ((1 - 1) / (1 + 1)) with 0 by lra. replace (1 + 0) with 1 by lra. replace (1 - 0) with 1 by lra.
      replace (Rpower 1 (5 / 3)) with 1 by (unfold Rpower; rewrite ln_1, Rmult_0_r, exp_0; reflexivity). replace (tf (1 + 1) * ((1 + 1) / 2)) with (tf 2) by (replace (1 + 1) with 2 by lra; lra).
      split; [replace (1 + 1) with 2 by lra; pose proof rs2; lra|]. split; [rewrite Rabs_pos_eq; lra|]. split; [lra|apply below_gas; lra].
Qed.
Example C10_off_switches_scan_example : exists (h hp h0 hc : handle ROps) vd D x, reachable h /\ h_active h = [46; 45]%nat /\
  vars_entry XC_A_B_GAA_GAB_GBB_TAUA_TAUB = Ok vd /\
  xcfun_eval_setup h XC_A_B_GAA_GAB_GBB_TAUA_TAUB XC_PARTIAL_DERIVATIVES 3 = Ok (hp, 0%Z) /\
  xcfun_eval_setup h XC_A_B_GAA_GAB_GBB_TAUA_TAUB XC_PARTIAL_DERIVATIVES 0 = Ok (h0, 0%Z) /\
  xcfun_eval_setup h XC_A_B_GAA_GAB_GBB_TAUA_TAUB XC_CONTRACTED (Z.of_nat 4) = Ok (hc, 0%Z) /\
  0 < (h_settings h XC_RANGESEP_MU : R) /\ all_covered h D /\ none_at_switch h D /\ strictly_above D /\ describes XC_A_B_GAA_GAB_GBB_TAUA_TAUB x D /\
  xcfun_output_length hp = Ok 120%Z.
Proof.
  destruct m_handle as (h & Hr & A & Mu & Ac & Ns). exists h.
  do 4 eexists. exists D_m. eexists. split; [exact Hr|]. split; [exact A|]. split; [vm_compute; reflexivity|].
  split; [apply accepts_ok; [exact Hr|rewrite A; vm_compute; reflexivity]|].
  split; [apply accepts_ok; [exact Hr|rewrite A; vm_compute; reflexivity]|].
  split; [apply accepts_ok; [exact Hr|rewrite A; vm_compute; reflexivity]|].
  split; [exact Mu|]. split; [exact Ac|]. split; [exact Ns|].
  split; [split; cbn [rho al be D_m]; change threshold with (1 * / 100000000000000); lra|].
  split; [apply encode_describes; cbn; tauto|]. vm_compute. reflexivity.
Qed.
