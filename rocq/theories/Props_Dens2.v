(** * Property theorems: density variables, counterexamples and concrete cases (C18, C33) *)
From Coq Require Import Reals QArith Qreals ZArith Arith Lia Lra List Bool String.
From Coquelicot Require Import Coquelicot.
From Verif Require Import Scalar RInst Tables Api SpecApi ApiProofs ApiProofs2 CTaylor CtAlg TMath Fps TFam TExp Ad Br Expr Densvars Functionals
  Eval Sem AdEval SpecEval Layout EvalSem EvalProps Taint EvalExt EvalR EvalReal EvalApi Props_Eval Props_Deriv RSem Itv Dom Phys EnergyR Safe Pw92 Mk Safe2 Safe3 Props_Dens.
Import ListNotations.
Local Open Scope outcome_scope.
Local Open Scope R_scope.

(** Beyond the stated conditions the claim fails: TW takes pow(gaa + gbb, 2.0), which has no
    expansion at zero gradients, so a uniform density leaves the domain. *)
Theorem C33_tw_zero_gradient_refuted :
  exists h h1 : handle ROps, Api.run xcfun_new [CSet "tw" (1 : ROps)] = Ok h /\
    xcfun_eval_setup h XC_A_B_GAA_GAB_GBB XC_PARTIAL_DERIVATIVES 0 = Ok (h1, 0%Z) /\
    forall junk buf D x, above D -> grad (al D) = V 0 0 0 -> grad (be D) = V 0 0 0 -> describes XC_A_B_GAA_GAB_GBB x D ->
      xcfun_eval junk h1 buf x = Dom.
Proof.
  destruct (make (K := ROps) [("tw"%string, 25%nat, 1)] eq_refl) as (h & Eh & Hr & A & _).
  assert (A1 : accepts (h_active h) XC_A_B_GAA_GAB_GBB XC_PARTIAL_DERIVATIVES 0 = true) by (rewrite A; vm_compute; reflexivity).
  pose proof (accepts_ok h _ _ _ Hr A1) as S1. exists h. eexists. split; [exact Eh|]. split; [exact S1|].
  intros junk buf D x Ab Ga Gb De.
  change (mactive _) with [25%nat] in A.
  assert (Th : tau_honest h XC_A_B_GAA_GAB_GBB) by (intro X; rewrite A in X; cbn in X; destruct X as [X | []]; discriminate X).
  destruct (described_energy h _ XC_A_B_GAA_GAB_GBB D x Hr S1 Th Ab De) as [[vd G] E].
  rewrite A in E. cbn [rsum] in E.
  assert (Tw : reval (h_settings h) (fun _ => 0) (dvar D) [] tw = None).
  { unfold tw. cbn [reval seval obnd]. rewrite sdivq by (apply Qeq_bool_neq; reflexivity). cbn [obnd dvar]. rewrite Ga, Gb. unfold dot. cbn [vx vy vz].
    unfold rpow. destruct (Rlt_dec 0 (0 * 0 + 0 * 0 + 0 * 0 + (0 * 0 + 0 * 0 + 0 * 0))); [lra|]. reflexivity. }
  change (nth_error functionals 25) with (Some ("XC_TW"%string, tw)) in E. cbv beta iota in E.
  assert (E2 : @energy ROps {| h_active := [25%nat]; h_order := 0; h_depends := h_depends h; h_mode := XC_PARTIAL_DERIVATIVES; h_vars := XC_A_B_GAA_GAB_GBB; h_settings := h_settings h |} 0 x (czero 0) = Dom)
    by (etransitivity; [exact E|]; replace (reval (h_settings h) (fun _ : nat => 0) (dvar D) [] tw) with (@None R) by (symmetry; exact Tw); reflexivity).
  clear E. rewrite <- A in E2. rename E2 into E.
  rewrite (eval_partial junk _ _ _ _ _ _ _ G). unfold partialn. change (Z.to_nat 0) with 0%nat. cbn iota. unfold partial0.
  erewrite (energy_ext _ vd); [rewrite E; reflexivity|apply (gs_ready _ _ _ _ _ _ G)|exact (gs_entry _ _ _ _ _ _ G)|].
  intros i Hi. unfold load. destruct (Nat.ltb_spec i (Z.to_nat (v_len vd))); [reflexivity|lia].
Qed.
Print Assumptions C33_tw_zero_gradient_refuted.

(** SCAN exchange (SCAN_like_eps.hpp 166-174) evaluates exp(0.8 / (1 - alpha)) where alpha is
    exactly one, as in the uniform gas: it divides by zero although the function it
    interpolates is continuous there. *)
Theorem C33_scan_refuted :
  exists h h1 : handle ROps, Api.run xcfun_new [CSet "scanx" (1 : ROps)] = Ok h /\
    xcfun_eval_setup h XC_A_B_GAA_GAB_GBB_TAUA_TAUB XC_PARTIAL_DERIVATIVES 0 = Ok (h1, 0%Z) /\
    forall junk buf D x, above D -> alpha_x (al D) = 1 -> 1 / 10 ^ 14 < t_gas (2 * rho (al D)) -> describes XC_A_B_GAA_GAB_GBB_TAUA_TAUB x D ->
      xcfun_eval junk h1 buf x = Dom.
Proof.
  destruct (make (K := ROps) [("scanx"%string, 46%nat, 1)] eq_refl) as (h & Eh & Hr & A & _).
  assert (A1 : accepts (h_active h) XC_A_B_GAA_GAB_GBB_TAUA_TAUB XC_PARTIAL_DERIVATIVES 0 = true) by (rewrite A; vm_compute; reflexivity).
  pose proof (accepts_ok h _ _ _ Hr A1) as S1. exists h. eexists. split; [exact Eh|]. split; [exact S1|].
  intros junk buf D x Ab Al Tg De.
  change (mactive _) with [46%nat] in A.
  assert (Th : tau_honest h XC_A_B_GAA_GAB_GBB_TAUA_TAUB) by (intro X; rewrite A in X; cbn in X; destruct X as [X | []]; discriminate X).
  destruct (described_energy h _ XC_A_B_GAA_GAB_GBB_TAUA_TAUB D x Hr S1 Th Ab De) as [[vd G] E].
  rewrite A in E. cbn [rsum] in E.
  assert (St : reval (h_settings h) (fun _ => 0) (dvar D) [] SCANx_SCANX = None).
  { pose proof (scanx_stuck (h_settings h) (fun _ => 0) (dvar D)) as X. destruct (reval _ _ _ _ _) as [v|]; [|reflexivity]. exfalso. exact (X v Al Tg eq_refl). }
  change (nth_error functionals 46) with (Some ("XC_SCANX"%string, SCANx_SCANX)) in E. cbv beta iota in E.
  assert (E2 : @energy ROps {| h_active := [46%nat]; h_order := 0; h_depends := h_depends h; h_mode := XC_PARTIAL_DERIVATIVES; h_vars := XC_A_B_GAA_GAB_GBB_TAUA_TAUB; h_settings := h_settings h |} 0 x (czero 0) = Dom)
    by (etransitivity; [exact E|]; replace (reval (h_settings h) (fun _ : nat => 0) (dvar D) [] SCANx_SCANX) with (@None R) by (symmetry; exact St); reflexivity).
  clear E. rewrite <- A in E2. rename E2 into E.
  rewrite (eval_partial junk _ _ _ _ _ _ _ G). unfold partialn. change (Z.to_nat 0) with 0%nat. cbn iota. unfold partial0.
  erewrite (energy_ext _ vd); [rewrite E; reflexivity|apply (gs_ready _ _ _ _ _ _ G)|exact (gs_entry _ _ _ _ _ _ G)|].
  intros i Hi. unfold load. destruct (Nat.ltb_spec i (Z.to_nat (v_len vd))); [reflexivity|lia].
Qed.
Print Assumptions C33_scan_refuted.
Lemma t_gas_low n : 1 <= n -> 1.2 * n <= t_gas n.
Proof.
  intro Hn. unfold t_gas. assert (A : 4 <= Rpower (3 * PI ^ 2) (2 / 3)).
  { replace 4 with (Rpower 8 (2 / 3)).
    - apply Rle_Rpower_l; [lra|]. pose proof PI2_1 as P1. unfold PI2 in P1. nra.
    - replace 8 with (Rpower 2 3) by (replace 3 with (INR 3) by (cbn; lra); rewrite Rpower_pow; lra). rewrite Rpower_mult. replace (3 * (2 / 3)) with (INR 2) by (cbn; lra). rewrite Rpower_pow; lra. }
  assert (B : n <= Rpower n (5 / 3)) by (rewrite <- (Rpower_1 n) at 1 by lra; apply Rle_Rpower; lra). nra.
Qed.
(** Such densities exist: any density, the kinetic energy being that of a uniform gas plus that of one orbital. *)
Example C33_scan_refuted_example : exists D, above D /\ alpha_x (al D) = 1 /\ 1 / 10 ^ 14 < t_gas (2 * rho (al D)).
Proof.
  assert (T1 : 1 / 10 ^ 14 < t_gas (2 * (1 / 2))) by (pose proof (t_gas_low (2 * (1 / 2)) ltac:(lra)); lra).
  set (s := {| rho := 1 / 2; grad := V 1 0 0; hes := Hes 0 0 0 0 0 0; kin := (4 / (8 * (2 * (1 / 2))) + t_gas (2 * (1 / 2))) / 2; jp := 0 |}).
  exists {| al := s; be := s |}. split; [split; cbn [rho al be s]; change threshold with (1 * / 100000000000000); lra|]. split; [|exact T1].
  unfold alpha_x, iso_orbital, s, dot. cbn [al rho grad kin vx vy vz]. set (t := t_gas (2 * (1 / 2))) in *. field. lra.
Qed.

(** *** A concrete case: an open-shell density and a hybrid mixture of functionals. *)
Definition D_ex : dens :=
  {| al := {| rho := 1; grad := V 1 0 (/ 2); hes := Hes 1 0 0 2 0 (-1); kin := 1; jp := 0 |};
     be := {| rho := / 2; grad := V 0 (/ 2) 0; hes := Hes 0 1 0 0 0 1; kin := / 2; jp := 0 |} |}.
Lemma D_ex_above : above D_ex.
Proof. split; cbn [rho al be D_ex]; change threshold with (1 * / 100000000000000); lra. Qed.
Lemma encode_describes v D : In v open_sets -> describes v (fun i => nth i (encode v D) 0) D.
Proof. intro H. split; [now left|]. reflexivity. Qed.
Definition mix : list (string * nat * R) :=
  [("slaterx"%string, 0%nat, / 5); ("pbex"%string, 5%nat, 1); ("LYPC"%string, 16%nat, 1); ("pbec"%string, 4%nat, / 2); ("tw"%string, 25%nat, 1)].
Lemma mix_handle : exists h : handle ROps, reachable h /\ h_active h = [0; 5; 16; 4; 25]%nat /\ 0 < (h_settings h XC_RANGESEP_MU : R) /\ all_covered h D_ex.
Proof.
  destruct (make (K := ROps) mix eq_refl) as (h & _ & Hr & A & S). exists h. split; [exact Hr|].
  change (mactive _) with [0; 5; 16; 4; 25]%nat in A. split; [exact A|]. split.
  - rewrite S. unfold msettings, mix. cbn [map fold_left fst snd]. unfold wr_settings, upd. cbn. unfold Q2R. cbn. lra.
  - intros i nm Hi N. rewrite A in Hi. cbn [In] in Hi.
    destruct Hi as [<- | [<- | [<- | [<- | [<- | []]]]]]; vm_compute in N; injection N as <-; unfold covered; cbn [In any_gradient].
    1-4: left; tauto.
    right. left. unfold dot, gN, vadd. cbn. repeat split; try lra. left. reflexivity.
Qed.
Example C33_example : exists (h hp hc hq : handle ROps) D x, reachable h /\
  xcfun_eval_setup h XC_A_B_GAA_GAB_GBB XC_PARTIAL_DERIVATIVES 3 = Ok (hp, 0%Z) /\
  xcfun_eval_setup h XC_A_B_GAA_GAB_GBB XC_CONTRACTED (Z.of_nat 5) = Ok (hc, 0%Z) /\
  xcfun_eval_setup h XC_A_B_2ND_TAYLOR XC_POTENTIAL 1 = Ok (hq, 0%Z) /\
  0 < (h_settings h XC_RANGESEP_MU : R) /\ all_covered h D /\ above D /\ describes XC_A_B_GAA_GAB_GBB x D.
Proof.
  destruct mix_handle as (h & Hr & A & Mu & Ac). exists h.
  do 3 eexists. exists D_ex. eexists. split; [exact Hr|].
  split; [apply accepts_ok; [exact Hr|rewrite A; vm_compute; reflexivity]|].
  split; [apply accepts_ok; [exact Hr|rewrite A; vm_compute; reflexivity]|].
  split; [apply accepts_ok; [exact Hr|rewrite A; vm_compute; reflexivity]|].
  split; [exact Mu|]. split; [exact Ac|]. split; [exact D_ex_above|]. apply encode_describes. cbn. tauto.
Qed.
(** A mixture of meta-GGAs, SCAN among them, at the same density. *)
Definition meta : list (string * nat * R) :=
  [("tpssx"%string, 42%nat, 1); ("tpssc"%string, 41%nat, 1); ("m06lc"%string, 39%nat, / 2); ("scanx"%string, 46%nat, / 3); ("r2scanx"%string, 52%nat, 1); ("r2scanc"%string, 51%nat, 1)].
Example C33_meta_example : exists (h hp : handle ROps) D x, reachable h /\ h_active h = [42; 41; 39; 46; 52; 51]%nat /\
  xcfun_eval_setup h XC_A_B_GAA_GAB_GBB_TAUA_TAUB XC_PARTIAL_DERIVATIVES 3 = Ok (hp, 0%Z) /\
  0 < (h_settings h XC_RANGESEP_MU : R) /\ all_covered h D /\ above D /\ describes XC_A_B_GAA_GAB_GBB_TAUA_TAUB x D.
Proof.
  destruct (make (K := ROps) meta eq_refl) as (h & _ & Hr & A & S). exists h. change (mactive _) with [42; 41; 39; 46; 52; 51]%nat in A.
  eexists. exists D_ex. eexists. split; [exact Hr|]. split; [exact A|].
  split; [apply accepts_ok; [exact Hr|rewrite A; vm_compute; reflexivity]|].
  split; [rewrite S; unfold msettings, meta; cbn [map fold_left fst snd]; unfold wr_settings, upd; cbn; unfold Q2R; cbn; lra|].
  split; [|split; [exact D_ex_above|apply encode_describes; cbn; tauto]].
  assert (Fu : full D_ex) by (unfold full, dot, gN, vadd; cbn; repeat split; lra).
  assert (A1 : alpha_x (al D_ex) <> 1 /\ alpha_x (be D_ex) <> 1).
  { pose proof (t_gas_low (2 * 1) ltac:(lra)) as Q1. pose proof (t_gas_low (2 * / 2) ltac:(lra)) as Q2. unfold alpha_x, iso_orbital, dot. cbn [al be D_ex rho grad kin vx vy vz].
    split; apply Rlt_not_eq.
    - apply Rmult_lt_reg_r with (t_gas (2 * 1)); [lra|]. unfold Rdiv. rewrite Rmult_assoc, Rinv_l by lra. lra.
    - apply Rmult_lt_reg_r with (t_gas (2 * / 2)); [lra|]. unfold Rdiv. rewrite Rmult_assoc, Rinv_l by lra. lra. }
  intros i nm Hi N. rewrite A in Hi. cbn [In] in Hi. unfold covered.
  destruct Hi as [<- | [<- | [<- | [<- | [<- | [<- | []]]]]]]; vm_compute in N; injection N as <-; cbn [In positive_kinetic full_density].
  1-2: do 3 right; left; tauto.
  - do 2 right. left. cbn. split; [tauto|lra].
  - do 4 right. left. tauto.
  - do 3 right; left; tauto.
  - do 3 right; left; tauto.
Qed.
(** The same mixture satisfies the hypotheses of C18 for two different variable sets, with a
    defined energy. *)
Example C18_example : exists (h h1 h2 : handle ROps) D x1 x2 e, reachable h /\
  xcfun_eval_setup h XC_A_B_GAA_GAB_GBB XC_PARTIAL_DERIVATIVES 0 = Ok (h1, 0%Z) /\
  xcfun_eval_setup h XC_N_S_NX_NY_NZ_SX_SY_SZ XC_PARTIAL_DERIVATIVES 0 = Ok (h2, 0%Z) /\
  tau_honest h XC_A_B_GAA_GAB_GBB /\ tau_honest h XC_N_S_NX_NY_NZ_SX_SY_SZ /\ above D /\
  describes XC_A_B_GAA_GAB_GBB x1 D /\ describes XC_N_S_NX_NY_NZ_SX_SY_SZ x2 D /\ library_energy h1 x1 e.
Proof.
  destruct mix_handle as (h & Hr & A & Mu & Ac). exists h.
  assert (S1 : exists h1, xcfun_eval_setup h XC_A_B_GAA_GAB_GBB XC_PARTIAL_DERIVATIVES 0 = Ok (h1, 0%Z)) by (eexists; apply accepts_ok; [exact Hr|rewrite A; vm_compute; reflexivity]).
  assert (S2 : exists h2, xcfun_eval_setup h XC_N_S_NX_NY_NZ_SX_SY_SZ XC_PARTIAL_DERIVATIVES 0 = Ok (h2, 0%Z)) by (eexists; apply accepts_ok; [exact Hr|rewrite A; vm_compute; reflexivity]).
  destruct S1 as [h1 S1], S2 as [h2 S2].
  assert (De : describes XC_A_B_GAA_GAB_GBB (fun i => nth i (encode XC_A_B_GAA_GAB_GBB D_ex) 0) D_ex) by (apply encode_describes; cbn; tauto).
  destruct (C33_partial_defined (fun n _ => rconst n 0) h h1 _ 0 D_ex (fun _ => 0) _ Hr S1 ltac:(lia) Mu Ac D_ex_above De) as [ws E].
  exists h1, h2, D_ex. eexists. eexists. exists (rd (K := ROps) (fun _ => 0) ws 0).
  split; [exact Hr|]. split; [exact S1|]. split; [exact S2|]. split; [exact (covered_honest h D_ex _ Hr Ac)|]. split; [exact (covered_honest h D_ex _ Hr Ac)|].
  split; [exact D_ex_above|]. split; [exact De|]. split; [apply encode_describes; cbn; tauto|]. exists ws. split; [exact E|reflexivity].
Qed.
