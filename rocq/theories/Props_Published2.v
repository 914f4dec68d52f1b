(** * The functionals are the published ones (C35): concrete cases and a functional that is not *)
From Coq Require Import Reals QArith Qreals ZArith Arith Lia Lra Psatz List Bool String.
From Coquelicot Require Import Coquelicot.
From Verif Require Import Scalar RInst Tables Api SpecApi ApiProofs ApiProofs2 CTaylor CtAlg TMath Br Expr Densvars Functionals
  Eval SpecEval EvalProps Taint EvalExt Props_Eval Sem RSem EnergyR EvalR EvalReal EvalApi Phys Mk Props_Deriv Props_Dens Props_Dens2 Props_Scale Props_Scale2.
From Verif Require Import Safe2 Published Props_Published.
Import ListNotations.
Local Open Scope outcome_scope.
Local Open Scope R_scope.

(** ** Concrete cases *)
(** PBE on an open-shell density with gradients: the library returns the sum of the two published
    formulas. *)
Example C35_pbe_example : exists (h h0 : handle ROps) x, reachable h /\ h_active h = [5; 4]%nat /\
  xcfun_eval_setup h XC_A_B_GAA_GAB_GBB XC_PARTIAL_DERIVATIVES 0 = Ok (h0, 0%Z) /\ all_published h D_ex /\ all_covered h D_ex /\
  0 < (h_settings h XC_RANGESEP_MU : R) /\ above D_ex /\ describes XC_A_B_GAA_GAB_GBB x D_ex /\
  library_energy h0 x (gga_x (F_pbe 0.804 (0.066725 * PI ^ 2 / 3)) D_ex + pbe_c beta_pbe D_ex).
Proof.
  destruct (make (K := ROps) [("pbex"%string, 5%nat, 1); ("pbec"%string, 4%nat, 1)] eq_refl) as (h & Eh & Hr & A & Es). change (mactive _) with [5; 4]%nat in A.
  assert (Mu : 0 < (h_settings h XC_RANGESEP_MU : R)) by (rewrite Es; unfold msettings; cbn [map fold_left fst snd]; unfold wr_settings, upd; cbn; unfold Q2R; cbn; lra).
  assert (W5 : h_settings h 5%nat = 1) by (rewrite Es; unfold msettings; cbn [map fold_left fst snd fold_right]; unfold wr_settings, upd; cbn; unfold Q2R; cbn; lra).
  assert (W4 : h_settings h 4%nat = 1) by (rewrite Es; unfold msettings; cbn [map fold_left fst snd fold_right]; unfold wr_settings, upd; cbn; unfold Q2R; cbn; lra).
  assert (S : exists h1, xcfun_eval_setup h XC_A_B_GAA_GAB_GBB XC_PARTIAL_DERIVATIVES 0 = Ok (h1, 0%Z)) by (eexists; apply accepts_ok; [exact Hr|rewrite A; vm_compute; reflexivity]).
  destruct S as [h0 S].
  assert (De : describes XC_A_B_GAA_GAB_GBB (fun i => nth i (encode XC_A_B_GAA_GAB_GBB D_ex) 0) D_ex) by (apply encode_describes; cbn; tauto).
  assert (Ac : all_covered h D_ex) by (intros i nm Hi Hn; rewrite A in Hi; cbn [In] in Hi; destruct Hi as [<- | [<- | []]]; vm_compute in Hn; injection Hn as <-; unfold covered; cbn [In any_gradient]; tauto).
  assert (Ap : all_published h D_ex) by (intros i nm Hi Hn; rewrite A in Hi; cbn [In] in Hi; destruct Hi as [<- | [<- | []]]; vm_compute in Hn; injection Hn as <-; eexists; (split; [reflexivity|exact Logic.I])).
  exists h, h0. eexists. split; [exact Hr|]. split; [exact A|]. split; [exact S|]. split; [exact Ap|]. split; [exact Ac|]. split; [exact Mu|]. split; [exact D_ex_above|]. split; [exact De|].
  assert (Es' : gga_x (F_pbe 0.804 (0.066725 * PI ^ 2 / 3)) D_ex + pbe_c beta_pbe D_ex = published_sum h D_ex).
  { unfold published_sum. rewrite A. cbn [fold_right]. rewrite W5, W4. unfold published_energy. change (nth_error item_names 5) with (Some "PBEX"%string). change (nth_error item_names 4) with (Some "PBEC"%string). cbv iota beta.
    change (reference_of "PBEX") with (Some (mkRef "PBEX" (fun _ _ _ => gga_x (F_pbe 0.804 (0.066725 * PI ^ 2 / 3))) always)).
    change (reference_of "PBEC") with (Some (mkRef "PBEC" (fun _ _ _ => pbe_c beta_pbe) always)). cbv iota beta. cbn [ref_energy]. generalize (gga_x (F_pbe 0.804 (0.066725 * PI ^ 2 / 3)) D_ex) (pbe_c beta_pbe D_ex). intros p q. change (p + q = 1 * p + (1 * q + 0)). ring. }
  rewrite Es'. exact (C35_published_value h h0 _ D_ex _ Hr S Ap Ac Mu D_ex_above De).
Qed.
(** B3LYP's four density functionals on a density whose reduced gradients are in the range for
    which the table has Becke's functional. *)
Definition D_steep : dens :=
  {| al := {| rho := 1; grad := V 1 0 1; hes := Hes 1 0 0 2 0 (-1); kin := 1; jp := 0 |};
     be := {| rho := 1; grad := V 0 1 1; hes := Hes 0 1 0 0 0 1; kin := / 2; jp := 0 |} |}.
Lemma D_steep_above : above D_steep.
Proof. split; cbn [rho al be D_steep]; change threshold with (1 * / 100000000000000); lra. Qed.
Example C35_b3lyp_example : exists (h h0 : handle ROps) x e, reachable h /\ h_active h = [0; 7; 16; 3]%nat /\
  xcfun_eval_setup h XC_A_B_GAA_GAB_GBB XC_PARTIAL_DERIVATIVES 0 = Ok (h0, 0%Z) /\ all_published h D_steep /\
  above D_steep /\ describes XC_A_B_GAA_GAB_GBB x D_steep /\ library_energy h0 x e /\ e = published_sum h D_steep.
Proof.
  destruct (make (K := ROps) [("slaterx"%string, 0%nat, 8 / 10); ("beckecorrx"%string, 7%nat, 72 / 100); ("lypc"%string, 16%nat, 81 / 100); ("vwn5c"%string, 3%nat, 19 / 100)] eq_refl) as (h & Eh & Hr & A & Es). change (mactive _) with [0; 7; 16; 3]%nat in A.
  assert (Mu : 0 < (h_settings h XC_RANGESEP_MU : R)) by (rewrite Es; unfold msettings; cbn [map fold_left fst snd]; unfold wr_settings, upd; cbn; unfold Q2R; cbn; lra).
  assert (S : exists h1, xcfun_eval_setup h XC_A_B_GAA_GAB_GBB XC_PARTIAL_DERIVATIVES 0 = Ok (h1, 0%Z)) by (eexists; apply accepts_ok; [exact Hr|rewrite A; vm_compute; reflexivity]).
  destruct S as [h0 S].
  assert (De : describes XC_A_B_GAA_GAB_GBB (fun i => nth i (encode XC_A_B_GAA_GAB_GBB D_steep) 0) D_steep) by (apply encode_describes; cbn; tauto).
  assert (Ac : all_covered h D_steep) by (intros i nm Hi Hn; rewrite A in Hi; cbn [In] in Hi; destruct Hi as [<- | [<- | [<- | [<- | []]]]]; vm_compute in Hn; injection Hn as <-; unfold covered; cbn [In any_gradient]; tauto).
  assert (St : steep_D (h_settings h XC_RANGESEP_MU) D_steep).
  { assert (P1 : forall y, Rpower 1 y = 1) by (intro y; unfold Rpower; now rewrite ln_1, Rmult_0_r, exp_0). unfold steep_D, saa, sbb, dot. cbn. rewrite !P1. lra. }
  assert (Ap : all_published h D_steep) by (intros i nm Hi Hn; rewrite A in Hi; cbn [In] in Hi; destruct Hi as [<- | [<- | [<- | [<- | []]]]]; vm_compute in Hn; injection Hn as <-; eexists; (split; [reflexivity|first [exact Logic.I | exact St]])).
  exists h, h0. do 2 eexists. split; [exact Hr|]. split; [exact A|]. split; [exact S|]. split; [exact Ap|]. split; [exact D_steep_above|]. split; [exact De|].
  split; [exact (C35_published_value h h0 _ D_steep _ Hr S Ap Ac Mu D_steep_above De)|reflexivity].
Qed.
(** r2SCAN exchange with r++SCAN correlation. *)
Definition D_scan : dens :=
  {| al := {| rho := / 2; grad := V (/ 2) 0 0; hes := Hes 0 0 0 0 0 0; kin := 1; jp := 0 |};
     be := {| rho := / 2; grad := V (/ 2) 0 0; hes := Hes 0 0 0 0 0 0; kin := 1; jp := 0 |} |}.
Lemma D_scan_above : above D_scan.
Proof. split; cbn [rho al be D_scan]; change threshold with (1 * / 100000000000000); lra. Qed.
Lemma tf_1 : 0 < tf 1 <= 60.
Proof.
  assert (P1 : Rpower 1 (5 / 3) = 1) by (unfold Rpower; now rewrite ln_1, Rmult_0_r, exp_0). unfold tf, c_tf. rewrite P1. pose proof PI_RGT_0. pose proof PI_4.
  assert (X : 0 < Rpower (3 * PI ^ 2) (2 / 3)) by apply exp_pos. pose proof PI2_3_2.
  assert (Y : Rpower (3 * PI ^ 2) (2 / 3) <= Rpower (3 * PI ^ 2) 1) by (apply Rle_Rpower; [nra|lra]). rewrite Rpower_1 in Y by nra. split; [lra|nra].
Qed.
Lemma scan_ok n g tau u : n = 1 -> g = 1 -> tau = 2 -> 0 < u <= 60 -> off_orbital n g tau /\ off_zero (alpha_r2scan u n g tau).
Proof.
  intros -> -> -> U. unfold off_orbital, off_zero, alpha_r2scan. split; [rewrite Rabs_pos_eq; lra|right].
  assert (U' : 0 < u + 0.001 * (1 / (8 * 1))) by lra. set (d := u + _) in *. assert (d <= 100) by (unfold d; lra).
  apply Rmult_le_reg_r with d; [exact U'|]. replace ((2 - 1 / (8 * 1)) / d * d) with (2 - 1 / (8 * 1)) by (field; lra). lra.
Qed.
Example C35_scan_example : exists (h h0 : handle ROps) x e, reachable h /\ h_active h = [52; 49]%nat /\
  xcfun_eval_setup h XC_A_B_GAA_GAB_GBB_TAUA_TAUB XC_PARTIAL_DERIVATIVES 0 = Ok (h0, 0%Z) /\ all_published h D_scan /\
  above D_scan /\ describes XC_A_B_GAA_GAB_GBB_TAUA_TAUB x D_scan /\ library_energy h0 x e /\ e = published_sum h D_scan.
Proof.
  destruct (make (K := ROps) [("r2scanx"%string, 52%nat, 1); ("rppscanc"%string, 49%nat, 1)] eq_refl) as (h & Eh & Hr & A & Es). change (mactive _) with [52; 49]%nat in A.
  assert (Mu : 0 < (h_settings h XC_RANGESEP_MU : R)) by (rewrite Es; unfold msettings; cbn [map fold_left fst snd]; unfold wr_settings, upd; cbn; unfold Q2R; cbn; lra).
  assert (S : exists h1, xcfun_eval_setup h XC_A_B_GAA_GAB_GBB_TAUA_TAUB XC_PARTIAL_DERIVATIVES 0 = Ok (h1, 0%Z)) by (eexists; apply accepts_ok; [exact Hr|rewrite A; vm_compute; reflexivity]).
  destruct S as [h0 S].
  assert (De : describes XC_A_B_GAA_GAB_GBB_TAUA_TAUB (fun i => nth i (encode XC_A_B_GAA_GAB_GBB_TAUA_TAUB D_scan) 0) D_scan) by (apply encode_describes; cbn; tauto).
  assert (Fu : full D_scan) by (unfold full, dot, gN, vadd; cbn; lra).
  assert (Ac : all_covered h D_scan) by (intros i nm Hi Hn; rewrite A in Hi; cbn [In] in Hi; destruct Hi as [<- | [<- | []]]; vm_compute in Hn; injection Hn as <-; do 3 right; left; (split; [cbn [In full_density]; tauto|exact Fu])).
  assert (Ap : all_published h D_scan).
  { pose proof tf_1 as T1. intros i nm Hi Hn; rewrite A in Hi; cbn [In] in Hi; destruct Hi as [<- | [<- | []]]; vm_compute in Hn; injection Hn as <-; eexists; (split; [reflexivity|]).
    - assert (X : r2scan_x_spin (2 * / 2) (4 * (/ 2 * / 2 + 0 * 0 + 0 * 0)) (2 * 1)).
      { split; [lra|]. apply scan_ok; [field|field|ring|]. replace (2 * / 2) with 1 by field. exact T1. }
      split; exact X.
    - assert (D1 : ds_z (zet D_scan) = 1). { assert (P1 : forall y, Rpower 1 y = 1) by (intro y; unfold Rpower; now rewrite ln_1, Rmult_0_r, exp_0). unfold ds_z, zet, ntot. cbn [al be rho D_scan]. replace (1 + (/ 2 - / 2) / (/ 2 + / 2)) with 1 by field. replace (1 - (/ 2 - / 2) / (/ 2 + / 2)) with 1 by field. rewrite P1. field. }
      assert (N1 : ntot D_scan = 1) by (unfold ntot; cbn; field). apply (scan_ok (ntot D_scan) (stot D_scan) (1 + 1)); [exact N1|unfold stot, dot, gN, vadd; cbn; field|ring|]. rewrite D1, N1, Rmult_1_r. exact T1. }
  exists h, h0. do 2 eexists. split; [exact Hr|]. split; [exact A|]. split; [exact S|]. split; [exact Ap|]. split; [exact D_scan_above|]. split; [exact De|].
  split; [exact (C35_published_value h h0 _ D_scan _ Hr S Ap Ac Mu D_scan_above De)|reflexivity].
Qed.

(** ** A functional that is not the published one *)
(** "tw" is described as the von Weizsaecker kinetic energy functional, |grad n|^2 / (8 n).  On the
    closed-shell density below the formulas for the total density and for the two spins agree
    and give 1; the library returns 4 (/repo/src/functionals/tw.cpp 20-22 squares the gradient norm
    squared). *)
Definition D_tw : dens :=
  {| al := {| rho := 1; grad := V 2 0 0; hes := Hes 0 0 0 0 0 0; kin := 1; jp := 0 |};
     be := {| rho := 1; grad := V 2 0 0; hes := Hes 0 0 0 0 0 0; kin := 1; jp := 0 |} |}.
Theorem C35_tw_refuted :
  exists (h h0 : handle ROps) x, Api.run xcfun_new [CSet "tw" (1 : ROps)] = Ok h /\
    xcfun_eval_setup h XC_A_B_GAA_GAB_GBB XC_PARTIAL_DERIVATIVES 0 = Ok (h0, 0%Z) /\ above D_tw /\ describes XC_A_B_GAA_GAB_GBB x D_tw /\
    vw_spin (ntot D_tw) (stot D_tw) = 1 /\ per_spin vw_spin D_tw = 1 /\
    library_energy h0 x 4 /\ ~ library_energy h0 x 1.
Proof.
  destruct (make (K := ROps) [("tw"%string, 25%nat, 1)] eq_refl) as (h & Eh & Hr & A & Es). change (mactive _) with [25]%nat in A.
  assert (W : h_settings h 25%nat = 1) by (rewrite Es; unfold msettings; cbn [map fold_left fst snd fold_right]; unfold wr_settings, upd; cbn; unfold Q2R; cbn; lra).
  assert (S : exists h1, xcfun_eval_setup h XC_A_B_GAA_GAB_GBB XC_PARTIAL_DERIVATIVES 0 = Ok (h1, 0%Z)) by (eexists; apply accepts_ok; [exact Hr|rewrite A; vm_compute; reflexivity]).
  destruct S as [h0 S].
  assert (De : describes XC_A_B_GAA_GAB_GBB (fun i => nth i (encode XC_A_B_GAA_GAB_GBB D_tw) 0) D_tw) by (apply encode_describes; cbn; tauto).
  assert (Ab : above D_tw) by (split; cbn [rho al be D_tw]; change threshold with (1 * / 100000000000000); lra).
  assert (V : reval (h_settings h) (fun _ => 0) (dvar D_tw) [] tw = Some 4).
  { assert (G1 : dvar D_tw f_gaa = 4) by (cbn [dvar]; unfold dot; cbn; ring). assert (G2 : dvar D_tw f_gbb = 4) by (cbn [dvar]; unfold dot; cbn; ring). assert (G3 : dvar D_tw f_n = 2) by (cbn; ring).
    unfold tw. cbn [reval seval obnd]. rewrite sdivq by (apply Qeq_bool_neq; reflexivity). cbn [obnd]. rewrite G1, G2, G3.
    unfold rpow. destruct (Rlt_dec 0 _) as [_|X]; [|exfalso; apply X; lra]. cbn [obnd]. unfold rdiv. cbn [obnd].
    match goal with |- context [if ?b then _ else _] => destruct b as [X|_]; [exfalso; lra|] end. f_equal.
    match goal with |- context [Rpower _ ?b] => replace b with (INR 2) by (cbn [OofQ ROps]; unfold Q2R; cbn; lra) end. rewrite Rpower_pow by lra.
    match goal with |- ?b * _ / _ = _ => replace b with (/ 8) by (cbn [OofQ ROps]; unfold Q2R; cbn; lra) end. lra. }
  pose proof (one_energy h h0 _ D_tw _ 25 _ tw _ Hr S A ltac:(discriminate) eq_refl Ab De V) as E1. rewrite W in E1.
  exists h, h0. eexists. split; [exact Eh|]. split; [exact S|]. split; [exact Ab|]. split; [exact De|].
  split; [unfold vw_spin, ntot, stot, dot, gN, vadd; cbn; field|]. split; [unfold per_spin, vw_spin, saa, sbb, dot; cbn; field|].
  split; [apply E1; lra|]. intro X. apply E1 in X. lra.
Qed.
Print Assumptions C35_tw_refuted.
