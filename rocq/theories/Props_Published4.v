(** * Property theorems: four functionals that are not the published ones (C35) *)
From Coq Require Import Reals Ranalysis5 QArith Qreals ZArith Arith Lia Lra Psatz List Bool String.
From Coquelicot Require Import Coquelicot.
From Verif Require Import Scalar RInst Tables Api SpecApi ApiProofs ApiProofs2 CTaylor CtAlg TMath Br Expr Densvars Functionals
  Eval SpecEval EvalSem EvalProps Taint EvalExt Props_Eval Sem RSem EnergyR EvalR EvalReal EvalApi Phys Mk Props_Deriv Dom Oblig Safe Safe2 Props_Dens Props_Dens2 Props_Scale Props_Scale2 Value.
From Verif Require Import Itv.
From Verif Require Import Published PubTac PubX PubC PubM PubS PubS2 PubL PubNear Vwn Bounds PubR.
Import ListNotations.
Local Open Scope outcome_scope.
Local Open Scope R_scope.

(** The energy of a handle with one covered functional. *)
Lemma one_covered (h h0 : handle ROps) v D x i nm nm' ex : reachable h -> xcfun_eval_setup h v XC_PARTIAL_DERIVATIVES 0 = Ok (h0, 0%Z) ->
  h_active h = [i] -> i <> XC_REVTPSSX_id -> (i < 78)%nat -> nth_error item_names i = Some nm -> nth_error functionals i = Some (nm', ex) ->
  0 < (h_settings h XC_RANGESEP_MU : R) -> covered D nm -> above D -> describes v x D ->
  forall e, library_energy h0 x e <-> e = h_settings h i * tv (h_settings h) (fun _ => 0) (dvar D) [] ex.
Proof.
  intros Hr S A Ni L N F Mu C Ab De. destruct (covered_eval (h_settings h) (fun _ => 0) D i nm nm' ex Mu Ab L N C F) as [u U].
  pose proof (one_energy h h0 v D x i nm' ex u Hr S A Ni F Ab De U) as E. rewrite (tv_ok _ _ _ _ _ _ U) in E. exact E.
Qed.

(** ** REVTPSSC *)
Lemma rvp_D D : rvp (dvar D) = rev_pkzb D. Proof. reflexivity. Qed.
Lemma beta_rev_pos r t : 0 < r -> 0 < beta_rev r t.
Proof. intro H. unfold beta_rev. apply Rdiv_lt_0_compat; nra. Qed.
Lemma rev_C_nn D : above D -> 0 <= rev_C D.
Proof.
  intro Ab. unfold rev_C. cbv zeta. set (z := zet D). unfold Rdiv at 1. apply Rmult_le_pos.
  - pose proof (pow2_ge_0 z). pose proof (pow2_ge_0 (z ^ 2)). pose proof (pow2_ge_0 (z ^ 3)). replace (z ^ 4) with ((z ^ 2) ^ 2) by ring. replace (z ^ 6) with ((z ^ 3) ^ 2) by ring. lra.
  - set (y := 1 + _). replace (y ^ 4) with ((y ^ 2) ^ 2) by ring. destruct (Req_dec y 0) as [-> | Ny]; [replace ((0 ^ 2) ^ 2) with 0 by ring; rewrite Rinv_0; lra|].
    left. apply Rinv_0_lt_compat. assert (0 < y ^ 2) by (rewrite <- Rsqr_pow2; now apply Rsqr_pos_lt). apply pow_lt. assumption.
Qed.
Lemma rev_pkzb_neg D : above D -> let z := stot D / (8 * ntot D) / (kin (al D) + kin (be D)) in 0 <= z < 1 -> rev_pkzb D < 0.
Proof.
  intros Ab z Hz. destruct (thr_dens D Ab) as (Na & Nb & N & Z). pose proof (rev_C_nn D Ab) as C. unfold rev_pkzb. cbv zeta. fold z.
  set (e := eps_pbe _ _ _ _ _).
  assert (He : e < 0).
  { unfold e, eps_pbe, eps_pbe_at. cbv zeta.
    pose proof (t2_nn (pbe_phi (zet D)) (ntot D) (stot D) N (phi_pos _) (dot_nn _)) as T2.
    apply (pbe_H_b (beta_rev (rs (ntot D)) (pbe_t2 (pbe_phi (zet D)) (ntot D) (stot D))) (pbe_phi (zet D)) _ _ (beta_rev_pos _ _ (rs_nn _)) (phi_pos _) T2 (eps_pw92_neg _ _ Z)). }
  set (sum := _ / ntot D).
  assert (Sm : e <= sum).
  { unfold sum. apply Rmult_le_reg_r with (ntot D); [exact N|]. unfold Rdiv. rewrite (Rmult_assoc _ (/ ntot D)), Rinv_l, Rmult_1_r by lra.
    set (m1 := Rmax e _). set (m2 := Rmax e _). assert (e <= m1) by apply Rmax_l. assert (e <= m2) by apply Rmax_l. unfold ntot. nra. }
  set (Cv := rev_C D) in *.
  assert (Z2 : 0 <= z ^ 2 < 1) by (split; [apply pow2_ge_0|nra]).
  assert (Y : (1 + Cv) * z ^ 2 * e <= (1 + Cv) * z ^ 2 * sum) by (apply Rmult_le_compat_l; [apply Rmult_le_pos; lra|exact Sm]).
  assert (X : e * (1 + Cv * z ^ 2) - (1 + Cv) * z ^ 2 * e = e * (1 - z ^ 2)) by ring. nra.
Qed.
(** C35 (REVTPSSC).  "revTPSS correlation" (J. P. Perdew et al., Phys. Rev. Lett. 103, 026403) multiplies
    its last term by the cube of the ratio of the von Weizsaecker to the kinetic energy density, as
    TPSS does; the library multiplies by the square (/repo/src/functionals/revtpssc_eps.hpp 105-110).
    Its energy is too high at every density at which that ratio lies strictly between 0 and 1. *)
Definition vW_ratio (D : dens) : R := stot D / (8 * ntot D) / (kin (al D) + kin (be D)).
Definition D_rev : dens :=
  {| al := {| rho := / 2; grad := V (/ 2) 0 0; hes := Hes 0 0 0 0 0 0; kin := 4; jp := 0 |};
     be := {| rho := / 2; grad := V (/ 2) 0 0; hes := Hes 0 0 0 0 0 0; kin := 4; jp := 0 |} |}.
Lemma D_rev_above : above D_rev.
Proof. split; cbn [rho al be D_rev]; change threshold with (1 * / 100000000000000); lra. Qed.
Lemma D_rev_full : full D_rev.
Proof. unfold full, dot, gN, vadd; cbn; lra. Qed.
Lemma D_rev_ratio : 0 < vW_ratio D_rev < 1.
Proof. unfold vW_ratio, stot, ntot, dot, gN, vadd. cbn. lra. Qed.
Theorem C35_revtpssc_refuted :
  exists (h h0 : handle ROps), Api.run xcfun_new [CSet "revtpssc" (1 : ROps)] = Ok h /\
    xcfun_eval_setup h XC_A_B_GAA_GAB_GBB_TAUA_TAUB XC_PARTIAL_DERIVATIVES 0 = Ok (h0, 0%Z) /\
    (forall D x, above D -> full D -> 0 < vW_ratio D < 1 -> describes XC_A_B_GAA_GAB_GBB_TAUA_TAUB x D ->
       (exists e, library_energy h0 x e /\ revtpss_c D < e) /\ ~ library_energy h0 x (revtpss_c D)) /\
    (exists D x, above D /\ full D /\ 0 < vW_ratio D < 1 /\ describes XC_A_B_GAA_GAB_GBB_TAUA_TAUB x D).
Proof.
  destruct (make (K := ROps) [("revtpssc"%string, 43%nat, 1)] eq_refl) as (h & Eh & Hr & A & Es). change (mactive _) with [43]%nat in A.
  assert (W : h_settings h 43%nat = 1) by (rewrite Es; unfold msettings; cbn [map fold_left fst snd fold_right]; unfold wr_settings, upd; cbn; unfold Q2R; cbn; lra).
  assert (Mu : 0 < (h_settings h XC_RANGESEP_MU : R)) by (rewrite Es; unfold msettings; cbn [map fold_left fst snd]; unfold wr_settings, upd; cbn; unfold Q2R; cbn; lra).
  assert (S : exists h1, xcfun_eval_setup h XC_A_B_GAA_GAB_GBB_TAUA_TAUB XC_PARTIAL_DERIVATIVES 0 = Ok (h1, 0%Z)) by (eexists; apply accepts_ok; [exact Hr|rewrite A; vm_compute; reflexivity]).
  destruct S as [h0 S]. exists h, h0. split; [exact Eh|]. split; [exact S|]. split.
  - intros D x Ab Fu Z De.
    assert (Cv : covered D "REVTPSSC"%string) by (do 3 right; left; split; [cbn [In full_density]; tauto|exact Fu]).
    pose proof (one_covered h h0 _ D x 43 "REVTPSSC"%string _ revtpssc Hr S A ltac:(discriminate) ltac:(lia) eq_refl eq_refl Mu Cv Ab De) as E.
    rewrite W, Rmult_1_l, (k_revtpssc _ _ _ (phys_dvar D Ab)), rvp_D in E. change (dvar D f_gnn / (8 * dvar D f_n) / dvar D f_tau) with (vW_ratio D) in E. change (dvar D f_n) with (ntot D) in E.
    assert (Lt : revtpss_c D < ntot D * (rev_pkzb D * (1 + 2.8 * rev_pkzb D * vW_ratio D ^ 2))).
    { unfold revtpss_c, rev_c. fold (vW_ratio D). pose proof (rev_pkzb_neg D Ab) as K. cbv zeta in K. fold (vW_ratio D) in K. specialize (K ltac:(lra)).
      destruct (thr_dens D Ab) as (_ & _ & N & _). set (k := rev_pkzb D) in *. set (z := vW_ratio D) in *. apply Rmult_lt_compat_l; [exact N|].
      assert (X : k * (1 + 2.8 * k * z ^ 2) - k * (1 + 2.8 * k * z ^ 3) = 2.8 * (k ^ 2 * (z ^ 2 * (1 - z)))) by ring.
      assert (0 < k ^ 2 * (z ^ 2 * (1 - z))); [|lra]. apply Rmult_lt_0_compat; [nra|]. apply Rmult_lt_0_compat; [apply pow_lt|]; lra. }
    split; [eexists; split; [apply E; reflexivity|exact Lt]|]. intro X. apply E in X. lra.
  - exists D_rev. eexists. split; [exact D_rev_above|]. split; [exact D_rev_full|]. split; [exact D_rev_ratio|]. apply encode_describes. cbn; tauto.
Qed.
Print Assumptions C35_revtpssc_refuted.

(** ** SPBEC *)
Lemma ln_lower y : 0 <= y -> y / (1 + y) <= ln (1 + y).
Proof.
  intro H. assert (E : ln (1 + y) = - ln (/ (1 + y))) by (rewrite ln_Rinv; lra). rewrite E.
  assert (I : 0 < / (1 + y)) by (apply Rinv_0_lt_compat; lra). pose proof (exp_ineq1_le (ln (/ (1 + y)))) as X. rewrite exp_ln in X by exact I.
  assert (y / (1 + y) = 1 - / (1 + y)) by (field; lra). lra.
Qed.
Lemma spbe_G_pos c w e : 0 < c -> 0 < w -> e < 0 -> 0 < spbe_G c w e.
Proof.
  intros C W E. unfold spbe_G. apply Rdiv_lt_0_compat; [exact C|]. assert (0 < - (e / w)) by (replace (- (e / w)) with (- e / w) by (field; lra); apply Rdiv_lt_0_compat; lra).
  pose proof (exp_ineq1 (- (e / w)) ltac:(lra)). lra.
Qed.
(** t^2 and the coefficient A of the published formula. *)
Definition sp_t2 (D : dens) : R := pbe_t2 (pbe_phi (zet D)) (ntot D) (stot D).
Definition sp_A (D : dens) : R := spbe_G (0.066725 / 0.031091) (0.031091 * pbe_phi (zet D) ^ 3) (eps_vwn5 (ntot D) (zet D)).
Definition slow (D : dens) : Prop := 0 < sp_t2 D /\ (sp_A D + 0.066725 / 0.031091) * sp_t2 D < 1.
Lemma spbe_lower D : above D -> slow D -> spbe_lib D < spbe_c D.
Proof.
  intros Ab [T1 T2]. destruct (thr_dens D Ab) as (_ & _ & N & Z). pose proof (eps_vwn5_neg (ntot D) (zet D) Z) as E. pose proof (phi_pos (zet D)) as U.
  assert (U3 : 0 < pbe_phi (zet D) ^ 3) by now apply pow_lt.
  assert (HA : 0 < sp_A D) by (apply spbe_G_pos; [lra| |exact E]; apply Rmult_lt_0_compat; lra).
  unfold spbe_lib, spbe_c. cbv zeta. fold (sp_A D) (sp_t2 D).
  assert (HG : 0 < spbe_G (0.031091 / 0.066725) (0.031091 / 0.066725 * pbe_phi (zet D) ^ 3) (eps_vwn5 (ntot D) (zet D))) by (apply spbe_G_pos; [lra| |exact E]; apply Rmult_lt_0_compat; lra).
  set (G := spbe_G _ _ _) in *. set (A := sp_A D) in *. set (t := sp_t2 D) in *. set (e := eps_vwn5 _ _) in *. set (u3 := pbe_phi (zet D) ^ 3) in *.
  apply Rmult_lt_compat_l; [exact N|]. apply Rplus_lt_compat_l. set (b := 0.066725) in *. set (g := 0.031091) in *. assert (Hb : b = 0.066725) by reflexivity. assert (Hg : g = 0.031091) by reflexivity. clearbody b g.
  assert (Gt : 0 < G * t) by now apply Rmult_lt_0_compat. assert (At : 0 < A * t) by now apply Rmult_lt_0_compat.
  (* the library's term is at most g u3 t *)
  assert (L1 : b * u3 * ln (1 + g / b * t / (1 + G * t)) <= g * u3 * t).
  { assert (Y : 0 <= g / b * t / (1 + G * t)) by (apply Rmult_le_pos; [apply Rmult_le_pos; [apply Rmult_le_pos; [lra|left; apply Rinv_0_lt_compat; lra]|lra]|left; apply Rinv_0_lt_compat; lra]).
    destruct (ln1p _ Y) as [_ Y2]. apply Rle_trans with (b * u3 * (g / b * t / (1 + G * t))); [apply Rmult_le_compat_l; [apply Rmult_le_pos; lra|exact Y2]|].
    replace (b * u3 * (g / b * t / (1 + G * t))) with (g * u3 * t * / (1 + G * t)) by (field; lra). rewrite <- (Rmult_1_r (g * u3 * t)) at 2. apply Rmult_le_compat_l; [apply Rmult_le_pos; [apply Rmult_le_pos|]; lra|].
    rewrite <- Rinv_1. apply Rinv_le_contravar; lra. }
  (* the published one is more than b u3 t / 2 *)
  assert (L2 : b * u3 * t / 2 < g * u3 * ln (1 + b / g * t / (1 + A * t))).
  { assert (Y0 : 0 < b / g * t) by (apply Rmult_lt_0_compat; [apply Rdiv_lt_0_compat; lra|exact T1]).
    assert (Y : 0 <= b / g * t / (1 + A * t)) by (left; apply Rdiv_lt_0_compat; lra).
    pose proof (ln_lower _ Y) as Y2. apply Rlt_le_trans with (g * u3 * (b / g * t / (1 + A * t) / (1 + b / g * t / (1 + A * t)))); [|apply Rmult_le_compat_l; [apply Rmult_le_pos; lra|exact Y2]].
    replace (g * u3 * (b / g * t / (1 + A * t) / (1 + b / g * t / (1 + A * t)))) with (b * u3 * t * / (1 + (A + b / g) * t)) by (field; repeat split; try lra; rewrite Rmult_plus_distr_r in T2; assert (0 < g * (1 + A * t)) by (apply Rmult_lt_0_compat; lra); assert (0 < b * t) by (apply Rmult_lt_0_compat; lra); lra).
    unfold Rdiv. apply Rmult_lt_compat_l; [apply Rmult_lt_0_compat; [apply Rmult_lt_0_compat|]; lra|]. apply Rinv_lt_contravar; [|unfold Rdiv in T2; lra].
    assert (0 < (A + b * / g) * t) by (rewrite Rmult_plus_distr_r; unfold Rdiv in Y0; lra). lra. }
  assert (0 < u3 * t) by now apply Rmult_lt_0_compat. nra.
Qed.
Definition D_slow (s : R) : dens :=
  {| al := {| rho := / 2; grad := V s 0 0; hes := Hes 0 0 0 0 0 0; kin := 1; jp := 0 |};
     be := {| rho := / 2; grad := V s 0 0; hes := Hes 0 0 0 0 0 0; kin := 1; jp := 0 |} |}.
Lemma D_slow_above s : above (D_slow s).
Proof. split; cbn [rho al be D_slow]; change threshold with (1 * / 100000000000000); lra. Qed.
Lemma D_slow_ok : exists s, slow (D_slow s).
Proof.
  set (K := pbe_t2 (pbe_phi (zet (D_slow 0))) (ntot (D_slow 0)) 1).
  assert (Es : forall s, sp_t2 (D_slow s) = 4 * s ^ 2 * K).
  { intro s. unfold sp_t2, K, pbe_t2. change (zet (D_slow s)) with (zet (D_slow 0)). change (ntot (D_slow s)) with (ntot (D_slow 0)).
    replace (stot (D_slow s)) with (4 * s ^ 2) by (unfold stot, dot, gN, vadd; cbn; ring). unfold Rdiv. ring. }
  destruct (thr_dens _ (D_slow_above 0)) as (_ & _ & N & Z).
  assert (HK : 0 < K) by (unfold K, pbe_t2; pose proof (phi_pos (zet (D_slow 0))); pose proof (kF_pos (ntot (D_slow 0))); pos).
  assert (HA : 0 < sp_A (D_slow 0)) by (apply spbe_G_pos; [lra|apply Rmult_lt_0_compat; [lra|apply pow_lt, phi_pos]|apply eps_vwn5_neg; exact Z]).
  set (B := (sp_A (D_slow 0) + 0.066725 / 0.031091) * (4 * K)). assert (HB : 0 < B) by (unfold B; apply Rmult_lt_0_compat; lra).
  exists (/ (1 + B)). assert (I : 0 < / (1 + B) < 1) by (split; [apply Rinv_0_lt_compat; lra|rewrite <- Rinv_1; apply Rinv_lt_contravar; lra]). unfold slow. rewrite Es. change (sp_A (D_slow (/ (1 + B)))) with (sp_A (D_slow 0)). split.
  - pose proof (pow_lt _ 2 (proj1 I)). apply Rmult_lt_0_compat; lra.
  - replace (_ * _) with (B * (/ (1 + B)) ^ 2) by (unfold B; ring). set (i := / (1 + B)) in *. assert (X : i * (1 + B) = 1) by (unfold i; field; lra). assert (B * i < 1) by lra. assert (0 < B * i) by (apply Rmult_lt_0_compat; lra). replace (B * i ^ 2) with (B * i * i) by ring. nra.
Qed.
(** C35 (SPBEC).  The sPBE correlation (M. Swart, M. Sola and F. M. Bickelhaupt, J. Chem. Phys. 131, 094103) is
    the PBE correlation with H = gamma phi^3 ln (1 + (beta/gamma) t^2 / (1 + A t^2)), A = (beta/gamma) /
    (exp (- e / (gamma phi^3)) - 1), gamma = 0.031091 and beta = 0.066725.  The library has the values of beta
    and gamma exchanged, and beta/gamma in place of gamma in the exponent
    (/repo/src/functionals/spbec.cpp 22-28).  Its energy is too low at every density whose
    gradient is small but not zero. *)
Theorem C35_spbec_refuted :
  exists (h h0 : handle ROps), Api.run xcfun_new [CSet "spbec" (1 : ROps)] = Ok h /\
    xcfun_eval_setup h XC_A_B_GAA_GAB_GBB XC_PARTIAL_DERIVATIVES 0 = Ok (h0, 0%Z) /\
    (forall D x, above D -> slow D -> describes XC_A_B_GAA_GAB_GBB x D ->
       (exists e, library_energy h0 x e /\ e < spbe_c D) /\ ~ library_energy h0 x (spbe_c D)) /\
    (exists D x, above D /\ slow D /\ describes XC_A_B_GAA_GAB_GBB x D).
Proof.
  destruct (make (K := ROps) [("spbec"%string, 21%nat, 1)] eq_refl) as (h & Eh & Hr & A & Es). change (mactive _) with [21]%nat in A.
  assert (W : h_settings h 21%nat = 1) by (rewrite Es; unfold msettings; cbn [map fold_left fst snd fold_right]; unfold wr_settings, upd; cbn; unfold Q2R; cbn; lra).
  assert (Mu : 0 < (h_settings h XC_RANGESEP_MU : R)) by (rewrite Es; unfold msettings; cbn [map fold_left fst snd]; unfold wr_settings, upd; cbn; unfold Q2R; cbn; lra).
  assert (S : exists h1, xcfun_eval_setup h XC_A_B_GAA_GAB_GBB XC_PARTIAL_DERIVATIVES 0 = Ok (h1, 0%Z)) by (eexists; apply accepts_ok; [exact Hr|rewrite A; vm_compute; reflexivity]).
  destruct S as [h0 S]. exists h, h0. split; [exact Eh|]. split; [exact S|]. split.
  - intros D x Ab Sl De.
    assert (Cv : covered D "SPBEC"%string) by (left; cbn [In any_gradient]; tauto).
    pose proof (one_covered h h0 _ D x 21 "SPBEC"%string _ spbec Hr S A ltac:(discriminate) ltac:(lia) eq_refl eq_refl Mu Cv Ab De) as E.
    rewrite W, Rmult_1_l, (k_spbec _ _ _ (phys_dvar D Ab)) in E. change (forall e : R, library_energy h0 x e <-> e = spbe_lib D) in E.
    pose proof (spbe_lower D Ab Sl) as Lt. split; [eexists; split; [apply E; reflexivity|exact Lt]|]. intro X. apply E in X. lra.
  - destruct D_slow_ok as [s Sl]. exists (D_slow s). eexists. split; [apply D_slow_above|]. split; [exact Sl|]. apply encode_describes. cbn; tauto.
Qed.
Print Assumptions C35_spbec_refuted.

(** ** CSC *)
Definition cs_curv (D : dens) : R := rho (al D) * kin (al D) + rho (be D) * kin (be D) - stot D / 8 - (jp (al D) + jp (be D)).
Definition D_cs : dens :=
  {| al := {| rho := / 2; grad := V 1 0 0; hes := Hes 0 0 0 0 0 0; kin := / 2; jp := 0 |};
     be := {| rho := / 2; grad := V 1 0 0; hes := Hes 0 0 0 0 0 0; kin := / 2; jp := 0 |} |}.
Lemma D_cs_above : above D_cs.
Proof. split; cbn [rho al be D_cs]; change threshold with (1 * / 100000000000000); lra. Qed.
Lemma D_cs_curv : cs_curv D_cs = 0.
Proof. unfold cs_curv, stot, dot, gN, vadd. cbn. field. Qed.
(** C35 (CSC).  The Colle-Salvetti formula has the parameters a = 0.049, b = 0.132, c = 0.2533 and d = 0.349;
    the library sets all four to 1 (/repo/src/functionals/cs.cpp 18-21).  At every density whose
    curvature term vanishes the energy is more than seven times as negative. *)
Theorem C35_csc_refuted :
  exists (h h0 : handle ROps), Api.run xcfun_new [CSet "csc" (1 : ROps)] = Ok h /\
    xcfun_eval_setup h XC_A_B_GAA_GAB_GBB_LAPA_LAPB_TAUA_TAUB_JPAA_JPBB XC_PARTIAL_DERIVATIVES 0 = Ok (h0, 0%Z) /\
    (forall D x, above D -> describes XC_A_B_GAA_GAB_GBB_LAPA_LAPB_TAUA_TAUB_JPAA_JPBB x D ->
       forall e, library_energy h0 x e <-> e = cs_form 1 1 1 1 D) /\
    (forall D x, above D -> cs_curv D = 0 -> describes XC_A_B_GAA_GAB_GBB_LAPA_LAPB_TAUA_TAUB_JPAA_JPBB x D ->
       (exists e, library_energy h0 x e /\ e < 7 * cs_form 0.049 0.132 0.2533 0.349 D) /\ ~ library_energy h0 x (cs_form 0.049 0.132 0.2533 0.349 D)) /\
    (exists D x, above D /\ cs_curv D = 0 /\ describes XC_A_B_GAA_GAB_GBB_LAPA_LAPB_TAUA_TAUB_JPAA_JPBB x D).
Proof.
  destruct (make (K := ROps) [("csc"%string, 66%nat, 1)] eq_refl) as (h & Eh & Hr & A & Es). change (mactive _) with [66]%nat in A.
  assert (W : h_settings h 66%nat = 1) by (rewrite Es; unfold msettings; cbn [map fold_left fst snd fold_right]; unfold wr_settings, upd; cbn; unfold Q2R; cbn; lra).
  assert (Mu : 0 < (h_settings h XC_RANGESEP_MU : R)) by (rewrite Es; unfold msettings; cbn [map fold_left fst snd]; unfold wr_settings, upd; cbn; unfold Q2R; cbn; lra).
  assert (S : exists h1, xcfun_eval_setup h XC_A_B_GAA_GAB_GBB_LAPA_LAPB_TAUA_TAUB_JPAA_JPBB XC_PARTIAL_DERIVATIVES 0 = Ok (h1, 0%Z)) by (eexists; apply accepts_ok; [exact Hr|rewrite A; vm_compute; reflexivity]).
  destruct S as [h0 S]. exists h, h0. split; [exact Eh|]. split; [exact S|].
  assert (Q : forall D x, above D -> describes XC_A_B_GAA_GAB_GBB_LAPA_LAPB_TAUA_TAUB_JPAA_JPBB x D -> forall e, library_energy h0 x e <-> e = cs_form 1 1 1 1 D).
  { intros D x Ab De. assert (Cv : covered D "CSC"%string) by (left; cbn [In any_gradient]; tauto).
    pose proof (one_covered h h0 _ D x 66 "CSC"%string _ cs_csc Hr S A ltac:(discriminate) ltac:(lia) eq_refl eq_refl Mu Cv Ab De) as E.
    rewrite W, Rmult_1_l, (k_csc _ _ _ (phys_dvar D Ab)) in E. exact E. }
  split; [exact Q|]. split.
  - intros D x Ab C0 De. pose proof (Q D x Ab De) as E.
    assert (Lt : cs_form 1 1 1 1 D < 7 * cs_form 0.049 0.132 0.2533 0.349 D /\ cs_form 0.049 0.132 0.2533 0.349 D < 0).
    { unfold cs_form. fold (cs_curv D). rewrite C0, !Rmult_0_r, !Rmult_0_l, !Rplus_0_r. destruct (thr_dens D Ab) as (Na & Nb & N & _). set (m := Rpower _ _). assert (M : 0 < m) by apply exp_pos.
      set (g := 2 * _). assert (Hg : 0 < g * ntot D).
      { replace (g * ntot D) with (4 * rho (al D) * rho (be D) / ntot D) by (unfold g, ntot in *; field; lra). apply Rdiv_lt_0_compat; [|exact N]. apply Rmult_lt_0_compat; lra. }
      set (gn := g * ntot D) in *. replace (1 * (g / (1 + 1 * m)) * ntot D) with (gn * / (1 + m)) by (unfold gn; field; lra). replace (0.049 * (g / (1 + 0.349 * m)) * ntot D) with (gn * (0.049 * / (1 + 0.349 * m))) by (unfold gn; field; lra).
      assert (X : 7 * (0.049 * / (1 + 0.349 * m)) < / (1 + m)).
      { apply Rmult_lt_reg_r with ((1 + m) * (1 + 0.349 * m)); [apply Rmult_lt_0_compat; lra|]. replace (7 * (0.049 * / (1 + 0.349 * m)) * ((1 + m) * (1 + 0.349 * m))) with (7 * 0.049 * (1 + m)) by (field; lra). replace (/ (1 + m) * ((1 + m) * (1 + 0.349 * m))) with (1 + 0.349 * m) by (field; lra). lra. }
      assert (Y : 0 < 0.049 * / (1 + 0.349 * m)) by (apply Rmult_lt_0_compat; [lra|apply Rinv_0_lt_compat; lra]). set (p := 0.049 * _) in *. set (q := / (1 + m)) in *. split; nra. }
    split; [eexists; split; [apply E; reflexivity|apply Lt]|]. intro X. apply E in X. lra.
  - exists D_cs. eexists. split; [exact D_cs_above|]. split; [exact D_cs_curv|]. apply encode_describes. cbn; tauto.
Qed.
Print Assumptions C35_csc_refuted.

(** ** REVTPSSX *)
Lemma sq_2p : sqrt 2.1677 * sqrt 2.1677 = 2.1677. Proof. apply sqrt_sqrt. lra. Qed.
Lemma se_1 : 1 <= sqrt 2.1677. Proof. apply sqrt_ge1. lra. Qed.
(** The numerator stays positive when the root is at most the published one. *)
Lemma rev_num_pos w n g tau : 0 < n -> 0 < g -> 0 < tau -> 0 <= w <= rev_root n g tau -> 0 < rev_num w n g tau.
Proof.
  intros N G Ht [W1 W2]. unfold rev_num. cbv zeta. set (p := red2 n g) in *. set (z := g / (8 * n) / tau) in *. set (q := 9 / 20 * _ / _ + _).
  assert (Hp : 0 < p) by (unfold p, red2; pose proof (kF_pos n); pos).
  assert (Hz : 0 < z) by (unfold z; apply Rdiv_lt_0_compat; [apply Rdiv_lt_0_compat; lra|exact Ht]).
  assert (W3 : w * w <= 9 / 50 * (z * z) + 1 / 2 * (p * p)).
  { unfold rev_root in W2. fold p z in W2. assert (R0 : 0 <= 1 / 2 * (3 / 5 * z) ^ 2 + 1 / 2 * p ^ 2) by (pose proof (pow2_ge_0 (3 / 5 * z)); pose proof (pow2_ge_0 p); lra).
    pose proof (sqrt_sqrt _ R0) as Sq. set (s := sqrt _) in *. assert (w * w <= s * s) by nra. nra. }
  assert (A1 : 0 <= 146 / 2025 * q ^ 2 - 73 / 405 * q * w + 0.1127 * (w * w)).
  { pose proof (Rle_0_sqr (q - 5 / 4 * w)) as X. pose proof (Rle_0_sqr w). unfold Rsqr in *. lra. }
  assert (Zq : 0 < 1 + z ^ 2) by (pose proof (pow2_ge_0 z); lra).
  assert (A2 : 0 <= 2.35204 * z ^ 3 / (1 + z ^ 2) ^ 2) by (apply Rmult_le_pos; [apply Rmult_le_pos; [lra|left; now apply pow_lt]|left; apply Rinv_0_lt_compat; now apply pow_lt]).
  assert (A3 : 0 <= 2.35204 * z ^ 3 / (1 + z ^ 2) ^ 2 * p) by (apply Rmult_le_pos; lra). set (B := 2.35204 * z ^ 3 / _) in *.
  assert (A4 : 0 < p * (10 / 81 - 0.05635 * p + 2.1677 * 0.14 * (p * p))) by (apply Rmult_lt_0_compat; [exact Hp|]; pose proof (Rle_0_sqr (p - 0.09)) as X; unfold Rsqr in X; nra).
  pose proof se_1 as S1. set (se := sqrt 2.1677) in *. assert (A5 : z * z <= se * (z * z)) by (pose proof (Rle_0_sqr z); unfold Rsqr in *; nra).
  assert (A6 : 0 <= / 0.804 * (10 / 81) ^ 2 * p ^ 2) by (apply Rmult_le_pos; [apply Rmult_le_pos; [left; apply Rinv_0_lt_compat; lra|apply pow2_ge_0]|apply pow2_ge_0]).
  pose proof (Rle_0_sqr z) as Zz. unfold Rsqr in Zz.
  replace (p ^ 3) with (p * (p * p)) by ring. replace ((3 / 5 * z) ^ 2) with (9 / 25 * (z * z)) by field. nra.
Qed.
(** With |grad n|^2 <= 1 the library's root is at most the published one. *)
Lemma lib_root_le n g tau : 0 <= g <= 1 -> 0 <= lib_root n g tau <= rev_root n g tau.
Proof.
  intros [G0 G1]. unfold lib_root, rev_root. split; [apply Rmult_le_pos; [exact G0|apply sqrt_pos]|].
  apply Rle_trans with (sqrt (g ^ 2) * sqrt (1 / 2 * (3 / 5 * (1 / (8 * n) / tau)) ^ 2 + 1 / 2 * red2 n g ^ 2)); [rewrite sqrt_pow2 by exact G0; lra|].
  rewrite <- sqrt_mult_alt by apply pow2_ge_0. apply sqrt_le_1_alt. rewrite Rmult_plus_distr_l. apply Rplus_le_compat.
  - right. unfold Rdiv. ring.
  - pose proof (pow2_ge_0 (red2 n g)). assert (g ^ 2 <= 1) by nra. nra.
Qed.
Lemma lib_xx_nn n g tau : 0 < n -> 0 < g <= 1 -> 0 < tau -> 0 < lib_xx n g tau.
Proof.
  intros N G Ht. unfold lib_xx. pose proof se_1. pose proof (red2_nn n g ltac:(lra)). apply Rdiv_lt_0_compat; [apply rev_num_pos; try lra; apply lib_root_le; lra|]. assert (0 <= sqrt 2.1677 * red2 n g) by (apply Rmult_le_pos; lra). lra.
Qed.
(** If moreover alpha >= 1 then q >= 0 and the library's x is the larger one. *)
Lemma rev_xx_lt n g tau : 0 < n -> 0 < g <= 1 -> 0 < tau -> tf n <= tau - g / (8 * n) -> 0 < rev_xx n g tau < lib_xx n g tau.
Proof.
  intros N G Ht Al. pose proof se_1 as S1. assert (Hp : 0 < red2 n g) by (unfold red2; pose proof (kF_pos n); destruct G; pos).
  assert (P1 : rev_num (rev_root n g tau) n g tau > 0) by (apply rev_num_pos; try lra; split; [apply sqrt_pos|lra]).
  assert (P2 : rev_num (rev_root n g tau) n g tau <= rev_num (lib_root n g tau) n g tau).
  { unfold rev_num. cbv zeta. set (al := (tau - _) / tf n). set (q := 9 / 20 * _ / _ + _). assert (Hq : 0 <= q).
    { unfold q. assert (1 <= al). { unfold al. apply Rmult_le_reg_r with (tf n); [apply tf_pos|]. pose proof (tf_pos n). replace ((tau - g / (8 * n)) / tf n * tf n) with (tau - g / (8 * n)) by (field; lra). lra. }
      apply Rplus_le_le_0_compat; [|lra]. apply Rmult_le_pos; [lra|]. left. apply Rinv_0_lt_compat, sqrt_lt_R0. pose proof (quarter al) as X. replace (1 + 0.40 * al * (al - 1)) with (2 / 5 * al * (al - 1) + 1) by (decs; field). exact X. }
    destruct (lib_root_le n g tau ltac:(lra)) as [_ Lr]. set (w := rev_root _ _ _) in *. set (w' := lib_root _ _ _) in *. assert (q * w' <= q * w) by (apply Rmult_le_compat_l; assumption). lra. }
  set (s := sqrt 2.1677) in *. set (p := red2 n g) in *. assert (Sp : 0 < s * p) by (apply Rmult_lt_0_compat; lra). unfold rev_xx, lib_xx. fold s p.
  set (a := rev_num (rev_root n g tau) n g tau) in *. set (b := rev_num _ _ _ _) in *. split; [apply Rdiv_lt_0_compat; [lra|apply pow_lt; lra]|].
  apply Rlt_le_trans with (a / (1 + s * p)).
  - unfold Rdiv. apply Rmult_lt_compat_l; [lra|]. apply Rinv_lt_contravar; [apply Rmult_lt_0_compat; [lra|apply pow_lt; lra]|nra].
  - unfold Rdiv. apply Rmult_le_compat_r; [left; apply Rinv_0_lt_compat; lra|exact P2].
Qed.
Lemma tpss_F_lt x y : 0 <= x < y -> tpss_F x < tpss_F y.
Proof.
  intros [H1 H2]. unfold tpss_F. apply Rplus_lt_compat_l, Ropp_lt_contravar. unfold Rdiv at 1 3. apply Rmult_lt_compat_l; [lra|].
  assert (x / 0.804 < y / 0.804) by (unfold Rdiv; apply Rmult_lt_compat_r; [apply Rinv_0_lt_compat; lra|exact H2]). assert (0 <= x / 0.804) by (apply Rmult_le_pos; [exact H1|left; apply Rinv_0_lt_compat; lra]).
  apply Rinv_lt_contravar; [apply Rmult_lt_0_compat; lra|lra].
Qed.
Section G.
Variables (st : nat -> T ROps) (x : nat -> R) (fl : fld -> R).
Hypothesis Sp : 0 < fl f_a /\ 0 < fl f_b /\ 0 < fl f_gaa /\ 0 < fl f_gbb /\ 0 < fl f_taua /\ 0 < fl f_taub.
Hypothesis Sm : 4 * fl f_gaa <= 1 /\ 4 * fl f_gbb <= 1.
Lemma revtpssx_good : good st x fl [] (obs iP iP [("revtpssx_eps_F_x.xpz"%string, iNN)] revtpssx).
Proof.
  destruct Sp as (Pa & Pb & Ga & Gb & Ta & Tb). destruct Sm as [Ma Mb].
  obg; try apply quarter; try (apply Rmult_integral_contrapositive_currified; [lra|apply sqrt_nz, quarter]).
  all: rx "revtpssx_eps_F_x.d_n"%string; rx "revtpssx_eps_F_x.d_gnn"%string; rx "revtpssx_eps_F_x.d_tau"%string.
  all: rewrite !tf_E, !p_E1 by lra; erewrite rev_xv_E by (lra || reflexivity); apply gam_NN; left; apply lib_xx_nn; lra.
Qed.
End G.
(** C35 (REVTPSSX).  The exchange of the same paper differs from the library's in two places
    (/repo/src/functionals/revtpssx_eps.hpp 26-49).  Taking |grad n|^2 out of sqrt ((3 z / 5)^2 / 2 + p^2 / 2) the
    library leaves p^2 where p^2 / |grad n|^4 belongs; and it divides by 1 + sqrt e p where the paper
    divides by its square.  At every density with small gradients and large kinetic energy densities
    its energy is too low. *)
Definition rev_mild (D : dens) : Prop := full D /\ 4 * saa D <= 1 /\ 4 * sbb D <= 1 /\
  tf (2 * rho (al D)) <= 2 * kin (al D) - 4 * saa D / (8 * (2 * rho (al D))) /\ tf (2 * rho (be D)) <= 2 * kin (be D) - 4 * sbb D / (8 * (2 * rho (be D))).
Lemma rev_lower D : above D -> rev_mild D -> spin_scaled3 (fun n g tau => n * ex_gas n * tpss_F (lib_xx n g tau)) D < revtpss_x D.
Proof.
  intros Ab ((F1 & F2 & _ & F4 & F5) & A1 & A2 & T1 & T2). destruct (thr_dens D Ab) as (Na & Nb & _ & _). unfold revtpss_x, spin_scaled3.
  assert (K : forall n g tau, 0 < n -> 0 < g <= 1 -> 0 < tau -> tf n <= tau - g / (8 * n) -> n * ex_gas n * tpss_F (lib_xx n g tau) < n * ex_gas n * tpss_F (rev_xx n g tau)).
  { intros n g tau N G Ht Al. destruct (rev_xx_lt n g tau N G Ht Al) as [X1 X2]. pose proof (tpss_F_lt _ _ (conj (Rlt_le _ _ X1) X2)) as X3. pose proof (ex_neg n) as X4. assert (n * ex_gas n < 0) by nra. nra. }
  pose proof (K (2 * rho (al D)) (4 * saa D) (2 * kin (al D)) ltac:(lra) ltac:(unfold saa in *; lra) ltac:(lra) T1).
  pose proof (K (2 * rho (be D)) (4 * sbb D) (2 * kin (be D)) ltac:(lra) ltac:(unfold sbb in *; lra) ltac:(lra) T2). lra.
Qed.
Definition D_mild : dens :=
  {| al := {| rho := / 2; grad := V (/ 2) 0 0; hes := Hes 0 0 0 0 0 0; kin := 40; jp := 0 |};
     be := {| rho := / 2; grad := V (/ 2) 0 0; hes := Hes 0 0 0 0 0 0; kin := 40; jp := 0 |} |}.
Lemma D_mild_above : above D_mild.
Proof. split; cbn [rho al be D_mild]; change threshold with (1 * / 100000000000000); lra. Qed.
Lemma tf_one : tf 1 <= 60.
Proof.
  assert (P1 : Rpower 1 (5 / 3) = 1) by (unfold Rpower; now rewrite ln_1, Rmult_0_r, exp_0). unfold tf, c_tf. rewrite P1. pose proof PI_RGT_0. pose proof PI_4. pose proof PI2_3_2.
  assert (Y : Rpower (3 * PI ^ 2) (2 / 3) <= Rpower (3 * PI ^ 2) 1) by (apply Rle_Rpower; [nra|lra]). rewrite Rpower_1 in Y by nra. nra.
Qed.
Lemma D_mild_ok : rev_mild D_mild.
Proof.
  unfold rev_mild, full, saa, sbb, dot, gN, vadd. cbn [al be rho grad kin D_mild vx vy vz]. replace (2 * / 2) with 1 by field. pose proof tf_one. repeat split; lra.
Qed.
Theorem C35_revtpssx_refuted :
  exists (h h0 : handle ROps), Api.run xcfun_new [CSet "revtpssx" (1 : ROps)] = Ok h /\
    xcfun_eval_setup h XC_A_B_GAA_GAB_GBB_TAUA_TAUB XC_PARTIAL_DERIVATIVES 0 = Ok (h0, 0%Z) /\
    (forall D x, above D -> rev_mild D -> describes XC_A_B_GAA_GAB_GBB_TAUA_TAUB x D ->
       (exists e, library_energy h0 x e /\ e < revtpss_x D) /\ ~ library_energy h0 x (revtpss_x D)) /\
    (exists D x, above D /\ rev_mild D /\ describes XC_A_B_GAA_GAB_GBB_TAUA_TAUB x D).
Proof.
  destruct (make (K := ROps) [("revtpssx"%string, 44%nat, 1)] eq_refl) as (h & Eh & Hr & A & Es). change (mactive _) with [44]%nat in A.
  assert (W : h_settings h 44%nat = 1) by (rewrite Es; unfold msettings; cbn [map fold_left fst snd fold_right]; unfold wr_settings, upd; cbn; unfold Q2R; cbn; lra).
  assert (Mu : 0 < (h_settings h XC_RANGESEP_MU : R)) by (rewrite Es; unfold msettings; cbn [map fold_left fst snd]; unfold wr_settings, upd; cbn; unfold Q2R; cbn; lra).
  assert (S : exists h1, xcfun_eval_setup h XC_A_B_GAA_GAB_GBB_TAUA_TAUB XC_PARTIAL_DERIVATIVES 0 = Ok (h1, 0%Z)) by (eexists; apply accepts_ok; [exact Hr|rewrite A; vm_compute; reflexivity]).
  destruct S as [h0 S]. exists h, h0. split; [exact Eh|]. split; [exact S|]. split.
  - intros D x Ab Mi De. pose proof Mi as ((F1 & F2 & F3 & F4 & F5) & A1 & A2 & T1 & T2). destruct (thr_dens D Ab) as (Na & Nb & _ & _).
    assert (Gd : good (h_settings h) (fun _ => 0) (dvar D) [] (obs iP iP [("revtpssx_eps_F_x.xpz"%string, iNN)] revtpssx)).
    { apply revtpssx_good; cbn [dvar]; unfold saa, sbb in *; repeat split; lra. }
    assert (U : exists u, reval (h_settings h) (fun _ => 0) (dvar D) [] revtpssx = Some u).
    { apply (obs_ok (h_settings h) (fun _ => 0) D iP iP _ revtpssx Mu Ab) with (4 := Gd).
      - intros u [-> | [-> | ->]]; apply gam_P; assumption.
      - intros u [-> | [-> | ->]]; apply gam_P; lra.
      - apply pw92_fact. exact Ab. }
    destruct U as [u U].
    assert (Th : tau_honest h XC_A_B_GAA_GAB_GBB_TAUA_TAUB) by (intros _; vm_compute; reflexivity).
    assert (E : forall e, library_energy h0 x e <-> e = u).
    { intro e. destruct (described_energy h h0 _ D x Hr S Th Ab De) as [[vd G] E]. rewrite A in E. cbn [rsum] in E. change (nth_error functionals 44) with (Some ("XC_REVTPSSX"%string, revtpssx)) in E. cbv iota beta in E.
      rewrite (lib_energy _ _ _ _ _ _ G), E, U, W. cbn [obnd]. split; intro H; [injection H as <-|subst e; f_equal]; cbn [T ROps]; ring. }
    rewrite (tv_ok _ _ _ _ _ _ U), (k_revtpssx _ _ _ (phys_dvar D Ab)) in E. change (forall e : R, library_energy h0 x e <-> e = spin_scaled3 (fun n g tau => n * ex_gas n * tpss_F (lib_xx n g tau)) D) in E.
    pose proof (rev_lower D Ab Mi) as Lt. split; [eexists; split; [apply E; reflexivity|exact Lt]|]. intro X. apply E in X. lra.
  - exists D_mild. eexists. split; [exact D_mild_above|]. split; [exact D_mild_ok|]. apply encode_describes. cbn; tauto.
Qed.
Print Assumptions C35_revtpssx_refuted.

(** ** REVTPSSX divides by zero at an ordinary density *)
Section D.
Variables (st : nat -> T ROps) (x : nat -> R) (fl : fld -> R).
Lemma let_inv r y e1 e2 c : reval st x fl r (ELet y e1 e2) = Some c -> reval st x fl r e1 = Some (tv st x fl r e1) /\ reval st x fl ((y, tv st x fl r e1) :: r) e2 = Some c.
Proof. cbn [reval]. intro H. destruct (reval st x fl r e1) as [v|] eqn:E; [|discriminate H]. rewrite <- (tv_ok _ _ _ _ _ _ E). split; [reflexivity|exact H]. Qed.
Lemma den_inv r s1 s2 e c : reval st x fl r (EKSub s1 (EKDiv s2 e)) = Some c -> tv st x fl r e <> 0.
Proof.
  cbn [reval]. intro H. apply obnd_some in H. destruct H as (k & _ & H). apply obnd_some in H. destruct H as (y & H & _). apply obnd_some in H. destruct H as (k2 & _ & H). apply obnd_some in H. destruct H as (d & Ed & H).
  rewrite <- (tv_ok _ _ _ _ _ _ Ed). unfold rdiv in H. destruct (Req_EM_T d 0); [discriminate H|assumption].
Qed.
Lemma revtpssx_den (u : R) : 0 < fl f_a -> 0 <= fl f_gaa -> reval st x fl [] revtpssx = Some u -> 1 + lib_xx (2 * fl f_a) (4 * fl f_gaa) (2 * fl f_taua) / 0.804 <> 0.
Proof.
  intros A G H. apply let_inv in H. destruct H as [H _]. repeat (apply let_inv in H; destruct H as [_ H]). apply den_inv in H. intro Z. apply H. clear H. rewrite <- Z. vred.
  rewrite !tf_E, !p_E1 by lra. erewrite rev_xv_E by (lra || reflexivity). replace 0.804 with (201 / 250) by (decs; lra). lra.
Qed.
End D.
(** x along a family of densities with alpha = 1. *)
Section X.
Let u := red2 1 1.
Let tau (g : R) := g / (8 * 1) + tf 1.
Let se := sqrt 2.1677.
Let nmr (g : R) : R :=
  (10 / 81 + 2.35204 * (g / (8 * 1) / tau g) ^ 3 / (1 + (g / (8 * 1) / tau g) ^ 2) ^ 2) * (u * g) + 146 / 2025 * (2 * (u * g) / 3) ^ 2
  - 73 / 405 * (2 * (u * g) / 3) * (g * sqrt (1 / 2 * (3 / 5 * (1 / (8 * 1) / tau g)) ^ 2 + 1 / 2 * (u * g) ^ 2))
  + / 0.804 * (10 / 81) ^ 2 * (u * g) ^ 2 + 2 * se * (10 / 81) * (3 / 5 * (g / (8 * 1) / tau g)) ^ 2 + 2.1677 * 0.14 * (u * g) ^ 3.
Let F (g : R) : R := 1 + nmr g / (1 + se * (u * g)) / 0.804.
Lemma u_b : 0 < u <= 1 / 36.
Proof.
  unfold u, red2. pose proof (kF_pos 1) as K. assert (K3 : 3 <= kF 1).
  { unfold kF. replace 3 with (Rpower 27 (1 / 3)) at 1; [apply Rle_Rpower_l; [lra|]; pose proof PI2_3_2 as P1; split; [lra|nra]|].
    replace 27 with (Rpower 3 3) by (replace 3 with (INR 3) at 2 by (cbn; lra); rewrite Rpower_pow by lra; lra). rewrite Rpower_mult. replace (3 * (1 / 3)) with 1 by field. apply Rpower_1. lra. }
  split; [pos|]. apply Rmult_le_reg_r with ((2 * kF 1 * 1) ^ 2); [pos|]. replace (1 / (2 * kF 1 * 1) ^ 2 * (2 * kF 1 * 1) ^ 2) with 1 by (field; lra). nra.
Qed.
Lemma F_E g : 0 < g -> 1 + lib_xx 1 g (tau g) / 0.804 = F g.
Proof.
  intro G. assert (Ep : red2 1 g = u * g) by (unfold u, red2, Rdiv; ring). unfold F, lib_xx, rev_num, lib_root. cbv zeta. rewrite !Ep. fold se.
  replace ((tau g - g / (8 * 1)) / tf 1) with 1 by (unfold tau; pose proof (tf_pos 1); field; lra). replace (9 / 20 * (1 - 1) / sqrt (1 + 0.40 * 1 * (1 - 1)) + 2 * (u * g) / 3) with (2 * (u * g) / 3) by (unfold Rdiv; ring). reflexivity.
Qed.
Lemma F_cont g : 0 < g -> continuity_pt F g.
Proof.
  intro G. apply derivable_continuous_pt, ex_derive_Reals_0. pose proof (tf_pos 1) as Tf. destruct u_b as [U _]. assert (S1 : 0 < se) by (unfold se; apply sqrt_lt_R0; lra).
  assert (Ht : 0 < g * / (8 * 1) + tf 1) by lra. assert (Ug : 0 < u * g) by now apply Rmult_lt_0_compat. unfold F, nmr. unfold tau. auto_derive.
  set (t := g * / (8 * 1) + tf 1) in *. assert (Q : forall y, 0 < 1 + y * (y * 1)) by (intro y; pose proof (Rle_0_sqr y); unfold Rsqr in *; lra).
  assert (Sq : 0 < se * (u * g)) by now apply Rmult_lt_0_compat.
  split; [lra|]. split; [lra|]. split; [|split; [lra|split; [|split; [lra|split; [lra|exact Logic.I]]]]].
  - set (y := g * / (8 * 1) * / t). pose proof (Q y). assert (0 < (1 + y * (y * 1)) * ((1 + y * (y * 1)) * 1)) by (apply Rmult_lt_0_compat; lra). lra.
  - set (y := 3 / 5 * _). pose proof (Rle_0_sqr y). unfold Rsqr in *. assert (0 < u * g * (u * g)) by now apply Rmult_lt_0_compat. lra.
Qed.
Lemma F_neg : F (3 / u) < 0.
Proof.
  destruct u_b as [U U2]. pose proof (tf_pos 1) as Tf. set (g := 3 / u). assert (G : 108 <= g) by (unfold g; apply Rmult_le_reg_r with u; [exact U|]; replace (3 / u * u) with 3 by (field; lra); lra).
  assert (Ug : u * g = 3) by (unfold g; field; lra). unfold F, nmr. rewrite Ug.
  assert (Ht : g / (8 * 1) < tau g) by (unfold tau; lra). set (z := g / (8 * 1) / tau g).
  assert (Z : 0 < z < 1) by (unfold z; assert (0 < g / (8 * 1)) by lra; split; [apply Rdiv_lt_0_compat; lra|apply Rmult_lt_reg_r with (tau g); [lra|]; unfold Rdiv at 1; rewrite Rmult_assoc, Rinv_l by lra; lra]).
  set (w := sqrt _). assert (W : 2 <= w) by (unfold w; apply Rle_trans with (sqrt (2 ^ 2)); [right; symmetry; apply sqrt_pow2; lra|]; apply sqrt_le_1_alt; set (y := 3 / 5 * _); pose proof (pow2_ge_0 y); lra).
  assert (B : 2.35204 * z ^ 3 / (1 + z ^ 2) ^ 2 <= 2.35204).
  { assert (0 < (1 + z ^ 2) ^ 2) by (apply pow_lt; pose proof (pow2_ge_0 z); lra). apply Rmult_le_reg_r with ((1 + z ^ 2) ^ 2); [assumption|]. unfold Rdiv. rewrite Rmult_assoc, Rinv_l by lra. assert (z ^ 3 <= 1) by nra. assert (1 <= (1 + z ^ 2) ^ 2) by nra. lra. }
  set (b := 2.35204 * z ^ 3 / _) in *. assert (S1 : 1 <= se) by apply se_1. assert (S2 : se <= 2) by (unfold se; apply Rle_trans with (sqrt (2 ^ 2)); [apply sqrt_le_1_alt; lra|right; apply sqrt_pow2; lra]).
  assert (Gw : 216 <= g * w) by nra.
  assert (E1 : se * (3 / 5 * z) ^ 2 <= 2) by (replace (se * (3 / 5 * z) ^ 2) with (9 / 25 * (se * z ^ 2)) by field; assert (0 <= z ^ 2 <= 1) by nra; nra).
  assert (E2 : / 0.804 <= 2) by (replace 2 with (/ / 2) by field; apply Rinv_le_contravar; lra). assert (E3 : 0 < / 0.804) by (apply Rinv_0_lt_compat; lra).
  set (nn := (10 / 81 + b) * 3 + _ - _ + _ + _ + _). assert (Nn : nn < - 20).
  { unfold nn. replace (2 * se * (10 / 81) * (3 / 5 * z) ^ 2) with (20 / 81 * (se * (3 / 5 * z) ^ 2)) by field. lra. }
  assert (E4 : nn / (1 + se * 3) <= nn / 7).
  { assert (/ 7 <= / (1 + se * 3)) by (apply Rinv_le_contravar; lra). unfold Rdiv. nra. }
  assert (E5 : / 0.804 >= 1) by (rewrite <- Rinv_1; apply Rle_ge, Rinv_le_contravar; lra). unfold Rdiv in *. nra.
Qed.
Lemma stuck : exists g, 0 < g /\ lib_xx 1 g (tau g) = - 0.804.
Proof.
  destruct u_b as [U U2]. assert (G : 108 <= 3 / u) by (apply Rmult_le_reg_r with u; [exact U|]; replace (3 / u * u) with 3 by (field; lra); lra).
  assert (F1 : 0 < F 1). { rewrite <- F_E by lra. pose proof (tf_pos 1). assert (0 < lib_xx 1 1 (tau 1)) by (apply lib_xx_nn; unfold tau; lra). assert (0 < lib_xx 1 1 (tau 1) / 0.804) by (apply Rdiv_lt_0_compat; lra). lra. }
  destruct (Ranalysis5.IVT_interv (fun g => - F g) 1 (3 / u)) as (g & G1 & G2).
  - intros a Ha. apply continuity_pt_opp, F_cont. lra.
  - lra.
  - lra.
  - pose proof F_neg. lra.
  - exists g. split; [lra|]. pose proof (F_E g ltac:(lra)) as E. assert (Z : 1 + lib_xx 1 g (tau g) / 0.804 = 0) by lra.
    assert (X : lib_xx 1 g (tau g) = lib_xx 1 g (tau g) / 0.804 * 0.804) by (field; lra). lra.
Qed.
End X.
(** C33 (REVTPSSX).  Because of the two differences above the argument of revTPSS exchange can be negative, and
    reach - kappa, where the library divides by zero.  The density exhibited is one that satisfies
    everything asked of a physical density: it is above the threshold, its gradients and
    kinetic energy densities are positive, and the latter are at least those of von Weizsaecker.
    The published formula gives a number between 0 and 1.804 times the exchange of the gas there. *)
Definition physical (D : dens) : Prop := above D /\ full D /\ saa D / (8 * rho (al D)) <= kin (al D) /\ sbb D / (8 * rho (be D)) <= kin (be D).
Theorem C33_revtpssx_refuted :
  exists h h1 : handle ROps, Api.run xcfun_new [CSet "revtpssx" (1 : ROps)] = Ok h /\
    xcfun_eval_setup h XC_A_B_GAA_GAB_GBB_TAUA_TAUB XC_PARTIAL_DERIVATIVES 0 = Ok (h1, 0%Z) /\
    exists D x, physical D /\ describes XC_A_B_GAA_GAB_GBB_TAUA_TAUB x D /\
      1.804 * dirac D <= revtpss_x D <= dirac D /\
      forall junk buf, xcfun_eval junk h1 buf x = Dom.
Proof.
  destruct (make (K := ROps) [("revtpssx"%string, 44%nat, 1)] eq_refl) as (h & Eh & Hr & A & _).
  assert (A1 : accepts (h_active h) XC_A_B_GAA_GAB_GBB_TAUA_TAUB XC_PARTIAL_DERIVATIVES 0 = true) by (rewrite A; vm_compute; reflexivity).
  pose proof (accepts_ok h _ _ _ Hr A1) as S1. exists h. eexists. split; [exact Eh|]. split; [exact S1|].
  destruct stuck as (g & Hg & X). pose proof (tf_pos 1) as Tf.
  set (s := {| rho := / 2; grad := V (sqrt g / 2) 0 0; hes := Hes 0 0 0 0 0 0; kin := (g / (8 * 1) + tf 1) / 2; jp := 0 |}).
  set (D := {| al := s; be := s |}).
  assert (Sg : sqrt g * sqrt g = g) by (apply sqrt_sqrt; lra).
  assert (Gs : dot (grad s) (grad s) = g / 4) by (unfold s, dot; cbn [grad vx vy vz]; lra).
  assert (Ab : above D) by (split; cbn [rho al be D s]; change threshold with (1 * / 100000000000000); lra).
  assert (Fu : full D).
  { unfold full. change (grad (al D)) with (grad s). change (grad (be D)) with (grad s). change (kin (al D)) with ((g / (8 * 1) + tf 1) / 2). change (kin (be D)) with ((g / (8 * 1) + tf 1) / 2). rewrite Gs.
    assert (dot (gN D) (gN D) = g) by (unfold gN, vadd, dot; cbn [al be D s grad vx vy vz]; lra). lra. }
  assert (Ph : physical D).
  { split; [exact Ab|]. split; [exact Fu|]. unfold saa, sbb. change (al D) with s. change (be D) with s. rewrite Gs. unfold s; cbn [rho kin]. lra. }
  assert (De : describes XC_A_B_GAA_GAB_GBB_TAUA_TAUB (fun i => nth i (encode XC_A_B_GAA_GAB_GBB_TAUA_TAUB D) 0) D) by (apply encode_describes; cbn; tauto).
  exists D. eexists. split; [exact Ph|]. split; [exact De|]. split.
  { assert (K : forall sp, 0 < dot (grad sp) (grad sp) -> 0 < rho sp -> 0 < kin sp -> 1 <= tpss_F (rev_xx (2 * rho sp) (4 * dot (grad sp) (grad sp)) (2 * kin sp)) <= 1.804).
    { intros sp H1 H2 H3. apply tpss_F_b. unfold rev_xx. pose proof se_1. pose proof (red2_nn (2 * rho sp) (4 * dot (grad sp) (grad sp)) ltac:(lra)).
      left. apply Rdiv_lt_0_compat; [apply rev_num_pos; try lra; split; [apply sqrt_pos|lra]|]. apply pow_lt. assert (0 <= sqrt 2.1677 * red2 (2 * rho sp) (4 * dot (grad sp) (grad sp))) by (apply Rmult_le_pos; lra). lra. }
    destruct Fu as (F1 & F2 & _ & F4 & F5). destruct (thr_dens D Ab) as (Na & Nb & _ & _). pose proof (K (al D) F1 Na F4) as Ka. pose proof (K (be D) F2 Nb F5) as Kb.
    exact (gga_bound _ _ 1.804 _ _ Na Nb Ka Kb). }
  intros junk buf. change (mactive _) with [44%nat] in A.
  assert (Th : tau_honest h XC_A_B_GAA_GAB_GBB_TAUA_TAUB) by (intros _; vm_compute; reflexivity).
  destruct (described_energy h _ XC_A_B_GAA_GAB_GBB_TAUA_TAUB D _ Hr S1 Th Ab De) as [[vd G] E]. rewrite A in E. cbn [rsum] in E.
  assert (St : reval (h_settings h) (fun _ => 0) (dvar D) [] revtpssx = None).
  { destruct (reval (h_settings h) (fun _ => 0) (dvar D) [] revtpssx) as [v|] eqn:Ev; [|reflexivity]. exfalso.
    destruct (thr_dens D Ab) as (Na & _ & _ & _). pose proof (revtpssx_den (h_settings h) (fun _ => 0) (dvar D) v Na ltac:(change (dvar D f_gaa) with (dot (grad s) (grad s)); lra) Ev) as Y. apply Y.
    change (dvar D f_gaa) with (dot (grad s) (grad s)). rewrite Gs. change (dvar D f_a) with (/ 2). change (dvar D f_taua) with ((g / (8 * 1) + tf 1) / 2).
    replace (2 * / 2) with 1 by field. replace (4 * (g / 4)) with g by field. replace (2 * ((g / (8 * 1) + tf 1) / 2)) with (g / (8 * 1) + tf 1) by field. rewrite X. lra. }
  change (nth_error functionals 44) with (Some ("XC_REVTPSSX"%string, revtpssx)) in E. cbv beta iota in E.
  assert (E2 : @energy ROps {| h_active := [44%nat]; h_order := 0; h_depends := h_depends h; h_mode := XC_PARTIAL_DERIVATIVES; h_vars := XC_A_B_GAA_GAB_GBB_TAUA_TAUB; h_settings := h_settings h |} 0 (fun i => nth i (encode XC_A_B_GAA_GAB_GBB_TAUA_TAUB D) 0) (czero 0) = Dom)
    by (etransitivity; [exact E|]; replace (reval (h_settings h) (fun _ : nat => 0) (dvar D) [] revtpssx) with (@None R) by (symmetry; exact St); reflexivity).
  clear E. rewrite <- A in E2. rename E2 into E.
  rewrite (eval_partial junk _ _ _ _ _ _ _ G). unfold partialn. change (Z.to_nat 0) with 0%nat. cbn iota. unfold partial0.
  erewrite (EvalSem.energy_ext _ vd); [rewrite E; reflexivity|apply (gs_ready _ _ _ _ _ _ G)|exact (gs_entry _ _ _ _ _ _ G)|].
  intros i Hi. unfold load. destruct (Nat.ltb_spec i (Z.to_nat (v_len vd))); [reflexivity|lia].
Qed.
Print Assumptions C33_revtpssx_refuted.
