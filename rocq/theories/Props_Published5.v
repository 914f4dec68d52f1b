(** * Property theorems: zvPBEsol, zvPBEint and Borgoo-Tozer, close to the published functionals but not equal (C35) *)
From Coq Require Import Reals QArith Qreals ZArith Arith Lia Lra Psatz List Bool String.
From Coquelicot Require Import Coquelicot.
From Verif Require Import Scalar RInst Tables Api SpecApi ApiProofs ApiProofs2 CTaylor CtAlg TMath Br Expr Densvars Functionals
  Eval SpecEval EvalSem EvalProps Taint EvalExt Props_Eval Sem RSem EnergyR EvalR EvalReal EvalApi Phys Mk Props_Deriv Dom Oblig Safe Safe2 Props_Dens Props_Dens2 Props_Scale Props_Scale2 Value.
From Verif Require Import Itv.
From Verif Require Import Published PubTac PubX PubC PubM PubS PubS2 PubL PubZ PubNear Vwn Bounds Props_Published.
Import ListNotations.
Local Open Scope outcome_scope.
Local Open Scope R_scope.

(** With one functional active, whatever energy is returned is its value. *)
Lemma one_value (h h0 : handle ROps) v D x i nm ex e : reachable h -> xcfun_eval_setup h v XC_PARTIAL_DERIVATIVES 0 = Ok (h0, 0%Z) ->
  h_active h = [i] -> i <> XC_REVTPSSX_id -> nth_error functionals i = Some (nm, ex) -> above D -> describes v x D ->
  library_energy h0 x e -> e = h_settings h i * tv (h_settings h) (fun _ => 0) (dvar D) [] ex.
Proof.
  intros Hr S A Ni F Ab De Le.
  assert (Th : tau_honest h v) by (intro X; exfalso; rewrite A in X; destruct X as [X|[]]; auto).
  destruct (described_energy h h0 v D x Hr S Th Ab De) as [[vd G] E]. rewrite A in E. cbn [rsum] in E. rewrite F in E.
  rewrite (lib_energy _ _ _ _ _ _ G), E in Le. destruct (reval _ _ _ [] ex) as [u|] eqn:U; [|discriminate]. cbn [obnd] in Le. injection Le as <-.
  rewrite <- (tv_ok _ _ _ ex [] u U). cbn [T ROps]. ring.
Qed.
Lemma one_defined (h h0 : handle ROps) v D x i nm nm' ex : reachable h -> xcfun_eval_setup h v XC_PARTIAL_DERIVATIVES 0 = Ok (h0, 0%Z) ->
  h_active h = [i] -> i <> XC_REVTPSSX_id -> (i < 78)%nat -> nth_error item_names i = Some nm -> nth_error functionals i = Some (nm', ex) ->
  0 < (h_settings h XC_RANGESEP_MU : R) -> covered D nm -> above D -> describes v x D ->
  library_energy h0 x (h_settings h i * tv (h_settings h) (fun _ => 0) (dvar D) [] ex).
Proof.
  intros Hr S A Ni L N F Mu C Ab De. destruct (covered_eval (h_settings h) (fun _ => 0) D i nm nm' ex Mu Ab L N C F) as [u U].
  apply (one_energy h h0 v D x i nm' ex u Hr S A Ni F Ab De U). rewrite (tv_ok _ _ _ _ _ _ U). reflexivity.
Qed.

(** ** zvPBEsol and zvPBEint *)
(** Number in the library, beta and alpha. *)
Definition zv_pair (i : nat) (beta alpha : R) : Prop := (i = 69%nat /\ beta = 0.046 /\ alpha = 1.8) \/ (i = 76%nat /\ beta = 0.052 /\ alpha = 1).
(** alpha v^3 times the undamped gradient term. *)
Definition zv_scale (beta alpha : R) (D : dens) : R :=
  let n := ntot D in let z := zet D in let phi := pbe_phi z in let t2 := pbe_t2 phi n (stot D) in
  alpha * zv_v n phi t2 ^ 3 * (n * pbe_H beta phi t2 (eps_pw92 n z)).
Lemma zet_range D : above D -> -1 < zet D < 1.
Proof. intro Ab. pose proof (z_lo _ (phys_dvar D Ab)) as L. pose proof (z_hi _ (phys_dvar D Ab)) as H. change (dvar D f_zeta) with (zet D) in L, H. lra. Qed.
Lemma ntot_pos D : above D -> 0 < ntot D.
Proof. intro Ab. exact (n_pos _ (phys_dvar D Ab)). Qed.
Lemma zv_v_pos D : above D -> 0 < stot D -> 0 < zv_v (ntot D) (pbe_phi (zet D)) (pbe_t2 (pbe_phi (zet D)) (ntot D) (stot D)).
Proof.
  intros Ab G. unfold zv_v. pose proof (Bounds.phi_pos (zet D)) as F. pose proof (t2_pos _ _ _ F (ntot_pos D Ab) G) as T2.
  apply Rmult_lt_0_compat; [apply Rmult_lt_0_compat; [now apply sqrt_lt_R0|exact F]|apply exp_pos].
Qed.
Lemma pbe_H_pos beta phi t2 eps : 0 < beta -> 0 < phi -> 0 < t2 -> eps < 0 -> 0 < pbe_H beta phi t2 eps.
Proof.
  intros Hb Hp Ht He. unfold pbe_H. pose proof gamma_pos as G. set (w := pbe_gamma * phi ^ 3). assert (W : 0 < w) by (apply Rmult_lt_0_compat; [exact G|now apply pow_lt]).
  set (k := beta / pbe_gamma). assert (K : 0 < k) by (apply Rdiv_lt_0_compat; assumption).
  set (E := exp (- (eps / w)) - 1).
  assert (HE : 0 < E). { unfold E. assert (0 < - (eps / w)). { assert (0 < - eps / w) by (apply Rdiv_lt_0_compat; lra). lra. } pose proof (exp_ineq1 _ ltac:(apply Rgt_not_eq; exact H)). lra. }
  cbv zeta. set (A := k / E). assert (HA : 0 < A) by (apply Rdiv_lt_0_compat; assumption). assert (At : 0 < A * t2) by (apply Rmult_lt_0_compat; lra).
  apply Rmult_lt_0_compat; [exact W|]. rewrite <- ln_1. apply ln_increasing; [lra|].
  assert (0 < k * t2 * ((1 + A * t2) / (1 + A * t2 + A ^ 2 * t2 ^ 2))); [|lra].
  apply Rmult_lt_0_compat; [apply Rmult_lt_0_compat; assumption|]. apply Rdiv_lt_0_compat; [lra|]. assert (0 < A ^ 2 * t2 ^ 2) by (apply Rmult_lt_0_compat; now apply pow_lt). lra.
Qed.
Lemma zv_scale_pos beta alpha D : 0 < beta -> 0 < alpha -> above D -> 0 < stot D -> 0 < zv_scale beta alpha D.
Proof.
  intros B A Ab G. unfold zv_scale. cbv zeta. pose proof (Bounds.phi_pos (zet D)) as F. pose proof (ntot_pos D Ab) as N.
  apply Rmult_lt_0_compat; [apply Rmult_lt_0_compat; [exact A|apply pow_lt; now apply zv_v_pos]|]. apply Rmult_lt_0_compat; [exact N|].
  apply pbe_H_pos; try assumption; [now apply t2_pos|]. apply eps_pw92_neg, zet_range, Ab.
Qed.
Lemma zv_value (h : handle ROps) i beta alpha nm ex x D : zv_pair i beta alpha -> nth_error functionals i = Some (nm, ex) -> above D -> 0 < stot D ->
  tv (h_settings h) x (dvar D) [] ex = zv_damped beta alpha (zv_fit (zet D)) D.
Proof.
  intros [(-> & -> & ->) | (-> & -> & ->)] F Ab G; injection F as _ <-.
  - exact (k_zvpbesolc (h_settings h) x (dvar D) (phys_dvar D Ab) G).
  - exact (k_zvpbeintc (h_settings h) x (dvar D) (phys_dvar D Ab) G).
Qed.
Lemma zv_diff beta alpha w D : zv_damped beta alpha w D - zv_c beta alpha D =
  ntot D * pbe_H beta (pbe_phi (zet D)) (pbe_t2 (pbe_phi (zet D)) (ntot D) (stot D)) (eps_pw92 (ntot D) (zet D)) *
  (exp (- (alpha * zv_v (ntot D) (pbe_phi (zet D)) (pbe_t2 (pbe_phi (zet D)) (ntot D) (stot D)) ^ 3 * w))
   - exp (- (alpha * zv_v (ntot D) (pbe_phi (zet D)) (pbe_t2 (pbe_phi (zet D)) (ntot D) (stot D)) ^ 3 * zv_w (zet D)))).
Proof. unfold zv_c, zv_damped. cbv zeta. ring. Qed.
(** C35 (zvPBEsol, zvPBEint; every polarisation).  The library fits |zeta|^(9/2) by a polynomial; the energy is
    within 3e-4 times alpha v^3 times the undamped gradient term of the published one. *)
Theorem C35_zv_close :
  forall (h h0 : handle ROps) v D x e i beta alpha, reachable h ->
    xcfun_eval_setup h v XC_PARTIAL_DERIVATIVES 0 = Ok (h0, 0%Z) -> h_active h = [i] -> zv_pair i beta alpha ->
    above D -> 0 < stot D -> describes v x D -> library_energy h0 x e ->
    Rabs (e - h_settings h i * zv_c beta alpha D) <= 3 / 10000 * Rabs (h_settings h i * zv_scale beta alpha D).
Proof.
  intros h h0 v D x e i beta alpha Hr S A Z Ab G De Le.
  assert (Li : (i < 78)%nat /\ i <> XC_REVTPSSX_id) by (destruct Z as [(-> & _) | (-> & _)]; (split; [lia|discriminate])). destruct Li as [Li Ni].
  destruct (nofun_len i Li) as (nm & ex & F). rewrite (one_value h h0 v D x i nm ex e Hr S A Ni F Ab De Le), (zv_value h i beta alpha nm ex _ D Z F Ab G).
  assert (Pa : 0 < beta /\ 0 < alpha) by (destruct Z as [(_ & -> & ->) | (_ & -> & ->)]; lra). destruct Pa as [Pb Pa].
  rewrite <- Rmult_minus_distr_l, zv_diff, !(Rabs_mult (h_settings h i)).
  replace (3 / 10000 * (Rabs (h_settings h i) * Rabs (zv_scale beta alpha D))) with (Rabs (h_settings h i) * (Rabs (zv_scale beta alpha D) * (3 / 10000))) by (cbn [T ROps]; ring).
  apply Rmult_le_compat_l; [apply Rabs_pos|]. rewrite Rabs_mult.
  pose proof (zv_v_pos D Ab G) as V. pose proof (Bounds.phi_pos (zet D)) as Fp. pose proof (ntot_pos D Ab) as N. pose proof (zet_range D Ab) as Zr.
  pose proof (pbe_H_pos beta _ _ _ Pb Fp (t2_pos _ _ _ Fp N G) (eps_pw92_neg (ntot D) (zet D) Zr)) as Hp. unfold zv_scale. cbv zeta.
  set (H := pbe_H _ _ _ _) in *. set (vv := zv_v _ _ _) in *. assert (V3 : 0 < alpha * vv ^ 3) by (apply Rmult_lt_0_compat; [exact Pa|now apply pow_lt]). set (k := alpha * vv ^ 3) in *.
  assert (NH : 0 < ntot D * H) by (apply Rmult_lt_0_compat; assumption). rewrite (Rabs_right (k * _)) by (apply Rle_ge; left; now apply Rmult_lt_0_compat). rewrite (Rabs_right (ntot D * H)) by lra.
  pose proof (zv_fit_nn (zet D) ltac:(lra)) as W1. pose proof (zv_w_nn (zet D)) as W2. pose proof (zv_fit_gap (zet D) ltac:(lra)) as Gp.
  pose proof (exp_gap (k * zv_fit (zet D)) (k * zv_w (zet D)) ltac:(apply Rmult_le_pos; lra) ltac:(apply Rmult_le_pos; lra)) as X.
  rewrite <- Rmult_minus_distr_l, Rabs_mult, (Rabs_right k) in X by lra.
  apply (Rle_trans _ (ntot D * H * (k * Rabs (zv_fit (zet D) - zv_w (zet D))))); [apply Rmult_le_compat_l; lra|].
  replace (k * (ntot D * H) * (3 / 10000)) with (ntot D * H * (k * (3 / 10000))) by ring. apply Rmult_le_compat_l; [lra|]. apply Rmult_le_compat_l; lra.
Qed.
Print Assumptions C35_zv_close.
(** A density of polarisation 1/4. *)
Definition D_zv : dens :=
  {| al := {| rho := 5 / 8; grad := V 1 0 0; hes := h0_; kin := 1; jp := 0 |}; be := {| rho := 3 / 8; grad := V 1 1 0; hes := h0_; kin := 1; jp := 0 |} |}.
Lemma D_zv_above : above D_zv.
Proof. split; cbn [rho al be D_zv]; change threshold with (1 * / 100000000000000); lra. Qed.
Lemma D_zv_zet : zet D_zv = 1 / 4.
Proof. unfold zet, ntot. cbn [rho al be D_zv]. field. Qed.
Lemma w_quarter : zv_w (1 / 4) = 1 / 512.
Proof. unfold zv_w. rewrite Rabs_right by lra. replace (sqrt (1 / 4)) with (1 / 2); [field|]. symmetry. apply sqrt_lem_1; lra. Qed.
Lemma zv_lower beta alpha D : 0 < beta -> 0 < alpha -> above D -> 0 < stot D -> zet D = 1 / 4 -> zv_damped beta alpha (zv_fit (zet D)) D < zv_c beta alpha D.
Proof.
  intros Pb Pa Ab G Z. apply Rminus_lt. rewrite zv_diff. pose proof (zv_v_pos D Ab G) as V. pose proof (Bounds.phi_pos (zet D)) as Fp. pose proof (ntot_pos D Ab) as N.
  pose proof (pbe_H_pos beta _ _ _ Pb Fp (t2_pos _ _ _ Fp N G) (eps_pw92_neg (ntot D) (zet D) (zet_range D Ab))) as Hp.
  set (H := pbe_H _ _ _ _) in *. set (vv := zv_v _ _ _) in *. assert (V3 : 0 < alpha * vv ^ 3) by (apply Rmult_lt_0_compat; [exact Pa|now apply pow_lt]). set (k := alpha * vv ^ 3) in *.
  assert (NH : 0 < ntot D * H) by (apply Rmult_lt_0_compat; assumption). rewrite Z, w_quarter.
  assert (L : 1 / 512 < zv_fit (1 / 4)) by (unfold zv_fit; lra).
  assert (X : exp (- (k * zv_fit (1 / 4))) < exp (- (k * (1 / 512)))) by (apply exp_increasing; nra). nra.
Qed.
(** C35 (zvPBEsol, zvPBEint: not equal).  At polarisation 1/4 the energy is strictly below the published one. *)
Theorem C35_zv_refuted :
  forall name i beta alpha, In (name, i) [("zvpbesolc", 69%nat); ("zvpbeintc", 76%nat)]%string -> zv_pair i beta alpha ->
  exists (h h0 : handle ROps), Api.run xcfun_new [CSet name (1 : ROps)] = Ok h /\
    xcfun_eval_setup h XC_A_B_GAA_GAB_GBB XC_PARTIAL_DERIVATIVES 0 = Ok (h0, 0%Z) /\
    (forall D x e, above D -> 0 < stot D -> zet D = 1 / 4 -> describes XC_A_B_GAA_GAB_GBB x D -> library_energy h0 x e -> e < zv_c beta alpha D) /\
    (exists D x e, above D /\ 0 < stot D /\ zet D = 1 / 4 /\ describes XC_A_B_GAA_GAB_GBB x D /\ library_energy h0 x e).
Proof.
  intros name i beta alpha In' Z.
  assert (Pa : 0 < beta /\ 0 < alpha) by (destruct Z as [(_ & -> & ->) | (_ & -> & ->)]; lra). destruct Pa as [Pb Pa].
  assert (Ni : i <> XC_REVTPSSX_id /\ (i < 78)%nat) by (destruct Z as [(-> & _) | (-> & _)]; (split; [discriminate|lia])). destruct Ni as [Ni Li].
  assert (M : exists h : handle ROps, Api.run xcfun_new [CSet name (1 : ROps)] = Ok h /\ reachable h /\ h_active h = [i] /\ h_settings h i = 1 /\ 0 < (h_settings h XC_RANGESEP_MU : R) /\
     exists h0, xcfun_eval_setup h XC_A_B_GAA_GAB_GBB XC_PARTIAL_DERIVATIVES 0 = Ok (h0, 0%Z)).
  { destruct In' as [E | [E | []]]; injection E as <- <-.
    - destruct (make (K := ROps) [("zvpbesolc"%string, 69%nat, 1)] eq_refl) as (h & Eh & Hr & A & Es). change (mactive _) with [69]%nat in A. exists h. split; [exact Eh|]. split; [exact Hr|]. split; [exact A|].
      split; [rewrite Es; unfold msettings; cbn [map fold_left fst snd fold_right]; unfold wr_settings, upd; cbn; unfold Q2R; cbn; lra|].
      split; [rewrite Es; unfold msettings; cbn [map fold_left fst snd]; unfold wr_settings, upd; cbn; unfold Q2R; cbn; lra|].
      eexists. apply accepts_ok; [exact Hr|rewrite A; vm_compute; reflexivity].
    - destruct (make (K := ROps) [("zvpbeintc"%string, 76%nat, 1)] eq_refl) as (h & Eh & Hr & A & Es). change (mactive _) with [76]%nat in A. exists h. split; [exact Eh|]. split; [exact Hr|]. split; [exact A|].
      split; [rewrite Es; unfold msettings; cbn [map fold_left fst snd fold_right]; unfold wr_settings, upd; cbn; unfold Q2R; cbn; lra|].
      split; [rewrite Es; unfold msettings; cbn [map fold_left fst snd]; unfold wr_settings, upd; cbn; unfold Q2R; cbn; lra|].
      eexists. apply accepts_ok; [exact Hr|rewrite A; vm_compute; reflexivity]. }
  destruct M as (h & Eh & Hr & A & W & Mu & h0 & S). exists h, h0. split; [exact Eh|]. split; [exact S|]. destruct (nofun_len i Li) as (nm & ex & F). split.
  - intros D x e Ab G Zq De Le. rewrite (one_value h h0 _ D x i nm ex e Hr S A Ni F Ab De Le), (zv_value h i beta alpha nm ex _ D Z F Ab G), W, Rmult_1_l. now apply zv_lower.
  - destruct (item_ex i Li) as [nm' Nm]. exists D_zv. eexists. eexists. split; [exact D_zv_above|].
    assert (Cv : covered D_zv nm').
    { right; left. destruct Z as [(-> & _) | (-> & _)]; vm_compute in Nm; injection Nm as <-; (split; [cbn; tauto|]); unfold dot, gN, vadd; cbn; lra. }
    split; [unfold stot, dot, gN, vadd; cbn; lra|]. split; [exact D_zv_zet|]. split; [apply encode_describes; cbn; tauto|].
    apply (one_defined h h0 XC_A_B_GAA_GAB_GBB D_zv _ i nm' nm ex Hr S A Ni Li Nm F Mu Cv D_zv_above). apply encode_describes. cbn; tauto.
Qed.
Print Assumptions C35_zv_refuted.

(** ** BTK *)
(** C35 (Borgoo-Tozer kinetic energy).  The library adds 10^-24 to the squared gradients 4 |grad n_s|^2 of the
    spin-scaled densities: an excess of at most delta relative to the formula as soon as that is at most delta times each. *)
Theorem C35_btk_close :
  forall (h h0 : handle ROps) v D x e delta, reachable h ->
    xcfun_eval_setup h v XC_PARTIAL_DERIVATIVES 0 = Ok (h0, 0%Z) -> h_active h = [58%nat] -> above D -> describes v x D ->
    0 < saa D -> 0 < sbb D -> / 10 ^ 24 <= delta * (4 * saa D) -> / 10 ^ 24 <= delta * (4 * sbb D) ->
    library_energy h0 x e ->
    exists k, e = h_settings h 58%nat * k /\ btk_k D <= k <= btk_k D * (1 + delta).
Proof.
  intros h h0 v D x e delta Hr S A Ab De Ga Gb La Lb Le.
  rewrite (one_value h h0 v D x 58 _ btk e Hr S A ltac:(discriminate) eq_refl Ab De Le).
  rewrite (k_btk (h_settings h) _ (dvar D) (phys_dvar D Ab)) by (change (0 <= saa D) || change (0 <= sbb D); lra).
  change (dvar D f_a) with (rho (al D)). change (dvar D f_b) with (rho (be D)). change (dvar D f_gaa) with (saa D). change (dvar D f_gbb) with (sbb D).
  eexists. split; [reflexivity|]. unfold btk_k, spin_scaled.
  assert (Na : 0 < rho (al D) /\ 0 < rho (be D)) by (destruct Ab as [X Y]; change threshold with (1 * / 100000000000000) in *; lra). destruct Na as [Na Nb].
  assert (E : 0 < / 10 ^ 24) by (apply Rinv_0_lt_compat, pow_lt; lra).
  pose proof (btk_near (2 * rho (al D)) (4 * saa D) _ delta ltac:(lra) ltac:(lra) E La) as Xa. pose proof (btk_near (2 * rho (be D)) (4 * sbb D) _ delta ltac:(lra) ltac:(lra) E Lb) as Xb. lra.
Qed.
Print Assumptions C35_btk_close.
(** C35 (Borgoo-Tozer: not equal).  A uniform density has energy zero by the formula; the library returns a positive one. *)
Theorem C35_btk_refuted :
  exists (h h0 : handle ROps), Api.run xcfun_new [CSet "btk" (1 : ROps)] = Ok h /\
    xcfun_eval_setup h XC_A_B_GAA_GAB_GBB XC_PARTIAL_DERIVATIVES 0 = Ok (h0, 0%Z) /\
    (forall D x, above D -> saa D = 0 -> sbb D = 0 -> describes XC_A_B_GAA_GAB_GBB x D -> btk_k D = 0 /\ exists e, library_energy h0 x e /\ 0 < e) /\
    (exists D x, above D /\ saa D = 0 /\ sbb D = 0 /\ describes XC_A_B_GAA_GAB_GBB x D).
Proof.
  destruct (make (K := ROps) [("btk"%string, 58%nat, 1)] eq_refl) as (h & Eh & Hr & A & Es). change (mactive _) with [58]%nat in A.
  assert (W : h_settings h 58%nat = 1) by (rewrite Es; unfold msettings; cbn [map fold_left fst snd fold_right]; unfold wr_settings, upd; cbn; unfold Q2R; cbn; lra).
  assert (Mu : 0 < (h_settings h XC_RANGESEP_MU : R)) by (rewrite Es; unfold msettings; cbn [map fold_left fst snd]; unfold wr_settings, upd; cbn; unfold Q2R; cbn; lra).
  assert (S : exists h1, xcfun_eval_setup h XC_A_B_GAA_GAB_GBB XC_PARTIAL_DERIVATIVES 0 = Ok (h1, 0%Z)) by (eexists; apply accepts_ok; [exact Hr|rewrite A; vm_compute; reflexivity]).
  destruct S as [h0 S]. exists h, h0. split; [exact Eh|]. split; [exact S|]. split.
  - intros D x Ab Ga Gb De. split.
    + unfold btk_k, spin_scaled. rewrite Ga, Gb, !Rmult_0_r. unfold btk_T. destruct (Rlt_dec 0 0); lra.
    + assert (Cv : covered D "BTK"%string) by (left; cbn [In any_gradient]; tauto). eexists. split.
      { exact (one_defined h h0 _ D x 58 "BTK"%string _ btk Hr S A ltac:(discriminate) ltac:(lia) eq_refl eq_refl Mu Cv Ab De). }
      rewrite W, Rmult_1_l, (k_btk (h_settings h) _ (dvar D) (phys_dvar D Ab)) by (change (0 <= saa D) || change (0 <= sbb D); lra).
      change (dvar D f_gaa) with (saa D). change (dvar D f_gbb) with (sbb D). rewrite Ga, Gb, !Rmult_0_r, !Rplus_0_l.
      assert (E : 0 < / 10 ^ 24) by (apply Rinv_0_lt_compat, pow_lt; lra).
      assert (B : forall n, 0 < btk_T n (/ 10 ^ 24)) by (intro n; unfold btk_T; destruct (Rlt_dec 0 (/ 10 ^ 24)); [|contradiction]; pos).
      pose proof (B (2 * dvar D f_a)). pose proof (B (2 * dvar D f_b)). lra.
  - exists {| al := {| rho := 1; grad := V 0 0 0; hes := h0_; kin := 1; jp := 0 |}; be := {| rho := 1; grad := V 0 0 0; hes := h0_; kin := 1; jp := 0 |} |}. eexists.
    split; [split; cbn [rho al be]; change threshold with (1 * / 100000000000000); lra|]. split; [unfold saa, dot; cbn; lra|]. split; [unfold sbb, dot; cbn; lra|]. apply encode_describes. cbn; tauto.
Qed.
Print Assumptions C35_btk_refuted.

(** ** Concrete cases *)
(** Toulouse's functional and half of zvPBEsol at a closed-shell density. *)
Definition D_closed : dens :=
  {| al := {| rho := / 2; grad := V 1 0 0; hes := h0_; kin := 1; jp := 0 |}; be := {| rho := / 2; grad := V 1 1 0; hes := h0_; kin := 1; jp := 0 |} |}.
Lemma D_closed_above : above D_closed.
Proof. split; cbn [rho al be D_closed]; change threshold with (1 * / 100000000000000); lra. Qed.
Example C35_closed_example : exists (h h0 : handle ROps) x e, reachable h /\ h_active h = [15; 69]%nat /\
  xcfun_eval_setup h XC_A_B_GAA_GAB_GBB XC_PARTIAL_DERIVATIVES 0 = Ok (h0, 0%Z) /\ all_published h D_closed /\
  above D_closed /\ describes XC_A_B_GAA_GAB_GBB x D_closed /\ library_energy h0 x e /\ e = published_sum h D_closed.
Proof.
  destruct (make (K := ROps) [("ldaerfc_jt"%string, 15%nat, 1); ("zvpbesolc"%string, 69%nat, / 2)] eq_refl) as (h & Eh & Hr & A & Es). change (mactive _) with [15; 69]%nat in A.
  assert (Mu : 0 < (h_settings h XC_RANGESEP_MU : R)) by (rewrite Es; unfold msettings; cbn [map fold_left fst snd]; unfold wr_settings, upd; cbn; unfold Q2R; cbn; lra).
  assert (S : exists h1, xcfun_eval_setup h XC_A_B_GAA_GAB_GBB XC_PARTIAL_DERIVATIVES 0 = Ok (h1, 0%Z)) by (eexists; apply accepts_ok; [exact Hr|rewrite A; vm_compute; reflexivity]).
  destruct S as [h0 S].
  assert (De : describes XC_A_B_GAA_GAB_GBB (fun i => nth i (encode XC_A_B_GAA_GAB_GBB D_closed) 0) D_closed) by (apply encode_describes; cbn; tauto).
  assert (Ac : all_covered h D_closed).
  { intros i nm Hi Hn; rewrite A in Hi; cbn [In] in Hi; destruct Hi as [<- | [<- | []]]; vm_compute in Hn; injection Hn as <-.
    - left. cbn [In any_gradient]. tauto.
    - right; left. split; [cbn; tauto|]. unfold dot, gN, vadd; cbn; lra. }
  assert (Ap : all_published h D_closed).
  { intros i nm Hi Hn; rewrite A in Hi; cbn [In] in Hi; destruct Hi as [<- | [<- | []]]; vm_compute in Hn; injection Hn as <-; eexists; (split; [reflexivity|]).
    - reflexivity.
    - split; [reflexivity|]. unfold stot, dot, gN, vadd; cbn; lra. }
  exists h, h0. do 2 eexists. split; [exact Hr|]. split; [exact A|]. split; [exact S|]. split; [exact Ap|]. split; [exact D_closed_above|]. split; [exact De|].
  split; [exact (C35_published_value h h0 _ D_closed _ Hr S Ap Ac Mu D_closed_above De)|reflexivity].
Qed.
(** BTK at the density of polarisation 1/4: an excess of at most 10^-24. *)
Example C35_btk_example : exists (h h0 : handle ROps) x e, reachable h /\ h_active h = [58%nat] /\
  xcfun_eval_setup h XC_A_B_GAA_GAB_GBB XC_PARTIAL_DERIVATIVES 0 = Ok (h0, 0%Z) /\ above D_zv /\ describes XC_A_B_GAA_GAB_GBB x D_zv /\
  0 < saa D_zv /\ 0 < sbb D_zv /\ / 10 ^ 24 <= / 10 ^ 24 * (4 * saa D_zv) /\ / 10 ^ 24 <= / 10 ^ 24 * (4 * sbb D_zv) /\ library_energy h0 x e.
Proof.
  destruct (make (K := ROps) [("btk"%string, 58%nat, 1)] eq_refl) as (h & Eh & Hr & A & Es). change (mactive _) with [58]%nat in A.
  assert (Mu : 0 < (h_settings h XC_RANGESEP_MU : R)) by (rewrite Es; unfold msettings; cbn [map fold_left fst snd]; unfold wr_settings, upd; cbn; unfold Q2R; cbn; lra).
  assert (S : exists h1, xcfun_eval_setup h XC_A_B_GAA_GAB_GBB XC_PARTIAL_DERIVATIVES 0 = Ok (h1, 0%Z)) by (eexists; apply accepts_ok; [exact Hr|rewrite A; vm_compute; reflexivity]).
  destruct S as [h0 S].
  assert (De : describes XC_A_B_GAA_GAB_GBB (fun i => nth i (encode XC_A_B_GAA_GAB_GBB D_zv) 0) D_zv) by (apply encode_describes; cbn; tauto).
  assert (Cv : covered D_zv "BTK"%string) by (left; cbn [In any_gradient]; tauto). assert (E : 0 < / 10 ^ 24) by (apply Rinv_0_lt_compat, pow_lt; lra).
  assert (Sa : saa D_zv = 1) by (unfold saa, dot; cbn; ring). assert (Sb : sbb D_zv = 2) by (unfold sbb, dot; cbn; ring). rewrite Sa, Sb.
  exists h, h0. do 2 eexists. split; [exact Hr|]. split; [exact A|]. split; [exact S|]. split; [exact D_zv_above|]. split; [exact De|]. do 4 (split; [lra|]).
  exact (one_defined h h0 _ D_zv _ 58 "BTK"%string _ btk Hr S A ltac:(discriminate) ltac:(lia) eq_refl eq_refl Mu Cv D_zv_above De).
Qed.
