(** * Functionals that are not the published ones: what they compute instead
    Reference formulas for REVTPSSC, REVTPSSX, SPBEC and CSC, closed forms of what the library computes, and the difference. *)
From Coq Require Import Reals QArith Qreals ZArith Arith Lia Lra Psatz List Bool String.
From Coquelicot Require Import Coquelicot.
From Verif Require Import Scalar RInst CTaylor CtAlg TMath Fps TFam TExp Ad Br Expr Functionals Sem AdEval RSem Dom Phys Value Published PubTac PubX PubC PubM PubS PubS2 PubL.
Import ListNotations.
Local Open Scope R_scope.

(** ** Perdew, Ruzsinszky, Csonka, Constantin and Sun, Phys. Rev. Lett. 103, 026403 (2009): revTPSS *)
Definition beta_rev (r _ : R) : R := 0.066725 * (1 + 0.1 * r) / (1 + 0.1778 * r).
Definition rev_C (D : dens) : R :=
  let z := zet D in let xi2 := gzeta2 D / (4 * kF (ntot D) ^ 2) in
  (0.59 + 0.9269 * z ^ 2 + 0.6225 * z ^ 4 + 2.154 * z ^ 6) / (1 + xi2 * (Rpower (1 + z) (- (4 / 3)) + Rpower (1 - z) (- (4 / 3))) / 2) ^ 4.
Definition rev_pkzb (D : dens) : R :=
  let n := ntot D in let e := eps_pbe beta_rev (eps_pw92 n (zet D)) n (zet D) (stot D) in
  let sum := (rho (al D) * Rmax e (eps_pbe_pol beta_rev (rho (al D)) (saa D)) + rho (be D) * Rmax e (eps_pbe_pol beta_rev (rho (be D)) (sbb D))) / n in
  let z := stot D / (8 * n) / (kin (al D) + kin (be D)) in
  e * (1 + rev_C D * z ^ 2) - (1 + rev_C D) * z ^ 2 * sum.
(** [k] is 3 in the paper. *)
Definition rev_c (k : nat) (D : dens) : R :=
  let z := stot D / (8 * ntot D) / (kin (al D) + kin (be D)) in ntot D * (rev_pkzb D * (1 + 2.8 * rev_pkzb D * z ^ k)).
Definition revtpss_c : dens -> R := rev_c 3.
(** Exchange: the numerator of x with the root [w] left open. *)
Definition rev_num (w n g tau : R) : R :=
  let kappa := 0.804 in let mu := 0.14 in let b := 0.40 in let e := 2.1677 in let c := 2.35204 in
  let p := red2 n g in let z := g / (8 * n) / tau in let alpha := (tau - g / (8 * n)) / tf n in
  let q := 9 / 20 * (alpha - 1) / sqrt (1 + b * alpha * (alpha - 1)) + 2 * p / 3 in
  (10 / 81 + c * z ^ 3 / (1 + z ^ 2) ^ 2) * p + 146 / 2025 * q ^ 2 - 73 / 405 * q * w
   + / kappa * (10 / 81) ^ 2 * p ^ 2 + 2 * sqrt e * (10 / 81) * (3 / 5 * z) ^ 2 + e * mu * p ^ 3.
Definition rev_root (n g tau : R) : R := sqrt (1 / 2 * (3 / 5 * (g / (8 * n) / tau)) ^ 2 + 1 / 2 * red2 n g ^ 2).
Definition rev_xx (n g tau : R) : R := rev_num (rev_root n g tau) n g tau / (1 + sqrt 2.1677 * red2 n g) ^ 2.
Definition revtpss_x : dens -> R := spin_scaled3 (fun n g tau => n * ex_gas n * tpss_F (rev_xx n g tau)).
(** What the library has for the root and for x. *)
Definition lib_root (n g tau : R) : R := g * sqrt (1 / 2 * (3 / 5 * (1 / (8 * n) / tau)) ^ 2 + 1 / 2 * red2 n g ^ 2).
Definition lib_xx (n g tau : R) : R := rev_num (lib_root n g tau) n g tau / (1 + sqrt 2.1677 * red2 n g).
(** ** Swart, Sola and Bickelhaupt, J. Chem. Phys. 131, 094103 (2009): sPBE correlation *)
Definition spbe_G (c w eps : R) : R := c / (exp (- (eps / w)) - 1).
Definition spbe_c (D : dens) : R :=
  let gamma := 0.031091 in let beta := 0.066725 in
  let n := ntot D in let phi := pbe_phi (zet D) in let e := eps_vwn5 n (zet D) in let t2 := pbe_t2 phi n (stot D) in
  n * (e + gamma * phi ^ 3 * ln (1 + beta / gamma * t2 / (1 + spbe_G (beta / gamma) (gamma * phi ^ 3) e * t2))).
Definition spbe_lib (D : dens) : R :=
  let n := ntot D in let phi := pbe_phi (zet D) in let e := eps_vwn5 n (zet D) in let t2 := pbe_t2 phi n (stot D) in let c := 0.031091 / 0.066725 in
  n * (e + 0.066725 * phi ^ 3 * ln (1 + c * t2 / (1 + spbe_G c (c * phi ^ 3) e * t2))).
(** ** Colle and Salvetti's formula as in Lee, Yang and Parr, Phys. Rev. B 37, 785 (1988), with its four parameters *)
Definition cs_form (a b c d : R) (D : dens) : R :=
  let n := ntot D in let na := rho (al D) in let nb := rho (be D) in let m := Rpower n (- (1 / 3)) in
  let gamma := 2 * (1 - (na ^ 2 + nb ^ 2) / n ^ 2) in
  let curv := na * kin (al D) + nb * kin (be D) - stot D / 8 - (jp (al D) + jp (be D)) in
  - (a * (gamma / (1 + d * m)) * (n + 2 * b * Rpower n (- (5 / 3)) * curv * exp (- (c * m)))).

Section S2.
Variables (st : nat -> R) (x : nat -> R) (fl : fld -> R).
Hypothesis P : phys fl.
Notation tv := (tv (st : nat -> T ROps) x fl).
Notation V := (tv []).
Lemma c_pw : (1 / 12 * Rpower 3 (5 / 6) / Rpower PI (-1 / 6)) ^ 2 = Rpower (1 / 12 * Rpower 3 (5 / 6) / Rpower PI (-1 / 6)) 2.
Proof. symmetry. apply (Rpower_pow 2). pos. Qed.
Lemma rs_13 n : 0 < n -> Rpower (3 / (4 * PI * n)) (1 / 3) = rs n.
Proof. intro N. reflexivity. Qed.
Lemma beta_E r t : 2669 / 40000 * (1 / 10 * r + 1) / (889 / 5000 * r + 1) = beta_rev r t.
Proof. unfold beta_rev. rewrite (Rplus_comm 1 (0.1 * r)), (Rplus_comm 1 (0.1778 * r)). replace 0.1778 with (889 / 5000) by (decs; lra). replace 0.066725 with (2669 / 40000) by (decs; lra). replace 0.1 with (1 / 10) by (decs; lra). reflexivity. Qed.
Lemma rev_eps_E : V revtpssc_eps_revtpss_pbec_eps = eps_pbe beta_rev (eps_pw92 (fl f_n) (fl f_zeta)) (fl f_n) (fl f_zeta) (fl f_gnn).
Proof.
  pose proof (pw92_E st x fl P) as E. vred_in E. vred. rewrite !E, !(PubC.phi_E fl P), !c_pw, !(PubC.t2_E fl P _ _ (PubC.phi_pos fl)), (H_E _ _ _ _ _ gamma_E), (rs_13 _ (n_pos _ P)), (beta_E _ 0). reflexivity.
Qed.
Ltac polr N := assert (U : 0 < Rpower 2 (-1 / 3)) by pos; vred; rewrite !(rs6 _ N), !(G_1 _ (sqrt_rs_pos _)), !sq_rs, !c_pw, !(t2_N _ _ _ U N), (H_E _ _ _ _ _ gamma_E), !(rs_13 _ N), !(beta_E _ 0);
  unfold eps_pbe_pol, eps_pbe_at; fold (eps_pw92_pol (fl f_a)) (eps_pw92_pol (fl f_b)); replace (- (1 / 3)) with (-1 / 3) by lra; reflexivity.
Lemma rev_pol_a : V (revtpssc_eps_revtpss_pbec_eps_polarized d_a d_gaa) = eps_pbe_pol beta_rev (fl f_a) (fl f_gaa).
Proof. polr (ph_a _ P). Qed.
Lemma rev_pol_b : V (revtpssc_eps_revtpss_pbec_eps_polarized d_b d_gbb) = eps_pbe_pol beta_rev (fl f_b) (fl f_gbb).
Proof. polr (ph_b _ P). Qed.
Definition rvC : R :=
  let z := fl f_zeta in
  let g2 := (fl f_n ^ 2 * fl f_gss - 2 * fl f_n * fl f_s * fl f_gns + fl f_s ^ 2 * fl f_gnn) / fl f_n ^ 4 in
  let xi2 := g2 / (4 * kF (fl f_n) ^ 2) in
  (0.59 + 0.9269 * z ^ 2 + 0.6225 * z ^ 4 + 2.154 * z ^ 6) / (1 + xi2 * (Rpower (1 + z) (- (4 / 3)) + Rpower (1 - z) (- (4 / 3))) / 2) ^ 4.
Lemma rvC_E : (9269 / 10000 * (fl f_zeta * fl f_zeta) + 59 / 100 + 249 / 400 * fl f_zeta ^ 4 + 1077 / 500 * fl f_zeta ^ 6) /
  (1 / 2 * ((fl f_n * fl f_n * fl f_gss - 2 * fl f_n * fl f_s * fl f_gns + fl f_s * fl f_s * fl f_gnn) / fl f_n ^ 4 / (4 * Rpower (3 * (PI * PI) * fl f_n) (2 / 3))) *
     (Rpower (fl f_zeta + 1) (-4 / 3) + Rpower (1 - fl f_zeta) (-4 / 3)) + 1) ^ 4 = rvC.
Proof.
  pose proof (n_pos fl P) as N. unfold rvC. cbv zeta.
  assert (K : kF (fl f_n) ^ 2 = Rpower (3 * (PI * PI) * fl f_n) (2 / 3)) by (unfold kF; mono). rewrite K.
  replace (fl f_n * fl f_n) with (fl f_n ^ 2) by ring. replace (fl f_s * fl f_s) with (fl f_s ^ 2) by ring. set (xi2 := _ / (4 * _)).
  replace (- (4 / 3)) with (-4 / 3) by lra. rewrite (Rplus_comm 1 (fl f_zeta)). set (w := Rpower _ _ + Rpower _ _).
  replace (1 + xi2 * w / 2) with (1 / 2 * xi2 * w + 1) by field. apply (f_equal (fun y => y / _)). decs. field.
Qed.
Definition rvp : R :=
  let n := fl f_n in let e := eps_pbe beta_rev (eps_pw92 n (fl f_zeta)) n (fl f_zeta) (fl f_gnn) in
  let sum := (fl f_a * Rmax e (eps_pbe_pol beta_rev (fl f_a) (fl f_gaa)) + fl f_b * Rmax e (eps_pbe_pol beta_rev (fl f_b) (fl f_gbb))) / n in
  let z := fl f_gnn / (8 * n) / fl f_tau in e * (1 + rvC * z ^ 2) - (1 + rvC) * z ^ 2 * sum.
Lemma k_revtpssc : V revtpssc = fl f_n * (rvp * (1 + 2.8 * rvp * (fl f_gnn / (8 * fl f_n) / fl f_tau) ^ 2)).
Proof.
  pose proof rev_eps_E as E. pose proof rev_pol_a as Ea. pose proof rev_pol_b as Eb. vred_in E. vred_in Ea. vred_in Eb. vred. rewrite !E, !Ea, !Eb. clear E Ea Eb.
  rewrite !rvC_E. rewrite !zt_E. unfold rvp. cbv zeta. set (C := rvC). set (z := _ / fl f_tau). set (e := eps_pbe _ _ _ _ _). set (sum := _ / fl f_n). decs. field.
Qed.
Lemma rev_xv_E n g tau : 0 < n -> 0 <= g -> forall p z al, p = red2 n g -> z = g / (8 * n) / tau -> al = (tau - g / (8 * n)) / tf n ->
  (p * (58801 / 25000 * (z * z) * z / ((z * z + 1) * (z * z + 1)) + 10 / 81)
    + 146 * ((9 * (al - 1) / (20 * sqrt (2 / 5 * al * (al - 1) + 1)) + 2 * p / 3) * (9 * (al - 1) / (20 * sqrt (2 / 5 * al * (al - 1) + 1)) + 2 * p / 3)) / 2025
    - 73 / 405 * (9 * (al - 1) / (20 * sqrt (2 / 5 * al * (al - 1) + 1)) + 2 * p / 3) * g * sqrt (9 / 50 * / (8 * n * tau) ^ 2 + 1 / 2 * p * p)
    + 10 * p / 81 * (10 * p / 81) / (201 / 250) + (20 * (sqrt (21677 / 10000) * (3 / 5) * (3 / 5) * (z * z)) / 81 + 151739 / 500000 * (p * p * p)))
    / (sqrt (21677 / 10000) * p + 1) = lib_xx n g tau.
Proof.
  intros N G p z al Ep Ez Ea.
  assert (Er : g * sqrt (9 / 50 * / (8 * n * tau) ^ 2 + 1 / 2 * p * p) = lib_root n g tau).
  { unfold lib_root. rewrite Ep. do 2 f_equal. unfold Rdiv. rewrite <- pow_inv, !Rinv_mult. generalize (/ n) (/ tau). intros. field. }
  set (q := 9 * (al - 1) / _ + _). rewrite (Rmult_assoc (73 / 405 * q) g _), Er. unfold lib_xx, rev_num. cbv zeta. rewrite <- Ez, <- Ep, <- Ea.
  assert (Eq : 9 / 20 * (al - 1) / sqrt (1 + 0.40 * al * (al - 1)) + 2 * p / 3 = q).
  { unfold q. replace (1 + 0.40 * al * (al - 1)) with (2 / 5 * al * (al - 1) + 1) by (decs; field). unfold Rdiv. rewrite !Rinv_mult. generalize (/ sqrt (2 * / 5 * al * (al - 1) + 1)). intro. field. }
  rewrite Eq. replace 2.1677 with (21677 / 10000) by (decs; lra).
  replace (1 + z ^ 2) with (z * z + 1) by ring. set (zq := z * z + 1). replace (zq * zq) with (zq ^ 2) by ring.
  set (se := sqrt _). rewrite (Rplus_comm 1 (se * p)). f_equal. decs. unfold Rdiv. generalize (/ zq ^ 2). intro. field.
Qed.
Lemma rev_x_E n g tau : 0 < n -> 0 <= g -> forall p z al, p = red2 n g -> z = g / (8 * n) / tau -> al = (tau - g / (8 * n)) / tf n ->
  451 / 250 - 201 / 250 / ((p * (58801 / 25000 * (z * z) * z / ((z * z + 1) * (z * z + 1)) + 10 / 81)
    + 146 * ((9 * (al - 1) / (20 * sqrt (2 / 5 * al * (al - 1) + 1)) + 2 * p / 3) * (9 * (al - 1) / (20 * sqrt (2 / 5 * al * (al - 1) + 1)) + 2 * p / 3)) / 2025
    - 73 / 405 * (9 * (al - 1) / (20 * sqrt (2 / 5 * al * (al - 1) + 1)) + 2 * p / 3) * g * sqrt (9 / 50 * / (8 * n * tau) ^ 2 + 1 / 2 * p * p)
    + 10 * p / 81 * (10 * p / 81) / (201 / 250) + (20 * (sqrt (21677 / 10000) * (3 / 5) * (3 / 5) * (z * z)) / 81 + 151739 / 500000 * (p * p * p)))
    / (sqrt (21677 / 10000) * p + 1) / (201 / 250) + 1) = tpss_F (lib_xx n g tau).
Proof.
  intros N G p z al Ep Ez Ea. rewrite (rev_xv_E n g tau N G p z al Ep Ez Ea). unfold tpss_F. rewrite (Rplus_comm 1 (_ / 0.804)). replace 0.804 with (201 / 250) by (decs; lra). replace (1 + 201 / 250) with (451 / 250) by lra. reflexivity.
Qed.
Lemma p_E1 n g : 0 < n -> g / (4 * Rpower (3 * (PI * PI)) (2 / 3) * Rpower n (8 / 3)) = red2 n g.
Proof. intro N. rewrite <- (p_E n g N). unfold Rdiv. ring. Qed.
Lemma k_revtpssx : V revtpssx = ss3 (fun n g tau => n * ex_gas n * tpss_F (lib_xx n g tau)) fl.
Proof.
  pose proof (ph_a _ P) as A. pose proof (ph_b _ P) as B. pose proof (ph_gaa _ P) as GA. pose proof (ph_gbb _ P) as GB.
  pose proof (rev_x_E (2 * fl f_a) (4 * fl f_gaa) (2 * fl f_taua) ltac:(lra) ltac:(lra) _ _ _ eq_refl eq_refl eq_refl) as Ha.
  pose proof (rev_x_E (2 * fl f_b) (4 * fl f_gbb) (2 * fl f_taub) ltac:(lra) ltac:(lra) _ _ _ eq_refl eq_refl eq_refl) as Hb.
  vred. rewrite !tf_E, !p_E1 by lra. rewrite Ha, Hb. unfold ss3, ex_gas, kF. replace (PI ^ 2) with (PI * PI) by ring. pose proof PI_RGT_0. field. lra.
Qed.
Lemma sp_t2 : cbrtR (PI / 3) / 16 * fl f_gnn * fl f_n_m13 / (pbe_phi (fl f_zeta) * fl f_n * (pbe_phi (fl f_zeta) * fl f_n)) = pbe_t2 (pbe_phi (fl f_zeta)) (fl f_n) (fl f_gnn).
Proof.
  pose proof (n_pos fl P) as N. pose proof PI_RGT_0 as Pi. rewrite <- (t2_N _ _ _ (PubC.phi_pos fl) N), cbrtR_pos by (apply Rdiv_lt_0_compat; lra). pose proof (PubC.phi_pos fl) as Q. set (u := pbe_phi _) in *.
  rewrite (ph_n13 _ P). set (n := fl f_n) in *. set (g := fl f_gnn).
  assert (X : Rpower (PI / 3) (1 / 3) / 16 * Rpower n (- (1 / 3)) / n ^ 2 = Rpower (1 / 12 * Rpower 3 (5 / 6) / Rpower PI (-1 / 6)) 2 / Rpower n (7 / 3)).
  { replace 16 with (Rpower 2 4) by (replace 4 with (INR 4) by (cbn; lra); rewrite Rpower_pow by lra; lra). replace (1 / 12) with (/ (Rpower 2 2 * 3)) by (replace (Rpower 2 2) with 4 by (replace 2 with (INR 2) at 2 by (cbn; lra); rewrite Rpower_pow by lra; cbn; lra); lra). mono. }
  transitivity (Rpower (PI / 3) (1 / 3) / 16 * Rpower n (- (1 / 3)) / n ^ 2 * (g / (u * u))); [field; lra|]. rewrite X. assert (0 < Rpower n (7 / 3)) by apply exp_pos. field. lra.
Qed.
Lemma k_spbec : V spbec = fl f_n * (eps_vwn5 (fl f_n) (fl f_zeta) + 0.066725 * pbe_phi (fl f_zeta) ^ 3 * ln (1 + 0.031091 / 0.066725 * pbe_t2 (pbe_phi (fl f_zeta)) (fl f_n) (fl f_gnn)
    / (1 + spbe_G (0.031091 / 0.066725) (0.031091 / 0.066725 * pbe_phi (fl f_zeta) ^ 3) (eps_vwn5 (fl f_n) (fl f_zeta)) * pbe_t2 (pbe_phi (fl f_zeta)) (fl f_n) (fl f_gnn)))).
Proof.
  pose proof (vwn5_E st x fl P) as E. vred_in E. vred. rewrite !E, !(PubC.phi_E fl P), !sp_t2. clear E. set (t2 := pbe_t2 _ _ _). set (e := eps_vwn5 _ _). set (u := pbe_phi _).
  replace (u ^ 3) with (u * u * u) by ring. replace (0.031091 / 0.066725) with (31091 / 66725) by (decs; field). set (c := 31091 / 66725). replace 0.066725 with (2669 / 40000) by (decs; lra).
  unfold spbe_G. replace (- (e / (c * (u * u * u)))) with (- e / (c * (u * u * u))) by (unfold Rdiv; ring). set (G := c / (_ - 1)). rewrite (Rmult_comm G t2), (Rplus_comm 1 (t2 * G)), (Rplus_comm 1 (_ / _)). reflexivity.
Qed.
Definition csf (a b c d : R) : R :=
  let n := fl f_n in let na := fl f_a in let nb := fl f_b in let m := Rpower n (- (1 / 3)) in
  let gamma := 2 * (1 - (na ^ 2 + nb ^ 2) / n ^ 2) in
  let curv := na * fl f_taua + nb * fl f_taub - fl f_gnn / 8 - (fl f_jpaa + fl f_jpbb) in
  - (a * (gamma / (1 + d * m)) * (n + 2 * b * Rpower n (- (5 / 3)) * curv * exp (- (c * m)))).
Lemma k_csc : V cs_csc = csf 1 1 1 1.
Proof.
  vred. rewrite (ph_n13 _ P). unfold csf. cbv zeta. set (n := fl f_n). replace (- (5 / 3)) with (-5 / 3) by lra. set (m := Rpower n (- (1 / 3))).
  replace (n ^ 2) with (n * n) by ring. replace (- (1 * m)) with (-1 * m) by ring. rewrite (Rplus_comm 1 (1 * m)). set (ex := exp _). set (p := Rpower n _). unfold Rdiv. generalize (/ (1 * m + 1)) (/ (n * n)). intros. field.
Qed.
End S2.
