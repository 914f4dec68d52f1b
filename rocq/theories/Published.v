(** * Formulas of the literature (specification)
    Exchange-correlation energy densities written down from the publications, in terms of
    the spin densities, the squares of their gradients and their kinetic energy densities.
    Nothing here refers to the library or to its model. *)
From Coq Require Import Reals QArith List String.
From Coquelicot Require Import Coquelicot.
From Verif Require Import Phys.
Import ListNotations.
Local Open Scope R_scope.

(** ** Conventions *)
Definition saa (D : dens) : R := dot (grad (al D)) (grad (al D)).
Definition sbb (D : dens) : R := dot (grad (be D)) (grad (be D)).
Definition stot (D : dens) : R := dot (gN D) (gN D).
Definition ntot (D : dens) : R := rho (al D) + rho (be D).
Definition zet (D : dens) : R := (rho (al D) - rho (be D)) / ntot D.
(** Wigner-Seitz radius. *)
Definition rs (n : R) : R := Rpower (3 / (4 * PI * n)) (1 / 3).
(** Fermi wave vector of a closed-shell gas of density n. *)
Definition kF (n : R) : R := Rpower (3 * PI ^ 2 * n) (1 / 3).
(** Dirac exchange energy per particle. *)
Definition ex_gas (n : R) : R := - (3 * kF n / (4 * PI)).
(** Square of the reduced gradient s = |grad n| / (2 kF n); g = |grad n|^2. *)
Definition red2 (n g : R) : R := g / (2 * kF n * n) ^ 2.
(** Exact spin scaling: E[na, nb] = (E[2 na] + E[2 nb]) / 2. *)
Definition spin_scaled (e : R -> R -> R) (D : dens) : R :=
  (e (2 * rho (al D)) (4 * saa D) + e (2 * rho (be D)) (4 * sbb D)) / 2.
(** Exchange with enhancement factor F(s^2). *)
Definition gga_x (F : R -> R) : dens -> R := spin_scaled (fun n g => n * ex_gas n * F (red2 n g)).
(** Sum over spins of a function of the density and the squared gradient of that spin. *)
Definition per_spin (e : R -> R -> R) (D : dens) : R := e (rho (al D)) (saa D) + e (rho (be D)) (sbb D).

(** ** Exchange *)
Definition F_lda (s2 : R) : R := 1.
(** Perdew and Wang, Phys. Rev. B 33, 8800 (1986). *)
Definition F_pw86 (s2 : R) : R := Rpower (1 + 1.296 * s2 + 14 * s2 ^ 2 + 0.2 * s2 ^ 3) (1 / 15).
(** Perdew, Burke and Ernzerhof, Phys. Rev. Lett. 77, 3865 (1996). *)
Definition F_pbe (kappa mu s2 : R) : R := 1 + kappa - kappa / (1 + mu * s2 / kappa).
(** Hammer, Hansen and Norskov, Phys. Rev. B 59, 7413 (1999). *)
Definition F_rpbe (kappa mu s2 : R) : R := 1 + kappa * (1 - exp (- (mu * s2 / kappa))).
(** Fabiano, Constantin and Della Sala, Phys. Rev. B 82, 113104 (2010). *)
Definition F_pbeint (kappa muge mupbe alpha s2 : R) : R := F_pbe kappa (muge + (mupbe - muge) * (alpha * s2 / (1 + alpha * s2))) s2.
(** Perdew et al., Phys. Rev. B 46, 6671 (1992); s = sqrt s2. *)
Definition F_pw91 (a b c d f s2 : R) : R :=
  let s := sqrt s2 in let q := 1 + a * s * arcsinh (b * s) in
  (q + (c - d * exp (- (100 * s ^ 2))) * s ^ 2) / (q + f * s ^ 4).
(** Becke, Phys. Rev. A 38, 3098 (1988): the gradient correction of one spin; x = |grad n| / n^(4/3). *)
Definition b88_corr (n g : R) : R :=
  let x := sqrt g / Rpower n (4 / 3) in - (0.0042 * Rpower n (4 / 3) * x ^ 2 / (1 + 6 * 0.0042 * (x * arcsinh x))).
Definition lda_spin (n : R) : R := - (3 / 2 * Rpower (3 / (4 * PI)) (1 / 3) * Rpower n (4 / 3)).
(** Handy and Cohen, Mol. Phys. 99, 403 (2001). *)
Definition optx_corr (n g : R) : R :=
  let u := 0.006 * g / Rpower n (8 / 3) in Rpower n (4 / 3) * (u / (1 + u)) ^ 2.
Definition optx_spin (n g : R) : R := 1.05151 * lda_spin n - 1.43169 * optx_corr n g.
(** Keal and Tozer, J. Chem. Phys. 119, 3015 (2003): the gradient term. *)
Definition kt_spin (n g : R) : R := g / (Rpower n (4 / 3) + 0.1).
(** Becke, J. Chem. Phys. 107, 8554 (1997): power series in u = gamma s^2 / (1 + gamma s^2). *)
Definition b97_series (gamma c0 c1 c2 s2 : R) : R := let u := gamma * s2 / (1 + gamma * s2) in c0 + c1 * u + c2 * u ^ 2.
Definition b97_s2 (n g : R) : R := g / Rpower n (8 / 3).
(** The coefficient of the local part to 16 digits. *)
Definition b97_x (c0 c1 c2 : R) (n g : R) : R := - (0.9305257363491002 * Rpower n (4 / 3)) * b97_series 0.004 c0 c1 c2 (b97_s2 n g).

(** ** Kinetic energy *)
Definition c_tf : R := 3 / 10 * Rpower (3 * PI ^ 2) (2 / 3).
Definition tf (n : R) : R := c_tf * Rpower n (5 / 3).
(** von Weizsaecker. *)
Definition vw_spin (n g : R) : R := g / (8 * n).

(** ** Correlation *)
(** f(zeta) = ((1+zeta)^(4/3) + (1-zeta)^(4/3) - 2) / (2^(4/3) - 2). *)
Definition fz_num (z : R) : R := Rpower (1 + z) (4 / 3) + Rpower (1 - z) (4 / 3) - 2.
Definition fz (z : R) : R := fz_num z / (Rpower 2 (4 / 3) - 2).
(** f''(0). *)
Definition fz2 : R := 8 / (9 * (Rpower 2 (4 / 3) - 2)).
(** Vosko, Wilk and Nusair, Can. J. Phys. 58, 1200 (1980), eq. 4.4; x = sqrt rs, in Hartree. *)
Definition vwn (A x0 b c x : R) : R :=
  let X := fun y => y ^ 2 + b * y + c in let Q := sqrt (4 * c - b ^ 2) in let at_ := atan (Q / (2 * x + b)) in
  A / 2 * (ln (x ^ 2 / X x) + 2 * b / Q * at_ - b * x0 / X x0 * (ln ((x - x0) ^ 2 / X x) + 2 * (b + 2 * x0) / Q * at_)).
(** f(zeta) with the reciprocal of 2^(4/3) - 2 to 15 digits. *)
Definition fz15 (z : R) : R := 1.92366105093154 * fz_num z.
(** Form III: RPA parameters, interpolation with f. *)
Definition eps_vwn3 (n z : R) : R :=
  let x := sqrt (rs n) in let p := vwn 0.0621814 (- 0.4092860) 13.0720 42.7198 x in let f := vwn 0.0310907 (- 0.7432940) 20.1231 101.578 x in
  p + (f - p) * fz15 z.
(** Form V: Ceperley-Alder parameters and spin stiffness. *)
Definition eps_vwn5 (n z : R) : R :=
  let x := sqrt (rs n) in let p := vwn 0.0621814 (- 0.10498) 3.72744 12.9352 x in let f := vwn 0.0310907 (- 0.325) 7.06042 18.0578 x in
  let a := vwn (- (1 / (3 * PI ^ 2))) (- 0.0047584) 1.13107 13.0045 x in
  p + a * (fz15 z / fz2) * (1 - z ^ 4) + (f - p) * fz15 z * z ^ 4.
(** Perdew and Wang, Phys. Rev. B 45, 13244 (1992). *)
Definition pw92_G (A a b1 b2 b3 b4 r : R) : R :=
  - (2 * A * (1 + a * r) * ln (1 + 1 / (2 * A * (b1 * sqrt r + b2 * r + b3 * (r * sqrt r) + b4 * r ^ 2)))).
Definition eps_pw92_pol (n : R) : R := pw92_G 0.01554535 0.20548 14.1189 6.1977 3.3662 0.62517 (rs n).
Definition eps_pw92 (n z : R) : R :=
  let p := pw92_G 0.0310907 0.21370 7.5957 3.5876 1.6382 0.49294 (rs n) in
  let a := - pw92_G 0.0168869 0.11125 10.357 3.6231 0.88026 0.49671 (rs n) in
  p + a * (fz z / fz2) * (1 - z ^ 4) + (eps_pw92_pol n - p) * fz z * z ^ 4.
(** Perdew and Zunger, Phys. Rev. B 23, 5048 (1981). *)
Definition pz81_low (g b1 b2 r : R) : R := g / (1 + b1 * sqrt r + b2 * r).
Definition pz81_high (A B C D r : R) : R := A * ln r + B + C * r * ln r + D * r.
Definition eps_pz81 (n z : R) : R :=
  let r := rs n in
  let p := if Rlt_dec r 1 then pz81_high 0.0311 (- 0.048) 0.0020 (- 0.0116) r else pz81_low (- 0.1423) 1.0529 0.3334 r in
  let f := if Rlt_dec r 1 then pz81_high 0.01555 (- 0.0269) 0.0007 (- 0.0048) r else pz81_low (- 0.0843) 1.3981 0.2611 r in
  p + (f - p) * fz z.
(** Perdew, Phys. Rev. B 33, 8822 (1986).  The gradient is regularised: |grad n|^2 + 2^(-52) under the root of Phi. *)
Definition p86_C (r : R) : R := 0.001667 + (0.002568 + 0.023266 * r + 0.000007389 * r ^ 2) / (1 + 8.723 * r + 0.472 * r ^ 2 + 0.07389 * r ^ 3).
Definition p86_corr (D : dens) : R :=
  let n := ntot D in let z := zet D in let C := p86_C (rs n) in
  let Phi := Rpower (9 * PI) (1 / 6) * 0.11 * 0.004235 / C * (sqrt (stot D + / 2 ^ 52) / Rpower n (7 / 6)) in
  let d := Rpower 2 (1 / 3) * sqrt (Rpower ((1 + z) / 2) (5 / 3) + Rpower ((1 - z) / 2) (5 / 3)) in
  exp (- Phi) * C * stot D / (d * Rpower n (4 / 3)).
(** Perdew, Burke and Ernzerhof (1996): correlation on top of the local energy [eps]. *)
Definition pbe_phi (z : R) : R := (Rpower (1 + z) (2 / 3) + Rpower (1 - z) (2 / 3)) / 2.
Definition pbe_gamma : R := (1 - ln 2) / PI ^ 2.
(** t^2 with t = |grad n| / (2 phi ks n), ks = sqrt (4 kF / pi). *)
Definition pbe_t2 (phi n g : R) : R := g / (2 * phi * n) ^ 2 / (4 * kF n / PI).
Definition pbe_H (beta phi t2 eps : R) : R :=
  let A := beta / pbe_gamma / (exp (- (eps / (pbe_gamma * phi ^ 3))) - 1) in
  pbe_gamma * phi ^ 3 * ln (1 + beta / pbe_gamma * t2 * ((1 + A * t2) / (1 + A * t2 + A ^ 2 * t2 ^ 2))).
(** Correlation energy per particle; [beta] may depend on rs and t^2. *)
Definition eps_pbe_at (beta : R -> R -> R) (eps phi n g : R) : R := let t2 := pbe_t2 phi n g in eps + pbe_H (beta (rs n) t2) phi t2 eps.
Definition eps_pbe (beta : R -> R -> R) (eps : R) (n z g : R) : R := eps_pbe_at beta eps (pbe_phi z) n g.
(** Fully polarised: phi = ((1 + 1)^(2/3) + 0) / 2 = 2^(-1/3). *)
Definition eps_pbe_pol (beta : R -> R -> R) (n g : R) : R := eps_pbe_at beta (eps_pw92_pol n) (Rpower 2 (- (1 / 3))) n g.
Definition beta_pbe (_ _ : R) : R := 0.06672455060314922.
Definition pbe_c (beta : R -> R -> R) (D : dens) : R := ntot D * eps_pbe beta (eps_pw92 (ntot D) (zet D)) (ntot D) (zet D) (stot D).
(** Constantin, Fabiano and Della Sala, Phys. Rev. B 86, 035130 (2012). *)
Definition beta_loc (r t2 : R) : R := 0.0375 + 0.08 * t2 * (1 - exp (- r ^ 2)).
(** Lee, Yang and Parr, in the form of Miehlich et al., Chem. Phys. Lett. 157, 200 (1989). *)
Definition lyp (D : dens) : R :=
  let a := 0.04918 in let b := 0.132 in let c := 0.2533 in let d := 0.349 in
  let na := rho (al D) in let nb := rho (be D) in let n := ntot D in let ga := saa D in let gb := sbb D in let g := stot D in
  let w := exp (- (c / Rpower n (1 / 3))) / (1 + d / Rpower n (1 / 3)) * Rpower n (- (11 / 3)) in
  let delta := c / Rpower n (1 / 3) + d / Rpower n (1 / 3) / (1 + d / Rpower n (1 / 3)) in
  - (a * (4 / (1 + d / Rpower n (1 / 3))) * (na * nb / n))
  - a * b * w * (na * nb * (Rpower 2 (11 / 3) * c_tf * (Rpower na (8 / 3) + Rpower nb (8 / 3)) + (47 / 18 - 7 / 18 * delta) * g
                            - (5 / 2 - delta / 18) * (ga + gb) - (delta - 11) / 9 * (na / n * ga + nb / n * gb))
                 - 2 / 3 * n ^ 2 * g + (2 / 3 * n ^ 2 - na ^ 2) * gb + (2 / 3 * n ^ 2 - nb ^ 2) * ga).
(** Becke (1997): correlation, same spin and opposite spin. *)
Definition b97_c (ss os : R * R * R) (D : dens) : R :=
  let '(s0, s1, s2) := ss in let '(o0, o1, o2) := os in
  let ea := rho (al D) * eps_pw92_pol (rho (al D)) in let eb := rho (be D) * eps_pw92_pol (rho (be D)) in
  let xa := b97_s2 (rho (al D)) (saa D) in let xb := b97_s2 (rho (be D)) (sbb D) in
  ea * b97_series 0.2 s0 s1 s2 xa + eb * b97_series 0.2 s0 s1 s2 xb
  + (ntot D * eps_pw92 (ntot D) (zet D) - ea - eb) * b97_series 0.006 o0 o1 o2 ((xa + xb) / 2).

(** ** Minnesota functionals: Zhao and Truhlar, J. Chem. Phys. 123, 161103 (2005); Theor. Chem. Acc. 120, 215 (2008) *)
(** sum of c_i w^i *)
Fixpoint series (i : nat) (l : list R) (w : R) : R := match l with [] => 0 | c :: l => c * w ^ i + series (S i) l w end.
Definition tau_gas (n : R) : R := 3 / 10 * Rpower (6 * PI ^ 2) (2 / 3) * Rpower n (5 / 3).
Definition w_tau (n tau : R) : R := let t := tau_gas n / tau in (t - 1) / (t + 1).
(** z = 2 tau / n^(5/3) - C_F; C_F = 3/5 (6 pi^2)^(2/3) is formed with 2^(5/3) to 15 digits. *)
Definition z_tau (n tau : R) : R := 2 * tau / Rpower n (5 / 3) - c_tf * 3.17480210393640.
Definition vs98 (alpha d0 d1 d2 d3 d4 d5 x2 z : R) : R :=
  let g := 1 + alpha * (x2 + z) in d0 / g + (d1 * x2 + d2 * z) / g ^ 2 + (d3 * x2 ^ 2 + d4 * x2 * z + d5 * z ^ 2) / g ^ 3.
Definition pbe_x_spin (n g : R) : R := 2 * n * ex_gas (2 * n) * F_pbe 0.804 (0.066725 * PI ^ 2 / 3) (red2 (2 * n) (4 * g)) / 2.
Definition per_spin3 (e : R -> R -> R -> R) (D : dens) : R := e (rho (al D)) (saa D) (kin (al D)) + e (rho (be D)) (sbb D) (kin (be D)).
Definition minn_x (a : list R) (d0 d1 d2 d3 d4 d5 : R) : dens -> R :=
  per_spin3 (fun n g tau => pbe_x_spin n g * series 0 a (w_tau n tau) + lda_spin n * vs98 0.00186726 d0 d1 d2 d3 d4 d5 (b97_s2 n g) (z_tau n tau)).
Definition minn05_x (a : list R) : dens -> R := per_spin3 (fun n g tau => pbe_x_spin n g * series 0 a (w_tau n tau)).
(** Correlation: g(gamma x^2) is a series in gamma x^2 / (1 + gamma x^2); the same-spin part carries the factor D = 1 - tau_W / tau. *)
Definition minn_g (gamma : R) (c : list R) (x2 : R) : R := series 0 c (gamma * x2 / (1 + gamma * x2)).
Definition scf (n g tau : R) : R := 1 - g / (8 * n) / tau.
Definition minn_c (gab gss : R -> R -> R) (D : dens) : R :=
  let na := rho (al D) in let nb := rho (be D) in
  let xa := b97_s2 na (saa D) in let xb := b97_s2 nb (sbb D) in let za := z_tau na (kin (al D)) in let zb := z_tau nb (kin (be D)) in
  let ea := na * eps_pw92_pol na in let eb := nb * eps_pw92_pol nb in
  (ntot D * eps_pw92 (ntot D) (zet D) - ea - eb) * gab (xa + xb) (za + zb)
  + ea * gss xa za * scf na (saa D) (kin (al D)) + eb * gss xb zb * scf nb (sbb D) (kin (be D)).
Definition minn05_c (cab css : list R) : dens -> R := minn_c (fun x2 _ => minn_g 0.0031 cab x2) (fun x2 _ => minn_g 0.06 css x2).
Definition minn06_c (cab : list R) (a0 a1 a2 a3 a4 a5 : R) (css : list R) (s0 s1 s2 s3 s4 s5 : R) : dens -> R :=
  minn_c (fun x2 z => minn_g 0.0031 cab x2 + vs98 0.00304966 a0 a1 a2 a3 a4 a5 x2 z) (fun x2 z => minn_g 0.06 css x2 + vs98 0.00515088 s0 s1 s2 s3 s4 s5 x2 z).

(** ** Tao, Perdew, Staroverov and Scuseria, Phys. Rev. Lett. 91, 146401 (2003) *)
(** p = s^2, z = tau_W / tau, alpha = (tau - tau_W) / tau_TF; [zf] is z^2 in TPSS. *)
Definition tpss_xx (zf : R -> R) (n g tau : R) : R :=
  let kappa := 0.804 in let mu := 0.21951 in let b := 0.40 in let e := 1.537 in let c := 1.59096 in
  let p := red2 n g in let z := g / (8 * n) / tau in let alpha := (tau - g / (8 * n)) / tf n in
  let q := 9 / 20 * (alpha - 1) / sqrt (1 + b * alpha * (alpha - 1)) + 2 * p / 3 in
  ((10 / 81 + c * zf z / (1 + z ^ 2) ^ 2) * p + 146 / 2025 * q ^ 2 - 73 / 405 * q * sqrt (1 / 2 * (3 / 5 * z) ^ 2 + 1 / 2 * p ^ 2)
   + / kappa * (10 / 81) ^ 2 * p ^ 2 + 2 * sqrt e * (10 / 81) * (3 / 5 * z) ^ 2 + e * mu * p ^ 3) / (1 + sqrt e * p) ^ 2.
Definition tpss_F (x : R) : R := 1 + 0.804 - 0.804 / (1 + x / 0.804).
Definition spin_scaled3 (e : R -> R -> R -> R) (D : dens) : R :=
  (e (2 * rho (al D)) (4 * saa D) (2 * kin (al D)) + e (2 * rho (be D)) (4 * sbb D) (2 * kin (be D))) / 2.
Definition tpss_x (zf : R -> R) : dens -> R := spin_scaled3 (fun n g tau => n * ex_gas n * tpss_F (tpss_xx zf n g tau)).
(** Correlation.  |grad zeta|^2 with grad zeta = (n grad s - s grad n) / n^2, s = na - nb. *)
Definition gzeta2 (D : dens) : R :=
  (ntot D ^ 2 * dot (gS D) (gS D) - 2 * ntot D * (rho (al D) - rho (be D)) * dot (gN D) (gS D) + (rho (al D) - rho (be D)) ^ 2 * dot (gN D) (gN D)) / ntot D ^ 4.
Definition tpss_C (c0 : R) (D : dens) : R :=
  let z := zet D in let xi2 := gzeta2 D / (4 * kF (ntot D) ^ 2) in
  (c0 + 0.87 * z ^ 2 + 0.50 * z ^ 4 + 2.26 * z ^ 6) / (1 + xi2 * (Rpower (1 + z) (- (4 / 3)) + Rpower (1 - z) (- (4 / 3))) / 2) ^ 4.
Definition tpss_c (beta : R -> R -> R) (c0 d : R) (D : dens) : R :=
  let n := ntot D in let e := eps_pbe beta (eps_pw92 n (zet D)) n (zet D) (stot D) in
  let sum := (rho (al D) * Rmax e (eps_pbe_pol beta (rho (al D)) (saa D)) + rho (be D) * Rmax e (eps_pbe_pol beta (rho (be D)) (sbb D))) / n in
  let z := stot D / (8 * n) / (kin (al D) + kin (be D)) in let C := tpss_C c0 D in
  let pkzb := e * (1 + C * z ^ 2) - (1 + C) * z ^ 2 * sum in
  n * (pkzb * (1 + d * pkzb * z ^ 3)).

(** ** The SCAN family
    SCAN: Sun, Ruzsinszky and Perdew, Phys. Rev. Lett. 115, 036402 (2015).  rSCAN: Bartok and
    Yates, J. Chem. Phys. 150, 161101 (2019).  r2SCAN: Furness, Kaplan, Ning, Perdew and Sun, J. Phys. Chem. Lett.
    11, 8208 (2020).  r++SCAN and r4SCAN: the same, J. Chem. Phys. 156, 034109 (2022).  Constants the papers give
    by formulas (b1, b2, the pure number in b4, chi, gamma, 2^(4/3) - 2) to the digits the library has. *)
(** Iso-orbital indicators; [u] is the kinetic energy density of the uniform gas. *)
Definition alpha_scan (u n g tau : R) : R := (tau - g / (8 * n)) / u.
Definition alpha_rscan (u n g tau : R) : R := alpha_scan u n g tau ^ 3 / (alpha_scan u n g tau ^ 2 + 0.001).
Definition alpha_r2scan (u n g tau : R) : R := (tau - g / (8 * n)) / (u + 0.001 * (g / (8 * n))).
(** Interpolation between the single-orbital and the slowly varying limit. *)
Definition f_scan (c1 c2 d a : R) : R := if Rlt_dec a 1 then exp (- (c1 * a / (1 - a))) else - (d * exp (c2 / (1 - a))).
Fixpoint poly (l : list R) (a : R) : R := match l with [] => 0 | c :: l => c + a * poly l a end.
Definition f_rscan (c1 c2 d : R) (l : list R) (a : R) : R :=
  if Rle_dec a 0 then exp (- (c1 * a / (1 - a))) else if Rlt_dec a 2.5 then poly l a else - (d * exp (c2 / (1 - a))).
Definition rscan_cx : list R := [1; - 0.667; - 0.4445555; - 0.663086601049; 1.451297044490; - 0.887998041597; 0.234528941479; - 0.023185843322].
Definition rscan_cc : list R := [1; - 0.64; - 0.4352; - 1.535685604549; 3.061560252175; - 1.915710236206; 0.516884468372; - 0.051848879792].
Definition fx_scan : R -> R := f_scan 0.667 0.8 1.24.
Definition fx_rscan : R -> R := f_rscan 0.667 0.8 1.24 rscan_cx.
Definition fc_scan : R -> R := f_scan 0.64 1.5 0.7.
Definition fc_rscan : R -> R := f_rscan 0.64 1.5 0.7 rscan_cc.
(** Enhancement factors; p = s^2. *)
Definition scan_k1 : R := 0.065.
Definition scan_mu : R := 10 / 81.
Definition h1_scan (p a : R) : R :=
  let b1 := 0.156632 in let b2 := 0.12083 in let b4 := scan_mu ^ 2 / scan_k1 - 0.112654 in
  let x := scan_mu * p * (1 + b4 * p / scan_mu * exp (- (b4 * p / scan_mu))) + (b1 * p + b2 * (1 - a) * exp (- (1 / 2 * (1 - a) ^ 2))) ^ 2 in
  1 + scan_k1 - scan_k1 / (1 + x / scan_k1).
(** First and second derivative of the interpolating polynomial at a = 1. *)
Definition slope1 (l : list R) : R := Derive (poly l) 1.
Definition slope2 (l : list R) : R := Derive (Derive (poly l)) 1.
Definition c_eta : R := 20 / 27 + 0.001 * 5 / 3.
Definition r2_c2 : R := - (slope1 rscan_cx * (1 - 1.174)).
Definition h1_r2scan (p a : R) : R :=
  let x := (c_eta * r2_c2 * exp (- (p ^ 2 / 0.361 ^ 4)) + scan_mu) * p in 1 + scan_k1 - scan_k1 / (1 + x / scan_k1).
Definition r4_delta (p a : R) : R :=
  let e := 0.001 * 3 / 4 + 2 / 3 in let m := c_eta * r2_c2 + scan_mu in
  let caa := 73 / 5000 - slope2 rscan_cx / 2 * (1.174 - 1) in
  let cpa := 511 / 13500 - 73 / 1500 * 0.001 - slope1 rscan_cx * m in
  let cpp := 146 / 2025 * e ^ 2 - 73 / 405 * e + m ^ 2 / scan_k1 in
  (r2_c2 * ((1 - a) - c_eta * p) + caa * (1 - a) ^ 2 + cpa * p * (1 - a) + cpp * p ^ 2)
  * (2 * a ^ 2 / (1 + a ^ 4) * exp (- ((1 - a) ^ 2 / 0.232 ^ 2) - p ^ 2 / 0.232 ^ 4)).
Definition no_delta (p a : R) : R := 0.
(** exp (- a1 / s^(1/2)) with s^(1/2) = p^(1/4). *)
Definition scan_F (f : R -> R) (h1 delta : R -> R -> R) (p a : R) : R :=
  (h1 p a + f a * (1.174 - h1 p a) + delta p a) * (1 - exp (- (4.9479 / Rpower p (1 / 4)))).
Definition scan_x (alpha : R -> R -> R -> R -> R) (u : R -> R) (f : R -> R) (h1 delta : R -> R -> R) : dens -> R :=
  spin_scaled3 (fun n g tau => n * ex_gas n * scan_F f h1 delta (red2 n g) (alpha (u n) n g tau)).
(** rSCAN adds 10^(-4) to the kinetic energy density of the uniform gas. *)
Definition tf_r (n : R) : R := tf n + 0.0001.
(** Correlation.  Spin-scaling functions. *)
Definition ds_z (z : R) : R := (Rpower (1 + z) (5 / 3) + Rpower (1 - z) (5 / 3)) / 2.
Definition dx_z (z : R) : R := (Rpower (1 + z) (4 / 3) + Rpower (1 - z) (4 / 3)) / 2.
(** The factor is 2.363 as in the r2SCAN paper and in the library. *)
Definition scan_gc (z : R) : R := (1 - 2.363 * (dx_z z - 1)) * (1 - z ^ 12).
(** Single-orbital limit. *)
Definition scan_b1 : R := 0.0285764.
Definition scan_lda0 (r : R) : R := - (scan_b1 / (1 + 0.0889 * sqrt r + 0.125541 * r)).
Definition scan_ec0 (r p z : R) : R :=
  let w := exp (- (scan_lda0 r / scan_b1)) - 1 in let g := / Rpower (1 + 4 * 0.12802585262625815 * p) (1 / 4) in
  (scan_lda0 r + scan_b1 * ln (1 + w * (1 - g))) * scan_gc z.
(** Slowly varying limit: Perdew and Wang's local energy as a function of rs. *)
Definition scan_lsda (r z : R) : R :=
  let c := 0.51984209978974632953442121455650 in let f := fz_num z / c in
  let p := pw92_G 0.0310907 0.21370 7.5957 3.5876 1.6382 0.49294 r in
  let q := pw92_G 0.01554535 0.20548 14.1189 6.1977 3.3662 0.62517 r in
  let a := - pw92_G 0.0168869 0.11125 10.357 3.6231 0.88026 0.49671 r in
  p + a * (f / (8 / (9 * c))) * (1 - z ^ 4) + (q - p) * f * z ^ 4.
Definition scan_gamma : R := 0.031090690869655.
Definition scan_w1 (r z : R) : R := exp (- (scan_lsda r z / (scan_gamma * pbe_phi z ^ 3))) - 1.
(** t = (3 pi^2 / 16)^(1/3) s / (phi rs^(1/2)). *)
Definition scan_y (r p z : R) : R :=
  let beta := 0.066725 * (1 + 0.1 * r) / (1 + 0.1778 * r) in let t2 := Rpower (3 * PI ^ 2 / 16) (2 / 3) * p / (pbe_phi z ^ 2 * r) in
  beta / (scan_gamma * scan_w1 r z) * t2.
Definition scan_ec1 (dy : R -> R -> R -> R) (r p z : R) : R :=
  let g := / Rpower (1 + 4 * (scan_y r p z - dy r p z)) (1 / 4) in
  scan_lsda r z + scan_gamma * pbe_phi z ^ 3 * ln (1 + scan_w1 r z * (1 - g)).
Definition no_dy (r p z : R) : R := 0.
Definition r2_dy (r p z : R) : R :=
  slope1 rscan_cc / (27 * scan_gamma * ds_z z * pbe_phi z ^ 3 * scan_w1 r z)
  * (20 * r * (Derive (fun y => scan_lda0 y * scan_gc z) r - Derive (fun y => scan_lsda y z) r)
     - 45 * 0.001 * (scan_lda0 r * scan_gc z - scan_lsda r z)) * p * exp (- (p ^ 2 / 0.361 ^ 4)).
Definition scan_c (alpha : R -> R -> R -> R -> R) (u : R -> R) (f : R -> R) (dy : R -> R -> R -> R) (D : dens) : R :=
  let n := ntot D in let z := zet D in let p := red2 n (stot D) in
  let a := alpha (u n * ds_z z) n (stot D) (kin (al D) + kin (be D)) in
  n * (scan_ec1 dy (rs n) p z + f a * (scan_ec0 (rs n) p z - scan_ec1 dy (rs n) p z)).

(** ** Range separation *)
Definition erf (x : R) : R := 2 / sqrt PI * RInt (fun t => exp (- (t * t))) 0 x.
(** Part of uniform-gas exchange carried by the long-range interaction erf(mu r)/r, the short-range rest being 1 minus it: 8/3 a (sqrt pi erf(1/(2a)) + (2a - 4a^3) exp(-1/(4a^2)) - 3a + 4a^3); Savin (1996); Iikura et al., J. Chem. Phys. 115, 3540 (2001). *)
Definition lr_part (a : R) : R := 8 / 3 * a * (sqrt PI * erf (1 / (2 * a)) + (2 * a - 4 * a ^ 3) * exp (- (1 / (4 * a ^ 2))) - 3 * a + 4 * a ^ 3).
(** a = mu / (2 kF) with the constant (3 pi^2)^(1/3) of kF to 16 digits. *)
Definition ldaerf_a (mu n : R) : R := mu / (2 * (3.093667726280136 * Rpower n (1 / 3))).
Definition ldaerf_x (mu : R) : dens -> R := spin_scaled (fun n _ => n * ex_gas n * (1 - lr_part (ldaerf_a mu n))).
(** Coulomb-attenuated Becke exchange: Yanai, Tew and Handy, Chem. Phys. Lett. 393, 51 (2004).  E_x = - 1/2 sum n^(4/3) K. *)
Definition becke_K (n g : R) : R := - (2 * (lda_spin n + b88_corr n g) / Rpower n (4 / 3)).
Definition becke_a (mu n g : R) : R := mu * sqrt (becke_K n g) / (6 * sqrt PI * Rpower n (1 / 3)).
Definition cam_x (alpha beta mu : R) : dens -> R :=
  per_spin (fun n g => - (1 / 2) * Rpower n (4 / 3) * becke_K n g * (1 - alpha - beta * lr_part (becke_a mu n g))).

(** ** Perdew and Wang 1991, correlation *)
(** Perdew, Chevary, Vosko, Jackson, Pederson, Singh and Fiolhais, Phys. Rev. B 46, 6671 (1992).  The local energy is the PW92 form with the
    five-digit parameters of that paper's listing. *)
Definition eps_pw91 (n z : R) : R :=
  let p := pw92_G 0.031091 0.21370 7.5957 3.5876 1.6382 0.49294 (rs n) in
  let f := pw92_G 0.015545 0.20548 14.1189 6.1977 3.3662 0.62517 (rs n) in
  let a := - pw92_G 0.016887 0.11125 10.357 3.6231 0.88026 0.49671 (rs n) in
  p + a * (fz z / 1.709921) * (1 - z ^ 4) + (f - p) * fz z * z ^ 4.
Definition pw91_nu : R := 16 / PI * Rpower (3 * PI ^ 2) (1 / 3).
Definition pw91_H0 (phi t2 eps : R) : R :=
  let a := 0.09 in let b := pw91_nu * 0.004235 in
  let A := 2 * a / b / (exp (- (2 * a * eps / (phi ^ 3 * b ^ 2))) - 1) in
  phi ^ 3 * (b ^ 2 / (2 * a)) * ln (1 + 2 * a / b * ((t2 + A * t2 ^ 2) / (1 + A * t2 + A ^ 2 * t2 ^ 2))).
Definition pw91_H1 (n phi t2 : R) : R :=
  pw91_nu * (p86_C (rs n) - 0.004235 + 3 / 7 * 0.001667) * phi ^ 3 * t2 * exp (- (100 * phi ^ 4 * ((4 * kF n / PI) / kF n ^ 2) * t2)).
Definition pw91_c (D : dens) : R :=
  let n := ntot D in let z := zet D in let phi := pbe_phi z in let t2 := pbe_t2 phi n (stot D) in let e := eps_pw91 n z in
  n * (e + pw91_H0 phi t2 e + pw91_H1 n phi t2).

(** ** Short-range local correlation, Paziani, Moroni, Gori-Giorgi and Bachelet, Phys. Rev. B 73, 155111 (2006) *)
Definition pm_alpha : R := Rpower (4 / (9 * PI)) (1 / 3).
Definition pm_Q (x : R) : R :=
  let b := 3.44851 - 3 * PI * pm_alpha / (4 * ln 2 - 4) in
  (2 * ln 2 - 2) / PI ^ 2 * ln ((1 + 5.84605 * x + b * x ^ 2 + 3.91744 * x ^ 3) / (1 + 5.84605 * x + 3.44851 * x ^ 2)).
Definition pm_g0 (r : R) : R :=
  1 / 2 * (1 + (0.752411 - 0.7317) * r + 0.0819306 * r ^ 2 - 0.0127713 * r ^ 3 + 0.00185898 * r ^ 4) * exp (- (0.752411 * r)).
Definition pm_g2 (r : R) : R := Rpower 2 (5 / 3) / (5 * pm_alpha ^ 2 * r ^ 2) * ((1 + (0.4319 - 0.454555) * r) / (1 + 0.4319 * r + 0.04 * r ^ 2)).
Definition pm_D2 (r : R) : R := exp (- (0.547 * r)) / r ^ 2 * (- (0.388 * r) + 0.676 * r ^ 2).
Definition pm_D3 (r : R) : R := exp (- (0.31 * r)) / r ^ 3 * (- (4.95 * r) + r ^ 2).
Definition pm_par (r z : R) : R :=
  ((1 + z) / 2) ^ 2 * pm_g2 (r * Rpower (2 / (1 + z)) (1 / 3)) + ((1 - z) / 2) ^ 2 * pm_g2 (r * Rpower (2 / (1 - z)) (1 / 3)).
Definition pm_c4 (r z : R) : R :=
  pm_par r z + (1 - z ^ 2) * pm_D2 r - (Rpower (1 + z) (8 / 3) + Rpower (1 - z) (8 / 3)) / 2 / (5 * pm_alpha ^ 2 * r ^ 2).
Definition pm_c5 (r z : R) : R := pm_par r z + (1 - z ^ 2) * pm_D3 r.
(** The long-range energy per electron. *)
Definition pm_lr (mu r z e : R) : R :=
  let C2 := - (3 * (1 - z ^ 2) * (pm_g0 r - 1 / 2) / (8 * r ^ 3)) in
  let C3 := - ((1 - z ^ 2) * pm_g0 r / (sqrt (2 * PI) * r ^ 3)) in
  let C4 := - (9 * pm_c4 r z / (64 * r ^ 3)) in
  let C5 := - (9 * pm_c5 r z / (40 * sqrt (2 * PI) * r ^ 3)) in
  let b := 0.784949 * r in
  let a1 := 4 * b ^ 6 * C3 + b ^ 8 * C5 in
  let a2 := 4 * b ^ 6 * C2 + b ^ 8 * C4 + 6 * b ^ 4 * e in
  let a3 := b ^ 8 * C3 in
  let a4 := b ^ 8 * C2 + 4 * b ^ 6 * e in
  (pbe_phi z ^ 3 * pm_Q (mu * sqrt r / pbe_phi z) + a1 * mu ^ 3 + a2 * mu ^ 4 + a3 * mu ^ 5 + a4 * mu ^ 6 + b ^ 8 * mu ^ 8 * e) / (1 + b ^ 2 * mu ^ 2) ^ 4.
Definition ldaerf_c (mu : R) (D : dens) : R :=
  let n := ntot D in let z := zet D in let e := eps_pw92 n z in n * (e - pm_lr mu (rs n) z e).

(** Constantin, Fabiano and Della Sala, J. Chem. Phys. 137, 194105 (2012): the PBE gradient correction damped by
    exp(- alpha v^3 |zeta|^(9/2)), v = t phi (rs/3)^(-1/6).  [w] stands for |zeta|^(9/2). *)
Definition zv_v (n phi t2 : R) : R := sqrt t2 * phi * Rpower (rs n / 3) (- (1 / 6)).
Definition zv_damped (beta alpha w : R) (D : dens) : R :=
  let n := ntot D in let z := zet D in let phi := pbe_phi z in let e := eps_pw92 n z in let t2 := pbe_t2 phi n (stot D) in
  n * (e + exp (- (alpha * zv_v n phi t2 ^ 3 * w)) * pbe_H beta phi t2 e).
Definition zv_w (z : R) : R := sqrt (Rabs z) ^ 9.
Definition zv_c (beta alpha : R) (D : dens) : R := zv_damped beta alpha (zv_w (zet D)) D.
(** Toulouse, Savin and Flad, Int. J. Quantum Chem. 100, 1047 (2004), and Toulouse's thesis (Paris 2005): short-range correlation of
    the unpolarised gas.  On-top pair density of Burke, Perdew and Ernzerhof; 32 / (3 pi) as printed to 21 digits. *)
Definition jt_g0 (r : R) : R := 3.39530545262710070631 * (Rpower (4.7125 + r) 1.5 + 163.44) * exp (- (3.2581 * sqrt (4.7125 + r))).
Definition jt_c1 (r : R) : R := (1.0270741452992294 * r - 0.230160617208092 * r ^ 2) / (1 + 0.6196884832404359 * r).
Definition jt_c (mu : R) (D : dens) : R :=
  let n := ntot D in let r := rs n in let e := vwn 0.0621814 (- 0.10498) 3.72744 12.9352 (sqrt r) in
  let c2 := e / (PI / 2 * n * (jt_g0 r - 1 / 2)) in n * e / (1 + jt_c1 r * mu + c2 * mu ^ 2).
(** Borgoo and Tozer, J. Chem. Theory Comput. 9, 2250 (2013): kinetic energy n^(5/3) x^q, x = |grad n| / n^(4/3). *)
Definition btk_T (n g : R) : R := if Rlt_dec 0 g then 1.990328 * Rpower n (5 / 3) * Rpower (sqrt g / Rpower n (4 / 3)) 0.3434125 else 0.
Definition btk_k : dens -> R := spin_scaled btk_T.

(** ** The table: name in the library, energy density as a function of the parameters
    RANGESEP_MU, CAM_ALPHA, CAM_BETA and of the density, and the densities the entry is for. *)
Record reference := mkRef { ref_name : string; ref_energy : R -> R -> R -> dens -> R; ref_for : R -> dens -> Prop }.
Definition always (_ : R) (_ : dens) : Prop := True.
(** Becke 1988: x^2 >= 1/2 for both spins; the library evaluates x arcsinh x exactly there and by a rational approximation below. *)
Definition steep_D (_ : R) (D : dens) : Prop := / 2 <= saa D / Rpower (rho (al D)) (8 / 3) /\ / 2 <= sbb D / Rpower (rho (be D)) (8 / 3).
(** Perdew-Wang 1991: the same for the argument b s of the arcsinh. *)
Definition steep91_D (b : R) (_ : R) (D : dens) : Prop := / 2 <= b ^ 2 * red2 (2 * rho (al D)) (4 * saa D) /\ / 2 <= b ^ 2 * red2 (2 * rho (be D)) (4 * sbb D).
(** Range separation: neither of the two limits the library treats by series. *)
Definition mid_range_D (mu : R) (D : dens) : Prop :=
  (1 / 1000000000 <= ldaerf_a mu (2 * rho (al D)) < 100) /\ (1 / 1000000000 <= ldaerf_a mu (2 * rho (be D)) < 100).
(** SCAN: squared gradients above 10^-16, kinetic energy density not within 10^-14 of the single-orbital one (nearer, the library takes the indicator to be 0), indicator not 1.  Twice the spin density. *)
Definition off_orbital (n g tau : R) : Prop := 1 / 10 ^ 14 < Rabs (tau - g / (8 * n)).
Definition scan_x_spin (n g tau : R) : Prop := 1 / 10 ^ 16 < g /\ off_orbital n g tau /\ alpha_scan (tf n) n g tau <> 1.
(** rSCAN interpolation: the library uses the exponential up to an indicator of 10^-13. *)
Definition off_zero (a : R) : Prop := a <= 0 \/ 1 / 10 ^ 13 <= a.
Definition rscan_x_spin (n g tau : R) : Prop := 1 / 10 ^ 16 < g /\ off_zero (alpha_rscan (tf_r n) n g tau).
Definition r2scan_x_spin (n g tau : R) : Prop := 1 / 10 ^ 16 < g /\ off_orbital n g tau /\ off_zero (alpha_r2scan (tf n) n g tau).
Definition both_spins (P : R -> R -> R -> Prop) (_ : R) (D : dens) : Prop :=
  P (2 * rho (al D)) (4 * saa D) (2 * kin (al D)) /\ P (2 * rho (be D)) (4 * sbb D) (2 * kin (be D)).
Definition scan_c_D (_ : R) (D : dens) : Prop := let tau := kin (al D) + kin (be D) in
  off_orbital (ntot D) (stot D) tau /\ alpha_scan (tf (ntot D) * ds_z (zet D)) (ntot D) (stot D) tau <> 1.
Definition rscan_c_D (_ : R) (D : dens) : Prop := off_zero (alpha_rscan (tf_r (ntot D) * ds_z (zet D)) (ntot D) (stot D) (kin (al D) + kin (be D))).
Definition r2scan_c_D (_ : R) (D : dens) : Prop := let tau := kin (al D) + kin (be D) in
  off_orbital (ntot D) (stot D) tau /\ off_zero (alpha_r2scan (tf (ntot D) * ds_z (zet D)) (ntot D) (stot D) tau).
(** Closed shells: equal spin densities; for the second with a gradient. *)
Definition closed_D (_ : R) (D : dens) : Prop := rho (al D) = rho (be D).
Definition closed_steep_D (mu : R) (D : dens) : Prop := closed_D mu D /\ 0 < stot D.
Definition published : list reference :=
  [mkRef "SLATERX" (fun _ _ _ => gga_x F_lda) always;
   mkRef "PW86X" (fun _ _ _ => gga_x F_pw86) always;
   mkRef "VWN3C" (fun _ _ _ => (fun D => ntot D * eps_vwn3 (ntot D) (zet D))) always;
   mkRef "VWN5C" (fun _ _ _ => (fun D => ntot D * eps_vwn5 (ntot D) (zet D))) always;
   mkRef "PBEC" (fun _ _ _ => pbe_c beta_pbe) always;
   mkRef "PBEX" (fun _ _ _ => gga_x (F_pbe 0.804 (0.066725 * PI ^ 2 / 3))) always;
   mkRef "BECKEX" (fun _ _ _ => per_spin (fun n g => lda_spin n + b88_corr n g)) steep_D;
   mkRef "BECKECORRX" (fun _ _ _ => per_spin b88_corr) steep_D;
   mkRef "BECKESRX" (fun mu _ _ => cam_x 0 1 mu) steep_D;
   mkRef "BECKECAMX" (fun mu alpha beta => cam_x alpha beta mu) steep_D;
   mkRef "LDAERFX" (fun mu _ _ => ldaerf_x mu) mid_range_D;
   mkRef "LYPC" (fun _ _ _ => lyp) always;
   mkRef "OPTX" (fun _ _ _ => per_spin optx_spin) always;
   mkRef "OPTXCORR" (fun _ _ _ => per_spin optx_corr) always;
   mkRef "REVPBEX" (fun _ _ _ => gga_x (F_pbe 1.245 (0.066725 * PI ^ 2 / 3))) always;
   mkRef "RPBEX" (fun _ _ _ => gga_x (F_rpbe 0.804 0.2195149727645171)) always;
   mkRef "VWN_PBEC" (fun _ _ _ => (fun D => ntot D * eps_pbe beta_pbe (eps_vwn5 (ntot D) (zet D)) (ntot D) (zet D) (stot D))) always;
   mkRef "KTX" (fun _ _ _ => per_spin kt_spin) always;
   mkRef "TFK" (fun _ _ _ => (fun D => tf (ntot D))) always;
   mkRef "PW91X" (fun _ _ _ => gga_x (F_pw91 0.19645 7.7956 0.2743 0.15084 0.004)) (steep91_D 7.7956);
   mkRef "PW91K" (fun _ _ _ => spin_scaled (fun n g => tf n * F_pw91 0.093907 76.320 0.26608 0.0809615 0.000057767 (red2 n g))) (steep91_D 76.320);
   mkRef "PW92C" (fun _ _ _ => (fun D => ntot D * eps_pw92 (ntot D) (zet D))) always;
   mkRef "M05X" (fun _ _ _ => minn05_x [1; 0.08151; - 0.43956; - 3.22422; 2.01819; 8.79431; - 0.00295; 9.82029; - 4.82351; - 48.17574; 3.64802; 34.02248]) always;
   mkRef "M05X2X" (fun _ _ _ => minn05_x [1; - 0.56833; - 1.30057; 5.50070; 9.06402; - 32.21075; - 23.73298; 70.22996; 29.88614; - 60.25778; - 13.22205; 15.23694]) always;
   mkRef "M06X2X" (fun _ _ _ => minn05_x [0.46; - 0.2206052; - 0.09431788; 2.164494; - 2.556466; - 14.22133; 15.55044; 35.98078; - 27.22754; - 39.24093; 15.22808; 15.22227]) always;
   mkRef "M06X" (fun _ _ _ => minn_x [0.5877943; - 0.1371776; 0.2682367; - 2.515898; - 2.978892; 8.710679; 16.88195; - 4.489724; - 32.99983; - 14.4905; 20.43747; 12.56504] 0.1422057 0.0007370319 (- 0.01601373) 0 0 0) always;
   mkRef "M06LX" (fun _ _ _ => minn_x [0.3987756; 0.2548219; 0.3923994; - 2.103655; - 6.302147; 10.97615; 30.97273; - 23.18489; - 56.7348; 21.60364; 34.21814; - 9.049762] 0.6012244 0.004748822 (- 0.008635108) (- 0.000009308062) 0.00004482811 0) always;
   mkRef "M06HFX" (fun _ _ _ => minn_x [0.1179732; - 1.066708; - 0.1462405; 7.481848; 3.776679; - 44.36118; - 18.30962; 100.3903; 38.6436; - 98.06018; - 25.57716; 35.90404] (- 0.1179732) (- 0.0025) (- 0.01180056) 0 0 0) always;
   mkRef "M05C" (fun _ _ _ => minn05_c [1; 3.78569; - 14.15261; - 7.46589; 17.94491] [1; 3.77344; - 26.04463; 30.69913; - 9.22695]) always;
   mkRef "M05X2C" (fun _ _ _ => minn05_c [1; 1.09297; - 3.79171; 2.8281; - 10.58909] [1; - 3.0543; 7.61854; 1.47665; - 11.92365]) always;
   mkRef "M06C" (fun _ _ _ => minn06_c [3.741539; 218.7098; - 453.1252; 293.6479; - 62.8747] (- 2.741539) (- 0.6720113) (- 0.07932688) 0.001918681 (- 0.002032902) 0
     [0.5094055; - 1.491085; 17.23922; - 38.59018; 28.45044] 0.4905945 (- 0.1437348) 0.2357824 0.001871015 (- 0.003788963) 0) always;
   mkRef "M06HFC" (fun _ _ _ => minn06_c [1.674634; 57.32017; 59.55416; - 231.1007; 125.5199] (- 0.6746338) (- 0.1534002) (- 0.09021521) (- 0.001292037) (- 0.0002352983) 0
     [0.1023254; - 2.453783; 29.1318; - 34.94358; 23.15955] 0.8976746 (- 0.234583) 0.2368173 (- 0.000991389) (- 0.01146165) 0) always;
   mkRef "M06LC" (fun _ _ _ => minn06_c [0.6042374; 177.6783; - 251.3252; 76.35173; - 12.55699] 0.3957626 (- 0.5614546) 0.01403963 0.0009831442 (- 0.003577176) 0
     [0.5349466; 0.539662; - 31.61217; 51.49592; - 29.19613] 0.4650534 0.1617589 0.1833657 0.00046921 (- 0.004990573) 0) always;
   mkRef "M06X2C" (fun _ _ _ => minn06_c [0.8833596; 33.57972; - 70.43548; 49.78271; - 18.52891] 0.1166404 (- 0.09120847) (- 0.06726189) 0.0000672058 0.0008448011 0
     [0.3097855; - 5.528642; 13.4742; - 32.13623; 28.46742] 0.6902145 0.09847204 0.2214797 (- 0.001968264) (- 0.006775479) 0) always;
   mkRef "TPSSC" (fun _ _ _ => tpss_c beta_pbe 0.53 2.8) always;
   mkRef "TPSSX" (fun _ _ _ => tpss_x (fun z => z ^ 2)) always;
   mkRef "PZ81C" (fun _ _ _ => (fun D => ntot D * eps_pz81 (ntot D) (zet D))) always;
   mkRef "P86C" (fun _ _ _ => (fun D => ntot D * eps_pz81 (ntot D) (zet D) + p86_corr D)) always;
   mkRef "P86CORRC" (fun _ _ _ => p86_corr) always;
   mkRef "VWK" (fun _ _ _ => per_spin vw_spin) always;
   mkRef "B97X" (fun _ _ _ => per_spin (b97_x 0.8094 0.5073 0.7481)) always;
   mkRef "B97_1X" (fun _ _ _ => per_spin (b97_x 0.789518 0.573805 0.660975)) always;
   mkRef "B97_2X" (fun _ _ _ => per_spin (b97_x 0.827642 0.047840 1.76125)) always;
   mkRef "B97C" (fun _ _ _ => b97_c (0.1737, 2.3487, - 2.4868) (0.9454, 0.7471, - 4.5961)) always;
   mkRef "B97_1C" (fun _ _ _ => b97_c (0.0820011, 2.71681, - 2.87103) (0.955689, 0.788552, - 5.47869)) always;
   mkRef "B97_2C" (fun _ _ _ => b97_c (0.585808, - 0.691682, 0.394796) (0.999849, 1.40626, - 7.44060)) always;
   mkRef "APBEC" (fun _ _ _ => pbe_c (fun _ _ => 0.079030523241)) always;
   mkRef "APBEX" (fun _ _ _ => gga_x (F_pbe 0.804 0.26)) always;
   mkRef "BLOCX" (fun _ _ _ => tpss_x (fun z => Rpower z (4 - 3.3 * z))) always;
   mkRef "PBEINTC" (fun _ _ _ => pbe_c (fun _ _ => 0.052)) always;
   mkRef "PBEINTX" (fun _ _ _ => gga_x (F_pbeint 0.804 0.123456790123 0.21951 0.197)) always;
   mkRef "PBELOCC" (fun _ _ _ => pbe_c beta_loc) always;
   mkRef "PBESOLX" (fun _ _ _ => gga_x (F_pbe 0.804 0.123456790123)) always;
   mkRef "TPSSLOCC" (fun _ _ _ => tpss_c beta_loc 0.35 4.5) always;
   mkRef "SCANX" (fun _ _ _ => scan_x alpha_scan tf fx_scan h1_scan no_delta) (both_spins scan_x_spin);
   mkRef "RSCANX" (fun _ _ _ => scan_x alpha_rscan tf_r fx_rscan h1_scan no_delta) (both_spins rscan_x_spin);
   mkRef "RPPSCANX" (fun _ _ _ => scan_x alpha_r2scan tf fx_rscan h1_scan no_delta) (both_spins r2scan_x_spin);
   mkRef "R2SCANX" (fun _ _ _ => scan_x alpha_r2scan tf fx_rscan h1_r2scan no_delta) (both_spins r2scan_x_spin);
   mkRef "R4SCANX" (fun _ _ _ => scan_x alpha_r2scan tf fx_rscan h1_r2scan r4_delta) (both_spins r2scan_x_spin);
   mkRef "SCANC" (fun _ _ _ => scan_c alpha_scan tf fc_scan no_dy) scan_c_D;
   mkRef "RSCANC" (fun _ _ _ => scan_c alpha_rscan tf_r fc_rscan no_dy) rscan_c_D;
   mkRef "RPPSCANC" (fun _ _ _ => scan_c alpha_r2scan tf fc_rscan no_dy) r2scan_c_D;
   mkRef "R2SCANC" (fun _ _ _ => scan_c alpha_r2scan tf fc_rscan r2_dy) r2scan_c_D;
   mkRef "R4SCANC" (fun _ _ _ => scan_c alpha_r2scan tf fc_rscan r2_dy) r2scan_c_D;
   mkRef "PW91C" (fun _ _ _ => pw91_c) always;
   mkRef "LDAERFC" (fun mu _ _ => ldaerf_c mu) always;
   mkRef "LDAERFC_JT" (fun mu _ _ => jt_c mu) closed_D;
   mkRef "ZVPBESOLC" (fun _ _ _ => zv_c 0.046 1.8) closed_steep_D;
   mkRef "ZVPBEINTC" (fun _ _ _ => zv_c 0.052 1) closed_steep_D].
Definition reference_of (nm : string) : option reference := find (fun r => String.eqb (ref_name r) nm) published.
