(** * The energy functions

    Transcription of the functions registered with FUNCTIONAL(...) in /repo/src/functionals
    and of the templates they call, one definition per C++ function, in the syntax of Expr.v.
    [arg] and [num] bind a parameter or a local variable once (the C++ code passes references
    to computed values, so an argument is computed once).  [:+], [:*] etc. are the mixed
    operators with the [double] on the side of the colon.  Functions with output parameters
    take the names of the variables they assign and the continuation of the caller.
    Compile-time branches and loops with constant bounds (SCAN family, M05/M06 sums) are
    written out. *)
From Coq Require Import QArith ZArith List Bool String.
From Verif Require Import Scalar Tables CTaylor TMath Br Expr.
Import ListNotations.
Local Open Scope string_scope.
Local Open Scope list_scope.
Local Open Scope ex_scope.
Local Open Scope sx_scope.

(** /repo/src/functionals/constants.hpp 30 *)
Definition c_slater : sexp := SPow (81 / (32 * SPi)) (1.0 / 3.0).

(** /repo/src/functionals/slater.hpp 19-21 *)
Definition slater_slaterx : expr :=
  - c_slater :* (d_a_43 + d_b_43).

(** /repo/src/functionals/pw86x.cpp 17-28 *)
Definition pw86x (na : expr) (gaa : expr) : expr :=
  arg na @ "pw86x.na" in
  arg gaa @ "pw86x.gaa" in
  let a : sexp := 1.0%sx in
  let b : sexp := 1.296%sx in
  let c : sexp := 14.0%sx in
  let d : sexp := 0.20%sx in
  num rho @ "pw86x.rho" := 2 :* na in
  num grad2 @ "pw86x.grad2" := 4 :* gaa in
  num Ax @ "pw86x.Ax" := EConst (- SPow (3.0 / SPi) (1.0 / 3.0) * 3.0 / 4.0) in
  num kf @ "pw86x.kf" := EPow (3.0 * SPowI SPi 2 :* rho) (1.0 / 3.0) in
  num s2 @ "pw86x.s2" := grad2 / EPowI (2.0 :* kf * rho) 2 in
  num F @ "pw86x.F" := EPow (a :+ s2 * (b :+ s2 * (c :+ d :* s2))) (1.0 / 15.0) in
  Ax * EPow rho (4.0 / 3.0) * F.

(** /repo/src/functionals/pw86x.cpp 30-32 *)
Definition pw86x_pw86xtot : expr :=
  0.5 :* (pw86x d_a d_gaa + pw86x d_b d_gbb).

(** /repo/src/functionals/vwn.hpp 21-23 *)
Definition vwn_vwn_a (p : list sexp) : sexp :=
  sget 0 p * sget 2 p / (sget 0 p * sget 0 p + sget 0 p * sget 2 p + sget 3 p) - 1.

(** /repo/src/functionals/vwn.hpp 36-38 *)
Definition vwn_vwn_x (s : expr) (p : list sexp) : expr :=
  arg s @ "vwn_vwn_x.s" in
  s * s + sget 2 p :* s +: sget 3 p.

(** /repo/src/functionals/vwn.hpp 25-27 *)
Definition vwn_vwn_b (p : list sexp) : sexp :=
  2 * (sget 0 p * sget 2 p / (sget 0 p * sget 0 p + sget 0 p * sget 2 p + sget 3 p) - 1) + 2.

(** /repo/src/functionals/vwn.hpp 40-42 *)
Definition vwn_vwn_y (s : expr) (p : list sexp) : expr :=
  arg s @ "vwn_vwn_y.s" in
  s -: sget 0 p.

(** /repo/src/functionals/vwn.hpp 29-34 *)
Definition vwn_vwn_c (p : list sexp) : sexp :=
  2 * sget 2 p * (1 / SSqrt (4 * sget 3 p - sget 2 p * sget 2 p) - sget 0 p / ((sget 0 p * sget 0 p + sget 0 p * sget 2 p + sget 3 p) * SSqrt (4 * sget 3 p - sget 2 p * sget 2 p) / (sget 2 p + 2 * sget 0 p))).

(** /repo/src/functionals/vwn.hpp 44-46 *)
Definition vwn_vwn_z (s : expr) (p : list sexp) : expr :=
  arg s @ "vwn_vwn_z.s" in
  SSqrt (4 * sget 3 p - sget 2 p * sget 2 p) :/ (2 :* s +: sget 2 p).

(** /repo/src/functionals/vwn.hpp 48-52 *)
Definition vwn_vwn_f (s : expr) (p : list sexp) : expr :=
  arg s @ "vwn_vwn_f.s" in
  0.5 * sget 1 p :* (2 :* EFun Flog s + vwn_vwn_a p :* EFun Flog (vwn_vwn_x s p) - vwn_vwn_b p :* EFun Flog (vwn_vwn_y s p) + vwn_vwn_c p :* EFun Fatan (vwn_vwn_z s p)).

(** /repo/src/functionals/vwn.hpp 80-90 *)
Definition vwn_vwn3_eps : expr :=
  let para : list sexp := [- 0.4092860; 0.0621814; 13.0720; 42.7198]%sx in
  let ferro : list sexp := [- 0.7432940; 0.0310907; 20.1231; 101.578]%sx in
  num s @ "vwn_vwn3_eps.s" := EFun Fsqrt d_r_s in
  num g @ "vwn_vwn3_eps.g" := 1.92366105093154 :* (eufunc d_zeta (4.0 / 3.0) -: 2) in
  num dd @ "vwn_vwn3_eps.dd" := g * (vwn_vwn_f s ferro - vwn_vwn_f s para) in
  vwn_vwn_f s para + dd.

(** /repo/src/functionals/vwn3.cpp 18-20 *)
Definition vwn3_vwn3c : expr :=
  d_n * vwn_vwn3_eps.

(** /repo/src/functionals/vwn.hpp 54-78 *)
Definition vwn_vwn5_eps : expr :=
  let para : list sexp := [- 0.10498; 0.0621814; 3.72744; 12.9352]%sx in
  let ferro : list sexp := [- 0.325; 0.0310907; 7.06042; 18.0578]%sx in
  let inter : list sexp := [- 0.0047584; - SPow (3 * SPi * SPi) (- 1.0); 1.13107; 13.0045]%sx in
  num s @ "vwn_vwn5_eps.s" := EFun Fsqrt d_r_s in
  num g @ "vwn_vwn5_eps.g" := 1.92366105093154 :* (eufunc d_zeta (4.0 / 3.0) -: 2) in
  num zeta4 @ "vwn_vwn5_eps.zeta4" := EPowI d_zeta 4 in
  num dd @ "vwn_vwn5_eps.dd" := g * ((vwn_vwn_f s ferro - vwn_vwn_f s para) * zeta4 + vwn_vwn_f s inter * (1 :- zeta4) *: (9.0 / 4.0 * (SPow 2 (1.0 / 3.0) - 1))) in
  vwn_vwn_f s para + dd.

(** /repo/src/functionals/vwn5c.cpp 18-20 *)
Definition vwn5c : expr :=
  d_n * vwn_vwn5_eps.

(** /repo/src/functionals/pw92eps.hpp 32-39 *)
Definition pw92eps_omega (z : expr) : expr :=
  arg z @ "pw92eps_omega.z" in
  (eufunc z (4.0 / 3.0) -: 2) /: (2 * SPow 2 (1.0 / 3.0) - 2).

(** /repo/src/functionals/pw92eps.hpp 20-25 *)
Definition pw92eps_eopt (sqrtr : expr) (t : list sexp) : expr :=
  arg sqrtr @ "pw92eps_eopt.sqrtr" in
  -2 * sget 0 t :* (1 :+ sget 1 t :* sqrtr * sqrtr) * EFun Flog (1 :+ 0.5 :/ (sget 0 t :* (sqrtr * (sget 2 t :+ sqrtr * (sget 3 t :+ sqrtr * (sget 4 t :+ sget 5 t :* sqrtr)))))).

(** /repo/src/functionals/pw92eps.hpp 48-61 *)
Definition pw92eps : expr :=
  let TUVWXYP : list (list sexp) := [[0.03109070; 0.21370; 7.59570; 3.5876; 1.63820; 0.49294; 1]; [0.01554535; 0.20548; 14.1189; 6.1977; 3.36620; 0.62517; 1]; [0.01688690; 0.11125; 10.3570; 3.6231; 0.88026; 0.49671; 1]]%sx in
  let c : sexp := (8.0 / (9.0 * (2 * SPow 2 (1.0 / 3.0) - 2)))%sx in
  num zeta4 @ "pw92eps.zeta4" := EPowI d_zeta 4 in
  num omegaval @ "pw92eps.omegaval" := pw92eps_omega d_zeta in
  num sqrtr @ "pw92eps.sqrtr" := EFun Fsqrt d_r_s in
  num e0 @ "pw92eps.e0" := pw92eps_eopt sqrtr (aget 0 TUVWXYP) in
  e0 - pw92eps_eopt sqrtr (aget 2 TUVWXYP) * omegaval * (1 :- zeta4) /: c + (pw92eps_eopt sqrtr (aget 1 TUVWXYP) - e0) * omegaval * zeta4.

(** /repo/src/functionals/pbec.cpp 36-38 *)
Definition pbec_phi : expr :=
  SPow 2.0 (- 1.0 / 3.0) :* d_n_m13 * d_n_m13 * (EFun Fsqrt d_a_43 + EFun Fsqrt d_b_43).

(** /repo/src/functionals/constants.hpp 36 *)
Definition c_param_beta_accurate : sexp := 0.06672455060314922.

(** /repo/src/functionals/constants.hpp 26 *)
Definition c_PI2 : sexp := SPi * SPi.

(** /repo/src/functionals/constants.hpp 34 *)
Definition c_param_gamma : sexp := (1 - SLog 2.0) / c_PI2.

(** /repo/src/functionals/constants.hpp 37 *)
Definition c_param_beta_gamma : sexp := c_param_beta_accurate / c_param_gamma.

(** /repo/src/functionals/pbec.cpp 20-24 *)
Definition pbec_A (eps : expr) (u3 : expr) : expr :=
  arg eps @ "pbec_A.eps" in
  arg u3 @ "pbec_A.u3" in
  c_param_beta_gamma :/ EFun Fexpm1 (- eps / (c_param_gamma :* u3)).

(** /repo/src/functionals/pbec.cpp 26-33 *)
Definition pbec_H (d2 : expr) (eps : expr) (u3 : expr) : expr :=
  arg d2 @ "pbec_H.d2" in
  arg eps @ "pbec_H.eps" in
  arg u3 @ "pbec_H.u3" in
  num d2A @ "pbec_H.d2A" := d2 * pbec_A eps u3 in
  c_param_gamma :* u3 * EFun Flog (1 :+ c_param_beta_gamma :* d2 * (1 :+ d2A) / (1 :+ d2A * (1 :+ d2A))).

(** /repo/src/functionals/pbec.cpp 40-47 *)
Definition pbec : expr :=
  num eps @ "pbec.eps" := pw92eps in
  num u @ "pbec.u" := pbec_phi in
  num d2 @ "pbec.d2" := SPow (1.0 / 12 * SPow 3 (5.0 / 6.0) / SPow SPi (- 1.0 / 6)) 2.0 :* d_gnn / (u * u * EPow d_n (7.0 / 3.0)) in
  d_n * (eps + pbec_H d2 eps (epow3 u)).

(** /repo/src/functionals/pbex.hpp 22 *)
Definition c_R_pbe : sexp := 0.804.

(** /repo/src/functionals/pw9xx.hpp 51-63 *)
Definition pw91_like_x_internal_prefactor (rho : expr) : expr :=
  arg rho @ "pw91_like_x_internal_prefactor.rho" in
  - 0.75 * SPow 2.0 (1.0 / 3.0) * SPow (3 * SPi * SPi) (1.0 / 3.0) :* EPow rho (4.0 / 3.0) /: SPi.

(** /repo/src/functionals/pw9xx.hpp 43-46 *)
Definition pw91_like_x_internal_S2 (rho : expr) (grad : expr) : expr :=
  arg rho @ "pw91_like_x_internal_S2.rho" in
  arg grad @ "pw91_like_x_internal_S2.grad" in
  grad / EPow rho (8.0 / 3.0) *: SPow (SPow 6.0 (2.0 / 3.0) / (12 * SPow SPi (2.0 / 3.0))) 2.0.

(** /repo/src/functionals/pbex.hpp 26-39 *)
Definition pbex_enhancement (R : sexp) (rho : expr) (grad : expr) : expr :=
  arg rho @ "pbex_enhancement.rho" in
  arg grad @ "pbex_enhancement.grad" in
  let mu : sexp := (0.066725 * SPi * SPi / 3.0)%sx in
  num st2 @ "pbex_enhancement.st2" := pw91_like_x_internal_S2 rho grad in
  num t1 @ "pbex_enhancement.t1" := 1 :+ mu :* st2 /: R in
  1 + R :- R :/ t1.

(** /repo/src/functionals/pbex.hpp 48-52 *)
Definition pbex_energy_pbe_ab (R : sexp) (rho : expr) (grad : expr) : expr :=
  arg rho @ "pbex_energy_pbe_ab.rho" in
  arg grad @ "pbex_energy_pbe_ab.grad" in
  pw91_like_x_internal_prefactor rho * pbex_enhancement R rho grad.

(** /repo/src/functionals/pbex.cpp 20-23 *)
Definition pbex_pbex_en : expr :=
  pbex_energy_pbe_ab c_R_pbe d_a d_gaa + pbex_energy_pbe_ab c_R_pbe d_b d_gbb.

(** /repo/src/functionals/beckex.cpp 17-25 *)
Definition beckex_becke_alpha (na : expr) (gaa : expr) : expr :=
  arg na @ "beckex_becke_alpha.na" in
  arg gaa @ "beckex_becke_alpha.gaa" in
  let c : sexp := (SPow (81 / (4 * SPi)) (1.0 / 3.0) / 2)%sx in
  let d : sexp := 0.0042%sx in
  num na43 @ "beckex_becke_alpha.na43" := EPow na (4.0 / 3.0) in
  num lda @ "beckex_becke_alpha.lda" := - c :* na43 in
  num chi2 @ "beckex_becke_alpha.chi2" := gaa * EPow na (- 8.0 / 3.0) in
  num b88 @ "beckex_becke_alpha.b88" := - (d :* na43 * chi2) / (1 :+ 6 * d :* EFun Fsqas chi2) in
  lda + b88.

(** /repo/src/functionals/beckex.cpp 75-77 *)
Definition beckex : expr :=
  beckex_becke_alpha d_a d_gaa + beckex_becke_alpha d_b d_gbb.

(** /repo/src/functionals/beckex.cpp 27-32 *)
Definition beckex_becke_corr (na : expr) (gaa : expr) : expr :=
  arg na @ "beckex_becke_corr.na" in
  arg gaa @ "beckex_becke_corr.gaa" in
  let d : sexp := 0.0042%sx in
  num na43 @ "beckex_becke_corr.na43" := EPow na (4.0 / 3.0) in
  num chi2 @ "beckex_becke_corr.chi2" := gaa * EPow na (- 8.0 / 3.0) in
  - (d :* na43 * chi2) / (1 :+ 6 * d :* EFun Fsqas chi2).

(** /repo/src/functionals/beckex.cpp 79-81 *)
Definition beckex_beckexcorr : expr :=
  beckex_becke_corr d_a d_gaa + beckex_becke_corr d_b d_gbb.

(** /repo/src/functionals/beckex.cpp 42-54 *)
Definition beckex_becke_sr (mu : sexp) (na : expr) (gaa : expr) : expr :=
  arg na @ "beckex_becke_sr.na" in
  arg gaa @ "beckex_becke_sr.gaa" in
  let cparam : sexp := (SPow (81 / (4 * SPi)) (1.0 / 3.0) / 2)%sx in
  let d : sexp := 0.0042%sx in
  num na43 @ "beckex_becke_sr.na43" := EPow na (4.0 / 3.0) in
  num chi2 @ "beckex_becke_sr.chi2" := gaa * EPow na (- 8.0 / 3.0) in
  num K @ "beckex_becke_sr.K" := 2 :* (cparam :+ d :* chi2 / (1 :+ 6 * d :* EFun Fsqas chi2)) in
  num a @ "beckex_becke_sr.a" := mu :* EFun Fsqrt K / (6 * SSqrt SPi :* EPow na (1.0 / 3.0)) in
  num b @ "beckex_becke_sr.b" := EFun Fexpm1 (-1 :/ (4 :* a * a)) in
  num c @ "beckex_becke_sr.c" := 2 :* a * a * b +: 0.5 in
  - 0.5 :* na43 * K * (1 :- 8.0 / 3.0 :* a * (SSqrt SPi :* EFun Ferf (1 :/ (2 :* a)) + 2 :* a * (b - c))).

(** /repo/src/functionals/beckex.cpp 83-86 *)
Definition beckex_beckesrx : expr :=
  let mu : sexp := (SPar XC_RANGESEP_MU)%sx in
  beckex_becke_sr mu d_a d_gaa + beckex_becke_sr mu d_b d_gbb.

(** /repo/src/functionals/beckex.cpp 56-73 *)
Definition beckex_becke_cam (alpha : sexp) (beta : sexp) (mu : sexp) (na : expr) (gaa : expr) : expr :=
  arg na @ "beckex_becke_cam.na" in
  arg gaa @ "beckex_becke_cam.gaa" in
  let cparam : sexp := (SPow (81 / (4 * SPi)) (1.0 / 3.0) / 2)%sx in
  let d : sexp := 0.0042%sx in
  num na43 @ "beckex_becke_cam.na43" := EPow na (4.0 / 3.0) in
  num chi2 @ "beckex_becke_cam.chi2" := gaa * EPow na (- 8.0 / 3.0) in
  num K @ "beckex_becke_cam.K" := 2 :* (cparam :+ d :* chi2 / (1 :+ 6 * d :* EFun Fsqas chi2)) in
  num a @ "beckex_becke_cam.a" := mu :* EFun Fsqrt K / (6 * SSqrt SPi :* EPow na (1.0 / 3.0)) in
  num b @ "beckex_becke_cam.b" := EFun Fexpm1 (-1 :/ (4 :* a * a)) in
  num c @ "beckex_becke_cam.c" := 2 :* a * a * b +: 0.5 in
  - 0.5 :* na43 * K * (1 - alpha :- beta * 8.0 / 3.0 :* a * (SSqrt SPi :* EFun Ferf (1 :/ (2 :* a)) + 2 :* a * (b - c))).

(** /repo/src/functionals/beckex.cpp 88-94 *)
Definition beckex_beckecamx : expr :=
  let mu : sexp := (SPar XC_RANGESEP_MU)%sx in
  let alpha : sexp := (SPar XC_CAM_ALPHA)%sx in
  let beta : sexp := (SPar XC_CAM_BETA)%sx in
  beckex_becke_cam alpha beta mu d_a d_gaa + beckex_becke_cam alpha beta mu d_b d_gbb.

(** /repo/src/functionals/brx.cpp 89-101 *)
Definition brx_polarized (na : expr) (gaa : expr) (lapa : expr) (taua : expr) (jpaa : expr) : expr :=
  arg na @ "brx_polarized.na" in
  arg gaa @ "brx_polarized.gaa" in
  arg lapa @ "brx_polarized.lapa" in
  arg taua @ "brx_polarized.taua" in
  arg jpaa @ "brx_polarized.jpaa" in
  num Q @ "brx_polarized.Q" := (lapa - 2 :* taua + (0.5 :* gaa + 2 :* jpaa) / na) /: 6.0 in
  num x @ "brx_polarized.x" := EBR (1.0 / (2.0 / 3.0 * SPow SPi (2.0 / 3.0)) :* Q * EPow na (- 5.0 / 3.0)) in
  num b @ "brx_polarized.b" := EFun Fcbrt (epow3 x * EFun Fexp (- x) / (8 * SPi :* na)) in
  - (1 :- (1 :+ 0.5 :* x) * EFun Fexp (- x)) / b.

(** /repo/src/functionals/brx.cpp 103-106 *)
Definition brx : expr :=
  0.5 :* (d_a * brx_polarized d_a d_gaa d_lapa (2 :* d_taua) d_jpaa + d_b * brx_polarized d_b d_gbb d_lapb (2 :* d_taub) d_jpbb).

(** /repo/src/functionals/brx.cpp 108-121 *)
Definition brx_brc : expr :=
  let cab : sexp := 0.63%sx in
  let caa : sexp := 0.88%sx in
  num UXa @ "brx_brc.UXa" := brx_polarized d_a d_gaa d_lapa (2 :* d_taua) d_jpaa in
  num UXb @ "brx_brc.UXb" := brx_polarized d_b d_gbb d_lapb (2 :* d_taub) d_jpbb in
  num zaa @ "brx_brc.zaa" := EAbs (caa :* (2.0 :/ UXa)) in
  num zbb @ "brx_brc.zbb" := EAbs (caa :* (2.0 :/ UXb)) in
  num zab @ "brx_brc.zab" := EAbs (cab :* (1.0 :/ UXa + 1.0 :/ UXb)) in
  num ECopp @ "brx_brc.ECopp" := - 0.8 :* d_a * d_b * zab * zab * (1 :- EFun Flog (1 :+ zab) / zab) in
  num ECaa @ "brx_brc.ECaa" := - 0.01 :* d_a * (2 :* d_taua - (0.25 :* d_gaa + d_jpaa) / d_a) * EPowI zaa 4 * (1 :- 2 :/ zaa * EFun Flog (1 :+ zaa /: 2)) in
  num ECbb @ "brx_brc.ECbb" := - 0.01 :* d_b * (2 :* d_taub - (0.25 :* d_gbb + d_jpbb) / d_b) * EPowI zbb 4 * (1 :- 2 :/ zbb * EFun Flog (1 :+ zbb /: 2)) in
  ECopp + ECaa + ECbb.

(** /repo/src/functionals/brx.cpp 123-136 *)
Definition brx_brxc : expr :=
  let cab : sexp := 0.63%sx in
  let caa : sexp := 0.88%sx in
  num UXa @ "brx_brxc.UXa" := brx_polarized d_a d_gaa d_lapa (2 :* d_taua) d_jpaa in
  num UXb @ "brx_brxc.UXb" := brx_polarized d_b d_gbb d_lapb (2 :* d_taub) d_jpbb in
  num zaa @ "brx_brxc.zaa" := EAbs (caa :* (2.0 :/ UXa)) in
  num zbb @ "brx_brxc.zbb" := EAbs (caa :* (2.0 :/ UXb)) in
  num zab @ "brx_brxc.zab" := EAbs (cab :* (1.0 :/ UXa + 1.0 :/ UXb)) in
  num ECopp @ "brx_brxc.ECopp" := - 0.8 :* d_a * d_b * zab * zab * (1 :- EFun Flog (1 :+ zab) / zab) in
  num ECaa @ "brx_brxc.ECaa" := - 0.01 :* d_a * (2 :* d_taua - (0.25 :* d_gaa + d_jpaa) / d_a) * EPowI zaa 4 * (1 :- 2 :/ zaa * EFun Flog (1 :+ zaa /: 2)) in
  num ECbb @ "brx_brxc.ECbb" := - 0.01 :* d_b * (2 :* d_taub - (0.25 :* d_gbb + d_jpbb) / d_b) * EPowI zbb 4 * (1 :- 2 :/ zbb * EFun Flog (1 :+ zbb /: 2)) in
  0.5 :* (UXa * d_a + UXb * d_b) + ECopp + ECaa + ECbb.

(** /repo/src/functionals/ldaerfx.cpp 24-48 *)
Definition ldaerfx_esrx_ldaerfspin (na : expr) (mu : sexp) : expr :=
  arg na @ "ldaerfx_esrx_ldaerfspin.na" in
  let ckf : sexp := 3.093667726280136%sx in
  num rhoa @ "ldaerfx_esrx_ldaerfspin.rhoa" := 2 :* na in
  num akf @ "ldaerfx_esrx_ldaerfspin.akf" := ckf :* EPow rhoa (1.0 / 3.0) in
  num a @ "ldaerfx_esrx_ldaerfspin.a" := mu :/ (2 :* akf) in
  num a2 @ "ldaerfx_esrx_ldaerfspin.a2" := a * a in
  num a3 @ "ldaerfx_esrx_ldaerfspin.a3" := a2 * a in
  EIf a (EConst 1e-9)
    (- 3.0 / 8.0 :* rhoa * EPow (24.0 :* rhoa /: SPi) (1.0 / 3.0))
    (EIf a (EConst 100)
    (- (rhoa * EPow (24.0 :* rhoa /: SPi) (1.0 / 3.0)) * (3.0 / 8.0 :- a * (SSqrt SPi :* EFun Ferf (0.5 :/ a) + (2 :* a - 4 :* a3) * EFun Fexp (- 0.25 :/ a2) - 3.0 :* a + 4 :* a3)))
    (EIf a (EConst 1e9)
    (- (rhoa * EPow (24.0 :* rhoa /: SPi) (1.0 / 3.0)) / (96.0 :* a2))
    (EConst 0))).

(** /repo/src/functionals/ldaerfx.cpp 49-52 *)
Definition ldaerfx_lda_erfx : expr :=
  let mu : sexp := (SPar XC_RANGESEP_MU)%sx in
  0.5 :* (ldaerfx_esrx_ldaerfspin d_a mu + ldaerfx_esrx_ldaerfspin d_b mu).

(** /repo/src/functionals/ldaerfc.cpp 46-53 *)
Definition ldaerfc_g0f (x : expr) : expr :=
  arg x @ "ldaerfc_g0f.x" in
  let C0f : sexp := 0.0819306%sx in
  let D0f : sexp := 0.752411%sx in
  let E0f : sexp := (- 0.0127713)%sx in
  let F0f : sexp := 0.00185898%sx in
  (1 :+ x * (D0f - 0.7317 :+ x * (C0f :+ x * (E0f :+ F0f :* x)))) * EFun Fexp (- D0f :* x) /: 2.0.

(** /repo/src/functionals/ldaerfc.cpp 33-40 *)
Definition ldaerfc_dpol (rs : expr) : expr :=
  arg rs @ "ldaerfc_dpol.rs" in
  let cf : sexp := (SPow (9.0 * SPi / 4.0) (1.0 / 3.0))%sx in
  let p2p : sexp := 0.04%sx in
  let p3p : sexp := 0.4319%sx in
  num rs2 @ "ldaerfc_dpol.rs2" := rs * rs in
  SPow 2.0 (5.0 / 3.0) / 5.0 * SPowI cf 2 :/ rs2 * (1.0 :+ (p3p - 0.454555) :* rs) / (1.0 :+ p3p :* rs + p2p :* rs2).

(** /repo/src/functionals/ldaerfc.cpp 23-31 *)
Definition ldaerfc_Qrpa (x : expr) : expr :=
  arg x @ "ldaerfc_Qrpa.x" in
  let Acoul : sexp := (2.0 * (SLog 2.0 - 1.0) / (SPi * SPi))%sx in
  let a2 : sexp := 5.84605%sx in
  let c2 : sexp := 3.91744%sx in
  let d2 : sexp := 3.44851%sx in
  let b2 : sexp := (d2 - 3.0 / (2 * SPi * Acoul) * SPow (4.0 / (9.0 * SPi)) (1.0 / 3.0))%sx in
  Acoul :* EFun Flog ((1 :+ x * (a2 :+ x * (b2 :+ c2 :* x))) / (1 :+ x * (a2 :+ d2 :* x))).

(** /repo/src/functionals/ldaerfc.cpp 55-105 *)
Definition ldaerfc_ecorrlr (mu : sexp) (ec : expr) : expr :=
  arg ec @ "ldaerfc_ecorrlr.ec" in
  let alpha : sexp := (SPow (4.0 / 9.0 / SPi) (1.0 / 3.0))%sx in
  let cf : sexp := (1 / alpha)%sx in
  num phi @ "ldaerfc_ecorrlr.phi" := (EPow (1.0 :+ d_zeta) (2.0 / 3.0) + EPow (1.0 :- d_zeta) (2.0 / 3.0)) /: 2.0 in
  let adib : sexp := 0.784949%sx in
  let q1a : sexp := (- 0.388)%sx in
  let q2a : sexp := 0.676%sx in
  let q3a : sexp := 0.547%sx in
  let t1a : sexp := (- 4.95)%sx in
  let t2a : sexp := 1.0%sx in
  let t3a : sexp := 0.31%sx in
  num b0 @ "ldaerfc_ecorrlr.b0" := adib :* d_r_s in
  num rs2 @ "ldaerfc_ecorrlr.rs2" := d_r_s * d_r_s in
  num rs3 @ "ldaerfc_ecorrlr.rs3" := rs2 * d_r_s in
  num d2anti @ "ldaerfc_ecorrlr.d2anti" := (q1a :* d_r_s + q2a :* rs2) * EFun Fexp (- q3a :* d_r_s) / rs2 in
  num d3anti @ "ldaerfc_ecorrlr.d3anti" := (t1a :* d_r_s + t2a :* rs2) * EFun Fexp (- t3a :* d_r_s) / rs3 in
  num z @ "ldaerfc_ecorrlr.z" := d_zeta in
  num z2 @ "ldaerfc_ecorrlr.z2" := d_zeta * d_zeta in
  num coe2 @ "ldaerfc_ecorrlr.coe2" := - 3.0 / 8.0 :/ rs3 * (1.0 :- z2) * (ldaerfc_g0f d_r_s -: 0.5) in
  num coe3 @ "ldaerfc_ecorrlr.coe3" := - (1.0 :- z2) * ldaerfc_g0f d_r_s / (SSqrt (2.0 * SPi) :* rs3) in
  num coe4 @ "ldaerfc_ecorrlr.coe4" := - 9.0 / 64.0 :/ rs3 * (EPowI ((1.0 :+ z) /: 2.0) 2 * ldaerfc_dpol (d_r_s * EPow (2 :/ (1.0 :+ z)) (1.0 / 3.0)) + EPowI ((1.0 :- z) /: 2.0) 2 * ldaerfc_dpol (d_r_s * EPow (2.0 :/ (1.0 :- z)) (1.0 / 3.0)) + (1 :- z * z) * d2anti - SPowI cf 2 / 10.0 :* (EPow (1.0 :+ z) (8.0 / 3.0) + EPow (1 :- z) (8.0 / 3.0)) / rs2) in
  num coe5 @ "ldaerfc_ecorrlr.coe5" := - 9.0 / 40.0 :/ (SSqrt (2.0 * SPi) :* rs3) * (EPowI ((1.0 :+ z) /: 2.0) 2 * ldaerfc_dpol (d_r_s * EPow (2.0 :/ (1.0 :+ z)) (1.0 / 3.0)) + EPowI ((1.0 :- z) /: 2.0) 2 * ldaerfc_dpol (d_r_s * EPow (2.0 :/ (1.0 :- z)) (1.0 / 3.0)) + (1.0 :- z2) * d3anti) in
  num b06 @ "ldaerfc_ecorrlr.b06" := EPowI b0 6 in
  num b08 @ "ldaerfc_ecorrlr.b08" := EPowI b0 8 in
  num a1 @ "ldaerfc_ecorrlr.a1" := 4 :* b06 * coe3 + b08 * coe5 in
  num a2 @ "ldaerfc_ecorrlr.a2" := 4 :* b06 * coe2 + b08 * coe4 + 6 :* EPowI b0 4 * ec in
  num a3 @ "ldaerfc_ecorrlr.a3" := b08 * coe3 in
  num a4 @ "ldaerfc_ecorrlr.a4" := b06 * (EPowI b0 2 * coe2 + 4 :* ec) in
  (EPowI phi 3 * ldaerfc_Qrpa (mu :* EFun Fsqrt d_r_s / phi) + a1 *: SPowI mu 3 + a2 *: SPowI mu 4 + a3 *: SPowI mu 5 + a4 *: SPowI mu 6 + EPowI (b0 *: mu) 8 * ec) / EPowI (1 :+ EPowI (b0 *: mu) 2) 4.

(** /repo/src/functionals/ldaerfc.cpp 106-110 *)
Definition ldaerfc : expr :=
  let mu : sexp := (SPar XC_RANGESEP_MU)%sx in
  num eps @ "ldaerfc.eps" := pw92eps in
  d_n * (eps - ldaerfc_ecorrlr mu eps).

(** /repo/src/functionals/ldaerfc_jt.cpp 24-32 *)
Definition ldaerfc_jt_c1 (rs : expr) : expr :=
  arg rs @ "ldaerfc_jt_c1.rs" in
  let u1 : sexp := 1.0270741452992294%sx in
  let u2 : sexp := (- 0.230160617208092)%sx in
  let v1 : sexp := 0.6196884832404359%sx in
  num rs2 @ "ldaerfc_jt_c1.rs2" := rs * rs in
  (u1 :* rs + u2 :* rs2) / (1.0 :+ v1 :* rs).

(** /repo/src/functionals/ldaerfc_jt.cpp 34-45 *)
Definition ldaerfc_jt_c2 : expr :=
  let a : sexp := 3.2581%sx in
  let f : sexp := 3.39530545262710070631%sx in
  let bet : sexp := 163.44%sx in
  let gam : sexp := 4.7125%sx in
  num g0 @ "ldaerfc_jt_c2.g0" := f :* (EPow (gam :+ d_r_s) 1.5 +: bet) * EFun Fexp (- a :* EFun Fsqrt (gam :+ d_r_s)) in
  num n2 @ "ldaerfc_jt_c2.n2" := d_n * d_n in
  num denominator @ "ldaerfc_jt_c2.denominator" := 0.5 * SPi :* n2 * (g0 -: 0.5) in
  num result @ "ldaerfc_jt_c2.result" := d_n * vwn_vwn5_eps / denominator in
  result.

(** /repo/src/functionals/ldaerfc_jt.cpp 47-53 *)
Definition ldaerfc_jt : expr :=
  let mu : sexp := (SPar XC_RANGESEP_MU)%sx in
  num denominator @ "ldaerfc_jt.denominator" := 1.0 :+ ldaerfc_jt_c1 d_r_s *: mu + ldaerfc_jt_c2 *: mu *: mu in
  num result @ "ldaerfc_jt.result" := d_n * vwn_vwn5_eps / denominator in
  result.

(** /repo/src/functionals/constants.hpp 31 *)
Definition c_CF : sexp := 0.3 * SPow (3 * c_PI2) (2.0 / 3.0).

(** /repo/src/functionals/lypc.cpp 18-39 *)
Definition lypc : expr :=
  let A : sexp := 0.04918%sx in
  let B : sexp := 0.132%sx in
  let C : sexp := 0.2533%sx in
  let Dd : sexp := 0.349%sx in
  num icbrtn @ "lypc.icbrtn" := EPow d_n (- 1.0 / 3.0) in
  num P @ "lypc.P" := 1 :/ (1 :+ Dd :* icbrtn) in
  num omega @ "lypc.omega" := EFun Fexp (- C :* icbrtn) * P * EPow d_n (- 11.0 / 3.0) in
  num delta @ "lypc.delta" := icbrtn * (C :+ Dd :* P) in
  num n2 @ "lypc.n2" := d_n * d_n in
  - A :* (4 :* d_a * d_b * P / d_n + B :* omega * (d_a * d_b * (SPow 2 (11.0 / 3.0) * c_CF :* (EPow d_a (8.0 / 3.0) + EPow d_b (8.0 / 3.0)) + (47.0 :- 7.0 :* delta) * d_gnn /: 18.0 - (2.5 :- delta /: 18.0) * (d_gaa + d_gbb) - (delta -: 11.0) /: 9.0 * (d_a * d_gaa + d_b * d_gbb) / d_n) - 2.0 / 3.0 :* n2 * d_gnn + (2.0 / 3.0 :* n2 - d_a * d_a) * d_gbb + (2.0 / 3.0 :* n2 - d_b * d_b) * d_gaa)).

(** /repo/src/functionals/optx.cpp 18-26 *)
Definition optx : expr :=
  let a1 : sexp := 1.05151%sx in
  let a2 : sexp := 1.43169%sx in
  let gamma : sexp := 0.006%sx in
  num g_xa2 @ "optx.g_xa2" := gamma :* d_gaa * EPow d_a (- 8.0 / 3.0) in
  num g_xb2 @ "optx.g_xb2" := gamma :* d_gbb * EPow d_b (- 8.0 / 3.0) in
  - (d_a_43 * (a1 * c_slater :+ a2 :* EPowI g_xa2 2 * EPowI (1 :+ g_xa2) (-2))) - d_b_43 * (a1 * c_slater :+ a2 :* EPowI g_xb2 2 * EPowI (1 :+ g_xb2) (-2)).

(** /repo/src/functionals/optxcorr.cpp 18-33 *)
Definition optxcorr : expr :=
  let gamma : sexp := 0.006%sx in
  num g_xa2 @ "optxcorr.g_xa2" := gamma :* d_gaa * EPow d_a (- 8.0 / 3.0) in
  num g_xb2 @ "optxcorr.g_xb2" := gamma :* d_gbb * EPow d_b (- 8.0 / 3.0) in
  d_a_43 * (EPowI g_xa2 2 * EPowI (1 :+ g_xa2) (-2)) + d_b_43 * (EPowI g_xb2 2 * EPowI (1 :+ g_xb2) (-2)).

(** /repo/src/functionals/pbex.hpp 23 *)
Definition c_R_revpbe : sexp := 1.245.

(** /repo/src/functionals/revpbex.cpp 18-21 *)
Definition revpbex : expr :=
  pbex_energy_pbe_ab c_R_revpbe d_a d_gaa + pbex_energy_pbe_ab c_R_revpbe d_b d_gbb.

(** /repo/src/functionals/pbex.hpp 41-46 *)
Definition pbex_enhancement_RPBE (rho : expr) (grad : expr) : expr :=
  arg rho @ "pbex_enhancement_RPBE.rho" in
  arg grad @ "pbex_enhancement_RPBE.grad" in
  let mu : sexp := 0.2195149727645171%sx in
  1 :- c_R_pbe :* EFun Fexpm1 (- mu / c_R_pbe :* pw91_like_x_internal_S2 rho grad).

(** /repo/src/functionals/rpbex.cpp 18-23 *)
Definition rpbex : expr :=
  pw91_like_x_internal_prefactor d_a * pbex_enhancement_RPBE d_a d_gaa + pw91_like_x_internal_prefactor d_b * pbex_enhancement_RPBE d_b d_gbb.

(** /repo/src/functionals/spbec.cpp 36-38 *)
Definition spbec_phi : expr :=
  SPow 2.0 (- 1.0 / 3.0) :* d_n_m13 * d_n_m13 * (EFun Fsqrt d_a_43 + EFun Fsqrt d_b_43).

(** /repo/src/functionals/spbec.cpp 22 *)
Definition c_gamm : sexp := 0.066725.

(** /repo/src/functionals/spbec.cpp 23 *)
Definition c_beta : sexp := 0.031091.

(** /repo/src/functionals/spbec.cpp 24 *)
Definition c_beta_gamma : sexp := c_beta / c_gamm.

(** /repo/src/functionals/spbec.cpp 26-28 *)
Definition spbec_G (eps : expr) (phi3 : expr) : expr :=
  arg eps @ "spbec_G.eps" in
  arg phi3 @ "spbec_G.phi3" in
  c_beta_gamma :/ EFun Fexpm1 (- eps / (c_beta_gamma :* phi3)).

(** /repo/src/functionals/spbec.cpp 30-33 *)
Definition spbec_H_spbe (t2 : expr) (eps : expr) (phi3 : expr) : expr :=
  arg t2 @ "spbec_H_spbe.t2" in
  arg eps @ "spbec_H_spbe.eps" in
  arg phi3 @ "spbec_H_spbe.phi3" in
  c_gamm :* phi3 * EFun Flog (1 :+ c_beta_gamma :* t2 / (1 :+ t2 * spbec_G eps phi3)).

(** /repo/src/functionals/spbec.cpp 40-45 *)
Definition spbec : expr :=
  num eps @ "spbec.eps" := vwn_vwn5_eps in
  num p @ "spbec.p" := spbec_phi in
  num t2 @ "spbec.t2" := SCbrt (SPi / 3) / 16 :* d_gnn * d_n_m13 / epow2 (p * d_n) in
  d_n * (eps + spbec_H_spbe t2 eps (epow3 p)).

(** /repo/src/functionals/pbec.cpp 49-56 *)
Definition pbec_vwn_pbec : expr :=
  num eps @ "pbec_vwn_pbec.eps" := vwn_vwn5_eps in
  num u @ "pbec_vwn_pbec.u" := pbec_phi in
  num d2 @ "pbec_vwn_pbec.d2" := SPow (1.0 / 12 * SPow 3 (5.0 / 6.0) / SPow SPi (- 1.0 / 6)) 2.0 :* d_gnn / (u * u * EPow d_n (7.0 / 3.0)) in
  d_n * (eps + pbec_H d2 eps (epow3 u)).

(** /repo/src/functionals/ktx.cpp 18-24 *)
Definition ktx : expr :=
  let DELTA : sexp := 0.1%sx in
  num ea @ "ktx.ea" := d_gaa / (DELTA :+ EPow d_a (4.0 / 3.0)) in
  num eb @ "ktx.eb" := d_gbb / (DELTA :+ EPow d_b (4.0 / 3.0)) in
  ea + eb.

(** /repo/src/functionals/tfk.cpp 20-24 *)
Definition tfk : expr :=
  c_CF :* EPow d_n (5.0 / 3.0).

(** /repo/src/functionals/tw.cpp 20-22 *)
Definition tw : expr :=
  1 / 8 :* EPow (d_gaa + d_gbb) 2.0 / d_n.

(** /repo/src/functionals/pw9xx.hpp 73-94 *)
Definition pw91_like_x_internal_pw91xk_enhancement (param_AB : list sexp) (rho : expr) (grad : expr) : expr :=
  arg rho @ "pw91_like_x_internal_pw91xk_enhancement.rho" in
  arg grad @ "pw91_like_x_internal_pw91xk_enhancement.grad" in
  num st2 @ "pw91_like_x_internal_pw91xk_enhancement.st2" := pw91_like_x_internal_S2 rho grad in
  num t1 @ "pw91_like_x_internal_pw91xk_enhancement.t1" := 1 :+ sget 0 param_AB :* EFun Fsqas (SPowI (sget 1 param_AB) 2 :* st2) /: sget 1 param_AB in
  num t2 @ "pw91_like_x_internal_pw91xk_enhancement.t2" := st2 * (sget 2 param_AB :- sget 3 param_AB :* EFun Fexp (- sget 4 param_AB :* st2)) in
  num numerator @ "pw91_like_x_internal_pw91xk_enhancement.numerator" := t1 + t2 in
  num denominator @ "pw91_like_x_internal_pw91xk_enhancement.denominator" := t1 + sget 5 param_AB :* st2 * st2 in
  numerator / denominator.

(** /repo/src/functionals/pw91x.cpp 18-24 *)
Definition pw91x : expr :=
  let param_AB : list sexp := [0.19645; 7.7956; 0.2743; 0.15084; 100.0; 0.004]%sx in
  pw91_like_x_internal_prefactor d_a * pw91_like_x_internal_pw91xk_enhancement param_AB d_a d_gaa + pw91_like_x_internal_prefactor d_b * pw91_like_x_internal_pw91xk_enhancement param_AB d_b d_gbb.

(** /repo/src/functionals/pw9xx.hpp 66-70 *)
Definition pw91_like_x_internal_pw91k_prefactor (rho : expr) : expr :=
  arg rho @ "pw91_like_x_internal_pw91k_prefactor.rho" in
  c_CF * SPow 2.0 (2.0 / 3.0) :* EPow rho (5.0 / 3.0).

(** /repo/src/functionals/pw91k.cpp 21-28 *)
Definition pw91k : expr :=
  let param_AB : list sexp := [0.093907; 76.320; 0.26608; 0.0809615; 100.0; 0.57767e-4]%sx in
  pw91_like_x_internal_pw91k_prefactor d_a * pw91_like_x_internal_pw91xk_enhancement param_AB d_a d_gaa + pw91_like_x_internal_pw91k_prefactor d_b * pw91_like_x_internal_pw91xk_enhancement param_AB d_b d_gbb.

(** /repo/src/functionals/pw92c.cpp 18-20 *)
Definition pw92c : expr :=
  pw92eps * d_n.

(** /repo/src/functionals/m0xy_fun.hpp 106-128 *)
Definition m0xy_metagga_xc_internal_fw (a : list sexp) (rho : expr) (tau : expr) : expr :=
  arg rho @ "m0xy_metagga_xc_internal_fw.rho" in
  arg tau @ "m0xy_metagga_xc_internal_fw.tau" in
  num tau_lsda @ "m0xy_metagga_xc_internal_fw.tau_lsda" := pw91_like_x_internal_pw91k_prefactor rho in
  num t @ "m0xy_metagga_xc_internal_fw.t" := tau_lsda / tau in
  num w @ "m0xy_metagga_xc_internal_fw.w" := (t -: 1) / (t +: 1) in
  num fw @ "m0xy_metagga_xc_internal_fw.fw" := epoly w 12 a in
  fw.

(** /repo/src/functionals/m05x.cpp 21-39 *)
Definition m05x : expr :=
  let param_a : list sexp := [1.000000; 8.151000e-2; - 4.395600e-1; - 3.224220; 2.018190; 8.794310; - 2.950000e-3; 9.820290; - 4.823510; - 4.817574e1; 3.648020; 3.402248e1]%sx in
  pbex_energy_pbe_ab c_R_pbe d_a d_gaa * m0xy_metagga_xc_internal_fw param_a d_a d_taua + pbex_energy_pbe_ab c_R_pbe d_b d_gbb * m0xy_metagga_xc_internal_fw param_a d_b d_taub.

(** /repo/src/functionals/m05x2x.cpp 21-39 *)
Definition m05x2x : expr :=
  let param_a : list sexp := [1.000000; - 5.683300e-1; - 1.300570; 5.500700; 9.064020; - 3.221075e1; - 2.373298e1; 7.022996e1; 2.988614e1; - 6.025778e1; - 1.322205e1; 1.523694e1]%sx in
  pbex_energy_pbe_ab c_R_pbe d_a d_gaa * m0xy_metagga_xc_internal_fw param_a d_a d_taua + pbex_energy_pbe_ab c_R_pbe d_b d_gbb * m0xy_metagga_xc_internal_fw param_a d_b d_taub.

(** /repo/src/functionals/pw9xx.hpp 39-41 *)
Definition pw91_like_x_internal_chi2 (rho : expr) (grad : expr) : expr :=
  arg rho @ "pw91_like_x_internal_chi2.rho" in
  arg grad @ "pw91_like_x_internal_chi2.grad" in
  grad / EPow rho (8.0 / 3.0).

(** /repo/src/functionals/m0xy_fun.hpp 260-262 *)
Definition m0xy_fun_lsda_x (rho : expr) : expr :=
  arg rho @ "m0xy_fun_lsda_x.rho" in
  - (3.0 / 2.0) * SPow (3.0 / (4.0 * SPi)) (1.0 / 3.0) :* EPow rho (4.0 / 3.0).

(** /repo/src/functionals/m0xy_fun.hpp 35 *)
Definition c_alpha_x : sexp := 0.00186726.

(** /repo/src/functionals/m0xy_fun.hpp 46 *)
Definition c_scalefactorTFconst : sexp := 3.17480210393640.

(** /repo/src/functionals/m0xy_fun.hpp 64-68 *)
Definition m0xy_metagga_xc_internal_zet (rho : expr) (tau : expr) : expr :=
  arg rho @ "m0xy_metagga_xc_internal_zet.rho" in
  arg tau @ "m0xy_metagga_xc_internal_zet.tau" in
  2 :* tau / EPow rho (5.0 / 3.0) -: c_CF * c_scalefactorTFconst.

(** /repo/src/functionals/m0xy_fun.hpp 73-76 *)
Definition m0xy_metagga_xc_internal_gamma (alpha : sexp) (chi2 : expr) (zet : expr) : expr :=
  arg chi2 @ "m0xy_metagga_xc_internal_gamma.chi2" in
  arg zet @ "m0xy_metagga_xc_internal_gamma.zet" in
  1 :+ alpha :* (chi2 + zet).

(** /repo/src/functionals/m0xy_fun.hpp 84-97 *)
Definition m0xy_metagga_xc_internal_h (d : list sexp) (alpha : sexp) (chi2 : expr) (zet : expr) : expr :=
  arg chi2 @ "m0xy_metagga_xc_internal_h.chi2" in
  arg zet @ "m0xy_metagga_xc_internal_h.zet" in
  num gam1 @ "m0xy_metagga_xc_internal_h.gam1" := m0xy_metagga_xc_internal_gamma alpha chi2 zet in
  num t1 @ "m0xy_metagga_xc_internal_h.t1" := sget 0 d :/ gam1 in
  num t2 @ "m0xy_metagga_xc_internal_h.t2" := (sget 1 d :* chi2 + sget 2 d :* zet) / (gam1 * gam1) in
  num t3 @ "m0xy_metagga_xc_internal_h.t3" := (chi2 * (sget 3 d :* chi2 + sget 4 d :* zet) + sget 5 d :* zet * zet) / (gam1 * gam1 * gam1) in
  t1 + t2 + t3.

(** /repo/src/functionals/m06x.cpp 21-54 *)
Definition m06x : expr :=
  let param_a : list sexp := [5.877943e-1; - 1.371776e-1; 2.682367e-1; - 2.515898; - 2.978892; 8.710679; 1.688195e1; - 4.489724; - 3.299983e1; - 1.449050e1; 2.043747e1; 1.256504e1]%sx in
  let param_d : list sexp := [1.422057e-1; 7.370319e-4; - 1.601373e-2; 0.000000; 0.000000; 0.000000]%sx in
  num chia2 @ "m06x.chia2" := pw91_like_x_internal_chi2 d_a d_gaa in
  num chib2 @ "m06x.chib2" := pw91_like_x_internal_chi2 d_b d_gbb in
  pbex_energy_pbe_ab c_R_pbe d_a d_gaa * m0xy_metagga_xc_internal_fw param_a d_a d_taua + m0xy_fun_lsda_x d_a * m0xy_metagga_xc_internal_h param_d c_alpha_x chia2 (m0xy_metagga_xc_internal_zet d_a d_taua) + (pbex_energy_pbe_ab c_R_pbe d_b d_gbb * m0xy_metagga_xc_internal_fw param_a d_b d_taub + m0xy_fun_lsda_x d_b * m0xy_metagga_xc_internal_h param_d c_alpha_x chib2 (m0xy_metagga_xc_internal_zet d_b d_taub)).

(** /repo/src/functionals/m06x2x.cpp 23-41 *)
Definition m06x2x : expr :=
  let param_a : list sexp := [4.600000e-1; - 2.206052e-1; - 9.431788e-2; 2.164494; - 2.556466; - 1.422133e1; 1.555044e1; 3.598078e1; - 2.722754e1; - 3.924093e1; 1.522808e1; 1.522227e1]%sx in
  pbex_energy_pbe_ab c_R_pbe d_a d_gaa * m0xy_metagga_xc_internal_fw param_a d_a d_taua + pbex_energy_pbe_ab c_R_pbe d_b d_gbb * m0xy_metagga_xc_internal_fw param_a d_b d_taub.

(** /repo/src/functionals/m06lx.cpp 21-54 *)
Definition m06lx : expr :=
  let param_a : list sexp := [3.987756e-1; 2.548219e-1; 3.923994e-1; - 2.103655; - 6.302147; 1.097615e1; 3.097273e1; - 2.318489e1; - 5.673480e1; 2.160364e1; 3.421814e1; - 9.049762]%sx in
  let param_d : list sexp := [6.012244e-1; 4.748822e-3; - 8.635108e-3; - 9.308062e-6; 4.482811e-5; 0.000000]%sx in
  num chia2 @ "m06lx.chia2" := pw91_like_x_internal_chi2 d_a d_gaa in
  num chib2 @ "m06lx.chib2" := pw91_like_x_internal_chi2 d_b d_gbb in
  pbex_energy_pbe_ab c_R_pbe d_a d_gaa * m0xy_metagga_xc_internal_fw param_a d_a d_taua + m0xy_fun_lsda_x d_a * m0xy_metagga_xc_internal_h param_d c_alpha_x chia2 (m0xy_metagga_xc_internal_zet d_a d_taua) + (pbex_energy_pbe_ab c_R_pbe d_b d_gbb * m0xy_metagga_xc_internal_fw param_a d_b d_taub + m0xy_fun_lsda_x d_b * m0xy_metagga_xc_internal_h param_d c_alpha_x chib2 (m0xy_metagga_xc_internal_zet d_b d_taub)).

(** /repo/src/functionals/m06hfx.cpp 21-54 *)
Definition m06hfx : expr :=
  let param_a : list sexp := [1.179732e-1; - 1.066708; - 1.462405e-1; 7.481848; 3.776679; - 4.436118e1; - 1.830962e1; 1.003903e2; 3.864360e1; - 9.806018e1; - 2.557716e1; 3.590404e1]%sx in
  let param_d : list sexp := [- 1.179732e-1; - 2.500000e-3; - 1.180056e-2; 0.000000; 0.000000; 0.000000]%sx in
  num chia2 @ "m06hfx.chia2" := pw91_like_x_internal_chi2 d_a d_gaa in
  num chib2 @ "m06hfx.chib2" := pw91_like_x_internal_chi2 d_b d_gbb in
  pbex_energy_pbe_ab c_R_pbe d_a d_gaa * m0xy_metagga_xc_internal_fw param_a d_a d_taua + m0xy_fun_lsda_x d_a * m0xy_metagga_xc_internal_h param_d c_alpha_x chia2 (m0xy_metagga_xc_internal_zet d_a d_taua) + (pbex_energy_pbe_ab c_R_pbe d_b d_gbb * m0xy_metagga_xc_internal_fw param_a d_b d_taub + m0xy_fun_lsda_x d_b * m0xy_metagga_xc_internal_h param_d c_alpha_x chib2 (m0xy_metagga_xc_internal_zet d_b d_taub)).

(** /repo/src/functionals/m0xy_fun.hpp 140-150 *)
Definition m0xy_metagga_xc_internal_Dsigma (na : expr) (gaa : expr) (taua : expr) : expr :=
  arg na @ "m0xy_metagga_xc_internal_Dsigma.na" in
  arg gaa @ "m0xy_metagga_xc_internal_Dsigma.gaa" in
  arg taua @ "m0xy_metagga_xc_internal_Dsigma.taua" in
  1.0 :- 0.125 :* gaa / (na * taua).

(** /repo/src/functionals/pw92eps.hpp 63-67 *)
Definition pw92eps_pw92eps_polarized (a : expr) : expr :=
  arg a @ "pw92eps_pw92eps_polarized.a" in
  let TUVWXYP : list (list sexp) := [[0.03109070; 0.21370; 7.59570; 3.5876; 1.63820; 0.49294; 1]; [0.01554535; 0.20548; 14.1189; 6.1977; 3.36620; 0.62517; 1]; [0.01688690; 0.11125; 10.3570; 3.6231; 0.88026; 0.49671; 1]]%sx in
  num sqrt_r_s @ "pw92eps_pw92eps_polarized.sqrt_r_s" := EPow (3 :/ (4 * SPi :* a)) (1.0 / 6.0) in
  pw92eps_eopt sqrt_r_s (aget 1 TUVWXYP).

(** /repo/src/functionals/m0xy_fun.hpp 250-252 *)
Definition m0xy_metagga_xc_internal_ueg_c_para (rho : expr) : expr :=
  arg rho @ "m0xy_metagga_xc_internal_ueg_c_para.rho" in
  pw92eps_pw92eps_polarized rho * rho.

(** /repo/src/functionals/m0xy_fun.hpp 254-256 *)
Definition m0xy_metagga_xc_internal_ueg_c_anti : expr :=
  pw92eps * d_n - m0xy_metagga_xc_internal_ueg_c_para d_a - m0xy_metagga_xc_internal_ueg_c_para d_b.

(** /repo/src/functionals/m0xy_fun.hpp 164-176 *)
Definition m0xy_metagga_xc_internal_g (param_c : list sexp) (gamma_chi_squared : expr) : expr :=
  arg gamma_chi_squared @ "m0xy_metagga_xc_internal_g.gamma_chi_squared" in
  num b @ "m0xy_metagga_xc_internal_g.b" := gamma_chi_squared / (1.0 :+ gamma_chi_squared) in
  num g @ "m0xy_metagga_xc_internal_g.g" := epoly b 5 param_c in
  g.

(** /repo/src/functionals/m0xy_fun.hpp 222-232 *)
Definition m0xy_metagga_xc_internal_m05_c_anti (param_c : list sexp) (chi_a2 : expr) (chi_b2 : expr) : expr :=
  arg chi_a2 @ "m0xy_metagga_xc_internal_m05_c_anti.chi_a2" in
  arg chi_b2 @ "m0xy_metagga_xc_internal_m05_c_anti.chi_b2" in
  let gamma_c_anti : sexp := 0.0031%sx in
  num chi_ab2 @ "m0xy_metagga_xc_internal_m05_c_anti.chi_ab2" := chi_a2 + chi_b2 in
  m0xy_metagga_xc_internal_g param_c (gamma_c_anti :* chi_ab2).

(** /repo/src/functionals/m0xy_fun.hpp 234-242 *)
Definition m0xy_metagga_xc_internal_m05_c_para (param_c : list sexp) (chi2 : expr) (_ : expr) (Dsigma : expr) : expr :=
  arg chi2 @ "m0xy_metagga_xc_internal_m05_c_para.chi2" in
  arg Dsigma @ "m0xy_metagga_xc_internal_m05_c_para.Dsigma" in
  let gamma_c_parallel : sexp := 0.06%sx in
  m0xy_metagga_xc_internal_g param_c (gamma_c_parallel :* chi2) * Dsigma.

(** /repo/src/functionals/m05x2c.cpp 20-48 *)
Definition m05x2c : expr :=
  let param_c_anti : list sexp := [1.000000; 1.092970; - 3.791710; 2.828100; - 1.058909e1]%sx in
  let param_c_para : list sexp := [1.000000; - 3.054300; 7.618540; 1.476650; - 1.192365e1]%sx in
  num chi_a2 @ "m05x2c.chi_a2" := pw91_like_x_internal_chi2 d_a d_gaa in
  num chi_b2 @ "m05x2c.chi_b2" := pw91_like_x_internal_chi2 d_b d_gbb in
  num zet_a @ "m05x2c.zet_a" := m0xy_metagga_xc_internal_zet d_a d_taua in
  num zet_b @ "m05x2c.zet_b" := m0xy_metagga_xc_internal_zet d_b d_taub in
  num Dsigma_a @ "m05x2c.Dsigma_a" := m0xy_metagga_xc_internal_Dsigma d_a d_gaa d_taua in
  num Dsigma_b @ "m05x2c.Dsigma_b" := m0xy_metagga_xc_internal_Dsigma d_b d_gbb d_taub in
  num Ec_ab @ "m05x2c.Ec_ab" := m0xy_metagga_xc_internal_ueg_c_anti * m0xy_metagga_xc_internal_m05_c_anti param_c_anti chi_a2 chi_b2 in
  num Ec_aa @ "m05x2c.Ec_aa" := m0xy_metagga_xc_internal_ueg_c_para d_a * m0xy_metagga_xc_internal_m05_c_para param_c_para chi_a2 zet_a Dsigma_a in
  num Ec_bb @ "m05x2c.Ec_bb" := m0xy_metagga_xc_internal_ueg_c_para d_b * m0xy_metagga_xc_internal_m05_c_para param_c_para chi_b2 zet_b Dsigma_b in
  Ec_ab + Ec_aa + Ec_bb.

(** /repo/src/functionals/m05c.cpp 20-48 *)
Definition m05c : expr :=
  let param_c_anti : list sexp := [1.000000; 3.785690; - 1.415261e1; - 7.465890; 1.794491e1]%sx in
  let param_c_para : list sexp := [1.000000; 3.773440; - 2.604463e1; 3.069913e1; - 9.226950]%sx in
  num chi_a2 @ "m05c.chi_a2" := pw91_like_x_internal_chi2 d_a d_gaa in
  num chi_b2 @ "m05c.chi_b2" := pw91_like_x_internal_chi2 d_b d_gbb in
  num zet_a @ "m05c.zet_a" := m0xy_metagga_xc_internal_zet d_a d_taua in
  num zet_b @ "m05c.zet_b" := m0xy_metagga_xc_internal_zet d_b d_taub in
  num Dsigma_a @ "m05c.Dsigma_a" := m0xy_metagga_xc_internal_Dsigma d_a d_gaa d_taua in
  num Dsigma_b @ "m05c.Dsigma_b" := m0xy_metagga_xc_internal_Dsigma d_b d_gbb d_taub in
  num Ec_ab @ "m05c.Ec_ab" := m0xy_metagga_xc_internal_ueg_c_anti * m0xy_metagga_xc_internal_m05_c_anti param_c_anti chi_a2 chi_b2 in
  num Ec_aa @ "m05c.Ec_aa" := m0xy_metagga_xc_internal_ueg_c_para d_a * m0xy_metagga_xc_internal_m05_c_para param_c_para chi_a2 zet_a Dsigma_a in
  num Ec_bb @ "m05c.Ec_bb" := m0xy_metagga_xc_internal_ueg_c_para d_b * m0xy_metagga_xc_internal_m05_c_para param_c_para chi_b2 zet_b Dsigma_b in
  Ec_ab + Ec_aa + Ec_bb.

(** /repo/src/functionals/m0xy_fun.hpp 37 *)
Definition c_alpha_c_antiparallel : sexp := 0.00304966.

(** /repo/src/functionals/m0xy_fun.hpp 186-200 *)
Definition m0xy_metagga_xc_internal_m06_c_anti (param_c : list sexp) (param_d : list sexp) (chi_a2 : expr) (zet_a : expr) (chi_b2 : expr) (zet_b : expr) : expr :=
  arg chi_a2 @ "m0xy_metagga_xc_internal_m06_c_anti.chi_a2" in
  arg zet_a @ "m0xy_metagga_xc_internal_m06_c_anti.zet_a" in
  arg chi_b2 @ "m0xy_metagga_xc_internal_m06_c_anti.chi_b2" in
  arg zet_b @ "m0xy_metagga_xc_internal_m06_c_anti.zet_b" in
  let gamma_c_anti : sexp := 0.0031%sx in
  num zet_ab @ "m0xy_metagga_xc_internal_m06_c_anti.zet_ab" := zet_a + zet_b in
  num chi_ab2 @ "m0xy_metagga_xc_internal_m06_c_anti.chi_ab2" := chi_a2 + chi_b2 in
  m0xy_metagga_xc_internal_g param_c (gamma_c_anti :* chi_ab2) + m0xy_metagga_xc_internal_h param_d c_alpha_c_antiparallel chi_ab2 zet_ab.

(** /repo/src/functionals/m0xy_fun.hpp 36 *)
Definition c_alpha_c_parallel : sexp := 0.00515088.

(** /repo/src/functionals/m0xy_fun.hpp 202-214 *)
Definition m0xy_metagga_xc_internal_m06_c_para (param_c : list sexp) (param_d : list sexp) (chi2 : expr) (zet : expr) (Dsigma : expr) : expr :=
  arg chi2 @ "m0xy_metagga_xc_internal_m06_c_para.chi2" in
  arg zet @ "m0xy_metagga_xc_internal_m06_c_para.zet" in
  arg Dsigma @ "m0xy_metagga_xc_internal_m06_c_para.Dsigma" in
  let gamma_c_parallel : sexp := 0.06%sx in
  (m0xy_metagga_xc_internal_g param_c (gamma_c_parallel :* chi2) + m0xy_metagga_xc_internal_h param_d c_alpha_c_parallel chi2 zet) * Dsigma.

(** /repo/src/functionals/m06c.cpp 20-63 *)
Definition m06c : expr :=
  let param_c_anti : list sexp := [3.741539; 2.187098e2; - 4.531252e2; 2.936479e2; - 6.287470e1]%sx in
  let param_d_anti : list sexp := [- 2.741539; - 6.720113e-1; - 7.932688e-2; 1.918681e-3; - 2.032902e-3; 0.000000]%sx in
  let param_c_para : list sexp := [5.094055e-1; - 1.491085; 1.723922e1; - 3.859018e1; 2.845044e1]%sx in
  let param_d_para : list sexp := [4.905945e-1; - 1.437348e-1; 2.357824e-1; 1.871015e-3; - 3.788963e-3; 0.000000]%sx in
  num chi_a2 @ "m06c.chi_a2" := pw91_like_x_internal_chi2 d_a d_gaa in
  num chi_b2 @ "m06c.chi_b2" := pw91_like_x_internal_chi2 d_b d_gbb in
  num zet_a @ "m06c.zet_a" := m0xy_metagga_xc_internal_zet d_a d_taua in
  num zet_b @ "m06c.zet_b" := m0xy_metagga_xc_internal_zet d_b d_taub in
  num Dsigma_a @ "m06c.Dsigma_a" := m0xy_metagga_xc_internal_Dsigma d_a d_gaa d_taua in
  num Dsigma_b @ "m06c.Dsigma_b" := m0xy_metagga_xc_internal_Dsigma d_b d_gbb d_taub in
  num Ec_ab @ "m06c.Ec_ab" := m0xy_metagga_xc_internal_ueg_c_anti * m0xy_metagga_xc_internal_m06_c_anti param_c_anti param_d_anti chi_a2 zet_a chi_b2 zet_b in
  num Ec_aa @ "m06c.Ec_aa" := m0xy_metagga_xc_internal_ueg_c_para d_a * m0xy_metagga_xc_internal_m06_c_para param_c_para param_d_para chi_a2 zet_a Dsigma_a in
  num Ec_bb @ "m06c.Ec_bb" := m0xy_metagga_xc_internal_ueg_c_para d_b * m0xy_metagga_xc_internal_m06_c_para param_c_para param_d_para chi_b2 zet_b Dsigma_b in
  Ec_ab + Ec_aa + Ec_bb.

(** /repo/src/functionals/m06hfc.cpp 20-63 *)
Definition m06hfc : expr :=
  let param_c_anti : list sexp := [1.674634; 5.732017e1; 5.955416e1; - 2.311007e2; 1.255199e2]%sx in
  let param_d_anti : list sexp := [- 6.746338e-1; - 1.534002e-1; - 9.021521e-2; - 1.292037e-3; - 2.352983e-4; 0.000000]%sx in
  let param_c_para : list sexp := [1.023254e-1; - 2.453783; 2.913180e1; - 3.494358e1; 2.315955e1]%sx in
  let param_d_para : list sexp := [8.976746e-1; - 2.345830e-1; 2.368173e-1; - 9.913890e-4; - 1.146165e-2; 0.000000]%sx in
  num chi_a2 @ "m06hfc.chi_a2" := pw91_like_x_internal_chi2 d_a d_gaa in
  num chi_b2 @ "m06hfc.chi_b2" := pw91_like_x_internal_chi2 d_b d_gbb in
  num zet_a @ "m06hfc.zet_a" := m0xy_metagga_xc_internal_zet d_a d_taua in
  num zet_b @ "m06hfc.zet_b" := m0xy_metagga_xc_internal_zet d_b d_taub in
  num Dsigma_a @ "m06hfc.Dsigma_a" := m0xy_metagga_xc_internal_Dsigma d_a d_gaa d_taua in
  num Dsigma_b @ "m06hfc.Dsigma_b" := m0xy_metagga_xc_internal_Dsigma d_b d_gbb d_taub in
  num Ec_ab @ "m06hfc.Ec_ab" := m0xy_metagga_xc_internal_ueg_c_anti * m0xy_metagga_xc_internal_m06_c_anti param_c_anti param_d_anti chi_a2 zet_a chi_b2 zet_b in
  num Ec_aa @ "m06hfc.Ec_aa" := m0xy_metagga_xc_internal_ueg_c_para d_a * m0xy_metagga_xc_internal_m06_c_para param_c_para param_d_para chi_a2 zet_a Dsigma_a in
  num Ec_bb @ "m06hfc.Ec_bb" := m0xy_metagga_xc_internal_ueg_c_para d_b * m0xy_metagga_xc_internal_m06_c_para param_c_para param_d_para chi_b2 zet_b Dsigma_b in
  Ec_ab + Ec_aa + Ec_bb.

(** /repo/src/functionals/m06lc.cpp 20-62 *)
Definition m06lc : expr :=
  let param_c_anti : list sexp := [6.042374e-1; 1.776783e2; - 2.513252e2; 7.635173e1; - 1.255699e1]%sx in
  let param_d_anti : list sexp := [3.957626e-1; - 5.614546e-1; 1.403963e-2; 9.831442e-4; - 3.577176e-3; 0.000000]%sx in
  let param_c_para : list sexp := [5.349466e-1; 5.396620e-1; - 3.161217e1; 5.149592e1; - 2.919613e1]%sx in
  let param_d_para : list sexp := [4.650534e-1; 1.617589e-1; 1.833657e-1; 4.692100e-4; - 4.990573e-3; 0.000000]%sx in
  num chi_a2 @ "m06lc.chi_a2" := pw91_like_x_internal_chi2 d_a d_gaa in
  num chi_b2 @ "m06lc.chi_b2" := pw91_like_x_internal_chi2 d_b d_gbb in
  num zet_a @ "m06lc.zet_a" := m0xy_metagga_xc_internal_zet d_a d_taua in
  num zet_b @ "m06lc.zet_b" := m0xy_metagga_xc_internal_zet d_b d_taub in
  num Dsigma_a @ "m06lc.Dsigma_a" := m0xy_metagga_xc_internal_Dsigma d_a d_gaa d_taua in
  num Dsigma_b @ "m06lc.Dsigma_b" := m0xy_metagga_xc_internal_Dsigma d_b d_gbb d_taub in
  num Ec_ab @ "m06lc.Ec_ab" := m0xy_metagga_xc_internal_ueg_c_anti * m0xy_metagga_xc_internal_m06_c_anti param_c_anti param_d_anti chi_a2 zet_a chi_b2 zet_b in
  num Ec_aa @ "m06lc.Ec_aa" := m0xy_metagga_xc_internal_ueg_c_para d_a * m0xy_metagga_xc_internal_m06_c_para param_c_para param_d_para chi_a2 zet_a Dsigma_a in
  num Ec_bb @ "m06lc.Ec_bb" := m0xy_metagga_xc_internal_ueg_c_para d_b * m0xy_metagga_xc_internal_m06_c_para param_c_para param_d_para chi_b2 zet_b Dsigma_b in
  Ec_ab + Ec_aa + Ec_bb.

(** /repo/src/functionals/m06x2c.cpp 20-63 *)
Definition m06x2c : expr :=
  let param_c_anti : list sexp := [8.833596e-1; 3.357972e1; - 7.043548e1; 4.978271e1; - 1.852891e1]%sx in
  let param_d_anti : list sexp := [1.166404e-1; - 9.120847e-2; - 6.726189e-2; 6.720580e-5; 8.448011e-4; 0.000000]%sx in
  let param_c_para : list sexp := [3.097855e-1; - 5.528642; 1.347420e1; - 3.213623e1; 2.846742e1]%sx in
  let param_d_para : list sexp := [6.902145e-1; 9.847204e-2; 2.214797e-1; - 1.968264e-3; - 6.775479e-3; 0.000000]%sx in
  num chi_a2 @ "m06x2c.chi_a2" := pw91_like_x_internal_chi2 d_a d_gaa in
  num chi_b2 @ "m06x2c.chi_b2" := pw91_like_x_internal_chi2 d_b d_gbb in
  num zet_a @ "m06x2c.zet_a" := m0xy_metagga_xc_internal_zet d_a d_taua in
  num zet_b @ "m06x2c.zet_b" := m0xy_metagga_xc_internal_zet d_b d_taub in
  num Dsigma_a @ "m06x2c.Dsigma_a" := m0xy_metagga_xc_internal_Dsigma d_a d_gaa d_taua in
  num Dsigma_b @ "m06x2c.Dsigma_b" := m0xy_metagga_xc_internal_Dsigma d_b d_gbb d_taub in
  num Ec_ab @ "m06x2c.Ec_ab" := m0xy_metagga_xc_internal_ueg_c_anti * m0xy_metagga_xc_internal_m06_c_anti param_c_anti param_d_anti chi_a2 zet_a chi_b2 zet_b in
  num Ec_aa @ "m06x2c.Ec_aa" := m0xy_metagga_xc_internal_ueg_c_para d_a * m0xy_metagga_xc_internal_m06_c_para param_c_para param_d_para chi_a2 zet_a Dsigma_a in
  num Ec_bb @ "m06x2c.Ec_bb" := m0xy_metagga_xc_internal_ueg_c_para d_b * m0xy_metagga_xc_internal_m06_c_para param_c_para param_d_para chi_b2 zet_b Dsigma_b in
  Ec_ab + Ec_aa + Ec_bb.

(** /repo/src/functionals/pbec_eps.hpp 39-41 *)
Definition pbec_eps_phi : expr :=
  SPow 2.0 (- 1.0 / 3.0) :* d_n_m13 * d_n_m13 * (EFun Fsqrt d_a_43 + EFun Fsqrt d_b_43).

(** /repo/src/functionals/pbec_eps.hpp 23-27 *)
Definition pbec_eps_A (eps : expr) (u3 : expr) : expr :=
  arg eps @ "pbec_eps_A.eps" in
  arg u3 @ "pbec_eps_A.u3" in
  c_param_beta_gamma :/ EFun Fexpm1 (- eps / (c_param_gamma :* u3)).

(** /repo/src/functionals/pbec_eps.hpp 29-36 *)
Definition pbec_eps_H (d2 : expr) (eps : expr) (u3 : expr) : expr :=
  arg d2 @ "pbec_eps_H.d2" in
  arg eps @ "pbec_eps_H.eps" in
  arg u3 @ "pbec_eps_H.u3" in
  num d2A @ "pbec_eps_H.d2A" := d2 * pbec_eps_A eps u3 in
  c_param_gamma :* u3 * EFun Flog (1 :+ c_param_beta_gamma :* d2 * (1 :+ d2A) / (1 :+ d2A * (1 :+ d2A))).

(** /repo/src/functionals/pbec_eps.hpp 43-50 *)
Definition pbec_eps : expr :=
  num eps @ "pbec_eps.eps" := pw92eps in
  num u @ "pbec_eps.u" := pbec_eps_phi in
  num d2 @ "pbec_eps.d2" := SPow (1.0 / 12 * SPow 3 (5.0 / 6.0) / SPow SPi (- 1.0 / 6)) 2.0 :* d_gnn / (u * u * EPow d_n (7.0 / 3.0)) in
  eps + pbec_eps_H d2 eps (epow3 u).

(** /repo/src/functionals/pbec_eps.hpp 23-27 *)
Definition pbec_eps_A_s (eps : expr) (u3 : sexp) : expr :=
  arg eps @ "pbec_eps_A_s.eps" in
  c_param_beta_gamma :/ EFun Fexpm1 (- eps /: (c_param_gamma * u3)).

(** /repo/src/functionals/pbec_eps.hpp 29-36 *)
Definition pbec_eps_H_s (d2 : expr) (eps : expr) (u3 : sexp) : expr :=
  arg d2 @ "pbec_eps_H_s.d2" in
  arg eps @ "pbec_eps_H_s.eps" in
  num d2A @ "pbec_eps_H_s.d2A" := d2 * pbec_eps_A_s eps u3 in
  c_param_gamma * u3 :* EFun Flog (1 :+ c_param_beta_gamma :* d2 * (1 :+ d2A) / (1 :+ d2A * (1 :+ d2A))).

(** /repo/src/functionals/pbec_eps.hpp 52-61 *)
Definition pbec_eps_pbec_eps_polarized (a : expr) (gaa : expr) : expr :=
  arg a @ "pbec_eps_pbec_eps_polarized.a" in
  arg gaa @ "pbec_eps_pbec_eps_polarized.gaa" in
  num eps @ "pbec_eps_pbec_eps_polarized.eps" := pw92eps_pw92eps_polarized a in
  let u : sexp := (SPow 2.0 (- 1.0 / 3.0))%sx in
  num d2 @ "pbec_eps_pbec_eps_polarized.d2" := SPow (1.0 / 12 * SPow 3 (5.0 / 6.0) / SPow SPi (- 1.0 / 6)) 2.0 :* gaa / (u * u :* EPow a (7.0 / 3.0)) in
  eps + pbec_eps_H_s d2 eps (spow3 u).

(** /repo/src/functionals/tpssc_eps.hpp 33-42 *)
Definition tpssc_eps_epsc_summax : expr :=
  num epsc_pbe @ "tpssc_eps_epsc_summax.epsc_pbe" := pbec_eps in
  num epsc_pbe_a @ "tpssc_eps_epsc_summax.epsc_pbe_a" := pbec_eps_pbec_eps_polarized d_a d_gaa in
  num epsc_pbe_b @ "tpssc_eps_epsc_summax.epsc_pbe_b" := pbec_eps_pbec_eps_polarized d_b d_gbb in
  (d_a * EMax epsc_pbe epsc_pbe_a + d_b * EMax epsc_pbe epsc_pbe_b) / d_n.

(** /repo/src/functionals/tpssc_eps.hpp 22-31 *)
Definition tpssc_eps_C : expr :=
  num gzeta2 @ "tpssc_eps_C.gzeta2" := (epow2 d_n * d_gss - 2 :* d_n * d_s * d_gns + epow2 d_s * d_gnn) / EPowI d_n 4 in
  num xi2 @ "tpssc_eps_C.xi2" := gzeta2 / (4 :* EPow (3 * spow2 SPi :* d_n) (2.0 / 3.0)) in
  num C0 @ "tpssc_eps_C.C0" := 0.53 :+ 0.87 :* epow2 d_zeta + 0.50 :* EPowI d_zeta 4 + 2.26 :* EPowI d_zeta 6 in
  C0 * EPowI (1 :+ 0.5 :* xi2 * eufunc d_zeta (- 4.0 / 3.0)) (-4).

(** /repo/src/functionals/tpssc_eps.hpp 44-54 *)
Definition tpssc_eps_epsc_revpkzb : expr :=
  num tauwtau2 @ "tpssc_eps_epsc_revpkzb.tauwtau2" := epow2 (d_gnn / (8.0 :* d_n * d_tau)) in
  num epsc_sum @ "tpssc_eps_epsc_revpkzb.epsc_sum" := tpssc_eps_epsc_summax in
  num epsc_pbe @ "tpssc_eps_epsc_revpkzb.epsc_pbe" := pbec_eps in
  num C_zeta_xi @ "tpssc_eps_epsc_revpkzb.C_zeta_xi" := tpssc_eps_C in
  epsc_pbe * (1 :+ C_zeta_xi * tauwtau2) - (1 :+ C_zeta_xi) * tauwtau2 * epsc_sum.

(** /repo/src/functionals/tpssc_eps.hpp 56-61 *)
Definition tpssc_eps : expr :=
  num eps_pkzb @ "tpssc_eps.eps_pkzb" := tpssc_eps_epsc_revpkzb in
  num tauwtau3 @ "tpssc_eps.tauwtau3" := epow3 (d_gnn / (8.0 :* d_n * d_tau)) in
  let dd : sexp := 2.8%sx in
  eps_pkzb * (1 :+ dd :* eps_pkzb * tauwtau3).

(** /repo/src/functionals/tpssc.cpp 19-22 *)
Definition tpssc : expr :=
  num eps @ "tpssc.eps" := tpssc_eps in
  d_n * eps.

(** /repo/src/functionals/tpssx_eps.hpp 27-52 *)
Definition tpssx_eps_x (d_n : expr) (d_gnn : expr) (d_tau : expr) : expr :=
  arg d_n @ "tpssx_eps_x.d_n" in
  arg d_gnn @ "tpssx_eps_x.d_gnn" in
  arg d_tau @ "tpssx_eps_x.d_tau" in
  let kappa : sexp := 0.804%sx in
  let mu : sexp := 0.21951%sx in
  let b : sexp := 0.40%sx in
  let e : sexp := 1.537%sx in
  let c : sexp := 1.59096%sx in
  num p0 @ "tpssx_eps_x.p0" := 1.0 :/ (4 * SPow (3 * c_PI2) (2.0 / 3.0) :* EPow d_n (8.0 / 3.0)) in
  num p @ "tpssx_eps_x.p" := d_gnn * p0 in
  num tauw @ "tpssx_eps_x.tauw" := d_gnn / (8.0 :* d_n) in
  num z @ "tpssx_eps_x.z" := tauw / d_tau in
  num z2 @ "tpssx_eps_x.z2" := epow2 z in
  num tau_unif @ "tpssx_eps_x.tau_unif" := 0.3 * SPow (3 * c_PI2) (2.0 / 3.0) :* EPow d_n (5.0 / 3.0) in
  num alpha @ "tpssx_eps_x.alpha" := (d_tau - tauw) / tau_unif in
  num q_b @ "tpssx_eps_x.q_b" := 9.0 / 20.0 :* (alpha -: 1) / EFun Fsqrt (1 :+ b :* alpha * (alpha -: 1)) + 2 :* p /: 3.0 in
  num x_a @ "tpssx_eps_x.x_a" := p * (10.0 / 81.0 :+ c :* z2 / epow2 (1 :+ z2)) in
  num x_a @ "tpssx_eps_x.x_a" := x_a + 146.0 :* epow2 q_b /: 2025.0 in
  num x_a @ "tpssx_eps_x.x_a" := x_a - 73.0 / 405.0 :* q_b * d_gnn * EFun Fsqrt (0.5 * 0.6 * 0.6 :* EPowI (8 :* d_n * d_tau) (-2) + 0.5 :* p0 * p0) in
  num x_a @ "tpssx_eps_x.x_a" := x_a + epow2 (p *: 10.0 /: 81.0) /: kappa in
  num x_a @ "tpssx_eps_x.x_a" := x_a + (2 * SSqrt e * 0.6 * 0.6 :* z2 *: 10.0 /: 81.0 + e * mu :* epow3 p) in
  x_a / epow2 (1 :+ SSqrt e :* p).

(** /repo/src/functionals/tpssx_eps.hpp 54-59 *)
Definition tpssx_eps_F_x (d_n : expr) (d_gnn : expr) (d_tau : expr) : expr :=
  arg d_n @ "tpssx_eps_F_x.d_n" in
  arg d_gnn @ "tpssx_eps_F_x.d_gnn" in
  arg d_tau @ "tpssx_eps_F_x.d_tau" in
  let kappa : sexp := 0.804%sx in
  num xpz @ "tpssx_eps_F_x.xpz" := tpssx_eps_x d_n d_gnn d_tau in
  1 + kappa :- kappa :/ (1 :+ xpz /: kappa).

(** /repo/src/functionals/constants.hpp 22 *)
Definition c_PI : sexp := SPi.

(** /repo/src/functionals/tpssx_eps.hpp 23-25 *)
Definition tpssx_eps_fx_unif (d : expr) : expr :=
  arg d @ "tpssx_eps_fx_unif.d" in
  - 0.75 * SPow (3 / c_PI) (1.0 / 3.0) :* EPow d (4.0 / 3.0).

(** /repo/src/functionals/tpssx.cpp 21-27 *)
Definition tpssx : expr :=
  num Fxa @ "tpssx.Fxa" := tpssx_eps_F_x (2 :* d_a) (4 :* d_gaa) (2 :* d_taua) in
  num epsxunif_a @ "tpssx.epsxunif_a" := tpssx_eps_fx_unif (2 :* d_a) in
  num Fxb @ "tpssx.Fxb" := tpssx_eps_F_x (2 :* d_b) (4 :* d_gbb) (2 :* d_taub) in
  num epsxunif_b @ "tpssx.epsxunif_b" := tpssx_eps_fx_unif (2 :* d_b) in
  0.5 :* (epsxunif_a * Fxa + epsxunif_b * Fxb).

(** /repo/src/functionals/constants.hpp 35 *)
Definition c_param_beta_pbe_paper : sexp := 0.066725.

(** /repo/src/functionals/revtpssc_eps.hpp 43-47 *)
Definition revtpssc_eps_revtpss_beta (dens : expr) : expr :=
  arg dens @ "revtpssc_eps_revtpss_beta.dens" in
  num r_s @ "revtpssc_eps_revtpss_beta.r_s" := EFun Fcbrt (3 :/ (4 * c_PI :* dens)) in
  c_param_beta_pbe_paper :* (1 :+ 0.1 :* r_s) / (1 :+ 0.1778 :* r_s).

(** /repo/src/functionals/revtpssc_eps.hpp 24-29 *)
Definition revtpssc_eps_revtpssA (eps : expr) (u3 : expr) (beta_tpss : expr) : expr :=
  arg eps @ "revtpssc_eps_revtpssA.eps" in
  arg u3 @ "revtpssc_eps_revtpssA.u3" in
  arg beta_tpss @ "revtpssc_eps_revtpssA.beta_tpss" in
  num beta_gamma @ "revtpssc_eps_revtpssA.beta_gamma" := beta_tpss /: c_param_gamma in
  beta_gamma / EFun Fexpm1 (- eps / (c_param_gamma :* u3)).

(** /repo/src/functionals/revtpssc_eps.hpp 31-41 *)
Definition revtpssc_eps_revtpssH (d2 : expr) (eps : expr) (u3 : expr) (beta_tpss : expr) : expr :=
  arg d2 @ "revtpssc_eps_revtpssH.d2" in
  arg eps @ "revtpssc_eps_revtpssH.eps" in
  arg u3 @ "revtpssc_eps_revtpssH.u3" in
  arg beta_tpss @ "revtpssc_eps_revtpssH.beta_tpss" in
  num d2A @ "revtpssc_eps_revtpssH.d2A" := d2 * revtpssc_eps_revtpssA eps u3 beta_tpss in
  num beta_gamma @ "revtpssc_eps_revtpssH.beta_gamma" := beta_tpss /: c_param_gamma in
  c_param_gamma :* u3 * EFun Flog (1 :+ beta_gamma * d2 * (1 :+ d2A) / (1 :+ d2A * (1 :+ d2A))).

(** /repo/src/functionals/revtpssc_eps.hpp 49-57 *)
Definition revtpssc_eps_revtpss_pbec_eps : expr :=
  num beta_tpss @ "revtpssc_eps_revtpss_pbec_eps.beta_tpss" := revtpssc_eps_revtpss_beta d_n in
  num eps @ "revtpssc_eps_revtpss_pbec_eps.eps" := pw92eps in
  num u @ "revtpssc_eps_revtpss_pbec_eps.u" := pbec_eps_phi in
  num d2 @ "revtpssc_eps_revtpss_pbec_eps.d2" := SPowI (1.0 / 12 * SPow 3 (5.0 / 6.0) / SPow SPi (- 1.0 / 6)) 2 :* d_gnn / (u * u * EPow d_n (7.0 / 3.0)) in
  eps + revtpssc_eps_revtpssH d2 eps (epow3 u) beta_tpss.

(** /repo/src/functionals/revtpssc_eps.hpp 24-29 *)
Definition revtpssc_eps_revtpssA_s (eps : expr) (u3 : sexp) (beta_tpss : expr) : expr :=
  arg eps @ "revtpssc_eps_revtpssA_s.eps" in
  arg beta_tpss @ "revtpssc_eps_revtpssA_s.beta_tpss" in
  num beta_gamma @ "revtpssc_eps_revtpssA_s.beta_gamma" := beta_tpss /: c_param_gamma in
  beta_gamma / EFun Fexpm1 (- eps /: (c_param_gamma * u3)).

(** /repo/src/functionals/revtpssc_eps.hpp 31-41 *)
Definition revtpssc_eps_revtpssH_s (d2 : expr) (eps : expr) (u3 : sexp) (beta_tpss : expr) : expr :=
  arg d2 @ "revtpssc_eps_revtpssH_s.d2" in
  arg eps @ "revtpssc_eps_revtpssH_s.eps" in
  arg beta_tpss @ "revtpssc_eps_revtpssH_s.beta_tpss" in
  num d2A @ "revtpssc_eps_revtpssH_s.d2A" := d2 * revtpssc_eps_revtpssA_s eps u3 beta_tpss in
  num beta_gamma @ "revtpssc_eps_revtpssH_s.beta_gamma" := beta_tpss /: c_param_gamma in
  c_param_gamma * u3 :* EFun Flog (1 :+ beta_gamma * d2 * (1 :+ d2A) / (1 :+ d2A * (1 :+ d2A))).

(** /repo/src/functionals/revtpssc_eps.hpp 59-68 *)
Definition revtpssc_eps_revtpss_pbec_eps_polarized (a : expr) (gaa : expr) : expr :=
  arg a @ "revtpssc_eps_revtpss_pbec_eps_polarized.a" in
  arg gaa @ "revtpssc_eps_revtpss_pbec_eps_polarized.gaa" in
  num eps @ "revtpssc_eps_revtpss_pbec_eps_polarized.eps" := pw92eps_pw92eps_polarized a in
  let u : sexp := (SPow 2.0 (- 1.0 / 3.0))%sx in
  num beta_tpss @ "revtpssc_eps_revtpss_pbec_eps_polarized.beta_tpss" := revtpssc_eps_revtpss_beta a in
  num d2 @ "revtpssc_eps_revtpss_pbec_eps_polarized.d2" := SPowI (1.0 / 12 * SPow 3 (5.0 / 6.0) / SPow SPi (- 1.0 / 6)) 2 :* gaa / (u * u :* EPow a (7.0 / 3.0)) in
  eps + revtpssc_eps_revtpssH_s d2 eps (spow3 u) beta_tpss.

(** /repo/src/functionals/revtpssc_eps.hpp 82-91 *)
Definition revtpssc_eps_epsc_summax : expr :=
  num epsc_pbe @ "revtpssc_eps_epsc_summax.epsc_pbe" := revtpssc_eps_revtpss_pbec_eps in
  num epsc_pbe_a @ "revtpssc_eps_epsc_summax.epsc_pbe_a" := revtpssc_eps_revtpss_pbec_eps_polarized d_a d_gaa in
  num epsc_pbe_b @ "revtpssc_eps_epsc_summax.epsc_pbe_b" := revtpssc_eps_revtpss_pbec_eps_polarized d_b d_gbb in
  (d_a * EMax epsc_pbe epsc_pbe_a + d_b * EMax epsc_pbe epsc_pbe_b) / d_n.

(** /repo/src/functionals/revtpssc_eps.hpp 70-80 *)
Definition revtpssc_eps_C : expr :=
  num gzeta2 @ "revtpssc_eps_C.gzeta2" := (epow2 d_n * d_gss - 2 :* d_n * d_s * d_gns + epow2 d_s * d_gnn) / EPowI d_n 4 in
  num xi2 @ "revtpssc_eps_C.xi2" := gzeta2 / (4 :* EPow (3 * spow2 SPi :* d_n) (2.0 / 3.0)) in
  num C0 @ "revtpssc_eps_C.C0" := 0.59 :+ 0.9269 :* epow2 d_zeta + 0.6225 :* EPowI d_zeta 4 + 2.1540 :* EPowI d_zeta 6 in
  C0 / EPowI (1 :+ 0.5 :* xi2 * (EPow (1 :+ d_zeta) (- 4.0 / 3.0) + EPow (1 :- d_zeta) (- 4.0 / 3.0))) 4.

(** /repo/src/functionals/revtpssc_eps.hpp 93-103 *)
Definition revtpssc_eps_epsc_revpkzb : expr :=
  num tauwtau2 @ "revtpssc_eps_epsc_revpkzb.tauwtau2" := epow2 (d_gnn / (8.0 :* d_n * d_tau)) in
  num epsc_sum @ "revtpssc_eps_epsc_revpkzb.epsc_sum" := revtpssc_eps_epsc_summax in
  num epsc_pbe @ "revtpssc_eps_epsc_revpkzb.epsc_pbe" := revtpssc_eps_revtpss_pbec_eps in
  num C_zeta_xi @ "revtpssc_eps_epsc_revpkzb.C_zeta_xi" := revtpssc_eps_C in
  epsc_pbe * (1 :+ C_zeta_xi * tauwtau2) - (1 :+ C_zeta_xi) * tauwtau2 * epsc_sum.

(** /repo/src/functionals/revtpssc_eps.hpp 105-110 *)
Definition revtpssc_eps : expr :=
  num eps_pkzb @ "revtpssc_eps.eps_pkzb" := revtpssc_eps_epsc_revpkzb in
  num tauwtau2 @ "revtpssc_eps.tauwtau2" := epow2 (d_gnn / (8.0 :* d_n * d_tau)) in
  let dd : sexp := 2.8%sx in
  eps_pkzb * (1 :+ dd :* eps_pkzb * tauwtau2).

(** /repo/src/functionals/revtpssc.cpp 19-22 *)
Definition revtpssc : expr :=
  num eps @ "revtpssc.eps" := revtpssc_eps in
  d_n * eps.

(** /repo/src/functionals/revtpssx_eps.hpp 26-49 *)
Definition revtpssx_eps_x (d_n : expr) (d_gnn : expr) (d_tau : expr) : expr :=
  arg d_n @ "revtpssx_eps_x.d_n" in
  arg d_gnn @ "revtpssx_eps_x.d_gnn" in
  arg d_tau @ "revtpssx_eps_x.d_tau" in
  let kapa : sexp := 0.804%sx in
  let mu : sexp := 0.14%sx in
  let b : sexp := 0.40%sx in
  let e : sexp := 2.1677%sx in
  let c : sexp := 2.35204%sx in
  num p @ "revtpssx_eps_x.p" := d_gnn / (4 * SPow (3 * c_PI2) (2.0 / 3.0) :* EPow d_n (8.0 / 3.0)) in
  num tauw @ "revtpssx_eps_x.tauw" := d_gnn / (8.0 :* d_n) in
  num z @ "revtpssx_eps_x.z" := tauw / d_tau in
  num z2 @ "revtpssx_eps_x.z2" := epow2 z in
  num tau_unif @ "revtpssx_eps_x.tau_unif" := 0.3 * SPow (3 * c_PI2) (2.0 / 3.0) :* EPow d_n (5.0 / 3.0) in
  num alpha @ "revtpssx_eps_x.alpha" := (d_tau - tauw) / tau_unif in
  num q_b @ "revtpssx_eps_x.q_b" := 9 :* (alpha -: 1) / (20 :* EFun Fsqrt (1 :+ b :* alpha * (alpha -: 1))) + 2 :* p /: 3.0 in
  num x_a @ "revtpssx_eps_x.x_a" := p * (10.0 / 81.0 :+ c :* z2 * z / epow2 (1 :+ z2)) in
  num x_a @ "revtpssx_eps_x.x_a" := x_a + 146.0 :* epow2 q_b /: 2025.0 in
  num x_a @ "revtpssx_eps_x.x_a" := x_a - 73.0 / 405.0 :* q_b * d_gnn * EFun Fsqrt (0.5 * 0.6 * 0.6 :* EPowI (8 :* d_n * d_tau) (-2) + 0.5 :* p * p) in
  num x_a @ "revtpssx_eps_x.x_a" := x_a + epow2 (10.0 :* p /: 81.0) /: kapa in
  num x_a @ "revtpssx_eps_x.x_a" := x_a + (SSqrt e * 0.6 * 0.6 :* z2 *: 20.0 /: 81.0 + e * mu :* epow3 p) in
  x_a / (1 :+ SSqrt e :* p).

(** /repo/src/functionals/revtpssx_eps.hpp 51-56 *)
Definition revtpssx_eps_F_x (d_n : expr) (d_gnn : expr) (d_tau : expr) : expr :=
  arg d_n @ "revtpssx_eps_F_x.d_n" in
  arg d_gnn @ "revtpssx_eps_F_x.d_gnn" in
  arg d_tau @ "revtpssx_eps_F_x.d_tau" in
  let kapa : sexp := 0.804%sx in
  num xpz @ "revtpssx_eps_F_x.xpz" := revtpssx_eps_x d_n d_gnn d_tau in
  1 + kapa :- kapa :/ (1 :+ xpz /: kapa).

(** /repo/src/functionals/revtpssx_eps.hpp 22-24 *)
Definition revtpssx_eps_epsx_unif (d_n : expr) : expr :=
  arg d_n @ "revtpssx_eps_epsx_unif.d_n" in
  -3 :* EFun Fcbrt (3 * c_PI2 :* d_n) /: (4 * c_PI).

(** /repo/src/functionals/revtpssx_eps.hpp 58-64 *)
Definition revtpssx_eps : expr :=
  num Fxa @ "revtpssx_eps.Fxa" := revtpssx_eps_F_x (2 :* d_a) (4 :* d_gaa) (2 :* d_taua) in
  num epsxunif_a @ "revtpssx_eps.epsxunif_a" := revtpssx_eps_epsx_unif (2 :* d_a) in
  num Fxb @ "revtpssx_eps.Fxb" := revtpssx_eps_F_x (2 :* d_b) (4 :* d_gbb) (2 :* d_taub) in
  num epsxunif_b @ "revtpssx_eps.epsxunif_b" := revtpssx_eps_epsx_unif (2 :* d_b) in
  epsxunif_a * Fxa * d_a + epsxunif_b * Fxb * d_b.

(** /repo/src/functionals/revtpssx.cpp 19-21 *)
Definition revtpssx : expr :=
  revtpssx_eps.

(** /repo/src/functionals/SCAN_like_eps.hpp 378-385 *)
Definition SCAN_eps_lda_0 (rs : expr) (B1C : sexp) (B2C : sexp) (B3C : sexp) : expr :=
  arg rs @ "SCAN_eps_lda_0.rs" in
  - B1C :/ (1.0 :+ B2C :* EFun Fsqrt rs + B3C :* rs).

(** /repo/src/functionals/SCAN_like_eps.hpp 355-376 *)
Definition SCAN_eps_scan_ec0 (rs : expr) (s : expr) (zeta : expr) (B1C : sexp) (B2C : sexp) (B3C : sexp) : expr :=
  arg rs @ "SCAN_eps_scan_ec0.rs" in
  arg s @ "SCAN_eps_scan_ec0.s" in
  arg zeta @ "SCAN_eps_scan_ec0.zeta" in
  let CHI_LD : sexp := 0.12802585262625815%sx in
  num eclda @ "SCAN_eps_scan_ec0.eclda" := SCAN_eps_lda_0 rs B1C B2C B3C in
  num dx_z @ "SCAN_eps_scan_ec0.dx_z" := eufunc zeta (4.0 / 3.0) /: 2.0 in
  num gc_z @ "SCAN_eps_scan_ec0.gc_z" := (1.0 :- 2.363 :* (dx_z -: 1.0)) * (1 :- EPowI zeta 12) in
  num w0 @ "SCAN_eps_scan_ec0.w0" := EFun Fexp (- eclda /: B1C) -: 1.0 in
  num ginf @ "SCAN_eps_scan_ec0.ginf" := 1.0 :/ EPow (1.0 :+ 4.0 * CHI_LD :* s * s) (1.0 / 4.0) in
  num h0 @ "SCAN_eps_scan_ec0.h0" := B1C :* EFun Flog (1.0 :+ w0 * (1.0 :- ginf)) in
  (eclda + h0) * gc_z.

(** /repo/src/functionals/SCAN_like_eps.hpp 499-521 *)
Definition SCAN_eps_gcor2 (P : list sexp) (rs : expr) (sqrtrs : expr) (GG : string) (GGRS : string) (rest : expr) : expr :=
  arg rs @ "SCAN_eps_gcor2.rs" in
  arg sqrtrs @ "SCAN_eps_gcor2.sqrtrs" in
  num Q0 @ "SCAN_eps_gcor2.Q0" := - 2.0 * sget 0 P :* (1.0 :+ sget 1 P :* rs) in
  num Q0RS @ "SCAN_eps_gcor2.Q0RS" := EConst (- 2.0 * sget 0 P * sget 1 P) in
  num Q1 @ "SCAN_eps_gcor2.Q1" := 2.0 * sget 0 P :* sqrtrs * (sget 2 P :+ sqrtrs * (sget 3 P :+ sqrtrs * (sget 4 P :+ sget 5 P :* sqrtrs))) in
  num Q1RS @ "SCAN_eps_gcor2.Q1RS" := sget 0 P :* (2.0 * sget 3 P :+ sget 2 P :/ sqrtrs + 3.0 * sget 4 P :* sqrtrs + 4.0 * sget 5 P :* rs) in
  num Q2 @ "SCAN_eps_gcor2.Q2" := EFun Flog (1.0 :+ 1.0 :/ Q1) in
  num Q2RS @ "SCAN_eps_gcor2.Q2RS" := - Q1RS / ((1.0 :+ 1.0 :/ Q1) * epow2 Q1) in
  num GG_v @@ GG := Q0 * Q2 in
  num GGRS_v @@ GGRS := Q0 * Q2RS + Q2 * Q0RS in
  rest.

(** /repo/src/functionals/SCAN_like_eps.hpp 463-497 *)
Definition SCAN_eps_get_lsda1 (rs : expr) (sqrtrs : expr) (zeta : expr) (eclda1 : string) (d_eclda1_drs : string) (rest : expr) : expr :=
  arg rs @ "SCAN_eps_get_lsda1.rs" in
  arg sqrtrs @ "SCAN_eps_get_lsda1.sqrtrs" in
  arg zeta @ "SCAN_eps_get_lsda1.zeta" in
  let GAM : sexp := 0.51984209978974632953442121455650%sx in
  let FZZ : sexp := (8.0 / (9.0 * GAM))%sx in
  let p_eu : list sexp := [0.03109070; 0.213700; 7.59570; 3.58760; 1.63820; 0.492940]%sx in
  let p_ep : list sexp := [0.015545350; 0.205480; 14.11890; 6.19770; 3.36620; 0.625170]%sx in
  let p_alfm : list sexp := [0.01688690; 0.111250; 10.3570; 3.62310; 0.880260; 0.496710]%sx in
  num eu @ "SCAN_eps_get_lsda1.eu" := EConst 0.0 in
  num deudrs @ "SCAN_eps_get_lsda1.deudrs" := EConst 0.0 in
  SCAN_eps_gcor2 p_eu rs sqrtrs "SCAN_eps_get_lsda1.eu" "SCAN_eps_get_lsda1.deudrs" (
  num ep @ "SCAN_eps_get_lsda1.ep" := EConst 0.0 in
  num depdrs @ "SCAN_eps_get_lsda1.depdrs" := EConst 0.0 in
  SCAN_eps_gcor2 p_ep rs sqrtrs "SCAN_eps_get_lsda1.ep" "SCAN_eps_get_lsda1.depdrs" (
  num alfm @ "SCAN_eps_get_lsda1.alfm" := EConst 0.0 in
  num dalfmdrs @ "SCAN_eps_get_lsda1.dalfmdrs" := EConst 0.0 in
  SCAN_eps_gcor2 p_alfm rs sqrtrs "SCAN_eps_get_lsda1.alfm" "SCAN_eps_get_lsda1.dalfmdrs" (
  num z3 @ "SCAN_eps_get_lsda1.z3" := EPowI zeta 3 in
  num z4 @ "SCAN_eps_get_lsda1.z4" := zeta * z3 in
  num f @ "SCAN_eps_get_lsda1.f" := (eufunc zeta (4.0 / 3.0) -: 2.0) /: GAM in
  num eclda1_v @@ eclda1 := eu * (1.0 :- f * z4) + ep * f * z4 - alfm * f * (1.0 :- z4) /: FZZ in
  num d_eclda1_drs_v @@ d_eclda1_drs := (1.0 :- z4 * f) * deudrs + z4 * f * depdrs - (1.0 :- z4) * f * dalfmdrs /: FZZ in
  rest))).

(** /repo/src/functionals/SCAN_like_eps.hpp 387-461 *)
Definition SCAN_eps_scan_ec1 (rs : expr) (s : expr) (zeta : expr) (IE_PARAMS : list sexp) (ETA : sexp) (B1C : sexp) (B2C : sexp) (B3C : sexp) (IDELEC : nat) : expr :=
  arg rs @ "SCAN_eps_scan_ec1.rs" in
  arg s @ "SCAN_eps_scan_ec1.s" in
  arg zeta @ "SCAN_eps_scan_ec1.zeta" in
  let BETA_MB : sexp := 0.066725%sx in
  let AFACTOR : sexp := 0.1%sx in
  let BFACTOR : sexp := 0.1778%sx in
  let GAMMA : sexp := 0.031090690869655%sx in
  let AFIX_T : sexp := (SSqrt (c_PI / 4.0) * SPow (9.0 * c_PI / 4.0) (1.0 / 6.0))%sx in
  let D_DAMP2 : sexp := 0.361%sx in
  num dx_z @ "SCAN_eps_scan_ec1.dx_z" := eufunc zeta (4.0 / 3.0) /: 2.0 in
  num gc_z @ "SCAN_eps_scan_ec1.gc_z" := (1.0 :- 2.363 :* (dx_z -: 1.0)) * (1 :- EPowI zeta 12) in
  num phi @ "SCAN_eps_scan_ec1.phi" := eufunc zeta (2.0 / 3.0) /: 2.0 in
  num phi3 @ "SCAN_eps_scan_ec1.phi3" := EPowI phi 3 in
  num sqrtrs @ "SCAN_eps_scan_ec1.sqrtrs" := EFun Fsqrt rs in
  num eclda0 @ "SCAN_eps_scan_ec1.eclda0" := SCAN_eps_lda_0 rs B1C B2C B3C in
  num eclsda1 @ "SCAN_eps_scan_ec1.eclsda1" := EConst 0.0 in
  num d_eclsda1_drs @ "SCAN_eps_scan_ec1.d_eclsda1_drs" := EConst 0.0 in
  SCAN_eps_get_lsda1 rs sqrtrs zeta "SCAN_eps_scan_ec1.eclsda1" "SCAN_eps_scan_ec1.d_eclsda1_drs" (
  num t @ "SCAN_eps_scan_ec1.t" := AFIX_T :* s / (sqrtrs * phi) in
  num w1 @ "SCAN_eps_scan_ec1.w1" := EFun Fexp (- eclsda1 / (GAMMA :* phi3)) -: 1.0 in
  num beta @ "SCAN_eps_scan_ec1.beta" := BETA_MB :* (1.0 :+ AFACTOR :* rs) / (1.0 :+ BFACTOR :* rs) in
  num y @ "SCAN_eps_scan_ec1.y" := beta / (GAMMA :* w1) * epow2 t in
  num del_y @ "SCAN_eps_scan_ec1.del_y" := EConst 0.0 in
  let rest_ :=
    num g_y @ "SCAN_eps_scan_ec1.g_y" := 1.0 :/ EPow (1.0 :+ 4.0 :* (y - del_y)) (1.0 / 4.0) in
    num h1 @ "SCAN_eps_scan_ec1.h1" := GAMMA :* phi3 * EFun Flog (1.0 :+ w1 * (1.0 :- g_y)) in
    eclsda1 + h1 in
  if Nat.eqb IDELEC 0 then
    num del_y @ "SCAN_eps_scan_ec1.del_y" := EConst 0.0 in
    rest_
  else
    let rest_ :=
    rest_ in
    if orb (Nat.eqb IDELEC 1) (Nat.eqb IDELEC 2) then
    num p @ "SCAN_eps_scan_ec1.p" := s * s in
    num ds_z @ "SCAN_eps_scan_ec1.ds_z" := eufunc zeta (5.0 / 3.0) /: 2.0 in
    num del_f2 @ "SCAN_eps_scan_ec1.del_f2" := EConst 0.0 in
    num del_f2 @ "SCAN_eps_scan_ec1.del_f2" := del_f2 +: 1 * sget 1 IE_PARAMS in
    num del_f2 @ "SCAN_eps_scan_ec1.del_f2" := del_f2 +: 2 * sget 2 IE_PARAMS in
    num del_f2 @ "SCAN_eps_scan_ec1.del_f2" := del_f2 +: 3 * sget 3 IE_PARAMS in
    num del_f2 @ "SCAN_eps_scan_ec1.del_f2" := del_f2 +: 4 * sget 4 IE_PARAMS in
    num del_f2 @ "SCAN_eps_scan_ec1.del_f2" := del_f2 +: 5 * sget 5 IE_PARAMS in
    num del_f2 @ "SCAN_eps_scan_ec1.del_f2" := del_f2 +: 6 * sget 6 IE_PARAMS in
    num del_f2 @ "SCAN_eps_scan_ec1.del_f2" := del_f2 +: 7 * sget 7 IE_PARAMS in
    num eclsda0 @ "SCAN_eps_scan_ec1.eclsda0" := eclda0 * gc_z in
    num d_eclsda0_drs @ "SCAN_eps_scan_ec1.d_eclsda0_drs" := gc_z * (B3C :+ B2C :/ (2.0 :* sqrtrs)) * epow2 eclda0 /: B1C in
    num t1 @ "SCAN_eps_scan_ec1.t1" := del_f2 / (27.0 * GAMMA :* ds_z * phi3 * w1) in
    num t2 @ "SCAN_eps_scan_ec1.t2" := 20.0 :* rs * (d_eclsda0_drs - d_eclsda1_drs) in
    num t3 @ "SCAN_eps_scan_ec1.t3" := 45.0 * ETA :* (eclsda0 - eclsda1) in
    num k @ "SCAN_eps_scan_ec1.k" := t1 * (t2 - t3) in
    num damp @ "SCAN_eps_scan_ec1.damp" := EFun Fexp (- epow2 p /: SPowI D_DAMP2 4) in
    num del_y @ "SCAN_eps_scan_ec1.del_y" := k * p * damp in
    rest_
  else
    rest_).

(** /repo/src/functionals/SCAN_like_eps.hpp 253-353 *)
Definition SCAN_eps_SCAN_C (IALPHA : nat) (IINTERP : nat) (IDELEC : nat) : expr :=
  let CFC1 : sexp := 0.64%sx in
  let CFC2 : sexp := 1.5%sx in
  let CFDC1 : sexp := 0.7%sx in
  let IE_PARAMS : list sexp := [1.0; - 0.64; - 0.4352; - 1.535685604549; 3.061560252175; - 1.915710236206; 0.516884468372; - 0.051848879792]%sx in
  let ETA : sexp := (1.0e-3)%sx in
  let TAU_R : sexp := (1.0e-4)%sx in
  let A_REG : sexp := (1.0e-3)%sx in
  let B1C : sexp := 0.0285764%sx in
  let B2C : sexp := 0.0889%sx in
  let B3C : sexp := 0.125541%sx in
  num rs @ "SCAN_eps_SCAN_C.rs" := EPow (4.0 * c_PI :* d_n /: 3.0) (- (1.0 / 3.0)) in
  num sqrtrs @ "SCAN_eps_SCAN_C.sqrtrs" := EConst 0.0 in
  num sqrtrs @ "SCAN_eps_SCAN_C.sqrtrs" := EIf (EConst 1.0e-16) (EAbs rs) (num sqrtrs @ "SCAN_eps_SCAN_C.sqrtrs" := EFun Fsqrt rs in sqrtrs) (sqrtrs) in
  num ds_z @ "SCAN_eps_SCAN_C.ds_z" := eufunc d_zeta (5.0 / 3.0) /: 2.0 in
  num s @ "SCAN_eps_SCAN_C.s" := EFun Fsqrt d_gnn / (2.0 * SPow (3.0 * c_PI2) (1.0 / 3.0) :* EPow d_n (4.0 / 3.0)) in
  num tueg_con @ "SCAN_eps_SCAN_C.tueg_con" := EConst (3.0 / 10.0 * SPow (3.0 * c_PI2) (2.0 / 3.0)) in
  num tueg @ "SCAN_eps_SCAN_C.tueg" := EConst 0.0 in
  num tueg @ "SCAN_eps_SCAN_C.tueg" := (if Nat.eqb IALPHA 1 then num tueg @ "SCAN_eps_SCAN_C.tueg" := (tueg_con * EPow d_n (5.0 / 3.0) +: TAU_R) * ds_z in tueg
      else num tueg @ "SCAN_eps_SCAN_C.tueg" := tueg_con * EPow d_n (5.0 / 3.0) * ds_z in tueg) in
  num tauw @ "SCAN_eps_SCAN_C.tauw" := d_gnn / (8.0 :* d_n) in
  num alpha @ "SCAN_eps_SCAN_C.alpha" := EConst 0.0 in
  num alpha @ "SCAN_eps_SCAN_C.alpha" := (if Nat.eqb IALPHA 0 then num alpha @ "SCAN_eps_SCAN_C.alpha" := EIf (EConst 1.0e-14) (EAbs (d_tau - tauw)) (num alpha @ "SCAN_eps_SCAN_C.alpha" := (d_tau - tauw) / tueg in alpha) (alpha) in alpha
      else num alpha @ "SCAN_eps_SCAN_C.alpha" := (if Nat.eqb IALPHA 1 then num alpha @ "SCAN_eps_SCAN_C.alpha" := (d_tau - tauw) / tueg in num alpha @ "SCAN_eps_SCAN_C.alpha" := EPowI alpha 3 / (epow2 alpha +: A_REG) in alpha
      else num alpha @ "SCAN_eps_SCAN_C.alpha" := (if Nat.eqb IALPHA 2 then num alpha @ "SCAN_eps_SCAN_C.alpha" := EIf (EConst 1.0e-14) (EAbs (d_tau - tauw)) (num alpha @ "SCAN_eps_SCAN_C.alpha" := (d_tau - tauw) / (tueg + ETA :* tauw) in alpha) (alpha) in alpha
      else alpha) in alpha) in alpha) in
  num oma @ "SCAN_eps_SCAN_C.oma" := 1.0 :- alpha in
  num ief @ "SCAN_eps_SCAN_C.ief" := EConst 0.0 in
  num ief @ "SCAN_eps_SCAN_C.ief" := (if Nat.eqb IINTERP 0 then num ief @ "SCAN_eps_SCAN_C.ief" := EIf alpha (EConst 1.0) (num ief @ "SCAN_eps_SCAN_C.ief" := EFun Fexp (- CFC1 :* alpha / oma) in ief) (num ief @ "SCAN_eps_SCAN_C.ief" := - CFDC1 :* EFun Fexp (CFC2 :/ oma) in ief) in ief
      else num ief @ "SCAN_eps_SCAN_C.ief" := (if Nat.eqb IINTERP 1 then num ief @ "SCAN_eps_SCAN_C.ief" := EIf alpha (EConst 1.0e-13) (num ief @ "SCAN_eps_SCAN_C.ief" := EFun Fexp (- CFC1 :* alpha / oma) in ief) (num ief @ "SCAN_eps_SCAN_C.ief" := EIf alpha (EConst 2.5) (num ief @ "SCAN_eps_SCAN_C.ief" := ief + sget 0 IE_PARAMS :* EPowI alpha 0 in num ief @ "SCAN_eps_SCAN_C.ief" := ief + sget 1 IE_PARAMS :* EPowI alpha 1 in num ief @ "SCAN_eps_SCAN_C.ief" := ief + sget 2 IE_PARAMS :* EPowI alpha 2 in num ief @ "SCAN_eps_SCAN_C.ief" := ief + sget 3 IE_PARAMS :* EPowI alpha 3 in num ief @ "SCAN_eps_SCAN_C.ief" := ief + sget 4 IE_PARAMS :* EPowI alpha 4 in num ief @ "SCAN_eps_SCAN_C.ief" := ief + sget 5 IE_PARAMS :* EPowI alpha 5 in num ief @ "SCAN_eps_SCAN_C.ief" := ief + sget 6 IE_PARAMS :* EPowI alpha 6 in num ief @ "SCAN_eps_SCAN_C.ief" := ief + sget 7 IE_PARAMS :* EPowI alpha 7 in ief) (num ief @ "SCAN_eps_SCAN_C.ief" := - CFDC1 :* EFun Fexp (CFC2 :/ oma) in ief) in ief) in ief
      else ief) in ief) in
  num ec0 @ "SCAN_eps_SCAN_C.ec0" := SCAN_eps_scan_ec0 rs s d_zeta B1C B2C B3C in
  num ec1 @ "SCAN_eps_SCAN_C.ec1" := SCAN_eps_scan_ec1 rs s d_zeta IE_PARAMS ETA B1C B2C B3C IDELEC in
  num eps_c @ "SCAN_eps_SCAN_C.eps_c" := (ec1 + ief * (ec0 - ec1)) * d_n in
  eps_c.

(** /repo/src/functionals/SCANc.cpp 19-23 *)
Definition SCANc_SCANC : expr :=
  num eps_c @ "SCANc_SCANC.eps_c" := SCAN_eps_SCAN_C 0 0 0 in
  eps_c.

(** /repo/src/functionals/SCAN_like_eps.hpp 132-251 *)
Definition SCAN_eps_SCAN_X_Fx (p : expr) (alpha : expr) (ETA : sexp) (IINTERP : nat) (IDELFX : nat) : expr :=
  arg p @ "SCAN_eps_SCAN_X_Fx.p" in
  arg alpha @ "SCAN_eps_SCAN_X_Fx.alpha" in
  let A1 : sexp := 4.9479%sx in
  let K1 : sexp := 0.065%sx in
  let K0 : sexp := 0.174%sx in
  let MU : sexp := (10.0 / 81.0)%sx in
  let IE_PARAMS : list sexp := [1.0; - 0.667; - 0.4445555; - 0.663086601049; 1.451297044490; - 0.887998041597; 0.234528941479; - 0.023185843322]%sx in
  let CFX1 : sexp := 0.667%sx in
  let CFX2 : sexp := 0.8%sx in
  let CFDX1 : sexp := 1.24%sx in
  let D_DAMP2 : sexp := 0.361%sx in
  let DX_DAMP4_P : sexp := 0.232%sx in
  let DX_DAMP4_A : sexp := 0.232%sx in
  let B1 : sexp := 0.156632%sx in
  let B2 : sexp := 0.12083%sx in
  let B3 : sexp := 0.5%sx in
  let B4 : sexp := (MU * MU / K1 - 0.112654)%sx in
  let ALPHA_GE : sexp := (20.0 / 27.0 + ETA * 5.0 / 3.0)%sx in
  num oma @ "SCAN_eps_SCAN_X_Fx.oma" := 1.0 :- alpha in
  num ief @ "SCAN_eps_SCAN_X_Fx.ief" := EConst 0.0 in
  num ief @ "SCAN_eps_SCAN_X_Fx.ief" := (if Nat.eqb IINTERP 0 then num ief @ "SCAN_eps_SCAN_X_Fx.ief" := EIf alpha (EConst 1.0) (num ief @ "SCAN_eps_SCAN_X_Fx.ief" := EFun Fexp (- CFX1 :* alpha / oma) in ief) (num ief @ "SCAN_eps_SCAN_X_Fx.ief" := - CFDX1 :* EFun Fexp (CFX2 :/ oma) in ief) in ief
      else num ief @ "SCAN_eps_SCAN_X_Fx.ief" := (if Nat.eqb IINTERP 1 then num ief @ "SCAN_eps_SCAN_X_Fx.ief" := EIf alpha (EConst 1.0e-13) (num ief @ "SCAN_eps_SCAN_X_Fx.ief" := EFun Fexp (- CFX1 :* alpha / oma) in ief) (num ief @ "SCAN_eps_SCAN_X_Fx.ief" := EIf alpha (EConst 2.5) (num ief @ "SCAN_eps_SCAN_X_Fx.ief" := ief + sget 0 IE_PARAMS :* EPowI alpha 0 in num ief @ "SCAN_eps_SCAN_X_Fx.ief" := ief + sget 1 IE_PARAMS :* EPowI alpha 1 in num ief @ "SCAN_eps_SCAN_X_Fx.ief" := ief + sget 2 IE_PARAMS :* EPowI alpha 2 in num ief @ "SCAN_eps_SCAN_X_Fx.ief" := ief + sget 3 IE_PARAMS :* EPowI alpha 3 in num ief @ "SCAN_eps_SCAN_X_Fx.ief" := ief + sget 4 IE_PARAMS :* EPowI alpha 4 in num ief @ "SCAN_eps_SCAN_X_Fx.ief" := ief + sget 5 IE_PARAMS :* EPowI alpha 5 in num ief @ "SCAN_eps_SCAN_X_Fx.ief" := ief + sget 6 IE_PARAMS :* EPowI alpha 6 in num ief @ "SCAN_eps_SCAN_X_Fx.ief" := ief + sget 7 IE_PARAMS :* EPowI alpha 7 in ief) (num ief @ "SCAN_eps_SCAN_X_Fx.ief" := - CFDX1 :* EFun Fexp (CFX2 :/ oma) in ief) in ief) in ief
      else ief) in ief) in
  num h0x @ "SCAN_eps_SCAN_X_Fx.h0x" := EConst (1.0 + K0) in
  num del_f2 @ "SCAN_eps_SCAN_X_Fx.del_f2" := EConst 0.0 in
  num C2 @ "SCAN_eps_SCAN_X_Fx.C2" := EConst 0.0 in
  num h1x @ "SCAN_eps_SCAN_X_Fx.h1x" := EConst 0.0 in
  let rest_ :=
    num gx @ "SCAN_eps_SCAN_X_Fx.gx" := 1.0 :- EFun Fexp (- A1 :/ EPow p (1.0 / 4.0)) in
    num del_fx @ "SCAN_eps_SCAN_X_Fx.del_fx" := EConst 0.0 in
    let rest_ :=
    num fx @ "SCAN_eps_SCAN_X_Fx.fx" := (h1x + ief * (h0x - h1x) + del_fx) * gx in
    fx in
    if Nat.eqb IDELFX 2 then
    num eta_term @ "SCAN_eps_SCAN_X_Fx.eta_term" := EConst (ETA * 3.0 / 4.0 + 2.0 / 3.0) in
    num del_f4 @ "SCAN_eps_SCAN_X_Fx.del_f4" := EConst 0.0 in
    num del_f4 @ "SCAN_eps_SCAN_X_Fx.del_f4" := del_f4 +: 0 * sget 1 IE_PARAMS in
    num del_f4 @ "SCAN_eps_SCAN_X_Fx.del_f4" := del_f4 +: 2 * sget 2 IE_PARAMS in
    num del_f4 @ "SCAN_eps_SCAN_X_Fx.del_f4" := del_f4 +: 6 * sget 3 IE_PARAMS in
    num del_f4 @ "SCAN_eps_SCAN_X_Fx.del_f4" := del_f4 +: 12 * sget 4 IE_PARAMS in
    num del_f4 @ "SCAN_eps_SCAN_X_Fx.del_f4" := del_f4 +: 20 * sget 5 IE_PARAMS in
    num del_f4 @ "SCAN_eps_SCAN_X_Fx.del_f4" := del_f4 +: 30 * sget 6 IE_PARAMS in
    num del_f4 @ "SCAN_eps_SCAN_X_Fx.del_f4" := del_f4 +: 42 * sget 7 IE_PARAMS in
    num C_aa @ "SCAN_eps_SCAN_X_Fx.C_aa" := 73.0 / 5000.0 :- 0.5 :* del_f4 * (h0x -: 1.0) in
    num C_pa @ "SCAN_eps_SCAN_X_Fx.C_pa" := 511.0 / 13500 - 73.0 / 1500.0 * ETA :- del_f2 * (ALPHA_GE :* C2 +: MU) in
    num C_pp @ "SCAN_eps_SCAN_X_Fx.C_pp" := 146.0 / 2025.0 :* epow2 eta_term - 73.0 / 405.0 :* eta_term + epow2 (ALPHA_GE :* C2 +: MU) /: K1 in
    num order_1 @ "SCAN_eps_SCAN_X_Fx.order_1" := C2 * (oma - ALPHA_GE :* p) in
    num t1 @ "SCAN_eps_SCAN_X_Fx.t1" := order_1 + C_aa * epow2 oma + C_pa * p * oma + C_pp * epow2 p in
    num damp_4_t1 @ "SCAN_eps_SCAN_X_Fx.damp_4_t1" := 2.0 :* epow2 alpha / (1.0 :+ EPowI alpha 4) in
    num damp_4_t2 @ "SCAN_eps_SCAN_X_Fx.damp_4_t2" := EFun Fexp (- epow2 oma /: spow2 DX_DAMP4_A - epow2 p /: SPowI DX_DAMP4_P 4) in
    num damp_4 @ "SCAN_eps_SCAN_X_Fx.damp_4" := damp_4_t1 * damp_4_t2 in
    num del_fx @ "SCAN_eps_SCAN_X_Fx.del_fx" := t1 * damp_4 in
    rest_
  else
    rest_ in
  if Nat.eqb IDELFX 0 then
    num wfac @ "SCAN_eps_SCAN_X_Fx.wfac" := B4 :* epow2 p * EFun Fexp (- B4 :* p /: MU) in
    num vfac @ "SCAN_eps_SCAN_X_Fx.vfac" := B1 :* p + B2 :* oma * EFun Fexp (- B3 :* epow2 oma) in
    num yfac @ "SCAN_eps_SCAN_X_Fx.yfac" := MU :* p + wfac + epow2 vfac in
    num h1x @ "SCAN_eps_SCAN_X_Fx.h1x" := 1.0 + K1 :- K1 :/ (1.0 :+ yfac /: K1) in
    rest_
  else
    let rest_ :=
    rest_ in
    if orb (Nat.eqb IDELFX 1) (Nat.eqb IDELFX 2) then
    num del_f2 @ "SCAN_eps_SCAN_X_Fx.del_f2" := del_f2 +: 1 * sget 1 IE_PARAMS in
    num del_f2 @ "SCAN_eps_SCAN_X_Fx.del_f2" := del_f2 +: 2 * sget 2 IE_PARAMS in
    num del_f2 @ "SCAN_eps_SCAN_X_Fx.del_f2" := del_f2 +: 3 * sget 3 IE_PARAMS in
    num del_f2 @ "SCAN_eps_SCAN_X_Fx.del_f2" := del_f2 +: 4 * sget 4 IE_PARAMS in
    num del_f2 @ "SCAN_eps_SCAN_X_Fx.del_f2" := del_f2 +: 5 * sget 5 IE_PARAMS in
    num del_f2 @ "SCAN_eps_SCAN_X_Fx.del_f2" := del_f2 +: 6 * sget 6 IE_PARAMS in
    num del_f2 @ "SCAN_eps_SCAN_X_Fx.del_f2" := del_f2 +: 7 * sget 7 IE_PARAMS in
    num C2 @ "SCAN_eps_SCAN_X_Fx.C2" := - del_f2 * (1.0 :- h0x) in
    num damp @ "SCAN_eps_SCAN_X_Fx.damp" := EFun Fexp (- epow2 p /: SPowI D_DAMP2 4) in
    num h1x @ "SCAN_eps_SCAN_X_Fx.h1x" := 1.0 + K1 :- K1 :/ (1.0 :+ p * (MU :+ ALPHA_GE :* C2 * damp) /: K1) in
    rest_
  else
    rest_.

(** /repo/src/functionals/SCAN_like_eps.hpp 75-130 *)
Definition SCAN_eps_get_SCAN_Fx (d_n : expr) (d_g : expr) (d_tau : expr) (IALPHA : nat) (IINTERP : nat) (IDELFX : nat) : expr :=
  arg d_n @ "SCAN_eps_get_SCAN_Fx.d_n" in
  arg d_g @ "SCAN_eps_get_SCAN_Fx.d_g" in
  arg d_tau @ "SCAN_eps_get_SCAN_Fx.d_tau" in
  let ETA : sexp := (1.0e-3)%sx in
  let TAU_R : sexp := (1.0e-4)%sx in
  let A_REG : sexp := (1.0e-3)%sx in
  num tauw @ "SCAN_eps_get_SCAN_Fx.tauw" := d_g / (8.0 :* d_n) in
  num tauUnif @ "SCAN_eps_get_SCAN_Fx.tauUnif" := EConst 0.0 in
  num tauUnif @ "SCAN_eps_get_SCAN_Fx.tauUnif" := (if Nat.eqb IALPHA 1 then num tauUnif @ "SCAN_eps_get_SCAN_Fx.tauUnif" := 3.0 / 10.0 * SPow (3 * c_PI2) (2.0 / 3.0) :* EPow d_n (5.0 / 3.0) +: TAU_R in tauUnif
      else num tauUnif @ "SCAN_eps_get_SCAN_Fx.tauUnif" := 0.3 * SPow (3 * c_PI2) (2.0 / 3.0) :* EPow d_n (5.0 / 3.0) in tauUnif) in
  num alpha @ "SCAN_eps_get_SCAN_Fx.alpha" := EConst 0.0 in
  num alpha @ "SCAN_eps_get_SCAN_Fx.alpha" := (if Nat.eqb IALPHA 0 then num alpha @ "SCAN_eps_get_SCAN_Fx.alpha" := EIf (EConst 1.0e-14) (EAbs (d_tau - tauw)) (num alpha @ "SCAN_eps_get_SCAN_Fx.alpha" := (d_tau - tauw) / tauUnif in alpha) (alpha) in alpha
      else num alpha @ "SCAN_eps_get_SCAN_Fx.alpha" := (if Nat.eqb IALPHA 1 then num alpha @ "SCAN_eps_get_SCAN_Fx.alpha" := (d_tau - tauw) / tauUnif in num alpha @ "SCAN_eps_get_SCAN_Fx.alpha" := EPowI alpha 3 / (epow2 alpha +: A_REG) in alpha
      else num alpha @ "SCAN_eps_get_SCAN_Fx.alpha" := (if Nat.eqb IALPHA 2 then num alpha @ "SCAN_eps_get_SCAN_Fx.alpha" := EIf (EConst 1.0e-14) (EAbs (d_tau - tauw)) (num alpha @ "SCAN_eps_get_SCAN_Fx.alpha" := (d_tau - tauw) / (tauUnif + ETA :* tauw) in alpha) (alpha) in alpha
      else alpha) in alpha) in alpha) in
  num p @ "SCAN_eps_get_SCAN_Fx.p" := EConst 0.0 in
  num p @ "SCAN_eps_get_SCAN_Fx.p" := EIf (EConst 1.0e-16) (EAbs d_g) (num p @ "SCAN_eps_get_SCAN_Fx.p" := d_g / (4.0 * SPow (3.0 * c_PI2) (2.0 / 3.0) :* EPow d_n (8.0 / 3.0)) in p) (num p @ "SCAN_eps_get_SCAN_Fx.p" := 1e-16 :/ (4.0 * SPow (3.0 * c_PI2) (2.0 / 3.0) :* EPow d_n (8.0 / 3.0)) in p) in
  num Fx @ "SCAN_eps_get_SCAN_Fx.Fx" := SCAN_eps_SCAN_X_Fx p alpha ETA IINTERP IDELFX in
  Fx.

(** /repo/src/functionals/SCAN_like_eps.hpp 71-73 *)
Definition SCAN_eps_fx_unif (d : expr) : expr :=
  arg d @ "SCAN_eps_fx_unif.d" in
  - 0.75 * SPow (3 / c_PI) (1.0 / 3.0) :* EPow d (4.0 / 3.0).

(** /repo/src/functionals/SCANx.cpp 19-28 *)
Definition SCANx_SCANX : expr :=
  let Fx_a := EVar "SCANx_SCANX.Fx_a" in
  let Fx_b := EVar "SCANx_SCANX.Fx_b" in
  num Fx_a @ "SCANx_SCANX.Fx_a" := SCAN_eps_get_SCAN_Fx (2.0 :* d_a) (4.0 :* d_gaa) (2.0 :* d_taua) 0 0 0 in
  num epsxunif_a @ "SCANx_SCANX.epsxunif_a" := SCAN_eps_fx_unif (2 :* d_a) in
  num Fx_b @ "SCANx_SCANX.Fx_b" := SCAN_eps_get_SCAN_Fx (2.0 :* d_b) (4.0 :* d_gbb) (2.0 :* d_taub) 0 0 0 in
  num epsxunif_b @ "SCANx_SCANX.epsxunif_b" := SCAN_eps_fx_unif (2 :* d_b) in
  0.5 :* (Fx_a * epsxunif_a + Fx_b * epsxunif_b).

(** /repo/src/functionals/rSCANc.cpp 19-23 *)
Definition rSCANc_rSCANC : expr :=
  num eps_c @ "rSCANc_rSCANC.eps_c" := SCAN_eps_SCAN_C 1 1 0 in
  eps_c.

(** /repo/src/functionals/rSCANx.cpp 19-28 *)
Definition rSCANx_rSCANX : expr :=
  let Fx_a := EVar "rSCANx_rSCANX.Fx_a" in
  let Fx_b := EVar "rSCANx_rSCANX.Fx_b" in
  num Fx_a @ "rSCANx_rSCANX.Fx_a" := SCAN_eps_get_SCAN_Fx (2.0 :* d_a) (4.0 :* d_gaa) (2.0 :* d_taua) 1 1 0 in
  num epsxunif_a @ "rSCANx_rSCANX.epsxunif_a" := SCAN_eps_fx_unif (2 :* d_a) in
  num Fx_b @ "rSCANx_rSCANX.Fx_b" := SCAN_eps_get_SCAN_Fx (2.0 :* d_b) (4.0 :* d_gbb) (2.0 :* d_taub) 1 1 0 in
  num epsxunif_b @ "rSCANx_rSCANX.epsxunif_b" := SCAN_eps_fx_unif (2 :* d_b) in
  0.5 :* (Fx_a * epsxunif_a + Fx_b * epsxunif_b).

(** /repo/src/functionals/rppSCANc.cpp 19-23 *)
Definition rppSCANc_rppSCANC : expr :=
  num eps_c @ "rppSCANc_rppSCANC.eps_c" := SCAN_eps_SCAN_C 2 1 0 in
  eps_c.

(** /repo/src/functionals/rppSCANx.cpp 19-28 *)
Definition rppSCANx_rppSCANX : expr :=
  let Fx_a := EVar "rppSCANx_rppSCANX.Fx_a" in
  let Fx_b := EVar "rppSCANx_rppSCANX.Fx_b" in
  num Fx_a @ "rppSCANx_rppSCANX.Fx_a" := SCAN_eps_get_SCAN_Fx (2.0 :* d_a) (4.0 :* d_gaa) (2.0 :* d_taua) 2 1 0 in
  num epsxunif_a @ "rppSCANx_rppSCANX.epsxunif_a" := SCAN_eps_fx_unif (2 :* d_a) in
  num Fx_b @ "rppSCANx_rppSCANX.Fx_b" := SCAN_eps_get_SCAN_Fx (2.0 :* d_b) (4.0 :* d_gbb) (2.0 :* d_taub) 2 1 0 in
  num epsxunif_b @ "rppSCANx_rppSCANX.epsxunif_b" := SCAN_eps_fx_unif (2 :* d_b) in
  0.5 :* (Fx_a * epsxunif_a + Fx_b * epsxunif_b).

(** /repo/src/functionals/r2SCANc.cpp 19-23 *)
Definition r2SCANc_r2SCANC : expr :=
  num eps_c @ "r2SCANc_r2SCANC.eps_c" := SCAN_eps_SCAN_C 2 1 1 in
  eps_c.

(** /repo/src/functionals/r2SCANx.cpp 19-28 *)
Definition r2SCANx_r2SCANX : expr :=
  let Fx_a := EVar "r2SCANx_r2SCANX.Fx_a" in
  let Fx_b := EVar "r2SCANx_r2SCANX.Fx_b" in
  num Fx_a @ "r2SCANx_r2SCANX.Fx_a" := SCAN_eps_get_SCAN_Fx (2.0 :* d_a) (4.0 :* d_gaa) (2.0 :* d_taua) 2 1 1 in
  num epsxunif_a @ "r2SCANx_r2SCANX.epsxunif_a" := SCAN_eps_fx_unif (2 :* d_a) in
  num Fx_b @ "r2SCANx_r2SCANX.Fx_b" := SCAN_eps_get_SCAN_Fx (2.0 :* d_b) (4.0 :* d_gbb) (2.0 :* d_taub) 2 1 1 in
  num epsxunif_b @ "r2SCANx_r2SCANX.epsxunif_b" := SCAN_eps_fx_unif (2 :* d_b) in
  0.5 :* (Fx_a * epsxunif_a + Fx_b * epsxunif_b).

(** /repo/src/functionals/r4SCANc.cpp 19-23 *)
Definition r4SCANc_r4SCANC : expr :=
  num eps_c @ "r4SCANc_r4SCANC.eps_c" := SCAN_eps_SCAN_C 2 1 2 in
  eps_c.

(** /repo/src/functionals/r4SCANx.cpp 19-28 *)
Definition r4SCANx_r4SCANX : expr :=
  let Fx_a := EVar "r4SCANx_r4SCANX.Fx_a" in
  let Fx_b := EVar "r4SCANx_r4SCANX.Fx_b" in
  num Fx_a @ "r4SCANx_r4SCANX.Fx_a" := SCAN_eps_get_SCAN_Fx (2.0 :* d_a) (4.0 :* d_gaa) (2.0 :* d_taua) 2 1 2 in
  num epsxunif_a @ "r4SCANx_r4SCANX.epsxunif_a" := SCAN_eps_fx_unif (2 :* d_a) in
  num Fx_b @ "r4SCANx_r4SCANX.Fx_b" := SCAN_eps_get_SCAN_Fx (2.0 :* d_b) (4.0 :* d_gbb) (2.0 :* d_taub) 2 1 2 in
  num epsxunif_b @ "r4SCANx_r4SCANX.epsxunif_b" := SCAN_eps_fx_unif (2 :* d_b) in
  0.5 :* (Fx_a * epsxunif_a + Fx_b * epsxunif_b).

(** /repo/src/functionals/pz81c.hpp 33-35 *)
Definition pz81eps_Ehd (x : expr) (c : list sexp) : expr :=
  arg x @ "pz81eps_Ehd.x" in
  sget 1 c :+ EFun Flog x * (sget 0 c :+ x *: sget 2 c) + sget 3 c :* x.

(** /repo/src/functionals/pz81c.hpp 23-27 *)
Definition pz81eps_fz : expr :=
  let p : sexp := (SPow 2.0 (4.0 / 3.0))%sx in
  let q : sexp := (2 * SPow 2.0 (1.0 / 3.0) - 2)%sx in
  (p :* (d_a_43 + d_b_43) * d_n_m13 / d_n -: 2) /: q.

(** /repo/src/functionals/pz81c.hpp 29-31 *)
Definition pz81eps_Eld (x : expr) (CB1B2 : list sexp) : expr :=
  arg x @ "pz81eps_Eld.x" in
  sget 0 CB1B2 :/ (1 :+ sget 1 CB1B2 :* EFun Fsqrt x + sget 2 CB1B2 :* x).

(** /repo/src/functionals/pz81c.hpp 37-46 *)
Definition pz81eps : expr :=
  let c : list (list sexp) := [[- 0.1423; 1.0529; 0.3334; 0]; [- 0.0843; 1.3981; 0.2611; 0]; [0.0311; - 0.048; 0.0020; - 0.0116]; [0.01555000000; - 0.0269; 0.0007; - 0.0048]]%sx in
  EIf d_r_s (EConst 1)
    (pz81eps_Ehd d_r_s (aget 2 c) + (pz81eps_Ehd d_r_s (aget 3 c) - pz81eps_Ehd d_r_s (aget 2 c)) * pz81eps_fz)
    (pz81eps_Eld d_r_s (aget 0 c) + (pz81eps_Eld d_r_s (aget 1 c) - pz81eps_Eld d_r_s (aget 0 c)) * pz81eps_fz).

(** /repo/src/functionals/pz81c.cpp 18-20 *)
Definition pz81c : expr :=
  pz81eps * d_n.

(** /repo/src/functionals/p86c.cpp 20-25 *)
Definition p86c_Cg (r : expr) : expr :=
  arg r @ "p86c_Cg.r" in
  let Cx : sexp := 0.001667%sx in
  let Bg : sexp := 0.000007389%sx in
  Cx :+ (0.002568 :+ r * (0.023266 :+ Bg :* r)) / (1 :+ r * (8.723 :+ r * (0.472 :+ 10000 * Bg :* r))).

(** /repo/src/functionals/p86c.cpp 27-38 *)
Definition p86c_Pg : expr :=
  let Fg : sexp := 0.11%sx in
  let Cinf : sexp := 0.004235%sx in
  let fudge : sexp := SEps%sx in
  let pi_expr : sexp := (SPow (9 * SPi) (1.0 / 6.0))%sx in
  pi_expr * Fg * Cinf :* EFun Fsqrt (fudge :+ d_gnn) / (p86c_Cg d_r_s * EPow d_n (7.0 / 6.0)).

(** /repo/src/functionals/p86c.cpp 40-43 *)
Definition p86c_dz : expr :=
  SCbrt 2.0 :* EFun Fsqrt (EPow d_a (5.0 / 3.0) + EPow d_b (5.0 / 3.0)) * EPow d_n (- 5.0 / 6.0).

(** /repo/src/functionals/p86c.cpp 45-48 *)
Definition p86c : expr :=
  d_n * pz81eps + EFun Fexp (- p86c_Pg) * p86c_Cg d_r_s * d_gnn / (EPow d_n (4.0 / 3.0) * p86c_dz).

(** /repo/src/functionals/p86c.cpp 50-52 *)
Definition p86c_p86c_corr : expr :=
  EFun Fexp (- p86c_Pg) * p86c_Cg d_r_s * d_gnn / (EPow d_n (4.0 / 3.0) * p86c_dz).

(** /repo/src/functionals/btk.cpp 17-23 *)
Definition btk_btk_alpha (na : expr) (gaa : expr) : expr :=
  arg na @ "btk_btk_alpha.na" in
  arg gaa @ "btk_btk_alpha.gaa" in
  let qav : sexp := 0.3434125%sx in
  let beta : sexp := 1.990328%sx in
  let fudge : sexp := (1e-24)%sx in
  num na53 @ "btk_btk_alpha.na53" := EPow na (5.0 / 3.0) in
  beta :* na53 * EPow (fudge :+ gaa) (0.5 * qav) / EPow na (4.0 / 3.0 * qav).

(** /repo/src/functionals/btk.cpp 25-27 *)
Definition btk : expr :=
  0.5 :* (btk_btk_alpha (2 :* d_a) (4 :* d_gaa) + btk_btk_alpha (2 :* d_b) (4 :* d_gbb)).

(** /repo/src/functionals/vonw.cpp 17-19 *)
Definition vonw_vW_alpha (na : expr) (gaa : expr) : expr :=
  arg na @ "vonw_vW_alpha.na" in
  arg gaa @ "vonw_vW_alpha.gaa" in
  gaa / (8 :* na).

(** /repo/src/functionals/vonw.cpp 21-23 *)
Definition vonw_vW : expr :=
  vonw_vW_alpha d_a d_gaa + vonw_vW_alpha d_b d_gbb.

(** /repo/src/functionals/b97x.hpp 33 *)
Definition b97x_c_Gamma : sexp := 0.004.

(** /repo/src/functionals/b97x.hpp 30 *)
Definition b97x_c_b97 : list sexp := [0.8094; 0.5073; 0.7481].

(** /repo/src/functionals/b97xc.hpp 22-26 *)
Definition b97xc_spin_dens_gradient_ab2 (gaa : expr) (a_43 : expr) : expr :=
  arg gaa @ "b97xc_spin_dens_gradient_ab2.gaa" in
  arg a_43 @ "b97xc_spin_dens_gradient_ab2.a_43" in
  EAbs gaa / a_43 / a_43.

(** /repo/src/functionals/b97x.hpp 24-26 *)
Definition b97x_e_x_LSDA_ab (a_43 : expr) : expr :=
  arg a_43 @ "b97x_e_x_LSDA_ab.a_43" in
  - 0.9305257363491002 :* a_43.

(** /repo/src/functionals/b97xc.hpp 28-32 *)
Definition b97xc_ux_ab (Gamma : sexp) (spin_dens_grad : expr) : expr :=
  arg spin_dens_grad @ "b97xc_ux_ab.spin_dens_grad" in
  Gamma :* spin_dens_grad / (1.0 :+ Gamma :* spin_dens_grad).

(** /repo/src/functionals/b97xc.hpp 34-41 *)
Definition b97xc_enhancement (Gamma : sexp) (c_params : list sexp) (spin_dens_grad : expr) : expr :=
  arg spin_dens_grad @ "b97xc_enhancement.spin_dens_grad" in
  num ux @ "b97xc_enhancement.ux" := b97xc_ux_ab Gamma spin_dens_grad in
  sget 0 c_params :+ sget 1 c_params :* ux + sget 2 c_params :* ux * ux.

(** /repo/src/functionals/b97x.hpp 35-42 *)
Definition b97x_energy_b97x_ab (Gamma : sexp) (c_params : list sexp) (a_43 : expr) (gaa : expr) : expr :=
  arg a_43 @ "b97x_energy_b97x_ab.a_43" in
  arg gaa @ "b97x_energy_b97x_ab.gaa" in
  num s2_ab @ "b97x_energy_b97x_ab.s2_ab" := b97xc_spin_dens_gradient_ab2 gaa a_43 in
  b97x_e_x_LSDA_ab a_43 * b97xc_enhancement Gamma c_params s2_ab.

(** /repo/src/functionals/b97xc.cpp 20-23 *)
Definition b97xc_b97x_en : expr :=
  b97x_energy_b97x_ab b97x_c_Gamma b97x_c_b97 d_a_43 d_gaa + b97x_energy_b97x_ab b97x_c_Gamma b97x_c_b97 d_b_43 d_gbb.

(** /repo/src/functionals/b97c.hpp 33 *)
Definition b97c_c_Gamma_par : sexp := 0.2.

(** /repo/src/functionals/b97c.hpp 25 *)
Definition b97c_c_b97 : list (list sexp) := [[0.9454; 0.7471; - 4.5961]; [0.1737; 2.3487; - 2.4868]].

(** /repo/src/functionals/b97c.hpp 36-46 *)
Definition b97c_energy_b97c_par (Gamma : sexp) (c_params : list sexp) (a : expr) (a_43 : expr) (gaa : expr) (e_LSDA : string) (ret : string) (rest : expr) : expr :=
  arg a @ "b97c_energy_b97c_par.a" in
  arg a_43 @ "b97c_energy_b97c_par.a_43" in
  arg gaa @ "b97c_energy_b97c_par.gaa" in
  num e_LSDA_v @@ e_LSDA := pw92eps_pw92eps_polarized a * a in
  num s2_ab2 @ "b97c_energy_b97c_par.s2_ab2" := b97xc_spin_dens_gradient_ab2 gaa a_43 in
  ELet ret (e_LSDA_v * b97xc_enhancement Gamma c_params s2_ab2) rest.

(** /repo/src/functionals/b97c.hpp 34 *)
Definition b97c_c_Gamma_antipar : sexp := 0.006.

(** /repo/src/functionals/b97c.hpp 48-59 *)
Definition b97c_energy_b97c_antipar (Gamma : sexp) (c_params : list sexp) (e_LSDA_a : expr) (e_LSDA_b : expr) : expr :=
  arg e_LSDA_a @ "b97c_energy_b97c_antipar.e_LSDA_a" in
  arg e_LSDA_b @ "b97c_energy_b97c_antipar.e_LSDA_b" in
  num e_LSDA @ "b97c_energy_b97c_antipar.e_LSDA" := pw92eps * d_n - e_LSDA_a - e_LSDA_b in
  num s2_ab @ "b97c_energy_b97c_antipar.s2_ab" := 0.5 :* (b97xc_spin_dens_gradient_ab2 d_gaa d_a_43 + b97xc_spin_dens_gradient_ab2 d_gbb d_b_43) in
  e_LSDA * b97xc_enhancement Gamma c_params s2_ab.

(** /repo/src/functionals/b97xc.cpp 25-34 *)
Definition b97xc_b97c_en : expr :=
  let e_LSDA_a := EVar "b97xc_b97c_en.e_LSDA_a" in
  let e_LSDA_b := EVar "b97xc_b97c_en.e_LSDA_b" in
  let tmp := EVar "b97xc_b97c_en.tmp" in
  b97c_energy_b97c_par b97c_c_Gamma_par (aget 1 b97c_c_b97) d_a d_a_43 d_gaa "b97xc_b97c_en.e_LSDA_a" "b97xc_b97c_en.ret1" (
  b97c_energy_b97c_par b97c_c_Gamma_par (aget 1 b97c_c_b97) d_b d_b_43 d_gbb "b97xc_b97c_en.e_LSDA_b" "b97xc_b97c_en.ret2" (
  num tmp @ "b97xc_b97c_en.tmp" := EVar "b97xc_b97c_en.ret1" + EVar "b97xc_b97c_en.ret2" in
  tmp + b97c_energy_b97c_antipar b97c_c_Gamma_antipar (aget 0 b97c_c_b97) e_LSDA_a e_LSDA_b)).

(** /repo/src/functionals/b97x.hpp 31 *)
Definition b97x_c_b97_1 : list sexp := [0.789518; 0.573805; 0.660975].

(** /repo/src/functionals/b97-1xc.cpp 20-23 *)
Definition b97_1xc_b97_1x_en : expr :=
  b97x_energy_b97x_ab b97x_c_Gamma b97x_c_b97_1 d_a_43 d_gaa + b97x_energy_b97x_ab b97x_c_Gamma b97x_c_b97_1 d_b_43 d_gbb.

(** /repo/src/functionals/b97c.hpp 27 *)
Definition b97c_c_b97_1 : list (list sexp) := [[0.955689; 0.788552; - 5.47869]; [0.0820011; 2.71681; - 2.87103]].

(** /repo/src/functionals/b97-1xc.cpp 25-34 *)
Definition b97_1xc_b97_1c_en : expr :=
  let e_LSDA_a := EVar "b97_1xc_b97_1c_en.e_LSDA_a" in
  let e_LSDA_b := EVar "b97_1xc_b97_1c_en.e_LSDA_b" in
  let tmp := EVar "b97_1xc_b97_1c_en.tmp" in
  b97c_energy_b97c_par b97c_c_Gamma_par (aget 1 b97c_c_b97_1) d_a d_a_43 d_gaa "b97_1xc_b97_1c_en.e_LSDA_a" "b97_1xc_b97_1c_en.ret1" (
  b97c_energy_b97c_par b97c_c_Gamma_par (aget 1 b97c_c_b97_1) d_b d_b_43 d_gbb "b97_1xc_b97_1c_en.e_LSDA_b" "b97_1xc_b97_1c_en.ret2" (
  num tmp @ "b97_1xc_b97_1c_en.tmp" := EVar "b97_1xc_b97_1c_en.ret1" + EVar "b97_1xc_b97_1c_en.ret2" in
  tmp + b97c_energy_b97c_antipar b97c_c_Gamma_antipar (aget 0 b97c_c_b97_1) e_LSDA_a e_LSDA_b)).

(** /repo/src/functionals/b97x.hpp 32 *)
Definition b97x_c_b97_2 : list sexp := [0.827642; 0.047840; 1.76125].

(** /repo/src/functionals/b97-2xc.cpp 20-23 *)
Definition b97_2xc_b97_2x_en : expr :=
  b97x_energy_b97x_ab b97x_c_Gamma b97x_c_b97_2 d_a_43 d_gaa + b97x_energy_b97x_ab b97x_c_Gamma b97x_c_b97_2 d_b_43 d_gbb.

(** /repo/src/functionals/b97c.hpp 30 *)
Definition b97c_c_b97_2 : list (list sexp) := [[0.999849; 1.40626; - 7.44060]; [0.585808; - 0.691682; 0.394796]].

(** /repo/src/functionals/b97-2xc.cpp 25-34 *)
Definition b97_2xc_b97_2c_en : expr :=
  let e_LSDA_a := EVar "b97_2xc_b97_2c_en.e_LSDA_a" in
  let e_LSDA_b := EVar "b97_2xc_b97_2c_en.e_LSDA_b" in
  let tmp := EVar "b97_2xc_b97_2c_en.tmp" in
  b97c_energy_b97c_par b97c_c_Gamma_par (aget 1 b97c_c_b97_2) d_a d_a_43 d_gaa "b97_2xc_b97_2c_en.e_LSDA_a" "b97_2xc_b97_2c_en.ret1" (
  b97c_energy_b97c_par b97c_c_Gamma_par (aget 1 b97c_c_b97_2) d_b d_b_43 d_gbb "b97_2xc_b97_2c_en.e_LSDA_b" "b97_2xc_b97_2c_en.ret2" (
  num tmp @ "b97_2xc_b97_2c_en.tmp" := EVar "b97_2xc_b97_2c_en.ret1" + EVar "b97_2xc_b97_2c_en.ret2" in
  tmp + b97c_energy_b97c_antipar b97c_c_Gamma_antipar (aget 0 b97c_c_b97_2) e_LSDA_a e_LSDA_b)).

(** /repo/src/functionals/cs.cpp 17-27 *)
Definition cs_csc : expr :=
  let a : sexp := 1.0%sx in
  let b : sexp := 1.0%sx in
  let c : sexp := 1.0%sx in
  let dpar : sexp := 1.0%sx in
  num gamma @ "cs_csc.gamma" := 2 :* (1 :- (d_a * d_a + d_b * d_b) / (d_n * d_n)) in
  num curv @ "cs_csc.curv" := d_a * d_taua + d_b * d_taub - 1.0 / 8.0 :* d_gnn - (d_jpaa + d_jpbb) in
  - a :* gamma * (d_n + 2 * b :* EPow d_n (- 5.0 / 3.0) * curv * EFun Fexp (- c :* d_n_m13)) / (1 :+ dpar :* d_n_m13).

(** /repo/src/functionals/apbec.cpp 20-22 *)
Definition apbec_phi : expr :=
  SPow 2.0 (- 1.0 / 3.0) :* d_n_m13 * d_n_m13 * (EFun Fsqrt d_a_43 + EFun Fsqrt d_b_43).

(** /repo/src/functionals/apbec.cpp 24-38 *)
Definition apbec_energy : expr :=
  let beta : sexp := 0.079030523241%sx in
  num bg @ "apbec_energy.bg" := EConst (beta / c_param_gamma) in
  num eps @ "apbec_energy.eps" := pw92eps in
  num u @ "apbec_energy.u" := apbec_phi in
  num u3 @ "apbec_energy.u3" := epow3 u in
  num d2 @ "apbec_energy.d2" := SPow (1.0 / 12 * SPow 3 (5.0 / 6.0) / SPow SPi (- 1.0 / 6)) 2.0 :* d_gnn / (u * u * EPow d_n (7.0 / 3.0)) in
  num A @ "apbec_energy.A" := bg / EFun Fexpm1 (- eps / (c_param_gamma :* u3)) in
  num d2A @ "apbec_energy.d2A" := d2 * A in
  num H @ "apbec_energy.H" := c_param_gamma :* u3 * EFun Flog (1 :+ bg * d2 * (1 :+ d2A) / (1 :+ d2A * (1 :+ d2A))) in
  d_n * (eps + H).

(** /repo/src/functionals/apbex.cpp 18-26 *)
Definition apbex_apbe_enhancement (na : expr) (gaa : expr) : expr :=
  arg na @ "apbex_apbe_enhancement.na" in
  arg gaa @ "apbex_apbe_enhancement.gaa" in
  let mu : sexp := 0.26%sx in
  let kappa : sexp := 0.804%sx in
  num st2 @ "apbex_apbe_enhancement.st2" := pw91_like_x_internal_S2 na gaa in
  num t1 @ "apbex_apbe_enhancement.t1" := 1 :+ mu :* st2 /: kappa in
  1 + kappa :- kappa :/ t1.

(** /repo/src/functionals/apbex.cpp 28-34 *)
Definition apbex_energy_apbex (na : expr) (gaa : expr) : expr :=
  arg na @ "apbex_energy_apbex.na" in
  arg gaa @ "apbex_energy_apbex.gaa" in
  let c : sexp := (SPow (81 / (4 * SPi)) (1.0 / 3.0) / 2)%sx in
  num na43 @ "apbex_energy_apbex.na43" := EPow na (4.0 / 3.0) in
  num lda @ "apbex_energy_apbex.lda" := - c :* na43 in
  num apbex @ "apbex_energy_apbex.apbex" := lda * apbex_apbe_enhancement na gaa in
  apbex.

(** /repo/src/functionals/apbex.cpp 36-38 *)
Definition apbex_energy : expr :=
  apbex_energy_apbex d_a d_gaa + apbex_energy_apbex d_b d_gbb.

(** /repo/src/functionals/zvpbesolc.cpp 20-22 *)
Definition zvpbesolc_phi : expr :=
  SPow 2.0 (- 1.0 / 3.0) :* d_n_m13 * d_n_m13 * (EFun Fsqrt d_a_43 + EFun Fsqrt d_b_43).

(** /repo/src/functionals/zvpbesolc.cpp 24-93 *)
Definition zvpbesolc_energy : expr :=
  let beta : sexp := 0.046%sx in
  let alpha : sexp := 1.8%sx in
  num bg @ "zvpbesolc_energy.bg" := EConst (beta / c_param_gamma) in
  num eps @ "zvpbesolc_energy.eps" := pw92eps in
  num u @ "zvpbesolc_energy.u" := zvpbesolc_phi in
  num u3 @ "zvpbesolc_energy.u3" := epow3 u in
  num d2 @ "zvpbesolc_energy.d2" := SPow (1.0 / 12 * SPow 3 (5.0 / 6.0) / SPow SPi (- 1.0 / 6)) 2.0 :* d_gnn / (u * u * EPow d_n (7.0 / 3.0)) in
  num tt @ "zvpbesolc_energy.tt" := EPow d2 0.5 in
  num v @ "zvpbesolc_energy.v" := tt * u * EPow (d_r_s /: 3.0) (- 1.0 / 6.0) in
  num v3 @ "zvpbesolc_energy.v3" := epow3 v in
  num zw @ "zvpbesolc_energy.zw" := (0.462757 :+ 1.30129 :* d_zeta * d_zeta - 1.59546 :* d_zeta * d_zeta * d_zeta * d_zeta + 1.19635 :* d_zeta * d_zeta * d_zeta * d_zeta * d_zeta * d_zeta - 0.36519 :* d_zeta * d_zeta * d_zeta * d_zeta * d_zeta * d_zeta * d_zeta * d_zeta) * d_zeta * d_zeta * d_zeta * d_zeta in
  num ff @ "zvpbesolc_energy.ff" := EFun Fexp (- alpha :* v3 * zw) in
  num A @ "zvpbesolc_energy.A" := bg / EFun Fexpm1 (- eps / (c_param_gamma :* u3)) in
  num d2A @ "zvpbesolc_energy.d2A" := d2 * A in
  num H @ "zvpbesolc_energy.H" := c_param_gamma :* u3 * EFun Flog (1 :+ bg * d2 * (1 :+ d2A) / (1 :+ d2A * (1 :+ d2A))) in
  d_n * (eps + ff * H).

(** /repo/src/functionals/blocx.cpp 18-47 *)
Definition blocx_energy_blocx (d_n : expr) (d_gnn : expr) (d_tau : expr) : expr :=
  arg d_n @ "blocx_energy_blocx.d_n" in
  arg d_gnn @ "blocx_energy_blocx.d_gnn" in
  arg d_tau @ "blocx_energy_blocx.d_tau" in
  let kappa : sexp := 0.804%sx in
  let mu : sexp := 0.21951%sx in
  let b : sexp := 0.40%sx in
  let e : sexp := 1.537%sx in
  let c : sexp := 1.59096%sx in
  num p0 @ "blocx_energy_blocx.p0" := 1.0 :/ (4 * SPow (3 * c_PI2) (2.0 / 3.0) :* EPow d_n (8.0 / 3.0)) in
  num p @ "blocx_energy_blocx.p" := d_gnn * p0 in
  num tauw @ "blocx_energy_blocx.tauw" := d_gnn / (8.0 :* d_n) in
  num z @ "blocx_energy_blocx.z" := tauw / d_tau in
  num z2 @ "blocx_energy_blocx.z2" := epow2 z in
  num tau_unif @ "blocx_energy_blocx.tau_unif" := 0.3 * SPow (3 * c_PI2) (2.0 / 3.0) :* EPow d_n (5.0 / 3.0) in
  num alpha @ "blocx_energy_blocx.alpha" := (d_tau - tauw) / tau_unif in
  num q_b @ "blocx_energy_blocx.q_b" := 9.0 / 20.0 :* (alpha -: 1) / EFun Fsqrt (1 :+ b :* alpha * (alpha -: 1)) + 2 :* p /: 3.0 in
  num ff @ "blocx_energy_blocx.ff" := 4 :- 3.3 :* z in
  num zf @ "blocx_energy_blocx.zf" := EFun Fexp (EFun Flog z * ff) in
  num tmp1 @ "blocx_energy_blocx.tmp1" := p * (10.0 / 81.0 :+ c :* zf / epow2 (1 :+ z2)) in
  num tmp2 @ "blocx_energy_blocx.tmp2" := 146.0 :* epow2 q_b /: 2025.0 in
  num tmp3 @ "blocx_energy_blocx.tmp3" := - 73.0 / 405.0 :* q_b * d_gnn * EFun Fsqrt (0.5 * 0.6 * 0.6 :* EPowI (8 :* d_n * d_tau) (-2) + 0.5 :* p0 * p0) in
  num tmp4 @ "blocx_energy_blocx.tmp4" := epow2 (p *: 10.0 /: 81.0) /: kappa in
  num tmp5 @ "blocx_energy_blocx.tmp5" := 2 * SSqrt e * 0.6 * 0.6 :* z2 *: 10.0 /: 81.0 + e * mu :* epow3 p in
  num tmp6 @ "blocx_energy_blocx.tmp6" := tmp1 + tmp2 + tmp3 + tmp4 + tmp5 in
  num x @ "blocx_energy_blocx.x" := tmp6 / epow2 (1 :+ SSqrt e :* p) in
  num Fx @ "blocx_energy_blocx.Fx" := 1 + kappa :- kappa :/ (1 :+ x /: kappa) in
  num lda @ "blocx_energy_blocx.lda" := - 0.75 * SPow (3 / c_PI) (1.0 / 3.0) :* EPow d_n (4.0 / 3.0) in
  lda * Fx.

(** /repo/src/functionals/blocx.cpp 49-53 *)
Definition blocx_energy : expr :=
  num enea @ "blocx_energy.enea" := blocx_energy_blocx (2 :* d_a) (4 :* d_gaa) (2 :* d_taua) in
  num eneb @ "blocx_energy.eneb" := blocx_energy_blocx (2 :* d_b) (4 :* d_gbb) (2 :* d_taub) in
  (enea + eneb) /: 2.

(** /repo/src/functionals/pbeintc.cpp 20-22 *)
Definition pbeintc_phi : expr :=
  SPow 2.0 (- 1.0 / 3.0) :* d_n_m13 * d_n_m13 * (EFun Fsqrt d_a_43 + EFun Fsqrt d_b_43).

(** /repo/src/functionals/pbeintc.cpp 24-38 *)
Definition pbeintc_energy : expr :=
  let beta : sexp := 0.052%sx in
  num bg @ "pbeintc_energy.bg" := EConst (beta / c_param_gamma) in
  num eps @ "pbeintc_energy.eps" := pw92eps in
  num u @ "pbeintc_energy.u" := pbeintc_phi in
  num u3 @ "pbeintc_energy.u3" := epow3 u in
  num d2 @ "pbeintc_energy.d2" := SPow (1.0 / 12 * SPow 3 (5.0 / 6.0) / SPow SPi (- 1.0 / 6)) 2.0 :* d_gnn / (u * u * EPow d_n (7.0 / 3.0)) in
  num A @ "pbeintc_energy.A" := bg / EFun Fexpm1 (- eps / (c_param_gamma :* u3)) in
  num d2A @ "pbeintc_energy.d2A" := d2 * A in
  num H @ "pbeintc_energy.H" := c_param_gamma :* u3 * EFun Flog (1 :+ bg * d2 * (1 :+ d2A) / (1 :+ d2A * (1 :+ d2A))) in
  d_n * (eps + H).

(** /repo/src/functionals/pbeintx.cpp 18-29 *)
Definition pbeintx_pbeint_enhancement (na : expr) (gaa : expr) : expr :=
  arg na @ "pbeintx_pbeint_enhancement.na" in
  arg gaa @ "pbeintx_pbeint_enhancement.gaa" in
  let mupbe : sexp := 0.21951%sx in
  let muge : sexp := 0.123456790123%sx in
  let kappa : sexp := 0.804%sx in
  let alpha : sexp := 0.197%sx in
  num st2 @ "pbeintx_pbeint_enhancement.st2" := pw91_like_x_internal_S2 na gaa in
  num mu @ "pbeintx_pbeint_enhancement.mu" := muge :+ (mupbe - muge) * alpha :* st2 / (1 :+ alpha :* st2) in
  num t1 @ "pbeintx_pbeint_enhancement.t1" := 1 :+ mu * st2 /: kappa in
  1 + kappa :- kappa :/ t1.

(** /repo/src/functionals/pbeintx.cpp 31-37 *)
Definition pbeintx_energy_pbeintx (na : expr) (gaa : expr) : expr :=
  arg na @ "pbeintx_energy_pbeintx.na" in
  arg gaa @ "pbeintx_energy_pbeintx.gaa" in
  let c : sexp := (SPow (81 / (4 * SPi)) (1.0 / 3.0) / 2)%sx in
  num na43 @ "pbeintx_energy_pbeintx.na43" := EPow na (4.0 / 3.0) in
  num lda @ "pbeintx_energy_pbeintx.lda" := - c :* na43 in
  num pbeintx @ "pbeintx_energy_pbeintx.pbeintx" := lda * pbeintx_pbeint_enhancement na gaa in
  pbeintx.

(** /repo/src/functionals/pbeintx.cpp 39-41 *)
Definition pbeintx_energy : expr :=
  pbeintx_energy_pbeintx d_a d_gaa + pbeintx_energy_pbeintx d_b d_gbb.

(** /repo/src/functionals/pbelocc.cpp 20-22 *)
Definition pbelocc_phi : expr :=
  SPow 2.0 (- 1.0 / 3.0) :* d_n_m13 * d_n_m13 * (EFun Fsqrt d_a_43 + EFun Fsqrt d_b_43).

(** /repo/src/functionals/pbelocc.cpp 24-41 *)
Definition pbelocc_energy : expr :=
  let beta0 : sexp := 0.0375%sx in
  let aa : sexp := 0.08%sx in
  num u @ "pbelocc_energy.u" := pbelocc_phi in
  num u3 @ "pbelocc_energy.u3" := epow3 u in
  num d2 @ "pbelocc_energy.d2" := SPow (1.0 / 12 * SPow 3 (5.0 / 6.0) / SPow SPi (- 1.0 / 6)) 2.0 :* d_gnn / (u * u * EPow d_n (7.0 / 3.0)) in
  num ff @ "pbelocc_energy.ff" := 1 :- EFun Fexp (- d_r_s * d_r_s) in
  num beta @ "pbelocc_energy.beta" := beta0 :+ aa :* d2 * ff in
  num bg @ "pbelocc_energy.bg" := beta /: c_param_gamma in
  num eps @ "pbelocc_energy.eps" := pw92eps in
  num A @ "pbelocc_energy.A" := bg / EFun Fexpm1 (- eps / (c_param_gamma :* u3)) in
  num d2A @ "pbelocc_energy.d2A" := d2 * A in
  num H @ "pbelocc_energy.H" := c_param_gamma :* u3 * EFun Flog (1 :+ bg * d2 * (1 :+ d2A) / (1 :+ d2A * (1 :+ d2A))) in
  d_n * (eps + H).

(** /repo/src/functionals/pbesolx.cpp 18-27 *)
Definition pbesolx_pbesol_enhancement (na : expr) (gaa : expr) : expr :=
  arg na @ "pbesolx_pbesol_enhancement.na" in
  arg gaa @ "pbesolx_pbesol_enhancement.gaa" in
  let muge : sexp := 0.123456790123%sx in
  let kappa : sexp := 0.804%sx in
  num st2 @ "pbesolx_pbesol_enhancement.st2" := pw91_like_x_internal_S2 na gaa in
  num mu @ "pbesolx_pbesol_enhancement.mu" := EConst muge in
  num t1 @ "pbesolx_pbesol_enhancement.t1" := 1 :+ mu * st2 /: kappa in
  1 + kappa :- kappa :/ t1.

(** /repo/src/functionals/pbesolx.cpp 29-35 *)
Definition pbesolx_energy_pbesolx (na : expr) (gaa : expr) : expr :=
  arg na @ "pbesolx_energy_pbesolx.na" in
  arg gaa @ "pbesolx_energy_pbesolx.gaa" in
  let c : sexp := (SPow (81 / (4 * SPi)) (1.0 / 3.0) / 2)%sx in
  num na43 @ "pbesolx_energy_pbesolx.na43" := EPow na (4.0 / 3.0) in
  num lda @ "pbesolx_energy_pbesolx.lda" := - c :* na43 in
  num pbesolx @ "pbesolx_energy_pbesolx.pbesolx" := lda * pbesolx_pbesol_enhancement na gaa in
  pbesolx.

(** /repo/src/functionals/pbesolx.cpp 37-39 *)
Definition pbesolx_energy : expr :=
  pbesolx_energy_pbesolx d_a d_gaa + pbesolx_energy_pbesolx d_b d_gbb.

(** /repo/src/functionals/tpsslocc.cpp 20-22 *)
Definition tpsslocc_phi : expr :=
  SPow 2.0 (- 1.0 / 3.0) :* d_n_m13 * d_n_m13 * (EFun Fsqrt d_a_43 + EFun Fsqrt d_b_43).

(** /repo/src/functionals/tpsslocc.cpp 24-41 *)
Definition tpsslocc_pbeloc_eps : expr :=
  let beta0 : sexp := 0.0375%sx in
  let aa : sexp := 0.08%sx in
  num u @ "tpsslocc_pbeloc_eps.u" := tpsslocc_phi in
  num u3 @ "tpsslocc_pbeloc_eps.u3" := epow3 u in
  num d2 @ "tpsslocc_pbeloc_eps.d2" := SPow (1.0 / 12 * SPow 3 (5.0 / 6.0) / SPow SPi (- 1.0 / 6)) 2.0 :* d_gnn / (u * u * EPow d_n (7.0 / 3.0)) in
  num ff @ "tpsslocc_pbeloc_eps.ff" := 1 :- EFun Fexp (- d_r_s * d_r_s) in
  num beta @ "tpsslocc_pbeloc_eps.beta" := beta0 :+ aa :* d2 * ff in
  num bg @ "tpsslocc_pbeloc_eps.bg" := beta /: c_param_gamma in
  num eps @ "tpsslocc_pbeloc_eps.eps" := pw92eps in
  num A @ "tpsslocc_pbeloc_eps.A" := bg / EFun Fexpm1 (- eps / (c_param_gamma :* u3)) in
  num d2A @ "tpsslocc_pbeloc_eps.d2A" := d2 * A in
  num H @ "tpsslocc_pbeloc_eps.H" := c_param_gamma :* u3 * EFun Flog (1 :+ bg * d2 * (1 :+ d2A) / (1 :+ d2A * (1 :+ d2A))) in
  eps + H.

(** /repo/src/functionals/tpsslocc.cpp 43-61 *)
Definition tpsslocc_pbeloc_eps_pola (a : expr) (gaa : expr) : expr :=
  arg a @ "tpsslocc_pbeloc_eps_pola.a" in
  arg gaa @ "tpsslocc_pbeloc_eps_pola.gaa" in
  let beta0 : sexp := 0.0375%sx in
  let aa : sexp := 0.08%sx in
  num u @ "tpsslocc_pbeloc_eps_pola.u" := EConst (SPow 2.0 (- 1.0 / 3.0)) in
  num u3 @ "tpsslocc_pbeloc_eps_pola.u3" := epow3 u in
  num d2 @ "tpsslocc_pbeloc_eps_pola.d2" := SPow (1.0 / 12 * SPow 3 (5.0 / 6.0) / SPow SPi (- 1.0 / 6)) 2.0 :* gaa / (u * u * EPow a (7.0 / 3.0)) in
  num rs @ "tpsslocc_pbeloc_eps_pola.rs" := SPow (3 / (4 * SPi)) (1.0 / 3.0) :* EPow a (- 1.0 / 3.0) in
  num ff @ "tpsslocc_pbeloc_eps_pola.ff" := 1 :- EFun Fexp (- rs * rs) in
  num beta @ "tpsslocc_pbeloc_eps_pola.beta" := beta0 :+ aa :* d2 * ff in
  num bg @ "tpsslocc_pbeloc_eps_pola.bg" := beta /: c_param_gamma in
  num eps @ "tpsslocc_pbeloc_eps_pola.eps" := pw92eps_pw92eps_polarized a in
  num A @ "tpsslocc_pbeloc_eps_pola.A" := bg / EFun Fexpm1 (- eps / (c_param_gamma :* u3)) in
  num d2A @ "tpsslocc_pbeloc_eps_pola.d2A" := d2 * A in
  num H @ "tpsslocc_pbeloc_eps_pola.H" := c_param_gamma :* u3 * EFun Flog (1 :+ bg * d2 * (1 :+ d2A) / (1 :+ d2A * (1 :+ d2A))) in
  eps + H.

(** /repo/src/functionals/tpsslocc.cpp 72-82 *)
Definition tpsslocc_epsc_summax : expr :=
  num epsc_pbeloc @ "tpsslocc_epsc_summax.epsc_pbeloc" := tpsslocc_pbeloc_eps in
  num epsc_pbeloc_a @ "tpsslocc_epsc_summax.epsc_pbeloc_a" := tpsslocc_pbeloc_eps_pola d_a d_gaa in
  num epsc_pbeloc_b @ "tpsslocc_epsc_summax.epsc_pbeloc_b" := tpsslocc_pbeloc_eps_pola d_b d_gbb in
  (d_a * EMax epsc_pbeloc epsc_pbeloc_a + d_b * EMax epsc_pbeloc epsc_pbeloc_b) / d_n.

(** /repo/src/functionals/tpsslocc.cpp 63-70 *)
Definition tpsslocc_C : expr :=
  num gzeta2 @ "tpsslocc_C.gzeta2" := (epow2 d_n * d_gss - 2 :* d_n * d_s * d_gns + epow2 d_s * d_gnn) / EPowI d_n 4 in
  num xi2 @ "tpsslocc_C.xi2" := gzeta2 / (4 :* EPow (3 * spow2 SPi :* d_n) (2.0 / 3.0)) in
  num C0 @ "tpsslocc_C.C0" := 0.35 :+ 0.87 :* epow2 d_zeta + 0.50 :* EPowI d_zeta 4 + 2.26 :* EPowI d_zeta 6 in
  C0 * EPowI (1 :+ 0.5 :* xi2 * eufunc d_zeta (- 4.0 / 3.0)) (-4).

(** /repo/src/functionals/tpsslocc.cpp 84-90 *)
Definition tpsslocc_epsc_revpkzb : expr :=
  num tauwtau2 @ "tpsslocc_epsc_revpkzb.tauwtau2" := epow2 (d_gnn / (8.0 :* d_n * d_tau)) in
  num epsc_sum @ "tpsslocc_epsc_revpkzb.epsc_sum" := tpsslocc_epsc_summax in
  num epsc_pbeloc @ "tpsslocc_epsc_revpkzb.epsc_pbeloc" := tpsslocc_pbeloc_eps in
  num CC @ "tpsslocc_epsc_revpkzb.CC" := tpsslocc_C in
  epsc_pbeloc * (1 :+ CC * tauwtau2) - (1 :+ CC) * tauwtau2 * epsc_sum.

(** /repo/src/functionals/tpsslocc.cpp 92-97 *)
Definition tpsslocc_energy : expr :=
  num eps_pkzb @ "tpsslocc_energy.eps_pkzb" := tpsslocc_epsc_revpkzb in
  num tauwtau3 @ "tpsslocc_energy.tauwtau3" := epow3 (d_gnn / (8.0 :* d_n * d_tau)) in
  let dd : sexp := 4.5%sx in
  d_n * eps_pkzb * (1 :+ dd :* eps_pkzb * tauwtau3).

(** /repo/src/functionals/zvpbeint.cpp 20-22 *)
Definition zvpbeint_phi : expr :=
  SPow 2.0 (- 1.0 / 3.0) :* d_n_m13 * d_n_m13 * (EFun Fsqrt d_a_43 + EFun Fsqrt d_b_43).

(** /repo/src/functionals/zvpbeint.cpp 24-55 *)
Definition zvpbeint_energy : expr :=
  let beta : sexp := 0.052%sx in
  let alpha : sexp := 1.0%sx in
  num bg @ "zvpbeint_energy.bg" := EConst (beta / c_param_gamma) in
  num eps @ "zvpbeint_energy.eps" := pw92eps in
  num u @ "zvpbeint_energy.u" := zvpbeint_phi in
  num u3 @ "zvpbeint_energy.u3" := epow3 u in
  num d2 @ "zvpbeint_energy.d2" := SPow (1.0 / 12 * SPow 3 (5.0 / 6.0) / SPow SPi (- 1.0 / 6)) 2.0 :* d_gnn / (u * u * EPow d_n (7.0 / 3.0)) in
  num tt @ "zvpbeint_energy.tt" := EPow d2 0.5 in
  num v @ "zvpbeint_energy.v" := tt * u * EPow (d_r_s /: 3.0) (- 1.0 / 6.0) in
  num v3 @ "zvpbeint_energy.v3" := epow3 v in
  num zw @ "zvpbeint_energy.zw" := (0.462757 :+ 1.30129 :* d_zeta * d_zeta - 1.59546 :* d_zeta * d_zeta * d_zeta * d_zeta + 1.19635 :* d_zeta * d_zeta * d_zeta * d_zeta * d_zeta * d_zeta - 0.36519 :* d_zeta * d_zeta * d_zeta * d_zeta * d_zeta * d_zeta * d_zeta * d_zeta) * d_zeta * d_zeta * d_zeta * d_zeta in
  num ff @ "zvpbeint_energy.ff" := EFun Fexp (- alpha :* v3 * zw) in
  num A @ "zvpbeint_energy.A" := bg / EFun Fexpm1 (- eps / (c_param_gamma :* u3)) in
  num d2A @ "zvpbeint_energy.d2A" := d2 * A in
  num H @ "zvpbeint_energy.H" := c_param_gamma :* u3 * EFun Flog (1 :+ bg * d2 * (1 :+ d2A) / (1 :+ d2A * (1 :+ d2A))) in
  d_n * (eps + ff * H).

(** /repo/src/functionals/pw91c.cpp 35-37 *)
Definition pw91c_uf (p : sexp) : expr :=
  (EPow d_a p + EPow d_b p) * EPow (2 :/ d_n) p.

(** /repo/src/functionals/pw91c.cpp 18-31 *)
Definition pw91c_Gc (r : expr) (A : sexp) (a1 : sexp) (b1 : sexp) (b2 : sexp) (b3 : sexp) (b4 : sexp) (p : sexp) : expr :=
  arg r @ "pw91c_Gc.r" in
  num sqrtr @ "pw91c_Gc.sqrtr" := EFun Fsqrt r in
  -2 * A :* (1 :+ a1 :* r) * EFun Flog (1 :+ 0.5 :/ (A :* (sqrtr * (b1 :+ sqrtr * (b2 :+ sqrtr *: b3)) + b4 :* EPow r (p + 1)))).

(** /repo/src/functionals/pw91c.cpp 39-87 *)
Definition pw91c : expr :=
  let pa : sexp := 1.0%sx in
  let Aa : sexp := 0.016887%sx in
  let a1a : sexp := 0.11125%sx in
  let b1a : sexp := 10.357%sx in
  let b2a : sexp := 3.6231%sx in
  let b3a : sexp := 0.88026%sx in
  let b4a : sexp := 0.49671%sx in
  let pe : sexp := 1%sx in
  let c0p : sexp := 0.031091%sx in
  let a1p : sexp := 0.21370%sx in
  let b1p : sexp := 7.5957%sx in
  let b2p : sexp := 3.5876%sx in
  let b3p : sexp := 1.6382%sx in
  let b4p : sexp := 0.49294%sx in
  let c0f : sexp := 0.015545%sx in
  let a1f : sexp := 0.20548%sx in
  let b1f : sexp := 14.1189%sx in
  let b2f : sexp := 6.1977%sx in
  let b3f : sexp := 3.3662%sx in
  let b4f : sexp := 0.62517%sx in
  let d2fz0 : sexp := 1.709921%sx in
  num fz @ "pw91c.fz" := (pw91c_uf (4.0 / 3.0) -: 2) /: (2 * SPow 2 (1.0 / 3.0) - 2) in
  num Ac @ "pw91c.Ac" := pw91c_Gc d_r_s Aa a1a b1a b2a b3a b4a pa in
  num EcP @ "pw91c.EcP" := pw91c_Gc d_r_s c0p a1p b1p b2p b3p b4p pe in
  num EcF @ "pw91c.EcF" := pw91c_Gc d_r_s c0f a1f b1f b2f b3f b4f pe in
  num Ec @ "pw91c.Ec" := EcP - Ac * fz * (1 :- EPowI d_zeta 4) /: d2fz0 + (EcF - EcP) * fz * EPowI d_zeta 4 in
  num kF @ "pw91c.kF" := EFun Fcbrt (3 * SPi * SPi :* d_n) in
  num ks @ "pw91c.ks" := SSqrt 4 :* EFun Fsqrt (kF /: SPi) in
  num gs @ "pw91c.gs" := 0.5 :* pw91c_uf (2.0 / 3.0) in
  num T2 @ "pw91c.T2" := 0.25 :* d_gnn / EPowI (gs * ks * d_n) 2 in
  let alpha : sexp := 0.09%sx in
  let Cc0 : sexp := 0.004235%sx in
  let Cx : sexp := (- 0.001667)%sx in
  let nu : sexp := (16 * SCbrt (3 * SPi * SPi) / SPi)%sx in
  let beta : sexp := (nu * Cc0)%sx in
  num A @ "pw91c.A" := 2 * alpha / beta :/ EFun Fexpm1 (-2 :* (alpha :* Ec) / (EPowI gs 3 *: beta *: beta)) in
  num Cc @ "pw91c.Cc" := 1.0 / 1000 :* ((2.568 :+ d_r_s * (23.266 :+ 0.007389 :* d_r_s)) / (1 :+ d_r_s * (8.723 :+ d_r_s * (0.472 :+ d_r_s *: 0.073890)))) -: Cx in
  num H0 @ "pw91c.H0" := 0.5 :* EPowI gs 3 *: beta *: beta /: alpha * EFun Flog (1 :+ 2 :* (alpha :* (T2 + A * T2 * T2)) / (beta :* (1 :+ A * T2 * (1 :+ A * T2)))) in
  num H1 @ "pw91c.H1" := nu :* (Cc -: Cc0 -: 3.0 / 7.0 * Cx) * EPowI gs 3 * T2 * EFun Fexp (-100 :* EPowI gs 4 * EPowI ks 2 * T2 / EPowI kF 2) in
  d_n * (Ec + H0 + H1).


(** ** Registration: functional id -> energy function.
    list_of_functionals.hpp gives the ids, the FUNCTIONAL(...) blocks the functions; the order
    is that of the ids (Tables.v). *)
Definition functionals : list (string * expr) :=
  [("XC_SLATERX", slater_slaterx);
   ("XC_PW86X", pw86x_pw86xtot);
   ("XC_VWN3C", vwn3_vwn3c);
   ("XC_VWN5C", vwn5c);
   ("XC_PBEC", pbec);
   ("XC_PBEX", pbex_pbex_en);
   ("XC_BECKEX", beckex);
   ("XC_BECKECORRX", beckex_beckexcorr);
   ("XC_BECKESRX", beckex_beckesrx);
   ("XC_BECKECAMX", beckex_beckecamx);
   ("XC_BRX", brx);
   ("XC_BRC", brx_brc);
   ("XC_BRXC", brx_brxc);
   ("XC_LDAERFX", ldaerfx_lda_erfx);
   ("XC_LDAERFC", ldaerfc);
   ("XC_LDAERFC_JT", ldaerfc_jt);
   ("XC_LYPC", lypc);
   ("XC_OPTX", optx);
   ("XC_OPTXCORR", optxcorr);
   ("XC_REVPBEX", revpbex);
   ("XC_RPBEX", rpbex);
   ("XC_SPBEC", spbec);
   ("XC_VWN_PBEC", pbec_vwn_pbec);
   ("XC_KTX", ktx);
   ("XC_TFK", tfk);
   ("XC_TW", tw);
   ("XC_PW91X", pw91x);
   ("XC_PW91K", pw91k);
   ("XC_PW92C", pw92c);
   ("XC_M05X", m05x);
   ("XC_M05X2X", m05x2x);
   ("XC_M06X", m06x);
   ("XC_M06X2X", m06x2x);
   ("XC_M06LX", m06lx);
   ("XC_M06HFX", m06hfx);
   ("XC_M05X2C", m05x2c);
   ("XC_M05C", m05c);
   ("XC_M06C", m06c);
   ("XC_M06HFC", m06hfc);
   ("XC_M06LC", m06lc);
   ("XC_M06X2C", m06x2c);
   ("XC_TPSSC", tpssc);
   ("XC_TPSSX", tpssx);
   ("XC_REVTPSSC", revtpssc);
   ("XC_REVTPSSX", revtpssx);
   ("XC_SCANC", SCANc_SCANC);
   ("XC_SCANX", SCANx_SCANX);
   ("XC_RSCANC", rSCANc_rSCANC);
   ("XC_RSCANX", rSCANx_rSCANX);
   ("XC_RPPSCANC", rppSCANc_rppSCANC);
   ("XC_RPPSCANX", rppSCANx_rppSCANX);
   ("XC_R2SCANC", r2SCANc_r2SCANC);
   ("XC_R2SCANX", r2SCANx_r2SCANX);
   ("XC_R4SCANC", r4SCANc_r4SCANC);
   ("XC_R4SCANX", r4SCANx_r4SCANX);
   ("XC_PZ81C", pz81c);
   ("XC_P86C", p86c);
   ("XC_P86CORRC", p86c_p86c_corr);
   ("XC_BTK", btk);
   ("XC_VWK", vonw_vW);
   ("XC_B97X", b97xc_b97x_en);
   ("XC_B97C", b97xc_b97c_en);
   ("XC_B97_1X", b97_1xc_b97_1x_en);
   ("XC_B97_1C", b97_1xc_b97_1c_en);
   ("XC_B97_2X", b97_2xc_b97_2x_en);
   ("XC_B97_2C", b97_2xc_b97_2c_en);
   ("XC_CSC", cs_csc);
   ("XC_APBEC", apbec_energy);
   ("XC_APBEX", apbex_energy);
   ("XC_ZVPBESOLC", zvpbesolc_energy);
   ("XC_BLOCX", blocx_energy);
   ("XC_PBEINTC", pbeintc_energy);
   ("XC_PBEINTX", pbeintx_energy);
   ("XC_PBELOCC", pbelocc_energy);
   ("XC_PBESOLX", pbesolx_energy);
   ("XC_TPSSLOCC", tpsslocc_energy);
   ("XC_ZVPBEINTC", zvpbeint_energy);
   ("XC_PW91C", pw91c)].
