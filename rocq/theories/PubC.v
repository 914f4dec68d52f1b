(** * Correlation functionals agree with the formulas of the literature *)
From Coq Require Import Reals QArith Qreals ZArith Arith Lia Lra List Bool String.
From Coquelicot Require Import Coquelicot.
From Verif Require Import Scalar RInst CTaylor CtAlg TMath Fps TFam TExp Ad Br Expr Functionals Sem AdEval RSem Dom Phys Value Published PubTac PubX.
Import ListNotations.
Local Open Scope R_scope.

Section C.
Variables (st : nat -> R) (x : nat -> R) (fl : fld -> R).
Hypothesis P : phys fl.
Notation V := (tv (st : nat -> T ROps) x fl []).
Lemma n_pos : 0 < fl f_n.
Proof. destruct P. lra. Qed.
Lemma rs_pos n : 0 < rs n.
Proof. unfold rs. pos. Qed.
Lemma sq_rs n : sqrt (rs n) * sqrt (rs n) = rs n.
Proof. apply sqrt_sqrt. left. apply rs_pos. Qed.
Lemma sqrt_rs_pos n : 0 < sqrt (rs n).
Proof. apply sqrt_lt_R0, rs_pos. Qed.
Lemma z_lo : 0 < 1 + fl f_zeta.
Proof. pose proof n_pos. destruct P. rewrite ph_z. replace (1 + (fl f_a - fl f_b) / fl f_n) with (2 * fl f_a / fl f_n) by (rewrite ph_n in *; field; lra). pos. Qed.
Lemma z_hi : 0 < 1 - fl f_zeta.
Proof. pose proof n_pos. destruct P. rewrite ph_z. replace (1 - (fl f_a - fl f_b) / fl f_n) with (2 * fl f_b / fl f_n) by (rewrite ph_n in *; field; lra). pos. Qed.
Lemma z_a : fl f_a = fl f_n * ((1 + fl f_zeta) / 2).
Proof. pose proof n_pos. destruct P. rewrite ph_z. rewrite ph_n in *. field. lra. Qed.
Lemma z_b : fl f_b = fl f_n * ((1 - fl f_zeta) / 2).
Proof. pose proof n_pos. destruct P. rewrite ph_z. rewrite ph_n in *. field. lra. Qed.
(** The interpolation function of Perdew and Wang. *)
Lemma G_gen A a b1 b2 b3 b4 y : 0 < y ->
  - (2 * A) * (a * y * y + 1) * ln (1 / 2 / (A * (y * (y * (y * (b4 * y + b3) + b2) + b1))) + 1) = pw92_G A a b1 b2 b3 b4 (y * y).
Proof.
  intro Y. unfold pw92_G. rewrite sqrt_square by lra.
  replace (1 / 2 / (A * (y * (y * (y * (b4 * y + b3) + b2) + b1))) + 1) with (1 + 1 / (2 * A * (b1 * y + b2 * (y * y) + b3 * (y * y * y) + b4 * (y * y) ^ 2))); [ring|].
  rewrite Rplus_comm. f_equal. unfold Rdiv. rewrite !Rmult_1_l.
  replace (2 * A * (b1 * y + b2 * (y * y) + b3 * (y * y * y) + b4 * (y * y) ^ 2)) with (2 * (A * (y * (y * (y * (b4 * y + b3) + b2) + b1)))) by ring.
  now rewrite Rinv_mult.
Qed.
Ltac G_lit A a b1 b2 b3 b4 Y := rewrite <- (G_gen A a b1 b2 b3 b4 _ Y); repeat f_equal; decs; lra.
Lemma G_0 y : 0 < y -> -310907 / 5000000 * (2137 / 10000 * y * y + 1) * ln (1 / 2 / (310907 / 10000000 * (y * (y * (y * (24647 / 50000 * y + 8191 / 5000) + 8969 / 2500) + 75957 / 10000))) + 1)
  = pw92_G 0.0310907 0.21370 7.5957 3.5876 1.6382 0.49294 (y * y).
Proof. intro Y. G_lit 0.0310907 0.21370 7.5957 3.5876 1.6382 0.49294 Y. Qed.
Lemma G_1 y : 0 < y -> -310907 / 10000000 * (5137 / 25000 * y * y + 1) * ln (1 / 2 / (310907 / 20000000 * (y * (y * (y * (62517 / 100000 * y + 16831 / 5000) + 61977 / 10000) + 141189 / 10000))) + 1)
  = pw92_G 0.01554535 0.20548 14.1189 6.1977 3.3662 0.62517 (y * y).
Proof. intro Y. G_lit 0.01554535 0.20548 14.1189 6.1977 3.3662 0.62517 Y. Qed.
Lemma G_a y : 0 < y -> -168869 / 5000000 * (89 / 800 * y * y + 1) * ln (1 / 2 / (168869 / 10000000 * (y * (y * (y * (49671 / 100000 * y + 44013 / 50000) + 36231 / 10000) + 10357 / 1000))) + 1)
  = pw92_G 0.0168869 0.11125 10.357 3.6231 0.88026 0.49671 (y * y).
Proof. intro Y. G_lit 0.0168869 0.11125 10.357 3.6231 0.88026 0.49671 Y. Qed.
Lemma two43 : Rpower 2 (4 / 3) = 2 * Rpower 2 (1 / 3).
Proof. mono. Qed.
Lemma two43_ne : 2 * Rpower 2 (1 / 3) - 2 <> 0.
Proof. assert (1 < Rpower 2 (1 / 3)) by (apply Rle_lt_trans with (Rpower 2 0); [rewrite Rpower_O; lra|apply Rpower_lt; lra]). lra. Qed.
Lemma pw92_E : V pw92eps = eps_pw92 (fl f_n) (fl f_zeta).
Proof.
  vred. pose proof two43_ne as Nz. destruct P. rewrite ph_rs. pose proof (sqrt_rs_pos (fl f_n)) as Y.
  rewrite (G_0 _ Y), (G_1 _ Y), (G_a _ Y), sq_rs. unfold eps_pw92, fz, fz_num, fz2, eps_pw92_pol. rewrite two43. rewrite !(Rplus_comm _ 1).
  set (p := pw92_G 0.0310907 _ _ _ _ _ _). set (f := pw92_G 0.01554535 _ _ _ _ _ _). set (a := pw92_G 0.0168869 _ _ _ _ _ _).
  field. lra.
Qed.
Lemma k_pw92c : V pw92c = fl f_n * eps_pw92 (fl f_n) (fl f_zeta).
Proof. pose proof pw92_E as E. vred_in E. vred. rewrite E. ring. Qed.
(** Perdew, Burke and Ernzerhof. *)
Lemma phi_E : Rpower 2 (-1 / 3) * fl f_n_m13 * fl f_n_m13 * (sqrt (fl f_a_43) + sqrt (fl f_b_43)) = pbe_phi (fl f_zeta).
Proof.
  pose proof n_pos as N. pose proof z_lo as L. pose proof z_hi as H. pose proof z_a as A. pose proof z_b as B. rewrite (ph_n13 _ P), (ph_a43 _ P), (ph_b43 _ P). destruct P.
  assert (Sq : forall n, 0 < n -> sqrt (Rpower n (4 / 3)) = Rpower n (2 / 3)).
  { intros n M. rewrite <- Rpower_sqrt by pos. mono. }
  rewrite !Sq by assumption. rewrite A, B. set (z := fl f_zeta) in *. set (n := fl f_n) in *. unfold pbe_phi.
  rewrite Rmult_plus_distr_l.
  assert (Q : forall y, 0 < y -> Rpower 2 (-1 / 3) * Rpower n (- (1 / 3)) * Rpower n (- (1 / 3)) * Rpower (n * (y / 2)) (2 / 3) = Rpower y (2 / 3) / 2) by (intros y Y; mono).
  rewrite !Q by assumption. field.
Qed.
Lemma phi_pos : 0 < pbe_phi (fl f_zeta).
Proof. unfold pbe_phi. assert (0 < Rpower (1 + fl f_zeta) (2 / 3)) by pos. assert (0 < Rpower (1 - fl f_zeta) (2 / 3)) by pos. lra. Qed.
Lemma t2_N u n g : 0 < u -> 0 < n -> Rpower (1 / 12 * Rpower 3 (5 / 6) / Rpower PI (-1 / 6)) 2 * g / (u * u * Rpower n (7 / 3)) = pbe_t2 u n g.
Proof.
  intros U N. unfold pbe_t2, kF.
  assert (E : Rpower (1 / 12 * Rpower 3 (5 / 6) / Rpower PI (-1 / 6)) 2 / (u * u * Rpower n (7 / 3)) = / (2 * u * n) ^ 2 / (4 * Rpower (3 * PI ^ 2 * n) (1 / 3) / PI)) by mono.
  unfold Rdiv in *. rewrite (Rmult_assoc _ g), (Rmult_comm g), <- Rmult_assoc, E. ring.
Qed.
Lemma t2_E u g : 0 < u -> Rpower (1 / 12 * Rpower 3 (5 / 6) / Rpower PI (-1 / 6)) 2 * g / (u * u * Rpower (fl f_n) (7 / 3)) = pbe_t2 u (fl f_n) g.
Proof. intro U. exact (t2_N u _ g U n_pos). Qed.
Lemma H_E beta gamma u t2 eps : gamma = pbe_gamma ->
  gamma * (u * u * u) * ln (beta / gamma * t2 * (t2 * (beta / gamma / (exp (- eps / (gamma * (u * u * u))) - 1)) + 1)
     / (t2 * (beta / gamma / (exp (- eps / (gamma * (u * u * u))) - 1)) * (t2 * (beta / gamma / (exp (- eps / (gamma * (u * u * u))) - 1)) + 1) + 1) + 1)
  = pbe_H beta u t2 eps.
Proof.
  intros ->. unfold pbe_H. replace (u ^ 3) with (u * u * u) by ring. replace (- (eps / (pbe_gamma * (u * u * u)))) with (- eps / (pbe_gamma * (u * u * u))) by (unfold Rdiv; ring).
  set (A := beta / pbe_gamma / _). f_equal. f_equal.
  replace (1 + A * t2 + A ^ 2 * t2 ^ 2) with (t2 * A * (t2 * A + 1) + 1) by ring. unfold Rdiv. ring.
Qed.
Lemma gamma_E : (1 - ln 2) / (PI * PI) = pbe_gamma.
Proof. unfold pbe_gamma. f_equal. ring. Qed.
Lemma k_pbec : V pbec = fl f_n * eps_pbe beta_pbe (eps_pw92 (fl f_n) (fl f_zeta)) (fl f_n) (fl f_zeta) (fl f_gnn).
Proof.
  pose proof pw92_E as E. vred_in E. vred. rewrite !E, !phi_E, !(t2_E _ _ phi_pos), (H_E _ _ _ _ _ gamma_E). unfold eps_pbe, eps_pbe_at, beta_pbe.
  replace 0.06672455060314922 with (3336227530157461 / 50000000000000000) by (decs; lra). reflexivity.
Qed.
Lemma k_apbec : V apbec_energy = fl f_n * eps_pbe (fun _ _ => 0.079030523241) (eps_pw92 (fl f_n) (fl f_zeta)) (fl f_n) (fl f_zeta) (fl f_gnn).
Proof.
  pose proof pw92_E as E. vred_in E. vred. rewrite !E, !phi_E, !(t2_E _ _ phi_pos), (H_E _ _ _ _ _ gamma_E). unfold eps_pbe, eps_pbe_at.
  replace 0.079030523241 with (79030523241 / 1000000000000) by (decs; lra). reflexivity.
Qed.
Lemma k_pbeintc : V pbeintc_energy = fl f_n * eps_pbe (fun _ _ => 0.052) (eps_pw92 (fl f_n) (fl f_zeta)) (fl f_n) (fl f_zeta) (fl f_gnn).
Proof.
  pose proof pw92_E as E. vred_in E. vred. rewrite !E, !phi_E, !(t2_E _ _ phi_pos), (H_E _ _ _ _ _ gamma_E). unfold eps_pbe, eps_pbe_at.
  replace 0.052 with (13 / 250) by (decs; lra). reflexivity.
Qed.
Lemma k_pbelocc : V pbelocc_energy = fl f_n * eps_pbe beta_loc (eps_pw92 (fl f_n) (fl f_zeta)) (fl f_n) (fl f_zeta) (fl f_gnn).
Proof.
  pose proof pw92_E as E. vred_in E. vred. rewrite !E, !phi_E, !(t2_E _ _ phi_pos), (H_E _ _ _ _ _ gamma_E). unfold eps_pbe, eps_pbe_at, beta_loc.
  rewrite (ph_rs _ P). do 3 f_equal. replace (- rs (fl f_n) ^ 2) with (- rs (fl f_n) * rs (fl f_n)) by ring. decs. lra.
Qed.
(** Vosko, Wilk and Nusair. *)
Lemma ln_sq y : 0 < y -> ln (y ^ 2) = 2 * ln y.
Proof. intro Y. rewrite ln_pn by exact Y. cbn [INR]. lra. Qed.
Lemma vwn_gen A x0 b c y : 0 < y -> x0 < 0 -> 0 < b -> b ^ 2 < 4 * c -> 0 < x0 ^ 2 + b * x0 + c ->
  vwn A x0 b c y = A / 2 * (2 * ln y - (1 - b * x0 / (x0 ^ 2 + b * x0 + c)) * ln (y * y + b * y + c) - 2 * b * x0 / (x0 ^ 2 + b * x0 + c) * ln (y - x0)
    + 2 * b * (/ sqrt (4 * c - b ^ 2) - x0 * (b + 2 * x0) / ((x0 ^ 2 + b * x0 + c) * sqrt (4 * c - b ^ 2))) * atan (sqrt (4 * c - b ^ 2) / (2 * y + b))).
Proof.
  intros Y X0 B Dc X. assert (c0 : 0 < c) by nra. unfold vwn. cbv zeta. assert (Xy : 0 < y ^ 2 + b * y + c) by nra.
  rewrite !ln_dv by (try apply pow_lt; lra). rewrite !ln_sq by lra. replace (y * y + b * y + c) with (y ^ 2 + b * y + c) by ring.
  assert (Q : 0 < sqrt (4 * c - b ^ 2)) by (apply sqrt_lt_R0; lra).
  set (q := sqrt (4 * c - b ^ 2)) in *. set (t := atan _). set (l1 := ln (y ^ 2 + b * y + c)). set (l2 := ln y). set (l3 := ln (y - x0)). set (X0' := x0 ^ 2 + b * x0 + c) in *.
  field. lra.
Qed.
Ltac vwn_lit q A x0 b c Y := rewrite (vwn_gen A x0 b c _ Y) by (decs; lra);
  replace (4 * c - b ^ 2) with q by (decs; lra);
  let Q := fresh in assert (Q : 0 < sqrt q) by (apply sqrt_lt_R0; lra);
  match goal with |- context [sqrt q / (2 * ?y + ?l)] => replace (2 * y + b) with (2 * y + l) by (decs; lra);
    match goal with |- context [y * y + l * y + ?l2] => replace (y * y + b * y + c) with (y * y + l * y + l2) by (decs; lra) end;
    match goal with |- context [ln (y - ?l3)] => replace (y - x0) with (y - l3) by (decs; lra) end end;
  set (sqrt q) in *; repeat match goal with |- context [ln ?a] => set (ln a) end; set (atan _); decs; field; lra.
Lemma vwn_p y : 0 < y -> 310907 / 10000000 * (2 * ln y + -32365552001 / 31387285373 * ln (y * y + 46593 / 12500 * y + 16169 / 1250) - -1956533256 / 31387285373 * ln (y - -5249 / 50000)
   + 46593 / 6250 * (1 / sqrt (5913592351 / 156250000) - -5249 / 50000 / (31387285373 / 2500000000 * sqrt (5913592351 / 156250000) / (87937 / 25000))) * atan (sqrt (5913592351 / 156250000) / (2 * y + 46593 / 12500)))
  = vwn 0.0621814 (- 0.10498) 3.72744 12.9352 y.
Proof. intro Y. vwn_lit (5913592351 / 156250000) 0.0621814 (- 0.10498) 3.72744 12.9352 Y. Qed.
Lemma vwn_f y : 0 < y -> 310907 / 20000000 * (2 * ln y + -36326850 / 31737577 * ln (y * y + 353021 / 50000 * y + 90289 / 5000) - -9178546 / 31737577 * ln (y - -13 / 40)
   + 353021 / 25000 * (1 / sqrt (55954173559 / 2500000000) - -13 / 40 / (31737577 / 2000000 * sqrt (55954173559 / 2500000000) / (320521 / 50000))) * atan (sqrt (55954173559 / 2500000000) / (2 * y + 353021 / 50000)))
  = vwn 0.0310907 (- 0.325) 7.06042 18.0578 y.
Proof. intro Y. vwn_lit (55954173559 / 2500000000) 0.0310907 (- 0.325) 7.06042 18.0578 Y. Qed.
Lemma vwn_i y : 0 < y -> 1 / 2 * - Rpower (3 * PI * PI) (-1) * (2 * ln y + -10159783314352 / 10155578561627 * ln (y * y + 113107 / 100000 * y + 26009 / 2000) - -8409505450 / 10155578561627 * ln (y - -1487 / 312500)
   + 113107 / 50000 * (1 / sqrt (507386806551 / 10000000000) - -1487 / 312500 / (10155578561627 / 781250000000 * sqrt (507386806551 / 10000000000) / (2803883 / 2500000))) * atan (sqrt (507386806551 / 10000000000) / (2 * y + 113107 / 100000)))
  = vwn (- (1 / (3 * PI ^ 2))) (- 0.0047584) 1.13107 13.0045 y.
Proof.
  intro Y. assert (E : Rpower (3 * PI * PI) (-1) = 1 / (3 * PI ^ 2)) by mono. rewrite E.
  set (B := 1 / (3 * PI ^ 2)). vwn_lit (507386806551 / 10000000000) (- B) (- 0.0047584) 1.13107 13.0045 Y.
Qed.
Lemma vwn3_p y : 0 < y -> 310907 / 10000000 * (2 * ln y + -10721828757449 / 9384282109449 * ln (y * y + 1634 / 125 * y + 213599 / 5000) - -2675093296000 / 9384282109449 * ln (y - -204643 / 500000)
   + 3268 / 125 * (1 / sqrt (63 / 31250) - -204643 / 500000 / (9384282109449 / 250000000000 * sqrt (63 / 31250) / (3063357 / 250000))) * atan (sqrt (63 / 31250) / (2 * y + 1634 / 125)))
  = vwn 0.0621814 (- 0.4092860) 13.0720 42.7198 y.
Proof. intro Y. vwn_lit (63 / 31250) 0.0621814 (- 0.4092860) 13.0720 42.7198 Y. Qed.
Lemma vwn3_f y : 0 < y -> 310907 / 20000000 * (2 * ln y + -25532621492609 / 21793276619759 * ln (y * y + 201231 / 10000 * y + 50789 / 500) - -7478689745700 / 21793276619759 * ln (y - -371647 / 500000)
   + 201231 / 5000 * (1 / sqrt (137284639 / 100000000) - -371647 / 500000 / (21793276619759 / 250000000000 * sqrt (137284639 / 100000000) / (582391 / 31250))) * atan (sqrt (137284639 / 100000000) / (2 * y + 201231 / 10000)))
  = vwn 0.0310907 (- 0.7432940) 20.1231 101.578 y.
Proof. intro Y. vwn_lit (137284639 / 100000000) 0.0310907 (- 0.7432940) 20.1231 101.578 Y. Qed.
Lemma k_vwn3 : V vwn3_vwn3c = fl f_n * eps_vwn3 (fl f_n) (fl f_zeta).
Proof.
  vred. rewrite (ph_rs _ P). pose proof (sqrt_rs_pos (fl f_n)) as Y. rewrite !(vwn3_p _ Y), !(vwn3_f _ Y). unfold eps_vwn3, fz15, fz_num.
  rewrite (Rplus_comm (fl f_zeta) 1). cbv zeta. set (p := vwn 0.0621814 _ _ _ _). set (f := vwn 0.0310907 _ _ _ _). set (z := Rpower (1 + _) _). set (z' := Rpower (1 - _) _). decs. field.
Qed.
Lemma vwn5_E : V vwn_vwn5_eps = eps_vwn5 (fl f_n) (fl f_zeta).
Proof.
  vred. rewrite (ph_rs _ P). pose proof (sqrt_rs_pos (fl f_n)) as Y. rewrite !(vwn_p _ Y), !(vwn_f _ Y), !(vwn_i _ Y). unfold eps_vwn5, fz15, fz_num, fz2. rewrite two43.
  rewrite (Rplus_comm (fl f_zeta) 1). cbv zeta. set (p := vwn 0.0621814 _ _ _ _). set (f := vwn 0.0310907 _ _ _ _). set (i := vwn _ _ _ _ _). set (z := Rpower (1 + _) _). set (z' := Rpower (1 - _) _).
  pose proof two43_ne as Nz. set (t := Rpower 2 (1 / 3)) in *. decs. field. lra.
Qed.
Lemma k_vwn5 : V vwn5c = fl f_n * eps_vwn5 (fl f_n) (fl f_zeta).
Proof. pose proof vwn5_E as E. vred_in E. vred. rewrite E. reflexivity. Qed.
Lemma k_vwn_pbec : V pbec_vwn_pbec = fl f_n * eps_pbe beta_pbe (eps_vwn5 (fl f_n) (fl f_zeta)) (fl f_n) (fl f_zeta) (fl f_gnn).
Proof.
  pose proof vwn5_E as E. vred_in E. vred. rewrite !E, !phi_E, !(t2_E _ _ phi_pos), (H_E _ _ _ _ _ gamma_E). unfold eps_pbe, eps_pbe_at, beta_pbe.
  replace 0.06672455060314922 with (3336227530157461 / 50000000000000000) by (decs; lra). reflexivity.
Qed.
(** Perdew and Zunger. *)
Lemma fz_43 : (Rpower 2 (4 / 3) * (fl f_a_43 + fl f_b_43) * fl f_n_m13 / fl f_n - 2) / (2 * Rpower 2 (1 / 3) - 2) = fz (fl f_zeta).
Proof.
  pose proof n_pos as N. pose proof z_lo as L. pose proof z_hi as H. pose proof z_a as A. pose proof z_b as B. rewrite (ph_n13 _ P), (ph_a43 _ P), (ph_b43 _ P).
  rewrite A, B. unfold fz, fz_num. rewrite <- two43. f_equal. f_equal.
  assert (Q : forall y, 0 < y -> Rpower 2 (4 / 3) * Rpower (fl f_n * (y / 2)) (4 / 3) * Rpower (fl f_n) (- (1 / 3)) / fl f_n = Rpower y (4 / 3)) by (intros y Y; mono).
  rewrite <- (Q _ L), <- (Q _ H). field. lra.
Qed.
Lemma pz81_E : V pz81eps = eps_pz81 (fl f_n) (fl f_zeta).
Proof.
  vred. rewrite fz_43, (ph_rs _ P). unfold eps_pz81. cbv zeta. pose proof (rs_pos (fl f_n)) as Rp. pose proof (sqrt_rs_pos (fl f_n)) as Y.
  destruct (Rlt_dec (rs (fl f_n)) 1); unfold pz81_low, pz81_high; decs; field; lra.
Qed.
Lemma k_pz81 : V pz81c = fl f_n * eps_pz81 (fl f_n) (fl f_zeta).
Proof. pose proof pz81_E as E. vred_in E. vred. rewrite E. ring. Qed.
(** Perdew 1986. *)
Lemma p86_C_E r : 0 < r -> (r * (7389 / 1000000000 * r + 11633 / 500000) + 321 / 125000) / (r * (r * (7389 / 100000 * r + 59 / 125) + 8723 / 1000) + 1) + 1667 / 1000000 = p86_C r.
Proof. intro H. unfold p86_C. decs. field. assert (0 < r * r) by nra. assert (0 < r * r * r) by nra. split; nra. Qed.
Lemma p86_C_pos r : 0 < r -> 0 < p86_C r.
Proof. intro H. unfold p86_C. decs. assert (0 < r * r) by nra. assert (0 < r * r * r) by nra. apply Rplus_lt_0_compat; [lra|]. apply Rdiv_lt_0_compat; nra. Qed.
Lemma cbrt2 : cbrtR 2 = Rpower 2 (1 / 3).
Proof. unfold cbrtR. destruct (Rlt_dec 0 2) as [_|H]; [|lra]. f_equal. Qed.
Lemma p86_d : cbrtR 2 * sqrt (Rpower (fl f_a) (5 / 3) + Rpower (fl f_b) (5 / 3)) * Rpower (fl f_n) (-5 / 6)
  = Rpower 2 (1 / 3) * sqrt (Rpower ((1 + fl f_zeta) / 2) (5 / 3) + Rpower ((1 - fl f_zeta) / 2) (5 / 3)).
Proof.
  pose proof n_pos as N. pose proof z_lo as L. pose proof z_hi as H. rewrite cbrt2, z_a, z_b, !(fun y Y => Rpower_mult_distr (fl f_n) y (5 / 3) N Y) || rewrite cbrt2, z_a, z_b.
  rewrite <- !Rpower_mult_distr by (lra || pos). rewrite <- Rmult_plus_distr_l, sqrt_mult_alt by (left; pos).
  assert (S : sqrt (Rpower (fl f_n) (5 / 3)) * Rpower (fl f_n) (-5 / 6) = 1).
  { rewrite <- Rpower_sqrt by pos. rewrite Rpower_mult, <- Rpower_plus. replace (5 / 3 * / 2 + -5 / 6) with 0 by lra. now apply Rpower_O. }
  set (w := sqrt (_ + _)). replace (Rpower 2 (1 / 3) * (sqrt (Rpower (fl f_n) (5 / 3)) * w) * Rpower (fl f_n) (-5 / 6)) with (Rpower 2 (1 / 3) * w * (sqrt (Rpower (fl f_n) (5 / 3)) * Rpower (fl f_n) (-5 / 6))) by ring.
  rewrite S. ring.
Qed.
Definition p86_val (n z g : R) : R :=
  let C := p86_C (rs n) in
  let Phi := Rpower (9 * PI) (1 / 6) * 0.11 * 0.004235 / C * (sqrt (g + / 2 ^ 52) / Rpower n (7 / 6)) in
  let d := Rpower 2 (1 / 3) * sqrt (Rpower ((1 + z) / 2) (5 / 3) + Rpower ((1 - z) / 2) (5 / 3)) in
  exp (- Phi) * C * g / (d * Rpower n (4 / 3)).
Lemma p86_E : V p86c_p86c_corr = p86_val (fl f_n) (fl f_zeta) (fl f_gnn).
Proof.
  vred. rewrite p86_d, !p86_C_E by (rewrite (ph_rs _ P); apply rs_pos). unfold p86_val. rewrite (ph_rs _ P). cbv zeta.
  pose proof (p86_C_pos _ (rs_pos (fl f_n))) as Cp. set (C := p86_C _) in *. set (d := Rpower 2 (1 / 3) * _).
  replace (Q2R (1 # 4503599627370496)) with (/ 2 ^ 52) by (rewrite dec_lit; field).
  rewrite (Rmult_comm d). f_equal. f_equal. f_equal. f_equal. f_equal. decs. field. pose proof n_pos. split; pos.
Qed.
Lemma k_p86c : V p86c = fl f_n * eps_pz81 (fl f_n) (fl f_zeta) + p86_val (fl f_n) (fl f_zeta) (fl f_gnn).
Proof. pose proof p86_E as E. vred_in E. pose proof pz81_E as F. vred_in F. vred. rewrite E, F. reflexivity. Qed.
(** Lee, Yang and Parr. *)
Definition lyp_val (na nb n ga gb g : R) : R :=
  let a := 0.04918 in let b := 0.132 in let c := 0.2533 in let d := 0.349 in
  let w := exp (- (c / Rpower n (1 / 3))) / (1 + d / Rpower n (1 / 3)) * Rpower n (- (11 / 3)) in
  let delta := c / Rpower n (1 / 3) + d / Rpower n (1 / 3) / (1 + d / Rpower n (1 / 3)) in
  - (a * (4 / (1 + d / Rpower n (1 / 3))) * (na * nb / n))
  - a * b * w * (na * nb * (Rpower 2 (11 / 3) * c_tf * (Rpower na (8 / 3) + Rpower nb (8 / 3)) + (47 / 18 - 7 / 18 * delta) * g
                            - (5 / 2 - delta / 18) * (ga + gb) - (delta - 11) / 9 * (na / n * ga + nb / n * gb))
                 - 2 / 3 * n ^ 2 * g + (2 / 3 * n ^ 2 - na ^ 2) * gb + (2 / 3 * n ^ 2 - nb ^ 2) * ga).
Lemma k_lyp : V lypc = lyp_val (fl f_a) (fl f_b) (fl f_n) (fl f_gaa) (fl f_gbb) (fl f_gnn).
Proof.
  vred. pose proof n_pos as N. unfold lyp_val, c_tf. cbv zeta. replace (PI ^ 2) with (PI * PI) by ring.
  replace (- (11 / 3)) with (-11 / 3) by lra.
  assert (T : Rpower (fl f_n) (1 / 3) = / Rpower (fl f_n) (-1 / 3)) by mono. rewrite T. assert (Tp : 0 < Rpower (fl f_n) (-1 / 3)) by pos. set (t := Rpower (fl f_n) (-1 / 3)) in *.
  replace (- (0.2533 / / t)) with (-2533 / 10000 * t) by (decs; field; lra).
  set (e := exp _). set (n := fl f_n) in *. set (n11 := Rpower n (-11 / 3)). set (two := Rpower 2 (11 / 3)). set (tf := Rpower (3 * _) (2 / 3)).
  set (a8 := Rpower (fl f_a) (8 / 3)). set (b8 := Rpower (fl f_b) (8 / 3)). decs. field. split; lra.
Qed.
(** Becke 1997. *)
Lemma b97_s n g : 0 < n -> 0 <= g -> Rabs g / Rpower n (4 / 3) / Rpower n (4 / 3) = b97_s2 n g.
Proof.
  intros N G. rewrite Rabs_right by lra. unfold b97_s2, Rdiv. rewrite Rmult_assoc. f_equal. mono.
Qed.
Lemma b97_nn n g : 0 < n -> 0 <= g -> 0 <= b97_s2 n g.
Proof. intros N G. unfold b97_s2. apply Rmult_le_pos; [exact G|left; pos]. Qed.
Ltac b97x := vred; unfold ps, b97_x, b97_series; rewrite (ph_a43 _ P), (ph_b43 _ P); rewrite !(b97_s (fl f_a) _ (ph_a _ P) (ph_gaa _ P)), !(b97_s (fl f_b) _ (ph_b _ P) (ph_gbb _ P));
  pose proof (b97_nn _ _ (ph_a _ P) (ph_gaa _ P)); pose proof (b97_nn _ _ (ph_b _ P) (ph_gbb _ P)); cbv zeta; decs; field; split; lra.
Lemma k_b97x : V b97xc_b97x_en = ps (b97_x 0.8094 0.5073 0.7481) fl.
Proof. b97x. Qed.
Lemma k_b97_1x : V b97_1xc_b97_1x_en = ps (b97_x 0.789518 0.573805 0.660975) fl.
Proof. b97x. Qed.
Lemma k_b97_2x : V b97_2xc_b97_2x_en = ps (b97_x 0.827642 0.047840 1.76125) fl.
Proof. b97x. Qed.
Lemma rs6 n : 0 < n -> Rpower (3 / (4 * PI * n)) (1 / 6) = sqrt (rs n).
Proof. intro N. unfold rs. rewrite <- Rpower_sqrt by pos. mono. Qed.
Definition b97_cv (ss os : R * R * R) (fl : fld -> R) : R :=
  let '(s0, s1, s2) := ss in let '(o0, o1, o2) := os in
  let ea := fl f_a * eps_pw92_pol (fl f_a) in let eb := fl f_b * eps_pw92_pol (fl f_b) in
  let xa := b97_s2 (fl f_a) (fl f_gaa) in let xb := b97_s2 (fl f_b) (fl f_gbb) in
  ea * b97_series 0.2 s0 s1 s2 xa + eb * b97_series 0.2 s0 s1 s2 xb
  + (fl f_n * eps_pw92 (fl f_n) (fl f_zeta) - ea - eb) * b97_series 0.006 o0 o1 o2 ((xa + xb) / 2).
Ltac b97c := let E := fresh in pose proof pw92_E as E; vred_in E; vred; rewrite ?E; clear E; unfold b97_cv, b97_series; rewrite (ph_a43 _ P), (ph_b43 _ P); rewrite !(b97_s (fl f_a) _ (ph_a _ P) (ph_gaa _ P)), !(b97_s (fl f_b) _ (ph_b _ P) (ph_gbb _ P));
  pose proof (b97_nn _ _ (ph_a _ P) (ph_gaa _ P)); pose proof (b97_nn _ _ (ph_b _ P) (ph_gbb _ P));
  rewrite !(rs6 _ (ph_a _ P)), !(rs6 _ (ph_b _ P)), !(G_1 _ (sqrt_rs_pos _)), !sq_rs; fold (eps_pw92_pol (fl f_a)) (eps_pw92_pol (fl f_b)).
Ltac b97c_end :=
  let U := fresh in assert (U : forall a b s, a = b -> b * s / (1 + b * s) = a * s / (a * s + 1)) by (intros ? ? s ->; f_equal; ring);
  rewrite !(U (1 / 5) 0.2) by (decs; lra); rewrite !(U (3 / 500) 0.006) by (decs; lra);
  set (xa := b97_s2 (fl f_a) (fl f_gaa)) in *; set (xb := b97_s2 (fl f_b) (fl f_gbb)) in *;
  replace ((xa + xb) / 2) with (1 / 2 * (xa + xb)) by lra;
  set (ua := 1 / 5 * xa / _); set (ub := 1 / 5 * xb / _); set (uo := 3 / 500 * (1 / 2 * (xa + xb)) / _); decs; field.
Lemma k_b97c : V b97xc_b97c_en = b97_cv (0.1737, 2.3487, - 2.4868) (0.9454, 0.7471, - 4.5961) fl.
Proof. b97c. b97c_end. Qed.
Lemma k_b97_1c : V b97_1xc_b97_1c_en = b97_cv (0.0820011, 2.71681, - 2.87103) (0.955689, 0.788552, - 5.47869) fl.
Proof. b97c. b97c_end. Qed.
Lemma k_b97_2c : V b97_2xc_b97_2c_en = b97_cv (0.585808, - 0.691682, 0.394796) (0.999849, 1.40626, - 7.44060) fl.
Proof. b97c. b97c_end. Qed.
End C.
