(** * Kinetic-energy-density dependent, PW91 and range-separated functionals agree with the formulas of the literature *)
From Coq Require Import Reals QArith Qreals ZArith Arith Lia Lra List Bool String.
From Coquelicot Require Import Coquelicot.
From Verif Require Import Scalar RInst CTaylor CtAlg TMath Fps TFam TExp Ad Br Expr Functionals Sem AdEval RSem Dom Phys Value Published PubTac PubX PubC.
Import ListNotations.
Local Open Scope R_scope.

Definition ps3 (e : R -> R -> R -> R) (fl : fld -> R) : R := e (fl f_a) (fl f_gaa) (fl f_taua) + e (fl f_b) (fl f_gbb) (fl f_taub).
Definition ss3 (e : R -> R -> R -> R) (fl : fld -> R) : R :=
  (e (2 * fl f_a) (4 * fl f_gaa) (2 * fl f_taua) + e (2 * fl f_b) (4 * fl f_gbb) (2 * fl f_taub)) / 2.
(** [minn_c] on a table of densities. *)
Definition mcf (gab gss : R -> R -> R) (fl : fld -> R) : R :=
  let xa := b97_s2 (fl f_a) (fl f_gaa) in let xb := b97_s2 (fl f_b) (fl f_gbb) in let za := z_tau (fl f_a) (fl f_taua) in let zb := z_tau (fl f_b) (fl f_taub) in
  let ea := fl f_a * eps_pw92_pol (fl f_a) in let eb := fl f_b * eps_pw92_pol (fl f_b) in
  (fl f_n * eps_pw92 (fl f_n) (fl f_zeta) - ea - eb) * gab (xa + xb) (za + zb)
  + ea * gss xa za * scf (fl f_a) (fl f_gaa) (fl f_taua) + eb * gss xb zb * scf (fl f_b) (fl f_gbb) (fl f_taub).
Lemma mcf_D gab gss D : minn_c gab gss D = mcf gab gss (dvar D). Proof. reflexivity. Qed.
(** [tpss_C] and [tpss_c] on a table of densities. *)
Definition tcC (c0 : R) (fl : fld -> R) : R :=
  let z := fl f_zeta in
  let g2 := (fl f_n ^ 2 * fl f_gss - 2 * fl f_n * fl f_s * fl f_gns + fl f_s ^ 2 * fl f_gnn) / fl f_n ^ 4 in
  let xi2 := g2 / (4 * kF (fl f_n) ^ 2) in
  (c0 + 0.87 * z ^ 2 + 0.50 * z ^ 4 + 2.26 * z ^ 6) / (1 + xi2 * (Rpower (1 + z) (- (4 / 3)) + Rpower (1 - z) (- (4 / 3))) / 2) ^ 4.
Definition tcf (beta : R -> R -> R) (c0 d : R) (fl : fld -> R) : R :=
  let n := fl f_n in let e := eps_pbe beta (eps_pw92 n (fl f_zeta)) n (fl f_zeta) (fl f_gnn) in
  let sum := (fl f_a * Rmax e (eps_pbe_pol beta (fl f_a) (fl f_gaa)) + fl f_b * Rmax e (eps_pbe_pol beta (fl f_b) (fl f_gbb))) / n in
  let z := fl f_gnn / (8 * n) / fl f_tau in let C := tcC c0 fl in
  let pkzb := e * (1 + C * z ^ 2) - (1 + C) * z ^ 2 * sum in
  n * (pkzb * (1 + d * pkzb * z ^ 3)).
Lemma tcf_D beta c0 d D : tpss_c beta c0 d D = tcf beta c0 d (dvar D). Proof. reflexivity. Qed.
Section M.
Variables (st : nat -> R) (x : nat -> R) (fl : fld -> R).
Hypothesis P : phys fl.
Notation V := (tv (st : nat -> T ROps) x fl []).
Ltac gath := rewrite ?(c_lda1 (fl f_a) (ph_a _ P)), ?(c_lda1 (fl f_b) (ph_b _ P)), ?(c_s2 (fl f_a) _ (ph_a _ P)), ?(c_s2 (fl f_b) _ (ph_b _ P)).
(** Perdew-Wang 1991. *)
Lemma sqas_b b s2 : 0 < b -> 0 <= s2 -> / 2 <= b ^ 2 * s2 -> sqas (b ^ 2 * s2) / b = sqrt s2 * arcsinh (b * sqrt s2).
Proof.
  intros B S H. rewrite sqas_hi by exact H. rewrite sqrt_mult_alt by (left; apply pow_lt, B). rewrite sqrt_pow2 by lra. field. lra.
Qed.
Definition steep91 (b : R) (fl : fld -> R) : Prop := / 2 <= b ^ 2 * red2 (2 * fl f_a) (4 * fl f_gaa) /\ / 2 <= b ^ 2 * red2 (2 * fl f_b) (4 * fl f_gbb).
Lemma F_pw91_E al be c d f A B C D' F s2 : al = A -> be = B -> c = C -> d = D' -> f = F -> 0 < B -> 0 <= s2 -> / 2 <= B ^ 2 * s2 ->
  (al * sqas (be ^ 2 * s2) / be + 1 + s2 * (c - d * exp (-100 * s2))) / (al * sqas (be ^ 2 * s2) / be + 1 + f * s2 * s2) = F_pw91 A B C D' F s2.
Proof.
  intros -> -> -> -> -> Hb S H. unfold F_pw91. cbv zeta. replace (A * sqas (B ^ 2 * s2) / B) with (A * (sqas (B ^ 2 * s2) / B)) by (unfold Rdiv; ring). rewrite sqas_b by assumption.
  assert (E : sqrt s2 ^ 2 = s2) by (apply pow2_sqrt; exact S). rewrite !E. replace (sqrt s2 ^ 4) with (s2 * s2) by (rewrite <- E at 1 2; ring).
  replace (- (100 * s2)) with (-100 * s2) by ring. set (t := arcsinh _). f_equal; ring.
Qed.
Lemma k_pw91x : steep91 7.7956 fl -> V pw91x = gx (F_pw91 0.19645 7.7956 0.2743 0.15084 0.004) fl.
Proof.
  intros [A B]. vred. gath. pose proof (red2_nn (2 * fl f_a) (4 * fl f_gaa)) as Na. pose proof (red2_nn (2 * fl f_b) (4 * fl f_gbb)) as Nb. destruct P.
  rewrite !(F_pw91_E _ _ _ _ _ 0.19645 7.7956 0.2743 0.15084 0.004) by first [assumption | (apply Na; lra) | (apply Nb; lra) | (decs; lra)].
  unfold gx, ss. field.
Qed.
Lemma k_pw91k : steep91 76.320 fl -> V pw91k = ss (fun n g => tf n * F_pw91 0.093907 76.320 0.26608 0.0809615 0.000057767 (red2 n g)) fl.
Proof.
  intros [A B]. vred. gath. pose proof (red2_nn (2 * fl f_a) (4 * fl f_gaa)) as Na. pose proof (red2_nn (2 * fl f_b) (4 * fl f_gbb)) as Nb. destruct P.
  rewrite !(F_pw91_E _ _ _ _ _ 0.093907 76.320 0.26608 0.0809615 0.000057767) by first [assumption | (apply Na; lra) | (apply Nb; lra) | (decs; lra)].
  assert (T : forall n, 0 < n -> 3 / 10 * Rpower (3 * (PI * PI)) (2 / 3) * Rpower 2 (2 / 3) * Rpower n (5 / 3) = tf (2 * n) / 2) by (intros n N; unfold tf, c_tf; mono).
  rewrite !T by assumption. unfold ss. field.
Qed.
(** The Minnesota functionals. *)
Lemma pbe_x_spin_E n g : 0 < n ->
  -3 / 4 * Rpower 2 (1 / 3) * Rpower (3 * PI * PI) (1 / 3) * Rpower n (4 / 3) / PI *
  (451 / 250 - 201 / 250 / (2669 / 40000 * PI * PI / 3 * (Rpower (Rpower 6 (2 / 3) / (12 * Rpower PI (2 / 3))) 2 * (g / Rpower n (8 / 3))) / (201 / 250) + 1)) = pbe_x_spin n g.
Proof.
  intro N. rewrite c_lda1, c_s2 by exact N. unfold pbe_x_spin, F_pbe. set (s := red2 _ _).
  replace (2669 / 40000 * PI * PI / 3) with (0.066725 * PI ^ 2 / 3) by (decs; field).
  replace (201 / 250) with 0.804 by (decs; lra). replace (451 / 250) with (1 + 0.804) by (decs; lra). rewrite (Rplus_comm _ 1). unfold Rdiv. ring.
Qed.
Lemma w_E n tau : 0 < n -> (3 / 10 * Rpower (3 * (PI * PI)) (2 / 3) * Rpower 2 (2 / 3) * Rpower n (5 / 3) / tau - 1) / (3 / 10 * Rpower (3 * (PI * PI)) (2 / 3) * Rpower 2 (2 / 3) * Rpower n (5 / 3) / tau + 1) = w_tau n tau.
Proof.
  intro N. assert (T : 3 / 10 * Rpower (3 * (PI * PI)) (2 / 3) * Rpower 2 (2 / 3) * Rpower n (5 / 3) = tau_gas n) by (unfold tau_gas; mono).
  rewrite T. reflexivity.
Qed.
Lemma lda_sp n : 0 < n -> -3 / 2 * Rpower (3 / (4 * PI)) (1 / 3) * Rpower n (4 / 3) = lda_spin n.
Proof. intros _. unfold lda_spin. lra. Qed.
Lemma z_E n tau : 2 * tau / Rpower n (5 / 3) - 3 / 10 * Rpower (3 * (PI * PI)) (2 / 3) * (7937005259841 / 2500000000000) = z_tau n tau.
Proof. unfold z_tau, c_tf. replace (PI ^ 2) with (PI * PI) by ring. decs. f_equal. lra. Qed.
Ltac mx := vred; rewrite !(pbe_x_spin_E _ _ (ph_a _ P)), !(pbe_x_spin_E _ _ (ph_b _ P)), !(w_E _ _ (ph_a _ P)), !(w_E _ _ (ph_b _ P)).
Lemma k_m05x : V m05x = ps3 (fun n g tau => pbe_x_spin n g * series 0 [1; 0.08151; - 0.43956; - 3.22422; 2.01819; 8.79431; - 0.00295; 9.82029; - 4.82351; - 48.17574; 3.64802; 34.02248] (w_tau n tau)) fl.
Proof. mx. unfold ps3, series. decs. field. Qed.
Lemma k_m05x2x : V m05x2x = ps3 (fun n g tau => pbe_x_spin n g * series 0 [1; - 0.56833; - 1.30057; 5.50070; 9.06402; - 32.21075; - 23.73298; 70.22996; 29.88614; - 60.25778; - 13.22205; 15.23694] (w_tau n tau)) fl.
Proof. mx. unfold ps3, series. decs. field. Qed.
Lemma k_m06x2x : V m06x2x = ps3 (fun n g tau => pbe_x_spin n g * series 0 [0.46; - 0.2206052; - 0.09431788; 2.164494; - 2.556466; - 14.22133; 15.55044; 35.98078; - 27.22754; - 39.24093; 15.22808; 15.22227] (w_tau n tau)) fl.
Proof. mx. unfold ps3, series. decs. field. Qed.
Lemma vs98_E al d0 d1 d2 d3 d4 d5 A D0 D1 D2 D3 D4 D5 x2 z : al = A -> d0 = D0 -> d1 = D1 -> d2 = D2 -> d3 = D3 -> d4 = D4 -> d5 = D5 ->
  d0 / (al * (x2 + z) + 1) + (d1 * x2 + d2 * z) / ((al * (x2 + z) + 1) * (al * (x2 + z) + 1))
  + (x2 * (d3 * x2 + d4 * z) + d5 * z * z) / ((al * (x2 + z) + 1) * (al * (x2 + z) + 1) * (al * (x2 + z) + 1)) = vs98 A D0 D1 D2 D3 D4 D5 x2 z.
Proof.
  intros -> -> -> -> -> -> ->. unfold vs98. cbv zeta. rewrite (Rplus_comm _ 1). set (g := 1 + A * (x2 + z)).
  replace (g * g) with (g ^ 2) by ring. replace (g ^ 2 * g) with (g ^ 3) by ring. unfold Rdiv. ring.
Qed.
Ltac mx2 := mx; rewrite !(lda_sp _ (ph_a _ P)), !(lda_sp _ (ph_b _ P)), !z_E; fold (b97_s2 (fl f_a) (fl f_gaa)) (b97_s2 (fl f_b) (fl f_gbb)).
Lemma k_m06x : V m06x = ps3 (fun n g tau => pbe_x_spin n g * series 0 [0.5877943; - 0.1371776; 0.2682367; - 2.515898; - 2.978892; 8.710679; 16.88195; - 4.489724; - 32.99983; - 14.4905; 20.43747; 12.56504] (w_tau n tau)
    + lda_spin n * vs98 0.00186726 0.1422057 0.0007370319 (- 0.01601373) 0 0 0 (b97_s2 n g) (z_tau n tau)) fl.
Proof. mx2. rewrite !(vs98_E _ _ _ _ _ _ _ 0.00186726 0.1422057 0.0007370319 (- 0.01601373) 0 0 0) by (decs; lra). unfold ps3, series. decs. field. Qed.
Lemma k_m06lx : V m06lx = ps3 (fun n g tau => pbe_x_spin n g * series 0 [0.3987756; 0.2548219; 0.3923994; - 2.103655; - 6.302147; 10.97615; 30.97273; - 23.18489; - 56.7348; 21.60364; 34.21814; - 9.049762] (w_tau n tau)
    + lda_spin n * vs98 0.00186726 0.6012244 0.004748822 (- 0.008635108) (- 0.000009308062) 0.00004482811 0 (b97_s2 n g) (z_tau n tau)) fl.
Proof. mx2. rewrite !(vs98_E _ _ _ _ _ _ _ 0.00186726 0.6012244 0.004748822 (- 0.008635108) (- 0.000009308062) 0.00004482811 0) by (decs; lra). unfold ps3, series. decs. field. Qed.
Lemma k_m06hfx : V m06hfx = ps3 (fun n g tau => pbe_x_spin n g * series 0 [0.1179732; - 1.066708; - 0.1462405; 7.481848; 3.776679; - 44.36118; - 18.30962; 100.3903; 38.6436; - 98.06018; - 25.57716; 35.90404] (w_tau n tau)
    + lda_spin n * vs98 0.00186726 (- 0.1179732) (- 0.0025) (- 0.01180056) 0 0 0 (b97_s2 n g) (z_tau n tau)) fl.
Proof. mx2. rewrite !(vs98_E _ _ _ _ _ _ _ 0.00186726 (- 0.1179732) (- 0.0025) (- 0.01180056) 0 0 0) by (decs; lra). unfold ps3, series. decs. field. Qed.
(** Correlation. *)
Lemma q_ab y : 31 / 10000 * y / (31 / 10000 * y + 1) = 0.0031 * y / (1 + 0.0031 * y). Proof. rewrite (Rplus_comm _ 1). decs. reflexivity. Qed.
Lemma q_ss y : 3 / 50 * y / (3 / 50 * y + 1) = 0.06 * y / (1 + 0.06 * y).
Proof. replace (3 / 50) with 0.06 by (decs; lra). rewrite (Rplus_comm _ 1). reflexivity. Qed.
Lemma scf_E n g tau : 1 - 1 / 8 * g / (n * tau) = scf n g tau.
Proof. unfold scf, Rdiv. rewrite !Rinv_mult. ring. Qed.
Ltac mc := let E := fresh in pose proof (pw92_E st x fl P) as E; vred_in E; vred; rewrite ?E; clear E;
  rewrite !(rs6 _ (ph_a _ P)), !(rs6 _ (ph_b _ P)), !(G_1 _ (sqrt_rs_pos _)), !sq_rs; fold (eps_pw92_pol (fl f_a)) (eps_pw92_pol (fl f_b));
  fold (b97_s2 (fl f_a) (fl f_gaa)) (b97_s2 (fl f_b) (fl f_gbb)); rewrite ?z_E.
Lemma k_m05c : V m05c = mcf (fun x2 _ => minn_g 0.0031 [1; 3.78569; - 14.15261; - 7.46589; 17.94491] x2) (fun x2 _ => minn_g 0.06 [1; 3.77344; - 26.04463; 30.69913; - 9.22695] x2) fl.
Proof. mc. rewrite !q_ab, !q_ss, !scf_E. unfold mcf, minn_g, series. cbv zeta. set (qab := 0.0031 * _ / _). set (qa := 0.06 * b97_s2 (fl f_a) _ / _). set (qb := 0.06 * b97_s2 (fl f_b) _ / _). decs. field. Qed.
Lemma k_m05x2c : V m05x2c = mcf (fun x2 _ => minn_g 0.0031 [1; 1.09297; - 3.79171; 2.8281; - 10.58909] x2) (fun x2 _ => minn_g 0.06 [1; - 3.0543; 7.61854; 1.47665; - 11.92365] x2) fl.
Proof. mc. rewrite !q_ab, !q_ss, !scf_E. unfold mcf, minn_g, series. cbv zeta. set (qab := 0.0031 * _ / _). set (qa := 0.06 * b97_s2 (fl f_a) _ / _). set (qb := 0.06 * b97_s2 (fl f_b) _ / _). decs. field. Qed.
Lemma k_m06c : V m06c = mcf (fun x2 z => minn_g 0.0031 [3.741539; 218.7098; - 453.1252; 293.6479; - 62.8747] x2 + vs98 0.00304966 (- 2.741539) (- 0.6720113) (- 0.07932688) 0.001918681 (- 0.002032902) 0 x2 z)
  (fun x2 z => minn_g 0.06 [0.5094055; - 1.491085; 17.23922; - 38.59018; 28.45044] x2 + vs98 0.00515088 0.4905945 (- 0.1437348) 0.2357824 0.001871015 (- 0.003788963) 0 x2 z) fl.
Proof.
  mc. rewrite (vs98_E _ _ _ _ _ _ _ 0.00304966 (- 2.741539) (- 0.6720113) (- 0.07932688) 0.001918681 (- 0.002032902) 0), !(vs98_E _ _ _ _ _ _ _ 0.00515088 0.4905945 (- 0.1437348) 0.2357824 0.001871015 (- 0.003788963) 0) by (decs; lra).
  rewrite !q_ab, !q_ss, !scf_E. unfold mcf, minn_g, series. cbv zeta. set (qab := 0.0031 * _ / _). set (qa := 0.06 * b97_s2 (fl f_a) _ / _). set (qb := 0.06 * b97_s2 (fl f_b) _ / _). decs. field.
Qed.
Lemma k_m06hfc : V m06hfc = mcf (fun x2 z => minn_g 0.0031 [1.674634; 57.32017; 59.55416; - 231.1007; 125.5199] x2 + vs98 0.00304966 (- 0.6746338) (- 0.1534002) (- 0.09021521) (- 0.001292037) (- 0.0002352983) 0 x2 z)
  (fun x2 z => minn_g 0.06 [0.1023254; - 2.453783; 29.1318; - 34.94358; 23.15955] x2 + vs98 0.00515088 0.8976746 (- 0.234583) 0.2368173 (- 0.000991389) (- 0.01146165) 0 x2 z) fl.
Proof.
  mc. rewrite (vs98_E _ _ _ _ _ _ _ 0.00304966 (- 0.6746338) (- 0.1534002) (- 0.09021521) (- 0.001292037) (- 0.0002352983) 0), !(vs98_E _ _ _ _ _ _ _ 0.00515088 0.8976746 (- 0.234583) 0.2368173 (- 0.000991389) (- 0.01146165) 0) by (decs; lra).
  rewrite !q_ab, !q_ss, !scf_E. unfold mcf, minn_g, series. cbv zeta. set (qab := 0.0031 * _ / _). set (qa := 0.06 * b97_s2 (fl f_a) _ / _). set (qb := 0.06 * b97_s2 (fl f_b) _ / _). decs. field.
Qed.
Lemma k_m06lc : V m06lc = mcf (fun x2 z => minn_g 0.0031 [0.6042374; 177.6783; - 251.3252; 76.35173; - 12.55699] x2 + vs98 0.00304966 0.3957626 (- 0.5614546) 0.01403963 0.0009831442 (- 0.003577176) 0 x2 z)
  (fun x2 z => minn_g 0.06 [0.5349466; 0.539662; - 31.61217; 51.49592; - 29.19613] x2 + vs98 0.00515088 0.4650534 0.1617589 0.1833657 0.00046921 (- 0.004990573) 0 x2 z) fl.
Proof.
  mc. rewrite (vs98_E _ _ _ _ _ _ _ 0.00304966 0.3957626 (- 0.5614546) 0.01403963 0.0009831442 (- 0.003577176) 0), !(vs98_E _ _ _ _ _ _ _ 0.00515088 0.4650534 0.1617589 0.1833657 0.00046921 (- 0.004990573) 0) by (decs; lra).
  rewrite !q_ab, !q_ss, !scf_E. unfold mcf, minn_g, series. cbv zeta. set (qab := 0.0031 * _ / _). set (qa := 0.06 * b97_s2 (fl f_a) _ / _). set (qb := 0.06 * b97_s2 (fl f_b) _ / _). decs. field.
Qed.
Lemma k_m06x2c : V m06x2c = mcf (fun x2 z => minn_g 0.0031 [0.8833596; 33.57972; - 70.43548; 49.78271; - 18.52891] x2 + vs98 0.00304966 0.1166404 (- 0.09120847) (- 0.06726189) 0.0000672058 0.0008448011 0 x2 z)
  (fun x2 z => minn_g 0.06 [0.3097855; - 5.528642; 13.4742; - 32.13623; 28.46742] x2 + vs98 0.00515088 0.6902145 0.09847204 0.2214797 (- 0.001968264) (- 0.006775479) 0 x2 z) fl.
Proof.
  mc. rewrite (vs98_E _ _ _ _ _ _ _ 0.00304966 0.1166404 (- 0.09120847) (- 0.06726189) 0.0000672058 0.0008448011 0), !(vs98_E _ _ _ _ _ _ _ 0.00515088 0.6902145 0.09847204 0.2214797 (- 0.001968264) (- 0.006775479) 0) by (decs; lra).
  rewrite !q_ab, !q_ss, !scf_E. unfold mcf, minn_g, series. cbv zeta. set (qab := 0.0031 * _ / _). set (qa := 0.06 * b97_s2 (fl f_a) _ / _). set (qb := 0.06 * b97_s2 (fl f_b) _ / _). decs. field.
Qed.
(** TPSS exchange. *)
Lemma p_E n g : 0 < n -> g * (1 / (4 * Rpower (3 * (PI * PI)) (2 / 3) * Rpower n (8 / 3))) = red2 n g.
Proof.
  intro N. unfold red2, kF. replace (PI ^ 2) with (PI * PI) by ring.
  assert (E : 4 * Rpower (3 * (PI * PI)) (2 / 3) * Rpower n (8 / 3) = (2 * Rpower (3 * (PI * PI) * n) (1 / 3) * n) ^ 2) by mono. rewrite E. unfold Rdiv. ring.
Qed.
Lemma tf_E n : 3 / 10 * Rpower (3 * (PI * PI)) (2 / 3) * Rpower n (5 / 3) = tf n.
Proof. unfold tf, c_tf. replace (PI ^ 2) with (PI * PI) by ring. reflexivity. Qed.
Lemma ux_E n : 0 < n -> -3 / 4 * Rpower (3 / PI) (1 / 3) * Rpower n (4 / 3) = n * ex_gas n.
Proof.
  intro N. unfold ex_gas, kF. assert (E : Rpower (3 / PI) (1 / 3) * Rpower n (4 / 3) = n * (Rpower (3 * PI ^ 2 * n) (1 / 3) / PI)) by mono.
  transitivity (- (3 / 4) * (Rpower (3 / PI) (1 / 3) * Rpower n (4 / 3))); [lra |]. rewrite E. pose proof PI_RGT_0. field. lra.
Qed.
Lemma root_E n g tau : 0 < n -> 0 <= g ->
  g * sqrt (9 / 50 * / (8 * n * tau) ^ 2 + 1 / 2 * (1 / (4 * Rpower (3 * (PI * PI)) (2 / 3) * Rpower n (8 / 3))) * (1 / (4 * Rpower (3 * (PI * PI)) (2 / 3) * Rpower n (8 / 3))))
  = sqrt (1 / 2 * (3 / 5 * (g / (8 * n) / tau)) ^ 2 + 1 / 2 * red2 n g ^ 2).
Proof.
  intros N G. rewrite <- (p_E n g N). set (c := 1 / (4 * _ * _)). transitivity (sqrt (g ^ 2) * sqrt (9 / 50 * / (8 * n * tau) ^ 2 + 1 / 2 * c * c)).
  - rewrite sqrt_pow2 by exact G. reflexivity.
  - rewrite <- sqrt_mult_alt by apply pow2_ge_0. f_equal. unfold Rdiv. rewrite <- pow_inv, !Rinv_mult. generalize (/ n) (/ tau). intros. field.
Qed.
Lemma pow2_mul z : z ^ 2 = z * z. Proof. ring. Qed.
Lemma tpss_E n zz g tau : 0 < n -> 0 <= g -> forall p z al, p = red2 n g -> z = g / (8 * n) / tau -> al = (tau - g / (8 * n)) / tf n -> forall zv r, zv = zz z ->
  r = g * sqrt (9 / 50 * / (8 * n * tau) ^ 2 + 1 / 2 * (1 / (4 * Rpower (3 * (PI * PI)) (2 / 3) * Rpower n (8 / 3))) * (1 / (4 * Rpower (3 * (PI * PI)) (2 / 3) * Rpower n (8 / 3)))) ->
  451 / 250 - 201 / 250 / ((p * (19887 / 12500 * zv / ((z * z + 1) * (z * z + 1)) + 10 / 81)
    + 146 * ((9 / 20 * (al - 1) / sqrt (2 / 5 * al * (al - 1) + 1) + 2 * p / 3) * (9 / 20 * (al - 1) / sqrt (2 / 5 * al * (al - 1) + 1) + 2 * p / 3)) / 2025
    - 73 / 405 * (9 / 20 * (al - 1) / sqrt (2 / 5 * al * (al - 1) + 1) + 2 * p / 3) * r
    + 10 * p / 81 * (10 * p / 81) / (201 / 250) + (10 * (2 * sqrt (1537 / 1000) * (3 / 5) * (3 / 5) * (z * z)) / 81 + 33738687 / 100000000 * (p * p * p)))
    / ((sqrt (1537 / 1000) * p + 1) * (sqrt (1537 / 1000) * p + 1)) / (201 / 250) + 1) = tpss_F (tpss_xx zz n g tau).
Proof.
  intros N G p z al Ep Ez Ea zv r Ev Er. rewrite root_E in Er by assumption. rewrite <- Ez, <- Ep in Er. unfold tpss_F, tpss_xx. cbv zeta. rewrite <- Ez, <- Ep, <- Ea, <- Er, <- Ev.
  replace (1 + 0.40 * al * (al - 1)) with (2 / 5 * al * (al - 1) + 1) by (decs; field). replace 1.537 with (1537 / 1000) by (decs; lra).
  rewrite (Rplus_comm 1 (_ / 0.804)). replace 0.804 with (201 / 250) by (decs; lra). replace (1 + 201 / 250) with (451 / 250) by lra.
  do 4 f_equal.
  set (q := 9 / 20 * (al - 1) / _ + _). replace (1 + z ^ 2) with (z * z + 1) by ring. set (zq := z * z + 1). replace (zq * zq) with (zq ^ 2) by ring.
  set (se := sqrt _). replace ((1 + se * p) ^ 2) with ((se * p + 1) * (se * p + 1)) by ring. f_equal. decs. unfold Rdiv. generalize (/ zq ^ 2). intro. field.
Qed.
Lemma tpss_spin_E zz n g tau : 0 < n -> 0 <= g -> forall zv, zv = zz (g / (8 * n) / tau) ->
  let p := red2 n g in let z := g / (8 * n) / tau in let al := (tau - g / (8 * n)) / tf n in
  let r := g * sqrt (9 / 50 * / (8 * n * tau) ^ 2 + 1 / 2 * (1 / (4 * Rpower (3 * (PI * PI)) (2 / 3) * Rpower n (8 / 3))) * (1 / (4 * Rpower (3 * (PI * PI)) (2 / 3) * Rpower n (8 / 3)))) in
  let q := 9 / 20 * (al - 1) / sqrt (2 / 5 * al * (al - 1) + 1) + 2 * p / 3 in
  451 / 250 - 201 / 250 / ((p * (19887 / 12500 * zv / ((z * z + 1) * (z * z + 1)) + 10 / 81) + 146 * (q * q) / 2025 - 73 / 405 * q * r
    + 10 * p / 81 * (10 * p / 81) / (201 / 250) + (10 * (2 * sqrt (1537 / 1000) * (3 / 5) * (3 / 5) * (z * z)) / 81 + 33738687 / 100000000 * (p * p * p)))
    / ((sqrt (1537 / 1000) * p + 1) * (sqrt (1537 / 1000) * p + 1)) / (201 / 250) + 1) = tpss_F (tpss_xx zz n g tau).
Proof. intros N G zv Ev. cbv zeta. apply tpss_E; auto. Qed.
Lemma k_tpssx : V tpssx = ss3 (fun n g tau => n * ex_gas n * tpss_F (tpss_xx (fun z => z ^ 2) n g tau)) fl.
Proof.
  pose proof (ph_a _ P) as A. pose proof (ph_b _ P) as B. pose proof (ph_gaa _ P) as GA. pose proof (ph_gbb _ P) as GB.
  pose proof (tpss_spin_E (fun z => z ^ 2) (2 * fl f_a) (4 * fl f_gaa) (2 * fl f_taua) ltac:(lra) ltac:(lra) _ (eq_sym (pow2_mul _))) as Ha. 
  pose proof (tpss_spin_E (fun z => z ^ 2) (2 * fl f_b) (4 * fl f_gbb) (2 * fl f_taub) ltac:(lra) ltac:(lra) _ (eq_sym (pow2_mul _))) as Hb. cbv zeta in Ha, Hb. 
  vred. rewrite !(Rmult_assoc _ (4 * fl f_gaa) (sqrt _)), !(Rmult_assoc _ (4 * fl f_gbb) (sqrt _)).
  rewrite root_E in Ha by lra. rewrite root_E in Hb by lra. rewrite !root_E, !tf_E, !p_E, !ux_E by lra. rewrite Ha, Hb. unfold ss3. field.
Qed.
Lemma k_blocx : V blocx_energy = ss3 (fun n g tau => n * ex_gas n * tpss_F (tpss_xx (fun z => Rpower z (4 - 3.3 * z)) n g tau)) fl.
Proof.
  pose proof (ph_a _ P) as A. pose proof (ph_b _ P) as B. pose proof (ph_gaa _ P) as GA. pose proof (ph_gbb _ P) as GB.
  assert (E : forall z, exp (ln z * (4 - 33 / 10 * z)) = Rpower z (4 - 3.3 * z)) by (intro z; unfold Rpower; f_equal; decs; ring).
  pose proof (tpss_spin_E (fun z => Rpower z (4 - 3.3 * z)) (2 * fl f_a) (4 * fl f_gaa) (2 * fl f_taua) ltac:(lra) ltac:(lra) _ (E _)) as Ha. 
  pose proof (tpss_spin_E (fun z => Rpower z (4 - 3.3 * z)) (2 * fl f_b) (4 * fl f_gbb) (2 * fl f_taub) ltac:(lra) ltac:(lra) _ (E _)) as Hb. cbv zeta in Ha, Hb. 
  assert (M : forall u v w y : R, u + -73 / 405 * v * w * y = u - 73 / 405 * v * (w * y)) by (intros; field).
  vred. rewrite !M.
  rewrite root_E in Ha by lra. rewrite root_E in Hb by lra. rewrite !root_E, !tf_E, !p_E, !ux_E by lra. rewrite Ha, Hb. unfold ss3. field.
Qed.
(** TPSS correlation. *)
Lemma pbe_eps_E : V pbec_eps = eps_pbe beta_pbe (eps_pw92 (fl f_n) (fl f_zeta)) (fl f_n) (fl f_zeta) (fl f_gnn).
Proof.
  pose proof (pw92_E st x fl P) as E. vred_in E. vred. rewrite !E, !(phi_E fl P), !(t2_E fl P _ _ (phi_pos fl)), (H_E _ _ _ _ _ gamma_E). unfold eps_pbe, eps_pbe_at, beta_pbe.
  replace 0.06672455060314922 with (3336227530157461 / 50000000000000000) by (decs; lra). reflexivity.
Qed.
Ltac polz N := assert (U : 0 < Rpower 2 (-1 / 3)) by pos; vred; rewrite !(rs6 _ N), !(G_1 _ (sqrt_rs_pos _)), !sq_rs, !(t2_N _ _ _ U N), (H_E _ _ _ _ _ gamma_E).
Ltac polf := unfold eps_pbe_pol, eps_pbe_at, beta_pbe; fold (eps_pw92_pol (fl f_a)) (eps_pw92_pol (fl f_b)); replace (- (1 / 3)) with (-1 / 3) by lra;
  replace 0.06672455060314922 with (3336227530157461 / 50000000000000000) by (decs; lra); reflexivity.
Lemma pbe_pol_a : V (pbec_eps_pbec_eps_polarized d_a d_gaa) = eps_pbe_pol beta_pbe (fl f_a) (fl f_gaa).
Proof. polz (ph_a _ P). polf. Qed.
Lemma pbe_pol_b : V (pbec_eps_pbec_eps_polarized d_b d_gbb) = eps_pbe_pol beta_pbe (fl f_b) (fl f_gbb).
Proof. polz (ph_b _ P). polf. Qed.
Ltac locf := unfold eps_pbe_pol, eps_pbe, eps_pbe_at, beta_loc.
Lemma loc_eps_E : V tpsslocc_pbeloc_eps = eps_pbe beta_loc (eps_pw92 (fl f_n) (fl f_zeta)) (fl f_n) (fl f_zeta) (fl f_gnn).
Proof.
  pose proof (pw92_E st x fl P) as E. vred_in E. vred. rewrite !E, !(phi_E fl P), !(t2_E fl P _ _ (phi_pos fl)), (H_E _ _ _ _ _ gamma_E). unfold eps_pbe, eps_pbe_at, beta_loc.
  rewrite (ph_rs _ P). do 2 f_equal. replace (- rs (fl f_n) ^ 2) with (- rs (fl f_n) * rs (fl f_n)) by ring. decs. lra.
Qed.
Lemma rs_E n : 0 < n -> Rpower (3 / (4 * PI)) (1 / 3) * Rpower n (-1 / 3) = rs n.
Proof. intro N. unfold rs. mono. Qed.
Ltac locp N := polz N; rewrite !(rs_E _ N); unfold eps_pbe_pol, eps_pbe_at, beta_loc; fold (eps_pw92_pol (fl f_a)) (eps_pw92_pol (fl f_b)); replace (- (1 / 3)) with (-1 / 3) by lra;
  do 2 f_equal; match goal with |- context [exp (- ?r ^ 2)] => replace (- r ^ 2) with (- r * r) by ring end; decs; lra.
Lemma loc_pol_a : V (tpsslocc_pbeloc_eps_pola d_a d_gaa) = eps_pbe_pol beta_loc (fl f_a) (fl f_gaa).
Proof. locp (ph_a _ P). Qed.
Lemma loc_pol_b : V (tpsslocc_pbeloc_eps_pola d_b d_gbb) = eps_pbe_pol beta_loc (fl f_b) (fl f_gbb).
Proof. locp (ph_b _ P). Qed.
Lemma C_E q c0 : q = c0 -> (87 / 100 * (fl f_zeta * fl f_zeta) + q + 1 / 2 * fl f_zeta ^ 4 + 113 / 50 * fl f_zeta ^ 6) *
  / (1 / 2 * ((fl f_n * fl f_n * fl f_gss - 2 * fl f_n * fl f_s * fl f_gns + fl f_s * fl f_s * fl f_gnn) / fl f_n ^ 4 / (4 * Rpower (3 * (PI * PI) * fl f_n) (2 / 3))) *
     (Rpower (fl f_zeta + 1) (-4 / 3) + Rpower (1 - fl f_zeta) (-4 / 3)) + 1) ^ 4 = tcC c0 fl.
Proof.
  intros ->. pose proof (n_pos fl P) as N. unfold tcC. cbv zeta.
  assert (K : kF (fl f_n) ^ 2 = Rpower (3 * (PI * PI) * fl f_n) (2 / 3)) by (unfold kF; mono). rewrite K.
  replace (fl f_n * fl f_n) with (fl f_n ^ 2) by ring. replace (fl f_s * fl f_s) with (fl f_s ^ 2) by ring. set (xi2 := _ / (4 * _)).
  replace (- (4 / 3)) with (-4 / 3) by lra. rewrite (Rplus_comm 1 (fl f_zeta)). set (w := Rpower _ _ + Rpower _ _).
  replace (1 + xi2 * w / 2) with (1 / 2 * xi2 * w + 1) by field. match goal with |- _ = ?a / ?b => change (a / b) with (a * / b) end. apply (f_equal (fun y => y * _)). decs. field.
Qed.
Lemma zt_E : fl f_gnn / (8 * fl f_n * fl f_tau) = fl f_gnn / (8 * fl f_n) / fl f_tau.
Proof. unfold Rdiv. rewrite Rinv_mult. ring. Qed.
Lemma k_tpssc : V tpssc = tcf beta_pbe 0.53 2.8 fl.
Proof.
  pose proof pbe_eps_E as E. pose proof pbe_pol_a as Ea. pose proof pbe_pol_b as Eb. vred_in E. vred_in Ea. vred_in Eb. vred. rewrite !E, !Ea, !Eb. clear E Ea Eb.
  rewrite !(C_E _ 0.53) by (decs; lra). rewrite !zt_E. unfold tcf. cbv zeta. set (C := tcC _ fl). set (z := _ / fl f_tau). set (e := eps_pbe _ _ _ _ _). set (sum := _ / fl f_n). decs. field.
Qed.
Lemma k_tpsslocc : V tpsslocc_energy = tcf beta_loc 0.35 4.5 fl.
Proof.
  pose proof loc_eps_E as E. pose proof loc_pol_a as Ea. pose proof loc_pol_b as Eb. vred_in E. vred_in Ea. vred_in Eb. vred. rewrite !E, !Ea, !Eb. clear E Ea Eb.
  rewrite !(C_E _ 0.35) by (decs; lra). rewrite !zt_E. unfold tcf. cbv zeta. set (C := tcC _ fl). set (z := _ / fl f_tau). set (e := eps_pbe _ _ _ _ _). set (sum := _ / fl f_n). decs. field.
Qed.
(** Range separation. *)
Lemma K_E n g : 0 < n -> 0 <= g -> / 2 <= g / Rpower n (8 / 3) ->
  2 * (21 / 5000 * (g * Rpower n (-8 / 3)) / (63 / 2500 * sqas (g * Rpower n (-8 / 3)) + 1) + Rpower (81 / (4 * PI)) (1 / 3) / 2) = becke_K n g.
Proof.
  intros N G H. unfold becke_K. rewrite <- lda_spin_eq, <- k_b88_corr by assumption. assert (Z : Rpower n (4 / 3) <> 0) by (apply Rgt_not_eq; pos). generalize (63 / 2500 * sqas (g * Rpower n (-8 / 3)) + 1). intro q.
  generalize dependent (Rpower n (4 / 3)). intros y Z. unfold Rdiv. generalize (/ q). intro i. field. exact Z.
Qed.
Lemma br_E a : sqrt PI * erfR (1 / (2 * a)) + 2 * a * (exp (-1 / (4 * a * a)) - 1 - (2 * a * a * (exp (-1 / (4 * a * a)) - 1) + 1 / 2))
  = sqrt PI * erf (1 / (2 * a)) + (2 * a - 4 * a ^ 3) * exp (- (1 / (4 * a ^ 2))) - 3 * a + 4 * a ^ 3.
Proof.
  change erfR with erf. replace (-1 / (4 * a * a)) with (- (1 / (4 * a ^ 2))) by (replace (4 * a * a) with (4 * a ^ 2) by ring; unfold Rdiv; ring). field.
Qed.
Lemma k_beckesrx : steep fl -> V beckex_beckesrx = ps (fun n g => - (1 / 2) * Rpower n (4 / 3) * becke_K n g * (1 - 0 - 1 * lr_part (becke_a (st 78%nat) n g))) fl.
Proof.
  intros [A B]. pose proof (ph_gaa _ P) as GA. pose proof (ph_gbb _ P) as GB. vred. rewrite !(K_E _ _ (ph_a _ P) GA A), !(K_E _ _ (ph_b _ P) GB B).
  fold (becke_a (st 78%nat) (fl f_a) (fl f_gaa)) (becke_a (st 78%nat) (fl f_b) (fl f_gbb)). rewrite !br_E. unfold ps, lr_part. field.
Qed.
Lemma k_beckecamx : steep fl -> V beckex_beckecamx = ps (fun n g => - (1 / 2) * Rpower n (4 / 3) * becke_K n g * (1 - st 80%nat - st 81%nat * lr_part (becke_a (st 78%nat) n g))) fl.
Proof.
  intros [A B]. pose proof (ph_gaa _ P) as GA. pose proof (ph_gbb _ P) as GB. vred. rewrite !(K_E _ _ (ph_a _ P) GA A), !(K_E _ _ (ph_b _ P) GB B).
  fold (becke_a (st 78%nat) (fl f_a) (fl f_gaa)) (becke_a (st 78%nat) (fl f_b) (fl f_gbb)). rewrite !br_E. unfold ps, lr_part. field.
Qed.
(** The branch of the range-separated local density functional that holds the formula. *)
Definition mid_range (mu : R) (fl : fld -> R) : Prop :=
  (1 / 1000000000 <= ldaerf_a mu (2 * fl f_a) < 100) /\ (1 / 1000000000 <= ldaerf_a mu (2 * fl f_b) < 100).
Lemma erf_E n a : 0 < n -> 1 / 1000000000 <= a < 100 -> forall u v,
  (if Rlt_dec a (1 / 1000000000) then u else if Rlt_dec a 100 then - (n * Rpower (24 * n / PI) (1 / 3)) *
     (3 / 8 - a * (sqrt PI * erfR (1 / 2 / a) + (2 * a - 4 * (a * a * a)) * exp (-1 / 4 / (a * a)) - 3 * a + 4 * (a * a * a))) else v) = n * ex_gas n * (1 - lr_part a).
Proof.
  intros N [L U] u v. destruct (Rlt_dec a _) as [h|_]; [lra|]. destruct (Rlt_dec a 100) as [_|h]; [|lra].
  assert (E : n * Rpower (24 * n / PI) (1 / 3) = - (8 / 3 * (n * ex_gas n))).
  { unfold ex_gas, kF. transitivity (8 / 3 * (n * (3 * Rpower (3 * PI ^ 2 * n) (1 / 3) / (4 * PI)))); [|ring]. mono. }
  rewrite E. unfold lr_part. change erfR with erf. assert (A : a <> 0) by lra.
  replace (1 / 2 / a) with (1 / (2 * a)) by (field; exact A). replace (-1 / 4 / (a * a)) with (- (1 / (4 * a ^ 2))) by (field; exact A). field.
Qed.
Lemma k_ldaerfx : mid_range (st 78%nat) fl -> V ldaerfx_lda_erfx = ss (fun n _ => n * ex_gas n * (1 - lr_part (ldaerf_a (st 78%nat) n))) fl.
Proof.
  intros [A B]. pose proof (ph_a _ P) as PA. pose proof (ph_b _ P) as PB. vred.
  assert (E : forall y, st 78%nat / (2 * (386708465785017 / 125000000000000 * Rpower y (1 / 3))) = ldaerf_a (st 78%nat) y).
  { intro y. unfold ldaerf_a. do 3 f_equal. decs. lra. }
  rewrite !E, !erf_E by (assumption || lra). unfold ss. field.
Qed.
End M.
