(** * Perdew-Wang 1991 correlation and the short-range local correlation agree with the formulas of the literature *)
From Coq Require Import Reals QArith Qreals ZArith Arith Lia Lra List Bool String.
From Coquelicot Require Import Coquelicot.
From Verif Require Import Scalar RInst CTaylor CtAlg TMath Fps TFam TExp Ad Br Expr Functionals Sem AdEval RSem Dom Phys Value Published PubTac PubX PubC PubM PubS PubS2.
Import ListNotations.
Local Open Scope R_scope.
(** ** Pieces *)
Lemma G91 A a b1 b2 b3 b4 c0 r : 0 < r -> c0 = - (2 * A) ->
  c0 * (a * r + 1) * ln (1 / 2 / (A * (sqrt r * (sqrt r * (b3 * sqrt r + b2) + b1) + b4 * Rpower r 2)) + 1) = pw92_G A a b1 b2 b3 b4 r.
Proof.
  intros Hr ->. unfold pw92_G. pose proof (sqrt_lt_R0 r Hr) as S. replace (Rpower r 2) with (r ^ 2) by (rewrite <- Rpower_pow by exact Hr; f_equal; cbn; lra).
  set (s := sqrt r) in *. assert (Er : r = s * s) by (unfold s; rewrite sqrt_sqrt; lra).
  replace (s * (s * (b3 * s + b2) + b1) + b4 * r ^ 2) with (b1 * s + b2 * r + b3 * (r * s) + b4 * r ^ 2) by (rewrite Er; ring).
  set (X := b1 * s + b2 * r + b3 * (r * s) + b4 * r ^ 2). replace (1 / 2 / (A * X) + 1) with (1 + 1 / (2 * A * X)); [ring|].
  rewrite Rplus_comm. f_equal. unfold Rdiv. rewrite !Rmult_1_l, (Rmult_assoc 2 A X), (Rinv_mult 2). reflexivity.
Qed.
Lemma G91L A a b1 b2 b3 b4 A' a' b1' b2' b3' b4' c0 r : 0 < r -> c0 = - (2 * A) -> A' = A -> a' = a -> b1' = b1 -> b2' = b2 -> b3' = b3 -> b4' = b4 ->
  c0 * (a' * r + 1) * ln (1 / 2 / (A' * (sqrt r * (sqrt r * (b3' * sqrt r + b2') + b1') + b4' * Rpower r 2)) + 1) = pw92_G A a b1 b2 b3 b4 r.
Proof. intros Hr H -> -> -> -> -> ->. now apply G91. Qed.
Lemma g2_E q c1 c2 c3 u y : 0 < y -> c1 = 0.4319 - 0.454555 -> c2 = 0.4319 -> c3 = 0.04 -> q = 1 / pm_alpha -> u = y ->
  Rpower 2 (5 / 3) / 5 * q ^ 2 / (u * u) * (c1 * u + 1) / (c2 * u + 1 + c3 * (u * u)) = pm_g2 y.
Proof.
  intros Y -> -> -> -> ->. unfold pm_g2. assert (0 < pm_alpha) by (unfold pm_alpha; apply exp_pos).
  replace (0.4319 * y + 1 + 0.04 * (y * y)) with (1 + 0.4319 * y + 0.04 * y ^ 2) by ring. set (Dn := 1 + _ + _). unfold Rdiv.
  replace (5 * pm_alpha ^ 2 * y ^ 2) with (5 * (pm_alpha * pm_alpha * (y * y))) by ring. rewrite !Rinv_mult. ring.
Qed.
Lemma cf_E : Rpower (9 * PI / 4) (1 / 3) = 1 / pm_alpha.
Proof. unfold pm_alpha. mono. Qed.
Lemma al_E : Rpower (4 / 9 / PI) (1 / 3) = pm_alpha.
Proof. unfold pm_alpha. f_equal. unfold Rdiv. rewrite Rinv_mult. ring. Qed.
Lemma g0_E r : (r * (r * (r * (92949 / 50000000 * r + -127713 / 10000000) + 409653 / 5000000) + 20711 / 1000000) + 1) * exp (-752411 / 1000000 * r) / 2 = pm_g0 r.
Proof.
  unfold pm_g0. replace (-752411 / 1000000 * r) with (- (0.752411 * r)) by (decs; field). decs. field.
Qed.
Lemma Q_E x : 2 * (ln 2 - 1) / (PI * PI) * ln ((x * (x * (12242 / 3125 * x + (344851 / 100000 - 3 / (2 * PI * (2 * (ln 2 - 1) / (PI * PI))) * Rpower (4 / (9 * PI)) (1 / 3))) + 116921 / 20000) + 1)
   / (x * (344851 / 100000 * x + 116921 / 20000) + 1)) = pm_Q x.
Proof.
  unfold pm_Q. fold pm_alpha. pose proof PI_RGT_0 as Hp. assert (L : ln 2 < 1) by (pose proof (exp_ineq1 1 ltac:(lra)); rewrite <- (ln_exp 1); apply ln_increasing; lra).
  replace (3 / (2 * PI * (2 * (ln 2 - 1) / (PI * PI))) * pm_alpha) with (3 * PI * pm_alpha / (4 * ln 2 - 4)) by (field; repeat split; lra).
  set (b := 3 * PI * pm_alpha / _).
  replace (x * (x * (12242 / 3125 * x + (344851 / 100000 - b)) + 116921 / 20000) + 1) with (1 + 5.84605 * x + (3.44851 - b) * x ^ 2 + 3.91744 * x ^ 3) by (decs; field).
  replace (x * (344851 / 100000 * x + 116921 / 20000) + 1) with (1 + 5.84605 * x + 3.44851 * x ^ 2) by (decs; field).
  f_equal. field. lra.
Qed.

Section S.
Variables (st : nat -> R) (x : nat -> R) (fl : fld -> R).
Hypothesis P : phys fl.
Notation tv := (tv (st : nat -> T ROps) x fl).
Notation V := (tv []).
Ltac red_in E := match type of E with ?l = ?r =>
  let r' := eval cbv -[Rplus Rmult Ropp Rminus Rdiv Rinv Rpower ln exp sqrt PI IZR sqas erfR cbrtR arcsinh atan Rlt_dec Rabs Rmax pow Q2R] in r in change (l = r') in E end.
Ltac hd := match goal with |- Value.tv ?a ?b ?c ?r ?e = ?d => let e' := eval hnf in e in change (Value.tv a b c r e' = d) end.
Tactic Notation "stq" ident(v) ident(E) := hd; apply tv_let; intros v E.
Tactic Notation "stp" ident(v) ident(E) := stq v E; red_in E.
Ltac fin := match goal with |- ?l = ?r =>
  let l' := eval cbv -[Rplus Rmult Ropp Rminus Rdiv Rinv Rpower ln exp sqrt PI IZR sqas erfR cbrtR arcsinh atan Rlt_dec Rabs Rmax pow Q2R] in l in change (l' = r) end.
Definition pw91_v : R :=
  let n := fl f_n in let z := fl f_zeta in let phi := pbe_phi z in let t2 := pbe_t2 phi n (fl f_gnn) in let e := eps_pw91 n z in
  n * (e + pw91_H0 phi t2 e + pw91_H1 n phi t2).
Lemma k_pw91c : V pw91c = pw91_v.
Proof.
  pose proof (n_pos fl P) as N. pose proof (rs_pos (fl f_n)) as Hr. pose proof (z_a fl P) as Za. pose proof (z_b fl P) as Zb. pose proof (z_lo fl P) as Zl. pose proof (z_hi fl P) as Zh.
  stp f Ef. stp a Ea. stp p Ep. stp f1 Ef1. stp e Ee. stp k Ek. stp s Es. stp g Eg. stp t Et. stp A EA. stp C EC. stp H0 EH0. stp H1 EH1. fin.
  rewrite (ph_rs _ P) in Ea, Ep, Ef1, EC. set (n := fl f_n) in *. set (z := fl f_zeta) in *.
  assert (Uf : forall q, (Rpower (fl f_a) q + Rpower (fl f_b) q) * Rpower (2 / n) q = Rpower (1 + z) q + Rpower (1 - z) q).
  { intro q. rewrite Za, Zb, Rmult_plus_distr_r, !Rpower_mult_distr by (pos || (apply Rmult_lt_0_compat; lra) || (apply Rdiv_lt_0_compat; lra)).
    f_equal; f_equal; field; lra. }
  rewrite Uf in Ef, Eg.
  assert (F : f = fz z) by (rewrite Ef; unfold fz, fz_num; rewrite two43; reflexivity).
  assert (Pa : a = pw92_G 0.016887 0.11125 10.357 3.6231 0.88026 0.49671 (rs n)) by (rewrite Ea; apply G91L; [exact Hr|decs; lra ..]).
  assert (Pp : p = pw92_G 0.031091 0.21370 7.5957 3.5876 1.6382 0.49294 (rs n)) by (rewrite Ep; apply G91L; [exact Hr|decs; lra ..]).
  assert (Pf : f1 = pw92_G 0.015545 0.20548 14.1189 6.1977 3.3662 0.62517 (rs n)) by (rewrite Ef1; apply G91L; [exact Hr|decs; lra ..]).
  assert (Pe : e = eps_pw91 n z) by (rewrite Ee, F, Pa, Pp, Pf; unfold eps_pw91; replace 1.709921 with (1709921 / 1000000) by (decs; lra); field).
  assert (Pk : k = kF n) by (rewrite Ek; unfold kF; f_equal; ring). assert (Kp : 0 < k) by (rewrite Pk; unfold kF; apply exp_pos). pose proof PI_RGT_0 as Hp.
  assert (S2 : s ^ 2 = 4 * kF n / PI).
  { rewrite Es. replace ((sqrt 4 * sqrt (k / PI)) ^ 2) with ((sqrt 4 * sqrt 4) * (sqrt (k / PI) * sqrt (k / PI))) by ring. rewrite !sqrt_sqrt by (lra || (apply Rlt_le, Rdiv_lt_0_compat; lra)). rewrite Pk. field. lra. }
  assert (Pg : g = pbe_phi z) by (rewrite Eg; unfold pbe_phi; field). assert (Gp : 0 < g) by (rewrite Pg; exact (phi_pos fl)).
  assert (Pt : t = pbe_t2 g n (fl f_gnn)).
  { rewrite Et. unfold pbe_t2. replace ((g * s * n) ^ 2) with (g ^ 2 * s ^ 2 * n ^ 2) by ring. rewrite S2, <- Pk. field. repeat split; lra. }
  assert (Pc : C = p86_C (rs n)).
  { rewrite EC. rewrite <- p86_C_E by exact Hr. assert (0 < rs n * (rs n * (7389 / 100000 * rs n + 59 / 125) + 8723 / 1000) + 1) by (assert (0 < rs n * (7389 / 100000 * rs n + 59 / 125)) by (apply Rmult_lt_0_compat; lra); assert (0 < rs n * (rs n * (7389 / 100000 * rs n + 59 / 125) + 8723 / 1000)) by (apply Rmult_lt_0_compat; lra); lra). field. lra. }
  assert (Nu : 16 * cbrtR (3 * PI * PI) / PI = pw91_nu).
  { unfold pw91_nu. rewrite cbrtR_pos by (apply Rmult_lt_0_compat; [apply Rmult_lt_0_compat|]; lra). replace (3 * PI * PI) with (3 * PI ^ 2) by ring. field. lra. }
  rewrite !Nu in EA, EH0, EH1. assert (Np : 0 < pw91_nu) by (unfold pw91_nu; apply Rmult_lt_0_compat; [apply Rdiv_lt_0_compat; lra|apply exp_pos]).
  unfold pw91_v. cbv zeta. fold n z. rewrite <- Pe, <- Pg, <- Pt. f_equal. f_equal; [f_equal|].
  - rewrite EH0. unfold pw91_H0. cbv zeta. replace 0.004235 with (847 / 200000) by (decs; lra). replace 0.09 with (9 / 100) by (decs; lra). set (b := pw91_nu * (847 / 200000)) in *.
    assert (Bp : 0 < b) by (unfold b; apply Rmult_lt_0_compat; lra).
    assert (Q : 2 * (9 / 100) / b / (exp (- (2 * (9 / 100) * e / (g ^ 3 * b ^ 2))) - 1) = A).
    { rewrite EA. replace (2 * (9 / 100)) with (9 / 50) by lra. do 4 f_equal. field. split; lra. }
    rewrite Q. replace (b * (b * (1 / 2 * g ^ 3)) / (9 / 100)) with (g ^ 3 * (b ^ 2 / (2 * (9 / 100)))) by field. f_equal. f_equal. rewrite Rplus_comm. f_equal.
    replace (1 + A * t + A ^ 2 * t ^ 2) with (A * t * (A * t + 1) + 1) by ring. unfold Rdiv. rewrite Rinv_mult. ring.
  - rewrite EH1, Pc. unfold pw91_H1. rewrite <- S2, <- Pk. replace 0.004235 with (847 / 200000) by (decs; lra). replace 0.001667 with (1667 / 1000000) by (decs; lra).
    replace (- (100 * g ^ 4 * (s ^ 2 / k ^ 2) * t)) with (-100 * g ^ 4 * s ^ 2 * t / k ^ 2) by (field; lra). f_equal. field.
Qed.
Lemma k_ldaerfc : V ldaerfc = fl f_n * (eps_pw92 (fl f_n) (fl f_zeta) - pm_lr (st 78%nat) (rs (fl f_n)) (fl f_zeta) (eps_pw92 (fl f_n) (fl f_zeta))).
Proof.
  pose proof (rs_pos (fl f_n)) as Hr. pose proof (z_lo fl P) as Zl. pose proof (z_hi fl P) as Zh.
  stq e Ee. rewrite (pw92_E st x fl P) in Ee. rewrite <- Ee. clear Ee. fin. rewrite (ph_rs _ P). set (r := rs (fl f_n)) in *. set (z := fl f_zeta) in *. set (mu := st 78%nat).
  rewrite !(Rplus_comm z 1). change ((Rpower (1 + z) (2 / 3) + Rpower (1 - z) (2 / 3)) / 2) with (pbe_phi z).
  rewrite Q_E, !g0_E.
  assert (Ya : 0 < r * Rpower (2 / (1 + z)) (1 / 3)) by (apply Rmult_lt_0_compat; [exact Hr|apply exp_pos]).
  assert (Yb : 0 < r * Rpower (2 / (1 - z)) (1 / 3)) by (apply Rmult_lt_0_compat; [exact Hr|apply exp_pos]).
  rewrite !(g2_E _ _ _ _ _ _ Ya), !(g2_E _ _ _ _ _ _ Yb) by (exact cf_E || reflexivity || (decs; lra)). rewrite al_E.
  unfold pm_lr. cbv zeta. unfold pm_c4, pm_c5, pm_par, pm_D2, pm_D3.
  replace (-547 / 1000 * r) with (- (0.547 * r)) by (decs; field). replace (-31 / 100 * r) with (- (0.31 * r)) by (decs; field).
  assert (0 < pm_alpha) by (unfold pm_alpha; apply exp_pos). pose proof PI_RGT_0. assert (0 < sqrt (2 * PI)) by (apply sqrt_lt_R0; lra).
  generalize dependent (sqrt (2 * PI)). intros q Hq. generalize dependent pm_alpha. intros al Hal.
  set (Q := pm_Q _). set (ph := pbe_phi z). set (g0 := pm_g0 r). set (ga := pm_g2 _). set (gb := pm_g2 _). set (e2 := exp _). set (e3 := exp _). set (za := Rpower _ (8 / 3)). set (zb := Rpower _ (8 / 3)).
  replace (784949 / 1000000 * r) with (0.784949 * r) by (decs; field). set (b := 0.784949 * r).
  replace (- (1 - z * z) * g0 / (q * (r * r * r))) with (- ((1 - z ^ 2) * g0 / (q * r ^ 3))) by (field; split; lra).
  replace (-3 / 8 / (r * r * r) * (1 - z * z) * (g0 - 1 / 2)) with (- (3 * (1 - z ^ 2) * (g0 - 1 / 2) / (8 * r ^ 3))) by (field; lra).
  replace ((-99 / 20 * r + 1 * (r * r)) * e2 / (r * r * r)) with (e2 / r ^ 3 * (- (4.95 * r) + r ^ 2)) by (decs; field; lra).
  replace ((-97 / 250 * r + 169 / 250 * (r * r)) * e3 / (r * r)) with (e3 / r ^ 2 * (- (0.388 * r) + 0.676 * r ^ 2)) by (decs; field; lra).
  replace ((1 / al) ^ 2 / 10 * (za + zb) / (r * r)) with ((za + zb) / 2 / (5 * al ^ 2 * r ^ 2)) by (field; split; lra).
  set (C3 := - ((1 - z ^ 2) * g0 / (q * r ^ 3))). set (C2 := - (3 * (1 - z ^ 2) * (g0 - 1 / 2) / (8 * r ^ 3))). replace (1 - z * z) with (1 - z ^ 2) by ring.
  set (c4 := ((1 + z) / 2) ^ 2 * ga + ((1 - z) / 2) ^ 2 * gb + (1 - z ^ 2) * (e3 / r ^ 2 * (- (0.388 * r) + 0.676 * r ^ 2)) - (za + zb) / 2 / (5 * al ^ 2 * r ^ 2)).
  set (c5 := ((1 + z) / 2) ^ 2 * ga + ((1 - z) / 2) ^ 2 * gb + (1 - z ^ 2) * (e2 / r ^ 3 * (- (4.95 * r) + r ^ 2))).
  replace (-9 / 40 / (q * (r * r * r)) * c5) with (- (9 * c5 / (40 * q * r ^ 3))) by (field; split; lra).
  replace (-9 / 64 / (r * r * r) * c4) with (- (9 * c4 / (64 * r ^ 3))) by (field; lra).
  replace ((mu * b) ^ 2 + 1) with (1 + b ^ 2 * mu ^ 2) by ring. f_equal. f_equal. f_equal. ring.
Qed.
End S.
