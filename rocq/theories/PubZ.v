(** * zvPBEsol, zvPBEint, Toulouse's and Borgoo and Tozer's functionals and the formulas of the literature *)
From Coq Require Import Reals QArith Qreals ZArith Arith Lia Lra Psatz List Bool String.
From Coquelicot Require Import Coquelicot.
From Verif Require Import Scalar RInst CTaylor CtAlg TMath Fps TFam TExp Ad Br Expr Functionals Sem AdEval RSem Dom Phys Value Published PubTac PubX PubC PubL PolyB.
Import ListNotations.
Local Open Scope R_scope.
(** ** The fit of |zeta|^(9/2) *)
(** zvpbesolc.cpp 76-82. *)
Definition zv_fit (z : R) : R := (0.462757 + 1.30129 * z ^ 2 - 1.59546 * z ^ 4 + 1.19635 * z ^ 6 - 0.36519 * z ^ 8) * z ^ 4.
Lemma zv_fit_gap z : -1 <= z <= 1 -> Rabs (zv_fit z - zv_w z) <= 3 / 10000.
Proof.
  intro Z. set (q := sqrt (Rabs z)). assert (Q : 0 <= q <= 1).
  { split; [apply sqrt_pos|]. rewrite <- sqrt_1. apply sqrt_le_1_alt. apply Rabs_le. lra. }
  pose proof (bounded_sound 14 fit_gap (3 # 10000) 0 1 q fit_gap_small) as B.
  assert (E1 : Q2R 1 = 1) by (unfold Q2R; cbn; lra). rewrite Q2R_0', E1 in B. specialize (B Q).
  assert (E3 : Q2R (3 # 10000) = 3 / 10000) by (unfold Q2R; cbn; lra). rewrite E3 in B.
  replace (zv_fit z - zv_w z) with (pev fit_gap q); [exact B|]. unfold zv_w. fold q.
  assert (Z2 : z ^ 2 = q ^ 4). { assert (Eq : q * q = Rabs z) by (apply sqrt_sqrt, Rabs_pos). replace (q ^ 4) with ((q * q) * (q * q)) by ring. rewrite Eq, <- Rabs_mult, Rabs_right; [ring|nra]. }
  unfold zv_fit. replace (z ^ 8) with (z ^ 2 * z ^ 2 * z ^ 2 * z ^ 2) by ring. replace (z ^ 6) with (z ^ 2 * z ^ 2 * z ^ 2) by ring. replace (z ^ 4) with (z ^ 2 * z ^ 2) by ring. rewrite Z2.
  unfold fit_gap. cbn [pev]. unfold Q2R. cbn [Qnum Qden]. lra.
Qed.
Lemma zv_fit_nn z : -1 <= z <= 1 -> 0 <= zv_fit z.
Proof.
  intro Z. unfold zv_fit. assert (Y : 0 <= z ^ 2 <= 1) by (split; nra). replace (z ^ 8) with ((z ^ 2) ^ 4) by ring. replace (z ^ 6) with ((z ^ 2) ^ 3) by ring. replace (z ^ 4) with ((z ^ 2) ^ 2) by ring.
  set (y := z ^ 2) in *. clearbody y. decs. apply Rmult_le_pos; [|nra]. assert (0 <= y ^ 2 <= y) by nra. assert (0 <= y ^ 3) by (apply pow_le; lra).
  assert (y ^ 4 <= y ^ 3) by (replace (y ^ 4) with (y * y ^ 3) by ring; nra). lra.
Qed.
Lemma zv_w_nn z : 0 <= zv_w z. Proof. apply pow_le, sqrt_pos. Qed.
Lemma exp_gap a b : 0 <= a -> 0 <= b -> Rabs (exp (- a) - exp (- b)) <= Rabs (a - b).
Proof.
  assert (G : forall a b, 0 <= a -> a <= b -> 0 <= exp (- a) - exp (- b) <= b - a).
  { intros u v U L. pose proof (exp_pos (- u)). assert (exp (- u) <= 1) by (rewrite <- exp_0; (destruct (Req_dec u 0) as [->|]; [rewrite Ropp_0; lra|left; apply exp_increasing; lra])).
    assert (E : exp (- v) = exp (- u) * exp (u - v)) by (rewrite <- exp_plus; f_equal; lra). pose proof (exp_ineq1_le (u - v)).
    assert (exp (u - v) <= 1) by (rewrite <- exp_0; destruct (Req_dec (u - v) 0) as [->|]; [lra|left; apply exp_increasing; lra]). nra. }
  intros A B. destruct (Rle_dec a b) as [L|L].
  - pose proof (G a b A L). rewrite Rabs_right, Rabs_left1; lra.
  - pose proof (G b a B ltac:(lra)). rewrite Rabs_left1, Rabs_right; lra.
Qed.
Lemma btk_E n g : 0 < n -> 0 < g ->
  248791 / 125000 * Rpower n (5 / 3) * Rpower g (27473 / 160000) / Rpower n (27473 / 60000) = btk_T n g.
Proof.
  intros N G. unfold btk_T. destruct (Rlt_dec 0 g) as [_|X]; [|contradiction]. replace 0.3434125 with (27473 / 80000) by (decs; lra). replace 1.990328 with (248791 / 125000) by (decs; lra).
  rewrite <- (Rpower_sqrt g G). mono.
Qed.
Lemma btk_T_nn n g : 0 <= btk_T n g.
Proof. unfold btk_T. destruct (Rlt_dec 0 g); [|lra]. left. pos. Qed.
Lemma btk_near n g d delta : 0 < n -> 0 < g -> 0 < d -> d <= delta * g -> btk_T n g <= btk_T n (g + d) <= btk_T n g * (1 + delta).
Proof.
  intros N G Hd L. rewrite <- !btk_E by lra.
  assert (Q : Rpower (g + d) (27473 / 160000) = Rpower g (27473 / 160000) * Rpower (1 + d / g) (27473 / 160000)).
  { rewrite Rpower_mult_distr; [f_equal; field; lra|exact G|]. assert (0 < d / g) by (apply Rdiv_lt_0_compat; lra). lra. }
  assert (U : 0 < d / g <= delta) by (split; [apply Rdiv_lt_0_compat; lra|apply (Rmult_le_reg_r g); [exact G|]; unfold Rdiv; rewrite Rmult_assoc, Rinv_l by lra; lra]).
  assert (B : 1 <= Rpower (1 + d / g) (27473 / 160000) <= 1 + delta).
  { split.
    - rewrite <- (Rpower_O (1 + d / g)) at 1 by lra. apply Rle_Rpower; lra.
    - apply (Rle_trans _ (Rpower (1 + d / g) 1)); [apply Rle_Rpower; lra|rewrite Rpower_1; lra]. }
  rewrite Q. set (k := 248791 / 125000 * Rpower n (5 / 3) * Rpower g (27473 / 160000) / Rpower n (27473 / 60000)).
  replace (248791 / 125000 * Rpower n (5 / 3) * (Rpower g (27473 / 160000) * Rpower (1 + d / g) (27473 / 160000)) / Rpower n (27473 / 60000)) with (k * Rpower (1 + d / g) (27473 / 160000)) by (unfold k, Rdiv; ring).
  assert (0 < k) by (unfold k; pos). split; nra.
Qed.
Section P.
Variables (st : nat -> R) (x : nat -> R) (fl : fld -> R).
Hypothesis P : phys fl.
Notation V := (tv (st : nat -> T ROps) x fl []).
Definition zv_v0 (beta alpha w : R) : R :=
  let n := fl f_n in let z := fl f_zeta in let phi := pbe_phi z in let e := eps_pw92 n z in let t2 := pbe_t2 phi n (fl f_gnn) in
  n * (e + exp (- (alpha * zv_v n phi t2 ^ 3 * w)) * pbe_H beta phi t2 e).
Lemma t2_pos u n g : 0 < u -> 0 < n -> 0 < g -> 0 < pbe_t2 u n g.
Proof. intros. unfold pbe_t2, kF. pos. Qed.
Lemma v_E t u : 0 < t -> Rpower t (1 / 2) * u * Rpower (fl f_r_s / 3) (-1 / 6) = zv_v (fl f_n) u t.
Proof.
  intro H. unfold zv_v. rewrite (ph_rs _ P), <- (Rpower_sqrt t H). replace (/ 2) with (1 / 2) by lra. do 2 f_equal. lra.
Qed.
Lemma k_zvpbesolc : 0 < fl f_gnn -> V zvpbesolc_energy = zv_v0 0.046 1.8 (zv_fit (fl f_zeta)).
Proof.
  intro G. pose proof pw92_E as E. specialize (E st x fl P). vred_in E. vred. rewrite !E, !(phi_E fl P), !(t2_E fl P _ _ (phi_pos fl)), (H_E _ _ _ _ _ gamma_E).
  rewrite (v_E _ _ (t2_pos _ _ _ (phi_pos fl) (n_pos fl P) G)). unfold zv_v0. cbv zeta.
  replace 0.046 with (23 / 500) by (decs; lra). do 2 f_equal. f_equal. f_equal. unfold zv_fit. decs.
  set (z := fl f_zeta). set (v := zv_v _ _ _). field.
Qed.
Lemma k_zvpbeintc : 0 < fl f_gnn -> V zvpbeint_energy = zv_v0 0.052 1 (zv_fit (fl f_zeta)).
Proof.
  intro G. pose proof pw92_E as E. specialize (E st x fl P). vred_in E. vred. rewrite !E, !(phi_E fl P), !(t2_E fl P _ _ (phi_pos fl)), (H_E _ _ _ _ _ gamma_E).
  rewrite (v_E _ _ (t2_pos _ _ _ (phi_pos fl) (n_pos fl P) G)). unfold zv_v0. cbv zeta.
  replace 0.052 with (13 / 250) by (decs; lra). do 2 f_equal. f_equal. f_equal. unfold zv_fit. decs.
  set (z := fl f_zeta). set (v := zv_v _ _ _). field.
Qed.
Definition jt_v : R :=
  let n := fl f_n in let r := rs n in let e := vwn 0.0621814 (- 0.10498) 3.72744 12.9352 (sqrt r) in
  let c2 := e / (PI / 2 * n * (jt_g0 r - 1 / 2)) in n * e / (1 + jt_c1 r * st 78%nat + c2 * st 78%nat ^ 2).
Lemma vwn5_closed n : eps_vwn5 n 0 = vwn 0.0621814 (- 0.10498) 3.72744 12.9352 (sqrt (rs n)).
Proof.
  unfold eps_vwn5, fz15, fz_num. cbv zeta. rewrite Rplus_0_r, Rminus_0_r. unfold Rpower at 1 2. rewrite ln_1, Rmult_0_r, exp_0.
  replace (1 + 1 - 2) with 0 by lra. unfold Rdiv. ring.
Qed.
Lemma k_ldaerfc_jt : fl f_zeta = 0 -> V ldaerfc_jt = jt_v.
Proof.
  intro Z. pose proof (vwn5_E st x fl P) as E. rewrite Z, vwn5_closed in E. vred_in E. vred. rewrite !E. clear E. rewrite (ph_rs _ P). unfold jt_v. cbv zeta.
  pose proof (n_pos fl P) as N. set (r := rs (fl f_n)). set (e := vwn _ _ _ _ _). set (n := fl f_n) in *. set (mu := st 78%nat).
  assert (G : 339530545262710070631 / 100000000000000000000 * (Rpower (r + 377 / 80) (3 / 2) + 4086 / 25) * exp (-32581 / 10000 * sqrt (r + 377 / 80)) = jt_g0 r).
  { unfold jt_g0. replace (4.7125 + r) with (r + 377 / 80) by (decs; lra). replace 1.5 with (3 / 2) by (decs; lra).
    replace (-32581 / 10000 * sqrt (r + 377 / 80)) with (- (3.2581 * sqrt (r + 377 / 80))) by (decs; lra). decs. field. }
  rewrite G. apply (f_equal (fun d => n * e / d)). unfold jt_c1. set (g := jt_g0 r - 1 / 2).
  replace (n * e / (1 / 2 * PI * (n * n) * g)) with (e / (PI / 2 * n * g)).
  2: { replace (PI / 2 * n * g) with (PI / 2 * n * g) by ring. unfold Rdiv. rewrite !Rinv_mult. set (ig := / g). field. pose proof PI_RGT_0. repeat split; lra. }
  replace (1.0270741452992294 * r - 0.230160617208092 * r ^ 2) with (5135370726496147 / 5000000000000000 * r + -57540154302023 / 250000000000000 * (r * r)) by (decs; field).
  replace (1 + 0.6196884832404359 * r) with (6196884832404359 / 10000000000000000 * r + 1) by (decs; field). ring.
Qed.
(** Borgoo and Tozer: the library adds 10^-24 to the squared gradient. *)
Lemma k_btk : 0 <= fl f_gaa -> 0 <= fl f_gbb ->
  V btk = (btk_T (2 * fl f_a) (4 * fl f_gaa + / 10 ^ 24) + btk_T (2 * fl f_b) (4 * fl f_gbb + / 10 ^ 24)) / 2.
Proof.
  intros Ga Gb. vred. destruct P. rewrite !btk_E by (lra || (assert (0 < / 10 ^ 24) by (apply Rinv_0_lt_compat, pow_lt; lra); lra)).
  replace (1 / 1000000000000000000000000) with (/ 10 ^ 24); [lra|]. unfold Rdiv. rewrite Rmult_1_l. f_equal. ring.
Qed.
End P.
(** Closed shells. *)
Lemma zet_closed D : closed_D 0 D -> zet D = 0.
Proof. intro C. unfold zet. red in C. rewrite C. unfold Rdiv. rewrite Rminus_eq_0. ring. Qed.
Lemma zv_fit_0 : zv_fit 0 = zv_w 0.
Proof. unfold zv_fit, zv_w. rewrite Rabs_R0, sqrt_0. ring. Qed.
