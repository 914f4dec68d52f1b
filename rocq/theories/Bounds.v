(** * Signs and bounds of the published energy densities
    What exact density-functional theory demands pointwise of the published formulas
    (Published.v) and these satisfy: exchange is attractive and enhanced by a bounded
    factor over the local one, correlation lies between the local correlation and zero, kinetic
    energy densities are not negative. *)
From Coq Require Import Reals QArith Qreals ZArith Arith Lia Lra Psatz List Bool String.
From Coquelicot Require Import Coquelicot.
From Verif Require Import Scalar RInst Tables Phys Expr RSem Safe Safe2 Published PubTac PubX Vwn PubNear.
Import ListNotations.
Local Open Scope R_scope.

Lemma dot_nn v : 0 <= dot v v.
Proof. unfold dot. pose proof (Rle_0_sqr (vx v)). pose proof (Rle_0_sqr (vy v)). pose proof (Rle_0_sqr (vz v)). unfold Rsqr in *. lra. Qed.
Lemma thr_dens D : above D -> 0 < rho (al D) /\ 0 < rho (be D) /\ 0 < ntot D /\ -1 < zet D < 1.
Proof.
  intros [A B]. pose proof thr_pos. unfold zet, ntot. split; [lra|]. split; [lra|]. split; [lra|].
  assert (N : 0 < rho (al D) + rho (be D)) by lra. split.
  - apply Rmult_lt_reg_r with (rho (al D) + rho (be D)); [exact N|]. unfold Rdiv. rewrite Rmult_assoc, Rinv_l by lra. lra.
  - apply Rmult_lt_reg_r with (rho (al D) + rho (be D)); [exact N|]. unfold Rdiv. rewrite Rmult_assoc, Rinv_l by lra. lra.
Qed.
(** ** Exchange *)
Lemma kF_pos n : 0 < kF n. Proof. apply Rpower_pos. Qed.
Lemma ex_neg n : ex_gas n < 0.
Proof. unfold ex_gas. assert (0 < 3 * kF n / (4 * PI)); [|lra]. pose proof (kF_pos n). pose proof PI_RGT_0. apply Rdiv_lt_0_compat; lra. Qed.
Lemma red2_nn n g : 0 <= g -> 0 <= red2 n g.
Proof.
  intro G. unfold red2. destruct (Req_dec (2 * kF n * n) 0) as [E|E].
  - rewrite E. unfold Rdiv. cbn [pow]. rewrite Rmult_0_l. replace (/ 0) with 0 by (symmetry; apply Rinv_0). lra.
  - apply Rmult_le_pos; [exact G|]. left. apply Rinv_0_lt_compat. pose proof (Rsqr_pos_lt _ E) as X. unfold Rsqr in X. cbn [pow]. lra.
Qed.
(** Dirac's exchange of a spin density: - 3/2 (3 / 4 pi)^(1/3) (na^(4/3) + nb^(4/3)). *)
Definition dirac (D : dens) : R := lda_spin (rho (al D)) + lda_spin (rho (be D)).
Lemma lda_half n : 0 < n -> 2 * n * ex_gas (2 * n) / 2 = lda_spin n.
Proof.
  intro N. unfold ex_gas, kF, lda_spin.
  assert (E : n * (3 * Rpower (3 * PI ^ 2 * (2 * n)) (1 / 3) / (4 * PI)) = 3 / 2 * Rpower (3 / (4 * PI)) (1 / 3) * Rpower n (4 / 3)) by mono.
  lra.
Qed.
Lemma gga_bound e1 e2 c n1 n2 : 0 < n1 -> 0 < n2 -> 1 <= e1 <= c -> 1 <= e2 <= c ->
  c * (lda_spin n1 + lda_spin n2) <= (2 * n1 * ex_gas (2 * n1) * e1 + 2 * n2 * ex_gas (2 * n2) * e2) / 2 <= lda_spin n1 + lda_spin n2.
Proof.
  intros N1 N2 H1 H2. pose proof (lda_half n1 N1) as A. pose proof (lda_half n2 N2) as B.
  replace ((2 * n1 * ex_gas (2 * n1) * e1 + 2 * n2 * ex_gas (2 * n2) * e2) / 2) with (lda_spin n1 * e1 + lda_spin n2 * e2) by (rewrite <- A, <- B; field).
  pose proof (lda_spin_neg n1 N1) as L1. pose proof (lda_spin_neg n2 N2) as L2.
  generalize dependent (lda_spin n1). generalize dependent (lda_spin n2). intros. nra.
Qed.
Lemma gga_x_bound F c D : above D -> (forall s, 0 <= s -> 1 <= F s <= c) -> c * dirac D <= gga_x F D <= dirac D.
Proof.
  intros Ab H. destruct (thr_dens D Ab) as (A & B & _ & _). unfold gga_x, spin_scaled, dirac.
  apply gga_bound; try assumption; apply H, red2_nn; [pose proof (dot_nn (grad (al D)))|pose proof (dot_nn (grad (be D)))]; unfold saa, sbb; lra.
Qed.
Lemma F_lda_b s : 1 <= F_lda s <= 1. Proof. unfold F_lda. lra. Qed.
Lemma frac_b x : 0 <= x -> 0 < / (1 + x) <= 1.
Proof. intro H. split; [apply Rinv_0_lt_compat; lra|]. rewrite <- Rinv_1 at 2. apply Rinv_le_contravar; lra. Qed.
Lemma F_pbe_b k m s : 0 < k -> 0 <= m -> 0 <= s -> 1 <= F_pbe k m s <= 1 + k.
Proof.
  intros K M Hs. unfold F_pbe. assert (X : 0 <= m * s / k) by (apply Rmult_le_pos; [now apply Rmult_le_pos|left; now apply Rinv_0_lt_compat]).
  destruct (frac_b _ X) as [A B]. unfold Rdiv at 1. unfold Rdiv at 2. revert A B. generalize (/ (1 + m * s / k)). intros. split; nra.
Qed.
Lemma F_rpbe_b k m s : 0 < k -> 0 <= m -> 0 <= s -> 1 <= F_rpbe k m s <= 1 + k.
Proof.
  intros K M Hs. unfold F_rpbe. assert (X : 0 <= m * s / k) by (apply Rmult_le_pos; [now apply Rmult_le_pos|left; now apply Rinv_0_lt_compat]).
  assert (A : 0 < exp (- (m * s / k)) <= 1).
  { split; [apply exp_pos|]. rewrite <- exp_0. destruct X as [X|<-]; [left; apply exp_increasing; lra|right; f_equal; lra]. }
  revert A. generalize (exp (- (m * s / k))). intros. split; nra.
Qed.
Lemma F_pbeint_b k m1 m2 a s : 0 < k -> 0 <= m1 -> m1 <= m2 -> 0 <= a -> 0 <= s -> 1 <= F_pbeint k m1 m2 a s <= 1 + k.
Proof.
  intros K M1 M2 A Hs. unfold F_pbeint. apply F_pbe_b; [exact K| |exact Hs].
  assert (X : 0 <= a * s / (1 + a * s)). { pose proof (Rmult_le_pos _ _ A Hs). apply Rmult_le_pos; [assumption|left; apply Rinv_0_lt_compat; lra]. }
  assert (0 <= (m2 - m1) * (a * s / (1 + a * s))) by (apply Rmult_le_pos; lra). lra.
Qed.
Lemma tpss_F_b x : 0 <= x -> 1 <= tpss_F x <= 1.804.
Proof.
  intro X. unfold tpss_F. assert (Y : 0 <= x / 0.804) by (apply Rmult_le_pos; [exact X|left; apply Rinv_0_lt_compat; lra]).
  destruct (frac_b _ Y) as [A B]. unfold Rdiv at 1. unfold Rdiv at 2. revert A B. generalize (/ (1 + x / 0.804)). intros. lra.
Qed.
Lemma tpss_xx_nn zf n g t : 0 <= g -> (forall z, 0 <= zf z) -> 0 <= tpss_xx zf n g t.
Proof.
  intros G Z. unfold tpss_xx. set (p := red2 n g). assert (P : 0 <= p) by now apply red2_nn. set (z := g / (8 * n) / t).
  set (q := 9 / 20 * _ / _ + _). generalize q. clear q. intro q.
  assert (E1 : 1 <= sqrt 1.537) by (apply sqrt_ge1; lra).
  apply Rmult_le_pos.
  2:{ left. apply Rinv_0_lt_compat, pow_lt. assert (0 <= sqrt 1.537 * p) by (apply Rmult_le_pos; lra). lra. }
  set (B := 1.59096 * zf z / (1 + z ^ 2) ^ 2).
  assert (HB : 0 <= B). { unfold B. apply Rmult_le_pos; [apply Rmult_le_pos; [lra|apply Z]|]. left. apply Rinv_0_lt_compat, pow_lt. pose proof (pow2_ge_0 z). lra. }
  pose proof (tpss_num B 1 p (z ^ 2) q (z ^ 2) (sqrt 1.537) HB P ltac:(lra) (pow2_ge_0 z) ltac:(ring) E1) as X.
  replace (9 / 50 * z ^ 2 + 1 / 2 * p * p) with (1 / 2 * (3 / 5 * z) ^ 2 + 1 / 2 * p ^ 2) in X by field.
  eapply Rle_trans; [exact X|]. right. fold B. generalize B (sqrt 1.537) (sqrt (1 / 2 * (3 / 5 * z) ^ 2 + 1 / 2 * p ^ 2)). intros b s w. decs. field.
Qed.
Lemma tpss_x_bound zf D : above D -> (forall z, 0 <= zf z) -> 1.804 * dirac D <= tpss_x zf D <= dirac D.
Proof.
  intros Ab Z. destruct (thr_dens D Ab) as (A & B & _ & _). unfold tpss_x, spin_scaled3, dirac.
  apply gga_bound; try assumption; apply tpss_F_b, tpss_xx_nn; try assumption; [pose proof (dot_nn (grad (al D)))|pose proof (dot_nn (grad (be D)))]; unfold saa, sbb; lra.
Qed.
(** ** Correlation *)
Lemma gamma_pos : 0 < pbe_gamma.
Proof.
  unfold pbe_gamma. pose proof PI_RGT_0. apply Rdiv_lt_0_compat; [|now apply pow_lt].
  assert (ln 2 < 1); [|lra]. rewrite <- (ln_exp 1). apply ln_increasing; [lra|]. pose proof (exp_ineq1 1 ltac:(lra)). lra.
Qed.
Lemma phi_pos z : 0 < pbe_phi z.
Proof. unfold pbe_phi. pose proof (Rpower_pos (1 + z) (2 / 3)). pose proof (Rpower_pos (1 - z) (2 / 3)). lra. Qed.
(** The gradient term raises the correlation energy, and never above zero. *)
Lemma pbe_H_b beta phi t2 eps : 0 < beta -> 0 < phi -> 0 <= t2 -> eps < 0 -> 0 <= pbe_H beta phi t2 eps /\ eps + pbe_H beta phi t2 eps < 0.
Proof.
  intros Hb Hp Ht He. unfold pbe_H. pose proof gamma_pos as G. set (w := pbe_gamma * phi ^ 3). assert (W : 0 < w) by (apply Rmult_lt_0_compat; [exact G|now apply pow_lt]).
  set (k := beta / pbe_gamma). assert (K : 0 < k) by (apply Rdiv_lt_0_compat; assumption).
  set (E := exp (- (eps / w)) - 1).
  assert (HE : 0 < E). { unfold E. assert (0 < - (eps / w)). { assert (0 < - eps / w) by (apply Rdiv_lt_0_compat; lra). lra. } pose proof (exp_ineq1 _ ltac:(apply Rgt_not_eq; exact H)). lra. }
  set (A := k / E). assert (HA : 0 < A) by (apply Rdiv_lt_0_compat; assumption).
  assert (At : 0 <= A * t2) by (apply Rmult_le_pos; lra).
  assert (Q : A ^ 2 * t2 ^ 2 = A * t2 * (A * t2)) by ring. rewrite Q. pose proof (Rle_0_sqr (A * t2)) as Sq. unfold Rsqr in Sq.
  set (X := k * t2 * ((1 + A * t2) / (1 + A * t2 + A * t2 * (A * t2)))).
  assert (X0 : 0 <= X). { apply Rmult_le_pos; [apply Rmult_le_pos; lra|]. apply Rmult_le_pos; [lra|left; apply Rinv_0_lt_compat; lra]. }
  assert (X1 : X < E).
  { assert (Xe : X = E * (A * t2 * (1 + A * t2) / (1 + A * t2 + A * t2 * (A * t2)))).
    { assert (Ke : E * A = k) by (unfold A; field; lra). unfold X. rewrite <- Ke. unfold Rdiv. ring. }
    rewrite Xe. rewrite <- (Rmult_1_r E) at 2. apply Rmult_lt_compat_l; [exact HE|].
    apply Rmult_lt_reg_r with (1 + A * t2 + A * t2 * (A * t2)); [lra|]. unfold Rdiv. rewrite Rmult_assoc, Rinv_l by lra. lra. }
  split.
  - apply Rmult_le_pos; [lra|]. rewrite <- ln_1. destruct X0 as [X0|<-]; [left; apply ln_increasing; lra|right; f_equal; lra].
  - assert (L : ln (1 + X) < - (eps / w)). { rewrite <- (ln_exp (- (eps / w))). apply ln_increasing; [lra|]. unfold E in X1. lra. }
    apply (Rmult_lt_compat_l w) in L; [|exact W]. replace (w * - (eps / w)) with (- eps) in L by (field; lra). lra.
Qed.
Lemma t2_nn phi n g : 0 < n -> 0 < phi -> 0 <= g -> 0 <= pbe_t2 phi n g.
Proof.
  intros N P G. unfold pbe_t2. pose proof (kF_pos n). pose proof PI_RGT_0. apply Rmult_le_pos; [apply Rmult_le_pos; [exact G|]|]; left; apply Rinv_0_lt_compat.
  - apply pow_lt. apply Rmult_lt_0_compat; lra.
  - apply Rdiv_lt_0_compat; lra.
Qed.
Lemma rs_nn n : 0 < rs n. Proof. unfold rs. pos. Qed.
Lemma pbe_b beta eps D : above D -> (forall r t, 0 <= t -> 0 < beta r t) -> eps < 0 ->
  ntot D * eps <= ntot D * eps_pbe beta eps (ntot D) (zet D) (stot D) < 0.
Proof.
  intros Ab B E. destruct (thr_dens D Ab) as (_ & _ & N & _). unfold eps_pbe, eps_pbe_at.
  pose proof (t2_nn (pbe_phi (zet D)) (ntot D) (stot D) N (phi_pos _) (dot_nn _)) as T2. 
  destruct (pbe_H_b (beta (rs (ntot D)) (pbe_t2 (pbe_phi (zet D)) (ntot D) (stot D))) (pbe_phi (zet D)) _ eps (B _ _ T2) (phi_pos _) T2 E) as [H1 H2].
  split; [apply Rmult_le_compat_l; lra|]. revert H2. generalize (eps + pbe_H (beta (rs (ntot D)) (pbe_t2 (pbe_phi (zet D)) (ntot D) (stot D))) (pbe_phi (zet D)) (pbe_t2 (pbe_phi (zet D)) (ntot D) (stot D)) eps). intros. nra.
Qed.
Lemma beta_loc_pos r t : 0 <= t -> 0 < beta_loc r t.
Proof.
  intro Ht. unfold beta_loc. assert (exp (- r ^ 2) <= 1). { rewrite <- exp_0. pose proof (pow2_ge_0 r) as [X|X]; [left; apply exp_increasing; lra|right; f_equal; lra]. }
  assert (0 <= 0.08 * t * (1 - exp (- r ^ 2))) by (apply Rmult_le_pos; lra). lra.
Qed.
Lemma eps_pz81_neg n z : -1 < z < 1 -> eps_pz81 n z < 0.
Proof.
  intro Hz. unfold eps_pz81. destruct (fz_range z Hz) as [F0 F1]. set (r := rs n). assert (R0 : 0 < r) by apply rs_nn.
  assert (P : (if Rlt_dec r 1 then pz81_high 0.0311 (- 0.048) 0.0020 (- 0.0116) r else pz81_low (- 0.1423) 1.0529 0.3334 r) < 0).
  { destruct (Rlt_dec r 1) as [L|L].
    - unfold pz81_high. assert (l : ln r < 0) by (rewrite <- ln_1; apply ln_increasing; lra). nra.
    - unfold pz81_low. assert (0 <= sqrt r) by apply sqrt_pos. assert (0 < / (1 + 1.0529 * sqrt r + 0.3334 * r)) by (apply Rinv_0_lt_compat; lra). unfold Rdiv. nra. }
  assert (Q : (if Rlt_dec r 1 then pz81_high 0.01555 (- 0.0269) 0.0007 (- 0.0048) r else pz81_low (- 0.0843) 1.3981 0.2611 r) < 0).
  { destruct (Rlt_dec r 1) as [L|L].
    - unfold pz81_high. assert (l : ln r < 0) by (rewrite <- ln_1; apply ln_increasing; lra). nra.
    - unfold pz81_low. assert (0 <= sqrt r) by apply sqrt_pos. assert (0 < / (1 + 1.3981 * sqrt r + 0.2611 * r)) by (apply Rinv_0_lt_compat; lra). unfold Rdiv. nra. }
  revert P Q. generalize (if Rlt_dec r 1 then pz81_high 0.0311 (- 0.048) 0.0020 (- 0.0116) r else pz81_low (- 0.1423) 1.0529 0.3334 r).
  generalize (if Rlt_dec r 1 then pz81_high 0.01555 (- 0.0269) 0.0007 (- 0.0048) r else pz81_low (- 0.0843) 1.3981 0.2611 r). intros. nra.
Qed.
(** ** Signs only *)
Lemma pw86_ge1 s : 0 <= s -> 1 <= F_pw86 s.
Proof.
  intro H. unfold F_pw86. pose proof (pow_le s 2 H). pose proof (pow_le s 3 H).
  assert (E : Rpower 1 (1 / 15) = 1) by (unfold Rpower; rewrite ln_1, Rmult_0_r; apply exp_0). rewrite <- E at 1. apply Rle_Rpower_l; lra.
Qed.
Lemma arcsinh_nn w : 0 <= w -> 0 <= arcsinh w.
Proof.
  intro W. unfold arcsinh. rewrite <- ln_1. assert (1 <= sqrt (w ^ 2 + 1)) by (apply sqrt_ge1; pose proof (pow2_ge_0 w); lra).
  destruct (Rle_lt_or_eq_dec 1 (w + sqrt (w ^ 2 + 1)) ltac:(lra)) as [L|<-]; [left; apply ln_increasing; lra|right; reflexivity].
Qed.
Lemma pw91_pos s : 0 <= F_pw91 0.19645 7.7956 0.2743 0.15084 0.004 s.
Proof.
  unfold F_pw91. set (u := sqrt s). assert (U : 0 <= u) by apply sqrt_pos. set (q := 1 + _). assert (Q : 0 <= q).
  { unfold q. pose proof (arcsinh_nn (7.7956 * u) ltac:(lra)) as A. assert (0 <= 0.19645 * u * arcsinh (7.7956 * u)) by (apply Rmult_le_pos; lra). lra. }
  assert (E : exp (- (100 * u ^ 2)) <= 1). { rewrite <- exp_0. pose proof (pow2_ge_0 u) as [X|X]; [left; apply exp_increasing; lra|right; f_equal; lra]. }
  pose proof (pow2_ge_0 u) as U2. assert (U4 : 0 <= u ^ 4) by (apply pow_le; exact U).
  assert (0 <= (0.2743 - 0.15084 * exp (- (100 * u ^ 2))) * u ^ 2) by (apply Rmult_le_pos; lra).
  destruct (Req_dec (q + 0.004 * u ^ 4) 0) as [Z|Z]; [unfold Rdiv; rewrite Z, Rinv_0; lra|].
  apply Rmult_le_pos; [lra|left; apply Rinv_0_lt_compat; lra].
Qed.
Lemma gga_x_neg F D : above D -> (forall s, 0 <= s -> 0 <= F s) -> gga_x F D <= 0.
Proof.
  intros Ab H. destruct (thr_dens D Ab) as (A & B & _ & _). unfold gga_x, spin_scaled.
  pose proof (H (red2 (2 * rho (al D)) (4 * saa D)) (red2_nn _ (4 * saa D) ltac:(pose proof (dot_nn (grad (al D))); unfold saa; lra))) as F1.
  pose proof (H (red2 (2 * rho (be D)) (4 * sbb D)) (red2_nn _ (4 * sbb D) ltac:(pose proof (dot_nn (grad (be D))); unfold sbb; lra))) as F2.
  pose proof (lda_half _ A) as L1. pose proof (lda_half _ B) as L2. pose proof (lda_spin_neg _ A) as N1. pose proof (lda_spin_neg _ B) as N2.
  revert F1 F2. generalize (F (red2 (2 * rho (al D)) (4 * saa D))) (F (red2 (2 * rho (be D)) (4 * sbb D))). intros f1 f2 F1 F2.
  replace ((2 * rho (al D) * ex_gas (2 * rho (al D)) * f1 + 2 * rho (be D) * ex_gas (2 * rho (be D)) * f2) / 2) with (lda_spin (rho (al D)) * f1 + lda_spin (rho (be D)) * f2) by (rewrite <- L1, <- L2; field).
  revert N1 N2. generalize (lda_spin (rho (al D))) (lda_spin (rho (be D))). intros. nra.
Qed.
Lemma per_spin_neg e D : above D -> (forall n g, 0 < n -> 0 <= g -> e n g <= 0) -> per_spin e D <= 0.
Proof.
  intros Ab H. destruct (thr_dens D Ab) as (A & B & _ & _). unfold per_spin.
  pose proof (H _ (saa D) A (dot_nn _)). pose proof (H _ (sbb D) B (dot_nn _)). lra.
Qed.
Lemma b97_x_neg c0 c1 c2 n g : 0 <= c0 -> 0 <= c1 -> 0 <= c2 -> 0 < n -> 0 <= g -> b97_x c0 c1 c2 n g <= 0.
Proof.
  intros H0 H1 H2 N G. unfold b97_x, b97_series, b97_s2. assert (S : 0 <= g / Rpower n (8 / 3)) by (apply Rmult_le_pos; [exact G|left; apply Rinv_0_lt_compat, Rpower_pos]).
  set (s := g / _) in *. assert (U : 0 <= 0.004 * s / (1 + 0.004 * s)) by (apply Rmult_le_pos; [lra|left; apply Rinv_0_lt_compat; lra]).
  set (u := 0.004 * s / _) in *. pose proof (Rpower_pos n (4 / 3)) as P. pose proof (pow2_ge_0 u).
  assert (0 <= c1 * u) by now apply Rmult_le_pos. assert (0 <= c2 * u ^ 2) by now apply Rmult_le_pos.
  assert (0 <= 0.9305257363491002 * Rpower n (4 / 3) * (c0 + c1 * u + c2 * u ^ 2)) by (apply Rmult_le_pos; lra). lra.
Qed.
Lemma optx_neg n g : 0 < n -> 0 <= g -> optx_spin n g <= 0.
Proof.
  intros N G. unfold optx_spin, optx_corr. pose proof (lda_spin_neg n N). pose proof (Rpower_pos n (4 / 3)) as P.
  assert (0 <= Rpower n (4 / 3) * (0.006 * g / Rpower n (8 / 3) / (1 + 0.006 * g / Rpower n (8 / 3))) ^ 2) by (apply Rmult_le_pos; [lra|apply pow2_ge_0]). lra.
Qed.
Lemma b88_neg n g : 0 < n -> 0 <= g -> b88_corr n g <= 0.
Proof.
  intros N G. unfold b88_corr. pose proof (Rpower_pos n (4 / 3)) as P. assert (X : 0 <= sqrt g / Rpower n (4 / 3)) by (apply Rmult_le_pos; [apply sqrt_pos|left; now apply Rinv_0_lt_compat]).
  set (x := sqrt g / _) in *. pose proof (arcsinh_nn x X) as As. assert (0 <= x * arcsinh x) by now apply Rmult_le_pos. pose proof (pow2_ge_0 x).
  assert (0 <= 0.0042 * Rpower n (4 / 3) * x ^ 2 / (1 + 6 * 0.0042 * (x * arcsinh x))); [|lra].
  apply Rmult_le_pos; [apply Rmult_le_pos; lra|left; apply Rinv_0_lt_compat; lra].
Qed.
(** ** Kinetic energy *)
Lemma tf_pos n : 0 < tf n.
Proof. unfold tf, c_tf. pose proof (Rpower_pos (3 * PI ^ 2) (2 / 3)). pose proof (Rpower_pos n (5 / 3)). apply Rmult_lt_0_compat; lra. Qed.
Lemma vw_nn D : above D -> 0 <= per_spin vw_spin D.
Proof.
  intro Ab. destruct (thr_dens D Ab) as (A & B & _ & _). unfold per_spin, vw_spin.
  assert (H : forall n g, 0 < n -> 0 <= g -> 0 <= g / (8 * n)) by (intros n g N G; apply Rmult_le_pos; [exact G|left; apply Rinv_0_lt_compat; lra]).
  pose proof (H _ (saa D) A (dot_nn _)). pose proof (H _ (sbb D) B (dot_nn _)). lra.
Qed.
