(** * The correlation energies of the uniform gas are negative
    Vosko-Wilk-Nusair, Perdew-Wang 1991 and 1992. *)
From Coq Require Import Reals QArith Qreals ZArith Arith Lia Lra Psatz List Bool String.
From Coquelicot Require Import Coquelicot.
From Verif Require Import Pw92 Phys Published.
Import ListNotations.
Local Open Scope R_scope.

Section H.
Variables x0 b c : R.
Hypothesis X0n : x0 < 0.
Hypothesis Bp : 0 < b.
Hypothesis Dp : b ^ 2 < 4 * c.
Hypothesis Xp : 0 < x0 ^ 2 + b * x0 + c.
Let X (y : R) := y ^ 2 + b * y + c.
Let Q := sqrt (4 * c - b ^ 2).
Let k := b * x0 / X x0.
Definition vh (y : R) : R := 2 * ln y - ln (X y) + 2 * b / Q * atan (Q / (2 * y + b)) - k * (2 * ln (y - x0) - ln (X y) + 2 * (b + 2 * x0) / Q * atan (Q / (2 * y + b))).
Definition vh' (y : R) : R := 2 * c / (y * X y) - 2 * b * x0 / ((y - x0) * X y).
Lemma cp : 0 < c. Proof. pose proof (pow2_ge_0 b). lra. Qed.
Lemma Qp : 0 < Q. Proof. unfold Q. apply sqrt_lt_R0. lra. Qed.
Lemma QQ : Q * Q = 4 * c - b ^ 2. Proof. unfold Q. apply sqrt_sqrt. lra. Qed.
Lemma Xpos y : 0 < y -> 0 < X y.
Proof. intro H. pose proof cp. unfold X. assert (0 < b * y) by now apply Rmult_lt_0_compat. pose proof (pow2_ge_0 y). lra. Qed.
Lemma at_derive y : 0 < y -> is_derive (fun y => atan (Q / (2 * y + b))) y (- Q / (2 * X y)).
Proof.
  intro H. pose proof (Xpos y H) as P. pose proof QQ as E. auto_derive; [repeat split; lra|].
  assert (N : 0 < 2 * y + b) by lra. unfold X in *.
  replace (1 + Q * / (2 * y + b) * (Q * / (2 * y + b) * 1)) with (((2 * y + b) ^ 2 + Q * Q) / (2 * y + b) ^ 2) by (field; lra).
  rewrite E. replace ((2 * y + b) ^ 2 + (4 * c - b ^ 2)) with (4 * (y ^ 2 + b * y + c)) by ring. field. lra.
Qed.
Lemma vh_derive y : 0 < y -> is_derive vh y (vh' y).
Proof.
  intro H. pose proof (Xpos y H) as P. pose proof Qp. pose proof (at_derive y H) as A.
  assert (E : is_derive (fun y => 2 * ln y - ln (X y) - k * (2 * ln (y - x0) - ln (X y))) y (2 / y - (2 * y + b) / X y - k * (2 / (y - x0) - (2 * y + b) / X y))).
  { unfold X in *. auto_derive; [repeat split; lra|]. field. repeat split; try lra. }
  assert (E2 : is_derive (fun y => (2 * b / Q - k * (2 * (b + 2 * x0) / Q)) * atan (Q / (2 * y + b))) y ((2 * b / Q - k * (2 * (b + 2 * x0) / Q)) * (- Q / (2 * X y)))).
  { apply (is_derive_scal (fun y => atan (Q / (2 * y + b)))); [exact A]. }
  pose proof (is_derive_plus _ _ _ _ _ E E2) as F.
  eapply (is_derive_ext_loc _ vh) in F; [|apply filter_forall; intro t; unfold vh, plus; cbn; ring].
  replace (vh' y) with (plus (2 / y - (2 * y + b) / X y - k * (2 / (y - x0) - (2 * y + b) / X y)) ((2 * b / Q - k * (2 * (b + 2 * x0) / Q)) * (- Q / (2 * X y)))); [exact F|].
  unfold plus, vh', k; cbn. change (x0 ^ 2 + b * x0 + c) with (X x0). assert (Xq : 0 < X x0) by exact Xp.
  replace (2 * b / Q - b * x0 / X x0 * (2 * (b + 2 * x0) / Q)) with ((2 * b - b * x0 / X x0 * (2 * (b + 2 * x0))) / Q) by (field; lra).
  replace ((2 * b - b * x0 / X x0 * (2 * (b + 2 * x0))) / Q * (- Q / (2 * X y))) with (- (b - b * x0 / X x0 * (b + 2 * x0)) / X y) by (field; lra).
  assert (I1 : 2 / y - (2 * y + 2 * b) / X y = 2 * c / (y * X y)) by (unfold X in *; field; lra).
  assert (I2 : 2 / (y - x0) - (2 * y + 2 * b + 2 * x0) / X y = 2 * X x0 / ((y - x0) * X y)) by (unfold X in *; field; lra).
  replace (2 / y - (2 * y + b) / X y - b * x0 / X x0 * (2 / (y - x0) - (2 * y + b) / X y) + - (b - b * x0 / X x0 * (b + 2 * x0)) / X y)
    with ((2 / y - (2 * y + 2 * b) / X y) - b * x0 / X x0 * (2 / (y - x0) - (2 * y + 2 * b + 2 * x0) / X y)) by (field; lra).
  rewrite I1, I2. field. lra.
Qed.
Lemma vh'_pos y : 0 < y -> 0 < vh' y.
Proof.
  intro H. pose proof (Xpos y H). pose proof cp. unfold vh'.
  assert (0 < 2 * c / (y * X y)) by (apply Rdiv_lt_0_compat; [lra|now apply Rmult_lt_0_compat]).
  assert (0 < 2 * b * (- x0) / ((y - x0) * X y)) by (apply Rdiv_lt_0_compat; [apply Rmult_lt_0_compat; lra|apply Rmult_lt_0_compat; lra]).
  replace (2 * b * x0 / ((y - x0) * X y)) with (- (2 * b * (- x0) / ((y - x0) * X y))) by (field; lra). lra.
Qed.
(** It tends to zero at low density. *)
Lemma ln1p u : 0 <= u -> 0 <= ln (1 + u) <= u.
Proof.
  intro H. split; [rewrite <- ln_1; apply ln_le; lra|]. rewrite <- (ln_exp u) at 2. apply ln_le; [lra|]. destruct H as [H|<-]; [left; apply exp_ineq1; lra|rewrite exp_0; lra].
Qed.
Lemma atan_le u : 0 <= u -> 0 <= atan u <= u.
Proof.
  intro H. split; [rewrite <- atan_0; destruct H as [H|<-]; [left; now apply atan_increasing|lra]|].
  destruct (MVT_gen atan 0 u (fun t => / (1 + t ^ 2))) as (t & _ & E).
  - intros t _. apply is_derive_Reals. eapply is_derive_Reals. auto_derive; [trivial|]. cbn. field. nra.
  - intros t _. apply continuity_pt_filterlim. apply (ex_derive_continuous atan). auto_derive. trivial.
  - rewrite atan_0 in E. assert (I1 : / (1 + t ^ 2) <= 1) by (rewrite <- Rinv_1 at 2; apply Rinv_le_contravar; nra). nra.
Qed.
Lemma vh_small : exists C, forall y, 1 <= y -> Rabs (vh y) <= C / y.
Proof.
  pose proof Qp. pose proof cp. set (m := 2 * b / Q - k * (2 * (b + 2 * x0) / Q)).
  exists (Rabs (k - 1) * (b + c) + Rabs (2 * k) * (- x0) + Rabs m * Q). intros y Hy.
  assert (Iy : 0 < / y) by (apply Rinv_0_lt_compat; lra).
  assert (Iy2 : / y * / y <= / y) by (assert (/ y <= 1) by (rewrite <- Rinv_1; apply Rinv_le_contravar; lra); nra).
  set (u1 := b * / y + c * (/ y * / y)). set (u2 := - x0 * / y). set (u3 := Q / (2 * y + b)).
  assert (U1 : 0 <= u1 <= (b + c) * / y) by (unfold u1; split; [apply Rplus_le_le_0_compat; apply Rmult_le_pos; nra|nra]).
  assert (U2 : 0 <= u2) by (unfold u2; apply Rmult_le_pos; lra).
  assert (U3 : 0 <= u3 <= Q * / y).
  { unfold u3, Rdiv. split; [apply Rmult_le_pos; [lra|left; apply Rinv_0_lt_compat; lra]|]. apply Rmult_le_compat_l; [lra|]. apply Rinv_le_contravar; lra. }
  assert (L1 : ln (X y) = 2 * ln y + ln (1 + u1)).
  { replace (X y) with (y * (y * (1 + u1))) by (unfold X, u1; field; lra). rewrite !ln_mult; try lra. apply Rmult_lt_0_compat; lra. }
  assert (L2 : ln (y - x0) = ln y + ln (1 + u2)).
  { replace (y - x0) with (y * (1 + u2)) by (unfold u2; field; lra). apply ln_mult; lra. }
  assert (E : vh y = (k - 1) * ln (1 + u1) - 2 * k * ln (1 + u2) + m * atan u3).
  { unfold vh. rewrite L1, L2. fold u3. unfold m. ring. }
  rewrite E. pose proof (ln1p u1 ltac:(lra)). pose proof (ln1p u2 U2). pose proof (atan_le u3 ltac:(lra)).
  assert (T1 : Rabs ((k - 1) * ln (1 + u1)) <= Rabs (k - 1) * ((b + c) * / y)) by (rewrite Rabs_mult; apply Rmult_le_compat_l; [apply Rabs_pos|rewrite Rabs_pos_eq; lra]).
  assert (T2 : Rabs (2 * k * ln (1 + u2)) <= Rabs (2 * k) * (- x0 * / y)) by (rewrite (Rabs_mult (2 * k)); apply Rmult_le_compat_l; [apply Rabs_pos|rewrite Rabs_pos_eq; [unfold u2 in *; lra|lra]]).
  assert (T3 : Rabs (m * atan u3) <= Rabs m * (Q * / y)) by (rewrite Rabs_mult; apply Rmult_le_compat_l; [apply Rabs_pos|rewrite Rabs_pos_eq; lra]).
  eapply Rle_trans; [apply Rabs_triang|]. eapply Rle_trans; [apply Rplus_le_compat; [apply Rabs_triang|exact T3]|]. rewrite Rabs_Ropp.
  replace ((Rabs (k - 1) * (b + c) + Rabs (2 * k) * - x0 + Rabs m * Q) / y) with (Rabs (k - 1) * ((b + c) * / y) + Rabs (2 * k) * (- x0 * / y) + Rabs m * (Q * / y)) by (unfold Rdiv; ring). lra.
Qed.
Lemma vwn_vh A y : 0 < y -> vwn A x0 b c y = A / 2 * vh y.
Proof.
  intro H. unfold vwn, vh, k, X, Q. cbv zeta. pose proof (Xpos y H) as P. unfold X in P.
  assert (L : forall u v, 0 < u -> 0 < v -> ln (u ^ 2 / v) = 2 * ln u - ln v).
  { intros u v Hu Hv. unfold Rdiv. rewrite ln_mult, ln_Rinv; [|lra|apply pow_lt; lra|now apply Rinv_0_lt_compat].
    replace (u ^ 2) with (u * u) by ring. rewrite ln_mult by lra. ring. }
  rewrite !L by lra. reflexivity.
Qed.
End H.

Lemma Rmult_le_0_r' a b : a <= 0 -> 0 <= b -> a * b <= 0.
Proof. intros. nra. Qed.
(** An increasing function that vanishes at infinity is negative. *)
Lemma up_to_zero f f' C : (forall y, 0 < y -> is_derive f y (f' y)) -> (forall y, 0 < y -> 0 < f' y) -> (forall y, 1 <= y -> Rabs (f y) <= C / y) ->
  forall y, 0 < y -> f y < 0.
Proof.
  intros Df P S y Hy.
  assert (Inc : forall u v, 0 < u -> u < v -> f u < f v).
  { intros u v Hu Huv. apply (incr_function f (Finite 0) p_infty f'); cbn [Rbar_lt]; [intros t Ht _; now apply Df|intros t Ht _; apply Rlt_gt; now apply P|exact Hu|exact Huv|exact Logic.I]. }
  assert (L : f (y + 1) <= 0).
  { destruct (Rle_or_lt (f (y + 1)) 0) as [|G]; [assumption|exfalso].
    assert (Cp : 0 < C). { pose proof (S 1 ltac:(lra)) as S1. pose proof (S (y + 1) ltac:(lra)) as S2. rewrite Rabs_pos_eq in S2 by lra.
      assert (0 < C / (y + 1)) by lra. destruct (Rle_or_lt C 0); [|assumption]. assert (C / (y + 1) <= 0) by (apply Rmult_le_0_r'; [assumption|left; apply Rinv_0_lt_compat; lra]). lra. }
    set (t := y + 2 + C / f (y + 1)). assert (0 < C / f (y + 1)) by now apply Rdiv_lt_0_compat.
    assert (f (y + 1) < f t) by (apply Inc; unfold t; lra). pose proof (S t ltac:(unfold t; lra)) as St. rewrite Rabs_pos_eq in St by lra.
    assert (Lt : f (y + 1) < C / t) by lra. assert (Tp : 0 < t) by (unfold t; lra).
    apply Rmult_lt_compat_r with (r := t) in Lt; [|exact Tp]. unfold Rdiv in Lt. rewrite Rmult_assoc, Rinv_l in Lt by lra.
    assert (E : f (y + 1) * t = f (y + 1) * (y + 2) + C) by (unfold t; field; lra). rewrite E in Lt. assert (0 < f (y + 1) * (y + 2)) by (apply Rmult_lt_0_compat; lra). lra. }
  pose proof (Inc y (y + 1) Hy ltac:(lra)). lra.
Qed.
Theorem vwn_neg A x0 b c y : 0 < A -> x0 < 0 -> 0 < b -> b ^ 2 < 4 * c -> 0 < x0 ^ 2 + b * x0 + c -> 0 < y -> vwn A x0 b c y < 0.
Proof.
  intros HA X0n Bp Dp Xp Hy. rewrite vwn_vh by assumption. destruct (vh_small x0 b c X0n Bp Dp) as [C S].
  pose proof (up_to_zero _ _ C (vh_derive x0 b c X0n Bp Dp Xp) (vh'_pos x0 b c X0n Bp Dp) S y Hy). nra.
Qed.
Lemma mix_low b x0 y P : 0 < b -> x0 < 0 -> 0 < y -> 0 < P -> 2 * b * x0 / (y * P) <= 2 * b * x0 / ((y - x0) * P) < 0.
Proof.
  intros Hb Hx Hy HP. assert (0 < b * - x0) by (apply Rmult_lt_0_compat; lra). assert (0 < (y - x0) * P) by (apply Rmult_lt_0_compat; lra). assert (0 < y * P) by now apply Rmult_lt_0_compat.
  assert (I1 : / ((y - x0) * P) <= / (y * P)) by (apply Rinv_le_contravar; [assumption|apply Rmult_le_compat_r; lra]).
  assert (I2 : 0 < / ((y - x0) * P)) by now apply Rinv_0_lt_compat. unfold Rdiv. set (u := / ((y - x0) * P)) in *. set (w := / (y * P)) in *. nra.
Qed.
(** Comparison of two such functions. *)
Lemma vh_cmp A1 x1 b1 c1 A2 x2 b2 c2 : 0 < A1 -> 0 < A2 -> x1 < 0 -> 0 < b1 -> b1 ^ 2 < 4 * c1 -> 0 < x1 ^ 2 + b1 * x1 + c1 -> x2 < 0 -> 0 < b2 -> b2 ^ 2 < 4 * c2 -> 0 < x2 ^ 2 + b2 * x2 + c2 ->
  (forall y, 0 < y -> A2 * (c2 - b2 * x2) * (y ^ 2 + b1 * y + c1) < A1 * c1 * (y ^ 2 + b2 * y + c2)) ->
  forall y, 0 < y -> A1 * vh x1 b1 c1 y < A2 * vh x2 b2 c2 y.
Proof.
  intros HA1 HA2 H1 H2 H3 H4 K1 K2 K3 K4 Cmp y0 Hy0.
  destruct (vh_small _ _ _ H1 H2 H3) as [C1 S1]. destruct (vh_small _ _ _ K1 K2 K3) as [C2 S2].
  assert (G : forall y, 0 < y -> A1 * vh x1 b1 c1 y - A2 * vh x2 b2 c2 y < 0).
  { apply (up_to_zero (fun y => A1 * vh x1 b1 c1 y - A2 * vh x2 b2 c2 y) (fun y => A1 * vh' x1 b1 c1 y - A2 * vh' x2 b2 c2 y) (A1 * C1 + A2 * C2)).
    - intros y Hy. apply (is_derive_minus (fun y => A1 * vh x1 b1 c1 y) (fun y => A2 * vh x2 b2 c2 y)).
      + apply (is_derive_scal (vh x1 b1 c1)), vh_derive; assumption.
      + apply (is_derive_scal (vh x2 b2 c2)), vh_derive; assumption.
    - intros y Hy. unfold vh'. specialize (Cmp y Hy). pose proof (Xpos b1 c1 H2 H3 y Hy) as P1. pose proof (Xpos b2 c2 K2 K3 y Hy) as P2. cbv beta in P1, P2.
      set (X1 := y ^ 2 + b1 * y + c1) in *. set (X2 := y ^ 2 + b2 * y + c2) in *.
      destruct (mix_low _ _ y X1 H2 H1 Hy P1) as [_ L1]. destruct (mix_low _ _ y X2 K2 K1 Hy P2) as [L2 _].
      assert (L3 : 0 < A1 * (2 * c1 / (y * X1)) - A2 * (2 * (c2 - b2 * x2) / (y * X2))).
      { replace (A1 * (2 * c1 / (y * X1)) - A2 * (2 * (c2 - b2 * x2) / (y * X2))) with (2 * (A1 * c1 * X2 - A2 * (c2 - b2 * x2) * X1) / (y * X1 * X2)) by (field; lra).
        apply Rdiv_lt_0_compat; [lra|apply Rmult_lt_0_compat; [now apply Rmult_lt_0_compat|assumption]]. }
      assert (L4 : A2 * (2 * c2 / (y * X2) - 2 * b2 * x2 / ((y - x2) * X2)) <= A2 * (2 * (c2 - b2 * x2) / (y * X2))).
      { apply Rmult_le_compat_l; [lra|]. replace (2 * (c2 - b2 * x2) / (y * X2)) with (2 * c2 / (y * X2) - 2 * b2 * x2 / (y * X2)) by (field; lra). lra. }
      assert (L5 : 0 <= A1 * - (2 * b1 * x1 / ((y - x1) * X1))) by (apply Rmult_le_pos; lra). lra.
    - intros y Hy. eapply Rle_trans; [apply Rabs_triang|]. rewrite Rabs_Ropp, !Rabs_mult, (Rabs_pos_eq A1), (Rabs_pos_eq A2) by lra.
      pose proof (S1 y Hy) as B1. pose proof (S2 y Hy) as B2. unfold Rdiv in *.
      assert (A1 * Rabs (vh x1 b1 c1 y) <= A1 * (C1 * / y)) by (apply Rmult_le_compat_l; lra).
      assert (A2 * Rabs (vh x2 b2 c2 y) <= A2 * (C2 * / y)) by (apply Rmult_le_compat_l; lra).
      rewrite Rmult_plus_distr_r, !Rmult_assoc in *. lra. }
  specialize (G y0 Hy0). lra.
Qed.
(** The spin stiffness is small compared to the correlation energy, which is at most three
    times that of the polarised gas. *)
Lemma stiff_small y : 0 < y -> vwn 0.0621814 (- 0.10498) 3.72744 12.9352 y + 0.6 * vwn (- (1 / (3 * PI ^ 2))) (- 0.0047584) 1.13107 13.0045 y < 0.
Proof.
  intro Hy. rewrite !vwn_vh by lra. pose proof PI2_3_2. pose proof PI_RGT_0. assert (P3 : 3 < PI) by (unfold PI2 in *; lra).
  set (B := / (6 * PI ^ 2)). assert (HB : 0 < B < / 54) by (split; [apply Rinv_0_lt_compat; nra|apply Rinv_lt_contravar; nra]).
  replace (- (1 / (3 * PI ^ 2)) / 2) with (- B) by (unfold B; field; lra).
  assert (G : 0.0310907 * vh (- 0.10498) 3.72744 12.9352 y < 0.6 * B * vh (- 0.0047584) 1.13107 13.0045 y).
  { apply vh_cmp; try lra. intros t Ht. apply Rle_lt_trans with (0.6 * / 54 * (13.0045 - 1.13107 * - 0.0047584) * (t ^ 2 + 3.72744 * t + 12.9352)); [|nra].
    apply Rmult_le_compat_r; [nra|]. apply Rmult_le_compat_r; lra. }
  lra.
Qed.
Lemma ferro5 y : 0 < y -> 3 * vwn 0.0310907 (- 0.325) 7.06042 18.0578 y < vwn 0.0621814 (- 0.10498) 3.72744 12.9352 y.
Proof.
  intro Hy. rewrite !vwn_vh by lra.
  assert (G : 3 * (0.0310907 / 2) * vh (- 0.325) 7.06042 18.0578 y < 0.0621814 / 2 * vh (- 0.10498) 3.72744 12.9352 y) by (apply vh_cmp; try lra; intros t Ht; nra). lra.
Qed.
Lemma ferro3 y : 0 < y -> 3 * vwn 0.0310907 (- 0.7432940) 20.1231 101.578 y < vwn 0.0621814 (- 0.4092860) 13.0720 42.7198 y.
Proof.
  intro Hy. rewrite !vwn_vh by lra.
  assert (G : 3 * (0.0310907 / 2) * vh (- 0.7432940) 20.1231 101.578 y < 0.0621814 / 2 * vh (- 0.4092860) 13.0720 42.7198 y) by (apply vh_cmp; try lra; intros t Ht; nra). lra.
Qed.

(** Interpolation in the polarisation, [g] slightly rounded. *)
Lemma interp_neg p f a g k q : p < 0 -> 7 * f < p -> 0 <= a -> p + 0.6 * a < 0 -> 0 <= g <= 1.001 -> 0 <= k <= 0.5851 -> 0 <= q <= 1 ->
  p + a * (g * k) * (1 - q) + (f - p) * g * q < 0.
Proof.
  intros Hp Hf Ha Hpa Hg Hk Hq.
  assert (A1 : a * (g * k) * (1 - q) <= - p * 0.9752 * (g * (1 - q))).
  { replace (a * (g * k) * (1 - q)) with (a * k * (g * (1 - q))) by ring. apply Rmult_le_compat_r; [apply Rmult_le_pos; lra|].
    apply Rle_trans with (a * 0.5851); [apply Rmult_le_compat_l; lra|lra]. }
  assert (W : 0 <= g * q) by (apply Rmult_le_pos; lra).
  assert (A2 : (f - p) * g * q <= (- p * (6 / 7)) * (g * q)) by (rewrite Rmult_assoc; apply Rmult_le_compat_r; lra).
  replace (g * (1 - q)) with (g - g * q) in A1 by ring. set (w := g * q) in *. clearbody w. nra.
Qed.
Lemma cbrt2_fine : 1.2599 < Rpower 2 (1 / 3) < 1.25993.
Proof.
  set (c := Rpower 2 (1 / 3)). assert (C : 0 < c) by apply exp_pos.
  assert (E3 : c ^ 3 = 2).
  { unfold c. rewrite <- Rpower_pow by apply exp_pos. rewrite Rpower_mult. replace (1 / 3 * INR 3) with 1 by (cbn; lra). apply Rpower_1. lra. }
  split; nra.
Qed.
Lemma fz_num_range z : -1 < z < 1 -> 0 <= fz_num z <= 2 * Rpower 2 (1 / 3) - 2.
Proof.
  intro H. destruct (pow43 (1 + z)) as [A B]; [lra|]. destruct (pow43 (1 - z)) as [A' B']; [lra|]. unfold fz_num. split; [lra|nra].
Qed.
Lemma two43' : Rpower 2 (4 / 3) = 2 * Rpower 2 (1 / 3).
Proof. replace (4 / 3) with (1 + 1 / 3) by lra. rewrite Rpower_plus, Rpower_1 by lra. reflexivity. Qed.
Lemma fz2_inv : 0 <= / fz2 <= 0.5851.
Proof.
  unfold fz2. rewrite two43'. pose proof cbrt2_fine as [A B]. set (c := Rpower 2 (1 / 3)) in *. replace (/ (8 / (9 * (2 * c - 2)))) with (9 / 8 * (2 * c - 2)) by (field; lra). lra.
Qed.
Lemma z4_range z : -1 < z < 1 -> 0 <= z ^ 4 <= 1.
Proof. intro H. assert (0 <= z * z < 1) by nra. replace (z ^ 4) with ((z * z) * (z * z)) by ring. nra. Qed.
Lemma fz15_range z : -1 < z < 1 -> 0 <= fz15 z <= 1.001.
Proof. intro H. unfold fz15. pose proof (fz_num_range z H). pose proof cbrt2_fine. lra. Qed.
Lemma rs_pos n : 0 < rs n.
Proof. unfold rs. apply exp_pos. Qed.
Theorem eps_vwn5_neg n z : -1 < z < 1 -> eps_vwn5 n z < 0.
Proof.
  intro Hz. unfold eps_vwn5. cbv zeta. assert (Hy : 0 < sqrt (rs n)) by (apply sqrt_lt_R0, rs_pos). set (y := sqrt (rs n)) in *.
  pose proof (stiff_small y Hy) as S. pose proof (ferro5 y Hy) as F.
  pose proof (vwn_neg 0.0621814 (- 0.10498) 3.72744 12.9352 y ltac:(lra) ltac:(lra) ltac:(lra) ltac:(lra) ltac:(lra) Hy) as P.
  assert (A : 0 <= vwn (- (1 / (3 * PI ^ 2))) (- 0.0047584) 1.13107 13.0045 y).
  { pose proof (vwn_neg (1 / (3 * PI ^ 2)) (- 0.0047584) 1.13107 13.0045 y) as X. pose proof PI_RGT_0 as Q.
    rewrite vwn_vh in * by lra. assert (0 < 1 / (3 * PI ^ 2)) by (apply Rdiv_lt_0_compat; [lra|pose proof (pow_lt PI 2 Q); lra]). assert (X' := X ltac:(assumption) ltac:(lra) ltac:(lra) ltac:(lra) ltac:(lra) Hy).
    replace (- (1 / (3 * PI ^ 2)) / 2) with (- (1 / (3 * PI ^ 2) / 2)) by (unfold Rdiv; ring). lra. }
  apply interp_neg; auto using fz15_range, fz2_inv, z4_range. lra.
Qed.
Theorem eps_vwn3_neg n z : -1 < z < 1 -> eps_vwn3 n z < 0.
Proof.
  intro Hz. unfold eps_vwn3. cbv zeta. assert (Hy : 0 < sqrt (rs n)) by (apply sqrt_lt_R0, rs_pos). set (y := sqrt (rs n)) in *.
  pose proof (ferro3 y Hy) as F. pose proof (fz15_range z Hz) as G.
  pose proof (vwn_neg 0.0621814 (- 0.4092860) 13.0720 42.7198 y ltac:(lra) ltac:(lra) ltac:(lra) ltac:(lra) ltac:(lra) Hy) as P.
  set (p := vwn 0.0621814 _ _ _ _) in *. set (f := vwn 0.0310907 _ _ _ _) in *. clearbody p f. nra.
Qed.

(** ** Perdew-Wang parametrisations, prefactors in a narrow range *)
Definition Bp := Bpoly 7.5957 3.5876 1.6382 0.49294.
Definition Bf := Bpoly 14.1189 6.1977 3.3662 0.62517.
Definition Ba := Bpoly 10.357 3.6231 0.88026 0.49671.
Lemma B_pos s : 0 < s -> 0 < Bp s /\ 0 < Bf s /\ 0 < Ba s.
Proof.
  intro Hs. destruct (Gpos 1 1 7.5957 3.5876 1.6382 0.49294 s) as [H1 _]; try lra. destruct (Gpos 1 1 14.1189 6.1977 3.3662 0.62517 s) as [H2 _]; try lra.
  destruct (Gpos 1 1 10.357 3.6231 0.88026 0.49671 s) as [H3 _]; try lra. auto.
Qed.
Lemma half_div A B A' B' : 0 < A -> 0 < B -> 0 < A' -> 0 < B' -> A * B <= 3 * (A' * B') -> / 2 / (A' * B') <= 3 * (/ 2 / (A * B)).
Proof.
  intros HA HB HA' HB' H. assert (P : 0 < A * B) by now apply Rmult_lt_0_compat. assert (P' : 0 < A' * B') by now apply Rmult_lt_0_compat.
  apply Rmult_le_reg_r with (A' * B'); [exact P'|]. apply Rmult_le_reg_r with (A * B); [exact P|].
  replace (/ 2 / (A' * B') * (A' * B') * (A * B)) with (/ 2 * (A * B)) by (field; lra).
  replace (3 * (/ 2 / (A * B)) * (A' * B') * (A * B)) with (3 * / 2 * (A' * B')) by (field; lra). lra.
Qed.
Section PW.
Variables A0 A1 A2 : R.
Hypothesis H0 : 0.03109 <= A0 <= 0.0311.
Hypothesis H1 : 0.0155 <= A1 <= 0.0156.
Hypothesis H2 : 0.01688 <= A2 <= 0.0169.
Definition gp (s : R) := Gc A0 0.2137 7.5957 3.5876 1.6382 0.49294 s.
Definition gf (s : R) := Gc A1 0.20548 14.1189 6.1977 3.3662 0.62517 s.
Definition ga (s : R) := Gc A2 0.11125 10.357 3.6231 0.88026 0.49671 s.
Lemma pw_cmp s : 0 < s -> 0 < gp s /\ 0 < ga s /\ 0.6 * ga s < gp s /\ gp s < 7 * gf s.
Proof.
  intro Hs. destruct (B_pos s Hs) as (P0 & P1 & P2). unfold gp, ga, gf, Gc. fold Bp Bf Ba. change (Bpoly 7.5957 3.5876 1.6382 0.49294 s) with (Bp s). change (Bpoly 14.1189 6.1977 3.3662 0.62517 s) with (Bf s). change (Bpoly 10.357 3.6231 0.88026 0.49671 s) with (Ba s).
  assert (S2 : 0 < s * s) by (now apply Rmult_lt_0_compat). assert (S3 : 0 < s * s * s) by (now apply Rmult_lt_0_compat). assert (S4 : 0 < s * s * s * s) by (now apply Rmult_lt_0_compat).
  assert (K02 : 0.0311 * Bp s <= 3 * (0.01688 * Ba s)).
  { unfold Bp, Ba, Bpoly. assert (W : 0 <= 0.07 - 0.0066 * s + 0.0098 * (s * s)) by nra.
    assert (W2 : 0 <= s * s * (0.07 - 0.0066 * s + 0.0098 * (s * s))) by (apply Rmult_le_pos; lra). lra. }
  assert (K10 : 0.0156 * Bf s <= 3 * (0.03109 * Bp s)) by (unfold Bp, Bf, Bpoly; lra).
  assert (L02 : A0 * Bp s <= 3 * (A2 * Ba s)) by nra. assert (L10 : A1 * Bf s <= 3 * (A0 * Bp s)) by nra.
  pose proof (half_div A0 (Bp s) A2 (Ba s) ltac:(lra) P0 ltac:(lra) P2 L02) as Y1. pose proof (half_div A1 (Bf s) A0 (Bp s) ltac:(lra) P1 ltac:(lra) P0 L10) as Y2.
  assert (Q0 : 0 < / 2 / (A0 * Bp s)) by (apply Rdiv_lt_0_compat; [lra|apply Rmult_lt_0_compat; lra]).
  assert (Q1 : 0 < / 2 / (A1 * Bf s)) by (apply Rdiv_lt_0_compat; [lra|apply Rmult_lt_0_compat; lra]).
  assert (Q2 : 0 < / 2 / (A2 * Ba s)) by (apply Rdiv_lt_0_compat; [lra|apply Rmult_lt_0_compat; lra]).
  pose proof (ln3 _ _ Q0 Q2 Y1) as Z1. pose proof (ln3 _ _ Q1 Q0 Y2) as Z2.
  assert (R0 : 0 < ln (1 + / 2 / (A0 * Bp s))) by (rewrite <- ln_1; apply ln_increasing; lra).
  assert (R1 : 0 < ln (1 + / 2 / (A1 * Bf s))) by (rewrite <- ln_1; apply ln_increasing; lra).
  assert (R2 : 0 < ln (1 + / 2 / (A2 * Ba s))) by (rewrite <- ln_1; apply ln_increasing; lra).
  set (l0 := ln (1 + / 2 / (A0 * Bp s))) in *. set (l1 := ln (1 + / 2 / (A1 * Bf s))) in *. set (l2 := ln (1 + / 2 / (A2 * Ba s))) in *. set (q := s * s) in *.
  assert (C0 : 0 < A0 * (1 + 0.2137 * q)) by (apply Rmult_lt_0_compat; lra). assert (C2 : 0 < A2 * (1 + 0.11125 * q)) by (apply Rmult_lt_0_compat; lra).
  assert (M0 : 0.6 * (A2 * (1 + 0.11125 * q)) * 3 < A0 * (1 + 0.2137 * q)) by nra.
  assert (M1 : A0 * (1 + 0.2137 * q) * 3 < 7 * (A1 * (1 + 0.20548 * q))) by nra.
  replace (2 * A0 * (1 + 0.2137 * q) * l0) with (2 * (A0 * (1 + 0.2137 * q) * l0)) by ring.
  replace (2 * A1 * (1 + 0.20548 * q) * l1) with (2 * (A1 * (1 + 0.20548 * q) * l1)) by ring.
  replace (2 * A2 * (1 + 0.11125 * q) * l2) with (2 * (A2 * (1 + 0.11125 * q) * l2)) by ring.
  set (c0 := A0 * (1 + 0.2137 * q)) in *. set (c1 := A1 * (1 + 0.20548 * q)) in *. set (c2 := A2 * (1 + 0.11125 * q)) in *.
  assert (0 < c0 * l0) by now apply Rmult_lt_0_compat. assert (0 < c2 * l2) by now apply Rmult_lt_0_compat. clearbody l0 l1 l2 c0 c1 c2.
  split; [lra|]. split; [lra|]. split; nra.
Qed.
Theorem pw_neg s g k q : 0 < s -> 0 <= g <= 1.001 -> 0 <= k <= 0.5851 -> 0 <= q <= 1 ->
  - gp s + ga s * (g * k) * (1 - q) + (- gf s - - gp s) * g * q < 0.
Proof. intros Hs Hg Hk Hq. destruct (pw_cmp s Hs) as (P & A & I' & F). apply interp_neg; lra. Qed.
End PW.
Lemma pw92_Gc A a b1 b2 b3 b4 r : 0 < r -> 0 < A -> 0 < b1 -> 0 < b2 -> 0 < b3 -> 0 < b4 -> pw92_G A a b1 b2 b3 b4 r = - Gc A a b1 b2 b3 b4 (sqrt r).
Proof.
  intros Hr HA P1 P2 P3 P4. unfold pw92_G, Gc. assert (E : sqrt r * sqrt r = r) by (apply sqrt_sqrt; lra). assert (S : 0 < sqrt r) by now apply sqrt_lt_R0. rewrite E.
  replace (1 / (2 * A * (b1 * sqrt r + b2 * r + b3 * (r * sqrt r) + b4 * r ^ 2))) with (/ 2 / (A * Bpoly b1 b2 b3 b4 (sqrt r))); [reflexivity|].
  unfold Bpoly. replace (sqrt r * (b1 + sqrt r * (b2 + sqrt r * (b3 + b4 * sqrt r)))) with (b1 * sqrt r + b2 * (sqrt r * sqrt r) + b3 * (sqrt r * sqrt r * sqrt r) + b4 * (sqrt r * sqrt r) ^ 2) by ring. rewrite E.
  field. assert (0 < b1 * sqrt r) by now apply Rmult_lt_0_compat. assert (0 < b2 * r) by now apply Rmult_lt_0_compat.
  assert (0 < b3 * (r * sqrt r)) by (apply Rmult_lt_0_compat; [assumption|now apply Rmult_lt_0_compat]). assert (0 < b4 * r ^ 2) by (apply Rmult_lt_0_compat; [assumption|now apply pow_lt]). lra.
Qed.
Lemma fz_range z : -1 < z < 1 -> 0 <= fz z <= 1.
Proof.
  intro H. pose proof (fz_num_range z H). pose proof cbrt2_fine. unfold fz. rewrite two43'. set (c := Rpower 2 (1 / 3)) in *. split.
  - apply Rmult_le_pos; [lra|left; apply Rinv_0_lt_compat; lra].
  - apply Rmult_le_reg_r with (2 * c - 2); [lra|]. unfold Rdiv. rewrite Rmult_assoc, Rinv_l by lra. lra.
Qed.
Theorem eps_pw92_neg n z : -1 < z < 1 -> Published.eps_pw92 n z < 0.
Proof.
  intro Hz. unfold Published.eps_pw92, eps_pw92_pol. cbv zeta. pose proof (rs_pos n) as Hr. rewrite !pw92_Gc by lra. rewrite Ropp_involutive.
  assert (Hs : 0 < sqrt (rs n)) by now apply sqrt_lt_R0. pose proof (fz_range z Hz).
  replace 0.21370 with 0.2137 by lra. exact (pw_neg 0.0310907 0.01554535 0.0168869 ltac:(lra) ltac:(lra) ltac:(lra) (sqrt (rs n)) (fz z) (/ fz2) (z ^ 4) Hs ltac:(lra) fz2_inv (z4_range z Hz)).
Qed.
