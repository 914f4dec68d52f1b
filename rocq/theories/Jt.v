(** * The range-separated correlation functional of Toulouse is defined
    (ldaerfc_jt.cpp 24-53)  The on-top pair density stays below one half, and the quadratic in the
    range-separation parameter has no positive root. *)
From Coq Require Import Reals QArith Qreals ZArith Arith Lia Lra Psatz List Bool String.
From Coquelicot Require Import Coquelicot.
From Verif Require BrReal.
From Verif Require Import Scalar RInst Tables Br Expr Functionals RSem Itv Dom Phys Safe Pw92 Value Published PubTac PubX PubC Oblig Safe2 Vwn Safe3.
Import ListNotations.
Local Open Scope R_scope.

(** ** The pair density at contact *)
Lemma exp_num : 1179.37 <= exp 7.072748642.
Proof.
  assert (H : 1.028013090228 <= exp (7.072748642 / 256)) by (eapply Rle_trans; [|apply BrReal.exp_lo3; lra]; lra).
  assert (D : forall u v w, 0 < v -> v <= exp u -> w <= v * v -> w <= exp (u + u)). { intros u v w Hv Hu Hw. rewrite exp_plus. pose proof (exp_pos u). assert (v * v <= exp u * exp u) by (apply Rmult_le_compat; lra). lra. }
  apply (D _ _ 1.056810913680) in H; [|lra|lra]. apply (D _ _ 1.116849307273) in H; [|lra|lra]. apply (D _ _ 1.247352375156) in H; [|lra|lra]. apply (D _ _ 1.555887947807) in H; [|lra|lra].
  apply (D _ _ 2.4207873061) in H; [|lra|lra]. apply (D _ _ 5.8602111813) in H; [|lra|lra]. apply (D _ _ 34.3420750894) in H; [|lra|lra]. apply (D _ _ 1179.37) in H; [|lra|lra].
  eapply Rle_trans; [exact H|]. right. f_equal. lra.
Qed.
Definition g0 (r : R) : R := 339530545262710070631 / 100000000000000000000 * (Rpower (r + 377 / 80) (3 / 2) + 4086 / 25) * exp (-32581 / 10000 * sqrt (r + 377 / 80)).
Lemma g0_range r : 0 < r -> 0 < g0 r < 1 / 2.
Proof.
  intro Hr. unfold g0. set (t := sqrt (r + 377 / 80)). assert (T0 : 0 <= t) by apply sqrt_pos. assert (T2 : t * t = r + 377 / 80) by (apply sqrt_sqrt; lra).
  assert (T : 2.17082 <= t). { destruct (Rle_lt_dec 2.17082 t) as [|L]; [assumption|]. assert (t * t <= 2.17082 * 2.17082) by (apply Rmult_le_compat; lra). lra. }
  replace (Rpower (r + 377 / 80) (3 / 2)) with (t * t * t).
  2:{ rewrite <- T2. replace (3 / 2) with (1 + / 2) by field. rewrite Rpower_plus, Rpower_1 by nra. rewrite Rpower_sqrt by nra. rewrite sqrt_square by lra. reflexivity. }
  clearbody t. clear T2. pose proof (exp_pos (-32581 / 10000 * t)) as E0. assert (T3 : 0 < t * t * t) by (repeat apply Rmult_lt_0_compat; lra).
  split; [apply Rmult_lt_0_compat; [lra|exact E0]|].
  assert (E1 : exp (32581 / 10000 * t) * exp (-32581 / 10000 * t) = 1) by (rewrite <- exp_plus; replace (32581 / 10000 * t + -32581 / 10000 * t) with 0 by field; apply exp_0).
  set (d := t - 2.17082). assert (D0 : 0 <= d) by (unfold d; lra). assert (Et : t = 2.17082 + d) by (unfold d; ring).
  assert (X : exp (32581 / 10000 * t) = exp 7.072748642 * exp (3.2581 * d)) by (rewrite <- exp_plus; f_equal; rewrite Et; lra).
  pose proof exp_num as N. pose proof (BrReal.exp_lo3 (3.2581 * d) ltac:(lra)) as L. assert (D2 : 0 <= d * d) by now apply Rmult_le_pos. assert (D3 : 0 <= d * d * d) by now apply Rmult_le_pos.
  set (l := 1 + 3.2581 * d + 3.2581 * d * (3.2581 * d) / 2 + 3.2581 * d * (3.2581 * d) * (3.2581 * d) / 6) in *.
  assert (L0 : 0 < l) by (unfold l; lra). assert (Y : 1179.37 * l <= exp (32581 / 10000 * t)) by (rewrite X; apply Rmult_le_compat; lra).
  assert (Z : 2 * (339530545262710070631 / 100000000000000000000) * (t * t * t + 4086 / 25) < 1179.37 * l) by (rewrite Et; unfold l; lra).
  set (e := exp (-32581 / 10000 * t)) in *. set (e' := exp (32581 / 10000 * t)) in *. clearbody e e'. nra.
Qed.

(** ** The energy per particle is not too small *)
Lemma stiff_small9 y : 0 < y -> vwn 0.0621814 (- 0.10498) 3.72744 12.9352 y + 0.9 * vwn (- (1 / (3 * PI ^ 2))) (- 0.0047584) 1.13107 13.0045 y < 0.
Proof.
  intro Hy. rewrite !vwn_vh by lra. pose proof PI2_3_2. pose proof PI_RGT_0. assert (P3 : 3 < PI) by (unfold PI2 in *; lra).
  set (B := / (6 * PI ^ 2)). assert (HB : 0 < B < / 54) by (split; [apply Rinv_0_lt_compat; nra|apply Rinv_lt_contravar; nra]).
  replace (- (1 / (3 * PI ^ 2)) / 2) with (- B) by (unfold B; field; lra).
  assert (G : 0.0310907 * vh (- 0.10498) 3.72744 12.9352 y < 0.9 * B * vh (- 0.0047584) 1.13107 13.0045 y).
  { apply vh_cmp; try lra. intros t Ht. apply Rle_lt_trans with (0.9 * / 54 * (13.0045 - 1.13107 * - 0.0047584) * (t ^ 2 + 3.72744 * t + 12.9352)); [|nra].
    apply Rmult_le_compat_r; [nra|]. apply Rmult_le_compat_r; lra. }
  lra.
Qed.
Lemma interp_low p f a g k q : p < 0 -> 3 * f < p -> 0 <= a -> p + 0.9 * a < 0 -> 0 <= g <= 1.001 -> 0 <= k <= 0.5851 -> 0 <= q <= 1 ->
  p + a * (g * k) * (1 - q) + (f - p) * g * q <= 0.3 * p.
Proof.
  intros Hp Hf Ha Hpa Hg Hk Hq.
  assert (A1 : a * (g * k) * (1 - q) <= - p * 0.6502 * (g * (1 - q))).
  { replace (a * (g * k) * (1 - q)) with (a * k * (g * (1 - q))) by ring. apply Rmult_le_compat_r; [apply Rmult_le_pos; lra|].
    apply Rle_trans with (a * 0.5851); [apply Rmult_le_compat_l; lra|lra]. }
  assert (W : 0 <= g * q) by (apply Rmult_le_pos; lra). assert (W1 : g * q <= 1.001) by (assert (0 <= g * (1 - q)) by (apply Rmult_le_pos; lra); lra).
  assert (A2 : (f - p) * g * q <= (- p * (2 / 3)) * (g * q)) by (rewrite Rmult_assoc; apply Rmult_le_compat_r; lra).
  replace (g * (1 - q)) with (g - g * q) in A1 by ring. set (w := g * q) in *. clearbody w. nra.
Qed.
(** Far from the nucleus of the interpolation its size is at least that of an inverse square. *)
Lemma vh_far y : 2.1 < y -> vh (- 0.10498) 3.72744 12.9352 y <= - (12.9352 / 8) / (y * y).
Proof.
  intro Hy. destruct (vh_small (- 0.10498) 3.72744 12.9352 ltac:(lra) ltac:(lra) ltac:(lra)) as [C S].
  pose (f := fun t => vh (- 0.10498) 3.72744 12.9352 (t + 2.1) + 12.9352 / 8 / ((t + 2.1) * (t + 2.1))).
  assert (X : f (y - 2.1) < 0).
  { apply (up_to_zero f (fun t => vh' (- 0.10498) 3.72744 12.9352 (t + 2.1) - 2 * (12.9352 / 8) / ((t + 2.1) * (t + 2.1) * (t + 2.1))) (Rabs C + 2)); [| | |lra].
    - intros t Ht. apply (is_derive_plus (fun t => vh (- 0.10498) 3.72744 12.9352 (t + 2.1)) (fun t => 12.9352 / 8 / ((t + 2.1) * (t + 2.1)))).
      + assert (Dv : is_derive (vh (- 0.10498) 3.72744 12.9352) (t + 2.1) (vh' (- 0.10498) 3.72744 12.9352 (t + 2.1))) by (apply vh_derive; lra).
        pose proof (is_derive_comp (vh (- 0.10498) 3.72744 12.9352) (fun t => t + 2.1) t _ 1 Dv ltac:(auto_derive; [exact Logic.I|ring])) as Y. match type of Y with is_derive _ _ ?l => match goal with |- is_derive _ _ ?m => replace m with l; [exact Y|] end end. unfold scal; cbn -[vh']; unfold mult; cbn -[vh']; ring.
      + auto_derive; [assert (0 < (t + 2.1) * (t + 2.1)) by (apply Rmult_lt_0_compat; lra); lra|]. set (m := t + 2.1). assert (0 < m) by (unfold m; lra). replace (m * m * (m * m)) with (m * m * m * m) by ring. field_simplify; lra || (field; lra).
    - intros t Ht. set (m := t + 2.1). assert (M : 2.1 < m) by (unfold m; lra). unfold vh'. assert (P : 0 < m ^ 2 + 3.72744 * m + 12.9352) by nra.
      destruct (mix_low 3.72744 (- 0.10498) m _ ltac:(lra) ltac:(lra) ltac:(lra) P) as [_ L].
      assert (0 < 2 * 12.9352 / (m * (m ^ 2 + 3.72744 * m + 12.9352)) - 2 * (12.9352 / 8) / (m * m * m)); [|lra].
      set (X := m ^ 2 + 3.72744 * m + 12.9352) in *. assert (XL : X < 8 * (m * m)) by (unfold X; nra). clearbody X.
      replace (2 * 12.9352 / (m * X) - 2 * (12.9352 / 8) / (m * m * m)) with (12.9352 / 4 * (8 * (m * m) - X) / (m * m * m * X)) by (unfold Rdiv; field; lra).
      apply Rdiv_lt_0_compat; [lra|]. repeat apply Rmult_lt_0_compat; lra.
    - intros t Ht. unfold f. eapply Rle_trans; [apply Rabs_triang|]. pose proof (S (t + 2.1) ltac:(lra)) as S1. assert (I : / (t + 2.1) <= / t) by (apply Rinv_le_contravar; lra). assert (I0 : 0 < / (t + 2.1)) by (apply Rinv_0_lt_compat; lra).
      pose proof (Rle_abs C) as CA. pose proof (Rabs_pos C) as C0. unfold Rdiv in S1. assert (C * / (t + 2.1) <= Rabs C * / t) by (apply Rle_trans with (Rabs C * / (t + 2.1)); [apply Rmult_le_compat_r; lra|apply Rmult_le_compat_l; lra]).
      rewrite (Rabs_pos_eq (12.9352 / 8 / ((t + 2.1) * (t + 2.1)))) by (apply Rlt_le, Rdiv_lt_0_compat; [lra|apply Rmult_lt_0_compat; lra]).
      assert (12.9352 / 8 / ((t + 2.1) * (t + 2.1)) <= 2 * / t); [|unfold Rdiv; lra]. unfold Rdiv at 1. rewrite Rinv_mult.
      assert (/ (t + 2.1) <= 1) by (rewrite <- Rinv_1; apply Rinv_le_contravar; lra). assert (/ (t + 2.1) * / (t + 2.1) <= 1 * / t) by (apply Rmult_le_compat; lra). lra. }
  unfold f in X. replace (y - 2.1 + 2.1) with y in X by ring. unfold Rdiv in *. lra.
Qed.
Theorem eps_vwn5_low n z : -1 < z < 1 -> 4.42 <= Published.rs n -> eps_vwn5 n z * Published.rs n <= - 0.015.
Proof.
  intros Hz Hr. unfold eps_vwn5. cbv zeta. assert (Hy : 0 < sqrt (Published.rs n)) by (apply sqrt_lt_R0, rs_pos). assert (Yy : sqrt (Published.rs n) * sqrt (Published.rs n) = Published.rs n) by (apply sqrt_sqrt; lra). set (y := sqrt (Published.rs n)) in *.
  assert (Y2 : 2.1 < y) by nra.
  pose proof (stiff_small9 y Hy) as S. pose proof (ferro5 y Hy) as F.
  pose proof (vwn_neg 0.0621814 (- 0.10498) 3.72744 12.9352 y ltac:(lra) ltac:(lra) ltac:(lra) ltac:(lra) ltac:(lra) Hy) as P.
  assert (A : 0 <= vwn (- (1 / (3 * PI ^ 2))) (- 0.0047584) 1.13107 13.0045 y).
  { pose proof (vwn_neg (1 / (3 * PI ^ 2)) (- 0.0047584) 1.13107 13.0045 y) as X. pose proof PI_RGT_0 as Q.
    rewrite vwn_vh in * by lra. assert (0 < 1 / (3 * PI ^ 2)) by (apply Rdiv_lt_0_compat; [lra|pose proof (pow_lt PI 2 Q); lra]). assert (X' := X ltac:(assumption) ltac:(lra) ltac:(lra) ltac:(lra) ltac:(lra) Hy).
    replace (- (1 / (3 * PI ^ 2)) / 2) with (- (1 / (3 * PI ^ 2) / 2)) by (unfold Rdiv; ring). lra. }
  match goal with |- ?e * _ <= _ => assert (I : e <= 0.3 * vwn 0.0621814 (- 0.10498) 3.72744 12.9352 y) by (apply interp_low; auto using fz15_range, fz2_inv, z4_range); set (E := e) in * end.
  pose proof (vh_far y Y2) as V. rewrite vwn_vh in I by lra. assert (YY : 0 < y * y) by (apply Rmult_lt_0_compat; lra).
  assert (V' : vh (- 0.10498) 3.72744 12.9352 y * (y * y) <= - (12.9352 / 8)). { apply Rmult_le_reg_r with (/ (y * y)); [now apply Rinv_0_lt_compat|]. rewrite Rmult_assoc, Rinv_r by lra. unfold Rdiv in V. lra. }
  rewrite <- Yy. set (v := vh (- 0.10498) 3.72744 12.9352 y) in *. clearbody v E. assert (E * (y * y) <= 0.3 * (0.0621814 / 2 * v) * (y * y)) by (apply Rmult_le_compat_r; lra). nra.
Qed.

(** ** The quadratic in the range-separation parameter *)
Definition c1 (r : R) : R := (10270741452992294 / 10000000000000000 * r + -230160617208092 / 1000000000000000 * (r * r)) / (1 + 6196884832404359 / 10000000000000000 * r).
Theorem jt_pos n z mu c2 : 0 < n -> -1 < z < 1 -> 0 < mu -> c2 = n * eps_vwn5 n z / (1 / 2 * PI * (n * n) * (g0 (Published.rs n) - 1 / 2)) -> 0 < 1 + c1 (Published.rs n) * mu + c2 * mu * mu.
Proof.
  intros Hn Hz Hm E2. pose proof (eps_vwn5_neg n z Hz) as En. pose proof (g0_range (Published.rs n) (rs_pos n)) as [G0 G1]. pose proof PI_RGT_0 as Pp.
  assert (PN : 0 < PI * n) by (apply Rmult_lt_0_compat; lra). pose proof (rs_pos n) as Rp. assert (R3 : Published.rs n * (Published.rs n * Published.rs n) * (4 * PI * n) = 3).
  { unfold Published.rs. rewrite <- !Rpower_plus. replace (1 / 3 + (1 / 3 + 1 / 3)) with 1 by field. rewrite Rpower_1 by (apply Rdiv_lt_0_compat; lra). field. lra. }
  set (g := g0 (Published.rs n)) in *. set (e := eps_vwn5 n z) in *. set (r := Published.rs n) in *.
  assert (C2 : c2 * (1 / 2 - g) = 8 / 3 * (r * (r * r)) * - e).
  { rewrite E2. transitivity (- e * 2 / (PI * n)); [field; repeat split; lra|]. replace (8 / 3 * (r * (r * r))) with (2 / (PI * n)); [field; lra|]. apply Rmult_eq_reg_r with (4 * PI * n); [|assert (0 < PI * n) by (apply Rmult_lt_0_compat; lra); lra]. symmetry. rewrite Rmult_assoc, R3. field. lra. }
  assert (RRR : 0 < r * (r * r)) by (repeat apply Rmult_lt_0_compat; lra). assert (M2 : 0 < mu * mu) by now apply Rmult_lt_0_compat.
  assert (C2p : 16 / 3 * (r * (r * r)) * - e < c2). { assert (0 < r * (r * r) * - e) by (apply Rmult_lt_0_compat; lra). assert (0 < c2) by (destruct (Rlt_le_dec 0 c2); [assumption|exfalso; nra]). nra. }
  assert (C2q : 0 < c2) by (assert (0 < r * (r * r) * - e) by (apply Rmult_lt_0_compat; lra); lra).
  assert (De : 0 < 1 + 6196884832404359 / 10000000000000000 * r) by lra.
  destruct (Rle_lt_dec r 4.42) as [S|S].
  - assert (0 <= c1 r). { unfold c1. apply Rmult_le_pos; [|left; now apply Rinv_0_lt_compat]. nra. }
    assert (0 <= c1 r * mu) by (apply Rmult_le_pos; lra). assert (0 < c2 * mu * mu) by (rewrite Rmult_assoc; now apply Rmult_lt_0_compat). lra.
  - pose proof (eps_vwn5_low n z Hz ltac:(fold r; lra)) as L. fold e in L. fold r in L.
    assert (C1 : - 0.3715 * r <= c1 r). { unfold c1. apply Rmult_le_reg_r with (1 + 6196884832404359 / 10000000000000000 * r); [exact De|]. match goal with |- _ <= ?a / ?b * _ => replace (a / b * b) with a by (field; lra) end. nra. }
    assert (C3 : 0.08 * (r * r) <= c2) by nra.
    assert (0 < 1 - 0.3715 * (r * mu) + 0.08 * ((r * mu) * (r * mu))) by nra.
    assert (- 0.3715 * r * mu <= c1 r * mu) by (apply Rmult_le_compat_r; lra). assert (0.08 * (r * r) * (mu * mu) <= c2 * (mu * mu)) by (apply Rmult_le_compat_r; lra). nra.
Qed.
Section F.
Variable st : nat -> T ROps.
Variable x : nat -> R.
Variable fl : fld -> R.
Hypothesis P : phys fl.
Lemma ldaerfc_jt_good : 0 < (st XC_RANGESEP_MU : R) -> good st x fl [] (obs iNN top [] ldaerfc_jt).
Proof.
  intro Mu. assert (Hn : 0 < fl f_n) by (rewrite (ph_n fl P); pose proof (ph_a fl P); pose proof (ph_b fl P); lra). pose proof (zeta_in fl P) as Hz. pose proof PI_RGT_0 as Pp.
  obg; repeat match goal with E : bound _ _ _ _ _ _ _ |- _ => rdh E end.
  - rewrite (ph_rs fl P) in E. pose proof (g0_range _ (rs_pos (fl f_n))) as G. unfold g0 in G. rewrite <- E in G. rewrite E1, E0. assert (0 < fl f_n * fl f_n) by now apply Rmult_lt_0_compat. assert (0 < 1 / 2 * PI * (fl f_n * fl f_n)) by (apply Rmult_lt_0_compat; lra).
    apply Rmult_integral_contrapositive_currified; lra.
  - pose proof (vwn5_E st x fl P) as V. vred_in V. rewrite V in E. rewrite (ph_rs fl P) in E. change (st XC_RANGESEP_MU) with (st 78%nat) in Mu. cbn [T ROps] in Mu.
    pose proof (jt_pos (fl f_n) (fl f_zeta) (st 78%nat) _ Hn Hz Mu eq_refl) as Q. unfold g0, c1 in Q. rewrite E. apply Rgt_not_eq, Rlt_gt. eapply Rlt_le_trans; [exact Q|right].
    match goal with |- context [eps_vwn5 ?a ?b] => set (e := eps_vwn5 a b) in * end. set (r := Published.rs (fl f_n)) in *. match goal with |- context [exp ?a] => set (ex := exp a) in * end. match goal with |- context [Rpower ?a ?b] => set (pw := Rpower a b) in * end.
    set (m := (st 78%nat : R)) in *. clearbody m ex pw.
    match goal with |- _ = ?R => match R with context [fl f_n * e / ?d] => set (q := fl f_n * e / d) end end. 
    assert (Rp : 0 < r) by apply rs_pos. clear V. clearbody q r. field. lra.
Qed.
End F.
