(** * The second-order correction of r2SCAN and r4SCAN correlation
    The quantity 1 + 4 (y - dy) under the fourth root stays positive, and so does the argument
    of the logarithm: the correction dy is small compared with 1/4, by the monotonicity of
    the correlation energy of the uniform gas. *)
From Coq Require Import Reals Lra Psatz.
From Verif Require Import Pw92 Vwn Published BrReal.
Local Open Scope R_scope.

(** The derivative of the Perdew-Wang interpolation, as get_gcor2 computes it. *)
Definition Gd (A a b1 b2 b3 b4 s : R) : R :=
  let Q1 := 2 * A * Bpoly b1 b2 b3 b4 s in
  - (2 * A) * (1 + a * (s * s)) * (- (A * (2 * b2 + b1 / s + 3 * b3 * s + 4 * b4 * (s * s))) / ((1 + 1 / Q1) * (Q1 * Q1)))
  + ln (1 + / 2 / (A * Bpoly b1 b2 b3 b4 s)) * (- (2 * A) * a).
Lemma ln_lo x : 0 < x -> / (1 + x) <= ln (1 + / x) <= / x.
Proof.
  intro H. assert (I : 0 < / x) by now apply Rinv_0_lt_compat. assert (J : 0 < / (1 + x)) by (apply Rinv_0_lt_compat; lra). split.
  - assert (E : 1 + / x = / (1 - / (1 + x))) by (field; lra). assert (L : 0 < 1 - / (1 + x)) by (replace (1 - / (1 + x)) with (x * / (1 + x)) by (field; lra); now apply Rmult_lt_0_compat).
    rewrite E, ln_Rinv by exact L. assert (Q : ln (1 - / (1 + x)) <= - / (1 + x)); [|lra].
    rewrite <- (ln_exp (- / (1 + x))). apply Rcomplements.ln_le; [exact L|]. pose proof (exp_ineq1_le (- / (1 + x))). lra.
  - rewrite <- (ln_exp (/ x)) at 2. apply Rcomplements.ln_le; [lra|]. pose proof (exp_ineq1_le (/ x)). lra.
Qed.
Section G.
Variables A a b1 b2 b3 b4 s : R.
Hypothesis HA : 0 < A.
Hypothesis Ha : 0 < a.
Hypothesis H1 : 0 < b1.
Hypothesis H2 : 0 < b2.
Hypothesis H3 : 0 < b3.
Hypothesis H4 : 0 < b4.
Hypothesis Hs : 0 < s.
Let Q1 := 2 * A * Bpoly b1 b2 b3 b4 s.
Let L := ln (1 + / 2 / (A * Bpoly b1 b2 b3 b4 s)).
Lemma Q1p : 0 < Q1.
Proof. destruct (Gpos A a b1 b2 b3 b4 s) as [B _]; try assumption. unfold Q1. apply Rmult_lt_0_compat; [lra|exact B]. Qed.
Lemma L_range : / (1 + Q1) <= L <= / Q1.
Proof.
  pose proof Q1p as P. destruct (Gpos A a b1 b2 b3 b4 s) as [B _]; try assumption. replace L with (ln (1 + / Q1)); [now apply ln_lo|]. unfold L, Q1. do 2 f_equal. field. lra.
Qed.
Lemma sp : 0 < s * s /\ 0 < s * s * s /\ 0 < s * s * s * s.
Proof. assert (0 < s * s) by now apply Rmult_lt_0_compat. assert (0 < s * s * s) by now apply Rmult_lt_0_compat. assert (0 < s * s * s * s) by now apply Rmult_lt_0_compat. tauto. Qed.
Lemma GdE : Gd A a b1 b2 b3 b4 s = 2 * A * ((1 + a * (s * s)) * (A * (2 * b2 + b1 / s + 3 * b3 * s + 4 * b4 * (s * s))) / ((1 + Q1) * Q1) - a * L).
Proof. pose proof Q1p as P. unfold Gd. fold L. fold Q1. field. repeat split; lra. Qed.
Lemma Gd_hi : s * s * Gd A a b1 b2 b3 b4 s <= 4 * A * (1 + a * (s * s)) / (1 + Q1).
Proof.
  pose proof Q1p as P. pose proof L_range as [L1 _]. destruct sp as (S2 & S3 & S4). assert (0 < / (1 + Q1)) by (apply Rinv_0_lt_compat; lra).
  rewrite GdE. assert (X : s * s * (A * (2 * b2 + b1 / s + 3 * b3 * s + 4 * b4 * (s * s))) <= 2 * Q1).
  { replace (s * s * (A * (2 * b2 + b1 / s + 3 * b3 * s + 4 * b4 * (s * s)))) with (A * (b1 * s + 2 * (b2 * (s * s)) + 3 * (b3 * (s * s * s)) + 4 * (b4 * (s * s * s * s)))) by (field; lra).
    unfold Q1, Bpoly. replace (2 * (2 * A * (s * (b1 + s * (b2 + s * (b3 + b4 * s)))))) with (A * (4 * (b1 * s) + 4 * (b2 * (s * s)) + 4 * (b3 * (s * s * s)) + 4 * (b4 * (s * s * s * s)))) by ring.
    apply Rmult_le_compat_l; [lra|]. assert (0 < b1 * s) by now apply Rmult_lt_0_compat. assert (0 < b2 * (s * s)) by now apply Rmult_lt_0_compat. assert (0 < b3 * (s * s * s)) by now apply Rmult_lt_0_compat. lra. }
  set (W := A * (2 * b2 + b1 / s + 3 * b3 * s + 4 * b4 * (s * s))) in *.
  replace (s * s * (2 * A * ((1 + a * (s * s)) * W / ((1 + Q1) * Q1) - a * L))) with (2 * A * (1 + a * (s * s)) / (1 + Q1) / Q1 * (s * s * W) - 2 * A * a * (s * s) * L) by (field; lra).
  assert (0 < a * (s * s)) by now apply Rmult_lt_0_compat. assert (0 < 2 * A * a * (s * s) * L) by (apply Rmult_lt_0_compat; [apply Rmult_lt_0_compat; [apply Rmult_lt_0_compat; lra|lra]|lra]).
  assert (T : 2 * A * (1 + a * (s * s)) / (1 + Q1) / Q1 * (s * s * W) <= 2 * A * (1 + a * (s * s)) / (1 + Q1) / Q1 * (2 * Q1)).
  { apply Rmult_le_compat_l; [|exact X]. left. apply Rdiv_lt_0_compat; [apply Rdiv_lt_0_compat; [apply Rmult_lt_0_compat; lra|lra]|exact P]. }
  replace (2 * A * (1 + a * (s * s)) / (1 + Q1) / Q1 * (2 * Q1)) with (4 * A * (1 + a * (s * s)) / (1 + Q1)) in T by (field; lra). lra.
Qed.
Lemma Gd_Gc : s * s * Gd A a b1 b2 b3 b4 s <= 2 * Gc A a b1 b2 b3 b4 s.
Proof.
  eapply Rle_trans; [exact Gd_hi|]. unfold Gc. fold L. pose proof L_range as [L1 _]. destruct sp as (S2 & _ & _). assert (0 < a * (s * s)) by now apply Rmult_lt_0_compat.
  replace (2 * (2 * A * (1 + a * (s * s)) * L)) with (4 * A * (1 + a * (s * s)) * L) by ring. unfold Rdiv. apply Rmult_le_compat_l; [|exact L1]. apply Rmult_le_pos; lra.
Qed.
Lemma Gc_hi : Gc A a b1 b2 b3 b4 s * Bpoly b1 b2 b3 b4 s <= 1 + a * (s * s).
Proof.
  destruct (Gpos A a b1 b2 b3 b4 s) as [B _]; try assumption. pose proof L_range as [_ L2]. pose proof Q1p as P. destruct sp as (S2 & _ & _). assert (0 < a * (s * s)) by now apply Rmult_lt_0_compat.
  unfold Gc. fold L. replace (2 * A * (1 + a * (s * s)) * L * Bpoly b1 b2 b3 b4 s) with ((1 + a * (s * s)) * (Q1 * L)) by (unfold Q1; ring).
  rewrite <- (Rmult_1_r (1 + a * (s * s))) at 2. apply Rmult_le_compat_l; [lra|]. replace 1 with (Q1 * / Q1) by (field; lra). apply Rmult_le_compat_l; lra.
Qed.
Lemma Gd_pos : a <= 2 * (A * b2) -> a * b1 <= 3 * b3 -> 0 <= Gd A a b1 b2 b3 b4 s.
Proof.
  intros C1 C2. pose proof Q1p as P. pose proof L_range as [_ L2]. destruct sp as (S2 & S3 & S4). rewrite GdE. apply Rmult_le_pos; [lra|].
  set (W := A * (2 * b2 + b1 / s + 3 * b3 * s + 4 * b4 * (s * s))).
  assert (X : a * (1 + Q1) <= (1 + a * (s * s)) * W).
  { unfold W, Q1, Bpoly. assert (B1 : 0 < A * (b1 / s)) by (apply Rmult_lt_0_compat; [exact HA|now apply Rdiv_lt_0_compat]).
    assert (E1 : s * s * (b1 / s) = b1 * s) by (field; lra).
    assert (0 <= (3 * b3 - a * b1) * (A * s)) by (apply Rmult_le_pos; [lra|left; now apply Rmult_lt_0_compat]).
    assert (0 < A * b4 * (s * s)) by (repeat apply Rmult_lt_0_compat; assumption). assert (0 < a * A * b3 * (s * s * s)) by (repeat apply Rmult_lt_0_compat; assumption).
    assert (0 < a * A * b4 * (s * s * s * s)) by (repeat apply Rmult_lt_0_compat; assumption).
    replace ((1 + a * (s * s)) * (A * (2 * b2 + b1 / s + 3 * b3 * s + 4 * b4 * (s * s)))) with
      (A * (2 * b2) + A * (b1 / s) + 3 * b3 * (A * s) + 4 * (A * b4 * (s * s)) + a * A * (2 * b2 * (s * s)) + a * A * (s * s * (b1 / s)) + 3 * (a * A * b3 * (s * s * s)) + 4 * (a * A * b4 * (s * s * s * s))) by ring.
    rewrite E1. nra. }
  assert (Y : (1 + a * (s * s)) * W / ((1 + Q1) * Q1) >= a * (1 + Q1) / ((1 + Q1) * Q1)).
  { apply Rle_ge. unfold Rdiv. apply Rmult_le_compat_r; [|exact X]. left. apply Rinv_0_lt_compat, Rmult_lt_0_compat; lra. }
  replace (a * (1 + Q1) / ((1 + Q1) * Q1)) with (a * / Q1) in Y by (field; lra). assert (a * L <= a * / Q1) by (apply Rmult_le_compat_l; lra). lra.
Qed.
End G.

(** ** Spin interpolation *)
Section INT.
Variables P F U f q k dP dF dU M : R.
Hypothesis HP : 0 < P.
Hypothesis HF : P < 7 * F.
Hypothesis HU : 0 < U.
Hypothesis HPU : 0.79 * U < P.
Hypothesis Hf : 0 <= f <= 1.001.
Hypothesis Hq : 0 <= q <= 1.
Hypothesis Hk : 0 <= k <= 0.5851.
Hypothesis DP : 0 <= dP <= 2 * P.
Hypothesis DF : dF <= 2 * F.
Hypothesis DU : 0 <= dU.
Let E := P * (1 - f * q) + F * (f * q) - U * f * (1 - q) * k.
Let D := (1 - f * q) * dP + f * q * dF - (1 - q) * f * dU * k.
Lemma fq : 0 <= f * q <= 1.001.
Proof. split; [apply Rmult_le_pos; lra|]. assert (0 <= f * (1 - q)) by (apply Rmult_le_pos; lra). lra. Qed.
Lemma E_low : P * (0.2593 * (1 - f * q) - 0.00075) + F * (f * q) <= E.
Proof.
  pose proof fq as C. assert (G : 0 <= f * (1 - q)) by (apply Rmult_le_pos; lra). assert (K : k * U <= 0.74065 * P) by nra.
  assert (X : U * f * (1 - q) * k <= 0.74065 * P * (f * (1 - q))) by (replace (U * f * (1 - q) * k) with (k * U * (f * (1 - q))) by ring; now apply Rmult_le_compat_r).
  assert (Y : P * (f * (1 - q)) <= P * (1.001 - f * q)) by (apply Rmult_le_compat_l; lra). unfold E.
  assert (0 <= P * (1.001 - f * q)) by (apply Rmult_le_pos; lra). lra.
Qed.
Lemma D_drop : D <= (1 - f * q) * dP + f * q * dF.
Proof. unfold D. assert (0 <= (1 - q) * f * dU * k) by (apply Rmult_le_pos; [apply Rmult_le_pos; [apply Rmult_le_pos; lra|lra]|lra]). lra. Qed.
Lemma D_E : D <= 8 * E.
Proof.
  pose proof fq as C. pose proof E_low as L. pose proof D_drop as X. set (c := f * q) in *. clearbody c E D.
  assert (Y : c * dF <= c * (2 * F)) by (apply Rmult_le_compat_l; lra).
  destruct (Rle_lt_dec c 0.92) as [S|S].
  - assert ((1 - c) * dP <= (1 - c) * (2 * P)) by (apply Rmult_le_compat_l; lra). assert (0 <= (0.92 - c) * P) by (apply Rmult_le_pos; lra). assert (0 <= c * F) by (apply Rmult_le_pos; lra). nra.
  - assert (0.92 * F <= c * F) by (apply Rmult_le_compat_r; lra). destruct (Rle_lt_dec c 1) as [T|T].
    + assert ((1 - c) * dP <= (1 - c) * (2 * P)) by (apply Rmult_le_compat_l; lra). assert (0 <= (1 - c) * P) by (apply Rmult_le_pos; lra). nra.
    + assert ((1 - c) * dP <= 0) by nra. assert (- 0.001 * P <= (1 - c) * P) by (apply Rmult_le_compat_r; lra). nra.
Qed.
Lemma E_pos : 0 < E.
Proof.
  pose proof fq as C. pose proof E_low as L. set (c := f * q) in *. clearbody c E. destruct (Rle_lt_dec c 0.92) as [S|S].
  - assert (0 <= (0.92 - c) * P) by (apply Rmult_le_pos; lra). assert (0 <= c * F) by (apply Rmult_le_pos; lra). nra.
  - assert (0.92 * F <= c * F) by (apply Rmult_le_compat_r; lra). assert (- 0.001 * P <= (1 - c) * P) by (apply Rmult_le_compat_r; lra). nra.
Qed.
Lemma E_hi : E <= P + 1.001 * F.
Proof.
  pose proof fq as C. assert (0 <= U * f * (1 - q) * k) by (repeat apply Rmult_le_pos; lra). assert (0 <= P * (f * q)) by (apply Rmult_le_pos; lra). assert (F * (f * q) <= F * 1.001) by (apply Rmult_le_compat_l; lra). unfold E. nra.
Qed.
Lemma D_M : dP <= M -> dF <= M -> D <= 1.001 * M.
Proof.
  intros A B. pose proof fq as C. pose proof D_drop as X. set (c := f * q) in *. clearbody c D. assert (c * dF <= c * M) by (apply Rmult_le_compat_l; lra). destruct (Rle_lt_dec c 1) as [T|T].
  - assert ((1 - c) * dP <= (1 - c) * M) by (apply Rmult_le_compat_l; lra). nra.
  - assert ((1 - c) * dP <= 0) by nra. assert (c * M <= 1.001 * M) by (apply Rmult_le_compat_r; lra). lra.
Qed.
End INT.

(** ** The damped reduced gradient *)
Lemma damp_range p : 0 < p -> 0 < exp (- (p * p) / (361 / 1000) ^ 4) <= 1 /\ p * exp (- (p * p) / (361 / 1000) ^ 4) <= 0.05604.
Proof.
  intro Hp. assert (P2 : 0 < p * p) by now apply Rmult_lt_0_compat. set (x := p * p / (361 / 1000) ^ 4). assert (Hx : 0 < x) by (apply Rdiv_lt_0_compat; [exact P2|apply pow_lt; lra]).
  replace (- (p * p) / (361 / 1000) ^ 4) with (- x) by (unfold x; field). pose proof (exp_pos (- x)) as E0. pose proof (exp_pos x) as E1. assert (EE : exp x * exp (- x) = 1) by (rewrite <- exp_plus, Rplus_opp_r; apply exp_0).
  pose proof (exp_lo3 x ltac:(lra)) as L. split; [split; [exact E0|nra]|].
  set (v := p / (361 / 1000) ^ 2). assert (Ev : p = v * (130321 / 1000000)) by (unfold v; field). assert (Hv : 0 < v) by (unfold v; apply Rdiv_lt_0_compat; [exact Hp|apply pow_lt; lra]). assert (Ex : x = v * v) by (unfold x, v; field). clearbody v x.
  apply Rmult_le_reg_l with (exp x); [exact E1|]. replace (exp x * (p * exp (- x))) with p by (transitivity (p * (exp x * exp (- x))); [rewrite EE; ring|ring]).
  apply Rle_trans with ((1 + x + x * x / 2 + x * x * x / 6) * 0.05604); [|apply Rmult_le_compat_r; lra]. rewrite Ex, Ev.
  assert (Q : v <= 0.43 * (1 + v * v + v * v * (v * v) / 2 + v * v * (v * v) * (v * v) / 6)).
  { clear - Hv. set (y := v * v). assert (Y0 : 0 < y) by (unfold y; nra). assert (T4 : 0 <= (y - 0.5184) * (y - 0.5184)) by apply Rle_0_sqr.
    assert (T6 : 0 <= (y - 0.5184) * (y - 0.5184) * (y + 2 * 0.5184)) by (apply Rmult_le_pos; [exact T4|lra]). assert (T2 : 0 <= (v - (7036 / 10000)) * (v - (7036 / 10000))) by apply Rle_0_sqr.
    assert (EV : (v - (7036 / 10000)) * (v - (7036 / 10000)) = y - 14072 / 10000 * v + (7036 / 10000) * (7036 / 10000)) by (unfold y; field). clearbody y. lra. }
  lra.
Qed.

(** ** The bound *)
Lemma fourth m w : 0 < w -> 0.05 <= m -> w - 0.696 <= m * w -> (w / (1 + w)) * (w / (1 + w)) * ((w / (1 + w)) * (w / (1 + w))) < m.
Proof.
  intros Hw M1 M2. set (u := w / (1 + w)). assert (U : u * (1 + w) = w) by (unfold u; field; lra). assert (U0 : 0 < u) by (unfold u; apply Rdiv_lt_0_compat; lra).
  destruct (Rle_lt_dec w 0.8) as [S|S].
  - assert (u <= 4 / 9) by (apply Rmult_le_reg_r with (1 + w); lra). assert (u * u <= 16 / 81) by nra. nra.
  - assert (U1 : u < 1) by (apply Rmult_lt_reg_r with (1 + w); lra).
    apply Rmult_lt_reg_r with (w * ((1 + w) * (1 + w) * ((1 + w) * (1 + w)))); [repeat apply Rmult_lt_0_compat; lra|].
    replace (u * u * (u * u) * (w * ((1 + w) * (1 + w) * ((1 + w) * (1 + w))))) with (w * ((u * (1 + w)) * (u * (1 + w)) * ((u * (1 + w)) * (u * (1 + w))))) by ring. rewrite U.
    apply Rlt_le_trans with ((w - 0.696) * ((1 + w) * (1 + w) * ((1 + w) * (1 + w)))); [|replace (m * (w * ((1 + w) * (1 + w) * ((1 + w) * (1 + w))))) with (m * w * ((1 + w) * (1 + w) * ((1 + w) * (1 + w)))) by ring; apply Rmult_le_compat_r; [repeat apply Rmult_le_pos; lra|exact M2]].
    set (d := w - 0.8). assert (Ew : w = 0.8 + d) by (unfold d; ring). assert (0 < d) by (unfold d; lra). rewrite Ew. assert (0 < d * d) by nra. assert (0 < d * d * d) by nra. assert (0 < d * d * d * d) by nra. nra.
Qed.
Lemma root_arg m w : 0 < w -> 0 < m -> (w / (1 + w)) * (w / (1 + w)) * ((w / (1 + w)) * (w / (1 + w))) < m -> 0 < 1 + w * (1 - 1 / Rpower m (1 / 4)).
Proof.
  intros Hw Hm H. set (u := w / (1 + w)) in *. assert (U0 : 0 < u) by (unfold u; apply Rdiv_lt_0_compat; lra). pose proof (exp_pos (1 / 4 * ln m)) as G0. change (0 < Rpower m (1 / 4)) in G0. set (g := Rpower m (1 / 4)) in *.
  assert (G : u < g).
  { clearbody u. replace u with (Rpower (u * u * (u * u)) (1 / 4)). - apply Rlt_Rpower_l; [lra|]. split; [repeat apply Rmult_lt_0_compat; exact U0|exact H].
    - unfold Rpower. rewrite !ln_mult by (try apply Rmult_lt_0_compat; exact U0). replace (1 / 4 * (ln u + ln u + (ln u + ln u))) with (ln u) by field. now apply exp_ln. }
  replace (1 + w * (1 - 1 / g)) with ((1 + w) * (g - u) / g) by (unfold u; field; lra). apply Rdiv_lt_0_compat; [apply Rmult_lt_0_compat; lra|exact G0].
Qed.
Section FIN.
Variables r E D ds p3 phi w p h y dy K e0 d0 f2 gamma beta AF : R.
Hypothesis Hr : 0 < r.
Hypothesis HE : 0 < E.
Hypothesis HD : D <= 8 * E.
Hypothesis Small : r <= 0.65 -> D <= 0.1245 /\ r * E <= 0.2.
Hypothesis Large : 0.65 < r -> D <= 0.0909 /\ E <= 0.29.
Hypothesis Hp3 : / 2 <= p3.
Hypothesis Hphi : 0 < phi <= 1.
Hypothesis Hds : 1 <= ds.
Hypothesis Hg : gamma = 0.031090690869655.
Hypothesis Hw : w = exp (E / (gamma * p3)) - 1.
Hypothesis Hp : 0 < p.
Hypothesis Hh : 0 < h <= 1.
Hypothesis Hph : p * h <= 0.05604.
Hypothesis Hd0 : 0 <= d0.
Hypothesis He0 : e0 <= 0.
Hypothesis Hf2 : - 0.711403 <= f2 <= 0.
Hypothesis Hb : beta = 0.066725 * (1 + 0.1 * r) / (1 + 0.1778 * r).
Hypothesis HAF : 1.417 <= AF.
Hypothesis Hy : y = beta / (gamma * w) * (AF * p / (r * (phi * phi))).
Hypothesis HK : K = f2 / (27 * gamma * ds * p3 * w) * (20 * (d0 - D) - 0.045 * (e0 + E)).
Hypothesis Hdy : dy = K * p * h.
Lemma w_lo : E / (gamma * p3) <= w /\ 0 < w /\ 0 < gamma * p3.
Proof.
  assert (0 < gamma * p3) by (apply Rmult_lt_0_compat; lra). assert (0 < E / (gamma * p3)) by now apply Rdiv_lt_0_compat. pose proof (exp_lo (E / (gamma * p3))). rewrite Hw. repeat split; lra.
Qed.
Lemma dy_le B : 20 * D + 0.045 * E <= B -> dy * (gamma * p3 * w) <= 0.711403 / 27 * (Rmax B 0) * (p * h).
Proof.
  intro HB. destruct w_lo as (W1 & W0 & GP). assert (PH : 0 < p * h) by (apply Rmult_lt_0_compat; lra).
  assert (E1 : dy * (gamma * p3 * w) = - f2 / 27 * / ds * (- (20 * (d0 - D) - 0.045 * (e0 + E))) * (p * h)) by (rewrite Hdy, HK; field; repeat split; lra).
  rewrite E1. apply Rmult_le_compat_r; [lra|]. assert (I : 0 < / ds <= 1) by (split; [apply Rinv_0_lt_compat; lra|rewrite <- Rinv_1; apply Rinv_le_contravar; lra]).
  pose proof (Rmax_l B 0) as M1. pose proof (Rmax_r B 0) as M2. set (M := Rmax B 0) in *. clearbody M.
  assert (N : - (20 * (d0 - D) - 0.045 * (e0 + E)) <= M) by lra.
  apply Rle_trans with (- f2 / 27 * / ds * M); [apply Rmult_le_compat_l; [apply Rmult_le_pos; lra|exact N]|]. apply Rmult_le_compat_r; [exact M2|]. nra.
Qed.
Theorem dy_ok : 0 < 1 + 4 * (y - dy) /\ 0 < 1 + w * (1 - 1 / Rpower (1 + 4 * (y - dy)) (1 / 4)).
Proof.
  destruct w_lo as (W1 & W0 & GP). assert (PH : 0 < p * h) by (apply Rmult_lt_0_compat; lra). assert (B0 : 0 < beta) by (rewrite Hb; apply Rdiv_lt_0_compat; lra).
  assert (Y0 : 0 < y) by (rewrite Hy; apply Rmult_lt_0_compat; [apply Rdiv_lt_0_compat; [lra|apply Rmult_lt_0_compat; lra]|apply Rdiv_lt_0_compat; [apply Rmult_lt_0_compat; lra|apply Rmult_lt_0_compat; [lra|apply Rmult_lt_0_compat; lra]]]).
  assert (D1 : dy <= 0.2365).
  { pose proof (dy_le (160.045 * E) ltac:(lra)) as X. rewrite Rmax_left in X by lra. assert (EW : E <= gamma * p3 * w) by (apply Rmult_le_reg_r with (/ (gamma * p3)); [now apply Rinv_0_lt_compat|]; replace (gamma * p3 * w * / (gamma * p3)) with w by (field; lra); exact W1).
    set (G := gamma * p3 * w) in *. assert (G0 : 0 < G) by lra. assert (160.045 * E * (p * h) <= 160.045 * G * 0.05604) by (apply Rmult_le_compat; [lra|lra|lra|lra]).
    apply Rmult_le_reg_r with G; [exact G0|]. nra. }
  assert (Fin : 0.05 <= 1 + 4 * (y - dy) -> w - 0.696 <= (1 + 4 * (y - dy)) * w -> 0 < 1 + 4 * (y - dy) /\ 0 < 1 + w * (1 - 1 / Rpower (1 + 4 * (y - dy)) (1 / 4))).
  { intros A B. split; [lra|]. apply root_arg; [exact W0|lra|]. now apply fourth. }
  apply Fin; [lra|]. assert (T : 4 * (dy * w) <= 4 * (y * w) + 0.696); [|nra].
  assert (GP2 : / 2 * gamma <= gamma * p3) by (rewrite Rmult_comm; apply Rmult_le_compat_l; lra).
  assert (DW : forall B, 0 <= B -> 20 * D + 0.045 * E <= B -> dy * w <= 1.69494 * B * (p * h)).
  { intros B HB0 HB. pose proof (dy_le B HB) as X. rewrite Rmax_left in X by exact HB0. assert (BP : 0 <= B * (p * h)) by (apply Rmult_le_pos; lra).
    destruct (Rle_lt_dec (dy * w) 0) as [N|N]; [lra|]. apply Rmult_le_reg_r with (gamma * p3); [exact GP|].
    assert (1.69494 * (B * (p * h)) * (/ 2 * gamma) <= 1.69494 * (B * (p * h)) * (gamma * p3)) by (apply Rmult_le_compat_l; lra). rewrite Hg in *. lra. }
  destruct (Rle_lt_dec r 0.65) as [S|S].
  - destruct (Small S) as [S1 S2]. specialize (DW (2.49 + 0.045 * E) ltac:(lra) ltac:(lra)).
    assert (YW : 2.9 * p <= r * (y * w)).
    { assert (E1 : r * (y * w) = beta * AF / gamma * / (phi * phi) * p) by (rewrite Hy; field; repeat split; lra). rewrite E1.
      assert (PP : 0 < phi * phi <= 1) by nra. assert (IP : 1 <= / (phi * phi)) by (rewrite <- Rinv_1; apply Rinv_le_contravar; lra).
      assert (HB : 0.06365 <= beta). { rewrite Hb. apply Rmult_le_reg_r with (1 + 0.1778 * r); [lra|]. unfold Rdiv. rewrite Rmult_assoc, Rinv_l by lra. lra. }
      assert (BA : 2.9 <= beta * AF / gamma). { rewrite Hg. assert (0.06365 * 1.417 <= beta * AF) by (apply Rmult_le_compat; lra). lra. }
      apply Rmult_le_compat_r; [lra|]. nra. }
    assert (0 <= y * w - dy * w); [|lra]. apply Rmult_le_reg_l with r; [exact Hr|]. rewrite Rmult_0_r, Rmult_minus_distr_l.
    assert (r * (dy * w) <= 2.9 * p); [|lra]. apply Rle_trans with (r * (1.69494 * (2.49 + 0.045 * E) * (p * h))); [apply Rmult_le_compat_l; lra|].
    assert (p * h <= p) by nra. assert (0 < r * E) by now apply Rmult_lt_0_compat.
    apply Rle_trans with (1.69494 * (2.49 * r + 0.045 * (r * E)) * p); [|nra].
    replace (r * (1.69494 * (2.49 + 0.045 * E) * (p * h))) with (1.69494 * (2.49 * r + 0.045 * (r * E)) * (p * h)) by ring. apply Rmult_le_compat_l; lra.
  - destruct (Large S) as [S1 S2]. specialize (DW 1.83105 ltac:(lra) ltac:(lra)). assert (0 < y * w) by now apply Rmult_lt_0_compat. lra.
Qed.
End FIN.

(** ** The uniform gas *)
Lemma ln_scale k x : 1 <= k -> 0 < x -> ln (1 + k * x) <= k * ln (1 + x).
Proof.
  intros Hk Hx. pose proof (proj1 (ln_lo (/ x) ltac:(now apply Rinv_0_lt_compat))) as L. rewrite Rinv_inv in L. replace (/ (1 + / x)) with (x / (1 + x)) in L by (field; lra).
  set (y := (k - 1) * (x / (1 + x))). assert (Y : 0 <= y) by (unfold y; apply Rmult_le_pos; [lra|]; apply Rlt_le, Rdiv_lt_0_compat; lra).
  assert (E : 1 + k * x = (1 + x) * (1 + y)) by (unfold y; field; lra). rewrite E, ln_mult by lra.
  assert (Q : ln (1 + y) <= y) by (rewrite <- (ln_exp y) at 2; apply Rcomplements.ln_le; [lra|]; pose proof (exp_ineq1_le y); lra).
  assert (y <= (k - 1) * ln (1 + x)) by (unfold y; apply Rmult_le_compat_l; lra). lra.
Qed.
Definition eu (s : R) := Gc 0.0310907 0.2137 7.5957 3.5876 1.6382 0.49294 s.
Definition ep (s : R) := Gc 0.01554535 0.20548 14.1189 6.1977 3.3662 0.62517 s.
Definition am (s : R) := Gc 0.0168869 0.11125 10.357 3.6231 0.88026 0.49671 s.
Definition deu (s : R) := s * s * Gd 0.0310907 0.2137 7.5957 3.5876 1.6382 0.49294 s.
Definition dep (s : R) := s * s * Gd 0.01554535 0.20548 14.1189 6.1977 3.3662 0.62517 s.
Definition dam (s : R) := s * s * Gd 0.0168869 0.11125 10.357 3.6231 0.88026 0.49671 s.
Lemma am_eu s : 0 < s -> 0.79 * am s < eu s.
Proof.
  intro Hs. destruct (B_pos s Hs) as (P0 & _ & P2). unfold am, eu, Gc. change (Bpoly 7.5957 3.5876 1.6382 0.49294 s) with (Bp s). change (Bpoly 10.357 3.6231 0.88026 0.49671 s) with (Ba s).
  assert (S2 : 0 < s * s) by (now apply Rmult_lt_0_compat). assert (S3 : 0 < s * s * s) by (now apply Rmult_lt_0_compat). assert (S4 : 0 < s * s * s * s) by (now apply Rmult_lt_0_compat).
  assert (K : 0.0310907 * Bp s <= 2.3 * (0.0168869 * Ba s)).
  { unfold Bp, Ba, Bpoly. assert (W : 0 <= 0.0291 - 0.016744 * s + 0.00395 * (s * s)) by (assert (0 <= (s - 2.12) * (s - 2.12)) by apply Rle_0_sqr; lra).
    assert (W2 : 0 <= s * s * (0.0291 - 0.016744 * s + 0.00395 * (s * s))) by (apply Rmult_le_pos; lra). lra. }
  assert (Q0 : 0 < 0.0310907 * Bp s) by (apply Rmult_lt_0_compat; lra). assert (Q2 : 0 < 0.0168869 * Ba s) by (apply Rmult_lt_0_compat; lra).
  set (u := 0.0310907 * Bp s) in *. set (v := 0.0168869 * Ba s) in *. clearbody u v. set (a := / 2 / u). assert (A0 : 0 < a) by (apply Rdiv_lt_0_compat; lra).
  assert (V : / 2 / v <= 2.3 * a). { unfold a. apply Rmult_le_reg_r with (u * v); [now apply Rmult_lt_0_compat|]. replace (/ 2 / v * (u * v)) with (/ 2 * u) by (field; lra). replace (2.3 * (/ 2 / u) * (u * v)) with (/ 2 * (2.3 * v)) by (field; lra). lra. }
  assert (V0 : 0 < / 2 / v) by (apply Rdiv_lt_0_compat; lra).
  assert (L : ln (1 + / 2 / v) <= 2.3 * ln (1 + a)) by (eapply Rle_trans; [apply Rcomplements.ln_le; [|apply Rplus_le_compat_l, V]; lra|apply ln_scale; lra]).
  assert (L0 : 0 < ln (1 + a)) by (rewrite <- ln_1; apply ln_increasing; lra). set (l := ln (1 + a)) in *. set (l2 := ln (1 + / 2 / v)) in *. clearbody l l2. set (q := s * s) in *. clearbody q.
  assert (X : 2 * 0.0168869 * (1 + 0.11125 * q) * l2 <= 2 * 0.0168869 * (1 + 0.11125 * q) * (2.3 * l)) by (apply Rmult_le_compat_l; [apply Rmult_le_pos; lra|exact L]).
  assert (0 < q * l) by now apply Rmult_lt_0_compat. lra.
Qed.
Section U.
Variables s f q k : R.
Hypothesis Hs : 0 < s.
Hypothesis Hf : 0 <= f <= 1.001.
Hypothesis Hq : 0 <= q <= 1.
Hypothesis Hk : 0 <= k <= 0.5851.
Definition Eu := eu s * (1 - f * q) + ep s * (f * q) - am s * f * (1 - q) * k.
Definition Du := (1 - f * q) * deu s + f * q * dep s - (1 - q) * f * dam s * k.
Lemma u_cmp : 0 < eu s /\ 0 < am s /\ eu s < 7 * ep s.
Proof. destruct (pw_cmp 0.0310907 0.01554535 0.0168869 ltac:(lra) ltac:(lra) ltac:(lra) s Hs) as (A & B & _ & C). now repeat split. Qed.
Lemma u_d : 0 <= deu s <= 2 * eu s /\ dep s <= 2 * ep s /\ 0 <= dam s.
Proof.
  assert (S2 : 0 < s * s) by (now apply Rmult_lt_0_compat). repeat split.
  - apply Rmult_le_pos; [lra|]. apply Gd_pos; lra.
  - apply Gd_Gc; lra.
  - apply Gd_Gc; lra.
  - apply Rmult_le_pos; [lra|]. apply Gd_pos; lra.
Qed.
Theorem u_E : 0 < Eu /\ Du <= 8 * Eu.
Proof.
  destruct u_cmp as (A & B & C). destruct u_d as (D1 & D2 & D3). pose proof (am_eu s Hs) as S. split.
  - apply E_pos; assumption.
  - apply D_E; assumption.
Qed.
Lemma frac_le u v c : 0 < v -> u <= c * v -> u / v <= c.
Proof. intros V H. apply Rmult_le_reg_r with v; [exact V|]. unfold Rdiv. rewrite Rmult_assoc, Rinv_l by lra. lra. Qed.
Lemma dep_le : dep s <= 0.07.
Proof.
  assert (S2 : 0 < s * s) by (now apply Rmult_lt_0_compat). assert (S3 : 0 < s * s * s) by (now apply Rmult_lt_0_compat). assert (S4 : 0 < s * s * s * s) by (now apply Rmult_lt_0_compat).
  eapply Rle_trans; [apply Gd_hi; lra|]. unfold Bpoly. set (b := 2 * 0.01554535 * (s * (14.1189 + s * (6.1977 + s * (3.3662 + 0.62517 * s))))). assert (HB : 0.19 * (s * s) <= b) by (unfold b; lra). apply frac_le; lra.
Qed.
Theorem u_small : s * s <= 0.65 -> Du <= 0.1245 /\ s * s * Eu <= 0.2.
Proof.
  intro H. assert (S2 : 0 < s * s) by (now apply Rmult_lt_0_compat). assert (S3 : 0 < s * s * s) by (now apply Rmult_lt_0_compat). assert (S4 : 0 < s * s * s * s) by (now apply Rmult_lt_0_compat).
  destruct u_cmp as (A & B & C). destruct u_d as (D1 & D2 & D3). pose proof (am_eu s Hs) as S. split.
  - assert (M : Du <= 1.001 * 0.12437); [|lra]. apply D_M with (P := eu s); try assumption; [|pose proof dep_le; lra].
    eapply Rle_trans; [apply Gd_hi; lra|]. unfold Bpoly. set (b := 2 * 0.0310907 * (s * (7.5957 + s * (3.5876 + s * (1.6382 + 0.49294 * s))))). assert (HB : 0.2137 * (s * s) <= b) by (unfold b; lra). apply frac_le; lra.
  - assert (SS : s <= 0.8063) by nra. pose proof (E_hi (eu s) (ep s) (am s) f q k A C B Hf Hq Hk) as X. change (Eu <= eu s + 1.001 * ep s) in X.
    pose proof (Gc_hi 0.0310907 0.2137 7.5957 3.5876 1.6382 0.49294 s ltac:(lra) ltac:(lra) ltac:(lra) ltac:(lra) ltac:(lra) ltac:(lra) Hs) as G1. fold (eu s) in G1.
    pose proof (Gc_hi 0.01554535 0.20548 14.1189 6.1977 3.3662 0.62517 s ltac:(lra) ltac:(lra) ltac:(lra) ltac:(lra) ltac:(lra) ltac:(lra) Hs) as G2. fold (ep s) in G2.
    set (P := eu s) in *. set (F := ep s) in *. assert (F0 : 0 < F) by lra. assert (B1 : 7.5957 * s <= Bpoly 7.5957 3.5876 1.6382 0.49294 s) by (unfold Bpoly; lra). assert (B2 : 14.1189 * s <= Bpoly 14.1189 6.1977 3.3662 0.62517 s) by (unfold Bpoly; lra).
    assert (P1 : P * (7.5957 * s) <= 1.139) by (apply Rle_trans with (P * Bpoly 7.5957 3.5876 1.6382 0.49294 s); [apply Rmult_le_compat_l; lra|lra]).
    assert (F1 : F * (14.1189 * s) <= 1.1336) by (apply Rle_trans with (F * Bpoly 14.1189 6.1977 3.3662 0.62517 s); [apply Rmult_le_compat_l; lra|lra]).
    assert (PS : 0 < P * s) by now apply Rmult_lt_0_compat. assert (FS : 0 < F * s) by now apply Rmult_lt_0_compat. assert (P * s * s <= 0.15 * 0.8063) by (apply Rmult_le_compat; lra). assert (F * s * s <= 0.0803 * 0.8063) by (apply Rmult_le_compat; lra).
    assert (s * s * Eu <= s * s * (P + 1.001 * F)) by (apply Rmult_le_compat_l; lra). lra.
Qed.
Theorem u_large : 0.65 < s * s -> Du <= 0.0909 /\ Eu <= 0.29.
Proof.
  intro H. assert (S2 : 0 < s * s) by lra. assert (S3 : 0 < s * s * s) by (now apply Rmult_lt_0_compat). assert (S4 : 0 < s * s * s * s) by (now apply Rmult_lt_0_compat).
  assert (SS : 0.806 <= s) by nra. destruct u_cmp as (A & B & C). destruct u_d as (D1 & D2 & D3). pose proof (am_eu s Hs) as S. split.
  - assert (M : Du <= 1.001 * 0.0908); [|lra]. apply D_M with (P := eu s); try assumption; [|pose proof dep_le; lra].
    eapply Rle_trans; [apply Gd_hi; lra|]. unfold Bpoly. set (b := 2 * 0.0310907 * (s * (7.5957 + s * (3.5876 + s * (1.6382 + 0.49294 * s))))). 
    assert (HB : 1 + 0.2137 * (s * s) <= 0.73 * (1 + b)). { unfold b. assert (0 <= (s - 0.806) * (s * s)) by (apply Rmult_le_pos; lra). lra. }
    apply frac_le; lra.
  - pose proof (E_hi (eu s) (ep s) (am s) f q k A C B Hf Hq Hk) as X. change (Eu <= eu s + 1.001 * ep s) in X.
    pose proof (Gc_hi 0.0310907 0.2137 7.5957 3.5876 1.6382 0.49294 s ltac:(lra) ltac:(lra) ltac:(lra) ltac:(lra) ltac:(lra) ltac:(lra) Hs) as G1. fold (eu s) in G1.
    pose proof (Gc_hi 0.01554535 0.20548 14.1189 6.1977 3.3662 0.62517 s ltac:(lra) ltac:(lra) ltac:(lra) ltac:(lra) ltac:(lra) ltac:(lra) Hs) as G2. fold (ep s) in G2.
    set (P := eu s) in *. set (F := ep s) in *. assert (F0 : 0 < F) by lra. assert (B1 : 6.1 * (1 + 0.2137 * (s * s)) <= Bpoly 7.5957 3.5876 1.6382 0.49294 s) by (unfold Bpoly; lra). assert (B2 : 11 * (1 + 0.20548 * (s * s)) <= Bpoly 14.1189 6.1977 3.3662 0.62517 s) by (unfold Bpoly; lra).
    assert (P1 : P <= / 6.1). { assert (P * (6.1 * (1 + 0.2137 * (s * s))) <= 1 + 0.2137 * (s * s)) by (eapply Rle_trans; [|exact G1]; apply Rmult_le_compat_l; lra). apply Rmult_le_reg_r with (6.1 * (1 + 0.2137 * (s * s))); lra. }
    assert (F1 : F <= / 11). { assert (F * (11 * (1 + 0.20548 * (s * s))) <= 1 + 0.20548 * (s * s)) by (eapply Rle_trans; [|exact G2]; apply Rmult_le_compat_l; lra). apply Rmult_le_reg_r with (11 * (1 + 0.20548 * (s * s))); lra. }
    lra.
Qed.
End U.
