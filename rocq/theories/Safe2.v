(** * Functionals defined thanks to an inequality
    The meta-GGAs whose definedness at a physical density is not a matter of signs alone:
    the obligations left by Oblig.v are proved here. *)
From Coq Require Import Reals QArith Qreals ZArith Arith Lia Lra Psatz List Bool String.
From Coquelicot Require Import Coquelicot.
From Verif Require Import Scalar RInst Tables Expr Functionals RSem Itv Dom Phys Safe Value Oblig.
Import ListNotations.
Local Open Scope R_scope.

Definition NG : itv := I None (Some (0%Q, true)).
(** The obligations of a functional, for gradients in [g], kinetic energies in [t], given
    that the correlation energy of the uniform gas (pw92eps.hpp) is negative. *)
Definition obs (g t : itv) (h : list (string * itv)) (e : expr) : list oblig := snd (obl prange (fun _ => top) (frange g t) [(pw92eps, NG)] h [] e).
Theorem obs_ok st x D g t h e : 0 < (st XC_RANGESEP_MU : R) -> above D ->
  (forall u, u = dot (grad (al D)) (grad (al D)) \/ u = dot (grad (be D)) (grad (be D)) \/ u = dot (gN D) (gN D) -> gam g u) ->
  (forall u, u = kin (al D) \/ u = kin (be D) \/ u = kin (al D) + kin (be D) -> gam t u) ->
  (forall e i, In (e, i) [(pw92eps, NG)] -> forall r, exists v, reval st x (dvar D) r e = Some v /\ gam i v) ->
  good st x (dvar D) [] (obs g t h e) -> exists v, reval st x (dvar D) [] e = Some v.
Proof.
  intros Mu Ab G Tk Fa P.
  destruct (obl_ok st prange (prange_ok st Mu) x (fun _ => top) (fun _ => gam_top _) (dvar D) (frange g t) (dvar_range D g t Ab G Tk) [(pw92eps, NG)] Fa h e [] [] (Forall2_nil _) P) as [Ev _].
  eauto.
Qed.
(** Positive gradients and kinetic energies. *)
Definition full (D : dens) : Prop :=
  0 < dot (grad (al D)) (grad (al D)) /\ 0 < dot (grad (be D)) (grad (be D)) /\ 0 < dot (gN D) (gN D) /\ 0 < kin (al D) /\ 0 < kin (be D).
(** The numerator of the TPSS enhancement argument: the mixed term is dominated by the
    squares.  [u], [w]: p/|grad n|^2 and z/|grad n|^2. *)
Lemma tpss_num B g u W q z2 c : 0 <= B -> 0 <= u -> 0 <= g -> 0 <= W -> z2 = g * g * W -> 1 <= c ->
  0 <= g * u * (B + 10 / 81) + 146 * (q * q) / 2025 - 73 / 405 * q * g * sqrt (9 / 50 * W + 1 / 2 * u * u)
       + 10 * (g * u) / 81 * (10 * (g * u) / 81) / (201 / 250)
       + (10 * (2 * c * (3 / 5) * (3 / 5) * z2) / 81 + 33738687 / 100000000 * (g * u * (g * u) * (g * u))).
Proof.
  intros HB Hu Hg HW -> Hc. assert (Qu : 0 <= u * u) by (apply Rmult_le_pos; assumption).
  assert (Rr : 0 <= 9 / 50 * W + 1 / 2 * u * u) by lra.
  set (S := sqrt (9 / 50 * W + 1 / 2 * u * u)). assert (ES : S * S = 9 / 50 * W + 1 / 2 * u * u) by now apply sqrt_sqrt.
  set (p := g * u). assert (Hp : 0 <= p) by now apply Rmult_le_pos.
  set (z2 := g * g * W). assert (Hz : 0 <= z2) by (apply Rmult_le_pos; [apply Rmult_le_pos; assumption|assumption]).
  set (m := g * S). assert (Em : m * m = 9 / 50 * z2 + 1 / 2 * (p * p)) by (unfold m, z2, p; replace (g * S * (g * S)) with (g * g * (S * S)) by ring; rewrite ES; ring).
  replace (73 / 405 * q * g * S) with (73 / 405 * (q * m)) by (unfold m; ring).
  assert (A1 : 0 <= 146 * (q * q) / 2025 - 73 / 405 * (q * m) + 0.1127 * (m * m)).
  { pose proof (Rle_0_sqr (q - 5 / 4 * m)) as X. pose proof (Rle_0_sqr m). unfold Rsqr in *. lra. }
  rewrite Em in A1.
  assert (A2 : z2 <= c * z2) by (replace z2 with (1 * z2) at 1 by ring; now apply Rmult_le_compat_r).
  assert (A3 : 0 <= p * B) by now apply Rmult_le_pos.
  assert (A4 : 0 <= p * (10 / 81 - 0.05635 * p + 0.33738687 * (p * p))).
  { apply Rmult_le_pos; [exact Hp|]. pose proof (Rle_0_sqr (p - 0.08)) as X. unfold Rsqr in X. nra. }
  assert (A5 : 0 <= p * p) by now apply Rmult_le_pos.
  replace (10 * p / 81 * (10 * p / 81) / (201 / 250)) with (100 / 6561 / (201 / 250) * (p * p)) by field.
  lra.
Qed.
Lemma quarter a : 0 < 2 / 5 * a * (a - 1) + 1.
Proof. pose proof (Rle_0_sqr (a - 1 / 2)) as X. unfold Rsqr in X. lra. Qed.
Lemma sqrt_nz a : 0 < a -> sqrt a <> 0.
Proof. intro H. apply Rgt_not_eq, sqrt_lt_R0, H. Qed.
Lemma sqrt_ge1 a : 1 <= a -> 1 <= sqrt a.
Proof. intro H. rewrite <- sqrt_1 at 1. now apply sqrt_le_1_alt. Qed.

(** The squared gradient of the polarisation: n^4 |grad zeta|^2 = |n grad s - s grad n|^2. *)
Lemma gzeta_nn D : above D -> 0 <= (dvar D f_n * dvar D f_n * dvar D f_gss - 2 * dvar D f_n * dvar D f_s * dvar D f_gns + dvar D f_s * dvar D f_s * dvar D f_gnn) / dvar D f_n ^ 4.
Proof.
  intros [A B]. cbn [dvar]. pose proof thr_pos. set (n := rho (al D) + rho (be D)). set (s := rho (al D) - rho (be D)).
  apply Rmult_le_pos; [|left; apply Rinv_0_lt_compat, pow_lt; unfold n; lra].
  unfold dot.
  match goal with |- 0 <= n * n * (?a * ?a + ?b * ?b + ?c * ?c) - _ + s * s * (?d * ?d + ?e * ?e + ?f * ?f) =>
    match goal with |- 0 <= ?g => replace g with (Rsqr (n * a - s * d) + Rsqr (n * b - s * e) + Rsqr (n * c - s * f)) by (unfold Rsqr; ring) end end.
  pose proof Rle_0_sqr as Q. repeat apply Rplus_le_le_0_compat; apply Q.
Qed.
Lemma spin_pos D : above D -> full D -> 0 < dvar D f_a /\ 0 < dvar D f_b /\ 0 < dvar D f_gaa /\ 0 < dvar D f_gbb /\ 0 < dvar D f_taua /\ 0 < dvar D f_taub.
Proof. intros [A B] (G1 & G2 & G3 & K1 & K2). pose proof thr_pos. cbn [dvar]. repeat split; lra. Qed.
Lemma sq_pos a : 0 < a * a + 1.
Proof. pose proof (Rle_0_sqr a) as X. unfold Rsqr in X. lra. Qed.
Lemma den_pos a : 0 < (a + 1) * (a + 1) \/ a = -1.
Proof. destruct (Req_dec a (-1)) as [->|Hn]; [now right|left]. assert (a + 1 <> 0) by lra. pose proof (Rsqr_pos_lt _ H) as X. exact X. Qed.
Lemma tpssx_x n g t q : 0 < n -> 0 < g -> 0 < t -> forall B, 0 <= B -> forall u, 0 < u ->
  0 <= (g * u * (B + 10 / 81) + 146 * (q * q) / 2025 - 73 / 405 * q * g * sqrt (9 / 50 * / (8 * n * t) ^ 2 + 1 / 2 * u * u)
       + 10 * (g * u) / 81 * (10 * (g * u) / 81) / (201 / 250)
       + (10 * (2 * sqrt (1537 / 1000) * (3 / 5) * (3 / 5) * (g / (8 * n) / t * (g / (8 * n) / t))) / 81 + 33738687 / 100000000 * (g * u * (g * u) * (g * u))))
     / ((sqrt (1537 / 1000) * (g * u) + 1) * (sqrt (1537 / 1000) * (g * u) + 1)).
Proof.
  intros Hn Hg Ht B HB u Hu. apply Rmult_le_pos.
  - apply tpss_num; try lra.
    + left. apply Rinv_0_lt_compat, pow_lt. apply Rmult_lt_0_compat; lra.
    + field. lra.
    + apply sqrt_ge1. lra.
  - left. apply Rinv_0_lt_compat. assert (0 < sqrt (1537 / 1000)) by (apply sqrt_lt_R0; lra). assert (0 < g * u) by now apply Rmult_lt_0_compat.
    assert (0 < sqrt (1537 / 1000) * (g * u)) by now apply Rmult_lt_0_compat. apply Rmult_lt_0_compat; lra.
Qed.
Lemma kf_pos k n e : 0 < k -> 0 < 1 / (k * Rpower (3 * (PI * PI)) (2 / 3) * Rpower n e).
Proof. intro K. apply Rdiv_lt_0_compat; [lra|]. apply Rmult_lt_0_compat; [apply Rmult_lt_0_compat; [exact K|apply Rpower_pos]|apply Rpower_pos]. Qed.
Lemma zq_nn k z d : 0 <= k -> 0 <= z -> 0 <= k * z / ((d * d + 1) * (d * d + 1)).
Proof. intros Hk Hz. apply Rmult_le_pos; [now apply Rmult_le_pos|]. left. apply Rinv_0_lt_compat. pose proof (sq_pos d). now apply Rmult_lt_0_compat. Qed.
Section F.
Variable st : nat -> T ROps.
Variable x : nat -> R.
Variable fl : fld -> R.
Hypothesis Gz : 0 <= (fl f_n * fl f_n * fl f_gss - 2 * fl f_n * fl f_s * fl f_gns + fl f_s * fl f_s * fl f_gnn) / fl f_n ^ 4.
Hypothesis Sp : 0 < fl f_a /\ 0 < fl f_b /\ 0 < fl f_gaa /\ 0 < fl f_gbb /\ 0 < fl f_taua /\ 0 < fl f_taub.
Notation Gd := (good st x fl []).
Lemma tpssc_good : Gd (obs iP iP [("tpssc_eps_C.gzeta2"%string, iNN)] tpssc).
Proof. obg. apply gam_NN, Gz. Qed.
Lemma tpsslocc_good : Gd (obs iP iP [("tpsslocc_C.gzeta2"%string, iNN)] tpsslocc_energy).
Proof. obg. apply gam_NN, Gz. Qed.
Lemma revtpssc_good : Gd (obs iP iP [("revtpssc_eps_C.gzeta2"%string, iNN)] revtpssc).
Proof. obg. apply gam_NN, Gz. Qed.
Lemma tpssx_good : Gd (obs iP iP [("tpssx_eps_F_x.xpz"%string, iNN)] tpssx).
Proof.
  destruct Sp as (Pa & Pb & Ga & Gb & Ta & Tb).
  obg; try apply quarter; try (apply sqrt_nz, quarter).
  all: rx "tpssx_eps_F_x.d_n"%string; rx "tpssx_eps_F_x.d_gnn"%string; rx "tpssx_eps_F_x.d_tau"%string.
  all: apply gam_NN, tpssx_x; [lra|lra|lra|apply zq_nn; [lra|apply Rle_0_sqr]|apply kf_pos; lra].
Qed.
Lemma blocx_good : Gd (obs iP iP [("blocx_energy_blocx.x"%string, iNN)] blocx_energy).
Proof.
  destruct Sp as (Pa & Pb & Ga & Gb & Ta & Tb).
  obg; try apply quarter; try (apply sqrt_nz, quarter).
  all: rx "blocx_energy_blocx.d_n"%string; rx "blocx_energy_blocx.d_gnn"%string; rx "blocx_energy_blocx.d_tau"%string.
  all: rx "blocx_energy_blocx.p0"%string; rx "blocx_energy_blocx.p"%string; rx "blocx_energy_blocx.tauw"%string; rx "blocx_energy_blocx.z"%string; rx "blocx_energy_blocx.z2"%string.
  all: rx "blocx_energy_blocx.zf"%string; rx "blocx_energy_blocx.tmp1"%string; rx "blocx_energy_blocx.tmp2"%string; rx "blocx_energy_blocx.tmp3"%string; rx "blocx_energy_blocx.tmp4"%string; rx "blocx_energy_blocx.tmp5"%string; rx "blocx_energy_blocx.tmp6"%string.
  all: match goal with
    | Hn : ?n = 2 * fl _, Hg : ?g = 4 * fl _, Ht : ?t = 2 * fl _, Hu : ?u = 1 / _, Hz : ?zf = exp _, H6 : ?t6 = _ + _ + _ + _ + _,
      Hq : bound _ _ _ _ "blocx_energy_blocx.q_b"%string _ ?q, Hs : ?z2 = ?z * ?z |- _ =>
        pose proof (tpssx_x n g t q ltac:(lra) ltac:(lra) ltac:(lra) (19887 / 12500 * zf / ((z * z + 1) * (z * z + 1)))
          ltac:(apply zq_nn; [lra|rewrite Hz; left; apply exp_pos]) u ltac:(rewrite Hu; apply kf_pos; lra)) as X; clear Hn Hg Ht Hu Hz Hq
    end.
  all: repeat match goal with E : ?v = _ |- _ => subst v end; apply gam_NN; eapply Rle_trans; [exact X|right; f_equal; replace (-73 / 405) with (- (73 / 405)) by lra; unfold Rminus; do 2 f_equal; ring].
Qed.
Lemma scan_then a : a < 1 / 10000000000000 -> 1 - a <> 0.
Proof. lra. Qed.
Lemma scan_else a : ~ a < 5 / 2 -> 1 - a <> 0.
Proof. lra. Qed.
Ltac scan := obg; rx "SCAN_eps_SCAN_X_Fx.oma"%string; match goal with E : _ = 1 - _ |- _ => rewrite E end; lra.
Lemma rscanx_good : Gd (obs iP iP [] rSCANx_rSCANX).
Proof. scan. Qed.
Lemma rppscanx_good : Gd (obs iP iP [] rppSCANx_rppSCANX).
Proof. scan. Qed.
Lemma r2scanx_good : Gd (obs iP iP [] r2SCANx_r2SCANX).
Proof. scan. Qed.
Lemma r4scanx_good : Gd (obs iP iP [] r4SCANx_r4SCANX).
Proof. scan. Qed.
End F.
