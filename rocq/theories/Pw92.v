(** * The correlation energy of the uniform gas (pw92eps.hpp) is negative *)
From Coq Require Import Reals QArith Qreals ZArith Arith Lia Lra List Bool String.
From Coquelicot Require Import Coquelicot.
From Verif Require Import Scalar RInst CTaylor TMath Br Expr Functionals Sem AdEval RSem Itv Dom.
Import ListNotations.
Local Open Scope R_scope.

Definition Bpoly (b1 b2 b3 b4 s : R) : R := s * (b1 + s * (b2 + s * (b3 + b4 * s))).
Definition Gc (A a b1 b2 b3 b4 s : R) : R := 2 * A * (1 + a * (s * s)) * ln (1 + / 2 / (A * Bpoly b1 b2 b3 b4 s)).

Lemma Gpos A a b1 b2 b3 b4 s : 0 < A -> 0 < a -> 0 < b1 -> 0 < b2 -> 0 < b3 -> 0 < b4 -> 0 < s ->
  0 < Bpoly b1 b2 b3 b4 s /\ 0 < Gc A a b1 b2 b3 b4 s.
Proof.
  intros. assert (P : 0 < Bpoly b1 b2 b3 b4 s).
  { unfold Bpoly. apply Rmult_lt_0_compat; [assumption|]. pose proof (Rmult_lt_0_compat b4 s). 
    assert (0 < s * (b3 + b4 * s)) by (apply Rmult_lt_0_compat; lra).
    assert (0 < s * (b2 + s * (b3 + b4 * s))) by (apply Rmult_lt_0_compat; lra). lra. }
  split; [exact P|]. unfold Gc.
  assert (0 < / 2 / (A * Bpoly b1 b2 b3 b4 s)) by (apply Rdiv_lt_0_compat; [lra|now apply Rmult_lt_0_compat]).
  apply Rmult_lt_0_compat.
  - apply Rmult_lt_0_compat; [lra|]. assert (0 < a * (s * s)) by (apply Rmult_lt_0_compat; [lra|]; now apply Rmult_lt_0_compat). lra.
  - rewrite <- ln_1. apply ln_increasing; lra.
Qed.
(** ln(1+y) <= 3 ln(1+x) when y <= 3x. *)
Lemma ln3 x y : 0 < x -> 0 < y -> y <= 3 * x -> ln (1 + y) <= 3 * ln (1 + x).
Proof.
  intros. replace (3 * ln (1 + x)) with (ln ((1 + x) ^ 3)).
  - destruct (Rle_lt_or_eq_dec (1 + y) ((1 + x) ^ 3)) as [L|E]; [nra| |rewrite E; lra]. left. apply ln_increasing; lra.
  - replace ((1 + x) ^ 3) with ((1 + x) * ((1 + x) * (1 + x))) by ring. rewrite !ln_mult; [ring|lra|lra|lra|nra].
Qed.
Definition G0 := Gc 0.0310907 0.2137 7.5957 3.5876 1.6382 0.49294.
Definition G1 := Gc 0.01554535 0.20548 14.1189 6.1977 3.3662 0.62517.
Definition G2 := Gc 0.0168869 0.11125 10.357 3.6231 0.88026 0.49671.
Lemma G02 s : 0 < s -> 0.6 * G2 s < G0 s.
Proof.
  intro Hs. unfold G0, G2, Gc.
  destruct (Gpos 0.0310907 0.2137 7.5957 3.5876 1.6382 0.49294 s) as [P0 _]; try lra.
  destruct (Gpos 0.0168869 0.11125 10.357 3.6231 0.88026 0.49671 s) as [P2 _]; try lra.
  set (B0 := Bpoly 7.5957 3.5876 1.6382 0.49294 s) in *. set (B2 := Bpoly 10.357 3.6231 0.88026 0.49671 s) in *.
  assert (Y0 : 0 < / 2 / (0.0310907 * B0)) by (apply Rdiv_lt_0_compat; lra).
  assert (Y2 : 0 < / 2 / (0.0168869 * B2)) by (apply Rdiv_lt_0_compat; lra).
  assert (L : ln (1 + / 2 / (0.0168869 * B2)) <= 3 * ln (1 + / 2 / (0.0310907 * B0))).
  { apply ln3; [exact Y0|exact Y2|].
    assert (K : 0.0310907 * B0 <= 3 * (0.0168869 * B2)).
    { unfold B0, B2, Bpoly.
      assert (W : 0 <= 0.07 - 0.0064 * s + 0.0098 * (s * s)) by nra.
      assert (W2 : 0 <= s * s * (0.07 - 0.0064 * s + 0.0098 * (s * s))) by (apply Rmult_le_pos; nra).
      assert (W3 : 0 <= s * s) by nra. assert (W4 : 0 <= s * s * s) by nra. assert (W5 : 0 <= s * s * s * s) by nra. lra. }
    unfold Rdiv. rewrite <- (Rmult_assoc 3). rewrite (Rmult_comm 3), Rmult_assoc. apply Rmult_le_compat_l; [lra|].
    apply Rmult_le_reg_l with (0.0168869 * B2); [lra|]. rewrite Rinv_r by lra.
    apply Rmult_le_reg_r with (0.0310907 * B0); [lra|]. rewrite Rmult_assoc, (Rmult_assoc 3), Rinv_l by lra. lra. }
  assert (L0 : 0 < ln (1 + / 2 / (0.0310907 * B0))) by (rewrite <- ln_1; apply ln_increasing; lra).
  set (l0 := ln (1 + / 2 / (0.0310907 * B0))) in *. set (l2 := ln (1 + / 2 / (0.0168869 * B2))) in *.
  assert (Q : 0 < s * s) by nra. set (q := s * s) in *. clearbody q l0 l2.
  apply Rle_lt_trans with (0.6 * (2 * 0.0168869 * (1 + 0.11125 * q) * (3 * l0))).
  - apply Rmult_le_compat_l; [lra|]. apply Rmult_le_compat_l; [|exact L]. apply Rmult_le_pos; lra.
  - nra.
Qed.

(** The spin interpolation function. *)
Lemma pow43 y : 0 < y <= 2 -> 1 + 4 / 3 * (y - 1) <= Rpower y (4 / 3) <= y * Rpower 2 (1 / 3).
Proof.
  intros [A B]. set (c := Rpower y (1 / 3)).
  assert (C : 0 < c) by apply exp_pos.
  assert (E3 : c ^ 3 = y).
  { unfold c. rewrite <- Rpower_pow by apply exp_pos. rewrite Rpower_mult. replace (1 / 3 * INR 3) with 1 by (cbn; lra). now apply Rpower_1. }
  assert (E4 : Rpower y (4 / 3) = c ^ 4).
  { unfold c. rewrite <- Rpower_pow by apply exp_pos. rewrite Rpower_mult. f_equal. cbn. lra. }
  rewrite E4. split.
  - rewrite <- E3. assert (0 <= (c - 1) * (c - 1) * (3 * (c * c) + 2 * c + 1)) by (apply Rmult_le_pos; [apply Rle_0_sqr|assert (0 < c * c) by (now apply Rmult_lt_0_compat); lra]). lra.
  - replace (c ^ 4) with (y * c) by (rewrite <- E3; ring). apply Rmult_le_compat_l; [lra|]. unfold c. apply Rle_Rpower_l; lra.
Qed.
Lemma cbrt2 : 1 < Rpower 2 (1 / 3) < 1.266.
Proof.
  set (c := Rpower 2 (1 / 3)). assert (C : 0 < c) by apply exp_pos.
  assert (E3 : c ^ 3 = 2).
  { unfold c. rewrite <- Rpower_pow by apply exp_pos. rewrite Rpower_mult. replace (1 / 3 * INR 3) with 1 by (cbn; lra). apply Rpower_1. lra. }
  split; nra.
Qed.
Definition omega (z : R) : R := (Rpower (1 + z) (4 / 3) + Rpower (1 - z) (4 / 3) - 2) / (2 * Rpower 2 (1 / 3) - 2).
Lemma omega_range z : -1 < z < 1 -> 0 <= omega z <= 1.
Proof.
  intro H. pose proof cbrt2 as [C1 C2]. destruct (pow43 (1 + z)) as [A B]; [lra|]. destruct (pow43 (1 - z)) as [A' B']; [lra|].
  unfold omega. split.
  - apply Rmult_le_pos; [lra|]. left. apply Rinv_0_lt_compat. lra.
  - apply Rmult_le_reg_r with (2 * Rpower 2 (1 / 3) - 2); [lra|]. unfold Rdiv. rewrite Rmult_assoc, Rinv_l by lra. nra.
Qed.
Definition eps_pw92 (s z : R) : R :=
  - G0 s - - G2 s * omega z * (1 - z ^ 4) / (8 / (9 * (2 * Rpower 2 (1 / 3) - 2))) + (- G1 s - - G0 s) * omega z * z ^ 4.
Theorem eps_neg s z : 0 < s -> -1 < z < 1 -> eps_pw92 s z < 0.
Proof.
  intros Hs Hz. pose proof (omega_range z Hz) as [W0 W1]. pose proof (G02 s Hs) as K.
  destruct (Gpos 0.0310907 0.2137 7.5957 3.5876 1.6382 0.49294 s) as [_ P0]; try lra.
  destruct (Gpos 0.01554535 0.20548 14.1189 6.1977 3.3662 0.62517 s) as [_ P1]; try lra.
  destruct (Gpos 0.0168869 0.11125 10.357 3.6231 0.88026 0.49671 s) as [_ P2]; try lra.
  fold G0 in P0. fold G1 in P1. fold G2 in P2. pose proof cbrt2 as [C1 C2]. unfold eps_pw92.
  set (w := omega z) in *. set (c := Rpower 2 (1 / 3)) in *.
  assert (Z4 : 0 <= z ^ 4 < 1).
  { assert (0 <= z * z < 1) by nra. replace (z ^ 4) with ((z * z) * (z * z)) by ring. nra. }
  set (q := z ^ 4) in *.
  assert (Ek : forall u, u / (8 / (9 * (2 * c - 2))) = u * (9 / 8 * (2 * c - 2))) by (intro u; field; lra).
  rewrite Ek. set (k := 9 / 8 * (2 * c - 2)). assert (Hk : 0 < k < 0.6) by (unfold k; lra).
  set (g0 := G0 s) in *. set (g1 := G1 s) in *. set (g2 := G2 s) in *. clearbody w c q k g0 g1 g2.
  replace (- g0 - - g2 * w * (1 - q) * k + (- g1 - - g0) * w * q) with
    (- (g0 * (1 - w) + (g0 - k * g2) * (w * (1 - q)) + g1 * (w * q))) by ring.
  assert (K' : 0 < g0 - k * g2) by nra.
  assert (T1 : 0 <= g0 * (1 - w)) by (apply Rmult_le_pos; lra).
  assert (T2 : 0 <= (g0 - k * g2) * (w * (1 - q))) by (apply Rmult_le_pos; [lra|apply Rmult_le_pos; lra]).
  assert (T3 : 0 <= g1 * (w * q)) by (apply Rmult_le_pos; [lra|apply Rmult_le_pos; lra]).
  destruct (Rle_lt_or_eq_dec 0 w W0) as [W|W].
  - assert (0 < (g0 - k * g2) * (w * (1 - q))) by (apply Rmult_lt_0_compat; [lra|apply Rmult_lt_0_compat; lra]). lra.
  - rewrite <- W in *. lra.
Qed.

Section RV.
Variable st : nat -> T ROps.
Variable x : nat -> R.
Variable fl : fld -> R.
Notation rv := (reval st x fl).
Lemma q0 : @OofQ ROps 0%Q = 0. Proof. cbn. apply Q2R_0. Qed.
Lemma q1 : @OofQ ROps 1%Q = 1. Proof. cbn. apply Q2R_1. Qed.
Lemma q2 : @OofQ ROps 2%Q = 2. Proof. cbn. unfold Q2R. cbn. lra. Qed.
Lemma sdiv_ok (a b : R) : b <> 0 -> sdiv (K := ROps) a b = Some (a / b).
Proof. intro N. rewrite rdiv_sdiv. unfold rdiv. destruct (Req_EM_T b 0); [contradiction|reflexivity]. Qed.
Lemma rdiv_ok (a b : R) : b <> 0 -> rdiv a b = Some (a / b).
Proof. intro N. unfold rdiv. destruct (Req_EM_T b 0); [contradiction|reflexivity]. Qed.
Lemma sd13 : sdiv (K := ROps) (OofQ 1.0%Q) (OofQ 3.0%Q) = Some (1 / 3).
Proof. cbn [OofQ ROps]. rewrite sdiv_ok by (unfold Q2R; cbn; lra). f_equal. unfold Q2R. cbn. lra. Qed.
Lemma sd43 : sdiv (K := ROps) (OofQ 4.0%Q) (OofQ 3.0%Q) = Some (4 / 3).
Proof. cbn [OofQ ROps]. rewrite sdiv_ok by (unfold Q2R; cbn; lra). f_equal. unfold Q2R. cbn. lra. Qed.
Lemma svk : seval (K := ROps) st (2 * SPow 2 (1.0 / 3.0) - 2)%sx = Some (2 * Rpower 2 (1 / 3) - 2).
Proof.
  cbn [seval obnd]. rewrite sd13. cbn [obnd]. rewrite q0, q2. cbn [Oltb ROps Opow Omul Osub].
  assert (L : 0 < 2) by lra. rewrite (proj2 (Rltb_true 0 2) L). cbn [obnd]. rewrite powR_pos by lra. reflexivity.
Qed.
Lemma sv_c : seval (K := ROps) st (8.0 / (9.0 * (2 * SPow 2 (1.0 / 3.0) - 2)))%sx = Some (8 / (9 * (2 * Rpower 2 (1 / 3) - 2))).
Proof.
  cbn [seval obnd]. rewrite sd13. cbn [obnd]. rewrite q0, q2. cbn [Oltb ROps Opow Omul Osub].
  assert (L : 0 < 2) by lra. rewrite (proj2 (Rltb_true 0 2) L). cbn [obnd]. rewrite powR_pos by lra.
  pose proof cbrt2. cbn [OofQ ROps]. replace (Q2R 9.0) with 9 by (unfold Q2R; cbn; lra). replace (Q2R 8.0) with 8 by (unfold Q2R; cbn; lra).
  apply sdiv_ok. lra.
Qed.
Lemma eopt_value r e s qA qa b1 b2 b3 b4 (q : sexp) : 0 < Q2R qA -> 0 < Q2R qa -> 0 < Q2R b1 -> 0 < Q2R b2 -> 0 < Q2R b3 -> 0 < Q2R b4 -> 0 < s ->
  rv r e = Some s ->
  rv r (pw92eps_eopt e [SQ qA; SQ qa; SQ b1; SQ b2; SQ b3; SQ b4; q]) = Some (- Gc (Q2R qA) (Q2R qa) (Q2R b1) (Q2R b2) (Q2R b3) (Q2R b4) s).
Proof.
  intros PA Pa P1 P2 P3 P4 Ps E. unfold pw92eps_eopt, sget. cbn [nth].
  destruct (Gpos (Q2R qA) (Q2R qa) (Q2R b1) (Q2R b2) (Q2R b3) (Q2R b4) s) as [PB _]; try assumption.
  cbn [reval seval]. rewrite E. cbn [obnd rlook String.eqb Ascii.eqb Bool.eqb].
  cbn [OofQ ROps]. replace (s * (s * (s * (Q2R b4 * s + Q2R b3) + Q2R b2) + Q2R b1)) with (Bpoly (Q2R b1) (Q2R b2) (Q2R b3) (Q2R b4) s) by (unfold Bpoly; ring).
  assert (PAB : 0 < Q2R qA * Bpoly (Q2R b1) (Q2R b2) (Q2R b3) (Q2R b4) s) by (now apply Rmult_lt_0_compat).
  rewrite rdiv_ok by lra. cbn [obnd rfn].
  replace (Q2R 0.5) with (/ 2) by (unfold Q2R; cbn; lra). rewrite Q2R_1.
  assert (PY : 0 < / 2 / (Q2R qA * Bpoly (Q2R b1) (Q2R b2) (Q2R b3) (Q2R b4) s)) by (apply Rdiv_lt_0_compat; lra).
  destruct (Rlt_dec 0 (/ 2 / (Q2R qA * Bpoly (Q2R b1) (Q2R b2) (Q2R b3) (Q2R b4) s) + 1)); [|lra]. cbn [obnd].
  f_equal. cbn [Omul ROps]. unfold Gc. rewrite (Rplus_comm 1 (/ 2 / _)). replace (Q2R (-2)) with (-2) by (unfold Q2R; cbn; lra). ring.
Qed.
Lemma omega_value r e z : -1 < z < 1 -> rv r e = Some z -> rv r (pw92eps_omega e) = Some (omega z).
Proof.
  intros Hz E. unfold pw92eps_omega, eufunc. cbn [reval]. rewrite E, svk. cbn [obnd rlook String.eqb Ascii.eqb Bool.eqb seval]. rewrite sd43. cbn [obnd].
  cbn [OofQ ROps]. rewrite Q2R_1. unfold rpow. destruct (Rlt_dec 0 (z + 1)); [|lra]. cbn [obnd]. destruct (Rlt_dec 0 (1 - z)); [|lra]. cbn [obnd].
  pose proof cbrt2. rewrite rdiv_ok by lra. unfold omega. rewrite (Rplus_comm 1 z). replace (Q2R 2) with 2 by (unfold Q2R; cbn; lra). reflexivity.
Qed.
Lemma rv_let r nm e1 e2 : rv r (ELet nm e1 e2) = obnd (rv r e1) (fun v => rv ((nm, v) :: r) e2).
Proof. reflexivity. Qed.
Hypothesis Hr : 0 < fl f_r_s.
Hypothesis Hz : -1 < fl f_zeta < 1.
Theorem pw92_value r : rv r pw92eps = Some (eps_pw92 (sqrt (fl f_r_s)) (fl f_zeta)).
Proof.
  assert (S : 0 < sqrt (fl f_r_s)) by now apply sqrt_lt_R0. pose proof cbrt2 as [C1 C2].
  unfold pw92eps, aget. cbn [nth]. cbv beta zeta.
  rewrite rv_let. cbn [reval rpowi obnd].
  rewrite (omega_value _ (EFld f_zeta) (fl f_zeta) Hz eq_refl). cbn [obnd rfn].
  destruct (Rlt_dec 0 (fl f_r_s)); [|lra]. cbn [obnd].
  set (r3 := (_ :: _ :: _ :: r)).
  assert (El : rv r3 (EVar "pw92eps.sqrtr") = Some (sqrt (fl f_r_s))) by reflexivity.
  rewrite (eopt_value _ (EVar "pw92eps.sqrtr") (sqrt (fl f_r_s))); try (unfold Q2R; cbn; lra); try assumption. cbn [obnd].
  set (r4 := (_ :: r3)).
  assert (El4 : rv r4 (EVar "pw92eps.sqrtr") = Some (sqrt (fl f_r_s))) by reflexivity.
  rewrite (eopt_value _ (EVar "pw92eps.sqrtr") (sqrt (fl f_r_s))); try (unfold Q2R; cbn; lra); try assumption.
  rewrite (eopt_value _ (EVar "pw92eps.sqrtr") (sqrt (fl f_r_s))); try (unfold Q2R; cbn; lra); try assumption.
  change (rlook "pw92eps.e0" r4) with (Some (- Gc (Q2R 0.03109070) (Q2R 0.21370) (Q2R 7.59570) (Q2R 3.5876) (Q2R 1.63820) (Q2R 0.49294) (sqrt (fl f_r_s)))).
  change (rlook "pw92eps.omegaval" r4) with (Some (omega (fl f_zeta))).
  change (rlook "pw92eps.zeta4" r4) with (Some (fl f_zeta ^ 4)).
  rewrite sv_c. cbn [obnd seval].
  assert (Ec : 8 / (9 * (2 * Rpower 2 (1 / 3) - 2)) <> 0).
  { apply Rgt_not_eq, Rdiv_lt_0_compat; lra. }
  rewrite rdiv_ok by exact Ec. cbn [obnd]. rewrite q1. f_equal. unfold eps_pw92, G0, G1, G2.
  replace (Q2R 0.03109070) with 0.0310907 by (unfold Q2R; cbn; lra). replace (Q2R 0.21370) with 0.2137 by (unfold Q2R; cbn; lra).
  replace (Q2R 7.59570) with 7.5957 by (unfold Q2R; cbn; lra). replace (Q2R 3.5876) with 3.5876 by (unfold Q2R; cbn; lra).
  replace (Q2R 1.63820) with 1.6382 by (unfold Q2R; cbn; lra). replace (Q2R 0.49294) with 0.49294 by (unfold Q2R; cbn; lra).
  replace (Q2R 0.01688690) with 0.0168869 by (unfold Q2R; cbn; lra). replace (Q2R 0.11125) with 0.11125 by (unfold Q2R; cbn; lra).
  replace (Q2R 10.3570) with 10.357 by (unfold Q2R; cbn; lra). replace (Q2R 3.6231) with 3.6231 by (unfold Q2R; cbn; lra).
  replace (Q2R 0.88026) with 0.88026 by (unfold Q2R; cbn; lra). replace (Q2R 0.49671) with 0.49671 by (unfold Q2R; cbn; lra).
  replace (Q2R 0.01554535) with 0.01554535 by (unfold Q2R; cbn; lra). replace (Q2R 0.20548) with 0.20548 by (unfold Q2R; cbn; lra).
  replace (Q2R 14.1189) with 14.1189 by (unfold Q2R; cbn; lra). replace (Q2R 6.1977) with 6.1977 by (unfold Q2R; cbn; lra).
  replace (Q2R 3.36620) with 3.3662 by (unfold Q2R; cbn; lra). replace (Q2R 0.62517) with 0.62517 by (unfold Q2R; cbn; lra).
  reflexivity.
Qed.
Corollary pw92_neg r : exists v, rv r pw92eps = Some v /\ gam (I None (Some (0%Q, true))) v.
Proof.
  eexists. split; [apply pw92_value|]. split; [exact Logic.I|]. cbn [up]. apply gb_mk. rewrite Q2R_0.
  pose proof (eps_neg (sqrt (fl f_r_s)) (fl f_zeta) (sqrt_lt_R0 _ Hr) Hz). lra.
Qed.
End RV.
