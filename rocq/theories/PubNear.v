(** * Becke 1988 and Perdew-Wang 1991 at any reduced gradient: relative distance to the published formulas
    Below a reduced gradient squared of one half the library evaluates sqrt x arcsinh (sqrt x)
    by a rational approximation (Pade.v bounds its error).  This file carries that bound
    through the two functionals. *)
From Coq Require Import Reals QArith Qreals ZArith Arith Lia Lra Psatz List Bool String.
From Coquelicot Require Import Coquelicot.
From Verif Require Import Scalar RInst CTaylor CtAlg TMath Fps TFam TExp Ad Br Expr Functionals Sem AdEval RSem Dom Phys Value Published PubTac PubX PubC PubM Pade.
Import ListNotations.
Local Open Scope R_scope.

(** ** Relative distance *)
Definition tol : R := 1 / 10000000000000.
Definition near (a b : R) : Prop := Rabs (a - b) <= tol * Rabs b.
Lemma near_refl a : near a a.
Proof. unfold near. rewrite Rminus_eq_0, Rabs_R0. apply Rmult_le_pos; [unfold tol; lra|apply Rabs_pos]. Qed.
Lemma near_add_neg a b a' b' : b <= 0 -> b' <= 0 -> near a b -> near a' b' -> near (a + a') (b + b').
Proof.
  unfold near. intros B B' H H'. rewrite (Rabs_left1 (b + b')) by lra. rewrite (Rabs_left1 b) in H by exact B. rewrite (Rabs_left1 b') in H' by exact B'.
  replace (a + a' - (b + b')) with ((a - b) + (a' - b')) by ring. eapply Rle_trans; [apply Rabs_triang|]. lra.
Qed.
Lemma near_opp a b : near a b -> near (- a) (- b).
Proof. unfold near. intro H. replace (- a - - b) with (- (a - b)) by ring. now rewrite !Rabs_Ropp. Qed.
Lemma near_add_pos a b a' b' : 0 <= b -> 0 <= b' -> near a b -> near a' b' -> near (a + a') (b + b').
Proof.
  intros B B' H H'. replace (a + a') with (- (- a + - a')) by ring. replace (b + b') with (- (- b + - b')) by ring.
  apply near_opp, near_add_neg; try lra; now apply near_opp.
Qed.
Lemma near_scal k a b : near a b -> near (k * a) (k * b).
Proof. unfold near. intro H. replace (k * a - k * b) with (k * (a - b)) by ring. rewrite !Rabs_mult. pose proof (Rabs_pos k). nra. Qed.

Lemma asinh_nn y : 0 <= y -> 0 <= arcsinh y.
Proof. intros [H|<-]; [left; rewrite <- arcsinh_0; now apply arcsinh_lt|rewrite arcsinh_0; lra]. Qed.
Lemma sqas_close2 x : 0 <= x -> Rabs (sqas x - sqrt x * arcsinh (sqrt x)) <= 2 / 1000000000000.
Proof.
  intro H. destruct (Rlt_dec x (/ 2)) as [L|L].
  - eapply Rle_trans; [apply sqas_close; exact H|]. lra.
  - rewrite sqas_hi by lra. rewrite Rminus_eq_0, Rabs_R0. lra.
Qed.
Lemma exact_nn x : 0 <= sqrt x * arcsinh (sqrt x).
Proof. apply Rmult_le_pos; [apply sqrt_pos|apply asinh_nn, sqrt_pos]. Qed.

(** ** Becke 1988 *)
Lemma b88_core K S S' : 0 <= K -> 0 <= S -> Rabs (S' - S) <= 2 / 1000000000000 -> near (- K / (63 / 2500 * S' + 1)) (- K / (63 / 2500 * S + 1)).
Proof.
  intros HK HS H. apply Rabs_le_between in H. assert (D' : 9 / 10 <= 63 / 2500 * S' + 1) by lra. assert (D0 : 1 <= 63 / 2500 * S + 1) by lra.
  replace (- K / (63 / 2500 * S' + 1)) with ((- K / (63 / 2500 * S + 1)) * ((63 / 2500 * S + 1) / (63 / 2500 * S' + 1))) by (field; lra).
  set (B := - K / (63 / 2500 * S + 1)). rewrite <- (Rmult_1_r B) at 2. apply near_scal. unfold near. rewrite Rabs_R1.
  replace ((63 / 2500 * S + 1) / (63 / 2500 * S' + 1) - 1) with (63 / 2500 * (S - S') / (63 / 2500 * S' + 1)) by (field; lra).
  apply Rabs_le_between. unfold tol. split; [apply Rle_div_r; lra|apply Rle_div_l; lra].
Qed.
Lemma near_b88 n g : 0 < n -> 0 <= g -> near (- (21 / 5000 * Rpower n (4 / 3) * (g * Rpower n (-8 / 3))) / (63 / 2500 * sqas (g * Rpower n (-8 / 3)) + 1)) (b88_corr n g).
Proof.
  intros N G. set (x := g * Rpower n (-8 / 3)). assert (X : 0 <= x) by (apply Rmult_le_pos; [exact G|left; pos]).
  assert (E : b88_corr n g = - (21 / 5000 * Rpower n (4 / 3) * x) / (63 / 2500 * (sqrt x * arcsinh (sqrt x)) + 1)).
  { unfold b88_corr. cbv zeta. rewrite <- b88_chi by assumption. fold x. rewrite pow2_sqrt by exact X.
    replace (63 / 2500) with (6 * 0.0042) by lra. replace (21 / 5000) with 0.0042 by lra. rewrite (Rplus_comm _ 1). unfold Rdiv. ring. }
  rewrite E. apply b88_core; [|apply exact_nn|apply sqas_close2, X].
  apply Rmult_le_pos; [apply Rmult_le_pos; [lra|left; pos]|exact X].
Qed.
Lemma b88_neg n g : 0 < n -> 0 <= g -> b88_corr n g <= 0.
Proof.
  intros N G. unfold b88_corr. cbv zeta. set (c := sqrt g / Rpower n (4 / 3)). assert (C : 0 <= c) by (apply Rmult_le_pos; [apply sqrt_pos|left; pos]).
  assert (A := asinh_nn c C). assert (0 <= 0.0042 * Rpower n (4 / 3) * c ^ 2 / (1 + 6 * 0.0042 * (c * arcsinh c))); [|lra].
  assert (P := Rmult_le_pos _ _ C A).
  apply Rmult_le_pos; [apply Rmult_le_pos; [apply Rmult_le_pos; [lra|left; pos]|apply pow2_ge_0]|]. left. apply Rinv_0_lt_compat. lra.
Qed.
Lemma lda_spin_neg n : 0 < n -> lda_spin n <= 0.
Proof. intro N. unfold lda_spin. assert (0 <= 3 / 2 * Rpower (3 / (4 * PI)) (1 / 3) * Rpower n (4 / 3)) by (apply Rmult_le_pos; [apply Rmult_le_pos; [lra|]|]; left; pos). lra. Qed.

(** ** Perdew-Wang 1991 *)
Lemma pw91_core q q' t u : 1 <= q -> 0 <= t -> 0 <= u -> Rabs (q' - q) <= 6 / 100000000000000 -> near ((q' + t) / (q' + u)) ((q + t) / (q + u)).
Proof.
  intros Q T U H. apply Rabs_le_between in H. assert (9 / 10 <= q') by lra.
  replace ((q' + t) / (q' + u)) with ((q + t) / (q + u) * (((q' + t) * (q + u)) / ((q + t) * (q' + u)))) by (field; lra).
  set (B := (q + t) / (q + u)). rewrite <- (Rmult_1_r B) at 2. apply near_scal. unfold near. rewrite Rabs_R1.
  replace ((q' + t) * (q + u) / ((q + t) * (q' + u)) - 1) with ((q' - q) * (u - t) / ((q + t) * (q' + u))) by (field; lra).
  assert (Dp : 9 / 10 * (u + t) <= (q + t) * (q' + u)) by nra. assert (Dq : 0 < (q + t) * (q' + u)) by (apply Rmult_lt_0_compat; lra).
  unfold Rdiv. rewrite Rabs_mult, (Rabs_pos_eq (/ _)) by (left; apply Rinv_0_lt_compat; exact Dq). apply Rmult_le_reg_r with ((q + t) * (q' + u)); [exact Dq|].
  rewrite Rmult_assoc, Rinv_l, Rmult_1_r by lra. rewrite Rabs_mult. assert (Rabs (q' - q) <= 6 / 100000000000000) by (apply Rabs_le_between; lra). assert (Rabs (u - t) <= u + t) by (apply Rabs_le_between; lra).
  unfold tol. pose proof (Rabs_pos (q' - q)). pose proof (Rabs_pos (u - t)). nra.
Qed.
Lemma near_F_pw91 al be c d f A B C D' F s2 : al = A -> be = B -> c = C -> d = D' -> f = F -> 0 < B -> 0 <= A -> A <= 3 / 100 * B -> 0 <= D' -> D' <= C -> 0 <= F -> 0 <= s2 ->
  near ((al * sqas (be ^ 2 * s2) / be + 1 + s2 * (c - d * exp (-100 * s2))) / (al * sqas (be ^ 2 * s2) / be + 1 + f * s2 * s2)) (F_pw91 A B C D' F s2).
Proof.
  intros -> -> -> -> -> Hb Ha Hab Hd Hc Hf S. unfold F_pw91. cbv zeta.
  assert (X : 0 <= B ^ 2 * s2) by (apply Rmult_le_pos; [apply pow2_ge_0|exact S]).
  assert (E : A * sqrt s2 * arcsinh (B * sqrt s2) = A * (sqrt (B ^ 2 * s2) * arcsinh (sqrt (B ^ 2 * s2))) / B).
  { rewrite sqrt_mult_alt by (left; apply pow_lt, Hb). rewrite sqrt_pow2 by lra. field. lra. }
  rewrite E. pose proof (sqas_close2 _ X) as Cl. pose proof (exact_nn (B ^ 2 * s2)) as Nn. set (S0 := sqrt (B ^ 2 * s2) * arcsinh _) in *. set (S1 := sqas _) in *.
  assert (E2 : sqrt s2 ^ 2 = s2) by (apply pow2_sqrt; exact S). rewrite !E2. replace (sqrt s2 ^ 4) with (s2 * s2) by (rewrite <- E2 at 1 2; ring).
  replace (- (100 * s2)) with (-100 * s2) by ring. rewrite (Rmult_comm s2 (C - _)). rewrite (Rplus_comm 1 (_ / B)), (Rmult_assoc F).
  apply pw91_core.
  - assert (0 <= A * S0 / B); [|lra]. apply Rmult_le_pos; [apply Rmult_le_pos; assumption|left; now apply Rinv_0_lt_compat].
  - apply Rmult_le_pos; [|exact S]. assert (exp (-100 * s2) <= 1) by (rewrite <- exp_0; destruct (Req_dec s2 0) as [->|]; [right; f_equal; ring|left; apply exp_increasing; lra]). pose proof (exp_pos (-100 * s2)). nra.
  - apply Rmult_le_pos; [exact Hf|nra].
  - replace (A * S1 / B + 1 - (A * S0 / B + 1)) with (A / B * (S1 - S0)) by (field; lra). rewrite Rabs_mult.
    assert (0 <= A / B) by (apply Rmult_le_pos; [exact Ha|left; now apply Rinv_0_lt_compat]). rewrite (Rabs_pos_eq (A / B)) by assumption.
    assert (A / B <= 3 / 100) by (apply Rle_div_l; lra). pose proof (Rabs_pos (S1 - S0)). nra.
Qed.
Lemma F_pw91_nn A B C D' F s2 : 0 < B -> 0 <= A -> 0 <= D' -> D' <= C -> 0 <= F -> 0 <= s2 -> 0 <= F_pw91 A B C D' F s2.
Proof.
  intros Hb Ha Hd Hc Hf S. unfold F_pw91. cbv zeta. pose proof (sqrt_pos s2) as P. assert (Q := asinh_nn (B * sqrt s2) ltac:(nra)).
  assert (A1 : 0 <= A * sqrt s2 * arcsinh (B * sqrt s2)) by (apply Rmult_le_pos; [apply Rmult_le_pos|]; assumption).
  rewrite pow2_sqrt by exact S. assert (exp (- (100 * s2)) <= 1) by (rewrite <- exp_0; destruct (Req_dec s2 0) as [->|]; [right; f_equal; ring|left; apply exp_increasing; lra]). pose proof (exp_pos (- (100 * s2))).
  assert (0 <= (C - D' * exp (- (100 * s2))) * s2) by (apply Rmult_le_pos; [nra|exact S]). assert (0 <= F * sqrt s2 ^ 4) by (apply Rmult_le_pos; [exact Hf|apply pow_le; exact P]).
  apply Rmult_le_pos; [lra|]. left. apply Rinv_0_lt_compat. lra.
Qed.

(** ** The four functionals *)
Section N.
Variables (st : nat -> R) (x : nat -> R) (fl : fld -> R).
Hypothesis P : phys fl.
Notation V := (tv (st : nat -> T ROps) x fl []).
Ltac gath := rewrite ?(c_lda1 (fl f_a) (ph_a _ P)), ?(c_lda1 (fl f_b) (ph_b _ P)), ?(c_s2 (fl f_a) _ (ph_a _ P)), ?(c_s2 (fl f_b) _ (ph_b _ P)).
Lemma near_beckecorr : near (V beckex_beckexcorr) (ps b88_corr fl).
Proof.
  assert (E : V beckex_beckexcorr = ps (fun n g => - (21 / 5000 * Rpower n (4 / 3) * (g * Rpower n (-8 / 3))) / (63 / 2500 * sqas (g * Rpower n (-8 / 3)) + 1)) fl) by (vred; reflexivity).
  rewrite E. destruct P. unfold ps. apply near_add_neg; [apply b88_neg; assumption ..|apply near_b88; assumption|apply near_b88; assumption].
Qed.
Lemma near_becke : near (V beckex) (ps (fun n g => lda_spin n + b88_corr n g) fl).
Proof.
  assert (E : V beckex = ps (fun n g => lda_spin n + - (21 / 5000 * Rpower n (4 / 3) * (g * Rpower n (-8 / 3))) / (63 / 2500 * sqas (g * Rpower n (-8 / 3)) + 1)) fl).
  { vred. destruct P. rewrite !lda_spin_eq by assumption. reflexivity. }
  rewrite E. destruct P. unfold ps.
  assert (A : forall n g, 0 < n -> 0 <= g -> near (lda_spin n + - (21 / 5000 * Rpower n (4 / 3) * (g * Rpower n (-8 / 3))) / (63 / 2500 * sqas (g * Rpower n (-8 / 3)) + 1)) (lda_spin n + b88_corr n g)).
  { intros n g N G. apply near_add_neg; [apply lda_spin_neg, N|apply b88_neg; assumption|apply near_refl|apply near_b88; assumption]. }
  assert (A2 : forall n g, 0 < n -> 0 <= g -> lda_spin n + b88_corr n g <= 0) by (intros n g N G; pose proof (lda_spin_neg n N); pose proof (b88_neg n g N G); lra).
  apply near_add_neg; [apply A2; assumption ..|apply A; assumption|apply A; assumption].
Qed.
Lemma ex_gas_neg n : 0 < n -> n * ex_gas n / 2 <= 0.
Proof.
  intro N. unfold ex_gas, kF. pose proof PI_RGT_0 as Pp. assert (0 <= n * (3 * Rpower (3 * PI ^ 2 * n) (1 / 3) / (4 * PI))); [|lra].
  apply Rmult_le_pos; [lra|]. apply Rmult_le_pos; [apply Rmult_le_pos; [lra|left; apply exp_pos]|left; apply Rinv_0_lt_compat; lra].
Qed.
Lemma tf_pos n : 0 < n -> 0 <= tf n / 2.
Proof. intro N. unfold tf, c_tf. apply Rmult_le_pos; [left; pos|lra]. Qed.
Lemma neg_pos a b : a <= 0 -> 0 <= b -> a * b <= 0. Proof. nra. Qed.
Lemma near_pw91x : near (V pw91x) (gx (F_pw91 0.19645 7.7956 0.2743 0.15084 0.004) fl).
Proof.
  eassert (E : V pw91x = _) by (vred; gath; reflexivity). rewrite E. clear E.
  pose proof (red2_nn (2 * fl f_a) (4 * fl f_gaa)) as Na. pose proof (red2_nn (2 * fl f_b) (4 * fl f_gbb)) as Nb. destruct P.
  specialize (Na ltac:(lra) ltac:(lra)). specialize (Nb ltac:(lra) ltac:(lra)).
  replace (gx (F_pw91 0.19645 7.7956 0.2743 0.15084 0.004) fl) with (2 * fl f_a * ex_gas (2 * fl f_a) / 2 * F_pw91 0.19645 7.7956 0.2743 0.15084 0.004 (red2 (2 * fl f_a) (4 * fl f_gaa))
    + 2 * fl f_b * ex_gas (2 * fl f_b) / 2 * F_pw91 0.19645 7.7956 0.2743 0.15084 0.004 (red2 (2 * fl f_b) (4 * fl f_gbb))) by (unfold gx, ss; field).
  apply near_add_neg; [apply neg_pos; [apply ex_gas_neg; lra|apply F_pw91_nn; decs; lra] ..|apply near_scal, near_F_pw91; decs; lra|apply near_scal, near_F_pw91; decs; lra].
Qed.
Lemma near_pw91k : near (V pw91k) (ss (fun n g => tf n * F_pw91 0.093907 76.320 0.26608 0.0809615 0.000057767 (red2 n g)) fl).
Proof.
  assert (Tf : forall n, 0 < n -> 3 / 10 * Rpower (3 * (PI * PI)) (2 / 3) * Rpower 2 (2 / 3) * Rpower n (5 / 3) = tf (2 * n) / 2) by (intros n N; unfold tf, c_tf; mono).
  eassert (E : V pw91k = _) by (vred; gath; rewrite (Tf _ (ph_a _ P)), (Tf _ (ph_b _ P)); reflexivity). rewrite E. clear E.
  pose proof (red2_nn (2 * fl f_a) (4 * fl f_gaa)) as Na. pose proof (red2_nn (2 * fl f_b) (4 * fl f_gbb)) as Nb. destruct P.
  specialize (Na ltac:(lra) ltac:(lra)). specialize (Nb ltac:(lra) ltac:(lra)).
  replace (ss (fun n g => tf n * F_pw91 0.093907 76.320 0.26608 0.0809615 0.000057767 (red2 n g)) fl) with (tf (2 * fl f_a) / 2 * F_pw91 0.093907 76.320 0.26608 0.0809615 0.000057767 (red2 (2 * fl f_a) (4 * fl f_gaa))
    + tf (2 * fl f_b) / 2 * F_pw91 0.093907 76.320 0.26608 0.0809615 0.000057767 (red2 (2 * fl f_b) (4 * fl f_gbb))) by (unfold ss; field).
  apply near_add_pos; [apply Rmult_le_pos; [apply tf_pos; lra|apply F_pw91_nn; decs; lra] ..|apply near_scal, near_F_pw91; decs; lra|apply near_scal, near_F_pw91; decs; lra].
Qed.
End N.
