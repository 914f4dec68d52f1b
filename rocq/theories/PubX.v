(** * Exchange and kinetic energy functionals agree with the formulas of the literature *)
From Coq Require Import Reals QArith Qreals ZArith Arith Lia Lra List Bool String.
From Coquelicot Require Import Coquelicot.
From Verif Require Import Scalar RInst CTaylor CtAlg TMath Fps TFam TExp Ad Br Expr Functionals Sem AdEval RSem Dom Phys Value Published PubTac.
Import ListNotations.
Local Open Scope R_scope.

(** The building blocks of [Published] for a table of field values. *)
Definition ss (e : R -> R -> R) (fl : fld -> R) : R := (e (2 * fl f_a) (4 * fl f_gaa) + e (2 * fl f_b) (4 * fl f_gbb)) / 2.
Definition gx (F : R -> R) : (fld -> R) -> R := ss (fun n g => n * ex_gas n * F (red2 n g)).
Definition ps (e : R -> R -> R) (fl : fld -> R) : R := e (fl f_a) (fl f_gaa) + e (fl f_b) (fl f_gbb).
Lemma ss_D e D : ss e (dvar D) = spin_scaled e D.
Proof. reflexivity. Qed.
Lemma gx_D F D : gx F (dvar D) = gga_x F D.
Proof. reflexivity. Qed.
Lemma ps_D e D : ps e (dvar D) = per_spin e D.
Proof. reflexivity. Qed.
(** What holds of the fields of a physical density. *)
Record phys (fl : fld -> R) : Prop := mkPhys {
  ph_a : 0 < fl f_a; ph_b : 0 < fl f_b; ph_gaa : 0 <= fl f_gaa; ph_gbb : 0 <= fl f_gbb; ph_gnn : 0 <= fl f_gnn;
  ph_n : fl f_n = fl f_a + fl f_b; ph_z : fl f_zeta = (fl f_a - fl f_b) / fl f_n; ph_rs : fl f_r_s = rs (fl f_n);
  ph_n13 : fl f_n_m13 = Rpower (fl f_n) (- (1 / 3));
  ph_a43 : fl f_a_43 = Rpower (fl f_a) (4 / 3); ph_b43 : fl f_b_43 = Rpower (fl f_b) (4 / 3);
  ph_gab : fl f_gnn = fl f_gaa + 2 * fl f_gab + fl f_gbb; ph_s : fl f_s = fl f_a - fl f_b }.
Lemma dot_nn v : 0 <= dot v v.
Proof. destruct v as [x y z]. unfold dot. cbn [vx vy vz]. pose proof (Rle_0_sqr x). pose proof (Rle_0_sqr y). pose proof (Rle_0_sqr z). unfold Rsqr in *. lra. Qed.
Lemma phys_dvar D : above D -> phys (dvar D).
Proof.
  intros [A B]. assert (t : 0 < threshold) by (change threshold with (1 * / 100000000000000); lra).
  constructor; cbn [dvar]; try reflexivity; try lra; try apply dot_nn.
  unfold gN, dot, vadd. cbn. ring.
Qed.

Section X.
Variables (st : nat -> R) (x : nat -> R) (fl : fld -> R).
Hypothesis P : phys fl.
Notation V := (tv (st : nat -> T ROps) x fl []).
Lemma c_lda1 n : 0 < n -> -3 / 4 * Rpower 2 (1 / 3) * Rpower (3 * PI * PI) (1 / 3) * Rpower n (4 / 3) / PI = 2 * n * ex_gas (2 * n) / 2.
Proof.
  intro N. unfold ex_gas, kF.
  assert (E : 3 / 4 * Rpower 2 (1 / 3) * Rpower (3 * PI * PI) (1 / 3) * Rpower n (4 / 3) / PI = n * (3 * Rpower (3 * PI ^ 2 * (2 * n)) (1 / 3) / (4 * PI))) by mono.
  nra.
Qed.
Lemma c_lda2 n : 0 < n -> - (Rpower (81 / (4 * PI)) (1 / 3) / 2) * Rpower n (4 / 3) = 2 * n * ex_gas (2 * n) / 2.
Proof.
  intro N. unfold ex_gas, kF.
  assert (E : Rpower (81 / (4 * PI)) (1 / 3) / 2 * Rpower n (4 / 3) = n * (3 * Rpower (3 * PI ^ 2 * (2 * n)) (1 / 3) / (4 * PI))) by mono.
  nra.
Qed.
Lemma c_lda3 n : 0 < n -> - Rpower (81 / (32 * PI)) (1 / 3) * Rpower n (4 / 3) = 2 * n * ex_gas (2 * n) / 2.
Proof.
  intro N. unfold ex_gas, kF.
  assert (E : Rpower (81 / (32 * PI)) (1 / 3) * Rpower n (4 / 3) = n * (3 * Rpower (3 * PI ^ 2 * (2 * n)) (1 / 3) / (4 * PI))) by mono.
  nra.
Qed.
Lemma c_s2 n g : 0 < n -> Rpower (Rpower 6 (2 / 3) / (12 * Rpower PI (2 / 3))) 2 * (g / Rpower n (8 / 3)) = red2 (2 * n) (4 * g).
Proof.
  intro N. unfold red2, kF.
  assert (E : Rpower (Rpower 6 (2 / 3) / (12 * Rpower PI (2 / 3))) 2 / Rpower n (8 / 3) = 4 / (2 * Rpower (3 * PI ^ 2 * (2 * n)) (1 / 3) * (2 * n)) ^ 2) by mono.
  unfold Rdiv in *. replace (4 * g * / (2 * Rpower (3 * PI ^ 2 * (2 * n)) (1 * / 3) * (2 * n)) ^ 2) with (g * (4 * / (2 * Rpower (3 * PI ^ 2 * (2 * n)) (1 * / 3) * (2 * n)) ^ 2)) by ring.
  rewrite <- E. ring.
Qed.
Lemma red2_nn n g : 0 < n -> 0 <= g -> 0 <= red2 n g.
Proof.
  intros N G. unfold red2, kF. apply Rmult_le_pos; [exact G|]. left. pos.
Qed.
Ltac gath := rewrite ?(c_lda1 (fl f_a) (ph_a _ P)), ?(c_lda1 (fl f_b) (ph_b _ P)), ?(c_lda2 (fl f_a) (ph_a _ P)), ?(c_lda2 (fl f_b) (ph_b _ P)),
  ?(c_s2 (fl f_a) _ (ph_a _ P)), ?(c_s2 (fl f_b) _ (ph_b _ P)); unfold gx, ss.
Ltac nn := pose proof (red2_nn (2 * fl f_a) (4 * fl f_gaa)) as Na; pose proof (red2_nn (2 * fl f_b) (4 * fl f_gbb)) as Nb;
  destruct P; specialize (Na ltac:(lra) ltac:(lra)); specialize (Nb ltac:(lra) ltac:(lra));
  set (sa := red2 (2 * fl f_a) (4 * fl f_gaa)) in *; set (sb := red2 (2 * fl f_b) (4 * fl f_gbb)) in *;
  set (ea := ex_gas (2 * fl f_a)) in *; set (eb := ex_gas (2 * fl f_b)) in *.
Lemma k_slater : V slater_slaterx = gx F_lda fl.
Proof. vred. rewrite (ph_a43 _ P), (ph_b43 _ P). rewrite Rmult_plus_distr_l, (c_lda3 _ (ph_a _ P)), (c_lda3 _ (ph_b _ P)). unfold gx, ss, F_lda. field. Qed.
Lemma k_pw86 : V pw86x_pw86xtot = gx F_pw86 fl.
Proof.
  vred. unfold gx, ss, F_pw86. fold (kF (2 * fl f_a)) (kF (2 * fl f_b)). fold (red2 (2 * fl f_a) (4 * fl f_gaa)) (red2 (2 * fl f_b) (4 * fl f_gbb)).
  assert (E : forall n, 0 < n -> - Rpower (3 / PI) (1 / 3) * 3 / 4 * Rpower n (4 / 3) = n * ex_gas n).
  { intros n N. unfold ex_gas, kF. assert (E : Rpower (3 / PI) (1 / 3) * 3 / 4 * Rpower n (4 / 3) = n * (3 * Rpower (3 * PI ^ 2 * n) (1 / 3) / (4 * PI))) by mono. nra. }
  nn. rewrite !E by lra. fold ea eb.
  assert (Q : forall s, s * (s * (1 / 5 * s + 14) + 162 / 125) + 1 = 1 + 1.296 * s + 14 * s ^ 2 + 0.2 * s ^ 3) by (intro s; decs; field).
  rewrite !Q. field.
Qed.
Lemma pbe_den k s m : 0 < k -> 0 <= s -> 0 <= m -> m * s / k + 1 <> 0.
Proof. intros K S M. assert (0 <= m * s / k) by (apply Rmult_le_pos; [nra|left; pos]). lra. Qed.
Lemma k_pbe_gen n k m s : 0 < k -> 0 <= s -> 0 <= m -> n * ((1 + k) - k / (m * s / k + 1)) = n * F_pbe k m s.
Proof. intros K S M. unfold F_pbe. f_equal. f_equal. f_equal. ring. Qed.
Lemma k_pbex : V pbex_pbex_en = gx (F_pbe 0.804 (0.066725 * PI ^ 2 / 3)) fl.
Proof.
  vred. gath. nn. unfold F_pbe.
  replace (2669 / 40000 * PI * PI / 3) with (0.066725 * PI ^ 2 / 3) by (decs; field). set (m := 0.066725 * PI ^ 2 / 3).
  replace (201 / 250) with 0.804 by lra. replace (451 / 250) with (1 + 0.804) by lra. rewrite !(Rplus_comm _ 1). lra.
Qed.
Lemma k_revpbex : V revpbex = gx (F_pbe 1.245 (0.066725 * PI ^ 2 / 3)) fl.
Proof.
  vred. gath. nn. unfold F_pbe.
  replace (2669 / 40000 * PI * PI / 3) with (0.066725 * PI ^ 2 / 3) by (decs; field). set (m := 0.066725 * PI ^ 2 / 3).
  replace (249 / 200) with 1.245 by lra. replace (449 / 200) with (1 + 1.245) by lra. rewrite !(Rplus_comm _ 1). lra.
Qed.
Lemma k_rpbex : V rpbex = gx (F_rpbe 0.804 0.2195149727645171) fl.
Proof.
  vred. gath. nn. unfold F_rpbe.
  replace (-2195149727645171 / 8040000000000000 * sa) with (- (0.2195149727645171 * sa / 0.804)) by (decs; field).
  replace (-2195149727645171 / 8040000000000000 * sb) with (- (0.2195149727645171 * sb / 0.804)) by (decs; field).
  lra.
Qed.
Lemma k_pbesolx : V pbesolx_energy = gx (F_pbe 0.804 0.123456790123) fl.
Proof.
  vred. gath. nn. unfold F_pbe.
  replace (123456790123 / 1000000000000) with 0.123456790123 by lra. replace (201 / 250) with 0.804 by lra. replace (451 / 250) with (1 + 0.804) by lra. rewrite !(Rplus_comm _ 1). lra.
Qed.
Lemma k_apbex : V apbex_energy = gx (F_pbe 0.804 0.26) fl.
Proof.
  vred. gath. nn. unfold F_pbe.
  replace (13 / 50) with 0.26 by lra. replace (201 / 250) with 0.804 by lra. replace (451 / 250) with (1 + 0.804) by lra. rewrite !(Rplus_comm _ 1). lra.
Qed.
Lemma k_pbeintx : V pbeintx_energy = gx (F_pbeint 0.804 0.123456790123 0.21951 0.197) fl.
Proof.
  vred. gath. nn. unfold F_pbeint, F_pbe.
  assert (Q : forall s, 0 <= s -> 18922482345769 / 1000000000000000 * s / (197 / 1000 * s + 1) + 123456790123 / 1000000000000 = 0.123456790123 + (0.21951 - 0.123456790123) * (0.197 * s / (1 + 0.197 * s))) by (intros s S; decs; field; lra).
  rewrite !Q by assumption.
  replace (201 / 250) with 0.804 by lra. replace (451 / 250) with (1 + 0.804) by lra. rewrite !(fun k y => Rplus_comm (k / y) 1). lra.
Qed.
(** Becke 1988. *)
Lemma sqas_hi y : / 2 <= y -> sqas y = sqrt y * arcsinh (sqrt y).
Proof. intro H. unfold sqas. destruct (Rlt_dec y (/ 2)); [lra|reflexivity]. Qed.
Lemma b88_chi n g : 0 < n -> 0 <= g -> sqrt (g * Rpower n (-8 / 3)) = sqrt g / Rpower n (4 / 3).
Proof.
  intros N G. rewrite sqrt_mult_alt by exact G. unfold Rdiv at 2. f_equal.
  rewrite <- (sqrt_Rsqr (/ Rpower n (4 / 3))) by (left; pos). f_equal. unfold Rsqr. mono.
Qed.
Lemma b88_chi2 n g : 0 < n -> g * Rpower n (-8 / 3) = g / Rpower n (8 / 3).
Proof. intro N. unfold Rdiv at 2. f_equal. mono. Qed.
Lemma k_b88_corr n g : 0 < n -> 0 <= g -> / 2 <= g / Rpower n (8 / 3) ->
  - (21 / 5000 * Rpower n (4 / 3) * (g * Rpower n (-8 / 3))) / (63 / 2500 * sqas (g * Rpower n (-8 / 3)) + 1) = b88_corr n g.
Proof.
  intros N G H. rewrite <- b88_chi2 in H by exact N. rewrite sqas_hi by exact H. unfold b88_corr.
  assert (E : g * Rpower n (-8 / 3) = (sqrt g / Rpower n (4 / 3)) ^ 2).
  { rewrite <- b88_chi by assumption. rewrite pow2_sqrt; [reflexivity|]. apply Rmult_le_pos; [exact G|left; pos]. }
  rewrite b88_chi by assumption. rewrite E. set (c := sqrt g / Rpower n (4 / 3)).
  replace (63 / 2500) with (6 * 0.0042) by lra. replace (21 / 5000) with 0.0042 by lra. rewrite (Rplus_comm _ 1). unfold Rdiv. ring.
Qed.
Lemma lda_spin_eq n : 0 < n -> - (Rpower (81 / (4 * PI)) (1 / 3) / 2) * Rpower n (4 / 3) = lda_spin n.
Proof.
  intro N. unfold lda_spin.
  assert (E : Rpower (81 / (4 * PI)) (1 / 3) / 2 * Rpower n (4 / 3) = 3 / 2 * Rpower (3 / (4 * PI)) (1 / 3) * Rpower n (4 / 3)) by mono. lra.
Qed.
Lemma lda_spin_eq2 n : 0 < n -> Rpower (81 / (32 * PI)) (1 / 3) * Rpower n (4 / 3) = - lda_spin n.
Proof.
  intro N. unfold lda_spin. rewrite Ropp_involutive. mono.
Qed.
Definition steep (fl : fld -> R) : Prop := / 2 <= fl f_gaa / Rpower (fl f_a) (8 / 3) /\ / 2 <= fl f_gbb / Rpower (fl f_b) (8 / 3).
Lemma k_becke : steep fl -> V beckex = ps (fun n g => lda_spin n + b88_corr n g) fl.
Proof.
  intros [A B]. vred. destruct P. rewrite !k_b88_corr, !lda_spin_eq by assumption. reflexivity.
Qed.
Lemma k_beckecorr : steep fl -> V beckex_beckexcorr = ps b88_corr fl.
Proof. intros [A B]. vred. destruct P. rewrite !k_b88_corr by assumption. reflexivity. Qed.
Lemma optx_den n g : 0 < n -> 0 <= g -> 3 / 500 * g * Rpower n (-8 / 3) + 1 <> 0.
Proof. intros N G. assert (0 <= 3 / 500 * g * Rpower n (-8 / 3)) by (apply Rmult_le_pos; [lra|left; pos]). lra. Qed.
Lemma optx_u n g : 0 < n -> 3 / 500 * g * Rpower n (-8 / 3) = 0.006 * g / Rpower n (8 / 3).
Proof. intro N. rewrite Rmult_assoc, b88_chi2 by exact N. decs. field. pos. Qed.
Lemma optx_c n g : 0 < n -> 0 <= g -> Rpower n (4 / 3) * ((3 / 500 * g * Rpower n (-8 / 3)) ^ 2 * / (3 / 500 * g * Rpower n (-8 / 3) + 1) ^ 2) = optx_corr n g.
Proof.
  intros N G. pose proof (optx_den n g N G) as Dn. unfold optx_corr. rewrite optx_u in * by exact N. set (u := 0.006 * g / Rpower n (8 / 3)) in *. field. lra.
Qed.
Lemma k_optx : V optx = ps optx_spin fl.
Proof.
  vred. destruct P. rewrite ph_a44, ph_b44. unfold ps, optx_spin. rewrite <- !optx_c by assumption.
  pose proof (lda_spin_eq2 _ ph_a0) as La. pose proof (lda_spin_eq2 _ ph_b0) as Lb. 
  apply (f_equal Ropp) in La, Lb. rewrite Ropp_involutive in La, Lb. rewrite <- La, <- Lb. 
  set (u := (3 / 500 * fl f_gaa * Rpower (fl f_a) (-8 / 3)) ^ 2 * / _). set (v := (3 / 500 * fl f_gbb * Rpower (fl f_b) (-8 / 3)) ^ 2 * / _).
  rewrite !(Rmult_assoc (143169 / 100000)). fold u v. decs; field.
Qed.
Lemma k_optxcorr : V optxcorr = ps optx_corr fl.
Proof. vred. destruct P. rewrite ph_a44, ph_b44, !optx_c by assumption. reflexivity. Qed.
Lemma k_ktx : V ktx = ps kt_spin fl.
Proof. vred. unfold ps, kt_spin. replace 0.1 with (1 / 10) by lra. reflexivity. Qed.
Lemma k_tfk : V tfk = tf (fl f_n).
Proof. vred. unfold tf, c_tf. replace (PI * PI) with (PI ^ 2) by ring. reflexivity. Qed.
Lemma k_vwk : V vonw_vW = ps vw_spin fl.
Proof. vred. reflexivity. Qed.
End X.
