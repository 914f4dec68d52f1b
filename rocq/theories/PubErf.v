(** * Range-separated exchange at any density: distance to the published formulas *)
From Coq Require Import Reals QArith Qreals ZArith Arith Lia Lra Psatz List Bool String.
From Coquelicot Require Import Coquelicot.
From Verif Require Import Scalar RInst CTaylor CtAlg TMath Fps TFam TExp Ad Br Expr Functionals Sem AdEval RSem Dom Phys Value Published PubTac PubX PubC PubM Pade PubNear LrPart.
Import ListNotations.
Local Open Scope R_scope.

(** ** Becke 1988 with range separation *)
(** K (1 - alpha - beta L) as a function of K = k, at a = m sqrt k. *)
Definition attenuated (al be m k : R) : R := k * (1 - al - be * lr_part (m * sqrt k)).
Lemma att_split al be m k : 0 < m -> 0 < k -> attenuated al be m k = (1 - al - be) * k + be / m ^ 2 * ((m * sqrt k) ^ 2 * (1 - lr_part (m * sqrt k))).
Proof. intros M K. unfold attenuated. rewrite Rpow_mult_distr, pow2_sqrt by lra. field. lra. Qed.
Lemma att_nn al be m k : 0 < m -> 0 < k -> 0 <= be -> al + be <= 1 -> 0 <= attenuated al be m k.
Proof.
  intros M K B A. unfold attenuated. pose proof (lr_range (m * sqrt k) ltac:(apply Rmult_lt_0_compat; [exact M|now apply sqrt_lt_R0])) as L.
  apply Rmult_le_pos; [lra|]. nra.
Qed.
Lemma att_mono al be m k k' : 0 < m -> 0 < k -> k <= k' -> 0 <= be -> al + be <= 1 -> attenuated al be m k <= attenuated al be m k' <= k' / k * attenuated al be m k.
Proof.
  intros M K H B A. assert (S : 0 < m * sqrt k) by (apply Rmult_lt_0_compat; [exact M|now apply sqrt_lt_R0]).
  assert (S' : m * sqrt k <= m * sqrt k') by (apply Rmult_le_compat_l; [lra|apply sqrt_le_1; lra]). split.
  - rewrite !att_split by lra. pose proof (sr_mono _ _ S S') as R. assert (0 <= be / m ^ 2) by (apply Rmult_le_pos; [exact B|left; apply Rinv_0_lt_compat, pow_lt, M]).
    apply Rplus_le_compat; [apply Rmult_le_compat_l; lra|now apply Rmult_le_compat_l].
  - unfold attenuated. replace (k' / k * (k * (1 - al - be * lr_part (m * sqrt k)))) with (k' * (1 - al - be * lr_part (m * sqrt k))) by (field; lra).
    pose proof (lr_mono _ _ S S') as R. apply Rmult_le_compat_l; [lra|]. nra.
Qed.
Lemma att_near al be m k k' : 0 < m -> 0 < k -> near k' k -> 0 <= be -> al + be <= 1 -> near (attenuated al be m k') (attenuated al be m k).
Proof.
  unfold near. intros M K H B A. pose proof (att_nn al be m k M K B A) as N. rewrite (Rabs_pos_eq k) in H by lra. apply Rabs_le_between in H. rewrite (Rabs_pos_eq _ N).
  assert (T : 0 < tol < 1) by (unfold tol; lra). apply Rabs_le_between. destruct (Rle_lt_dec k k') as [L|L].
  - destruct (att_mono al be m k k' M K L B A) as [P Q]. assert (k' / k <= 1 + tol) by (apply Rle_div_l; lra). split; [nra|]. nra.
  - assert (K' : 0 < k') by nra. destruct (att_mono al be m k' k M K' ltac:(lra) B A) as [P Q]. split; [|nra].
    assert (R : k' / k * attenuated al be m k <= attenuated al be m k').
    { apply (Rmult_le_compat_l (k' / k)) in Q; [|left; now apply Rdiv_lt_0_compat]. replace (k' / k * (k / k' * attenuated al be m k')) with (attenuated al be m k') in Q by (field; lra). exact Q. }
    assert (1 - tol <= k' / k) by (apply Rle_div_r; lra). nra.
Qed.
Definition lib_K (n g : R) : R := 2 * (21 / 5000 * (g * Rpower n (-8 / 3)) / (63 / 2500 * sqas (g * Rpower n (-8 / 3)) + 1) + Rpower (81 / (4 * PI)) (1 / 3) / 2).
Lemma lib_K_E n g : 0 < n -> 0 <= g -> lib_K n g = - (2 * (lda_spin n + - (21 / 5000 * Rpower n (4 / 3) * (g * Rpower n (-8 / 3))) / (63 / 2500 * sqas (g * Rpower n (-8 / 3)) + 1)) / Rpower n (4 / 3)).
Proof.
  intros N G. unfold lib_K. rewrite <- lda_spin_eq by assumption. assert (Z : Rpower n (4 / 3) <> 0) by (apply Rgt_not_eq; pos). generalize (63 / 2500 * sqas (g * Rpower n (-8 / 3)) + 1). intro q.
  generalize dependent (Rpower n (4 / 3)). intros y Z. unfold Rdiv. generalize (/ q). intro i. field. exact Z.
Qed.
Lemma lda_spin_lt n : 0 < n -> lda_spin n < 0.
Proof. intro N. unfold lda_spin. assert (0 < 3 / 2 * Rpower (3 / (4 * PI)) (1 / 3) * Rpower n (4 / 3)) by (apply Rmult_lt_0_compat; [apply Rmult_lt_0_compat; [lra|apply exp_pos]|apply exp_pos]). lra. Qed.
Lemma becke_K_pos n g : 0 < n -> 0 <= g -> 0 < becke_K n g.
Proof.
  intros N G. unfold becke_K. pose proof (lda_spin_lt n N). pose proof (b88_neg n g N G). assert (P : 0 < Rpower n (4 / 3)) by apply exp_pos.
  replace (- (2 * (lda_spin n + b88_corr n g) / Rpower n (4 / 3))) with (2 * - (lda_spin n + b88_corr n g) / Rpower n (4 / 3)) by (unfold Rdiv; ring). apply Rdiv_lt_0_compat; lra.
Qed.
Lemma near_K n g : 0 < n -> 0 <= g -> near (lib_K n g) (becke_K n g).
Proof.
  intros N G. rewrite lib_K_E by assumption. unfold becke_K. assert (Z : Rpower n (4 / 3) <> 0) by (apply Rgt_not_eq; pos).
  assert (A : forall e, - (2 * e / Rpower n (4 / 3)) = - (2 / Rpower n (4 / 3)) * e) by (intro e; field; exact Z). rewrite !A. apply near_scal.
  apply near_add_neg; [apply lda_spin_neg, N|apply b88_neg; assumption|apply near_refl|apply near_b88; assumption].
Qed.
Definition cam_spin (al be mu n g : R) : R := - (1 / 2) * Rpower n (4 / 3) * becke_K n g * (1 - al - be * lr_part (becke_a mu n g)).
Lemma near_cam_spin al be mu n g : 0 < n -> 0 <= g -> 0 < mu -> 0 <= be -> al + be <= 1 ->
  near (- (1 / 2) * Rpower n (4 / 3) * attenuated al be (mu / (6 * sqrt PI * Rpower n (1 / 3))) (lib_K n g)) (cam_spin al be mu n g).
Proof.
  intros N G M B A. assert (P : 0 < 6 * sqrt PI * Rpower n (1 / 3)) by (apply Rmult_lt_0_compat; [apply Rmult_lt_0_compat; [lra|apply sqrt_lt_R0, PI_RGT_0]|apply exp_pos]).
  set (m := mu / _). assert (Pm : 0 < m) by now apply Rdiv_lt_0_compat.
  assert (E : cam_spin al be mu n g = - (1 / 2) * Rpower n (4 / 3) * attenuated al be m (becke_K n g)).
  { unfold cam_spin, attenuated, becke_a. replace (mu * sqrt (becke_K n g) / (6 * sqrt PI * Rpower n (1 / 3))) with (m * sqrt (becke_K n g)) by (unfold m, Rdiv; ring). ring. }
  rewrite E. apply near_scal, att_near; try assumption; [now apply becke_K_pos|now apply near_K].
Qed.
Lemma cam_spin_neg al be mu n g : 0 < n -> 0 <= g -> 0 < mu -> 0 <= be -> al + be <= 1 -> cam_spin al be mu n g <= 0.
Proof.
  intros N G M B A. unfold cam_spin. assert (P : 0 < 6 * sqrt PI * Rpower n (1 / 3)) by (apply Rmult_lt_0_compat; [apply Rmult_lt_0_compat; [lra|apply sqrt_lt_R0, PI_RGT_0]|apply exp_pos]).
  pose proof (becke_K_pos n g N G) as K. assert (Pa : 0 < becke_a mu n g) by (unfold becke_a; apply Rdiv_lt_0_compat; [apply Rmult_lt_0_compat; [exact M|now apply sqrt_lt_R0]|exact P]).
  pose proof (lr_range _ Pa) as L. assert (F : 0 <= 1 - al - be * lr_part (becke_a mu n g)) by nra.
  assert (Q : 0 < 1 / 2 * Rpower n (4 / 3) * becke_K n g) by (apply Rmult_lt_0_compat; [apply Rmult_lt_0_compat; [lra|apply exp_pos]|exact K]).
  pose proof (Rmult_le_pos _ _ (Rlt_le _ _ Q) F). lra.
Qed.
Section E.
Variables (st : nat -> R) (x : nat -> R) (fl : fld -> R).
Hypothesis P : phys fl.
Notation V := (tv (st : nat -> T ROps) x fl []).
Lemma att_E al be m k n y : 0 < y -> -1 / 2 * n * k * (1 - al - be * 8 / 3 * (m * sqrt k / y) * (sqrt PI * erfR (1 / (2 * (m * sqrt k / y))) + 2 * (m * sqrt k / y) * (exp (-1 / (4 * (m * sqrt k / y) * (m * sqrt k / y))) - 1 - (2 * (m * sqrt k / y) * (m * sqrt k / y) * (exp (-1 / (4 * (m * sqrt k / y) * (m * sqrt k / y))) - 1) + 1 / 2))))
  = - (1 / 2) * n * attenuated al be (m / y) k.
Proof.
  intro Y. replace (m * sqrt k / y) with (m / y * sqrt k) by (unfold Rdiv; ring). rewrite br_E. unfold attenuated, lr_part. field. lra.
Qed.
Lemma att_E0 m k n y : 0 < y -> -1 / 2 * n * k * (1 - 8 / 3 * (m * sqrt k / y) * (sqrt PI * erfR (1 / (2 * (m * sqrt k / y))) + 2 * (m * sqrt k / y) * (exp (-1 / (4 * (m * sqrt k / y) * (m * sqrt k / y))) - 1 - (2 * (m * sqrt k / y) * (m * sqrt k / y) * (exp (-1 / (4 * (m * sqrt k / y) * (m * sqrt k / y))) - 1) + 1 / 2))))
  = - (1 / 2) * n * attenuated 0 1 (m / y) k.
Proof.
  intro Y. replace (m * sqrt k / y) with (m / y * sqrt k) by (unfold Rdiv; ring). rewrite br_E. unfold attenuated, lr_part. field. lra.
Qed.
Lemma den_pos n : 0 < 6 * sqrt PI * Rpower n (1 / 3).
Proof. apply Rmult_lt_0_compat; [apply Rmult_lt_0_compat; [lra|apply sqrt_lt_R0, PI_RGT_0]|apply exp_pos]. Qed.
Lemma k_camx : V beckex_beckecamx = ps (fun n g => - (1 / 2) * Rpower n (4 / 3) * attenuated (st 80%nat) (st 81%nat) (st 78%nat / (6 * sqrt PI * Rpower n (1 / 3))) (lib_K n g)) fl.
Proof.
  vred. fold (lib_K (fl f_a) (fl f_gaa)) (lib_K (fl f_b) (fl f_gbb)). rewrite !att_E by apply den_pos. reflexivity.
Qed.
Lemma k_srx : V beckex_beckesrx = ps (fun n g => - (1 / 2) * Rpower n (4 / 3) * attenuated 0 1 (st 78%nat / (6 * sqrt PI * Rpower n (1 / 3))) (lib_K n g)) fl.
Proof.
  vred. fold (lib_K (fl f_a) (fl f_gaa)) (lib_K (fl f_b) (fl f_gbb)). rewrite !att_E0 by apply den_pos. reflexivity.
Qed.
Lemma near_beckecamx : 0 < st 78%nat -> 0 <= st 81%nat -> st 80%nat + st 81%nat <= 1 ->
  near (V beckex_beckecamx) (ps (cam_spin (st 80%nat) (st 81%nat) (st 78%nat)) fl).
Proof.
  intros M B A. rewrite k_camx. destruct P. unfold ps. apply near_add_neg; [apply cam_spin_neg; assumption ..|apply near_cam_spin; assumption|apply near_cam_spin; assumption].
Qed.
Lemma near_beckesrx : 0 < st 78%nat -> near (V beckex_beckesrx) (ps (cam_spin 0 1 (st 78%nat)) fl).
Proof.
  intros M. rewrite k_srx. destruct P. unfold ps. apply near_add_neg; [apply cam_spin_neg; assumption || lra ..|apply near_cam_spin; assumption || lra|apply near_cam_spin; assumption || lra].
Qed.
(** ** Local density *)
Lemma gas_E n : 0 < n -> n * Rpower (24 * n / PI) (1 / 3) = - (8 / 3 * (n * ex_gas n)).
Proof. intro N. unfold ex_gas, kF. transitivity (8 / 3 * (n * (3 * Rpower (3 * PI ^ 2 * n) (1 / 3) / (4 * PI)))); [|ring]. mono. Qed.
Definition lib_erf (n a : R) : R :=
  if Rlt_dec a (1 / 1000000000) then -3 / 8 * n * Rpower (24 * n / PI) (1 / 3)
  else if Rlt_dec a 100 then - (n * Rpower (24 * n / PI) (1 / 3)) *
     (3 / 8 - a * (sqrt PI * erfR (1 / 2 / a) + (2 * a - 4 * (a * a * a)) * exp (-1 / 4 / (a * a)) - 3 * a + 4 * (a * a * a)))
  else if Rlt_dec a 1000000000 then - (n * Rpower (24 * n / PI) (1 / 3)) / (96 * (a * a)) else 0.
Lemma lib_erf_close n a : 0 < n -> 0 < a -> Rabs (lib_erf n a - n * ex_gas n * (1 - lr_part a)) <= 1 / 100000000 * Rabs (n * ex_gas n).
Proof.
  intros N A. pose proof (lr_range a A) as L. pose proof (gas_E n N) as G. assert (Fin : forall v c, v = n * ex_gas n * c -> Rabs (c - (1 - lr_part a)) <= 1 / 100000000 -> Rabs (v - n * ex_gas n * (1 - lr_part a)) <= 1 / 100000000 * Rabs (n * ex_gas n)).
  { intros v c -> H. rewrite <- Rmult_minus_distr_l, Rabs_mult, Rmult_comm. apply Rmult_le_compat_r; [apply Rabs_pos|exact H]. }
  unfold lib_erf. destruct (Rlt_dec a _) as [h|h].
  - apply (Fin _ 1); [rewrite Rmult_assoc, G; field|]. pose proof (lr_small a ltac:(lra)). apply Rabs_le_between. lra.
  - destruct (Rlt_dec a 100) as [h2|h2].
    + apply (Fin _ (1 - lr_part a)); [|rewrite Rminus_eq_0, Rabs_R0; lra]. pose proof (erf_E n a N ltac:(lra) 0 0) as E.
      destruct (Rlt_dec a (1 / 1000000000)); [lra|]. destruct (Rlt_dec a 100); [|lra]. exact E.
    + pose proof (lr_large a A) as B. assert (A2 : 10000 <= a ^ 2) by nra. assert (A4 : 100000000 <= a ^ 4) by (replace (a ^ 4) with (a ^ 2 * a ^ 2) by ring; nra).
      assert (I4 : 0 <= 1 / (960 * a ^ 4) <= 1 / 100000000) by (split; [left; apply Rdiv_lt_0_compat; lra|apply Rle_div_l; [lra|]; lra]).
      destruct (Rlt_dec a 1000000000) as [h3|h3].
      * apply (Fin _ (1 / (36 * a ^ 2))); [rewrite G; field; lra|]. apply Rabs_le_between. lra.
      * apply (Fin _ 0); [ring|]. assert (A2' : 100000000000000000 <= a ^ 2) by nra. assert (1 / (36 * a ^ 2) <= 1 / 100000000) by (apply Rle_div_l; lra). apply Rabs_le_between. lra.
Qed.
Lemma k_erfx : V ldaerfx_lda_erfx = ss (fun n _ => lib_erf n (ldaerf_a (st 78%nat) n)) fl.
Proof.
  vred. assert (E : forall y, st 78%nat / (2 * (386708465785017 / 125000000000000 * Rpower y (1 / 3))) = ldaerf_a (st 78%nat) y).
  { intro y. unfold ldaerf_a. do 3 f_equal. decs. lra. }
  rewrite !E. unfold ss. transitivity (1 / 2 * (lib_erf (2 * fl f_a) (ldaerf_a (st 78%nat) (2 * fl f_a)) + lib_erf (2 * fl f_b) (ldaerf_a (st 78%nat) (2 * fl f_b)))); [reflexivity|field].
Qed.
Lemma ldaerf_a_pos mu n : 0 < mu -> 0 < ldaerf_a mu n.
Proof. intro M. unfold ldaerf_a. apply Rdiv_lt_0_compat; [exact M|]. apply Rmult_lt_0_compat; [lra|]. apply Rmult_lt_0_compat; [decs; lra|apply exp_pos]. Qed.
Lemma erfx_close : 0 < st 78%nat -> Rabs (V ldaerfx_lda_erfx - ss (fun n _ => n * ex_gas n * (1 - lr_part (ldaerf_a (st 78%nat) n))) fl) <= 1 / 100000000 * Rabs (ss (fun n _ => n * ex_gas n) fl).
Proof.
  intro M. rewrite k_erfx. pose proof (ph_a _ P) as PA. pose proof (ph_b _ P) as PB. unfold ss.
  pose proof (lib_erf_close (2 * fl f_a) _ ltac:(lra) (ldaerf_a_pos (st 78%nat) (2 * fl f_a) M)) as A. pose proof (lib_erf_close (2 * fl f_b) _ ltac:(lra) (ldaerf_a_pos (st 78%nat) (2 * fl f_b) M)) as B.
  pose proof (ex_gas_neg (2 * fl f_a) ltac:(lra)) as Ea. pose proof (ex_gas_neg (2 * fl f_b) ltac:(lra)) as Eb.
  rewrite (Rabs_left1 (2 * fl f_a * _)) in A by lra. rewrite (Rabs_left1 (2 * fl f_b * _)) in B by lra. rewrite (Rabs_left1 (_ / 2)) by lra.
  apply Rabs_le_between in A. apply Rabs_le_between in B. apply Rabs_le_between. lra.
Qed.
(** ** The full functionals, for comparison *)
Lemma full_K n g : 0 < n -> 0 <= g -> - (1 / 2) * Rpower n (4 / 3) * lib_K n g = lda_spin n + - (21 / 5000 * Rpower n (4 / 3) * (g * Rpower n (-8 / 3))) / (63 / 2500 * sqas (g * Rpower n (-8 / 3)) + 1).
Proof.
  intros N G. rewrite lib_K_E by assumption. assert (Z : Rpower n (4 / 3) <> 0) by (apply Rgt_not_eq; pos). set (e := lda_spin n + _). clearbody e. field. exact Z.
Qed.
Lemma k_becke_full : V beckex = ps (fun n g => - (1 / 2) * Rpower n (4 / 3) * lib_K n g) fl.
Proof.
  transitivity (ps (fun n g => lda_spin n + - (21 / 5000 * Rpower n (4 / 3) * (g * Rpower n (-8 / 3))) / (63 / 2500 * sqas (g * Rpower n (-8 / 3)) + 1)) fl).
  - vred. destruct P. rewrite !lda_spin_eq by assumption. reflexivity.
  - destruct P. unfold ps. rewrite !full_K by assumption. reflexivity.
Qed.
Lemma lib_K_pos n g : 0 < n -> 0 <= g -> 0 < lib_K n g.
Proof.
  intros N G. pose proof (near_K n g N G) as H. pose proof (becke_K_pos n g N G) as K. unfold near in H. rewrite (Rabs_pos_eq (becke_K n g)) in H by lra. apply Rabs_le_between in H. unfold tol in H. lra.
Qed.
Lemma lib_erf_range n a : 0 < n -> 0 < a -> n * ex_gas n <= lib_erf n a <= 0.
Proof.
  intros N A. pose proof (lr_range a A) as L. pose proof (gas_E n N) as G. pose proof (ex_gas_neg n N) as Ng.
  assert (Fin : forall v c, v = n * ex_gas n * c -> 0 <= c <= 1 -> n * ex_gas n <= v <= 0) by (intros v c -> H; nra).
  unfold lib_erf. destruct (Rlt_dec a _) as [h|h].
  - apply (Fin _ 1); [rewrite Rmult_assoc, G; field|lra].
  - destruct (Rlt_dec a 100) as [h2|h2].
    + apply (Fin _ (1 - lr_part a)); [|lra]. pose proof (erf_E n a N ltac:(lra) 0 0) as E.
      destruct (Rlt_dec a (1 / 1000000000)); [lra|]. destruct (Rlt_dec a 100); [|lra]. exact E.
    + assert (A2 : 10000 <= a ^ 2) by nra. destruct (Rlt_dec a 1000000000) as [h3|h3].
      * apply (Fin _ (1 / (36 * a ^ 2))); [rewrite G; field; lra|]. split; [left; apply Rdiv_lt_0_compat; lra|apply Rle_div_l; lra].
      * apply (Fin _ 0); [ring|lra].
Qed.
End E.
