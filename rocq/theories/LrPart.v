(** * The long-range fraction of exchange (error-function splitting) as a function of mu
    The bracket [lr_part] of Published.v in the variable s = 1 / (2 a):
    L(s) = 4 B(s) / (3 s), B'(s) = 3/2 (e^(-u) - 1 + u) / u^2 at u = s^2, B(0) = 0.
    L lies between 0 and 1 and decreases; (1 - L) / s^2 decreases too.  Nothing here is about the library. *)
From Coq Require Import Reals ZArith Arith Lia Lra Psatz List.
From Coquelicot Require Import Coquelicot.
From Verif Require Import Scalar RInst CTaylor TMath Fps TFam TExp Expr RSem Published PubTac.
Import ListNotations.
Local Open Scope R_scope.

(** ** A function with non-negative derivative that starts at zero *)
Lemma grow (F F' : R -> R) a s : (forall t, a < t -> is_derive F t (F' t)) -> (forall t, a < t -> 0 <= F' t) -> forall t, a < t -> t <= s -> F t <= F s.
Proof.
  intros D P t Ht [H| ->]; [|lra]. destruct (MVT_gen F t s F') as (c & Hc & E).
  - intros y Hy. apply D. rewrite Rmin_left in Hy by lra. lra.
  - intros y Hy. rewrite Rmin_left in Hy by lra. apply derivable_continuous_pt. exists (F' y). apply is_derive_Reals, D. lra.
  - rewrite Rmin_left, Rmax_right in Hc by lra. pose proof (P c ltac:(lra)) as Q. assert (0 <= F' c * (s - t)) by (apply Rmult_le_pos; lra). lra.
Qed.
Lemma from_zero (F F' : R -> R) C : (forall t, 0 < t -> is_derive F t (F' t)) -> (forall t, 0 < t -> 0 <= F' t) -> 0 <= C -> (forall t, 0 < t <= 1 -> - (C * t) <= F t) ->
  forall s, 0 < s -> 0 <= F s.
Proof.
  intros D P HC S s Hs. destruct (Rle_lt_dec 0 (F s)) as [|N]; [assumption|exfalso].
  set (t := Rmin (Rmin 1 s) (- F s / (2 * (C + 1)))).
  assert (Q : 0 < - F s / (2 * (C + 1))) by (apply Rdiv_lt_0_compat; lra).
  assert (T : 0 < t) by (unfold t; repeat apply Rmin_glb_lt; lra).
  assert (T1 : t <= 1) by (unfold t; eapply Rle_trans; [apply Rmin_l|apply Rmin_l]). assert (T2 : t <= s) by (unfold t; eapply Rle_trans; [apply Rmin_l|apply Rmin_r]).
  assert (T3 : t <= - F s / (2 * (C + 1))) by (unfold t; apply Rmin_r).
  pose proof (grow F F' 0 s D P t T T2) as G. pose proof (S t ltac:(lra)) as L.
  apply (Rmult_le_compat_r (2 * (C + 1))) in T3; [|lra]. unfold Rdiv in T3. rewrite Rmult_assoc, Rinv_l, Rmult_1_r in T3 by lra. nra.
Qed.
(** The same for a function differentiable at 0 too. *)
Lemma from_zero_c (F F' : R -> R) : (forall t, is_derive F t (F' t)) -> (forall t, 0 <= t -> 0 <= F' t) -> F 0 = 0 -> forall s, 0 <= s -> 0 <= F s.
Proof.
  intros D P Z s [H| <-]; [|lra]. destruct (MVT_gen F 0 s F') as (c & Hc & E).
  - intros y _. apply D.
  - intros y _. apply derivable_continuous_pt. exists (F' y). apply is_derive_Reals, D.
  - rewrite Rmin_left, Rmax_right in Hc by lra. rewrite Z, !Rminus_0_r in E. rewrite E. apply Rmult_le_pos; [apply P|]; lra.
Qed.

(** ** Exponential inequalities *)
Definition e1 (u : R) : R := exp (- u) - 1 + u.
Lemma exp_le1 u : 0 <= u -> exp (- u) <= 1.
Proof. intros [H| <-]; [rewrite <- exp_0; left; apply exp_increasing; lra|rewrite Ropp_0, exp_0; lra]. Qed.
Lemma exp_mono u v : u <= v -> exp (- v) <= exp (- u).
Proof. intros [H| ->]; [left; apply exp_increasing; lra|lra]. Qed.
Ltac der := intro; unfold e1; auto_derive; [trivial|match goal with |- ?a = ?b => change (@eq R a b) end; field].
Lemma e1_nn u : 0 <= u -> 0 <= e1 u.
Proof.
  apply (from_zero_c e1 (fun u => 1 - exp (- u))); [der| |unfold e1; rewrite Ropp_0, exp_0; ring].
  intros t Ht. pose proof (exp_le1 t Ht). lra.
Qed.
Lemma e1_le u : 0 <= u -> e1 u <= u ^ 2 / 2.
Proof.
  intro H. cut (0 <= u ^ 2 / 2 - e1 u); [lra|]. revert u H. apply (from_zero_c _ (fun u => e1 u)); [|exact e1_nn|unfold e1; rewrite Ropp_0, exp_0; field].
  der.
Qed.
Lemma e1_ge u : 0 <= u -> u ^ 2 / 2 - u ^ 3 / 6 <= e1 u.
Proof.
  intro H. cut (0 <= e1 u - (u ^ 2 / 2 - u ^ 3 / 6)); [lra|]. revert u H. apply (from_zero_c _ (fun u => u ^ 2 / 2 - e1 u)).
  - der.
  - intros t Ht. pose proof (e1_le t Ht). lra.
  - unfold e1. rewrite Ropp_0, exp_0. field.
Qed.
Lemma e1_le4 u : 0 <= u -> e1 u <= u ^ 2 / 2 - u ^ 3 / 6 + u ^ 4 / 24.
Proof.
  intro H. cut (0 <= u ^ 2 / 2 - u ^ 3 / 6 + u ^ 4 / 24 - e1 u); [lra|]. revert u H. apply (from_zero_c _ (fun u => e1 u - (u ^ 2 / 2 - u ^ 3 / 6))).
  - der.
  - intros t Ht. pose proof (e1_ge t Ht). lra.
  - unfold e1. rewrite Ropp_0, exp_0. field.
Qed.
Lemma e1_ge5 u : 0 <= u -> u ^ 2 / 2 - u ^ 3 / 6 + u ^ 4 / 24 - u ^ 5 / 120 <= e1 u.
Proof.
  intro H. cut (0 <= e1 u - (u ^ 2 / 2 - u ^ 3 / 6 + u ^ 4 / 24 - u ^ 5 / 120)); [lra|]. revert u H. apply (from_zero_c _ (fun u => u ^ 2 / 2 - u ^ 3 / 6 + u ^ 4 / 24 - e1 u)).
  - der.
  - intros t Ht. pose proof (e1_le4 t Ht). lra.
  - unfold e1. rewrite Ropp_0, exp_0. field.
Qed.
(** e1 u / u^2 decreases. *)
Lemma e1_dec l u : 1 <= l -> 0 <= u -> e1 (l * u) <= l ^ 2 * e1 u.
Proof.
  intro L. assert (A : forall u, 0 <= u -> 0 <= l * (1 - exp (- u)) - (1 - exp (- (l * u)))).
  { apply (from_zero_c _ (fun u => l * (exp (- u) - exp (- (l * u))))); [der| |rewrite !Rmult_0_r, !Ropp_0, exp_0; ring].
    intros t Ht. pose proof (exp_mono t (l * t) ltac:(nra)). apply Rmult_le_pos; lra. }
  intro H. cut (0 <= l ^ 2 * e1 u - e1 (l * u)); [lra|]. revert u H.
  apply (from_zero_c _ (fun u => l * (l * (1 - exp (- u)) - (1 - exp (- (l * u)))))); [der| |unfold e1; rewrite !Rmult_0_r, !Ropp_0, exp_0; ring].
  intros t Ht. apply Rmult_le_pos; [lra|]. now apply A.
Qed.
(** (1/2 - e1 u / u^2) / u decreases. *)
Lemma e1_dec3 l u : 1 <= l -> 0 <= u -> (l * u) ^ 2 / 2 - e1 (l * u) <= l ^ 3 * (u ^ 2 / 2 - e1 u).
Proof.
  intros L H. cut (0 <= l ^ 3 * (u ^ 2 / 2 - e1 u) - ((l * u) ^ 2 / 2 - e1 (l * u))); [lra|]. revert u H.
  apply (from_zero_c _ (fun u => l * (l ^ 2 * e1 u - e1 (l * u)))).
  - der.
  - intros t Ht. pose proof (e1_dec l t L Ht). apply Rmult_le_pos; lra.
  - unfold e1. rewrite !Rmult_0_r, !Ropp_0, exp_0. field.
Qed.

(** ** The bracket *)
Definition brk (s : R) : R := sqrt PI * erf s + (1 / s - 1 / (2 * s ^ 3)) * exp (- (s * s)) - 3 / (2 * s) + 1 / (2 * s ^ 3).
Definition dbrk (s : R) : R := 3 / 2 * (e1 (s * s) / s ^ 4).
Lemma lr_brk a : 0 < a -> lr_part a = 4 / (3 * (1 / (2 * a))) * brk (1 / (2 * a)).
Proof.
  intro A. unfold lr_part, brk. replace (- (1 / (2 * a) * (1 / (2 * a)))) with (- (1 / (4 * a ^ 2))) by (field; lra). field. lra.
Qed.
Lemma d_brk s : 0 < s -> is_derive brk s (dbrk s).
Proof.
  intro S. unfold brk, dbrk, e1.
  assert (E : is_derive (fun s => sqrt PI * erf s) s (2 * exp (- (s * s)))).
  { pose proof (d_erf s) as D. apply (is_derive_scal _ _ (sqrt PI)) in D. eapply is_derive_ext; [|eapply is_derive_val; [exact D|]]; [intro; reflexivity|].
    field. apply Rgt_not_eq, sqrt_lt_R0, PI_RGT_0. }
  assert (E2 : is_derive (fun s => (1 / s - 1 / (2 * s ^ 3)) * exp (- (s * s)) - 3 / (2 * s) + 1 / (2 * s ^ 3)) s
     (3 / 2 * ((exp (- (s * s)) - 1 + s * s) / s ^ 4) - 2 * exp (- (s * s)))).
  { auto_derive; [repeat split; apply Rgt_not_eq; try exact S; try (apply Rmult_lt_0_compat; [lra|]; try exact S; repeat apply Rmult_lt_0_compat; lra)|]. field. lra. }
  pose proof (is_derive_plus _ _ _ _ _ E E2) as D. eapply is_derive_ext; [|eapply is_derive_val; [exact D|]].
  - intro t. cbn. ring.
  - cbn. ring.
Qed.
Lemma brk_E s : 0 < s -> brk s = sqrt PI * erf s + (1 / s - 1 / (2 * s ^ 3)) * e1 (s * s) - s.
Proof. intro S. unfold brk, e1. field. lra. Qed.
Lemma erf_0 : erf 0 = 0.
Proof. change erf with erfR. unfold erfR. rewrite RInt_point. unfold zero. cbn. ring. Qed.
Lemma erf_bound s : 0 <= s -> 0 <= sqrt PI * erf s <= 2 * s.
Proof.
  assert (D : forall t, is_derive (fun s => sqrt PI * erf s) t (2 * exp (- (t * t)))).
  { intro t. pose proof (d_erf t) as D. apply (is_derive_scal _ _ (sqrt PI)) in D. eapply is_derive_ext; [|eapply is_derive_val; [exact D|]]; [intro; reflexivity|].
    field. apply Rgt_not_eq, sqrt_lt_R0, PI_RGT_0. }
  intro S. split.
  - revert s S. apply (from_zero_c _ _ D); [|rewrite erf_0; ring]. intros t _. left. apply Rmult_lt_0_compat; [lra|apply exp_pos].
  - cut (0 <= 2 * s - sqrt PI * erf s); [lra|]. revert s S. apply (from_zero_c _ (fun t => 2 - 2 * exp (- (t * t)))).
    + intro t. apply (d_minus (fun s => 2 * s) (fun s => sqrt PI * erf s)); [|apply D]. auto_derive; [trivial|]. match goal with |- ?a = ?b => change (@eq R a b) end. ring.
    + intros t _. pose proof (exp_le1 (t * t) ltac:(nra)). lra.
    + rewrite erf_0. ring.
Qed.
Lemma brk_small s : 0 < s <= 1 -> - (2 * s) <= brk s <= 4 * s.
Proof.
  intros [S S1]. rewrite brk_E by exact S. pose proof (erf_bound s ltac:(lra)) as E. pose proof (e1_nn (s * s) ltac:(nra)) as L. pose proof (e1_le (s * s) ltac:(nra)) as U.
  assert (A : 0 <= 1 / s * e1 (s * s) <= s).
  { split; [apply Rmult_le_pos; [left; apply Rdiv_lt_0_compat; lra|exact L]|]. apply (Rmult_le_reg_l s); [exact S|]. replace (s * (1 / s * e1 (s * s))) with (e1 (s * s)) by (field; lra). assert (s ^ 2 <= 1) by nra. nra. }
  assert (B : 0 <= 1 / (2 * s ^ 3) * e1 (s * s) <= s / 4).
  { assert (P3 : 0 < s ^ 3) by (apply pow_lt; exact S). split; [apply Rmult_le_pos; [left; apply Rdiv_lt_0_compat; lra|exact L]|]. apply (Rmult_le_reg_l (2 * s ^ 3)); [lra|].
    replace (2 * s ^ 3 * (1 / (2 * s ^ 3) * e1 (s * s))) with (e1 (s * s)) by (field; lra). nra. }
  lra.
Qed.
Lemma quart s : 0 < s -> 0 < s ^ 4. Proof. apply pow_lt. Qed.
Lemma frac4 s : 0 < s -> forall lo hi, lo * s ^ 4 <= e1 (s * s) <= hi * s ^ 4 -> lo <= e1 (s * s) / s ^ 4 <= hi.
Proof. intros S lo hi [A B]. pose proof (quart s S). split; [apply Rle_div_r; assumption|apply Rle_div_l; assumption]. Qed.
Lemma brk_nn s : 0 < s -> 0 <= brk s.
Proof.
  revert s. apply (from_zero brk dbrk 2); [exact d_brk| |lra|intros t Ht; apply brk_small; exact Ht].
  intros t Ht. unfold dbrk. pose proof (e1_nn (t * t) ltac:(nra)). pose proof (quart t Ht). apply Rmult_le_pos; [lra|]. apply Rmult_le_pos; [assumption|left; now apply Rinv_0_lt_compat].
Qed.
Ltac dpoly := match goal with |- is_derive ?f ?t ?l => auto_derive; [repeat split; try (apply Rgt_not_eq; lra)|match goal with |- ?a = ?b => change (@eq R a b) end; try field; try lra] end.
Lemma brk_le s : 0 < s -> brk s <= 3 / 4 * s.
Proof.
  intro S. cut (0 <= 3 / 4 * s - brk s); [lra|]. revert s S. apply (from_zero _ (fun t => 3 / 4 - dbrk t) 4); [| |lra|intros t Ht; pose proof (brk_small t Ht); lra].
  - intros t Ht. apply (d_minus (fun s => 3 / 4 * s) brk); [dpoly|now apply d_brk].
  - intros t Ht. unfold dbrk. pose proof (frac4 t Ht 0 (1 / 2)) as F. pose proof (e1_nn (t * t) ltac:(nra)). pose proof (e1_le (t * t) ltac:(nra)). assert (0 <= e1 (t * t) / t ^ 4 <= 1 / 2) by (apply F; nra). lra.
Qed.
Lemma brk_ge s : 0 < s -> 3 / 4 * s - s ^ 3 / 12 <= brk s.
Proof.
  intro S. cut (0 <= brk s - (3 / 4 * s - s ^ 3 / 12)); [lra|]. revert s S. apply (from_zero _ (fun t => dbrk t - (3 / 4 - t ^ 2 / 4)) 3); [| |lra|].
  - intros t Ht. apply (d_minus brk (fun s => 3 / 4 * s - s ^ 3 / 12)); [now apply d_brk|dpoly].
  - intros t Ht. unfold dbrk. pose proof (frac4 t Ht (1 / 2 - t ^ 2 / 6) (1 / 2)) as F. pose proof (e1_ge (t * t) ltac:(nra)). pose proof (e1_le (t * t) ltac:(nra)). assert (1 / 2 - t ^ 2 / 6 <= e1 (t * t) / t ^ 4 <= 1 / 2) by (apply F; nra). lra.
  - intros t Ht. pose proof (brk_nn t ltac:(lra)). assert (0 <= t ^ 3) by (apply pow_le; lra). lra.
Qed.
Lemma brk_le5 s : 0 < s -> brk s <= 3 / 4 * s - s ^ 3 / 12 + s ^ 5 / 80.
Proof.
  intro S. cut (0 <= 3 / 4 * s - s ^ 3 / 12 + s ^ 5 / 80 - brk s); [lra|]. revert s S. apply (from_zero _ (fun t => 3 / 4 - t ^ 2 / 4 + t ^ 4 / 16 - dbrk t) 4); [| |lra|].
  - intros t Ht. apply (d_minus (fun s => 3 / 4 * s - s ^ 3 / 12 + s ^ 5 / 80) brk); [dpoly|now apply d_brk].
  - intros t Ht. unfold dbrk. pose proof (frac4 t Ht 0 (1 / 2 - t ^ 2 / 6 + t ^ 4 / 24)) as F. pose proof (e1_nn (t * t) ltac:(nra)). pose proof (e1_le4 (t * t) ltac:(nra)) as U.
    assert (0 <= e1 (t * t) / t ^ 4 <= 1 / 2 - t ^ 2 / 6 + t ^ 4 / 24); [|lra]. apply F. split; [lra|]. eapply Rle_trans; [exact U|]. right. field.
  - intros t Ht. pose proof (brk_small t Ht). assert (t ^ 3 <= t) by (replace t with (t * 1) at 2 by ring; cbn [pow]; nra). assert (0 <= t ^ 5) by (apply pow_le; lra). lra.
Qed.
Lemma brk_ge7 s : 0 < s -> 3 / 4 * s - s ^ 3 / 12 + s ^ 5 / 80 - s ^ 7 / 560 <= brk s.
Proof.
  intro S. cut (0 <= brk s - (3 / 4 * s - s ^ 3 / 12 + s ^ 5 / 80 - s ^ 7 / 560)); [lra|]. revert s S. apply (from_zero _ (fun t => dbrk t - (3 / 4 - t ^ 2 / 4 + t ^ 4 / 16 - t ^ 6 / 80)) 4); [| |lra|].
  - intros t Ht. apply (d_minus brk (fun s => 3 / 4 * s - s ^ 3 / 12 + s ^ 5 / 80 - s ^ 7 / 560)); [now apply d_brk|dpoly].
  - intros t Ht. unfold dbrk. pose proof (frac4 t Ht (1 / 2 - t ^ 2 / 6 + t ^ 4 / 24 - t ^ 6 / 120) (1 / 2)) as F. pose proof (e1_ge5 (t * t) ltac:(nra)) as L. pose proof (e1_le (t * t) ltac:(nra)) as U.
    assert (1 / 2 - t ^ 2 / 6 + t ^ 4 / 24 - t ^ 6 / 120 <= e1 (t * t) / t ^ 4 <= 1 / 2); [|lra]. apply F. split; [|nra]. eapply Rle_trans; [|exact L]. right. field.
  - intros t Ht. pose proof (brk_ge t ltac:(lra)). assert (T5 : t ^ 5 <= t) by (assert (t ^ 4 <= 1) by (replace 1 with (1 ^ 4) by ring; apply pow_incr; lra); replace (t ^ 5) with (t * t ^ 4) by ring; nra). assert (0 <= t ^ 7) by (apply pow_le; lra). lra.
Qed.
Lemma brk_far s : 1 <= s -> brk s <= 9 / 4.
Proof.
  intro S. pose proof (grow (fun s => 9 / 4 - 3 / (2 * s) - brk s) (fun t => 3 / (2 * t ^ 2) - dbrk t) 0 s) as G. cbn beta in G.
  assert (H : 9 / 4 - 3 / (2 * 1) - brk 1 <= 9 / 4 - 3 / (2 * s) - brk s).
  { apply G; try lra.
    - intros t Ht. apply (d_minus (fun s => 9 / 4 - 3 / (2 * s)) brk); [dpoly|now apply d_brk].
    - intros t Ht. unfold dbrk. assert (e1 (t * t) <= t * t) by (unfold e1; pose proof (exp_le1 (t * t) ltac:(nra)); lra).
      assert (P2 : 0 < t ^ 2) by (apply pow_lt; exact Ht). pose proof (quart t Ht).
      replace (3 / (2 * t ^ 2)) with (3 / 2 * (t * t / t ^ 4)) by (field; lra). rewrite <- Rmult_minus_distr_l. apply Rmult_le_pos; [lra|]. unfold Rdiv. rewrite <- Rmult_minus_distr_r. apply Rmult_le_pos; [lra|left; now apply Rinv_0_lt_compat]. }
  pose proof (brk_le 1 ltac:(lra)). assert (0 < 3 / (2 * s)) by (apply Rdiv_lt_0_compat; lra). lra.
Qed.
(** brk s / s decreases. *)
Lemma brk_dec l s : 1 <= l -> 0 < s -> brk (l * s) <= l * brk s.
Proof.
  intros L S. cut (0 <= l * brk s - brk (l * s)); [lra|]. revert s S.
  assert (D : forall t, 0 < t -> is_derive (fun s => l * brk s - brk (l * s)) t (l * dbrk t - l * dbrk (l * t))).
  { intros t Ht. apply (d_minus (fun s => l * brk s) (fun s => brk (l * s))); [apply d_scal; now apply d_brk|].
    eapply is_derive_val; [apply (d_comp brk (fun s => l * s)); [apply d_brk; nra|apply d_scal, d_id]|]. cbn. ring. }
  intros s S. pose proof (from_zero _ _ (4 * l) D) as Fz. apply Fz; [| |intros t Ht|exact S].
  - intros t Ht. rewrite <- Rmult_minus_distr_l. apply Rmult_le_pos; [lra|]. unfold dbrk. rewrite <- Rmult_minus_distr_l. apply Rmult_le_pos; [lra|].
    pose proof (e1_dec (l * l) (t * t) ltac:(nra) ltac:(nra)) as E. replace (l * t * (l * t)) with (l * l * (t * t)) by ring.
    pose proof (quart t Ht). pose proof (quart l ltac:(lra)).
    replace (e1 (t * t) / t ^ 4) with ((l * l) ^ 2 * e1 (t * t) / (l * t) ^ 4) by (field; lra). unfold Rdiv. rewrite <- Rmult_minus_distr_r. apply Rmult_le_pos; [lra|]. left. apply Rinv_0_lt_compat, pow_lt. nra.
  - nra.
  - pose proof (brk_nn t ltac:(lra)). pose proof (brk_le (l * t) ltac:(nra)). nra.
Qed.
(** (3 s / 4 - brk s) / s^3 decreases. *)
Lemma brk_dec3 l s : 1 <= l -> 0 < s -> 3 / 4 * (l * s) - brk (l * s) <= l ^ 3 * (3 / 4 * s - brk s).
Proof.
  intros L S. cut (0 <= l ^ 3 * (3 / 4 * s - brk s) - (3 / 4 * (l * s) - brk (l * s))); [lra|]. revert s S.
  assert (D : forall t, 0 < t -> is_derive (fun s => l ^ 3 * (3 / 4 * s - brk s) - (3 / 4 * (l * s) - brk (l * s))) t (l ^ 3 * (3 / 4 - dbrk t) - l * (3 / 4 - dbrk (l * t)))).
  { intros t Ht. apply (d_minus (fun s => l ^ 3 * (3 / 4 * s - brk s)) (fun s => 3 / 4 * (l * s) - brk (l * s))).
    - apply d_scal. apply (d_minus (fun s => 3 / 4 * s) brk); [dpoly|now apply d_brk].
    - eapply is_derive_val; [apply (d_minus (fun s => 3 / 4 * (l * s)) (fun s => brk (l * s))); [apply d_scal, d_scal, d_id|apply (d_comp brk (fun s => l * s)); [apply d_brk; nra|apply d_scal, d_id]]|]. cbn. ring. }
  intros s S. pose proof (from_zero _ _ (3 * l) D) as Fz. apply Fz; [| |intros t Ht|exact S].
  - intros t Ht. unfold dbrk. pose proof (e1_dec3 (l * l) (t * t) ltac:(nra) ltac:(nra)) as E. replace (l * t * (l * t)) with (l * l * (t * t)) by ring.
    pose proof (quart t Ht). pose proof (quart l ltac:(lra)). assert (P3 : 0 < l ^ 3) by (apply pow_lt; lra).
    replace (l ^ 3 * (3 / 4 - 3 / 2 * (e1 (t * t) / t ^ 4)) - l * (3 / 4 - 3 / 2 * (e1 (l * l * (t * t)) / (l * t) ^ 4)))
      with (3 / 2 * (((l * l) ^ 3 * ((t * t) ^ 2 / 2 - e1 (t * t)) - ((l * l * (t * t)) ^ 2 / 2 - e1 (l * l * (t * t)))) / (l ^ 3 * t ^ 4))) by (field; lra).
    apply Rmult_le_pos; [lra|]. apply Rmult_le_pos; [lra|]. left. apply Rinv_0_lt_compat. now apply Rmult_lt_0_compat.
  - nra.
  - pose proof (brk_le t ltac:(lra)). pose proof (brk_nn (l * t) ltac:(nra)). assert (0 < l ^ 3) by (apply pow_lt; lra). nra.
Qed.

(** ** In the variable a *)
Lemma half_pos a : 0 < a -> 0 < 1 / (2 * a). Proof. intro A. apply Rdiv_lt_0_compat; lra. Qed.
Lemma lr_range a : 0 < a -> 0 <= lr_part a <= 1.
Proof.
  intro A. rewrite lr_brk by exact A. pose proof (half_pos a A) as S. set (s := 1 / (2 * a)) in *. pose proof (brk_nn s S). pose proof (brk_le s S).
  replace (4 / (3 * s) * brk s) with (brk s / (3 / 4 * s)) by (field; lra). split; [apply Rle_div_r; lra|apply Rle_div_l; lra].
Qed.
Lemma lr_scale a a' : 0 < a -> a <= a' -> let l := a' / a in 1 <= l /\ 1 / (2 * a) = l * (1 / (2 * a')).
Proof. intros A H. cbv zeta. split; [apply Rle_div_r; lra|field; lra]. Qed.
Lemma lr_mono a a' : 0 < a -> a <= a' -> lr_part a <= lr_part a'.
Proof.
  intros A H. rewrite !lr_brk by lra. destruct (lr_scale a a' A H) as [L E]. rewrite E. pose proof (half_pos a' ltac:(lra)) as S. set (l := a' / a) in *. set (s := 1 / (2 * a')) in *.
  pose proof (brk_dec l s L S) as B. assert (LS : 0 < l * s) by (apply Rmult_lt_0_compat; lra). apply (Rmult_le_reg_r (3 / 4 * (l * s))); [lra|].
  replace (4 / (3 * (l * s)) * brk (l * s) * (3 / 4 * (l * s))) with (brk (l * s)) by (field; lra). replace (4 / (3 * s) * brk s * (3 / 4 * (l * s))) with (l * brk s) by (field; lra). exact B.
Qed.
Lemma sr_mono a a' : 0 < a -> a <= a' -> a ^ 2 * (1 - lr_part a) <= a' ^ 2 * (1 - lr_part a').
Proof.
  intros A H. rewrite !lr_brk by lra. destruct (lr_scale a a' A H) as [L E]. rewrite E. pose proof (half_pos a' ltac:(lra)) as S. pose proof (brk_dec3 _ _ L S) as B. revert B.
  assert (El : a' / a * a = a') by (field; lra). set (l := a' / a) in *. clearbody l. subst a'. set (s := 1 / (2 * (l * a))) in *. clearbody s. intro B.
  assert (LS : 0 < l * s) by (apply Rmult_lt_0_compat; lra). replace (1 - 4 / (3 * (l * s)) * brk (l * s)) with ((3 / 4 * (l * s) - brk (l * s)) / (3 / 4 * (l * s))) by (field; lra).
  replace ((l * a) ^ 2 * (1 - 4 / (3 * s) * brk s)) with (a ^ 2 * (l ^ 3 * (3 / 4 * s - brk s) / (3 / 4 * (l * s)))) by (field; lra).
  apply Rmult_le_compat_l; [apply pow2_ge_0|]. apply Rmult_le_compat_r; [left; apply Rinv_0_lt_compat; lra|exact B].
Qed.
Lemma lr_small a : 0 < a <= 1 / 2 -> lr_part a <= 6 * a.
Proof.
  intros [A H]. rewrite lr_brk by exact A. assert (S : 1 <= 1 / (2 * a)) by (apply Rle_div_r; lra). pose proof (brk_far _ S) as B.
  replace (4 / (3 * (1 / (2 * a)))) with (8 / 3 * a) by (field; lra). nra.
Qed.
Lemma lr_large a : 0 < a -> 1 / (36 * a ^ 2) - 1 / (960 * a ^ 4) <= 1 - lr_part a <= 1 / (36 * a ^ 2).
Proof.
  intro A. rewrite lr_brk by exact A. pose proof (half_pos a A) as S. assert (Ea : a = 1 / (2 * (1 / (2 * a)))) by (field; lra). set (s := 1 / (2 * a)) in *. clearbody s. subst a.
  pose proof (brk_ge s S). pose proof (brk_le5 s S). assert (D : 0 < 3 / 4 * s) by lra.
  replace (1 - 4 / (3 * s) * brk s) with ((3 / 4 * s - brk s) / (3 / 4 * s)) by (field; lra).
  replace (1 / (36 * (1 / (2 * s)) ^ 2)) with (s ^ 3 / 12 / (3 / 4 * s)) by (field; lra).
  replace (1 / (960 * (1 / (2 * s)) ^ 4)) with (s ^ 5 / 80 / (3 / 4 * s)) by (field; lra).
  replace (s ^ 3 / 12 / (3 / 4 * s) - s ^ 5 / 80 / (3 / 4 * s)) with ((s ^ 3 / 12 - s ^ 5 / 80) / (3 / 4 * s)) by (field; lra).
  split; (apply Rmult_le_compat_r; [left; now apply Rinv_0_lt_compat|lra]).
Qed.
Lemma lr_large6 a : 0 < a -> 1 - lr_part a <= 1 / (36 * a ^ 2) - 1 / (960 * a ^ 4) + 1 / (26880 * a ^ 6).
Proof.
  intro A. rewrite lr_brk by exact A. pose proof (half_pos a A) as S. assert (Ea : a = 1 / (2 * (1 / (2 * a)))) by (field; lra). set (s := 1 / (2 * a)) in *. clearbody s. subst a.
  pose proof (brk_ge7 s S). assert (D : 0 < 3 / 4 * s) by lra.
  replace (1 - 4 / (3 * s) * brk s) with ((3 / 4 * s - brk s) / (3 / 4 * s)) by (field; lra).
  replace (1 / (36 * (1 / (2 * s)) ^ 2) - 1 / (960 * (1 / (2 * s)) ^ 4) + 1 / (26880 * (1 / (2 * s)) ^ 6)) with ((s ^ 3 / 12 - s ^ 5 / 80 + s ^ 7 / 560) / (3 / 4 * s)) by (field; lra).
  apply Rmult_le_compat_r; [left; now apply Rinv_0_lt_compat|lra].
Qed.
