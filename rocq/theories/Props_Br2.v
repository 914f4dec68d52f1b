(** * Property theorems: accuracy of all three Becke-Roussel energies (C38) *)
From Coq Require Import Reals QArith Qreals ZArith Arith Lia Lra Psatz List Bool String.
From Coquelicot Require Import Coquelicot.
From Verif Require Import Scalar RInst Tables Api SpecApi ApiProofs ApiProofs2 CTaylor CtAlg TMath Br Expr Densvars Functionals
  Eval SpecEval EvalSem EvalProps Taint EvalExt Props_Eval Sem RSem EnergyR EvalR EvalReal EvalApi Phys Mk Props_Deriv.
From Verif Require Import Itv BrReal BrInv PubBr Props_Br.
Import ListNotations.
Local Open Scope outcome_scope.
Local Open Scope R_scope.

(** ** How the correlation factors react to a change of scale *)
Definition gz (z : R) : R := z - ln (1 + z).
Lemma gz_d k x : 0 < k -> 0 <= x -> is_derive (fun y => gz (k * y)) x (k * (k * x) / (1 + k * x)).
Proof. intros Hk Hx. unfold gz. auto_derive; [nra|]. field. nra. Qed.
Lemma by_mvt (f df : R -> R) z : 0 < z -> f 0 = 0 -> (forall x, 0 <= x <= z -> is_derive f x (df x)) -> (forall x, 0 <= x <= z -> 0 <= df x) -> 0 <= f z.
Proof.
  intros Hz F0 D P. destruct (MVT_gen f 0 z df) as (c & Hc & E).
  - rewrite Rmin_left, Rmax_right by lra. intros x Hx. apply D. lra.
  - rewrite Rmin_left, Rmax_right by lra. intros x Hx. apply derivable_continuous_pt. exists (df x). apply is_derive_Reals, D. lra.
  - rewrite Rmin_left, Rmax_right in Hc by lra. pose proof (P c Hc). nra.
Qed.
Lemma gz0 k : gz (k * 0) = 0.
Proof. unfold gz. rewrite Rmult_0_r, Rplus_0_r, ln_1. lra. Qed.
Lemma gz_pos z : 0 < z -> 0 <= gz z.
Proof.
  intro H. replace z with (1 * z) by ring. apply (by_mvt (fun y => gz (1 * y)) (fun x => 1 * (1 * x) / (1 + 1 * x)) z H (gz0 1)).
  - intros x Hx. apply gz_d; lra.
  - intros x Hx. apply Rmult_le_pos; [lra|]. apply Rlt_le, Rinv_0_lt_compat. lra.
Qed.
Lemma gz_hi k z : 1 <= k -> 0 < z -> gz (k * z) <= k ^ 2 * gz z.
Proof.
  intros Hk Hz. cut (0 <= k ^ 2 * gz (1 * z) - gz (k * z)); [rewrite Rmult_1_l; lra|].
  apply (by_mvt (fun y => k ^ 2 * gz (1 * y) - gz (k * y)) (fun x => k ^ 2 * (1 * (1 * x) / (1 + 1 * x)) - k * (k * x) / (1 + k * x)) z Hz).
  - rewrite !gz0. lra.
  - intros x Hx. apply (is_derive_minus (V := R_NormedModule) (fun y => k ^ 2 * gz (1 * y))); [apply (is_derive_scal (fun y => gz (1 * y)))|]; apply gz_d; lra.
  - intros x Hx. replace (k ^ 2 * (1 * (1 * x) / (1 + 1 * x)) - k * (k * x) / (1 + k * x)) with (k ^ 2 * ((k - 1) * x ^ 2) * (/ (1 + x) * / (1 + k * x))) by (field; split; nra).
    apply Rmult_le_pos; [apply Rmult_le_pos; [apply pow2_ge_0|apply Rmult_le_pos; [lra|apply pow2_ge_0]]|]. apply Rlt_le, Rmult_lt_0_compat; apply Rinv_0_lt_compat; nra.
Qed.
Lemma gz_lo k z : 1 <= k -> 0 < z -> gz z <= gz (k * z).
Proof.
  intros Hk Hz. cut (0 <= gz (k * z) - gz (1 * z)); [rewrite Rmult_1_l; lra|].
  apply (by_mvt (fun y => gz (k * y) - gz (1 * y)) (fun x => k * (k * x) / (1 + k * x) - 1 * (1 * x) / (1 + 1 * x)) z Hz).
  - rewrite !gz0. lra.
  - intros x Hx. apply (is_derive_minus (V := R_NormedModule) (fun y => gz (k * y))); apply gz_d; lra.
  - intros x Hx. replace (k * (k * x) / (1 + k * x) - 1 * (1 * x) / (1 + 1 * x)) with (x * ((k - 1) * (k + 1 + k * x)) * (/ (1 + x) * / (1 + k * x))) by (field; split; nra).
    apply Rmult_le_pos; [apply Rmult_le_pos; [lra|apply Rmult_le_pos; nra]|]. apply Rlt_le, Rmult_lt_0_compat; apply Rinv_0_lt_compat; nra.
Qed.
Definition fo (z : R) : R := z ^ 2 * (1 - ln (1 + z) / z).
Definition fp (z : R) : R := z ^ 4 * (1 - 2 / z * ln (1 + z / 2)).
Lemma fo_gz z : 0 < z -> fo z = z * gz z.
Proof. intro H. unfold fo, gz. field. lra. Qed.
Lemma fp_gz z : 0 < z -> fp z = 2 * z ^ 3 * gz (z / 2).
Proof. intro H. unfold fp, gz. field. lra. Qed.
Lemma fo_pos z : 0 < z -> 0 <= fo z.
Proof. intro H. rewrite fo_gz by exact H. apply Rmult_le_pos; [lra|now apply gz_pos]. Qed.
Lemma fp_pos z : 0 < z -> 0 <= fp z.
Proof. intro H. rewrite fp_gz by exact H. apply Rmult_le_pos; [|apply gz_pos; lra]. pose proof (pow_lt z 3 H). lra. Qed.
Lemma pow_ge1 k n : 1 <= k -> 1 <= k ^ n.
Proof. intro H. rewrite <- (pow1 n). apply pow_incr. lra. Qed.
Lemma fo_scale k z : 1 <= k -> 0 < z -> fo z <= fo (k * z) <= k ^ 5 * fo z.
Proof.
  intros Hk Hz. assert (Hkz : 0 < k * z) by nra. rewrite !fo_gz by assumption. pose proof (gz_pos z Hz) as G. pose proof (gz_lo k z Hk Hz) as L. pose proof (gz_hi k z Hk Hz) as U. split.
  - apply Rmult_le_compat; try lra. nra.
  - apply Rle_trans with (k * z * (k ^ 2 * gz z)); [apply Rmult_le_compat_l; lra|]. replace (k * z * (k ^ 2 * gz z)) with (k ^ 3 * (z * gz z)) by ring.
    apply Rmult_le_compat_r; [apply Rmult_le_pos; lra|]. replace (k ^ 5) with (k ^ 3 * k ^ 2) by ring. pose proof (pow_ge1 k 3 Hk). pose proof (pow_ge1 k 2 Hk). nra.
Qed.
Lemma fp_scale k z : 1 <= k -> 0 < z -> fp z <= fp (k * z) <= k ^ 5 * fp z.
Proof.
  intros Hk Hz. assert (Hkz : 0 < k * z) by nra. rewrite !fp_gz by assumption. replace (k * z / 2) with (k * (z / 2)) by field. assert (Hz2 : 0 < z / 2) by lra.
  pose proof (gz_pos _ Hz2) as G. pose proof (gz_lo k _ Hk Hz2) as L. pose proof (gz_hi k _ Hk Hz2) as U. pose proof (pow_lt z 3 Hz) as Z3. pose proof (pow_ge1 k 3 Hk) as K3. rewrite Rpow_mult_distr. split.
  - apply Rmult_le_compat; try lra. nra.
  - apply Rle_trans with (2 * (k ^ 3 * z ^ 3) * (k ^ 2 * gz (z / 2))); [apply Rmult_le_compat_l; [nra|lra]|]. right. ring.
Qed.
Lemma pow5_hi e : 0 <= e <= / 100 -> (1 + e) ^ 5 <= 1 + 6 * e.
Proof.
  intro H. assert (0 <= e * e <= e / 100) by nra. set (a := e * e) in *. assert (0 <= a * e <= e / 100) by nra. set (b := a * e) in *. assert (0 <= b * e <= e / 100) by nra. set (c := b * e) in *. assert (0 <= c * e <= e / 100) by nra.
  replace ((1 + e) ^ 5) with (1 + 5 * e + 10 * a + 10 * b + 5 * c + c * e) by (unfold c, b, a; ring). lra.
Qed.
Lemma pow5_lo e : 0 <= e <= / 100 -> 1 - 6 * e <= (1 - e) ^ 5.
Proof.
  intro H. assert (0 <= e * e <= e / 100) by nra. set (a := e * e) in *. assert (0 <= a * e <= e / 100) by nra. set (b := a * e) in *. assert (0 <= b * e <= e / 100) by nra. set (c := b * e) in *. assert (0 <= c * e <= e / 100) by nra.
  replace ((1 - e) ^ 5) with (1 - 5 * e + 10 * a - 10 * b + 5 * c - c * e) by (unfold c, b, a; ring). lra.
Qed.
(** Both factors change by a relative 3e-12 at most if their argument changes by 5e-13. *)
Lemma scale_close (f : R -> R) : (forall z, 0 < z -> 0 <= f z) -> (forall k z, 1 <= k -> 0 < z -> f z <= f (k * z) <= k ^ 5 * f z) ->
  forall k z, Rabs (k - 1) <= 5e-13 -> 0 < z -> Rabs (f (k * z) - f z) <= 3e-12 * f z.
Proof.
  intros P S k z Hk Hz. assert (K : 1 - 5e-13 <= k <= 1 + 5e-13) by (unfold Rabs in Hk; destruct (Rcase_abs (k - 1)); lra). clear Hk. pose proof (P z Hz) as Pz.
  pose proof (pow5_hi 5e-13 ltac:(lra)) as B1. pose proof (pow5_lo 5e-13 ltac:(lra)) as B2.
  assert (B' : (1 + 5e-13) ^ 5 <= 1 + 3e-12) by (eapply Rle_trans; [exact B1|lra]).
  destruct (Rle_lt_dec 1 k) as [G|G].
  - destruct (S k z G Hz) as [L U]. rewrite Rabs_pos_eq by lra. assert (k ^ 5 <= 1 + 3e-12) by (eapply Rle_trans; [apply pow_incr; split; [lra|apply K]|exact B']). nra.
  - assert (Hkz : 0 < k * z) by nra. assert (J : 1 <= / k) by (rewrite <- Rinv_1; apply Rinv_le_contravar; lra).
    destruct (S (/ k) (k * z) J Hkz) as [L U]. replace (/ k * (k * z)) with z in L, U by (field; lra). pose proof (P _ Hkz) as Pk.
    assert (V : k ^ 5 * f z <= f (k * z)).
    { apply Rmult_le_compat_l with (r := k ^ 5) in U; [|apply pow_le; lra]. rewrite <- Rmult_assoc, <- Rpow_mult_distr, Rinv_r, pow1, Rmult_1_l in U by lra. exact U. }
    assert (W : 1 - 3e-12 <= k ^ 5) by (apply Rle_trans with ((1 - 5e-13) ^ 5); [eapply Rle_trans; [|exact B2]; lra|apply pow_incr; lra]).
    rewrite Rabs_left1 by lra. nra.
Qed.
Lemma exp_close e : Rabs e <= 41e-14 -> Rabs (exp e - 1) <= 5e-13.
Proof.
  intro H. assert (-41e-14 <= e <= 41e-14) by (unfold Rabs in H; destruct (Rcase_abs e); lra). pose proof (exp_lo e). pose proof (exp_hi e ltac:(lra)).
  assert (/ (1 - e) <= 1 + 5e-13). { apply Rmult_le_reg_l with (1 - e); [lra|]. rewrite Rinv_r by lra. nra. }
  unfold Rabs. destruct (Rcase_abs (exp e - 1)); lra.
Qed.
Lemma inv_pot U e : U < 0 -> / Rabs (U * exp e) = exp (- e) * / Rabs U.
Proof. intro H. rewrite Rabs_mult, (Rabs_pos_eq (exp e)) by (apply Rlt_le, exp_pos). rewrite Rinv_mult, exp_Ropp. ring. Qed.
Lemma mix_close a b j k : 0 < a -> 0 < b -> Rabs (j - 1) <= 5e-13 -> Rabs (k - 1) <= 5e-13 -> exists m, Rabs (m - 1) <= 5e-13 /\ j * a + k * b = m * (a + b).
Proof.
  intros Ha Hb Hj Hk. exists ((j * a + k * b) / (a + b)). split; [|field; lra].
  replace ((j * a + k * b) / (a + b) - 1) with (((j - 1) * a + (k - 1) * b) / (a + b)) by (field; lra). unfold Rdiv. rewrite Rabs_mult, (Rabs_pos_eq (/ (a + b))) by (apply Rlt_le, Rinv_0_lt_compat; lra).
  apply Rmult_le_reg_r with (a + b); [lra|]. rewrite Rmult_assoc, Rinv_l, Rmult_1_r by lra. eapply Rle_trans; [apply Rabs_triang|]. rewrite !Rabs_mult, (Rabs_pos_eq a), (Rabs_pos_eq b) by lra. nra.
Qed.

(** ** The three energies *)
Definition pot_ok (U e : R) : Prop := U < 0 /\ Rabs e <= 41e-14.
Lemma scaled_diff c f f' : Rabs (f' - f) <= 3e-12 * f -> 0 <= f -> Rabs (c * f' - c * f) <= 3e-12 * Rabs (c * f).
Proof.
  intros H P. replace (c * f' - c * f) with (c * (f' - f)) by ring. rewrite !Rabs_mult, (Rabs_pos_eq f) by exact P. pose proof (Rabs_pos c). nra.
Qed.
Lemma opp_fo D z : br_opp D z = - (0.8) * rho (al D) * rho (be D) * fo z.
Proof. unfold br_opp, fo. replace (-0.8) with (- (0.8)) by lra. rewrite !Rmult_assoc. reflexivity. Qed.
Lemma par_fp s z : br_par s z = - (0.01) * rho s * br_D s * fp z.
Proof. unfold br_par, fp. replace (-0.01) with (- (0.01)) by lra. rewrite !Rmult_assoc. reflexivity. Qed.
Definition zo Ua Ub : R := 0.63 * (/ Rabs Ua + / Rabs Ub).
Definition zp U : R := 2 * 0.88 * / Rabs U.
Lemma opp_close D Ua Ub ea eb : pot_ok Ua ea -> pot_ok Ub eb ->
  Rabs (br_opp D (zo (Ua * exp ea) (Ub * exp eb)) - br_opp D (zo Ua Ub)) <= 3e-12 * Rabs (br_opp D (zo Ua Ub)).
Proof.
  intros [Na Ea] [Nb Eb]. assert (Ia : 0 < / Rabs Ua) by (apply Rinv_0_lt_compat, Rabs_pos_lt; lra). assert (Ib : 0 < / Rabs Ub) by (apply Rinv_0_lt_compat, Rabs_pos_lt; lra).
  rewrite !opp_fo. assert (Pz : 0 < zo Ua Ub) by (unfold zo; lra). apply scaled_diff; [|now apply fo_pos].
  destruct (mix_close _ _ (exp (- ea)) (exp (- eb)) Ia Ib ltac:(apply exp_close; now rewrite Rabs_Ropp) ltac:(apply exp_close; now rewrite Rabs_Ropp)) as (m & Hm & Em).
  replace (zo (Ua * exp ea) (Ub * exp eb)) with (m * zo Ua Ub) by (unfold zo; rewrite !inv_pot, Em by assumption; ring).
  apply scale_close; [exact fo_pos|exact fo_scale|exact Hm|exact Pz].
Qed.
Lemma par_close s U e : pot_ok U e -> Rabs (br_par s (zp (U * exp e)) - br_par s (zp U)) <= 3e-12 * Rabs (br_par s (zp U)).
Proof.
  intros [N E]. assert (I : 0 < / Rabs U) by (apply Rinv_0_lt_compat, Rabs_pos_lt; lra). rewrite !par_fp. assert (Pz : 0 < zp U) by (unfold zp; lra). apply scaled_diff; [|now apply fp_pos].
  replace (zp (U * exp e)) with (exp (- e) * zp U) by (unfold zp; rewrite inv_pot by exact N; ring).
  apply scale_close; [exact fp_pos|exact fp_scale|apply exp_close; now rewrite Rabs_Ropp|exact Pz].
Qed.
Lemma ex_close r U e : 0 < r -> pot_ok U e -> Rabs (r * (U * exp e) - r * U) <= 3e-12 * Rabs (r * U).
Proof.
  intros Hr [N E]. replace (r * (U * exp e) - r * U) with (r * U * (exp e - 1)) by ring. rewrite Rabs_mult. pose proof (exp_close e E). pose proof (Rabs_pos (r * U)). nra.
Qed.
(** The published energy term by term: exchange of each spin, opposite-spin and parallel-spin correlation. *)
Definition br_terms (i : nat) (D : dens) (Ua Ub : R) : list R :=
  let x := [/ 2 * (rho (al D) * Ua); / 2 * (rho (be D) * Ub)] in
  let c := [br_opp D (0.63 * (/ Rabs Ua + / Rabs Ub)); br_par (al D) (2 * 0.88 * / Rabs Ua); br_par (be D) (2 * 0.88 * / Rabs Ub)] in
  match i with 10%nat => x | 11%nat => c | _ => x ++ c end.
Definition sum_abs (l : list R) : R := fold_right (fun t s => Rabs t + s) 0 l.
Lemma terms_energy i D Ua Ub : In i [10; 11; 12]%nat -> br_energy i D Ua Ub = fold_right Rplus 0 (br_terms i D Ua Ub).
Proof. intro H. cbn [In] in H. destruct H as [<-|[<-|[<-|[]]]]; cbn [br_energy br_terms fold_right app]; unfold br_ex, br_ec; ring. Qed.
Lemma energy_close i D Ua Ub ea eb : In i [10; 11; 12]%nat -> 0 < rho (al D) -> 0 < rho (be D) -> pot_ok Ua ea -> pot_ok Ub eb ->
  Rabs (br_energy i D (Ua * exp ea) (Ub * exp eb) - br_energy i D Ua Ub) <= 3e-12 * sum_abs (br_terms i D Ua Ub).
Proof.
  intros Hi Ra Rb Pa Pb. rewrite !terms_energy by exact Hi.
  pose proof (ex_close _ _ _ Ra Pa) as Xa. pose proof (ex_close _ _ _ Rb Pb) as Xb. pose proof (opp_close D _ _ _ _ Pa Pb) as Co. pose proof (par_close (al D) _ _ Pa) as Ca. pose proof (par_close (be D) _ _ Pb) as Cb. unfold zo, zp in *.
  assert (Hf : forall u v, Rabs (u - v) <= 3e-12 * Rabs v -> Rabs (/ 2 * u - / 2 * v) <= 3e-12 * Rabs (/ 2 * v)).
  { intros u v H. replace (/ 2 * u - / 2 * v) with (/ 2 * (u - v)) by ring. rewrite !Rabs_mult, (Rabs_pos_eq (/ 2)) by lra. lra. }
  apply Hf in Xa, Xb.
  assert (L : forall l l', Forall2 (fun t' t => Rabs (t' - t) <= 3e-12 * Rabs t) l' l -> Rabs (fold_right Rplus 0 l' - fold_right Rplus 0 l) <= 3e-12 * sum_abs l).
  { intros l l' F. induction F as [|t' t l' l Ht F IH]; cbn [fold_right sum_abs]; [rewrite Rminus_eq_0, Rabs_R0; lra|].
    fold (sum_abs l) in *. replace (t' + fold_right Rplus 0 l' - (t + fold_right Rplus 0 l)) with (t' - t + (fold_right Rplus 0 l' - fold_right Rplus 0 l)) by ring. eapply Rle_trans; [apply Rabs_triang|]. lra. }
  apply L. cbn [In] in Hi. destruct Hi as [<-|[<-|[<-|[]]]]; cbn [br_terms app]; repeat (apply Forall2_cons; [assumption|]); apply Forall2_nil.
Qed.
(** C38 (accuracy).  As long as both hole parameters stay below 100, the energy the library returns for BRX, BRC or
    BRXC differs from the published one by at most 3e-12 of the sum of the sizes of its terms. *)
Theorem C38_br_accuracy :
  forall (h h0 : handle ROps) v i D x xa xb e, reachable h -> xcfun_eval_setup h v XC_PARTIAL_DERIVATIVES 0 = Ok (h0, 0%Z) ->
    In i [10; 11; 12]%nat -> h_active h = [i] -> 0 < (h_settings h XC_RANGESEP_MU : R) -> above D -> describes v x D ->
    hole (al D) xa -> hole (be D) xb -> xa <= 100 -> xb <= 100 -> library_energy h0 x e ->
    Rabs (e - h_settings h i * br_energy i D (br_U (al D) xa) (br_U (be D) xb)) <=
      3e-12 * (Rabs (h_settings h i) * sum_abs (br_terms i D (br_U (al D) xa) (br_U (be D) xb))).
Proof.
  intros h h0 v i D x xa xb e Hr S Hi A Mu Ab De Ha Hb La Lb Le.
  assert (Q : 0 < rho (al D) /\ 0 < rho (be D)) by (destruct Ab as [Qa Qb]; change threshold with (1 * / 100000000000000) in *; lra). destruct Q as [Qa Qb].
  destruct (C38_energy h h0 v i D x Hr S Hi A Mu Ab De) as (ya & yb & ea & eb & Ga & Gb & Ba & Bb & E).
  apply (hole_iff _ _ Qa) in Ga. apply (hole_iff _ _ Qa) in Ha. apply (hole_iff _ _ Qb) in Gb. apply (hole_iff _ _ Qb) in Hb. rewrite <- Ha in Ga. rewrite <- Hb in Gb. subst ya yb. apply E in Le.
  assert (Pa : 0 < xa) by (rewrite Ha; apply br_inv_spec). assert (Pb : 0 < xb) by (rewrite Hb; apply br_inv_spec).
  pose proof (br_U_neg (al D) xa Pa Qa) as Ua. pose proof (br_U_neg (be D) xb Pb Qb) as Ub.
  rewrite Le. set (w := h_settings h i : R).
  change (Rabs (w * br_energy i D (br_U (al D) xa * exp ea) (br_U (be D) xb * exp eb) - w * br_energy i D (br_U (al D) xa) (br_U (be D) xb)) <= 3e-12 * (Rabs w * sum_abs (br_terms i D (br_U (al D) xa) (br_U (be D) xb)))).
  rewrite <- Rmult_minus_distr_l, Rabs_mult.
  pose proof (energy_close i D (br_U (al D) xa) (br_U (be D) xb) ea eb Hi Qa Qb ltac:(split; lra) ltac:(split; lra)) as C. pose proof (Rabs_pos w). nra.
Qed.
Print Assumptions C38_br_accuracy.
(** C38 (relative accuracy).  If moreover the parallel-spin factor D = 2 tau - |grad rho|^2/(4 rho) - j^2/rho is not negative for
    either spin - it never is for a density from orbitals - all three energies are right to 3e-12 of themselves. *)
Theorem C38_br_relative :
  forall (h h0 : handle ROps) v i D x xa xb e, reachable h -> xcfun_eval_setup h v XC_PARTIAL_DERIVATIVES 0 = Ok (h0, 0%Z) ->
    In i [10; 11; 12]%nat -> h_active h = [i] -> 0 < (h_settings h XC_RANGESEP_MU : R) -> above D -> describes v x D ->
    hole (al D) xa -> hole (be D) xb -> xa <= 100 -> xb <= 100 -> 0 <= br_D (al D) -> 0 <= br_D (be D) -> library_energy h0 x e ->
    let published := h_settings h i * br_energy i D (br_U (al D) xa) (br_U (be D) xb) in
    Rabs (e - published) <= 3e-12 * Rabs published.
Proof.
  intros h h0 v i D x xa xb e Hr S Hi A Mu Ab De Ha Hb La Lb Da Db Le published.
  assert (Q : 0 < rho (al D) /\ 0 < rho (be D)) by (destruct Ab as [Qa Qb]; change threshold with (1 * / 100000000000000) in *; lra). destruct Q as [Qa Qb].
  pose proof (C38_br_accuracy h h0 v i D x xa xb e Hr S Hi A Mu Ab De Ha Hb La Lb Le) as M. fold published in M. eapply Rle_trans; [exact M|]. apply Rmult_le_compat_l; [lra|].
  unfold published. set (w := h_settings h i : R). change (Rabs w * sum_abs (br_terms i D (br_U (al D) xa) (br_U (be D) xb)) <= Rabs (w * br_energy i D (br_U (al D) xa) (br_U (be D) xb))).
  rewrite Rabs_mult. apply Rmult_le_compat_l; [apply Rabs_pos|]. rewrite terms_energy by exact Hi.
  apply (proj1 (hole_iff _ _ Qa)) in Ha. apply (proj1 (hole_iff _ _ Qb)) in Hb. assert (Pa : 0 < xa) by (rewrite Ha; apply br_inv_spec). assert (Pb : 0 < xb) by (rewrite Hb; apply br_inv_spec).
  pose proof (br_U_neg (al D) xa Pa Qa) as Ua. pose proof (br_U_neg (be D) xb Pb Qb) as Ub. set (U := br_U (al D) xa) in *. set (V := br_U (be D) xb) in *.
  assert (Ia : 0 < / Rabs U) by (apply Rinv_0_lt_compat, Rabs_pos_lt; lra). assert (Ib : 0 < / Rabs V) by (apply Rinv_0_lt_compat, Rabs_pos_lt; lra).
  assert (L : forall l, List.Forall (fun t => t <= 0) l -> sum_abs l = - fold_right Rplus 0 l /\ fold_right Rplus 0 l <= 0).
  { intros l F. induction F as [|t l Ht F [IH1 IH2]]; cbn [sum_abs fold_right]; [lra|]. fold (sum_abs l). rewrite IH1, Rabs_left1 by exact Ht. lra. }
  assert (F : List.Forall (fun t => t <= 0) (br_terms i D U V)).
  { assert (T1 : / 2 * (rho (al D) * U) <= 0) by nra. assert (T2 : / 2 * (rho (be D) * V) <= 0) by nra.
    assert (T3 : br_opp D (0.63 * (/ Rabs U + / Rabs V)) <= 0). { rewrite opp_fo. pose proof (fo_pos (0.63 * (/ Rabs U + / Rabs V)) ltac:(lra)). assert (0 < rho (al D) * rho (be D)) by nra. nra. }
    assert (T : forall s u, 0 < rho s -> 0 <= br_D s -> 0 < / u -> br_par s (2 * 0.88 * / u) <= 0).
    { intros s u R1 R2 R3. rewrite par_fp. pose proof (fp_pos (2 * 0.88 * / u) ltac:(lra)). assert (0 <= rho s * br_D s) by nra. nra. }
    cbn [In] in Hi. destruct Hi as [<-|[<-|[<-|[]]]]; cbn [br_terms app]; repeat (apply List.Forall_cons; [first [assumption|apply T; assumption]|]); apply List.Forall_nil. }
  destruct (L _ F) as [-> N]. rewrite Rabs_left1 by exact N. lra.
Qed.
Print Assumptions C38_br_relative.
Example C38_br_relative_case : exists (h h0 : handle ROps) x xa e, Api.run xcfun_new [CSet "brxc" (1 : ROps)] = Ok h /\
  xcfun_eval_setup h XC_A_B_GAA_GAB_GBB_LAPA_LAPB_TAUA_TAUB_JPAA_JPBB XC_PARTIAL_DERIVATIVES 0 = Ok (h0, 0%Z) /\
  above D_br /\ describes XC_A_B_GAA_GAB_GBB_LAPA_LAPB_TAUA_TAUB_JPAA_JPBB x D_br /\ hole (al D_br) xa /\ 1 < xa < 2 /\ 0 < br_D (al D_br) /\ library_energy h0 x e /\
  Rabs (e - br_energy 12 D_br (br_U (al D_br) xa) (br_U (al D_br) xa)) <= 3e-12 * Rabs (br_energy 12 D_br (br_U (al D_br) xa) (br_U (al D_br) xa)) /\ e < 0.
Proof.
  destruct (make (K := ROps) [("brxc"%string, 12%nat, 1)] eq_refl) as (h & Eh & Hr & A & Es). change (mactive _) with [12]%nat in A.
  assert (W : h_settings h 12%nat = 1) by (rewrite Es; unfold msettings; cbn [map fold_left fst snd fold_right]; unfold wr_settings, upd; cbn; unfold Q2R; cbn; lra).
  assert (Mu : 0 < (h_settings h XC_RANGESEP_MU : R)) by (rewrite Es; unfold msettings; cbn [map fold_left fst snd]; unfold wr_settings, upd; cbn; unfold Q2R; cbn; lra).
  assert (S : exists h1, xcfun_eval_setup h XC_A_B_GAA_GAB_GBB_LAPA_LAPB_TAUA_TAUB_JPAA_JPBB XC_PARTIAL_DERIVATIVES 0 = Ok (h1, 0%Z)) by (eexists; apply accepts_ok; [exact Hr|rewrite A; vm_compute; reflexivity]).
  destruct S as [h0 S]. destruct C38_energy_case as (_ & _ & x & xa & _ & _ & _ & Ab & De & Hh & Hx & _).
  destruct (C38_energy h h0 _ 12 D_br _ Hr S ltac:(cbn; tauto) A Mu Ab De) as (ya & yb & ea & eb & _ & _ & _ & _ & E).
  assert (Dp : br_D (al D_br) = 7 / 4) by (unfold br_D, dot; cbn; field). assert (Dq : br_D (be D_br) = 7 / 4) by (unfold br_D, dot; cbn; field).
  exists h, h0, x, xa. eexists. split; [exact Eh|]. split; [exact S|]. split; [exact Ab|]. split; [exact De|]. split; [exact Hh|]. split; [exact Hx|]. split; [lra|]. split; [apply E; reflexivity|].
  pose proof (C38_br_relative h h0 _ 12 D_br x xa xa _ Hr S ltac:(cbn; tauto) A Mu Ab De Hh Hh ltac:(lra) ltac:(lra) ltac:(lra) ltac:(lra) (proj2 (E _) eq_refl)) as M. cbv zeta in M.
  change (br_U (be D_br) xa) with (br_U (al D_br) xa) in M. set (e := _ * br_energy 12 D_br (_ * exp ea) _) in *. clearbody e. rewrite W in M.
  set (p := br_energy 12 D_br (br_U (al D_br) xa) (br_U (al D_br) xa)) in *.
  assert (M' : Rabs (e - p) <= 3e-12 * Rabs p). { replace p with (1 * p) by ring. exact M. } split; [exact M'|].
  assert (Np : p < 0).
  { unfold p. rewrite terms_energy by (cbn; tauto). pose proof (br_U_neg (al D_br) xa ltac:(lra) ltac:(cbn; lra)) as Un. set (U := br_U (al D_br) xa) in *. assert (I : 0 < / Rabs U) by (apply Rinv_0_lt_compat, Rabs_pos_lt; lra).
    cbn [br_terms fold_right app]. rewrite opp_fo, !par_fp, Dp, Dq. change (rho (al D_br)) with 1. change (rho (be D_br)) with 1.
    pose proof (fo_pos (0.63 * (/ Rabs U + / Rabs U)) ltac:(lra)). pose proof (fp_pos (2 * 0.88 * / Rabs U) ltac:(lra)). lra. }
  rewrite (Rabs_left p) in M' by exact Np. unfold Rabs in M'. destruct (Rcase_abs (e - p)); lra.
Qed.
(** C37 (Becke-Roussel).  With a weight that is not negative the exchange energy BRX is never positive, and neither are BRC and BRXC where
    the parallel-spin factor of both spins is not negative.  No limit on the hole parameters. *)
Theorem C37_br_sign :
  forall (h h0 : handle ROps) v i D x e, reachable h -> xcfun_eval_setup h v XC_PARTIAL_DERIVATIVES 0 = Ok (h0, 0%Z) ->
    In i [10; 11; 12]%nat -> h_active h = [i] -> 0 < (h_settings h XC_RANGESEP_MU : R) -> above D -> describes v x D ->
    0 <= (h_settings h i : R) -> (i = 10%nat \/ (0 <= br_D (al D) /\ 0 <= br_D (be D))) -> library_energy h0 x e -> e <= 0.
Proof.
  intros h h0 v i D x e Hr S Hi A Mu Ab De Wp Dp Le.
  assert (Q : 0 < rho (al D) /\ 0 < rho (be D)) by (destruct Ab as [Qa Qb]; change threshold with (1 * / 100000000000000) in *; lra). destruct Q as [Qa Qb].
  destruct (C38_energy h h0 v i D x Hr S Hi A Mu Ab De) as (xa & xb & ea & eb & Ha & Hb & _ & _ & E). apply E in Le. rewrite Le. clear E Le.
  pose proof (br_U_neg (al D) xa (proj1 Ha) Qa) as Ua. pose proof (br_U_neg (be D) xb (proj1 Hb) Qb) as Ub.
  pose proof (exp_pos ea). pose proof (exp_pos eb). assert (Nu : br_U (al D) xa * exp ea < 0) by nra. assert (Nv : br_U (be D) xb * exp eb < 0) by nra.
  set (U := br_U (al D) xa * exp ea) in *. set (V := br_U (be D) xb * exp eb) in *. clearbody U V. set (w := h_settings h i : R). change (w * br_energy i D U V <= 0). fold w in Wp.
  assert (Ia : 0 < / Rabs U) by (apply Rinv_0_lt_compat, Rabs_pos_lt; lra). assert (Ib : 0 < / Rabs V) by (apply Rinv_0_lt_compat, Rabs_pos_lt; lra).
  assert (T1 : br_ex D U V <= 0) by (unfold br_ex; nra).
  assert (T2 : 0 <= br_D (al D) /\ 0 <= br_D (be D) -> br_ec D U V <= 0).
  { intros [Da Db]. unfold br_ec. rewrite opp_fo, !par_fp. pose proof (fo_pos (0.63 * (/ Rabs U + / Rabs V)) ltac:(lra)) as F1. pose proof (fp_pos (2 * 0.88 * / Rabs U) ltac:(lra)) as F2. pose proof (fp_pos (2 * 0.88 * / Rabs V) ltac:(lra)) as F3.
    assert (M : forall a b c, 0 <= a -> 0 <= b -> 0 <= c -> 0 <= a * b * c) by (intros; apply Rmult_le_pos; [now apply Rmult_le_pos|assumption]).
    pose proof (M (rho (al D)) (rho (be D)) _ ltac:(lra) ltac:(lra) F1). pose proof (M (rho (al D)) (br_D (al D)) _ ltac:(lra) Da F2). pose proof (M (rho (be D)) (br_D (be D)) _ ltac:(lra) Db F3). lra. }
  assert (T : br_energy i D U V <= 0).
  { cbn [In] in Hi. destruct Hi as [<-|[<-|[<-|[]]]]; cbn [br_energy]; [exact T1| |]; (destruct Dp as [Z|Dp]; [discriminate Z|]); specialize (T2 Dp); lra. }
  nra.
Qed.
Print Assumptions C37_br_sign.
(** [C38_br_relative_case] meets its hypotheses. *)
