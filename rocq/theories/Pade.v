(** * Accuracy of the rational approximation in sqrtx_asinh_sqrtx
    For 0 <= x < 1/2 the library replaces sqrt x * arcsinh (sqrt x) by a quotient of polynomials
    (/repo/external/upstream/taylor/ctaylor_math.hpp 276-316).  Its relative error is below 4e-12. *)
From Coq Require Import Reals QArith Qreals ZArith Arith Lia Lra Psatz List Bool.
From Coquelicot Require Import Coquelicot.
From Verif Require Import Scalar RInst CTaylor TMath TExp Dom Value.
Import ListNotations.
Local Open Scope R_scope.

(** ** Polynomials as lists of rational coefficients *)
Fixpoint pev (l : list Q) (x : R) : R := match l with [] => 0 | c :: l' => Q2R c + x * pev l' x end.
Fixpoint padd (a b : list Q) : list Q := match a, b with [], _ => b | _, [] => a | x :: a', y :: b' => Qred (x + y) :: padd a' b' end.
Definition pscal (c : Q) (a : list Q) : list Q := map (fun x => Qred (c * x)) a.
Fixpoint pmul (a b : list Q) : list Q := match a with [] => [] | x :: a' => padd (pscal x b) (0%Q :: pmul a' b) end.
Fixpoint pder (a : list Q) : list Q := match a with [] => [] | _ :: a' => padd a' (0%Q :: pder a') end.
Definition psub a b := padd a (pscal (-1) b).
Lemma pev_add a : forall b x, pev (padd a b) x = pev a x + pev b x.
Proof.
  induction a as [|c a IH]; intros b x; [cbn; ring|]. destruct b as [|d b]; cbn [padd pev]; [ring|]. rewrite (Qeq_eqR _ _ (Qred_correct (c + d))), Q2R_plus, IH. ring.
Qed.
Lemma pev_scal c a x : pev (pscal c a) x = Q2R c * pev a x.
Proof. induction a as [|d a IH]; unfold pscal in *; cbn [map pev]; [ring|]. rewrite (Qeq_eqR _ _ (Qred_correct (c * d))), Q2R_mult. rewrite IH. ring. Qed.
Lemma Q2R_0' : Q2R 0 = 0. Proof. unfold Q2R. cbn. lra. Qed.
Lemma pev_mul a b x : pev (pmul a b) x = pev a x * pev b x.
Proof. induction a as [|c a IH]; cbn [pmul pev]; [ring|]. rewrite pev_add, pev_scal. cbn [pev]. rewrite IH, Q2R_0'. ring. Qed.
Lemma pev_sub a b x : pev (psub a b) x = pev a x - pev b x.
Proof. unfold psub. rewrite pev_add, pev_scal. replace (Q2R (-1)) with (-1) by (unfold Q2R; cbn; lra). ring. Qed.
Lemma pev_der a x : is_derive (pev a) x (pev (pder a) x).
Proof.
  induction a as [|c a IH]; cbn [pev pder].
  - apply @is_derive_const.
  - assert (Ex : ex_derive (pev a) x) by (eexists; exact IH). assert (Dv : Derive (pev a) x = pev (pder a) x) by (apply is_derive_unique; exact IH).
    rewrite pev_add. cbn [pev]. rewrite Q2R_0'. auto_derive; [exact Ex|]. change (Derive (fun y : R => pev a y) x) with (Derive (pev a) x). rewrite Dv. ring.
Qed.
(** Sum of |c_i| (1/2)^i. *)
Fixpoint pabs (l : list Q) : Q := match l with [] => 0%Q | c :: l' => Qred (Qabs.Qabs c + (1 # 2) * pabs l') end.
Lemma Q2R_abs q : Q2R (Qabs.Qabs q) = Rabs (Q2R q).
Proof.
  apply Qabs.Qabs_case; intro H; apply Qle_Rle in H; rewrite Q2R_0' in H; [now rewrite Rabs_pos_eq|]. rewrite Q2R_opp. now rewrite Rabs_left1.
Qed.
Lemma pev_abs l x : 0 <= x <= / 2 -> Rabs (pev l x) <= Q2R (pabs l).
Proof.
  intro H. induction l as [|c l IH]; cbn [pev pabs].
  - rewrite Rabs_R0, Q2R_0'. lra.
  - rewrite (Qeq_eqR _ _ (Qred_correct _)), Q2R_plus, Q2R_mult, Q2R_abs. eapply Rle_trans; [apply Rabs_triang|]. apply Rplus_le_compat_l.
    rewrite Rabs_mult, (Rabs_pos_eq x) by lra. replace (Q2R (1 # 2)) with (/ 2) by (unfold Q2R; cbn; lra). apply Rmult_le_compat; try lra. apply Rabs_pos.
Qed.
Lemma pev_nn l x : 0 <= x -> forallb (fun c => Qle_bool 0 c) l = true -> 0 <= pev l x.
Proof.
  intros H. induction l as [|c l IH]; cbn; intro F; [lra|]. apply andb_prop in F. destruct F as [F1 F2]. apply Qle_bool_iff in F1. apply Qle_Rle in F1. rewrite Q2R_0' in F1. specialize (IH F2). nra.
Qed.

(** ** The two polynomials *)
Definition pP : list Q := tl padeP.
Lemma polyP_pev x : polyP x = x * pev pP x.
Proof. unfold polyP, pP, padeP, tab. cbn [tl pev peval_seq nth OofQ ROps]. rewrite Q2R_0'. ring. Qed.
Lemma polyQ_pev x : polyQ x = pev padeQ x.
Proof. unfold polyQ, padeQ, tab. cbn [pev peval_seq nth OofQ ROps]. ring. Qed.
(** numerator and denominator of the derivative of y p(y^2) / q(y^2), as polynomials in y^2 *)
Definition pA : list Q := psub (pmul (padd pP (0%Q :: pscal 2 (pder pP))) padeQ) (0%Q :: pscal 2 (pmul pP (pder padeQ))).
Definition pB : list Q := pmul padeQ padeQ.
Definition pN : list Q := psub (pmul (pmul pA pA) [1; 1]%Q) (pmul pB pB).
Definition q0 : Q := 3510.921856028398%Q.
Lemma pN_small : Qle_bool (pabs pN) ((4 # 1000000000000) * (q0 * q0 * (q0 * q0))) = true.
Proof. vm_compute. reflexivity. Qed.
(** A lower bound for 0 <= x <= 1/2. *)
Fixpoint plow (l : list Q) : Q := match l with [] => 0%Q | c :: l' => let m := plow l' in if Qle_bool 0 m then c else Qred (c + (1 # 2) * m) end.
Lemma pev_low l x : 0 <= x <= / 2 -> Q2R (plow l) <= pev l x.
Proof.
  intro H. induction l as [|c l IH]; cbn [plow pev]; [rewrite Q2R_0'; lra|]. destruct (Qle_bool 0 (plow l)) eqn:E.
  - apply Qle_bool_iff in E. apply Qle_Rle in E. rewrite Q2R_0' in E. nra.
  - assert (L : (plow l < 0)%Q) by (apply Qnot_le_lt; intro X; apply Qle_bool_iff in X; congruence). apply Qlt_Rlt in L. rewrite Q2R_0' in L.
    rewrite (Qeq_eqR _ _ (Qred_correct _)), Q2R_plus, Q2R_mult. replace (Q2R (1 # 2)) with (/ 2) by (unfold Q2R; cbn; lra). nra.
Qed.
Lemma pA_nn : Qle_bool 0 (plow pA) = true.
Proof. vm_compute. reflexivity. Qed.

Lemma pB_pos x : 0 <= x -> Q2R q0 * Q2R q0 <= pev pB x /\ 0 < pev padeQ x.
Proof.
  intro H. assert (L : Q2R q0 <= pev padeQ x).
  { unfold padeQ. cbn [pev]. fold q0. match goal with |- _ <= _ + x * ?r => assert (0 <= r) end; [|nra].
    match goal with |- 0 <= ?r => change r with (pev (tl padeQ) x) end. apply pev_nn; [exact H|]. vm_compute. reflexivity. }
  assert (P0 : 0 < Q2R q0) by (unfold q0, Q2R; cbn; lra). unfold pB. rewrite pev_mul. split; [apply Rmult_le_compat; lra|lra].
Qed.
(** The approximation of arcsinh. *)
Definition rat (y : R) : R := y * pev pP (y * y) / pev padeQ (y * y).
Lemma rat_der_gen (f g : R -> R) y f' g' : is_derive f (y * y) f' -> is_derive g (y * y) g' -> g (y * y) <> 0 ->
  is_derive (fun y => y * f (y * y) / g (y * y)) y (((f (y * y) + y * y * (2 * f')) * g (y * y) - y * y * (2 * (f (y * y) * g'))) / (g (y * y) * g (y * y))).
Proof.
  intros Df Dg N. assert (Ep : ex_derive f (y * y)) by (eexists; exact Df). assert (Eq : ex_derive g (y * y)) by (eexists; exact Dg).
  apply is_derive_unique in Df, Dg. auto_derive; [repeat split; auto|].
  change (Derive (fun x : R => f x) (y * y)) with (Derive f (y * y)). change (Derive (fun x : R => g x) (y * y)) with (Derive g (y * y)). rewrite Df, Dg. field. exact N.
Qed.
Lemma rat_der y : is_derive rat y (pev pA (y * y) / pev pB (y * y)).
Proof.
  pose proof (pB_pos (y * y) ltac:(nra)) as [_ Q].
  assert (E : pev pA (y * y) / pev pB (y * y) = ((pev pP (y * y) + y * y * (2 * pev (pder pP) (y * y))) * pev padeQ (y * y) - y * y * (2 * (pev pP (y * y) * pev (pder padeQ) (y * y)))) / (pev padeQ (y * y) * pev padeQ (y * y))).
  { unfold pA, pB. rewrite pev_sub, !pev_mul, pev_add. cbn [pev]. rewrite !pev_scal, pev_mul, Q2R_0'. replace (Q2R 2) with 2 by (unfold Q2R; cbn; lra). field. lra. }
  rewrite E. apply rat_der_gen; [apply pev_der|apply pev_der|lra].
Qed.
Lemma rat_der_err y : 0 <= y * y <= / 2 -> Rabs (/ sqrt (y ^ 2 + 1) - pev pA (y * y) / pev pB (y * y)) <= 4 / 1000000000000.
Proof.
  intro H. set (x := y * y) in *. replace (y ^ 2 + 1) with (x + 1) by (unfold x; ring).
  destruct (pB_pos x ltac:(lra)) as [Hb Hq]. set (b := pev pB x) in *. assert (Ha : 0 <= pev pA x) by (pose proof (pev_low pA x H); pose proof pA_nn as S; apply Qle_bool_iff in S; apply Qle_Rle in S; rewrite Q2R_0' in S; lra). set (a := pev pA x) in *.
  assert (P0 : 1 < Q2R q0 * Q2R q0) by (unfold q0, Q2R; cbn; lra).
  assert (N : Rabs (a * a * (1 + x) - b * b) <= 4 / 1000000000000 * (b * b)).
  { assert (E : a * a * (1 + x) - b * b = pev pN x). { unfold pN, a, b. rewrite pev_sub, !pev_mul. cbn [pev]. replace (Q2R 1) with 1 by (unfold Q2R; cbn; lra). ring. }
    rewrite E. eapply Rle_trans; [apply pev_abs; exact H|]. pose proof pN_small as S. apply Qle_bool_iff in S. apply Qle_Rle in S. rewrite !Q2R_mult in S. eapply Rle_trans; [exact S|].
    replace (Q2R (4 # 1000000000000)) with (4 / 1000000000000) by (unfold Q2R; cbn; lra). apply Rmult_le_compat_l; [lra|]. apply Rmult_le_compat; lra. }
  assert (Sp : 1 <= sqrt (x + 1)) by (rewrite <- sqrt_1 at 1; apply sqrt_le_1_alt; lra). assert (Ss : sqrt (x + 1) * sqrt (x + 1) = x + 1) by (apply sqrt_sqrt; lra). set (s := sqrt (x + 1)) in *.
  assert (E : / s - a / b = - (a * a * (1 + x) - b * b) / (s * b * (a * s + b))).
  { replace (1 + x) with (s * s) by lra. field. assert (0 < a * s + b) by nra. repeat split; lra. }
  rewrite E. unfold Rdiv. rewrite Rabs_mult, Rabs_Ropp. assert (Dp : 0 < s * b * (a * s + b)) by (apply Rmult_lt_0_compat; [nra|nra]).
  rewrite (Rabs_pos_eq (/ _)) by (left; apply Rinv_0_lt_compat; exact Dp).
  apply Rmult_le_reg_r with (s * b * (a * s + b)); [exact Dp|]. rewrite Rmult_assoc, Rinv_l, Rmult_1_r by lra. eapply Rle_trans; [exact N|]. apply Rmult_le_compat_l; [lra|]. assert (b <= s * b) by nra. assert (b <= a * s + b) by nra. apply Rmult_le_compat; lra.
Qed.
Lemma arcsinh_rat y : 0 <= y -> y * y <= / 2 -> Rabs (arcsinh y - rat y) <= 4 / 1000000000000 * y.
Proof.
  intros H0 H. destruct (Req_dec y 0) as [->|Ny].
  { rewrite arcsinh_0. unfold rat. rewrite Rmult_0_l. unfold Rdiv. rewrite Rmult_0_l, Rminus_0_r, Rabs_R0. lra. }
  destruct (MVT_gen (fun t => arcsinh t - rat t) 0 y (fun t => / sqrt (t ^ 2 + 1) - pev pA (t * t) / pev pB (t * t))) as (c & Hc & E).
  - intros t _. apply @is_derive_minus; [apply d_asinh|apply rat_der].
  - intros t _. apply continuity_pt_minus; [|].
    + apply derivable_continuous_pt. exists (/ sqrt (t ^ 2 + 1)). apply derivable_pt_lim_arcsinh.
    + apply derivable_continuous_pt. eexists. apply is_derive_Reals. apply rat_der.
  - rewrite Rmin_left, Rmax_right in Hc by lra. rewrite arcsinh_0 in E. replace (rat 0) with 0 in E by (unfold rat, Rdiv; ring). rewrite !Rminus_0_r in E. rewrite E, Rabs_mult, (Rabs_pos_eq y H0).
    apply Rmult_le_compat_r; [exact H0|]. apply rat_der_err. split; nra.
Qed.
(** The function of the library against the exact one. *)
Theorem sqas_close x : 0 <= x -> Rabs (sqas x - sqrt x * arcsinh (sqrt x)) <= 4 / 1000000000000 * x.
Proof.
  intro H. unfold sqas. destruct (Rlt_dec x (/ 2)) as [L|L]; [|rewrite Rminus_eq_0, Rabs_R0; lra].
  pose proof (sqrt_sqrt x H) as S. pose proof (sqrt_pos x) as P. set (y := sqrt x) in *.
  assert (E : polyP x / polyQ x = y * rat y). { rewrite polyP_pev, polyQ_pev. unfold rat. rewrite S. rewrite <- S at 1. unfold Rdiv. ring. }
  rewrite E. replace (y * rat y - y * arcsinh y) with (- (y * (arcsinh y - rat y))) by ring. rewrite Rabs_Ropp, Rabs_mult, (Rabs_pos_eq y P).
  pose proof (arcsinh_rat y P ltac:(lra)) as B. rewrite <- S. nra.
Qed.
