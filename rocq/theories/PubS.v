(** * The SCAN family agrees with the formulas of the literature *)
From Coq Require Import Reals QArith Qreals ZArith Arith Lia Lra List Bool String.
From Coquelicot Require Import Coquelicot.
From Verif Require Import Scalar RInst CTaylor CtAlg TMath Fps TFam TExp Ad Br Expr Functionals Sem AdEval RSem Dom Phys Value Published PubTac PubX PubC PubM.
Import ListNotations.
Local Open Scope R_scope.

(** ** The interpolating polynomial and its slopes *)
Fixpoint dpoly (l : list R) (a : R) : R := match l with [] => 0 | _ :: l => poly l a + a * dpoly l a end.
Fixpoint d2poly (l : list R) (a : R) : R := match l with [] => 0 | _ :: l => dpoly l a + (dpoly l a + a * d2poly l a) end.
Lemma is_poly l a : is_derive (poly l) a (dpoly l a).
Proof.
  revert a. induction l as [|c l IH]; intro a; cbn [poly dpoly]; [apply (@is_derive_const R_AbsRing R_NormedModule)|].
  apply (is_derive_ext (fun y => c + y * poly l y)); [reflexivity|].
  replace (poly l a + a * dpoly l a) with (0 + (1 * poly l a + a * dpoly l a)) by ring.
  apply (@is_derive_plus R_AbsRing R_NormedModule); [apply (@is_derive_const R_AbsRing R_NormedModule)|].
  apply (is_derive_mult (fun y => y) (poly l)); [apply (@is_derive_id R_AbsRing)|apply IH|intros; apply Rmult_comm].
Qed.
Lemma is_dpoly l a : is_derive (dpoly l) a (d2poly l a).
Proof.
  revert a. induction l as [|c l IH]; intro a; cbn [dpoly d2poly]; [apply (@is_derive_const R_AbsRing R_NormedModule)|].
  apply (@is_derive_plus R_AbsRing R_NormedModule); [apply is_poly|].
  replace (dpoly l a + a * d2poly l a) with (1 * dpoly l a + a * d2poly l a) by ring.
  apply (is_derive_mult (fun y => y) (dpoly l)); [apply (@is_derive_id R_AbsRing)|apply IH|intros; apply Rmult_comm].
Qed.
Lemma slope1_E l : slope1 l = dpoly l 1.
Proof. apply is_derive_unique, is_poly. Qed.
Lemma slope2_E l : slope2 l = d2poly l 1.
Proof.
  unfold slope2. rewrite (Derive_ext (Derive (poly l)) (dpoly l)) by (intro a; apply is_derive_unique, is_poly). apply is_derive_unique, is_dpoly.
Qed.
(** ** Pieces of the exchange enhancement *)
Lemma lt_if (A : Type) a b (u v : A) : a < b -> (if Rlt_dec a b then u else v) = u.
Proof. intro H. destruct (Rlt_dec a b); [reflexivity|contradiction]. Qed.
Lemma ge_if (A : Type) a b (u v : A) : b <= a -> (if Rlt_dec a b then u else v) = v.
Proof. intro H. destruct (Rlt_dec a b); [exfalso; lra|reflexivity]. Qed.
Lemma le_if (A : Type) a b (u v : A) : a <= b -> (if Rle_dec a b then u else v) = u.
Proof. intro H. destruct (Rle_dec a b); [reflexivity|contradiction]. Qed.
Lemma gt_if (A : Type) a b (u v : A) : b < a -> (if Rle_dec a b then u else v) = v.
Proof. intro H. destruct (Rle_dec a b); [exfalso; lra|reflexivity]. Qed.
Lemma scan_ie c1 c2 d k1 k2 kd a o : o = 1 - a -> - k1 = c1 -> c2 = k2 -> - kd = d ->
  (if Rlt_dec a 1 then exp (c1 * a / o) else d * exp (c2 / o)) = f_scan k1 k2 kd a.
Proof.
  intros -> <- -> <-. unfold f_scan. destruct (Rlt_dec a 1); [f_equal; unfold Rdiv; ring|ring].
Qed.
Lemma rscan_ie c1 c2 d k1 k2 kd l a o u : o = 1 - a -> - k1 = c1 -> c2 = k2 -> - kd = d -> off_zero a -> u = poly l a ->
  (if Rlt_dec a (1 / 10000000000000) then exp (c1 * a / o) else if Rlt_dec a (5 / 2) then u else d * exp (c2 / o)) = f_rscan k1 k2 kd l a.
Proof.
  intros -> <- -> <- Z ->. unfold f_rscan. replace 2.5 with (5 / 2) by lra. destruct Z as [Z|Z].
  - rewrite lt_if, le_if by lra. f_equal. unfold Rdiv. ring.
  - rewrite ge_if, gt_if by lra. destruct (Rlt_dec a (5 / 2)); [reflexivity|ring].
Qed.

Section S.
Variables (st : nat -> R) (x : nat -> R) (fl : fld -> R).
Hypothesis P : phys fl.
Notation tv := (tv (st : nat -> T ROps) x fl).
Notation V := (tv []).
Lemma tv_let r y e1 e2 b : (forall a, a = tv r e1 -> tv ((y, a) :: r) e2 = b) -> tv r (ELet y e1 e2) = b.
Proof. intro H. now apply H. Qed.
Ltac red_in E := match type of E with ?l = ?r =>
  let r' := eval cbv -[Rplus Rmult Ropp Rminus Rdiv Rinv Rpower ln exp sqrt PI IZR sqas erfR cbrtR arcsinh atan Rlt_dec Rabs Rmax pow Q2R] in r in change (l = r') in E end.
Ltac hd := match goal with |- Value.tv ?a ?b ?c ?r ?e = ?d => let e' := eval hnf in e in change (Value.tv a b c r e' = d) end.
Tactic Notation "stq" ident(v) ident(E) := hd; apply tv_let; intros v E.
Tactic Notation "stp" ident(v) ident(E) := stq v E; red_in E.
Ltac fin := match goal with |- ?l = ?r =>
  let l' := eval cbv -[Rplus Rmult Ropp Rminus Rdiv Rinv Rpower ln exp sqrt PI IZR sqas erfR cbrtR arcsinh atan Rlt_dec Rabs Rmax pow Q2R] in l in change (l' = r) end.
Ltac auto_stp := repeat (let v := fresh "v" in let E := fresh "E" in stp v E).
(** Up to the call of SCAN_X_Fx. *)
Lemma p_scan n g : 0 < n -> 1 / 10 ^ 16 < g -> (if Rlt_dec (1 / 10000000000000000) (Rabs g)
   then g / (4 * Rpower (3 * (PI * PI)) (2 / 3) * Rpower n (8 / 3)) else 1 / 10000000000000000 / (4 * Rpower (3 * (PI * PI)) (2 / 3) * Rpower n (8 / 3))) = red2 n g.
Proof.
  intros N G. assert (Gp : 1 / 10000000000000000 < g) by lra. rewrite Rabs_pos_eq by lra. rewrite lt_if by exact Gp. rewrite <- p_E by exact N. unfold Rdiv. ring.
Qed.
(** SCAN_X_Fx, for each choice of interpolation and gradient expansion. *)
Lemma dec_667 : 0.667 = 667 / 1000. Proof. decs. lra. Qed.
Lemma g_E p : 1 - exp (-49479 / 10000 / Rpower p (1 / 4)) = 1 - exp (- (4.9479 / Rpower p (1 / 4))).
Proof. do 2 f_equal. decs. unfold Rdiv. ring. Qed.
Lemma F_E f h d hx dx ie h0 gx p a : ie = f a -> h0 = 587 / 500 -> hx = h p a -> dx = d p a -> gx = 1 - exp (-49479 / 10000 / Rpower p (1 / 4)) ->
  (hx + ie * (h0 - hx) + dx) * gx = scan_F f h d p a.
Proof. intros -> -> -> -> ->. rewrite g_E. unfold scan_F. replace 1.174 with (587 / 500) by (decs; lra). reflexivity. Qed.
Lemma fx_scan_E a o : o = 1 - a -> (if Rlt_dec a 1 then exp (-667 / 1000 * a / o) else -31 / 25 * exp (4 / 5 / o)) = fx_scan a.
Proof. intro E. apply scan_ie; [exact E|decs; lra|decs; lra|decs; lra]. Qed.
Lemma fx_rscan_E a o i0 : o = 1 - a -> i0 = 0 -> off_zero a -> (if Rlt_dec a (1 / 10000000000000)
         then exp (-667 / 1000 * a / o)
         else
          if Rlt_dec a (5 / 2)
          then
           i0 + 1 * 1 + -667 / 1000 * a ^ 1 + -889111 / 2000000 * a ^ 2 +
           -663086601049 / 1000000000000 * a ^ 3 +
           145129704449 / 100000000000 * a ^ 4 +
           -887998041597 / 1000000000000 * a ^ 5 +
           234528941479 / 1000000000000 * a ^ 6 +
           -11592921661 / 500000000000 * a ^ 7
          else -31 / 25 * exp (4 / 5 / o)) = fx_rscan a.
Proof.
  intros E -> Z. apply rscan_ie; [exact E|decs; lra|decs; lra|decs; lra|exact Z|]. unfold rscan_cx, poly. decs. field.
Qed.
Lemma h1_scan_E p a oma v v0 v1 : oma = 1 - a -> v = 5195701189 / 42646500000 * (p * p) * exp (-5195701189 / 42646500000 * p / (10 / 81)) ->
  v0 = 19579 / 125000 * p + 12083 / 100000 * oma * exp (-1 / 2 * (oma * oma)) -> v1 = 10 / 81 * p + v + v0 * v0 ->
  213 / 200 - 13 / 200 / (v1 / (13 / 200) + 1) = h1_scan p a.
Proof.
  intros -> -> -> ->. unfold h1_scan. cbv zeta. unfold scan_k1, scan_mu.
  replace ((10 / 81) ^ 2 / 0.065 - 0.112654) with (5195701189 / 42646500000) by (decs; field).
  replace (-5195701189 / 42646500000 * p / (10 / 81)) with (- (5195701189 / 42646500000 * p / (10 / 81))) by field.
  replace (-1 / 2 * ((1 - a) * (1 - a))) with (- (1 / 2 * (1 - a) ^ 2)) by field.
  set (e1 := exp _). set (e2 := exp _). rewrite (Rplus_comm _ 1). replace (213 / 200) with (1 + 0.065) by (decs; lra). replace (13 / 200) with 0.065 by (decs; lra).
  do 4 f_equal. decs. field.
Qed.
Lemma fx00 r dp da p a : tv r dp = p -> (forall y, tv (("SCAN_eps_SCAN_X_Fx.p"%string, y) :: r) da = a) ->
  tv r (SCAN_eps_SCAN_X_Fx dp da (1.0e-3)%sx 0 0) = scan_F fx_scan h1_scan no_delta p a.
Proof.
  intros Hp Ha. stq v1 H1. rewrite Hp in H1. subst v1. stq v2 H2. rewrite Ha in H2. subst v2. stp oma Eo. stp i0 Ei0. stp ie Eie. stp h0 Eh0. stp f2 Ef2. stp c2 Ec2. stp h1 Eh1.
  auto_stp. fin. apply (fun Q => eq_trans Q (fx_scan_E a oma Eo)) in Eie. apply (fun Q => eq_trans Q (h1_scan_E p a oma _ _ _ Eo E E0 E1)) in E2. subst v5. now apply F_E.
Qed.
Lemma fx10 r dp da p a : tv r dp = p -> (forall y, tv (("SCAN_eps_SCAN_X_Fx.p"%string, y) :: r) da = a) -> off_zero a ->
  tv r (SCAN_eps_SCAN_X_Fx dp da (1.0e-3)%sx 1 0) = scan_F fx_rscan h1_scan no_delta p a.
Proof.
  intros Hp Ha Z. stq v1 H1. rewrite Hp in H1. subst v1. stq v2 H2. rewrite Ha in H2. subst v2. stp oma Eo. stp i0 Ei0. stp ie Eie. stp h0 Eh0. stp f2 Ef2. stp c2 Ec2. stp h1 Eh1.
  auto_stp. fin. apply (fun Q => eq_trans Q (fx_rscan_E a oma i0 Eo Ei0 Z)) in Eie. apply (fun Q => eq_trans Q (h1_scan_E p a oma _ _ _ Eo E E0 E1)) in E2. subst v5. now apply F_E.
Qed.
(** The slopes that the code adds up term by term. *)
Definition s1x : R := 0 + -667 / 1000 + -889111 / 1000000 + -1989259803147 / 1000000000000 + 145129704449 / 25000000000 + -887998041597 / 200000000000
  + 703586824437 / 500000000000 + -81150451627 / 500000000000.
Definition s2x : R := 0 + 0 + -889111 / 1000000 + -1989259803147 / 500000000000 + 435389113347 / 25000000000 + -887998041597 / 50000000000
  + 703586824437 / 100000000000 + -243451354881 / 250000000000.
Lemma s1x_E : s1x = slope1 rscan_cx.
Proof. rewrite slope1_E. unfold s1x, rscan_cx, dpoly, poly. decs. field. Qed.
Lemma s2x_E : s2x = slope2 rscan_cx.
Proof. rewrite slope2_E. unfold s2x, rscan_cx, d2poly, dpoly, poly. decs. field. Qed.
Lemma c2_E h0 : h0 = 587 / 500 -> - s1x * (1 - h0) = r2_c2.
Proof. intros ->. rewrite s1x_E. unfold r2_c2. decs. field. Qed.
Lemma h1_r2_E p a c d : c = r2_c2 -> d = exp (- (p * p) / (361 / 1000) ^ 4) ->
  213 / 200 - 13 / 200 / (p * (4009 / 5400 * c * d + 10 / 81) / (13 / 200) + 1) = h1_r2scan p a.
Proof.
  intros -> ->. unfold h1_r2scan. cbv zeta. unfold scan_k1, scan_mu, c_eta.
  replace (- (p ^ 2 / 0.361 ^ 4)) with (- (p * p) / (361 / 1000) ^ 4) by (decs; field).
  set (e1 := exp _). rewrite (Rplus_comm _ 1). replace (213 / 200) with (1 + 0.065) by (decs; lra). replace (13 / 200) with 0.065 by (decs; lra).
  do 4 f_equal. decs. field.
Qed.
Lemma fx11 r dp da p a : tv r dp = p -> (forall y, tv (("SCAN_eps_SCAN_X_Fx.p"%string, y) :: r) da = a) -> off_zero a ->
  tv r (SCAN_eps_SCAN_X_Fx dp da (1.0e-3)%sx 1 1) = scan_F fx_rscan h1_r2scan no_delta p a.
Proof.
  intros Hp Ha Z. stq v1 H1. rewrite Hp in H1. subst v1. stq v2 H2. rewrite Ha in H2. subst v2. stp oma Eo. stp i0 Ei0. stp ie Eie. stp h0 Eh0. stp f2 Ef2. stp c2 Ec2. stp h1 Eh1.
  auto_stp. fin. apply (fun Q => eq_trans Q (fx_rscan_E a oma i0 Eo Ei0 Z)) in Eie. assert (S1 : v5 = s1x) by (subst; reflexivity). rewrite S1, (c2_E h0 Eh0) in E6. 
  apply (fun Q => eq_trans Q (h1_r2_E p a _ _ E6 E7)) in E8. subst v11. now apply F_E.
Qed.
Lemma fx12 r dp da p a : tv r dp = p -> (forall y, tv (("SCAN_eps_SCAN_X_Fx.p"%string, y) :: r) da = a) -> off_zero a ->
  tv r (SCAN_eps_SCAN_X_Fx dp da (1.0e-3)%sx 1 2) = scan_F fx_rscan h1_r2scan r4_delta p a.
Proof.
  intros Hp Ha Z. stq v1 H1. rewrite Hp in H1. subst v1. stq v2 H2. rewrite Ha in H2. subst v2. stp oma Eo. stp i0 Ei0. stp ie Eie. stp h0 Eh0. stp f2 Ef2. stp c2 Ec2. stp h1 Eh1.
  auto_stp. fin. apply (fun Q => eq_trans Q (fx_rscan_E a oma i0 Eo Ei0 Z)) in Eie. assert (S1 : v5 = s1x) by (subst; reflexivity). rewrite S1, (c2_E h0 Eh0) in E6.
  apply (fun Q => eq_trans Q (h1_r2_E p a _ _ E6 E7)) in E8. assert (S2 : v19 = s2x) by (subst; reflexivity).
  assert (D : v28 = r4_delta p a).
  { subst v28 v27 v24 v23 v22 v21 v20 v25 v26 v11. rewrite S1, S2, E6, s1x_E, s2x_E, Eh0, Eo. unfold r4_delta. cbv zeta. unfold c_eta, scan_mu, scan_k1.
    generalize r2_c2 (slope1 rscan_cx) (slope2 rscan_cx). intros c q1 q2.
    replace (- ((1 - a) ^ 2 / 0.232 ^ 2) - p ^ 2 / 0.232 ^ 4) with (- ((1 - a) * (1 - a)) / (841 / 15625) - p * p / (29 / 125) ^ 4) by (decs; field).
    set (e := exp _). rewrite (Rplus_comm (a ^ 4) 1). assert (0 < 1 + a ^ 4) by (pose proof (pow2_ge_0 (a ^ 2)); replace (a ^ 4) with ((a ^ 2) ^ 2) by ring; lra).
    decs. field. lra. }
  subst v29. now apply F_E.
Qed.
(** get_SCAN_Fx: the indicator in its three versions. *)
Lemma fx_0 r dn dg dt n g t : (forall r, tv r dn = n) -> (forall r, tv r dg = g) -> (forall r, tv r dt = t) -> 0 < n -> scan_x_spin n g t ->
  tv r (SCAN_eps_get_SCAN_Fx dn dg dt 0 0 0) = scan_F fx_scan h1_scan no_delta (red2 n g) (alpha_scan (tf n) n g t).
Proof.
  intros Hn Hg Ht N (G & O & _).
  stq v1 H1. rewrite Hn in H1. subst v1. stq v2 H2. rewrite Hg in H2. subst v2. stq v3 H3. rewrite Ht in H3. subst v3.
  stp tw Etw. stp t0 Et0. stp t1 Et1. stp a0 Ea0. stp a1 Ea1. stp p0 Ep0. stp p1 Ep1. stq fx Efx. fin. subst fx.
  apply fx00; [fin|intro; fin].
  - rewrite Ep1. apply p_scan; assumption.
  - rewrite Ea1, Et1, Etw. rewrite tf_E. unfold off_orbital in O. rewrite lt_if by (eapply Rle_lt_trans; [|exact O]; lra). reflexivity.
Qed.
Lemma fx_1 r dn dg dt n g t : (forall r, tv r dn = n) -> (forall r, tv r dg = g) -> (forall r, tv r dt = t) -> 0 < n -> rscan_x_spin n g t ->
  tv r (SCAN_eps_get_SCAN_Fx dn dg dt 1 1 0) = scan_F fx_rscan h1_scan no_delta (red2 n g) (alpha_rscan (tf_r n) n g t).
Proof.
  intros Hn Hg Ht N (G & Z).
  stq v1 H1. rewrite Hn in H1. subst v1. stq v2 H2. rewrite Hg in H2. subst v2. stq v3 H3. rewrite Ht in H3. subst v3.
  stp tw Etw. stp t0 Et0. stp t1 Et1. stp a0 Ea0. stp a1 Ea1. stp p0 Ep0. stp p1 Ep1. stq fx Efx. fin. subst fx.
  apply fx10; [fin|intro; fin|exact Z].
  - rewrite Ep1. apply p_scan; assumption.
  - rewrite Ea1, Et1, Etw. rewrite tf_E. unfold alpha_rscan, alpha_scan, tf_r. replace 0.001 with (1 / 1000) by (decs; lra). replace 0.0001 with (1 / 10000) by (decs; lra). unfold Rdiv. f_equal. f_equal. f_equal. ring.
Qed.
Lemma fx_2 (d : nat) h1 delta r dn dg dt n g t :
  (forall r dp da p a, tv r dp = p -> (forall y, tv (("SCAN_eps_SCAN_X_Fx.p"%string, y) :: r) da = a) -> off_zero a -> tv r (SCAN_eps_SCAN_X_Fx dp da (1.0e-3)%sx 1 d) = scan_F fx_rscan h1 delta p a) ->
  (forall r, tv r dn = n) -> (forall r, tv r dg = g) -> (forall r, tv r dt = t) -> 0 < n -> r2scan_x_spin n g t ->
  tv r (SCAN_eps_get_SCAN_Fx dn dg dt 2 1 d) = scan_F fx_rscan h1 delta (red2 n g) (alpha_r2scan (tf n) n g t).
Proof.
  intros K Hn Hg Ht N (G & O & Z).
  stq v1 H1. rewrite Hn in H1. subst v1. stq v2 H2. rewrite Hg in H2. subst v2. stq v3 H3. rewrite Ht in H3. subst v3.
  stp tw Etw. stp t0 Et0. stp t1 Et1. stp a0 Ea0. stp a1 Ea1. stp p0 Ep0. stp p1 Ep1. stq fx Efx. fin. subst fx.
  apply K; [fin|intro; fin|exact Z].
  - rewrite Ep1. apply p_scan; assumption.
  - rewrite Ea1, Et1, Etw. rewrite tf_E. unfold off_orbital in O. rewrite lt_if by (eapply Rle_lt_trans; [|exact O]; lra). unfold alpha_r2scan. replace 0.001 with (1 / 1000) by (decs; lra). reflexivity.
Qed.
Ltac tr := intro; fin; reflexivity.
Lemma k_scanx : scan_x_spin (2 * fl f_a) (4 * fl f_gaa) (2 * fl f_taua) -> scan_x_spin (2 * fl f_b) (4 * fl f_gbb) (2 * fl f_taub) ->
  V SCANx_SCANX = ss3 (fun n g tau => n * ex_gas n * scan_F fx_scan h1_scan no_delta (red2 n g) (alpha_scan (tf n) n g tau)) fl.
Proof.
  intros Sa Sb. pose proof (ph_a _ P). pose proof (ph_b _ P). assert (0 < 2 * fl f_a) by lra. assert (0 < 2 * fl f_b) by lra. stq fa Efa. stp ua Eua. stq fb Efb. stp ub Eub. fin.
  rewrite (fx_0 _ _ _ _ (2 * fl f_a) (4 * fl f_gaa) (2 * fl f_taua)) in Efa by (tr || assumption).
  rewrite (fx_0 _ _ _ _ (2 * fl f_b) (4 * fl f_gbb) (2 * fl f_taub)) in Efb by (tr || assumption).
  rewrite ux_E in Eua by assumption. rewrite ux_E in Eub by assumption. rewrite Efa, Efb, Eua, Eub. unfold ss3. field.
Qed.
Lemma k_rscanx : rscan_x_spin (2 * fl f_a) (4 * fl f_gaa) (2 * fl f_taua) -> rscan_x_spin (2 * fl f_b) (4 * fl f_gbb) (2 * fl f_taub) ->
  V rSCANx_rSCANX = ss3 (fun n g tau => n * ex_gas n * scan_F fx_rscan h1_scan no_delta (red2 n g) (alpha_rscan (tf_r n) n g tau)) fl.
Proof.
  intros Sa Sb. pose proof (ph_a _ P). pose proof (ph_b _ P). assert (0 < 2 * fl f_a) by lra. assert (0 < 2 * fl f_b) by lra. stq fa Efa. stp ua Eua. stq fb Efb. stp ub Eub. fin.
  rewrite (fx_1 _ _ _ _ (2 * fl f_a) (4 * fl f_gaa) (2 * fl f_taua)) in Efa by (tr || assumption).
  rewrite (fx_1 _ _ _ _ (2 * fl f_b) (4 * fl f_gbb) (2 * fl f_taub)) in Efb by (tr || assumption).
  rewrite ux_E in Eua by assumption. rewrite ux_E in Eub by assumption. rewrite Efa, Efb, Eua, Eub. unfold ss3. field.
Qed.
Definition fx_20 r dn dg dt n g t := fx_2 0 _ _ r dn dg dt n g t fx10.
Lemma k_rppscanx : r2scan_x_spin (2 * fl f_a) (4 * fl f_gaa) (2 * fl f_taua) -> r2scan_x_spin (2 * fl f_b) (4 * fl f_gbb) (2 * fl f_taub) ->
  V rppSCANx_rppSCANX = ss3 (fun n g tau => n * ex_gas n * scan_F fx_rscan h1_scan no_delta (red2 n g) (alpha_r2scan (tf n) n g tau)) fl.
Proof.
  intros Sa Sb. pose proof (ph_a _ P). pose proof (ph_b _ P). assert (0 < 2 * fl f_a) by lra. assert (0 < 2 * fl f_b) by lra. stq fa Efa. stp ua Eua. stq fb Efb. stp ub Eub. fin.
  rewrite (fx_20 _ _ _ _ (2 * fl f_a) (4 * fl f_gaa) (2 * fl f_taua)) in Efa by (tr || assumption).
  rewrite (fx_20 _ _ _ _ (2 * fl f_b) (4 * fl f_gbb) (2 * fl f_taub)) in Efb by (tr || assumption).
  rewrite ux_E in Eua by assumption. rewrite ux_E in Eub by assumption. rewrite Efa, Efb, Eua, Eub. unfold ss3. field.
Qed.
Definition fx_21 r dn dg dt n g t := fx_2 1 _ _ r dn dg dt n g t fx11.
Lemma k_r2scanx : r2scan_x_spin (2 * fl f_a) (4 * fl f_gaa) (2 * fl f_taua) -> r2scan_x_spin (2 * fl f_b) (4 * fl f_gbb) (2 * fl f_taub) ->
  V r2SCANx_r2SCANX = ss3 (fun n g tau => n * ex_gas n * scan_F fx_rscan h1_r2scan no_delta (red2 n g) (alpha_r2scan (tf n) n g tau)) fl.
Proof.
  intros Sa Sb. pose proof (ph_a _ P). pose proof (ph_b _ P). assert (0 < 2 * fl f_a) by lra. assert (0 < 2 * fl f_b) by lra. stq fa Efa. stp ua Eua. stq fb Efb. stp ub Eub. fin.
  rewrite (fx_21 _ _ _ _ (2 * fl f_a) (4 * fl f_gaa) (2 * fl f_taua)) in Efa by (tr || assumption).
  rewrite (fx_21 _ _ _ _ (2 * fl f_b) (4 * fl f_gbb) (2 * fl f_taub)) in Efb by (tr || assumption).
  rewrite ux_E in Eua by assumption. rewrite ux_E in Eub by assumption. rewrite Efa, Efb, Eua, Eub. unfold ss3. field.
Qed.
Definition fx_22 r dn dg dt n g t := fx_2 2 _ _ r dn dg dt n g t fx12.
Lemma k_r4scanx : r2scan_x_spin (2 * fl f_a) (4 * fl f_gaa) (2 * fl f_taua) -> r2scan_x_spin (2 * fl f_b) (4 * fl f_gbb) (2 * fl f_taub) ->
  V r4SCANx_r4SCANX = ss3 (fun n g tau => n * ex_gas n * scan_F fx_rscan h1_r2scan r4_delta (red2 n g) (alpha_r2scan (tf n) n g tau)) fl.
Proof.
  intros Sa Sb. pose proof (ph_a _ P). pose proof (ph_b _ P). assert (0 < 2 * fl f_a) by lra. assert (0 < 2 * fl f_b) by lra. stq fa Efa. stp ua Eua. stq fb Efb. stp ub Eub. fin.
  rewrite (fx_22 _ _ _ _ (2 * fl f_a) (4 * fl f_gaa) (2 * fl f_taua)) in Efa by (tr || assumption).
  rewrite (fx_22 _ _ _ _ (2 * fl f_b) (4 * fl f_gbb) (2 * fl f_taub)) in Efb by (tr || assumption).
  rewrite ux_E in Eua by assumption. rewrite ux_E in Eub by assumption. rewrite Efa, Efb, Eua, Eub. unfold ss3. field.
Qed.
End S.
