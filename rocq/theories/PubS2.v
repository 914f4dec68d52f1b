(** * The correlation functionals of the SCAN family agree with the formulas of the literature *)
From Coq Require Import Reals QArith Qreals ZArith Arith Lia Lra List Bool String.
From Coquelicot Require Import Coquelicot.
From Verif Require Import Scalar RInst CTaylor CtAlg TMath Fps TFam TExp Ad Br Expr Functionals Sem AdEval RSem Dom Phys Value Published PubTac PubX PubC PubM PubS.
Import ListNotations.
Local Open Scope R_scope.

(** ** Perdew and Wang's interpolation and its slope, as gcor2 computes them *)
Lemma pw92_den b1 b2 b3 b4 r : 0 < b1 -> 0 < b2 -> 0 < b3 -> 0 < b4 -> 0 < r -> 0 < b1 * sqrt r + b2 * r + b3 * (r * sqrt r) + b4 * r ^ 2.
Proof.
  intros. pose proof (sqrt_lt_R0 r H3). assert (0 < r * sqrt r) by (apply Rmult_lt_0_compat; lra). assert (0 < r ^ 2) by (apply pow_lt; lra).
  repeat apply Rplus_lt_0_compat; apply Rmult_lt_0_compat; assumption.
Qed.
Lemma is_pw92_G A a b1 b2 b3 b4 r : 0 < A -> 0 < b1 -> 0 < b2 -> 0 < b3 -> 0 < b4 -> 0 < r ->
  let s := sqrt r in let q1 := 2 * A * s * (b1 + s * (b2 + s * (b3 + b4 * s))) in let d1 := A * (2 * b2 + b1 / s + 3 * b3 * s + 4 * b4 * r) in
  is_derive (pw92_G A a b1 b2 b3 b4) r (- (2 * A) * (1 + a * r) * (- d1 / ((1 + 1 / q1) * (q1 * q1))) + ln (1 + 1 / q1) * - (2 * A * a)).
Proof.
  intros HA H1 H2 H3 H4 Hr s q1 d1. pose proof (pw92_den b1 b2 b3 b4 r H1 H2 H3 H4 Hr) as D. pose proof (sqrt_lt_R0 r Hr) as S. fold s in D, S.
  assert (Er : r = s * s) by (unfold s; rewrite sqrt_sqrt; lra).
  assert (Q : 2 * A * (b1 * s + b2 * r + b3 * (r * s) + b4 * (r * (r * 1))) = q1) by (unfold q1; rewrite Er; ring).
  assert (Qp : 0 < q1) by (rewrite <- Q; apply Rmult_lt_0_compat; [lra|]; replace (r * (r * 1)) with (r ^ 2) by ring; exact D).
  assert (Q1 : 0 < 1 + 1 / q1) by (assert (0 < 1 / q1) by (apply Rdiv_lt_0_compat; lra); lra).
  unfold pw92_G. auto_derive.
  - fold s. replace (1 * / (2 * A * (b1 * s + b2 * r + b3 * (r * s) + b4 * (r * (r * 1))))) with (1 / q1) by (rewrite <- Q; reflexivity).
    rewrite Q. repeat split; lra.
  - fold s. rewrite !Q. replace (1 * / q1) with (1 / q1) by (unfold Rdiv; ring). set (L := ln _). unfold d1. replace (/ (2 * s)) with (1 / (2 * s)) by (unfold Rdiv; ring).
    assert (q1 <> 0) by lra. assert (s <> 0) by lra. assert (q1 + 1 <> 0) by lra. rewrite Er. field. repeat split; lra.
Qed.
Lemma gcor2_E A a b1 b2 b3 b4 r s q0 q0' q1 q1' q2 q2' gg gd c0 a' c0' c1 k1 k2 k3 k4 d k2' k3' k4' :
  0 < A -> 0 < b1 -> 0 < b2 -> 0 < b3 -> 0 < b4 -> 0 < r -> s = sqrt r ->
  q0 = c0 * (a' * r + 1) -> q0' = c0' -> q1 = c1 * s * (s * (s * (k4 * s + k3) + k2) + k1) -> q1' = d * (k1 / s + k2' + k3' * s + k4' * r) ->
  q2 = ln (1 / q1 + 1) -> q2' = - q1' / ((1 / q1 + 1) * (q1 * q1)) -> gg = q0 * q2 -> gd = q0 * q2' + q2 * q0' ->
  c0 = - (2 * A) -> a' = a -> c0' = - (2 * A * a) -> c1 = 2 * A -> k1 = b1 -> k2 = b2 -> k3 = b3 -> k4 = b4 -> d = A -> k2' = 2 * b2 -> k3' = 3 * b3 -> k4' = 4 * b4 ->
  gg = pw92_G A a b1 b2 b3 b4 r /\ is_derive (pw92_G A a b1 b2 b3 b4) r gd.
Proof.
  intros HA H1 H2 H3 H4 Hr -> -> -> -> -> -> -> -> -> -> -> -> -> -> -> -> -> -> -> -> ->.
  pose proof (is_pw92_G A a b1 b2 b3 b4 r HA H1 H2 H3 H4 Hr) as D. cbv zeta in D. set (s := sqrt r) in *.
  assert (Er : r = s * s) by (unfold s; rewrite sqrt_sqrt; lra).
  replace (2 * A * s * (s * (s * (b4 * s + b3) + b2) + b1)) with (2 * A * s * (b1 + s * (b2 + s * (b3 + b4 * s)))) by ring.
  rewrite !(Rplus_comm (1 / _) 1). rewrite (Rplus_comm (a * r) 1). split.
  - unfold pw92_G. fold s. replace (2 * A * (b1 * s + b2 * r + b3 * (r * s) + b4 * r ^ 2)) with (2 * A * s * (b1 + s * (b2 + s * (b3 + b4 * s)))) by (rewrite Er; ring). ring.
  - replace (A * (b1 / s + 2 * b2 + 3 * b3 * s + 4 * b4 * r)) with (A * (2 * b2 + b1 / s + 3 * b3 * s + 4 * b4 * r)) by ring. exact D.
Qed.
(** ** The local energies *)
Lemma lda0_E r v : v = -71441 / 2500000 / (889 / 10000 * sqrt r + 1 + 125541 / 1000000 * r) -> v = scan_lda0 r.
Proof.
  intros ->. unfold scan_lda0, scan_b1. replace (889 / 10000 * sqrt r + 1 + 125541 / 1000000 * r) with (1 + 0.0889 * sqrt r + 0.125541 * r) by (decs; lra).
  replace (-71441 / 2500000) with (- 0.0285764) by (decs; lra). decs. unfold Rdiv. ring.
Qed.
Lemma gc_E z d v : d = (Rpower (z + 1) (4 / 3) + Rpower (1 - z) (4 / 3)) / 2 -> v = (1 - 2363 / 1000 * (d - 1)) * (1 - z ^ 12) -> v = scan_gc z.
Proof. intros -> ->. unfold scan_gc, dx_z. rewrite (Rplus_comm z 1). decs. reflexivity. Qed.
Lemma is_lda0 r gc : 0 < r -> is_derive (fun y => scan_lda0 y * gc) r (gc * (889 / 10000 / (2 * sqrt r) + 125541 / 1000000) * (scan_lda0 r * scan_lda0 r) / (71441 / 2500000)).
Proof.
  intro Hr. pose proof (sqrt_lt_R0 r Hr) as S. unfold scan_lda0, scan_b1. decs.
  assert (D : 0 < 1 + 889 / 10000 * sqrt r + 125541 / 1000000 * r) by lra.
  auto_derive; [repeat split; try lra|]. set (s := sqrt r) in *. field. repeat split; lra.
Qed.
Lemma is_lin (Pf Qf Af : R -> R) r p q a k m n : is_derive Pf r p -> is_derive Qf r q -> is_derive Af r a ->
  is_derive (fun y => Pf y + - Af y * k * m + (Qf y - Pf y) * n) r (p + - a * k * m + (q - p) * n).
Proof.
  intros HP HQ HA. apply (is_derive_plus (fun y => Pf y + - Af y * k * m) (fun y => (Qf y - Pf y) * n)).
  - apply (is_derive_plus Pf (fun y => - Af y * k * m)); [exact HP|]. apply (is_derive_ext (fun y => (- (k * m)) * Af y)); [intro t; change (- (k * m) * Af t = - Af t * k * m); ring|].
    replace (- a * k * m) with ((- (k * m)) * a) by ring. now apply is_derive_scal.
  - apply (is_derive_ext (fun y => n * (Qf y - Pf y))); [intro t; change (n * (Qf t - Pf t) = (Qf t - Pf t) * n); ring|]. rewrite (Rmult_comm (q - p) n). apply is_derive_scal. now apply (is_derive_minus Qf Pf).
Qed.
Lemma lsda_E r z z3 z4 f eu ep al du dp da e d :
  eu = pw92_G 0.0310907 0.21370 7.5957 3.5876 1.6382 0.49294 r /\ is_derive (pw92_G 0.0310907 0.21370 7.5957 3.5876 1.6382 0.49294) r du ->
  ep = pw92_G 0.01554535 0.20548 14.1189 6.1977 3.3662 0.62517 r /\ is_derive (pw92_G 0.01554535 0.20548 14.1189 6.1977 3.3662 0.62517) r dp ->
  al = pw92_G 0.0168869 0.11125 10.357 3.6231 0.88026 0.49671 r /\ is_derive (pw92_G 0.0168869 0.11125 10.357 3.6231 0.88026 0.49671) r da ->
  z3 = z ^ 3 -> z4 = z * z3 -> f = (Rpower (z + 1) (4 / 3) + Rpower (1 - z) (4 / 3) - 2) / (1039684199579492659068842429113 / 2000000000000000000000000000000) ->
  e = eu * (1 - f * z4) + ep * f * z4 - al * f * (1 - z4) / (16000000000000000000000000000000 / 9357157796215433931619581862017) ->
  d = (1 - z4 * f) * du + z4 * f * dp - (1 - z4) * f * da / (16000000000000000000000000000000 / 9357157796215433931619581862017) ->
  e = scan_lsda r z /\ Derive (fun y => scan_lsda y z) r = d.
Proof.
  intros [-> Du] [-> Dp] [-> Da] -> -> Ef -> ->.
  assert (F : fz_num z / 0.51984209978974632953442121455650 = f) by (rewrite Ef; unfold fz_num; rewrite (Rplus_comm z 1); decs; field).
  assert (C : 8 / (9 * 0.51984209978974632953442121455650) = 16000000000000000000000000000000 / 9357157796215433931619581862017) by (decs; field).
  split.
  - unfold scan_lsda. cbv zeta. rewrite F, C. generalize (pw92_G 0.0310907 0.21370 7.5957 3.5876 1.6382 0.49294 r) (pw92_G 0.01554535 0.20548 14.1189 6.1977 3.3662 0.62517 r) (pw92_G 0.0168869 0.11125 10.357 3.6231 0.88026 0.49671 r). intros. field.
  - apply is_derive_unique. unfold scan_lsda. cbv zeta. rewrite F, C.
    set (k := f / _).
    replace ((1 - z * z ^ 3 * f) * du + z * z ^ 3 * f * dp - (1 - z * z ^ 3) * f * da / (16000000000000000000000000000000 / 9357157796215433931619581862017)) with (du + - da * k * (1 - z ^ 4) + (dp - du) * (f * z ^ 4)) by (unfold k; field).
    apply (is_derive_ext (fun y => pw92_G 0.0310907 0.21370 7.5957 3.5876 1.6382 0.49294 y + - pw92_G 0.0168869 0.11125 10.357 3.6231 0.88026 0.49671 y * k * (1 - z ^ 4)
      + (pw92_G 0.01554535 0.20548 14.1189 6.1977 3.3662 0.62517 y - pw92_G 0.0310907 0.21370 7.5957 3.5876 1.6382 0.49294 y) * (f * z ^ 4))); [intro; cbv beta; rewrite <- Rmult_assoc; reflexivity|].
    now apply is_lin.
Qed.
Lemma t2_E s r phi : 0 < r -> (sqrt (PI / 4) * Rpower (9 * PI / 4) (1 / 6) * s / (sqrt r * phi)) * (sqrt (PI / 4) * Rpower (9 * PI / 4) (1 / 6) * s / (sqrt r * phi))
  = Rpower (3 * PI ^ 2 / 16) (2 / 3) * s ^ 2 / (phi ^ 2 * r).
Proof.
  intro Hr. pose proof PI_RGT_0 as Hp.
  assert (E : sqrt (PI / 4) ^ 2 * Rpower (9 * PI / 4) (1 / 6) ^ 2 = Rpower (3 * PI ^ 2 / 16) (2 / 3)).
  { rewrite pow2_sqrt by lra. mono. }
  rewrite <- E. replace (phi ^ 2 * r) with ((sqrt r * phi) ^ 2) by (rewrite Rpow_mult_distr, pow2_sqrt by lra; ring). unfold Rdiv. rewrite <- pow_inv. ring.
Qed.

Section S.
Variables (st : nat -> R) (x : nat -> R) (fl : fld -> R).
Hypothesis P : phys fl.
Notation tv := (tv (st : nat -> T ROps) x fl).
Notation V := (tv []).
Ltac red_in E := match type of E with ?l = ?r =>
  let r' := eval cbv -[Rplus Rmult Ropp Rminus Rdiv Rinv Rpower ln exp sqrt PI IZR sqas erfR cbrtR arcsinh atan Rlt_dec Rabs Rmax pow Q2R] in r in change (l = r') in E end.
Ltac hd := match goal with |- Value.tv ?a ?b ?c ?r ?e = ?d => let e' := eval hnf in e in change (Value.tv a b c r e' = d) end.
Tactic Notation "stq" ident(v) ident(E) := hd; apply tv_let; intros v E.
Tactic Notation "stp" ident(v) ident(E) := stq v E; red_in E.
Ltac fin := match goal with |- ?l = ?r =>
  let l' := eval cbv -[Rplus Rmult Ropp Rminus Rdiv Rinv Rpower ln exp sqrt PI IZR sqas erfR cbrtR arcsinh atan Rlt_dec Rabs Rmax pow Q2R] in l in change (l' = r) end.
Ltac auto_stp := repeat (let v := fresh "v" in let E := fresh "E" in stp v E).
Definition b1c : sexp := 0.0285764%sx.
Definition b2c : sexp := 0.0889%sx.
Definition b3c : sexp := 0.125541%sx.
Definition iec : list sexp := [1.0; - 0.64; - 0.4352; - 1.535685604549; 3.061560252175; - 1.915710236206; 0.516884468372; - 0.051848879792]%sx.
Lemma ec0_E r er es ez rs s z : tv r er = rs -> (forall y, tv (("SCAN_eps_scan_ec0.rs"%string, y) :: r) es = s) -> (forall y y', tv (("SCAN_eps_scan_ec0.s"%string, y') :: ("SCAN_eps_scan_ec0.rs"%string, y) :: r) ez = z) ->
  tv r (SCAN_eps_scan_ec0 er es ez b1c b2c b3c) = scan_ec0 rs (s ^ 2) z.
Proof.
  intros Hr Hs Hz. stq v1 H1. rewrite Hr in H1. subst v1. stq v2 H2. rewrite Hs in H2. subst v2. stq v2 H2. rewrite Hz in H2. subst v2.
  auto_stp. fin. apply lda0_E in E. apply (gc_E _ _ _ E0) in E1. subst v4 v3 v2 v1 v. unfold scan_ec0. cbv zeta. unfold scan_b1.
  replace (- scan_lda0 rs / (71441 / 2500000)) with (- (scan_lda0 rs / 0.0285764)) by (decs; field).
  replace (2560517052525163 / 5000000000000000 * s * s + 1) with (1 + 4 * 0.12802585262625815 * s ^ 2) by (decs; field).
  replace (71441 / 2500000) with 0.0285764 by (decs; lra). rewrite (Rplus_comm _ 1). unfold Rdiv. rewrite (Rmult_1_l (/ Rpower _ _)). reflexivity.
Qed.
Lemma s1c_E : 0 + -16 / 25 + -544 / 625 + -4607056813647 / 1000000000000 + 122462410087 / 10000000000 + -957855118103 / 100000000000 + 387663351279 / 125000000000 + -22683884909 / 62500000000 = slope1 rscan_cc.
Proof. rewrite slope1_E. unfold rscan_cc, dpoly, poly. decs. field. Qed.
Lemma w1_E r z p3 e w : e = scan_lsda r z -> p3 = pbe_phi z ^ 3 -> w = exp (- e / (6218138173931 / 200000000000000 * p3)) - 1 -> w = scan_w1 r z.
Proof.
  intros -> -> ->. unfold scan_w1, scan_gamma. replace 0.031090690869655 with (6218138173931 / 200000000000000) by (decs; lra). do 2 f_equal. unfold Rdiv. ring.
Qed.
Lemma y_E r s z w t b v : 0 < r -> w = scan_w1 r z -> t = sqrt (PI / 4) * Rpower (9 * PI / 4) (1 / 6) * s / (sqrt r * pbe_phi z) -> b = 2669 / 40000 * (1 / 10 * r + 1) / (889 / 5000 * r + 1) ->
  v = b / (6218138173931 / 200000000000000 * w) * (t * t) -> v = scan_y r (s ^ 2) z.
Proof.
  intros Hr -> -> -> ->. rewrite (t2_E s r _ Hr). unfold scan_y. cbv zeta. f_equal. unfold scan_gamma.
  replace 0.031090690869655 with (6218138173931 / 200000000000000) by (decs; lra). f_equal. f_equal; decs; lra.
Qed.
Lemma phi_E z v : v = (Rpower (z + 1) (2 / 3) + Rpower (1 - z) (2 / 3)) / 2 -> v = pbe_phi z.
Proof. intros ->. unfold pbe_phi. now rewrite (Rplus_comm z 1). Qed.
Lemma ec1_fin dy r s z e w y d g h p3 : e = scan_lsda r z -> p3 = pbe_phi z ^ 3 -> w = scan_w1 r z -> y = scan_y r (s ^ 2) z -> d = dy r (s ^ 2) z ->
  g = 1 / Rpower (4 * (y - d) + 1) (1 / 4) -> h = 6218138173931 / 200000000000000 * p3 * ln (w * (1 - g) + 1) -> e + h = scan_ec1 dy r (s ^ 2) z.
Proof.
  intros -> -> -> -> -> -> ->. unfold scan_ec1. cbv zeta. unfold scan_gamma. replace 0.031090690869655 with (6218138173931 / 200000000000000) by (decs; lra).
  rewrite (Rplus_comm _ 1), (Rplus_comm (4 * _) 1). unfold Rdiv. rewrite (Rmult_1_l (/ Rpower _ _)). reflexivity.
Qed.
Lemma dy_E r s z : 0 < r ->
  slope1 rscan_cc / (167889730696137 / 200000000000000 * ((Rpower (z + 1) (5 / 3) + Rpower (1 - z) (5 / 3)) / 2) * pbe_phi z ^ 3 * scan_w1 r z)
  * (20 * r * (scan_gc z * (889 / 10000 / (2 * sqrt r) + 125541 / 1000000) * (scan_lda0 r * scan_lda0 r) / (71441 / 2500000) - Derive (fun y => scan_lsda y z) r)
     - 9 / 200 * (scan_lda0 r * scan_gc z - scan_lsda r z)) * (s * s) * exp (- (s * s * (s * s)) / (361 / 1000) ^ 4) = r2_dy r (s ^ 2) z.
Proof.
  intro Hr. unfold r2_dy. assert (Q : Derive (fun y : R => scan_lda0 y * scan_gc z) r = scan_gc z * (889 / 10000 / (2 * sqrt r) + 125541 / 1000000) * (scan_lda0 r * scan_lda0 r) / (71441 / 2500000)) by exact (is_derive_unique _ _ _ (is_lda0 r (scan_gc z) Hr)). rewrite Q. clear Q. unfold ds_z, scan_gamma. rewrite (Rplus_comm z 1).
  replace (- ((s ^ 2) ^ 2 / 0.361 ^ 4)) with (- (s * s * (s * s)) / (361 / 1000) ^ 4) by (decs; field).
  replace (27 * 0.031090690869655) with (167889730696137 / 200000000000000) by (decs; lra).
  replace (45 * 0.001) with (9 / 200) by (decs; lra). replace (s ^ 2) with (s * s) by ring. reflexivity.
Qed.
Ltac lit := decs; lra.
Tactic Notation "g2" hyp(E3) hyp(a) hyp(b) hyp(c) hyp(d) hyp(e) hyp(f) hyp(g) hyp(h) :=
  eapply gcor2_E with (7 := E3) (8 := a) (9 := b) (10 := c) (11 := d) (12 := e) (13 := f) (14 := g) (15 := h); first [assumption | lit].
Lemma ec1_0 r er es ez rs s z : tv r er = rs -> (forall y, tv (("SCAN_eps_scan_ec1.rs"%string, y) :: r) es = s) -> (forall y y', tv (("SCAN_eps_scan_ec1.s"%string, y') :: ("SCAN_eps_scan_ec1.rs"%string, y) :: r) ez = z) -> 0 < rs ->
  tv r (SCAN_eps_scan_ec1 er es ez iec (1.0e-3)%sx b1c b2c b3c 0) = scan_ec1 no_dy rs (s ^ 2) z.
Proof.
  intros Hr Hs Hz Pos. stq v1 H1. rewrite Hr in H1. subst v1. stq v2 H2. rewrite Hs in H2. subst v2. stq v2 H2. rewrite Hz in H2. subst v2.
  auto_stp. fin. subst v7 v8 v9 v12 v13 v24 v25 v36 v37.
  apply lda0_E in E4. apply (gc_E _ _ _ E) in E0. apply phi_E in E1. rewrite E1 in E2, E51.
  assert (Gu : v20 = pw92_G 0.0310907 0.21370 7.5957 3.5876 1.6382 0.49294 rs /\ is_derive (pw92_G 0.0310907 0.21370 7.5957 3.5876 1.6382 0.49294) rs v21) by g2 E3 E14 E15 E16 E17 E18 E19 E20 E21.
  assert (Gp : v32 = pw92_G 0.01554535 0.20548 14.1189 6.1977 3.3662 0.62517 rs /\ is_derive (pw92_G 0.01554535 0.20548 14.1189 6.1977 3.3662 0.62517) rs v33) by g2 E3 E26 E27 E28 E29 E30 E31 E32 E33.
  assert (Ga : v44 = pw92_G 0.0168869 0.11125 10.357 3.6231 0.88026 0.49671 rs /\ is_derive (pw92_G 0.0168869 0.11125 10.357 3.6231 0.88026 0.49671) rs v45) by g2 E3 E38 E39 E40 E41 E42 E43 E44 E45.
  destruct (lsda_E rs z _ _ _ _ _ _ _ _ _ _ _ Gu Gp Ga E46 E47 E48 E49 E50) as [L D].
  pose proof (w1_E rs z _ _ _ L E2 E52) as W. rewrite E3 in E51. pose proof (y_E rs s z _ _ _ _ Pos W E51 E53 E54) as Y.
  eapply (ec1_fin no_dy rs s z); first [eassumption | reflexivity].
Qed.
Lemma ec1_d (i : nat) r er es ez rs s z : i = 1%nat \/ i = 2%nat -> tv r er = rs -> (forall y, tv (("SCAN_eps_scan_ec1.rs"%string, y) :: r) es = s) -> (forall y y', tv (("SCAN_eps_scan_ec1.s"%string, y') :: ("SCAN_eps_scan_ec1.rs"%string, y) :: r) ez = z) -> 0 < rs ->
  tv r (SCAN_eps_scan_ec1 er es ez iec (1.0e-3)%sx b1c b2c b3c i) = scan_ec1 r2_dy rs (s ^ 2) z.
Proof.
  intros Hi Hr Hs Hz Pos. assert (I1 : Nat.eqb i 0 = false) by (destruct Hi as [-> | ->]; reflexivity). assert (I2 : orb (Nat.eqb i 1) (Nat.eqb i 2) = true) by (destruct Hi as [-> | ->]; reflexivity).
  transitivity (tv r (SCAN_eps_scan_ec1 er es ez iec (1.0e-3)%sx b1c b2c b3c 1)); [unfold SCAN_eps_scan_ec1; rewrite I1, I2; reflexivity|clear i Hi I1 I2].
  stq v1 H1. rewrite Hr in H1. subst v1. stq v2 H2. rewrite Hs in H2. subst v2. stq v2 H2. rewrite Hz in H2. subst v2.
  auto_stp. fin. subst v7 v8 v9 v12 v13 v24 v25 v36 v37.
  apply lda0_E in E4. apply (gc_E _ _ _ E) in E0. apply phi_E in E1. rewrite E1 in E2, E51.
  assert (Gu : v20 = pw92_G 0.0310907 0.21370 7.5957 3.5876 1.6382 0.49294 rs /\ is_derive (pw92_G 0.0310907 0.21370 7.5957 3.5876 1.6382 0.49294) rs v21) by g2 E3 E14 E15 E16 E17 E18 E19 E20 E21.
  assert (Gp : v32 = pw92_G 0.01554535 0.20548 14.1189 6.1977 3.3662 0.62517 rs /\ is_derive (pw92_G 0.01554535 0.20548 14.1189 6.1977 3.3662 0.62517) rs v33) by g2 E3 E26 E27 E28 E29 E30 E31 E32 E33.
  assert (Ga : v44 = pw92_G 0.0168869 0.11125 10.357 3.6231 0.88026 0.49671 rs /\ is_derive (pw92_G 0.0168869 0.11125 10.357 3.6231 0.88026 0.49671) rs v45) by g2 E3 E38 E39 E40 E41 E42 E43 E44 E45.
  destruct (lsda_E rs z _ _ _ _ _ _ _ _ _ _ _ Gu Gp Ga E46 E47 E48 E49 E50) as [L D].
  pose proof (w1_E rs z _ _ _ L E2 E52) as W. rewrite E3 in E51. pose proof (y_E rs s z _ _ _ _ Pos W E51 E53 E54) as Y.
  assert (DY : v73 = r2_dy rs (s ^ 2) z).
  { assert (S1 : v65 = slope1 rscan_cc) by (rewrite <- s1c_E; subst v65 v64 v63 v62 v61 v60 v59 v58; reflexivity). rewrite E3, E4, E0 in E67. rewrite E4, E0 in E66. rewrite L in E70.
    rewrite E73, E71, E72, E56. rewrite E69, E70, E68. rewrite S1, E67, E66, E57, E2, W, <- D. apply dy_E; assumption. }
  eapply (ec1_fin r2_dy rs s z); first [eassumption | reflexivity].
Qed.
Lemma ec1_1 r er es ez rs s z : tv r er = rs -> (forall y, tv (("SCAN_eps_scan_ec1.rs"%string, y) :: r) es = s) -> (forall y y', tv (("SCAN_eps_scan_ec1.s"%string, y') :: ("SCAN_eps_scan_ec1.rs"%string, y) :: r) ez = z) -> 0 < rs ->
  tv r (SCAN_eps_scan_ec1 er es ez iec (1.0e-3)%sx b1c b2c b3c 1) = scan_ec1 r2_dy rs (s ^ 2) z.
Proof. apply ec1_d. now left. Qed.
Lemma ec1_2 r er es ez rs s z : tv r er = rs -> (forall y, tv (("SCAN_eps_scan_ec1.rs"%string, y) :: r) es = s) -> (forall y y', tv (("SCAN_eps_scan_ec1.s"%string, y') :: ("SCAN_eps_scan_ec1.rs"%string, y) :: r) ez = z) -> 0 < rs ->
  tv r (SCAN_eps_scan_ec1 er es ez iec (1.0e-3)%sx b1c b2c b3c 2) = scan_ec1 r2_dy rs (s ^ 2) z.
Proof. apply ec1_d. now right. Qed.
(** ** The functionals *)
Definition scf_c (alpha : R -> R -> R -> R -> R) (u : R -> R) (f : R -> R) (dy : R -> R -> R -> R) : R :=
  let n := fl f_n in let z := fl f_zeta in let p := red2 n (fl f_gnn) in let a := alpha (u n * ds_z z) n (fl f_gnn) (fl f_tau) in
  n * (scan_ec1 dy (rs n) p z + f a * (scan_ec0 (rs n) p z - scan_ec1 dy (rs n) p z)).
Lemma rs_E n r : 0 < n -> r = Rpower (4 * PI * n / 3) (-1 / 3) -> r = rs n /\ 0 < r.
Proof.
  intros N ->. split; [|apply exp_pos]. unfold rs. pose proof PI_RGT_0. mono.
Qed.
Lemma s_E n g s : 0 < n -> 0 <= g -> s = sqrt g / (2 * Rpower (3 * (PI * PI)) (1 / 3) * Rpower n (4 / 3)) -> s ^ 2 = red2 n g.
Proof.
  intros N G ->. rewrite <- p_E by exact N. unfold Rdiv. rewrite Rpow_mult_distr, pow2_sqrt by exact G. f_equal. rewrite pow_inv, Rmult_1_l. f_equal. mono.
Qed.
Lemma ds_E z d : d = (Rpower (z + 1) (5 / 3) + Rpower (1 - z) (5 / 3)) / 2 -> d = ds_z z.
Proof. intros ->. unfold ds_z. now rewrite (Rplus_comm z 1). Qed.
Lemma fc_scan_E a o : o = 1 - a -> (if Rlt_dec a 1 then exp (-16 / 25 * a / o) else -7 / 10 * exp (3 / 2 / o)) = fc_scan a.
Proof. intro E. apply scan_ie; [exact E|decs; lra|decs; lra|decs; lra]. Qed.
Lemma fc_rscan_E a o i0 : o = 1 - a -> i0 = 0 -> off_zero a -> (if Rlt_dec a (1 / 10000000000000)
         then exp (-16 / 25 * a / o)
         else
          if Rlt_dec a (5 / 2)
          then
           i0 + 1 * 1 + -16 / 25 * a ^ 1 + -272 / 625 * a ^ 2 +
           -1535685604549 / 1000000000000 * a ^ 3 +
           122462410087 / 40000000000 * a ^ 4 +
           -957855118103 / 500000000000 * a ^ 5 +
           129221117093 / 250000000000 * a ^ 6 +
           -3240554987 / 62500000000 * a ^ 7
          else -7 / 10 * exp (3 / 2 / o)) = fc_rscan a.
Proof.
  intros E -> Z. apply rscan_ie; [exact E|decs; lra|decs; lra|decs; lra|exact Z|]. unfold rscan_cc, poly. decs. field.
Qed.
Lemma k_scanc : off_orbital (fl f_n) (fl f_gnn) (fl f_tau) -> V SCANc_SCANC = scf_c alpha_scan tf fc_scan no_dy.
Proof.
  intros O. assert (N : 0 < fl f_n) by (rewrite (ph_n _ P); pose proof (ph_a _ P); pose proof (ph_b _ P); lra). pose proof (ph_gnn _ P) as G. stq e Ee. fin. subst e.
  stp r Er. stp r0 Er0. stp r1 Er1. stp d Ed. stp s Es. stp t Et. stp u0 Eu0. stp u1 Eu1. stp w Ew. stp a0 Ea0. stp a Ea. stp o Eo. stp f0 Ef0. stp f Ef.
  stq e0 Ee0. stq e1 Ee1. stp e2 Ee2. fin. destruct (rs_E _ _ N Er) as [R Rp]. apply (s_E _ _ _ N G) in Es. apply ds_E in Ed.
  rewrite (ec0_E _ _ _ _ r s (fl f_zeta)) in Ee0 by (reflexivity || (intros; reflexivity)). rewrite (ec1_0 _ _ _ _ r s (fl f_zeta)) in Ee1 by (exact Rp || reflexivity || (intros; reflexivity)).
  assert (A : a = alpha_scan (tf (fl f_n) * ds_z (fl f_zeta)) (fl f_n) (fl f_gnn) (fl f_tau)) by (rewrite Ea, Ew; unfold off_orbital in O; rewrite lt_if by (eapply Rle_lt_trans; [|exact O]; lra); rewrite Eu1, Et, tf_E, Ed; reflexivity). apply (fun Q => eq_trans Q (fc_scan_E a o Eo)) in Ef.
  rewrite Ee2, Ee1, Ee0, Ef, A, Es, R. unfold scf_c. cbv zeta. ring.
Qed.
Lemma k_rscanc : off_zero (alpha_rscan (tf_r (fl f_n) * ds_z (fl f_zeta)) (fl f_n) (fl f_gnn) (fl f_tau)) -> V rSCANc_rSCANC = scf_c alpha_rscan tf_r fc_rscan no_dy.
Proof.
  intros Z. assert (N : 0 < fl f_n) by (rewrite (ph_n _ P); pose proof (ph_a _ P); pose proof (ph_b _ P); lra). pose proof (ph_gnn _ P) as G. stq e Ee. fin. subst e.
  stp r Er. stp r0 Er0. stp r1 Er1. stp d Ed. stp s Es. stp t Et. stp u0 Eu0. stp u1 Eu1. stp w Ew. stp a0 Ea0. stp a Ea. stp o Eo. stp f0 Ef0. stp f Ef.
  stq e0 Ee0. stq e1 Ee1. stp e2 Ee2. fin. destruct (rs_E _ _ N Er) as [R Rp]. apply (s_E _ _ _ N G) in Es. apply ds_E in Ed.
  rewrite (ec0_E _ _ _ _ r s (fl f_zeta)) in Ee0 by (reflexivity || (intros; reflexivity)). rewrite (ec1_0 _ _ _ _ r s (fl f_zeta)) in Ee1 by (exact Rp || reflexivity || (intros; reflexivity)).
  assert (A : a = alpha_rscan (tf_r (fl f_n) * ds_z (fl f_zeta)) (fl f_n) (fl f_gnn) (fl f_tau)) by (rewrite Ea, Ew, Eu1, Et, tf_E, Ed; unfold alpha_rscan, alpha_scan, tf_r; replace 0.001 with (1 / 1000) by (decs; lra); replace 0.0001 with (1 / 10000) by (decs; lra); unfold Rdiv; f_equal; f_equal; f_equal; ring). assert (Za : off_zero a) by (rewrite A; exact Z). apply (fun Q => eq_trans Q (fc_rscan_E a o f0 Eo Ef0 Za)) in Ef.
  rewrite Ee2, Ee1, Ee0, Ef, A, Es, R. unfold scf_c. cbv zeta. ring.
Qed.
Lemma k_rppscanc : off_orbital (fl f_n) (fl f_gnn) (fl f_tau) -> off_zero (alpha_r2scan (tf (fl f_n) * ds_z (fl f_zeta)) (fl f_n) (fl f_gnn) (fl f_tau)) -> V rppSCANc_rppSCANC = scf_c alpha_r2scan tf fc_rscan no_dy.
Proof.
  intros O Z. assert (N : 0 < fl f_n) by (rewrite (ph_n _ P); pose proof (ph_a _ P); pose proof (ph_b _ P); lra). pose proof (ph_gnn _ P) as G. stq e Ee. fin. subst e.
  stp r Er. stp r0 Er0. stp r1 Er1. stp d Ed. stp s Es. stp t Et. stp u0 Eu0. stp u1 Eu1. stp w Ew. stp a0 Ea0. stp a Ea. stp o Eo. stp f0 Ef0. stp f Ef.
  stq e0 Ee0. stq e1 Ee1. stp e2 Ee2. fin. destruct (rs_E _ _ N Er) as [R Rp]. apply (s_E _ _ _ N G) in Es. apply ds_E in Ed.
  rewrite (ec0_E _ _ _ _ r s (fl f_zeta)) in Ee0 by (reflexivity || (intros; reflexivity)). rewrite (ec1_0 _ _ _ _ r s (fl f_zeta)) in Ee1 by (exact Rp || reflexivity || (intros; reflexivity)).
  assert (A : a = alpha_r2scan (tf (fl f_n) * ds_z (fl f_zeta)) (fl f_n) (fl f_gnn) (fl f_tau)) by (rewrite Ea, Ew; unfold off_orbital in O; rewrite lt_if by (eapply Rle_lt_trans; [|exact O]; lra); rewrite Eu1, Et, tf_E, Ed; unfold alpha_r2scan; replace 0.001 with (1 / 1000) by (decs; lra); reflexivity). assert (Za : off_zero a) by (rewrite A; exact Z). apply (fun Q => eq_trans Q (fc_rscan_E a o f0 Eo Ef0 Za)) in Ef.
  rewrite Ee2, Ee1, Ee0, Ef, A, Es, R. unfold scf_c. cbv zeta. ring.
Qed.
Lemma k_r2scanc : off_orbital (fl f_n) (fl f_gnn) (fl f_tau) -> off_zero (alpha_r2scan (tf (fl f_n) * ds_z (fl f_zeta)) (fl f_n) (fl f_gnn) (fl f_tau)) -> V r2SCANc_r2SCANC = scf_c alpha_r2scan tf fc_rscan r2_dy.
Proof.
  intros O Z. assert (N : 0 < fl f_n) by (rewrite (ph_n _ P); pose proof (ph_a _ P); pose proof (ph_b _ P); lra). pose proof (ph_gnn _ P) as G. stq e Ee. fin. subst e.
  stp r Er. stp r0 Er0. stp r1 Er1. stp d Ed. stp s Es. stp t Et. stp u0 Eu0. stp u1 Eu1. stp w Ew. stp a0 Ea0. stp a Ea. stp o Eo. stp f0 Ef0. stp f Ef.
  stq e0 Ee0. stq e1 Ee1. stp e2 Ee2. fin. destruct (rs_E _ _ N Er) as [R Rp]. apply (s_E _ _ _ N G) in Es. apply ds_E in Ed.
  rewrite (ec0_E _ _ _ _ r s (fl f_zeta)) in Ee0 by (reflexivity || (intros; reflexivity)). rewrite (ec1_1 _ _ _ _ r s (fl f_zeta)) in Ee1 by (exact Rp || reflexivity || (intros; reflexivity)).
  assert (A : a = alpha_r2scan (tf (fl f_n) * ds_z (fl f_zeta)) (fl f_n) (fl f_gnn) (fl f_tau)) by (rewrite Ea, Ew; unfold off_orbital in O; rewrite lt_if by (eapply Rle_lt_trans; [|exact O]; lra); rewrite Eu1, Et, tf_E, Ed; unfold alpha_r2scan; replace 0.001 with (1 / 1000) by (decs; lra); reflexivity). assert (Za : off_zero a) by (rewrite A; exact Z). apply (fun Q => eq_trans Q (fc_rscan_E a o f0 Eo Ef0 Za)) in Ef.
  rewrite Ee2, Ee1, Ee0, Ef, A, Es, R. unfold scf_c. cbv zeta. ring.
Qed.
Lemma k_r4scanc : off_orbital (fl f_n) (fl f_gnn) (fl f_tau) -> off_zero (alpha_r2scan (tf (fl f_n) * ds_z (fl f_zeta)) (fl f_n) (fl f_gnn) (fl f_tau)) -> V r4SCANc_r4SCANC = scf_c alpha_r2scan tf fc_rscan r2_dy.
Proof.
  intros O Z. assert (N : 0 < fl f_n) by (rewrite (ph_n _ P); pose proof (ph_a _ P); pose proof (ph_b _ P); lra). pose proof (ph_gnn _ P) as G. stq e Ee. fin. subst e.
  stp r Er. stp r0 Er0. stp r1 Er1. stp d Ed. stp s Es. stp t Et. stp u0 Eu0. stp u1 Eu1. stp w Ew. stp a0 Ea0. stp a Ea. stp o Eo. stp f0 Ef0. stp f Ef.
  stq e0 Ee0. stq e1 Ee1. stp e2 Ee2. fin. destruct (rs_E _ _ N Er) as [R Rp]. apply (s_E _ _ _ N G) in Es. apply ds_E in Ed.
  rewrite (ec0_E _ _ _ _ r s (fl f_zeta)) in Ee0 by (reflexivity || (intros; reflexivity)). rewrite (ec1_2 _ _ _ _ r s (fl f_zeta)) in Ee1 by (exact Rp || reflexivity || (intros; reflexivity)).
  assert (A : a = alpha_r2scan (tf (fl f_n) * ds_z (fl f_zeta)) (fl f_n) (fl f_gnn) (fl f_tau)) by (rewrite Ea, Ew; unfold off_orbital in O; rewrite lt_if by (eapply Rle_lt_trans; [|exact O]; lra); rewrite Eu1, Et, tf_E, Ed; unfold alpha_r2scan; replace 0.001 with (1 / 1000) by (decs; lra); reflexivity). assert (Za : off_zero a) by (rewrite A; exact Z). apply (fun Q => eq_trans Q (fc_rscan_E a o f0 Eo Ef0 Za)) in Ef.
  rewrite Ee2, Ee1, Ee0, Ef, A, Es, R. unfold scf_c. cbv zeta. ring.
Qed.
End S.
