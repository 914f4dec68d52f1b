(** * r2SCAN and r4SCAN correlation are defined
    The gradient expansion correction of SCAN_like_eps.hpp 419-448 stays small enough to keep the
    arguments of the fourth root and of the logarithm positive. *)
From Coq Require Import Reals QArith Qreals ZArith Arith Lia Lra Psatz List Bool String.
From Coquelicot Require Import Coquelicot.
From Verif Require BrReal.
From Verif Require Import Scalar RInst Tables Br Expr Functionals RSem Itv Dom Phys Safe Pw92 Value Published PubTac PubX PubC Oblig Safe2 Vwn Safe3 Scan2.
Import ListNotations.
Local Open Scope R_scope.

Lemma gcord_lit A a b1 b2 b3 b4 c d a' e b1' b2' b3' b4' c1 c2 c3 c4 c5 s r : 0 < A -> 0 < b1 -> 0 < b2 -> 0 < b3 -> 0 < b4 -> 0 < s -> r = s * s ->
  c = - (2 * A) -> d = 2 * A -> a' = a -> e = A -> b1' = b1 -> b2' = 2 * b2 -> b3' = 3 * b3 -> b4' = 4 * b4 -> c1 = b1 -> c2 = b2 -> c3 = b3 -> c4 = b4 -> c5 = - (2 * A) * a ->
  c * (a' * r + 1) * (- (e * (b1' / s + b2' + b3' * s + b4' * r)) / ((1 / (d * s * (s * (s * (c4 * s + c3) + c2) + c1)) + 1) * ((d * s * (s * (s * (c4 * s + c3) + c2) + c1)) * (d * s * (s * (s * (c4 * s + c3) + c2) + c1)))))
   + ln (1 / (d * s * (s * (s * (c4 * s + c3) + c2) + c1)) + 1) * c5 = Scan2.Gd A a b1 b2 b3 b4 s.
Proof.
  intros HA P1 P2 P3 P4 Hs -> -> -> -> -> -> -> -> -> -> -> -> -> ->. unfold Scan2.Gd. destruct (Gpos A 1 b1 b2 b3 b4 s) as [B _]; try lra.
  replace (2 * A * s * (s * (s * (b4 * s + b3) + b2) + b1)) with (2 * A * Bpoly b1 b2 b3 b4 s) by (unfold Bpoly; ring).
  replace (1 / (2 * A * Bpoly b1 b2 b3 b4 s) + 1) with (1 + / 2 / (A * Bpoly b1 b2 b3 b4 s)) by (field; lra).
  set (l := ln _). set (B' := Bpoly b1 b2 b3 b4 s) in *. clearbody l B'. field. repeat split; try lra.
  assert (0 < A * B') by now apply Rmult_lt_0_compat. lra.
Qed.
(** ** Spin factors *)
Lemma cube_root v : 0 < v -> exists u, 0 < u /\ u * u * u = v /\ Rpower v (2 / 3) = u * u /\ Rpower v (5 / 3) = u * u * (u * u) * u.
Proof.
  intro H. exists (Rpower v (1 / 3)). split; [apply exp_pos|]. rewrite <- !Rpower_plus. replace (1 / 3 + 1 / 3 + 1 / 3) with 1 by field. repeat split.
  - now apply Rpower_1.
  - f_equal; field.
  - f_equal; field.
Qed.
Lemma spin_factors z : -1 < z < 1 ->
  let phi := (Rpower (z + 1) (2 / 3) + Rpower (1 - z) (2 / 3)) / 2 in let ds := (Rpower (z + 1) (5 / 3) + Rpower (1 - z) (5 / 3)) / 2 in
  0 < phi <= 1 /\ / 2 <= phi ^ 3 /\ 1 <= ds.
Proof.
  intros Hz phi ds. destruct (cube_root (z + 1) ltac:(lra)) as (u & U0 & U3 & U2 & U5). destruct (cube_root (1 - z) ltac:(lra)) as (v & V0 & V3 & V2 & V5).
  unfold phi, ds. rewrite U2, V2, U5, V5. assert (S : u * u * u + v * v * v = 2) by lra. clear U2 V2 U5 V5 U3 V3 phi ds.
  assert (Q2 : forall a, 0 < a -> 0 <= 2 * (a * a * a) - 3 * (a * a) + 1). { intros a A0. replace (2 * (a * a * a) - 3 * (a * a) + 1) with ((a - 1) * (a - 1) * (2 * a + 1)) by ring. apply Rmult_le_pos; [apply Rle_0_sqr|lra]. }
  assert (Q5 : forall a, 0 < a -> 0 <= 3 * (a * a * (a * a) * a) - 5 * (a * a * a) + 2). { intros a A0. replace (3 * (a * a * (a * a) * a) - 5 * (a * a * a) + 2) with ((a - 1) * (a - 1) * (3 * (a * a * a) + 6 * (a * a) + 4 * a + 2)) by ring. apply Rmult_le_pos; [apply Rle_0_sqr|]. assert (0 < a * a) by nra. assert (0 < a * a * a) by nra. lra. }
  pose proof (Q2 u U0). pose proof (Q2 v V0). pose proof (Q5 u U0). pose proof (Q5 v V0). assert (UU : 0 < u * u) by nra. assert (VV : 0 < v * v) by nra. split; [split; lra|]. split; [|lra].
  assert (G : (u * u * u + v * v * v) * (u * u * u + v * v * v) <= (u * u + v * v) ^ 3).
  { assert (0 <= u * u * (v * v) * (3 * (u * u) - 2 * (u * v) + 3 * (v * v))) by (apply Rmult_le_pos; [apply Rmult_le_pos; lra|]; assert (0 <= (u - v) * (u - v)) by apply Rle_0_sqr; lra). lra. }
  rewrite S in G. replace (((u * u + v * v) / 2) ^ 3) with ((u * u + v * v) ^ 3 / 8) by field. lra.
Qed.
Lemma AF_lo : 1.417 <= PI / 4 * Rpower (9 * PI / 4) (1 / 3).
Proof.
  pose proof PI2_3_2 as H. assert (P3 : 3 < PI) by (unfold PI2 in *; lra).
  assert (R : 1.8895 <= Rpower (9 * PI / 4) (1 / 3)).
  { replace 1.8895 with (Rpower (1.8895 * 1.8895 * 1.8895) (1 / 3)). - apply Rle_Rpower_l; [lra|]. split; lra.
    - unfold Rpower. rewrite !ln_mult by lra. replace (1 / 3 * (ln 1.8895 + ln 1.8895 + ln 1.8895)) with (ln 1.8895) by field. apply exp_ln. lra. }
  assert (0.75 * 1.8895 <= PI / 4 * Rpower (9 * PI / 4) (1 / 3)) by (apply Rmult_le_compat; lra). lra.
Qed.
(** ** The two arguments *)
Definition k_fzz : R := 9357157796215433931619581862017 / 16000000000000000000000000000000.
Theorem scan2_ok r s z q e1 d1 f gc phi p3 e0 t w beta y ds f2 d0 K h dy :
  0 < r -> s = sqrt r -> -1 < z < 1 ->
  f = (Rpower (z + 1) (4 / 3) + Rpower (1 - z) (4 / 3) - 2) / (1039684199579492659068842429113 / 2000000000000000000000000000000) ->
  e1 = - Eu s f (z * z ^ 3) k_fzz -> r * d1 = Du s f (z * z ^ 3) k_fzz ->
  gc = (1 - 2363 / 1000 * ((Rpower (z + 1) (4 / 3) + Rpower (1 - z) (4 / 3)) / 2 - 1)) * (1 - z ^ 12) ->
  phi = (Rpower (z + 1) (2 / 3) + Rpower (1 - z) (2 / 3)) / 2 -> p3 = phi ^ 3 ->
  ds = (Rpower (z + 1) (5 / 3) + Rpower (1 - z) (5 / 3)) / 2 ->
  e0 = -71441 / 2500000 / (889 / 10000 * s + 1 + 125541 / 1000000 * r) ->
  t = sqrt (PI / 4) * Rpower (9 * PI / 4) (1 / 6) * q / (s * phi) ->
  w = exp (- e1 / (6218138173931 / 200000000000000 * p3)) - 1 ->
  beta = 2669 / 40000 * (1 / 10 * r + 1) / (889 / 5000 * r + 1) ->
  y = beta / (6218138173931 / 200000000000000 * w) * (t * t) ->
  f2 = 0 + -16 / 25 + -544 / 625 + -4607056813647 / 1000000000000 + 122462410087 / 10000000000 + -957855118103 / 100000000000 + 387663351279 / 125000000000 + -22683884909 / 62500000000 ->
  d0 = gc * (889 / 10000 / (2 * s) + 125541 / 1000000) * (e0 * e0) / (71441 / 2500000) ->
  K = f2 / (167889730696137 / 200000000000000 * ds * p3 * w) * (20 * r * (d0 - d1) - 9 / 200 * (e0 * gc - e1)) ->
  h = exp (- (q * q * (q * q)) / (361 / 1000) ^ 4) -> dy = K * (q * q) * h ->
  0 < 4 * (y - dy) + 1 /\ 0 < w * (1 - 1 / Rpower (4 * (y - dy) + 1) (1 / 4)) + 1.
Proof.
  intros Hr Es Hz Ef E1 D1 Egc Eph Ep3 Eds Ee0 Et Ew Eb Ey Ef2 Ed0 EK Eh Edy.
  assert (Hs : 0 < s) by (subst s; now apply sqrt_lt_R0). assert (Err : r = s * s) by (subst s; symmetry; apply sqrt_sqrt; lra).
  pose proof (fz_num_range z Hz) as F. unfold fz_num in F. rewrite (Rplus_comm 1 z) in F. pose proof cbrt2_fine as C. pose proof (z4_range z Hz) as Z4.
  assert (Hq : 0 <= z * z ^ 3 <= 1) by (replace (z * z ^ 3) with (z ^ 4) by ring; exact Z4).
  set (nu := Rpower (z + 1) (4 / 3) + Rpower (1 - z) (4 / 3) - 2) in *.
  assert (Hf : 0 <= f <= 1.001) by (rewrite Ef; split; [apply Rmult_le_pos; lra|lra]). assert (Hk : 0 <= k_fzz <= 0.5851) by (unfold k_fzz; lra).
  destruct (u_E s f (z * z ^ 3) k_fzz Hs Hf Hq Hk) as [HE HD].
  pose proof (u_small s f (z * z ^ 3) k_fzz Hs Hf Hq Hk) as Sm. pose proof (u_large s f (z * z ^ 3) k_fzz Hs Hf Hq Hk) as La.
  set (E := Eu s f (z * z ^ 3) k_fzz) in *. set (D := Du s f (z * z ^ 3) k_fzz) in *. clearbody E D. rewrite <- Err in Sm, La.
  destruct (spin_factors z Hz) as (Hph & Hp3 & Hds). cbv zeta in Hph, Hp3, Hds. rewrite <- Eph in Hph, Hp3. rewrite <- Ep3 in Hp3. rewrite <- Eds in Hds.
  assert (Hgc : 0 <= gc).
  { rewrite Egc. apply Rmult_le_pos. - replace (Rpower (z + 1) (4 / 3) + Rpower (1 - z) (4 / 3)) with (nu + 2) by (unfold nu; ring). lra.
    - replace (z ^ 12) with (z ^ 4 * (z ^ 4 * z ^ 4)) by ring. assert (z ^ 4 * z ^ 4 <= 1) by nra. nra. }
  assert (Hg : 0 < s * (889 / 10000) + r * (125541 / 1000000)) by (assert (0 < s * s) by nra; lra).
  assert (He0 : e0 < 0). { rewrite Ee0. replace (-71441 / 2500000 / (889 / 10000 * s + 1 + 125541 / 1000000 * r)) with (- (71441 / 2500000 / (889 / 10000 * s + 1 + 125541 / 1000000 * r))) by (field; lra). assert (0 < 71441 / 2500000 / (889 / 10000 * s + 1 + 125541 / 1000000 * r)) by (apply Rdiv_lt_0_compat; lra). lra. }
  assert (Hd0 : 0 <= d0). { rewrite Ed0. unfold Rdiv at 1. apply Rmult_le_pos; [|lra]. apply Rmult_le_pos; [|apply Rle_0_sqr]. apply Rmult_le_pos; [exact Hgc|]. assert (0 < 889 / 10000 / (2 * s)) by (apply Rdiv_lt_0_compat; lra). lra. }
  assert (W : 4 * (y - dy) + 1 = 1 + 4 * (y - dy)) by ring. rewrite W. rewrite (Rplus_comm (w * _) 1).
  assert (Hp : 0 <= q * q) by apply Rle_0_sqr. destruct Hp as [Hp|Hp].
  - destruct (damp_range (q * q) Hp) as [Hh Hph']. rewrite <- Eh in Hh, Hph'.
    assert (Hwp : 0 < w). { rewrite Ew, E1, Ropp_involutive. assert (0 < E / (6218138173931 / 200000000000000 * p3)) by (apply Rdiv_lt_0_compat; lra). pose proof (BrReal.exp_lo (E / (6218138173931 / 200000000000000 * p3))). lra. }
    apply (dy_ok r E D ds p3 phi w (q * q) h y dy K (e0 * gc) (r * d0) f2 (6218138173931 / 200000000000000) beta (PI / 4 * Rpower (9 * PI / 4) (1 / 3))); try assumption.
    + lra.
    + rewrite Ew, E1, Ropp_involutive. reflexivity.
    + apply Rmult_le_pos; lra.
    + assert (0 <= - e0 * gc) by (apply Rmult_le_pos; lra). lra.
    + rewrite Ef2. lra.
    + rewrite Eb. apply (f_equal2 Rdiv); lra.
    + apply AF_lo.
    + rewrite Ey, Et. assert (A2 : sqrt (PI / 4) * sqrt (PI / 4) = PI / 4) by (apply sqrt_sqrt; pose proof PI_RGT_0; lra).
      assert (A3 : Rpower (9 * PI / 4) (1 / 6) * Rpower (9 * PI / 4) (1 / 6) = Rpower (9 * PI / 4) (1 / 3)) by (rewrite <- Rpower_plus; f_equal; field).
      set (a := sqrt (PI / 4)) in *. set (b := Rpower (9 * PI / 4) (1 / 6)) in *. rewrite <- A3, <- A2. clearbody a b. f_equal. rewrite Err. field. lra.
    + rewrite EK, E1. unfold Rdiv. f_equal; [f_equal; f_equal; lra|]. rewrite Rmult_minus_distr_l, Rmult_minus_distr_l, (Rmult_assoc 20 r d1), D1. lra.
  - assert (Y0 : y = 0) by (rewrite Ey, Et; replace (sqrt (PI / 4) * Rpower (9 * PI / 4) (1 / 6) * q / (s * phi) * (sqrt (PI / 4) * Rpower (9 * PI / 4) (1 / 6) * q / (s * phi))) with (q * q * ((sqrt (PI / 4) * Rpower (9 * PI / 4) (1 / 6) / (s * phi)) * (sqrt (PI / 4) * Rpower (9 * PI / 4) (1 / 6) / (s * phi)))) by (field; lra); rewrite <- Hp; ring).
    assert (Z0 : dy = 0) by (rewrite Edy, <- Hp; ring). rewrite Y0, Z0. replace (1 + 4 * (0 - 0)) with 1 by ring. unfold Rpower; rewrite ln_1, Rmult_0_r, exp_0. split; [lra|]. replace (1 - 1 / 1) with 0 by field. lra.
Qed.
Section F.
Variable st : nat -> T ROps.
Variable x : nat -> R.
Variable fl : fld -> R.
Hypothesis P : phys fl.
Notation Gd := (good st x fl []).
Ltac bare := repeat match goal with E : bound _ _ _ _ _ _ _ |- _ => rdh E end; repeat match goal with E : ?a = ?b |- _ => is_var a; is_var b; subst a end.
(** The two arguments, from the equations of the variables the code binds. *)
Ltac two v v3 v16 v17 v18 v19 v20 v21 v22 v66 v67 v68 v69 v70 v71 v72 v74 v75 v76 v77 v78 v79 v80 v81 v82 v83 v84 v85 v86 v87 v88 v89 v90 v91 E E16 E66 v32 v33 v34 v35 v36 v37 v38 v39 v44 v45 v46 v47 v48 v49 v50 v51 v56 v57 v58 v59 v60 v61 v62 v63 v64 v65 :=
  subst v32 v33 v34 v35 v36 v37 v38 v39 v44 v45 v46 v47 v48 v49 v50 v51 v56 v57 v58 v59 v60 v61 v62 v63 v64 v65 v17 v76 v77 v78 v79 v80 v81 v82 v84 v86 v87 v88 v74;
  assert (Pv : 0 < v) by (rewrite E; apply Rpower_pos);
  assert (Hs : 0 < v21) by (match goal with H : v21 = sqrt v |- _ => rewrite H end; now apply sqrt_lt_R0);
  assert (Hss : v = v21 * v21) by (match goal with H : v21 = sqrt v |- _ => rewrite H end; symmetry; apply sqrt_sqrt; lra);
  assert (Hz : -1 < v16 < 1) by (rewrite E16; pose proof (z_lo fl P); pose proof (z_hi fl P); lra);
  match goal with E67 : v67 = _, E68 : v68 = _ |- _ =>
  assert (Ee : v67 = - Eu v21 v66 (v16 * v16 ^ 3) k_fzz);
  [ rewrite E67; clear - Hs Hss; unfold Eu, eu, ep, am, k_fzz;
    rewrite (gcor_lit 0.0310907 0.2137 7.5957 3.5876 1.6382 0.49294) by lra; rewrite (gcor_lit 0.01554535 0.20548 14.1189 6.1977 3.3662 0.62517) by lra;
    rewrite (gcor_lit 0.0168869 0.11125 10.357 3.6231 0.88026 0.49671) by lra; generalize (Gc 0.0310907 0.2137 7.5957 3.5876 1.6382 0.49294 v21); generalize (Gc 0.01554535 0.20548 14.1189 6.1977 3.3662 0.62517 v21); generalize (Gc 0.0168869 0.11125 10.357 3.6231 0.88026 0.49671 v21); intros; field
  | assert (Ed : v * v68 = Du v21 v66 (v16 * v16 ^ 3) k_fzz);
    [ rewrite E68; clear - Hs Hss; unfold Du, deu, dep, dam, k_fzz;
    rewrite (gcord_lit 0.0310907 0.2137 7.5957 3.5876 1.6382 0.49294) by lra; rewrite (gcord_lit 0.01554535 0.20548 14.1189 6.1977 3.3662 0.62517) by lra;
    rewrite (gcord_lit 0.0168869 0.11125 10.357 3.6231 0.88026 0.49671) by lra; generalize (Scan2.Gd 0.0310907 0.2137 7.5957 3.5876 1.6382 0.49294 v21); generalize (Scan2.Gd 0.01554535 0.20548 14.1189 6.1977 3.3662 0.62517 v21); generalize (Scan2.Gd 0.0168869 0.11125 10.357 3.6231 0.88026 0.49671 v21); intros; rewrite Hss; field
    | clear E67 E68;
      apply (scan2_ok v v21 v16 v3 v67 v68 v66 v18 v19 v20 v22 v69 v70 v71 v72 v75 v83 v85 v89 v90 v91); try assumption; subst v83 v22 v89 v91; try reflexivity; match goal with H : v21 = sqrt v |- _ => rewrite H; reflexivity end ] ]
  end.
Ltac first3 := 
  [> rx "SCAN_eps_SCAN_C.oma"%string; match goal with E : _ = 1 - _ |- _ => rewrite E end; lra
  | rx "SCAN_eps_SCAN_C.oma"%string; match goal with E : _ = 1 - _ |- _ => rewrite E end; lra
  | repeat match goal with E : bound _ _ _ _ _ _ _ |- _ => rdh E end;
    assert (Pv : 0 < Rpower (4 * PI * fl f_n / 3) (-1 / 3)) by apply Rpower_pos;
    repeat match goal with E : ?v = _ |- _ => subst v end;
    apply gam_NG, scan_lsda; [apply sqrt_lt_R0; exact Pv|symmetry; apply sqrt_sqrt; lra|apply (zeta_in fl P)]
  | bare | bare ].
Lemma r2scanc_good : Gd (obs iP iP [("SCAN_eps_scan_ec1.eclsda1"%string, NG)] r2SCANc_r2SCANC).
Proof.
  obg; first3.
  - two v v3 v16 v17 v18 v19 v20 v21 v22 v66 v67 v68 v69 v70 v71 v72 v74 v75 v76 v77 v78 v79 v80 v81 v82 v83 v84 v85 v86 v87 v88 v89 v90 v91 E E16 E66 v32 v33 v34 v35 v36 v37 v38 v39 v44 v45 v46 v47 v48 v49 v50 v51 v56 v57 v58 v59 v60 v61 v62 v63 v64 v65.
  - subst v92. two v v3 v16 v17 v18 v19 v20 v21 v22 v66 v67 v68 v69 v70 v71 v72 v74 v75 v76 v77 v78 v79 v80 v81 v82 v83 v84 v85 v86 v87 v88 v89 v90 v91 E E16 E66 v32 v33 v34 v35 v36 v37 v38 v39 v44 v45 v46 v47 v48 v49 v50 v51 v56 v57 v58 v59 v60 v61 v62 v63 v64 v65.
Qed.
Lemma r4scanc_good : Gd (obs iP iP [("SCAN_eps_scan_ec1.eclsda1"%string, NG)] r4SCANc_r4SCANC).
Proof.
  obg; first3.
  - two v v3 v16 v17 v18 v19 v20 v21 v22 v66 v67 v68 v69 v70 v71 v72 v74 v75 v76 v77 v78 v79 v80 v81 v82 v83 v84 v85 v86 v87 v88 v89 v90 v91 E E16 E66 v32 v33 v34 v35 v36 v37 v38 v39 v44 v45 v46 v47 v48 v49 v50 v51 v56 v57 v58 v59 v60 v61 v62 v63 v64 v65.
  - subst v92. two v v3 v16 v17 v18 v19 v20 v21 v22 v66 v67 v68 v69 v70 v71 v72 v74 v75 v76 v77 v78 v79 v80 v81 v82 v83 v84 v85 v86 v87 v88 v89 v90 v91 E E16 E66 v32 v33 v34 v35 v36 v37 v38 v39 v44 v45 v46 v47 v48 v49 v50 v51 v56 v57 v58 v59 v60 v61 v62 v63 v64 v65.
Qed.
End F.
