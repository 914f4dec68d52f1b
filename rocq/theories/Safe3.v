(** * Functionals defined thanks to the sign of the correlation energy of the uniform gas
    The arguments of the gradient corrections of Perdew and Wang 1991, of PBE correlation on
    top of Vosko, Wilk and Nusair, and of the regularised SCAN correlation functionals are in
    the domain of the logarithm because the energy per particle of the uniform gas is negative. *)
From Coq Require Import Reals QArith Qreals ZArith Arith Lia Lra Psatz List Bool String.
From Coquelicot Require Import Coquelicot.
From Verif Require Import Scalar RInst Tables Br Expr Functionals RSem Itv Dom Phys Safe Pw92 Value Published PubTac PubX PubC Oblig Safe2 Vwn.
Import ListNotations.
Local Open Scope R_scope.

(** The exchange potential of a Becke-Roussel hole is negative. *)
Lemma br_shape b : 0 < b -> 0 < 1 - (1 + b / 2) * exp (- b).
Proof.
  intro H. assert (E : 1 + b / 2 < exp b). { pose proof (exp_ineq1 b ltac:(lra)). lra. }
  rewrite exp_Ropp. pose proof (exp_pos b) as P. assert ((1 + b / 2) * / exp b < 1); [|lra].
  apply Rmult_lt_reg_r with (exp b); [exact P|]. rewrite Rmult_assoc, Rinv_l by lra. lra.
Qed.
Lemma br_neg st x fl r na ga la ta ja : tv st x fl r (brx_polarized na ga la ta ja) < 0.
Proof.
  unfold brx_polarized. cbn [tv epow3 tfn tlook rlook]. match goal with |- context [@ct_BR ROps 0 ?z] => destruct (ct_BR_pos z) as (b & Eb & Pb); rewrite !Eb end. 
  set (u := Rpower _ (1 / 3)). assert (U : 0 < u) by apply exp_pos.
  cbn -[Rplus Rmult Ropp Rminus Rdiv Rinv exp]. pose proof (br_shape b Pb) as S.
  apply Ropp_lt_cancel. rewrite Ropp_0. unfold Rdiv. rewrite Ropp_mult_distr_l, Ropp_involutive. apply Rdiv_lt_0_compat; [|exact U]. eapply Rlt_le_trans; [exact S|right; field].
Qed.

Lemma gam_NG v : v < 0 -> gam NG v.
Proof. intro H. split; [exact Logic.I|]. cbn [NG up]. apply gb_mk. rewrite Q2R_0. lra. Qed.
(** One interpolation function of Perdew and Wang as the SCAN files write it. *)
Lemma gcor A a b1 b2 b3 b4 s r : 0 < A -> 0 < b1 -> 0 < b2 -> 0 < b3 -> 0 < b4 -> 0 < s -> r = s * s ->
  - (2 * A) * (a * r + 1) * ln (1 / (2 * A * s * (s * (s * (b4 * s + b3) + b2) + b1)) + 1) = - Gc A a b1 b2 b3 b4 s.
Proof.
  intros HA P1 P2 P3 P4 Hs ->. unfold Gc. destruct (Gpos A 1 b1 b2 b3 b4 s) as [B _]; try lra.
  replace (1 / (2 * A * s * (s * (s * (b4 * s + b3) + b2) + b1)) + 1) with (1 + / 2 / (A * Bpoly b1 b2 b3 b4 s)); [ring|].
  rewrite Rplus_comm. f_equal. unfold Rdiv. rewrite Rmult_1_l, <- Rinv_mult. f_equal. unfold Bpoly. ring.
Qed.
Lemma gcor_lit A a b1 b2 b3 b4 c d a' c1 c2 c3 c4 s r : 0 < A -> 0 < b1 -> 0 < b2 -> 0 < b3 -> 0 < b4 -> 0 < s -> r = s * s ->
  c = - (2 * A) -> d = 2 * A -> a' = a -> c1 = b1 -> c2 = b2 -> c3 = b3 -> c4 = b4 ->
  c * (a' * r + 1) * ln (1 / (d * s * (s * (s * (c4 * s + c3) + c2) + c1)) + 1) = - Gc A a b1 b2 b3 b4 s.
Proof. intros HA P1 P2 P3 P4 Hs Hr -> -> -> -> -> -> ->. now apply gcor. Qed.
(** And as pw91c.cpp writes it. *)
Lemma gc91_lit A a b1 b2 b3 b4 c d a' c1 c2 c3 c4 s r : 0 < A -> 0 < b1 -> 0 < b2 -> 0 < b3 -> 0 < b4 -> 0 < s -> r = s * s ->
  c = - (2 * A) -> d = A -> a' = a -> c1 = b1 -> c2 = b2 -> c3 = b3 -> c4 = b4 ->
  c * (a' * r + 1) * ln (1 / 2 / (d * (s * (s * (c3 * s + c2) + c1) + c4 * Rpower r 2)) + 1) = - Gc A a b1 b2 b3 b4 s.
Proof.
  intros HA P1 P2 P3 P4 Hs Hr -> -> -> -> -> -> ->. rewrite <- (gcor A a b1 b2 b3 b4 s r) by assumption.
  replace (Rpower r 2) with (s * s * (s * s)).
  - do 3 f_equal. replace (2 * A * s * (s * (s * (b4 * s + b3) + b2) + b1)) with (2 * (A * (s * (s * (b3 * s + b2) + b1) + b4 * (s * s * (s * s))))) by ring.
    unfold Rdiv. rewrite ?Rmult_1_l. symmetry. apply Rinv_mult.
  - subst r. replace 2 with (INR 2) at 1 by (cbn; lra). rewrite Rpower_pow; [ring|now apply Rmult_lt_0_compat].
Qed.
(** The uniform gas as the SCAN files write it. *)
Lemma scan_lsda r s z : 0 < s -> r = s * s -> -1 < z < 1 ->
  -310907 / 5000000 * (2137 / 10000 * r + 1) * ln (1 / (310907 / 5000000 * s * (s * (s * (24647 / 50000 * s + 8191 / 5000) + 8969 / 2500) + 75957 / 10000)) + 1)
    * (1 - (Rpower (z + 1) (4 / 3) + Rpower (1 - z) (4 / 3) - 2) / (1039684199579492659068842429113 / 2000000000000000000000000000000) * (z * z ^ 3))
  + -310907 / 10000000 * (5137 / 25000 * r + 1) * ln (1 / (310907 / 10000000 * s * (s * (s * (62517 / 100000 * s + 16831 / 5000) + 61977 / 10000) + 141189 / 10000)) + 1)
    * ((Rpower (z + 1) (4 / 3) + Rpower (1 - z) (4 / 3) - 2) / (1039684199579492659068842429113 / 2000000000000000000000000000000)) * (z * z ^ 3)
  - -168869 / 5000000 * (89 / 800 * r + 1) * ln (1 / (168869 / 5000000 * s * (s * (s * (49671 / 100000 * s + 44013 / 50000) + 36231 / 10000) + 10357 / 1000)) + 1)
    * ((Rpower (z + 1) (4 / 3) + Rpower (1 - z) (4 / 3) - 2) / (1039684199579492659068842429113 / 2000000000000000000000000000000)) * (1 - z * z ^ 3)
    / (16000000000000000000000000000000 / 9357157796215433931619581862017) < 0.
Proof.
  intros Hs Hr Hz. pose proof (fz_num_range z Hz) as F. unfold fz_num in F. rewrite (Rplus_comm 1 z) in F.
  set (nu := Rpower (z + 1) (4 / 3) + Rpower (1 - z) (4 / 3) - 2) in *. pose proof cbrt2_fine as C. pose proof (z4_range z Hz) as Z4.
  set (f := nu / (1039684199579492659068842429113 / 2000000000000000000000000000000)).
  assert (Hf : 0 <= f <= 1.001).
  { unfold f. split; [apply Rmult_le_pos; lra|]. lra. }
  pose proof (pw_neg 0.0310907 0.01554535 0.0168869 ltac:(lra) ltac:(lra) ltac:(lra) s f (9357157796215433931619581862017 / 16000000000000000000000000000000) (z ^ 4) Hs Hf ltac:(lra) Z4) as X.
  unfold gp, gf, ga in X.
  match goal with |- ?g < 0 => replace g with (- Gc 0.0310907 0.2137 7.5957 3.5876 1.6382 0.49294 s * (1 - f * (z * z ^ 3)) + - Gc 0.01554535 0.20548 14.1189 6.1977 3.3662 0.62517 s * f * (z * z ^ 3)
    - - Gc 0.0168869 0.11125 10.357 3.6231 0.88026 0.49671 s * f * (1 - z * z ^ 3) / (16000000000000000000000000000000 / 9357157796215433931619581862017)) end.
  - eapply Rle_lt_trans; [right|exact X]. field.
  - symmetry. rewrite (gcor_lit 0.0310907 0.2137 7.5957 3.5876 1.6382 0.49294); try lra. rewrite (gcor_lit 0.01554535 0.20548 14.1189 6.1977 3.3662 0.62517); try lra.
    rewrite (gcor_lit 0.0168869 0.11125 10.357 3.6231 0.88026 0.49671); try lra.
Qed.
(** The kinetic energy density of a uniform gas of density [n], and the iso-orbital indicator
    (t - t_W) / t_gas with t_W the kinetic energy density of a single orbital. *)
Definition t_gas (n : R) : R := 3 / 10 * Rpower (3 * PI ^ 2) (2 / 3) * Rpower n (5 / 3).
Definition iso_orbital (n g t u : R) : R := (t - g / (8 * n)) / u.
(** For the exchange energy of the density with both spins like [s]. *)
Definition alpha_x (s : spin) : R := iso_orbital (2 * rho s) (4 * dot (grad s) (grad s)) (2 * kin s) (t_gas (2 * rho s)).
(** For the correlation energy. *)
Definition alpha_c (D : dens) : R :=
  let n := rho (al D) + rho (be D) in let z := (rho (al D) - rho (be D)) / n in
  iso_orbital n (dot (gN D) (gN D)) (kin (al D) + kin (be D)) (t_gas n * ((Rpower (1 + z) (5 / 3) + Rpower (1 - z) (5 / 3)) / 2)).
Section F.
Variable st : nat -> T ROps.
Variable x : nat -> R.
Variable fl : fld -> R.
Hypothesis P : phys fl.
Notation Gd := (good st x fl []).
Notation V := (tv st x fl []).
Lemma zeta_in : -1 < fl f_zeta < 1.
Proof. pose proof (z_lo fl P). pose proof (z_hi fl P). lra. Qed.
Ltac vwn := obg; apply gam_NG; pose proof (vwn5_E st x fl P) as E; vred_in E; rewrite E; apply eps_vwn5_neg, zeta_in.
Lemma vwn_pbec_good : Gd (obs iNN top [("pbec_vwn_pbec.eps"%string, NG)] pbec_vwn_pbec).
Proof. vwn. Qed.
Lemma spbec_good : Gd (obs iNN top [("spbec.eps"%string, NG)] spbec).
Proof. vwn. Qed.
Ltac rscanc := obg;
  [ rx "SCAN_eps_SCAN_C.oma"%string; match goal with E : _ = 1 - _ |- _ => rewrite E end; lra
  | rx "SCAN_eps_SCAN_C.oma"%string; match goal with E : _ = 1 - _ |- _ => rewrite E end; lra
  | repeat match goal with E : bound _ _ _ _ _ _ _ |- _ => rdh E end;
    assert (Pv : 0 < Rpower (4 * PI * fl f_n / 3) (-1 / 3)) by apply Rpower_pos;
    repeat match goal with E : ?v = _ |- _ => subst v end;
    apply gam_NG, scan_lsda; [apply sqrt_lt_R0; exact Pv|symmetry; apply sqrt_sqrt; lra|apply zeta_in] ].
Lemma rscanc_good : Gd (obs iP iP [("SCAN_eps_scan_ec1.eclsda1"%string, NG)] rSCANc_rSCANC).
Proof. rscanc. Qed.
Lemma rppscanc_good : Gd (obs iP iP [("SCAN_eps_scan_ec1.eclsda1"%string, NG)] rppSCANc_rppSCANC).
Proof. rscanc. Qed.
Lemma pw91_fz : ((Rpower (fl f_a) (4 / 3) + Rpower (fl f_b) (4 / 3)) * Rpower (2 / fl f_n) (4 / 3) - 2) / (2 * Rpower 2 (1 / 3) - 2) = fz (fl f_zeta).
Proof.
  pose proof (n_pos fl P) as N0. pose proof (z_lo fl P) as L. pose proof (z_hi fl P) as H. rewrite (z_a fl P), (z_b fl P). unfold fz, fz_num. rewrite two43'.
  set (n := fl f_n) in *. set (z := fl f_zeta) in *.
  assert (Q : forall y, 0 < y -> Rpower (n * (y / 2)) (4 / 3) * Rpower (2 / n) (4 / 3) = Rpower y (4 / 3)).
  { intros y Hy. mono. }
  rewrite Rmult_plus_distr_r, !Q by assumption. reflexivity.
Qed.
Lemma pw91c_good : Gd (obs iNN top [("pw91c.Ec"%string, NG)] pw91c).
Proof.
  obg. rx "pw91c.fz"%string. rx "pw91c.Ac"%string. rx "pw91c.EcP"%string. rx "pw91c.EcF"%string.
  rewrite (ph_rs fl P) in E0, E1, E2. pose proof (sqrt_rs_pos (fl f_n)) as Hs. pose proof (sq_rs (fl f_n)) as Hr. symmetry in Hr.
  rewrite (gc91_lit 0.016887 0.11125 10.357 3.6231 0.88026 0.49671) in E0; try lra.
  rewrite (gc91_lit 0.031091 0.2137 7.5957 3.5876 1.6382 0.49294) in E1; try lra.
  rewrite (gc91_lit 0.015545 0.20548 14.1189 6.1977 3.3662 0.62517) in E2; try lra.
  rewrite pw91_fz in E. pose proof (fz_range _ zeta_in) as F.
  pose proof (pw_neg 0.031091 0.015545 0.016887 ltac:(lra) ltac:(lra) ltac:(lra) (sqrt (Published.rs (fl f_n))) (fz (fl f_zeta)) (1000000 / 1709921) (fl f_zeta ^ 4) Hs ltac:(lra) ltac:(lra) (z4_range _ zeta_in)) as X.
  unfold gp, gf, ga in X. apply gam_NG. eapply Rle_lt_trans; [right|exact X]. rewrite E, E0, E1, E2. field.
Qed.
Lemma t_gas_E n : 3 / 10 * Rpower (3 * (PI * PI)) (2 / 3) * Rpower n (5 / 3) = t_gas n.
Proof. unfold t_gas. now replace (PI ^ 2) with (PI * PI) by ring. Qed.
Lemma nz1 a : a <> 1 -> 1 - a <> 0.
Proof. lra. Qed.
Lemma scanx_good : iso_orbital (2 * fl f_a) (4 * fl f_gaa) (2 * fl f_taua) (t_gas (2 * fl f_a)) <> 1 ->
  iso_orbital (2 * fl f_b) (4 * fl f_gbb) (2 * fl f_taub) (t_gas (2 * fl f_b)) <> 1 -> Gd (obs iP iP [] SCANx_SCANX).
Proof.
  intros A B. obg; repeat match goal with E : bound _ _ _ _ _ _ _ |- _ => rdh E end; repeat match goal with E : ?v = _ |- _ => subst v end; apply nz1.
  all: destruct (Rlt_dec _ (Rabs _)); [rewrite t_gas_E; assumption|lra].
Qed.
Lemma scanc_good : iso_orbital (fl f_n) (fl f_gnn) (fl f_tau) (t_gas (fl f_n) * ((Rpower (1 + fl f_zeta) (5 / 3) + Rpower (1 - fl f_zeta) (5 / 3)) / 2)) <> 1 ->
  Gd (obs iP iP [("SCAN_eps_scan_ec1.eclsda1"%string, NG)] SCANc_SCANC).
Proof.
  intro A. obg.
  3: { repeat match goal with E : bound _ _ _ _ _ _ _ |- _ => rdh E end. assert (Pv : 0 < Rpower (4 * PI * fl f_n / 3) (-1 / 3)) by apply Rpower_pos.
    repeat match goal with E : ?v = _ |- _ => subst v end.
    apply gam_NG, scan_lsda; [apply sqrt_lt_R0; exact Pv|symmetry; apply sqrt_sqrt; lra|apply zeta_in]. }
  all: repeat match goal with E : bound _ _ _ _ _ _ _ |- _ => rdh E end; repeat match goal with E : ?v = _ |- _ => subst v end; apply nz1.
  all: destruct (Rlt_dec _ (Rabs _)); [rewrite t_gas_E, (Rplus_comm (fl f_zeta)); assumption|lra].
Qed.
(** Without unfolding the solver. *)
Ltac brg := match goal with |- good _ _ _ _ ?l => let l' := eval vm_compute in l in change l with l' end;
  unfold good; repeat match goal with |- List.Forall _ (_ :: _) => apply List.Forall_cons | |- List.Forall _ [] => apply List.Forall_nil end;
  unfold oden; cbn [ob_path ob_kind ob_exp]; cbn [den kden];
  match goal with |- gam _ (tv _ _ _ ?r ?e) => apply gam_NG end.
Lemma brx_good : Gd (obs top top [] brx).
Proof. match goal with |- good _ _ _ _ ?l => let l' := eval vm_compute in l in change l with l' end. apply List.Forall_nil. Qed.
Lemma brc_good : Gd (obs top top [("brx_brc.UXa"%string, NG);("brx_brc.UXb"%string, NG)] brx_brc).
Proof.
  brg. 
  - exact (br_neg st x fl [] d_a d_gaa d_lapa (EScale 2%sx d_taua) d_jpaa).
  - refine (br_neg st x fl _ d_b d_gbb d_lapb (EScale 2%sx d_taub) d_jpbb).
Qed.
Lemma brxc_good : Gd (obs top top [("brx_brxc.UXa"%string, NG);("brx_brxc.UXb"%string, NG)] brx_brxc).
Proof.
  brg. 
  - exact (br_neg st x fl [] d_a d_gaa d_lapa (EScale 2%sx d_taua) d_jpaa).
  - refine (br_neg st x fl _ d_b d_gbb d_lapb (EScale 2%sx d_taub) d_jpbb).
Qed.
End F.

(** ** SCAN exchange where the iso-orbital indicator is one *)
Lemma let_inv st x fl r y e1 e2 v : reval st x fl r (ELet y e1 e2) = Some v ->
  exists v1, bound st x fl r y e1 v1 /\ reval st x fl r e1 = Some v1 /\ reval st x fl ((y, v1) :: r) e2 = Some v.
Proof.
  cbn [reval]. destruct (reval st x fl r e1) as [v1|] eqn:E; cbn [obnd]; [|discriminate]. intro H. exists v1. split; [|auto].
  symmetry. unfold bound. pose proof (tv_ok st x fl e1 r v1 E) as X. subst. reflexivity.
Qed.
Lemma if_inv st x fl r a b e1 e2 v : reval st x fl r (EIf a b e1 e2) = Some v ->
  exists va vb, reval st x fl r a = Some va /\ reval st x fl r b = Some vb /\ (va < vb /\ reval st x fl r e1 = Some v \/ ~ va < vb /\ reval st x fl r e2 = Some v).
Proof.
  cbn [reval]. destruct (reval st x fl r a) as [va|]; cbn [obnd]; [|discriminate]. destruct (reval st x fl r b) as [vb|]; cbn [obnd]; [|discriminate].
  intro H. exists va, vb. destruct (Rlt_dec va vb); auto.
Qed.
Ltac inlet H := let v := fresh "v" in let B := fresh "B" in let H1 := fresh H in let H2 := fresh H in apply let_inv in H; destruct H as (v & B & H1 & H2); clear H; rename H2 into H.
Ltac inletin H := let v := fresh "v" in let B := fresh "B" in let H1 := fresh H in let H2 := fresh H in apply let_inv in H; destruct H as (v & _ & H1 & _); rename H1 into H.
Lemma scanx_stuck st x fl v : iso_orbital (2 * fl f_a) (4 * fl f_gaa) (2 * fl f_taua) (t_gas (2 * fl f_a)) = 1 -> 1 / 10 ^ 14 < t_gas (2 * fl f_a) ->
  reval st x fl [] SCANx_SCANX <> Some v.
Proof.
  intros A T H.
  match type of H with reval _ _ _ _ ?e = _ => let e' := eval vm_compute in e in change e with e' in H end.
  inletin H.
  repeat match type of H with
    | reval _ _ _ _ (ELet _ (EIf (EVar "SCAN_eps_SCAN_X_Fx.alpha") _ _ _) _) = _ => fail 1
    | reval _ _ _ _ (ELet "SCAN_eps_get_SCAN_Fx.Fx" _ _) = _ => inletin H
    | reval _ _ _ _ (ELet "SCAN_eps_SCAN_X_Fx.ief" (ELet _ _ _) _) = _ => inletin H
    | _ => inlet H end.
  inletin H. repeat match goal with K : reval _ _ _ _ _ = Some ?u |- _ => tryif constr_eq K H then fail else clear K end.
  apply if_inv in H. repeat match goal with B : bound _ _ _ _ _ _ _ |- _ => rdh B end.
  assert (Z : v14 = 0).
  { unfold iso_orbital in A. assert (Tp : 0 < t_gas (2 * fl f_a)) by lra.
    assert (E : v3 - v4 = t_gas (2 * fl f_a)) by (subst; apply Rmult_eq_reg_r with (/ t_gas (2 * fl f_a)); [|apply Rinv_neq_0_compat; lra]; rewrite Rinv_r by lra; exact A).
    assert (E6 : v8 = 1).
    { rewrite B6. destruct (Rlt_dec _ _) as [_|N].
      - rewrite E, B4, B, t_gas_E. unfold Rdiv. apply Rinv_r. lra.
      - exfalso. apply N. rewrite E, Rabs_right; lra. }
    rewrite B11, B10, E6. lra. }
  rewrite Z in H. clear - H. destruct H as (va & vb & _ & _ & [[_ H]|[_ H]]); inletin H; cbn in H;
  unfold rdiv in H; destruct (Req_EM_T 0 0); try lra; cbn [obnd] in H; discriminate H.
Qed.

