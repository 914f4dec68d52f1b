(** * The Becke-Roussel exchange hole, as published, and what the library computes for it
    A. D. Becke and M. R. Roussel, Phys. Rev. A 39, 3761 (1989), with the paramagnetic current of
    A. D. Becke, Can. J. Chem. 74, 995 (1996); correlation of A. D. Becke, J. Chem. Phys. 88, 1053 (1988). *)
From Coq Require Import Reals QArith Qreals ZArith Arith Lia Lra Psatz List Bool String.
From Coquelicot Require Import Coquelicot.
From Verif Require Import Scalar RInst Tables CTaylor TMath Br Expr Functionals RSem BrReal BrInv Phys Value Published PubTac PubX Oblig Safe3.
Import ListNotations.
Local Open Scope R_scope.

(** ** Specification *)
(** The curvature of the hole: D = tau - |grad rho|^2/(4 rho) - j^2/rho with tau the sum of |grad psi|^2
    (twice the kinetic energy density the library takes), Q = (lap rho - 2 D)/6. *)
Definition br_D (s : spin) : R := 2 * kin s - (dot (grad s) (grad s) / 4 + jp s) / rho s.
Definition br_Q (s : spin) : R := (lap s - 2 * br_D s) / 6.
(** Equation (21): x exp(-2x/3)/(x-2) = (2/3) pi^(2/3) rho^(5/3) / Q, without the divisions. *)
Definition hole (s : spin) (x : R) : Prop :=
  0 < x /\ x * exp (- (2 / 3 * x)) * br_Q s = 2 / 3 * Rpower PI (2 / 3) * Rpower (rho s) (5 / 3) * (x - 2).
(** The potential of the hole, equations (17) and (22). *)
Definition br_b (s : spin) (x : R) : R := Rpower (x ^ 3 * exp (- x) / (8 * PI * rho s)) (1 / 3).
Definition br_U (s : spin) (x : R) : R := - (1 - exp (- x) - x / 2 * exp (- x)) / br_b s x.
(** Exchange energy, and the two parts of the correlation energy. *)
Definition br_ex (D : dens) (Ua Ub : R) : R := / 2 * (rho (al D) * Ua + rho (be D) * Ub).
Definition br_opp (D : dens) (z : R) : R := - 0.8 * rho (al D) * rho (be D) * z ^ 2 * (1 - ln (1 + z) / z).
Definition br_par (s : spin) (z : R) : R := - 0.01 * rho s * br_D s * z ^ 4 * (1 - 2 / z * ln (1 + z / 2)).
Definition br_ec (D : dens) (Ua Ub : R) : R :=
  br_opp D (0.63 * (/ Rabs Ua + / Rabs Ub)) + br_par (al D) (2 * 0.88 * / Rabs Ua) + br_par (be D) (2 * 0.88 * / Rabs Ub).
Definition br_energy (i : nat) (D : dens) (Ua Ub : R) : R :=
  match i with
  | 10%nat => br_ex D Ua Ub
  | 11%nat => br_ec D Ua Ub
  | _ => br_ex D Ua Ub + br_ec D Ua Ub
  end.

(** ** The hole equation has exactly one solution *)
Definition br_arg (s : spin) : R := br_Q s / (2 / 3 * Rpower PI (2 / 3) * Rpower (rho s) (5 / 3)).
Lemma hole_iff s x : 0 < rho s -> hole s x <-> x = br_inv (br_arg s).
Proof.
  intro Hr. destruct (br_inv_spec (br_arg s)) as [Pi Ei].
  assert (K : 0 < 2 / 3 * Rpower PI (2 / 3) * Rpower (rho s) (5 / 3)) by (repeat apply Rmult_lt_0_compat; try lra; apply exp_pos).
  assert (Q : forall y, 0 < y -> br_z y = br_arg s <-> y * exp (- (2 / 3 * y)) * br_Q s = 2 / 3 * Rpower PI (2 / 3) * Rpower (rho s) (5 / 3) * (y - 2)).
  { intros y Py. unfold br_z, br_arg. set (k := 2 / 3 * Rpower PI (2 / 3) * Rpower (rho s) (5 / 3)) in *. rewrite exp_Ropp. pose proof (exp_pos (2 / 3 * y)) as Pe. set (e := exp (2 / 3 * y)) in *.
    split; intro H.
    - replace (br_Q s) with (k * ((y - 2) / y * e)) by (rewrite H; field; lra). field. lra.
    - apply Rmult_eq_reg_r with k; [|lra]. replace (br_Q s / k * k) with (br_Q s) by (field; lra).
      apply Rmult_eq_reg_l with (y * / e); [|apply Rmult_integral_contrapositive; split; [lra|apply Rinv_neq_0_compat; lra]]. rewrite H. field. lra. }
  split.
  - intros [Px H]. apply Q in H; [|exact Px]. rewrite <- H. symmetry. now apply br_inv_of.
  - intros ->. split; [exact Pi|]. apply Q; assumption.
Qed.
Lemma hole_unique s : 0 < rho s -> exists! x, hole s x.
Proof. intro H. exists (br_inv (br_arg s)). split; [now apply hole_iff|]. intros y Hy. symmetry. now apply hole_iff in Hy. Qed.

(** ** The potential responds to a relative error of the root by a relative error *)
Definition hsh (x : R) : R := 1 - (1 + x / 2) * exp (- x).
Lemma hsh_d x : is_derive hsh x ((1 + x) / 2 * exp (- x)).
Proof. unfold hsh. auto_derive; [exact Logic.I|]. field. Qed.
Lemma hsh_le a b : 0 < a -> a <= b -> hsh a <= hsh b.
Proof.
  intros Pa [L | ->]; [|lra]. destruct (MVT_gen hsh a b (fun x => (1 + x) / 2 * exp (- x))) as (c & Hc & E).
  - intros x _. apply hsh_d.
  - intros x _. apply continuity_pt_filterlim, (ex_derive_continuous hsh). eexists. apply hsh_d.
  - rewrite Rmin_left, Rmax_right in Hc by lra. pose proof (exp_pos (- c)). assert (0 <= (1 + c) / 2 * exp (- c) * (b - a)) by (repeat apply Rmult_le_pos; lra). lra.
Qed.
Lemma hsh_x_d x : 0 < x -> is_derive (fun y => hsh y / y) x (((1 + x + x * x / 2) * exp (- x) - 1) / (x * x)).
Proof.
  intro P. unfold hsh. auto_derive; [lra|]. change (1 + - ((1 + x / 2) * exp (- x))) with (1 - (1 + x / 2) * exp (- x)). field. lra.
Qed.
Lemma hsh_x_le a b : 0 < a -> a <= b -> hsh b / b <= hsh a / a.
Proof.
  intros Pa [L | ->]; [|lra]. destruct (MVT_gen (fun y => hsh y / y) a b (fun x => ((1 + x + x * x / 2) * exp (- x) - 1) / (x * x))) as (c & Hc & E).
  - intros x Hx. rewrite Rmin_left in Hx by lra. apply hsh_x_d. lra.
  - intros x Hx. rewrite Rmin_left in Hx by lra. apply continuity_pt_filterlim, (ex_derive_continuous (fun y => hsh y / y)). eexists. apply hsh_x_d. lra.
  - rewrite Rmin_left, Rmax_right in Hc by lra. cbv beta in E.
    assert (N : (1 + c + c * c / 2) * exp (- c) <= 1).
    { rewrite exp_Ropp. pose proof (exp_pos c). pose proof (exp_lo2 c ltac:(lra)). apply Rmult_le_reg_r with (exp c); [assumption|]. rewrite Rmult_assoc, Rinv_l by lra. lra. }
    assert (0 <= (1 - (1 + c + c * c / 2) * exp (- c)) / (c * c) * (b - a)).
    { apply Rmult_le_pos; [|lra]. apply Rmult_le_pos; [lra|]. left. apply Rinv_0_lt_compat. nra. }
    replace (((1 + c + c * c / 2) * exp (- c) - 1) / (c * c)) with (- ((1 - (1 + c + c * c / 2) * exp (- c)) / (c * c))) in E by (field; lra). lra.
Qed.
Lemma ln_le' a b : 0 < a -> a <= b -> ln a <= ln b.
Proof. intros P [L | ->]; [left; now apply ln_increasing|lra]. Qed.
Lemma hsh_pos x : 0 < x -> 0 < hsh x. Proof. exact (br_shape x). Qed.
Lemma hsh_ln a b : 0 < a -> a <= b -> 0 <= ln (hsh b) - ln (hsh a) <= ln b - ln a.
Proof.
  intros Pa L. pose proof (hsh_pos a Pa) as Ha. pose proof (hsh_pos b ltac:(lra)) as Hb. split.
  - pose proof (ln_le' _ _ Ha (hsh_le a b Pa L)). lra.
  - assert (Q : ln (hsh b / b) <= ln (hsh a / a)) by (apply ln_le'; [apply Rdiv_lt_0_compat; lra|now apply hsh_x_le]).
    rewrite !ln_div in Q by lra. lra.
Qed.
Lemma ln_gap a b : 0 < a -> a <= b -> 0 <= ln b - ln a <= (b - a) / a.
Proof.
  intros Pa L. split; [pose proof (ln_le' a b Pa L); lra|]. rewrite <- ln_div by lra. 
  assert (P : 0 < b / a) by (apply Rdiv_lt_0_compat; lra).
  pose proof (exp_lo (b / a - 1)) as E. assert (ln (b / a) <= b / a - 1).
  { rewrite <- (ln_exp (b / a - 1)). apply ln_le'; lra. } replace ((b - a) / a) with (b / a - 1) by (field; lra). lra.
Qed.
Lemma br_U_exp s x : 0 < x -> 0 < rho s -> br_U s x = - exp (ln (hsh x) - ln x + x / 3 + ln (8 * PI * rho s) / 3).
Proof.
  intros Px Hr. pose proof (hsh_pos x Px) as H. pose proof PI_RGT_0 as P.
  assert (Pn : 0 < 8 * PI * rho s) by (apply Rmult_lt_0_compat; [lra|exact Hr]).
  unfold br_U, br_b, Rpower. replace (1 - exp (- x) - x / 2 * exp (- x)) with (hsh x) by (unfold hsh; ring).
  assert (E : ln (x ^ 3 * exp (- x) / (8 * PI * rho s)) = 3 * ln x - x - ln (8 * PI * rho s)).
  { pose proof (exp_pos (- x)). assert (0 < x ^ 3) by (apply pow_lt; exact Px). rewrite ln_div; [|apply Rmult_lt_0_compat; assumption|exact Pn]. rewrite ln_mult, ln_exp by assumption.
    replace (x ^ 3) with (x * (x * x)) by ring. rewrite !ln_mult by nra. ring. }
  rewrite E. replace (ln (hsh x) - ln x + x / 3 + ln (8 * PI * rho s) / 3) with (ln (hsh x) + - (1 / 3 * (3 * ln x - x - ln (8 * PI * rho s)))) by field.
  rewrite exp_plus, exp_Ropp, exp_ln by exact H. unfold Rdiv. ring.
Qed.
Lemma br_U_near s r x : 0 < r -> 0 < rho s -> near r x -> exists e, Rabs e <= 4e-15 * (1 + r) /\ br_U s x = br_U s r * exp e.
Proof.
  intros Pr Hr [Px N]. exists (ln (hsh x) - ln x + x / 3 - (ln (hsh r) - ln r + r / 3)). split.
  - assert (D : Rabs (x - r) <= 3.1e-15 * r /\ Rabs (x - r) <= 3.1e-15 * x).
    { split; [|lra]. revert N. unfold Rabs. destruct (Rcase_abs (x - r)); intro; lra. }
    destruct D as [D1 D2]. destruct (Rle_dec x r) as [L | L].
    + pose proof (hsh_ln x r Px L). pose proof (ln_gap x r Px L) as G. rewrite Rabs_left1 in D1, D2 by lra.
      assert ((r - x) / x <= 3.1e-15) by (apply Rmult_le_reg_r with x; [exact Px|]; unfold Rdiv; rewrite Rmult_assoc, Rinv_l by lra; lra).
      apply Rabs_le. lra.
    + pose proof (hsh_ln r x Pr ltac:(lra)). pose proof (ln_gap r x Pr ltac:(lra)) as G. rewrite Rabs_right in D1, D2 by lra.
      assert ((x - r) / r <= 3.1e-15) by (apply Rmult_le_reg_r with r; [exact Pr|]; unfold Rdiv; rewrite Rmult_assoc, Rinv_l by lra; lra).
      apply Rabs_le. lra.
  - rewrite (br_U_exp s x Px Hr), (br_U_exp s r Pr Hr). rewrite <- Ropp_mult_distr_l, <- exp_plus. do 2 f_equal. ring.
Qed.
Lemma br_U_neg s x : 0 < x -> 0 < rho s -> br_U s x < 0.
Proof. intros. rewrite br_U_exp by assumption. pose proof (exp_pos (ln (hsh x) - ln x + x / 3 + ln (8 * PI * rho s) / 3)). lra. Qed.
Lemma ct_BR_near (z : R) : exists x, @ct_BR ROps 0 z = Some x /\ near (br_inv z) x.
Proof.
  destruct (BR_taylor_inverse 3 z ltac:(lia)) as (x & t & _ & Nr & Et & T0 & _). exists x. split; [|exact Nr].
  unfold ct_BR. change (Nat.max 0 3) with 3%nat. cbn [c0 ct]. rewrite Et. cbn [obnd BR_sum]. now rewrite T0.
Qed.

(** ** The expressions of brx.cpp *)
Lemma br_gas s : 0 < rho s -> br_arg s = 1 / (2 / 3 * Rpower PI (2 / 3)) * ((lap s - 2 * (2 * kin s) + (1 / 2 * dot (grad s) (grad s) + 2 * jp s) / rho s) / 6) * Rpower (rho s) (-5 / 3).
Proof.
  intro H. unfold br_arg, br_Q, br_D. replace (-5 / 3) with (- (5 / 3)) by field. rewrite Rpower_Ropp.
  assert (0 < Rpower PI (2 / 3)) by apply exp_pos. assert (0 < Rpower (rho s) (5 / 3)) by apply exp_pos. field. repeat split; lra.
Qed.
(** The solver's argument and the potential, as brx.cpp 89-101 writes them. *)
Definition pz (n g l t j : R) : R := 1 / (2 / 3 * Rpower PI (2 / 3)) * ((l - 2 * (2 * t) + (1 / 2 * g + 2 * j) / n) / 6) * Rpower n (-5 / 3).
Definition pu (n b : R) : R := - (1 - (1 / 2 * b + 1) * exp (- b)) / Rpower (b * b * b * exp (- b) / (8 * PI * n)) (1 / 3).
Definition brv (z : R) : R := match @ct_BR ROps 0 z with Some v => v | None => 0 end.
Lemma brv_near z : near (br_inv z) (brv z).
Proof. destruct (ct_BR_near z) as (b & E & N). unfold brv. now rewrite E. Qed.
Ltac vredb := match goal with |- ?l = ?r =>
  let l' := eval cbv -[Rplus Rmult Ropp Rminus Rdiv Rinv Rpower ln exp sqrt PI IZR Rlt_dec Rabs Rmax pow Q2R ct_BR] in l in change (l' = r) end.
Section F.
Variables (st : nat -> T ROps) (x : nat -> R) (fl : fld -> R).
Lemma pol_ea r : tv st x fl r (brx_polarized d_a d_gaa d_lapa (EScale 2%sx d_taua) d_jpaa) = pu (fl f_a) (brv (pz (fl f_a) (fl f_gaa) (fl f_lapa) (fl f_taua) (fl f_jpaa))).
Proof. vredb. reflexivity. Qed.
Lemma pol_eb r : tv st x fl r (brx_polarized d_b d_gbb d_lapb (EScale 2%sx d_taub) d_jpbb) = pu (fl f_b) (brv (pz (fl f_b) (fl f_gbb) (fl f_lapb) (fl f_taub) (fl f_jpbb))).
Proof. vredb. reflexivity. Qed.
Definition Pa := pu (fl f_a) (brv (pz (fl f_a) (fl f_gaa) (fl f_lapa) (fl f_taua) (fl f_jpaa))).
Definition Pb := pu (fl f_b) (brv (pz (fl f_b) (fl f_gbb) (fl f_lapb) (fl f_taub) (fl f_jpbb))).
Definition zs (c u : R) : R := Rabs (c * (2 / u)).
Definition zo (c u v : R) : R := Rabs (c * (1 / u + 1 / v)).
Definition opp (a b z : R) : R := -4 / 5 * a * b * z * z * (1 - ln (z + 1) / z).
Definition par (n t g j z : R) : R := -1 / 100 * n * (2 * t - (1 / 4 * g + j) / n) * z ^ 4 * (1 - 2 / z * ln (z / 2 + 1)).
Lemma tv_let r y e1 e2 : tv st x fl r (ELet y e1 e2) = tv st x fl ((y, tv st x fl r e1) :: r) e2.
Proof. reflexivity. Qed.
Lemma brx_tv : tv st x fl [] brx = 1 / 2 * (fl f_a * Pa + fl f_b * Pb).
Proof.
  transitivity (tsv st (SQ 0.5) * (fl f_a * tv st x fl [] (brx_polarized d_a d_gaa d_lapa (EScale 2%sx d_taua) d_jpaa) + fl f_b * tv st x fl [] (brx_polarized d_b d_gbb d_lapb (EScale 2%sx d_taub) d_jpbb))); [reflexivity|].
  rewrite pol_ea, pol_eb. fold Pa Pb. f_equal.
Qed.
Notation oppv u v := (opp (fl f_a) (fl f_b) (zo (63 / 100) u v)).
Notation para u := (par (fl f_a) (fl f_taua) (fl f_gaa) (fl f_jpaa) (zs (22 / 25) u)).
Notation parb v := (par (fl f_b) (fl f_taub) (fl f_gbb) (fl f_jpbb) (zs (22 / 25) v)).
Lemma brc_tv : tv st x fl [] brx_brc = oppv Pa Pb + para Pa + parb Pb.
Proof.
  unfold brx_brc. cbv zeta. do 2 rewrite tv_let. rewrite pol_ea, pol_eb. fold Pa Pb. generalize Pa, Pb. intros u v. vredb. reflexivity.
Qed.
Lemma brxc_tv : tv st x fl [] brx_brxc = 1 / 2 * (Pa * fl f_a + Pb * fl f_b) + oppv Pa Pb + para Pa + parb Pb.
Proof.
  unfold brx_brxc. cbv zeta. do 2 rewrite tv_let. rewrite pol_ea, pol_eb. fold Pa Pb. generalize Pa, Pb. intros u v. vredb. reflexivity.
Qed.
End F.

(** ** At a density *)
Lemma pu_U s b : pu (rho s) b = br_U s b.
Proof.
  unfold pu, br_U, br_b. replace (b * b * b) with (b ^ 3) by ring. f_equal. field.
Qed.
Lemma pz_arg s : 0 < rho s -> pz (rho s) (dot (grad s) (grad s)) (lap s) (kin s) (jp s) = br_arg s.
Proof. intro H. rewrite br_gas by exact H. reflexivity. Qed.
Lemma pot_near s : 0 < rho s -> exists e, Rabs e <= 4e-15 * (1 + br_inv (br_arg s)) /\
  pu (rho s) (brv (pz (rho s) (dot (grad s) (grad s)) (lap s) (kin s) (jp s))) = br_U s (br_inv (br_arg s)) * exp e.
Proof. intro H. rewrite pz_arg, pu_U by exact H. apply br_U_near; [apply br_inv_spec|exact H|apply brv_near]. Qed.
Lemma zs_E u : u < 0 -> zs (22 / 25) u = 2 * 0.88 * / Rabs u.
Proof.
  intro H. unfold zs. pose proof (Rinv_lt_0_compat u H).
  rewrite !(Rabs_left) by (assumption || (unfold Rdiv; lra)). replace (/ - u) with (- / u) by (field; lra). unfold Rdiv. lra.
Qed.
Lemma zo_E u v : u < 0 -> v < 0 -> zo (63 / 100) u v = 0.63 * (/ Rabs u + / Rabs v).
Proof.
  intros H K. unfold zo. pose proof (Rinv_lt_0_compat u H). pose proof (Rinv_lt_0_compat v K).
  rewrite !(Rabs_left) by (assumption || (unfold Rdiv; lra)). replace (/ - u) with (- / u) by (field; lra). replace (/ - v) with (- / v) by (field; lra). unfold Rdiv. lra.
Qed.
Lemma opp_E D z : opp (rho (al D)) (rho (be D)) z = br_opp D z.
Proof. unfold opp, br_opp. rewrite (Rplus_comm z 1). simpl pow. lra. Qed.
Lemma par_E s z : par (rho s) (kin s) (dot (grad s) (grad s)) (jp s) z = br_par s z.
Proof. unfold par, br_par, br_D. rewrite (Rplus_comm (z / 2) 1). replace (1 / 4 * dot (grad s) (grad s)) with (dot (grad s) (grad s) / 4) by field. lra. Qed.
Lemma br_tv st x D i nm ex : above D -> In i [10; 11; 12]%nat -> nth_error functionals i = Some (nm, ex) ->
  exists ea eb, Rabs ea <= 4e-15 * (1 + br_inv (br_arg (al D))) /\ Rabs eb <= 4e-15 * (1 + br_inv (br_arg (be D))) /\
  tv st x (dvar D) [] ex = br_energy i D (br_U (al D) (br_inv (br_arg (al D))) * exp ea) (br_U (be D) (br_inv (br_arg (be D))) * exp eb).
Proof.
  intros Ab Hi F. assert (Q : 0 < rho (al D) /\ 0 < rho (be D)) by (destruct Ab as [A B]; change threshold with (1 * / 100000000000000) in *; lra). destruct Q as [Qa Qb].
  destruct (pot_near (al D) Qa) as (ea & Ba & Ea). destruct (pot_near (be D) Qb) as (eb & Bb & Eb). exists ea, eb. split; [exact Ba|]. split; [exact Bb|].
  rewrite <- Ea, <- Eb.
  assert (Na : Pa (dvar D) < 0) by (change (pu (rho (al D)) (brv (pz (rho (al D)) (dot (grad (al D)) (grad (al D))) (lap (al D)) (kin (al D)) (jp (al D)))) < 0); rewrite pu_U; apply br_U_neg; [apply brv_near|exact Qa]).
  assert (Nb : Pb (dvar D) < 0) by (change (pu (rho (be D)) (brv (pz (rho (be D)) (dot (grad (be D)) (grad (be D))) (lap (be D)) (kin (be D)) (jp (be D)))) < 0); rewrite pu_U; apply br_U_neg; [apply brv_near|exact Qb]).
  change (tv st x (dvar D) [] ex = br_energy i D (Pa (dvar D)) (Pb (dvar D))).
  cbn [In] in Hi. destruct Hi as [<- | [<- | [<- | []]]]; injection F as <- <-.
  - rewrite brx_tv. unfold br_energy, br_ex. change (dvar D f_a) with (rho (al D)). change (dvar D f_b) with (rho (be D)). lra.
  - rewrite brc_tv, zo_E, !zs_E by assumption. unfold br_energy, br_ec. rewrite <- opp_E, <- !par_E. reflexivity.
  - rewrite brxc_tv, zo_E, !zs_E by assumption. unfold br_energy, br_ec, br_ex. rewrite <- opp_E, <- !par_E.
    change (dvar D f_a) with (rho (al D)). change (dvar D f_b) with (rho (be D)). change (dvar D f_taua) with (kin (al D)). change (dvar D f_taub) with (kin (be D)).
    change (dvar D f_gaa) with (dot (grad (al D)) (grad (al D))). change (dvar D f_gbb) with (dot (grad (be D)) (grad (be D))). change (dvar D f_jpaa) with (jp (al D)). change (dvar D f_jpbb) with (jp (be D)). lra.
Qed.
