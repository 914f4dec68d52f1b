(** * Property theorems: jumps of the Becke-Roussel exchange energy are negligible (C43)
    The solver of the Becke-Roussel functionals stops when a step is small, so that the number of steps, and
    with it the energy, can jump.  The jump is at most 3e-12 of the energy. *)
From Coq Require Import Reals QArith Qreals ZArith Arith Lia Lra Psatz List Bool String.
From Coquelicot Require Import Coquelicot.
From Verif Require Import Scalar RInst Tables Api SpecApi ApiProofs ApiProofs2 CTaylor CtAlg TMath Br Expr Densvars Functionals
  Eval SpecEval EvalSem EvalProps Taint EvalExt Props_Eval Sem RSem EnergyR EvalR EvalReal EvalApi Phys Mk Props_Deriv.
From Verif Require Import BrReal BrInv PubBr Props_Br Cont.
Import ListNotations.
Local Open Scope outcome_scope.
Local Open Scope R_scope.

(** Two densities of one spin whose density, squared gradient, Laplacian, kinetic energy and current differ by less than [d]. *)
Definition near_spin (d : R) (s s' : spin) : Prop :=
  Rabs (rho s' - rho s) < d /\ Rabs (dot (grad s') (grad s') - dot (grad s) (grad s)) < d /\ Rabs (lap s' - lap s) < d /\
  Rabs (kin s' - kin s) < d /\ Rabs (jp s' - jp s) < d.
Definition near_dens (d : R) (D D' : dens) : Prop := near_spin d (al D) (al D') /\ near_spin d (be D) (be D').
Definition by_dens (D : dens) (P : dens -> Prop) : Prop := exists d, 0 < d /\ forall D', near_dens d D D' -> P D'.
Lemma near_le d d' D D' : d <= d' -> near_dens d D D' -> near_dens d' D D'.
Proof. unfold near_dens, near_spin. intros L H. repeat (destruct H as [? H]). lra. Qed.
Global Instance by_filter D : Filter (by_dens D).
Proof.
  split.
  - exists 1. split; [lra|]. auto.
  - intros P Q (d & Hd & A) (d' & Hd' & B). exists (Rmin d d'). split; [now apply Rmin_pos|]. intros D' H.
    split; [apply A; eapply near_le; [apply Rmin_l|exact H]|apply B; eapply near_le; [apply Rmin_r|exact H]].
  - intros P Q I (d & Hd & A). exists d. split; [exact Hd|]. intros D' H. apply I. now apply A.
Qed.
(** A quantity that differs by less than [d] at densities closer than [d] tends to its value. *)
Lemma tends_coord D (u : dens -> R) : (forall d D', near_dens d D D' -> Rabs (u D' - u D) < d) -> tends (by_dens D) u (u D).
Proof.
  intros H P [[d Hd] L]. exists d. split; [exact Hd|]. intros D' N. apply L. exact (H d D' N).
Qed.
Section S.
Variable D : dens.
Variable sp : dens -> spin.
Hypothesis Hs : sp = al \/ sp = be.
Notation F := (by_dens D).
Let FF : Filter F := by_filter D.
Lemma t_rho : tends F (fun D' => rho (sp D')) (rho (sp D)).
Proof. apply (tends_coord D (fun D' => rho (sp D'))). intros d D' [N1 N2]. destruct Hs as [-> | ->]; [apply N1|apply N2]. Qed.
Lemma t_grad : tends F (fun D' => dot (grad (sp D')) (grad (sp D'))) (dot (grad (sp D)) (grad (sp D))).
Proof. apply (tends_coord D (fun D' => dot (grad (sp D')) (grad (sp D')))). intros d D' [N1 N2]. destruct Hs as [-> | ->]; [apply N1|apply N2]. Qed.
Lemma t_lap : tends F (fun D' => lap (sp D')) (lap (sp D)).
Proof. apply (tends_coord D (fun D' => lap (sp D'))). intros d D' [N1 N2]. destruct Hs as [-> | ->]; [apply N1|apply N2]. Qed.
Lemma t_kin : tends F (fun D' => kin (sp D')) (kin (sp D)).
Proof. apply (tends_coord D (fun D' => kin (sp D'))). intros d D' [N1 N2]. destruct Hs as [-> | ->]; [apply N1|apply N2]. Qed.
Lemma t_jp : tends F (fun D' => jp (sp D')) (jp (sp D)).
Proof. apply (tends_coord D (fun D' => jp (sp D'))). intros d D' [N1 N2]. destruct Hs as [-> | ->]; [apply N1|apply N2]. Qed.
Hypothesis Pr : 0 < rho (sp D).
Lemma t_inv u v : tends F u v -> v <> 0 -> tends F (fun y => / u y) (/ v).
Proof. intros A N. apply (tends1 F _ _ Rinv A). eapply cont_d. apply is_derive_inv; [apply is_derive_id|exact N]. Qed.
Lemma t_div u v u' v' : tends F u v -> tends F u' v' -> v' <> 0 -> tends F (fun y => u y / u' y) (v / v').
Proof. intros A B N. unfold Rdiv. apply tends_mul; [exact FF|exact A|now apply t_inv]. Qed.
Lemma t_pow u v k : tends F u v -> 0 < v -> tends F (fun y => Rpower (u y) k) (Rpower v k).
Proof. intros A P. apply (tends1 F _ _ (fun x => Rpower x k) A). unfold Rpower. eapply cont_d. auto_derive; [exact P|reflexivity]. Qed.
Lemma t_c c : tends F (fun _ => c) c.
Proof. apply tends_const. exact FF. Qed.
Lemma t_scale c u v : tends F u v -> tends F (fun y => c * u y) (c * v).
Proof. intro A. apply tends_mul; [exact FF|apply t_c|exact A]. Qed.
Lemma t_Q : tends F (fun D' => br_Q (sp D')) (br_Q (sp D)).
Proof.
  unfold br_Q, br_D. apply t_div; [|apply t_c|lra]. apply tends_sub; [exact FF|apply t_lap|]. apply t_scale. apply tends_sub; [exact FF|apply t_scale, t_kin|].
  apply t_div; [|apply t_rho|lra]. apply tends_add; [exact FF| |apply t_jp]. apply t_div; [apply t_grad|apply t_c|lra].
Qed.
Lemma t_arg : tends F (fun D' => br_arg (sp D')) (br_arg (sp D)).
Proof.
  unfold br_arg. apply t_div; [apply t_Q| |].
  - apply tends_mul; [exact FF|apply t_c|]. apply t_pow; [apply t_rho|exact Pr].
  - apply Rgt_not_eq. repeat apply Rmult_lt_0_compat; try lra; apply exp_pos.
Qed.
Lemma t_x : tends F (fun D' => br_inv (br_arg (sp D'))) (br_inv (br_arg (sp D))).
Proof. apply (tends1 F _ _ br_inv t_arg). eapply cont_d. apply br_inv_derive. Qed.
Lemma t_U : tends F (fun D' => br_U (sp D') (br_inv (br_arg (sp D')))) (br_U (sp D) (br_inv (br_arg (sp D)))).
Proof.
  pose proof t_x as X. destruct (br_inv_spec (br_arg (sp D))) as [Px _]. unfold br_U, br_b. set (x := br_inv (br_arg (sp D))) in *.
  assert (Ex : tends F (fun D' => exp (- br_inv (br_arg (sp D')))) (exp (- x))).
  { apply (tends1 F _ _ exp); [apply tends_opp; exact X|]. eapply cont_d. apply is_derive_exp. }
  apply t_div.
  - apply tends_opp. apply tends_sub; [exact FF| |].
    + apply tends_sub; [exact FF|apply t_c|exact Ex].
    + apply tends_mul; [exact FF| |exact Ex]. apply t_div; [exact X|apply t_c|lra].
  - assert (P8 : 0 < 8 * PI * rho (sp D)) by (pose proof PI_RGT_0; nra).
    apply t_pow.
    + apply t_div; [|apply t_scale, t_rho|lra]. apply tends_mul; [exact FF| |exact Ex]. apply (tends1 F _ _ (fun x => x ^ 3) X). eapply cont_d. auto_derive; [exact Logic.I|reflexivity].
    + apply Rdiv_lt_0_compat; [|exact P8]. apply Rmult_lt_0_compat; [now apply pow_lt|apply exp_pos].
  - apply Rgt_not_eq, exp_pos.
Qed.
End S.
(** The exact energy. *)
Definition brx_exact (D : dens) : R :=
  / 2 * (rho (al D) * br_U (al D) (br_inv (br_arg (al D))) + rho (be D) * br_U (be D) (br_inv (br_arg (be D)))).
Lemma t_exact D : 0 < rho (al D) -> 0 < rho (be D) -> tends (by_dens D) brx_exact (brx_exact D).
Proof.
  intros Pa Pb. unfold brx_exact. apply t_scale. apply tends_add; [apply by_filter| |].
  - apply tends_mul; [apply by_filter|apply (t_rho D al (or_introl eq_refl))|apply (t_U D al (or_introl eq_refl) Pa)].
  - apply tends_mul; [apply by_filter|apply (t_rho D be (or_intror eq_refl))|apply (t_U D be (or_intror eq_refl) Pb)].
Qed.
(** C43 (Becke-Roussel exchange).  At every density at or above the threshold whose hole parameters are below 100, the
    energy changes by at most 3e-12 of itself when the density changes by a small enough amount. *)
Theorem C43_brx_jump_bound :
  forall (h h0 : handle ROps) v D x e, reachable h -> xcfun_eval_setup h v XC_PARTIAL_DERIVATIVES 0 = Ok (h0, 0%Z) ->
    h_active h = [10%nat] -> 0 < (h_settings h XC_RANGESEP_MU : R) -> above D -> describes v x D ->
    (forall s q, In s [al D; be D] -> hole s q -> q < 100) -> library_energy h0 x e ->
    exists d, 0 < d /\ forall D' x' e', near_dens d D D' -> above D' -> describes v x' D' -> library_energy h0 x' e' ->
      Rabs (e' - e) <= 3e-12 * Rabs e.
Proof.
  intros h h0 v D x e Hr S A Mu Ab De Hx Le.
  assert (Q : forall D', above D' -> 0 < rho (al D') /\ 0 < rho (be D')) by (intros D' [Qa Qb]; change threshold with (1 * / 100000000000000) in *; lra).
  destruct (Q D Ab) as [Pa Pb]. set (w := h_settings h 10%nat : R).
  assert (Acc : forall D' x' e', above D' -> describes v x' D' -> library_energy h0 x' e' -> br_inv (br_arg (al D')) < 100 -> br_inv (br_arg (be D')) < 100 ->
    Rabs (e' - w * brx_exact D') <= 1e-12 * Rabs (w * brx_exact D')).
  { intros D' x' e' Ab' De' Le' La Lb. destruct (Q D' Ab') as [Pa' Pb'].
    exact (C38_brx_accuracy h h0 v D' x' _ _ e' Hr S A Mu Ab' De' (proj2 (hole_iff _ _ Pa') eq_refl) (proj2 (hole_iff _ _ Pb') eq_refl) (Rlt_le _ _ La) (Rlt_le _ _ Lb) Le'). }
  assert (Xa : br_inv (br_arg (al D)) < 100) by (apply (Hx (al D)); [left; reflexivity|now apply hole_iff]).
  assert (Xb : br_inv (br_arg (be D)) < 100) by (apply (Hx (be D)); [right; left; reflexivity|now apply hole_iff]).
  pose proof (Acc D x e Ab De Le Xa Xb) as E1.
  assert (Neg : brx_exact D < 0).
  { unfold brx_exact. pose proof (br_U_neg (al D) _ (proj1 (br_inv_spec (br_arg (al D)))) Pa). pose proof (br_U_neg (be D) _ (proj1 (br_inv_spec (br_arg (be D)))) Pb). nra. }
  pose proof (t_exact D Pa Pb (fun y => Rabs (y - brx_exact D) < 1e-13 * - brx_exact D)) as T.
  assert (Lc : locally (brx_exact D) (fun y => Rabs (y - brx_exact D) < 1e-13 * - brx_exact D)).
  { assert (P : 0 < 1e-13 * - brx_exact D) by (apply Rmult_lt_0_compat; lra). exists (mkposreal _ P). intros y Hy. exact Hy. }
  specialize (T Lc). pose proof (t_x D al (or_introl eq_refl) Pa (fun y => y < 100) (open_lt _ _ Xa)) as Ta. pose proof (t_x D be (or_intror eq_refl) Pb (fun y => y < 100) (open_lt _ _ Xb)) as Tb.
  destruct (filter_and (F := by_dens D) _ _ T (filter_and (F := by_dens D) _ _ Ta Tb)) as (d & Hd & H). exists d. split; [exact Hd|].
  intros D' x' e' N Ab' De' Le'. destruct (H D' N) as (H1 & Ha & Hb). pose proof (Acc D' x' e' Ab' De' Le' Ha Hb) as E2.
  clear - E1 E2 H1 Neg. rewrite !Rabs_mult in E1, E2. pose proof (Rabs_pos w) as Pw.
  assert (M : Rabs (w * brx_exact D' - w * brx_exact D) <= Rabs w * (1e-13 * - brx_exact D)).
  { replace (w * brx_exact D' - w * brx_exact D) with (w * (brx_exact D' - brx_exact D)) by ring. rewrite Rabs_mult. apply Rmult_le_compat_l; lra. }
  assert (M2 : Rabs (brx_exact D') <= (1 + 1e-13) * - brx_exact D).
  { replace (brx_exact D') with (brx_exact D' - brx_exact D + brx_exact D) by ring. eapply Rle_trans; [apply Rabs_triang|]. rewrite (Rabs_left (brx_exact D)) by exact Neg. lra. }
  rewrite (Rabs_left (brx_exact D)) in E1 by exact Neg. set (p := - brx_exact D) in *. assert (Pp : 0 < p) by (unfold p; lra).
  assert (M3 : Rabs w * Rabs (brx_exact D') <= Rabs w * ((1 + 1e-13) * p)) by (apply Rmult_le_compat_l; assumption).
  assert (M4 : Rabs w * p <= Rabs e + 1e-12 * (Rabs w * p)).
  { replace (Rabs w * p) with (Rabs (w * brx_exact D)) at 1 by (rewrite Rabs_mult, (Rabs_left (brx_exact D)) by exact Neg; reflexivity).
    replace (w * brx_exact D) with (e - (e - w * brx_exact D)) by ring. eapply Rle_trans; [apply Rabs_triang|]. rewrite Rabs_Ropp. lra. }
  assert (Tri : Rabs (e' - e) <= Rabs (e' - w * brx_exact D') + Rabs (w * brx_exact D' - w * brx_exact D) + Rabs (e - w * brx_exact D)).
  { replace (e' - e) with (e' - w * brx_exact D' + (w * brx_exact D' - w * brx_exact D) + - (e - w * brx_exact D)) by ring.
    eapply Rle_trans; [apply Rabs_triang|]. rewrite Rabs_Ropp. apply Rplus_le_compat_r, Rabs_triang. }
  set (wp := Rabs w * p) in *. assert (Rabs w * ((1 + 1e-13) * p) = (1 + 1e-13) * wp) by (unfold wp; ring). assert (Rabs w * (1e-13 * p) = 1e-13 * wp) by (unfold wp; ring).
  assert (0 <= wp) by (unfold wp; nra). lra.
Qed.
Print Assumptions C43_brx_jump_bound.
Example C43_brx_case : exists (h h0 : handle ROps) x e, reachable h /\
  xcfun_eval_setup h XC_A_B_GAA_GAB_GBB_LAPA_LAPB_TAUA_TAUB_JPAA_JPBB XC_PARTIAL_DERIVATIVES 0 = Ok (h0, 0%Z) /\
  h_active h = [10%nat] /\ 0 < (h_settings h XC_RANGESEP_MU : R) /\ above D_br /\ describes XC_A_B_GAA_GAB_GBB_LAPA_LAPB_TAUA_TAUB_JPAA_JPBB x D_br /\
  (forall s q, In s [al D_br; be D_br] -> hole s q -> q < 100) /\ library_energy h0 x e /\ e < 0.
Proof.
  destruct C38_energy_case as (h & h0 & x & xa & e & Eh & S & Ab & De & Hh & Hx & Le & Ne & _).
  destruct (make (K := ROps) [("brx"%string, 10%nat, 1)] eq_refl) as (h' & Eh' & Hr & A & Es). change (mactive _) with [10]%nat in A.
  assert (h' = h) by (assert (Q : Ok h' = Ok h) by exact (eq_trans (eq_sym Eh') Eh); now injection Q). subst h'. exists h, h0, x, e.
  split; [exact Hr|]. split; [exact S|]. split; [exact A|]. split; [rewrite Es; unfold msettings; cbn [map fold_left fst snd]; unfold wr_settings, upd; cbn; unfold Q2R; cbn; lra|].
  split; [exact Ab|]. split; [exact De|]. split; [|split; assumption]. intros s q Hs Hq.
  destruct (hole_unique (al D_br) ltac:(cbn; lra)) as (y & _ & U). assert (s = al D_br) by (cbn [In] in Hs; destruct Hs as [<-|[<-|[]]]; reflexivity). subst s.
  rewrite <- (U q Hq), (U xa Hh). lra.
Qed.
