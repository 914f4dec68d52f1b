(** * Functionals that stay inside the domain of their elementary functions
    The interval analysis of Dom.v applied to the transcribed functionals. *)
From Coq Require Import Reals QArith Qreals ZArith Arith Lia Lra List Bool String.
From Coquelicot Require Import Coquelicot.
From Verif Require Import Scalar RInst Tables Api SpecApi CTaylor CtAlg TMath Fps TFam TExp Ad Br Expr Densvars Functionals
  Eval Sem AdEval RSem Itv Dom Phys EnergyR.
Import ListNotations.
Local Open Scope R_scope.

Definition iP := I (Some (0%Q, true)) None.
Definition iNN := I (Some (0%Q, false)) None.
(** Ranges of the density variables: [g] for squared gradients, [t] for kinetic energies. *)
Definition frange (g t : itv) (f : fld) : itv :=
  match f with
  | f_a | f_b | f_n | f_r_s | f_n_m13 | f_a_43 | f_b_43 => iP
  | f_gaa | f_gbb | f_gnn => g
  | f_gss => iNN
  | f_taua | f_taub | f_tau => t
  | f_zeta => I (Some ((-1)%Q, true)) (Some ((-1)%Q, true))
  | _ => top
  end.
(** The only parameter that must be positive is the range separation. *)
Definition prange (p : nat) : itv := if Nat.eqb p XC_RANGESEP_MU then iP else top.
Definition passes (g t : itv) (facts : list (expr * itv)) (e : expr) : bool :=
  match eabs prange (fun _ => top) (frange g t) facts [] e with Some _ => true | None => false end.

Lemma thr_pos : 0 < threshold.
Proof. change threshold with (1 * / 100000000000000). lra. Qed.
Lemma dot_nn u : 0 <= dot u u.
Proof. unfold dot. pose proof (Rle_0_sqr (vx u)). pose proof (Rle_0_sqr (vy u)). pose proof (Rle_0_sqr (vz u)). unfold Rsqr in *. lra. Qed.
Lemma gam_P x : 0 < x -> gam iP x.
Proof. intro L. split; [|exact Logic.I]. cbn [iP lo]. apply gb_mk. now rewrite Q2R_0. Qed.
Lemma gam_NN x : 0 <= x -> gam iNN x.
Proof. intro L. split; [|exact Logic.I]. cbn [iNN lo]. apply gb_mk. now rewrite Q2R_0. Qed.
Lemma Rpower_pos x y : 0 < Rpower x y.
Proof. apply exp_pos. Qed.
Lemma dvar_range D g t : above D ->
  (forall u, u = dot (grad (al D)) (grad (al D)) \/ u = dot (grad (be D)) (grad (be D)) \/ u = dot (gN D) (gN D) -> gam g u) ->
  (forall u, u = kin (al D) \/ u = kin (be D) \/ u = kin (al D) + kin (be D) -> gam t u) ->
  forall f, gam (frange g t f) (dvar D f).
Proof.
  intros [A B] G Tk f. pose proof thr_pos. destruct f; cbn [frange dvar]; auto using gam_top.
  all: try (apply gam_P; first [apply Rpower_pos | lra]).
  - apply gam_NN, dot_nn.
  - set (u := rho (al D)) in *. set (w := rho (be D)) in *. assert (0 < u + w) by lra. split; cbn [lo up]; apply gb_mk.
    + replace (Q2R (-1)) with (-1) by (unfold Q2R; cbn; lra). apply Rmult_lt_reg_r with (u + w); [lra|]. unfold Rdiv. rewrite Rmult_assoc, Rinv_l by lra. lra.
    + replace (Q2R (-1)) with (-1) by (unfold Q2R; cbn; lra). apply Rmult_lt_reg_r with (u + w); [lra|]. unfold Rdiv.
      rewrite Ropp_mult_distr_l_reverse, Rmult_assoc, Rinv_l by lra. lra.
Qed.
Lemma prange_ok (st : nat -> T ROps) : 0 < (st XC_RANGESEP_MU : R) -> forall p, gam (prange p) (st p).
Proof. intros L p. unfold prange. destruct (Nat.eqb_spec p XC_RANGESEP_MU) as [->|]; [now apply gam_P|apply gam_top]. Qed.

Theorem passes_ok st x D g t facts e : 0 < (st XC_RANGESEP_MU : R) -> above D ->
  (forall u, u = dot (grad (al D)) (grad (al D)) \/ u = dot (grad (be D)) (grad (be D)) \/ u = dot (gN D) (gN D) -> gam g u) ->
  (forall u, u = kin (al D) \/ u = kin (be D) \/ u = kin (al D) + kin (be D) -> gam t u) ->
  (forall e i, In (e, i) facts -> forall r, exists v, reval st x (dvar D) r e = Some v /\ gam i v) ->
  passes g t facts e = true -> exists v, reval st x (dvar D) [] e = Some v.
Proof.
  intros Mu Ab G Tk Fa P. unfold passes in P. destruct (eabs prange (fun _ => top) (frange g t) facts [] e) as [i|] eqn:E; [|discriminate].
  destruct (eabs_ok st prange (prange_ok st Mu) x (fun _ => top) (fun _ => gam_top _) (dvar D) (frange g t) (dvar_range D g t Ab G Tk) facts Fa e [] [] i (Forall2_nil _) E) as (v & Ev & _).
  eauto.
Qed.
Lemma rsum_defined st x fl l : (forall i, In i l -> exists nm e v, nth_error functionals i = Some (nm, e) /\ reval st x fl [] e = Some v) ->
  exists s, rsum st x fl l = Some s.
Proof.
  induction l as [|i l IH]; intro Hl; cbn [rsum]; [eauto|].
  destruct (Hl i (or_introl eq_refl)) as (nm & e & v & -> & ->). cbn [obnd].
  destruct IH as [s ->]; [intros; apply Hl; now right|]. cbn [obnd]. eauto.
Qed.
