(** * Smoothness of the TPSS correlation functionals off the kinks of their maxima *)
From Coq Require Import Reals QArith Qreals ZArith Arith Lia Lra List Bool String.
From Coquelicot Require Import Coquelicot.
From Verif Require Import Scalar RInst Tables Api CTaylor CtAlg TMath Br Expr Densvars Functionals Eval RSem Sem AdEval Taint EnergyR Dom Phys Value.
From Verif Require Import Published PubTac PubX PubC PubM PubS PubS2 PubL PubR Smooth Cont ContS ContR.
Import ListNotations.
Local Open Scope R_scope.

Section T.
Variable st : nat -> T ROps.
Variable x : nat -> R.
Variable fl : fld -> R.
Hypothesis P : phys fl.
Let Sd := regular st x fl.
Notation tv := (Value.tv st x fl).
Lemma r_max r a b : Sd r a -> Sd r b -> (forall v w, reval st x fl r a = Some v -> reval st x fl r b = Some w -> v <> w) -> Sd r (EMax a b).
Proof. intros A B C. split; [exact A|]. split; [exact B|]. intros v w Ev Ew. apply C; rewrite <- eval0; assumption. Qed.
(** The energy per particle differs from that of each spin component alone. *)
Definition off_max (beta : R -> R -> R) (n z g na ga nb gb : R) : Prop :=
  eps_pbe beta (eps_pw92 n z) n z g <> eps_pbe_pol beta na ga /\ eps_pbe beta (eps_pw92 n z) n z g <> eps_pbe_pol beta nb gb.
Definition off_f (beta : R -> R -> R) : Prop := off_max beta (fl f_n) (fl f_zeta) (fl f_gnn) (fl f_a) (fl f_gaa) (fl f_b) (fl f_gbb).
Ltac nf t := let t' := eval cbv -[Rplus Rmult Ropp Rminus Rdiv Rinv Rpower ln exp sqrt PI IZR sqas erfR cbrtR arcsinh atan Rlt_dec Rabs Rmax pow Q2R] in t in constr:(t').
Ltac shut := match goal with |- ?l = ?r => let l' := nf l in let r' := nf r in change (l' = r'); reflexivity end.
Lemma c1 r : tv r pbec_eps = tv [] pbec_eps. Proof. shut. Qed.
Lemma c2 r : tv r (pbec_eps_pbec_eps_polarized d_a d_gaa) = tv [] (pbec_eps_pbec_eps_polarized d_a d_gaa). Proof. shut. Qed.
Lemma c3 r : tv r (pbec_eps_pbec_eps_polarized d_b d_gbb) = tv [] (pbec_eps_pbec_eps_polarized d_b d_gbb). Proof. shut. Qed.
Lemma c4 r : tv r revtpssc_eps_revtpss_pbec_eps = tv [] revtpssc_eps_revtpss_pbec_eps. Proof. shut. Qed.
Lemma c5 r : tv r (revtpssc_eps_revtpss_pbec_eps_polarized d_a d_gaa) = tv [] (revtpssc_eps_revtpss_pbec_eps_polarized d_a d_gaa). Proof. shut. Qed.
Lemma c6 r : tv r (revtpssc_eps_revtpss_pbec_eps_polarized d_b d_gbb) = tv [] (revtpssc_eps_revtpss_pbec_eps_polarized d_b d_gbb). Proof. shut. Qed.
Lemma c7 r : tv r tpsslocc_pbeloc_eps = tv [] tpsslocc_pbeloc_eps. Proof. shut. Qed.
Lemma c8 r : tv r (tpsslocc_pbeloc_eps_pola d_a d_gaa) = tv [] (tpsslocc_pbeloc_eps_pola d_a d_gaa). Proof. shut. Qed.
Lemma c9 r : tv r (tpsslocc_pbeloc_eps_pola d_b d_gbb) = tv [] (tpsslocc_pbeloc_eps_pola d_b d_gbb). Proof. shut. Qed.
Tactic Notation "sl" ident(v) ident(E) := match goal with |- ?S ?r ?e => let e' := eval hnf in e in match e' with ELet ?y ?a ?b => refine (r_let st x fl r y a b _ _); [|intros v E] end end.
Ltac ub := apply plain_regular; vm_cast_no_check (eq_refl true).
(** The sum over the spins of the larger energy. *)
Lemma summax r y1 y2 y3 a b c e ea eb : plain a = true -> plain b = true -> plain c = true -> y1 <> y2 -> y1 <> y3 -> y2 <> y3 ->
  (forall r, tv r a = e) -> (forall r, tv r b = ea) -> (forall r, tv r c = eb) -> e <> ea -> e <> eb ->
  Sd r (ELet y1 a (ELet y2 b (ELet y3 c (EDiv (EAdd (EMul d_a (EMax (EVar y1) (EVar y2))) (EMul d_b (EMax (EVar y1) (EVar y3)))) d_n)))).
Proof.
  intros Pa Pb Pc N12 N13 N23 Ha Hb Hc Na Nb.
  assert (E12 : String.eqb y1 y2 = false) by now apply String.eqb_neq. assert (E13 : String.eqb y1 y3 = false) by now apply String.eqb_neq. assert (E23 : String.eqb y2 y3 = false) by now apply String.eqb_neq.
  sl v1 H1; [now apply plain_regular|]. apply tv_ok in H1. rewrite Ha in H1. subst v1.
  sl v2 H2; [now apply plain_regular|]. apply tv_ok in H2. rewrite Hb in H2. subst v2.
  sl v3 H3; [now apply plain_regular|]. apply tv_ok in H3. rewrite Hc in H3. subst v3.
  split; [|exact Logic.I]. split; (split; [exact Logic.I|]); apply r_max; try exact Logic.I; intros v w Ev Ew; cbn [reval rlook] in Ev, Ew; rewrite ?(String.eqb_sym y2 y1), ?(String.eqb_sym y3 y1), ?(String.eqb_sym y3 y2), ?E12, ?E13, ?E23, ?String.eqb_refl in Ev; rewrite ?(String.eqb_sym y2 y1), ?(String.eqb_sym y3 y1), ?(String.eqb_sym y3 y2), ?E12, ?E13, ?E23, ?String.eqb_refl in Ew. all: injection Ev as <-; injection Ew as <-; assumption.
Qed.
Ltac sm Ea Eb Ec := refine (summax _ _ _ _ _ _ _ _ _ _ _ _ _ _ _ _ Ea Eb Ec _ _); [vm_compute; reflexivity..|discriminate|discriminate|discriminate|assumption|assumption].
Lemma tpssc_regular : off_f beta_pbe -> Sd [] tpssc.
Proof.
  intros [A B]. sl v1 E1; [|ub]. sl v2 E2; [|ub]. sl v3 E3; [ub|]. sl v4 E4; [|ub].
  sm (fun r => eq_trans (c1 r) (pbe_eps_E st x fl P)) (fun r => eq_trans (c2 r) (pbe_pol_a st x fl P)) (fun r => eq_trans (c3 r) (pbe_pol_b st x fl P)).
Qed.
Lemma revtpssc_regular : off_f beta_rev -> Sd [] revtpssc.
Proof.
  intros [A B]. sl v1 E1; [|ub]. sl v2 E2; [|ub]. sl v3 E3; [ub|]. sl v4 E4; [|ub].
  sm (fun r => eq_trans (c4 r) (rev_eps_E st x fl P)) (fun r => eq_trans (c5 r) (rev_pol_a st x fl P)) (fun r => eq_trans (c6 r) (rev_pol_b st x fl P)).
Qed.
Lemma tpsslocc_regular : off_f beta_loc -> Sd [] tpsslocc_energy.
Proof.
  intros [A B]. sl v1 E1; [|ub]. sl v2 E2; [ub|]. sl v3 E3; [|ub].
  sm (fun r => eq_trans (c7 r) (loc_eps_E st x fl P)) (fun r => eq_trans (c8 r) (loc_pol_a st x fl P)) (fun r => eq_trans (c9 r) (loc_pol_b st x fl P)).
Qed.
End T.
