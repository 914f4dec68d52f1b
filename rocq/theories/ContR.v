(** * Smoothness of the SCAN family away from its switching points
    The same walk through the expression trees as in ContS, for the stronger notion needed by derivatives: also the
    arguments of absolute values must not vanish. *)
From Coq Require Import Reals QArith Qreals ZArith Arith Lia Lra List Bool String.
From Coquelicot Require Import Coquelicot.
From Verif Require Import Scalar RInst Tables Api CTaylor CtAlg TMath Br Expr Densvars Functionals Eval RSem Sem AdEval Taint EnergyR Dom Phys Value.
From Verif Require Import Published PubTac PubX PubC PubM PubS PubS2 Smooth Cont ContS.
Import ListNotations.
Local Open Scope R_scope.

(** Not at the kinetic energy density of one orbital, where the absolute value has its kink. *)
Definition nz_tau (n g tau : R) : Prop := tau - g / (8 * n) <> 0.
Definition scan_x_reg (n g tau : R) : Prop := scan_x_off n g tau /\ g <> 0 /\ nz_tau n g tau.
Definition rscan_x_reg (n g tau : R) : Prop := rscan_x_off n g tau /\ g <> 0.
Definition r2scan_x_reg (n g tau : R) : Prop := r2scan_x_off n g tau /\ g <> 0 /\ nz_tau n g tau.

Section RULES.
Variables (st : nat -> T ROps) (x : nat -> R) (fl : fld -> R).
Lemma r_let r y a b : regular st x fl r a -> (forall v, reval st x fl r a = Some v -> regular st x fl ((y, v) :: r) b) -> regular st x fl r (ELet y a b).
Proof. intros A B. split; [exact A|]. intros v E. apply B. rewrite <- eval0. exact E. Qed.
Lemma r_abs r a : regular st x fl r a -> (forall v, reval st x fl r a = Some v -> v <> 0) -> regular st x fl r (EAbs a).
Proof. intros A B. split; [exact A|]. intros v E. apply B. rewrite <- eval0. exact E. Qed.
Lemma r_if r a b e1 e2 : regular st x fl r a -> regular st x fl r b -> (forall v w, reval st x fl r a = Some v -> reval st x fl r b = Some w ->
      v <> w /\ (v < w -> regular st x fl r e1) /\ (w < v -> regular st x fl r e2)) -> regular st x fl r (EIf a b e1 e2).
Proof. intros A B C. split; [exact A|]. split; [exact B|]. intros v w Ev Ew. apply C; rewrite <- eval0; assumption. Qed.
End RULES.

Section S.
Variable st : nat -> T ROps.
Variable x : nat -> R.
Variable fl : fld -> R.
Hypothesis P : phys fl.
Let Sd := regular st x fl.
Notation tv := (Value.tv st x fl).
Ltac red_in E := match type of E with ?l = ?r =>
  let r' := eval cbv -[Rplus Rmult Ropp Rminus Rdiv Rinv Rpower ln exp sqrt PI IZR sqas erfR cbrtR arcsinh atan Rlt_dec Rabs Rmax pow Q2R] in r in change (l = r') in E end.
Tactic Notation "sl" ident(v) ident(E) := match goal with |- ?S ?r ?e => let e' := eval hnf in e in match e' with ELet ?y ?a ?b => refine (r_let st x fl r y a b _ _); [|intros v E; apply tv_ok in E] end end.
Ltac ub := apply plain_regular; vm_cast_no_check (eq_refl true).
Ltac nz := first [assumption|lra|match goal with H : ?w = _, K : nz_tau _ _ _ |- _ - ?w <> 0 => rewrite H; exact K end].
Ltac ab := match goal with |- ?S ?r ?e => let e' := eval hnf in e in match e' with EAbs ?a => refine (r_abs st x fl r a _ _); [ub|let v := fresh "v" in let E := fresh "E" in intros v E; apply tv_ok in E; red_in E; rewrite E; nz] end end.
Ltac sif := match goal with |- ?S ?r ?e => let e' := eval hnf in e in match e' with EIf ?a ?b ?c ?d => refine (r_if st x fl r a b c d _ _ _); [ub|first [ab|ub]|
  let v := fresh "v" in let w := fresh "w" in let Ev := fresh "Ev" in let Ew := fresh "Ew" in intros v w Ev Ew; apply tv_ok in Ev; apply tv_ok in Ew; red_in Ev; red_in Ew; rewrite Ev, Ew] end end.
Ltac wrap := match goal with |- ?S ?r ?e => let e' := eval hnf in e in match e' with ELet ?y ?a ?b => refine (r_let st x fl r y a b _ _); [|intros; ub] end end.
Lemma fx_regular_0 r dn dg dt n g t : plain dn = true -> plain dg = true -> plain dt = true ->
  (forall r, tv r dn = n) -> (forall r, tv r dg = g) -> (forall r, tv r dt = t) -> 0 < n -> 0 <= g -> off_g g -> g <> 0 -> off_tau n g t -> nz_tau n g t -> alpha_scan (tf n) n g t <> 1 ->
  Sd r (SCAN_eps_get_SCAN_Fx dn dg dt 0 0 0).
Proof.
  intros Un Ug Ut Hn Hg Ht N G Og Gz Ot Tz Oa.
  sl v1 H1; [now apply plain_regular|]. rewrite Hn in H1. subst v1.
  sl v2 H2; [now apply plain_regular|]. rewrite Hg in H2. subst v2.
  sl v3 H3; [now apply plain_regular|]. rewrite Ht in H3. subst v3.
  sl tw Etw; [ub|]. red_in Etw. sl t0 Et0; [ub|]. red_in Et0. sl t1 Et1; [ub|]. red_in Et1. sl a0 Ea0; [ub|]. red_in Ea0.
  sl a1 Ea1.
  { wrap. sif. split; [|split; intros _; ub]. rewrite Etw. unfold off_tau in Ot. intro C. apply Ot. rewrite <- C. lra. }
  red_in Ea1. sl p0 Ep0; [ub|]. red_in Ep0. sl p1 Ep1.
  { sif. split; [|split; intros _; ub]. unfold off_g in Og. rewrite Rabs_pos_eq by exact G. intro C. apply Og. rewrite <- C. lra. }
  sl f Ef; [|ub]. sl p Ep; [ub|]. sl a Ea; [ub|]. red_in Ea. sl o Eo; [ub|]. sl i0 Ei0; [ub|]. sl i1 Ei1; [|ub].
  wrap. sif. split; [|split; intros _; ub]. rewrite Ea, Ea1, Et1, Etw, tf_E, Ea0; match goal with |- context [Rlt_dec ?u ?v] => destruct (Rlt_dec u v) end; [exact Oa|lra].
Qed.
Ltac ief O1 O2 := split; [let C := fresh in intro C; apply O1; rewrite C; lra|split; intros _; [ub|]]; wrap; sif; split; [exact O2|split; intros _; ub].
Lemma fx_regular_1 r dn dg dt n g t : plain dn = true -> plain dg = true -> plain dt = true ->
  (forall r, tv r dn = n) -> (forall r, tv r dg = g) -> (forall r, tv r dt = t) -> 0 < n -> 0 <= g -> off_g g -> g <> 0 -> off_ief (alpha_rscan (tf_r n) n g t) ->
  Sd r (SCAN_eps_get_SCAN_Fx dn dg dt 1 1 0).
Proof.
  intros Un Ug Ut Hn Hg Ht N G Og Gz Oa.
  sl v1 H1; [now apply plain_regular|]. rewrite Hn in H1. subst v1.
  sl v2 H2; [now apply plain_regular|]. rewrite Hg in H2. subst v2.
  sl v3 H3; [now apply plain_regular|]. rewrite Ht in H3. subst v3.
  sl tw Etw; [ub|]. red_in Etw. sl t0 Et0; [ub|]. red_in Et0. sl t1 Et1; [ub|]. red_in Et1. sl a0 Ea0; [ub|]. red_in Ea0.
  sl a1 Ea1; [ub|].
  red_in Ea1. sl p0 Ep0; [ub|]. red_in Ep0. sl p1 Ep1.
  { sif. split; [|split; intros _; ub]. unfold off_g in Og. rewrite Rabs_pos_eq by exact G. intro C. apply Og. rewrite <- C. lra. }
  sl f Ef; [|ub]. sl p Ep; [ub|]. sl a Ea; [ub|]. red_in Ea. sl o Eo; [ub|]. sl i0 Ei0; [ub|]. sl i1 Ei1; [|ub].
  assert (A : a = alpha_rscan (tf_r n) n g t).
  { rewrite Ea, Ea1, Et1, Etw, tf_E. unfold alpha_rscan, alpha_scan, tf_r. replace 0.001 with (1 / 1000) by (decs; lra). replace 0.0001 with (1 / 10000) by (decs; lra). unfold Rdiv. f_equal. f_equal. f_equal. ring. }
  rewrite <- A in Oa. destruct Oa as [Oa1 Oa2]. clear Ea.
  wrap. wrap. sif. ief Oa1 Oa2.
Qed.
Lemma fx_regular_2 d r dn dg dt n g t : plain dn = true -> plain dg = true -> plain dt = true ->
  (forall r, tv r dn = n) -> (forall r, tv r dg = g) -> (forall r, tv r dt = t) -> 0 < n -> 0 <= g -> off_g g -> g <> 0 -> off_tau n g t -> nz_tau n g t -> off_ief (alpha_r2scan (tf n) n g t) ->
  (d = 0 \/ d = 1 \/ d = 2)%nat -> Sd r (SCAN_eps_get_SCAN_Fx dn dg dt 2 1 d).
Proof.
  intros Un Ug Ut Hn Hg Ht N G Og Gz Ot Tz Oa Dd.
  sl v1 H1; [now apply plain_regular|]. rewrite Hn in H1. subst v1.
  sl v2 H2; [now apply plain_regular|]. rewrite Hg in H2. subst v2.
  sl v3 H3; [now apply plain_regular|]. rewrite Ht in H3. subst v3.
  sl tw Etw; [ub|]. red_in Etw. sl t0 Et0; [ub|]. red_in Et0. sl t1 Et1; [ub|]. red_in Et1. sl a0 Ea0; [ub|]. red_in Ea0.
  sl a1 Ea1.
  { wrap. wrap. wrap. sif. split; [|split; intros _; ub]. rewrite Etw. unfold off_tau in Ot. intro C. apply Ot. rewrite <- C. lra. }
  red_in Ea1. sl p0 Ep0; [ub|]. red_in Ep0. sl p1 Ep1.
  { sif. split; [|split; intros _; ub]. unfold off_g in Og. rewrite Rabs_pos_eq by exact G. intro C. apply Og. rewrite <- C. lra. }
  sl f Ef; [|ub]. sl p Ep; [ub|]. sl a Ea; [ub|]. red_in Ea. sl o Eo; [ub|]. sl i0 Ei0; [ub|]. sl i1 Ei1; [|destruct Dd as [->|[->| ->]]; ub].
  assert (A : a = 0 \/ a = alpha_r2scan (tf n) n g t).
  { rewrite Ea, Ea1, Et1, Etw, tf_E, Ea0; match goal with |- context [Rlt_dec ?u ?v] => destruct (Rlt_dec u v) end; [right|now left]. unfold alpha_r2scan. replace 0.001 with (1 / 1000) by (decs; lra). reflexivity. }
  assert (Oa' : off_ief a) by (destruct A as [->| ->]; [unfold off_ief; split; lra|exact Oa]). clear Oa. destruct Oa' as [Oa1 Oa2]. clear Ea.
  wrap. wrap. sif. ief Oa1 Oa2.
Qed.
Ltac sn := apply plain_regular; reflexivity.
Ltac tr := intro; cbv -[Rplus Rmult Ropp Rminus Rdiv Rinv Rpower IZR Q2R]; reflexivity.
(** ** Exchange *)
Ltac exch L := let Na := fresh in let Nb := fresh in pose proof (ph_a _ P) as Na; pose proof (ph_b _ P) as Nb; sl fa Efa; [|sl ua Eua; [ub|]; sl fb Efb; [|ub]];
  [apply (L _ _ _ _ (2 * fl f_a) (4 * fl f_gaa) (2 * fl f_taua))|apply (L _ _ _ _ (2 * fl f_b) (4 * fl f_gbb) (2 * fl f_taub))]; try reflexivity; try tr; try tauto; try lra.
Lemma scanx_regular : 0 <= fl f_gaa -> 0 <= fl f_gbb -> scan_x_reg (2 * fl f_a) (4 * fl f_gaa) (2 * fl f_taua) -> scan_x_reg (2 * fl f_b) (4 * fl f_gbb) (2 * fl f_taub) -> Sd [] SCANx_SCANX.
Proof. intros Ga Gb ((A1 & A2 & A3) & A4 & A5) ((B1 & B2 & B3) & B4 & B5). exch fx_regular_0. Qed.
Lemma rscanx_regular : 0 <= fl f_gaa -> 0 <= fl f_gbb -> rscan_x_reg (2 * fl f_a) (4 * fl f_gaa) (2 * fl f_taua) -> rscan_x_reg (2 * fl f_b) (4 * fl f_gbb) (2 * fl f_taub) -> Sd [] rSCANx_rSCANX.
Proof. intros Ga Gb ((A1 & A2) & A4) ((B1 & B2) & B4). exch fx_regular_1. Qed.
Lemma r2scanx_regular e : 0 <= fl f_gaa -> 0 <= fl f_gbb -> r2scan_x_reg (2 * fl f_a) (4 * fl f_gaa) (2 * fl f_taua) -> r2scan_x_reg (2 * fl f_b) (4 * fl f_gbb) (2 * fl f_taub) ->
  In e [rppSCANx_rppSCANX; r2SCANx_r2SCANX; r4SCANx_r4SCANX] -> Sd [] e.
Proof.
  intros Ga Gb ((A1 & A2 & A3) & A4 & A5) ((B1 & B2 & B3) & B4 & B5) I'. cbn [In] in I'. destruct I' as [<-|[<-|[<-|[]]]]; [exch (fx_regular_2 0)|exch (fx_regular_2 1)|exch (fx_regular_2 2)].
Qed.
(** ** Correlation *)
Lemma scanc_regular : off_rs (fl f_n) -> off_tau (fl f_n) (fl f_gnn) (fl f_tau) -> nz_tau (fl f_n) (fl f_gnn) (fl f_tau) -> alpha_scan (tf (fl f_n) * ds_z (fl f_zeta)) (fl f_n) (fl f_gnn) (fl f_tau) <> 1 -> Sd [] (SCAN_eps_SCAN_C 0 0 0).
Proof.
  intros Or Ot Tz Oa. assert (N : 0 < fl f_n) by (rewrite (ph_n _ P); pose proof (ph_a _ P); pose proof (ph_b _ P); lra).
  sl r Er; [ub|]. red_in Er. destruct (rs_E _ _ N Er) as [R0 Rp]. sl r0 Er0; [ub|]. sl r1 Er1.
  { sif. split; [|split; intros _; ub]. rewrite Rabs_pos_eq by lra. rewrite R0. intro C. apply Or. rewrite <- C. lra. }
  sl d Ed; [ub|]. red_in Ed. apply ds_E in Ed. sl s Es; [ub|]. sl t Et; [ub|]. red_in Et. sl u0 Eu0; [ub|]. sl u1 Eu1; [ub|]. red_in Eu1. sl w Ew; [ub|]. red_in Ew. sl a0 Ea0; [ub|]. red_in Ea0.
  sl a Ea.
  { wrap. sif. split; [|split; intros _; ub]. rewrite Ew. intro C. apply Ot. rewrite <- C. lra. }
  red_in Ea. sl o Eo; [ub|]. sl f0 Ef0; [ub|]. sl f Ef; [|ub].
  wrap. sif. split; [|split; intros _; ub]. rewrite Ea, Eu1, Ew, Et, tf_E, Ed, Ea0; match goal with |- context [Rlt_dec ?u ?v] => destruct (Rlt_dec u v) end; [exact Oa|lra].
Qed.
Lemma rscanc_regular : off_rs (fl f_n) -> off_ief (alpha_rscan (tf_r (fl f_n) * ds_z (fl f_zeta)) (fl f_n) (fl f_gnn) (fl f_tau)) -> Sd [] (SCAN_eps_SCAN_C 1 1 0).
Proof.
  intros Or Oa. assert (N : 0 < fl f_n) by (rewrite (ph_n _ P); pose proof (ph_a _ P); pose proof (ph_b _ P); lra).
  sl r Er; [ub|]. red_in Er. destruct (rs_E _ _ N Er) as [R0 Rp]. sl r0 Er0; [ub|]. sl r1 Er1.
  { sif. split; [|split; intros _; ub]. rewrite Rabs_pos_eq by lra. rewrite R0. intro C. apply Or. rewrite <- C. lra. }
  sl d Ed; [ub|]. red_in Ed. apply ds_E in Ed. sl s Es; [ub|]. sl t Et; [ub|]. red_in Et. sl u0 Eu0; [ub|]. sl u1 Eu1; [ub|]. red_in Eu1. sl w Ew; [ub|]. red_in Ew. sl a0 Ea0; [ub|]. red_in Ea0.
  sl a Ea; [ub|]. red_in Ea. sl o Eo; [ub|]. sl f0 Ef0; [ub|]. sl f Ef; [|ub].
  assert (A : a = alpha_rscan (tf_r (fl f_n) * ds_z (fl f_zeta)) (fl f_n) (fl f_gnn) (fl f_tau)).
  { rewrite Ea, Ew, Eu1, Et, tf_E, Ed. unfold alpha_rscan, alpha_scan, tf_r. replace 0.001 with (1 / 1000) by (decs; lra). replace 0.0001 with (1 / 10000) by (decs; lra). unfold Rdiv. f_equal. f_equal. f_equal. ring. }
  rewrite <- A in Oa. destruct Oa as [Oa1 Oa2]. clear Ea. wrap. wrap. sif. ief Oa1 Oa2.
Qed.
Lemma r2scanc_regular i : off_rs (fl f_n) -> off_tau (fl f_n) (fl f_gnn) (fl f_tau) -> nz_tau (fl f_n) (fl f_gnn) (fl f_tau) -> off_ief (alpha_r2scan (tf (fl f_n) * ds_z (fl f_zeta)) (fl f_n) (fl f_gnn) (fl f_tau)) ->
  (i = 0 \/ i = 1 \/ i = 2)%nat -> Sd [] (SCAN_eps_SCAN_C 2 1 i).
Proof.
  intros Or Ot Tz Oa Dd. assert (N : 0 < fl f_n) by (rewrite (ph_n _ P); pose proof (ph_a _ P); pose proof (ph_b _ P); lra).
  sl r Er; [ub|]. red_in Er. destruct (rs_E _ _ N Er) as [R0 Rp]. sl r0 Er0; [ub|]. sl r1 Er1.
  { sif. split; [|split; intros _; ub]. rewrite Rabs_pos_eq by lra. rewrite R0. intro C. apply Or. rewrite <- C. lra. }
  sl d Ed; [ub|]. red_in Ed. apply ds_E in Ed. sl s Es; [ub|]. sl t Et; [ub|]. red_in Et. sl u0 Eu0; [ub|]. sl u1 Eu1; [ub|]. red_in Eu1. sl w Ew; [ub|]. red_in Ew. sl a0 Ea0; [ub|]. red_in Ea0.
  sl a Ea.
  { wrap. wrap. wrap. sif. split; [|split; intros _; ub]. rewrite Ew. intro C. apply Ot. rewrite <- C. lra. }
  red_in Ea. sl o Eo; [ub|]. sl f0 Ef0; [ub|]. sl f Ef; [|destruct Dd as [->|[->| ->]]; ub].
  assert (A : a = 0 \/ a = alpha_r2scan (tf (fl f_n) * ds_z (fl f_zeta)) (fl f_n) (fl f_gnn) (fl f_tau)).
  { rewrite Ea, Ew, Eu1, Et, tf_E, Ed, Ea0. match goal with |- context [Rlt_dec ?u ?v] => destruct (Rlt_dec u v) end; [right|now left]. unfold alpha_r2scan. replace 0.001 with (1 / 1000) by (decs; lra). reflexivity. }
  assert (Oa' : off_ief a) by (destruct A as [->| ->]; [unfold off_ief; split; lra|exact Oa]). clear Oa. destruct Oa' as [Oa1 Oa2]. clear Ea.
  wrap. wrap. sif. ief Oa1 Oa2.
Qed.
End S.
