(** * Scaling and limits (C34): concrete cases and functionals that break the laws *)
From Coq Require Import Reals QArith Qreals ZArith Arith Lia Lra Psatz List Bool String.
From Coquelicot Require Import Coquelicot.
From Verif Require Import Scalar RInst Tables Api SpecApi ApiProofs ApiProofs2 CTaylor CtAlg TMath Br Expr Densvars Functionals
  Eval SpecEval EvalProps Taint EvalExt Props_Eval Sem RSem EnergyR EvalR EvalReal EvalApi Phys Pw92 Mk Props_Deriv Props_Dens Props_Dens2 Homog Limit Props_Scale Props_Limit.
Import ListNotations.
Local Open Scope outcome_scope.
Local Open Scope R_scope.

Lemma covered_library (h h0 : handle ROps) v D x : reachable h -> xcfun_eval_setup h v XC_PARTIAL_DERIVATIVES 0 = Ok (h0, 0%Z) ->
  0 < (h_settings h XC_RANGESEP_MU : R) -> all_covered h D -> above D -> describes v x D -> exists e, library_energy h0 x e.
Proof.
  intros Hr S Mu Ac Ab De. destruct (C33_partial_defined (fun n _ => rconst n 0) h h0 v 0 D (fun _ => 0) x Hr S ltac:(lia) Mu Ac Ab De) as [ws E].
  exists (rd (K := ROps) (fun _ => 0) ws 0). exists ws. split; [exact E|reflexivity].
Qed.
(** The energy of a handle with one functional. *)
Lemma one_energy (h h0 : handle ROps) v D x i nm ex u : reachable h -> xcfun_eval_setup h v XC_PARTIAL_DERIVATIVES 0 = Ok (h0, 0%Z) ->
  h_active h = [i] -> i <> XC_REVTPSSX_id -> nth_error functionals i = Some (nm, ex) -> above D -> describes v x D ->
  reval (h_settings h) (fun _ => 0) (dvar D) [] ex = Some u -> forall e, library_energy h0 x e <-> e = h_settings h i * u.
Proof.
  intros Hr S A Ni F Ab De U e.
  assert (Th : tau_honest h v) by (intro X; exfalso; rewrite A in X; destruct X as [X|[]]; auto).
  destruct (described_energy h h0 v D x Hr S Th Ab De) as [[vd G] E]. rewrite A in E. cbn [rsum] in E. rewrite F in E.
  rewrite (lib_energy _ _ _ _ _ _ G), E, U. cbn [obnd]. split; intro H; [injection H as <-|subst e; f_equal]; cbn [T ROps]; ring.
Qed.

(** ** Concrete cases *)
(** An exchange mixture on an open-shell density, scaled by 2; the energy is defined. *)
Lemma exchange_handle : exists h : handle ROps, reachable h /\ h_active h = [0; 5; 6]%nat /\ 0 < (h_settings h XC_RANGESEP_MU : R) /\ all_covered h D_ex.
Proof.
  destruct (make (K := ROps) [("slaterx"%string, 0%nat, / 5); ("pbex"%string, 5%nat, 1); ("beckex"%string, 6%nat, - (1))] eq_refl) as (h & _ & Hr & A & S). exists h. split; [exact Hr|].
  change (mactive _) with [0; 5; 6]%nat in A. split; [exact A|]. split.
  - rewrite S. unfold msettings. cbn [map fold_left fst snd]. unfold wr_settings, upd. cbn. unfold Q2R. cbn. lra.
  - intros i nm Hi N. rewrite A in Hi. cbn [In] in Hi.
    destruct Hi as [<- | [<- | [<- | []]]]; vm_compute in N; injection N as <-; unfold covered; cbn [In any_gradient]; tauto.
Qed.
Example C34_exchange_example : exists (h h0 : handle ROps) x x' xa xb e, reachable h /\
  xcfun_eval_setup h XC_A_B_GAA_GAB_GBB XC_PARTIAL_DERIVATIVES 0 = Ok (h0, 0%Z) /\
  only scaling_exchange h /\ only spin_scaling h /\ tau_honest h XC_A_B_GAA_GAB_GBB /\ above D_ex /\ above (scale 2 D_ex) /\
  describes XC_A_B_GAA_GAB_GBB x D_ex /\ describes XC_A_B_GAA_GAB_GBB x' (scale 2 D_ex) /\
  describes XC_A_B_GAA_GAB_GBB xa (twice_alpha D_ex) /\ describes XC_A_B_GAA_GAB_GBB xb (twice_beta D_ex) /\
  library_energy h0 x e /\ library_energy h0 x' (2 ^ 4 * e).
Proof.
  destruct exchange_handle as (h & Hr & A & Mu & Ac).
  assert (S : exists h1, xcfun_eval_setup h XC_A_B_GAA_GAB_GBB XC_PARTIAL_DERIVATIVES 0 = Ok (h1, 0%Z)) by (eexists; apply accepts_ok; [exact Hr|rewrite A; vm_compute; reflexivity]).
  destruct S as [h0 S].
  assert (De : forall D, describes XC_A_B_GAA_GAB_GBB (fun i => nth i (encode XC_A_B_GAA_GAB_GBB D) 0) D) by (intro D; apply encode_describes; cbn; tauto).
  assert (O : only scaling_exchange h) by (intros i nm Hi Hn; rewrite A in Hi; cbn [In] in Hi; destruct Hi as [<- | [<- | [<- | []]]]; vm_compute in Hn; injection Hn as <-; cbn; tauto).
  assert (Ab2 : above (scale 2 D_ex)) by (split; cbn [rho al be D_ex scale scale_spin]; change threshold with (1 * / 100000000000000); lra).
  destruct (covered_library h h0 _ D_ex _ Hr S Mu Ac D_ex_above (De _)) as [e Le].
  exists h, h0. do 4 eexists. exists e. split; [exact Hr|]. split; [exact S|]. split; [exact O|].
  split; [intros i nm Hi Hn; unfold spin_scaling; apply in_or_app; left; exact (O i nm Hi Hn)|].
  split; [exact (covered_honest h D_ex _ Hr Ac)|]. split; [exact D_ex_above|]. split; [exact Ab2|].
  split; [exact (De _)|]. split; [exact (De _)|]. split; [exact (De _)|]. split; [exact (De _)|]. split; [exact Le|].
  apply (C34_exchange_scaling h h0 _ D_ex _ _ 2 e Hr S O ltac:(lra) D_ex_above Ab2 (De _) (De _)). exact Le.
Qed.
(** A spin-polarised density with zero gradient. *)
Definition D_uni : dens :=
  {| al := {| rho := 1; grad := V 0 0 0; hes := Hes 1 0 0 2 0 (-1); kin := 1; jp := 0 |};
     be := {| rho := / 8; grad := V 0 0 0; hes := Hes 0 1 0 0 0 1; kin := / 2; jp := 0 |} |}.
Lemma D_uni_above : above D_uni.
Proof. split; cbn [rho al be D_uni]; change threshold with (1 * / 100000000000000); lra. Qed.
Example C34_gas_example : exists (h h0 : handle ROps) x e, reachable h /\
  xcfun_eval_setup h XC_A_B_GAA_GAB_GBB XC_PARTIAL_DERIVATIVES 0 = Ok (h0, 0%Z) /\ only gas_exchange_limit h /\
  above D_uni /\ uniform D_uni /\ describes XC_A_B_GAA_GAB_GBB x D_uni /\ library_energy h0 x e /\ e = / 5 * (- (3 / 2 * Rpower (3 / (4 * PI)) (1 / 3)) * (17 / 16)).
Proof.
  destruct (make (K := ROps) [("slaterx"%string, 0%nat, / 5); ("pbex"%string, 5%nat, 1); ("beckex"%string, 6%nat, - (1))] eq_refl) as (h & _ & Hr & A & Es).
  change (mactive _) with [0; 5; 6]%nat in A.
  assert (Mu : 0 < (h_settings h XC_RANGESEP_MU : R)) by (rewrite Es; unfold msettings; cbn [map fold_left fst snd]; unfold wr_settings, upd; cbn; unfold Q2R; cbn; lra).
  assert (W : total_weight h = / 5) by (unfold total_weight; rewrite A, Es; unfold msettings; cbn [map fold_left fst snd fold_right]; unfold wr_settings, upd; cbn; unfold Q2R; cbn; lra).
  assert (S : exists h1, xcfun_eval_setup h XC_A_B_GAA_GAB_GBB XC_PARTIAL_DERIVATIVES 0 = Ok (h1, 0%Z)) by (eexists; apply accepts_ok; [exact Hr|rewrite A; vm_compute; reflexivity]).
  destruct S as [h0 S].
  assert (De : describes XC_A_B_GAA_GAB_GBB (fun i => nth i (encode XC_A_B_GAA_GAB_GBB D_uni) 0) D_uni) by (apply encode_describes; cbn; tauto).
  assert (Ac : all_covered h D_uni) by (intros i nm Hi Hn; rewrite A in Hi; cbn [In] in Hi; destruct Hi as [<- | [<- | [<- | []]]]; vm_compute in Hn; injection Hn as <-; unfold covered; cbn [In any_gradient]; tauto).
  assert (O : only gas_exchange_limit h) by (intros i nm Hi Hn; rewrite A in Hi; cbn [In] in Hi; destruct Hi as [<- | [<- | [<- | []]]]; vm_compute in Hn; injection Hn as <-; cbn; tauto).
  assert (Un : uniform D_uni) by (split; reflexivity).
  destruct (covered_library h h0 _ D_uni _ Hr S Mu Ac D_uni_above De) as [e Le].
  exists h, h0. eexists. exists e. split; [exact Hr|]. split; [exact S|]. split; [exact O|]. split; [exact D_uni_above|]. split; [exact Un|]. split; [exact De|]. split; [exact Le|].
  rewrite (C34_gas_exchange h h0 _ D_uni _ e Hr S O D_uni_above Un De Le), W. unfold gas_exchange. cbn [al be rho D_uni].

  replace (Rpower 1 (4 / 3)) with 1 by (unfold Rpower; now rewrite ln_1, Rmult_0_r, exp_0).
  replace (Rpower (/ 8) (4 / 3)) with (/ 16).
  { f_equal. f_equal. lra. }
  replace (/ 8) with ((/ 2) ^ 3) by lra. rewrite <- Rpower_pow by lra. rewrite Rpower_mult. replace (INR 3 * (4 / 3)) with (INR 4) by (cbn; field). rewrite Rpower_pow by lra. lra.
Qed.
(** PBE correlation at zero gradient is PW92, in different variable sets. *)
Example C34_correlation_example : exists (h h' h0 h0' : handle ROps) x x' e, reachable h /\ reachable h' /\
  xcfun_eval_setup h XC_A_B_GAA_GAB_GBB XC_PARTIAL_DERIVATIVES 0 = Ok (h0, 0%Z) /\
  xcfun_eval_setup h' XC_A_B XC_PARTIAL_DERIVATIVES 0 = Ok (h0', 0%Z) /\
  h_active h = [4]%nat /\ h_active h' = [28]%nat /\ h_settings h 4%nat = h_settings h' 28%nat /\
  In ("PBEC"%string, "PW92C"%string) correlation_limit /\ nth_error item_names 4 = Some "PBEC"%string /\ nth_error item_names 28 = Some "PW92C"%string /\
  above D_uni /\ uniform D_uni /\ describes XC_A_B_GAA_GAB_GBB x D_uni /\ describes XC_A_B x' D_uni /\
  library_energy h0 x e /\ library_energy h0' x' e.
Proof.
  destruct (make (K := ROps) [("pbec"%string, 4%nat, 1)] eq_refl) as (h & _ & Hr & A & Es). change (mactive _) with [4]%nat in A.
  destruct (make (K := ROps) [("pw92c"%string, 28%nat, 1)] eq_refl) as (h' & _ & Hr' & A' & Es'). change (mactive _) with [28]%nat in A'.
  assert (Mu : 0 < (h_settings h XC_RANGESEP_MU : R)) by (rewrite Es; unfold msettings; cbn [map fold_left fst snd]; unfold wr_settings, upd; cbn; unfold Q2R; cbn; lra).
  assert (W : h_settings h 4%nat = h_settings h' 28%nat) by (rewrite Es, Es'; unfold msettings; cbn [map fold_left fst snd fold_right]; unfold wr_settings, upd; cbn; unfold Q2R; cbn; lra).
  assert (S : exists h1, xcfun_eval_setup h XC_A_B_GAA_GAB_GBB XC_PARTIAL_DERIVATIVES 0 = Ok (h1, 0%Z)) by (eexists; apply accepts_ok; [exact Hr|rewrite A; vm_compute; reflexivity]).
  destruct S as [h0 S].
  assert (S' : exists h1, xcfun_eval_setup h' XC_A_B XC_PARTIAL_DERIVATIVES 0 = Ok (h1, 0%Z)) by (eexists; apply accepts_ok; [exact Hr'|rewrite A'; vm_compute; reflexivity]).
  destruct S' as [h0' S'].
  assert (De : describes XC_A_B_GAA_GAB_GBB (fun i => nth i (encode XC_A_B_GAA_GAB_GBB D_uni) 0) D_uni) by (apply encode_describes; cbn; tauto).
  assert (De' : describes XC_A_B (fun i => nth i (encode XC_A_B D_uni) 0) D_uni) by (apply encode_describes; cbn; tauto).
  assert (Ac : all_covered h D_uni) by (intros i nm Hi Hn; rewrite A in Hi; cbn [In] in Hi; destruct Hi as [<- | []]; vm_compute in Hn; injection Hn as <-; unfold covered; cbn [In any_gradient]; tauto).
  assert (Un : uniform D_uni) by (split; reflexivity).
  assert (Ip : In ("PBEC"%string, "PW92C"%string) correlation_limit) by (cbn; tauto).
  destruct (covered_library h h0 _ D_uni _ Hr S Mu Ac D_uni_above De) as [e Le].
  exists h, h', h0, h0'. do 2 eexists. exists e. split; [exact Hr|]. split; [exact Hr'|]. split; [exact S|]. split; [exact S'|]. split; [exact A|]. split; [exact A'|]. split; [exact W|].
  split; [exact Ip|]. split; [reflexivity|]. split; [reflexivity|]. split; [exact D_uni_above|]. split; [exact Un|]. split; [exact De|]. split; [exact De'|]. split; [exact Le|].
  exact (C34_local_correlation h h' h0 h0' _ _ D_uni _ _ _ _ _ _ e Hr Hr' S S' A A' W eq_refl eq_refl Ip D_uni_above Un De De' Le).
Qed.

(** A kinetic energy mixture, and a sum of pure gradient corrections. *)
Example C34_kinetic_example : exists (h h0 : handle ROps) x x' e, reachable h /\ h_active h = [24; 27]%nat /\
  xcfun_eval_setup h XC_A_B_GAA_GAB_GBB XC_PARTIAL_DERIVATIVES 0 = Ok (h0, 0%Z) /\ only scaling_kinetic h /\ above D_ex /\ above (scale 2 D_ex) /\
  describes XC_A_B_GAA_GAB_GBB x D_ex /\ describes XC_A_B_GAA_GAB_GBB x' (scale 2 D_ex) /\ library_energy h0 x e.
Proof.
  destruct (make (K := ROps) [("tfk"%string, 24%nat, 1); ("pw91k"%string, 27%nat, / 3)] eq_refl) as (h & _ & Hr & A & Es). change (mactive _) with [24; 27]%nat in A.
  assert (Mu : 0 < (h_settings h XC_RANGESEP_MU : R)) by (rewrite Es; unfold msettings; cbn [map fold_left fst snd]; unfold wr_settings, upd; cbn; unfold Q2R; cbn; lra).
  assert (S : exists h1, xcfun_eval_setup h XC_A_B_GAA_GAB_GBB XC_PARTIAL_DERIVATIVES 0 = Ok (h1, 0%Z)) by (eexists; apply accepts_ok; [exact Hr|rewrite A; vm_compute; reflexivity]).
  destruct S as [h0 S].
  assert (De : forall D, describes XC_A_B_GAA_GAB_GBB (fun i => nth i (encode XC_A_B_GAA_GAB_GBB D) 0) D) by (intro D; apply encode_describes; cbn; tauto).
  assert (Ac : all_covered h D_ex) by (intros i nm Hi Hn; rewrite A in Hi; cbn [In] in Hi; destruct Hi as [<- | [<- | []]]; vm_compute in Hn; injection Hn as <-; unfold covered; cbn [In any_gradient]; tauto).
  assert (O : only scaling_kinetic h) by (intros i nm Hi Hn; rewrite A in Hi; cbn [In] in Hi; destruct Hi as [<- | [<- | []]]; vm_compute in Hn; injection Hn as <-; cbn; tauto).
  assert (Ab2 : above (scale 2 D_ex)) by (split; cbn [rho al be D_ex scale scale_spin]; change threshold with (1 * / 100000000000000); lra).
  destruct (covered_library h h0 _ D_ex _ Hr S Mu Ac D_ex_above (De _)) as [e Le].
  exists h, h0. do 2 eexists. exists e. split; [exact Hr|]. split; [exact A|]. split; [exact S|]. split; [exact O|]. split; [exact D_ex_above|]. split; [exact Ab2|].
  split; [exact (De _)|]. split; [exact (De _)|]. exact Le.
Qed.
Example C34_corrections_example : exists (h h0 : handle ROps) x e, reachable h /\ h_active h = [7; 23]%nat /\
  xcfun_eval_setup h XC_A_B_GAA_GAB_GBB XC_PARTIAL_DERIVATIVES 0 = Ok (h0, 0%Z) /\ only no_limit h /\ above D_uni /\ uniform D_uni /\
  describes XC_A_B_GAA_GAB_GBB x D_uni /\ library_energy h0 x e.
Proof.
  destruct (make (K := ROps) [("beckecorrx"%string, 7%nat, 1); ("ktx"%string, 23%nat, / 3)] eq_refl) as (h & _ & Hr & A & Es). change (mactive _) with [7; 23]%nat in A.
  assert (Mu : 0 < (h_settings h XC_RANGESEP_MU : R)) by (rewrite Es; unfold msettings; cbn [map fold_left fst snd]; unfold wr_settings, upd; cbn; unfold Q2R; cbn; lra).
  assert (S : exists h1, xcfun_eval_setup h XC_A_B_GAA_GAB_GBB XC_PARTIAL_DERIVATIVES 0 = Ok (h1, 0%Z)) by (eexists; apply accepts_ok; [exact Hr|rewrite A; vm_compute; reflexivity]).
  destruct S as [h0 S].
  assert (De : describes XC_A_B_GAA_GAB_GBB (fun i => nth i (encode XC_A_B_GAA_GAB_GBB D_uni) 0) D_uni) by (apply encode_describes; cbn; tauto).
  assert (Ac : all_covered h D_uni) by (intros i nm Hi Hn; rewrite A in Hi; cbn [In] in Hi; destruct Hi as [<- | [<- | []]]; vm_compute in Hn; injection Hn as <-; unfold covered; cbn [In any_gradient]; tauto).
  assert (O : only no_limit h) by (intros i nm Hi Hn; rewrite A in Hi; cbn [In] in Hi; destruct Hi as [<- | [<- | []]]; vm_compute in Hn; injection Hn as <-; cbn; tauto).
  destruct (covered_library h h0 _ D_uni _ Hr S Mu Ac D_uni_above De) as [e Le].
  exists h, h0. eexists. exists e. split; [exact Hr|]. split; [exact A|]. split; [exact S|]. split; [exact O|]. split; [exact D_uni_above|]. split; [split; reflexivity|].
  split; [exact De|]. exact Le.
Qed.

(** ** Functionals that break the laws *)
(** "tw" is described as the von Weizsaecker kinetic energy, whose scaling exponent is 5; the
    square in /repo/src/functionals/tw.cpp 20-22 makes it 13. *)
Theorem C34_tw_scaling_refuted :
  exists (h h0 : handle ROps) x x' e, Api.run xcfun_new [CSet "tw" (1 : ROps)] = Ok h /\
    xcfun_eval_setup h XC_A_B_GAA_GAB_GBB XC_PARTIAL_DERIVATIVES 0 = Ok (h0, 0%Z) /\
    above D_ex /\ above (scale 2 D_ex) /\ describes XC_A_B_GAA_GAB_GBB x D_ex /\ describes XC_A_B_GAA_GAB_GBB x' (scale 2 D_ex) /\
    library_energy h0 x e /\ library_energy h0 x' (2 ^ 13 * e) /\ ~ library_energy h0 x' (2 ^ 5 * e).
Proof.
  destruct (make (K := ROps) [("tw"%string, 25%nat, 1)] eq_refl) as (h & Eh & Hr & A & Es). change (mactive _) with [25]%nat in A.
  assert (W : h_settings h 25%nat = 1) by (rewrite Es; unfold msettings; cbn [map fold_left fst snd fold_right]; unfold wr_settings, upd; cbn; unfold Q2R; cbn; lra).
  assert (S : exists h1, xcfun_eval_setup h XC_A_B_GAA_GAB_GBB XC_PARTIAL_DERIVATIVES 0 = Ok (h1, 0%Z)) by (eexists; apply accepts_ok; [exact Hr|rewrite A; vm_compute; reflexivity]).
  destruct S as [h0 S].
  assert (De : forall D, describes XC_A_B_GAA_GAB_GBB (fun i => nth i (encode XC_A_B_GAA_GAB_GBB D) 0) D) by (intro D; apply encode_describes; cbn; tauto).
  assert (Ab2 : above (scale 2 D_ex)) by (split; cbn [rho al be D_ex scale scale_spin]; change threshold with (1 * / 100000000000000); lra).
  assert (V : forall D, above D -> 0 < dot (grad (al D)) (grad (al D)) + dot (grad (be D)) (grad (be D)) ->
     reval (h_settings h) (fun _ => 0) (dvar D) [] tw = Some (/ 8 * (dot (grad (al D)) (grad (al D)) + dot (grad (be D)) (grad (be D))) ^ 2 / (rho (al D) + rho (be D)))).
  { intros D [Pa Pb] Hg. pose proof tiny_pos. unfold tw. cbn [reval seval obnd]. rewrite sdivq by (apply Qeq_bool_neq; reflexivity). cbn [obnd dvar].
    unfold rpow. destruct (Rlt_dec 0 _) as [_|X]; [|exfalso; apply X; exact Hg]. cbn [obnd]. unfold rdiv. cbn [obnd].
    match goal with |- context [if ?b then _ else _] => destruct b as [X|_]; [exfalso; lra|] end. f_equal.
    match goal with |- context [Rpower _ ?b] => replace b with (INR 2) by (cbn [OofQ ROps]; unfold Q2R; cbn; lra) end. rewrite Rpower_pow by exact Hg.
    match goal with |- ?b * _ / _ = _ => replace b with (/ 8) by (cbn [OofQ ROps]; unfold Q2R; cbn; lra) end. reflexivity. }
  pose proof (one_energy h h0 _ D_ex _ 25 _ tw _ Hr S A ltac:(discriminate) eq_refl D_ex_above (De _) (V D_ex D_ex_above ltac:(unfold dot; cbn; lra))) as E1.
  pose proof (one_energy h h0 _ (scale 2 D_ex) _ 25 _ tw _ Hr S A ltac:(discriminate) eq_refl Ab2 (De _) (V _ Ab2 ltac:(unfold dot; cbn; lra))) as E2.
  rewrite W in E1, E2. unfold dot in E1, E2. cbn in E1, E2.
  exists h, h0. do 2 eexists. eexists. split; [exact Eh|]. split; [exact S|]. split; [exact D_ex_above|]. split; [exact Ab2|]. split; [exact (De _)|]. split; [exact (De _)|].
  split; [apply E1; reflexivity|]. split; [apply E2; lra|]. intro X. apply E2 in X. lra.
Qed.
Print Assumptions C34_tw_scaling_refuted.
(** "tfk" sees the total density only, so the spin scaling relation of the kinetic energy,
    T[na, nb] = (T[na, na] + T[nb, nb]) / 2, fails for it. *)
Definition D_tf : dens :=
  {| al := {| rho := / 2; grad := V 0 0 0; hes := Hes 0 0 0 0 0 0; kin := 1; jp := 0 |};
     be := {| rho := 4; grad := V 0 0 0; hes := Hes 0 0 0 0 0 0; kin := 1; jp := 0 |} |}.
Theorem C34_tfk_spin_scaling_refuted :
  exists (h h0 : handle ROps) x xa xb e ea eb, Api.run xcfun_new [CSet "tfk" (1 : ROps)] = Ok h /\
    xcfun_eval_setup h XC_A_B XC_PARTIAL_DERIVATIVES 0 = Ok (h0, 0%Z) /\
    above D_tf /\ describes XC_A_B x D_tf /\ describes XC_A_B xa (twice_alpha D_tf) /\ describes XC_A_B xb (twice_beta D_tf) /\
    library_energy h0 x e /\ library_energy h0 xa ea /\ library_energy h0 xb eb /\ e <> (ea + eb) / 2.
Proof.
  destruct (make (K := ROps) [("tfk"%string, 24%nat, 1)] eq_refl) as (h & Eh & Hr & A & Es). change (mactive _) with [24]%nat in A.
  assert (W : h_settings h 24%nat = 1) by (rewrite Es; unfold msettings; cbn [map fold_left fst snd fold_right]; unfold wr_settings, upd; cbn; unfold Q2R; cbn; lra).
  assert (S : exists h1, xcfun_eval_setup h XC_A_B XC_PARTIAL_DERIVATIVES 0 = Ok (h1, 0%Z)) by (eexists; apply accepts_ok; [exact Hr|rewrite A; vm_compute; reflexivity]).
  destruct S as [h0 S].
  assert (De : forall D, describes XC_A_B (fun i => nth i (encode XC_A_B D) 0) D) by (intro D; apply encode_describes; cbn; tauto).
  assert (Ab : above D_tf) by (split; cbn [rho al be D_tf]; change threshold with (1 * / 100000000000000); lra).
  assert (Aba : above (twice_alpha D_tf)) by (split; apply Ab). assert (Abb : above (twice_beta D_tf)) by (split; apply Ab).
  assert (V : exists c, 0 < c /\ forall D, above D -> reval (h_settings h) (fun _ => 0) (dvar D) [] tfk = Some (c * Rpower (rho (al D) + rho (be D)) (5 / 3))).
  { assert (E1 : seval (K := ROps) (h_settings h) (5.0 / 3.0)%sx = Some (5 / 3)) by (apply sv_div; [cbn [seval OofQ ROps]; f_equal; unfold Q2R; cbn; lra|cbn [seval OofQ ROps]; f_equal; unfold Q2R; cbn; lra|lra]).
    assert (E2 : seval (K := ROps) (h_settings h) (2.0 / 3.0)%sx = Some (2 / 3)) by (apply sv_div; [cbn [seval OofQ ROps]; f_equal; unfold Q2R; cbn; lra|cbn [seval OofQ ROps]; f_equal; unfold Q2R; cbn; lra|lra]).
    assert (E3 : seval (K := ROps) (h_settings h) c_CF = Some (3 / 10 * Rpower (3 * (PI * PI)) (2 / 3))).
    { unfold c_CF, c_PI2. cbn [seval obnd] in *. rewrite E2. cbn [obnd Oltb ROps Opow Omul Opi OofQ]. replace (Q2R 0.3) with (3 / 10) by (unfold Q2R; cbn; lra). replace (Q2R 0) with 0 by (unfold Q2R; cbn; lra). replace (Q2R 3) with 3 by (unfold Q2R; cbn; lra).
      assert (L : 0 < 3 * (PI * PI)) by (pose proof PI_RGT_0; nra). rewrite (proj2 (Rltb_true 0 _) L). cbn [obnd]. rewrite powR_pos by exact L. reflexivity. }
    exists (3 / 10 * Rpower (3 * (PI * PI)) (2 / 3)). split; [pose proof (exp_pos (2 / 3 * ln (3 * (PI * PI)))); unfold Rpower; lra|].
    intros D [Pa Pb]. pose proof tiny_pos. unfold tfk. cbn [reval]. rewrite E3, E1. cbn [obnd dvar]. rewrite rpow_ok by lra. reflexivity. }
  destruct V as (c & Pc & V).
  pose proof (one_energy h h0 _ D_tf _ 24 _ tfk _ Hr S A ltac:(discriminate) eq_refl Ab (De _) (V _ Ab)) as E1.
  pose proof (one_energy h h0 _ _ _ 24 _ tfk _ Hr S A ltac:(discriminate) eq_refl Aba (De _) (V _ Aba)) as E2.
  pose proof (one_energy h h0 _ _ _ 24 _ tfk _ Hr S A ltac:(discriminate) eq_refl Abb (De _) (V _ Abb)) as E3.
  rewrite W in E1, E2, E3. cbn [rho al be D_tf twice_alpha twice_beta] in E1, E2, E3.
  exists h, h0. do 6 eexists. split; [exact Eh|]. split; [exact S|]. split; [exact Ab|]. split; [exact (De _)|]. split; [exact (De _)|]. split; [exact (De _)|].
  split; [apply E1; reflexivity|]. split; [apply E2; reflexivity|]. split; [apply E3; reflexivity|].
  replace (/ 2 + / 2) with 1 by lra. replace (Rpower 1 (5 / 3)) with 1 by (unfold Rpower; now rewrite ln_1, Rmult_0_r, exp_0).
  replace (Rpower (4 + 4) (5 / 3)) with 32.
  2: { replace (4 + 4) with (2 ^ 3) by lra. rewrite <- Rpower_pow by lra. rewrite Rpower_mult. replace (INR 3 * (5 / 3)) with (INR 5) by (cbn; field). rewrite Rpower_pow by lra. lra. }
  intro X. assert (Y : Rpower (/ 2 + 4) (5 / 3) = 33 / 2) by nra.
  assert (Z : (Rpower (/ 2 + 4) (5 / 3)) ^ 3 = (/ 2 + 4) ^ 5).
  { rewrite <- Rpower_pow by apply exp_pos. rewrite Rpower_mult. replace (5 / 3 * INR 3) with (INR 5) by (cbn; field). apply Rpower_pow. lra. }
  rewrite Y in Z. lra.
Qed.
Print Assumptions C34_tfk_spin_scaling_refuted.
