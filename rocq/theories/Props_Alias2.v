(** * Named combinations (C36): concrete cases, equal descriptions of one functional, and two
      combinations that lack a published part *)
From Coq Require Import Reals QArith Qreals ZArith Arith Lia Lra List Bool String.
From Coquelicot Require Import Coquelicot.
From Verif Require Import Scalar RInst Tables Api SpecApi ApiProofs ApiProofs2 CTaylor CtAlg TMath Br Expr Densvars Functionals
  Eval SpecEval EvalProps Taint EvalExt Props_Api Props_Eval Sem RSem EnergyR EvalR EvalReal EvalApi Phys Mk Props_Deriv Props_Dens Props_Dens2 Props_Scale Props_Scale2 Value.
From Verif Require Import Published PubTac PubX Props_Published Props_Published2 Composition Props_Alias.
Import ListNotations.
Local Open Scope outcome_scope.
Local Open Scope R_scope.

(** ** Concrete cases *)
Example C36_pbe0_example : In ("pbe0"%string, [("PBEX"%string, (3 # 4)%Q); ("PBEC"%string, 1%Q); ("EXX"%string, (1 # 4)%Q)]) compositions /\
  ci_eq "PBE0" "pbe0" /\ exists h : handle ROps, xcfun_set xcfun_new "PBE0" (2 : T ROps) = Ok (h, 0%Z) /\
    xcfun_get h "PBEX" = Some (3 / 2 : T ROps) /\ xcfun_get h "EXX" = Some (1 / 2 : T ROps) /\ xcfun_get h "LYPC" = Some (0 : T ROps).
Proof.
  assert (I' : In ("pbe0"%string, [("PBEX"%string, (3 # 4)%Q); ("PBEC"%string, 1%Q); ("EXX"%string, (1 # 4)%Q)]) compositions) by (do 17 right; left; reflexivity).
  assert (Ci : ci_eq "PBE0" "pbe0") by (apply strcasecmp_ci; reflexivity).
  split; [exact I'|]. split; [exact Ci|]. destruct (C36_composition _ _ _ 2 I' Ci) as (h & E & G). exists h. split; [exact E|].
  split; [rewrite (G 5%nat "PBEX"%string eq_refl); f_equal; unfold reported; cbn; unfold Q2R; cbn; field|].
  split; [rewrite (G 79%nat "EXX"%string eq_refl); f_equal; unfold reported; cbn; unfold Q2R; cbn; field|]. rewrite (G 16%nat "LYPC"%string eq_refl). reflexivity.
Qed.
(** PBE0 with weight 2 on an open-shell density: the hypotheses of C36_energy hold and the energy exists. *)
Example C36_energy_example : exists (h h0 : handle ROps) x e, xcfun_set xcfun_new "PBE0" (2 : T ROps) = Ok (h, 0%Z) /\
  xcfun_eval_setup h XC_A_B_GAA_GAB_GBB XC_PARTIAL_DERIVATIVES 0 = Ok (h0, 0%Z) /\ above D_ex /\ describes XC_A_B_GAA_GAB_GBB x D_ex /\
  mixture_for [("PBEX"%string, (3 # 4)%Q); ("PBEC"%string, 1%Q); ("EXX"%string, (1 # 4)%Q)] 2 D_ex /\ library_energy h0 x e /\
  e = 2 * (3 / 4 * gga_x (F_pbe 0.804 (0.066725 * PI ^ 2 / 3)) D_ex + pbe_c beta_pbe D_ex).
Proof.
  assert (I' : In ("pbe0"%string, [("PBEX"%string, (3 # 4)%Q); ("PBEC"%string, 1%Q); ("EXX"%string, (1 # 4)%Q)]) compositions) by (do 17 right; left; reflexivity).
  assert (Ci : ci_eq "PBE0" "pbe0") by (apply strcasecmp_ci; reflexivity).
  destruct (mixture_set _ _ _ 2 I' Ci) as (h & E & A). pose proof (fun i item => mixture_settings _ _ 2 h i item I' A) as G.
  assert (Hr : reachable h) by (exists [CSet "PBE0" (2 : T ROps)]; cbn [Api.run step]; rewrite E; reflexivity).
  assert (Ac : h_active h = [5; 4]%nat) by (destruct A as (_ & A & _); rewrite A; reflexivity).
  assert (S : exists h1, xcfun_eval_setup h XC_A_B_GAA_GAB_GBB XC_PARTIAL_DERIVATIVES 0 = Ok (h1, 0%Z)) by (eexists; apply accepts_ok; [exact Hr|rewrite Ac; vm_compute; reflexivity]).
  destruct S as [h0 S].
  assert (De : describes XC_A_B_GAA_GAB_GBB (fun i => nth i (encode XC_A_B_GAA_GAB_GBB D_ex) 0) D_ex) by (apply encode_describes; cbn; tauto).
  assert (Mu : 0 < (h_settings h XC_RANGESEP_MU : R)) by (rewrite (G XC_RANGESEP_MU "RANGESEP_MU"%string eq_refl); unfold reported; cbn; unfold Q2R; cbn; lra).
  assert (Cv : all_covered h D_ex) by (intros i nm Hi Hn; rewrite Ac in Hi; cbn [In] in Hi; destruct Hi as [<- | [<- | []]]; vm_compute in Hn; injection Hn as <-; unfold covered; cbn [In any_gradient]; tauto).
  assert (Mf : mixture_for [("PBEX"%string, (3 # 4)%Q); ("PBEC"%string, 1%Q); ("EXX"%string, (1 # 4)%Q)] 2 D_ex).
  { intros p [<-|[<-|[<-|[]]]] N; cbn [fst] in *; [eexists; split; [reflexivity|exact Logic.I]|eexists; split; [reflexivity|exact Logic.I]|exfalso; apply N; cbn; tauto]. }
  destruct (covered_library h h0 _ D_ex _ Hr S Mu Cv D_ex_above De) as [e Le].
  exists h, h0. eexists. exists e. split; [exact E|]. split; [exact S|]. split; [exact D_ex_above|]. split; [exact De|]. split; [exact Mf|]. split; [exact Le|].
  rewrite (C36_energy _ _ _ 2 h h0 _ D_ex _ e I' Ci E S Mf D_ex_above De Le). f_equal. unfold mixture_energy. cbn [fold_right fst snd].
  change (reference_of "PBEX") with (Some (mkRef "PBEX" (fun _ _ _ => gga_x (F_pbe 0.804 (0.066725 * PI ^ 2 / 3))) always)).
  change (reference_of "PBEC") with (Some (mkRef "PBEC" (fun _ _ _ => pbe_c beta_pbe) always)). change (reference_of "EXX") with (@None reference). cbv iota. cbn [ref_energy].
  generalize (gga_x (F_pbe 0.804 (0.066725 * PI ^ 2 / 3)) D_ex) (pbe_c beta_pbe D_ex). intros p q. unfold Q2R. cbn [Qnum Qden]. field.
Qed.

(** ** Two combinations without their exact exchange *)
(** "m06" and "m06-2x" leave the exact-exchange coefficient at 0, while the functionals of these
    names contain 27% and 54% of it (/repo/src/functionals/aliases.cpp 49-50). *)
Lemma two_terms name t1 t2 i1 i2 : no_item name -> is_alias name [(t1, 1.0%Q); (t2, 1.0%Q)] -> names_items [(t1, i1); (t2, i2)] = true ->
  exists h : handle ROps, xcfun_set xcfun_new name (1 : T ROps) = Ok (h, 0%Z) /\ h_settings h = msettings [(i1, Omul (1 : T ROps) (OofQ 1.0%Q)); (i2, Omul (1 : T ROps) (OofQ 1.0%Q))].
Proof.
  intros N A Ni. destruct (C04_alias_is_terms ROps xcfun_new name (1 : T ROps) _ ltac:(exists []; reflexivity) N A) as (h & E & Er). exists h. split; [exact E|].
  destruct (make (K := ROps) [(t1, i1, Omul (1 : T ROps) (OofQ 1.0%Q)); (t2, i2, Omul (1 : T ROps) (OofQ 1.0%Q))] Ni) as (h' & Eh & _ & _ & Es). cbn [map fst snd] in Er, Eh, Es.
  rewrite Er in Eh. injection Eh as <-. exact Es.
Qed.
Theorem C36_m06_refuted :
  forall nm m, In (nm, m) minnesota_hybrids ->
    exists h : handle ROps, xcfun_set xcfun_new nm (1 : T ROps) = Ok (h, 0%Z) /\ xcfun_get h "EXX" = Some (0 : T ROps) /\ reported m 1 "EXX" <> 0.
Proof.
  assert (IE : is_item "EXX" 79) by (apply lookup_parameter_spec; vm_compute; reflexivity).
  assert (NI : forall nm, xcint_lookup_functional nm = None -> xcint_lookup_parameter nm = None -> no_item nm).
  { intros nm E1 E2. destruct (item_dec nm) as [[i Hi]|N]; [|exact N]. exfalso. destruct (Nat.lt_ge_cases i 78) as [L|L].
    - assert (X : xcint_lookup_functional nm = Some i) by (apply lookup_functional_spec; auto). congruence.
    - assert (X : xcint_lookup_parameter nm = Some i) by (apply lookup_parameter_spec; auto). congruence. }
  intros nm m [E|[E|[]]]; injection E as <- <-.
  - destruct (two_terms "m06" "m06c" "m06x" 37 31) as (h & E & Es); [apply NI; vm_compute; reflexivity|exists "m06"%string; split; [apply (nth_error_In _ 11); reflexivity|apply strcasecmp_ci; reflexivity]|vm_compute; reflexivity|].
    exists h. split; [exact E|]. split; [|unfold reported; cbn; unfold Q2R; cbn; lra]. rewrite (get_item h "EXX" 79 IE), Es. f_equal. unfold msettings. cbn [fold_left]. unfold wr_settings, Api.upd. cbn. unfold Q2R. cbn. ring.
  - destruct (two_terms "m06-2x" "m06x2c" "m06x2x" 40 32) as (h & E & Es); [apply NI; vm_compute; reflexivity|exists "m06-2x"%string; split; [apply (nth_error_In _ 12); reflexivity|apply strcasecmp_ci; reflexivity]|vm_compute; reflexivity|].
    exists h. split; [exact E|]. split; [|unfold reported; cbn; unfold Q2R; cbn; lra]. rewrite (get_item h "EXX" 79 IE), Es. f_equal. unfold msettings. cbn [fold_left]. unfold wr_settings, Api.upd. cbn. unfold Q2R. cbn. ring.
Qed.
Print Assumptions C36_m06_refuted.

(** ** Two descriptions of the same functional *)
Definition value (h : handle ROps) (D : dens) : R :=
  fold_right (fun i s => match nth_error functionals i with Some (_, e) => (h_settings h i : R) * tv (h_settings h) (fun _ => 0) (dvar D) [] e | None => 0 end + s) 0 (h_active h).
Lemma rsum_value (h : handle ROps) D A : forall w, rsum (h_settings h) (fun _ => 0) (dvar D) A = Some w ->
  w = fold_right (fun i s => match nth_error functionals i with Some (_, e) => (h_settings h i : R) * tv (h_settings h) (fun _ => 0) (dvar D) [] e | None => 0 end + s) 0 A.
Proof.
  induction A as [|i A IH]; intros w E; cbn [rsum fold_right] in *; [injection E as <-; reflexivity|].
  destruct (nth_error functionals i) as [[nm e]|]; [|discriminate].
  destruct (reval (h_settings h) _ (dvar D) [] e) as [u|] eqn:U; [|discriminate]. cbn [obnd] in E. destruct (rsum (h_settings h) _ (dvar D) A) as [s|]; [|discriminate]. cbn [obnd] in E. injection E as <-.
  rewrite (IH s eq_refl), (tv_ok _ _ _ e [] u U). cbn [T ROps Omul]. ring.
Qed.
Lemma covered_value (h h0 : handle ROps) v D x e : reachable h -> xcfun_eval_setup h v XC_PARTIAL_DERIVATIVES 0 = Ok (h0, 0%Z) ->
  0 < (h_settings h XC_RANGESEP_MU : R) -> all_covered h D -> above D -> describes v x D -> (library_energy h0 x e <-> e = value h D).
Proof.
  intros Hr S Mu Ac Ab De. destruct (described_energy h h0 v D x Hr S (covered_honest h D v Hr Ac) Ab De) as [[vd G] E].
  destruct (covered_energy0 h h0 v D x Hr S Mu Ac Ab De) as [e' E']. rewrite (lib_energy _ _ _ _ _ _ G), E.
  rewrite E in E'. destruct (rsum (h_settings h) _ (dvar D) (h_active h)) as [s|] eqn:Q; [|discriminate].
  rewrite (rsum_value h D _ _ Q). fold (value h D). split; intro H; [now injection H as <-|now subst e].
Qed.
Lemma default_mu (h : handle ROps) l : h_settings h = msettings l -> ~ In XC_RANGESEP_MU (map fst l) -> 0 < (h_settings h XC_RANGESEP_MU : R).
Proof. intros -> N. unfold msettings. rewrite settings_other by exact N. cbn. unfold Q2R. cbn. lra. Qed.
Lemma b88_split (st : nat -> R) D : above D ->
  tv (st : nat -> T ROps) (fun _ => 0) (dvar D) [] beckex = tv (st : nat -> T ROps) (fun _ => 0) (dvar D) [] slater_slaterx + tv (st : nat -> T ROps) (fun _ => 0) (dvar D) [] beckex_beckexcorr.
Proof.
  intro Ab. pose proof (phys_dvar D Ab) as P. generalize dependent (dvar D). intros fl P. destruct P as [Pa Pb Pga Pgb Pgn Pn Pz Pr Pn13 Pa43 Pb43 Pgab Ps].
  pose (c := fun n g => - (21 / 5000 * Rpower n (4 / 3) * (g * Rpower n (-8 / 3))) / (63 / 2500 * sqas (g * Rpower n (-8 / 3)) + 1)).
  assert (E1 : tv (st : nat -> T ROps) (fun _ => 0) fl [] slater_slaterx = - Rpower (81 / (32 * PI)) (1 / 3) * (fl f_a_43 + fl f_b_43)) by (vred; reflexivity).
  assert (E2 : tv (st : nat -> T ROps) (fun _ => 0) fl [] beckex_beckexcorr = c (fl f_a) (fl f_gaa) + c (fl f_b) (fl f_gbb)) by (vred; reflexivity).
  rewrite E1, E2, Pa43, Pb43. vred. fold (c (fl f_a) (fl f_gaa)) (c (fl f_b) (fl f_gbb)). rewrite !lda_spin_eq by assumption.
  pose proof (lda_spin_eq2 _ Pa) as La. pose proof (lda_spin_eq2 _ Pb) as Lb. rewrite Rmult_plus_distr_l, !Ropp_mult_distr_l_reverse, La, Lb. ring.
Qed.
Lemma optx_split (st : nat -> R) D : above D ->
  tv (st : nat -> T ROps) (fun _ => 0) (dvar D) [] optx = 1.05151 * tv (st : nat -> T ROps) (fun _ => 0) (dvar D) [] slater_slaterx - 1.43169 * tv (st : nat -> T ROps) (fun _ => 0) (dvar D) [] optxcorr.
Proof.
  intro Ab. pose proof (phys_dvar D Ab) as P. rewrite (k_optx st _ (dvar D) P), (k_optxcorr st _ (dvar D) P). generalize dependent (dvar D). intros fl P. destruct P as [Pa Pb Pga Pgb Pgn Pn Pz Pr Pn13 Pa43 Pb43 Pgab Ps].
  assert (E1 : tv (st : nat -> T ROps) (fun _ => 0) fl [] slater_slaterx = - Rpower (81 / (32 * PI)) (1 / 3) * (fl f_a_43 + fl f_b_43)) by (vred; reflexivity).
  rewrite E1, Pa43, Pb43. pose proof (lda_spin_eq2 _ Pa) as La. pose proof (lda_spin_eq2 _ Pb) as Lb. rewrite Rmult_plus_distr_l, !Ropp_mult_distr_l_reverse, La, Lb.
  unfold ps, optx_spin. decs. field.
Qed.
(** "b88x" = "beckex": the sum of Slater exchange and Becke's correction is Becke's functional, at
    every density. *)
Theorem C36_b88x_is_beckex :
  forall (w : R) (h1 h2 h10 h20 : handle ROps) v D x e,
    xcfun_set xcfun_new "b88x" (w : T ROps) = Ok (h1, 0%Z) -> xcfun_set xcfun_new "beckex" (w : T ROps) = Ok (h2, 0%Z) ->
    xcfun_eval_setup h1 v XC_PARTIAL_DERIVATIVES 0 = Ok (h10, 0%Z) -> xcfun_eval_setup h2 v XC_PARTIAL_DERIVATIVES 0 = Ok (h20, 0%Z) ->
    above D -> describes v x D -> (library_energy h10 x e <-> library_energy h20 x e).
Proof.
  intros w h1 h2 h10 h20 v D x e E1 E2 S1 S2 Ab De.
  assert (I' : In ("b88x"%string, [("SLATERX"%string, 1%Q); ("BECKECORRX"%string, 1%Q)]) compositions) by (do 10 right; left; reflexivity).
  destruct (mixture_set _ "b88x" _ w I' ltac:(apply strcasecmp_ci; reflexivity)) as (h & E & A1). rewrite E1 in E. apply set_ok_inj in E. subst h.
  assert (R1 : reachable h1) by (exists [CSet "b88x" (w : T ROps)]; cbn [Api.run step]; rewrite E1; reflexivity).
  assert (R2 : reachable h2) by (exists [CSet "beckex" (w : T ROps)]; cbn [Api.run step]; rewrite E2; reflexivity).
  assert (B1 : h_active h1 = [0; 7]%nat) by (destruct A1 as (_ & A & _); rewrite A; reflexivity).
  destruct (make (K := ROps) [("beckex"%string, 6%nat, w)] eq_refl) as (h & E & _ & B2 & A2). cbn [map fst snd Api.run step] in E, A2. rewrite E2 in E. injection E as <-. change (mactive _) with [6]%nat in B2.
  assert (M1 : 0 < (h_settings h1 XC_RANGESEP_MU : R)) by (apply (default_mu h1 (mwrites [("SLATERX"%string, 1%Q); ("BECKECORRX"%string, 1%Q)] w) (proj1 A1)); vm_compute; lia).
  assert (M2 : 0 < (h_settings h2 XC_RANGESEP_MU : R)) by (apply (default_mu h2 _ A2); vm_compute; lia).
  assert (C1 : all_covered h1 D) by (intros i nm Hi Hn; rewrite B1 in Hi; cbn [In] in Hi; destruct Hi as [<- | [<- | []]]; vm_compute in Hn; injection Hn as <-; unfold covered; cbn [In any_gradient]; tauto).
  assert (C2 : all_covered h2 D) by (intros i nm Hi Hn; rewrite B2 in Hi; cbn [In] in Hi; destruct Hi as [<- | []]; vm_compute in Hn; injection Hn as <-; unfold covered; cbn [In any_gradient]; tauto).
  rewrite (covered_value h1 h10 v D x e R1 S1 M1 C1 Ab De), (covered_value h2 h20 v D x e R2 S2 M2 C2 Ab De).
  assert (V : value h1 D = value h2 D); [|rewrite V; reflexivity].
  unfold value. rewrite B1, B2. cbn [fold_right].
  change (nth_error functionals 0) with (Some ("XC_SLATERX"%string, slater_slaterx)). change (nth_error functionals 7) with (Some ("XC_BECKECORRX"%string, beckex_beckexcorr)). change (nth_error functionals 6) with (Some ("XC_BECKEX"%string, beckex)). cbv iota.
  assert (W0 : (h_settings h1 0%nat : R) = w) by (rewrite (mixture_settings _ _ w h1 0 "SLATERX" I' A1 eq_refl); unfold reported; cbn; unfold Q2R; cbn; lra).
  assert (W7 : (h_settings h1 7%nat : R) = w) by (rewrite (mixture_settings _ _ w h1 7 "BECKECORRX" I' A1 eq_refl); unfold reported; cbn; unfold Q2R; cbn; lra).
  assert (W6 : (h_settings h2 6%nat : R) = w) by (rewrite A2; unfold msettings; cbn [fold_left]; unfold wr_settings, Api.upd; cbn; unfold Q2R; cbn; lra).
  rewrite W0, W7, W6, (b88_split (h_settings h2) D Ab).
  assert (Q1 : tv (h_settings h1) (fun _ => 0) (dvar D) [] slater_slaterx = tv (h_settings h2) (fun _ => 0) (dvar D) [] slater_slaterx) by (vred; reflexivity).
  assert (Q2 : tv (h_settings h1) (fun _ => 0) (dvar D) [] beckex_beckexcorr = tv (h_settings h2) (fun _ => 0) (dvar D) [] beckex_beckexcorr) by (vred; reflexivity).
  rewrite Q1, Q2. ring.
Qed.
Print Assumptions C36_b88x_is_beckex.
(** "OPTX" names both a functional and an alias 1.05151 slaterx - 1.43169 optxcorr; xcfun_set finds the
    functional, and it makes no difference: the energies agree at every density. *)
Theorem C36_optx_shadowing :
  forall (w : R) (h1 h2 h10 h20 : handle ROps) v D x e,
    Api.run xcfun_new [CSet "slaterx" (w * 1.05151 : T ROps); CSet "optxcorr" (w * (- 1.43169) : T ROps)] = Ok h1 ->
    xcfun_set xcfun_new "OPTX" (w : T ROps) = Ok (h2, 0%Z) ->
    xcfun_eval_setup h1 v XC_PARTIAL_DERIVATIVES 0 = Ok (h10, 0%Z) -> xcfun_eval_setup h2 v XC_PARTIAL_DERIVATIVES 0 = Ok (h20, 0%Z) ->
    above D -> describes v x D -> (library_energy h10 x e <-> library_energy h20 x e).
Proof.
  intros w h1 h2 h10 h20 v D x e E1 E2 S1 S2 Ab De.
  destruct (make (K := ROps) [("slaterx"%string, 0%nat, w * 1.05151); ("optxcorr"%string, 18%nat, w * (- 1.43169))] eq_refl) as (h & E & R1 & B1 & A1). cbn [map fst snd] in E, A1. change (mactive _) with [0; 18]%nat in B1.
  rewrite E1 in E. injection E as <-.
  destruct (make (K := ROps) [("OPTX"%string, 17%nat, w)] eq_refl) as (h & E & R2 & B2 & A2). cbn [map fst snd Api.run step] in E, A2. rewrite E2 in E. injection E as <-. change (mactive _) with [17]%nat in B2.
  assert (M1 : 0 < (h_settings h1 XC_RANGESEP_MU : R)) by (apply (default_mu h1 _ A1); vm_compute; lia).
  assert (M2 : 0 < (h_settings h2 XC_RANGESEP_MU : R)) by (apply (default_mu h2 _ A2); vm_compute; lia).
  assert (C1 : all_covered h1 D) by (intros i nm Hi Hn; rewrite B1 in Hi; cbn [In] in Hi; destruct Hi as [<- | [<- | []]]; vm_compute in Hn; injection Hn as <-; unfold covered; cbn [In any_gradient]; tauto).
  assert (C2 : all_covered h2 D) by (intros i nm Hi Hn; rewrite B2 in Hi; cbn [In] in Hi; destruct Hi as [<- | []]; vm_compute in Hn; injection Hn as <-; unfold covered; cbn [In any_gradient]; tauto).
  rewrite (covered_value h1 h10 v D x e R1 S1 M1 C1 Ab De), (covered_value h2 h20 v D x e R2 S2 M2 C2 Ab De).
  assert (V : value h1 D = value h2 D); [|rewrite V; reflexivity].
  unfold value. rewrite B1, B2. cbn [fold_right].
  change (nth_error functionals 0) with (Some ("XC_SLATERX"%string, slater_slaterx)). change (nth_error functionals 18) with (Some ("XC_OPTXCORR"%string, optxcorr)). change (nth_error functionals 17) with (Some ("XC_OPTX"%string, optx)). cbv iota.
  assert (W0 : (h_settings h1 0%nat : R) = w * 1.05151) by (rewrite A1; unfold msettings; cbn [fold_left]; unfold wr_settings, Api.upd; cbn; unfold Q2R; cbn; lra).
  assert (W18 : (h_settings h1 18%nat : R) = w * (- 1.43169)) by (rewrite A1; unfold msettings; cbn [fold_left]; unfold wr_settings, Api.upd; cbn; unfold Q2R; cbn; lra).
  assert (W17 : (h_settings h2 17%nat : R) = w) by (rewrite A2; unfold msettings; cbn [fold_left]; unfold wr_settings, Api.upd; cbn; unfold Q2R; cbn; lra).
  rewrite W0, W18, W17, (optx_split (h_settings h2) D Ab).
  assert (Q1 : tv (h_settings h1) (fun _ => 0) (dvar D) [] slater_slaterx = tv (h_settings h2) (fun _ => 0) (dvar D) [] slater_slaterx) by (vred; reflexivity).
  assert (Q2 : tv (h_settings h1) (fun _ => 0) (dvar D) [] optxcorr = tv (h_settings h2) (fun _ => 0) (dvar D) [] optxcorr) by (vred; reflexivity).
  rewrite Q1, Q2. decs. field.
Qed.
Print Assumptions C36_optx_shadowing.
(** The hypotheses of the two theorems hold for a concrete case, with a defined energy. *)
Example C36_same_example : exists (h1 h2 h10 h20 : handle ROps) x e,
  xcfun_set xcfun_new "b88x" (3 : T ROps) = Ok (h1, 0%Z) /\ xcfun_set xcfun_new "beckex" (3 : T ROps) = Ok (h2, 0%Z) /\
  xcfun_eval_setup h1 XC_A_B_GAA_GAB_GBB XC_PARTIAL_DERIVATIVES 0 = Ok (h10, 0%Z) /\ xcfun_eval_setup h2 XC_A_B_GAA_GAB_GBB XC_PARTIAL_DERIVATIVES 0 = Ok (h20, 0%Z) /\
  above D_ex /\ describes XC_A_B_GAA_GAB_GBB x D_ex /\ library_energy h10 x e /\ library_energy h20 x e.
Proof.
  assert (I' : In ("b88x"%string, [("SLATERX"%string, 1%Q); ("BECKECORRX"%string, 1%Q)]) compositions) by (do 10 right; left; reflexivity).
  destruct (mixture_set _ "b88x" _ 3 I' ltac:(apply strcasecmp_ci; reflexivity)) as (h1 & E1 & A1).
  assert (R1 : reachable h1) by (exists [CSet "b88x" (3 : T ROps)]; cbn [Api.run step]; rewrite E1; reflexivity).
  destruct (make (K := ROps) [("beckex"%string, 6%nat, 3)] eq_refl) as (h2 & E2 & R2 & B2 & A2). cbn [map fst snd Api.run step] in E2. change (mactive _) with [6]%nat in B2.
  assert (B1 : h_active h1 = [0; 7]%nat) by (destruct A1 as (_ & A & _); rewrite A; reflexivity).
  destruct (xcfun_set xcfun_new "beckex" (3 : T ROps)) as [[h2' z]| | |] eqn:E3; try discriminate. cbn in E2. injection E2 as ->.
  assert (Z0 : z = 0%Z).
  { destruct (set_ok xcfun_new "beckex" (3 : T ROps) [(6%nat, 3 : T ROps)] 6 wf_new) as (h3 & E4 & _); [apply w_item; apply lookup_functional_spec; vm_compute; reflexivity|].
    unfold xcfun_set in E3. rewrite E4 in E3. injection E3 as _ <-. reflexivity. }
  subst z.
  assert (S1 : exists h, xcfun_eval_setup h1 XC_A_B_GAA_GAB_GBB XC_PARTIAL_DERIVATIVES 0 = Ok (h, 0%Z)) by (eexists; apply accepts_ok; [exact R1|rewrite B1; vm_compute; reflexivity]). destruct S1 as [h10 S1].
  assert (S2 : exists h, xcfun_eval_setup h2 XC_A_B_GAA_GAB_GBB XC_PARTIAL_DERIVATIVES 0 = Ok (h, 0%Z)) by (eexists; apply accepts_ok; [exact R2|rewrite B2; vm_compute; reflexivity]). destruct S2 as [h20 S2].
  assert (De : describes XC_A_B_GAA_GAB_GBB (fun i => nth i (encode XC_A_B_GAA_GAB_GBB D_ex) 0) D_ex) by (apply encode_describes; cbn; tauto).
  assert (M2 : 0 < (h_settings h2 XC_RANGESEP_MU : R)) by (apply (default_mu h2 _ A2); vm_compute; lia).
  assert (C2 : all_covered h2 D_ex) by (intros i nm Hi Hn; rewrite B2 in Hi; cbn [In] in Hi; destruct Hi as [<- | []]; vm_compute in Hn; injection Hn as <-; unfold covered; cbn [In any_gradient]; tauto).
  destruct (covered_library h2 h20 _ D_ex _ R2 S2 M2 C2 D_ex_above De) as [e Le].
  exists h1, h2, h10, h20. eexists. exists e. split; [exact E1|]. split; [reflexivity|]. split; [exact S1|]. split; [exact S2|]. split; [exact D_ex_above|]. split; [exact De|].
  split; [|exact Le]. apply (C36_b88x_is_beckex 3 h1 h2 h10 h20 _ D_ex _ e E1 E3 S1 S2 D_ex_above De). exact Le.
Qed.
