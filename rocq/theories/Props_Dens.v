(** * Property theorems: density variables (C18, C33) *)
From Coq Require Import Reals QArith Qreals ZArith Arith Lia Lra List Bool String.
From Coquelicot Require Import Coquelicot.
From Verif Require Import Scalar RInst Tables Api SpecApi ApiProofs ApiProofs2 CTaylor CtAlg TMath Fps TFam TExp Ad Br Expr Densvars Functionals
  Eval Sem AdEval SpecEval Layout EvalSem EvalProps Taint EvalExt EvalR EvalReal EvalApi Props_Eval Props_Deriv RSem Itv Dom Phys EnergyR Safe Pw92 Mk Value Oblig Safe2 Vwn Safe3 Safe4.
From Verif Require Jt.
Import ListNotations.
Local Open Scope outcome_scope.
Local Open Scope R_scope.

(** ** C18 *)
Lemma lib_energy h h0 v vd x e : good_setup h h0 v XC_PARTIAL_DERIVATIVES 0 vd ->
  (library_energy h0 x e <-> energy h0 0 x (czero 0) = Ok (e : rct 0)).
Proof. intro G. unfold library_energy. symmetry. apply (order0 _ _ _ _ _ _ _ _ G). Qed.

(** C18.  Two variable sets describing the same density give the same energy: for every
    weighted sum of functionals, every density above the threshold, and every pair of
    variable sets out of the sixteen of [open_sets] and (closed shells) [closed_sets].
    REVTPSSX is excluded unless the sets provide the kinetic energy density, which it reads
    without declaring it. *)
Theorem C18_equivalent_variables :
  forall (h h1 h2 : handle ROps) v1 v2 D x1 x2 e, reachable h ->
    xcfun_eval_setup h v1 XC_PARTIAL_DERIVATIVES 0 = Ok (h1, 0%Z) ->
    xcfun_eval_setup h v2 XC_PARTIAL_DERIVATIVES 0 = Ok (h2, 0%Z) ->
    tau_honest h v1 -> tau_honest h v2 -> above D ->
    describes v1 x1 D -> describes v2 x2 D ->
    library_energy h1 x1 e -> library_energy h2 x2 e.
Proof.
  intros h h1 h2 v1 v2 D x1 x2 e Hr S1 S2 T1 T2 Ab D1 D2.
  destruct (described_energy h h1 v1 D x1 Hr S1 T1 Ab D1) as [[vd1 G1] E1].
  destruct (described_energy h h2 v2 D x2 Hr S2 T2 Ab D2) as [[vd2 G2] E2].
  rewrite (lib_energy _ _ _ _ _ _ G1), (lib_energy _ _ _ _ _ _ G2), E1, E2. auto.
Qed.
Print Assumptions C18_equivalent_variables.

(** *** Concrete handles and energies *)
Lemma slater_c st : seval (K := ROps) st c_slater = Some (Rpower (81 / (32 * PI)) (1 / 3)).
Proof.
  pose proof PI_RGT_0 as P. unfold c_slater. cbn [seval obnd]. cbn [OofQ ROps Opi Omul].
  replace (Q2R 81) with 81 by (unfold Q2R; cbn; lra). replace (Q2R 32) with 32 by (unfold Q2R; cbn; lra).
  rewrite sdiv_ok by lra. cbn [obnd]. rewrite sdivq by (apply Qeq_bool_neq; reflexivity). cbn [obnd].
  replace (Q2R 1.0 / Q2R 3.0) with (1 / 3) by (unfold Q2R; cbn; lra).
  assert (L : 0 < 81 / (32 * PI)) by (apply Rdiv_lt_0_compat; lra).
  cbn [Oltb ROps Opow]. rewrite Q2R_0. rewrite (proj2 (Rltb_true _ _) L). now rewrite powR_pos.
Qed.
Notation kS := (Rpower (81 / (32 * PI)) (1 / 3)).
Lemma slater_val st x fl r : reval st x fl r slater_slaterx = Some (- kS * (fl f_a_43 + fl f_b_43)).
Proof. unfold slater_slaterx. cbn [reval seval]. rewrite slater_c. cbn [obnd]. reflexivity. Qed.
Lemma fun0 : nth_error functionals 0 = Some ("XC_SLATERX"%string, slater_slaterx).
Proof. reflexivity. Qed.
(** A handle on which only slaterx has been set, with weight one. *)
Lemma slater_handle : exists h : handle ROps, Api.run xcfun_new [CSet "slaterx" (1 : ROps)] = Ok h /\ reachable h /\ h_active h = [0%nat] /\
  h_settings h 0%nat = 1 /\ h_settings h = fold_left wr_settings [(0%nat, 1 : ROps)] (h_settings xcfun_new).
Proof.
  destruct (make (K := ROps) [("slaterx"%string, 0%nat, 1)] eq_refl) as (h & E & Hr & A & S). exists h. split; [exact E|]. split; [exact Hr|].
  split; [exact A|]. split; [|exact S]. rewrite S. unfold msettings. cbn [map fold_left fst snd]. unfold wr_settings, upd. cbn [fst snd Nat.eqb Nat.ltb Nat.leb].
  cbn. unfold Q2R. cbn. lra.
Qed.
Lemma slater_rsum (st : nat -> T ROps) x fl : st 0%nat = 1 -> rsum st x fl [0%nat] = Some (- kS * (fl f_a_43 + fl f_b_43)).
Proof.
  intro E. cbn [rsum]. rewrite fun0. rewrite slater_val. cbn [obnd]. f_equal. rewrite E. cbn. ring.
Qed.
(** The handles after setup. *)
Lemma slater_setup v m o : accepts [0%nat] v m o = true -> exists h h' : handle ROps,
  Api.run xcfun_new [CSet "slaterx" (1 : ROps)] = Ok h /\ reachable h /\ xcfun_eval_setup h v m o = Ok (h', 0%Z) /\ h_active h' = [0%nat] /\ h_settings h' 0%nat = 1 /\
  h_settings h' XC_RANGESEP_MU = Q2R 0.4 /\ h_vars h' = v.
Proof.
  intro Ac. destruct slater_handle as (h & E & Hr & A & S & S'). exists h. rewrite <- A in Ac. pose proof (accepts_ok h v m o Hr Ac) as St.
  eexists. split; [exact E|]. split; [exact Hr|]. split; [exact St|]. cbn [h_active h_settings h_vars]. split; [exact A|]. split; [exact S|].
  split; [|reflexivity]. rewrite S'. cbn [fold_left]. unfold wr_settings, upd. cbn [fst snd]. cbn. reflexivity.
Qed.
(** Twice the density to the power 4/3. *)
Lemma dbl43 u : 0 < u -> Rpower (2 * u) (4 / 3) = Rpower 2 (4 / 3) * Rpower u (4 / 3).
Proof. intro P. symmetry. apply Rpower_mult_distr; lra. Qed.
Definition encoded (v : Z) (x : nat -> R) (D : dens) : Prop :=
  forall i, (i < List.length (encode v D))%nat -> x i = nth i (encode v D) 0.
Lemma slater_energy_ab (h h2 : handle ROps) x D : reachable h -> h_active h = [0%nat] -> h_settings h 0%nat = 1 ->
  xcfun_eval_setup h XC_A_B XC_PARTIAL_DERIVATIVES 0 = Ok (h2, 0%Z) -> above D -> describes XC_A_B x D ->
  library_energy h2 x (- kS * (Rpower (rho (al D)) (4 / 3) + Rpower (rho (be D)) (4 / 3))).
Proof.
  intros Hr A S St Ab De.
  assert (Th : tau_honest h XC_A_B) by (intro X; rewrite A in X; cbn in X; destruct X as [X|[]]; discriminate X).
  destruct (described_energy h h2 XC_A_B D x Hr St Th Ab De) as [[vd G] E].
  apply (lib_energy _ _ _ _ _ _ G). rewrite E, A, slater_rsum by exact S. reflexivity.
Qed.
Lemma n_s_run st x v p : In v [XC_N_S; XC_N_S_GNN_GNS_GSS; XC_N_S_GNN_GNS_GSS_TAUN_TAUS] -> dv_prog v = Some p ->
  threshold <= x 0%nat -> threshold <= x 0%nat + x 1%nat -> threshold <= x 0%nat - x 1%nat ->
  exists fl, rrun st x (fun _ => 0) p = Some fl /\ fl f_a_43 = Rpower (x 0%nat + x 1%nat) (4 / 3) /\ fl f_b_43 = Rpower (x 0%nat - x 1%nat) (4 / 3).
Proof.
  intros Hv E A B C. unfold dv_prog in E.
  assert (T0 : 0 < threshold) by exact thr_pos.
  assert (F : forall q, dv_switch v = Some q -> (exists fl, rrun st x (fun _ => 0) q = Some fl /\ fl f_n = x 0%nat /\ fl f_a = x 0%nat + x 1%nat /\ fl f_b = x 0%nat - x 1%nat) ->
     exists fl, rrun st x (fun _ => 0) p = Some fl /\ fl f_a_43 = Rpower (x 0%nat + x 1%nat) (4 / 3) /\ fl f_b_43 = Rpower (x 0%nat - x 1%nat) (4 / 3)).
  { intros q Eq (fl & Ef & Fn & Fa & Fb). rewrite Eq in E. injection E as <-. rewrite rrun_app, Ef. cbn [obnd].
    destruct (derived_ok st x fl) as (fl' & E' & F'); [rewrite Fn; lra|rewrite Fa; lra|rewrite Fb; lra|].
    exists fl'. split; [exact E'|]. rewrite !F', Fa, Fb. split; reflexivity. }
  cbn [In] in Hv. destruct Hv as [<- | [<- | [<- | []]]]; (eapply F; [reflexivity|]); eexists; 
    (split; [cbv [dv_N_S_GNN_GNS_GSS_TAUN_TAUS dv_N_S_GNN_GNS_GSS dv_N_S]; cbn [app rrun reval seval obnd OofQ ROps]; reflexivity|]);
    cbv [rfupd fld_eqb fld_num Nat.eqb]; rewrite (Rmax_thr (x 0%nat)), !Rmax_thr by assumption; auto.
Qed.
(** C18 is false of the (n,s) sets: for slaterx the energy comes out 2^(4/3) times too large
    at every density, because densvars (84-92) forms a = n + s and b = n - s without the
    factor one half. *)
Theorem C18_n_s_refuted :
  forall v, In v [XC_N_S; XC_N_S_GNN_GNS_GSS; XC_N_S_GNN_GNS_GSS_TAUN_TAUS] ->
  exists h h1 h2 : handle ROps, Api.run xcfun_new [CSet "slaterx" (1 : ROps)] = Ok h /\
    xcfun_eval_setup h v XC_PARTIAL_DERIVATIVES 0 = Ok (h1, 0%Z) /\
    xcfun_eval_setup h XC_A_B XC_PARTIAL_DERIVATIVES 0 = Ok (h2, 0%Z) /\
    forall D x1 x2, above D -> encoded v x1 D -> encoded XC_A_B x2 D ->
      exists e, e < 0 /\ library_energy h2 x2 e /\ library_energy h1 x1 (Rpower 2 (4 / 3) * e).
Proof.
  intros v Hv. destruct slater_handle as (h & Eh & Hr & A & S & _).
  assert (A1 : accepts (h_active h) v XC_PARTIAL_DERIVATIVES 0 = true).
  { rewrite A. cbn [In] in Hv. destruct Hv as [<- | [<- | [<- | []]]]; vm_compute; reflexivity. }
  assert (A2 : accepts (h_active h) XC_A_B XC_PARTIAL_DERIVATIVES 0 = true) by (rewrite A; vm_compute; reflexivity).
  pose proof (accepts_ok h _ _ _ Hr A1) as S1. pose proof (accepts_ok h _ _ _ Hr A2) as S2.
  exists h. eexists. eexists. split; [exact Eh|]. split; [exact S1|]. split; [exact S2|].
  intros D x1 x2 Ab E1 E2. exists (- kS * (Rpower (rho (al D)) (4 / 3) + Rpower (rho (be D)) (4 / 3))).
  pose proof Ab as [La Lb]. pose proof thr_pos as T0.
  split; [|split].
  - pose proof (Rpower_pos (81 / (32 * PI)) (1 / 3)). pose proof (Rpower_pos (rho (al D)) (4 / 3)). pose proof (Rpower_pos (rho (be D)) (4 / 3)).
    rewrite Ropp_mult_distr_l_reverse. apply Ropp_lt_gt_0_contravar. apply Rmult_lt_0_compat; lra.
  - apply (slater_energy_ab h); try assumption. split; [left; cbn; tauto|exact E2].
  - assert (Nu : ~ In v unsupported_vars).
    { cbn [In] in Hv. destruct Hv as [<- | [<- | [<- | []]]]; cbn [In unsupported_vars]; intro X; repeat (destruct X as [X | X]; [discriminate X|]); contradiction. }
    destruct (setup_partial0 h _ v Hr S1 Nu) as [vd G]. apply (lib_energy _ _ _ _ _ _ G).
    assert (Ep : exists p, dv_prog v = Some p).
    { cbn [In] in Hv. destruct Hv as [<- | [<- | [<- | []]]]; eexists; reflexivity. }
    destruct Ep as [p Ep].
    assert (X0 : x1 0%nat = rho (al D) + rho (be D) /\ x1 1%nat = rho (al D) - rho (be D)).
    { cbn [In] in Hv. destruct Hv as [<- | [<- | [<- | []]]]; (split; rewrite E1 by (cbn; lia); reflexivity). }
    destruct X0 as [X0 X1].
    etransitivity; [apply (energy0 _ x1 p); [exact Ep|cbn [h_active]; rewrite A; intros i [<- | []]; lia]|].
    destruct (n_s_run (h_settings h) x1 v p Hv Ep) as (fl & Ef & Fa & Fb); [lra|lra|lra|].
    cbn [h_settings h_active]. rewrite Ef, A, slater_rsum by exact S. rewrite Fa, Fb, X0, X1.
    replace (rho (al D) + rho (be D) + (rho (al D) - rho (be D))) with (2 * rho (al D)) by ring.
    replace (rho (al D) + rho (be D) - (rho (al D) - rho (be D))) with (2 * rho (be D)) by ring.
    rewrite !dbl43 by lra. change (@Ok (rct 0) (- kS * (Rpower 2 (4 / 3) * Rpower (rho (al D)) (4 / 3) + Rpower 2 (4 / 3) * Rpower (rho (be D)) (4 / 3))) =
       Ok (Rpower 2 (4 / 3) * (- kS * (Rpower (rho (al D)) (4 / 3) + Rpower (rho (be D)) (4 / 3))))). f_equal. ring.
Qed.
Print Assumptions C18_n_s_refuted.
Lemma derived_pos st x fl fl' : rrun st x fl dv_derived = Some fl' -> 0 < fl f_a.
Proof.
  intro E. unfold dv_derived in E. cbn [rrun reval seval obnd] in E.
  destruct (rdiv _ _) in E; cbn [obnd] in E; [|discriminate]. unfold rfupd in E. cbn [fld_eqb fld_num Nat.eqb] in E.
  destruct (rdiv _ _) in E; cbn [obnd] in E; [|discriminate]. rewrite !sdivq in E by (apply Qeq_bool_neq; reflexivity). cbn [obnd] in E.
  destruct (rpow _ _) in E at 1; cbn [obnd] in E; [|discriminate]. cbn [fld_eqb fld_num Nat.eqb] in E.
  destruct (rpow (fl f_n) _) in E; cbn [obnd] in E; [|discriminate]. unfold rpow in E at 1. destruct (Rlt_dec 0 (fl f_a)); [assumption|discriminate E].
Qed.
(** Nor do the alpha-only sets work: densvars (41-53) never stores the density given to it,
    so that the power of the alpha density is taken at zero. *)
Theorem C18_a_refuted :
  forall v, In v [XC_A; XC_A_GAA] ->
  exists h h1 : handle ROps, Api.run xcfun_new [CSet "slaterx" (1 : ROps)] = Ok h /\
    xcfun_eval_setup h v XC_PARTIAL_DERIVATIVES 0 = Ok (h1, 0%Z) /\
    forall x e, ~ library_energy h1 x e.
Proof.
  intros v Hv. destruct slater_handle as (h & Eh & Hr & A & S & _).
  assert (A1 : accepts (h_active h) v XC_PARTIAL_DERIVATIVES 0 = true).
  { rewrite A. cbn [In] in Hv. destruct Hv as [<- | [<- | []]]; vm_compute; reflexivity. }
  pose proof (accepts_ok h _ _ _ Hr A1) as S1.
  exists h. eexists. split; [exact Eh|]. split; [exact S1|]. intros x e.
  assert (Nu : ~ In v unsupported_vars).
  { cbn [In] in Hv. destruct Hv as [<- | [<- | []]]; cbn [In unsupported_vars]; intro X; repeat (destruct X as [X | X]; [discriminate X|]); contradiction. }
  destruct (setup_partial0 h _ v Hr S1 Nu) as [vd G]. rewrite (lib_energy _ _ _ _ _ _ G).
  assert (Ep : exists q, dv_switch v = Some q /\ exists fl, rrun (h_settings h) x (fun _ => 0) q = Some fl /\ fl f_a = 0).
  { cbn [In] in Hv. destruct Hv as [<- | [<- | []]]; eexists; (split; [reflexivity|]); eexists; (split; [cbv [dv_A_GAA dv_A]; cbn [app rrun reval seval obnd OofQ ROps]; reflexivity|]); reflexivity. }
  destruct Ep as (q & Ep & fl & Ef & Fa).
  intro En. rewrite (energy0 _ x (q ++ dv_derived)) in En; [|cbn [h_vars]; unfold dv_prog; now rewrite Ep|cbn [h_active]; rewrite A; intros i [<- | []]; lia].
  revert En.
  cbn [h_settings h_active]. rewrite rrun_app, Ef. cbn [obnd].
  destruct (rrun (h_settings h) x fl dv_derived) as [fl'|] eqn:Ed; [|discriminate]. apply derived_pos in Ed. lra.
Qed.
Print Assumptions C18_a_refuted.

(** ** C33 *)
(** Functionals defined for every density above the threshold, whatever its gradients. *)
Definition any_gradient : list string :=
  ["SLATERX"; "PW86X"; "VWN3C"; "VWN5C"; "PBEC"; "PBEX"; "BECKEX"; "BECKECORRX"; "BECKESRX"; "BECKECAMX"; "LDAERFX"; "LDAERFC"; "LDAERFC_JT";
   "LYPC"; "OPTX"; "OPTXCORR"; "REVPBEX"; "RPBEX"; "KTX"; "TFK"; "PW91X"; "PW91K"; "PW92C"; "PZ81C"; "P86C"; "P86CORRC"; "BTK"; "VWK";
   "B97X"; "B97C"; "B97_1X"; "B97_1C"; "B97_2X"; "B97_2C"; "CSC"; "APBEC"; "APBEX"; "PBEINTC"; "PBEINTX"; "PBELOCC"; "PBESOLX";
   "SPBEC"; "VWN_PBEC"; "PW91C"; "BRX"; "BRC"; "BRXC"]%string.
(** Functionals that need the gradients to be nonzero. *)
Definition nonzero_gradient : list string := ["TW"; "ZVPBESOLC"; "ZVPBEINTC"]%string.
(** Meta-GGAs that need positive kinetic energy densities. *)
Definition positive_kinetic : list string := ["M05X"; "M05X2X"; "M06X"; "M06X2X"; "M06LX"; "M06HFX"; "M05X2C"; "M05C"; "M06C"; "M06HFC"; "M06LC"; "M06X2C"]%string.
(** Meta-GGAs that need nonzero gradients and positive kinetic energy densities. *)
Definition full_density : list string :=
  ["TPSSC"; "TPSSX"; "REVTPSSC"; "BLOCX"; "TPSSLOCC"; "RSCANX"; "RPPSCANX"; "R2SCANX"; "R4SCANX"; "RSCANC"; "RPPSCANC"; "R2SCANC"; "R4SCANC"]%string.
(** The functional called [nm] is covered at density [D]. *)
Definition covered (D : dens) (nm : string) : Prop :=
  In nm any_gradient \/
  (In nm nonzero_gradient /\ 0 < dot (grad (al D)) (grad (al D)) /\ 0 < dot (grad (be D)) (grad (be D)) /\ 0 < dot (gN D) (gN D)) \/
  (In nm positive_kinetic /\ 0 < kin (al D) /\ 0 < kin (be D)) \/
  (In nm full_density /\ full D) \/
  (nm = "SCANX"%string /\ full D /\ alpha_x (al D) <> 1 /\ alpha_x (be D) <> 1) \/
  (nm = "SCANC"%string /\ full D /\ alpha_c D <> 1).
(** Every functional switched on is covered. *)
Definition all_covered (h : handle ROps) (D : dens) : Prop :=
  forall i nm, In i (h_active h) -> nth_error item_names i = Some nm -> covered D nm.

(** Those whose analysis leaves obligations (Safe2.v, Safe3.v, Safe4.v). *)
Definition apart : list string := ["SPBEC"; "VWN_PBEC"; "PW91C"; "BRX"; "BRC"; "BRXC"; "LDAERFC_JT"]%string.
Definition passes_all (l : list string) (g t : itv) : bool :=
  forallb (fun i => match nth_error item_names i, nth_error functionals i with
     | Some nm, Some (_, e) => orb (existsb (String.eqb nm) apart) (orb (negb (existsb (String.eqb nm) l)) (passes g t [(pw92eps, NG)] e))
     | _, _ => false end) (seq 0 78).
Lemma pass_any : passes_all any_gradient iNN top = true. Proof. vm_compute. reflexivity. Qed.
Lemma pass_grad : passes_all nonzero_gradient iP top = true. Proof. vm_compute. reflexivity. Qed.
Lemma pass_kin : passes_all positive_kinetic iNN iP = true. Proof. vm_compute. reflexivity. Qed.
Lemma pass_one l g t i nm e nm' : passes_all l g t = true -> (i < 78)%nat -> nth_error item_names i = Some nm -> In nm l ->
  nth_error functionals i = Some (nm', e) -> In nm apart \/ passes g t [(pw92eps, NG)] e = true.
Proof.
  intros P L N I' F. unfold passes_all in P. rewrite forallb_forall in P. specialize (P i). cbv beta in P. rewrite N, F in P.
  specialize (P ltac:(apply in_seq; lia)). apply orb_prop in P. destruct P as [P|P].
  { left. apply existsb_exists in P. destruct P as (y & Y & Ey). apply String.eqb_eq in Ey. now subst y. }
  right. apply orb_prop in P. destruct P as [P|P]; [|exact P].
  exfalso. apply negb_true_iff in P. assert (X : existsb (String.eqb nm) l = true); [|congruence].
  apply existsb_exists. exists nm. split; [exact I'|apply String.eqb_refl].
Qed.
(** The functional with a given name. *)
Definition only (nm : string) (k : nat) : bool := forallb (fun i => match nth_error item_names i with Some m => orb (negb (String.eqb nm m)) (Nat.eqb i k) | None => true end) (seq 0 78).
Lemma only_fun nm k i nm1 e1 nm' e : (i < 78)%nat -> nth_error item_names i = Some nm -> nth_error functionals i = Some (nm', e) ->
  only nm k = true -> nth_error functionals k = Some (nm1, e1) -> e = e1.
Proof.
  intros L N F O K. unfold only in O. rewrite forallb_forall in O. specialize (O i ltac:(apply in_seq; lia)). cbv beta in O. rewrite N, String.eqb_refl in O. cbn [negb orb] in O.
  apply Nat.eqb_eq in O. subst i. rewrite K in F. now injection F as <- <-.
Qed.
Lemma item_ex i : (i < 78)%nat -> exists nm, nth_error item_names i = Some nm.
Proof.
  intro L. destruct (nth_error item_names i) eqn:E; [eauto|]. apply nth_error_None in E. rewrite items_length in E. unfold XC_NR_PARAMETERS_AND_FUNCTIONALS in E. cbn in E. lia.
Qed.
Lemma pw92_fact st x D : above D -> forall e i, In (e, i) [(pw92eps, NG)] -> forall r, exists v, reval st x (dvar D) r e = Some v /\ gam i v.
Proof.
  intros [A B] e i [H | []] r. injection H as <- <-. pose proof thr_pos.
  apply pw92_neg; cbn [dvar]; [apply Rpower_pos|].
  set (u := rho (al D)) in *. set (w := rho (be D)) in *. assert (0 < u + w) by lra. split; apply Rmult_lt_reg_r with (u + w); try lra;
    unfold Rdiv; rewrite Rmult_assoc, Rinv_l by lra; lra.
Qed.
Lemma covered_eval st x D i nm nm' e : 0 < (st XC_RANGESEP_MU : R) -> above D -> (i < 78)%nat -> nth_error item_names i = Some nm ->
  covered D nm -> nth_error functionals i = Some (nm', e) -> exists v, reval st x (dvar D) [] e = Some v.
Proof.
  intros Mu Ab L N C F. assert (GNN : forall u, u = dot (grad (al D)) (grad (al D)) \/ u = dot (grad (be D)) (grad (be D)) \/ u = dot (gN D) (gN D) -> gam iNN u).
  { intros u [-> | [-> | ->]]; apply gam_NN, dot_nn. }
  pose proof (PubX.phys_dvar D Ab) as Ph.
  assert (Ob : forall g t h, (forall u, u = dot (grad (al D)) (grad (al D)) \/ u = dot (grad (be D)) (grad (be D)) \/ u = dot (gN D) (gN D) -> gam g u) ->
    (forall u, u = kin (al D) \/ u = kin (be D) \/ u = kin (al D) + kin (be D) -> gam t u) -> good st x (dvar D) [] (obs g t h e) -> exists v, reval st x (dvar D) [] e = Some v).
  { intros g t h G K Gd. exact (obs_ok st x D g t h e Mu Ab G K (pw92_fact st x D Ab) Gd). }
  destruct C as [C | [(C & G1 & G2 & G3) | [(C & K1 & K2) | C]]].
  - destruct (pass_one _ _ _ i nm e nm' pass_any L N C F) as [Q|Q].
    + cbn [In apart] in Q. destruct Q as [<- | [<- | [<- | [<- | [<- | [<- | [<- | []]]]]]]].
      * rewrite (only_fun _ 21 i _ spbec nm' e L N F eq_refl eq_refl) in *. exact (Ob _ _ _ GNN (fun _ _ => gam_top _) (spbec_good st x _ Ph)).
      * rewrite (only_fun _ 22 i _ pbec_vwn_pbec nm' e L N F eq_refl eq_refl) in *. exact (Ob _ _ _ GNN (fun _ _ => gam_top _) (vwn_pbec_good st x _ Ph)).
      * rewrite (only_fun _ 77 i _ pw91c nm' e L N F eq_refl eq_refl) in *. exact (Ob _ _ _ GNN (fun _ _ => gam_top _) (pw91c_good st x _ Ph)).
      * rewrite (only_fun _ 10 i _ brx nm' e L N F eq_refl eq_refl) in *. exact (Ob _ _ _ (fun _ _ => gam_top _) (fun _ _ => gam_top _) (brx_good st x _)).
      * rewrite (only_fun _ 11 i _ brx_brc nm' e L N F eq_refl eq_refl) in *. exact (Ob _ _ _ (fun _ _ => gam_top _) (fun _ _ => gam_top _) (brc_good st x _)).
      * rewrite (only_fun _ 12 i _ brx_brxc nm' e L N F eq_refl eq_refl) in *. exact (Ob _ _ _ (fun _ _ => gam_top _) (fun _ _ => gam_top _) (brxc_good st x _)).
      * rewrite (only_fun _ 15 i _ ldaerfc_jt nm' e L N F eq_refl eq_refl) in *. exact (Ob _ _ _ GNN (fun _ _ => gam_top _) (Jt.ldaerfc_jt_good st x _ Ph Mu)).
    + exact (passes_ok st x D iNN top [(pw92eps, NG)] e Mu Ab GNN (fun _ _ => gam_top _) (pw92_fact st x D Ab) Q).
  - destruct (pass_one _ _ _ i nm e nm' pass_grad L N C F) as [Q|Q]; [exfalso; cbn in C, Q; intuition congruence|].
    refine (passes_ok st x D iP top [(pw92eps, NG)] e Mu Ab _ _ _ Q).
    + intros u [-> | [-> | ->]]; now apply gam_P.
    + intros; apply gam_top.
    + apply (pw92_fact st x D Ab).
  - destruct (pass_one _ _ _ i nm e nm' pass_kin L N C F) as [Q|Q]; [exfalso; cbn in C, Q; intuition congruence|].
    refine (passes_ok st x D iNN iP [(pw92eps, NG)] e Mu Ab _ _ _ Q).
    + exact GNN.
    + intros u [-> | [-> | ->]]; apply gam_P; lra.
    + apply (pw92_fact st x D Ab).
  - assert (Fu : full D) by tauto. pose proof Fu as (G1 & G2 & G3 & K1 & K2). pose proof (spin_pos D Ab Fu) as Sp. pose proof (gzeta_nn D Ab) as Gz.
    assert (GP : forall u, u = dot (grad (al D)) (grad (al D)) \/ u = dot (grad (be D)) (grad (be D)) \/ u = dot (gN D) (gN D) -> gam iP u) by (intros u [-> | [-> | ->]]; now apply gam_P).
    assert (KP : forall u, u = kin (al D) \/ u = kin (be D) \/ u = kin (al D) + kin (be D) -> gam iP u) by (intros u [-> | [-> | ->]]; apply gam_P; lra).
    destruct C as [[C _] | [(-> & _ & A1 & A2) | (-> & _ & A1)]].
    + cbn [In full_density] in C. repeat destruct C as [C|C]; try contradiction; subst nm.
      * rewrite (only_fun _ 41 i _ tpssc nm' e L N F eq_refl eq_refl) in *. exact (Ob _ _ _ GP KP (tpssc_good st x _ Gz)).
      * rewrite (only_fun _ 42 i _ tpssx nm' e L N F eq_refl eq_refl) in *. exact (Ob _ _ _ GP KP (tpssx_good st x _ Sp)).
      * rewrite (only_fun _ 43 i _ revtpssc nm' e L N F eq_refl eq_refl) in *. exact (Ob _ _ _ GP KP (revtpssc_good st x _ Gz)).
      * rewrite (only_fun _ 70 i _ blocx_energy nm' e L N F eq_refl eq_refl) in *. exact (Ob _ _ _ GP KP (blocx_good st x _ Sp)).
      * rewrite (only_fun _ 75 i _ tpsslocc_energy nm' e L N F eq_refl eq_refl) in *. exact (Ob _ _ _ GP KP (tpsslocc_good st x _ Gz)).
      * rewrite (only_fun _ 48 i _ rSCANx_rSCANX nm' e L N F eq_refl eq_refl) in *. exact (Ob _ _ _ GP KP (rscanx_good st x _)).
      * rewrite (only_fun _ 50 i _ rppSCANx_rppSCANX nm' e L N F eq_refl eq_refl) in *. exact (Ob _ _ _ GP KP (rppscanx_good st x _)).
      * rewrite (only_fun _ 52 i _ r2SCANx_r2SCANX nm' e L N F eq_refl eq_refl) in *. exact (Ob _ _ _ GP KP (r2scanx_good st x _)).
      * rewrite (only_fun _ 54 i _ r4SCANx_r4SCANX nm' e L N F eq_refl eq_refl) in *. exact (Ob _ _ _ GP KP (r4scanx_good st x _)).
      * rewrite (only_fun _ 47 i _ rSCANc_rSCANC nm' e L N F eq_refl eq_refl) in *. exact (Ob _ _ _ GP KP (rscanc_good st x _ Ph)).
      * rewrite (only_fun _ 49 i _ rppSCANc_rppSCANC nm' e L N F eq_refl eq_refl) in *. exact (Ob _ _ _ GP KP (rppscanc_good st x _ Ph)).
      * rewrite (only_fun _ 51 i _ r2SCANc_r2SCANC nm' e L N F eq_refl eq_refl) in *. exact (Ob _ _ _ GP KP (r2scanc_good st x _ Ph)).
      * rewrite (only_fun _ 53 i _ r4SCANc_r4SCANC nm' e L N F eq_refl eq_refl) in *. exact (Ob _ _ _ GP KP (r4scanc_good st x _ Ph)).
    + rewrite (only_fun _ 46 i _ SCANx_SCANX nm' e L N F eq_refl eq_refl) in *. exact (Ob _ _ _ GP KP (scanx_good st x _ A1 A2)).
    + rewrite (only_fun _ 45 i _ SCANc_SCANC nm' e L N F eq_refl eq_refl) in *. exact (Ob _ _ _ GP KP (scanc_good st x _ Ph A1)).
Qed.
Lemma setup_any0 (h h' : handle ROps) v m o : xcfun_eval_setup h v m o = Ok (h', 0%Z) ->
  exists h0, xcfun_eval_setup h v XC_PARTIAL_DERIVATIVES 0 = Ok (h0, 0%Z).
Proof.
  unfold xcfun_eval_setup. destruct (vars_entry v) as [vd| | |]; cbn [obind]; try discriminate.
  destruct (negb _); [discriminate|]. intros _. eexists. reflexivity.
Qed.
Lemma not_revtpssx D nm : nth_error item_names XC_REVTPSSX_id = Some nm -> ~ covered D nm.
Proof.
  intros E C. vm_compute in E. injection E as <-. unfold covered in C.
  destruct C as [C | [[C _] | [[C _] | [[C _] | [[C _] | [C _]]]]]]; cbn in C; try discriminate C; repeat (destruct C as [C | C]; [discriminate C|]); contradiction.
Qed.
Lemma covered_honest h D v : reachable h -> all_covered h D -> tau_honest h v.
Proof.
  intros Hr Ac X. exfalso. destruct (item_ex XC_REVTPSSX_id) as [nm E]; [vm_compute; lia|]. exact (not_revtpssx D nm E (Ac _ _ X E)).
Qed.
Lemma covered_energy0 (h h0 : handle ROps) v D x : reachable h -> xcfun_eval_setup h v XC_PARTIAL_DERIVATIVES 0 = Ok (h0, 0%Z) ->
  0 < (h_settings h XC_RANGESEP_MU : R) -> all_covered h D -> above D -> describes v x D ->
  exists e, energy h0 0 x (czero 0) = Ok e.
Proof.
  intros Hr S Mu Ac Ab De.
  destruct (described_energy h h0 v D x Hr S (covered_honest h D v Hr Ac) Ab De) as [[vd G] E].
  rewrite E. destruct (rsum_defined (h_settings h) (fun _ => 0) (dvar D) (h_active h)) as [s ->]; [|eauto].
  intros i Hi. assert (L : (i < 78)%nat) by (apply (reachable_wf h Hr); exact Hi).
  destruct (nofun_len i L) as (nm' & e & F). destruct (item_ex i L) as [nm N].
  destruct (covered_eval (h_settings h) (fun _ => 0) D i nm nm' e Mu Ab L N (Ac i nm Hi N) F) as [v0 V]. eauto.
Qed.
(** Whatever the order and whatever is already in the accumulator. *)
Lemma energy_out0 (h : handle ROps) (out out' : rct 0) x e : energy h 0 x out = Ok e -> exists e', energy h 0 x out' = Ok e'.
Proof.
  unfold energy. destruct (densvars (h_settings h) 0 (h_vars h) x) as [fl| | |]; cbn [obind]; try discriminate. unfold energy_sum.
  revert out out'. induction (h_active h) as [|i l IH]; intros out out'; cbn [ofold]; [eauto|].
  destruct (fp i); cbn [obind]; try discriminate. destruct (of_option _); cbn [obind]; try discriminate. apply IH.
Qed.
Lemma covered_energy (h h' : handle ROps) v m o D y n (d : nat -> rct n) out vd : reachable h -> xcfun_eval_setup h v m o = Ok (h', 0%Z) ->
  0 < (h_settings h XC_RANGESEP_MU : R) -> all_covered h D -> above D -> describes v y D -> (n <= 6)%nat ->
  vars_entry v = Ok vd -> (forall i, (i < Z.to_nat (v_len vd))%nat -> c0 n (d i) = y i) ->
  exists out', energy h' n d out = Ok out'.
Proof.
  intros Hr S Mu Ac Ab De Hn Ev Hd. destruct (setup_any0 _ _ _ _ _ S) as [h0 S0].
  destruct (covered_energy0 h h0 v D y Hr S0 Mu Ac Ab De) as [e E].
  destruct (setup_partial0 h h0 v Hr S0) as [vd' G]; [apply supported_sets; destruct De; tauto|].
  pose proof (energy_hom n 0 (c0 n) Hn ltac:(lia) (hom_c0_0 n) h0 d out) as Hm.
  rewrite (energy_ext h0 vd 0%nat (fun i => c0 n (d i)) y) in Hm.
  2: apply (gs_ready _ _ _ _ _ _ G).
  2: rewrite (gs_vars _ _ _ _ _ _ G); exact Ev.
  2: exact Hd.
  destruct (energy_out0 h0 _ (c0 n out) y e E) as [e' E']. rewrite E' in Hm. symmetry in Hm. apply omap_ok in Hm.
  destruct Hm as (a & Ea & _). exists a. rewrite (twin_energy h0 h'); [exact Ea|]. exact (setup_twin _ _ _ _ _ _ _ _ S0 S).
Qed.
Definition ok_ {A} (o : outcome A) : Prop := oP (fun _ => True) False o.
Lemma ok_ex {A} (o : outcome A) : ok_ o <-> exists a, o = Ok a.
Proof. unfold ok_. split; [destruct o; cbn [oP]; try contradiction; eauto|intros [a ->]; exact Logic.I]. Qed.
(** The same density with other second derivatives. *)
Definition rehess (D : dens) (ha hb : hess) : dens :=
  {| al := {| rho := rho (al D); grad := grad (al D); hes := ha; kin := kin (al D); jp := jp (al D) |};
     be := {| rho := rho (be D); grad := grad (be D); hes := hb; kin := kin (be D); jp := jp (be D) |} |}.
Definition h0_ : hess := Hes 0 0 0 0 0 0.
Lemma rehess_covered h D ha hb : all_covered h D -> all_covered h (rehess D ha hb).
Proof. intros A i nm Hi N. exact (A i nm Hi N). Qed.
Section POTDEF.
Variable junk : forall n : nat, nat -> rct n.
Lemma pot_restricted_def (h : handle ROps) input :
  (forall (d : nat -> rct 2) out, (forall i, (i < 10)%nat -> c0 2 (d i) = if Nat.ltb i 4 then input i else 0) -> ok_ (energy h 2 d out)) ->
  ok_ (pot_restricted (K := ROps) junk h input).
Proof.
  intro H. unfold pot_restricted.
  eapply oP_bind; [apply H; intros i Hi; do 10 (destruct i as [|i]; [cbn; rewrite ?Q2R_0; reflexivity|]); lia|intros ? _].
  eapply oP_bind; [apply H; intros i Hi; do 10 (destruct i as [|i]; [cbn; rewrite ?Q2R_0; reflexivity|]); lia|intros ? _].
  eapply oP_bind; [apply H; intros i Hi; do 10 (destruct i as [|i]; [cbn; rewrite ?Q2R_0; reflexivity|]); lia|intros ? _].
  exact Logic.I.
Qed.
Lemma pot_unrestricted_def (h : handle ROps) input j (d0 : nat -> rct 2) : (j < 2)%nat ->
  (forall (d : nat -> rct 2) out, (forall i, (i < 20)%nat -> c0 2 (d i) = if Nat.ltb i 4 then input i else if Nat.ltb i 10 then 0 else if Nat.ltb i 14 then input i else c0 2 (d0 i)) -> ok_ (energy h 2 d out)) ->
  ok_ (pot_unrestricted (K := ROps) h input d0 j).
Proof.
  intros Hj H. unfold pot_unrestricted. destruct j as [|[|j]]; [| |lia].
  - eapply oP_bind; [apply H; intros i Hi; do 20 (destruct i as [|i]; [cbn; rewrite ?Q2R_0; reflexivity|]); lia|intros ? _].
    eapply oP_bind; [apply H; intros i Hi; do 20 (destruct i as [|i]; [cbn; rewrite ?Q2R_0; reflexivity|]); lia|intros ? _].
    eapply oP_bind; [apply H; intros i Hi; do 20 (destruct i as [|i]; [cbn; rewrite ?Q2R_0; reflexivity|]); lia|intros ? _].
    exact Logic.I.
  - eapply oP_bind; [apply H; intros i Hi; do 20 (destruct i as [|i]; [cbn; rewrite ?Q2R_0; reflexivity|]); lia|intros ? _].
    eapply oP_bind; [apply H; intros i Hi; do 20 (destruct i as [|i]; [cbn; rewrite ?Q2R_0; reflexivity|]); lia|intros ? _].
    eapply oP_bind; [apply H; intros i Hi; do 20 (destruct i as [|i]; [cbn; rewrite ?Q2R_0; reflexivity|]); lia|intros ? _].
    exact Logic.I.
Qed.
End POTDEF.
(** C33.  At a density above the threshold the library never leaves the domain of an
    elementary function: no division by zero, no root, power or logarithm of a non-positive
    number, in any derivative order.  For every weighted sum of the functionals of
    [any_gradient] at all gradients including zero, and with the stated conditions for
    those of [nonzero_gradient], [positive_kinetic] and [full_density] and for SCAN, which
    fails where the iso-orbital indicator is exactly one; range separation positive. *)
Theorem C33_partial_defined :
  forall junk (h hp : handle ROps) v o D buf x, reachable h ->
    xcfun_eval_setup h v XC_PARTIAL_DERIVATIVES o = Ok (hp, 0%Z) -> (o <= 3)%Z ->
    0 < (h_settings h XC_RANGESEP_MU : R) -> all_covered h D -> above D -> describes v x D ->
    exists ws, xcfun_eval junk hp buf x = Ok ws.
Proof.
  intros junk h hp v o D buf x Hr S O3 Mu Ac Ab De. destruct (setup_any0 _ _ _ _ _ S) as [h0 S0].
  destruct (setup_partial0 h h0 v Hr S0) as [vd G0]; [apply supported_sets; destruct De; tauto|].
  assert (G : good_setup h hp v XC_PARTIAL_DERIVATIVES o vd) by (eapply good_other; [exact G0|exact Hr|exact S|cbn; tauto|auto]).
  destruct (covered_energy0 h h0 v D x Hr S0 Mu Ac Ab De) as [e E].
  apply (partial_total junk _ _ _ _ buf _ _ e G). rewrite (twin_energy h0 hp); [exact E|]. exact (setup_twin _ _ _ _ _ _ _ _ S0 S).
Qed.
Print Assumptions C33_partial_defined.
Theorem C33_contracted_defined :
  forall junk (h hc : handle ROps) v o D buf x, reachable h ->
    xcfun_eval_setup h v XC_CONTRACTED (Z.of_nat o) = Ok (hc, 0%Z) ->
    0 < (h_settings h XC_RANGESEP_MU : R) -> all_covered h D -> above D -> describes v (fun i => x (i * 2 ^ o)%nat) D ->
    exists ws, xcfun_eval junk hc buf x = Ok ws.
Proof.
  intros junk h hc v o D buf x Hr S Mu Ac Ab De. destruct (setup_any0 _ _ _ _ _ S) as [h0 S0].
  destruct (C33_partial_defined junk h h0 v 0 D buf _ Hr S0 ltac:(lia) Mu Ac Ab De) as [ws0 E0].
  destruct (C12_contracted_energy junk junk h hc h0 v o buf buf x ws0 Hr S S0 E0) as (ws & E & _). eauto.
Qed.
Print Assumptions C33_contracted_defined.
Theorem C33_potential_defined :
  forall junk (h hp : handle ROps) v o D buf x, reachable h ->
    xcfun_eval_setup h v XC_POTENTIAL o = Ok (hp, 0%Z) ->
    0 < (h_settings h XC_RANGESEP_MU : R) -> all_covered h D -> above D -> describes v x D ->
    exists ws, xcfun_eval junk hp buf x = Ok ws.
Proof.
  intros junk h hp v o D buf x Hr S Mu Ac Ab De. destruct (setup_any0 _ _ _ _ _ S) as [h0 S0].
  destruct (setup_partial0 h h0 v Hr S0) as [vd G0]; [apply supported_sets; destruct De; tauto|].
  assert (G : good_setup h hp v XC_POTENTIAL o vd) by (eapply good_other; [exact G0|exact Hr|exact S|cbn; tauto|discriminate]).
  destruct (setup_gives_valid h v _ _ hp S) as (Sv & Evv & Em & Eo & Ea & Es).
  pose proof (reach_setup h hp v _ _ _ Hr S) as Hr'. pose proof (reachable_wf hp Hr') as W.
  pose proof (gs_entry _ _ _ _ _ _ G) as E.
  assert (Nu : ~ In v unsupported_vars) by (apply supported_sets; destruct De; tauto).
  pose proof (pot_gga hp vd W Sv) as PG. rewrite Evv in PG. specialize (PG E Nu Em).
  assert (H1 : forall (d : nat -> rct 1) out, (forall i, (i < Z.to_nat (v_len vd))%nat -> c0 1 (d i) = x i) -> ok_ (energy hp 1 d out)).
  { intros d out Hd. apply ok_ex. apply (covered_energy h hp v XC_POTENTIAL o D x 1 d out vd); try assumption. lia. }
  pose proof (gs_pos _ _ _ _ _ _ G) as Gp. pose proof (gs_range _ _ _ _ _ _ G) as Gr.
  unfold xcfun_eval. rewrite Em, Evv, Eo, E.
  replace (Z.eqb v XC_VARS_UNSET) with false by (symmetry; apply Z.eqb_neq; unfold XC_VARS_UNSET; lia).
  replace (Z.eqb o (-1)) with false by (symmetry; apply Z.eqb_neq; lia). cbn [andb Z.eqb XC_PARTIAL_DERIVATIVES XC_CONTRACTED XC_POTENTIAL XC_MODE_UNSET Pos.eqb obind].
  apply ok_ex. unfold potential. set (len := Z.to_nat (v_len vd)) in *.
  eapply oP_bind.
  - apply (oP_ofold _ (fun i (s : (nat -> rct 1) * rct 1 * writes (K := ROps)) => forall i, (i < len)%nat -> c0 1 (fst (fst s) i) = x i) False).
    + intros i Hi. cbn [fst]. unfold load. destruct (Nat.ltb_spec i len); [reflexivity|lia].
    + intros i [[inn o'] ws] Hi Inv. cbn [fst] in Inv.
      set (p := (i * _)%nat). eapply oP_bind.
      * apply H1. intros k Hk. unfold aupd. destruct (Nat.eqb_spec k p) as [->|]; [|now apply Inv].
        specialize (Inv p Hk). unfold set, VAR0 in *. destruct (inn p) as [u w]. exact Inv.
      * intros out _. cbn [oP fst]. intros k Hk. unfold aupd. destruct (Nat.eqb_spec k p) as [->|N]; [reflexivity|]. now apply Inv.
  - intros [[inn o'] ws] _. destruct (negb _) eqn:Gg; [|exact Logic.I]. specialize (PG Gg). rewrite Evv.
    destruct PG as [[Ev El]|[Ev El]]; rewrite Ev.
    + change (orb (Z.eqb XC_N_2ND_TAYLOR XC_A_2ND_TAYLOR) (Z.eqb XC_N_2ND_TAYLOR XC_N_2ND_TAYLOR)) with true. cbn iota.
      eapply oP_bind; [|intros; exact Logic.I].
      apply pot_restricted_def. intros d out Hd. apply ok_ex.
      destruct De as [Dv De]. rewrite Ev in *.
      assert (Cl : closed D). { destruct Dv as [Dv|[_ Dv]]; [|exact Dv]. cbn in Dv. repeat (destruct Dv as [Dv|Dv]; [discriminate Dv|]); contradiction. }
      apply (covered_energy h hp XC_N_2ND_TAYLOR XC_POTENTIAL o (rehess D h0_ h0_) (fun i => if Nat.ltb i 4 then x i else 0) 2 d out vd); try assumption.
      * split; [right; split; [cbn; tauto|]|].
        -- unfold closed in *. cbn [al be rehess]. now rewrite Cl.
        -- intros i Hi. cbn in Hi. assert (Di := De). do 10 (destruct i as [|i]; [cbn; try (rewrite Di by (cbn; lia)); cbn; try reflexivity; try ring|]). lia.
      * lia.
      * intros i Hi. apply Hd. lia.
    + change (orb (Z.eqb XC_A_B_2ND_TAYLOR XC_A_2ND_TAYLOR) (Z.eqb XC_A_B_2ND_TAYLOR XC_N_2ND_TAYLOR)) with false. cbn iota.
      eapply oP_bind; [|intros; exact Logic.I].
      apply (oP_ofold _ (fun _ _ => True) False); [exact Logic.I|]. intros j [d0 ws'] Hj _.
      eapply oP_bind; [|intros; exact Logic.I]. apply pot_unrestricted_def; [lia|]. intros d out Hd. apply ok_ex.
      destruct De as [Dv De]. rewrite Ev in *.
      apply (covered_energy h hp XC_A_B_2ND_TAYLOR XC_POTENTIAL o
        (rehess D h0_ (Hes (c0 2 (d0 14%nat)) (c0 2 (d0 15%nat)) (c0 2 (d0 16%nat)) (c0 2 (d0 17%nat)) (c0 2 (d0 18%nat)) (c0 2 (d0 19%nat))))
        (fun i => if Nat.ltb i 4 then x i else if Nat.ltb i 10 then 0 else if Nat.ltb i 14 then x i else c0 2 (d0 i)) 2 d out vd); try assumption.
      * split; [left; cbn; tauto|].
        intros i Hi. cbn in Hi. assert (Di := De). do 20 (destruct i as [|i]; [cbn; try (rewrite Di by (cbn; lia)); cbn; try reflexivity; try ring|]). lia.
      * lia.
      * intros i Hi. apply Hd. lia.
Qed.
Print Assumptions C33_potential_defined.
