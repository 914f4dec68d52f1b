(** * Property theorems: the functionals are the published ones (C35) *)
From Coq Require Import Reals QArith Qreals ZArith Arith Lia Lra List Bool String.
From Coquelicot Require Import Coquelicot.
From Verif Require Import Scalar RInst Tables Api SpecApi ApiProofs ApiProofs2 CTaylor CtAlg TMath Br Expr Densvars Functionals
  Eval SpecEval EvalProps Taint EvalExt Props_Eval Sem RSem EnergyR EvalR EvalReal EvalApi Phys Mk Props_Deriv Props_Dens Props_Dens2 Props_Scale Value.
From Verif Require Import Published PubTac PubX PubC PubM PubS PubS2 PubL PubZ.
Import ListNotations.
Local Open Scope outcome_scope.
Local Open Scope R_scope.

(** ** Every table entry is the value of the functional of that name *)
Definition id_of (nm : string) : nat := match find (fun p => String.eqb (fst p) nm) (combine item_names (seq 0 82)) with Some p => snd p | None => 82%nat end.
Lemma id_of_ok i nm : (i < 78)%nat -> nth_error item_names i = Some nm -> id_of nm = i.
Proof.
  intros L E. assert (A : forallb (fun i => match nth_error item_names i with Some nm => Nat.eqb (id_of nm) i | None => true end) (seq 0 78) = true) by (vm_compute; reflexivity).
  rewrite forallb_forall in A. specialize (A i ltac:(apply in_seq; lia)). cbv beta in A. rewrite E in A. now apply Nat.eqb_eq.
Qed.
Definition entry (r : reference) : Prop := match nth_error functionals (id_of (ref_name r)) with
  | Some (_, e) => forall (st : nat -> R) x D, above D -> ref_for r (st XC_RANGESEP_MU) D ->
      tv (st : nat -> T ROps) x (dvar D) [] e = ref_energy r (st XC_RANGESEP_MU) (st XC_CAM_ALPHA) (st XC_CAM_BETA) D
  | None => False end.
Lemma entry_i r i nm e : id_of (ref_name r) = i -> nth_error functionals i = Some (nm, e) ->
  (forall (st : nat -> R) x D, above D -> ref_for r (st XC_RANGESEP_MU) D ->
      tv (st : nat -> T ROps) x (dvar D) [] e = ref_energy r (st XC_RANGESEP_MU) (st XC_CAM_ALPHA) (st XC_CAM_BETA) D) -> entry r.
Proof. intros I' E H. unfold entry. rewrite I', E. exact H. Qed.
Lemma zv_entry (v beta alpha mu : R) D : v = zv_v0 (dvar D) beta alpha (zv_fit (dvar D f_zeta)) -> closed_D mu D -> v = zv_c beta alpha D.
Proof. intros -> C. change (dvar D f_zeta) with (zet D). rewrite (zet_closed D C), zv_fit_0. unfold zv_c. rewrite (zet_closed D C). reflexivity. Qed.
Lemma entries : List.Forall entry published.
Proof.
  apply List.Forall_cons; [apply (entry_i _ 0 "XC_SLATERX" slater_slaterx); [vm_compute; reflexivity|reflexivity|intros st x D Ab Ok; exact (k_slater st x (dvar D) (phys_dvar D Ab))]|].
  apply List.Forall_cons; [apply (entry_i _ 1 "XC_PW86X" pw86x_pw86xtot); [vm_compute; reflexivity|reflexivity|intros st x D Ab Ok; exact (k_pw86 st x (dvar D) (phys_dvar D Ab))]|].
  apply List.Forall_cons; [apply (entry_i _ 2 "XC_VWN3C" vwn3_vwn3c); [vm_compute; reflexivity|reflexivity|intros st x D Ab Ok; exact (k_vwn3 st x (dvar D) (phys_dvar D Ab))]|].
  apply List.Forall_cons; [apply (entry_i _ 3 "XC_VWN5C" vwn5c); [vm_compute; reflexivity|reflexivity|intros st x D Ab Ok; exact (k_vwn5 st x (dvar D) (phys_dvar D Ab))]|].
  apply List.Forall_cons; [apply (entry_i _ 4 "XC_PBEC" pbec); [vm_compute; reflexivity|reflexivity|intros st x D Ab Ok; exact (k_pbec st x (dvar D) (phys_dvar D Ab))]|].
  apply List.Forall_cons; [apply (entry_i _ 5 "XC_PBEX" pbex_pbex_en); [vm_compute; reflexivity|reflexivity|intros st x D Ab Ok; exact (k_pbex st x (dvar D) (phys_dvar D Ab))]|].
  apply List.Forall_cons; [apply (entry_i _ 6 "XC_BECKEX" beckex); [vm_compute; reflexivity|reflexivity|intros st x D Ab Ok; exact (k_becke st x (dvar D) (phys_dvar D Ab) Ok)]|].
  apply List.Forall_cons; [apply (entry_i _ 7 "XC_BECKECORRX" beckex_beckexcorr); [vm_compute; reflexivity|reflexivity|intros st x D Ab Ok; exact (k_beckecorr st x (dvar D) (phys_dvar D Ab) Ok)]|].
  apply List.Forall_cons; [apply (entry_i _ 8 "XC_BECKESRX" beckex_beckesrx); [vm_compute; reflexivity|reflexivity|intros st x D Ab Ok; exact (k_beckesrx st x (dvar D) (phys_dvar D Ab) Ok)]|].
  apply List.Forall_cons; [apply (entry_i _ 9 "XC_BECKECAMX" beckex_beckecamx); [vm_compute; reflexivity|reflexivity|intros st x D Ab Ok; exact (k_beckecamx st x (dvar D) (phys_dvar D Ab) Ok)]|].
  apply List.Forall_cons; [apply (entry_i _ 13 "XC_LDAERFX" ldaerfx_lda_erfx); [vm_compute; reflexivity|reflexivity|intros st x D Ab Ok; exact (k_ldaerfx st x (dvar D) (phys_dvar D Ab) Ok)]|].
  apply List.Forall_cons; [apply (entry_i _ 16 "XC_LYPC" lypc); [vm_compute; reflexivity|reflexivity|intros st x D Ab Ok; exact (k_lyp st x (dvar D) (phys_dvar D Ab))]|].
  apply List.Forall_cons; [apply (entry_i _ 17 "XC_OPTX" optx); [vm_compute; reflexivity|reflexivity|intros st x D Ab Ok; exact (k_optx st x (dvar D) (phys_dvar D Ab))]|].
  apply List.Forall_cons; [apply (entry_i _ 18 "XC_OPTXCORR" optxcorr); [vm_compute; reflexivity|reflexivity|intros st x D Ab Ok; exact (k_optxcorr st x (dvar D) (phys_dvar D Ab))]|].
  apply List.Forall_cons; [apply (entry_i _ 19 "XC_REVPBEX" revpbex); [vm_compute; reflexivity|reflexivity|intros st x D Ab Ok; exact (k_revpbex st x (dvar D) (phys_dvar D Ab))]|].
  apply List.Forall_cons; [apply (entry_i _ 20 "XC_RPBEX" rpbex); [vm_compute; reflexivity|reflexivity|intros st x D Ab Ok; exact (k_rpbex st x (dvar D) (phys_dvar D Ab))]|].
  apply List.Forall_cons; [apply (entry_i _ 22 "XC_VWN_PBEC" pbec_vwn_pbec); [vm_compute; reflexivity|reflexivity|intros st x D Ab Ok; exact (k_vwn_pbec st x (dvar D) (phys_dvar D Ab))]|].
  apply List.Forall_cons; [apply (entry_i _ 23 "XC_KTX" ktx); [vm_compute; reflexivity|reflexivity|intros st x D Ab Ok; exact (k_ktx st x (dvar D))]|].
  apply List.Forall_cons; [apply (entry_i _ 24 "XC_TFK" tfk); [vm_compute; reflexivity|reflexivity|intros st x D Ab Ok; exact (k_tfk st x (dvar D))]|].
  apply List.Forall_cons; [apply (entry_i _ 26 "XC_PW91X" pw91x); [vm_compute; reflexivity|reflexivity|intros st x D Ab Ok; exact (k_pw91x st x (dvar D) (phys_dvar D Ab) Ok)]|].
  apply List.Forall_cons; [apply (entry_i _ 27 "XC_PW91K" pw91k); [vm_compute; reflexivity|reflexivity|intros st x D Ab Ok; exact (k_pw91k st x (dvar D) (phys_dvar D Ab) Ok)]|].
  apply List.Forall_cons; [apply (entry_i _ 28 "XC_PW92C" pw92c); [vm_compute; reflexivity|reflexivity|intros st x D Ab Ok; exact (k_pw92c st x (dvar D) (phys_dvar D Ab))]|].
  apply List.Forall_cons; [apply (entry_i _ 29 "XC_M05X" m05x); [vm_compute; reflexivity|reflexivity|intros st x D Ab Ok; exact (k_m05x st x (dvar D) (phys_dvar D Ab))]|].
  apply List.Forall_cons; [apply (entry_i _ 30 "XC_M05X2X" m05x2x); [vm_compute; reflexivity|reflexivity|intros st x D Ab Ok; exact (k_m05x2x st x (dvar D) (phys_dvar D Ab))]|].
  apply List.Forall_cons; [apply (entry_i _ 32 "XC_M06X2X" m06x2x); [vm_compute; reflexivity|reflexivity|intros st x D Ab Ok; exact (k_m06x2x st x (dvar D) (phys_dvar D Ab))]|].
  apply List.Forall_cons; [apply (entry_i _ 31 "XC_M06X" m06x); [vm_compute; reflexivity|reflexivity|intros st x D Ab Ok; exact (k_m06x st x (dvar D) (phys_dvar D Ab))]|].
  apply List.Forall_cons; [apply (entry_i _ 33 "XC_M06LX" m06lx); [vm_compute; reflexivity|reflexivity|intros st x D Ab Ok; exact (k_m06lx st x (dvar D) (phys_dvar D Ab))]|].
  apply List.Forall_cons; [apply (entry_i _ 34 "XC_M06HFX" m06hfx); [vm_compute; reflexivity|reflexivity|intros st x D Ab Ok; exact (k_m06hfx st x (dvar D) (phys_dvar D Ab))]|].
  apply List.Forall_cons; [apply (entry_i _ 36 "XC_M05C" m05c); [vm_compute; reflexivity|reflexivity|intros st x D Ab Ok; exact (k_m05c st x (dvar D) (phys_dvar D Ab))]|].
  apply List.Forall_cons; [apply (entry_i _ 35 "XC_M05X2C" m05x2c); [vm_compute; reflexivity|reflexivity|intros st x D Ab Ok; exact (k_m05x2c st x (dvar D) (phys_dvar D Ab))]|].
  apply List.Forall_cons; [apply (entry_i _ 37 "XC_M06C" m06c); [vm_compute; reflexivity|reflexivity|intros st x D Ab Ok; exact (k_m06c st x (dvar D) (phys_dvar D Ab))]|].
  apply List.Forall_cons; [apply (entry_i _ 38 "XC_M06HFC" m06hfc); [vm_compute; reflexivity|reflexivity|intros st x D Ab Ok; exact (k_m06hfc st x (dvar D) (phys_dvar D Ab))]|].
  apply List.Forall_cons; [apply (entry_i _ 39 "XC_M06LC" m06lc); [vm_compute; reflexivity|reflexivity|intros st x D Ab Ok; exact (k_m06lc st x (dvar D) (phys_dvar D Ab))]|].
  apply List.Forall_cons; [apply (entry_i _ 40 "XC_M06X2C" m06x2c); [vm_compute; reflexivity|reflexivity|intros st x D Ab Ok; exact (k_m06x2c st x (dvar D) (phys_dvar D Ab))]|].
  apply List.Forall_cons; [apply (entry_i _ 41 "XC_TPSSC" tpssc); [vm_compute; reflexivity|reflexivity|intros st x D Ab Ok; exact (k_tpssc st x (dvar D) (phys_dvar D Ab))]|].
  apply List.Forall_cons; [apply (entry_i _ 42 "XC_TPSSX" tpssx); [vm_compute; reflexivity|reflexivity|intros st x D Ab Ok; exact (k_tpssx st x (dvar D) (phys_dvar D Ab))]|].
  apply List.Forall_cons; [apply (entry_i _ 55 "XC_PZ81C" pz81c); [vm_compute; reflexivity|reflexivity|intros st x D Ab Ok; exact (k_pz81 st x (dvar D) (phys_dvar D Ab))]|].
  apply List.Forall_cons; [apply (entry_i _ 56 "XC_P86C" p86c); [vm_compute; reflexivity|reflexivity|intros st x D Ab Ok; exact (k_p86c st x (dvar D) (phys_dvar D Ab))]|].
  apply List.Forall_cons; [apply (entry_i _ 57 "XC_P86CORRC" p86c_p86c_corr); [vm_compute; reflexivity|reflexivity|intros st x D Ab Ok; exact (p86_E st x (dvar D) (phys_dvar D Ab))]|].
  apply List.Forall_cons; [apply (entry_i _ 59 "XC_VWK" vonw_vW); [vm_compute; reflexivity|reflexivity|intros st x D Ab Ok; exact (k_vwk st x (dvar D))]|].
  apply List.Forall_cons; [apply (entry_i _ 60 "XC_B97X" b97xc_b97x_en); [vm_compute; reflexivity|reflexivity|intros st x D Ab Ok; exact (k_b97x st x (dvar D) (phys_dvar D Ab))]|].
  apply List.Forall_cons; [apply (entry_i _ 62 "XC_B97_1X" b97_1xc_b97_1x_en); [vm_compute; reflexivity|reflexivity|intros st x D Ab Ok; exact (k_b97_1x st x (dvar D) (phys_dvar D Ab))]|].
  apply List.Forall_cons; [apply (entry_i _ 64 "XC_B97_2X" b97_2xc_b97_2x_en); [vm_compute; reflexivity|reflexivity|intros st x D Ab Ok; exact (k_b97_2x st x (dvar D) (phys_dvar D Ab))]|].
  apply List.Forall_cons; [apply (entry_i _ 61 "XC_B97C" b97xc_b97c_en); [vm_compute; reflexivity|reflexivity|intros st x D Ab Ok; exact (k_b97c st x (dvar D) (phys_dvar D Ab))]|].
  apply List.Forall_cons; [apply (entry_i _ 63 "XC_B97_1C" b97_1xc_b97_1c_en); [vm_compute; reflexivity|reflexivity|intros st x D Ab Ok; exact (k_b97_1c st x (dvar D) (phys_dvar D Ab))]|].
  apply List.Forall_cons; [apply (entry_i _ 65 "XC_B97_2C" b97_2xc_b97_2c_en); [vm_compute; reflexivity|reflexivity|intros st x D Ab Ok; exact (k_b97_2c st x (dvar D) (phys_dvar D Ab))]|].
  apply List.Forall_cons; [apply (entry_i _ 67 "XC_APBEC" apbec_energy); [vm_compute; reflexivity|reflexivity|intros st x D Ab Ok; exact (k_apbec st x (dvar D) (phys_dvar D Ab))]|].
  apply List.Forall_cons; [apply (entry_i _ 68 "XC_APBEX" apbex_energy); [vm_compute; reflexivity|reflexivity|intros st x D Ab Ok; exact (k_apbex st x (dvar D) (phys_dvar D Ab))]|].
  apply List.Forall_cons; [apply (entry_i _ 70 "XC_BLOCX" blocx_energy); [vm_compute; reflexivity|reflexivity|intros st x D Ab Ok; exact (k_blocx st x (dvar D) (phys_dvar D Ab))]|].
  apply List.Forall_cons; [apply (entry_i _ 71 "XC_PBEINTC" pbeintc_energy); [vm_compute; reflexivity|reflexivity|intros st x D Ab Ok; exact (k_pbeintc st x (dvar D) (phys_dvar D Ab))]|].
  apply List.Forall_cons; [apply (entry_i _ 72 "XC_PBEINTX" pbeintx_energy); [vm_compute; reflexivity|reflexivity|intros st x D Ab Ok; exact (k_pbeintx st x (dvar D) (phys_dvar D Ab))]|].
  apply List.Forall_cons; [apply (entry_i _ 73 "XC_PBELOCC" pbelocc_energy); [vm_compute; reflexivity|reflexivity|intros st x D Ab Ok; exact (k_pbelocc st x (dvar D) (phys_dvar D Ab))]|].
  apply List.Forall_cons; [apply (entry_i _ 74 "XC_PBESOLX" pbesolx_energy); [vm_compute; reflexivity|reflexivity|intros st x D Ab Ok; exact (k_pbesolx st x (dvar D) (phys_dvar D Ab))]|].
  apply List.Forall_cons; [apply (entry_i _ 75 "XC_TPSSLOCC" tpsslocc_energy); [vm_compute; reflexivity|reflexivity|intros st x D Ab Ok; exact (k_tpsslocc st x (dvar D) (phys_dvar D Ab))]|].
  apply List.Forall_cons; [apply (entry_i _ 46 "XC_SCANX" SCANx_SCANX); [vm_compute; reflexivity|reflexivity|intros st x D Ab Ok; exact (k_scanx st x (dvar D) (phys_dvar D Ab) (proj1 Ok) (proj2 Ok))]|].
  apply List.Forall_cons; [apply (entry_i _ 48 "XC_RSCANX" rSCANx_rSCANX); [vm_compute; reflexivity|reflexivity|intros st x D Ab Ok; exact (k_rscanx st x (dvar D) (phys_dvar D Ab) (proj1 Ok) (proj2 Ok))]|].
  apply List.Forall_cons; [apply (entry_i _ 50 "XC_RPPSCANX" rppSCANx_rppSCANX); [vm_compute; reflexivity|reflexivity|intros st x D Ab Ok; exact (k_rppscanx st x (dvar D) (phys_dvar D Ab) (proj1 Ok) (proj2 Ok))]|].
  apply List.Forall_cons; [apply (entry_i _ 52 "XC_R2SCANX" r2SCANx_r2SCANX); [vm_compute; reflexivity|reflexivity|intros st x D Ab Ok; exact (k_r2scanx st x (dvar D) (phys_dvar D Ab) (proj1 Ok) (proj2 Ok))]|].
  apply List.Forall_cons; [apply (entry_i _ 54 "XC_R4SCANX" r4SCANx_r4SCANX); [vm_compute; reflexivity|reflexivity|intros st x D Ab Ok; exact (k_r4scanx st x (dvar D) (phys_dvar D Ab) (proj1 Ok) (proj2 Ok))]|].
  apply List.Forall_cons; [apply (entry_i _ 45 "XC_SCANC" SCANc_SCANC); [vm_compute; reflexivity|reflexivity|intros st x D Ab Ok; exact (k_scanc st x (dvar D) (phys_dvar D Ab) (proj1 Ok))]|].
  apply List.Forall_cons; [apply (entry_i _ 47 "XC_RSCANC" rSCANc_rSCANC); [vm_compute; reflexivity|reflexivity|intros st x D Ab Ok; exact (k_rscanc st x (dvar D) (phys_dvar D Ab) Ok)]|].
  apply List.Forall_cons; [apply (entry_i _ 49 "XC_RPPSCANC" rppSCANc_rppSCANC); [vm_compute; reflexivity|reflexivity|intros st x D Ab Ok; exact (k_rppscanc st x (dvar D) (phys_dvar D Ab) (proj1 Ok) (proj2 Ok))]|].
  apply List.Forall_cons; [apply (entry_i _ 51 "XC_R2SCANC" r2SCANc_r2SCANC); [vm_compute; reflexivity|reflexivity|intros st x D Ab Ok; exact (k_r2scanc st x (dvar D) (phys_dvar D Ab) (proj1 Ok) (proj2 Ok))]|].
  apply List.Forall_cons; [apply (entry_i _ 53 "XC_R4SCANC" r4SCANc_r4SCANC); [vm_compute; reflexivity|reflexivity|intros st x D Ab Ok; exact (k_r4scanc st x (dvar D) (phys_dvar D Ab) (proj1 Ok) (proj2 Ok))]|].
  apply List.Forall_cons; [apply (entry_i _ 77 "XC_PW91C" pw91c); [vm_compute; reflexivity|reflexivity|intros st x D Ab Ok; exact (k_pw91c st x (dvar D) (phys_dvar D Ab))]|].
  apply List.Forall_cons; [apply (entry_i _ 14 "XC_LDAERFC" ldaerfc); [vm_compute; reflexivity|reflexivity|intros st x D Ab Ok; exact (k_ldaerfc st x (dvar D) (phys_dvar D Ab))]|].
  apply List.Forall_cons; [apply (entry_i _ 15 "XC_LDAERFC_JT" ldaerfc_jt); [vm_compute; reflexivity|reflexivity|intros st x D Ab Ok; exact (k_ldaerfc_jt st x (dvar D) (phys_dvar D Ab) (zet_closed D Ok))]|].
  apply List.Forall_cons; [apply (entry_i _ 69 "XC_ZVPBESOLC" zvpbesolc_energy); [vm_compute; reflexivity|reflexivity|intros st x D Ab Ok; exact (zv_entry _ _ _ _ D (k_zvpbesolc st x (dvar D) (phys_dvar D Ab) (proj2 Ok)) (proj1 Ok))]|].
  apply List.Forall_cons; [apply (entry_i _ 76 "XC_ZVPBEINTC" zvpbeint_energy); [vm_compute; reflexivity|reflexivity|intros st x D Ab Ok; exact (zv_entry _ _ _ _ D (k_zvpbeintc st x (dvar D) (phys_dvar D Ab) (proj2 Ok)) (proj1 Ok))]|].
  apply List.Forall_nil.
Qed.

(** ** C35 *)
(** Every functional switched on is in the table, and the density is one its entry is for. *)
Definition all_published (h : handle ROps) (D : dens) : Prop :=
  forall i nm, In i (h_active h) -> nth_error item_names i = Some nm ->
    exists r, reference_of nm = Some r /\ ref_for r (h_settings h XC_RANGESEP_MU) D.
(** The published energy density of the functional with a given number, at the parameters of the handle. *)
Definition published_energy (h : handle ROps) (D : dens) (i : nat) : R :=
  match nth_error item_names i with
  | Some nm => match reference_of nm with
     | Some r => ref_energy r (h_settings h XC_RANGESEP_MU) (h_settings h XC_CAM_ALPHA) (h_settings h XC_CAM_BETA) D
     | None => 0 end
  | None => 0 end.
(** Sum of the published energy densities, each times the weight set by the user. *)
Definition published_sum (h : handle ROps) (D : dens) : R :=
  fold_right (fun i s => (h_settings h i : R) * published_energy h D i + s) 0 (h_active h).

Lemma ref_in nm r : reference_of nm = Some r -> In r published /\ ref_name r = nm.
Proof. intro E. apply find_some in E. destruct E as [I' E]. split; [exact I'|now apply String.eqb_eq]. Qed.
Lemma no_revtpssx : reference_of "REVTPSSX" = None.
Proof. reflexivity. Qed.
Lemma published_honest h D v : all_published h D -> tau_honest h v.
Proof.
  intros A X. exfalso. destruct (item_ex XC_REVTPSSX_id) as [nm E]; [vm_compute; lia|]. destruct (A _ _ X E) as (r & Er & _).
  vm_compute in E. injection E as <-. rewrite no_revtpssx in Er. discriminate.
Qed.
Lemma reachable_lt (h : handle ROps) : reachable h -> forall i, In i (h_active h) -> (i < 78)%nat.
Proof. intros Hr i Hi. now apply (reachable_wf h Hr). Qed.
Lemma rsum_published (h : handle ROps) x D A : above D -> (forall i, In i A -> (i < 78)%nat) ->
  (forall i nm, In i A -> nth_error item_names i = Some nm -> exists r, reference_of nm = Some r /\ ref_for r (h_settings h XC_RANGESEP_MU) D) ->
  forall w, rsum (h_settings h) x (dvar D) A = Some w -> w = fold_right (fun i s => (h_settings h i : R) * published_energy h D i + s) 0 A.
Proof.
  intros Ab. induction A as [|i A IH]; intros LA HA w E; cbn [rsum fold_right] in *; [injection E as <-; reflexivity|].
  pose proof (LA i (or_introl eq_refl)) as Li. destruct (nofun_len i Li) as (nm' & e & Ef). rewrite Ef in E. destruct (item_ex i Li) as [nm En].
  destruct (reval (h_settings h) x (dvar D) [] e) as [u|] eqn:U; [|discriminate]. cbn [obnd] in E. destruct (rsum (h_settings h) x (dvar D) A) as [s|]; [|discriminate]. cbn [obnd] in E. injection E as <-.
  rewrite (IH (fun j Hj => LA j (or_intror Hj)) (fun j m Hj => HA j m (or_intror Hj)) s eq_refl).
  destruct (HA i nm (or_introl eq_refl) En) as (r & Er & Ok). destruct (ref_in _ _ Er) as [Ir Nr].
  pose proof entries as Al. rewrite List.Forall_forall in Al. specialize (Al r Ir). unfold entry in Al. rewrite Nr, (id_of_ok i nm Li En), Ef in Al.
  assert (Ev : u = published_energy h D i). { unfold published_energy. rewrite En, Er, <- (Al (h_settings h) x D Ab Ok). exact (tv_ok _ _ _ e [] u U). }
  rewrite Ev. cbn [T ROps Omul]. ring.
Qed.
(** C35.  Whatever weighted sum of tabulated functionals is switched on, whatever variable set
    carries the density and whatever the density, the energy the library returns is the
    weighted sum of the published energy densities. *)
Theorem C35_published_energy :
  forall (h h0 : handle ROps) v D x e, reachable h ->
    xcfun_eval_setup h v XC_PARTIAL_DERIVATIVES 0 = Ok (h0, 0%Z) -> all_published h D ->
    above D -> describes v x D ->
    library_energy h0 x e -> e = published_sum h D.
Proof.
  intros h h0 v D x e Hr S Ap Ab De Le.
  destruct (described_energy h h0 v D x Hr S (published_honest h D v Ap) Ab De) as [[vd G] E].
  rewrite (lib_energy _ _ _ _ _ _ G), E in Le. destruct (rsum _ _ (dvar D) _) as [s|] eqn:Q; [|discriminate]. injection Le as <-.
  exact (rsum_published h _ D _ Ab (fun i Hi => reachable_lt h Hr i Hi) Ap s Q).
Qed.
Print Assumptions C35_published_energy.
(** C35 (the energy exists).  For the functionals C33 covers, the library does return that value. *)
Theorem C35_published_value :
  forall (h h0 : handle ROps) v D x, reachable h ->
    xcfun_eval_setup h v XC_PARTIAL_DERIVATIVES 0 = Ok (h0, 0%Z) -> all_published h D -> all_covered h D ->
    0 < (h_settings h XC_RANGESEP_MU : R) -> above D -> describes v x D ->
    library_energy h0 x (published_sum h D).
Proof.
  intros h h0 v D x Hr S Ap Ac Mu Ab De. destruct (covered_energy0 h h0 v D x Hr S Mu Ac Ab De) as [e E].
  destruct (described_energy h h0 v D x Hr S (published_honest h D v Ap) Ab De) as [[vd G] _].
  pose proof (proj2 (lib_energy _ _ _ _ _ (e : R) G) E) as Le.
  rewrite <- (C35_published_energy h h0 v D x e Hr S Ap Ab De Le). exact Le.
Qed.
Print Assumptions C35_published_value.
