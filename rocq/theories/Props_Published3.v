(** * Property theorems: the functionals are the published ones at any gradient, to 1e-13 (C35) *)
From Coq Require Import Reals QArith Qreals ZArith Arith Lia Lra Psatz List Bool String.
From Coquelicot Require Import Coquelicot.
From Verif Require Import Scalar RInst Tables Api SpecApi ApiProofs ApiProofs2 CTaylor CtAlg TMath Br Expr Densvars Functionals
  Eval SpecEval EvalProps Taint EvalExt Props_Eval Sem RSem EnergyR EvalR EvalReal EvalApi Phys Mk Props_Deriv Props_Dens Props_Dens2 Props_Scale Props_Scale2 Value.
From Verif Require Import Published PubTac PubX PubC PubM PubNear LrPart PubErf Props_Published.
Import ListNotations.
Local Open Scope outcome_scope.
Local Open Scope R_scope.

(** The functionals the library approximates when a reduced gradient is small.  The two range-separated ones with the
    parameters of a range separation: RANGESEP_MU positive, CAM_BETA not negative, CAM_ALPHA + CAM_BETA at most 1. *)
Definition approximated (mu alpha beta : R) (nm : string) : Prop :=
  In nm ["BECKEX"; "BECKECORRX"; "PW91X"; "PW91K"]%string \/ (nm = "BECKESRX"%string /\ 0 < mu) \/ (nm = "BECKECAMX"%string /\ 0 < mu /\ 0 <= beta /\ alpha + beta <= 1).
(** Every functional switched on is in the table; for the six above at any density, for the others at a density its entry is for. *)
Definition all_tabulated (h : handle ROps) (D : dens) : Prop :=
  forall i nm, In i (h_active h) -> nth_error item_names i = Some nm ->
    exists r, reference_of nm = Some r /\ (approximated (h_settings h XC_RANGESEP_MU) (h_settings h XC_CAM_ALPHA) (h_settings h XC_CAM_BETA) nm \/ ref_for r (h_settings h XC_RANGESEP_MU) D).
(** Sum of the magnitudes of the weighted published energy densities. *)
Definition published_size (h : handle ROps) (D : dens) : R :=
  fold_right (fun i s => Rabs ((h_settings h i : R) * published_energy h D i) + s) 0 (h_active h).

Lemma near_entry r (st : nat -> R) x D : In r published -> approximated (st XC_RANGESEP_MU) (st XC_CAM_ALPHA) (st XC_CAM_BETA) (ref_name r) -> above D ->
  match nth_error functionals (id_of (ref_name r)) with
  | Some (_, e) => near (tv (st : nat -> T ROps) x (dvar D) [] e) (ref_energy r (st XC_RANGESEP_MU) (st XC_CAM_ALPHA) (st XC_CAM_BETA) D)
  | None => False end.
Proof.
  assert (A : forall (r : reference) i nm e, id_of (ref_name r) = i -> nth_error functionals i = Some (nm, e) ->
    near (tv (st : nat -> T ROps) x (dvar D) [] e) (ref_energy r (st XC_RANGESEP_MU) (st XC_CAM_ALPHA) (st XC_CAM_BETA) D) ->
    match nth_error functionals (id_of (ref_name r)) with
    | Some (_, e) => near (tv (st : nat -> T ROps) x (dvar D) [] e) (ref_energy r (st XC_RANGESEP_MU) (st XC_CAM_ALPHA) (st XC_CAM_BETA) D)
    | None => False end) by (intros r' i nm e I' E H; rewrite I', E; exact H).
  intros Ir In' Ab. assert (F : reference_of (ref_name r) = Some r).
  { assert (G : forall l, In r l -> NoDup (map ref_name l) -> find (fun q => String.eqb (ref_name q) (ref_name r)) l = Some r).
    { induction l as [|q l IH]; intros Hi Nd; [destruct Hi|]. cbn [map] in Nd. apply NoDup_cons_iff in Nd. destruct Nd as [Ni Nd]. cbn [find].
      destruct (String.eqb_spec (ref_name q) (ref_name r)) as [Eq|Ne]; [|destruct Hi as [->|Hi]; [now destruct Ne|now apply IH]].
      destruct Hi as [->|Hi]; [reflexivity|]. exfalso. apply Ni. rewrite Eq. now apply in_map. }
    apply (G published Ir). cbn. repeat (constructor; [cbn; intros X; repeat (destruct X as [X|X]; [discriminate X|]); exact X|]). constructor. }
  pose proof (phys_dvar D Ab) as Ph. destruct In' as [In'|[[N M]|(N & M & B & Al)]].
  - cbn [In] in In'. destruct In' as [N|[N|[N|[N|[]]]]]; rewrite <- N in F; injection F as <-.
    + apply (A _ 6%nat "XC_BECKEX"%string beckex); [vm_compute; reflexivity|reflexivity|exact (near_becke st x (dvar D) Ph)].
    + apply (A _ 7%nat "XC_BECKECORRX"%string beckex_beckexcorr); [vm_compute; reflexivity|reflexivity|exact (near_beckecorr st x (dvar D) Ph)].
    + apply (A _ 26%nat "XC_PW91X"%string pw91x); [vm_compute; reflexivity|reflexivity|exact (near_pw91x st x (dvar D) Ph)].
    + apply (A _ 27%nat "XC_PW91K"%string pw91k); [vm_compute; reflexivity|reflexivity|exact (near_pw91k st x (dvar D) Ph)].
  - rewrite N in F. injection F as <-. apply (A _ 8%nat "XC_BECKESRX"%string beckex_beckesrx); [vm_compute; reflexivity|reflexivity|exact (near_beckesrx st x (dvar D) Ph M)].
  - rewrite N in F. injection F as <-. apply (A _ 9%nat "XC_BECKECAMX"%string beckex_beckecamx); [vm_compute; reflexivity|reflexivity|exact (near_beckecamx st x (dvar D) Ph M B Al)].
Qed.
Lemma tabulated_honest h D v : all_tabulated h D -> tau_honest h v.
Proof.
  intros A X. exfalso. destruct (item_ex XC_REVTPSSX_id) as [nm E]; [vm_compute; lia|]. destruct (A _ _ X E) as (r & Er & _).
  vm_compute in E. injection E as <-. rewrite no_revtpssx in Er. discriminate.
Qed.
Lemma rsum_near (h : handle ROps) x D A : above D -> (forall i, In i A -> (i < 78)%nat) ->
  (forall i nm, In i A -> nth_error item_names i = Some nm -> exists r, reference_of nm = Some r /\ (approximated (h_settings h XC_RANGESEP_MU) (h_settings h XC_CAM_ALPHA) (h_settings h XC_CAM_BETA) nm \/ ref_for r (h_settings h XC_RANGESEP_MU) D)) ->
  forall w, rsum (h_settings h) x (dvar D) A = Some w ->
    Rabs (w - fold_right (fun i s => (h_settings h i : R) * published_energy h D i + s) 0 A) <= tol * fold_right (fun i s => Rabs ((h_settings h i : R) * published_energy h D i) + s) 0 A.
Proof.
  intros Ab. induction A as [|i A IH]; intros LA HA w E; cbn [rsum fold_right] in *; [injection E as <-; rewrite Rminus_eq_0, Rabs_R0; lra|].
  pose proof (LA i (or_introl eq_refl)) as Li. destruct (nofun_len i Li) as (nm' & e & Ef). rewrite Ef in E. destruct (item_ex i Li) as [nm En].
  destruct (reval (h_settings h) x (dvar D) [] e) as [u|] eqn:U; [|discriminate]. cbn [obnd] in E. destruct (rsum (h_settings h) x (dvar D) A) as [s|]; [|discriminate]. cbn [obnd] in E. injection E as <-.
  specialize (IH (fun j Hj => LA j (or_intror Hj)) (fun j m Hj => HA j m (or_intror Hj)) s eq_refl).
  destruct (HA i nm (or_introl eq_refl) En) as (r & Er & Ok). destruct (ref_in _ _ Er) as [Ir Nr].
  assert (Ev : near u (published_energy h D i)).
  { unfold published_energy. rewrite En, Er. rewrite (tv_ok _ _ _ e [] u U). destruct Ok as [Ok|Ok].
    - pose proof (near_entry r (h_settings h) x D Ir) as Al. rewrite Nr, (id_of_ok i nm Li En), Ef in Al. exact (Al Ok Ab).
    - pose proof entries as Al. rewrite List.Forall_forall in Al. specialize (Al r Ir). unfold entry in Al. rewrite Nr, (id_of_ok i nm Li En), Ef in Al. rewrite (Al (h_settings h) x D Ab Ok). apply near_refl. }
  apply (near_scal (h_settings h i)) in Ev. unfold near in Ev.
  revert Ev IH. cbn [T ROps Omul Oadd]. generalize (published_energy h D i) (h_settings h i : R). intros p k. cbn [T ROps] in *.
  generalize (fold_right (fun i s => (h_settings h i : R) * published_energy h D i + s) 0 A) (fold_right (fun i s => Rabs ((h_settings h i : R) * published_energy h D i) + s) 0 A). intros a b Ev IH.
  replace (_ - (k * p + a)) with ((k * u - k * p) + (s - a)) by ring. eapply Rle_trans; [apply Rabs_triang|]. lra.
Qed.
(** C35 (any gradient).  With Becke 1988 (also range-separated) and Perdew-Wang 1991 exchange and kinetic energy at arbitrary reduced
    gradients, the energy the library returns differs from the weighted sum of the published
    energy densities by at most 1e-13 of the sum of their magnitudes. *)
Theorem C35_published_close :
  forall (h h0 : handle ROps) v D x e, reachable h ->
    xcfun_eval_setup h v XC_PARTIAL_DERIVATIVES 0 = Ok (h0, 0%Z) -> all_tabulated h D ->
    above D -> describes v x D ->
    library_energy h0 x e -> Rabs (e - published_sum h D) <= 1 / 10000000000000 * published_size h D.
Proof.
  intros h h0 v D x e Hr S Ap Ab De Le.
  destruct (described_energy h h0 v D x Hr S (tabulated_honest h D v Ap) Ab De) as [[vd G] E].
  rewrite (lib_energy _ _ _ _ _ _ G), E in Le. destruct (rsum _ _ (dvar D) _) as [s|] eqn:Q; [|discriminate]. injection Le as <-.
  exact (rsum_near h _ D _ Ab (fun i Hi => reachable_lt h Hr i Hi) Ap s Q).
Qed.
Print Assumptions C35_published_close.
(** B3LYP's density functionals at a density whose reduced gradients are below the range of
    C35_b3lyp_example. *)
Definition D_flat : dens :=
  {| al := {| rho := 1; grad := V (/ 2) 0 0; hes := Hes 1 0 0 2 0 (-1); kin := 1; jp := 0 |};
     be := {| rho := 1; grad := V 0 (/ 4) 0; hes := Hes 0 1 0 0 0 1; kin := / 2; jp := 0 |} |}.
Lemma D_flat_above : above D_flat.
Proof. split; cbn [rho al be D_flat]; change threshold with (1 * / 100000000000000); lra. Qed.
Example C35_close_example : exists (h h0 : handle ROps) x e, reachable h /\ h_active h = [0; 7; 16; 3]%nat /\
  xcfun_eval_setup h XC_A_B_GAA_GAB_GBB XC_PARTIAL_DERIVATIVES 0 = Ok (h0, 0%Z) /\ all_tabulated h D_flat /\ ~ all_published h D_flat /\
  above D_flat /\ describes XC_A_B_GAA_GAB_GBB x D_flat /\ library_energy h0 x e /\ Rabs (e - published_sum h D_flat) <= 1 / 10000000000000 * published_size h D_flat.
Proof.
  destruct (make (K := ROps) [("slaterx"%string, 0%nat, 8 / 10); ("beckecorrx"%string, 7%nat, 72 / 100); ("lypc"%string, 16%nat, 81 / 100); ("vwn5c"%string, 3%nat, 19 / 100)] eq_refl) as (h & Eh & Hr & A & Es). change (mactive _) with [0; 7; 16; 3]%nat in A.
  assert (Mu : 0 < (h_settings h XC_RANGESEP_MU : R)) by (rewrite Es; unfold msettings; cbn [map fold_left fst snd]; unfold wr_settings, upd; cbn; unfold Q2R; cbn; lra).
  assert (S : exists h1, xcfun_eval_setup h XC_A_B_GAA_GAB_GBB XC_PARTIAL_DERIVATIVES 0 = Ok (h1, 0%Z)) by (eexists; apply accepts_ok; [exact Hr|rewrite A; vm_compute; reflexivity]).
  destruct S as [h0 S].
  assert (De : describes XC_A_B_GAA_GAB_GBB (fun i => nth i (encode XC_A_B_GAA_GAB_GBB D_flat) 0) D_flat) by (apply encode_describes; cbn; tauto).
  assert (Ac : all_covered h D_flat) by (intros i nm Hi Hn; rewrite A in Hi; cbn [In] in Hi; destruct Hi as [<- | [<- | [<- | [<- | []]]]]; vm_compute in Hn; injection Hn as <-; unfold covered; cbn [In any_gradient]; tauto).
  assert (Ap : all_tabulated h D_flat) by (intros i nm Hi Hn; rewrite A in Hi; cbn [In] in Hi; destruct Hi as [<- | [<- | [<- | [<- | []]]]]; vm_compute in Hn; injection Hn as <-; eexists; (split; [reflexivity|first [right; exact Logic.I | left; left; cbn; tauto]])).
  assert (Np : ~ all_published h D_flat).
  { intro X. destruct (X 7%nat "BECKECORRX"%string ltac:(rewrite A; cbn; tauto) eq_refl) as (r & Er & Ok). injection Er as <-. unfold ref_for, steep_D in Ok. destruct Ok as [Ok _].
    assert (P1 : forall y, Rpower 1 y = 1) by (intro y; unfold Rpower; now rewrite ln_1, Rmult_0_r, exp_0). revert Ok. unfold saa, dot. cbn. rewrite !P1. lra. }
  destruct (covered_energy0 h h0 _ D_flat _ Hr S Mu Ac D_flat_above De) as [e E].
  destruct (described_energy h h0 _ D_flat _ Hr S (tabulated_honest h D_flat _ Ap) D_flat_above De) as [[vd G] _].
  pose proof (proj2 (lib_energy _ _ _ _ _ (e : R) G) E) as Le.
  exists h, h0. do 2 eexists. split; [exact Hr|]. split; [exact A|]. split; [exact S|]. split; [exact Ap|]. split; [exact Np|]. split; [exact D_flat_above|]. split; [exact De|].
  split; [exact Le|]. exact (C35_published_close h h0 _ D_flat _ e Hr S Ap D_flat_above De Le).
Qed.
(** CAM-B3LYP's density functionals with the default range-separation parameters at the same density. *)
Example C35_cam_example : exists (h h0 : handle ROps) x e, reachable h /\ h_active h = [9; 16; 3]%nat /\
  xcfun_eval_setup h XC_A_B_GAA_GAB_GBB XC_PARTIAL_DERIVATIVES 0 = Ok (h0, 0%Z) /\ all_tabulated h D_flat /\ ~ all_published h D_flat /\
  above D_flat /\ describes XC_A_B_GAA_GAB_GBB x D_flat /\ library_energy h0 x e /\ Rabs (e - published_sum h D_flat) <= 1 / 10000000000000 * published_size h D_flat.
Proof.
  destruct (make (K := ROps) [("beckecamx"%string, 9%nat, 1); ("lypc"%string, 16%nat, 81 / 100); ("vwn5c"%string, 3%nat, 19 / 100)] eq_refl) as (h & Eh & Hr & A & Es). change (mactive _) with [9; 16; 3]%nat in A.
  assert (Mu : h_settings h XC_RANGESEP_MU = 2 / 5) by (rewrite Es; unfold msettings; cbn [map fold_left fst snd]; unfold wr_settings, upd; cbn; unfold Q2R; cbn; lra).
  assert (Al : h_settings h XC_CAM_ALPHA = 19 / 100) by (rewrite Es; unfold msettings; cbn [map fold_left fst snd]; unfold wr_settings, upd; cbn; unfold Q2R; cbn; lra).
  assert (Be : h_settings h XC_CAM_BETA = 23 / 50) by (rewrite Es; unfold msettings; cbn [map fold_left fst snd]; unfold wr_settings, upd; cbn; unfold Q2R; cbn; lra).
  assert (Mp : 0 < (h_settings h XC_RANGESEP_MU : R)) by (rewrite Mu; lra).
  assert (S : exists h1, xcfun_eval_setup h XC_A_B_GAA_GAB_GBB XC_PARTIAL_DERIVATIVES 0 = Ok (h1, 0%Z)) by (eexists; apply accepts_ok; [exact Hr|rewrite A; vm_compute; reflexivity]).
  destruct S as [h0 S].
  assert (De : describes XC_A_B_GAA_GAB_GBB (fun i => nth i (encode XC_A_B_GAA_GAB_GBB D_flat) 0) D_flat) by (apply encode_describes; cbn; tauto).
  assert (Ac : all_covered h D_flat) by (intros i nm Hi Hn; rewrite A in Hi; cbn [In] in Hi; destruct Hi as [<- | [<- | [<- | []]]]; vm_compute in Hn; injection Hn as <-; unfold covered; cbn [In any_gradient]; tauto).
  assert (Ap : all_tabulated h D_flat).
  { intros i nm Hi Hn; rewrite A in Hi; cbn [In] in Hi; destruct Hi as [<- | [<- | [<- | []]]]; vm_compute in Hn; injection Hn as <-; eexists; (split; [reflexivity|]).
    - left. right. right. rewrite Mu, Al, Be. repeat split; lra.
    - right; exact Logic.I.
    - right; exact Logic.I. }
  assert (Np : ~ all_published h D_flat).
  { intro X. destruct (X 9%nat "BECKECAMX"%string ltac:(rewrite A; cbn; tauto) eq_refl) as (r & Er & Ok). injection Er as <-. unfold ref_for, steep_D in Ok. destruct Ok as [Ok _].
    assert (P1 : forall y, Rpower 1 y = 1) by (intro y; unfold Rpower; now rewrite ln_1, Rmult_0_r, exp_0). revert Ok. unfold saa, dot. cbn. rewrite !P1. lra. }
  destruct (covered_energy0 h h0 _ D_flat _ Hr S Mp Ac D_flat_above De) as [e E].
  destruct (described_energy h h0 _ D_flat _ Hr S (tabulated_honest h D_flat _ Ap) D_flat_above De) as [[vd G] _].
  pose proof (proj2 (lib_energy _ _ _ _ _ (e : R) G) E) as Le.
  exists h, h0. do 2 eexists. split; [exact Hr|]. split; [exact A|]. split; [exact S|]. split; [exact Ap|]. split; [exact Np|]. split; [exact D_flat_above|]. split; [exact De|].
  split; [exact Le|]. exact (C35_published_close h h0 _ D_flat _ e Hr S Ap D_flat_above De Le).
Qed.
