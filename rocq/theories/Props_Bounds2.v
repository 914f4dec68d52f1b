(** * Property theorems: exchange is attractive at every density (C37) *)
From Coq Require Import Reals QArith Qreals ZArith Arith Lia Lra Psatz List Bool String.
From Coquelicot Require Import Coquelicot.
From Verif Require Import Scalar RInst Tables Api SpecApi ApiProofs ApiProofs2 CTaylor CtAlg TMath Br Expr Densvars Functionals
  Eval SpecEval EvalProps Taint EvalExt Props_Eval Sem RSem EnergyR EvalR EvalReal EvalApi Phys Mk Props_Deriv Props_Dens Props_Dens2 Props_Scale Props_Scale2 Value.
From Verif Require Import Published PubTac PubX PubC PubM PubNear LrPart PubErf Props_Published Props_Published2 Props_Published3 Vwn Bounds Props_Bounds Props_Published5.
Import ListNotations.
Local Open Scope outcome_scope.
Local Open Scope R_scope.

(** The exchange functionals known to be attractive, the range-separated ones with the parameters of a range separation. *)
Definition attractive_now (mu alpha beta : R) (nm : string) : Prop :=
  In nm attractive \/ (exists c, ceiling nm = Some c) \/ (In nm ["BECKESRX"; "LDAERFX"]%string /\ 0 < mu) \/ (nm = "BECKECAMX"%string /\ 0 < mu /\ 0 <= beta /\ alpha + beta <= 1).
Lemma near_neg u p : near u p -> p <= 0 -> u <= 0.
Proof. unfold near. intros H N. rewrite (Rabs_left1 p) in H by exact N. apply Rabs_le_between in H. unfold tol in H. lra. Qed.
Lemma cam_x_neg al be mu D : 0 < mu -> 0 <= be -> al + be <= 1 -> above D -> cam_x al be mu D <= 0.
Proof. intros M B A Ab. unfold cam_x. apply per_spin_neg; [exact Ab|]. intros n g N G. now apply (cam_spin_neg al be mu n g). Qed.
(** Each of these has an entry that is not positive, and the library's value is near it; or (LDAERFX) its value is not positive. *)
Lemma attractive_value (st : nat -> R) x D i nm nm' ex : (i < 78)%nat -> nth_error item_names i = Some nm -> nth_error functionals i = Some (nm', ex) -> above D ->
  attractive_now (st XC_RANGESEP_MU) (st XC_CAM_ALPHA) (st XC_CAM_BETA) nm -> tv (st : nat -> T ROps) x (dvar D) [] ex <= 0.
Proof.
  intros Li Hn F Ab At.
  (* through the table *)
  assert (T : forall r, reference_of nm = Some r -> ref_energy r (st XC_RANGESEP_MU) (st XC_CAM_ALPHA) (st XC_CAM_BETA) D <= 0 ->
     (approximated (st XC_RANGESEP_MU) (st XC_CAM_ALPHA) (st XC_CAM_BETA) nm \/ ref_for r (st XC_RANGESEP_MU) D) -> tv (st : nat -> T ROps) x (dvar D) [] ex <= 0).
  { intros r Er Ng Ok. destruct (ref_in _ _ Er) as [Ir Nr]. destruct Ok as [Ok|Ok].
    - pose proof (near_entry r st x D Ir) as Al. rewrite Nr, (id_of_ok i nm Li Hn), F in Al. exact (near_neg _ _ (Al Ok Ab) Ng).
    - pose proof entries as Al. rewrite List.Forall_forall in Al. specialize (Al r Ir). unfold entry in Al. rewrite Nr, (id_of_ok i nm Li Hn), F in Al. rewrite (Al st x D Ab Ok). exact Ng. }
  assert (X : forall q, reference_of nm = Some q -> exists r, reference_of nm = Some r) by eauto.
  destruct At as [At | [[c Hc] | [[At M] | (At & M & B & A)]]].
  - pose proof (attractive_ref nm) as R. cbn [In attractive] in At.
    assert (At' := At). change (In nm attractive) in At'.
    destruct At as [<- | [<- | [<- | [<- | [<- | [<- | [<- | [<- | []]]]]]]]]; (eapply T; [reflexivity|apply (R _ _ _ _ _ At' Ab); reflexivity|first [right; exact Logic.I | left; left; cbn; tauto]]).
  - destruct (ceiling_ref nm c (st XC_RANGESEP_MU) (st XC_CAM_ALPHA) (st XC_CAM_BETA) D Hc Ab) as (r & Er & Fr & _ & B2).
    apply (T r Er); [|right; exact Fr]. destruct (thr_dens D Ab) as (A & B & _). pose proof (lda_spin_neg _ A). pose proof (lda_spin_neg _ B). unfold dirac in B2. lra.
  - cbn [In] in At. destruct At as [<- | [<- | []]].
    + eapply T; [reflexivity|cbn [ref_energy]; apply cam_x_neg; lra || assumption|left; right; left; now split].
    + assert (Ei : i = 13%nat).
      { pose proof (id_of_ok i _ Li Hn) as E. rewrite <- E. vm_compute. reflexivity. }
      subst i. injection F as _ <-. rewrite k_erfx. pose proof (phys_dvar D Ab) as P. destruct P. unfold ss.
      pose proof (lib_erf_range (2 * dvar D f_a) _ ltac:(lra) (ldaerf_a_pos _ (2 * dvar D f_a) M)) as Xa. pose proof (lib_erf_range (2 * dvar D f_b) _ ltac:(lra) (ldaerf_a_pos _ (2 * dvar D f_b) M)) as Xb.
      change (st 78%nat) with (st XC_RANGESEP_MU). lra.
  - subst nm. eapply T; [reflexivity|cbn [ref_energy]; now apply cam_x_neg|left; right; right; auto].
Qed.
Lemma attractive_not_revtpss mu al be : ~ attractive_now mu al be "REVTPSSX"%string.
Proof.
  intros [H | [[c H] | [[H _] | (H & _)]]]; [cbn in H; repeat destruct H as [H|H]; discriminate || exact H|vm_compute in H; discriminate|cbn in H; repeat destruct H as [H|H]; discriminate || exact H|discriminate].
Qed.
Lemma rsum_neg (h : handle ROps) x D A : above D -> (forall i, In i A -> (i < 78)%nat) -> (forall i, In i A -> 0 <= (h_settings h i : R)) ->
  (forall i nm, In i A -> nth_error item_names i = Some nm -> attractive_now (h_settings h XC_RANGESEP_MU) (h_settings h XC_CAM_ALPHA) (h_settings h XC_CAM_BETA) nm) ->
  forall w : R, rsum (h_settings h) x (dvar D) A = Some w -> w <= 0.
Proof.
  intro Ab. induction A as [|i A IH]; intros LA W HA w E; cbn [rsum] in E; [injection E as <-; cbn; lra|].
  pose proof (LA i (or_introl eq_refl)) as Li. destruct (nofun_len i Li) as (nm' & e & Ef). rewrite Ef in E. destruct (item_ex i Li) as [nm En].
  destruct (reval (h_settings h) x (dvar D) [] e) as [u|] eqn:U; [|discriminate]. cbn [obnd] in E. destruct (rsum (h_settings h) x (dvar D) A) as [s|]; [|discriminate]. cbn [obnd] in E. injection E as <-.
  specialize (IH (fun j Hj => LA j (or_intror Hj)) (fun j Hj => W j (or_intror Hj)) (fun j m Hj => HA j m (or_intror Hj)) s eq_refl).
  pose proof (attractive_value (h_settings h) x D i nm nm' e Li En Ef Ab (HA i nm (or_introl eq_refl) En)) as V. rewrite <- (tv_ok _ _ _ e [] u U) in V.
  pose proof (W i (or_introl eq_refl)) as Wi. cbn [T ROps Oadd Omul] in *. revert V Wi IH. generalize (h_settings h i : R). intros k V Wi IH. assert (k * u <= 0) by nra. lra.
Qed.
(** C37 (attractive exchange at every density).  No exclusion of small gradients, and the range-separated functionals too. *)
Theorem C37_exchange_attractive :
  forall (h h0 : handle ROps) v D x e, reachable h ->
    xcfun_eval_setup h v XC_PARTIAL_DERIVATIVES 0 = Ok (h0, 0%Z) ->
    only_these h (attractive_now (h_settings h XC_RANGESEP_MU) (h_settings h XC_CAM_ALPHA) (h_settings h XC_CAM_BETA)) -> weights_nonneg h ->
    above D -> describes v x D -> library_energy h0 x e -> e <= 0.
Proof.
  intros h h0 v D x e Hr S On W Ab De Le.
  assert (Th : tau_honest h v).
  { intro X. exfalso. destruct (item_ex XC_REVTPSSX_id) as [nm E]; [vm_compute; lia|]. pose proof (On _ _ X E) as At. vm_compute in E. injection E as <-. exact (attractive_not_revtpss _ _ _ At). }
  destruct (described_energy h h0 v D x Hr S Th Ab De) as [[vd G] E].
  rewrite (lib_energy _ _ _ _ _ _ G), E in Le. destruct (rsum _ _ (dvar D) _) as [s|] eqn:Q; [|discriminate]. injection Le as <-.
  exact (rsum_neg h _ D _ Ab (fun i Hi => reachable_lt h Hr i Hi) W On s Q).
Qed.
Print Assumptions C37_exchange_attractive.
(** CAM-B3LYP's exchange (Becke's Coulomb-attenuated functional with the default parameters) at a density whose reduced gradients are small. *)
Example C37_attractive_example : exists (h h0 : handle ROps) x e, reachable h /\ h_active h = [9; 13]%nat /\
  xcfun_eval_setup h XC_A_B_GAA_GAB_GBB XC_PARTIAL_DERIVATIVES 0 = Ok (h0, 0%Z) /\
  only_these h (attractive_now (h_settings h XC_RANGESEP_MU) (h_settings h XC_CAM_ALPHA) (h_settings h XC_CAM_BETA)) /\ weights_nonneg h /\
  above D_flat /\ describes XC_A_B_GAA_GAB_GBB x D_flat /\ library_energy h0 x e /\ e <= 0.
Proof.
  destruct (make (K := ROps) [("beckecamx"%string, 9%nat, 1); ("ldaerfx"%string, 13%nat, 1 / 2)] eq_refl) as (h & Eh & Hr & A & Es). change (mactive _) with [9; 13]%nat in A.
  assert (Mu : h_settings h XC_RANGESEP_MU = 2 / 5) by (rewrite Es; unfold msettings; cbn [map fold_left fst snd]; unfold wr_settings, upd; cbn; unfold Q2R; cbn; lra).
  assert (Al : h_settings h XC_CAM_ALPHA = 19 / 100) by (rewrite Es; unfold msettings; cbn [map fold_left fst snd]; unfold wr_settings, upd; cbn; unfold Q2R; cbn; lra).
  assert (Be : h_settings h XC_CAM_BETA = 23 / 50) by (rewrite Es; unfold msettings; cbn [map fold_left fst snd]; unfold wr_settings, upd; cbn; unfold Q2R; cbn; lra).
  assert (W9 : h_settings h 9%nat = 1) by (rewrite Es; unfold msettings; cbn [map fold_left fst snd]; unfold wr_settings, upd; cbn; unfold Q2R; cbn; lra).
  assert (W13 : h_settings h 13%nat = 1 / 2) by (rewrite Es; unfold msettings; cbn [map fold_left fst snd]; unfold wr_settings, upd; cbn; unfold Q2R; cbn; lra).
  assert (S : exists h1, xcfun_eval_setup h XC_A_B_GAA_GAB_GBB XC_PARTIAL_DERIVATIVES 0 = Ok (h1, 0%Z)) by (eexists; apply accepts_ok; [exact Hr|rewrite A; vm_compute; reflexivity]).
  destruct S as [h0 S].
  assert (De : describes XC_A_B_GAA_GAB_GBB (fun i => nth i (encode XC_A_B_GAA_GAB_GBB D_flat) 0) D_flat) by (apply encode_describes; cbn; tauto).
  assert (Mp : 0 < (h_settings h XC_RANGESEP_MU : R)) by (rewrite Mu; lra).
  assert (Ac : all_covered h D_flat) by (intros i nm Hi Hn; rewrite A in Hi; cbn [In] in Hi; destruct Hi as [<- | [<- | []]]; vm_compute in Hn; injection Hn as <-; unfold covered; cbn [In any_gradient]; tauto).
  assert (On : only_these h (attractive_now (h_settings h XC_RANGESEP_MU) (h_settings h XC_CAM_ALPHA) (h_settings h XC_CAM_BETA))).
  { intros i nm Hi Hn; rewrite A in Hi; cbn [In] in Hi; destruct Hi as [<- | [<- | []]]; vm_compute in Hn; injection Hn as <-; rewrite Mu, Al, Be; unfold attractive_now.
    - right; right; right. repeat split; lra.
    - right; right; left. split; [cbn; tauto|lra]. }
  assert (W : weights_nonneg h) by (intros i Hi; rewrite A in Hi; cbn [In] in Hi; destruct Hi as [<- | [<- | []]]; rewrite ?W9, ?W13; lra).
  destruct (covered_energy0 h h0 _ D_flat _ Hr S Mp Ac D_flat_above De) as [e E].
  assert (Th : tau_honest h XC_A_B_GAA_GAB_GBB) by (intro X; exfalso; rewrite A in X; cbn [In] in X; destruct X as [X | [X | []]]; discriminate).
  destruct (described_energy h h0 _ D_flat _ Hr S Th D_flat_above De) as [[vd G] _].
  pose proof (proj2 (lib_energy _ _ _ _ _ (e : R) G) E) as Le.
  exists h, h0. do 2 eexists. split; [exact Hr|]. split; [exact A|]. split; [exact S|]. split; [exact On|]. split; [exact W|]. split; [exact D_flat_above|]. split; [exact De|].
  split; [exact Le|]. exact (C37_exchange_attractive h h0 _ D_flat _ e Hr S On W D_flat_above De Le).
Qed.
