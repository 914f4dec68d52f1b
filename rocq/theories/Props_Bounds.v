(** * Property theorems: signs and bounds of the energies (C37)
    Exact constraints on the exchange-correlation energy that users of the functionals rely
    on, as statements about the number the library returns. *)
From Coq Require Import Reals QArith Qreals ZArith Arith Lia Lra Psatz List Bool String.
From Coquelicot Require Import Coquelicot.
From Verif Require Import Scalar RInst Tables Api SpecApi ApiProofs ApiProofs2 CTaylor CtAlg TMath Br Expr Densvars Functionals
  Eval SpecEval EvalProps Taint EvalExt Props_Eval Sem RSem EnergyR EvalR EvalReal EvalApi Phys Mk Props_Deriv Props_Dens Props_Dens2 Props_Scale Value.
From Verif Require Import Published PubTac PubX PubC PubM Props_Published Props_Published2 PubNear Vwn Bounds.
Import ListNotations.
Local Open Scope outcome_scope.
Local Open Scope R_scope.

(** Sum over the functionals switched on of the user's weight times [f] of the name. *)
Definition weigh (h : handle ROps) (f : string -> R) : R :=
  fold_right (fun i s => (h_settings h i : R) * match nth_error item_names i with Some nm => f nm | None => 0 end + s) 0 (h_active h).
Definition weights_nonneg (h : handle ROps) : Prop := forall i, In i (h_active h) -> 0 <= (h_settings h i : R).
Definition only_these (h : handle ROps) (P : string -> Prop) : Prop := forall i nm, In i (h_active h) -> nth_error item_names i = Some nm -> P nm.

Lemma fold_le A (w : nat -> R) (f g : nat -> R) : (forall i, In i A -> 0 <= w i) -> (forall i, In i A -> f i <= g i) ->
  fold_right (fun i s => w i * f i + s) 0 A <= fold_right (fun i s => w i * g i + s) 0 A.
Proof.
  induction A as [|i A IH]; intros W H; cbn [fold_right]; [lra|].
  specialize (IH (fun j J => W j (or_intror J)) (fun j J => H j (or_intror J))).
  pose proof (Rmult_le_compat_l _ _ _ (W i (or_introl eq_refl)) (H i (or_introl eq_refl))). lra.
Qed.
Lemma fold_neg A (w f : nat -> R) : (forall i, In i A -> 0 <= w i) -> (forall i, In i A -> f i < 0) -> (exists i, In i A /\ 0 < w i) ->
  fold_right (fun i s => w i * f i + s) 0 A < 0.
Proof.
  intros W H [i [Hi Wi]]. induction A as [|j A IH]; [destruct Hi|]. cbn [fold_right].
  pose proof (W j (or_introl eq_refl)) as Wj. pose proof (H j (or_introl eq_refl)) as Hj.
  assert (S : fold_right (fun i s => w i * f i + s) 0 A <= 0).
  { clear - W H. induction A as [|k A IH]; cbn [fold_right]; [lra|]. assert (w k * f k <= 0) by (pose proof (W k (or_intror (or_introl eq_refl))); pose proof (H k (or_intror (or_introl eq_refl))); nra).
    assert (fold_right (fun i s => w i * f i + s) 0 A <= 0); [|lra].
    apply IH; intros l [E|L]; [now apply W; left|now apply W; right; right|now apply H; left|now apply H; right; right]. }
  destruct Hi as [->|Hi].
  - assert (w i * f i < 0) by nra. lra.
  - assert (w j * f j <= 0) by nra. pose proof (IH (fun k K => W k (or_intror K)) (fun k K => H k (or_intror K)) Hi). lra.
Qed.
Lemma fold_dist A (w : nat -> R) (f : nat -> R) c : fold_right (fun i s => w i * f i + s) 0 A * c = fold_right (fun i s => w i * (f i * c) + s) 0 A.
Proof. induction A as [|i A IH]; cbn [fold_right]; [ring|]. rewrite <- IH. ring. Qed.
Lemma active_name (h : handle ROps) i : reachable h -> In i (h_active h) -> exists nm, nth_error item_names i = Some nm.
Proof. intros Hr Hi. apply item_ex. now apply reachable_lt with h. Qed.

(** ** Exchange *)
(** The largest enhancement over the local exchange energy each functional may reach. *)
Definition ceiling (nm : string) : option R :=
  if String.eqb nm "SLATERX" then Some 1
  else if String.eqb nm "REVPBEX" then Some 2.245
  else if existsb (String.eqb nm) ["PBEX"; "RPBEX"; "APBEX"; "PBEINTX"; "PBESOLX"; "TPSSX"; "BLOCX"]%string then Some 1.804
  else None.
Definition ceil0 (nm : string) : R := match ceiling nm with Some c => c | None => 0 end.
Lemma ceiling_in nm c : ceiling nm = Some c -> (nm = "SLATERX" /\ c = 1 \/ nm = "REVPBEX" /\ c = 2.245 \/
  In nm ["PBEX"; "RPBEX"; "APBEX"; "PBEINTX"; "PBESOLX"; "TPSSX"; "BLOCX"] /\ c = 1.804)%string.
Proof.
  unfold ceiling. destruct (String.eqb_spec nm "SLATERX") as [->|_]; [intro E; injection E as <-; left; now split|].
  destruct (String.eqb_spec nm "REVPBEX") as [->|_]; [intro E; injection E as <-; right; left; now split|].
  destruct (existsb _ _) eqn:X; [|discriminate]. intro E. injection E as <-. right. right. split; [|reflexivity].
  apply existsb_exists in X. destruct X as (y & Y & Z). apply String.eqb_eq in Z. now subst.
Qed.
Lemma ceiling_ref nm c mu a b D : ceiling nm = Some c -> above D ->
  exists r, reference_of nm = Some r /\ ref_for r mu D /\ c * dirac D <= ref_energy r mu a b D <= dirac D.
Proof.
  intros E Ab. apply ceiling_in in E. pose proof PI_RGT_0 as Pp. pose proof (Rle_0_sqr PI) as P2. unfold Rsqr in P2.
  assert (M : 0 <= 0.066725 * PI ^ 2 / 3) by (cbn [pow]; lra).
  destruct E as [[-> ->]|[[-> ->]|[I' ->]]].
  - eexists. split; [reflexivity|]. split; [exact Logic.I|]. cbn [ref_energy]. apply gga_x_bound; [exact Ab|]. intros s _. apply F_lda_b.
  - eexists. split; [reflexivity|]. split; [exact Logic.I|]. cbn [ref_energy]. apply gga_x_bound; [exact Ab|]. intros s Hs.
    replace 2.245 with (1 + 1.245) by lra. apply F_pbe_b; lra.
  - cbn [In] in I'. destruct I' as [<- | [<- | [<- | [<- | [<- | [<- | [<- | []]]]]]]]; eexists; (split; [reflexivity|]); (split; [exact Logic.I|]); cbn [ref_energy].
    + apply gga_x_bound; [exact Ab|]. intros s Hs. replace 1.804 with (1 + 0.804) by lra. apply F_pbe_b; lra.
    + apply gga_x_bound; [exact Ab|]. intros s Hs. replace 1.804 with (1 + 0.804) by lra. apply F_rpbe_b; lra.
    + apply gga_x_bound; [exact Ab|]. intros s Hs. replace 1.804 with (1 + 0.804) by lra. apply F_pbe_b; lra.
    + apply gga_x_bound; [exact Ab|]. intros s Hs. replace 1.804 with (1 + 0.804) by lra. apply F_pbeint_b; lra.
    + apply gga_x_bound; [exact Ab|]. intros s Hs. replace 1.804 with (1 + 0.804) by lra. apply F_pbe_b; lra.
    + apply tpss_x_bound; [exact Ab|]. intro z. apply pow2_ge_0.
    + apply tpss_x_bound; [exact Ab|]. intro z. left. apply exp_pos.
Qed.
(** C37 (local Lieb-Oxford bound).  The energy of any mixture with non-negative weights of
    the exchange functionals of [ceiling] lies between Dirac's exchange times the sum of the
    weights and Dirac's exchange times the weighted sum of the functionals' largest
    enhancements: 1.804 for the PBE and TPSS kind, 2.245 for revPBE. *)
Theorem C37_exchange_enhancement :
  forall (h h0 : handle ROps) v D x e, reachable h ->
    xcfun_eval_setup h v XC_PARTIAL_DERIVATIVES 0 = Ok (h0, 0%Z) ->
    only_these h (fun nm => exists c, ceiling nm = Some c) -> weights_nonneg h ->
    above D -> describes v x D -> library_energy h0 x e ->
    weigh h ceil0 * dirac D <= e <= weigh h (fun _ => 1) * dirac D.
Proof.
  intros h h0 v D x e Hr S On W Ab De Le.
  assert (Ap : all_published h D).
  { intros i nm Hi Hn. destruct (On i nm Hi Hn) as [c Hc]. destruct (ceiling_ref nm c (h_settings h XC_RANGESEP_MU) 0 0 D Hc Ab) as (r & Er & Fr & _). eauto. }
  rewrite (C35_published_energy h h0 v D x e Hr S Ap Ab De Le). unfold weigh, published_sum. rewrite !fold_dist.
  split; apply fold_le; try exact W; intros i Hi; destruct (active_name h i Hr Hi) as [nm Hn]; unfold published_energy; rewrite Hn;
    destruct (On i nm Hi Hn) as [c Hc]; destruct (ceiling_ref nm c (h_settings h XC_RANGESEP_MU) (h_settings h XC_CAM_ALPHA) (h_settings h XC_CAM_BETA) D Hc Ab) as (r & Er & _ & B1 & B2); rewrite Er.
  - unfold ceil0. rewrite Hc. exact B1.
  - rewrite Rmult_1_l. exact B2.
Qed.
Print Assumptions C37_exchange_enhancement.

(** Exchange functionals without a bound on the enhancement: the energy is not positive. *)
Definition attractive : list string := ["PW86X"; "PW91X"; "BECKEX"; "BECKECORRX"; "OPTX"; "B97X"; "B97_1X"; "B97_2X"]%string.
Lemma attractive_ref nm r mu a b D : In nm attractive -> above D -> reference_of nm = Some r -> ref_energy r mu a b D <= 0.
Proof.
  intros I' Ab E. cbn [In attractive] in I'. destruct I' as [<- | [<- | [<- | [<- | [<- | [<- | [<- | [<- | []]]]]]]]]; match type of E with ?t = _ => eassert (E' : t = Some _) by reflexivity end; rewrite E' in E; apply some_inj in E; subst r; cbn [ref_energy].
  - apply gga_x_neg; [exact Ab|]. intros s Hs. pose proof (pw86_ge1 s Hs). lra.
  - apply gga_x_neg; [exact Ab|]. intros s Hs. apply pw91_pos.
  - apply per_spin_neg; [exact Ab|]. intros n g N G. pose proof (lda_spin_neg n N). pose proof (b88_neg n g N G). lra.
  - apply per_spin_neg; [exact Ab|]. exact b88_neg.
  - apply per_spin_neg; [exact Ab|]. exact optx_neg.
  - apply per_spin_neg; [exact Ab|]. intros n g N G. apply b97_x_neg; lra.
  - apply per_spin_neg; [exact Ab|]. intros n g N G. apply b97_x_neg; lra.
  - apply per_spin_neg; [exact Ab|]. intros n g N G. apply b97_x_neg; lra.
Qed.
(** C37 (attractive exchange).  The densities excluded by [all_published] are those for which
    the library replaces arcsinh by a rational approximation. *)
Theorem C37_exchange_sign :
  forall (h h0 : handle ROps) v D x e, reachable h ->
    xcfun_eval_setup h v XC_PARTIAL_DERIVATIVES 0 = Ok (h0, 0%Z) ->
    only_these h (fun nm => In nm attractive \/ exists c, ceiling nm = Some c) -> weights_nonneg h -> all_published h D ->
    above D -> describes v x D -> library_energy h0 x e -> e <= 0.
Proof.
  intros h h0 v D x e Hr S On W Ap Ab De Le.
  rewrite (C35_published_energy h h0 v D x e Hr S Ap Ab De Le). unfold published_sum.
  replace 0 with (fold_right (fun i s => (h_settings h i : R) * (fun _ => 0) i + s) 0 (h_active h)) at 2 by (clear; induction (h_active h) as [|i A IH]; cbn [fold_right]; [reflexivity|rewrite IH; ring]).
  apply fold_le; [exact W|]. intros i Hi. destruct (active_name h i Hr Hi) as [nm Hn]. unfold published_energy. rewrite Hn.
  destruct (Ap i nm Hi Hn) as (r & Er & _). rewrite Er. destruct (On i nm Hi Hn) as [L|[c Hc]].
  - now apply attractive_ref with nm.
  - destruct (ceiling_ref nm c (h_settings h XC_RANGESEP_MU) (h_settings h XC_CAM_ALPHA) (h_settings h XC_CAM_BETA) D Hc Ab) as (r' & Er' & _ & _ & B2).
    rewrite Er in Er'. apply some_inj in Er'. subst r'. destruct (thr_dens D Ab) as (A & B & _). pose proof (lda_spin_neg _ A). pose proof (lda_spin_neg _ B). unfold dirac in B2. lra.
Qed.
Print Assumptions C37_exchange_sign.

(** ** Correlation *)
(** The local correlation energy per particle each functional is built on. *)
Definition local_part (nm : string) : option (R -> R -> R) :=
  if String.eqb nm "VWN3C" then Some eps_vwn3
  else if existsb (String.eqb nm) ["VWN5C"; "VWN_PBEC"]%string then Some eps_vwn5
  else if String.eqb nm "PZ81C" then Some eps_pz81
  else if existsb (String.eqb nm) ["PW92C"; "PBEC"; "APBEC"; "PBEINTC"; "PBELOCC"]%string then Some eps_pw92
  else None.
(** Local correlation energy density of the functional. *)
Definition local_energy (D : dens) (nm : string) : R := match local_part nm with Some f => ntot D * f (ntot D) (zet D) | None => 0 end.
Lemma local_in nm f : local_part nm = Some f -> (nm = "VWN3C" /\ f = eps_vwn3 \/ In nm ["VWN5C"; "VWN_PBEC"] /\ f = eps_vwn5 \/
  nm = "PZ81C" /\ f = eps_pz81 \/ In nm ["PW92C"; "PBEC"; "APBEC"; "PBEINTC"; "PBELOCC"] /\ f = eps_pw92)%string.
Proof.
  unfold local_part. destruct (String.eqb_spec nm "VWN3C") as [->|_]; [intro E; injection E as <-; left; now split|].
  destruct (existsb _ _) eqn:X; [intro E; injection E as <-; right; left; split; [|reflexivity]; apply existsb_exists in X; destruct X as (y & Y & Z); apply String.eqb_eq in Z; now subst|clear X].
  destruct (String.eqb_spec nm "PZ81C") as [->|_]; [intro E; injection E as <-; do 2 right; left; now split|].
  destruct (existsb _ _) eqn:X; [|discriminate]. intro E; injection E as <-; do 3 right; split; [|reflexivity]; apply existsb_exists in X; destruct X as (y & Y & Z); apply String.eqb_eq in Z; now subst.
Qed.
Lemma local_ref nm f mu a b D : local_part nm = Some f -> above D ->
  exists r, reference_of nm = Some r /\ ref_for r mu D /\ ntot D * f (ntot D) (zet D) <= ref_energy r mu a b D < 0.
Proof.
  intros E Ab. apply local_in in E. destruct (thr_dens D Ab) as (_ & _ & N & Z).
  assert (Neg : forall u, u < 0 -> ntot D * u <= ntot D * u < 0) by (intros u U; split; [lra|nra]).
  destruct E as [[-> ->]|[[I' ->]|[[-> ->]|[I' ->]]]].
  - eexists. split; [reflexivity|]. split; [exact Logic.I|]. cbn [ref_energy]. apply Neg, eps_vwn3_neg, Z.
  - cbn [In] in I'. destruct I' as [<- | [<- | []]]; eexists; (split; [reflexivity|]); (split; [exact Logic.I|]); cbn [ref_energy].
    + apply Neg, eps_vwn5_neg, Z.
    + apply pbe_b; [exact Ab|unfold beta_pbe; intros; lra|apply eps_vwn5_neg, Z].
  - eexists. split; [reflexivity|]. split; [exact Logic.I|]. cbn [ref_energy]. apply Neg, eps_pz81_neg, Z.
  - cbn [In] in I'. destruct I' as [<- | [<- | [<- | [<- | [<- | []]]]]]; eexists; (split; [reflexivity|]); (split; [exact Logic.I|]); cbn [ref_energy].
    + apply Neg, eps_pw92_neg, Z.
    + apply pbe_b; [exact Ab|unfold beta_pbe; intros; lra|apply eps_pw92_neg, Z].
    + apply pbe_b; [exact Ab|intros; lra|apply eps_pw92_neg, Z].
    + apply pbe_b; [exact Ab|intros; lra|apply eps_pw92_neg, Z].
    + apply pbe_b; [exact Ab|exact beta_loc_pos|apply eps_pw92_neg, Z].
Qed.
(** C37 (correlation).  The energy of any mixture with non-negative weights of the
    correlation functionals of [local_part] lies between the same mixture of their local
    energies and zero, and is negative if some weight is positive. *)
Theorem C37_correlation_between :
  forall (h h0 : handle ROps) v D x e, reachable h ->
    xcfun_eval_setup h v XC_PARTIAL_DERIVATIVES 0 = Ok (h0, 0%Z) ->
    only_these h (fun nm => exists f, local_part nm = Some f) -> weights_nonneg h ->
    above D -> describes v x D -> library_energy h0 x e ->
    weigh h (local_energy D) <= e <= 0 /\ ((exists i, In i (h_active h) /\ 0 < (h_settings h i : R)) -> e < 0).
Proof.
  intros h h0 v D x e Hr S On W Ab De Le.
  assert (Ap : all_published h D).
  { intros i nm Hi Hn. destruct (On i nm Hi Hn) as [c Hc]. destruct (local_ref nm c (h_settings h XC_RANGESEP_MU) 0 0 D Hc Ab) as (r & Er & Fr & _). eauto. }
  rewrite (C35_published_energy h h0 v D x e Hr S Ap Ab De Le). unfold weigh, published_sum.
  assert (P : forall i, In i (h_active h) -> match nth_error item_names i with Some nm => local_energy D nm | None => 0 end <= published_energy h D i < 0).
  { intros i Hi. destruct (active_name h i Hr Hi) as [nm Hn]. unfold published_energy, local_energy. rewrite Hn.
    destruct (On i nm Hi Hn) as [c Hc]. destruct (local_ref nm c (h_settings h XC_RANGESEP_MU) (h_settings h XC_CAM_ALPHA) (h_settings h XC_CAM_BETA) D Hc Ab) as (r & Er & _ & B1 & B2). rewrite Er, Hc. split; assumption. }
  split; [split|].
  - apply fold_le; [exact W|]. intros i Hi. apply P, Hi.
  - replace 0 with (fold_right (fun i s => (h_settings h i : R) * (fun _ => 0) i + s) 0 (h_active h)) at 2 by (clear; induction (h_active h) as [|i A IH]; cbn [fold_right]; [reflexivity|rewrite IH; ring]).
    apply fold_le; [exact W|]. intros i Hi. left. apply P, Hi.
  - intro Ex. apply fold_neg; [exact W| |exact Ex]. intros i Hi. apply P, Hi.
Qed.
Print Assumptions C37_correlation_between.

(** ** Kinetic energy *)
(** C37 (kinetic energy).  Mixtures with non-negative weights of Thomas-Fermi and von
    Weizsaecker are not negative, and at least the Thomas-Fermi part. *)
Definition is_tf (nm : string) : R := if String.eqb nm "TFK" then 1 else 0.
Theorem C37_kinetic_positive :
  forall (h h0 : handle ROps) v D x e, reachable h ->
    xcfun_eval_setup h v XC_PARTIAL_DERIVATIVES 0 = Ok (h0, 0%Z) ->
    only_these h (fun nm => In nm ["TFK"; "VWK"]%string) -> weights_nonneg h ->
    above D -> describes v x D -> library_energy h0 x e ->
    0 <= weigh h is_tf * tf (ntot D) <= e.
Proof.
  intros h h0 v D x e Hr S On W Ab De Le.
  assert (Ap : all_published h D).
  { intros i nm Hi Hn. pose proof (On i nm Hi Hn) as I'. cbn [In] in I'. destruct I' as [<- | [<- | []]]; eexists; (split; [reflexivity|exact Logic.I]). }
  rewrite (C35_published_energy h h0 v D x e Hr S Ap Ab De Le). unfold weigh, published_sum. rewrite fold_dist. split.
  - replace 0 with (fold_right (fun i s => (h_settings h i : R) * (fun _ => 0) i + s) 0 (h_active h)) at 1 by (clear; induction (h_active h) as [|i A IH]; cbn [fold_right]; [reflexivity|rewrite IH; ring]).
    apply fold_le; [exact W|]. intros i Hi. destruct (active_name h i Hr Hi) as [nm Hn]. rewrite Hn. unfold is_tf. pose proof (tf_pos (ntot D)). destruct (String.eqb nm "TFK"); lra.
  - apply fold_le; [exact W|]. intros i Hi. destruct (active_name h i Hr Hi) as [nm Hn]. unfold published_energy. rewrite Hn.
    pose proof (On i nm Hi Hn) as I'. cbn [In] in I'. destruct I' as [<- | [<- | []]].
    + change (is_tf "TFK") with 1. change (1 * tf (ntot D) <= tf (ntot D)). lra.
    + change (is_tf "VWK") with 0. change (0 * tf (ntot D) <= per_spin vw_spin D). pose proof (vw_nn D Ab). lra.
Qed.
Print Assumptions C37_kinetic_positive.

(** ** Examples *)
(** Half PBE, half TPSS exchange; the bounds are 1.804 and 1 times Dirac's exchange. *)
Example C37_exchange_example : exists (h h0 : handle ROps) x e, reachable h /\ h_active h = [5; 42]%nat /\
  xcfun_eval_setup h XC_A_B_GAA_GAB_GBB_TAUA_TAUB XC_PARTIAL_DERIVATIVES 0 = Ok (h0, 0%Z) /\
  only_these h (fun nm => exists c, ceiling nm = Some c) /\ weights_nonneg h /\ above D_ex /\ describes XC_A_B_GAA_GAB_GBB_TAUA_TAUB x D_ex /\ library_energy h0 x e /\
  1.804 * dirac D_ex <= e <= dirac D_ex.
Proof.
  destruct (make (K := ROps) [("pbex"%string, 5%nat, / 2); ("tpssx"%string, 42%nat, / 2)] eq_refl) as (h & Eh & Hr & A & Es). change (mactive _) with [5; 42]%nat in A.
  assert (Mu : 0 < (h_settings h XC_RANGESEP_MU : R)) by (rewrite Es; unfold msettings; cbn [map fold_left fst snd]; unfold wr_settings, upd; cbn; unfold Q2R; cbn; lra).
  assert (W1 : (h_settings h 5%nat : R) = / 2) by (rewrite Es; unfold msettings; cbn [map fold_left fst snd]; unfold wr_settings, upd; cbn; unfold Q2R; cbn; lra).
  assert (W2 : (h_settings h 42%nat : R) = / 2) by (rewrite Es; unfold msettings; cbn [map fold_left fst snd]; unfold wr_settings, upd; cbn; unfold Q2R; cbn; lra).
  assert (S : exists h1, xcfun_eval_setup h XC_A_B_GAA_GAB_GBB_TAUA_TAUB XC_PARTIAL_DERIVATIVES 0 = Ok (h1, 0%Z)) by (eexists; apply accepts_ok; [exact Hr|rewrite A; vm_compute; reflexivity]).
  destruct S as [h0 S].
  assert (De : describes XC_A_B_GAA_GAB_GBB_TAUA_TAUB (fun i => nth i (encode XC_A_B_GAA_GAB_GBB_TAUA_TAUB D_ex) 0) D_ex) by (apply encode_describes; cbn; tauto).
  assert (On : only_these h (fun nm => exists c, ceiling nm = Some c)).
  { intros i nm Hi Hn. rewrite A in Hi. cbn [In] in Hi. destruct Hi as [<- | [<- | []]]; vm_compute in Hn; injection Hn as <-; eexists; reflexivity. }
  assert (W : weights_nonneg h). { intros i Hi. rewrite A in Hi. cbn [In] in Hi. destruct Hi as [<- | [<- | []]]; [rewrite W1|rewrite W2]; lra. }
  assert (Ac : all_covered h D_ex).
  { intros i nm Hi Hn. rewrite A in Hi. cbn [In] in Hi. destruct Hi as [<- | [<- | []]]; vm_compute in Hn; injection Hn as <-; unfold covered; [left; cbn [In any_gradient]; tauto|do 3 right; left; split; [cbn [In full_density]; tauto|unfold Safe2.full, dot, gN, vadd; cbn; repeat split; lra]]. }
  destruct (covered_energy0 h h0 _ D_ex _ Hr S Mu Ac D_ex_above De) as [e E].
  assert (Ap : all_published h D_ex).
  { intros i nm Hi Hn. destruct (On i nm Hi Hn) as [c Hc]. destruct (ceiling_ref nm c (h_settings h XC_RANGESEP_MU) 0 0 D_ex Hc D_ex_above) as (r & Er & Fr & _). eauto. }
  pose proof (C35_published_value h h0 _ D_ex _ Hr S Ap Ac Mu D_ex_above De) as Le.
  exists h, h0. do 2 eexists. do 8 (split; [eassumption || exact D_ex_above|]).
  pose proof (C37_exchange_enhancement h h0 _ D_ex _ _ Hr S On W D_ex_above De Le) as B.
  assert (C1 : weigh h ceil0 = 1.804).
  { unfold weigh. rewrite A. cbn [fold_right]. rewrite W1, W2. change (nth_error item_names 5) with (Some "PBEX"%string). change (nth_error item_names 42) with (Some "TPSSX"%string). cbv iota beta. change (ceil0 "PBEX") with 1.804. change (ceil0 "TPSSX") with 1.804. lra. }
  assert (C2 : weigh h (fun _ => 1) = 1).
  { unfold weigh. rewrite A. cbn [fold_right]. rewrite W1, W2. change (nth_error item_names 5) with (Some "PBEX"%string). change (nth_error item_names 42) with (Some "TPSSX"%string). cbv iota beta. lra. }
  rewrite C1, C2 in B. lra.
Qed.
(** PBE correlation with a little VWN: negative and above the local energies. *)
Example C37_correlation_example : exists (h h0 : handle ROps) x e, reachable h /\ h_active h = [4; 3]%nat /\
  xcfun_eval_setup h XC_A_B_GAA_GAB_GBB XC_PARTIAL_DERIVATIVES 0 = Ok (h0, 0%Z) /\
  only_these h (fun nm => exists f, local_part nm = Some f) /\ weights_nonneg h /\ above D_ex /\ describes XC_A_B_GAA_GAB_GBB x D_ex /\ library_energy h0 x e /\
  ntot D_ex * (8 / 10 * eps_pw92 (ntot D_ex) (zet D_ex) + 2 / 10 * eps_vwn5 (ntot D_ex) (zet D_ex)) <= e < 0.
Proof.
  destruct (make (K := ROps) [("pbec"%string, 4%nat, 8 / 10); ("vwn5c"%string, 3%nat, 2 / 10)] eq_refl) as (h & Eh & Hr & A & Es). change (mactive _) with [4; 3]%nat in A.
  assert (Mu : 0 < (h_settings h XC_RANGESEP_MU : R)) by (rewrite Es; unfold msettings; cbn [map fold_left fst snd]; unfold wr_settings, upd; cbn; unfold Q2R; cbn; lra).
  assert (W1 : (h_settings h 4%nat : R) = 8 / 10) by (rewrite Es; unfold msettings; cbn [map fold_left fst snd]; unfold wr_settings, upd; cbn; unfold Q2R; cbn; lra).
  assert (W2 : (h_settings h 3%nat : R) = 2 / 10) by (rewrite Es; unfold msettings; cbn [map fold_left fst snd]; unfold wr_settings, upd; cbn; unfold Q2R; cbn; lra).
  assert (S : exists h1, xcfun_eval_setup h XC_A_B_GAA_GAB_GBB XC_PARTIAL_DERIVATIVES 0 = Ok (h1, 0%Z)) by (eexists; apply accepts_ok; [exact Hr|rewrite A; vm_compute; reflexivity]).
  destruct S as [h0 S].
  assert (De : describes XC_A_B_GAA_GAB_GBB (fun i => nth i (encode XC_A_B_GAA_GAB_GBB D_ex) 0) D_ex) by (apply encode_describes; cbn; tauto).
  assert (On : only_these h (fun nm => exists f, local_part nm = Some f)).
  { intros i nm Hi Hn. rewrite A in Hi. cbn [In] in Hi. destruct Hi as [<- | [<- | []]]; vm_compute in Hn; injection Hn as <-; eexists; reflexivity. }
  assert (W : weights_nonneg h). { intros i Hi. rewrite A in Hi. cbn [In] in Hi. destruct Hi as [<- | [<- | []]]; [rewrite W1|rewrite W2]; lra. }
  assert (Ac : all_covered h D_ex) by (intros i nm Hi Hn; rewrite A in Hi; cbn [In] in Hi; destruct Hi as [<- | [<- | []]]; vm_compute in Hn; injection Hn as <-; unfold covered; left; cbn [In any_gradient]; tauto).
  assert (Ap : all_published h D_ex).
  { intros i nm Hi Hn. destruct (On i nm Hi Hn) as [c Hc]. destruct (local_ref nm c (h_settings h XC_RANGESEP_MU) 0 0 D_ex Hc D_ex_above) as (r & Er & Fr & _). eauto. }
  pose proof (C35_published_value h h0 _ D_ex _ Hr S Ap Ac Mu D_ex_above De) as Le.
  exists h, h0. do 2 eexists. do 8 (split; [eassumption || exact D_ex_above|]).
  destruct (C37_correlation_between h h0 _ D_ex _ _ Hr S On W D_ex_above De Le) as [[B _] N].
  split; [|apply N; exists 4%nat; split; [rewrite A; now left|rewrite W1; lra]].
  unfold weigh in B. rewrite A in B. cbn [fold_right] in B. rewrite W1, W2 in B.
  change (nth_error item_names 4) with (Some "PBEC"%string) in B. change (nth_error item_names 3) with (Some "VWN5C"%string) in B. cbv iota beta in B.
  change (local_energy D_ex "PBEC") with (ntot D_ex * eps_pw92 (ntot D_ex) (zet D_ex)) in B. change (local_energy D_ex "VWN5C") with (ntot D_ex * eps_vwn5 (ntot D_ex) (zet D_ex)) in B. lra.
Qed.
(** Thomas-Fermi plus a ninth of von Weizsaecker; Becke's exchange where arcsinh is exact. *)
Example C37_sign_example : (exists (h h0 : handle ROps) x e, reachable h /\ h_active h = [24; 59]%nat /\
    xcfun_eval_setup h XC_A_B_GAA_GAB_GBB XC_PARTIAL_DERIVATIVES 0 = Ok (h0, 0%Z) /\ only_these h (fun nm => In nm ["TFK"; "VWK"]%string) /\ weights_nonneg h /\
    above D_ex /\ describes XC_A_B_GAA_GAB_GBB x D_ex /\ library_energy h0 x e /\ tf (ntot D_ex) <= e) /\
  (exists (h h0 : handle ROps) x e, reachable h /\ h_active h = [6; 17]%nat /\
    xcfun_eval_setup h XC_A_B_GAA_GAB_GBB XC_PARTIAL_DERIVATIVES 0 = Ok (h0, 0%Z) /\ only_these h (fun nm => In nm attractive \/ exists c, ceiling nm = Some c) /\ weights_nonneg h /\
    all_published h D_steep /\ above D_steep /\ describes XC_A_B_GAA_GAB_GBB x D_steep /\ library_energy h0 x e /\ e <= 0).
Proof.
  split.
  - destruct (make (K := ROps) [("tfk"%string, 24%nat, 1); ("vwk"%string, 59%nat, 1 / 9)] eq_refl) as (h & Eh & Hr & A & Es). change (mactive _) with [24; 59]%nat in A.
    assert (Mu : 0 < (h_settings h XC_RANGESEP_MU : R)) by (rewrite Es; unfold msettings; cbn [map fold_left fst snd]; unfold wr_settings, upd; cbn; unfold Q2R; cbn; lra).
    assert (W1 : (h_settings h 24%nat : R) = 1) by (rewrite Es; unfold msettings; cbn [map fold_left fst snd]; unfold wr_settings, upd; cbn; unfold Q2R; cbn; lra).
    assert (W2 : (h_settings h 59%nat : R) = 1 / 9) by (rewrite Es; unfold msettings; cbn [map fold_left fst snd]; unfold wr_settings, upd; cbn; unfold Q2R; cbn; lra).
    assert (S : exists h1, xcfun_eval_setup h XC_A_B_GAA_GAB_GBB XC_PARTIAL_DERIVATIVES 0 = Ok (h1, 0%Z)) by (eexists; apply accepts_ok; [exact Hr|rewrite A; vm_compute; reflexivity]).
    destruct S as [h0 S].
    assert (De : describes XC_A_B_GAA_GAB_GBB (fun i => nth i (encode XC_A_B_GAA_GAB_GBB D_ex) 0) D_ex) by (apply encode_describes; cbn; tauto).
    assert (On : only_these h (fun nm => In nm ["TFK"; "VWK"]%string)) by (intros i nm Hi Hn; rewrite A in Hi; cbn [In] in Hi; destruct Hi as [<- | [<- | []]]; vm_compute in Hn; injection Hn as <-; cbn [In]; tauto).
    assert (W : weights_nonneg h) by (intros i Hi; rewrite A in Hi; cbn [In] in Hi; destruct Hi as [<- | [<- | []]]; [rewrite W1|rewrite W2]; lra).
    assert (Ac : all_covered h D_ex) by (intros i nm Hi Hn; rewrite A in Hi; cbn [In] in Hi; destruct Hi as [<- | [<- | []]]; vm_compute in Hn; injection Hn as <-; unfold covered; left; cbn [In any_gradient]; tauto).
    assert (Ap : all_published h D_ex) by (intros i nm Hi Hn; rewrite A in Hi; cbn [In] in Hi; destruct Hi as [<- | [<- | []]]; vm_compute in Hn; injection Hn as <-; eexists; (split; [reflexivity|exact Logic.I])).
    pose proof (C35_published_value h h0 _ D_ex _ Hr S Ap Ac Mu D_ex_above De) as Le.
    exists h, h0. do 2 eexists. do 8 (split; [eassumption || exact D_ex_above|]).
    destruct (C37_kinetic_positive h h0 _ D_ex _ _ Hr S On W D_ex_above De Le) as [_ B].
    unfold weigh in B. rewrite A in B. cbn [fold_right] in B. rewrite W1, W2 in B.
    change (nth_error item_names 24) with (Some "TFK"%string) in B. change (nth_error item_names 59) with (Some "VWK"%string) in B. cbv iota beta in B. change (is_tf "TFK") with 1 in B. change (is_tf "VWK") with 0 in B. lra.
  - destruct (make (K := ROps) [("beckex"%string, 6%nat, 1); ("optx"%string, 17%nat, 1 / 9)] eq_refl) as (h & Eh & Hr & A & Es). change (mactive _) with [6; 17]%nat in A.
    assert (Mu : 0 < (h_settings h XC_RANGESEP_MU : R)) by (rewrite Es; unfold msettings; cbn [map fold_left fst snd]; unfold wr_settings, upd; cbn; unfold Q2R; cbn; lra).
    assert (W1 : (h_settings h 6%nat : R) = 1) by (rewrite Es; unfold msettings; cbn [map fold_left fst snd]; unfold wr_settings, upd; cbn; unfold Q2R; cbn; lra).
    assert (W2 : (h_settings h 17%nat : R) = 1 / 9) by (rewrite Es; unfold msettings; cbn [map fold_left fst snd]; unfold wr_settings, upd; cbn; unfold Q2R; cbn; lra).
    assert (S : exists h1, xcfun_eval_setup h XC_A_B_GAA_GAB_GBB XC_PARTIAL_DERIVATIVES 0 = Ok (h1, 0%Z)) by (eexists; apply accepts_ok; [exact Hr|rewrite A; vm_compute; reflexivity]).
    destruct S as [h0 S].
    assert (De : describes XC_A_B_GAA_GAB_GBB (fun i => nth i (encode XC_A_B_GAA_GAB_GBB D_steep) 0) D_steep) by (apply encode_describes; cbn; tauto).
    assert (On : only_these h (fun nm => In nm attractive \/ exists c, ceiling nm = Some c)) by (intros i nm Hi Hn; rewrite A in Hi; cbn [In] in Hi; destruct Hi as [<- | [<- | []]]; vm_compute in Hn; injection Hn as <-; left; cbn [In attractive]; tauto).
    assert (W : weights_nonneg h) by (intros i Hi; rewrite A in Hi; cbn [In] in Hi; destruct Hi as [<- | [<- | []]]; [rewrite W1|rewrite W2]; lra).
    assert (Ac : all_covered h D_steep) by (intros i nm Hi Hn; rewrite A in Hi; cbn [In] in Hi; destruct Hi as [<- | [<- | []]]; vm_compute in Hn; injection Hn as <-; unfold covered; left; cbn [In any_gradient]; tauto).
    assert (St : steep_D (h_settings h XC_RANGESEP_MU) D_steep).
    { assert (P1 : forall y, Rpower 1 y = 1) by (intro y; unfold Rpower; now rewrite ln_1, Rmult_0_r, exp_0). unfold steep_D, saa, sbb, dot. cbn. rewrite !P1. lra. }
    assert (Ap : all_published h D_steep) by (intros i nm Hi Hn; rewrite A in Hi; cbn [In] in Hi; destruct Hi as [<- | [<- | []]]; vm_compute in Hn; injection Hn as <-; eexists; (split; [reflexivity|first [exact Logic.I | exact St]])).
    pose proof (C35_published_value h h0 _ D_steep _ Hr S Ap Ac Mu D_steep_above De) as Le.
    exists h, h0. do 2 eexists. do 9 (split; [eassumption || exact D_steep_above|]).
    exact (C37_exchange_sign h h0 _ D_steep _ _ Hr S On W Ap D_steep_above De Le).
Qed.
