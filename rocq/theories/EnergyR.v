(** * The order-0 energy as a real function, and definedness at every order *)
From Coq Require Import Reals QArith Qreals ZArith Arith Lia Lra List Bool String.
From Coquelicot Require Import Coquelicot.
From Verif Require Import Scalar RInst Tables Api SpecApi ApiProofs ApiProofs2 CTaylor CtAlg TMath Fps TFam TExp Ad Br Expr Densvars Functionals
  Eval Sem AdEval SpecEval Layout EvalSem EvalProps Taint EvalExt EvalR EvalReal EvalApi Props_Eval Props_Deriv RSem Phys.
Import ListNotations.
Local Open Scope outcome_scope.
Local Open Scope R_scope.

(** Weighted sum of the energy expressions of the active functionals. *)
Fixpoint rsum (st : nat -> T ROps) (x : nat -> R) (fl : fld -> R) (l : list nat) : option R :=
  match l with
  | [] => Some 0
  | i :: l' =>
      match nth_error functionals i with
      | None => None
      | Some (_, e) => obnd (reval st x fl [] e) (fun v => obnd (rsum st x fl l') (fun s => Some (st i * v + s)))
      end
  end.
Lemma nofun_len i : (i < 78)%nat -> exists nm e, nth_error functionals i = Some (nm, e).
Proof.
  intro L. destruct (nth_error functionals i) as [[nm e]|] eqn:E; [eauto|]. apply nth_error_None in E.
  replace (List.length functionals) with 78%nat in E by reflexivity. lia.
Qed.
Lemma ofold_sum st x fl : forall l (acc : R), (forall i, In i l -> (i < 78)%nat) ->
  ofold (fun out id => e <- fp id ;; v <- of_option (eval (K := ROps) st 0 x fl [] e) ;;
        Ok (ct_add 0 out (ct_scale (K := ROps) 0 (st id) v))) (acc : rct 0) l =
  match rsum st x fl l with Some s => Ok (acc + s) | None => Dom end.
Proof.
  induction l as [|i l IH]; intros acc Hl; cbn [ofold rsum].
  - f_equal. cbn. ring.
  - destruct (nofun_len i (Hl i (or_introl eq_refl))) as (nm & e & E). unfold fp. rewrite E. cbn [obind snd].
    pose proof (eval0 st x e fl []) as E0. 
    destruct (reval st x fl [] e) as [v|] eqn:Er; rewrite (eq_trans E0 Er); cbn [of_option obind obnd]; [|reflexivity].
    specialize (IH (acc + st i * v)). unfold fp in IH.
    etransitivity; [apply IH; intros; apply Hl; now right|].
    destruct (rsum st x fl l); cbn [obnd]; [|reflexivity]. f_equal. cbn. ring.
Qed.
Lemma dv_init0 : @dv_init ROps 0 = fun _ => 0.
Proof. apply FunctionalExtensionality.functional_extensionality. intro. unfold dv_init. cbn. apply Q2R_0. Qed.
Theorem energy0 (h : handle ROps) x p : dv_prog (h_vars h) = Some p -> (forall i, In i (h_active h) -> (i < 78)%nat) ->
  energy h 0 x (czero 0) =
  match rrun (h_settings h) x (fun _ => 0) p with
  | Some fl => match rsum (h_settings h) x fl (h_active h) with Some s => Ok (s : rct 0) | None => Dom end
  | None => Dom
  end.
Proof.
  intros E Ha. unfold energy, densvars. rewrite E, run0, dv_init0.
  destruct (rrun (h_settings h) x (fun _ => 0) p) as [fl|]; cbn [of_option obind]; [|reflexivity].
  unfold energy_sum. rewrite czero_eq. etransitivity; [exact (ofold_sum (h_settings h) x fl (h_active h) 0 Ha)|].
  destruct (rsum _ _ _ _); [|reflexivity]. now rewrite Rplus_0_l.
Qed.

(** Clean expressions only see clean fields (plain semantics). *)
Lemma reval_clean st x x' cf fl fl' : (forall f, cf f = true -> fl f = fl' f) -> forall e r, clean (fun _ => false) cf e = true ->
  reval st x fl r e = reval st x' fl' r e.
Proof.
  intros F e r C. pose proof (eval_clean st 0 (K := ROps) x x' (fun _ => false) ltac:(discriminate) cf fl fl' F e) as E.
  rewrite <- (eval0 st x e fl r), <- (eval0 st x' e fl' r). apply E. exact C.
Qed.
Lemma rsum_clean st x x' fl fl' l (cf : fld -> bool) : (forall f, cf f = true -> fl f = fl' f) ->
  (forall i, In i l -> exists nm e, nth_error functionals i = Some (nm, e) /\ clean (fun _ => false) cf e = true) ->
  rsum st x fl l = rsum st x' fl' l.
Proof.
  intros F H. induction l as [|i l IH]; cbn [rsum]; [reflexivity|].
  destruct (H i (or_introl eq_refl)) as (nm & e & -> & C). rewrite (reval_clean st x x' cf fl fl' F e [] C).
  rewrite IH; [reflexivity|]. intros; apply H; now right.
Qed.

(** ** From setups to energies *)
(** A handle accepted by setup for variable set [v]: facts used below. *)
Lemma setup_partial0 (h h0 : handle ROps) v : reachable h ->
  xcfun_eval_setup h v XC_PARTIAL_DERIVATIVES 0 = Ok (h0, 0%Z) -> ~ In v unsupported_vars ->
  exists vd, good_setup h h0 v XC_PARTIAL_DERIVATIVES 0 vd.
Proof.
  intros Hr S Nu. destruct (setup_gives_valid h v _ _ h0 S) as (Sv & Evv & Em & Eo & _ & _).
  pose proof (reach_setup h h0 v _ _ _ Hr S) as Hr'.
  destruct (setup_valid_code h0 (reachable_wf h0 Hr') Sv) as (vd & E0 & _ & (O1 & O2) & _).
  rewrite Evv in E0. exists vd. split; try assumption; try lia.
  - apply valid_ready; [assumption|assumption|]. rewrite Evv. exact Nu.
  - cbn. tauto.
  - unfold vars_entry in E0. destruct (Z.ltb v 0) eqn:L; [|apply Z.ltb_ge in L; lia]. cbn in E0. discriminate.
Qed.

Lemma subset_declared a b f : subset_bits a b -> declared a f = true -> declared b f = true.
Proof. intros S. destruct f; cbn [declared]; apply S; lia. Qed.
(** REVTPSSX reads the kinetic energy density without declaring it; exclude it unless the
    variable set provides that variable anyway. *)
Definition tau_honest (h : handle ROps) (v : Z) : Prop :=
  In XC_REVTPSSX_id (h_active h) -> provided v f_tau = true.
Lemma revtpssx_clean : exists nm e, nth_error functionals XC_REVTPSSX_id = Some (nm, e) /\
  clean (fun _ => false) (fun f => orb (declared (flags XC_REVTPSSX_id) f) (match f with f_tau | f_taua | f_taub => true | _ => false end)) e = true.
Proof.
  unfold XC_REVTPSSX_id. cbv [xcint_lookup_functional]. destruct (nofun_len 44) as (nm & e & E); [lia|].
  assert (X : match nth_error functionals 44 with Some (_, e) => clean (fun _ => false) (fun f => orb (declared (flags 44) f) (match f with f_tau | f_taua | f_taub => true | _ => false end)) e = true | None => False end).
  { vm_compute. reflexivity. }
  rewrite E in X. exists nm, e. split; [exact E|exact X].
Qed.
Lemma setup_clean (h h0 : handle ROps) v vd : good_setup h h0 v XC_PARTIAL_DERIVATIVES 0 vd -> vars_suffice h0 vd -> tau_honest h0 v ->
  forall i, In i (h_active h0) -> exists nm e, nth_error functionals i = Some (nm, e) /\ clean (fun _ => false) (provided v) e = true.
Proof.
  intros G Vs Th i Hi. assert (L := proj1 (gs_ready _ _ _ _ _ _ G) i Hi).
  assert (Pd : forall f, declared (flags i) f = true -> provided v f = true).
  { intro f. unfold provided. rewrite (gs_entry _ _ _ _ _ _ G). apply subset_declared. now apply Vs. }
  destruct (Nat.eq_dec i XC_REVTPSSX_id) as [->|N].
  - destruct revtpssx_clean as (nm & e & E & C). exists nm, e. split; [exact E|].
    eapply clean_imp; [|exact C]. intros f Hf. apply orb_true_iff in Hf. destruct Hf as [Hf|Hf]; [now apply Pd|].
    specialize (Th Hi). unfold provided in *. destruct (vars_entry v); try discriminate. destruct f; try discriminate Hf; exact Th.
  - pose proof (flags_sound_ok i L N) as F. unfold flags_sound in F. destruct (nth_error functionals i) as [[nm e]|] eqn:E; [|discriminate].
    exists nm, e. split; [reflexivity|]. eapply clean_imp; [exact Pd|exact F].
Qed.
Lemma supported_sets v : In v open_sets \/ In v closed_sets -> ~ In v unsupported_vars.
Proof. cbn [In open_sets closed_sets]. intros H X. cbn [In unsupported_vars] in X. 
  repeat match goal with K : _ \/ _ |- _ => destruct K as [<- | K] end; try contradiction;
  repeat match goal with K : _ \/ _ |- _ => destruct K as [K | K]; try discriminate K end; contradiction.
Qed.
(** The energy of a described density is the weighted sum of the energy expressions at its
    density variables. *)
Theorem described_energy (h h0 : handle ROps) v D x : reachable h ->
  xcfun_eval_setup h v XC_PARTIAL_DERIVATIVES 0 = Ok (h0, 0%Z) -> tau_honest h v -> above D -> describes v x D ->
  (exists vd, good_setup h h0 v XC_PARTIAL_DERIVATIVES 0 vd) /\
  energy h0 0 x (czero 0) =
  match rsum (h_settings h) (fun _ => 0) (dvar D) (h_active h) with Some s => Ok (s : rct 0) | None => Dom end.
Proof.
  intros Hr S Th Ab De. pose proof De as [Hv _].
  assert (Nu : ~ In v unsupported_vars) by (apply supported_sets; tauto).
  destruct (setup_partial0 h h0 v Hr S Nu) as [vd G]. split; [eauto|].
  destruct (setup_gives_valid h v _ _ h0 S) as (Sv & Evv & Em & Eo & Ea & Es).
  pose proof (reach_setup h h0 v _ _ _ Hr S) as Hr'.
  destruct (setup_valid_code h0 (reachable_wf h0 Hr') Sv) as (vd' & E0 & Vs & _). rewrite Evv, (gs_entry _ _ _ _ _ _ G) in E0. injection E0 as <-.
  destruct (gs_ready _ _ _ _ _ _ G) as [Ga Gp]. unfold supported in Gp.
  destruct (dv_prog (h_vars h0)) as [p|] eqn:E. 2: { unfold dv_prog in E. destruct (dv_switch (h_vars h0)); [discriminate|contradiction]. }
  rewrite (energy0 h0 x p E Ga). rewrite Evv in E.
  destruct (densvars_canonical (h_settings h0) x v D p Ab De E) as (fl & Ef & F). rewrite Ef.
  rewrite (rsum_clean (h_settings h0) x (fun _ => 0) fl (dvar D) (h_active h0) (provided v) F).
  2: { apply (setup_clean h h0 v vd G Vs). unfold tau_honest. now rewrite Ea. }
  now rewrite Ea, Es.
Qed.
