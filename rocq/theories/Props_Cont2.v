(** * Property theorems: derivatives have no jumps (C43) *)
From Coq Require Import Reals QArith Qreals ZArith Arith Lia Lra List Bool String.
From Coquelicot Require Import Coquelicot.
From Verif Require Import Scalar RInst Tables Api SpecApi ApiProofs ApiProofs2 CTaylor CtAlg TMath Fps TFam TExp Ad Br Expr Densvars Functionals
  Eval Sem AdEval SpecEval Layout EvalSem EvalProps Taint EvalExt EvalR EvalReal EvalApi Props_Eval Props_Deriv RSem Itv Dom Phys EnergyR Safe Pw92 Mk Props_Dens Props_Dens2
  VarsRel PotSlots Dead Props_Pot Smooth Props_Smooth Cont Cont2.
Import ListNotations.
Local Open Scope outcome_scope.
Local Open Scope R_scope.

(** What evaluation with the handle [hp] leaves in slot [p] of the output. *)
Definition output (hp : handle ROps) (p : nat) (y : nat -> R) (r : R) : Prop :=
  forall junk buf, exists ws, xcfun_eval (K := ROps) junk hp buf y = Ok ws /\ rd (K := ROps) buf ws p = r.
(** [y] agrees with [x] up to [d] in the first [m] inputs. *)
Definition close (m : nat) (d : R) (x y : nat -> R) : Prop := forall i, (i < m)%nat -> Rabs (y i - x i) < d.
(** Slot [p] is returned at every input close to [x], and changes as little as desired. *)
Definition slot_continuous (m : nat) (hp : handle ROps) (p : nat) (x : nat -> R) (r : R) : Prop :=
  forall eps, 0 < eps -> exists d, 0 < d /\ forall y, close m d x y -> exists r', output hp p y r' /\ Rabs (r' - r) < eps.

(** Inputs beyond the first [m] do not matter. *)
Definition mixin (m : nat) (x y : nat -> R) : nat -> R := fun i => if (i <? m)%nat then y i else x i.
Lemma close_nearby m d x y : 0 < d -> close m d x y -> nearby d x (mixin m x y).
Proof.
  intros D C i. unfold mixin. destruct (Nat.ltb_spec i m) as [L|L]; [now apply C|]. rewrite Rminus_diag_eq, Rabs_R0; [exact D|reflexivity].
Qed.
Lemma around_eps x (u : (nat -> R) -> R) r (P : (nat -> R) -> Prop) : around x P -> tends (around x) u r -> forall eps, 0 < eps ->
  exists d, 0 < d /\ forall y, nearby d x y -> P y /\ Rabs (u y - r) < eps.
Proof.
  intros A T eps He. assert (Lc : locally r (fun z => Rabs (z - r) < eps)) by (exists (mkposreal eps He); intros z Hz; exact Hz).
  pose proof (T _ Lc) as C. unfold filtermap in C. destruct (filter_and _ _ A C) as (d & D & H). exists d. split; [exact D|exact H].
Qed.
Lemma tends_in x i : tends (around x) (fun y => y i) (x i).
Proof. apply around_coord. Qed.
Lemma tends_cst x r : tends (around x) (fun _ => r) r.
Proof. apply tends_const. apply around_filter. Qed.

Section COEF.
Variable h : handle ROps.
Variable x : nat -> R.
Hypothesis Sm : smooth h x.
Lemma seeds_1 i j : tc (around x) 1 (fun y => s1 (K := ROps) y i j) (s1 (K := ROps) x i j).
Proof. unfold s1. cbn [tc fst snd]. split; [apply tends_in|apply tends_cst]. Qed.
Lemma seeds_2 i k j : tc (around x) 2 (fun y => s2 (K := ROps) y i k j) (s2 (K := ROps) x i k j).
Proof. unfold s2. cbn [tc fst snd]. repeat split; first [apply tends_in|apply tends_cst]. Qed.
Lemma seeds_3 i k m j : tc (around x) 3 (fun y => s3 (K := ROps) y i k m j) (s3 (K := ROps) x i k m j).
Proof. unfold s3. cbn [tc fst snd]. repeat split; first [apply tends_in|apply tends_cst]. Qed.
(** Every derivative coefficient, near a point where it is defined. *)
Lemma coef_tends l r : coef h x l r -> exists u, around x (fun y => coef h y l (u y)) /\ tends (around x) u r.
Proof.
  destruct l as [|i [|j [|k [|? ?]]]]; cbn [coef]; [| | | |contradiction].
  - intro E. destruct (energy_tends (around x) 0 h (fun y i => y i) x r ltac:(lia) (tends_in x) Sm E) as (u & A & T). exists u. split; [exact A|exact T].
  - intros (out & E & ->).
    destruct (energy_tends (around x) 1 h (fun y => s1 (K := ROps) y (Some i)) (s1 (K := ROps) x (Some i)) out ltac:(lia) (seeds_1 (Some i)) Sm E) as (u & A & T).
    exists (fun y => snd (u y)). split; [|apply T]. generalize A. apply filter_imp. intros y Y. exists (u y). split; [exact Y|reflexivity].
  - intros (out & E & ->).
    destruct (energy_tends (around x) 2 h (fun y => s2 (K := ROps) y (Some i) (Some j)) (s2 (K := ROps) x (Some i) (Some j)) out ltac:(lia) (seeds_2 (Some i) (Some j)) Sm E) as (u & A & T).
    exists (fun y => snd (snd (u y))). split; [|apply T]. generalize A. apply filter_imp. intros y Y. exists (u y). split; [exact Y|reflexivity].
  - intros (out & E & ->).
    destruct (energy_tends (around x) 3 h (fun y => s3 (K := ROps) y (Some i) (Some j) (Some k)) (s3 (K := ROps) x (Some i) (Some j) (Some k)) out ltac:(lia) (seeds_3 (Some i) (Some j) (Some k)) Sm E) as (u & A & T).
    exists (fun y => snd (snd (snd (u y)))). split; [|apply T]. generalize A. apply filter_imp. intros y Y. exists (u y). split; [exact Y|reflexivity].
Qed.
End COEF.

(** A coefficient can be computed only where the energy is. *)
Lemma coef_energy h vd y l r : ready h -> vars_entry (h_vars h) = Ok vd -> coef h y l r -> exists e : rct 0, energy h 0 y (czero 0) = Ok e.
Proof.
  intros Rd E. destruct l as [|i [|j [|k [|? ?]]]]; cbn [coef]; [eauto| | | |contradiction]; intros (out & Eo & _).
  - pose proof (up_c0 h Rd vd E y 1 (s1 (K := ROps) y (Some i)) ltac:(lia) ltac:(reflexivity)) as C. rewrite Eo in C. eexists. exact C.
  - pose proof (up_c0 h Rd vd E y 2 (s2 (K := ROps) y (Some i) (Some j)) ltac:(lia) ltac:(reflexivity)) as C. rewrite Eo in C. eexists. exact C.
  - pose proof (up_c0 h Rd vd E y 3 (s3 (K := ROps) y (Some i) (Some j) (Some k)) ltac:(lia) ltac:(reflexivity)) as C. rewrite Eo in C. eexists. exact C.
Qed.
Lemma coef_ext h vd y y' l r : ready h -> vars_entry (h_vars h) = Ok vd -> (forall i, (i < Z.to_nat (v_len vd))%nat -> y i = y' i) -> coef h y l r -> coef h y' l r.
Proof.
  intros Rd E H. destruct l as [|i [|j [|k [|? ?]]]]; cbn [coef]; [| | | |contradiction].
  - intro X. rewrite <- X. symmetry. apply (energy_ext h vd); [apply Rd|exact E|exact H].
  - intros (out & Eo & ->). exists out. split; [|reflexivity]. rewrite <- Eo. symmetry. apply (energy_ext h vd); [apply Rd|exact E|]. intros m Hm. unfold s1. now rewrite H.
  - intros (out & Eo & ->). exists out. split; [|reflexivity]. rewrite <- Eo. symmetry. apply (energy_ext h vd); [apply Rd|exact E|]. intros m Hm. unfold s2. now rewrite H.
  - intros (out & Eo & ->). exists out. split; [|reflexivity]. rewrite <- Eo. symmetry. apply (energy_ext h vd); [apply Rd|exact E|]. intros m Hm. unfold s3. now rewrite H.
Qed.

(** C43 (derivatives).  At an input where evaluation succeeds, no density is regularised and no branch boundary is
    hit, every output slot of partial derivative mode - the energy and all derivatives of orders one to three - is
    returned at all nearby inputs and is a continuous function of all inputs together. *)
Theorem C43_partial_derivatives :
  forall junk (h hp h0 : handle ROps) v vd o buf x ws p L, reachable h ->
    vars_entry v = Ok vd ->
    xcfun_eval_setup h v XC_PARTIAL_DERIVATIVES o = Ok (hp, 0%Z) ->
    xcfun_eval_setup h v XC_PARTIAL_DERIVATIVES 0 = Ok (h0, 0%Z) ->
    xcfun_eval junk hp buf x = Ok ws -> smooth h0 x ->
    xcfun_output_length hp = Ok L -> (Z.of_nat p < L)%Z ->
    slot_continuous (Z.to_nat (v_len vd)) hp p x (rd buf ws p).
Proof.
  intros junk h hp h0 v vd o buf x ws p L Hr E S S0 Ev Sm OL Hp eps He.
  pose proof (eval_good junk h hp v _ o buf x ws vd Hr E S Ev) as G.
  set (n := Z.to_nat (v_len vd)) in *.
  assert (Np : exists l, nth_error (graded n (Z.to_nat o)) p = Some l).
  { destruct (nth_error (graded n (Z.to_nat o)) p) as [l|] eqn:N; [eauto|]. exfalso. apply nth_error_None in N.
    unfold xcfun_output_length in OL. rewrite (gs_mode _ _ _ _ _ _ G), (gs_vars _ _ _ _ _ _ G), E in OL.
    cbn [Z.eqb XC_PARTIAL_DERIVATIVES XC_MODE_UNSET Pos.eqb obind] in OL. rewrite (gs_order _ _ _ _ _ _ G) in OL.
    destruct (Z.eqb v XC_VARS_UNSET); [discriminate|]. destruct (Z.eqb o (-1)); [discriminate|].
    injection OL as <-. destruct (C09_enumeration n (Z.to_nat o)) as (_ & _ & _ & En).
    unfold n in *. pose proof (vlen_pos _ _ E). pose proof (gs_pos _ _ _ _ _ _ G). rewrite !Z2Nat.id in En by lia. lia. }
  destruct Np as [l N]. pose proof (partial_slots junk _ _ _ _ _ _ _ _ G Ev p l N) as C.
  pose proof (setup_twin _ _ _ _ _ _ _ _ S S0) as W. pose proof (twin_sym _ _ W) as W'.
  apply (twin_coef _ _ _ _ _ W) in C. destruct (coef_tends h0 x Sm l _ C) as (u & A & T).
  destruct (around_eps x u _ _ A T eps He) as (d & D & H). exists d. split; [exact D|]. intros y Y.
  destruct (H _ (close_nearby n d x y D Y)) as [Cy Q]. exists (u (mixin n x y)). split; [|exact Q].
  apply (twin_coef _ _ _ _ _ W') in Cy.
  assert (Ve : vars_entry (h_vars hp) = Ok vd) by (rewrite (gs_vars _ _ _ _ _ _ G); exact E).
  apply (coef_ext hp vd _ y _ _ (gs_ready _ _ _ _ _ _ G) Ve) in Cy.
  2:{ intros i Hi. unfold mixin. fold n in Hi. destruct (Nat.ltb_spec i n); [reflexivity|lia]. }
  intros junk' buf'. destruct (coef_energy hp vd y l _ (gs_ready _ _ _ _ _ _ G) Ve Cy) as [e Ee].
  destruct (partial_total junk' h hp v o buf' y vd e G Ee) as [ws' Ews]. exists ws'. split; [exact Ews|].
  pose proof (partial_slots junk' _ _ _ _ _ _ _ _ G Ews p l N) as C'. exact (coef_fun hp y l _ _ C' Cy).
Qed.
Print Assumptions C43_partial_derivatives.

Section LOAD.
Variable x : nat -> R.
Lemma tc_load n : forall g : nat -> nat, tc (around x) n (fun y => ct_load (K := ROps) n (fun j => y (g j))) (ct_load (K := ROps) n (fun j => x (g j))).
Proof.
  induction n as [|n IH]; intro g; cbn [ct_load tc fst snd]; [apply tends_in|]. split; [apply IH|]. apply (IH (fun k => g (2 ^ n + k)%nat)).
Qed.
Lemma tc_get n : forall u (c : rct n) s, (s < 2 ^ n)%nat -> tc (around x) n u c -> tends (around x) (fun y => CTaylor.get (K := ROps) n (u y) s) (CTaylor.get (K := ROps) n c s).
Proof.
  induction n as [|n IH]; intros u c s Hs H; cbn [CTaylor.get tc] in *; [exact H|]. destruct H as [A B]. destruct (Nat.ltb_spec s (2 ^ n)) as [L|L].
  - apply (IH (fun y => fst (u y))); [exact L|exact A].
  - apply (IH (fun y => snd (u y))); [cbn [Nat.pow] in Hs; lia|exact B].
Qed.
Lemma c0_load n : forall f : nat -> R, c0 n (ct_load (K := ROps) n f) = f O.
Proof. induction n as [|n IH]; intro f; cbn [ct_load c0 fst]; [reflexivity|apply IH]. Qed.
End LOAD.
(** The same for contracted mode, at every order the library accepts: the inputs are the coefficients of Taylor expansions, and every
    output coefficient is a continuous function of all of them. *)
Theorem C43_contracted :
  forall junk (h hc h0 : handle ROps) v vd o buf x ws s, reachable h ->
    vars_entry v = Ok vd ->
    xcfun_eval_setup h v XC_CONTRACTED (Z.of_nat o) = Ok (hc, 0%Z) ->
    xcfun_eval_setup h v XC_PARTIAL_DERIVATIVES 0 = Ok (h0, 0%Z) ->
    xcfun_eval junk hc buf x = Ok ws ->
    smooth h0 (fun i => x (i * 2 ^ o)%nat) -> (s < 2 ^ o)%nat ->
    slot_continuous (Z.to_nat (v_len vd) * 2 ^ o) hc s x (rd buf ws s).
Proof.
  intros junk h hc h0 v vd o buf x ws s Hr E S S0 Ev Sm Hs eps He.
  pose proof (eval_good junk h hc v _ _ buf x ws vd Hr E S Ev) as G. assert (Ho : (o <= 6)%nat) by (pose proof (gs_max _ _ _ _ _ _ G); lia). set (n := Z.to_nat (v_len vd)) in *.
  pose proof (setup_twin _ _ _ _ _ _ _ _ S S0) as W.
  rewrite (eval_contracted junk _ _ _ _ _ _ _ G), Nat2Z.id in Ev. destruct (contracted_rd junk _ _ _ _ buf _ Ev) as (out & Eo & Rdo).
  assert (Ve : vars_entry (h_vars hc) = Ok vd) by (rewrite (gs_vars _ _ _ _ _ _ G); exact E).
  assert (Ex : forall d d' : nat -> rct o, (forall i, (i < n)%nat -> d i = d' i) -> energy hc o d (czero o) = energy hc o d' (czero o)).
  { intros d d' H. apply (energy_ext hc vd); [apply (gs_ready _ _ _ _ _ _ G)|exact Ve|exact H]. }
  erewrite (Ex _ (fun i => ct_load (K := ROps) o (fun j => x (i * 2 ^ o + j)%nat))) in Eo.
  2:{ intros i Hi. fold n. destruct (Nat.ltb_spec i n); [reflexivity|lia]. }
  rewrite (twin_energy _ _ _ _ _ (twin_sym _ _ W)) in Eo || rewrite (twin_energy _ _ _ _ _ W) in Eo.
  destruct (energy_tends (around x) o h0 (fun y i => ct_load (K := ROps) o (fun j => y (i * 2 ^ o + j)%nat)) (fun i => ct_load (K := ROps) o (fun j => x (i * 2 ^ o + j)%nat)) out Ho) as (u & A & T).
  - intro i. apply (tc_load x o (fun j => (i * 2 ^ o + j)%nat)).
  - eapply eq_ind; [exact Sm|]. apply FunctionalExtensionality.functional_extensionality. intro i. rewrite c0_load. f_equal. lia.
  - exact Eo.
  - pose proof (tc_get x o u out s Hs T) as Ts. destruct (around_eps x _ _ _ A Ts eps He) as (d & D & H). exists d. split; [exact D|]. intros y Y.
    destruct (H _ (close_nearby _ d x y D Y)) as [Cy Q]. exists (CTaylor.get (K := ROps) o (u (mixin (n * 2 ^ o) x y)) s). split; [|rewrite Rdo by exact Hs; exact Q].
    intros junk' buf'. rewrite (eval_contracted junk' _ _ _ _ _ _ _ G), Nat2Z.id. unfold contracted. fold n.
    rewrite (Ex _ (fun i => ct_load (K := ROps) o (fun j => mixin (n * 2 ^ o) x y (i * 2 ^ o + j)%nat))).
    2:{ intros i Hi. destruct (Nat.ltb_spec i n); [|lia].
        assert (LE : forall k (f g : nat -> R), (forall j, (j < 2 ^ k)%nat -> f j = g j) -> ct_load (K := ROps) k f = ct_load (K := ROps) k g).
        { induction k as [|k IH]; intros f g Hfg; cbn [ct_load]; [apply Hfg; cbn; lia|]. f_equal; apply IH; intros j Hj; apply Hfg; cbn [Nat.pow]; lia. }
        apply LE. intros j Hj. unfold mixin. destruct (Nat.ltb_spec (i * 2 ^ o + j) (n * 2 ^ o)); [reflexivity|]. exfalso. nia. }
    rewrite (twin_energy _ _ _ _ _ (twin_sym _ _ W)) || rewrite (twin_energy _ _ _ _ _ W). rewrite Cy. cbn [obind]. eexists. split; [reflexivity|].
    rewrite rd_lastw. rewrite lastw_map by exact Hs. reflexivity.
Qed.
Print Assumptions C43_contracted.

(** At physical densities both hypotheses hold: evaluation succeeds and no boundary is hit. *)
Theorem C43_derivatives_at_densities :
  forall junk (h hp h0 : handle ROps) v vd o D buf x L, reachable h ->
    vars_entry v = Ok vd ->
    xcfun_eval_setup h v XC_PARTIAL_DERIVATIVES o = Ok (hp, 0%Z) -> (o <= 3)%Z ->
    xcfun_eval_setup h v XC_PARTIAL_DERIVATIVES 0 = Ok (h0, 0%Z) ->
    0 < (h_settings h XC_RANGESEP_MU : R) -> all_covered h D -> none_switching h ->
    strictly_above D -> describes v x D -> xcfun_output_length hp = Ok L ->
    exists ws, xcfun_eval junk hp buf x = Ok ws /\
      forall p, (Z.of_nat p < L)%Z -> slot_continuous (Z.to_nat (v_len vd)) hp p x (rd buf ws p).
Proof.
  intros junk h hp h0 v vd o D buf x L Hr E S O3 S0 Mu Ac Ns Sa De OL.
  destruct (C33_partial_defined junk h hp v o D buf x Hr S O3 Mu Ac (strictly D Sa) De) as [ws Ev].
  exists ws. split; [exact Ev|]. intros p Hp.
  exact (C43_partial_derivatives junk h hp h0 v vd o buf x ws p L Hr E S S0 Ev (setup_smooth h h0 v _ _ D x Hr S0 Ns Sa De) OL Hp).
Qed.
Print Assumptions C43_derivatives_at_densities.

(** ** A concrete case: a mixture of five functionals at order three, 56 output slots. *)
Example C43_derivatives_example : exists (h hp h0 : handle ROps) vd D x, reachable h /\
  vars_entry XC_A_B_GAA_GAB_GBB = Ok vd /\
  xcfun_eval_setup h XC_A_B_GAA_GAB_GBB XC_PARTIAL_DERIVATIVES 3 = Ok (hp, 0%Z) /\
  xcfun_eval_setup h XC_A_B_GAA_GAB_GBB XC_PARTIAL_DERIVATIVES 0 = Ok (h0, 0%Z) /\
  0 < (h_settings h XC_RANGESEP_MU : R) /\ all_covered h D /\ none_switching h /\ strictly_above D /\ describes XC_A_B_GAA_GAB_GBB x D /\
  xcfun_output_length hp = Ok 56%Z.
Proof.
  destruct mix_handle as (h & Hr & A & Mu & Ac). exists h.
  do 3 eexists. exists D_ex. eexists. split; [exact Hr|]. split; [vm_compute; reflexivity|].
  split; [apply accepts_ok; [exact Hr|rewrite A; vm_compute; reflexivity]|].
  split; [apply accepts_ok; [exact Hr|rewrite A; vm_compute; reflexivity]|].
  split; [exact Mu|]. split; [exact Ac|]. split; [now apply mix_not_switching|]. split; [exact D_ex_strictly|].
  split; [apply encode_describes; cbn; tauto|]. vm_compute. reflexivity.
Qed.
