(** * Property theorems: derivatives at physical densities (C10, C11, C13)
    The derivative theorems of Props_Deriv and Props_Pot assume that the evaluation succeeds
    and that no branch boundary is hit.  Here both hypotheses are discharged, for every
    weighted sum of the functionals listed, at every density strictly above the threshold. *)
From Coq Require Import Reals QArith Qreals ZArith Arith Lia Lra List Bool String.
From Coquelicot Require Import Coquelicot.
From Verif Require Import Scalar RInst Tables Api SpecApi ApiProofs ApiProofs2 CTaylor CtAlg TMath Fps TFam TExp Ad Br Expr Densvars Functionals
  Eval Sem AdEval SpecEval Layout EvalSem EvalProps Taint EvalExt EvalR EvalReal EvalApi Props_Eval Props_Deriv RSem Itv Dom Phys EnergyR Safe Pw92 Mk Props_Dens Props_Dens2
  VarsRel PotSlots Dead Props_Pot Smooth.
Import ListNotations.
Local Open Scope outcome_scope.
Local Open Scope R_scope.

(** Functionals that switch between formulas (branches, absolute values, maxima, the Newton
    solver of the Becke-Roussel functionals, the Pade approximant near 0). *)
Definition switching : list string :=
  ["BECKEX"; "BECKECORRX"; "BECKESRX"; "BECKECAMX"; "BRX"; "BRC"; "BRXC"; "LDAERFX"; "PW91X"; "PW91K"; "TPSSC"; "REVTPSSC";
   "SCANC"; "SCANX"; "RSCANC"; "RSCANX"; "RPPSCANC"; "RPPSCANX"; "R2SCANC"; "R2SCANX"; "R4SCANC"; "R4SCANX"; "PZ81C"; "P86C";
   "B97X"; "B97C"; "B97_1X"; "B97_1C"; "B97_2X"; "B97_2C"; "TPSSLOCC"]%string.
Definition none_switching (h : handle ROps) : Prop :=
  forall i nm, In i (h_active h) -> nth_error item_names i = Some nm -> ~ In nm switching.
Lemma plain_all : forallb (fun i => match nth_error item_names i, nth_error functionals i with
     | Some nm, Some (_, e) => orb (existsb (String.eqb nm) switching) (plain e)
     | _, _ => false end) (seq 0 78) = true.
Proof. vm_compute. reflexivity. Qed.
Lemma none_switching_plain (h : handle ROps) : wf h -> none_switching h -> all_plain h.
Proof.
  intros W N i nm e Hi He. assert (L : (i < 78)%nat) by (now apply W). destruct (item_ex i L) as [nm' En].
  pose proof (proj1 (forallb_forall _ _) plain_all i ltac:(apply in_seq; lia)) as X. cbv beta in X. rewrite En, He in X.
  apply orb_true_iff in X. destruct X as [X|X]; [|exact X]. exfalso. apply (N i nm' Hi En). apply existsb_exists in X. destruct X as (s & Hs & Es).
  apply String.eqb_eq in Es. now subst s.
Qed.
Lemma strictly D : strictly_above D -> above D.
Proof. intros [A B]. split; lra. Qed.
Lemma setup_smooth (h h0 : handle ROps) v m o D x : reachable h -> xcfun_eval_setup h v m o = Ok (h0, 0%Z) ->
  none_switching h -> strictly_above D -> describes v x D -> smooth h0 x.
Proof.
  intros Hr S N A X. destruct (setup_gives_valid h v _ _ h0 S) as (_ & Ev & _ & _ & Ea & _).
  apply (plain_smooth h0 D).
  - intros i nm e Hi. rewrite Ea in Hi. exact (none_switching_plain h (reachable_wf h Hr) N i nm e Hi).
  - exact A.
  - now rewrite Ev.
Qed.

(** C10 at physical densities: the evaluation succeeds and every slot is the iterated partial
    derivative of the energy that the library itself returns at order 0. *)
Theorem C10_at_densities :
  forall junk (h hp h0 : handle ROps) v vd o D buf x, reachable h ->
    vars_entry v = Ok vd ->
    xcfun_eval_setup h v XC_PARTIAL_DERIVATIVES o = Ok (hp, 0%Z) -> (o <= 3)%Z ->
    xcfun_eval_setup h v XC_PARTIAL_DERIVATIVES 0 = Ok (h0, 0%Z) ->
    0 < (h_settings h XC_RANGESEP_MU : R) -> all_covered h D -> none_switching h ->
    strictly_above D -> describes v x D ->
    exists ws, xcfun_eval junk hp buf x = Ok ws /\
      forall p l, nth_error (graded (Z.to_nat (v_len vd)) (Z.to_nat o)) p = Some l -> pderiv (library_energy h0) l x (rd buf ws p).
Proof.
  intros junk h hp h0 v vd o D buf x Hr E S O3 S0 Mu Ac Ns Sa De.
  destruct (C33_partial_defined junk h hp v o D buf x Hr S O3 Mu Ac (strictly D Sa) De) as [ws Ev].
  exists ws. split; [exact Ev|]. intros p l N.
  exact (C10_partial_derivatives junk h hp h0 v vd o buf x ws p l Hr E S S0 Ev (setup_smooth h h0 v _ _ D x Hr S0 Ns Sa De) N).
Qed.
Print Assumptions C10_at_densities.

Theorem C11_at_densities :
  forall junk (h hc h0 : handle ROps) v o D buf input, reachable h ->
    xcfun_eval_setup h v XC_CONTRACTED (Z.of_nat o) = Ok (hc, 0%Z) ->
    xcfun_eval_setup h v XC_PARTIAL_DERIVATIVES 0 = Ok (h0, 0%Z) ->
    0 < (h_settings h XC_RANGESEP_MU : R) -> all_covered h D -> none_switching h ->
    strictly_above D -> describes v (fun i => input (i * 2 ^ o)%nat) D ->
    exists ws (g : pt o -> R), xcfun_eval junk hc buf input = Ok ws /\
      near o (fun z => library_energy h0 (fun i => ppoly o (fun s => input (i * 2 ^ o + s)%nat) z) (g z)) /\
      forall s, (s < 2 ^ o)%nat -> mixed o s g (rd buf ws s).
Proof.
  intros junk h hc h0 v o D buf input Hr S S0 Mu Ac Ns Sa De.
  destruct (C33_contracted_defined junk h hc v o D buf input Hr S Mu Ac (strictly D Sa) De) as [ws Ev].
  destruct (C11_contracted_derivatives junk h hc h0 v o buf input ws Hr S S0 Ev (setup_smooth h h0 v _ _ D _ Hr S0 Ns Sa De)) as (g & A & B).
  exists ws, g. auto.
Qed.
Print Assumptions C11_at_densities.

Theorem C13_at_densities :
  forall junk (h hp h0 : handle ROps) v o buf J r D, reachable h ->
    In v [XC_N_2ND_TAYLOR; XC_A_B_2ND_TAYLOR] ->
    xcfun_eval_setup h v XC_POTENTIAL o = Ok (hp, 0%Z) ->
    xcfun_eval_setup h v XC_PARTIAL_DERIVATIVES 0 = Ok (h0, 0%Z) ->
    0 < (h_settings h XC_RANGESEP_MU : R) -> all_covered h D -> none_switching h ->
    strictly_above D -> describes v (J r) D ->
    density_field (densities v) J r ->
    exists ws, xcfun_eval junk hp buf (J r) = Ok ws /\ library_energy h0 (J r) (rd buf ws 0) /\
    forall c b, nth_error (densities v) c = Some b ->
      functional_derivative (library_energy h0) b J r (rd buf ws (1 + c)).
Proof.
  intros junk h hp h0 v o buf J r D Hr Hv S S0 Mu Ac Ns Sa De Df.
  destruct (C33_potential_defined junk h hp v o D buf (J r) Hr S Mu Ac (strictly D Sa) De) as [ws Ev].
  exists ws. split; [exact Ev|].
  exact (C13_functional_derivative junk h hp h0 v o buf J r ws Hr Hv S S0 Df Ev (setup_smooth h h0 v _ _ D _ Hr S0 Ns Sa De)).
Qed.
Print Assumptions C13_at_densities.

(** *** A concrete case: the mixture of Props_Dens2 in the density of the field
    n_a = 1 + x + x^2 + y z, n_b = 1/2 + y/2 + y^2 at the origin. *)
Lemma D_ex_strictly : strictly_above D_ex.
Proof. split; cbn [rho al be D_ex]; change threshold with (1 * / 100000000000000); lra. Qed.
Lemma mix_not_switching (h : handle ROps) : h_active h = [0; 5; 16; 4; 25]%nat -> none_switching h.
Proof.
  intros A i nm Hi N. rewrite A in Hi. cbn [In] in Hi.
  destruct Hi as [<- | [<- | [<- | [<- | [<- | []]]]]]; vm_compute in N; injection N as <-; intro X;
  repeat (destruct X as [X|X]; [discriminate X|]); exact X.
Qed.
Example C10_example : exists (h hp h0 hc : handle ROps) vd D x, reachable h /\
  vars_entry XC_A_B_GAA_GAB_GBB = Ok vd /\
  xcfun_eval_setup h XC_A_B_GAA_GAB_GBB XC_PARTIAL_DERIVATIVES 3 = Ok (hp, 0%Z) /\
  xcfun_eval_setup h XC_A_B_GAA_GAB_GBB XC_PARTIAL_DERIVATIVES 0 = Ok (h0, 0%Z) /\
  xcfun_eval_setup h XC_A_B_GAA_GAB_GBB XC_CONTRACTED (Z.of_nat 4) = Ok (hc, 0%Z) /\
  0 < (h_settings h XC_RANGESEP_MU : R) /\ all_covered h D /\ none_switching h /\ strictly_above D /\ describes XC_A_B_GAA_GAB_GBB x D.
Proof.
  destruct mix_handle as (h & Hr & A & Mu & Ac). exists h.
  do 4 eexists. exists D_ex. eexists. split; [exact Hr|]. split; [vm_compute; reflexivity|].
  split; [apply accepts_ok; [exact Hr|rewrite A; vm_compute; reflexivity]|].
  split; [apply accepts_ok; [exact Hr|rewrite A; vm_compute; reflexivity]|].
  split; [apply accepts_ok; [exact Hr|rewrite A; vm_compute; reflexivity]|].
  split; [exact Mu|]. split; [exact Ac|]. split; [now apply mix_not_switching|]. split; [exact D_ex_strictly|]. apply encode_describes. cbn. tauto.
Qed.
Definition J_ex (q : nat -> R) (i : nat) : R :=
  let x := q 0%nat in let y := q 1%nat in let z := q 2%nat in
  nth i [1 + x + x * x + y * z; 1 + 2 * x; z; y; 2; 0; 0; 0; 1; 0; / 2 + y / 2 + y * y; 0; / 2 + 2 * y; 0; 0; 0; 0; 2; 0; 0] 0.
Definition O_ex : nat -> R := fun _ => 0.
Definition DJ_ex : dens :=
  {| al := {| rho := 1; grad := V 1 0 0; hes := Hes 2 0 0 0 1 0; kin := 1; jp := 0 |};
     be := {| rho := / 2; grad := V 0 (/ 2) 0; hes := Hes 0 0 0 2 0 0; kin := 1; jp := 0 |} |}.
Lemma J_ex_field : density_field [0; 10]%nat J_ex O_ex.
Proof.
  intros b k Hb Hk.
  destruct Hb as [<-|[<-|[]]]; destruct k as [|[|[|k]]]; try lia; split; intros j Hj; destruct j as [|[|[|j]]]; try lia;
  try (exists (mkposreal 1 Rlt_0_1); intros t _);
  unfold J_ex, bump, O_ex; cbn [nth Nat.add Nat.eqb Props_Pot.hess]; auto_derive; try exact Logic.I; try ring; try field.
Qed.
Example C13_example : exists (h hp h0 : handle ROps) D, reachable h /\
  xcfun_eval_setup h XC_A_B_2ND_TAYLOR XC_POTENTIAL 1 = Ok (hp, 0%Z) /\
  xcfun_eval_setup h XC_A_B_2ND_TAYLOR XC_PARTIAL_DERIVATIVES 0 = Ok (h0, 0%Z) /\
  0 < (h_settings h XC_RANGESEP_MU : R) /\ all_covered h D /\ none_switching h /\ strictly_above D /\
  describes XC_A_B_2ND_TAYLOR (J_ex O_ex) D /\ density_field (densities XC_A_B_2ND_TAYLOR) J_ex O_ex.
Proof.
  destruct mix_handle as (h & Hr & A & Mu & Ac). exists h. do 2 eexists. exists DJ_ex. split; [exact Hr|].
  split; [apply accepts_ok; [exact Hr|rewrite A; vm_compute; reflexivity]|].
  split; [apply accepts_ok; [exact Hr|rewrite A; vm_compute; reflexivity]|].
  split; [exact Mu|]. split; [|split; [now apply mix_not_switching|split; [|split; [|exact J_ex_field]]]].
  - intros i nm Hi N. rewrite A in Hi. cbn [In] in Hi.
    destruct Hi as [<- | [<- | [<- | [<- | [<- | []]]]]]; vm_compute in N; injection N as <-; unfold covered; cbn [In any_gradient].
    1-4: left; tauto.
    right. left. unfold dot, gN, vadd. cbn. repeat split; try lra. left. reflexivity.
  - split; cbn [rho al be DJ_ex]; change threshold with (1 * / 100000000000000); lra.
  - split; [left; cbn; tauto|]. intros i Hi. cbn [encode] in Hi |- *. unfold J_ex, O_ex.
    do 20 (destruct i as [|i]; [cbn; lra|]). exfalso. cbn in Hi. lia.
Qed.

(** revTPSS exchange: the setup of potential mode is accepted, but no input whatsoever gives
    a potential. *)
Theorem C13_revtpssx_refuted :
  exists h hp : handle ROps, Api.run xcfun_new [CSet "revtpssx" (1 : ROps)] = Ok h /\
    xcfun_eval_setup h XC_A_B_2ND_TAYLOR XC_POTENTIAL 1 = Ok (hp, 0%Z) /\
    forall junk buf x ws, xcfun_eval junk hp buf x <> Ok ws.
Proof.
  destruct (make (K := ROps) [("revtpssx"%string, XC_REVTPSSX_id, 1)] eq_refl) as (h & Eh & Hr & A & _).
  exists h. eexists. split; [exact Eh|].
  assert (S : xcfun_eval_setup h XC_A_B_2ND_TAYLOR XC_POTENTIAL 1 = Ok (mkH (h_active h) 1 (h_depends h) XC_POTENTIAL XC_A_B_2ND_TAYLOR (h_settings h), 0%Z))
    by (apply accepts_ok; [exact Hr|rewrite A; vm_compute; reflexivity]).
  split; [exact S|]. intros junk buf x ws. apply (revtpssx_no_potential junk h _ XC_A_B_2ND_TAYLOR 1 buf x ws Hr S).
  rewrite A. vm_compute. now left.
Qed.
Print Assumptions C13_revtpssx_refuted.

(** For functionals of the density alone potential mode accepts the variable sets with
    gradient entries too, but then both potential slots hold the derivative with respect to
    the first density: the second one is wrong whenever the two densities differ. *)
Definition X_ab (a b : R) (i : nat) : R := nth i [a; b; 0; 0; 0] 0.
Definition D_ab (a b : R) : dens :=
  {| al := {| rho := a; grad := V 0 0 0; hes := Hes 0 0 0 0 0 0; kin := 0; jp := 0 |};
     be := {| rho := b; grad := V 0 0 0; hes := Hes 0 0 0 0 0 0; kin := 0; jp := 0 |} |}.
Lemma X_ab_describes a b : describes XC_A_B_GAA_GAB_GBB (X_ab a b) (D_ab a b).
Proof.
  split; [left; cbn; tauto|]. intros i Hi. unfold X_ab. do 5 (destruct i as [|i]; [cbn; unfold dot; cbn; lra|]). exfalso. cbn in Hi. lia.
Qed.
Lemma library_energy_fun (h0 : handle ROps) x e e' : library_energy h0 x e -> library_energy h0 x e' -> e = e'.
Proof. intros (w & E & <-) (w' & E' & <-). congruence. Qed.
Lemma d_43 u t0 : 0 < u + t0 -> is_derive (fun t => Rpower (u + t) (4 / 3)) t0 (4 / 3 * Rpower (u + t0) (1 / 3)).
Proof.
  intro P. unfold Rpower. auto_derive; [lra|].
  replace (exp (4 / 3 * ln (u + t0))) with (exp (1 / 3 * ln (u + t0)) * (u + t0)).
  - field. lra.
  - rewrite <- (exp_ln (u + t0)) at 2 by lra. rewrite <- exp_plus. f_equal. lra.
Qed.
Lemma pow13_inj a b : 0 < a -> 0 < b -> Rpower a (1 / 3) = Rpower b (1 / 3) -> a = b.
Proof. intros A B E. unfold Rpower in E. apply exp_inv in E. apply ln_inv; lra. Qed.
Lemma der_unique (G : R -> R) u v : is_derive G 0 u -> is_derive G 0 v -> u = v.
Proof. intros A B. apply is_derive_unique in A. apply is_derive_unique in B. congruence. Qed.
Lemma loc_gt c u : c < u -> locally 0 (fun t => c < u + t).
Proof.
  intro L. exists (mkposreal (u - c) ltac:(lra)). intros t Ht. change (Rabs (t - 0) < u - c) in Ht. apply Rabs_def2 in Ht. lra.
Qed.
Theorem C13_second_slot_refuted :
  exists h hp h0 : handle ROps, Api.run xcfun_new [CSet "slaterx" (1 : ROps)] = Ok h /\
    xcfun_eval_setup h XC_A_B_GAA_GAB_GBB XC_POTENTIAL 1 = Ok (hp, 0%Z) /\
    xcfun_eval_setup h XC_A_B_GAA_GAB_GBB XC_PARTIAL_DERIVATIVES 0 = Ok (h0, 0%Z) /\
    forall junk buf a b, threshold < a -> threshold < b -> a <> b ->
      exists ws, xcfun_eval junk hp buf (X_ab a b) = Ok ws /\
        pderiv (library_energy h0) [0%nat] (X_ab a b) (rd buf ws 1) /\ ~ pderiv (library_energy h0) [1%nat] (X_ab a b) (rd buf ws 2).
Proof.
  destruct slater_handle as (h & Eh & Hr & A & S1 & S').
  assert (S : xcfun_eval_setup h XC_A_B_GAA_GAB_GBB XC_POTENTIAL 1 = Ok (mkH (h_active h) 1 (h_depends h) XC_POTENTIAL XC_A_B_GAA_GAB_GBB (h_settings h), 0%Z))
    by (apply accepts_ok; [exact Hr|rewrite A; vm_compute; reflexivity]).
  assert (S0 : xcfun_eval_setup h XC_A_B_GAA_GAB_GBB XC_PARTIAL_DERIVATIVES 0 = Ok (mkH (h_active h) 0 (h_depends h) XC_PARTIAL_DERIVATIVES XC_A_B_GAA_GAB_GBB (h_settings h), 0%Z))
    by (apply accepts_ok; [exact Hr|rewrite A; vm_compute; reflexivity]).
  exists h. do 2 eexists. split; [exact Eh|]. split; [exact S|]. split; [exact S0|].
  intros junk buf a b Ta Tb Nab. revert S S0.
  generalize (@mkH ROps (h_active h) 1 (h_depends h) XC_POTENTIAL XC_A_B_GAA_GAB_GBB (h_settings h)) as hp.
  generalize (@mkH ROps (h_active h) 0 (h_depends h) XC_PARTIAL_DERIVATIVES XC_A_B_GAA_GAB_GBB (h_settings h)) as h0. intros h0 hp S S0.
  assert (T0 : 0 < threshold) by (change threshold with (1 * / 100000000000000); lra).
  assert (Ac : all_covered h (D_ab a b)) by (intros i nm Hi N; rewrite A in Hi; destruct Hi as [<-|[]]; vm_compute in N; injection N as <-; left; now left).
  assert (Ns : none_switching h) by (intros i nm Hi N; rewrite A in Hi; destruct Hi as [<-|[]]; vm_compute in N; injection N as <-; intro X; repeat (destruct X as [X|X]; [discriminate X|]); exact X).
  assert (Mu : 0 < (h_settings h XC_RANGESEP_MU : R)) by (rewrite S'; cbn [fold_left]; unfold wr_settings, upd; cbn; unfold Q2R; cbn; lra).
  assert (Sa : strictly_above (D_ab a b)) by (split; cbn; lra).
  destruct (C33_potential_defined junk h hp _ 1 _ buf (X_ab a b) Hr S Mu Ac (strictly _ Sa) (X_ab_describes a b)) as [ws Ev].
  pose proof (setup_smooth h h0 _ _ _ _ _ Hr S0 Ns Sa (X_ab_describes a b)) as Sm.
  exists ws. split; [exact Ev|].
  (* the two slots *)
  assert (Sl : exists w, pderiv (library_energy h0) [0%nat] (X_ab a b) w /\ rd buf ws 1 = w /\ rd buf ws 2 = w).
  { destruct (setup_gives_valid h _ _ _ hp S) as (Sv & Evv & _ & _ & Ha & _).
    destruct (setup_valid_vars _ Sv) as [vd E]. rewrite Evv in E.
    pose proof (eval_good junk h hp _ _ 1 buf (X_ab a b) ws vd Hr E S Ev) as G.
    assert (G0 : good_setup h h0 XC_A_B_GAA_GAB_GBB XC_PARTIAL_DERIVATIVES 0 vd).
    { eapply good_other; [exact G|exact Hr|exact S0|cbn; tauto|lia]. }
    pose proof (setup_twin _ _ _ _ _ _ _ _ S S0) as W.
    pose proof (eval_potential junk h hp _ 1 vd buf (X_ab a b) Hr S G) as R. rewrite Ev in R.
    assert (Gg : xcfun_is_gga hp = false).
    { destruct (xcfun_is_gga hp) eqn:Gg; [|reflexivity]. exfalso.
      apply (is_gga_iff hp (reachable_wf hp (reach_setup h hp _ _ 1 _ Hr S))) in Gg. destruct Gg as (i & Hi & B). rewrite Ha, A in Hi. destruct Hi as [<-|[]]. vm_compute in B. discriminate. }
    assert (L : Z.to_nat (v_len vd) = 5%nat) by (vm_compute in E; injection E as <-; reflexivity).
    unfold pot_val in R. rewrite Gg, L in R. cbn [single inpos Nat.eqb orb] in R.
    destruct (first hp (X_ab a b) 0) as [u| | |] eqn:Eu; cbn [obind orl] in R; try contradiction.
    exists (snd u). split; [|split; [exact (R 1%nat _ eq_refl)|exact (R 2%nat _ eq_refl)]].
    unfold first in Eu. rewrite <- (twin_energy hp h0 _ _ _ W) in Eu.
    apply (pderiv_F (fun x e => energy h0 0 x (czero 0) = Ok (e : rct 0))).
    - intros y e Hx. unfold library_energy. apply (order0 _ _ _ _ _ _ _ _ G0). exact Hx.
    - apply (coef_deriv h0 _ Sm). cbn [coef]. eauto. }
  destruct Sl as (w & Pw & R1 & R2). split; [exact (eq_ind _ (fun q => pderiv _ _ _ q) Pw _ (eq_sym R1))|].
  intro Q. pose proof (eq_ind _ (fun q => pderiv _ _ _ q) Q _ R2) as P. clear Q. cbv beta in P.
  (* the energy *)
  assert (En : forall u v, threshold < u -> threshold < v -> forall e, library_energy h0 (X_ab u v) e -> e = - kS * (Rpower u (4 / 3) + Rpower v (4 / 3))).
  { intros u v Hu Hv e Le. apply (library_energy_fun h0 _ _ _ Le).
    assert (Th : tau_honest h XC_A_B_GAA_GAB_GBB) by (intro X; rewrite A in X; cbn in X; destruct X as [X|[]]; discriminate X).
    assert (Ab : above (D_ab u v)) by (split; cbn; lra).
    destruct (described_energy h h0 _ _ _ Hr S0 Th Ab (X_ab_describes u v)) as [[vd G] E].
    apply (lib_energy _ _ _ _ _ _ G). rewrite E, A, slater_rsum by exact S1. reflexivity. }
  destruct Pw as (G1 & L1 & D1), P as (G2 & L2 & D2). cbn [pderiv] in L1, L2.
  assert (B0 : forall t, bump (X_ab a b) 0 t = X_ab (a + t) b) by (intro t; apply FunctionalExtensionality.functional_extensionality; intros [|[|[|[|[|[|i]]]]]]; reflexivity).
  assert (B1 : forall t, bump (X_ab a b) 1 t = X_ab a (b + t)) by (intro t; apply FunctionalExtensionality.functional_extensionality; intros [|[|[|[|[|[|i]]]]]]; reflexivity).
  assert (Ka : locally 0 (fun t => threshold < a + t)) by (now apply loc_gt).
  assert (Kb : locally 0 (fun t => threshold < b + t)) by (now apply loc_gt).
  assert (W1 : w = - kS * (4 / 3 * Rpower a (1 / 3))).
  { apply (der_unique G1); [exact D1|].
    apply (is_derive_ext_loc (fun t => - kS * (Rpower (a + t) (4 / 3) + Rpower b (4 / 3)))).
    - generalize (filter_and _ _ L1 Ka). apply filter_imp. intros t [Ht Hk]. rewrite B0 in Ht. symmetry. exact (En _ _ Hk Tb _ Ht).
    - pose proof (d_43 a 0 ltac:(lra)) as X. rewrite Rplus_0_r in X.
      eapply is_derive_val; [apply d_mult; [apply d_const|apply d_plus; [exact X|apply d_const]]|]. cbn beta. ring. }
  assert (W2 : w = - kS * (4 / 3 * Rpower b (1 / 3))).
  { apply (der_unique G2); [exact D2|].
    apply (is_derive_ext_loc (fun t => - kS * (Rpower a (4 / 3) + Rpower (b + t) (4 / 3)))).
    - generalize (filter_and _ _ L2 Kb). apply filter_imp. intros t [Ht Hk]. rewrite B1 in Ht. symmetry. exact (En _ _ Ta Hk _ Ht).
    - pose proof (d_43 b 0 ltac:(lra)) as X. rewrite Rplus_0_r in X.
      eapply is_derive_val; [apply d_mult; [apply d_const|apply d_plus; [apply d_const|exact X]]|]. cbn beta. ring. }
  apply Nab. apply pow13_inj; [lra|lra|].
  pose proof (Rpower_pos (81 / (32 * PI)) (1 / 3)) as Kp. rewrite W1 in W2.
  apply (Rmult_eq_reg_l (- kS * (4 / 3))); [lra|]. nra.
Qed.
Print Assumptions C13_second_slot_refuted.
