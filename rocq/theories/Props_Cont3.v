(** * Property theorems: potentials have no jumps (C43) *)
From Coq Require Import Reals QArith Qreals ZArith Arith Lia Lra List Bool String.
From Coquelicot Require Import Coquelicot.
From Verif Require Import Scalar RInst Tables Api SpecApi ApiProofs ApiProofs2 CTaylor CtAlg TMath Fps TFam TExp Ad Br Expr Densvars Functionals
  Eval Sem AdEval SpecEval Layout EvalSem EvalProps Taint EvalExt EvalR EvalReal EvalApi Props_Eval Props_Deriv RSem Itv Dom Phys EnergyR Safe Pw92 Mk Props_Dens Props_Dens2
  VarsRel PotSlots Dead Props_Pot Smooth Props_Smooth Cont SmoothAway Props_Cont Cont2 Props_Cont2 Props_Smooth2.
Import ListNotations.
Local Open Scope outcome_scope.
Local Open Scope R_scope.

(** ** Inputs of the second order evaluations, with the unused entries left at the given values *)
Definition gfull (y : nat -> R) (k s : nat) (i : nat) : rct 2 :=
  let o := if Nat.leb 10 i then 10%nat else 0%nat in
  if Nat.ltb (i - o) 4 then ((y i, y (o + der k (i - o))%nat), (if Nat.eqb i s then 1 else 0, 0)) else rconst 2 (y i).
Lemma gfull_c0 y k s i : c0 2 (gfull y k s i) = y i.
Proof. unfold gfull. destruct (Nat.ltb _ 4); reflexivity. Qed.
Lemma gfull_tends x k s i : tc (around x) 2 (fun y => gfull y k s i) (gfull x k s i).
Proof.
  unfold gfull. destruct (Nat.ltb _ 4).
  - cbn [tc fst snd]. repeat split; first [apply tends_in|apply tends_cst].
  - apply tc_const; [apply around_filter|apply tends_in].
Qed.
Lemma gin_gfull y k s i bs : (forall b, In b bs -> b = 0%nat \/ b = 10%nat) -> core bs i = true -> gin y k s i = gfull y k s i.
Proof.
  intros Hb C. destruct (core_in bs i C) as (b & q & Ib & -> & Hq). rewrite (gin_core bs Hb b q k s y Ib Hq). unfold gfull.
  destruct (Hb b Ib) as [-> | ->]; do 4 (destruct q as [|q]; [reflexivity|]); lia.
Qed.

Section POTC.
Variables (h hp h0 : handle ROps) (v o : Z) (vd : vars_data).
Hypothesis Hr : reachable h.
Hypothesis S : xcfun_eval_setup h v XC_POTENTIAL o = Ok (hp, 0%Z).
Hypothesis S0 : xcfun_eval_setup h v XC_PARTIAL_DERIVATIVES 0 = Ok (h0, 0%Z).
Hypothesis NR : ~ In XC_REVTPSSX_id (h_active h).
Hypothesis G : good_setup h hp v XC_POTENTIAL o vd.
Hypothesis G0 : good_setup h h0 v XC_PARTIAL_DERIVATIVES 0 vd.
Let W : twin hp h0 := setup_twin _ _ _ _ _ _ _ _ S S0.
Variable x : nat -> R.
Hypothesis Sm : smooth h0 x.
Let n := Z.to_nat (v_len vd).

Lemma first_tends i a : first hp x i = Ok a -> exists u, around x (fun y => first hp y i = Ok (u y)) /\ tc (around x) 1 u a.
Proof.
  unfold first. rewrite <- (twin_energy hp h0 _ _ _ W). intro E.
  destruct (energy_tends (around x) 1 h0 (fun y => s1 (K := ROps) y (Some i)) (s1 (K := ROps) x (Some i)) a ltac:(lia) (seeds_1 x (Some i)) Sm E) as (u & A & T).
  exists u. split; [|exact T]. generalize A. apply filter_imp. intros y Y. now rewrite <- (twin_energy hp h0 _ _ _ W).
Qed.
Lemma second_tends k s a : In v [XC_N_2ND_TAYLOR; XC_A_B_2ND_TAYLOR] -> energy hp 2 (gin x k s) (czero 2) = Ok a ->
  exists u, around x (fun y => energy hp 2 (gin y k s) (czero 2) = Ok (u y)) /\ tc (around x) 2 u a.
Proof.
  intros Hv. rewrite <- (twin_energy hp h0 _ _ _ W).
  assert (Eq : forall y, energy h0 2 (gin y k s) (czero 2) = energy h0 2 (gfull y k s) (czero 2)).
  { intro y. apply (ind_core h hp h0 v o vd Hr Hv S S0 NR G0). intros i Hi. exact (gin_gfull y k s i _ (bs_cases v Hv) Hi). }
  rewrite Eq. intro E.
  assert (Sm' : smooth h0 (fun i => c0 2 (gfull x k s i))).
  { replace (fun i => c0 2 (gfull x k s i)) with x; [exact Sm|]. apply FunctionalExtensionality.functional_extensionality. intro i. symmetry. apply gfull_c0. }
  destruct (energy_tends (around x) 2 h0 (fun y => gfull y k s) (gfull x k s) a ltac:(lia) (gfull_tends x k s) Sm' E) as (u & A & T).
  exists u. split; [|exact T]. generalize A. apply filter_imp. intros y Y. rewrite <- (twin_energy hp h0 _ _ _ W), Eq. exact Y.
Qed.
Lemma corr_tends b c : In v [XC_N_2ND_TAYLOR; XC_A_B_2ND_TAYLOR] -> corr hp x b = Ok c ->
  exists u, around x (fun y => corr hp y b = Ok (u y)) /\ tends (around x) u c.
Proof.
  intros Hv. unfold corr.
  destruct (energy hp 2 (gin x 0 (1 + b)) (czero 2)) as [a1| | |] eqn:E1; cbn [obind]; try discriminate.
  destruct (energy hp 2 (gin x 1 (2 + b)) (czero 2)) as [a2| | |] eqn:E2; cbn [obind]; try discriminate.
  destruct (energy hp 2 (gin x 2 (3 + b)) (czero 2)) as [a3| | |] eqn:E3; cbn [obind]; try discriminate.
  intro E. injection E as <-.
  destruct (second_tends _ _ _ Hv E1) as (u1 & A1 & T1). destruct (second_tends _ _ _ Hv E2) as (u2 & A2 & T2). destruct (second_tends _ _ _ Hv E3) as (u3 & A3 & T3).
  exists (fun y => snd (snd (u1 y)) + snd (snd (u2 y)) + snd (snd (u3 y))). split.
  - generalize (filter_and _ _ A1 (filter_and _ _ A2 A3)). apply filter_imp. intros y (Y1 & Y2 & Y3). now rewrite Y1, Y2, Y3.
  - pose proof (proj2 (proj2 T1)) as B1. pose proof (proj2 (proj2 T2)) as B2. pose proof (proj2 (proj2 T3)) as B3. cbn [tc] in B1, B2, B3.
    apply tends_add; [apply around_filter|apply tends_add; [apply around_filter|exact B1|exact B2]|exact B3].
Qed.
Lemma gga_v : xcfun_is_gga hp = true -> In v [XC_N_2ND_TAYLOR; XC_A_B_2ND_TAYLOR].
Proof.
  intro Gg. pose proof (gs_vars _ _ _ _ _ _ G) as Ev. destruct (pot_vars h hp v o vd Hr S G Gg) as [[V _]|[V _]]; rewrite Ev in V; rewrite V; cbn; tauto.
Qed.
Definition nslots : nat := if single n then 2 else 3.
Lemma pot_tends l : pot_val hp vd x = Ok l -> List.length l = nslots /\
  exists ul, around x (fun y => pot_val hp vd y = Ok (ul y) /\ List.length (ul y) = nslots) /\ forall p, tends (around x) (fun y => nth p (ul y) 0) (nth p l 0).
Proof.
  unfold pot_val, nslots. fold n. intro H. pose proof (around_filter x) as FF.
  destruct (first hp x 0) as [a| | |] eqn:Ea; cbn [obind] in H; try discriminate.
  destruct (first_tends _ _ Ea) as (ua & Aa & [Ta Ta']). cbn [tc fst snd] in Ta, Ta'.
  destruct (single n).
  - destruct (xcfun_is_gga hp) eqn:Gg.
    + destruct (corr hp x 0) as [c| | |] eqn:Ec; cbn [obind] in H; try discriminate. injection H as <-.
      destruct (corr_tends _ _ (gga_v Gg) Ec) as (uc & Ac & Tc). split; [reflexivity|].
      exists (fun y => [fst (ua y); snd (ua y) - uc y]). split.
      * generalize (filter_and _ _ Aa Ac). apply filter_imp. intros y [Y1 Y2]. rewrite Y1, Y2. now split.
      * intro p. destruct p as [|[|p]]; cbn [nth]; [exact Ta|apply tends_sub; assumption|]. destruct p; apply tends_const; exact FF.
    + injection H as <-. split; [reflexivity|]. exists (fun y => [fst (ua y); snd (ua y)]). split.
      * generalize Aa. apply filter_imp. intros y Y1. rewrite Y1. now split.
      * intro p. destruct p as [|[|p]]; cbn [nth]; [exact Ta|exact Ta'|]. destruct p; apply tends_const; exact FF.
  - destruct (first hp x (inpos n)) as [b| | |] eqn:Eb; cbn [obind] in H; try discriminate.
    destruct (first_tends _ _ Eb) as (ub & Ab & [Tb Tb']). cbn [tc fst snd] in Tb, Tb'.
    destruct (xcfun_is_gga hp) eqn:Gg.
    + destruct (corr hp x 0) as [c| | |] eqn:Ec; cbn [obind] in H; try discriminate.
      destruct (corr hp x 10) as [c'| | |] eqn:Ec'; cbn [obind] in H; try discriminate. injection H as <-.
      destruct (corr_tends _ _ (gga_v Gg) Ec) as (uc & Ac & Tc). destruct (corr_tends _ _ (gga_v Gg) Ec') as (uc' & Ac' & Tc'). split; [reflexivity|].
      exists (fun y => [fst (ua y); snd (ua y) - uc y; snd (ub y) - uc' y]). split.
      * generalize (filter_and _ _ (filter_and _ _ Aa Ab) (filter_and _ _ Ac Ac')). apply filter_imp. intros y [[Y1 Y2] [Y3 Y4]]. rewrite Y1. cbn [obind]. rewrite Y2, Y3, Y4. now split.
      * intro p. destruct p as [|[|[|p]]]; cbn [nth]; [exact Ta|apply tends_sub; assumption|apply tends_sub; assumption|]. destruct p; apply tends_const; exact FF.
    + injection H as <-. split; [reflexivity|]. exists (fun y => [fst (ua y); snd (ua y); snd (ub y)]). split.
      * generalize (filter_and _ _ Aa Ab). apply filter_imp. intros y [Y1 Y2]. rewrite Y1. cbn [obind]. rewrite Y2. now split.
      * intro p. destruct p as [|[|[|p]]]; cbn [nth]; [exact Ta|exact Ta'|exact Tb'|]. destruct p; apply tends_const; exact FF.
Qed.
Lemma pot_ext y y' : (forall i, (i < n)%nat -> y i = y' i) -> pot_val hp vd y = pot_val hp vd y'.
Proof.
  intro H. pose proof (gs_ready _ _ _ _ _ _ G) as Rd.
  assert (Ve : vars_entry (h_vars hp) = Ok vd) by (rewrite (gs_vars _ _ _ _ _ _ G); apply (gs_entry _ _ _ _ _ _ G)).
  assert (F : forall i, first hp y i = first hp y' i).
  { intro i. unfold first. apply (energy_ext hp vd); [apply Rd|exact Ve|]. intros m Hm. unfold s1. now rewrite H. }
  assert (C : xcfun_is_gga hp = true -> forall b, corr hp y b = corr hp y' b).
  { intros Gg b. assert (N : n = 10%nat \/ n = 20%nat) by (destruct (pot_vars h hp v o vd Hr S G Gg) as [[_ L]|[_ L]]; auto).
    assert (Gi : forall k s, (k < 3)%nat -> energy hp 2 (gin y k s) (czero 2) = energy hp 2 (gin y' k s) (czero 2)).
    { intros k s Hk. apply (energy_ext hp vd); [apply Rd|exact Ve|]. intros m Hm. fold n in Hm. unfold gin.
      assert (Dr : forall q, (der k q <= 9)%nat).
      { intro q. destruct q as [|q]; cbn [der]; [lia|]. unfold hx. destruct (Nat.lt_ge_cases (3 * k + q) 9) as [L|L].
        - revert L. generalize (3 * k + q)%nat. intros t Ht. do 9 (destruct t as [|t]; [cbn; lia|]). lia.
        - rewrite nth_overflow; [lia|cbn; lia]. }
      destruct (Nat.ltb_spec (m - (if Nat.leb 10 m then 10 else 0))%nat 4) as [L|L]; [|reflexivity].
      rewrite (H m Hm), (H ((if Nat.leb 10 m then 10 else 0) + der k (m - (if Nat.leb 10 m then 10 else 0)))%nat); [reflexivity|].
      pose proof (Dr (m - (if Nat.leb 10 m then 10 else 0)))%nat as D9. destruct (Nat.leb_spec 10 m); destruct N as [N|N]; lia. }
    unfold corr. rewrite !Gi by lia. reflexivity. }
  unfold pot_val. rewrite !F. destruct (xcfun_is_gga hp); [rewrite !(C eq_refl)|]; reflexivity.
Qed.
End POTC.

(** C43 (potentials).  At an input where potential mode succeeds, no density is regularised and no branch boundary
    is hit, the energy and the potentials are returned at all nearby inputs and are continuous functions of all
    inputs together.  Variable sets with one density have one potential, the others two. *)
Theorem C43_potential :
  forall junk (h hp h0 : handle ROps) v vd o buf x ws p, reachable h ->
    vars_entry v = Ok vd ->
    xcfun_eval_setup h v XC_POTENTIAL o = Ok (hp, 0%Z) ->
    xcfun_eval_setup h v XC_PARTIAL_DERIVATIVES 0 = Ok (h0, 0%Z) ->
    xcfun_eval junk hp buf x = Ok ws -> smooth h0 x ->
    (p < if existsb (Z.eqb (v_len vd)) [1; 10]%Z then 2 else 3)%nat ->
    slot_continuous (Z.to_nat (v_len vd)) hp p x (rd buf ws p).
Proof.
  intros junk h hp h0 v vd o buf x ws p Hr E S S0 Ev Sm Hp eps He.
  assert (NR : ~ In XC_REVTPSSX_id (h_active h)) by (intro X; exact (revtpssx_no_potential junk h hp v o buf x ws Hr S X Ev)).
  pose proof (eval_good junk h hp v _ o buf x ws vd Hr E S Ev) as G.
  assert (G0 : good_setup h h0 v XC_PARTIAL_DERIVATIVES 0 vd).
  { eapply good_other; [exact G|exact Hr|exact S0|cbn; tauto|lia]. }
  pose proof (eval_potential junk h hp v o vd buf x Hr S G) as R. rewrite Ev in R.
  destruct (pot_val hp vd x) as [l| | |] eqn:PV; cbn [orl] in R; try contradiction.
  destruct (pot_tends h hp h0 v o vd Hr S S0 NR G G0 x Sm l PV) as (Ll & ul & A & T).
  assert (Hn : (p < nslots vd)%nat).
  { pose proof (vlen_pos _ _ E). unfold nslots, single. cbn [existsb] in Hp.
    replace (Nat.eqb (Z.to_nat (v_len vd)) 1) with (Z.eqb (v_len vd) 1) by (destruct (Z.eqb_spec (v_len vd) 1), (Nat.eqb_spec (Z.to_nat (v_len vd)) 1); lia).
    replace (Nat.eqb (Z.to_nat (v_len vd)) 10) with (Z.eqb (v_len vd) 10) by (destruct (Z.eqb_spec (v_len vd) 10), (Nat.eqb_spec (Z.to_nat (v_len vd)) 10); lia).
    rewrite orb_false_r in Hp. exact Hp. }
  assert (Rp : rd buf ws p = nth p l 0).
  { apply R. apply nth_error_nth'. rewrite Ll. exact Hn. }
  rewrite Rp. destruct (around_eps x _ _ _ A (T p) eps He) as (d & D & H). exists d. split; [exact D|]. intros y Y.
  destruct (H _ (close_nearby _ d x y D Y)) as [[Py Ly] Q]. exists (nth p (ul (mixin (Z.to_nat (v_len vd)) x y)) 0). split; [|exact Q].
  rewrite (pot_ext h hp v o vd Hr S G _ y) in Py.
  2:{ intros i Hi. unfold mixin. destruct (Nat.ltb_spec i (Z.to_nat (v_len vd))); [reflexivity|lia]. }
  intros junk' buf'. pose proof (eval_potential junk' h hp v o vd buf' y Hr S G) as R'. rewrite Py in R'.
  destruct (xcfun_eval junk' hp buf' y) as [ws'| | |]; cbn [orl] in R'; try contradiction. exists ws'. split; [reflexivity|].
  apply R'. apply nth_error_nth'. rewrite Ly. exact Hn.
Qed.
Print Assumptions C43_potential.

(** The hypotheses hold at densities off the switching points. *)
Theorem C43_potential_off_switches :
  forall junk (h hp h0 : handle ROps) v vd o D buf x, reachable h ->
    vars_entry v = Ok vd ->
    xcfun_eval_setup h v XC_POTENTIAL o = Ok (hp, 0%Z) ->
    xcfun_eval_setup h v XC_PARTIAL_DERIVATIVES 0 = Ok (h0, 0%Z) ->
    0 < (h_settings h XC_RANGESEP_MU : R) -> all_covered h D -> none_at_switch h D ->
    strictly_above D -> describes v x D ->
    exists ws, xcfun_eval junk hp buf x = Ok ws /\
      forall p, (p < if existsb (Z.eqb (v_len vd)) [1; 10]%Z then 2 else 3)%nat -> slot_continuous (Z.to_nat (v_len vd)) hp p x (rd buf ws p).
Proof.
  intros junk h hp h0 v vd o D buf x Hr E S S0 Mu Ac Ns Sa De.
  destruct (C33_potential_defined junk h hp v o D buf x Hr S Mu Ac (strictly D Sa) De) as [ws Ev].
  exists ws. split; [exact Ev|]. intros p Hp.
  exact (C43_potential junk h hp h0 v vd o buf x ws p Hr E S S0 Ev (off_smooth h h0 v _ _ D x Hr S0 Ns Sa De) Hp).
Qed.
Print Assumptions C43_potential_off_switches.

(** A concrete case: Becke exchange, Lee-Yang-Parr correlation and B97 exchange from a second order expansion. *)
Example C43_potential_example : exists (h hp h0 : handle ROps) vd D x, reachable h /\ h_active h = [6; 16; 60]%nat /\
  vars_entry XC_A_B_2ND_TAYLOR = Ok vd /\ v_len vd = 20%Z /\
  xcfun_eval_setup h XC_A_B_2ND_TAYLOR XC_POTENTIAL 1 = Ok (hp, 0%Z) /\
  xcfun_eval_setup h XC_A_B_2ND_TAYLOR XC_PARTIAL_DERIVATIVES 0 = Ok (h0, 0%Z) /\
  0 < (h_settings h XC_RANGESEP_MU : R) /\ all_covered h D /\ none_at_switch h D /\ strictly_above D /\ describes XC_A_B_2ND_TAYLOR x D.
Proof.
  destruct b_handle as (h & Hr & A & Mu & Ac & Ns). exists h.
  do 3 eexists. exists D_b. eexists. split; [exact Hr|]. split; [exact A|]. split; [vm_compute; reflexivity|]. split; [reflexivity|].
  split; [apply accepts_ok; [exact Hr|rewrite A; vm_compute; reflexivity]|].
  split; [apply accepts_ok; [exact Hr|rewrite A; vm_compute; reflexivity]|].
  split; [exact Mu|]. split; [exact Ac|]. split; [exact Ns|].
  split; [split; cbn [rho al be D_b]; change threshold with (1 * / 100000000000000); lra|].
  apply encode_describes; cbn; tauto.
Qed.
