(** * Property theorems: derivatives of functionals that switch between formulas (C10, C11, C13, C43)
    The theorems of Props_Smooth exclude every functional that switches between formulas.
    Here nine functionals that compare numbers are included at every density where none of
    their comparisons is met with equality, and the six B97 functionals, which take absolute
    values, at every density with nonzero gradients.  The ten functionals of the SCAN family and the
    three TPSS correlation functionals, which take the larger of two energies, are included where none of their
    comparisons is met with equality.  Only the three Becke-Roussel functionals are left out. *)
From Coq Require Import Reals QArith Qreals ZArith Arith Lia Lra List Bool String.
From Coquelicot Require Import Coquelicot.
From Verif Require Import Scalar RInst Tables Api SpecApi ApiProofs ApiProofs2 CTaylor CtAlg TMath Fps TFam TExp Ad Br Expr Densvars Functionals
  Eval Sem AdEval SpecEval Layout EvalSem EvalProps Taint EvalExt EvalR EvalReal EvalApi Props_Eval Props_Deriv RSem Itv Dom Phys EnergyR Safe Pw92 Mk Props_Dens Props_Dens2
  VarsRel PotSlots Dead Props_Pot Smooth Props_Smooth Cont SmoothAway Props_Cont Cont2 Props_Cont2 Published PubR Value PubX ContS ContR ContR2.
Import ListNotations.
Local Open Scope outcome_scope.
Local Open Scope R_scope.

Definition comparing : list string := ["BECKEX"; "BECKECORRX"; "BECKESRX"; "BECKECAMX"; "LDAERFX"; "PW91X"; "PW91K"; "PZ81C"; "P86C"]%string.
Definition b97_family : list string := ["B97X"; "B97C"; "B97_1X"; "B97_1C"; "B97_2X"; "B97_2C"]%string.
(** The larger of two energies is taken where they differ. *)
Definition max_off (beta : R -> R -> R) (D : dens) : Prop :=
  off_max beta (ntot D) (zet D) (stot D) (rho (al D)) (saa D) (rho (be D)) (sbb D).
(** Meta-GGAs away from their comparisons, from zero gradients and from the one-orbital kinetic energy. *)
Definition off_mgga (D : dens) (nm : string) : Prop :=
  let tau := kin (al D) + kin (be D) in
  (nm = "SCANX"%string /\ both_spins scan_x_reg 0 D) \/
  (nm = "RSCANX"%string /\ both_spins rscan_x_reg 0 D) \/
  (In nm ["RPPSCANX"; "R2SCANX"; "R4SCANX"]%string /\ both_spins r2scan_x_reg 0 D) \/
  (nm = "SCANC"%string /\ off_rs (ntot D) /\ off_tau (ntot D) (stot D) tau /\ nz_tau (ntot D) (stot D) tau /\
     alpha_scan (tf (ntot D) * ds_z (zet D)) (ntot D) (stot D) tau <> 1) \/
  (nm = "RSCANC"%string /\ off_rs (ntot D) /\ off_ief (alpha_rscan (tf_r (ntot D) * ds_z (zet D)) (ntot D) (stot D) tau)) \/
  (In nm ["RPPSCANC"; "R2SCANC"; "R4SCANC"]%string /\ off_rs (ntot D) /\ off_tau (ntot D) (stot D) tau /\ nz_tau (ntot D) (stot D) tau /\
     off_ief (alpha_r2scan (tf (ntot D) * ds_z (zet D)) (ntot D) (stot D) tau)) \/
  (nm = "TPSSC"%string /\ max_off beta_pbe D) \/
  (nm = "REVTPSSC"%string /\ max_off beta_rev D) \/
  (nm = "TPSSLOCC"%string /\ max_off beta_loc D).
Lemma mgga_regular st D i nm nm' f : above D -> nth_error item_names i = Some nm -> nth_error functionals i = Some (nm', f) -> off_mgga D nm ->
  i <> XC_REVTPSSX_id /\ regular st (fun _ => 0) (dvar D) [] f.
Proof.
  intros Ab N F A. pose proof (phys_dvar D Ab) as P.
  destruct A as [[-> A]|[[-> A]|[[I' A]|[[-> A]|[[-> A]|[[I' A]|[[-> A]|[[-> A]|[-> A]]]]]]]]].
  - destruct A as [Aa Ab']. rewrite (name_index i _ 46%nat N eq_refl) in F |- *. injection F as _ <-. split; [discriminate|]. exact (scanx_regular st (fun _ => 0) (dvar D) P (dot_pos _) (dot_pos _) Aa Ab').
  - destruct A as [Aa Ab']. rewrite (name_index i _ 48%nat N eq_refl) in F |- *. injection F as _ <-. split; [discriminate|]. exact (rscanx_regular st (fun _ => 0) (dvar D) P (dot_pos _) (dot_pos _) Aa Ab').
  - destruct A as [Aa Ab']. cbn [In] in I'. destruct I' as [<-|[<-|[<-|[]]]].
    + rewrite (name_index i _ 50%nat N eq_refl) in F |- *. injection F as _ <-. split; [discriminate|]. apply (r2scanx_regular st (fun _ => 0) (dvar D) P _ (dot_pos _) (dot_pos _) Aa Ab'); cbn [In]; tauto.
    + rewrite (name_index i _ 52%nat N eq_refl) in F |- *. injection F as _ <-. split; [discriminate|]. apply (r2scanx_regular st (fun _ => 0) (dvar D) P _ (dot_pos _) (dot_pos _) Aa Ab'); cbn [In]; tauto.
    + rewrite (name_index i _ 54%nat N eq_refl) in F |- *. injection F as _ <-. split; [discriminate|]. apply (r2scanx_regular st (fun _ => 0) (dvar D) P _ (dot_pos _) (dot_pos _) Aa Ab'); cbn [In]; tauto.
  - destruct A as (A1 & A2 & A3 & A4). rewrite (name_index i _ 45%nat N eq_refl) in F |- *. injection F as _ <-. split; [discriminate|]. apply r_let; [exact (scanc_regular st (fun _ => 0) (dvar D) P A1 A2 A3 A4)|intros; exact Logic.I].
  - destruct A as (A1 & A2). rewrite (name_index i _ 47%nat N eq_refl) in F |- *. injection F as _ <-. split; [discriminate|]. apply r_let; [exact (rscanc_regular st (fun _ => 0) (dvar D) P A1 A2)|intros; exact Logic.I].
  - destruct A as (A1 & A2 & A3 & A4). cbn [In] in I'. destruct I' as [<-|[<-|[<-|[]]]].
    + rewrite (name_index i _ 49%nat N eq_refl) in F |- *. injection F as _ <-. split; [discriminate|]. apply r_let; [refine (r2scanc_regular st (fun _ => 0) (dvar D) P 0 A1 A2 A3 A4 _); lia|intros; exact Logic.I].
    + rewrite (name_index i _ 51%nat N eq_refl) in F |- *. injection F as _ <-. split; [discriminate|]. apply r_let; [refine (r2scanc_regular st (fun _ => 0) (dvar D) P 1 A1 A2 A3 A4 _); lia|intros; exact Logic.I].
    + rewrite (name_index i _ 53%nat N eq_refl) in F |- *. injection F as _ <-. split; [discriminate|]. apply r_let; [refine (r2scanc_regular st (fun _ => 0) (dvar D) P 2 A1 A2 A3 A4 _); lia|intros; exact Logic.I].
  - rewrite (name_index i _ 41%nat N eq_refl) in F |- *. injection F as _ <-. split; [discriminate|]. exact (tpssc_regular st (fun _ => 0) (dvar D) P A).
  - rewrite (name_index i _ 43%nat N eq_refl) in F |- *. injection F as _ <-. split; [discriminate|]. exact (revtpssc_regular st (fun _ => 0) (dvar D) P A).
  - rewrite (name_index i _ 75%nat N eq_refl) in F |- *. injection F as _ <-. split; [discriminate|]. exact (tpsslocc_regular st (fun _ => 0) (dvar D) P A).
Qed.
(** The functional called [nm] does not switch at density [D]. *)
Definition off_switches (mu : R) (D : dens) (nm : string) : Prop :=
  ~ In nm switching \/ off_mgga D nm \/ (In nm comparing /\ away mu D nm) \/
  (In nm b97_family /\ 0 < dot (grad (al D)) (grad (al D)) /\ 0 < dot (grad (be D)) (grad (be D))).
Definition none_at_switch (h : handle ROps) (D : dens) : Prop :=
  forall i nm, In i (h_active h) -> nth_error item_names i = Some nm -> off_switches (h_settings h XC_RANGESEP_MU) D nm.

Definition grads (f : fld) : bool := orb (fld_eqb f f_gaa) (fld_eqb f f_gbb).
Lemma static_all : forallb (fun i => match nth_error item_names i, nth_error functionals i with
     | Some nm, Some (_, e) => andb (orb (negb (existsb (String.eqb nm) comparing)) (nomax e)) (orb (negb (existsb (String.eqb nm) b97_family)) (andb (absok grads [] e) (negb (Nat.eqb i XC_REVTPSSX_id))))
     | _, _ => false end) (seq 0 78) = true.
Proof. vm_compute. reflexivity. Qed.
Lemma in_existsb nm l : In nm l -> existsb (String.eqb nm) l = true.
Proof. intro H. apply existsb_exists. exists nm. split; [exact H|apply String.eqb_refl]. Qed.
Lemma static i nm nm' e : (i < 78)%nat -> nth_error item_names i = Some nm -> nth_error functionals i = Some (nm', e) ->
  (In nm comparing -> nomax e = true) /\ (In nm b97_family -> absok grads [] e = true /\ i <> XC_REVTPSSX_id).
Proof.
  intros L En He. pose proof (proj1 (forallb_forall _ _) static_all i ltac:(apply in_seq; lia)) as X. cbv beta in X. rewrite En, He in X.
  apply andb_true_iff in X. destruct X as [X Y]. split; intro H; apply in_existsb in H.
  - rewrite H in X. exact X.
  - rewrite H in Y. cbn [negb orb] in Y. apply andb_true_iff in Y. destruct Y as [Y Z]. split; [exact Y|]. apply negb_true_iff in Z. now apply Nat.eqb_neq.
Qed.
Lemma comparing_switching nm : In nm comparing -> In nm branching.
Proof. intro H. cbn [In comparing] in H. repeat destruct H as [<-|H]; cbn; tauto. Qed.

Lemma off_smooth (h h0 : handle ROps) v m o D x : reachable h -> xcfun_eval_setup h v m o = Ok (h0, 0%Z) ->
  none_at_switch h D -> strictly_above D -> describes v x D -> smooth h0 x.
Proof.
  intros Hr S N A X. destruct (setup_gives_valid h v _ _ h0 S) as (Sv & Evv & _ & _ & Ea & Es).
  unfold smooth. rewrite Evv. destruct (dv_prog v) as [p|] eqn:Ep; [|exact Logic.I]. rewrite Es, Ea. split.
  - exact (densvars_regular _ _ _ _ _ A X Ep).
  - intros fl Er i nm e Hi He. pose proof (strictly D A) as Ab.
    assert (L : (i < 78)%nat) by now apply (reachable_wf h Hr). destruct (item_ex i L) as [nm' En].
    destruct (static i nm' nm e L En He) as [T1 T2].
    destruct (N i nm' Hi En) as [Ns|O].
    { apply plain_regular. pose proof (proj1 (forallb_forall _ _) plain_all i ltac:(apply in_seq; lia)) as Y. cbv beta in Y. rewrite En, He in Y.
      apply orb_true_iff in Y. destruct Y as [Y|Y]; [|exact Y]. exfalso. apply Ns. apply existsb_exists in Y. destruct Y as (s & Hs & Eq).
      apply String.eqb_eq in Eq. now subst s. }
    destruct (densvars_canonical (h_settings h) x v D p Ab X Ep) as (fl' & Ef & F).
    assert (Er' : rrun (h_settings h) x (fun _ => 0) p = Some fl).
    { rewrite <- Er. rewrite <- run0. f_equal. apply FunctionalExtensionality.functional_extensionality. intro. unfold dv_init. cbn. symmetry. apply Q2R_0. }
    rewrite Er' in Ef. injection Ef as <-.
    assert (Cl : i <> XC_REVTPSSX_id -> clean (fun _ => false) (provided v) e = true).
    { intro Ni. pose proof (reach_setup h h0 v _ _ _ Hr S) as Hr'.
      destruct (setup_valid_code h0 (reachable_wf h0 Hr') Sv) as (vd & E0 & Vs & _). rewrite Evv in E0.
      pose proof (flags_sound_ok i L Ni) as Fs. unfold flags_sound in Fs. rewrite He in Fs. eapply clean_imp; [|exact Fs].
      intros g Hg. unfold provided. rewrite E0. apply subset_declared with (2 := Hg). apply Vs. now rewrite Ea. }
    destruct O as [O|[[I' O]|[I' [Ga Gb]]]].
    + destruct (mgga_regular (h_settings h) D i nm' nm e Ab En He O) as [Ni Rg].
      apply (regular_clean _ (fun _ => 0) x (provided v) (dvar D) fl (fun g Hg => eq_sym (F g Hg))); [now apply Cl|exact Rg].
    + pose proof (T1 I') as Nm. destruct (away_settled (h_settings h) D i nm' nm e Ab L En He O) as [U|[Ni Se]].
      { apply settled_regular; [exact Nm|now apply unbroken_settled]. }
      apply (regular_clean _ (fun _ => 0) x (provided v) (dvar D) fl (fun g Hg => eq_sym (F g Hg))); [now apply Cl|].
      apply settled_regular; [exact Nm|exact Se].
    + destruct (T2 I') as [Ao Ni].
      apply (regular_clean _ (fun _ => 0) x (provided v) (dvar D) fl (fun g Hg => eq_sym (F g Hg))); [now apply Cl|].
      apply (absok_regular grads (h_settings h) (fun _ => 0) (dvar D)) with (l0 := []); [|constructor|exact Ao].
      intros g Hg. unfold grads in Hg. apply orb_true_iff in Hg. destruct Hg as [Hg|Hg]; destruct g; try discriminate Hg; cbn; lra.
Qed.

(** C10 off the switching points. *)
Theorem C10_off_switches :
  forall junk (h hp h0 : handle ROps) v vd o D buf x, reachable h ->
    vars_entry v = Ok vd ->
    xcfun_eval_setup h v XC_PARTIAL_DERIVATIVES o = Ok (hp, 0%Z) -> (o <= 3)%Z ->
    xcfun_eval_setup h v XC_PARTIAL_DERIVATIVES 0 = Ok (h0, 0%Z) ->
    0 < (h_settings h XC_RANGESEP_MU : R) -> all_covered h D -> none_at_switch h D ->
    strictly_above D -> describes v x D ->
    exists ws, xcfun_eval junk hp buf x = Ok ws /\
      forall p l, nth_error (graded (Z.to_nat (v_len vd)) (Z.to_nat o)) p = Some l -> pderiv (library_energy h0) l x (rd buf ws p).
Proof.
  intros junk h hp h0 v vd o D buf x Hr E S O3 S0 Mu Ac Ns Sa De.
  destruct (C33_partial_defined junk h hp v o D buf x Hr S O3 Mu Ac (strictly D Sa) De) as [ws Ev].
  exists ws. split; [exact Ev|]. intros p l N.
  exact (C10_partial_derivatives junk h hp h0 v vd o buf x ws p l Hr E S S0 Ev (off_smooth h h0 v _ _ D x Hr S0 Ns Sa De) N).
Qed.
Print Assumptions C10_off_switches.

(** C11 off the switching points. *)
Theorem C11_off_switches :
  forall junk (h hc h0 : handle ROps) v o D buf input, reachable h ->
    xcfun_eval_setup h v XC_CONTRACTED (Z.of_nat o) = Ok (hc, 0%Z) ->
    xcfun_eval_setup h v XC_PARTIAL_DERIVATIVES 0 = Ok (h0, 0%Z) ->
    0 < (h_settings h XC_RANGESEP_MU : R) -> all_covered h D -> none_at_switch h D ->
    strictly_above D -> describes v (fun i => input (i * 2 ^ o)%nat) D ->
    exists ws (g : pt o -> R), xcfun_eval junk hc buf input = Ok ws /\
      near o (fun z => library_energy h0 (fun i => ppoly o (fun s => input (i * 2 ^ o + s)%nat) z) (g z)) /\
      forall s, (s < 2 ^ o)%nat -> mixed o s g (rd buf ws s).
Proof.
  intros junk h hc h0 v o D buf input Hr S S0 Mu Ac Ns Sa De.
  destruct (C33_contracted_defined junk h hc v o D buf input Hr S Mu Ac (strictly D Sa) De) as [ws Ev].
  destruct (C11_contracted_derivatives junk h hc h0 v o buf input ws Hr S S0 Ev (off_smooth h h0 v _ _ D _ Hr S0 Ns Sa De)) as (g & A & B).
  exists ws, g. auto.
Qed.
Print Assumptions C11_off_switches.

(** C13 off the switching points. *)
Theorem C13_off_switches :
  forall junk (h hp h0 : handle ROps) v o buf J r D, reachable h ->
    In v [XC_N_2ND_TAYLOR; XC_A_B_2ND_TAYLOR] ->
    xcfun_eval_setup h v XC_POTENTIAL o = Ok (hp, 0%Z) ->
    xcfun_eval_setup h v XC_PARTIAL_DERIVATIVES 0 = Ok (h0, 0%Z) ->
    0 < (h_settings h XC_RANGESEP_MU : R) -> all_covered h D -> none_at_switch h D ->
    strictly_above D -> describes v (J r) D ->
    density_field (densities v) J r ->
    exists ws, xcfun_eval junk hp buf (J r) = Ok ws /\ library_energy h0 (J r) (rd buf ws 0) /\
    forall c b, nth_error (densities v) c = Some b ->
      functional_derivative (library_energy h0) b J r (rd buf ws (1 + c)).
Proof.
  intros junk h hp h0 v o buf J r D Hr Hv S S0 Mu Ac Ns Sa De Df.
  destruct (C33_potential_defined junk h hp v o D buf (J r) Hr S Mu Ac (strictly D Sa) De) as [ws Ev].
  exists ws. split; [exact Ev|].
  exact (C13_functional_derivative junk h hp h0 v o buf J r ws Hr Hv S S0 Df Ev (off_smooth h h0 v _ _ D _ Hr S0 Ns Sa De)).
Qed.
Print Assumptions C13_off_switches.

(** C43 off the switching points: all derivatives are continuous. *)
Theorem C43_derivatives_off_switches :
  forall junk (h hp h0 : handle ROps) v vd o D buf x L, reachable h ->
    vars_entry v = Ok vd ->
    xcfun_eval_setup h v XC_PARTIAL_DERIVATIVES o = Ok (hp, 0%Z) -> (o <= 3)%Z ->
    xcfun_eval_setup h v XC_PARTIAL_DERIVATIVES 0 = Ok (h0, 0%Z) ->
    0 < (h_settings h XC_RANGESEP_MU : R) -> all_covered h D -> none_at_switch h D ->
    strictly_above D -> describes v x D -> xcfun_output_length hp = Ok L ->
    exists ws, xcfun_eval junk hp buf x = Ok ws /\
      forall p, (Z.of_nat p < L)%Z -> slot_continuous (Z.to_nat (v_len vd)) hp p x (rd buf ws p).
Proof.
  intros junk h hp h0 v vd o D buf x L Hr E S O3 S0 Mu Ac Ns Sa De OL.
  destruct (C33_partial_defined junk h hp v o D buf x Hr S O3 Mu Ac (strictly D Sa) De) as [ws Ev].
  exists ws. split; [exact Ev|]. intros p Hp.
  exact (C43_partial_derivatives junk h hp h0 v vd o buf x ws p L Hr E S S0 Ev (off_smooth h h0 v _ _ D x Hr S0 Ns Sa De) OL Hp).
Qed.
Print Assumptions C43_derivatives_off_switches.
Theorem C43_contracted_off_switches :
  forall junk (h hc h0 : handle ROps) v vd o D buf x, reachable h ->
    vars_entry v = Ok vd ->
    xcfun_eval_setup h v XC_CONTRACTED (Z.of_nat o) = Ok (hc, 0%Z) ->
    xcfun_eval_setup h v XC_PARTIAL_DERIVATIVES 0 = Ok (h0, 0%Z) ->
    0 < (h_settings h XC_RANGESEP_MU : R) -> all_covered h D -> none_at_switch h D ->
    strictly_above D -> describes v (fun i => x (i * 2 ^ o)%nat) D ->
    exists ws, xcfun_eval junk hc buf x = Ok ws /\
      forall s, (s < 2 ^ o)%nat -> slot_continuous (Z.to_nat (v_len vd) * 2 ^ o) hc s x (rd buf ws s).
Proof.
  intros junk h hc h0 v vd o D buf x Hr E S S0 Mu Ac Ns Sa De.
  destruct (C33_contracted_defined junk h hc v o D buf x Hr S Mu Ac (strictly D Sa) De) as [ws Ev].
  exists ws. split; [exact Ev|]. intros s Hs.
  exact (C43_contracted junk h hc h0 v vd o buf x ws s Hr E S S0 Ev (off_smooth h h0 v _ _ D _ Hr S0 Ns Sa De) Hs).
Qed.
Print Assumptions C43_contracted_off_switches.

(** ** A concrete case: Becke exchange, Lee-Yang-Parr correlation and B97 exchange, at a density with
    reduced gradients 1 and 4. *)
Definition D_b : dens :=
  {| al := {| rho := 1; grad := V 1 0 0; hes := Hes 1 0 0 2 0 (-1); kin := 1; jp := 0 |};
     be := {| rho := 1; grad := V 0 2 0; hes := Hes 0 1 0 0 0 1; kin := / 2; jp := 0 |} |}.
Lemma b_handle : exists h : handle ROps, reachable h /\ h_active h = [6; 16; 60]%nat /\ 0 < (h_settings h XC_RANGESEP_MU : R) /\ all_covered h D_b /\ none_at_switch h D_b.
Proof.
  destruct (make (K := ROps) [("beckex"%string, 6%nat, / 2); ("lypc"%string, 16%nat, 1); ("b97x"%string, 60%nat, 1)] eq_refl) as (h & _ & Hr & A & S). exists h. split; [exact Hr|].
  change (mactive _) with [6; 16; 60]%nat in A. split; [exact A|]. split; [|split].
  - rewrite S. unfold msettings. cbn [map fold_left fst snd]. unfold wr_settings, upd. cbn. unfold Q2R. cbn. lra.
  - intros i nm Hi N. rewrite A in Hi. cbn [In] in Hi.
    destruct Hi as [<- | [<- | [<- | []]]]; vm_compute in N; injection N as <-; unfold covered; cbn [In any_gradient]; left; tauto.
  - intros i nm Hi N. rewrite A in Hi. cbn [In] in Hi.
    destruct Hi as [<- | [<- | [<- | []]]]; vm_compute in N; injection N as <-; unfold off_switches.
    + right. right. left. split; [cbn; tauto|]. right. left. split; [cbn; tauto|]. intros s Hs. cbn [In] in Hs.
      destruct Hs as [<-|[<-|[]]]; unfold chi2, dot; cbn [rho grad al be D_b vx vy vz]; unfold Rpower; rewrite ln_1, !Rmult_0_r, exp_0; lra.
    + left. intro X. repeat (destruct X as [X|X]; [discriminate X|]); exact X.
    + right. right. right. split; [cbn; tauto|]. unfold dot; cbn [grad al be D_b vx vy vz]. lra.
Qed.
Example C10_off_switches_example : exists (h hp h0 hc : handle ROps) vd D x, reachable h /\
  vars_entry XC_A_B_GAA_GAB_GBB = Ok vd /\
  xcfun_eval_setup h XC_A_B_GAA_GAB_GBB XC_PARTIAL_DERIVATIVES 3 = Ok (hp, 0%Z) /\
  xcfun_eval_setup h XC_A_B_GAA_GAB_GBB XC_PARTIAL_DERIVATIVES 0 = Ok (h0, 0%Z) /\
  xcfun_eval_setup h XC_A_B_GAA_GAB_GBB XC_CONTRACTED (Z.of_nat 4) = Ok (hc, 0%Z) /\
  0 < (h_settings h XC_RANGESEP_MU : R) /\ all_covered h D /\ none_at_switch h D /\ strictly_above D /\ describes XC_A_B_GAA_GAB_GBB x D /\
  xcfun_output_length hp = Ok 56%Z.
Proof.
  destruct b_handle as (h & Hr & A & Mu & Ac & Ns). exists h.
  do 4 eexists. exists D_b. eexists. split; [exact Hr|]. split; [vm_compute; reflexivity|].
  split; [apply accepts_ok; [exact Hr|rewrite A; vm_compute; reflexivity]|].
  split; [apply accepts_ok; [exact Hr|rewrite A; vm_compute; reflexivity]|].
  split; [apply accepts_ok; [exact Hr|rewrite A; vm_compute; reflexivity]|].
  split; [exact Mu|]. split; [exact Ac|]. split; [exact Ns|].
  split; [split; cbn [rho al be D_b]; change threshold with (1 * / 100000000000000); lra|].
  split; [apply encode_describes; cbn; tauto|]. vm_compute. reflexivity.
Qed.
