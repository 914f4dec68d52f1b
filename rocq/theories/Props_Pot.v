(** * Property theorems: potential mode returns the functional derivative (C13) *)
From Coq Require Import Reals QArith Qreals ZArith Arith Lia Lra List Bool String.
From Coquelicot Require Import Coquelicot.
From Verif Require Import Scalar RInst Tables Api SpecApi ApiProofs ApiProofs2 CTaylor CtAlg TMath Fps TFam TExp Ad Br Expr Densvars Functionals
  Eval Sem AdEval SpecEval Layout EvalSem EvalProps Taint EvalExt EvalR EvalReal EvalApi Props_Eval Props_Deriv RSem EnergyR VarsRel PotSlots Dead.
Import ListNotations.
Local Open Scope outcome_scope.
Local Open Scope R_scope.

(** ** Specification *)
(** Number of the entry of direction k, j among xx xy xz yy yz zz. *)
Definition hess (k j : nat) : nat :=
  match k, j with
  | O, O => 0 | O, 1 | 1, O => 1 | O, _ | _, O => 2
  | 1, 1 => 3 | 1, _ | _, 1 => 4 | _, _ => 5
  end%nat.
(** A field assigns the input array J q of the library to every point q of space.  Along the
    three axes through r: the entry at b is a density, the next three entries are its
    gradient, the next six are the second derivatives. *)
Definition density_field (bs : list nat) (J : (nat -> R) -> nat -> R) (r : nat -> R) : Prop :=
  forall b k, In b bs -> (k < 3)%nat ->
    (forall j, (j < 3)%nat ->
       locally 0 (fun t => is_derive (fun u => J (bump (bump r k t) j u) b) 0 (J (bump r k t) (b + 1 + j)%nat))) /\
    (forall j, (j < 3)%nat -> is_derive (fun t => J (bump r k t) (b + 1 + j)%nat) 0 (J r (b + 4 + hess k j)%nat)).
(** v = dE/dn - sum_k d/dr_k (dE/dn_k) at the point r, where n is entry b and n_k entry
    b+1+k of the inputs of E; all the derivatives exist. *)
Definition functional_derivative (E : (nat -> R) -> R -> Prop) (b : nat) (J : (nat -> R) -> nat -> R) (r : nat -> R) (v : R) : Prop :=
  exists (V : R) (P : nat -> R -> R) (D : nat -> R),
    pderiv E [b] (J r) V /\
    (forall k, (k < 3)%nat -> locally 0 (fun t => pderiv E [(b + 1 + k)%nat] (J (bump r k t)) (P k t)) /\ is_derive (P k) 0 (D k)) /\
    v = V - (D 0%nat + D 1%nat + D 2%nat).
(** Positions of the densities among the inputs. *)
Definition densities (v : Z) : list nat :=
  if orb (Z.eqb v XC_A) (orb (Z.eqb v XC_N) (Z.eqb v XC_N_2ND_TAYLOR)) then [0]%nat
  else if orb (Z.eqb v XC_A_B) (Z.eqb v XC_N_S) then [0; 1]%nat
  else if Z.eqb v XC_A_B_2ND_TAYLOR then [0; 10]%nat else [].

(** ** The energy as a function of part of the inputs *)
Definition only (v flagset : Z) (ci : nat -> bool) : bool :=
  match dv_prog v with
  | Some p => match taintR ci (fun _ => true) p with
              | Some cf => forallb (fun f => implb (declared flagset f) (cf f)) all_flds
              | None => false end
  | None => true
  end.
Lemma all_flds_all f : In f all_flds.
Proof. destruct f; cbn; tauto. Qed.
Lemma energy_only (h : handle ROps) v flagset ci n d d' out : wf h -> h_vars h = v -> only v flagset ci = true ->
  ~ In XC_REVTPSSX_id (h_active h) ->
  (forall i, In i (h_active h) -> subset_bits (flags i) flagset) -> (forall i, ci i = true -> d i = d' i) ->
  energy h n d out = energy h n d' out.
Proof.
  intros W Ev C N Fl Hd. unfold only in C. destruct (dv_prog v) as [p|] eqn:D; [|unfold energy, densvars; now rewrite Ev, D].
  destruct (taintR ci _ p) as [cf|] eqn:T; [|discriminate].
  apply (energy_tr h n d d' cf p out); [now rewrite Ev|exact (taintR_tr _ n d d' ci Hd p _ _ T)|].
  intros i Hi. assert (L : (i < 78)%nat) by (now apply W). destruct (nofun_len i L) as (nm & e & Ef). exists e. split; [unfold fp; now rewrite Ef|].
  assert (Ni : i <> XC_REVTPSSX_id) by (intros ->; contradiction).
  pose proof (flags_sound_ok i L Ni) as F. unfold flags_sound in F. rewrite Ef in F. eapply clean_imp; [|exact F]. intros f Hf.
  pose proof (proj1 (forallb_forall _ _) C f (all_flds_all f)) as X. cbv beta in X. rewrite implb_true_iff in X. apply X.
  specialize (Fl i Hi). destruct f; cbn [declared] in *; apply Fl; try lia; exact Hf.
Qed.
(** Density and gradient entries. *)
Definition core (bs : list nat) (i : nat) : bool := existsb (fun b => andb (Nat.leb b i) (Nat.ltb i (b + 4))) bs.
Definition mem (bs : list nat) (i : nat) : bool := existsb (Nat.eqb i) bs.
Lemma only_all : forallb (fun v => only v 3 (core (densities v)) && only v 1 (mem (densities v))) [XC_N_2ND_TAYLOR; XC_A_B_2ND_TAYLOR] = true.
Proof. vm_compute. reflexivity. Qed.

(** ** One term of the divergence *)
Lemma bump_0 x i : bump x i 0 = x.
Proof. apply FunctionalExtensionality.functional_extensionality. intro m. unfold bump. destruct (Nat.eqb m i); [apply Rplus_0_r|reflexivity]. Qed.
Section TERM.
Variable h : handle ROps.
Let Fe : (nat -> R) -> R -> Prop := fun x v => energy h 0 x (czero 0) = Ok (v : rct 0).
Variable bs : list nat.
Hypothesis Hbs : forall b, In b bs -> b = 0%nat \/ b = 10%nat.
Hypothesis Ind : forall n d d' out, (forall i, core bs i = true -> d i = d' i) -> energy h n d out = energy h n d' out.
Variable J : (nat -> R) -> nat -> R.
Variable r : nat -> R.
Hypothesis DF : density_field bs J r.
Hypothesis Sm : smooth h (J r).
Lemma core_in i : core bs i = true -> exists b q, In b bs /\ i = (b + q)%nat /\ (q < 4)%nat.
Proof.
  unfold core. rewrite existsb_exists. intros (b & Hb & H). apply andb_true_iff in H. destruct H as [H1 H2].
  apply Nat.leb_le in H1. apply Nat.ltb_lt in H2. exists b, (i - b)%nat. split; [exact Hb|]. lia.
Qed.
Lemma gin_core b q k s x : In b bs -> (q < 4)%nat -> gin x k s (b + q)%nat =
  ((x (b + q)%nat, x (b + der k q)%nat), (if Nat.eqb (b + q) s then 1 else 0, 0)).
Proof.
  intros Hb Hq. unfold gin. destruct (Hbs b Hb) as [-> | ->].
  - do 4 (destruct q as [|q]; [reflexivity|]). lia.
  - do 4 (destruct q as [|q]; [reflexivity|]). lia.
Qed.
Lemma along b q k : In b bs -> (q < 4)%nat -> (k < 3)%nat -> is_derive (fun t => J (bump r k t) (b + q)%nat) 0 (J r (b + der k q)%nat).
Proof.
  intros Hb Hq Hk. destruct (DF b k Hb Hk) as [D1 D2]. destruct q as [|q].
  - specialize (D1 k Hk). apply locally_singleton in D1. rewrite bump_0 in D1. cbn [der]. replace (b + 0)%nat with b by lia. replace (b + S k)%nat with (b + 1 + k)%nat by lia. exact D1.
  - specialize (D2 q ltac:(lia)). replace (b + S q)%nat with (b + 1 + q)%nat by lia. eapply eq_ind; [exact D2|]. f_equal.
    cbn [der]. clear - Hq Hk. destruct k as [|[|[|?]]]; [| | |lia]; destruct q as [|[|[|?]]]; try lia; cbn; lia.
Qed.
Lemma div_term b k out : In b bs -> (k < 3)%nat -> energy h 2 (gin (J r) k (b + 1 + k)) (czero 2) = Ok out ->
  exists P, locally 0 (fun t => pderiv Fe [(b + 1 + k)%nat] (J (bump r k t)) (P t)) /\ is_derive P 0 (snd (snd out)).
Proof.
  intros Hb Hk E. set (s := (b + 1 + k)%nat) in *.
  set (gd := fun (i : nat) (z : pt 2) => if core bs i then J (bump r k (snd (fst z))) i + (if Nat.eqb i s then snd z else 0) else J r i).
  set (d2 := fun i : nat => if core bs i then gin (J r) k s i else rconst 2 (J r i)).
  rewrite (Ind 2 _ d2) in E by (intros i Hi; unfold d2; now rewrite Hi).
  destruct (ad_energy 2 ltac:(lia) h d2 gd) with (out := out) as (g & Rg & Ng).
  - intro i. unfold d2, gd. destruct (core bs i) eqn:C; [|apply rep_const].
    destruct (core_in i C) as (b' & q & Hb' & -> & Hq). rewrite (gin_core b' q k s (J r) Hb' Hq). cbn [rep fst snd]. split.
    + split; [cbn [fst snd]; rewrite bump_0; destruct (Nat.eqb _ s); now rewrite Rplus_0_r|].
      exists (fun _ => J r (b' + der k q)%nat). split; [|reflexivity]. cbn [near].
      eapply is_derive_ext; [|apply (along b' q k Hb' Hq Hk)]. intro t. cbn [fst snd]. destruct (Nat.eqb _ s); now rewrite Rplus_0_r.
    + exists (fun _ => if Nat.eqb (b' + q) s then 1 else 0). split.
      * apply near_true. intros [[] t]. cbn [fst snd]. destruct (Nat.eqb (b' + q) s).
        -- eapply is_derive_val; [apply d_plus; [apply d_const|apply d_id]|apply Rplus_0_l].
        -- eapply is_derive_val; [apply d_plus; [apply d_const|apply d_const]|apply Rplus_0_l].
      * split; [reflexivity|]. exists (fun _ => 0). split; [|reflexivity]. cbn [near]. apply d_const.
  - eapply eq_ind; [exact Sm|]. apply FunctionalExtensionality.functional_extensionality. intro i. unfold gd. cbn [fst snd origin].
    rewrite bump_0. destruct (core bs i); [|reflexivity]. destruct (Nat.eqb i s); ring.
  - exact E.
  - cbn [rep] in Rg. destruct Rg as [_ (h1 & D1 & R1 & (h2 & D2 & R2))]. cbn [near] in D1, D2, Ng.
    exists (fun t => h1 (tt, t)). split; [|rewrite R2; exact D2].
    eapply filter_imp; [|apply filter_and; [exact Ng|exact D1]]. intros t [Ht Hd]. cbn [pderiv].
    exists (fun u => g (tt, t, u)). split; [|exact Hd]. eapply filter_imp; [|exact Ht]. intros u Hu. unfold Fe. refine (eq_trans _ Hu).
    apply Ind. intros i Hi. unfold gd, bump. cbn [fst snd]. rewrite Hi. destruct (Nat.eqb i s); [reflexivity|]. symmetry. apply Rplus_0_r.
Qed.
(** Without a gradient dependence the divergence vanishes. *)
Hypothesis Ind1 : forall n d d' out, (forall i, mem bs i = true -> d i = d' i) -> energy h n d out = energy h n d' out.
Lemma mem_off b k : In b bs -> (k < 3)%nat -> mem bs (b + 1 + k) = false.
Proof.
  intros Hb Hk. destruct (mem bs (b + 1 + k)) eqn:M; [|reflexivity]. unfold mem in M. apply existsb_exists in M. destruct M as (b' & Hb' & M).
  apply Nat.eqb_eq in M. destruct (Hbs b Hb), (Hbs b' Hb'); lia.
Qed.
Lemma no_grad b k x v : In b bs -> (k < 3)%nat -> pderiv Fe [(b + 1 + k)%nat] x v -> v = 0.
Proof.
  intros Hb Hk (G & L & D). cbn [pderiv] in L.
  assert (C : locally 0 (fun t => G t = G 0)).
  { pose proof (locally_singleton _ _ L) as L0. unfold Fe in L, L0. eapply filter_imp; [|exact L]. intros t Ht. cbv beta in Ht.
    rewrite (Ind1 0 _ (bump x (b + 1 + k) 0)) in Ht.
    - rewrite L0 in Ht. injection Ht as Ht. now symmetry.
    - intros i Hi. unfold bump. destruct (Nat.eqb_spec i (b + 1 + k)) as [->|]; [|reflexivity]. rewrite mem_off in Hi by assumption. discriminate. }
  apply (is_derive_unique G 0 v) in D. rewrite <- D. apply is_derive_unique. eapply is_derive_ext_loc; [|apply (d_const (G 0))].
  eapply filter_imp; [|exact C]. intros t ->. reflexivity.
Qed.
End TERM.

(** ** The API level *)
Lemma pot_bits (h hp : handle ROps) v o : reachable h -> In v [XC_N_2ND_TAYLOR; XC_A_B_2ND_TAYLOR] ->
  xcfun_eval_setup h v XC_POTENTIAL o = Ok (hp, 0%Z) ->
  forall i, In i (h_active hp) -> subset_bits (flags i) 3 /\ (xcfun_is_gga hp = false -> subset_bits (flags i) 1).
Proof.
  intros Hr Hv S i Hi. destruct (setup_gives_valid h v _ o hp S) as (Sv & Evv & Em & _).
  pose proof (reachable_wf hp (reach_setup h hp v _ o _ Hr S)) as W.
  destruct (setup_valid_code hp W Sv) as (vd & E & Vs & _ & P). destruct (P Em) as [_ Nm]. rewrite Evv in E.
  assert (B : forall k, (0 <= k)%Z -> Z.testbit (flags i) k = true -> k = 0%Z \/ k = 1%Z).
  { intros k Hk Hb. pose proof (Vs i Hi k Hk Hb) as Hp.
    assert (Pv : v_provides vd = 7%Z) by (destruct Hv as [<-|[<-|[]]]; vm_compute in E; injection E as <-; reflexivity).
    rewrite Pv in Hp. change 7%Z with (Z.ones 3) in Hp. destruct (Z.lt_ge_cases k 3) as [L|L]; [|rewrite Z.ones_spec_high in Hp by lia; discriminate].
    destruct (Z.eq_dec k 2) as [->|N2]; [|lia]. exfalso. apply Nm. exists i. split; [exact Hi|]. left. exact Hb. }
  split.
  - intros k Hk Hb. destruct (B k Hk Hb) as [-> | ->]; reflexivity.
  - intros Ng k Hk Hb. destruct (B k Hk Hb) as [-> | ->]; [reflexivity|]. exfalso.
    assert (G : xcfun_is_gga hp = true) by (apply (is_gga_iff hp W); exists i; split; [exact Hi|exact Hb]). congruence.
Qed.
Lemma densities_taylor v : In v [XC_N_2ND_TAYLOR; XC_A_B_2ND_TAYLOR] ->
  (v = XC_N_2ND_TAYLOR /\ densities v = [0]%nat) \/ (v = XC_A_B_2ND_TAYLOR /\ densities v = [0; 10]%nat).
Proof. intros [<-|[<-|[]]]; [left|right]; split; reflexivity. Qed.

Section MAIN.
Variables (h hp h0 : handle ROps) (v o : Z) (vd : vars_data).
Hypothesis Hr : reachable h.
Hypothesis Hv : In v [XC_N_2ND_TAYLOR; XC_A_B_2ND_TAYLOR].
Hypothesis S : xcfun_eval_setup h v XC_POTENTIAL o = Ok (hp, 0%Z).
Hypothesis S0 : xcfun_eval_setup h v XC_PARTIAL_DERIVATIVES 0 = Ok (h0, 0%Z).
Hypothesis NR : ~ In XC_REVTPSSX_id (h_active h).
Hypothesis G0 : good_setup h h0 v XC_PARTIAL_DERIVATIVES 0 vd.
Let W : twin hp h0 := setup_twin _ _ _ _ _ _ _ _ S S0.
Let bs := densities v.
Lemma wf0 : wf h0.
Proof. exact (reachable_wf h0 (reach_setup h h0 v _ _ _ Hr S0)). Qed.
Lemma active0 : h_active h0 = h_active hp /\ h_active h0 = h_active h.
Proof.
  destruct (setup_gives_valid h v _ _ h0 S0) as (_ & _ & _ & _ & A & _). split; [apply W|exact A].
Qed.
Lemma ind_core : forall n d d' out, (forall i, core bs i = true -> d i = d' i) -> energy h0 n d out = energy h0 n d' out.
Proof.
  intros n d d' out Hd. apply (energy_only h0 v 3 (core bs)); [apply wf0|apply (gs_vars _ _ _ _ _ _ G0)| | | |exact Hd].
  - pose proof (proj1 (forallb_forall _ _) only_all v Hv) as H. apply andb_true_iff in H. apply H.
  - destruct active0 as [_ ->]. exact NR.
  - intros i Hi. destruct active0 as [A _]. rewrite A in Hi. apply (pot_bits h hp v o Hr Hv S i Hi).
Qed.
Lemma ind_dens : xcfun_is_gga hp = false -> forall n d d' out, (forall i, mem bs i = true -> d i = d' i) -> energy h0 n d out = energy h0 n d' out.
Proof.
  intros Ng n d d' out Hd. apply (energy_only h0 v 1 (mem bs)); [apply wf0|apply (gs_vars _ _ _ _ _ _ G0)| | | |exact Hd].
  - pose proof (proj1 (forallb_forall _ _) only_all v Hv) as H. apply andb_true_iff in H. apply H.
  - destruct active0 as [_ ->]. exact NR.
  - intros i Hi. destruct active0 as [A _]. rewrite A in Hi. now apply (pot_bits h hp v o Hr Hv S i Hi).
Qed.
Lemma bs_cases b : In b bs -> b = 0%nat \/ b = 10%nat.
Proof. unfold bs. destruct (densities_taylor v Hv) as [[_ ->]|[_ ->]]; cbn; intuition. Qed.
Variables (J : (nat -> R) -> nat -> R) (r : nat -> R).
Hypothesis DF : density_field bs J r.
Hypothesis Sm : smooth h0 (J r).
Let Fe : (nat -> R) -> R -> Prop := fun x e => energy h0 0 x (czero 0) = Ok (e : rct 0).
Lemma corr_div b c : In b bs -> corr hp (J r) b = Ok c ->
  exists P D, (forall k, (k < 3)%nat -> locally 0 (fun t => pderiv Fe [(b + 1 + k)%nat] (J (bump r k t)) (P k t)) /\ is_derive (P k) 0 (D k)) /\
    c = D 0%nat + D 1%nat + D 2%nat.
Proof.
  intros Hb. unfold corr. rewrite <- !(twin_energy hp h0 _ _ _ W).
  destruct (energy h0 2 (gin (J r) 0 (1 + b)) (czero 2)) as [x| | |] eqn:Ex; cbn [obind]; try discriminate.
  destruct (energy h0 2 (gin (J r) 1 (2 + b)) (czero 2)) as [y| | |] eqn:Ey; cbn [obind]; try discriminate.
  destruct (energy h0 2 (gin (J r) 2 (3 + b)) (czero 2)) as [z| | |] eqn:Ez; cbn [obind]; try discriminate.
  intro E. injection E as <-.
  replace (1 + b)%nat with (b + 1 + 0)%nat in Ex by lia. replace (2 + b)%nat with (b + 1 + 1)%nat in Ey by lia. replace (3 + b)%nat with (b + 1 + 2)%nat in Ez by lia.
  destruct (div_term h0 bs bs_cases ind_core J r DF Sm b 0%nat x Hb ltac:(lia) Ex) as (P0 & A0 & B0).
  destruct (div_term h0 bs bs_cases ind_core J r DF Sm b 1%nat y Hb ltac:(lia) Ey) as (P1 & A1 & B1).
  destruct (div_term h0 bs bs_cases ind_core J r DF Sm b 2%nat z Hb ltac:(lia) Ez) as (P2 & A2 & B2).
  exists (fun k => match k with O => P0 | 1%nat => P1 | _ => P2 end), (fun k => match k with O => snd (snd x) | 1%nat => snd (snd y) | _ => snd (snd z) end).
  split; [|reflexivity]. intros k Hk. destruct k as [|[|[|k]]]; [| | |lia]; split; assumption.
Qed.
(** For functionals of the density alone. *)
Lemma corr_zero e b : xcfun_is_gga hp = false -> energy h0 0 (J r) (czero 0) = Ok (e : rct 0) -> In b bs ->
  exists P D, (forall k, (k < 3)%nat -> locally 0 (fun t => pderiv Fe [(b + 1 + k)%nat] (J (bump r k t)) (P k t)) /\ is_derive (P k) 0 (D k)) /\
    0 = D 0%nat + D 1%nat + D 2%nat.
Proof.
  intros Ng E Hb.
  assert (T : forall k, (k < 3)%nat -> locally 0 (fun t => pderiv Fe [(b + 1 + k)%nat] (J (bump r k t)) 0)).
  { intros k Hk.
    assert (X : exists out, energy h0 2 (gin (J r) k (b + 1 + k)) (czero 2) = Ok out).
    { pose proof (energy_hom0 2 0 (c0 2) ltac:(lia) ltac:(lia) (hom_c0_0 2) h0 (gin (J r) k (b + 1 + k))) as Hm.
      rewrite (ind_core 0 _ (J r)), E in Hm.
      - symmetry in Hm. apply omap_ok in Hm. destruct Hm as (out & Eo & _). now exists out.
      - intros i Hi. destruct (core_in bs i Hi) as (b' & q & Hb' & -> & Hq). now rewrite (gin_core bs bs_cases b' q k _ (J r) Hb' Hq). }
    destruct X as [out X]. destruct (div_term h0 bs bs_cases ind_core J r DF Sm b k out Hb Hk X) as (P & A & _).
    eapply filter_imp; [|exact A]. intros t Ht.
    exact (eq_ind _ (fun q => pderiv Fe [(b + 1 + k)%nat] (J (bump r k t)) q) Ht 0 (no_grad h0 bs bs_cases (ind_dens Ng) b k _ _ Hb Hk Ht)). }
  exists (fun _ _ => 0), (fun _ => 0). split; [|ring]. intros k Hk. split; [now apply T|apply d_const].
Qed.
End MAIN.

(** revTPSS exchange is accepted in potential mode (it declares density and gradient
    only), yet its energy divides by the kinetic energy density, which the second order
    evaluations of potential mode leave at 0: no evaluation succeeds. *)
Definition second_rows (i : nat) : bool := orb (andb (Nat.leb 4 i) (Nat.ltb i 10)) (Nat.leb 14 i).
Lemma revtpssx_dead : dead_in XC_N_2ND_TAYLOR second_rows XC_REVTPSSX_id = true /\ dead_in XC_A_B_2ND_TAYLOR second_rows XC_REVTPSSX_id = true.
Proof. split; vm_compute; reflexivity. Qed.
Lemma revtpssx_no_potential junk (h hp : handle ROps) v o buf input ws : reachable h ->
  xcfun_eval_setup h v XC_POTENTIAL o = Ok (hp, 0%Z) -> In XC_REVTPSSX_id (h_active h) -> xcfun_eval junk hp buf input <> Ok ws.
Proof.
  intros Hr S Hin Ev.
  destruct (setup_gives_valid h v _ _ hp S) as (Sv & Evv & _ & _ & Ha & _).
  destruct (setup_valid_vars _ Sv) as [vd E]. rewrite Evv in E.
  pose proof (eval_good junk h hp v _ o buf input ws vd Hr E S Ev) as G.
  pose proof (reachable_wf hp (reach_setup h hp v _ o _ Hr S)) as W.
  rewrite <- Ha in Hin.
  assert (Gg : xcfun_is_gga hp = true) by (apply (is_gga_iff hp W); exists XC_REVTPSSX_id; split; [exact Hin|vm_compute; reflexivity]).
  pose proof (eval_potential junk h hp v o vd buf input Hr S G) as R. rewrite Ev in R.
  assert (C : forall c, corr hp input 0 <> Ok c).
  { intros c Hc. unfold corr in Hc. destruct (energy hp 2 (gin input 0 (1 + 0)) (czero 2)) as [x| | |] eqn:Ex; cbn [obind] in Hc; try discriminate.
    pose proof (energy_hom0 2 0 (c0 2) ltac:(lia) ltac:(lia) (hom_c0_0 2) hp (gin input 0 (1 + 0))) as Hm. rewrite Ex in Hm. cbn [omap] in Hm.
    refine (energy_dead hp second_rows XC_REVTPSSX_id _ _ _ Hin _ _ Hm).
    - destruct revtpssx_dead as [D1 D2]. destruct (pot_vars h hp v o vd Hr S G Gg) as [[-> _]|[-> _]]; assumption.
    - intros i Hi. unfold gin, second_rows in *. destruct (Nat.leb_spec 10 i).
      + replace (Nat.ltb (i - 10) 4) with false; [reflexivity|]. symmetry. apply Nat.ltb_ge. apply orb_true_iff in Hi. rewrite andb_true_iff, Nat.ltb_lt, !Nat.leb_le in Hi. lia.
      + replace (Nat.ltb (i - 0) 4) with false; [reflexivity|]. symmetry. apply Nat.ltb_ge. apply orb_true_iff in Hi. rewrite andb_true_iff, Nat.ltb_lt, !Nat.leb_le in Hi. lia. }
  unfold pot_val in R. rewrite Gg in R.
  destruct (first hp input 0) as [a| | |]; cbn [obind orl] in R; try contradiction.
  destruct (single (Z.to_nat (v_len vd))).
  - destruct (corr hp input 0) as [c| | |] eqn:Ec; cbn [obind orl] in R; try contradiction. exact (C c eq_refl).
  - destruct (first hp input _) as [b| | |]; cbn [obind orl] in R; try contradiction.
    destruct (corr hp input 0) as [c| | |] eqn:Ec; cbn [obind orl] in R; try contradiction. exact (C c eq_refl).
Qed.

(** C13.  Slot 0 of potential mode is the energy; the following slots are the functional
    derivatives with respect to the densities, dE/dn - div dE/d(grad n), of the energy that
    the library returns at order 0, at every point r of every density field, when the input
    is the field's second order Taylor expansion at r. *)
Theorem C13_functional_derivative :
  forall junk (h hp h0 : handle ROps) v o buf J r ws, reachable h ->
    In v [XC_N_2ND_TAYLOR; XC_A_B_2ND_TAYLOR] ->
    xcfun_eval_setup h v XC_POTENTIAL o = Ok (hp, 0%Z) ->
    xcfun_eval_setup h v XC_PARTIAL_DERIVATIVES 0 = Ok (h0, 0%Z) ->
    density_field (densities v) J r ->
    xcfun_eval junk hp buf (J r) = Ok ws ->
    smooth h0 (J r) ->
    library_energy h0 (J r) (rd buf ws 0) /\
    forall c b, nth_error (densities v) c = Some b ->
      functional_derivative (library_energy h0) b J r (rd buf ws (1 + c)).
Proof.
  intros junk h hp h0 v o buf J r ws Hr Hv S S0 DF Ev Sm.
  assert (NR : ~ In XC_REVTPSSX_id (h_active h)) by (intro X; exact (revtpssx_no_potential junk h hp v o buf (J r) ws Hr S X Ev)).
  destruct (setup_gives_valid h v _ _ hp S) as (Sv & Evv & _ & _ & _ & _).
  destruct (setup_valid_vars _ Sv) as [vd E]. rewrite Evv in E.
  pose proof (eval_good junk h hp v _ o buf (J r) ws vd Hr E S Ev) as G.
  assert (G0 : good_setup h h0 v XC_PARTIAL_DERIVATIVES 0 vd).
  { eapply good_other; [exact G|exact Hr|exact S0|cbn; tauto|lia]. }
  pose proof (setup_twin _ _ _ _ _ _ _ _ S S0) as W.
  pose proof (eval_potential junk h hp v o vd buf (J r) Hr S G) as R. rewrite Ev in R.
  destruct (pot_val hp vd (J r)) as [l| | |] eqn:PV; cbn [orl] in R; try contradiction.
  assert (LE : forall x e, energy h0 0 x (czero 0) = Ok (e : rct 0) -> library_energy h0 x e).
  { intros x e Hx. unfold library_energy. apply (order0 _ _ _ _ _ _ _ _ G0). exact Hx. }
  assert (FD : forall b x c, In b (densities v) -> first hp (J r) b = Ok x ->
     (if xcfun_is_gga hp then corr hp (J r) b = Ok c else c = 0) -> functional_derivative (library_energy h0) b J r (snd x - c)).
  { intros b x c Hb Ex Hc. unfold first in Ex. rewrite <- (twin_energy hp h0 _ _ _ W) in Ex.
    assert (V : pderiv (fun x e => energy h0 0 x (czero 0) = Ok (e : rct 0)) [b] (J r) (snd x)) by (apply (coef_deriv h0 (J r) Sm); cbn [coef]; eauto).
    assert (PD : exists P D, (forall k, (k < 3)%nat -> locally 0 (fun t => pderiv (fun x e => energy h0 0 x (czero 0) = Ok (e : rct 0)) [(b + 1 + k)%nat] (J (bump r k t)) (P k t)) /\ is_derive (P k) 0 (D k)) /\
       c = D 0%nat + D 1%nat + D 2%nat).
    { destruct (xcfun_is_gga hp) eqn:Gg.
      - exact (corr_div h hp h0 v o vd Hr Hv S S0 NR G0 J r DF Sm b c Hb Hc).
      - subst c. pose proof (energy_hom0 1 0 (c0 1) ltac:(lia) ltac:(lia) (hom_c0_0 1) h0 (s1 (K := ROps) (J r) (Some b))) as Hm.
        rewrite Ex in Hm. cbn [omap] in Hm.
        exact (corr_zero h hp h0 v o vd Hr Hv S S0 NR G0 J r DF Sm (c0 1 x) b Gg Hm Hb). }
    destruct PD as (P & D & PD & ->). exists (snd x), P, D. split; [|split; [|reflexivity]].
    - eapply pderiv_F; [|exact V]. exact LE.
    - intros k Hk. destruct (PD k Hk) as [A B]. split; [|exact B]. eapply filter_imp; [|exact A]. intros t. apply pderiv_F. exact LE. }
  unfold pot_val in PV.
  destruct (first hp (J r) 0) as [a| | |] eqn:Ea; cbn [obind] in PV; try discriminate.
  assert (E0 : library_energy h0 (J r) (fst a)).
  { apply LE. unfold first in Ea. rewrite <- (twin_energy hp h0 _ _ _ W) in Ea.
    pose proof (energy_hom0 1 0 (c0 1) ltac:(lia) ltac:(lia) (hom_c0_0 1) h0 (s1 (K := ROps) (J r) (Some 0%nat))) as Hm. rewrite Ea in Hm. exact Hm. }
  destruct (densities_taylor v Hv) as [[V Dv]|[V Dv]].
  - assert (L : Z.to_nat (v_len vd) = 10%nat) by (rewrite V in E; vm_compute in E; injection E as <-; reflexivity).
    rewrite L in PV. cbn [single Nat.eqb orb] in PV. rewrite Dv.
    destruct (xcfun_is_gga hp) eqn:Gg.
    + destruct (corr hp (J r) 0) as [c| | |] eqn:Ec; cbn [obind] in PV; try discriminate. injection PV as <-.
      split; [rewrite (R 0%nat _ eq_refl); exact E0|]. intros j b Hj. destruct j as [|[|j]]; cbn in Hj; try discriminate. injection Hj as <-.
      cbn [Nat.add]; rewrite (R 1%nat _ eq_refl). apply (FD 0%nat a c); [rewrite Dv; now left|exact Ea|exact Ec].
    + injection PV as <-. split; [rewrite (R 0%nat _ eq_refl); exact E0|]. intros j b Hj. destruct j as [|[|j]]; cbn in Hj; try discriminate. injection Hj as <-.
      cbn [Nat.add]; rewrite (R 1%nat _ eq_refl). refine (eq_ind _ (fun q => functional_derivative _ _ J r q) (FD 0%nat a 0 _ Ea eq_refl) _ (Rminus_0_r _)). rewrite Dv; now left.
  - assert (L : Z.to_nat (v_len vd) = 20%nat) by (rewrite V in E; vm_compute in E; injection E as <-; reflexivity).
    rewrite L in PV. cbn [single inpos Nat.eqb orb] in PV. rewrite Dv.
    destruct (first hp (J r) 10) as [a'| | |] eqn:Ea'; cbn [obind] in PV; try discriminate.
    destruct (xcfun_is_gga hp) eqn:Gg.
    + destruct (corr hp (J r) 0) as [c| | |] eqn:Ec; cbn [obind] in PV; try discriminate.
      destruct (corr hp (J r) 10) as [c'| | |] eqn:Ec'; cbn [obind] in PV; try discriminate. injection PV as <-.
      split; [rewrite (R 0%nat _ eq_refl); exact E0|]. intros j b Hj. destruct j as [|[|[|j]]]; cbn in Hj; try discriminate; injection Hj as <-.
      * cbn [Nat.add]; rewrite (R 1%nat _ eq_refl). apply (FD 0%nat a c); [rewrite Dv; now left|exact Ea|exact Ec].
      * cbn [Nat.add]; rewrite (R 2%nat _ eq_refl). apply (FD 10%nat a' c'); [rewrite Dv; right; now left|exact Ea'|exact Ec'].
    + injection PV as <-. split; [rewrite (R 0%nat _ eq_refl); exact E0|]. intros j b Hj. destruct j as [|[|[|j]]]; cbn in Hj; try discriminate; injection Hj as <-.
      * cbn [Nat.add]; rewrite (R 1%nat _ eq_refl). refine (eq_ind _ (fun q => functional_derivative _ _ J r q) (FD 0%nat a 0 _ Ea eq_refl) _ (Rminus_0_r _)). rewrite Dv; now left.
      * cbn [Nat.add]; rewrite (R 2%nat _ eq_refl). refine (eq_ind _ (fun q => functional_derivative _ _ J r q) (FD 10%nat a' 0 _ Ea' eq_refl) _ (Rminus_0_r _)). rewrite Dv; right; now left.
Qed.
Print Assumptions C13_functional_derivative.

(** Functionals of the density alone: for the variable sets that name densities only (and
    for the Taylor sets) the potential slots are the derivatives of the energy with respect
    to each density. *)
Theorem C13_density_only :
  forall junk (h hp h0 : handle ROps) v o buf x ws, reachable h ->
    xcfun_eval_setup h v XC_POTENTIAL o = Ok (hp, 0%Z) ->
    xcfun_eval_setup h v XC_PARTIAL_DERIVATIVES 0 = Ok (h0, 0%Z) ->
    ~ needs_gradient h ->
    xcfun_eval junk hp buf x = Ok ws ->
    smooth h0 x ->
    library_energy h0 x (rd buf ws 0) /\
    forall c b, nth_error (densities v) c = Some b -> pderiv (library_energy h0) [b] x (rd buf ws (1 + c)).
Proof.
  intros junk h hp h0 v o buf x ws Hr S S0 Ng Ev Sm.
  destruct (setup_gives_valid h v _ _ hp S) as (Sv & Evv & _ & _ & Ha & _).
  destruct (setup_valid_vars _ Sv) as [vd E]. rewrite Evv in E.
  pose proof (eval_good junk h hp v _ o buf x ws vd Hr E S Ev) as G.
  assert (G0 : good_setup h h0 v XC_PARTIAL_DERIVATIVES 0 vd).
  { eapply good_other; [exact G|exact Hr|exact S0|cbn; tauto|lia]. }
  pose proof (setup_twin _ _ _ _ _ _ _ _ S S0) as W.
  pose proof (eval_potential junk h hp v o vd buf x Hr S G) as R. rewrite Ev in R.
  assert (Gg : xcfun_is_gga hp = false).
  { destruct (xcfun_is_gga hp) eqn:Gg; [|reflexivity]. exfalso. apply Ng.
    apply (is_gga_iff hp (reachable_wf hp (reach_setup h hp v _ o _ Hr S))) in Gg. destruct Gg as (i & Hi & B). exists i. rewrite <- Ha. now split. }
  destruct (pot_val hp vd x) as [l| | |] eqn:PV; cbn [orl] in R; try contradiction.
  assert (LE : forall x e, energy h0 0 x (czero 0) = Ok (e : rct 0) -> library_energy h0 x e).
  { intros y e Hx. unfold library_energy. apply (order0 _ _ _ _ _ _ _ _ G0). exact Hx. }
  assert (PD : forall b a, first hp x b = Ok a -> pderiv (library_energy h0) [b] x (snd a)).
  { intros b a Ea. unfold first in Ea. rewrite <- (twin_energy hp h0 _ _ _ W) in Ea.
    apply (pderiv_F (fun x e => energy h0 0 x (czero 0) = Ok (e : rct 0))); [exact LE|]. apply (coef_deriv h0 x Sm). cbn [coef]. eauto. }
  unfold pot_val in PV. rewrite Gg in PV.
  destruct (first hp x 0) as [a| | |] eqn:Ea; cbn [obind] in PV; try discriminate.
  assert (E0 : library_energy h0 x (fst a)).
  { apply LE. unfold first in Ea. rewrite <- (twin_energy hp h0 _ _ _ W) in Ea.
    pose proof (energy_hom0 1 0 (c0 1) ltac:(lia) ltac:(lia) (hom_c0_0 1) h0 (s1 (K := ROps) x (Some 0%nat))) as Hm. rewrite Ea in Hm. exact Hm. }
  assert (D : forall b1 b2, densities v = [b1; b2] -> b1 = 0%nat /\ b2 = inpos (Z.to_nat (v_len vd)) /\ single (Z.to_nat (v_len vd)) = false).
  { intros b1 b2. unfold densities.
    destruct (orb _ _); [discriminate|]. destruct (orb (Z.eqb v XC_A_B) _) eqn:C.
    - intro X. injection X as <- <-. apply orb_true_iff in C. destruct C as [C|C]; apply Z.eqb_eq in C; rewrite C in E; vm_compute in E; injection E as <-; repeat split.
    - destruct (Z.eqb_spec v XC_A_B_2ND_TAYLOR) as [C'|]; [|discriminate]. intro X. injection X as <- <-. rewrite C' in E; vm_compute in E; injection E as <-; repeat split. }
  assert (Dc : forall c b, nth_error (densities v) c = Some b -> (c = 0 /\ b = 0)%nat \/ (c = 1%nat /\ b = inpos (Z.to_nat (v_len vd)) /\ single (Z.to_nat (v_len vd)) = false)).
  { intros c b Hc. assert (L : densities v = [] \/ densities v = [0%nat] \/ exists b1 b2, densities v = [b1; b2]).
    { unfold densities. destruct (orb _ _); [right; now left|]. destruct (orb _ _); [right; right; eauto|]. destruct (Z.eqb _ _); [right; right; eauto|now left]. }
    destruct L as [L|[L|(b1 & b2 & L)]]; rewrite L in Hc.
    - destruct c; discriminate.
    - destruct c as [|[|c]]; try discriminate. injection Hc as <-. now left.
    - destruct (D b1 b2 L) as (-> & -> & Sg). destruct c as [|[|c]]; [injection Hc as <-; now left|injection Hc as <-; now right|destruct c; discriminate]. }
  destruct (single (Z.to_nat (v_len vd))) eqn:Sg.
  - injection PV as <-. split; [rewrite (R 0%nat _ eq_refl); exact E0|]. intros c b Hc. destruct (Dc c b Hc) as [[-> ->]|(_ & _ & X)]; [|discriminate].
    cbn [Nat.add]. rewrite (R 1%nat _ eq_refl). now apply PD.
  - destruct (first hp x (inpos (Z.to_nat (v_len vd)))) as [a'| | |] eqn:Ea'; cbn [obind] in PV; try discriminate. injection PV as <-.
    split; [rewrite (R 0%nat _ eq_refl); exact E0|]. intros c b Hc. destruct (Dc c b Hc) as [[-> ->]|(-> & -> & _)]; cbn [Nat.add].
    + rewrite (R 1%nat _ eq_refl). now apply PD.
    + rewrite (R 2%nat _ eq_refl). now apply PD.
Qed.
Print Assumptions C13_density_only.
