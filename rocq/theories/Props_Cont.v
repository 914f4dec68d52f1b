(** * Property theorems: energies have no jumps (C43) *)
From Coq Require Import Reals QArith Qreals ZArith Arith Lia Lra Psatz List Bool String.
From Coquelicot Require Import Coquelicot.
From Verif Require Import Scalar RInst Tables Api SpecApi ApiProofs ApiProofs2 CTaylor CtAlg TMath Br Expr Densvars Functionals
  Eval SpecEval EvalSem EvalProps Taint EvalExt Props_Eval Sem RSem EnergyR EvalR EvalReal EvalApi Phys Mk Props_Deriv Dom Oblig Safe Safe2 Props_Dens Props_Dens2 Props_Scale Props_Scale2 Value.
From Verif Require Import Itv.
From Verif Require Import Published PubTac PubX PubC PubM PubNear LrPart PubErf Props_Published Props_Published3 Props_Published5 Cont PubS PubS2 ContS.
Import ListNotations.
Local Open Scope outcome_scope.
Local Open Scope R_scope.

(** Functionals that choose between two formulas by comparing numbers. *)
Definition branching : list string :=
  ["BECKEX"; "BECKECORRX"; "BECKESRX"; "BECKECAMX"; "BRX"; "BRC"; "BRXC"; "LDAERFX"; "PW91X"; "PW91K";
   "SCANC"; "SCANX"; "RSCANC"; "RSCANX"; "RPPSCANC"; "RPPSCANX"; "R2SCANC"; "R2SCANX"; "R4SCANC"; "R4SCANX"; "PZ81C"; "P86C"]%string.
(** [y] is within [d] of [x] in each of the first [m] inputs. *)
Definition within (m : nat) (d : R) (x y : nat -> R) : Prop := forall i, (i < m)%nat -> Rabs (y i - x i) < d.
(** No jump at [x]: the energy is returned at every input close to [x], and changes as little as desired. *)
Definition no_jump (m : nat) (E : (nat -> R) -> R -> Prop) (x : nat -> R) (e : R) : Prop :=
  forall eps, 0 < eps -> exists d, 0 < d /\ forall y, within m d x y -> exists e', E y e' /\ Rabs (e' - e) < eps.

Lemma unbroken_all : forallb (fun i => match nth_error item_names i, nth_error functionals i with
     | Some nm, Some (_, e) => orb (existsb (String.eqb nm) branching) (unbroken e)
     | _, _ => false end) (seq 0 78) = true.
Proof. vm_compute. reflexivity. Qed.
Lemma not_branching i nm nm' e : (i < 78)%nat -> nth_error item_names i = Some nm -> ~ In nm branching -> nth_error functionals i = Some (nm', e) -> unbroken e = true.
Proof.
  intros L En N He. pose proof (proj1 (forallb_forall _ _) unbroken_all i ltac:(apply in_seq; lia)) as X. cbv beta in X. rewrite En, He in X.
  apply orb_true_iff in X. destruct X as [X|X]; [|exact X]. exfalso. apply N. apply existsb_exists in X. destruct X as (s & Hs & Es).
  apply String.eqb_eq in Es. now subst s.
Qed.


(** The core: wherever no comparison is met with both sides equal. *)
Lemma settled_no_jump (h h0 : handle ROps) v vd x e : reachable h -> vars_entry v = Ok vd -> ~ In v unsupported_vars ->
  xcfun_eval_setup h v XC_PARTIAL_DERIVATIVES 0 = Ok (h0, 0%Z) ->
  (forall p fl i nm f, dv_prog v = Some p -> rrun (h_settings h) x (fun _ => 0) p = Some fl -> In i (h_active h) -> nth_error functionals i = Some (nm, f) -> settled (h_settings h) x fl [] f) ->
  library_energy h0 x e -> no_jump (Z.to_nat (v_len vd)) (library_energy h0) x e.
Proof.
  intros Hr Ve Nu S B Le eps P. destruct (setup_partial0 h h0 v Hr S Nu) as [vd' G].
  assert (vd' = vd) by (pose proof (gs_entry _ _ _ _ _ _ G); congruence). subst vd'.
  destruct (setup_gives_valid h v _ _ h0 S) as (_ & Ev & _ & _ & Ea & Es). rewrite <- Ea, <- Es in B. rewrite <- Ev in B.
  assert (L : forall i, In i (h_active h0) -> (i < 78)%nat) by (intros i Hi; apply (proj1 (gs_ready _ _ _ _ _ _ G)); exact Hi).
  destruct (dv_prog (h_vars h0)) as [p|] eqn:Ep.
  2:{ apply (lib_energy _ _ _ _ _ _ G) in Le. unfold energy, densvars in Le. rewrite Ep in Le. discriminate. }
  apply (lib_energy _ _ _ _ _ _ G) in Le.
  destruct (energy_continuous h0 p x e Ep L (fun fl i nm f => B p fl i nm f eq_refl) Le eps P) as (d & D & H). exists d. split; [exact D|]. intros y Y.
  set (y' := fun i => if (i <? Z.to_nat (v_len vd))%nat then y i else x i).
  assert (Ny : nearby d x y').
  { intro i. unfold y'. destruct (Nat.ltb_spec i (Z.to_nat (v_len vd))) as [Li|Li]; [now apply Y|]. rewrite Rminus_diag_eq, Rabs_R0; [exact D|reflexivity]. }
  destruct (H y' Ny) as (e' & E' & Q). exists e'. split; [|exact Q]. apply (lib_energy _ _ _ _ _ _ G). rewrite <- E'.
  apply (energy_ext h0 vd); [apply (gs_ready _ _ _ _ _ _ G)|rewrite (gs_vars _ _ _ _ _ _ G); exact Ve|].
  intros i Hi. unfold y'. destruct (Nat.ltb_spec i (Z.to_nat (v_len vd))); [reflexivity|lia].
Qed.
(** C43.  Any weighted sum of functionals that do not branch: where the library returns an energy, it returns one
    at all nearby inputs, and the energy is a continuous function of all inputs together.  No condition on the
    density: zero and negative densities, zero gradients and values at the density threshold are included. *)
Theorem C43_continuous :
  forall (h h0 : handle ROps) v vd x e, reachable h -> vars_entry v = Ok vd -> ~ In v unsupported_vars ->
    xcfun_eval_setup h v XC_PARTIAL_DERIVATIVES 0 = Ok (h0, 0%Z) ->
    (forall i nm, In i (h_active h) -> nth_error item_names i = Some nm -> ~ In nm branching) ->
    library_energy h0 x e -> no_jump (Z.to_nat (v_len vd)) (library_energy h0) x e.
Proof.
  intros h h0 v vd x e Hr Ve Nu S Nb. apply (settled_no_jump h h0 v vd x e Hr Ve Nu S). intros p fl i nm f _ _ Hi Hf.
  assert (L : (i < 78)%nat) by now apply (reachable_wf h Hr). destruct (item_ex i L) as [nm' En].
  apply unbroken_settled. exact (not_branching i nm' nm f L En (Nb i nm' Hi En) Hf).
Qed.
Print Assumptions C43_continuous.

(** ** Away from the switching points *)
(** The reduced gradient that Becke's functionals compare with 1/2. *)
Definition chi2 (s : spin) : R := dot (grad s) (grad s) * Rpower (rho s) (- (8 / 3)).
(** mu / (2 kF), compared with 1e-9, 100 and 1e9. *)
Definition mu_ratio (mu : R) (s : spin) : R := ldaerf_a mu (2 * rho s).
(** The square of the reduced gradient s, spin-scaled, compared with 1/(2 b^2) by the PW91 functionals. *)
Definition red2_spin (s : spin) : R := red2 (2 * rho s) (4 * dot (grad s) (grad s)).
Definition away (mu : R) (D : dens) (nm : string) : Prop :=
  ~ In nm branching \/
  (In nm ["BECKEX"; "BECKECORRX"; "BECKESRX"; "BECKECAMX"]%string /\ forall s, In s [al D; be D] -> chi2 s <> / 2) \/
  (nm = "PW91X"%string /\ forall s, In s [al D; be D] -> 7.7956 ^ 2 * red2_spin s <> / 2) \/
  (nm = "PW91K"%string /\ forall s, In s [al D; be D] -> 76.320 ^ 2 * red2_spin s <> / 2) \/
  (In nm ["PZ81C"; "P86C"]%string /\ Published.rs (ntot D) <> 1) \/
  (nm = "LDAERFX"%string /\ forall s, In s [al D; be D] -> mu_ratio mu s <> 1 / 1000000000 /\ mu_ratio mu s <> 100 /\ mu_ratio mu s <> 1000000000) \/
  (nm = "SCANX"%string /\ both_spins scan_x_off mu D) \/
  (nm = "RSCANX"%string /\ both_spins rscan_x_off mu D) \/
  (In nm ["RPPSCANX"; "R2SCANX"; "R4SCANX"]%string /\ both_spins r2scan_x_off mu D) \/
  (nm = "SCANC"%string /\ off_rs (ntot D) /\ off_tau (ntot D) (stot D) (kin (al D) + kin (be D)) /\
     alpha_scan (tf (ntot D) * ds_z (zet D)) (ntot D) (stot D) (kin (al D) + kin (be D)) <> 1) \/
  (nm = "RSCANC"%string /\ off_rs (ntot D) /\ off_ief (alpha_rscan (tf_r (ntot D) * ds_z (zet D)) (ntot D) (stot D) (kin (al D) + kin (be D)))) \/
  (In nm ["RPPSCANC"; "R2SCANC"; "R4SCANC"]%string /\ off_rs (ntot D) /\ off_tau (ntot D) (stot D) (kin (al D) + kin (be D)) /\
     off_ief (alpha_r2scan (tf (ntot D) * ds_z (zet D)) (ntot D) (stot D) (kin (al D) + kin (be D)))).
Ltac two := match goal with A : reval _ _ _ _ _ = Some ?v, B : reval _ _ _ _ _ = Some ?w |- ?v <> ?w /\ _ => cbn in A, B; injection A as <-; injection B as <- end.
Ltac vals := repeat match goal with H : reval _ _ _ _ _ = Some ?v |- _ => apply tv_ok in H; subst v end.
Ltac er := split; [vals; match goal with |- ?l <> ?r => let l' := eval cbv -[Rplus Rmult Ropp Rminus Rdiv Rinv Rpower PI IZR Q2R] in l in let r' := eval cbv -[Rdiv IZR Q2R] in r in change (l' <> r') end; decs; unfold Rdiv in *; rewrite ?Rinv_1, ?Rmult_1_r, ?Rmult_1_l in *; replace (3093667726280136 * / 1000000000000000) with (386708465785017 * / 125000000000000) in * by field; assumption|split; intros _; stl; try er].
Section AWAY.
Variable st : nat -> T ROps.
Variable x : nat -> R.
Variable fl : fld -> R.
Hypothesis P : phys fl.
Lemma pz_settled : fl f_r_s <> 1 -> settled st x fl [] pz81eps.
Proof.
  intro H. unfold pz81eps. stl. two.
  split; [|split; intros _; apply unbroken_settled; vm_compute; reflexivity]. replace (Q2R 1) with 1 by (unfold Q2R; cbn; lra). exact H.
Qed.
Lemma pz81_settled : fl f_r_s <> 1 -> settled st x fl [] pz81c.
Proof. intro H. unfold pz81c. apply s_mul; [now apply pz_settled|stl]. Qed.
Lemma p86_settled : fl f_r_s <> 1 -> settled st x fl [] p86c.
Proof. intro H. unfold p86c. apply s_add; [apply s_mul; [stl|now apply pz_settled]|stl]. Qed.
Lemma becke_settled e : In e [beckex; beckex_beckexcorr; beckex_beckesrx; beckex_beckecamx] ->
  fl f_gaa * Rpower (fl f_a) (- (8 / 3)) <> / 2 -> fl f_gbb * Rpower (fl f_b) (- (8 / 3)) <> / 2 -> settled st x fl [] e.
Proof.
  intros I' Ha Hb. cbn [In] in I'. destruct I' as [<-|[<-|[<-|[<-|[]]]]]; stl; vals.
  all: match goal with |- ?l <> _ => first
    [ replace l with (fl f_gaa * Rpower (fl f_a) (- (8 / 3))) by (symmetry; vred; decs; do 2 f_equal; field); exact Ha
    | replace l with (fl f_gbb * Rpower (fl f_b) (- (8 / 3))) by (symmetry; vred; decs; do 2 f_equal; field); exact Hb ] end.
Qed.
Lemma erf_settled : (forall n, n = fl f_a \/ n = fl f_b -> ldaerf_a (st 78%nat) (2 * n) <> 1 / 1000000000 /\ ldaerf_a (st 78%nat) (2 * n) <> 100 /\ ldaerf_a (st 78%nat) (2 * n) <> 1000000000) ->
  settled st x fl [] ldaerfx_lda_erfx.
Proof.
  intro H. destruct (H _ (or_introl eq_refl)) as (A1 & A2 & A3). destruct (H _ (or_intror eq_refl)) as (B1 & B2 & B3). clear H.
  unfold ldaerf_a in *. revert A1 A2 A3 B1 B2 B3. decs. intros.
  stl; er.
Qed.
Lemma pw91_settled b e : In (b, e) [(7.7956, pw91x); (76.320, pw91k)] ->
  b ^ 2 * red2 (2 * fl f_a) (4 * fl f_gaa) <> / 2 -> b ^ 2 * red2 (2 * fl f_b) (4 * fl f_gbb) <> / 2 -> settled st x fl [] e.
Proof.
  intros I' Ha Hb. assert (Na : 0 < fl f_a) by apply P. assert (Nb : 0 < fl f_b) by apply P.
  assert (R2 : forall n g, 0 < n -> red2 (2 * n) (4 * g) = g / Rpower n (8 / 3) * Rpower (Rpower 6 (2 / 3) / (12 * Rpower PI (2 / 3))) 2).
  { intros n g N. unfold red2, kF.
    transitivity (g * (4 / (2 * Rpower (3 * PI ^ 2 * (2 * n)) (1 / 3) * (2 * n)) ^ 2)); [unfold Rdiv; ring|].
    transitivity (g * (/ Rpower n (8 / 3) * Rpower (Rpower 6 (2 / 3) / (12 * Rpower PI (2 / 3))) 2)); [|unfold Rdiv; ring].
    f_equal. mono. }
  rewrite !R2 in Ha, Hb by assumption.
  cbn [In] in I'. destruct I' as [E|[E|[]]]; injection E as <- <-; stl; vals.
  all: match goal with |- ?l <> ?r => let l' := eval cbv -[Rplus Rmult Ropp Rminus Rdiv Rinv Rpower PI IZR Q2R pow] in l in change (l' <> r) end; revert Ha Hb; decs;
    set (c := Rpower (_ / _) 2); set (qa := fl f_gaa / _); set (qb := fl f_gbb / _); intros Ha Hb C; first [apply Ha; rewrite <- C; field|apply Hb; rewrite <- C; field].
Qed.
End AWAY.
Fixpoint nodup (l : list string) : bool := match l with [] => true | a :: l' => andb (negb (existsb (String.eqb a) l')) (nodup l') end.
Lemma nodup_b l : nodup l = true -> NoDup l.
Proof.
  induction l as [|a l IH]; cbn [nodup]; intro H; constructor; apply andb_true_iff in H; destruct H as [A B]; [|now apply IH].
  intro I'. apply negb_true_iff in A. assert (X : existsb (String.eqb a) l = true) by (apply existsb_exists; exists a; split; [exact I'|apply String.eqb_refl]). congruence.
Qed.
Lemma name_index i nm j : nth_error item_names i = Some nm -> nth_error item_names j = Some nm -> i = j.
Proof.
  intros A B. assert (N : NoDup item_names) by (apply nodup_b; vm_compute; reflexivity).
  assert (L : (i < List.length item_names)%nat) by (apply nth_error_Some; congruence). apply (proj1 (NoDup_nth_error item_names) N i j L). congruence.
Qed.
Lemma dot_pos v : 0 <= dot v v.
Proof. unfold dot. pose proof (pow2_ge_0 (vx v)). pose proof (pow2_ge_0 (vy v)). pose proof (pow2_ge_0 (vz v)). lra. Qed.
Lemma away_settled st D i nm nm' f : above D -> (i < 78)%nat -> nth_error item_names i = Some nm -> nth_error functionals i = Some (nm', f) -> away (st 78%nat) D nm ->
  unbroken f = true \/ (i <> XC_REVTPSSX_id /\ settled st (fun _ => 0) (dvar D) [] f).
Proof.
  intros Ab L N F A. pose proof (phys_dvar D Ab) as P.
  destruct A as [A|A]; [left; exact (not_branching i nm nm' f L N A F)|right].
  assert (S1 : In (al D) [al D; be D]) by (left; reflexivity). assert (S2 : In (be D) [al D; be D]) by (right; left; reflexivity).
  destruct A as [[I' A]|[[-> A]|[[-> A]|[[I' A]|[[-> A]|[[-> A]|[[-> A]|[[I' A]|[[-> A]|[[-> A]|[I' A]]]]]]]]]]].
  - pose proof (A _ S1) as A1. pose proof (A _ S2) as A2. clear A. cbn [In] in I'.
    destruct I' as [<-|[<-|[<-|[<-|[]]]]].
    + rewrite (name_index i _ 6%nat N eq_refl) in F |- *. injection F as _ <-. split; [discriminate|]. apply becke_settled; [cbn; tauto|exact A1|exact A2].
    + rewrite (name_index i _ 7%nat N eq_refl) in F |- *. injection F as _ <-. split; [discriminate|]. apply becke_settled; [cbn; tauto|exact A1|exact A2].
    + rewrite (name_index i _ 8%nat N eq_refl) in F |- *. injection F as _ <-. split; [discriminate|]. apply becke_settled; [cbn; tauto|exact A1|exact A2].
    + rewrite (name_index i _ 9%nat N eq_refl) in F |- *. injection F as _ <-. split; [discriminate|]. apply becke_settled; [cbn; tauto|exact A1|exact A2].
  - rewrite (name_index i _ 26%nat N eq_refl) in F |- *. injection F as _ <-. split; [discriminate|].
    apply (pw91_settled st (fun _ => 0) (dvar D) P 7.7956); [cbn; tauto|exact (A _ S1)|exact (A _ S2)].
  - rewrite (name_index i _ 27%nat N eq_refl) in F |- *. injection F as _ <-. split; [discriminate|].
    apply (pw91_settled st (fun _ => 0) (dvar D) P 76.320); [cbn; tauto|exact (A _ S1)|exact (A _ S2)].
  - assert (R : dvar D f_r_s <> 1) by (rewrite (ph_rs _ P); exact A). cbn [In] in I'. destruct I' as [<-|[<-|[]]].
    + rewrite (name_index i _ 55%nat N eq_refl) in F |- *. injection F as _ <-. split; [discriminate|]. now apply pz81_settled.
    + rewrite (name_index i _ 56%nat N eq_refl) in F |- *. injection F as _ <-. split; [discriminate|]. now apply p86_settled.
  - rewrite (name_index i _ 13%nat N eq_refl) in F |- *. injection F as _ <-. split; [discriminate|].
    apply erf_settled. intros n [->| ->]; [exact (A _ S1)|exact (A _ S2)].
  - destruct A as [Aa Ab']. rewrite (name_index i _ 46%nat N eq_refl) in F |- *. injection F as _ <-. split; [discriminate|]. exact (scanx_settled st (fun _ => 0) (dvar D) P (dot_pos _) (dot_pos _) Aa Ab').
  - destruct A as [Aa Ab']. rewrite (name_index i _ 48%nat N eq_refl) in F |- *. injection F as _ <-. split; [discriminate|]. exact (rscanx_settled st (fun _ => 0) (dvar D) P (dot_pos _) (dot_pos _) Aa Ab').
  - destruct A as [Aa Ab']. cbn [In] in I'. destruct I' as [<-|[<-|[<-|[]]]].
    + rewrite (name_index i _ 50%nat N eq_refl) in F |- *. injection F as _ <-. split; [discriminate|]. apply (r2scanx_settled st (fun _ => 0) (dvar D) P _ (dot_pos _) (dot_pos _) Aa Ab'); cbn [In]; tauto.
    + rewrite (name_index i _ 52%nat N eq_refl) in F |- *. injection F as _ <-. split; [discriminate|]. apply (r2scanx_settled st (fun _ => 0) (dvar D) P _ (dot_pos _) (dot_pos _) Aa Ab'); cbn [In]; tauto.
    + rewrite (name_index i _ 54%nat N eq_refl) in F |- *. injection F as _ <-. split; [discriminate|]. apply (r2scanx_settled st (fun _ => 0) (dvar D) P _ (dot_pos _) (dot_pos _) Aa Ab'); cbn [In]; tauto.
  - destruct A as (A1 & A2 & A3). rewrite (name_index i _ 45%nat N eq_refl) in F |- *. injection F as _ <-. split; [discriminate|]. apply s_let; [exact (scanc_settled st (fun _ => 0) (dvar D) P A1 A2 A3)|intros; exact Logic.I].
  - destruct A as (A1 & A2). rewrite (name_index i _ 47%nat N eq_refl) in F |- *. injection F as _ <-. split; [discriminate|]. apply s_let; [exact (rscanc_settled st (fun _ => 0) (dvar D) P A1 A2)|intros; exact Logic.I].
  - destruct A as (A1 & A2 & A3). cbn [In] in I'. destruct I' as [<-|[<-|[<-|[]]]].
    + rewrite (name_index i _ 49%nat N eq_refl) in F |- *. injection F as _ <-. split; [discriminate|]. apply s_let; [refine (r2scanc_settled st (fun _ => 0) (dvar D) P 0 A1 A2 A3 _); lia|intros; exact Logic.I].
    + rewrite (name_index i _ 51%nat N eq_refl) in F |- *. injection F as _ <-. split; [discriminate|]. apply s_let; [refine (r2scanc_settled st (fun _ => 0) (dvar D) P 1 A1 A2 A3 _); lia|intros; exact Logic.I].
    + rewrite (name_index i _ 53%nat N eq_refl) in F |- *. injection F as _ <-. split; [discriminate|]. apply s_let; [refine (r2scanc_settled st (fun _ => 0) (dvar D) P 2 A1 A2 A3 _); lia|intros; exact Logic.I].
Qed.

(** C43 (away from the switching points).  All functionals that branch, except the Becke-Roussel ones, are continuous at every density where none
    of their comparisons is met with equality; sums with functionals that do not branch are included. *)
Theorem C43_away_from_switches :
  forall (h h0 : handle ROps) v vd D x e, reachable h -> vars_entry v = Ok vd ->
    xcfun_eval_setup h v XC_PARTIAL_DERIVATIVES 0 = Ok (h0, 0%Z) -> above D -> describes v x D ->
    (forall i nm, In i (h_active h) -> nth_error item_names i = Some nm -> away (h_settings h XC_RANGESEP_MU) D nm) ->
    library_energy h0 x e -> no_jump (Z.to_nat (v_len vd)) (library_energy h0) x e.
Proof.
  intros h h0 v vd D x e Hr Ve S Ab De Aw. pose proof De as [Hv _].
  assert (Nu : ~ In v unsupported_vars) by (apply supported_sets; tauto).
  apply (settled_no_jump h h0 v vd x e Hr Ve Nu S). intros p fl i nm f Ep Er Hi Hf.
  assert (L : (i < 78)%nat) by now apply (reachable_wf h Hr). destruct (item_ex i L) as [nm' En].
  destruct (away_settled (h_settings h) D i nm' nm f Ab L En Hf (Aw i nm' Hi En)) as [U|[Ni Se]]; [now apply unbroken_settled|].
  destruct (densvars_canonical (h_settings h) x v D p Ab De Ep) as (fl' & Ef & F). rewrite Er in Ef. injection Ef as <-.
  apply (settled_clean _ (fun _ => 0) x (provided v) (dvar D) fl (fun g Hg => eq_sym (F g Hg))); [|exact Se].
  destruct (setup_gives_valid h v _ _ h0 S) as (Sv & Evv & _ & _ & Ea & _). pose proof (reach_setup h h0 v _ _ _ Hr S) as Hr'.
  destruct (setup_valid_code h0 (reachable_wf h0 Hr') Sv) as (vd' & E0 & Vs & _). rewrite Evv, Ve in E0. injection E0 as <-.
  pose proof (flags_sound_ok i L Ni) as Fs. unfold flags_sound in Fs. rewrite Hf in Fs. eapply clean_imp; [|exact Fs].
  intros g Hg. unfold provided. rewrite Ve. apply subset_declared with (2 := Hg). apply Vs. now rewrite Ea.
Qed.
Print Assumptions C43_away_from_switches.

(** ** The correlation energy of Perdew and Zunger jumps at r_s = 1 *)
Definition D_n (n : R) : dens :=
  {| al := {| rho := n / 2; grad := V 0 0 0; hes := h0_; kin := 1; jp := 0 |}; be := {| rho := n / 2; grad := V 0 0 0; hes := h0_; kin := 1; jp := 0 |} |}.
Definition n1 : R := 3 / (4 * PI).
Lemma n1_range : 3 / 16 <= n1 <= 1 / 4.
Proof.
  unfold n1. pose proof PI_4. pose proof PI2_3_2. assert (0 < 4 * PI) by lra. split.
  - apply Rmult_le_reg_r with (4 * PI); [lra|]. replace (3 / (4 * PI) * (4 * PI)) with 3 by (field; lra). lra.
  - apply Rmult_le_reg_r with (4 * PI); [lra|]. replace (3 / (4 * PI) * (4 * PI)) with 3 by (field; lra). lra.
Qed.
(** The density with r_s = 1 / (1 + t). *)
Definition n_t (t : R) : R := n1 * (1 + t) ^ 3.
Lemma rs_t t : 0 <= t -> Published.rs (n_t t) = / (1 + t).
Proof.
  intro H. unfold Published.rs, n_t, n1. replace (3 / (4 * PI * (3 / (4 * PI) * (1 + t) ^ 3))) with ((/ (1 + t)) ^ 3).
  - rewrite <- Rpower_pow by (apply Rinv_0_lt_compat; lra). rewrite Rpower_mult. replace (INR 3 * (1 / 3)) with 1 by (cbn; field).
    apply Rpower_1. apply Rinv_0_lt_compat; lra.
  - pose proof PI2_3_2. field. split; [lra|]. nra.
Qed.
Lemma n_t_range t : 0 <= t <= 1 / 100000 -> n1 <= n_t t <= n1 + n1 * (31 / 10 * t).
Proof.
  intro H. pose proof n1_range. unfold n_t. assert (C : 1 <= (1 + t) ^ 3 <= 1 + 31 / 10 * t) by (cbn [pow]; split; nra). split; nra.
Qed.
Lemma fz0 : fz 0 = 0.
Proof. unfold fz, fz_num. rewrite Rplus_0_r, Rminus_0_r. unfold Rpower. rewrite ln_1, !Rmult_0_r, exp_0. unfold Rdiv. ring. Qed.
Lemma pz_at t : 0 < t <= 1 / 100000 -> n1 * (- (1423 / 10000) / (23863 / 10000)) + 1 / 1000000 <= n_t t * eps_pz81 (n_t t) 0.
Proof.
  intro H. pose proof (n_t_range t ltac:(lra)) as N. pose proof n1_range as N1. unfold eps_pz81. rewrite fz0, Rmult_0_r, Rplus_0_r, (rs_t t ltac:(lra)).
  assert (R1 : / (1 + t) < 1) by (rewrite <- Rinv_1; apply Rinv_lt_contravar; lra).
  assert (R0 : 0 < / (1 + t)) by (apply Rinv_0_lt_compat; lra).
  destruct (Rlt_dec (/ (1 + t)) 1) as [_|X]; [|contradiction]. unfold pz81_high. decs.
  assert (L : - t <= ln (/ (1 + t)) <= 0).
  { rewrite ln_Rinv by lra. pose proof (exp_ineq1_le t) as Ex. split.
    - apply Ropp_le_contravar. rewrite <- (ln_exp t) at 2. destruct Ex as [Ex|Ex]; [left; apply ln_increasing; lra|rewrite Ex; lra].
    - assert (0 < ln (1 + t)); [|lra]. rewrite <- ln_1. apply ln_increasing; lra. }
  set (r := / (1 + t)) in *. set (l := ln r) in *.
  assert (E : - (596 / 10000) - 331 / 10000 * t <= 311 / 10000 * l + - (48 / 1000) + 20 / 10000 * r * l + - (116 / 10000) * r) by nra.
  set (q := 311 / 10000 * l + _ + _ + _) in *.
  match goal with |- _ <= _ * ?z => assert (Ez : z = q) by (unfold q; field) end.
  rewrite Ez. assert (Q : n_t t * (- (596 / 10000) - 331 / 10000 * t) <= n_t t * q) by (apply Rmult_le_compat_l; lra). nra.
Qed.
Lemma pz_1 : n_t 0 * eps_pz81 (n_t 0) 0 = n1 * (- (1423 / 10000) / (23863 / 10000)).
Proof.
  unfold eps_pz81. rewrite fz0, Rmult_0_r, Rplus_0_r, (rs_t 0 ltac:(lra)). rewrite Rplus_0_r, Rinv_1. destruct (Rlt_dec 1 1) as [X|_]; [lra|].
  unfold n_t, pz81_low. rewrite sqrt_1. decs. cbn [pow]. field.
Qed.
(** C43 (refuted for PZ81C).  At one density, arbitrarily small changes of the density change the energy by at least 1e-6. *)
Theorem C43_pz81c_refuted :
  exists (h h0 : handle ROps) vd x e, Api.run xcfun_new [CSet "pz81c" (1 : ROps)] = Ok h /\ vars_entry XC_A_B = Ok vd /\
    xcfun_eval_setup h XC_A_B XC_PARTIAL_DERIVATIVES 0 = Ok (h0, 0%Z) /\ library_energy h0 x e /\
    (forall d, 0 < d -> exists y e', within (Z.to_nat (v_len vd)) d x y /\ 0 < y 0%nat /\ 0 < y 1%nat /\ library_energy h0 y e' /\ 1 / 1000000 <= e' - e) /\
    ~ no_jump (Z.to_nat (v_len vd)) (library_energy h0) x e.
Proof.
  destruct (make (K := ROps) [("pz81c"%string, 55%nat, 1)] eq_refl) as (h & Eh & Hr & A & Es). change (mactive _) with [55]%nat in A.
  assert (W : h_settings h 55%nat = 1) by (rewrite Es; unfold msettings; cbn [map fold_left fst snd]; unfold wr_settings, upd; cbn; unfold Q2R; cbn; lra).
  assert (Mu : 0 < (h_settings h XC_RANGESEP_MU : R)) by (rewrite Es; unfold msettings; cbn [map fold_left fst snd]; unfold wr_settings, upd; cbn; unfold Q2R; cbn; lra).
  assert (S : exists h1, xcfun_eval_setup h XC_A_B XC_PARTIAL_DERIVATIVES 0 = Ok (h1, 0%Z)) by (eexists; apply accepts_ok; [exact Hr|rewrite A; vm_compute; reflexivity]).
  destruct S as [h0 S]. pose (inp := fun t i => nth i (encode XC_A_B (D_n (n_t t))) 0).
  assert (V : forall t, 0 <= t <= 1 / 100000 -> library_energy h0 (inp t) (n_t t * eps_pz81 (n_t t) 0)).
  { intros t Ht. pose proof (n_t_range t Ht) as N. pose proof n1_range as N1.
    assert (Ab : above (D_n (n_t t))) by (split; cbn [rho al be D_n]; change threshold with (1 * / 100000000000000); lra).
    assert (De : describes XC_A_B (inp t) (D_n (n_t t))) by (apply encode_describes; cbn; tauto).
    pose proof (one_defined h h0 XC_A_B (D_n (n_t t)) (inp t) 55 "PZ81C"%string _ _ Hr S A ltac:(discriminate) ltac:(lia) eq_refl eq_refl Mu ltac:(left; cbn [In any_gradient]; tauto) Ab De) as Le.
    rewrite W in Le. match type of Le with library_energy _ _ (1 * ?z) => assert (Ez : z = n_t t * eps_pz81 (n_t t) 0) end.
    2:{ rewrite Ez, Rmult_1_l in Le. exact Le. }
    etransitivity; [apply (k_pz81 (h_settings h) (fun _ => 0) (dvar (D_n (n_t t))) (phys_dvar _ Ab))|].
    replace (dvar (D_n (n_t t)) f_n) with (n_t t) by (cbn; field). replace (dvar (D_n (n_t t)) f_zeta) with 0 by (cbn; unfold Rdiv; ring). reflexivity. }
  assert (Vd : exists vd, vars_entry XC_A_B = Ok vd /\ Z.to_nat (v_len vd) = 2%nat) by (eexists; split; vm_compute; reflexivity).
  destruct Vd as (vd & Ev & Lv). exists h, h0, vd, (inp 0), (n_t 0 * eps_pz81 (n_t 0) 0). split; [exact Eh|]. split; [exact Ev|]. split; [exact S|].
  split; [apply V; lra|].
  assert (J : forall d, 0 < d -> exists y e', within (Z.to_nat (v_len vd)) d (inp 0) y /\ 0 < y 0%nat /\ 0 < y 1%nat /\ library_energy h0 y e' /\ 1 / 1000000 <= e' - n_t 0 * eps_pz81 (n_t 0) 0).
  { intros d Hd. set (t := Rmin d (1 / 100000)). assert (Ht : 0 < t <= 1 / 100000) by (split; [apply Rmin_pos; lra|apply Rmin_r]).
    assert (Td : t <= d) by apply Rmin_l. pose proof (n_t_range t ltac:(lra)) as N. pose proof n1_range as N1. pose proof (n_t_range 0 ltac:(lra)) as N0.
    exists (inp t), (n_t t * eps_pz81 (n_t t) 0). rewrite Lv. split; [|split; [|split; [|split]]].
    - intros i Hi. assert (Hc : Rabs (n_t t / 2 - n_t 0 / 2) < d) by (apply Rabs_def1; nra).
      destruct i as [|[|i]]; [exact Hc|exact Hc|lia].
    - change (0 < n_t t / 2). lra.
    - change (0 < n_t t / 2). lra.
    - apply V. lra.
    - pose proof (pz_at t Ht). rewrite pz_1. lra. }
  split; [exact J|]. intro C. destruct (C (1 / 1000000) ltac:(lra)) as (d & D & H). destruct (J d D) as (y & e' & Y & _ & _ & E' & Q).
  destruct (H y Y) as (e2 & E2 & Q2). assert (e2 = e') by (destruct E2 as (w1 & X1 & <-), E' as (w2 & X2 & <-); congruence). subst e2.
  apply Rabs_def2 in Q2. lra.
Qed.
Print Assumptions C43_pz81c_refuted.

(** *** A concrete case: PBE at a density with vanishing gradient. *)
Example C43_example : exists (h h0 : handle ROps) vd x e, reachable h /\ h_active h = [5; 4]%nat /\ vars_entry XC_A_B_GAA_GAB_GBB = Ok vd /\ ~ In XC_A_B_GAA_GAB_GBB unsupported_vars /\
  xcfun_eval_setup h XC_A_B_GAA_GAB_GBB XC_PARTIAL_DERIVATIVES 0 = Ok (h0, 0%Z) /\
  (forall i nm, In i (h_active h) -> nth_error item_names i = Some nm -> ~ In nm branching) /\
  library_energy h0 x e /\ no_jump (Z.to_nat (v_len vd)) (library_energy h0) x e.
Proof.
  destruct (make (K := ROps) [("pbex"%string, 5%nat, 1); ("pbec"%string, 4%nat, 1)] eq_refl) as (h & Eh & Hr & A & Es). change (mactive _) with [5; 4]%nat in A.
  assert (Mu : 0 < (h_settings h XC_RANGESEP_MU : R)) by (rewrite Es; unfold msettings; cbn [map fold_left fst snd]; unfold wr_settings, upd; cbn; unfold Q2R; cbn; lra).
  assert (S : exists h1, xcfun_eval_setup h XC_A_B_GAA_GAB_GBB XC_PARTIAL_DERIVATIVES 0 = Ok (h1, 0%Z)) by (eexists; apply accepts_ok; [exact Hr|rewrite A; vm_compute; reflexivity]).
  destruct S as [h0 S]. assert (Ab : above (D_n 1)) by (split; cbn [rho al be D_n]; change threshold with (1 * / 100000000000000); lra).
  assert (Ac : all_covered h (D_n 1)).
  { intros i nm Hi N. rewrite A in Hi. cbn [In] in Hi. destruct Hi as [<- | [<- | []]]; vm_compute in N; injection N as <-; left; cbn [In any_gradient]; tauto. }
  destruct (covered_energy0 h h0 _ (D_n 1) _ Hr S Mu Ac Ab (encode_describes XC_A_B_GAA_GAB_GBB (D_n 1) ltac:(cbn; tauto))) as [e E].
  assert (Nu : ~ In XC_A_B_GAA_GAB_GBB unsupported_vars) by (vm_compute; intuition discriminate).
  assert (Vd : exists vd, vars_entry XC_A_B_GAA_GAB_GBB = Ok vd) by (eexists; vm_compute; reflexivity). destruct Vd as [vd Ev].
  assert (Nb : forall i nm, In i (h_active h) -> nth_error item_names i = Some nm -> ~ In nm branching).
  { intros i nm Hi N. rewrite A in Hi. cbn [In] in Hi. destruct Hi as [<- | [<- | []]]; vm_compute in N; injection N as <-; intro X; repeat (destruct X as [X|X]; [discriminate X|]); exact X. }
  destruct (setup_partial0 h h0 _ Hr S Nu) as [vd' G]. apply (lib_energy _ _ _ _ _ _ G) in E.
  exists h, h0, vd. eexists. exists e. repeat (split; [eassumption|]). exact (C43_continuous h h0 _ vd _ e Hr Ev Nu S Nb E).
Qed.
(** *** Away from switching points: Becke exchange with Perdew-Zunger correlation, at zero gradient and r_s < 1. *)
Example C43_away_example : exists (h h0 : handle ROps) vd x e, reachable h /\ h_active h = [6; 55]%nat /\ vars_entry XC_A_B_GAA_GAB_GBB = Ok vd /\
  xcfun_eval_setup h XC_A_B_GAA_GAB_GBB XC_PARTIAL_DERIVATIVES 0 = Ok (h0, 0%Z) /\ above (D_n 1) /\ describes XC_A_B_GAA_GAB_GBB x (D_n 1) /\
  (forall i nm, In i (h_active h) -> nth_error item_names i = Some nm -> away (h_settings h XC_RANGESEP_MU) (D_n 1) nm) /\
  library_energy h0 x e /\ no_jump (Z.to_nat (v_len vd)) (library_energy h0) x e.
Proof.
  destruct (make (K := ROps) [("beckex"%string, 6%nat, 1); ("pz81c"%string, 55%nat, 1)] eq_refl) as (h & Eh & Hr & A & Es). change (mactive _) with [6; 55]%nat in A.
  assert (Mu : 0 < (h_settings h XC_RANGESEP_MU : R)) by (rewrite Es; unfold msettings; cbn [map fold_left fst snd]; unfold wr_settings, upd; cbn; unfold Q2R; cbn; lra).
  assert (S : exists h1, xcfun_eval_setup h XC_A_B_GAA_GAB_GBB XC_PARTIAL_DERIVATIVES 0 = Ok (h1, 0%Z)) by (eexists; apply accepts_ok; [exact Hr|rewrite A; vm_compute; reflexivity]).
  destruct S as [h0 S]. assert (Ab : above (D_n 1)) by (split; cbn [rho al be D_n]; change threshold with (1 * / 100000000000000); lra).
  assert (Ac : all_covered h (D_n 1)).
  { intros i nm Hi N. rewrite A in Hi. cbn [In] in Hi. destruct Hi as [<- | [<- | []]]; vm_compute in N; injection N as <-; left; cbn [In any_gradient]; tauto. }
  assert (De := encode_describes XC_A_B_GAA_GAB_GBB (D_n 1) ltac:(cbn; tauto)).
  destruct (covered_energy0 h h0 _ (D_n 1) _ Hr S Mu Ac Ab De) as [e E].
  assert (Vd : exists vd, vars_entry XC_A_B_GAA_GAB_GBB = Ok vd) by (eexists; vm_compute; reflexivity). destruct Vd as [vd Ev].
  assert (Aw : forall i nm, In i (h_active h) -> nth_error item_names i = Some nm -> away (h_settings h XC_RANGESEP_MU) (D_n 1) nm).
  { intros i nm Hi N. rewrite A in Hi. cbn [In] in Hi. destruct Hi as [<- | [<- | []]]; vm_compute in N; injection N as <-.
    - right. left. split; [cbn; tauto|]. intros s [<-|[<-|[]]]; unfold chi2, dot; cbn [al be D_n grad vx vy vz]; lra.
    - right. right. right. right. left. split; [cbn; tauto|]. unfold ntot. cbn [al be D_n rho]. replace (1 / 2 + 1 / 2) with 1 by field.
      unfold Published.rs, Rpower. intro X. assert (Y : 1 / 3 * ln (3 / (4 * PI * 1)) = 0) by (apply exp_inv; rewrite exp_0; exact X).
      assert (L : ln (3 / (4 * PI * 1)) < ln 1); [|rewrite ln_1 in L; lra]. pose proof n1_range as N1. unfold n1 in N1. rewrite Rmult_1_r. apply ln_increasing; lra. }
  destruct (setup_partial0 h h0 _ Hr S ltac:(vm_compute; intuition discriminate)) as [vd' G]. apply (lib_energy _ _ _ _ _ _ G) in E.
  exists h, h0, vd. eexists. exists e. split; [exact Hr|]. split; [exact A|]. split; [exact Ev|]. split; [exact S|]. split; [exact Ab|]. split; [exact De|]. split; [exact Aw|].
  split; [exact E|]. exact (C43_away_from_switches h h0 _ vd (D_n 1) _ e Hr Ev S Ab De Aw E).
Qed.
