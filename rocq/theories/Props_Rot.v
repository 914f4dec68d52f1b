(** * Property theorems: rotational invariance (C19) *)
From Coq Require Import Reals QArith Qreals ZArith Arith Lia Lra List Bool String.
From Coquelicot Require Import Coquelicot.
From Verif Require Import Scalar RInst Tables Api SpecApi ApiProofs ApiProofs2 CTaylor CtAlg CtConv TMath Br Expr Densvars Functionals
  Eval SpecEval Layout EvalSem EvalProps Taint EvalExt Props_Eval RSem EnergyR EvalReal EvalApi EvalRel VarsRel Mk Props_Vars.
Import ListNotations.
Local Open Scope outcome_scope.
Local Open Scope R_scope.

(** ** Specification *)
(** Where the variable sets with vector components keep their gradients and second
    derivatives (xx, xy, xz, yy, yz, zz). *)
Definition gradients_at (v : Z) : list nat :=
  if existsb (Z.eqb v) [XC_A_B_AX_AY_AZ_BX_BY_BZ; XC_N_S_NX_NY_NZ_SX_SY_SZ; XC_A_B_AX_AY_AZ_BX_BY_BZ_TAUA_TAUB; XC_N_S_NX_NY_NZ_SX_SY_SZ_TAUN_TAUS]
  then [2; 5]%nat
  else if existsb (Z.eqb v) [XC_N_NX_NY_NZ; XC_N_NX_NY_NZ_TAUN; XC_N_2ND_TAYLOR] then [1%nat]
  else if Z.eqb v XC_A_B_2ND_TAYLOR then [1; 11]%nat else [].
Definition hessians_at (v : Z) : list nat :=
  if Z.eqb v XC_N_2ND_TAYLOR then [4%nat] else if Z.eqb v XC_A_B_2ND_TAYLOR then [4; 14]%nat else [].
Definition sym (p q : nat) : nat := match p, q with O, O => 0 | O, 1 | 1, O => 1 | O, _ | _, O => 2 | 1, 1 => 3 | 1, _ | _, 1 => 4 | _, _ => 5 end%nat.
Definition sum3 (f : nat -> R) : R := f 0%nat + f 1%nat + f 2%nat.
Definition orthogonal (Q : nat -> nat -> R) : Prop :=
  forall i j, (i < 3)%nat -> (j < 3)%nat -> sum3 (fun k => Q k i * Q k j) = if Nat.eqb i j then 1 else 0.
Definition in_range (i b l : nat) : bool := andb (Nat.leb b i) (Nat.ltb i (b + l)).
(** [x'] is [x] with all vectors and second derivative matrices rotated by [Q]; an input
    consists of [s] numbers (1, or 2^order in contracted mode, where the perturbations are
    rotated along). *)
Definition rotated (v : Z) (s : nat) (Q : nat -> nat -> R) (x x' : nat -> R) : Prop :=
  (forall b p j, In b (gradients_at v) -> (p < 3)%nat -> (j < s)%nat ->
     x' ((b + p) * s + j)%nat = sum3 (fun k => Q p k * x ((b + k) * s + j)%nat)) /\
  (forall b p q j, In b (hessians_at v) -> (p < 3)%nat -> (q < 3)%nat -> (j < s)%nat ->
     x' ((b + sym p q) * s + j)%nat = sum3 (fun k => sum3 (fun l => Q p k * Q q l * x ((b + sym k l) * s + j)%nat))) /\
  (forall i j, existsb (fun b => in_range i b 3) (gradients_at v) = false -> existsb (fun b => in_range i b 6) (hessians_at v) = false -> (j < s)%nat ->
     x' (i * s + j)%nat = x (i * s + j)%nat).

(** ** The same on Taylor polynomials *)
Section CT.
Variable n : nat.
Add Ring ctr19 : (ct_ring n).
Notation "x '+c' y" := (ct_add n x y) (at level 50, left associativity).
Notation "x '*c' y" := (pmul n x y) (at level 40, left associativity).
Notation "'#' x" := (rconst n x) (at level 5).
Definition csum3 (f : nat -> rct n) : rct n := f 0%nat +c f 1%nat +c f 2%nat.
Definition crot (v : Z) (Q : nat -> nat -> R) (d d' : nat -> rct n) : Prop :=
  (forall b p, In b (gradients_at v) -> (p < 3)%nat -> d' (b + p)%nat = csum3 (fun k => #(Q p k) *c d (b + k)%nat)) /\
  (forall b p q, In b (hessians_at v) -> (p < 3)%nat -> (q < 3)%nat ->
     d' (b + sym p q)%nat = csum3 (fun k => csum3 (fun l => #(Q p k) *c #(Q q l) *c d (b + sym k l)%nat))) /\
  (forall i, existsb (fun b => in_range i b 3) (gradients_at v) = false -> existsb (fun b => in_range i b 6) (hessians_at v) = false -> d' i = d i).
Variables (Q : nat -> nat -> R) (OQ : orthogonal Q).
Lemma corth i j : (i < 3)%nat -> (j < 3)%nat -> #(Q 0%nat i) *c #(Q 0%nat j) +c #(Q 1%nat i) *c #(Q 1%nat j) +c #(Q 2%nat i) *c #(Q 2%nat j) = #(if Nat.eqb i j then 1 else 0).
Proof. intros Hi Hj. etransitivity; [|exact (f_equal (rconst n) (OQ i j Hi Hj))]. unfold sum3. rewrite !const_add, !const_mul. reflexivity. Qed.
Lemma cdot (u w : nat -> rct n) : csum3 (fun p => csum3 (fun k => #(Q p k) *c u k) *c csum3 (fun k => #(Q p k) *c w k)) = csum3 (fun k => u k *c w k).
Proof.
  set (G := fun i j => #(Q 0%nat i) *c #(Q 0%nat j) +c #(Q 1%nat i) *c #(Q 1%nat j) +c #(Q 2%nat i) *c #(Q 2%nat j)).
  transitivity (csum3 (fun i => csum3 (fun j => G i j *c (u i *c w j)))).
  - unfold csum3, G. ring.
  - unfold csum3, G. rewrite !corth by lia. cbn [Nat.eqb]. change (# 1) with (one n). change (# 0) with (zero n). ring.
Qed.
Lemma ctrace (H : nat -> rct n) :
  csum3 (fun p => csum3 (fun k => csum3 (fun l => #(Q p k) *c #(Q p l) *c H (sym k l)))) = H 0%nat +c H 3%nat +c H 5%nat.
Proof.
  set (G := fun i j => #(Q 0%nat i) *c #(Q 0%nat j) +c #(Q 1%nat i) *c #(Q 1%nat j) +c #(Q 2%nat i) *c #(Q 2%nat j)).
  transitivity (csum3 (fun i => csum3 (fun j => G i j *c H (sym i j)))).
  - unfold csum3, G. cbn [sym]. ring.
  - unfold csum3, G. rewrite !corth by lia. cbn [Nat.eqb sym]. change (# 1) with (one n). change (# 0) with (zero n). ring.
Qed.
End CT.

(** ** Invariant expressions *)
Definition dot_at (e : expr) : option (nat * nat) :=
  match e with
  | EAdd (EAdd (EMul (EIn a) (EIn b)) (EMul (EIn a1) (EIn b1))) (EMul (EIn a2) (EIn b2)) =>
      if Nat.eqb a1 (a + 1) && Nat.eqb a2 (a + 2) && Nat.eqb b1 (b + 1) && Nat.eqb b2 (b + 2) then Some (a, b) else None
  | _ => None
  end.
Definition trace_at (e : expr) : option nat :=
  match e with
  | EAdd (EAdd (EIn a) (EIn a1)) (EIn a2) => if Nat.eqb a1 (a + 3) && Nat.eqb a2 (a + 5) then Some a else None
  | _ => None
  end.
Definition mem (i : nat) (l : list nat) : bool := existsb (Nat.eqb i) l.
Definition fixed (v : Z) (i : nat) : bool :=
  negb (existsb (fun b => in_range i b 3) (gradients_at v)) && negb (existsb (fun b => in_range i b 6) (hessians_at v)).
Definition inv0 (v : Z) (e : expr) : bool :=
  orb (match dot_at e with Some (a, b) => mem a (gradients_at v) && mem b (gradients_at v) | None => false end)
      (match trace_at e with Some a => mem a (hessians_at v) | None => false end).
Definition inv (v : Z) (cf : fld -> bool) (e : expr) : bool :=
  orb (clean (fixed v) cf e) (match e with EScale _ e1 => inv0 v e1 | _ => inv0 v e end).
Fixpoint rottr (v : Z) (cf : fld -> bool) (p : list (fld * expr)) : option (fld -> bool) :=
  match p with
  | [] => Some cf
  | (f, e) :: p' =>
      if inv v cf e then rottr v (cadd true f cf) p'
      else if totalR e then rottr v (cadd false f cf) p' else None
  end.
Lemma mem_in i l : mem i l = true -> In i l.
Proof. unfold mem. rewrite existsb_exists. intros (x & A & B). apply Nat.eqb_eq in B. now subst. Qed.
Section INV.
Variables (st : nat -> T ROps) (n : nat) (v : Z) (Q : nat -> nat -> R) (d d' : nat -> rct n).
Hypothesis OQ : orthogonal Q.
Hypothesis HR : crot n v Q d d'.
Notation ev x fl e := (eval (K := ROps) st n x fl [] e).
Lemma inv0_ok e fl fl' : inv0 v e = true -> ev d fl e = ev d' fl' e.
Proof.
  destruct HR as (R1 & R2 & R3). unfold inv0. intro H. apply orb_true_iff in H. destruct H as [H|H].
  - destruct (dot_at e) as [[a b]|] eqn:E; [|discriminate]. apply andb_true_iff in H. destruct H as [Ha Hb]. apply mem_in in Ha, Hb.
    unfold dot_at in E.
    repeat (match type of E with context [match ?x with _ => _ end] => is_var x; destruct x; try discriminate E end).
    destruct (andb _ _) eqn:C in E; [|discriminate]. injection E as <- <-. rewrite !andb_true_iff, !Nat.eqb_eq in C. destruct C as (((-> & ->) & ->) & ->).
    cbn [eval obnd]. unfold ct_mul. rewrite !mulset_spec. f_equal.
    pose proof (cdot n Q OQ (fun k => d (i + k)%nat) (fun k => d (i0 + k)%nat)) as C. cbv beta in C.
    rewrite <- (Nat.add_0_r i) at 1. rewrite <- (Nat.add_0_r i0) at 1. symmetry.
    rewrite <- (Nat.add_0_r i) at 1. rewrite <- (Nat.add_0_r i0) at 1.
    etransitivity; [|exact C]. unfold csum3 at 1. rewrite !R1 by (assumption || lia). reflexivity.
  - destruct (trace_at e) as [a|] eqn:E; [|discriminate]. apply mem_in in H.
    unfold trace_at in E.
    repeat (match type of E with context [match ?x with _ => _ end] => is_var x; destruct x; try discriminate E end).
    destruct (andb _ _) eqn:C in E; [|discriminate]. injection E as <-. rewrite !andb_true_iff, !Nat.eqb_eq in C. destruct C as (-> & ->).
    cbn [eval obnd]. f_equal. pose proof (ctrace n Q OQ (fun k => d (i + k)%nat)) as C. cbv beta in C.
    rewrite Nat.add_0_r in C. rewrite <- C. symmetry.
    pose proof (R2 i 0 0 H ltac:(lia) ltac:(lia))%nat as T0. pose proof (R2 i 1 1 H ltac:(lia) ltac:(lia))%nat as T1. pose proof (R2 i 2 2 H ltac:(lia) ltac:(lia))%nat as T2.
    cbn [sym] in T0, T1, T2. rewrite Nat.add_0_r in T0. rewrite T0, T1, T2. reflexivity.
Qed.
Lemma rottr_tr : forall p cf cf', rottr v cf p = Some cf' -> tr st n d d' cf p cf'.
Proof.
  induction p as [|[f e] p IH]; intros cf cf' H; cbn [rottr] in H.
  - injection H as <-. constructor.
  - destruct (inv v cf e) eqn:C.
    + unfold inv in C. apply orb_true_iff in C. destruct C as [C|C].
      * apply (tr_clean st n d d' (fixed v)); [|exact C|now apply IH]. intros i Hi. symmetry. apply HR; unfold fixed in Hi; apply andb_true_iff in Hi; destruct Hi as [A B]; now apply negb_true_iff.
      * apply tr_same; [|now apply IH]. intros fl fl' _. destruct e; try (now apply inv0_ok). cbn [eval]. now rewrite (inv0_ok e fl fl' C).
    + destruct (totalR e) eqn:T; [|discriminate]. apply tr_tot; [|now apply IH]. intros x fl. now apply totalR_ok.
Qed.
End INV.
Definition rotcheck (v : Z) : bool :=
  match vars_entry v, dv_prog v with
  | Ok vd, Some p => match rottr v (fun _ => true) p with
      | Some cf => forallb (fun f => implb (declared (v_provides vd) f) (cf f)) all_flds && orb (Z.eqb v XC_N_2ND_TAYLOR) (forallb cf all_flds)
          && forallb (fun b => Nat.leb (b + 3) (Z.to_nat (v_len vd))) (gradients_at v) && forallb (fun b => Nat.leb (b + 6) (Z.to_nat (v_len vd))) (hessians_at v)
      | None => false end
  | _, _ => true
  end.
Lemma rotcheck_all : forallb rotcheck zvars = true.
Proof. vm_compute. reflexivity. Qed.
Lemma all_flds_in f : In f all_flds.
Proof. destruct f; cbn; tauto. Qed.
Lemma closed_all_funs i nm e : nth_error functionals i = Some (nm, e) -> clean (fun _ => false) (fun _ => true) e = true.
Proof.
  assert (C : forallb (fun q : string * expr => clean (fun _ => false) (fun _ => true) (snd q)) functionals = true) by (vm_compute; reflexivity).
  intro Ef. exact (proj1 (forallb_forall _ _) C (nm, e) (nth_error_In _ _ Ef)).
Qed.
Lemma energy_rot (h h' : handle ROps) v m o vd n Q d d' out : reachable h -> xcfun_eval_setup h v m o = Ok (h', 0%Z) -> vars_entry v = Ok vd ->
  (v = XC_N_2ND_TAYLOR -> ~ In XC_REVTPSSX_id (h_active h)) -> orthogonal Q -> crot n v Q d d' -> energy h' n d out = energy h' n d' out.
Proof.
  intros Hr S E N OQ C.
  destruct (setup_gives_valid h v m o h' S) as (Sv & Evv & _ & _ & Ea & _).
  pose proof (reachable_wf h' (reach_setup h h' v m o _ Hr S)) as W.
  destruct (setup_valid_code h' W Sv) as (vd' & E' & Vs & _). rewrite Evv, E in E'. injection E' as <-.
  destruct (dv_prog v) as [p|] eqn:D; [|unfold energy, densvars; now rewrite Evv, D].
  pose proof (proj1 (forallb_forall _ _) rotcheck_all v (zvars_in v (vars_entry_range _ _ E))) as H. unfold rotcheck in H. rewrite E, D in H.
  destruct (rottr v _ p) as [cf|] eqn:T; [|discriminate]. rewrite !andb_true_iff in H. destruct H as (((H1 & H2) & _) & _).
  apply (energy_tr h' n d d' cf p out); [now rewrite Evv|exact (rottr_tr _ n v Q d d' OQ C p _ _ T)|].
  intros i Hi. assert (L : (i < 78)%nat) by (now apply W). destruct (nofun_len i L) as (nm & e & Ef). exists e. split; [unfold fp; now rewrite Ef|].
  destruct (Z.eqb_spec v XC_N_2ND_TAYLOR) as [V|V]; cbn [orb] in H2.
  - assert (Ni : i <> XC_REVTPSSX_id) by (intros ->; apply (N V); now rewrite <- Ea).
    pose proof (flags_sound_ok i L Ni) as F. unfold flags_sound in F. rewrite Ef in F. eapply clean_imp; [|exact F]. intros f Hf.
    pose proof (proj1 (forallb_forall _ _) H1 f (all_flds_in f)) as X. cbv beta in X. rewrite implb_true_iff in X. apply X.
    specialize (Vs i Hi). destruct f; cbn [declared] in *; apply Vs; try lia; exact Hf.
  - pose proof (closed_all_funs i nm e Ef) as Cl. eapply clean_imp; [|exact Cl]. intros f _. exact (proj1 (forallb_forall _ _) H2 f (all_flds_in f)).
Qed.
Lemma load_add n : forall f g : nat -> R, @ct_load ROps n (fun j => f j + g j) = ct_add n (@ct_load ROps n f) (@ct_load ROps n g).
Proof. induction n; intros f g; [reflexivity|]. rewrite ct_add_S. cbn [ct_load fst snd]. now rewrite !IHn. Qed.
Lemma load_scale n k : forall f : nat -> R, @ct_load ROps n (fun j => k * f j) = pmul n (rconst n k) (@ct_load ROps n f).
Proof.
  intro f. rewrite <- scale_spec. revert f. induction n; intro f; [reflexivity|]. cbn [ct_load]. rewrite !IHn. reflexivity.
Qed.
Section LIFT.
Variables (junk : forall n : nat, nat -> rct n) (v : Z) (vd : vars_data) (Q : nat -> nat -> R) (n : nat) (x x' : nat -> R).
Hypothesis E : vars_entry v = Ok vd.
Hypothesis D : dv_prog v <> None.
Hypothesis RX : rotated v (2 ^ n) Q x x'.
Lemma lift_rot : crot n v Q (cload junk (Z.to_nat (v_len vd)) n x) (cload junk (Z.to_nat (v_len vd)) n x').
Proof.
  pose proof (proj1 (forallb_forall _ _) rotcheck_all v (zvars_in v (vars_entry_range _ _ E))) as H. unfold rotcheck in H. rewrite E in H.
  destruct (dv_prog v) as [p|]; [|contradiction]. destruct (rottr v _ p) as [cf|]; [|discriminate]. rewrite !andb_true_iff in H. destruct H as ((_ & H1) & H2).
  rewrite forallb_forall in H1, H2. destruct RX as (R1 & R2 & R3). unfold cload. split; [|split].
  - intros b p0 Hb Hp. specialize (H1 b Hb). apply Nat.leb_le in H1. unfold csum3.
    repeat match goal with |- context [Nat.ltb ?a ?l] => destruct (Nat.ltb_spec a l); [|lia] end.
    rewrite <- !load_scale, <- !load_add. apply ct_load_ext. intros j Hj. rewrite R1 by assumption. reflexivity.
  - intros b p0 q Hb Hp Hq. specialize (H2 b Hb). apply Nat.leb_le in H2. unfold csum3.
    assert (Sy : forall a c, (sym a c < 6)%nat) by (intros a c; destruct a as [|[|?]], c as [|[|?]]; cbn; lia).
    repeat match goal with |- context [Nat.ltb (b + sym ?a ?c) ?l] => pose proof (Sy a c); destruct (Nat.ltb_spec (b + sym a c) l); [|lia] end.
    rewrite <- !const_mul, <- !load_scale, <- !load_add. apply ct_load_ext. intros j Hj. rewrite R2 by assumption. reflexivity.
  - intros i A B. destruct (Nat.ltb i _); [|reflexivity]. apply ct_load_ext. intros j Hj. now apply R3.
Qed.
End LIFT.

(** ** C19 *)
(** Rotating or reflecting all vectors leaves the energy unchanged ... *)
Theorem C19_energy_invariant :
  forall junk (h h' : handle ROps) v buf x x' Q, reachable h ->
    xcfun_eval_setup h v XC_PARTIAL_DERIVATIVES 0 = Ok (h', 0%Z) ->
    (v = XC_N_2ND_TAYLOR -> ~ In XC_REVTPSSX_id (h_active h)) ->
    orthogonal Q -> rotated v 1 Q x x' -> xcfun_eval junk h' buf x = xcfun_eval junk h' buf x'.
Proof.
  intros junk h h' v buf x x' Q Hr S N OQ RX.
  destruct (setup_gives_valid h v _ _ h' S) as (Sv & Evv & Em & Eo & Ea & _).
  destruct (setup_valid_vars h' Sv) as [vd E]. rewrite Evv in E.
  unfold xcfun_eval. rewrite Em, Evv, Eo, E. cbn [obind Z.eqb XC_PARTIAL_DERIVATIVES XC_MODE_UNSET Pos.eqb andb].
  destruct (Z.eqb v XC_VARS_UNSET); [reflexivity|]. unfold partial0.
  destruct (dv_prog v) as [p|] eqn:D; [|unfold energy, densvars; now rewrite Evv, D].
  assert (L : forall y, load 0 (junk 0%nat) (Z.to_nat (v_len vd)) y = cload junk (Z.to_nat (v_len vd)) 0 y).
  { intro y. apply FunctionalExtensionality.functional_extensionality. intro i. unfold load, cload. cbn [Nat.pow ct_load ct_const]. now rewrite Nat.mul_1_r, Nat.add_0_r. }
  rewrite !L. rewrite (energy_rot h h' v _ _ vd 0 Q _ _ (czero 0) Hr S E N OQ (lift_rot junk v vd Q 0 x x' E ltac:(congruence) RX)). reflexivity.
Qed.
Print Assumptions C19_energy_invariant.
(** ... and so are all its directional derivatives when the directions are rotated along. *)
Theorem C19_derivatives_invariant :
  forall junk (h h' : handle ROps) v o buf x x' Q, reachable h ->
    xcfun_eval_setup h v XC_CONTRACTED (Z.of_nat o) = Ok (h', 0%Z) ->
    (v = XC_N_2ND_TAYLOR -> ~ In XC_REVTPSSX_id (h_active h)) ->
    orthogonal Q -> rotated v (2 ^ o) Q x x' -> xcfun_eval junk h' buf x = xcfun_eval junk h' buf x'.
Proof.
  intros junk h h' v o buf x x' Q Hr S N OQ RX.
  destruct (setup_gives_valid h v _ _ h' S) as (Sv & Evv & Em & Eo & Ea & _).
  destruct (setup_valid_vars h' Sv) as [vd E]. rewrite Evv in E.
  unfold xcfun_eval. rewrite Em, Evv, Eo, E. cbn [obind Z.eqb XC_CONTRACTED XC_PARTIAL_DERIVATIVES XC_MODE_UNSET Pos.eqb].
  destruct (Z.eqb v XC_VARS_UNSET); [reflexivity|]. destruct (andb (Z.eqb _ _) _); [reflexivity|]. destruct (andb _ _); [|reflexivity]. rewrite Nat2Z.id.
  unfold contracted. destruct (dv_prog v) as [p|] eqn:D; [|unfold energy, densvars; now rewrite Evv, D].
  change (fun i : nat => if Nat.ltb i (Z.to_nat (v_len vd)) then ct_load (K := ROps) o (fun j => x (i * 2 ^ o + j)%nat) else junk o i) with (cload junk (Z.to_nat (v_len vd)) o x).
  change (fun i : nat => if Nat.ltb i (Z.to_nat (v_len vd)) then ct_load (K := ROps) o (fun j => x' (i * 2 ^ o + j)%nat) else junk o i) with (cload junk (Z.to_nat (v_len vd)) o x').
  rewrite (energy_rot h h' v _ _ vd o Q _ _ (czero o) Hr S E N OQ (lift_rot junk v vd Q o x x' E ltac:(congruence) RX)). reflexivity.
Qed.
Print Assumptions C19_derivatives_invariant.

(** A quarter turn about z followed by a reflection, for a meta-GGA free mixture with the
    alpha/beta gradient components. *)
Definition turn (i k : nat) : R :=
  match i, k with O, 1%nat => -1 | 1%nat, O => 1 | 2%nat, 2%nat => -1 | _, _ => 0 end.
Lemma turn_orth : orthogonal turn.
Proof. intros i j Hi Hj. destruct i as [|[|[|i]]], j as [|[|[|j]]]; try lia; unfold sum3, turn; cbn; lra. Qed.
Example C19_example : exists (h h' : handle ROps) x x', reachable h /\
  xcfun_eval_setup h XC_A_B_AX_AY_AZ_BX_BY_BZ XC_PARTIAL_DERIVATIVES 0 = Ok (h', 0%Z) /\ h_active h = [5; 4]%nat /\
  orthogonal turn /\ rotated XC_A_B_AX_AY_AZ_BX_BY_BZ 1 turn x x' /\ x 2%nat = 3 /\ x' 2%nat = -4 /\ x' 3%nat = 3.
Proof.
  destruct (make (K := ROps) [("pbex"%string, 5%nat, 1); ("pbec"%string, 4%nat, 1)] eq_refl) as (h & Eh & Hr & A & Ms).
  change (mactive _) with [5; 4]%nat in A. exists h. eexists.
  exists (fun i => nth i [1; 2; 3; 4; 5; 6; 7; 8] 0), (fun i => nth i [1; 2; -4; 3; -5; -7; 6; -8] 0).
  split; [exact Hr|]. split; [apply accepts_ok; [exact Hr|rewrite A; vm_compute; reflexivity]|]. split; [exact A|]. split; [exact turn_orth|].
  split; [|cbn; auto]. split; [|split].
  - intros b p j Hb Hp Hj. assert (j = 0)%nat by lia. subst j. cbn in Hb. destruct Hb as [<- | [<- | []]]; destruct p as [|[|[|p]]]; try lia; unfold sum3, turn; cbn; lra.
  - intros b p q j Hb. destruct Hb.
  - intros i j H _ Hj. assert (j = 0)%nat by lia. subst j. rewrite Nat.mul_1_r, Nat.add_0_r. do 8 (destruct i as [|i]; [first [reflexivity | discriminate H]|]). cbn. now destruct i.
Qed.
