(** * The values delivered by the derivative loops, over the reals *)
From Coq Require Import Reals QArith Qreals ZArith Arith Lia Lra List Bool String.
From Coquelicot Require Import Coquelicot.
From Verif Require Import Scalar RInst Tables Api SpecApi CTaylor CtAlg TMath Fps TFam TExp Ad Br Expr Densvars Functionals
  Eval Sem AdEval SpecEval Layout EvalSem EvalProps EvalExt EvalR.
Import ListNotations.
Local Open Scope outcome_scope.
Local Open Scope R_scope.

(** ** Some homomorphisms *)
Lemma hom_c0_0 n : hom n 0 (c0 n).
Proof.
  split; [|split; [|split]].
  - intro k. induction n; [reflexivity|]. apply IHn.
  - induction n; intros x y; [reflexivity|]. cbn [c0]. apply (IHn (fst x) (fst y)).
  - induction n; intros x y; [reflexivity|]. cbn [c0 pmul fst]. apply IHn.
  - intro x. reflexivity.
Qed.
Lemma hom_fst n : hom (S n) n fst.
Proof. repeat split. Qed.
Definition drop0 (t : rct 2) : rct 1 := (fst (fst t), fst (snd t)).
Lemma hom_drop0 : hom 2 1 drop0.
Proof. repeat split. Qed.
Definition swap2 (t : rct 2) : rct 2 := ((fst (fst t), fst (snd t)), (snd (fst t), snd (snd t))).
Lemma hom_swap2 : hom 2 2 swap2.
Proof.
  repeat split. intros [[a b] [c d]] [[a' b'] [c' d']]. unfold swap2. cbn. apply pair_ext; [reflexivity|]. apply pair_ext; [reflexivity|].
  cbn. ring.
Qed.

Lemma omap_ok {A B} (f : A -> B) o b : omap f o = Ok b -> exists a, o = Ok a /\ b = f a.
Proof. destruct o; cbn; try discriminate. intro H. injection H as <-. eauto. Qed.
Lemma omap_dom {A B} (f : A -> B) o : omap f o = Dom -> o = Dom.
Proof. destruct o; cbn; congruence. Qed.

Section VAL.
Variable h : handle ROps.
Hypothesis Rd : ready h.
Variable vd : vars_data.
Hypothesis E : vars_entry (h_vars h) = Ok vd.
Let n := Z.to_nat (v_len vd).
Variable input : nat -> R.
Notation q0 := (Q2R 0).
Notation q1 := (Q2R 1).

(** The coefficient of the product of the infinitesimals attached to the given variables. *)
Definition coef (l : list nat) (v : R) : Prop :=
  match l with
  | [] => energy h 0 input (czero 0) = Ok (v : rct 0)
  | [i] => exists out, energy h 1 (s1 (K := ROps) input (Some i)) (czero 1) = Ok out /\ v = snd out
  | [i; j] => exists out, energy h 2 (s2 (K := ROps) input (Some i) (Some j)) (czero 2) = Ok out /\ v = snd (snd out)
  | [i; j; k] => exists out, energy h 3 (s3 (K := ROps) input (Some i) (Some j) (Some k)) (czero 3) = Ok out /\
                 v = snd (snd (snd out))
  | _ => False
  end.
Lemma coef_fun l v v' : coef l v -> coef l v' -> v = v'.
Proof.
  destruct l as [|i [|j [|k [|? ?]]]]; cbn [coef]; [congruence| | | |contradiction];
    intros (o & A & ->) (o' & A' & ->); congruence.
Qed.
Lemma ext m d d' : (forall i, (i < n)%nat -> d i = d' i) -> energy h m d (czero m) = energy h m d' (czero m).
Proof. intro H. apply (energy_ext h vd); [apply Rd|exact E|exact H]. Qed.
(** Lower coefficients of a higher order evaluation. *)
Lemma low m m' f d d' : hom m m' f -> (m <= 6)%nat -> (m' <= 6)%nat -> (forall i, (i < n)%nat -> f (d i) = d' i) ->
  energy h m' d' (czero m') = omap f (energy h m d (czero m)).
Proof. intros H Hm Hm' A. rewrite <- (energy_hom0 m m' f Hm Hm' H h d). symmetry. now apply ext. Qed.

Definition dom0 : Prop := energy h 0 input (czero 0) = Dom.
Lemma up_c0 m (d : nat -> rct m) : (m <= 6)%nat -> (forall i, (i < n)%nat -> c0 m (d i) = input i) ->
  energy h 0 input (czero 0) = omap (c0 m) (energy h m d (czero m)).
Proof. intros Hm H. apply (low m 0 (c0 m)); [apply hom_c0_0|exact Hm|lia|exact H]. Qed.

Lemma he0 : forall d : nat -> ct ROps 0, agr n d input -> oP (fun out : rct 0 => coef [] (@c0 ROps 0 out)) dom0 (energy h 0 d (czero 0)).
Proof.
  intros d A. rewrite (ext 0 d input A). pose proof (energy_ok h 0 input (czero 0) Rd) as O.
  cbn [coef c0]. unfold dom0. destruct (energy h 0 input (czero 0)) eqn:X; cbn [oP] in *; auto.
Qed.
Lemma he1 : forall i d, (i < n)%nat -> agr n d (s1 (K := ROps) input (Some i)) ->
  oP (fun out : rct 1 => coef [] (@get ROps 1 out 0) /\ coef [i] (@get ROps 1 out VAR0)) dom0 (energy h 1 d (czero 1)).
Proof.
  intros i d Hi A. rewrite (ext 1 d _ A). pose proof (energy_ok h 1 (s1 (K := ROps) input (Some i)) (czero 1) Rd) as O.
  pose proof (up_c0 1 (s1 (K := ROps) input (Some i)) ltac:(lia) ltac:(reflexivity)) as C.
  unfold dom0. cbn [coef]. rewrite C. destruct (energy h 1 (s1 (K := ROps) input (Some i)) (czero 1)) as [out| | |] eqn:X; cbn [oP omap] in *; auto.
  split; [reflexivity|]. exists out. split; [reflexivity|]. reflexivity.
Qed.
Lemma he2 : forall i j d, (i <= j < n)%nat -> agr n d (s2 (K := ROps) input (Some i) (Some j)) ->
  oP (fun out : rct 2 => coef [] (@get ROps 2 out 0) /\ coef [i] (@get ROps 2 out VAR0) /\ coef [j] (@get ROps 2 out VAR1) /\
                 coef [i; j] (@get ROps 2 out (VAR0 + VAR1))) dom0 (energy h 2 d (czero 2)).
Proof.
  intros i j d Hi A. rewrite (ext 2 d _ A). pose proof (energy_ok h 2 (s2 (K := ROps) input (Some i) (Some j)) (czero 2) Rd) as O.
  pose proof (up_c0 2 (s2 (K := ROps) input (Some i) (Some j)) ltac:(lia) ltac:(reflexivity)) as C.
  pose proof (low 2 1 fst (s2 (K := ROps) input (Some i) (Some j)) (s1 (K := ROps) input (Some i)) (hom_fst 1) ltac:(lia) ltac:(lia) ltac:(reflexivity)) as C1.
  pose proof (low 2 1 drop0 (s2 (K := ROps) input (Some i) (Some j)) (s1 (K := ROps) input (Some j)) hom_drop0 ltac:(lia) ltac:(lia) ltac:(reflexivity)) as C2.
  unfold dom0. cbn [coef]. rewrite C, C1, C2. destruct (energy h 2 (s2 (K := ROps) input (Some i) (Some j)) (czero 2)) as [out| | |] eqn:X; cbn [oP omap] in *; auto.
  split; [reflexivity|]. split; [|split]; eexists; (split; [reflexivity|]); reflexivity.
Qed.
Lemma he3 : forall i j k d, (i <= j)%nat -> (j <= k < n)%nat -> agr n d (s3 (K := ROps) input (Some i) (Some j) (Some k)) ->
  oP (fun out : rct 3 => coef [i; j; k] (@get ROps 3 out (VAR0 + VAR1 + VAR2))) dom0 (energy h 3 d (czero 3)).
Proof.
  intros i j k d Hij Hk A. rewrite (ext 3 d _ A). pose proof (energy_ok h 3 (s3 (K := ROps) input (Some i) (Some j) (Some k)) (czero 3) Rd) as O.
  pose proof (up_c0 3 (s3 (K := ROps) input (Some i) (Some j) (Some k)) ltac:(lia) ltac:(reflexivity)) as C.
  unfold dom0. cbn [coef]. rewrite C. destruct (energy h 3 (s3 (K := ROps) input (Some i) (Some j) (Some k)) (czero 3)) as [out| | |] eqn:X; cbn [oP omap] in *; auto.
  eexists; (split; [reflexivity|]); reflexivity.
Qed.

Variable junk : forall m : nat, nat -> rct m.
Definition partialn (ord : nat) : outcome (writes (K := ROps)) :=
  match ord with
  | 0%nat => partial0 junk h n input
  | 1%nat => partial1 junk h n input
  | 2%nat => partial2 junk h n input []
  | _ => partial3 junk h n input
  end.
Lemma partial_values ord : (ord <= 3)%nat -> oP (filled (K := ROps) n coef ord) dom0 (partialn ord).
Proof.
  intro H. pose proof (vlen_pos _ _ E) as Lp. fold n in Lp.
  assert (C : ord = 0%nat \/ ord = 1%nat \/ ord = 2%nat \/ ord = 3%nat) by lia.
  destruct C as [-> | [-> | [-> | ->]]]; cbn [partialn].
  - apply layout0; first [exact he0|exact Lp|exact he1|exact he2|exact he3].
  - apply layout1; first [exact he0|exact Lp|exact he1|exact he2|exact he3].
  - apply layout2; first [exact he0|exact Lp|exact he1|exact he2|exact he3].
  - apply layout3; first [exact he0|exact Lp|exact he1|exact he2|exact he3].
Qed.
Lemma filled_rd ord ws buf p l : filled (K := ROps) n coef ord ws -> nth_error (graded n ord) p = Some l -> coef l (rd buf ws p).
Proof.
  intros [O C] N. assert (L : (p < List.length (graded n ord))%nat) by (apply nth_error_Some; congruence).
  destruct (C p L) as [v Hv]. destruct (O p v Hv) as (l' & N' & Vl). rewrite rd_lastw, Hv. congruence.
Qed.
End VAL.

(** ** Real derivatives *)
(** Move input [i] by [t]. *)
Definition bump (x : nat -> R) (i : nat) (t : R) : nat -> R := fun m => if Nat.eqb m i then x m + t else x m.
(** [pderiv F l x v]: the iterated partial derivative of the (partial) function F with
    respect to the variables in l (last one innermost) exists at x, in the sense that every
    inner derivative exists in a neighbourhood, and its value is v. *)
Fixpoint pderiv (F : (nat -> R) -> R -> Prop) (l : list nat) (x : nat -> R) (v : R) : Prop :=
  match l with
  | [] => F x v
  | i :: l' => exists G : R -> R, locally 0 (fun t => pderiv F l' (bump x i t) (G t)) /\ is_derive G 0 v
  end.
Lemma pderiv_F (F F' : (nat -> R) -> R -> Prop) l : (forall x v, F x v -> F' x v) -> forall x v, pderiv F l x v -> pderiv F' l x v.
Proof.
  intro H. induction l as [|i l IH]; intros x v; cbn [pderiv]; [apply H|].
  intros (G & L & D). exists G. split; [|exact D]. eapply filter_imp; [|exact L]. intros t. apply IH.
Qed.
Section DER.
Variable h : handle ROps.
Variable input : nat -> R.
Hypothesis Sm : smooth h input.
Let Fe : (nat -> R) -> R -> Prop := fun x v => energy h 0 x (czero 0) = Ok (v : rct 0).
Lemma dlR a m : @dl ROps (Some a) m = if Nat.eqb a m then 1 else 0.
Proof. unfold dl. destruct (Nat.eqb a m); cbn; [apply Q2R_1|apply Q2R_0]. Qed.
Lemma coef_deriv l v : coef h input l v -> pderiv Fe l input v.
Proof.
  destruct l as [|i [|j [|k [|? ?]]]]; cbn [coef]; [auto| | | |contradiction].
  - intros (out & X & ->).
    set (gd := fun (m : nat) (z : pt 1) => bump input i (snd z) m).
    destruct (ad_energy 1 ltac:(lia) h (s1 (K := ROps) input (Some i)) gd) with (out := out) as (g & Rg & Ng).
    + intro m. eapply rep_ext'; [|apply rep_peval]. intros [u t]. unfold s1, gd, bump. cbn [peval fst snd]. rewrite dlR, (Nat.eqb_sym i m).
      destruct (Nat.eqb m i); ring.
    + eapply eq_ind; [exact Sm|]. apply FunctionalExtensionality.functional_extensionality. intro m. unfold gd, bump. cbn. destruct (Nat.eqb m i); ring.
    + exact X.
    + cbn [rep] in Rg. destruct Rg as [_ (h1 & D1 & R1)]. cbn [near] in D1, Ng.
      cbn [pderiv]. exists (fun t => g (tt, t)). split; [|rewrite R1; exact D1].
      eapply filter_imp; [|exact Ng]. intros t Ht. exact Ht.
  - intros (out & X & ->).
    set (gd := fun (m : nat) (z : pt 2) => bump (bump input i (snd (fst z))) j (snd z) m).
    destruct (ad_energy 2 ltac:(lia) h (s2 (K := ROps) input (Some i) (Some j)) gd) with (out := out) as (g & Rg & Ng).
    + intro m. eapply rep_ext'; [|apply rep_peval]. intros [[u t] t']. unfold s2, gd, bump. cbn [peval fst snd]. rewrite !dlR, (Nat.eqb_sym i m), (Nat.eqb_sym j m).
      cbn [OofQ ROps]. rewrite Q2R_0. destruct (Nat.eqb m i), (Nat.eqb m j); ring.
    + eapply eq_ind; [exact Sm|]. apply FunctionalExtensionality.functional_extensionality. intro m. unfold gd, bump. cbn. destruct (Nat.eqb m i), (Nat.eqb m j); ring.
    + exact X.
    + cbn [rep] in Rg. destruct Rg as [_ (h1 & D1 & R1 & (h2 & D2 & R2))]. cbn [near] in D1, D2, Ng.
      cbn [pderiv]. exists (fun t => h1 (tt, t)). split; [|rewrite R2; exact D2].
      eapply filter_imp; [|apply filter_and; [exact Ng|exact D1]]. intros t [Ht Hd].
      exists (fun u => g (tt, t, u)). split; [|exact Hd]. eapply filter_imp; [|exact Ht]. intros u Hu. exact Hu.
  - intros (out & X & ->).
    set (gd := fun (m : nat) (z : pt 3) => bump (bump (bump input i (snd (fst (fst z)))) j (snd (fst z))) k (snd z) m).
    destruct (ad_energy 3 ltac:(lia) h (s3 (K := ROps) input (Some i) (Some j) (Some k)) gd) with (out := out) as (g & Rg & Ng).
    + intro m. eapply rep_ext'; [|apply rep_peval]. intros [[[u t] t'] t'']. unfold s3, gd, bump. cbn [peval fst snd].
      rewrite !dlR, (Nat.eqb_sym i m), (Nat.eqb_sym j m), (Nat.eqb_sym k m).
      cbn [OofQ ROps]. rewrite Q2R_0. destruct (Nat.eqb m i), (Nat.eqb m j), (Nat.eqb m k); ring.
    + eapply eq_ind; [exact Sm|]. apply FunctionalExtensionality.functional_extensionality. intro m. unfold gd, bump. cbn. destruct (Nat.eqb m i), (Nat.eqb m j), (Nat.eqb m k); ring.
    + exact X.
    + cbn [rep] in Rg. destruct Rg as [_ (h1 & D1 & _ & (h2 & D2 & R2 & (h3 & D3 & R3)))]. cbn [near] in D1, D2, D3, Ng.
      cbn [pderiv]. exists (fun t => h2 (tt, t)). split; [|rewrite R3; exact D3].
      eapply filter_imp; [|apply filter_and; [exact Ng|apply filter_and; [exact D1|exact D2]]]. intros t [Ht [Hd1 Hd2]].
      exists (fun u => h1 (tt, t, u)). split; [|exact Hd2].
      eapply filter_imp; [|apply filter_and; [exact Ht|exact Hd1]]. intros u [Hu Hdu].
      exists (fun w => g (tt, t, u, w)). split; [|exact Hdu]. eapply filter_imp; [|exact Hu]. intros w Hw. exact Hw.
Qed.
End DER.
