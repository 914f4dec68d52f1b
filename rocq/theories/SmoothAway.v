(** * Where the functionals that switch between formulas are smooth *)
From Coq Require Import Reals QArith Qreals ZArith Arith Lia Lra List Bool String.
From Coquelicot Require Import Coquelicot.
From Verif Require Import Scalar RInst Tables Api CTaylor CtAlg TMath Br Expr Densvars Functionals Eval RSem Sem AdEval Taint EnergyR Phys Smooth Cont.
Import ListNotations.
Local Open Scope R_scope.

(** No absolute value, maximum or regularisation. *)
Fixpoint nomax (e : expr) : bool :=
  match e with
  | EIn _ | EFld _ | EVar _ | EConst _ => true
  | ELet _ a b | EAdd a b | ESub a b | EMul a b | EMulTo a b | EDiv a b => andb (nomax a) (nomax b)
  | ENeg a | EAddK a _ | ESubK a _ | EKSub _ a | EScale _ a | EKDiv _ a | EDivK a _ | EPow a _ | EPowI a _ | EFun _ a => nomax a
  | EAbs _ | EMax _ _ | EReg _ | EBR _ => false
  | EIf a b c d => andb (andb (nomax a) (nomax b)) (andb (nomax c) (nomax d))
  end.
Lemma settled_regular st x fl : forall e r, nomax e = true -> settled st x fl r e -> regular st x fl r e.
Proof.
  induction e; intros r H; cbn [nomax settled regular] in *; try discriminate; try (intros _; exact Logic.I); try (now apply IHe); try tauto;
    rewrite ?andb_true_iff in H; repeat match goal with X : _ /\ _ |- _ => destruct X end.
  - intros [A B]. split; [auto|]. intros v E. apply IHe2; [assumption|]. apply B. rewrite <- eval0. exact E.
  - intros [A B]; auto.
  - intros [A B]; auto.
  - intros [A B]; auto.
  - intros [A B]; auto.
  - intros [A B]; auto.
  - destruct f; auto. intros [A B]. split; [auto|]. intros v E N. apply B. rewrite <- eval0. now rewrite <- N.
  - intros (A & B & C). split; [auto|]. split; [auto|]. intros v w Ev Ew. pose proof (eval0 st x e1 fl r) as E1. pose proof (eval0 st x e2 fl r) as E2.
    destruct (C v w) as (C1 & C2 & C3); [rewrite <- E1; exact Ev|rewrite <- E2; exact Ew|]. auto.
Qed.

(** Absolute values only of fields in a given list. *)
Definition target (s : list (string * option fld)) (e : expr) : option fld :=
  match e with
  | EFld f => Some f
  | EVar y => match find (fun p => String.eqb y (fst p)) s with Some (_, t) => t | None => None end
  | _ => None
  end.
Section ABS.
Variable ok : fld -> bool.
Fixpoint absok (s : list (string * option fld)) (e : expr) : bool :=
  match e with
  | EIn _ | EFld _ | EVar _ | EConst _ => true
  | ELet x a b => andb (absok s a) (absok ((x, target s a) :: s) b)
  | EAdd a b | ESub a b | EMul a b | EMulTo a b | EDiv a b => andb (absok s a) (absok s b)
  | ENeg a | EAddK a _ | ESubK a _ | EKSub _ a | EScale _ a | EKDiv _ a | EDivK a _ | EPow a _ | EPowI a _ => absok s a
  | EFun Fsqas _ => false
  | EFun _ a => absok s a
  | EAbs a => andb (absok s a) (match target s a with Some f => ok f | None => false end)
  | EMax _ _ | EReg _ | EBR _ | EIf _ _ _ _ => false
  end.
Variables (st : nat -> T ROps) (x : nat -> R) (fl : fld -> R).
Hypothesis Nz : forall f, ok f = true -> fl f <> 0.
Definition agrees (s : list (string * option fld)) (r : Expr.env (K := ROps) 0) : Prop :=
  Forall2 (fun a b => fst a = fst b /\ match snd a with Some f => snd b = fl f | None => True end) s r.
Lemma target_val s r e f v : agrees s r -> target s e = Some f -> eval (K := ROps) st 0 x fl r e = Some v -> v = fl f.
Proof.
  intros A. destruct e; unfold target; cbn [eval]; try discriminate.
  - intros E X. injection E as <-. now injection X as <-.
  - induction A as [|[y t] [y' w] s r [E B] A IH]; cbn [find fst lookup]; [discriminate|]. cbn [fst snd] in E, B. subst y'.
    destruct (String.eqb x0 y); [|exact IH]. intros -> X. injection X as <-. exact B.
Qed.
Lemma absok_regular : forall e l0 r, agrees l0 r -> absok l0 e = true -> regular st x fl r e.
Proof.
  induction e; intros l0 r A H; cbn [absok regular] in *; try discriminate; try exact Logic.I; try (now apply (IHe l0));
    try (apply andb_true_iff in H; destruct H; split; [now apply (IHe1 l0)|now apply (IHe2 l0)]).
  - apply andb_true_iff in H; destruct H as [H1 H2]. split; [now apply (IHe1 l0)|]. intros v Ev. apply (IHe2 ((x0, target l0 e1) :: l0)); [|exact H2].
    constructor; [|exact A]. cbn [fst snd]. split; [reflexivity|]. destruct (target l0 e1) as [f|] eqn:Et; [|exact Logic.I]. exact (target_val l0 r e1 f v A Et Ev).
  - destruct f; try discriminate; now apply (IHe l0).
  - apply andb_true_iff in H; destruct H as [H1 H2]. split; [now apply (IHe l0)|]. intros v Ev. destruct (target l0 e) as [f|] eqn:Et; [|discriminate].
    pose proof (target_val l0 r e f v A Et Ev) as E. rewrite E. now apply Nz.
Qed.
End ABS.

Lemma regular_clean st x x' cf fl fl' : (forall f, cf f = true -> fl f = fl' f) -> forall e r, clean (fun _ => false) cf e = true ->
  regular st x fl r e -> regular st x' fl' r e.
Proof.
  intros F. assert (R : forall e r, clean (fun _ => false) cf e = true -> eval (K := ROps) st 0 x fl r e = eval (K := ROps) st 0 x' fl' r e).
  { intros e r C. pose proof (eval0 st x e fl r) as A. pose proof (eval0 st x' e fl' r) as B. rewrite A, B. now apply (reval_clean st x x' cf fl fl' F). }
  induction e; intros r C; cbn [clean] in C; rewrite ?andb_true_iff in C; repeat match goal with X : _ /\ _ |- _ => destruct X end; cbn [regular]; try tauto; auto.
  - intros [A B]. split; [auto|]. intros v Ev. rewrite <- R in Ev by assumption. auto.
  - intros [A B]; auto.
  - intros [A B]; auto.
  - intros [A B]; auto.
  - intros [A B]; auto.
  - intros [A B]; auto.
  - destruct f; auto. intros [A B]. split; [auto|]. intros v Ev. rewrite <- R in Ev by assumption. auto.
  - intros [A B]. split; [auto|]. intros v Ev. rewrite <- R in Ev by assumption. auto.
  - intros (A & B & D). split; [auto|]. split; [auto|]. intros v w Ev Ew. rewrite <- R in Ev, Ew by assumption. auto.
  - intros [A B]. split; [auto|]. intros v Ev. rewrite <- R in Ev by assumption. auto.
  - intros (A & B & D). split; [auto|]. split; [auto|]. intros v w Ev Ew. rewrite <- R in Ev, Ew by assumption. destruct (D v w Ev Ew) as (D1 & D2 & D3). auto.
Qed.
