(** * Where the library is smooth, in terms of the physical density
    Most functionals contain no branch, absolute value, maximum or root finder ("plain"
    below); for these the only switch on the way from the input to the result is the
    regularisation of small densities.  So at every density strictly above the threshold
    the smoothness hypothesis of the derivative theorems (C10, C11, C13) holds. *)
From Coq Require Import Reals QArith Qreals ZArith Arith Lia Lra List Bool String.
From Coquelicot Require Import Coquelicot.
From Verif Require Import Scalar RInst Tables Api SpecApi ApiProofs ApiProofs2 CTaylor CtAlg TMath Fps TFam TExp Ad Br Expr Densvars Functionals
  Eval Sem AdEval SpecEval Layout EvalSem EvalProps Taint EvalExt EvalR Phys.
Import ListNotations.
Local Open Scope R_scope.

(** No operation that switches between two definitions. *)
Fixpoint plain (e : expr) : bool :=
  match e with
  | EIn _ | EFld _ | EVar _ | EConst _ => true
  | ELet _ a b | EAdd a b | ESub a b | EMul a b | EMulTo a b | EDiv a b => andb (plain a) (plain b)
  | ENeg a | EAddK a _ | ESubK a _ | EKSub _ a | EScale _ a | EKDiv _ a | EDivK a _ | EPow a _ | EPowI a _ => plain a
  | EFun Fsqas _ => false
  | EFun _ a => plain a
  | EAbs _ | EMax _ _ | EReg _ | EBR _ | EIf _ _ _ _ => false
  end.
Lemma plain_regular st inp fl : forall e r, plain e = true -> regular st inp fl r e.
Proof.
  induction e; intros r H; cbn [plain regular] in *; try discriminate; try exact Logic.I; try (now apply IHe);
    try (apply andb_true_iff in H; destruct H; split; [now apply IHe1|intros; now apply IHe2]);
    try (apply andb_true_iff in H; destruct H; split; [now apply IHe1|now apply IHe2]).
  match goal with |- context [match ?g with _ => _ end] => destruct g end; try discriminate; now apply IHe.
Qed.
Definition strictly_above (D : dens) : Prop := threshold < rho (al D) /\ threshold < rho (be D).

Section RUN.
Variables (st : nat -> T ROps) (x : nat -> R).
Notation rr := (regular_run st x).
Notation ev fl := (eval (K := ROps) st 0 x fl []).
Lemma rr_plain fl f e p : plain e = true -> (forall w : R, ev fl e = Some w -> rr (fupd (K := ROps) 0 fl f w) p) -> rr fl ((f, e) :: p).
Proof. intros P H. split; [now apply plain_regular|exact H]. Qed.
Lemma rr_all p : forallb (fun q => plain (snd q)) p = true -> forall fl, rr fl p.
Proof.
  induction p as [|[f e] p IH]; intros H fl; [exact Logic.I|]. cbn in H. apply andb_true_iff in H. destruct H as [H1 H2].
  apply rr_plain; [exact H1|]. intros. now apply IH.
Qed.
Lemma rr_reg fl f p : Q2R TINY < fl f -> (rr (fupd (K := ROps) 0 fl f (fl f)) p) -> rr fl ((f, EReg (EFld f)) :: p).
Proof.
  intros L H. split.
  - cbn [regular]. split; [exact Logic.I|]. intros v E. cbn [eval] in E. injection E as <-. exact L.
  - intros w E. cbn [eval obnd] in E. injection E as <-. revert H. unfold ct_reg. cbn [c0]. cbn [Oltb ROps Rltb OofQ].
    unfold Rltb. destruct (Rlt_dec (fl f) (Q2R TINY)) as [N|N]; [exfalso; lra|]. exact (fun H => H).
Qed.

(** The constructor, for every variable set that describes densities. *)
Ltac rval E := cbn [eval obnd seval] in E; injection E as <-.
Ltac rgo := repeat first
  [ apply rr_all; reflexivity
  | apply rr_reg; [cbv [fupd fld_eqb fld_num Nat.eqb]; assumption|]
  | apply rr_plain; [reflexivity|let w := fresh "w" in let E := fresh "Ew" in intros w E; first [rval E|clear E]] ].
Lemma densvars_regular v D p : strictly_above D -> describes v x D -> dv_prog v = Some p -> rr (dv_init 0) p.
Proof.
  intros [A B] [Hv X] E. destruct D as [a b]. unfold threshold in A, B. cbn [al be] in A, B.
  assert (T0 : 0 < Q2R TINY) by (change (Q2R TINY) with (1 * / 100000000000000); lra).
  assert (Q05 : Q2R 0.5 = / 2) by (unfold Q2R; cbn; lra).
  pose proof (fun i r => get x a b v i r X) as G.
  destruct Hv as [Hv | [Hv C]]; cbn [In open_sets closed_sets] in Hv;
  repeat match goal with H : _ \/ _ |- _ => destruct H as [<- | H] end; try contradiction; vm_compute in E; injection E as <-;
  pose proof (G 0%nat _ eq_refl) as G0; unfold tot in G0; cbn [al be] in G0;
  assert (L0 : Q2R TINY < x 0%nat) by (rewrite G0; lra);
  try (pose proof (G 1%nat _ eq_refl) as G1; unfold dif in G1; cbn [al be] in G1);
  try (assert (L1 : Q2R TINY < x 1%nat) by (rewrite G1; lra)).
  all: try (pose proof (G 10%nat _ eq_refl) as G10; cbn [al be] in G10; assert (L10 : Q2R TINY < x 10%nat) by (rewrite G10; lra)).
  all: try solve [rgo].
  all: assert (La : Q2R TINY < Q2R 0.5 * (x 0%nat + x 1%nat)) by (rewrite G0, G1, Q05; lra);
       assert (Lb : Q2R TINY < Q2R 0.5 * (x 0%nat - x 1%nat)) by (rewrite G0, G1, Q05; lra); rgo.
Qed.
End RUN.

(** Every functional switched on is plain. *)
Definition all_plain (h : handle ROps) : Prop :=
  forall i nm e, In i (h_active h) -> nth_error functionals i = Some (nm, e) -> plain e = true.
Lemma plain_smooth (h : handle ROps) D x : all_plain h -> strictly_above D -> describes (h_vars h) x D -> smooth h x.
Proof.
  intros P A X. unfold smooth. destruct (dv_prog (h_vars h)) as [p|] eqn:E; [|exact Logic.I]. split.
  - exact (densvars_regular _ _ _ _ _ A X E).
  - intros fl _ i nm e Hi He. apply plain_regular. exact (P i nm e Hi He).
Qed.
