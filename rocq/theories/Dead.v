(** * Expressions that divide by zero whenever certain inputs vanish, over the reals *)
From Coq Require Import Reals QArith Qreals ZArith Arith Lia Lra List Bool String.
From Verif Require Import Scalar RInst Tables Api SpecApi ApiProofs CTaylor CtAlg TMath Br Expr Densvars Functionals Eval Sem.
Import ListNotations.
Local Open Scope outcome_scope.
Local Open Scope R_scope.

(** [isz]: if the expression has a value, its constant coefficient is zero, given the inputs
    [zi], the fields [zf] and the variables [r] that have a zero constant coefficient.
    [dead]: the expression has no value. *)
Fixpoint zlookup (x : string) (r : list (string * bool)) : bool :=
  match r with [] => false | (y, b) :: r' => if String.eqb x y then b else zlookup x r' end.
Section ZERO.
Variables (zi : nat -> bool) (zf : fld -> bool).
Fixpoint isz (r : list (string * bool)) (e : expr) : bool :=
  match e with
  | EIn i => zi i
  | EFld f => zf f
  | EVar x => zlookup x r
  | EConst (SQ q) => Qeq_bool q 0
  | ELet x a b => isz ((x, isz r a) :: r) b
  | ENeg a | EScale _ a | EDivK a _ => isz r a
  | EAdd a b | ESub a b => isz r a && isz r b
  | EMul a b => isz r a || isz r b
  | _ => false
  end.
Fixpoint dead (r : list (string * bool)) (e : expr) : bool :=
  match e with
  | EIn _ | EFld _ | EVar _ | EConst _ => false
  | ELet x a b => dead r a || dead ((x, isz r a) :: r) b
  | ENeg a | EAddK a _ | ESubK a _ | EKSub _ a | EScale _ a | EDivK a _ | EPow a _ | EPowI a _ | EFun _ a | EAbs a | EReg a | EBR a => dead r a
  | EKDiv _ a => dead r a || isz r a
  | EAdd a b | ESub a b | EMul a b | EMulTo a b | EMax a b => dead r a || dead r b
  | EDiv a b => dead r a || dead r b || isz r b
  | EIf a b _ _ => dead r a || dead r b
  end.
End ZERO.
Fixpoint zrun (zi : nat -> bool) (zf : fld -> bool) (p : list (fld * expr)) : fld -> bool :=
  match p with
  | [] => zf
  | (f, e) :: p' => let z := isz zi zf [] e in zrun zi (fun g => if fld_eqb g f then z else zf g) p'
  end.

(** Soundness, at order 0 (higher orders follow because the constant coefficient of an
    evaluation is the order-0 evaluation). *)
Section SOUND.
Variables (st : nat -> T ROps) (d : nat -> rct 0).
Notation ev fl r e := (eval (K := ROps) st 0 d fl r e).
Variable zi : nat -> bool.
Hypothesis Hi : forall i, zi i = true -> d i = 0.
Section FL.
Variables (zf : fld -> bool) (fl : fld -> rct 0).
Hypothesis Hf : forall f, zf f = true -> fl f = 0.
Definition renvz (r : list (string * bool)) (g : env (K := ROps) 0) : Prop :=
  forall x v, zlookup x r = true -> lookup 0 x g = Some v -> v = 0.
Lemma renvz_cons r g x b v : renvz r g -> (b = true -> v = 0) -> renvz ((x, b) :: r) ((x, v) :: g).
Proof.
  intros Hr Hb y w. cbn [zlookup lookup]. destruct (String.eqb y x); [|apply Hr]. intros B E. injection E as <-. auto.
Qed.
Ltac use_ih :=
  repeat match goal with
  | X : obnd (eval st 0 d fl ?g ?a) _ = Some _ |- _ =>
      let v := fresh "v" in let Ev := fresh "Ev" in destruct (eval st 0 d fl g a) as [v|] eqn:Ev; [|discriminate]; cbn [obnd] in X
  | X : obnd (seval st ?s) _ = Some _ |- _ =>
      let k := fresh "k" in destruct (seval st s) as [k|] eqn:?; [|discriminate]; cbn [obnd] in X
  end.
Lemma isz_ok : forall e r g v, renvz r g -> isz zi zf r e = true -> ev fl g e = Some v -> v = 0.
Proof.
  induction e; intros r g w Hr Hz E; cbn [isz] in Hz; try discriminate; cbn [eval] in E; use_ih.
  - injection E as <-. auto.
  - injection E as <-. auto.
  - exact (Hr _ _ Hz E).
  - destruct s; try discriminate. cbn [seval] in *. apply Qeq_bool_eq in Hz. injection E as <-.
    match goal with X : Some _ = Some k |- _ => injection X as <- end. cbn. rewrite (Qeq_eqR _ _ Hz). apply RMicromega.Q2R_0.
  - eapply (IHe2 ((x, isz zi zf r e1) :: r) ((x, v) :: g)); [|exact Hz|exact E].
    apply renvz_cons; [exact Hr|]. intro B. exact (IHe1 r g v Hr B Ev).
  - injection E as <-. cbn. rewrite (IHe r g v Hr Hz Ev). apply Ropp_0.
  - apply andb_true_iff in Hz. destruct Hz as [H1 H2]. injection E as <-. cbn. rewrite (IHe1 _ _ _ Hr H1 Ev), (IHe2 _ _ _ Hr H2 Ev0). apply Rplus_0_l.
  - apply andb_true_iff in Hz. destruct Hz as [H1 H2]. injection E as <-. cbn. rewrite (IHe1 _ _ _ Hr H1 Ev), (IHe2 _ _ _ Hr H2 Ev0). apply Rminus_0_r.
  - injection E as <-. cbn. apply orb_true_iff in Hz. destruct Hz as [H1|H1].
    + rewrite (IHe1 _ _ _ Hr H1 Ev). apply Rmult_0_l.
    + rewrite (IHe2 _ _ _ Hr H1 Ev0). apply Rmult_0_r.
  - injection E as <-. cbn. rewrite (IHe _ _ _ Hr Hz Ev). apply Rmult_0_r.
  - unfold ct_divk in E. destruct (Oeqb k _); [discriminate|]. injection E as <-. cbn. rewrite (IHe _ _ _ Hr Hz Ev). apply Rmult_0_l.
Qed.
Lemma inv0 : @inv_expand ROps 0 = None.
Proof. unfold inv_expand. cbn. unfold Reqb. destruct (Req_EM_T 0 _) as [E|E]; [reflexivity|]. exfalso. apply E. cbn. unfold OofZ. cbn. unfold Q2R. cbn. lra. Qed.
Lemma dead_ok : forall e r g, renvz r g -> dead zi zf r e = true -> ev fl g e = None.
Proof.
  induction e; intros r g Hr Hd; cbn [dead] in Hd; try discriminate; cbn [eval];
    rewrite ?orb_true_iff in Hd;
    try (rewrite (IHe _ _ Hr Hd); cbn [obnd]; destruct (seval st s); reflexivity);
    try (rewrite (IHe _ _ Hr Hd); reflexivity).
  all: try (destruct Hd as [Hd|Hd]; [rewrite (IHe1 _ _ Hr Hd); reflexivity|]; destruct (ev fl g e1); cbn [obnd]; [|reflexivity]; rewrite (IHe2 _ _ Hr Hd); reflexivity).
  - destruct Hd as [Hd|Hd]; [rewrite (IHe1 _ _ Hr Hd); reflexivity|]. destruct (ev fl g e1) as [v|] eqn:Ev; cbn [obnd]; [|reflexivity].
    eapply IHe2; [|exact Hd]. apply renvz_cons; [exact Hr|]. intro B. exact (isz_ok e1 r g v Hr B Ev).
  - destruct (ev fl g e1) as [v|] eqn:Ev; cbn [obnd]; [|reflexivity]. destruct Hd as [[Hd|Hd]|Hd].
    + rewrite (IHe1 _ _ Hr Hd) in Ev. discriminate.
    + now rewrite (IHe2 _ _ Hr Hd).
    + destruct (ev fl g e2) as [w|] eqn:Ew; cbn [obnd]; [|reflexivity]. rewrite (isz_ok e2 r g w Hr Hd Ew). unfold ct_div. cbn [c0]. now rewrite inv0.
  - destruct (seval st s); cbn [obnd]; [|reflexivity]. destruct Hd as [Hd|Hd].
    + now rewrite (IHe _ _ Hr Hd).
    + destruct (ev fl g e) as [w|] eqn:Ew; cbn [obnd]; [|reflexivity]. rewrite (isz_ok e r g w Hr Hd Ew). unfold ct_kdiv. cbn [c0]. now rewrite inv0.
Qed.
End FL.
Lemma renvz_nil : renvz [] [].
Proof. intros x v H. discriminate. Qed.
Lemma zrun_ok : forall p zf fl fl', (forall f, zf f = true -> fl f = 0) -> run (K := ROps) st 0 d fl p = Some fl' ->
  forall f, zrun zi zf p f = true -> fl' f = 0.
Proof.
  induction p as [|[f e] p IH]; intros zf fl fl' Hf E; cbn [run zrun] in *.
  - injection E as <-. exact Hf.
  - destruct (ev fl [] e) as [v|] eqn:Ev; [|discriminate]. cbn [obnd] in E.
    eapply IH; [|exact E]. intros g. unfold fupd. destruct (fld_eqb g f); [|apply Hf]. intro Z. exact (isz_ok zf fl Hf e [] [] v renvz_nil Z Ev).
Qed.
End SOUND.
(** If an active functional is dead for the given zero inputs, the energy is undefined. *)
Definition dead_in (v : Z) (zi : nat -> bool) (id : nat) : bool :=
  match dv_prog v, nth_error functionals id with
  | Some p, Some (_, e) => dead zi (zrun zi (fun _ => true) p) [] e
  | _, _ => false
  end.
Lemma energy_dead (h : handle ROps) zi id d out e : In id (h_active h) -> dead_in (h_vars h) zi id = true -> (forall i, zi i = true -> d i = 0) ->
  energy h 0 d out <> Ok e.
Proof.
  intros Hin Hd Hz E. unfold dead_in in Hd. unfold energy, densvars in E. destruct (dv_prog (h_vars h)) as [p|]; [|discriminate].
  destruct (nth_error functionals id) as [[nm ex]|] eqn:Ef; [|discriminate].
  destruct (run (h_settings h) 0 d (dv_init 0) p) as [fl|] eqn:Er; cbn [of_option obind] in E; [|discriminate].
  pose proof (zrun_ok (h_settings h) d zi Hz p (fun _ => true) (dv_init (K := ROps) 0) fl ltac:(intros f _; cbn; apply RMicromega.Q2R_0) Er) as Z.
  pose proof (dead_ok (h_settings h) d zi Hz _ fl Z ex [] [] renvz_nil Hd) as N.
  unfold energy_sum in E. revert out E. induction (h_active h) as [|j l IH]; intros out E; [contradiction|]. cbn [ofold] in E.
  destruct Hin as [->|Hin].
  - unfold fp in E. rewrite Ef in E. cbn [obind snd] in E. rewrite N in E. discriminate.
  - destruct (fp j); cbn [obind] in E; try discriminate. destruct (of_option _); cbn [obind] in E; try discriminate. exact (IH Hin _ E).
Qed.
