(** * Runs of the density variable constructor on two related inputs, over the reals *)
From Coq Require Import Reals QArith Qreals ZArith Arith Lia Lra List Bool String.
From Coquelicot Require Import Coquelicot.
From Verif Require Import Scalar RInst Tables Api SpecApi ApiProofs ApiProofs2 CTaylor CtAlg TMath Br Expr Densvars Functionals
  Eval Layout EvalSem EvalProps Taint EvalExt.
Import ListNotations.
Local Open Scope outcome_scope.
Local Open Scope R_scope.

Section TR.
Variables (st : nat -> T ROps) (n : nat) (d d' : nat -> rct n).
Notation ev x fl e := (eval (K := ROps) st n x fl [] e).
(** [tr cf p cf']: if the fields in [cf] agree before running [p] on [d] and on [d'], both
    runs end alike and the fields in [cf'] agree afterwards. *)
Inductive tr : (fld -> bool) -> list (fld * expr) -> (fld -> bool) -> Prop :=
| tr_nil cf : tr cf [] cf
| tr_same cf f e p cf' : (forall fl fl', fagr n cf fl fl' -> ev d fl e = ev d' fl' e) -> tr (cadd true f cf) p cf' -> tr cf ((f, e) :: p) cf'
| tr_tot cf f e p cf' : (forall x fl, exists v, ev x fl e = Some v) -> tr (cadd false f cf) p cf' -> tr cf ((f, e) :: p) cf'
| tr_pair cf f e1 e2 p cf' :
    (forall fl fl', fagr n cf fl fl' -> obnd (ev d fl e1) (fun v => ev d (fupd n fl f v) e2) = obnd (ev d' fl' e1) (fun v => ev d' (fupd n fl' f v) e2)) ->
    tr (cadd true f cf) p cf' -> tr cf ((f, e1) :: (f, e2) :: p) cf'.
Lemma fagr_pair cf fl fl' f v v' w : fagr (K := ROps) n cf fl fl' ->
  fagr n (cadd true f cf) (fupd n (fupd n fl f v) f w) (fupd n (fupd n fl' f v') f w).
Proof. intros F g. unfold cadd, fupd. destruct (fld_eqb g f); [reflexivity|apply F]. Qed.
Lemma run_tr cf p cf' : tr cf p cf' -> forall fl fl', fagr n cf fl fl' ->
  match run st n d fl p, run st n d' fl' p with Some a, Some b => fagr n cf' a b | None, None => True | _, _ => False end.
Proof.
  induction 1 as [cf|cf f e p cf' H T IH|cf f e p cf' H T IH|cf f e1 e2 p cf' H T IH]; intros fl fl' F; cbn [run].
  - exact F.
  - rewrite (H fl fl' F). destruct (ev d' fl' e); cbn [obnd]; [|exact Logic.I]. apply IH. now apply fagr_upd.
  - destruct (H d fl) as [v ->]. destruct (H d' fl') as [v' ->]. cbn [obnd]. apply IH. now apply fagr_upd'.
  - specialize (H fl fl' F). destruct (ev d fl e1) as [v|], (ev d' fl' e1) as [v'|]; cbn [obnd] in *.
    + destruct (ev d (fupd n fl f v) e2) as [w|], (ev d' (fupd n fl' f v') e2) as [w'|]; cbn [obnd] in *; try discriminate; try exact Logic.I.
      injection H as <-. apply IH. now apply fagr_pair.
    + destruct (ev d (fupd n fl f v) e2); [discriminate|exact Logic.I].
    + destruct (ev d' (fupd n fl' f v') e2); [discriminate|exact Logic.I].
    + exact Logic.I.
Qed.
Lemma tr_app cf p cf1 : tr cf p cf1 -> forall q cf2, tr cf1 q cf2 -> tr cf (p ++ q) cf2.
Proof. induction 1; intros q cf2 Q; cbn [app]; [exact Q|apply tr_same|apply tr_tot|apply tr_pair]; auto. Qed.
Lemma tr_clean ci cf f e p cf' : (forall i, ci i = true -> d i = d' i) -> clean ci cf e = true -> tr (cadd true f cf) p cf' -> tr cf ((f, e) :: p) cf'.
Proof. intros Hd C T. apply tr_same; [|exact T]. intros fl fl' F. now apply (eval_clean st n d d' ci Hd cf). Qed.
End TR.

Lemma energy_tr (h : handle ROps) n d d' cf p out : dv_prog (h_vars h) = Some p -> tr (h_settings h) n d d' (fun _ => true) p cf ->
  (forall i, In i (h_active h) -> exists e, fp i = Ok e /\ clean (fun _ => false) cf e = true) ->
  energy h n d out = energy h n d' out.
Proof.
  intros D T Hc. unfold energy, densvars. rewrite D.
  pose proof (run_tr (h_settings h) n d d' _ p _ T (dv_init n) (dv_init n) ltac:(intros f _; reflexivity)) as R.
  destruct (run _ n d _ p) as [a|], (run _ n d' _ p) as [b|]; cbn [of_option obind]; try contradiction; [|reflexivity].
  exact (energy_sum_clean h n a b d d' cf out Hc R).
Qed.

(** ** A decision procedure; like [taint], with division by non-zero literals allowed. *)
Definition slit (s : sexp) : bool := match s with SQ q => negb (Qeq_bool q 0) | _ => false end.
Fixpoint totalR (e : expr) : bool :=
  match e with
  | EIn _ | EFld _ => true
  | EConst s => stotal s
  | ENeg a => totalR a
  | EAdd a b | ESub a b | EMul a b => totalR a && totalR b
  | EScale s a => stotal s && totalR a
  | EDivK a s => slit s && totalR a
  | EReg a => totalR a
  | _ => false
  end.
Fixpoint taintR (ci : nat -> bool) (cf : fld -> bool) (p : list (fld * expr)) : option (fld -> bool) :=
  match p with
  | [] => Some cf
  | (f, e) :: p' =>
      if clean ci cf e then taintR ci (cadd true f cf) p'
      else if totalR e then taintR ci (cadd false f cf) p' else None
  end.
Lemma divk_lit st n (t : rct n) s : slit s = true -> exists k v, seval (K := ROps) st s = Some k /\ ct_divk n t k = Some v.
Proof.
  destruct s; cbn [slit]; try discriminate. intro H. apply negb_true_iff in H. apply Qeq_bool_neq in H.
  exists (Q2R q). cbn [seval OofQ ROps]. unfold ct_divk. cbn [Oeqb ROps]. unfold OofZ. cbn [OofQ ROps]. change (inject_Z 0) with 0%Q. rewrite Q2R_0.
  unfold Reqb. destruct (Req_EM_T (Q2R q) 0) as [E|E]; [|eauto].
  exfalso. apply H. apply eqR_Qeq. now rewrite E, Q2R_0.
Qed.
Lemma totalR_ok st n (x : nat -> rct n) fl : forall e r, totalR e = true -> exists v, eval (K := ROps) st n x fl r e = Some v.
Proof.
  induction e; intros r Ht; cbn [totalR] in Ht; try discriminate; rewrite ?andb_true_iff in Ht; cbn [eval].
  - eauto.
  - eauto.
  - destruct (stotal_ok st s Ht) as [k ->]. cbn. eauto.
  - destruct (IHe r Ht) as [v ->]. cbn. eauto.
  - destruct Ht as [H1 H2]. destruct (IHe1 r H1) as [v ->]. destruct (IHe2 r H2) as [w ->]. cbn. eauto.
  - destruct Ht as [H1 H2]. destruct (IHe1 r H1) as [v ->]. destruct (IHe2 r H2) as [w ->]. cbn. eauto.
  - destruct Ht as [H1 H2]. destruct (IHe1 r H1) as [v ->]. destruct (IHe2 r H2) as [w ->]. cbn. eauto.
  - destruct Ht as [H1 H2]. destruct (stotal_ok st s H1) as [k ->]. destruct (IHe r H2) as [w ->]. cbn. eauto.
  - destruct Ht as [H1 H2]. destruct (IHe r H2) as [w ->]. cbn [obnd]. destruct (divk_lit st n w s H1) as (k & v & -> & E). cbn [obnd]. eauto.
  - destruct (IHe r Ht) as [v ->]. cbn. eauto.
Qed.
Lemma taintR_tr st n d d' ci : (forall i, ci i = true -> d i = d' i) -> forall p cf cf', taintR ci cf p = Some cf' -> tr st n d d' cf p cf'.
Proof.
  intro Hd. induction p as [|[f e] p IH]; intros cf cf' H; cbn [taintR] in H.
  - injection H as <-. constructor.
  - destruct (clean ci cf e) eqn:C; [eapply tr_clean; eauto|].
    destruct (totalR e) eqn:T; [|discriminate]. apply tr_tot; [|now apply IH]. intros x fl. now apply totalR_ok.
Qed.
