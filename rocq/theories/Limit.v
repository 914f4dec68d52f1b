(** * Expressions at vanishing gradients

    A partial evaluator that replaces the gradient invariants by zero and folds
    constants, and its soundness for the real meaning of expressions (RSem.v): whenever
    the original expression is defined, so is the simplified one, with the same value. *)
From Coq Require Import Reals QArith Qreals ZArith Arith Lia Lra List Bool String.
From Coquelicot Require Import Coquelicot.
From Verif Require Import Scalar RInst Tables CTaylor TMath TExp Br Expr Densvars Functionals RSem Homog.
Import ListNotations.
Local Open Scope R_scope.

Definition gfld (f : fld) : bool := match f with f_gaa | f_gab | f_gbb | f_gnn | f_gns | f_gss => true | _ => false end.
(** A known number or an expression. *)
Inductive av := AC (q : Q) | AE (e : expr).
Definition q0 (q : Q) : bool := Qeq_bool q 0.
Definition q1 (q : Q) : bool := Qeq_bool q 1.
Definition rei (a : av) : expr := match a with AC q => EConst (SQ q) | AE e => e end.
Fixpoint alook (x : string) (r : list (string * av)) : av :=
  match r with [] => AE (EIn 0) | (y, v) :: r' => if String.eqb x y then v else alook x r' end.
Definition sadd (a b : av) : av :=
  match a, b with
  | AC p, AC q => AC (Qred (p + q))
  | AC p, AE e => if q0 p then AE e else AE (EAdd (rei a) e)
  | AE e, AC q => if q0 q then AE e else AE (EAdd e (rei b))
  | AE e, AE e' => AE (EAdd e e')
  end.
Definition ssub (a b : av) : av :=
  match a, b with
  | AC p, AC q => AC (Qred (p - q))
  | AE e, AC q => if q0 q then AE e else AE (ESub e (rei b))
  | _, _ => AE (ESub (rei a) (rei b))
  end.
Definition smul (a b : av) : av :=
  match a, b with
  | AC p, AC q => AC (Qred (p * q))
  | AC p, AE e => if q0 p then AC 0 else if q1 p then AE e else AE (EMul (rei a) e)
  | AE e, AC q => if q0 q then AC 0 else if q1 q then AE e else AE (EMul e (rei b))
  | AE e, AE e' => AE (EMul e e')
  end.
Definition sdv (a b : av) : av :=
  match a, b with
  | AC p, AC q => AC (Qred (p / q))
  | AC p, AE e => if q0 p then AC 0 else AE (EDiv (rei a) e)
  | AE e, AC q => if q1 q then AE e else AE (EDiv e (rei b))
  | AE e, AE e' => AE (EDiv e e')
  end.
Definition sk (s : sexp) : av := match sconst s with Some q => AC q | None => AE (EConst s) end.
Definition sfn (f : fn1) (a : av) : av :=
  match f, a with
  | Flog, AC q => if q1 q then AC 0 else AE (EFun f (rei a))
  | Fexp, AC q => if q0 q then AC 1 else AE (EFun f (rei a))
  | Fexpm1, AC q => if q0 q then AC 0 else AE (EFun f (rei a))
  | Fsqrt, AC q => if q1 q then AC 1 else AE (EFun f (rei a))
  | Fsqas, AC q => if q0 q then AC 0 else AE (EFun f (rei a))
  | Fasinh, AC q => if q0 q then AC 0 else AE (EFun f (rei a))
  | _, _ => AE (EFun f (rei a))
  end.
Fixpoint simp (r : list (string * av)) (e : expr) : av :=
  match e with
  | EIn i => AE (EIn i)
  | EFld f => if gfld f then AC 0 else AE (EFld f)
  | EVar x => alook x r
  | EConst s => sk s
  | ELet x a b => simp ((x, simp r a) :: r) b
  | ENeg a => match simp r a with AC q => AC (- q) | AE a' => AE (ENeg a') end
  | EAdd a b => sadd (simp r a) (simp r b)
  | ESub a b => ssub (simp r a) (simp r b)
  | EMul a b | EMulTo a b => smul (simp r a) (simp r b)
  | EDiv a b => sdv (simp r a) (simp r b)
  | EAddK a s => sadd (simp r a) (sk s)
  | ESubK a s => ssub (simp r a) (sk s)
  | EKSub s a => ssub (sk s) (simp r a)
  | EScale s a => smul (sk s) (simp r a)
  | EKDiv s a => sdv (sk s) (simp r a)
  | EDivK a s => sdv (simp r a) (sk s)
  | EPow a s => match simp r a with AC q => if q1 q then AC 1 else AE (EPow (EConst (SQ q)) s) | AE a' => AE (EPow a' s) end
  | EPowI a z => match simp r a with AC q => if q1 q then AC 1 else if q0 q then (match z with Zpos _ => AC 0 | _ => AE (EPowI (EConst (SQ q)) z) end) else AE (EPowI (EConst (SQ q)) z) | AE a' => AE (EPowI a' z) end
  | EFun f a => sfn f (simp r a)
  | EAbs a => match simp r a with AC q => if q0 q then AC 0 else AE (EAbs (EConst (SQ q))) | AE a' => AE (EAbs a') end
  | EMax a b => AE (EMax (rei (simp r a)) (rei (simp r b)))
  | EReg a => AE (EReg (rei (simp r a)))
  | EBR a => AE (EBR (rei (simp r a)))
  | EIf a b x y => AE (EIf (rei (simp r a)) (rei (simp r b)) (rei (simp r x)) (rei (simp r y)))
  end.

(** ** Soundness *)
Section S.
Variables (st : nat -> T ROps) (inp : nat -> R) (fl : fld -> R).
Hypothesis Hg : forall f, gfld f = true -> fl f = 0.
Notation ev := (reval st inp fl []).
Definition val (a : av) (v : R) : Prop := match a with AC q => v = Q2R q | AE e => ev e = Some v end.
Definition vals (r : list (string * av)) (g : list (string * R)) : Prop := forall x v, rlook x g = Some v -> val (alook x r) v.
Lemma vals_cons r g x a v : vals r g -> val a v -> vals ((x, a) :: r) ((x, v) :: g).
Proof. intros H V y w. cbn [rlook alook]. destruct (String.eqb y x); [|apply H]. intro E. injection E as <-. exact V. Qed.
Lemma rei_ok a v : val a v -> ev (rei a) = Some v.
Proof. destruct a; cbn; intro H; [now rewrite H|exact H]. Qed.
Lemma q0_ok q : q0 q = true -> Q2R q = 0.
Proof. intro H. apply Qeq_bool_eq in H. rewrite (Qeq_eqR _ _ H). apply RMicromega.Q2R_0. Qed.
Lemma q1_ok q : q1 q = true -> Q2R q = 1.
Proof. intro H. apply Qeq_bool_eq in H. rewrite (Qeq_eqR _ _ H). unfold Q2R; cbn; lra. Qed.
Lemma qred_ok q : Q2R (Qred q) = Q2R q.
Proof. exact (Qeq_eqR _ _ (Qred_correct q)). Qed.
Lemma AC0 : Q2R 0 = 0. Proof. apply RMicromega.Q2R_0. Qed.
Lemma AC1 : Q2R 1 = 1. Proof. unfold Q2R; cbn; lra. Qed.
Ltac ev1 H := first [rewrite (rei_ok _ _ H) | rewrite H].
Lemma sadd_ok a b x y : val a x -> val b y -> val (sadd a b) (x + y).
Proof.
  intros A B. pose proof (rei_ok _ _ A) as A'. pose proof (rei_ok _ _ B) as B'. unfold sadd.
  destruct a as [p|e], b as [q|e'].
  - cbn [val reval] in *. now rewrite qred_ok, Q2R_plus, A, B.
  - destruct (q0 p) eqn:Z; [cbn [val reval] in *; rewrite A, (q0_ok _ Z), Rplus_0_l; exact B|]. cbn [val reval rei] in A', B' |- *. rewrite A', B'. reflexivity.
  - destruct (q0 q) eqn:Z; [cbn [val reval] in *; rewrite B, (q0_ok _ Z), Rplus_0_r; exact A|]. cbn [val reval rei] in A', B' |- *. rewrite A', B'. reflexivity.
  - cbn [val reval rei] in *. now rewrite A, B.
Qed.
Lemma ssub_ok a b x y : val a x -> val b y -> val (ssub a b) (x - y).
Proof.
  intros A B. pose proof (rei_ok _ _ A) as A'. pose proof (rei_ok _ _ B) as B'. unfold ssub.
  destruct a as [p|e], b as [q|e'].
  - cbn [val reval] in *. now rewrite qred_ok, Q2R_minus, A, B.
  - cbn [val reval rei] in A', B' |- *. rewrite A', B'. reflexivity.
  - destruct (q0 q) eqn:Z; [cbn [val reval] in *; rewrite B, (q0_ok _ Z), Rminus_0_r; exact A|]. cbn [val reval rei] in A', B' |- *. rewrite A', B'. reflexivity.
  - cbn [val reval rei] in *. now rewrite A, B.
Qed.
Lemma smul_ok a b x y : val a x -> val b y -> val (smul a b) (x * y).
Proof.
  intros A B. pose proof (rei_ok _ _ A) as A'. pose proof (rei_ok _ _ B) as B'. unfold smul.
  destruct a as [p|e], b as [q|e'].
  - cbn [val reval] in *. now rewrite qred_ok, Q2R_mult, A, B.
  - destruct (q0 p) eqn:Z; [cbn [val reval] in *; now rewrite A, (q0_ok _ Z), Rmult_0_l, AC0|]. destruct (q1 p) eqn:O; [cbn [val reval] in *; rewrite A, (q1_ok _ O), Rmult_1_l; exact B|]. cbn [val reval rei] in A', B' |- *. rewrite A', B'. reflexivity.
  - destruct (q0 q) eqn:Z; [cbn [val reval] in *; now rewrite B, (q0_ok _ Z), Rmult_0_r, AC0|]. destruct (q1 q) eqn:O; [cbn [val reval] in *; rewrite B, (q1_ok _ O), Rmult_1_r; exact A|]. cbn [val reval rei] in A', B' |- *. rewrite A', B'. reflexivity.
  - cbn [val reval rei] in *. now rewrite A, B.
Qed.
Lemma sdv_ok a b x y v : val a x -> val b y -> rdiv x y = Some v -> val (sdv a b) v.
Proof.
  intros A B D. pose proof (rei_ok _ _ A) as A'. pose proof (rei_ok _ _ B) as B'. unfold sdv.
  assert (Dv : y <> 0 /\ v = x / y) by (unfold rdiv in D; destruct (Req_EM_T y 0); [discriminate|injection D as <-; auto]). destruct Dv as [N ->].
  destruct a as [p|e], b as [q|e'].
  - cbn [val reval] in *. rewrite qred_ok, A, B, Q2R_div; [reflexivity|]. intro Z. apply N. rewrite B, (Qeq_eqR _ _ Z). apply AC0.
  - destruct (q0 p) eqn:Z; [cbn [val reval] in *; rewrite A, (q0_ok _ Z), AC0; unfold Rdiv; ring|]. cbn [val reval rei] in A', B' |- *. rewrite A', B'. exact D.
  - destruct (q1 q) eqn:O; [cbn [val reval] in *; rewrite B, (q1_ok _ O); unfold Rdiv; rewrite Rinv_1, Rmult_1_r; exact A|]. cbn [val reval rei] in A', B' |- *. rewrite A', B'. exact D.
  - cbn [val reval rei] in A', B' |- *. rewrite A', B'. exact D.
Qed.
Lemma sk_ok s v : seval (K := ROps) st s = Some v -> val (sk s) v.
Proof. intro H. unfold sk. destruct (sconst s) as [q|] eqn:E; [|exact H]. cbn. rewrite (sconst_ok st s q E) in H. injection H as <-. reflexivity. Qed.
Lemma polyP_0 : polyP 0 = 0.
Proof. unfold polyP, peval_seq. cbn -[Q2R tab pow]. unfold tab, padeP. cbn [nth OofQ ROps]. rewrite !pow_i by lia. unfold Q2R. cbn. lra. Qed.
Lemma sfn_ok f a x v : val a x -> rfn f x = Some v -> val (sfn f a) v.
Proof.
  intros A F. pose proof (rei_ok _ _ A) as A'.
  assert (G : val (AE (EFun f (rei a))) v) by (cbn [val reval]; rewrite A'; exact F).
  assert (X0 : forall q, a = AC q -> q0 q = true -> x = 0) by (intros q -> Z; cbn [val] in A; rewrite A; now apply q0_ok).
  assert (X1 : forall q, a = AC q -> q1 q = true -> x = 1) by (intros q -> Z; cbn [val] in A; rewrite A; now apply q1_ok).
  unfold sfn. destruct f, a as [q|e]; try exact G.
  - destruct (q0 q) eqn:Z; [|exact G]. rewrite (X0 q eq_refl Z) in F. cbn in F. injection F as <-. cbn [val]. now rewrite exp_0, AC1.
  - destruct (q0 q) eqn:Z; [|exact G]. rewrite (X0 q eq_refl Z) in F. cbn in F. injection F as <-. cbn [val]. rewrite exp_0, AC0. ring.
  - destruct (q1 q) eqn:Z; [|exact G]. rewrite (X1 q eq_refl Z) in F. cbn in F. destruct (Rlt_dec 0 1); [|lra]. injection F as <-. cbn [val]. now rewrite ln_1, AC0.
  - destruct (q1 q) eqn:Z; [|exact G]. rewrite (X1 q eq_refl Z) in F. cbn in F. destruct (Rlt_dec 0 1); [|lra]. injection F as <-. cbn [val]. now rewrite sqrt_1, AC1.
  - destruct (q0 q) eqn:Z; [|exact G]. rewrite (X0 q eq_refl Z) in F. cbn in F. injection F as <-. cbn [val]. rewrite AC0. unfold arcsinh. rewrite pow_i by lia. rewrite !Rplus_0_l, sqrt_1. apply ln_1.
  - destruct (q0 q) eqn:Z; [|exact G]. rewrite (X0 q eq_refl Z) in F. cbn in F. unfold rsqas in F. destruct (Rlt_dec (- / 2) 0); [|lra]. destruct (Rlt_dec 0 (/ 2)); [|lra].
    unfold rdiv in F. destruct (Req_EM_T _ _); [discriminate|]. injection F as <-. cbn [val]. rewrite AC0. rewrite polyP_0. unfold Rdiv. ring.
Qed.
Lemma simp_ok : forall e r g v, vals r g -> reval st inp fl g e = Some v -> val (simp r e) v.
Proof.
  induction e; intros r g v V E; cbn [simp]; cbn [reval] in E.
  all: try (destruct (reval st inp fl g e1) as [v1|] eqn:E1; [|discriminate E]; cbn [obnd] in E).
  - exact E.
  - destruct (gfld f) eqn:G; [injection E as <-; cbn [val]; rewrite AC0; now apply Hg|exact E].
  - exact (V _ _ E).
  - now apply sk_ok.
  - exact (IHe2 _ _ _ (vals_cons _ _ _ _ _ V (IHe1 _ _ _ V E1)) E).
  - destruct (reval st inp fl g e) as [x|] eqn:Ee; [|discriminate]. injection E as <-. specialize (IHe _ _ _ V Ee). destruct (simp r e); cbn [val reval] in *; [now rewrite Q2R_opp, IHe|now rewrite IHe].
  - destruct (reval st inp fl g e2) as [v2|] eqn:E2; [|discriminate]. injection E as <-. apply sadd_ok; eauto.
  - destruct (reval st inp fl g e2) as [v2|] eqn:E2; [|discriminate]. injection E as <-. apply ssub_ok; eauto.
  - destruct (reval st inp fl g e2) as [v2|] eqn:E2; [|discriminate]. injection E as <-. apply smul_ok; eauto.
  - destruct (reval st inp fl g e2) as [v2|] eqn:E2; [|discriminate]. injection E as <-. apply smul_ok; eauto.
  - destruct (reval st inp fl g e2) as [v2|] eqn:E2; [|discriminate]. cbn [obnd] in E. eapply sdv_ok; eauto.
  - destruct (reval st inp fl g e) as [x|] eqn:Ee; [|discriminate]. destruct (seval st s) as [k|] eqn:Es; [|discriminate]. injection E as <-. apply sadd_ok; [eauto|now apply sk_ok].
  - destruct (reval st inp fl g e) as [x|] eqn:Ee; [|discriminate]. destruct (seval st s) as [k|] eqn:Es; [|discriminate]. injection E as <-. apply ssub_ok; [eauto|now apply sk_ok].
  - destruct (seval st s) as [k|] eqn:Es; [|discriminate]. destruct (reval st inp fl g e) as [x|] eqn:Ee; [|discriminate]. injection E as <-. apply ssub_ok; [now apply sk_ok|eauto].
  - destruct (seval st s) as [k|] eqn:Es; [|discriminate]. destruct (reval st inp fl g e) as [x|] eqn:Ee; [|discriminate]. injection E as <-. apply smul_ok; [now apply sk_ok|eauto].
  - destruct (seval st s) as [k|] eqn:Es; [|discriminate]. destruct (reval st inp fl g e) as [x|] eqn:Ee; [|discriminate]. cbn [obnd] in E. eapply sdv_ok; [exact (sk_ok _ _ Es)|eauto|exact E].
  - destruct (reval st inp fl g e) as [x|] eqn:Ee; [|discriminate]. destruct (seval st s) as [k|] eqn:Es; [|discriminate]. cbn [obnd] in E. eapply sdv_ok; [eauto|exact (sk_ok _ _ Es)|exact E].
  - destruct (reval st inp fl g e) as [x|] eqn:Ee; [|discriminate]. cbn [obnd] in E. specialize (IHe _ _ _ V Ee). destruct (simp r e) as [q|e']; [|cbn [val reval]; rewrite IHe; exact E].
    destruct (q1 q) eqn:O; [|cbn [val] in IHe; rewrite IHe in E; exact E]. cbn [val] in IHe. rewrite IHe, (q1_ok _ O) in E.
    destruct (seval st s) as [k|]; [|discriminate]. cbn [obnd] in E. unfold rpow in E. destruct (Rlt_dec 0 1); [|lra]. injection E as <-. cbn [val]. rewrite AC1. unfold Rpower. now rewrite ln_1, Rmult_0_r, exp_0.
  - destruct (reval st inp fl g e) as [x|] eqn:Ee; [|discriminate]. cbn [obnd] in E. specialize (IHe _ _ _ V Ee). destruct (simp r e) as [q|e']; [|cbn [val reval]; rewrite IHe; exact E].
    assert (G : val (AE (EPowI (EConst (SQ q)) z)) v) by (cbn [val] in IHe; rewrite IHe in E; exact E).
    destruct (q1 q) eqn:O.
    + cbn [val] in IHe. rewrite IHe, (q1_ok _ O) in E. cbn [val]. rewrite AC1. destruct z; cbn in E.
      * injection E as <-. reflexivity.
      * injection E as <-. apply pow1.
      * unfold rpow in E. destruct (Rlt_dec 0 1); [|lra]. injection E as <-. unfold Rpower. now rewrite ln_1, Rmult_0_r, exp_0.
    + destruct (q0 q) eqn:Z; [|exact G]. destruct z; try exact G. cbn [val] in IHe. rewrite IHe, (q0_ok _ Z) in E. cbn in E. injection E as <-. cbn [val]. rewrite AC0. apply pow_i, Pos2Nat.is_pos.
  - destruct (reval st inp fl g e) as [x|] eqn:Ee; [|discriminate]. cbn [obnd] in E. eapply sfn_ok; eauto.
  - destruct (reval st inp fl g e) as [x|] eqn:Ee; [|discriminate]. injection E as <-. specialize (IHe _ _ _ V Ee). destruct (simp r e) as [q|e']; [|cbn [val reval]; now rewrite IHe].
    cbn [val] in IHe. destruct (q0 q) eqn:Z; [cbn [val]; rewrite AC0, IHe, (q0_ok _ Z); apply Rabs_R0|cbn [val reval seval obnd]; rewrite IHe; reflexivity].
  - destruct (reval st inp fl g e2) as [v2|] eqn:E2; [|discriminate]. injection E as <-. cbn [val reval]. now rewrite (rei_ok _ _ (IHe1 _ _ _ V E1)), (rei_ok _ _ (IHe2 _ _ _ V E2)).
  - destruct (reval st inp fl g e) as [x|] eqn:Ee; [|discriminate]. cbn [val reval]. now rewrite (rei_ok _ _ (IHe _ _ _ V Ee)).
  - destruct (reval st inp fl g e) as [x|] eqn:Ee; [|discriminate]. cbn [val reval]. now rewrite (rei_ok _ _ (IHe _ _ _ V Ee)).
  - destruct (reval st inp fl g e2) as [v2|] eqn:E2; [|discriminate]. cbn [obnd] in E. cbn [val reval]. rewrite (rei_ok _ _ (IHe1 _ _ _ V E1)), (rei_ok _ _ (IHe2 _ _ _ V E2)). cbn [obnd].
    destruct (Rlt_dec v1 v2); [exact (rei_ok _ _ (IHe3 _ _ _ V E))|exact (rei_ok _ _ (IHe4 _ _ _ V E))].
Qed.
End S.

(** Expressions that do not read the settings. *)
Fixpoint snp (s : sexp) : bool :=
  match s with
  | SPar p => false
  | SQ _ | SPi | SEps | SBad => true
  | SNeg a | SPowI a _ | SSqrt a | SCbrt a | SLog a | SExp a => snp a
  | SAdd a b | SSub a b | SMul a b | SDiv a b | SPow a b => snp a && snp b
  end.
Fixpoint enp (e : expr) : bool :=
  match e with
  | EIn _ | EFld _ | EVar _ => true
  | EConst s => snp s
  | ENeg a | EPowI a _ | EFun _ a | EAbs a | EReg a | EBR a => enp a
  | EAddK a s | ESubK a s | EKSub s a | EScale s a | EKDiv s a | EDivK a s | EPow a s => snp s && enp a
  | ELet _ a b | EAdd a b | ESub a b | EMul a b | EMulTo a b | EDiv a b | EMax a b => enp a && enp b
  | EIf a b e1 e2 => enp a && enp b && enp e1 && enp e2
  end.
Section NP.
Variables st st' : nat -> T ROps.
Lemma seval_np : forall s, snp s = true -> seval st s = seval st' s.
Proof.
  induction s; cbn [snp seval]; rewrite ?andb_true_iff; intros H; try discriminate H;
    repeat match goal with X : _ /\ _ |- _ => destruct X end;
    repeat match goal with I : ?b = true -> _ = _, Y : ?b = true |- _ => specialize (I Y); rewrite I end; reflexivity.
Qed.
Lemma reval_np inp fl : forall e r, enp e = true -> reval st inp fl r e = reval st' inp fl r e.
Proof.
  induction e; intros r Hb; cbn [enp] in Hb; rewrite ?andb_true_iff in Hb;
    repeat match goal with X : _ /\ _ |- _ => destruct X end; cbn [reval];
    repeat match goal with
    | I : forall r, enp ?a = true -> _, Y : enp ?a = true |- context [reval st inp fl ?rr ?a] => rewrite (I rr Y)
    | Y : snp ?a = true |- context [seval st ?a] => rewrite (seval_np a Y)
    end; try reflexivity.
  destruct (reval st' inp fl r e1); cbn [obnd]; [|reflexivity]. now apply IHe2.
Qed.
End NP.
