(** * Plain real meaning of the expressions
    What an energy expression denotes as a (partial) function of real numbers, without any
    Taylor arithmetic; and the proof that order-0 evaluation computes it. *)
From Coq Require Import Reals QArith Qreals ZArith Arith Lia Lra List Bool String.
From Coquelicot Require Import Coquelicot.
From Verif Require Import Scalar RInst CTaylor CtAlg TMath Fps TFam TExp Ad Br Expr Sem AdEval.
Import ListNotations.
Local Open Scope R_scope.

Definition rdiv (x y : R) : option R := if Req_EM_T y 0 then None else Some (x / y).
Definition rpow (x a : R) : option R := if Rlt_dec 0 x then Some (Rpower x a) else None.
Definition rpowi (x : R) (z : Z) : option R :=
  match z with Z0 => Some 1 | Zpos p => Some (x ^ Pos.to_nat p) | Zneg p => rpow x (IZR z) end.
Definition rsqas (x : R) : option R :=
  if Rlt_dec (- / 2) x then
    if Rlt_dec x (/ 2) then rdiv (polyP x) (polyQ x) else Some (sqrt x * arcsinh (sqrt x))
  else None.
Definition rfn (f : fn1) (x : R) : option R :=
  match f with
  | Fexp => Some (exp x)
  | Fexpm1 => Some (exp x - 1)
  | Flog => if Rlt_dec 0 x then Some (ln x) else None
  | Fsqrt => if Rlt_dec 0 x then Some (sqrt x) else None
  | Fcbrt => rpow x (1 / 3)
  | Ferf => Some (erfR x)
  | Fatan => Some (atan x)
  | Fasinh => Some (arcsinh x)
  | Fsqas => rsqas x
  end.
Section REVAL.
Variable st : nat -> T ROps.
Variable inp : nat -> R.
Fixpoint rlook (x : string) (r : list (string * R)) : option R :=
  match r with [] => None | (y, v) :: r' => if String.eqb x y then Some v else rlook x r' end.
Notation sv := (seval (K := ROps) st).
Fixpoint reval (fl : fld -> R) (r : list (string * R)) (e : expr) : option R :=
  match e with
  | EIn i => Some (inp i)
  | EFld f => Some (fl f)
  | EVar x => rlook x r
  | EConst s => sv s
  | ELet x e1 e2 => obnd (reval fl r e1) (fun v => reval fl ((x, v) :: r) e2)
  | ENeg a => obnd (reval fl r a) (fun x => Some (- x))
  | EAdd a b => obnd (reval fl r a) (fun x => obnd (reval fl r b) (fun y => Some (x + y)))
  | ESub a b => obnd (reval fl r a) (fun x => obnd (reval fl r b) (fun y => Some (x - y)))
  | EMul a b | EMulTo a b => obnd (reval fl r a) (fun x => obnd (reval fl r b) (fun y => Some (x * y)))
  | EDiv a b => obnd (reval fl r a) (fun x => obnd (reval fl r b) (fun y => rdiv x y))
  | EAddK a s => obnd (reval fl r a) (fun x => obnd (sv s) (fun k => Some (x + k)))
  | ESubK a s => obnd (reval fl r a) (fun x => obnd (sv s) (fun k => Some (x - k)))
  | EKSub s a => obnd (sv s) (fun k => obnd (reval fl r a) (fun x => Some (k - x)))
  | EScale s a => obnd (sv s) (fun k => obnd (reval fl r a) (fun x => Some (k * x)))
  | EKDiv s a => obnd (sv s) (fun k => obnd (reval fl r a) (fun x => rdiv k x))
  | EDivK a s => obnd (reval fl r a) (fun x => obnd (sv s) (fun k => rdiv x k))
  | EPow a s => obnd (reval fl r a) (fun x => obnd (sv s) (fun k => rpow x k))
  | EPowI a z => obnd (reval fl r a) (fun x => rpowi x z)
  | EFun f a => obnd (reval fl r a) (rfn f)
  | EAbs a => obnd (reval fl r a) (fun x => Some (Rabs x))
  | EMax a b => obnd (reval fl r a) (fun x => obnd (reval fl r b) (fun y => Some (Rmax x y)))
  | EReg a => obnd (reval fl r a) (fun x => Some (Rmax x (Q2R TINY)))
  | EBR a => obnd (reval fl r a) (fun x => @ct_BR ROps 0 x)
  | EIf a b e1 e2 => obnd (reval fl r a) (fun x => obnd (reval fl r b) (fun y =>
      if Rlt_dec x y then reval fl r e1 else reval fl r e2))
  end.
Definition rfupd (fl : fld -> R) (f : fld) (v : R) : fld -> R := fun g => if fld_eqb g f then v else fl g.
Fixpoint rrun (fl : fld -> R) (p : list (fld * expr)) : option (fld -> R) :=
  match p with
  | [] => Some fl
  | (f, e) :: p' => obnd (reval fl [] e) (fun v => rrun (rfupd fl f v) p')
  end.
End REVAL.

Lemma expand0 D f (e : R -> option (nat -> R)) (x : R) : expands D 0 f e ->
  (D x -> exists c, e x = Some c /\ c O = f x) /\ (~ D x -> e x = None).
Proof.
  intros (Op & t & F & E0 & E & Ed). split.
  - intro H. destruct (E x H) as (c & Hc & K). exists c. split; [exact Hc|]. rewrite K by lia. now apply E0.
  - intro H. destruct (e x) eqn:X; [|reflexivity]. apply Ed in X. contradiction.
Qed.
Lemma div0 (x y : R) : @ct_div ROps 0 x y = rdiv x y.
Proof.
  unfold ct_div, rdiv. destruct (expand0 _ _ _ y (inv_expands 0)) as [A B]. cbn [c0].
  destruct (Req_EM_T y 0) as [Z|Z]; [rewrite B by tauto; reflexivity|]. destruct (A Z) as (c & -> & Hc). cbn [obnd]. f_equal.
  rewrite multo_spec. cbn [pmul]. change (ct_compose (K := ROps) 0 y c) with (c O). rewrite Hc. change (@eq R (/ y * x) (x / y)). field. exact Z.
Qed.
Lemma kdiv0 (k x : R) : @ct_kdiv ROps 0 k x = rdiv k x.
Proof.
  unfold ct_kdiv, rdiv. destruct (expand0 _ _ _ x (inv_expands 0)) as [A B]. cbn [c0].
  destruct (Req_EM_T x 0) as [Z|Z]; [rewrite B by tauto; reflexivity|]. destruct (A Z) as (c & -> & Hc). cbn [obnd]. f_equal.
  change (@eq R (c O * k) (k / x)). rewrite Hc. field. exact Z.
Qed.
Lemma divk0 (x k : R) : @ct_divk ROps 0 x k = rdiv x k.
Proof.
  unfold ct_divk, rdiv. cbn [Oeqb ROps OofZ OofQ]. unfold OofZ. cbn [OofQ ROps]. change (inject_Z 0) with 0%Q. rewrite Q2R_0. unfold Reqb.
  destruct (Req_EM_T k 0); [reflexivity|]. f_equal. cbn. unfold OofZ. cbn. change (Q2R (inject_Z 1)) with (Q2R 1). rewrite ?Q2R_1. field. assumption.
Qed.
Lemma pow0 (x k : R) : @ct_pow ROps 0 x k = rpow x k.
Proof.
  unfold ct_pow, rpow. destruct (expand0 _ _ _ x (pow_expands k 0)) as [A B]. cbn [c0].
  destruct (Rlt_dec 0 x) as [Z|Z]; [|rewrite B by tauto; reflexivity]. destruct (A Z) as (c & -> & Hc). cbn [obnd]. f_equal.
  change (c O = Rpower x k). rewrite Hc. now apply powR_pos.
Qed.
Lemma iter0 (x : R) j : Nat.iter j (fun r : R => @ct_multo ROps 0 r x) x = x ^ S j.
Proof.
  induction j as [|j IH]; [cbn; ring|].
  change (@ct_multo ROps 0 (Nat.iter j (fun r : R => @ct_multo ROps 0 r x) x) x = x ^ S (S j)). rewrite IH, multo_spec.
  change (@eq R (x ^ S j * x) (x ^ S (S j))). cbn [pow]. ring.
Qed.
Lemma powi0 (x : R) z : @ct_powi ROps 0 x z = rpowi x z.
Proof.
  unfold ct_powi, rpowi. destruct z as [|p|p].
  - cbn [Z.ltb Z.compare]. unfold ct_const. cbn. f_equal. unfold OofZ. cbn. apply Q2R_1.
  - cbn [Z.ltb Z.compare]. f_equal. rewrite iter0. f_equal. lia.
  - cbn [Z.ltb Z.compare]. rewrite pow0. f_equal. unfold OofZ. cbn [OofQ ROps]. apply Q2R_Z.
Qed.
Lemma fn0 f (x : R) : fn_eval (K := ROps) 0 f x = rfn f x.
Proof.
  destruct f; cbn [fn_eval rfn].
  - reflexivity.
  - f_equal. rewrite expm1_eq. apply expm1_coef0.
  - unfold ct_log. destruct (expand0 _ _ _ x (log_expands 0)) as [A B]. cbn [c0].
    destruct (Rlt_dec 0 x) as [Z|Z]; [|rewrite B by tauto; reflexivity]. destruct (A Z) as (c & -> & Hc). cbn [obnd]. f_equal. exact Hc.
  - unfold ct_sqrt. destruct (expand0 _ _ _ x (sqrt_expands 0)) as [A B]. cbn [c0].
    destruct (Rlt_dec 0 x) as [Z|Z]; [|rewrite B by tauto; reflexivity]. destruct (A Z) as (c & -> & Hc). cbn [obnd]. f_equal. exact Hc.
  - unfold ct_cbrt, rpow. destruct (expand0 _ _ _ x (cbrt_expands 0)) as [A B]. cbn [c0].
    destruct (Rlt_dec 0 x) as [Z|Z]; [|rewrite B by tauto; reflexivity]. destruct (A Z) as (c & -> & Hc). cbn [obnd]. f_equal.
    change (c O = Rpower x (1 / 3)). rewrite Hc. now apply cbrtR_pos.
  - f_equal.
  - unfold ct_atan. destruct (expand0 _ _ _ x (atan_expands 0 ltac:(lia))) as [A _]. cbn [c0].
    destruct (A I) as (c & -> & Hc). cbn [obnd]. f_equal. exact Hc.
  - unfold ct_asinh. destruct (expand0 _ _ _ x (asinh_expands 0 ltac:(lia))) as [A _]. cbn [c0].
    destruct (A I) as (c & -> & Hc). cbn [obnd]. f_equal. exact Hc.
  - unfold ct_sqrtx_asinh_sqrtx, rsqas. cbn [c0 Oltb ROps OofQ Oopp].
    replace (Q2R 0.5) with (/ 2) by (unfold Q2R; cbn; lra).
    unfold Rltb at 1. destruct (Rlt_dec (- / 2) x) as [L|L]; [|reflexivity].
    assert (Fb : Rltb (fabs (K := ROps) x) (/ 2) = true <-> x < / 2).
    { unfold fabs. cbn [Oltb ROps OofQ Oopp]. rewrite Q2R_0. destruct (Rltb x 0) eqn:Ex.
      - apply Rltb_true in Ex. rewrite Rltb_true. lra.
      - rewrite Rltb_true. lra. }
    destruct (Rltb (fabs (K := ROps) x) (/ 2)) eqn:E.
    + destruct (Rlt_dec x (/ 2)) as [L2|L2]; [|exfalso; apply L2, Fb; reflexivity].
      destruct (expand0 _ _ _ x (pade_expands 0 ltac:(lia))) as [A B]. unfold rdiv.
      destruct (Req_EM_T (polyQ x) 0) as [Z|Z]; [rewrite B by tauto; reflexivity|]. destruct (A Z) as (c & -> & Hc). cbn [obnd]. f_equal. exact Hc.
    + destruct (Rlt_dec x (/ 2)) as [L2|L2]; [apply Fb in L2; discriminate|]. assert (X : 0 < x) by lra.
      unfold ct_sqrt. destruct (expand0 _ _ _ x (sqrt_expands 0)) as [A _]. cbn [c0]. destruct (A X) as (c & -> & Hc). cbn [obnd].
      change (ct_compose (K := ROps) 0 x c) with (c O). rewrite Hc.
      unfold ct_asinh. destruct (expand0 _ _ _ (sqrt x) (asinh_expands 0 ltac:(lia))) as [A' _]. cbn [c0].
      destruct (A' I) as (c' & -> & Hc'). cbn [obnd]. f_equal. change (ct_compose (K := ROps) 0 (sqrt x) c') with (c' O). rewrite Hc'.
      unfold ct_mul. rewrite mulset_spec. reflexivity.
Qed.
Lemma abs0 (x : R) : @ct_abs ROps 0 x = Rabs x.
Proof.
  unfold ct_abs. cbn [c0 Oltb ROps]. unfold OofZ. cbn [OofQ ROps]. change (Q2R (inject_Z 0)) with (Q2R 0). rewrite Q2R_0.
  unfold Rltb. destruct (Rlt_dec x 0); [rewrite Rabs_left by assumption; reflexivity|rewrite Rabs_right by lra; reflexivity].
Qed.
Lemma max0 (x y : R) : @ct_max ROps 0 x y = Rmax x y.
Proof.
  unfold ct_max. cbn [c0 Oltb ROps]. unfold Rltb, Rmax. destruct (Rlt_dec y x), (Rle_dec x y); try reflexivity; lra.
Qed.
Lemma reg0 (x : R) : ct_reg (K := ROps) 0 x = Rmax x (Q2R TINY).
Proof.
  unfold ct_reg. cbn [c0 Oltb ROps]. unfold Rltb, Rmax. destruct (Rlt_dec x (@OofQ ROps TINY)) as [L|L], (Rle_dec x (Q2R TINY)) as [M|M];
    cbn in *; try reflexivity; lra.
Qed.

Lemma obnd_ext {A B} (o o' : option A) (f f' : A -> option B) : o = o' -> (forall a, f a = f' a) -> obnd o f = obnd o' f'.
Proof. intros -> H. destruct o'; cbn; auto. Qed.
Section EV0.
Variable st : nat -> T ROps.
Variable inp : nat -> R.
Lemma lookup0 x (r : list (string * R)) : lookup (K := ROps) 0 x r = rlook x r.
Proof. induction r as [|[y v] r IH]; cbn; [reflexivity|]. now rewrite IH. Qed.
Theorem eval0 : forall e fl r, eval (K := ROps) st 0 inp fl r e = reval st inp fl r e.
Proof.
  induction e; intros fl r; cbn [eval reval]; try reflexivity;
    rewrite ?IHe, ?IHe1, ?IHe2, ?IHe3, ?IHe4.
  all: repeat (apply obnd_ext; [reflexivity|]; intro); try reflexivity.
  all: try (f_equal; cbn; ring).
  all: try first [apply IHe2|apply div0|apply kdiv0|apply divk0|apply pow0|apply powi0|apply fn0|f_equal; apply abs0|f_equal; apply max0|f_equal; apply reg0].
  all: try (unfold ct_mul; rewrite ?mulset_spec, ?multo_spec; reflexivity).
  - destruct (seval st s); reflexivity.
  - cbn [c0 Oltb ROps]. unfold Rltb. match goal with |- context [Rlt_dec ?x ?y] => destruct (Rlt_dec x y) end; auto.
Qed.
Theorem run0 : forall p fl, run (K := ROps) st 0 inp fl p = rrun st inp fl p.
Proof.
  induction p as [|[f e] p IH]; intro fl; cbn [run rrun]; [reflexivity|]. rewrite eval0. apply obnd_ext; [reflexivity|]. intro v. apply IH.
Qed.
End EV0.
