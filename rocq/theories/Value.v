(** * The value of an expression as a total function of real numbers
    Wherever evaluation (RSem.v) is defined its result is [tv], which is an ordinary formula
    over the reals: after reduction it can be compared with the formula of a paper. *)
From Coq Require Import Reals QArith Qreals ZArith Arith Lia Lra List Bool String.
From Coquelicot Require Import Coquelicot.
From Verif Require Import Scalar RInst CTaylor CtAlg TMath Fps TFam TExp Ad Br Expr Sem AdEval RSem Dom Pw92.
Import ListNotations.
Local Open Scope R_scope.

(** The real number of a literal, in lowest terms. *)
Definition dec (q : Q) : R := let p := Qred q in if Pos.eqb (Qden p) 1 then IZR (Qnum p) else IZR (Qnum p) / IZR (Zpos (Qden p)).
Lemma dec_Q2R q : dec q = Q2R q.
Proof.
  rewrite <- (Qeq_eqR _ _ (Qred_correct q)). unfold dec, Q2R. destruct (Pos.eqb_spec (Qden (Qred q)) 1) as [->|_]; [field|reflexivity].
Qed.
(** Folding of rational constants. *)
Fixpoint sq (s : sexp) : option Q :=
  match s with
  | SQ q => Some (Qred q)
  | SNeg a => match sq a with Some p => Some (Qred (- p)) | None => None end
  | SAdd a b => match sq a, sq b with Some p, Some q => Some (Qred (p + q)) | _, _ => None end
  | SSub a b => match sq a, sq b with Some p, Some q => Some (Qred (p - q)) | _, _ => None end
  | SMul a b => match sq a, sq b with Some p, Some q => Some (Qred (p * q)) | _, _ => None end
  | SDiv a b => match sq a, sq b with Some p, Some q => if Qeq_bool q 0 then None else Some (Qred (p / q)) | _, _ => None end
  | _ => None
  end.
Definition sqas (x : R) : R := if Rlt_dec x (/ 2) then polyP x / polyQ x else sqrt x * arcsinh (sqrt x).
Definition tfn (f : fn1) (x : R) : R :=
  match f with
  | Fexp => exp x | Fexpm1 => exp x - 1 | Flog => ln x | Fsqrt => sqrt x | Fcbrt => Rpower x (1 / 3)
  | Ferf => erfR x | Fatan => atan x | Fasinh => arcsinh x | Fsqas => sqas x
  end.
Definition tpi (x : R) (z : Z) : R := match z with Z0 => 1 | Zpos p => x ^ Pos.to_nat p | Zneg p => / x ^ Pos.to_nat p end.
Section TV.
Variable st : nat -> T ROps.
Variable inp : nat -> R.
Variable fl : fld -> R.
Fixpoint tsv (s : sexp) : R :=
  match sq s with
  | Some q => dec q
  | None =>
    match s with
    | SQ q => dec q
    | SPi => PI
    | SEps => Q2R (1 # 4503599627370496)
    | SPar p => st p
    | SBad => 0
    | SNeg a => - tsv a
    | SAdd a b => tsv a + tsv b
    | SSub a b => tsv a - tsv b
    | SMul a b => tsv a * tsv b
    | SDiv a b => tsv a / tsv b
    | SPow a b => Rpower (tsv a) (tsv b)
    | SPowI a z => tpi (tsv a) z
    | SSqrt a => sqrt (tsv a)
    | SCbrt a => cbrtR (tsv a)
    | SLog a => ln (tsv a)
    | SExp a => exp (tsv a)
    end
  end.
Definition tlook (x : string) (r : list (string * R)) : R := match rlook x r with Some v => v | None => 0 end.
Fixpoint tv (r : list (string * R)) (e : expr) : R :=
  match e with
  | EIn i => inp i
  | EFld f => fl f
  | EVar x => tlook x r
  | EConst s => tsv s
  | ELet x e1 e2 => tv ((x, tv r e1) :: r) e2
  | ENeg a => - tv r a
  | EAdd a b => tv r a + tv r b
  | ESub a b => tv r a - tv r b
  | EMul a b | EMulTo a b => tv r a * tv r b
  | EDiv a b => tv r a / tv r b
  | EAddK a s => tv r a + tsv s
  | ESubK a s => tv r a - tsv s
  | EKSub s a => tsv s - tv r a
  | EScale s a => tsv s * tv r a
  | EKDiv s a => tsv s / tv r a
  | EDivK a s => tv r a / tsv s
  | EPow a s => Rpower (tv r a) (tsv s)
  | EPowI a z => tpi (tv r a) z
  | EFun f a => tfn f (tv r a)
  | EAbs a => Rabs (tv r a)
  | EMax a b => Rmax (tv r a) (tv r b)
  | EReg a => Rmax (tv r a) (Q2R TINY)
  | EBR a => match @ct_BR ROps 0 (tv r a) with Some v => v | None => 0 end
  | EIf a b e1 e2 => if Rlt_dec (tv r a) (tv r b) then tv r e1 else tv r e2
  end.
Lemma sdiv_some (a b c : R) : sdiv (K := ROps) a b = Some c -> c = a / b.
Proof. rewrite rdiv_sdiv. unfold rdiv. destruct (Req_EM_T b 0); [discriminate|]. now intros [= <-]. Qed.
Lemma rdiv_some (a b c : R) : rdiv a b = Some c -> c = a / b.
Proof. unfold rdiv. destruct (Req_EM_T b 0); [discriminate|]. now intros [= <-]. Qed.
Lemma rpow_some (a b c : R) : rpow a b = Some c -> c = Rpower a b.
Proof. unfold rpow. destruct (Rlt_dec 0 a); [|discriminate]. now intros [= <-]. Qed.
Lemma rpowi_some (a c : R) z : rpowi a z = Some c -> c = tpi a z.
Proof.
  unfold rpowi, tpi. destruct z as [|p|p]; [now intros [= <-]|now intros [= <-]|].
  unfold rpow. destruct (Rlt_dec 0 a) as [L|]; [|discriminate]. intros [= <-].
  change (IZR (Z.neg p)) with (- IZR (Z.pos p)). rewrite Rpower_Ropp. f_equal.
  rewrite <- Rpower_pow by exact L. f_equal. rewrite INR_IZR_INZ, positive_nat_Z. reflexivity.
Qed.
Lemma rfn_some f (a c : R) : rfn f a = Some c -> c = tfn f a.
Proof.
  destruct f; cbn [rfn tfn]; try (now intros [= <-]); try (destruct (Rlt_dec 0 a); [|discriminate]; now intros [= <-]).
  - apply rpow_some.
  - unfold rsqas, sqas. destruct (Rlt_dec (- / 2) a); [|discriminate]. destruct (Rlt_dec a (/ 2)); [apply rdiv_some|now intros [= <-]].
Qed.
Lemma obnd_some {A B} (a : option A) (f : A -> option B) c : obnd a f = Some c -> exists y, a = Some y /\ f y = Some c.
Proof. destruct a as [y|]; [|discriminate]. intros H. now exists y. Qed.
Ltac ob H := match type of H with
  | obnd _ _ = Some _ => let y := fresh "y" in let E := fresh "E" in apply obnd_some in H; destruct H as (y & E & H)
  end.
Lemma some_inj {A} (x y : A) : Some x = Some y -> x = y.
Proof. congruence. Qed.
Lemma sq_ok : forall s q c, sq s = Some q -> seval (K := ROps) st s = Some c -> c = Q2R q.
Proof.
  assert (R1 : forall q, Q2R (Qred q) = Q2R q) by (intro q; apply Qeq_eqR, Qred_correct).
  induction s; intros qq c S H; cbn [sq seval] in *; try discriminate S;
    repeat match type of S with match sq ?a with _ => _ end = _ => let E := fresh "S" in destruct (sq a) eqn:E; [|discriminate S] end;
    repeat ob H;
    repeat match goal with I : forall q c, Some _ = Some q -> seval _ ?s = Some c -> _, E : seval _ ?s = Some ?y |- _ => specialize (I _ _ eq_refl E); subst y end;
    try (apply some_inj in S; apply some_inj in H; subst; rewrite ?R1, ?Q2R_opp, ?Q2R_plus, ?Q2R_minus, ?Q2R_mult; reflexivity).
  match type of S with (if Qeq_bool ?q _ then _ else _) = _ => destruct (Qeq_bool q 0) eqn:Z; [discriminate S|] end.
  apply some_inj in S. subst qq. apply sdiv_some in H. rewrite R1, Q2R_div; [exact H|]. now apply Qeq_bool_neq.
Qed.
Lemma tsv_eq s : tsv s = match sq s with Some q => dec q | None => match s with
    | SQ q => dec q | SPi => PI | SEps => Q2R (1 # 4503599627370496) | SPar p => st p | SBad => 0 | SNeg a => - tsv a
    | SAdd a b => tsv a + tsv b | SSub a b => tsv a - tsv b | SMul a b => tsv a * tsv b | SDiv a b => tsv a / tsv b
    | SPow a b => Rpower (tsv a) (tsv b) | SPowI a z => tpi (tsv a) z | SSqrt a => sqrt (tsv a) | SCbrt a => cbrtR (tsv a)
    | SLog a => ln (tsv a) | SExp a => exp (tsv a) end end.
Proof. destruct s; reflexivity. Qed.
Lemma tsv_ok : forall s c, seval (K := ROps) st s = Some c -> c = tsv s.
Proof.
  induction s; intros c H; rewrite tsv_eq;
    (match goal with |- _ = match sq ?t with _ => _ end => let S := fresh "S" in destruct (sq t) eqn:S; [rewrite dec_Q2R; exact (sq_ok _ _ _ S H)|clear S] end);
    cbn [seval] in H;
    repeat ob H;
    repeat match goal with I : forall c, seval _ ?s = Some c -> _, E : seval _ ?s = Some ?y |- _ => apply I in E; subst y end;
    try (injection H as <-; reflexivity).
  - injection H as <-. now rewrite dec_Q2R.
  - discriminate H.
  - exact (sdiv_some _ _ _ H).
  - unfold OofZ in H. change (inject_Z 0) with 0%Q in H. rewrite z0R in H. cbn [Oltb ROps Opow] in H. destruct (Rltb 0 (tsv s1)) eqn:L; [|discriminate]. apply Rltb_true in L. injection H as <-. now apply powR_pos.
  - destruct z as [|p|p]; rewrite kpow_pow in H; [injection H as <-; reflexivity|injection H as <-; reflexivity|].
    apply sdiv_some in H. unfold OofZ in H. change (inject_Z 1) with 1%Q in H. rewrite z1R in H. cbn [tpi]. rewrite H. unfold Rdiv. apply Rmult_1_l.
  - destruct (Oltb _ _); [discriminate|]. injection H as <-. reflexivity.
  - destruct (Oltb _ _); [|discriminate]. injection H as <-. reflexivity.
Qed.
Theorem tv_ok : forall e r c, reval st inp fl r e = Some c -> c = tv r e.
Proof.
  induction e; intros r c H; cbn [reval tv] in *; unfold tlook;
    repeat ob H;
    repeat match goal with
    | I : forall r c, reval _ _ _ r ?s = Some c -> _, E : reval _ _ _ _ ?s = Some ?y |- _ => apply I in E; subst y
    | E : seval _ ?s = Some ?y |- _ => apply tsv_ok in E; subst y
    end;
    try (injection H as <-; reflexivity);
    try exact (rdiv_some _ _ _ H); try exact (rpow_some _ _ _ H); try exact (rpowi_some _ _ _ H); try exact (rfn_some _ _ _ H).
  - now rewrite H.
  - reflexivity.
  - reflexivity.
  - now rewrite H.
  - destruct (Rlt_dec _ _); eauto.
Qed.
End TV.
