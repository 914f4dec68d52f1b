(** * Automatic differentiation is correct for every expression

    Evaluating an expression on Taylor numbers gives the Taylor number of the function
    obtained by evaluating the same expression on plain reals, away from the points
    where the code switches branches. *)
From Coq Require Import Reals QArith Qreals ZArith Arith Lia Lra List Bool String.
From Coquelicot Require Import Coquelicot.
From Verif Require Import Scalar RInst CTaylor CtAlg TMath Fps TFam TExp Ad Br Expr Sem.
Import ListNotations.
Local Open Scope R_scope.

(** ** The points where the code is smooth
    Order-0 evaluation ([rct 0] is R) of the arguments of each branching operation does
    not hit the branch boundary.  The Newton solver of the Becke-Roussel functionals is
    excluded altogether. *)
Section REG.
Variable st : nat -> T ROps.
Variable inp : nat -> rct 0.
Variable fl : fld -> rct 0.
Notation ev := (eval (K := ROps) st 0 inp fl).
Fixpoint regular (r : env (K := ROps) 0) (e : expr) : Prop :=
  match e with
  | EIn _ | EFld _ | EVar _ | EConst _ => True
  | ELet x a b => regular r a /\ forall v, ev r a = Some v -> regular ((x, v) :: r) b
  | ENeg a | EAddK a _ | ESubK a _ | EKSub _ a | EScale _ a | EKDiv _ a | EDivK a _ | EPow a _
  | EPowI a _ => regular r a
  | EAdd a b | ESub a b | EMul a b | EMulTo a b | EDiv a b => regular r a /\ regular r b
  | EFun Fsqas a => regular r a /\ (forall v : R, ev r a = Some v -> v <> / 2)
  | EFun _ a => regular r a
  | EAbs a => regular r a /\ (forall v : R, ev r a = Some v -> v <> 0)
  | EMax a b => regular r a /\ regular r b /\ (forall v w : R, ev r a = Some v -> ev r b = Some w -> v <> w)
  | EReg a => regular r a /\ (forall v : R, ev r a = Some v -> Q2R TINY < v)
  | EBR _ => False
  | EIf a b e1 e2 => regular r a /\ regular r b /\
      (forall v w : R, ev r a = Some v -> ev r b = Some w -> v <> w /\ (v < w -> regular r e1) /\ (w < v -> regular r e2))
  end.
End REG.
Section REGRUN.
Variable st : nat -> T ROps.
Variable inp : nat -> rct 0.
Fixpoint regular_run (fl : fld -> rct 0) (p : list (fld * expr)) : Prop :=
  match p with
  | [] => True
  | (f, e) :: p' => regular st inp fl [] e /\
      forall v, eval (K := ROps) st 0 inp fl [] e = Some v -> regular_run (fupd (K := ROps) 0 fl f v) p'
  end.
End REGRUN.

(** ** Composition with an elementary function *)
Lemma rep_expands n c g D f (e : nat -> R -> option (nat -> R)) co :
  (forall N, (N <= 6)%nat -> expands D N f (e N)) -> (n <= 6)%nat -> rep n c g ->
  e n (c0 n c) = Some co ->
  rep n (ct_compose n c co) (fun z => f (g z)) /\
  near n (fun z => exists co0, e 0%nat (g z) = Some co0 /\ co0 0%nat = f (g z)).
Proof.
  intros X Hn Rg E. destruct (X n Hn) as (Op & t & Ft & T0 & Tc & Td).
  assert (D0 : D (c0 n c)) by (apply (Td _ _ E)).
  pose proof (rep_open n c g D Op Rg D0) as ND. split.
  - rewrite compose_spec. destruct (Tc _ D0) as (c' & E' & Ec). rewrite E in E'. injection E' as <-.
    rewrite (pcomp_ext n c co (fun k => t k (c0 n c)) Ec).
    eapply rep_ext; [|apply (rep_comp n c g D t Op Ft Rg D0)].
    eapply near_imp; [|exact ND]. intros z Dz. apply T0. exact Dz.
  - eapply near_imp; [|exact ND]. intros z Dz. destruct (X 0%nat ltac:(lia)) as (_ & t' & _ & T0' & Tc' & _).
    destruct (Tc' _ Dz) as (c' & E' & Ec). exists c'. split; [exact E'|]. rewrite (Ec 0%nat) by lia. apply T0'. exact Dz.
Qed.

Definition ad1 (n : nat) (op : forall n, rct n -> option (rct n)) : Prop :=
  forall c g d, rep n c g -> op n c = Some d ->
  exists k : pt n -> R, rep n d k /\ near n (fun z => op 0%nat (g z) = Some (k z)).
Lemma ad1_expands n (op : forall n, rct n -> option (rct n)) D f e :
  (forall N, (N <= 6)%nat -> expands D N f (e N)) -> (n <= 6)%nat ->
  (forall n (t : rct n), op n t = obnd (e n (c0 n t)) (fun c => Some (ct_compose n t c))) -> ad1 n op.
Proof.
  intros X Hn Ho c g d Rg E. rewrite Ho in E. destruct (e n (c0 n c)) as [co|] eqn:Ee; [|discriminate].
  injection E as <-. destruct (rep_expands n c g D f e co X Hn Rg Ee) as [A B].
  exists (fun z => f (g z)). split; [exact A|]. eapply near_imp; [|exact B]. intros z (c1 & E1 & Z1).
  rewrite Ho. cbn [c0]. rewrite E1. cbn [obnd]. rewrite compose_spec. cbn [pcomp]. now rewrite Z1.
Qed.

Section PRIM.
Variable n : nat.
Hypothesis Hn : (n <= 6)%nat.
Lemma ad_exp : ad1 n (fun n (t : rct n) => Some (ct_exp n t)).
Proof. eapply ad1_expands; [intros N _; apply exp_expands|exact Hn|reflexivity]. Qed.
Lemma ad_log : ad1 n (fun n (t : rct n) => ct_log n t).
Proof. eapply (ad1_expands n _ _ _ (fun _ => _)); [intros N _; apply log_expands|exact Hn|reflexivity]. Qed.
Lemma ad_sqrt : ad1 n (fun n (t : rct n) => ct_sqrt n t).
Proof. eapply (ad1_expands n _ _ _ (fun _ => _)); [intros N _; apply sqrt_expands|exact Hn|reflexivity]. Qed.
Lemma ad_cbrt : ad1 n (fun n (t : rct n) => ct_cbrt n t).
Proof. eapply (ad1_expands n _ _ _ (fun _ => _)); [intros N _; apply cbrt_expands|exact Hn|reflexivity]. Qed.
Lemma ad_pow (k : R) : ad1 n (fun n (t : rct n) => @ct_pow ROps n t k).
Proof. eapply (ad1_expands n _ _ _ (fun _ => _)); [intros N _; apply (pow_expands k)|exact Hn|reflexivity]. Qed.
Lemma ad_erf : ad1 n (fun n (t : rct n) => Some (ct_erf n t)).
Proof. eapply (ad1_expands n _ _ _ (fun _ => _)); [intros N _; apply erf_expands|exact Hn|reflexivity]. Qed.
Lemma ad_atan : ad1 n (fun n (t : rct n) => ct_atan n t).
Proof. eapply ad1_expands; [intros N HN; apply atan_expands; exact HN|exact Hn|reflexivity]. Qed.
Lemma ad_asinh : ad1 n (fun n (t : rct n) => ct_asinh n t).
Proof. eapply ad1_expands; [intros N HN; apply asinh_expands; exact HN|exact Hn|reflexivity]. Qed.
Lemma ad_pade : ad1 n (fun n (t : rct n) => obnd (pade_expand (K := ROps) n (c0 n t)) (fun c => Some (ct_compose n t c))).
Proof. eapply ad1_expands; [intros N HN; apply pade_expands; exact HN|exact Hn|reflexivity]. Qed.
Lemma ad_inv : ad1 n (fun n (t : rct n) => obnd (inv_expand (K := ROps) (c0 n t)) (fun c => Some (ct_compose n t c))).
Proof. eapply (ad1_expands n _ _ _ (fun _ => _)); [intros N _; apply inv_expands|exact Hn|reflexivity]. Qed.
End PRIM.

Lemma expands_scal D N f e (k : R) : expands D N f e ->
  expands D N (fun x => f x * k) (fun a => obnd (e a) (fun c => Some (fun i => c i * k))).
Proof.
  intros (Op & t & Ft & T0 & Tc & Td). split; [exact Op|]. exists (fun i x => t i x * k). split; [|split; [|split]].
  - intros i x Hi Dx. eapply is_derive_val; [apply d_mult; [apply Ft; eassumption|apply d_const]|]. cbn beta. ring.
  - intros x Dx. now rewrite T0.
  - intros a Da. destruct (Tc a Da) as (c & -> & Ec). cbn [obnd]. eexists. split; [reflexivity|]. intros i Hi. cbn beta. now rewrite Ec.
  - intros a c. destruct (e a) eqn:E; cbn [obnd]; [|discriminate]. intros _. eapply Td. exact E.
Qed.
Lemma expands_add0 D N f e e' (k : R) : expands D N f e ->
  (forall a c, e a = Some c -> exists c', e' a = Some c' /\ c' 0%nat = c 0%nat + k /\ forall i, c' (S i) = c (S i)) ->
  (forall a, e a = None -> e' a = None) ->
  expands D N (fun x => f x + k) e'.
Proof.
  intros (Op & t & Ft & T0 & Tc & Td) H Hn. split; [exact Op|].
  exists (fun i x => match i with O => t 0%nat x + k | S j => t i x end). split; [|split; [|split]].
  - intros i x Hi Dx. destruct i.
    + eapply is_derive_val; [apply d_plus; [apply Ft; eassumption|apply d_const]|]. cbn beta. ring.
    + apply Ft; assumption.
  - intros x Dx. now rewrite T0.
  - intros a Da. destruct (Tc a Da) as (c & E & Ec). destruct (H a c E) as (c' & -> & Z0 & ZS).
    eexists. split; [reflexivity|]. intros [|i] Hi; [rewrite Z0, Ec by lia; reflexivity|]. rewrite ZS. now apply Ec.
  - intros a c E'. destruct (e a) as [c1|] eqn:E; [eapply Td; exact E|]. rewrite (Hn a E) in E'. discriminate.
Qed.
Lemma two_exp_sinh a : 2 * exp (a / 2) * sinh (a / 2) = exp a - 1.
Proof.
  unfold sinh. replace (exp a) with (exp (a / 2) * exp (a / 2)) by (rewrite <- exp_plus; f_equal; lra).
  rewrite exp_Ropp. field. apply Rgt_not_eq. apply exp_pos.
Qed.
Lemma expm1_coef0 a : expm1_coef a 0%nat = exp a - 1.
Proof. unfold expm1_coef, set0. destruct (Rltb _ _); [reflexivity|]. apply two_exp_sinh. Qed.

Section PRIM2.
Variable n : nat.
Hypothesis Hn : (n <= 6)%nat.
Lemma ad_expm1 : ad1 n (fun n (t : rct n) => Some (ct_expm1 n t)).
Proof.
  eapply (ad1_expands n _ (fun _ => True) (fun x => exp x + -1) (fun _ a => Some (expm1_coef a))); [|exact Hn|].
  - intros N _. eapply expands_add0; [apply exp_expands| |discriminate]. intros a c E. injection E as <-.
    eexists. split; [reflexivity|]. split; [|reflexivity]. rewrite expm1_coef0. cbn. lra.
  - intros. cbn [obnd]. now rewrite expm1_eq.
Qed.
Lemma ad_kdiv (k : R) : ad1 n (fun n (t : rct n) => @ct_kdiv ROps n k t).
Proof.
  eapply (ad1_expands n _ _ _ (fun _ => _)); [intros N _; eapply expands_scal; apply inv_expands|exact Hn|].
  intros n0 t. unfold ct_kdiv. destruct (inv_expand _); reflexivity.
Qed.
Lemma ad_div c c' g g' d : rep n c g -> rep n c' g' -> ct_div n c c' = Some d ->
  exists k : pt n -> R, rep n d k /\ near n (fun z => @ct_div ROps 0 (g z) (g' z) = Some (k z)).
Proof.
  intros A B E. unfold ct_div in E. destruct (inv_expand (c0 n c')) as [co|] eqn:Ei; [|discriminate]. cbn [obnd] in E.
  injection E as <-. destruct (ad_inv n Hn c' g' (ct_compose n c' co) B) as (k & Rk & Nk); [now rewrite Ei|].
  exists (fun z => k z * g z). split.
  - rewrite multo_spec. now apply rep_mul.
  - eapply near_imp; [|exact Nk]. intros z. unfold ct_div. destruct (inv_expand (@c0 ROps 0 (g' z))); cbn [obnd]; [|discriminate].
    intro E. injection E as E. f_equal. rewrite multo_spec. cbn [pmul]. now rewrite <- E.
Qed.
Lemma ad_iter c g j : rep n c g -> rep n (Nat.iter j (fun r => ct_multo n r c) c) (fun z => Nat.iter j (fun r => @ct_multo ROps 0 r (g z)) (g z)).
Proof.
  intro A. induction j as [|j IH]; [exact A|]. simpl Nat.iter. rewrite multo_spec.
  eapply rep_ext'; [|apply (rep_mul _ _ _ _ _ IH A)]. intro z. reflexivity.
Qed.
Lemma ad_powi z : ad1 n (fun n (t : rct n) => ct_powi n t z).
Proof.
  intros c g d Rg E. unfold ct_powi in *. destruct (Z.ltb 0 z).
  - injection E as <-. eexists. split; [apply ad_iter; exact Rg|]. apply near_true. reflexivity.
  - destruct (Z.ltb z 0); [exact (ad_pow n Hn _ c g d Rg E)|]. injection E as <-.
    eexists. split; [apply rep_const|]. apply near_true. reflexivity.
Qed.
Lemma ad_sqas c g d : rep n c g -> c0 n c <> / 2 -> ct_sqrtx_asinh_sqrtx n c = Some d ->
  exists k : pt n -> R, rep n d k /\ near n (fun z => @ct_sqrtx_asinh_sqrtx ROps 0 (g z) = Some (k z)).
Proof.
  intros A H E. unfold ct_sqrtx_asinh_sqrtx in *. cbn [c0]. revert E. cbn [Oltb ROps OofQ Oopp].
  replace (Q2R 0.5) with (/ 2) by (unfold Q2R; cbn; lra).
  destruct (Rltb (- / 2) (c0 n c)) eqn:E1; [|discriminate]. apply Rltb_true in E1.
  assert (O1 : near n (fun z => - / 2 < g z)) by (apply (rep_open n c g (fun x => - / 2 < x)); auto; apply open_gt).
  assert (Fb : forall x, - / 2 < x -> (Rltb (fabs (K := ROps) x) (/ 2) = true <-> x < / 2)).
  { intros x Hx. unfold fabs. cbn [Oltb ROps OofQ Oopp]. rewrite Q2R_0. destruct (Rltb x 0) eqn:Ex.
    - apply Rltb_true in Ex. rewrite Rltb_true. lra.
    - rewrite Rltb_true. lra. }
  destruct (Rltb (fabs (K := ROps) (c0 n c)) (/ 2)) eqn:E2.
  - apply Fb in E2; [|exact E1]. intro E.
    assert (O2 : near n (fun z => g z < / 2)) by (apply (rep_open n c g (fun x => x < / 2)); auto; apply open_lt).
    destruct (ad_pade n Hn c g d A E) as (k & Rk & Nk). exists k. split; [exact Rk|].
    eapply near_imp; [|apply near_and; [exact Nk|apply near_and; [exact O1|exact O2]]].
    intros z (Ez & Z1 & Z2). apply Rltb_true in Z1 as Z1'. rewrite Z1'. apply Fb in Z2; [|exact Z1]. rewrite Z2. exact Ez.
  - assert (H2 : / 2 < c0 n c).
    { destruct (Rlt_dec (c0 n c) (/ 2)) as [L|L]; [apply Fb in L; [congruence|exact E1]|lra]. }
    assert (O2 : near n (fun z => / 2 < g z)) by (apply (rep_open n c g (fun x => / 2 < x)); auto; apply open_gt).
    destruct (ct_sqrt n c) as [s|] eqn:Es; cbn [obnd]; [|discriminate].
    destruct (ct_asinh n s) as [s'|] eqn:Es'; cbn [obnd]; [|discriminate]. intro E. injection E as <-.
    destruct (ad_sqrt n Hn c g s A Es) as (k & Rk & Nk). destruct (ad_asinh n Hn s k s' Rk Es') as (k' & Rk' & Nk').
    exists (fun z => k z * k' z). split.
    + unfold ct_mul. rewrite mulset_spec. now apply rep_mul.
    + eapply near_imp; [|apply near_and; [apply near_and; [exact Nk|exact Nk']|apply near_and; [exact O1|exact O2]]].
      intros z ((Ez & Ez') & Z1 & Z2). apply Rltb_true in Z1 as Z1'. rewrite Z1'.
      destruct (Rltb (fabs (K := ROps) (g z)) (/ 2)) eqn:E3; [apply Fb in E3; lra|].
      cbn beta in Ez, Ez'. rewrite Ez. cbn [obnd]. rewrite Ez'. reflexivity.
Qed.
End PRIM2.

(** ** Expressions *)
Section AD.
Variable n : nat.
Hypothesis Hn : (n <= 6)%nat.
Variable st : nat -> T ROps.
Variable inp : nat -> rct n.
Variable ginp : nat -> pt n -> rct 0.
Hypothesis Hinp : forall i, rep n (inp i) (ginp i).

Definition renv (r : env (K := ROps) n) (gr : list (string * (pt n -> rct 0))) : Prop :=
  Forall2 (fun a b => fst a = fst b /\ rep n (snd a) (snd b)) r gr.
Definition at_ (gr : list (string * (pt n -> rct 0))) (z : pt n) : env (K := ROps) 0 :=
  map (fun p => (fst p, snd p z)) gr.

Lemma renv_lookup r gr x c : renv r gr -> lookup n x r = Some c ->
  exists g, rep n c g /\ forall z, lookup 0 x (at_ gr z) = Some (g z).
Proof.
  induction 1 as [|[y v] [y' g] r gr [E Rv] H IH]; cbn; [discriminate|]. cbn in E, Rv. subst y'.
  destruct (String.eqb x y); [|exact IH]. intro E. injection E as <-. eauto.
Qed.

Lemma Rltb_lt x y : x < y -> Rltb x y = true. Proof. apply Rltb_true. Qed.
Lemma Rltb_ge x y : y <= x -> Rltb x y = false. Proof. apply Rltb_false. Qed.

Section FL.
Variable fl : fld -> rct n.
Variable gfl : fld -> pt n -> rct 0.
Hypothesis Hfl : forall f, rep n (fl f) (gfl f).

Notation ev0 gr z := (eval (K := ROps) st 0 (fun i => ginp i z) (fun f => gfl f z) (at_ gr z)).
Notation reg0 gr := (regular st (fun i => ginp i (origin n)) (fun f => gfl f (origin n)) (at_ gr (origin n))).

Theorem ad_eval : forall e r gr c, renv r gr -> reg0 gr e -> eval st n inp fl r e = Some c ->
  exists g : pt n -> rct 0, rep n c g /\ near n (fun z => ev0 gr z e = Some (g z)).
Proof.
  induction e; intros r gr c Hr Hreg E; cbn [eval] in E |- *; cbn [regular] in Hreg;
    repeat match goal with H : _ /\ _ |- _ => destruct H end;
    repeat match goal with
    | I : forall r gr c, renv r gr -> _ -> eval st n inp fl r ?a = Some c -> _,
      X : obnd (eval st n inp fl ?rr ?a) _ = Some _, G : regular _ _ _ _ ?a |- _ =>
        let v := fresh "v" in let g := fresh "g" in let Rg := fresh "Rg" in let Ng := fresh "Ng" in let Ev := fresh "Ev" in
        destruct (eval st n inp fl rr a) as [v|] eqn:Ev; [|discriminate];
        destruct (I rr gr v Hr G Ev) as (g & Rg & Ng); cbn [obnd] in X; clear G
    | X : obnd (seval st ?s) _ = Some _ |- _ =>
        let k := fresh "k" in destruct (seval st s) as [k|]; [|discriminate]; cbn [obnd] in X
    end;
    try match goal with
    | X : Some _ = Some _ |- _ => injection X as X; subst
    end.
  - eauto using near_true.
  - eauto using near_true.
  - destruct (renv_lookup _ _ _ _ Hr E) as (g & Rg & Eg). exists g. split; [exact Rg|]. now apply near_true.
  - exists (fun _ => k). split; [apply rep_const|]. now apply near_true.
  - (* let *)
    match goal with G : forall v, _ -> regular _ _ _ _ e2 |- _ => specialize (G (g (origin n))); rename G into Hb end.
    pose proof (near_origin _ _ Ng) as E0. cbn beta in E0. specialize (Hb E0).
    destruct (IHe2 ((x, v) :: r) ((x, g) :: gr) c) as (g2 & R2 & N2); [constructor; [cbn; auto|exact Hr]|exact Hb|exact E|].
    exists g2. split; [exact R2|]. eapply near_imp; [|apply near_and; [exact Ng|exact N2]].
    intros z [Z1 Z2]. rewrite Z1. cbn [obnd]. exact Z2.
  - exists (fun z => - g z). split; [now apply rep_neg|]. eapply near_imp; [|exact Ng]. intros z ->. reflexivity.
  - exists (fun z => g z + g0 z). split; [now apply rep_add|]. eapply near_imp; [|apply near_and; [exact Ng|exact Ng0]]. intros z [-> ->]. reflexivity.
  - exists (fun z => g z - g0 z). split; [now apply rep_sub|]. eapply near_imp; [|apply near_and; [exact Ng|exact Ng0]]. intros z [-> ->]. reflexivity.
  - exists (fun z => g z * g0 z). split; [unfold ct_mul; rewrite mulset_spec; now apply rep_mul|]. eapply near_imp; [|apply near_and; [exact Ng|exact Ng0]]. intros z [-> ->]. cbn [obnd]. unfold ct_mul. now rewrite mulset_spec.
  - exists (fun z => g z * g0 z). split; [rewrite multo_spec; now apply rep_mul|]. eapply near_imp; [|apply near_and; [exact Ng|exact Ng0]]. intros z [-> ->]. cbn [obnd]. now rewrite multo_spec.
  - destruct (ad_div n Hn v v0 g g0 c Rg Rg0 E) as (k & Rk & Nk). exists k. split; [exact Rk|].
    eapply near_imp; [|apply near_and; [exact Nk|apply near_and; [exact Ng|exact Ng0]]]. intros z (Z & -> & ->). exact Z.
  - exists (fun z => k + g z). split; [rewrite addk_spec; apply rep_add; [apply rep_const|exact Rg]|]. eapply near_imp; [|exact Ng]. intros z ->. cbn [obnd]. now rewrite addk_spec.
  - exists (fun z => g z - k). split; [rewrite subk_spec; apply rep_sub; [exact Rg|apply rep_const]|]. eapply near_imp; [|exact Ng]. intros z ->. cbn [obnd]. now rewrite subk_spec.
  - exists (fun z => k - g z). split; [rewrite ksub_spec; apply rep_sub; [apply rep_const|exact Rg]|]. eapply near_imp; [|exact Ng]. intros z ->. cbn [obnd]. now rewrite ksub_spec.
  - exists (fun z => k * g z). split; [rewrite scale_spec; apply rep_mul; [apply rep_const|exact Rg]|]. eapply near_imp; [|exact Ng]. intros z ->. cbn [obnd]. now rewrite scale_spec.
  - destruct (ad_kdiv n Hn k v g c Rg E) as (g1 & R1 & N1). exists g1. split; [exact R1|].
    eapply near_imp; [|apply near_and; [exact N1|exact Ng]]. intros z (Z & ->). exact Z.
  - unfold ct_divk in E |- *. destruct (Oeqb k _) eqn:Ek; [discriminate|]. injection E as <-.
    exists (fun z => 1 / k * g z). split.
    + rewrite scaleto_spec. apply rep_mul; [|exact Rg]. cbn [Odiv OofQ ROps]. rewrite Q2R_1. apply (rep_const n (1 / k)).
    + eapply near_imp; [|exact Ng]. intros z ->. cbn [obnd]. rewrite Ek. rewrite scaleto_spec. cbn [pmul Odiv OofQ ROps ct_const].
      now rewrite Q2R_1.
  - destruct (ad_pow n Hn k v g c Rg E) as (g1 & R1 & N1). exists g1. split; [exact R1|].
    eapply near_imp; [|apply near_and; [exact N1|exact Ng]]. intros z (Z & ->). exact Z.
  - destruct (ad_powi n Hn z v g c Rg E) as (g1 & R1 & N1). exists g1. split; [exact R1|].
    eapply near_imp; [|apply near_and; [exact N1|exact Ng]]. intros z0 (Z & ->). exact Z.
  - (* functions *)
    assert (Hg : reg0 gr e) by (destruct f; (exact Hreg || apply Hreg)).
    destruct (eval st n inp fl r e) as [v|] eqn:Ev; [|discriminate]. cbn [obnd] in E.
    destruct (IHe r gr v Hr Hg Ev) as (g & Rg & Ng).
    assert (X : exists g1 : pt n -> R, rep n c g1 /\ near n (fun z => fn_eval (K := ROps) 0 f (g z) = Some (g1 z))).
    { destruct f; cbn [fn_eval] in *.
      - exact (ad_exp n Hn v g c Rg E).
      - exact (ad_expm1 n Hn v g c Rg E).
      - exact (ad_log n Hn v g c Rg E).
      - exact (ad_sqrt n Hn v g c Rg E).
      - exact (ad_cbrt n Hn v g c Rg E).
      - exact (ad_erf n Hn v g c Rg E).
      - exact (ad_atan n Hn v g c Rg E).
      - exact (ad_asinh n Hn v g c Rg E).
      - apply (ad_sqas n Hn v g c Rg); [|exact E]. rewrite (rep_c0 _ _ _ Rg). apply Hreg. exact (near_origin _ _ Ng). }
    destruct X as (g1 & R1 & N1). exists g1. split; [exact R1|].
    eapply near_imp; [|apply near_and; [exact N1|exact Ng]]. intros z (Z & ->). exact Z.
  - (* abs *)
    assert (C0 : c0 n v <> 0) by (rewrite (rep_c0 _ _ _ Rg); match goal with G : forall v, _ -> v <> 0 |- _ => apply G end; exact (near_origin _ _ Ng)).
    unfold ct_abs. cbn [Oltb OofQ ROps]. rewrite Q2R_0. destruct (Rltb (c0 n v) 0) eqn:L.
    + apply Rltb_true in L. exists (fun z => - g z). split; [now apply rep_neg|].
      eapply near_imp; [|apply near_and; [apply (rep_open n v g (fun x => x < 0)); [apply open_lt|exact Rg|exact L]|exact Ng]].
      intros z (Z & ->). cbn [obnd c0]. rewrite (Rltb_lt _ _ Z). reflexivity.
    + apply Rltb_false in L. exists g. split; [exact Rg|].
      eapply near_imp; [|apply near_and; [apply (rep_open n v g (fun x => 0 < x)); [apply open_gt|exact Rg|lra]|exact Ng]].
      intros z (Z & ->). cbn [obnd c0]. rewrite Rltb_ge by lra. reflexivity.
  - (* max *)
    assert (C0 : c0 n v <> c0 n v0).
    { rewrite (rep_c0 _ _ _ Rg), (rep_c0 _ _ _ Rg0). match goal with G : forall v w, _ -> _ -> v <> w |- _ => apply G end; [exact (near_origin _ _ Ng)|exact (near_origin _ _ Ng0)]. }
    pose proof (rep_sub n v v0 g g0 Rg Rg0) as Rd.
    assert (Ed : c0 n (ct_sub n v v0) = c0 n v - c0 n v0) by (rewrite (rep_c0 _ _ _ Rd), (rep_c0 _ _ _ Rg), (rep_c0 _ _ _ Rg0); reflexivity).
    unfold ct_max. cbn [Oltb ROps]. destruct (Rltb (c0 n v0) (c0 n v)) eqn:L.
    + apply Rltb_true in L. exists g. split; [exact Rg|].
      eapply near_imp; [|apply near_and; [apply (rep_open n _ _ (fun x => 0 < x) (open_gt 0) Rd); rewrite Ed; lra|apply near_and; [exact Ng|exact Ng0]]].
      intros z (Z & -> & ->). cbn [obnd c0]. rewrite Rltb_lt by lra. reflexivity.
    + apply Rltb_false in L. exists g0. split; [exact Rg0|].
      eapply near_imp; [|apply near_and; [apply (rep_open n _ _ (fun x => x < 0) (open_lt 0) Rd); rewrite Ed; lra|apply near_and; [exact Ng|exact Ng0]]].
      intros z (Z & -> & ->). cbn [obnd c0]. rewrite Rltb_ge by lra. reflexivity.
  - (* regularize *)
    assert (C0 : Q2R TINY < c0 n v) by (rewrite (rep_c0 _ _ _ Rg); match goal with G : forall v, _ -> Q2R TINY < v |- _ => apply G end; exact (near_origin _ _ Ng)).
    unfold ct_reg. cbn [Oltb ROps OofQ]. rewrite (Rltb_ge (c0 n v)) by lra.
    exists g. split; [exact Rg|].
      eapply near_imp; [|apply near_and; [apply (rep_open n v g (fun x => Q2R TINY < x)); [apply open_gt|exact Rg|lra]|exact Ng]].
      intros z (Z & ->). cbn [obnd c0]. rewrite Rltb_ge by lra. reflexivity.
  - contradiction.
  - (* if *)
    match goal with G : forall v w, _ -> _ -> _ /\ _ |- _ => destruct (G (g (origin n)) (g0 (origin n))) as (C0 & Hl & Hg) end;
      [exact (near_origin _ _ Ng)|exact (near_origin _ _ Ng0)|].
    pose proof (rep_sub n v v0 g g0 Rg Rg0) as Rd.
    pose proof (rep_c0 _ _ _ Rd) as Ed. cbn beta in Ed. rewrite (rep_c0 _ _ _ Rg), (rep_c0 _ _ _ Rg0) in E.
    cbn [Oltb ROps] in E. destruct (Rltb (g (origin n)) (g0 (origin n))) eqn:L.
    + apply Rltb_true in L. destruct (IHe3 r gr c Hr (Hl L) E) as (k & Rk & Nk). exists k. split; [exact Rk|].
      eapply near_imp; [|apply near_and; [apply (rep_open n _ _ (fun x => x < 0) (open_lt 0) Rd); rewrite Ed; lra|apply near_and; [exact Nk|apply near_and; [exact Ng|exact Ng0]]]].
      intros z (Z & Zk & -> & ->). cbn [obnd c0 Oltb ROps]. rewrite Rltb_lt by lra. exact Zk.
    + apply Rltb_false in L. assert (L' : g0 (origin n) < g (origin n)) by lra.
      destruct (IHe4 r gr c Hr (Hg L') E) as (k & Rk & Nk). exists k. split; [exact Rk|].
      eapply near_imp; [|apply near_and; [apply (rep_open n _ _ (fun x => 0 < x) (open_gt 0) Rd); rewrite Ed; lra|apply near_and; [exact Nk|apply near_and; [exact Ng|exact Ng0]]]].
      intros z (Z & Zk & -> & ->). cbn [obnd c0 Oltb ROps]. rewrite Rltb_ge by lra. exact Zk.
Qed.
End FL.
End AD.

(** ** Programs *)
Section ADRUN.
Variable n : nat.
Hypothesis Hn : (n <= 6)%nat.
Variable st : nat -> T ROps.
Variable inp : nat -> rct n.
Variable ginp : nat -> pt n -> rct 0.
Hypothesis Hinp : forall i, rep n (inp i) (ginp i).
Lemma ad_run : forall p fl gfl fl', (forall f, rep n (fl f) (gfl f)) ->
  regular_run st (fun i => ginp i (origin n)) (fun f => gfl f (origin n)) p ->
  run st n inp fl p = Some fl' ->
  exists gfl' : fld -> pt n -> rct 0, (forall f, rep n (fl' f) (gfl' f)) /\
    near n (fun z => run st 0 (fun i => ginp i z) (fun f => gfl f z) p = Some (fun f => gfl' f z)).
Proof.
  induction p as [|[f e] p IH]; intros fl gfl fl' Hfl Hreg E; cbn [run] in E |- *.
  - injection E as <-. exists gfl. split; [exact Hfl|]. now apply near_true.
  - destruct (eval st n inp fl [] e) as [v|] eqn:Ev; [|discriminate]. cbn [obnd] in E. cbn [regular_run] in Hreg.
    destruct Hreg as [H1 H2].
    destruct (ad_eval n Hn st inp ginp Hinp fl gfl Hfl e [] [] v (Forall2_nil _) H1 Ev) as (g & Rg & Ng).
    specialize (H2 _ (near_origin _ _ Ng)).
    set (gfl1 := fun h z => if fld_eqb h f then g z else gfl h z).
    assert (Eu : forall z, (fun h => gfl1 h z) = fupd (K := ROps) 0 (fun h => gfl h z) f (g z)).
    { intro z. apply FunctionalExtensionality.functional_extensionality. intro h. unfold gfl1, fupd. reflexivity. }
    destruct (IH (fupd n fl f v) gfl1 fl') as (gfl' & R' & N').
    + intro h. unfold fupd, gfl1. destruct (fld_eqb h f); [exact Rg|apply Hfl].
    + rewrite Eu. exact H2.
    + exact E.
    + exists gfl'. split; [exact R'|]. eapply near_imp; [|apply near_and; [exact Ng|exact N']].
      intros z [Z1 Z2]. cbn [at_ map] in Z1. rewrite Z1. cbn [obnd]. rewrite <- Eu. exact Z2.
Qed.
End ADRUN.
