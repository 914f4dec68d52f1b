(** * Domain analysis of the energy expressions
    A checker that computes, for inputs in given intervals, an interval containing the value
    of an expression, and fails unless every division, root, logarithm and power in it is
    inside its domain; with the proof that it is right. *)
From Coq Require Import Reals QArith Qreals ZArith Arith Lia Lra Psatz List Bool String.
From Coquelicot Require Import Coquelicot.
From Verif Require Import Scalar RInst CTaylor CtAlg TMath Fps TFam TExp Ad Br Expr Sem AdEval RSem Itv.
Import ListNotations.
Local Open Scope R_scope.

(** ** Elementary functions on intervals *)
Definition one_lo (b s : bool) : bnd := if b then Some (1%Q, s) else None.
Definition iexp a := I (bmax (Some (0%Q, true)) (badd (Some (1%Q, false)) (lo a)))
  (if ilt 0 a then Some ((-1)%Q, true) else if ile 0 a then Some ((-1)%Q, false) else None).
Lemma exp_ge x : 1 + x <= exp x.
Proof.
  destruct (Req_dec x 0) as [->|H]; [rewrite exp_0; lra|]. left. now apply exp_ineq1.
Qed.
Lemma iexp_ok a x : gam a x -> gam (iexp a) (exp x).
Proof.
  intro A. split; cbn [lo up iexp].
  - apply bmax_ok; [cbn; rewrite Q2R_0; apply exp_pos|]. eapply gb_up; [apply exp_ge|].
    apply badd_ok; [cbn; rewrite Q2R_1; lra|apply A].
  - assert (Q2R (-1) = -1) as E1 by (unfold Q2R; cbn; lra).
    destruct (ilt 0 a) eqn:E; [apply (ilt_ok _ _ _ E) in A; rewrite Q2R_0 in A|destruct (ile 0 a) eqn:E'; [apply (ile_ok _ _ _ E') in A; rewrite Q2R_0 in A|exact Logic.I]].
    + cbn. rewrite E1. apply exp_increasing in A. rewrite exp_0 in A. lra.
    + cbn. rewrite E1. destruct A as [A|A]; [apply exp_increasing in A; rewrite exp_0 in A; lra|]. rewrite A, exp_0. lra.
Qed.
Definition ilog a : option itv :=
  if ipos a then
    Some (I (lo (isub (I (Some (1%Q, false)) (Some ((-1)%Q, false))) (iinvp a)))
            (badd (if orb (igt 1 a) (ilt 1 a) then Some (1%Q, true) else Some (1%Q, false)) (up a)))
  else None.
Lemma ln_le x : 0 < x -> ln x <= x - 1.
Proof. intro H. pose proof (exp_ge (ln x)) as E. rewrite exp_ln in E by exact H. lra. Qed.
Lemma ln_lt x : 0 < x -> x <> 1 -> ln x < x - 1.
Proof.
  intros H N. assert (ln x <> 0).
  { intro E. apply N. rewrite <- (exp_ln x H), E. apply exp_0. }
  pose proof (exp_ineq1 (ln x) H0) as E. rewrite exp_ln in E by exact H. lra.
Qed.
Lemma ln_ge x : 0 < x -> 1 - / x <= ln x.
Proof. intro H. pose proof (ln_le (/ x) (Rinv_0_lt_compat _ H)) as E. rewrite ln_Rinv in E by exact H. lra. Qed.
Lemma one_gam : gam (I (Some (1%Q, false)) (Some ((-1)%Q, false))) 1.
Proof. split; cbn; unfold Q2R; cbn; lra. Qed.
Lemma ilog_ok a i x : ilog a = Some i -> gam a x -> 0 < x /\ gam i (ln x).
Proof.
  unfold ilog. destruct (ipos a) eqn:P; [|discriminate]. intros E A. injection E as <-. pose proof (ipos_ok _ _ P A) as Hx. split; [exact Hx|].
  split; cbn [lo up].
  - eapply gb_up; [apply ln_ge, Hx|]. apply (isub_ok _ _ _ _ one_gam (iinvp_ok _ _ P A)).
  - destruct (orb _ _) eqn:O.
    + replace (- ln x) with ((x - ln x) + - x) by ring. apply badd_ok; [|apply A]. cbn. rewrite Q2R_1.
      assert (x <> 1). { apply orb_prop in O. destruct O as [O|O]; [apply (igt_ok _ _ _ O) in A|apply (ilt_ok _ _ _ O) in A]; rewrite Q2R_1 in A; lra. }
      pose proof (ln_lt x Hx H). lra.
    + replace (- ln x) with ((x - ln x) + - x) by ring. apply badd_ok; [|apply A]. cbn. rewrite Q2R_1. pose proof (ln_le x Hx). lra.
Qed.
Fixpoint qpn (q : Q) (n : nat) : Q := match n with O => 1%Q | S n => Qred (q * qpn q n) end.
(** An upper bound of x^k for x <= u and 0 <= k <= m: max(1,u)^m with m the next integer. *)
Definition ipow_up a k : bnd :=
  if inn k then
    match up a, up k with
    | Some (u, _), Some (q, _) =>
        let m := Z.to_nat (Qround.Qceiling (- q)) in
        if Nat.leb m 12 then Some ((- qpn (if Qle_bool 1 (- u) then - u else 1) m)%Q, false) else None
    | _, _ => None
    end
  else None.
Lemma ipow_up_ok a k x y : 0 < x -> gam a x -> gam k y -> gb (ipow_up a k) (- Rpower x y).
Proof.
  intros Hx A B. unfold ipow_up. destruct (inn k) eqn:N; [|exact Logic.I]. pose proof (inn_ok _ _ N B) as Hy.
  destruct A as [_ A], B as [_ B]. destruct (up a) as [[u su]|]; [|exact Logic.I]. destruct (up k) as [[q sq]|]; [|exact Logic.I]. cbv zeta.
  set (m := Z.to_nat (Qround.Qceiling (- q))). destruct (Nat.leb m 12); [|exact Logic.I]. apply gb_weak in A, B.
  set (M := if Qle_bool 1 (- u) then (- u)%Q else 1%Q).
  assert (HM : 1 <= Q2R M /\ x <= Q2R M).
  { unfold M. destruct (Qle_bool 1 (- u)) eqn:E.
    - apply Qle_bool_R in E. rewrite Q2R_1, Q2R_opp in E. rewrite Q2R_opp. lra.
    - apply Qle_bool_Rf in E. rewrite Q2R_1, Q2R_opp in E. rewrite Q2R_1. lra. }
  assert (Hm : y <= INR m).
  { pose proof (Qround.Qle_ceiling (- q)) as C. apply Qle_Rle in C. rewrite Q2R_Z, Q2R_opp in C. unfold m. rewrite INR_IZR_INZ.
    destruct (Z.le_gt_cases 0 (Qround.Qceiling (- q))) as [L|L]; [rewrite Z2Nat.id by exact L; lra|].
    assert (E0 : Z.to_nat (Qround.Qceiling (- q)) = O) by lia. rewrite E0. cbn. apply IZR_lt in L. lra. }
  apply gb_mk. rewrite Q2R_opp. apply Ropp_le_contravar.
  assert (Ep : Q2R (qpn M m) = Q2R M ^ m).
  { clear. induction m as [|m IH]; [cbn [qpn pow]; apply Q2R_1|]. cbn [qpn pow]. rewrite (Qeq_eqR _ _ (Qred_correct _)), Q2R_mult, IH. reflexivity. }
  rewrite Ep. eapply Rle_trans; [apply (Rle_Rpower_l x (Q2R M) y); lra|]. rewrite <- Rpower_pow by lra. apply Rle_Rpower; lra.
Qed.
Definition ipow a k : option itv :=
  if ipos a then
    let up1 := orb (andb (ige 1 a) (inn k)) (andb (ile 1 a) (inp_ k)) in
    let up1s := orb (andb (igt 1 a) (ipos k)) (andb (ilt 1 a) (ineg k)) in
    let dn1 := orb (andb (ige 1 a) (inp_ k)) (andb (ile 1 a) (inn k)) in
    let dn1s := orb (andb (igt 1 a) (ineg k)) (andb (ilt 1 a) (ipos k)) in
    Some (I (if up1 then Some (1%Q, up1s) else Some (0%Q, true)) (if dn1 then Some ((-1)%Q, dn1s) else ipow_up a k))
  else None.
Lemma Rpower_ge1 x k : 0 < x -> 0 <= k * ln x -> 1 <= Rpower x k.
Proof. intros H L. unfold Rpower. pose proof (exp_ge (k * ln x)). lra. Qed.
Lemma Rpower_gt1 x k : 0 < x -> 0 < k * ln x -> 1 < Rpower x k.
Proof. intros H L. unfold Rpower. pose proof (exp_ge (k * ln x)). lra. Qed.
Lemma Rpower_le1 x k : 0 < x -> k * ln x <= 0 -> Rpower x k <= 1.
Proof.
  intros H L. unfold Rpower. rewrite <- exp_0. destruct L as [L|L]; [left; now apply exp_increasing|right; now rewrite L].
Qed.
Lemma Rpower_lt1 x k : 0 < x -> k * ln x < 0 -> Rpower x k < 1.
Proof. intros H L. unfold Rpower. rewrite <- exp_0. now apply exp_increasing. Qed.
Lemma ln_nn x : 1 <= x -> 0 <= ln x.
Proof. intros [H | <-]; [left; rewrite <- ln_1; apply ln_increasing; lra|rewrite ln_1; lra]. Qed.
Lemma ln_np x : 0 < x -> x <= 1 -> ln x <= 0.
Proof. intros P [H | ->]; [left; rewrite <- ln_1; apply ln_increasing; lra|rewrite ln_1; lra]. Qed.
Lemma ln_p x : 1 < x -> 0 < ln x.
Proof. intro H. rewrite <- ln_1. apply ln_increasing; lra. Qed.
Lemma ln_n x : 0 < x -> x < 1 -> ln x < 0.
Proof. intros P H. rewrite <- ln_1. apply ln_increasing; lra. Qed.
Ltac b2p H A B := let H1 := fresh in apply orb_prop in H; destruct H as [H|H]; apply andb_prop in H; destruct H as [H H1];
  [first [apply (ige_ok _ _ _ H) in A|apply (igt_ok _ _ _ H) in A]|first [apply (ile_ok _ _ _ H) in A|apply (ilt_ok _ _ _ H) in A]];
  rewrite Q2R_1 in A;
  first [apply (inn_ok _ _ H1) in B|apply (ipos_ok _ _ H1) in B|apply (inp_ok _ _ H1) in B|apply (ineg_ok _ _ H1) in B].
Lemma ipow_ok a k i x y : ipow a k = Some i -> gam a x -> gam k y -> 0 < x /\ gam i (Rpower x y).
Proof.
  unfold ipow. destruct (ipos a) eqn:P; [|discriminate]. intros E A B. injection E as <-. pose proof (ipos_ok _ _ P A) as Hx. split; [exact Hx|].
  assert (Q2R (-1) = -1) as E1 by (unfold Q2R; cbn; lra).
  split; cbn [lo up].
  - destruct (orb (andb (ige 1 a) (inn k)) _) eqn:O; [|cbn; rewrite Q2R_0; apply exp_pos].
    apply gb_mk. rewrite Q2R_1. destruct (orb (andb (igt 1 a) (ipos k)) _) eqn:O'.
    + b2p O' A B; apply Rpower_gt1; auto; [pose proof (ln_p x A)|pose proof (ln_n x Hx A)]; nra.
    + b2p O A B; apply Rpower_ge1; auto; [pose proof (ln_nn x A)|pose proof (ln_np x Hx A)]; nra.
  - destruct (orb (andb (ige 1 a) (inp_ k)) _) eqn:O; [|apply ipow_up_ok; assumption].
    apply gb_mk. rewrite E1. destruct (orb (andb (igt 1 a) (ineg k)) _) eqn:O'.
    + apply Ropp_lt_contravar. b2p O' A B; apply Rpower_lt1; auto; [pose proof (ln_p x A)|pose proof (ln_n x Hx A)]; nra.
    + apply Ropp_le_contravar. b2p O A B; apply Rpower_le1; auto; [pose proof (ln_nn x A)|pose proof (ln_np x Hx A)]; nra.
Qed.
Definition isqrt a : itv := I (match lo a with Some (q, s) => if Qle_bool 0 q then (if Qle_bool 1 q then Some (1%Q, false) else Some (q, s)) else Some (0%Q, false) | None => Some (0%Q, false) end)
  (if ile 1 a then Some ((-1)%Q, false) else None).
Lemma isqrt_ok a x : 0 <= x -> gam a x -> gam (isqrt a) (sqrt x).
Proof.
  intros H A. pose proof (sqrt_pos x) as Sp. pose proof (sqrt_sqrt x H) as Ss. split; cbn [lo up isqrt].
  - destruct A as [A _]. destruct (lo a) as [[q s]|]; [|cbn; rewrite Q2R_0; lra]. destruct (Qle_bool 0 q) eqn:E0; [|cbn; rewrite Q2R_0; lra].
    apply Qle_R in E0. destruct (Qle_bool 1 q) eqn:E1.
    + apply Qle_bool_R in E1. rewrite Q2R_1 in E1. apply gb_weak in A. cbn. rewrite Q2R_1. nra.
    + apply Qle_bool_Rf in E1. rewrite Q2R_1 in E1. apply gb_mk. destruct s; cbn in A; nra.
  - destruct (ile 1 a) eqn:E; [|exact Logic.I]. apply (ile_ok _ _ _ E) in A. rewrite Q2R_1 in A. cbn. unfold Q2R. cbn. nra.
Qed.
Definition isign a : itv := I (if ipos a then Some (0%Q, true) else if inn a then Some (0%Q, false) else None)
  (if ineg a then Some (0%Q, true) else if inp_ a then Some (0%Q, false) else None).
Lemma isign_ok a x y : (0 < x -> 0 < y) -> (0 <= x -> 0 <= y) -> (x < 0 -> y < 0) -> (x <= 0 -> y <= 0) -> gam a x -> gam (isign a) y.
Proof.
  intros H1 H2 H3 H4 A. split; cbn [lo up isign].
  - destruct (ipos a) eqn:E; [apply (ipos_ok _ _ E) in A; cbn; rewrite Q2R_0; auto|].
    destruct (inn a) eqn:E'; [apply (inn_ok _ _ E') in A; cbn; rewrite Q2R_0; auto|exact Logic.I].
  - destruct (ineg a) eqn:E; [apply (ineg_ok _ _ E) in A; cbn; rewrite Q2R_0; specialize (H3 A); lra|].
    destruct (inp_ a) eqn:E'; [apply (inp_ok _ _ E') in A; cbn; rewrite Q2R_0; specialize (H4 A); lra|exact Logic.I].
Qed.
Fixpoint ipown a (n : nat) : itv :=
  match n with
  | O => I (Some (1%Q, false)) (Some ((-1)%Q, false))
  | S O => a
  | S (S m) => imul (isq a) (ipown a m)
  end.
Lemma ipown_ok a x : gam a x -> forall n, gam (ipown a n) (x ^ n).
Proof.
  intros A n. assert (H : gam (ipown a n) (x ^ n) /\ gam (ipown a (S n)) (x ^ S n)); [|apply H].
  induction n as [|n [IH1 IH2]]; [split; [exact one_gam|cbn; now rewrite Rmult_1_r]|]. split; [exact IH2|].
  change (gam (imul (isq a) (ipown a n)) (x ^ S (S n))). replace (x ^ S (S n)) with (x * x * x ^ n) by (cbn; ring).
  apply imul_ok; [now apply isq_ok|exact IH1].
Qed.
Definition ipowi a (z : Z) : option itv :=
  match z with
  | Z0 => Some (I (Some (1%Q, false)) (Some ((-1)%Q, false)))
  | Zpos p => Some (ipown a (Pos.to_nat p))
  | Zneg _ => ipow a (I (Some (inject_Z z, false)) (Some (- inject_Z z, false)%Q))
  end.
Lemma ipowi_ok a i x z : ipowi a z = Some i -> gam a x -> exists v, rpowi x z = Some v /\ gam i v.
Proof.
  intros E A. destruct z; cbn [ipowi rpowi] in *.
  - injection E as <-. eexists. split; [reflexivity|]. exact one_gam.
  - injection E as <-. eexists. split; [reflexivity|]. now apply ipown_ok.
  - destruct (ipow_ok _ _ _ x (IZR (Zneg p)) E A) as [P G].
    + split; cbn [lo up]; apply gb_mk; rewrite ?Q2R_opp, Q2R_Z; lra.
    + eexists. split; [|exact G]. unfold rpow. destruct (Rlt_dec 0 x); [reflexivity|lra].
Qed.
(** The Pade polynomials have positive coefficients. *)
Lemma peval_nn c x : 0 <= x -> (forall i, 0 <= c i) -> forall n, 0 <= peval_seq n c x /\ (0 < c 0%nat -> 0 < peval_seq n c x).
Proof.
  intros Hx Hc n. induction n as [|n [IH1 IH2]]; cbn [peval_seq].
  - split; [apply Hc|auto].
  - pose proof (pow_le x (S n) Hx) as Pp. pose proof (Hc (S n)) as Hs. split; [|intro H0; specialize (IH2 H0)]; nra.
Qed.
Lemma nn_list (l : list Q) : forallb (Qle_bool 0) l = true -> forall i, 0 <= tab (K := ROps) l i.
Proof.
  intros H i. unfold tab. cbn [OofQ ROps]. revert i. induction l as [|q l IH]; intro i.
  - destruct i; cbn [nth]; rewrite Q2R_0; lra.
  - cbn [forallb] in H. apply andb_prop in H. destruct H as [H1 H2]. destruct i; cbn [nth]; [now apply Qle_R|]. now apply IH.
Qed.
Lemma polyQ_pos x : 0 <= x -> 0 < polyQ x.
Proof.
  intro H. apply (peval_nn (tab (K := ROps) padeQ) x H); [apply nn_list; vm_compute; reflexivity|].
  unfold tab, padeQ. cbn [nth OofQ ROps]. unfold Q2R. cbn. lra.
Qed.
Lemma polyP_nn x : 0 <= x -> 0 <= polyP x.
Proof. intro H. apply (peval_nn (tab (K := ROps) padeP) x H). apply nn_list. vm_compute. reflexivity. Qed.
Lemma arcsinh_sign x : (0 < x -> 0 < arcsinh x) /\ (0 <= x -> 0 <= arcsinh x) /\ (x < 0 -> arcsinh x < 0) /\ (x <= 0 -> arcsinh x <= 0).
Proof.
  assert (P : forall y, 0 < y -> 0 < arcsinh y) by (intros y H; rewrite <- arcsinh_0; now apply arcsinh_lt).
  assert (N : forall y, y < 0 -> arcsinh y < 0) by (intros y H; rewrite <- arcsinh_0; now apply arcsinh_lt).
  assert (Z : arcsinh 0 = 0) by apply arcsinh_0.
  repeat split; auto; intro H; destruct (Rtotal_order x 0) as [L | [E | G]]; try (pose proof (N _ L); lra); try (pose proof (P _ G); lra); subst x; rewrite Z; lra.
Qed.
Lemma atan_sign x : (0 < x -> 0 < atan x) /\ (0 <= x -> 0 <= atan x) /\ (x < 0 -> atan x < 0) /\ (x <= 0 -> atan x <= 0).
Proof.
  assert (P : forall y, 0 < y -> 0 < atan y) by (intros y H; rewrite <- atan_0; now apply atan_increasing).
  assert (N : forall y, y < 0 -> atan y < 0) by (intros y H; rewrite <- atan_0; now apply atan_increasing).
  assert (Z : atan 0 = 0) by apply atan_0.
  repeat split; auto; intro H; destruct (Rtotal_order x 0) as [L | [E | G]]; try (pose proof (N _ L); lra); try (pose proof (P _ G); lra); subst x; rewrite Z; lra.
Qed.
Definition ifn (f : fn1) (a : itv) : option itv :=
  match f with
  | Fexp => Some (iexp a)
  | Fexpm1 => Some (isub (iexp a) (I (Some (1%Q, false)) (Some ((-1)%Q, false))))
  | Flog => ilog a
  | Fsqrt => if ipos a then Some (isqrt a) else None
  | Fcbrt => ipow a (I (Some (0%Q, true)) (Some ((-1)%Q, true)))
  | Ferf => Some top
  | Fatan | Fasinh => Some (isign a)
  | Fsqas => if inn a then Some (I (Some (0%Q, false)) None) else None
  end.
Lemma ifn_ok f a i x : ifn f a = Some i -> gam a x -> exists v, rfn f x = Some v /\ gam i v.
Proof.
  intros E A. destruct f; cbn [ifn rfn] in *.
  - injection E as <-. eexists. split; [reflexivity|]. now apply iexp_ok.
  - injection E as <-. eexists. split; [reflexivity|]. apply isub_ok; [now apply iexp_ok|exact one_gam].
  - destruct (ilog_ok _ _ _ E A) as [P G]. destruct (Rlt_dec 0 x); [|lra]. eauto.
  - destruct (ipos a) eqn:P; [|discriminate]. injection E as <-. pose proof (ipos_ok _ _ P A). destruct (Rlt_dec 0 x); [|lra].
    eexists. split; [reflexivity|]. apply isqrt_ok; [lra|exact A].
  - destruct (ipow_ok _ _ _ x (1 / 3) E A) as [P G]; [split; cbn; unfold Q2R; cbn; lra|]. unfold rpow. destruct (Rlt_dec 0 x); [|lra]. eauto.
  - injection E as <-. eexists. split; [reflexivity|apply gam_top].
  - injection E as <-. eexists. split; [reflexivity|]. pose proof (atan_sign x). apply (isign_ok a x); tauto.
  - injection E as <-. eexists. split; [reflexivity|]. pose proof (arcsinh_sign x). apply (isign_ok a x); tauto.
  - destruct (inn a) eqn:P; [|discriminate]. injection E as <-. apply (inn_ok _ _ P) in A. unfold rsqas, rdiv.
    destruct (Rlt_dec (- / 2) x); [|lra]. destruct (Rlt_dec x (/ 2)).
    + pose proof (polyQ_pos x A). pose proof (polyP_nn x A). destruct (Req_EM_T (polyQ x) 0); [lra|]. eexists. split; [reflexivity|].
      split; [|exact Logic.I]. cbn [lo]. apply gb_mk. rewrite Q2R_0. apply Rmult_le_pos; [assumption|]. left. now apply Rinv_0_lt_compat.
    + eexists. split; [reflexivity|]. split; [|exact Logic.I]. cbn [lo]. apply gb_mk. rewrite Q2R_0. pose proof (sqrt_pos x). pose proof (arcsinh_sign (sqrt x)).
      apply Rmult_le_pos; tauto.
Qed.
Definition idiv a b : option itv := match iinv b with Some i => Some (imul a i) | None => None end.
Lemma idiv_ok a b i x y : idiv a b = Some i -> gam a x -> gam b y -> exists v, rdiv x y = Some v /\ gam i v.
Proof.
  unfold idiv. destruct (iinv b) as [j|] eqn:E; [|discriminate]. intros X A B. injection X as <-. destruct (iinv_ok _ _ _ E B) as [N G].
  unfold rdiv. destruct (Req_EM_T y 0); [contradiction|]. eexists. split; [reflexivity|]. now apply imul_ok.
Qed.

(** ** Scalars *)
Section SABS.
Variable st : nat -> T ROps.
Variable pa : nat -> itv.
Hypothesis Hpa : forall p, gam (pa p) (st p).
Definition ob2 {A B C} (a : option A) (b : option B) (f : A -> B -> option C) : option C := obnd a (fun x => obnd b (f x)).
Fixpoint sabs (s : sexp) : option itv :=
  match s with
  | SQ q => Some (I (bmk q false) (bmk (- q) false))
  | SPi => Some (I (Some (3%Q, true)) (Some ((-4)%Q, false)))
  | SEps => Some (I (Some (0%Q, true)) (Some ((-1)%Q, true)))
  | SPar p => Some (pa p)
  | SBad => None
  | SNeg a => obnd (sabs a) (fun x => Some (ineg_ x))
  | SAdd a b => ob2 (sabs a) (sabs b) (fun x y => Some (iadd x y))
  | SSub a b => ob2 (sabs a) (sabs b) (fun x y => Some (isub x y))
  | SMul a b => ob2 (sabs a) (sabs b) (fun x y => Some (imul x y))
  | SDiv a b => ob2 (sabs a) (sabs b) idiv
  | SPow a b => ob2 (sabs a) (sabs b) ipow
  | SPowI a z => obnd (sabs a) (fun x => if ipos x then ipowi x z else match z with Zpos _ => ipowi x z | _ => None end)
  | SSqrt a => obnd (sabs a) (fun x => if inn x then Some (isqrt x) else None)
  | SCbrt a => obnd (sabs a) (fun x => ipow x (I (Some (0%Q, true)) (Some ((-1)%Q, true))))
  | SLog a => obnd (sabs a) ilog
  | SExp a => obnd (sabs a) (fun x => Some (iexp x))
  end.
Lemma kpow_pow (x : R) n : kpow (K := ROps) x n = x ^ n.
Proof.
  induction n as [|n IH]; [cbn; unfold OofZ; cbn; change (Q2R (inject_Z 1)) with (Q2R 1); now rewrite Q2R_1|].
  cbn [kpow]. rewrite IH. cbn. ring.
Qed.
Lemma z0R : @OofQ ROps 0%Q = 0.
Proof. cbn. apply Q2R_0. Qed.
Lemma z1R : @OofQ ROps 1%Q = 1.
Proof. cbn. apply Q2R_1. Qed.
Lemma rdiv_sdiv (x y : R) : sdiv (K := ROps) x y = rdiv x y.
Proof. unfold sdiv, rdiv. cbn [Oeqb Odiv ROps]. rewrite z0R. unfold Reqb. destruct (Req_EM_T y 0); reflexivity. Qed.
Ltac ob H := match type of H with obnd ?o _ = Some _ => let E := fresh "E" in destruct o eqn:E; cbn [obnd] in H; [|discriminate H] end.
Theorem sabs_ok : forall s i, sabs s = Some i -> exists v, seval (K := ROps) st s = Some v /\ gam i v.
Proof.
  induction s; intros i H; cbn [sabs seval] in *; unfold ob2 in *.
  - injection H as <-. eexists. split; [reflexivity|]. split; cbn [lo up]; apply bmk_ok, gb_mk; rewrite ?Q2R_opp; cbn; lra.
  - injection H as <-. eexists. split; [reflexivity|]. split; cbn; unfold Q2R; cbn; [pose proof PI2_3_2; unfold PI2 in *; lra|pose proof PI_4; lra].
  - injection H as <-. eexists. split; [reflexivity|]. split; cbn; unfold Q2R; cbn; lra.
  - injection H as <-. eexists. split; [reflexivity|]. apply Hpa.
  - discriminate.
  - ob H. destruct (IHs _ eq_refl) as (v & -> & G). injection H as <-. eexists. split; [reflexivity|]. now apply ineg_ok'.
  - ob H. ob H. destruct (IHs1 _ eq_refl) as (v & -> & G). destruct (IHs2 _ eq_refl) as (w & -> & G'). injection H as <-. eexists. split; [reflexivity|]. now apply iadd_ok.
  - ob H. ob H. destruct (IHs1 _ eq_refl) as (v & -> & G). destruct (IHs2 _ eq_refl) as (w & -> & G'). injection H as <-. eexists. split; [reflexivity|]. now apply isub_ok.
  - ob H. ob H. destruct (IHs1 _ eq_refl) as (v & -> & G). destruct (IHs2 _ eq_refl) as (w & -> & G'). injection H as <-. eexists. split; [reflexivity|]. now apply imul_ok.
  - ob H. ob H. destruct (IHs1 _ eq_refl) as (v & -> & G). destruct (IHs2 _ eq_refl) as (w & -> & G'). cbn [obnd].
    destruct (idiv_ok _ _ _ _ _ H G G') as (u & Eu & Gu). exists u. split; [|exact Gu]. exact (eq_trans (rdiv_sdiv _ _) Eu).
  - ob H. ob H. destruct (IHs1 _ eq_refl) as (v & -> & G). destruct (IHs2 _ eq_refl) as (w & -> & G'). cbn [obnd].
    destruct (ipow_ok _ _ _ _ _ H G G') as [P Gu]. cbn [Oltb ROps Opow]. rewrite z0R. apply Rltb_true in P as P'. rewrite P'.
    eexists. split; [reflexivity|]. rewrite powR_pos by exact P. exact Gu.
  - ob H. destruct (IHs _ eq_refl) as (v & -> & G). cbn [obnd]. destruct (ipos i0) eqn:P.
    + pose proof (ipos_ok _ _ P G) as Hv. destruct (ipowi_ok _ _ _ _ H G) as (u & Eu & Gu). destruct z; cbn [rpowi] in Eu.
      * injection Eu as <-. eexists. split; [reflexivity|]. rewrite kpow_pow. exact Gu.
      * injection Eu as <-. eexists. split; [reflexivity|]. rewrite kpow_pow. exact Gu.
      * rewrite kpow_pow. exists u. split; [|exact Gu]. refine (eq_trans (rdiv_sdiv _ _) _). rewrite z1R. unfold rdiv, rpow in *.
        destruct (Rlt_dec 0 v); [|lra]. injection Eu as <-. pose proof (pow_lt v (Pos.to_nat p) Hv).
        destruct (Req_EM_T (v ^ Pos.to_nat p) 0); [lra|]. rewrite <- Rpower_pow by exact Hv.
        replace (IZR (Zneg p)) with (- INR (Pos.to_nat p)).
        -- rewrite Rpower_Ropp. unfold Rdiv. now rewrite Rmult_1_l.
        -- rewrite INR_IZR_INZ, positive_nat_Z, <- opp_IZR. reflexivity.
    + destruct z; try discriminate. destruct (ipowi_ok _ _ _ _ H G) as (u & Eu & Gu). cbn [rpowi] in Eu. injection Eu as <-.
      eexists. split; [reflexivity|]. rewrite kpow_pow. exact Gu.
  - ob H. destruct (IHs _ eq_refl) as (v & -> & G). cbn [obnd]. destruct (inn i0) eqn:P; [|discriminate]. injection H as <-.
    pose proof (inn_ok _ _ P G) as Hv. cbn [Oltb ROps]. rewrite z0R. apply Rltb_false in Hv as Hv'. rewrite Hv'. eexists. split; [reflexivity|].
    now apply isqrt_ok.
  - ob H. destruct (IHs _ eq_refl) as (v & -> & G). cbn [obnd]. destruct (ipow_ok _ _ _ v (1 / 3) H G) as [P Gu]; [split; cbn; unfold Q2R; cbn; lra|].
    eexists. split; [reflexivity|]. cbn [Ocbrt ROps]. rewrite cbrtR_pos by exact P. exact Gu.
  - ob H. destruct (IHs _ eq_refl) as (v & -> & G). cbn [obnd]. destruct (ilog_ok _ _ _ H G) as [P Gu]. cbn [Oltb ROps]. rewrite z0R.
    apply Rltb_true in P. rewrite P. eauto.
  - ob H. destruct (IHs _ eq_refl) as (v & -> & G). injection H as <-. eexists. split; [reflexivity|]. now apply iexp_ok.
Qed.

(** ** Expressions *)
Variable inp : nat -> R.
Variable ia : nat -> itv.
Hypothesis Hia : forall i, gam (ia i) (inp i).
Variable fl : fld -> R.
Variable fa : fld -> itv.
Hypothesis Hfa : forall f, gam (fa f) (fl f).
(** Facts about closed subexpressions established by other means. *)
Variable facts : list (expr * itv).
Hypothesis Hfacts : forall e i, In (e, i) facts -> forall r, exists v, reval st inp fl r e = Some v /\ gam i v.
Definition sexp_dec : forall a b : sexp, {a = b} + {a <> b}.
Proof. repeat decide equality. Defined.
Definition expr_dec : forall a b : expr, {a = b} + {a <> b}.
Proof. pose proof sexp_dec. pose proof string_dec. repeat decide equality. Defined.
Fixpoint find_fact (e : expr) (l : list (expr * itv)) : option itv :=
  match l with [] => None | (e', i) :: l' => if expr_dec e e' then Some i else find_fact e l' end.
Lemma find_fact_in e l i : find_fact e l = Some i -> In (e, i) l.
Proof.
  induction l as [|[e' j] l IH]; cbn [find_fact]; [discriminate|]. destruct (expr_dec e e') as [->|]; [intro H; injection H as ->; now left|right; auto].
Qed.
Fixpoint ilook (x : string) (r : list (string * itv)) : option itv :=
  match r with [] => None | (y, v) :: r' => if String.eqb x y then Some v else ilook x r' end.
Definition same_atom (a b : expr) : bool :=
  match a, b with EVar x, EVar y => String.eqb x y | EFld f, EFld g => fld_eqb f g | EIn i, EIn j => Nat.eqb i j | _, _ => false end.
Fixpoint eabs (r : list (string * itv)) (e : expr) : option itv :=
  match e with
  | EIn i => Some (ia i)
  | EFld f => Some (fa f)
  | EVar x => ilook x r
  | EConst s => sabs s
  | ELet x e1 e2 =>
      match find_fact e facts with
      | Some i => Some i
      | None => obnd (eabs r e1) (fun v => eabs ((x, v) :: r) e2)
      end
  | ENeg a => obnd (eabs r a) (fun x => Some (ineg_ x))
  | EAdd a b => ob2 (eabs r a) (eabs r b) (fun x y => Some (iadd x y))
  | ESub a b => ob2 (eabs r a) (eabs r b) (fun x y => Some (isub x y))
  | EMul a b | EMulTo a b => ob2 (eabs r a) (eabs r b) (fun x y => Some (if same_atom a b then isq x else imul x y))
  | EDiv a b => ob2 (eabs r a) (eabs r b) idiv
  | EAddK a s => ob2 (eabs r a) (sabs s) (fun x k => Some (iadd x k))
  | ESubK a s => ob2 (eabs r a) (sabs s) (fun x k => Some (isub x k))
  | EKSub s a => ob2 (sabs s) (eabs r a) (fun k x => Some (isub k x))
  | EScale s a => ob2 (sabs s) (eabs r a) (fun k x => Some (imul k x))
  | EKDiv s a => ob2 (sabs s) (eabs r a) idiv
  | EDivK a s => ob2 (eabs r a) (sabs s) idiv
  | EPow a s => ob2 (eabs r a) (sabs s) ipow
  | EPowI a z => obnd (eabs r a) (fun x => ipowi x z)
  | EFun f a => obnd (eabs r a) (ifn f)
  | EAbs a => obnd (eabs r a) (fun x => Some (iabs x))
  | EMax a b => ob2 (eabs r a) (eabs r b) (fun x y => Some (imax x y))
  | EReg a => obnd (eabs r a) (fun x => Some (imax x (I (Some (TINY, false)) (Some (- TINY, false)%Q))))
  | EBR a => None
  | EIf a b e1 e2 => ob2 (eabs r a) (eabs r b) (fun x y =>
      if ipos (isub y x) then eabs r e1 else if inn (isub x y) then eabs r e2
      else ob2 (eabs r e1) (eabs r e2) (fun u v => Some (ijoin u v)))
  end.
Definition genv (ra : list (string * itv)) (r : list (string * R)) : Prop :=
  Forall2 (fun p q => fst p = fst q /\ gam (snd p) (snd q)) ra r.
Lemma ilook_ok x ra r i : genv ra r -> ilook x ra = Some i -> exists v, rlook x r = Some v /\ gam i v.
Proof.
  induction 1 as [|[y a] [z b] ra r [E G] H IH]; cbn [ilook rlook]; [discriminate|]. cbn [fst snd] in *. subst z.
  destruct (String.eqb x y); [intro X; injection X as <-; eauto|exact IH].
Qed.
Lemma fld_eqb_eq f g : fld_eqb f g = true -> f = g.
Proof. destruct f, g; cbn; intro H; try discriminate; reflexivity. Qed.
Lemma same_atom_ok a b r x y : same_atom a b = true -> reval st inp fl r a = Some x -> reval st inp fl r b = Some y -> x = y.
Proof.
  destruct a, b; cbn [same_atom]; try discriminate; intro H; cbn [reval].
  - apply Nat.eqb_eq in H. subst. congruence.
  - apply fld_eqb_eq in H. subst. congruence.
  - apply String.eqb_eq in H. subst. congruence.
Qed.
Theorem eabs_ok : forall e ra r i, genv ra r -> eabs ra e = Some i -> exists v, reval st inp fl r e = Some v /\ gam i v.
Proof.
  induction e; intros ra r res Hr H; cbn [eabs reval] in *; unfold ob2 in *; try discriminate.
  - injection H as <-. eauto.
  - injection H as <-. eauto.
  - eapply ilook_ok; eassumption.
  - exact (sabs_ok _ _ H).
  - destruct (find_fact (ELet x e1 e2) facts) as [j|] eqn:F.
    { injection H as <-. apply find_fact_in in F. destruct (Hfacts _ _ F r) as (v & E & G). exists v. split; [exact E|exact G]. }
    ob H. destruct (IHe1 _ r _ Hr E) as (v & -> & G). cbn [obnd]. eapply IHe2; [|exact H]. constructor; [|exact Hr]. split; [reflexivity|exact G].
  - ob H. destruct (IHe _ r _ Hr E) as (v & -> & G). injection H as <-. eexists. split; [reflexivity|]. now apply ineg_ok'.
  - ob H. ob H. destruct (IHe1 _ r _ Hr E) as (v & -> & G). destruct (IHe2 _ r _ Hr E0) as (w & -> & G'). injection H as <-. eexists. split; [reflexivity|]. now apply iadd_ok.
  - ob H. ob H. destruct (IHe1 _ r _ Hr E) as (v & -> & G). destruct (IHe2 _ r _ Hr E0) as (w & -> & G'). injection H as <-. eexists. split; [reflexivity|]. now apply isub_ok.
  - ob H. ob H. destruct (IHe1 _ r _ Hr E) as (v & E1 & G). destruct (IHe2 _ r _ Hr E0) as (w & E2 & G').
    injection H as <-. destruct (same_atom e1 e2) eqn:Sa; [pose proof (same_atom_ok _ _ _ _ _ Sa E1 E2); subst w|];
    rewrite E1, E2; eexists; (split; [reflexivity|]); [now apply isq_ok|now apply imul_ok].
  - ob H. ob H. destruct (IHe1 _ r _ Hr E) as (v & E1 & G). destruct (IHe2 _ r _ Hr E0) as (w & E2 & G').
    injection H as <-. destruct (same_atom e1 e2) eqn:Sa; [pose proof (same_atom_ok _ _ _ _ _ Sa E1 E2); subst w|];
    rewrite E1, E2; eexists; (split; [reflexivity|]); [now apply isq_ok|now apply imul_ok].
  - ob H. ob H. destruct (IHe1 _ r _ Hr E) as (v & -> & G). destruct (IHe2 _ r _ Hr E0) as (w & -> & G'). cbn [obnd]. eapply idiv_ok; eassumption.
  - ob H. ob H. destruct (IHe _ r _ Hr E) as (v & -> & G). destruct (sabs_ok _ _ E0) as (w & -> & G'). injection H as <-. eexists. split; [reflexivity|]. now apply iadd_ok.
  - ob H. ob H. destruct (IHe _ r _ Hr E) as (v & -> & G). destruct (sabs_ok _ _ E0) as (w & -> & G'). injection H as <-. eexists. split; [reflexivity|]. now apply isub_ok.
  - ob H. ob H. destruct (IHe _ r _ Hr E0) as (v & -> & G). destruct (sabs_ok _ _ E) as (w & -> & G'). injection H as <-. eexists. split; [reflexivity|]. now apply isub_ok.
  - ob H. ob H. destruct (IHe _ r _ Hr E0) as (v & -> & G). destruct (sabs_ok _ _ E) as (w & -> & G'). injection H as <-. eexists. split; [reflexivity|]. now apply imul_ok.
  - ob H. ob H. destruct (IHe _ r _ Hr E0) as (v & -> & G). destruct (sabs_ok _ _ E) as (w & -> & G'). cbn [obnd]. eapply idiv_ok; eassumption.
  - ob H. ob H. destruct (IHe _ r _ Hr E) as (v & -> & G). destruct (sabs_ok _ _ E0) as (w & -> & G'). cbn [obnd]. eapply idiv_ok; eassumption.
  - ob H. ob H. destruct (IHe _ r _ Hr E) as (v & -> & G). destruct (sabs_ok _ _ E0) as (w & -> & G'). cbn [obnd].
    destruct (ipow_ok _ _ _ _ _ H G G') as [P Gu]. unfold rpow. destruct (Rlt_dec 0 v); [|lra]. eauto.
  - ob H. destruct (IHe _ r _ Hr E) as (v & -> & G). cbn [obnd]. eapply ipowi_ok; eassumption.
  - ob H. destruct (IHe _ r _ Hr E) as (v & -> & G). cbn [obnd]. eapply ifn_ok; eassumption.
  - ob H. destruct (IHe _ r _ Hr E) as (v & -> & G). injection H as <-. eexists. split; [reflexivity|]. now apply iabs_ok.
  - ob H. ob H. destruct (IHe1 _ r _ Hr E) as (v & -> & G). destruct (IHe2 _ r _ Hr E0) as (w & -> & G'). injection H as <-. eexists. split; [reflexivity|]. now apply imax_ok.
  - ob H. destruct (IHe _ r _ Hr E) as (v & -> & G). injection H as <-. eexists. split; [reflexivity|]. apply imax_ok; [exact G|].
    split; cbn [lo up]; apply gb_mk; rewrite ?Q2R_opp; lra.
  - ob H. ob H. destruct (IHe1 _ r _ Hr E) as (v & -> & G). destruct (IHe2 _ r _ Hr E0) as (w & -> & G'). cbn [obnd].
    destruct (ipos (isub i0 i)) eqn:P1; [|destruct (inn (isub i i0)) eqn:P2].
    + pose proof (ipos_ok _ _ P1 (isub_ok _ _ _ _ G' G)). destruct (Rlt_dec v w); [|lra]. eapply IHe3; eassumption.
    + pose proof (inn_ok _ _ P2 (isub_ok _ _ _ _ G G')). destruct (Rlt_dec v w); [lra|]. eapply IHe4; eassumption.
    + ob H. ob H. injection H as <-. destruct (Rlt_dec v w).
      * destruct (IHe3 _ r _ Hr E1) as (u & -> & Gu). eexists. split; [reflexivity|]. now apply ijoin_l.
      * destruct (IHe4 _ r _ Hr E2) as (u & -> & Gu). eexists. split; [reflexivity|]. now apply ijoin_r.
Qed.
End SABS.
