(** * Continuity of all Taylor coefficients

    Evaluation on Taylor numbers is continuous: when the coefficients of the inputs tend to
    limits at which no branch boundary is hit, every coefficient of the result tends to the
    coefficient of the result at the limit.  Orders up to 6, the highest the library accepts. *)
From Coq Require Import Reals QArith Qreals ZArith Arith Lia Lra List Bool String.
From Coquelicot Require Import Coquelicot.
From Verif Require Import Scalar RInst Tables Api CTaylor CtAlg TMath Fps TFam TExp Ad Br Expr Densvars Functionals Eval Sem AdEval EvalR EvalReal Cont.
Import ListNotations.
Local Open Scope outcome_scope.
Local Open Scope R_scope.

(** ** One derivative more than the library computes *)
Definition smooth7 (D : R -> Prop) (f : R -> R) : Prop := exists t, is_fam D 7 t /\ forall x, D x -> t O x = f x.
Lemma expands7 D f e : expands D 7 f e -> smooth7 D f.
Proof. intros (_ & t & A & B & _). exists t. auto. Qed.
Lemma atan7 : smooth7 (fun _ => True) atan.
Proof.
  pose (f := fun (k : nat) (x : R) => inv_coef (K := ROps) x k).
  exists (fun k x => match k with O => atan x | S j => inner_t f j x / INR (S j) end). split; [|reflexivity]. apply fam_int.
  - apply inner_fam with (fun x => x <> 0); [lia|apply inv_fam|apply one_sq].
  - intros x _. eapply is_derive_val; [apply d_atan|]. unfold inner_t, f. cbn. ops. field. apply one_sq.
Qed.
Lemma asinh7 : smooth7 (fun _ => True) arcsinh.
Proof.
  pose (al := - Q2R 0.5). assert (Hal : al = - / 2) by (unfold al, Q2R; cbn; lra).
  pose (f := fun (k : nat) (x : R) => pow_coef (K := ROps) x al k).
  exists (fun k x => match k with O => arcsinh x | S j => inner_t f j x / INR (S j) end). split; [|reflexivity]. apply fam_int.
  - apply inner_fam with (fun x => 0 < x); [lia|apply pow_fam|apply one_sq_pos].
  - intros x _. eapply is_derive_val; [apply d_asinh|]. unfold inner_t, f. cbn. rewrite powR_pos by apply one_sq_pos.
    rewrite Hal, Rpower_Ropp, Rpower_sqrt by apply one_sq_pos. do 2 f_equal. ring.
Qed.
(** The reciprocal g of h satisfies g' = - h' g^2, so that it has as many derivatives as h. *)
Lemma inverse_fam D N h : is_fam D N h -> (forall x, D x -> h O x <> 0) -> forall M, (M <= N)%nat ->
  exists g, is_fam D M g /\ forall x, g O x = / h O x.
Proof.
  intros H Nz. induction M as [|M IH]; intro L.
  - exists (fun _ x => / h O x). split; [|reflexivity]. intros k x Hk. lia.
  - destruct (IH ltac:(lia)) as (g & G & G0).
    assert (H' : is_fam D M (fun k x => INR (S k) * h (S k) x)).
    { intros k x Hk Dx. eapply is_derive_val; [apply (d_scal (h (S k)) (INR (S k))); apply H; [lia|exact Dx]|]. ring. }
    pose proof (fam_mul D M _ _ (fam_scal D M (-1) _ H') (fam_mul D M _ _ G G)) as Q.
    eexists. split; [apply (fam_int D M _ (fun x => / h O x) Q)|reflexivity].
    intros x Dx. eapply is_derive_val; [apply d_inv; [apply H; [lia|exact Dx]|now apply Nz]|]. cbn [cau]. rewrite !G0. cbn [INR]. field. now apply Nz.
Qed.
Lemma pade7 : smooth7 (fun x => polyQ x <> 0) (fun x => polyP x / polyQ x).
Proof.
  assert (S8 : forall c, is_fam (fun x => polyQ x <> 0) 7 (fun k x => tshift (K := ROps) 8 c x k)).
  { intro c. apply fam_le with 8%nat; [lia|]. apply fam_sub with (fun _ => True); [auto|]. apply shift_fam. }
  destruct (inverse_fam _ 7 _ (S8 (tab (K := ROps) padeQ))) with (M := 7%nat) as (g & G & G0); [|lia|].
  - intros x Hx. rewrite shift_poly. exact Hx.
  - eexists. split; [apply (fam_mul _ 7 _ _ (S8 (tab (K := ROps) padeP)) G)|]. intros x Hx. cbn [cau]. rewrite G0, !shift_poly. reflexivity.
Qed.

Section TC.
Context {U : Type} (F : (U -> Prop) -> Prop) {FF : Filter F}.
(** Every coefficient tends. *)
Fixpoint tc (n : nat) : (U -> rct n) -> rct n -> Prop :=
  match n with
  | O => fun u c => tends F u c
  | S m => fun u c => tc m (fun y => fst (u y)) (fst c) /\ tc m (fun y => snd (u y)) (snd c)
  end.
Definition toc n (a : U -> option (rct n)) (c : rct n) : Prop := exists u, F (fun y => a y = Some (u y)) /\ tc n u c.

Lemma tends_eq u u' v : (forall y, u y = u' y) -> tends F u v -> tends F u' v.
Proof. intros E A. exact (tends_ext F u u' v E A). Qed.
Lemma tc_ext n : forall u u' c, (forall y, u y = u' y) -> tc n u c -> tc n u' c.
Proof.
  induction n as [|n IH]; intros u u' c E; cbn [tc]; [now apply tends_eq|].
  intros [A B]. split; (eapply IH; [|eassumption]); intro y; cbn beta; now rewrite E.
Qed.
Lemma tc_c0 n : forall u c, tc n u c -> tends F (fun y => c0 n (u y)) (c0 n c).
Proof. induction n as [|n IH]; intros u c H; cbn [tc c0] in *; [exact H|]. destruct H as [A _]. apply (IH _ _ A). Qed.
Lemma tc_const n : forall (u : U -> R) v, tends F u v -> tc n (fun y => rconst n (u y)) (rconst n v).
Proof.
  induction n as [|n IH]; intros u v H; [exact H|]. rewrite ct_const_S. cbn [tc fst snd]. split.
  - eapply tc_ext; [|apply (IH u v H)]. intro y. now rewrite ct_const_S.
  - eapply tc_ext; [|apply (IH (fun _ => 0) 0); apply tends_const; exact FF]. intro y. now rewrite ct_const_S.
Qed.
Lemma tc_k n v : tc n (fun _ => rconst n v) (rconst n v).
Proof. apply (tc_const n (fun _ => v)). apply tends_const. exact FF. Qed.
Lemma tc_add n : forall u u' c c', tc n u c -> tc n u' c' -> tc n (fun y => ct_add n (u y) (u' y)) (ct_add n c c').
Proof.
  induction n as [|n IH]; intros u u' c c' A B; [now apply tends_add|]. rewrite ct_add_S. destruct A as [A A'], B as [B B']. cbn [tc fst snd]. split.
  - eapply tc_ext; [|apply (IH _ _ _ _ A B)]. intro y. cbn beta. now rewrite ct_add_S.
  - eapply tc_ext; [|apply (IH _ _ _ _ A' B')]. intro y. cbn beta. now rewrite ct_add_S.
Qed.
Lemma tc_pmul n : forall u u' c c', tc n u c -> tc n u' c' -> tc n (fun y => pmul n (u y) (u' y)) (pmul n c c').
Proof.
  induction n as [|n IH]; intros u u' c c' A B; [now apply tends_mul|]. rewrite pmul_S. destruct A as [A A'], B as [B B']. cbn [tc fst snd]. split.
  - eapply tc_ext; [|apply (IH _ _ _ _ A B)]. intro y. cbn beta. now rewrite pmul_S.
  - eapply tc_ext; [|apply tc_add; [apply (IH _ _ _ _ A B')|apply (IH _ _ _ _ A' B)]]. intro y. cbn beta. now rewrite pmul_S.
Qed.
Lemma tc_neg n : forall u c, tc n u c -> tc n (fun y => ct_neg n (u y)) (ct_neg n c).
Proof.
  induction n as [|n IH]; intros u c A; [now apply tends_opp|]. rewrite ct_neg_S. destruct A as [A A']. cbn [tc fst snd]. split.
  - eapply tc_ext; [|apply (IH _ _ A)]. intro y. cbn beta. now rewrite ct_neg_S.
  - eapply tc_ext; [|apply (IH _ _ A')]. intro y. cbn beta. now rewrite ct_neg_S.
Qed.
Lemma tc_sub n u u' c c' : tc n u c -> tc n u' c' -> tc n (fun y => ct_sub n (u y) (u' y)) (ct_sub n c c').
Proof.
  intros A B. rewrite sub_def. eapply tc_ext; [|apply tc_add; [exact A|apply tc_neg; exact B]]. intro y. cbn beta. now rewrite sub_def.
Qed.
Lemma tc_nil n u c : tc n u c -> tc n (fun y => nilpart n (u y)) (nilpart n c).
Proof.
  intro A. rewrite nilpart_sub. eapply tc_ext; [intro y; symmetry; apply nilpart_sub|]. apply tc_sub; [exact A|]. apply tc_const. now apply tc_c0.
Qed.
Lemma tc_hor n u c : tc n u c -> forall m (s : U -> nat -> R) t, (forall k, (k <= m)%nat -> tends F (fun y => s y k) (t k)) ->
  tc n (fun y => hor n (u y) (s y) m) (hor n c t m).
Proof.
  intro A. induction m as [|m IH]; intros s t H; cbn [hor].
  - apply tc_const. apply H. lia.
  - apply tc_add; [apply tc_const; apply H; lia|]. apply tc_pmul; [exact A|]. apply (IH (fun y i => s y (S i)) (fun i => t (S i))). intros k Hk. apply H. lia.
Qed.
Lemma tc_pcomp n u c (s : U -> nat -> R) t : tc n u c -> (forall k, (k <= n)%nat -> tends F (fun y => s y k) (t k)) ->
  tc n (fun y => pcomp n (u y) (s y)) (pcomp n c t).
Proof.
  intros A H. rewrite <- (hor_pcomp n c t n (le_n n)). eapply tc_ext; [intro y; apply (hor_pcomp n (u y) (s y) n (le_n n))|].
  apply tc_hor; [now apply tc_nil|exact H].
Qed.

Lemma toc_some n u c : tc n u c -> toc n (fun y => Some (u y)) c.
Proof. intro H. exists u. split; [now apply filter_forall|exact H]. Qed.
Lemma toc_ext n a b c : F (fun y => a y = b y) -> toc n a c -> toc n b c.
Proof.
  intros E (u & A & B). exists u. split; [|exact B]. generalize (filter_and _ _ E A). apply filter_imp. intros y [Y Z]. congruence.
Qed.

(** Composition with an elementary function. *)
Definition ct1 (n : nat) (op : forall n, rct n -> option (rct n)) : Prop :=
  forall u c d, tc n u c -> op n c = Some d -> toc n (fun y => op n (u y)) d.
Lemma ct1_expands n (op : forall n, rct n -> option (rct n)) D f e :
  (forall N, (N <= 6)%nat -> expands D N f (e N)) -> smooth7 D f -> (n <= 6)%nat ->
  (forall n (t : rct n), op n t = obnd (e n (c0 n t)) (fun c => Some (ct_compose n t c))) -> ct1 n op.
Proof.
  intros X (t & Ft & Et) Hn Ho u c d A E. rewrite Ho in E. destruct (e n (c0 n c)) as [co|] eqn:Ee; [|discriminate]. cbn [obnd] in E.
  injection E as <-. destruct (X n Hn) as (Op & t6 & F6 & T0 & Tc & Td).
  assert (Same : forall k a, (k <= n)%nat -> D a -> t6 k a = t k a).
  { intros k a Hk Da. pose proof (fam_derive_n D n t6 Op F6 k a Hk Da) as A1. pose proof (fam_derive_n D 7 t Op Ft k a ltac:(lia) Da) as A2.
    assert (A3 : is_derive_n (t O) k a (INR (fact k) * t6 k a)).
    { eapply is_derive_n_ext_loc; [|exact A1]. apply filter_imp with D; [|now apply Op]. intros y Dy. now rewrite T0, Et. }
    apply is_derive_n_unique in A2. apply is_derive_n_unique in A3. apply Rmult_eq_reg_l with (INR (fact k)); [|apply INR_fact_neq_0]. now rewrite <- A2. }
  assert (Co : forall a, D a -> exists c', e n a = Some c' /\ forall k, (k <= n)%nat -> c' k = t k a).
  { intros a Da. destruct (Tc a Da) as (c' & E' & H'). exists c'. split; [exact E'|]. intros k Hk. rewrite H' by exact Hk. now apply Same. }
  assert (D0 : D (c0 n c)) by exact (Td _ _ Ee).
  pose proof (tc_c0 n u c A) as T. pose proof (tends_ev F _ _ D T (Op _ D0)) as ND.
  exists (fun y => pcomp n (u y) (fun k => t k (c0 n (u y)))). split.
  - generalize ND. apply filter_imp. intros y Dy. rewrite Ho. destruct (Co _ Dy) as (c' & E' & H'). rewrite E'. cbn [obnd].
    rewrite compose_spec. now rewrite (pcomp_ext n (u y) c' (fun k => t k (c0 n (u y))) H').
  - rewrite compose_spec. destruct (Co _ D0) as (c' & E' & H'). rewrite Ee in E'. injection E' as <-.
    rewrite (pcomp_ext n c co (fun k => t k (c0 n c)) H').
    apply (tc_pcomp n u c (fun y k => t k (c0 n (u y))) (fun k => t k (c0 n c)) A). intros k Hk.
    apply (tends1 F _ _ (t k) T). eapply cont_d. apply Ft; [lia|exact D0].
Qed.

Section PRIM.
Variable n : nat.
Hypothesis Hn : (n <= 6)%nat.
Lemma c_exp : ct1 n (fun n (t : rct n) => Some (ct_exp n t)).
Proof. eapply ct1_expands; [intros N _; apply exp_expands|eapply expands7; apply exp_expands|exact Hn|reflexivity]. Qed.
Lemma c_log : ct1 n (fun n (t : rct n) => ct_log n t).
Proof. eapply (ct1_expands n _ _ _ (fun _ => _)); [intros N _; apply log_expands|eapply expands7; apply log_expands|exact Hn|reflexivity]. Qed.
Lemma c_sqrt : ct1 n (fun n (t : rct n) => ct_sqrt n t).
Proof. eapply (ct1_expands n _ _ _ (fun _ => _)); [intros N _; apply sqrt_expands|eapply expands7; apply sqrt_expands|exact Hn|reflexivity]. Qed.
Lemma c_cbrt : ct1 n (fun n (t : rct n) => ct_cbrt n t).
Proof. eapply (ct1_expands n _ _ _ (fun _ => _)); [intros N _; apply cbrt_expands|eapply expands7; apply cbrt_expands|exact Hn|reflexivity]. Qed.
Lemma c_pow (k : R) : ct1 n (fun n (t : rct n) => @ct_pow ROps n t k).
Proof. eapply (ct1_expands n _ _ _ (fun _ => _)); [intros N _; apply (pow_expands k)|eapply expands7; apply (pow_expands k)|exact Hn|reflexivity]. Qed.
Lemma c_erf : ct1 n (fun n (t : rct n) => Some (ct_erf n t)).
Proof. eapply (ct1_expands n _ _ _ (fun _ => _)); [intros N _; apply erf_expands|eapply expands7; apply erf_expands|exact Hn|reflexivity]. Qed.
Lemma c_atan : ct1 n (fun n (t : rct n) => ct_atan n t).
Proof. eapply ct1_expands; [intros N HN; apply atan_expands; exact HN|apply atan7|exact Hn|reflexivity]. Qed.
Lemma c_asinh : ct1 n (fun n (t : rct n) => ct_asinh n t).
Proof. eapply ct1_expands; [intros N HN; apply asinh_expands; exact HN|apply asinh7|exact Hn|reflexivity]. Qed.
Lemma c_pade : ct1 n (fun n (t : rct n) => obnd (pade_expand (K := ROps) n (c0 n t)) (fun c => Some (ct_compose n t c))).
Proof. eapply ct1_expands; [intros N HN; apply pade_expands; exact HN|apply pade7|exact Hn|reflexivity]. Qed.
Lemma c_inv : ct1 n (fun n (t : rct n) => obnd (inv_expand (K := ROps) (c0 n t)) (fun c => Some (ct_compose n t c))).
Proof. eapply (ct1_expands n _ _ _ (fun _ => _)); [intros N _; apply inv_expands|eapply expands7; apply inv_expands|exact Hn|reflexivity]. Qed.
Lemma c_expm1 : ct1 n (fun n (t : rct n) => Some (ct_expm1 n t)).
Proof.
  eapply (ct1_expands n _ (fun _ => True) (fun x => exp x + -1) (fun _ a => Some (expm1_coef a))); [|eapply expands7; eapply expands_add0 with (e' := fun a => Some (expm1_coef a)); [apply exp_expands| |discriminate]; intros a c E; injection E as <-;
    eexists; split; [reflexivity|]; split; [rewrite expm1_coef0; cbn; lra|reflexivity]|exact Hn|].
  - intros N _. eapply expands_add0; [apply exp_expands| |discriminate]. intros a c E. injection E as <-.
    eexists. split; [reflexivity|]. split; [|reflexivity]. rewrite expm1_coef0. cbn. lra.
  - intros. cbn [obnd]. now rewrite expm1_eq.
Qed.
Lemma c_kdiv (k : R) : ct1 n (fun n (t : rct n) => @ct_kdiv ROps n k t).
Proof.
  eapply (ct1_expands n _ _ _ (fun _ => _)); [intros N _; eapply expands_scal; apply inv_expands|eapply expands7; eapply expands_scal; apply inv_expands|exact Hn|].
  intros n0 t. unfold ct_kdiv. destruct (inv_expand _); reflexivity.
Qed.
Lemma c_div u u' c c' d : tc n u c -> tc n u' c' -> ct_div n c c' = Some d -> toc n (fun y => ct_div n (u y) (u' y)) d.
Proof.
  intros A B E. unfold ct_div in E. destruct (inv_expand (c0 n c')) as [co|] eqn:Ei; [|discriminate]. cbn [obnd] in E.
  injection E as <-. destruct (c_inv u' c' (ct_compose n c' co) B) as (k & Nk & Tk); [now rewrite Ei|].
  exists (fun y => pmul n (k y) (u y)). split.
  - generalize Nk. apply filter_imp. intros y. unfold ct_div. destruct (inv_expand (c0 n (u' y))); cbn [obnd]; [|discriminate].
    intro E. injection E as E. f_equal. rewrite multo_spec. now rewrite E.
  - rewrite multo_spec. now apply tc_pmul.
Qed.
Lemma tc_iter u c j : tc n u c -> tc n (fun y => Nat.iter j (fun r => ct_multo n r (u y)) (u y)) (Nat.iter j (fun r => ct_multo n r c) c).
Proof.
  intro A. induction j as [|j IH]; [exact A|]. simpl Nat.iter. rewrite multo_spec.
  eapply tc_ext; [|apply (tc_pmul n _ _ _ _ IH A)]. intro y. cbn beta. now rewrite multo_spec.
Qed.
Lemma c_powi z : ct1 n (fun n (t : rct n) => ct_powi n t z).
Proof.
  intros u c d A E. unfold ct_powi in *. destruct (Z.ltb 0 z).
  - injection E as <-. apply toc_some. now apply tc_iter.
  - destruct (Z.ltb z 0); [exact (c_pow _ u c d A E)|]. injection E as <-. apply toc_some. apply tc_k.
Qed.
Lemma c_sqas u c d : tc n u c -> c0 n c <> / 2 -> ct_sqrtx_asinh_sqrtx n c = Some d -> toc n (fun y => ct_sqrtx_asinh_sqrtx n (u y)) d.
Proof.
  intros A H E. unfold ct_sqrtx_asinh_sqrtx in *. revert E. cbn [Oltb ROps OofQ Oopp].
  replace (Q2R 0.5) with (/ 2) by (unfold Q2R; cbn; lra). pose proof (tc_c0 n u c A) as T.
  destruct (Rltb (- / 2) (c0 n c)) eqn:E1; [|discriminate]. apply Rltb_true in E1.
  pose proof (tends_ev F _ _ (fun x => - / 2 < x) T (open_gt _ _ E1)) as O1.
  assert (Fb : forall x, - / 2 < x -> (Rltb (fabs (K := ROps) x) (/ 2) = true <-> x < / 2)).
  { intros x Hx. unfold fabs. cbn [Oltb ROps OofQ Oopp]. rewrite Q2R_0. destruct (Rltb x 0) eqn:Ex.
    - apply Rltb_true in Ex. rewrite Rltb_true. lra.
    - rewrite Rltb_true. lra. }
  destruct (Rltb (fabs (K := ROps) (c0 n c)) (/ 2)) eqn:E2.
  - apply Fb in E2; [|exact E1]. intro E. pose proof (tends_ev F _ _ (fun x => x < / 2) T (open_lt _ _ E2)) as O2.
    eapply toc_ext; [|exact (c_pade u c d A E)].
    generalize (filter_and _ _ O1 O2). apply filter_imp. intros y [Z1 Z2]. apply Rltb_true in Z1 as Z1'. rewrite Z1'. apply Fb in Z2; [|exact Z1]. now rewrite Z2.
  - assert (H2 : / 2 < c0 n c).
    { destruct (Rlt_dec (c0 n c) (/ 2)) as [L|L]; [apply Fb in L; [congruence|exact E1]|lra]. }
    pose proof (tends_ev F _ _ (fun x => / 2 < x) T (open_gt _ _ H2)) as O2.
    destruct (ct_sqrt n c) as [s|] eqn:Es; cbn [obnd]; [|discriminate].
    destruct (ct_asinh n s) as [s'|] eqn:Es'; cbn [obnd]; [|discriminate]. intro E. injection E as <-.
    destruct (c_sqrt u c s A Es) as (k & Nk & Tk). destruct (c_asinh k s s' Tk Es') as (k' & Nk' & Tk').
    exists (fun y => ct_mul n (k y) (k' y)). split.
    + generalize (filter_and _ _ (filter_and _ _ Nk Nk') (filter_and _ _ O1 O2)). apply filter_imp.
      intros y ((Ez & Ez') & Z1 & Z2). apply Rltb_true in Z1 as Z1'. rewrite Z1'.
      destruct (Rltb (fabs (K := ROps) (c0 n (u y))) (/ 2)) eqn:E3; [apply Fb in E3; lra|].
      cbn beta in Ez, Ez'. rewrite Ez. cbn [obnd]. rewrite Ez'. reflexivity.
    + unfold ct_mul. rewrite mulset_spec. eapply tc_ext; [|apply (tc_pmul n _ _ _ _ Tk Tk')]. intro y. cbn beta. now rewrite mulset_spec.
Qed.
End PRIM.

(** ** Expressions *)
Section EV.
Variable n : nat.
Hypothesis Hn : (n <= 6)%nat.
Variable st : nat -> T ROps.
Variable inp : U -> nat -> rct n.
Variable inp0 : nat -> rct n.
Hypothesis Hinp : forall i, tc n (fun y => inp y i) (inp0 i).

Definition cenv : Type := list (string * (U -> rct n) * rct n).
Definition cat (l : cenv) (y : U) : Expr.env (K := ROps) n := map (fun p => (fst (fst p), snd (fst p) y)) l.
Definition clim (l : cenv) : Expr.env (K := ROps) n := map (fun p => (fst (fst p), snd p)) l.
Definition cgood (l : cenv) : Prop := forall p, In p l -> tc n (snd (fst p)) (snd p).
Lemma clook x : forall l v, cgood l -> lookup n x (clim l) = Some v -> toc n (fun y => lookup n x (cat l y)) v.
Proof.
  induction l as [|[[m u] w] l IH]; intros v G E; cbn [lookup clim cat map fst snd] in *; [discriminate|].
  destruct (String.eqb x m).
  - injection E as <-. apply toc_some. exact (G _ (or_introl eq_refl)).
  - apply IH; [|exact E]. intros p Hp. apply G. now right.
Qed.
Section FL.
Variable fl : U -> fld -> rct n.
Variable fl0 : fld -> rct n.
Hypothesis Hfl : forall f, tc n (fun y => fl y f) (fl0 f).
Notation ev0 r := (eval (K := ROps) st 0 (fun i => c0 n (inp0 i)) (fun f => c0 n (fl0 f)) (@emap n 0 (c0 n) r)).
Notation reg r := (regular st (fun i => c0 n (inp0 i)) (fun f => c0 n (fl0 f)) (@emap n 0 (c0 n) r)).
Lemma low0 r e v : eval st n inp0 fl0 r e = Some v -> ev0 r e = Some (c0 n v).
Proof. intro E. rewrite (eval_hom n 0 (c0 n) ltac:(lia) ltac:(lia) (hom_c0_0 n) st inp0 fl0 e r). now rewrite E. Qed.

Theorem eval_tends : forall e l c, cgood l -> reg (clim l) e -> eval st n inp0 fl0 (clim l) e = Some c ->
  toc n (fun y => eval st n (inp y) (fl y) (cat l y) e) c.
Proof.
  induction e; intros l c G Hreg E; cbn [eval] in E |- *; cbn [regular] in Hreg;
    repeat match goal with H : _ /\ _ |- _ => destruct H end;
    repeat match goal with
    | I : forall l c, cgood l -> _ -> eval st n inp0 fl0 (clim l) ?a = Some c -> _,
      X : obnd (eval st n inp0 fl0 (clim ?l) ?a) _ = Some _, H : regular _ _ _ _ ?a |- _ =>
        let v := fresh "v" in let u := fresh "u" in let T := fresh "Tu" in let N := fresh "Nu" in let Ev := fresh "Ev" in
        destruct (eval st n inp0 fl0 (clim l) a) as [v|] eqn:Ev; [|discriminate];
        destruct (I l v G H Ev) as (u & N & T); apply low0 in Ev; cbn [obnd] in X; clear H
    | X : obnd (seval st ?s) _ = Some _ |- _ =>
        let k := fresh "k" in destruct (seval st s) as [k|]; [|discriminate]; cbn [obnd] in X
    end;
    try match goal with
    | X : Some _ = Some _ |- _ => injection X as X; subst
    end.
  - apply toc_some, Hinp.
  - apply toc_some, Hfl.
  - now apply clook.
  - apply toc_some, tc_k.
  - (* let *)
    match goal with G : forall v, _ -> regular _ _ _ _ e2 |- _ => specialize (G _ Ev); rename G into Hb end.
    pose proof (IHe2 ((x, u, v) :: l) c) as I2. cbn [clim cat map fst snd] in I2.
    eapply toc_ext; [|apply I2; [|exact Hb|exact E]].
    + generalize Nu. apply filter_imp. intros y ->. reflexivity.
    + intros p [<-|Hp]; [exact Tu|now apply G].
  - eapply toc_ext; [|apply toc_some; apply tc_neg; exact Tu]. generalize Nu. apply filter_imp. intros y ->. reflexivity.
  - eapply toc_ext; [|apply toc_some; apply tc_add; [exact Tu|exact Tu0]]. generalize (filter_and _ _ Nu Nu0). apply filter_imp. intros y [-> ->]. reflexivity.
  - eapply toc_ext; [|apply toc_some; apply tc_sub; [exact Tu|exact Tu0]]. generalize (filter_and _ _ Nu Nu0). apply filter_imp. intros y [-> ->]. reflexivity.
  - unfold ct_mul. rewrite mulset_spec. eapply toc_ext; [|apply toc_some; apply tc_pmul; [exact Tu|exact Tu0]]. generalize (filter_and _ _ Nu Nu0). apply filter_imp. intros y [-> ->]. cbn [obnd]. now rewrite mulset_spec.
  - rewrite multo_spec. eapply toc_ext; [|apply toc_some; apply tc_pmul; [exact Tu|exact Tu0]]. generalize (filter_and _ _ Nu Nu0). apply filter_imp. intros y [-> ->]. cbn [obnd]. now rewrite multo_spec.
  - eapply toc_ext; [|exact (c_div n Hn _ _ _ _ _ Tu Tu0 E)]. generalize (filter_and _ _ Nu Nu0). apply filter_imp. intros y [-> ->]. reflexivity.
  - rewrite addk_spec. eapply toc_ext; [|apply toc_some; apply tc_add; [apply tc_k|exact Tu]]. generalize Nu. apply filter_imp. intros y ->. cbn [obnd]. now rewrite addk_spec.
  - rewrite subk_spec. eapply toc_ext; [|apply toc_some; apply tc_sub; [exact Tu|apply tc_k]]. generalize Nu. apply filter_imp. intros y ->. cbn [obnd]. now rewrite subk_spec.
  - rewrite ksub_spec. eapply toc_ext; [|apply toc_some; apply tc_sub; [apply tc_k|exact Tu]]. generalize Nu. apply filter_imp. intros y ->. cbn [obnd]. now rewrite ksub_spec.
  - rewrite scale_spec. eapply toc_ext; [|apply toc_some; apply tc_pmul; [apply tc_k|exact Tu]]. generalize Nu. apply filter_imp. intros y ->. cbn [obnd]. now rewrite scale_spec.
  - eapply toc_ext; [|exact (c_kdiv n Hn k _ _ _ Tu E)]. generalize Nu. apply filter_imp. intros y ->. reflexivity.
  - unfold ct_divk in E |- *. destruct (Oeqb k _) eqn:Ek; [discriminate|]. injection E as <-.
    rewrite scaleto_spec. eapply toc_ext; [|apply toc_some; apply tc_pmul; [apply tc_k|exact Tu]]. generalize Nu. apply filter_imp. intros y ->. cbn [obnd]. rewrite Ek. now rewrite scaleto_spec.
  - eapply toc_ext; [|exact (c_pow n Hn k _ _ _ Tu E)]. generalize Nu. apply filter_imp. intros y ->. reflexivity.
  - eapply toc_ext; [|exact (c_powi n Hn z _ _ _ Tu E)]. generalize Nu. apply filter_imp. intros y ->. reflexivity.
  - (* functions *)
    assert (Hg : reg (clim l) e) by (destruct f; (exact Hreg || apply Hreg)).
    destruct (eval st n inp0 fl0 (clim l) e) as [v|] eqn:Ev; [|discriminate]. cbn [obnd] in E.
    destruct (IHe l v G Hg Ev) as (u & Nu & Tu). apply low0 in Ev.
    assert (X : toc n (fun y => fn_eval (K := ROps) n f (u y)) c).
    { destruct f; cbn [fn_eval] in *.
      - exact (c_exp n Hn u v c Tu E).
      - exact (c_expm1 n Hn u v c Tu E).
      - exact (c_log n Hn u v c Tu E).
      - exact (c_sqrt n Hn u v c Tu E).
      - exact (c_cbrt n Hn u v c Tu E).
      - exact (c_erf n Hn u v c Tu E).
      - exact (c_atan n Hn u v c Tu E).
      - exact (c_asinh n Hn u v c Tu E).
      - apply (c_sqas n Hn u v c Tu); [|exact E]. exact (proj2 Hreg _ Ev). }
    eapply toc_ext; [|exact X]. generalize Nu. apply filter_imp. intros y ->. reflexivity.
  - (* abs *)
    assert (C0 : c0 n v <> 0) by (match goal with G : forall v, _ -> v <> 0 |- _ => exact (G _ Ev) end). pose proof (tc_c0 n _ _ Tu) as T.
    unfold ct_abs. cbn [Oltb OofQ ROps]. rewrite Q2R_0. destruct (Rltb (c0 n v) 0) eqn:L.
    + apply Rltb_true in L. pose proof (tends_ev F _ _ (fun x => x < 0) T (open_lt _ _ L)) as O.
      eapply toc_ext; [|apply toc_some; apply tc_neg; exact Tu]. generalize (filter_and _ _ Nu O). apply filter_imp. intros y [-> Z]. cbn [obnd]. now rewrite (Rltb_lt _ _ Z).
    + apply Rltb_false in L. assert (L' : 0 < c0 n v) by lra. pose proof (tends_ev F _ _ (fun x => 0 < x) T (open_gt _ _ L')) as O.
      eapply toc_ext; [|apply toc_some; exact Tu]. generalize (filter_and _ _ Nu O). apply filter_imp. intros y [-> Z]. cbn [obnd]. now rewrite Rltb_ge by lra.
  - (* max *)
    assert (C0 : c0 n v <> c0 n v0) by (match goal with G : forall v w, _ -> _ -> v <> w |- _ => exact (G _ _ Ev Ev0) end).
    assert (Td : tends F (fun y => c0 n (u y) - c0 n (u0 y)) (c0 n v - c0 n v0)) by (apply tends_sub; [exact FF|now apply tc_c0|now apply tc_c0]).
    unfold ct_max. cbn [Oltb ROps]. destruct (Rltb (c0 n v0) (c0 n v)) eqn:L.
    + apply Rltb_true in L. assert (L' : 0 < c0 n v - c0 n v0) by lra. pose proof (tends_ev F _ _ (fun x => 0 < x) Td (open_gt _ _ L')) as O.
      eapply toc_ext; [|apply toc_some; exact Tu]. generalize (filter_and _ _ Nu (filter_and _ _ Nu0 O)). apply filter_imp. intros y (-> & -> & Z). cbn [obnd]. now rewrite Rltb_lt by lra.
    + apply Rltb_false in L. assert (L' : c0 n v - c0 n v0 < 0) by lra. pose proof (tends_ev F _ _ (fun x => x < 0) Td (open_lt _ _ L')) as O.
      eapply toc_ext; [|apply toc_some; exact Tu0]. generalize (filter_and _ _ Nu (filter_and _ _ Nu0 O)). apply filter_imp. intros y (-> & -> & Z). cbn [obnd]. now rewrite Rltb_ge by lra.
  - (* regularize *)
    assert (C0 : Q2R TINY < c0 n v) by (match goal with G : forall v, _ -> Q2R TINY < v |- _ => exact (G _ Ev) end). pose proof (tc_c0 n _ _ Tu) as T.
    unfold ct_reg. cbn [Oltb ROps OofQ]. rewrite (Rltb_ge (c0 n v)) by lra.
    pose proof (tends_ev F _ _ (fun x => Q2R TINY < x) T (open_gt _ _ C0)) as O.
    eapply toc_ext; [|apply toc_some; exact Tu]. generalize (filter_and _ _ Nu O). apply filter_imp. intros y [-> Z]. cbn [obnd]. now rewrite Rltb_ge by lra.
  - contradiction.
  - (* if *)
    match goal with G : forall v w, _ -> _ -> _ /\ _ |- _ => destruct (G _ _ Ev Ev0) as (C0 & Hl & Hg) end.
    assert (Td : tends F (fun y => c0 n (u y) - c0 n (u0 y)) (c0 n v - c0 n v0)) by (apply tends_sub; [exact FF|now apply tc_c0|now apply tc_c0]).
    cbn [Oltb ROps] in E. destruct (Rltb (c0 n v) (c0 n v0)) eqn:L.
    + apply Rltb_true in L. assert (L' : c0 n v - c0 n v0 < 0) by lra. pose proof (tends_ev F _ _ (fun x => x < 0) Td (open_lt _ _ L')) as O.
      eapply toc_ext; [|exact (IHe3 l c G (Hl L) E)]. generalize (filter_and _ _ Nu (filter_and _ _ Nu0 O)). apply filter_imp. intros y (-> & -> & Z). cbn [obnd Oltb ROps]. now rewrite Rltb_lt by lra.
    + apply Rltb_false in L. assert (L' : 0 < c0 n v - c0 n v0) by lra. pose proof (tends_ev F _ _ (fun x => 0 < x) Td (open_gt _ _ L')) as O.
      assert (L2 : c0 n v0 < c0 n v) by lra.
      eapply toc_ext; [|exact (IHe4 l c G (Hg L2) E)]. generalize (filter_and _ _ Nu (filter_and _ _ Nu0 O)). apply filter_imp. intros y (-> & -> & Z). cbn [obnd Oltb ROps]. now rewrite Rltb_ge by lra.
Qed.
End FL.

Lemma run_tends : forall p (fl : U -> fld -> rct n) (fl0 w : fld -> rct n), (forall f, tc n (fun y => fl y f) (fl0 f)) ->
  regular_run st (fun i => c0 n (inp0 i)) (fun f => c0 n (fl0 f)) p -> run st n inp0 fl0 p = Some w ->
  exists fw : U -> fld -> rct n, F (fun y => run st n (inp y) (fl y) p = Some (fw y)) /\ forall f, tc n (fun y => fw y f) (w f).
Proof.
  induction p as [|[g e] p IH]; intros fl fl0 w Fl B E; cbn [run regular_run] in *.
  - injection E as <-. exists fl. split; [now apply filter_forall|exact Fl].
  - destruct B as [B1 B2]. destruct (eval st n inp0 fl0 [] e) as [v|] eqn:Ev; [|discriminate]. cbn [obnd] in E.
    destruct (eval_tends fl fl0 Fl e [] v ltac:(intros q []) B1 Ev) as (u & A & Tu). cbn [cat map] in A.
    destruct (IH (fun y => fupd (K := ROps) n (fl y) g (u y)) (fupd (K := ROps) n fl0 g v) w) as (fw & Aw & Tw); [| |exact E|].
    + intro f. unfold fupd. destruct (fld_eqb f g); [exact Tu|apply Fl].
    + specialize (B2 _ (low0 fl0 [] e v Ev)).
      replace (fun f => c0 n (fupd (K := ROps) n fl0 g v f)) with (fupd (K := ROps) 0 (fun f => c0 n (fl0 f)) g (c0 n v)); [exact B2|].
      apply FunctionalExtensionality.functional_extensionality. intro f. unfold fupd. now destruct (fld_eqb f g).
    + exists fw. split; [|exact Tw]. generalize (filter_and _ _ A Aw). apply filter_imp. intros y [-> Y]. exact Y.
Qed.
End EV.

(** ** The energy *)
Theorem energy_tends n (h : handle ROps) (d : U -> nat -> rct n) (d0 : nat -> rct n) out : (n <= 6)%nat -> (forall i, tc n (fun y => d y i) (d0 i)) ->
  smooth h (fun i => c0 n (d0 i)) -> energy h n d0 (czero n) = Ok out ->
  exists u, F (fun y => energy h n (d y) (czero n) = Ok (u y)) /\ tc n u out.
Proof.
  intros Hn Hd. unfold smooth, energy, densvars. destruct (dv_prog (h_vars h)) as [p|]; [|discriminate]. intros [S1 S2].
  destruct (run (h_settings h) n d0 (dv_init n) p) as [fl0|] eqn:Er; cbn [of_option obind]; [|discriminate].
  assert (I0 : @dv_init ROps 0 = fun f => c0 n (@dv_init ROps n f)) by exact (dv_init_hom n 0 (c0 n) (hom_c0_0 n)).
  destruct (run_tends n Hn (h_settings h) d d0 Hd p (fun _ => dv_init n) (dv_init n) fl0) as (fl & Nf & Tf).
  - intro f. unfold dv_init. apply tc_k.
  - rewrite I0 in S1. exact S1.
  - exact Er.
  - assert (R0 : run (K := ROps) (h_settings h) 0 (fun i => c0 n (d0 i)) (dv_init 0) p = Some (fun f => c0 n (fl0 f))).
    { rewrite I0. rewrite (run_hom n 0 (c0 n) ltac:(lia) ltac:(lia) (hom_c0_0 n)). now rewrite Er. }
    specialize (S2 _ R0). intro Es.
    assert (X : forall l w0 out0, (forall id, In id l -> In id (h_active h)) -> tc n w0 out0 ->
      ofold (fun out id => e <- fp id ;; v <- of_option (eval (h_settings h) n d0 fl0 [] e) ;;
        Ok (ct_add n out (ct_scale n (h_settings h id) v))) out0 l = Ok out ->
      exists u : U -> rct n, F (fun y =>
        ofold (fun out id => e <- fp id ;; v <- of_option (eval (h_settings h) n (d y) (fl y) [] e) ;;
        Ok (ct_add n out (ct_scale n (h_settings h id) v))) (w0 y) l = Ok (u y)) /\ tc n u out).
    { induction l as [|id l IH]; intros w0 out0 Hl T0 E; cbn [ofold] in E |- *.
      - injection E as <-. exists w0. split; [now apply filter_forall|exact T0].
      - unfold fp in E |- *. destruct (nth_error functionals id) as [[nm e]|] eqn:Ef; cbn [obind snd] in E |- *; [|discriminate].
        destruct (eval (h_settings h) n d0 fl0 [] e) as [v|] eqn:Ev; cbn [of_option obind] in E; [|discriminate].
        destruct (eval_tends n Hn (h_settings h) d d0 Hd fl fl0 Tf e [] v ltac:(intros q [])
                    (S2 id nm e (Hl id (or_introl eq_refl)) Ef) Ev) as (g & Ng & Tg). cbn [cat map] in Ng.
        set (k := h_settings h id : R) in *.
        destruct (IH (fun y => ct_add n (w0 y) (@ct_scale ROps n k (g y))) (ct_add n out0 (@ct_scale ROps n k v))) as (u & Nu & Tu).
        + intros; apply Hl; now right.
        + apply tc_add; [exact T0|]. rewrite scale_spec. eapply tc_ext; [|apply tc_pmul; [apply (tc_k n k)|exact Tg]]. intro y. cbn beta. now rewrite scale_spec.
        + exact E.
        + exists u. split; [|exact Tu]. generalize (filter_and _ _ Ng Nu). apply filter_imp.
          intros z [Z1 Z2]. rewrite Z1. cbn [of_option obind]. exact Z2. }
    destruct (X (h_active h) (fun _ => czero n) (czero n)) as (u & Nu & Tu).
    + auto.
    + rewrite czero_eq. apply tc_k.
    + exact Es.
    + exists u. split; [|exact Tu]. generalize (filter_and _ _ Nf Nu). apply filter_imp.
      intros z [Z1 Z2]. rewrite Z1. cbn [of_option obind]. exact Z2.
Qed.
End TC.
