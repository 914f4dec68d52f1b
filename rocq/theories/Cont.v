(** * Continuity of the real semantics

    An expression without a branch, without the two-branch function [Fsqas] and without the
    root finder is continuous wherever it is defined, jointly in the inputs, and defined in a
    neighbourhood of every such point. *)
From Coq Require Import Reals QArith Qreals ZArith Arith Lia Lra List Bool String.
From Coquelicot Require Import Coquelicot.
From Verif Require Import Scalar RInst Tables Api CTaylor CtAlg TMath TExp Br Expr Densvars Functionals Eval RSem Sem AdEval Taint EnergyR.
Import ListNotations.
Local Open Scope R_scope.

(** No comparison, no [Fsqas], no root finder. *)
Fixpoint unbroken (e : expr) : bool :=
  match e with
  | EIn _ | EFld _ | EVar _ | EConst _ => true
  | ELet _ a b | EAdd a b | ESub a b | EMul a b | EMulTo a b | EDiv a b | EMax a b => andb (unbroken a) (unbroken b)
  | ENeg a | EAddK a _ | ESubK a _ | EKSub _ a | EScale _ a | EKDiv _ a | EDivK a _ | EPow a _ | EPowI a _ | EAbs a | EReg a => unbroken a
  | EFun Fsqas _ => false
  | EFun _ a => unbroken a
  | EBR _ | EIf _ _ _ _ => false
  end.

Section FILTER.
Context {U : Type} (F : (U -> Prop) -> Prop) {FF : Filter F}.
Definition tends (u : U -> R) (v : R) : Prop := filterlim u F (locally v).
(** A partial quantity that is defined eventually, with limit [v]. *)
Definition topt (a : U -> option R) (v : R) : Prop := exists u, F (fun y => a y = Some (u y)) /\ tends u v.
(** A partial function that is defined near [v] and continuous there, with value [w]. *)
Definition okat (g : R -> option R) (v w : R) : Prop :=
  exists k : R -> R, locally v (fun x => g x = Some (k x)) /\ continuous k v /\ k v = w.

Lemma tends_const v : tends (fun _ => v) v.
Proof. apply filterlim_const. Qed.
Lemma topt_some u v : tends u v -> topt (fun y => Some (u y)) v.
Proof. intro H. exists u. split; [now apply filter_forall|exact H]. Qed.
Lemma topt_ext a b v : F (fun y => a y = b y) -> topt a v -> topt b v.
Proof.
  intros E (u & A & B). exists u. split; [|exact B]. generalize (filter_and _ _ E A). apply filter_imp. intros y [Y Z]. congruence.
Qed.
Lemma topt1 a v g w : topt a v -> okat g v w -> topt (fun y => obnd (a y) g) w.
Proof.
  intros (u & A & B) (k & L & C & <-). exists (fun y => k (u y)). split.
  - pose proof (B _ L) as D. unfold filtermap in D. generalize (filter_and _ _ A D). apply filter_imp. intros y [-> Y]. exact Y.
  - unfold tends in *. eapply filterlim_comp; [exact B|exact C].
Qed.
Lemma topt2 a b v w (g : R -> R -> option R) z (k : R -> R -> R) : topt a v -> topt b w ->
  (forall u u', tends u v -> tends u' w -> F (fun y => g (u y) (u' y) = Some (k (u y) (u' y))) /\ tends (fun y => k (u y) (u' y)) z) ->
  topt (fun y => obnd (a y) (fun x => obnd (b y) (fun x' => g x x'))) z.
Proof.
  intros (u & A & B) (u' & A' & B') H. destruct (H u u' B B') as [G L]. exists (fun y => k (u y) (u' y)). split; [|exact L].
  generalize (filter_and _ _ A (filter_and _ _ A' G)). apply filter_imp. intros y [-> [-> Y]]. exact Y.
Qed.
Lemma tends_add u u' v w : tends u v -> tends u' w -> tends (fun y => u y + u' y) (v + w).
Proof. intros A B. unfold tends. eapply filterlim_comp_2; [exact A|exact B|]. exact (filterlim_plus v w). Qed.
Lemma tends_opp u v : tends u v -> tends (fun y => - u y) (- v).
Proof. intros A. unfold tends. eapply filterlim_comp; [exact A|]. exact (filterlim_opp v). Qed.
Lemma tends_sub u u' v w : tends u v -> tends u' w -> tends (fun y => u y - u' y) (v - w).
Proof. intros A B. apply (tends_add u (fun y => - u' y)); [exact A|now apply tends_opp]. Qed.
Lemma tends_mul u u' v w : tends u v -> tends u' w -> tends (fun y => u y * u' y) (v * w).
Proof. intros A B. unfold tends. eapply filterlim_comp_2; [exact A|exact B|]. exact (filterlim_mult v w). Qed.
Lemma tends1 u v (k : R -> R) : tends u v -> continuous k v -> tends (fun y => k (u y)) (k v).
Proof. intros A C. unfold tends. eapply filterlim_comp; [exact A|exact C]. Qed.
Lemma tends_ev u v (P : R -> Prop) : tends u v -> locally v P -> F (fun y => P (u y)).
Proof. intros A L. exact (A _ L). Qed.
Lemma tends_abs u v : tends u v -> tends (fun y => Rabs (u y)) (Rabs v).
Proof. intro A. apply (tends1 u v Rabs A). apply continuous_Rabs. Qed.
Lemma max_form a b : Rmax a b = (a + b + Rabs (a - b)) / 2.
Proof. unfold Rmax, Rabs. destruct (Rle_dec a b), (Rcase_abs (a - b)); lra. Qed.
Lemma tends_ext u u' v : (forall y, u y = u' y) -> tends u v -> tends u' v.
Proof. intros E A. unfold tends in *. eapply filterlim_ext; [exact E|exact A]. Qed.
Lemma tends_max u u' v w : tends u v -> tends u' w -> tends (fun y => Rmax (u y) (u' y)) (Rmax v w).
Proof.
  intros A B. rewrite max_form. eapply tends_ext; [intro y; symmetry; apply max_form|].
  unfold Rdiv. apply tends_mul; [|apply tends_const]. apply tends_add; [now apply tends_add|]. apply tends_abs. now apply tends_sub.
Qed.
End FILTER.

Lemma nz_near v : v <> 0 -> locally v (fun x => x <> 0).
Proof.
  intro H. assert (P : 0 < Rabs v) by now apply Rabs_pos_lt. exists (mkposreal _ P). intros x B E. subst x.
  unfold ball in B. cbn in B. unfold AbsRing_ball, abs, minus, plus, opp in B. cbn in B. rewrite Rplus_0_l, Rabs_Ropp in B. lra.
Qed.
Lemma pos_near v : 0 < v -> locally v (fun x => 0 < x).
Proof. intro H. apply (open_gt 0 v). exact H. Qed.
Lemma okat_total (k : R -> R) v : continuous k v -> okat (fun x => Some (k x)) v (k v).
Proof. intro C. exists k. split; [now apply filter_forall|]. split; [exact C|reflexivity]. Qed.
Lemma cont_d (k : R -> R) v d : is_derive k v d -> continuous k v.
Proof. intro H. apply (ex_derive_continuous (K := R_AbsRing) (V := R_NormedModule)). now exists d. Qed.
Lemma okat_rpow v a w : rpow v a = Some w -> okat (fun x => rpow x a) v w.
Proof.
  unfold rpow. destruct (Rlt_dec 0 v) as [H|]; [|discriminate]. intro E. injection E as <-. exists (fun x => Rpower x a). split.
  - generalize (pos_near v H). apply filter_imp. intros x X. destruct (Rlt_dec 0 x); [reflexivity|contradiction].
  - split; [|reflexivity]. apply (cont_d _ _ (a * Rpower v (a - 1))). apply is_derive_Reals. now apply derivable_pt_lim_power.
Qed.
Lemma okat_rpowi v z w : rpowi v z = Some w -> okat (fun x => rpowi x z) v w.
Proof.
  destruct z as [|p|p]; cbn [rpowi]; intro E; [injection E as <-|injection E as <-|now apply okat_rpow].
  - apply (okat_total (fun _ => 1)). apply continuous_const.
  - apply (okat_total (fun x => x ^ Pos.to_nat p)). eapply cont_d. apply is_derive_Reals. apply derivable_pt_lim_pow.
Qed.
Lemma okat_rfn f v w : f <> Fsqas -> rfn f v = Some w -> okat (rfn f) v w.
Proof.
  intros N E. destruct f; cbn [rfn] in *; try (injection E as <-).
  - apply (okat_total exp). eapply cont_d. apply is_derive_exp.
  - apply (okat_total (fun x => exp x - 1)). eapply cont_d. auto_derive; [exact Logic.I|reflexivity].
  - destruct (Rlt_dec 0 v) as [H|]; [|discriminate]. injection E as <-. exists ln. split.
    + generalize (pos_near v H). apply filter_imp. intros x X. cbn [rfn]. destruct (Rlt_dec 0 x); [reflexivity|contradiction].
    + split; [|reflexivity]. eapply cont_d. now apply is_derive_ln.
  - destruct (Rlt_dec 0 v) as [H|]; [|discriminate]. injection E as <-. exists sqrt. split.
    + generalize (pos_near v H). apply filter_imp. intros x X. cbn [rfn]. destruct (Rlt_dec 0 x); [reflexivity|contradiction].
    + split; [|reflexivity]. apply continuous_sqrt.
  - now apply okat_rpow.
  - apply (okat_total erfR). eapply cont_d. apply d_erf.
  - apply (okat_total atan). eapply cont_d. apply is_derive_atan.
  - apply (okat_total arcsinh). eapply cont_d. apply d_asinh.
  - contradiction.
Qed.

Lemma poly_cont n t x : continuous (peval_seq n t) x.
Proof.
  induction n as [|n IH]; cbn [peval_seq]; [apply continuous_const|]. apply (continuous_plus (peval_seq n t) (fun y => t (S n) * y ^ S n)); [exact IH|].
  eapply cont_d. auto_derive; [exact Logic.I|reflexivity].
Qed.
Lemma okat_sqas v w : v <> / 2 -> rsqas v = Some w -> okat rsqas v w.
Proof.
  intros N. unfold rsqas. destruct (Rlt_dec (- / 2) v) as [L|]; [|discriminate]. destruct (Rlt_dec v (/ 2)) as [M|M]; intro E.
  - unfold rdiv in E. destruct (Req_EM_T (polyQ v) 0) as [|Z]; [discriminate|]. injection E as <-. exists (fun x => polyP x / polyQ x). split.
    + generalize (filter_and _ _ (open_gt _ _ L) (filter_and _ _ (open_lt _ _ M) (open_polyQ v Z))). apply filter_imp. intros x (X1 & X2 & X3).
      unfold rsqas. destruct (Rlt_dec (- / 2) x); [|contradiction]. destruct (Rlt_dec x (/ 2)); [|contradiction]. unfold rdiv.
      destruct (Req_EM_T (polyQ x) 0); [contradiction|reflexivity].
    + split; [|reflexivity]. unfold Rdiv. apply (continuous_mult polyP (fun x => / polyQ x)); [apply poly_cont|].
      apply (continuous_comp polyQ Rinv); [apply poly_cont|]. eapply cont_d. apply is_derive_inv; [apply is_derive_id|exact Z].
  - injection E as <-. exists (fun x => sqrt x * arcsinh (sqrt x)). assert (H : / 2 < v) by lra. split.
    + generalize (open_gt _ _ H). apply filter_imp. intros x X. unfold rsqas. destruct (Rlt_dec (- / 2) x); [|lra]. destruct (Rlt_dec x (/ 2)); [lra|reflexivity].
    + split; [|reflexivity]. apply (continuous_mult sqrt (fun x => arcsinh (sqrt x))); [apply continuous_sqrt|].
      apply (continuous_comp sqrt arcsinh); [apply continuous_sqrt|]. eapply cont_d. apply d_asinh.
Qed.

Section SETTLED.
Variable st : nat -> T ROps.
Variable inp : nat -> R.
Variable fl : fld -> R.
(** No comparison is met with both sides equal, on the path taken. *)
Fixpoint settled (r : list (string * R)) (e : expr) : Prop :=
  match e with
  | EIn _ | EFld _ | EVar _ | EConst _ => True
  | ELet x a b => settled r a /\ forall v, reval st inp fl r a = Some v -> settled ((x, v) :: r) b
  | EAdd a b | ESub a b | EMul a b | EMulTo a b | EDiv a b | EMax a b => settled r a /\ settled r b
  | ENeg a | EAddK a _ | ESubK a _ | EKSub _ a | EScale _ a | EKDiv _ a | EDivK a _ | EPow a _ | EPowI a _ | EAbs a | EReg a => settled r a
  | EFun Fsqas a => settled r a /\ reval st inp fl r a <> Some (/ 2)
  | EFun _ a => settled r a
  | EBR _ => False
  | EIf a b e1 e2 => settled r a /\ settled r b /\ forall v w, reval st inp fl r a = Some v -> reval st inp fl r b = Some w ->
      v <> w /\ (v < w -> settled r e1) /\ (w < v -> settled r e2)
  end.
Lemma s_if r a b e1 e2 : settled r a -> settled r b -> (forall v w, reval st inp fl r a = Some v -> reval st inp fl r b = Some w ->
      v <> w /\ (v < w -> settled r e1) /\ (w < v -> settled r e2)) -> settled r (EIf a b e1 e2).
Proof. exact (fun A B C => conj A (conj B C)). Qed.
Lemma s_let r x a b : settled r a -> (forall v, reval st inp fl r a = Some v -> settled ((x, v) :: r) b) -> settled r (ELet x a b).
Proof. exact (@conj _ _). Qed.
Lemma s_sqas r a : settled r a -> (forall v, reval st inp fl r a = Some v -> v <> / 2) -> settled r (EFun Fsqas a).
Proof. intros A B. split; [exact A|]. intro E. exact (B _ E eq_refl). Qed.
Lemma s_add r a b : settled r a -> settled r b -> settled r (EAdd a b). Proof. exact (@conj _ _). Qed.
Lemma s_sub r a b : settled r a -> settled r b -> settled r (ESub a b). Proof. exact (@conj _ _). Qed.
Lemma s_mul r a b : settled r a -> settled r b -> settled r (EMul a b). Proof. exact (@conj _ _). Qed.
Lemma s_div r a b : settled r a -> settled r b -> settled r (EDiv a b). Proof. exact (@conj _ _). Qed.
Lemma s_scale r k a : settled r a -> settled r (EScale k a). Proof. exact (fun A => A). Qed.
Lemma s_addk r k a : settled r a -> settled r (EAddK a k). Proof. exact (fun A => A). Qed.
Lemma s_ksub r k a : settled r a -> settled r (EKSub k a). Proof. exact (fun A => A). Qed.
Lemma s_divk r k a : settled r a -> settled r (EDivK a k). Proof. exact (fun A => A). Qed.
Lemma s_neg r a : settled r a -> settled r (ENeg a). Proof. exact (fun A => A). Qed.
Lemma unbroken_settled : forall e r, unbroken e = true -> settled r e.
Proof.
  induction e; intros r B; cbn [unbroken settled] in *; try exact Logic.I; try discriminate; try (apply andb_true_iff in B; destruct B as [B1 B2]); auto.
  destruct f; auto; discriminate.
Qed.
End SETTLED.
(** Splits [settled] at the operations of an expression; leaves the comparisons. *)
Ltac stl := match goal with |- settled ?st ?x ?fl ?r ?e =>
  let b := eval vm_compute in (unbroken e) in
  match b with
  | true => apply unbroken_settled; vm_cast_no_check (eq_refl true)
  | false =>
    let e' := eval hnf in e in
    match e' with
    | EIf _ _ _ _ => refine (s_if st x fl r _ _ _ _ _ _ _); [stl|stl|intros ? ? ? ?]
    | ELet _ _ _ => refine (s_let st x fl r _ _ _ _ _); [stl|intros ? ?; stl]
    | EFun Fsqas _ => refine (s_sqas st x fl r _ _ _); [stl|intros ? ?]
    | EAdd _ _ => refine (s_add st x fl r _ _ _ _); [stl|stl]
    | ESub _ _ => refine (s_sub st x fl r _ _ _ _); [stl|stl]
    | EMul _ _ => refine (s_mul st x fl r _ _ _ _); [stl|stl]
    | EDiv _ _ => refine (s_div st x fl r _ _ _ _); [stl|stl]
    | EScale _ _ => refine (s_scale st x fl r _ _ _); stl
    | EAddK _ _ => refine (s_addk st x fl r _ _ _); stl
    | EKSub _ _ => refine (s_ksub st x fl r _ _ _); stl
    | EDivK _ _ => refine (s_divk st x fl r _ _ _); stl
    | ENeg _ => refine (s_neg st x fl r _ _); stl
    end
  end end.
Lemma settled_clean st x x' cf fl fl' : (forall f, cf f = true -> fl f = fl' f) -> forall e r, clean (fun _ => false) cf e = true ->
  settled st x fl r e -> settled st x' fl' r e.
Proof.
  intros F. assert (R := reval_clean st x x' cf fl fl' F).
  induction e; intros r C; cbn [clean] in C; rewrite ?andb_true_iff in C; repeat match goal with X : _ /\ _ |- _ => destruct X end; cbn [settled]; try tauto; auto.
  - intros [A B]. split; [auto|]. intros v Ev. rewrite <- R in Ev by assumption. auto.
  - intros [A B]; auto.
  - intros [A B]; auto.
  - intros [A B]; auto.
  - intros [A B]; auto.
  - intros [A B]; auto.
  - destruct f; auto. intros [A B]. split; [auto|]. now rewrite <- R.
  - intros [A B]; auto.
  - intros (A & B & D). split; [auto|]. split; [auto|]. intros v w Ev Ew. rewrite <- R in Ev, Ew by assumption. destruct (D v w Ev Ew) as (D1 & D2 & D3). auto.
Qed.

Section SEM.
Context {U : Type} (F : (U -> Prop) -> Prop) {FF : Filter F}.
Variable st : nat -> T ROps.
Variables (inp : U -> nat -> R) (inp0 : nat -> R).
Hypothesis Inp : forall i, tends F (fun y => inp y i) (inp0 i).

Definition env : Type := list (string * (U -> R) * R).
Definition at_ (l : env) (y : U) : list (string * R) := map (fun p => (fst (fst p), snd (fst p) y)) l.
Definition lim (l : env) : list (string * R) := map (fun p => (fst (fst p), snd p)) l.
Definition goodenv (l : env) : Prop := forall p, In p l -> tends F (snd (fst p)) (snd p).

Lemma rlook_tends x : forall l v, goodenv l -> rlook x (lim l) = Some v -> topt F (fun y => rlook x (at_ l y)) v.
Proof.
  induction l as [|[[n u] w] l IH]; intros v G E; cbn [rlook lim at_ map fst snd] in *; [discriminate|].
  destruct (String.eqb x n).
  - injection E as <-. apply topt_some; [exact FF|]. exact (G _ (or_introl eq_refl)).
  - apply IH; [|exact E]. intros p Hp. apply G. now right.
Qed.

Ltac bindE E v :=
  match type of E with obnd ?a _ = Some _ => let H := fresh "E" in destruct a as [v|] eqn:H; cbn [obnd] in E; [|discriminate] end.
Theorem reval_tends (fl : U -> fld -> R) (fl0 : fld -> R) : (forall f, tends F (fun y => fl y f) (fl0 f)) ->
  forall e l v, settled st inp0 fl0 (lim l) e -> goodenv l -> reval st inp0 fl0 (lim l) e = Some v -> topt F (fun y => reval st (inp y) (fl y) (at_ l y) e) v.
Proof.
  intro Fl. induction e; intros l v B G E; cbn [settled] in B; try contradiction; cbn [reval] in E |- *;
    try match type of B with _ /\ _ => destruct B as [B1 B2] end.
  - injection E as <-. now apply topt_some.
  - injection E as <-. apply topt_some; [exact FF|apply Fl].
  - now apply rlook_tends.
  - exists (fun _ => v). split; [now apply filter_forall|]. apply tends_const. exact FF.
  - bindE E v1. destruct (IHe1 l v1 B1 G E0) as (u1 & A1 & T1).
    pose proof (IHe2 ((x, u1, v1) :: l) v (B2 v1 eq_refl)) as I2. cbn [lim at_ map fst snd] in I2.
    eapply topt_ext; [exact FF| |apply I2; [|exact E]].
    + generalize A1. apply filter_imp. intros y ->. reflexivity.
    + intros p [<-|Hp]; [exact T1|now apply G].
  - bindE E v1. injection E as <-. eapply topt1; [exact FF|apply IHe; eassumption|]. apply (okat_total (fun x => - x)). exact (filterlim_opp v1).
  - bindE E v1. bindE E v2. injection E as <-. eapply (topt2 F _ _ v1 v2 _ _ Rplus); [eauto|eauto|]. intros u u' A A'. split; [now apply filter_forall|now apply tends_add].
  - bindE E v1. bindE E v2. injection E as <-. eapply (topt2 F _ _ v1 v2 _ _ Rminus); [eauto|eauto|]. intros u u' A A'. split; [now apply filter_forall|now apply tends_sub].
  - bindE E v1. bindE E v2. injection E as <-. eapply (topt2 F _ _ v1 v2 _ _ Rmult); [eauto|eauto|]. intros u u' A A'. split; [now apply filter_forall|now apply tends_mul].
  - bindE E v1. bindE E v2. injection E as <-. eapply (topt2 F _ _ v1 v2 _ _ Rmult); [eauto|eauto|]. intros u u' A A'. split; [now apply filter_forall|now apply tends_mul].
  - bindE E v1. bindE E v2. unfold rdiv in E. destruct (Req_EM_T v2 0) as [|Nz]; [discriminate|]. injection E as <-.
    eapply (topt2 F _ _ v1 v2 _ _ Rdiv); [eauto|eauto|]. intros u u' A A'. split.
    + generalize (tends_ev F _ _ _ A' (nz_near _ Nz)). apply filter_imp. intros y Y. unfold rdiv. destruct (Req_EM_T (u' y) 0); [contradiction|reflexivity].
    + unfold Rdiv. apply tends_mul; [exact FF|exact A|]. apply (tends1 F _ _ Rinv A'). eapply cont_d. apply is_derive_inv; [apply is_derive_id|exact Nz].
  - bindE E v1. bindE E k. injection E as <-. eapply topt1; [exact FF|apply IHe; eassumption|]. cbn [obnd]. apply (okat_total (fun x => x + k)).
    eapply cont_d. auto_derive; [exact Logic.I|reflexivity].
  - bindE E v1. bindE E k. injection E as <-. eapply topt1; [exact FF|apply IHe; eassumption|]. cbn [obnd]. apply (okat_total (fun x => x - k)).
    eapply cont_d. auto_derive; [exact Logic.I|reflexivity].
  - bindE E k. bindE E v1. injection E as <-. cbn [obnd]. eapply topt1; [exact FF|apply IHe; eassumption|]. apply (okat_total (fun x => k - x)).
    eapply cont_d. auto_derive; [exact Logic.I|reflexivity].
  - bindE E k. bindE E v1. injection E as <-. cbn [obnd]. eapply topt1; [exact FF|apply IHe; eassumption|]. apply (okat_total (fun x => k * x)).
    eapply cont_d. auto_derive; [exact Logic.I|reflexivity].
  - bindE E k. bindE E v1. unfold rdiv in E. destruct (Req_EM_T v1 0) as [|Nz]; [discriminate|]. injection E as <-. cbn [obnd].
    eapply topt1; [exact FF|apply IHe; eassumption|]. exists (fun x => k / x). split.
    + generalize (nz_near _ Nz). apply filter_imp. intros x X. unfold rdiv. destruct (Req_EM_T x 0); [contradiction|reflexivity].
    + split; [|reflexivity]. eapply cont_d. auto_derive; [exact Nz|reflexivity].
  - bindE E v1. bindE E k. unfold rdiv in E. destruct (Req_EM_T k 0) as [|Nz] eqn:Ek; [discriminate|]. injection E as <-. cbn [obnd].
    eapply topt1; [exact FF|apply IHe; eassumption|]. exists (fun x => x / k). split.
    + apply filter_forall. intro x. unfold rdiv. now rewrite Ek.
    + split; [|reflexivity]. eapply cont_d. auto_derive; [exact Logic.I|reflexivity].
  - bindE E v1. bindE E k. cbn [obnd]. eapply topt1; [exact FF|apply IHe; eassumption|]. now apply okat_rpow.
  - bindE E v1. eapply topt1; [exact FF|apply IHe; eassumption|]. now apply okat_rpowi.
  - bindE E v1. eapply topt1; [exact FF| |].
    + apply IHe; [|exact G|exact E0]. destruct f; tauto.
    + destruct f; try (apply okat_rfn; [discriminate|exact E]). apply okat_sqas; [|exact E]. intros ->. now apply (proj2 B).
  - bindE E v1. injection E as <-. eapply topt1; [exact FF|apply IHe; eassumption|]. apply (okat_total Rabs). apply continuous_Rabs.
  - bindE E v1. bindE E v2. injection E as <-. eapply (topt2 F _ _ v1 v2 _ _ Rmax); [eauto|eauto|]. intros u u' A A'. split; [now apply filter_forall|now apply tends_max].
  - bindE E v1. injection E as <-. eapply topt1; [exact FF|apply IHe; eassumption|]. apply (okat_total (fun x => Rmax x (Q2R TINY))).
    apply (tends_max (locally v1) (fun x => x) (fun _ => Q2R TINY) v1 (Q2R TINY)); [apply filterlim_id|apply filterlim_const].
  - destruct B2 as [B2 B3]. bindE E v1. bindE E v2. destruct (B3 v1 v2 eq_refl eq_refl) as (N & S1 & S2).
    destruct (IHe1 l v1 B1 G E0) as (u1 & A1 & T1). destruct (IHe2 l v2 B2 G E1) as (u2 & A2 & T2).
    assert (Td : tends F (fun y => u2 y - u1 y) (v2 - v1)) by now apply tends_sub. destruct (Rlt_dec v1 v2) as [L|L].
    + pose proof (tends_ev F _ _ _ Td (pos_near (v2 - v1) ltac:(lra))) as Q.
      eapply topt_ext; [exact FF| |exact (IHe3 l v (S1 L) G E)].
      generalize (filter_and _ _ A1 (filter_and _ _ A2 Q)). apply filter_imp. intros y (-> & -> & Y). cbn [obnd]. destruct (Rlt_dec (u1 y) (u2 y)); [reflexivity|lra].
    + assert (L' : v2 < v1) by lra. assert (Lc : locally (v2 - v1) (fun x => x < 0)) by (apply (open_lt 0); lra).
      pose proof (tends_ev F _ _ _ Td Lc) as Q.
      eapply topt_ext; [exact FF| |exact (IHe4 l v (S2 L') G E)].
      generalize (filter_and _ _ A1 (filter_and _ _ A2 Q)). apply filter_imp. intros y (-> & -> & Y). cbn [obnd]. destruct (Rlt_dec (u1 y) (u2 y)); [lra|reflexivity].
Qed.

Lemma rrun_tends : forall p (fl : U -> fld -> R) (fl0 w : fld -> R), (forall f, tends F (fun y => fl y f) (fl0 f)) ->
  forallb (fun q => unbroken (snd q)) p = true -> rrun st inp0 fl0 p = Some w ->
  exists fw : U -> fld -> R, F (fun y => rrun st (inp y) (fl y) p = Some (fw y)) /\ forall f, tends F (fun y => fw y f) (w f).
Proof.
  induction p as [|[g e] p IH]; intros fl fl0 w Fl B E; cbn [rrun forallb snd] in *.
  - injection E as <-. exists fl. split; [now apply filter_forall|exact Fl].
  - apply andb_true_iff in B. destruct B as [B1 B2]. bindE E v.
    destruct (reval_tends fl fl0 Fl e [] v (unbroken_settled _ _ _ e [] B1) ltac:(intros q []) E0) as (u & A & Tu). cbn [at_ map] in A.
    destruct (IH (fun y => rfupd (fl y) g (u y)) (rfupd fl0 g v) w) as (fw & Aw & Tw); [|exact B2|exact E|].
    + intro f. unfold rfupd. destruct (fld_eqb f g); [exact Tu|apply Fl].
    + exists fw. split; [|exact Tw]. generalize (filter_and _ _ A Aw). apply filter_imp. intros y [-> Y]. exact Y.
Qed.
Lemma rsum_tends (fl : U -> fld -> R) (fl0 : fld -> R) : (forall f, tends F (fun y => fl y f) (fl0 f)) ->
  forall l v, (forall i nm e, In i l -> nth_error functionals i = Some (nm, e) -> settled st inp0 fl0 [] e) ->
  rsum st inp0 fl0 l = Some v -> topt F (fun y => rsum st (inp y) (fl y) l) v.
Proof.
  intros Fl. induction l as [|i l IH]; intros v H E; cbn [rsum] in *.
  - injection E as <-. apply topt_some; [exact FF|]. apply tends_const. exact FF.
  - destruct (nth_error functionals i) as [[nm e]|] eqn:N; [|discriminate]. bindE E x. bindE E s. injection E as <-.
    pose proof (reval_tends fl fl0 Fl e [] x (H i nm e (or_introl eq_refl) N) ltac:(intros q []) E0) as A. cbn [at_ map] in A.
    eapply (topt2 F _ _ x s _ _ (fun a b => st i * a + b)); [exact A|apply IH; [intros; eapply H; [right|]; eassumption|reflexivity]|].
    intros u u' B B'. split; [now apply filter_forall|]. apply tends_add; [exact FF| |exact B'].
    apply (tends1 F u x (fun a => st i * a) B). eapply cont_d. auto_derive; [exact Logic.I|reflexivity].
Qed.
End SEM.

(** Inputs close to [x] in every coordinate. *)
Definition nearby (d : R) (x y : nat -> R) : Prop := forall i, Rabs (y i - x i) < d.
Definition around (x : nat -> R) (P : (nat -> R) -> Prop) : Prop := exists d, 0 < d /\ forall y, nearby d x y -> P y.
Global Instance around_filter x : Filter (around x).
Proof.
  split.
  - exists 1. split; [lra|]. auto.
  - intros P Q (d & D & H) (d' & D' & H'). exists (Rmin d d'). split; [now apply Rmin_pos|].
    intros y Y. split; [apply H|apply H']; intro i; specialize (Y i); [pose proof (Rmin_l d d')|pose proof (Rmin_r d d')]; lra.
  - intros P Q I (d & D & H). exists d. split; [exact D|]. auto.
Qed.
Lemma around_coord x i : tends (around x) (fun y => y i) (x i).
Proof.
  intros P [d H]. exists d. split; [apply cond_pos|]. intros y Y. apply H. exact (Y i).
Qed.
Lemma dv_unbroken v p : dv_prog v = Some p -> forallb (fun q => unbroken (snd q)) p = true.
Proof.
  unfold dv_prog. destruct (dv_switch v) as [q|] eqn:E; [|discriminate]. intro H. injection H as <-. rewrite forallb_app.
  apply andb_true_iff. split; [|vm_compute; reflexivity]. unfold dv_switch in E.
  repeat match type of E with (if ?b then _ else _) = _ => destruct b end; try discriminate; injection E as <-; vm_compute; reflexivity.
Qed.
(** The order-0 energy of the library is continuous in all its inputs. *)
Theorem energy_continuous (h : handle ROps) p x e :
  dv_prog (h_vars h) = Some p -> (forall i, In i (h_active h) -> (i < 78)%nat) ->
  (forall fl i nm f, rrun (h_settings h) x (fun _ => 0) p = Some fl -> In i (h_active h) -> nth_error functionals i = Some (nm, f) -> settled (h_settings h) x fl [] f) ->
  energy h 0 x (czero 0) = Ok (e : rct 0) ->
  forall eps, 0 < eps -> exists d, 0 < d /\ forall y, nearby d x y -> exists e', energy h 0 y (czero 0) = Ok (e' : rct 0) /\ Rabs (e' - e) < eps.
Proof.
  intros E L B He eps P. rewrite (energy0 h x p E L) in He.
  destruct (rrun (h_settings h) x (fun _ => 0) p) as [fl0|] eqn:R0; [|discriminate].
  destruct (rsum (h_settings h) x fl0 (h_active h)) as [s|] eqn:S0; [|discriminate]. assert (e = s) by congruence. subst s.
  destruct (rrun_tends (around x) (h_settings h) (fun y => y) x (around_coord x) p (fun _ _ => 0) (fun _ => 0) fl0) as (fl & A & Tf);
    [intro; apply tends_const; apply around_filter|now apply (dv_unbroken (h_vars h))|exact R0|].
  destruct (rsum_tends (around x) (h_settings h) (fun y => y) x (around_coord x) fl fl0 Tf (h_active h) e (fun i nm f => B fl0 i nm f eq_refl) S0) as (u & A' & Tu).
  pose proof (Tu (fun z => Rabs (z - e) < eps)) as C.
  assert (Lc : locally e (fun z => Rabs (z - e) < eps)) by (exists (mkposreal eps P); intros z Hz; exact Hz). specialize (C Lc).
  unfold filtermap in C. destruct (filter_and _ _ A (filter_and _ _ A' C)) as (d & D & H). exists d. split; [exact D|].
  intros y Y. destruct (H y Y) as (H1 & H2 & H3). exists (u y). split; [|exact H3]. rewrite (energy0 h y p E L), H1, H2. reflexivity.
Qed.
