(** * The energy as a weighted sum over the active functionals *)
From Coq Require Import Reals QArith Qreals ZArith Arith Lia Lra List Bool String Permutation.
From Coquelicot Require Import Coquelicot.
From Verif Require Import Scalar RInst Tables Api SpecApi ApiProofs ApiProofs2 CTaylor CtAlg TMath Fps TFam TExp Ad Br Expr Densvars Functionals
  Eval Sem AdEval SpecEval Layout EvalSem EvalProps Taint EvalExt EvalR EvalReal EvalApi Props_Eval PotSlots VarsRel.
Import ListNotations.
Local Open Scope outcome_scope.
Local Open Scope R_scope.

(** The energy of functional i alone, with weight one. *)
Definition solo (h : handle ROps) (i : nat) (n : nat) (d : nat -> rct n) : outcome (rct n) :=
  fl <- densvars (h_settings h) n (h_vars h) d ;; e <- fp i ;; of_option (eval (h_settings h) n d fl [] e).
Definition csum (n : nat) (F : nat -> rct n) (l : list nat) : rct n := fold_right (fun i s => ct_add n (F i) s) (czero n) l.
Definition term (h : handle ROps) n (f : nat -> rct n) (i : nat) : rct n := @ct_scale ROps n (h_settings h i) (f i).

Lemma csum_app n F l i : csum n F (l ++ [i]) = ct_add n (csum n F l) (F i).
Proof.
  induction l as [|j l IH]; cbn [csum app fold_right]; [rewrite rct_add_0l; apply rct_add_0r|].
  change (fold_right _ _ (l ++ [i])) with (csum n F (l ++ [i])). rewrite IH. symmetry. apply rct_add_assoc.
Qed.
Lemma csum_perm n F l l' : Permutation l l' -> csum n F l = csum n F l'.
Proof.
  induction 1; cbn [csum fold_right]; try congruence.
  - f_equal. exact IHPermutation.
  - rewrite <- !rct_add_assoc. f_equal. apply add_comm.
Qed.
Lemma csum_ext n F F' l : (forall i, In i l -> F i = F' i) -> csum n F l = csum n F' l.
Proof.
  induction l as [|i l IH]; intro H; cbn [csum fold_right]; [reflexivity|]. rewrite H by now left. f_equal. apply IH. intros; apply H; now right.
Qed.
Section LIN.
Variable h : handle ROps.
Variable n : nat.
Variable d : nat -> rct n.
Lemma sum_fold fl : forall l acc e,
  ofold (fun out id => e <- fp id ;; v <- of_option (eval (h_settings h) n d fl [] e) ;;
         Ok (ct_add n out (ct_scale n (h_settings h id) v))) acc l = Ok e ->
  exists f, (forall i, In i l -> (e <- fp i ;; of_option (eval (h_settings h) n d fl [] e)) = Ok (f i)) /\
    e = ct_add n acc (csum n (term h n f) l).
Proof.
  induction l as [|i l IH]; intros acc e; cbn [ofold].
  - intro H. injection H as <-. exists (fun _ => czero n). split; [intros i []|]. cbn [csum fold_right]. now rewrite rct_add_0r.
  - destruct (fp i) as [x| | |] eqn:Ef; cbn [obind]; try discriminate.
    destruct (eval (h_settings h) n d fl [] x) as [v|] eqn:Ev; cbn [of_option obind]; try discriminate.
    intro H. destruct (IH _ _ H) as (f & Hf & ->). exists (fun j => if Nat.eqb j i then v else f j). split.
    + intros j Hj. destruct (Nat.eqb_spec j i) as [->|Ne]; [rewrite Ef; cbn [obind]; rewrite Ev; reflexivity|].
      destruct Hj as [->|Hj]; [congruence|now apply Hf].
    + cbn [csum fold_right]. rewrite rct_add_assoc. f_equal. unfold term at 2. rewrite Nat.eqb_refl. f_equal.
      apply csum_ext. intros j Hj. unfold term. destruct (Nat.eqb_spec j i) as [->|Ne]; [|reflexivity]. f_equal.
      specialize (Hf i Hj). rewrite Ef in Hf. cbn [obind] in Hf. rewrite Ev in Hf. cbn in Hf. congruence.
Qed.
Lemma sum_fold_ok fl f : forall l acc,
  (forall i, In i l -> (e <- fp i ;; of_option (eval (h_settings h) n d fl [] e)) = Ok (f i)) ->
  ofold (fun out id => e <- fp id ;; v <- of_option (eval (h_settings h) n d fl [] e) ;;
         Ok (ct_add n out (ct_scale n (h_settings h id) v))) acc l = Ok (ct_add n acc (csum n (term h n f) l)).
Proof.
  induction l as [|i l IH]; intros acc H; cbn [ofold].
  - cbn [csum fold_right]. now rewrite rct_add_0r.
  - pose proof (H i (or_introl eq_refl)) as Hi. destruct (fp i) as [x| | |]; cbn [obind] in *; try discriminate.
    rewrite Hi. cbn [obind]. rewrite IH by (intros; apply H; now right). f_equal. cbn [csum fold_right]. now rewrite <- rct_add_assoc.
Qed.
Lemma energy_terms e : energy h n d (czero n) = Ok e ->
  exists f, (forall i, In i (h_active h) -> solo h i n d = Ok (f i)) /\ e = csum n (term h n f) (h_active h).
Proof.
  unfold energy, solo. destruct (densvars _ _ _ _) as [fl| | |]; cbn [obind]; try discriminate. intro H.
  destruct (sum_fold _ _ _ _ H) as (f & Hf & ->). exists f. split; [exact Hf|]. apply rct_add_0l.
Qed.
Lemma energy_of_terms f : h_active h <> [] -> (forall i, In i (h_active h) -> solo h i n d = Ok (f i)) ->
  energy h n d (czero n) = Ok (csum n (term h n f) (h_active h)).
Proof.
  intros N H. unfold energy, solo in *. destruct (densvars _ _ _ _) as [fl| | |]; cbn [obind] in *.
  2-4: destruct (h_active h) as [|i l]; [congruence|]; specialize (H i (or_introl eq_refl)); discriminate.
  unfold energy_sum. rewrite (sum_fold_ok fl f); [now rewrite rct_add_0l|exact H].
Qed.
End LIN.

(** A handle holding functional i only, with weight one and the same parameters. *)
Lemma solo_alone (h g : handle ROps) i n d : h_vars g = h_vars h -> h_active g = [i] -> h_settings g i = 1 ->
  (forall k, (78 <= k < 82)%nat -> h_settings g k = h_settings h k) ->
  energy g n d (czero n) = solo h i n d.
Proof.
  intros V A W P. unfold energy, densvars, solo, densvars. rewrite V. destruct (dv_prog (h_vars h)) as [p|] eqn:E; [|reflexivity].
  rewrite (run_st _ _ P n d p _ (dv_prog_epar _ _ E)). destruct (run _ n d _ p) as [fl|]; cbn [of_option obind]; [|reflexivity].
  unfold energy_sum. rewrite A. cbn [ofold]. unfold fp.
  destruct (nth_error functionals i) as [[nm e]|] eqn:Ef; cbn [obind snd]; [|reflexivity].
  pose proof (proj1 (forallb_forall _ _) functionals_epar _ (nth_error_In _ _ Ef)) as He. cbn [snd] in He.
  rewrite (eval_st _ _ P n d fl e [] He). destruct (eval _ n d fl [] e) as [x|]; cbn [of_option obind]; [|reflexivity].
  rewrite rct_add_0l, W, scale_spec. f_equal. apply (pmul_1 n x).
Qed.
(** Permuting the active list. *)
Lemma energy_perm (h h' : handle ROps) n d out : ready h -> ready h' -> h_vars h' = h_vars h -> Permutation (h_active h) (h_active h') ->
  (forall i, In i (h_active h) \/ (78 <= i < 82)%nat -> h_settings h' i = h_settings h i) ->
  energy h' n d out = energy h n d out.
Proof.
  intros Rd Rd' V P Hs. rewrite (energy_acc h'), (energy_acc h). f_equal.
  destruct (h_active h) as [|i0 l0] eqn:Ea.
  { apply Permutation_nil in P. apply energy_settings. repeat split; try congruence.
    - rewrite P. intros i [].
    - intros i Hi. apply Hs. now right. }
  assert (So : forall i, solo h' i n d = solo h i n d).
  { intro i. unfold solo, densvars. rewrite V. destruct (dv_prog (h_vars h)) as [p|] eqn:E; [|reflexivity].
    rewrite (run_st (h_settings h') (h_settings h) (fun k Hk => Hs k (or_intror Hk)) n d p _ (dv_prog_epar _ _ E)).
    destruct (run _ n d _ p) as [fl|]; cbn [of_option obind]; [|reflexivity].
    unfold fp. destruct (nth_error functionals i) as [[nm e]|] eqn:Ef; cbn [obind snd]; [|reflexivity].
    pose proof (proj1 (forallb_forall _ _) functionals_epar _ (nth_error_In _ _ Ef)) as He. cbn [snd] in He.
    now rewrite (eval_st (h_settings h') (h_settings h) (fun k Hk => Hs k (or_intror Hk)) n d fl e [] He). }
  pose proof (energy_ok h n d (czero n) Rd) as O. pose proof (energy_ok h' n d (czero n) Rd') as O'.
  assert (Pa : Permutation (h_active h) (h_active h')) by now rewrite Ea.
  assert (Tm : forall f, csum n (term h' n f) (h_active h') = csum n (term h n f) (h_active h)).
  { intro f. rewrite (csum_perm n _ _ _ Pa). apply csum_ext. intros i Hi. unfold term. f_equal. apply Hs. left. rewrite <- Ea.
    eapply Permutation_in; [apply Permutation_sym, Pa|exact Hi]. }
  destruct (energy h n d (czero n)) as [e| | |] eqn:X, (energy h' n d (czero n)) as [e'| | |] eqn:X'; cbn [oP] in *; try contradiction; try reflexivity.
  - destruct (energy_terms h n d e X) as (f & Hf & ->).
    rewrite (energy_of_terms h' n d f) in X'.
    + injection X' as <-. f_equal. apply Tm.
    + intro N. rewrite N in Pa. apply Permutation_sym, Permutation_nil in Pa. congruence.
    + intros i Hi. rewrite So. apply Hf. eapply Permutation_in; [apply Permutation_sym, Pa|exact Hi].
  - destruct (energy_terms h n d e X) as (f & Hf & ->).
    rewrite (energy_of_terms h' n d f) in X'; [discriminate| |].
    + intro N. rewrite N in Pa. apply Permutation_sym, Permutation_nil in Pa. congruence.
    + intros i Hi. rewrite So. apply Hf. eapply Permutation_in; [apply Permutation_sym, Pa|exact Hi].
  - destruct (energy_terms h' n d e' X') as (f & Hf & ->).
    rewrite (energy_of_terms h n d f) in X; [discriminate|congruence|].
    intros i Hi. rewrite <- So. apply Hf. eapply Permutation_in; [exact Pa|exact Hi].
Qed.

(** ** Functionals without gradient dependence see no gradient correction *)
Definition dens_only (i : nat) : bool := orb (Nat.eqb i 0) (Nat.eqb i 10).
Lemma taint_dens v : v = XC_N_2ND_TAYLOR \/ v = XC_A_B_2ND_TAYLOR ->
  exists p cf, dv_prog v = Some p /\ taintR dens_only (fun _ => true) p = Some cf /\
  forall f, declared 1 f = true -> cf f = true.
Proof.
  intros [-> | ->]; (eexists; eexists; split; [vm_compute; reflexivity|]; split; [cbn -[fld_eqb cadd]; reflexivity|]);
    intros f Hf; destruct f; vm_compute in Hf |- *; congruence.
Qed.
Definition lda_flags (i : nat) : bool := negb (orb (Z.testbit (flags i) 1) (orb (Z.testbit (flags i) 2) (Z.testbit (flags i) 3))).
Lemma lda_declared_all : forallb (fun i => orb (negb (lda_flags i)) (andb (flags_sound i) (Z.eqb (flags i) 1))) (seq 0 78) = true.
Proof. vm_compute. reflexivity. Qed.
Lemma lda_clean i : (i < 78)%nat -> lda_flags i = true -> exists e, fp i = Ok e /\ clean (fun _ => false) (declared 1) e = true.
Proof.
  intros L H. pose proof (proj1 (forallb_forall _ _) lda_declared_all i ltac:(apply in_seq; lia)) as A. cbv beta in A. rewrite H in A.
  cbn [negb orb] in A. apply andb_true_iff in A. destruct A as [A B]. apply Z.eqb_eq in B. unfold flags_sound in A. unfold fp.
  destruct (nth_error functionals i) as [[nm e]|]; [|discriminate]. exists e. split; [reflexivity|]. now rewrite B in A.
Qed.
Section LDA.
Variable g : handle ROps.
Hypothesis Rd : ready g.
Hypothesis V : h_vars g = XC_N_2ND_TAYLOR \/ h_vars g = XC_A_B_2ND_TAYLOR.
Hypothesis L : forall i, In i (h_active g) -> lda_flags i = true.
Definition emb (x : rct 1) : rct 2 := (x, rconst 1 0).
Lemma Z10 : rconst 1 0 = (0, 0).
Proof. cbn. now rewrite Q2R_0. Qed.
Lemma hom_emb : hom 1 2 emb.
Proof.
  split; [|split; [|split]]; intros; unfold emb; change (rconst 1 0) with (zero 1); rewrite ?(ct_const_S 1), ?(ct_add_S 1), ?(pmul_S 1); cbn [fst snd].
  - reflexivity.
  - now rewrite add_0.
  - rewrite (pmul_comm 1 x (zero 1)), !pmul_0, add_0. reflexivity.
  - reflexivity.
Qed.
Definition lin1 (input : nat -> R) (k i : nat) : rct 1 :=
  (input i, if dens_only i then input (i + der k 0)%nat else 0).
Lemma lda_gin input k s : s <> 0%nat -> s <> 10%nat ->
  energy g 2 (gin input k s) (czero 2) = omap emb (energy g 1 (lin1 input k) (czero 1)).
Proof.
  intros S0 S1. rewrite <- (energy_hom0 1 2 emb ltac:(lia) ltac:(lia) hom_emb g (lin1 input k)).
  destruct (taint_dens _ V) as (p & cf & D & T & Hc).
  apply (energy_tr g 2 _ _ cf p); [exact D|apply (taintR_tr _ _ _ _ dens_only); [|exact T]|].
  - intros i Hi. unfold lin1. rewrite Hi. apply orb_true_iff in Hi. unfold emb, gin. rewrite Z10.
    destruct Hi as [Hi|Hi]; apply Nat.eqb_eq in Hi; subst i; cbn [Nat.leb Nat.sub Nat.ltb Nat.add];
      [destruct (Nat.eqb_spec 0 s); [congruence|]|destruct (Nat.eqb_spec 10 s); [congruence|]]; reflexivity.
  - intros i Hi. destruct (lda_clean i (proj1 Rd i Hi) (L i Hi)) as (e & Fe & C). exists e. split; [exact Fe|]. eapply clean_imp; [exact Hc|exact C].
Qed.
Lemma lda_corr_0 input k s x : s <> 0%nat -> s <> 10%nat -> energy g 2 (gin input k s) (czero 2) = Ok x -> snd (snd x) = 0.
Proof.
  intros S0 S1. rewrite lda_gin by assumption. intro H. apply omap_ok in H. destruct H as (a & _ & ->). unfold emb. now rewrite Z10.
Qed.
Lemma lda_gin_ok input k s e : s <> 0%nat -> s <> 10%nat -> energy g 0 input (czero 0) = Ok e ->
  exists x, energy g 2 (gin input k s) (czero 2) = Ok x.
Proof.
  intros S0 S1 He. rewrite lda_gin by assumption.
  pose proof (energy_hom0 1 0 (c0 1) ltac:(lia) ltac:(lia) (hom_c0_0 1) g (lin1 input k)) as C.
  change (fun i => c0 1 (lin1 input k i)) with input in C. rewrite He in C. symmetry in C. apply omap_ok in C. destruct C as (a & -> & _).
  cbn. eauto.
Qed.
End LDA.
