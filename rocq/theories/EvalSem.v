(** * Properties of one energy evaluation (densvars + sum over the active functionals) *)
From Coq Require Import QArith ZArith Arith Lia List Bool String.
From Verif Require Import Scalar Tables Api SpecApi ApiProofs CTaylor TMath Br Expr Densvars Functionals Eval Layout.
Import ListNotations.
Local Open Scope outcome_scope.

(** ** Inputs read *)
Fixpoint inb (k : nat) (e : expr) : bool :=
  match e with
  | EIn i => Nat.ltb i k
  | EFld _ | EVar _ | EConst _ => true
  | ENeg a | EAddK a _ | ESubK a _ | EKSub _ a | EScale _ a | EKDiv _ a | EDivK a _ | EPow a _
  | EPowI a _ | EFun _ a | EAbs a | EReg a | EBR a => inb k a
  | ELet _ a b | EAdd a b | ESub a b | EMul a b | EMulTo a b | EDiv a b | EMax a b => inb k a && inb k b
  | EIf a b e1 e2 => inb k a && inb k b && inb k e1 && inb k e2
  end.
Section INB.
Context {K : Ops}.
Variables (st : nat -> K) (n : nat) (inp inp' : nat -> ct K n) (k : nat).
Hypothesis H : forall i, (i < k)%nat -> inp i = inp' i.
Lemma eval_inb fl : forall e r, inb k e = true -> eval st n inp fl r e = eval st n inp' fl r e.
Proof.
  induction e; intros r Hb; cbn [inb] in Hb; rewrite ?andb_true_iff in Hb;
    repeat match goal with X : _ /\ _ |- _ => destruct X end; cbn [eval];
    repeat match goal with
    | I : forall r, inb k ?a = true -> _, Y : inb k ?a = true |- context [eval st n inp fl ?rr ?a] => rewrite (I rr Y)
    end; try reflexivity.
  - apply Nat.ltb_lt in Hb. now rewrite H.
  - destruct (eval st n inp' fl r e1); cbn [obnd]; [|reflexivity]. now apply IHe2.
Qed.
Lemma run_inb : forall p fl, forallb (fun a => inb k (snd a)) p = true -> run st n inp fl p = run st n inp' fl p.
Proof.
  induction p as [|[f e] p IH]; intros fl Hb; cbn [run forallb snd] in *; [reflexivity|].
  apply andb_true_iff in Hb. destruct Hb as [H1 H2]. rewrite (eval_inb fl e [] H1).
  destruct (eval st n inp' fl [] e); cbn [obnd]; [now apply IH|reflexivity].
Qed.
End INB.
Lemma functionals_no_in : forallb (fun p => inb 0 (snd p)) functionals = true.
Proof. vm_compute. reflexivity. Qed.
Lemma functionals_len : List.length functionals = 78%nat.
Proof. vm_compute. reflexivity. Qed.
Lemma fp_ok id : (id < 78)%nat -> exists e, fp id = Ok e /\ inb 0 e = true.
Proof.
  intro L. unfold fp. destruct (nth_error functionals id) as [[nm e]|] eqn:E.
  - exists e. split; [reflexivity|]. apply nth_error_In in E.
    pose proof (proj1 (forallb_forall _ _) functionals_no_in _ E) as X. exact X.
  - apply nth_error_None in E. rewrite functionals_len in E. lia.
Qed.
Definition zvars : list Z := map Z.of_nat (seq 0 31).
Lemma zvars_in v : (0 <= v < XC_NR_VARS)%Z -> In v zvars.
Proof.
  intros [A B]. unfold XC_NR_VARS in B. unfold zvars. apply in_map_iff. exists (Z.to_nat v).
  split; [lia|]. apply in_seq. lia.
Qed.
Lemma vars_entry_range v vd : vars_entry v = Ok vd -> (0 <= v < XC_NR_VARS)%Z.
Proof.
  unfold vars_entry. destruct (Z.ltb_spec v 0); [discriminate|].
  destruct (nth_error xcint_vars (Z.to_nat v)) eqn:E; [|discriminate]. intros _.
  assert (Hlt : (Z.to_nat v < List.length xcint_vars)%nat) by (apply nth_error_Some; congruence).
  change (List.length xcint_vars) with 31%nat in Hlt. unfold XC_NR_VARS. lia.
Qed.
Definition vcheck1 (v : Z) : bool :=
  match vars_entry v with
  | Ok vd => Z.ltb 0 (v_len vd) && match dv_prog v with
             | Some p => forallb (fun a => inb (Z.to_nat (v_len vd)) (snd a)) p
             | None => true
             end
  | _ => false
  end.
Lemma vcheck1_all : forallb vcheck1 zvars = true.
Proof. vm_compute. reflexivity. Qed.
Lemma dv_prog_inb v vd p : vars_entry v = Ok vd -> dv_prog v = Some p ->
  forallb (fun a => inb (Z.to_nat (v_len vd)) (snd a)) p = true.
Proof.
  intros E D. pose proof (proj1 (forallb_forall _ _) vcheck1_all v (zvars_in v (vars_entry_range _ _ E))) as H.
  unfold vcheck1 in H. rewrite E, D in H. apply andb_true_iff in H. apply H.
Qed.
Lemma vlen_pos v vd : vars_entry v = Ok vd -> (0 < Z.to_nat (v_len vd))%nat.
Proof.
  intros E. pose proof (proj1 (forallb_forall _ _) vcheck1_all v (zvars_in v (vars_entry_range _ _ E))) as H.
  unfold vcheck1 in H. rewrite E in H. apply andb_true_iff in H. destruct H as [H _]. apply Z.ltb_lt in H. lia.
Qed.

(** ** A handle whose evaluation does not die *)
Definition supported (v : Z) : Prop := dv_switch v <> None.
Section EN.
Context {K : Ops}.
Variable h : handle K.
Definition ready : Prop := (forall i, In i (h_active h) -> (i < 78)%nat) /\ supported (h_vars h).

Lemma ofold_ext {A S} (f g : S -> A -> outcome S) l : (forall s x, In x l -> f s x = g s x) -> forall s, ofold f s l = ofold g s l.
Proof.
  induction l as [|x l IH]; intros H s; cbn [ofold]; [reflexivity|]. rewrite H by now left.
  destruct (g s x); cbn [obind]; try reflexivity. apply IH. intros; apply H; now right.
Qed.
Lemma energy_sum_ext n fl d d' out : (forall i, In i (h_active h) -> (i < 78)%nat) ->
  energy_sum h n fl d out = energy_sum h n fl d' out.
Proof.
  intro H. unfold energy_sum. apply ofold_ext. intros s i Hi. destruct (fp_ok i (H i Hi)) as (e & -> & Hb). cbn [obind].
  now rewrite (eval_inb (h_settings h) n d d' 0 ltac:(lia) fl e [] Hb).
Qed.
(** The result depends only on the first [v_len] entries of the array. *)
Lemma energy_ext vd n d d' out : (forall i, In i (h_active h) -> (i < 78)%nat) -> vars_entry (h_vars h) = Ok vd ->
  (forall i, (i < Z.to_nat (v_len vd))%nat -> d i = d' i) -> energy h n d out = energy h n d' out.
Proof.
  intros Ha E Hd. unfold energy, densvars. destruct (dv_prog (h_vars h)) as [p|] eqn:D; [|reflexivity].
  rewrite (run_inb (h_settings h) n d d' _ Hd p _ (dv_prog_inb _ _ _ E D)).
  destruct (run _ _ d' _ p); cbn [of_option obind]; [|reflexivity]. now apply energy_sum_ext.
Qed.
(** Only a domain failure is possible. *)
Lemma energy_ok n d out : ready -> oP (fun _ => True) True (energy h n d out).
Proof.
  intros [Ha S]. unfold energy, densvars, dv_prog. unfold supported in S. destruct (dv_switch (h_vars h)) as [p|]; [|congruence].
  destruct (run _ _ d _ _) as [fl|]; cbn [of_option obind oP]; [|exact I].
  unfold energy_sum. revert out Ha. induction (h_active h) as [|i l IH]; intros out Ha; cbn [ofold]; [exact I|].
  destruct (fp_ok i (Ha i (or_introl eq_refl))) as (e & -> & _). cbn [obind].
  destruct (eval _ n d fl [] e); cbn [of_option obind oP]; [|exact I]. apply IH. intros; apply Ha; now right.
Qed.
Lemma energy_unsupported n d out : ~ supported (h_vars h) -> energy h n d out = Die.
Proof.
  intro S. unfold energy, densvars, dv_prog, supported in *. destruct (dv_switch (h_vars h)); [|reflexivity].
  exfalso. apply S. discriminate.
Qed.
End EN.
