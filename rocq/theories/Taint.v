(** * Which inputs and density variables an evaluation can depend on *)
From Coq Require Import QArith ZArith Arith Lia List Bool String.
From Verif Require Import Scalar Tables Api SpecApi ApiProofs CTaylor TMath Br Expr Densvars Functionals Eval SpecEval Layout EvalSem.
Import ListNotations.
Local Open Scope outcome_scope.

(** [e] reads only inputs in [ci] and fields in [cf]. *)
Fixpoint clean (ci : nat -> bool) (cf : fld -> bool) (e : expr) : bool :=
  match e with
  | EIn i => ci i
  | EFld f => cf f
  | EVar _ | EConst _ => true
  | ENeg a | EAddK a _ | ESubK a _ | EKSub _ a | EScale _ a | EKDiv _ a | EDivK a _ | EPow a _
  | EPowI a _ | EFun _ a | EAbs a | EReg a | EBR a => clean ci cf a
  | ELet _ a b | EAdd a b | ESub a b | EMul a b | EMulTo a b | EDiv a b | EMax a b => clean ci cf a && clean ci cf b
  | EIf a b e1 e2 => clean ci cf a && clean ci cf b && clean ci cf e1 && clean ci cf e2
  end.
(** Expressions that cannot fail. *)
Definition stotal (s : sexp) : bool := match s with SQ _ => true | _ => false end.
Fixpoint total (e : expr) : bool :=
  match e with
  | EIn _ | EFld _ => true
  | EConst s => stotal s
  | ENeg a => total a
  | EAdd a b | ESub a b | EMul a b => total a && total b
  | EScale s a => stotal s && total a
  | EReg a => total a
  | _ => false
  end.
Definition cadd (b : bool) (f : fld) (cf : fld -> bool) : fld -> bool := fun g => if fld_eqb g f then b else cf g.
(** Clean fields after an assignment list; [None] if a tainted expression might fail. *)
Fixpoint taint (ci : nat -> bool) (cf : fld -> bool) (p : list (fld * expr)) : option (fld -> bool) :=
  match p with
  | [] => Some cf
  | (f, e) :: p' =>
      if clean ci cf e then taint ci (cadd true f cf) p'
      else if total e then taint ci (cadd false f cf) p' else None
  end.

Section T.
Context {K : Ops}.
Variables (st : nat -> K) (n : nat) (inp inp' : nat -> ct K n) (ci : nat -> bool).
Hypothesis H : forall i, ci i = true -> inp i = inp' i.
Definition fagr (cf : fld -> bool) (fl fl' : fld -> ct K n) : Prop := forall f, cf f = true -> fl f = fl' f.
Lemma eval_clean cf fl fl' : fagr cf fl fl' -> forall e r, clean ci cf e = true -> eval st n inp fl r e = eval st n inp' fl' r e.
Proof.
  intro F. induction e; intros r Hb; cbn [clean] in Hb; rewrite ?andb_true_iff in Hb;
    repeat match goal with X : _ /\ _ |- _ => destruct X end; cbn [eval];
    repeat match goal with
    | I : forall r, clean ci cf ?a = true -> _, Y : clean ci cf ?a = true |- context [eval st n inp fl ?rr ?a] => rewrite (I rr Y)
    end; try reflexivity.
  - now rewrite H.
  - now rewrite F.
  - destruct (eval st n inp' fl' r e1); cbn [obnd]; [|reflexivity]. now apply IHe2.
Qed.
Lemma stotal_ok s : stotal s = true -> exists k, seval st s = Some k.
Proof. destruct s; cbn; try discriminate. eauto. Qed.
Lemma total_ok i0 fl : forall e r, total e = true -> exists v, eval st n i0 fl r e = Some v.
Proof.
  induction e; intros r Ht; cbn [total] in Ht; try discriminate; rewrite ?andb_true_iff in Ht; cbn [eval].
  - eauto.
  - eauto.
  - destruct (stotal_ok s Ht) as [k ->]. cbn. eauto.
  - destruct (IHe r Ht) as [v ->]. cbn. eauto.
  - destruct Ht as [H1 H2]. destruct (IHe1 r H1) as [v ->]. destruct (IHe2 r H2) as [w ->]. cbn. eauto.
  - destruct Ht as [H1 H2]. destruct (IHe1 r H1) as [v ->]. destruct (IHe2 r H2) as [w ->]. cbn. eauto.
  - destruct Ht as [H1 H2]. destruct (IHe1 r H1) as [v ->]. destruct (IHe2 r H2) as [w ->]. cbn. eauto.
  - destruct Ht as [H1 H2]. destruct (stotal_ok s H1) as [k ->]. destruct (IHe r H2) as [w ->]. cbn. eauto.
  - destruct (IHe r Ht) as [v ->]. cbn. eauto.
Qed.
Lemma fagr_upd cf fl fl' f v : fagr cf fl fl' -> fagr (cadd true f cf) (fupd n fl f v) (fupd n fl' f v).
Proof. intros F g. unfold cadd, fupd. destruct (fld_eqb g f); [reflexivity|apply F]. Qed.
Lemma fagr_upd' cf fl fl' f v v' : fagr cf fl fl' -> fagr (cadd false f cf) (fupd n fl f v) (fupd n fl' f v').
Proof. intros F g. unfold cadd, fupd. destruct (fld_eqb g f); [discriminate|apply F]. Qed.
Lemma run_taint : forall p cf cf' fl fl', taint ci cf p = Some cf' -> fagr cf fl fl' ->
  match run st n inp fl p, run st n inp' fl' p with
  | Some a, Some b => fagr cf' a b
  | None, None => True
  | _, _ => False
  end.
Proof.
  induction p as [|[f e] p IH]; intros cf cf' fl fl' Ht F; cbn [taint run] in *.
  - injection Ht as <-. exact F.
  - destruct (clean ci cf e) eqn:C.
    + rewrite (eval_clean cf fl fl' F e [] C). destruct (eval st n inp' fl' [] e); cbn [obnd]; [|exact I].
      apply (IH _ _ _ _ Ht). now apply fagr_upd.
    + destruct (total e) eqn:T; [|discriminate].
      destruct (total_ok inp fl e [] T) as [v ->]. destruct (total_ok inp' fl' e [] T) as [v' ->]. cbn [obnd].
      apply (IH _ _ _ _ Ht). now apply fagr_upd'.
Qed.
End T.

(** ** Declared dependencies *)
(** The density variables a functional may use given its flags. *)
Definition declared (flags : Z) (f : fld) : bool :=
  match f with
  | f_a | f_b | f_n | f_s | f_zeta | f_r_s | f_n_m13 | f_a_43 | f_b_43 => Z.testbit flags 0
  | f_gaa | f_gab | f_gbb | f_gnn | f_gns | f_gss => Z.testbit flags 1
  | f_lapa | f_lapb => Z.testbit flags 2
  | f_tau | f_taua | f_taub => Z.testbit flags 3
  | f_jpaa | f_jpbb => Z.testbit flags 4
  end.
Definition XC_REVTPSSX_id : nat := match xcint_lookup_functional "REVTPSSX" with Some i => i | None => 99 end.
Definition flags_sound (i : nat) : bool :=
  match nth_error functionals i with
  | Some (_, e) => clean (fun _ => false) (declared (flags i)) e
  | None => false
  end.
Lemma flags_sound_all : forallb (fun i => orb (Nat.eqb i XC_REVTPSSX_id) (flags_sound i)) (seq 0 78) = true.
Proof. vm_compute. reflexivity. Qed.
Lemma flags_sound_ok i : (i < 78)%nat -> i <> XC_REVTPSSX_id -> flags_sound i = true.
Proof.
  intros L N. pose proof (proj1 (forallb_forall _ _) flags_sound_all i ltac:(apply in_seq; lia)) as H.
  apply orb_true_iff in H. destruct H as [H|H]; [|exact H]. apply Nat.eqb_eq in H. contradiction.
Qed.
(** Even REVTPSSX does not look at the Laplacians or the currents. *)
Definition nolap (f : fld) : bool := match f with f_lapa | f_lapb | f_jpaa | f_jpbb => false | _ => true end.
Definition nolap_sound (i : nat) : bool :=
  match nth_error functionals i with
  | Some (_, e) => orb (Z.testbit (flags i) 2) (clean (fun _ => false) nolap e)
  | None => false
  end.
Lemma nolap_all : forallb nolap_sound (seq 0 78) = true.
Proof. vm_compute. reflexivity. Qed.

Section E.
Context {K : Ops}.
Variable h : handle K.
Lemma energy_sum_clean n fl fl' d d' cf out :
  (forall i, In i (h_active h) -> exists e, fp i = Ok e /\ clean (fun _ => false) cf e = true) ->
  fagr n cf fl fl' -> energy_sum h n fl d out = energy_sum h n fl' d' out.
Proof.
  intros Hc F. unfold energy_sum. apply ofold_ext. intros s i Hi. destruct (Hc i Hi) as (e & -> & C). cbn [obind].
  rewrite (eval_clean (h_settings h) n d d' (fun _ => false)) with (cf := cf) (fl' := fl'); [reflexivity|discriminate|exact F|exact C].
Qed.
Lemma energy_clean n d d' ci cf p out :
  dv_prog (h_vars h) = Some p -> taint ci (fun _ => true) p = Some cf ->
  (forall i, ci i = true -> d i = d' i) ->
  (forall i, In i (h_active h) -> exists e, fp i = Ok e /\ clean (fun _ => false) cf e = true) ->
  energy h n d out = energy h n d' out.
Proof.
  intros D T Hd Hc. unfold energy, densvars. rewrite D.
  pose proof (run_taint (h_settings h) n d d' ci Hd p _ _ (dv_init n) (dv_init n) T) as R.
  assert (F0 : fagr n (fun _ => true) (@dv_init K n) (dv_init n)) by (intros f _; reflexivity).
  specialize (R F0). destruct (run _ n d _ p) as [a|], (run _ n d' _ p) as [b|]; cbn [of_option obind]; try contradiction; [|reflexivity].
  exact (energy_sum_clean n a b d d' cf out Hc R).
Qed.
End E.
Lemma clean_imp ci cf cf' : (forall f, cf f = true -> cf' f = true) -> forall e, clean ci cf e = true -> clean ci cf' e = true.
Proof.
  intro Hc. induction e; cbn [clean]; rewrite ?andb_true_iff; intuition auto.
Qed.
