(** * Building concrete handles over any scalar type (used in Examples and refutations) *)
From Coq Require Import QArith ZArith Arith Lia List Bool String.
From Verif Require Import Scalar Tables Api SpecApi ApiProofs ApiProofs2 QInst CTaylor TMath Br Expr Densvars Functionals Eval EvalSem EvalProps Props_Eval.
Import ListNotations.
Local Open Scope outcome_scope.

Definition names_items (l : list (string * nat)) : bool :=
  forallb (fun p => match nth_error item_names (snd p) with Some n => strcasecmp_eq n (fst p) | None => false end) l.
Lemma names_items_in l : names_items l = true -> forall p, In p l -> is_item (fst p) (snd p).
Proof.
  intros H p Hp. unfold names_items in H. rewrite forallb_forall in H. specialize (H p Hp). cbv beta in H.
  unfold is_item. destruct (nth_error item_names (snd p)) as [n|]; [|discriminate]. exists n. split; [reflexivity|].
  apply ci_sym. now apply strcasecmp_ci.
Qed.
Section MK.
Context {K : Ops}.
(** The settings and active list after the elementary writes [ws] on a new handle. *)
Definition msettings (ws : list (nat * K)) : nat -> K := fold_left wr_settings ws (h_settings xcfun_new).
Definition mactive (ws : list (nat * K)) : list nat := fold_left wr_active ws [].
(** Setting the named items, in order, on a new handle. *)
Lemma make (l : list (string * nat * K)) : names_items (map fst l) = true ->
  exists h : handle K, Api.run xcfun_new (map (fun p => CSet (fst (fst p)) (snd p)) l) = Ok h /\ reachable h /\
    h_active h = mactive (map (fun p => (snd (fst p), snd p)) l) /\
    h_settings h = msettings (map (fun p => (snd (fst p), snd p)) l).
Proof.
  intro N. pose proof (names_items_in _ N) as NI. clear N.
  assert (G : forall l h0, wf h0 -> (forall p, In p (map fst l) -> is_item (fst p) (snd p)) ->
     exists h : handle K, Api.run h0 (map (fun p => CSet (fst (fst p)) (snd p)) l) = Ok h /\ after h0 (map (fun p => (snd (fst p), snd p)) l) h).
  { clear. induction l as [|[[nm i] w] l IH]; intros h0 W H; cbn [map Api.run].
    - exists h0. split; [reflexivity|apply after_nil].
    - cbn [step fst snd]. destruct (set_run h0 nm w [(i, w)] W) as (h1 & r1 & E1 & W1 & A1); [apply w_item; apply (H (nm, i)); now left|].
      rewrite E1. cbn [obind fst]. destruct (IH h1 W1) as (h & E & A); [intros; apply H; now right|].
      exists h. split; [exact E|]. cbn [fst snd]. exact (after_trans _ _ _ _ _ A1 A). }
  destruct (G l xcfun_new wf_new NI) as (h & E & A). exists h. split; [exact E|]. split; [eexists; exact E|].
  destruct A as (A1 & A2 & _). split; [exact A2|exact A1].
Qed.
(** Whether a setup is accepted depends on the active list only. *)
Definition accepts (l : list nat) (v m o : Z) : bool :=
  match xcfun_eval_setup (@mkH QOps l (-1)%Z (or_flags l) XC_MODE_UNSET XC_VARS_UNSET (fun _ => 0%Q)) v m o with
  | Ok (_, r) => Z.eqb r 0
  | _ => false end.
Lemma accepts_ok (h : handle K) v m o : reachable h -> accepts (h_active h) v m o = true ->
  xcfun_eval_setup h v m o = Ok (mkH (h_active h) o (h_depends h) m v (h_settings h), 0%Z).
Proof.
  intros Hr. pose proof (reachable_wf h Hr) as (_ & _ & D). unfold accepts, xcfun_eval_setup. cbn [h_depends h_active].
  rewrite <- D. destruct (vars_entry v) as [vd| | |]; cbn [obind]; try discriminate.
  destruct (negb _); [discriminate|]. destruct (orb _ _).
  - discriminate.
  - destruct (andb (Z.eqb m XC_POTENTIAL) (andb _ _)).
    + discriminate.
    + destruct (andb _ _); [discriminate|reflexivity].
Qed.
End MK.
