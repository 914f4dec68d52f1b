(** * Property theorems: the order of set calls (C17) *)
From Coq Require Import Reals QArith Qreals ZArith Arith Lia Lra List Bool String Permutation FunctionalExtensionality.
From Verif Require Import Scalar RInst Tables Api SpecApi ApiProofs ApiProofs2 CTaylor CtAlg TMath Br Expr Densvars Functionals
  Eval Sem SpecEval EvalSem EvalProps EvalExt PotSlots EnergyLin.
Import ListNotations.
Local Open Scope outcome_scope.
Local Open Scope R_scope.

(** ** Specification *)
Definition is_set (c : call ROps) : Prop := match c with CSet _ _ => True | _ => False end.
(** No numerical parameter is given two different values by the calls of the history. *)
Definition independent (cs : list (call ROps)) : Prop :=
  forall n v n' v' ws ws' j x x', In (CSet n v) cs -> In (CSet n' v') cs ->
    SpecApi.writes n v ws -> SpecApi.writes n' v' ws' -> (78 <= j)%nat -> In (j, x) ws -> In (j, x') ws' -> x = x'.
(** The answers of a sequence of calls, and the handle at its end. *)
Fixpoint talk (h : handle ROps) (cs : list (call ROps)) : outcome (list (answer ROps) * handle ROps) :=
  match cs with
  | [] => Ok ([], h)
  | c :: cs' => r <- step h c ;; t <- talk (fst r) cs' ;; Ok (snd r :: fst t, snd t)
  end.
(** No later use of the interface tells g and g' apart: the same calls give the same answers
    (or fail in the same way), and evaluation after them, of one point or of many, stores the
    same numbers. *)
Definition indistinguishable (g g' : handle ROps) : Prop := forall k,
  match talk g k, talk g' k with
  | Ok (l, a), Ok (l', a') => l = l' /\
      (forall junk buf x, xcfun_eval junk a buf x = xcfun_eval junk a' buf x) /\
      (forall junk n d p r q, xcfun_eval_vec junk a n d p r q = xcfun_eval_vec junk a' n d p r q)
  | Die, Die | UB, UB | Dom, Dom => True
  | _, _ => False
  end.

(** ** Proof *)
Record eqv (a b : handle ROps) : Prop := {
  ev_wa : wf a; ev_wb : wf b;
  ev_act : Permutation (h_active a) (h_active b);
  ev_set : h_settings a = h_settings b;
  ev_ord : h_order a = h_order b; ev_mode : h_mode a = h_mode b; ev_vars : h_vars a = h_vars b }.
Lemma eqv_depends a b : eqv a b -> h_depends a = h_depends b.
Proof.
  intros [(_ & _ & Da) (_ & _ & Db) P _ _ _ _]. rewrite Da, Db. unfold or_flags. apply Z.bits_inj. intro k.
  apply eq_true_iff_eq. rewrite !or_flags_bit. split; intros [H|(i & Hi & F)]; auto; right; exists i; (split; [|exact F]).
  - exact (Permutation_in _ P Hi).
  - exact (Permutation_in _ (Permutation_sym P) Hi).
Qed.
Lemma eqv_energy a b : eqv a b -> @energy ROps a = @energy ROps b.
Proof.
  intro Q. destruct Q as [(_ & La & _) (_ & Lb & _) P S _ _ V].
  apply functional_extensionality_dep. intro n. apply functional_extensionality. intro d. apply functional_extensionality. intro out.
  destruct (dv_switch (h_vars a)) as [p|] eqn:E.
  - symmetry. apply energy_perm; [split; [exact La|unfold supported; congruence]|split; [exact Lb|unfold supported; congruence]|congruence|exact P|].
    intros i _. now rewrite S.
  - rewrite (energy_unsupported a), (energy_unsupported b); [reflexivity|unfold supported; congruence|unfold supported; congruence].
Qed.
Lemma eqv_eval a b junk buf x : eqv a b -> xcfun_eval junk a buf x = xcfun_eval junk b buf x.
Proof.
  intro Q. pose proof (eqv_energy a b Q) as E. pose proof (eqv_depends a b Q) as D. destruct Q as [_ _ _ _ O M V].
  unfold xcfun_eval, partial0, partial1, partial3, partial2, contracted, potential, pot_restricted, pot_unrestricted. rewrite E, D, O, M, V. reflexivity.
Qed.
Lemma eqv_vec a b junk n d p r q : eqv a b -> xcfun_eval_vec junk a n d p r q = xcfun_eval_vec junk b n d p r q.
Proof.
  intro Q. unfold xcfun_eval_vec. f_equal. apply functional_extensionality. intro res. apply functional_extensionality. intro i.
  now rewrite (eqv_eval a b) by exact Q.
Qed.
Lemma fold_active_NoDup (ws : list (nat * T ROps)) : forall l, NoDup l -> NoDup (fold_left wr_active ws l).
Proof.
  induction ws as [|[j v] ws IH]; intros l N; [exact N|]. cbn [fold_left]. apply IH. unfold wr_active. cbn [fst].
  destruct (Nat.ltb j 78); [|exact N]. destruct (existsb (Nat.eqb j) l) eqn:E; [exact N|]. apply NoDup_snoc; [exact N|].
  intro H. assert (existsb (Nat.eqb j) l = true); [|congruence]. apply existsb_exists. exists j. split; [exact H|apply Nat.eqb_refl].
Qed.
Lemma perm_fold (ws ws' : list (nat * T ROps)) l l' : NoDup l -> NoDup l' -> Permutation l l' -> Permutation ws ws' ->
  Permutation (fold_left wr_active ws l) (fold_left wr_active ws' l').
Proof.
  intros N N' P Q. apply NoDup_Permutation; [now apply fold_active_NoDup|now apply fold_active_NoDup|].
  intro i. rewrite !fold_active_in. split; intros [H|(L & v & H)].
  - left. exact (Permutation_in _ P H).
  - right. split; [exact L|]. exists v. exact (Permutation_in _ Q H).
  - left. exact (Permutation_in _ (Permutation_sym P) H).
  - right. split; [exact L|]. exists v. exact (Permutation_in _ (Permutation_sym Q) H).
Qed.
Lemma after_eqv a b ws a' b' : eqv a b -> after a ws a' -> after b ws b' -> wf a' -> wf b' -> eqv a' b'.
Proof.
  intros [Wa Wb P S O M V] (A1 & A2 & A3 & A4 & A5) (B1 & B2 & B3 & B4 & B5) Wa' Wb'.
  split; auto; try congruence. rewrite A2, B2. apply perm_fold; [apply Wa|apply Wb|exact P|reflexivity].
Qed.
Lemma eqv_setup a b v m o : eqv a b ->
  match xcfun_eval_setup a v m o, xcfun_eval_setup b v m o with
  | Ok (a', r), Ok (b', r') => r = r' /\ eqv a' b'
  | UB, UB => True
  | _, _ => False
  end.
Proof.
  intro Q. pose proof (eqv_depends a b Q) as D. unfold xcfun_eval_setup. rewrite D.
  destruct (vars_entry v) as [vd| | |] eqn:E; cbn [obind].
  2-4: unfold vars_entry in E; destruct (Z.ltb v 0); [|destruct (nth_error _ _)]; try discriminate; exact Logic.I.
  destruct (negb _); [split; [reflexivity|exact Q]|]. destruct (orb _ _); [split; [reflexivity|exact Q]|].
  destruct (andb _ (andb _ _)); [split; [reflexivity|exact Q]|]. destruct (andb _ _); [split; [reflexivity|exact Q]|].
  split; [reflexivity|]. destruct Q as [(Wa1 & Wa2 & Wa3) (Wb1 & Wb2 & Wb3) P S O M V]. split; cbn [h_active h_settings h_order h_mode h_vars]; auto; unfold wf; cbn [h_active h_depends]; repeat split; auto; congruence.
Qed.
Lemma eqv_step a b c : eqv a b ->
  match step a c, step b c with
  | Ok (a', r), Ok (b', r') => r = r' /\ eqv a' b'
  | Die, Die | UB, UB => True
  | _, _ => False
  end.
Proof.
  intro Q. pose proof (eqv_depends a b Q) as D. pose proof (ev_set a b Q) as Se.
  destruct c as [n x|n|v m o|o f d m l k c e| | | |]; cbn [step].
  - destruct (writes_total (K := ROps) n x) as [ws Hw].
    destruct (set_ok a n x ws 6 (ev_wa a b Q) Hw) as (a' & Ea & Wa & Aa). destruct (set_ok b n x ws 6 (ev_wb a b Q) Hw) as (b' & Eb & Wb & Ab).
    unfold xcfun_set. rewrite Ea, Eb. cbn [obind fst snd]. split; [reflexivity|]. exact (after_eqv a b ws a' b' Q Aa Ab Wa Wb).
  - split; [|exact Q]. unfold xcfun_get. now rewrite Se.
  - pose proof (eqv_setup a b v m o Q) as H. destruct (xcfun_eval_setup a v m o) as [[a' r]| | |], (xcfun_eval_setup b v m o) as [[b' r']| | |]; try contradiction; try exact Logic.I.
    cbn [obind fst snd]. destruct H as [-> H]. now split.
  - unfold xcfun_user_eval_setup. destruct (xcfun_which_vars f d l k c e) as [v| | |] eqn:Ev; cbn [obind].
    2-4: unfold xcfun_which_vars in Ev; destruct (_ || _ || _ || _ || _ || _)%bool; try discriminate; try exact Logic.I; destruct (which_vars_switch _); try discriminate; exact Logic.I.
    destruct (xcfun_which_mode m) as [mm| | |] eqn:Em; cbn [obind].
    2-4: unfold xcfun_which_mode in Em; destruct (_ <? _)%N; try discriminate; try exact Logic.I; destruct m as [|[[?|?|]|[?|?|]|]]; discriminate || exact Logic.I.
    pose proof (eqv_setup a b v mm o Q) as H. destruct (xcfun_eval_setup a v mm o) as [[a' r]| | |], (xcfun_eval_setup b v mm o) as [[b' r']| | |]; try contradiction; try exact Logic.I.
    cbn [obind fst snd]. destruct H as [-> H]. now split.
  - unfold xcfun_input_length. rewrite (ev_vars a b Q). destruct (vars_entry (h_vars b)) as [vd| | |] eqn:E; cbn [obind]; [now split| | |];
      unfold vars_entry in E; destruct (Z.ltb _ 0); try destruct (nth_error _ _); try discriminate; exact Logic.I.
  - unfold xcfun_output_length. rewrite (ev_vars a b Q), (ev_mode a b Q), (ev_ord a b Q).
    destruct (Z.eqb (h_mode b) XC_MODE_UNSET); [exact Logic.I|]. destruct (Z.eqb (h_vars b) XC_VARS_UNSET); [exact Logic.I|]. destruct (Z.eqb (h_order b) (-1)); [exact Logic.I|].
    destruct (Z.eqb (h_mode b) XC_PARTIAL_DERIVATIVES).
    + destruct (vars_entry (h_vars b)) as [vd| | |] eqn:E; cbn [obind]; [now split| | |];
        unfold vars_entry in E; destruct (Z.ltb _ 0); try destruct (nth_error _ _); try discriminate; exact Logic.I.
    + destruct (Z.eqb (h_mode b) XC_POTENTIAL); [|exact Logic.I]. destruct (orb _ _); cbn [obind]; now split.
  - unfold xcfun_is_gga. rewrite D. now split.
  - unfold xcfun_is_metagga. rewrite D. now split.
Qed.
Lemma eqv_indist : forall k a b, eqv a b ->
  match talk a k, talk b k with
  | Ok (l, a), Ok (l', a') => l = l' /\ eqv a a'
  | Die, Die | UB, UB | Dom, Dom => True
  | _, _ => False
  end.
Proof.
  induction k as [|c k IH]; intros a b Q; cbn [talk]; [split; [reflexivity|exact Q]|].
  pose proof (eqv_step a b c Q) as H. destruct (step a c) as [[a' r]| | |], (step b c) as [[b' r']| | |]; try contradiction; try exact Logic.I.
  destruct H as [-> Q']. cbn [obind fst snd]. specialize (IH a' b' Q').
  destruct (talk a' k) as [[l a2]| | |], (talk b' k) as [[l' b2]| | |]; try contradiction; try exact Logic.I.
  cbn [obind fst snd]. destruct IH as [-> Q2]. now split.
Qed.

Lemma sets_after : forall (cs : list (call ROps)) wss (h : handle ROps), wf h -> Forall is_set cs -> Forall2 call_writes cs wss ->
  exists g : handle ROps, Api.run h cs = Ok g /\ wf g /\ after h (List.concat wss) g.
Proof.
  induction cs as [|c cs IH]; intros wss h W Fs F2; inversion F2; subst; inversion Fs; subst; cbn [Api.run List.concat].
  - exists h. split; [reflexivity|]. split; [exact W|apply after_nil].
  - destruct c; cbn [is_set] in *; try contradiction. cbn [call_writes] in *. cbn [step].
    destruct (set_run h name value y W) as (h1 & r & E & W1 & A1); [assumption|]. rewrite E. cbn [obind fst].
    destruct (IH l' h1 W1) as (g & Eg & Wg & Ag); [assumption..|]. exists g. split; [exact Eg|]. split; [exact Wg|]. exact (after_trans _ _ _ _ _ A1 Ag).
Qed.
Lemma perm_values i (ws ws' : list (nat * T ROps)) : Permutation ws ws' -> Permutation (values_of i ws) (values_of i ws').
Proof.
  intro P. unfold values_of. apply Permutation_map. induction P as [|x l l' P IH|x y l|l l' l'' P IH P' IH']; cbn [filter].
  - constructor.
  - destruct (Nat.eqb (fst x) i); [now constructor|exact IH].
  - destruct (Nat.eqb (fst x) i), (Nat.eqb (fst y) i); try reflexivity. constructor.
  - etransitivity; eassumption.
Qed.
Lemma fold_plus_perm (l l' : list (T ROps)) : Permutation l l' -> forall x, fold_left (@Oadd ROps) l x = fold_left (@Oadd ROps) l' x.
Proof.
  induction 1 as [|y l l' P IH|y z l|l l' l'' P IH P' IH']; intro x; cbn [fold_left].
  - reflexivity.
  - apply IH.
  - assert (C : @Oadd ROps (@Oadd ROps x z) y = @Oadd ROps (@Oadd ROps x y) z) by (cbn [T Oadd ROps] in *; ring). now rewrite C.
  - now rewrite IH, IH'.
Qed.
Lemma last_const (l l' : list (T ROps)) : Permutation l l' -> (forall x y, In x l -> In y l -> x = y) -> forall d, last l d = last l' d.
Proof.
  intros P H d. destruct l as [|x l].
  - apply Permutation_nil in P. now subst.
  - assert (Hl : forall m : list (T ROps), m <> [] -> In (last m d) m).
    { induction m as [|a m IH]; [congruence|]. intros _. destruct m as [|b m]; [now left|]. right. apply IH. discriminate. }
    apply H; [apply Hl; discriminate|]. eapply Permutation_in; [apply Permutation_sym, P|]. apply Hl. intro E. subst. apply Permutation_sym, Permutation_nil in P. discriminate.
Qed.
Lemma concat_in {A} (l : list (list A)) x : In x (List.concat l) -> exists y, In y l /\ In x y.
Proof. induction l as [|a l IH]; cbn; [tauto|]. rewrite in_app_iff. intros [H|H]; [eauto|]. destruct (IH H) as (y & ? & ?). eauto. Qed.
Lemma forall2_r {A B} (R : A -> B -> Prop) l l' : Forall2 R l l' -> forall y, In y l' -> exists x, In x l /\ R x y.
Proof. induction 1; intros z []; [subst; eexists; split; [now left|eassumption]|]. destruct (IHForall2 z H1) as (w & ? & ?). exists w. split; [now right|assumption]. Qed.
Lemma concat_perm {A} (l l' : list (list A)) : Permutation l l' -> Permutation (List.concat l) (List.concat l').
Proof.
  induction 1 as [|x l l' P IH|x y l|l l' l'' P IH P' IH']; cbn [List.concat].
  - constructor.
  - now apply Permutation_app_head.
  - rewrite !app_assoc. apply Permutation_app_tail, Permutation_app_comm.
  - etransitivity; eassumption.
Qed.

(** Any reordering of set calls that do not fight over a parameter gives a handle that no
    later use can distinguish. *)
Theorem C17_order_irrelevant :
  forall (h : handle ROps) (cs cs' : list (call ROps)), reachable h -> Forall is_set cs -> independent cs -> Permutation cs cs' ->
    exists g g', Api.run h cs = Ok g /\ Api.run h cs' = Ok g' /\ indistinguishable g g'.
Proof.
  intros h cs cs' Hr Fs In_ P. pose proof (reachable_wf h Hr) as W.
  destruct (history_writes cs) as [wss F2]. destruct (Permutation_Forall2 P F2) as (wss' & P' & F2').
  assert (Fs' : Forall is_set cs').
  { rewrite Forall_forall in *. intros c Hc. apply Fs. exact (Permutation_in _ (Permutation_sym P) Hc). }
  destruct (sets_after cs wss h W Fs F2) as (g & Eg & Wg & (G1 & G2 & G3 & G4 & G5)).
  destruct (sets_after cs' wss' h W Fs' F2') as (g' & Eg' & Wg' & (K1 & K2 & K3 & K4 & K5)).
  exists g, g'. split; [exact Eg|]. split; [exact Eg'|].
  pose proof (concat_perm _ _ P') as Pc.
  assert (Q : eqv g g').
  { split; auto; try congruence.
    - rewrite G2, K2. apply perm_fold; [apply W|apply W|reflexivity|exact Pc].
    - rewrite G1, K1. apply functional_extensionality. intro i. destruct (Nat.lt_ge_cases i 78) as [L|L].
      + rewrite !fold_settings_fun by exact L. apply fold_plus_perm, perm_values, Pc.
      + rewrite !fold_settings_par by exact L. apply last_const; [apply perm_values, Pc|].
        assert (Vo : forall x, In x (values_of i (List.concat wss)) -> exists n v ws, In (CSet n v) cs /\ SpecApi.writes n v ws /\ In (i, x) ws).
        { intros x Hx. unfold values_of in Hx. apply in_map_iff in Hx. destruct Hx as ([j y] & Ey & Hx). cbn in Ey. subst y.
          apply filter_In in Hx. destruct Hx as [Hx Ej]. apply Nat.eqb_eq in Ej. cbn in Ej. subst j.
          destruct (concat_in _ _ Hx) as (ws & Hws & Hx'). destruct (forall2_r _ _ _ F2 ws Hws) as (c & Hc & Cw).
          rewrite Forall_forall in Fs. specialize (Fs c Hc). destruct c; cbn [is_set] in Fs; try contradiction. cbn [call_writes] in Cw. eauto 8. }
        intros x y Hx Hy. destruct (Vo x Hx) as (n & v & ws & C & Wr & Ix). destruct (Vo y Hy) as (n' & v' & ws' & C' & Wr' & Iy).
        exact (In_ n v n' v' ws ws' i x y C C' Wr Wr' L Ix Iy). }
  intro k. pose proof (eqv_indist k g g' Q) as H. destruct (talk g k) as [[l a]| | |], (talk g' k) as [[l' a']| | |]; try contradiction; try exact Logic.I.
  destruct H as [-> H]. split; [reflexivity|]. split; intros; [now apply eqv_eval|now apply eqv_vec].
Qed.
Print Assumptions C17_order_irrelevant.

(** The restriction to independent calls is needed: of two different values given to one
    parameter the later one wins. *)
Theorem C17_conflicting_parameter_refuted :
  exists (cs cs' : list (call ROps)) g g', Forall is_set cs /\ Permutation cs cs' /\
    Api.run xcfun_new cs = Ok g /\ Api.run xcfun_new cs' = Ok g' /\ ~ indistinguishable g g'.
Proof.
  exists [CSet "exx" (0 : T ROps); CSet "exx" (1 : T ROps)], [CSet "exx" (1 : T ROps); CSet "exx" (0 : T ROps)].
  do 2 eexists. split; [repeat constructor|]. split; [constructor|]. split; [reflexivity|]. split; [reflexivity|].
  intro H. specialize (H [CGet "exx"]). cbn [talk step obind fst snd] in H. destruct H as (H & _). injection H as H. vm_compute in H.
  apply R1_neq_R0. exact H.
Qed.
Print Assumptions C17_conflicting_parameter_refuted.

(** A concrete case: two aliases that set the same three parameters, and a functional. *)
Local Open Scope string_scope.
Definition calls_ex : list (call ROps) := [CSet "camcompx" (1 : T ROps); CSet "SlaterX" (2 : T ROps); CSet "camb3lyp" (1 : T ROps)].
Example C17_example : reachable (@xcfun_new ROps) /\ Forall is_set calls_ex /\ independent calls_ex /\
  Permutation calls_ex [CSet "camb3lyp" (1 : T ROps); CSet "camcompx" (1 : T ROps); CSet "SlaterX" (2 : T ROps)].
Proof.
  split; [now exists []|]. split; [repeat constructor|]. split.
  - assert (It : forall nm i, xcint_lookup_functional nm = Some i \/ xcint_lookup_parameter nm = Some i -> is_item nm i).
    { intros nm i [H|H]; [apply lookup_functional_spec in H|apply lookup_parameter_spec in H]; tauto. }
    assert (No : forall nm, xcint_lookup_functional nm = None -> xcint_lookup_parameter nm = None -> no_item nm).
    { intros nm H1 H2 i Hi. destruct (Nat.lt_ge_cases i 78) as [L|L].
      - rewrite (proj2 (lookup_functional_spec nm i) (conj Hi L)) in H1. discriminate.
      - rewrite (proj2 (lookup_parameter_spec nm i) (conj Hi L)) in H2. discriminate. }
    set (cx := [(6%nat, 1 * Q2R 1.0); (9%nat, 1 * Q2R (-1.0)); (80%nat, 1 * Q2R 0.19); (81%nat, 1 * Q2R 0.46); (78%nat, 1 * Q2R 0.33)] : list (nat * T ROps)).
    set (cb := [(80%nat, 1 * Q2R 0.19); (81%nat, 1 * Q2R 0.46); (78%nat, 1 * Q2R 0.33); (9%nat, 1 * Q2R 1.0); (3%nat, 1 * Q2R 0.19); (16%nat, 1 * Q2R 0.81); (79%nat, 1 * Q2R 1.0)] : list (nat * T ROps)).
    assert (Wx : SpecApi.writes "camcompx" (1 : T ROps) cx).
    { eapply w_alias; [apply No; reflexivity| |].
      - exists "camcompx". split; [apply (nth_error_In _ 38); reflexivity|apply ci_refl].
      - repeat (constructor; [split; [apply It; vm_compute; auto|reflexivity]|]). constructor. }
    assert (Wb : SpecApi.writes "camb3lyp" (1 : T ROps) cb).
    { eapply w_alias; [apply No; reflexivity| |].
      - exists "camb3lyp". split; [apply (nth_error_In _ 21); reflexivity|apply ci_refl].
      - repeat (constructor; [split; [apply It; vm_compute; auto|reflexivity]|]). constructor. }
    assert (Ws : SpecApi.writes "SlaterX" (2 : T ROps) [(0%nat, 2 : T ROps)]) by (apply w_item, It; vm_compute; auto).
    pose (val := fun j : nat => if Nat.eqb j 80 then 1 * Q2R 0.19 else if Nat.eqb j 81 then 1 * Q2R 0.46 else if Nat.eqb j 78 then 1 * Q2R 0.33 else 1 * Q2R 1.0).
    assert (V : forall n v ws j x, In (CSet n v) calls_ex -> SpecApi.writes n v ws -> (78 <= j)%nat -> In (j, x) ws -> x = val j).
    { intros n v ws j x C W L I. cbn [calls_ex In] in C. destruct C as [C|[C|[C|[]]]]; injection C as <- <-.
      - rewrite (writes_det _ _ _ _ W Wx) in I. unfold cx in I. cbn [In] in I.
        repeat (destruct I as [I|I]; [injection I as <- <-; try lia; reflexivity|]). destruct I.
      - rewrite (writes_det _ _ _ _ W Ws) in I. cbn [In] in I. destruct I as [I|[]]. injection I as <- <-. lia.
      - rewrite (writes_det _ _ _ _ W Wb) in I. unfold cb in I. cbn [In] in I.
        repeat (destruct I as [I|I]; [injection I as <- <-; try lia; reflexivity|]). destruct I. }
    intros n v n' v' ws ws' j x x' C C' W W' L I I'. rewrite (V _ _ _ _ _ C W L I), (V _ _ _ _ _ C' W' L I'). reflexivity.
  - unfold calls_ex. apply Permutation_sym. apply (Permutation_middle [CSet "camcompx" (1 : T ROps); CSet "SlaterX" (2 : T ROps)] []).
Qed.
