(** * Property theorems: the handle API (C01-C06, C23-C25, C28) *)
From Coq Require Import String ZArith QArith List Lia.
From Verif Require Import Scalar Tables Api SpecApi ApiProofs ApiProofs2 QInst.
Import ListNotations.
Local Open Scope string_scope.

(** Concrete history used by the Examples: mixes aliases, a functional, parameters,
    an unknown name, a query and a setup. *)
Definition qset (s : string) (v : Q) : call QOps := @CSet QOps s v.
Definition demo : list (call QOps) :=
  [ qset "PBE0" (1#2)%Q; qset "pbex" 2%Q; qset "nosuch" 5%Q; CGet "exx"; qset "Exx" (1#3)%Q;
    CSetup XC_A_B_GAA_GAB_GBB XC_PARTIAL_DERIVATIVES 2; qset "b3lyp" 1%Q ].
Definition demo_state : handle QOps :=
  match run xcfun_new demo with Ok h => h | _ => xcfun_new end.
Example demo_runs : exists h, run (@xcfun_new QOps) demo = Ok h.
Proof. eexists. vm_compute. reflexivity. Qed.

(** C01: weights accumulate over any history.  [fold_left Oadd] is the sum in program
    order, exact for any arithmetic, including floating point. *)
Theorem C01_weights_accumulate :
  forall (K : Ops) (cs : list (call K)) h wss name i,
    run xcfun_new cs = Ok h ->
    Forall2 call_writes cs wss ->
    is_item name i -> (i < 78)%nat ->
    xcfun_get h name = Some (fold_left Oadd (values_of i (concat wss)) (OofQ 0%Q)).
Proof. intro K. exact weights_history. Qed.
Print Assumptions C01_weights_accumulate.

Example C01_example : xcfun_get demo_state "PbeX" = Some (19#8)%Q /\
  xcfun_get demo_state "lypc" = Some (81#100)%Q.
Proof. vm_compute. split; reflexivity. Qed.

(** Every history has a (unique) list of elementary writes, so the hypotheses above
    are always satisfiable. *)
Theorem C01_writes_defined :
  forall (K : Ops) name (v : K), exists! ws, writes name v ws.
Proof.
  intros K name v. destruct (writes_total name v) as [ws H]. exists ws. split; [exact H|].
  intros ws' H'. exact (writes_det name v ws ws' H H').
Qed.
Print Assumptions C01_writes_defined.

(** ... and histories of set/get calls always run to completion. *)
Theorem C01_set_histories_run :
  forall (K : Ops) (cs : list (call K)), Forall set_or_get cs ->
    exists h, run xcfun_new cs = Ok h.
Proof. intros K cs. exact (set_history_ok cs xcfun_new wf_new). Qed.
Print Assumptions C01_set_histories_run.

Example C01_example_runs : exists h, run (@xcfun_new QOps) [qset "b3lyp" 1%Q; qset "qqq" 2%Q] = Ok h.
Proof. apply C01_set_histories_run. repeat constructor. Qed.

(** C02: parameters: default, then last write wins. *)
Theorem C02_parameters_last_write :
  forall (K : Ops) (cs : list (call K)) h wss name i,
    run xcfun_new cs = Ok h ->
    Forall2 call_writes cs wss ->
    is_item name i -> (78 <= i)%nat ->
    xcfun_get h name = Some (last (values_of i (concat wss)) (OofQ (param_default i))).
Proof. intro K. exact params_history. Qed.
Print Assumptions C02_parameters_last_write.

Example C02_example : xcfun_get demo_state "EXX" = Some (1#5)%Q /\
  xcfun_get demo_state "rangesep_mu" = Some (2#5)%Q /\ is_item "exx" 79.
Proof.
  split; [vm_compute; reflexivity|]. split; [vm_compute; reflexivity|].
  apply lookup_parameter_spec. vm_compute. reflexivity.
Qed.

(** C03: unknown names are rejected with -1 and no effect; known names return 0. *)
Theorem C03_unknown_rejected :
  forall (K : Ops) (h : handle K) name v, reachable h ->
    ((no_item name /\ forall ts, ~ is_alias name ts) <->
     exists h', xcfun_set h name v = Ok (h', (-1)%Z)) /\
    (no_item name -> (forall ts, ~ is_alias name ts) -> xcfun_set h name v = Ok (h, (-1)%Z)) /\
    (((exists i, is_item name i) \/ exists ts, is_alias name ts) ->
       exists h', xcfun_set h name v = Ok (h', 0%Z)) /\
    (no_item name <-> xcfun_get h name = None).
Proof.
  intros K h name v Hr. apply reachable_wf in Hr. split; [|split; [|split]].
  - split.
    + intros [H1 H2]. exists h. exact (set_unknown h name v H1 H2).
    + intros [h' E]. split.
      * intros i Hi. destruct (set_known h name v Hr) as [h2 E2]; [eauto|]. rewrite E in E2. discriminate.
      * intros ts Hts. destruct (set_known h name v Hr) as [h2 E2]; [eauto|]. rewrite E in E2. discriminate.
  - exact (set_unknown h name v).
  - exact (set_known h name v Hr).
  - split; [exact (get_none h name)|]. intros E i Hi. rewrite (get_item h name i Hi) in E. discriminate.
Qed.
Print Assumptions C03_unknown_rejected.

Theorem C03_case_insensitive :
  forall (K : Ops) (h : handle K) a b v, ci_eq a b ->
    xcfun_set h a v = xcfun_set h b v /\ xcfun_get h a = xcfun_get h b /\
    xcfun_describe a = xcfun_describe b.
Proof.
  intros K h a b v H. split; [exact (set_ci 8 h a b v H)|]. split; [exact (get_ci h a b H)|].
  unfold xcfun_describe, xcint_lookup_functional, xcint_lookup_parameter, xcint_lookup_alias.
  now rewrite !(first_match_ci a b _ _ H).
Qed.
Print Assumptions C03_case_insensitive.

Example C03_example : no_item "b3lpy" /\ (forall ts, ~ is_alias "b3lpy" ts) /\ ci_eq "B3lyp" "b3LYP".
Proof.
  split.
  - destruct (item_dec "b3lpy") as [[i Hi]|H]; [|exact H]. exfalso.
    destruct (Nat.lt_ge_cases i 78) as [H|H].
    + assert (E : xcint_lookup_functional "b3lpy" = Some i) by (apply lookup_functional_spec; auto).
      vm_compute in E. discriminate.
    + assert (E : xcint_lookup_parameter "b3lpy" = Some i) by (apply lookup_parameter_spec; auto).
      vm_compute in E. discriminate.
  - split; [apply lookup_alias_none; vm_compute; reflexivity|].
    apply strcasecmp_ci. vm_compute. reflexivity.
Qed.

(** C04: an alias is exactly the sequence of its terms, returns 0, and recursion depth
    two suffices (fuel is irrelevant from two on). *)
Theorem C04_alias_is_terms :
  forall (K : Ops) (h : handle K) name v terms, reachable h ->
    no_item name -> is_alias name terms ->
    exists h', xcfun_set h name v = Ok (h', 0%Z) /\
      run h (map (fun t => CSet (fst t) (Omul v (OofQ (snd t)))) terms) = Ok h'.
Proof. intros K h name v terms Hr. exact (alias_is_terms h name v terms (reachable_wf h Hr)). Qed.
Print Assumptions C04_alias_is_terms.

Theorem C04_recursion_bounded :
  forall (K : Ops) (h : handle K) name v fuel, reachable h ->
    xcfun_set_f (S (S fuel)) h name v = xcfun_set h name v.
Proof. intros K h name v fuel Hr. exact (set_fuel_irrelevant h name v fuel 6 (reachable_wf h Hr)). Qed.
Print Assumptions C04_recursion_bounded.

Example C04_example : reachable demo_state /\ is_alias "CamB3LYP"
  [("cam_alpha", 0.19%Q); ("cam_beta", 0.46%Q); ("rangesep_mu", 0.33%Q); ("beckecamx", 1.0%Q);
   ("vwn5c", 0.19%Q); ("lypc", 0.81%Q); ("exx", 1.0%Q)].
Proof.
  split; [exists demo; vm_compute; reflexivity|].
  exists "camb3lyp". split; [apply (nth_error_In _ 21); reflexivity|]. apply strcasecmp_ci. reflexivity.
Qed.

(** C05: the bookkeeping invariant in every reachable handle. *)
Theorem C05_active_invariant :
  forall (K : Ops) (cs : list (call K)) h wss,
    run xcfun_new cs = Ok h -> Forall2 call_writes cs wss ->
    NoDup (h_active h) /\ (length (h_active h) <= 78)%nat /\
    (forall i, In i (h_active h) <-> (i < 78)%nat /\ exists v, In (i, v) (concat wss)) /\
    (forall k, Z.testbit (h_depends h) k = true <->
               exists i, In i (h_active h) /\ Z.testbit (flags i) k = true) /\
    (xcfun_is_gga h = true <-> needs_gradient h) /\
    (xcfun_is_metagga h = true <-> needs_meta h).
Proof.
  intros K cs h wss Hr HF.
  assert (Hwf : wf h) by (apply reachable_wf; exists cs; exact Hr).
  destruct Hwf as (Hnd & Hlt & Hdep).
  split; [exact Hnd|]. split.
  { change 78%nat with (length (seq 0 78)). apply NoDup_incl_length; [exact Hnd|].
    intros i Hi. apply in_seq. specialize (Hlt i Hi). lia. }
  split; [intro i; exact (active_history cs h wss i Hr HF)|].
  split; [intro k; exact (depends_bit h k (conj Hnd (conj Hlt Hdep)))|].
  split; [exact (is_gga_iff h (conj Hnd (conj Hlt Hdep)))|exact (is_metagga_iff h (conj Hnd (conj Hlt Hdep)))].
Qed.
Print Assumptions C05_active_invariant.

Example C05_example : h_active demo_state = [5; 4; 0; 7; 16; 3]%nat /\ xcfun_is_gga demo_state = true
  /\ xcfun_is_metagga demo_state = false.
Proof. vm_compute. repeat split; reflexivity. Qed.

(** C06: exact return code of setup, atomic failure. *)
Theorem C06_setup_exact :
  forall (K : Ops) (h : handle K) vars mode order, reachable h -> (0 <= vars < XC_NR_VARS)%Z ->
    exists vd r h', nth_error xcint_vars (Z.to_nat vars) = Some vd /\
      xcfun_eval_setup h vars mode order = Ok (h', r) /\
      setup_code h vars mode order vd r /\
      (r <> 0%Z -> h' = h) /\
      (r = 0%Z -> h' = mkH (h_active h) order (h_depends h) mode vars (h_settings h)).
Proof. intros K h vars mode order Hr. exact (setup_exact h vars mode order (reachable_wf h Hr)). Qed.
Print Assumptions C06_setup_exact.

(** The five outcomes of [setup_code] exclude each other, so the code is determined. *)
Theorem C06_setup_code_unique :
  forall (K : Ops) (h : handle K) vars mode order vd r1 r2,
    setup_code h vars mode order vd r1 -> setup_code h vars mode order vd r2 -> r1 = r2.
Proof.
  intros K h vars mode order vd r1 r2 H1 H2.
  destruct H1; destruct H2; try reflexivity; exfalso; tauto.
Qed.
Print Assumptions C06_setup_code_unique.

(** The [vars] argument itself is not validated: values outside the table are
    undefined behaviour (the code indexes [xcint_vars] directly). *)
Theorem C06_vars_not_validated_refuted :
  exists (h : handle QOps) vars, reachable h /\
    xcfun_eval_setup h vars XC_PARTIAL_DERIVATIVES 0 = UB.
Proof. exists xcfun_new, XC_VARS_UNSET. split; [exists []; reflexivity|]. exact eq_refl. Qed.
Print Assumptions C06_vars_not_validated_refuted.

Example C06_example : match xcfun_eval_setup demo_state XC_A_B XC_PARTIAL_DERIVATIVES 1 with
                      | Ok (_, r) => r = XC_EVARS | _ => False end /\
  match xcfun_eval_setup demo_state XC_A_B_2ND_TAYLOR XC_POTENTIAL 1 with
                      | Ok (h, r) => r = 0%Z /\ h_mode h = XC_POTENTIAL | _ => False end.
Proof. vm_compute. repeat split. Qed.

(** Dependencies can be extended after a successful setup: the handle then holds a
    variable set that no longer provides what the active functionals need. *)
Theorem C06_setup_not_revalidated_refuted :
  exists (h : handle QOps) vd, reachable h /\ h_mode h = XC_PARTIAL_DERIVATIVES /\
    nth_error xcint_vars (Z.to_nat (h_vars h)) = Some vd /\ ~ vars_suffice h vd.
Proof.
  pose (cs := [qset "slaterx" 1%Q; CSetup XC_A_B XC_PARTIAL_DERIVATIVES 1; qset "pbex" 1%Q]).
  assert (F : match run xcfun_new cs with
              | Ok h => h_active h = [0; 5]%nat /\ h_mode h = XC_PARTIAL_DERIVATIVES /\ h_vars h = XC_A_B
              | _ => False end) by (vm_compute; repeat split; reflexivity).
  destruct (run xcfun_new cs) as [h| | |] eqn:E; try contradiction. destruct F as (Fa & Fm & Fv).
  exists h, (mkVars "XC_A_B" 2 XC_DENSITY). split; [exists cs; exact E|]. split; [exact Fm|].
  split; [rewrite Fv; reflexivity|].
  intro C. assert (H : Z.testbit (v_provides (mkVars "XC_A_B" 2 XC_DENSITY)) 1 = true).
  { refine (C 5%nat _ 1%Z _ _); [rewrite Fa; cbn; tauto|lia|reflexivity]. }
  vm_compute in H. discriminate.
Qed.
Print Assumptions C06_setup_not_revalidated_refuted.

(** C23: enumeration lists exactly the item names, which are distinct up to case and
    resolve to themselves; alias terms resolve. *)
Theorem C23_enumerate_parameters :
  forall p, (0 <= p)%Z ->
    xcfun_enumerate_parameters p = Ok (nth_error item_names (Z.to_nat p)) /\
    ((p < 82)%Z -> exists s, nth_error item_names (Z.to_nat p) = Some s /\ is_item s (Z.to_nat p)) /\
    ((82 <= p)%Z -> nth_error item_names (Z.to_nat p) = None).
Proof.
  intros p Hp. split; [exact (enum_params_spec p Hp)|]. split.
  - intro H. destruct (nth_error item_names (Z.to_nat p)) as [s|] eqn:E.
    + exists s. split; [reflexivity|]. exists s. split; [exact E|apply ci_refl].
    + apply nth_error_None in E. rewrite items_length in E. unfold XC_NR_PARAMETERS_AND_FUNCTIONALS in E. lia.
  - intro H. apply nth_error_None. rewrite items_length. unfold XC_NR_PARAMETERS_AND_FUNCTIONALS. lia.
Qed.
Print Assumptions C23_enumerate_parameters.

Theorem C23_names_unique :
  forall name i j, is_item name i -> is_item name j -> i = j.
Proof. exact is_item_inj. Qed.
Print Assumptions C23_names_unique.

Theorem C23_enumerate_aliases :
  forall n, xcfun_enumerate_aliases n =
    Ok (if Z.ltb n 0 then None else nth_error (map fst xcint_aliases) (Z.to_nat n)).
Proof. exact enum_aliases_spec. Qed.
Print Assumptions C23_enumerate_aliases.

Theorem C23_alias_terms_resolve :
  forall a ts, In (a, ts) xcint_aliases ->
    (length ts <= MAX_ALIAS_TERMS)%nat /\ forall t, In t ts -> exists i, is_item (fst t) i.
Proof. exact alias_terms_resolve. Qed.
Print Assumptions C23_alias_terms_resolve.

(** Enumerating with a negative index is out of bounds. *)
Theorem C23_enumerate_negative_refuted : exists p, xcfun_enumerate_parameters p = UB.
Proof. exists (-1)%Z. exact (enum_params_neg (-1) eq_refl). Qed.
Print Assumptions C23_enumerate_negative_refuted.

(** Four alias names are shadowed by functionals of the same name: setting them does
    not expand the alias (for OPTX the two differ). *)
Theorem C23_alias_shadowed_refuted :
  exists a ts, In (a, ts) xcint_aliases /\ (exists i, is_item a i) /\
    ts = [("slaterx", 1.05151%Q); ("optxcorr", (-1.43169)%Q)].
Proof.
  exists "OPTX". eexists. split; [apply (nth_error_In _ 37); reflexivity|]. split; [|reflexivity].
  exists 17%nat. apply lookup_functional_spec. vm_compute. reflexivity.
Qed.
Print Assumptions C23_alias_shadowed_refuted.

Example C23_example : xcfun_enumerate_parameters 79 = Ok (Some "EXX") /\
  xcfun_enumerate_parameters 82 = Ok None /\ xcfun_enumerate_aliases 10 = Ok (Some "b3lyp").
Proof. vm_compute. repeat split; reflexivity. Qed.

(** C24: descriptions exist exactly for known names. *)
Theorem C24_describe_known :
  forall name, (exists d, xcfun_describe name = Some d) <->
               ((exists i, is_item name i) \/ exists ts, is_alias name ts).
Proof. exact describe_iff. Qed.
Print Assumptions C24_describe_known.

Example C24_example : xcfun_describe "kt3x" = Some (DAlias 36) /\ xcfun_describe "" = None.
Proof. vm_compute. split; reflexivity. Qed.

(** C25: which_vars returns a valid set, named after the request, providing it. *)
Theorem C25_which_vars_sound :
  forall f d l k c e v, xcfun_which_vars f d l k c e = Ok v ->
    (0 <= v < XC_NR_VARS)%Z /\
    exists vd, nth_error xcint_vars (Z.to_nat v) = Some vd /\
      v_symbol vd = vars_symbol f d l k c e /\
      (f <> 0%N -> Z.testbit (v_provides vd) 1 = true) /\
      (l = 1%N -> Z.testbit (v_provides vd) 2 = true) /\
      (k = 1%N -> Z.testbit (v_provides vd) 3 = true) /\
      (c = 1%N -> Z.testbit (v_provides vd) 4 = true).
Proof.
  intros f d l k c e v H. destruct (which_vars_ok f d l k c e v H) as (A & _ & B). exact (conj A B).
Qed.
Print Assumptions C25_which_vars_sound.

Theorem C25_which_vars_injective :
  forall f d l k c e f' d' l' k' c' e' v,
    xcfun_which_vars f d l k c e = Ok v -> xcfun_which_vars f' d' l' k' c' e' = Ok v ->
    (f, d, l, k, c, e) = (f', d', l', k', c', e').
Proof.
  intros f d l k c e f' d' l' k' c' e' v H H'.
  destruct (which_vars_ok _ _ _ _ _ _ _ H) as (_ & A & _).
  destruct (which_vars_ok _ _ _ _ _ _ _ H') as (_ & A' & _). exact (eq_trans (eq_sym A) A').
Qed.
Print Assumptions C25_which_vars_injective.

Theorem C25_which_vars_onto :
  forall v, (0 <= v < XC_NR_VARS)%Z -> exists f d l k c e, xcfun_which_vars f d l k c e = Ok v.
Proof. exact which_vars_onto. Qed.
Print Assumptions C25_which_vars_onto.

Theorem C25_user_eval_setup :
  forall (K : Ops) (h : handle K) o f d m l k c e,
    (xcfun_user_eval_setup h o f d m l k c e = Die /\
       (xcfun_which_vars f d l k c e = Die \/ m = 0%N \/ (3 < m)%N)) \/
    (exists vars mode, (0 <= vars < XC_NR_VARS)%Z /\ xcfun_which_vars f d l k c e = Ok vars /\
       (m = 1 /\ mode = XC_PARTIAL_DERIVATIVES \/ m = 2 /\ mode = XC_POTENTIAL \/
        m = 3 /\ mode = XC_CONTRACTED)%N /\
       xcfun_user_eval_setup h o f d m l k c e = xcfun_eval_setup h vars mode o).
Proof.
  intros K h o f d m l k c e. unfold xcfun_user_eval_setup.
  destruct (which_vars_no_ub f d l k c e) as [E|[v E]]; rewrite E; cbn [obind].
  - left. auto.
  - unfold xcfun_which_mode. destruct (N.ltb_spec 3 m) as [Hm|Hm]; cbn [obind].
    + left. auto.
    + destruct (N_le3 m Hm) as [-> | [-> | [-> | ->]]]; cbn [obind];
        [left; auto|right|right|right]; (do 2 eexists; split;
        [exact (proj1 (which_vars_ok _ _ _ _ _ _ _ E))|]; split; [reflexivity|]; split; [|reflexivity]; auto).
Qed.
Print Assumptions C25_user_eval_setup.

Example C25_example : xcfun_which_vars 2 3 1 1 0 0 = Ok XC_N_S_GNN_GNS_GSS_LAPN_LAPS_TAUN_TAUS /\
  xcfun_which_vars 0 0 1 0 0 0 = Die /\ xcfun_which_vars 7 0 1 0 0 0 = Die.
Proof. vm_compute. repeat split; reflexivity. Qed.

(** C28: output length in derivative mode is a binomial coefficient, for every number
    of variables and order; all intermediate divisions are exact. *)
Theorem C28_taylorlen_binomial :
  forall n d : nat, taylorlen (Z.of_nat n) (Z.of_nat d) = Z.of_nat (binom (d + n) n) /\
    forall k, (k < n)%nat ->
      (taylorlen (Z.of_nat (S k)) (Z.of_nat d) * (Z.of_nat k + 1)
      = taylorlen (Z.of_nat k) (Z.of_nat d) * (Z.of_nat d + (Z.of_nat k + 1)))%Z.
Proof.
  intros n d. split; [exact (taylorlen_binom n d)|]. intros k _.
  rewrite !taylorlen_binom. pose proof (binom_step d k) as H. nia.
Qed.
Print Assumptions C28_taylorlen_binomial.

Example C28_example : taylorlen 20 4 = 10626%Z /\ taylorlen 5 2 = 21%Z.
Proof. vm_compute. split; reflexivity. Qed.

(** C29: the self test only accesses its reference data inside their bounds; every
    functional that carries a test accepts its own test setup. *)
Theorem C29_selftest_in_bounds :
  forall (K : Ops) fd, In fd xcint_funs ->
    @xcfun_test_one K fd = Ok None \/
    exists n m, @xcfun_test_one K fd = Ok (Some (0%Z, n, m)) /\
      (0 < n <= f_test_nin fd /\ 0 < m <= f_test_nout fd)%Z.
Proof. intro K. exact (proj1 (Forall_forall _ _) (test_one_bounds K)). Qed.
Print Assumptions C29_selftest_in_bounds.

Example C29_example : exists fd, In fd xcint_funs /\ f_name fd = "PBEC" /\
  @xcfun_test_one QOps fd = Ok (Some (0, 5, 21)%Z).
Proof.
  eexists. split; [apply (nth_error_In _ 4); reflexivity|]. split; vm_compute; reflexivity.
Qed.
