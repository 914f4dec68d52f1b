(** * Histories, setup, enumeration *)
From Coq Require Import String Ascii ZArith QArith List Bool Lia Permutation.
From Verif Require Import Scalar Tables Api SpecApi ApiProofs.
Import ListNotations.

Section Hist.
Context {K : Ops}.
Implicit Types h : handle K.

Lemma set_run h name v ws : wf h -> writes name v ws ->
  exists h' r, xcfun_set h name v = Ok (h', r) /\ wf h' /\ after h ws h'.
Proof.
  intros Hwf Hw. destruct (set_ok h name v ws 6 Hwf Hw) as (h' & E & Hwf' & A).
  exists h'. eexists. split; [exact E|]. split; assumption.
Qed.

Lemma setup_fields h vars mode order h' r : xcfun_eval_setup h vars mode order = Ok (h', r) ->
  h_settings h' = h_settings h /\ h_active h' = h_active h /\ h_depends h' = h_depends h.
Proof.
  unfold xcfun_eval_setup. destruct (vars_entry vars); cbn [obind]; try discriminate.
  repeat match goal with |- context [if ?b then _ else _] => destruct b end;
    intro H; inversion H; subst; auto.
Qed.

Lemma step_ok h c ws h' a : wf h -> call_writes c ws -> step h c = Ok (h', a) ->
  wf h' /\ h_settings h' = fold_left wr_settings ws (h_settings h) /\
  h_active h' = fold_left wr_active ws (h_active h).
Proof.
  intros Hwf Hw Hs. destruct c; cbn [call_writes] in Hw; cbn [step] in Hs.
  - destruct (set_run h name value ws Hwf Hw) as (h1 & r & E & Hwf1 & (A1 & A2 & _)).
    rewrite E in Hs. cbn in Hs. inversion Hs; subst. auto.
  - inversion Hs; subst. auto.
  - subst ws. destruct (xcfun_eval_setup h vars mode order) as [[h1 r]| | |] eqn:E; try discriminate.
    cbn in Hs. inversion Hs; subst. destruct (setup_fields _ _ _ _ _ _ E) as (A & B & C).
    destruct Hwf as (W1 & W2 & W3). unfold wf. rewrite A, B, C. auto.
  - subst ws. unfold xcfun_user_eval_setup in Hs.
    destruct (xcfun_which_vars func_type dens_type laplacian kinetic current explicit)
      as [vars| | |]; try discriminate.
    cbn [obind] in Hs. destruct (xcfun_which_mode mode_type) as [mode| | |]; try discriminate.
    cbn [obind] in Hs.
    destruct (xcfun_eval_setup h vars mode order) as [[h1 r]| | |] eqn:E; try discriminate.
    cbn in Hs. inversion Hs; subst. destruct (setup_fields _ _ _ _ _ _ E) as (A & B & C).
    destruct Hwf as (W1 & W2 & W3). unfold wf. rewrite A, B, C. auto.
  - destruct (xcfun_input_length h); try discriminate. cbn in Hs. inversion Hs; subst. auto.
  - destruct (xcfun_output_length h); try discriminate. cbn in Hs. inversion Hs; subst. auto.
  - inversion Hs; subst. auto.
  - inversion Hs; subst. auto.
Qed.

Lemma run_ok : forall cs h h' wss, wf h -> run h cs = Ok h' -> Forall2 call_writes cs wss ->
  wf h' /\ h_settings h' = fold_left wr_settings (concat wss) (h_settings h) /\
  h_active h' = fold_left wr_active (concat wss) (h_active h).
Proof.
  induction cs as [|c cs IH]; intros h h' wss Hwf Hr HF; inversion HF; subst.
  - cbn in Hr. inversion Hr; subst. auto.
  - cbn [run] in Hr. destruct (step h c) as [[h1 a]| | |] eqn:E; try discriminate.
    cbn [obind fst] in Hr.
    destruct (step_ok _ _ _ _ _ Hwf H1 E) as (W & S1 & S2).
    destruct (IH _ _ _ W Hr H3) as (W' & S1' & S2').
    cbn [concat]. rewrite !fold_left_app, <- S1, <- S2. auto.
Qed.

Lemma call_writes_total (c : call K) : exists ws, call_writes c ws.
Proof. destruct c; cbn; eauto. apply writes_total. Qed.

Lemma history_writes (cs : list (call K)) : exists wss, Forall2 call_writes cs wss.
Proof.
  induction cs as [|c cs [wss IH]]; [exists []; constructor|].
  destruct (call_writes_total c) as [ws Hw]. exists (ws :: wss). now constructor.
Qed.

Lemma run_wf cs h h' : wf h -> run h cs = Ok h' -> wf h'.
Proof.
  intros Hwf Hr. destruct (history_writes cs) as [wss HF]. eapply run_ok; eauto.
Qed.

Lemma reachable_wf h : reachable h -> wf h.
Proof. intros [cs Hr]. eapply run_wf; [apply wf_new|exact Hr]. Qed.

(** Value of an item after a list of writes. *)
Lemma fold_settings_fun : forall (ws : list (nat * K)) s i, (i < 78)%nat ->
  fold_left wr_settings ws s i = fold_left Oadd (values_of i ws) (s i).
Proof.
  induction ws as [|[j v] ws IH]; intros s i Hi; [reflexivity|].
  cbn [fold_left]. rewrite IH by exact Hi. unfold wr_settings, values_of, upd.
  cbn [fst snd filter]. rewrite Nat.eqb_sym.
  destruct (Nat.eqb j i) eqn:E; [|reflexivity].
  apply Nat.eqb_eq in E. subst j. replace (Nat.ltb i 78) with true by (symmetry; now apply Nat.ltb_lt).
  reflexivity.
Qed.

Lemma last_cons_irrel {A} (l : list A) x d d' : last (x :: l) d = last (x :: l) d'.
Proof. revert x. induction l as [|y l IH]; intro x; [reflexivity|]. cbn. apply IH. Qed.

Lemma fold_settings_par : forall (ws : list (nat * K)) s i, (78 <= i)%nat ->
  fold_left wr_settings ws s i = last (values_of i ws) (s i).
Proof.
  induction ws as [|[j v] ws IH]; intros s i Hi; [reflexivity|].
  cbn [fold_left]. rewrite IH by exact Hi. unfold wr_settings, values_of, upd.
  cbn [fst snd filter]. rewrite Nat.eqb_sym.
  destruct (Nat.eqb j i) eqn:E; [|reflexivity].
  apply Nat.eqb_eq in E. subst j. replace (Nat.ltb i 78) with false by (symmetry; now apply Nat.ltb_ge).
  cbn [map]. destruct (map snd (filter (fun w => Nat.eqb (fst w) i) ws)) as [|x l]; [reflexivity|].
  etransitivity; [apply (last_cons_irrel l x _ (s i))|reflexivity].
Qed.

Lemma get_item h name i : is_item name i -> xcfun_get h name = Some (h_settings h i).
Proof.
  intro Hi. unfold xcfun_get. destruct (Nat.lt_ge_cases i 78) as [H78|H78].
  - replace (xcint_lookup_functional name) with (Some i)
      by (symmetry; apply lookup_functional_spec; auto). reflexivity.
  - destruct (xcint_lookup_functional name) as [j|] eqn:E.
    + apply lookup_functional_spec in E. destruct E as [Hj Hj'].
      rewrite (is_item_inj _ _ _ Hi Hj) in H78. lia.
    + replace (xcint_lookup_parameter name) with (Some i)
        by (symmetry; apply lookup_parameter_spec; auto). reflexivity.
Qed.

Lemma get_none h name : no_item name -> xcfun_get h name = None.
Proof.
  intro Hn. unfold xcfun_get. destruct (no_item_lookup _ Hn) as [-> ->]. reflexivity.
Qed.

Lemma weights_history cs h wss name i :
  run xcfun_new cs = Ok h -> Forall2 call_writes cs wss -> is_item name i -> (i < 78)%nat ->
  xcfun_get h name = Some (fold_left Oadd (values_of i (concat wss)) (OofQ 0%Q)).
Proof.
  intros Hr HF Hi H78. destruct (run_ok _ _ _ _ wf_new Hr HF) as (_ & S1 & _).
  rewrite (get_item _ _ _ Hi), S1, fold_settings_fun by exact H78.
  do 2 f_equal. cbn. unfold default_setting.
  replace (Nat.ltb i XC_NR_FUNCTIONALS) with true by (symmetry; now apply Nat.ltb_lt). reflexivity.
Qed.

Lemma default_param i : (78 <= i < 82)%nat -> @default_setting K i = OofQ (param_default i).
Proof.
  intro Hi. assert (H : (i = 78 \/ i = 79 \/ i = 80 \/ i = 81)%nat) by lia.
  destruct H as [H|[H|[H|H]]]; subst i; reflexivity.
Qed.

Lemma params_history cs h wss name i :
  run xcfun_new cs = Ok h -> Forall2 call_writes cs wss -> is_item name i -> (78 <= i)%nat ->
  xcfun_get h name = Some (last (values_of i (concat wss)) (OofQ (param_default i))).
Proof.
  intros Hr HF Hi H78. destruct (run_ok _ _ _ _ wf_new Hr HF) as (_ & S1 & _).
  rewrite (get_item _ _ _ Hi), S1, fold_settings_par by exact H78.
  do 2 f_equal. apply default_param. split; [exact H78|]. eapply is_item_lt; eauto.
Qed.

(** Histories of set/get calls never terminate the process. *)
Definition set_or_get (c : call K) : Prop :=
  match c with CSet _ _ | CGet _ | CIsGga | CIsMetagga => True | _ => False end.
Lemma set_history_ok : forall cs h, wf h -> Forall set_or_get cs -> exists h', run h cs = Ok h'.
Proof.
  induction cs as [|c cs IH]; intros h Hwf HF; [exists h; reflexivity|].
  inversion HF; subst. cbn [run].
  destruct (call_writes_total c) as [ws Hw].
  assert (exists h1 a, step h c = Ok (h1, a)) as (h1 & a & E).
  { destruct c; cbn in H1; try contradiction; cbn [step]; eauto.
    destruct (set_run h name value ws Hwf Hw) as (h1 & r & E & _). rewrite E. cbn. eauto. }
  rewrite E. cbn [obind fst]. apply IH; [|assumption]. eapply step_ok; eauto.
Qed.

(** ** Rejection of unknown names; case-insensitivity *)
Lemma set_unknown h name v : no_item name -> (forall ts, ~ is_alias name ts) ->
  xcfun_set h name v = Ok (h, (-1)%Z).
Proof.
  intros Hn Ha. unfold xcfun_set. rewrite set_unfold.
  destruct (no_item_lookup _ Hn) as [-> ->]. rewrite (proj2 (lookup_alias_none name) Ha). reflexivity.
Qed.

Lemma alias_nonempty : forallb (fun a => negb (Nat.eqb (length (snd a)) 0)) xcint_aliases = true.
Proof. vm_compute. reflexivity. Qed.

Lemma set_known h name v : wf h -> ((exists i, is_item name i) \/ exists ts, is_alias name ts) ->
  exists h', xcfun_set h name v = Ok (h', 0%Z).
Proof.
  intros Hwf Hk. destruct (writes_total name v) as [ws Hw].
  destruct (set_ok h name v ws 6 Hwf Hw) as (h' & E & _). exists h'. unfold xcfun_set. rewrite E.
  do 2 f_equal. destruct ws; [|reflexivity]. inversion Hw; subst.
  - destruct (lookup_alias_is_alias _ _ H0) as (k & a & -> & _). reflexivity.
  - destruct Hk as [[i Hi]|[ts Hts]]; exfalso; [eapply H; eauto|eapply H0; eauto].
Qed.

Lemma set_ci : forall fuel h a b v, ci_eq a b -> xcfun_set_f fuel h a v = xcfun_set_f fuel h b v.
Proof.
  intros [|fuel] h a b v H; [reflexivity|]. rewrite !set_unfold.
  unfold xcint_lookup_functional, xcint_lookup_parameter, xcint_lookup_alias.
  rewrite !(first_match_ci _ _ _ _ H). reflexivity.
Qed.
Lemma get_ci : forall h a b, ci_eq a b -> xcfun_get h a = xcfun_get h b.
Proof.
  intros h a b H. unfold xcfun_get, xcint_lookup_functional, xcint_lookup_parameter.
  rewrite !(first_match_ci _ _ _ _ H). reflexivity.
Qed.

(** ** Alias expansion *)
Lemma alias_is_terms h name v terms : wf h -> no_item name -> is_alias name terms ->
  exists h', xcfun_set h name v = Ok (h', 0%Z) /\
    run h (map (fun t => CSet (fst t) (Omul v (OofQ (snd t)))) terms) = Ok h'.
Proof.
  intros Hwf Hn Ha. unfold xcfun_set. rewrite set_unfold.
  destruct (no_item_lookup _ Hn) as [-> ->].
  destruct (lookup_alias_is_alias _ _ Ha) as (k & a & -> & Hk).
  rewrite (nth_error_nth _ _ _ Hk). cbn [snd].
  destruct (alias_terms_resolve a terms (nth_error_In _ _ Hk)) as [Hlen Hr].
  rewrite firstn_all2 by exact Hlen. clear Hk Hlen Ha. revert h Hwf.
  induction terms as [|[n q] ts IH]; intros h Hwf; [exists h; split; reflexivity|].
  destruct (Hr _ (or_introl eq_refl)) as [i Hi]. cbn in Hi.
  destruct (set_item_ok h n i (Omul v (OofQ q)) 6 Hwf Hi) as (h1 & E & Hwf1 & _).
  destruct (IH (fun t Ht => Hr t (or_intror Ht)) h1 Hwf1) as (h' & E1 & E2).
  exists h'. cbn [alias_loop map run step fst snd]. split.
  - rewrite E. cbn [obind snd fst Z.eqb]. exact E1.
  - unfold xcfun_set. rewrite (set_fuel_irrelevant h n _ 6 5 Hwf), E.
    cbn [obind fst snd]. exact E2.
Qed.

(** ** Active list *)
Lemma fold_active_in : forall (ws : list (nat * K)) l i,
  In i (fold_left wr_active ws l) <->
  In i l \/ ((i < 78)%nat /\ exists v, In (i, v) ws).
Proof.
  induction ws as [|[j v] ws IH]; intros l i; cbn [fold_left].
  - split; [tauto|]. intros [H|[_ [v []]]]. exact H.
  - rewrite IH. unfold wr_active. cbn [fst].
    destruct (Nat.ltb j 78) eqn:E78.
    + apply Nat.ltb_lt in E78. destruct (existsb (Nat.eqb j) l) eqn:Ex.
      * assert (Hj : In j l).
        { apply existsb_exists in Ex. destruct Ex as (x & Hx & Ex). apply Nat.eqb_eq in Ex. now subst. }
        split.
        -- intros [H|[H1 [u H2]]]; [tauto|]. right. split; [exact H1|]. exists u. now right.
        -- intros [H|[H1 [u [H2|H2]]]]; [tauto|inversion H2; subst; tauto|]. right. split; [exact H1|]. eauto.
      * split.
        -- intros [H|[H1 [u H2]]].
           ++ apply in_app_or in H. destruct H as [H|[<-|[]]]; [tauto|]. right. split; [exact E78|].
              exists v. now left.
           ++ right. split; [exact H1|]. exists u. now right.
        -- intros [H|[H1 [u [H2|H2]]]].
           ++ left. apply in_or_app. tauto.
           ++ inversion H2; subst. left. apply in_or_app. right. now left.
           ++ right. split; [exact H1|]. eauto.
    + apply Nat.ltb_ge in E78. split.
      * intros [H|[H1 [u H2]]]; [tauto|]. right. split; [exact H1|]. exists u. now right.
      * intros [H|[H1 [u [H2|H2]]]]; [tauto|inversion H2; subst; lia|]. right. split; [exact H1|]. eauto.
Qed.

Lemma active_history cs h wss i :
  run xcfun_new cs = Ok h -> Forall2 call_writes cs wss ->
  (In i (h_active h) <-> (i < 78)%nat /\ exists v, In (i, v) (concat wss)).
Proof.
  intros Hr HF. destruct (run_ok _ _ _ _ wf_new Hr HF) as (_ & _ & S2).
  rewrite S2, fold_active_in. cbn. tauto.
Qed.

(** ** Dependency flags *)
Lemma or_flags_bit : forall l d k,
  Z.testbit (fold_left (fun d i => Z.lor d (flags i)) l d) k = true <->
  Z.testbit d k = true \/ exists i, In i l /\ Z.testbit (flags i) k = true.
Proof.
  induction l as [|j l IH]; intros d k; cbn [fold_left].
  - split; [tauto|]. intros [H|(i & [] & _)]. exact H.
  - rewrite IH, Z.lor_spec, orb_true_iff. split.
    + intros [[H|H]|(i & H1 & H2)]; [tauto| |]; right; [exists j|exists i]; cbn; tauto.
    + intros [H|(i & [<-|H1] & H2)]; [tauto|tauto|]. right. exists i. tauto.
Qed.

Lemma depends_bit h k : wf h ->
  (Z.testbit (h_depends h) k = true <-> exists i, In i (h_active h) /\ Z.testbit (flags i) k = true).
Proof.
  intros (_ & _ & ->). unfold or_flags. rewrite or_flags_bit, Z.bits_0. split.
  - intros [H|H]; [discriminate|exact H].
  - tauto.
Qed.

Lemma land_bit_nonzero d k : (0 <= k)%Z ->
  negb (Z.eqb (Z.land d (2 ^ k)) 0) = Z.testbit d k.
Proof.
  intro Hk. destruct (Z.testbit d k) eqn:E.
  - apply negb_true_iff, Z.eqb_neq. intro C.
    assert (Z.testbit (Z.land d (2 ^ k)) k = true).
    { rewrite Z.land_spec, E, Z.pow2_bits_true; auto. }
    rewrite C, Z.bits_0 in H. discriminate.
  - apply negb_false_iff, Z.eqb_eq. apply Z.bits_inj'. intros n Hn.
    rewrite Z.land_spec, Z.bits_0, Z.pow2_bits_eqb by exact Hk.
    destruct (Z.eqb_spec k n); [subst; now rewrite E|apply andb_false_r].
Qed.

Lemma is_gga_iff h : wf h -> (xcfun_is_gga h = true <-> needs_gradient h).
Proof.
  intro Hwf. unfold xcfun_is_gga. change XC_GRADIENT with (2 ^ 1)%Z.
  rewrite land_bit_nonzero by lia. rewrite depends_bit by exact Hwf. reflexivity.
Qed.

Lemma meta_bits d : negb (Z.eqb (Z.land d (Z.lor XC_LAPLACIAN XC_KINETIC)) 0) = true <->
  Z.testbit d 2 = true \/ Z.testbit d 3 = true.
Proof.
  rewrite Z.land_lor_distr_r. change XC_LAPLACIAN with (2 ^ 2)%Z. change XC_KINETIC with (2 ^ 3)%Z.
  rewrite <- (land_bit_nonzero d 2), <- (land_bit_nonzero d 3) by lia.
  rewrite !negb_true_iff, !Z.eqb_neq, Z.lor_eq_0_iff.
  destruct (Z.eq_dec (Z.land d (2 ^ 2)) 0), (Z.eq_dec (Z.land d (2 ^ 3)) 0); tauto.
Qed.

Lemma is_metagga_iff h : wf h -> (xcfun_is_metagga h = true <-> needs_meta h).
Proof.
  intro Hwf. unfold xcfun_is_metagga. rewrite meta_bits.
  rewrite !depends_bit by exact Hwf. unfold needs_meta, needs, bit_laplacian, bit_kinetic.
  split.
  - intros [(i & H1 & H2)|(i & H1 & H2)]; exists i; tauto.
  - intros (i & H1 & [H2|H2]); [left|right]; exists i; tauto.
Qed.

(** ** Setup *)
Lemma provides_iff h vd : wf h ->
  (Z.eqb (Z.land (h_depends h) (v_provides vd)) (h_depends h) = true <-> vars_suffice h vd).
Proof.
  intro Hwf. rewrite Z.eqb_eq. unfold vars_suffice, subset_bits. split.
  - intros E i Hi k Hk Hb.
    assert (Hd : Z.testbit (h_depends h) k = true) by (apply depends_bit; eauto).
    rewrite <- E, Z.land_spec in Hd. now apply andb_prop in Hd.
  - intros H. apply Z.bits_inj'. intros k Hk. rewrite Z.land_spec.
    destruct (Z.testbit (h_depends h) k) eqn:E; [|reflexivity].
    apply depends_bit in E; [|exact Hwf]. destruct E as (i & Hi & Hb).
    rewrite (H i Hi k Hk Hb). reflexivity.
Qed.

Lemma is_2nd_taylor_iff vars : is_2nd_taylor vars = true <-> full_taylor_vars vars.
Proof.
  unfold is_2nd_taylor, full_taylor_vars. rewrite !orb_true_iff, !Z.eqb_eq. tauto.
Qed.

Lemma vars_entry_ok vars : (0 <= vars < XC_NR_VARS)%Z ->
  exists vd, vars_entry vars = Ok vd /\ nth_error xcint_vars (Z.to_nat vars) = Some vd.
Proof.
  intros [H1 H2]. unfold vars_entry.
  replace (Z.ltb vars 0) with false by (symmetry; now apply Z.ltb_ge).
  destruct (nth_error xcint_vars (Z.to_nat vars)) as [vd|] eqn:E; [eauto|].
  apply nth_error_None in E. change (length xcint_vars) with 31%nat in E.
  unfold XC_NR_VARS in H2. lia.
Qed.

Lemma vars_entry_bad vars : (vars < 0 \/ XC_NR_VARS <= vars)%Z -> vars_entry vars = UB.
Proof.
  intros [H|H]; unfold vars_entry.
  - replace (Z.ltb vars 0) with true by (symmetry; now apply Z.ltb_lt). reflexivity.
  - unfold XC_NR_VARS in H.
    replace (Z.ltb vars 0) with false by (symmetry; apply Z.ltb_ge; lia).
    destruct (nth_error xcint_vars (Z.to_nat vars)) eqn:E; [|reflexivity].
    assert (Hlt : (Z.to_nat vars < length xcint_vars)%nat) by (apply nth_error_Some; congruence).
    change (length xcint_vars) with 31%nat in Hlt. lia.
Qed.

(** The exact return code of setup. *)
Inductive setup_code (h : handle K) (vars mode order : Z) (vd : vars_data) : Z -> Prop :=
| sc_vars : ~ vars_suffice h vd -> setup_code h vars mode order vd XC_EVARS
| sc_order : vars_suffice h vd -> ~ order_ok mode order -> setup_code h vars mode order vd XC_EORDER
| sc_gga : vars_suffice h vd -> order_ok mode order -> mode = XC_POTENTIAL ->
    needs_gradient h -> ~ full_taylor_vars vars ->
    setup_code h vars mode order vd (XC_EVARS + XC_EMODE)
| sc_meta : vars_suffice h vd -> order_ok mode order -> mode = XC_POTENTIAL ->
    (needs_gradient h -> full_taylor_vars vars) -> needs_meta h ->
    setup_code h vars mode order vd XC_EMODE
| sc_ok : vars_suffice h vd -> order_ok mode order ->
    (mode = XC_POTENTIAL -> (needs_gradient h -> full_taylor_vars vars) /\ ~ needs_meta h) ->
    setup_code h vars mode order vd 0.

Lemma order_check mode order :
  orb (orb (Z.ltb order 0) (Z.ltb XCFUN_MAX_ORDER order))
      (andb (Z.eqb mode XC_PARTIAL_DERIVATIVES) (Z.ltb 4 order)) = false <-> order_ok mode order.
Proof.
  unfold order_ok, XCFUN_MAX_ORDER.
  rewrite !orb_false_iff, andb_false_iff, !Z.ltb_ge, Z.eqb_neq. split.
  - intros [[H1 H2] [H3|H3]]; split; try lia; intros; try contradiction; lia.
  - intros [H1 H2]. split; [split; lia|]. destruct (Z.eq_dec mode XC_PARTIAL_DERIVATIVES); [right; auto|now left].
Qed.

Lemma setup_exact h vars mode order : wf h -> (0 <= vars < XC_NR_VARS)%Z ->
  exists vd r h', nth_error xcint_vars (Z.to_nat vars) = Some vd /\
    xcfun_eval_setup h vars mode order = Ok (h', r) /\
    setup_code h vars mode order vd r /\
    (r <> 0%Z -> h' = h) /\
    (r = 0%Z -> h' = mkH (h_active h) order (h_depends h) mode vars (h_settings h)).
Proof.
  intros Hwf Hv. destruct (vars_entry_ok vars Hv) as (vd & E & Hvd).
  exists vd. unfold xcfun_eval_setup. rewrite E. cbn [obind].
  pose proof (provides_iff h vd Hwf) as P1.
  pose proof (order_check mode order) as P2.
  pose proof (is_gga_iff h Hwf) as P3. unfold xcfun_is_gga in P3.
  pose proof (is_metagga_iff h Hwf) as P4. unfold xcfun_is_metagga in P4.
  pose proof (is_2nd_taylor_iff vars) as P5.
  destruct (Z.eqb (Z.land (h_depends h) (v_provides vd)) (h_depends h)) eqn:E1; cbn [negb].
  2:{ exists XC_EVARS, h. repeat split; auto; [|discriminate].
      apply sc_vars. intro C. apply P1 in C. discriminate. }
  assert (S1 : vars_suffice h vd) by (apply P1; reflexivity).
  destruct (orb (orb (Z.ltb order 0) (Z.ltb XCFUN_MAX_ORDER order))
      (andb (Z.eqb mode XC_PARTIAL_DERIVATIVES) (Z.ltb 4 order))) eqn:E2.
  { exists XC_EORDER, h. repeat split; auto; [|discriminate]. apply sc_order; [exact S1|].
    intro C. apply P2 in C. discriminate. }
  assert (S2 : order_ok mode order) by (apply P2; reflexivity).
  destruct (Z.eqb mode XC_POTENTIAL) eqn:E3; cbn [andb].
  2:{ exists 0%Z. eexists. repeat split; eauto; try congruence. apply sc_ok; auto.
      intro C. apply Z.eqb_neq in E3. contradiction. }
  apply Z.eqb_eq in E3.
  destruct (negb (Z.eqb (Z.land (h_depends h) XC_GRADIENT) 0)) eqn:E4; cbn [andb].
  - assert (S3 : needs_gradient h) by (apply P3; reflexivity).
    destruct (is_2nd_taylor vars) eqn:E5; cbn [negb].
    + assert (S4 : full_taylor_vars vars) by (apply P5; reflexivity).
      destruct (negb (Z.eqb (Z.land (h_depends h) (Z.lor XC_LAPLACIAN XC_KINETIC)) 0)) eqn:E6.
      * exists XC_EMODE, h. repeat split; auto; [|discriminate]. apply sc_meta; auto.
        apply P4; reflexivity.
      * exists 0%Z. eexists. repeat split; eauto; try congruence. apply sc_ok; auto.
        intros _. split; [auto|]. intro C. apply P4 in C. congruence.
    + exists (Z.lor XC_EVARS XC_EMODE), h. repeat split; auto; [|discriminate].
      change (Z.lor XC_EVARS XC_EMODE) with (XC_EVARS + XC_EMODE)%Z. apply sc_gga; auto.
      intro C. apply P5 in C. discriminate.
  - assert (S3 : ~ needs_gradient h) by (intro C; apply P3 in C; congruence).
    destruct (negb (Z.eqb (Z.land (h_depends h) (Z.lor XC_LAPLACIAN XC_KINETIC)) 0)) eqn:E6.
    * exists XC_EMODE, h. repeat split; auto; [|discriminate]. apply sc_meta; auto; [contradiction|].
      apply P4; reflexivity.
    * exists 0%Z. eexists. repeat split; eauto; try congruence. apply sc_ok; auto.
      intros _. split; [intro; contradiction|]. intro C. apply P4 in C. congruence.
Qed.
End Hist.

(** ** which_vars *)
Definition decode_vars (v : Z) : N * N * N * N * N * N :=
  nth (Z.to_nat v)
   [(0,0,0,0,0,0); (0,1,0,0,0,0); (0,2,0,0,0,0); (0,3,0,0,0,0);
    (1,0,0,0,0,0); (1,1,0,0,0,0); (1,2,0,0,0,0); (1,3,0,0,0,0);
    (2,0,1,0,0,0); (2,0,0,1,0,0); (2,1,1,0,0,0); (2,1,0,1,0,0);
    (2,2,1,0,0,0); (2,2,0,1,0,0); (2,3,1,0,0,0); (2,3,0,1,0,0);
    (2,2,1,1,0,0); (2,2,1,1,1,0); (2,3,1,1,0,0);
    (1,0,0,0,0,1); (1,2,0,0,0,1); (1,1,0,0,0,1); (1,3,0,0,0,1);
    (2,0,0,1,0,1); (2,2,0,1,0,1); (2,1,0,1,0,1); (2,3,0,1,0,1);
    (3,0,0,0,0,0); (3,2,0,0,0,0); (3,1,0,0,0,0); (3,3,0,0,0,0)]%N (0,0,0,0,0,0)%N.

Lemma N_le3 (n : N) : (n <= 3)%N -> n = 0%N \/ n = 1%N \/ n = 2%N \/ n = 3%N.
Proof. lia. Qed.
Lemma N_le1 (n : N) : (n <= 1)%N -> n = 0%N \/ n = 1%N.
Proof. lia. Qed.

Lemma which_vars_ok f d l k c e v : xcfun_which_vars f d l k c e = Ok v ->
  (0 <= v < XC_NR_VARS)%Z /\ decode_vars v = (f, d, l, k, c, e) /\
  exists vd, nth_error xcint_vars (Z.to_nat v) = Some vd /\
    v_symbol vd = vars_symbol f d l k c e /\
    (f <> 0%N -> Z.testbit (v_provides vd) 1 = true) /\
    (l = 1%N -> Z.testbit (v_provides vd) 2 = true) /\
    (k = 1%N -> Z.testbit (v_provides vd) 3 = true) /\
    (c = 1%N -> Z.testbit (v_provides vd) 4 = true).
Proof.
  intro H. unfold xcfun_which_vars in H.
  destruct ((3 <? f)%N || (3 <? d)%N || (1 <? l)%N || (1 <? k)%N || (1 <? c)%N || (1 <? e)%N)
    eqn:E; [discriminate|].
  rewrite !orb_false_iff, !N.ltb_ge in E. destruct E as [[[[[Ef Ed] El] Ek] Ec] Ee].
  apply N_le3 in Ef, Ed. apply N_le1 in El, Ek, Ec, Ee.
  destruct El as [-> | ->], Ek as [-> | ->], Ec as [-> | ->], Ee as [-> | ->],
    Ef as [-> | [-> | [-> | ->]]], Ed as [-> | [-> | [-> | ->]]];
    vm_compute in H; try discriminate; inversion H; subst v;
    (split; [vm_compute; split; congruence|]; split; [reflexivity|];
     eexists; split; [reflexivity|]; vm_compute; repeat split; congruence).
Qed.

Lemma which_vars_onto v : (0 <= v < XC_NR_VARS)%Z ->
  exists f d l k c e, xcfun_which_vars f d l k c e = Ok v.
Proof.
  intro H. exists (let '(f,_,_,_,_,_) := decode_vars v in f), (let '(_,d,_,_,_,_) := decode_vars v in d),
    (let '(_,_,l,_,_,_) := decode_vars v in l), (let '(_,_,_,k,_,_) := decode_vars v in k),
    (let '(_,_,_,_,c,_) := decode_vars v in c), (let '(_,_,_,_,_,e) := decode_vars v in e).
  assert (Hn : (Z.to_nat v < 31)%nat) by (unfold XC_NR_VARS in H; lia).
  replace v with (Z.of_nat (Z.to_nat v)) by lia.
  generalize dependent (Z.to_nat v). intros n Hn.
  do 31 (destruct n as [|n]; [vm_compute; reflexivity|]). lia.
Qed.

Lemma which_vars_no_ub f d l k c e : xcfun_which_vars f d l k c e = Die \/
  exists v, xcfun_which_vars f d l k c e = Ok v.
Proof.
  unfold xcfun_which_vars. destruct (_ || _)%bool; [now left|].
  destruct (which_vars_switch _); eauto.
Qed.

(** ** Enumeration and description *)
Lemma enum_params_spec (p : Z) : (0 <= p)%Z ->
  xcfun_enumerate_parameters p = Ok (nth_error item_names (Z.to_nat p)).
Proof.
  intro Hp. unfold xcfun_enumerate_parameters, item_names.
  change (Z.of_nat XC_NR_FUNCTIONALS) with 78%Z.
  change (Z.of_nat XC_NR_PARAMETERS_AND_FUNCTIONALS) with 82%Z.
  destruct (Z.ltb_spec p 78).
  - replace (0 <=? p)%Z with true by (symmetry; now apply Z.leb_le). cbn [andb].
    rewrite nth_error_app1; [now rewrite nth_error_map|].
    rewrite map_length, funs_length. unfold XC_NR_FUNCTIONALS. lia.
  - rewrite andb_false_r.
    rewrite nth_error_app2 by (rewrite map_length, funs_length; unfold XC_NR_FUNCTIONALS; lia).
    rewrite map_length, funs_length, nth_error_map.
    destruct (Z.ltb_spec p 82).
    + replace (p <? 0)%Z with false by (symmetry; now apply Z.ltb_ge). reflexivity.
    + assert (nth_error xcint_params (Z.to_nat p - XC_NR_FUNCTIONALS) = None) as ->; [|reflexivity].
      apply nth_error_None. change (length xcint_params) with 4%nat. unfold XC_NR_FUNCTIONALS. lia.
Qed.

Lemma enum_params_neg (p : Z) : (p < 0)%Z -> xcfun_enumerate_parameters p = UB.
Proof.
  intro Hp. unfold xcfun_enumerate_parameters.
  replace (0 <=? p)%Z with false by (symmetry; now apply Z.leb_gt). cbn [andb].
  change (Z.of_nat XC_NR_PARAMETERS_AND_FUNCTIONALS) with 82%Z.
  replace (p <? 82)%Z with true by (symmetry; apply Z.ltb_lt; lia).
  replace (p <? 0)%Z with true by (symmetry; now apply Z.ltb_lt). reflexivity.
Qed.

Lemma enum_aliases_spec (n : Z) :
  xcfun_enumerate_aliases n =
    Ok (if Z.ltb n 0 then None else nth_error (map fst xcint_aliases) (Z.to_nat n)).
Proof.
  unfold xcfun_enumerate_aliases, XC_MAX_ALIASES.
  destruct (Z.ltb_spec n 0).
  - replace (0 <=? n)%Z with false by (symmetry; now apply Z.leb_gt). reflexivity.
  - replace (0 <=? n)%Z with true by (symmetry; now apply Z.leb_le). cbn [andb].
    rewrite nth_error_map.
    destruct (Z.ltb_spec n 60); [reflexivity|].
    assert (nth_error xcint_aliases (Z.to_nat n) = None) as ->; [|reflexivity].
    apply nth_error_None. change (length xcint_aliases) with 46%nat. lia.
Qed.

Lemma describe_iff name :
  (exists d, xcfun_describe name = Some d) <-> ((exists i, is_item name i) \/ exists ts, is_alias name ts).
Proof.
  unfold xcfun_describe. destruct (item_dec name) as [[i Hi]|Hn].
  - split; [eauto|]. intros _. destruct (xcint_lookup_functional name) eqn:E1; [eauto|].
    destruct (xcint_lookup_parameter name) eqn:E2; [eauto|]. exfalso.
    destruct (Nat.lt_ge_cases i 78) as [H|H].
    + assert (xcint_lookup_functional name = Some i) by (apply lookup_functional_spec; auto). congruence.
    + assert (xcint_lookup_parameter name = Some i) by (apply lookup_parameter_spec; auto). congruence.
  - destruct (no_item_lookup _ Hn) as [-> ->].
    destruct (xcint_lookup_alias name) as [k|] eqn:E.
    + destruct (lookup_alias_some _ _ E) as (a & ts & Hk & Hc). split; [|eauto].
      intros _. right. exists ts, a. split; [eapply nth_error_In; eauto|exact Hc].
    + split; [intros [d C]; discriminate|]. rewrite lookup_alias_none in E.
      intros [[i Hi]|[ts Hts]]; exfalso; [eapply Hn; eauto|eapply E; eauto].
Qed.

(** ** taylorlen *)
Lemma binom_0_r n : binom n 0 = 1%nat.
Proof. destruct n; reflexivity. Qed.
Lemma binom_gt : forall n k, (n < k)%nat -> binom n k = 0%nat.
Proof.
  induction n; intros [|k] H; try lia; [reflexivity|]. cbn. rewrite !IHn by lia. reflexivity.
Qed.
Lemma binom_absorb : forall n k, (S k * binom (S n) (S k) = S n * binom n k)%nat.
Proof.
  induction n; intros k.
  - destruct k; cbn; lia.
  - change (binom (S (S n)) (S k)) with (binom (S n) k + binom (S n) (S k))%nat.
    destruct k as [|k].
    + rewrite !binom_0_r. specialize (IHn 0%nat). rewrite binom_0_r in IHn. lia.
    + pose proof (IHn k) as H1. pose proof (IHn (S k)) as H2.
      change (binom (S n) (S k)) with (binom n k + binom n (S k))%nat in *.
      nia.
Qed.

Lemma binom_step d k : (binom (d + S k) (S k) * S k = binom (d + k) k * (d + S k))%nat.
Proof.
  replace (d + S k)%nat with (S (d + k)) by lia. pose proof (binom_absorb (d + k) k). lia.
Qed.

Lemma taylorlen_iter (d : nat) : forall n,
  Nat.iter n (fun st => let '(len, k) := st in (Z.quot (len * (Z.of_nat d + k)) k, k + 1)%Z) (1, 1)%Z
  = (Z.of_nat (binom (d + n) n), Z.of_nat n + 1)%Z.
Proof.
  induction n.
  - cbn. rewrite binom_0_r. reflexivity.
  - cbn [Nat.iter nat_rect]. change (nat_rect _ _ _ n) with
      (Nat.iter n (fun st => let '(len, k) := st in (Z.quot (len * (Z.of_nat d + k)) k, k + 1)%Z) (1, 1)%Z).
    rewrite IHn. f_equal; [|lia].
    replace (Z.of_nat d + (Z.of_nat n + 1))%Z with (Z.of_nat (d + S n)) by lia.
    rewrite <- Nat2Z.inj_mul, <- binom_step, Nat2Z.inj_mul.
    replace (Z.of_nat n + 1)%Z with (Z.of_nat (S n)) by lia.
    apply Z.quot_mul. lia.
Qed.

Lemma taylorlen_binom (n d : nat) :
  taylorlen (Z.of_nat n) (Z.of_nat d) = Z.of_nat (binom (d + n) n).
Proof. unfold taylorlen. rewrite Nat2Z.id, taylorlen_iter. reflexivity. Qed.

(** Exactness of each division. *)
Lemma taylorlen_exact (n d : nat) :
  forall k, (k < n)%nat ->
    ((Z.of_nat (binom (d + k) k) * (Z.of_nat d + (Z.of_nat k + 1))) mod (Z.of_nat k + 1) = 0)%Z.
Proof.
  intros k _. replace (Z.of_nat d + (Z.of_nat k + 1))%Z with (Z.of_nat (d + S k)) by lia.
  rewrite <- Nat2Z.inj_mul, <- binom_step, Nat2Z.inj_mul.
  replace (Z.of_nat k + 1)%Z with (Z.of_nat (S k)) by lia. apply Z.mod_mul. lia.
Qed.

Lemma test_one_bounds (K : Ops) :
  Forall (fun fd =>
    @xcfun_test_one K fd = Ok None \/
    exists n m, @xcfun_test_one K fd = Ok (Some (0%Z, n, m)) /\
      (0 < n <= f_test_nin fd /\ 0 < m <= f_test_nout fd)%Z) xcint_funs.
Proof.
  apply Forall_forall. intros fd H.
  assert (E : forallb (fun fd => match @xcfun_test_one K fd with
     | Ok None => true
     | Ok (Some (r, n, m)) => andb (Z.eqb r 0) (andb (andb (Z.ltb 0 n) (Z.leb n (f_test_nin fd)))
                                   (andb (Z.ltb 0 m) (Z.leb m (f_test_nout fd))))
     | _ => false end) xcint_funs = true) by (vm_compute; reflexivity).
  rewrite forallb_forall in E. specialize (E fd H). cbv beta in E.
  destruct (xcfun_test_one fd) as [[[[r n] m]|]| | |]; try discriminate; auto.
  right. exists n, m. rewrite !Bool.andb_true_iff, !Z.ltb_lt, !Z.leb_le, Z.eqb_eq in E.
  destruct E as (-> & [? ?] & [? ?]). auto.
Qed.
