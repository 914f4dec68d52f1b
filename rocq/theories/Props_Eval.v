(** * Property theorems: outcome, memory and purity of evaluation (C07, C08, C15) *)
From Coq Require Import String ZArith QArith List Lia Bool.
From Verif Require Import Scalar Tables Api SpecApi ApiProofs ApiProofs2 QInst CTaylor Expr Densvars Functionals
  Eval SpecEval Layout EvalSem EvalProps Taint EvalExt.
Import ListNotations.

(** A reachable handle with a mix of functionals and a valid setup, for the Examples. *)
Definition gset (s : string) (v : Q) : call QOps := @CSet QOps s v.
Definition gga_calls (v m o : Z) : list (call QOps) :=
  [gset "b3lyp" 1%Q; gset "pbec" (1#3)%Q; gset "exx" (1#7)%Q; CSetup v m o].
Definition gga_handle (v m o : Z) : handle QOps :=
  match Api.run xcfun_new (gga_calls v m o) with Ok h => h | _ => xcfun_new end.
Lemma run_app {K : Ops} (a b : list (call K)) : forall h h', Api.run h a = Ok h' -> Api.run h (a ++ b) = Api.run h' b.
Proof.
  induction a as [|c a IH]; intros h h' E; cbn [Api.run app] in *; [now injection E as ->|].
  destruct (step h c) as [[h1 x]| | |]; try discriminate. cbn [obind fst] in *. now apply IH.
Qed.
Lemma reach_setup {K : Ops} (h h' : handle K) v m o r : reachable h -> xcfun_eval_setup h v m o = Ok (h', r) -> reachable h'.
Proof.
  intros [cs E] S. exists (cs ++ [CSetup v m o]). rewrite (run_app cs _ _ _ E). cbn [Api.run step]. rewrite S. reflexivity.
Qed.
Lemma reach_set {K : Ops} (h h' : handle K) n v r : reachable h -> xcfun_set h n v = Ok (h', r) -> reachable h'.
Proof.
  intros [cs E] S. exists (cs ++ [CSet n v]). rewrite (run_app cs _ _ _ E). cbn [Api.run step]. rewrite S. reflexivity.
Qed.
Lemma reach_new {K : Ops} : reachable (@xcfun_new K).
Proof. exists []. reflexivity. Qed.

Lemma binom_sym : forall a b, binom (a + b) a = binom (a + b) b.
Proof.
  assert (D : forall a, binom a a = 1%nat).
  { induction a as [|a IH]; [reflexivity|]. cbn [binom]. rewrite IH, binom_gt by lia. lia. }
  induction a as [|a IHa]; intro b; [cbn [Nat.add]; now rewrite D, SpecEval.binom_0_r|].
  induction b as [|b IHb]; [rewrite Nat.add_0_r; now rewrite D, SpecEval.binom_0_r|].
  replace (S a + S b)%nat with (S (S (a + b))) in * by lia. cbn [binom]. cbn [binom] in IHb.
  specialize (IHa (S b)). replace (a + S b)%nat with (S (a + b)) in * by lia. cbn [binom] in IHa.
  replace (S a + b)%nat with (S (a + b)) in IHb by lia. cbn [binom] in IHb |- *. lia.
Qed.

(** C07: after an accepted setup evaluation ends the process exactly for ten variable
    sets, for partial derivatives of order four and for the modes that are no modes; in
    every other case it returns (or leaves the analytic domain) and there is no undefined
    behaviour in any case. *)
Theorem C07_eval_dies_exactly :
  forall (K : Ops) junk (h h' : handle K) v m o buf input, reachable h ->
    xcfun_eval_setup h v m o = Ok (h', 0%Z) ->
    (xcfun_eval junk h' buf input = Die <->
       (In v unsupported_vars \/ ~ In m [XC_PARTIAL_DERIVATIVES; XC_POTENTIAL; XC_CONTRACTED] \/
        (m = XC_PARTIAL_DERIVATIVES /\ o = 4%Z))) /\
    xcfun_eval junk h' buf input <> UB.
Proof.
  intros K junk h h' v m o buf input Hr S. pose proof (reach_setup h h' v m o _ Hr S) as Hr'.
  destruct (setup_gives_valid h v m o h' S) as (Sv & Ev & Em & Eo & _ & _).
  destruct (setup_valid_code h' (reachable_wf h' Hr') Sv) as (_ & _ & _ & (O1 & O2) & _).
  pose proof (eval_dies junk h' buf input Hr' Sv) as D. rewrite Ev, Em, Eo in D.
  assert (Cs : (In v unsupported_vars \/ ~ In m [XC_PARTIAL_DERIVATIVES; XC_POTENTIAL; XC_CONTRACTED] \/
        (m = XC_PARTIAL_DERIVATIVES /\ o = 4%Z)) \/
     (~ In v unsupported_vars /\ In m [XC_PARTIAL_DERIVATIVES; XC_POTENTIAL; XC_CONTRACTED] /\ (m = XC_PARTIAL_DERIVATIVES -> (o <= 3)%Z))).
  { destruct (in_dec Z.eq_dec v unsupported_vars); [tauto|].
    destruct (in_dec Z.eq_dec m [XC_PARTIAL_DERIVATIVES; XC_POTENTIAL; XC_CONTRACTED]); [|tauto].
    destruct (Z.eq_dec m XC_PARTIAL_DERIVATIVES) as [M|M].
    - destruct (Z.eq_dec o 4); [tauto|]. right. split; [assumption|]. split; [assumption|].
      intros _. specialize (O2 ltac:(congruence)). lia.
    - right. split; [assumption|]. split; [assumption|]. contradiction. }
  destruct Cs as [B|(B1 & B2 & B3)].
  - rewrite (D B). split; [tauto|discriminate].
  - destruct (eval_outcome junk h' buf input Hr' Sv) as (vd & _ & P).
    + now rewrite Ev.
    + now rewrite Em.
    + now rewrite Em, Eo.
    + split; [|intro X; rewrite X in P; exact P]. split; [intro X; rewrite X in P; contradiction|].
      intros [X|[X|[X Y]]]; [contradiction|contradiction|]. specialize (B3 X). lia.
Qed.
Print Assumptions C07_eval_dies_exactly.

(** The claim "setup returned 0, so evaluation does not end the process" is false. *)
Theorem C07_setup_supported_refuted :
  forall K : Ops, exists (h h' : handle K) v m o, reachable h /\ xcfun_eval_setup h v m o = Ok (h', 0%Z) /\
    forall junk buf input, xcfun_eval junk h' buf input = Die.
Proof.
  intro K. destruct (set_known (@xcfun_new K) "slaterx" (OofQ 1) wf_new) as [h E].
  { left. exists 0%nat. exists "SLATERX"%string. split; [reflexivity|]. apply strcasecmp_ci. reflexivity. }
  assert (Hr : reachable h) by (eapply reach_set; [apply reach_new|exact E]).
  assert (S : xcfun_eval_setup h XC_A_2ND_TAYLOR XC_PARTIAL_DERIVATIVES 1 =
    Ok (mkH (h_active h) 1 (h_depends h) XC_PARTIAL_DERIVATIVES XC_A_2ND_TAYLOR (h_settings h), 0%Z)).
  { vm_compute in E. injection E as <-. reflexivity. }
  exists h. eexists. exists XC_A_2ND_TAYLOR, XC_PARTIAL_DERIVATIVES, 1%Z. split; [exact Hr|]. split; [exact S|].
  intros junk buf input. apply (C07_eval_dies_exactly K junk h _ _ _ _ buf input Hr S). left. cbn. tauto.
Qed.
Print Assumptions C07_setup_supported_refuted.
Example C07_example_order4 : exists h', xcfun_eval_setup (gga_handle 6 1 2) XC_A_B_GAA_GAB_GBB XC_PARTIAL_DERIVATIVES 4 = Ok (h', 0%Z).
Proof. eexists. vm_compute. reflexivity. Qed.
Example C07_example_good : exists h', xcfun_eval_setup (gga_handle 6 1 2) XC_A_B_2ND_TAYLOR XC_POTENTIAL 1 = Ok (h', 0%Z) /\
  ~ In XC_A_B_2ND_TAYLOR unsupported_vars.
Proof. eexists. split; [vm_compute; reflexivity|]. cbn. intuition discriminate. Qed.

(** C08: which slots of the output array are written. *)
(** In partial derivative mode: every slot below xcfun_output_length, and no other. *)
Theorem C08_partial_writes_output_length :
  forall (K : Ops) junk (h h' : handle K) v o buf input ws L, reachable h ->
    xcfun_eval_setup h v XC_PARTIAL_DERIVATIVES o = Ok (h', 0%Z) ->
    xcfun_output_length h' = Ok L ->
    xcfun_eval junk h' buf input = Ok ws ->
    forall p, In p (map fst ws) <-> (p < Z.to_nat L)%nat.
Proof.
  intros K junk h h' v o buf input ws L Hr S HL Ev. pose proof (reach_setup h h' v _ o _ Hr S) as Hr'.
  destruct (setup_gives_valid h v _ o h' S) as (Sv & Evv & Em & Eo & _ & _).
  destruct (C07_eval_dies_exactly K junk h h' v _ o buf input Hr S) as [D _].
  assert (ND : ~ (In v unsupported_vars \/ ~ In XC_PARTIAL_DERIVATIVES [XC_PARTIAL_DERIVATIVES; XC_POTENTIAL; XC_CONTRACTED] \/
        (XC_PARTIAL_DERIVATIVES = XC_PARTIAL_DERIVATIVES /\ o = 4%Z))).
  { intro X. apply D in X. congruence. }
  destruct (setup_valid_code h' (reachable_wf h' Hr') Sv) as (vd0 & E0 & _ & (O1 & O2) & _).
  destruct (eval_outcome junk h' buf input Hr' Sv) as (vd & E & P).
  - rewrite Evv. tauto.
  - rewrite Em. cbn. tauto.
  - intros _. specialize (O2 Em). rewrite Eo in O1, O2 |- *. destruct (Z.eq_dec o 4); [subst; tauto|lia].
  - rewrite Ev in P. cbn [oP] in P. intro p. rewrite P. unfold nslots. rewrite Em. cbn [Z.eqb XC_PARTIAL_DERIVATIVES Pos.eqb].
    unfold xcfun_output_length in HL. rewrite Em, E in HL. cbn [Z.eqb XC_PARTIAL_DERIVATIVES XC_MODE_UNSET Pos.eqb obind] in HL.
    destruct (Z.eqb (h_vars h') XC_VARS_UNSET); [discriminate|]. destruct (Z.eqb (h_order h') (-1)); [discriminate|].
    injection HL as <-. pose proof (vlen_pos _ _ E) as Lp.
    replace (taylorlen (v_len vd) (h_order h')) with (taylorlen (Z.of_nat (Z.to_nat (v_len vd))) (Z.of_nat (Z.to_nat (h_order h')))).
    + rewrite taylorlen_binom, Nat2Z.id. now rewrite (Nat.add_comm (Z.to_nat (h_order h'))), binom_sym.
    + rewrite !Z2Nat.id; [reflexivity|lia|lia].
Qed.
Print Assumptions C08_partial_writes_output_length.
Example C08_example : xcfun_output_length (gga_handle 6 1 3) = Ok 56%Z /\ ~ In 6%Z unsupported_vars.
Proof. split; [vm_compute; reflexivity|]. cbn. intuition discriminate. Qed.

(** In contracted mode: 2^order slots (xcfun_output_length ends the process there). *)
Theorem C08_contracted_writes :
  forall (K : Ops) junk (h h' : handle K) v o buf input ws, reachable h ->
    xcfun_eval_setup h v XC_CONTRACTED o = Ok (h', 0%Z) ->
    xcfun_eval junk h' buf input = Ok ws ->
    xcfun_output_length h' = Die /\ forall p, In p (map fst ws) <-> (p < 2 ^ Z.to_nat o)%nat.
Proof.
  intros K junk h h' v o buf input ws Hr S Ev. pose proof (reach_setup h h' v _ o _ Hr S) as Hr'.
  destruct (setup_gives_valid h v _ o h' S) as (Sv & Evv & Em & Eo & _ & _).
  destruct (C07_eval_dies_exactly K junk h h' v _ o buf input Hr S) as [D _].
  destruct (eval_outcome junk h' buf input Hr' Sv) as (vd & E & P).
  - intro X. rewrite Evv in X. rewrite (proj2 D (or_introl X)) in Ev. discriminate.
  - rewrite Em. cbn. tauto.
  - rewrite Em. discriminate.
  - rewrite Ev in P. cbn [oP] in P. split.
    + unfold xcfun_output_length. rewrite Em. cbn [Z.eqb XC_CONTRACTED XC_MODE_UNSET XC_PARTIAL_DERIVATIVES XC_POTENTIAL Pos.eqb].
      destruct (Z.eqb (h_vars h') _); [reflexivity|]. destruct (Z.eqb (h_order h') _); reflexivity.
    + intro p. rewrite P. unfold nslots. rewrite Em, Eo. reflexivity.
Qed.
Print Assumptions C08_contracted_writes.
Example C08_contracted_example : exists h', xcfun_eval_setup (gga_handle 6 1 2) XC_N_GNN XC_CONTRACTED 6 = Ok (h', 0%Z).
Proof. eexists. vm_compute. reflexivity. Qed.

(** In potential mode no slot beyond the advertised length is written; the slots written
    are 0 and 1 for the variable sets of length 1 or 10, and 0, 1, 2 otherwise. *)
Theorem C08_potential_writes :
  forall (K : Ops) junk (h h' : handle K) v o buf input ws L, reachable h ->
    xcfun_eval_setup h v XC_POTENTIAL o = Ok (h', 0%Z) ->
    xcfun_output_length h' = Ok L ->
    xcfun_eval junk h' buf input = Ok ws ->
    exists len, xcfun_input_length h' = Ok len /\
    (forall p, In p (map fst ws) <-> (p < (if orb (Z.eqb len 1) (Z.eqb len 10) then 2 else 3))%nat) /\
    (forall p, In p (map fst ws) -> (p < Z.to_nat L)%nat).
Proof.
  intros K junk h h' v o buf input ws L Hr S HL Ev. pose proof (reach_setup h h' v _ o _ Hr S) as Hr'.
  destruct (setup_gives_valid h v _ o h' S) as (Sv & Evv & Em & Eo & _ & _).
  destruct (C07_eval_dies_exactly K junk h h' v _ o buf input Hr S) as [D _].
  destruct (eval_outcome junk h' buf input Hr' Sv) as (vd & E & P).
  - intro X. rewrite Evv in X. rewrite (proj2 D (or_introl X)) in Ev. discriminate.
  - rewrite Em. cbn. tauto.
  - rewrite Em. discriminate.
  - rewrite Ev in P. cbn [oP] in P. exists (v_len vd). split; [unfold xcfun_input_length; now rewrite E|].
    assert (Q : forall p, In p (map fst ws) <-> (p < (if orb (Z.eqb (v_len vd) 1) (Z.eqb (v_len vd) 10) then 2 else 3))%nat).
    { intro p. rewrite P. unfold nslots, npot. rewrite Em.
      cbn [Z.eqb XC_POTENTIAL XC_PARTIAL_DERIVATIVES XC_CONTRACTED Pos.eqb].
      pose proof (vlen_pos _ _ E) as Lp.
      replace (Nat.eqb (Z.to_nat (v_len vd)) 1) with (Z.eqb (v_len vd) 1).
      2:{ destruct (Z.eqb_spec (v_len vd) 1) as [H1|H1], (Nat.eqb_spec (Z.to_nat (v_len vd)) 1); try reflexivity; lia. }
      replace (Nat.eqb (Z.to_nat (v_len vd)) 10) with (Z.eqb (v_len vd) 10).
      2:{ destruct (Z.eqb_spec (v_len vd) 10) as [H1|H1], (Nat.eqb_spec (Z.to_nat (v_len vd)) 10); try reflexivity; lia. }
      destruct (orb _ _); reflexivity. }
    split; [exact Q|]. intros p Hp. apply Q in Hp.
    unfold xcfun_output_length in HL. rewrite Em in HL.
    cbn [Z.eqb XC_POTENTIAL XC_MODE_UNSET XC_PARTIAL_DERIVATIVES Pos.eqb] in HL.
    destruct (Z.eqb (h_vars h') XC_VARS_UNSET); [discriminate|]. destruct (Z.eqb (h_order h') (-1)); [discriminate|].
    destruct (orb (Z.eqb (h_vars h') XC_A) (Z.eqb (h_vars h') XC_A_2ND_TAYLOR)) eqn:EA.
    + injection HL as <-. apply orb_true_iff in EA. rewrite !Z.eqb_eq in EA.
      assert (EL : orb (Z.eqb (v_len vd) 1) (Z.eqb (v_len vd) 10) = true).
      { destruct EA as [EA|EA]; rewrite EA in E; vm_compute in E; injection E as <-; reflexivity. }
      rewrite EL in Hp. exact Hp.
    + injection HL as <-. destruct (orb (Z.eqb (v_len vd) 1) (Z.eqb (v_len vd) 10)); cbn; lia.
Qed.
Print Assumptions C08_potential_writes.
Example C08_potential_example : exists h', xcfun_eval_setup (gga_handle 6 1 2) XC_A_B_2ND_TAYLOR XC_POTENTIAL 1 = Ok (h', 0%Z) /\
  xcfun_output_length h' = Ok 3%Z /\ xcfun_input_length h' = Ok 20%Z.
Proof. eexists. split; [vm_compute; reflexivity|]. split; reflexivity. Qed.

(** The advertised length is not always filled: with the total density only, three slots
    are advertised and two are written (whenever evaluation succeeds). *)
Theorem C08_potential_length_refuted :
  forall K : Ops, exists (h : handle K), reachable h /\ setup_valid h /\ xcfun_output_length h = Ok 3%Z /\
    ~ In (h_vars h) unsupported_vars /\
    forall junk buf input ws, xcfun_eval junk h buf input = Ok ws -> ~ In 2%nat (map fst ws).
Proof.
  intro K. destruct (set_known (@xcfun_new K) "slaterx" (OofQ 1) wf_new) as [h E].
  { left. exists 0%nat. exists "SLATERX"%string. split; [reflexivity|]. apply strcasecmp_ci. reflexivity. }
  assert (Hr : reachable h) by (eapply reach_set; [apply reach_new|exact E]).
  assert (S : xcfun_eval_setup h XC_N XC_POTENTIAL 1 =
    Ok (mkH (h_active h) 1 (h_depends h) XC_POTENTIAL XC_N (h_settings h), 0%Z)).
  { vm_compute in E. injection E as <-. reflexivity. }
  eexists. split; [eapply reach_setup; [exact Hr|exact S]|]. split; [exact (proj1 (setup_gives_valid _ _ _ _ _ S))|].
  split; [reflexivity|]. split; [cbn; intuition discriminate|].
  intros junk buf input ws Ev. destruct (C08_potential_writes K junk h _ XC_N 1 buf input ws 3 Hr S eq_refl Ev) as (len & El & Q & _).
  cbn in El. injection El as <-. cbn in Q. intro X. apply Q in X. lia.
Qed.
Print Assumptions C08_potential_length_refuted.

(** Which input slots matter: only those below xcfun_input_length (times 2^order in
    contracted mode).  Holds whether or not the evaluation succeeds. *)
Theorem C08_reads_input_length :
  forall (K : Ops) junk (h h' : handle K) v m o buf input input' len, reachable h ->
    xcfun_eval_setup h v m o = Ok (h', 0%Z) ->
    xcfun_input_length h' = Ok len ->
    (forall i, (i < Z.to_nat len * (if Z.eqb m XC_CONTRACTED then 2 ^ Z.to_nat o else 1))%nat -> input i = input' i) ->
    xcfun_eval junk h' buf input = xcfun_eval junk h' buf input'.
Proof.
  intros K junk h h' v m o buf input input' len Hr S HL Hin. pose proof (reach_setup h h' v _ o _ Hr S) as Hr'.
  destruct (setup_gives_valid h v _ o h' S) as (Sv & Evv & Em & Eo & _ & _).
  unfold xcfun_input_length in HL. destruct (vars_entry (h_vars h')) as [vd| | |] eqn:E; try discriminate. injection HL as <-.
  apply (eval_ext junk junk h' h' buf buf input input' vd Hr' Sv E Hr').
  - repeat split; reflexivity.
  - intros i Hi. apply Hin. unfold nread in Hi. rewrite Em, Eo in Hi. destruct (Z.eqb m XC_CONTRACTED); lia.
Qed.
Print Assumptions C08_reads_input_length.

(** C15: evaluation is a function of the weights of the active functionals, the
    parameters, the setup and the input: not of the history of the handle, of the earlier
    contents of the output array or of uninitialised memory. *)
Theorem C15_evaluation_pure :
  forall (K : Ops) junk junk' (h h' : handle K) buf buf' input, reachable h -> reachable h' -> setup_valid h ->
    h_active h = h_active h' -> h_vars h = h_vars h' -> h_mode h = h_mode h' -> h_order h = h_order h' ->
    (forall name i, In i (h_active h) \/ (78 <= i)%nat -> is_item name i -> xcfun_get h name = xcfun_get h' name) ->
    xcfun_eval junk h buf input = xcfun_eval junk' h' buf' input.
Proof.
  intros K junk junk' h h' buf buf' input Hr Hr' Sv Ha Hv Hm Ho Hg.
  destruct (setup_valid_vars h Sv) as [vd E].
  assert (G : forall i, In i (h_active h) \/ (78 <= i < 82)%nat -> h_settings h i = h_settings h' i).
  { intros i Hi. assert (L : (i < 82)%nat).
    { destruct Hi as [Hi|Hi]; [|lia]. pose proof (reachable_wf h Hr) as (_ & A & _). specialize (A i Hi). lia. }
    assert (X : exists s, nth_error item_names i = Some s).
    { destruct (nth_error item_names i) as [s|] eqn:X; [eauto|]. apply nth_error_None in X. rewrite items_length in X.
      unfold XC_NR_PARAMETERS_AND_FUNCTIONALS in X. cbn in X. lia. }
    destruct X as [s X]. assert (I : is_item s i) by (exists s; split; [exact X|apply ci_refl]).
    specialize (Hg s i ltac:(tauto) I). rewrite !(get_item _ s i I) in Hg. congruence. }
  apply (eval_ext junk junk' h h' buf buf' input input vd Hr Sv E Hr').
  - split.
    + split; [exact Ha|]. split; [exact Hv|]. split; intros i Hi; apply G; tauto.
    + repeat split; try assumption. pose proof (reachable_wf h Hr) as (_ & _ & D). pose proof (reachable_wf h' Hr') as (_ & _ & D').
      rewrite D, D', Ha. reflexivity.
  - reflexivity.
Qed.
Print Assumptions C15_evaluation_pure.
(** Two different histories meeting the hypotheses. *)
Definition gga_handle2 : handle QOps :=
  match Api.run xcfun_new ([gset "zzz" 2%Q; CSetup 0 1 0] ++ gga_calls 6 1 2) with Ok h => h | _ => xcfun_new end.
Example C15_example : let h := gga_handle 6 1 2 in let h' := gga_handle2 in
  reachable h /\ reachable h' /\ setup_valid h /\ h_active h = h_active h' /\ h_vars h = h_vars h' /\
    h_mode h = h_mode h' /\ h_order h = h_order h' /\ h_settings h 16 = h_settings h' 16 /\ h_settings h 16 = (81#100)%Q :> Q.
Proof.
  cbn zeta. split; [exists (gga_calls 6 1 2); vm_compute; reflexivity|].
  split; [exists ([gset "zzz" 2%Q; CSetup 0 1 0] ++ gga_calls 6 1 2); vm_compute; reflexivity|].
  split; [unfold setup_valid; vm_compute; reflexivity|]. repeat (split; [vm_compute; reflexivity|]). vm_compute. reflexivity.
Qed.
