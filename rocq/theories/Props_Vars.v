(** * Property theorems: declared dependencies (C22) *)
From Coq Require Import Reals QArith Qreals ZArith Arith Lia Lra List Bool String.
From Coquelicot Require Import Coquelicot.
From Verif Require Import Scalar RInst Tables Api SpecApi ApiProofs ApiProofs2 CTaylor CtAlg CtConv TMath Br Expr Densvars Functionals
  Eval SpecEval Layout EvalSem EvalProps Taint EvalExt Props_Eval RSem EnergyR EvalReal EvalApi EvalRel VarsRel Mk.
Import ListNotations.
Local Open Scope outcome_scope.
Local Open Scope R_scope.

(** ** C22 *)
(** A functional's value depends only on the density variables its declaration names:
    change every other variable and the inputs arbitrarily, at any derivative order, over
    any scalar type, and the outcome (value or domain failure) is the same. *)
Theorem C22_declared_sound :
  forall (K : Ops) i nm e, nth_error functionals i = Some (nm, e) -> i <> XC_REVTPSSX_id ->
  forall (st : nat -> K) n (inp inp' : nat -> ct K n) (fl fl' : fld -> ct K n),
    (forall f, declared (flags i) f = true -> fl f = fl' f) ->
    eval st n inp fl [] e = eval st n inp' fl' [] e.
Proof.
  intros K i nm e E N st n inp inp' fl fl' H.
  assert (L : (i < 78)%nat). { rewrite <- functionals_len. apply nth_error_Some. congruence. }
  pose proof (flags_sound_ok i L N) as F. unfold flags_sound in F. rewrite E in F.
  apply (eval_clean st n inp inp' (fun _ => false)) with (cf := declared (flags i)); [discriminate|exact H|exact F].
Qed.
Print Assumptions C22_declared_sound.

(** Whichever variable set setup accepts, no density variable outside the set is used:
    overwrite all of them with arbitrary values before the functionals run. *)
Theorem C22_setup_sound :
  forall (K : Ops) (h h' : handle K) v m o vd, reachable h -> xcfun_eval_setup h v m o = Ok (h', 0%Z) ->
    vars_entry v = Ok vd -> ~ In XC_REVTPSSX_id (h_active h) ->
  forall n (fl junkfl : fld -> ct K n) d out,
    energy_sum h' n (fun f => if declared (v_provides vd) f then fl f else junkfl f) d out = energy_sum h' n fl d out.
Proof.
  intros K h h' v m o vd Hr S E N n fl g d out.
  destruct (setup_gives_valid h v m o h' S) as (Sv & Evv & _ & _ & Ea & _).
  pose proof (reachable_wf h' (reach_setup h h' v m o _ Hr S)) as W.
  destruct (setup_valid_code h' W Sv) as (vd' & E' & Vs & _). rewrite Evv, E in E'. injection E' as <-.
  apply energy_sum_clean with (cf := declared (v_provides vd)).
  - intros i Hi. assert (L : (i < 78)%nat) by (now apply W).
    assert (Ni : i <> XC_REVTPSSX_id) by (intros ->; apply N; now rewrite <- Ea).
    pose proof (flags_sound_ok i L Ni) as F. unfold flags_sound in F. destruct (nth_error functionals i) as [[nm e]|] eqn:Ef; [|discriminate].
    exists e. split; [unfold fp; now rewrite Ef|]. eapply clean_imp; [|exact F]. intros f Hf.
    specialize (Vs i Hi). destruct f; cbn [declared] in *; apply Vs; try lia; exact Hf.
  - intros f Hf. now rewrite Hf.
Qed.
Print Assumptions C22_setup_sound.

(** The same at the level of the input array.  [groups v]: for every input of the set, the
    kind of variable its name announces: 0 density, 1 gradient, 2 Laplacian or second
    derivative, 3 kinetic energy density, 4 current. *)
Definition groups (v : Z) : list Z := (
  if Z.eqb v XC_A then [0] else if Z.eqb v XC_N then [0] else if Z.eqb v XC_A_B then [0; 0] else if Z.eqb v XC_N_S then [0; 0]
  else if Z.eqb v XC_A_GAA then [0; 1] else if Z.eqb v XC_N_GNN then [0; 1]
  else if Z.eqb v XC_A_B_GAA_GAB_GBB then [0; 0; 1; 1; 1] else if Z.eqb v XC_N_S_GNN_GNS_GSS then [0; 0; 1; 1; 1]
  else if Z.eqb v XC_N_GNN_TAUN then [0; 1; 3]
  else if Z.eqb v XC_A_B_GAA_GAB_GBB_TAUA_TAUB then [0; 0; 1; 1; 1; 3; 3] else if Z.eqb v XC_N_S_GNN_GNS_GSS_TAUN_TAUS then [0; 0; 1; 1; 1; 3; 3]
  else if Z.eqb v XC_A_B_GAA_GAB_GBB_LAPA_LAPB_TAUA_TAUB then [0; 0; 1; 1; 1; 2; 2; 3; 3]
  else if Z.eqb v XC_A_B_GAA_GAB_GBB_LAPA_LAPB_TAUA_TAUB_JPAA_JPBB then [0; 0; 1; 1; 1; 2; 2; 3; 3; 4; 4]
  else if Z.eqb v XC_A_B_AX_AY_AZ_BX_BY_BZ then [0; 0; 1; 1; 1; 1; 1; 1] else if Z.eqb v XC_N_NX_NY_NZ then [0; 1; 1; 1]
  else if Z.eqb v XC_N_S_NX_NY_NZ_SX_SY_SZ then [0; 0; 1; 1; 1; 1; 1; 1]
  else if Z.eqb v XC_A_B_AX_AY_AZ_BX_BY_BZ_TAUA_TAUB then [0; 0; 1; 1; 1; 1; 1; 1; 3; 3] else if Z.eqb v XC_N_NX_NY_NZ_TAUN then [0; 1; 1; 1; 3]
  else if Z.eqb v XC_N_S_NX_NY_NZ_SX_SY_SZ_TAUN_TAUS then [0; 0; 1; 1; 1; 1; 1; 1; 3; 3]
  else if Z.eqb v XC_A_B_2ND_TAYLOR then [0; 1; 1; 1; 2; 2; 2; 2; 2; 2; 0; 1; 1; 1; 2; 2; 2; 2; 2; 2]
  else if Z.eqb v XC_N_2ND_TAYLOR then [0; 1; 1; 1; 2; 2; 2; 2; 2; 2]
  else [])%Z.
(** Input [i] matters: it is a density, or some active functional declares its kind, or the
    potential of a gradient-dependent functional is asked for. *)
Definition matters (h : handle ROps) (v m : Z) (i : nat) : Prop :=
  (exists b, nth_error (groups v) i = Some b /\ (b = 0%Z \/ exists f, In f (h_active h) /\ needs f b)) \/ (m = XC_POTENTIAL /\ needs_gradient h).
Definition stride (m o : Z) : nat := if Z.eqb m XC_CONTRACTED then 2 ^ Z.to_nat o else 1.

Definition gci (v F : Z) (i : nat) : bool := match nth_error (groups v) i with Some b => orb (Z.eqb b 0) (Z.testbit F b) | None => false end.
Definition gcheck (v F : Z) : bool :=
  match vars_entry v, dv_prog v with
  | Ok vd, Some p => orb (negb (Z.eqb (Z.land F (v_provides vd)) F))
      (match taintR (gci v F) (fun _ => true) p with Some cf => forallb (fun f => implb (declared F f) (cf f)) all_flds | None => false end)
  | _, _ => true
  end.
Lemma gcheck_all : forallb (fun v => forallb (gcheck v) (map Z.of_nat (seq 0 32))) zvars = true.
Proof. vm_compute. reflexivity. Qed.
Lemma gcheck_ok v F vd p : vars_entry v = Ok vd -> dv_prog v = Some p -> (0 <= F < 32)%Z -> Z.land F (v_provides vd) = F ->
  exists cf, taintR (gci v F) (fun _ => true) p = Some cf /\ forall f, declared F f = true -> cf f = true.
Proof.
  intros E D R S. pose proof (proj1 (forallb_forall _ _) gcheck_all v (zvars_in v (vars_entry_range _ _ E))) as H.
  assert (IF : In F (map Z.of_nat (seq 0 32))) by (apply in_map_iff; exists (Z.to_nat F); split; [lia|apply in_seq; lia]).
  pose proof (proj1 (forallb_forall _ _) H F IF) as G. unfold gcheck in G. rewrite E, D, S, Z.eqb_refl in G. cbn [negb orb] in G.
  destruct (taintR _ _ p) as [cf|]; [|discriminate]. exists cf. split; [reflexivity|]. intros f Hf.
  pose proof (proj1 (forallb_forall _ _) G f ltac:(destruct f; cbn; tauto)) as X. cbv beta in X; rewrite Hf in X. exact X.
Qed.
Lemma groups_bits v i b : nth_error (groups v) i = Some b -> (0 <= b < 5)%Z.
Proof.
  intro H. apply nth_error_In in H. unfold groups in H.
  repeat (match type of H with context [if ?c then _ else _] => destruct c end; [cbn [In] in H; lia|]). destruct H.
Qed.
Section INPUTS.
Variables (h h' : handle ROps) (v m o : Z) (vd : vars_data).
Hypothesis Hr : reachable h.
Hypothesis S : xcfun_eval_setup h v m o = Ok (h', 0%Z).
Hypothesis E : vars_entry v = Ok vd.
Hypothesis N : ~ In XC_REVTPSSX_id (h_active h).
Let W' : wf h' := reachable_wf h' (reach_setup h h' v m o _ Hr S).
Definition mat (i : nat) : bool := gci v (h_depends h') i.
Lemma mat_spec i : mat i = true <-> exists b, nth_error (groups v) i = Some b /\ (b = 0%Z \/ exists f, In f (h_active h) /\ needs f b).
Proof.
  destruct (setup_gives_valid h v m o h' S) as (_ & _ & _ & _ & Ea & _).
  unfold mat, gci. destruct (nth_error (groups v) i) as [b|] eqn:Eb.
  - rewrite orb_true_iff, Z.eqb_eq, (depends_bit h' b W'), Ea. split.
    + intros [A | (f & A & B)]; exists b; split; eauto.
    + intros (b' & A & B). injection A as <-. exact B.
  - split; [discriminate|]. intros (b & A & _). discriminate.
Qed.
Lemma energy_mat n d d' out : (forall i, mat i = true -> d i = d' i) -> energy h' n d out = energy h' n d' out.
Proof.
  intro H. destruct (setup_gives_valid h v m o h' S) as (Sv & Evv & _ & _ & Ea & _).
  destruct (dv_prog v) as [p|] eqn:D; [|unfold energy, densvars; now rewrite Evv, D].
  destruct (setup_valid_code h' W' Sv) as (vd' & E' & Vs & _). rewrite Evv, E in E'. injection E' as <-.
  set (F := Z.land (h_depends h') 31).
  assert (B : forall k, (0 <= k < 5)%Z -> Z.testbit F k = Z.testbit (h_depends h') k).
  { intros k Hk. unfold F. rewrite Z.land_spec. replace (Z.testbit 31 k) with true; [apply andb_true_r|].
    assert (C : k = 0%Z \/ k = 1%Z \/ k = 2%Z \/ k = 3%Z \/ k = 4%Z) by lia. destruct C as [-> | [-> | [-> | [-> | ->]]]]; reflexivity. }
  assert (R : (0 <= F < 32)%Z).
  { unfold F. change 31%Z with (Z.ones 5). rewrite Z.land_ones by lia. apply Z.mod_pos_bound. reflexivity. }
  assert (P : Z.land F (v_provides vd) = F).
  { apply Z.bits_inj'. intros k Hk. rewrite Z.land_spec. destruct (Z.testbit F k) eqn:Ek; [|reflexivity]. cbn [andb].
    assert (Z.testbit (h_depends h') k = true) by (unfold F in Ek; rewrite Z.land_spec in Ek; now apply andb_true_iff in Ek).
    apply (depends_bit h' k W') in H0. destruct H0 as (i & Hi & Bi). apply (Vs i Hi k Hk Bi). }
  destruct (gcheck_ok v F vd p E D R P) as (cf & T & C).
  apply (energy_tr h' n d d' cf p out); [now rewrite Evv| |].
  - eapply taintR_tr; [|exact T]. intros i Hi. apply H. unfold mat. unfold gci in *. destruct (nth_error (groups v) i) eqn:Eg; [|discriminate].
    rewrite <- B; [exact Hi|]. eapply groups_bits; exact Eg.
  - intros i Hi. assert (L : (i < 78)%nat) by (now apply W'). assert (Ni : i <> XC_REVTPSSX_id) by (intros ->; apply N; now rewrite <- Ea).
    pose proof (flags_sound_ok i L Ni) as Fs. unfold flags_sound in Fs. destruct (nth_error functionals i) as [[nm e]|] eqn:Ef; [|discriminate].
    exists e. split; [unfold fp; now rewrite Ef|]. eapply clean_imp; [|exact Fs]. intros f Hf. apply C.
    assert (X : forall k, (0 <= k < 5)%Z -> Z.testbit (flags i) k = true -> Z.testbit F k = true).
    { intros k Hk Hb. rewrite B by exact Hk. apply (depends_bit h' k W'). exists i. auto. }
    destruct f; cbn [declared] in *; apply X; try lia; exact Hf.
Qed.
End INPUTS.

(** Evaluation (any mode, any order) does not depend on inputs whose kind no active
    functional declares. *)
Theorem C22_unused_inputs :
  forall junk (h h' : handle ROps) v m o buf x x', reachable h -> xcfun_eval_setup h v m o = Ok (h', 0%Z) ->
    ~ In XC_REVTPSSX_id (h_active h) ->
    (forall i s, (s < stride m o)%nat -> matters h v m i -> x (i * stride m o + s)%nat = x' (i * stride m o + s)%nat) ->
    xcfun_eval junk h' buf x = xcfun_eval junk h' buf x'.
Proof.
  intros junk h h' v m o buf x x' Hr S N Hx.
  destruct (setup_gives_valid h v m o h' S) as (Sv & Evv & Em & Eo & Ea & _).
  pose proof (reach_setup h h' v m o _ Hr S) as Hr'. pose proof (reachable_wf h' Hr') as W.
  destruct (setup_valid_vars h' Sv) as [vd E]. pose proof E as E0. rewrite Evv in E.
  destruct (in_dec Z.eq_dec v unsupported_vars) as [U|U].
  { rewrite !eval_dies; try assumption; try reflexivity; left; now rewrite Evv. }
  pose proof (vlen_pos _ _ E) as Lp.
  destruct (Z.eqb m XC_POTENTIAL && xcfun_is_gga h')%bool eqn:G.
  { apply andb_true_iff in G. destruct G as [Gm G]. apply Z.eqb_eq in Gm. apply (eval_ext junk junk h' h' buf buf x x' vd); try assumption.
    - repeat split.
    - intros i _. unfold nread. assert (M : matters h v m i).
      { right. split; [exact Gm|]. apply (is_gga_iff h' W) in G. destruct G as (j & A & B). exists j. rewrite Ea in A. auto. }
      specialize (Hx i 0%nat). unfold stride in Hx. rewrite Gm in Hx. change (Z.eqb XC_POTENTIAL XC_CONTRACTED) with false in Hx. cbn iota in Hx.
      rewrite Nat.mul_1_r, Nat.add_0_r in Hx. apply Hx; [lia|]. now rewrite <- Gm. }
  set (Rel := fun k (d d' : nat -> rct k) => forall i, mat h' v i = true -> d i = d' i).
  assert (HE : forall k d d' out, Rel k d d' -> energy h' k d out = energy h' k d' out).
  { intros k d d' out H. exact (energy_mat h h' v m o vd Hr S E N k d d' out H). }
  assert (Xm : forall i s, mat h' v i = true -> (s < stride m o)%nat -> x (i * stride m o + s)%nat = x' (i * stride m o + s)%nat).
  { intros i s Hi Hs. apply Hx; [exact Hs|]. left. now apply (mat_spec h h' v m o Hr S). }
  assert (Rset : forall k d d' i c w, (i < Z.to_nat (v_len vd))%nat -> (0 < c < 2 ^ k)%nat -> Rel k d d' -> Rel k (aupd d i (set k (d i) c w)) (aupd d' i (set k (d' i) c w))).
  { intros k d d' i c w _ _ H q Hq. unfold aupd. destruct (Nat.eqb_spec q i) as [<-|]; [now rewrite H|now apply H]. }
  assert (X1 : Z.eqb m XC_CONTRACTED = false -> forall i, mat h' v i = true -> x i = x' i).
  { intros C i Hi. specialize (Xm i 0%nat Hi). unfold stride in Xm. rewrite C, Nat.mul_1_r, Nat.add_0_r in Xm. apply Xm. lia. }
  assert (Rcon : Z.eqb m XC_CONTRACTED = false -> forall k d d' i, (i < Z.to_nat (v_len vd))%nat -> Rel k d d' -> Rel k (aupd d i (ct_const k (x i))) (aupd d' i (ct_const k (x' i)))).
  { intros C k d d' i _ H q Hq. unfold aupd. destruct (Nat.eqb_spec q i) as [<-|]; [now rewrite X1|now apply H]. }
  assert (Rload : Z.eqb m XC_CONTRACTED = false -> forall k, Rel k (load k (junk k) (Z.to_nat (v_len vd)) x) (load k (junk k) (Z.to_nat (v_len vd)) x')).
  { intros C k i Hi. unfold load. destruct (Nat.ltb i _); [|reflexivity]. now rewrite X1. }
  unfold xcfun_eval. rewrite Em, Evv, Eo, E. cbn [obind].
  destruct (Z.eqb m XC_MODE_UNSET); [reflexivity|]. destruct (Z.eqb v XC_VARS_UNSET); [reflexivity|].
  destruct (andb (Z.eqb o (-1)) _); [reflexivity|].
  destruct (Z.eqb_spec m XC_PARTIAL_DERIVATIVES) as [M|M].
  - assert (C : Z.eqb m XC_CONTRACTED = false) by (rewrite M; reflexivity).
    destruct (Z.eqb o 0); [exact (partial0_rel junk h' x x' _ Rel HE (Rload C))|]. destruct (Z.eqb o 1); [exact (partial1_rel junk h' x x' _ Rel HE Rset (Rload C) (Rcon C) Lp)|].
    destruct (Z.eqb o 2); [exact (partial2_rel junk h' x x' _ Rel HE Rset (Rload C) (Rcon C) [])|]. destruct (Z.eqb o 3); [exact (partial3_rel junk h' x x' _ Rel HE Rset (Rload C) (Rcon C))|]. reflexivity.
  - destruct (Z.eqb m XC_CONTRACTED) eqn:C.
    + destruct (andb (Z.leb 0 o) _); [|reflexivity]. apply (contracted_rel junk h' x x' _ Rel HE). intros i Hi. unfold cload. destruct (Nat.ltb i _); [|reflexivity].
      apply ct_load_ext. intros s Hs. unfold stride in Xm. rewrite C in Xm. now apply Xm.
    + destruct (Z.eqb_spec m XC_POTENTIAL) as [M2|M2]; [|reflexivity].
      cbn [andb] in G. apply (potential_lda_rel junk h' x x' _ Rel HE Rset); auto.
Qed.
Print Assumptions C22_unused_inputs.

Lemma rrun_untouched st x g : forall p fl fl', forallb (fun q => negb (fld_eqb g (fst q))) p = true -> rrun st x fl p = Some fl' -> fl' g = fl g.
Proof.
  induction p as [|[f e] p IH]; intros fl fl' H R; cbn [rrun forallb fst] in *.
  - injection R as <-. reflexivity.
  - apply andb_true_iff in H. destruct H as [H1 H2]. destruct (reval st x fl [] e) as [v|]; cbn [obnd] in R; [|discriminate].
    rewrite (IH _ _ H2 R). unfold rfupd. apply negb_true_iff in H1. now rewrite H1.
Qed.
Section LET.
Variables (st : nat -> T ROps) (x : nat -> R) (fl : fld -> R).
Lemma let_none r nm e1 e2 : reval st x fl r e1 = None -> reval st x fl r (ELet nm e1 e2) = None.
Proof. intro H. cbn [reval]. replace (reval st x fl r e1) with (@None R) by (symmetry; exact H). reflexivity. Qed.
Lemma let_some r nm e1 e2 v : reval st x fl r e1 = Some v -> reval st x fl ((nm, v) :: r) e2 = None -> reval st x fl r (ELet nm e1 e2) = None.
Proof. intros H G. cbn [reval]. replace (reval st x fl r e1) with (Some v) by (symmetry; exact H). exact G. Qed.
Lemma let_any r nm e1 e2 : (forall v, reval st x fl ((nm, v) :: r) e2 = None) -> reval st x fl r (ELet nm e1 e2) = None.
Proof. intros H. cbn [reval]. destruct (reval st x fl r e1); [apply H|reflexivity]. Qed.
Lemma revtpssx_tau0 : fl f_taua = 0 -> reval st x fl [] revtpssx = None.
Proof.
  intro H. unfold revtpssx, revtpssx_eps. apply let_none. unfold revtpssx_eps_F_x.
  apply let_any. intro v1. apply let_any. intro v2. eapply let_some. { cbn [reval seval obnd]. rewrite H. rewrite Rmult_0_r. reflexivity. }
  cbv zeta. apply let_none. unfold revtpssx_eps_x.
  apply let_any. intro v3. apply let_any. intro v4. eapply let_some. { cbn [reval rlook String.eqb Ascii.eqb Bool.eqb]. reflexivity. }
  cbv zeta. apply let_any. intro v5. apply let_any. intro v6. apply let_none.
  cbn [reval rlook String.eqb Ascii.eqb Bool.eqb obnd]. unfold rdiv. destruct (Req_EM_T 0 0); [reflexivity|lra].
Qed.
End LET.
(** The declaration of REVTPSSX (density and gradient) is not sound: the code also divides by
    the kinetic energy density.  With a variable set that has none, accepted by setup because
    of that declaration, the evaluation fails for every input. *)
Theorem C22_revtpssx_refuted :
  exists h h1 : handle ROps, Api.run xcfun_new [CSet "revtpssx" (1 : ROps)] = Ok h /\
    xcfun_eval_setup h XC_A_B_GAA_GAB_GBB XC_PARTIAL_DERIVATIVES 0 = Ok (h1, 0%Z) /\
    forall junk buf x ws, xcfun_eval junk h1 buf x <> Ok ws.
Proof.
  destruct (make (K := ROps) [("revtpssx"%string, 44%nat, 1)] eq_refl) as (h & Eh & Hr & A & _).
  change (mactive _) with [44%nat] in A.
  assert (A1 : accepts (h_active h) XC_A_B_GAA_GAB_GBB XC_PARTIAL_DERIVATIVES 0 = true) by (rewrite A; vm_compute; reflexivity).
  pose proof (accepts_ok h _ _ _ Hr A1) as S1. exists h. eexists. split; [exact Eh|]. split; [exact S1|].
  intros junk buf x ws. destruct (setup_partial0 h _ _ Hr S1) as [vd G]; [vm_compute; intuition discriminate|].
  rewrite (eval_partial junk _ _ _ _ _ _ _ G). unfold partialn. change (Z.to_nat 0) with 0%nat. cbn iota. unfold partial0.
  pose proof (gs_ready _ _ _ _ _ _ G) as Rd.
  destruct (dv_prog XC_A_B_GAA_GAB_GBB) as [p|] eqn:Ep; [|discriminate].
  match goal with |- context [energy ?hh 0 ?dd _] => rewrite (energy0 hh dd p Ep); [|apply Rd] end. cbn [h_settings h_active]. rewrite A.
  destruct (rrun _ _ _ p) as [fl|] eqn:Er; [|discriminate].
  assert (T0 : fl f_taua = 0).
  { injection Ep as <-. refine (rrun_untouched _ _ f_taua _ _ _ _ Er). reflexivity. }
  cbn [rsum]. change (nth_error functionals 44) with (Some ("XC_REVTPSSX"%string, revtpssx)). cbv beta iota.
  match goal with |- context [reval ?a ?b ?c ?d revtpssx] => replace (reval a b c d revtpssx) with (@None R) by (symmetry; apply revtpssx_tau0; exact T0) end.
  discriminate.
Qed.
Print Assumptions C22_revtpssx_refuted.
(** Two gradient-free functionals with a variable set that has gradients: three of the five
    inputs do not matter. *)
Example C22_example : exists h h' : handle ROps, reachable h /\
  xcfun_eval_setup h XC_A_B_GAA_GAB_GBB XC_PARTIAL_DERIVATIVES 2 = Ok (h', 0%Z) /\ ~ In XC_REVTPSSX_id (h_active h) /\
  h_active h = [0; 3]%nat /\ forall i, matters h XC_A_B_GAA_GAB_GBB XC_PARTIAL_DERIVATIVES i <-> (i < 2)%nat.
Proof.
  destruct (make (K := ROps) [("slaterx"%string, 0%nat, 1); ("vwn5c"%string, 3%nat, 1)] eq_refl) as (h & Eh & Hr & A & _).
  change (mactive _) with [0; 3]%nat in A. exists h. eexists. split; [exact Hr|].
  split; [apply accepts_ok; [exact Hr|rewrite A; vm_compute; reflexivity]|].
  rewrite A. split; [intros [X | [X | []]]; discriminate X|]. split; [reflexivity|].
  intro i. unfold matters. rewrite A. split.
  - intros [(b & Eb & [-> | (f & If & Nf)]) | (X & _)]; [| |discriminate X].
    + do 5 (destruct i as [|i]; [first [lia | discriminate Eb]|]). destruct i; discriminate Eb.
    + destruct If as [<- | [<- | []]]; (do 2 (destruct i as [|i]; [lia|]); exfalso; do 3 (destruct i as [|i]; [cbn in Eb; injection Eb as <-; vm_compute in Nf; discriminate Nf|]); destruct i; discriminate Eb).
  - intro Hi. left. exists 0%Z. split; [|now left]. do 2 (destruct i as [|i]; [reflexivity|]). lia.
Qed.
