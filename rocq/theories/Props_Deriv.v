(** * Property theorems: what the derivative modes deliver (C09-C12) *)
From Coq Require Import Reals QArith Qreals ZArith Arith Lia Lra List Bool String Sorted.
From Coquelicot Require Import Coquelicot.
From Verif Require Import Scalar RInst Tables Api SpecApi ApiProofs ApiProofs2 CTaylor CtAlg TMath Fps TFam TExp Ad Br Expr Densvars Functionals
  Eval Sem AdEval SpecEval Layout EvalSem EvalProps Taint EvalExt EvalR EvalReal EvalApi Props_Eval.
Import ListNotations.
Local Open Scope outcome_scope.
Local Open Scope R_scope.

(** Input of contracted mode (2^k coefficients per variable): the value of each variable in
    its coefficient 0, and infinitesimal number q attached with coefficient one to variable
    l[q]. *)
Definition seeded (k : nat) (l : list nat) (input : nat -> R) (idx : nat) : R :=
  let i := (idx / 2 ^ k)%nat in
  let s := (idx mod 2 ^ k)%nat in
  if Nat.eqb s 0 then input i
  else if existsb (fun q => andb (Nat.eqb s (2 ^ q)) (match nth_error l q with Some j => Nat.eqb j i | None => false end)) (seq 0 k)
  then 1 else 0.
Lemma seeded_at k l input i c : (c < 2 ^ k)%nat -> seeded k l input (i * 2 ^ k + c) =
  if Nat.eqb c 0 then input i
  else if existsb (fun q => andb (Nat.eqb c (2 ^ q)) (match nth_error l q with Some j => Nat.eqb j i | None => false end)) (seq 0 k)
  then 1 else 0.
Proof.
  intro H. unfold seeded. assert (P : (2 ^ k <> 0)%nat) by (apply Nat.pow_nonzero; lia).
  rewrite Nat.div_add_l, (Nat.div_small c) by assumption. rewrite Nat.add_0_r.
  rewrite Nat.add_comm, Nat.mod_add, Nat.mod_small by assumption. reflexivity.
Qed.
Lemma ite_dl (a i : nat) : (if Nat.eqb a i then 1 else 0) = @dl ROps (Some a) i.
Proof. now rewrite dlR. Qed.
Lemma load_seeded_1 a input i : ct_load (K := ROps) 1 (fun j => seeded 1 [a] input (i * 2 ^ 1 + j)) = s1 (K := ROps) input (Some a) i.
Proof.
  cbn [ct_load]. rewrite !seeded_at by (cbn; lia). unfold s1.
  cbn [Nat.eqb Nat.add Nat.pow existsb seq andb orb nth_error]. rewrite ?orb_false_r, ?ite_dl. reflexivity.
Qed.
Lemma load_seeded_2 a b input i : ct_load (K := ROps) 2 (fun j => seeded 2 [a; b] input (i * 2 ^ 2 + j)) = s2 (K := ROps) input (Some a) (Some b) i.
Proof.
  cbn [ct_load]. rewrite !seeded_at by (cbn; lia). unfold s2.
  cbn [Nat.eqb Nat.add Nat.mul Nat.pow existsb seq andb orb nth_error]. rewrite ?orb_false_r, ?ite_dl. cbn [OofQ ROps]. rewrite Q2R_0. reflexivity.
Qed.
Lemma load_seeded_3 a b c input i : ct_load (K := ROps) 3 (fun j => seeded 3 [a; b; c] input (i * 2 ^ 3 + j)) = s3 (K := ROps) input (Some a) (Some b) (Some c) i.
Proof.
  cbn [ct_load]. rewrite !seeded_at by (cbn; lia). unfold s3.
  cbn [Nat.eqb Nat.add Nat.mul Nat.pow existsb seq andb orb nth_error]. rewrite ?orb_false_r, ?ite_dl. cbn [OofQ ROps]. rewrite Q2R_0. reflexivity.
Qed.

(** C09.  The output of partial derivative mode is the graded enumeration: slot p holds the
    derivative for the p-th multi-index in the list of all nondecreasing index sequences of
    length at most the order, sorted by length and then lexicographically.  The derivative
    for a multi-index is what contracted mode returns, in the slot of all bits, when one
    infinitesimal is attached to each variable of the multi-index. *)
Theorem C09_partial_layout :
  forall junk junk' (h hp hc : handle ROps) v vd o buf buf' input ws p l, reachable h ->
    vars_entry v = Ok vd ->
    xcfun_eval_setup h v XC_PARTIAL_DERIVATIVES o = Ok (hp, 0%Z) ->
    xcfun_eval junk hp buf input = Ok ws ->
    nth_error (graded (Z.to_nat (v_len vd)) (Z.to_nat o)) p = Some l ->
    xcfun_eval_setup h v XC_CONTRACTED (Z.of_nat (List.length l)) = Ok (hc, 0%Z) ->
    exists wc, xcfun_eval junk' hc buf' (seeded (List.length l) l input) = Ok wc /\
      rd buf ws p = rd buf' wc (2 ^ List.length l - 1).
Proof.
  intros junk junk' h hp hc v vd o buf buf' input ws p l Hr E S Ev N Sc.
  pose proof (eval_good junk h hp v _ o buf input ws vd Hr E S Ev) as G.
  assert (Gc : good_setup h hc v XC_CONTRACTED (Z.of_nat (List.length l)) vd).
  { eapply good_other; [exact G|exact Hr|exact Sc|cbn; tauto|discriminate]. }
  pose proof (partial_slots junk _ _ _ _ _ _ _ _ G Ev p l N) as C.
  apply (twin_coef _ _ _ _ _ (setup_twin _ _ _ _ _ _ _ _ S Sc)) in C.
  rewrite (eval_contracted junk' _ _ _ _ buf' _ _ Gc), Nat2Z.id.
  unfold contracted.
  assert (Ex : forall k d d', (forall i, (i < Z.to_nat (v_len vd))%nat -> d i = d' i) -> energy hc k d (czero k) = energy hc k d' (czero k)).
  { intros k d d' H. apply (energy_ext hc vd); [apply (gs_ready _ _ _ _ _ _ Gc)| |exact H].
    rewrite (gs_vars _ _ _ _ _ _ Gc). exact E. }
  destruct l as [|a [|b [|c [|? ?]]]]; cbn [coef List.length] in *; [| | | |contradiction].
  - erewrite (Ex 0%nat _ input), C. 2: { intros i Hi. destruct (Nat.ltb_spec i (Z.to_nat (v_len vd))); [|lia].
      cbn [ct_load]. rewrite seeded_at by (cbn; lia). reflexivity. }
    cbn [obind]. eexists. split; [reflexivity|]. rewrite rd_lastw with (ws := map _ _), (lastw_map _ (2 ^ 0)) by (cbn; lia). reflexivity.
  - destruct C as (out & C & ->). erewrite (Ex 1%nat _ (s1 (K := ROps) input (Some a))), C.
    2: { intros i Hi. destruct (Nat.ltb_spec i (Z.to_nat (v_len vd))); [|lia]. apply load_seeded_1. }
    cbn [obind]. eexists. split; [reflexivity|]. rewrite rd_lastw with (ws := map _ _), (lastw_map _ (2 ^ 1)) by (cbn; lia). reflexivity.
  - destruct C as (out & C & ->). erewrite (Ex 2%nat _ (s2 (K := ROps) input (Some a) (Some b))), C.
    2: { intros i Hi. destruct (Nat.ltb_spec i (Z.to_nat (v_len vd))); [|lia]. apply load_seeded_2. }
    cbn [obind]. eexists. split; [reflexivity|]. rewrite rd_lastw with (ws := map _ _), (lastw_map _ (2 ^ 2)) by (cbn; lia). reflexivity.
  - destruct C as (out & C & ->). erewrite (Ex 3%nat _ (s3 (K := ROps) input (Some a) (Some b) (Some c))), C.
    2: { intros i Hi. destruct (Nat.ltb_spec i (Z.to_nat (v_len vd))); [|lia]. apply load_seeded_3. }
    cbn [obind]. eexists. split; [reflexivity|]. rewrite rd_lastw with (ws := map _ _), (lastw_map _ (2 ^ 3)) by (cbn; lia). reflexivity.
Qed.
Print Assumptions C09_partial_layout.

(** The enumeration is complete, duplicate-free and sorted, for any number of variables and
    any order, and its length is the output length the API reports. *)
Theorem C09_enumeration :
  forall n ord, (forall l, In l (graded n ord) <-> (List.length l <= ord)%nat /\ nondec 0 n l) /\
    NoDup (graded n ord) /\ StronglySorted deglex (graded n ord) /\
    Z.of_nat (List.length (graded n ord)) = taylorlen (Z.of_nat n) (Z.of_nat ord).
Proof.
  intros n ord. split; [intro l; apply In_graded|]. split; [apply graded_nodup|]. split; [apply graded_sorted|].
  rewrite taylorlen_binom, graded_len. f_equal. rewrite (Nat.add_comm ord n). rewrite ?binom_sym. reflexivity.
Qed.
Print Assumptions C09_enumeration.

(** Slot numbers in closed form. *)
Theorem C09_slot_numbers :
  forall n ord, nth_error (graded n ord) 0 = Some [] /\
    (forall i, (1 <= ord)%nat -> (i < n)%nat -> nth_error (graded n ord) (1 + i) = Some [i]) /\
    (forall i j, (2 <= ord)%nat -> (i <= j < n)%nat ->
       nth_error (graded n ord) (1 + n + (binom (n + 1) 2 - binom (n - i + 1) 2) + (j - i)) = Some [i; j]) /\
    (forall i j k, (3 <= ord)%nat -> (i <= j)%nat -> (j <= k < n)%nat ->
       nth_error (graded n ord) (binom (n + 2) 2 + (binom (n + 2) 3 - binom (n - i + 2) 3) +
         (binom (n - i + 1) 2 - binom (n - j + 1) 2) + (k - j)) = Some [i; j; k]).
Proof.
  intros n ord. split; [reflexivity|]. split; [|split].
  - intros i Ho Hi. rewrite Nat.add_comm. now apply nth_1; [lia| |].
  - intros i j Ho H. exact (nth_slot2 n ord i j Ho H).
  - intros i j k Ho H H'. exact (nth_slot3 n ord i j k Ho H H').
Qed.
Print Assumptions C09_slot_numbers.

(** ** C10 *)
(** The energy as a (partial) function of the inputs: what the library returns in slot 0 of
    an order-0 evaluation. *)
Definition library_energy (h0 : handle ROps) (x : nat -> R) (e : R) : Prop :=
  exists ws, xcfun_eval (K := ROps) (fun n _ => rconst n 0) h0 (fun _ => 0) x = Ok ws /\ rd (K := ROps) (fun _ => 0) ws 0 = e.

(** C10.  Every slot of partial derivative mode is the iterated partial derivative, in the
    sense of real analysis, of the energy the library itself computes at order 0; at every
    input where no density is regularised and no branch boundary is hit ([smooth], which
    also excludes the Becke-Roussel functionals, whose Newton iteration is stopped by a
    tolerance). *)
Theorem C10_partial_derivatives :
  forall junk (h hp h0 : handle ROps) v vd o buf input ws p l, reachable h ->
    vars_entry v = Ok vd ->
    xcfun_eval_setup h v XC_PARTIAL_DERIVATIVES o = Ok (hp, 0%Z) ->
    xcfun_eval_setup h v XC_PARTIAL_DERIVATIVES 0 = Ok (h0, 0%Z) ->
    xcfun_eval junk hp buf input = Ok ws ->
    smooth h0 input ->
    nth_error (graded (Z.to_nat (v_len vd)) (Z.to_nat o)) p = Some l ->
    pderiv (library_energy h0) l input (rd buf ws p).
Proof.
  intros junk h hp h0 v vd o buf input ws p l Hr E S S0 Ev Sm N.
  pose proof (eval_good junk h hp v _ o buf input ws vd Hr E S Ev) as G.
  assert (G0 : good_setup h h0 v XC_PARTIAL_DERIVATIVES 0 vd).
  { eapply good_other; [exact G|exact Hr|exact S0|cbn; tauto|lia]. }
  pose proof (partial_slots junk _ _ _ _ _ _ _ _ G Ev p l N) as C.
  apply (twin_coef _ _ _ _ _ (setup_twin _ _ _ _ _ _ _ _ S S0)) in C.
  eapply pderiv_F; [|apply (coef_deriv h0 input Sm), C].
  intros x e Hx. unfold library_energy. apply (order0 _ _ _ _ _ _ _ _ G0). exact Hx.
Qed.
Print Assumptions C10_partial_derivatives.

(** ** C11 *)
(** Contracted mode: slot s is the mixed derivative, over the infinitesimals in the bit set
    s, of the energy of the input expansion  x_i(z) = sum_S input[i*2^order+S] z^S. *)
Theorem C11_contracted_derivatives :
  forall junk (h hc h0 : handle ROps) v o buf input ws, reachable h ->
    xcfun_eval_setup h v XC_CONTRACTED (Z.of_nat o) = Ok (hc, 0%Z) ->
    xcfun_eval_setup h v XC_PARTIAL_DERIVATIVES 0 = Ok (h0, 0%Z) ->
    xcfun_eval junk hc buf input = Ok ws ->
    smooth h0 (fun i => input (i * 2 ^ o)%nat) ->
    exists g : pt o -> R,
      near o (fun z => library_energy h0 (fun i => ppoly o (fun s => input (i * 2 ^ o + s)%nat) z) (g z)) /\
      forall s, (s < 2 ^ o)%nat -> mixed o s g (rd buf ws s).
Proof.
  intros junk h hc h0 v o buf input ws Hr S S0 Ev Sm.
  destruct (setup_gives_valid h v _ _ hc S) as (Sv & Evv & _ & _ & _ & _).
  destruct (setup_valid_vars _ Sv) as [vd E]. rewrite Evv in E.
  pose proof (eval_good junk h hc v _ _ buf input ws vd Hr E S Ev) as G.
  assert (G0 : good_setup h h0 v XC_PARTIAL_DERIVATIVES 0 vd).
  { eapply good_other; [exact G|exact Hr|exact S0|cbn; tauto|lia]. }
  rewrite (eval_contracted junk _ _ _ _ _ _ _ G), Nat2Z.id in Ev.
  destruct (contracted_rd junk _ _ _ _ buf _ Ev) as (out & Eo & Rdo).
  assert (Ho : (o <= 6)%nat) by (pose proof (gs_max _ _ _ _ _ _ G); lia).
  rewrite <- (twin_energy _ _ _ _ _ (setup_twin _ _ _ _ _ _ _ _ S S0)) in Eo.
  erewrite (energy_ext h0 vd o _ (fun i => ct_load (K := ROps) o (fun j => input (i * 2 ^ o + j)%nat))) in Eo.
  2: apply (gs_ready _ _ _ _ _ _ G0).
  2: rewrite (gs_vars _ _ _ _ _ _ G0); exact E.
  2: { intros i Hi. destruct (Nat.ltb_spec i (Z.to_nat (v_len vd))); [reflexivity|lia]. }
  destruct (ad_energy o Ho h0 (fun i => ct_load (K := ROps) o (fun j => input (i * 2 ^ o + j)%nat)) (fun i z => ppoly o (fun s => input (i * 2 ^ o + s)%nat) z)) with (out := out) as (g & Rg & Ng).
  - intro i. eapply rep_ext'; [|apply rep_peval]. intro z. apply ppoly_peval.
  - eapply eq_ind; [exact Sm|]. apply FunctionalExtensionality.functional_extensionality. intro i. rewrite ppoly_origin. f_equal. lia.
  - exact Eo.
  - exists g. split.
    + eapply near_imp; [|exact Ng]. intros z Hz. unfold library_energy. apply (order0 _ _ _ _ _ _ _ _ G0). exact Hz.
    + intros s Hs. rewrite Rdo by exact Hs. now apply rep_mixed.
Qed.
Print Assumptions C11_contracted_derivatives.

(** ** C12 *)
(** Requesting a different order changes neither success nor any slot both orders have. *)
Theorem C12_order_independent :
  forall junk junk' (h h1 h2 : handle ROps) v o1 o2 buf buf' input ws1 p, reachable h ->
    xcfun_eval_setup h v XC_PARTIAL_DERIVATIVES o1 = Ok (h1, 0%Z) ->
    xcfun_eval_setup h v XC_PARTIAL_DERIVATIVES o2 = Ok (h2, 0%Z) ->
    xcfun_eval junk h1 buf input = Ok ws1 -> (o2 <= 3)%Z ->
    exists ws2, xcfun_eval junk' h2 buf' input = Ok ws2 /\
      (forall L1 L2, xcfun_output_length h1 = Ok L1 -> xcfun_output_length h2 = Ok L2 ->
         (p < Z.to_nat L1)%nat -> (p < Z.to_nat L2)%nat -> rd buf ws1 p = rd buf' ws2 p).
Proof.
  intros junk junk' h h1 h2 v o1 o2 buf buf' input ws1 p Hr S1 S2 Ev O2.
  destruct (setup_gives_valid h v _ _ h1 S1) as (Sv & Evv & _ & _ & _ & _).
  destruct (setup_valid_vars _ Sv) as [vd E]. rewrite Evv in E.
  pose proof (eval_good junk h h1 v _ _ buf input ws1 vd Hr E S1 Ev) as G1.
  assert (G2 : good_setup h h2 v XC_PARTIAL_DERIVATIVES o2 vd).
  { eapply good_other; [exact G1|exact Hr|exact S2|cbn; tauto|auto]. }
  pose proof (setup_twin _ _ _ _ _ _ _ _ S1 S2) as W.
  pose proof (partial_slots junk _ _ _ _ _ _ _ _ G1 Ev 0%nat [] (graded_0 _ _)) as C0.
  pose proof (twin_coef _ _ _ _ _ W C0) as C0'. cbn [coef] in C0'.
  destruct (partial_total junk' _ _ _ _ buf' _ _ _ G2 C0') as [ws2 Ev2]. exists ws2. split; [exact Ev2|].
  intros L1 L2 H1 H2 P1 P2. set (n := Z.to_nat (v_len vd)).
  assert (Len : forall hh o L (Gx : good_setup h hh v XC_PARTIAL_DERIVATIVES o vd), xcfun_output_length hh = Ok L -> Z.to_nat L = List.length (graded n (Z.to_nat o))).
  { intros hh o L Gx HL. unfold xcfun_output_length in HL. rewrite (gs_mode _ _ _ _ _ _ Gx), (gs_vars _ _ _ _ _ _ Gx), E in HL.
    cbn [Z.eqb XC_PARTIAL_DERIVATIVES XC_MODE_UNSET Pos.eqb obind] in HL. rewrite (gs_order _ _ _ _ _ _ Gx) in HL.
    destruct (Z.eqb v XC_VARS_UNSET); [discriminate|]. destruct (Z.eqb o (-1)); [discriminate|].
    injection HL as <-. destruct (C09_enumeration n (Z.to_nat o)) as (_ & _ & _ & En).
    unfold n in *. pose proof (vlen_pos _ _ E). pose proof (gs_pos _ _ _ _ _ _ Gx). rewrite !Z2Nat.id in En by lia. rewrite <- En. apply Nat2Z.id. }
  assert (M : exists l, nth_error (graded n (Z.to_nat o1)) p = Some l /\ nth_error (graded n (Z.to_nat o2)) p = Some l).
  { rewrite (Len _ _ _ G1 H1) in P1. rewrite (Len _ _ _ G2 H2) in P2.
    destruct (Nat.le_ge_cases (Z.to_nat o1) (Z.to_nat o2)) as [Le|Le].
    - destruct (nth_error (graded n (Z.to_nat o1)) p) as [l|] eqn:N; [|apply nth_error_None in N; lia].
      exists l. split; [reflexivity|]. eapply graded_prefix; [exact Le|exact N].
    - destruct (nth_error (graded n (Z.to_nat o2)) p) as [l|] eqn:N; [|apply nth_error_None in N; lia].
      exists l. split; [|reflexivity]. eapply graded_prefix; [exact Le|exact N]. }
  destruct M as (l & N1 & N2).
  pose proof (twin_coef _ _ _ _ _ W (partial_slots junk _ _ _ _ _ _ _ _ G1 Ev p l N1)) as A.
  pose proof (partial_slots junk' _ _ _ _ _ _ _ _ G2 Ev2 p l N2) as B. eapply coef_fun; [exact A|exact B].
Qed.
Print Assumptions C12_order_independent.

(** The energy returned by contracted mode is the order-0 energy of the unperturbed input. *)
Theorem C12_contracted_energy :
  forall junk junk' (h hc h0 : handle ROps) v o buf buf' input ws0, reachable h ->
    xcfun_eval_setup h v XC_CONTRACTED (Z.of_nat o) = Ok (hc, 0%Z) ->
    xcfun_eval_setup h v XC_PARTIAL_DERIVATIVES 0 = Ok (h0, 0%Z) ->
    xcfun_eval junk h0 buf (fun i => input (i * 2 ^ o)%nat) = Ok ws0 ->
    exists ws, xcfun_eval junk' hc buf' input = Ok ws /\ rd buf' ws 0 = rd buf ws0 0.
Proof.
  intros junk junk' h hc h0 v o buf buf' input ws0 Hr S S0 Ev.
  destruct (setup_gives_valid h v _ _ h0 S0) as (Sv & Evv & _ & _ & _ & _).
  destruct (setup_valid_vars _ Sv) as [vd E]. rewrite Evv in E.
  pose proof (eval_good junk h h0 v _ _ buf _ ws0 vd Hr E S0 Ev) as G0.
  assert (G : good_setup h hc v XC_CONTRACTED (Z.of_nat o) vd).
  { eapply good_other; [exact G0|exact Hr|exact S|cbn; tauto|discriminate]. }
  pose proof (partial_slots junk _ _ _ _ _ _ _ _ G0 Ev 0%nat [] (graded_0 _ _)) as C0. cbn [coef] in C0.
  assert (Ho : (o <= 6)%nat) by (pose proof (gs_max _ _ _ _ _ _ G); lia).
  rewrite (eval_contracted junk' _ _ _ _ _ _ _ G), Nat2Z.id. unfold contracted.
  set (d := fun i : nat => if Nat.ltb i (Z.to_nat (v_len vd)) then ct_load (K := ROps) o (fun j => input (i * 2 ^ o + j)%nat) else junk' o i).
  pose proof (energy_hom0 o 0 (c0 o) Ho ltac:(lia) (hom_c0_0 o) hc d) as Hm.
  rewrite <- (twin_energy _ _ _ _ _ (setup_twin _ _ _ _ _ _ _ _ S S0)) in Hm.
  rewrite (energy_ext h0 vd 0%nat (fun i => c0 o (d i)) (fun i => input (i * 2 ^ o)%nat)) in Hm.
  2: apply (gs_ready _ _ _ _ _ _ G0).
  2: rewrite (gs_vars _ _ _ _ _ _ G0); exact E.
  2: { intros i Hi. unfold d. destruct (Nat.ltb_spec i (Z.to_nat (v_len vd))); [|lia]. rewrite ct_load_c0. f_equal. lia. }
  rewrite C0 in Hm. symmetry in Hm. apply omap_ok in Hm. destruct Hm as (out & Eo & Hv). rewrite Eo. cbn [obind].
  eexists. split; [reflexivity|]. rewrite rd_lastw with (ws := map _ _), (lastw_map _ (2 ^ o)).
  - rewrite Hv. clear. induction o; [reflexivity|]. cbn [c0 get]. rewrite IHo. replace (Nat.ltb 0 (2 ^ o)) with true; [reflexivity|].
    symmetry. apply Nat.ltb_lt. apply Nat.neq_0_lt_0, Nat.pow_nonzero. lia.
  - apply Nat.neq_0_lt_0, Nat.pow_nonzero. lia.
Qed.
Print Assumptions C12_contracted_energy.
