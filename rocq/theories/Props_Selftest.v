(** * C42: what the self test and the compatibility check tell their caller *)
From Coq Require Import QArith ZArith List Bool String Lia Reals Lra Arith.
From Verif Require Import Scalar Tables Api SpecApi ApiProofs ApiProofs2 Mk Safe3 Safe2 CTaylor Eval EvalProps RInst Layout Selftest Phys EvalApi Props_Dens Props_Dens2.
Import ListNotations.
Open Scope R_scope.

(** ** Specification

    With the functional described by [fd] alone switched on with weight one, set up for its own test point, the library returns in slot [i] a number that is further from the reference than the threshold allows. *)
Definition off_by_more (out ref thr : R) : Prop := Rabs thr * Rabs ref < Rabs (out - ref).
Definition wrong junk buf (fd : fun_data) (r : reference ROps) : Prop :=
  f_test_mode fd <> XC_MODE_UNSET /\
  exists h1 c h2 m ws i x,
    xcfun_set (@xcfun_new ROps) (f_name fd) 1 = Ok (h1, c) /\
    xcfun_eval_setup h1 (f_test_vars fd) (f_test_mode fd) (f_test_order fd) = Ok (h2, 0%Z) /\
    xcfun_output_length h2 = Ok m /\ (Z.of_nat i < m)%Z /\
    xcfun_eval junk h2 buf (fun i => nth i (r_in r) 0) = Ok ws /\
    nth_error (r_out r) i = Some x /\ off_by_more (rd buf ws i) x (r_threshold r).

(** The reference tables have the lengths written in the FUNCTIONAL blocks. *)
Definition tabulated {K : Ops} (fd : fun_data) (r : reference K) : Prop :=
  Z.of_nat (List.length (r_in r)) = f_test_nin fd /\ Z.of_nat (List.length (r_out r)) = f_test_nout fd.

Lemma oabs_R (x : R) : oabs (K := ROps) x = Rabs x.
Proof.
  unfold oabs. cbn [Oltb Oopp OofQ ROps]. replace (Q2R 0) with 0 by (unfold Q2R; cbn; lra).
  destruct (Rltb x 0) eqn:E; [apply Rltb_true in E; now rewrite Rabs_left|apply Rltb_false in E; now rewrite Rabs_right by lra].
Qed.
Lemma off_R (out ref thr : R) : off (K := ROps) out ref thr = true <-> off_by_more out ref thr.
Proof.
  unfold off, off_by_more. rewrite !oabs_R. cbn [Oltb Omul Osub ROps]. rewrite Rltb_true, Rabs_mult, (Rmult_comm (Rabs ref)). reflexivity.
Qed.

Section Gen.
Context {K : Ops}.
Variable junk : forall n : nat, nat -> ct K n.
Lemma nerr_ok (out : nat -> K) r : forall n i k, nerr out r i n = Ok k ->
  (0 < k)%nat <-> exists j x, (i <= j < i + n)%nat /\ nth_error (r_out r) j = Some x /\ off (out j) x (r_threshold r) = true.
Proof.
  induction n as [|n IH]; intros i k E.
  - injection E as <-. split; [lia|]. intros (j & x & H & _). lia.
  - cbn [nerr] in E. destruct (nth_error (r_out r) i) as [x|] eqn:N; [|discriminate].
    destruct (nerr out r (S i) n) as [k'| | |] eqn:E'; try discriminate. cbn [obind] in E. injection E as <-.
    specialize (IH _ _ E'). destruct (off (out i) x (r_threshold r)) eqn:O.
    + split; [|lia]. intros _. exists i, x. split; [lia|]. auto.
    + rewrite IH. split.
      * intros (j & y & H & A). exists j, y. split; [lia|exact A].
      * intros (j & y & H & A & B). exists j, y. split; [|auto].
        destruct (Nat.eq_dec j i) as [->|Ne]; [|lia]. rewrite N in A. injection A as <-. congruence.
Qed.
Lemma nerr_total (out : nat -> K) r : forall n i, (i + n <= List.length (r_out r))%nat -> exists k, nerr out r i n = Ok k.
Proof.
  induction n as [|n IH]; intros i H; [eexists; reflexivity|]. cbn [nerr].
  destruct (nth_error (r_out r) i) as [x|] eqn:N; [|apply nth_error_None in N; lia].
  destruct (IH (S i)) as [k ->]; [lia|]. eexists. reflexivity.
Qed.

(** Every functional that carries a test accepts its own setup. *)
Lemma test_ready fd : In fd xcint_funs -> f_test_mode fd <> XC_MODE_UNSET ->
  exists h1 c h2 n m, xcfun_set (@xcfun_new K) (f_name fd) (OofQ 1%Q) = Ok (h1, c) /\ reachable h1 /\
    xcfun_eval_setup h1 (f_test_vars fd) (f_test_mode fd) (f_test_order fd) = Ok (h2, 0%Z) /\
    xcfun_input_length h2 = Ok n /\ xcfun_output_length h2 = Ok m /\ (0 < n <= f_test_nin fd)%Z /\ (0 < m <= f_test_nout fd)%Z.
Proof.
  intros Hi Hm. pose proof (proj1 (Forall_forall _ _) (test_one_bounds K) fd Hi) as B. unfold xcfun_test_one in B.
  destruct (xcfun_set xcfun_new (f_name fd) (OofQ 1)) as [[h1 c]| | |] eqn:E; cbn [obind fst] in B;
    try (destruct B as [B|(n & m & B & _)]; discriminate).
  rewrite (proj2 (Z.eqb_neq _ _) Hm) in B.
  destruct (xcfun_eval_setup h1 _ _ _) as [[h2 s]| | |] eqn:S; cbn [obind fst snd] in B; try (destruct B as [B|(n & m & B & _)]; discriminate).
  destruct (xcfun_input_length h2) as [n| | |] eqn:N; cbn [obind] in B; try (destruct B as [B|(n' & m & B & _)]; discriminate).
  destruct (xcfun_output_length h2) as [m| | |] eqn:M; cbn [obind] in B; try (destruct B as [B|(n' & m & B & _)]; discriminate).
  destruct B as [B|(n' & m' & B & B1 & B2)]; [discriminate|]. injection B as -> <- <-.
  exists h1, c, h2, n, m. repeat split; try assumption; try lia.
  exists [CSet (f_name fd) (OofQ 1%Q)]. cbn [Api.run step]. rewrite E. reflexivity.
Qed.
End Gen.

Lemma one_R : @OofQ ROps 1 = 1.
Proof. cbn [OofQ ROps]. unfold Q2R. cbn. lra. Qed.
Lemma zero_R : @OofQ ROps 0 = 0.
Proof. cbn [OofQ ROps]. unfold Q2R. cbn. lra. Qed.

Lemma test_fails_iff junk buf fd r b : In fd xcint_funs -> test_fails (K := ROps) junk buf fd r = Ok b -> (b = true <-> wrong junk buf fd r).
Proof.
  intros Hi E. unfold test_fails in E. destruct (Z.eq_dec (f_test_mode fd) XC_MODE_UNSET) as [Hm|Hm].
  - rewrite (proj2 (Z.eqb_eq _ _) Hm) in E. destruct (xcfun_set _ _ _) as [a| | |]; try discriminate. cbn [obind] in E. injection E as <-.
    split; [discriminate|]. intros [H _]. contradiction.
  - destruct (test_ready (K := ROps) fd Hi Hm) as (h1 & c & h2 & n & m & Es & Hr & Su & N & M & Bn & Bm).
    rewrite Es in E. cbn [obind fst] in E. rewrite (proj2 (Z.eqb_neq _ _) Hm) in E. rewrite Su in E. cbn [obind fst snd] in E.
    rewrite Z.eqb_refl, M in E. cbn [obind] in E. destruct (Nat.eqb _ 0); [discriminate|]. rewrite N in E. cbn [obind] in E.
    destruct (Z.ltb _ n); [discriminate|]. rewrite zero_R in E.
    destruct (xcfun_eval junk h2 buf _) as [ws| | |] eqn:Ev; try discriminate. cbn [obind] in E.
    destruct (nerr _ _ _ _) as [k| | |] eqn:Ek; try discriminate. cbn [obind] in E. injection E as <-.
    rewrite Nat.ltb_lt, (nerr_ok _ _ _ _ _ Ek). split.
    + intros (j & x & Hj & A & B). split; [exact Hm|]. exists h1, c, h2, m, ws, j, x. rewrite <- one_R.
      repeat split; try assumption; [lia|]. now apply off_R.
    + intros (_ & h1' & c' & h2' & m' & ws' & i & x & Es' & Su' & M' & Hj & Ev' & A & B).
      rewrite <- one_R in Es'. assert (h1' = h1) by congruence. subst h1'. assert (h2' = h2) by congruence. subst h2'.
      assert (m' = m) by congruence. subst m'. cbn [T ROps] in Ev, Ev'. rewrite Ev in Ev'. injection Ev' as <-.
      exists i, x. repeat split; [lia|lia|exact A|]. now apply off_R.
Qed.

Lemma from_count junk buf ref : forall fds f k, test_from (K := ROps) junk buf ref f fds = Ok k -> (forall fd, In fd fds -> In fd xcint_funs) ->
  exists bad, NoDup bad /\ List.length bad = k /\
    forall g, In g bad <-> (f <= g)%nat /\ exists fd, nth_error fds (g - f) = Some fd /\ wrong junk (buf g) fd (ref g).
Proof.
  induction fds as [|fd l IH]; intros f k E Hi.
  - injection E as <-. exists []. split; [constructor|]. split; [reflexivity|]. intro g. split; [intros []|]. intros (_ & fd & N & _). destruct (g - f)%nat; discriminate.
  - cbn [test_from] in E. destruct (test_fails junk (buf f) fd (ref f)) as [b| | |] eqn:T; try discriminate. cbn [obind] in E.
    destruct (test_from junk buf ref (S f) l) as [k'| | |] eqn:E'; try discriminate. cbn [obind] in E. injection E as <-.
    destruct (IH (S f) k' E') as (bad & Nd & L & Iff); [intros; apply Hi; now right|].
    pose proof (test_fails_iff _ _ _ _ _ (Hi fd (or_introl eq_refl)) T) as W.
    assert (Late : forall g, In g bad -> (S f <= g)%nat) by (intros g Hg; apply Iff in Hg; tauto).
    assert (Tail : forall g, (g <> f)%nat -> (In g bad <-> (f <= g)%nat /\ exists fd', nth_error (fd :: l) (g - f) = Some fd' /\ wrong junk (buf g) fd' (ref g))).
    { intros g Ng. rewrite Iff. split.
      - intros (Hg & fd' & N & Wr). split; [lia|]. exists fd'. replace (g - f)%nat with (S (g - S f)) by lia. now split.
      - intros (Hg & fd' & N & Wr). split; [lia|]. exists fd'. replace (g - f)%nat with (S (g - S f)) in N by lia. now split. }
    destruct b.
    + exists (f :: bad). split; [constructor; [intro Hf; apply Late in Hf; lia|exact Nd]|]. split; [cbn; lia|]. intro g. cbn [In].
      destruct (Nat.eq_dec g f) as [->|Ng].
      * split; [|now left]. intros _. split; [lia|]. exists fd. rewrite Nat.sub_diag. split; [reflexivity|]. now apply W.
      * rewrite <- (Tail g Ng). split; [intros [H|H]; [congruence|exact H]|now right].
    + exists bad. split; [exact Nd|]. split; [exact L|]. intro g. destruct (Nat.eq_dec g f) as [->|Ng]; [|now apply Tail].
      split; [intro Hf; apply Late in Hf; lia|]. intros (_ & fd' & N & Wr). rewrite Nat.sub_diag in N. injection N as <-. apply W in Wr. discriminate.
Qed.

(** C42: with real arithmetic the self test returns the number of functionals whose output at their own test point is further from the reference than the threshold, whatever the reference numbers are. *)
Theorem C42_selftest_counts :
  forall junk buf (ref : nat -> reference ROps) k, xcfun_test junk buf ref = Ok k ->
    exists bad, NoDup bad /\ List.length bad = k /\
      forall f, In f bad <-> exists fd, nth_error xcint_funs f = Some fd /\ wrong junk (buf f) fd (ref f).
Proof.
  intros junk buf ref k E. destruct (from_count _ _ _ _ _ _ E) as (bad & Nd & L & Iff); [auto|].
  exists bad. split; [exact Nd|]. split; [exact L|]. intro f. rewrite Iff, Nat.sub_0_r. split; [intros [_ H]; exact H|intro H; split; [lia|exact H]].
Qed.
Print Assumptions C42_selftest_counts.

(** *** The tests of the library: what the FUNCTIONAL blocks ask for *)
Definition test_sets : list Z := [XC_A_B; XC_A_B_GAA_GAB_GBB; XC_A_B_GAA_GAB_GBB_TAUA_TAUB].
Lemma tests_ask fd : In fd xcint_funs -> f_test_mode fd <> XC_MODE_UNSET ->
  f_test_mode fd = XC_PARTIAL_DERIVATIVES /\ (0 <= f_test_order fd <= 2)%Z /\ In (f_test_vars fd) test_sets.
Proof.
  assert (E : forallb (fun fd => orb (Z.eqb (f_test_mode fd) XC_MODE_UNSET)
     (andb (Z.eqb (f_test_mode fd) XC_PARTIAL_DERIVATIVES) (andb (andb (Z.leb 0 (f_test_order fd)) (Z.leb (f_test_order fd) 2))
        (existsb (Z.eqb (f_test_vars fd)) test_sets)))) xcint_funs = true) by (vm_compute; reflexivity).
  rewrite forallb_forall in E. intros Hi Hm. specialize (E fd Hi). cbv beta in E.
  rewrite (proj2 (Z.eqb_neq _ _) Hm) in E. cbn [orb] in E. rewrite !andb_true_iff, Z.eqb_eq, !Z.leb_le, existsb_exists in E.
  destruct E as (A & [B C] & v & V & W). apply Z.eqb_eq in W. subst v. tauto.
Qed.

Section Gen2.
Context {K : Ops}.
Variable junk : forall n : nat, nat -> ct K n.
Lemma setup_reachable h1 v m o h2 : reachable h1 -> xcfun_eval_setup (K := K) h1 v m o = Ok (h2, 0%Z) -> reachable h2.
Proof.
  intros [cs E] S. exists (cs ++ [CSetup v m o]). revert E. generalize (@xcfun_new K). induction cs as [|c cs IH]; intros h0 E; cbn [app Api.run] in *.
  - injection E as ->. cbn [step]. rewrite S. reflexivity.
  - destruct (step h0 c) as [[h a]| | |]; try discriminate. cbn [obind fst] in *. now apply IH.
Qed.
Lemma test_safe buf fd r : In fd xcint_funs -> (f_test_mode fd <> XC_MODE_UNSET -> tabulated fd r) ->
  oP (fun _ => True) True (test_fails junk buf fd r).
Proof.
  intros Hi Ht. unfold test_fails. destruct (Z.eq_dec (f_test_mode fd) XC_MODE_UNSET) as [Hm|Hm].
  - rewrite (proj2 (Z.eqb_eq _ _) Hm). assert (E : exists a, xcfun_set (@xcfun_new K) (f_name fd) (OofQ 1) = Ok a).
    { pose proof (proj1 (Forall_forall _ _) (test_one_bounds K) fd Hi) as B. unfold xcfun_test_one in B.
      destruct (xcfun_set _ _ _); [eauto| | |]; cbn [obind] in B; destruct B as [B|(n & m & B & _)]; discriminate. }
    destruct E as [a ->]. exact Logic.I.
  - destruct (test_ready (K := K) fd Hi Hm) as (h1 & c & h2 & n & m & Es & Hr & Su & N & M & Bn & Bm). destruct (Ht Hm) as [Li Lo].
    rewrite Es. cbn [obind fst]. rewrite (proj2 (Z.eqb_neq _ _) Hm), Su. cbn [obind fst snd]. rewrite Z.eqb_refl, M. cbn [obind].
    destruct (Nat.eqb_spec (List.length (r_in r)) 0) as [Z0|_]; [lia|]. rewrite N. cbn [obind].
    replace (Z.ltb (Z.of_nat (List.length (r_in r))) n) with false by (symmetry; apply Z.ltb_ge; lia).
    destruct (setup_gives_valid _ _ _ _ _ Su) as (Sv & Ev & Em & Eo & _ & _). destruct (tests_ask fd Hi Hm) as (Am & Ao & Av).
    destruct (eval_outcome junk h2 buf (fun i => nth i (r_in r) (OofQ 0)) (setup_reachable _ _ _ _ _ Hr Su) Sv) as (vd & _ & P).
    + rewrite Ev. cbn [In test_sets] in Av. intro U. destruct Av as [A|[A|[A|[]]]]; rewrite <- A in U; vm_compute in U; tauto || (repeat destruct U as [U|U]; try discriminate U; try contradiction).
    + rewrite Em, Am. now left.
    + intros _. lia.
    + destruct (xcfun_eval junk h2 buf _) as [ws| | |]; cbn [oP] in P; try contradiction; [|exact Logic.I]. cbn [obind].
      destruct (nerr_total (rd buf ws) r (Z.to_nat m) 0) as [k ->]; [lia|]. exact Logic.I.
Qed.
Lemma from_safe buf ref : forall fds f, (forall i fd, nth_error fds i = Some fd -> In fd xcint_funs /\ (f_test_mode fd <> XC_MODE_UNSET -> tabulated fd (ref (f + i)%nat))) ->
  oP (fun _ => True) True (test_from junk buf ref f fds).
Proof.
  induction fds as [|fd l IH]; intros f H; [exact Logic.I|]. cbn [test_from].
  destruct (H 0%nat fd eq_refl) as [Hi Ht]. rewrite Nat.add_0_r in Ht. pose proof (test_safe (buf f) fd (ref f) Hi Ht) as P.
  destruct (test_fails junk (buf f) fd (ref f)) as [b| | |]; cbn [oP] in P; try contradiction; [|exact Logic.I]. cbn [obind].
  specialize (IH (S f)). destruct (test_from junk buf ref (S f) l) as [k| | |]; cbn [oP obind] in *; try exact Logic.I.
  all: apply IH; intros i fd' N; destruct (H (S i) fd' N) as [A B]; split; [exact A|]; now replace (S f + i)%nat with (f + S i)%nat by lia.
Qed.
End Gen2.

(** C42: in any arithmetic, with reference tables of the declared lengths, the self test never leaves the bounds of an array and never ends the process. *)
Theorem C42_selftest_safe :
  forall (K : Ops) junk buf (ref : nat -> reference K),
    (forall f fd, nth_error xcint_funs f = Some fd -> f_test_mode fd <> XC_MODE_UNSET -> tabulated fd (ref f)) ->
    xcfun_test junk buf ref <> UB /\ xcfun_test junk buf ref <> Die.
Proof.
  intros K junk buf ref H. pose proof (from_safe junk buf ref xcint_funs 0) as P. unfold xcfun_test.
  destruct (test_from junk buf ref 0 xcint_funs); cbn [oP] in P; split; try discriminate; intros _; apply P;
    intros i fd N; (split; [eapply nth_error_In; exact N|intro Hm; exact (H i fd N Hm)]).
Qed.
Print Assumptions C42_selftest_safe.

(** The reference input is a density the functional is defined at. *)
Definition sensible f (fd : fun_data) (r : reference ROps) : Prop :=
  tabulated fd r /\ exists D nm, nth_error item_names f = Some nm /\ covered D nm /\ above D /\ describes (f_test_vars fd) (fun i => nth i (r_in r) 0) D.

Lemma name_at f fd : nth_error xcint_funs f = Some fd -> names_items [(f_name fd, f)] = true /\ (f < 78)%nat.
Proof.
  intro N. assert (L : (f < 78)%nat) by (change 78%nat with (List.length xcint_funs); apply nth_error_Some; congruence). split; [|exact L].
  assert (E : forallb (fun f => match nth_error xcint_funs f with Some fd => names_items [(f_name fd, f)] | None => false end) (seq 0 78) = true) by (vm_compute; reflexivity).
  rewrite forallb_forall in E. specialize (E f). rewrite N in E. apply E. apply in_seq. lia.
Qed.
Lemma alone (f : nat) fd (w : R) h1 c : nth_error xcint_funs f = Some fd -> xcfun_set (@xcfun_new ROps) (f_name fd) w = Ok (h1, c) ->
  h_active h1 = [f] /\ 0 < (h_settings h1 XC_RANGESEP_MU : R).
Proof.
  intros N Es. destruct (name_at f fd N) as [Nm L]. destruct (make (K := ROps) [(f_name fd, f, w)] Nm) as (h & Er & Hr & A & S).
  cbn [map Api.run step fst snd] in Er. cbn [T ROps] in Er, Es. rewrite Es in Er. cbn [obind fst snd] in Er. injection Er as ->.
  split.
  - rewrite A. unfold mactive. cbn [map fold_left fst snd]. unfold wr_active. cbn [fst snd existsb].
    rewrite (proj2 (Nat.ltb_lt f 78) L). reflexivity.
  - rewrite S. unfold msettings. cbn [map fold_left fst snd]. unfold wr_settings, upd. cbn [fst snd].
    destruct (Nat.eqb_spec XC_RANGESEP_MU f) as [E|E]; [unfold XC_RANGESEP_MU in E; lia|]. cbn. unfold Q2R. cbn. lra.
Qed.
Lemma test_completes junk buf f fd r : nth_error xcint_funs f = Some fd -> (f_test_mode fd <> XC_MODE_UNSET -> sensible f fd r) ->
  exists b, test_fails (K := ROps) junk buf fd r = Ok b.
Proof.
  intros Nf Hs. pose proof (nth_error_In _ _ Nf) as Hi.
  pose proof (test_safe (K := ROps) junk buf fd r Hi (fun Hm => proj1 (Hs Hm))) as P.
  destruct (test_fails (K := ROps) junk buf fd r) as [b| | |] eqn:E; cbn [oP] in P; try contradiction; [eauto|]. exfalso.
  unfold test_fails in E. destruct (Z.eq_dec (f_test_mode fd) XC_MODE_UNSET) as [Hm|Hm].
  - rewrite (proj2 (Z.eqb_eq _ _) Hm) in E. pose proof (proj1 (Forall_forall _ _) (test_one_bounds ROps) fd Hi) as B. unfold xcfun_test_one in B.
    destruct (xcfun_set _ _ _); cbn [obind] in B, E; try discriminate; destruct B as [B|(n & m & B & _)]; discriminate.
  - destruct (test_ready (K := ROps) fd Hi Hm) as (h1 & c & h2 & n & m & Es & Hr & Su & N & M & Bn & Bm). destruct (Hs Hm) as [[Li Lo] (D & nm & Nn & Cv & Ab & De)].
    rewrite Es in E. cbn [obind fst] in E. rewrite (proj2 (Z.eqb_neq _ _) Hm), Su in E. cbn [obind fst snd] in E. rewrite Z.eqb_refl, M in E. cbn [obind] in E.
    destruct (Nat.eqb_spec (List.length (r_in r)) 0) as [Z0|_]; [lia|]. rewrite N in E. cbn [obind] in E.
    replace (Z.ltb (Z.of_nat (List.length (r_in r))) n) with false in E by (symmetry; apply Z.ltb_ge; lia).
    destruct (tests_ask fd Hi Hm) as (Am & Ao & Av). rewrite Am in Su. destruct (alone f fd _ h1 c Nf Es) as [Act Mu].
    assert (Ac : all_covered h1 D).
    { intros i nm' I N'. rewrite Act in I. destruct I as [<-|[]]. rewrite Nn in N'. injection N' as <-. exact Cv. }
    assert (Ez : (fun i => nth i (r_in r) (@OofQ ROps 0)) = (fun i => nth i (r_in r) 0)) by now rewrite zero_R.
    destruct (C33_partial_defined junk h1 h2 _ _ D buf _ Hr Su ltac:(lia) Mu Ac Ab De) as [ws Ev].
    cbn [T ROps] in E, Ev, Ez. rewrite Ez, Ev in E. cbn [obind] in E.
      destruct (nerr_total (K := ROps) (rd buf ws) r (Z.to_nat m) 0) as [k Ek]; [lia|]. cbn [T ROps] in E, Ek. rewrite Ek in E. discriminate.
Qed.
(** C42: at reference densities where the functionals are defined, the self test runs to its end, whatever the reference outputs. *)
Theorem C42_selftest_completes :
  forall junk buf (ref : nat -> reference ROps),
    (forall f fd, nth_error xcint_funs f = Some fd -> f_test_mode fd <> XC_MODE_UNSET -> sensible f fd (ref f)) ->
    exists k, xcfun_test junk buf ref = Ok k.
Proof.
  intros junk buf ref H. unfold xcfun_test.
  assert (G : forall fds f, (forall i fd, nth_error fds i = Some fd -> nth_error xcint_funs (f + i) = Some fd) -> exists k, test_from (K := ROps) junk buf ref f fds = Ok k).
  { induction fds as [|fd l IH]; intros f A; [eexists; reflexivity|]. cbn [test_from].
    pose proof (A 0%nat fd eq_refl) as A0. rewrite Nat.add_0_r in A0.
    destruct (test_completes junk (buf f) f fd (ref f) A0 (H f fd A0)) as [b ->]. cbn [obind].
    destruct (IH (S f)) as [k ->]; [|eexists; reflexivity]. intros i fd' N. replace (S f + i)%nat with (f + S i)%nat by lia. now apply A. }
  apply G. intros i fd N. exact N.
Qed.
Print Assumptions C42_selftest_completes.

(** *** A concrete case: one open-shell density as the reference input of every test; all reference outputs zero. *)
Definition r_ex (f : nat) : reference ROps :=
  match nth_error xcint_funs f with
  | Some fd => @Build_reference ROps (encode (f_test_vars fd) D_ex) (repeat 0 (Z.to_nat (f_test_nout fd))) (1 / 10 ^ 5)
  | None => @Build_reference ROps [] [] 0
  end.
Lemma alpha_c_ex : alpha_c D_ex <> 1.
Proof.
  pose proof (t_gas_low (1 + / 2) ltac:(lra)) as Q. unfold alpha_c, iso_orbital, dot, gN, vadd. cbn [al be D_ex rho grad kin vx vy vz].
  set (u := t_gas (1 + / 2)) in *. replace ((1 - / 2) / (1 + / 2)) with (1 / 3) by field.
  assert (A : 4 / 3 <= Rpower (1 + 1 / 3) (5 / 3)).
  { replace (4 / 3) with (Rpower (4 / 3) 1) at 1 by (apply Rpower_1; lra). replace (1 + 1 / 3) with (4 / 3) by lra. apply Rle_Rpower; lra. }
  assert (B : 4 / 9 <= Rpower (1 - 1 / 3) (5 / 3)).
  { replace (4 / 9) with (Rpower (2 / 3) (INR 2)) by (rewrite Rpower_pow by lra; cbn [pow]; field). replace (INR 2) with 2 by (cbn; lra).
    replace (1 - 1 / 3) with (2 / 3) by lra. unfold Rpower. assert (L : ln (2 / 3) < 0) by (rewrite <- ln_1; apply ln_increasing; lra).
    apply Rlt_le, exp_increasing. lra. }
  set (p := Rpower (1 + 1 / 3) (5 / 3)) in *. set (q := Rpower (1 - 1 / 3) (5 / 3)) in *.
  intro E. assert (W : 0 < u * ((p + q) / 2)) by (apply Rmult_lt_0_compat; lra).
  apply (f_equal (fun z => z * (u * ((p + q) / 2)))) in E. unfold Rdiv in E at 1. rewrite Rmult_assoc, Rinv_l in E by lra. nra.
Qed.

Lemma D_ex_covers nm fd f : nth_error xcint_funs f = Some fd -> f_test_mode fd <> XC_MODE_UNSET -> nth_error item_names f = Some nm -> covered D_ex nm.
Proof.
  intros N Hm Nn. destruct (name_at f fd N) as [_ L].
  assert (Fu : full D_ex) by (unfold full, dot, gN, vadd; cbn; repeat split; lra).
  assert (A1 : alpha_x (al D_ex) <> 1 /\ alpha_x (be D_ex) <> 1).
  { pose proof (t_gas_low (2 * 1) ltac:(lra)) as Q1. pose proof (t_gas_low (2 * / 2) ltac:(lra)) as Q2. unfold alpha_x, iso_orbital, dot. cbn [al be D_ex rho grad kin vx vy vz].
    split; apply Rlt_not_eq.
    - apply Rmult_lt_reg_r with (t_gas (2 * 1)); [lra|]. unfold Rdiv. rewrite Rmult_assoc, Rinv_l by lra. lra.
    - apply Rmult_lt_reg_r with (t_gas (2 * / 2)); [lra|]. unfold Rdiv. rewrite Rmult_assoc, Rinv_l by lra. lra. }
  pose proof alpha_c_ex as A2.
  assert (E : forallb (fun f => match nth_error xcint_funs f, nth_error item_names f with
     | Some fd, Some nm => orb (Z.eqb (f_test_mode fd) XC_MODE_UNSET)
          (existsb (String.eqb nm) (["SCANX"; "SCANC"]%string ++ any_gradient ++ positive_kinetic ++ full_density))
     | _, _ => false end) (seq 0 78) = true) by (vm_compute; reflexivity).
  rewrite forallb_forall in E. specialize (E f ltac:(apply in_seq; lia)). rewrite N, Nn, (proj2 (Z.eqb_neq _ _) Hm) in E. cbn [orb] in E.
  apply existsb_exists in E. destruct E as (nm' & I & Eq). apply String.eqb_eq in Eq. subst nm'. rewrite !in_app_iff in I. unfold covered.
  destruct I as [[<-|[<-|[]]]|[I|[I|I]]].
  - do 4 right. left. tauto.
  - do 5 right. tauto.
  - now left.
  - do 2 right. left. cbn. split; [exact I|lra].
  - do 3 right. left. tauto.
Qed.
Lemma r_ex_sensible f fd : nth_error xcint_funs f = Some fd -> f_test_mode fd <> XC_MODE_UNSET -> sensible f fd (r_ex f).
Proof.
  intros N Hm. destruct (name_at f fd N) as [_ L]. unfold sensible, r_ex. rewrite N.
  destruct (tests_ask fd (nth_error_In _ _ N) Hm) as (Am & Ao & Av).
  split.
  - assert (E : forallb (fun fd => orb (Z.eqb (f_test_mode fd) XC_MODE_UNSET) (Z.leb 0 (f_test_nout fd))) xcint_funs = true) by (vm_compute; reflexivity).
    split; cbn [r_in r_out].
    + assert (E2 : forallb (fun fd => orb (Z.eqb (f_test_mode fd) XC_MODE_UNSET)
         (Z.eqb (f_test_nin fd) (if Z.eqb (f_test_vars fd) XC_A_B then 2 else if Z.eqb (f_test_vars fd) XC_A_B_GAA_GAB_GBB then 5 else 7))) xcint_funs = true) by (vm_compute; reflexivity).
      rewrite forallb_forall in E2. specialize (E2 fd (nth_error_In _ _ N)). cbv beta in E2. rewrite (proj2 (Z.eqb_neq _ _) Hm) in E2. cbn [orb] in E2.
      apply Z.eqb_eq in E2. rewrite E2. cbn [In test_sets] in Av. destruct Av as [A|[A|[A|[]]]]; rewrite <- A; reflexivity.
    + rewrite repeat_length. rewrite forallb_forall in E. specialize (E fd (nth_error_In _ _ N)). cbv beta in E. rewrite (proj2 (Z.eqb_neq _ _) Hm) in E. cbn [orb] in E.
      apply Z.leb_le in E. lia.
  - destruct (item_ex f L) as [nm Nn]. exists D_ex, nm. split; [exact Nn|]. split; [now apply (D_ex_covers nm fd f)|]. split; [exact D_ex_above|].
    cbn [r_in]. apply encode_describes. cbn [In test_sets] in Av. destruct Av as [A|[A|[A|[]]]]; rewrite <- A; cbn; tauto.
Qed.
Example C42_selftest_example : exists k, xcfun_test (K := ROps) (fun n _ => ct_const n (0 : ROps)) (fun _ _ => 0) r_ex = Ok k.
Proof. apply C42_selftest_completes. exact r_ex_sensible. Qed.

(** ** Not-a-number

    What a value that stands for "not a number" satisfies in IEEE arithmetic: every comparison with it is false and subtraction yields it again. *)
Definition nan_like {K : Ops} (nan : K) : Prop :=
  (forall x, Oltb x nan = false) /\ (forall x, Oltb nan x = false) /\ forall x, Osub nan x = nan.

(** C42: a functional for which the library returns only NaN passes the self test, whatever the reference. *)
Theorem C42_nan_passes :
  forall (K : Ops) (nan : K) junk buf fd (r : reference K) h1 c h2 m ws b, nan_like nan -> In fd xcint_funs ->
    xcfun_set (@xcfun_new K) (f_name fd) (OofQ 1%Q) = Ok (h1, c) ->
    xcfun_eval_setup h1 (f_test_vars fd) (f_test_mode fd) (f_test_order fd) = Ok (h2, 0%Z) ->
    xcfun_output_length h2 = Ok m ->
    xcfun_eval junk h2 buf (fun i => nth i (r_in r) (OofQ 0)) = Ok ws ->
    (forall i, (Z.of_nat i < m)%Z -> rd buf ws i = nan) ->
    test_fails junk buf fd r = Ok b -> b = false.
Proof.
  intros K nan junk buf fd r h1 c h2 m ws b (N1 & N2 & N3) Hi Es Su M Ev Nan E. unfold test_fails in E.
  rewrite Es in E. cbn [obind fst] in E. destruct (Z.eqb (f_test_mode fd) XC_MODE_UNSET); [now injection E as <-|].
  rewrite Su in E. cbn [obind fst snd] in E. rewrite Z.eqb_refl, M in E. cbn [obind] in E. destruct (Nat.eqb _ 0); [discriminate|].
  destruct (xcfun_input_length h2) as [n| | |]; try discriminate. cbn [obind] in E. destruct (Z.ltb _ n); [discriminate|].
  rewrite Ev in E. cbn [obind] in E. destruct (nerr _ _ _ _) as [k| | |] eqn:Ek; try discriminate. cbn [obind] in E. injection E as <-.
  apply Nat.ltb_ge. destruct (Nat.eq_dec k 0) as [->|Nk]; [lia|]. exfalso.
  destruct (proj1 (nerr_ok _ _ _ _ _ Ek) ltac:(lia)) as (j & x & Hj & _ & O).
  rewrite Nan in O by lia. unfold off in O. rewrite N3 in O. unfold oabs in O at 2. rewrite N2, N1 in O. discriminate.
Qed.
Print Assumptions C42_nan_passes.

(** Rational arithmetic with one extra value for NaN, and elementary functions that all return it (a broken mathematical library). *)
Definition lift2 (f : Q -> Q -> Q) (a b : option Q) : option Q := match a, b with Some x, Some y => Some (Qred (f x y)) | _, _ => None end.
Definition cmp2 (f : Q -> Q -> bool) (a b : option Q) : bool := match a, b with Some x, Some y => f x y | _, _ => false end.
Definition no1 (a : option Q) : option Q := None.
Definition no2 (a b : option Q) : option Q := None.
Definition BrokenOps : Ops := {|
  T := option Q;
  Oadd := lift2 Qplus; Osub := lift2 Qminus; Omul := lift2 Qmult; Odiv := lift2 Qdiv; Oopp := option_map Qopp;
  OofQ := fun q => Some q; Opi := Some (22 # 7);
  Oltb := cmp2 (fun x y => negb (Qle_bool y x)); Oeqb := cmp2 Qeq_bool;
  Oexp := no1; Olog := no1; Opow := no2; Osqrt := no1; Ocbrt := no1; Oatan := no1; Oerf := no1; Osin := no1; Ocos := no1; Oasinh := no1; Osinh := no1 |}.
Lemma broken_nan : nan_like (K := BrokenOps) None.
Proof. split; [|split]; [intros [x|]; reflexivity|reflexivity|reflexivity]. Qed.
(** C42: the self test does not detect every wrong functional: with that arithmetic Slater exchange returns NaN in all six slots of its test, and is not counted as failing. *)
Theorem C42_selftest_detects_refuted :
  exists (K : Ops) (nan : K) junk buf fd (r : reference K) h1 c h2 ws,
    nan_like nan /\ In fd xcint_funs /\ f_name fd = "SLATERX"%string /\ tabulated fd r /\
    xcfun_set (@xcfun_new K) (f_name fd) (OofQ 1%Q) = Ok (h1, c) /\
    xcfun_eval_setup h1 (f_test_vars fd) (f_test_mode fd) (f_test_order fd) = Ok (h2, 0%Z) /\
    xcfun_output_length h2 = Ok 6%Z /\
    xcfun_eval junk h2 buf (fun i => nth i (r_in r) (OofQ 0)) = Ok ws /\
    (forall i, (i < 6)%nat -> rd buf ws i = nan) /\
    test_fails junk buf fd r = Ok false.
Proof.
  set (fd := nth 0 xcint_funs (mkFun "" 0 0 0 0 0 0)).
  set (r := @Build_reference BrokenOps [Some (39 # 1)%Q; Some (38 # 1)%Q] (repeat (Some ((-241) # 1)%Q) 6) (Some (1 # 10000000)%Q)).
  set (jk := fun (n : nat) (_ : nat) => ct_const n (Some 0%Q : T BrokenOps)).
  set (bf := fun _ : nat => Some 0%Q : T BrokenOps).
  destruct (test_ready (K := BrokenOps) fd) as (h1 & c & h2 & n & m & Es & Hr & Su & N & M & Bn & Bm); [now left|discriminate|].
  exists BrokenOps, None, jk, bf, fd, r. 
  assert (Ev : exists h1 c h2 ws, xcfun_set (@xcfun_new BrokenOps) (f_name fd) (OofQ 1%Q) = Ok (h1, c) /\
    xcfun_eval_setup h1 (f_test_vars fd) (f_test_mode fd) (f_test_order fd) = Ok (h2, 0%Z) /\ xcfun_output_length h2 = Ok 6%Z /\
    xcfun_eval jk h2 bf (fun i => nth i (r_in r) (OofQ 0)) = Ok ws /\ map (rd bf ws) (seq 0 6) = repeat None 6).
  { do 4 eexists. split; [vm_compute; reflexivity|]. split; [vm_compute; reflexivity|]. split; [vm_compute; reflexivity|]. split; [vm_compute; reflexivity|]. vm_compute. reflexivity. }
  clear - Ev. destruct Ev as (h1 & c & h2 & ws & Es & Su & M & Ev & Al). exists h1, c, h2, ws.
  split; [exact broken_nan|]. split; [now left|]. split; [reflexivity|]. split; [split; reflexivity|]. split; [exact Es|]. split; [exact Su|]. split; [exact M|]. split; [exact Ev|].
  assert (Nan : forall i, (i < 6)%nat -> rd bf ws i = None).
  { cbn [map seq repeat] in Al. injection Al as A0 A1 A2 A3 A4 A5. intros i Hi. do 6 (destruct i as [|i]; [assumption|]). lia. }
  split; [exact Nan|]. assert (P : oP (fun _ => True) True (test_fails jk bf fd r)) by (apply test_safe; [now left|intros _; split; reflexivity]).
  destruct (test_fails jk bf fd r) as [b| | |] eqn:E; cbn [oP] in P; try contradiction.
  - f_equal. eapply (C42_nan_passes BrokenOps None); [exact broken_nan| |exact Es|exact Su|exact M|exact Ev| |exact E]; [now left|]. intros i Hi. apply Nan. lia.
  - exfalso. vm_compute in E. discriminate.
Qed.
Print Assumptions C42_selftest_detects_refuted.

(** ** The compatibility check

    The header says "checks that the compiled library and header file version match": the host was compiled against a header of major version [header], the library has version (major, minor, patch). *)
Definition check_is_right (header major minor patch : Z) : Prop := is_compatible_library major minor patch = true <-> header = major.

Lemma always_compatible major minor patch : (0 <= major -> 0 <= minor < 2 ^ 16 -> 0 <= patch < 2 ^ 16 -> is_compatible_library major minor patch = true)%Z.
Proof.
  intros Hm Hn Hp. unfold is_compatible_library, version_code. apply Z.eqb_eq. rewrite !Z.shiftr_lor, Z.shiftr_shiftl_l by lia.
  assert (S : forall z, (0 <= z < 2 ^ 16)%Z -> Z.shiftr z 16 = 0%Z) by (intros z Hz; rewrite Z.shiftr_div_pow2 by lia; apply Z.div_small; lia).
  rewrite (S minor Hn), (S patch Hp), !Z.lor_0_r. reflexivity.
Qed.
(** C42: the compatibility check answers yes for every version of the library, so it is wrong for every header of another major version. *)
Theorem C42_compatibility_refuted :
  forall header major minor patch, (0 <= major -> 0 <= minor < 2 ^ 16 -> 0 <= patch < 2 ^ 16 -> header <> major ->
    ~ check_is_right header major minor patch)%Z.
Proof. intros header major minor patch Hm Hn Hp Ne [H _]. exact (Ne (H (always_compatible _ _ _ Hm Hn Hp))). Qed.
Print Assumptions C42_compatibility_refuted.
Example C42_compatibility_example : ~ check_is_right 3 2 1 1 /\ check_is_right 2 2 1 1.
Proof. split; [apply C42_compatibility_refuted; lia|]. split; reflexivity. Qed.
