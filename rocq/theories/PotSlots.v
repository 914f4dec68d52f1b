(** * The outputs of potential mode in closed form, over the reals *)
From Coq Require Import Reals QArith Qreals ZArith Arith Lia Lra List Bool String.
From Coquelicot Require Import Coquelicot.
From Verif Require Import Scalar RInst Tables Api SpecApi ApiProofs ApiProofs2 CTaylor CtAlg TMath Fps TFam TExp Ad Br Expr Densvars Functionals
  Eval Sem AdEval SpecEval Layout EvalSem EvalProps Taint EvalExt EvalR EvalReal EvalApi Props_Eval.
Import ListNotations.
Local Open Scope outcome_scope.
Local Open Scope R_scope.

(** ** The accumulator *)
Lemma rct_add_0l n (x : rct n) : ct_add n (czero n) x = x.
Proof. rewrite czero_eq. apply add_0. Qed.
Lemma rct_add_0r n (x : rct n) : ct_add n x (czero n) = x.
Proof. rewrite add_comm. apply rct_add_0l. Qed.
Lemma rct_add_assoc n (x y z : rct n) : ct_add n (ct_add n x y) z = ct_add n x (ct_add n y z).
Proof. symmetry. apply add_assoc. Qed.
Lemma energy_sum_acc (h : handle ROps) n fl d : forall out,
  energy_sum h n fl d out = omap (ct_add n out) (energy_sum h n fl d (czero n)).
Proof.
  unfold energy_sum. generalize (h_active h) as l. 
  set (f := fun (out : ct ROps n) (id : nat) => _).
  assert (S1 : forall o i, f o i = omap (ct_add n o) (f (czero n) i)).
  { intros o i. unfold f. destruct (fp i); cbn [obind omap]; try reflexivity. destruct (of_option _); cbn [obind omap]; try reflexivity.
    now rewrite rct_add_0l. }
  assert (A : forall l o e, ofold f (ct_add n o e) l = omap (ct_add n o) (ofold f e l)).
  { induction l as [|i l IH]; intros o e; cbn [ofold omap]; [reflexivity|].
    rewrite (S1 (ct_add n o e)), (S1 e). destruct (f (czero n) i); cbn [obind omap]; try reflexivity.
    rewrite rct_add_assoc. apply IH. }
  intros l out. rewrite <- (A l out (czero n)). now rewrite rct_add_0r.
Qed.
Lemma energy_acc (h : handle ROps) n d out : energy h n d out = omap (ct_add n out) (energy h n d (czero n)).
Proof.
  unfold energy. destruct (densvars _ _ _ _); cbn [obind omap]; try reflexivity. apply energy_sum_acc.
Qed.

(** ** Directional inputs *)
(** Index of the derivative of input q (0: density, 1-3: gradient) along direction k. *)
Definition hx (k l : nat) : nat := nth (3 * k + l) [4; 5; 6; 5; 7; 8; 6; 8; 9]%nat 0%nat.
Definition der (k q : nat) : nat := match q with O => S k | S l => hx k l end.
(** Input arrays of the second order evaluations: the first infinitesimal moves along
    direction k, the second one is attached to input s; second derivative entries are 0. *)
Definition gin (input : nat -> R) (k s : nat) (i : nat) : rct 2 :=
  let o := if Nat.leb 10 i then 10%nat else 0%nat in
  if Nat.ltb (i - o) 4 then ((input i, input (o + der k (i - o))%nat), (if Nat.eqb i s then 1 else 0, 0)) else rconst 2 0.
Definition corr (h : handle ROps) (input : nat -> R) (o : nat) : outcome R :=
  x <- energy h 2 (gin input 0 (1 + o)) (czero 2) ;;
  y <- energy h 2 (gin input 1 (2 + o)) (czero 2) ;;
  z <- energy h 2 (gin input 2 (3 + o)) (czero 2) ;;
  Ok (snd (snd x) + snd (snd y) + snd (snd z)).

Definition junk0 : forall m : nat, nat -> rct m := fun m _ => rconst m 0.
Lemma zeroR m : @czero ROps m = rconst m 0.
Proof. apply czero_eq. Qed.

(** Arrays of the code, with junk = 0. *)
Definition gar (input : nat -> R) (two : bool) (k s : nat) (i : nat) : rct 2 :=
  if two then gin input k s i else if Nat.ltb i 10 then gin input k s i else rconst 2 0.
Section POT.
Variable h : handle ROps.
Hypothesis Rd : ready h.
Variable vd : vars_data.
Hypothesis E : vars_entry (h_vars h) = Ok vd.
Let n := Z.to_nat (v_len vd).
Variable input : nat -> R.
Lemma ext2 d d' o : (forall i, (i < n)%nat -> d i = d' i) -> energy h 2 d o = energy h 2 d' o.
Proof. intro H. apply (energy_ext h vd); [apply Rd|exact E|exact H]. Qed.
Lemma cvR (v x : R) : @cv ROps v x = ((v, x), (0, 0)).
Proof. unfold cv. cbn. rewrite Q2R_0. reflexivity. Qed.
Notation xset o := (@setin ROps input o dirx).
Notation yset o := (@setin ROps input o diry).
Notation zset o := (@setin ROps input o dirz).
Ltac ent := unfold seed1, zero49, setin, dirx, diry, dirz, gin, aupd, junk0; cbn -[Q2R cv]; rewrite ?cvR; cbn -[Q2R]; rewrite ?Q2R_0, ?Q2R_1; reflexivity.
Ltac each i := repeat (destruct i as [|i]; [ent|]); lia.
Lemma r_x : forall i, (i < 10)%nat -> seed1 (zero49 (xset 0 (junk0 2))) 1 i = gin input 0 1 i.
Proof. intros i Hi. do 10 (destruct i as [|i]; [ent|]). lia. Qed.
Lemma r_y d s : (forall i, (i < 10)%nat -> d i = gin input 0 s i) -> forall i, (i < 10)%nat -> seed1 (yset 0 d) 2 i = gin input 1 2 i.
Proof.
  intros Hd i Hi. do 4 (destruct i as [|i]; [ent|]).
  etransitivity; [etransitivity; [|apply (Hd _ Hi)]|].
  - do 6 (destruct i as [|i]; [reflexivity|]). lia.
  - do 6 (destruct i as [|i]; [reflexivity|]). lia.
Qed.
Lemma r_z d s : (forall i, (i < 10)%nat -> d i = gin input 1 s i) -> forall i, (i < 10)%nat -> seed1 (zset 0 d) 3 i = gin input 2 3 i.
Proof.
  intros Hd i Hi. do 4 (destruct i as [|i]; [ent|]).
  etransitivity; [etransitivity; [|apply (Hd _ Hi)]|].
  - do 6 (destruct i as [|i]; [reflexivity|]). lia.
  - do 6 (destruct i as [|i]; [reflexivity|]). lia.
Qed.
Definition hi0 (d : nat -> rct 2) : Prop := forall i, (14 <= i < 20)%nat -> d i = rconst 2 0.
Lemma u_x d j : hi0 d -> (j < 2)%nat -> forall i, (i < 20)%nat ->
  seed1 (zero49 (xset 10 (xset 0 d))) (1 + 10 * j) i = gin input 0 (1 + 10 * j) i.
Proof.
  intros Hd Hj i Hi. destruct j as [|[|j]]; [| |lia].
  all: do 14 (destruct i as [|i]; [ent|]).
  all: do 6 (destruct i as [|i]; [etransitivity; [etransitivity; [|match type of Hi with (?a < _)%nat => apply (Hd a); lia end]|]; reflexivity|]); lia.
Qed.
Lemma u_y d s j : (forall i, (i < 20)%nat -> d i = gin input 0 s i) -> (j < 2)%nat -> forall i, (i < 20)%nat ->
  seed1 (yset 10 (yset 0 d)) (2 + 10 * j) i = gin input 1 (2 + 10 * j) i.
Proof.
  intros Hd Hj i Hi. destruct j as [|[|j]]; [| |lia].
  all: do 4 (destruct i as [|i]; [ent|]).
  all: do 6 (destruct i as [|i]; [etransitivity; [etransitivity; [|apply (Hd _ Hi)]|]; reflexivity|]).
  all: do 4 (destruct i as [|i]; [ent|]).
  all: do 6 (destruct i as [|i]; [etransitivity; [etransitivity; [|apply (Hd _ Hi)]|]; reflexivity|]); lia.
Qed.
Lemma u_z d s j : (forall i, (i < 20)%nat -> d i = gin input 1 s i) -> (j < 2)%nat -> forall i, (i < 20)%nat ->
  seed1 (zset 10 (zset 0 d)) (3 + 10 * j) i = gin input 2 (3 + 10 * j) i.
Proof.
  intros Hd Hj i Hi. destruct j as [|[|j]]; [| |lia].
  all: do 4 (destruct i as [|i]; [ent|]).
  all: do 6 (destruct i as [|i]; [etransitivity; [etransitivity; [|apply (Hd _ Hi)]|]; reflexivity|]).
  all: do 4 (destruct i as [|i]; [ent|]).
  all: do 6 (destruct i as [|i]; [etransitivity; [etransitivity; [|apply (Hd _ Hi)]|]; reflexivity|]); lia.
Qed.
Lemma get3_add (x y : rct 2) : @get ROps 2 (ct_add 2 x y) (VAR0 + VAR1) = snd (snd x) + snd (snd y).
Proof. reflexivity. Qed.
Lemma acc3 (a b c : outcome (rct 2)) :
  (x <- a ;; y <- omap (ct_add 2 x) b ;; z <- omap (ct_add 2 y) c ;; Ok (@get ROps 2 z (VAR0 + VAR1))) =
  (x <- a ;; y <- b ;; z <- c ;; Ok (snd (snd x) + snd (snd y) + snd (snd z))).
Proof. destruct a; [|reflexivity..]. destruct b; [|reflexivity..]. destruct c; reflexivity. Qed.
Lemma restricted_corr : n = 10%nat -> pot_restricted junk0 h input = corr h input 0.
Proof.
  intro Hn. unfold pot_restricted, corr. rewrite <- acc3.
  change (1 + 0)%nat with 1%nat. change (2 + 0)%nat with 2%nat. change (3 + 0)%nat with 3%nat.
  rewrite (ext2 _ _ _ (fun i Hi => r_x i ltac:(lia))). destruct (energy h 2 (gin input 0 1) (czero 2)) as [x| | |]; [|reflexivity..]. cbn [obind].
  rewrite (ext2 _ _ _ (fun i Hi => r_y _ _ r_x i ltac:(lia))), energy_acc.
  destruct (omap (ct_add 2 x) (energy h 2 (gin input 1 2) (czero 2))) as [y| | |]; [|reflexivity..]. cbn [obind].
  rewrite (ext2 _ _ _ (fun i Hi => r_z _ _ (r_y _ _ r_x) i ltac:(lia))), energy_acc. reflexivity.
Qed.
Lemma unrestricted_corr d j : n = 20%nat -> hi0 d -> (j < 2)%nat ->
  orl (fun r v => hi0 (fst r) /\ snd r = v) (pot_unrestricted h input d j) (corr h input (10 * j)).
Proof.
  intros Hn Hd Hj. unfold pot_unrestricted, corr. 
  pose proof (u_x d j Hd Hj) as Ux. pose proof (u_y _ _ j Ux Hj) as Uy. pose proof (u_z _ _ j Uy Hj) as Uz.
  rewrite (ext2 _ _ _ (fun i Hi => Ux i ltac:(lia))). destruct (energy h 2 (gin input 0 (1 + 10 * j)) (czero 2)) as [x| | |]; [|exact Logic.I..]. cbn [obind].
  rewrite (ext2 _ _ _ (fun i Hi => Uy i ltac:(lia))), energy_acc.
  destruct (energy h 2 (gin input 1 (2 + 10 * j)) (czero 2)) as [y| | |]; [|exact Logic.I..]. cbn [obind omap].
  rewrite (ext2 _ _ _ (fun i Hi => Uz i ltac:(lia))), energy_acc.
  destruct (energy h 2 (gin input 2 (3 + 10 * j)) (czero 2)) as [z| | |]; [|exact Logic.I..]. cbn [obind omap orl fst snd].
  split; [|reflexivity]. intros i Hi. rewrite (Uz i ltac:(lia)). do 20 (destruct i as [|i]; [try reflexivity; lia|]). lia.
Qed.

(** ** All slots *)
Definition inpos (m : nat) : nat := if Nat.eqb m 2 then 1%nat else if Nat.eqb m 20 then 10%nat else 0%nat.
Definition single (m : nat) : bool := orb (Nat.eqb m 1) (Nat.eqb m 10).
Definition first (i : nat) : outcome (rct 1) := energy h 1 (s1 (K := ROps) input (Some i)) (czero 1).
Definition pot_val : outcome (list R) :=
  a <- first 0 ;;
  if single n then
    if xcfun_is_gga h then c <- corr h input 0 ;; Ok [fst a; snd a - c] else Ok [fst a; snd a]
  else
    b <- first (inpos n) ;;
    if xcfun_is_gga h then c <- corr h input 0 ;; c' <- corr h input 10 ;; Ok [fst a; snd a - c; snd b - c']
    else Ok [fst a; snd a; snd b].
Hypothesis G : xcfun_is_gga h = true ->
  (h_vars h = XC_N_2ND_TAYLOR /\ n = 10%nat) \/ (h_vars h = XC_A_B_2ND_TAYLOR /\ n = 20%nat).
Lemma ext1 d d' o : (forall i, (i < n)%nat -> d i = d' i) -> energy h 1 d o = energy h 1 d' o.
Proof. intro H. apply (energy_ext h vd); [apply Rd|exact E|exact H]. Qed.
Lemma first_c0 i : omap fst (first i) = energy h 0 input (czero 0).
Proof.
  unfold first. symmetry. apply (up_c0 h Rd vd E input 1 (s1 (K := ROps) input (Some i))); [lia|reflexivity].
Qed.
Lemma rs1 d i : agr n d (s1 (K := ROps) input (Some i)) -> agr n (aupd d i (@ct_const ROps 1 (input i))) (s1 (K := ROps) input None).
Proof.
  intros A m Hm. unfold aupd. destruct (Nat.eqb_spec m i) as [->|Ne]; [reflexivity|]. rewrite A by exact Hm. unfold s1, dl.
  destruct (Nat.eqb_spec i m); [congruence|reflexivity].
Qed.
Lemma potential_slots buf :
  orl (fun ws l => forall p v, nth_error l p = Some v -> rd buf ws p = v) (potential junk0 h n buf input) pot_val.
Proof.
  pose proof (vlen_pos _ _ E) as Lp. fold n in Lp.
  assert (L0 : agr n (load 1 (junk0 1) n input) (s1 (K := ROps) input None)) by apply load1.
  unfold potential, pot_val. fold (single n).
  destruct (single n) eqn:Sg.
  - change (Nat.eqb 1 1) with true. cbn [seq ofold Nat.mul].
    rewrite (ext1 _ (s1 (K := ROps) input (Some 0%nat))) by (apply up1; [lia|exact L0]).
    fold (first 0). destruct (first 0) as [a| | |]; [|exact Logic.I..]. cbn [obind].
    unfold xcfun_is_gga in *. destruct (negb _).
    + destruct (G eq_refl) as [[Ev En]|[Ev En]]; [|exfalso; rewrite En in Sg; discriminate]. rewrite Ev.
      change (orb (Z.eqb XC_N_2ND_TAYLOR XC_A_2ND_TAYLOR) (Z.eqb XC_N_2ND_TAYLOR XC_N_2ND_TAYLOR)) with true. cbn iota.
      rewrite (restricted_corr En). destruct (corr h input 0) as [c| | |]; [|exact Logic.I..]. cbn [obind orl].
      intros p v. destruct p as [|[|[|p]]]; cbn; try discriminate; intro H; injection H as <-; reflexivity.
    + cbn [orl]. intros p v. destruct p as [|[|[|p]]]; cbn; try discriminate; intro H; injection H as <-; reflexivity.
  - change (Nat.eqb 2 1) with false. cbn iota. fold (inpos n). cbn [seq ofold Nat.mul].
    assert (Hip : (inpos n < n)%nat).
    { unfold inpos. destruct (Nat.eqb_spec n 2); [lia|]. destruct (Nat.eqb_spec n 20); lia. }
    rewrite (ext1 _ (s1 (K := ROps) input (Some 0%nat))) by (apply up1; [lia|exact L0]).
    fold (first 0). pose proof (first_c0 0) as A. pose proof (first_c0 (inpos n)) as B. 
    destruct (first 0) as [a| | |]; [|exact Logic.I..]. cbn [obind]. rewrite Nat.add_0_r.
    rewrite (ext1 _ (s1 (K := ROps) input (Some (inpos n)))).
    2: { apply up1; [exact Hip|]. apply rs1. apply up1; [lia|exact L0]. }
    fold (first (inpos n)). destruct (first (inpos n)) as [b| | |]; [|exact Logic.I..]. cbn [obind].
    cbn [omap] in A, B. assert (Ec : fst a = fst b) by congruence.
    unfold xcfun_is_gga in *. destruct (negb _).
    + destruct (G eq_refl) as [[Ev En]|[Ev En]]; [exfalso; rewrite En in Sg; discriminate|]. rewrite Ev.
      change (orb (Z.eqb XC_A_B_2ND_TAYLOR XC_A_2ND_TAYLOR) (Z.eqb XC_A_B_2ND_TAYLOR XC_N_2ND_TAYLOR)) with false. cbn iota.
      cbn [seq ofold].
      pose proof (unrestricted_corr (junk0 2) 0 En ltac:(intros i _; reflexivity) ltac:(lia)) as U.
      destruct (pot_unrestricted h input (junk0 2) 0) as [[d x]| | |]; change (10 * 0)%nat with 0%nat in U; destruct (corr h input 0) as [c| | |]; try contradiction U; [|exact Logic.I..].
      cbn [orl fst snd] in U. destruct U as [Hd ->]. cbn [obind fst snd].
      pose proof (unrestricted_corr d 1 En Hd ltac:(lia)) as U.
      destruct (pot_unrestricted h input d 1) as [[d' x]| | |]; change (10 * 1)%nat with 10%nat in U; destruct (corr h input 10) as [c'| | |]; try contradiction U; [|exact Logic.I..].
      cbn [orl fst snd] in U. destruct U as [Hd' ->]. cbn [obind fst snd orl].
      intros p v. destruct p as [|[|[|[|p]]]]; cbn; try discriminate; intro H; injection H as <-; try reflexivity. now symmetry.
    + cbn [orl]. intros p v. destruct p as [|[|[|[|p]]]]; cbn; try discriminate; intro H; injection H as <-; try reflexivity. now symmetry.
Qed.
End POT.

(** ** The API level *)
Lemma pot_vars (h h' : handle ROps) v o vd : reachable h -> xcfun_eval_setup h v XC_POTENTIAL o = Ok (h', 0%Z) ->
  good_setup h h' v XC_POTENTIAL o vd -> xcfun_is_gga h' = true ->
  (h_vars h' = XC_N_2ND_TAYLOR /\ Z.to_nat (v_len vd) = 10%nat) \/ (h_vars h' = XC_A_B_2ND_TAYLOR /\ Z.to_nat (v_len vd) = 20%nat).
Proof.
  intros Hr S G Hg. destruct (setup_gives_valid h v _ o h' S) as (Sv & Evv & Em & _).
  pose proof (reach_setup h h' v _ o _ Hr S) as Hr'.
  apply (pot_gga h' vd (reachable_wf h' Hr') Sv); [rewrite Evv; apply (gs_entry _ _ _ _ _ _ G)| |exact Em|exact Hg].
  rewrite Evv. apply (supported_iff v vd (gs_entry _ _ _ _ _ _ G)). rewrite <- Evv. apply (gs_ready _ _ _ _ _ _ G).
Qed.
Lemma eval_potential junk (h h' : handle ROps) v o vd buf input : reachable h -> xcfun_eval_setup h v XC_POTENTIAL o = Ok (h', 0%Z) ->
  good_setup h h' v XC_POTENTIAL o vd ->
  orl (fun ws l => forall p x, nth_error l p = Some x -> rd buf ws p = x) (xcfun_eval junk h' buf input) (pot_val h' vd input).
Proof.
  intros Hr S G. destruct (setup_gives_valid h v _ o h' S) as (Sv & Evv & Em & Eo & _).
  pose proof (reach_setup h h' v _ o _ Hr S) as Hr'.
  rewrite (C15_evaluation_pure ROps junk junk0 h' h' buf buf input Hr' Hr' Sv); try reflexivity.
  unfold xcfun_eval. rewrite Em, Evv, Eo, (gs_entry _ _ _ _ _ _ G). pose proof (gs_range _ _ _ _ _ _ G) as Gr.
  replace (Z.eqb v XC_VARS_UNSET) with false by (symmetry; apply Z.eqb_neq; unfold XC_VARS_UNSET; lia).
  rewrite andb_false_r. cbn [Z.eqb XC_PARTIAL_DERIVATIVES XC_CONTRACTED XC_POTENTIAL XC_MODE_UNSET Pos.eqb obind].
  apply potential_slots; [apply (gs_ready _ _ _ _ _ _ G)|rewrite Evv; apply (gs_entry _ _ _ _ _ _ G)|].
  exact (pot_vars _ _ _ _ _ Hr S G).
Qed.
