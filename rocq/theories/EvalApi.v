(** * From the derivative loops to the API, over the reals *)
From Coq Require Import Reals QArith Qreals ZArith Arith Lia Lra List Bool String.
From Coquelicot Require Import Coquelicot.
From Verif Require Import Scalar RInst Tables Api SpecApi ApiProofs ApiProofs2 CTaylor CtAlg TMath Fps TFam TExp Ad Br Expr Densvars Functionals
  Eval Sem AdEval SpecEval Layout EvalSem EvalProps Taint EvalExt EvalR EvalReal Props_Eval.
Import ListNotations.
Local Open Scope outcome_scope.
Local Open Scope R_scope.

(** ** Closed slot numbers *)
Lemma binom1 k : binom k 1 = k.
Proof. induction k; [reflexivity|]. cbn [binom]. rewrite IHk, binom_0_r. lia. Qed.
Lemma binom_S2 m : binom (S m) 2 = (m + binom m 2)%nat.
Proof. change (binom (S m) 2) with (binom m 1 + binom m 2)%nat. now rewrite binom1. Qed.
Lemma binom_S3 m : binom (S m) 3 = (binom m 2 + binom m 3)%nat.
Proof. reflexivity. Qed.
Lemma row2_binom n lo : forall i, (lo + i <= n)%nat -> (row2 n lo i + binom (n - lo - i + 1) 2 = binom (n - lo + 1) 2)%nat.
Proof.
  induction i; intro H; [rewrite Nat.sub_0_r; reflexivity|]. rewrite row2_S.
  specialize (IHi ltac:(lia)). rewrite <- IHi. replace (n - lo - i + 1)%nat with (S (n - lo - S i + 1)) by lia.
  rewrite binom_S2. lia.
Qed.
Lemma row3_binom n : forall i, (i <= n)%nat -> (row3 n i + binom (n - i + 2) 3 = binom (n + 2) 3)%nat.
Proof.
  induction i; intro H; [rewrite Nat.sub_0_r; reflexivity|].
  specialize (IHi ltac:(lia)). rewrite <- IHi. unfold row3. rewrite seq_S, flat_map_app, app_length. cbn [flat_map Nat.add].
  rewrite app_nil_r, map_length. change (Datatypes.length (mono n i 2)) with (row2 n i (n - i)).
  pose proof (row2_binom n i (n - i) ltac:(lia)) as R. replace (n - i - (n - i) + 1)%nat with 1%nat in R by lia.
  cbn [binom] in R. replace (n - i + 2)%nat with (S (n - i + 1)) by lia. rewrite binom_S3.
  replace (n - S i + 2)%nat with (n - i + 1)%nat by lia. lia.
Qed.
Definition slot2 (n i j : nat) : nat := (1 + n + (binom (n + 1) 2 - binom (n - i + 1) 2) + (j - i))%nat.
Definition slot3 (n i j k : nat) : nat :=
  (binom (n + 2) 2 + (binom (n + 2) 3 - binom (n - i + 2) 3) + (binom (n - i + 1) 2 - binom (n - j + 1) 2) + (k - j))%nat.
Lemma nth_slot2 n ord i j : (2 <= ord)%nat -> (i <= j < n)%nat -> nth_error (graded n ord) (slot2 n i j) = Some [i; j].
Proof.
  intros Ho H. rewrite <- (nth_2 n ltac:(lia) ord i j Ho H). f_equal. unfold slot2, off2.
  pose proof (row2_binom n 0 i ltac:(lia)) as R. rewrite !Nat.sub_0_r in R. lia.
Qed.
Lemma nth_slot3 n ord i j k : (3 <= ord)%nat -> (i <= j)%nat -> (j <= k < n)%nat ->
  nth_error (graded n ord) (slot3 n i j k) = Some [i; j; k].
Proof.
  intros Ho Hij Hk. rewrite <- (nth_3 n ltac:(lia) ord i j k Ho Hij Hk). f_equal. unfold slot3, off3, off2.
  pose proof (row3_binom n i ltac:(lia)) as R3. pose proof (row2_binom n i (j - i) ltac:(lia)) as R2.
  replace (n - i - (j - i) + 1)%nat with (n - j + 1)%nat in R2 by lia.
  pose proof (row2_binom n 0 n ltac:(lia)) as R. rewrite !Nat.sub_0_r in R.
  replace (n - n + 1)%nat with 1%nat in R by lia. cbn [binom] in R.
  replace (n + 2)%nat with (S (n + 1)) in * by lia. rewrite binom_S2 in *. pose proof (len2 n ltac:(lia)) as L2. change (Datatypes.length (mono n 0 2)) with (row2 n 0 (n - 0)) in L2. rewrite Nat.sub_0_r in L2. lia.
Qed.
Lemma graded_prefix n o o' p l : (o <= o')%nat -> nth_error (graded n o) p = Some l -> nth_error (graded n o') p = Some l.
Proof.
  intros H E. unfold graded in *. replace (S o') with (S o + (o' - o))%nat by lia. rewrite seq_app, flat_map_app.
  rewrite nth_error_app1; [exact E|]. apply nth_error_Some. congruence.
Qed.

(** ** Handles that differ only in mode and order *)
Definition twin (h h' : handle ROps) : Prop :=
  h_vars h' = h_vars h /\ h_active h' = h_active h /\ h_settings h' = h_settings h.
Lemma twin_energy h h' n d out : twin h h' -> energy h' n d out = energy h n d out.
Proof. intros (A & B & C). unfold energy, energy_sum. now rewrite A, B, C. Qed.
Lemma twin_sym h h' : twin h h' -> twin h' h.
Proof. intros (A & B & C). repeat split; symmetry; assumption. Qed.
Lemma twin_coef h h' input l v : twin h h' -> coef h input l v -> coef h' input l v.
Proof.
  intro W. destruct l as [|i [|j [|k [|? ?]]]]; cbn [coef]; rewrite ?(twin_energy h h' _ _ _ W); auto.
  all: intros (o & A & B); exists o; now rewrite (twin_energy h h' _ _ _ W).
Qed.
Lemma setup_twin (h h1 h2 : handle ROps) v m1 o1 m2 o2 : xcfun_eval_setup h v m1 o1 = Ok (h1, 0%Z) ->
  xcfun_eval_setup h v m2 o2 = Ok (h2, 0%Z) -> twin h1 h2.
Proof.
  intros S1 S2. destruct (setup_gives_valid h v m1 o1 h1 S1) as (_ & A1 & _ & _ & A2 & A3).
  destruct (setup_gives_valid h v m2 o2 h2 S2) as (_ & B1 & _ & _ & B2 & B3). repeat split; congruence.
Qed.

(** ** The two modes *)
Record good_setup (h h' : handle ROps) (v m o : Z) (vd : vars_data) : Prop := {
  gs_ready : ready h'; gs_vars : h_vars h' = v; gs_mode : h_mode h' = m; gs_order : h_order h' = o;
  gs_entry : vars_entry v = Ok vd; gs_pos : (0 <= o)%Z; gs_max : (o <= 6)%Z; gs_part : m = XC_PARTIAL_DERIVATIVES -> (o <= 3)%Z;
  gs_mode_ok : In m [XC_PARTIAL_DERIVATIVES; XC_POTENTIAL; XC_CONTRACTED];
  gs_range : (0 <= v)%Z }.
Section API.
Variable junk : forall m : nat, nat -> rct m.

Lemma setup_max (h h' : handle ROps) v m o : xcfun_eval_setup h v m o = Ok (h', 0%Z) -> (o <= 6)%Z.
Proof.
  unfold xcfun_eval_setup. destruct (vars_entry v) as [vd| | |]; cbn [obind]; try discriminate.
  destruct (negb _); [discriminate|]. destruct (orb (orb _ _) _) eqn:E2; [discriminate|]. intros _.
  unfold XCFUN_MAX_ORDER in E2. lia.
Qed.
Lemma eval_good h h' v m o buf input ws vd : reachable h -> vars_entry v = Ok vd ->
  xcfun_eval_setup h v m o = Ok (h', 0%Z) -> xcfun_eval junk h' buf input = Ok ws -> good_setup h h' v m o vd.
Proof.
  intros Hr E S Ev. destruct (setup_gives_valid h v m o h' S) as (Sv & Evv & Em & Eo & _ & _).
  pose proof (reach_setup h h' v m o _ Hr S) as Hr'.
  destruct (C07_eval_dies_exactly ROps junk h h' v m o buf input Hr S) as [D _].
  destruct (setup_valid_code h' (reachable_wf h' Hr') Sv) as (vd0 & E0 & _ & (O1 & O2) & _).
  rewrite Eo in O1, O2. rewrite Em in O2.
  assert (ND : ~ (In v unsupported_vars \/ ~ In m [XC_PARTIAL_DERIVATIVES; XC_POTENTIAL; XC_CONTRACTED] \/
        (m = XC_PARTIAL_DERIVATIVES /\ o = 4%Z))).
  { intro X. apply D in X. congruence. }
  split; try assumption.
  - apply valid_ready; [assumption|assumption|]. rewrite Evv. tauto.
  - lia.
  - eapply setup_max; exact S.
  - intro M. specialize (O2 M). destruct (Z.eq_dec o 4); [tauto|lia].
  - destruct (in_dec Z.eq_dec m [XC_PARTIAL_DERIVATIVES; XC_POTENTIAL; XC_CONTRACTED]); [assumption|tauto].
  - apply (vars_entry_range _ _ E).
Qed.
Lemma good_other h h1 h2 v m1 m2 o1 o2 vd : good_setup h h1 v m1 o1 vd -> reachable h ->
  xcfun_eval_setup h v m2 o2 = Ok (h2, 0%Z) -> In m2 [XC_PARTIAL_DERIVATIVES; XC_POTENTIAL; XC_CONTRACTED] ->
  (m2 = XC_PARTIAL_DERIVATIVES -> (o2 <= 3)%Z) -> good_setup h h2 v m2 o2 vd.
Proof.
  intros G Hr S M O. destruct (setup_gives_valid h v m2 o2 h2 S) as (Sv & Evv & Em & Eo & _ & _).
  pose proof (reach_setup h h2 v m2 o2 _ Hr S) as Hr'.
  destruct (setup_valid_code h2 (reachable_wf h2 Hr') Sv) as (vd0 & E0 & _ & (O1 & O2) & _).
  rewrite Eo in O1, O2. rewrite Em in O2. destruct G as [[Ga Gs] Gv Gm Go Ge Gp Gmx Gpt Gmo Gr].
  split; try assumption; try lia.
  - apply valid_ready; [assumption|assumption|]. rewrite Evv. pose proof (supported_iff _ _ Ge) as [S1 _]. apply S1. now rewrite <- Gv.
Qed.
Lemma eval_partial h h' v o buf input vd : good_setup h h' v XC_PARTIAL_DERIVATIVES o vd ->
  xcfun_eval junk h' buf input = partialn h' vd input junk (Z.to_nat o).
Proof.
  intro G. pose proof (gs_pos _ _ _ _ _ _ G) as Gp. pose proof (gs_part _ _ _ _ _ _ G eq_refl) as Gt. pose proof (gs_range _ _ _ _ _ _ G) as Gr.
  unfold xcfun_eval. rewrite (gs_mode _ _ _ _ _ _ G), (gs_vars _ _ _ _ _ _ G), (gs_order _ _ _ _ _ _ G), (gs_entry _ _ _ _ _ _ G).
  replace (Z.eqb v XC_VARS_UNSET) with false by (symmetry; apply Z.eqb_neq; unfold XC_VARS_UNSET; lia).
  replace (Z.eqb o (-1)) with false by (symmetry; apply Z.eqb_neq; lia). cbn [andb Z.eqb XC_PARTIAL_DERIVATIVES XC_MODE_UNSET Pos.eqb obind].
  assert (C : o = 0%Z \/ o = 1%Z \/ o = 2%Z \/ o = 3%Z) by lia.
  destruct C as [C|[C|[C|C]]]; rewrite C; reflexivity.
Qed.
Lemma eval_contracted h h' v o buf input vd : good_setup h h' v XC_CONTRACTED o vd ->
  xcfun_eval junk h' buf input = contracted junk h' (Z.to_nat o) (Z.to_nat (v_len vd)) input.
Proof.
  intro G. pose proof (gs_pos _ _ _ _ _ _ G) as Gp. pose proof (gs_max _ _ _ _ _ _ G) as Gt. pose proof (gs_range _ _ _ _ _ _ G) as Gr.
  unfold xcfun_eval. rewrite (gs_mode _ _ _ _ _ _ G), (gs_vars _ _ _ _ _ _ G), (gs_order _ _ _ _ _ _ G), (gs_entry _ _ _ _ _ _ G).
  replace (Z.eqb v XC_VARS_UNSET) with false by (symmetry; apply Z.eqb_neq; unfold XC_VARS_UNSET; lia).
  replace (Z.eqb o (-1)) with false by (symmetry; apply Z.eqb_neq; lia). cbn [andb Z.eqb XC_PARTIAL_DERIVATIVES XC_CONTRACTED XC_MODE_UNSET Pos.eqb obind].
  replace (Z.leb 0 o) with true by (symmetry; apply Z.leb_le; lia).
  replace (Z.leb o XCFUN_MAX_ORDER) with true by (symmetry; apply Z.leb_le; unfold XCFUN_MAX_ORDER; lia).
  reflexivity.
Qed.
(** What partial derivative mode returns. *)
Lemma partial_slots h h' v o buf input ws vd : good_setup h h' v XC_PARTIAL_DERIVATIVES o vd ->
  xcfun_eval junk h' buf input = Ok ws -> forall p l, nth_error (graded (Z.to_nat (v_len vd)) (Z.to_nat o)) p = Some l ->
  coef h' input l (rd buf ws p).
Proof.
  intros G Ev p l N. rewrite (eval_partial _ _ _ _ _ _ _ G) in Ev.
  pose proof (partial_values h' (gs_ready _ _ _ _ _ _ G) vd) as P. rewrite (gs_vars _ _ _ _ _ _ G) in P.
  specialize (P (gs_entry _ _ _ _ _ _ G) input junk (Z.to_nat o)). pose proof (gs_part _ _ _ _ _ _ G eq_refl) as Gt.
  specialize (P ltac:(lia)). rewrite Ev in P. cbn [oP] in P. eapply filled_rd; [exact P|exact N].
Qed.
Lemma partial_total h h' v o buf input vd e : good_setup h h' v XC_PARTIAL_DERIVATIVES o vd ->
  energy h' 0 input (czero 0) = Ok e -> exists ws, xcfun_eval junk h' buf input = Ok ws.
Proof.
  intros G Ee. rewrite (eval_partial _ _ _ _ _ _ _ G).
  pose proof (partial_values h' (gs_ready _ _ _ _ _ _ G) vd) as P. rewrite (gs_vars _ _ _ _ _ _ G) in P.
  specialize (P (gs_entry _ _ _ _ _ _ G) input junk (Z.to_nat o)). pose proof (gs_part _ _ _ _ _ _ G eq_refl) as Gt.
  specialize (P ltac:(lia)). destruct (partialn _ _ _ _ _) as [ws| | |]; cbn [oP] in P; [eauto| | |]; try contradiction.
  unfold dom0 in P. congruence.
Qed.
Lemma graded_0 n o : nth_error (graded n o) 0 = Some [].
Proof. reflexivity. Qed.
(** The order-0 energy as the library computes it. *)
Lemma order0 h h0 v buf x vd e : good_setup h h0 v XC_PARTIAL_DERIVATIVES 0 vd ->
  (energy h0 0 x (czero 0) = Ok (e : rct 0) <-> exists ws, xcfun_eval junk h0 buf x = Ok ws /\ rd buf ws 0 = e).
Proof.
  intro G. split.
  - intro Ee. destruct (partial_total _ _ _ _ buf _ _ _ G Ee) as [ws Ev]. exists ws. split; [exact Ev|].
    pose proof (partial_slots _ _ _ _ _ _ _ _ G Ev 0%nat [] (graded_0 _ _)) as C. cbn [coef] in C. congruence.
  - intros (ws & Ev & <-). exact (partial_slots _ _ _ _ _ _ _ _ G Ev 0%nat [] (graded_0 _ _)).
Qed.
End API.

(** ** Contracted mode *)
(** The polynomial sum over bit sets S of c_S * prod_{b in S} z_b. *)
Fixpoint ppoly (n : nat) (c : nat -> R) : pt n -> R :=
  match n return pt n -> R with
  | O => fun _ => c O
  | S m => fun z => ppoly m c (fst z) + snd z * ppoly m (fun k => c (2 ^ m + k)%nat) (fst z)
  end.
Lemma ppoly_peval n : forall c z, peval n (ct_load (K := ROps) n c) z = ppoly n c z.
Proof. induction n; intros c z; cbn [peval ct_load ppoly fst snd]; [reflexivity|]. now rewrite !IHn. Qed.
Lemma ct_load_c0 n : forall c, c0 n (ct_load (K := ROps) n c) = c 0%nat.
Proof. induction n; intro c; cbn [c0 ct_load fst]; [reflexivity|apply IHn]. Qed.
Lemma ppoly_origin n : forall c, ppoly n c (origin n) = c 0%nat.
Proof. induction n; intro c; cbn [ppoly origin fst snd]; [reflexivity|]. rewrite IHn. ring. Qed.

Section CON.
Variable junk : forall m : nat, nat -> rct m.
Lemma lastw_map (f : nat -> R) k p : (p < k)%nat ->
  lastw (K := ROps) (map (fun i => (i, f i)) (seq 0 k)) p = Some (f p).
Proof.
  intro H. assert (A : forall len a w, lastw (K := ROps) (w ++ map (fun i => (i, f i)) (seq a len)) p =
    if andb (Nat.leb a p) (Nat.ltb p (a + len)) then Some (f p) else lastw (K := ROps) w p).
  { induction len; intros a w; cbn [seq map].
    - rewrite app_nil_r. replace (andb _ _) with false; [reflexivity|]. destruct (Nat.leb_spec a p), (Nat.ltb_spec p (a + 0)); try reflexivity; lia.
    - change (w ++ (a, f a) :: map (fun i => (i, f i)) (seq (S a) len)) with (w ++ [(a, f a)] ++ map (fun i => (i, f i)) (seq (S a) len)).
      rewrite app_assoc, IHlen. destruct (Nat.leb_spec (S a) p), (Nat.ltb_spec p (S a + len)), (Nat.leb_spec a p), (Nat.ltb_spec p (a + S len)); cbn [andb]; try reflexivity; try lia.
      all: unfold lastw; rewrite fold_left_app; cbn [fold_left fst snd].
      all: destruct (Nat.eqb_spec a p); try lia; try reflexivity; subst; reflexivity. }
  specialize (A k 0%nat []). cbn [app] in A. rewrite A. destruct (Nat.leb_spec 0 p), (Nat.ltb_spec p (0 + k)); try lia. reflexivity.
Qed.
Lemma contracted_rd h n len input buf ws : contracted junk h n len input = Ok ws ->
  exists out, energy h n (fun i => if Nat.ltb i len then ct_load (K := ROps) n (fun j => input (i * 2 ^ n + j)%nat) else junk n i) (czero n) = Ok out /\
    forall s, (s < 2 ^ n)%nat -> rd (K := ROps) buf ws s = get n out s.
Proof.
  unfold contracted. destruct (energy _ _ _ _) as [out| | |] eqn:X; cbn [obind]; try discriminate. intro W. injection W as <-.
  exists out. split; [reflexivity|]. intros s Hs. rewrite rd_lastw. rewrite lastw_map by exact Hs. reflexivity.
Qed.
End CON.
