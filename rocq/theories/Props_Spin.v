(** * Property theorems: spin-exchange symmetry (C20) *)
From Coq Require Import Reals QArith Qreals ZArith Arith Lia Lra List Bool String Permutation.
From Coquelicot Require Import Coquelicot.
From Verif Require Import Scalar RInst Tables Api SpecApi ApiProofs ApiProofs2 CTaylor CtAlg CtConv TMath Br Expr Densvars Functionals
  Eval SpecEval Layout EvalSem EvalProps Taint EvalExt Props_Eval Sem RSem EvalR EnergyR EvalReal EvalApi Phys EvalRel VarsRel Mk Props_Vars Props_Deriv Props_Dens Props_Rot Sym.
Import ListNotations.
Local Open Scope outcome_scope.
Local Open Scope R_scope.

(** ** Specification *)
(** The same density with the two spins exchanged. *)
Definition exchange (D : dens) : dens := {| al := be D; be := al D |}.
(** The sets that distinguish the spins. *)
Definition spin_sets : list Z :=
  [XC_A_B; XC_A_B_GAA_GAB_GBB; XC_A_B_GAA_GAB_GBB_TAUA_TAUB; XC_A_B_GAA_GAB_GBB_LAPA_LAPB_TAUA_TAUB;
   XC_A_B_GAA_GAB_GBB_LAPA_LAPB_TAUA_TAUB_JPAA_JPBB; XC_A_B_AX_AY_AZ_BX_BY_BZ; XC_A_B_AX_AY_AZ_BX_BY_BZ_TAUA_TAUB; XC_A_B_2ND_TAYLOR;
   XC_N_S; XC_N_S_GNN_GNS_GSS; XC_N_S_GNN_GNS_GSS_TAUN_TAUS; XC_N_S_NX_NY_NZ_SX_SY_SZ; XC_N_S_NX_NY_NZ_SX_SY_SZ_TAUN_TAUS].
(** What exchanging the spins does to the input numbers: input [i] of the exchanged density
    is, up to a sign, input [j] of the original one ([exch], Sym.v; justified against the
    meaning of the variable sets by [C20_exchange_is_exchange] below).  An input consists
    of [s] numbers (1, or 2^order in contracted mode). *)
Definition exchanged (v : Z) (s : nat) (x x' : nat -> R) : Prop :=
  forall l i m j k, exch v = Some l -> nth_error l i = Some (m, j) -> (k < s)%nat ->
    x' (i * s + k)%nat = (if m then -1 else 1) * x (j * s + k)%nat.

(** [exch] does what it says, for every density: the numbers that describe the exchanged
    density are the exchanged numbers. *)
Theorem C20_exchange_is_exchange :
  forall v D x x', In v spin_sets ->
    (forall i, (i < List.length (encode v D))%nat -> x i = nth i (encode v D) 0) ->
    (forall i, (i < List.length (encode v (exchange D)))%nat -> x' i = nth i (encode v (exchange D)) 0) ->
    exchanged v 1 x x'.
Proof.
  intros v D x x' Hv E E' l i m j k X N Hk. replace k with 0%nat by lia. rewrite !Nat.mul_1_r, !Nat.add_0_r.
  destruct D as [[ra [ax ay az] [haxx haxy haxz hayy hayz hazz] ka ja] [rb [bx by_ bz] [hbxx hbxy hbxz hbyy hbyz hbzz] kb jb]].
  cbn [In spin_sets] in Hv.
  repeat (destruct Hv as [<-|Hv]; [cbn in X; injection X as <-;
    repeat (destruct i as [|i]; [cbn [nth_error] in N; injection N as <- <-; rewrite E, E' by (cbn; lia); cbn; unfold tot, dif, gN, gS, vadd, vsub, dot, lap; cbn; lra|]);
    cbn [nth_error] in N; destruct i; discriminate N|]).
  contradiction.
Qed.
Print Assumptions C20_exchange_is_exchange.

(** ** Proof *)
Lemma energy_exch (h : handle ROps) n l d d' out : (forall i, In i (h_active h) -> (i < 78)%nat) -> exch (h_vars h) = Some l -> cexch n l d d' ->
  energy h n d out = energy h n d' out.
Proof.
  intros A X C. unfold energy, densvars. destruct (dv_prog (h_vars h)) as [p|] eqn:P; [|reflexivity].
  pose proof (run_exch (h_settings h) n _ l p d d' X P C) as R.
  destruct (run _ n d _ p) as [fl|], (run _ n d' _ p) as [fl'|]; try contradiction; [|reflexivity]. cbn [of_option obind].
  unfold energy_sum. revert out A. induction (h_active h) as [|i l0 IH]; intros out A; [reflexivity|]. cbn [ofold].
  destruct (nofun_len i (A i (or_introl eq_refl))) as (nm & e & Ef). unfold fp at 1 3. rewrite Ef. cbn [obind snd].
  pose proof (proj1 (forallb_forall _ _) all_symm (nm, e) (nth_error_In _ _ Ef)) as Sy. cbn [snd] in Sy.
  rewrite (symm_ok _ n d d' fl fl' e Sy R). destruct (of_option _) as [y| | |]; cbn [obind]; try reflexivity.
  apply IH. intros j Hj. apply A. now right.
Qed.
Lemma exch_len v l vd i m j : exch v = Some l -> vars_entry v = Ok vd -> nth_error l i = Some (m, j) -> (i < Z.to_nat (v_len vd))%nat /\ (j < Z.to_nat (v_len vd))%nat.
Proof.
  intros X E N. assert (C : forallb (fun v => match exch v, vars_entry v with
    | Some l, Ok vd => Nat.leb (List.length l) (Z.to_nat (v_len vd)) && forallb (fun q => Nat.ltb (snd q) (Z.to_nat (v_len vd))) l | _, _ => true end) zvars = true) by (vm_compute; reflexivity).
  pose proof (proj1 (forallb_forall _ _) C v (zvars_in v (vars_entry_range _ _ E))) as H. cbv beta in H. rewrite X, E in H.
  apply andb_true_iff in H. destruct H as [H1 H2]. apply Nat.leb_le in H1. rewrite forallb_forall in H2. split.
  - apply Nat.lt_le_trans with (List.length l); [|exact H1]. apply nth_error_Some. congruence.
  - apply Nat.ltb_lt. exact (H2 _ (nth_error_In _ _ N)).
Qed.
Lemma load_neg n : forall f : nat -> R, @ct_load ROps n (fun j => - f j) = ct_neg n (@ct_load ROps n f).
Proof. induction n; intro f; [reflexivity|]. cbn [ct_load]. rewrite !IHn. reflexivity. Qed.
Lemma lift_exch (junk : forall n : nat, nat -> rct n) v vd l n x x' : exch v = Some l -> vars_entry v = Ok vd -> exchanged v (2 ^ n) x x' ->
  cexch n l (cload junk (Z.to_nat (v_len vd)) n x) (cload junk (Z.to_nat (v_len vd)) n x').
Proof.
  intros X E H i m j N. destruct (exch_len v l vd i m j X E N) as [Hi Hj]. unfold cload. apply Nat.ltb_lt in Hi, Hj. rewrite Hi, Hj.
  destruct m; cbn [sg].
  - rewrite <- load_neg. apply ct_load_ext. intros k Hk. rewrite (H l i true j k X N Hk). cbn [T ROps]. lra.
  - apply ct_load_ext. intros k Hk. rewrite (H l i false j k X N Hk). cbn [T ROps]. lra.
Qed.
Lemma spin_exch v : In v spin_sets -> exists l, exch v = Some l.
Proof. intro H. cbn [In spin_sets] in H. repeat (destruct H as [<-|H]; [eexists; reflexivity|]). contradiction. Qed.

(** ** C20 *)
(** Exchanging the spins leaves the energy unchanged (also whether it is defined): every
    weighted sum of functionals with every parameter setting, every input, physical or not. *)
Theorem C20_energy_symmetric :
  forall junk (h h' : handle ROps) v buf x x', reachable h -> In v spin_sets ->
    xcfun_eval_setup h v XC_PARTIAL_DERIVATIVES 0 = Ok (h', 0%Z) ->
    exchanged v 1 x x' -> xcfun_eval junk h' buf x = xcfun_eval junk h' buf x'.
Proof.
  intros junk h h' v buf x x' Hr Hv S RX. destruct (spin_exch v Hv) as [l X].
  destruct (setup_gives_valid h v _ _ h' S) as (Sv & Evv & Em & Eo & Ea & _).
  destruct (setup_valid_vars h' Sv) as [vd E]. rewrite Evv in E.
  pose proof (reachable_wf h' (reach_setup h h' v _ _ _ Hr S)) as W.
  unfold xcfun_eval. rewrite Em, Evv, Eo, E. cbn [obind Z.eqb XC_PARTIAL_DERIVATIVES XC_MODE_UNSET Pos.eqb andb].
  destruct (Z.eqb v XC_VARS_UNSET); [reflexivity|]. unfold partial0.
  assert (L : forall y, load 0 (junk 0%nat) (Z.to_nat (v_len vd)) y = cload junk (Z.to_nat (v_len vd)) 0 y).
  { intro y. apply FunctionalExtensionality.functional_extensionality. intro i. unfold load, cload. cbn [Nat.pow ct_load ct_const]. now rewrite Nat.mul_1_r, Nat.add_0_r. }
  rewrite !L. rewrite (energy_exch h' 0 l (cload junk (Z.to_nat (v_len vd)) 0 x) (cload junk (Z.to_nat (v_len vd)) 0 x') (czero 0)); [reflexivity| | |exact (lift_exch junk v vd l 0 x x' X E RX)].
  - intros i Hi. now apply W.
  - now rewrite Evv.
Qed.
Print Assumptions C20_energy_symmetric.
(** The same with densities in place of numbers. *)
Theorem C20_density_symmetric :
  forall junk (h h' : handle ROps) v buf D x x', reachable h -> In v spin_sets ->
    xcfun_eval_setup h v XC_PARTIAL_DERIVATIVES 0 = Ok (h', 0%Z) ->
    (forall i, (i < List.length (encode v D))%nat -> x i = nth i (encode v D) 0) ->
    (forall i, (i < List.length (encode v (exchange D)))%nat -> x' i = nth i (encode v (exchange D)) 0) ->
    xcfun_eval junk h' buf x = xcfun_eval junk h' buf x'.
Proof.
  intros junk h h' v buf D x x' Hr Hv S E E'. apply (C20_energy_symmetric junk h h' v buf x x' Hr Hv S). exact (C20_exchange_is_exchange v D x x' Hv E E').
Qed.
Print Assumptions C20_density_symmetric.
(** And so are all directional derivatives of any order when the directions are exchanged along. *)
Theorem C20_derivatives_symmetric :
  forall junk (h h' : handle ROps) v o buf x x', reachable h -> In v spin_sets ->
    xcfun_eval_setup h v XC_CONTRACTED (Z.of_nat o) = Ok (h', 0%Z) ->
    exchanged v (2 ^ o) x x' -> xcfun_eval junk h' buf x = xcfun_eval junk h' buf x'.
Proof.
  intros junk h h' v o buf x x' Hr Hv S RX. destruct (spin_exch v Hv) as [l X].
  destruct (setup_gives_valid h v _ _ h' S) as (Sv & Evv & Em & Eo & Ea & _).
  destruct (setup_valid_vars h' Sv) as [vd E]. rewrite Evv in E.
  pose proof (reachable_wf h' (reach_setup h h' v _ _ _ Hr S)) as W.
  unfold xcfun_eval. rewrite Em, Evv, Eo, E. cbn [obind Z.eqb XC_CONTRACTED XC_PARTIAL_DERIVATIVES XC_MODE_UNSET Pos.eqb].
  destruct (Z.eqb v XC_VARS_UNSET); [reflexivity|]. destruct (andb (Z.eqb _ _) _); [reflexivity|]. destruct (andb _ _); [|reflexivity]. rewrite Nat2Z.id.
  unfold contracted.
  change (fun i : nat => if Nat.ltb i (Z.to_nat (v_len vd)) then ct_load (K := ROps) o (fun j => x (i * 2 ^ o + j)%nat) else junk o i) with (cload junk (Z.to_nat (v_len vd)) o x).
  change (fun i : nat => if Nat.ltb i (Z.to_nat (v_len vd)) then ct_load (K := ROps) o (fun j => x' (i * 2 ^ o + j)%nat) else junk o i) with (cload junk (Z.to_nat (v_len vd)) o x').
  rewrite (energy_exch h' o l (cload junk (Z.to_nat (v_len vd)) o x) (cload junk (Z.to_nat (v_len vd)) o x') (czero o)); [reflexivity| | |exact (lift_exch junk v vd l o x x' X E RX)].
  - intros i Hi. now apply W.
  - now rewrite Evv.
Qed.
Print Assumptions C20_derivatives_symmetric.


(** *** Partial derivatives *)
Section HE.
Variable m : nat.
Add Ring ctr20 : (ct_ring m).
Lemma he_mul (a b a' b' e : rct m) :
  pmul m e (ct_add m (pmul m a b') (pmul m b a')) = ct_add m (pmul m a (pmul m e b')) (pmul m (pmul m e b) a').
Proof. ring. Qed.
Lemma he_add (a b e : rct m) : pmul m e (ct_add m a b) = ct_add m (pmul m e a) (pmul m e b).
Proof. ring. Qed.
Lemma he_swap (a b c d a' b' c' d' : rct m) :
  ct_add m (ct_add m (pmul m a d') (pmul m b c')) (ct_add m (pmul m c b') (pmul m d a')) =
  ct_add m (ct_add m (pmul m a d') (pmul m c b')) (ct_add m (pmul m b c') (pmul m d a')).
Proof. ring. Qed.
End HE.
(** Multiplying the last infinitesimal by [e]. *)
Definition flip n m (g : rct n -> rct m) (e : R) (t : rct (S n)) : rct (S m) := (g (fst t), pmul m (rconst m e) (g (snd t))).
Lemma hom_flip n m g e : hom n m g -> hom (S n) (S m) (flip n m g e).
Proof.
  intros (A & B & C & D). unfold flip. split; [|split; [|split]].
  - intro k. rewrite !ct_const_S. cbn [fst snd]. unfold zero. rewrite !A. f_equal. rewrite <- const_mul. f_equal. ring.
  - intros x y. rewrite !ct_add_S. cbn [fst snd]. rewrite !B. f_equal. apply he_add.
  - intros x y. rewrite !pmul_S. cbn [fst snd]. rewrite !B, !C. f_equal. apply he_mul.
  - intro x. cbn [c0 fst]. apply D.
Qed.
(** Exchanging the last two infinitesimals. *)
Definition tw n (t : rct (S (S n))) : rct (S (S n)) := ((fst (fst t), fst (snd t)), (snd (fst t), snd (snd t))).
Lemma hom_tw n : hom (S (S n)) (S (S n)) (tw n).
Proof.
  split; [|split; [|split]]; try reflexivity. intros [[a b] [c d]] [[a' b'] [c' d']]. unfold tw. rewrite !pmul_S. cbn [fst snd]. rewrite !ct_add_S. cbn [fst snd].
  f_equal; f_equal. apply he_swap.
Qed.
Definition up n m (g : rct n -> rct m) (t : rct (S n)) : rct (S m) := (g (fst t), g (snd t)).
Lemma hom_up n m g : hom n m g -> hom (S n) (S m) (up n m g).
Proof.
  intros (A & B & C & D). unfold up. split; [|split; [|split]].
  - intro k. rewrite !ct_const_S. cbn [fst snd]. unfold zero. now rewrite !A.
  - intros x y. rewrite !ct_add_S. cbn [fst snd]. now rewrite !B.
  - intros x y. rewrite !pmul_S. cbn [fst snd]. now rewrite !B, !C.
  - intro x. cbn [c0 fst]. apply D.
Qed.
(** The order of the infinitesimals does not matter. *)
Lemma coef_perm h x l l' v : Permutation l l' -> coef h x l v -> coef h x l' v.
Proof.
  assert (S2 : forall i j v, coef h x [i; j] v -> coef h x [j; i] v).
  { intros i j w (out & E & ->). pose proof (energy_hom0 2 2 (tw 0) ltac:(lia) ltac:(lia) (hom_tw 0) h (s2 (K := ROps) x (Some i) (Some j))) as H. rewrite E in H.
    exists (tw 0 out). split; [exact H|reflexivity]. }
  assert (S3a : forall i j k v, coef h x [i; j; k] v -> coef h x [i; k; j] v).
  { intros i j k w (out & E & ->). pose proof (energy_hom0 3 3 (tw 1) ltac:(lia) ltac:(lia) (hom_tw 1) h (s3 (K := ROps) x (Some i) (Some j) (Some k))) as H. rewrite E in H.
    exists (tw 1 out). split; [exact H|reflexivity]. }
  assert (S3b : forall i j k v, coef h x [i; j; k] v -> coef h x [j; i; k] v).
  { intros i j k w (out & E & ->). pose proof (energy_hom0 3 3 (up 2 2 (tw 0)) ltac:(lia) ltac:(lia) (hom_up _ _ _ (hom_tw 0)) h (s3 (K := ROps) x (Some i) (Some j) (Some k))) as H. rewrite E in H.
    exists (up 2 2 (tw 0) out). split; [exact H|reflexivity]. }
  intros P C. assert (L : (List.length l <= 3)%nat) by (destruct l as [|? [|? [|? [|? ?]]]]; cbn [coef List.length] in *; try lia; contradiction).
  revert v C L. induction P as [|a l l' P IH|a b l|l l1 l2 P1 IH1 P2 IH2]; intros v C L.
  - exact C.
  - destruct l as [|b [|c [|d l]]].
    + apply Permutation_nil in P. now subst.
    + apply Permutation_length_1_inv in P. now subst.
    + apply Permutation_length_2_inv in P. destruct P as [->| ->]; [exact C|]. now apply S3a.
    + cbn in L. lia.
  - destruct l as [|c [|d l]]; [now apply S2|now apply S3b|cbn in L; lia].
  - apply IH2; [now apply IH1|]. now rewrite <- (Permutation_length P1).
Qed.
Definition esign (m : bool) : R := if m then -1 else 1.
Definition sign_at (l : list (bool * nat)) (i : nat) : R := match nth_error l i with Some (m, _) => esign m | None => 1 end.
Definition image_at (l : list (bool * nat)) (i : nat) : nat := match nth_error l i with Some (_, j) => j | None => i end.
Fixpoint signs (l : list (bool * nat)) (q : list nat) : R := match q with [] => 1 | i :: q' => sign_at l i * signs l q' end.
Lemma exch_inj v l i j m m' k : exch v = Some l -> nth_error l i = Some (m, k) -> nth_error l j = Some (m', k) -> i = j.
Proof.
  intros X A B.
  assert (N : NoDup (map snd l)).
  { unfold exch in X. repeat (match type of X with (if Z.eqb v ?z then _ else _) = _ => destruct (Z.eqb v z); [injection X as <-; cbn; repeat (constructor; [cbn; intuition discriminate|]); constructor|] end). discriminate. }
  rewrite NoDup_nth_error in N. apply N.
  - rewrite map_length. apply nth_error_Some. congruence.
  - rewrite !nth_error_map, A, B. reflexivity.
Qed.
Lemma dl_exch v l a i m j : exch v = Some l -> nth_error l i = Some (m, j) -> (a < List.length l)%nat ->
  sign_at l a * @dl ROps (Some a) i = esign m * @dl ROps (Some (image_at l a)) j.
Proof.
  intros X N Ha. destruct (nth_error l a) as [[ma ja]|] eqn:Na; [|apply nth_error_None in Na; lia].
  unfold sign_at, image_at. rewrite Na, !dlR. destruct (Nat.eqb_spec a i) as [->|D].
  - rewrite N in Na. injection Na as <- <-. now rewrite Nat.eqb_refl.
  - destruct (Nat.eqb_spec ja j) as [->|_]; [|lra]. exfalso. apply D. exact (exch_inj v l a i ma m j X Na N).
Qed.
Lemma sg0 m (x : R) : sg 0 m (x : rct 0) = esign m * x.
Proof. destruct m; cbn [sg esign ct_neg ct_map]; cbn; ring. Qed.
Lemma sgS n m (x y : rct n) : sg (S n) m ((x, y) : rct (S n)) = (sg n m x, sg n m y).
Proof. destruct m; reflexivity. Qed.
Lemma coef_exch (h : handle ROps) l x x' q v : (forall i, In i (h_active h) -> (i < 78)%nat) -> exch (h_vars h) = Some l -> exchanged (h_vars h) 1 x x' ->
  (forall a, In a q -> (a < List.length l)%nat) -> coef h x' q v -> coef h x (map (image_at l) q) (signs l q * v).
Proof.
  intros A X RX Q C.
  assert (Xi : forall i m j, nth_error l i = Some (m, j) -> x' i = esign m * x j).
  { intros i m j N. specialize (RX l i m j 0%nat X N ltac:(lia)). now rewrite !Nat.mul_1_r, !Nat.add_0_r in RX. }
  assert (Z0 : forall e, e * Q2R 0 = Q2R 0) by (intro e; rewrite Q2R_0; ring).
  destruct q as [|a [|b [|c [|? ?]]]]; cbn [coef map signs] in *; [| | | |contradiction].
  - rewrite <- (energy_exch h 0 l x x' (czero 0) A X) in C; [|intros i m j N; rewrite (Xi i m j N); symmetry; apply sg0].
    rewrite C. f_equal. cbn. ring.
  - destruct C as (out & C & ->).
    pose proof (energy_hom0 1 1 (flip 0 0 (fun t => t) (sign_at l a)) ltac:(lia) ltac:(lia) (hom_flip 0 0 _ _ (conj (fun _ => eq_refl) (conj (fun _ _ => eq_refl) (conj (fun _ _ => eq_refl) (fun _ => eq_refl))))) h (s1 (K := ROps) x' (Some a))) as H.
    rewrite C in H. cbn [omap] in H. rewrite <- (energy_exch h 1 l (s1 (K := ROps) x (Some (image_at l a))) _ (czero 1) A X) in H.
    + eexists. split; [exact H|]. cbn. ring.
    + intros i m j N. unfold s1, flip. cbn [fst snd]. rewrite sgS, !sg0. rewrite (Xi i m j N). f_equal. cbn [pmul ct_const]. apply (dl_exch _ l a i m j X N). apply Q. now left.
  - destruct C as (out & C & ->).
    pose proof (energy_hom0 2 2 (flip 1 1 (flip 0 0 (fun t => t) (sign_at l a)) (sign_at l b)) ltac:(lia) ltac:(lia)
      (hom_flip 1 1 _ _ (hom_flip 0 0 _ _ (conj (fun _ => eq_refl) (conj (fun _ _ => eq_refl) (conj (fun _ _ => eq_refl) (fun _ => eq_refl)))))) h (s2 (K := ROps) x' (Some a) (Some b))) as H.
    rewrite C in H. cbn [omap] in H. rewrite <- (energy_exch h 2 l (s2 (K := ROps) x (Some (image_at l a)) (Some (image_at l b))) _ (czero 2) A X) in H.
    + eexists. split; [exact H|]. destruct out as [[o1 o2] [o3 o4]]. unfold flip. cbn. rewrite ?Q2R_0. ring.
    + intros i m j N. unfold s2, flip. cbn [fst snd]. rewrite !sgS, !sg0. rewrite (Xi i m j N). cbn.
      pose proof (dl_exch _ l a i m j X N (Q a ltac:(cbn; tauto))) as Ha. pose proof (dl_exch _ l b i m j X N (Q b ltac:(cbn; tauto))) as Hb. cbn in Ha, Hb.
      rewrite Ha, Hb, !Z0. f_equal. f_equal. rewrite Q2R_0. ring.
  - destruct C as (out & C & ->).
    pose proof (energy_hom0 3 3 (flip 2 2 (flip 1 1 (flip 0 0 (fun t => t) (sign_at l a)) (sign_at l b)) (sign_at l c)) ltac:(lia) ltac:(lia)
      (hom_flip 2 2 _ _ (hom_flip 1 1 _ _ (hom_flip 0 0 _ _ (conj (fun _ => eq_refl) (conj (fun _ _ => eq_refl) (conj (fun _ _ => eq_refl) (fun _ => eq_refl))))))) h (s3 (K := ROps) x' (Some a) (Some b) (Some c))) as H.
    rewrite C in H. cbn [omap] in H. rewrite <- (energy_exch h 3 l (s3 (K := ROps) x (Some (image_at l a)) (Some (image_at l b)) (Some (image_at l c))) _ (czero 3) A X) in H.
    + eexists. split; [exact H|]. destruct out as [[[o1 o2] [o3 o4]] [[o5 o6] [o7 o8]]]. unfold flip. cbn. rewrite ?Q2R_0. ring.
    + intros i m j N. unfold s3, flip. cbn [fst snd]. rewrite !sgS, !sg0. rewrite (Xi i m j N). cbn.
      pose proof (dl_exch _ l a i m j X N (Q a ltac:(cbn; tauto))) as Ha. pose proof (dl_exch _ l b i m j X N (Q b ltac:(cbn; tauto))) as Hb. pose proof (dl_exch _ l c i m j X N (Q c ltac:(cbn; tauto))) as Hc. cbn in Ha, Hb, Hc.
      rewrite ?Q2R_0 in *. rewrite Ha, Hb, Hc. repeat (apply (f_equal2 (@pair _ _))); ring.
Qed.
Lemma nondec_lt n : forall q lo a, nondec lo n q -> In a q -> (a < n)%nat.
Proof. induction q as [|b q IH]; intros lo a N []; cbn [nondec] in N; [subst; lia|]. apply (IH b a); tauto. Qed.
(** Every partial derivative of the exchanged density is, up to the sign of the exchanged
    variables, the partial derivative of the original density with respect to the exchanged
    variables: slot [p] for the multi-index [q] against slot [p'] for the multi-index [q']. *)
Theorem C20_partial_derivatives :
  forall junk (h h' : handle ROps) v vd o l buf x x' ws ws' p p' q q', reachable h -> In v spin_sets -> vars_entry v = Ok vd -> exch v = Some l ->
    xcfun_eval_setup h v XC_PARTIAL_DERIVATIVES o = Ok (h', 0%Z) -> exchanged v 1 x x' ->
    xcfun_eval junk h' buf x = Ok ws -> xcfun_eval junk h' buf x' = Ok ws' ->
    nth_error (graded (Z.to_nat (v_len vd)) (Z.to_nat o)) p = Some q ->
    nth_error (graded (Z.to_nat (v_len vd)) (Z.to_nat o)) p' = Some q' ->
    Permutation (map (image_at l) q) q' ->
    rd buf ws p' = signs l q * rd buf ws' p.
Proof.
  intros junk h h' v vd o l buf x x' ws ws' p p' q q' Hr Hv E X S RX Ev Ev' N N' P.
  pose proof (eval_good junk h h' v _ o buf x ws vd Hr E S Ev) as G.
  pose proof (reachable_wf h' (reach_setup h h' v _ _ _ Hr S)) as W.
  pose proof (partial_slots junk _ _ _ _ _ _ _ _ G Ev p' q' N') as C.
  pose proof (partial_slots junk _ _ _ _ _ _ _ _ G Ev' p q N) as C'.
  assert (L : List.length l = Z.to_nat (v_len vd)).
  { cbn [In spin_sets] in Hv. repeat (destruct Hv as [<-|Hv]; [cbn in X; injection X as <-; vm_compute in E; injection E as <-; reflexivity|]). contradiction. }
  assert (Q : forall a, In a q -> (a < List.length l)%nat).
  { intros a Ha. rewrite L. apply nth_error_In in N. apply In_graded in N. destruct N as [_ N]. exact (nondec_lt _ _ _ a N Ha). }
  pose proof (gs_vars _ _ _ _ _ _ G) as Gv.
  apply (coef_exch h' l x x' q) in C'; [|intros i Hi; now apply W|now rewrite Gv|now rewrite Gv|exact Q].
  apply (coef_perm _ _ _ _ _ P) in C'. exact (coef_fun h' x q' _ _ C C').
Qed.
Print Assumptions C20_partial_derivatives.
(** In particular the derivatives with respect to the two spin densities are exchanged. *)
Corollary C20_first_derivatives :
  forall junk (h h' : handle ROps) v vd o buf x x' ws ws', reachable h -> vars_entry v = Ok vd ->
    In v [XC_A_B; XC_A_B_GAA_GAB_GBB; XC_A_B_GAA_GAB_GBB_TAUA_TAUB; XC_A_B_AX_AY_AZ_BX_BY_BZ] -> (1 <= o)%Z ->
    xcfun_eval_setup h v XC_PARTIAL_DERIVATIVES o = Ok (h', 0%Z) -> exchanged v 1 x x' ->
    xcfun_eval junk h' buf x = Ok ws -> xcfun_eval junk h' buf x' = Ok ws' ->
    rd buf ws' 1 = rd buf ws 2 /\ rd buf ws' 2 = rd buf ws 1.
Proof.
  intros junk h h' v vd o buf x x' ws ws' Hr E Hv Ho S RX Ev Ev'.
  assert (H : exists l, exch v = Some l /\ nth_error l 0 = Some (false, 1%nat) /\ nth_error l 1 = Some (false, 0%nat) /\ (2 <= Z.to_nat (v_len vd))%nat).
  { cbn [In] in Hv. repeat (destruct Hv as [<-|Hv]; [eexists; split; [reflexivity|]; vm_compute in E; injection E as <-; cbn; split; [reflexivity|split; [reflexivity|lia]]|]). contradiction. }
  destruct H as (l & X & N0 & N1 & L).
  assert (Hs : In v spin_sets) by (cbn [In spin_sets] in *; tauto).
  destruct (C09_slot_numbers (Z.to_nat (v_len vd)) (Z.to_nat o)) as (_ & S1 & _).
  pose proof (S1 0%nat ltac:(lia) ltac:(lia)) as P0. pose proof (S1 1%nat ltac:(lia) ltac:(lia)) as P1. cbn [Nat.add] in P0, P1.
  split.
  - rewrite (C20_partial_derivatives junk h h' v vd o l buf x x' ws ws' 1 2 [0%nat] [1%nat] Hr Hs E X S RX Ev Ev' P0 P1).
    + cbn [signs]. unfold sign_at. rewrite N0. cbn [esign]. rewrite Rmult_1_r, Rmult_1_l. reflexivity.
    + cbn [map]. unfold image_at. rewrite N0. reflexivity.
  - rewrite (C20_partial_derivatives junk h h' v vd o l buf x x' ws ws' 2 1 [1%nat] [0%nat] Hr Hs E X S RX Ev Ev' P1 P0).
    + cbn [signs]. unfold sign_at. rewrite N1. cbn [esign]. rewrite Rmult_1_r, Rmult_1_l. reflexivity.
    + cbn [map]. unfold image_at. rewrite N1. reflexivity.
Qed.
Print Assumptions C20_first_derivatives.

(** A polarised density of a hybrid meta-GGA mixture, in the n, s set. *)
Definition D_pol : dens :=
  {| al := {| rho := 2; grad := V 1 2 3; hes := Hes 1 0 0 2 0 3; kin := 5; jp := 0 |};
     be := {| rho := 1; grad := V 0 1 (-1); hes := Hes 1 0 0 1 0 1; kin := 4; jp := 0 |} |}.
Example C20_example : exists (h h' : handle ROps) x x', reachable h /\ In XC_N_S_NX_NY_NZ_SX_SY_SZ_TAUN_TAUS spin_sets /\
  xcfun_eval_setup h XC_N_S_NX_NY_NZ_SX_SY_SZ_TAUN_TAUS XC_PARTIAL_DERIVATIVES 0 = Ok (h', 0%Z) /\ h_active h = [5; 4; 42]%nat /\
  exchanged XC_N_S_NX_NY_NZ_SX_SY_SZ_TAUN_TAUS 1 x x' /\ x 1%nat = 1 /\ x' 1%nat = -1 /\ x 9%nat = 1 /\ x' 9%nat = -1 /\
  forall junk buf, xcfun_eval junk h' buf x = xcfun_eval junk h' buf x'.
Proof.
  destruct (make (K := ROps) [("pbex"%string, 5%nat, 1); ("pbec"%string, 4%nat, 1); ("tpssx"%string, 42%nat, 1)] eq_refl) as (h & Eh & Hr & A & Ms).
  change (mactive _) with [5; 4; 42]%nat in A.
  set (x := fun i => nth i (encode XC_N_S_NX_NY_NZ_SX_SY_SZ_TAUN_TAUS D_pol) 0).
  set (x' := fun i => nth i (encode XC_N_S_NX_NY_NZ_SX_SY_SZ_TAUN_TAUS (exchange D_pol)) 0).
  assert (Hv : In XC_N_S_NX_NY_NZ_SX_SY_SZ_TAUN_TAUS spin_sets) by (cbn; tauto).
  assert (X : exchanged XC_N_S_NX_NY_NZ_SX_SY_SZ_TAUN_TAUS 1 x x') by (apply (C20_exchange_is_exchange _ D_pol); [exact Hv|reflexivity|reflexivity]).
  eexists h, _, x, x'. split; [exact Hr|]. split; [exact Hv|].
  assert (S : xcfun_eval_setup h XC_N_S_NX_NY_NZ_SX_SY_SZ_TAUN_TAUS XC_PARTIAL_DERIVATIVES 0 = Ok (_, 0%Z)) by (apply accepts_ok; [exact Hr|rewrite A; vm_compute; reflexivity]).
  split; [exact S|]. split; [exact A|]. split; [exact X|].
  split; [unfold x; cbn; unfold dif; cbn; lra|]. split; [unfold x'; cbn; unfold dif; cbn; lra|]. split; [unfold x; cbn; unfold dif; cbn; lra|]. split; [unfold x'; cbn; unfold dif; cbn; lra|].
  intros junk buf. exact (C20_energy_symmetric junk h _ _ buf x x' Hr Hv S X).
Qed.
