(** * Property theorems: mixtures of functionals (C16, C17) *)
From Coq Require Import Reals QArith Qreals ZArith Arith Lia Lra List Bool String Permutation.
From Coquelicot Require Import Coquelicot.
From Verif Require Import Scalar RInst Tables Api SpecApi ApiProofs ApiProofs2 Props_Api CTaylor CtAlg CtConv TMath Fps TFam TExp Ad Br Expr Densvars Functionals
  Eval Sem AdEval SpecEval Layout EvalSem EvalProps Taint EvalExt EvalR EvalReal EvalApi Props_Eval PotSlots VarsRel EnergyLin Mk Phys EnergyR Safe Props_Dens Props_Dens2.
Import ListNotations.
Local Open Scope outcome_scope.
Local Open Scope R_scope.

(** ** Specification *)
(** The value xcfun_get reports for item i is w. *)
Definition reports (h : handle ROps) (i : nat) (w : R) : Prop := forall name, is_item name i -> xcfun_get h name = Some w.
(** [g] is a handle on which the functional i is the only one that was ever set, with
    weight one, and the numerical parameters are those of [h]. *)
Definition alone (h : handle ROps) (i : nat) (g : handle ROps) : Prop :=
  reachable g /\ h_active g = [i] /\ reports g i 1 /\
  forall name j, (78 <= j)%nat -> is_item name j -> xcfun_get g name = xcfun_get h name.
Definition lsum (F : nat -> R) (l : list nat) : R := fold_right (fun i s => F i + s) 0 l.

(** ** Auxiliary facts *)
Lemma item_exists i : (i < 82)%nat -> exists name, is_item name i.
Proof.
  intro L. destruct (nth_error item_names i) as [s|] eqn:X.
  - exists s, s. split; [exact X|apply ci_refl].
  - apply nth_error_None in X. rewrite items_length in X. unfold XC_NR_PARAMETERS_AND_FUNCTIONALS in X. cbn in X. lia.
Qed.
Lemma reports_settings h i w : (i < 82)%nat -> reports h i w -> h_settings h i = w.
Proof. intros L H. destruct (item_exists i L) as [s I]. specialize (H s I). rewrite (get_item _ s i I) in H. congruence. Qed.
Lemma alone_params h i g : alone h i g -> forall k, (78 <= k < 82)%nat -> h_settings g k = h_settings h k.
Proof.
  intros (_ & _ & _ & P) k Hk. destruct (item_exists k ltac:(lia)) as [s I]. specialize (P s k ltac:(lia) I).
  rewrite !(get_item _ s k I) in P. congruence.
Qed.
(** A setup accepted for a set of functionals is accepted for each subset. *)
Lemma setup_sub (h g : handle ROps) v m o h' : reachable h -> reachable g -> incl (h_active g) (h_active h) ->
  xcfun_eval_setup h v m o = Ok (h', 0%Z) -> xcfun_eval_setup g v m o = Ok (mkH (h_active g) o (h_depends g) m v (h_settings g), 0%Z).
Proof.
  intros Hr Hg Hi S.
  assert (Rg : (0 <= v < XC_NR_VARS)%Z).
  { unfold xcfun_eval_setup in S. destruct (vars_entry v) as [vd| | |] eqn:E; cbn [obind] in S; try discriminate. exact (vars_entry_range _ _ E). }
  destruct (setup_exact h v m o (reachable_wf h Hr) Rg) as (vd & r & h1 & Ev & E & C & _). rewrite S in E. injection E as <- <-.
  destruct (setup_exact g v m o (reachable_wf g Hg) Rg) as (vd' & r' & g1 & Ev' & E' & C' & _ & D'). rewrite Ev in Ev'. injection Ev' as <-.
  assert (Ok0 : setup_code h v m o vd 0 -> setup_code g v m o vd 0).
  { intro X. inversion X as [| | | |V O P]. apply sc_ok; [|exact O|].
    - intros i Hin. apply V, Hi, Hin.
    - intro M. destruct (P M) as [P1 P2]. split.
      + intros (i & A & B). apply P1. exists i. auto.
      + intros (i & A & B). apply P2. exists i. auto. }
  assert (r' = 0%Z) by exact (C06_setup_code_unique ROps g v m o vd r' 0 C' (Ok0 C)). subst r'.
  rewrite E', (D' eq_refl). reflexivity.
Qed.
Lemma get_scale n k : forall (x : rct n) s, CTaylor.get n (@ct_scale ROps n k x) s = k * CTaylor.get n x s.
Proof.
  induction n; intros x s; [reflexivity|]. unfold ct_scale in *. cbn [ct_map CTaylor.get fst snd]. destruct (Nat.ltb s (2 ^ n)); apply IHn.
Qed.
Lemma get_csum (h : handle ROps) n f s l : CTaylor.get n (csum n (term h n f) l) s = lsum (fun i => h_settings h i * CTaylor.get n (f i) s) l.
Proof.
  induction l as [|i l IH]; cbn [csum lsum fold_right].
  - rewrite czero_eq. clear. revert s. induction n; intro s; [reflexivity|]. rewrite ct_const_S. cbn [CTaylor.get fst snd]. destruct (Nat.ltb s (2 ^ n)); apply IHn.
  - rewrite get_add. unfold term at 1. rewrite get_scale. f_equal. exact IH.
Qed.
Lemma lsum_ext F F' l : (forall i, In i l -> F i = F' i) -> lsum F l = lsum F' l.
Proof. induction l as [|i l IH]; intro H; cbn; [reflexivity|]. rewrite H by now left. f_equal. apply IH. intros; apply H; now right. Qed.
Lemma lsum_3 w a b c l : lsum (fun i => w i * a i) l + lsum (fun i => w i * b i) l + lsum (fun i => w i * c i) l =
  lsum (fun i => w i * (a i + b i + c i)) l.
Proof. induction l as [|i l IH]; cbn [lsum fold_right]; [ring|]. unfold lsum in IH. rewrite Rmult_plus_distr_l, Rmult_plus_distr_l. lra. Qed.
Lemma lsum_minus w a b l : lsum (fun i => w i * a i) l - lsum (fun i => w i * b i) l = lsum (fun i => w i * (a i - b i)) l.
Proof. induction l as [|i l IH]; cbn [lsum fold_right]; [ring|]. unfold lsum in IH. rewrite Rmult_minus_distr_l. lra. Qed.

Section MIX.
Variables (h hp : handle ROps) (v m o : Z) (vd : vars_data).
Hypothesis Hr : reachable h.
Hypothesis Hs : xcfun_eval_setup h v m o = Ok (hp, 0%Z).
Hypothesis G : good_setup h hp v m o vd.
Variable g : nat -> handle ROps.
Hypothesis Al : forall i, In i (h_active h) -> alone h i (g i).
Definition gp (i : nat) : handle ROps := mkH (h_active (g i)) o (h_depends (g i)) m v (h_settings (g i)).
Lemma act : h_active hp = h_active h.
Proof. apply (setup_gives_valid h v m o hp Hs). Qed.
Lemma sett : h_settings hp = h_settings h.
Proof. apply (setup_gives_valid h v m o hp Hs). Qed.
Lemma gp_setup i : In i (h_active h) -> xcfun_eval_setup (g i) v m o = Ok (gp i, 0%Z).
Proof.
  intro Hi. destruct (Al i Hi) as (Rg & Ag & _). apply (setup_sub h (g i) v m o hp Hr Rg); [|exact Hs]. rewrite Ag. intros j [<-|[]]. exact Hi.
Qed.
Lemma lt78 i : In i (h_active h) -> (i < 78)%nat.
Proof. apply (reachable_wf h Hr). Qed.
Lemma gp_good i : In i (h_active h) -> good_setup (g i) (gp i) v m o vd.
Proof.
  intro Hi. destruct (Al i Hi) as (Rg & Ag & _). destruct G as [[Ga Gs] Gv Gm Go Ge Gp Gx Gt Gk Gr]. split; try assumption; try reflexivity.
  split; cbn [gp h_active h_vars]; [rewrite Ag; intros j [<-|[]]; now apply lt78|]. now rewrite <- Gv.
Qed.
Lemma gp_energy i n d : In i (h_active h) -> energy (gp i) n d (czero n) = solo hp i n d.
Proof.
  intro Hi. destruct (Al i Hi) as (Rg & Ag & Wg & _). apply solo_alone.
  - symmetry. apply (gs_vars _ _ _ _ _ _ G).
  - exact Ag.
  - apply (reports_settings (g i) i 1); [pose proof (lt78 i Hi); lia|exact Wg].
  - intros k Hk. rewrite sett. now apply (alone_params h i (g i) (Al i Hi)).
Qed.
Definition wt (i : nat) : R := h_settings h i.
Lemma lin n d e : energy hp n d (czero n) = Ok e ->
  exists f, (forall i, In i (h_active h) -> energy (gp i) n d (czero n) = Ok (f i)) /\
    forall s, CTaylor.get n e s = lsum (fun i => wt i * CTaylor.get n (f i) s) (h_active h).
Proof.
  intro H. destruct (energy_terms hp n d e H) as (f & Hf & ->). exists f. split.
  - intros i Hi. rewrite gp_energy by exact Hi. apply Hf. now rewrite act.
  - intro s. rewrite get_csum, act. unfold wt. rewrite sett. reflexivity.
Qed.
Lemma lin_conv n d : h_active h <> [] -> (forall i, In i (h_active h) -> exists x, energy (gp i) n d (czero n) = Ok x) ->
  exists e, energy hp n d (czero n) = Ok e.
Proof.
  intros Ne H. exists (csum n (term hp n (fun i => match energy (gp i) n d (czero n) with Ok x => x | _ => czero n end)) (h_active hp)).
  apply energy_of_terms; [now rewrite act|]. intros i Hi. rewrite act in Hi. rewrite <- gp_energy by exact Hi.
  destruct (H i Hi) as [x ->]. reflexivity.
Qed.
Lemma coef_lin input l x : coef hp input l x ->
  exists c, (forall i, In i (h_active h) -> coef (gp i) input l (c i)) /\ x = lsum (fun i => wt i * c i) (h_active h).
Proof.
  destruct l as [|a [|b [|c [|? ?]]]]; cbn [coef]; [| | | |contradiction].
  - intro H. destruct (lin _ _ _ H) as (f & Hf & Hs'). exists (fun i => CTaylor.get 0 (f i) 0). split; [intros i Hi; now rewrite (Hf i Hi)|exact (Hs' 0%nat)].
  - intros (e & H & ->). destruct (lin _ _ _ H) as (f & Hf & Hs'). exists (fun i => CTaylor.get 1 (f i) 1). split; [|exact (Hs' 1%nat)].
    intros i Hi. exists (f i). split; [now apply Hf|reflexivity].
  - intros (e & H & ->). destruct (lin _ _ _ H) as (f & Hf & Hs'). exists (fun i => CTaylor.get 2 (f i) 3). split; [|exact (Hs' 3%nat)].
    intros i Hi. exists (f i). split; [now apply Hf|reflexivity].
  - intros (e & H & ->). destruct (lin _ _ _ H) as (f & Hf & Hs'). exists (fun i => CTaylor.get 3 (f i) 7). split; [|exact (Hs' 7%nat)].
    intros i Hi. exists (f i). split; [now apply Hf|reflexivity].
Qed.

(** Potential mode *)
Hypothesis M : m = XC_POTENTIAL.
Lemma pot_hp : xcfun_is_gga hp = true ->
  (h_vars hp = XC_N_2ND_TAYLOR /\ Z.to_nat (v_len vd) = 10%nat) \/ (h_vars hp = XC_A_B_2ND_TAYLOR /\ Z.to_nat (v_len vd) = 20%nat).
Proof. apply (pot_vars h hp v o vd Hr); rewrite <- M; assumption. Qed.
Lemma gp_wf i : In i (h_active h) -> wf (gp i).
Proof. intro Hi. apply reachable_wf. destruct (Al i Hi) as (Rg & _). exact (reach_setup _ _ _ _ _ _ Rg (gp_setup i Hi)). Qed.
Lemma hp_wf : wf hp.
Proof. apply reachable_wf. exact (reach_setup _ _ _ _ _ _ Hr Hs). Qed.
Lemma gp_gga i : In i (h_active h) -> xcfun_is_gga (gp i) = true -> xcfun_is_gga hp = true.
Proof.
  intros Hi H. apply (is_gga_iff _ hp_wf). apply (is_gga_iff _ (gp_wf i Hi)) in H. destruct H as (j & A & B).
  cbn [gp h_active] in A. destruct (Al i Hi) as (_ & Ag & _). rewrite Ag in A. destruct A as [<-|[]]. exists i. rewrite act. auto.
Qed.
Lemma gp_lda i : In i (h_active h) -> xcfun_is_gga (gp i) = false -> lda_flags i = true.
Proof.
  intros Hi H. destruct (Al i Hi) as (_ & Ag & _).
  destruct (setup_gives_valid h v m o hp Hs) as (Sv & Evv & Em & _).
  destruct (setup_valid_code hp hp_wf Sv) as (_ & _ & _ & _ & P). rewrite Em in P. destruct (P M) as [_ Nm].
  unfold lda_flags. apply negb_true_iff. apply orb_false_iff. split; [|apply orb_false_iff; split].
  - destruct (Z.testbit (flags i) 1) eqn:B; [|reflexivity]. assert (xcfun_is_gga (gp i) = true); [|congruence].
    apply (is_gga_iff _ (gp_wf i Hi)). exists i. cbn [gp h_active]. rewrite Ag. split; [now left|exact B].
  - destruct (Z.testbit (flags i) 2) eqn:B; [|reflexivity]. exfalso. apply Nm. exists i. rewrite act. split; [exact Hi|left; exact B].
  - destruct (Z.testbit (flags i) 3) eqn:B; [|reflexivity]. exfalso. apply Nm. exists i. rewrite act. split; [exact Hi|right; exact B].
Qed.
Lemma gp_vars2 : xcfun_is_gga hp = true -> v = XC_N_2ND_TAYLOR \/ v = XC_A_B_2ND_TAYLOR.
Proof.
  intro H. pose proof (gs_vars _ _ _ _ _ _ G) as Gv. destruct (pot_hp H) as [[A _]|[A _]]; rewrite Gv in A; auto.
Qed.
Lemma lda_zero i input k s x : In i (h_active h) -> xcfun_is_gga hp = true -> xcfun_is_gga (gp i) = false ->
  s <> 0%nat -> s <> 10%nat -> energy (gp i) 2 (gin input k s) (czero 2) = Ok x -> snd (snd x) = 0.
Proof.
  intros Hi Hg Hl S0 S1. apply (lda_corr_0 (gp i) (gs_ready _ _ _ _ _ _ (gp_good i Hi)) (gp_vars2 Hg)); [|exact S0|exact S1].
  intros j Hj. cbn [gp h_active] in Hj. destruct (Al i Hi) as (_ & Ag & _). rewrite Ag in Hj. destruct Hj as [<-|[]]. now apply gp_lda.
Qed.
Lemma corr_lin input oo c : xcfun_is_gga hp = true -> oo = 0%nat \/ oo = 10%nat -> corr hp input oo = Ok c ->
  exists cc, (forall i, In i (h_active h) -> corr (gp i) input oo = Ok (cc i) /\ (xcfun_is_gga (gp i) = false -> cc i = 0)) /\
    c = lsum (fun i => wt i * cc i) (h_active h).
Proof.
  intros Hg Ho. unfold corr.
  destruct (energy hp 2 (gin input 0 (1 + oo)) (czero 2)) as [x| | |] eqn:Ex; cbn [obind]; try discriminate.
  destruct (energy hp 2 (gin input 1 (2 + oo)) (czero 2)) as [y| | |] eqn:Ey; cbn [obind]; try discriminate.
  destruct (energy hp 2 (gin input 2 (3 + oo)) (czero 2)) as [z| | |] eqn:Ez; cbn [obind]; try discriminate.
  intro H. injection H as <-.
  destruct (lin _ _ _ Ex) as (fx & Fx & Sx). destruct (lin _ _ _ Ey) as (fy & Fy & Sy). destruct (lin _ _ _ Ez) as (fz & Fz & Sz).
  exists (fun i => snd (snd (fx i)) + snd (snd (fy i)) + snd (snd (fz i))). split.
  - intros i Hi. rewrite (Fx i Hi), (Fy i Hi), (Fz i Hi). cbn [obind]. split; [reflexivity|]. intro Hl.
    rewrite (lda_zero i input _ _ (fx i) Hi Hg Hl) with (3 := Fx i Hi) by lia.
    rewrite (lda_zero i input _ _ (fy i) Hi Hg Hl) with (3 := Fy i Hi) by lia.
    rewrite (lda_zero i input _ _ (fz i) Hi Hg Hl) with (3 := Fz i Hi) by lia. ring.
  - assert (Tx : snd (snd x) = lsum (fun i => wt i * snd (snd (fx i))) (h_active h)) by exact (Sx 3%nat).
    assert (Ty : snd (snd y) = lsum (fun i => wt i * snd (snd (fy i))) (h_active h)) by exact (Sy 3%nat).
    assert (Tz : snd (snd z) = lsum (fun i => wt i * snd (snd (fz i))) (h_active h)) by exact (Sz 3%nat).
    cbn [T ROps] in *. rewrite Tx, Ty, Tz. apply lsum_3.
Qed.
Lemma pot_lin input L : pot_val hp vd input = Ok L ->
  exists LL, (forall i, In i (h_active h) -> pot_val (gp i) vd input = Ok (LL i)) /\
    forall p x, nth_error L p = Some x -> exists c, (forall i, In i (h_active h) -> nth_error (LL i) p = Some (c i)) /\ x = lsum (fun i => wt i * c i) (h_active h).
Proof.
  unfold pot_val, first.
  destruct (energy hp 1 (s1 (K := ROps) input (Some 0%nat)) (czero 1)) as [a| | |] eqn:Ea; cbn [obind]; try discriminate.
  destruct (lin _ _ _ Ea) as (fa & Fa & Sa).
  assert (A0 : fst a = lsum (fun i => wt i * fst (fa i)) (h_active h)) by exact (Sa 0%nat).
  assert (A1 : snd a = lsum (fun i => wt i * snd (fa i)) (h_active h)) by exact (Sa 1%nat).
  assert (Ng : xcfun_is_gga hp = false -> forall i, In i (h_active h) -> xcfun_is_gga (gp i) = false).
  { intros Hg i Hi. destruct (xcfun_is_gga (gp i)) eqn:X; [|reflexivity]. rewrite (gp_gga i Hi X) in Hg. discriminate. }
  destruct (single (Z.to_nat (v_len vd))) eqn:Sg.
  - destruct (xcfun_is_gga hp) eqn:Hg.
    + destruct (corr hp input 0) as [c| | |] eqn:Ec; cbn [obind]; try discriminate. intro H. injection H as <-.
      destruct (corr_lin input 0 c Hg ltac:(auto) Ec) as (cc & Cc & Sc).
      exists (fun i => [fst (fa i); snd (fa i) - cc i]). split.
      * intros i Hi. rewrite (Fa i Hi). cbn [obind]. destruct (Cc i Hi) as [-> C0]. cbn [obind].
        destruct (xcfun_is_gga (gp i)); [reflexivity|]. rewrite (C0 eq_refl), Rminus_0_r. reflexivity.
      * intros p x. destruct p as [|[|p]]; cbn [nth_error]; [| |now destruct p]; intro H; injection H as <-.
        -- exists (fun i => fst (fa i)). split; [auto|exact A0].
        -- exists (fun i => snd (fa i) - cc i). split; [auto|]. cbn [T ROps] in *. rewrite A1, Sc. apply lsum_minus.
    + intro H. injection H as <-. exists (fun i => [fst (fa i); snd (fa i)]). split.
      * intros i Hi. rewrite (Fa i Hi). cbn [obind]. now rewrite (Ng eq_refl i Hi).
      * intros p x. destruct p as [|[|p]]; cbn [nth_error]; [| |now destruct p]; intro H; injection H as <-.
        -- exists (fun i => fst (fa i)). split; [auto|exact A0].
        -- exists (fun i => snd (fa i)). split; [auto|exact A1].
  - destruct (energy hp 1 (s1 (K := ROps) input (Some (inpos (Z.to_nat (v_len vd))))) (czero 1)) as [b| | |] eqn:Eb; cbn [obind]; try discriminate.
    destruct (lin _ _ _ Eb) as (fb & Fb & Sb).
    assert (B1 : snd b = lsum (fun i => wt i * snd (fb i)) (h_active h)) by exact (Sb 1%nat).
    destruct (xcfun_is_gga hp) eqn:Hg.
    + destruct (corr hp input 0) as [c| | |] eqn:Ec; cbn [obind]; try discriminate.
      destruct (corr hp input 10) as [c'| | |] eqn:Ec'; cbn [obind]; try discriminate. intro H. injection H as <-.
      destruct (corr_lin input 0 c Hg ltac:(auto) Ec) as (cc & Cc & Sc).
      destruct (corr_lin input 10 c' Hg ltac:(auto) Ec') as (cc' & Cc' & Sc').
      exists (fun i => [fst (fa i); snd (fa i) - cc i; snd (fb i) - cc' i]). split.
      * intros i Hi. rewrite (Fa i Hi), (Fb i Hi). cbn [obind]. destruct (Cc i Hi) as [-> C0]. destruct (Cc' i Hi) as [-> C0']. cbn [obind].
        destruct (xcfun_is_gga (gp i)); [reflexivity|]. rewrite (C0 eq_refl), (C0' eq_refl), !Rminus_0_r. reflexivity.
      * intros p x. destruct p as [|[|[|p]]]; cbn [nth_error]; [| | |now destruct p]; intro H; injection H as <-.
        -- exists (fun i => fst (fa i)). split; [auto|exact A0].
        -- exists (fun i => snd (fa i) - cc i). split; [auto|]. cbn [T ROps] in *. rewrite A1, Sc. apply lsum_minus.
        -- exists (fun i => snd (fb i) - cc' i). split; [auto|]. cbn [T ROps] in *. rewrite B1, Sc'. apply lsum_minus.
    + intro H. injection H as <-. exists (fun i => [fst (fa i); snd (fa i); snd (fb i)]). split.
      * intros i Hi. rewrite (Fa i Hi), (Fb i Hi). cbn [obind]. now rewrite (Ng eq_refl i Hi).
      * intros p x. destruct p as [|[|[|p]]]; cbn [nth_error]; [| | |now destruct p]; intro H; injection H as <-.
        -- exists (fun i => fst (fa i)). split; [auto|exact A0].
        -- exists (fun i => snd (fa i)). split; [auto|exact A1].
        -- exists (fun i => snd (fb i)). split; [auto|exact B1].
Qed.
End MIX.

(** C16.  Every output slot of a mixture, in every mode and order, is the weighted sum over
    the active functionals of the same slot computed with a handle on which that functional
    alone was set with weight one; and those handles accept the same setup. *)
Theorem C16_linear_in_weights :
  forall junk junk' (h hp : handle ROps) v m o buf buf' input ws (g : nat -> handle ROps) (w : nat -> R), reachable h ->
    xcfun_eval_setup h v m o = Ok (hp, 0%Z) ->
    xcfun_eval junk hp buf input = Ok ws ->
    (forall i, In i (h_active h) -> alone h i (g i) /\ reports h i (w i)) ->
    exists (q : nat -> handle ROps) (W : nat -> list (nat * R)),
      (forall i, In i (h_active h) -> xcfun_eval_setup (g i) v m o = Ok (q i, 0%Z) /\ xcfun_eval junk' (q i) buf' input = Ok (W i)) /\
      forall p, In p (map fst ws) -> rd (K := ROps) buf ws p = lsum (fun i => w i * rd (K := ROps) buf' (W i) p) (h_active h).
Proof.
  intros junk junk' h hp v m o buf buf' input ws g w Hr S Ev Hg.
  destruct (setup_gives_valid h v m o hp S) as (Sv & Evv & Em & Eo & _).
  destruct (setup_valid_vars hp Sv) as [vd E]. rewrite Evv in E.
  pose proof (eval_good junk h hp v m o buf input ws vd Hr E S Ev) as G.
  assert (Al : forall i, In i (h_active h) -> alone h i (g i)) by (intros i Hi; apply Hg, Hi).
  assert (Wt : forall i, In i (h_active h) -> w i = wt h i).
  { intros i Hi. symmetry. apply reports_settings; [pose proof (lt78 h Hr i Hi); lia|apply Hg, Hi]. }
  set (q := gp v m o g). set (W := fun i => match xcfun_eval junk' (q i) buf' input with Ok x => x | _ => [] end).
  exists q, W.
  assert (Fin : forall (ok : forall i, In i (h_active h) -> exists x, xcfun_eval junk' (q i) buf' input = Ok x),
     (forall p, In p (map fst ws) -> rd (K := ROps) buf ws p = lsum (fun i => wt h i * rd (K := ROps) buf' (W i) p) (h_active h)) ->
     (forall i, In i (h_active h) -> xcfun_eval_setup (g i) v m o = Ok (q i, 0%Z) /\ xcfun_eval junk' (q i) buf' input = Ok (W i)) /\
      forall p, In p (map fst ws) -> rd (K := ROps) buf ws p = lsum (fun i => w i * rd (K := ROps) buf' (W i) p) (h_active h)).
  { intros ok Hp. split.
    - intros i Hi. split; [exact (gp_setup h hp v m o Hr S g Al i Hi)|]. unfold W. destruct (ok i Hi) as [x ->]. reflexivity.
    - intros p Ip. rewrite (Hp p Ip). apply lsum_ext. intros i Hi. now rewrite Wt. }
  pose proof (gp_good h hp v m o vd Hr G g Al) as Gg.
  destruct (gs_mode_ok _ _ _ _ _ _ G) as [M|[M|[M|[]]]].
  - (* partial derivatives *)
    rewrite <- M in Em. subst m.
    assert (ok : forall i, In i (h_active h) -> exists x, xcfun_eval junk' (q i) buf' input = Ok x).
    { intros i Hi. pose proof (partial_slots junk _ _ _ _ _ _ _ _ G Ev 0%nat [] (graded_0 _ _)) as C.
      destruct (coef_lin h hp v _ o vd Hr S G g Al input [] _ ltac:(exact C)) as (c & Hc & _).
      specialize (Hc i Hi). cbn [coef] in Hc.  exact (partial_total junk' _ _ _ _ buf' _ _ _ (Gg i Hi) Hc). }
    apply (Fin ok). intros p Ip.
    assert (Lp : exists l, nth_error (graded (Z.to_nat (v_len vd)) (Z.to_nat o)) p = Some l).
    { rewrite (eval_partial junk _ _ _ _ _ _ _ G) in Ev.
      pose proof (partial_values hp (gs_ready _ _ _ _ _ _ G) vd) as P. rewrite Evv in P. specialize (P E input junk (Z.to_nat o)).
      pose proof (gs_part _ _ _ _ _ _ G eq_refl) as Gt. specialize (P ltac:(lia)). rewrite Ev in P. cbn [oP] in P. destruct P as [P _].
      destruct (lastw_in ws p Ip) as [x Hx]. destruct (P p x Hx) as (l & Nl & _). eauto. }
    destruct Lp as [l Nl].
    pose proof (partial_slots junk _ _ _ _ _ _ _ _ G Ev p l Nl) as C.
    destruct (coef_lin h hp v _ o vd Hr S G g Al input l _ ltac:(exact C)) as (c & Hc & ->).
    apply lsum_ext. intros i Hi. f_equal. specialize (Hc i Hi). 
    destruct (ok i Hi) as [x Hx]. pose proof (partial_slots junk' _ _ _ _ _ _ _ _ (Gg i Hi) Hx p l Nl) as C'.
    unfold W. rewrite Hx. exact (coef_fun _ _ _ _ _ Hc C').
  - (* potential *)
    rewrite <- M in Em. subst m.
    pose proof (eval_potential junk h hp v o vd buf input Hr S G) as P. rewrite Ev in P.
    destruct (pot_val hp vd input) as [L| | |] eqn:PL; cbn [orl] in P; try contradiction.
    destruct (pot_lin h hp v _ o vd Hr S G g Al eq_refl input L PL) as (LL & HL & Hx).
    assert (PQ : forall i, In i (h_active h) -> exists x, xcfun_eval junk' (q i) buf' input = Ok x /\
              forall p y, nth_error (LL i) p = Some y -> rd (K := ROps) buf' x p = y).
    { intros i Hi. pose proof (eval_potential junk' (g i) (q i) v o vd buf' input (proj1 (Al i Hi)) ) as P'.
      specialize (P' ltac:(exact (gp_setup h hp v _ o Hr S g Al i Hi)) (Gg i Hi)).
      fold (q i) in HL. specialize (HL i Hi). fold (q i) in HL. rewrite HL in P'. destruct (xcfun_eval junk' (q i) buf' input) as [x| | |]; cbn [orl] in P'; try contradiction. exists x. split; [reflexivity|exact P']. }
    apply Fin; [intros i Hi; destruct (PQ i Hi) as (x & Hx' & _); eauto|]. intros p Ip.
    assert (Np : exists y, nth_error L p = Some y).
    { destruct (eval_outcome junk hp buf input (reach_setup _ _ _ _ _ _ Hr S) Sv) as (vd' & E' & O).
      - rewrite Evv. apply (supported_iff v vd E). rewrite <- Evv. apply (gs_ready _ _ _ _ _ _ G).
      - rewrite Em. cbn. tauto.
      - rewrite Em. discriminate.
      - rewrite Evv, E in E'. injection E' as <-. rewrite Ev in O. cbn [oP] in O. apply O in Ip. unfold nslots, npot in Ip. rewrite Em in Ip.
        change (Z.eqb XC_POTENTIAL XC_PARTIAL_DERIVATIVES) with false in Ip. change (Z.eqb XC_POTENTIAL XC_CONTRACTED) with false in Ip. cbn iota in Ip.
        fold (single (Z.to_nat (v_len vd))) in Ip. clear - PL Ip. unfold pot_val in PL.
        destruct (first hp input 0); cbn [obind] in PL; try discriminate.
        destruct (single (Z.to_nat (v_len vd))).
        + assert (Q : List.length L = 2%nat).
          { destruct (xcfun_is_gga hp); [destruct (corr hp input 0); cbn [obind] in PL; try discriminate|]; injection PL as <-; reflexivity. }
          destruct (nth_error L p) eqn:X; [eauto|]. apply nth_error_None in X. lia.
        + assert (Q : List.length L = 3%nat).
          { destruct (first hp input _); cbn [obind] in PL; try discriminate.
            destruct (xcfun_is_gga hp); [destruct (corr hp input 0); cbn [obind] in PL; try discriminate; destruct (corr hp input 10); cbn [obind] in PL; try discriminate|];
            injection PL as <-; reflexivity. }
          destruct (nth_error L p) eqn:X; [eauto|]. apply nth_error_None in X. lia. }
    destruct Np as [y Ny]. rewrite (P p y Ny). destruct (Hx p y Ny) as (c & Hc & ->).
    apply lsum_ext. intros i Hi. f_equal. destruct (PQ i Hi) as (x & X1 & X2). unfold W. rewrite X1. symmetry. apply X2, Hc, Hi.
  - (* contracted *)
    rewrite <- M in Em. subst m. pose proof Ev as Ev'.
    rewrite (eval_contracted junk _ _ _ _ buf _ _ G) in Ev.
    destruct (contracted_rd junk hp _ _ _ buf ws Ev) as (out & Ee & Hrd).
    set (d := fun i => if Nat.ltb i (Z.to_nat (v_len vd)) then ct_load (K := ROps) (Z.to_nat o) (fun j => input (i * 2 ^ Z.to_nat o + j)%nat) else junk' (Z.to_nat o) i).
    assert (Ee' : energy hp (Z.to_nat o) d (czero (Z.to_nat o)) = Ok out).
    { rewrite <- Ee. apply (energy_ext hp vd); [apply (gs_ready _ _ _ _ _ _ G)|rewrite Evv; exact E|].
      intros i Hi. unfold d. destruct (Nat.ltb_spec i (Z.to_nat (v_len vd))); [reflexivity|lia]. }
    destruct (lin h hp v _ o vd Hr S G g Al _ d out Ee') as (f & Hf & Hsum).
    assert (PQ : forall i, In i (h_active h) -> exists x, xcfun_eval junk' (q i) buf' input = Ok x /\
              forall s, (s < 2 ^ Z.to_nat o)%nat -> rd (K := ROps) buf' x s = CTaylor.get (Z.to_nat o) (f i) s).
    { intros i Hi. pose proof (eval_contracted junk' _ _ _ _ buf' input vd (Gg i Hi)) as Qe. fold q in Qe. rewrite Qe.
      destruct (contracted junk' (q i) (Z.to_nat o) (Z.to_nat (v_len vd)) input) as [x| | |] eqn:X.
      - exists x. split; [reflexivity|]. destruct (contracted_rd junk' _ _ _ _ buf' x X) as (out' & Eo' & Hrd').
        fold d in Eo'. unfold q in Eo'. rewrite (Hf i Hi) in Eo'. injection Eo' as <-. exact Hrd'.
      - exfalso. unfold contracted in X. fold d in X. unfold q in X. rewrite (Hf i Hi) in X. discriminate.
      - exfalso. unfold contracted in X. fold d in X. unfold q in X. rewrite (Hf i Hi) in X. discriminate.
      - exfalso. unfold contracted in X. fold d in X. unfold q in X. rewrite (Hf i Hi) in X. discriminate. }
    apply Fin; [intros i Hi; destruct (PQ i Hi) as (x & Hx' & _); eauto|]. intros p Ip.
    assert (Np : (p < 2 ^ Z.to_nat o)%nat).
    { unfold contracted in Ev. destruct (energy hp (Z.to_nat o) _ _) as [e| | |]; cbn [obind] in Ev; try discriminate. injection Ev as <-.
      rewrite map_map in Ip. cbn [fst] in Ip. rewrite map_id in Ip. apply in_seq in Ip. lia. }
    rewrite (Hrd p Np), Hsum. apply lsum_ext. intros i Hi. f_equal. destruct (PQ i Hi) as (x & X1 & X2). unfold W. rewrite X1. symmetry. now apply X2.
Qed.
Print Assumptions C16_linear_in_weights.

(** The converse for definedness: a mixture can be evaluated as soon as each of its
    functionals can be evaluated alone. *)
Theorem C16_mixture_defined :
  forall junk junk' (h hp : handle ROps) v m o buf buf' input (g q : nat -> handle ROps), reachable h ->
    xcfun_eval_setup h v m o = Ok (hp, 0%Z) -> h_active h <> [] ->
    (forall i, In i (h_active h) -> alone h i (g i) /\ xcfun_eval_setup (g i) v m o = Ok (q i, 0%Z) /\
       exists W, xcfun_eval junk' (q i) buf' input = Ok W) ->
    exists ws, xcfun_eval junk hp buf input = Ok ws.
Proof.
  intros junk junk' h hp v m o buf buf' input g q Hr S Ne Hg.
  destruct (setup_gives_valid h v m o hp S) as (Sv & Evv & Em & Eo & Ea & _).
  destruct (setup_valid_vars hp Sv) as [vd E]. rewrite Evv in E.
  assert (Gq : forall i, In i (h_active h) -> good_setup (g i) (q i) v m o vd).
  { intros i Hi. destruct (Hg i Hi) as ((Rg & _) & Sg & W & Ew). exact (eval_good junk' _ _ _ _ _ _ _ _ _ Rg E Sg Ew). }
  assert (G : good_setup h hp v m o vd).
  { destruct (h_active h) as [|i0 l] eqn:Al; [congruence|]. destruct (Gq i0 (or_introl eq_refl)) as [[Ga Gs] Gv Gm Go Ge Gp Gx Gt Gk Gr].
    split; try assumption. split; [|now rewrite Evv, <- Gv]. apply (reachable_wf hp (reach_setup _ _ _ _ _ _ Hr S)). }
  assert (Al : forall i, In i (h_active h) -> alone h i (g i)) by (intros i Hi; apply Hg, Hi).
  assert (Qe : forall i, In i (h_active h) -> q i = gp v m o g i).
  { intros i Hi. destruct (Hg i Hi) as (_ & Sg & _). rewrite (gp_setup h hp v m o Hr S g Al i Hi) in Sg. congruence. }
  destruct (gs_mode_ok _ _ _ _ _ _ G) as [M|[M|[M|[]]]]; rewrite <- M in Em; subst m.
  - destruct (lin_conv h hp v _ o vd Hr S G g Al 0 input Ne) as [e He].
    { intros i Hi. destruct (Hg i Hi) as (_ & _ & W & Ew). rewrite <- (Qe i Hi).
      pose proof (partial_slots junk' _ _ _ _ _ _ _ _ (Gq i Hi) Ew 0%nat [] (graded_0 _ _)) as C. cbn [coef] in C. eauto. }
    exact (partial_total junk _ _ _ _ buf _ _ _ G He).
  - assert (Pv : forall i, In i (h_active h) -> exists L, pot_val (gp v XC_POTENTIAL o g i) vd input = Ok L).
    { intros i Hi. destruct (Hg i Hi) as ((Rg & _) & Sg & W & Ew). rewrite <- (Qe i Hi).
      pose proof (eval_potential junk' (g i) (q i) v o vd buf' input Rg Sg (Gq i Hi)) as P. rewrite Ew in P.
      destruct (pot_val (q i) vd input) as [L| | |]; cbn [orl] in P; try contradiction. eauto. }
    pose proof (eval_potential junk h hp v o vd buf input Hr S G) as P.
    assert (Pk : exists L, pot_val hp vd input = Ok L).
    { unfold pot_val, first in *.
      destruct (lin_conv h hp v _ o vd Hr S G g Al 1 (s1 (K := ROps) input (Some 0%nat)) Ne) as [a Ha].
      { intros i Hi. destruct (Pv i Hi) as [L HL]. destruct (energy (gp v XC_POTENTIAL o g i) 1 (s1 (K := ROps) input (Some 0%nat)) (czero 1)); try discriminate. eauto. }
      rewrite Ha. cbn [obind].
      assert (E0 : forall i, In i (h_active h) -> exists e, energy (gp v XC_POTENTIAL o g i) 0 input (czero 0) = Ok e).
      { intros i Hi. destruct (Pv i Hi) as [L HL]. destruct (energy (gp v XC_POTENTIAL o g i) 1 (s1 (K := ROps) input (Some 0%nat)) (czero 1)) as [b| | |] eqn:Eb; try discriminate.
        assert (Gi : good_setup (g i) (gp v XC_POTENTIAL o g i) v XC_POTENTIAL o vd) by exact (gp_good h hp v _ o vd Hr G g Al i Hi).
        pose proof (up_c0 (gp v XC_POTENTIAL o g i) (gs_ready _ _ _ _ _ _ Gi) vd E input 1 (s1 (K := ROps) input (Some 0%nat)) ltac:(lia) ltac:(reflexivity)) as F. rewrite Eb in F. cbn [omap] in F. eauto. }
      assert (Cr : forall oo, oo = 0%nat \/ (oo = 10%nat /\ single (Z.to_nat (v_len vd)) = false) -> xcfun_is_gga hp = true -> exists c, corr hp input oo = Ok c).
      { intros oo Ho Gg. unfold corr.
        assert (X : forall i, In i (h_active h) -> forall k s, (k = 0 /\ s = 1 + oo \/ k = 1 /\ s = 2 + oo \/ k = 2 /\ s = 3 + oo)%nat -> exists x, energy (gp v XC_POTENTIAL o g i) 2 (gin input k s) (czero 2) = Ok x).
        { intros i Hi k s Hks. destruct (xcfun_is_gga (gp v XC_POTENTIAL o g i)) eqn:Gi.
          - destruct (Pv i Hi) as [L HL]. rewrite Gi in HL. destruct (energy (gp v XC_POTENTIAL o g i) 1 (s1 (K := ROps) input (Some 0%nat)) (czero 1)); try discriminate. cbn [obind] in HL.
            assert (C : exists c, corr (gp v XC_POTENTIAL o g i) input oo = Ok c).
            { destruct (single (Z.to_nat (v_len vd))).
              - destruct Ho as [-> | [_ Hx]]; [|discriminate]. destruct (corr (gp v XC_POTENTIAL o g i) input 0); try discriminate. eauto.
              - destruct (energy (gp v XC_POTENTIAL o g i) 1 (s1 (K := ROps) input (Some (inpos (Z.to_nat (v_len vd))))) (czero 1)); try discriminate. cbn [obind] in HL.
                destruct (corr (gp v XC_POTENTIAL o g i) input 0) eqn:C0; cbn [obind] in HL; try discriminate. destruct (corr (gp v XC_POTENTIAL o g i) input 10) eqn:C1; try discriminate.
                destruct Ho as [-> | [-> _]]; eauto. }
            destruct C as [c C]. unfold corr in C.
            destruct (energy (gp v XC_POTENTIAL o g i) 2 (gin input 0 (1 + oo)) (czero 2)) eqn:X1; cbn [obind] in C; try discriminate.
            destruct (energy (gp v XC_POTENTIAL o g i) 2 (gin input 1 (2 + oo)) (czero 2)) eqn:X2; cbn [obind] in C; try discriminate.
            destruct (energy (gp v XC_POTENTIAL o g i) 2 (gin input 2 (3 + oo)) (czero 2)) eqn:X3; cbn [obind] in C; try discriminate.
            destruct Hks as [[-> ->]|[[-> ->]|[-> ->]]]; eauto.
          - destruct (E0 i Hi) as [e He].
            apply (lda_gin_ok (gp v XC_POTENTIAL o g i) (gs_ready _ _ _ _ _ _ (gp_good h hp v _ o vd Hr G g Al i Hi)) (gp_vars2 h hp v _ o vd Hr S G eq_refl Gg)) with (e := e); [|lia|lia|exact He].
            intros j Hj. cbn [gp h_active] in Hj. destruct (Al i Hi) as (_ & Ag & _). rewrite Ag in Hj. destruct Hj as [<-|[]].
            exact (gp_lda h hp v _ o Hr S g Al eq_refl i Hi Gi). }
        destruct (lin_conv h hp v _ o vd Hr S G g Al 2 (gin input 0 (1 + oo)) Ne) as [x ->]; [intros i Hi; apply (X i Hi); lia|]. cbn [obind].
        destruct (lin_conv h hp v _ o vd Hr S G g Al 2 (gin input 1 (2 + oo)) Ne) as [y ->]; [intros i Hi; apply (X i Hi); lia|]. cbn [obind].
        destruct (lin_conv h hp v _ o vd Hr S G g Al 2 (gin input 2 (3 + oo)) Ne) as [z ->]; [intros i Hi; apply (X i Hi); lia|]. cbn [obind]. eauto. }
      destruct (single (Z.to_nat (v_len vd))) eqn:Sg.
      - destruct (xcfun_is_gga hp); [|eauto]. destruct (Cr 0%nat ltac:(auto) eq_refl) as [c ->]. cbn [obind]. eauto.
      - destruct (lin_conv h hp v _ o vd Hr S G g Al 1 (s1 (K := ROps) input (Some (inpos (Z.to_nat (v_len vd))))) Ne) as [b ->].
        { intros i Hi. destruct (Pv i Hi) as [L HL]. destruct (energy (gp v XC_POTENTIAL o g i) 1 (s1 (K := ROps) input (Some 0%nat)) (czero 1)); try discriminate. cbn [obind] in HL.
          destruct (energy (gp v XC_POTENTIAL o g i) 1 (s1 (K := ROps) input (Some (inpos (Z.to_nat (v_len vd))))) (czero 1)); try discriminate. eauto. }
        cbn [obind]. destruct (xcfun_is_gga hp); [|eauto].
        destruct (Cr 0%nat ltac:(auto) eq_refl) as [c ->]. destruct (Cr 10%nat ltac:(auto) eq_refl) as [c' ->]. cbn [obind]. eauto. }
    destruct Pk as [L PL]. rewrite PL in P. destruct (xcfun_eval junk hp buf input); cbn [orl] in P; try contradiction. eauto.
  - rewrite (eval_contracted junk _ _ _ _ buf _ _ G). unfold contracted.
    match goal with |- context [energy hp ?n ?d _] => destruct (lin_conv h hp v _ o vd Hr S G g Al n d Ne) as [e ->] end; [|cbn [obind]; eauto].
    intros i Hi. destruct (Hg i Hi) as (_ & _ & W & Ew). rewrite (eval_contracted junk' _ _ _ _ buf' input vd (Gq i Hi)) in Ew.
    destruct (contracted_rd junk' (q i) _ _ _ buf' W Ew) as (out & Eo' & _). rewrite <- (Qe i Hi). exists out. rewrite <- Eo'.
    apply (energy_ext (q i) vd); [apply (gs_ready _ _ _ _ _ _ (Gq i Hi))|rewrite (Qe i Hi); exact E|].
    intros j Hj. destruct (Nat.ltb_spec j (Z.to_nat (v_len vd))); [reflexivity|lia].
Qed.
Print Assumptions C16_mixture_defined.

(** The handles used as components can always be made through the interface: set the
    functional to one and the four parameters to the values read from the mixture. *)
Definition item_name (i : nat) : string := nth i item_names EmptyString.
Definition component (h : handle ROps) (i : nat) : list (string * nat * T ROps) :=
  (item_name i, i, (1 : T ROps)) :: map (fun k => (item_name k, k, h_settings h k)) [78; 79; 80; 81]%nat.
Lemma item_name_ok : forallb (fun i => names_items [(item_name i, i); (item_name 78, 78%nat); (item_name 79, 79%nat); (item_name 80, 80%nat); (item_name 81, 81%nat)])
  (seq 0 78) = true.
Proof. vm_compute. reflexivity. Qed.
Theorem C16_component_exists :
  forall (h : handle ROps) i, reachable h -> In i (h_active h) ->
    exists g, alone h i g /\ Api.run xcfun_new (map (fun p => CSet (fst (fst p)) (snd p)) (component h i)) = Ok g.
Proof.
  intros h i Hr Hi. pose proof (reachable_wf h Hr) as (_ & L & _). specialize (L i Hi).
  assert (N : names_items (map fst (component h i)) = true).
  { pose proof item_name_ok as I. rewrite forallb_forall in I. exact (I i (proj2 (in_seq _ _ _) (conj (Nat.le_0_l _) L))). }
  destruct (make (K := ROps) (component h i) N) as (g & Eg & Rg & A & S). exists g. split; [|exact Eg].
  assert (Lt : Nat.ltb i 78 = true) by now apply Nat.ltb_lt.
  split; [exact Rg|]. split; [|split].
  - rewrite A. unfold component, mactive. cbn [map fold_left fst snd]. unfold wr_active. cbn [fst snd]. rewrite Lt. reflexivity.
  - intros nm I. rewrite (get_item g nm i I), S. unfold msettings. rewrite fold_settings_fun by exact L.
    unfold values_of, component. cbn [map filter fst snd]. rewrite Nat.eqb_refl.
    assert (Ne : forall k, (78 <= k)%nat -> Nat.eqb k i = false) by (intros k Hk; apply Nat.eqb_neq; lia).
    rewrite !Ne by lia. cbn [map fold_left h_settings xcfun_new snd]. unfold default_setting.
    replace (Nat.ltb i XC_NR_FUNCTIONALS) with true by (symmetry; exact Lt).
    cbn [OofQ ROps Oadd]. rewrite ?Q2R_0. f_equal. change (Q2R 0 + 1 = 1) || idtac. unfold Q2R. cbn. lra.
  - intros nm j Hj I. rewrite !(get_item _ nm j I), S. f_equal.
    assert (Hk : (j < 82)%nat).
    { destruct I as (s & I & _). assert (X : nth_error item_names j <> None) by congruence. apply nth_error_Some in X. rewrite items_length in X. exact X. }
    unfold msettings. rewrite fold_settings_par by exact Hj. unfold values_of, component.
    cbn [map filter fst snd]. replace (Nat.eqb i j) with false by (symmetry; apply Nat.eqb_neq; lia).
    assert (J : (j = 78 \/ j = 79 \/ j = 80 \/ j = 81)%nat) by lia.
    destruct J as [-> | [-> | [-> | ->]]]; reflexivity.
Qed.
Print Assumptions C16_component_exists.

(** A concrete case: the five-component hybrid of C33 in all three modes. *)
Example C16_example : exists (h h1 h2 h3 : handle ROps) x y (g : nat -> handle ROps) w1 w2 w3,
  reachable h /\ h_active h = [0; 5; 16; 4; 25]%nat /\ (forall i, In i (h_active h) -> alone h i (g i)) /\
  xcfun_eval_setup h XC_A_B_GAA_GAB_GBB XC_PARTIAL_DERIVATIVES 3 = Ok (h1, 0%Z) /\
  xcfun_eval_setup h XC_A_B_2ND_TAYLOR XC_POTENTIAL 1 = Ok (h2, 0%Z) /\
  xcfun_eval_setup h XC_A_B_2ND_TAYLOR XC_CONTRACTED (Z.of_nat 0) = Ok (h3, 0%Z) /\
  xcfun_eval (fun n _ => rconst n 0) h1 (fun _ => 0) x = Ok w1 /\
  xcfun_eval (fun n _ => rconst n 0) h2 (fun _ => 0) y = Ok w2 /\
  xcfun_eval (fun n _ => rconst n 0) h3 (fun _ => 0) y = Ok w3.
Proof.
  destruct mix_handle as (h & Hr & A & Mu & Ac).
  assert (S1 : exists h1, xcfun_eval_setup h XC_A_B_GAA_GAB_GBB XC_PARTIAL_DERIVATIVES 3 = Ok (h1, 0%Z)) by (eexists; apply accepts_ok; [exact Hr|rewrite A; vm_compute; reflexivity]).
  assert (S2 : exists h1, xcfun_eval_setup h XC_A_B_2ND_TAYLOR XC_POTENTIAL 1 = Ok (h1, 0%Z)) by (eexists; apply accepts_ok; [exact Hr|rewrite A; vm_compute; reflexivity]).
  assert (S3 : exists h1, xcfun_eval_setup h XC_A_B_2ND_TAYLOR XC_CONTRACTED (Z.of_nat 0) = Ok (h1, 0%Z)) by (eexists; apply accepts_ok; [exact Hr|rewrite A; vm_compute; reflexivity]).
  destruct S1 as [h1 S1], S2 as [h2 S2], S3 as [h3 S3].
  assert (D1 : describes XC_A_B_GAA_GAB_GBB (fun i => nth i (encode XC_A_B_GAA_GAB_GBB D_ex) 0) D_ex) by (apply encode_describes; cbn; tauto).
  assert (D2 : describes XC_A_B_2ND_TAYLOR (fun i => nth i (encode XC_A_B_2ND_TAYLOR D_ex) 0) D_ex) by (apply encode_describes; cbn; tauto).
  assert (D3 : describes XC_A_B_2ND_TAYLOR (fun i => (fun k => nth k (encode XC_A_B_2ND_TAYLOR D_ex) 0) (i * 2 ^ 0)%nat) D_ex).
  { replace (fun i => (fun k => nth k (encode XC_A_B_2ND_TAYLOR D_ex) 0) (i * 2 ^ 0)%nat) with (fun k => nth k (encode XC_A_B_2ND_TAYLOR D_ex) 0); [exact D2|].
    apply FunctionalExtensionality.functional_extensionality. intro k. cbv beta. now rewrite Nat.pow_0_r, Nat.mul_1_r. }
  destruct (C33_partial_defined (fun n _ => rconst n 0) h h1 _ 3 D_ex (fun _ => 0) _ Hr S1 ltac:(lia) Mu Ac D_ex_above D1) as [w1 E1].
  destruct (C33_potential_defined (fun n _ => rconst n 0) h h2 _ 1 D_ex (fun _ => 0) _ Hr S2 Mu Ac D_ex_above D2) as [w2 E2].
  destruct (C33_contracted_defined (fun n _ => rconst n 0) h h3 _ 0 D_ex (fun _ => 0) _ Hr S3 Mu Ac D_ex_above D3) as [w3 E3].
  assert (Gx : exists g, forall i, In i (h_active h) -> alone h i (g i)).
  { rewrite A. assert (X : forall i, In i [0; 5; 16; 4; 25]%nat -> exists g, alone h i g).
    { intros i Hi. destruct (C16_component_exists h i Hr) as (g & Hg & _); [now rewrite A|eauto]. }
    destruct (X 0%nat) as [g0 ?]; [cbn; tauto|]. destruct (X 5%nat) as [g5 ?]; [cbn; tauto|]. destruct (X 16%nat) as [g16 ?]; [cbn; tauto|].
    destruct (X 4%nat) as [g4 ?]; [cbn; tauto|]. destruct (X 25%nat) as [g25 ?]; [cbn; tauto|].
    exists (fun i => if Nat.eqb i 0 then g0 else if Nat.eqb i 5 then g5 else if Nat.eqb i 16 then g16 else if Nat.eqb i 4 then g4 else g25).
    intros i Hi. cbn [In] in Hi. destruct Hi as [<- | [<- | [<- | [<- | [<- | []]]]]]; assumption. }
  destruct Gx as [g Hg]. exists h, h1, h2, h3. do 2 eexists. exists g, w1, w2, w3. eauto 12.
Qed.
