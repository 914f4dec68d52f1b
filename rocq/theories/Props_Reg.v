(** * Property theorems: regularisation of small densities (C21) *)
From Coq Require Import Reals QArith Qreals ZArith Arith Lia Lra List Bool String.
From Coquelicot Require Import Coquelicot.
From Verif Require Import Scalar RInst Tables Api SpecApi ApiProofs ApiProofs2 CTaylor CtAlg CtConv TMath Br Expr Densvars Functionals
  Eval SpecEval Layout EvalSem EvalProps Taint EvalExt Props_Eval RSem EnergyR EvalReal EvalApi EvalRel VarsRel Mk Phys Safe Pw92 Props_Dens Props_Vars.
Import ListNotations.
Local Open Scope outcome_scope.
Local Open Scope R_scope.

(** ** Specification *)
(** The threshold, 1e-14. *)
Definition floor : R := / 10 ^ 14.
(** Which inputs of a variable set are densities subject to the threshold: the spin densities
    of the (alpha, beta) sets, the (total) density of the others. *)
Definition density_inputs (v : Z) : list nat :=
  if existsb (Z.eqb v) [XC_A_B; XC_A_B_GAA_GAB_GBB; XC_A_B_GAA_GAB_GBB_TAUA_TAUB; XC_A_B_GAA_GAB_GBB_LAPA_LAPB_TAUA_TAUB;
      XC_A_B_GAA_GAB_GBB_LAPA_LAPB_TAUA_TAUB_JPAA_JPBB; XC_A_B_AX_AY_AZ_BX_BY_BZ; XC_A_B_AX_AY_AZ_BX_BY_BZ_TAUA_TAUB]
  then [0; 1]%nat
  else if Z.eqb v XC_A_B_2ND_TAYLOR then [0; 10]%nat else [0%nat].
(** [x'] is [x] with the densities raised to the threshold.  In contracted mode of order o an
    input is 2^o numbers, the first of which is the density itself. *)
Definition raised (v : Z) (s : nat) (x x' : nat -> R) : Prop :=
  forall i j, (j < s)%nat ->
    x' (i * s + j)%nat = if andb (Nat.eqb j 0) (existsb (Nat.eqb i) (density_inputs v)) then Rmax (x (i * s + j)%nat) floor else x (i * s + j)%nat.
Definition per_input (m o : Z) : nat := if Z.eqb m XC_CONTRACTED then 2 ^ Z.to_nat o else 1.

(** ** Taylor polynomials with a modified value *)
Lemma floor_TINY : Q2R TINY = floor.
Proof. unfold floor, TINY, Q2R. cbn [Qnum Qden]. cbn. lra. Qed.
Definition clampR (c : R) : R := if Rltb c (Q2R TINY) then Q2R TINY else c.
Lemma clampR_max c : clampR c = Rmax c floor.
Proof.
  unfold clampR. rewrite floor_TINY. destruct (Rltb c floor) eqn:E; [apply Rltb_true in E; rewrite Rmax_right; lra|].
  destruct (Rlt_dec c floor) as [L|L]; [apply Rltb_true in L; congruence|]. rewrite Rmax_left; lra.
Qed.
Section UPD.
Notation upd0 n f t := (@ct_upd0 ROps n f t).
Lemma upd0_id n : forall (t : rct n) (f : R -> R), f (c0 n t) = c0 n t -> upd0 n f t = t.
Proof. induction n; intros t f H; cbn [ct_upd0 c0] in *; [exact H|]. rewrite IHn; [now destruct t|exact H]. Qed.
Lemma upd0_at n : forall (t : rct n) (f g : R -> R), f (c0 n t) = g (c0 n t) -> upd0 n f t = upd0 n g t.
Proof. induction n; intros t f g H; cbn [ct_upd0 c0] in *; [exact H|]. now rewrite (IHn _ f g H). Qed.
Lemma c0_upd0 n : forall (t : rct n) (f : R -> R), c0 n (upd0 n f t) = f (c0 n t).
Proof. induction n; intros t f; cbn [ct_upd0 c0 fst]; [reflexivity|apply IHn]. Qed.
Lemma reg_upd n (t : rct n) : @ct_reg ROps n t = upd0 n clampR t.
Proof.
  unfold ct_reg. cbn [Oltb ROps OofQ]. destruct (Rltb (c0 n t) (Q2R TINY)) eqn:E.
  - apply upd0_at. unfold clampR. now rewrite E.
  - symmetry. apply upd0_id. unfold clampR. now rewrite E.
Qed.
Lemma upd0_set n : forall (t : rct n) k v f, (0 < k < 2 ^ n)%nat -> upd0 n f (set n t k v) = set n (upd0 n f t) k v.
Proof.
  induction n; intros t k v f H; [cbn in H; lia|]. cbn [ct_upd0 set]. destruct (Nat.ltb_spec k (2 ^ n)).
  - cbn [fst snd]. rewrite IHn by lia. reflexivity.
  - cbn [fst snd]. reflexivity.
Qed.
Lemma upd0_const n : forall x f, upd0 n f (@ct_const ROps n x) = @ct_const ROps n (f x).
Proof. induction n; intros x f; cbn [ct_upd0 ct_const fst snd]; [reflexivity|]. now rewrite IHn. Qed.
Lemma upd0_load n : forall (g : nat -> R) f, upd0 n f (@ct_load ROps n g) = @ct_load ROps n (fun j => if Nat.eqb j 0 then f (g j) else g j).
Proof.
  induction n; intros g f; cbn [ct_upd0 ct_load fst snd]; [reflexivity|]. rewrite IHn. f_equal.
  apply ct_load_ext. intros k _. assert (0 < 2 ^ n)%nat by (apply Nat.neq_0_lt_0, Nat.pow_nonzero; lia). destruct (Nat.eqb_spec (2 ^ n + k) 0); [lia|reflexivity].
Qed.
Lemma get_upd0 n : forall (t : rct n) f k, (k < 2 ^ n)%nat -> CTaylor.get n (upd0 n f t) k = if Nat.eqb k 0 then f (CTaylor.get n t 0%nat) else CTaylor.get n t k.
Proof.
  induction n; intros t f k H; [cbn in H; assert (k = 0)%nat by lia; subst; reflexivity|]. cbn [ct_upd0 CTaylor.get fst snd].
  assert (0 < 2 ^ n)%nat by (apply Nat.neq_0_lt_0, Nat.pow_nonzero; lia).
  destruct (Nat.ltb_spec k (2 ^ n)).
  - rewrite IHn by lia. destruct (Nat.ltb_spec 0 (2 ^ n)); [reflexivity|lia].
  - destruct (Nat.eqb_spec k 0); [lia|reflexivity].
Qed.
Lemma get0 n : forall t : rct n, CTaylor.get n t 0%nat = c0 n t.
Proof.
  induction n; intro t; cbn [CTaylor.get c0]; [reflexivity|]. assert (0 < 2 ^ n)%nat by (apply Nat.neq_0_lt_0, Nat.pow_nonzero; lia).
  destruct (Nat.ltb_spec 0 (2 ^ n)); [apply IHn|lia].
Qed.
Lemma clampR_idem c : clampR (clampR c) = clampR c.
Proof. rewrite !clampR_max. rewrite (Rmax_left (Rmax c floor)); [reflexivity|apply Rmax_r]. Qed.
End UPD.

(** ** The constructor on two inputs that agree after regularisation *)
Fixpoint regtr (di : nat -> bool) (cf : fld -> bool) (p : list (fld * expr)) : option (fld -> bool) :=
  match p with
  | [] => Some cf
  | (f, e) :: p1 =>
      if clean (fun i => negb (di i)) cf e then regtr di (cadd true f cf) p1
      else match e, p1 with
           | EIn i, (g, EReg (EFld g')) :: p2 => if andb (fld_eqb f g) (fld_eqb f g') then regtr di (cadd true f cf) p2 else None
           | _, _ => None
           end
  end.
Lemma fld_eqb_eq f g : fld_eqb f g = true -> f = g.
Proof. destruct f, g; intro H; try reflexivity; discriminate H. Qed.
Lemma fld_eqb_refl f : fld_eqb f f = true.
Proof. now destruct f. Qed.
Lemma regtr_tr st n d d' di : (forall i, @ct_reg ROps n (d i) = @ct_reg ROps n (d' i)) -> (forall i, di i = false -> d i = d' i) ->
  forall p cf cf', regtr di cf p = Some cf' -> tr st n d d' cf p cf'.
Proof.
  intros Hr Hd. fix IH 1. intros [|[f e] p] cf cf' H; cbn [regtr] in H.
  - injection H as <-. constructor.
  - destruct (clean (fun i => negb (di i)) cf e) eqn:C.
    + apply (tr_clean st n d d' (fun i => negb (di i))); [|exact C|now apply IH].
      intros i Hi. apply Hd. now apply negb_true_iff in Hi.
    + destruct e; try discriminate H. destruct p as [|[g e2] p2]; [discriminate|]. destruct e2; try discriminate H. destruct e2; try discriminate H.
      destruct (andb _ _) eqn:E; [|discriminate]. apply andb_true_iff in E. destruct E as [E1 E2].
      apply fld_eqb_eq in E1. apply fld_eqb_eq in E2. subst g f0. apply tr_pair; [|now apply IH].
      intros fl fl' _. cbn [eval obnd]. unfold fupd. rewrite fld_eqb_refl. now rewrite Hr.
Qed.
Definition regcheck (v : Z) : bool :=
  match dv_prog v with
  | Some p => match regtr (fun i => existsb (Nat.eqb i) (density_inputs v)) (fun _ => true) p with Some cf => forallb cf all_flds | None => false end
  | None => true
  end.
Lemma regcheck_all : forallb regcheck zvars = true.
Proof. vm_compute. reflexivity. Qed.
Lemma closed_all : forallb (fun q : string * expr => clean (fun _ => false) (fun _ => true) (snd q)) functionals = true.
Proof. vm_compute. reflexivity. Qed.
Definition rel21 (v : Z) (n : nat) (d d' : nat -> rct n) : Prop :=
  (forall i, @ct_reg ROps n (d i) = @ct_reg ROps n (d' i)) /\ (forall i, existsb (Nat.eqb i) (density_inputs v) = false -> d i = d' i).
Lemma energy_reg (h : handle ROps) v vd n d d' out : wf h -> h_vars h = v -> vars_entry v = Ok vd -> rel21 v n d d' -> energy h n d out = energy h n d' out.
Proof.
  intros W Ev E [R1 R2]. destruct (dv_prog v) as [p|] eqn:D; [|unfold energy, densvars; now rewrite Ev, D].
  pose proof (proj1 (forallb_forall _ _) regcheck_all v (zvars_in v (vars_entry_range _ _ E))) as H. unfold regcheck in H. rewrite D in H.
  destruct (regtr _ _ p) as [cf|] eqn:T; [|discriminate].
  apply (energy_tr h n d d' cf p out); [now rewrite Ev|exact (regtr_tr _ n d d' _ R1 R2 p _ _ T)|].
  intros i Hi. destruct (nofun_len i) as (nm & e & Ef); [now apply W|]. exists e. split; [unfold fp; now rewrite Ef|].
  pose proof (proj1 (forallb_forall _ _) closed_all (nm, e) (nth_error_In _ _ Ef)) as C. cbn [snd] in C.
  eapply clean_imp; [|exact C]. intros f _. apply (proj1 (forallb_forall _ _) H). destruct f; cbn; tauto.
Qed.

(** ** C21 *)
(** Densities below the threshold are evaluated as if they were exactly the threshold: all
    outputs, in every mode and at every order, for every input. *)
Theorem C21_below_is_threshold :
  forall junk (h h' : handle ROps) v m o buf x x', reachable h -> xcfun_eval_setup h v m o = Ok (h', 0%Z) ->
    raised v (per_input m o) x x' -> xcfun_eval junk h' buf x = xcfun_eval junk h' buf x'.
Proof.
  intros junk h h' v m o buf x x' Hr S Hx.
  destruct (setup_gives_valid h v m o h' S) as (Sv & Evv & Em & Eo & Ea & _).
  pose proof (reach_setup h h' v m o _ Hr S) as Hr'. pose proof (reachable_wf h' Hr') as W.
  destruct (setup_valid_vars h' Sv) as [vd E]. pose proof E as E0. rewrite Evv in E.
  destruct (in_dec Z.eq_dec v unsupported_vars) as [U|U].
  { rewrite !eval_dies; try assumption; try reflexivity; left; now rewrite Evv. }
  pose proof (vlen_pos _ _ E) as Lp.
  set (Rel := rel21 v).
  assert (HE : forall k d d' out, Rel k d d' -> energy h' k d out = energy h' k d' out).
  { intros k d d' out H. exact (energy_reg h' v vd k d d' out W Evv E H). }
  assert (Rset : forall k d d' i c w, (i < Z.to_nat (v_len vd))%nat -> (0 < c < 2 ^ k)%nat -> Rel k d d' -> Rel k (aupd d i (set k (d i) c w)) (aupd d' i (set k (d' i) c w))).
  { intros k d d' i c w _ Hc [H1 H2]. split; intros q.
    - unfold aupd. destruct (Nat.eqb_spec q i) as [<-|]; [|apply H1]. rewrite !reg_upd, !upd0_set by exact Hc. rewrite <- !reg_upd. now rewrite H1.
    - intro Hq. unfold aupd. destruct (Nat.eqb_spec q i) as [<-|]; [now rewrite H2|now apply H2]. }
  assert (X1 : Z.eqb m XC_CONTRACTED = false -> forall i, x' i = if existsb (Nat.eqb i) (density_inputs v) then clampR (x i) else x i).
  { intros C i. specialize (Hx i 0%nat). unfold per_input in Hx. rewrite C, Nat.mul_1_r, Nat.add_0_r in Hx. cbn [Nat.eqb andb] in Hx.
    rewrite Hx by lia. destruct (existsb _ _); [now rewrite clampR_max|reflexivity]. }
  assert (Rc : Z.eqb m XC_CONTRACTED = false -> forall k i, @ct_reg ROps k (@ct_const ROps k (x i)) = @ct_reg ROps k (@ct_const ROps k (x' i))).
  { intros C k i. rewrite !reg_upd, !upd0_const. rewrite (X1 C i). destruct (existsb _ _); [now rewrite clampR_idem|reflexivity]. }
  assert (Rcon : Z.eqb m XC_CONTRACTED = false -> forall k d d' i, (i < Z.to_nat (v_len vd))%nat -> Rel k d d' -> Rel k (aupd d i (@ct_const ROps k (x i))) (aupd d' i (@ct_const ROps k (x' i)))).
  { intros C k d d' i _ [H1 H2]. split; intros q.
    - unfold aupd. destruct (Nat.eqb_spec q i) as [<-|]; [now apply Rc|apply H1].
    - intro Hq. unfold aupd. destruct (Nat.eqb_spec q i) as [<-|]; [rewrite (X1 C), Hq; reflexivity|now apply H2]. }
  assert (Rload : Z.eqb m XC_CONTRACTED = false -> forall k, Rel k (load k (junk k) (Z.to_nat (v_len vd)) x) (load k (junk k) (Z.to_nat (v_len vd)) x')).
  { intros C k. split; intros i; unfold load; destruct (Nat.ltb i _); try reflexivity; [now apply Rc|]. intro Hi. rewrite (X1 C), Hi. reflexivity. }
  unfold xcfun_eval. rewrite Em, Evv, Eo, E. cbn [obind].
  destruct (Z.eqb m XC_MODE_UNSET); [reflexivity|]. destruct (Z.eqb v XC_VARS_UNSET); [reflexivity|].
  destruct (andb (Z.eqb o (-1)) _); [reflexivity|].
  destruct (Z.eqb_spec m XC_PARTIAL_DERIVATIVES) as [M|M].
  - assert (C : Z.eqb m XC_CONTRACTED = false) by (rewrite M; reflexivity).
    destruct (Z.eqb o 0); [exact (partial0_rel junk h' x x' _ Rel HE (Rload C))|]. destruct (Z.eqb o 1); [exact (partial1_rel junk h' x x' _ Rel HE Rset (Rload C) (Rcon C) Lp)|].
    destruct (Z.eqb o 2); [exact (partial2_rel junk h' x x' _ Rel HE Rset (Rload C) (Rcon C) [])|]. destruct (Z.eqb o 3); [exact (partial3_rel junk h' x x' _ Rel HE Rset (Rload C) (Rcon C))|]. reflexivity.
  - destruct (Z.eqb m XC_CONTRACTED) eqn:C.
    + destruct (andb (Z.leb 0 o) _); [|reflexivity]. apply (contracted_rel junk h' x x' _ Rel HE).
      unfold raised, per_input in Hx. rewrite C in Hx. split; intro i; unfold cload; destruct (Nat.ltb i _); try reflexivity.
      * rewrite !reg_upd, !upd0_load. apply ct_load_ext. intros s Hs. rewrite (Hx i s Hs).
        destruct (Nat.eqb s 0); [|reflexivity]. cbn [andb]. destruct (existsb _ _); [|reflexivity]. now rewrite <- clampR_max, clampR_idem.
      * intro Hi. apply ct_load_ext. intros s Hs. rewrite (Hx i s Hs), Hi. now rewrite andb_false_r.
    + destruct (Z.eqb_spec m XC_POTENTIAL) as [M2|M2]; [|reflexivity].
      assert (PG : xcfun_is_gga h' = true -> (h_vars h' = XC_N_2ND_TAYLOR /\ Z.to_nat (v_len vd) = 10%nat) \/ (h_vars h' = XC_A_B_2ND_TAYLOR /\ Z.to_nat (v_len vd) = 20%nat)).
      { apply (pot_gga h' vd W Sv E0); [now rewrite Evv|now rewrite Em]. }
      destruct (xcfun_is_gga h') eqn:G.
      2: { apply (potential_lda_rel junk h' x x' _ Rel HE Rset); auto. }
      apply (potential_rel junk h' x x' _ Rel HE Rset); auto.
      * split; reflexivity.
      * intros d d' i [H1 H2]. split; intro q; unfold aupd; destruct (Nat.eqb q i); try reflexivity; auto.
      * intros p Hp q Hq d d' _ _ H. 
        assert (Dn : existsb (Nat.eqb (q + snd p)) (density_inputs v) = false).
        { specialize (PG eq_refl). rewrite Evv in PG. assert (B : (1 <= snd p <= 9)%nat) by (unfold dirx, diry, dirz in Hp; cbn in Hp; intuition (subst; cbn; lia)).
          destruct PG as [[-> _] | [-> _]]; cbn; rewrite ?orb_false_r; repeat (apply orb_false_iff; split); try apply Nat.eqb_neq; lia. }
        assert (Y : x' (q + snd p)%nat = x (q + snd p)%nat) by (rewrite (X1 eq_refl), Dn; reflexivity). rewrite Y.
        assert (V0 : (0 < VAR0 < 2 ^ 2)%nat) by (unfold VAR0; cbn; lia).
        destruct H as [H1 H2]. split; intro w; unfold aupd; destruct (Nat.eqb_spec w (q + fst p)) as [->|]; try apply H1; try apply H2.
        -- unfold cv. rewrite !reg_upd, !upd0_set by exact V0. rewrite <- !reg_upd. now rewrite (Rc eq_refl).
        -- intro Hw. unfold cv. now rewrite (X1 eq_refl (q + fst p)%nat), Hw.
Qed.
Print Assumptions C21_below_is_threshold.

(** ** What the functionals see *)
Section FINAL.
Variables (st : nat -> T ROps) (n : nat) (d : nat -> rct n).
Notation rn fl p := (run (K := ROps) st n d fl p).
Definition untouched (f : fld) (p : list (fld * expr)) : bool := forallb (fun q => negb (fld_eqb f (fst q))) p.
Lemma run_untouched f : forall p fl fl', untouched f p = true -> rn fl p = Some fl' -> fl' f = fl f.
Proof.
  induction p as [|[g e] p IH]; intros fl fl' H R; cbn [run untouched forallb fst] in *.
  - injection R as <-. reflexivity.
  - apply andb_true_iff in H. destruct H as [H1 H2]. destruct (eval st n d fl [] e) as [v|]; cbn [obnd] in R; [|discriminate].
    rewrite (IH _ _ H2 R). unfold fupd. apply negb_true_iff in H1. now rewrite H1.
Qed.
Fixpoint regged (f : fld) (i : nat) (p : list (fld * expr)) : bool :=
  match p with
  | [] => false
  | (f1, e1) :: p1 =>
      orb (match e1, p1 with
           | EIn j, (f2, EReg (EFld f3)) :: p2 => fld_eqb f f1 && fld_eqb f f2 && fld_eqb f f3 && Nat.eqb j i && untouched f p2
           | _, _ => false end) (regged f i p1)
  end.
Lemma regged_ok f i : forall p fl fl', regged f i p = true -> rn fl p = Some fl' -> fl' f = @ct_reg ROps n (d i).
Proof.
  induction p as [|[f1 e1] p1 IH]; intros fl fl' H R; cbn [regged] in H; [discriminate|]. apply orb_true_iff in H. destruct H as [H|H].
  - destruct e1; try discriminate H. destruct p1 as [|[f2 e2] p2]; [discriminate|]. destruct e2; try discriminate H. destruct e2; try discriminate H.
    rewrite !andb_true_iff in H. destruct H as ((((A & B) & C) & D) & U). apply fld_eqb_eq in A, B, C. apply Nat.eqb_eq in D. subst.
    cbn [run eval obnd] in R. rewrite (run_untouched _ _ _ _ U R). unfold fupd. now rewrite !fld_eqb_refl.
  - cbn [run] in R. destruct (eval st n d fl [] e1) as [v|]; cbn [obnd] in R; [|discriminate]. exact (IH _ _ H R).
Qed.
(** Positive values: regularised fields, and sums and positive multiples of positive ones. *)
Fixpoint posx (cf : fld -> bool) (e : expr) : bool :=
  match e with
  | EFld f => cf f
  | EReg _ => true
  | EAdd a b => posx cf a && posx cf b
  | EScale (SQ q) a => negb (Qle_bool q 0) && posx cf a
  | _ => false
  end.
Fixpoint posrun (cf : fld -> bool) (p : list (fld * expr)) : fld -> bool :=
  match p with [] => cf | (f, e) :: p' => posrun (cadd (posx cf e) f cf) p' end.
Lemma c0_add (t u : rct n) : c0 n (ct_add n t u) = c0 n t + c0 n u.
Proof. clear. revert t u. induction n; intros; [reflexivity|]. rewrite ct_add_S. cbn [c0 fst]. apply IHn0. Qed.
Lemma c0_scale k (t : rct n) : c0 n (@ct_scale ROps n k t) = k * c0 n t.
Proof. clear. revert t. induction n; intros; [cbn; ring|]. cbn [c0]. exact (IHn0 (fst t)). Qed.
Lemma posx_ok cf (fl : fld -> rct n) : (forall f, cf f = true -> 0 < c0 n (fl f)) -> forall e r (v : rct n), posx cf e = true -> eval (K := ROps) st n d fl r e = Some v -> 0 < c0 n v.
Proof.
  intros Hf. induction e; intros r v P E; cbn [posx] in P; try discriminate P; cbn [eval] in E.
  - injection E as <-. now apply Hf.
  - apply andb_true_iff in P. destruct P as [P1 P2]. destruct (eval st n d fl r e1) as [a|] eqn:E1; [|discriminate]. destruct (eval st n d fl r e2) as [b|] eqn:E2; [|discriminate].
    cbn [obnd] in E. injection E as <-. rewrite c0_add. specialize (IHe1 r a P1 E1). specialize (IHe2 r b P2 E2). lra.
  - destruct s; try discriminate P. apply andb_true_iff in P. destruct P as [P1 P2]. cbn [seval obnd] in E.
    destruct (eval st n d fl r e) as [a|] eqn:E1; [|discriminate]. cbn [obnd] in E. injection E as <-. rewrite c0_scale. specialize (IHe r a P2 E1).
    cbn [OofQ ROps]. apply Rmult_lt_0_compat; [|exact IHe]. rewrite <- Q2R_0. apply Qlt_Rlt. apply Qnot_le_lt. intro L. apply Qle_bool_iff in L. rewrite L in P1. discriminate.
  - destruct (eval st n d fl r e) as [a|] eqn:E1; [|discriminate]. cbn [obnd] in E. injection E as <-. rewrite reg_upd, c0_upd0, clampR_max.
    eapply Rlt_le_trans; [|apply Rmax_r]. unfold floor. apply Rinv_0_lt_compat, pow_lt. lra.
Qed.
Lemma posrun_ok : forall p cf (fl fl' : fld -> rct n), (forall f, cf f = true -> 0 < c0 n (fl f)) -> rn fl p = Some fl' -> forall f, posrun cf p f = true -> 0 < c0 n (fl' f).
Proof.
  induction p as [|[g e] p IH]; intros cf fl fl' H R f P; cbn [run posrun] in *.
  - injection R as <-. now apply H.
  - destruct (eval st n d fl [] e) as [v|] eqn:E; cbn [obnd] in R; [|discriminate]. refine (IH _ _ _ _ R f P).
    intros q Hq. unfold fupd. unfold cadd in Hq. destruct (fld_eqb q g); [|now apply H]. exact (posx_ok cf fl H e [] v Hq E).
Qed.
End FINAL.
Definition spin_density_sets : list (Z * nat * nat) :=
  [(XC_A_B, 0, 1); (XC_A_B_GAA_GAB_GBB, 0, 1); (XC_A_B_GAA_GAB_GBB_TAUA_TAUB, 0, 1); (XC_A_B_GAA_GAB_GBB_LAPA_LAPB_TAUA_TAUB, 0, 1);
   (XC_A_B_GAA_GAB_GBB_LAPA_LAPB_TAUA_TAUB_JPAA_JPBB, 0, 1); (XC_A_B_AX_AY_AZ_BX_BY_BZ, 0, 1); (XC_A_B_AX_AY_AZ_BX_BY_BZ_TAUA_TAUB, 0, 1);
   (XC_A_B_2ND_TAYLOR, 0, 10)]%nat.
(** The specification of a regularised Taylor polynomial: its value is raised to the
    threshold, every derivative coefficient is kept. *)
Definition regularised (n : nat) (t t' : rct n) : Prop :=
  forall k, (k < 2 ^ n)%nat -> CTaylor.get n t' k = if Nat.eqb k 0 then Rmax (CTaylor.get n t k) floor else CTaylor.get n t k.
Theorem C21_spin_densities :
  forall (st : nat -> T ROps) n v ia ib d fl, In (v, ia, ib) spin_density_sets -> densvars st n v d = Ok fl ->
    regularised n (d ia) (fl f_a) /\ regularised n (d ib) (fl f_b) /\
    (floor <= CTaylor.get n (d ia) 0%nat -> fl f_a = d ia) /\ (floor <= CTaylor.get n (d ib) 0%nat -> fl f_b = d ib).
Proof.
  intros st n v ia ib d fl Hv E. unfold densvars in E. destruct (dv_prog v) as [p|] eqn:D; [|discriminate].
  assert (C : regged f_a ia p = true /\ regged f_b ib p = true).
  { cbn [In spin_density_sets] in Hv. repeat (destruct Hv as [Hv | Hv]; [injection Hv as <- <- <-; injection D as <-; split; reflexivity|]). destruct Hv. }
  destruct (run st n d (dv_init n) p) as [fl'|] eqn:R; [|discriminate]. cbn [of_option] in E. injection E as <-.
  rewrite (regged_ok st n d f_a ia p _ _ (proj1 C) R), (regged_ok st n d f_b ib p _ _ (proj2 C) R).
  assert (RR : forall t, regularised n t (@ct_reg ROps n t)).
  { intros t k Hk. rewrite reg_upd, get_upd0 by exact Hk. destruct (Nat.eqb_spec k 0) as [->|]; [|reflexivity]. now rewrite clampR_max. }
  assert (RI : forall t : rct n, floor <= CTaylor.get n t 0%nat -> @ct_reg ROps n t = t).
  { intros t Ht. rewrite reg_upd. apply upd0_id. rewrite clampR_max. rewrite get0 in Ht. now apply Rmax_left. }
  repeat split; auto.
Qed.
Print Assumptions C21_spin_densities.
(** After the constructor both spin densities and the total density are strictly positive,
    whatever the input, for every variable set but the two alpha-only ones (whose alpha
    density stays 0, see [C18_a_refuted]). *)
Lemma posrun_all : forallb (fun v => orb (existsb (Z.eqb v) [XC_A; XC_A_GAA]) (match dv_prog v with
   | Some p => let c := posrun (fun _ => false) p in andb (c f_a) (andb (c f_b) (c f_n)) | None => true end)) zvars = true.
Proof. vm_compute. reflexivity. Qed.
Theorem C21_positive_densities :
  forall (st : nat -> T ROps) n v vd d fl, vars_entry v = Ok vd -> v <> XC_A -> v <> XC_A_GAA -> densvars st n v d = Ok fl ->
    0 < CTaylor.get n (fl f_a) 0%nat /\ 0 < CTaylor.get n (fl f_b) 0%nat /\ 0 < CTaylor.get n (fl f_n) 0%nat.
Proof.
  intros st n v vd d fl Ev N1 N2 E. unfold densvars in E. destruct (dv_prog v) as [p|] eqn:D; [|discriminate].
  pose proof (proj1 (forallb_forall _ _) posrun_all v (zvars_in v (vars_entry_range _ _ Ev))) as H. cbv beta in H. rewrite D in H.
  apply orb_true_iff in H. destruct H as [H|H]; [exfalso; cbn in H; rewrite orb_false_r in H; apply orb_true_iff in H; rewrite !Z.eqb_eq in H; tauto|].
  cbv zeta in H. rewrite !andb_true_iff in H. destruct H as (H1 & H2 & H3).
  destruct (run st n d (dv_init n) p) as [fl'|] eqn:R; [|discriminate]. cbn [of_option] in E. injection E as <-. rewrite !get0.
  assert (P : forall f, posrun (fun _ => false) p f = true -> 0 < c0 n (fl' f)) by (intros f; apply (posrun_ok st n d p (fun _ => false) _ _ ltac:(discriminate) R)).
  repeat split; apply P; assumption.
Qed.
Print Assumptions C21_positive_densities.

(** ** Consequences *)
(** Hence with the (alpha, beta) set evaluation succeeds for every input whatsoever, zero and
    negative densities included, for the functionals covered by C33. *)
Definition dens_ab (a b : R) : dens :=
  {| al := {| rho := a; grad := V 0 0 0; hes := Hes 0 0 0 0 0 0; kin := 0; jp := 0 |};
     be := {| rho := b; grad := V 0 0 0; hes := Hes 0 0 0 0 0 0; kin := 0; jp := 0 |} |}.
Theorem C21_every_density_defined :
  forall junk (h hp : handle ROps) o buf x, reachable h ->
    xcfun_eval_setup h XC_A_B XC_PARTIAL_DERIVATIVES o = Ok (hp, 0%Z) -> (o <= 3)%Z -> 0 < (h_settings h XC_RANGESEP_MU : R) ->
    (forall i nm, In i (h_active h) -> nth_error item_names i = Some nm -> In nm any_gradient) ->
    exists ws, xcfun_eval junk hp buf x = Ok ws.
Proof.
  intros junk h hp o buf x Hr S O3 Mu Ac.
  set (x' := fun i => if existsb (Nat.eqb i) [0; 1]%nat then Rmax (x i) floor else x i).
  assert (Rx : raised XC_A_B 1 x x').
  { intros i j Hj. assert (j = 0)%nat by lia. subst j. rewrite Nat.mul_1_r, Nat.add_0_r. cbn [Nat.eqb andb]. reflexivity. }
  pose proof (C21_below_is_threshold junk h hp _ _ _ buf x x' Hr S) as E. rewrite E by exact Rx.
  apply (C33_partial_defined junk h hp XC_A_B o (dens_ab (Rmax (x 0%nat) floor) (Rmax (x 1%nat) floor)) buf x' Hr S O3 Mu).
  - intros i nm Hi N. left. exact (Ac i nm Hi N).
  - split; unfold threshold; rewrite floor_TINY; cbn; apply Rmax_r.
  - split; [left; cbn; tauto|]. intros i Hi. cbn in Hi. do 2 (destruct i as [|i]; [reflexivity|]). lia.
Qed.
Print Assumptions C21_every_density_defined.

(** For the (n, s) component set only n is regularised before the polarisation s/n is formed:
    a fully polarised density fails there although the same density given as (alpha, beta) =
    (n, 0) is fine. *)
Lemma pw92_polarised st x fl : fl f_zeta = 1 -> reval st x fl [] pw92c = None.
Proof.
  intro Hz. unfold pw92c.
  assert (N : reval st x fl [] pw92eps = None).
  { unfold pw92eps. cbv zeta. apply let_any. intro v1. apply let_none. unfold pw92eps_omega. eapply let_some; [cbn [reval]; rewrite Hz; reflexivity|].
    cbn [reval eufunc rlook String.eqb Ascii.eqb Bool.eqb obnd seval]. rewrite sd43. cbn [obnd]. rewrite q1.
    destruct (rpow (1 + 1) (4 / 3)); cbn [obnd]; [|reflexivity]. unfold rpow. destruct (Rlt_dec 0 (1 - 1)); [lra|reflexivity]. }
  cbn [reval]. replace (reval st x fl [] pw92eps) with (@None R) by (symmetry; exact N). reflexivity.
Qed.
Theorem C21_polarised_n_s_refuted :
  exists h h1 h2 : handle ROps, Api.run xcfun_new [CSet "pw92c" (1 : ROps)] = Ok h /\
    xcfun_eval_setup h XC_N_S_NX_NY_NZ_SX_SY_SZ XC_PARTIAL_DERIVATIVES 0 = Ok (h1, 0%Z) /\
    xcfun_eval_setup h XC_A_B XC_PARTIAL_DERIVATIVES 0 = Ok (h2, 0%Z) /\
    forall junk buf x n, floor <= n ->
      (x 0%nat = n -> x 1%nat = n -> forall ws, xcfun_eval junk h1 buf x <> Ok ws) /\
      (x 0%nat = n -> x 1%nat = 0 -> exists ws, xcfun_eval junk h2 buf x = Ok ws).
Proof.
  destruct (make (K := ROps) [("pw92c"%string, 28%nat, 1)] eq_refl) as (h & Eh & Hr & A & Ms).
  change (mactive _) with [28%nat] in A.
  assert (A1 : accepts (h_active h) XC_N_S_NX_NY_NZ_SX_SY_SZ XC_PARTIAL_DERIVATIVES 0 = true) by (rewrite A; vm_compute; reflexivity).
  assert (A2 : accepts (h_active h) XC_A_B XC_PARTIAL_DERIVATIVES 0 = true) by (rewrite A; vm_compute; reflexivity).
  pose proof (accepts_ok h _ _ _ Hr A1) as S1. pose proof (accepts_ok h _ _ _ Hr A2) as S2.
  exists h. eexists. eexists. split; [exact Eh|]. split; [exact S1|]. split; [exact S2|].
  intros junk buf x n Hn. split.
  - intros X0 X1 ws. destruct (setup_partial0 h _ _ Hr S1) as [vd G]; [vm_compute; intuition discriminate|].
    rewrite (eval_partial junk _ _ _ _ _ _ _ G). unfold partialn. change (Z.to_nat 0) with 0%nat. cbn iota. unfold partial0.
    pose proof (gs_ready _ _ _ _ _ _ G) as Rd. pose proof (gs_entry _ _ _ _ _ _ G) as Ge.
    assert (Lv : Z.to_nat (v_len vd) = 8%nat) by (vm_compute in Ge; injection Ge as <-; reflexivity). rewrite Lv.
    destruct (dv_prog XC_N_S_NX_NY_NZ_SX_SY_SZ) as [p|] eqn:Ep; [|discriminate].
    match goal with |- context [energy ?hh 0 ?dd _] => rewrite (energy0 hh dd p Ep); [|apply Rd] end. cbn [h_settings h_active]. rewrite A.
    destruct (rrun _ _ _ p) as [fl|] eqn:Er; [|discriminate].
    assert (T0 : fl f_zeta = 1).
    { injection Ep as <-. pose proof Er as Er0.
      unfold dv_N_S_NX_NY_NZ_SX_SY_SZ, dv_derived in Er. cbn [app] in Er.
      cbn [rrun reval obnd seval load Nat.ltb Nat.leb ct_const rfupd fld_eqb fld_num Nat.eqb] in Er.
      rewrite X0, X1 in Er. rewrite floor_TINY in Er. rewrite (Rmax_left n floor) in Er by exact Hn.
      assert (Zn : n <> 0) by (assert (0 < floor) by (unfold floor; apply Rinv_0_lt_compat, pow_lt; lra); lra).
      unfold rdiv in Er at 1. destruct (Req_EM_T n 0) as [|_]; [contradiction|]. cbn [obnd] in Er.
      repeat (match type of Er with obnd ?o _ = _ => destruct o; cbn [obnd] in Er; [|discriminate] end).
      injection Er as <-. cbn. field. exact Zn. }
    cbn [rsum]. change (nth_error functionals 28) with (Some ("XC_PW92C"%string, pw92c)). cbv beta iota.
    match goal with |- context [reval ?a ?b ?c ?d pw92c] => replace (reval a b c d pw92c) with (@None R) by (symmetry; apply pw92_polarised; exact T0) end.
    discriminate.
  - intros _ _. refine (C21_every_density_defined junk h _ 0 buf x Hr S2 _ _ _); [lia| |].
    + rewrite Ms. unfold msettings. cbn [map fold_left fst snd]. unfold wr_settings, upd. cbn. unfold Q2R. cbn. lra.
    + intros i nm Hi N. rewrite A in Hi. destruct Hi as [<- | []]. vm_compute in N. injection N as <-. cbn. tauto.
Qed.
Print Assumptions C21_polarised_n_s_refuted.
(** A density below the threshold, third order, with a gradient functional. *)
Example C21_example : exists (h h' : handle ROps) x x', reachable h /\
  xcfun_eval_setup h XC_A_B_GAA_GAB_GBB XC_PARTIAL_DERIVATIVES 3 = Ok (h', 0%Z) /\
  raised XC_A_B_GAA_GAB_GBB (per_input XC_PARTIAL_DERIVATIVES 3) x x' /\ x 0%nat = -1 /\ x' 0%nat = floor /\ x 2%nat = x' 2%nat /\ x 1%nat = x' 1%nat.
Proof.
  destruct (make (K := ROps) [("pbex"%string, 5%nat, 1)] eq_refl) as (h & Eh & Hr & A & Ms).
  change (mactive _) with [5%nat] in A. exists h. eexists.
  exists (fun i => if Nat.eqb i 0 then -1 else 1), (fun i => if Nat.eqb i 0 then floor else 1).
  assert (F : 0 < floor < 1) by (unfold floor; lra).
  split; [exact Hr|]. split; [apply accepts_ok; [exact Hr|rewrite A; vm_compute; reflexivity]|].
  split; [|cbn; auto].
  intros i j Hj. assert (j = 0)%nat by (unfold per_input in Hj; cbn in Hj; lia). subst j.
  unfold per_input. change (Z.eqb XC_PARTIAL_DERIVATIVES XC_CONTRACTED) with false. cbn iota. rewrite Nat.mul_1_r, Nat.add_0_r.
  destruct i as [|[|i]]; cbn -[floor]; [rewrite Rmax_right; lra|rewrite Rmax_left; lra|reflexivity].
Qed.
