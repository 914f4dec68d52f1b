(** * Property theorems: the limit of vanishing gradients (C34) *)
From Coq Require Import Reals QArith Qreals ZArith Arith Lia Lra List Bool String.
From Coquelicot Require Import Coquelicot.
From Verif Require Import Scalar RInst Tables Api SpecApi ApiProofs ApiProofs2 CTaylor CtAlg TMath Br Expr Densvars Functionals
  Eval SpecEval EvalProps Taint EvalExt Props_Eval Sem RSem EnergyR EvalR EvalReal EvalApi Phys Pw92 Mk Props_Deriv Props_Dens Homog Limit Props_Scale.
Import ListNotations.
Local Open Scope outcome_scope.
Local Open Scope R_scope.

(** ** Limit of vanishing gradients *)
(** Both spin densities have zero gradient at the point. *)
Definition uniform (D : dens) : Prop := grad (al D) = V 0 0 0 /\ grad (be D) = V 0 0 0.
(** The exchange energy density of the uniform electron gas: -(3/2) (3/(4 pi))^(1/3) (na^(4/3) + nb^(4/3)). *)
Definition gas_exchange (D : dens) : R := - (3 / 2 * Rpower (3 / (4 * PI)) (1 / 3)) * (Rpower (rho (al D)) (4 / 3) + Rpower (rho (be D)) (4 / 3)).
(** The sum of the weights of the functionals switched on. *)
Definition total_weight (h : handle ROps) : R := fold_right (fun i s => (h_settings h i : R) + s) 0 (h_active h).
Definition gas_exchange_limit : list string :=
  ["SLATERX"; "PW86X"; "PBEX"; "BECKEX"; "REVPBEX"; "RPBEX"; "PW91X"; "APBEX"; "PBEINTX"; "PBESOLX"]%string.
(** Pure gradient corrections. *)
Definition no_limit : list string := ["BECKECORRX"; "OPTXCORR"; "KTX"; "P86CORRC"; "VWK"]%string.
(** Gradient-corrected correlation functionals and the local functional they reduce to. *)
Definition correlation_limit : list (string * string) :=
  [("PBEC", "PW92C"); ("APBEC", "PW92C"); ("PBEINTC", "PW92C"); ("PBELOCC", "PW92C"); ("TPSSC", "PW92C"); ("REVTPSSC", "PW92C"); ("TPSSLOCC", "PW92C");
   ("VWN_PBEC", "VWN5C"); ("SPBEC", "VWN5C"); ("P86C", "PZ81C")]%string.

Lemma uniform_g D : uniform D -> forall f, gfld f = true -> dvar D f = 0.
Proof.
  intros [A B] f G. destruct f; try discriminate G; cbn [dvar]; unfold gN, gS, vadd, vsub, dot; rewrite ?A, ?B; cbn; ring.
Qed.
Lemma vals_nil st x fl : vals st x fl [] [].
Proof. intros y v E. discriminate E. Qed.
Definition s4 : sexp := SDiv (SQ 4.0) (SQ 3.0).
Definition s1 : sexp := SDiv (SQ 1.0) (SQ 3.0).
Definition both (f : Expr.expr -> Expr.expr) : Expr.expr := EAdd (f (EFld f_a)) (f (EFld f_b)).
Definition shape_pw86 : Expr.expr :=
  EMul (EConst (SQ 0.5)) (both (fun n => EMul (EConst (SDiv (SMul (SNeg (SPow (SDiv (SQ 3.0) SPi) s1)) (SQ 3.0)) (SQ 4.0))) (EPow (EMul (EConst (SQ 2)) n) s4))).
Definition shape_pbe : Expr.expr :=
  both (fun n => EDiv (EMul (EConst (SMul (SMul (SQ (-0.75)) (SPow (SQ 2.0) s1)) (SPow (SMul (SMul (SQ 3) SPi) SPi) s1))) (EPow n s4)) (EConst SPi)).
Definition shape_becke : Expr.expr :=
  both (fun n => EMul (EConst (SNeg (SDiv (SPow (SDiv (SQ 81) (SMul (SQ 4) SPi)) s1) (SQ 2)))) (EPow n s4)).
Definition shape_slater : Expr.expr := EMul (EConst (SNeg c_slater)) (EAdd (EFld f_a_43) (EFld f_b_43)).
Definition shaped (a : av) : Prop := a = AE shape_slater \/ a = AE shape_pw86 \/ a = AE shape_pbe \/ a = AE shape_becke.
Lemma shaped_all : forall i nm e nm', In i (seq 0 78) -> nth_error item_names i = Some nm -> In nm gas_exchange_limit -> nth_error functionals i = Some (nm', e) -> shaped (simp [] e).
Proof.
  assert (A : List.Forall (fun i => match nth_error item_names i, nth_error functionals i with
     | Some nm, Some (_, e) => if existsb (String.eqb nm) gas_exchange_limit then shaped (simp [] e) else True | _, _ => True end) (seq 0 78)).
  { repeat (apply List.Forall_cons; [vm_compute; tauto|]). apply List.Forall_nil. }
  intros i nm e nm' Hi N I' F. rewrite List.Forall_forall in A. specialize (A i Hi). cbv beta in A. rewrite N, F in A.
  destruct (existsb (String.eqb nm) gas_exchange_limit) eqn:X; [exact A|]. exfalso.
  assert (Y : existsb (String.eqb nm) gas_exchange_limit = true); [|congruence]. apply existsb_exists. exists nm. split; [exact I'|apply String.eqb_refl].
Qed.
Notation kG := (3 / 2 * Rpower (3 / (4 * PI)) (1 / 3)).
Lemma k_slater : Rpower (81 / (32 * PI)) (1 / 3) = kG.
Proof.
  pose proof PI_RGT_0 as P. replace (3 / 2) with (Rpower (27 / 8) (1 / 3)).
  - rewrite Rpower_mult_distr; [|lra|apply Rdiv_lt_0_compat; lra]. f_equal. field. lra.
  - replace (27 / 8) with ((3 / 2) ^ 3) by lra. rewrite <- Rpower_pow by lra. rewrite Rpower_mult. replace (INR 3 * (1 / 3)) with 1 by (cbn; field). apply Rpower_1. lra.
Qed.
Lemma cube_root x y : 0 < x -> 0 < y -> x = y ^ 3 -> Rpower x (1 / 3) = y.
Proof. intros X Y ->. rewrite <- Rpower_pow by lra. rewrite Rpower_mult. replace (INR 3 * (1 / 3)) with 1 by (cbn; field). now apply Rpower_1. Qed.
Lemma k_becke : Rpower (81 / (4 * PI)) (1 / 3) / 2 = kG.
Proof.
  pose proof PI_RGT_0 as P. rewrite <- k_slater. replace (81 / (4 * PI)) with (8 * (81 / (32 * PI))) by (field; lra).
  rewrite <- Rpower_mult_distr; [|lra|apply Rdiv_lt_0_compat; lra]. rewrite (cube_root 8 2) by lra. field.
Qed.
Lemma k_pbe : 75 / 100 * Rpower 2 (1 / 3) * Rpower (3 * PI * PI) (1 / 3) / PI = kG.
Proof.
  pose proof PI_RGT_0 as P. rewrite <- k_slater.
  assert (P2 : 0 < 3 * PI * PI) by (apply Rmult_lt_0_compat; lra). assert (P3 : 0 < 81 / (32 * PI)) by (apply Rdiv_lt_0_compat; lra).
  assert (Q3 : forall x, 0 < x -> Rpower x (1 / 3) ^ 3 = x) by (intros x X; rewrite <- Rpower_pow by apply exp_pos; rewrite Rpower_mult; replace (1 / 3 * INR 3) with 1 by (cbn; field); now apply Rpower_1).
  symmetry. apply cube_root; [exact P3| |].
  - apply Rdiv_lt_0_compat; [|exact P]. repeat apply Rmult_lt_0_compat; try apply exp_pos; lra.
  - set (B := Rpower 2 (1 / 3)). set (C := Rpower (3 * PI * PI) (1 / 3)). assert (QB : B ^ 3 = 2) by (apply Q3; lra). assert (QC : C ^ 3 = 3 * PI * PI) by (apply Q3; lra). replace ((75 / 100 * B * C / PI) ^ 3) with ((75 / 100) ^ 3 * B ^ 3 * C ^ 3 / PI ^ 3) by (field; lra).
    rewrite QB, QC. field. lra.
Qed.
Lemma k_pw86 : 5 / 10 * (Rpower (3 / PI) (1 / 3) * 3 / 4) * Rpower 2 (4 / 3) = kG.
Proof.
  pose proof PI_RGT_0 as P. rewrite <- k_slater.
  assert (P2 : 0 < 3 / PI) by (apply Rdiv_lt_0_compat; lra). assert (P3 : 0 < 81 / (32 * PI)) by (apply Rdiv_lt_0_compat; lra).
  assert (Q3 : forall x, 0 < x -> Rpower x (1 / 3) ^ 3 = x) by (intros x X; rewrite <- Rpower_pow by apply exp_pos; rewrite Rpower_mult; replace (1 / 3 * INR 3) with 1 by (cbn; field); now apply Rpower_1).
  replace (Rpower 2 (4 / 3)) with (2 * Rpower 2 (1 / 3)) by (replace (4 / 3) with (1 + 1 / 3) by field; rewrite Rpower_plus, Rpower_1 by lra; reflexivity).
  symmetry. apply cube_root; [exact P3| |].
  - repeat apply Rmult_lt_0_compat; try apply exp_pos; lra.
  - set (B := Rpower 2 (1 / 3)). set (C := Rpower (3 / PI) (1 / 3)). assert (QB : B ^ 3 = 2) by (apply Q3; lra). assert (QC : C ^ 3 = 3 / PI) by (apply Q3; lra). replace ((5 / 10 * (C * 3 / 4) * (2 * B)) ^ 3) with ((3 / 4) ^ 3 * B ^ 3 * C ^ 3) by field.
    rewrite QB, QC. field. lra.
Qed.
Lemma sv_s1 st : seval (K := ROps) st s1 = Some (1 / 3).
Proof. unfold s1. cbn [seval obnd]. rewrite sdivq by (apply Qeq_bool_neq; reflexivity). f_equal. unfold Q2R. cbn. lra. Qed.
Lemma sv_s4 st : seval (K := ROps) st s4 = Some (4 / 3).
Proof. unfold s4. cbn [seval obnd]. rewrite sdivq by (apply Qeq_bool_neq; reflexivity). f_equal. unfold Q2R. cbn. lra. Qed.
Lemma sv_pow st s u : seval (K := ROps) st s = Some u -> 0 < u -> seval (K := ROps) st (SPow s s1) = Some (Rpower u (1 / 3)).
Proof.
  intros E L. cbn [seval]. rewrite E, sv_s1. cbn [obnd]. cbn [Oltb ROps Opow OofZ OofQ]. unfold OofZ. cbn [OofQ ROps].
  change (Q2R (inject_Z 0)) with (Q2R 0). rewrite RMicromega.Q2R_0, (proj2 (Rltb_true 0 u) L). now rewrite powR_pos.
Qed.
Lemma sv_div st s t u w : seval (K := ROps) st s = Some u -> seval (K := ROps) st t = Some w -> w <> 0 -> seval (K := ROps) st (SDiv s t) = Some (u / w).
Proof. intros E F N. cbn [seval]. rewrite E, F. cbn [obnd]. now apply sdiv_ok. Qed.
Section SH.
Variables (st : nat -> T ROps) (x : nat -> R) (fl : fld -> R).
Hypotheses (Ha : 0 < fl f_a) (Hb : 0 < fl f_b) (Ha43 : fl f_a_43 = Rpower (fl f_a) (4 / 3)) (Hb43 : fl f_b_43 = Rpower (fl f_b) (4 / 3)).
Notation target := (- kG * (Rpower (fl f_a) (4 / 3) + Rpower (fl f_b) (4 / 3))).
Lemma both_ok (f : Expr.expr -> Expr.expr) (k : R) : (forall g, 0 < fl g -> reval st x fl [] (f (EFld g)) = Some (k * Rpower (fl g) (4 / 3))) ->
  reval st x fl [] (both f) = Some (k * (Rpower (fl f_a) (4 / 3) + Rpower (fl f_b) (4 / 3))).
Proof. intro H. unfold both. cbn [reval]. rewrite !H by assumption. cbn [obnd]. f_equal. ring. Qed.
Lemma rpow_ok u k : 0 < u -> rpow u k = Some (Rpower u k).
Proof. intro U. unfold rpow. now destruct (Rlt_dec 0 u). Qed.
Lemma shape_ok a v : shaped a -> val st x fl a v -> v = target.
Proof.
  pose proof PI_RGT_0 as P. assert (Eq : forall q, seval (K := ROps) st (SQ q) = Some (Q2R q)) by reflexivity. assert (Ep : seval (K := ROps) st SPi = Some PI) by reflexivity.
  intros [-> | [-> | [-> | ->]]]; cbn [val]; intro E.
  - unfold shape_slater in E. cbn [reval seval] in E. rewrite slater_c in E. cbn [obnd] in E. injection E as <-. rewrite Ha43, Hb43, k_slater. reflexivity.
  - unfold shape_pw86 in E. cbn [reval] in E. rewrite (both_ok _ (- (Rpower (3 / PI) (1 / 3) * 3 / 4) * Rpower 2 (4 / 3))) in E.
    + cbn [obnd seval] in E. injection E as <-. rewrite <- k_pw86. cbn [OofQ ROps]. replace (Q2R 0.5) with (5 / 10) by (unfold Q2R; cbn; lra). ring.
    + intros g G. assert (K : seval (K := ROps) st (SDiv (SMul (SNeg (SPow (SDiv (SQ 3.0) SPi) s1)) (SQ 3.0)) (SQ 4.0)) = Some (- Rpower (3 / PI) (1 / 3) * 3 / 4)).
      { apply sv_div; [|cbn [seval OofQ ROps]; f_equal; unfold Q2R; cbn; lra|lra].
        change (obnd (obnd (seval (K := ROps) st (SPow (SDiv (SQ 3.0) SPi) s1)) (fun x0 => Some (Oopp x0))) (fun x0 => Some (Omul x0 (OofQ 3.0))) = Some (- Rpower (3 / PI) (1 / 3) * 3)).
        rewrite (sv_pow st _ (3 / PI)); [|apply sv_div; [cbn [seval OofQ ROps]; f_equal; unfold Q2R; cbn; lra|reflexivity|lra]|apply Rdiv_lt_0_compat; lra].
        cbn [obnd]. f_equal. cbn [Oopp Omul OofQ ROps]. replace (Q2R 3.0) with 3 by (unfold Q2R; cbn; lra). reflexivity. }
      cbn [reval]. rewrite K, sv_s4. cbn [obnd seval]. rewrite rpow_ok by (cbn [OofQ ROps]; unfold Q2R; cbn; lra). cbn [obnd]. f_equal.
      cbn [OofQ ROps]. replace (Q2R 2) with 2 by (unfold Q2R; cbn; lra). rewrite <- Rpower_mult_distr by lra. field.
  - unfold shape_pbe in E. rewrite (both_ok _ (- (75 / 100 * Rpower 2 (1 / 3) * Rpower (3 * PI * PI) (1 / 3) / PI))) in E.
    + injection E as <-. now rewrite k_pbe.
    + intros g G. assert (K : seval (K := ROps) st (SMul (SMul (SQ (-0.75)) (SPow (SQ 2.0) s1)) (SPow (SMul (SMul (SQ 3) SPi) SPi) s1)) = Some (- (75 / 100) * Rpower 2 (1 / 3) * Rpower (3 * PI * PI) (1 / 3))).
      { change (obnd (obnd (seval (K := ROps) st (SPow (SQ 2.0) s1)) (fun y => Some (Omul (OofQ (-0.75)) y))) (fun x0 => obnd (seval (K := ROps) st (SPow (SMul (SMul (SQ 3) SPi) SPi) s1)) (fun y => Some (Omul x0 y))) = Some (- (75 / 100) * Rpower 2 (1 / 3) * Rpower (3 * PI * PI) (1 / 3))).
        rewrite (sv_pow st (SQ 2.0) 2); [|cbn [seval OofQ ROps]; f_equal; unfold Q2R; cbn; lra|lra].
        rewrite (sv_pow st (SMul (SMul (SQ 3) SPi) SPi) (3 * PI * PI)); [|cbn [seval obnd OofQ ROps Omul Opi]; f_equal; replace (Q2R 3) with 3 by (unfold Q2R; cbn; lra); reflexivity|apply Rmult_lt_0_compat; lra].
        cbn [obnd Omul OofQ ROps]. f_equal. replace (Q2R (-0.75)) with (- (75 / 100)) by (unfold Q2R; cbn; lra). reflexivity. }
      cbn [reval]. rewrite K, sv_s4. cbn [obnd seval]. rewrite rpow_ok by exact G. cbn [obnd]. unfold rdiv. cbn [Opi ROps]. destruct (Req_EM_T PI 0); [lra|]. f_equal. field. lra.
  - unfold shape_becke in E. rewrite (both_ok _ (- (Rpower (81 / (4 * PI)) (1 / 3) / 2))) in E.
    + injection E as <-. now rewrite k_becke.
    + intros g G. assert (K : seval (K := ROps) st (SNeg (SDiv (SPow (SDiv (SQ 81) (SMul (SQ 4) SPi)) s1) (SQ 2))) = Some (- (Rpower (81 / (4 * PI)) (1 / 3) / 2))).
      { change (obnd (seval (K := ROps) st (SDiv (SPow (SDiv (SQ 81) (SMul (SQ 4) SPi)) s1) (SQ 2))) (fun x0 => Some (Oopp x0)) = Some (- (Rpower (81 / (4 * PI)) (1 / 3) / 2))).
        rewrite (sv_div st _ _ (Rpower (81 / (4 * PI)) (1 / 3)) 2); [reflexivity| |cbn [seval OofQ ROps]; f_equal; unfold Q2R; cbn; lra|lra].
        apply sv_pow; [|apply Rdiv_lt_0_compat; lra]. apply sv_div; [cbn [seval OofQ ROps]; f_equal; unfold Q2R; cbn; lra| |lra].
        cbn [seval obnd OofQ ROps Omul Opi]. f_equal. replace (Q2R 4) with 4 by (unfold Q2R; cbn; lra). reflexivity. }
      cbn [reval]. rewrite K, sv_s4. cbn [obnd]. rewrite rpow_ok by exact G. reflexivity.
Qed.
End SH.
Lemma honest_if (h : handle ROps) v L : only L h -> ~ In "REVTPSSX"%string L -> tau_honest h v.
Proof. intros O N I'. exfalso. exact (N (O _ _ I' eq_refl)). Qed.
Lemma rsum_gas st x D A : above D -> uniform D ->
  (forall i, In i A -> (i < 78)%nat /\ forall nm, nth_error item_names i = Some nm -> In nm gas_exchange_limit) -> forall e,
  rsum st x (dvar D) A = Some e -> e = fold_right (fun i s => (st i : R) + s) 0 A * gas_exchange D.
Proof.
  intros Ab Un. pose proof tiny_pos as T0. destruct Ab as [Aa Ab]. induction A as [|i A IH]; intros HA w E; cbn [rsum fold_right] in *; [injection E as <-; ring|].
  destruct (HA i (or_introl eq_refl)) as [Li Ni]. destruct (nofun_len i Li) as (nm' & e & Ef). rewrite Ef in E. destruct (item_ex i Li) as [nm En].
  destruct (reval st x (dvar D) [] e) as [u|] eqn:U; [|discriminate]. cbn [obnd] in E. destruct (rsum st x (dvar D) A) as [s|]; [|discriminate]. cbn [obnd] in E. injection E as <-.
  rewrite (IH (fun j Hj => HA j (or_intror Hj)) s eq_refl).
  pose proof (shaped_all i nm e nm' ltac:(apply in_seq; lia) En (Ni nm En) Ef) as Sh.
  pose proof (simp_ok st x (dvar D) (uniform_g D Un) e [] [] u (vals_nil st x _) U) as Va.
  rewrite (shape_ok st x (dvar D) ltac:(cbn [dvar]; lra) ltac:(cbn [dvar]; lra) eq_refl eq_refl _ u Sh Va). cbn [dvar T ROps]. unfold gas_exchange. ring.
Qed.
(** C34 (uniform-gas limit of exchange).  Where the gradients vanish, every weighted sum of
    the exchange functionals of [gas_exchange_limit] gives the exchange energy of the uniform
    electron gas, times the total weight. *)
Theorem C34_gas_exchange :
  forall (h h0 : handle ROps) v D x e, reachable h ->
    xcfun_eval_setup h v XC_PARTIAL_DERIVATIVES 0 = Ok (h0, 0%Z) -> only gas_exchange_limit h ->
    above D -> uniform D -> describes v x D ->
    library_energy h0 x e -> e = total_weight h * gas_exchange D.
Proof.
  intros h h0 v D x e Hr S O Ab Un De Le.
  assert (Th : tau_honest h v) by (apply (honest_if h v _ O); cbn; intuition discriminate).
  destruct (described_energy h h0 v D x Hr S Th Ab De) as [[vd G] E].
  rewrite (lib_energy _ _ _ _ _ _ G), E in Le. destruct (rsum _ _ (dvar D) _) as [s|] eqn:Q; [|discriminate]. injection Le as <-.
  exact (rsum_gas _ _ D _ Ab Un (active_only h _ Hr O) s Q).
Qed.
Print Assumptions C34_gas_exchange.

Lemma zero_all : forall i nm e nm', In i (seq 0 78) -> nth_error item_names i = Some nm -> In nm no_limit -> nth_error functionals i = Some (nm', e) -> simp [] e = AC 0.
Proof.
  assert (A : List.Forall (fun i => match nth_error item_names i, nth_error functionals i with
     | Some nm, Some (_, e) => if existsb (String.eqb nm) no_limit then simp [] e = AC 0 else True | _, _ => True end) (seq 0 78)).
  { repeat (apply List.Forall_cons; [vm_compute; tauto|]). apply List.Forall_nil. }
  intros i nm e nm' Hi N I' F. rewrite List.Forall_forall in A. specialize (A i Hi). cbv beta in A. rewrite N, F in A.
  destruct (existsb (String.eqb nm) no_limit) eqn:X; [exact A|]. exfalso.
  assert (Y : existsb (String.eqb nm) no_limit = true); [|congruence]. apply existsb_exists. exists nm. split; [exact I'|apply String.eqb_refl].
Qed.
(** C34 (gradient corrections vanish with the gradient). *)
Theorem C34_corrections_vanish :
  forall (h h0 : handle ROps) v D x e, reachable h ->
    xcfun_eval_setup h v XC_PARTIAL_DERIVATIVES 0 = Ok (h0, 0%Z) -> only no_limit h ->
    above D -> uniform D -> describes v x D ->
    library_energy h0 x e -> e = 0.
Proof.
  intros h h0 v D x e Hr S O Ab Un De Le.
  assert (Th : tau_honest h v) by (apply (honest_if h v _ O); cbn; intuition discriminate).
  destruct (described_energy h h0 v D x Hr S Th Ab De) as [[vd G] E].
  rewrite (lib_energy _ _ _ _ _ _ G), E in Le. clear E G. revert e Le. pose proof (active_only h _ Hr O) as HA. generalize (h_settings h). intro st.
  induction (h_active h) as [|i A IH]; intros w Le; cbn [rsum] in Le; [injection Le as <-; reflexivity|].
  destruct (HA i (or_introl eq_refl)) as [Li Ni]. destruct (nofun_len i Li) as (nm' & e & Ef). rewrite Ef in Le. destruct (item_ex i Li) as [nm En].
  destruct (reval st (fun _ => 0) (dvar D) [] e) as [u|] eqn:U; [|discriminate]. cbn [obnd] in Le. destruct (rsum st _ (dvar D) A) as [s|]; [|discriminate]. cbn [obnd] in Le. injection Le as <-.
  rewrite (IH (fun j Hj => HA j (or_intror Hj)) s eq_refl).
  pose proof (simp_ok st _ (dvar D) (uniform_g D Un) e [] [] u (vals_nil st _ _) U) as Va.
  rewrite (zero_all i nm e nm' ltac:(apply in_seq; lia) En (Ni nm En) Ef) in Va. cbn [val] in Va. rewrite Va, RMicromega.Q2R_0. cbn [T ROps]. ring.
Qed.
Print Assumptions C34_corrections_vanish.

Definition com (a : av) : av := match a with AE (EMul p q) => AE (EMul q p) | _ => a end.
Lemma com_ok st x fl a v : val st x fl a v -> val st x fl (com a) v.
Proof.
  destruct a as [q|e]; [auto|]. destruct e; auto. cbn [com val reval]. destruct (reval st x fl [] e1), (reval st x fl [] e2); cbn [obnd]; intro E; try discriminate E.
  injection E as <-. f_equal. ring.
Qed.
Lemma val_fun st x fl a v w : val st x fl a v -> val st x fl a w -> v = w.
Proof. destruct a; cbn [val]; congruence. Qed.
Definition pair_ok (i j : nat) : Prop := match nth_error functionals i, nth_error functionals j with
  | Some (_, e), Some (_, e') => (simp [] e = simp [] e' \/ com (simp [] e) = simp [] e') /\ enp e' = true | _, _ => False end.
Definition item_id (nm : string) : nat := List.length (fst (fold_left (fun p s => if snd p : bool then p else if String.eqb s nm then (fst p, true) else (fst p ++ [tt], false)) item_names ([], false))).
Lemma item_id_ok i nm : (i < 78)%nat -> nth_error item_names i = Some nm -> item_id nm = i.
Proof.
  intros L N. assert (A : forallb (fun i => match nth_error item_names i with Some nm => Nat.eqb (item_id nm) i | None => true end) (seq 0 78) = true) by (vm_compute; reflexivity).
  rewrite forallb_forall in A. specialize (A i ltac:(apply in_seq; lia)). cbv beta in A. rewrite N in A. now apply Nat.eqb_eq.
Qed.
Lemma pairs_all : List.Forall (fun p => pair_ok (item_id (fst p)) (item_id (snd p))) correlation_limit.
Proof. repeat (apply List.Forall_cons; [vm_compute; tauto|]). apply List.Forall_nil. Qed.
(** C34 (local limit of correlation).  Where the gradients vanish, a gradient-corrected
    correlation functional gives the energy of the local functional it is built on. *)
Theorem C34_local_correlation :
  forall (h h' h0 h0' : handle ROps) v v' D x x' i j nm nm' e, reachable h -> reachable h' ->
    xcfun_eval_setup h v XC_PARTIAL_DERIVATIVES 0 = Ok (h0, 0%Z) ->
    xcfun_eval_setup h' v' XC_PARTIAL_DERIVATIVES 0 = Ok (h0', 0%Z) ->
    h_active h = [i] -> h_active h' = [j] -> h_settings h i = h_settings h' j ->
    nth_error item_names i = Some nm -> nth_error item_names j = Some nm' -> In (nm, nm') correlation_limit ->
    above D -> uniform D -> describes v x D -> describes v' x' D ->
    library_energy h0 x e -> library_energy h0' x' e.
Proof.
  intros h h' h0 h0' v v' D x x' i j nm nm' e Hr Hr' S S' A A' W N N' I' Ab Un De De' Le.
  assert (Li : (i < 78)%nat) by (apply (reachable_wf h Hr); rewrite A; now left). assert (Lj : (j < 78)%nat) by (apply (reachable_wf h' Hr'); rewrite A'; now left).
  pose proof pairs_all as Pa. rewrite List.Forall_forall in Pa. specialize (Pa _ I'). cbn [fst snd] in Pa. rewrite (item_id_ok i nm Li N), (item_id_ok j nm' Lj N') in Pa.
  unfold pair_ok in Pa. destruct (nofun_len i Li) as (m1 & e1 & F1). destruct (nofun_len j Lj) as (m2 & e2 & F2). rewrite F1, F2 in Pa.
  assert (Nr : nm <> "REVTPSSX"%string /\ nm' <> "REVTPSSX"%string) by (cbn in I'; repeat (destruct I' as [I'|I']; [injection I' as <- <-; split; discriminate|]); contradiction).
  assert (Th : tau_honest h v). { intro X. exfalso. rewrite A in X. destruct X as [->|[]]. vm_compute in N. injection N as <-. now apply (proj1 Nr). }
  assert (Th' : tau_honest h' v'). { intro X. exfalso. rewrite A' in X. destruct X as [->|[]]. vm_compute in N'. injection N' as <-. now apply (proj2 Nr). }
  destruct (described_energy h h0 v D x Hr S Th Ab De) as [[vd G] E]. destruct (described_energy h' h0' v' D x' Hr' S' Th' Ab De') as [[vd' G'] E'].
  rewrite (lib_energy _ _ _ _ _ _ G), E in Le. rewrite (lib_energy _ _ _ _ _ _ G'), E'. rewrite A in Le. rewrite A'. cbn [rsum] in *. rewrite F1 in Le. rewrite F2.
  destruct (reval (h_settings h) (fun _ => 0) (dvar D) [] e1) as [u|] eqn:U; [|discriminate]. cbn [obnd] in Le. injection Le as <-.
  assert (C : covered D nm'). { left. cbn in I'. repeat (destruct I' as [I'|I']; [injection I' as <- <-; cbn; tauto|]). contradiction. }
  destruct (covered_eval (fun _ => 1) (fun _ => 0) D j nm' m2 e2 ltac:(cbn; lra) Ab Lj N' C F2) as [w Ew].
  destruct Pa as [Pa Np]. rewrite (reval_np _ (fun _ => (1 : T ROps)) _ _ e2 [] Np), Ew. cbn [obnd]. rewrite <- W.
  rewrite (reval_np _ (h_settings h) _ _ e2 [] Np) in Ew.
  pose proof (simp_ok _ _ (dvar D) (uniform_g D Un) e1 [] [] u (vals_nil _ _ _) U) as V1. pose proof (simp_ok _ _ (dvar D) (uniform_g D Un) e2 [] [] w (vals_nil _ _ _) Ew) as V2.
  assert (Q : u = w) by (destruct Pa as [Pa|Pa]; [|apply com_ok in V1]; rewrite Pa in V1; exact (val_fun _ _ _ _ _ _ V1 V2)). now rewrite Q.
Qed.
Print Assumptions C34_local_correlation.
