(** * Property theorems: exact scaling and limits of functionals (C34) *)
From Coq Require Import Reals QArith Qreals ZArith Arith Lia Lra List Bool String.
From Coquelicot Require Import Coquelicot.
From Verif Require Import Scalar RInst Tables Api SpecApi ApiProofs ApiProofs2 CTaylor CtAlg TMath Br Expr Densvars Functionals
  Eval SpecEval EvalProps Taint EvalExt Props_Eval Sem RSem EnergyR EvalR EvalReal EvalApi Phys Mk Props_Deriv Props_Dens Sym Props_Spin Homog Sep.
Import ListNotations.
Local Open Scope outcome_scope.
Local Open Scope R_scope.

(** ** Specification *)
(** The density n_l(r) = l^3 n(l r), at the point r/l: the density is multiplied by l^3 and
    each derivative brings another factor l. *)
Definition vscale (k : R) (u : vec) : vec := V (k * vx u) (k * vy u) (k * vz u).
Definition hscale (k : R) (h : hess) : hess := Hes (k * hxx h) (k * hxy h) (k * hxz h) (k * hyy h) (k * hyz h) (k * hzz h).
Definition scale_spin (l : R) (s : spin) : spin :=
  {| rho := l ^ 3 * rho s; grad := vscale (l ^ 4) (grad s); hes := hscale (l ^ 5) (hes s); kin := l ^ 5 * kin s; jp := l ^ 8 * jp s |}.
Definition scale (l : R) (D : dens) : dens := {| al := scale_spin l (al D); be := scale_spin l (be D) |}.
(** Only functionals named in [l] are switched on. *)
Definition only (l : list string) (h : handle ROps) : Prop :=
  forall i nm, In i (h_active h) -> nth_error item_names i = Some nm -> In nm l.
(** The exchange functionals covered by the uniform scaling law. *)
Definition scaling_exchange : list string :=
  ["SLATERX"; "PW86X"; "PBEX"; "BECKEX"; "BECKECORRX"; "BRX"; "OPTX"; "OPTXCORR"; "REVPBEX"; "RPBEX"; "PW91X"; "M05X"; "M05X2X"; "M06X"; "M06X2X";
   "M06LX"; "M06HFX"; "TPSSX"; "B97X"; "B97_1X"; "B97_2X"; "APBEX"; "BLOCX"; "PBEINTX"; "PBESOLX"]%string.
(** The kinetic energy functionals covered by the uniform scaling law. *)
Definition scaling_kinetic : list string := ["TFK"; "PW91K"; "VWK"]%string.

(** ** Proof of the scaling laws *)
Definition degs_all (l : list string) (q : Q) : bool :=
  forallb (fun i => match nth_error item_names i, nth_error functionals i with
     | Some nm, Some (_, e) => orb (negb (existsb (String.eqb nm) l)) (match deg ud [] e with Some p => Qeq_bool p q | None => false end)
     | _, _ => false end) (seq 0 78).
Lemma degs_exchange : degs_all scaling_exchange 4 = true. Proof. vm_compute. reflexivity. Qed.
Lemma degs_kinetic : degs_all scaling_kinetic 5 = true. Proof. vm_compute. reflexivity. Qed.
Lemma degs_one l q i nm e nm' : degs_all l q = true -> (i < 78)%nat -> nth_error item_names i = Some nm -> In nm l ->
  nth_error functionals i = Some (nm', e) -> exists p, deg ud [] e = Some p /\ Qeq_bool p q = true.
Proof.
  intros P L N I' F. unfold degs_all in P. rewrite forallb_forall in P. specialize (P i). cbv beta in P. rewrite N, F in P.
  specialize (P ltac:(apply in_seq; lia)). apply orb_prop in P. destruct P as [P|P].
  - exfalso. apply negb_true_iff in P. assert (X : existsb (String.eqb nm) l = true); [|congruence].
    apply existsb_exists. exists nm. split; [exact I'|apply String.eqb_refl].
  - destruct (deg ud [] e) as [p|]; [eauto|discriminate].
Qed.
Lemma pw_nat l (k : nat) : 0 < l -> pw l (inject_Z (Z.of_nat k)) = l ^ k.
Proof. intro H. unfold pw. rewrite <- Rpower_pow by exact H. f_equal. unfold Q2R, inject_Z. cbn [Qnum Qden]. rewrite INR_IZR_INZ. field. Qed.
Lemma tiny_pos : 0 < threshold.
Proof. unfold threshold, Q2R, TINY. cbn. lra. Qed.
Lemma dvar_scale l D : 0 < l -> above D -> forall f, dvar (scale l D) f = pw l (ud f) * dvar D f.
Proof.
  intros Hl [Ha Hb] f. pose proof tiny_pos as T0.
  pose proof (pw_nat l 3 Hl) as P3. pose proof (pw_nat l 4 Hl) as P4. pose proof (pw_nat l 5 Hl) as P5. pose proof (pw_nat l 8 Hl) as P8. pose proof (pw_nat l 0 Hl) as P0.
  change (inject_Z (Z.of_nat 0)) with 0%Q in P0. change (inject_Z (Z.of_nat 3)) with 3%Q in P3. change (inject_Z (Z.of_nat 4)) with 4%Q in P4. change (inject_Z (Z.of_nat 5)) with 5%Q in P5. change (inject_Z (Z.of_nat 8)) with 8%Q in P8.
  assert (P13 : pw l (-1) = / l) by (unfold pw; replace (Q2R (-1)) with (- (1)) by (unfold Q2R; cbn; lra); rewrite Rpower_Ropp, Rpower_1; auto).
  assert (L3 : 0 < l ^ 3) by (apply pow_lt; exact Hl).
  assert (R3 : forall k, Rpower (l ^ 3) k = Rpower l (3 * k)) by (intro k; rewrite <- Rpower_pow by exact Hl; rewrite Rpower_mult; f_equal; cbn; ring).
  pose proof PI_RGT_0 as HP.
  destruct D as [[ra [ax ay az] [haxx haxy haxz hayy hayz hazz] ka ja] [rb [bx by_ bz] [hbxx hbxy hbxz hbyy hbyz hbzz] kb jb]]. cbn [al be rho] in Ha, Hb.
  destruct f; cbn [ud dvar]; rewrite ?P0, ?P3, ?P4, ?P5, ?P8, ?P13; cbn -[pow]; unfold lap, gN, gS, vadd, vsub, dot; cbn -[pow]; try ring.
  - field. split; [lra|]. apply Rgt_not_eq. nra.
  - replace (3 / (4 * PI * (l ^ 3 * ra + l ^ 3 * rb))) with (Rpower (l ^ 3) (- (1)) * (3 / (4 * PI * (ra + rb)))).
    2: { rewrite Rpower_Ropp, Rpower_1 by exact L3. field. repeat split; try lra; apply Rgt_not_eq; try nra. }
    rewrite <- Rpower_mult_distr; [|apply exp_pos|apply Rdiv_lt_0_compat; [lra|]; apply Rmult_lt_0_compat; lra].
    f_equal. rewrite Rpower_mult, R3. replace (3 * (- (1) * (1 / 3))) with (- (1)) by field. now rewrite Rpower_Ropp, Rpower_1.
  - replace (l ^ 3 * ra + l ^ 3 * rb) with (l ^ 3 * (ra + rb)) by ring. rewrite <- Rpower_mult_distr by lra. f_equal.
    rewrite R3. replace (3 * - (1 / 3)) with (- (1)) by field. now rewrite Rpower_Ropp, Rpower_1.
  - rewrite <- Rpower_mult_distr by lra. f_equal. rewrite R3. replace (3 * (4 / 3)) with (INR 4) by (cbn; field). now rewrite Rpower_pow.
  - rewrite <- Rpower_mult_distr by lra. f_equal. rewrite R3. replace (3 * (4 / 3)) with (INR 4) by (cbn; field). now rewrite Rpower_pow.
Qed.
Lemma rsum_scale l q st x L D A : 0 < l -> above D -> degs_all L q = true ->
  (forall i, In i A -> (i < 78)%nat /\ forall nm, nth_error item_names i = Some nm -> In nm L) ->
  rsum st x (dvar (scale l D)) A = option_map (Rmult (pw l q)) (rsum st x (dvar D) A).
Proof.
  intros Hl Ab Dg. induction A as [|i A IH]; intro HA; cbn [rsum option_map]; [f_equal; ring|].
  destruct (HA i (or_introl eq_refl)) as [Li Ni]. destruct (nofun_len i Li) as (nm' & e & Ef). rewrite Ef. destruct (item_ex i Li) as [nm En].
  destruct (degs_one _ _ _ _ _ _ Dg Li En (Ni nm En) Ef) as (p & Ep & Eq).
  rewrite (deg_ok l Hl st x ud (dvar D) (dvar (scale l D)) (dvar_scale l D Hl Ab) e [] [] [] p Ep) by (intros y k K; discriminate K).
  rewrite (pw_eq l _ _ Eq). destruct (reval st x (dvar D) [] e) as [v|]; cbn [option_map obnd]; [|reflexivity].
  rewrite IH by (intros j Hj; apply HA; now right). destruct (rsum st x (dvar D) A); cbn [option_map obnd]; [|reflexivity]. f_equal. cbn [T ROps]. ring.
Qed.
Lemma active_only (h : handle ROps) L : reachable h -> only L h -> forall i, In i (h_active h) -> (i < 78)%nat /\ forall nm, nth_error item_names i = Some nm -> In nm L.
Proof. intros Hr O i Hi. split; [exact (proj1 (proj2 (reachable_wf h Hr)) i Hi)|]. intros nm. now apply O. Qed.
Lemma scaling_law (h h0 : handle ROps) L k v D x x' l e : reachable h -> degs_all L (inject_Z (Z.of_nat k)) = true ->
    xcfun_eval_setup h v XC_PARTIAL_DERIVATIVES 0 = Ok (h0, 0%Z) -> tau_honest h v -> only L h ->
    0 < l -> above D -> above (scale l D) -> describes v x D -> describes v x' (scale l D) ->
    (library_energy h0 x e <-> library_energy h0 x' (l ^ k * e)).
Proof.
  intros Hr Dg S Th O Hl Ab Ab' De De'.
  destruct (described_energy h h0 v D x Hr S Th Ab De) as [[vd G] E]. destruct (described_energy h h0 v _ x' Hr S Th Ab' De') as [_ E'].
  rewrite !(lib_energy _ _ _ _ _ _ G), E, E', (rsum_scale l _ _ _ L D _ Hl Ab Dg (active_only h L Hr O)), pw_nat by exact Hl.
  assert (Lk : l ^ k <> 0) by (apply Rgt_not_eq, pow_lt; exact Hl).
  destruct (rsum _ _ _ _) as [s|]; cbn [option_map]; split; intro H; try discriminate H; injection H as H; f_equal; [now rewrite H|exact (Rmult_eq_reg_l _ _ _ H Lk)].
Qed.
(** C34 (uniform scaling of exchange).  For every weighted sum of exchange functionals of
    [scaling_exchange], every density and every scale factor, in every variable set of C18:
    the energy of the scaled density is l^4 times the energy (and one is defined when the
    other is).  Both densities have to lie above the regularisation threshold. *)
Theorem C34_exchange_scaling :
  forall (h h0 : handle ROps) v D x x' l e, reachable h ->
    xcfun_eval_setup h v XC_PARTIAL_DERIVATIVES 0 = Ok (h0, 0%Z) -> only scaling_exchange h ->
    0 < l -> above D -> above (scale l D) -> describes v x D -> describes v x' (scale l D) ->
    (library_energy h0 x e <-> library_energy h0 x' (l ^ 4 * e)).
Proof.
  intros h h0 v D x x' l e Hr S O. apply (scaling_law h h0 scaling_exchange 4 v D x x' l e Hr degs_exchange S); [|exact O].
  intro I'. exfalso. specialize (O _ "REVTPSSX"%string I' eq_refl). cbn in O. intuition discriminate.
Qed.
Print Assumptions C34_exchange_scaling.
(** C34 (uniform scaling of the kinetic energy): l^5. *)
Theorem C34_kinetic_scaling :
  forall (h h0 : handle ROps) v D x x' l e, reachable h ->
    xcfun_eval_setup h v XC_PARTIAL_DERIVATIVES 0 = Ok (h0, 0%Z) -> only scaling_kinetic h ->
    0 < l -> above D -> above (scale l D) -> describes v x D -> describes v x' (scale l D) ->
    (library_energy h0 x e <-> library_energy h0 x' (l ^ 5 * e)).
Proof.
  intros h h0 v D x x' l e Hr S O. apply (scaling_law h h0 scaling_kinetic 5 v D x x' l e Hr degs_kinetic S); [|exact O].
  intro I'. exfalso. specialize (O _ "REVTPSSX"%string I' eq_refl). cbn in O. intuition discriminate.
Qed.
Print Assumptions C34_kinetic_scaling.

(** What scaling does to the numbers given to the library: input [i] is multiplied by
    l to the power [nth i (sdeg v)]. *)
Definition sdeg (v : Z) : list nat :=
  if Z.eqb v XC_N then [3]%nat
  else if Z.eqb v XC_A_B then [3; 3]%nat
  else if Z.eqb v XC_N_GNN then [3; 8]%nat
  else if Z.eqb v XC_A_B_GAA_GAB_GBB then [3; 3; 8; 8; 8]%nat
  else if Z.eqb v XC_N_GNN_TAUN then [3; 8; 5]%nat
  else if Z.eqb v XC_A_B_GAA_GAB_GBB_TAUA_TAUB then [3; 3; 8; 8; 8; 5; 5]%nat
  else if Z.eqb v XC_A_B_GAA_GAB_GBB_LAPA_LAPB_TAUA_TAUB then [3; 3; 8; 8; 8; 5; 5; 5; 5]%nat
  else if Z.eqb v XC_A_B_GAA_GAB_GBB_LAPA_LAPB_TAUA_TAUB_JPAA_JPBB then [3; 3; 8; 8; 8; 5; 5; 5; 5; 8; 8]%nat
  else if Z.eqb v XC_A_B_AX_AY_AZ_BX_BY_BZ then [3; 3; 4; 4; 4; 4; 4; 4]%nat
  else if Z.eqb v XC_N_NX_NY_NZ then [3; 4; 4; 4]%nat
  else if Z.eqb v XC_N_S_NX_NY_NZ_SX_SY_SZ then [3; 3; 4; 4; 4; 4; 4; 4]%nat
  else if Z.eqb v XC_A_B_AX_AY_AZ_BX_BY_BZ_TAUA_TAUB then [3; 3; 4; 4; 4; 4; 4; 4; 5; 5]%nat
  else if Z.eqb v XC_N_NX_NY_NZ_TAUN then [3; 4; 4; 4; 5]%nat
  else if Z.eqb v XC_N_S_NX_NY_NZ_SX_SY_SZ_TAUN_TAUS then [3; 3; 4; 4; 4; 4; 4; 4; 5; 5]%nat
  else if Z.eqb v XC_A_B_2ND_TAYLOR then [3; 4; 4; 4; 5; 5; 5; 5; 5; 5; 3; 4; 4; 4; 5; 5; 5; 5; 5; 5]%nat
  else if Z.eqb v XC_N_2ND_TAYLOR then [3; 4; 4; 4; 5; 5; 5; 5; 5; 5]%nat
  else [].
Theorem C34_scaled_inputs :
  forall v D x x' l, describes v x D -> (forall i, x' i = l ^ nth i (sdeg v) 0%nat * x i) -> describes v x' (scale l D).
Proof.
  intros v D x x' l [Hv E] X. split; [destruct Hv as [Hv|[Hv C]]; [now left|right; split; [exact Hv|]]; unfold closed, scale in *; cbn [al be]; now rewrite C|].
  intros i Hi. rewrite X. assert (Hv' : In v (open_sets ++ closed_sets)) by (apply in_or_app; tauto). clear Hv X.
  destruct D as [[ra [ax ay az] [haxx haxy haxz hayy hayz hazz] ka ja] [rb [bx by_ bz] [hbxx hbxy hbxz hbyy hbyz hbzz] kb jb]].
  cbn [In open_sets closed_sets app] in Hv'.
  repeat (destruct Hv' as [<-|Hv']; [
    repeat (destruct i as [|i]; [rewrite E by (cbn; lia); cbn -[pow]; unfold tot, dif, gN, gS, vadd, vsub, dot, lap, hadd, vscale, hscale; cbn -[pow]; ring|]); cbn in Hi; lia|]).
  contradiction.
Qed.
Print Assumptions C34_scaled_inputs.

(** ** Spin scaling *)
(** The closed-shell densities made of two copies of one spin component. *)
Definition twice_alpha (D : dens) : dens := {| al := al D; be := al D |}.
Definition twice_beta (D : dens) : dens := {| al := be D; be := be D |}.
(** The exchange functionals (all of them) and the kinetic energy functionals covered. *)
Definition spin_scaling : list string :=
  scaling_exchange ++ ["BECKESRX"; "BECKECAMX"; "LDAERFX"; "KTX"; "REVTPSSX"; "SCANX"; "RSCANX"; "RPPSCANX"; "R2SCANX"; "R4SCANX"; "PW91K"; "BTK"; "VWK"]%string.
Definition sep_all (l : list string) : bool :=
  forallb (fun i => match nth_error item_names i, nth_error functionals i with
     | Some nm, Some (_, e) => orb (negb (existsb (String.eqb nm) l)) (sep [] e)
     | _, _ => false end) (seq 0 78).
Lemma sep_spin : sep_all spin_scaling = true. Proof. vm_compute. reflexivity. Qed.
Lemma sep_one l i nm e nm' : sep_all l = true -> (i < 78)%nat -> nth_error item_names i = Some nm -> In nm l ->
  nth_error functionals i = Some (nm', e) -> sep [] e = true.
Proof.
  intros P L N I' F. unfold sep_all in P. rewrite forallb_forall in P. specialize (P i). cbv beta in P. rewrite N, F in P.
  specialize (P ltac:(apply in_seq; lia)). apply orb_prop in P. destruct P as [P|P]; [|exact P].
  exfalso. apply negb_true_iff in P. assert (X : existsb (String.eqb nm) l = true); [|congruence].
  apply existsb_exists. exists nm. split; [exact I'|apply String.eqb_refl].
Qed.
Lemma dvar_swapped D : swapped 0 (dvar D) (dvar (exchange D)).
Proof.
  intro f. destruct D as [[ra [ax ay az] ha ka ja] [rb [bx by_ bz] hb kb jb]].
  destruct f; cbn -[Rpower]; unfold gN, gS, vadd, vsub, dot, lap; cbn -[Rpower]; rewrite ?(Rplus_comm rb ra); try reflexivity; try (cbn; ring); unfold Rdiv; ring.
Qed.
Lemma rsum_spin st x L D A : sep_all L = true ->
  (forall i, In i A -> (i < 78)%nat /\ forall nm, nth_error item_names i = Some nm -> In nm L) -> forall e,
  rsum st x (dvar D) A = Some e ->
  exists ea eb, rsum st x (dvar (twice_alpha D)) A = Some ea /\ rsum st x (dvar (twice_beta D)) A = Some eb /\ ea + eb = 2 * e.
Proof.
  intros Sp. induction A as [|i A IH]; intros HA w E; cbn [rsum] in *; [injection E as <-; exists 0, 0; repeat split; ring|].
  destruct (HA i (or_introl eq_refl)) as [Li Ni]. destruct (nofun_len i Li) as (nm' & e & Ef). rewrite Ef in *. destruct (item_ex i Li) as [nm En].
  pose proof (sep_one _ _ _ _ _ Sp Li En (Ni nm En) Ef) as Se.
  destruct (reval st x (dvar D) [] e) as [u|] eqn:U; [|discriminate]. cbn [obnd] in E.
  destruct (rsum st x (dvar D) A) as [s|]; [|discriminate]. cbn [obnd] in E. injection E as <-.
  assert (U' : reval st x (dvar (exchange D)) [] e = Some u).
  { pose proof (proj1 (forallb_forall _ _) all_symm (nm', e) (nth_error_In _ _ Ef)) as Sy. cbn [snd] in Sy.
    pose proof (symm_ok st 0 x x _ _ e Sy (dvar_swapped D)) as K.
    exact (eq_trans (eq_sym (eval0 st x e _ [])) (eq_trans (eq_sym K) (eq_trans (eval0 st x e _ []) U))). }
  destruct (sep_ok st x (dvar D) (dvar (exchange D)) (dvar (twice_alpha D)) (dvar (twice_beta D))) with (e := e) (r := @nil (string * dep)) (g1 := @nil (string * R)) (g2 := @nil (string * R)) (g3 := @nil (string * R)) (g4 := @nil (string * R)) (w := u) (w' := u) as (z & z' & Z & Z' & Q); auto;
    try (intros f d F [-> | ->]; destruct f; try discriminate F; reflexivity); try (intros y d F; discriminate F).
  destruct (IH (fun j Hj => HA j (or_intror Hj)) s eq_refl) as (ea & eb & -> & -> & Q').
  rewrite Z, Z'. cbn [obnd]. do 2 eexists. split; [reflexivity|]. split; [reflexivity|]. cbn [T ROps] in *.
  replace (st i * z + ea + (st i * z' + eb)) with (st i * (z + z') + (ea + eb)) by ring. rewrite Q, Q'. ring.
Qed.
(** C34 (spin scaling of exchange).  E[na, nb] = (E[na, na] + E[nb, nb]) / 2, for every
    weighted sum of exchange functionals. *)
Theorem C34_spin_scaling :
  forall (h h0 : handle ROps) v D x xa xb e, reachable h ->
    xcfun_eval_setup h v XC_PARTIAL_DERIVATIVES 0 = Ok (h0, 0%Z) -> tau_honest h v -> only spin_scaling h ->
    above D -> describes v x D -> describes v xa (twice_alpha D) -> describes v xb (twice_beta D) ->
    library_energy h0 x e -> exists ea eb, library_energy h0 xa ea /\ library_energy h0 xb eb /\ e = (ea + eb) / 2.
Proof.
  intros h h0 v D x xa xb e Hr S Th O Ab De Da Db Le.
  assert (Aa : above (twice_alpha D)) by (split; apply Ab). assert (Ab' : above (twice_beta D)) by (split; apply Ab).
  destruct (described_energy h h0 v D x Hr S Th Ab De) as [[vd G] E]. destruct (described_energy h h0 v _ xa Hr S Th Aa Da) as [_ Ea]. destruct (described_energy h h0 v _ xb Hr S Th Ab' Db) as [_ Eb].
  rewrite (lib_energy _ _ _ _ _ _ G), E in Le. destruct (rsum _ _ (dvar D) _) as [s|] eqn:Q; [|discriminate]. injection Le as <-.
  destruct (rsum_spin _ _ _ D _ sep_spin (active_only h _ Hr O) s Q) as (ea & eb & Ra & Rb & K). exists ea, eb.
  rewrite !(lib_energy _ _ _ _ _ _ G), Ea, Eb, Ra, Rb. split; [reflexivity|]. split; [reflexivity|]. cbn [T ROps] in *. lra.
Qed.
Print Assumptions C34_spin_scaling.
