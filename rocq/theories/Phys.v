(** * Physical densities and the variable sets that describe them
    A specification, independent of densvars: what a spin density is, which numbers each
    variable set of xcfun.h (/repo/api/xcfun.h 86-122) stands for, and which density
    variables follow from it.  Then: the densvars constructor computes exactly these, for
    the variable sets for which that is true. *)
From Coq Require Import Reals QArith Qreals ZArith Arith Lia Lra List Bool String.
From Coquelicot Require Import Coquelicot.
From Verif Require Import Scalar RInst Tables Api CTaylor CtAlg TMath Fps TFam TExp Ad Br Expr Densvars Sem AdEval RSem SpecEval Taint.
Import ListNotations.
Local Open Scope R_scope.

(** A density at a point: spin densities, their gradients and second derivatives, kinetic
    energy densities and paramagnetic currents. *)
Record vec := V { vx : R; vy : R; vz : R }.
Record hess := Hes { hxx : R; hxy : R; hxz : R; hyy : R; hyz : R; hzz : R }.
Record spin := { rho : R; grad : vec; hes : hess; kin : R; jp : R }.
Record dens := { al : spin; be : spin }.
Definition dot (u v : vec) : R := vx u * vx v + vy u * vy v + vz u * vz v.
Definition vadd (u v : vec) : vec := V (vx u + vx v) (vy u + vy v) (vz u + vz v).
Definition vsub (u v : vec) : vec := V (vx u - vx v) (vy u - vy v) (vz u - vz v).
Definition lap (s : spin) : R := hxx (hes s) + hyy (hes s) + hzz (hes s).
Definition threshold : R := Q2R TINY.
(** Both spin densities at or above the regularisation threshold. *)
Definition above (D : dens) : Prop := threshold <= rho (al D) /\ threshold <= rho (be D).
(** Closed shell: the two spin components are the same. *)
Definition closed (D : dens) : Prop := al D = be D.

(** What the documentation of each variable set asks the caller to provide. *)
Definition pick (l : list R) (i : nat) : R := nth i l 0.
Definition tot (f : spin -> R) (D : dens) : R := f (al D) + f (be D).
Definition dif (f : spin -> R) (D : dens) : R := f (al D) - f (be D).
Definition gN (D : dens) : vec := vadd (grad (al D)) (grad (be D)).
Definition gS (D : dens) : vec := vsub (grad (al D)) (grad (be D)).
Definition comps (v : vec) : list R := [vx v; vy v; vz v].
Definition hcomps (h : hess) : list R := [hxx h; hxy h; hxz h; hyy h; hyz h; hzz h].
Definition hadd (h k : hess) : hess := Hes (hxx h + hxx k) (hxy h + hxy k) (hxz h + hxz k) (hyy h + hyy k) (hyz h + hyz k) (hzz h + hzz k).
Definition encode (v : Z) (D : dens) : list R :=
  let a := al D in let b := be D in
  let gaa := dot (grad a) (grad a) in let gab := dot (grad a) (grad b) in let gbb := dot (grad b) (grad b) in
  let gnn := dot (gN D) (gN D) in let gns := dot (gN D) (gS D) in let gss := dot (gS D) (gS D) in
  if Z.eqb v XC_A then [rho a]
  else if Z.eqb v XC_N then [tot rho D]
  else if Z.eqb v XC_A_B then [rho a; rho b]
  else if Z.eqb v XC_N_S then [tot rho D; dif rho D]
  else if Z.eqb v XC_A_GAA then [rho a; gaa]
  else if Z.eqb v XC_N_GNN then [tot rho D; gnn]
  else if Z.eqb v XC_A_B_GAA_GAB_GBB then [rho a; rho b; gaa; gab; gbb]
  else if Z.eqb v XC_N_S_GNN_GNS_GSS then [tot rho D; dif rho D; gnn; gns; gss]
  else if Z.eqb v XC_N_GNN_TAUN then [tot rho D; gnn; tot kin D]
  else if Z.eqb v XC_A_B_GAA_GAB_GBB_TAUA_TAUB then [rho a; rho b; gaa; gab; gbb; kin a; kin b]
  else if Z.eqb v XC_N_S_GNN_GNS_GSS_TAUN_TAUS then [tot rho D; dif rho D; gnn; gns; gss; tot kin D; dif kin D]
  else if Z.eqb v XC_A_B_GAA_GAB_GBB_LAPA_LAPB_TAUA_TAUB then
    [rho a; rho b; gaa; gab; gbb; lap a; lap b; kin a; kin b]
  else if Z.eqb v XC_A_B_GAA_GAB_GBB_LAPA_LAPB_TAUA_TAUB_JPAA_JPBB then
    [rho a; rho b; gaa; gab; gbb; lap a; lap b; kin a; kin b; jp a; jp b]
  else if Z.eqb v XC_A_B_AX_AY_AZ_BX_BY_BZ then [rho a; rho b] ++ comps (grad a) ++ comps (grad b)
  else if Z.eqb v XC_N_NX_NY_NZ then [tot rho D] ++ comps (gN D)
  else if Z.eqb v XC_N_S_NX_NY_NZ_SX_SY_SZ then [tot rho D; dif rho D] ++ comps (gN D) ++ comps (gS D)
  else if Z.eqb v XC_A_B_AX_AY_AZ_BX_BY_BZ_TAUA_TAUB then
    [rho a; rho b] ++ comps (grad a) ++ comps (grad b) ++ [kin a; kin b]
  else if Z.eqb v XC_N_NX_NY_NZ_TAUN then [tot rho D] ++ comps (gN D) ++ [tot kin D]
  else if Z.eqb v XC_N_S_NX_NY_NZ_SX_SY_SZ_TAUN_TAUS then
    [tot rho D; dif rho D] ++ comps (gN D) ++ comps (gS D) ++ [tot kin D; dif kin D]
  else if Z.eqb v XC_A_B_2ND_TAYLOR then
    [rho a] ++ comps (grad a) ++ hcomps (hes a) ++ [rho b] ++ comps (grad b) ++ hcomps (hes b)
  else if Z.eqb v XC_N_2ND_TAYLOR then [tot rho D] ++ comps (gN D) ++ hcomps (hadd (hes a) (hes b))
  else [].
(** Sets that describe closed shells only. *)
Definition closed_sets : list Z := [XC_N; XC_N_GNN; XC_N_GNN_TAUN; XC_N_NX_NY_NZ; XC_N_NX_NY_NZ_TAUN; XC_N_2ND_TAYLOR].
Definition open_sets : list Z :=
  [XC_A_B; XC_A_B_GAA_GAB_GBB; XC_A_B_GAA_GAB_GBB_TAUA_TAUB; XC_A_B_GAA_GAB_GBB_LAPA_LAPB_TAUA_TAUB;
   XC_A_B_GAA_GAB_GBB_LAPA_LAPB_TAUA_TAUB_JPAA_JPBB; XC_A_B_AX_AY_AZ_BX_BY_BZ; XC_N_S_NX_NY_NZ_SX_SY_SZ;
   XC_A_B_AX_AY_AZ_BX_BY_BZ_TAUA_TAUB; XC_N_S_NX_NY_NZ_SX_SY_SZ_TAUN_TAUS; XC_A_B_2ND_TAYLOR].
(** [x] describes [D] through variable set [v]. *)
Definition describes (v : Z) (x : nat -> R) (D : dens) : Prop :=
  (In v open_sets \/ (In v closed_sets /\ closed D)) /\
  forall i, (i < List.length (encode v D))%nat -> x i = nth i (encode v D) 0.

(** The density variables. *)
Definition dvar (D : dens) (f : fld) : R :=
  let a := al D in let b := be D in
  let n := rho a + rho b in
  match f with
  | f_a => rho a | f_b => rho b
  | f_gaa => dot (grad a) (grad a) | f_gab => dot (grad a) (grad b) | f_gbb => dot (grad b) (grad b)
  | f_n => n | f_s => rho a - rho b
  | f_gnn => dot (gN D) (gN D) | f_gns => dot (gN D) (gS D) | f_gss => dot (gS D) (gS D)
  | f_tau => kin a + kin b | f_taua => kin a | f_taub => kin b
  | f_lapa => lap a | f_lapb => lap b
  | f_zeta => (rho a - rho b) / n
  | f_r_s => Rpower (3 / (4 * PI * n)) (1 / 3)
  | f_n_m13 => Rpower n (- (1 / 3))
  | f_a_43 => Rpower (rho a) (4 / 3) | f_b_43 => Rpower (rho b) (4 / 3)
  | f_jpaa => jp a | f_jpbb => jp b
  end.

Section P.
Variable st : nat -> T ROps.
Variable x : nat -> R.
Notation run_ := (rrun st x).
Lemma rrun_app p q fl : run_ fl (p ++ q) = obnd (run_ fl p) (fun fl' => run_ fl' q).
Proof.
  revert fl. induction p as [|[f e] p IH]; intro fl; cbn [app rrun obnd]; [reflexivity|].
  destruct (reval st x fl [] e); cbn [obnd]; [apply IH|reflexivity].
Qed.
Lemma q2r_int (z : Z) : Q2R (z # 1) = IZR z.
Proof. unfold Q2R. cbn [Qnum Qden]. field. Qed.
Lemma sdivq p q : ~ q == 0%Q -> sdiv (K := ROps) (OofQ p) (OofQ q) = Some (Q2R p / Q2R q).
Proof.
  intro N. unfold sdiv. cbn [Oeqb Odiv OofQ ROps]. destruct (Reqb (Q2R q) (Q2R 0)) eqn:E; [|reflexivity].
  apply Reqb_true in E. apply eqR_Qeq in E. contradiction.
Qed.
Lemma derived_ok fl : 0 < fl f_n -> 0 < fl f_a -> 0 < fl f_b ->
  exists fl', run_ fl dv_derived = Some fl' /\
    (forall f, fl' f = match f with
       | f_zeta => fl f_s / fl f_n
       | f_r_s => Rpower (3 / (4 * PI * fl f_n)) (1 / 3)
       | f_n_m13 => Rpower (fl f_n) (- (1 / 3))
       | f_a_43 => Rpower (fl f_a) (4 / 3)
       | f_b_43 => Rpower (fl f_b) (4 / 3)
       | _ => fl f end).
Proof.
  intros Hn Ha Hb. unfold dv_derived. cbn [rrun reval seval obnd].
  unfold rdiv at 1. destruct (Req_EM_T (fl f_n) 0) as [E|_]; [lra|]. cbn [obnd].
  unfold rfupd. cbn [fld_eqb fld_num Nat.eqb]. unfold rdiv.
  pose proof PI_RGT_0 as HP.
  match goal with |- context [Req_EM_T ?t 0] => replace t with (4 * PI * fl f_n) end.
  2: { cbn [OofQ ROps Opi]. unfold Q2R; cbn [Qnum Qden]; field. }
  assert (P4 : 0 < 4 * PI * fl f_n) by (apply Rmult_lt_0_compat; lra).
  destruct (Req_EM_T (4 * PI * fl f_n) 0) as [E|_]; [lra|]. cbn [obnd].
  rewrite !sdivq by (apply Qeq_bool_neq; reflexivity). cbn [obnd].
  unfold rpow. cbn [OofQ ROps].
  assert (P3 : 0 < Q2R 3.0 / (4 * PI * fl f_n)) by (apply Rdiv_lt_0_compat; [unfold Q2R; cbn; lra|exact P4]).
  destruct (Rlt_dec 0 (Q2R 3.0 / (4 * PI * fl f_n))); [|lra]. destruct (Rlt_dec 0 (fl f_n)); [|lra].
  destruct (Rlt_dec 0 (fl f_a)); [|lra]. destruct (Rlt_dec 0 (fl f_b)); [|lra]. cbn [obnd].
  eexists. split; [reflexivity|]. intro f.
  assert (E3 : Q2R 3.0 = 3) by (unfold Q2R; cbn; lra).
  assert (E13 : Q2R 1.0 / Q2R 3.0 = 1 / 3) by (unfold Q2R; cbn; lra).
  assert (Em : Q2R (-1.0) / Q2R 3.0 = - (1 / 3)) by (unfold Q2R; cbn; lra).
  assert (E43 : Q2R 4.0 / Q2R 3.0 = 4 / 3) by (unfold Q2R; cbn; lra).
  rewrite Em, E43, E13, E3.
  destruct f; cbn [fld_eqb fld_num Nat.eqb]; reflexivity.
Qed.

Definition base (f : fld) : bool := match f with f_zeta | f_r_s | f_n_m13 | f_a_43 | f_b_43 => false | _ => true end.
(** If the case of the switch delivers the base variables, the constructor delivers all. *)
Lemma finish p D (P : fld -> bool) : above D -> P f_n = true -> P f_a = true -> P f_b = true -> P f_s = true ->
  (exists fl, run_ (fun _ => 0) p = Some fl /\ forall f, base f = true -> P f = true -> fl f = dvar D f) ->
  exists fl, run_ (fun _ => 0) (p ++ dv_derived) = Some fl /\ forall f, P f = true -> fl f = dvar D f.
Proof.
  intros [A B] Pn Pa Pb Ps (fl & E & F). rewrite rrun_app, E. cbn [obnd].
  assert (T0 : 0 < threshold) by (change threshold with (1 * / 100000000000000); lra).
  assert (Fn := F f_n eq_refl Pn). assert (Fa := F f_a eq_refl Pa). assert (Fb := F f_b eq_refl Pb). assert (Fs := F f_s eq_refl Ps).
  cbn [dvar] in Fn, Fa, Fb, Fs.
  destruct (derived_ok fl) as (fl' & E' & F'); [rewrite Fn; lra|rewrite Fa; lra|rewrite Fb; lra|].
  exists fl'. split; [exact E'|]. intros f Hf. rewrite F'. destruct f; cbn [dvar]; rewrite ?Fn, ?Fa, ?Fb, ?Fs; try reflexivity; apply F; auto.
Qed.
Lemma Rmax_thr r : threshold <= r -> Rmax r (Q2R TINY) = r.
Proof. intro L. apply Rmax_left. exact L. Qed.

Definition provided (v : Z) (f : fld) : bool :=
  match vars_entry v with Ok vd => declared (v_provides vd) f | _ => false end.

Lemma rdiv2 r : rdiv r (Q2R 2) = Some (r / 2).
Proof. unfold rdiv. replace (Q2R 2) with 2 by (unfold Q2R; cbn; lra). destruct (Req_EM_T 2 0); [lra|reflexivity]. Qed.
Ltac fields := intros f Bf Pf; destruct f; try discriminate Bf; clear Bf; vm_compute in Pf; try discriminate Pf;
  cbv [rfupd fld_eqb fld_num Nat.eqb dvar al be dot gN gS vadd vsub vx vy vz lap];
  repeat match goal with E : x ?i = _ |- context [x ?i] => rewrite E end;
  repeat match goal with M : Rmax ?u ?w = _ |- context [Rmax ?u ?w] => rewrite M end; try reflexivity; unfold Q2R; cbn [Qnum Qden];
  unfold dot, gN, gS, vadd, vsub, lap, hadd; cbn [al be];
  repeat match goal with |- context [grad ?s] => destruct (grad s) | |- context [hes ?s] => destruct (hes s) end; cbn [vx vy vz hxx hxy hxz hyy hyz hzz]; try field.
Definition case_ok v prog (D : dens) : Prop :=
  exists fl, run_ (fun _ => 0) prog = Some fl /\ forall f, base f = true -> provided v f = true -> fl f = dvar D f.
Section CASES.
Variables a b : spin.
Hypothesis A : threshold <= rho a.
Hypothesis B : threshold <= rho b.
Notation D := {| al := a; be := b |}.
Lemma M3 : Rmax (rho a + rho b) (Q2R TINY) = rho a + rho b.
Proof. apply Rmax_thr. assert (0 < threshold) by (change threshold with (1 * / 100000000000000); lra). lra. Qed.
Lemma M4 : Rmax (Q2R 0.5 * (rho a + rho b + (rho a - rho b))) (Q2R TINY) = rho a.
Proof. replace (Q2R 0.5 * (rho a + rho b + (rho a - rho b))) with (rho a) by (unfold Q2R; cbn; lra). now apply Rmax_thr. Qed.
Lemma M5 : Rmax (Q2R 0.5 * (rho a + rho b - (rho a - rho b))) (Q2R TINY) = rho b.
Proof. replace (Q2R 0.5 * (rho a + rho b - (rho a - rho b))) with (rho b) by (unfold Q2R; cbn; lra). now apply Rmax_thr. Qed.
Definition xdesc v : Prop := forall i, (i < List.length (encode v D))%nat -> x i = nth i (encode v D) 0.
Lemma get v i r : xdesc v -> nth_error (encode v D) i = Some r -> x i = r.
Proof.
  intros X E. rewrite X by (apply nth_error_Some; congruence). now apply nth_error_nth.
Qed.
Ltac one X i := let E := fresh "E" in pose proof (get _ i _ X eq_refl) as E; unfold tot, dif in E; cbn [al be] in E.
Ltac go p := intro X; unfold case_ok; eexists; split;
  [cbv [p dv_A_B dv_A_B_GAA_GAB_GBB dv_A_B_GAA_GAB_GBB_LAPA_LAPB_TAUA_TAUB dv_A_B_AX_AY_AZ_BX_BY_BZ dv_N_S_NX_NY_NZ_SX_SY_SZ dv_N dv_N_GNN dv_N_NX_NY_NZ dv_N_NX_NY_NZ_TAUN];
   cbn [app rrun reval seval obnd OofQ ROps Opi rfupd fld_eqb fld_num Nat.eqb]; repeat (rewrite rdiv2; cbn [obnd rfupd fld_eqb fld_num Nat.eqb]); reflexivity|];
  pose proof M3; pose proof M4; pose proof M5; pose proof (Rmax_thr _ A); pose proof (Rmax_thr _ B).
Lemma c_A_B : xdesc XC_A_B -> case_ok XC_A_B dv_A_B D.
Proof. go dv_A_B. one X 0%nat. one X 1%nat. fields. Qed.
Lemma c_A_B_GAA_GAB_GBB : xdesc XC_A_B_GAA_GAB_GBB -> case_ok XC_A_B_GAA_GAB_GBB dv_A_B_GAA_GAB_GBB D.
Proof. go dv_A_B_GAA_GAB_GBB. one X 0%nat. one X 1%nat. one X 2%nat. one X 3%nat. one X 4%nat. fields. Qed.
Lemma c_A_B_GAA_GAB_GBB_TAUA_TAUB : xdesc XC_A_B_GAA_GAB_GBB_TAUA_TAUB -> case_ok XC_A_B_GAA_GAB_GBB_TAUA_TAUB dv_A_B_GAA_GAB_GBB_TAUA_TAUB D.
Proof. go dv_A_B_GAA_GAB_GBB_TAUA_TAUB. one X 0%nat. one X 1%nat. one X 2%nat. one X 3%nat. one X 4%nat. one X 5%nat. one X 6%nat. fields. Qed.
Lemma c_A_B_GAA_GAB_GBB_LAPA_LAPB_TAUA_TAUB : xdesc XC_A_B_GAA_GAB_GBB_LAPA_LAPB_TAUA_TAUB -> case_ok XC_A_B_GAA_GAB_GBB_LAPA_LAPB_TAUA_TAUB dv_A_B_GAA_GAB_GBB_LAPA_LAPB_TAUA_TAUB D.
Proof. go dv_A_B_GAA_GAB_GBB_LAPA_LAPB_TAUA_TAUB. one X 0%nat. one X 1%nat. one X 2%nat. one X 3%nat. one X 4%nat. one X 5%nat. one X 6%nat. one X 7%nat. one X 8%nat. fields. Qed.
Lemma c_A_B_GAA_GAB_GBB_LAPA_LAPB_TAUA_TAUB_JPAA_JPBB : xdesc XC_A_B_GAA_GAB_GBB_LAPA_LAPB_TAUA_TAUB_JPAA_JPBB -> case_ok XC_A_B_GAA_GAB_GBB_LAPA_LAPB_TAUA_TAUB_JPAA_JPBB dv_JP D.
Proof. go dv_JP. one X 0%nat. one X 1%nat. one X 2%nat. one X 3%nat. one X 4%nat. one X 5%nat. one X 6%nat. one X 7%nat. one X 8%nat. one X 9%nat. one X 10%nat. fields. Qed.
Lemma c_A_B_AX_AY_AZ_BX_BY_BZ : xdesc XC_A_B_AX_AY_AZ_BX_BY_BZ -> case_ok XC_A_B_AX_AY_AZ_BX_BY_BZ dv_A_B_AX_AY_AZ_BX_BY_BZ D.
Proof. go dv_A_B_AX_AY_AZ_BX_BY_BZ. one X 0%nat. one X 1%nat. one X 2%nat. one X 3%nat. one X 4%nat. one X 5%nat. one X 6%nat. one X 7%nat. fields. Qed.
Lemma c_N_S_NX_NY_NZ_SX_SY_SZ : xdesc XC_N_S_NX_NY_NZ_SX_SY_SZ -> case_ok XC_N_S_NX_NY_NZ_SX_SY_SZ dv_N_S_NX_NY_NZ_SX_SY_SZ D.
Proof. go dv_N_S_NX_NY_NZ_SX_SY_SZ. one X 0%nat. one X 1%nat. one X 2%nat. one X 3%nat. one X 4%nat. one X 5%nat. one X 6%nat. one X 7%nat. fields. Qed.
Lemma c_A_B_AX_AY_AZ_BX_BY_BZ_TAUA_TAUB : xdesc XC_A_B_AX_AY_AZ_BX_BY_BZ_TAUA_TAUB -> case_ok XC_A_B_AX_AY_AZ_BX_BY_BZ_TAUA_TAUB dv_A_B_AX_AY_AZ_BX_BY_BZ_TAUA_TAUB D.
Proof. go dv_A_B_AX_AY_AZ_BX_BY_BZ_TAUA_TAUB. one X 0%nat. one X 1%nat. one X 2%nat. one X 3%nat. one X 4%nat. one X 5%nat. one X 6%nat. one X 7%nat. one X 8%nat. one X 9%nat. fields. Qed.
Lemma c_N_S_NX_NY_NZ_SX_SY_SZ_TAUN_TAUS : xdesc XC_N_S_NX_NY_NZ_SX_SY_SZ_TAUN_TAUS -> case_ok XC_N_S_NX_NY_NZ_SX_SY_SZ_TAUN_TAUS dv_N_S_NX_NY_NZ_SX_SY_SZ_TAUN_TAUS D.
Proof. go dv_N_S_NX_NY_NZ_SX_SY_SZ_TAUN_TAUS. one X 0%nat. one X 1%nat. one X 2%nat. one X 3%nat. one X 4%nat. one X 5%nat. one X 6%nat. one X 7%nat. one X 8%nat. one X 9%nat. fields. Qed.
Lemma c_A_B_2ND_TAYLOR : xdesc XC_A_B_2ND_TAYLOR -> case_ok XC_A_B_2ND_TAYLOR dv_A_B_2ND_TAYLOR D.
Proof. go dv_A_B_2ND_TAYLOR. one X 0%nat. one X 1%nat. one X 2%nat. one X 3%nat. one X 4%nat. one X 5%nat. one X 6%nat. one X 7%nat. one X 8%nat. one X 9%nat. one X 10%nat. one X 11%nat. one X 12%nat. one X 13%nat. one X 14%nat. one X 15%nat. one X 16%nat. one X 17%nat. one X 18%nat. one X 19%nat. fields. Qed.
Lemma c_N : closed D -> xdesc XC_N -> case_ok XC_N dv_N D.
Proof. intro C; unfold closed in C; cbn in C; go dv_N. one X 0%nat. rewrite <- ?C in *. fields. Qed.
Lemma c_N_GNN : closed D -> xdesc XC_N_GNN -> case_ok XC_N_GNN dv_N_GNN D.
Proof. intro C; unfold closed in C; cbn in C; go dv_N_GNN. one X 0%nat. one X 1%nat. rewrite <- ?C in *. fields. Qed.
Lemma c_N_GNN_TAUN : closed D -> xdesc XC_N_GNN_TAUN -> case_ok XC_N_GNN_TAUN dv_N_GNN_TAUN D.
Proof. intro C; unfold closed in C; cbn in C; go dv_N_GNN_TAUN. one X 0%nat. one X 1%nat. one X 2%nat. rewrite <- ?C in *. fields. Qed.
Lemma c_N_NX_NY_NZ : closed D -> xdesc XC_N_NX_NY_NZ -> case_ok XC_N_NX_NY_NZ dv_N_NX_NY_NZ D.
Proof. intro C; unfold closed in C; cbn in C; go dv_N_NX_NY_NZ. one X 0%nat. one X 1%nat. one X 2%nat. one X 3%nat. rewrite <- ?C in *. fields. Qed.
Lemma c_N_NX_NY_NZ_TAUN : closed D -> xdesc XC_N_NX_NY_NZ_TAUN -> case_ok XC_N_NX_NY_NZ_TAUN dv_N_NX_NY_NZ_TAUN D.
Proof. intro C; unfold closed in C; cbn in C; go dv_N_NX_NY_NZ_TAUN. one X 0%nat. one X 1%nat. one X 2%nat. one X 3%nat. one X 4%nat. rewrite <- ?C in *. fields. Qed.
Lemma c_N_2ND_TAYLOR : closed D -> xdesc XC_N_2ND_TAYLOR -> case_ok XC_N_2ND_TAYLOR dv_N_2ND_TAYLOR D.
Proof. intro C; unfold closed in C; cbn in C; go dv_N_2ND_TAYLOR. one X 0%nat. one X 1%nat. one X 2%nat. one X 3%nat. one X 4%nat. one X 5%nat. one X 6%nat. one X 7%nat. one X 8%nat. one X 9%nat. rewrite <- ?C in *. fields. Qed.
End CASES.

(** The constructor delivers every density variable the set declares to provide. *)
Theorem densvars_canonical v D p : above D -> describes v x D -> dv_prog v = Some p ->
  exists fl, run_ (fun _ => 0) p = Some fl /\ forall f, provided v f = true -> fl f = dvar D f.
Proof.
  intros Ab [Hv X] E. pose proof Ab as [A B]. destruct D as [a b]. cbn [al be] in A, B.
  change (xdesc a b v) in X.
  assert (F : forall q, dv_switch v = Some q ->
    provided v f_n = true -> provided v f_a = true -> provided v f_b = true -> provided v f_s = true ->
    case_ok v q {| al := a; be := b |} -> exists fl, run_ (fun _ => 0) p = Some fl /\ forall f, provided v f = true -> fl f = dvar {| al := a; be := b |} f).
  { intros q E0 P1 P2 P3 P4 C. unfold dv_prog in E. rewrite E0 in E. injection E as <-. now apply finish. }
  destruct Hv as [Hv | [Hv C]]; cbn [In open_sets closed_sets] in Hv;
  repeat match goal with H : _ \/ _ |- _ => destruct H as [<- | H] end; try contradiction.
  all: eapply F; [reflexivity|reflexivity|reflexivity|reflexivity|reflexivity|].
  - now apply c_A_B.
  - now apply c_A_B_GAA_GAB_GBB.
  - now apply c_A_B_GAA_GAB_GBB_TAUA_TAUB.
  - now apply c_A_B_GAA_GAB_GBB_LAPA_LAPB_TAUA_TAUB.
  - now apply c_A_B_GAA_GAB_GBB_LAPA_LAPB_TAUA_TAUB_JPAA_JPBB.
  - now apply c_A_B_AX_AY_AZ_BX_BY_BZ.
  - now apply c_N_S_NX_NY_NZ_SX_SY_SZ.
  - now apply c_A_B_AX_AY_AZ_BX_BY_BZ_TAUA_TAUB.
  - now apply c_N_S_NX_NY_NZ_SX_SY_SZ_TAUN_TAUS.
  - now apply c_A_B_2ND_TAYLOR.
  - now apply c_N.
  - now apply c_N_GNN.
  - now apply c_N_GNN_TAUN.
  - now apply c_N_NX_NY_NZ.
  - now apply c_N_NX_NY_NZ_TAUN.
  - now apply c_N_2ND_TAYLOR.
Qed.
End P.
