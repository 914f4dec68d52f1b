(** * Density variables: the constructor densvars::densvars, /repo/src/densvars.hpp 38-218

    One list of assignments per [case], in program order; a case without [break] is
    followed by the next one ([++]). *)
From Coq Require Import QArith ZArith List Bool String.
From Verif Require Import Scalar Tables CTaylor TMath Br Expr.
Import ListNotations.
Local Open Scope list_scope.
Local Open Scope ex_scope.

Notation "f <<- e" := (@pair fld expr f e%ex) (at level 80, no associativity).
Notation "d[ i ]" := (EIn i%nat) (at level 0, i at level 200) : ex_scope.

(** 48-53 *)
Definition dv_A : list (fld * expr) :=
  [f_b <<- EConst 0; f_n <<- d_a; f_n <<- EReg d_n; f_s <<- d_n].
(** 41-47 *)
Definition dv_A_GAA : list (fld * expr) :=
  [f_gaa <<- d[1]; f_gab <<- EConst 0; f_gbb <<- EConst 0;
   f_gnn <<- d_gaa; f_gss <<- d_gaa; f_gns <<- d_gaa] ++ dv_A.
(** 65-72 *)
Definition dv_A_B : list (fld * expr) :=
  [f_a <<- d[0]; f_a <<- EReg d_a; f_b <<- d[1]; f_b <<- EReg d_b;
   f_n <<- d_a + d_b; f_s <<- d_a - d_b].
(** 58-64 *)
Definition dv_A_B_GAA_GAB_GBB : list (fld * expr) :=
  [f_gaa <<- d[2]; f_gab <<- d[3]; f_gbb <<- d[4];
   f_gnn <<- d_gaa + 2 :* d_gab + d_gbb; f_gss <<- d_gaa - 2 :* d_gab + d_gbb;
   f_gns <<- d_gaa - d_gbb] ++ dv_A_B.
(** 54-57 *)
Definition dv_A_B_GAA_GAB_GBB_TAUA_TAUB : list (fld * expr) :=
  [f_taua <<- d[5]; f_taub <<- d[6]; f_tau <<- d_taua + d_taub] ++ dv_A_B_GAA_GAB_GBB.
(** 84-92 *)
Definition dv_N_S : list (fld * expr) :=
  [f_n <<- d[0]; f_n <<- EReg d_n; f_s <<- d[1]; f_a <<- d_n + d_s; f_a <<- EReg d_a;
   f_b <<- d_n - d_s; f_b <<- EReg d_b].
(** 77-83 *)
Definition dv_N_S_GNN_GNS_GSS : list (fld * expr) :=
  [f_gnn <<- d[2]; f_gns <<- d[3]; f_gss <<- d[4];
   f_gaa <<- 0.25 :* (d_gnn + 2 :* d_gns + d_gss); f_gab <<- 0.25 :* (d_gnn - d_gss);
   f_gbb <<- 0.25 :* (d_gnn - 2 :* d_gns + d_gss)] ++ dv_N_S.
(** 73-76 *)
Definition dv_N_S_GNN_GNS_GSS_TAUN_TAUS : list (fld * expr) :=
  [f_taua <<- d[5] + d[6]; f_taub <<- d[5] - d[6]; f_tau <<- d_taua + d_taub]
  ++ dv_N_S_GNN_GNS_GSS.
(** 104-110 *)
Definition dv_N : list (fld * expr) :=
  [f_n <<- d[0]; f_n <<- EReg d_n; f_s <<- EConst 0; f_a <<- 0.5 :* d_n; f_b <<- d_a].
(** 97-103 *)
Definition dv_N_GNN : list (fld * expr) :=
  [f_gnn <<- d[1]; f_gss <<- EConst 0; f_gns <<- EConst 0; f_gaa <<- 0.25 :* d_gnn;
   f_gab <<- d_gaa; f_gbb <<- d_gaa] ++ dv_N.
(** 93-96 *)
Definition dv_N_GNN_TAUN : list (fld * expr) :=
  [f_taua <<- d[2] /: 2; f_taub <<- d[2] /: 2; f_tau <<- d[2]] ++ dv_N_GNN.
(** 118-130 *)
Definition dv_N_NX_NY_NZ : list (fld * expr) :=
  [f_gnn <<- d[1] * d[1] + d[2] * d[2] + d[3] * d[3]; f_gss <<- EConst 0; f_gns <<- EConst 0;
   f_gaa <<- 0.25 :* d_gnn; f_gab <<- d_gaa; f_gbb <<- d_gaa;
   f_n <<- d[0]; f_n <<- EReg d_n; f_s <<- EConst 0; f_a <<- 0.5 :* d_n; f_b <<- d_a].
(** 114-117 *)
Definition dv_N_NX_NY_NZ_TAUN : list (fld * expr) :=
  [f_taua <<- d[4] /: 2; f_taub <<- d[4] /: 2; f_tau <<- d[4]] ++ dv_N_NX_NY_NZ.
(** 111-113 *)
Definition dv_N_2ND_TAYLOR : list (fld * expr) :=
  [f_lapa <<- 0.5 :* (d[4] + d[7] + d[9]); f_lapb <<- d_lapa] ++ dv_N_NX_NY_NZ_TAUN.
(** 131-147 *)
Definition dv_A_B_2ND_TAYLOR : list (fld * expr) :=
  [f_lapa <<- d[4] + d[7] + d[9]; f_lapb <<- d[14] + d[17] + d[19];
   f_a <<- d[0]; f_a <<- EReg d_a; f_b <<- d[10]; f_b <<- EReg d_b;
   f_gaa <<- d[1] * d[1] + d[2] * d[2] + d[3] * d[3];
   f_gab <<- d[1] * d[11] + d[2] * d[12] + d[3] * d[13];
   f_gbb <<- d[11] * d[11] + d[12] * d[12] + d[13] * d[13];
   f_gnn <<- d_gaa + 2 :* d_gab + d_gbb; f_gss <<- d_gaa - 2 :* d_gab + d_gbb;
   f_gns <<- d_gaa - d_gbb; f_n <<- d_a + d_b; f_s <<- d_a - d_b].
(** 152-166 *)
Definition dv_A_B_AX_AY_AZ_BX_BY_BZ : list (fld * expr) :=
  [f_a <<- d[0]; f_a <<- EReg d_a; f_b <<- d[1]; f_b <<- EReg d_b;
   f_gaa <<- d[2] * d[2] + d[3] * d[3] + d[4] * d[4];
   f_gab <<- d[2] * d[5] + d[3] * d[6] + d[4] * d[7];
   f_gbb <<- d[5] * d[5] + d[6] * d[6] + d[7] * d[7];
   f_gnn <<- d_gaa + 2 :* d_gab + d_gbb; f_gss <<- d_gaa - 2 :* d_gab + d_gbb;
   f_gns <<- d_gaa - d_gbb; f_n <<- d_a + d_b; f_s <<- d_a - d_b].
(** 148-151 *)
Definition dv_A_B_AX_AY_AZ_BX_BY_BZ_TAUA_TAUB : list (fld * expr) :=
  [f_taua <<- d[8]; f_taub <<- d[9]; f_tau <<- d[8] + d[9]] ++ dv_A_B_AX_AY_AZ_BX_BY_BZ.
(** 171-186 *)
Definition dv_N_S_NX_NY_NZ_SX_SY_SZ : list (fld * expr) :=
  [f_n <<- d[0]; f_n <<- EReg d_n; f_s <<- d[1];
   f_a <<- 0.5 :* (d_n + d_s); f_a <<- EReg d_a; f_b <<- 0.5 :* (d_n - d_s); f_b <<- EReg d_b;
   f_gnn <<- d[2] * d[2] + d[3] * d[3] + d[4] * d[4];
   f_gss <<- d[5] * d[5] + d[6] * d[6] + d[7] * d[7];
   f_gns <<- d[2] * d[5] + d[3] * d[6] + d[4] * d[7];
   f_gaa <<- 0.25 :* (d_gnn + 2 :* d_gns + d_gss); f_gab <<- 0.25 :* (d_gnn - d_gss);
   f_gbb <<- 0.25 :* (d_gnn - 2 :* d_gns + d_gss)].
(** 167-170 *)
Definition dv_N_S_NX_NY_NZ_SX_SY_SZ_TAUN_TAUS : list (fld * expr) :=
  [f_taua <<- 0.5 :* (d[8] + d[9]); f_taub <<- 0.5 :* (d[8] - d[9]); f_tau <<- d[8]]
  ++ dv_N_S_NX_NY_NZ_SX_SY_SZ.
(** 190-208 *)
Definition dv_A_B_GAA_GAB_GBB_LAPA_LAPB_TAUA_TAUB : list (fld * expr) :=
  [f_lapa <<- d[5]; f_lapb <<- d[6]; f_taua <<- d[7]; f_taub <<- d[8]; f_tau <<- d_taua + d_taub;
   f_gaa <<- d[2]; f_gab <<- d[3]; f_gbb <<- d[4];
   f_gnn <<- d_gaa + 2 :* d_gab + d_gbb; f_gss <<- d_gaa - 2 :* d_gab + d_gbb;
   f_gns <<- d_gaa - d_gbb;
   f_a <<- d[0]; f_a <<- EReg d_a; f_b <<- d[1]; f_b <<- EReg d_b;
   f_n <<- d_a + d_b; f_s <<- d_a - d_b].
(** 187-189 *)
Definition dv_JP : list (fld * expr) :=
  [f_jpaa <<- d[9]; f_jpbb <<- d[10]] ++ dv_A_B_GAA_GAB_GBB_LAPA_LAPB_TAUA_TAUB.

(** The switch, 40-212; [None] is the default case, which dies. *)
Definition dv_switch (vars : Z) : option (list (fld * expr)) :=
  if Z.eqb vars XC_A_GAA then Some dv_A_GAA
  else if Z.eqb vars XC_A then Some dv_A
  else if Z.eqb vars XC_A_B_GAA_GAB_GBB_TAUA_TAUB then Some dv_A_B_GAA_GAB_GBB_TAUA_TAUB
  else if Z.eqb vars XC_A_B_GAA_GAB_GBB then Some dv_A_B_GAA_GAB_GBB
  else if Z.eqb vars XC_A_B then Some dv_A_B
  else if Z.eqb vars XC_N_S_GNN_GNS_GSS_TAUN_TAUS then Some dv_N_S_GNN_GNS_GSS_TAUN_TAUS
  else if Z.eqb vars XC_N_S_GNN_GNS_GSS then Some dv_N_S_GNN_GNS_GSS
  else if Z.eqb vars XC_N_S then Some dv_N_S
  else if Z.eqb vars XC_N_GNN_TAUN then Some dv_N_GNN_TAUN
  else if Z.eqb vars XC_N_GNN then Some dv_N_GNN
  else if Z.eqb vars XC_N then Some dv_N
  else if Z.eqb vars XC_N_2ND_TAYLOR then Some dv_N_2ND_TAYLOR
  else if Z.eqb vars XC_N_NX_NY_NZ_TAUN then Some dv_N_NX_NY_NZ_TAUN
  else if Z.eqb vars XC_N_NX_NY_NZ then Some dv_N_NX_NY_NZ
  else if Z.eqb vars XC_A_B_2ND_TAYLOR then Some dv_A_B_2ND_TAYLOR
  else if Z.eqb vars XC_A_B_AX_AY_AZ_BX_BY_BZ_TAUA_TAUB then Some dv_A_B_AX_AY_AZ_BX_BY_BZ_TAUA_TAUB
  else if Z.eqb vars XC_A_B_AX_AY_AZ_BX_BY_BZ then Some dv_A_B_AX_AY_AZ_BX_BY_BZ
  else if Z.eqb vars XC_N_S_NX_NY_NZ_SX_SY_SZ_TAUN_TAUS then Some dv_N_S_NX_NY_NZ_SX_SY_SZ_TAUN_TAUS
  else if Z.eqb vars XC_N_S_NX_NY_NZ_SX_SY_SZ then Some dv_N_S_NX_NY_NZ_SX_SY_SZ
  else if Z.eqb vars XC_A_B_GAA_GAB_GBB_LAPA_LAPB_TAUA_TAUB_JPAA_JPBB then Some dv_JP
  else if Z.eqb vars XC_A_B_GAA_GAB_GBB_LAPA_LAPB_TAUA_TAUB
  then Some dv_A_B_GAA_GAB_GBB_LAPA_LAPB_TAUA_TAUB
  else None.

(** 213-217 *)
Definition dv_derived : list (fld * expr) :=
  [f_zeta <<- d_s / d_n;
   f_r_s <<- EPow (3.0 :/ (d_n *: 4.0 *: SPi)) (1.0 / 3.0);
   f_n_m13 <<- EPow d_n (- 1.0 / 3.0);
   f_a_43 <<- EPow d_a (4.0 / 3.0);
   f_b_43 <<- EPow d_b (4.0 / 3.0)].

(** The constructor body; all fields start at 0 (223-244). *)
Definition dv_prog (vars : Z) : option (list (fld * expr)) :=
  match dv_switch vars with Some p => Some (p ++ dv_derived) | None => None end.

Definition dv_init {K : Ops} (n : nat) : fld -> ct K n := fun _ => ct_const n (OofQ 0).

Definition densvars {K : Ops} (st : nat -> K) (n : nat) (vars : Z) (d : nat -> ct K n)
  : outcome (fld -> ct K n) :=
  match dv_prog vars with
  | Some p => of_option (run st n d (dv_init n) p)
  | None => Die
  end.
