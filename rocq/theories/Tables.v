(** * Static tables of the library, transcribed from the sources. *)
From Coq Require Import String ZArith QArith List.
Import ListNotations.
Local Open Scope string_scope.
Local Open Scope Z_scope.

(** /repo/src/xcint.hpp 26-28 *)
Definition XC_MAX_ALIASES : Z := 60.
Definition MAX_ALIAS_TERMS : nat := 10.
Definition XC_MAX_INVARS : Z := 20.

(** XCFUN_MAX_ORDER: /repo/cmake/custom/xcfun.cmake, default 6. *)
Definition XCFUN_MAX_ORDER : Z := 6.

(** /repo/src/xcint.hpp 44-48 *)
Definition XC_DENSITY : Z := 1.
Definition XC_GRADIENT : Z := 2.
Definition XC_LAPLACIAN : Z := 4.
Definition XC_KINETIC : Z := 8.
Definition XC_JP : Z := 16.
Local Infix "||" := Z.lor : Z_scope.

(** /repo/api/xcfun.h 35-41 *)
Definition XC_MODE_UNSET : Z := 0.
Definition XC_PARTIAL_DERIVATIVES : Z := 1.
Definition XC_POTENTIAL : Z := 2.
Definition XC_CONTRACTED : Z := 3.
Definition XC_NR_MODES : Z := 4.

(** /repo/src/XCFunctional.hpp 40-46 *)
Definition XC_EORDER : Z := 1.
Definition XC_EVARS : Z := 2.
Definition XC_EMODE : Z := 4.

(** Variable sets: /repo/api/xcfun.h 86-122. *)
Definition XC_VARS_UNSET : Z := -1.
Definition XC_A : Z := 0.
Definition XC_N : Z := 1.
Definition XC_A_B : Z := 2.
Definition XC_N_S : Z := 3.
Definition XC_A_GAA : Z := 4.
Definition XC_N_GNN : Z := 5.
Definition XC_A_B_GAA_GAB_GBB : Z := 6.
Definition XC_N_S_GNN_GNS_GSS : Z := 7.
Definition XC_A_GAA_LAPA : Z := 8.
Definition XC_A_GAA_TAUA : Z := 9.
Definition XC_N_GNN_LAPN : Z := 10.
Definition XC_N_GNN_TAUN : Z := 11.
Definition XC_A_B_GAA_GAB_GBB_LAPA_LAPB : Z := 12.
Definition XC_A_B_GAA_GAB_GBB_TAUA_TAUB : Z := 13.
Definition XC_N_S_GNN_GNS_GSS_LAPN_LAPS : Z := 14.
Definition XC_N_S_GNN_GNS_GSS_TAUN_TAUS : Z := 15.
Definition XC_A_B_GAA_GAB_GBB_LAPA_LAPB_TAUA_TAUB : Z := 16.
Definition XC_A_B_GAA_GAB_GBB_LAPA_LAPB_TAUA_TAUB_JPAA_JPBB : Z := 17.
Definition XC_N_S_GNN_GNS_GSS_LAPN_LAPS_TAUN_TAUS : Z := 18.
Definition XC_A_AX_AY_AZ : Z := 19.
Definition XC_A_B_AX_AY_AZ_BX_BY_BZ : Z := 20.
Definition XC_N_NX_NY_NZ : Z := 21.
Definition XC_N_S_NX_NY_NZ_SX_SY_SZ : Z := 22.
Definition XC_A_AX_AY_AZ_TAUA : Z := 23.
Definition XC_A_B_AX_AY_AZ_BX_BY_BZ_TAUA_TAUB : Z := 24.
Definition XC_N_NX_NY_NZ_TAUN : Z := 25.
Definition XC_N_S_NX_NY_NZ_SX_SY_SZ_TAUN_TAUS : Z := 26.
Definition XC_A_2ND_TAYLOR : Z := 27.
Definition XC_A_B_2ND_TAYLOR : Z := 28.
Definition XC_N_2ND_TAYLOR : Z := 29.
Definition XC_N_S_2ND_TAYLOR : Z := 30.
Definition XC_NR_VARS : Z := 31.

(** /repo/src/xcint.hpp 74-78 *)
Record vars_data := mkVars { v_symbol : string; v_len : Z; v_provides : Z }.

(** /repo/src/xcint.cpp 93-135 *)
Definition xcint_vars : list vars_data :=
  [
   mkVars "XC_A" 1 (XC_DENSITY);
   mkVars "XC_N" 1 (XC_DENSITY);
   mkVars "XC_A_B" 2 (XC_DENSITY);
   mkVars "XC_N_S" 2 (XC_DENSITY);
   mkVars "XC_A_GAA" 2 (XC_DENSITY || XC_GRADIENT);
   mkVars "XC_N_GNN" 2 (XC_DENSITY || XC_GRADIENT);
   mkVars "XC_A_B_GAA_GAB_GBB" 5 (XC_DENSITY || XC_GRADIENT);
   mkVars "XC_N_S_GNN_GNS_GSS" 5 (XC_DENSITY || XC_GRADIENT);
   mkVars "XC_A_GAA_LAPA" 3 (XC_DENSITY || XC_GRADIENT || XC_LAPLACIAN);
   mkVars "XC_A_GAA_TAUA" 3 (XC_DENSITY || XC_GRADIENT || XC_KINETIC);
   mkVars "XC_N_GNN_LAPN" 3 (XC_DENSITY || XC_GRADIENT || XC_LAPLACIAN);
   mkVars "XC_N_GNN_TAUN" 3 (XC_DENSITY || XC_GRADIENT || XC_KINETIC);
   mkVars "XC_A_B_GAA_GAB_GBB_LAPA_LAPB" 7 (XC_DENSITY || XC_GRADIENT || XC_LAPLACIAN);
   mkVars "XC_A_B_GAA_GAB_GBB_TAUA_TAUB" 7 (XC_DENSITY || XC_GRADIENT || XC_KINETIC);
   mkVars "XC_N_S_GNN_GNS_GSS_LAPN_LAPS" 7 (XC_DENSITY || XC_GRADIENT || XC_LAPLACIAN);
   mkVars "XC_N_S_GNN_GNS_GSS_TAUN_TAUS" 7 (XC_DENSITY || XC_GRADIENT || XC_KINETIC);
   mkVars "XC_A_B_GAA_GAB_GBB_LAPA_LAPB_TAUA_TAUB" 9 (XC_DENSITY || XC_GRADIENT || XC_LAPLACIAN || XC_KINETIC);
   mkVars "XC_A_B_GAA_GAB_GBB_LAPA_LAPB_TAUA_TAUB_JPAA_JPBB" 11 (XC_DENSITY || XC_GRADIENT || XC_LAPLACIAN || XC_KINETIC || XC_JP);
   mkVars "XC_N_S_GNN_GNS_GSS_LAPN_LAPS_TAUN_TAUS" 9 (XC_DENSITY || XC_GRADIENT || XC_LAPLACIAN || XC_KINETIC);
   mkVars "XC_A_AX_AY_AZ" 4 (XC_DENSITY || XC_GRADIENT);
   mkVars "XC_A_B_AX_AY_AZ_BX_BY_BZ" 8 (XC_DENSITY || XC_GRADIENT);
   mkVars "XC_N_NX_NY_NZ" 4 (XC_DENSITY || XC_GRADIENT);
   mkVars "XC_N_S_NX_NY_NZ_SX_SY_SZ" 8 (XC_DENSITY || XC_GRADIENT);
   mkVars "XC_A_AX_AY_AZ_TAUA" 5 (XC_DENSITY || XC_GRADIENT || XC_KINETIC);
   mkVars "XC_A_B_AX_AY_AZ_BX_BY_BZ_TAUA_TAUB" 10 (XC_DENSITY || XC_GRADIENT || XC_KINETIC);
   mkVars "XC_N_NX_NY_NZ_TAUN" 5 (XC_DENSITY || XC_GRADIENT || XC_KINETIC);
   mkVars "XC_N_S_NX_NY_NZ_SX_SY_SZ_TAUN_TAUS" 10 (XC_DENSITY || XC_GRADIENT || XC_KINETIC);
   mkVars "XC_A_2ND_TAYLOR" 10 (XC_DENSITY || XC_GRADIENT || XC_LAPLACIAN);
   mkVars "XC_A_B_2ND_TAYLOR" 20 (XC_DENSITY || XC_GRADIENT || XC_LAPLACIAN);
   mkVars "XC_N_2ND_TAYLOR" 10 (XC_DENSITY || XC_GRADIENT || XC_LAPLACIAN);
   mkVars "XC_N_S_2ND_TAYLOR" 20 (XC_DENSITY || XC_GRADIENT || XC_LAPLACIAN)].

(** Entry of [xcint_funs] (/repo/src/xcint.hpp 50-65) restricted to the fields the
    API layer reads: the name (symbol without "XC_", /repo/src/xcint.cpp 76), the
    dependency flags, and the test description (variable set, mode, order, number
    of reference inputs and outputs; zero-initialised, i.e. mode UNSET, when absent).
    The energy functions are modelled in Functionals.v; descriptions are not
    modelled beyond being present. *)
Record fun_data := mkFun {
  f_name : string; f_depends : Z;
  f_test_vars : Z; f_test_mode : Z; f_test_order : Z; f_test_nin : Z; f_test_nout : Z }.

(** /repo/src/functionals/list_of_functionals.hpp 17-97 (order) and the FUNCTIONAL
    blocks cited on each line. *)
Definition xcint_funs : list fun_data :=
  [
   mkFun "SLATERX" (XC_DENSITY) XC_A_B XC_PARTIAL_DERIVATIVES 2 2 6; (* slaterx.cpp 18-37 *)
   mkFun "PW86X" (XC_DENSITY || XC_GRADIENT) XC_A_B_GAA_GAB_GBB XC_MODE_UNSET 0 0 0; (* pw86x.cpp 34-40 *)
   mkFun "VWN3C" (XC_DENSITY) XC_A XC_MODE_UNSET 0 0 0; (* vwn3.cpp 22-30 *)
   mkFun "VWN5C" (XC_DENSITY) XC_A_B XC_PARTIAL_DERIVATIVES 2 2 6; (* vwn5c.cpp 22-41 *)
   mkFun "PBEC" (XC_DENSITY || XC_GRADIENT) XC_A_B_GAA_GAB_GBB XC_PARTIAL_DERIVATIVES 2 5 21; (* pbec.cpp 58-80 *)
   mkFun "PBEX" (XC_DENSITY || XC_GRADIENT) XC_A XC_MODE_UNSET 0 0 0; (* pbex.cpp 25-50 *)
   mkFun "BECKEX" (XC_DENSITY || XC_GRADIENT) XC_A_B_GAA_GAB_GBB XC_PARTIAL_DERIVATIVES 2 5 21; (* beckex.cpp 96-118 *)
   mkFun "BECKECORRX" (XC_DENSITY || XC_GRADIENT) XC_A_B_GAA_GAB_GBB XC_PARTIAL_DERIVATIVES 2 5 21; (* beckex.cpp 120-156 *)
   mkFun "BECKESRX" (XC_DENSITY || XC_GRADIENT) XC_A XC_MODE_UNSET 0 0 0; (* beckex.cpp 158-163 *)
   mkFun "BECKECAMX" (XC_DENSITY || XC_GRADIENT) XC_A XC_MODE_UNSET 0 0 0; (* beckex.cpp 165-169 *)
   mkFun "BRX" (XC_DENSITY || XC_GRADIENT || XC_KINETIC || XC_LAPLACIAN || XC_JP) XC_A XC_MODE_UNSET 0 0 0; (* brx.cpp 138-143 *)
   mkFun "BRC" (XC_DENSITY || XC_GRADIENT || XC_KINETIC || XC_LAPLACIAN || XC_JP) XC_A XC_MODE_UNSET 0 0 0; (* brx.cpp 145-150 *)
   mkFun "BRXC" (XC_DENSITY || XC_GRADIENT || XC_KINETIC || XC_LAPLACIAN || XC_JP) XC_A XC_MODE_UNSET 0 0 0; (* brx.cpp 152-157 *)
   mkFun "LDAERFX" (XC_DENSITY) XC_A_B XC_PARTIAL_DERIVATIVES 2 2 6; (* ldaerfx.cpp 54-73 *)
   mkFun "LDAERFC" (XC_DENSITY) XC_A_B XC_PARTIAL_DERIVATIVES 2 2 6; (* ldaerfc.cpp 112-133 *)
   mkFun "LDAERFC_JT" (XC_DENSITY) XC_A XC_MODE_UNSET 0 0 0; (* ldaerfc_jt.cpp 55-64 *)
   mkFun "LYPC" (XC_DENSITY || XC_GRADIENT) XC_A_B_GAA_GAB_GBB XC_PARTIAL_DERIVATIVES 2 5 21; (* lypc.cpp 41-74 *)
   mkFun "OPTX" (XC_DENSITY || XC_GRADIENT) XC_A XC_MODE_UNSET 0 0 0; (* optx.cpp 28-32 *)
   mkFun "OPTXCORR" (XC_DENSITY || XC_GRADIENT) XC_A XC_MODE_UNSET 0 0 0; (* optxcorr.cpp 35-40 *)
   mkFun "REVPBEX" (XC_DENSITY || XC_GRADIENT) XC_A XC_MODE_UNSET 0 0 0; (* revpbex.cpp 23-28 *)
   mkFun "RPBEX" (XC_DENSITY || XC_GRADIENT) XC_A XC_MODE_UNSET 0 0 0; (* rpbex.cpp 25-31 *)
   mkFun "SPBEC" (XC_DENSITY || XC_GRADIENT) XC_A XC_MODE_UNSET 0 0 0; (* spbec.cpp 47-53 *)
   mkFun "VWN_PBEC" (XC_DENSITY || XC_GRADIENT) XC_A XC_MODE_UNSET 0 0 0; (* pbec.cpp 82-92 *)
   mkFun "KTX" (XC_DENSITY || XC_GRADIENT) XC_A_B_GAA_GAB_GBB XC_PARTIAL_DERIVATIVES 2 5 21; (* ktx.cpp 26-77 *)
   mkFun "TFK" (XC_DENSITY) XC_A_B XC_PARTIAL_DERIVATIVES 1 2 6; (* tfk.cpp 26-40 *)
   mkFun "TW" (XC_DENSITY || XC_GRADIENT) XC_A_B_GAA_GAB_GBB XC_MODE_UNSET 0 0 0; (* tw.cpp 24-30 *)
   mkFun "PW91X" (XC_DENSITY || XC_GRADIENT) XC_A_B_GAA_GAB_GBB XC_PARTIAL_DERIVATIVES 2 5 21; (* pw91x.cpp 26-49 *)
   mkFun "PW91K" (XC_DENSITY || XC_GRADIENT) XC_A XC_MODE_UNSET 0 0 0; (* pw91k.cpp 30-35 *)
   mkFun "PW92C" (XC_DENSITY) XC_A_B XC_PARTIAL_DERIVATIVES 2 2 6; (* pw92c.cpp 22-41 *)
   mkFun "M05X" (XC_DENSITY || XC_GRADIENT || XC_KINETIC) XC_A_B_GAA_GAB_GBB_TAUA_TAUB XC_PARTIAL_DERIVATIVES 1 7 8; (* m05x.cpp 41-59 *)
   mkFun "M05X2X" (XC_DENSITY || XC_GRADIENT || XC_KINETIC) XC_A_B_GAA_GAB_GBB_TAUA_TAUB XC_PARTIAL_DERIVATIVES 1 7 8; (* m05x2x.cpp 41-59 *)
   mkFun "M06X" (XC_DENSITY || XC_GRADIENT || XC_KINETIC) XC_A XC_MODE_UNSET 0 0 0; (* m06x.cpp 56-85 *)
   mkFun "M06X2X" (XC_DENSITY || XC_GRADIENT || XC_KINETIC) XC_A_B_GAA_GAB_GBB_TAUA_TAUB XC_PARTIAL_DERIVATIVES 1 7 8; (* m06x2x.cpp 43-61 *)
   mkFun "M06LX" (XC_DENSITY || XC_GRADIENT || XC_KINETIC) XC_A_B_GAA_GAB_GBB_TAUA_TAUB XC_PARTIAL_DERIVATIVES 1 7 8; (* m06lx.cpp 56-74 *)
   mkFun "M06HFX" (XC_DENSITY || XC_GRADIENT || XC_KINETIC) XC_A_B_GAA_GAB_GBB_TAUA_TAUB XC_PARTIAL_DERIVATIVES 1 7 8; (* m06hfx.cpp 56-74 *)
   mkFun "M05X2C" (XC_DENSITY || XC_GRADIENT || XC_KINETIC) XC_A XC_MODE_UNSET 0 0 0; (* m05x2c.cpp 50-56 *)
   mkFun "M05C" (XC_DENSITY || XC_GRADIENT || XC_KINETIC) XC_A XC_MODE_UNSET 0 0 0; (* m05c.cpp 50-56 *)
   mkFun "M06C" (XC_DENSITY || XC_GRADIENT || XC_KINETIC) XC_A_B_GAA_GAB_GBB_TAUA_TAUB XC_PARTIAL_DERIVATIVES 1 7 8; (* m06c.cpp 65-84 *)
   mkFun "M06HFC" (XC_DENSITY || XC_GRADIENT || XC_KINETIC) XC_A XC_MODE_UNSET 0 0 0; (* m06hfc.cpp 65-71 *)
   mkFun "M06LC" (XC_DENSITY || XC_GRADIENT || XC_KINETIC) XC_A XC_MODE_UNSET 0 0 0; (* m06lc.cpp 64-69 *)
   mkFun "M06X2C" (XC_DENSITY || XC_GRADIENT || XC_KINETIC) XC_A XC_MODE_UNSET 0 0 0; (* m06x2c.cpp 65-71 *)
   mkFun "TPSSC" (XC_DENSITY || XC_GRADIENT || XC_KINETIC) XC_A_B_GAA_GAB_GBB_TAUA_TAUB XC_PARTIAL_DERIVATIVES 1 7 8; (* tpssc.cpp 24-45 *)
   mkFun "TPSSX" (XC_DENSITY || XC_GRADIENT || XC_KINETIC) XC_A_B_GAA_GAB_GBB_TAUA_TAUB XC_PARTIAL_DERIVATIVES 1 7 8; (* tpssx.cpp 29-56 *)
   mkFun "REVTPSSC" (XC_DENSITY || XC_GRADIENT || XC_KINETIC) XC_A XC_MODE_UNSET 0 0 0; (* revtpssc.cpp 24-33 *)
   mkFun "REVTPSSX" (XC_DENSITY || XC_GRADIENT) XC_A XC_MODE_UNSET 0 0 0; (* revtpssx.cpp 23-32 *)
   mkFun "SCANC" (XC_DENSITY || XC_GRADIENT || XC_KINETIC) XC_A_B_GAA_GAB_GBB_TAUA_TAUB XC_PARTIAL_DERIVATIVES 1 7 8; (* SCANc.cpp 25-43 *)
   mkFun "SCANX" (XC_DENSITY || XC_GRADIENT || XC_KINETIC) XC_A_B_GAA_GAB_GBB_TAUA_TAUB XC_PARTIAL_DERIVATIVES 1 7 8; (* SCANx.cpp 30-49 *)
   mkFun "RSCANC" (XC_DENSITY || XC_GRADIENT || XC_KINETIC) XC_A_B_GAA_GAB_GBB_TAUA_TAUB XC_PARTIAL_DERIVATIVES 1 7 8; (* rSCANc.cpp 25-44 *)
   mkFun "RSCANX" (XC_DENSITY || XC_GRADIENT || XC_KINETIC) XC_A_B_GAA_GAB_GBB_TAUA_TAUB XC_PARTIAL_DERIVATIVES 1 7 8; (* rSCANx.cpp 30-49 *)
   mkFun "RPPSCANC" (XC_DENSITY || XC_GRADIENT || XC_KINETIC) XC_A_B_GAA_GAB_GBB_TAUA_TAUB XC_PARTIAL_DERIVATIVES 1 7 8; (* rppSCANc.cpp 25-43 *)
   mkFun "RPPSCANX" (XC_DENSITY || XC_GRADIENT || XC_KINETIC) XC_A_B_GAA_GAB_GBB_TAUA_TAUB XC_PARTIAL_DERIVATIVES 1 7 8; (* rppSCANx.cpp 30-48 *)
   mkFun "R2SCANC" (XC_DENSITY || XC_GRADIENT || XC_KINETIC) XC_A_B_GAA_GAB_GBB_TAUA_TAUB XC_PARTIAL_DERIVATIVES 1 7 8; (* r2SCANc.cpp 25-44 *)
   mkFun "R2SCANX" (XC_DENSITY || XC_GRADIENT || XC_KINETIC) XC_A_B_GAA_GAB_GBB_TAUA_TAUB XC_PARTIAL_DERIVATIVES 1 7 8; (* r2SCANx.cpp 30-49 *)
   mkFun "R4SCANC" (XC_DENSITY || XC_GRADIENT || XC_KINETIC) XC_A_B_GAA_GAB_GBB_TAUA_TAUB XC_PARTIAL_DERIVATIVES 1 7 8; (* r4SCANc.cpp 25-43 *)
   mkFun "R4SCANX" (XC_DENSITY || XC_GRADIENT || XC_KINETIC) XC_A_B_GAA_GAB_GBB_TAUA_TAUB XC_PARTIAL_DERIVATIVES 1 7 8; (* r4SCANx.cpp 30-48 *)
   mkFun "PZ81C" (XC_DENSITY) XC_A_B XC_PARTIAL_DERIVATIVES 2 2 6; (* pz81c.cpp 22-49 *)
   mkFun "P86C" (XC_DENSITY || XC_GRADIENT) XC_A_B_GAA_GAB_GBB XC_PARTIAL_DERIVATIVES 2 5 21; (* p86c.cpp 54-110 *)
   mkFun "P86CORRC" (XC_DENSITY || XC_GRADIENT) XC_A XC_MODE_UNSET 0 0 0; (* p86c.cpp 112-119 *)
   mkFun "BTK" (XC_DENSITY || XC_GRADIENT) XC_A XC_MODE_UNSET 0 0 0; (* btk.cpp 29-33 *)
   mkFun "VWK" (XC_DENSITY || XC_GRADIENT) XC_A XC_MODE_UNSET 0 0 0; (* vonw.cpp 25-29 *)
   mkFun "B97X" (XC_DENSITY || XC_GRADIENT) XC_A XC_MODE_UNSET 0 0 0; (* b97xc.cpp 36-43 *)
   mkFun "B97C" (XC_DENSITY || XC_GRADIENT) XC_A XC_MODE_UNSET 0 0 0; (* b97xc.cpp 45-52 *)
   mkFun "B97_1X" (XC_DENSITY || XC_GRADIENT) XC_A XC_MODE_UNSET 0 0 0; (* b97-1xc.cpp 36-42 *)
   mkFun "B97_1C" (XC_DENSITY || XC_GRADIENT) XC_A XC_MODE_UNSET 0 0 0; (* b97-1xc.cpp 44-50 *)
   mkFun "B97_2X" (XC_DENSITY || XC_GRADIENT) XC_A XC_MODE_UNSET 0 0 0; (* b97-2xc.cpp 36-43 *)
   mkFun "B97_2C" (XC_DENSITY || XC_GRADIENT) XC_A XC_MODE_UNSET 0 0 0; (* b97-2xc.cpp 45-52 *)
   mkFun "CSC" (XC_DENSITY || XC_GRADIENT || XC_KINETIC || XC_LAPLACIAN || XC_JP) XC_A XC_MODE_UNSET 0 0 0; (* cs.cpp 29-35 *)
   mkFun "APBEC" (XC_DENSITY || XC_GRADIENT) XC_A XC_MODE_UNSET 0 0 0; (* apbec.cpp 40-46 *)
   mkFun "APBEX" (XC_DENSITY || XC_GRADIENT) XC_A XC_MODE_UNSET 0 0 0; (* apbex.cpp 40-46 *)
   mkFun "ZVPBESOLC" (XC_DENSITY || XC_GRADIENT) XC_A XC_MODE_UNSET 0 0 0; (* zvpbesolc.cpp 95-101 *)
   mkFun "BLOCX" (XC_DENSITY || XC_GRADIENT || XC_KINETIC) XC_A XC_MODE_UNSET 0 0 0; (* blocx.cpp 55-61 *)
   mkFun "PBEINTC" (XC_DENSITY || XC_GRADIENT) XC_A XC_MODE_UNSET 0 0 0; (* pbeintc.cpp 40-46 *)
   mkFun "PBEINTX" (XC_DENSITY || XC_GRADIENT) XC_A XC_MODE_UNSET 0 0 0; (* pbeintx.cpp 43-49 *)
   mkFun "PBELOCC" (XC_DENSITY || XC_GRADIENT) XC_A XC_MODE_UNSET 0 0 0; (* pbelocc.cpp 43-50 *)
   mkFun "PBESOLX" (XC_DENSITY || XC_GRADIENT) XC_A XC_MODE_UNSET 0 0 0; (* pbesolx.cpp 41-46 *)
   mkFun "TPSSLOCC" (XC_DENSITY || XC_GRADIENT || XC_KINETIC) XC_A XC_MODE_UNSET 0 0 0; (* tpsslocc.cpp 99-105 *)
   mkFun "ZVPBEINTC" (XC_DENSITY || XC_GRADIENT) XC_A XC_MODE_UNSET 0 0 0; (* zvpbeint.cpp 57-63 *)
   mkFun "PW91C" (XC_DENSITY || XC_GRADIENT) XC_A_B_GAA_GAB_GBB XC_PARTIAL_DERIVATIVES 2 5 21 (* pw91c.cpp 90-190 *)].

Definition XC_NR_FUNCTIONALS : nat := 78.
Definition XC_NR_PARAMETERS_AND_FUNCTIONALS : nat := 82.
(** /repo/src/functionals/list_of_functionals.hpp 17-105: enumeration values. *)
Definition XC_SLATERX : nat := 0%nat.
Definition XC_PW86X : nat := 1%nat.
Definition XC_VWN3C : nat := 2%nat.
Definition XC_VWN5C : nat := 3%nat.
Definition XC_PBEC : nat := 4%nat.
Definition XC_PBEX : nat := 5%nat.
Definition XC_BECKEX : nat := 6%nat.
Definition XC_BECKECORRX : nat := 7%nat.
Definition XC_BECKESRX : nat := 8%nat.
Definition XC_BECKECAMX : nat := 9%nat.
Definition XC_BRX : nat := 10%nat.
Definition XC_BRC : nat := 11%nat.
Definition XC_BRXC : nat := 12%nat.
Definition XC_LDAERFX : nat := 13%nat.
Definition XC_LDAERFC : nat := 14%nat.
Definition XC_LDAERFC_JT : nat := 15%nat.
Definition XC_LYPC : nat := 16%nat.
Definition XC_OPTX : nat := 17%nat.
Definition XC_OPTXCORR : nat := 18%nat.
Definition XC_REVPBEX : nat := 19%nat.
Definition XC_RPBEX : nat := 20%nat.
Definition XC_SPBEC : nat := 21%nat.
Definition XC_VWN_PBEC : nat := 22%nat.
Definition XC_KTX : nat := 23%nat.
Definition XC_TFK : nat := 24%nat.
Definition XC_TW : nat := 25%nat.
Definition XC_PW91X : nat := 26%nat.
Definition XC_PW91K : nat := 27%nat.
Definition XC_PW92C : nat := 28%nat.
Definition XC_M05X : nat := 29%nat.
Definition XC_M05X2X : nat := 30%nat.
Definition XC_M06X : nat := 31%nat.
Definition XC_M06X2X : nat := 32%nat.
Definition XC_M06LX : nat := 33%nat.
Definition XC_M06HFX : nat := 34%nat.
Definition XC_M05X2C : nat := 35%nat.
Definition XC_M05C : nat := 36%nat.
Definition XC_M06C : nat := 37%nat.
Definition XC_M06HFC : nat := 38%nat.
Definition XC_M06LC : nat := 39%nat.
Definition XC_M06X2C : nat := 40%nat.
Definition XC_TPSSC : nat := 41%nat.
Definition XC_TPSSX : nat := 42%nat.
Definition XC_REVTPSSC : nat := 43%nat.
Definition XC_REVTPSSX : nat := 44%nat.
Definition XC_SCANC : nat := 45%nat.
Definition XC_SCANX : nat := 46%nat.
Definition XC_RSCANC : nat := 47%nat.
Definition XC_RSCANX : nat := 48%nat.
Definition XC_RPPSCANC : nat := 49%nat.
Definition XC_RPPSCANX : nat := 50%nat.
Definition XC_R2SCANC : nat := 51%nat.
Definition XC_R2SCANX : nat := 52%nat.
Definition XC_R4SCANC : nat := 53%nat.
Definition XC_R4SCANX : nat := 54%nat.
Definition XC_PZ81C : nat := 55%nat.
Definition XC_P86C : nat := 56%nat.
Definition XC_P86CORRC : nat := 57%nat.
Definition XC_BTK : nat := 58%nat.
Definition XC_VWK : nat := 59%nat.
Definition XC_B97X : nat := 60%nat.
Definition XC_B97C : nat := 61%nat.
Definition XC_B97_1X : nat := 62%nat.
Definition XC_B97_1C : nat := 63%nat.
Definition XC_B97_2X : nat := 64%nat.
Definition XC_B97_2C : nat := 65%nat.
Definition XC_CSC : nat := 66%nat.
Definition XC_APBEC : nat := 67%nat.
Definition XC_APBEX : nat := 68%nat.
Definition XC_ZVPBESOLC : nat := 69%nat.
Definition XC_BLOCX : nat := 70%nat.
Definition XC_PBEINTC : nat := 71%nat.
Definition XC_PBEINTX : nat := 72%nat.
Definition XC_PBELOCC : nat := 73%nat.
Definition XC_PBESOLX : nat := 74%nat.
Definition XC_TPSSLOCC : nat := 75%nat.
Definition XC_ZVPBEINTC : nat := 76%nat.
Definition XC_PW91C : nat := 77%nat.
Definition XC_RANGESEP_MU : nat := 78%nat.
Definition XC_EXX : nat := 79%nat.
Definition XC_CAM_ALPHA : nat := 80%nat.
Definition XC_CAM_BETA : nat := 81%nat.

(** /repo/src/functionals/common_parameters.cpp 17-29 (entries 78..81 of
    [xcint_params]; entries 0..77 are never set up and stay null). *)
Definition xcint_params : list (string * Q) :=
  [("RANGESEP_MU", 0.4%Q); ("EXX", 0%Q); ("CAM_ALPHA", 0.19%Q); ("CAM_BETA", 0.46%Q)].

(** /repo/src/functionals/aliases.cpp 17-138.  The remaining entries of the
    60-element array and the remaining terms of each entry are null. *)
Definition xcint_aliases : list (string * list (string * Q)) :=
  [
   ("null", [("slaterx", (0.0)%Q)]);
   ("lda", [("slaterx", (1.0)%Q); ("vwn5c", (1.0)%Q)]);
   ("blyp", [("beckex", (1.0)%Q); ("lypc", (1.0)%Q)]);
   ("pbe", [("pbex", (1.0)%Q); ("pbec", (1.0)%Q)]);
   ("bp86", [("beckex", (1.0)%Q); ("p86c", (1.0)%Q)]);
   ("kt1", [("slaterx", (1)%Q); ("ktx", (-0.006)%Q); ("vwn5c", (1)%Q)]);
   ("kt2", [("slaterx", (1.07173)%Q); ("ktx", (-0.006)%Q); ("vwn5c", (0.576727)%Q)]);
   ("kt3", [("slaterx", (1.092)%Q); ("ktx", (-0.004)%Q); ("optxcorr", (-0.925452)%Q); ("lypc", (0.864409)%Q)]);
   ("ldaerf", [("ldaerfx", (1.0)%Q); ("ldaerfc", (1.0)%Q)]);
   ("pbe0", [("pbex", (0.75)%Q); ("pbec", (1.0)%Q); ("exx", (0.25)%Q)]);
   ("b3lyp", [("slaterx", (0.80)%Q); ("beckecorrx", (0.72)%Q); ("lypc", (0.81)%Q); ("vwn5c", (0.19)%Q); ("exx", (0.20)%Q)]);
   ("m06", [("m06c", (1.0)%Q); ("m06x", (1.0)%Q)]);
   ("m06-2x", [("m06x2c", (1.0)%Q); ("m06x2x", (1.0)%Q)]);
   ("m06L", [("m06lc", (1.0)%Q); ("m06lx", (1.0)%Q)]);
   ("b3lyp-g", [("slaterx", (0.80)%Q); ("beckecorrx", (0.72)%Q); ("lypc", (0.81)%Q); ("vwn3c", (0.19)%Q); ("exx", (0.20)%Q)]);
   ("b3p86", [("slaterx", (0.80)%Q); ("beckecorrx", (0.72)%Q); ("p86corrc", (0.81)%Q); ("vwn5c", (1.0)%Q); ("exx", (0.20)%Q)]);
   ("b3p86-g", [("slaterx", (0.80)%Q); ("beckecorrx", (0.72)%Q); ("p86corrc", (0.81)%Q); ("vwn3c", (1.0)%Q); ("exx", (0.20)%Q)]);
   ("bpw91", [("beckex", (1.0)%Q); ("pw91c", (1.0)%Q)]);
   ("b97", [("b97x", (1.0)%Q); ("b97c", (1.0)%Q); ("exx", (0.1943)%Q)]);
   ("b97-1", [("b97_1x", (1.0)%Q); ("b97_1c", (1.0)%Q); ("exx", (0.21)%Q)]);
   ("b97_2", [("b97_2x", (1.0)%Q); ("b97_2c", (1.0)%Q); ("exx", (0.21)%Q)]);
   ("camb3lyp", [("cam_alpha", (0.19)%Q); ("cam_beta", (0.46)%Q); ("rangesep_mu", (0.33)%Q); ("beckecamx", (1.0)%Q); ("vwn5c", (0.19)%Q); ("lypc", (0.81)%Q); ("exx", (1.0)%Q)]);
   ("vwn", [("vwn5c", (1.0)%Q)]);
   ("vwn5", [("vwn5c", (1.0)%Q)]);
   ("vwn3", [("vwn3c", (1.0)%Q)]);
   ("svwn", [("slaterx", (1.0)%Q); ("vwn5c", (1.0)%Q)]);
   ("svwn5", [("slaterx", (1.0)%Q); ("vwn5c", (1.0)%Q)]);
   ("svwn3", [("slaterx", (1.0)%Q); ("vwn3c", (1.0)%Q)]);
   ("becke", [("beckecorrx", (1.0)%Q)]);
   ("slater", [("slaterx", (1.0)%Q)]);
   ("olyp", [("lypc", (1.0)%Q); ("optx", (1.0)%Q)]);
   ("lyp", [("lypc", (1.0)%Q)]);
   ("B88X", [("slaterx", (1)%Q); ("beckecorrx", (1.0)%Q)]);
   ("LDAX", [("slaterx", (1)%Q)]);
   ("PBEX", [("pbex", (1.0)%Q)]);
   ("HF", [("exx", (1.0)%Q)]);
   ("KT3X", [("slaterx", (1.092)%Q); ("ktx", (-0.004)%Q); ("optxcorr", (-0.925452)%Q)]);
   ("OPTX", [("slaterx", (1.05151)%Q); ("optxcorr", (-1.43169)%Q)]);
   ("camcompx", [("beckex", (1.0)%Q); ("beckecamx", (-1.0)%Q); ("cam_alpha", (0.19)%Q); ("cam_beta", (0.46)%Q); ("rangesep_mu", (0.33)%Q)]);
   ("tfk", [("tfk", (1.0)%Q)]);
   ("tw", [("tw", (1.0)%Q)]);
   ("scan", [("scanx", (1.0)%Q); ("scanc", (1.0)%Q)]);
   ("rscan", [("rscanx", (1.0)%Q); ("rscanc", (1.0)%Q)]);
   ("rppscan", [("rppscanx", (1.0)%Q); ("rppscanc", (1.0)%Q)]);
   ("r2scan", [("r2scanx", (1.0)%Q); ("r2scanc", (1.0)%Q)]);
   ("r4scan", [("r4scanx", (1.0)%Q); ("r4scanc", (1.0)%Q)])].
