(** * The handle state machine (XCFunctional.cpp, xcint.cpp) *)
From Coq Require Import String Ascii ZArith QArith List Bool.
From Verif Require Import Scalar Tables.
Import ListNotations.
Local Open Scope outcome_scope.

(** [strcasecmp] in the "C" locale: compare after mapping 'A'..'Z' to 'a'..'z'.
    Used by /repo/src/xcint.cpp 31-50. *)
Definition lower_ascii (c : ascii) : ascii :=
  let n := nat_of_ascii c in
  if andb (Nat.leb 65 n) (Nat.leb n 90) then ascii_of_nat (n + 32) else c.

Fixpoint strcasecmp_eq (a b : string) : bool :=
  match a, b with
  | EmptyString, EmptyString => true
  | String x a', String y b' =>
      andb (Ascii.eqb (lower_ascii x) (lower_ascii y)) (strcasecmp_eq a' b')
  | _, _ => false
  end.

(** First index at which the name matches; [None] is the [-1] of the code. *)
Fixpoint first_match (name : string) (names : list string) (i : nat) : option nat :=
  match names with
  | [] => None
  | n :: rest => if strcasecmp_eq name n then Some i else first_match name rest (S i)
  end.

(** /repo/src/xcint.cpp 31-36 *)
Definition xcint_lookup_functional (name : string) : option nat :=
  first_match name (map f_name xcint_funs) 0.
(** /repo/src/xcint.cpp 38-43 (the index counts from XC_NR_FUNCTIONALS) *)
Definition xcint_lookup_parameter (name : string) : option nat :=
  first_match name (map fst xcint_params) XC_NR_FUNCTIONALS.
(** /repo/src/xcint.cpp 45-50: stops at the first null name. *)
Definition xcint_lookup_alias (name : string) : option nat :=
  first_match name (map fst xcint_aliases) 0.

Section Api.
Context {K : Ops}.

(** struct XCFunctional: /repo/src/XCFunctional.hpp 26-36.  [h_active] are the first
    [nr_active_functionals] entries of [active_functionals], as indices into
    [xcint_funs]; settings is a total map used only below 82 (see [set_item]). *)
Record handle := mkH {
  h_active : list nat;
  h_order : Z;
  h_depends : Z;
  h_mode : Z;
  h_vars : Z;
  h_settings : nat -> K }.

(** XCFunctional::XCFunctional, /repo/src/XCFunctional.cpp 350-355, member
    initialisers /repo/src/XCFunctional.hpp 27-31; xcfun_new 358-361. *)
Definition default_setting (i : nat) : K :=
  if Nat.ltb i XC_NR_FUNCTIONALS then OofQ 0%Q
  else OofQ (snd (nth (i - XC_NR_FUNCTIONALS) xcint_params (EmptyString, 0%Q))).

Definition xcfun_new : handle :=
  mkH [] (-1) 0 XC_MODE_UNSET XC_VARS_UNSET default_setting.

Definition upd (s : nat -> K) (i : nat) (v : K) : nat -> K :=
  fun j => if Nat.eqb j i then v else s j.

(** Array store into [settings]; out of range is undefined behaviour. *)
Definition set_item (h : handle) (i : nat) (v : K) : outcome handle :=
  if Nat.ltb i XC_NR_PARAMETERS_AND_FUNCTIONALS
  then Ok (mkH (h_active h) (h_order h) (h_depends h) (h_mode h) (h_vars h)
               (upd (h_settings h) i v))
  else UB.

(** Append to [active_functionals] (78 slots) and extend the dependencies:
    /repo/src/XCFunctional.cpp 374-384. *)
Definition activate (h : handle) (i : nat) : outcome handle :=
  if existsb (Nat.eqb i) (h_active h) then Ok h
  else if Nat.ltb (length (h_active h)) XC_NR_FUNCTIONALS then
    match nth_error xcint_funs i with
    | Some fd =>
        Ok (mkH (h_active h ++ [i]) (h_order h) (Z.lor (h_depends h) (f_depends fd))
                (h_mode h) (h_vars h) (h_settings h))
    | None => UB
    end
  else UB.

(** The loop over the terms of an alias, /repo/src/XCFunctional.cpp 390-402. *)
Fixpoint alias_loop (set1 : handle -> string -> K -> outcome (handle * Z)) (value : K)
  (h : handle) (ts : list (string * Q)) : outcome (handle * Z) :=
  match ts with
  | [] => Ok (h, 0%Z)
  | (tname, w) :: ts' =>
      r <- set1 h tname (Omul value (OofQ w)) ;;
      if Z.eqb (snd r) 0 then alias_loop set1 value (fst r) ts' else Die
  end.

(** xcfun_set: /repo/src/XCFunctional.cpp 369-405.  [fuel] bounds the recursion
    depth (exhaustion = stack overflow = [UB]; proved unreachable). *)
Fixpoint xcfun_set_f (fuel : nat) (h : handle) (name : string) (value : K)
  : outcome (handle * Z) :=
  match fuel with
  | O => UB
  | S fuel' =>
    match xcint_lookup_functional name with
    | Some item =>
        h1 <- set_item h item (Oadd (h_settings h item) value) ;;
        h2 <- activate h1 item ;;
        Ok (h2, 0%Z)
    | None =>
      match xcint_lookup_parameter name with
      | Some item => h1 <- set_item h item value ;; Ok (h1, 0%Z)
      | None =>
        match xcint_lookup_alias name with
        | Some item =>
            let terms := firstn MAX_ALIAS_TERMS
                           (snd (nth item xcint_aliases (EmptyString, []))) in
            alias_loop (xcfun_set_f fuel') value h terms
        | None => Ok (h, (-1)%Z)
        end
      end
    end
  end.

Definition xcfun_set := xcfun_set_f 8.

(** xcfun_get: /repo/src/XCFunctional.cpp 407-418; [None] is the return value -1
    with the output argument untouched. *)
Definition xcfun_get (h : handle) (name : string) : option K :=
  match xcint_lookup_functional name with
  | Some item => Some (h_settings h item)
  | None =>
    match xcint_lookup_parameter name with
    | Some item => Some (h_settings h item)
    | None => None
    end
  end.

(** /repo/src/XCFunctional.cpp 420 *)
Definition xcfun_is_gga (h : handle) : bool :=
  negb (Z.eqb (Z.land (h_depends h) XC_GRADIENT) 0).
(** /repo/src/XCFunctional.cpp 422-424 *)
Definition xcfun_is_metagga (h : handle) : bool :=
  negb (Z.eqb (Z.land (h_depends h) (Z.lor XC_LAPLACIAN XC_KINETIC)) 0).

(** [xcint_vars[vars]]: out of range is undefined behaviour. *)
Definition vars_entry (vars : Z) : outcome vars_data :=
  if Z.ltb vars 0 then UB else
  match nth_error xcint_vars (Z.to_nat vars) with Some v => Ok v | None => UB end.

Definition is_2nd_taylor (vars : Z) : bool :=
  orb (orb (Z.eqb vars XC_A_2ND_TAYLOR) (Z.eqb vars XC_A_B_2ND_TAYLOR))
      (orb (Z.eqb vars XC_N_2ND_TAYLOR) (Z.eqb vars XC_N_S_2ND_TAYLOR)).

(** xcfun_eval_setup: /repo/src/XCFunctional.cpp 426-452. *)
Definition xcfun_eval_setup (h : handle) (vars mode order : Z) : outcome (handle * Z) :=
  vd <- vars_entry vars ;;
  if negb (Z.eqb (Z.land (h_depends h) (v_provides vd)) (h_depends h)) then Ok (h, XC_EVARS)
  else if orb (orb (Z.ltb order 0) (Z.ltb XCFUN_MAX_ORDER order))
              (andb (Z.eqb mode XC_PARTIAL_DERIVATIVES) (Z.ltb 4 order))
  then Ok (h, XC_EORDER)
  else if andb (Z.eqb mode XC_POTENTIAL)
               (andb (negb (Z.eqb (Z.land (h_depends h) XC_GRADIENT) 0))
                     (negb (is_2nd_taylor vars)))
  then Ok (h, Z.lor XC_EVARS XC_EMODE)
  else if andb (Z.eqb mode XC_POTENTIAL)
               (negb (Z.eqb (Z.land (h_depends h) (Z.lor XC_LAPLACIAN XC_KINETIC)) 0))
  then Ok (h, XC_EMODE)
  else Ok (mkH (h_active h) order (h_depends h) mode vars (h_settings h), 0%Z).

(** xcfun_which_vars: /repo/src/XCFunctional.cpp 131-277 (unsigned arguments). *)
Definition which_vars_switch (code : N) : option Z :=
  match code with
  | 0 => Some XC_A
  | 16 => Some XC_N
  | 32 => Some XC_A_B
  | 48 => Some XC_N_S
  | 64 => Some XC_A_GAA
  | 65 => Some XC_A_AX_AY_AZ
  | 80 => Some XC_N_GNN
  | 81 => Some XC_N_NX_NY_NZ
  | 96 => Some XC_A_B_GAA_GAB_GBB
  | 97 => Some XC_A_B_AX_AY_AZ_BX_BY_BZ
  | 112 => Some XC_N_S_GNN_GNS_GSS
  | 113 => Some XC_N_S_NX_NY_NZ_SX_SY_SZ
  | 132 => Some XC_A_GAA_TAUA
  | 133 => Some XC_A_AX_AY_AZ_TAUA
  | 136 => Some XC_A_GAA_LAPA
  | 148 => Some XC_N_GNN_TAUN
  | 149 => Some XC_N_NX_NY_NZ_TAUN
  | 152 => Some XC_N_GNN_LAPN
  | 164 => Some XC_A_B_GAA_GAB_GBB_TAUA_TAUB
  | 165 => Some XC_A_B_AX_AY_AZ_BX_BY_BZ_TAUA_TAUB
  | 168 => Some XC_A_B_GAA_GAB_GBB_LAPA_LAPB
  | 172 => Some XC_A_B_GAA_GAB_GBB_LAPA_LAPB_TAUA_TAUB
  | 174 => Some XC_A_B_GAA_GAB_GBB_LAPA_LAPB_TAUA_TAUB_JPAA_JPBB
  | 180 => Some XC_N_S_GNN_GNS_GSS_TAUN_TAUS
  | 181 => Some XC_N_S_NX_NY_NZ_SX_SY_SZ_TAUN_TAUS
  | 184 => Some XC_N_S_GNN_GNS_GSS_LAPN_LAPS
  | 188 => Some XC_N_S_GNN_GNS_GSS_LAPN_LAPS_TAUN_TAUS
  | 192 => Some XC_A_2ND_TAYLOR
  | 208 => Some XC_N_2ND_TAYLOR
  | 224 => Some XC_A_B_2ND_TAYLOR
  | 240 => Some XC_N_S_2ND_TAYLOR
  | _ => None
  end%N.

Definition xcfun_which_vars (func_type dens_type laplacian kinetic current explicit : N)
  : outcome Z :=
  if (3 <? func_type)%N || (3 <? dens_type)%N || (1 <? laplacian)%N || (1 <? kinetic)%N
     || (1 <? current)%N || (1 <? explicit)%N
  then Die
  else
    let bitwise_vars :=
      (N.shiftl func_type 6 + N.shiftl dens_type 4 + N.shiftl laplacian 3
       + N.shiftl kinetic 2 + N.shiftl current 1 + explicit)%N in
    match which_vars_switch bitwise_vars with Some v => Ok v | None => Die end.

(** xcfun_which_mode: /repo/src/XCFunctional.cpp 279-300. *)
Definition xcfun_which_mode (mode_type : N) : outcome Z :=
  if (3 <? mode_type)%N then Die else
  match mode_type with
  | 1 => Ok XC_PARTIAL_DERIVATIVES
  | 2 => Ok XC_POTENTIAL
  | 3 => Ok XC_CONTRACTED
  | _ => Die
  end%N.

(** xcfun_user_eval_setup: /repo/src/XCFunctional.cpp 454-467. *)
Definition xcfun_user_eval_setup (h : handle) (order : Z)
  (func_type dens_type mode_type laplacian kinetic current explicit : N)
  : outcome (handle * Z) :=
  vars <- xcfun_which_vars func_type dens_type laplacian kinetic current explicit ;;
  mode <- xcfun_which_mode mode_type ;;
  xcfun_eval_setup h vars mode order.

(** xcfun_input_length: /repo/src/XCFunctional.cpp 469-471. *)
Definition xcfun_input_length (h : handle) : outcome Z :=
  vd <- vars_entry (h_vars h) ;; Ok (v_len vd).

(** taylorlen: /repo/external/upstream/taylor/taylor.hpp 6-13 (C division). *)
Definition taylorlen (nvar ndeg : Z) : Z :=
  fst (Nat.iter (Z.to_nat nvar)
         (fun st => let '(len, k) := st in (Z.quot (len * (ndeg + k)) k, k + 1)%Z)
         (1, 1)%Z).

(** xcfun_output_length: /repo/src/XCFunctional.cpp 473-491. *)
Definition xcfun_output_length (h : handle) : outcome Z :=
  if Z.eqb (h_mode h) XC_MODE_UNSET then Die
  else if Z.eqb (h_vars h) XC_VARS_UNSET then Die
  else if Z.eqb (h_order h) (-1) then Die
  else if Z.eqb (h_mode h) XC_PARTIAL_DERIVATIVES then
    vd <- vars_entry (h_vars h) ;; Ok (taylorlen (v_len vd) (h_order h))
  else if Z.eqb (h_mode h) XC_POTENTIAL then
    if orb (Z.eqb (h_vars h) XC_A) (Z.eqb (h_vars h) XC_A_2ND_TAYLOR) then Ok 2%Z else Ok 3%Z
  else Die.

End Api.

Arguments handle K : clear implicits.

(** xcfun_enumerate_parameters: /repo/src/XCFunctional.cpp 302-311.  The argument is
    an [int]; a negative one indexes [xcint_params] out of bounds. [None] = null. *)
Definition xcfun_enumerate_parameters (param : Z) : outcome (option string) :=
  if andb (Z.leb 0 param) (Z.ltb param (Z.of_nat XC_NR_FUNCTIONALS)) then
    Ok (option_map f_name (nth_error xcint_funs (Z.to_nat param)))
  else if Z.ltb param (Z.of_nat XC_NR_PARAMETERS_AND_FUNCTIONALS) then
    if Z.ltb param 0 then UB
    else Ok (option_map fst (nth_error xcint_params (Z.to_nat param - XC_NR_FUNCTIONALS)))
  else Ok None.

(** xcfun_enumerate_aliases: /repo/src/XCFunctional.cpp 314-320 (entries of the
    array beyond the initialisers have a null name). *)
Definition xcfun_enumerate_aliases (n : Z) : outcome (option string) :=
  if andb (Z.leb 0 n) (Z.ltb n XC_MAX_ALIASES) then
    Ok (option_map fst (nth_error xcint_aliases (Z.to_nat n)))
  else Ok None.

(** xcfun_describe_short / _long: /repo/src/XCFunctional.cpp 322-348.  The text itself
    is abstracted to the table entry it is taken from. *)
Inductive description := DFun (k : nat) | DPar (k : nat) | DAlias (k : nat).
Definition xcfun_describe (name : string) : option description :=
  match xcint_lookup_functional name with
  | Some k => Some (DFun k)
  | None =>
    match xcint_lookup_parameter name with
    | Some k => Some (DPar k)
    | None => match xcint_lookup_alias name with Some k => Some (DAlias k) | None => None end
    end
  end.

(** ** API calls as a transition system *)
Section Calls.
Context {K : Ops}.

Inductive call :=
| CSet (name : string) (value : K)
| CGet (name : string)
| CSetup (vars mode order : Z)
| CUserSetup (order : Z) (func_type dens_type mode_type laplacian kinetic current explicit : N)
| CInputLength
| COutputLength
| CIsGga
| CIsMetagga.

Inductive answer :=
| AInt (z : Z)
| AVal (v : option K)
| ABool (b : bool).

(** One API call on a handle (the C wrappers /repo/src/XCFunctional.cpp 809-877
    forward to the functions above). Evaluation is in Eval.v; it takes a const handle. *)
Definition step (h : handle K) (c : call) : outcome (handle K * answer) :=
  match c with
  | CSet n v => r <- xcfun_set h n v ;; Ok (fst r, AInt (snd r))
  | CGet n => Ok (h, AVal (xcfun_get h n))
  | CSetup v m o => r <- xcfun_eval_setup h v m o ;; Ok (fst r, AInt (snd r))
  | CUserSetup o f d m l k c e =>
      r <- xcfun_user_eval_setup h o f d m l k c e ;; Ok (fst r, AInt (snd r))
  | CInputLength => z <- xcfun_input_length h ;; Ok (h, AInt z)
  | COutputLength => z <- xcfun_output_length h ;; Ok (h, AInt z)
  | CIsGga => Ok (h, ABool (xcfun_is_gga h))
  | CIsMetagga => Ok (h, ABool (xcfun_is_metagga h))
  end.

(** A call history on one handle, starting from any handle. *)
Fixpoint run (h : handle K) (cs : list call) : outcome (handle K) :=
  match cs with
  | [] => Ok h
  | c :: cs' => r <- step h c ;; run (fst r) cs'
  end.

Definition reachable (h : handle K) : Prop := exists cs, run xcfun_new cs = Ok h.

End Calls.
Arguments call K : clear implicits.
Arguments answer K : clear implicits.

(** xcfun_test: /repo/src/XCFunctional.cpp 74-124, one iteration of the loop up to the
    call of xcfun_eval (lines 77-88): [None] = "has no test"; otherwise the answer of
    eval_setup and the lengths that bound the accesses to test_in, out and test_out.
    The comparison of numbers (90-113) reads out[i] and test_out[i] for i < output length. *)
Definition xcfun_test_one {K : Ops} (fd : fun_data) : outcome (option (Z * Z * Z)) :=
  r <- xcfun_set (@xcfun_new K) (f_name fd) (OofQ 1%Q) ;;
  if Z.eqb (f_test_mode fd) XC_MODE_UNSET then Ok None
  else
    s <- xcfun_eval_setup (fst r) (f_test_vars fd) (f_test_mode fd) (f_test_order fd) ;;
    n <- xcfun_input_length (fst s) ;;
    m <- xcfun_output_length (fst s) ;;
    Ok (Some (snd s, n, m)).
