(** * The self test and the compatibility check, /repo/src/XCFunctional.cpp 74-129

    The reference numbers of the FUNCTIONAL blocks (test_in, test_out, test_threshold of
    /repo/src/xcint.hpp 50-65) are parameters: the theorems hold for every choice of them.
    Simplification: what is printed on stderr is not modelled. *)
From Coq Require Import QArith ZArith List Bool Lia String.
From Verif Require Import Scalar Tables Api CTaylor Eval.
Import ListNotations.
Open Scope outcome_scope.

Section Test.
Context {K : Ops}.
Variable junk : forall n : nat, nat -> ct K n.

(** test_in, test_out and test_threshold of one functional: xcint.hpp 60-64 *)
Record reference := { r_in : list K; r_out : list K; r_threshold : K }.

(** std::abs of a double *)
Definition oabs (x : K) : K := if Oltb x (OofQ 0) then Oopp x else x.

(** The condition of lines 91-92 (and 104-105). *)
Definition off (out ref thr : K) : bool :=
  Oltb (oabs (Omul ref thr)) (oabs (Osub out ref)).

(** The loop of lines 90-93 from index [i] on, [n] more iterations; reading test_out past its end is UB. *)
Fixpoint nerr (out : nat -> K) (r : reference) (i n : nat) : outcome nat :=
  match n with
  | O => Ok 0%nat
  | S n' =>
    match nth_error (r_out r) i with
    | None => UB
    | Some x => k <- nerr out r (S i) n' ;; Ok (if off (out i) x (r_threshold r) then S k else k)
    end
  end.

(** One iteration of the loop over functionals, lines 77-121: whether nfail is incremented.
    [buf] is what new double[n] contains before the evaluation. *)
Definition test_fails (buf : nat -> K) (fd : fun_data) (r : reference) : outcome bool :=
  a <- xcfun_set (@xcfun_new K) (f_name fd) (OofQ 1%Q) ;;
  if Z.eqb (f_test_mode fd) XC_MODE_UNSET then Ok false
  else
    s <- xcfun_eval_setup (fst a) (f_test_vars fd) (f_test_mode fd) (f_test_order fd) ;;
    if Z.eqb (snd s) 0 then
      n <- xcfun_output_length (fst s) ;;
      if Nat.eqb (List.length (r_in r)) 0 then Die
      else
        m <- xcfun_input_length (fst s) ;;
        if Z.ltb (Z.of_nat (List.length (r_in r))) m then UB
        else
          ws <- xcfun_eval junk (fst s) buf (fun i => nth i (r_in r) (OofQ 0)) ;;
          k <- nerr (rd buf ws) r 0 (Z.to_nat n) ;;
          Ok (Nat.ltb 0 k)
    else Ok true.

(** xcfun_test: lines 74-124 *)
Fixpoint test_from (buf : nat -> nat -> K) (ref : nat -> reference) (f : nat) (fds : list fun_data) : outcome nat :=
  match fds with
  | [] => Ok 0%nat
  | fd :: l =>
    b <- test_fails (buf f) fd (ref f) ;;
    k <- test_from buf ref (S f) l ;;
    Ok (if b then S k else k)
  end.
Definition xcfun_test (buf : nat -> nat -> K) (ref : nat -> reference) : outcome nat := test_from buf ref 0 xcint_funs.
End Test.
Arguments reference K : clear implicits.

(** ** The version: /repo/src/version_info.hpp 18-22 and XCFunctional.cpp 45, 126-129

    The three numbers are parameters (2, 1, 1 at this commit). *)
Definition version_code (major minor patch : Z) : Z := Z.lor (Z.lor (Z.shiftl major 16) minor) patch.
(** xcfun_is_compatible_library of a library with this version.  It has no argument: nothing of the header the host was compiled with reaches it. *)
Definition is_compatible_library (major minor patch : Z) : bool := Z.eqb (Z.shiftr (version_code major minor patch) 16) major.
