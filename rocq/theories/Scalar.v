(** * Scalar arithmetic and outcomes

    The C++ library is a template over the scalar type [ireal_t] / [parameter]
    (both [double], /repo/src/config.hpp 31-43).  The model is generic in a
    record of operations WITHOUT laws, so that theorems that do not need a law
    also hold for IEEE doubles.  Simplification: literals are exact rationals
    ([OofQ]) and [M_PI] is a constant [Opi]. *)
From Coq Require Import QArith ZArith List Bool.
Import ListNotations.

(** The scalar operations used by the code (arithmetic, comparisons and the
    functions of <cmath> called in external/upstream/taylor and src/functionals). *)
Record Ops := mkOps {
  T :> Type;
  Oadd : T -> T -> T;
  Osub : T -> T -> T;
  Omul : T -> T -> T;
  Odiv : T -> T -> T;
  Oopp : T -> T;
  OofQ : Q -> T;
  Opi : T;
  Oltb : T -> T -> bool;
  Oeqb : T -> T -> bool;
  Oexp : T -> T;
  Olog : T -> T;
  Opow : T -> T -> T;
  Osqrt : T -> T;
  Ocbrt : T -> T;
  Oatan : T -> T;
  Oerf : T -> T;
  Osin : T -> T;
  Ocos : T -> T;
  Oasinh : T -> T;
  Osinh : T -> T
}.

Arguments Oadd {o} _ _.
Arguments Osub {o} _ _.
Arguments Omul {o} _ _.
Arguments Odiv {o} _ _.
Arguments Oopp {o} _.
Arguments OofQ {o} _.
Arguments Opi {o}.
Arguments Oltb {o} _ _.
Arguments Oeqb {o} _ _.
Arguments Oexp {o} _.
Arguments Olog {o} _.
Arguments Opow {o} _ _.
Arguments Osqrt {o} _.
Arguments Ocbrt {o} _.
Arguments Oatan {o} _.
Arguments Oerf {o} _.
Arguments Osin {o} _.
Arguments Ocos {o} _.
Arguments Oasinh {o} _.
Arguments Osinh {o} _.

Declare Scope ops_scope.
Delimit Scope ops_scope with ops.
Infix "+" := Oadd : ops_scope.
Infix "-" := Osub : ops_scope.
Infix "*" := Omul : ops_scope.
Infix "/" := Odiv : ops_scope.
Notation "- x" := (Oopp x) : ops_scope.
Infix "<?" := Oltb : ops_scope.
Infix "=?" := Oeqb : ops_scope.

(** Integer literals and [int] values converted to [double]. *)
Definition OofZ {K : Ops} (z : Z) : K := OofQ (inject_Z z).
Definition Oof_nat {K : Ops} (n : nat) : K := OofZ (Z.of_nat n).
Notation "'z0" := (OofQ 0%Q) (at level 0) : ops_scope.
Notation "'z1" := (OofQ 1%Q) (at level 0) : ops_scope.

(** Outcome of a library call.
    [Die]: the process is terminated by [xcfun::die] (/repo/src/config.hpp 24-29).
    [UB]: undefined behaviour of the C++ program (out-of-range array access, ...).
    [Dom]: an [assert] of the Taylor library fails; in a release build (NDEBUG)
    the value computed is a NaN or an infinity instead: the code leaves the
    domain on which it computes a number. *)
Inductive outcome (A : Type) : Type :=
| Ok (a : A)
| Die
| UB
| Dom.
Arguments Ok {A} a.
Arguments Die {A}.
Arguments UB {A}.
Arguments Dom {A}.

Definition obind {A B} (x : outcome A) (f : A -> outcome B) : outcome B :=
  match x with Ok a => f a | Die => Die | UB => UB | Dom => Dom end.
Definition of_option {A} (x : option A) : outcome A :=
  match x with Some a => Ok a | None => Dom end.

Declare Scope outcome_scope.
Delimit Scope outcome_scope with out.
Notation "x <- a ;; b" := (obind a (fun x => b))
  (at level 61, a at next level, right associativity) : outcome_scope.

Definition obnd {A B} (x : option A) (f : A -> option B) : option B :=
  match x with Some a => f a | None => None end.
