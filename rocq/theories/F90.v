(** * The Fortran interface: /repo/api/xcfun.f90
    The interfaces bound directly to a C function (xcfun_new, xcfun_delete, the
    single-point xcfun_eval) are that C function; modelled here are the wrappers that do
    something of their own: names, texts and the array form of xcfun_eval.  The integer
    conversions [int(..., kind=c_int)] are between kinds of the same size and are left
    out; copy-in/copy-out of non-contiguous actual arguments is left out as well. *)
From Coq Require Import ZArith List Bool String Ascii Arith.
From Verif Require Import Scalar Tables Api CTaylor Eval.
Import ListNotations.
Local Open Scope outcome_scope.

Definition NUL : ascii := Ascii.zero.
Definition blank : ascii := Ascii.ascii_of_nat 32.

(** fstring_to_carray: xcfun.f90 262-272 *)
Definition fstring_to_carray (s : string) : string := (s ++ String NUL EmptyString)%string.
(** What a C function makes of a character array: everything before the first NUL. *)
Fixpoint c_string (s : string) : string :=
  match s with
  | EmptyString => EmptyString
  | String c s => if Ascii.eqb c NUL then EmptyString else String c (c_string s)
  end.

Section NAMES.
Context {K : Ops}.
(** xcfun_set, xcfun_get: xcfun.f90 383-399 *)
Definition f_set (h : handle K) (param : string) (val : K) : outcome (handle K * Z) :=
  xcfun_set h (c_string (fstring_to_carray param)) val.
Definition f_get (h : handle K) (param : string) : option K := xcfun_get h (c_string (fstring_to_carray param)).
End NAMES.

(** ** Texts *)
(** text_handler: xcfun.f90 274-292.  The C object is the text and its NUL, [None] a null
    pointer.  [strict] is the language's own semantics, where touching anything outside the
    object or outside [msg] is undefined.  Without it, the memory after the object can be
    read and holds [mem], and the blank that the last round of the loop stores after the
    end of [msg] does no harm. *)
Section TEXT.
Variable strict : bool.
Variable mem : nat -> ascii.
Definition read_at (obj : list ascii) (i : nat) : outcome ascii :=
  match nth_error obj i with Some c => Ok c | None => if strict then UB else Ok (mem i) end.
Fixpoint put (msg : list ascii) (i : nat) (c : ascii) : list ascii :=
  match msg, i with
  | [], _ => []
  | _ :: m, O => c :: m
  | x :: m, S i => x :: put m i c
  end.
(** msg(i:i+1) = c, a single character padded to two; [i] counts from 0. *)
Definition put_pair (msg : list ascii) (i : nat) (c : ascii) : outcome (list ascii) :=
  if andb strict (Nat.leb (List.length msg) (S i)) then UB else Ok (put (put msg i c) (S i) blank).
Definition copy (obj msg : list ascii) (length : nat) : outcome (list ascii) :=
  fold_left (fun m i => m <- m ;; c <- read_at obj i ;; put_pair m i c) (seq 0 length) (Ok msg).
(** The intrinsic index (of a single character): 0 if it does not occur. *)
Fixpoint index (msg : list ascii) (c : ascii) : nat :=
  match msg with
  | [] => 0
  | x :: m => if Ascii.eqb x c then 1 else match index m c with O => 0 | S k => S (S k) end
  end.
(** The intrinsic len_trim. *)
Fixpoint len_trim (msg : list ascii) : nat :=
  match msg with
  | [] => 0
  | x :: m => match len_trim m with O => if Ascii.eqb x blank then 0 else 1 | S k => S (S k) end
  end.
(** Assignment to a character variable of the given length: cut or padded with blanks. *)
Definition assign (length : nat) (v : list ascii) : list ascii := firstn length v ++ repeat blank (length - List.length v).
Definition text_handler (C_text : option string) (msg0 : list ascii) : outcome (list ascii) :=
  match C_text with
  | None => UB
  | Some t =>
    let length := List.length msg0 in
    msg <- copy (list_ascii_of_string t ++ [NUL]) msg0 length ;;
    let msg_length := len_trim (firstn (index msg NUL) msg) in
    Ok (assign length (firstn (msg_length - 1) msg))
  end.
(** xcfun_enumerate_parameters, xcfun_enumerate_aliases: xcfun.f90 355-367; [msg0] is the
    initial content of the local variable, of length 5000 and 10000 respectively. *)
Definition f_enumerate_parameters (n : Z) (msg0 : list ascii) : outcome (list ascii) :=
  t <- xcfun_enumerate_parameters n ;; text_handler t msg0.
Definition f_enumerate_aliases (n : Z) (msg0 : list ascii) : outcome (list ascii) :=
  t <- xcfun_enumerate_aliases n ;; text_handler t msg0.
End TEXT.

(** xcfun_describe_short, xcfun_describe_long: xcfun.f90 369-381.  The name is an array of
    characters of unknown size handed to C as it is, without a NUL; [strcasecmp] reads it up
    to its first difference from the table entry.  [UB]: it would read past the array. *)
Fixpoint strcasecmp_array (a : list ascii) (b : string) : outcome bool :=
  match a, b with
  | [], _ => UB
  | x :: a, EmptyString => Ok (Ascii.eqb x NUL)
  | x :: a, String y b => if Ascii.eqb (lower_ascii x) (lower_ascii y) then strcasecmp_array a b else Ok false
  end.
Fixpoint lookup_array (a : list ascii) (names : list string) (i : nat) : outcome (option nat) :=
  match names with
  | [] => Ok None
  | n :: l => r <- strcasecmp_array a n ;; if r then Ok (Some i) else lookup_array a l (S i)
  end.
(** The lookups in the order of XCFunctional.cpp 322-348. *)
Definition f_describe (name : list ascii) : outcome (option description) :=
  f <- lookup_array name (map f_name xcint_funs) 0 ;;
  match f with
  | Some k => Ok (Some (DFun k))
  | None =>
    p <- lookup_array name (map fst xcint_params) XC_NR_FUNCTIONALS ;;
    match p with
    | Some k => Ok (Some (DPar k))
    | None => a <- lookup_array name (map fst xcint_aliases) 0 ;; Ok (option_map DAlias a)
    end
  end.

(** ** Arrays *)
Section ARRAYS.
Context {K : Ops}.
Variable junk : forall n, nat -> ct K n.
(** A rank-2 array: its extents and its elements in array element order. *)
Record array2 := { d1 : nat; d2 : nat; elt : Z -> K }.
(** xcfun_eval_vec: xcfun.f90 470-484.  The sizes are taken from the first column. *)
Definition f_eval_vec (h : handle K) (nr_points : Z) (density res : array2) : outcome array2 :=
  if orb (Nat.eqb (d2 density) 0) (Nat.eqb (d2 res) 0) then UB
  else
    r <- xcfun_eval_vec junk h nr_points (elt density) (Z.of_nat (d1 density)) (elt res) (Z.of_nat (d1 res)) ;;
    Ok {| d1 := d1 res; d2 := d2 res; elt := r |}.
End ARRAYS.
Arguments array2 K : clear implicits.
