(** * The expression language of the functionals

    The energy functions in /repo/src/functionals are templates over the number type
    [num = ctaylor<ireal_t, Nvar>]: straight-line code, branches on the value (lowest
    coefficient) and calls of other such templates.  They are transcribed into a
    two-sorted syntax: [sexp] for the [double] computations ([parameter], literals,
    settings) and [expr] for the [num] computations.  [eval] gives the meaning of an
    expression for any number of variables Nvar and any scalar type, through the operators
    of CTaylor.v, TMath.v and Br.v, that is through the models of ctaylor.hpp and
    ctaylor_math.hpp. *)
From Coq Require Import QArith ZArith List Bool String.
From Verif Require Import Scalar CTaylor TMath Br.
Import ListNotations.

(** ** Scalars *)
Inductive sexp : Type :=
| SQ (q : Q)                     (* a literal *)
| SPi                            (* M_PI *)
| SEps                           (* DBL_EPSILON *)
| SPar (p : nat)                 (* densvars::get_param(p): densvars.hpp 221 *)
| SBad                           (* read past the end of a parameter array *)
| SNeg (a : sexp)
| SAdd (a b : sexp)
| SSub (a b : sexp)
| SMul (a b : sexp)
| SDiv (a b : sexp)
| SPow (a b : sexp)              (* pow(double,double) *)
| SPowI (a : sexp) (z : Z)       (* pow(double,int) *)
| SSqrt (a : sexp)
| SCbrt (a : sexp)
| SLog (a : sexp)
| SExp (a : sexp).

(** ** Density variables: the fields of [densvars], /repo/src/densvars.hpp 223-244. *)
Inductive fld : Type :=
| f_a | f_b | f_gaa | f_gab | f_gbb | f_n | f_s | f_gnn | f_gns | f_gss
| f_tau | f_taua | f_taub | f_lapa | f_lapb | f_zeta | f_r_s | f_n_m13 | f_a_43 | f_b_43
| f_jpaa | f_jpbb.

Definition fld_num (f : fld) : nat :=
  match f with
  | f_a => 0 | f_b => 1 | f_gaa => 2 | f_gab => 3 | f_gbb => 4 | f_n => 5 | f_s => 6
  | f_gnn => 7 | f_gns => 8 | f_gss => 9 | f_tau => 10 | f_taua => 11 | f_taub => 12
  | f_lapa => 13 | f_lapb => 14 | f_zeta => 15 | f_r_s => 16 | f_n_m13 => 17
  | f_a_43 => 18 | f_b_43 => 19 | f_jpaa => 20 | f_jpbb => 21
  end.
Definition fld_eqb (f g : fld) : bool := Nat.eqb (fld_num f) (fld_num g).
Definition all_flds : list fld :=
  [f_a; f_b; f_gaa; f_gab; f_gbb; f_n; f_s; f_gnn; f_gns; f_gss; f_tau; f_taua; f_taub;
   f_lapa; f_lapb; f_zeta; f_r_s; f_n_m13; f_a_43; f_b_43; f_jpaa; f_jpbb].

(** Elementary functions of one [num] (ctaylor_math.hpp). *)
Inductive fn1 : Type := Fexp | Fexpm1 | Flog | Fsqrt | Fcbrt | Ferf | Fatan | Fasinh | Fsqas.

(** ** Numbers *)
Inductive expr : Type :=
| EIn (i : nat)                  (* d[i], an entry of the array given to densvars() *)
| EFld (f : fld)                 (* d.f *)
| EVar (x : string)              (* a local variable or a parameter *)
| EConst (s : sexp)              (* conversion double -> num *)
| ELet (x : string) (e body : expr)
| ENeg (a : expr)
| EAdd (a b : expr)
| ESub (a b : expr)
| EMul (a b : expr)
| EMulTo (a b : expr)            (* a *= b *)
| EDiv (a b : expr)
| EAddK (a : expr) (s : sexp)    (* a + s, s + a *)
| ESubK (a : expr) (s : sexp)    (* a - s *)
| EKSub (s : sexp) (a : expr)    (* s - a *)
| EScale (s : sexp) (a : expr)   (* s * a, a * s *)
| EKDiv (s : sexp) (a : expr)    (* s / a *)
| EDivK (a : expr) (s : sexp)    (* a / s *)
| EPow (a : expr) (s : sexp)     (* pow(a, double) *)
| EPowI (a : expr) (z : Z)       (* pow(a, int) *)
| EFun (f : fn1) (a : expr)
| EAbs (a : expr)
| EMax (a b : expr)
| EReg (a : expr)                (* regularize: densvars.hpp 22-25 *)
| EBR (a : expr)                 (* BR: brx.cpp 77-86 *)
| EIf (a b e1 e2 : expr).        (* if (a < b) e1 else e2 *)

(** ** Evaluation *)
Section EVAL.
Context {K : Ops}.
Local Open Scope ops_scope.
Variable st : nat -> K.          (* parent->settings *)

(** pow(double,int), double case of std::pow; for a negative exponent the reciprocal of the
    power (simplification: the C library function is used as the mathematical power). *)
Fixpoint kpow (x : K) (n : nat) : K := match n with O => 'z1 | S m => kpow x m * x end.

(** Scalars: [None] where the C code would produce an infinity or a NaN (division by zero,
    a power, logarithm or root outside its domain) or read outside an array. *)
Fixpoint seval (s : sexp) : option K :=
  match s with
  | SQ q => Some (OofQ q)
  | SPi => Some Opi
  | SEps => Some (OofQ (1 # 4503599627370496))
  | SPar p => Some (st p)
  | SBad => None
  | SNeg a => obnd (seval a) (fun x => Some (- x))
  | SAdd a b => obnd (seval a) (fun x => obnd (seval b) (fun y => Some (x + y)))
  | SSub a b => obnd (seval a) (fun x => obnd (seval b) (fun y => Some (x - y)))
  | SMul a b => obnd (seval a) (fun x => obnd (seval b) (fun y => Some (x * y)))
  | SDiv a b => obnd (seval a) (fun x => obnd (seval b) (fun y => sdiv x y))
  | SPow a b => obnd (seval a) (fun x => obnd (seval b) (fun y =>
      if 'z0 <? x then Some (Opow x y) else None))
  | SPowI a z => obnd (seval a) (fun x =>
      match z with
      | Zneg p => sdiv 'z1 (kpow x (Pos.to_nat p))
      | _ => Some (kpow x (Z.to_nat z))
      end)
  | SSqrt a => obnd (seval a) (fun x => if x <? 'z0 then None else Some (Osqrt x))
  | SCbrt a => obnd (seval a) (fun x => Some (Ocbrt x))
  | SLog a => obnd (seval a) (fun x => if 'z0 <? x then Some (Olog x) else None)
  | SExp a => obnd (seval a) (fun x => Some (Oexp x))
  end.

Variable n : nat.                (* Nvar *)
Variable inp : nat -> ct K n.    (* the array d *)

(** XCFUN_TINY_DENSITY: /repo/src/config.hpp 22 *)
Definition TINY : Q := 1e-14.
(** regularize: densvars.hpp 22-25 *)
Definition ct_reg (t : ct K n) : ct K n :=
  if c0 n t <? OofQ TINY then ct_upd0 n (fun _ => OofQ TINY) t else t.

Definition fn_eval (f : fn1) (t : ct K n) : option (ct K n) :=
  match f with
  | Fexp => Some (ct_exp n t)
  | Fexpm1 => Some (ct_expm1 n t)
  | Flog => ct_log n t
  | Fsqrt => ct_sqrt n t
  | Fcbrt => ct_cbrt n t
  | Ferf => Some (ct_erf n t)
  | Fatan => ct_atan n t
  | Fasinh => ct_asinh n t
  | Fsqas => ct_sqrtx_asinh_sqrtx n t
  end.

Definition env := list (string * ct K n).
Fixpoint lookup (x : string) (r : env) : option (ct K n) :=
  match r with
  | [] => None
  | (y, v) :: r' => if String.eqb x y then Some v else lookup x r'
  end.

Fixpoint eval (fl : fld -> ct K n) (r : env) (e : expr) : option (ct K n) :=
  match e with
  | EIn i => Some (inp i)
  | EFld f => Some (fl f)
  | EVar x => lookup x r
  | EConst s => obnd (seval s) (fun k => Some (ct_const n k))
  | ELet x e1 e2 => obnd (eval fl r e1) (fun v => eval fl ((x, v) :: r) e2)
  | ENeg a => obnd (eval fl r a) (fun x => Some (ct_neg n x))
  | EAdd a b => obnd (eval fl r a) (fun x => obnd (eval fl r b) (fun y => Some (ct_add n x y)))
  | ESub a b => obnd (eval fl r a) (fun x => obnd (eval fl r b) (fun y => Some (ct_sub n x y)))
  | EMul a b => obnd (eval fl r a) (fun x => obnd (eval fl r b) (fun y => Some (ct_mul n x y)))
  | EMulTo a b => obnd (eval fl r a) (fun x => obnd (eval fl r b) (fun y => Some (ct_multo n x y)))
  | EDiv a b => obnd (eval fl r a) (fun x => obnd (eval fl r b) (fun y => ct_div n x y))
  | EAddK a s => obnd (eval fl r a) (fun x => obnd (seval s) (fun k => Some (ct_addk n k x)))
  | ESubK a s => obnd (eval fl r a) (fun x => obnd (seval s) (fun k => Some (ct_subk n k x)))
  | EKSub s a => obnd (seval s) (fun k => obnd (eval fl r a) (fun x => Some (ct_ksub n k x)))
  | EScale s a => obnd (seval s) (fun k => obnd (eval fl r a) (fun x => Some (ct_scale n k x)))
  | EKDiv s a => obnd (seval s) (fun k => obnd (eval fl r a) (fun x => ct_kdiv n k x))
  | EDivK a s => obnd (eval fl r a) (fun x => obnd (seval s) (fun k => ct_divk n x k))
  | EPow a s => obnd (eval fl r a) (fun x => obnd (seval s) (fun k => ct_pow n x k))
  | EPowI a z => obnd (eval fl r a) (fun x => ct_powi n x z)
  | EFun f a => obnd (eval fl r a) (fn_eval f)
  | EAbs a => obnd (eval fl r a) (fun x => Some (ct_abs n x))
  | EMax a b => obnd (eval fl r a) (fun x => obnd (eval fl r b) (fun y => Some (ct_max n x y)))
  | EReg a => obnd (eval fl r a) (fun x => Some (ct_reg x))
  | EBR a => obnd (eval fl r a) (fun x => ct_BR n x)
  | EIf a b e1 e2 => obnd (eval fl r a) (fun x => obnd (eval fl r b) (fun y =>
      if c0 n x <? c0 n y then eval fl r e1 else eval fl r e2))
  end.

(** A constructor body: assignments to the fields in program order. *)
Definition fupd (fl : fld -> ct K n) (f : fld) (v : ct K n) : fld -> ct K n :=
  fun g => if fld_eqb g f then v else fl g.
Fixpoint run (fl : fld -> ct K n) (p : list (fld * expr)) : option (fld -> ct K n) :=
  match p with
  | [] => Some fl
  | (f, e) :: p' => obnd (eval fl [] e) (fun v => run (fupd fl f v) p')
  end.

End EVAL.

(** ** Concrete syntax of the transcription *)
Declare Scope sx_scope.
Declare Scope ex_scope.
Delimit Scope sx_scope with sx.
Delimit Scope ex_scope with ex.
Bind Scope sx_scope with sexp.
Bind Scope ex_scope with expr.
Infix "+" := SAdd : sx_scope.
Infix "-" := SSub : sx_scope.
Infix "*" := SMul : sx_scope.
Infix "/" := SDiv : sx_scope.
Notation "- x" := (SNeg x) : sx_scope.
Infix "+" := EAdd : ex_scope.
Infix "-" := ESub : ex_scope.
Infix "*" := EMul : ex_scope.
Infix "/" := EDiv : ex_scope.
Notation "- x" := (ENeg x) : ex_scope.
Notation "a +: s" := (EAddK a%ex s%sx) (at level 50, left associativity) : ex_scope.
Notation "s :+ a" := (EAddK a%ex s%sx) (at level 50, left associativity) : ex_scope.
Notation "a -: s" := (ESubK a%ex s%sx) (at level 50, left associativity) : ex_scope.
Notation "s :- a" := (EKSub s%sx a%ex) (at level 50, left associativity) : ex_scope.
Notation "a *: s" := (EScale s%sx a%ex) (at level 40, left associativity) : ex_scope.
Notation "s :* a" := (EScale s%sx a%ex) (at level 40, left associativity) : ex_scope.
Notation "a /: s" := (EDivK a%ex s%sx) (at level 40, left associativity) : ex_scope.
Notation "s :/ a" := (EKDiv s%sx a%ex) (at level 40, left associativity) : ex_scope.

(** Literals *)
Definition sexp_of_number (x : Number.number) : option sexp :=
  match x with
  | Number.Decimal d =>
      let '(i, f, e) :=
        match d with
        | Decimal.Decimal i f => (i, f, Decimal.Pos Decimal.Nil)
        | Decimal.DecimalExp i f e => (i, f, e)
        end in
      let num := Z.of_int (Decimal.app_int i f) in
      let den := Nat.iter (Decimal.nb_digits f) (Pos.mul 10) 1%positive in
      Some (SQ (match Z.of_int e with
                | Z0 => Qmake num den
                | Zpos p => Qmake (num * Z.pow_pos 10 p) den
                | Zneg p => Qmake num (den * Pos.pow 10 p)
                end))
  | Number.Hexadecimal _ => None
  end.
Definition sexp_to_number (s : sexp) : option Number.number := None.
Number Notation sexp sexp_of_number sexp_to_number : sx_scope.

Notation "'arg' x @ s 'in' b" := (ELet s%string x%ex ((fun x : expr => b%ex) (EVar s%string)))
  (at level 200, x name, s at level 0, b at level 200, only parsing) : ex_scope.
Notation "'num' x @ s ':=' e 'in' b" := (ELet s%string e%ex ((fun x : expr => b%ex) (EVar s%string)))
  (at level 200, x name, s at level 0, e at level 200, b at level 200, only parsing) : ex_scope.
Notation "'num' x @@ s ':=' e 'in' b" := (ELet s e%ex ((fun x : expr => b%ex) (EVar s)))
  (at level 200, x name, s at level 0, e at level 200, b at level 200, only parsing) : ex_scope.

Notation d_a := (EFld f_a).
Notation d_b := (EFld f_b).
Notation d_gaa := (EFld f_gaa).
Notation d_gab := (EFld f_gab).
Notation d_gbb := (EFld f_gbb).
Notation d_n := (EFld f_n).
Notation d_s := (EFld f_s).
Notation d_gnn := (EFld f_gnn).
Notation d_gns := (EFld f_gns).
Notation d_gss := (EFld f_gss).
Notation d_tau := (EFld f_tau).
Notation d_taua := (EFld f_taua).
Notation d_taub := (EFld f_taub).
Notation d_lapa := (EFld f_lapa).
Notation d_lapb := (EFld f_lapb).
Notation d_zeta := (EFld f_zeta).
Notation d_r_s := (EFld f_r_s).
Notation d_n_m13 := (EFld f_n_m13).
Notation d_a_43 := (EFld f_a_43).
Notation d_b_43 := (EFld f_b_43).
Notation d_jpaa := (EFld f_jpaa).
Notation d_jpbb := (EFld f_jpbb).

(** Reads of parameter arrays. *)
Definition sget (i : nat) (l : list sexp) : sexp := nth i l SBad.
Definition aget (i : nat) (l : list (list sexp)) : list sexp := nth i l [].

(** pow2, pow3, ufunc, poly: /repo/src/specmath.hpp 20, 22, 35-37, 24-33. *)
Definition spow2 (a : sexp) : sexp := SMul a a.
Definition spow3 (a : sexp) : sexp := SMul (SMul a a) a.
Definition epow2 (a : expr) : expr :=
  ELet "pow2.x" a (EMul (EVar "pow2.x") (EVar "pow2.x")).
Definition epow3 (a : expr) : expr :=
  ELet "pow3.x" a (EMul (EMul (EVar "pow3.x") (EVar "pow3.x")) (EVar "pow3.x")).
Definition eufunc (x : expr) (a : sexp) : expr :=
  ELet "ufunc.x" x (EAdd (EPow (EAddK (EVar "ufunc.x") 1) a) (EPow (EKSub 1 (EVar "ufunc.x")) a)).
Fixpoint poly_loop (x : expr) (c : list sexp) (i : nat) (res : expr) : expr :=
  match i with
  | O => res
  | S j => poly_loop x c j (EAddK (EMulTo res x) (sget j c))
  end.
Definition epoly (x : expr) (len : nat) (c : list sexp) : expr :=
  ELet "poly.x" x (poly_loop (EVar "poly.x") c (len - 1) (EConst (sget (len - 1) c))).
