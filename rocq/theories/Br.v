(** * The Becke-Roussel solver: /repo/src/functionals/brx.cpp 20-86

    One-variable Taylor polynomials ([taylor<T,1,Ndeg>], external/upstream/taylor/taylor.hpp)
    are modelled by their coefficient sequences; the product of polymul.hpp is modelled
    by the Cauchy product [tmulto] (simplification: only the order of the additions
    inside one coefficient differs from the unrolled templates). *)
From Coq Require Import QArith ZArith List Bool.
From Verif Require Import Scalar CTaylor TMath.
Local Open Scope ops_scope.

Section BR.
Context {K : Ops}.
Local Notation arr := (nat -> K).

(** A double division; [None] when the divisor is zero (the C code gets inf or NaN). *)
Definition sdiv (x y : K) : option K := if y =? 'z0 then None else Some (x / y).

(** composer::compose0 for one variable: polymul.hpp 1123-1144.  [p 0] is set to zero by
    taylor::compose (taylor.hpp 154-161) beforehand. *)
Fixpoint t1_compose0 (N : nat) (p c : arr) : arr :=
  match N with
  | O => fun i => match i with O => c O | _ => 'z0 end
  | S m => set0 (tmulto (t1_compose0 m p (fun i => c (S i))) p) (c O)
  end.
Definition t1_compose (N : nat) (t c : arr) : arr := t1_compose0 N (set0 t 'z0) c.

(** BR_z: brx.cpp 21-23 on [taylor<T,1,N>] (operators: taylor.hpp 232-333,
    taylor_math.hpp 87-97 for the quotient, 110-118 for exp). *)
Definition BR_z (N : nat) (t : arr) : option arr :=
  obnd (inv_expand (t O)) (fun it =>
  let q := tmulto (t1_compose N t it) (set0 t (t O - OofZ 2)) in
  let s := fun i => (OofZ 2 / OofZ 3) * t i in
  Some (tmulto q (t1_compose N s (exp_expand (s O))))).

(** NR_step: brx.cpp 25-27 *)
Definition NR_step (x z : K) : option K :=
  sdiv (x * (OofZ 3 * x * (Oexp (- OofZ 2 / OofZ 3 * x) * z - 'z1) + OofZ 6))
       (x * (OofZ 2 * x - OofZ 4) + OofZ 6).

(** The starting value: brx.cpp 31-39 *)
Definition BR_start (z : K) : option K :=
  if z <? - OofQ 10000%Q then sdiv (- OofZ 2) z
  else if z <? - OofZ 2 then
    Some ((Osqrt (OofZ 9 * z * z + OofZ 6 * z + OofZ 49) + OofZ 3 * z + 'z1) / OofZ 4)
  else if z <? 'z1 then
    Some (OofZ 2 * (z * Oexp (- OofZ 4 / OofZ 3) + 'z1))
  else obnd (sdiv (OofQ 3.75) (OofQ 1.5 + Olog z)) (fun q =>
    Some (OofZ 3 / OofZ 2 * Olog z + q)).

(** The Newton loop: brx.cpp 40-45 (at most 20 steps; after that the last iterate is
    returned with a message on stderr, which is not modelled). *)
Fixpoint BR_loop (fuel : nat) (z x0 : K) : option K :=
  match fuel with
  | O => Some x0
  | S f =>
    obnd (NR_step x0 z) (fun d =>
    let x1 := x0 + d in
    if fabs (x0 - x1) <? OofQ 1e-15 * ('z1 + x1) then Some x1 else BR_loop f z x1)
  end.
(** BR(double): brx.cpp 30-48 *)
Definition BR (z : K) : option K := obnd (BR_start z) (fun x0 => BR_loop 20 z x0).

(** BR_taylor: brx.cpp 52-71 *)
Definition upd (t : arr) (i : nat) (v : K) : arr := fun j => if Nat.eqb j i then v else t j.
Fixpoint BR_tloop (N todo i : nat) (t : arr) : option arr :=
  match todo with
  | O => Some t
  | S k =>
    obnd (BR_z N t) (fun f => BR_tloop N k (S i) (upd t i (- f i * t 1%nat)))
  end.
Definition BR_taylor (N : nat) (z0 : K) : option arr :=
  obnd (BR z0) (fun x0 =>
  let t := fun i => match i with O => x0 | S O => 'z1 | _ => 'z0 end in
  obnd (BR_z N t) (fun f =>
  obnd (sdiv 'z1 (f 1%nat)) (fun t1 => BR_tloop N (N - 1) 2 (upd t 1 t1)))).

(** BR(ctaylor): brx.cpp 77-86 *)
Fixpoint BR_sum (n : nat) (tmp : arr) (d : ct K n) (todo i : nat) (res : ct K n) : option (ct K n) :=
  match todo with
  | O => Some res
  | S k =>
    obnd (ct_powi n d (Z.of_nat i)) (fun p =>
    BR_sum n tmp d k (S i) (ct_add n res (ct_scale n (tmp i) p)))
  end.
Definition ct_BR (n : nat) (t : ct K n) : option (ct K n) :=
  obnd (BR_taylor (Nat.max n 3) (c0 n t)) (fun tmp =>
  BR_sum n tmp (ct_subk n (c0 n t) t) n 1 (ct_const n (tmp O))).

End BR.
