(** * The tensored Taylor type [ctaylor<T,Nvar>]
    /repo/external/upstream/taylor/ctaylor.hpp (CTAYLOR_SPARSE undefined, as in xcfun).

    The 2^N coefficients are stored "with the first half of the terms not depending on
    the last variable, while the second half does ... repeated recursively" (lines
    22-30).  The model keeps this structure: an element of [ct (S n)] is the pair of the
    two halves.  [get]/[set] below give the flat array view [c[i]].  The in-place
    routines are modelled here as functions of the old contents; CtMem.v contains the
    memory-level model of the same routines and the refinement proof. *)
From Coq Require Import QArith ZArith Arith List.
From Verif Require Import Scalar.
Import ListNotations.
Local Open Scope ops_scope.

Section CT.
Context {K : Ops}.

(** ctaylor.hpp 154-156: [T c[POW2(Nvar)]]. *)
Fixpoint ct (n : nat) : Type :=
  match n with O => T K | S m => (ct m * ct m)%type end.

(** Constant coefficient c[0]. *)
Fixpoint c0 (n : nat) : ct n -> K :=
  match n with O => fun c => c | S m => fun c => c0 m (fst c) end.

(** All coefficients equal (loops "for i < POW2(Nvar)"). *)
Fixpoint ct_fill (n : nat) (x : K) : ct n :=
  match n with O => x | S m => (ct_fill m x, ct_fill m x) end.

(** ctaylor(const T & c0) / operator=(S): 179-187, 210-219. *)
Fixpoint ct_const (n : nat) (x : K) : ct n :=
  match n with O => x | S m => (ct_const m x, ct_fill m 'z0) end.

Fixpoint ct_map (n : nat) (f : K -> K) : ct n -> ct n :=
  match n with O => f | S m => fun c => (ct_map m f (fst c), ct_map m f (snd c)) end.

Fixpoint ct_map2 (n : nat) (f : K -> K -> K) : ct n -> ct n -> ct n :=
  match n with
  | O => f
  | S m => fun a b => (ct_map2 m f (fst a) (fst b), ct_map2 m f (snd a) (snd b))
  end.

(** Modify c[0] only. *)
Fixpoint ct_upd0 (n : nat) (f : K -> K) : ct n -> ct n :=
  match n with O => f | S m => fun c => (ct_upd0 m f (fst c), snd c) end.

(** get: 250-261 (in-range part; the asserts bound the index). *)
Fixpoint get (n : nat) : ct n -> nat -> K :=
  match n with
  | O => fun c _ => c
  | S m => fun c i => if Nat.ltb i (2 ^ m) then get m (fst c) i else get m (snd c) (i - 2 ^ m)
  end.

(** set: 241-249. *)
Fixpoint set (n : nat) : ct n -> nat -> K -> ct n :=
  match n with
  | O => fun _ _ v => v
  | S m => fun c i v => if Nat.ltb i (2 ^ m) then (set m (fst c) i v, snd c)
                        else (fst c, set m (snd c) (i - 2 ^ m) v)
  end.

(** ** ctaylor_rec: 41-152 *)

(** mul: dst += x*y.  Generic 43-47; N=0 86; N=1 95-98; N=2 119-124. *)
Definition muladd_step (m : nat) :
    (ct m -> ct m -> ct m -> ct m) -> ct (S m) -> ct (S m) -> ct (S m) -> ct (S m) :=
    match m return (ct m -> ct m -> ct m -> ct m) -> ct (S m) -> ct (S m) -> ct (S m) -> ct (S m) with
    | O => fun _ d x y =>
        (fst d + fst x * fst y, snd d + (fst x * snd y + snd x * fst y))
    | S O => fun _ d x y =>
        let '((d0, d1), (d2, d3)) := d in
        let '((x0, x1), (x2, x3)) := x in
        let '((y0, y1), (y2, y3)) := y in
        ((d0 + x0 * y0, d1 + (x0 * y1 + x1 * y0)),
         (d2 + (x0 * y2 + x2 * y0), d3 + (x0 * y3 + x3 * y0 + x1 * y2 + x2 * y1)))
    | S (S _) => fun rec d x y =>
        (rec (fst d) (fst x) (fst y),
         rec (rec (snd d) (snd x) (fst y)) (fst x) (snd y))
    end.
Fixpoint ct_muladd (n : nat) : ct n -> ct n -> ct n -> ct n :=
  match n return ct n -> ct n -> ct n -> ct n with
  | O => fun d x y => d + x * y
  | S m => muladd_step m (ct_muladd m)
  end.

(** mul_set: dst = x*y.  Generic 49-53; N=0 87; N=1 99-102; N=2 125-130. *)
Definition mulset_step (m : nat) :
    (ct m -> ct m -> ct m) -> (ct m -> ct m -> ct m -> ct m) -> ct (S m) -> ct (S m) -> ct (S m) :=
    match m return (ct m -> ct m -> ct m) -> (ct m -> ct m -> ct m -> ct m) -> ct (S m) -> ct (S m) -> ct (S m) with
    | O => fun _ _ x y => (fst x * fst y, fst x * snd y + snd x * fst y)
    | S O => fun _ _ x y =>
        let '((x0, x1), (x2, x3)) := x in
        let '((y0, y1), (y2, y3)) := y in
        ((x0 * y0, x0 * y1 + x1 * y0),
         (x0 * y2 + x2 * y0, x0 * y3 + x3 * y0 + x1 * y2 + x2 * y1))
    | S (S _) => fun rec acc x y =>
        (rec (fst x) (fst y), acc (rec (snd x) (fst y)) (fst x) (snd y))
    end.
Fixpoint ct_mulset (n : nat) : ct n -> ct n -> ct n :=
  match n return ct n -> ct n -> ct n with
  | O => fun x y => x * y
  | S m => mulset_step m (ct_mulset m) (ct_muladd m)
  end.

(** multo: dst = dst*y, dst and y distinct objects.  Generic 55-59; N=0 88;
    N=1 103-106; N=2 131-136. *)
Definition multo_step (m : nat) :
    (ct m -> ct m -> ct m) -> (ct m -> ct m -> ct m -> ct m) -> ct (S m) -> ct (S m) -> ct (S m) :=
    match m return (ct m -> ct m -> ct m) -> (ct m -> ct m -> ct m -> ct m) -> ct (S m) -> ct (S m) -> ct (S m) with
    | O => fun _ _ d y => (fst d * fst y, snd d * fst y + fst d * snd y)
    | S O => fun _ _ d y =>
        let '((d0, d1), (d2, d3)) := d in
        let '((y0, y1), (y2, y3)) := y in
        ((d0 * y0, d0 * y1 + d1 * y0),
         (d0 * y2 + d2 * y0, d0 * y3 + d3 * y0 + d1 * y2 + d2 * y1))
    | S (S _) => fun rec acc d y =>
        (rec (fst d) (fst y), acc (rec (snd d) (fst y)) (fst d) (snd y))
    end.
Fixpoint ct_multo (n : nat) : ct n -> ct n -> ct n :=
  match n return ct n -> ct n -> ct n with
  | O => fun d y => d * y
  | S m => multo_step m (ct_multo m) (ct_muladd m)
  end.

(** multo_skipconst: dst = dst*(y-y[0]).  Generic 61-65; N=0 89; N=1 107-110; N=2 137-142. *)
Definition multo_skipconst_step (m : nat) :
    (ct m -> ct m -> ct m) -> (ct m -> ct m -> ct m -> ct m) -> ct (S m) -> ct (S m) -> ct (S m) :=
    match m return (ct m -> ct m -> ct m) -> (ct m -> ct m -> ct m -> ct m) -> ct (S m) -> ct (S m) -> ct (S m) with
    | O => fun _ _ d y => ('z0, fst d * snd y)
    | S O => fun _ _ d y =>
        let '((d0, d1), (d2, d3)) := d in
        let '((y0, y1), (y2, y3)) := y in
        (('z0, d0 * y1), (d0 * y2, d0 * y3 + d1 * y2 + d2 * y1))
    | S (S _) => fun rec acc d y =>
        (rec (fst d) (fst y), acc (rec (snd d) (fst y)) (fst d) (snd y))
    end.
Fixpoint ct_multo_skipconst (n : nat) : ct n -> ct n -> ct n :=
  match n return ct n -> ct n -> ct n with
  | O => fun _ _ => 'z0
  | S m => multo_skipconst_step m (ct_multo_skipconst m) (ct_muladd m)
  end.

(** Unfolding equations of the generic recursion (three or more variables). *)
Lemma ct_muladd_gen m : (2 <= m)%nat -> forall d x y : ct (S m),
  ct_muladd (S m) d x y =
  (ct_muladd m (fst d) (fst x) (fst y),
   ct_muladd m (ct_muladd m (snd d) (snd x) (fst y)) (fst x) (snd y)).
Proof. destruct m as [|[|m]]; [inversion 1|intro H; inversion H; inversion H1|reflexivity]. Qed.
Lemma ct_mulset_gen m : (2 <= m)%nat -> forall x y : ct (S m),
  ct_mulset (S m) x y =
  (ct_mulset m (fst x) (fst y), ct_muladd m (ct_mulset m (snd x) (fst y)) (fst x) (snd y)).
Proof. destruct m as [|[|m]]; [inversion 1|intro H; inversion H; inversion H1|reflexivity]. Qed.
Lemma ct_multo_gen m : (2 <= m)%nat -> forall d y : ct (S m),
  ct_multo (S m) d y =
  (ct_multo m (fst d) (fst y), ct_muladd m (ct_multo m (snd d) (fst y)) (fst d) (snd y)).
Proof. destruct m as [|[|m]]; [inversion 1|intro H; inversion H; inversion H1|reflexivity]. Qed.
Lemma ct_multo_skipconst_gen m : (2 <= m)%nat -> forall d y : ct (S m),
  ct_multo_skipconst (S m) d y =
  (ct_multo_skipconst m (fst d) (fst y),
   ct_muladd m (ct_multo_skipconst m (snd d) (fst y)) (fst d) (snd y)).
Proof. destruct m as [|[|m]]; [inversion 1|intro H; inversion H; inversion H1|reflexivity]. Qed.

(** The Horner loop of the generic compose, 74-82: after the first [i] iterations
    (counting down from [top]). *)
Fixpoint compose_loop (n : nat) (x : ct n) (coeff : nat -> K) (i : nat) (res : ct n) : ct n :=
  match i with
  | O => res
  | S j => compose_loop n x coeff j (ct_upd0 n (fun r => r + coeff j) (ct_multo_skipconst n res x))
  end.

(** compose: sum_i coeff[i]*(x-x[0])^i.  Generic 74-82; N=0 91; N=1 112-115; N=2 146-151. *)
Definition ct_compose (n : nat) : ct n -> (nat -> K) -> ct n :=
  match n return ct n -> (nat -> K) -> ct n with
  | O => fun _ coeff => coeff O
  | S O => fun x coeff => (coeff O, coeff 1%nat * snd x)
  | S (S O) => fun x coeff =>
      let '((x0, x1), (x2, x3)) := x in
      ((coeff O, coeff 1%nat * x1),
       (coeff 1%nat * x2, coeff 1%nat * x3 + OofZ 2 * x1 * x2 * coeff 2%nat))
  | m => fun x coeff => compose_loop m x coeff m (ct_const m (coeff m))
  end.

(** eval: the polynomial at a point, generic 68-71, N=0 90, N=1 111, N=2 143-145
    ([x] is the array of length Nvar).  Not used by the evaluation of functionals. *)
Fixpoint ct_eval (n : nat) : ct n -> (nat -> K) -> K :=
  match n return ct n -> (nat -> K) -> K with
  | O => fun c _ => c
  | S m =>
    match m return (ct m -> (nat -> K) -> K) -> ct (S m) -> (nat -> K) -> K with
    | O => fun _ c x => fst c + x O * snd c
    | S O => fun _ c x =>
        let '((a, b), (d, e)) := c in
        a + x O * b + x 1%nat * d + x 1%nat * x O * e
    | S (S _) => fun rec c x => rec (fst c) x + x m * rec (snd c) x
    end (ct_eval m)
  end.

(** ** Operators on ctaylor objects *)
(** unary minus 263-277; += 295-311 (and + 468-474); -= 278-294 (and - 504-510). *)
Definition ct_neg n : ct n -> ct n := ct_map n Oopp.
Definition ct_add n : ct n -> ct n -> ct n := ct_map2 n Oadd.
Definition ct_sub n : ct n -> ct n -> ct n := ct_map2 n Osub.
(** scalar * t, t * scalar: 420-452. *)
Definition ct_scale n (x : K) : ct n -> ct n := ct_map n (fun c => x * c).
(** t *= scalar: 314-325. *)
Definition ct_scaleto n (x : K) : ct n -> ct n := ct_map n (fun c => c * x).
(** t + scalar, scalar + t, t += scalar: 312-313, 454-466. *)
Definition ct_addk n (x : K) : ct n -> ct n := ct_upd0 n (fun c => c + x).
(** t - scalar: 483-488, 497-502. *)
Definition ct_subk n (x : K) : ct n -> ct n := ct_upd0 n (fun c => c - x).
(** scalar - t: 476-481, 490-495. *)
Definition ct_ksub n (x : K) (t : ct n) : ct n := ct_upd0 n (fun c => c + x) (ct_neg n t).
(** operator*(t1,t2): 359-380. *)
Definition ct_mul n : ct n -> ct n -> ct n := ct_mulset n.

End CT.
Arguments ct K n : clear implicits.
