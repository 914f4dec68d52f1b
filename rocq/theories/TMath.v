(** * Taylor expansions of the elementary functions
    /repo/external/upstream/taylor/tmath.hpp.  Coefficient arrays [t[0..N]] are
    functions [nat -> K] of which entries 0..N are meaningful; array loops that fill
    t[i] from t[i-1] are recursions on i.  A failing [assert] gives [None].  In-place
    routines read only entries that are still unmodified when they are read (noted at
    each definition), so they are functions of the old array. *)
From Coq Require Import QArith ZArith Arith List.
From Verif Require Import Scalar CTaylor.
Import ListNotations.
Local Open Scope ops_scope.

Section TM.
Context {K : Ops}.
Notation arr := (nat -> K).

(** tfuns::mul / multo: 37-43, 45-51.  z[i] = x[0]*z[i]; z[i] += x[j]*z[i-j] for
    j = 1..i.  multo runs i downwards, so z[i-j] is still the old entry. *)
Fixpoint tmul_acc (x z : arr) (i j : nat) : K :=
  match j with
  | O => x O * z i
  | S j' => tmul_acc x z i j' + x j * z (i - j)%nat
  end.
Definition tmulto (z x : arr) : arr := fun i => tmul_acc x z i i.

(** tfuns::integrate: 53-56, i downwards; x[0] is left as it was ("undefined"). *)
Definition tintegrate (x : arr) : arr :=
  fun i => match i with O => x O | S j => x j / Oof_nat i end.

(** tfuns::shift: 63-78 for fixed order N.  Contributions to x[n] come from x[m], m > n,
    which are unmodified when x[n] is processed (n upwards).  [fac] is an [int]. *)
Fixpoint dpow (d : K) (i : nat) : K :=
  match i with O => 'z1 | S j => d * dpow d j end.
Fixpoint shift_loop (N n : nat) (d : K) (x : arr) (todo m : nat) (fac : Z) (acc : K) : K :=
  match todo with
  | O => acc + OofZ fac * dpow d (N - n) * x N
  | S todo' =>
      shift_loop N n d x todo' (S m)
        (Z.quot (fac * (Z.of_nat m + 1)) (Z.of_nat m - Z.of_nat n + 1))
        (acc + OofZ fac * dpow d (m - n) * x m)
  end.
Definition tshift (N : nat) (x : arr) (d : K) : arr :=
  fun n => if Nat.ltb n N
           then shift_loop N n d x (N - 1 - n) (S n) (Z.of_nat n + 1) (x n)
           else x n.

(** tfuns::compose: 80-113.  The cases fall through from N down to 1; case k reads only
    f[1..k], none of which has been overwritten yet.  N > 6 fails an assert. *)
Definition tcompose (N : nat) (f x : arr) : option arr :=
  if Nat.leb N 6 then
    Some (fun i =>
      if Nat.leb i N then
      match i with
      | 6%nat =>
          f 1%nat * x 6%nat + OofZ 2 * f 2%nat * x 5%nat * x 1%nat + OofZ 2 * f 2%nat * x 4%nat * x 2%nat +
          f 2%nat * x 3%nat * x 3%nat + OofZ 3 * f 3%nat * x 4%nat * x 1%nat * x 1%nat +
          OofZ 6 * f 3%nat * x 3%nat * x 2%nat * x 1%nat + f 3%nat * x 2%nat * x 2%nat * x 2%nat +
          OofZ 4 * f 4%nat * x 3%nat * x 1%nat * x 1%nat * x 1%nat +
          OofZ 6 * f 4%nat * x 2%nat * x 2%nat * x 1%nat * x 1%nat +
          OofZ 5 * f 5%nat * x 2%nat * x 1%nat * x 1%nat * x 1%nat * x 1%nat +
          f 6%nat * x 1%nat * x 1%nat * x 1%nat * x 1%nat * x 1%nat * x 1%nat
      | 5%nat =>
          f 1%nat * x 5%nat +
          x 1%nat * (OofZ 2 * f 2%nat * x 4%nat +
                  x 1%nat * (OofZ 3 * f 3%nat * x 3%nat +
                          x 1%nat * (OofZ 4 * f 4%nat * x 2%nat + f 5%nat * x 1%nat * x 1%nat)) +
                  OofZ 3 * f 3%nat * x 2%nat * x 2%nat) +
          OofZ 2 * f 2%nat * x 2%nat * x 3%nat
      | 4%nat =>
          f 1%nat * x 4%nat +
          x 1%nat * (OofZ 2 * f 2%nat * x 3%nat +
                  x 1%nat * (OofZ 3 * f 3%nat * x 2%nat + f 4%nat * x 1%nat * x 1%nat)) +
          f 2%nat * x 2%nat * x 2%nat
      | 3%nat => f 1%nat * x 3%nat + x 1%nat * (OofZ 2 * f 2%nat * x 2%nat + f 3%nat * x 1%nat * x 1%nat)
      | 2%nat => f 1%nat * x 2%nat + f 2%nat * x 1%nat * x 1%nat
      | 1%nat => f 1%nat * x 1%nat
      | _ => f i
      end
      else f i)
  else None.

(** tfuns::stretch: 114-120 (an = a^i accumulated as an *= a). *)
Fixpoint an_pow (a : K) (i : nat) : K :=
  match i with O => 'z1 | S O => a | S j => an_pow a j * a end.
Definition tstretch (t : arr) (a : K) : arr :=
  fun i => match i with O => t O | _ => t i * an_pow a i end.

(** inv_expand: 124-129. *)
Fixpoint inv_coef (a : K) (i : nat) : K :=
  match i with O => 'z1 / a | S j => (- inv_coef a j) * ('z1 / a) end.
Definition inv_expand (a : K) : option arr := if a =? 'z0 then None else Some (inv_coef a).

(** exp_expand: 132-139. *)
Fixpoint ifac (i : nat) : K := match i with O => 'z1 | S j => ifac j * Oof_nat i end.
Definition exp_expand (x0 : K) : arr :=
  fun i => match i with O => Oexp x0 | _ => Oexp x0 / ifac i end.

(** log_expand: 142-151; [xn] before iteration i is (1/x0)^i. *)
Fixpoint xn_pow (xinv : K) (i : nat) : K :=
  match i with O => 'z1 | S O => xinv | S j => xn_pow xinv j * xinv end.
Definition log_expand (x0 : K) : option arr :=
  if 'z0 <? x0 then
    Some (fun i => match i with
                   | O => Olog x0
                   | _ => (xn_pow ('z1 / x0) i / Oof_nat i) * OofZ (2 * Z.b2z (Nat.odd i) - 1)
                   end)
  else None.

(** pow_expand: 154-161 (t[i-1]*x0inv*(a-i+1)/i, left associative). *)
Fixpoint pow_coef (x0 a : K) (i : nat) : K :=
  match i with
  | O => Opow x0 a
  | S j => pow_coef x0 a j * ('z1 / x0) * (a - Oof_nat i + 'z1) / Oof_nat i
  end.
Definition pow_expand (x0 a : K) : option arr := if 'z0 <? x0 then Some (pow_coef x0 a) else None.

(** sqrt_expand: 164-170. *)
Fixpoint sqrt_coef (x0 : K) (i : nat) : K :=
  match i with
  | O => Osqrt x0
  | S j => sqrt_coef x0 j * ((OofZ 3 * ('z1 / x0)) / OofZ (2 * Z.of_nat i) - 'z1 / x0)
  end.
Definition sqrt_expand (x0 : K) : option arr := if 'z0 <? x0 then Some (sqrt_coef x0) else None.

(** cbrt_expand: 172-178. *)
Fixpoint cbrt_coef (x0 : K) (i : nat) : K :=
  match i with
  | O => Ocbrt x0
  | S j => cbrt_coef x0 j * ((OofZ 4 * ('z1 / x0)) / OofZ (3 * Z.of_nat i) - 'z1 / x0)
  end.
Definition cbrt_expand (x0 : K) : option arr := if 'z0 <? x0 then Some (cbrt_coef x0) else None.

(** overwrite entry 0 *)
Definition set0 (t : arr) (v : K) : arr := fun i => match i with O => v | _ => t i end.

(** The array {c0, c1, c2, 0, 0, ...} filled in atan/asinh/asin/acos_expand. *)
Definition quad (q0 q1 q2 : K) : arr :=
  fun i => match i with O => q0 | 1%nat => q1 | 2%nat => q2 | _ => 'z0 end.

(** atan_expand: 182-198. *)
Definition atan_expand (N : nat) (a : K) : option arr :=
  obnd (inv_expand ('z1 + a * a)) (fun t =>
  obnd (tcompose N t (quad 'z0 (OofZ 2 * a) 'z1)) (fun t =>
  Some (set0 (tintegrate t) (Oatan a)))).

(** gauss_expand: 205-215.  g[0]=1, odd entries 0, g[2i] = -g[2(i-1)]/i. *)
Fixpoint gauss_even (i : nat) : K :=
  match i with O => 'z1 | S j => (- gauss_even j) / Oof_nat i end.
Definition gauss_g : arr := fun i => if Nat.even i then gauss_even (Nat.div2 i) else 'z0.
Definition gauss_expand (a : K) : arr :=
  tmulto (tstretch (exp_expand ((- a) * a)) ((- OofZ 2) * a)) gauss_g.

(** erf_expand: 219-225. *)
Definition erf_expand (a : K) : arr :=
  set0 (tintegrate (fun i => gauss_expand a i * (OofZ 2 / Osqrt Opi))) (Oerf a).

(** sin_expand: 227-241.  [fac] after k steps: fac/1, then /-(2), /3, /-(4), ... *)
Fixpoint sin_fac (k : nat) : K :=
  match k with
  | O => 'z1
  | S j => if Nat.even j then sin_fac j / Oof_nat k else sin_fac j / OofZ (- Z.of_nat k)
  end.
Definition sin_expand (N : nat) (a : K) : arr :=
  match N with
  | O => fun _ => Osin a
  | _ => fun k => if Nat.even k then sin_fac k * Osin a else sin_fac k * Ocos a
  end.

(** cos_expand: 243-257. *)
Fixpoint cos_fac (k : nat) : K :=
  match k with
  | O => 'z1
  | S j => if Nat.even j then cos_fac j / OofZ (- Z.of_nat k) else cos_fac j / Oof_nat k
  end.
Definition cos_expand (N : nat) (a : K) : arr :=
  match N with
  | O => fun _ => Ocos a
  | _ => fun k => if Nat.even k then cos_fac k * Ocos a else cos_fac k * Osin a
  end.

(** asinh_expand: 261-274. *)
Definition asinh_expand (N : nat) (a : K) : option arr :=
  obnd (pow_expand ('z1 + a * a) (- OofQ 0.5%Q)) (fun t =>
  obnd (tcompose N t (quad ('z1 + a * a) (OofZ 2 * a) 'z1)) (fun t =>
  Some (set0 (tintegrate t) (Oasinh a)))).

(** asin_expand: 278-291 (t[0] = asinh(a) as in the code). *)
Definition asin_expand (N : nat) (a : K) : option arr :=
  obnd (pow_expand ('z1 - a * a) (- OofQ 0.5%Q)) (fun t =>
  obnd (tcompose N t (quad ('z1 - a * a) ((- OofZ 2) * a) (- 'z1))) (fun t =>
  Some (set0 (tintegrate t) (Oasinh a)))).

(** acos_expand: 299-314 (sign change for 1 <= i < Ndeg only, t[0] = asinh(a)). *)
Definition acos_expand (N : nat) (a : K) : option arr :=
  obnd (pow_expand ('z1 - a * a) (- OofQ 0.5%Q)) (fun t =>
  obnd (tcompose N t (quad ('z1 - a * a) ((- OofZ 2) * a) (- 'z1))) (fun t =>
  let t := tintegrate t in
  Some (set0 (fun i => if andb (Nat.leb 1 i) (Nat.ltb i N) then t i * OofZ (-1) else t i) (Oasinh a)))).

(** ** ctaylor_math.hpp: functions of ctaylor objects *)
(** S / ct: 6-28. *)
Definition ct_kdiv n (x : K) (t : ct K n) : option (ct K n) :=
  obnd (inv_expand (c0 n t)) (fun tmp => Some (ct_compose n t (fun i => tmp i * x))).
(** ct / ct: 30-46. *)
Definition ct_div n (t1 t2 : ct K n) : option (ct K n) :=
  obnd (inv_expand (c0 n t2)) (fun tmp => Some (ct_multo n (ct_compose n t2 tmp) t1)).
(** ct / T: 48-60 (multiplication by the inverse; the division 1/x is a plain scalar
    division: [None] when x is zero, where the C code yields an infinity). *)
Definition ct_divk n (t : ct K n) (x : K) : option (ct K n) :=
  if x =? 'z0 then None else Some (ct_scaleto n ('z1 / x) t).
(** abs: 62-68. *)
Definition ct_abs n (t : ct K n) : ct K n := if c0 n t <? 'z0 then ct_neg n t else t.
(** exp: 70-81. *)
Definition ct_exp n (t : ct K n) : ct K n := ct_compose n t (exp_expand (c0 n t)).
(** expm1: 83-102. *)
Definition fabs (x : K) : K := if x <? 'z0 then - x else x.
Definition ct_expm1 n (t : ct K n) : ct K n :=
  let tmp := exp_expand (c0 n t) in
  ct_compose n t
    (set0 tmp (if OofQ 0.001%Q <? fabs (c0 n t) then tmp O - 'z1
               else OofZ 2 * Oexp (c0 n t / OofZ 2) * Osinh (c0 n t / OofZ 2))).
(** log: 104-115. *)
Definition ct_log n (t : ct K n) : option (ct K n) :=
  obnd (log_expand (c0 n t)) (fun tmp => Some (ct_compose n t tmp)).
(** pow(ct, double): 117-131. *)
Definition ct_pow n (t : ct K n) (a : K) : option (ct K n) :=
  obnd (pow_expand (c0 n t) a) (fun tmp => Some (ct_compose n t tmp)).
(** sqrt: 133-145. *)
Definition ct_sqrt n (t : ct K n) : option (ct K n) :=
  obnd (sqrt_expand (c0 n t)) (fun tmp => Some (ct_compose n t tmp)).
(** cbrt: 147-159. *)
Definition ct_cbrt n (t : ct K n) : option (ct K n) :=
  obnd (cbrt_expand (c0 n t)) (fun tmp => Some (ct_compose n t tmp)).
(** pow(ct, int): 161-178. *)
Definition ct_powi n (t : ct K n) (e : Z) : option (ct K n) :=
  if Z.ltb 0 e then Some (Nat.iter (Z.to_nat (e - 1)) (fun res => ct_multo n res t) t)
  else if Z.ltb e 0 then ct_pow n t (OofZ e)
  else Some (ct_const n 'z1).
(** atan: 180-192. *)
Definition ct_atan n (t : ct K n) : option (ct K n) :=
  obnd (atan_expand n (c0 n t)) (fun tmp => Some (ct_compose n t tmp)).
(** erf: 194-206. *)
Definition ct_erf n (t : ct K n) : ct K n := ct_compose n t (erf_expand (c0 n t)).
(** sin, cos: 208-234. *)
Definition ct_sin n (t : ct K n) : ct K n := ct_compose n t (sin_expand n (c0 n t)).
Definition ct_cos n (t : ct K n) : ct K n := ct_compose n t (cos_expand n (c0 n t)).
(** asin, acos: 236-254. *)
Definition ct_asin n (t : ct K n) : option (ct K n) :=
  obnd (asin_expand n (c0 n t)) (fun tmp => Some (ct_compose n t tmp)).
Definition ct_acos n (t : ct K n) : option (ct K n) :=
  obnd (acos_expand n (c0 n t)) (fun tmp => Some (ct_compose n t tmp)).
(** asinh: 256-268. *)
Definition ct_asinh n (t : ct K n) : option (ct K n) :=
  obnd (asinh_expand n (c0 n t)) (fun tmp => Some (ct_compose n t tmp)).

(** sqrtx_asinh_sqrtx: 270-325. *)
Definition padeP : list Q :=
  [0; 3510.921856028398; 12362.4388373212; 17348.47003883674; 12350.72285222234;
   4691.117148130619; 911.9186273274577; 78.15848629220836; 1.96088643023654]%Q.
Definition padeQ : list Q :=
  [3510.921856028398; 12947.5924799926; 19243.08297963337; 14743.57149568687;
   6176.496729255528; 1379.806958043824; 147.1833349002349; 5.666278232986776;
   0.02865104054302032]%Q.
Definition tab (l : list Q) : arr := fun i => OofQ (nth i l 0%Q).
(** the coefficients in the Pade branch, 304-316 *)
Definition pade_expand (N : nat) (a : K) : option arr :=
  if Nat.ltb N 9 then
    let pq := tshift 8 (tab padeQ) a in
    obnd (inv_expand (pq O)) (fun tmp =>
    obnd (tcompose N tmp pq) (fun tmp =>
    Some (tmulto tmp (tshift 8 (tab padeP) a))))
  else None.
Definition ct_sqrtx_asinh_sqrtx n (t : ct K n) : option (ct K n) :=
  if - OofQ 0.5%Q <? c0 n t then
    if fabs (c0 n t) <? OofQ 0.5%Q then
      obnd (pade_expand n (c0 n t)) (fun tmp => Some (ct_compose n t tmp))
    else
      obnd (ct_sqrt n t) (fun s =>
      obnd (ct_asinh n s) (fun as_ => Some (ct_mul n s as_)))
  else None.

(** max: 335-341. *)
Definition ct_max n (a b : ct K n) : ct K n := if c0 n b <? c0 n a then a else b.

End TM.
