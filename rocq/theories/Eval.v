(** * Evaluation: xcfun_eval and xcfun_eval_vec, /repo/src/XCFunctional.cpp 493-806

    The output array is modelled by the list of stores in program order; [rd] reads a cell
    back.  Local arrays [in[XC_MAX_INVARS]] are not initialised by C++: their initial
    contents are the parameter [junk] (an arbitrary ctaylor per cell).  [buf] is the
    initial contents of the caller's output array.

    Simplifications: a call that dies or leaves the analytic domain has no observable
    output; stack and address arithmetic is not modelled. *)
From Coq Require Import QArith ZArith List Bool String.
From Verif Require Import Scalar Tables Api CTaylor TMath Br Expr Densvars Functionals.
Import ListNotations.
Local Open Scope outcome_scope.

Definition VAR0 : nat := 1%nat.
Definition VAR1 : nat := 2%nat.
Definition VAR2 : nat := 4%nat.

Section EVAL.
Context {K : Ops}.

(** A [for] loop threading a state. *)
Fixpoint ofold {A S} (f : S -> A -> outcome S) (s : S) (l : list A) : outcome S :=
  match l with [] => Ok s | x :: l' => s' <- f s x ;; ofold f s' l' end.

Definition aupd {A} (a : nat -> A) (i : nat) (v : A) : nat -> A :=
  fun j => if Nat.eqb j i then v else a j.

(** The energy function of an active functional: functional_data::fpN.  All orders are
    instances of the same template (functional.hpp ENERGY_FUNCTION). *)
Definition fp (id : nat) : outcome expr :=
  match nth_error functionals id with Some f => Ok (snd f) | None => UB end.

(** out += settings[id] * fpN(d), summed over the active list (e.g. 508-510). *)
Definition energy_sum (h : handle K) (n : nat) (fl : fld -> ct K n) (d : nat -> ct K n) (out : ct K n)
  : outcome (ct K n) :=
  ofold (fun out id =>
    e <- fp id ;;
    v <- of_option (eval (h_settings h) n d fl [] e) ;;
    Ok (ct_add n out (ct_scale n (h_settings h id) v))) out (h_active h).

(** densvars<ttype> d(fun, in); then the sum, added to [out]. *)
Definition energy (h : handle K) (n : nat) (d : nat -> ct K n) (out : ct K n) : outcome (ct K n) :=
  fl <- densvars (h_settings h) n (h_vars h) d ;; energy_sum h n fl d out.

Definition czero (n : nat) : ct K n := ct_const n (OofQ 0).

(** for (i < inlen) in[i] = input[i]; *)
Definition load (n : nat) (junk : nat -> ct K n) (inlen : nat) (input : nat -> K) : nat -> ct K n :=
  fun i => if Nat.ltb i inlen then ct_const n (input i) else junk i.

Definition writes := list (nat * K).
Definition w1 (ws : writes) (i : nat) (v : K) : writes := ws ++ [(i, v)].
Fixpoint rd (buf : nat -> K) (ws : writes) (i : nat) : K :=
  match ws with
  | [] => buf i
  | (j, v) :: ws' => rd (fun k => if Nat.eqb k j then v else buf k) ws' i
  end.

Variable junk : forall n : nat, nat -> ct K n.

(** 502-513 *)
Definition partial0 (h : handle K) (inlen : nat) (input : nat -> K) : outcome writes :=
  out <- energy h 0 (load 0 (junk 0) inlen input) (czero 0) ;;
  Ok [(0%nat, c0 0 out)].

(** 515-556 *)
Definition partial1 (h : handle K) (inlen : nat) (input : nat -> K) : outcome writes :=
  r <- ofold (fun (s : (nat -> ct K 2) * ct K 2 * writes) j =>
         let '(in2, _, ws) := s in
         let j0 := (2 * j)%nat in
         let j1 := (2 * j + 1)%nat in
         let in2 := aupd in2 j0 (set 2 (in2 j0) VAR0 (OofQ 1)) in
         let in2 := aupd in2 j1 (set 2 (in2 j1) VAR1 (OofQ 1)) in
         out2 <- energy h 2 in2 (czero 2) ;;
         let in2 := aupd in2 j0 (ct_const 2 (input j0)) in
         let in2 := aupd in2 j1 (ct_const 2 (input j1)) in
         let ws := w1 ws (2 * j + 1) (get 2 out2 VAR0) in
         let ws := w1 ws (2 * j + 2) (get 2 out2 VAR1) in
         Ok (in2, out2, ws))
       (load 2 (junk 2) inlen input, czero 2, []) (seq 0 (Nat.div inlen 2)) ;;
  let '(_, out2, ws) := r in
  let ws := w1 ws 0 (get 2 out2 0) in
  if Nat.odd inlen then
    let in1 := load 1 (junk 1) inlen input in
    let j := (inlen - 1)%nat in
    let in1 := aupd in1 j (set 1 (in1 j) VAR0 (OofQ 1)) in
    out <- energy h 1 in1 (czero 1) ;;
    let ws := w1 ws (j + 1) (get 1 out VAR0) in
    Ok (w1 ws 0 (get 1 out 0))
  else Ok ws.

(** 589-612 *)
Definition partial2 (h : handle K) (inlen : nat) (input : nat -> K) (ws : writes) : outcome writes :=
  r <- ofold (fun (s : (nat -> ct K 2) * ct K 2 * nat * writes) i =>
         let '(inn, out, k, ws) := s in
         let inn := aupd inn i (set 2 (inn i) VAR0 (OofQ 1)) in
         r <- ofold (fun (s : (nat -> ct K 2) * ct K 2 * nat * writes) j =>
                let '(inn, _, k, ws) := s in
                let inn := aupd inn j (set 2 (inn j) VAR1 (OofQ 1)) in
                out <- energy h 2 inn (czero 2) ;;
                let ws := w1 ws k (get 2 out (VAR0 + VAR1)) in
                let inn := aupd inn j (set 2 (inn j) VAR1 (OofQ 0)) in
                Ok (inn, out, S k, ws))
              (inn, out, k, ws) (seq i (inlen - i)) ;;
         let '(inn, out, k, ws) := r in
         let ws := w1 ws (i + 1) (get 2 out VAR0) in
         let inn := aupd inn i (ct_const 2 (input i)) in
         Ok (inn, out, k, ws))
       (load 2 (junk 2) inlen input, czero 2, (inlen + 1)%nat, ws) (seq 0 inlen) ;;
  let '(_, out, _, ws) := r in
  Ok (w1 ws 0 (get 2 out 0)).

(** 562-587, falling through into the second order code *)
Definition partial3 (h : handle K) (inlen : nat) (input : nat -> K) : outcome writes :=
  r <- ofold (fun (s : (nat -> ct K 3) * nat * writes) i =>
         let '(inn, k, ws) := s in
         let inn := aupd inn i (set 3 (inn i) VAR0 (OofQ 1)) in
         r <- ofold (fun (s : (nat -> ct K 3) * nat * writes) j =>
                let '(inn, k, ws) := s in
                let inn := aupd inn j (set 3 (inn j) VAR1 (OofQ 1)) in
                r <- ofold (fun (s : (nat -> ct K 3) * nat * writes) t =>
                       let '(inn, k, ws) := s in
                       let inn := aupd inn t (set 3 (inn t) VAR2 (OofQ 1)) in
                       out <- energy h 3 inn (czero 3) ;;
                       let ws := w1 ws k (get 3 out (VAR0 + VAR1 + VAR2)) in
                       let inn := aupd inn t (set 3 (inn t) VAR2 (OofQ 0)) in
                       Ok (inn, S k, ws))
                     (inn, k, ws) (seq j (inlen - j)) ;;
                let '(inn, k, ws) := r in
                let inn := aupd inn j (set 3 (inn j) VAR1 (OofQ 0)) in
                Ok (inn, k, ws))
              (inn, k, ws) (seq i (inlen - i)) ;;
         let '(inn, k, ws) := r in
         let inn := aupd inn i (ct_const 3 (input i)) in
         Ok (inn, k, ws))
       (load 3 (junk 3) inlen input, (1 + inlen + inlen * (inlen + 1) / 2)%nat, []) (seq 0 inlen) ;;
  let '(_, _, ws) := r in
  partial2 h inlen input ws.

(** 618-636: DOEVAL *)
Fixpoint ct_load (n : nat) (f : nat -> K) : ct K n :=
  match n return ct K n with
  | O => f O
  | S m => (ct_load m f, ct_load m (fun k => f (2 ^ m + k)%nat))
  end.
Definition contracted (h : handle K) (n inlen : nat) (input : nat -> K) : outcome writes :=
  let d := fun i => if Nat.ltb i inlen then ct_load n (fun j => input (i * 2 ^ n + j)%nat)
                    else junk n i in
  out <- energy h n d (czero n) ;;
  Ok (map (fun i => (i, get n out i)) (seq 0 (2 ^ n))).

(** 637-792.  [cv v x]: ttype(v, VAR0, x). *)
Definition cv (v x : K) : ct K 2 := set 2 (ct_const 2 v) VAR0 x.
Definition seed1 (d : nat -> ct K 2) (i : nat) : nat -> ct K 2 :=
  aupd d i (set 2 (d i) VAR1 (OofQ 1)).
(** in[o+i] = ttype(input[o+ii], VAR0, input[o+x]) for the listed (i, x) pairs *)
Definition setin (input : nat -> K) (o : nat) (l : list (nat * nat)) (d : nat -> ct K 2) :=
  fold_left (fun d p => aupd d (o + fst p)%nat (cv (input (o + fst p)%nat) (input (o + snd p)%nat))) l d.
Definition dirx := [(0, 1); (1, 4); (2, 5); (3, 6)]%nat.
Definition diry := [(0, 2); (1, 5); (2, 7); (3, 8)]%nat.
Definition dirz := [(0, 3); (1, 6); (2, 8); (3, 9)]%nat.
Definition zero49 (d : nat -> ct K 2) : nat -> ct K 2 :=
  fold_left (fun d i => aupd d i (czero 2)) (seq 4 6) d.

(** 680-721 *)
Definition pot_restricted (h : handle K) (input : nat -> K) : outcome K :=
  let d := setin input 0 dirx (junk 2) in
  let d := seed1 (zero49 d) 1 in
  out <- energy h 2 d (czero 2) ;;
  let d := seed1 (setin input 0 diry d) 2 in
  out <- energy h 2 d out ;;
  let d := seed1 (setin input 0 dirz d) 3 in
  out <- energy h 2 d out ;;
  Ok (get 2 out (VAR0 + VAR1)).
(** 730-787, one pass of the loop over j; the array is kept for the next pass *)
Definition pot_unrestricted (h : handle K) (input : nat -> K) (d : nat -> ct K 2) (j : nat)
  : outcome ((nat -> ct K 2) * K) :=
  let d := setin input 10 dirx (setin input 0 dirx d) in
  let d := seed1 (zero49 d) (1 + 10 * j) in
  out <- energy h 2 d (czero 2) ;;
  let d := seed1 (setin input 10 diry (setin input 0 diry d)) (2 + 10 * j) in
  out <- energy h 2 d out ;;
  let d := seed1 (setin input 10 dirz (setin input 0 dirz d)) (3 + 10 * j) in
  out <- energy h 2 d out ;;
  Ok (d, get 2 out (VAR0 + VAR1)).

Definition potential (h : handle K) (inlen : nat) (buf input : nat -> K) : outcome writes :=
  let npot := if orb (Nat.eqb inlen 1) (Nat.eqb inlen 10) then 1%nat else 2%nat in
  let inpos := if Nat.eqb npot 1 then 0%nat
               else if Nat.eqb inlen 2 then 1%nat else if Nat.eqb inlen 20 then 10%nat else 0%nat in
  r <- ofold (fun (s : (nat -> ct K 1) * ct K 1 * writes) j =>
         let '(inn, _, ws) := s in
         let p := (j * inpos)%nat in
         let inn := aupd inn p (set 1 (inn p) VAR0 (OofQ 1)) in
         out <- energy h 1 inn (czero 1) ;;
         let inn := aupd inn p (ct_const 1 (input p)) in
         Ok (inn, out, w1 ws (j + 1) (get 1 out VAR0)))
       (load 1 (junk 1) inlen input, czero 1, []) (seq 0 npot) ;;
  let '(_, out, ws) := r in
  let ws := w1 ws 0 (get 1 out 0) in
  if negb (Z.eqb (Z.land (h_depends h) XC_GRADIENT) 0) then
    if orb (Z.eqb (h_vars h) XC_A_2ND_TAYLOR) (Z.eqb (h_vars h) XC_N_2ND_TAYLOR) then
      v <- pot_restricted h input ;;
      Ok (w1 ws 1 (Osub (rd buf ws 1) v))
    else
      r <- ofold (fun (s : (nat -> ct K 2) * writes) j =>
             let '(d, ws) := s in
             r <- pot_unrestricted h input d j ;;
             Ok (fst r, w1 ws (j + 1) (Osub (rd buf ws (j + 1)) (snd r))))
           (junk 2, ws) (seq 0 2) ;;
      Ok (snd r)
  else Ok ws.

(** xcfun_eval: 493-796 *)
Definition xcfun_eval (h : handle K) (buf input : nat -> K) : outcome writes :=
  if Z.eqb (h_mode h) XC_MODE_UNSET then Die
  else if Z.eqb (h_vars h) XC_VARS_UNSET then Die
  else if andb (Z.eqb (h_order h) (-1)) (negb (Z.eqb (h_mode h) XC_POTENTIAL)) then Die
  else if Z.eqb (h_mode h) XC_PARTIAL_DERIVATIVES then
    if Z.eqb (h_order h) 0 then
      vd <- vars_entry (h_vars h) ;; partial0 h (Z.to_nat (v_len vd)) input
    else if Z.eqb (h_order h) 1 then
      vd <- vars_entry (h_vars h) ;; partial1 h (Z.to_nat (v_len vd)) input
    else if Z.eqb (h_order h) 2 then
      vd <- vars_entry (h_vars h) ;; partial2 h (Z.to_nat (v_len vd)) input []
    else if Z.eqb (h_order h) 3 then
      vd <- vars_entry (h_vars h) ;; partial3 h (Z.to_nat (v_len vd)) input
    else Die
  else if Z.eqb (h_mode h) XC_CONTRACTED then
    if andb (Z.leb 0 (h_order h)) (Z.leb (h_order h) XCFUN_MAX_ORDER) then
      vd <- vars_entry (h_vars h) ;;
      contracted h (Z.to_nat (h_order h)) (Z.to_nat (v_len vd)) input
    else Die
  else if Z.eqb (h_mode h) XC_POTENTIAL then
    vd <- vars_entry (h_vars h) ;; potential h (Z.to_nat (v_len vd)) buf input
  else Die.

(** xcfun_eval_vec: 798-806.  The two arrays are modelled by functions of the offset from
    the pointers passed by the caller; they are assumed not to overlap.  The offsets
    i*pitch are computed in [int]. *)
Definition int_ok (z : Z) : bool := andb (Z.leb (-2147483648) z) (Z.leb z 2147483647).
Definition store (res : Z -> K) (base : Z) (ws : writes) : Z -> K :=
  fold_left (fun res w => fun z => if Z.eqb z (base + Z.of_nat (fst w)) then snd w else res z) ws res.
Definition xcfun_eval_vec (h : handle K) (nr_points : Z) (density : Z -> K) (density_pitch : Z)
  (result : Z -> K) (result_pitch : Z) : outcome (Z -> K) :=
  ofold (fun res i =>
    let a := (Z.of_nat i * density_pitch)%Z in
    let b := (Z.of_nat i * result_pitch)%Z in
    if andb (int_ok a) (int_ok b) then
      ws <- xcfun_eval h (fun k => res (b + Z.of_nat k)%Z) (fun k => density (a + Z.of_nat k)%Z) ;;
      Ok (store res b ws)
    else UB) result (seq 0 (Z.to_nat nr_points)).

End EVAL.
