(** * Several handles, several threads, and the lazily initialised tables

    /repo/src/xcint.cpp 28-29 (the tables), 63-95 (the helpers that fill them), 137-151
    (xcint_assure_setup) and the entry points of /repo/src/XCFunctional.cpp 302-806.

    Simplifications.  The body of a call (everything after xcint_assure_setup) is one step:
    it works on the caller's handle and buffers and only reads the tables.  Assigning a table
    entry (xcint.cpp 78, 90: copies of structs that hold std::function objects) takes two
    steps, between which the entry is [Torn].  A body that reads the tables while some entry
    is not [Full] is undefined behaviour; the code might get through when the torn entry is
    not the one it needs, so the model errs on the side of reporting a failure.  Pointers
    are handle variables: no two variables point to the same object.  Steps interleave
    sequentially consistently; C++ gives even fewer guarantees for these plain variables. *)
From Coq Require Import QArith ZArith Arith List Bool String.
From Verif Require Import Scalar Tables Api CTaylor Eval.
Import ListNotations.
Local Open Scope outcome_scope.

Section CONC.
Context {K : Ops}.
Variable junk : forall n : nat, nat -> ct K n.

(** API calls with the handle variable they work on. *)
Inductive op :=
| ONew (a : nat)                                (* XCFunctional.cpp 358-361 *)
| ODelete (a : nat)                             (* 363-367 *)
| OCall (a : nat) (c : call K)
| OEval (a : nat) (buf input : nat -> K)        (* 493-796 *)
| OEvalVec (a : nat) (n : Z) (d : Z -> K) (dp : Z) (r : Z -> K) (rp : Z)
| OEnumerate (p : Z)                            (* 302-311 *)
| ODescribe (name : string).                    (* 322-348 *)
Inductive reply :=
| RDone | RAnswer (x : answer K) | RWrites (ws : list (nat * K)) | RArray (r : Z -> K)
| RName (s : option string) | RText (d : option description).
(** The handle a call works on; the last two work on none. *)
Definition key (o : op) : option nat :=
  match o with
  | ONew a | ODelete a | OCall a _ | OEval a _ _ | OEvalVec a _ _ _ _ _ => Some a
  | OEnumerate _ | ODescribe _ => None
  end.
(** Calls that start with xcint_assure_setup(): 303, 323, 337, 359, 370, 408. *)
Definition calls_setup (o : op) : bool :=
  match o with
  | ONew _ | OEnumerate _ | ODescribe _ => true
  | OCall _ (CSet _ _) | OCall _ (CGet _) => true
  | _ => false
  end.
(** Calls whose body reads xcint_funs or xcint_params: the former, and evaluation, which goes
    through the pointers into xcint_funs. *)
Definition reads_tables (o : op) : bool :=
  match o with OEval _ _ _ | OEvalVec _ _ _ _ _ _ => true | _ => calls_setup o end.
(** The body of a call on the object its handle variable points to. *)
Definition body (o : op) (x : option (handle K)) : outcome (option (handle K) * reply) :=
  match o with
  | ONew _ => Ok (Some xcfun_new, RDone)
  | ODelete _ => match x with Some _ => Ok (None, RDone) | None => UB end
  | OCall _ c => match x with Some h => r <- step h c ;; Ok (Some (fst r), RAnswer (snd r)) | None => UB end
  | OEval _ buf input => match x with Some h => ws <- xcfun_eval junk h buf input ;; Ok (Some h, RWrites ws) | None => UB end
  | OEvalVec _ n d dp r rp => match x with Some h => a <- xcfun_eval_vec junk h n d dp r rp ;; Ok (Some h, RArray a) | None => UB end
  | OEnumerate p => s <- xcfun_enumerate_parameters p ;; Ok (x, RName s)
  | ODescribe n => Ok (x, RText (xcfun_describe n))
  end.

(** ** Globals *)
Inductive cell := Empty | Torn | Full.
(** static bool is_setup; entries 0..77 are xcint_funs, 78..81 xcint_params. *)
Record globals := mkG { g_flag : bool; g_tab : nat -> cell }.
Definition cold : globals := mkG false (fun _ => Empty).
Definition nitems : nat := XC_NR_PARAMETERS_AND_FUNCTIONALS.
Definition put (t : nat -> cell) (i : nat) (c : cell) : nat -> cell := fun j => if Nat.eqb j i then c else t j.
Definition tables_full (g : globals) : bool :=
  forallb (fun i => match g_tab g i with Full => true | _ => false end) (seq 0 nitems).

(** ** Threads *)
Inductive pc := Ready | Init (j : nat) | Body.
(** The calls a thread makes, how many have returned, and their replies. *)
Record thread := mkT { t_pc : pc; t_prog : list op; t_done : nat; t_log : list reply }.
Definition start (p : list op) : thread := mkT Ready p 0 [].
Definition heap := option nat -> option (handle K).
Definition hput (H : heap) (k : option nat) (x : option (handle K)) : heap :=
  fun k' => match k, k' with
            | Some a, Some b => if Nat.eqb b a then x else H k'
            | _, _ => H k'
            end.
Record state := mkS { s_glob : globals; s_heap : heap; s_thr : nat -> thread }.
Definition tput (T : nat -> thread) (t : nat) (x : thread) : nat -> thread := fun u => if Nat.eqb u t then x else T u.

(** One step of thread t. *)
Definition tick (s : state) (t : nat) : outcome state :=
  let g := s_glob s in
  let th := s_thr s t in
  let go pc' g' := mkS g' (s_heap s) (tput (s_thr s) t (mkT pc' (t_prog th) (t_done th) (t_log th))) in
  match nth_error (t_prog th) (t_done th) with
  | None => Ok s
  | Some o =>
    match t_pc th with
    | Ready => if andb (calls_setup o) (negb (g_flag g)) then Ok (go (Init 0) g) else Ok (go Body g)
    | Init j =>
        if Nat.ltb j (2 * nitems)
        then Ok (go (Init (S j)) (mkG (g_flag g) (put (g_tab g) (Nat.div2 j) (if Nat.even j then Torn else Full))))
        else Ok (go Body (mkG true (g_tab g)))
    | Body =>
        if andb (reads_tables o) (negb (tables_full g)) then UB
        else
          r <- body o (s_heap s (key o)) ;;
          Ok (mkS g (hput (s_heap s) (key o) (fst r))
                  (tput (s_thr s) t (mkT Ready (t_prog th) (S (t_done th)) (t_log th ++ [snd r]))))
    end
  end.
(** A schedule names the thread that moves next. *)
Fixpoint exec (s : state) (sched : list nat) : outcome state :=
  match sched with [] => Ok s | t :: l => s' <- tick s t ;; exec s' l end.
End CONC.
Arguments op K : clear implicits.
Arguments reply K : clear implicits.
Arguments heap K : clear implicits.
Arguments state K : clear implicits.
Arguments thread K : clear implicits.
