(** * The Python interface: /repo/python/export_xcfun.cpp 130-166 and /repo/python/xcfun.py
    The extension functions xcfun_new/set/is_gga/is_metagga are the C functions themselves
    (export_xcfun.cpp 84-112); modelled here are the two wrapped calls, xcfun_eval_setup and
    xcfun_eval, and the class Functional.  A Python exception is [None].  numpy arrays are a
    shape and the elements in C order (the wrappers ask for c_style arrays, converting if
    necessary); element types other than double are not modelled.  A freshly allocated
    array holds whatever the memory [mem] held. *)
From Coq Require Import ZArith List Bool String Arith.
From Verif Require Import Scalar Tables Api CTaylor Eval.
Import ListNotations.
Local Open Scope outcome_scope.

Section PY.
Context {K : Ops}.
Variable junk : forall n, nat -> ct K n.
Variable mem : Z -> K.

Record ndarray := { nd_shape : list nat; nd_at : Z -> K }.

(** xcfun_eval_setup: export_xcfun.cpp 114-125; a non-zero code raises ValueError. *)
Definition py_setup (h : handle K) (vars mode order : Z) : outcome (option (handle K)) :=
  r <- xcfun_eval_setup h vars mode order ;;
  Ok (if Z.eqb (snd r) 0 then Some (fst r) else None).

(** xcfun_eval: export_xcfun.cpp 126-163.  [density.shape(-1)] of a zero-dimensional array
    is outside its shape; a number of points that does not fit the [int] parameter of
    xcfun_eval_vec is treated as undefined (simplification: the conversion is
    implementation-defined). *)
Definition py_eval (h : handle K) (density : ndarray) : outcome (option ndarray) :=
  dens_len <- xcfun_input_length h ;;
  output_len <- xcfun_output_length h ;;
  match nd_shape density with
  | [] => UB
  | nr_points :: _ =>
    let inner := last (nd_shape density) 0%nat in
    if negb (Z.eqb (Z.of_nat inner) dens_len) then Ok None
    else
      let out at_ := {| nd_shape := [nr_points; Z.to_nat output_len]; nd_at := at_ |} in
      match nd_shape density with
      | [_] =>
        ws <- xcfun_eval junk h (fun k => mem (Z.of_nat k)) (fun k => nd_at density (Z.of_nat k)) ;;
        Ok (Some (out (store mem 0 ws)))
      | [_; _] =>
        if int_ok (Z.of_nat nr_points) then
          res <- xcfun_eval_vec junk h (Z.of_nat nr_points) (nd_at density) (Z.of_nat inner) mem output_len ;;
          Ok (Some (out res))
        else UB
      | _ => Ok None
      end
  end.

(** Functional.__init__: xcfun.py 30-44, the dictionary as the list of its items. *)
Fixpoint py_sets (h : handle K) (funcdict : list (string * K)) : outcome (option (handle K)) :=
  match funcdict with
  | [] => Ok (Some h)
  | (name, weight) :: l =>
    r <- xcfun_set h name weight ;;
    if Z.eqb (snd r) 0 then py_sets (fst r) l else Ok None
  end.
Definition py_functional := py_sets xcfun_new.

(** Functional.type: xcfun.py 49-56 *)
Definition py_type (h : handle K) : Z := if xcfun_is_metagga h then 2 else if xcfun_is_gga h then 1 else 0.

Definition shape_is (a : ndarray) (s : list nat) : bool := if list_eq_dec Nat.eq_dec (nd_shape a) s then true else false.
(** An array of shape (n, c) with the given rows. *)
Definition table (n c : nat) (f : Z -> Z -> K) : ndarray :=
  {| nd_shape := [n; c]; nd_at := fun z => f (Z.div z (Z.of_nat c)) (Z.modulo z (Z.of_nat c)) |}.
(** a[:, 0] of a two-dimensional array. *)
Definition column0 (a : ndarray) : ndarray :=
  {| nd_shape := [hd 0%nat (nd_shape a)]; nd_at := fun z => nd_at a (z * Z.of_nat (nth 1 (nd_shape a) 0%nat))%Z |}.
(** The methods change the handle (through xcfun_eval_setup) also when they raise later on. *)
Definition raise (h : handle K) : outcome (handle K * option ndarray) := Ok (h, None).
Definition finish (h : handle K) (dens : ndarray) (post : ndarray -> ndarray) : outcome (handle K * option ndarray) :=
  r <- py_eval h dens ;; Ok (h, option_map post r).
Definition set_up (h : handle K) (vars mode order : Z) (k : handle K -> outcome (handle K * option ndarray)) : outcome (handle K * option ndarray) :=
  r <- py_setup h vars mode order ;; match r with Some h' => k h' | None => raise h end.

(** Functional.eval_energy_n: xcfun.py 57-98 *)
Definition py_energy_n (h : handle K) (density : ndarray) (densgrad : option ndarray) : outcome (handle K * option ndarray) :=
  match nd_shape density with
  | [nr_points] =>
    if xcfun_is_metagga h then raise h
    else if xcfun_is_gga h then
      match densgrad with
      | None => raise h
      | Some g =>
        set_up h XC_N_NX_NY_NZ XC_PARTIAL_DERIVATIVES 0 (fun h =>
        if shape_is g [nr_points; 3%nat] then
          finish h (table nr_points 4 (fun i j => if Z.eqb j 0 then nd_at density i else nd_at g (i * 3 + (j - 1))%Z)) column0
        else raise h)
      end
    else
      set_up h XC_N XC_PARTIAL_DERIVATIVES 0 (fun h => finish h {| nd_shape := [nr_points; 1%nat]; nd_at := nd_at density |} column0)
  | _ => raise h
  end.

(** Functional.eval_potential_n: xcfun.py 100-152 *)
Definition py_potential_n (h : handle K) (density : ndarray) (densgrad denshess : option ndarray) : outcome (handle K * option ndarray) :=
  match nd_shape density with
  | [nr_points] =>
    if xcfun_is_metagga h then raise h
    else if xcfun_is_gga h then
      match densgrad, denshess with
      | Some g, Some q =>
        set_up h XC_N_2ND_TAYLOR XC_POTENTIAL 1 (fun h =>
        if shape_is g [nr_points; 3%nat] then
          if shape_is q [nr_points; 6%nat] then
            finish h (table nr_points 10 (fun i j => if Z.eqb j 0 then nd_at density i else if Z.ltb j 4 then nd_at g (i * 3 + (j - 1))%Z else nd_at q (i * 6 + (j - 4))%Z)) (fun a => a)
          else raise h
        else raise h)
      | _, _ => raise h
      end
    else
      set_up h XC_N XC_POTENTIAL 1 (fun h => finish h {| nd_shape := [nr_points; 1%nat]; nd_at := nd_at density |} (fun a => a))
  | _ => raise h
  end.

(** Functional.eval_energy_ab: xcfun.py 154-203 *)
Definition py_energy_ab (h : handle K) (density : ndarray) (densgrad : option ndarray) : outcome (handle K * option ndarray) :=
  match nd_shape density with
  | [nr_points; 2%nat] =>
    if xcfun_is_metagga h then raise h
    else if xcfun_is_gga h then
      match densgrad with
      | None => raise h
      | Some g =>
        set_up h XC_A_B_AX_AY_AZ_BX_BY_BZ XC_PARTIAL_DERIVATIVES 0 (fun h =>
        if shape_is g [nr_points; 3%nat; 2%nat] then
          finish h (table nr_points 8 (fun i j => if Z.ltb j 2 then nd_at density (i * 2 + j)%Z
             else if Z.ltb j 5 then nd_at g ((i * 3 + (j - 2)) * 2)%Z else nd_at g ((i * 3 + (j - 5)) * 2 + 1)%Z)) column0
        else raise h)
      end
    else
      set_up h XC_A_B XC_PARTIAL_DERIVATIVES 0 (fun h => finish h density column0)
  | _ => raise h
  end.

(** Functional.eval_potential_ab: xcfun.py 205-265 *)
Definition py_potential_ab (h : handle K) (density : ndarray) (densgrad denshess : option ndarray) : outcome (handle K * option ndarray) :=
  match nd_shape density with
  | [nr_points; 2%nat] =>
    if xcfun_is_metagga h then raise h
    else if xcfun_is_gga h then
      match densgrad, denshess with
      | Some g, Some q =>
        set_up h XC_A_B_2ND_TAYLOR XC_POTENTIAL 1 (fun h =>
        if shape_is g [nr_points; 3%nat; 2%nat] then
          if shape_is q [nr_points; 6%nat; 2%nat] then
            finish h (table nr_points 20 (fun i j =>
              if Z.eqb j 0 then nd_at density (i * 2)%Z
              else if Z.ltb j 4 then nd_at g ((i * 3 + (j - 1)) * 2)%Z
              else if Z.ltb j 10 then nd_at q ((i * 6 + (j - 4)) * 2)%Z
              else if Z.eqb j 10 then nd_at density (i * 2 + 1)%Z
              else if Z.ltb j 14 then nd_at g ((i * 3 + (j - 11)) * 2 + 1)%Z
              else nd_at q ((i * 6 + (j - 14)) * 2 + 1)%Z)) (fun a => a)
          else raise h
        else raise h)
      | _, _ => raise h
      end
    else
      set_up h XC_A_B XC_POTENTIAL 1 (fun h => finish h density (fun a => a))
  | _ => raise h
  end.
End PY.
Arguments ndarray K : clear implicits.

(** The variable sets exported to Python: export_xcfun.cpp 39-82 (XC_VARS_UNSET and XC_NR_VARS left out). *)
Definition py_vars : list Z :=
  [XC_A; XC_N; XC_A_B; XC_N_S; XC_A_GAA; XC_N_S_GNN_GNS_GSS; XC_A_GAA_LAPA; XC_A_GAA_TAUA; XC_N_GNN_LAPN; XC_N_GNN_TAUN;
   XC_A_B_GAA_GAB_GBB_LAPA_LAPB; XC_A_B_GAA_GAB_GBB_TAUA_TAUB; XC_N_S_GNN_GNS_GSS_LAPN_LAPS; XC_N_S_GNN_GNS_GSS_TAUN_TAUS;
   XC_A_B_GAA_GAB_GBB_LAPA_LAPB_TAUA_TAUB; XC_A_B_GAA_GAB_GBB_LAPA_LAPB_TAUA_TAUB_JPAA_JPBB; XC_N_S_GNN_GNS_GSS_LAPN_LAPS_TAUN_TAUS;
   XC_A_AX_AY_AZ; XC_A_B_AX_AY_AZ_BX_BY_BZ; XC_N_NX_NY_NZ; XC_N_S_NX_NY_NZ_SX_SY_SZ; XC_A_AX_AY_AZ_TAUA; XC_A_B_AX_AY_AZ_BX_BY_BZ_TAUA_TAUB;
   XC_N_NX_NY_NZ_TAUN; XC_N_S_NX_NY_NZ_SX_SY_SZ_TAUN_TAUS; XC_A_2ND_TAYLOR; XC_A_B_2ND_TAYLOR; XC_N_2ND_TAYLOR; XC_N_S_2ND_TAYLOR].
