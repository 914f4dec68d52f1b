(** * Specification vocabulary for the API layer, independent of Api.v's lookups *)
From Coq Require Import String Ascii ZArith QArith List Bool Lia.
From Verif Require Import Scalar Tables Api.
Import ListNotations.

(** Two characters equal up to ASCII letter case. *)
Definition ci_char (a b : ascii) : Prop :=
  a = b \/
  exists n, (65 <= n <= 90)%nat /\
    ((nat_of_ascii a = n /\ nat_of_ascii b = n + 32)%nat \/
     (nat_of_ascii b = n /\ nat_of_ascii a = n + 32)%nat).

(** Two strings equal up to ASCII letter case. *)
Inductive ci_eq : string -> string -> Prop :=
| ci_nil : ci_eq EmptyString EmptyString
| ci_cons a b s t : ci_char a b -> ci_eq s t -> ci_eq (String a s) (String b t).

(** Settable items: functionals 0..77, then parameters 78..81. *)
Definition item_names : list string := map f_name xcint_funs ++ map fst xcint_params.
Definition is_item (name : string) (i : nat) : Prop :=
  exists s, nth_error item_names i = Some s /\ ci_eq name s.
Definition no_item (name : string) : Prop := forall i, ~ is_item name i.
Definition is_alias (name : string) (terms : list (string * Q)) : Prop :=
  exists a, In (a, terms) xcint_aliases /\ ci_eq name a.

Section Spec.
Context {K : Ops}.

(** The elementary (item, value) writes a call [xcfun_set(name, v)] stands for. *)
Inductive writes (name : string) (v : K) : list (nat * K) -> Prop :=
| w_item i : is_item name i -> writes name v [(i, v)]
| w_alias terms ws :
    no_item name -> is_alias name terms ->
    Forall2 (fun t w => is_item (fst t) (fst w) /\ snd w = Omul v (OofQ (snd t))) terms ws ->
    writes name v ws
| w_unknown : no_item name -> (forall ts, ~ is_alias name ts) -> writes name v [].

Definition call_writes (c : call K) (ws : list (nat * K)) : Prop :=
  match c with
  | CSet n v => writes n v ws
  | _ => ws = []
  end.

(** Values written to item [i], in program order. *)
Definition values_of (i : nat) (ws : list (nat * K)) : list K :=
  map snd (filter (fun w => Nat.eqb (fst w) i) ws).

(** Documented defaults of the parameters. *)
Definition param_default (i : nat) : Q :=
  if Nat.eqb i XC_RANGESEP_MU then 0.4%Q
  else if Nat.eqb i XC_CAM_ALPHA then 0.19%Q
  else if Nat.eqb i XC_CAM_BETA then 0.46%Q
  else 0%Q.

(** Dependency flags of functional [i]. *)
Definition flags (i : nat) : Z := f_depends (nth i xcint_funs (mkFun "" 0 0 0 0 0 0)).
End Spec.

(** ** Specification of setup *)
(** All bits of [need] are in [have]. *)
Definition subset_bits (need have : Z) : Prop :=
  forall k, (0 <= k)%Z -> Z.testbit need k = true -> Z.testbit have k = true.
Definition needs (i : nat) (flag : Z) : Prop := Z.testbit (flags i) flag = true.
(** Bit numbers of the flags of xcint.hpp 44-48. *)
Definition bit_gradient : Z := 1.
Definition bit_laplacian : Z := 2.
Definition bit_kinetic : Z := 3.

Section SetupSpec.
Context {K : Ops}.
Definition vars_suffice (h : handle K) (vd : vars_data) : Prop :=
  forall i, In i (h_active h) -> subset_bits (flags i) (v_provides vd).
Definition order_ok (mode order : Z) : Prop :=
  (0 <= order <= 6)%Z /\ (mode = XC_PARTIAL_DERIVATIVES -> (order <= 4)%Z).
Definition needs_gradient (h : handle K) : Prop :=
  exists i, In i (h_active h) /\ needs i bit_gradient.
Definition needs_meta (h : handle K) : Prop :=
  exists i, In i (h_active h) /\ (needs i bit_laplacian \/ needs i bit_kinetic).
Definition full_taylor_vars (vars : Z) : Prop :=
  vars = XC_A_2ND_TAYLOR \/ vars = XC_A_B_2ND_TAYLOR \/
  vars = XC_N_2ND_TAYLOR \/ vars = XC_N_S_2ND_TAYLOR.
End SetupSpec.

(** ** Names of variable sets as documented in api/xcfun.h 48-85 *)
Local Open Scope string_scope.
Definition vars_symbol (func_type dens_type lap kin cur expl : N) : string :=
  let pick (a n ab ns : string) :=
    match dens_type with 0 => a | 1 => n | 2 => ab | _ => ns end%N in
  "XC_" ++ pick "A" "N" "A_B" "N_S" ++
  (if N.eqb func_type 3 then "_2ND_TAYLOR" else
     (if N.eqb func_type 0 then "" else
        if N.eqb expl 0 then pick "_GAA" "_GNN" "_GAA_GAB_GBB" "_GNN_GNS_GSS"
        else pick "_AX_AY_AZ" "_NX_NY_NZ" "_AX_AY_AZ_BX_BY_BZ" "_NX_NY_NZ_SX_SY_SZ") ++
     (if N.eqb lap 1 then pick "_LAPA" "_LAPN" "_LAPA_LAPB" "_LAPN_LAPS" else "") ++
     (if N.eqb kin 1 then pick "_TAUA" "_TAUN" "_TAUA_TAUB" "_TAUN_TAUS" else "") ++
     (if N.eqb cur 1 then "_JPAA_JPBB" else "")).

(** Binomial coefficients by Pascal's rule. *)
Fixpoint binom (n k : nat) : nat :=
  match n, k with
  | _, O => 1
  | O, S _ => 0
  | S n', S k' => binom n' k' + binom n' k
  end.
