(** * Executable rational scalars, used only in Examples.
    The transcendental functions are placeholders (never used by the Examples). *)
From Coq Require Import QArith Qreduction.
From Verif Require Import Scalar.

Definition QOps : Ops := {|
  T := Q;
  Oadd := fun a b => Qred (a + b);
  Osub := fun a b => Qred (a - b);
  Omul := fun a b => Qred (a * b);
  Odiv := fun a b => Qred (a / b);
  Oopp := fun a => Qred (- a);
  OofQ := fun q => Qred q;
  Opi := 3.14159265358979323846%Q;
  Oltb := fun a b => negb (Qle_bool b a);
  Oeqb := Qeq_bool;
  Oexp := fun _ => 0%Q; Olog := fun _ => 0%Q; Opow := fun _ _ => 0%Q;
  Osqrt := fun _ => 0%Q; Ocbrt := fun _ => 0%Q; Oatan := fun _ => 0%Q;
  Oerf := fun _ => 0%Q; Osin := fun _ => 0%Q; Ocos := fun _ => 0%Q;
  Oasinh := fun _ => 0%Q; Osinh := fun _ => 0%Q |}.
