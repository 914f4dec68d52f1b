(** * Property theorems: size of the jumps of all Becke-Roussel energies (C43) *)
From Coq Require Import Reals QArith Qreals ZArith Arith Lia Lra Psatz List Bool String.
From Coquelicot Require Import Coquelicot.
From Verif Require Import Scalar RInst Tables Api SpecApi ApiProofs ApiProofs2 CTaylor CtAlg TMath Br Expr Densvars Functionals
  Eval SpecEval EvalSem EvalProps Taint EvalExt Props_Eval Sem RSem EnergyR EvalR EvalReal EvalApi Phys Mk Props_Deriv.
From Verif Require Import BrReal BrInv PubBr Props_Br Props_Br2 Cont Props_Cont4 Props_Cont5.
Import ListNotations.
Local Open Scope outcome_scope.
Local Open Scope R_scope.

(** C43 (Becke-Roussel, size of the jumps).  As long as both hole parameters stay below 80, two energies the library returns for BRX, BRC
    or BRXC close enough to a density differ by at most 6e-12 of the sum of the sizes of the published terms there, plus as little as desired. *)
Theorem C43_br_jump_size :
  forall (h h0 : handle ROps) v i D xa xb, reachable h -> xcfun_eval_setup h v XC_PARTIAL_DERIVATIVES 0 = Ok (h0, 0%Z) ->
    In i [10; 11; 12]%nat -> h_active h = [i] -> 0 < (h_settings h XC_RANGESEP_MU : R) -> above D ->
    hole (al D) xa -> hole (be D) xb -> xa <= 80 -> xb <= 80 ->
    forall eps, 0 < eps -> exists d, 0 < d /\ forall D1 D2 x1 x2 e1 e2, near_dens d D D1 -> near_dens d D D2 -> above D1 -> above D2 ->
      describes v x1 D1 -> describes v x2 D2 -> library_energy h0 x1 e1 -> library_energy h0 x2 e2 ->
      Rabs (e1 - e2) <= 6e-12 * (Rabs (h_settings h i) * sum_abs (br_terms i D (br_U (al D) xa) (br_U (be D) xb))) + eps.
Proof.
  intros h h0 v i D xa xb Hr S Hi A Mu Ab Ha Hb La Lb eps He.
  assert (Q : 0 < rho (al D) /\ 0 < rho (be D)) by (destruct Ab as [Qa Qb]; change threshold with (1 * / 100000000000000) in *; lra). destruct Q as [Qa Qb].
  destruct (C43_br_jump_bound h h0 v i D Hr S Hi A Mu Ab) as (ya & yb & Ga & Gb & J).
  assert (ya = xa) by (rewrite (proj1 (hole_iff _ _ Qa) Ga); symmetry; exact (proj1 (hole_iff _ _ Qa) Ha)). assert (yb = xb) by (rewrite (proj1 (hole_iff _ _ Qb) Gb); symmetry; exact (proj1 (hole_iff _ _ Qb) Hb)). subst ya yb.
  pose proof (proj1 Ha) as Pa. pose proof (proj1 Hb) as Pb. pose proof (br_U_neg (al D) xa Pa Qa) as Ua. pose proof (br_U_neg (be D) xb Pb Qb) as Ub.
  destruct (J ltac:(lra) ltac:(lra) (eps / 2) ltac:(lra)) as (d & Hd & H). exists d. split; [exact Hd|].
  set (w := h_settings h i : R) in *. set (U := br_U (al D) xa) in *. set (V := br_U (be D) xb) in *. set (m := sum_abs (br_terms i D U V)).
  assert (One : forall D' x' e', near_dens d D D' -> above D' -> describes v x' D' -> library_energy h0 x' e' -> Rabs (e' - w * br_energy i D U V) <= 3e-12 * (Rabs w * m) + eps / 2).
  { intros D' x' e' N Ab' De' Le'. destruct (H D' x' e' N Ab' De' Le') as (ea & eb & Ba & Bb & E).
    pose proof (energy_close i D U V ea eb Hi Qa Qb ltac:(split; lra) ltac:(split; lra)) as C. fold m in C.
    replace (e' - w * br_energy i D U V) with (e' - w * br_energy i D (U * exp ea) (V * exp eb) + w * (br_energy i D (U * exp ea) (V * exp eb) - br_energy i D U V)) by ring.
    eapply Rle_trans; [apply Rabs_triang|]. rewrite (Rabs_mult w). pose proof (Rabs_pos w) as Pw. change (Rabs (e' - w * br_energy i D (U * exp ea) (V * exp eb)) <= eps / 2) in E.
    assert (Rabs w * Rabs (br_energy i D (U * exp ea) (V * exp eb) - br_energy i D U V) <= Rabs w * (3e-12 * m)) by (apply Rmult_le_compat_l; assumption). lra. }
  intros D1 D2 x1 x2 e1 e2 N1 N2 A1 A2 De1 De2 L1 L2. pose proof (One D1 x1 e1 N1 A1 De1 L1) as B1. pose proof (One D2 x2 e2 N2 A2 De2 L2) as B2.
  replace (e1 - e2) with (e1 - w * br_energy i D U V + - (e2 - w * br_energy i D U V)) by ring. eapply Rle_trans; [apply Rabs_triang|]. rewrite Rabs_Ropp. 
  change (Rabs (e1 - w * br_energy i D U V) + Rabs (e2 - w * br_energy i D U V) <= 6e-12 * (Rabs w * m) + eps). lra.
Qed.
Print Assumptions C43_br_jump_size.
(** [C43_br_case] meets the hypotheses with a hole parameter between 1 and 2. *)
Example C43_br_size_case : exists (h h0 : handle ROps) xa, reachable h /\
  xcfun_eval_setup h XC_A_B_GAA_GAB_GBB_LAPA_LAPB_TAUA_TAUB_JPAA_JPBB XC_PARTIAL_DERIVATIVES 0 = Ok (h0, 0%Z) /\
  h_active h = [12%nat] /\ 0 < (h_settings h XC_RANGESEP_MU : R) /\ above D_br /\ hole (al D_br) xa /\ hole (be D_br) xa /\ 1 < xa < 2 /\
  (exists d, 0 < d /\ forall D1 D2 x1 x2 e1 e2, near_dens d D_br D1 -> near_dens d D_br D2 -> above D1 -> above D2 ->
      describes XC_A_B_GAA_GAB_GBB_LAPA_LAPB_TAUA_TAUB_JPAA_JPBB x1 D1 -> describes XC_A_B_GAA_GAB_GBB_LAPA_LAPB_TAUA_TAUB_JPAA_JPBB x2 D2 ->
      library_energy h0 x1 e1 -> library_energy h0 x2 e2 ->
      Rabs (e1 - e2) <= 6e-12 * (Rabs (h_settings h 12%nat) * sum_abs (br_terms 12 D_br (br_U (al D_br) xa) (br_U (be D_br) xa))) + 1e-15).
Proof.
  destruct C43_br_case as (h & h0 & x & xa & e & Eh & Hr & S & A & Mu & Ab & De & Ha & Hb & _ & _ & _).
  destruct C38_energy_case as (_ & _ & _ & ya & _ & _ & _ & _ & _ & Hy & Ly & _).
  assert (ya = xa). { destruct (hole_unique (al D_br) ltac:(cbn; lra)) as (y & _ & U). rewrite <- (U ya Hy). exact (U xa Ha). } subst ya.
  exists h, h0, xa. split; [exact Hr|]. split; [exact S|]. split; [exact A|]. split; [exact Mu|]. split; [exact Ab|]. split; [exact Ha|]. split; [exact Hb|]. split; [exact Ly|].
  exact (C43_br_jump_size h h0 _ 12 D_br xa xa Hr S ltac:(cbn; tauto) A Mu Ab Ha Hb ltac:(lra) ltac:(lra) 1e-15 ltac:(lra)).
Qed.
