(** * Property theorems: the Becke-Roussel functionals (C38) *)
From Coq Require Import Reals QArith Qreals ZArith Arith Lia Lra Psatz List Bool String.
From Coquelicot Require Import Coquelicot.
From Verif Require Import Scalar RInst Tables Api SpecApi ApiProofs ApiProofs2 CTaylor CtAlg TMath Br Expr Densvars Functionals
  Eval SpecEval EvalSem EvalProps Taint EvalExt Props_Eval Sem RSem EnergyR EvalR EvalReal EvalApi Phys Mk Props_Deriv Dom Oblig Safe Safe2 Props_Dens Props_Dens2 Props_Scale Props_Scale2 Value.
From Verif Require Import Itv BrReal BrInv.
From Verif Require Import Published PubTac PubX PubC PubM PubS PubS2 PubL PubNear Vwn Bounds PubR Props_Published4 PubBr.
Import ListNotations.
Local Open Scope outcome_scope.
Local Open Scope R_scope.

(** C38 (the solver).  For every real right-hand side the Newton iteration of the Becke-Roussel
    functionals (/repo/src/functionals/brx.cpp 30-48) stops through its own convergence test within
    seven steps - raising the limit of 20 steps changes nothing, so the "Not converged" message is
    never printed - and returns a positive number within a relative 3e-15 of the only positive
    solution of (x - 2)/x exp(2x/3) = z. *)
Theorem C38_solver :
  forall z : R, exists r x x0 : R,
    (0 < r /\ (r - 2) / r * exp (2 / 3 * r) = z /\ forall y, 0 < y -> (y - 2) / y * exp (2 / 3 * y) = z -> y = r) /\
    @BR ROps z = Some x /\ 0 < x /\ Rabs (x - r) <= 3e-15 * x /\
    @BR_start ROps z = Some x0 /\ forall n, @BR_loop ROps (7 + n) z x0 = Some x.
Proof.
  intro z. destruct (BR_converges z) as (r & x0 & x & Pr & Er & Es & [Px Nx] & L). exists r, x, x0. split; [|split; [|split; [|split; [|split]]]]; try assumption.
  - split; [exact Pr|]. split; [exact Er|]. intros y Py Ey. apply br_z_inj; try assumption. change (br_z y = z) in Ey. congruence.
  - unfold BR. rewrite Es. cbn [obnd]. exact (L 13%nat).
Qed.
Print Assumptions C38_solver.
(** C38 (its derivatives).  On a Taylor number of order [n] at most 6 the solver gives the
    composition with numbers [t k] such that [k!] times [t k] is exactly the [k]-th derivative of
    the inverse function of (x - 2)/x exp(2x/3), taken at the image of the returned point. *)
Theorem C38_solver_derivatives :
  forall n (c : rct n), (n <= 6)%nat -> exists (inv : R -> R) (x : R) (t : nat -> R),
    (forall y, 0 < inv y /\ (inv y - 2) / inv y * exp (2 / 3 * inv y) = y) /\
    @BR ROps (c0 n c) = Some x /\ Rabs (x - inv (c0 n c)) <= 3e-15 * x /\
    @ct_BR ROps n c = Some (ct_compose n c t) /\ t 0%nat = x /\
    forall k, (k <= n)%nat -> is_derive_n inv k ((x - 2) / x * exp (2 / 3 * x)) (INR (fact k) * t k).
Proof.
  intros n c Hn. destruct (BR_taylor_inverse (Nat.max n 3) (c0 n c) ltac:(lia)) as (x & t & Ex & [Px Nx] & Et & T0 & Dk). exists br_inv, x, t.
  split; [exact br_inv_spec|]. split; [exact Ex|]. split; [exact Nx|]. split; [rewrite ct_BR_eq, Et; reflexivity|]. split; [exact T0|]. intros k Hk. apply Dk. lia.
Qed.
Print Assumptions C38_solver_derivatives.
(** C38 (the hole).  At every positive density the equation for the shape of the hole has exactly
    one solution, whatever the gradient, Laplacian, kinetic energy density and current. *)
Theorem C38_hole_unique : forall s, 0 < rho s -> exists! x, hole s x.
Proof. exact hole_unique. Qed.
Print Assumptions C38_hole_unique.
(** C38 (energies).  The energy of BRX, BRC or BRXC at any density at or above the threshold, in a
    variable set that provides the Laplacian, the kinetic energy density and the current, is the
    published one with each hole potential changed by a relative error of at most about
    4e-15 (1 + x), x the solution of the hole equation. *)
Theorem C38_energy :
  forall (h h0 : handle ROps) v i D x, reachable h -> xcfun_eval_setup h v XC_PARTIAL_DERIVATIVES 0 = Ok (h0, 0%Z) ->
    In i [10; 11; 12]%nat -> h_active h = [i] -> 0 < (h_settings h XC_RANGESEP_MU : R) -> above D -> describes v x D ->
    exists xa xb ea eb, hole (al D) xa /\ hole (be D) xb /\ Rabs ea <= 4e-15 * (1 + xa) /\ Rabs eb <= 4e-15 * (1 + xb) /\
    forall e, library_energy h0 x e <-> e = h_settings h i * br_energy i D (br_U (al D) xa * exp ea) (br_U (be D) xb * exp eb).
Proof.
  intros h h0 v i D x Hr S Hi A Mu Ab De.
  assert (Q : 0 < rho (al D) /\ 0 < rho (be D)) by (destruct Ab as [Qa Qb]; change threshold with (1 * / 100000000000000) in *; lra). destruct Q as [Qa Qb].
  assert (F : exists nm nm' ex, nth_error item_names i = Some nm /\ nth_error functionals i = Some (nm', ex) /\ covered D nm).
  { cbn [In] in Hi. destruct Hi as [<- | [<- | [<- | []]]]; do 3 eexists; (split; [reflexivity|]); (split; [reflexivity|]); left; cbn [In any_gradient]; tauto. }
  destruct F as (nm & nm' & ex & N & F & C).
  assert (Li : i <> XC_REVTPSSX_id /\ (i < 78)%nat) by (cbn [In] in Hi; destruct Hi as [<- | [<- | [<- | []]]]; split; solve [discriminate | lia]). destruct Li as [Ni L].
  destruct (br_tv (h_settings h) (fun _ => 0) D i nm' ex Ab Hi F) as (ea & eb & Ba & Bb & E).
  exists (br_inv (br_arg (al D))), (br_inv (br_arg (be D))), ea, eb. split; [now apply hole_iff|]. split; [now apply hole_iff|]. split; [exact Ba|]. split; [exact Bb|].
  intro e. rewrite <- E. exact (one_covered h h0 v D x i nm nm' ex Hr S A Ni L N F Mu C Ab De e).
Qed.
Print Assumptions C38_energy.
(** C38 (exchange).  As long as the two hole parameters stay below 100, the Becke-Roussel exchange
    energy the library returns is the published one to twelve digits. *)
Lemma exp_near e : Rabs e <= 1e-12 / 2 -> Rabs (exp e - 1) <= 1e-12.
Proof.
  intro H. destruct (Rcase_abs e) as [N | P].
  - rewrite Rabs_left in H by exact N. pose proof (exp_lo e). assert (exp e < 1) by (rewrite <- exp_0; apply exp_increasing; lra). rewrite Rabs_left by lra. lra.
  - rewrite Rabs_right in H by exact P. pose proof (exp_lo e). pose proof (exp_hi e ltac:(lra)).
    assert (/ (1 - e) <= 1 + 2 * e). { apply Rmult_le_reg_l with (1 - e); [lra|]. rewrite Rinv_r by lra. nra. }
    rewrite Rabs_right by lra. lra.
Qed.
Theorem C38_brx_accuracy :
  forall (h h0 : handle ROps) v D x xa xb e, reachable h -> xcfun_eval_setup h v XC_PARTIAL_DERIVATIVES 0 = Ok (h0, 0%Z) ->
    h_active h = [10%nat] -> 0 < (h_settings h XC_RANGESEP_MU : R) -> above D -> describes v x D ->
    hole (al D) xa -> hole (be D) xb -> xa <= 100 -> xb <= 100 -> library_energy h0 x e ->
    let published := h_settings h 10%nat * (/ 2 * (rho (al D) * br_U (al D) xa + rho (be D) * br_U (be D) xb)) in
    Rabs (e - published) <= 1e-12 * Rabs published.
Proof.
  intros h h0 v D x xa xb e Hr S A Mu Ab De Ha Hb La Lb Le published.
  assert (Q : 0 < rho (al D) /\ 0 < rho (be D)) by (destruct Ab as [Qa Qb]; change threshold with (1 * / 100000000000000) in *; lra). destruct Q as [Qa Qb].
  destruct (C38_energy h h0 v 10 D x Hr S ltac:(cbn; tauto) A Mu Ab De) as (ya & yb & ea & eb & Ga & Gb & Ba & Bb & E).
  apply (hole_iff _ _ Qa) in Ga. apply (hole_iff _ _ Qa) in Ha. apply (hole_iff _ _ Qb) in Gb. apply (hole_iff _ _ Qb) in Hb. rewrite <- Ha in Ga. rewrite <- Hb in Gb. subst ya yb. apply E in Le.
  assert (Pa : 0 < xa) by (rewrite Ha; apply br_inv_spec). assert (Pb : 0 < xb) by (rewrite Hb; apply br_inv_spec).
  clear E S De. rewrite Le. unfold published, br_energy, br_ex. 
  pose proof (br_U_neg (al D) xa Pa Qa) as Ua. pose proof (br_U_neg (be D) xb Pb Qb) as Ub.
  pose proof (exp_near ea ltac:(lra)) as Xa. pose proof (exp_near eb ltac:(lra)) as Xb.
  set (w := h_settings h 10%nat : R). set (p := rho (al D) * br_U (al D) xa). set (q := rho (be D) * br_U (be D) xb).
  assert (Np : p < 0) by (unfold p; nra). assert (Nq : q < 0) by (unfold q; nra).
  change (Rabs (w * (/ 2 * (rho (al D) * (br_U (al D) xa * exp ea) + rho (be D) * (br_U (be D) xb * exp eb))) - w * (/ 2 * (p + q))) <= 1e-12 * Rabs (w * (/ 2 * (p + q)))).
  replace (w * (/ 2 * (rho (al D) * (br_U (al D) xa * exp ea) + rho (be D) * (br_U (be D) xb * exp eb))) - w * (/ 2 * (p + q))) with (w * (/ 2 * (p * (exp ea - 1) + q * (exp eb - 1)))) by (unfold p, q; ring).
  rewrite !(Rabs_mult w). pose proof (Rabs_pos w) as Pw. rewrite <- Rmult_assoc, (Rmult_comm 1e-12), Rmult_assoc. apply Rmult_le_compat_l; [exact Pw|].
  rewrite !(Rabs_mult (/ 2)), (Rabs_right (/ 2)) by lra. rewrite (Rabs_left (p + q)) by lra.
  assert (Rabs (p * (exp ea - 1) + q * (exp eb - 1)) <= 1e-12 * - (p + q)); [|lra].
  eapply Rle_trans; [apply Rabs_triang|]. rewrite !Rabs_mult, (Rabs_left p), (Rabs_left q) by assumption. nra.
Qed.
Print Assumptions C38_brx_accuracy.
(** A density that meets the hypotheses: BRX at two like electrons' density 1 with the current set to 0. *)
Definition D_br : dens :=
  {| al := {| rho := 1; grad := V 1 0 0; hes := Hes 1 0 0 1 0 1; kin := 1; jp := 0 |};
     be := {| rho := 1; grad := V 1 0 0; hes := Hes 1 0 0 1 0 1; kin := 1; jp := 0 |} |}.
Example C38_energy_case :
  exists (h h0 : handle ROps) x xa e, Api.run xcfun_new [CSet "brx" (1 : ROps)] = Ok h /\
    xcfun_eval_setup h XC_A_B_GAA_GAB_GBB_LAPA_LAPB_TAUA_TAUB_JPAA_JPBB XC_PARTIAL_DERIVATIVES 0 = Ok (h0, 0%Z) /\
    above D_br /\ describes XC_A_B_GAA_GAB_GBB_LAPA_LAPB_TAUA_TAUB_JPAA_JPBB x D_br /\ hole (al D_br) xa /\ 1 < xa < 2 /\ library_energy h0 x e /\ e < 0 /\
    Rabs (e - br_U (al D_br) xa) <= 1e-12 * Rabs (br_U (al D_br) xa).
Proof.
  destruct (make (K := ROps) [("brx"%string, 10%nat, 1)] eq_refl) as (h & Eh & Hr & A & Es). change (mactive _) with [10]%nat in A.
  assert (W : h_settings h 10%nat = 1) by (rewrite Es; unfold msettings; cbn [map fold_left fst snd fold_right]; unfold wr_settings, upd; cbn; unfold Q2R; cbn; lra).
  assert (Mu : 0 < (h_settings h XC_RANGESEP_MU : R)) by (rewrite Es; unfold msettings; cbn [map fold_left fst snd]; unfold wr_settings, upd; cbn; unfold Q2R; cbn; lra).
  assert (S : exists h1, xcfun_eval_setup h XC_A_B_GAA_GAB_GBB_LAPA_LAPB_TAUA_TAUB_JPAA_JPBB XC_PARTIAL_DERIVATIVES 0 = Ok (h1, 0%Z)) by (eexists; apply accepts_ok; [exact Hr|rewrite A; vm_compute; reflexivity]).
  destruct S as [h0 S].
  assert (Ab : above D_br) by (split; cbn [rho al be D_br]; change threshold with (1 * / 100000000000000); lra).
  assert (De : describes XC_A_B_GAA_GAB_GBB_LAPA_LAPB_TAUA_TAUB_JPAA_JPBB (fun i => nth i (encode XC_A_B_GAA_GAB_GBB_LAPA_LAPB_TAUA_TAUB_JPAA_JPBB D_br) 0) D_br) by (apply encode_describes; cbn; tauto).
  destruct (C38_energy h h0 _ 10 D_br _ Hr S ltac:(cbn; tauto) A Mu Ab De) as (xa & xb & ea & eb & Ha & Hb & Ba & Bb & E).
  assert (Exb : xb = xa). { destruct (hole_unique (be D_br) ltac:(cbn; lra)) as (y & _ & U). rewrite <- (U xb Hb). exact (U xa Ha). } subst xb.
  assert (Hx : 1 < xa < 2).
  { destruct Ha as [Px Hx]. assert (Hq : br_Q (al D_br) = - / 12) by (unfold br_Q, br_D, lap, dot; cbn; field). rewrite Hq in Hx. change (rho (al D_br)) with 1 in Hx.
    assert (R1 : Rpower 1 (5 / 3) = 1) by (unfold Rpower; rewrite ln_1, Rmult_0_r; apply exp_0). rewrite R1, Rmult_1_r in Hx.
    assert (Kp : 1 <= Rpower PI (2 / 3)). { unfold Rpower. pose proof (exp_lo (2 / 3 * ln PI)). assert (0 < ln PI) by (rewrite <- ln_1; apply ln_increasing; [lra|]; pose proof PI2_3_2; lra). lra. }
    set (k := Rpower PI (2 / 3)) in *. pose proof (exp_pos (- (2 / 3 * xa))) as Pe. assert (Le : exp (- (2 / 3 * xa)) <= 1) by (rewrite <- exp_0; left; apply exp_increasing; lra).
    set (q := exp (- (2 / 3 * xa))) in *. assert (0 < xa * q) by nra. assert (xa * q <= xa) by nra. nra. }
  exists h, h0, (fun i => nth i (encode XC_A_B_GAA_GAB_GBB_LAPA_LAPB_TAUA_TAUB_JPAA_JPBB D_br) 0), xa. eexists.
  split; [exact Eh|]. split; [exact S|]. split; [exact Ab|]. split; [exact De|]. split; [exact Ha|]. split; [exact Hx|]. split; [apply E; reflexivity|].
  pose proof (br_U_neg (al D_br) xa ltac:(lra) ltac:(cbn; lra)) as Un. split.
  - rewrite W. unfold br_energy, br_ex. change (rho (al D_br)) with 1. change (rho (be D_br)) with 1. change (br_U (be D_br) xa) with (br_U (al D_br) xa). pose proof (exp_pos ea). pose proof (exp_pos eb). nra.
  - pose proof (C38_brx_accuracy h h0 _ D_br _ xa xa _ Hr S A Mu Ab De Ha Hb ltac:(lra) ltac:(lra) (proj2 (E _) eq_refl)) as Q. cbv zeta in Q.
    replace (h_settings h 10%nat * (/ 2 * (rho (al D_br) * br_U (al D_br) xa + rho (be D_br) * br_U (be D_br) xa))) with (br_U (al D_br) xa) in Q; [exact Q|].
    rewrite W. change (rho (al D_br)) with 1. change (rho (be D_br)) with 1. change (br_U (be D_br) xa) with (br_U (al D_br) xa). field.
Qed.
