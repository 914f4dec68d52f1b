(** * Property theorems: range-separated exchange is a part of exchange (C41) *)
From Coq Require Import Reals QArith Qreals ZArith Arith Lia Lra Psatz List Bool String.
From Coquelicot Require Import Coquelicot.
From Verif Require Import Scalar RInst Tables Api SpecApi ApiProofs ApiProofs2 CTaylor CtAlg TMath Br Expr Densvars Functionals
  Eval SpecEval EvalSem EvalProps Taint EvalExt Props_Eval Sem RSem EnergyR EvalR EvalReal EvalApi Phys Mk Props_Deriv Dom Oblig Safe Safe2 Props_Dens Props_Dens2 Props_Scale Props_Scale2 Value.
From Verif Require Import Itv.
From Verif Require Import Published PubTac PubX PubC PubM PubNear LrPart PubErf Props_Published Props_Published3 Props_Published5.
Import ListNotations.
Local Open Scope outcome_scope.
Local Open Scope R_scope.

(** With functional number [i] alone switched on in [h], with weight [w], the library returns energy [e] for the density [D], given in some set of variables. *)
Definition returns (h : handle ROps) (i : nat) (w : R) (D : dens) (e : R) : Prop :=
  exists h0 v x, reachable h /\ h_active h = [i] /\ h_settings h i = w /\ xcfun_eval_setup h v XC_PARTIAL_DERIVATIVES 0 = Ok (h0, 0%Z) /\ describes v x D /\ library_energy h0 x e.
Definition mu_of (h : handle ROps) : R := h_settings h XC_RANGESEP_MU.
Definition alpha_of (h : handle ROps) : R := h_settings h XC_CAM_ALPHA.
Definition beta_of (h : handle ROps) : R := h_settings h XC_CAM_BETA.

Lemma returns_value h i w D e nm ex : returns h i w D e -> i <> XC_REVTPSSX_id -> nth_error functionals i = Some (nm, ex) -> above D ->
  e = w * tv (h_settings h) (fun _ => 0) (dvar D) [] ex.
Proof. intros (h0 & v & x & Hr & A & W & S & De & Le) Ni F Ab. rewrite <- W. exact (one_value h h0 v D x i nm ex e Hr S A Ni F Ab De Le). Qed.
Lemma ps_le f g fl : f (fl f_a) (fl f_gaa) <= g (fl f_a) (fl f_gaa) -> f (fl f_b) (fl f_gbb) <= g (fl f_b) (fl f_gbb) -> ps f fl <= ps g fl.
Proof. unfold ps. lra. Qed.
Lemma half_pow n : 0 < 1 / 2 * Rpower n (4 / 3). Proof. apply Rmult_lt_0_compat; [lra|apply exp_pos]. Qed.
Lemma m_pos mu n : 0 < mu -> 0 < mu / (6 * sqrt PI * Rpower n (1 / 3)).
Proof. intro M. apply Rdiv_lt_0_compat; [exact M|]. apply Rmult_lt_0_compat; [apply Rmult_lt_0_compat; [lra|apply sqrt_lt_R0, PI_RGT_0]|apply exp_pos]. Qed.
Lemma att_le1 m k : 0 < m -> 0 < k -> attenuated 0 1 m k <= k.
Proof.
  intros M K. unfold attenuated. pose proof (lr_range (m * sqrt k) ltac:(apply Rmult_lt_0_compat; [exact M|now apply sqrt_lt_R0])) as L. nra.
Qed.

(** The short-range functionals (number in the library) and the functionals they are the short-range part of. *)
Definition parts : list (nat * nat) := [(8, 6); (13, 0)]%nat.
(** C41 (between).  At the same density and weight, short-range exchange lies between the full functional and zero. *)
Theorem C41_between :
  forall hs hf is_ if_ w D es ef, In (is_, if_) parts -> 0 <= w -> 0 < mu_of hs -> above D ->
    returns hs is_ w D es -> returns hf if_ w D ef -> ef <= es <= 0.
Proof.
  intros hs hf i j w D es ef I' W M Ab Rs Rf. pose proof (phys_dvar D Ab) as P. cbn [In parts] in I'. destruct I' as [E | [E | []]]; injection E as <- <-.
  - rewrite (returns_value _ _ _ _ _ _ beckex_beckesrx Rs ltac:(discriminate) eq_refl Ab), (returns_value _ _ _ _ _ _ beckex Rf ltac:(discriminate) eq_refl Ab).
    rewrite (k_srx (h_settings hs) _ (dvar D)), (k_becke_full (h_settings hf) _ (dvar D) P).
    assert (A : forall n g, 0 < n -> 0 <= g -> - (1 / 2) * Rpower n (4 / 3) * lib_K n g <= - (1 / 2) * Rpower n (4 / 3) * attenuated 0 1 (mu_of hs / (6 * sqrt PI * Rpower n (1 / 3))) (lib_K n g) <= 0).
    { intros n g N G. pose proof (half_pow n) as H. pose proof (lib_K_pos n g N G) as K. pose proof (att_le1 _ _ (m_pos _ n M) K) as U. pose proof (att_nn 0 1 _ _ (m_pos _ n M) K ltac:(lra) ltac:(lra)) as L.
      pose proof (Rmult_le_compat_l _ _ _ (Rlt_le _ _ H) U). pose proof (Rmult_le_pos _ _ (Rlt_le _ _ H) L). lra. }
    change (h_settings hs 78%nat) with (mu_of hs). destruct P. pose proof (A _ _ ph_a ph_gaa) as Xa. pose proof (A _ _ ph_b ph_gbb) as Xb. unfold ps.
    cbn [T ROps] in *. split; [apply Rmult_le_compat_l; lra|]. nra.
  - rewrite (returns_value _ _ _ _ _ _ ldaerfx_lda_erfx Rs ltac:(discriminate) eq_refl Ab), (returns_value _ _ _ _ _ _ slater_slaterx Rf ltac:(discriminate) eq_refl Ab).
    rewrite (k_erfx (h_settings hs) _ (dvar D)), (k_slater (h_settings hf) _ (dvar D) P). change (h_settings hs 78%nat) with (mu_of hs). destruct P.
    pose proof (lib_erf_range (2 * dvar D f_a) _ ltac:(lra) (ldaerf_a_pos _ (2 * dvar D f_a) M)) as Xa. pose proof (lib_erf_range (2 * dvar D f_b) _ ltac:(lra) (ldaerf_a_pos _ (2 * dvar D f_b) M)) as Xb.
    unfold gx, ss, F_lda. rewrite !Rmult_1_r. split; [apply Rmult_le_compat_l; lra|]. nra.
Qed.
Print Assumptions C41_between.

(** C41 (monotone).  Short-range Becke exchange weakens as the range-separation parameter grows. *)
Theorem C41_monotone :
  forall h h' w D e e', 0 <= w -> 0 < mu_of h -> mu_of h <= mu_of h' -> above D ->
    returns h 8 w D e -> returns h' 8 w D e' -> e <= e'.
Proof.
  intros h h' w D e e' W M Le Ab R R'. pose proof (phys_dvar D Ab) as P.
  rewrite (returns_value _ _ _ _ _ _ beckex_beckesrx R ltac:(discriminate) eq_refl Ab), (returns_value _ _ _ _ _ _ beckex_beckesrx R' ltac:(discriminate) eq_refl Ab), !k_srx.
  change (h_settings h 78%nat) with (mu_of h). change (h_settings h' 78%nat) with (mu_of h'). apply Rmult_le_compat_l; [exact W|].
  assert (A : forall n g, 0 < n -> 0 <= g -> - (1 / 2) * Rpower n (4 / 3) * attenuated 0 1 (mu_of h / (6 * sqrt PI * Rpower n (1 / 3))) (lib_K n g) <= - (1 / 2) * Rpower n (4 / 3) * attenuated 0 1 (mu_of h' / (6 * sqrt PI * Rpower n (1 / 3))) (lib_K n g)).
  { intros n g N G. pose proof (half_pow n) as H. pose proof (lib_K_pos n g N G) as K. pose proof (m_pos _ n M) as Mp.
    assert (Mm : mu_of h / (6 * sqrt PI * Rpower n (1 / 3)) <= mu_of h' / (6 * sqrt PI * Rpower n (1 / 3))) by (apply Rmult_le_compat_r; [left; apply Rinv_0_lt_compat, den_pos|exact Le]).
    set (m := mu_of h / _) in *. set (m' := mu_of h' / _) in *. pose proof (sqrt_lt_R0 _ K) as Sk.
    assert (L : lr_part (m * sqrt (lib_K n g)) <= lr_part (m' * sqrt (lib_K n g))) by (apply lr_mono; [now apply Rmult_lt_0_compat|apply Rmult_le_compat_r; lra]).
    assert (U : attenuated 0 1 m' (lib_K n g) <= attenuated 0 1 m (lib_K n g)) by (unfold attenuated; apply Rmult_le_compat_l; lra).
    pose proof (Rmult_le_compat_l _ _ _ (Rlt_le _ _ H) U). lra. }
  destruct P. apply ps_le; apply A; assumption.
Qed.
Print Assumptions C41_monotone.

(** C41 (partition).  The Coulomb-attenuated functional is (1 - alpha - beta) times the full functional plus beta times its short-range part,
    for all values of the parameters. *)
Theorem C41_cam_partition :
  forall hc hf hs w D ec ef es, above D -> mu_of hc = mu_of hs ->
    returns hc 9 w D ec -> returns hf 6 w D ef -> returns hs 8 w D es ->
    ec = (1 - alpha_of hc - beta_of hc) * ef + beta_of hc * es.
Proof.
  intros hc hf hs w D ec ef es Ab M Rc Rf Rs. pose proof (phys_dvar D Ab) as P.
  rewrite (returns_value _ _ _ _ _ _ beckex_beckecamx Rc ltac:(discriminate) eq_refl Ab), (returns_value _ _ _ _ _ _ beckex_beckesrx Rs ltac:(discriminate) eq_refl Ab), (returns_value _ _ _ _ _ _ beckex Rf ltac:(discriminate) eq_refl Ab).
  rewrite k_camx, k_srx, (k_becke_full _ _ _ P). change (h_settings hs 78%nat) with (mu_of hs). change (h_settings hc 78%nat) with (mu_of hc). rewrite M.
  change (h_settings hc 80%nat) with (alpha_of hc). change (h_settings hc 81%nat) with (beta_of hc). unfold ps, attenuated. cbn [T ROps]. ring.
Qed.
Print Assumptions C41_cam_partition.

(** C41 (local density, monotone: refuted).  Where the library changes from the formula to its leading term at
    mu / (2 kF) = 100, the short-range energy becomes stronger as mu grows. *)
Lemma erf_jump : lib_erf 1 100 < lib_erf 1 (999999 / 10000).
Proof.
  assert (G := gas_E 1 ltac:(lra)). assert (Ng := Bounds.ex_neg 1).
  assert (E1 : lib_erf 1 100 = 1 * ex_gas 1 * (1 / 360000)).
  { unfold lib_erf. destruct (Rlt_dec 100 (1 / 1000000000)); [lra|]. destruct (Rlt_dec 100 100); [lra|]. destruct (Rlt_dec 100 1000000000); [|lra]. rewrite G. field. }
  assert (E2 : lib_erf 1 (999999 / 10000) = 1 * ex_gas 1 * (1 - lr_part (999999 / 10000))).
  { pose proof (erf_E 1 (999999 / 10000) ltac:(lra) ltac:(lra) 0 0) as E. unfold lib_erf. destruct (Rlt_dec (999999 / 10000) (1 / 1000000000)); [lra|]. destruct (Rlt_dec (999999 / 10000) 100); [|lra]. exact E. }
  rewrite E1, E2. pose proof (lr_large6 (999999 / 10000) ltac:(lra)) as L. assert (B : 1 - lr_part (999999 / 10000) < 1 / 360000) by lra. nra.
Qed.
Definition D_half : dens :=
  {| al := {| rho := 1 / 2; grad := V 0 0 0; hes := h0_; kin := 1; jp := 0 |}; be := {| rho := 1 / 2; grad := V 0 0 0; hes := h0_; kin := 1; jp := 0 |} |}.
Lemma D_half_above : above D_half.
Proof. split; cbn [rho al be D_half]; change threshold with (1 * / 100000000000000); lra. Qed.
Lemma erf_returns (mu : R) : 0 < mu -> exists h : handle ROps, Api.run xcfun_new [CSet "ldaerfx" (1 : ROps); CSet "rangesep_mu" (mu : ROps)] = Ok h /\ mu_of h = mu /\ exists e, returns h 13 1 D_half e.
Proof.
  intro M. destruct (make (K := ROps) [("ldaerfx"%string, 13%nat, 1); ("rangesep_mu"%string, 78%nat, mu)] eq_refl) as (h & Eh & Hr & A & Es). change (mactive _) with [13]%nat in A.
  assert (Em : h_settings h XC_RANGESEP_MU = mu) by (rewrite Es; unfold msettings; cbn [map fold_left fst snd]; unfold wr_settings, upd; cbn; reflexivity).
  assert (W : h_settings h 13%nat = 1) by (rewrite Es; unfold msettings; cbn [map fold_left fst snd]; unfold wr_settings, upd; cbn; unfold Q2R; cbn; lra).
  assert (S : exists h1, xcfun_eval_setup h XC_A_B XC_PARTIAL_DERIVATIVES 0 = Ok (h1, 0%Z)) by (eexists; apply accepts_ok; [exact Hr|rewrite A; vm_compute; reflexivity]).
  destruct S as [h0 S]. exists h. split; [exact Eh|]. split; [exact Em|]. eexists. exists h0, XC_A_B. eexists. split; [exact Hr|]. split; [exact A|]. split; [exact W|].
  split; [exact S|]. split; [apply encode_describes; cbn; tauto|].
  refine (one_defined h h0 XC_A_B D_half _ 13 "LDAERFX"%string _ ldaerfx_lda_erfx Hr S A ltac:(discriminate) ltac:(lia) eq_refl eq_refl _ _ D_half_above _).
  - rewrite Em. exact M.
  - left. cbn [In any_gradient]. tauto.
  - apply encode_describes. cbn; tauto.
Qed.
Theorem C41_ldaerfx_monotone_refuted :
  exists (h h' : handle ROps) mu mu' D e e',
    Api.run xcfun_new [CSet "ldaerfx" (1 : ROps); CSet "rangesep_mu" (mu : ROps)] = Ok h /\ Api.run xcfun_new [CSet "ldaerfx" (1 : ROps); CSet "rangesep_mu" (mu' : ROps)] = Ok h' /\
    0 < mu < mu' /\ above D /\ returns h 13 1 D e /\ returns h' 13 1 D e' /\ e' < e.
Proof.
  set (c := 2 * 3.093667726280136). assert (C : 0 < c) by (unfold c; decs; lra).
  destruct (erf_returns (999999 / 10000 * c) ltac:(nra)) as (h & Eh & Mh & e & R). destruct (erf_returns (100 * c) ltac:(nra)) as (h' & Eh' & Mh' & e' & R').
  exists h, h', (999999 / 10000 * c), (100 * c), D_half, e, e'. split; [exact Eh|]. split; [exact Eh'|]. split; [nra|]. split; [exact D_half_above|]. split; [exact R|]. split; [exact R'|].
  rewrite (returns_value _ _ _ _ _ _ ldaerfx_lda_erfx R ltac:(discriminate) eq_refl D_half_above), (returns_value _ _ _ _ _ _ ldaerfx_lda_erfx R' ltac:(discriminate) eq_refl D_half_above), !k_erfx.
  change (h_settings h 78%nat) with (mu_of h). change (h_settings h' 78%nat) with (mu_of h'). rewrite Mh, Mh'. unfold ss.
  change (dvar D_half f_a) with (1 / 2). change (dvar D_half f_b) with (1 / 2). replace (2 * (1 / 2)) with 1 by field.
  assert (P1 : forall y, Rpower 1 y = 1) by (intro y; unfold Rpower; now rewrite ln_1, Rmult_0_r, exp_0).
  assert (Ea : forall q, ldaerf_a (q * c) 1 = q) by (intro q; unfold ldaerf_a; rewrite P1; unfold c; decs; field). rewrite !Ea.
  pose proof erf_jump. lra.
Qed.
Print Assumptions C41_ldaerfx_monotone_refuted.

(** C35 (range-separated local exchange, every mu > 0 and density).  The two limits and the leading term the
    library uses outside 1e-9 <= mu / (2 kF) < 100 are within 1e-8 of the full local exchange energy. *)
Theorem C35_ldaerfx_close :
  forall h w D e, 0 < mu_of h -> above D -> returns h 13 w D e ->
    Rabs (e - w * ldaerf_x (mu_of h) D) <= 1 / 100000000 * Rabs (w * Bounds.dirac D).
Proof.
  intros h w D e M Ab R. pose proof (phys_dvar D Ab) as P. rewrite (returns_value _ _ _ _ _ _ ldaerfx_lda_erfx R ltac:(discriminate) eq_refl Ab).
  pose proof (erfx_close (h_settings h) (fun _ => 0) (dvar D) P M) as C. change (h_settings h 78%nat) with (mu_of h) in C.
  change (ss (fun n _ => n * ex_gas n * (1 - lr_part (ldaerf_a (mu_of h) n))) (dvar D)) with (ldaerf_x (mu_of h) D) in C.
  assert (Ed : ss (fun n _ => n * ex_gas n) (dvar D) = Bounds.dirac D).
  { destruct P. unfold ss, Bounds.dirac. change (rho (al D)) with (dvar D f_a). change (rho (be D)) with (dvar D f_b). rewrite <- (Bounds.lda_half _ ph_a), <- (Bounds.lda_half _ ph_b). field. }
  rewrite Ed in C. rewrite <- Rmult_minus_distr_l, !Rabs_mult. apply (Rmult_le_compat_l (Rabs w)) in C; [|apply Rabs_pos]. lra.
Qed.
Print Assumptions C35_ldaerfx_close.

(** ** Concrete cases *)
(** Becke exchange, its short-range part and its Coulomb-attenuated form with the library's default parameters. *)
Ltac single nm i NM ex := 
  let h := fresh "h" in let Eh := fresh in let Hr := fresh in let A := fresh in let Es := fresh in
  destruct (make (K := ROps) [(nm, i, 1)] eq_refl) as (h & Eh & Hr & A & Es); change (mactive _) with [i] in A;
  exists h; eexists; split; [exact Eh|]; 
  assert (Em : h_settings h XC_RANGESEP_MU = 2 / 5) by (rewrite Es; unfold msettings; cbn [map fold_left fst snd]; unfold wr_settings, upd; cbn; unfold Q2R; cbn; lra);
  split; [exact Em|]; split; [unfold alpha_of; rewrite Es; unfold msettings; cbn [map fold_left fst snd]; unfold wr_settings, upd; cbn; unfold Q2R; cbn; lra|];
  split; [unfold beta_of; rewrite Es; unfold msettings; cbn [map fold_left fst snd]; unfold wr_settings, upd; cbn; unfold Q2R; cbn; lra|];
  assert (S : exists h1, xcfun_eval_setup h XC_A_B_GAA_GAB_GBB XC_PARTIAL_DERIVATIVES 0 = Ok (h1, 0%Z)) by (eexists; apply accepts_ok; [exact Hr|rewrite A; vm_compute; reflexivity]);
  destruct S as [h0 S]; exists h0, XC_A_B_GAA_GAB_GBB; eexists; split; [exact Hr|]; split; [exact A|];
  split; [rewrite Es; unfold msettings; cbn [map fold_left fst snd]; unfold wr_settings, upd; cbn; unfold Q2R; cbn; lra|]; split; [exact S|]; split; [apply encode_describes; cbn; tauto|];
  refine (one_defined h h0 XC_A_B_GAA_GAB_GBB D_flat _ i NM _ ex Hr S A ltac:(discriminate) ltac:(lia) eq_refl eq_refl _ _ D_flat_above _);
  [rewrite Em; lra|left; cbn [In any_gradient]; tauto|apply encode_describes; cbn; tauto].
Example C41_becke_example :
  (exists (h : handle ROps) e, Api.run xcfun_new [CSet "beckex" (1 : ROps)] = Ok h /\ mu_of h = 2 / 5 /\ alpha_of h = 19 / 100 /\ beta_of h = 23 / 50 /\ returns h 6 1 D_flat e) /\
  (exists (h : handle ROps) e, Api.run xcfun_new [CSet "beckesrx" (1 : ROps)] = Ok h /\ mu_of h = 2 / 5 /\ alpha_of h = 19 / 100 /\ beta_of h = 23 / 50 /\ returns h 8 1 D_flat e) /\
  (exists (h : handle ROps) e, Api.run xcfun_new [CSet "beckecamx" (1 : ROps)] = Ok h /\ mu_of h = 2 / 5 /\ alpha_of h = 19 / 100 /\ beta_of h = 23 / 50 /\ returns h 9 1 D_flat e).
Proof.
  split; [|split].
  - single "beckex"%string 6%nat "BECKEX"%string beckex.
  - single "beckesrx"%string 8%nat "BECKESRX"%string beckex_beckesrx.
  - single "beckecamx"%string 9%nat "BECKECAMX"%string beckex_beckecamx.
Qed.
Example C41_lda_example :
  (exists (h : handle ROps) e, Api.run xcfun_new [CSet "slaterx" (1 : ROps)] = Ok h /\ mu_of h = 2 / 5 /\ alpha_of h = 19 / 100 /\ beta_of h = 23 / 50 /\ returns h 0 1 D_flat e) /\
  (exists (h : handle ROps) e, Api.run xcfun_new [CSet "ldaerfx" (1 : ROps)] = Ok h /\ mu_of h = 2 / 5 /\ alpha_of h = 19 / 100 /\ beta_of h = 23 / 50 /\ returns h 13 1 D_flat e).
Proof.
  split.
  - single "slaterx"%string 0%nat "SLATERX"%string slater_slaterx.
  - single "ldaerfx"%string 13%nat "LDAERFX"%string ldaerfx_lda_erfx.
Qed.
