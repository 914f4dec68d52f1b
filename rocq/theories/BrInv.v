(** * The inverse function of the Becke-Roussel equation and its Taylor coefficients
    The code (BR_taylor, brx.cpp 52-71) extends the scalar solution x to the Taylor
    coefficients of the implicit function by solving BR_z(t) = z + e one power at a time.
    Here: the inverse function of x -> (x-2)/x exp(2x/3) on the positive axis exists, is
    differentiable to every order the code uses, and the coefficients computed are its
    derivatives over the factorials at the point the scalar solver returned. *)
From Coq Require Import Reals QArith Qreals ZArith Arith Lia Lra Psatz List.
From Coquelicot Require Import Coquelicot.
From Verif Require Import Scalar RInst CTaylor CtAlg TMath Fps TFam TExp Br Sem BrReal.
Local Open Scope R_scope.

(** The inverse function, by suprema. *)
Definition br_inv (z : R) : R := real (Lub_Rbar (fun x => 0 < x /\ br_z x <= z)).
Lemma br_inv_of r : 0 < r -> br_inv (br_z r) = r.
Proof.
  intro H. unfold br_inv. rewrite (is_lub_Rbar_unique _ (Finite r)); [reflexivity|]. split.
  - intros x [Hx Lx]. cbn. apply br_z_le_inv; assumption.
  - intros b Hb. apply (Hb r). split; [exact H|lra].
Qed.
Theorem br_inv_spec z : 0 < br_inv z /\ br_z (br_inv z) = z.
Proof. destruct (BR_converges z) as (r & _ & _ & Hr & <- & _). rewrite br_inv_of by exact Hr. auto. Qed.
Lemma br_inv_lt a b : a < b -> br_inv a < br_inv b.
Proof.
  intro L. destruct (br_inv_spec a) as [A1 A2], (br_inv_spec b) as [B1 B2]. apply Rnot_le_lt. intro F.
  destruct F as [F|F]; [pose proof (br_z_lt _ _ B1 F); lra|rewrite F in *; lra].
Qed.
Lemma br_inv_derive y : is_derive br_inv y (/ br_z' (br_inv y)).
Proof.
  destruct (br_inv_spec y) as [P E]. set (r := br_inv y) in *. pose proof (br_z'_pos r P) as Q.
  assert (C : continuous (fun c => / br_z' c) r).
  { apply (ex_derive_continuous (V := R_NormedModule)). unfold br_z'. auto_derive. repeat split; try nra. pose proof (br_z'_pos r P) as Q'. unfold br_z' in Q'. unfold Rdiv in Q'. lra. }
  apply is_derive_Reals. intros eps He. destruct (proj1 (filterlim_locally _ _) C (mkposreal eps He)) as [d1 Hd].
  set (d := Rmin (d1 / 2) (r / 2)). assert (Hd0 : 0 < d) by (apply Rmin_glb_lt; destruct d1; cbn; lra).
  assert (L1 : d <= d1 / 2) by apply Rmin_l. assert (L2 : d <= r / 2) by apply Rmin_r. destruct d1 as [d1 Pd]. cbn in L1, Hd.
  pose proof (br_z_lt (r - d) r ltac:(lra) ltac:(lra)) as M1. pose proof (br_z_lt r (r + d) P ltac:(lra)) as M2.
  assert (De : 0 < Rmin (y - br_z (r - d)) (br_z (r + d) - y)) by (apply Rmin_glb_lt; lra).
  exists (mkposreal _ De). intros h Hh Hl. cbn in Hl. pose proof (Rmin_l (y - br_z (r - d)) (br_z (r + d) - y)). pose proof (Rmin_r (y - br_z (r - d)) (br_z (r + d) - y)).
  assert (Hl' : - (y - br_z (r - d)) < h < br_z (r + d) - y) by (unfold Rabs in Hl; destruct (Rcase_abs h); lra).
  destruct (br_inv_spec (y + h)) as [P2 E2]. set (s := br_inv (y + h)) in *.
  assert (S1 : r - d < s) by (apply Rnot_le_lt; intros [F|F]; [pose proof (br_z_lt s (r - d) P2 F); lra|rewrite F in *; lra]).
  assert (S2 : s < r + d) by (apply Rnot_le_lt; intros [F|F]; [pose proof (br_z_lt (r + d) s ltac:(lra) F); lra|rewrite <- F in *; lra]).
  assert (X : exists c, Rabs (c - r) < d1 /\ 0 < c /\ h = br_z' c * (s - r)).
  { destruct (Rtotal_order s r) as [L|[L|L]].
    - destruct (br_mvt s r P2 L) as (c & Hc & Em). exists c. split; [unfold Rabs; destruct (Rcase_abs _); lra|]. split; lra.
    - exfalso. apply Hh. rewrite L in E2. lra.
    - destruct (br_mvt r s P L) as (c & Hc & Em). exists c. split; [unfold Rabs; destruct (Rcase_abs _); lra|]. split; lra. }
  destruct X as (c & Hc & Pc & Eh). pose proof (br_z'_pos c Pc) as Qc.
  assert (N : s - r <> 0) by (intro F; rewrite F in Eh; lra).
  fold r. replace ((s - r) / h) with (/ br_z' c) by (rewrite Eh; field; split; lra). exact (Hd c Hc).
Qed.

(** Families of coefficients are unique. *)
Lemma fam_unique (D : R -> Prop) N t u : open D -> is_fam D N t -> is_fam D N u -> (forall x, D x -> t 0%nat x = u 0%nat x) ->
  forall k x, (k <= N)%nat -> D x -> t k x = u k x.
Proof.
  intros O H G E. induction k; intros x Hk Hx; [apply E, Hx|].
  pose proof (H k x ltac:(lia) Hx) as A. pose proof (G k x ltac:(lia) Hx) as B.
  assert (A' : is_derive (u k) x (INR (S k) * t (S k) x)).
  { apply is_derive_ext_loc with (t k); [|exact A]. apply filter_imp with D; [intros y Hy; apply IHk; [lia|exact Hy]|apply O, Hx]. }
  pose proof (is_derive_unique _ _ _ A') as U1. pose proof (is_derive_unique _ _ _ B) as U2. rewrite U1 in U2. apply Rmult_eq_reg_l with (INR (S k)); [exact U2|apply INR_nz].
Qed.
(** The family of the equation's left-hand side. *)
Definition lin_t (x : R) (k : nat) : R := match k with O => x - 2 | 1%nat => 1 | _ => 0 end.
Definition ex_t (x : R) (k : nat) : R := (2 / 3) ^ k * exp_expand (K := ROps) (2 / 3 * x) k.
Definition brz_t (x : R) (k : nat) : R := cau (fun i => cau (inv_coef (K := ROps) x) (lin_t x) i) (ex_t x) k.
Definition pos (x : R) : Prop := 0 < x.
Lemma lin_fam D N : is_fam D N (fun k x => lin_t x k).
Proof.
  intros k x _ _. destruct k as [|[|k]]; cbn [lin_t].
  - eapply is_derive_val; [apply d_minus; [apply d_id|apply d_const]|cbn; ring].
  - eapply is_derive_val; [apply d_const|ring].
  - eapply is_derive_val; [apply d_const|ring].
Qed.
Lemma ex_fam D N : is_fam D N (fun k x => ex_t x k).
Proof.
  intros k x _ _. unfold ex_t. eapply is_derive_val.
  - apply d_scal. apply (d_comp (fun y => exp_expand (K := ROps) y k) (fun y => 2 / 3 * y)).
    + exact (exp_fam (S k) k (2 / 3 * x) ltac:(lia) Logic.I).
    + apply d_scal, d_id.
  - cbn [pow]. ring.
Qed.
Lemma brz_fam N : is_fam pos N (fun k x => brz_t x k).
Proof.
  unfold brz_t. apply (fam_mul pos N (fun i x => cau (inv_coef (K := ROps) x) (lin_t x) i) (fun i x => ex_t x i)); [|apply ex_fam].
  apply (fam_mul pos N (fun i x => inv_coef (K := ROps) x i) (fun i x => lin_t x i)); [|apply lin_fam].
  apply fam_sub with (fun x => x <> 0); [unfold pos; intros; lra|apply inv_fam].
Qed.
Lemma brz_0 x : 0 < x -> brz_t x 0 = br_z x.
Proof. intro H. unfold brz_t, ex_t, lin_t, br_z. cbn. ops. unfold Rdiv. ring. Qed.
Lemma brz_1 x : 0 < x -> brz_t x 1 = br_z' x.
Proof.
  intro H. pose proof (brz_fam 1 0%nat x ltac:(lia) H) as D. pose proof (br_z_derive x H) as D2.
  assert (D' : is_derive br_z x (INR 1 * brz_t x 1)).
  { apply is_derive_ext_loc with (fun x => brz_t x 0); [|exact D]. apply filter_imp with pos; [intros y Hy; apply brz_0, Hy|apply open_pos, H]. }
  apply is_derive_unique in D', D2. rewrite D' in D2. change (INR 1) with 1 in D2. lra.
Qed.

(** The family of the inverse function. *)
Definition all (_ : R) : Prop := True.
Lemma phi_fam N : (N <= 6)%nat -> exists t, is_fam pos N t /\ forall x, pos x -> t 0%nat x = / br_z' x.
Proof.
  intro HN. pose proof (brz_fam (S N)) as F.
  assert (F1 : is_fam pos N (fun k x => INR (S k) * brz_t x (S k))).
  { intros k x Hk Hx. eapply is_derive_val; [apply d_scal, (F (S k) x); [lia|exact Hx]|]. ring. }
  assert (NZ : forall x, pos x -> (fun k x => INR (S k) * brz_t x (S k)) 0%nat x <> 0).
  { intros x Hx. cbn beta. rewrite brz_1 by exact Hx. pose proof (br_z'_pos x Hx). change (INR 1) with 1. lra. }
  pose proof (fam_compval pos (fun x => x <> 0) N (fun k x => inv_coef (K := ROps) x k) (fun k x => INR (S k) * brz_t x (S k)) HN (inv_fam N) F1 NZ) as C.
  eexists. split; [exact C|]. intros x Hx. cbn [compval inv_coef]. ops. rewrite brz_1 by exact Hx. change (INR 1) with 1. unfold Rdiv. rewrite !Rmult_1_l. reflexivity.
Qed.
Lemma inv_fam_br N : (N <= 7)%nat -> exists t, is_fam all N t /\ forall y, t 0%nat y = br_inv y.
Proof.
  induction N as [|N IH]; intro HN.
  - exists (fun _ y => br_inv y). split; [intros k x Hk; lia|reflexivity].
  - destruct (IH ltac:(lia)) as (t & Ft & Et). destruct (phi_fam N ltac:(lia)) as (p & Fp & Ep).
    assert (Dm : forall x, all x -> pos (t 0%nat x)) by (intros x _; rewrite Et; apply br_inv_spec).
    pose proof (fam_compval all pos N p t ltac:(lia) Fp Ft Dm) as C.
    eexists. split; [apply (fam_int all N _ br_inv C)|].
    + intros x _. cbn [compval]. rewrite Ep by (apply Dm; exact Logic.I). rewrite Et. apply br_inv_derive.
    + reflexivity.
Qed.

(** The code's polynomial arithmetic in terms of [compval]. *)
Lemma t1_compval N (t c : nat -> R) i : (i <= N)%nat -> (N <= 6)%nat -> t1_compose (K := ROps) N t c i = compval c t i.
Proof.
  intros Hi HN. rewrite (agree_compose N 6) by lia. assert (H6 : (i <= 6)%nat) by lia. clear Hi HN.
  do 7 (destruct i as [|i]; [unfold t1_compose; cbn; ops; ring|]). lia.
Qed.
Lemma compval_mul f g t k : (k <= 6)%nat -> compval (cau f g) t k = cau (compval f t) (compval g t) k.
Proof. intro H. do 7 (destruct k as [|k]; [unfold compval, cau, seqS; ring|]). lia. Qed.
Lemma compval_stretch a f t k : (k <= 6)%nat -> compval (fun i => a ^ i * f i) t k = compval f (fun i => a * t i) k.
Proof. intro H. do 7 (destruct k as [|k]; [cbn [compval pow]; ring|]). lia. Qed.
Lemma BR_z_compval N (t : nat -> R) : (N <= 6)%nat -> 0 < t 0%nat -> exists f, BR_z (K := ROps) N t = Some f /\ forall k, (k <= N)%nat -> f k = compval (brz_t (t 0%nat)) t k.
Proof.
  intros HN Ht. unfold BR_z, inv_expand. ops. destruct (Reqb (t 0%nat) 0) eqn:E; [apply Reqb_true in E; lra|]. cbn [obnd].
  eexists. split; [reflexivity|]. intros k Hk. rewrite tmulto_cau. unfold brz_t. rewrite compval_mul by lia. rewrite cau_comm. apply cau_ext; intros i Hi.
  - rewrite tmulto_cau, compval_mul by lia. rewrite cau_comm. apply cau_ext; intros j Hj.
    + rewrite t1_compval by lia. reflexivity.
    + unfold lin_t, set0. ops. assert (H6 : (j <= 6)%nat) by lia. do 7 (destruct j as [|j]; [cbn [compval]; rewrite ?Q2R_Z; ring|]). lia.
  - rewrite t1_compval by lia. unfold ex_t. rewrite compval_stretch by lia. ops. unfold OofZ. ops. rewrite ?Q2R_Z. reflexivity.
Qed.

Lemma compval_top f x y k : (1 < k <= 6)%nat -> (forall i, (1 <= i < k)%nat -> x i = y i) -> compval f x k - f 1%nat * x k = compval f y k - f 1%nat * y k.
Proof.
  intros Hk E. destruct k as [|[|[|[|[|[|[|k]]]]]]]; try lia; cbn [compval]; rewrite ?(E 1%nat), ?(E 2%nat), ?(E 3%nat), ?(E 4%nat), ?(E 5%nat) by lia; ring.
Qed.
(** Composing the equation with its inverse: z + e. *)
Lemma brz_inverse N t : (N <= 6)%nat -> is_fam all N t -> (forall y, t 0%nat y = br_inv y) ->
  forall y k, (1 <= k <= N)%nat -> compval (brz_t (br_inv y)) (fun j => t j y) k = if Nat.eqb k 1 then 1 else 0.
Proof.
  intros HN Ft Et y k Hk.
  assert (Dm : forall x, all x -> pos (t 0%nat x)) by (intros x _; rewrite Et; apply br_inv_spec).
  pose proof (fam_compval all pos N (fun k x => brz_t x k) t HN (brz_fam N) Ft Dm) as C.
  assert (Fid : is_fam all N (fun k x => match k with O => x | 1%nat => 1 | _ => 0 end)).
  { intros [|[|j]] x _ _.
    - eapply is_derive_val; [apply d_id|cbn; ring].
    - eapply is_derive_val; [apply d_const|ring].
    - eapply is_derive_val; [apply d_const|ring]. }
  assert (E0 : forall x, all x -> compval (fun j => brz_t (t 0%nat x) j) (fun j => t j x) 0 = x).
  { intros x _. cbn [compval]. rewrite Et. destruct (br_inv_spec x) as [P Q]. rewrite brz_0 by exact P. exact Q. }
  pose proof (fam_unique all N _ _ open_true C Fid E0 k y ltac:(lia) Logic.I) as U. cbn beta in U. rewrite Et in U.
  change (fun j => brz_t (br_inv y) j) with (brz_t (br_inv y)) in U. rewrite U. destruct k as [|[|k]]; [lia|reflexivity|reflexivity].
Qed.
Lemma tloop_inverse N g y : (N <= 6)%nat -> is_fam all N g -> (forall y, g 0%nat y = br_inv y) ->
  forall todo i (t : nat -> R), (2 <= i)%nat -> (i + todo = S N)%nat -> t 0%nat = br_inv y -> (forall k, (1 <= k < i)%nat -> t k = g k y) -> (forall k, (i <= k)%nat -> t k = 0) ->
  exists u, BR_tloop (K := ROps) N todo i t = Some u /\ u 0%nat = br_inv y /\ forall k, (1 <= k <= N)%nat -> u k = g k y.
Proof.
  intros HN Fg Eg. destruct (br_inv_spec y) as [P _]. induction todo as [|todo IH]; intros i t H2 Hi T0 Tk Tz; cbn [BR_tloop].
  - exists t. split; [reflexivity|]. split; [exact T0|]. intros k Hk. apply Tk. lia.
  - destruct (BR_z_compval N t HN) as (f & -> & Ef); [rewrite T0; exact P|]. cbn [obnd]. apply IH; try lia.
    + unfold upd. destruct (Nat.eqb_spec 0 i); [lia|exact T0].
    + intros k Hk. unfold upd. destruct (Nat.eqb_spec k i) as [->|N']; [|apply Tk; lia].
      pose proof (brz_inverse N g HN Fg Eg y i ltac:(lia)) as B. destruct (Nat.eqb_spec i 1) as [->|_]; [lia|].
      pose proof (brz_inverse N g HN Fg Eg y 1%nat ltac:(lia)) as B1. cbn [compval Nat.eqb] in B1.
      pose proof (compval_top (brz_t (br_inv y)) t (fun j => g j y) i ltac:(lia) ltac:(intros j Hj; apply Tk; lia)) as E.
      rewrite (Ef i) by lia. rewrite T0, (Tk 1%nat) by lia. rewrite (Tz i) in E by lia. rewrite B in E.
      set (b := brz_t (br_inv y) 1%nat) in *. set (c := compval _ t i) in *. ops. replace c with (- b * g i y) by lra.
      replace (- (- b * g i y) * g 1%nat y) with (b * g 1%nat y * g i y) by ring. rewrite B1. ring.
    + intros k Hk. unfold upd. destruct (Nat.eqb_spec k i); [lia|]. apply Tz. lia.
Qed.
(** The theorem: the coefficients are the derivatives of the inverse function. *)
Theorem BR_taylor_inverse N (z : R) : (1 <= N <= 6)%nat -> exists x t, BR (K := ROps) z = Some x /\ near (br_inv z) x /\ BR_taylor (K := ROps) N z = Some t /\
  t 0%nat = x /\ forall k, (k <= N)%nat -> is_derive_n br_inv k (br_z x) (INR (fact k) * t k).
Proof.
  intros HN. destruct (BR_converges z) as (r & x0 & x & Hr & Er & Es & Hx & Lx). assert (Er' : br_inv z = r) by (rewrite <- Er; apply br_inv_of, Hr).
  destruct (inv_fam_br N ltac:(lia)) as (g & Fg & Eg). assert (Px : 0 < x) by apply Hx. set (y := br_z x). assert (Ey : br_inv y = x) by (apply br_inv_of, Px).
  assert (EB : BR (K := ROps) z = Some x). { unfold BR. rewrite Es. cbn [obnd]. exact (Lx 13%nat). }
  exists x. unfold BR_taylor. rewrite EB. cbn [obnd].
  match goal with |- context [BR_z N ?u] => set (t0 := u) end.
  destruct (BR_z_compval N t0 ltac:(lia) Px) as (f & -> & Ef). cbn [obnd].
  assert (F1 : f 1%nat = br_z' x). { rewrite (Ef 1%nat) by lia. cbn [compval]. unfold t0. ops. rewrite brz_1 by exact Px. ring. }
  pose proof (br_z'_pos x Px) as Q. unfold sdiv. ops. destruct (Reqb (f 1%nat) 0) eqn:C; [apply Reqb_true in C; lra|]. cbn [obnd].
  pose proof (brz_inverse N g ltac:(lia) Fg Eg y 1%nat ltac:(lia)) as B1. cbn [compval Nat.eqb] in B1. rewrite Ey, brz_1 in B1 by exact Px.
  destruct (tloop_inverse N g y ltac:(lia) Fg Eg (N - 1) 2 (upd t0 1 (1 / f 1%nat))) as (u & Eu & U0 & Uk); try lia.
  - rewrite Ey. reflexivity.
  - intros k Hk. assert (k = 1%nat) as -> by lia. unfold upd. cbn [Nat.eqb]. rewrite F1. apply Rmult_eq_reg_l with (br_z' x); [|lra]. rewrite B1. field. lra.
  - intros k Hk. unfold upd, t0. destruct k as [|[|k]]; [lia|lia|]. cbn [Nat.eqb]. ops. reflexivity.
  - exists u. split; [reflexivity|]. split; [rewrite Er'; exact Hx|]. split; [exact Eu|]. split; [rewrite U0; exact Ey|].
    intros k Hk. assert (Eg' : u k = g k y). { destruct k; [rewrite U0, Eg; reflexivity|apply Uk; lia]. } rewrite Eg'.
    pose proof (fam_derive_n all N g open_true Fg k y Hk Logic.I) as D. apply is_derive_n_ext with (g 0%nat); [exact Eg|exact D].
Qed.
