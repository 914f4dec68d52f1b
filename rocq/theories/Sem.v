(** * Evaluation over the reals commutes with homomorphisms of Taylor algebras

    A unital ring homomorphism between the algebras of Taylor numbers in n and m
    infinitesimals (dropping, adding or permuting infinitesimals, taking the constant term)
    commutes with every operation available to the functionals. *)
From Coq Require Import Reals QArith Qreals ZArith Arith Lia Lra List Bool String.
From Coquelicot Require Import Coquelicot.
From Verif Require Import Scalar RInst CTaylor CtAlg TMath Fps TFam TExp Br Expr.
Import ListNotations.
Local Open Scope R_scope.

Definition hom (n m : nat) (f : rct n -> rct m) : Prop :=
  (forall k : R, f (rconst n k) = rconst m k) /\
  (forall x y, f (ct_add n x y) = ct_add m (f x) (f y)) /\
  (forall x y, f (pmul n x y) = pmul m (f x) (f y)) /\
  (forall x, c0 m (f x) = c0 n x).

Section HOM.
Variables n m : nat.
Variable f : rct n -> rct m.
Hypothesis H : hom n m f.

Lemma hom_const (k : R) : f (rconst n k) = rconst m k. Proof. apply H. Qed.
Lemma hom_add x y : f (ct_add n x y) = ct_add m (f x) (f y). Proof. apply H. Qed.
Lemma hom_mul x y : f (pmul n x y) = pmul m (f x) (f y). Proof. apply H. Qed.
Lemma hom_c0 x : c0 m (f x) = c0 n x. Proof. apply H. Qed.
Lemma neg_pmul p (x : rct p) : ct_neg p x = pmul p (rconst p (-1)) x.
Proof.
  rewrite <- scale_spec. unfold ct_scale, ct_neg. induction p; cbn [ct_map]; [cbn; ring|]. now rewrite !IHp.
Qed.
Lemma hom_neg x : f (ct_neg n x) = ct_neg m (f x).
Proof. rewrite !neg_pmul, hom_mul, hom_const. reflexivity. Qed.
Lemma hom_sub x y : f (ct_sub n x y) = ct_sub m (f x) (f y).
Proof. rewrite !sub_def, hom_add, hom_neg. reflexivity. Qed.
Lemma hom_scale (k : R) x : f (@ct_scale ROps n k x) = @ct_scale ROps m k (f x).
Proof. rewrite !scale_spec, hom_mul, hom_const. reflexivity. Qed.
Lemma hom_scaleto (k : R) x : f (@ct_scaleto ROps n k x) = @ct_scaleto ROps m k (f x).
Proof. rewrite !scaleto_spec, hom_mul, hom_const. reflexivity. Qed.
Lemma hom_addk (k : R) x : f (@ct_addk ROps n k x) = @ct_addk ROps m k (f x).
Proof. rewrite !addk_spec, hom_add, hom_const. reflexivity. Qed.
Lemma hom_subk (k : R) x : f (@ct_subk ROps n k x) = @ct_subk ROps m k (f x).
Proof. rewrite !subk_spec, hom_sub, hom_const. reflexivity. Qed.
Lemma hom_ksub (k : R) x : f (@ct_ksub ROps n k x) = @ct_ksub ROps m k (f x).
Proof. rewrite !ksub_spec, hom_sub, hom_const. reflexivity. Qed.
Lemma nilpart_sub p (x : rct p) : nilpart p x = ct_sub p x (rconst p (c0 p x)).
Proof.
  induction p; [unfold nilpart; cbn; ring|]. rewrite nilpart_S, IHp, ct_const_S, ct_sub_S. cbn [fst snd c0].
  f_equal. rewrite sub_def. unfold zero. rewrite <- const_neg, Ropp_0.
  rewrite add_comm. change (rconst p 0) with (zero p). now rewrite add_0.
Qed.
Lemma upd0_const p (k : R) (x : rct p) : @ct_upd0 ROps p (fun _ => k) x = ct_add p (rconst p k) (nilpart p x).
Proof.
  induction p; [unfold nilpart; cbn; ring|]. cbn [ct_upd0]. rewrite IHp, nilpart_S, ct_const_S, ct_add_S.
  cbn [fst snd]. now rewrite add_0.
Qed.
Lemma hom_nil x : f (nilpart n x) = nilpart m (f x).
Proof. rewrite !nilpart_sub, hom_sub, hom_const, hom_c0. reflexivity. Qed.
Lemma hom_hor d c M : f (hor n d c M) = hor m (f d) c M.
Proof.
  revert c. induction M; intro c; cbn [hor]; [apply hom_const|].
  rewrite hom_add, hom_mul, hom_const, IHM. reflexivity.
Qed.
Lemma hom_pcomp x c : f (pcomp n x c) = pcomp m (f x) c.
Proof.
  rewrite <- (hor_pcomp n x c (Nat.max n m)) by lia. rewrite <- (hor_pcomp m (f x) c (Nat.max n m)) by lia.
  rewrite hom_hor, hom_nil. reflexivity.
Qed.
End HOM.


(** A family of expansions whose coefficients do not depend on the truncation degree. *)
Definition stable (e : nat -> R -> option (nat -> R)) : Prop :=
  forall N a, (N <= 6)%nat ->
  match e N a, e 6%nat a with
  | Some c, Some c' => forall k, (k <= N)%nat -> c k = c' k
  | None, None => True
  | _, _ => False
  end.
Lemma expands_stable D f e : (forall N, (N <= 6)%nat -> expands D N f (e N)) -> stable e.
Proof.
  intros H N a HN. destruct (expands_derive_n _ _ _ _ (H N HN)) as [A B].
  destruct (expands_derive_n _ _ _ _ (H 6%nat (le_n 6))) as [A' B'].
  specialize (A a). specialize (A' a).
  destruct (e N a) as [c|] eqn:E, (e 6%nat a) as [c'|] eqn:E'; auto.
  - intros k Hk. specialize (B a c k E Hk). assert (Hk' : (k <= 6)%nat) by lia.
    specialize (B' a c' k E' Hk'). apply is_derive_n_unique in B. apply is_derive_n_unique in B'.
    rewrite B' in B. apply Rmult_eq_reg_l with (INR (fact k)); [symmetry; exact B|apply INR_fact_neq_0].
  - assert (X : D a) by (apply A; eauto). apply A' in X. destruct X; discriminate.
  - assert (X : D a) by (apply A'; eauto). apply A in X. destruct X; discriminate.
Qed.
Lemma const_stable (e : R -> option (nat -> R)) : stable (fun _ => e).
Proof. intros N a _. destruct (e a); auto. Qed.

(** Operations that commute with homomorphisms. *)
Definition natop (op : forall n, rct n -> option (rct n)) : Prop :=
  forall n m f, (n <= 6)%nat -> (m <= 6)%nat -> hom n m f -> forall t, op m (f t) = option_map f (op n t).
Lemma comp_natop (e : nat -> R -> option (nat -> R)) op : stable e ->
  (forall n (t : rct n), op n t = obnd (e n (c0 n t)) (fun c => Some (ct_compose n t c))) -> natop op.
Proof.
  intros S E n m f Hn Hm Hf t. rewrite !E, (hom_c0 n m f Hf).
  pose proof (S n (c0 n t) Hn) as A. pose proof (S m (c0 n t) Hm) as B.
  destruct (e n (c0 n t)) as [c|], (e m (c0 n t)) as [c1|], (e 6%nat (c0 n t)) as [c6|];
    try contradiction; cbn [obnd option_map]; [|reflexivity].
  rewrite !compose_spec, (hom_pcomp n m f Hf). f_equal.
  rewrite (pcomp_ext m _ c1 c6 B).
  rewrite <- (hom_pcomp n m f Hf), <- (hom_pcomp n m f Hf). f_equal. symmetry. apply pcomp_ext. exact A.
Qed.

Lemma exp_natop : natop (fun n (t : rct n) => Some (ct_exp n t)).
Proof. apply (comp_natop (fun _ a => Some (exp_expand (K := ROps) a))); [apply const_stable|reflexivity]. Qed.
Lemma log_natop : natop (fun n (t : rct n) => ct_log n t).
Proof. apply (comp_natop (fun _ a => log_expand (K := ROps) a)); [apply const_stable|reflexivity]. Qed.
Lemma sqrt_natop : natop (fun n (t : rct n) => ct_sqrt n t).
Proof. apply (comp_natop (fun _ a => sqrt_expand (K := ROps) a)); [apply const_stable|reflexivity]. Qed.
Lemma cbrt_natop : natop (fun n (t : rct n) => ct_cbrt n t).
Proof. apply (comp_natop (fun _ a => cbrt_expand (K := ROps) a)); [apply const_stable|reflexivity]. Qed.
Lemma pow_natop (k : R) : natop (fun n (t : rct n) => @ct_pow ROps n t k).
Proof. apply (comp_natop (fun _ a => pow_expand (K := ROps) a k)); [apply const_stable|reflexivity]. Qed.
Lemma erf_natop : natop (fun n (t : rct n) => Some (ct_erf n t)).
Proof. apply (comp_natop (fun _ a => Some (erf_expand (K := ROps) a))); [apply const_stable|reflexivity]. Qed.
Lemma atan_natop : natop (fun n (t : rct n) => ct_atan n t).
Proof.
  apply (comp_natop (fun N a => atan_expand (K := ROps) N a)); [|reflexivity].
  apply (expands_stable (fun _ => True) atan). apply atan_expands.
Qed.
Lemma asinh_natop : natop (fun n (t : rct n) => ct_asinh n t).
Proof.
  apply (comp_natop (fun N a => asinh_expand (K := ROps) N a)); [|reflexivity].
  apply (expands_stable (fun _ => True) arcsinh). apply asinh_expands.
Qed.
Definition expm1_coef (a : R) : nat -> R :=
  set0 (K := ROps) (exp_expand (K := ROps) a)
    (if Rltb (Q2R 0.001) (fabs (K := ROps) a) then exp a - 1 else 2 * exp (a / 2) * sinh (a / 2)).
Lemma expm1_eq n (t : rct n) : ct_expm1 n t = ct_compose n t (expm1_coef (c0 n t)).
Proof.
  unfold ct_expm1, expm1_coef. f_equal. cbn [exp_expand]. ops. reflexivity.
Qed.
Lemma expm1_natop : natop (fun n (t : rct n) => Some (ct_expm1 n t)).
Proof.
  apply (comp_natop (fun _ a => Some (expm1_coef a))); [apply const_stable|].
  intros. cbn [obnd]. now rewrite expm1_eq.
Qed.
Lemma pade_natop : natop (fun n (t : rct n) => obnd (pade_expand (K := ROps) n (c0 n t)) (fun c => Some (ct_compose n t c))).
Proof.
  apply (comp_natop (fun N a => pade_expand (K := ROps) N a)); [|reflexivity].
  apply (expands_stable (fun x => polyQ x <> 0) (fun x => polyP x / polyQ x)). apply pade_expands.
Qed.
Lemma kdiv_natop (k : R) : natop (fun n (t : rct n) => @ct_kdiv ROps n k t).
Proof.
  apply (comp_natop (fun _ a => obnd (inv_expand (K := ROps) a) (fun c => Some (fun i => c i * k)))); [apply const_stable|].
  intros n t. unfold ct_kdiv. destruct (inv_expand _); reflexivity.
Qed.
Lemma inv_natop : natop (fun n (t : rct n) => obnd (inv_expand (K := ROps) (c0 n t)) (fun c => Some (ct_compose n t c))).
Proof. apply (comp_natop (fun _ a => inv_expand (K := ROps) a)); [apply const_stable|reflexivity]. Qed.

Section HOM2.
Variables n m : nat.
Variable f : rct n -> rct m.
Hypothesis Hn : (n <= 6)%nat.
Hypothesis Hm : (m <= 6)%nat.
Hypothesis H : hom n m f.

Lemma hom_ct_mul x y : f (ct_mul n x y) = ct_mul m (f x) (f y).
Proof. unfold ct_mul. rewrite !mulset_spec. now apply hom_mul. Qed.
Lemma hom_multo x y : f (ct_multo n x y) = ct_multo m (f x) (f y).
Proof. rewrite !multo_spec. now apply hom_mul. Qed.
Lemma hom_div x y : ct_div m (f x) (f y) = option_map f (ct_div n x y).
Proof.
  pose proof (inv_natop n m f Hn Hm H y) as E. cbn beta in E. unfold ct_div.
  destruct (inv_expand (c0 m (f y))), (inv_expand (c0 n y)); cbn [obnd option_map] in *; try discriminate; auto.
  injection E as E. rewrite hom_multo, <- E. reflexivity.
Qed.
Lemma hom_divk x (k : R) : @ct_divk ROps m (f x) k = option_map f (@ct_divk ROps n x k).
Proof.
  unfold ct_divk. destruct (Oeqb _ _); cbn [option_map]; [reflexivity|]. f_equal. symmetry. now apply hom_scaleto.
Qed.
Lemma hom_iter k x y : f (Nat.iter k (fun r => ct_multo n r x) y) = Nat.iter k (fun r => ct_multo m r (f x)) (f y).
Proof. induction k; [reflexivity|]. simpl Nat.iter. rewrite hom_multo, <- IHk. reflexivity. Qed.
Lemma hom_powi x z : ct_powi m (f x) z = option_map f (ct_powi n x z).
Proof.
  unfold ct_powi. destruct (Z.ltb 0 z); cbn [option_map].
  - f_equal. symmetry. apply hom_iter.
  - destruct (Z.ltb z 0); cbn [option_map]; [exact (pow_natop _ n m f Hn Hm H x)|].
    f_equal. symmetry. now apply hom_const.
Qed.
Lemma hom_sqas x : ct_sqrtx_asinh_sqrtx m (f x) = option_map f (ct_sqrtx_asinh_sqrtx n x).
Proof.
  unfold ct_sqrtx_asinh_sqrtx. rewrite (hom_c0 n m f H).
  destruct (Oltb _ _); cbn [option_map]; [|reflexivity].
  destruct (Oltb _ _); cbn [option_map].
  - pose proof (pade_natop n m f Hn Hm H x) as E. cbn beta in E. rewrite (hom_c0 n m f H) in E. exact E.
  - rewrite (sqrt_natop n m f Hn Hm H x). destruct (ct_sqrt n x) as [s|]; cbn [obnd option_map]; [|reflexivity].
    rewrite (asinh_natop n m f Hn Hm H s). destruct (ct_asinh n s) as [s'|]; cbn [obnd option_map]; [|reflexivity].
    f_equal. symmetry. apply hom_ct_mul.
Qed.
Lemma hom_fn g x : fn_eval m g (f x) = option_map f (fn_eval n g x).
Proof.
  destruct g; cbn [fn_eval].
  - exact (exp_natop n m f Hn Hm H x).
  - exact (expm1_natop n m f Hn Hm H x).
  - exact (log_natop n m f Hn Hm H x).
  - exact (sqrt_natop n m f Hn Hm H x).
  - exact (cbrt_natop n m f Hn Hm H x).
  - exact (erf_natop n m f Hn Hm H x).
  - exact (atan_natop n m f Hn Hm H x).
  - exact (asinh_natop n m f Hn Hm H x).
  - apply hom_sqas.
Qed.
Lemma hom_abs x : f (ct_abs n x) = ct_abs m (f x).
Proof. unfold ct_abs. rewrite (hom_c0 n m f H). destruct (Oltb _ _); [now apply hom_neg|reflexivity]. Qed.
Lemma hom_max x y : f (ct_max n x y) = ct_max m (f x) (f y).
Proof. unfold ct_max. rewrite !(hom_c0 n m f H). destruct (Oltb _ _); reflexivity. Qed.
Lemma hom_reg x : f (ct_reg n x) = ct_reg m (f x).
Proof.
  unfold ct_reg. rewrite (hom_c0 n m f H). destruct (Oltb _ _); [|reflexivity].
  change (@OofQ ROps TINY) with (Q2R TINY). rewrite !upd0_const, (hom_add n m f H), (hom_const n m f H), (hom_nil n m f H).
  reflexivity.
Qed.
End HOM2.

(** ** The Becke-Roussel solver *)
Lemma BR_sum_spec n tmp (d : rct n) : forall todo i res,
  BR_sum n tmp d todo (S i) res =
  Some (match todo with O => res | S k =>
    ct_add n res (pmul n (ppow n d (S i)) (hor n d (fun j => tmp (S i + j)%nat) k)) end).
Proof.
  induction todo as [|k IH]; intros i res; [reflexivity|]. cbn [BR_sum].
  rewrite powi_spec by lia. rewrite Nat2Z.id. cbn [obnd]. rewrite IH, scale_spec. f_equal. destruct k as [|k].
  - cbn [hor]. rewrite Nat.add_0_r. f_equal. apply pmul_comm.
  - cbn [hor]. rewrite Nat.add_0_r. rewrite (hor_ext n d (fun j => tmp (S i + S j)%nat) (fun j => tmp (S (S i) + j)%nat))
      by (intro; f_equal; lia).
    change (ppow n d (S (S i))) with (pmul n (ppow n d (S i)) d). generalize (ppow n d (S i)). intro p.
    generalize (hor n d (fun j => tmp (S (S i) + j)%nat) k). intro q.
    rewrite <- add_assoc. f_equal. rewrite (pmul_comm n p (ct_add n _ _)), pmul_add. f_equal. rewrite (pmul_comm n (pmul n d q)). symmetry. apply pmul_assoc.
Qed.
Lemma ct_BR_eq n (t : rct n) :
  ct_BR n t = obnd (BR_taylor (Nat.max n 3) (c0 n t)) (fun c => Some (ct_compose n t c)).
Proof.
  unfold ct_BR. destruct (BR_taylor _ _) as [c|]; cbn [obnd]; [|reflexivity].
  rewrite (BR_sum_spec n c). f_equal. rewrite compose_spec, <- (hor_pcomp n t c n) by lia.
  rewrite subk_spec. rewrite <- (nilpart_sub n t). destruct n as [|n]; [reflexivity|]. cbn [hor]. f_equal.
  cbn [ppow]. rewrite pmul_1. reflexivity.
Qed.

(** Prefixes of coefficient sequences. *)
Definition agree (k : nat) (a b : nat -> R) : Prop := forall i, (i <= k)%nat -> a i = b i.
Lemma agree_acc k x x' z z' : agree k x x' -> agree k z z' -> forall i j, (j <= i <= k)%nat ->
  tmul_acc (K := ROps) x z i j = tmul_acc (K := ROps) x' z' i j.
Proof.
  intros Hx Hz i j. induction j; intros L; cbn [tmul_acc].
  - rewrite Hx, Hz by lia. reflexivity.
  - rewrite IHj by lia. rewrite Hx, Hz by lia. reflexivity.
Qed.
Lemma agree_tmulto k x x' z z' : agree k x x' -> agree k z z' -> agree k (tmulto (K := ROps) z x) (tmulto (K := ROps) z' x').
Proof. intros Hx Hz i Hi. unfold tmulto. now apply (agree_acc k). Qed.
Lemma agree_acc0 k x z z' : x 0%nat = 0 -> agree k z z' -> forall i j, (j <= i <= S k)%nat ->
  tmul_acc (K := ROps) x z i j = tmul_acc (K := ROps) x z' i j.
Proof.
  intros Hx Hz i j. induction j; intros L; cbn [tmul_acc].
  - rewrite Hx. cbn. ring.
  - rewrite IHj by lia. rewrite Hz by lia. reflexivity.
Qed.
Lemma agree_compose0 : forall N M p c, p 0%nat = 0 -> (N <= M)%nat ->
  agree N (t1_compose0 (K := ROps) N p c) (t1_compose0 (K := ROps) M p c).
Proof.
  induction N; intros M p c Hp L i Hi.
  - assert (i = 0%nat) as -> by lia. destruct M; reflexivity.
  - destruct M as [|M]; [lia|]. cbn [t1_compose0]. unfold set0. destruct i; [reflexivity|].
    unfold tmulto. apply (agree_acc0 N); [exact Hp| |lia]. apply IHN; [exact Hp|lia].
Qed.
Lemma agree_compose N M t c : (N <= M)%nat -> agree N (t1_compose (K := ROps) N t c) (t1_compose (K := ROps) M t c).
Proof. intros. apply agree_compose0; auto. unfold set0. ops. reflexivity. Qed.
Lemma agree_refl k a : agree k a a. Proof. intros i _. reflexivity. Qed.
Lemma compose0_ext : forall N p p' c, (forall i, p i = p' i) -> forall i, t1_compose0 (K := ROps) N p c i = t1_compose0 (K := ROps) N p' c i.
Proof.
  induction N; intros p p' c E i; cbn [t1_compose0]; [reflexivity|]. unfold set0. destruct i; [reflexivity|].
  apply (agree_tmulto (S i)); [intros j _; apply E|intros j _; apply IHN; exact E|lia].
Qed.
Definition orel {A} (P : A -> A -> Prop) (x y : option A) : Prop :=
  match x, y with Some a, Some b => P a b | None, None => True | _, _ => False end.
Lemma BR_z_stable N M t t' : (N <= M)%nat -> (forall i, t i = t' i) ->
  orel (agree N) (BR_z (K := ROps) N t) (BR_z (K := ROps) M t').
Proof.
  intros L E. unfold BR_z. rewrite (E 0%nat). destruct (inv_expand _) as [it|]; cbn [obnd orel]; [|auto].
  assert (Ct : forall c s s', (forall i, s i = s' i) -> agree N (t1_compose (K := ROps) N s c) (t1_compose (K := ROps) M s' c)).
  { intros c s s' Es i Hi. rewrite (agree_compose N M) by auto. unfold t1_compose. apply compose0_ext.
    intros [|j]; cbn; auto. }
  apply agree_tmulto.
  - match goal with |- agree _ (t1_compose _ _ ?c) (t1_compose _ _ ?c') => assert (Ec : c = c') by (rewrite ?(E 0%nat); reflexivity) end.
    rewrite ?Ec. apply Ct. intro i. now rewrite E.
  - apply agree_tmulto; [|apply Ct; exact E]. intros [|i] _; unfold set0; [reflexivity|apply E].
Qed.
Lemma BR_tloop_stable N M : (N <= M)%nat -> forall todo i t t', (i + todo <= S N)%nat -> (forall j, t j = t' j) ->
  orel (fun a b => forall j, a j = b j) (BR_tloop (K := ROps) N todo i t) (BR_tloop (K := ROps) M todo i t').
Proof.
  intros L. induction todo; intros i t t' Hi E; cbn [BR_tloop]; [exact E|].
  pose proof (BR_z_stable N M t t' L E) as B.
  destruct (BR_z N t) as [z|], (BR_z M t') as [z'|]; cbn [obnd orel] in *; try contradiction; auto.
  apply IHtodo; [lia|]. intro j. unfold upd. rewrite (B i) by lia. rewrite (E 1%nat), E. reflexivity.
Qed.
Lemma BR_tloop_app N a b : forall i t, BR_tloop (K := ROps) N (a + b) i t =
  obnd (BR_tloop (K := ROps) N a i t) (BR_tloop (K := ROps) N b (i + a)).
Proof.
  induction a; intros i t; cbn [BR_tloop Nat.add]; [now rewrite Nat.add_0_r|].
  destruct (BR_z N t); cbn [obnd]; [|reflexivity]. rewrite IHa. now replace (S i + a)%nat with (i + S a)%nat by lia.
Qed.
Lemma BR_z_def N (t : nat -> R) : t 0%nat <> 0 -> exists z, BR_z (K := ROps) N t = Some z.
Proof.
  intro H. unfold BR_z, inv_expand. ops. destruct (Reqb (t 0%nat) 0) eqn:E.
  - apply Reqb_true in E. contradiction.
  - eexists. reflexivity.
Qed.
Lemma BR_tloop_high N : forall todo i t, (0 < i)%nat -> t 0%nat <> 0 ->
  exists t', BR_tloop (K := ROps) N todo i t = Some t' /\ forall j, (j < i)%nat -> t' j = t j.
Proof.
  induction todo; intros i t Hi H0; cbn [BR_tloop]; [eauto|].
  destruct (BR_z_def N t H0) as [z ->]. cbn [obnd].
  match goal with |- context [BR_tloop N todo (S i) ?u] => destruct (IHtodo (S i) u) as (t' & E & A) end; [lia| |].
  - unfold upd. destruct i; [lia|]. exact H0.
  - exists t'. split; [exact E|]. intros j Hj. rewrite A by lia. unfold upd.
    destruct (Nat.eqb_spec j i); [lia|reflexivity].
Qed.
Lemma BR_z_nz N t z : BR_z (K := ROps) N t = Some z -> t 0%nat <> 0.
Proof.
  unfold BR_z, inv_expand. ops. destruct (Reqb (t 0%nat) 0) eqn:E; [discriminate|]. intros _. now apply Reqb_false in E.
Qed.
Lemma BR_taylor_stable N M z : (1 <= N <= M)%nat ->
  orel (agree N) (BR_taylor (K := ROps) N z) (BR_taylor (K := ROps) M z).
Proof.
  intros [L1 L]. unfold BR_taylor. destruct (BR z) as [x0|]; cbn [obnd orel]; [|auto].
  match goal with |- context [BR_z N ?t] => set (t0 := t) end.
  pose proof (BR_z_stable N M t0 t0 L (fun i => eq_refl)) as B.
  destruct (BR_z N t0) as [f|] eqn:EN, (BR_z M t0) as [f'|]; cbn [obnd orel] in *; try contradiction; auto.
  rewrite (B 1%nat L1). destruct (sdiv _ _) as [t1|]; cbn [obnd orel]; [|auto].
  set (t1a := @upd ROps t0 1 t1). replace (M - 1)%nat with ((N - 1) + (M - N))%nat by lia.
  rewrite BR_tloop_app.
  pose proof (BR_tloop_stable N M L (N - 1) 2 t1a t1a ltac:(lia) (fun j => eq_refl)) as S1.
  assert (H0 : t1a 0%nat <> 0) by (apply BR_z_nz in EN; exact EN).
  destruct (BR_tloop_high M (N - 1) 2 t1a ltac:(lia) H0) as (a & Ea & Aa). rewrite Ea in S1 |- *. cbn [obnd].
  destruct (BR_tloop N (N - 1) 2 t1a) as [b|]; cbn [orel] in S1; [|contradiction].
  destruct (BR_tloop_high M (M - N) (2 + (N - 1)) a ltac:(lia)) as (a2 & -> & A2); [rewrite Aa by lia; exact H0|].
  cbn [orel]. intros j Hj. rewrite S1, A2 by lia. reflexivity.
Qed.
Lemma BR_natop : natop (fun n (t : rct n) => ct_BR n t).
Proof.
  apply (comp_natop (fun n a => BR_taylor (K := ROps) (Nat.max n 3) a)); [|intros; apply ct_BR_eq].
  intros N a HN. pose proof (BR_taylor_stable (Nat.max N 3) 6 a ltac:(lia)) as B. unfold orel in B.
  change (Nat.max 6 3) with 6%nat.
  destruct (@BR_taylor ROps (Nat.max N 3) a), (@BR_taylor ROps 6 a); auto. intros k Hk. apply B. lia.
Qed.

(** ** Expressions *)
Definition emap {n m} (f : rct n -> rct m) (r : list (string * rct n)) : list (string * rct m) :=
  map (fun p => (fst p, f (snd p))) r.
Lemma lookup_emap n m (f : rct n -> rct m) x r : lookup m x (emap f r) = option_map f (lookup n x r).
Proof. induction r as [|[y v] r IH]; cbn; [reflexivity|]. destruct (String.eqb x y); auto. Qed.

Section EHOM.
Variables n m : nat.
Variable f : rct n -> rct m.
Hypothesis Hn : (n <= 6)%nat.
Hypothesis Hm : (m <= 6)%nat.
Hypothesis H : hom n m f.
Variable st : nat -> T ROps.
Variable inp : nat -> rct n.

Lemma eval_hom fl : forall e r,
  eval (K := ROps) st m (fun i => f (inp i)) (fun g => f (fl g)) (emap f r) e
  = option_map f (eval (K := ROps) st n inp fl r e).
Proof.
  induction e; intro r; cbn [eval];
    repeat match goal with
      | I : forall r0, eval st m _ _ (emap f r0) ?a = _ |- context [eval st m _ _ (emap f ?rr) ?a] =>
          rewrite (I rr); destruct (eval st n inp fl rr a); cbn [obnd option_map]; [|reflexivity]
      | |- context [seval st ?s] => destruct (seval st s); cbn [obnd option_map]; [|reflexivity]
    end; try reflexivity.
  - apply lookup_emap.
  - now rewrite (hom_const n m f H).
  - exact (IHe2 ((x, c) :: r)).
  - now rewrite (hom_neg n m f H).
  - now rewrite (hom_add n m f H).
  - now rewrite (hom_sub n m f H).
  - now rewrite (hom_ct_mul n m f H).
  - now rewrite (hom_multo n m f H).
  - exact (hom_div n m f Hn Hm H _ _).
  - now rewrite (hom_addk n m f H).
  - now rewrite (hom_subk n m f H).
  - now rewrite (hom_ksub n m f H).
  - now rewrite (hom_scale n m f H).
  - exact (kdiv_natop _ n m f Hn Hm H _).
  - exact (hom_divk n m f H _ _).
  - exact (pow_natop _ n m f Hn Hm H _).
  - exact (hom_powi n m f Hn Hm H _ _).
  - exact (hom_fn n m f Hn Hm H _ _).
  - now rewrite (hom_abs n m f H).
  - now rewrite (hom_max n m f H).
  - now rewrite (hom_reg n m f H).
  - exact (BR_natop n m f Hn Hm H _).
  - rewrite !(hom_c0 n m f H). destruct (Oltb _ _); auto.
Qed.
Lemma fupd_hom fl g v : (fun h => f (fupd n fl g v h)) = fupd m (fun h => f (fl h)) g (f v).
Proof. apply FunctionalExtensionality.functional_extensionality. intro h. unfold fupd. destruct (fld_eqb h g); reflexivity. Qed.
Lemma run_hom : forall p fl,
  run (K := ROps) st m (fun i => f (inp i)) (fun g => f (fl g)) p
  = option_map (fun fl' g => f (fl' g)) (run (K := ROps) st n inp fl p).
Proof.
  induction p as [|[g e] p IH]; intro fl; cbn [run]; [reflexivity|].
  pose proof (eval_hom fl e []) as E. cbn [emap map] in E. rewrite E.
  destruct (eval st n inp fl [] e); cbn [obnd option_map]; [|reflexivity].
  rewrite <- fupd_hom. apply IH.
Qed.
End EHOM.
