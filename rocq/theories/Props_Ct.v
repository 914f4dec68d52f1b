(** * Property theorems: the tensored Taylor numbers (C26, C32) *)
From Coq Require Import Reals QArith ZArith Arith List Lia Lra Ring.
From Verif Require Import Scalar RInst CTaylor CtMem CtAlg CtConv CtMemR TMath Fps.
Local Open Scope R_scope.

(** C26.  Memory is a function from cell addresses to numbers.  For operands in
    pairwise disjoint blocks of 2^n cells every routine leaves in the destination the
    subset convolution of its operands' old contents (the product in
    R[e_1..e_n]/(e_i^2)), and changes no cell outside the destination. *)
Theorem C26_mul_accumulate : forall n (m : nat -> R) dst x y, disjoint n dst x -> disjoint n dst y ->
  (forall s, (s < 2 ^ n)%nat ->
     mem_mul (K := ROps) n m dst x y (dst + s)%nat = m (dst + s)%nat + conv n (cells m x) (cells m y) s) /\
  (forall a, ~ inside n dst a -> mem_mul (K := ROps) n m dst x y a = m a).
Proof. exact mul_cells. Qed.
Print Assumptions C26_mul_accumulate.

Theorem C26_mul_fresh : forall n (m : nat -> R) dst x y, disjoint n dst x -> disjoint n dst y ->
  (forall s, (s < 2 ^ n)%nat ->
     mem_mul_set (K := ROps) n m dst x y (dst + s)%nat = conv n (cells m x) (cells m y) s) /\
  (forall a, ~ inside n dst a -> mem_mul_set (K := ROps) n m dst x y a = m a).
Proof. exact mul_set_cells. Qed.
Print Assumptions C26_mul_fresh.

Theorem C26_mul_inplace : forall n (m : nat -> R) dst y, disjoint n dst y ->
  (forall s, (s < 2 ^ n)%nat ->
     mem_multo (K := ROps) n m dst y (dst + s)%nat = conv n (cells m dst) (cells m y) s) /\
  (forall a, ~ inside n dst a -> mem_multo (K := ROps) n m dst y a = m a).
Proof. exact multo_cells. Qed.
Print Assumptions C26_mul_inplace.

Theorem C26_mul_inplace_skipconst : forall n (m : nat -> R) dst y, disjoint n dst y ->
  (forall s, (s < 2 ^ n)%nat ->
     mem_multo_skipconst (K := ROps) n m dst y (dst + s)%nat =
     conv n (cells m dst) (fun u => if Nat.eqb u 0 then 0 else m (y + u)%nat) s) /\
  (forall a, ~ inside n dst a -> mem_multo_skipconst (K := ROps) n m dst y a = m a).
Proof. exact multo_skipconst_cells. Qed.
Print Assumptions C26_mul_inplace_skipconst.

(** The functional operations used in the evaluation model are what the memory routines
    compute, for every arithmetic (no ring law is used, so also in floating point). *)
Theorem C26_functional_model_refined : forall (K : Ops) n (m : mem (K := K)) dst x y,
  disjoint n dst x -> disjoint n dst y ->
  load n (mem_mul n m dst x y) dst = ct_muladd n (load n m dst) (load n m x) (load n m y) /\
  load n (mem_mul_set n m dst x y) dst = ct_mul n (load n m x) (load n m y) /\
  load n (mem_multo n m dst y) dst = ct_multo n (load n m dst) (load n m y) /\
  load n (mem_multo_skipconst n m dst y) dst = ct_multo_skipconst n (load n m dst) (load n m y).
Proof.
  intros K n m dst x y Hx Hy. repeat split.
  - apply mem_mul_refines; assumption.
  - apply mem_mul_set_refines; assumption.
  - apply mem_multo_refines; assumption.
  - apply mem_multo_skipconst_refines; assumption.
Qed.
Print Assumptions C26_functional_model_refined.

(** Aliased operands: correct up to two variables ... *)
Theorem C26_aliased_small : forall n (m : nat -> R) p s, (n <= 2)%nat -> (s < 2 ^ n)%nat ->
  mem_multo (K := ROps) n m p p (p + s)%nat = conv n (cells m p) (cells m p) s.
Proof. exact aliased_ok_small. Qed.
Print Assumptions C26_aliased_small.

(** ... and wrong for every larger number of variables. *)
Theorem C26_aliased_refuted : forall n, (3 <= n)%nat -> exists (m : nat -> R) p s, (s < 2 ^ n)%nat /\
  mem_multo (K := ROps) n m p p (p + s)%nat <> conv n (cells m p) (cells m p) s.
Proof.
  intros n Hn. exists (fun _ => 2), 0%nat, (2 ^ (n - 1))%nat. split.
  - apply Nat.pow_lt_mono_r; lia.
  - exact (aliased_wrong n Hn 0).
Qed.
Print Assumptions C26_aliased_refuted.

(** Instances: three variables at addresses 0, 8 and 16; one convolution spelled out. *)
Example C26_example_disjoint : disjoint 3 0 8 /\ disjoint 3 0 16.
Proof. unfold disjoint. cbn. lia. Qed.
Example C26_example_conv : forall x y : nat -> R,
  conv 2 x y 3 = x 0%nat * y 3%nat + (x 1%nat * y 2%nat + (x 2%nat * y 1%nat + (x 3%nat * y 0%nat + 0))).
Proof. reflexivity. Qed.

(** C32.  Ring laws of the operators of the library. *)
Theorem C32_commutative_ring : forall n,
  ring_theory (rconst n 0) (rconst n 1) (ct_add n) (ct_mul n) (ct_sub n) (ct_neg n) (@eq (rct n)).
Proof.
  intro n. destruct (ct_ring n). unfold ct_mul. constructor; intros; rewrite ?mulset_spec; auto.
Qed.
Print Assumptions C32_commutative_ring.

(** The product is characterised independently of the recursion; sums, constants are
    componentwise. *)
Theorem C32_product_is_convolution : forall n (x y : rct n) s, (s < 2 ^ n)%nat ->
  get n (ct_mul n x y) s = conv n (get n x) (get n y) s.
Proof. intros. unfold ct_mul. rewrite mulset_spec. apply pmul_conv. assumption. Qed.
Print Assumptions C32_product_is_convolution.

(** All variants of multiplication agree; mixed scalar operators agree with constants. *)
Theorem C32_operators_consistent : forall n (x y d : rct n) (k : R),
  ct_multo n x y = ct_mul n x y /\
  ct_muladd n d x y = ct_add n d (ct_mul n x y) /\
  ct_scale (K := ROps) n k x = ct_mul n (rconst n k) x /\
  ct_scaleto (K := ROps) n k x = ct_mul n (rconst n k) x /\
  ct_addk (K := ROps) n k x = ct_add n (rconst n k) x /\
  ct_subk (K := ROps) n k x = ct_sub n x (rconst n k) /\
  ct_ksub (K := ROps) n k x = ct_sub n (rconst n k) x.
Proof.
  intros. unfold ct_mul. rewrite !mulset_spec. repeat split.
  - apply multo_spec.
  - apply muladd_spec.
  - apply scale_spec.
  - apply scaleto_spec.
  - apply addk_spec.
  - apply subk_spec.
  - apply ksub_spec.
Qed.
Print Assumptions C32_operators_consistent.

(** Division: defined exactly when the constant term is non-zero, and then exact. *)
Theorem C32_division : forall n (x y : rct n),
  (c0 n y <> 0 <-> exists q, ct_div n x y = Some q) /\
  (forall q, ct_div n x y = Some q -> ct_mul n q y = x).
Proof.
  intros n x y. split; [apply div_defined|]. intros q H. unfold ct_mul. rewrite mulset_spec.
  exact (div_mul n x y q H).
Qed.
Print Assumptions C32_division.

Theorem C32_scalar_division : forall n (x : rct n) (k : R) q,
  (ct_kdiv (K := ROps) n k x = Some q -> ct_mul n q x = rconst n k) /\
  (ct_divk (K := ROps) n x k = Some q -> ct_scale (K := ROps) n k q = x).
Proof.
  intros n x k q. split; intro H.
  - unfold ct_mul. rewrite mulset_spec. exact (kdiv_mul n k x q H).
  - exact (divk_mul n x q k H).
Qed.
Print Assumptions C32_scalar_division.

(** Non-negative integer powers are iterated products. *)
Theorem C32_integer_power : forall n (x : rct n) (e : nat),
  ct_powi n x (Z.of_nat e) = Some (Nat.iter e (fun p => ct_mul n p x) (rconst n 1)).
Proof.
  intros n x e. rewrite powi_spec by lia. f_equal. rewrite Nat2Z.id. unfold ct_mul.
  induction e; cbn; [reflexivity|]. rewrite IHe. symmetry. apply mulset_spec.
Qed.
Print Assumptions C32_integer_power.

Example C32_example : ct_div (K := ROps) 1 (6, 1) (2, 3) = Some (3, -4).
Proof.
  unfold ct_div, inv_expand. cbn. rewrite Q2R_0.
  destruct (Reqb 2 0) eqn:E; [apply Reqb_true in E; lra|]. cbn. f_equal.
  apply pair_ext; cbn; rewrite Q2R_1; field.
Qed.
