(** * Memory-level routines over the reals: flat convolution statements and the
    aliasing failure *)
From Coq Require Import Reals Arith List Lia Lra Bool.
From Verif Require Import Scalar RInst CTaylor CtMem CtAlg CtConv.
Local Open Scope R_scope.

Lemma get_load n : forall (m : nat -> R) p s, (s < 2 ^ n)%nat -> get n (load (K := ROps) n m p) s = m (p + s)%nat.
Proof.
  induction n; intros m p s H.
  - assert (s = 0)%nat as -> by (cbn in H; lia). cbn. f_equal. lia.
  - cbn [get load fst snd]. assert (2 ^ S n = 2 * 2 ^ n)%nat by reflexivity.
    destruct (Nat.ltb_spec s (2 ^ n)).
    + apply IHn. lia.
    + rewrite IHn by lia. f_equal. lia.
Qed.

Lemma conv_ext n x x' y y' s : (s < 2 ^ n)%nat -> (forall u, (u < 2 ^ n)%nat -> x u = x' u) ->
  (forall u, (u < 2 ^ n)%nat -> y u = y' u) -> conv n x y s = conv n x' y' s.
Proof.
  intros H X Y. unfold conv. f_equal. apply map_ext_in. intros u Hu.
  apply filter_In in Hu as [Hu _]. apply in_seq in Hu. rewrite X, Y by lia. reflexivity.
Qed.

Definition cells (m : nat -> R) (p : nat) : nat -> R := fun u => m (p + u)%nat.

Lemma pmul_load n m x y s : (s < 2 ^ n)%nat ->
  get n (pmul n (load (K := ROps) n m x) (load (K := ROps) n m y)) s = conv n (cells m x) (cells m y) s.
Proof.
  intro H. rewrite pmul_conv by exact H. apply conv_ext; [exact H| |]; intros; apply get_load; assumption.
Qed.

Theorem mul_cells n (m : nat -> R) dst x y : disjoint n dst x -> disjoint n dst y ->
  (forall s, (s < 2 ^ n)%nat ->
     mem_mul (K := ROps) n m dst x y (dst + s)%nat = m (dst + s)%nat + conv n (cells m x) (cells m y) s) /\
  (forall a, ~ inside n dst a -> mem_mul (K := ROps) n m dst x y a = m a).
Proof.
  intros Dx Dy. destruct (mem_mul_refines (K := ROps) n m dst x y Dx Dy) as [H F]. split; [|exact F].
  intros s Hs. rewrite <- (get_load n _ dst s Hs), H, muladd_spec, get_add, pmul_load by exact Hs.
  now rewrite get_load.
Qed.
Theorem mul_set_cells n (m : nat -> R) dst x y : disjoint n dst x -> disjoint n dst y ->
  (forall s, (s < 2 ^ n)%nat ->
     mem_mul_set (K := ROps) n m dst x y (dst + s)%nat = conv n (cells m x) (cells m y) s) /\
  (forall a, ~ inside n dst a -> mem_mul_set (K := ROps) n m dst x y a = m a).
Proof.
  intros Dx Dy. destruct (mem_mul_set_refines (K := ROps) n m dst x y Dx Dy) as [H F]. split; [|exact F].
  intros s Hs. rewrite <- (get_load n _ dst s Hs), H, mulset_spec, pmul_load by exact Hs. reflexivity.
Qed.
Theorem multo_cells n (m : nat -> R) dst y : disjoint n dst y ->
  (forall s, (s < 2 ^ n)%nat ->
     mem_multo (K := ROps) n m dst y (dst + s)%nat = conv n (cells m dst) (cells m y) s) /\
  (forall a, ~ inside n dst a -> mem_multo (K := ROps) n m dst y a = m a).
Proof.
  intros Dy. destruct (mem_multo_refines (K := ROps) n m dst y Dy) as [H F]. split; [|exact F].
  intros s Hs. rewrite <- (get_load n _ dst s Hs), H, multo_spec, pmul_load by exact Hs. reflexivity.
Qed.

Lemma get_nilpart n : forall (c : rct n) s, (s < 2 ^ n)%nat ->
  get n (nilpart n c) s = if Nat.eqb s 0 then 0 else get n c s.
Proof.
  induction n; intros c s H.
  - assert (s = 0)%nat as -> by (cbn in H; lia). unfold nilpart. cbn. ring.
  - rewrite nilpart_S. cbn [get fst snd]. assert (2 ^ S n = 2 * 2 ^ n)%nat by reflexivity.
    destruct (Nat.ltb_spec s (2 ^ n)).
    + apply IHn. lia.
    + assert (0 < 2 ^ n)%nat by (apply Nat.neq_0_lt_0, Nat.pow_nonzero; lia).
      rewrite (proj2 (Nat.eqb_neq s 0)) by lia. reflexivity.
Qed.
Theorem multo_skipconst_cells n (m : nat -> R) dst y : disjoint n dst y ->
  (forall s, (s < 2 ^ n)%nat ->
     mem_multo_skipconst (K := ROps) n m dst y (dst + s)%nat =
     conv n (cells m dst) (fun u => if Nat.eqb u 0 then 0 else m (y + u)%nat) s) /\
  (forall a, ~ inside n dst a -> mem_multo_skipconst (K := ROps) n m dst y a = m a).
Proof.
  intros Dy. destruct (mem_multo_skipconst_refines (K := ROps) n m dst y Dy) as [H F]. split; [|exact F].
  intros s Hs. rewrite <- (get_load n _ dst s Hs), H, skipconst_spec, pmul_conv by exact Hs.
  apply conv_ext; [exact Hs| |]; intros u Hu.
  - apply get_load; assumption.
  - rewrite get_nilpart by exact Hu. destruct (Nat.eqb u 0); [reflexivity|]. apply get_load; exact Hu.
Qed.

(** ** Aliased operands *)
Lemma mem_mul_frame n : forall (m : nat -> R) dst x y, frame (K := ROps) n dst m (mem_mul (K := ROps) n m dst x y).
Proof.
  induction n as [|[|[|n]] IH]; intros m dst x y a Ha; unfold inside in Ha.
  - cbn. cbn in Ha. now rewrite wr_other by lia.
  - cbn. cbn in Ha. now rewrite !wr_other by lia.
  - cbn. cbn in Ha. now rewrite !wr_other by lia.
  - assert (E : (2 ^ S (S (S n)) = 2 * 2 ^ S (S n))%nat) by reflexivity. rewrite E in Ha.
    rewrite mem_mul_gen by lia. rewrite !IH; [reflexivity|..]; unfold inside; lia.
Qed.
Lemma mem_mul_cell0 n : forall (m : nat -> R) dst x y, (x + 2 ^ n <= dst)%nat -> 
  mem_mul (K := ROps) n m dst x y dst = m dst + m x * m y.
Proof.
  induction n as [|[|[|n]] IH]; intros m dst x y Hx.
  - cbn. now rewrite wr_same.
  - cbn. rewrite wr_other by lia. now rewrite wr_same.
  - cbn. rewrite !wr_other by lia. now rewrite wr_same.
  - assert (E : (2 ^ S (S (S n)) = 2 * 2 ^ S (S n))%nat) by reflexivity. rewrite E in Hx.
    assert (0 < 2 ^ S (S n))%nat by (apply Nat.neq_0_lt_0, Nat.pow_nonzero; lia).
    rewrite mem_mul_gen by lia. rewrite !mem_mul_frame by (unfold inside; lia).
    apply IH. lia.
Qed.
Lemma mem_multo_frame n : forall (m : nat -> R) dst y, frame (K := ROps) n dst m (mem_multo (K := ROps) n m dst y).
Proof.
  induction n as [|[|[|n]] IH]; intros m dst y a Ha; unfold inside in Ha.
  - cbn. cbn in Ha. now rewrite wr_other by lia.
  - cbn. cbn in Ha. now rewrite !wr_other by lia.
  - cbn. cbn in Ha. now rewrite !wr_other by lia.
  - assert (E : (2 ^ S (S (S n)) = 2 * 2 ^ S (S n))%nat) by reflexivity. rewrite E in Ha.
    rewrite mem_multo_gen by lia. rewrite IH by (unfold inside; lia).
    rewrite mem_mul_frame by (unfold inside; lia). apply IH. unfold inside; lia.
Qed.

(** [x *= x] for three or more variables: with every coefficient equal to 2 the
    coefficient of the last variable becomes 12 instead of 8. *)
Theorem aliased_wrong n : (3 <= n)%nat -> forall p,
  let m := fun _ : nat => 2 in
  mem_multo (K := ROps) n m p p (p + 2 ^ (n - 1))%nat <> conv n (cells m p) (cells m p) (2 ^ (n - 1))%nat.
Proof.
  intros Hn p m. destruct n as [|n]; [lia|]. replace (S n - 1)%nat with n by lia.
  assert (P : (0 < 2 ^ n)%nat) by (apply Nat.neq_0_lt_0, Nat.pow_nonzero; lia).
  assert (Hs : (2 ^ n < 2 ^ S n)%nat) by (cbn; lia).
  rewrite <- pmul_load by exact Hs. rewrite pmul_S. cbn [load fst snd get].
  rewrite (proj2 (Nat.ltb_ge _ _) (Nat.le_refl _)), Nat.sub_diag, get_add, !pmul_load by exact P.
  assert (C : forall q q', conv n (cells m q) (cells m q') 0 = 4).
  { intros q q'. unfold conv. replace (2 ^ n)%nat with (S (2 ^ n - 1)) by lia. cbn [seq filter].
    change (subset 0 0) with true. cbn [map rsum fold_right].
    replace (filter (fun u => subset u 0) (seq 1 (2 ^ n - 1))) with (@nil nat).
    - cbn. unfold cells, m. ring.
    - symmetry. generalize (2 ^ n - 1)%nat. intro k. assert (G : forall s, (1 <= s)%nat -> filter (fun u => subset u 0) (seq s k) = nil).
      { induction k; intros s Hk; [reflexivity|]. cbn [seq filter]. unfold subset. rewrite Nat.land_0_r.
        destruct s; [lia|]. cbn [Nat.eqb]. apply IHk. lia. }
      apply G. lia. }
  rewrite !C. rewrite mem_multo_gen by lia.
  rewrite mem_multo_frame by (unfold inside; lia).
  rewrite mem_mul_cell0 by lia.
  rewrite (mem_multo_frame n m (p + 2 ^ n) p p) by (unfold inside; lia).
  assert (D : disjoint n (p + 2 ^ n) p) by (unfold disjoint; lia).
  destruct (multo_cells n m (p + 2 ^ n) p D) as [H _]. specialize (H 0%nat P). rewrite Nat.add_0_r in H.
  rewrite H, C. unfold m. intro E. lra.
Qed.

Theorem aliased_ok_small n (m : nat -> R) p s : (n <= 2)%nat -> (s < 2 ^ n)%nat ->
  mem_multo (K := ROps) n m p p (p + s)%nat = conv n (cells m p) (cells m p) s.
Proof.
  intros Hn Hs. rewrite <- (get_load n _ p s Hs), mem_multo_aliased_small by exact Hn.
  now rewrite multo_spec, pmul_load.
Qed.
