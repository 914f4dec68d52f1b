(** * Truncation-free Cauchy products of coefficient sequences, and the
    multiplicativity of composition. *)
From Coq Require Import Reals QArith Arith Lia Lra Ring.
From Verif Require Import Scalar RInst CTaylor CtAlg TMath.
Local Open Scope R_scope.

Definition seqD (c : nat -> R) : nat -> R := fun k => INR (S k) * c (S k).
Definition seqS (c : nat -> R) : nat -> R := fun k => c (S k).

Fixpoint cau (c d : nat -> R) (k : nat) : R :=
  match k with
  | O => c O * d O
  | S j => c O * d (S j) + cau (seqS c) d j
  end.

Lemma cau_ext c c' d d' k : (forall i, (i <= k)%nat -> c i = c' i) -> (forall i, (i <= k)%nat -> d i = d' i) ->
  cau c d k = cau c' d' k.
Proof.
  revert c c'. induction k; intros c c' H G; cbn [cau].
  - rewrite H, G by lia. reflexivity.
  - rewrite H, G by lia. f_equal. apply IHk; intros; [apply H|apply G]; lia.
Qed.
Lemma cau_add_l c c' d k : cau (fun i => c i + c' i) d k = cau c d k + cau c' d k.
Proof.
  revert c c'. induction k; intros; cbn [cau]; [ring|].
  change (seqS (fun i => c i + c' i)) with (fun i => seqS c i + seqS c' i). rewrite IHk. ring.
Qed.
Lemma cau_scal_l a c d k : cau (fun i => a * c i) d k = a * cau c d k.
Proof.
  revert c. induction k; intros; cbn [cau]; [ring|].
  change (seqS (fun i => a * c i)) with (fun i => a * seqS c i). rewrite IHk. ring.
Qed.
Lemma cau_scal_r a c d k : cau c (fun i => a * d i) k = a * cau c d k.
Proof. revert c. induction k; intros; cbn [cau]; [ring|]. rewrite IHk. ring. Qed.
Lemma cau_0_l d k : cau (fun _ => 0) d k = 0.
Proof. induction k; cbn [cau]; [ring|]. change (seqS (fun _ => 0)) with (fun _ : nat => 0). rewrite IHk. ring. Qed.

(** Leibniz rule *)
Lemma cau_D c d k : seqD (cau c d) k = cau (seqD c) d k + cau c (seqD d) k.
Proof.
  revert c. induction k; intro c.
  - unfold seqD. cbn. unfold seqS. ring.
  - cbn [cau] in *. unfold seqD at 1. cbn [cau].
    rewrite (cau_ext (seqS (seqD c)) (fun i => seqD (seqS c) i + seqS (seqS c) i) d d)
      by (intros; try reflexivity; unfold seqS, seqD; rewrite (S_INR (S i)); ring).
    rewrite cau_add_l. specialize (IHk (seqS c)). unfold seqD at 1 in IHk. cbn [cau] in IHk.
    unfold seqD at 1 3. rewrite (S_INR (S k)), (S_INR k) in *.
    replace (INR 1) with 1 by reflexivity.
    change (seqS c 0%nat) with (c 1%nat) in *.
    assert (E : cau (seqD (seqS c)) d k =
      (INR k + 1) * (c 1%nat * d (S k) + cau (seqS (seqS c)) d k) - cau (seqS c) (seqD d) k) by lra.
    rewrite E. ring.
Qed.

Lemma cau_comm c d k : cau c d k = cau d c k.
Proof.
  revert c d. induction k; intros c d.
  - cbn. ring.
  - (* compare through the last-term decomposition *)
    assert (L : forall k c d, cau c d (S k) = cau c (seqS d) k + c (S k) * d O).
    { clear. induction k; intros c d; cbn [cau].
      - unfold seqS. ring.
      - cbn [cau] in IHk. rewrite IHk. unfold seqS at 1 3 5. cbn [cau]. unfold seqS. ring. }
    rewrite L. cbn [cau]. rewrite IHk. ring.
Qed.

(** the code's accumulation loop is the Cauchy product *)
Lemma tmulto_cau (z x : nat -> R) i : tmulto (K := ROps) z x i = cau x z i.
Proof.
  unfold tmulto.
  assert (G : forall j, (j <= i)%nat ->
     tmul_acc (K := ROps) x z i j + cau (fun k => x (S (j + k))%nat) z (i - S j) * (if Nat.ltb j i then 1 else 0)
     = cau x z i).
  { induction j; intro H.
    - cbn [tmul_acc Nat.add]. cbn [Omul ROps].
      destruct i as [|i]; [cbn; ring|].
      rewrite (proj2 (Nat.ltb_lt 0 (S i))) by lia. cbn [cau].
      replace (S i - 1)%nat with i by lia. change (fun k => x (S k)) with (seqS x). ring.
    - rewrite <- IHj by lia. cbn [tmul_acc]. cbn [Oadd Omul ROps].
      rewrite (proj2 (Nat.ltb_lt j i)) by lia.
      destruct (Nat.ltb_spec (S j) i) as [L|L].
      + replace (i - S j)%nat with (S (i - S (S j))) by lia. cbn [cau].
        rewrite Nat.add_0_r. unfold seqS.
        rewrite (cau_ext (fun k => x (S (j + S k))) (fun k => x (S (S j + k))) z z)
          by (intros; try reflexivity; f_equal; lia).
        ring.
      + replace (i - S j)%nat with 0%nat by lia. cbn [cau]. rewrite Nat.add_0_r.
        ring. }
  rewrite <- (G i) by lia. rewrite (proj2 (Nat.ltb_ge i i)) by lia.
  symmetry. match goal with |- @eq _ ?a ?b => change (@eq R a b) end. ring.
Qed.

(** ** Composition is multiplicative *)
Lemma pcomp_ext n : forall x c c', (forall k, (k <= n)%nat -> c k = c' k) -> pcomp n x c = pcomp n x c'.
Proof.
  induction n; intros x c c' H; cbn [pcomp]; [apply H; lia|].
  rewrite (IHn (fst x) c c') by (intros; apply H; lia).
  rewrite (IHn (fst x) (fun k => INR (S k) * c (S k)) (fun k => INR (S k) * c' (S k))); [reflexivity|].
  intros k Hk. rewrite H by lia. reflexivity.
Qed.
Lemma pcomp_add n : forall x c d, pcomp n x (fun k => c k + d k) = ct_add n (pcomp n x c) (pcomp n x d).
Proof.
  induction n; intros x c d; cbn [pcomp]; [reflexivity|]. rewrite IHn, ct_add_S. cbn [fst snd]. f_equal.
  rewrite (pcomp_ext n (fst x) _ (fun k => (fun k => INR (S k) * c (S k)) k + (fun k => INR (S k) * d (S k)) k))
    by (intros; cbn beta; ring).
  rewrite IHn. apply pmul_add.
Qed.
Lemma pcomp_scal n : forall a x c, pcomp n x (fun k => a * c k) = pmul n (rconst n a) (pcomp n x c).
Proof.
  induction n; intros a x c; cbn [pcomp]; [reflexivity|]. rewrite IHn, ct_const_S, pmul_S. cbn [fst snd]. f_equal.
  rewrite (pcomp_ext n (fst x) _ (fun k => a * (fun k => INR (S k) * c (S k)) k)) by (intros; cbn beta; ring).
  rewrite IHn, pmul_0, (add_comm n _ (zero n)), add_0. symmetry. apply pmul_assoc.
Qed.
Lemma pcomp_cau n : forall x c d, pcomp n x (cau c d) = pmul n (pcomp n x c) (pcomp n x d).
Proof.
  induction n; intros x c d; cbn [pcomp]; [reflexivity|]. rewrite IHn, pmul_S. cbn [fst snd]. f_equal.
  rewrite (pcomp_ext n (fst x) _ (fun k => cau (seqD c) d k + cau c (seqD d) k))
    by (intros k _; exact (cau_D c d k)).
  rewrite pcomp_add, !IHn. change (fun k => INR (S k) * c (S k)) with (seqD c).
  change (fun k => INR (S k) * d (S k)) with (seqD d).
  rewrite pmul_add. rewrite add_comm. f_equal.
  - symmetry. apply pmul_assoc.
  - rewrite <- !pmul_assoc. f_equal. apply pmul_comm.
Qed.

Definition idseq (a : R) : nat -> R := fun k => match k with O => a | 1%nat => 1 | _ => 0 end.
Definition cseq (a : R) : nat -> R := fun k => match k with O => a | _ => 0 end.
Lemma pcomp_const n : forall x a, pcomp n x (cseq a) = rconst n a.
Proof.
  induction n; intros x a; cbn [pcomp]; [reflexivity|]. rewrite IHn, ct_const_S. f_equal.
  rewrite (pcomp_ext n (fst x) _ (cseq 0)) by (intros [|k] _; cbn [cseq]; ring).
  rewrite IHn. apply pmul_0.
Qed.
Lemma pcomp_id n : forall x, pcomp n x (idseq (c0 n x)) = x.
Proof.
  induction n; intro x; cbn [pcomp]; [reflexivity|]. cbn [c0]. rewrite IHn.
  rewrite (pcomp_ext n (fst x) _ (cseq 1)) by (intros [|[|k]] _; cbn [cseq idseq]; cbn; ring).
  rewrite pcomp_const. change (rconst n 1) with (one n). rewrite pmul_1. now destruct x.
Qed.

Lemma cau_id_r c a k : cau c (idseq a) k = a * c k + match k with O => 0 | S j => c j end.
Proof.
  rewrite cau_comm. destruct k; [cbn; ring|]. cbn [cau]. change (idseq a 0%nat) with a. f_equal.
  rewrite (cau_ext (seqS (idseq a)) (cseq 1) c c) by (intros [|i] _; reflexivity).
  destruct k; cbn [cau]; [cbn; ring|].
  change (seqS (cseq 1)) with (fun _ : nat => 0). rewrite cau_0_l. cbn. ring.
Qed.

Lemma inv_cau a k : a <> 0 -> cau (inv_coef (K := ROps) a) (idseq a) k = cseq 1 k.
Proof.
  intro Ha. rewrite cau_id_r. destruct k; cbn; rewrite Q2R_1; field; exact Ha.
Qed.

(** Division is exact. *)
Theorem div_mul n (x y q : rct n) : ct_div n x y = Some q -> pmul n q y = x.
Proof.
  unfold ct_div, inv_expand. cbn [Oeqb ROps OofQ]. rewrite Q2R_0.
  destruct (Reqb (c0 n y) 0) eqn:E; cbn [obnd]; [discriminate|]. apply Reqb_false in E.
  intro H. injection H as <-. rewrite multo_spec, compose_spec.
  rewrite <- pmul_assoc, (pmul_comm n x y), pmul_assoc.
  rewrite <- (pcomp_id n y) at 3. rewrite <- pcomp_cau.
  rewrite (pcomp_ext n y _ (cseq 1)) by (intros; apply inv_cau; exact E).
  rewrite pcomp_const. apply pmul_1.
Qed.
Lemma div_defined n (x y : rct n) : c0 n y <> 0 <-> exists q, ct_div n x y = Some q.
Proof.
  unfold ct_div, inv_expand. cbn [Oeqb ROps OofQ]. rewrite Q2R_0.
  destruct (Reqb (c0 n y) 0) eqn:E; cbn [obnd].
  - apply Reqb_true in E. split; [contradiction|]. intros [q H]. discriminate.
  - apply Reqb_false in E. split; [eauto|auto].
Qed.

Lemma kdiv_mul n x (y q : rct n) : ct_kdiv n x y = Some q -> pmul n q y = rconst n x.
Proof.
  unfold ct_kdiv, inv_expand. cbn [Oeqb ROps OofQ]. rewrite Q2R_0.
  destruct (Reqb (c0 n y) 0) eqn:E; cbn [obnd]; [discriminate|]. apply Reqb_false in E.
  intro H. injection H as <-. rewrite compose_spec. cbn [Omul ROps].
  transitivity (pmul n (pcomp n y (fun i => inv_coef (K := ROps) (c0 n y) i * x)) (pcomp n y (idseq (c0 n y))));
    [now rewrite pcomp_id|]. rewrite <- pcomp_cau.
  rewrite (pcomp_ext n y _ (cseq x)); [apply pcomp_const|]. intros k _.
  rewrite (cau_ext _ (fun i => x * inv_coef (K := ROps) (c0 n y) i) (idseq (c0 n y)) (idseq (c0 n y)))
    by (intros; cbn; try reflexivity; apply Rmult_comm).
  rewrite cau_scal_l, inv_cau by exact E. destruct k; cbn; ring.
Qed.
Lemma divk_mul n (x q : rct n) k : ct_divk n x k = Some q -> ct_scale n k q = x.
Proof.
  unfold ct_divk. cbn [Oeqb ROps OofQ Odiv]. rewrite Q2R_0, Q2R_1. destruct (Reqb k 0) eqn:E; [discriminate|].
  apply Reqb_false in E. intro H. injection H as <-. rewrite scale_spec, scaleto_spec, pmul_assoc, <- const_mul.
  replace (k * (1 / k)) with 1 by (field; exact E). apply pmul_1.
Qed.

(** Powers with a positive [int] exponent are iterated products. *)
Fixpoint ppow n (x : rct n) (k : nat) : rct n :=
  match k with O => one n | S j => pmul n (ppow n x j) x end.
Lemma powi_spec n (x : rct n) e : (0 <= e)%Z -> ct_powi n x e = Some (ppow n x (Z.to_nat e)).
Proof.
  intro H. unfold ct_powi. destruct (Z.ltb_spec 0 e) as [L|L].
  - f_equal. replace (Z.to_nat e) with (S (Z.to_nat (e - 1))) by lia. generalize (Z.to_nat (e - 1)). clear.
    induction n0; cbn [Nat.iter nat_rect ppow].
    + symmetry. apply pmul_1.
    + change (ct_multo n (Nat.iter n0 (fun res => ct_multo n res x) x) x = pmul n (ppow n x (S n0)) x).
      rewrite IHn0. apply multo_spec.
  - assert (e = 0)%Z as -> by lia. cbn. unfold one. cbn [OofQ ROps]. now rewrite Q2R_1.
Qed.
