(** * The ctaylor operations over the reals: commutative ring, product, composition *)
From Coq Require Import Reals QArith Qreals Lra Lia Arith Ring.
From Verif Require Import Scalar RInst CTaylor.
Local Open Scope R_scope.

Notation rct := (ct ROps).
Notation rconst := (@ct_const ROps).

(** Specification product: (p + e r)(p' + e r') = p p' + e (p r' + r p'), e^2 = 0. *)
Fixpoint pmul (n : nat) : rct n -> rct n -> rct n :=
  match n with
  | O => Rmult
  | S m => fun x y => (pmul m (fst x) (fst y), ct_add m (pmul m (fst x) (snd y)) (pmul m (snd x) (fst y)))
  end.

(** Specification composition: f(p + e r) = f(p) + e f'(p) r, coefficients c k = f^(k)/k!. *)
Fixpoint pcomp (n : nat) : rct n -> (nat -> R) -> rct n :=
  match n with
  | O => fun _ c => c O
  | S m => fun x c => (pcomp m (fst x) c, pmul m (pcomp m (fst x) (fun k => INR (S k) * c (S k))) (snd x))
  end.

Ltac rring := match goal with |- @eq _ ?a ?b => change (@eq R a b) end; cbn; first [reflexivity | ring].

Definition zero n : rct n := rconst n 0.
Definition one n : rct n := rconst n 1.

Ltac ctsimp := cbn [OofQ Oadd Osub Omul Odiv Oopp ROps T]; unfold OofZ, Oof_nat; cbn [OofQ ROps];
  rewrite ?Q2R_0, ?Q2R_1, ?Q2R_Z.

Lemma ct_const_S n x : rconst (S n) x = (rconst n x, zero n).
Proof.
  cbn [ct_const]. f_equal. unfold zero. cbn [OofQ ROps]. rewrite Q2R_0.
  induction n; cbn [ct_fill ct_const OofQ ROps]; [reflexivity|]. rewrite Q2R_0. now rewrite IHn.
Qed.

Lemma pair_ext {A B} (x y : A * B) : fst x = fst y -> snd x = snd y -> x = y.
Proof. destruct x, y; cbn. congruence. Qed.

Lemma ct_add_S n (x y : rct (S n)) : ct_add (S n) x y = (ct_add n (fst x) (fst y), ct_add n (snd x) (snd y)).
Proof. reflexivity. Qed.
Lemma ct_neg_S n (x : rct (S n)) : ct_neg (S n) x = (ct_neg n (fst x), ct_neg n (snd x)).
Proof. reflexivity. Qed.
Lemma ct_sub_S n (x y : rct (S n)) : ct_sub (S n) x y = (ct_sub n (fst x) (fst y), ct_sub n (snd x) (snd y)).
Proof. reflexivity. Qed.
Lemma pmul_S n (x y : rct (S n)) :
  pmul (S n) x y = (pmul n (fst x) (fst y), ct_add n (pmul n (fst x) (snd y)) (pmul n (snd x) (fst y))).
Proof. reflexivity. Qed.

Lemma add_comm n (x y : rct n) : ct_add n x y = ct_add n y x.
Proof. induction n; [apply Rplus_comm|]. rewrite !ct_add_S. now rewrite (IHn (fst x)), (IHn (snd x)). Qed.
Lemma add_assoc n (x y z : rct n) : ct_add n x (ct_add n y z) = ct_add n (ct_add n x y) z.
Proof. induction n; [cbn; ring|]. rewrite !ct_add_S. cbn [fst snd]. now rewrite !IHn. Qed.
Lemma add_0 n (x : rct n) : ct_add n (zero n) x = x.
Proof.
  induction n; [cbn; ring|]. unfold zero. rewrite ct_const_S, ct_add_S. cbn [fst snd].
  change (rconst n 0) with (zero n). rewrite !IHn. now destruct x.
Qed.
Lemma add_neg n (x : rct n) : ct_add n x (ct_neg n x) = zero n.
Proof.
  induction n; [cbn; ring|]. rewrite ct_neg_S, ct_add_S. cbn [fst snd]. rewrite !IHn.
  unfold zero at 3. now rewrite ct_const_S.
Qed.
Lemma sub_def n (x y : rct n) : ct_sub n x y = ct_add n x (ct_neg n y).
Proof. induction n; [cbn; ring|]. rewrite ct_sub_S, ct_neg_S, ct_add_S. cbn [fst snd]. now rewrite !IHn. Qed.

Lemma pmul_comm n (x y : rct n) : pmul n x y = pmul n y x.
Proof.
  induction n; [cbn; ring|]. rewrite !pmul_S. rewrite (IHn (fst x) (fst y)). f_equal.
  rewrite add_comm. f_equal; apply IHn.
Qed.
Lemma pmul_add n (x y z : rct n) : pmul n (ct_add n x y) z = ct_add n (pmul n x z) (pmul n y z).
Proof.
  induction n; [cbn; ring|]. rewrite !pmul_S, !ct_add_S. cbn [fst snd]. rewrite !IHn. f_equal.
  rewrite <- !add_assoc. f_equal. rewrite !add_assoc. f_equal. apply add_comm.
Qed.
Lemma pmul_assoc n (x y z : rct n) : pmul n x (pmul n y z) = pmul n (pmul n x y) z.
Proof.
  induction n; [cbn; ring|]. rewrite !pmul_S. cbn [fst snd]. rewrite IHn. f_equal.
  rewrite (pmul_comm n (fst x)), !pmul_add, <- !add_assoc. f_equal; [|f_equal].
  - rewrite (pmul_comm n _ (fst x)). apply IHn.
  - rewrite (pmul_comm n _ (fst x)). apply IHn.
  - apply IHn.
Qed.
Lemma pmul_0 n (x : rct n) : pmul n (zero n) x = zero n.
Proof.
  induction n; [cbn; ring|]. unfold zero. rewrite ct_const_S, pmul_S. cbn [fst snd].
  change (rconst n 0) with (zero n). now rewrite !IHn, add_0.
Qed.
Lemma pmul_1 n (x : rct n) : pmul n (one n) x = x.
Proof.
  induction n; [cbn; ring|]. unfold one. rewrite ct_const_S, pmul_S. cbn [fst snd].
  change (rconst n 1) with (one n). rewrite !IHn, pmul_0, add_comm, add_0. now destruct x.
Qed.

Lemma ct_ring n : ring_theory (zero n) (one n) (ct_add n) (pmul n) (ct_sub n) (ct_neg n) (@eq (rct n)).
Proof.
  constructor.
  - apply add_0.
  - apply add_comm.
  - apply add_assoc.
  - apply pmul_1.
  - apply pmul_comm.
  - apply pmul_assoc.
  - apply pmul_add.
  - apply sub_def.
  - apply add_neg.
Qed.

(** ** The code's product routines compute the product *)
Lemma muladd_spec n : forall d x y : rct n, ct_muladd n d x y = ct_add n d (pmul n x y).
Proof.
  induction n as [|[|[|n]] IH]; intros d x y.
  - reflexivity.
  - cbn. reflexivity.
  - destruct d as [[d0 d1] [d2 d3]], x as [[x0 x1] [x2 x3]], y as [[y0 y1] [y2 y3]].
    cbn. apply pair_ext; apply pair_ext; rring.
  - rewrite ct_muladd_gen by lia. rewrite ct_add_S, pmul_S. cbn [fst snd]. rewrite !IH. f_equal.
    rewrite <- add_assoc. f_equal. apply add_comm.
Qed.
Lemma mulset_spec n : forall x y : rct n, ct_mulset n x y = pmul n x y.
Proof.
  induction n as [|[|[|n]] IH]; intros x y.
  - reflexivity.
  - cbn. reflexivity.
  - destruct x as [[x0 x1] [x2 x3]], y as [[y0 y1] [y2 y3]]. cbn. apply pair_ext; apply pair_ext; rring.
  - rewrite ct_mulset_gen by lia. rewrite pmul_S. cbn [fst snd]. rewrite !IH, muladd_spec. f_equal.
    apply add_comm.
Qed.
Lemma multo_spec n : forall x y : rct n, ct_multo n x y = pmul n x y.
Proof.
  induction n as [|[|[|n]] IH]; intros x y.
  - reflexivity.
  - cbn. f_equal; rring.
  - destruct x as [[x0 x1] [x2 x3]], y as [[y0 y1] [y2 y3]]. cbn. apply pair_ext; apply pair_ext; rring.
  - rewrite ct_multo_gen by lia. rewrite pmul_S. cbn [fst snd]. rewrite !IH, muladd_spec. f_equal.
    apply add_comm.
Qed.

(** x with its constant coefficient replaced by zero *)
Definition nilpart n (x : rct n) : rct n := @ct_upd0 ROps n (fun _ => 0) x.
Lemma nilpart_S n (x : rct (S n)) : nilpart (S n) x = (nilpart n (fst x), snd x).
Proof. reflexivity. Qed.
Lemma skipconst_spec n : forall x y : rct n, ct_multo_skipconst n x y = pmul n x (nilpart n y).
Proof.
  induction n as [|[|[|n]] IH]; intros x y.
  - unfold nilpart. cbn. rewrite Q2R_0. ring.
  - unfold nilpart. cbn. rewrite Q2R_0. f_equal; rring.
  - destruct x as [[x0 x1] [x2 x3]], y as [[y0 y1] [y2 y3]]. unfold nilpart. cbn. rewrite Q2R_0.
    apply pair_ext; apply pair_ext; rring.
  - rewrite ct_multo_skipconst_gen by lia. rewrite nilpart_S, pmul_S. cbn [fst snd].
    rewrite !IH, muladd_spec. f_equal. apply add_comm.
Qed.

Lemma scale_spec n x (c : rct n) : ct_scale n x c = pmul n (rconst n x) c.
Proof.
  induction n; [reflexivity|]. unfold ct_scale in *. cbn [ct_map]. rewrite ct_const_S, pmul_S. cbn [fst snd].
  rewrite !IHn, pmul_0, add_comm, add_0. reflexivity.
Qed.
Lemma scaleto_spec n x (c : rct n) : ct_scaleto n x c = pmul n (rconst n x) c.
Proof.
  induction n; [cbn; ring|]. unfold ct_scaleto in *. cbn [ct_map]. rewrite ct_const_S, pmul_S. cbn [fst snd].
  rewrite !IHn, pmul_0, add_comm, add_0. reflexivity.
Qed.
Lemma upd0_add n x (c : rct n) : @ct_upd0 ROps n (fun r => r + x) c = ct_add n (rconst n x) c.
Proof.
  induction n; [cbn; ring|]. cbn [ct_upd0]. rewrite IHn, ct_const_S, ct_add_S. cbn [fst snd].
  now rewrite add_0.
Qed.
Lemma addk_spec n x (c : rct n) : ct_addk n x c = ct_add n (rconst n x) c.
Proof. apply upd0_add. Qed.
Lemma ct_upd0_ext n f g (c : rct n) : (forall x, f x = g x) -> @ct_upd0 ROps n f c = @ct_upd0 ROps n g c.
Proof. intro H. induction n; cbn [ct_upd0]; [apply H|now rewrite IHn]. Qed.
Lemma const_neg n x : rconst n (- x) = ct_neg n (rconst n x).
Proof.
  induction n; [reflexivity|]. rewrite !ct_const_S, ct_neg_S. cbn [fst snd]. rewrite IHn. f_equal.
  unfold zero. clear. induction n; [cbn; ring|]. rewrite ct_const_S, ct_neg_S. cbn [fst snd].
  rewrite <- IHn at 1. f_equal. exact IHn.
Qed.
Lemma const_add n x y : rconst n (x + y) = ct_add n (rconst n x) (rconst n y).
Proof. induction n; [reflexivity|]. rewrite !ct_const_S, ct_add_S. cbn [fst snd]. now rewrite IHn, add_0. Qed.
Lemma const_mul n x y : rconst n (x * y) = pmul n (rconst n x) (rconst n y).
Proof.
  induction n; [reflexivity|]. rewrite !ct_const_S, pmul_S. cbn [fst snd]. rewrite IHn. f_equal.
  now rewrite pmul_0, pmul_comm, pmul_0, add_0.
Qed.
Lemma subk_spec n x (c : rct n) : ct_subk n x c = ct_sub n c (rconst n x).
Proof.
  unfold ct_subk. rewrite (ct_upd0_ext n _ (fun r => r + - x)) by (intro; cbn; ring).
  rewrite upd0_add, const_neg, sub_def. apply add_comm.
Qed.
Lemma ksub_spec n x (c : rct n) : ct_ksub n x c = ct_sub n (rconst n x) c.
Proof. unfold ct_ksub. rewrite upd0_add, sub_def. reflexivity. Qed.

(** ** Composition *)
(** Horner sums of degree [m] in the nilpotent part. *)
Fixpoint hor n (d : rct n) (c : nat -> R) (m : nat) : rct n :=
  match m with
  | O => rconst n (c O)
  | S k => ct_add n (rconst n (c O)) (pmul n d (hor n d (fun i => c (S i)) k))
  end.

Lemma hor_ext n d c c' m : (forall i, c i = c' i) -> hor n d c m = hor n d c' m.
Proof.
  revert c c'. induction m; intros c c' H; cbn [hor]; [now rewrite H|].
  rewrite H. rewrite (IHm _ (fun i => c' (S i))); [reflexivity|]. intro; apply H.
Qed.

Section RingN.
Variable n : nat.
Add Ring ctr : (ct_ring n).
Notation "x '+c' y" := (ct_add n x y) (at level 50, left associativity).
Notation "x '*c' y" := (pmul n x y) (at level 40, left associativity).

Lemma hor_add d c c' m : hor n d (fun i => c i + c' i) m = hor n d c m +c hor n d c' m.
Proof.
  revert c c'. induction m; intros c c'; cbn [hor]; [apply const_add|].
  rewrite (IHm (fun i => c (S i)) (fun i => c' (S i))). rewrite const_add. ring.
Qed.

(** derivative part of a Horner sum *)
Fixpoint dhor (d : rct n) (c : nat -> R) (m : nat) : rct n :=
  match m with
  | O => zero n
  | S k => d *c dhor d (fun i => c (S i)) k +c hor n d (fun i => c (S i)) k
  end.

Lemma hor_pair (p r : rct n) c m :
  hor (S n) (p, r) c m = (hor n p c m, dhor p c m *c r).
Proof.
  revert c. induction m; intro c; cbn [hor dhor].
  - rewrite ct_const_S. f_equal. ring.
  - rewrite ct_const_S, IHm, pmul_S, ct_add_S. cbn [fst snd]. f_equal. ring.
Qed.

Lemma dhor_hor d c m : dhor d c (S m) = hor n d (fun i => INR (S i) * c (S i)) m.
Proof.
  revert c. induction m; intro c.
  - cbn. rewrite Rmult_1_l. ring.
  - change (dhor d c (S (S m))) with (d *c dhor d (fun i => c (S i)) (S m) +c hor n d (fun i => c (S i)) (S m)).
    rewrite IHm. cbn [hor].
    rewrite (hor_ext n d (fun i => INR (S (S i)) * c (S (S i))) (fun i => INR (S i) * c (S (S i)) + c (S (S i))) m)
      by (intro i; rewrite (S_INR (S i)); ring).
    rewrite hor_add. replace (INR 1) with 1 by reflexivity. rewrite Rmult_1_l. ring.
Qed.
End RingN.

Lemma hor_pcomp : forall n x c m, (n <= m)%nat -> hor n (nilpart n x) c m = pcomp n x c.
Proof.
  induction n; intros x c m H.
  - revert c. induction m; intro c; [reflexivity|]. cbn [hor pcomp]. unfold nilpart. cbn. ring.
  - destruct m as [|m]; [lia|]. rewrite nilpart_S, hor_pair. cbn [pcomp]. rewrite IHn by lia. f_equal.
    rewrite dhor_hor, IHn by lia. reflexivity.
Qed.

Lemma compose_loop_spec n x c : forall i (m : nat),
  compose_loop n x c i (hor n (nilpart n x) (fun k => c (i + k)%nat) m)
  = hor n (nilpart n x) c (i + m).
Proof.
  induction i; intro m; cbn [compose_loop Nat.add].
  - reflexivity.
  - rewrite <- (IHi (S m)) || idtac.
    replace (i + S m)%nat with (S (i + m)) in IHi by lia.
    rewrite skipconst_spec.
    change (fun r : ROps => (r + c i)%ops) with (fun r : R => r + c i). rewrite upd0_add.
    replace (S (i + m)) with (i + S m)%nat by lia. rewrite <- IHi.
    cbn [hor]. f_equal. rewrite Nat.add_0_r. f_equal. rewrite pmul_comm. f_equal.
    apply hor_ext. intro k. f_equal. lia.
Qed.

Lemma compose_gen n : (3 <= n)%nat -> forall (x : rct n) c,
  ct_compose n x c = compose_loop n x c n (rconst n (c n)).
Proof. destruct n as [|[|[|n]]]; [lia|lia|lia|reflexivity]. Qed.

Theorem compose_spec : forall n (x : rct n) c, ct_compose n x c = pcomp n x c.
Proof.
  intros n x c. destruct (Nat.lt_ge_cases n 3) as [H|H].
  - destruct n as [|[|[|k]]]; [| | |lia].
    + reflexivity.
    + cbn. f_equal. rring.
    + destruct x as [[x0 x1] [x2 x3]]. cbn. ctsimp. apply pair_ext; apply pair_ext; rring.
  - etransitivity; [exact (compose_gen n H x c)|].
    replace (rconst n (c n)) with (hor n (nilpart n x) (fun k => c (n + k)%nat) 0)
      by (cbn [hor]; now rewrite Nat.add_0_r).
    rewrite compose_loop_spec. apply hor_pcomp. lia.
Qed.
