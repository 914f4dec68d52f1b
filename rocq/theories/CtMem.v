(** * Memory-level model of the ctaylor_rec routines
    /repo/external/upstream/taylor/ctaylor.hpp 41-152: the routines receive raw
    pointers; here memory is a total map from addresses to scalars and pointers are
    addresses.  Simplification: addresses are natural numbers counted in units of T. *)
From Coq Require Import QArith ZArith Arith List Lia.
From Verif Require Import Scalar CTaylor.
Import ListNotations.
Local Open Scope ops_scope.

Section Mem.
Context {K : Ops}.

Definition mem := nat -> K.
Definition wr (m : mem) (a : nat) (v : K) : mem := fun b => if Nat.eqb b a then v else m b.

(** mul: generic 43-47; N=0 86; N=1 95-98; N=2 119-124. *)
Definition mem_mul_step (k : nat) (rec : mem -> nat -> nat -> nat -> mem) (m : mem) (dst x y : nat) : mem :=
    match k with
    | O =>
      let m := wr m dst (m dst + m x * m y) in
      wr m (dst + 1)%nat (m (dst + 1)%nat + (m x * m (y + 1)%nat + m (x + 1)%nat * m y))
    | S O =>
      let m := wr m dst (m dst + m x * m y) in
      let m := wr m (dst + 1)%nat (m (dst + 1)%nat + (m x * m (y + 1)%nat + m (x + 1)%nat * m y)) in
      let m := wr m (dst + 2)%nat (m (dst + 2)%nat + (m x * m (y + 2)%nat + m (x + 2)%nat * m y)) in
      wr m (dst + 3)%nat (m (dst + 3)%nat +
         (m x * m (y + 3)%nat + m (x + 3)%nat * m y + m (x + 1)%nat * m (y + 2)%nat + m (x + 2)%nat * m (y + 1)%nat))
    | S (S _) =>
      let m := rec m dst x y in
      let m := rec m (dst + 2 ^ k)%nat (x + 2 ^ k)%nat y in
      rec m (dst + 2 ^ k)%nat x (y + 2 ^ k)%nat
    end.
Fixpoint mem_mul (n : nat) (m : mem) (dst x y : nat) : mem :=
  match n with
  | O => wr m dst (m dst + m x * m y)
  | S k => mem_mul_step k (mem_mul k) m dst x y
  end.

(** mul_set: generic 49-53; N=0 87; N=1 99-102; N=2 125-130. *)
Definition mem_mul_set_step (k : nat) (rec : mem -> nat -> nat -> nat -> mem) (acc : mem -> nat -> nat -> nat -> mem) (m : mem) (dst x y : nat) : mem :=
    match k with
    | O =>
      let m := wr m dst (m x * m y) in
      wr m (dst + 1)%nat (m x * m (y + 1)%nat + m (x + 1)%nat * m y)
    | S O =>
      let m := wr m dst (m x * m y) in
      let m := wr m (dst + 1)%nat (m x * m (y + 1)%nat + m (x + 1)%nat * m y) in
      let m := wr m (dst + 2)%nat (m x * m (y + 2)%nat + m (x + 2)%nat * m y) in
      wr m (dst + 3)%nat
         (m x * m (y + 3)%nat + m (x + 3)%nat * m y + m (x + 1)%nat * m (y + 2)%nat + m (x + 2)%nat * m (y + 1)%nat)
    | S (S _) =>
      let m := rec m dst x y in
      let m := rec m (dst + 2 ^ k)%nat (x + 2 ^ k)%nat y in
      acc m (dst + 2 ^ k)%nat x (y + 2 ^ k)%nat
    end.
Fixpoint mem_mul_set (n : nat) (m : mem) (dst x y : nat) : mem :=
  match n with
  | O => wr m dst (m x * m y)
  | S k => mem_mul_set_step k (mem_mul_set k) (mem_mul k) m dst x y
  end.

(** multo: generic 55-59; N=0 88; N=1 103-106; N=2 131-136. *)
Definition mem_multo_step (k : nat) (rec : mem -> nat -> nat -> mem) (acc : mem -> nat -> nat -> nat -> mem) (m : mem) (dst y : nat) : mem :=
    match k with
    | O =>
      let m := wr m (dst + 1)%nat (m (dst + 1)%nat * m y + m dst * m (y + 1)%nat) in
      wr m dst (m dst * m y)
    | S O =>
      let m := wr m (dst + 3)%nat (m dst * m (y + 3)%nat + m (dst + 3)%nat * m y +
                                   m (dst + 1)%nat * m (y + 2)%nat + m (dst + 2)%nat * m (y + 1)%nat) in
      let m := wr m (dst + 2)%nat (m dst * m (y + 2)%nat + m (dst + 2)%nat * m y) in
      let m := wr m (dst + 1)%nat (m dst * m (y + 1)%nat + m (dst + 1)%nat * m y) in
      wr m dst (m dst * m y)
    | S (S _) =>
      let m := rec m (dst + 2 ^ k)%nat y in
      let m := acc m (dst + 2 ^ k)%nat dst (y + 2 ^ k)%nat in
      rec m dst y
    end.
Fixpoint mem_multo (n : nat) (m : mem) (dst y : nat) : mem :=
  match n with
  | O => wr m dst (m dst * m y)
  | S k => mem_multo_step k (mem_multo k) (mem_mul k) m dst y
  end.

(** multo_skipconst: generic 61-65; N=0 89; N=1 107-110; N=2 137-142. *)
Definition mem_multo_skipconst_step (k : nat) (rec : mem -> nat -> nat -> mem) (acc : mem -> nat -> nat -> nat -> mem) (m : mem) (dst y : nat) : mem :=
    match k with
    | O =>
      let m := wr m (dst + 1)%nat (m dst * m (y + 1)%nat) in
      wr m dst 'z0
    | S O =>
      let m := wr m (dst + 3)%nat (m dst * m (y + 3)%nat +
                                   m (dst + 1)%nat * m (y + 2)%nat + m (dst + 2)%nat * m (y + 1)%nat) in
      let m := wr m (dst + 2)%nat (m dst * m (y + 2)%nat) in
      let m := wr m (dst + 1)%nat (m dst * m (y + 1)%nat) in
      wr m dst 'z0
    | S (S _) =>
      let m := rec m (dst + 2 ^ k)%nat y in
      let m := acc m (dst + 2 ^ k)%nat dst (y + 2 ^ k)%nat in
      rec m dst y
    end.
Fixpoint mem_multo_skipconst (n : nat) (m : mem) (dst y : nat) : mem :=
  match n with
  | O => wr m dst 'z0
  | S k => mem_multo_skipconst_step k (mem_multo_skipconst k) (mem_mul k) m dst y
  end.

(** Unfolding equations of the generic recursion. *)
Lemma mem_mul_S k : mem_mul (S k) = mem_mul_step k (mem_mul k).
Proof. reflexivity. Qed.
Lemma mem_mul_set_S k : mem_mul_set (S k) = mem_mul_set_step k (mem_mul_set k) (mem_mul k).
Proof. reflexivity. Qed.
Lemma mem_multo_S k : mem_multo (S k) = mem_multo_step k (mem_multo k) (mem_mul k).
Proof. reflexivity. Qed.
Lemma mem_multo_skipconst_S k : mem_multo_skipconst (S k) = mem_multo_skipconst_step k (mem_multo_skipconst k) (mem_mul k).
Proof. reflexivity. Qed.
Lemma mem_mul_gen k : (2 <= k)%nat -> forall m dst x y,
  mem_mul (S k) m dst x y =
  mem_mul k (mem_mul k (mem_mul k m dst x y) (dst + 2 ^ k)%nat (x + 2 ^ k)%nat y)
          (dst + 2 ^ k)%nat x (y + 2 ^ k)%nat.
Proof.
  destruct k as [|[|k]]; [lia|lia|]. intros _.
  rewrite mem_mul_S.
  generalize (mem_mul (S (S k))); intro rec. reflexivity.
Qed.
Lemma mem_mul_set_gen k : (2 <= k)%nat -> forall m dst x y,
  mem_mul_set (S k) m dst x y =
  mem_mul k (mem_mul_set k (mem_mul_set k m dst x y) (dst + 2 ^ k)%nat (x + 2 ^ k)%nat y)
          (dst + 2 ^ k)%nat x (y + 2 ^ k)%nat.
Proof.
  destruct k as [|[|k]]; [lia|lia|]. intros _.
  rewrite mem_mul_set_S.
  generalize (mem_mul_set (S (S k))); intro rec. generalize (mem_mul (S (S k))); intro acc. reflexivity.
Qed.
Lemma mem_multo_gen k : (2 <= k)%nat -> forall m dst y,
  mem_multo (S k) m dst y =
  mem_multo k (mem_mul k (mem_multo k m (dst + 2 ^ k)%nat y) (dst + 2 ^ k)%nat dst (y + 2 ^ k)%nat) dst y.
Proof.
  destruct k as [|[|k]]; [lia|lia|]. intros _.
  rewrite mem_multo_S.
  generalize (mem_multo (S (S k))); intro rec. generalize (mem_mul (S (S k))); intro acc. reflexivity.
Qed.
Lemma mem_multo_skipconst_gen k : (2 <= k)%nat -> forall m dst y,
  mem_multo_skipconst (S k) m dst y =
  mem_multo_skipconst k (mem_mul k (mem_multo_skipconst k m (dst + 2 ^ k)%nat y)
                                 (dst + 2 ^ k)%nat dst (y + 2 ^ k)%nat) dst y.
Proof.
  destruct k as [|[|k]]; [lia|lia|]. intros _.
  rewrite mem_multo_skipconst_S.
  generalize (mem_multo_skipconst (S (S k))); intro rec. generalize (mem_mul (S (S k))); intro acc. reflexivity.
Qed.

(** Reading an object of 2^n cells at address p. *)
Fixpoint load (n : nat) (m : mem) (p : nat) : ct K n :=
  match n with O => m p | S k => (load k m p, load k m (p + 2 ^ k)%nat) end.

Definition disjoint (n p q : nat) : Prop := (p + 2 ^ n <= q \/ q + 2 ^ n <= p)%nat.
Definition inside (n p a : nat) : Prop := (p <= a < p + 2 ^ n)%nat.

(** ** Refinement *)
Lemma wr_same m a v : wr m a v a = v.
Proof. unfold wr. now rewrite Nat.eqb_refl. Qed.
Lemma wr_other m a v b : b <> a -> wr m a v b = m b.
Proof. unfold wr. intro H. now rewrite (proj2 (Nat.eqb_neq b a) H). Qed.

Lemma load_ext : forall n m m' p, (forall a, inside n p a -> m' a = m a) -> load n m' p = load n m p.
Proof.
  induction n; intros m m' p H; cbn.
  - apply H. unfold inside. cbn. lia.
  - assert (2 ^ S n = 2 * 2 ^ n)%nat by reflexivity.
    f_equal; apply IHn; intros a Ha; apply H; unfold inside in *; lia.
Qed.

(** [f] touches only the 2^n cells at [dst]. *)
Definition frame (n dst : nat) (m m' : mem) : Prop := forall a, ~ inside n dst a -> m' a = m a.

Lemma frame_load n n' dst p m m' :
  frame n dst m m' -> (p + 2 ^ n' <= dst \/ dst + 2 ^ n <= p)%nat -> load n' m' p = load n' m p.
Proof. intros F D. apply load_ext. intros a Ha. apply F. unfold inside in *. lia. Qed.

Lemma frame_trans n dst m m' m'' : frame n dst m m' -> frame n dst m' m'' -> frame n dst m m''.
Proof. intros F G a H. rewrite (G a H). exact (F a H). Qed.

Lemma frame_lo n dst m m' : frame n dst m m' -> frame (S n) dst m m'.
Proof. intros F a H. apply F. intro C. apply H. unfold inside in *. cbn. lia. Qed.
Lemma frame_hi n dst m m' : frame n (dst + 2 ^ n)%nat m m' -> frame (S n) dst m m'.
Proof. intros F a H. apply F. intro C. apply H. unfold inside in *. cbn. lia. Qed.

Ltac neqs := repeat (rewrite wr_other by lia); repeat (rewrite wr_same); repeat (rewrite wr_other by lia).
Ltac smash := repeat first [rewrite wr_same | rewrite wr_other by lia].

Lemma add0 p : (p + 0)%nat = p. Proof. lia. Qed.

Theorem mem_mul_refines : forall n m dst x y,
  disjoint n dst x -> disjoint n dst y ->
  load n (mem_mul n m dst x y) dst = ct_muladd n (load n m dst) (load n m x) (load n m y) /\
  frame n dst m (mem_mul n m dst x y).
Proof.
  induction n as [|[|[|n]] IH]; intros m dst x y Dx Dy; unfold disjoint in *.
  - cbn in *. split; [smash; reflexivity|]. intros a H. unfold inside in H. cbn in H. smash. reflexivity.
  - clear IH. cbn in *. split; [smash; reflexivity|]. intros a H. unfold inside in H. cbn in H. smash. reflexivity.
  - clear IH. cbn in Dx, Dy. cbn [mem_mul mem_mul_step load ct_muladd muladd_step]. change (2 ^ 1)%nat with 2%nat. change (2 ^ 0)%nat with 1%nat.
    replace (dst + 2 + 1)%nat with (dst + 3)%nat by lia. replace (x + 2 + 1)%nat with (x + 3)%nat by lia.
    replace (y + 2 + 1)%nat with (y + 3)%nat by lia.
    split; [smash; reflexivity|]. intros a H. unfold inside in H. cbn in H. smash. reflexivity.
  - assert (Hk : (2 <= S (S n))%nat) by lia. revert IH Hk Dx Dy. generalize (S (S n)). clear n. intros k IH Hk Dx Dy.
    assert (E : (2 ^ S k = 2 * 2 ^ k)%nat) by reflexivity. rewrite E in *. clear E.
    rewrite (mem_mul_gen k Hk). cbn [load]. rewrite (ct_muladd_gen k Hk). cbn [fst snd].
    destruct (IH m dst x y) as [L1 F1]; [lia|lia|].
    set (m1 := mem_mul k m dst x y) in *.
    destruct (IH m1 (dst + 2 ^ k)%nat (x + 2 ^ k)%nat y)%nat as [L2 F2]; [lia|lia|].
    set (m2 := mem_mul k m1 (dst + 2 ^ k)%nat (x + 2 ^ k)%nat y) in *.
    destruct (IH m2 (dst + 2 ^ k)%nat x (y + 2 ^ k)%nat)%nat as [L3 F3]; [lia|lia|].
    set (m3 := mem_mul k m2 (dst + 2 ^ k)%nat x (y + 2 ^ k)%nat) in *.
    split.
    + f_equal.
      * rewrite (frame_load _ k _ dst _ _ F3) by lia. rewrite (frame_load _ k _ dst _ _ F2) by lia. exact L1.
      * rewrite L3, L2.
        rewrite (frame_load _ k _ x _ _ F2) by lia. rewrite (frame_load _ k _ (y + 2 ^ k)%nat _ _ F2) by lia.
        rewrite !(fun p => frame_load _ k _ p _ _ F1) by lia. reflexivity.
    + eapply frame_trans; [apply frame_lo; exact F1|]. eapply frame_trans; apply frame_hi; eassumption.
Qed.

Theorem mem_mul_set_refines : forall n m dst x y,
  disjoint n dst x -> disjoint n dst y ->
  load n (mem_mul_set n m dst x y) dst = ct_mulset n (load n m x) (load n m y) /\
  frame n dst m (mem_mul_set n m dst x y).
Proof.
  induction n as [|[|[|n]] IH]; intros m dst x y Dx Dy; unfold disjoint in *.
  - cbn in *. split; [smash; reflexivity|]. intros a H. unfold inside in H. cbn in H. smash. reflexivity.
  - clear IH. cbn in *. split; [smash; reflexivity|]. intros a H. unfold inside in H. cbn in H. smash. reflexivity.
  - clear IH. cbn in Dx, Dy. cbn [mem_mul_set mem_mul_set_step load ct_mulset mulset_step]. change (2 ^ 1)%nat with 2%nat. change (2 ^ 0)%nat with 1%nat.
    replace (dst + 2 + 1)%nat with (dst + 3)%nat by lia. replace (x + 2 + 1)%nat with (x + 3)%nat by lia.
    replace (y + 2 + 1)%nat with (y + 3)%nat by lia.
    split; [smash; reflexivity|]. intros a H. unfold inside in H. cbn in H. smash. reflexivity.
  - assert (Hk : (2 <= S (S n))%nat) by lia. revert IH Hk Dx Dy. generalize (S (S n)). clear n. intros k IH Hk Dx Dy.
    assert (E : (2 ^ S k = 2 * 2 ^ k)%nat) by reflexivity. rewrite E in *. clear E.
    rewrite (mem_mul_set_gen k Hk). cbn [load]. rewrite (ct_mulset_gen k Hk). cbn [fst snd].
    destruct (IH m dst x y) as [L1 F1]; [lia|lia|].
    set (m1 := mem_mul_set k m dst x y) in *.
    destruct (IH m1 (dst + 2 ^ k)%nat (x + 2 ^ k)%nat y)%nat as [L2 F2]; [lia|lia|].
    set (m2 := mem_mul_set k m1 (dst + 2 ^ k)%nat (x + 2 ^ k)%nat y) in *.
    destruct (mem_mul_refines k m2 (dst + 2 ^ k)%nat x (y + 2 ^ k)%nat)%nat as [L3 F3]; unfold disjoint; [lia|lia|].
    set (m3 := mem_mul k m2 (dst + 2 ^ k)%nat x (y + 2 ^ k)%nat) in *.
    split.
    + f_equal.
      * rewrite (frame_load _ k _ dst _ _ F3) by lia. rewrite (frame_load _ k _ dst _ _ F2) by lia. exact L1.
      * rewrite L3, L2.
        rewrite (frame_load _ k _ x _ _ F2) by lia. rewrite (frame_load _ k _ (y + 2 ^ k)%nat _ _ F2) by lia.
        rewrite !(fun p => frame_load _ k _ p _ _ F1) by lia. reflexivity.
    + eapply frame_trans; [apply frame_lo; exact F1|]. eapply frame_trans; apply frame_hi; eassumption.
Qed.

Theorem mem_multo_refines : forall n m dst y,
  disjoint n dst y ->
  load n (mem_multo n m dst y) dst = ct_multo n (load n m dst) (load n m y) /\
  frame n dst m (mem_multo n m dst y).
Proof.
  induction n as [|[|[|n]] IH]; intros m dst y Dy; unfold disjoint in *.
  - cbn in *. split; [smash; reflexivity|]. intros a H. unfold inside in H. cbn in H. smash. reflexivity.
  - clear IH. cbn in *. split; [smash; reflexivity|]. intros a H. unfold inside in H. cbn in H. smash. reflexivity.
  - clear IH. cbn in Dy. cbn [mem_multo mem_multo_step load ct_multo multo_step]. change (2 ^ 1)%nat with 2%nat. change (2 ^ 0)%nat with 1%nat.
    replace (dst + 2 + 1)%nat with (dst + 3)%nat by lia.
    replace (y + 2 + 1)%nat with (y + 3)%nat by lia.
    split; [smash; reflexivity|]. intros a H. unfold inside in H. cbn in H. smash. reflexivity.
  - assert (Hk : (2 <= S (S n))%nat) by lia. revert IH Hk Dy. generalize (S (S n)). clear n. intros k IH Hk Dy.
    assert (E : (2 ^ S k = 2 * 2 ^ k)%nat) by reflexivity. rewrite E in *. clear E.
    rewrite (mem_multo_gen k Hk). cbn [load]. rewrite (ct_multo_gen k Hk). cbn [fst snd].
    destruct (IH m (dst + 2 ^ k)%nat y)%nat as [L1 F1]; [lia|].
    set (m1 := mem_multo k m (dst + 2 ^ k)%nat y) in *.
    destruct (mem_mul_refines k m1 (dst + 2 ^ k)%nat dst (y + 2 ^ k)%nat)%nat as [L2 F2]; unfold disjoint; [lia|lia|].
    set (m2 := mem_mul k m1 (dst + 2 ^ k)%nat dst (y + 2 ^ k)%nat) in *.
    destruct (IH m2 dst y)%nat as [L3 F3]; [lia|].
    set (m3 := mem_multo k m2 dst y) in *.
    split.
    + f_equal.
      * rewrite L3. rewrite !(fun p => frame_load _ k _ p _ _ F2) by lia.
        rewrite !(fun p => frame_load _ k _ p _ _ F1) by lia. reflexivity.
      * rewrite (frame_load _ k _ (dst + 2 ^ k)%nat _ _ F3) by lia. rewrite L2, L1.
        rewrite !(fun p => frame_load _ k _ p _ _ F1) by lia. reflexivity.
    + eapply frame_trans; [apply frame_hi; exact F1|].
      eapply frame_trans; [apply frame_hi; exact F2|apply frame_lo; exact F3].
Qed.

Theorem mem_multo_skipconst_refines : forall n m dst y,
  disjoint n dst y ->
  load n (mem_multo_skipconst n m dst y) dst = ct_multo_skipconst n (load n m dst) (load n m y) /\
  frame n dst m (mem_multo_skipconst n m dst y).
Proof.
  induction n as [|[|[|n]] IH]; intros m dst y Dy; unfold disjoint in *.
  - cbn in *. split; [smash; reflexivity|]. intros a H. unfold inside in H. cbn in H. smash. reflexivity.
  - clear IH. cbn in *. split; [smash; reflexivity|]. intros a H. unfold inside in H. cbn in H. smash. reflexivity.
  - clear IH. cbn in Dy. cbn [mem_multo_skipconst mem_multo_skipconst_step load ct_multo_skipconst multo_skipconst_step]. change (2 ^ 1)%nat with 2%nat. change (2 ^ 0)%nat with 1%nat.
    replace (dst + 2 + 1)%nat with (dst + 3)%nat by lia.
    replace (y + 2 + 1)%nat with (y + 3)%nat by lia.
    split; [smash; reflexivity|]. intros a H. unfold inside in H. cbn in H. smash. reflexivity.
  - assert (Hk : (2 <= S (S n))%nat) by lia. revert IH Hk Dy. generalize (S (S n)). clear n. intros k IH Hk Dy.
    assert (E : (2 ^ S k = 2 * 2 ^ k)%nat) by reflexivity. rewrite E in *. clear E.
    rewrite (mem_multo_skipconst_gen k Hk). cbn [load]. rewrite (ct_multo_skipconst_gen k Hk). cbn [fst snd].
    destruct (IH m (dst + 2 ^ k)%nat y)%nat as [L1 F1]; [lia|].
    set (m1 := mem_multo_skipconst k m (dst + 2 ^ k)%nat y) in *.
    destruct (mem_mul_refines k m1 (dst + 2 ^ k)%nat dst (y + 2 ^ k)%nat)%nat as [L2 F2]; unfold disjoint; [lia|lia|].
    set (m2 := mem_mul k m1 (dst + 2 ^ k)%nat dst (y + 2 ^ k)%nat) in *.
    destruct (IH m2 dst y)%nat as [L3 F3]; [lia|].
    set (m3 := mem_multo_skipconst k m2 dst y) in *.
    split.
    + f_equal.
      * rewrite L3. rewrite !(fun p => frame_load _ k _ p _ _ F2) by lia.
        rewrite !(fun p => frame_load _ k _ p _ _ F1) by lia. reflexivity.
      * rewrite (frame_load _ k _ (dst + 2 ^ k)%nat _ _ F3) by lia. rewrite L2, L1.
        rewrite !(fun p => frame_load _ k _ p _ _ F1) by lia. reflexivity.
    + eapply frame_trans; [apply frame_hi; exact F1|].
      eapply frame_trans; [apply frame_hi; exact F2|apply frame_lo; exact F3].
Qed.

(** Aliased in-place multiplication [x *= x] is still correct for at most two variables. *)
Theorem mem_multo_aliased_small : forall n m p, (n <= 2)%nat ->
  load n (mem_multo n m p p) p = ct_multo n (load n m p) (load n m p).
Proof.
  intros [|[|[|n]]] m p H; [| | |lia].
  - cbn. smash. reflexivity.
  - cbn. smash. reflexivity.
  - cbn [mem_multo mem_multo_step load ct_multo multo_step]. change (2 ^ 1)%nat with 2%nat. change (2 ^ 0)%nat with 1%nat.
    replace (p + 2 + 1)%nat with (p + 3)%nat by lia. smash. reflexivity.
Qed.

End Mem.
