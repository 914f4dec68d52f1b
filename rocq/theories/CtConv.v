(** * Flat-array specification of the ctaylor product: subset convolution
    c[s] = sum over the bit subsets u of s of x[u] * y[s-u]. *)
From Coq Require Import Reals Arith List Lia Lra Bool.
From Verif Require Import Scalar RInst CTaylor CtAlg.
Import ListNotations.
Local Open Scope R_scope.

Definition rsum (l : list R) : R := fold_right Rplus 0 l.
Definition subset (u s : nat) : bool := Nat.eqb (Nat.land u s) u.
Definition conv (n : nat) (x y : nat -> R) (s : nat) : R :=
  rsum (map (fun u => x u * y (s - u)%nat) (filter (fun u => subset u s) (seq 0 (2 ^ n)))).

Lemma bit_above n u : (u < 2 ^ n)%nat -> Nat.testbit u n = false.
Proof. intro H. apply Nat.testbit_false. rewrite Nat.div_small by lia. reflexivity. Qed.
Lemma land_pow n u : (u < 2 ^ n)%nat -> Nat.land (2 ^ n) u = 0%nat.
Proof.
  intro H. apply Nat.bits_inj_0. intro m. rewrite Nat.land_spec, Nat.pow2_bits_eqb.
  destruct (Nat.eqb_spec n m); [subst; rewrite bit_above by assumption|]; reflexivity.
Qed.
Lemma bits_hi n u m : (u < 2 ^ n)%nat -> Nat.testbit (2 ^ n + u) m = xorb (n =? m) (Nat.testbit u m).
Proof. intro H. rewrite Nat.add_nocarry_lxor by (apply land_pow; exact H). now rewrite Nat.lxor_spec, Nat.pow2_bits_eqb. Qed.
Lemma land_le u s : (Nat.land u s <= u)%nat.
Proof. apply Nat.ldiff_le. apply Nat.bits_inj_0. intro m. rewrite Nat.ldiff_spec, Nat.land_spec.
  destruct (Nat.testbit u m), (Nat.testbit s m); reflexivity. Qed.
Lemma subset_le u s : subset u s = true -> (u <= s)%nat.
Proof. unfold subset. intro H. apply Nat.eqb_eq in H. rewrite <- H. rewrite Nat.land_comm. apply land_le. Qed.

Lemma land_hi_hi n u s : (u < 2 ^ n)%nat -> (s < 2 ^ n)%nat ->
  Nat.land (2 ^ n + u) (2 ^ n + s) = (2 ^ n + Nat.land u s)%nat.
Proof.
  intros Hu Hs. apply Nat.bits_inj. intro m.
  assert (Hl : (Nat.land u s < 2 ^ n)%nat) by (pose proof (land_le u s); lia).
  rewrite Nat.land_spec, !bits_hi, Nat.land_spec by assumption.
  destruct (Nat.eqb_spec n m); cbn; [subst; rewrite !bit_above by assumption; reflexivity|].
  destruct (Nat.testbit u m), (Nat.testbit s m); reflexivity.
Qed.
Lemma land_lo_hi n u s : (u < 2 ^ n)%nat -> (s < 2 ^ n)%nat ->
  Nat.land u (2 ^ n + s) = Nat.land u s.
Proof.
  intros Hu Hs. apply Nat.bits_inj. intro m.
  rewrite !Nat.land_spec, bits_hi by assumption.
  destruct (Nat.eqb_spec n m); cbn; [subst; rewrite !bit_above by assumption; reflexivity|].
  destruct (Nat.testbit u m), (Nat.testbit s m); reflexivity.
Qed.

Lemma rsum_app l l' : rsum (l ++ l') = rsum l + rsum l'.
Proof. unfold rsum. induction l; cbn; [ring|]. rewrite IHl. ring. Qed.

Lemma map_filter_shift (n : nat) (f g : nat -> R) (p q : nat -> bool) k :
  (forall i, (i < k)%nat -> p (n + i)%nat = q i) -> (forall i, (i < k)%nat -> q i = true -> f (n + i)%nat = g i) ->
  rsum (map f (filter p (seq n k))) = rsum (map g (filter q (seq 0 k))).
Proof.
  induction k; intros Hp Hf; [reflexivity|].
  rewrite !seq_S, !filter_app, !map_app, !rsum_app.
  rewrite IHk by (intros; first [apply Hp; lia | apply Hf; [lia|assumption]]).
  f_equal. cbn. rewrite Hp by lia. destruct (q k) eqn:E; cbn; [|reflexivity].
  rewrite Hf by (auto; lia). reflexivity.
Qed.

Lemma get_add n : forall (x y : rct n) s, get n (ct_add n x y) s = get n x s + get n y s.
Proof.
  induction n; intros x y s; [reflexivity|]. rewrite ct_add_S. cbn [get fst snd].
  destruct (s <? 2 ^ n); apply IHn.
Qed.

Theorem pmul_conv : forall n (x y : rct n) s, (s < 2 ^ n)%nat ->
  get n (pmul n x y) s = conv n (get n x) (get n y) s.
Proof.
  induction n; intros x y s Hs.
  - assert (s = 0)%nat as -> by (cbn in Hs; lia). unfold conv. cbn. ring.
  - rewrite pmul_S. cbn [get fst snd]. unfold conv.
    replace (2 ^ S n)%nat with (2 ^ n + 2 ^ n)%nat by (cbn; lia).
    rewrite seq_app, filter_app, map_app, rsum_app. cbn [Nat.add].
    assert (Hs' : (s < 2 * 2 ^ n)%nat) by (cbn in Hs; lia). clear Hs.
    destruct (Nat.ltb_spec s (2 ^ n)) as [H|H].
    + rewrite IHn by assumption. unfold conv.
      rewrite <- (Rplus_0_r (rsum _)). f_equal; symmetry.
      * apply (map_filter_shift 0); [intros; reflexivity|].
        intros i Hi _. cbn [Nat.add]. rewrite (proj2 (Nat.ltb_lt i _) Hi).
        rewrite (proj2 (Nat.ltb_lt (s - i) (2 ^ n))) by lia. reflexivity.
      * transitivity (rsum (map (fun _ => 0) (filter (fun _ => false) (seq 0 (2 ^ n))))).
        -- apply (map_filter_shift (2 ^ n)); [|discriminate].
           intros i Hi. destruct (subset (2 ^ n + i) s) eqn:E; [|reflexivity]. apply subset_le in E. lia.
        -- induction (seq 0 (2 ^ n)); auto.
    + pose (t := (s - 2 ^ n)%nat). assert (Ht : (t < 2 ^ n)%nat) by (unfold t; lia).
      assert (Es : s = (2 ^ n + t)%nat) by (unfold t; lia). rewrite Es.
      replace (2 ^ n + t - 2 ^ n)%nat with t by lia. rewrite get_add, !IHn by assumption. unfold conv.
      f_equal.
      * symmetry. apply (map_filter_shift 0).
        -- intros i Hi. unfold subset. cbn [Nat.add]. now rewrite land_lo_hi.
        -- intros i Hi E. apply subset_le in E. cbn [Nat.add]. rewrite (proj2 (Nat.ltb_lt i _) Hi).
           rewrite (proj2 (Nat.ltb_ge _ (2 ^ n))) by lia. do 2 f_equal. lia.
      * symmetry. apply (map_filter_shift (2 ^ n)).
        -- intros i Hi. unfold subset. rewrite land_hi_hi by assumption.
           destruct (Nat.eqb_spec (Nat.land i t) i) as [E|E]; [rewrite E; apply Nat.eqb_refl|].
           apply Nat.eqb_neq. lia.
        -- intros i Hi E. apply subset_le in E.
           rewrite (proj2 (Nat.ltb_ge (2 ^ n + i) (2 ^ n))) by lia.
           rewrite (proj2 (Nat.ltb_lt _ (2 ^ n))) by lia. f_equal; f_equal; lia.
Qed.

(** Every element is determined by its flat coefficients. *)
Lemma get_ext : forall n (x y : rct n), (forall s, (s < 2 ^ n)%nat -> get n x s = get n y s) -> x = y.
Proof.
  induction n; intros x y H.
  - exact (H 0%nat (Nat.lt_0_succ _)).
  - assert (E : (2 ^ S n = 2 ^ n + 2 ^ n)%nat) by (cbn; lia).
    apply pair_ext; apply IHn; intros s Hs.
    + specialize (H s). cbn [get] in H. rewrite (proj2 (Nat.ltb_lt s _) Hs) in H. apply H. lia.
    + specialize (H (2 ^ n + s)%nat). cbn [get] in H. rewrite (proj2 (Nat.ltb_ge _ (2 ^ n))) in H by lia.
      replace (2 ^ n + s - 2 ^ n)%nat with s in H by lia. apply H. lia.
Qed.

(** set/get laws of the flat view, for every scalar type. *)
Lemma get_set_same (K : Ops) : forall n (c : ct K n) i v, (i < 2 ^ n)%nat -> get n (set n c i v) i = v.
Proof.
  induction n; intros c i v H; [reflexivity|]. cbn [get set]. cbn in H.
  destruct (Nat.ltb_spec i (2 ^ n)) as [L|L]; cbn [fst snd]; apply IHn; lia.
Qed.
Lemma get_set_other (K : Ops) : forall n (c : ct K n) i j v, (i < 2 ^ n)%nat -> (j < 2 ^ n)%nat -> i <> j ->
  get n (set n c i v) j = get n c j.
Proof.
  induction n; intros c i j v Hi Hj N; [cbn in *; lia|]. cbn [get set]. cbn in Hi, Hj.
  destruct (Nat.ltb_spec i (2 ^ n)), (Nat.ltb_spec j (2 ^ n)); cbn [fst snd]; try reflexivity; apply IHn; lia.
Qed.
