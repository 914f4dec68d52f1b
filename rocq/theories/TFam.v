(** * Families of Taylor coefficients
    [is_fam D N t]: on the open set D the functions t 0, t 1, ... t N satisfy
    (t k)' = (k+1) t (k+1), i.e. t k = (t 0)^(k) / k!.  Every expansion routine of
    tmath.hpp is shown to produce such a family as its expansion point varies. *)
From Coq Require Import Reals QArith Qreals Arith Lia Lra ZArith.
From Coquelicot Require Import Coquelicot.
From Verif Require Import Scalar RInst CTaylor CtAlg TMath Fps.
Local Open Scope R_scope.

Definition is_fam (D : R -> Prop) (N : nat) (t : nat -> R -> R) : Prop :=
  forall k x, (k < N)%nat -> D x -> is_derive (t k) x (INR (S k) * t (S k) x).

Lemma fam_le D N M t : (N <= M)%nat -> is_fam D M t -> is_fam D N t.
Proof. intros L H k x Hk. apply H. lia. Qed.
Lemma fam_sub (D D' : R -> Prop) N t : (forall x, D' x -> D x) -> is_fam D N t -> is_fam D' N t.
Proof. intros L H k x Hk Hx. apply H; auto. Qed.

Lemma fam_ext (D : R -> Prop) N t t' : open D ->
  (forall k x, (k <= N)%nat -> D x -> t k x = t' k x) -> is_fam D N t -> is_fam D N t'.
Proof.
  intros O E H k x Hk Hx. rewrite <- E by (lia || assumption).
  apply is_derive_ext_loc with (t k); [|apply H; assumption].
  apply filter_imp with D; [intros y Hy; apply E; [lia|assumption]|]. apply O. exact Hx.
Qed.

Lemma open_true : open (fun _ : R => True).
Proof. intros x _. apply filter_true. Qed.
Lemma open_pos : open (fun x : R => 0 < x).
Proof. exact (open_gt 0). Qed.
Lemma open_nz : open (fun x : R => x <> 0).
Proof. exact (open_neq 0). Qed.

Lemma is_derive_val (f : R -> R) (x l l' : R) : is_derive f x l -> l = l' -> is_derive f x l'.
Proof. intros H <-. exact H. Qed.

Lemma d_ext (f g : R -> R) (x a : R) : (forall y, f y = g y) -> is_derive f x a -> is_derive g x a.
Proof. intros E H. apply is_derive_ext with f; assumption. Qed.
(** derivative rules with plain real operations *)
Lemma d_plus (f g : R -> R) (x a b : R) : is_derive f x a -> is_derive g x b ->
  is_derive (fun y => f y + g y) x (a + b).
Proof. intros. apply (is_derive_plus f g); assumption. Qed.
Lemma d_minus (f g : R -> R) (x a b : R) : is_derive f x a -> is_derive g x b ->
  is_derive (fun y => f y - g y) x (a - b).
Proof. intros. apply (is_derive_minus f g); assumption. Qed.
Lemma d_opp (f : R -> R) (x a : R) : is_derive f x a -> is_derive (fun y => - f y) x (- a).
Proof. intros. apply (is_derive_opp f); assumption. Qed.
Lemma d_mult (f g : R -> R) (x a b : R) : is_derive f x a -> is_derive g x b ->
  is_derive (fun y => f y * g y) x (a * g x + f x * b).
Proof. intros. apply (is_derive_mult f g); try assumption. exact Rmult_comm. Qed.
Lemma d_const (c x : R) : is_derive (fun _ : R => c) x 0.
Proof. apply (is_derive_const c x). Qed.
Lemma d_id (x : R) : is_derive (fun y : R => y) x 1.
Proof. apply (is_derive_id x). Qed.
Lemma d_comp (f g : R -> R) (x a b : R) : is_derive f (g x) a -> is_derive g x b ->
  is_derive (fun y => f (g y)) x (a * b).
Proof.
  intros. eapply is_derive_val; [apply (is_derive_comp f g); eassumption|]. apply Rmult_comm.
Qed.
Lemma d_scal (f : R -> R) (c x a : R) : is_derive f x a -> is_derive (fun y => c * f y) x (c * a).
Proof. intros. apply is_derive_scal; assumption. Qed.
Lemma d_inv (f : R -> R) (x a : R) : is_derive f x a -> f x <> 0 -> is_derive (fun y => / f y) x (- a / (f x * f x)).
Proof. intros H N. eapply is_derive_val; [apply (is_derive_inv f x a H N)|]. field. exact N. Qed.

(** The coefficients are the derivatives divided by factorials. *)
Theorem fam_derive_n (D : R -> Prop) N t : open D -> is_fam D N t ->
  forall k x, (k <= N)%nat -> D x -> is_derive_n (t O) k x (INR (fact k) * t k x).
Proof.
  intros O H. induction k; intros x Hk Hx.
  - cbn. ring.
  - cbn [is_derive_n].
    apply is_derive_ext_loc with (fun y => INR (fact k) * t k y).
    + apply filter_imp with D; [|apply O; exact Hx]. intros y Hy. symmetry.
      apply is_derive_n_unique. apply IHk; [lia|exact Hy].
    + eapply is_derive_val; [apply is_derive_scal; apply H; [lia|exact Hx]|].
      rewrite fact_simpl, mult_INR. ring.
Qed.

(** ** Closure properties *)
Lemma fam_add D N t u : is_fam D N t -> is_fam D N u -> is_fam D N (fun k x => t k x + u k x).
Proof.
  intros H G k x Hk Hx. eapply is_derive_val; [apply (d_plus (t k) (u k)); [apply H|apply G]; assumption|].
  ring.
Qed.
Lemma fam_scal D N a t : is_fam D N t -> is_fam D N (fun k x => a * t k x).
Proof.
  intros H k x Hk Hx. eapply is_derive_val; [apply is_derive_scal, H; assumption|]. ring.
Qed.

Lemma cau_derive D N t : is_fam D N t -> forall (u : nat -> R -> R) k x, (k < N)%nat -> D x ->
  (forall j, (j <= k)%nat -> is_derive (u j) x (INR (S j) * u (S j) x)) ->
  forall k', (k' <= k)%nat -> forall s, (k' + s <= k)%nat ->
  is_derive (fun y => cau (fun i => t (s + i)%nat y) (fun i => u i y) k') x
    (cau (fun i => INR (S (s + i)) * t (S (s + i)) x) (fun i => u i x) k' +
     cau (fun i => t (s + i)%nat x) (fun i => INR (S i) * u (S i) x) k').
Proof.
  intros H u k x Hk Hx G. induction k'; intros Lk s Ls.
  - cbn [cau]. eapply is_derive_val.
    + apply (d_mult (fun y => t (s + 0)%nat y) (fun y => u 0%nat y)); [apply H; [lia|exact Hx]|apply G; lia].
    + reflexivity.
  - cbn [cau]. eapply is_derive_val.
    + apply (d_plus (fun y => t (s + 0)%nat y * u (S k') y)
             (fun y => cau (seqS (fun i => t (s + i)%nat y)) (fun i => u i y) k')).
      * apply (d_mult (fun y => t (s + 0)%nat y) (fun y => u (S k') y)); [apply H; [lia|exact Hx]|apply G; lia].
      * apply is_derive_ext with (fun y => cau (fun i => t (S s + i)%nat y) (fun i => u i y) k').
        { intro y. apply cau_ext; intros; [|reflexivity]. unfold seqS. f_equal. lia. }
        apply IHk'; lia.
    + rewrite (cau_ext (seqS (fun i => INR (S (s + i)) * t (S (s + i)) x)) (fun i => INR (S (S s + i)) * t (S (S s + i)) x)
          (fun i => u i x) (fun i => u i x))
        by (intros; try reflexivity; unfold seqS; do 3 f_equal; lia).
      rewrite (cau_ext (seqS (fun i => t (s + i)%nat x)) (fun i => t (S s + i)%nat x)
          (fun i => INR (S i) * u (S i) x) (fun i => INR (S i) * u (S i) x))
        by (intros; try reflexivity; unfold seqS; f_equal; lia).
      ring.
Qed.

Lemma fam_mul D N t u : is_fam D N t -> is_fam D N u ->
  is_fam D N (fun k x => cau (fun i => t i x) (fun i => u i x) k).
Proof.
  intros H G k x Hk Hx.
  eapply is_derive_val.
  - apply (cau_derive D N t H u k x Hk Hx) with (k' := k) (s := 0%nat); try lia.
    intros j Hj. apply G; [lia|exact Hx].
  - cbn [Nat.add]. symmetry. exact (cau_D (fun i => t i x) (fun i => u i x) k).
Qed.

(** integration: a family for f' gives one for f *)
Lemma fam_int D N t F : is_fam D N t -> (forall x, D x -> is_derive F x (t O x)) ->
  is_fam D (S N) (fun k x => match k with O => F x | S j => t j x / INR (S j) end).
Proof.
  intros H G [|k] x Hk Hx.
  - eapply is_derive_val; [apply G; exact Hx|]. cbn. field.
  - eapply is_derive_val.
    + apply d_ext with (fun y => / INR (S k) * t k y); [intro; unfold Rdiv; ring|].
      apply is_derive_scal, H; [lia|exact Hx].
    + field. split; apply not_0_INR; lia.
Qed.

(** ** Composition up to degree 6 (the polynomials of tfuns::compose) *)
Section Comp.
Variables (D E : R -> Prop) (N : nat) (f X : nat -> R -> R).
Hypothesis (HN : (N <= 6)%nat).
Hypothesis (Hf : is_fam E N f).
Hypothesis (HX : is_fam D N X).
Hypothesis (HE : forall x, D x -> E (X O x)).

Let F j x := f j (X O x).
Lemma dF j x : (j < N)%nat -> D x -> is_derive (F j) x (INR (S j) * F (S j) x * X 1%nat x).
Proof.
  intros Hj Hx. eapply is_derive_val.
  - apply (d_comp (f j) (X O)); [apply Hf; [exact Hj|apply HE; exact Hx]|apply HX; [lia|exact Hx]].
  - unfold F. cbn [INR]. ring.
Qed.
Lemma dX j x : (j < N)%nat -> D x -> is_derive (X j) x (INR (S j) * X (S j) x).
Proof. exact (HX j x). Qed.

Lemma exf (g : R -> R) x l : is_derive g x l -> ex_derive g x.
Proof. intro H. now exists l. Qed.

Definition compval (f x : nat -> R) (i : nat) : R :=
  match i with
  | 6%nat =>
      f 1%nat * x 6%nat + 2 * f 2%nat * x 5%nat * x 1%nat + 2 * f 2%nat * x 4%nat * x 2%nat +
      f 2%nat * x 3%nat * x 3%nat + 3 * f 3%nat * x 4%nat * x 1%nat * x 1%nat +
      6 * f 3%nat * x 3%nat * x 2%nat * x 1%nat + f 3%nat * x 2%nat * x 2%nat * x 2%nat +
      4 * f 4%nat * x 3%nat * x 1%nat * x 1%nat * x 1%nat +
      6 * f 4%nat * x 2%nat * x 2%nat * x 1%nat * x 1%nat +
      5 * f 5%nat * x 2%nat * x 1%nat * x 1%nat * x 1%nat * x 1%nat +
      f 6%nat * x 1%nat * x 1%nat * x 1%nat * x 1%nat * x 1%nat * x 1%nat
  | 5%nat =>
      f 1%nat * x 5%nat +
      x 1%nat * (2 * f 2%nat * x 4%nat +
              x 1%nat * (3 * f 3%nat * x 3%nat +
                      x 1%nat * (4 * f 4%nat * x 2%nat + f 5%nat * x 1%nat * x 1%nat)) +
              3 * f 3%nat * x 2%nat * x 2%nat) +
      2 * f 2%nat * x 2%nat * x 3%nat
  | 4%nat =>
      f 1%nat * x 4%nat +
      x 1%nat * (2 * f 2%nat * x 3%nat +
              x 1%nat * (3 * f 3%nat * x 2%nat + f 4%nat * x 1%nat * x 1%nat)) +
      f 2%nat * x 2%nat * x 2%nat
  | 3%nat => f 1%nat * x 3%nat + x 1%nat * (2 * f 2%nat * x 2%nat + f 3%nat * x 1%nat * x 1%nat)
  | 2%nat => f 1%nat * x 2%nat + f 2%nat * x 1%nat * x 1%nat
  | 1%nat => f 1%nat * x 1%nat
  | _ => f i
  end.

Ltac dstep :=
  repeat match goal with
  | |- is_derive (F ?j) _ _ => apply (dF j); [lia|assumption]
  | |- is_derive (X ?j) _ _ => apply (dX j); [lia|assumption]
  | |- is_derive (fun y => F ?j y) _ _ => apply (dF j); [lia|assumption]
  | |- is_derive (fun y => X ?j y) _ _ => apply (dX j); [lia|assumption]
  | |- is_derive (fun y => _ + _) _ _ => apply d_plus
  | |- is_derive (fun y => _ * _) _ _ => apply d_mult
  | |- is_derive (fun y => ?c) _ _ => apply d_const
  end.

Lemma fam_compval : is_fam D N (fun k x => compval (fun j => F j x) (fun j => X j x) k).
Proof.
  intros k x Hk Hx.
  destruct k as [|[|[|[|[|[|k]]]]]]; [| | | | | |lia]; cbn [compval];
  (eapply is_derive_val; [dstep|]);
  cbn [compval]; rewrite ?S_INR; change (INR 0) with 0; ring.
Qed.
End Comp.

Lemma tcompose_compval N (f x : nat -> R) : (N <= 6)%nat ->
  exists t, tcompose (K := ROps) N f x = Some t /\ forall k, (k <= N)%nat -> t k = compval f x k.
Proof.
  intro H. unfold tcompose. rewrite (proj2 (Nat.leb_le N 6) H). eexists. split; [reflexivity|].
  intros k Hk. cbn beta. rewrite (proj2 (Nat.leb_le k N) Hk).
  unfold OofZ. cbn [OofQ ROps]. rewrite !Q2R_Z.
  destruct k as [|[|[|[|[|[|[|k]]]]]]]; reflexivity.
Qed.
