(** * Taylor numbers represent functions of infinitesimals
    [rep n c g]: the 2^n coefficients of c are the mixed partial derivatives at 0 of the
    function g of n real variables (one derivative at most per variable), each inner
    derivative existing in a neighbourhood. *)
From Coq Require Import Reals QArith Qreals Arith Lia Lra.
From Coquelicot Require Import Coquelicot.
From Verif Require Import Scalar RInst CTaylor CtAlg TMath Fps TFam.
Local Open Scope R_scope.

Fixpoint pt (n : nat) : Type := match n with O => unit | S m => (pt m * R)%type end.

Fixpoint near (n : nat) : (pt n -> Prop) -> Prop :=
  match n return (pt n -> Prop) -> Prop with
  | O => fun P => P tt
  | S m => fun P => near m (fun e => locally 0 (fun t => P (e, t)))
  end.
Fixpoint origin (n : nat) : pt n := match n with O => tt | S m => (origin m, 0) end.

Lemma near_imp n : forall P Q : pt n -> Prop, (forall e, P e -> Q e) -> near n P -> near n Q.
Proof.
  induction n; intros P Q H; cbn [near]; [apply H|]. apply IHn. intros e.
  apply filter_imp. intros t. apply H.
Qed.
Lemma near_and n : forall P Q : pt n -> Prop, near n P -> near n Q -> near n (fun e => P e /\ Q e).
Proof.
  induction n; intros P Q; cbn [near]; [tauto|]. intros H G.
  eapply near_imp; [|apply IHn; [exact H|exact G]]. intros e [A B]. now apply filter_and.
Qed.
Lemma near_true n : forall P : pt n -> Prop, (forall e, P e) -> near n P.
Proof. induction n; intros P H; cbn [near]; [apply H|]. apply IHn. intro e. apply filter_forall. intro. apply H. Qed.
Lemma near_origin n : forall P : pt n -> Prop, near n P -> P (origin n).
Proof.
  induction n; intros P; cbn [near origin]; [auto|]. intro H. apply IHn in H.
  now apply locally_singleton in H.
Qed.
Lemma near_fst n (P : pt n -> Prop) (Q : pt (S n) -> Prop) :
  (forall e, Q (e, 0) -> P e) -> near (S n) Q -> near n P.
Proof. intros H. cbn [near]. apply near_imp. intros e G. apply H. now apply locally_singleton in G. Qed.

Fixpoint rep (n : nat) : rct n -> (pt n -> R) -> Prop :=
  match n return rct n -> (pt n -> R) -> Prop with
  | O => fun c g => c = g tt
  | S m => fun c g =>
      rep m (fst c) (fun e => g (e, 0)) /\
      exists h : pt m -> R, near m (fun e => is_derive (fun t => g (e, t)) 0 (h e)) /\ rep m (snd c) h
  end.

Lemma rep_ext n : forall c g g', near n (fun e => g e = g' e) -> rep n c g -> rep n c g'.
Proof.
  induction n; intros c g g' H; cbn [rep].
  - cbn in H. congruence.
  - intros [A (h & Hd & B)]. cbn [near] in H. split.
    + eapply IHn; [|exact A]. eapply near_imp; [|exact H]. intros e He. cbn beta in He. now apply locally_singleton in He.
    + exists h. split; [|exact B]. eapply near_imp; [|apply near_and; [exact H|exact Hd]].
      intros e [E D]. eapply is_derive_ext_loc; [exact E|exact D].
Qed.
Lemma rep_ext' n c g g' : (forall e, g e = g' e) -> rep n c g -> rep n c g'.
Proof. intro H. apply rep_ext. apply near_true. exact H. Qed.

(** The coefficients are determined by the function. *)
Lemma rep_unique n : forall c c' g, rep n c g -> rep n c' g -> c = c'.
Proof.
  induction n; intros c c' g; cbn [rep]; [congruence|].
  intros [A (h & Hd & B)] [A' (h' & Hd' & B')]. apply pair_ext; [eapply IHn; eassumption|].
  eapply IHn; [exact B|]. eapply rep_ext; [|exact B'].
  eapply near_imp; [|apply near_and; [exact Hd|exact Hd']]. intros e [D D'].
  rewrite <- (is_derive_unique _ _ _ D). now rewrite <- (is_derive_unique _ _ _ D').
Qed.

Lemma rep_c0 n : forall c g, rep n c g -> c0 n c = g (origin n).
Proof. induction n; intros c g; cbn [rep c0 origin]; [auto|]. intros [A _]. exact (IHn _ _ A). Qed.

(** The represented function is continuous near the origin in the iterated sense. *)
Lemma rep_open n : forall c g (D : R -> Prop), open D -> rep n c g -> D (c0 n c) -> near n (fun e => D (g e)).
Proof.
  induction n; intros c g D O; cbn [rep c0 near]; [intros ->; auto|].
  intros [A (h & Hd & _)] H0. pose proof (IHn _ _ D O A H0) as N.
  eapply near_imp; [|apply near_and; [exact N|exact Hd]]. intros e [De dd].
  assert (C : continuous (fun t => g (e, t)) 0) by (apply (ex_derive_continuous (fun t => g (e, t))); now exists (h e)).
  apply C. apply O. exact De.
Qed.

Lemma rep_const n : forall k : R, rep n (rconst n k) (fun _ => k).
Proof.
  induction n; intro k; [reflexivity|]. rewrite ct_const_S. split; cbn [fst snd]; [apply IHn|].
  exists (fun _ => 0). split; [|apply IHn]. apply near_true. intro. apply d_const.
Qed.
Lemma rep_add n : forall a b f g, rep n a f -> rep n b g -> rep n (ct_add n a b) (fun e => f e + g e).
Proof.
  induction n; intros a b f g; cbn [rep]; [cbn; congruence|]. rewrite ct_add_S. cbn [fst snd].
  intros [A (h & Hd & B)] [A' (h' & Hd' & B')]. split; [apply (IHn _ _ _ _ A A')|].
  exists (fun e : pt n => h e + h' e). split; [|apply (IHn _ _ _ _ B B')].
  eapply near_imp; [|apply near_and; [exact Hd|exact Hd']]. intros e [D D']. now apply d_plus.
Qed.
Lemma rep_neg n : forall a f, rep n a f -> rep n (ct_neg n a) (fun e => - f e).
Proof.
  induction n; intros a f; cbn [rep]; [cbn; congruence|]. rewrite ct_neg_S. cbn [fst snd].
  intros [A (h & Hd & B)]. split; [apply (IHn _ _ A)|].
  exists (fun e : pt n => - h e). split; [|apply (IHn _ _ B)].
  eapply near_imp; [|exact Hd]. intros e D. now apply d_opp.
Qed.
Lemma rep_sub n a b f g : rep n a f -> rep n b g -> rep n (ct_sub n a b) (fun e => f e - g e).
Proof.
  intros A B. rewrite sub_def. unfold Rminus. apply rep_add; [exact A|]. now apply rep_neg.
Qed.
Lemma rep_mul n : forall a b f g, rep n a f -> rep n b g -> rep n (pmul n a b) (fun e => f e * g e).
Proof.
  induction n; intros a b f g; [cbn; congruence|]. rewrite pmul_S. cbn [rep fst snd].
  intros [A (h & Hd & B)] [A' (h' & Hd' & B')]. split; [apply (IHn _ _ _ _ A A')|].
  exists (fun e : pt n => f (e, 0) * h' e + h e * g (e, 0)). split.
  - eapply near_imp; [|apply near_and; [exact Hd|exact Hd']]. intros e [D D'].
    eapply is_derive_val; [apply (d_mult (fun t => f (e, t)) (fun t => g (e, t))); eassumption|]. cbn beta. ring.
  - apply rep_add; [apply (IHn _ _ _ _ A B')|apply (IHn _ _ _ _ B A')].
Qed.

(** Composition with a function given by a Taylor family. *)
Lemma rep_comp n : forall c g (D : R -> Prop) t, open D -> is_fam D n t ->
  rep n c g -> D (c0 n c) -> rep n (pcomp n c (fun k => t k (c0 n c))) (fun e => t O (g e)).
Proof.
  induction n; intros c g D t O F.
  - cbn [rep pcomp c0]. now intros ->.
  - intros [A (h & Hd & B)] H0. cbn [pcomp rep fst snd c0] in *. split.
    + apply (IHn _ _ D t O); auto. intros k x Hk. apply F. lia.
    + exists (fun e => t 1%nat (g (e, 0)) * h e). split.
      * pose proof (rep_open n _ _ D O A H0) as N.
        eapply near_imp; [|apply near_and; [exact N|exact Hd]]. intros e [De dd].
        eapply is_derive_val.
        { apply (d_comp (t 0%nat) (fun t => g (e, t))); [|exact dd]. apply F; [lia|exact De]. }
        change (INR 1) with 1. rewrite Rmult_1_l. reflexivity.
      * apply rep_mul; [|exact B].
        set (t' := fun k x => INR (S k) * t (S k) x).
        assert (E : rep n (pcomp n (fst c) (fun k => t' k (c0 n (fst c)))) (fun e => t' 0%nat (g (e, 0)))).
        { apply (IHn (fst c) (fun e => g (e, 0)) D t' O); auto. intros k x Hk Hx. unfold t'.
          apply d_scal. apply F; [lia|exact Hx]. }
        eapply rep_ext'; [|exact E]. intro e. unfold t'. change (INR 1) with 1. rewrite Rmult_1_l. reflexivity.
Qed.

(** ** Polynomials in the infinitesimals: every Taylor number represents one *)
Fixpoint peval (n : nat) : rct n -> pt n -> R :=
  match n return rct n -> pt n -> R with
  | O => fun c _ => c
  | S m => fun c e => peval m (fst c) (fst e) + snd e * peval m (snd c) (fst e)
  end.
Lemma rep_peval n : forall c, rep n c (peval n c).
Proof.
  induction n; intro c; [reflexivity|]. split; cbn [peval fst snd].
  - eapply rep_ext'; [|apply IHn]. intro e. cbn. ring.
  - exists (peval n (snd c)). split; [|apply IHn]. apply near_true. intro e.
    eapply is_derive_val.
    + apply d_plus; [apply d_const|apply d_mult; [apply d_id|apply d_const]].
    + cbn beta. rewrite Rplus_0_l, Rmult_1_l, Rmult_0_r, Rplus_0_r. reflexivity.
Qed.

(** ** Reading off derivatives *)
(** [mixed n s g v]: differentiate g once with respect to each variable whose bit is
    set in s (last variable innermost), at the origin; all derivatives exist. *)
Fixpoint mixed (n : nat) (s : nat) : (pt n -> R) -> R -> Prop :=
  match n return (pt n -> R) -> R -> Prop with
  | O => fun g v => g tt = v
  | S m => fun g v =>
      if Nat.testbit s m
      then exists h : pt m -> R, near m (fun e => is_derive (fun t => g (e, t)) 0 (h e)) /\ mixed m s h v
      else mixed m s (fun e => g (e, 0)) v
  end.
Lemma mixed_mod n : forall s s' g v, (forall i, (i < n)%nat -> Nat.testbit s i = Nat.testbit s' i) ->
  mixed n s g v -> mixed n s' g v.
Proof.
  induction n; intros s s' g v H; cbn [mixed]; [auto|]. rewrite (H n) by lia.
  destruct (Nat.testbit s' n).
  - intros (h & Hd & M). exists h. split; [exact Hd|]. eapply IHn; [|exact M]. intros; apply H; lia.
  - apply IHn. intros; apply H; lia.
Qed.
Lemma testbit_lt s n : (s < 2 ^ n)%nat -> Nat.testbit s n = false.
Proof. intro H. apply Nat.testbit_false. rewrite Nat.div_small by lia. reflexivity. Qed.
Lemma testbit_hi s n : (s < 2 ^ n)%nat -> Nat.testbit (2 ^ n + s) n = true.
Proof.
  intro H. apply Nat.testbit_true. replace (2 ^ n + s)%nat with (s + 1 * 2 ^ n)%nat by lia.
  rewrite Nat.div_add by (apply Nat.pow_nonzero; lia). rewrite Nat.div_small by lia. reflexivity.
Qed.
Lemma testbit_hi_lo s n i : (i < n)%nat -> Nat.testbit (2 ^ n + s) i = Nat.testbit s i.
Proof.
  intro H. rewrite <- (Nat.mod_pow2_bits_low (2 ^ n + s) n i H), <- (Nat.mod_pow2_bits_low s n i H). f_equal.
  replace (2 ^ n + s)%nat with (s + 1 * 2 ^ n)%nat by lia. apply Nat.mod_add. apply Nat.pow_nonzero; lia.
Qed.
Theorem rep_mixed n : forall c g s, (s < 2 ^ n)%nat -> rep n c g -> mixed n s g (get n c s).
Proof.
  induction n; intros c g s Hs; cbn [rep mixed get]; [auto|].
  intros [A (h & Hd & B)]. assert (E : (2 ^ S n = 2 * 2 ^ n)%nat) by reflexivity.
  destruct (Nat.ltb_spec s (2 ^ n)) as [L|L].
  - rewrite testbit_lt by exact L. apply IHn; assumption.
  - assert (L' : (s - 2 ^ n < 2 ^ n)%nat) by lia.
    pose proof (testbit_hi (s - 2 ^ n) n L') as T. replace (2 ^ n + (s - 2 ^ n))%nat with s in T by lia. rewrite T.
    exists h. split; [exact Hd|].
    eapply mixed_mod; [|apply IHn; [exact L'|exact B]].
    intros i Hi. pose proof (testbit_hi_lo (s - 2 ^ n) n i Hi) as U. replace (2 ^ n + (s - 2 ^ n))%nat with s in U by lia.
    now rewrite U.
Qed.
Lemma mixed_ext n : forall s g g' v, near n (fun e => g e = g' e) -> mixed n s g v -> mixed n s g' v.
Proof.
  induction n; intros s g g' v H; cbn [mixed near] in *; [congruence|].
  destruct (Nat.testbit s n).
  - intros (h & Hd & M). exists h. split; [|exact M].
    eapply near_imp; [|apply near_and; [exact H|exact Hd]]. intros e [E D]. eapply is_derive_ext_loc; [exact E|exact D].
  - apply IHn. eapply near_imp; [|exact H]. intros e G. cbn beta in G. now apply locally_singleton in G.
Qed.
