(** * Specification vocabulary for evaluation
    The graded enumeration of derivative multi-indices, independent of the loops in Eval.v. *)
From Coq Require Import Arith Lia List Bool ZArith Sorted.
From Verif Require Import Scalar SpecApi.
Import ListNotations.

(** A multi-index is the nondecreasing list of the variables differentiated. *)
Fixpoint nondec (lo n : nat) (l : list nat) : Prop :=
  match l with [] => True | i :: l' => lo <= i < n /\ nondec i n l' end.
(** Order of the output slots: total degree first, then lexicographic. *)
Fixpoint lex (a b : list nat) : Prop :=
  match a, b with
  | i :: a', j :: b' => i < j \/ (i = j /\ lex a' b')
  | _, _ => False
  end.
Definition deglex (a b : list nat) : Prop :=
  length a < length b \/ (length a = length b /\ lex a b).

(** All multi-indices of degree k with entries in [lo,n), in lexicographic order. *)
Fixpoint mono (n lo k : nat) : list (list nat) :=
  match k with
  | O => [[]]
  | S k' => flat_map (fun i => map (cons i) (mono n i k')) (seq lo (n - lo))
  end.
Definition graded (n ord : nat) : list (list nat) := flat_map (mono n 0) (seq 0 (S ord)).

Lemma In_mono n : forall k lo l, In l (mono n lo k) <-> length l = k /\ nondec lo n l.
Proof.
  induction k; intros lo l; cbn [mono].
  - cbn [In]. split; [intros [<-|[]]; cbn; auto|]. intros [H _]. destruct l; [auto|discriminate].
  - rewrite in_flat_map. split.
    + intros (i & Hi & H). apply in_seq in Hi. apply in_map_iff in H. destruct H as (l' & <- & H).
      apply IHk in H. cbn [length nondec]. lia || (destruct H; split; [lia|split; [lia|assumption]]).
    + intros [H N]. destruct l as [|i l']; [discriminate|]. cbn [length nondec] in *. exists i.
      split; [apply in_seq; lia|]. apply in_map. apply IHk. split; [lia|tauto].
Qed.
Lemma In_graded n ord l : In l (graded n ord) <-> length l <= ord /\ nondec 0 n l.
Proof.
  unfold graded. rewrite in_flat_map. split.
  - intros (k & Hk & H). apply in_seq in Hk. apply In_mono in H. destruct H; split; [lia|auto].
  - intros [H N]. exists (length l). split; [apply in_seq; lia|]. apply In_mono. auto.
Qed.

Lemma SS_app {A} (R : A -> A -> Prop) l1 l2 : StronglySorted R l1 -> StronglySorted R l2 ->
  (forall x y, In x l1 -> In y l2 -> R x y) -> StronglySorted R (l1 ++ l2).
Proof.
  induction 1 as [|x l1 S1 IH F]; intros S2 H; cbn; [exact S2|]. constructor.
  - apply IH; [exact S2|]. intros; apply H; [right|]; assumption.
  - apply Forall_app. split; [exact F|]. apply Forall_forall. intros y Hy. apply H; [now left|exact Hy].
Qed.
Lemma SS_flat_map {A} (R : A -> A -> Prop) (f : nat -> list A) len : forall a,
  (forall i, a <= i < a + len -> StronglySorted R (f i)) ->
  (forall i j x y, a <= i -> i < j < a + len -> In x (f i) -> In y (f j) -> R x y) ->
  StronglySorted R (flat_map f (seq a len)).
Proof.
  induction len; intros a H1 H2; cbn [seq flat_map]; [constructor|]. apply SS_app.
  - apply H1. lia.
  - apply IHlen; [intros; apply H1; lia|]. intros i j x y Hi Hj. apply H2; lia.
  - intros x y Hx Hy. apply in_flat_map in Hy. destruct Hy as (j & Hj & Hy). apply in_seq in Hj.
    apply (H2 a j); auto; lia.
Qed.
Lemma SS_map_cons i l : StronglySorted lex l -> StronglySorted lex (map (cons i) l).
Proof.
  induction 1 as [|x l S IH F]; cbn; constructor; [exact IH|]. apply Forall_map.
  eapply Forall_impl; [|exact F]. intros y Hy. cbn. right. auto.
Qed.
Lemma mono_sorted n : forall k lo, StronglySorted lex (mono n lo k).
Proof.
  induction k; intro lo; cbn [mono]; [repeat constructor|]. apply SS_flat_map.
  - intros. apply SS_map_cons. apply IHk.
  - intros i j x y Hi Hj Hx Hy. apply in_map_iff in Hx, Hy. destruct Hx as (x' & <- & _), Hy as (y' & <- & _).
    cbn. left. lia.
Qed.
Lemma SS_impl {A} (R R' : A -> A -> Prop) l : (forall x y, In x l -> In y l -> R x y -> R' x y) ->
  StronglySorted R l -> StronglySorted R' l.
Proof.
  intros H S. induction S as [|x l S IH F]; constructor.
  - apply IH. intros; apply H; [right|right|]; assumption.
  - rewrite Forall_forall in *. intros y Hy. apply H; [now left|now right|auto].
Qed.
Lemma graded_sorted n ord : StronglySorted deglex (graded n ord).
Proof.
  apply SS_flat_map.
  - intros k _. eapply SS_impl; [|apply mono_sorted]. intros x y Hx Hy L. apply In_mono in Hx, Hy. right. split; [lia|exact L].
  - intros i j x y Hi Hj Hx Hy. apply In_mono in Hx, Hy. left. lia.
Qed.
Lemma lex_irrefl l : ~ lex l l.
Proof. induction l as [|i l IH]; cbn; [auto|]. intros [H|[_ H]]; [lia|auto]. Qed.
Lemma graded_nodup n ord : NoDup (graded n ord).
Proof.
  pose proof (graded_sorted n ord) as S. induction S as [|x l S IH F]; constructor; [|exact IH].
  intro H. rewrite Forall_forall in F. destruct (F x H) as [L|[_ L]]; [lia|]. exact (lex_irrefl _ L).
Qed.

(** Number of multi-indices. *)
Lemma flat_map_len {A B} (f : A -> list B) l : length (flat_map f l) = list_sum (map (fun x => length (f x)) l).
Proof. induction l; cbn; [reflexivity|]. rewrite app_length. now rewrite IHl. Qed.
Lemma mono_S n k lo : lo < n -> mono n lo (S k) = map (cons lo) (mono n lo k) ++ mono n (S lo) (S k).
Proof. intro H. cbn [mono]. replace (n - lo) with (S (n - S lo)) by lia. reflexivity. Qed.
Lemma mono_len n : forall k lo, lo < n -> length (mono n lo k) = binom (n - lo - 1 + k) k.
Proof.
  intros k lo H. remember (n - lo - 1) as m eqn:E. revert k lo H E.
  induction m as [m IHm] using lt_wf_ind. intro k. induction k as [|k IHk]; intros lo H E.
  - cbn. destruct (m + 0); reflexivity.
  - rewrite mono_S by exact H. rewrite app_length, map_length, (IHk lo H E).
    destruct m as [|m].
    + assert (L : length (mono n (S lo) (S k)) = 0) by (cbn [mono]; replace (n - S lo) with 0 by lia; reflexivity).
      rewrite L. cbn [Nat.add binom]. assert (Z : forall a b, a < b -> binom a b = 0).
      { clear. induction a; intros [|b] L; try lia; cbn; [reflexivity|]. rewrite !IHa by lia. reflexivity. }
      rewrite (Z k (S k)) by lia. reflexivity.
    + rewrite (IHm m) by lia. replace (S m + S k) with (S (S m + k)) by lia.
      replace (m + S k) with (S m + k) by lia. cbn [binom]. reflexivity.
Qed.
Lemma binom_0_r a : binom a 0 = 1. Proof. destruct a; reflexivity. Qed.
Theorem graded_len n ord : length (graded n ord) = binom (n + ord) ord.
Proof.
  unfold graded. induction ord.
  - cbn. now rewrite binom_0_r.
  - rewrite seq_S, flat_map_app, app_length, IHord. cbn [Nat.add flat_map]. rewrite app_nil_r.
    destruct n as [|n].
    + cbn [mono Nat.sub seq flat_map length]. cbn [Nat.add binom].
      assert (Z : forall a b, a < b -> binom a b = 0).
      { clear. induction a; intros [|b] L; try lia; cbn; [reflexivity|]. rewrite !IHa by lia. reflexivity. }
      rewrite (Z ord (S ord)) by lia. lia.
    + rewrite (mono_len (S n) (S ord) 0) by lia. replace (S n - 0 - 1) with n by lia.
      replace (S n + S ord) with (S (S n + ord)) by lia. cbn [binom]. f_equal. f_equal; lia.
Qed.

(** Positions of the multi-indices. *)
Lemma flat_map_nth {A} (f : nat -> list A) len i p : i < len -> p < length (f i) ->
  nth_error (flat_map f (seq 0 len)) (length (flat_map f (seq 0 i)) + p) = nth_error (f i) p.
Proof.
  intros Hi Hp. replace len with (i + S (len - i - 1)) by lia. rewrite seq_app, flat_map_app. cbn [seq flat_map].
  rewrite nth_error_app2 by lia. match goal with |- nth_error _ (?a + p - ?b) = _ => replace (a + p - b) with p by lia end. rewrite nth_error_app1 by exact Hp. reflexivity.
Qed.
Lemma flat_map_nth_from {A} (f : nat -> list A) a len i p : i < len -> p < length (f (a + i)) ->
  nth_error (flat_map f (seq a len)) (length (flat_map f (seq a i)) + p) = nth_error (f (a + i)) p.
Proof.
  intros Hi Hp. replace len with (i + S (len - i - 1)) by lia. rewrite seq_app, flat_map_app. cbn [seq flat_map].
  rewrite nth_error_app2 by lia. match goal with |- nth_error _ (?a + p - ?b) = _ => replace (a + p - b) with p by lia end. rewrite nth_error_app1 by exact Hp. reflexivity.
Qed.
