(** * Property theorems: the Fortran interface (C40) *)
From Coq Require Import Reals QArith ZArith Arith Lia Lra List Bool String Ascii.
From Verif Require Import Scalar Tables Api SpecApi ApiProofs ApiProofs2 QInst CTaylor TMath Br Expr Densvars Functionals
  Eval Sem SpecEval EvalSem EvalProps EvalExt Props_Api Props_Eval RInst CtAlg Phys EnergyR Mk Props_Deriv Props_Dens Props_Dens2 Props_Vec F90.
Import ListNotations.
Local Open Scope outcome_scope.
Local Open Scope Z_scope.

(** ** Specification *)
Definition chars := list_ascii_of_string.
Definition no_nul (s : string) : Prop := ~ In Ascii.zero (chars s).
(** [k] blanks *)
Fixpoint blanks (k : nat) : string := match k with O => EmptyString | S k => String " " (blanks k) end.
Definition known (name : string) : Prop := (exists i, is_item name i) \/ exists ts, is_alias name ts.
(** A Fortran character value of the given length holding [s]: [s] and blanks. *)
Definition padded (s : string) (length : nat) (v : list ascii) : Prop :=
  exists k, v = chars (s ++ blanks k) /\ List.length v = length.
(** Element (k, i) of an array, counted from 1. *)
Definition at2 {K : Ops} (a : array2 K) (k i : nat) : K := elt a ((Z.of_nat i - 1) * Z.of_nat (d1 a) + (Z.of_nat k - 1)).
Definition column {K : Ops} (a : array2 K) (i : nat) : nat -> K := fun k => at2 a (k + 1) i.

(** ** Names *)
Lemma c_string_id s : no_nul s -> forall t, c_string (s ++ String NUL t) = s.
Proof.
  unfold no_nul. induction s as [|c s IH]; intros H t; cbn [append c_string]; [reflexivity|]. cbn [chars list_ascii_of_string In] in H.
  destruct (Ascii.eqb_spec c NUL) as [->|_]; [exfalso; apply H; now left|]. rewrite IH; [reflexivity|tauto].
Qed.
Lemma carray_cut s t : no_nul s -> c_string (fstring_to_carray (s ++ String NUL t)) = s.
Proof.
  intro H. unfold fstring_to_carray. assert (A : ((s ++ String NUL t) ++ String NUL EmptyString = s ++ String NUL (t ++ String NUL EmptyString))%string).
  { clear. induction s as [|c s IH]; cbn [append]; [reflexivity|now rewrite IH]. }
  rewrite A. now apply c_string_id.
Qed.
(** A name without NUL means in Fortran what it means in C, and a NUL appended by hand does
    no harm. *)
Theorem C40_names :
  forall (K : Ops) (h : handle K) s t v, no_nul s ->
    (f_set h s v = xcfun_set h s v /\ f_get h s = xcfun_get h s) /\
    (f_set h (s ++ String Ascii.zero t) v = xcfun_set h s v /\ f_get h (s ++ String Ascii.zero t) = xcfun_get h s).
Proof.
  intros K h s t v H. unfold f_set, f_get. change Ascii.zero with NUL. rewrite (carray_cut s t H).
  unfold fstring_to_carray. rewrite (c_string_id s H). repeat split.
Qed.
Print Assumptions C40_names.

Definition last_blank (s : string) : bool := match rev (chars s) with c :: _ => Ascii.eqb c " " | [] => false end.
Lemma lower_blank c : lower_ascii c = " "%char -> c = " "%char.
Proof. destruct c as [[] [] [] [] [] [] [] []]; vm_compute; intro H; first [reflexivity | discriminate H]. Qed.
Lemma eq_last a : forall b, strcasecmp_eq a b = true -> last_blank a = true -> last_blank b = true.
Proof.
  intros b H. assert (E : map lower_ascii (chars a) = map lower_ascii (chars b)).
  { revert b H. induction a as [|x a IH]; intros [|y b] H; cbn [strcasecmp_eq] in H; try discriminate; [reflexivity|]. apply andb_true_iff in H. destruct H as [H1 H2].
    apply Ascii.eqb_eq in H1. cbn [chars list_ascii_of_string map]. now rewrite H1, (IH b H2). }
  unfold last_blank. intro L. apply (f_equal (@rev _)) in E. rewrite <- !map_rev in E.
  destruct (rev (chars a)) as [|x l]; [discriminate|]. apply Ascii.eqb_eq in L. subst x. destruct (rev (chars b)) as [|y m]; [discriminate E|]. cbn [map] in E. injection E as E _.
  change (lower_ascii " ") with " "%char in E. rewrite (lower_blank y); [reflexivity|congruence].
Qed.
Lemma no_match s names i : last_blank s = true -> forallb (fun n => negb (last_blank n)) names = true -> first_match s names i = None.
Proof.
  intros L. revert i. induction names as [|n l IH]; intros i F; cbn [first_match]; [reflexivity|]. cbn [forallb] in F. apply andb_true_iff in F. destruct F as [F1 F2].
  destruct (strcasecmp_eq s n) eqn:E; [|now apply IH]. rewrite (eq_last s n E L) in F1. discriminate.
Qed.
Lemma chars_app s t : chars (s ++ t) = (chars s ++ chars t)%list.
Proof. unfold chars. induction s as [|c s IH]; cbn; [reflexivity|now rewrite IH]. Qed.
Lemma chars_blanks k : chars (blanks k) = repeat " "%char k.
Proof. unfold chars. induction k as [|k IH]; cbn; [reflexivity|now rewrite IH]. Qed.
Lemma no_nul_pad s k : no_nul s -> no_nul (s ++ blanks k).
Proof. unfold no_nul. rewrite chars_app, chars_blanks. intros H X. apply in_app_or in X. destruct X as [X|X]; [tauto|]. apply repeat_spec in X. discriminate. Qed.
Lemma pad_last s k : (0 < k)%nat -> last_blank (s ++ blanks k) = true.
Proof.
  intro H. unfold last_blank. rewrite chars_app, chars_blanks, rev_app_distr. destruct k as [|k]; [lia|]. cbn [repeat].
  replace (" "%char :: repeat " "%char k) with (repeat " "%char k ++ [" "%char])%list; [rewrite rev_app_distr; reflexivity|].
  clear. induction k as [|k IH]; cbn; [reflexivity|now rewrite IH].
Qed.
(** No name survives blank padding: a Fortran character variable longer than the name it
    holds is rejected, and the handle is left alone. *)
Theorem C40_padded_rejected :
  forall (K : Ops) (h : handle K) s k v, no_nul s -> (0 < k)%nat ->
    f_set h (s ++ blanks k) v = Ok (h, -1) /\ f_get h (s ++ blanks k) = None.
Proof.
  intros K h s k v H Hk. pose proof (no_nul_pad s k H) as N. destruct (C40_names K h (s ++ blanks k) EmptyString v N) as [[-> ->] _].
  pose proof (pad_last s k Hk) as L. set (w := (s ++ blanks k)%string) in *.
  assert (E1 : xcint_lookup_functional w = None) by (apply no_match; [exact L|vm_compute; reflexivity]).
  assert (E2 : xcint_lookup_parameter w = None) by (apply no_match; [exact L|vm_compute; reflexivity]).
  assert (E3 : xcint_lookup_alias w = None) by (apply no_match; [exact L|vm_compute; reflexivity]).
  split; [|unfold xcfun_get; now rewrite E1, E2].
  apply set_unknown; [|now apply lookup_alias_none]. intros i Hi. destruct (Nat.lt_ge_cases i 78) as [X|X].
  - rewrite (proj2 (lookup_functional_spec w i) (conj Hi X)) in E1. discriminate.
  - rewrite (proj2 (lookup_parameter_spec w i) (conj Hi X)) in E2. discriminate.
Qed.
Print Assumptions C40_padded_rejected.
(** So the two Fortran spellings of one name, equal for Fortran, are not the same for the
    library. *)
Theorem C40_padding_refuted :
  exists name, forall (K : Ops) (h : handle K) v, reachable h ->
    (exists h', f_set h name v = Ok (h', 0)) /\ forall k, (0 < k)%nat -> f_set h (name ++ blanks k) v = Ok (h, -1).
Proof.
  exists "lda"%string. intros K h v Hr. assert (N : no_nul "lda") by (unfold no_nul; vm_compute; intuition discriminate). split.
  - destruct (C40_names K h "lda" EmptyString v N) as [[-> _] _]. apply set_known; [now apply reachable_wf|].
    destruct (xcint_lookup_alias "lda") as [k|] eqn:E; [|vm_compute in E; discriminate E].
    right. destruct (lookup_alias_some _ _ E) as (a & ts & Nn & C). exists ts, a. split; [eapply nth_error_In; exact Nn|exact C].
  - intros k Hk. now apply C40_padded_rejected.
Qed.
Print Assumptions C40_padding_refuted.

(** ** Texts *)
Lemma copy_ub mem obj : forall l m, fold_left (fun m i => m <- m ;; c <- read_at true mem obj i ;; put_pair true m i c) l (UB : outcome (list ascii)) = m -> m = UB.
Proof. induction l as [|i l IH]; intros m; cbn [fold_left obind]; [now intros <-|apply IH]. Qed.
(** Under the language's own rules no text function is defined, whatever the text. *)
Theorem C40_text_refuted :
  forall mem t (msg0 : list ascii), msg0 <> [] ->
    text_handler true mem t msg0 = UB /\
    forall n, f_enumerate_parameters true mem n msg0 = UB /\ (f_enumerate_aliases true mem n msg0 = UB).
Proof.
  intros mem t msg0 Ne. assert (A : forall t, text_handler true mem t msg0 = UB).
  { intros [s|]; [|reflexivity]. unfold text_handler, copy. set (obj := (list_ascii_of_string s ++ [NUL])%list).
    assert (L : exists n, List.length msg0 = S n) by (destruct msg0; [congruence|eexists; reflexivity]). destruct L as [n L]. rewrite L, seq_S, fold_left_app. cbn [fold_left Nat.add].
    assert (Inv : forall l m, List.length m = S n -> match fold_left (fun m i => m <- m ;; c <- read_at true mem obj i ;; put_pair true m i c) l (Ok m) with Ok m' => List.length m' = S n | UB => True | _ => False end).
    { induction l as [|i l IH]; intros m Hm; cbn [fold_left obind]; [exact Hm|]. unfold read_at at 2. destruct (nth_error obj i) as [c|]; cbn [obind].
      - unfold put_pair at 2. destruct (andb _ _); [rewrite (copy_ub mem obj l _ eq_refl); exact Logic.I|]. apply IH.
        assert (P : forall x i c, List.length (put x i c) = List.length x) by (clear; induction x as [|a x IH]; intros [|i] c; cbn; [reflexivity|reflexivity|reflexivity|now rewrite IH]). now rewrite !P.
      - rewrite (copy_ub mem obj l _ eq_refl). exact Logic.I. }
    specialize (Inv (seq 0 n) msg0 L). destruct (fold_left _ (seq 0 n) (Ok msg0)) as [m| | |]; try contradiction; [|reflexivity]. cbn [obind].
    destruct (read_at true mem obj n) as [c| | |] eqn:R; cbn [obind].
    - unfold put_pair. rewrite Inv, Nat.leb_refl. reflexivity.
    - unfold read_at in R. destruct (nth_error obj n); discriminate.
    - reflexivity.
    - unfold read_at in R. destruct (nth_error obj n); discriminate. }
  split; [apply A|]. intro n. unfold f_enumerate_parameters, f_enumerate_aliases. split.
  - unfold xcfun_enumerate_parameters. destruct (andb _ _); [apply A|]. destruct (Z.ltb n _); [destruct (Z.ltb n 0); [reflexivity|apply A]|apply A].
  - unfold xcfun_enumerate_aliases. destruct (andb _ _); apply A.
Qed.
Print Assumptions C40_text_refuted.

(** Where the memory around the text and around the local variable happens to be accessible,
    the text arrives, padded with blanks, as long as it is shorter than the variable; a
    longer one arrives as nothing but blanks. *)
Lemma put_len : forall x i c, List.length (put x i c) = List.length x.
Proof. induction x as [|a x IH]; intros [|i] c; cbn; [reflexivity|reflexivity|reflexivity|now rewrite IH]. Qed.
Lemma put_same : forall x i c, (i < List.length x)%nat -> nth_error (put x i c) i = Some c.
Proof. induction x as [|a x IH]; intros [|i] c H; cbn in *; [lia|lia|reflexivity|apply IH; lia]. Qed.
Lemma put_other : forall x i j c, i <> j -> nth_error (put x i c) j = nth_error x j.
Proof. induction x as [|a x IH]; intros [|i] [|j] c H; cbn; try reflexivity; [congruence|apply IH; congruence]. Qed.
Lemma nth_error_ext (l : list ascii) : forall l', (forall i, nth_error l i = nth_error l' i) -> l = l'.
Proof.
  induction l as [|a l IH]; intros [|b l'] H; [reflexivity|discriminate (H 0%nat)|discriminate (H 0%nat)|].
  pose proof (H 0%nat) as H0. injection H0 as ->. f_equal. apply IH. intro i. exact (H (S i)).
Qed.
Lemma nth_error_firstn_lt (l : list ascii) : forall n i, (i < n)%nat -> nth_error (firstn n l) i = nth_error l i.
Proof. induction l as [|a l IH]; intros [|n] [|i] H; cbn; try lia; try reflexivity. apply IH. lia. Qed.
Definition seen (mem : nat -> ascii) (obj : list ascii) (i : nat) : ascii := match nth_error obj i with Some c => c | None => mem i end.
Lemma copy_lenient mem obj msg0 : forall n, (n <= List.length msg0)%nat ->
  exists m, fold_left (fun m i => m <- m ;; c <- read_at false mem obj i ;; put_pair false m i c) (seq 0 n) (Ok msg0) = Ok m /\ List.length m = List.length msg0 /\
    forall i, (i < n)%nat -> nth_error m i = Some (seen mem obj i).
Proof.
  induction n as [|n IH]; intro H.
  - exists msg0. split; [reflexivity|]. split; [reflexivity|]. lia.
  - destruct IH as (m & E & L & P); [lia|]. rewrite seq_S, fold_left_app, E. cbn [fold_left Nat.add obind]. exists (put (put m n (seen mem obj n)) (S n) blank).
    split; [|split; [now rewrite !put_len|]].
    + unfold read_at, seen. destruct (nth_error obj n); reflexivity.
    + intros i Hi. rewrite put_other by lia. destruct (Nat.eq_dec i n) as [->|N]; [apply put_same; lia|]. rewrite put_other by lia. apply P. lia.
Qed.
Lemma index_first t r : ~ In NUL t -> index (t ++ NUL :: r) NUL = S (List.length t).
Proof.
  induction t as [|c t IH]; intro H; cbn [app index List.length]; [now rewrite Ascii.eqb_refl|]. cbn [In] in H.
  destruct (Ascii.eqb_spec c NUL) as [->|_]; [tauto|]. now rewrite IH by tauto.
Qed.
Lemma index_none t : ~ In NUL t -> index t NUL = 0%nat.
Proof.
  induction t as [|c t IH]; intro H; cbn [index]; [reflexivity|]. cbn [In] in H. destruct (Ascii.eqb_spec c NUL) as [->|_]; [tauto|]. now rewrite IH by tauto.
Qed.
Lemma len_trim_nul t : len_trim (t ++ [NUL]) = S (List.length t).
Proof. induction t as [|c t IH]; cbn [app len_trim List.length]; [reflexivity|now rewrite IH]. Qed.
Lemma lenient_text mem t msg0 : no_nul t -> text_handler false mem (Some t) msg0 =
  Ok (assign (List.length msg0) (if Nat.ltb (String.length t) (List.length msg0) then chars t else [])).
Proof.
  intro H. unfold text_handler, copy. destruct (copy_lenient mem (list_ascii_of_string t ++ [NUL]) msg0 (List.length msg0) (le_n _)) as (m & E & L & P). rewrite E. cbn [obind].
  set (obj := (chars t ++ [NUL])%list) in *.
  assert (Lt : List.length (chars t) = String.length t) by (clear; unfold chars; induction t as [|c t IH]; cbn; [reflexivity|now rewrite IH]).
  do 2 f_equal. destruct (Nat.ltb_spec (String.length t) (List.length msg0)) as [X|X].
  - assert (M : m = (obj ++ skipn (List.length obj) m)%list).
    { rewrite <- (firstn_skipn (List.length obj) m) at 1. f_equal. apply nth_error_ext. intro i.
      assert (Lo : List.length obj = S (String.length t)) by (unfold obj; rewrite app_length, Lt; cbn; lia).
      destruct (Nat.lt_ge_cases i (List.length obj)) as [Hi|Hi].
      - rewrite nth_error_firstn_lt by exact Hi. rewrite P by lia. unfold seen. fold (chars t). fold obj. destruct (nth_error obj i) eqn:N; [reflexivity|]. apply nth_error_None in N. lia.
      - rewrite (proj2 (nth_error_None obj i)) by exact Hi. apply nth_error_None. rewrite firstn_length. lia. }
    assert (Ix : index m NUL = S (List.length (chars t))).
    { rewrite M. unfold obj. rewrite <- app_assoc. cbn [app]. now apply index_first. }
    rewrite Ix. assert (F : firstn (S (List.length (chars t))) m = obj).
    { rewrite M. replace (S (List.length (chars t))) with (List.length obj) by (unfold obj; rewrite app_length; cbn; lia). now rewrite firstn_app, Nat.sub_diag, firstn_all, app_nil_r. }
    rewrite F. unfold obj at 1. rewrite len_trim_nul. replace (S (List.length (chars t)) - 1)%nat with (List.length (chars t)) by lia.
    rewrite M. unfold obj. rewrite <- app_assoc. now rewrite firstn_app, Nat.sub_diag, firstn_all, app_nil_r.
  - rewrite index_none; [reflexivity|]. intro Q. apply In_nth_error in Q. destruct Q as [i Q].
    assert (Hi : (i < List.length msg0)%nat) by (rewrite <- L; apply nth_error_Some; rewrite Q; discriminate). rewrite P in Q by exact Hi. injection Q as Q. unfold seen in Q.
    rewrite nth_error_app1 in Q by (fold (chars t); lia). destruct (nth_error (list_ascii_of_string t) i) as [c|] eqn:N; [|apply nth_error_None in N; fold (chars t) in N; lia].
    subst c. apply H. eapply nth_error_In. exact N.
Qed.
Lemma assign_padded s n : (String.length s <= n)%nat -> padded s n (assign n (chars s)) .
Proof.
  intro H. assert (Lt : List.length (chars s) = String.length s) by (clear; unfold chars; induction s as [|c s IH]; cbn; [reflexivity|now rewrite IH]).
  exists (n - String.length s)%nat. unfold assign. rewrite chars_app, chars_blanks, firstn_all2 by lia. rewrite Lt. split; [reflexivity|]. rewrite app_length, repeat_length. lia.
Qed.
Theorem C40_text_in_practice :
  forall mem t msg0, no_nul t -> exists v, text_handler false mem (Some t) msg0 = Ok v /\
    padded (if Nat.ltb (String.length t) (List.length msg0) then t else EmptyString) (List.length msg0) v.
Proof.
  intros mem t msg0 H. rewrite (lenient_text mem t msg0 H). eexists. split; [reflexivity|]. destruct (Nat.ltb_spec (String.length t) (List.length msg0)) as [X|X].
  - apply assign_padded. lia.
  - apply (assign_padded EmptyString). cbn. lia.
Qed.
Print Assumptions C40_text_in_practice.

Definition tidy (s : string) : bool := andb (forallb (fun c => negb (Ascii.eqb c NUL)) (chars s)) (Nat.ltb (String.length s) 100).
Lemma tidy_spec s : tidy s = true -> no_nul s /\ (String.length s < 100)%nat.
Proof.
  unfold tidy. rewrite andb_true_iff, Nat.ltb_lt, forallb_forall. intros [A B]. split; [|exact B]. intro X. specialize (A _ X). change Ascii.zero with NUL in A. now rewrite Ascii.eqb_refl in A.
Qed.
Lemma all_tidy : forallb tidy (map f_name xcint_funs ++ map fst xcint_params ++ map fst xcint_aliases) = true.
Proof. vm_compute. reflexivity. Qed.
Lemma name_tidy s : In s (map f_name xcint_funs) \/ In s (map fst xcint_params) \/ In s (map fst xcint_aliases) -> tidy s = true.
Proof. intro H. pose proof all_tidy as A. rewrite forallb_forall in A. apply A. rewrite !in_app_iff. exact H. Qed.
Lemma enum_name n s : xcfun_enumerate_parameters n = Ok (Some s) \/ xcfun_enumerate_aliases n = Ok (Some s) ->
  In s (map f_name xcint_funs) \/ In s (map fst xcint_params) \/ In s (map fst xcint_aliases).
Proof.
  intros [H|H].
  - unfold xcfun_enumerate_parameters in H. destruct (andb _ _).
    + destruct (nth_error xcint_funs _) as [f|] eqn:E; [|discriminate]. injection H as <-. left. apply in_map. eapply nth_error_In. exact E.
    + destruct (Z.ltb n _); [|discriminate]. destruct (Z.ltb n 0); [discriminate|]. destruct (nth_error xcint_params _) as [f|] eqn:E; [|discriminate]. injection H as <-. right. left. apply in_map. eapply nth_error_In. exact E.
  - unfold xcfun_enumerate_aliases in H. destruct (andb _ _); [|discriminate].
    destruct (nth_error xcint_aliases _) as [f|] eqn:E; [|discriminate]. injection H as <-. right. right. apply in_map. eapply nth_error_In. exact E.
Qed.
Lemma table_known s : In s (map f_name xcint_funs) \/ In s (map fst xcint_params) \/ In s (map fst xcint_aliases) -> known s.
Proof.
  intro H. assert (X : match xcint_lookup_functional s, xcint_lookup_parameter s, xcint_lookup_alias s with None, None, None => False | _, _, _ => True end).
  { assert (F : forall l i, In s l -> first_match s l i <> None).
    { clear. induction l as [|n l IH]; intros i Hi; cbn [first_match]; [destruct Hi|]. destruct Hi as [->|Hi].
      - replace (strcasecmp_eq s s) with true; [discriminate|]. symmetry. clear. induction s as [|c s IH]; cbn; [reflexivity|]. now rewrite Ascii.eqb_refl, IH.
      - destruct (strcasecmp_eq s n); [discriminate|]. now apply IH. }
    unfold xcint_lookup_functional, xcint_lookup_parameter, xcint_lookup_alias. destruct H as [H|[H|H]].
    - pose proof (F _ 0%nat H) as F'. destruct (first_match s (map f_name xcint_funs) 0); [exact Logic.I|congruence].
    - pose proof (F _ XC_NR_FUNCTIONALS H) as F'. destruct (first_match s (map f_name xcint_funs) 0); [exact Logic.I|]. destruct (first_match s (map fst xcint_params) XC_NR_FUNCTIONALS); [exact Logic.I|congruence].
    - pose proof (F _ 0%nat H) as F'. destruct (first_match s (map f_name xcint_funs) 0); [exact Logic.I|]. destruct (first_match s (map fst xcint_params) _); [exact Logic.I|]. destruct (first_match s (map fst xcint_aliases) 0); [exact Logic.I|congruence]. }
  unfold known. destruct (xcint_lookup_functional s) as [i|] eqn:E1; [left; exists i; now apply lookup_functional_spec in E1|].
  destruct (xcint_lookup_parameter s) as [i|] eqn:E2; [left; exists i; now apply lookup_parameter_spec in E2|].
  destruct (xcint_lookup_alias s) as [k|] eqn:E3; [|destruct X]. right. destruct (lookup_alias_some _ _ E3) as (a & ts & N & C). exists ts, a. split; [eapply nth_error_In; exact N|exact C].
Qed.
(** A name obtained by enumeration cannot be handed back: it is accepted only after
    trimming. *)
Theorem C40_round_trip_refuted :
  forall (K : Ops) (h : handle K) mem msg0 n v name, reachable h -> (100 <= List.length msg0)%nat ->
    xcfun_enumerate_parameters n = Ok (Some name) \/ xcfun_enumerate_aliases n = Ok (Some name) ->
    exists k, (0 < k)%nat /\
      (xcfun_enumerate_parameters n = Ok (Some name) -> f_enumerate_parameters false mem n msg0 = Ok (chars (name ++ blanks k))) /\
      (xcfun_enumerate_aliases n = Ok (Some name) -> f_enumerate_aliases false mem n msg0 = Ok (chars (name ++ blanks k))) /\
      f_set h (name ++ blanks k) v = Ok (h, -1) /\ exists h', f_set h name v = Ok (h', 0).
Proof.
  intros K h mem msg0 n v name Hr Hl He. pose proof (enum_name n name He) as Hn. destruct (tidy_spec name (name_tidy name Hn)) as [Nn Ln].
  exists (List.length msg0 - String.length name)%nat. split; [lia|].
  assert (T : text_handler false mem (Some name) msg0 = Ok (chars (name ++ blanks (List.length msg0 - String.length name)))).
  { rewrite (lenient_text mem name msg0 Nn). rewrite (proj2 (Nat.ltb_lt _ _)) by lia. f_equal. unfold assign.
    assert (Lt : List.length (chars name) = String.length name) by (clear; unfold chars; induction name as [|c s IH]; cbn; [reflexivity|now rewrite IH]).
    rewrite chars_app, chars_blanks, firstn_all2 by lia. now rewrite Lt. }
  split; [intro E; unfold f_enumerate_parameters; rewrite E; exact T|]. split; [intro E; unfold f_enumerate_aliases; rewrite E; exact T|].
  split; [apply C40_padded_rejected; [exact Nn|lia]|]. destruct (C40_names K h name EmptyString v Nn) as [[-> _] _].
  apply set_known; [now apply reachable_wf|now apply table_known].
Qed.
Print Assumptions C40_round_trip_refuted.
Example C40_round_trip_case : xcfun_enumerate_parameters 5 = Ok (Some "PBEX"%string) /\ xcfun_enumerate_aliases 2 <> Ok None.
Proof. split; [vm_compute; reflexivity|vm_compute; discriminate]. Qed.

(** ** Descriptions *)
Lemma lower_nul c : lower_ascii c = NUL -> c = NUL.
Proof. destruct c as [[] [] [] [] [] [] [] []]; vm_compute; intro H; first [reflexivity | discriminate H]. Qed.
Lemma cmp_terminated s r : no_nul s -> forall b, no_nul b -> strcasecmp_array (chars s ++ NUL :: r) b = Ok (strcasecmp_eq s b).
Proof.
  unfold no_nul. induction s as [|x s IH]; intros Hs b Hb; (destruct b as [|y b]; cbn [chars list_ascii_of_string app strcasecmp_array strcasecmp_eq]).
  - now rewrite Ascii.eqb_refl.
  - destruct (Ascii.eqb_spec (lower_ascii NUL) (lower_ascii y)) as [E|_]; [|reflexivity]. exfalso. apply Hb. left. apply (lower_nul y). now rewrite <- E.
  - destruct (Ascii.eqb_spec x NUL) as [->|_]; [|reflexivity]. exfalso. apply Hs. now left.
  - cbn [chars list_ascii_of_string In] in Hs, Hb. destruct (Ascii.eqb_spec (lower_ascii x) (lower_ascii y)) as [E|_]; [|reflexivity]. cbn [andb]. apply IH; tauto.
Qed.
Lemma lookup_terminated s r l : no_nul s -> (forall b, In b l -> no_nul b) -> forall i, lookup_array (chars s ++ NUL :: r) l i = Ok (first_match s l i).
Proof.
  intros Hs. induction l as [|b l IH]; intros H i; cbn [lookup_array first_match]; [reflexivity|]. rewrite (cmp_terminated s r Hs b) by (apply H; now left). cbn [obind].
  destruct (strcasecmp_eq s b); [reflexivity|]. apply IH. intros; apply H; now right.
Qed.
(** A name the caller has terminated by hand is described as in C. *)
Theorem C40_describe_terminated :
  forall s r, no_nul s -> f_describe (chars s ++ Ascii.zero :: r) = Ok (xcfun_describe s).
Proof.
  intros s r H. change Ascii.zero with NUL. unfold f_describe, xcfun_describe, xcint_lookup_functional, xcint_lookup_parameter, xcint_lookup_alias.
  rewrite lookup_terminated; [|exact H|intros b Hb; apply tidy_spec, name_tidy; now left]. cbn [obind]. destruct (first_match s (map f_name xcint_funs) 0); [reflexivity|].
  rewrite lookup_terminated; [|exact H|intros b Hb; apply tidy_spec, name_tidy; right; now left]. cbn [obind]. destruct (first_match s (map fst xcint_params) _); [reflexivity|].
  rewrite lookup_terminated; [|exact H|intros b Hb; apply tidy_spec, name_tidy; right; now right]. cbn [obind]. destruct (first_match s (map fst xcint_aliases) 0); reflexivity.
Qed.
Print Assumptions C40_describe_terminated.
Lemma cmp_open s : no_nul s -> forall b, strcasecmp_array (chars s) b = UB \/ (strcasecmp_array (chars s) b = Ok false /\ strcasecmp_eq s b = false).
Proof.
  unfold no_nul. induction s as [|x s IH]; intros Hs b; [left; reflexivity|]. cbn [chars list_ascii_of_string In] in Hs. destruct b as [|y b]; cbn [chars list_ascii_of_string strcasecmp_array strcasecmp_eq].
  - right. destruct (Ascii.eqb_spec x NUL) as [->|_]; [tauto|]. split; reflexivity.
  - destruct (Ascii.eqb (lower_ascii x) (lower_ascii y)); [|right; split; reflexivity]. cbn [andb]. apply IH. tauto.
Qed.
Lemma lookup_open s l : no_nul s -> forall i, lookup_array (chars s) l i = UB \/ (lookup_array (chars s) l i = Ok None /\ first_match s l i = None).
Proof.
  intro Hs. induction l as [|b l IH]; intro i; cbn [lookup_array first_match]; [right; split; reflexivity|].
  destruct (cmp_open s Hs b) as [-> | [-> ->]]; [left; reflexivity|]. cbn [obind]. apply IH.
Qed.
(** A plain Fortran name - any name the library knows - makes it read past the end. *)
Theorem C40_describe_refuted :
  forall s, no_nul s -> xcfun_describe s <> None -> f_describe (chars s) = UB.
Proof.
  intros s H Hd. unfold f_describe. unfold xcfun_describe, xcint_lookup_functional, xcint_lookup_parameter, xcint_lookup_alias in Hd.
  destruct (lookup_open s (map f_name xcint_funs) H 0%nat) as [-> | [-> E1]]; [reflexivity|]. rewrite E1 in Hd. cbn [obind].
  destruct (lookup_open s (map fst xcint_params) H XC_NR_FUNCTIONALS) as [-> | [-> E2]]; [reflexivity|]. rewrite E2 in Hd. cbn [obind].
  destruct (lookup_open s (map fst xcint_aliases) H 0%nat) as [-> | [-> E3]]; [reflexivity|]. rewrite E3 in Hd. congruence.
Qed.
Print Assumptions C40_describe_refuted.
Example C40_describe_case : no_nul "PBEC" /\ xcfun_describe "PBEC" <> None.
Proof. split; [unfold no_nul; vm_compute; intuition discriminate|vm_compute; discriminate]. Qed.

(** ** Arrays *)
(** Column [i] of the result is the evaluation of column [i] of the densities, for arrays
    with room to spare in either direction; the rest of the result array is unchanged, and
    the densities outside the first input_length rows and [n] columns are not used. *)
Theorem C40_eval_vec :
  forall (K : Ops) junk junk' buf (h h' : handle K) v m o (density res : array2 K) (n : nat) L M, reachable h ->
    xcfun_eval_setup h v m o = Ok (h', 0) -> m = XC_PARTIAL_DERIVATIVES \/ m = XC_POTENTIAL ->
    xcfun_input_length h' = Ok L -> xcfun_output_length h' = Ok M ->
    (Z.to_nat L <= d1 density)%nat -> (Z.to_nat M <= d1 res)%nat -> (0 < d2 density)%nat -> (0 < d2 res)%nat ->
    (n <= d2 density)%nat -> (n <= d2 res)%nat -> offsets_fit (Z.of_nat n) (Z.of_nat (d1 density)) (Z.of_nat (d1 res)) ->
    ((forall i, (1 <= i <= n)%nat -> exists ws, xcfun_eval junk' h' buf (column density i) = Ok ws) <->
       exists r, f_eval_vec junk h' (Z.of_nat n) density res = Ok r) /\
    forall r, f_eval_vec junk h' (Z.of_nat n) density res = Ok r ->
      d1 r = d1 res /\ d2 r = d2 res /\
      (forall i ws, (1 <= i <= n)%nat -> xcfun_eval junk' h' buf (column density i) = Ok ws ->
         forall k, (1 <= k <= d1 res)%nat -> at2 r k i = if in_dec Nat.eq_dec (k - 1)%nat (map fst ws) then rd buf ws (k - 1) else at2 res k i) /\
      (forall k i, (1 <= k <= d1 res)%nat -> (n < i)%nat -> at2 r k i = at2 res k i) /\
      (forall density', d1 density' = d1 density -> d2 density' = d2 density ->
         (forall k i, (1 <= k <= Z.to_nat L)%nat -> (1 <= i <= n)%nat -> at2 density' k i = at2 density k i) ->
         exists r', f_eval_vec junk h' (Z.of_nat n) density' res = Ok r' /\ forall k i, (1 <= k <= d1 res)%nat -> (1 <= i)%nat -> at2 r' k i = at2 r k i).
Proof.
  intros K junk junk' buf h h' v m o density res n L M Hr S Hm EL EM HL HM Hd Hrs Hn Hn' Of.
  assert (Lt : forall jk input ws p, xcfun_eval jk h' buf input = Ok ws -> In p (map fst ws) -> (p < Z.to_nat M)%nat).
  { intros jk input ws p E Hp. destruct Hm as [-> | ->].
    - now apply (C08_partial_writes_output_length K jk h h' v o _ _ _ M Hr S EM E).
    - destruct (C08_potential_writes K jk h h' v o _ _ _ M Hr S EM E) as (len & _ & _ & Q). now apply Q. }
  assert (Nz : forall den : array2 K, d2 den = d2 density -> f_eval_vec junk h' (Z.of_nat n) den res =
     (r <- xcfun_eval_vec junk h' (Z.of_nat n) (elt den) (Z.of_nat (d1 den)) (elt res) (Z.of_nat (d1 res)) ;; Ok {| d1 := d1 res; d2 := d2 res; elt := r |})).
  { intros den E2. unfold f_eval_vec. rewrite E2. destruct (d2 density) as [|x]; [lia|]. destruct (d2 res) as [|y]; [lia|]. reflexivity. }
  assert (Col : forall (den : array2 K) i, (1 <= i)%nat -> xcfun_eval junk' h' buf (view (elt den) ((Z.of_nat i - 1) * Z.of_nat (d1 den))) = xcfun_eval junk' h' buf (column den i)).
  { intros den i Hi. apply (C08_reads_input_length K junk' h h' v m o buf _ _ L Hr S EL). intros k Hk. unfold view, column, at2. f_equal. lia. }
  assert (Main : forall den : array2 K, d1 den = d1 density -> d2 den = d2 density ->
    ((forall i, (1 <= i <= n)%nat -> exists ws, xcfun_eval junk' h' buf (column den i) = Ok ws) <-> exists r, f_eval_vec junk h' (Z.of_nat n) den res = Ok r) /\
    forall r, f_eval_vec junk h' (Z.of_nat n) den res = Ok r -> d1 r = d1 res /\ d2 r = d2 res /\
      (forall i ws, (1 <= i <= n)%nat -> xcfun_eval junk' h' buf (column den i) = Ok ws ->
         forall k, (1 <= k <= d1 res)%nat -> at2 r k i = if in_dec Nat.eq_dec (k - 1)%nat (map fst ws) then rd buf ws (k - 1) else at2 res k i) /\
      (forall k i, (1 <= k <= d1 res)%nat -> (n < i)%nat -> at2 r k i = at2 res k i)).
  { intros den E1 E2. rewrite (Nz den E2). rewrite E1.
    destruct (C14_outcome K junk junk' h h' v m o (Z.of_nat n) (elt den) (Z.of_nat (d1 density)) (elt res) (Z.of_nat (d1 res)) buf Hr S Of) as [Q _]. cbn beta zeta in Q.
    split.
    - assert (X : forall A B (x : outcome A) (f : A -> B), (exists r, (r <- x ;; Ok (f r)) = Ok r) <-> exists r, x = Ok r).
      { intros A B [a| | |] f; cbn [obind]; split; intros [r E]; try discriminate; eauto. }
      rewrite X, <- Q. split; intros H i Hi.
      + destruct (H (Z.to_nat (i + 1)) ltac:(lia)) as [ws E]. exists ws. rewrite <- (Col den) in E by lia. rewrite E1 in E. rewrite Z2Nat.id in E by lia. now replace (i + 1 - 1) with i in E by lia.
      + destruct (H (Z.of_nat i - 1) ltac:(lia)) as [ws E]. exists ws. rewrite <- (Col den) by lia. rewrite E1. exact E.
    - intros r E. destruct (xcfun_eval_vec junk h' (Z.of_nat n) (elt den) (Z.of_nat (d1 density)) (elt res) (Z.of_nat (d1 res))) as [z| | |] eqn:Ev; try discriminate. cbn [obind] in E. injection E as <-.
      destruct (C14_pointwise K junk junk' h h' v m o _ _ _ _ _ buf z Hr S Of Ev) as (ws & W & A & B). cbn [d1 d2]. split; [reflexivity|]. split; [reflexivity|].
      assert (Lw : forall i p, 0 <= i < Z.of_nat n -> In p (map fst (ws i)) -> (p < d1 res)%nat) by (intros i p Hi Hp; pose proof (Lt junk' _ _ p (W i Hi) Hp); lia).
      split.
      + intros i w Hi Ew k Hk. assert (w = ws (Z.of_nat i - 1)).
        { rewrite <- (Col den) in Ew by lia. rewrite E1 in Ew. pose proof (W (Z.of_nat i - 1) ltac:(lia)) as W'. rewrite Ew in W'. now injection W'. }
        subst w. unfold at2. cbn [elt d1]. destruct (in_dec Nat.eq_dec (k - 1)%nat (map fst (ws (Z.of_nat i - 1)))) as [I|I].
        * rewrite <- (A (Z.of_nat i - 1) (k - 1)%nat ltac:(lia) I); [f_equal; lia|]. intros j q Hj Hq. pose proof (Lw j q ltac:(lia) Hq). nia.
        * apply B. intros j q Hj Hq Eq. pose proof (Lw j q ltac:(lia) Hq). assert (j = Z.of_nat i - 1) by nia. subst j. assert (q = (k - 1)%nat) by lia. subst q. contradiction.
      + intros k i Hk Hi. unfold at2. cbn [elt d1]. apply B. intros j q Hj Hq Eq. pose proof (Lw j q ltac:(lia) Hq). nia. }
  destruct (Main density eq_refl eq_refl) as [Q R]. split; [exact Q|]. intros r E. destruct (R r E) as (R1 & R2 & R3 & R4). split; [exact R1|]. split; [exact R2|]. split; [exact R3|]. split; [exact R4|].
  intros den E1 E2 Ag. destruct (Main den E1 E2) as [Q' R'].
  assert (Same : forall i, (1 <= i <= n)%nat -> xcfun_eval junk' h' buf (column den i) = xcfun_eval junk' h' buf (column density i)).
  { intros i Hi. apply (C08_reads_input_length K junk' h h' v m o buf _ _ L Hr S EL). intros k Hk. unfold column. apply Ag; [|exact Hi].
    replace (Z.eqb m XC_CONTRACTED) with false in Hk by (destruct Hm as [-> | ->]; reflexivity). lia. }
  assert (X : exists r', f_eval_vec junk h' (Z.of_nat n) den res = Ok r').
  { apply Q'. intros i Hi. rewrite Same by exact Hi. apply (proj2 Q (ex_intro _ r E) i Hi). }
  destruct X as [r' E']. exists r'. split; [exact E'|]. destruct (R' r' E') as (P1 & P2 & P3 & P4). intros k i Hk Hi. destruct (Nat.lt_ge_cases n i) as [Y|Y].
  - now rewrite P4, R4.
  - destruct (proj2 Q (ex_intro _ r E) i ltac:(lia)) as [ws Ew]. rewrite (R3 i ws ltac:(lia) Ew k Hk). apply P3; [lia| |exact Hk]. rewrite Same by lia. exact Ew.
Qed.
Print Assumptions C40_eval_vec.
(** Two columns of a (2, 3) array of spin densities, results in a (4, 2) array with one row
    more than needed. *)
Example C40_eval_case :
  exists (h h' : handle ROps) density res, reachable h /\ xcfun_eval_setup h XC_A_B XC_PARTIAL_DERIVATIVES 1 = Ok (h', 0) /\
    xcfun_input_length h' = Ok 2 /\ xcfun_output_length h' = Ok 3 /\ d1 density = 2%nat /\ d2 density = 3%nat /\ d1 res = 4%nat /\ d2 res = 2%nat /\
    offsets_fit 2 2 4 /\ forall junk, exists r, f_eval_vec junk h' 2 density res = Ok r.
Proof.
  destruct (make (K := ROps) [("slaterx"%string, 0%nat, 1%R)] eq_refl) as (h & Eh & Hr & A & Es). change (mactive _) with [0]%nat in A.
  set (h0 := mkH (h_active h) 1 (h_depends h) XC_PARTIAL_DERIVATIVES XC_A_B (h_settings h)).
  assert (S : xcfun_eval_setup h XC_A_B XC_PARTIAL_DERIVATIVES 1 = Ok (h0, 0)).
  { apply accepts_ok; [exact Hr|rewrite A; vm_compute; reflexivity]. }
  set (density := {| d1 := 2; d2 := 3; elt := (fun i => nth (Z.to_nat (i mod 2)) (encode XC_A_B D_ex) 0%R) : Z -> T ROps |}).
  set (res := {| d1 := 4; d2 := 2; elt := (fun _ => 0%R) : Z -> T ROps |}).
  exists h, h0, density, res. split; [exact Hr|]. split; [exact S|]. split; [reflexivity|]. split; [reflexivity|].
  do 4 (split; [reflexivity|]).
  assert (Of : offsets_fit 2 2 4) by (intros i Hi; lia). split; [exact Of|]. intro junk.
  destruct (C40_eval_vec ROps junk junk (fun _ => 0%R) h h0 XC_A_B XC_PARTIAL_DERIVATIVES 1 density res 2 2 3 Hr S ltac:(now left) eq_refl eq_refl
              ltac:(cbn; lia) ltac:(cbn; lia) ltac:(cbn; lia) ltac:(cbn; lia) ltac:(cbn; lia) ltac:(cbn; lia) Of) as [Q _].
  apply (proj1 Q). intros i Hi. eapply (C33_partial_defined junk h h0 XC_A_B 1 D_ex); [exact Hr|exact S|lia| | |exact D_ex_above|].
  - rewrite Es; unfold msettings; cbn [map fold_left fst snd]; unfold wr_settings, upd; cbn; unfold Q2R; cbn; lra.
  - intros j nm Hj N. rewrite A in Hj. left. destruct Hj as [<- | []]; cbn in N; injection N as <-; cbn; tauto.
  - split; [left; cbn; tauto|]. intros k Hk. unfold column, at2, density. cbn [elt d1]. change (Z.to_nat 2) with 2%nat in *.
    replace (Z.to_nat (((Z.of_nat i - 1) * Z.of_nat 2 + (Z.of_nat (k + 1) - 1)) mod 2)) with k; [reflexivity|].
    replace ((Z.of_nat i - 1) * Z.of_nat 2 + (Z.of_nat (k + 1) - 1)) with (Z.of_nat k + (Z.of_nat i - 1) * 2) by lia. rewrite Z.mod_add by lia.
    cbn [encode List.length] in Hk. assert (Z.of_nat k < 2) by (vm_compute in Hk; lia). rewrite Z.mod_small by lia. now rewrite Nat2Z.id.
Qed.
