(** * Proofs about the API layer *)
From Coq Require Import String Ascii ZArith QArith List Bool Lia Permutation.
From Verif Require Import Scalar Tables Api SpecApi.
Import ListNotations.

(** ** Case-insensitive comparison *)
Lemma lower_char_all : forall a b : ascii,
  Ascii.eqb (lower_ascii a) (lower_ascii b) = true -> ci_char a b.
Proof.
  intros a b H. apply Ascii.eqb_eq in H.
  assert (Ha := nat_ascii_bounded a). assert (Hb := nat_ascii_bounded b).
  unfold lower_ascii in H.
  destruct (andb (Nat.leb 65 (nat_of_ascii a)) (Nat.leb (nat_of_ascii a) 90)) eqn:Ea;
  destruct (andb (Nat.leb 65 (nat_of_ascii b)) (Nat.leb (nat_of_ascii b) 90)) eqn:Eb.
  - apply andb_prop in Ea; apply andb_prop in Eb.
    destruct Ea as [A1 A2], Eb as [B1 B2].
    apply Nat.leb_le in A1, A2, B1, B2.
    assert (nat_of_ascii (ascii_of_nat (nat_of_ascii a + 32)) =
            nat_of_ascii (ascii_of_nat (nat_of_ascii b + 32))) as E by now rewrite H.
    rewrite !nat_ascii_embedding in E by lia.
    left. rewrite <- (ascii_nat_embedding a), <- (ascii_nat_embedding b). f_equal. lia.
  - apply andb_prop in Ea. destruct Ea as [A1 A2]. apply Nat.leb_le in A1, A2.
    right. exists (nat_of_ascii a). split; [lia|]. left. split; [reflexivity|].
    rewrite <- H. apply nat_ascii_embedding. lia.
  - apply andb_prop in Eb. destruct Eb as [A1 A2]. apply Nat.leb_le in A1, A2.
    right. exists (nat_of_ascii b). split; [lia|]. right. split; [reflexivity|].
    rewrite H. apply nat_ascii_embedding. lia.
  - now left.
Qed.

Lemma ci_char_lower : forall a b, ci_char a b -> lower_ascii a = lower_ascii b.
Proof.
  intros a b [->|(n & Hn & [[Ha Hb]|[Ha Hb]])]; [reflexivity| |].
  - unfold lower_ascii. rewrite Ha, Hb.
    replace (Nat.leb 65 n) with true by (symmetry; apply Nat.leb_le; lia).
    replace (Nat.leb n 90) with true by (symmetry; apply Nat.leb_le; lia).
    replace (Nat.leb (n + 32) 90) with false by (symmetry; apply Nat.leb_gt; lia).
    rewrite andb_false_r. cbn. rewrite <- Hb. apply ascii_nat_embedding.
  - unfold lower_ascii. rewrite Ha, Hb.
    replace (Nat.leb 65 n) with true by (symmetry; apply Nat.leb_le; lia).
    replace (Nat.leb n 90) with true by (symmetry; apply Nat.leb_le; lia).
    replace (Nat.leb (n + 32) 90) with false by (symmetry; apply Nat.leb_gt; lia).
    rewrite andb_false_r. cbn. rewrite <- Hb. symmetry. apply ascii_nat_embedding.
Qed.

Lemma strcasecmp_ci : forall a b, strcasecmp_eq a b = true <-> ci_eq a b.
Proof.
  induction a as [|x a IH]; destruct b as [|y b]; cbn; split; intro H;
    try discriminate; try (inversion H; fail); try constructor.
  - apply andb_prop in H. now apply lower_char_all.
  - apply andb_prop in H. now apply IH.
  - inversion H; subst. apply andb_true_intro. split.
    + apply Ascii.eqb_eq. now apply ci_char_lower.
    + now apply IH.
Qed.

Lemma ci_eq_lower : forall a b, ci_eq a b ->
  forall c, strcasecmp_eq a c = strcasecmp_eq b c.
Proof.
  induction 1 as [|x y s t Hc Hs IH]; intros [|z c]; cbn; try reflexivity.
  rewrite (ci_char_lower _ _ Hc). now rewrite IH.
Qed.

Lemma ci_refl : forall s, ci_eq s s.
Proof. induction s; constructor; auto. now left. Qed.

Lemma ci_char_sym a b : ci_char a b -> ci_char b a.
Proof.
  intros [->|(n & Hn & H)]; [now left|]. right. exists n. split; [exact Hn|]. tauto.
Qed.
Lemma ci_sym : forall s t, ci_eq s t -> ci_eq t s.
Proof. induction 1; constructor; auto using ci_char_sym. Qed.
Lemma ci_trans : forall s t u, ci_eq s t -> ci_eq t u -> ci_eq s u.
Proof.
  intros s t u H1 H2. apply strcasecmp_ci. rewrite (ci_eq_lower _ _ H1).
  now apply strcasecmp_ci.
Qed.

(** ** Linear lookup *)
Lemma first_match_ge : forall name l k i, first_match name l k = Some i -> (k <= i)%nat.
Proof.
  induction l as [|x l IH]; cbn; intros k i H; [discriminate|].
  destruct (strcasecmp_eq name x); [inversion H; lia|]. apply IH in H. lia.
Qed.

Lemma first_match_some : forall name l k i, first_match name l k = Some i ->
  exists s, nth_error l (i - k) = Some s /\ ci_eq name s /\ (k <= i)%nat.
Proof.
  induction l as [|x l IH]; cbn; intros k i H; [discriminate|].
  destruct (strcasecmp_eq name x) eqn:E.
  - inversion H; subst. rewrite Nat.sub_diag. exists x. repeat split; auto.
    now apply strcasecmp_ci.
  - pose proof (first_match_ge _ _ _ _ H) as Hge. apply IH in H.
    destruct H as (s & Hs & Hc & _). exists s. repeat split; auto; try lia.
    replace (i - k)%nat with (S (i - S k)) by lia. exact Hs.
Qed.

Lemma first_match_none : forall name l k, first_match name l k = None <->
  (forall s, In s l -> ~ ci_eq name s).
Proof.
  induction l as [|x l IH]; cbn; intros k; [firstorder|].
  destruct (strcasecmp_eq name x) eqn:E.
  - split; [discriminate|]. intro H. exfalso. apply (H x); [now left|].
    now apply strcasecmp_ci.
  - rewrite IH. split.
    + intros H s [<-|Hs]; [|now apply H]. intro C. apply strcasecmp_ci in C. congruence.
    + intros H s Hs. apply H. now right.
Qed.

Lemma first_match_ci : forall a b l k, ci_eq a b -> first_match a l k = first_match b l k.
Proof.
  intros a b l k H. revert k. induction l as [|x l IH]; intro k; cbn; [reflexivity|].
  rewrite (ci_eq_lower _ _ H). now rewrite IH.
Qed.

(** Names that are pairwise distinct up to case. *)
Fixpoint ci_distinct (l : list string) : bool :=
  match l with
  | [] => true
  | x :: l' => andb (negb (existsb (strcasecmp_eq x) l')) (ci_distinct l')
  end.

Lemma ci_distinct_inj : forall l, ci_distinct l = true ->
  forall i j s t, nth_error l i = Some s -> nth_error l j = Some t -> ci_eq s t -> i = j.
Proof.
  induction l as [|x l IH]; intros Hd i j s t Hi Hj Hc; [destruct i; discriminate|].
  cbn in Hd. apply andb_prop in Hd. destruct Hd as [Hn Hd].
  apply negb_true_iff in Hn.
  assert (Hx : forall t, In t l -> ~ ci_eq x t).
  { intros u Hu C. apply strcasecmp_ci in C.
    assert (existsb (strcasecmp_eq x) l = true) by (apply existsb_exists; eauto). congruence. }
  destruct i, j; cbn in Hi, Hj; auto.
  - inversion Hi; subst. exfalso. apply (Hx t); auto. now apply nth_error_In in Hj.
  - inversion Hj; subst. exfalso. apply (Hx s); [now apply nth_error_In in Hi|]. now apply ci_sym.
  - f_equal. eapply IH; eauto.
Qed.

Lemma item_names_distinct : ci_distinct item_names = true.
Proof. vm_compute. reflexivity. Qed.
Lemma alias_names_distinct : ci_distinct (map fst xcint_aliases) = true.
Proof. vm_compute. reflexivity. Qed.
Lemma funs_length : length xcint_funs = XC_NR_FUNCTIONALS.
Proof. reflexivity. Qed.
Lemma items_length : length item_names = XC_NR_PARAMETERS_AND_FUNCTIONALS.
Proof. reflexivity. Qed.

Lemma is_item_inj : forall n i j, is_item n i -> is_item n j -> i = j.
Proof.
  intros n i j (s & Hs & Cs) (t & Ht & Ct).
  eapply ci_distinct_inj; [apply item_names_distinct|exact Hs|exact Ht|].
  eapply ci_trans; [apply ci_sym; exact Cs|exact Ct].
Qed.

Lemma is_item_lt : forall n i, is_item n i -> (i < 82)%nat.
Proof.
  intros n i (s & Hs & _). change 82%nat with (length item_names).
  apply nth_error_Some. congruence.
Qed.

Lemma lookup_functional_spec : forall name i,
  xcint_lookup_functional name = Some i <-> is_item name i /\ (i < 78)%nat.
Proof.
  intros name i. unfold xcint_lookup_functional. split.
  - intro H. apply first_match_some in H. destruct H as (s & Hs & Hc & _).
    rewrite Nat.sub_0_r in Hs.
    assert (i < 78)%nat.
    { change 78%nat with (length (map f_name xcint_funs)). apply nth_error_Some. congruence. }
    split; [|exact H]. exists s. split; [|exact Hc].
    unfold item_names. rewrite nth_error_app1; [exact Hs|]. rewrite map_length, funs_length. exact H.
  - intros [(s & Hs & Hc) Hlt].
    destruct (first_match name (map f_name xcint_funs) 0) as [j|] eqn:E.
    + f_equal. pose proof E as E'. apply first_match_some in E'. destruct E' as (t & Ht & Ct & _).
      rewrite Nat.sub_0_r in Ht.
      eapply is_item_inj with (n := name).
      * exists t. split; [|exact Ct]. unfold item_names. rewrite nth_error_app1; [exact Ht|].
        apply nth_error_Some. congruence.
      * exists s. now split.
    + exfalso. rewrite first_match_none in E. apply (E s); [|exact Hc].
      unfold item_names in Hs. rewrite nth_error_app1 in Hs by (rewrite map_length, funs_length; exact Hlt).
      eapply nth_error_In; eauto.
Qed.

Lemma lookup_parameter_spec : forall name i,
  xcint_lookup_parameter name = Some i <-> is_item name i /\ (78 <= i)%nat.
Proof.
  intros name i. unfold xcint_lookup_parameter. split.
  - intro H. apply first_match_some in H. destruct H as (s & Hs & Hc & Hge).
    split; [|exact Hge]. exists s. split; [|exact Hc].
    unfold item_names. rewrite nth_error_app2; [|rewrite map_length, funs_length; exact Hge].
    rewrite map_length, funs_length. exact Hs.
  - intros [(s & Hs & Hc) Hge].
    unfold item_names in Hs.
    rewrite nth_error_app2, map_length, funs_length in Hs by (rewrite map_length, funs_length; exact Hge).
    destruct (first_match name (map fst xcint_params) XC_NR_FUNCTIONALS) as [j|] eqn:E.
    + f_equal. pose proof E as E'. apply first_match_some in E'. destruct E' as (t & Ht & Ct & Hge').
      eapply is_item_inj with (n := name).
      * exists t. split; [|exact Ct]. unfold item_names.
        rewrite nth_error_app2, map_length, funs_length by (rewrite map_length, funs_length; exact Hge').
        exact Ht.
      * exists s. split; [|exact Hc]. unfold item_names.
        rewrite nth_error_app2, map_length, funs_length by (rewrite map_length, funs_length; exact Hge).
        exact Hs.
    + exfalso. rewrite first_match_none in E. apply (E s); [|exact Hc]. eapply nth_error_In; eauto.
Qed.

Lemma lookup_alias_some : forall name k, xcint_lookup_alias name = Some k ->
  exists a ts, nth_error xcint_aliases k = Some (a, ts) /\ ci_eq name a.
Proof.
  intros name k H. apply first_match_some in H. destruct H as (s & Hs & Hc & _).
  rewrite Nat.sub_0_r in Hs. rewrite nth_error_map in Hs.
  destruct (nth_error xcint_aliases k) as [[a ts]|] eqn:E; [|discriminate].
  cbn in Hs. inversion Hs; subst. eauto.
Qed.

Lemma lookup_alias_none : forall name, xcint_lookup_alias name = None <->
  (forall ts, ~ is_alias name ts).
Proof.
  intros name. unfold xcint_lookup_alias. rewrite first_match_none. split.
  - intros H ts (a & Hin & Hc). apply (H a); [|exact Hc].
    change a with (fst (a, ts)). now apply in_map.
  - intros H s Hs Hc. apply in_map_iff in Hs. destruct Hs as ([a ts] & <- & Hin).
    apply (H ts). exists a. now split.
Qed.

Lemma is_alias_inj : forall n t1 t2, is_alias n t1 -> is_alias n t2 -> t1 = t2.
Proof.
  intros n t1 t2 (a & Ha & Ca) (b & Hb & Cb).
  apply In_nth_error in Ha. apply In_nth_error in Hb.
  destruct Ha as [i Hi], Hb as [j Hj].
  assert (i = j).
  { eapply ci_distinct_inj; [apply alias_names_distinct| | |].
    - rewrite nth_error_map, Hi. reflexivity.
    - rewrite nth_error_map, Hj. reflexivity.
    - cbn. eapply ci_trans; [apply ci_sym; exact Ca|exact Cb]. }
  subst j. rewrite Hi in Hj. now inversion Hj.
Qed.

Lemma lookup_alias_is_alias : forall name ts, is_alias name ts ->
  exists k a, xcint_lookup_alias name = Some k /\ nth_error xcint_aliases k = Some (a, ts).
Proof.
  intros name ts H. destruct (xcint_lookup_alias name) as [k|] eqn:E.
  - destruct (lookup_alias_some _ _ E) as (a & ts' & Hk & Hc).
    exists k, a. split; [reflexivity|]. rewrite Hk. do 2 f_equal.
    eapply is_alias_inj; [|exact H]. exists a. split; [|exact Hc]. eapply nth_error_In; eauto.
  - rewrite lookup_alias_none in E. exfalso. eapply E; eauto.
Qed.

Lemma item_dec : forall name, {i | is_item name i} + {no_item name}.
Proof.
  intro name. destruct (xcint_lookup_functional name) as [i|] eqn:E1.
  - left. exists i. now apply lookup_functional_spec in E1.
  - destruct (xcint_lookup_parameter name) as [i|] eqn:E2.
    + left. exists i. now apply lookup_parameter_spec in E2.
    + right. intros i Hi. destruct (Nat.lt_ge_cases i 78) as [H|H].
      * assert (xcint_lookup_functional name = Some i) by (apply lookup_functional_spec; auto).
        congruence.
      * assert (xcint_lookup_parameter name = Some i) by (apply lookup_parameter_spec; auto).
        congruence.
Qed.

Lemma no_item_lookup : forall name, no_item name ->
  xcint_lookup_functional name = None /\ xcint_lookup_parameter name = None.
Proof.
  intros name H. split.
  - destruct (xcint_lookup_functional name) eqn:E; [|reflexivity].
    apply lookup_functional_spec in E. exfalso. eapply H; apply E.
  - destruct (xcint_lookup_parameter name) eqn:E; [|reflexivity].
    apply lookup_parameter_spec in E. exfalso. eapply H; apply E.
Qed.

(** Every term of every alias is a functional or a parameter, and there are at most
    [MAX_ALIAS_TERMS] of them (checked by computation on the table). *)
Definition resolves (n : string) : bool :=
  match xcint_lookup_functional n, xcint_lookup_parameter n with
  | None, None => false
  | _, _ => true
  end.
Lemma alias_terms_check :
  forallb (fun a => andb (Nat.leb (length (snd a)) MAX_ALIAS_TERMS)
                         (forallb (fun t => resolves (fst t)) (snd a))) xcint_aliases = true.
Proof. vm_compute. reflexivity. Qed.

Lemma alias_terms_resolve : forall a ts, In (a, ts) xcint_aliases ->
  (length ts <= MAX_ALIAS_TERMS)%nat /\ forall t, In t ts -> exists i, is_item (fst t) i.
Proof.
  intros a ts H. pose proof alias_terms_check as C. rewrite forallb_forall in C.
  specialize (C _ H). cbn in C. apply andb_prop in C. destruct C as [C1 C2]. split.
  - now apply Nat.leb_le.
  - intros t Ht. rewrite forallb_forall in C2. specialize (C2 _ Ht). unfold resolves in C2.
    destruct (item_dec (fst t)) as [[i Hi]|Hn]; [eauto|].
    apply no_item_lookup in Hn. destruct Hn as [E1 E2]. rewrite E1, E2 in C2. discriminate.
Qed.

Lemma flags_nth : forall i, (i < 78)%nat ->
  exists fd, nth_error xcint_funs i = Some fd /\ f_depends fd = flags i.
Proof.
  intros i H. destruct (nth_error xcint_funs i) as [fd|] eqn:E.
  - exists fd. split; [reflexivity|]. unfold flags. now rewrite (nth_error_nth _ _ _ E).
  - apply nth_error_None in E. rewrite funs_length in E. unfold XC_NR_FUNCTIONALS in E. lia.
Qed.

Section SetCalls.
Context {K : Ops}.
Implicit Types h : handle K.

(** Effect of elementary writes on the three mutable parts. *)
Definition wr_settings (s : nat -> K) (w : nat * K) : nat -> K :=
  upd s (fst w) (if Nat.ltb (fst w) 78 then Oadd (s (fst w)) (snd w) else snd w).
Definition wr_active (l : list nat) (w : nat * K) : list nat :=
  if Nat.ltb (fst w) 78 then
    if existsb (Nat.eqb (fst w)) l then l else l ++ [fst w]
  else l.
Definition or_flags (l : list nat) : Z := fold_left (fun d i => Z.lor d (flags i)) l 0%Z.

(** The bookkeeping invariant. *)
Definition wf h : Prop :=
  NoDup (h_active h) /\ (forall i, In i (h_active h) -> (i < 78)%nat) /\
  h_depends h = or_flags (h_active h).

Lemma wf_new : wf xcfun_new.
Proof. repeat split; [constructor|contradiction]. Qed.

Lemma or_flags_app : forall l i, or_flags (l ++ [i]) = Z.lor (or_flags l) (flags i).
Proof. intros. unfold or_flags. now rewrite fold_left_app. Qed.

Lemma NoDup_snoc : forall (l : list nat) i, NoDup l -> ~ In i l -> NoDup (l ++ [i]).
Proof.
  intros l i H Hi. apply NoDup_rev in H. rewrite <- (rev_involutive (l ++ [i])).
  apply NoDup_rev. rewrite rev_app_distr. cbn. constructor; [|exact H].
  now rewrite <- in_rev.
Qed.

Lemma active_room : forall (l : list nat) i, NoDup l -> (forall j, In j l -> (j < 78)%nat) ->
  ~ In i l -> (i < 78)%nat -> (length l < 78)%nat.
Proof.
  intros l i Hnd Hlt Hni Hi.
  assert (Hlen : (length (l ++ [i]) <= length (seq 0 78))%nat).
  { apply NoDup_incl_length; [now apply NoDup_snoc|].
    intros j Hj. apply in_seq. apply in_app_or in Hj. destruct Hj as [Hj|[<-|[]]]; [|lia].
    specialize (Hlt _ Hj). lia. }
  rewrite app_length, seq_length in Hlen. cbn in Hlen. lia.
Qed.

(** What an elementary write does; the other fields are untouched. *)
Definition after (h : handle K) (ws : list (nat * K)) (h' : handle K) : Prop :=
  h_settings h' = fold_left wr_settings ws (h_settings h) /\
  h_active h' = fold_left wr_active ws (h_active h) /\
  h_order h' = h_order h /\ h_mode h' = h_mode h /\ h_vars h' = h_vars h.

Lemma after_nil h : after h [] h.
Proof. repeat split. Qed.
Lemma after_trans h h1 h2 w1 w2 : after h w1 h1 -> after h1 w2 h2 -> after h (w1 ++ w2) h2.
Proof.
  intros (A1&A2&A3&A4&A5) (B1&B2&B3&B4&B5). unfold after. rewrite !fold_left_app.
  rewrite <- A1, <- A2. repeat split; congruence.
Qed.

Lemma set_item_ok h name i v fuel : wf h -> is_item name i ->
  exists h', xcfun_set_f (S fuel) h name v = Ok (h', 0%Z) /\ wf h' /\ after h [(i, v)] h'.
Proof.
  intros (Hnd & Hlt & Hdep) Hi. pose proof (is_item_lt _ _ Hi) as Hi82.
  destruct (Nat.lt_ge_cases i 78) as [H78|H78].
  - assert (E : xcint_lookup_functional name = Some i) by (apply lookup_functional_spec; auto).
    cbn [xcfun_set_f]. rewrite E. unfold set_item.
    replace (Nat.ltb i XC_NR_PARAMETERS_AND_FUNCTIONALS) with true
      by (symmetry; apply Nat.ltb_lt; exact Hi82).
    cbn [obind]. unfold activate. cbn [h_active h_order h_depends h_mode h_vars h_settings].
    assert (Hb : Nat.ltb i 78 = true) by now apply Nat.ltb_lt.
    destruct (existsb (Nat.eqb i) (h_active h)) eqn:Ex.
    + cbn [obind]. eexists. split; [reflexivity|]. split; [now repeat split|].
      unfold after, wr_settings, wr_active. cbn [fold_left fst snd h_active h_order h_depends h_mode h_vars h_settings].
      rewrite Hb, Ex. now repeat split.
    + assert (Hni : ~ In i (h_active h)).
      { intro C. assert (existsb (Nat.eqb i) (h_active h) = true); [|congruence].
        apply existsb_exists. exists i. split; [exact C|apply Nat.eqb_refl]. }
      pose proof (active_room _ _ Hnd Hlt Hni H78) as Hroom.
      replace (Nat.ltb (length (h_active h)) XC_NR_FUNCTIONALS) with true
        by (symmetry; apply Nat.ltb_lt; exact Hroom).
      destruct (flags_nth _ H78) as (fd & Hfd & Hfl). rewrite Hfd. cbn [obind].
      eexists. split; [reflexivity|]. split.
      * split; [|split]; cbn [h_active h_depends].
        -- now apply NoDup_snoc.
        -- intros j Hj. apply in_app_or in Hj. destruct Hj as [Hj|[<-|[]]]; auto.
        -- rewrite or_flags_app, Hdep, Hfl. reflexivity.
      * unfold after, wr_settings, wr_active.
        cbn [fold_left fst snd h_active h_order h_depends h_mode h_vars h_settings].
        rewrite Hb, Ex. now repeat split.
  - assert (E : xcint_lookup_parameter name = Some i) by (apply lookup_parameter_spec; auto).
    assert (E0 : xcint_lookup_functional name = None).
    { destruct (xcint_lookup_functional name) as [j|] eqn:E0; [|reflexivity].
      apply lookup_functional_spec in E0. destruct E0 as [Hj Hj'].
      rewrite (is_item_inj _ _ _ Hi Hj) in H78. lia. }
    cbn [xcfun_set_f]. rewrite E0, E. unfold set_item.
    replace (Nat.ltb i XC_NR_PARAMETERS_AND_FUNCTIONALS) with true
      by (symmetry; apply Nat.ltb_lt; exact Hi82).
    cbn [obind].
    eexists. split; [reflexivity|]. split; [now repeat split|].
    assert (Hb : Nat.ltb i 78 = false) by now apply Nat.ltb_ge.
    unfold after, wr_settings, wr_active.
    cbn [fold_left fst snd h_active h_order h_depends h_mode h_vars h_settings].
    rewrite Hb. now repeat split.
Qed.

Lemma set_unfold fuel h name v : xcfun_set_f (S fuel) h name v =
    match xcint_lookup_functional name with
    | Some item =>
        obind (set_item h item (Oadd (h_settings h item) v)) (fun h1 =>
        obind (activate h1 item) (fun h2 => Ok (h2, 0%Z)))
    | None =>
      match xcint_lookup_parameter name with
      | Some item => obind (set_item h item v) (fun h1 => Ok (h1, 0%Z))
      | None =>
        match xcint_lookup_alias name with
        | Some item =>
            alias_loop (xcfun_set_f fuel) v h
              (firstn MAX_ALIAS_TERMS (snd (nth item xcint_aliases (EmptyString, []))))
        | None => Ok (h, (-1)%Z)
        end
      end
    end.
Proof. reflexivity. Qed.

(** The loop over alias terms. *)
Lemma set_terms_ok fuel v : forall (ts : list (string * Q)) ws h, wf h ->
  Forall2 (fun t w => is_item (fst t) (fst w) /\ snd w = Omul v (OofQ (snd t))) ts ws ->
  exists h',
    alias_loop (xcfun_set_f (S fuel)) v h ts = Ok (h', 0%Z) /\ wf h' /\ after h ws h'.
Proof.
  induction ts as [|[n q] ts IH]; intros ws h Hwf HF; inversion HF; subst.
  - exists h. split; [reflexivity|]. split; [exact Hwf|]. apply after_nil.
  - destruct H1 as [Hi Hv]. destruct y as [i u]. cbn in Hi, Hv. subst u.
    destruct (set_item_ok h n i (Omul v (OofQ q)) fuel Hwf Hi) as (h1 & E1 & Hwf1 & A1).
    cbn [alias_loop]. rewrite E1. cbn [obind snd fst Z.eqb].
    destruct (IH _ _ Hwf1 H3) as (h2 & E2 & Hwf2 & A2).
    exists h2. split; [exact E2|]. split; [exact Hwf2|].
    change ((i, Omul v (OofQ q)) :: l') with ([(i, Omul v (OofQ q))] ++ l').
    eapply after_trans; eauto.
Qed.

(** Executing a set call performs exactly its elementary writes. *)
Lemma set_ok h name v ws fuel : wf h -> writes name v ws ->
  exists h', xcfun_set_f (S (S fuel)) h name v =
             Ok (h', match ws with [] => match xcint_lookup_alias name with
                                         | Some _ => 0%Z | None => (-1)%Z end
                               | _ => 0%Z end) /\
             wf h' /\ after h ws h'.
Proof.
  intros Hwf Hw. inversion Hw; subst.
  - apply set_item_ok; auto.
  - destruct (no_item_lookup _ H) as [E1 E2].
    destruct (lookup_alias_is_alias _ _ H0) as (k & a & E3 & Hk).
    destruct (alias_terms_resolve a terms (nth_error_In _ _ Hk)) as [Hlen _].
    destruct (set_terms_ok fuel v terms ws h Hwf H1) as (h' & E & Hwf' & A).
    exists h'. split; [|split; assumption].
    rewrite set_unfold.
    rewrite E1, E2, E3. rewrite (nth_error_nth _ _ _ Hk). cbn [snd].
    rewrite firstn_all2 by exact Hlen. rewrite E. f_equal. f_equal.
    destruct ws; reflexivity.
  - destruct (no_item_lookup _ H) as [E1 E2].
    pose proof (proj2 (lookup_alias_none name) H0) as E3.
    exists h. rewrite set_unfold, E1, E2, E3. split; [reflexivity|].
    split; [exact Hwf|apply after_nil].
Qed.

Lemma writes_total name (v : K) : exists ws, writes name v ws.
Proof.
  destruct (item_dec name) as [[i Hi]|Hn].
  - eexists. eapply w_item; eauto.
  - destruct (xcint_lookup_alias name) as [k|] eqn:E.
    + destruct (lookup_alias_some _ _ E) as (a & ts & Hk & Hc).
      assert (Hal : is_alias name ts) by (exists a; split; [eapply nth_error_In; eauto|exact Hc]).
      destruct (alias_terms_resolve a ts (nth_error_In _ _ Hk)) as [_ Hr].
      assert (exists ws, Forall2 (fun t w => is_item (fst t) (fst w) /\
                 snd w = Omul v (OofQ (snd t))) ts ws) as [ws Hws].
      { clear -Hr. induction ts as [|t ts IH]; [exists []; constructor|].
        destruct (Hr t (or_introl eq_refl)) as [i Hi].
        destruct IH as [ws Hws]; [intros; apply Hr; now right|].
        exists ((i, Omul v (OofQ (snd t))) :: ws). constructor; auto. }
      exists ws. eapply w_alias; eauto.
    + exists []. apply w_unknown; [exact Hn|]. now apply lookup_alias_none.
Qed.

Lemma writes_det name (v : K) ws1 ws2 : writes name v ws1 -> writes name v ws2 -> ws1 = ws2.
Proof.
  intros H1 H2. inversion H1; subst; inversion H2; subst;
    try (exfalso; match goal with H : no_item _ |- _ => eapply H; eauto end; fail);
    try (exfalso; match goal with H : forall ts, ~ is_alias _ ts |- _ => eapply H; eauto end; fail).
  - rewrite (is_item_inj _ _ _ H H0). reflexivity.
  - rewrite (is_alias_inj _ _ _ H5 H0) in H6. clear -H3 H6.
    revert ws2 H6. induction H3 as [|t w ts ws [Hi Hv] _ IH]; intros ws2 H5;
      inversion H5; subst; [reflexivity|].
    destruct H1 as [Hj Hu]. destruct w as [i u], y as [j u']. cbn in *.
    rewrite (is_item_inj _ _ _ Hi Hj). f_equal; [congruence|]. now apply IH.
  - reflexivity.
Qed.

(** Depth of the alias recursion: two levels always suffice. *)
Lemma set_fuel_irrelevant h name v fuel1 fuel2 : wf h ->
  xcfun_set_f (S (S fuel1)) h name v = xcfun_set_f (S (S fuel2)) h name v.
Proof.
  intro Hwf. destruct (writes_total name v) as [ws Hws].
  (* both runs perform the same computation step by step *)
  destruct (item_dec name) as [[i Hi]|Hn].
  - rewrite !set_unfold. destruct (Nat.lt_ge_cases i 78) as [H78|H78].
    + replace (xcint_lookup_functional name) with (Some i)
        by (symmetry; apply lookup_functional_spec; auto). reflexivity.
    + destruct (xcint_lookup_functional name); [reflexivity|].
      replace (xcint_lookup_parameter name) with (Some i)
        by (symmetry; apply lookup_parameter_spec; auto). reflexivity.
  - destruct (no_item_lookup _ Hn) as [E1 E2].
    rewrite !(set_unfold (S _) _ name), E1, E2.
    destruct (xcint_lookup_alias name) as [k|] eqn:E3; [|reflexivity].
    destruct (lookup_alias_some _ _ E3) as (a & ts & Hk & Hc).
    rewrite (nth_error_nth _ _ _ Hk). cbn [snd].
    destruct (alias_terms_resolve a ts (nth_error_In _ _ Hk)) as [Hlen Hr].
    rewrite firstn_all2 by exact Hlen. clear Hk Hlen. revert h Hwf.
    induction ts as [|[n q] ts IH]; intros h Hwf; [reflexivity|].
    destruct (Hr _ (or_introl eq_refl)) as [i Hi]. cbn in Hi.
    assert (Hs : forall f, xcfun_set_f (S f) h n (Omul v (OofQ q)) =
                 xcfun_set_f (S 0) h n (Omul v (OofQ q))).
    { intro f. rewrite !set_unfold.
      destruct (Nat.lt_ge_cases i 78) as [H78|H78].
      - replace (xcint_lookup_functional n) with (Some i)
          by (symmetry; apply lookup_functional_spec; auto). reflexivity.
      - destruct (xcint_lookup_functional n); [reflexivity|].
        replace (xcint_lookup_parameter n) with (Some i)
          by (symmetry; apply lookup_parameter_spec; auto). reflexivity. }
    destruct (set_item_ok h n i (Omul v (OofQ q)) 0 Hwf Hi) as (h1 & E & Hwf1 & _).
    cbn [alias_loop]. rewrite (Hs fuel1), (Hs fuel2), E. cbn [obind snd fst Z.eqb].
    apply IH; auto. intros; apply Hr; now right.
Qed.
End SetCalls.
