(** * The derivative loops fill the output in graded order, for any scalar type *)
From Coq Require Import QArith ZArith Arith Lia List Bool.
From Verif Require Import Scalar Tables Api SpecApi CTaylor TMath Br Expr Densvars Functionals Eval SpecEval.
Import ListNotations.
Local Open Scope outcome_scope.
Local Open Scope nat_scope.

(** [oP Q F o]: the outcome is a success satisfying Q, or a domain failure allowed by F;
    never the end of the process nor undefined behaviour. *)
Definition oP {A} (Q : A -> Prop) (F : Prop) (o : outcome A) : Prop :=
  match o with Ok a => Q a | Dom => F | _ => False end.
Lemma oP_imp {A} (Q Q' : A -> Prop) F o : (forall a, Q a -> Q' a) -> oP Q F o -> oP Q' F o.
Proof. destruct o; cbn; auto. Qed.
Lemma oP_bind {A B} (Q : A -> Prop) (Q' : B -> Prop) F o f :
  oP Q F o -> (forall a, Q a -> oP Q' F (f a)) -> oP Q' F (obind o f).
Proof. destruct o; cbn; auto. Qed.
Lemma oP_ofold {S} (f : S -> nat -> outcome S) (P : nat -> S -> Prop) F : forall len a s,
  P a s -> (forall i s, a <= i < a + len -> P i s -> oP (P (Datatypes.S i)) F (f s i)) ->
  oP (P (a + len)) F (ofold f s (seq a len)).
Proof.
  induction len; intros a s H0 H; cbn [seq ofold]; [now rewrite Nat.add_0_r|].
  eapply oP_bind; [apply H; [lia|exact H0]|]. intros s' H'. replace (a + Datatypes.S len) with (Datatypes.S a + len) by lia.
  apply IHlen; [exact H'|]. intros; apply H; [lia|assumption].
Qed.

Section L.
Context {K : Ops}.

(** The last value written to a slot. *)
Definition lastw (ws : writes (K := K)) (p : nat) : option K :=
  fold_left (fun acc w => if Nat.eqb (fst w) p then Some (snd w) else acc) ws None.
Lemma lastw_w1 ws q v p : lastw (w1 ws q v) p = if Nat.eqb q p then Some v else lastw ws p.
Proof. unfold lastw, w1. now rewrite fold_left_app. Qed.
Lemma lastw_gen ws : forall p acc,
  fold_left (fun acc w => if Nat.eqb (fst w) p then Some (snd w) else acc) ws acc
  = match lastw ws p with Some v => Some v | None => acc end.
Proof.
  unfold lastw. induction ws as [|[q v] ws IH]; intros p acc; cbn; [reflexivity|].
  rewrite (IH p (if Nat.eqb q p then Some v else acc)), (IH p (if Nat.eqb q p then Some v else None)).
  destruct (fold_left _ ws None); [reflexivity|]. destruct (Nat.eqb q p); reflexivity.
Qed.
Lemma rd_lastw ws : forall buf p, rd buf ws p = match lastw ws p with Some v => v | None => buf p end.
Proof.
  induction ws as [|[q v] ws IH]; intros buf p; [reflexivity|]. cbn [rd]. rewrite IH.
  unfold lastw at 2. cbn [fold_left fst snd]. rewrite lastw_gen. destruct (lastw ws p); [reflexivity|].
  rewrite (Nat.eqb_sym p q). destruct (Nat.eqb q p); reflexivity.
Qed.
Lemma lastw_none ws p : lastw ws p = None <-> ~ In p (map fst ws).
Proof.
  induction ws as [|[q v] ws IH]; [cbn; tauto|]. unfold lastw. cbn [fold_left fst snd map In]. rewrite lastw_gen.
  destruct (Nat.eqb_spec q p) as [->|N].
  - destruct (lastw ws p); split; try discriminate; tauto.
  - destruct (lastw ws p) eqn:E.
    + split; [discriminate|]. intro H. exfalso. apply H. right. destruct (in_dec Nat.eq_dec p (map fst ws)); [assumption|].
      apply IH in n. discriminate.
    + split; [|auto]. intros _ [H|H]; [contradiction|]. apply IH in H; auto.
Qed.

Variable h : handle K.
Variable input : nat -> K.
Variable n : nat.                (* number of inputs *)
Variable junk : forall n : nat, nat -> ct K n.
Variable V : list nat -> K -> Prop.
Variable F : Prop.

Notation "0k" := (@OofQ K 0%Q).
Notation "1k" := (@OofQ K 1%Q).
Definition dl (o : option nat) (m : nat) : K :=
  match o with Some i => if Nat.eqb i m then 1k else 0k | None => 0k end.
(** Inputs with the infinitesimals attached to the given variables. *)
Definition s1 (a : option nat) (m : nat) : ct K 1 := (input m, dl a m).
Definition s2 (a b : option nat) (m : nat) : ct K 2 := ((input m, dl a m), (dl b m, 0k)).
Definition s3 (a b c : option nat) (m : nat) : ct K 3 :=
  (((input m, dl a m), (dl b m, 0k)), ((dl c m, 0k), (0k, 0k))).
Definition agr {A} (d d' : nat -> A) : Prop := forall m, m < n -> d m = d' m.

Ltac agr_tac := intros m Hm; unfold aupd; match goal with |- (if Nat.eqb m ?i then _ else _) = _ => destruct (Nat.eqb_spec m i) as [->|] end;
  repeat match goal with H : agr _ _ |- _ => rewrite H by lia; clear H end;
  unfold s1, s2, s3, dl; cbn;
  repeat match goal with |- context [Nat.eqb ?a ?b] => destruct (Nat.eqb_spec a b); try lia; subst end; try lia; reflexivity.

Lemma load1 : agr (load 1 (junk 1) n input) (s1 None).
Proof. intros m Hm. unfold load. destruct (Nat.ltb_spec m n); [reflexivity|lia]. Qed.
Lemma load2 : agr (load 2 (junk 2) n input) (s2 None None).
Proof. intros m Hm. unfold load. destruct (Nat.ltb_spec m n); [reflexivity|lia]. Qed.
Lemma load3 : agr (load 3 (junk 3) n input) (s3 None None None).
Proof. intros m Hm. unfold load. destruct (Nat.ltb_spec m n); [reflexivity|lia]. Qed.

Lemma up1 d i : i < n -> agr d (s1 None) -> agr (aupd d i (set 1 (d i) VAR0 1k)) (s1 (Some i)).
Proof. intros Hi A. agr_tac. Qed.
Lemma up2a d i b : i < n -> agr d (s2 None b) -> agr (aupd d i (set 2 (d i) VAR0 1k)) (s2 (Some i) b).
Proof. intros Hi A. agr_tac. Qed.
Lemma up2b d j a : j < n -> agr d (s2 a None) -> agr (aupd d j (set 2 (d j) VAR1 1k)) (s2 a (Some j)).
Proof. intros Hi A. agr_tac. Qed.
Lemma dn2b d j a : j < n -> agr d (s2 a (Some j)) -> agr (aupd d j (set 2 (d j) VAR1 0k)) (s2 a None).
Proof. intros Hi A. agr_tac. Qed.
Lemma rs2a d i : i < n -> agr d (s2 (Some i) None) -> agr (aupd d i (ct_const 2 (input i))) (s2 None None).
Proof. intros Hi A. agr_tac. Qed.
Lemma rs2ab d i : S i < n -> agr d (s2 (Some i) (Some (S i))) ->
  agr (aupd (aupd d i (ct_const 2 (input i))) (S i) (ct_const 2 (input (S i)))) (s2 None None).
Proof.
  intros Hi A. intros m Hm. unfold aupd. destruct (Nat.eqb_spec m (S i)) as [->|]; [reflexivity|].
  destruct (Nat.eqb_spec m i) as [->|]; [reflexivity|]. rewrite A by lia. unfold s2, dl.
  destruct (Nat.eqb_spec i m), (Nat.eqb_spec (S i) m); try lia. reflexivity.
Qed.
Lemma up3a d i : i < n -> agr d (s3 None None None) -> agr (aupd d i (set 3 (d i) VAR0 1k)) (s3 (Some i) None None).
Proof. intros Hi A. agr_tac. Qed.
Lemma up3b d j a : j < n -> agr d (s3 a None None) -> agr (aupd d j (set 3 (d j) VAR1 1k)) (s3 a (Some j) None).
Proof. intros Hi A. agr_tac. Qed.
Lemma up3c d t a b : t < n -> agr d (s3 a b None) -> agr (aupd d t (set 3 (d t) VAR2 1k)) (s3 a b (Some t)).
Proof. intros Hi A. agr_tac. Qed.
Lemma dn3c d t a b : t < n -> agr d (s3 a b (Some t)) -> agr (aupd d t (set 3 (d t) VAR2 0k)) (s3 a b None).
Proof. intros Hi A. agr_tac. Qed.
Lemma dn3b d j a : j < n -> agr d (s3 a (Some j) None) -> agr (aupd d j (set 3 (d j) VAR1 0k)) (s3 a None None).
Proof. intros Hi A. agr_tac. Qed.
Lemma rs3a d i : i < n -> agr d (s3 (Some i) None None) -> agr (aupd d i (ct_const 3 (input i))) (s3 None None None).
Proof. intros Hi A. agr_tac. Qed.

(** What the energy evaluations deliver. *)
Hypothesis HE0 : forall d : nat -> ct K 0, agr d input -> oP (fun out => V [] (c0 0 out)) F (energy h 0 d (czero 0)).
Hypothesis HE1 : forall i d, i < n -> agr d (s1 (Some i)) ->
  oP (fun out => V [] (get 1 out 0) /\ V [i] (get 1 out VAR0)) F (energy h 1 d (czero 1)).
Hypothesis HE2 : forall i j d, i <= j < n -> agr d (s2 (Some i) (Some j)) ->
  oP (fun out => V [] (get 2 out 0) /\ V [i] (get 2 out VAR0) /\ V [j] (get 2 out VAR1) /\ V [i; j] (get 2 out (VAR0 + VAR1))) F
     (energy h 2 d (czero 2)).
Hypothesis HE3 : forall i j k d, i <= j -> j <= k < n -> agr d (s3 (Some i) (Some j) (Some k)) ->
  oP (fun out => V [i; j; k] (get 3 out (VAR0 + VAR1 + VAR2))) F (energy h 3 d (czero 3)).
Hypothesis Hpos : 0 < n.

Section ORD.
Variable ord : nat.
Definition okw (ws : writes (K := K)) : Prop :=
  forall p v, lastw ws p = Some v -> exists l, nth_error (graded n ord) p = Some l /\ V l v.
Definition cov (ws : writes (K := K)) (p : nat) : Prop := exists v, lastw ws p = Some v.
Lemma okw_nil : okw []. Proof. intros p v. discriminate. Qed.
Lemma okw_w1 ws q v l : okw ws -> nth_error (graded n ord) q = Some l -> V l v -> okw (w1 ws q v).
Proof.
  intros H E Hv p x. rewrite lastw_w1. destruct (Nat.eqb_spec q p) as [<-|]; [|apply H].
  intro X. injection X as <-. eauto.
Qed.
Lemma cov_w1 ws q v p : cov ws p -> cov (w1 ws q v) p.
Proof. intros [x H]. unfold cov. rewrite lastw_w1. destruct (Nat.eqb q p); eauto. Qed.
Lemma cov_new ws q v : cov (w1 ws q v) q.
Proof. unfold cov. rewrite lastw_w1, Nat.eqb_refl. eauto. Qed.

(** All slots written and every slot holds the right coefficient. *)
Definition filled (ws : writes (K := K)) : Prop :=
  okw ws /\ forall p, p < length (graded n ord) -> cov ws p.

(** Positions. *)
Lemma g_cons : graded n ord = [] :: flat_map (mono n 0) (seq 1 ord).
Proof. reflexivity. Qed.
Lemma nth_g0 : nth_error (graded n ord) 0 = Some []. Proof. reflexivity. Qed.
Lemma mono1 lo : mono n lo 1 = map (fun i => [i]) (seq lo (n - lo)).
Proof. cbn [mono]. induction (seq lo (n - lo)) as [|x l IHl]; [reflexivity|]. cbn [flat_map map app]. f_equal; exact IHl. Qed.
Lemma nth_seq_map {A} (f : nat -> A) a len p : p < len -> nth_error (map f (seq a len)) p = Some (f (a + p)).
Proof.
  intro H. rewrite nth_error_map. rewrite (nth_error_nth' (seq a len) 0) by (rewrite seq_length; lia).
  rewrite seq_nth by lia. reflexivity.
Qed.
Lemma nth_deg k p l : k <= ord -> nth_error (mono n 0 k) p = Some l ->
  nth_error (graded n ord) (length (flat_map (mono n 0) (seq 0 k)) + p) = Some l.
Proof.
  intros Hk E. unfold graded. rewrite flat_map_nth; [exact E|lia|].
  apply nth_error_Some. rewrite E. discriminate.
Qed.
Definition off1 : nat := 1.
Definition off2 : nat := 1 + n.
Definition off3 : nat := 1 + n + n * (n + 1) / 2.
Lemma len1 : length (mono n 0 1) = n.
Proof. rewrite mono1, map_length, seq_length. lia. Qed.
Definition row2 (lo i : nat) : nat := length (flat_map (fun i => map (cons i) (mono n i 1)) (seq lo i)).
Lemma row2_S lo i : row2 lo (S i) = row2 lo i + (n - (lo + i)).
Proof.
  unfold row2. rewrite seq_S, flat_map_app, app_length. cbn [flat_map]. rewrite app_nil_r, map_length, mono1, map_length, seq_length.
  reflexivity.
Qed.
Lemma row2_formula : forall i, i <= n -> 2 * row2 0 i + i * i = 2 * n * i + i.
Proof. induction i; intro H; [unfold row2; cbn [seq flat_map length]; lia|]. rewrite row2_S. specialize (IHi ltac:(lia)). cbn [Nat.add]. nia. Qed.
Lemma len2 : length (mono n 0 2) = n * (n + 1) / 2.
Proof.
  change (length (mono n 0 2)) with (row2 0 (n - 0)). rewrite Nat.sub_0_r. pose proof (row2_formula n (le_n n)).
  apply Nat.div_unique with 0; [lia|]. nia.
Qed.
Lemma nth_1 i : 1 <= ord -> i < n -> nth_error (graded n ord) (i + 1) = Some [i].
Proof.
  intros Ho Hi. rewrite Nat.add_comm. apply (nth_deg 1 i [i] Ho). rewrite mono1, nth_seq_map by lia. reflexivity.
Qed.
Lemma nth_mono2 lo i j : lo <= i -> i <= j < n -> nth_error (mono n lo 2) (row2 lo (i - lo) + (j - i)) = Some [i; j].
Proof.
  intros Hl H. change (mono n lo 2) with (flat_map (fun i => map (cons i) (mono n i 1)) (seq lo (n - lo))).
  unfold row2. rewrite flat_map_nth_from; [|lia|rewrite map_length, mono1, map_length, seq_length; lia].
  replace (lo + (i - lo)) with i by lia. rewrite mono1, map_map, nth_seq_map by lia. do 2 f_equal. f_equal. lia.
Qed.
Lemma nth_2 i j : 2 <= ord -> i <= j < n -> nth_error (graded n ord) (off2 + row2 0 i + (j - i)) = Some [i; j].
Proof.
  intros Ho H. pose proof (nth_mono2 0 i j ltac:(lia) H) as E. rewrite Nat.sub_0_r in E.
  pose proof (nth_deg 2 _ _ Ho E) as E'. cbn [seq flat_map] in E'. rewrite app_nil_r, app_length, len1 in E'.
  cbn [mono length] in E'. unfold off2. rewrite <- E'. f_equal. lia.
Qed.
Definition row3 (i : nat) : nat := length (flat_map (fun i => map (cons i) (mono n i 2)) (seq 0 i)).
Lemma row3_S i : row3 (S i) = row3 i + row2 i (n - i).
Proof.
  unfold row3. rewrite seq_S, flat_map_app, app_length. cbn [flat_map]. rewrite app_nil_r, map_length. reflexivity.
Qed.
Lemma nth_3 i j t : 3 <= ord -> i <= j -> j <= t < n ->
  nth_error (graded n ord) (off3 + row3 i + row2 i (j - i) + (t - j)) = Some [i; j; t].
Proof.
  intros Ho H Ht. pose proof (nth_mono2 i j t H Ht) as E.
  assert (E3 : nth_error (mono n 0 3) (row3 i + (row2 i (j - i) + (t - j))) = Some [i; j; t]).
  { change (mono n 0 3) with (flat_map (fun i => map (cons i) (mono n i 2)) (seq 0 (n - 0))).
    unfold row3. rewrite flat_map_nth; [|lia|].
    - rewrite nth_error_map, E. reflexivity.
    - rewrite map_length. apply nth_error_Some. rewrite E. discriminate. }
  pose proof (nth_deg 3 _ _ Ho E3) as E'. cbn [seq flat_map] in E'. rewrite app_nil_r, !app_length, len1, len2 in E'.
  cbn [mono length] in E'. unfold off3. rewrite <- E'. f_equal. lia.
Qed.
Lemma glen : length (graded n ord) = length (flat_map (mono n 0) (seq 0 (S ord))). Proof. reflexivity. Qed.
End ORD.

(** ** Order 0 *)
Lemma layout0 : oP (filled 0) F (partial0 junk h n input).
Proof.
  unfold partial0. eapply oP_bind.
  - apply HE0. intros m Hm. unfold load. destruct (Nat.ltb_spec m n); [reflexivity|lia].
  - intros out Hv. cbn [oP]. split.
    + apply (okw_w1 0 [] 0 _ []); [apply okw_nil|reflexivity|exact Hv].
    + intros p Hp. cbn in Hp. assert (p = 0) as -> by lia. apply (cov_new []).
Qed.

(** ** Order 1 *)
Lemma glen1 : length (graded n 1) = S n.
Proof. unfold graded. cbn [seq flat_map]. rewrite app_nil_r, app_length, len1. reflexivity. Qed.
Lemma layout1 : oP (filled 1) F (partial1 junk h n input).
Proof.
  unfold partial1. eapply oP_bind.
  - apply oP_ofold with (P := fun j (s : (nat -> ct K 2) * ct K 2 * writes) => let '(in2, out2, ws) := s in
      agr in2 (s2 None None) /\ okw 1 ws /\ (forall p, 1 <= p <= 2 * j -> cov ws p) /\ (0 < j -> V [] (get 2 out2 0)) /\ (j = 0 -> ws = [])).
    + split; [apply load2|]. split; [apply okw_nil|]. repeat split; try lia.
    + intros j [[in2 out2] ws] Hj (A & O & C & _ & _). cbn [Nat.add] in Hj.
      pose proof (Nat.div_mod n 2 ltac:(lia)) as DM. assert (L : 2 * j + 1 < n) by lia.
      eapply oP_bind.
      * apply (HE2 (2 * j) (2 * j + 1)); [lia|]. apply up2b; [lia|]. apply up2a; [lia|exact A].
      * intros out (V0 & Vi & Vj & _). cbn [oP]. split; [|split; [|split; [|split; [auto|lia]]]].
        -- replace (2 * j + 1) with (S (2 * j)) by lia. apply rs2ab; [lia|]. replace (S (2 * j)) with (2 * j + 1) by lia.
           apply up2b; [lia|]. apply up2a; [lia|exact A].
        -- eapply okw_w1; [eapply okw_w1; [exact O| |exact Vi]| |exact Vj].
           ++ apply nth_1; lia.
           ++ replace (2 * j + 2) with (2 * j + 1 + 1) by lia. apply nth_1; lia.
        -- intros p Hp. destruct (Nat.eq_dec p (2 * j + 2)) as [->|]; [apply cov_new|].
           apply cov_w1. destruct (Nat.eq_dec p (2 * j + 1)) as [->|]; [apply cov_new|]. apply cov_w1. apply C. lia.
  - intros [[in2 out2] ws] (_ & O & C & V0 & Z). cbn [Nat.add] in *. cbn [fst snd].
    pose proof (Nat.div_mod n 2 ltac:(lia)) as DM. pose proof (Nat.mod_upper_bound n 2 ltac:(lia)).
    destruct (Nat.odd n) eqn:Od.
    + assert (M : n mod 2 = 1) by (apply Nat.odd_spec in Od; destruct Od as [q ->]; rewrite Nat.add_comm, Nat.mul_comm, Nat.mod_add by lia; reflexivity).
      eapply oP_bind.
      * apply (HE1 (n - 1)); [lia|]. apply up1; [lia|apply load1].
      * intros out (U0 & Ui). cbn [oP]. split.
        -- intros p v. rewrite !lastw_w1. destruct (Nat.eqb_spec 0 p) as [<-|Np].
           { intro X. injection X as <-. exists []. split; [reflexivity|exact U0]. }
           destruct (Nat.eqb_spec (n - 1 + 1) p) as [<-|Np']; [|apply O].
           intro X. injection X as <-. exists [n - 1]. split; [apply nth_1; lia|exact Ui].
        -- intros p Hp. rewrite glen1 in Hp. destruct (Nat.eq_dec p 0) as [->|]; [apply cov_new|]. apply cov_w1.
           destruct (Nat.eq_dec p (n - 1 + 1)) as [->|]; [apply cov_new|]. apply cov_w1. apply cov_w1. apply C. lia.
    + assert (M : n mod 2 = 0).
      { rewrite <- Nat.negb_even in Od. apply negb_false_iff in Od. apply Nat.even_spec in Od. destruct Od as [q ->].
        rewrite Nat.mul_comm. apply Nat.mod_mul. lia. }
      cbn [oP]. split.
      * eapply okw_w1; [exact O|reflexivity|]. apply V0. lia.
      * intros p Hp. rewrite glen1 in Hp. destruct (Nat.eq_dec p 0) as [->|]; [apply cov_new|]. apply cov_w1. apply C. lia.
Qed.

(** ** Order 2 *)
Lemma layout2_gen ord ws0 : 2 <= ord -> okw ord ws0 ->
  oP (fun ws => okw ord ws /\ (forall p, cov ws0 p -> cov ws p) /\ forall p, p < 1 + n + n * (n + 1) / 2 -> cov ws p) F
     (partial2 junk h n input ws0).
Proof.
  intros Ho O0. unfold partial2. eapply oP_bind.
  - apply oP_ofold with (P := fun i (s : (nat -> ct K 2) * ct K 2 * nat * writes) => let '(inn, out, k, ws) := s in
      agr inn (s2 None None) /\ k = off2 + row2 0 i /\ okw ord ws /\ (forall p, cov ws0 p -> cov ws p) /\
      (forall p, 1 <= p <= i -> cov ws p) /\ (forall p, off2 <= p < k -> cov ws p) /\ (0 < i -> V [] (get 2 out 0))).
    + split; [apply load2|]. split; [unfold off2, row2; cbn; lia|]. split; [exact O0|]. repeat split; intros; try lia; auto.
      unfold off2 in *. lia.
    + intros i [[[inn out] k] ws] Hi (A & Ek & O & C0 & C1 & C2 & V0). cbn [Nat.add] in Hi.
      pose proof (up2a inn i None ltac:(lia) A) as A1. eapply oP_bind.
      * apply oP_ofold with (P := fun j (s : (nat -> ct K 2) * ct K 2 * nat * writes) => let '(inn', out', k', ws') := s in
          agr inn' (s2 (Some i) None) /\ k' = k + (j - i) /\ okw ord ws' /\ (forall p, cov ws p -> cov ws' p) /\
          (forall p, k <= p < k' -> cov ws' p) /\ (i < j -> V [] (get 2 out' 0) /\ V [i] (get 2 out' VAR0))).
        -- split; [exact A1|]. split; [lia|]. split; [exact O|]. repeat split; intros; try lia; auto.
        -- intros j [[[inn' out'] k'] ws'] Hj (B & Ek' & O' & D0 & D1 & _).
           eapply oP_bind.
           ++ apply (HE2 i j); [lia|]. apply up2b; [lia|exact B].
           ++ intros o (U0 & Ui & Uj & Uij). cbn [oP]. split; [|split; [lia|split; [|split; [|split; [|auto]]]]].
              ** apply dn2b; [lia|]. apply up2b; [lia|exact B].
              ** eapply okw_w1; [exact O'| |exact Uij]. rewrite Ek', Ek. apply nth_2; lia.
              ** intros p Hp. apply cov_w1. auto.
              ** intros p Hp. destruct (Nat.eq_dec p k') as [->|]; [apply cov_new|]. apply cov_w1. apply D1. lia.
      * intros [[[inn' out'] k'] ws'] (B & Ek' & O' & D0 & D1 & VV). cbn [oP].
        replace (i + (n - i)) with n in * by lia. destruct (VV ltac:(lia)) as [U0 Ui].
        split; [apply rs2a; [lia|exact B]|]. split; [rewrite row2_S; cbn [Nat.add]; lia|].
        split; [eapply okw_w1; [exact O'|apply nth_1; lia|exact Ui]|].
        split; [intros p Hp; apply cov_w1; auto|]. split; [|split; [|auto]].
        -- intros p Hp. destruct (Nat.eq_dec p (i + 1)) as [->|]; [apply cov_new|]. apply cov_w1. apply D0. apply C1. lia.
        -- intros p Hp. apply cov_w1. destruct (Nat.lt_ge_cases p k) as [L|L]; [apply D0; apply C2; lia|apply D1; lia].
  - intros [[[inn out] k] ws] (A & Ek & O & C0 & C1 & C2 & V0). cbn [Nat.add oP] in *. split; [|split].
    + eapply okw_w1; [exact O|reflexivity|]. apply V0. lia.
    + intros p Hp. apply cov_w1. auto.
    + intros p Hp. destruct (Nat.eq_dec p 0) as [->|]; [apply cov_new|]. apply cov_w1.
      destruct (Nat.le_gt_cases p n) as [L|L]; [apply C1; lia|]. apply C2. unfold off2. rewrite Ek.
      pose proof len2 as E2. change (length (mono n 0 2)) with (row2 0 (n - 0)) in E2. rewrite Nat.sub_0_r in E2. unfold off2. lia.
Qed.
Lemma glen2 : length (graded n 2) = 1 + n + n * (n + 1) / 2.
Proof. unfold graded. cbn [seq flat_map]. rewrite app_nil_r, !app_length, len1, len2. cbn [mono length]. lia. Qed.
Lemma layout2 : oP (filled 2) F (partial2 junk h n input []).
Proof.
  eapply oP_imp; [|apply (layout2_gen 2 []); [lia|apply okw_nil]]. cbn beta. intros ws (A & _ & B).
  split; [exact A|]. rewrite glen2. exact B.
Qed.

(** ** Order 3 *)
Lemma glen3 : length (graded n 3) = off3 + row3 n.
Proof.
  unfold graded. cbn [seq flat_map]. rewrite app_nil_r, !app_length, len1, len2. unfold off3.
  change (length (mono n 0 3)) with (row3 (n - 0)). rewrite Nat.sub_0_r. cbn [mono length]. lia.
Qed.
Lemma layout3 : oP (filled 3) F (partial3 junk h n input).
Proof.
  unfold partial3. eapply oP_bind.
  - apply oP_ofold with (P := fun i (s : (nat -> ct K 3) * nat * writes) => let '(inn, k, ws) := s in
      agr inn (s3 None None None) /\ k = off3 + row3 i /\ okw 3 ws /\ (forall p, off3 <= p < k -> cov ws p)).
    + split; [apply load3|]. split; [unfold off3, row3; cbn [seq flat_map length]; lia|]. split; [apply okw_nil|]. unfold off3. lia.
    + intros i [[inn k] ws] Hi (A & Ek & O & C). cbn [Nat.add] in Hi.
      pose proof (up3a inn i ltac:(lia) A) as A1. eapply oP_bind.
      * apply oP_ofold with (P := fun j (s : (nat -> ct K 3) * nat * writes) => let '(inn', k', ws') := s in
          agr inn' (s3 (Some i) None None) /\ k' = k + row2 i (j - i) /\ okw 3 ws' /\ (forall p, off3 <= p < k' -> cov ws' p)).
        -- split; [exact A1|]. split; [rewrite Nat.sub_diag; unfold row2; cbn; lia|]. auto.
        -- intros j [[inn' k'] ws'] Hj (B & Ek' & O' & C').
           pose proof (up3b inn' j (Some i) ltac:(lia) B) as B1. eapply oP_bind.
           ++ apply oP_ofold with (P := fun t (s : (nat -> ct K 3) * nat * writes) => let '(inn2, k2, ws2) := s in
                agr inn2 (s3 (Some i) (Some j) None) /\ k2 = k' + (t - j) /\ okw 3 ws2 /\ (forall p, off3 <= p < k2 -> cov ws2 p)).
              ** split; [exact B1|]. split; [lia|]. auto.
              ** intros t [[inn2 k2] ws2] Ht (D & Ek2 & O2 & C2). eapply oP_bind.
                 --- apply (HE3 i j t); [lia|lia|]. apply up3c; [lia|exact D].
                 --- intros o Hv. cbn [oP]. split; [apply dn3c; [lia|]; apply up3c; [lia|exact D]|]. split; [lia|]. split.
                     +++ eapply okw_w1; [exact O2| |exact Hv]. rewrite Ek2, Ek', Ek. apply nth_3; lia.
                     +++ intros p Hp. destruct (Nat.eq_dec p k2) as [->|]; [apply cov_new|]. apply cov_w1. apply C2. lia.
           ++ intros [[inn2 k2] ws2] (D & Ek2 & O2 & C2). cbn [oP]. split; [apply dn3b; [lia|exact D]|].
              split; [|auto]. replace (S j - i) with (S (j - i)) by lia. rewrite row2_S. lia.
      * intros [[inn' k'] ws'] (B & Ek' & O' & C'). cbn [oP]. split; [apply rs3a; [lia|exact B]|].
        split; [|auto]. rewrite row3_S. replace (i + (n - i) - i) with (n - i) in Ek' by lia. lia.
  - intros [[inn k] ws] (A & Ek & O & C). cbn [Nat.add] in *.
    eapply oP_imp; [|apply (layout2_gen 3 ws); [lia|exact O]]. cbn beta. intros ws' (O' & C0 & C1). split; [exact O'|].
    intros p Hp. rewrite glen3 in Hp. destruct (Nat.lt_ge_cases p off3) as [L|L]; [apply C1; exact L|].
    apply C0. apply C. lia.
Qed.

End L.
