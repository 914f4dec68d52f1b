(** * Evaluation depends only on the declared inputs: not on uninitialised memory, not on
    the previous contents of the output array, not on inputs beyond the input length *)
From Coq Require Import QArith ZArith Arith Lia List Bool String.
From Verif Require Import Scalar Tables Api SpecApi ApiProofs ApiProofs2 CTaylor TMath Br Expr Densvars Functionals Eval SpecEval Layout EvalSem EvalProps Taint.
Import ListNotations.
Local Open Scope outcome_scope.

Definition orl {A B} (R : A -> B -> Prop) (o : outcome A) (o' : outcome B) : Prop :=
  match o, o' with
  | Ok a, Ok b => R a b
  | Die, Die | UB, UB | Dom, Dom => True
  | _, _ => False
  end.
Lemma orl_bind {A B A' B'} (R : A -> A' -> Prop) (R' : B -> B' -> Prop) o o' f f' :
  orl R o o' -> (forall a a', R a a' -> orl R' (f a) (f' a')) -> orl R' (obind o f) (obind o' f').
Proof. destruct o, o'; cbn; auto; contradiction. Qed.
Lemma orl_eq {A} (o o' : outcome A) : o = o' -> orl eq o o'.
Proof. intros ->. destruct o'; cbn; auto. Qed.
Lemma eq_orl {A} (o o' : outcome A) : orl eq o o' -> o = o'.
Proof. destruct o, o'; cbn; congruence || contradiction. Qed.
Lemma ofold_rel {S S' A} (R : S -> S' -> Prop) (f : S -> A -> outcome S) (f' : S' -> A -> outcome S') l :
  (forall x s s', In x l -> R s s' -> orl R (f s x) (f' s' x)) -> forall s s', R s s' -> orl R (ofold f s l) (ofold f' s' l).
Proof.
  induction l as [|x l IH]; intros H s s' Rs; cbn [ofold]; [exact Rs|].
  eapply orl_bind; [apply H; [now left|exact Rs]|]. intros a a' Ra. apply IH; [|exact Ra]. intros; apply H; [now right|assumption].
Qed.

Lemma ofold_rel_seq {S S'} (R : nat -> S -> S' -> Prop) (f : S -> nat -> outcome S) (f' : S' -> nat -> outcome S') : forall len a s s',
  (forall i s s', (a <= i < a + len)%nat -> R i s s' -> orl (R (Datatypes.S i)) (f s i) (f' s' i)) -> R a s s' ->
  orl (R (a + len)%nat) (ofold f s (seq a len)) (ofold f' s' (seq a len)).
Proof.
  induction len; intros a s s' H Rs; cbn [seq ofold]; [now rewrite Nat.add_0_r|].
  eapply orl_bind; [apply H; [lia|exact Rs]|]. intros b b' Rb. replace (a + Datatypes.S len)%nat with (Datatypes.S a + len)%nat by lia.
  apply IHlen; [|exact Rb]. intros; apply H; [lia|assumption].
Qed.

Section X.
Context {K : Ops}.
Variables junk junk' : forall n : nat, nat -> ct K n.
Variables h h' : handle K.
Variables input input' : nat -> K.
Variable n : nat.
Hypothesis Hin : forall i, (i < n)%nat -> input i = input' i.
(** Arrays agree on the first [n] entries. *)
Definition ag {A} (d d' : nat -> A) : Prop := forall m, (m < n)%nat -> d m = d' m.
Hypothesis HE : forall m d d' out, ag d d' -> energy h m d out = energy h' m d' out.
Lemma ag_load m : ag (load m (junk m) n input) (load m (junk' m) n input').
Proof. intros i Hi. unfold load. destruct (Nat.ltb_spec i n); [now rewrite Hin|lia]. Qed.
Lemma ag_upd {A} (d d' : nat -> A) i v v' : ag d d' -> v = v' -> ag (aupd d i v) (aupd d' i v').
Proof. intros H <- m Hm. unfold aupd. destruct (Nat.eqb m i); [reflexivity|now apply H]. Qed.
Lemma ag_upd_set m (d d' : nat -> ct K m) i k v : (i < n)%nat -> ag d d' -> ag (aupd d i (set m (d i) k v)) (aupd d' i (set m (d' i) k v)).
Proof. intros Hi H. apply ag_upd; [exact H|]. now rewrite H. Qed.
Lemma ag_upd_in m (d d' : nat -> ct K m) i : (i < n)%nat -> ag d d' -> ag (aupd d i (ct_const m (input i))) (aupd d' i (ct_const m (input' i))).
Proof. intros Hi H. apply ag_upd; [exact H|]. now rewrite Hin. Qed.
Ltac en := eapply orl_bind; [apply orl_eq, HE|intros ? ? <-].
Ltac inlt := match goal with H : In _ (seq _ _) |- _ => apply in_seq in H end.

Lemma partial0_ext : partial0 junk h n input = partial0 junk' h' n input'.
Proof. apply eq_orl. unfold partial0. en; [apply ag_load|]. reflexivity. Qed.
Lemma partial1_ext : (0 < n)%nat -> partial1 junk h n input = partial1 junk' h' n input'.
Proof.
  intro Hpos. apply eq_orl. unfold partial1.
  eapply orl_bind with (R := fun s s' : (nat -> ct K 2) * ct K 2 * writes => ag (fst (fst s)) (fst (fst s')) /\ snd (fst s) = snd (fst s') /\ snd s = snd s').
  - apply ofold_rel; [|cbn [fst snd]; split; [apply (ag_load 2)|split; reflexivity]].
    intros j [[d o] ws] [[d' o'] ws'] Hj (A & B & C). cbn [fst snd] in A, B, C. subst o' ws'. inlt.
    assert (Hj2 : (2 * j + 1 < n)%nat). { pose proof (Nat.div_mod n 2 ltac:(lia)). lia. }
    set (d1 := aupd (aupd d _ _) _ _). set (d1' := aupd (aupd d' _ _) _ _).
    assert (A1 : ag d1 d1').
    { unfold d1, d1'. apply ag_upd_set; [lia|]. apply ag_upd_set; [lia|exact A]. }
    en; [exact A1|]. cbn [orl fst snd]. split; [|split; reflexivity]. apply ag_upd_in; [lia|]. apply ag_upd_in; [lia|exact A1].
  - intros [[d o] ws] [[d' o'] ws'] (A & B & C). cbn [fst snd] in A, B, C. subst o' ws'.
    destruct (Nat.odd n); [|reflexivity]. en; [|reflexivity]. apply ag_upd_set; [lia|apply ag_load].
Qed.
Definition R4 (s s' : (nat -> ct K 2) * ct K 2 * nat * writes (K := K)) : Prop :=
  ag (fst (fst (fst s))) (fst (fst (fst s'))) /\ snd (fst (fst s)) = snd (fst (fst s')) /\ snd (fst s) = snd (fst s') /\ snd s = snd s'.
Lemma partial2_ext ws : partial2 junk h n input ws = partial2 junk' h' n input' ws.
Proof.
  apply eq_orl. unfold partial2. eapply orl_bind with (R := R4).
  - apply ofold_rel; [|unfold R4; cbn [fst snd]; repeat split; apply (ag_load 2)].
    intros i [[[d o] k] w] [[[d' o'] k'] w'] Hi (A & B & C & D). cbn [fst snd] in A, B, C, D. subst o' k' w'. inlt.
    eapply orl_bind with (R := R4).
    + apply ofold_rel; [|unfold R4; cbn [fst snd]; repeat split; apply ag_upd_set; [lia|exact A]].
      intros j [[[e o1] k1] w1'] [[[e' o1'] k1'] w1''] Hj (A1 & B1 & C1 & D1). cbn [fst snd] in A1, B1, C1, D1. subst o1' k1' w1''. inlt.
      en; [apply ag_upd_set; [lia|exact A1]|]. unfold R4; cbn [orl fst snd]. repeat split.
      apply ag_upd_set; [lia|]. apply ag_upd_set; [lia|exact A1].
    + intros [[[e o1] k1] w1'] [[[e' o1'] k1'] w1''] (A1 & B1 & C1 & D1). cbn [fst snd] in A1, B1, C1, D1. subst o1' k1' w1''.
      unfold R4; cbn [orl fst snd]. repeat split. apply ag_upd_in; [lia|exact A1].
  - intros [[[e o1] k1] w1'] [[[e' o1'] k1'] w1''] (A1 & B1 & C1 & D1). cbn [fst snd] in A1, B1, C1, D1. subst o1' k1' w1''. reflexivity.
Qed.
Definition R3 (s s' : (nat -> ct K 3) * nat * writes (K := K)) : Prop :=
  ag (fst (fst s)) (fst (fst s')) /\ snd (fst s) = snd (fst s') /\ snd s = snd s'.
Ltac r3 := unfold R3; cbn [orl fst snd]; repeat split.
Lemma partial3_ext : partial3 junk h n input = partial3 junk' h' n input'.
Proof.
  apply eq_orl. unfold partial3. eapply orl_bind with (R := R3).
  - apply ofold_rel; [|r3; apply (ag_load 3)].
    intros i [[d k] w] [[d' k'] w'] Hi (A & B & C). cbn [fst snd] in A, B, C. subst k' w'. inlt.
    eapply orl_bind with (R := R3).
    + apply ofold_rel; [|r3; apply ag_upd_set; [lia|exact A]].
      intros j [[e k1] w1'] [[e' k1'] w1''] Hj (A1 & B1 & C1). cbn [fst snd] in A1, B1, C1. subst k1' w1''. inlt.
      eapply orl_bind with (R := R3).
      * apply ofold_rel; [|r3; apply ag_upd_set; [lia|exact A1]].
        intros t [[f k2] w2] [[f' k2'] w2'] Ht (A2 & B2 & C2). cbn [fst snd] in A2, B2, C2. subst k2' w2'. inlt.
        en; [apply ag_upd_set; [lia|exact A2]|]. r3. apply ag_upd_set; [lia|]. apply ag_upd_set; [lia|exact A2].
      * intros [[f k2] w2] [[f' k2'] w2'] (A2 & B2 & C2). cbn [fst snd] in A2, B2, C2. subst k2' w2'.
        r3. apply ag_upd_set; [lia|exact A2].
    + intros [[f k2] w2] [[f' k2'] w2'] (A2 & B2 & C2). cbn [fst snd] in A2, B2, C2. subst k2' w2'.
      r3. apply ag_upd_in; [lia|exact A2].
  - intros [[f k2] w2] [[f' k2'] w2'] (A2 & B2 & C2). cbn [fst snd] in A2, B2, C2. subst k2' w2'.
    apply orl_eq. apply partial2_ext.
Qed.
End X.

Section X2.
Context {K : Ops}.
Variables junk junk' : forall n : nat, nat -> ct K n.
Variables h h' : handle K.
Variables input input' : nat -> K.
Variable n : nat.
Lemma ct_load_ext m : forall f g : nat -> K, (forall k, (k < 2 ^ m)%nat -> f k = g k) -> ct_load m f = ct_load m g.
Proof.
  induction m; intros f g H; cbn [ct_load]; [apply H; cbn; lia|]. cbn [Nat.pow] in H. rewrite (IHm f g), (IHm (fun k => f (2 ^ m + k)%nat) (fun k => g (2 ^ m + k)%nat)); [reflexivity| |]; intros; apply H; lia.
Qed.
Lemma contracted_ext m : (forall i, (i < n * 2 ^ m)%nat -> input i = input' i) ->
  (forall m d d' out, ag n d d' -> energy h m d out = energy h' m d' out) ->
  contracted junk h m n input = contracted junk' h' m n input'.
Proof.
  intros Hin HE. unfold contracted.
  erewrite HE; [reflexivity|]. intros i Hi. cbn beta. destruct (Nat.ltb_spec i n); [|lia].
  apply ct_load_ext. intros k Hk. apply Hin. nia.
Qed.
Lemma lastw_in (ws : writes (K := K)) p : In p (map fst ws) -> exists v, lastw ws p = Some v.
Proof. intro I. destruct (lastw ws p) eqn:E; [eauto|]. apply lastw_none in E. contradiction. Qed.
Lemma rd_buf (buf buf' : nat -> K) ws p : In p (map fst ws) -> rd buf ws p = rd buf' ws p.
Proof. intro I. rewrite !rd_lastw. destruct (lastw_in ws p I) as [v ->]. reflexivity. Qed.

(** Potential mode.  [okin]: the inputs densvars can use. *)
Variable good : nat -> Prop.
Hypothesis Hin : forall i, (i < n)%nat -> input i = input' i.
Hypothesis HE : forall m d d' out, (forall i, (i < n)%nat -> good i -> d i = d' i) -> energy h m d out = energy h' m d' out.
Definition agg {A} (d d' : nat -> A) : Prop := forall m, (m < n)%nat -> good m -> d m = d' m.
Lemma agg_upd {A} (d d' : nat -> A) i v v' : agg d d' -> v = v' -> agg (aupd d i v) (aupd d' i v').
Proof. intros H <- m Hm G. unfold aupd. destruct (Nat.eqb m i); [reflexivity|now apply H]. Qed.
(** A set of positions on which the arrays agree. *)
Definition agl {A} (l : nat -> Prop) (d d' : nat -> A) : Prop := forall m, l m -> d m = d' m.
Lemma setin_agl o l (L : nat -> Prop) : forall d d' : nat -> ct K 2,
  (forall p, In p l -> (o + fst p < n)%nat /\ (o + snd p < n)%nat) ->
  agl L d d' -> agl (fun m => L m \/ In m (map (fun p => (o + fst p)%nat) l)) (setin input o l d) (setin input' o l d').
Proof.
  unfold setin. revert L. induction l as [|p l IH]; intros L d d' Hl A; cbn [fold_left map In].
  - intros m [Hm|[]]. now apply A.
  - intros m Hm. eapply (IH (fun m => L m \/ m = (o + fst p)%nat)).
    + intros; apply Hl; now right.
    + intros q [Hq|Hq]; unfold aupd, cv.
      * destruct (Nat.eqb q (o + fst p)); [|now apply A]. destruct (Hl p (or_introl eq_refl)) as [H1 H2]. now rewrite !Hin.
      * subst q. rewrite Nat.eqb_refl. destruct (Hl p (or_introl eq_refl)) as [H1 H2]. now rewrite !Hin.
    + destruct Hm as [Hm|[Hm|Hm]]; [left; now left|left; right; now symmetry|now right].
Qed.
Lemma seed1_agl (L : nat -> Prop) (d d' : nat -> ct K 2) i : L i -> agl L d d' -> agl L (seed1 d i) (seed1 d' i).
Proof.
  intros Hi A m Hm. unfold seed1, aupd. destruct (Nat.eqb m i); [|now apply A]. now rewrite A.
Qed.
Lemma zero_agl (L : nat -> Prop) : forall l (d d' : nat -> ct K 2), agl L d d' ->
  agl (fun m => L m \/ In m l) (fold_left (fun d i => aupd d i (czero 2)) l d) (fold_left (fun d i => aupd d i (czero 2)) l d').
Proof.
  intro l. revert L. induction l as [|i l IH]; intros L d d' A; cbn [fold_left In].
  - intros m [Hm|[]]. now apply A.
  - intros m Hm. eapply (IH (fun m => L m \/ m = i)).
    + intros q [Hq|Hq]; unfold aupd.
      * destruct (Nat.eqb q i); [reflexivity|now apply A].
      * subst q. now rewrite Nat.eqb_refl.
    + destruct Hm as [Hm|[Hm|Hm]]; [left; now left|left; right; now symmetry|now right].
Qed.
Lemma agl_imp {A} (L L' : nat -> Prop) (d d' : nat -> A) : (forall m, L' m -> L m) -> agl L d d' -> agl L' d d'.
Proof. intros H X m Hm. apply X, H, Hm. Qed.
Ltac inl := unfold dirx, diry, dirz; cbn [In map fst snd]; intuition (subst; cbn [fst snd]; lia).
Ltac eng := eapply orl_bind; [apply orl_eq, HE|intros ? ? <-].

Lemma pot_restricted_ext : n = 10%nat -> pot_restricted junk h input = pot_restricted junk' h' input'.
Proof.
  intro Hn. apply eq_orl. unfold pot_restricted.
  set (d0 := seed1 (zero49 (setin input 0 dirx (junk 2))) 1). set (d0' := seed1 (zero49 (setin input' 0 dirx (junk' 2))) 1).
  assert (A0 : agl (fun m => (m < 10)%nat) d0 d0').
  { unfold d0, d0'. apply seed1_agl; [lia|]. unfold zero49.
    eapply agl_imp; [|apply zero_agl, (setin_agl 0 dirx (fun _ => False)); [inl|intros ? []]].
    intros m Hm. cbn beta. destruct (Nat.lt_ge_cases m 4).
    - left. right. unfold dirx. cbn. lia.
    - right. apply in_seq. lia. }
  eng; [intros i Hi _; apply A0; lia|].
  set (d1 := seed1 (setin input 0 diry d0) 2). set (d1' := seed1 (setin input' 0 diry d0') 2).
  assert (A1 : agl (fun m => (m < 10)%nat) d1 d1').
  { unfold d1, d1'. apply seed1_agl; [lia|]. eapply agl_imp; [|apply (setin_agl 0 diry (fun m => (m < 10)%nat) d0 d0'); [inl|exact A0]]. intros m Hm. cbn beta. tauto. }
  eng; [intros i Hi _; apply A1; lia|].
  set (d2 := seed1 (setin input 0 dirz d1) 3). set (d2' := seed1 (setin input' 0 dirz d1') 3).
  assert (A2 : agl (fun m => (m < 10)%nat) d2 d2').
  { unfold d2, d2'. apply seed1_agl; [lia|]. eapply agl_imp; [|apply (setin_agl 0 dirz (fun m => (m < 10)%nat) d1 d1'); [inl|exact A1]]. intros m Hm. cbn beta. tauto. }
  eng; [intros i Hi _; apply A2; lia|]. reflexivity.
Qed.
Lemma pot_unrestricted_ext : n = 20%nat -> (forall i, good i -> (i < 14)%nat) -> forall d d' j, (j < 2)%nat ->
  orl (fun r r' : (nat -> ct K 2) * K => snd r = snd r') (pot_unrestricted h input d j) (pot_unrestricted h' input' d' j).
Proof.
  intros Hn Hg d d' j Hj. unfold pot_unrestricted.
  set (d0 := seed1 (zero49 (setin input 10 dirx (setin input 0 dirx d))) (1 + 10 * j)). set (d0' := seed1 (zero49 (setin input' 10 dirx (setin input' 0 dirx d'))) (1 + 10 * j)).
  assert (A0 : agl (fun m => (m < 14)%nat) d0 d0').
  { unfold d0, d0'. apply seed1_agl; [lia|]. unfold zero49.
    eapply agl_imp; [|apply zero_agl, setin_agl; [inl|apply (setin_agl 0 dirx (fun _ => False)); [inl|intros ? []]]].
    intros m Hm. cbn beta. destruct (Nat.lt_ge_cases m 4); [|destruct (Nat.lt_ge_cases m 10)].
    - left. left. right. unfold dirx. cbn. lia.
    - right. apply in_seq. lia.
    - left. right. unfold dirx. cbn. lia. }
  eng; [intros i Hi G; apply A0; auto|].
  set (d1 := seed1 (setin input 10 diry (setin input 0 diry d0)) (2 + 10 * j)). set (d1' := seed1 (setin input' 10 diry (setin input' 0 diry d0')) (2 + 10 * j)).
  assert (A1 : agl (fun m => (m < 14)%nat) d1 d1').
  { unfold d1, d1'. apply seed1_agl; [lia|].
    eapply agl_imp; [|apply setin_agl; [inl|apply (setin_agl 0 diry (fun m => (m < 14)%nat) d0 d0'); [inl|exact A0]]]. intros m Hm. cbn beta. tauto. }
  eng; [intros i Hi G; apply A1; auto|].
  set (d2 := seed1 (setin input 10 dirz (setin input 0 dirz d1)) (3 + 10 * j)). set (d2' := seed1 (setin input' 10 dirz (setin input' 0 dirz d1')) (3 + 10 * j)).
  assert (A2 : agl (fun m => (m < 14)%nat) d2 d2').
  { unfold d2, d2'. apply seed1_agl; [lia|].
    eapply agl_imp; [|apply setin_agl; [inl|apply (setin_agl 0 dirz (fun m => (m < 14)%nat) d1 d1'); [inl|exact A1]]]. intros m Hm. cbn beta. tauto. }
  eng; [intros i Hi G; apply A2; auto|]. cbn [orl snd]. reflexivity.
Qed.
Lemma potential_ext buf buf' : (0 < n)%nat -> h_depends h' = h_depends h -> h_vars h' = h_vars h ->
  (xcfun_is_gga h = true -> (h_vars h = XC_N_2ND_TAYLOR /\ n = 10%nat) \/
                            (h_vars h = XC_A_B_2ND_TAYLOR /\ n = 20%nat /\ forall i, good i -> (i < 14)%nat)) ->
  potential junk h n buf input = potential junk' h' n buf' input'.
Proof.
  intros Hpos Hdep Hvar G. apply eq_orl. unfold potential. rewrite Hdep, Hvar. fold (npot n).
  set (inpos := if Nat.eqb (npot n) 1 then 0%nat else _).
  assert (Hip : forall j, (j < npot n)%nat -> (j * inpos < n)%nat).
  { intros j Hj. unfold inpos, npot in *. destruct (Nat.eqb_spec n 1), (Nat.eqb_spec n 10); cbn in *; try lia.
    destruct (Nat.eqb_spec n 2); [lia|]. destruct (Nat.eqb_spec n 20); lia. }
  eapply orl_bind.
  - apply (ofold_rel_seq (fun i (s s' : (nat -> ct K 1) * ct K 1 * writes) =>
     ag n (fst (fst s)) (fst (fst s')) /\ snd (fst s) = snd (fst s') /\ snd s = snd s' /\ wr (snd s) (seq 1 i)));
      [|cbn [fst snd]; repeat split; now apply (ag_load junk junk' input input' n Hin 1)].
    intros j [[d o] ws] [[d' o'] ws'] Hj (A & B & C & D). cbn [fst snd] in A, B, C, D. subst o' ws'.
    assert (Hp : (j * inpos < n)%nat) by (apply Hip; lia).
    eng; [intros i Hi _; apply (ag_upd_set n 1 d d' (j * inpos)); [exact Hp|exact A|exact Hi]|].
    cbn [orl fst snd]. repeat split.
    + apply ag_upd_in; [exact Hin|exact Hp|]. now apply ag_upd_set.
    + rewrite seq_S. replace (1 + j)%nat with (j + 1)%nat by lia. now apply wr_w1.
  - intros [[d o] ws] [[d' o'] ws'] (A & B & C & D). cbn [fst snd] in A, B, C, D. subst o' ws'. rewrite Nat.add_0_l in D.
    unfold xcfun_is_gga in G. destruct (negb _); [|reflexivity].
    set (w := w1 ws 0 _).
    assert (Ww : forall p, (1 <= p <= npot n)%nat -> In p (map fst w)).
    { intros p Hp. unfold w. rewrite (wr_w1 ws 0 _ _ D), in_app_iff, in_seq. lia. }
    destruct (G eq_refl) as [[Ev En]|(Ev & En & Hg)]; rewrite Ev.
    + change (orb (Z.eqb XC_N_2ND_TAYLOR XC_A_2ND_TAYLOR) (Z.eqb XC_N_2ND_TAYLOR XC_N_2ND_TAYLOR)) with true. cbn iota.
      rewrite (pot_restricted_ext En). eapply orl_bind; [apply orl_eq; reflexivity|]. intros v ? <-. cbn [orl].
      rewrite (rd_buf buf buf' w 1); [reflexivity|]. apply Ww. rewrite En. cbn. lia.
    + change (orb (Z.eqb XC_A_B_2ND_TAYLOR XC_A_2ND_TAYLOR) (Z.eqb XC_A_B_2ND_TAYLOR XC_N_2ND_TAYLOR)) with false. cbn iota.
      eapply orl_bind.
      * apply (ofold_rel_seq (fun i (s s' : (nat -> ct K 2) * writes) => snd s = snd s' /\ forall p, (1 <= p <= 2)%nat -> In p (map fst (snd s))));
          [|cbn [snd]; split; [reflexivity|intros p Hp; apply Ww; rewrite En; exact Hp]].
        intros j [e w'] [e' w''] Hj [A1 A2]. cbn [snd] in A1, A2. subst w''.
        eapply orl_bind; [apply (pot_unrestricted_ext En Hg); lia|]. intros r r' Er. cbn [orl snd].
        rewrite Er, (rd_buf buf buf' w' (j + 1)) by (apply A2; lia). split; [reflexivity|].
        intros p Hp. unfold w1. rewrite map_app, in_app_iff. left. now apply A2.
      * intros s s' [A1 _]. exact A1.
Qed.
End X2.

(** ** Dependence on the settings *)
Fixpoint spar (s : sexp) : bool :=
  match s with
  | SPar p => andb (Nat.leb 78 p) (Nat.ltb p 82)
  | SQ _ | SPi | SEps | SBad => true
  | SNeg a | SPowI a _ | SSqrt a | SCbrt a | SLog a | SExp a => spar a
  | SAdd a b | SSub a b | SMul a b | SDiv a b | SPow a b => spar a && spar b
  end.
Fixpoint epar (e : expr) : bool :=
  match e with
  | EIn _ | EFld _ | EVar _ => true
  | EConst s => spar s
  | ENeg a | EPowI a _ | EFun _ a | EAbs a | EReg a | EBR a => epar a
  | EAddK a s | ESubK a s | EKSub s a | EScale s a | EKDiv s a | EDivK a s | EPow a s => spar s && epar a
  | ELet _ a b | EAdd a b | ESub a b | EMul a b | EMulTo a b | EDiv a b | EMax a b => epar a && epar b
  | EIf a b e1 e2 => epar a && epar b && epar e1 && epar e2
  end.
Section SET.
Context {K : Ops}.
Variables st st' : nat -> K.
Hypothesis Hs : forall i, (78 <= i < 82)%nat -> st i = st' i.
Lemma seval_st : forall s, spar s = true -> seval st s = seval st' s.
Proof.
  induction s; cbn [spar seval]; rewrite ?andb_true_iff; intros H;
    repeat match goal with X : _ /\ _ |- _ => destruct X end;
    repeat match goal with I : ?b = true -> _ = _, Y : ?b = true |- _ => specialize (I Y); rewrite I end; try reflexivity.
  rewrite Nat.leb_le in *. rewrite Nat.ltb_lt in *. now rewrite Hs.
Qed.
Lemma eval_st n (inp : nat -> ct K n) fl : forall e r, epar e = true -> eval st n inp fl r e = eval st' n inp fl r e.
Proof.
  induction e; intros r Hb; cbn [epar] in Hb; rewrite ?andb_true_iff in Hb;
    repeat match goal with X : _ /\ _ |- _ => destruct X end; cbn [eval];
    repeat match goal with
    | I : forall r, epar ?a = true -> _, Y : epar ?a = true |- context [eval st n inp fl ?rr ?a] => rewrite (I rr Y)
    | Y : spar ?a = true |- context [seval st ?a] => rewrite (seval_st a Y)
    end; try reflexivity.
  destruct (eval st' n inp fl r e1); cbn [obnd]; [|reflexivity]. now apply IHe2.
Qed.
Lemma run_st n (inp : nat -> ct K n) : forall p fl, forallb (fun a => epar (snd a)) p = true -> run st n inp fl p = run st' n inp fl p.
Proof.
  induction p as [|[f e] p IH]; intros fl Hb; cbn [run forallb snd] in *; [reflexivity|].
  apply andb_true_iff in Hb. destruct Hb as [H1 H2]. rewrite (eval_st n inp fl e [] H1).
  destruct (eval st' n inp fl [] e); cbn [obnd]; [now apply IH|reflexivity].
Qed.
End SET.
Lemma functionals_epar : forallb (fun p => epar (snd p)) functionals = true.
Proof. vm_compute. reflexivity. Qed.
Lemma dv_epar : forallb (fun v => match dv_prog v with Some p => forallb (fun a => epar (snd a)) p | None => true end) zvars = true.
Proof. vm_compute. reflexivity. Qed.
Lemma dv_prog_none v : ~ (0 <= v < XC_NR_VARS)%Z -> dv_prog v = None.
Proof.
  intro H. unfold dv_prog, dv_switch.
  repeat match goal with |- context [Z.eqb v ?c] => destruct (Z.eqb_spec v c) as [X|_];
    [exfalso; apply H; rewrite X; unfold c, XC_NR_VARS; lia|] end. reflexivity.
Qed.
Lemma dv_prog_epar v p : dv_prog v = Some p -> forallb (fun a => epar (snd a)) p = true.
Proof.
  intro D. destruct (Z_lt_ge_dec v 0) as [N|N]; [rewrite dv_prog_none in D; [discriminate|lia]|].
  destruct (Z_lt_ge_dec v XC_NR_VARS) as [M|M]; [|rewrite dv_prog_none in D; [discriminate|lia]].
  pose proof (proj1 (forallb_forall _ _) dv_epar v (zvars_in v ltac:(lia))) as H. cbn beta in H. now rewrite D in H.
Qed.
(** Settings of the active functionals and of the parameters are all that matters. *)
Definition same_weights {K : Ops} (h h' : handle K) : Prop :=
  h_active h = h_active h' /\ h_vars h = h_vars h' /\
  (forall i, In i (h_active h) -> h_settings h i = h_settings h' i) /\
  (forall i, (78 <= i < 82)%nat -> h_settings h i = h_settings h' i).
Lemma energy_settings {K : Ops} (h h' : handle K) n d out : same_weights h h' -> energy h n d out = energy h' n d out.
Proof.
  intros (A & B & C & D). unfold energy, densvars. rewrite <- B. destruct (dv_prog (h_vars h)) as [p|] eqn:E; [|reflexivity].
  rewrite (run_st _ _ D n d p _ (dv_prog_epar _ _ E)). destruct (run _ n d _ p) as [fl|]; cbn [of_option obind]; [|reflexivity].
  unfold energy_sum. rewrite <- A. apply ofold_ext. intros s i Hi. unfold fp.
  destruct (nth_error functionals i) as [[nm e]|] eqn:Ef; cbn [obind snd]; [|reflexivity].
  pose proof (proj1 (forallb_forall _ _) functionals_epar _ (nth_error_In _ _ Ef)) as He. cbn [snd] in He.
  rewrite (eval_st _ _ D n d fl e [] He), (C i Hi). reflexivity.
Qed.

(** ** The whole evaluation *)
Definition upto (k i : nat) : bool := Nat.ltb i k.
Lemma taint_A_B_2ND : exists p cf, dv_prog XC_A_B_2ND_TAYLOR = Some p /\ taint (upto 14) (fun _ => true) p = Some cf /\
  forall f, nolap f = true -> cf f = true.
Proof.
  eexists. eexists. split; [vm_compute; reflexivity|]. split.
  - cbn -[fld_eqb cadd]. reflexivity.
  - intros f Hf. destruct f; vm_compute in Hf |- *; congruence.
Qed.
Section FIN.
Context {K : Ops}.
Variables junk junk' : forall n : nat, nat -> ct K n.
(** Number of input values an evaluation uses. *)
Definition nread (h : handle K) (len : nat) : nat :=
  if Z.eqb (h_mode h) XC_CONTRACTED then len * 2 ^ Z.to_nat (h_order h) else len.
Lemma no_lap_clean h : wf h -> ~ needs_meta (K := K) h ->
  forall i, In i (h_active h) -> exists e, fp i = Ok e /\ clean (fun _ => false) nolap e = true.
Proof.
  intros (_ & A & _) N i Hi. pose proof (A i Hi) as L.
  pose proof (proj1 (forallb_forall _ _) nolap_all i ltac:(apply in_seq; lia)) as S. unfold nolap_sound in S.
  destruct (nth_error functionals i) as [[nm e]|] eqn:E; [|discriminate]. exists e. split; [unfold fp; now rewrite E|].
  apply orb_true_iff in S. destruct S as [S|S]; [|exact S]. exfalso. apply N. exists i. split; [exact Hi|]. left. exact S.
Qed.
(** Same state as far as evaluation is concerned. *)
Definition same_state (h h' : handle K) : Prop :=
  same_weights h h' /\ h_mode h = h_mode h' /\ h_order h = h_order h' /\ h_depends h = h_depends h'.
Theorem eval_ext h h' buf buf' input input' vd : reachable h -> setup_valid h -> vars_entry (h_vars h) = Ok vd ->
  reachable h' -> same_state h h' ->
  (forall i, (i < nread h (Z.to_nat (v_len vd)))%nat -> input i = input' i) ->
  xcfun_eval junk h buf input = xcfun_eval junk' h' buf' input'.
Proof.
  intros Hr Sv E Hr' Hst Hin. pose proof (reachable_wf h Hr) as W.
  destruct (in_dec Z.eq_dec (h_vars h) unsupported_vars) as [U|U].
  { rewrite eval_dies by (try assumption; now left). symmetry. destruct Hst as ((_ & V & _) & M & O & D). apply eval_dies; [assumption| |left; now rewrite <- V].
    unfold setup_valid, xcfun_eval_setup in *. rewrite <- V, <- M, <- O, <- D. rewrite E in *. cbn [obind] in *.
    repeat match goal with H : context [if ?b then _ else _] |- _ => destruct b; try discriminate end.
    rewrite V, M, O, D. destruct h'. reflexivity. }
  pose proof (vlen_pos _ _ E) as Lp.
  assert (HE : forall m d d' out, ag (Z.to_nat (v_len vd)) d d' -> energy h m d out = energy h' m d' out).
  { intros m d d' out A. destruct Hst as (Hst & _). rewrite <- (energy_settings h h' m d' out Hst). apply (energy_ext h vd); [apply W|exact E|exact A]. }
  destruct Hst as (Hst & Em & Eo & Ed). pose proof Hst as (_ & Evv & _).
  unfold xcfun_eval, nread in *. rewrite <- Em, <- Eo, <- Evv.
  destruct (Z.eqb (h_mode h) XC_MODE_UNSET); [reflexivity|].
  destruct (Z.eqb (h_vars h) XC_VARS_UNSET); [reflexivity|].
  destruct (andb (Z.eqb (h_order h) (-1)) _); [reflexivity|].
  destruct (Z.eqb_spec (h_mode h) XC_PARTIAL_DERIVATIVES) as [M|M].
  - rewrite M in Hin. cbn [Z.eqb XC_PARTIAL_DERIVATIVES XC_CONTRACTED Pos.eqb] in Hin.
    destruct (Z.eqb (h_order h) 0); [rewrite E; cbn [obind]; now apply partial0_ext|].
    destruct (Z.eqb (h_order h) 1); [rewrite E; cbn [obind]; now apply partial1_ext|].
    destruct (Z.eqb (h_order h) 2); [rewrite E; cbn [obind]; now apply partial2_ext|].
    destruct (Z.eqb (h_order h) 3); [rewrite E; cbn [obind]; now apply partial3_ext|]. reflexivity.
  - destruct (Z.eqb_spec (h_mode h) XC_CONTRACTED) as [M3|M3].
    + destruct (andb _ _); [|reflexivity]. rewrite E. cbn [obind]. now apply contracted_ext.
    + destruct (Z.eqb_spec (h_mode h) XC_POTENTIAL) as [M2|M2]; [|reflexivity].
      rewrite E. cbn [obind].
      destruct (setup_valid_code h W Sv) as (vd' & E' & _ & _ & P). destruct (P M2) as [_ Nm].
      assert (HE1 : forall m d d' out, (forall i, (i < Z.to_nat (v_len vd))%nat -> True -> d i = d' i) -> energy h m d out = energy h' m d' out).
      { intros m d d' out A. apply HE. intros i Hi. apply A; auto. }
      destruct (xcfun_is_gga h) eqn:G.
      * destruct (pot_gga h vd W Sv E U M2 G) as [[Ev En]|[Ev En]].
        -- apply (potential_ext junk junk' h h' input input' _ (fun _ => True) Hin HE1); auto.
        -- apply (potential_ext junk junk' h h' input input' _ (fun i => (i < 14)%nat) Hin); auto.
           intros m d d' out A. destruct taint_A_B_2ND as (p & cf & D & T & C).
           rewrite <- (energy_settings h h' m d' out Hst). apply (energy_clean h m d d' (upto 14) cf p out).
           ++ now rewrite Ev.
           ++ exact T.
           ++ intros i Hi. unfold upto in Hi. apply Nat.ltb_lt in Hi. apply A; [rewrite En; lia|exact Hi].
           ++ intros i Hi. destruct (no_lap_clean h W Nm i Hi) as (e & F1 & F2). exists e. split; [exact F1|].
              eapply clean_imp; [exact C|exact F2].
      * apply (potential_ext junk junk' h h' input input' _ (fun _ => True) Hin HE1); auto. intro X. congruence.
Qed.
End FIN.

