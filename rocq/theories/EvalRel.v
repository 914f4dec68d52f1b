(** * Two evaluations whose input arrays are related give the same result

    [Rel m d d'] is any relation between the arrays handed to the energy functions that is
    kept by what the derivative loops do to them and that the energy cannot see. *)
From Coq Require Import QArith ZArith Arith Lia List Bool String.
From Verif Require Import Scalar Tables Api SpecApi ApiProofs ApiProofs2 CTaylor TMath Br Expr Densvars Functionals Eval SpecEval Layout EvalSem EvalProps Taint EvalExt.
Import ListNotations.
Local Open Scope outcome_scope.

Section R.
Context {K : Ops}.
Variable junk : forall n : nat, nat -> ct K n.
Variable h : handle K.
Variables input input' : nat -> K.
Variable n : nat.
Variable Rel : forall m, (nat -> ct K m) -> (nat -> ct K m) -> Prop.
Hypothesis HE : forall m d d' out, Rel m d d' -> energy h m d out = energy h m d' out.
Hypothesis Rset : forall m d d' i k v, (i < n)%nat -> (0 < k < 2 ^ m)%nat -> Rel m d d' -> Rel m (aupd d i (set m (d i) k v)) (aupd d' i (set m (d' i) k v)).
Section P.
Hypothesis Rload : forall m, Rel m (load m (junk m) n input) (load m (junk m) n input').
Hypothesis Rcon : forall m d d' i, (i < n)%nat -> Rel m d d' -> Rel m (aupd d i (ct_const m (input i))) (aupd d' i (ct_const m (input' i))).
Ltac en := eapply orl_bind; [apply orl_eq, HE|intros ? ? <-].
Ltac inlt := match goal with H : In _ (seq _ _) |- _ => apply in_seq in H end.
Ltac rset := apply Rset; [lia|unfold VAR0, VAR1, VAR2; cbn; lia|].

Lemma partial0_rel : partial0 junk h n input = partial0 junk h n input'.
Proof. apply eq_orl. unfold partial0. en; [apply Rload|]. reflexivity. Qed.
Lemma partial1_rel : (0 < n)%nat -> partial1 junk h n input = partial1 junk h n input'.
Proof.
  intro Hpos. apply eq_orl. unfold partial1.
  eapply orl_bind with (R := fun s s' : (nat -> ct K 2) * ct K 2 * writes => Rel 2 (fst (fst s)) (fst (fst s')) /\ snd (fst s) = snd (fst s') /\ snd s = snd s').
  - apply ofold_rel; [|cbn [fst snd]; split; [apply (Rload 2)|split; reflexivity]].
    intros j [[d o] ws] [[d' o'] ws'] Hj (A & B & C). cbn [fst snd] in A, B, C. subst o' ws'. inlt.
    assert (Hj2 : (2 * j + 1 < n)%nat). { pose proof (Nat.div_mod n 2 ltac:(lia)). lia. }
    set (d1 := aupd (aupd d _ _) _ _). set (d1' := aupd (aupd d' _ _) _ _).
    assert (A1 : Rel 2 d1 d1').
    { unfold d1, d1'. rset. rset. exact A. }
    en; [exact A1|]. cbn [orl fst snd]. split; [|split; reflexivity]. apply Rcon; [lia|]. apply Rcon; [lia|exact A1].
  - intros [[d o] ws] [[d' o'] ws'] (A & B & C). cbn [fst snd] in A, B, C. subst o' ws'.
    destruct (Nat.odd n); [|reflexivity]. en; [|reflexivity]. rset. apply Rload.
Qed.
Definition S4 (s s' : (nat -> ct K 2) * ct K 2 * nat * writes (K := K)) : Prop :=
  Rel 2 (fst (fst (fst s))) (fst (fst (fst s'))) /\ snd (fst (fst s)) = snd (fst (fst s')) /\ snd (fst s) = snd (fst s') /\ snd s = snd s'.
Lemma partial2_rel ws : partial2 junk h n input ws = partial2 junk h n input' ws.
Proof.
  apply eq_orl. unfold partial2. eapply orl_bind with (R := S4).
  - apply ofold_rel; [|unfold S4; cbn [fst snd]; repeat split; apply (Rload 2)].
    intros i [[[d o] k] w] [[[d' o'] k'] w'] Hi (A & B & C & D). cbn [fst snd] in A, B, C, D. subst o' k' w'. inlt.
    eapply orl_bind with (R := S4).
    + apply ofold_rel; [|unfold S4; cbn [fst snd]; repeat split; rset; exact A].
      intros j [[[e o1] k1] w1'] [[[e' o1'] k1'] w1''] Hj (A1 & B1 & C1 & D1). cbn [fst snd] in A1, B1, C1, D1. subst o1' k1' w1''. inlt.
      en; [rset; exact A1|]. unfold S4; cbn [orl fst snd]. repeat split. rset. rset. exact A1.
    + intros [[[e o1] k1] w1'] [[[e' o1'] k1'] w1''] (A1 & B1 & C1 & D1). cbn [fst snd] in A1, B1, C1, D1. subst o1' k1' w1''.
      unfold S4; cbn [orl fst snd]. repeat split. apply Rcon; [lia|exact A1].
  - intros [[[e o1] k1] w1'] [[[e' o1'] k1'] w1''] (A1 & B1 & C1 & D1). cbn [fst snd] in A1, B1, C1, D1. subst o1' k1' w1''. reflexivity.
Qed.
Definition S3 (s s' : (nat -> ct K 3) * nat * writes (K := K)) : Prop :=
  Rel 3 (fst (fst s)) (fst (fst s')) /\ snd (fst s) = snd (fst s') /\ snd s = snd s'.
Ltac r3 := unfold S3; cbn [orl fst snd]; repeat split.
Lemma partial3_rel : partial3 junk h n input = partial3 junk h n input'.
Proof.
  apply eq_orl. unfold partial3. eapply orl_bind with (R := S3).
  - apply ofold_rel; [|r3; apply (Rload 3)].
    intros i [[d k] w] [[d' k'] w'] Hi (A & B & C). cbn [fst snd] in A, B, C. subst k' w'. inlt.
    eapply orl_bind with (R := S3).
    + apply ofold_rel; [|r3; rset; exact A].
      intros j [[e k1] w1'] [[e' k1'] w1''] Hj (A1 & B1 & C1). cbn [fst snd] in A1, B1, C1. subst k1' w1''. inlt.
      eapply orl_bind with (R := S3).
      * apply ofold_rel; [|r3; rset; exact A1].
        intros t [[f k2] w2] [[f' k2'] w2'] Ht (A2 & B2 & C2). cbn [fst snd] in A2, B2, C2. subst k2' w2'. inlt.
        en; [rset; exact A2|]. r3. rset. rset. exact A2.
      * intros [[f k2] w2] [[f' k2'] w2'] (A2 & B2 & C2). cbn [fst snd] in A2, B2, C2. subst k2' w2'.
        r3. rset. exact A2.
    + intros [[f k2] w2] [[f' k2'] w2'] (A2 & B2 & C2). cbn [fst snd] in A2, B2, C2. subst k2' w2'.
      r3. apply Rcon; [lia|exact A2].
  - intros [[f k2] w2] [[f' k2'] w2'] (A2 & B2 & C2). cbn [fst snd] in A2, B2, C2. subst k2' w2'.
    apply orl_eq. apply partial2_rel.
Qed.
End P.
(** The array contracted mode builds. *)
Definition cload (m : nat) (x : nat -> K) : nat -> ct K m :=
  fun i => if Nat.ltb i n then ct_load m (fun j => x (i * 2 ^ m + j)%nat) else junk m i.
Lemma contracted_rel m : Rel m (cload m input) (cload m input') -> contracted junk h m n input = contracted junk h m n input'.
Proof. intro H. unfold contracted. erewrite HE; [reflexivity|exact H]. Qed.

Section Q.
Hypothesis Rload : Rel 1 (load 1 (junk 1) n input) (load 1 (junk 1) n input').
Hypothesis Rcon : forall d d' i, (i < n)%nat -> Rel 1 d d' -> Rel 1 (aupd d i (ct_const 1 (input i))) (aupd d' i (ct_const 1 (input' i))).
Hypothesis Rjunk : Rel 2 (junk 2) (junk 2).
Hypothesis Rzero : forall d d' i, Rel 2 d d' -> Rel 2 (aupd d i (czero 2)) (aupd d' i (czero 2)).
Definition dir_ok (p : nat * nat) : Prop := forall o, (o = 0 \/ o = 10)%nat -> forall d d', (o + snd p < n)%nat -> (o + fst p < n)%nat -> Rel 2 d d' ->
  Rel 2 (aupd d (o + fst p)%nat (cv (input (o + fst p)%nat) (input (o + snd p)%nat))) (aupd d' (o + fst p)%nat (cv (input' (o + fst p)%nat) (input' (o + snd p)%nat))).
Hypothesis Rdir : forall p, In p (dirx ++ diry ++ dirz) -> dir_ok p.
Lemma setin_rel o l : (o = 0 \/ o = 10)%nat -> (forall p, In p l -> In p (dirx ++ diry ++ dirz)) -> (o + 9 < n)%nat -> forall d d', Rel 2 d d' ->
  Rel 2 (setin input o l d) (setin input' o l d').
Proof.
  intros Ho Hl Hn. unfold setin. induction l as [|p l IH]; intros d d' H; cbn [fold_left]; [exact H|].
  pose proof (Hl p (or_introl eq_refl)) as Hp. apply IH; [intros; apply Hl; now right|].
  assert (B : (fst p <= 9 /\ snd p <= 9)%nat).
  { unfold dirx, diry, dirz in Hp. cbn in Hp. intuition (subst; cbn; lia). }
  apply Rdir; [exact Hp|exact Ho|lia|lia|exact H].
Qed.
Lemma zero_rel : forall l d d', Rel 2 d d' -> Rel 2 (fold_left (fun d i => aupd d i (czero 2)) l d) (fold_left (fun d i => aupd d i (czero 2)) l d').
Proof. induction l as [|i l IH]; intros d d' H; cbn [fold_left]; [exact H|]. apply IH, Rzero, H. Qed.
Lemma seed_rel d d' i : (i < n)%nat -> Rel 2 d d' -> Rel 2 (seed1 d i) (seed1 d' i).
Proof. intros Hi H. unfold seed1. apply Rset; [exact Hi|unfold VAR1; cbn; lia|exact H]. Qed.
Ltac en := eapply orl_bind; [apply orl_eq, HE|intros ? ? <-].
Ltac sub := intros p Hp; rewrite !in_app_iff; tauto.
Lemma pot_restricted_rel : (10 <= n)%nat -> pot_restricted junk h input = pot_restricted junk h input'.
Proof.
  intro Hn. apply eq_orl. unfold pot_restricted.
  set (d0 := seed1 (zero49 (setin input 0 dirx (junk 2))) 1). set (d0' := seed1 (zero49 (setin input' 0 dirx (junk 2))) 1).
  assert (A0 : Rel 2 d0 d0').
  { unfold d0, d0', zero49. apply seed_rel; [lia|]. apply zero_rel. apply setin_rel; [now left|sub|lia|exact Rjunk]. }
  en; [exact A0|].
  set (d1 := seed1 (setin input 0 diry d0) 2). set (d1' := seed1 (setin input' 0 diry d0') 2).
  assert (A1 : Rel 2 d1 d1') by (unfold d1, d1'; apply seed_rel; [lia|]; apply setin_rel; [now left|sub|lia|exact A0]).
  en; [exact A1|]. en; [|reflexivity]. apply seed_rel; [lia|]. apply setin_rel; [now left|sub|lia|exact A1].
Qed.
Lemma pot_unrestricted_rel : (20 <= n)%nat -> forall d d' j, (j < 2)%nat -> Rel 2 d d' ->
  orl (fun r r' : (nat -> ct K 2) * K => Rel 2 (fst r) (fst r') /\ snd r = snd r') (pot_unrestricted h input d j) (pot_unrestricted h input' d' j).
Proof.
  intros Hn d d' j Hj H. unfold pot_unrestricted.
  set (d0 := seed1 (zero49 (setin input 10 dirx (setin input 0 dirx d))) (1 + 10 * j)). set (d0' := seed1 (zero49 (setin input' 10 dirx (setin input' 0 dirx d'))) (1 + 10 * j)).
  assert (A0 : Rel 2 d0 d0').
  { unfold d0, d0', zero49. apply seed_rel; [lia|]. apply zero_rel. apply setin_rel; [now right|sub|lia|]. apply setin_rel; [now left|sub|lia|exact H]. }
  en; [exact A0|].
  set (d1 := seed1 (setin input 10 diry (setin input 0 diry d0)) (2 + 10 * j)). set (d1' := seed1 (setin input' 10 diry (setin input' 0 diry d0')) (2 + 10 * j)).
  assert (A1 : Rel 2 d1 d1').
  { unfold d1, d1'. apply seed_rel; [lia|]. apply setin_rel; [now right|sub|lia|]. apply setin_rel; [now left|sub|lia|exact A0]. }
  en; [exact A1|].
  set (d2 := seed1 (setin input 10 dirz (setin input 0 dirz d1)) (3 + 10 * j)). set (d2' := seed1 (setin input' 10 dirz (setin input' 0 dirz d1')) (3 + 10 * j)).
  assert (A2 : Rel 2 d2 d2').
  { unfold d2, d2'. apply seed_rel; [lia|]. apply setin_rel; [now right|sub|lia|]. apply setin_rel; [now left|sub|lia|exact A1]. }
  en; [exact A2|]. cbn [orl fst snd]. split; [exact A2|reflexivity].
Qed.
Lemma potential_lda_rel buf : (0 < n)%nat -> xcfun_is_gga h = false -> potential junk h n buf input = potential junk h n buf input'.
Proof.
  intros Hpos G. apply eq_orl. unfold potential. fold (npot n).
  set (inpos := if Nat.eqb (npot n) 1 then 0%nat else _).
  assert (Hip : forall j, (j < npot n)%nat -> (j * inpos < n)%nat).
  { intros j Hj. unfold inpos, npot in *. destruct (Nat.eqb_spec n 1), (Nat.eqb_spec n 10); cbn in *; try lia.
    destruct (Nat.eqb_spec n 2); [lia|]. destruct (Nat.eqb_spec n 20); lia. }
  eapply orl_bind with (R := fun s s' : (nat -> ct K 1) * ct K 1 * writes =>
     Rel 1 (fst (fst s)) (fst (fst s')) /\ snd (fst s) = snd (fst s') /\ snd s = snd s').
  - apply ofold_rel; [|cbn [fst snd]; repeat split; exact Rload].
    intros j [[d o] ws] [[d' o'] ws'] Hj (A & B & C). cbn [fst snd] in A, B, C. subst o' ws'. apply in_seq in Hj.
    assert (Hp : (j * inpos < n)%nat) by (apply Hip; lia).
    en; [apply Rset; [exact Hp|unfold VAR0; cbn; lia|exact A]|].
    cbn [orl fst snd]. repeat split. apply Rcon; [exact Hp|]. apply Rset; [exact Hp|unfold VAR0; cbn; lia|exact A].
  - intros [[d o] ws] [[d' o'] ws'] (A & B & C). cbn [fst snd] in A, B, C. subst o' ws'.
    unfold xcfun_is_gga in G. rewrite G. reflexivity.
Qed.
Lemma potential_rel buf : (0 < n)%nat ->
  (xcfun_is_gga h = true -> (h_vars h = XC_N_2ND_TAYLOR /\ n = 10%nat) \/ (h_vars h = XC_A_B_2ND_TAYLOR /\ n = 20%nat)) ->
  potential junk h n buf input = potential junk h n buf input'.
Proof.
  intros Hpos G. apply eq_orl. unfold potential. fold (npot n).
  set (inpos := if Nat.eqb (npot n) 1 then 0%nat else _).
  assert (Hip : forall j, (j < npot n)%nat -> (j * inpos < n)%nat).
  { intros j Hj. unfold inpos, npot in *. destruct (Nat.eqb_spec n 1), (Nat.eqb_spec n 10); cbn in *; try lia.
    destruct (Nat.eqb_spec n 2); [lia|]. destruct (Nat.eqb_spec n 20); lia. }
  eapply orl_bind with (R := fun s s' : (nat -> ct K 1) * ct K 1 * writes =>
     Rel 1 (fst (fst s)) (fst (fst s')) /\ snd (fst s) = snd (fst s') /\ snd s = snd s').
  - apply ofold_rel; [|cbn [fst snd]; repeat split; exact Rload].
    intros j [[d o] ws] [[d' o'] ws'] Hj (A & B & C). cbn [fst snd] in A, B, C. subst o' ws'. apply in_seq in Hj.
    assert (Hp : (j * inpos < n)%nat) by (apply Hip; lia).
    en; [apply Rset; [exact Hp|unfold VAR0; cbn; lia|exact A]|].
    cbn [orl fst snd]. repeat split. apply Rcon; [exact Hp|]. apply Rset; [exact Hp|unfold VAR0; cbn; lia|exact A].
  - intros [[d o] ws] [[d' o'] ws'] (A & B & C). cbn [fst snd] in A, B, C. subst o' ws'.
    unfold xcfun_is_gga in G. destruct (negb _); [|reflexivity].
    destruct (G eq_refl) as [[Ev En]|[Ev En]]; rewrite Ev.
    + change (orb (Z.eqb XC_N_2ND_TAYLOR XC_A_2ND_TAYLOR) (Z.eqb XC_N_2ND_TAYLOR XC_N_2ND_TAYLOR)) with true. cbn iota.
      rewrite pot_restricted_rel by lia. apply orl_eq. reflexivity.
    + change (orb (Z.eqb XC_A_B_2ND_TAYLOR XC_A_2ND_TAYLOR) (Z.eqb XC_A_B_2ND_TAYLOR XC_N_2ND_TAYLOR)) with false. cbn iota.
      eapply orl_bind with (R := fun s s' : (nat -> ct K 2) * writes => Rel 2 (fst s) (fst s') /\ snd s = snd s').
      * apply ofold_rel; [|cbn [fst snd]; split; [exact Rjunk|reflexivity]].
        intros j [e w'] [e' w''] Hj [A1 A2]. cbn [fst snd] in A1, A2. subst w''. apply in_seq in Hj.
        eapply orl_bind; [apply pot_unrestricted_rel; [lia|lia|exact A1]|]. intros r r' [Er1 Er2]. cbn [orl fst snd].
        rewrite Er2. split; [exact Er1|reflexivity].
      * intros s s' [_ A1]. exact A1.
Qed.
End Q.
End R.
