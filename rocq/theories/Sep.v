(** * Expressions that are sums of one-spin contributions

    A checker for expressions of the form f(alpha) + g(beta), and its soundness for the
    real meaning of expressions (RSem.v). *)
From Coq Require Import Reals QArith Qreals ZArith Arith Lia Lra List Bool String.
From Coquelicot Require Import Coquelicot.
From Verif Require Import Scalar RInst Tables CTaylor TMath Br Expr Densvars Functionals RSem.
Import ListNotations.
Local Open Scope R_scope.

(** Which spin an expression depends on. *)
Inductive dep := D0 | DA | DB.
Definition fdep (f : fld) : option dep :=
  match f with
  | f_a | f_gaa | f_taua | f_lapa | f_a_43 | f_jpaa => Some DA
  | f_b | f_gbb | f_taub | f_lapb | f_b_43 | f_jpbb => Some DB
  | _ => None
  end.
Definition dj (x y : option dep) : option dep :=
  match x, y with
  | Some D0, _ => y
  | Some d, Some D0 => Some d
  | Some DA, Some DA => Some DA
  | Some DB, Some DB => Some DB
  | _, _ => None
  end.
Fixpoint plook (x : string) (r : list (string * dep)) : option dep :=
  match r with [] => None | (y, v) :: r' => if String.eqb x y then Some v else plook x r' end.
Fixpoint dp (r : list (string * dep)) (e : expr) : option dep :=
  match e with
  | EIn _ => None
  | EFld f => fdep f
  | EVar x => plook x r
  | EConst _ => Some D0
  | ELet x a b => match dp r a with Some d => dj (Some d) (dp ((x, d) :: r) b) | None => None end
  | ENeg a | EScale _ a | EDivK a _ | EAbs a | EAddK a _ | ESubK a _ | EKSub _ a | EKDiv _ a | EBR a | EPow a _ | EPowI a _ | EFun _ a | EReg a => dp r a
  | EAdd a b | ESub a b | EMax a b | EMul a b | EMulTo a b | EDiv a b => dj (dp r a) (dp r b)
  | EIf a b x y => dj (dj (dp r a) (dp r b)) (dj (dp r x) (dp r y))
  end.
Fixpoint sep (r : list (string * dep)) (e : expr) : bool :=
  match dp r e with
  | Some _ => true
  | None =>
    match e with
    | ELet x a b => match dp r a with Some d => sep ((x, d) :: r) b | None => false end
    | ENeg a | EScale _ a | EDivK a _ => sep r a
    | EAdd a b | ESub a b => sep r a && sep r b
    | EMul a b | EMulTo a b => match dp r a, dp r b with Some D0, _ => sep r b | _, Some D0 => sep r a | _, _ => false end
    | _ => false
    end
  end.

(** ** Soundness *)
Section S.
Variables (st : nat -> T ROps) (inp : nat -> R).
Definition samefor (d : dep) (fl fl' : fld -> R) : Prop := forall f d', fdep f = Some d' -> (d' = D0 \/ d' = d) -> fl f = fl' f.
Definition samenv (d : dep) (r : list (string * dep)) (g g' : list (string * R)) : Prop :=
  forall x d', plook x r = Some d' -> (d' = D0 \/ d' = d) -> rlook x g = rlook x g'.
Lemma samenv_cons d r g g' x d' v v' : samenv d r g g' -> (d' = D0 \/ d' = d -> v = v') -> samenv d ((x, d') :: r) ((x, v) :: g) ((x, v') :: g').
Proof. intros H E y d2. cbn [plook rlook]. destruct (String.eqb y x); [|apply H]. intro Q. injection Q as <-. intro K. now rewrite E. Qed.
Definition sub (d' d : dep) : Prop := d' = D0 \/ d' = d.
Lemma dj_sub x y d0 d : dj x y = Some d0 -> sub d0 d -> exists p q, x = Some p /\ y = Some q /\ sub p d /\ sub q d.
Proof.
  destruct x as [[]|], y as [[]|]; cbn [dj]; intros E [->| ->]; try discriminate E; try (injection E as <-);
  (do 2 eexists; split; [reflexivity|]; split; [reflexivity|]; split; solve [now left|now right]).
Qed.
(** An expression that depends on one spin only does not see the other. *)
Lemma dp_ok d fl fl' : samefor d fl fl' -> forall e r g g' d', dp r e = Some d' -> sub d' d -> samenv d r g g' ->
  reval st inp fl g e = reval st inp fl' g' e.
Proof.
  intros F. induction e; intros r g g' d' E S N; cbn [dp] in E; cbn [reval]; try discriminate E;
  try (rewrite (IHe _ _ _ _ E S N); reflexivity);
  try (destruct (dj_sub _ _ _ _ E S) as (p & q & E1 & E2 & S1 & S2); rewrite (IHe1 _ _ _ _ E1 S1 N), (IHe2 _ _ _ _ E2 S2 N); reflexivity).
  - now rewrite (F _ _ E S).
  - exact (N _ _ E S).
  - reflexivity.
  - destruct (dp r e1) as [p|] eqn:E1; [|discriminate]. destruct (dj_sub _ _ _ _ E S) as (p' & q & Ep & E2 & S1 & S2). injection Ep as <-.
    rewrite (IHe1 _ _ _ _ E1 S1 N). destruct (reval st inp fl' g' e1) as [v|]; cbn [obnd]; [|reflexivity].
    apply (IHe2 _ _ _ _ E2 S2). now apply samenv_cons.
  - destruct (dj_sub _ _ _ _ E S) as (p & q & Ep & Eq & Sp & Sq). destruct (dj_sub _ _ _ _ Ep Sp) as (p1 & p2 & E1 & E2 & S1 & S2). destruct (dj_sub _ _ _ _ Eq Sq) as (q1 & q2 & E3 & E4 & S3 & S4).
    rewrite (IHe1 _ _ _ _ E1 S1 N), (IHe2 _ _ _ _ E2 S2 N), (IHe3 _ _ _ _ E3 S3 N), (IHe4 _ _ _ _ E4 S4 N). reflexivity.
Qed.
(** Four sets of density variables: (a,b), (b,a), (a,a) and (b,b). *)
Variables ab ba aa bb : fld -> R.
Hypotheses (A1 : samefor DA ab aa) (A2 : samefor DA ba bb) (B1 : samefor DB ab bb) (B2 : samefor DB ba aa).
Lemma sep_ok : forall e r g1 g2 g3 g4 w w', sep r e = true ->
  samenv DA r g1 g3 -> samenv DA r g2 g4 -> samenv DB r g1 g4 -> samenv DB r g2 g3 ->
  reval st inp ab g1 e = Some w -> reval st inp ba g2 e = Some w' ->
  exists z z', reval st inp aa g3 e = Some z /\ reval st inp bb g4 e = Some z' /\ z + z' = w + w'.
Proof.
  assert (X : forall e r g1 g2 g3 g4 w w' d, dp r e = Some d ->
    samenv DA r g1 g3 -> samenv DA r g2 g4 -> samenv DB r g1 g4 -> samenv DB r g2 g3 ->
    reval st inp ab g1 e = Some w -> reval st inp ba g2 e = Some w' ->
    exists z z', reval st inp aa g3 e = Some z /\ reval st inp bb g4 e = Some z' /\ z + z' = w + w' /\
      (d = D0 \/ d = DA -> z = w /\ z' = w') /\ (d = D0 \/ d = DB -> z = w' /\ z' = w)).
  { intros e r g1 g2 g3 g4 w w' d E N1 N2 N3 N4 W W'.
    assert (PA : sub d DA -> reval st inp aa g3 e = Some w /\ reval st inp bb g4 e = Some w').
    { intro Sd. rewrite <- (dp_ok DA _ _ A1 e _ _ _ _ E Sd N1), <- (dp_ok DA _ _ A2 e _ _ _ _ E Sd N2). now split. }
    assert (PB : sub d DB -> reval st inp bb g4 e = Some w /\ reval st inp aa g3 e = Some w').
    { intro Sd. rewrite <- (dp_ok DB _ _ B1 e _ _ _ _ E Sd N3), <- (dp_ok DB _ _ B2 e _ _ _ _ E Sd N4). now split. }
    destruct d.
    - destruct (PA (or_introl eq_refl)) as [Q1 Q2], (PB (or_introl eq_refl)) as [Q3 Q4]. exists w, w'. rewrite Q1, Q2 in *. injection Q3 as ->. intuition auto.
    - destruct (PA (or_intror eq_refl)) as [Q1 Q2]. exists w, w'. split; [exact Q1|]. split; [exact Q2|]. split; [reflexivity|]. split; [auto|intros [K|K]; discriminate K].
    - destruct (PB (or_intror eq_refl)) as [Q1 Q2]. exists w', w. split; [exact Q2|]. split; [exact Q1|]. split; [lra|]. split; [intros [K|K]; discriminate K|auto]. }
  assert (TT : forall e r g1 g2 g3 g4 w w' d, dp r e = Some d ->
    samenv DA r g1 g3 -> samenv DA r g2 g4 -> samenv DB r g1 g4 -> samenv DB r g2 g3 ->
    reval st inp ab g1 e = Some w -> reval st inp ba g2 e = Some w' ->
    exists z z', reval st inp aa g3 e = Some z /\ reval st inp bb g4 e = Some z' /\ z + z' = w + w').
  { intros e r g1 g2 g3 g4 w w' d E N1 N2 N3 N4 W W'. destruct (X _ _ _ _ _ _ _ _ _ E N1 N2 N3 N4 W W') as (z & z' & Z & Z' & S & _). eauto. }
  assert (M : forall e1 e2 r g1 g2 g3 g4 w w',
    (sep r e1 = true -> forall v v', reval st inp ab g1 e1 = Some v -> reval st inp ba g2 e1 = Some v' ->
       exists z z', reval st inp aa g3 e1 = Some z /\ reval st inp bb g4 e1 = Some z' /\ z + z' = v + v') ->
    (sep r e2 = true -> forall v v', reval st inp ab g1 e2 = Some v -> reval st inp ba g2 e2 = Some v' ->
       exists z z', reval st inp aa g3 e2 = Some z /\ reval st inp bb g4 e2 = Some z' /\ z + z' = v + v') ->
    match dp r e1, dp r e2 with Some D0, _ => sep r e2 | _, Some D0 => sep r e1 | _, _ => false end = true ->
    samenv DA r g1 g3 -> samenv DA r g2 g4 -> samenv DB r g1 g4 -> samenv DB r g2 g3 ->
    obnd (reval st inp ab g1 e1) (fun x => obnd (reval st inp ab g1 e2) (fun y => Some (x * y))) = Some w ->
    obnd (reval st inp ba g2 e1) (fun x => obnd (reval st inp ba g2 e2) (fun y => Some (x * y))) = Some w' ->
    exists z z', obnd (reval st inp aa g3 e1) (fun x => obnd (reval st inp aa g3 e2) (fun y => Some (x * y))) = Some z /\
      obnd (reval st inp bb g4 e1) (fun x => obnd (reval st inp bb g4 e2) (fun y => Some (x * y))) = Some z' /\ z + z' = w + w').
  { intros e1 e2 r g1 g2 g3 g4 w w' I1 I2 E N1 N2 N3 N4 W W'.
    destruct (reval st inp ab g1 e1) as [v|] eqn:V; [|discriminate]. destruct (reval st inp ba g2 e1) as [v'|] eqn:V'; [|discriminate].
    destruct (reval st inp ab g1 e2) as [u|] eqn:U; [|discriminate]. destruct (reval st inp ba g2 e2) as [u'|] eqn:U'; [|discriminate]. cbn [obnd] in W, W'. injection W as <-. injection W' as <-.
    assert (C1 : dp r e1 = Some D0 -> sep r e2 = true -> exists z z', obnd (reval st inp aa g3 e1) (fun x => obnd (reval st inp aa g3 e2) (fun y => Some (x * y))) = Some z /\
      obnd (reval st inp bb g4 e1) (fun x => obnd (reval st inp bb g4 e2) (fun y => Some (x * y))) = Some z' /\ z + z' = v * u + v' * u').
    { intros E1 E2. destruct (X _ _ _ _ _ _ _ _ _ E1 N1 N2 N3 N4 V V') as (z & z' & -> & -> & _ & KA & KB). destruct (I2 E2 _ _ eq_refl eq_refl) as (y & y' & -> & -> & Q).
      destruct (KA (or_introl eq_refl)) as [-> ->], (KB (or_introl eq_refl)) as [<- _]. cbn [obnd]. do 2 eexists. split; [reflexivity|]. split; [reflexivity|]. rewrite <- !Rmult_plus_distr_l. now rewrite Q. }
    assert (C2 : dp r e2 = Some D0 -> sep r e1 = true -> exists z z', obnd (reval st inp aa g3 e1) (fun x => obnd (reval st inp aa g3 e2) (fun y => Some (x * y))) = Some z /\
      obnd (reval st inp bb g4 e1) (fun x => obnd (reval st inp bb g4 e2) (fun y => Some (x * y))) = Some z' /\ z + z' = v * u + v' * u').
    { intros E2 E1. destruct (X _ _ _ _ _ _ _ _ _ E2 N1 N2 N3 N4 U U') as (z & z' & -> & -> & _ & KA & KB). destruct (I1 E1 _ _ eq_refl eq_refl) as (y & y' & -> & -> & Q).
      destruct (KA (or_introl eq_refl)) as [-> ->], (KB (or_introl eq_refl)) as [<- _]. cbn [obnd]. do 2 eexists. split; [reflexivity|]. split; [reflexivity|]. rewrite <- !Rmult_plus_distr_r. now rewrite Q. }
    destruct (dp r e1) as [[]|], (dp r e2) as [[]|]; try discriminate E; auto. }
  induction e; intros r g1 g2 g3 g4 w w' E N1 N2 N3 N4 W W'; cbn [sep] in E;
  (match type of E with (match ?x with Some _ => _ | None => _ end) = true => destruct x as [d|] eqn:Dp; [exact (TT _ _ _ _ _ _ _ _ _ Dp N1 N2 N3 N4 W W')|] end);
  try discriminate E; cbn [reval] in *.
  - destruct (dp r e1) as [d|] eqn:E1; [|discriminate]. destruct (reval st inp ab g1 e1) as [v|] eqn:V; [|discriminate]. destruct (reval st inp ba g2 e1) as [v'|] eqn:V'; [|discriminate]. cbn [obnd] in W, W'.
    destruct (X _ _ _ _ _ _ _ _ _ E1 N1 N2 N3 N4 V V') as (z & z' & -> & -> & _ & KA & KB). cbn [obnd].
    apply (IHe2 _ _ _ _ _ _ _ E) with (5 := W) (6 := W'); apply samenv_cons; auto; intro K; try (destruct (KA K) as [-> ->]; reflexivity); destruct (KB K) as [-> ->]; reflexivity.
  - destruct (reval st inp ab g1 e) as [v|] eqn:V; [|discriminate]. destruct (reval st inp ba g2 e) as [v'|] eqn:V'; [|discriminate]. cbn [obnd] in W, W'. injection W as <-. injection W' as <-.
    destruct (IHe _ _ _ _ _ _ _ E N1 N2 N3 N4 V V') as (z & z' & -> & -> & Q). cbn [obnd]. do 2 eexists. split; [reflexivity|]. split; [reflexivity|]. lra.
  - apply andb_true_iff in E. destruct E as [E1 E2].
    destruct (reval st inp ab g1 e1) as [v|] eqn:V; [|discriminate]. destruct (reval st inp ba g2 e1) as [v'|] eqn:V'; [|discriminate].
    destruct (reval st inp ab g1 e2) as [u|] eqn:U; [|discriminate]. destruct (reval st inp ba g2 e2) as [u'|] eqn:U'; [|discriminate]. cbn [obnd] in W, W'. injection W as <-. injection W' as <-.
    destruct (IHe1 _ _ _ _ _ _ _ E1 N1 N2 N3 N4 V V') as (z & z' & -> & -> & Q). destruct (IHe2 _ _ _ _ _ _ _ E2 N1 N2 N3 N4 U U') as (y & y' & -> & -> & Q'). cbn [obnd]. do 2 eexists. split; [reflexivity|]. split; [reflexivity|]. lra.
  - apply andb_true_iff in E. destruct E as [E1 E2].
    destruct (reval st inp ab g1 e1) as [v|] eqn:V; [|discriminate]. destruct (reval st inp ba g2 e1) as [v'|] eqn:V'; [|discriminate].
    destruct (reval st inp ab g1 e2) as [u|] eqn:U; [|discriminate]. destruct (reval st inp ba g2 e2) as [u'|] eqn:U'; [|discriminate]. cbn [obnd] in W, W'. injection W as <-. injection W' as <-.
    destruct (IHe1 _ _ _ _ _ _ _ E1 N1 N2 N3 N4 V V') as (z & z' & -> & -> & Q). destruct (IHe2 _ _ _ _ _ _ _ E2 N1 N2 N3 N4 U U') as (y & y' & -> & -> & Q'). cbn [obnd]. do 2 eexists. split; [reflexivity|]. split; [reflexivity|]. lra.
  - apply (M _ _ _ _ _ _ _ _ _ (fun E1 v v' V V' => IHe1 _ _ _ _ _ _ _ E1 N1 N2 N3 N4 V V') (fun E2 v v' V V' => IHe2 _ _ _ _ _ _ _ E2 N1 N2 N3 N4 V V') E N1 N2 N3 N4 W W').
  - apply (M _ _ _ _ _ _ _ _ _ (fun E1 v v' V V' => IHe1 _ _ _ _ _ _ _ E1 N1 N2 N3 N4 V V') (fun E2 v v' V V' => IHe2 _ _ _ _ _ _ _ E2 N1 N2 N3 N4 V V') E N1 N2 N3 N4 W W').
  - destruct (seval st s) as [k|]; [|discriminate]. cbn [obnd] in *. destruct (reval st inp ab g1 e) as [v|] eqn:V; [|discriminate]. destruct (reval st inp ba g2 e) as [v'|] eqn:V'; [|discriminate]. cbn [obnd] in W, W'. injection W as <-. injection W' as <-.
    destruct (IHe _ _ _ _ _ _ _ E N1 N2 N3 N4 V V') as (z & z' & -> & -> & Q). cbn [obnd]. do 2 eexists. split; [reflexivity|]. split; [reflexivity|]. cbn [T ROps] in *. rewrite <- !Rmult_plus_distr_l. now rewrite Q.
  - destruct (reval st inp ab g1 e) as [v|] eqn:V; [|discriminate]. destruct (reval st inp ba g2 e) as [v'|] eqn:V'; [|discriminate]. cbn [obnd] in W, W'.
    destruct (IHe _ _ _ _ _ _ _ E N1 N2 N3 N4 V V') as (z & z' & -> & -> & Q). cbn [obnd]. destruct (seval st s) as [k|]; [|discriminate]. cbn [obnd] in *. unfold rdiv in *. destruct (Req_EM_T k 0); [discriminate|].
    injection W as <-. injection W' as <-. do 2 eexists. split; [reflexivity|]. split; [reflexivity|]. unfold Rdiv. rewrite <- !Rmult_plus_distr_r. now rewrite Q.
Qed.
End S.
