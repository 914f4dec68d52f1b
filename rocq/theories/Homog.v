(** * Homogeneous expressions

    A checker that computes the degree of an expression under scaling of the density
    variables, and its soundness for the real meaning of expressions (RSem.v). *)
From Coq Require Import Reals QArith Qreals ZArith Arith Lia Lra List Bool String.
From Coquelicot Require Import Coquelicot.
From Verif Require Import Scalar RInst Tables CTaylor TMath Br Expr Densvars Functionals RSem.
Import ListNotations.
Local Open Scope R_scope.

(** The value of a scalar expression that is a rational number. *)
Fixpoint sconst (s : sexp) : option Q :=
  match s with
  | SQ q => Some q
  | SNeg a => option_map Qopp (sconst a)
  | SAdd a b => match sconst a, sconst b with Some x, Some y => Some (x + y)%Q | _, _ => None end
  | SSub a b => match sconst a, sconst b with Some x, Some y => Some (x - y)%Q | _, _ => None end
  | SMul a b => match sconst a, sconst b with Some x, Some y => Some (x * y)%Q | _, _ => None end
  | SDiv a b => match sconst a, sconst b with Some x, Some y => if Qeq_bool y 0 then None else Some (x / y)%Q | _, _ => None end
  | _ => None
  end.
Definition is0 (q : Q) : bool := Qeq_bool q 0.
Fixpoint dlook (x : string) (r : list (string * Q)) : option Q :=
  match r with [] => None | (y, v) :: r' => if String.eqb x y then Some v else dlook x r' end.
Section DEG.
Variable fd : fld -> Q.
Definition d0 (x : option Q) : option Q := match x with Some q => if is0 q then Some 0%Q else None | None => None end.
Definition same (x y : option Q) : option Q := match x, y with Some p, Some q => if Qeq_bool p q then Some p else None | _, _ => None end.
Fixpoint deg (r : list (string * Q)) (e : expr) : option Q :=
  match e with
  | EIn _ => None
  | EFld f => Some (fd f)
  | EVar x => dlook x r
  | EConst _ => Some 0%Q
  | ELet x a b => match deg r a with Some q => deg ((x, q) :: r) b | None => None end
  | ENeg a | EScale _ a | EDivK a _ | EAbs a => deg r a
  | EAdd a b | ESub a b | EMax a b => same (deg r a) (deg r b)
  | EMul a b | EMulTo a b => match deg r a, deg r b with Some p, Some q => Some (Qred (p + q)) | _, _ => None end
  | EDiv a b => match deg r a, deg r b with Some p, Some q => Some (Qred (p - q)) | _, _ => None end
  | EAddK a _ | ESubK a _ | EKSub _ a | EBR a => d0 (deg r a)
  | EKDiv _ a => option_map Qopp (deg r a)
  | EPow a s => match deg r a, sconst s with Some p, Some q => Some (Qred (p * q)) | Some p, None => d0 (Some p) | None, _ => None end
  | EPowI a z => match deg r a with Some p => Some (Qred (p * inject_Z z)) | None => None end
  | EFun Fsqrt a => match deg r a with Some p => Some (Qred (p * (1 # 2))) | None => None end
  | EFun Fcbrt a => match deg r a with Some p => Some (Qred (p * (1 # 3))) | None => None end
  | EFun _ a => d0 (deg r a)
  | EReg _ => None
  | EIf a b x y => match same (deg r a) (deg r b) with Some _ => same (deg r x) (deg r y) | None => None end
  end.
End DEG.
(** Degrees of the density variables under uniform scaling of the electron density. *)
Definition ud (f : fld) : Q :=
  match f with
  | f_a | f_b | f_n | f_s => 3 | f_gaa | f_gab | f_gbb | f_gnn | f_gns | f_gss => 8
  | f_tau | f_taua | f_taub | f_lapa | f_lapb => 5
  | f_zeta => 0 | f_r_s | f_n_m13 => -1 | f_a_43 | f_b_43 => 4 | f_jpaa | f_jpbb => 8
  end.

(** ** Soundness *)
Lemma sconst_ok st s : forall w, sconst s = Some w -> seval (K := ROps) st s = Some (Q2R w).
Proof.
  induction s; intros w E; cbn [sconst] in E; try discriminate; cbn [seval].
  - injection E as ->. reflexivity.
  - destruct (sconst s) as [p|]; [|discriminate]. cbn in E. injection E as <-. rewrite (IHs p eq_refl). cbn. now rewrite Q2R_opp.
  - destruct (sconst s1) as [p|], (sconst s2) as [p'|]; try discriminate. injection E as <-. rewrite (IHs1 p eq_refl), (IHs2 p' eq_refl). cbn. now rewrite Q2R_plus.
  - destruct (sconst s1) as [p|], (sconst s2) as [p'|]; try discriminate. injection E as <-. rewrite (IHs1 p eq_refl), (IHs2 p' eq_refl). cbn. now rewrite Q2R_minus.
  - destruct (sconst s1) as [p|], (sconst s2) as [p'|]; try discriminate. injection E as <-. rewrite (IHs1 p eq_refl), (IHs2 p' eq_refl). cbn. now rewrite Q2R_mult.
  - destruct (sconst s1) as [p|], (sconst s2) as [p'|]; try discriminate. destruct (Qeq_bool p' 0) eqn:Z; [discriminate|]. injection E as <-. rewrite (IHs1 p eq_refl), (IHs2 p' eq_refl). cbn.
    apply Qeq_bool_neq in Z. unfold sdiv. cbn. destruct (Reqb (Q2R p') (Q2R 0)) eqn:R; [apply Reqb_true, eqR_Qeq in R; contradiction|]. now rewrite Q2R_div.
Qed.
Section SCALE.
Variable l : R.
Hypothesis Hl : 0 < l.
Definition pw (q : Q) : R := Rpower l (Q2R q).
Lemma pw_pos q : 0 < pw q.
Proof. apply exp_pos. Qed.
Lemma pw_eq p q : Qeq_bool p q = true -> pw p = pw q.
Proof. intro H. apply Qeq_bool_eq in H. unfold pw. now rewrite (Qeq_eqR _ _ H). Qed.
Lemma pw_0 q : is0 q = true -> pw q = 1.
Proof. intro H. rewrite (pw_eq _ _ H). unfold pw. rewrite RMicromega.Q2R_0. now apply Rpower_O. Qed.
Lemma pw_add p q : pw (Qred (p + q)) = pw p * pw q.
Proof. unfold pw. rewrite (Qeq_eqR _ _ (Qred_correct _)), Q2R_plus. apply Rpower_plus. Qed.
Lemma pw_opp q : pw (- q) = / pw q.
Proof. unfold pw. rewrite Q2R_opp. apply Rpower_Ropp. Qed.
Lemma pw_sub p q : pw (Qred (p - q)) = pw p / pw q.
Proof. unfold Qminus. rewrite pw_add, pw_opp. reflexivity. Qed.
Lemma pw_mul p q : pw (Qred (p * q)) = Rpower (pw p) (Q2R q).
Proof. unfold pw. rewrite (Qeq_eqR _ _ (Qred_correct _)), Q2R_mult. symmetry. apply Rpower_mult. Qed.
Lemma rpow_scale p x k : 0 < p -> rpow (p * x) k = option_map (Rmult (Rpower p k)) (rpow x k).
Proof.
  intro P. unfold rpow. destruct (Rlt_dec 0 x) as [X|X].
  - destruct (Rlt_dec 0 (p * x)) as [Y|Y]; [|exfalso; apply Y; now apply Rmult_lt_0_compat]. cbn. f_equal. symmetry. apply Rpower_mult_distr; assumption.
  - destruct (Rlt_dec 0 (p * x)) as [Y|Y]; [|reflexivity]. exfalso. apply X. apply (Rmult_lt_reg_l p); [exact P|]. now rewrite Rmult_0_r.
Qed.
Lemma rdiv_scale p q x y : 0 < q -> rdiv (p * x) (q * y) = option_map (Rmult (p / q)) (rdiv x y).
Proof.
  intro P. unfold rdiv. destruct (Req_EM_T y 0) as [->|Y].
  - destruct (Req_EM_T (q * 0) 0) as [_|N]; [reflexivity|]. exfalso. apply N. ring.
  - destruct (Req_EM_T (q * y) 0) as [Z|_]; [apply Rmult_integral in Z; destruct Z; [lra|contradiction]|]. cbn. f_equal. field. split; [exact Y|lra].
Qed.
Lemma rpowi_scale q x z : rpowi (pw q * x) z = option_map (Rmult (pw (Qred (q * inject_Z z)))) (rpowi x z).
Proof.
  destruct z as [|p|p]; cbn [rpowi option_map].
  - f_equal. rewrite pw_mul. unfold inject_Z. rewrite RMicromega.Q2R_0, Rpower_O by apply pw_pos. ring.
  - f_equal. rewrite Rpow_mult_distr. f_equal. rewrite pw_mul. rewrite <- Rpower_pow by apply pw_pos. f_equal.
    rewrite INR_IZR_INZ, positive_nat_Z. unfold Q2R, inject_Z. cbn [Qnum Qden]. field.
  - rewrite rpow_scale by apply pw_pos. f_equal. f_equal. rewrite pw_mul. f_equal. unfold Q2R, inject_Z. cbn [Qnum Qden]. field.
Qed.
Variables (st : nat -> T ROps) (inp : nat -> R) (fd : fld -> Q) (fl fl' : fld -> R).
Hypothesis Hfl : forall f, fl' f = pw (fd f) * fl f.
Definition scaled (r : list (string * Q)) (g g' : list (string * R)) : Prop :=
  forall x q, dlook x r = Some q -> rlook x g' = option_map (Rmult (pw q)) (rlook x g).
Lemma scaled_cons r g g' x q v : scaled r g g' -> scaled ((x, q) :: r) ((x, v) :: g) ((x, pw q * v) :: g').
Proof. intros H y p. cbn [dlook rlook]. destruct (String.eqb y x); [|apply H]. intro E. injection E as <-. reflexivity. Qed.
Lemma sqrt_scale q x : 0 < x -> sqrt (pw q * x) = pw (Qred (q * (1 # 2))) * sqrt x.
Proof.
  intro X. rewrite sqrt_mult by (left; (apply pw_pos || exact X)). f_equal. rewrite pw_mul. rewrite <- Rpower_sqrt by apply pw_pos. f_equal. unfold Q2R. cbn. lra.
Qed.
Ltac inv E := apply (f_equal (fun o => match o with Some z => z | None => 0%Q end)) in E; cbv beta iota in E; match type of E with _ = ?q => subst q end.
Lemma deg_ok : forall e r g g' q, deg fd r e = Some q -> scaled r g g' ->
  reval st inp fl' g' e = option_map (Rmult (pw q)) (reval st inp fl g e).
Proof.
  assert (P0 : forall p x, is0 p = true -> pw p * x = x) by (intros p x Z; rewrite (pw_0 p Z); ring).
  assert (PZ : pw 0 = 1) by (apply pw_0; reflexivity).
  assert (D0 : forall x q, d0 x = Some q -> exists p, x = Some p /\ is0 p = true /\ q = 0%Q).
  { intros [p|] q; cbn [d0]; [|discriminate]. destruct (is0 p) eqn:Z; [|discriminate]. intro E. injection E as <-. eauto. }
  assert (DS : forall x y q, same x y = Some q -> exists p, x = Some q /\ y = Some p /\ pw p = pw q).
  { intros [p|] [p'|] q; cbn [same]; try discriminate. destruct (Qeq_bool p p') eqn:Z; [|discriminate]. intro E. injection E as <-. exists p'. split; [reflexivity|]. split; [reflexivity|]. symmetry. now apply pw_eq. }
  assert (OM : forall (x : option R), option_map (Rmult (pw 0)) x = x) by (intros [x|]; cbn; [f_equal; rewrite PZ; ring|reflexivity]).
  induction e; intros r g g' q E S; cbn [deg] in E; cbn [reval].
  - discriminate.
  - injection E as <-. cbn. now rewrite Hfl.
  - exact (S _ _ E).
  - injection E as <-. now rewrite OM.
  - destruct (deg fd r e1) as [p|] eqn:E1; [|discriminate]. rewrite (IHe1 _ _ _ _ E1 S). destruct (reval st inp fl g e1) as [v|]; cbn [option_map obnd]; [|reflexivity].
    exact (IHe2 _ _ _ _ E (scaled_cons _ _ _ _ _ _ S)).
  - rewrite (IHe _ _ _ _ E S). destruct (reval st inp fl g e); cbn; [f_equal; ring|reflexivity].
  - apply DS in E. destruct E as (p & E1 & E2 & Pq). rewrite (IHe1 _ _ _ _ E1 S), (IHe2 _ _ _ _ E2 S), Pq. destruct (reval st inp fl g e1), (reval st inp fl g e2); cbn; try reflexivity. f_equal; ring.
  - apply DS in E. destruct E as (p & E1 & E2 & Pq). rewrite (IHe1 _ _ _ _ E1 S), (IHe2 _ _ _ _ E2 S), Pq. destruct (reval st inp fl g e1), (reval st inp fl g e2); cbn; try reflexivity. f_equal; ring.
  - destruct (deg fd r e1) as [p1|] eqn:E1; [|discriminate]. destruct (deg fd r e2) as [p2|] eqn:E2; [|discriminate]. inv E.
    rewrite (IHe1 _ _ _ _ E1 S), (IHe2 _ _ _ _ E2 S), pw_add. destruct (reval st inp fl g e1), (reval st inp fl g e2); cbn; try reflexivity. f_equal; ring.
  - destruct (deg fd r e1) as [p1|] eqn:E1; [|discriminate]. destruct (deg fd r e2) as [p2|] eqn:E2; [|discriminate]. inv E.
    rewrite (IHe1 _ _ _ _ E1 S), (IHe2 _ _ _ _ E2 S), pw_add. destruct (reval st inp fl g e1), (reval st inp fl g e2); cbn; try reflexivity. f_equal; ring.
  - destruct (deg fd r e1) as [p1|] eqn:E1; [|discriminate]. destruct (deg fd r e2) as [p2|] eqn:E2; [|discriminate]. inv E.
    rewrite (IHe1 _ _ _ _ E1 S), (IHe2 _ _ _ _ E2 S), pw_sub. destruct (reval st inp fl g e1), (reval st inp fl g e2); cbn [obnd option_map]; try reflexivity. apply rdiv_scale, pw_pos.
  - apply D0 in E. destruct E as (p & E & Z & ->). rewrite (IHe _ _ _ _ E S), OM. destruct (reval st inp fl g e); cbn [obnd option_map]; [|reflexivity]. now rewrite P0.
  - apply D0 in E. destruct E as (p & E & Z & ->). rewrite (IHe _ _ _ _ E S), OM. destruct (reval st inp fl g e); cbn [obnd option_map]; [|reflexivity]. now rewrite P0.
  - apply D0 in E. destruct E as (p & E & Z & ->). rewrite (IHe _ _ _ _ E S), OM. destruct (reval st inp fl g e); cbn [obnd option_map]; [|reflexivity]. now rewrite P0.
  - rewrite (IHe _ _ _ _ E S). destruct (seval st s), (reval st inp fl g e); cbn; try reflexivity. f_equal; ring.
  - destruct (deg fd r e) as [p|] eqn:E1; [|discriminate]. inv E. rewrite (IHe _ _ _ _ E1 S). destruct (seval st s) as [k|], (reval st inp fl g e) as [x|]; cbn [obnd option_map]; try reflexivity.
    rewrite <- (Rmult_1_l k) at 1. rewrite rdiv_scale by apply pw_pos. rewrite pw_opp. f_equal. f_equal. unfold Rdiv. ring.
  - rewrite (IHe _ _ _ _ E S). destruct (reval st inp fl g e) as [x|], (seval st s) as [k|]; cbn [obnd option_map]; try reflexivity.
    rewrite <- (Rmult_1_l k) at 1. rewrite rdiv_scale by lra. f_equal. f_equal. field.
  - destruct (deg fd r e) as [p|] eqn:E1; [|discriminate]. rewrite (IHe _ _ _ _ E1 S). destruct (reval st inp fl g e) as [x|]; cbn [obnd option_map]; [|reflexivity].
    destruct (sconst s) as [k|] eqn:K.
    + inv E. rewrite (sconst_ok st s k K). cbn [obnd]. rewrite rpow_scale by apply pw_pos. now rewrite pw_mul.
    + apply D0 in E. destruct E as (p' & E & Z & ->). inv E. rewrite P0 by exact Z. now rewrite OM.
  - destruct (deg fd r e) as [p|] eqn:E1; [|discriminate]. inv E. rewrite (IHe _ _ _ _ E1 S). destruct (reval st inp fl g e) as [x|]; cbn [obnd option_map]; [|reflexivity]. apply rpowi_scale.
  - assert (G : d0 (deg fd r e) = Some q -> obnd (reval st inp fl' g' e) (rfn f) = option_map (Rmult (pw q)) (obnd (reval st inp fl g e) (rfn f))).
    { intro E'. apply D0 in E'. destruct E' as (p & E' & Z & ->). rewrite (IHe _ _ _ _ E' S), OM. destruct (reval st inp fl g e); cbn [obnd option_map]; [|reflexivity]. now rewrite P0. }
    destruct f; try (exact (G E)); clear G.
    + destruct (deg fd r e) as [p|] eqn:E1; [|discriminate]. inv E. rewrite (IHe _ _ _ _ E1 S). destruct (reval st inp fl g e) as [x|]; cbn [obnd option_map rfn]; [|reflexivity].
      destruct (Rlt_dec 0 x) as [X|X].
      * destruct (Rlt_dec 0 (pw p * x)) as [Y|Y]; [|exfalso; apply Y; apply Rmult_lt_0_compat; [apply pw_pos|exact X]]. cbn. f_equal. now apply sqrt_scale.
      * destruct (Rlt_dec 0 (pw p * x)) as [Y|Y]; [|reflexivity]. exfalso. apply X. apply (Rmult_lt_reg_l (pw p)); [apply pw_pos|]. now rewrite Rmult_0_r.
    + destruct (deg fd r e) as [p|] eqn:E1; [|discriminate]. inv E. rewrite (IHe _ _ _ _ E1 S). destruct (reval st inp fl g e) as [x|]; cbn [obnd option_map rfn]; [|reflexivity].
      rewrite rpow_scale by apply pw_pos. f_equal. f_equal. rewrite pw_mul. f_equal.
  - rewrite (IHe _ _ _ _ E S). destruct (reval st inp fl g e); cbn; [|reflexivity]. f_equal. rewrite Rabs_mult, (Rabs_pos_eq (pw q)) by (left; apply pw_pos). reflexivity.
  - apply DS in E. destruct E as (p & E1 & E2 & Pq). rewrite (IHe1 _ _ _ _ E1 S), (IHe2 _ _ _ _ E2 S), Pq. destruct (reval st inp fl g e1), (reval st inp fl g e2); cbn; try reflexivity. f_equal.
    rewrite RmaxRmult by (left; apply pw_pos). reflexivity.
  - discriminate.
  - apply D0 in E. destruct E as (p & E & Z & ->). rewrite (IHe _ _ _ _ E S), OM. destruct (reval st inp fl g e); cbn [obnd option_map]; [|reflexivity]. now rewrite P0.
  - destruct (same (deg fd r e1) (deg fd r e2)) as [q'|] eqn:E0; [|discriminate].
    apply DS in E0. destruct E0 as (p & E1 & E2 & Pq). apply DS in E. destruct E as (p' & E3 & E4 & Pq').
    rewrite (IHe1 _ _ _ _ E1 S), (IHe2 _ _ _ _ E2 S), Pq. destruct (reval st inp fl g e1) as [x|], (reval st inp fl g e2) as [y|]; cbn [obnd option_map]; try reflexivity.
    rewrite (IHe3 _ _ _ _ E3 S), (IHe4 _ _ _ _ E4 S), Pq'.
    destruct (Rlt_dec x y) as [L|L], (Rlt_dec (pw q' * x) (pw q' * y)) as [L'|L']; try reflexivity; exfalso.
    + apply L'. apply Rmult_lt_compat_l; [apply pw_pos|exact L].
    + apply L. exact (Rmult_lt_reg_l _ _ _ (pw_pos q') L').
Qed.
End SCALE.
