(** * Intervals with rational, possibly strict or infinite bounds
    Used by the domain analysis of the energy expressions.  An interval is given by a lower
    bound of x and a lower bound of -x. *)
From Coq Require Import Reals QArith Qreals Qminmax ZArith Lia Lra Psatz List Bool.
From Verif Require Import Scalar RInst.
Import ListNotations.
Local Open Scope R_scope.

Definition bnd := option (Q * bool).     (* true: strict *)
Definition gb (b : bnd) (x : R) : Prop :=
  match b with None => True | Some (q, true) => Q2R q < x | Some (q, false) => Q2R q <= x end.
Record itv := I { lo : bnd; up : bnd }.  (* up: lower bound of -x *)
Definition gam (i : itv) (x : R) : Prop := gb (lo i) x /\ gb (up i) (- x).
Definition top := I None None.
Lemma gam_top x : gam top x. Proof. split; exact Logic.I. Qed.
Lemma gb_weak q s x : gb (Some (q, s)) x -> Q2R q <= x.
Proof. destruct s; cbn; lra. Qed.
Lemma gb_mk q (s : bool) x : (if s then Q2R q < x else Q2R q <= x) -> gb (Some (q, s)) x.
Proof. destruct s; auto. Qed.

Definition pos_b (b : bnd) : bool := match b with Some (q, s) => if s then Qle_bool 0 q else andb (Qle_bool 0 q) (negb (Qeq_bool q 0)) | None => false end.
Definition nn_b (b : bnd) : bool := match b with Some (q, _) => Qle_bool 0 q | None => false end.
Lemma Qle_R q : Qle_bool 0 q = true -> 0 <= Q2R q.
Proof. intro H. apply Qle_bool_iff, Qle_Rle in H. now rewrite Q2R_0 in H. Qed.
Lemma Qlt_R q : Qle_bool 0 q = true -> Qeq_bool q 0 = false -> 0 < Q2R q.
Proof.
  intros H E. apply Qle_R in H. destruct (Rle_lt_or_eq_dec _ _ H) as [L|L]; [exact L|]. exfalso.
  assert (Q2R q = Q2R 0) by (rewrite Q2R_0; lra). apply eqR_Qeq in H0. apply Qeq_bool_iff in H0. congruence.
Qed.
Lemma pos_b_ok b x : pos_b b = true -> gb b x -> 0 < x.
Proof.
  unfold pos_b, gb. destruct b as [[q [|]]|]; [| |discriminate].
  - intros H G. apply Qle_R in H. lra.
  - intro H. apply andb_prop in H. destruct H as [H E]. apply negb_true_iff in E. pose proof (Qlt_R q H E). lra.
Qed.
Lemma nn_b_ok b x : nn_b b = true -> gb b x -> 0 <= x.
Proof.
  unfold nn_b, gb. destruct b as [[q [|]]|]; [| |discriminate]; intros H G; apply Qle_R in H; lra.
Qed.
Definition ipos i := pos_b (lo i).
Definition inn i := nn_b (lo i).
Definition ineg i := pos_b (up i).
Definition inp_ i := nn_b (up i).   (* nonpositive *)
Lemma ipos_ok i x : ipos i = true -> gam i x -> 0 < x. Proof. intros H [A _]. exact (pos_b_ok _ _ H A). Qed.
Lemma inn_ok i x : inn i = true -> gam i x -> 0 <= x. Proof. intros H [A _]. exact (nn_b_ok _ _ H A). Qed.
Lemma ineg_ok i x : ineg i = true -> gam i x -> x < 0. Proof. intros H [_ A]. pose proof (pos_b_ok _ _ H A). lra. Qed.
Lemma inp_ok i x : inp_ i = true -> gam i x -> x <= 0. Proof. intros H [_ A]. pose proof (nn_b_ok _ _ H A). lra. Qed.

(** Rounding down to a denominator that is a power of two, to keep the numbers small. *)
Definition prec : positive := 1073741824.
Definition rdn (q : Q) : Q := if Pos.leb (Qden q) prec then Qred q else Qred (Qmake (Qnum q * Zpos prec / Zpos (Qden q)) prec).
Lemma rdn_le q : Q2R (rdn q) <= Q2R q.
Proof.
  unfold rdn. destruct (Pos.leb _ _); [rewrite (Qeq_eqR _ _ (Qred_correct q)); lra|].
  rewrite (Qeq_eqR _ _ (Qred_correct _)). unfold Q2R. cbn [Qnum Qden].
  assert (P : 0 < IZR (Zpos prec)) by (apply IZR_lt; reflexivity).
  assert (D : 0 < IZR (Zpos (Qden q))) by (apply IZR_lt; reflexivity).
  apply Rmult_le_reg_r with (IZR (Zpos prec)); [exact P|].
  apply Rmult_le_reg_r with (IZR (Zpos (Qden q))); [exact D|].
  replace (IZR (Qnum q * Zpos prec / Zpos (Qden q)) * / IZR (Zpos prec) * IZR (Zpos prec) * IZR (Zpos (Qden q)))
    with (IZR (Qnum q * Zpos prec / Zpos (Qden q) * Zpos (Qden q))) by (rewrite mult_IZR; field; lra).
  replace (IZR (Qnum q) * / IZR (Zpos (Qden q)) * IZR (Zpos prec) * IZR (Zpos (Qden q)))
    with (IZR (Qnum q * Zpos prec)) by (rewrite mult_IZR; field; lra).
  apply IZR_le. rewrite Z.mul_comm. apply Z.mul_div_le. reflexivity.
Qed.
(** strictly positive numbers stay so: fall back to the exact number *)
Definition rnd (q : Q) : Q := let r := rdn q in if andb (negb (Qeq_bool q 0)) (andb (Qle_bool 0 q) (Qeq_bool r 0)) then Qred q else r.
Lemma rnd_le q : Q2R (rnd q) <= Q2R q.
Proof. unfold rnd. destruct (andb _ _); [rewrite (Qeq_eqR _ _ (Qred_correct q)); lra|apply rdn_le]. Qed.
Definition bmk (q : Q) (s : bool) : bnd := Some (rnd q, s).
Lemma bmk_ok q s x : gb (Some (q, s)) x -> gb (bmk q s) x.
Proof. unfold bmk. pose proof (rnd_le q). destruct s; cbn; lra. Qed.

(** ** Arithmetic *)
Definition badd (a b : bnd) : bnd :=
  match a, b with Some (q, s), Some (r, t) => bmk (q + r) (orb s t) | _, _ => None end.
Lemma badd_ok a b x y : gb a x -> gb b y -> gb (badd a b) (x + y).
Proof.
  destruct a as [[q s]|], b as [[r t]|]; intros A B; unfold badd; try exact Logic.I. apply bmk_ok. apply gb_mk. rewrite Q2R_plus.
  destruct s, t; cbn in *; lra.
Qed.
Definition iadd a b := I (badd (lo a) (lo b)) (badd (up a) (up b)).
Lemma iadd_ok a b x y : gam a x -> gam b y -> gam (iadd a b) (x + y).
Proof. intros [A1 A2] [B1 B2]. split; cbn; [now apply badd_ok|]. replace (- (x + y)) with (- x + - y) by ring. now apply badd_ok. Qed.
Definition ineg_ a := I (up a) (lo a).
Lemma ineg_ok' a x : gam a x -> gam (ineg_ a) (- x).
Proof. intros [A B]. split; cbn; [exact B|]. now rewrite Ropp_involutive. Qed.
Definition isub a b := iadd a (ineg_ b).
Lemma isub_ok a b x y : gam a x -> gam b y -> gam (isub a b) (x - y).
Proof. intros A B. unfold Rminus. apply iadd_ok; [exact A|now apply ineg_ok']. Qed.

(** product of nonnegative numbers *)
Definition bmulp (a b : bnd) : bnd :=
  match a, b with
  | Some (q, s), Some (r, t) => bmk (q * r) (orb (andb s t) (orb (andb s (pos_b (Some (r, false)))) (andb t (pos_b (Some (q, false))))))
  | _, _ => None
  end.
Lemma bmulp_ok a b x y : nn_b a = true -> nn_b b = true -> gb a x -> gb b y -> gb (bmulp a b) (x * y).
Proof.
  destruct a as [[q s]|]; [|discriminate]. destruct b as [[r t]|]; [|discriminate]. intros P Q A B.
  pose proof (nn_b_ok _ _ P A) as Hx. pose proof (nn_b_ok _ _ Q B) as Hy. unfold bmulp. apply bmk_ok, gb_mk. rewrite Q2R_mult.
  cbn [nn_b] in P, Q. apply Qle_R in P, Q.
  assert (W : Q2R q * Q2R r <= x * y) by (apply Rmult_le_compat; auto; eapply gb_weak; eassumption).
  destruct (orb (andb s t) _) eqn:E; [|exact W]. apply orb_prop in E. destruct E as [E|E].
  - apply andb_prop in E. destruct E as [-> ->]. cbn in A, B. nra.
  - apply orb_prop in E. destruct E as [E|E]; apply andb_prop in E; destruct E as [-> E].
    + pose proof (pos_b_ok _ (Q2R r) E ltac:(cbn; lra)) as R0. cbn in A. pose proof (gb_weak _ _ _ B). nra.
    + pose proof (pos_b_ok _ (Q2R q) E ltac:(cbn; lra)) as R0. cbn in B. pose proof (gb_weak _ _ _ A). nra.
Qed.
(** upper bound of the product, from x <= p, y <= w with x, y >= 0; in the [up] convention *)
Definition bmulu (a b : bnd) : bnd :=
  match a, b with Some (q, s), Some (r, t) => bmk (- (q * r)) (andb s t) | _, _ => None end.
Lemma bmulu_ok a b x y : 0 <= x -> 0 <= y -> gb a (- x) -> gb b (- y) -> gb (bmulu a b) (- (x * y)).
Proof.
  destruct a as [[q s]|], b as [[r t]|]; intros Hx Hy A B; unfold bmulu; try exact Logic.I. apply bmk_ok, gb_mk. rewrite Q2R_opp, Q2R_mult.
  pose proof (gb_weak _ _ _ A). pose proof (gb_weak _ _ _ B).
  destruct s, t; cbn [andb]; cbn in A, B; nra.
Qed.
Definition imulpp a b := I (bmulp (lo a) (lo b)) (bmulu (up a) (up b)).
Lemma imulpp_ok a b x y : inn a = true -> inn b = true -> gam a x -> gam b y -> gam (imulpp a b) (x * y).
Proof.
  intros P Q [A1 A2] [B1 B2]. pose proof (nn_b_ok _ _ P A1). pose proof (nn_b_ok _ _ Q B1). split; cbn.
  - now apply bmulp_ok.
  - now apply bmulu_ok.
Qed.
(** a nonnegative, b of any sign *)
Definition bmulm (ua lb : bnd) : bnd :=  (* lower bound of x*y from x <= -ua, y >= lb *)
  match lb with
  | Some (r, t) => if Qle_bool 0 r then Some (0%Q, false)
                   else match ua with Some (q, _) => bmk (- q * r) false | None => None end
  | None => None
  end.
Lemma bmulm_ok ua lb x y : 0 <= x -> gb ua (- x) -> gb lb y -> gb (bmulm ua lb) (x * y).
Proof.
  intros Hx A B. unfold bmulm. destruct lb as [[r t]|]; [|exact Logic.I]. apply gb_weak in B. destruct (Qle_bool 0 r) eqn:E.
  - apply Qle_R in E. cbn. rewrite Q2R_0. nra.
  - destruct ua as [[q s]|]; [|exact Logic.I]. apply bmk_ok, gb_mk. rewrite Q2R_mult, Q2R_opp. apply gb_weak in A.
    assert (Q2R r < 0).
    { apply Rnot_le_lt. intro H. rewrite <- Q2R_0 in H. apply Rle_Qle, Qle_bool_iff in H. congruence. }
    destruct (Rle_lt_dec 0 y); nra.
Qed.
Definition imulpm a b := I (bmulm (up a) (lo b)) (bmulm (up a) (up b)).
Lemma imulpm_ok a b x y : inn a = true -> gam a x -> gam b y -> gam (imulpm a b) (x * y).
Proof.
  intros P A [B1 B2]. pose proof (inn_ok _ _ P A). destruct A as [A1 A2]. split; cbn; [now apply bmulm_ok|].
  replace (- (x * y)) with (x * - y) by ring. now apply bmulm_ok.
Qed.
(** both bounded, any sign *)
Definition babs (i : itv) : option Q :=
  match lo i, up i with Some (q, _), Some (r, _) => Some (Qmax (- q) (- r)) | _, _ => None end.
Lemma Q2R_max a b : Q2R (Qmax a b) = Rmax (Q2R a) (Q2R b).
Proof.
  unfold Rmax. destruct (Q.max_spec a b) as [[L ->%Qeq_eqR]|[L ->%Qeq_eqR]]; destruct (Rle_dec (Q2R a) (Q2R b)) as [H|H]; try reflexivity.
  - exfalso. apply H. apply Qle_Rle. now apply Qlt_le_weak.
  - apply Qle_Rle in L. lra.
Qed.
Lemma babs_ok i m x : babs i = Some m -> gam i x -> Rabs x <= Q2R m.
Proof.
  unfold babs. intros E [A B]. destruct (lo i) as [[q s]|]; [|discriminate]. destruct (up i) as [[r t]|]; [|discriminate].
  injection E as <-. apply gb_weak in A, B. rewrite Q2R_max, !Q2R_opp. unfold Rabs, Rmax. destruct (Rcase_abs x), (Rle_dec _ _); lra.
Qed.
Definition imulmm a b :=
  match babs a, babs b with
  | Some m, Some w => I (bmk (- (m * w)) false) (bmk (- (m * w)) false)
  | _, _ => top
  end.
Lemma imulmm_ok a b x y : gam a x -> gam b y -> gam (imulmm a b) (x * y).
Proof.
  intros A B. unfold imulmm. destruct (babs a) as [m|] eqn:Ea; [|apply gam_top]. destruct (babs b) as [w|] eqn:Eb; [|apply gam_top].
  pose proof (babs_ok _ _ _ Ea A) as Ha. pose proof (babs_ok _ _ _ Eb B) as Hb.
  assert (H : Rabs (x * y) <= Q2R m * Q2R w) by (rewrite Rabs_mult; apply Rmult_le_compat; auto using Rabs_pos).
  split; cbn [lo up]; apply bmk_ok, gb_mk; rewrite Q2R_opp, Q2R_mult; unfold Rabs in H; destruct (Rcase_abs (x * y)); lra.
Qed.
Definition imul a b :=
  if inn a then if inn b then imulpp a b else if inp_ b then ineg_ (imulpp a (ineg_ b)) else imulpm a b
  else if inp_ a then if inn b then ineg_ (imulpp (ineg_ a) b) else if inp_ b then imulpp (ineg_ a) (ineg_ b) else ineg_ (imulpm (ineg_ a) b)
  else if inn b then imulpm b a else if inp_ b then ineg_ (imulpm (ineg_ b) a) else imulmm a b.
Lemma imul_ok a b x y : gam a x -> gam b y -> gam (imul a b) (x * y).
Proof.
  intros A B. unfold imul. pose proof (ineg_ok' _ _ A) as A'. pose proof (ineg_ok' _ _ B) as B'.
  destruct (inn a) eqn:Ea; [|destruct (inp_ a) eqn:Ea']; (destruct (inn b) eqn:Eb; [|destruct (inp_ b) eqn:Eb']).
  - now apply imulpp_ok.
  - replace (x * y) with (- (x * - y)) by ring. apply ineg_ok'. now apply imulpp_ok.
  - now apply imulpm_ok.
  - replace (x * y) with (- (- x * y)) by ring. apply ineg_ok'. now apply imulpp_ok.
  - replace (x * y) with (- x * - y) by ring. now apply imulpp_ok.
  - replace (x * y) with (- (- x * y)) by ring. apply ineg_ok'. now apply imulpm_ok.
  - rewrite Rmult_comm. now apply imulpm_ok.
  - replace (x * y) with (- (- y * x)) by ring. apply ineg_ok'. now apply imulpm_ok.
  - now apply imulmm_ok.
Qed.
(** x * x *)
Definition isq a :=
  if inn a then imulpp a a else if inp_ a then imulpp (ineg_ a) (ineg_ a)
  else I (Some (0%Q, false)) (match babs a with Some m => bmk (- (m * m)) false | None => None end).
Lemma isq_ok a x : gam a x -> gam (isq a) (x * x).
Proof.
  intro A. unfold isq. destruct (inn a) eqn:E; [now apply imulpp_ok|]. destruct (inp_ a) eqn:E'.
  - replace (x * x) with (- x * - x) by ring. apply ineg_ok' in A. now apply imulpp_ok.
  - split; cbn [lo up]; [cbn; rewrite Q2R_0; nra|]. destruct (babs a) as [m|] eqn:Eb; [|exact Logic.I].
    pose proof (babs_ok _ _ _ Eb A). apply bmk_ok, gb_mk. rewrite Q2R_opp, Q2R_mult. unfold Rabs in *. destruct (Rcase_abs x); nra.
Qed.
(** 1/x for x > 0 *)
Definition iinvp a := I
  (match up a with
   | Some (p, s) => let w := Qred (- p) in
       if andb (Qle_bool 0 w) (negb (Qeq_bool w 0)) then bmk (/ w) s else Some (0%Q, true)
   | None => Some (0%Q, true) end)
  (match lo a with
   | Some (q, s) => if andb (Qle_bool 0 q) (negb (Qeq_bool q 0)) then bmk (- / q) s else None
   | None => None end).
Lemma Q2R_inv' q : 0 < Q2R q -> Q2R (/ q) = / Q2R q.
Proof. intro H. apply Q2R_inv. intro E. apply Qeq_eqR in E. rewrite Q2R_0 in E. lra. Qed.
Lemma iinvp_ok a x : ipos a = true -> gam a x -> gam (iinvp a) (/ x).
Proof.
  intros P A. pose proof (ipos_ok _ _ P A) as Hx. destruct A as [A B]. pose proof (Rinv_0_lt_compat _ Hx) as Hi. split; cbn [lo up iinvp].
  - destruct (up a) as [[p s]|]; [|cbn; rewrite Q2R_0; lra]. cbn zeta. destruct (andb _ _) eqn:E; [|cbn; rewrite Q2R_0; lra].
    apply andb_prop in E. destruct E as [E1 E2]. apply negb_true_iff in E2. pose proof (Qlt_R _ E1 E2) as W.
    assert (Ew : Q2R (Qred (- p)) = - Q2R p) by (rewrite (Qeq_eqR _ _ (Qred_correct _)), Q2R_opp; reflexivity).
    apply bmk_ok, gb_mk. rewrite Q2R_inv' by exact W. pose proof (gb_weak _ _ _ B). destruct s; cbn in B.
    + apply Rinv_lt_contravar; nra.
    + apply Rinv_le_contravar; lra.
  - destruct (lo a) as [[q s]|]; [|exact Logic.I]. destruct (andb _ _) eqn:E; [|exact Logic.I].
    apply andb_prop in E. destruct E as [E1 E2]. apply negb_true_iff in E2. pose proof (Qlt_R _ E1 E2) as W.
    apply bmk_ok, gb_mk. rewrite Q2R_opp, Q2R_inv' by exact W. destruct s; cbn in A.
    + apply Ropp_lt_contravar. apply Rinv_lt_contravar; nra.
    + apply Ropp_le_contravar. apply Rinv_le_contravar; lra.
Qed.
Definition iinv a : option itv :=
  if ipos a then Some (iinvp a) else if ineg a then Some (ineg_ (iinvp (ineg_ a))) else None.
Lemma iinv_ok a i x : iinv a = Some i -> gam a x -> x <> 0 /\ gam i (/ x).
Proof.
  unfold iinv. intros E A. destruct (ipos a) eqn:P.
  - injection E as <-. split; [|now apply iinvp_ok]. pose proof (ipos_ok _ _ P A). lra.
  - destruct (ineg a) eqn:N; [|discriminate]. injection E as <-. pose proof (ineg_ok _ _ N A) as Hn. split; [lra|].
    replace (/ x) with (- / - x) by (field; lra). apply ineg_ok', iinvp_ok; [exact N|]. now apply ineg_ok'.
Qed.
(** Joins and maximum *)
Definition bmin (a b : bnd) : bnd :=
  match a, b with
  | Some (q, s), Some (r, t) => if Qle_bool q r then Some (q, if Qle_bool r q then andb s t else s) else Some (r, t)
  | _, _ => None
  end.
Lemma Qle_bool_R q r : Qle_bool q r = true -> Q2R q <= Q2R r.
Proof. intro H. apply Qle_Rle. now apply Qle_bool_iff. Qed.
Lemma Qle_bool_Rf q r : Qle_bool q r = false -> Q2R r < Q2R q.
Proof. intro H. apply Rnot_le_lt. intro L. apply Rle_Qle, Qle_bool_iff in L. congruence. Qed.
Lemma bmin_l a b x : gb a x -> gb (bmin a b) x.
Proof.
  destruct a as [[q s]|], b as [[r t]|]; cbn [bmin]; intro A; try exact Logic.I. destruct (Qle_bool q r) eqn:E.
  - destruct (Qle_bool r q); destruct s, t; cbn in *; lra.
  - apply Qle_bool_Rf in E. apply gb_weak in A. destruct t; cbn; lra.
Qed.
Lemma bmin_r a b x : gb b x -> gb (bmin a b) x.
Proof.
  destruct a as [[q s]|], b as [[r t]|]; cbn [bmin]; intro A; try exact Logic.I. destruct (Qle_bool q r) eqn:E.
  - apply Qle_bool_R in E. destruct (Qle_bool r q) eqn:E'.
    + destruct s, t; cbn in *; lra.
    + apply Qle_bool_Rf in E'. apply gb_weak in A. destruct s; cbn in *; lra.
  - exact A.
Qed.
Definition ijoin a b := I (bmin (lo a) (lo b)) (bmin (up a) (up b)).
Lemma ijoin_l a b x : gam a x -> gam (ijoin a b) x.
Proof. intros [A B]. split; cbn; now apply bmin_l. Qed.
Lemma ijoin_r a b x : gam b x -> gam (ijoin a b) x.
Proof. intros [A B]. split; cbn; now apply bmin_r. Qed.
Definition bmax (a b : bnd) : bnd :=
  match a, b with
  | Some (q, s), Some (r, t) => if Qle_bool r q then (if Qle_bool q r then Some (q, orb s t) else Some (q, s)) else Some (r, t)
  | Some _, None => a
  | None, _ => b
  end.
Lemma bmax_ok a b x : gb a x -> gb b x -> gb (bmax a b) x.
Proof.
  destruct a as [[q s]|], b as [[r t]|]; cbn [bmax]; intros A B; auto. destruct (Qle_bool r q) eqn:E; [|exact B].
  destruct (Qle_bool q r) eqn:E'; [|exact A]. apply Qle_bool_R in E, E'. destruct s, t; cbn in *; lra.
Qed.
Definition imax a b := I (bmax (lo a) (lo b)) (bmin (up a) (up b)).
Lemma gb_up b x y : x <= y -> gb b x -> gb b y.
Proof. destruct b as [[q [|]]|]; cbn; auto; lra. Qed.
Lemma imax_ok a b x y : gam a x -> gam b y -> gam (imax a b) (Rmax x y).
Proof.
  intros [A1 A2] [B1 B2]. split; cbn [lo up imax].
  - apply bmax_ok; [eapply gb_up; [apply Rmax_l|exact A1]|eapply gb_up; [apply Rmax_r|exact B1]].
  - unfold Rmax. destruct (Rle_dec x y); [now apply bmin_r|now apply bmin_l].
Qed.
Definition iabs a := if inn a then a else if inp_ a then ineg_ a else I (Some (0%Q, false)) (bmin (up a) (lo a)).
Lemma iabs_ok a x : gam a x -> gam (iabs a) (Rabs x).
Proof.
  intro A. unfold iabs. destruct (inn a) eqn:E.
  - pose proof (inn_ok _ _ E A). now rewrite Rabs_right by lra.
  - destruct (inp_ a) eqn:E'.
    + pose proof (inp_ok _ _ E' A). rewrite Rabs_left1 by lra. now apply ineg_ok'.
    + destruct A as [A B]. split; cbn [lo up]; [cbn; rewrite Q2R_0; apply Rabs_pos|]. unfold Rabs. destruct (Rcase_abs x).
      * apply bmin_r. now rewrite Ropp_involutive.
      * now apply bmin_l.
Qed.
(** Comparison with a constant *)
Definition ige (q : Q) (i : itv) : bool := match lo i with Some (r, _) => Qle_bool q r | None => false end.
Definition igt (q : Q) (i : itv) : bool := match lo i with Some (r, s) => andb (Qle_bool q r) (orb s (negb (Qle_bool r q))) | None => false end.
Definition ile (q : Q) (i : itv) : bool := match up i with Some (r, _) => Qle_bool (- q) r | None => false end.
Definition ilt (q : Q) (i : itv) : bool := match up i with Some (r, s) => andb (Qle_bool (- q) r) (orb s (negb (Qle_bool r (- q)))) | None => false end.
Lemma ige_ok q i x : ige q i = true -> gam i x -> Q2R q <= x.
Proof. unfold ige. intros E [A _]. destruct (lo i) as [[r s]|]; [|discriminate]. apply Qle_bool_R in E. apply gb_weak in A. lra. Qed.
Lemma igt_ok q i x : igt q i = true -> gam i x -> Q2R q < x.
Proof.
  unfold igt. intros E [A _]. destruct (lo i) as [[r s]|]; [|discriminate]. apply andb_prop in E. destruct E as [E F]. apply Qle_bool_R in E.
  apply orb_prop in F. destruct F as [->|F]; [cbn in A; lra|]. apply negb_true_iff, Qle_bool_Rf in F. apply gb_weak in A. lra.
Qed.
Lemma ile_ok q i x : ile q i = true -> gam i x -> x <= Q2R q.
Proof. unfold ile. intros E [_ A]. destruct (up i) as [[r s]|]; [|discriminate]. apply Qle_bool_R in E. rewrite Q2R_opp in E. apply gb_weak in A. lra. Qed.
Lemma ilt_ok q i x : ilt q i = true -> gam i x -> x < Q2R q.
Proof.
  unfold ilt. intros E [_ A]. destruct (up i) as [[r s]|]; [|discriminate]. apply andb_prop in E. destruct E as [E F]. apply Qle_bool_R in E. rewrite Q2R_opp in E.
  apply orb_prop in F. destruct F as [->|F]; [cbn in A; lra|]. apply negb_true_iff, Qle_bool_Rf in F. rewrite Q2R_opp in F. apply gb_weak in A. lra.
Qed.
Definition bq (b s : bool) (q : Q) : bnd := if b then Some (q, s) else None.
