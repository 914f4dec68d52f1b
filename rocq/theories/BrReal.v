(** * The Becke-Roussel equation over the reals
    The scalar solver of Br.v (brx.cpp 25-48) finds, for every real z, the positive solution of
    (x - 2)/x * exp(2x/3) = z: the Newton loop stops by its own test after at most eight steps
    and the value returned is within 3e-15 of the solution, relatively. *)
From Coq Require Import Reals QArith Qreals ZArith Arith Lia Lra Psatz List.
From Coquelicot Require Import Coquelicot.
From Verif Require Import Scalar RInst CTaylor CtAlg TMath Br.
Local Open Scope R_scope.

(** The left-hand side of the equation for x (Becke and Roussel 1989, eq. 21, inverted). *)
Definition br_z (x : R) : R := (x - 2) / x * exp (2 / 3 * x).
Definition br_z' (x : R) : R := exp (2 / 3 * x) * (2 - 4 / x + 6 / (x * x)) / 3.

Lemma br_bracket x : 0 < x -> 0 < 2 - 4 / x + 6 / (x * x).
Proof.
  intro H. replace (2 - 4 / x + 6 / (x * x)) with ((2 * (x - 1) * (x - 1) + 4) / (x * x)) by (field; lra).
  apply Rdiv_lt_0_compat; nra.
Qed.
Lemma br_z'_pos x : 0 < x -> 0 < br_z' x.
Proof. intro H. unfold br_z'. pose proof (br_bracket x H). pose proof (exp_pos (2 / 3 * x)). apply Rdiv_lt_0_compat; [nra|lra]. Qed.
Lemma br_z_derive x : 0 < x -> is_derive br_z x (br_z' x).
Proof. intro H. unfold br_z, br_z'. auto_derive; [lra|]. field. lra. Qed.
Lemma br_mvt a b : 0 < a -> a < b -> exists c, a < c < b /\ br_z b - br_z a = br_z' c * (b - a).
Proof.
  intros Ha L. destruct (MVT_cor2 br_z br_z' a b L) as (c & E & Hc); [|eauto].
  intros c Hc. apply is_derive_Reals, br_z_derive. lra.
Qed.
Lemma br_z_lt a b : 0 < a -> a < b -> br_z a < br_z b.
Proof. intros Ha L. destruct (br_mvt a b Ha L) as (c & Hc & E). pose proof (br_z'_pos c ltac:(lra)). nra. Qed.
Lemma br_z_le_inv a b : 0 < a -> 0 < b -> br_z a <= br_z b -> a <= b.
Proof. intros Ha Hb H. destruct (Rle_dec a b) as [L|L]; [exact L|]. pose proof (br_z_lt b a Hb ltac:(lra)). lra. Qed.
Lemma br_z_inj a b : 0 < a -> 0 < b -> br_z a = br_z b -> a = b.
Proof. intros Ha Hb H. apply Rle_antisym; apply br_z_le_inv; auto; lra. Qed.

(** Taylor's theorem with a bound on the second derivative, on either side of x. *)
Lemma taylor2 (g g1 g2 : R -> R) x r M : 0 < x -> 0 < r ->
  (forall q, 0 < q -> is_derive g q (g1 q)) -> (forall q, 0 < q -> is_derive g1 q (g2 q)) ->
  (forall q, Rmin x r <= q <= Rmax x r -> g2 q <= M) ->
  g r - g x - (r - x) * g1 x <= M / 2 * ((r - x) * (r - x)).
Proof.
  intros Hx Hr Dg Dg1 H. set (d := r - x).
  assert (Pq : forall s, 0 <= s <= 1 -> Rmin x r <= x + s * d <= Rmax x r).
  { intros s Hs. unfold d, Rmin, Rmax. destruct (Rle_dec x r); nra. }
  assert (Pp : forall s, 0 <= s <= 1 -> 0 < x + s * d).
  { intros s Hs. unfold d. replace (x + s * (r - x)) with ((1 - s) * x + s * r) by ring. destruct (Rlt_dec s 1) as [L|L]; [|assert (s = 1) as -> by lra; lra].
    pose proof (Rmult_lt_0_compat (1 - s) x ltac:(lra) Hx). pose proof (Rmult_le_pos s r ltac:(lra) ltac:(lra)). lra. }
  assert (A : forall s, 0 <= s <= 1 -> g1 (x + s * d) * d <= g1 x * d + M * (d * d) * s).
  { intros s Hs. destruct (Req_dec s 0) as [->|N]; [rewrite Rmult_0_l, Rplus_0_r; lra|].
    destruct (MVT_cor2 (fun s => g1 (x + s * d)) (fun s => g2 (x + s * d) * d) 0 s) as (c & E & Hc); [lra| |].
    - intros c Hc. apply is_derive_Reals. pose proof (Dg1 (x + c * d) (Pp c ltac:(lra))) as D.
      replace (g2 (x + c * d) * d) with (scal d (g2 (x + c * d))) by (unfold scal; cbn; unfold mult; cbn; ring).
      apply (is_derive_comp g1 (fun s => x + s * d)); [exact D|]. auto_derive; [auto|ring].
    - rewrite Rmult_0_l, Rplus_0_r in E. pose proof (H _ (Pq c ltac:(lra))) as B.
      assert (Q : 0 <= d * d * s) by (apply Rmult_le_pos; [apply Rle_0_sqr|lra]).
      pose proof (Rmult_le_compat_r _ _ _ Q B) as B'. replace (g1 (x + s * d)) with (g1 x + g2 (x + c * d) * d * (s - 0)) by lra. lra. }
  destruct (MVT_cor2 (fun s => g (x + s * d) - M / 2 * (d * d) * (s * s)) (fun s => g1 (x + s * d) * d - M * (d * d) * s) 0 1) as (c & E & Hc); [lra| |].
  - intros c Hc. apply is_derive_Reals. pose proof (Dg (x + c * d) (Pp c ltac:(lra))) as D.
    apply (is_derive_minus (fun s => g (x + s * d)) (fun s => M / 2 * (d * d) * (s * s))).
    + replace (g1 (x + c * d) * d) with (scal d (g1 (x + c * d))) by (unfold scal; cbn; unfold mult; cbn; ring).
      apply (is_derive_comp g (fun s => x + s * d)); [exact D|]. auto_derive; [auto|ring].
    + auto_derive; [auto|field].
  - rewrite Rmult_0_l, Rplus_0_r, Rmult_1_l in E. pose proof (A c ltac:(lra)). unfold d in *. replace (x + (r - x)) with r in E by ring. nra.
Qed.

(** The Newton step, with the current point x and the solution r. *)
Definition newton (x z : R) : R := x + x * (3 * x * (exp (- (2 / 3) * x) * z - 1) + 6) / (x * (2 * x - 4) + 6).
Section STEP.
Variables x r : R.
Hypothesis Hx : 0 < x.
Hypothesis Hr : 0 < r.
Definition G (q : R) : R := 3 * (x * x) * (1 - 2 / q) * exp (2 / 3 * (q - x)).
Definition G1 (q : R) : R := x * x * exp (2 / 3 * (q - x)) * (2 - 4 / q + 6 / (q * q)).
Definition G2 (q : R) : R := 4 / 3 * (x * x) * exp (2 / 3 * (q - x)) * (1 - 2 / q + 6 / (q * q) - 9 / (q * q * q)).
Lemma G_d q : 0 < q -> is_derive G q (G1 q).
Proof. intro H. unfold G, G1. auto_derive; [lra|]. change (q + - x) with (q - x). generalize (exp (2 / 3 * (q - x))). intro E. field. lra. Qed.
Lemma G1_d q : 0 < q -> is_derive G1 q (G2 q).
Proof. intro H. unfold G1, G2. auto_derive; [repeat split; nra|]. change (q + - x) with (q - x). generalize (exp (2 / 3 * (q - x))). intro E. field. lra. Qed.
Definition Dx : R := 2 * (x * x) - 4 * x + 6.
Lemma Dx_pos : 0 < Dx. Proof. unfold Dx. nra. Qed.
Lemma newton_err : newton x (br_z r) - r = (G r - G x - (r - x) * G1 x) / Dx.
Proof.
  unfold newton, G, G1, Dx, br_z. pose proof Dx_pos as P. unfold Dx in P.
  replace (x - x) with 0 by ring. rewrite Rmult_0_r, exp_0.
  replace (exp (- (2 / 3) * x) * ((r - 2) / r * exp (2 / 3 * r))) with ((1 - 2 / r) * exp (2 / 3 * (r - x))).
  - replace (x * (2 * x - 4) + 6) with (2 * (x * x) - 4 * x + 6) by ring. field. lra.
  - replace (2 / 3 * (r - x)) with (- (2 / 3) * x + 2 / 3 * r) by ring. rewrite exp_plus. field. lra.
Qed.
Lemma step_up k : (forall q, Rmin x r <= q <= Rmax x r -> G2 q <= 2 * k * Dx) -> newton x (br_z r) - r <= k * ((r - x) * (r - x)).
Proof.
  intro H. rewrite newton_err. pose proof (taylor2 G G1 G2 x r (2 * k * Dx) Hx Hr G_d G1_d H). pose proof Dx_pos.
  apply Rmult_le_reg_r with Dx; [lra|]. unfold Rdiv. rewrite Rmult_assoc, Rinv_l, Rmult_1_r by lra. nra.
Qed.
Lemma step_low k : (forall q, Rmin x r <= q <= Rmax x r -> - (2 * k * Dx) <= G2 q) -> - (k * ((r - x) * (r - x))) <= newton x (br_z r) - r.
Proof.
  intro H. rewrite newton_err.
  assert (T := taylor2 (fun q => - G q) (fun q => - G1 q) (fun q => - G2 q) x r (2 * k * Dx) Hx Hr).
  assert (T' : - G r - - G x - (r - x) * - G1 x <= 2 * k * Dx / 2 * ((r - x) * (r - x))).
  { apply T.
    - intros q Hq. apply (is_derive_opp G q (G1 q)), G_d, Hq.
    - intros q Hq. apply (is_derive_opp G1 q (G2 q)), G1_d, Hq.
    - intros q Hq. specialize (H q Hq). lra. }
  pose proof Dx_pos. apply Rmult_le_reg_r with Dx; [lra|]. unfold Rdiv at 1. rewrite Rmult_assoc, Rinv_l, Rmult_1_r by lra. nra.
Qed.
End STEP.

(** Simple bounds on the exponential. *)
Lemma exp_lo x : 1 + x <= exp x.
Proof. destruct (Req_dec x 0) as [->|N]; [rewrite exp_0; lra|]. left. now apply exp_ineq1. Qed.
Lemma exp_hi x : x < 1 -> exp x <= / (1 - x).
Proof.
  intro H. pose proof (exp_lo (- x)) as E. rewrite exp_Ropp in E. pose proof (exp_pos x) as P.
  apply Rmult_le_reg_r with (1 - x); [lra|]. rewrite Rinv_l by lra.
  assert (exp x * (1 + - x) <= exp x * / exp x) by (apply Rmult_le_compat_l; lra). rewrite Rinv_r in H0 by lra. lra.
Qed.
Lemma exp_hi2 x : x < 2 -> exp x <= / ((1 - x / 2) * (1 - x / 2)).
Proof.
  intro H. pose proof (exp_hi (x / 2) ltac:(lra)) as E. replace x with (x / 2 + x / 2) at 1 by field. rewrite exp_plus, Rinv_mult by lra.
  pose proof (exp_pos (x / 2)). apply Rmult_le_compat; lra.
Qed.
Lemma exp_lo2 x : 0 <= x -> 1 + x + x * x / 2 <= exp x.
Proof.
  intro H. destruct (Req_dec x 0) as [->|N]; [rewrite exp_0; lra|].
  destruct (MVT_cor2 (fun y => exp y - (1 + y + y * y / 2)) (fun y => exp y - (1 + y)) 0 x) as (c & E & Hc); [lra| |].
  - intros c _. apply is_derive_Reals. auto_derive; [auto|field].
  - rewrite exp_0 in E. pose proof (exp_lo c). nra.
Qed.
Lemma exp_lo3 x : 0 <= x -> 1 + x + x * x / 2 + x * x * x / 6 <= exp x.
Proof.
  intro H. destruct (Req_dec x 0) as [->|N]; [rewrite exp_0; lra|].
  destruct (MVT_cor2 (fun y => exp y - (1 + y + y * y / 2 + y * y * y / 6)) (fun y => exp y - (1 + y + y * y / 2)) 0 x) as (c & E & Hc); [lra| |].
  - intros c _. apply is_derive_Reals. auto_derive; [auto|field].
  - rewrite exp_0 in E. pose proof (exp_lo2 c ltac:(lra)). nra.
Qed.

(** Small solutions: Newton's iterates increase towards the solution. *)
Lemma step_small x r : 0 < x -> x <= r -> r <= 3 / 2 -> - ((r - x) * (r - x) / x) <= newton x (br_z r) - r <= 0.
Proof.
  intros Hx L R. assert (Mn : Rmin x r = x) by (apply Rmin_left; lra). assert (Mx : Rmax x r = r) by (apply Rmax_right; lra).
  assert (Hr : 0 < r) by lra.
  assert (B : forall q, x <= q <= r -> - (2 * / x * Dx x) <= G2 x q <= 0).
  { intros q Hq. unfold G2. set (e := exp (2 / 3 * (q - x))). assert (e0 : 0 < e) by apply exp_pos.
    assert (ee : e * (1 - 2 / 3 * (q - x)) <= 1).
    { pose proof (exp_hi (2 / 3 * (q - x)) ltac:(lra)) as E. fold e in E.
      apply Rmult_le_compat_r with (r := 1 - 2 / 3 * (q - x)) in E; [|lra]. rewrite Rinv_l in E by lra. exact E. }
    assert (k1 : x * e <= q). { assert (x <= q * (1 - 2 / 3 * (q - x))) by nra. nra. }
    assert (P1 : 0 < 9 - 6 * q + 2 * (q * q) - q * q * q) by nra.
    assert (P2 : 9 - 6 * q + 2 * (q * q) - q * q * q <= 3 / 2 * Dx x).
    { unfold Dx. assert (0 <= (q - x) * (6 - 2 * (q + x) + (q * q + q * x + x * x))) by (apply Rmult_le_pos; nra). nra. }
    replace (4 / 3 * (x * x) * e * (1 - 2 / q + 6 / (q * q) - 9 / (q * q * q)))
      with (- (4 / 3 * (x * e / q) * (x / q * / q) * (9 - 6 * q + 2 * (q * q) - q * q * q))) by (field; lra).
    assert (A1 : 0 <= x * e / q <= 1).
    { split; [apply Rmult_le_pos; [nra|left; apply Rinv_0_lt_compat; lra]|]. apply Rmult_le_reg_r with q; [lra|]. unfold Rdiv. rewrite Rmult_assoc, Rinv_l by lra. lra. }
    assert (A2 : 0 <= x / q * / q <= / x).
    { assert (0 < / q) by (apply Rinv_0_lt_compat; lra). assert (/ q <= / x) by (apply Rinv_le_contravar; lra).
      assert (x / q <= 1) by (apply Rmult_le_reg_r with q; [lra|]; unfold Rdiv; rewrite Rmult_assoc, Rinv_l by lra; lra).
      assert (0 <= x / q) by (apply Rmult_le_pos; lra). split; nra. }
    set (u := x * e / q) in *. set (v := x / q * / q) in *. set (w := 9 - 6 * q + 2 * (q * q) - q * q * q) in *.
    assert (U : 0 <= u * v <= / x). { assert (0 < / x) by (apply Rinv_0_lt_compat; lra). split; nra. }
    assert (UW : 0 <= u * v * w <= / x * (3 / 2 * Dx x)).
    { pose proof (Dx_pos x). assert (0 < / x) by (apply Rinv_0_lt_compat; lra). split; [apply Rmult_le_pos; lra|]. apply Rmult_le_compat; lra. }
    split; nra. }
  split.
  - pose proof (step_low x r Hx Hr (/ x)) as S. rewrite Mn, Mx in S. specialize (S (fun q Hq => proj1 (B q Hq))). unfold Rdiv. lra.
  - pose proof (step_up x r Hx Hr 0) as S. rewrite Mn, Mx in S. assert (newton x (br_z r) - r <= 0 * ((r - x) * (r - x))); [|lra]. apply S. intros q Hq. pose proof (B q Hq). lra.
Qed.
Lemma x2D x : x * x <= 3 / 4 * Dx x.
Proof. unfold Dx. pose proof (Rle_0_sqr (x - 3)) as H. unfold Rsqr in H. lra. Qed.
(** Medium and large solutions: quadratic convergence from nearby. *)
Lemma step_near lo k c x r : 0 < lo -> lo <= x -> lo <= r -> 0 <= c -> exp (2 / 3 * Rabs (x - r)) <= k ->
  (forall q, lo <= q -> - c <= 1 - 2 / q + 6 / (q * q) - 9 / (q * q * q)) ->
  - (k * c / 2 * ((r - x) * (r - x))) <= newton x (br_z r) - r <= k / 2 * ((r - x) * (r - x)).
Proof.
  intros Hl L1 L2 Hc Hk Hb. assert (Hx : 0 < x) by lra. assert (Hr : 0 < r) by lra.
  assert (R : forall q, Rmin x r <= q <= Rmax x r -> lo <= q /\ exp (2 / 3 * (q - x)) <= k).
  { intros q Hq. assert (lo <= Rmin x r) by (apply Rmin_glb; lra). split; [lra|]. eapply Rle_trans; [|exact Hk].
    assert (q - x <= Rabs (x - r)). { unfold Rmax, Rmin, Rabs in *. destruct (Rle_dec x r), (Rcase_abs (x - r)); lra. }
    destruct (Req_dec (q - x) (Rabs (x - r))) as [->|N]; [lra|]. left. apply exp_increasing. lra. }
  assert (B : forall q, Rmin x r <= q <= Rmax x r -> - (2 * (k * c / 2) * Dx x) <= G2 x q <= 2 * (k / 2) * Dx x).
  { intros q Hq. destruct (R q Hq) as [Lq Ek]. specialize (Hb q Lq). unfold G2. set (e := exp (2 / 3 * (q - x))) in *. assert (e0 : 0 < e) by apply exp_pos.
    set (b := 1 - 2 / q + 6 / (q * q) - 9 / (q * q * q)) in *.
    assert (b1 : b <= 1).
    { unfold b. replace (1 - 2 / q + 6 / (q * q) - 9 / (q * q * q)) with (1 - (2 * (q * q) - 6 * q + 9) / (q * q * q)) by (field; lra).
      assert (0 <= (2 * (q * q) - 6 * q + 9) / (q * q * q)); [|lra]. assert (0 < q * q * q) by (apply Rmult_lt_0_compat; nra). apply Rmult_le_pos; [nra|left; now apply Rinv_0_lt_compat]. }
    pose proof (x2D x) as D2. assert (Px : 0 < x * x) by nra.
    assert (U : 0 <= 4 / 3 * (x * x) * e <= k * Dx x).
    { split; [nra|]. apply Rle_trans with (4 / 3 * (x * x) * k); [apply Rmult_le_compat_l; lra|]. nra. }
    set (u := 4 / 3 * (x * x) * e) in *. split; nra. }
  split.
  - apply (step_low x r Hx Hr). intros q Hq. apply B, Hq.
  - apply (step_up x r Hx Hr). intros q Hq. apply B, Hq.
Qed.
Lemma step_large x r : 2 <= x -> 2 <= r -> Rabs (x - r) <= 1 / 2 -> 0 <= newton x (br_z r) - r <= 3 / 4 * ((r - x) * (r - x)).
Proof.
  intros H1 H2 H3. destruct (step_near 2 (3 / 2) 0 x r) as [A B]; try lra.
  - apply Rle_trans with (/ (1 - 2 / 3 * Rabs (x - r))); [apply exp_hi; lra|].
    apply Rle_trans with (/ (2 / 3)); [apply Rinv_le_contravar; lra|lra].
  - intros q Hq. replace (1 - 2 / q + 6 / (q * q) - 9 / (q * q * q)) with ((q * q * q - 2 * (q * q) + 6 * q - 9) / (q * q * q)) by (field; lra).
    assert (0 < q * q * q) by (apply Rmult_lt_0_compat; nra). rewrite Ropp_0. apply Rmult_le_pos; [nra|left; now apply Rinv_0_lt_compat].
Qed.
Lemma step_medium x r : 8 / 10 <= x -> 8 / 10 <= r -> Rabs (x - r) <= 1 / 10 -> Rabs (newton x (br_z r) - r) <= 54 / 10 * ((r - x) * (r - x)).
Proof.
  intros H1 H2 H3. assert (0 <= (r - x) * (r - x)) by apply Rle_0_sqr. destruct (step_near (8 / 10) (15 / 14) 10 x r) as [A B]; try lra.
  - apply Rle_trans with (/ (1 - 2 / 3 * Rabs (x - r))); [apply exp_hi; lra|].
    apply Rle_trans with (/ (14 / 15)); [apply Rinv_le_contravar; lra|lra].
  - intros q Hq. assert (V : 0 < / q <= 5 / 4). { split; [apply Rinv_0_lt_compat; lra|]. replace (5 / 4) with (/ (8 / 10)) by field. apply Rinv_le_contravar; lra. }
    replace (1 - 2 / q + 6 / (q * q) - 9 / (q * q * q)) with (1 - 2 * / q + 6 * (/ q * / q) - 9 * (/ q * / q * / q)) by (field; lra).
    set (v := / q) in *. assert (0 <= (5 / 4 - v) * (2 - 6 * (v + 5 / 4) + 9 * (v * v + v * (5 / 4) + 25 / 16))) by (apply Rmult_le_pos; nra). nra.
  - apply Rabs_le. lra.
Qed.

(** The starting values. *)
Lemma br_frac x e : 0 < x -> (x - 2) / x * e = - ((2 - x) * e / x).
Proof. intro H. field. lra. Qed.
Lemma br_ge x z : 0 < x -> (2 - x) * exp (2 / 3 * x) <= - z * x -> z <= br_z x.
Proof.
  intros H L. unfold br_z. rewrite br_frac by exact H. assert ((2 - x) * exp (2 / 3 * x) / x <= - z); [|lra].
  apply Rmult_le_reg_r with x; [exact H|]. unfold Rdiv. rewrite Rmult_assoc, Rinv_l, Rmult_1_r by lra. exact L.
Qed.
Lemma br_le x z : 0 < x -> - z * x <= (2 - x) * exp (2 / 3 * x) -> br_z x <= z.
Proof.
  intros H L. unfold br_z. rewrite br_frac by exact H. assert (- z <= (2 - x) * exp (2 / 3 * x) / x); [|lra].
  apply Rmult_le_reg_r with x; [exact H|]. unfold Rdiv. rewrite Rmult_assoc, Rinv_l, Rmult_1_r by lra. exact L.
Qed.
(** z < -10^4 *)
Lemma start_tiny z x : z < - 10000 -> x = - 2 / z -> 0 < x < 1 / 1000 /\ br_z x <= z <= br_z (x * (1 + x / 2)).
Proof.
  intros Hz Ex. assert (Px : 0 < x < 1 / 1000).
  { rewrite Ex. replace (- 2 / z) with (2 * / - z) by (field; lra). assert (0 < / - z) by (apply Rinv_0_lt_compat; lra).
    assert (/ - z < / 10000) by (apply Rinv_lt_contravar; nra). lra. }
  assert (Ez : - z * x = 2) by (rewrite Ex; field; lra). split; [exact Px|]. split.
  - apply br_le; [lra|]. rewrite Ez. pose proof (exp_lo (2 / 3 * x)). nra.
  - set (y := x * (1 + x / 2)). assert (Hy : x <= y <= 11 / 10 * x) by (unfold y; nra). apply br_ge; [lra|].
    replace (- z * y) with (2 + x) by (unfold y; rewrite <- Rmult_assoc, Ez; field).
    pose proof (exp_hi (2 / 3 * y) ltac:(lra)) as E. apply Rle_trans with ((2 - y) * / (1 - 2 / 3 * y)); [apply Rmult_le_compat_l; lra|].
    apply Rmult_le_reg_r with (1 - 2 / 3 * y); [lra|]. rewrite Rmult_assoc, Rinv_l by lra. nra.
Qed.
(** -10^4 <= z < -2 *)
Lemma start_small z x : z < - 2 -> x = (sqrt (9 * z * z + 6 * z + 49) + 3 * z + 1) / 4 -> 0 < x < 1 /\ br_z x <= z <= br_z (x * (1 + x / 2)).
Proof.
  intros Hz Ex. set (q := 9 * z * z + 6 * z + 49) in *. assert (Q0 : 0 < q) by (unfold q; nra).
  assert (S : sqrt q * sqrt q = q) by (apply sqrt_sqrt; lra). pose proof (sqrt_lt_R0 q Q0) as S0.
  assert (Lo : - (3 * z + 1) < sqrt q). { apply Rnot_le_lt. intro F. assert (sqrt q * sqrt q <= (3 * z + 1) * (3 * z + 1)) by nra. unfold q in *. nra. }
  assert (Hi : sqrt q < 3 - 3 * z). { apply Rnot_le_lt. intro F. assert ((3 - 3 * z) * (3 - 3 * z) <= sqrt q * sqrt q) by nra. unfold q in *. nra. }
  assert (Px : 0 < x < 1) by lra.
  assert (Ez : - z * x = (2 - x) * (1 + 2 / 3 * x)).
  { assert (sqrt q = 4 * x - 3 * z - 1) as E by lra. rewrite E in S. unfold q in S. nra. }
  split; [exact Px|]. split.
  - apply br_le; [lra|]. rewrite Ez. pose proof (exp_lo (2 / 3 * x)). nra.
  - set (y := x * (1 + x / 2)). assert (Hy : x <= y <= 3 / 2 * x) by (unfold y; nra). apply br_ge; [lra|].
    replace (- z * y) with ((2 - x) * (1 + 2 / 3 * x) * (1 + x / 2)) by (unfold y; rewrite <- Ez; ring).
    pose proof (exp_hi2 (2 / 3 * y) ltac:(lra)) as E. apply Rle_trans with ((2 - y) * / ((1 - 2 / 3 * y / 2) * (1 - 2 / 3 * y / 2))); [apply Rmult_le_compat_l; lra|].
    assert (P : 0 < (1 - 2 / 3 * y / 2) * (1 - 2 / 3 * y / 2)) by nra.
    apply Rmult_le_reg_r with ((1 - 2 / 3 * y / 2) * (1 - 2 / 3 * y / 2)); [exact P|]. rewrite Rmult_assoc, Rinv_l by lra. unfold y. clear - Px.
    set (b := 192 / 100 - 16 / 115).
    assert (C : 0 <= (x - 96 / 100) * (x - 96 / 100) * (x + b)) by (apply Rmult_le_pos; [apply Rle_0_sqr|unfold b; lra]).
    assert (x2 : 0 <= x * x <= x) by nra. assert (x3 : 0 <= x * x * x <= x * x) by nra. assert (x4 : 0 <= x * x * x * x <= x * x * x) by nra.
    assert (x5 : 0 <= x * x * x * x * x <= x * x * x * x) by nra. assert (x6 : 0 <= x * x * x * x * x * x <= x * x * x * x * x) by nra.
    unfold b in C. ring_simplify in C.
    assert (D : 0 <= x * (1 - 4 / 3 * x - 2 / 27 * (x * x) + 29 / 54 * (x * x * x) + 1 / 18 * (x * x * x * x) - 11 / 216 * (x * x * x * x * x) - 1 / 108 * (x * x * x * x * x * x))).
    { apply Rmult_le_pos; lra. }
    match goal with |- ?a <= ?b => assert (0 <= b - a); [|lra] end. eapply Rle_trans; [exact D|]. right. field.
Qed.
Lemma exp_hi_neg t : 0 <= t -> exp (- t) <= / (1 + t + t * t / 2).
Proof. intro H. rewrite exp_Ropp. apply Rinv_le_contravar; [nra|]. apply exp_lo2, H. Qed.
Lemma exp_lo_neg t : 0 <= t <= 3 -> (1 - t / 3) * (1 - t / 3) * (1 - t / 3) <= exp (- t).
Proof.
  intro H. replace (- t) with (- (t / 3) + - (t / 3) + - (t / 3)) by field. rewrite !exp_plus. pose proof (exp_lo (- (t / 3))) as E.
  assert (0 <= 1 - t / 3) by lra. assert ((1 - t / 3) * (1 - t / 3) <= exp (- (t / 3)) * exp (- (t / 3))) by (apply Rmult_le_compat; lra).
  apply Rmult_le_compat; try lra. apply Rmult_le_pos; lra.
Qed.
Lemma exp_43 : 378 / 100 <= exp (4 / 3).
Proof.
  replace (4 / 3) with (1 / 3 + 1 / 3 + (1 / 3 + 1 / 3)) by field. rewrite !exp_plus. pose proof (exp_lo3 (1 / 3) ltac:(lra)) as E. ring_simplify (1 + 1 / 3 + 1 / 3 * (1 / 3) / 2 + 1 / 3 * (1 / 3) * (1 / 3) / 6) in E.
  assert (F : 1944 / 1000 <= exp (1 / 3) * exp (1 / 3)) by nra. nra.
Qed.
(** -2 <= z < 1 *)
Lemma start_medium z x : - 2 <= z < 1 -> x = 2 * (z * exp (- (4 / 3)) + 1) -> 94 / 100 <= x <= 253 / 100 /\ br_z (x - 1 / 10) <= z <= br_z (x + 1 / 10).
Proof.
  intros Hz Ex. pose proof exp_43 as E. set (q := exp (4 / 3)) in *.
  assert (Ei : exp (- (4 / 3)) = / q) by apply exp_Ropp.
  assert (Hi : 0 < / q <= 265 / 1000). { split; [apply Rinv_0_lt_compat; lra|]. apply Rle_trans with (/ (378 / 100)); [apply Rinv_le_contravar; lra|lra]. }
  assert (Px : 94 / 100 <= x <= 253 / 100) by (rewrite Ex, Ei; nra).
  assert (Ez : z = (x - 2) / 2 * q) by (rewrite Ex, Ei; field; lra).
  assert (Sp : forall t, exp (2 / 3 * t) = exp (2 / 3 * (t - 2)) * q) by (intro t; unfold q; rewrite <- exp_plus; f_equal; field).
  split; [exact Px|]. split.
  - set (t := x - 1 / 10). apply br_le; [unfold t; lra|]. rewrite (Sp t), Ez. set (y := t - 2).
    replace (- ((x - 2) / 2 * q) * t) with (- ((y + 1 / 10) * (y + 2)) / 2 * q) by (unfold y, t; field).
    replace ((2 - t) * (exp (2 / 3 * y) * q)) with (- y * exp (2 / 3 * y) * q) by (unfold y; ring). apply Rmult_le_compat_r; [lra|].
    assert (Hy : - 116 / 100 <= y <= 43 / 100) by (unfold y, t; lra). clearbody y. clear - Hy. destruct (Rle_dec 0 y) as [L|L].
    + pose proof (exp_hi (2 / 3 * y) ltac:(lra)) as E. assert (y * exp (2 / 3 * y) <= (y + 1 / 10) * (y + 2) / 2); [|lra].
      apply Rle_trans with (y * / (1 - 2 / 3 * y)); [apply Rmult_le_compat_l; lra|]. apply Rmult_le_reg_r with (1 - 2 / 3 * y); [lra|]. rewrite Rmult_assoc, Rinv_l by lra.
      assert (0 <= y * y <= 43 / 100 * y) by nra. assert (0 <= y * y * y <= 43 / 100 * (y * y)) by nra. lra.
    + set (v := - y). assert (Hv : 0 <= v <= 116 / 100) by (unfold v; lra). replace (2 / 3 * y) with (- (2 / 3 * v)) by (unfold v; ring). replace y with (- v) by (unfold v; ring).
      clearbody v. pose proof (exp_lo_neg (2 / 3 * v) ltac:(lra)) as E. apply Rle_trans with (v * ((1 - 2 / 3 * v / 3) * (1 - 2 / 3 * v / 3) * (1 - 2 / 3 * v / 3))); [|try rewrite Ropp_involutive; apply Rmult_le_compat_l; lra].
      assert (C : 0 <= (v - 95 / 100) * (v - 95 / 100) * (v + 67 / 100)) by (apply Rmult_le_pos; [apply Rle_0_sqr|lra]).
      assert (0 <= v * v <= 116 / 100 * v) by nra. assert (0 <= v * v * v <= 116 / 100 * (v * v)) by nra. assert (0 <= v * v * v * v <= 116 / 100 * (v * v * v)) by nra.
      ring_simplify in C. lra.
  - set (t := x + 1 / 10). apply br_ge; [unfold t; lra|]. rewrite (Sp t), Ez. set (y := t - 2).
    replace (- ((x - 2) / 2 * q) * t) with (- ((y - 1 / 10) * (y + 2)) / 2 * q) by (unfold y, t; field).
    replace ((2 - t) * (exp (2 / 3 * y) * q)) with (- y * exp (2 / 3 * y) * q) by (unfold y; ring). apply Rmult_le_compat_r; [lra|].
    assert (Hy : - 96 / 100 <= y <= 63 / 100) by (unfold y, t; lra). clearbody y. clear - Hy. destruct (Rle_dec 0 y) as [L|L].
    + pose proof (exp_lo (2 / 3 * y)). nra.
    + set (v := - y). assert (Hv : 0 <= v <= 96 / 100) by (unfold v; lra). replace (2 / 3 * y) with (- (2 / 3 * v)) by (unfold v; ring). replace y with (- v) by (unfold v; ring).
      clearbody v. pose proof (exp_hi_neg (2 / 3 * v) ltac:(lra)) as E. set (d := 1 + 2 / 3 * v + 2 / 3 * v * (2 / 3 * v) / 2) in *. assert (D0 : 0 < d) by (unfold d; nra).
      apply Rle_trans with (v * / d); [try rewrite Ropp_involutive; apply Rmult_le_compat_l; lra|]. apply Rmult_le_reg_r with d; [exact D0|]. rewrite Rmult_assoc, Rinv_l by lra. unfold d.
      assert (0 <= v * v <= 96 / 100 * v) by nra. assert (0 <= v * v * v <= 96 / 100 * (v * v)) by nra. assert (0 <= v * v * v * v <= 96 / 100 * (v * v * v)) by nra. nra.
Qed.
(** 1 <= z *)
Lemma start_large z x : 1 <= z -> x = 3 / 2 * ln z + 375 / 100 / (15 / 10 + ln z) ->
  245 / 100 <= x /\ (2 <= x - 1 / 2 -> br_z (x - 1 / 2) <= z) /\ z <= br_z (x + 1 / 2).
Proof.
  intros Hz Ex. set (l := ln z) in *. assert (Hl : 0 <= l) by (unfold l; rewrite <- ln_1; destruct Hz as [Hz|<-]; [left; apply ln_increasing; lra|lra]).
  assert (Ez : z = exp l) by (unfold l; rewrite exp_ln; lra). set (v := / (15 / 10 + l)).
  assert (Hv : 0 < v <= 2 / 3). { unfold v. split; [apply Rinv_0_lt_compat; lra|]. replace (2 / 3) with (/ (3 / 2)) by field. apply Rinv_le_contravar; lra. }
  assert (El : (15 / 10 + l) * v = 1) by (unfold v; field; lra). set (w := 15 / 10 + l) in *. assert (Hw : 3 / 2 <= w) by (unfold w; lra).
  assert (Exw : x = 3 / 2 * w - 225 / 100 + 375 / 100 * v) by (rewrite Ex; unfold Rdiv at 2; fold v; unfold w; field).
  assert (Xv : x * v = 3 / 2 - 225 / 100 * v + 375 / 100 * (v * v)). { rewrite Exw. replace ((3 / 2 * w - 225 / 100 + 375 / 100 * v) * v) with (3 / 2 * (w * v) - 225 / 100 * v + 375 / 100 * (v * v)) by field. rewrite El. field. }
  assert (X2 : 245 / 100 <= x). { apply Rmult_le_reg_r with v; [lra|]. rewrite Xv. pose proof (Rle_0_sqr (v - 47 / 75)) as Q. unfold Rsqr in Q. lra. }
  assert (Sp : forall t, exp (2 / 3 * t) = exp (2 / 3 * t - l) * z) by (intro t; rewrite Ez, <- exp_plus; f_equal; ring).
  split; [exact X2|]. split.
  - intro H2. set (t := x - 1 / 2) in *. unfold br_z. rewrite (Sp t). replace (2 / 3 * t - l) with (5 / 2 * v - 1 / 3) by (unfold t; rewrite Exw; unfold w; field).
    set (s := 5 / 2 * v - 1 / 3). assert (A : (t - 2) / t * exp s <= 1); [|replace ((t - 2) / t * (exp s * z)) with ((t - 2) / t * exp s * z) by ring; nra].
    assert (Q : 0 <= (t - 2) / t <= 1). { split; [apply Rmult_le_pos; [lra|left; apply Rinv_0_lt_compat; lra]|]. apply Rmult_le_reg_r with t; [lra|]. unfold Rdiv. rewrite Rmult_assoc, Rinv_l; lra. }
    destruct (Rle_dec s 0) as [L|L].
    + assert (exp s <= 1). { rewrite <- exp_0. destruct L as [L| ->]; [left; apply exp_increasing; exact L|lra]. } pose proof (exp_pos s). nra.
    + pose proof (exp_hi2 s ltac:(unfold s; lra)) as E. set (d := (1 - s / 2) * (1 - s / 2)) in *. assert (D0 : 0 < d) by (unfold d, s; nra).
      apply Rle_trans with ((t - 2) / t * / d); [apply Rmult_le_compat_l; lra|]. apply Rmult_le_reg_r with d; [exact D0|]. rewrite Rmult_assoc, Rinv_l, Rmult_1_r, Rmult_1_l by lra.
      apply Rmult_le_reg_r with t; [lra|]. unfold Rdiv. rewrite Rmult_assoc, Rinv_l, Rmult_1_r by lra. apply Rmult_le_reg_r with v; [lra|].
      replace ((t - 2) * v) with (x * v - 5 / 2 * v) by (unfold t; field). replace (d * t * v) with (d * (x * v - 1 / 2 * v)) by (unfold t; field). rewrite Xv. unfold d, s in *. clear - Hv L.
      assert (H1 : 2 / 15 < v) by lra. destruct Hv as [_ H2]. clear L.
      match goal with |- ?a <= ?b => assert (Z : 0 <= b - a); [|lra] end. destruct (Rle_dec v (4 / 10)) as [L|L].
      * match goal with |- 0 <= ?p => replace p with (375 / 64 * (v * v) * (v * v) + v * v * (375 / 32 - 975 / 64 * v) - 485 / 144 * v + 13 / 24) by lra end.
        assert (0 <= v * v * (375 / 32 - 975 / 64 * v - 56 / 10)) by (apply Rmult_le_pos; [apply Rle_0_sqr|lra]). assert (0 <= v * v * (v * v)) by nra. pose proof (Rle_0_sqr (v - 3 / 10)) as Q. unfold Rsqr in Q. nra.
      * assert (Eh : exists h, v = 1 / 2 + h) by (exists (v - 1 / 2); lra). destruct Eh as [h Eh]. assert (Hh : - (1 / 10) <= h <= 1 / 6) by lra. rewrite Eh. clear - Hh.
        assert (Q0 : 0 <= h * h) by nra. assert (Q1 : h * h <= 1 / 15 * h + 1 / 60) by nra. assert (Q2 : 0 <= h * h * (h * h)) by nra. assert (Q3 : h * h * h <= 1 / 6 * (h * h)) by nra. nra.
  - set (t := x + 1 / 2) in *. unfold br_z. rewrite (Sp t). replace (2 / 3 * t - l) with (5 / 2 * v + 1 / 3) by (unfold t; rewrite Exw; unfold w; field).
    set (s := 5 / 2 * v + 1 / 3). assert (A : 1 <= (t - 2) / t * exp s); [|replace ((t - 2) / t * (exp s * z)) with ((t - 2) / t * exp s * z) by ring; nra].
    assert (Tp : 0 < t - 2) by (unfold t; lra). pose proof (exp_lo2 s ltac:(unfold s; lra)) as E.
    apply Rle_trans with ((t - 2) / t * (1 + s + s * s / 2)); [|apply Rmult_le_compat_l; [left; apply Rdiv_lt_0_compat; lra|exact E]].
    apply Rmult_le_reg_r with t; [lra|]. replace ((t - 2) / t * (1 + s + s * s / 2) * t) with ((t - 2) * (1 + s + s * s / 2)) by (field; lra).
    apply Rmult_le_reg_r with v; [lra|]. replace (1 * t * v) with (x * v + 1 / 2 * v) by (unfold t; field). replace ((t - 2) * (1 + s + s * s / 2) * v) with ((x * v - 3 / 2 * v) * (1 + s + s * s / 2)) by (unfold t; field).
    rewrite Xv. unfold s in *. clear - Hv. nra.
Qed.

(** The equation has a solution between the two bounds of each start. *)
Lemma br_root a b z : 0 < a -> a <= b -> br_z a <= z <= br_z b -> exists r, a <= r <= b /\ br_z r = z.
Proof.
  intros Ha L [H1 H2]. destruct H1 as [H1|H1]; [|exists a; split; lra]. destruct H2 as [H2|H2]; [|exists b; split; lra].
  assert (L' : a < b) by (destruct L as [L|L]; [exact L|subst; lra]).
  destruct (Ranalysis5.IVT_interv (fun x => br_z x - z) a b) as (r & Hr & E); try lra.
  - intros q Hq. apply continuity_pt_minus; [|apply continuity_pt_const; intros ? ?; reflexivity].
    apply derivable_continuous_pt. exists (br_z' q). apply is_derive_Reals, br_z_derive. lra.
  - exists r. split; [exact Hr|lra].
Qed.

(** The loop: an invariant that decides the exit test after m steps decides the result. *)
Lemma newton_NR (x z : R) : @NR_step ROps x z = Some (newton x z - x).
Proof.
  unfold NR_step, sdiv, OofZ. cbn [Oeqb OofQ ROps Oexp Oadd Omul Osub Oopp Odiv T]. rewrite !Q2R_Z. change (Q2R 0) with (Q2R (inject_Z 0)). change (Q2R 1) with (Q2R (inject_Z 1)). rewrite ?Q2R_Z.
  assert (E : Reqb (x * (2 * x - 4) + 6) 0 = false).
  { apply Reqb_false. pose proof (Rle_0_sqr (x - 1)) as D. unfold Rsqr in D. intro F. lra. }
  rewrite E. f_equal. unfold newton. replace (- (2) / 3 * x) with (- (2 / 3) * x) by field. ring.
Qed.
Definition stops (z x : R) : Prop := Rabs (x - newton x z) < 1e-15 * (1 + newton x z).
Lemma fabs_R (x : R) : @fabs ROps x = Rabs x.
Proof.
  unfold fabs. cbn [Oltb OofQ ROps Oopp T]. rewrite Q2R_0. unfold Rltb, Rabs. destruct (Rlt_dec x 0), (Rcase_abs x); lra.
Qed.
Lemma loop_step f (z x : R) : @BR_loop ROps (S f) z x = if Rlt_dec (Rabs (x - newton x z)) (1e-15 * (1 + newton x z)) then Some (newton x z) else @BR_loop ROps f z (newton x z).
Proof.
  cbn [BR_loop]. rewrite newton_NR. cbn [obnd]. rewrite fabs_R. cbn [Oltb Oadd Osub Omul OofQ ROps T]. rewrite Q2R_1. replace (x + (newton x z - x)) with (newton x z) by ring.
  replace (Q2R 1e-15) with 1e-15 by (unfold Q2R; cbn; lra). unfold Rltb. destruct (Rlt_dec _ _); reflexivity.
Qed.
Lemma loop_inv (P : nat -> R -> Prop) (good : R -> Prop) z m :
  (forall k x, P k x -> P (S k) (newton x z)) -> (forall k x, P k x -> stops z x -> good (newton x z)) -> (forall x, P m x -> stops z x) ->
  forall d k x, (k + d = m)%nat -> P k x -> exists x', good x' /\ forall n, @BR_loop ROps (S d + n) z x = Some x'.
Proof.
  intros Hs Hg He. induction d as [|d IH]; intros k x Ek Hk.
  - replace k with m in Hk by lia. exists (newton x z). split; [apply (Hg m); auto|]. intro n. change (1 + n)%nat with (S n). rewrite loop_step. destruct (Rlt_dec _ _) as [L|L]; [reflexivity|]. destruct (L (He x Hk)).
  - destruct (Rlt_dec (Rabs (x - newton x z)) (1e-15 * (1 + newton x z))) as [L|L].
    + exists (newton x z). split; [apply (Hg k); auto|]. intro n. change (S (S d) + n)%nat with (S (S d + n)). rewrite loop_step. destruct (Rlt_dec _ _); [reflexivity|contradiction].
    + destruct (IH (S k) (newton x z) ltac:(lia) (Hs k x Hk)) as (x' & G' & E). exists x'. split; [exact G'|]. intro n. change (S (S d) + n)%nat with (S (S d + n)). rewrite loop_step. destruct (Rlt_dec _ _); [contradiction|]. apply E.
Qed.

Fixpoint sq (c : R) (k : nat) : R := match k with O => c | S j => sq c j * sq c j end.
Lemma sq_range c k : 0 < c <= 1 -> 0 < sq c k <= c.
Proof. intro H. induction k as [|k IH]; cbn [sq]; [lra|nra]. Qed.
Definition near (r x : R) : Prop := 0 < x /\ Rabs (x - r) <= 3e-15 * x.

Lemma conv_small r x0 : 0 < x0 -> x0 <= r -> r <= x0 * (1 + x0 / 2) -> r <= 3 / 2 -> x0 <= 1 ->
  exists x, near r x /\ forall n, @BR_loop ROps (7 + n) (br_z r) x0 = Some x.
Proof.
  intros H0 H1 H2 H3 H4. set (z := br_z r).
  pose (P := fun k x => x0 <= x <= r /\ r - x <= sq (1 / 2) k * x /\ r - x <= x * x / 2).
  assert (St : forall k x, P k x -> 0 <= r - newton x z <= (r - x) * (r - x) / x /\ x <= newton x z /\ r - newton x z <= (r - x) / 2).
  { intros k x (Hx & Hk & Hq). pose proof (step_small x r ltac:(lra) ltac:(lra) H3) as S. fold z in S. pose proof (sq_range (1 / 2) k ltac:(lra)) as Q.
    assert (D : (r - x) * (r - x) / x <= (r - x) / 2).
    { apply Rmult_le_reg_r with x; [lra|]. unfold Rdiv. rewrite Rmult_assoc, Rinv_l, Rmult_1_r by lra. assert (r - x <= x / 2) by nra. nra. }
    split; [lra|]. split; lra. }
  apply (loop_inv P (near r) z 6) with (k := 0%nat).
  - intros k x Hk. pose proof (St k x Hk) as (S1 & S2 & S3). destruct Hk as (Hx & Hk & Hq). split; [lra|]. cbn [sq]. pose proof (sq_range (1 / 2) k ltac:(lra)) as Q. set (s := sq (1 / 2) k) in *. split; [|nra].
    apply Rle_trans with (s * s * x); [|apply Rmult_le_compat_l; nra]. apply Rle_trans with ((r - x) * (r - x) / x); [lra|].
    apply Rmult_le_reg_r with x; [lra|]. unfold Rdiv. rewrite Rmult_assoc, Rinv_l, Rmult_1_r by lra. replace (s * s * x * x) with (s * x * (s * x)) by ring. apply Rmult_le_compat; lra.
  - intros k x Hk L. pose proof (St k x Hk) as (S1 & S2 & S3). destruct Hk as (Hx & Hk & Hq). unfold stops in L. set (y := newton x z) in *. clearbody y.
    assert (Dx : y - x < 1e-15 * (1 + y)) by (unfold Rabs in L; destruct (Rcase_abs _); lra). unfold near. split; [lra|].
    assert (E : r - y <= 3e-15 * y); [|unfold Rabs; destruct (Rcase_abs _); lra].
    assert (r - x <= 2e-15 * (1 + y)) by lra.
    assert ((r - x) * (r - x) / x <= (r - x) * x / 2). { apply Rmult_le_reg_r with x; [lra|]. unfold Rdiv at 1. rewrite Rmult_assoc, Rinv_l, Rmult_1_r by lra. nra. }
    assert ((r - x) * x <= 2e-15 * (1 + y) * y) by (apply Rmult_le_compat; lra). nra.
  - intros x Hk. pose proof (St 6%nat x Hk) as (S1 & S2 & S3). destruct Hk as (Hx & Hk & Hq). unfold stops. set (y := newton x z) in *. clearbody y.
    assert (sq (1 / 2) 6 <= 1e-16). { cbn [sq]. lra. }
    assert (y - x <= 1e-16 * x) by nra. unfold Rabs. destruct (Rcase_abs _); lra.
  - lia.
  - split; [lra|]. cbn [sq]. nra.
Qed.
Lemma conv_medium r x0 : 9 / 10 <= r -> Rabs (x0 - r) <= 1 / 10 -> 8 / 10 <= x0 -> exists x, near r x /\ forall n, @BR_loop ROps (7 + n) (br_z r) x0 = Some x.
Proof.
  intros H0 H1 H2. set (z := br_z r). pose (P := fun k x => 54 / 10 * Rabs (x - r) <= sq (54 / 100) k).
  assert (St : forall k x, P k x -> 8 / 10 <= x /\ Rabs (newton x z - r) <= 54 / 10 * (Rabs (x - r) * Rabs (x - r)) /\ Rabs (x - r) <= 1 / 10).
  { intros k x Hk. unfold P in Hk. pose proof (sq_range (54 / 100) k ltac:(lra)) as Q. assert (A : Rabs (x - r) <= 1 / 10) by lra. assert (B : 8 / 10 <= x) by (unfold Rabs in A; destruct (Rcase_abs _); lra).
    split; [exact B|]. split; [|exact A]. pose proof (step_medium x r B ltac:(lra) A) as S. replace (Rabs (x - r) * Rabs (x - r)) with ((r - x) * (r - x)) by (rewrite <- Rabs_mult, Rabs_pos_eq; [ring|apply Rle_0_sqr]). exact S. }
  apply (loop_inv P (near r) z 6) with (k := 0%nat).
  - intros k x Hk. pose proof (St k x Hk) as (S1 & S2 & S3). unfold P in *. cbn [sq]. pose proof (Rabs_pos (x - r)). set (a := Rabs (x - r)) in *. set (s := sq (54 / 100) k) in *. apply Rle_trans with (54 / 10 * a * (54 / 10 * a)); [lra|]. apply Rmult_le_compat; lra.
  - intros k x Hk L. pose proof (St k x Hk) as (S1 & S2 & S3). unfold stops in L. set (y := newton x z) in *. clearbody y. unfold near.
    pose proof (Rabs_pos (x - r)) as A0. assert (T1 : Rabs (x - r) <= Rabs (x - y) + Rabs (y - r)) by (replace (x - r) with (x - y + (y - r)) by ring; apply Rabs_triang).
    assert (S4 : Rabs (y - r) <= 54 / 100 * Rabs (x - r)) by nra. assert (Y : 8 / 10 <= y) by (unfold Rabs in S4, S3; destruct (Rcase_abs (y - r)), (Rcase_abs (x - r)); lra).
    split; lra.
  - intros x Hk. pose proof (St 6%nat x Hk) as (S1 & S2 & S3). unfold P in Hk. unfold stops. set (y := newton x z) in *. clearbody y.
    assert (sq (54 / 100) 6 <= 1e-17) by (cbn [sq]; lra). pose proof (Rabs_pos (x - r)) as A0.
    assert (T1 : Rabs (x - y) <= Rabs (x - r) + Rabs (y - r)) by (rewrite (Rabs_minus_sym y r); replace (x - y) with (x - r + (r - y)) by ring; apply Rabs_triang).
    assert (S4 : Rabs (y - r) <= 54 / 100 * Rabs (x - r)) by nra. assert (Y : 8 / 10 <= y) by (unfold Rabs in S4, S3; destruct (Rcase_abs (y - r)), (Rcase_abs (x - r)); lra). lra.
  - lia.
  - unfold P. cbn [sq]. lra.
Qed.
Lemma conv_large r x0 : 2 <= r -> Rabs (x0 - r) <= 1 / 2 -> 2 <= x0 -> exists x, near r x /\ forall n, @BR_loop ROps (7 + n) (br_z r) x0 = Some x.
Proof.
  intros H0 H1 H2. set (z := br_z r). pose (P := fun k x => 2 <= x /\ 3 / 4 * Rabs (x - r) <= sq (3 / 8) k).
  assert (St : forall k x, P k x -> 0 <= newton x z - r <= 3 / 4 * (Rabs (x - r) * Rabs (x - r)) /\ Rabs (x - r) <= 1 / 2).
  { intros k x [B Hk]. pose proof (sq_range (3 / 8) k ltac:(lra)) as Q. assert (A : Rabs (x - r) <= 1 / 2) by lra.
    split; [|exact A]. pose proof (step_large x r B ltac:(lra) A) as S. replace (Rabs (x - r) * Rabs (x - r)) with ((r - x) * (r - x)) by (rewrite <- Rabs_mult, Rabs_pos_eq; [ring|apply Rle_0_sqr]). exact S. }
  apply (loop_inv P (near r) z 6) with (k := 0%nat).
  - intros k x Hk. pose proof (St k x Hk) as (S1 & S3). destruct Hk as [B Hk]. split; [lra|]. cbn [sq]. pose proof (Rabs_pos (x - r)). set (a := Rabs (x - r)) in *. set (s := sq (3 / 8) k) in *. rewrite (Rabs_pos_eq (newton x z - r)) by lra. apply Rle_trans with (3 / 4 * a * (3 / 4 * a)); [lra|]. apply Rmult_le_compat; lra.
  - intros k x Hk L. pose proof (St k x Hk) as (S1 & S3). unfold stops in L. set (y := newton x z) in *. clearbody y. unfold near.
    pose proof (Rabs_pos (x - r)) as A0. assert (T1 : Rabs (x - r) <= Rabs (x - y) + (y - r)). { rewrite <- (Rabs_pos_eq (y - r)) by lra. replace (x - r) with (x - y + (y - r)) by ring; apply Rabs_triang. }
    assert (S4 : y - r <= 3 / 8 * Rabs (x - r)) by nra. rewrite (Rabs_pos_eq (y - r)) by lra. split; lra.
  - intros x Hk. pose proof (St 6%nat x Hk) as (S1 & S3). destruct Hk as [B Hk]. unfold stops. set (y := newton x z) in *. clearbody y.
    assert (sq (3 / 8) 6 <= 1e-17) by (cbn [sq]; lra). pose proof (Rabs_pos (x - r)) as A0.
    assert (T1 : Rabs (x - y) <= Rabs (x - r) + (y - r)). { rewrite <- (Rabs_pos_eq (y - r)) by lra. rewrite (Rabs_minus_sym y r). replace (x - y) with (x - r + (r - y)) by ring; apply Rabs_triang. }
    assert (S4 : y - r <= 3 / 8 * Rabs (x - r)) by nra. lra.
  - lia.
  - split; [lra|]. cbn [sq]. lra.
Qed.
(** Every real z: a unique positive solution, and the code's loop reaches it. *)
Theorem BR_converges (z : R) : exists r x0 x, 0 < r /\ br_z r = z /\ @BR_start ROps z = Some x0 /\ near r x /\ forall n, @BR_loop ROps (7 + n) z x0 = Some x.
Proof.
  unfold BR_start, sdiv, OofZ. cbn [Oltb Oeqb Olog Osqrt OofQ ROps Oexp Oadd Omul Osub Oopp Odiv T]. rewrite !Q2R_Z, ?Q2R_0, ?Q2R_1.
  replace (Q2R 10000) with 10000 by (unfold Q2R; cbn; lra). replace (Q2R 3.75) with (375 / 100) by (unfold Q2R; cbn; lra). replace (Q2R 1.5) with (15 / 10) by (unfold Q2R; cbn; lra).
  assert (Z2 : - 2 <= br_z (3 / 2)).
  { unfold br_z. replace (2 / 3 * (3 / 2)) with 1 by field. pose proof exp_le_3. lra. }
  destruct (Rltb z (- (10000))) eqn:C1; [apply Rltb_true in C1|apply Rltb_false in C1; destruct (Rltb z (- (2))) eqn:C2; [apply Rltb_true in C2|apply Rltb_false in C2; destruct (Rltb z 1) eqn:C3; [apply Rltb_true in C3|apply Rltb_false in C3]]].
  - destruct (Reqb z 0) eqn:C; [apply Reqb_true in C; lra|]. destruct (start_tiny z (- 2 / z) C1 eq_refl) as (Px & B). set (x0 := - 2 / z) in *.
    destruct (br_root x0 (x0 * (1 + x0 / 2)) z ltac:(lra) ltac:(nra) B) as (r & Hr & E). destruct (conv_small r x0) as (x & G & L); try lra.
    { nra. } exists r, x0, x. split; [lra|]. split; [exact E|]. split; [reflexivity|]. split; [exact G|]. rewrite <- E. exact L.
  - cbn [obnd]. match goal with |- context [Some ?u] => set (x0 := u) end. assert (Ex : x0 = (sqrt (9 * z * z + 6 * z + 49) + 3 * z + 1) / 4) by reflexivity. clearbody x0.
    destruct (start_small z x0 ltac:(lra) Ex) as (Px & B).
    destruct (br_root x0 (x0 * (1 + x0 / 2)) z ltac:(lra) ltac:(nra) B) as (r & Hr & E).
    assert (r <= 3 / 2). { apply br_z_le_inv; lra. }
    destruct (conv_small r x0) as (x & G & L); try lra.
    exists r, x0, x. split; [lra|]. split; [exact E|]. split; [reflexivity|]. split; [exact G|]. rewrite <- E. exact L.
  - match goal with |- context [Some ?u] => set (x0 := u) end. assert (Ex : x0 = 2 * (z * exp (- (4 / 3)) + 1)) by (unfold x0; do 4 f_equal; field). clearbody x0.
    destruct (start_medium z x0 ltac:(lra) Ex) as (Px & B).
    destruct (br_root (x0 - 1 / 10) (x0 + 1 / 10) z ltac:(lra) ltac:(lra) B) as (r & Hr & E).
    assert (9 / 10 <= r). { apply br_z_le_inv; try lra. rewrite E. apply Rle_trans with (- 2); [|lra]. unfold br_z. pose proof (exp_lo2 (2 / 3 * (9 / 10)) ltac:(lra)). lra. }
    destruct (conv_medium r x0) as (x & G & L); try lra. { apply Rabs_le. lra. }
    exists r, x0, x. split; [lra|]. split; [exact E|]. split; [reflexivity|]. split; [exact G|]. rewrite <- E. exact L.
  - assert (Hl : 0 <= ln z) by (rewrite <- ln_1; destruct C3 as [Hz|<-]; [left; apply ln_increasing; lra|lra]).
    destruct (Reqb (15 / 10 + ln z) 0) eqn:C; [apply Reqb_true in C; lra|]. cbn [obnd].
    match goal with |- context [Some ?u] => set (x0 := u) end. assert (Ex : x0 = 3 / 2 * ln z + 375 / 100 / (15 / 10 + ln z)) by reflexivity. clearbody x0.
    destruct (start_large z x0 ltac:(lra) Ex) as (Px & B1 & B2).
    assert (B0 : br_z 2 <= z) by (unfold br_z; lra).
    destruct (br_root (Rmax 2 (x0 - 1 / 2)) (x0 + 1 / 2) z) as (r & Hr & E).
    + pose proof (Rmax_l 2 (x0 - 1 / 2)). lra.
    + apply Rmax_lub; lra.
    + split; [|exact B2]. unfold Rmax. destruct (Rle_dec _ _); auto.
    + pose proof (Rmax_l 2 (x0 - 1 / 2)). pose proof (Rmax_r 2 (x0 - 1 / 2)). destruct (conv_large r x0) as (x & G & L); try lra. { apply Rabs_le. lra. }
      exists r, x0, x. split; [lra|]. split; [exact E|]. split; [reflexivity|]. split; [exact G|]. rewrite <- E. exact L.
Qed.
