(** A verified bound on a polynomial over an interval: Taylor shift to the middle of a cell,
    absolute values of the coefficients, bisection. *)
From Coq Require Import Reals QArith Qreals Qminmax Qabs ZArith Lia Lra List Bool.
Import ListNotations.
Local Open Scope R_scope.

(** The polynomial with coefficients [p] (constant term first) at [x]. *)
Fixpoint pev (p : list Q) (x : R) : R := match p with [] => 0 | a :: p => Q2R a + x * pev p x end.
Fixpoint padd (p q : list Q) : list Q :=
  match p, q with [], _ => q | _, [] => p | a :: p, b :: q => Qred (a + b) :: padd p q end.
Definition pscale (c : Q) (p : list Q) : list Q := map (fun a => Qred (c * a)) p.
(** The coefficients of t -> p (c + t). *)
Fixpoint shift (c : Q) (p : list Q) : list Q :=
  match p with [] => [] | a :: p => let q := shift c p in padd [a] (padd (pscale c q) (0%Q :: q)) end.
(** A bound on |p t| for |t| <= h. *)
Fixpoint pabs (p : list Q) (h : Q) : Q := match p with [] => 0%Q | a :: p => Qred (Qabs a + h * pabs p h) end.
Definition cell_ok (p : list Q) (d lo hi : Q) : bool :=
  let c := Qred ((lo + hi) * (1 # 2)) in Qle_bool (pabs (shift c p) (Qred ((hi - lo) * (1 # 2)))) d.
Fixpoint bounded (fuel : nat) (p : list Q) (d lo hi : Q) : bool :=
  if cell_ok p d lo hi then true else
  match fuel with O => false | S f => let c := Qred ((lo + hi) * (1 # 2)) in if bounded f p d lo c then bounded f p d c hi else false end.

Lemma Q2R_red q : Q2R (Qred q) = Q2R q.
Proof. apply Qeq_eqR, Qred_correct. Qed.
Lemma Q2R_0' : Q2R 0 = 0. Proof. unfold Q2R. cbn. lra. Qed.
Lemma Q2R_half : Q2R (1 # 2) = / 2. Proof. unfold Q2R. cbn. lra. Qed.
Lemma Q2R_abs' q : Q2R (Qabs q) = Rabs (Q2R q).
Proof.
  apply Qabs_case; intro H; apply Qle_Rle in H; rewrite Q2R_0' in H.
  - now rewrite Rabs_right by lra.
  - rewrite Q2R_opp. now rewrite Rabs_left1 by lra.
Qed.
Lemma padd_ev p : forall q x, pev (padd p q) x = pev p x + pev q x.
Proof.
  induction p as [|a p IH]; intros [|b q] x; cbn [padd pev]; try lra.
  rewrite IH, Q2R_red, Q2R_plus. ring.
Qed.
Lemma pscale_ev c p x : pev (pscale c p) x = Q2R c * pev p x.
Proof. induction p as [|a p IH]; cbn [pscale map pev]; [ring|]. fold (pscale c p). rewrite IH, Q2R_red, Q2R_mult. ring. Qed.
Lemma shift_ev c p t : pev (shift c p) t = pev p (Q2R c + t).
Proof.
  induction p as [|a p IH]; cbn [shift pev]; [reflexivity|]. rewrite !padd_ev, pscale_ev. cbn [pev].
  rewrite IH, Q2R_0'. ring.
Qed.
Lemma pabs_nn p h : 0 <= Q2R h -> 0 <= Q2R (pabs p h).
Proof.
  intro H. induction p as [|a p IH]; cbn [pabs]; [rewrite Q2R_0'; lra|]. rewrite Q2R_red, Q2R_plus, Q2R_mult, Q2R_abs'.
  pose proof (Rabs_pos (Q2R a)). pose proof (Rmult_le_pos _ _ H IH). lra.
Qed.
Lemma pabs_ok p h t : Rabs t <= Q2R h -> Rabs (pev p t) <= Q2R (pabs p h).
Proof.
  intro H. induction p as [|a p IH]; cbn [pev pabs]; [rewrite Rabs_R0, Q2R_0'; lra|].
  rewrite Q2R_red, Q2R_plus, Q2R_mult, Q2R_abs'. apply (Rle_trans _ _ _ (Rabs_triang _ _)). apply Rplus_le_compat_l.
  rewrite Rabs_mult. apply Rmult_le_compat; auto using Rabs_pos.
Qed.
Lemma cell_sound p d lo hi x : cell_ok p d lo hi = true -> Q2R lo <= x <= Q2R hi -> Rabs (pev p x) <= Q2R d.
Proof.
  unfold cell_ok. intros H X. apply Qle_bool_iff, Qle_Rle in H. refine (Rle_trans _ _ _ _ H).
  set (c := Qred ((lo + hi) * (1 # 2))).
  replace x with (Q2R c + (x - Q2R c)) by ring. rewrite <- shift_ev. apply pabs_ok.
  unfold c. rewrite !Q2R_red, !Q2R_mult, Q2R_plus, Q2R_minus, Q2R_half. apply Rabs_le. lra.
Qed.
Theorem bounded_sound fuel : forall p d lo hi x, bounded fuel p d lo hi = true -> Q2R lo <= x <= Q2R hi -> Rabs (pev p x) <= Q2R d.
Proof.
  induction fuel as [|f IH]; intros p d lo hi x; cbn [bounded]; destruct (cell_ok p d lo hi) eqn:C; try discriminate;
    try (intros _ X; exact (cell_sound p d lo hi x C X)).
  destruct (bounded f p d lo _) eqn:B; [|discriminate]. intros H X.
  destruct (Rle_dec x (Q2R (Qred ((lo + hi) * (1 # 2))))) as [L|L].
  - exact (IH _ _ _ _ x B (conj (proj1 X) L)).
  - apply (IH _ _ _ _ x H). lra.
Qed.
(** In q = sqrt |zeta|: the fit of zvpbesolc.cpp 76-81 minus |zeta|^(9/2). *)
Definition fit_gap : list Q :=
  [0; 0; 0; 0; 0; 0; 0; 0; 462757 # 1000000; -1 # 1; 0; 0; 130129 # 100000; 0; 0; 0; -159546 # 100000; 0; 0; 0; 119635 # 100000; 0; 0; 0; -36519 # 100000]%Q.
Lemma fit_gap_small : bounded 14 fit_gap (3 # 10000) 0 1 = true.
Proof. vm_compute. reflexivity. Qed.
