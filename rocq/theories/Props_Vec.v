(** * Property theorems: evaluation of many points (C14) *)
From Coq Require Import Reals QArith ZArith Arith Lia List Bool String.
From Verif Require Import Scalar Tables Api SpecApi ApiProofs ApiProofs2 QInst CTaylor TMath Br Expr Densvars Functionals
  Eval Sem SpecEval EvalSem EvalProps EvalExt Props_Eval RInst CtAlg Phys Mk Props_Dens Props_Dens2.
Import ListNotations.
Local Open Scope outcome_scope.
Local Open Scope Z_scope.

(** ** Specification *)
(** The part of an array seen through a pointer advanced by [b] elements. *)
Definition view {K : Ops} (a : Z -> K) (b : Z) : nat -> K := fun k => a (b + Z.of_nat k).
(** The offsets i * pitch of all points are representable in int. *)
Definition offsets_fit (n dp rp : Z) : Prop :=
  forall i, 0 <= i < n -> -2147483648 <= i * dp <= 2147483647 /\ -2147483648 <= i * rp <= 2147483647.

(** ** Proof *)
Section VEC.
Context {K : Ops}.
Variable junk : forall n : nat, nat -> ct K n.
Lemma store_other (ws : Eval.writes) : forall (res : Z -> K) b z, (forall p, In p (map fst ws) -> z <> b + Z.of_nat p) -> store res b ws z = res z.
Proof.
  unfold store. induction ws as [|[p v] ws IH]; intros res b z H; cbn [fold_left]; [reflexivity|].
  rewrite IH by (intros; apply H; now right). cbn [fst snd]. destruct (Z.eqb_spec z (b + Z.of_nat p)); [|reflexivity]. exfalso. apply (H p); [now left|assumption].
Qed.
Lemma rd_ext (ws : Eval.writes) : forall (buf buf' : nat -> K) p, (forall k, buf k = buf' k) -> rd buf ws p = rd buf' ws p.
Proof. induction ws as [|[q v] ws IH]; intros buf buf' p H; cbn [rd]; [apply H|]. apply IH. intro k. destruct (Nat.eqb k q); auto. Qed.
Lemma store_slot (ws : Eval.writes) : forall (res : Z -> K) b p, store res b ws (b + Z.of_nat p) = rd (view res b) ws p.
Proof.
  unfold store. induction ws as [|[q v] ws IH]; intros res b p; cbn [fold_left rd]; [reflexivity|].
  rewrite IH. apply rd_ext. intro k. unfold view. cbn [fst snd]. destruct (Nat.eqb_spec k q) as [->|Ne]; [now rewrite Z.eqb_refl|].
  destruct (Z.eqb_spec (b + Z.of_nat k) (b + Z.of_nat q)); [lia|reflexivity].
Qed.
Lemma rd_in (ws : Eval.writes) : forall (buf buf' : nat -> K) p, In p (map fst ws) -> rd buf ws p = rd buf' ws p.
Proof. intros. now apply rd_buf. Qed.
Lemma ofold_app {A S} (f : S -> A -> outcome S) l1 : forall l2 s, ofold f s (l1 ++ l2) = obind (ofold f s l1) (fun s' => ofold f s' l2).
Proof. induction l1 as [|a l1 IH]; intros l2 s; cbn [app ofold]; [reflexivity|]. destruct (f s a); cbn [obind]; auto. Qed.

Variable h : handle K.
Variables (density result : Z -> K) (dp rp : Z).
(** What one point gives does not depend on the contents of the output array. *)
Hypothesis Pure : forall buf buf' x, xcfun_eval junk h buf x = xcfun_eval junk h buf' x.
Definition point (i : nat) : outcome Eval.writes := xcfun_eval junk h (fun _ => OofQ 0) (view density (Z.of_nat i * dp)).
Definition fits (n : nat) : Prop := forall i, (i < n)%nat -> andb (int_ok (Z.of_nat i * dp)) (int_ok (Z.of_nat i * rp)) = true.
Lemma vec_S n : fits (S n) ->
  xcfun_eval_vec junk h (Z.of_nat (S n)) density dp result rp =
  (res <- xcfun_eval_vec junk h (Z.of_nat n) density dp result rp ;; ws <- point n ;; Ok (store res (Z.of_nat n * rp) ws)).
Proof.
  intro F. unfold xcfun_eval_vec. rewrite !Nat2Z.id, seq_S, ofold_app. cbn [Nat.add].
  destruct (ofold _ result (seq 0 n)) as [res| | |]; cbn [obind]; try reflexivity. cbn [ofold]. rewrite F by lia.
  unfold point. rewrite (Pure (fun k => res (Z.of_nat n * rp + Z.of_nat k)) (fun _ => OofQ 0)). fold (@view K density (Z.of_nat n * dp)).
  destruct (xcfun_eval junk h _ _); reflexivity.
Qed.
(** All points are defined: the result array. *)
Lemma vec_ok n : fits n -> (forall i, (i < n)%nat -> exists ws, point i = Ok ws) ->
  exists res, xcfun_eval_vec junk h (Z.of_nat n) density dp result rp = Ok res /\
    (forall i ws p, (i < n)%nat -> point i = Ok ws -> In p (map fst ws) ->
       (forall j ws' q, (i < j < n)%nat -> point j = Ok ws' -> In q (map fst ws') -> Z.of_nat i * rp + Z.of_nat p <> Z.of_nat j * rp + Z.of_nat q) ->
       res (Z.of_nat i * rp + Z.of_nat p) = rd (fun _ => OofQ 0) ws p) /\
    (forall z, (forall i ws p, (i < n)%nat -> point i = Ok ws -> In p (map fst ws) -> z <> Z.of_nat i * rp + Z.of_nat p) -> res z = result z).
Proof.
  induction n as [|n IH]; intros F H.
  - exists result. split; [reflexivity|]. split; [intros; lia|reflexivity].
  - destruct IH as (res & E & S1 & S2); [intros i Hi; apply F; lia|intros i Hi; apply H; lia|].
    destruct (H n ltac:(lia)) as [wn En]. rewrite (vec_S n F), E. cbn [obind]. rewrite En. cbn [obind].
    eexists. split; [reflexivity|]. split.
    + intros i ws p Hi Ei Hp Lst. destruct (Nat.eq_dec i n) as [->|Ne].
      * rewrite En in Ei. injection Ei as <-. rewrite store_slot. now apply rd_in.
      * rewrite store_other; [|intros q Hq; apply (Lst n wn q); [lia|exact En|exact Hq]].
        apply S1; try assumption; [lia|]. intros j ws' q Hj Ej Hq. apply (Lst j ws' q); [lia|exact Ej|exact Hq].
    + intros z Hz. rewrite store_other; [|intros q Hq; apply (Hz n wn q); [lia|exact En|exact Hq]].
      apply S2. intros i ws p Hi Ei Hp. apply (Hz i ws p); [lia|exact Ei|exact Hp].
Qed.
Lemma vec_points n : fits n -> forall res, xcfun_eval_vec junk h (Z.of_nat n) density dp result rp = Ok res -> forall i, (i < n)%nat -> exists ws, point i = Ok ws.
Proof.
  induction n as [|n IH]; intros F res E i Hi; [lia|]. rewrite (vec_S n F) in E.
  destruct (xcfun_eval_vec junk h (Z.of_nat n) density dp result rp) as [r| | |] eqn:E0; try discriminate. cbn [obind] in E.
  destruct (point n) as [ws| | |] eqn:En; try discriminate. destruct (Nat.eq_dec i n) as [->|Ne]; [eauto|].
  apply (IH ltac:(intros k Hk; apply F; lia) r eq_refl). lia.
Qed.
Lemma vec_fail n : fits n -> forall i, (i < n)%nat -> (forall j, (j < i)%nat -> exists ws, point j = Ok ws) ->
  (point i = Die -> xcfun_eval_vec junk h (Z.of_nat n) density dp result rp = Die) /\
  (point i = Dom -> xcfun_eval_vec junk h (Z.of_nat n) density dp result rp = Dom).
Proof.
  induction n as [|n IH]; intros F i Hi Hj; [lia|]. rewrite (vec_S n F).
  destruct (Nat.eq_dec i n) as [->|Ne].
  - destruct (vec_ok n) as (res & -> & _); [intros k Hk; apply F; lia|exact Hj|]. cbn [obind]. split; intros ->; reflexivity.
  - destruct (IH ltac:(intros k Hk; apply F; lia) i ltac:(lia) Hj) as [A B]. split; intro C; [rewrite (A C)|rewrite (B C)]; reflexivity.
Qed.
End VEC.

Lemma setup_pure (K : Ops) junk junk' (h h' : handle K) v m o : reachable h -> xcfun_eval_setup h v m o = Ok (h', 0) ->
  forall buf buf' x, xcfun_eval junk h' buf x = xcfun_eval junk' h' buf' x.
Proof.
  intros Hr S buf buf' x. pose proof (reach_setup h h' v m o _ Hr S) as Hr'. destruct (setup_gives_valid h v m o h' S) as (Sv & _).
  apply (C15_evaluation_pure K junk junk' h' h' buf buf' x Hr' Hr' Sv); auto.
Qed.
Lemma fits_fit n dp rp : offsets_fit n dp rp -> fits dp rp (Z.to_nat n).
Proof.
  intros H i Hi. destruct (H (Z.of_nat i)) as [A B]; [lia|]. unfold int_ok. rewrite !andb_true_iff, !Z.leb_le. lia.
Qed.
Lemma neg_count K junk (h : handle K) n density dp result rp : xcfun_eval_vec junk h n density dp result rp = xcfun_eval_vec junk h (Z.of_nat (Z.to_nat n)) density dp result rp.
Proof. unfold xcfun_eval_vec. now rewrite Nat2Z.id. Qed.

(** If the call returns, every point can be evaluated alone, and the array holds at row i
    exactly what the evaluation of point i stores, unless a later row overlaps that cell;
    every cell outside the rows is unchanged. *)
Theorem C14_pointwise :
  forall (K : Ops) junk junk' (h h' : handle K) v m o n density dp result rp buf res, reachable h ->
    xcfun_eval_setup h v m o = Ok (h', 0) -> offsets_fit n dp rp ->
    xcfun_eval_vec junk h' n density dp result rp = Ok res ->
    exists ws : Z -> list (nat * K),
      (forall i, 0 <= i < n -> xcfun_eval junk' h' buf (view density (i * dp)) = Ok (ws i)) /\
      (forall i p, 0 <= i < n -> In p (map fst (ws i)) ->
         (forall j q, i < j < n -> In q (map fst (ws j)) -> i * rp + Z.of_nat p <> j * rp + Z.of_nat q) ->
         res (i * rp + Z.of_nat p) = rd buf (ws i) p) /\
      (forall z, (forall i p, 0 <= i < n -> In p (map fst (ws i)) -> z <> i * rp + Z.of_nat p) -> res z = result z).
Proof.
  intros K junk junk' h h' v m o n density dp result rp buf res Hr S Fi Ev. apply fits_fit in Fi. rewrite neg_count in Ev.
  assert (Pu := setup_pure K junk junk h h' v m o Hr S). assert (Pu' := setup_pure K junk' junk h h' v m o Hr S).
  pose proof (vec_points junk h' density result dp rp Pu _ Fi res Ev) as Ok_.
  destruct (vec_ok junk h' density result dp rp Pu _ Fi Ok_) as (r & Er & A & B). rewrite Ev in Er. injection Er as <-.
  set (ws := fun i => match point junk h' density dp (Z.to_nat i) with Ok w => w | _ => [] end).
  assert (W : forall i, (i < Z.to_nat n)%nat -> point junk h' density dp i = Ok (ws (Z.of_nat i))).
  { intros i Hi. unfold ws. rewrite Nat2Z.id. destruct (Ok_ i Hi) as [w Ew]. rewrite Ew. reflexivity. }
  exists ws. split; [|split].
  - intros i Hi. specialize (W (Z.to_nat i) ltac:(lia)). rewrite Z2Nat.id in W by lia. unfold point in W. rewrite Z2Nat.id in W by lia.
    rewrite (Pu' buf (fun _ => OofQ 0)). exact W.
  - intros i p Hi Hp Lst. specialize (A (Z.to_nat i) (ws i) p ltac:(lia)). rewrite Z2Nat.id in A by lia. rewrite A; [now apply rd_buf| |exact Hp|].
    + rewrite (W (Z.to_nat i)) by lia. now rewrite Z2Nat.id by lia.
    + intros j w q Hj Ej Hq. rewrite W in Ej by lia. injection Ej as <-. apply Lst; [lia|exact Hq].
  - intros z Hz. apply B. intros i w p Hi Ei Hp. rewrite W in Ei by exact Hi. injection Ei as <-. apply Hz; [lia|exact Hp].
Qed.
Print Assumptions C14_pointwise.

(** Rows at least as far apart as the output is long do not overlap, whatever the sign of
    the pitch; then the condition on later rows is void. *)
Theorem C14_disjoint_rows :
  forall (K : Ops) junk junk' (h h' : handle K) v m o n density dp result rp buf res, reachable h ->
    xcfun_eval_setup h v m o = Ok (h', 0) -> offsets_fit n dp rp ->
    xcfun_eval_vec junk h' n density dp result rp = Ok res ->
    (forall i ws p, 0 <= i < n -> xcfun_eval junk' h' buf (view density (i * dp)) = Ok ws -> In p (map fst ws) -> Z.of_nat p < Z.abs rp) ->
    forall i, 0 <= i < n -> exists ws, xcfun_eval junk' h' buf (view density (i * dp)) = Ok ws /\
      forall p, In p (map fst ws) -> res (i * rp + Z.of_nat p) = rd buf ws p.
Proof.
  intros K junk junk' h h' v m o n density dp result rp buf res Hr S Fi Ev Sp.
  destruct (C14_pointwise K junk junk' h h' v m o n density dp result rp buf res Hr S Fi Ev) as (ws & W & A & _).
  intros i Hi. exists (ws i). split; [exact (W i Hi)|]. intros p Hp. apply A; [exact Hi|exact Hp|].
  intros j q Hj Hq. pose proof (Sp i (ws i) p Hi (W i Hi) Hp). pose proof (Sp j (ws j) q ltac:(lia) (W j ltac:(lia)) Hq).
  intro E. assert (E2 : (j - i) * rp = Z.of_nat p - Z.of_nat q) by lia. assert (Z.abs ((j - i) * rp) < Z.abs rp) by lia.
  rewrite Z.abs_mul in *. nia.
Qed.
Print Assumptions C14_disjoint_rows.

(** The call returns as soon as every point can be evaluated; otherwise it ends the way the
    first point that cannot be evaluated does. *)
Theorem C14_outcome :
  forall (K : Ops) junk junk' (h h' : handle K) v m o n density dp result rp buf, reachable h ->
    xcfun_eval_setup h v m o = Ok (h', 0) -> offsets_fit n dp rp ->
    let pt i := xcfun_eval junk' h' buf (view density (i * dp)) in
    ((forall i, 0 <= i < n -> exists ws, pt i = Ok ws) <-> exists res, xcfun_eval_vec junk h' n density dp result rp = Ok res) /\
    (forall i, 0 <= i < n -> (forall j, 0 <= j < i -> exists ws, pt j = Ok ws) ->
       (pt i = Die -> xcfun_eval_vec junk h' n density dp result rp = Die) /\
       (pt i = Dom -> xcfun_eval_vec junk h' n density dp result rp = Dom)).
Proof.
  intros K junk junk' h h' v m o n density dp result rp buf Hr S Fi pt. apply fits_fit in Fi. rewrite neg_count.
  assert (Pu := setup_pure K junk junk h h' v m o Hr S). assert (Pu' := setup_pure K junk' junk h h' v m o Hr S).
  assert (Pt : forall i, 0 <= i -> pt i = point junk h' density dp (Z.to_nat i)).
  { intros i Hi. unfold pt, point. rewrite Z2Nat.id by lia. apply Pu'. }
  split; [split|].
  - intro H. destruct (vec_ok junk h' density result dp rp Pu _ Fi) as (r & Er & _); [|eauto].
    intros i Hi. destruct (H (Z.of_nat i) ltac:(lia)) as [w Ew]. rewrite Pt, Nat2Z.id in Ew by lia. eauto.
  - intros [res Er] i Hi. rewrite Pt by lia. apply (vec_points junk h' density result dp rp Pu _ Fi res Er). lia.
  - intros i Hi Hj. rewrite Pt by lia. apply (vec_fail junk h' density result dp rp Pu _ Fi); [lia|].
    intros j Lj. destruct (Hj (Z.of_nat j) ltac:(lia)) as [w Ew]. rewrite Pt, Nat2Z.id in Ew by lia. eauto.
Qed.
Print Assumptions C14_outcome.

(** ** Concrete cases *)
Definition dens_ex (z : Z) : T ROps := nth (Z.to_nat (z mod 5)) (encode XC_A_B_GAA_GAB_GBB D_ex) 0%R.
Lemma dens_ex_point i : describes XC_A_B_GAA_GAB_GBB (view (K := ROps) dens_ex (i * 5)) D_ex.
Proof.
  split; [left; cbn; tauto|]. intros k Hk. change (List.length (encode XC_A_B_GAA_GAB_GBB D_ex)) with 5%nat in Hk.
  unfold view, dens_ex. replace (i * 5 + Z.of_nat k) with (Z.of_nat k + i * 5) by lia. rewrite Z.mod_add by lia.
  rewrite Z.mod_small by lia. now rewrite Nat2Z.id.
Qed.
Lemma vec_handle : exists (h h' : handle ROps), reachable h /\ xcfun_eval_setup h XC_A_B_GAA_GAB_GBB XC_PARTIAL_DERIVATIVES 2 = Ok (h', 0) /\
  forall buf i, exists ws, xcfun_eval (fun n _ => @ct_const ROps n 0%R) h' buf (view (K := ROps) dens_ex (i * 5)) = Ok ws.
Proof.
  destruct mix_handle as (h & Hr & A & Mu & Ac).
  assert (S : exists h1, xcfun_eval_setup h XC_A_B_GAA_GAB_GBB XC_PARTIAL_DERIVATIVES 2 = Ok (h1, 0)) by (eexists; apply accepts_ok; [exact Hr|rewrite A; vm_compute; reflexivity]).
  destruct S as [h' S]. exists h, h'. split; [exact Hr|]. split; [exact S|]. intros buf i.
  exact (C33_partial_defined (fun n _ => rconst n 0%R) h h' _ 2 D_ex buf _ Hr S ltac:(lia) Mu Ac D_ex_above (dens_ex_point i)).
Qed.
(** Seven points, rows of 21 numbers stored backwards 24 apart. *)
Example C14_example : exists (h h' : handle ROps) res, reachable h /\ xcfun_eval_setup h XC_A_B_GAA_GAB_GBB XC_PARTIAL_DERIVATIVES 2 = Ok (h', 0) /\
  offsets_fit 7 5 (-24) /\ xcfun_eval_vec (fun n _ => @ct_const ROps n 0%R) h' 7 dens_ex 5 (fun _ => 0%R) (-24) = Ok res.
Proof.
  destruct vec_handle as (h & h' & Hr & S & P). exists h, h'.
  assert (F : offsets_fit 7 5 (-24)) by (intros i Hi; lia).
  destruct (proj1 (proj1 (C14_outcome ROps (fun n _ => @ct_const ROps n 0%R) (fun n _ => @ct_const ROps n 0%R) h h' _ _ _ 7 dens_ex 5 (fun _ => 0%R) (-24) (fun _ => 0%R) Hr S F))) as [res E].
  - intros i _. apply P.
  - exists res. auto.
Qed.
(** "Any pitches" stops at the range of int: i * pitch is computed in int, and for three
    points that are each fine a pitch of 2^30 makes the call undefined. *)
Theorem C14_offset_overflow_refuted :
  exists (h h' : handle ROps) density, reachable h /\ xcfun_eval_setup h XC_A_B_GAA_GAB_GBB XC_PARTIAL_DERIVATIVES 2 = Ok (h', 0) /\
    (forall buf i, exists ws, xcfun_eval (fun n _ => @ct_const ROps n 0%R) h' buf (view density (i * 5)) = Ok ws) /\
    xcfun_eval_vec (fun n _ => @ct_const ROps n 0%R) h' 3 density 5 (fun _ => 0%R) (2 ^ 30) = UB.
Proof.
  destruct vec_handle as (h & h' & Hr & S & P). exists h, h', dens_ex. split; [exact Hr|]. split; [exact S|]. split; [exact P|].
  assert (F : offsets_fit 2 5 (2 ^ 30)) by (intros i Hi; assert (i = 0 \/ i = 1) as [-> | ->] by lia; lia).
  destruct (proj1 (proj1 (C14_outcome ROps (fun n _ => @ct_const ROps n 0%R) (fun n _ => @ct_const ROps n 0%R) h h' _ _ _ 2 dens_ex 5 (fun _ => 0%R) (2 ^ 30) (fun _ => 0%R) Hr S F))) as [res E].
  { intros i _. apply P. }
  unfold xcfun_eval_vec in *. change (seq 0 (Z.to_nat 3)) with (seq 0 (Z.to_nat 2) ++ [2%nat]). rewrite ofold_app, E. reflexivity.
Qed.
Print Assumptions C14_offset_overflow_refuted.
