(** * Domain analysis with proof obligations
    The analysis of Dom.v extended to expressions it cannot settle by itself: where an
    interval is too coarse it records an obligation (a real inequality about a subexpression,
    under the bindings and branch conditions that lead to it) and goes on.  If all recorded
    obligations hold, the expression is defined and its value is [tv] of Value.v. *)
From Coq Require Import Reals QArith Qreals ZArith Arith Lia Lra Psatz List Bool String.
From Coquelicot Require Import Coquelicot.
From Verif Require Import Scalar RInst CTaylor CtAlg TMath Fps TFam TExp Ad Br Expr Sem AdEval RSem Itv Dom Value BrReal BrInv.
Import ListNotations.
Local Open Scope R_scope.

(** A step into an expression: the body of a binding, or a branch of a comparison. *)
Inductive step := BLet (x : string) (e : expr) | BThen (a b : expr) | BElse (a b : expr).
(** What is required of the value: not zero, positive, in an interval, or anything unsupported. *)
Inductive okind := KNz | KPos | KIn (i : itv) | KBad.
Record oblig := Ob { ob_path : list step; ob_kind : okind; ob_exp : expr }.
Definition under (s : step) (o : oblig) : oblig := Ob (s :: ob_path o) (ob_kind o) (ob_exp o).
Definition rNN := I (Some (0%Q, false)) None.
Definition rP := I (Some (0%Q, true)) None.

(** The Becke-Roussel solver always returns a positive number (BrReal.v). *)
Lemma ct_BR_pos (z : R) : exists x, @ct_BR ROps 0 z = Some x /\ 0 < x.
Proof.
  destruct (BR_taylor_inverse 3 z ltac:(lia)) as (x & t & _ & [Px _] & Et & T0 & _). exists x. split; [|exact Px].
  rewrite ct_BR_eq. cbn [c0 Nat.max]. rewrite Et. cbn [obnd]. rewrite <- T0. reflexivity.
Qed.

Section O.
Variable st : nat -> T ROps.
Variable pa : nat -> itv.
Hypothesis Hpa : forall p, gam (pa p) (st p).
Variable inp : nat -> R.
Variable ia : nat -> itv.
Hypothesis Hia : forall i, gam (ia i) (inp i).
Variable fl : fld -> R.
Variable fa : fld -> itv.
Hypothesis Hfa : forall f, gam (fa f) (fl f).
Variable facts : list (expr * itv).
Hypothesis Hfacts : forall e i, In (e, i) facts -> forall r, exists v, reval st inp fl r e = Some v /\ gam i v.
(** Ranges of bound variables, by name, to be proved. *)
Variable hints : list (string * itv).
Notation V := (tv st inp fl).
Notation S' := (sabs pa).

Definition kden (k : okind) (v : R) : Prop := match k with KNz => v <> 0 | KPos => 0 < v | KIn i => gam i v | KBad => False end.
Fixpoint den (r : list (string * R)) (p : list step) (k : okind) (e : expr) : Prop :=
  match p with
  | [] => kden k (V r e)
  | BLet x e1 :: p => den ((x, V r e1) :: r) p k e
  | BThen a b :: p => V r a < V r b -> den r p k e
  | BElse a b :: p => ~ V r a < V r b -> den r p k e
  end.
Definition oden (r : list (string * R)) (o : oblig) : Prop := den r (ob_path o) (ob_kind o) (ob_exp o).
Lemma oden_under r s o : oden r (under s o) <-> match s with
  | BLet x e1 => oden ((x, V r e1) :: r) o
  | BThen a b => V r a < V r b -> oden r o
  | BElse a b => ~ V r a < V r b -> oden r o end.
Proof. destruct o, s; reflexivity. Qed.

Definition res : Type := itv * list oblig.
Definition bad (e : expr) : res := (top, [Ob [] KBad e]).
Definition r1 (a : res) (f : itv -> itv) : res := (f (fst a), snd a).
Definition r2 (a b : res) (f : itv -> itv -> itv) : res := (f (fst a) (fst b), snd a ++ snd b).
(** With a scalar. *)
Definition rs (e : expr) (s : sexp) (a : res) (f : itv -> itv -> itv) : res := match S' s with Some k => (f (fst a) k, snd a) | None => bad e end.
Definition rdivo (i j : itv) (b : expr) : res := match idiv i j with Some q => (q, []) | None => (top, [Ob [] KNz b]) end.
Definition rpowo (i j : itv) (a : expr) : res := match ipow i j with Some q => (q, []) | None => (rP, [Ob [] KPos a]) end.
Definition and_then (a : res) (b : res) : res := (fst b, snd a ++ snd b).
(** Hints are about computed values, not about initialisations with a constant. *)
Definition hinted (x : string) (e : expr) : option itv := match e with EConst _ => None | _ => ilook x hints end.
Fixpoint obl (ra : list (string * itv)) (e : expr) : res :=
  match e with
  | EIn i => (ia i, [])
  | EFld f => (fa f, [])
  | EVar x => match ilook x ra with Some i => (i, []) | None => bad e end
  | EConst s => match S' s with Some i => (i, []) | None => bad e end
  | ELet x e1 e2 =>
      match find_fact e facts with
      | Some i => (i, [])
      | None =>
        let a := obl ra e1 in
        let '(i, h) := match hinted x e1 with Some j => (j, [Ob [] (KIn j) e1]) | None => (fst a, []) end in
        let b := obl ((x, i) :: ra) e2 in
        (fst b, snd a ++ h ++ map (under (BLet x e1)) (snd b))
      end
  | ENeg a => r1 (obl ra a) ineg_
  | EAdd a b => r2 (obl ra a) (obl ra b) iadd
  | ESub a b => r2 (obl ra a) (obl ra b) isub
  | EMul a b | EMulTo a b => r2 (obl ra a) (obl ra b) (fun x y => if same_atom a b then isq x else imul x y)
  | EDiv a b => let p := obl ra a in let q := obl ra b in and_then (fst p, snd p ++ snd q) (rdivo (fst p) (fst q) b)
  | EAddK a s => rs e s (obl ra a) iadd
  | ESubK a s => rs e s (obl ra a) isub
  | EKSub s a => rs e s (obl ra a) (fun x k => isub k x)
  | EScale s a => rs e s (obl ra a) (fun x k => imul k x)
  | EKDiv s a => match S' s with Some k => let p := obl ra a in and_then p (rdivo k (fst p) a) | None => bad e end
  | EDivK a s => match S' s with Some k => let p := obl ra a in match idiv (fst p) k with Some q => (q, snd p) | None => bad e end | None => bad e end
  | EPow a s => match S' s with Some k => let p := obl ra a in and_then p (rpowo (fst p) k a) | None => bad e end
  | EPowI a z => let p := obl ra a in match ipowi (fst p) z with Some q => (q, snd p) | None => (rP, snd p ++ [Ob [] KPos a]) end
  | EFun f a => let p := obl ra a in match ifn f (fst p) with Some q => (q, snd p)
      | None => match f with Fsqrt => (rNN, snd p ++ [Ob [] KPos a]) | Flog => (top, snd p ++ [Ob [] KPos a]) | Fcbrt => (rP, snd p ++ [Ob [] KPos a]) | _ => bad e end end
  | EAbs a => r1 (obl ra a) iabs
  | EMax a b => r2 (obl ra a) (obl ra b) imax
  | EReg a => r1 (obl ra a) (fun x => imax x (I (Some (TINY, false)) (Some (- TINY, false)%Q)))
  | EBR a => (rP, snd (obl ra a))
  | EIf a b e1 e2 =>
      let p := obl ra a in let q := obl ra b in
      let u := obl ra e1 in let v := obl ra e2 in
      if ipos (isub (fst q) (fst p)) then (fst u, snd p ++ snd q ++ snd u)
      else if inn (isub (fst p) (fst q)) then (fst v, snd p ++ snd q ++ snd v)
      else (ijoin (fst u) (fst v), snd p ++ snd q ++ map (under (BThen a b)) (snd u) ++ map (under (BElse a b)) (snd v))
  end.

Definition good (r : list (string * R)) (l : list oblig) : Prop := List.Forall (oden r) l.
Lemma good_app r l l' : good r (l ++ l') <-> good r l /\ good r l'.
Proof. unfold good. apply Forall_app. Qed.
Lemma good_let r x e l : good r (map (under (BLet x e)) l) -> good ((x, V r e) :: r) l.
Proof. unfold good. rewrite !List.Forall_forall. intros H o Ho. apply (in_map (under (BLet x e))) in Ho. apply H in Ho. exact (proj1 (oden_under _ _ _) Ho). Qed.
Lemma good_then r a b l : good r (map (under (BThen a b)) l) -> V r a < V r b -> good r l.
Proof. unfold good. rewrite !List.Forall_forall. intros H L o Ho. apply (in_map (under (BThen a b))) in Ho. apply H in Ho. exact (proj1 (oden_under _ _ _) Ho L). Qed.
Lemma good_else r a b l : good r (map (under (BElse a b)) l) -> ~ V r a < V r b -> good r l.
Proof. unfold good. rewrite !List.Forall_forall. intros H L o Ho. apply (in_map (under (BElse a b))) in Ho. apply H in Ho. exact (proj1 (oden_under _ _ _) Ho L). Qed.
Definition meets (r : list (string * R)) (e : expr) (i : itv) : Prop := reval st inp fl r e = Some (V r e) /\ gam i (V r e).
Lemma meets_mk r e v i : reval st inp fl r e = Some v -> gam i v -> meets r e i.
Proof. intros E G. pose proof (tv_ok st inp fl e r v E) as X. subst v. split; assumption. Qed.
Lemma bad_no r e i : bad e = i -> good r (snd i) -> False.
Proof. intros <- H. apply Forall_inv in H. exact H. Qed.
Ltac app H := apply good_app in H; let H1 := fresh H in destruct H as [H H1].
Ltac sc H := match type of H with good _ (snd match S' ?s with _ => _ end) => let E := fresh "Es" in destruct (S' s) eqn:E; [|exfalso; eapply bad_no; [reflexivity|exact H]] end.
Lemma rdivo_ok r i j a b (x : R) : gam i x -> gam j (V r b) -> good r (snd (rdivo i j b)) -> exists v, rdiv x (V r b) = Some v /\ (a = fst (rdivo i j b) -> gam a v).
Proof.
  intros A B H. unfold rdivo in *. destruct (idiv i j) as [q|] eqn:E.
  - destruct (idiv_ok _ _ _ _ _ E A B) as (v & Ev & G). exists v. split; [exact Ev|]. now intros ->.
  - cbn [fst snd] in *. apply Forall_inv in H. cbn in H. unfold rdiv. destruct (Req_EM_T _ 0); [contradiction|]. eexists. split; [reflexivity|]. intros ->. apply gam_top.
Qed.
Lemma gam_rP v : 0 < v -> gam rP v.
Proof. intro H. split; [|exact Logic.I]. cbn [rP lo]. apply gb_mk. now rewrite Q2R_0. Qed.
Lemma gam_rNN v : 0 <= v -> gam rNN v.
Proof. intro H. split; [|exact Logic.I]. cbn [rNN lo]. apply gb_mk. now rewrite Q2R_0. Qed.
Theorem obl_ok : forall e ra r, genv ra r -> good r (snd (obl ra e)) -> meets r e (fst (obl ra e)).
Proof.
  induction e; intros ra r Hr H.
  - apply (meets_mk r (EIn i) (inp i)); [reflexivity|apply Hia].
  - apply (meets_mk r (EFld f) (fl f)); [reflexivity|apply Hfa].
  - cbn [obl] in *. destruct (ilook x ra) as [i|] eqn:E; [|exfalso; eapply bad_no; [reflexivity|exact H]]. destruct (ilook_ok _ _ _ _ Hr E) as (v & Ev & G). now apply (meets_mk r (EVar x) v).
  - cbn [obl] in *. sc H. destruct (sabs_ok st pa Hpa _ _ Es) as (v & Ev & G). now apply (meets_mk r (EConst s) v).
  - cbn [obl] in *. destruct (find_fact (ELet x e1 e2) facts) as [j|] eqn:F.
    { apply find_fact_in in F. destruct (Hfacts _ _ F r) as (v & E & G). now apply (meets_mk _ _ v). }
    assert (W : forall i h, (h = [] /\ i = fst (obl ra e1) \/ h = [Ob [] (KIn i) e1]) -> good r (snd (obl ra e1) ++ h ++ map (under (BLet x e1)) (snd (obl ((x, i) :: ra) e2))) -> meets r (ELet x e1 e2) (fst (obl ((x, i) :: ra) e2))).
    { intros i h Hh G. app G. app G0. apply good_let in G1. destruct (IHe1 ra r Hr G) as [E1 G2].
      assert (Gi : gam i (V r e1)) by (destruct Hh as [[-> ->] | ->]; [exact G2|apply Forall_inv in G0; exact G0]).
      destruct (IHe2 ((x, i) :: ra) ((x, V r e1) :: r)) as [E2 G3]; [constructor; [split; [reflexivity|exact Gi]|exact Hr]|exact G1|].
      split; [|exact G3]. cbn [reval]. rewrite E1. cbn [obnd]. exact E2. }
    destruct (hinted x e1) as [j|]; [apply (W j [Ob [] (KIn j) e1]); [now right|exact H]|apply (W (fst (obl ra e1)) []); [now left|exact H]].
  - cbn [obl r1 fst snd] in *. destruct (IHe ra r Hr H) as [E G]. eapply meets_mk; [cbn [reval]; rewrite E; reflexivity|]. now apply ineg_ok'.
  - cbn [obl r2 fst snd] in *. app H. destruct (IHe1 ra r Hr H) as [E G], (IHe2 ra r Hr H0) as [E' G']. eapply meets_mk; [cbn [reval]; rewrite E, E'; reflexivity|]. now apply iadd_ok.
  - cbn [obl r2 fst snd] in *. app H. destruct (IHe1 ra r Hr H) as [E G], (IHe2 ra r Hr H0) as [E' G']. eapply meets_mk; [cbn [reval]; rewrite E, E'; reflexivity|]. now apply isub_ok.
  - cbn [obl r2 fst snd] in *. app H. destruct (IHe1 ra r Hr H) as [E G], (IHe2 ra r Hr H0) as [E' G']. eapply meets_mk; [cbn [reval]; rewrite E, E'; reflexivity|].
    destruct (same_atom e1 e2) eqn:Sa; [pose proof (same_atom_ok st inp fl _ _ _ _ _ Sa E E') as <-; now apply isq_ok|now apply imul_ok].
  - cbn [obl r2 fst snd] in *. app H. destruct (IHe1 ra r Hr H) as [E G], (IHe2 ra r Hr H0) as [E' G']. eapply meets_mk; [cbn [reval]; rewrite E, E'; reflexivity|].
    destruct (same_atom e1 e2) eqn:Sa; [pose proof (same_atom_ok st inp fl _ _ _ _ _ Sa E E') as <-; now apply isq_ok|now apply imul_ok].
  - cbn [obl and_then fst snd] in *. app H. app H. destruct (IHe1 ra r Hr H) as [E G], (IHe2 ra r Hr H1) as [E' G'].
    destruct (rdivo_ok r _ _ (fst (rdivo (fst (obl ra e1)) (fst (obl ra e2)) e2)) e2 _ G G' H0) as (v & Ev & Gv). eapply meets_mk; [cbn [reval]; rewrite E, E'; exact Ev|auto].
  - cbn [obl] in *. unfold rs in *. sc H. cbn [fst snd] in *. destruct (IHe ra r Hr H) as [E G]. destruct (sabs_ok st pa Hpa _ _ Es) as (k & Ek & Gk). eapply meets_mk; [cbn [reval]; rewrite E, Ek; reflexivity|]. now apply iadd_ok.
  - cbn [obl] in *. unfold rs in *. sc H. cbn [fst snd] in *. destruct (IHe ra r Hr H) as [E G]. destruct (sabs_ok st pa Hpa _ _ Es) as (k & Ek & Gk). eapply meets_mk; [cbn [reval]; rewrite E, Ek; reflexivity|]. now apply isub_ok.
  - cbn [obl] in *. unfold rs in *. sc H. cbn [fst snd] in *. destruct (IHe ra r Hr H) as [E G]. destruct (sabs_ok st pa Hpa _ _ Es) as (k & Ek & Gk). eapply meets_mk; [cbn [reval]; rewrite E, Ek; reflexivity|]. now apply isub_ok.
  - cbn [obl] in *. unfold rs in *. sc H. cbn [fst snd] in *. destruct (IHe ra r Hr H) as [E G]. destruct (sabs_ok st pa Hpa _ _ Es) as (k & Ek & Gk). eapply meets_mk; [cbn [reval]; rewrite E, Ek; reflexivity|]. now apply imul_ok.
  - cbn [obl] in *. sc H. cbn [and_then fst snd] in *. app H. destruct (IHe ra r Hr H) as [E G]. destruct (sabs_ok st pa Hpa _ _ Es) as (k & Ek & Gk).
    destruct (rdivo_ok r _ _ (fst (rdivo i (fst (obl ra e)) e)) e _ Gk G H0) as (v & Ev & Gv). eapply meets_mk; [cbn [reval]; rewrite Ek, E; exact Ev|auto].
  - cbn [obl] in *. sc H. destruct (idiv (fst (obl ra e)) i) as [q|] eqn:Q; [|exfalso; eapply bad_no; [reflexivity|exact H]]. cbn [fst snd] in *. destruct (IHe ra r Hr H) as [E G]. destruct (sabs_ok st pa Hpa _ _ Es) as (k & Ek & Gk).
    destruct (idiv_ok _ _ _ _ _ Q G Gk) as (v & Ev & Gv). eapply meets_mk; [cbn [reval]; rewrite E, Ek; exact Ev|exact Gv].
  - cbn [obl] in *. sc H. cbn [and_then fst snd] in *. app H. destruct (IHe ra r Hr H) as [E G]. destruct (sabs_ok st pa Hpa _ _ Es) as (k & Ek & Gk).
    unfold rpowo in *. destruct (ipow (fst (obl ra e)) i) as [q|] eqn:Q.
    + destruct (ipow_ok _ _ _ _ _ Q G Gk) as [P Gv]. eapply meets_mk; [cbn [reval]; rewrite E, Ek; cbn [obnd]; unfold rpow; destruct (Rlt_dec 0 _); [reflexivity|lra]|exact Gv].
    + cbn [fst snd] in *. apply Forall_inv in H0. cbn in H0. eapply meets_mk; [cbn [reval]; rewrite E, Ek; cbn [obnd]; unfold rpow; destruct (Rlt_dec 0 _); [reflexivity|lra]|apply gam_rP, exp_pos].
  - cbn [obl] in *. destruct (ipowi (fst (obl ra e)) z) as [q|] eqn:Q; cbn [fst snd] in *.
    + destruct (IHe ra r Hr H) as [E G]. destruct (ipowi_ok _ _ _ _ Q G) as (v & Ev & Gv). eapply meets_mk; [cbn [reval]; rewrite E; exact Ev|exact Gv].
    + app H. destruct (IHe ra r Hr H) as [E G]. apply Forall_inv in H0. cbn in H0. destruct z as [|p|p]; try discriminate Q.
      eapply meets_mk; [cbn [reval]; rewrite E; cbn [obnd rpowi]; unfold rpow; destruct (Rlt_dec 0 _); [reflexivity|lra]|apply gam_rP, exp_pos].
  - cbn [obl] in *. destruct (ifn f (fst (obl ra e))) as [q|] eqn:Q.
    + cbn [fst snd] in *. destruct (IHe ra r Hr H) as [E G]. destruct (ifn_ok _ _ _ _ Q G) as (v & Ev & Gv). eapply meets_mk; [cbn [reval]; rewrite E; exact Ev|exact Gv].
    + destruct f; try (exfalso; eapply bad_no; [reflexivity|exact H]); cbn [fst snd] in *; app H; destruct (IHe ra r Hr H) as [E G]; apply Forall_inv in H0; cbn in H0.
      * eapply meets_mk; [cbn [reval]; rewrite E; cbn [obnd rfn]; destruct (Rlt_dec 0 _); [reflexivity|lra]|apply gam_top].
      * eapply meets_mk; [cbn [reval]; rewrite E; cbn [obnd rfn]; destruct (Rlt_dec 0 _); [reflexivity|lra]|apply gam_rNN, sqrt_pos].
      * eapply meets_mk; [cbn [reval]; rewrite E; cbn [obnd rfn]; unfold rpow; destruct (Rlt_dec 0 _); [reflexivity|lra]|apply gam_rP, exp_pos].
  - cbn [obl r1 fst snd] in *. destruct (IHe ra r Hr H) as [E G]. eapply meets_mk; [cbn [reval]; rewrite E; reflexivity|]. now apply iabs_ok.
  - cbn [obl r2 fst snd] in *. app H. destruct (IHe1 ra r Hr H) as [E G], (IHe2 ra r Hr H0) as [E' G']. eapply meets_mk; [cbn [reval]; rewrite E, E'; reflexivity|]. now apply imax_ok.
  - cbn [obl r1 fst snd] in *. destruct (IHe ra r Hr H) as [E G]. eapply meets_mk; [cbn [reval]; rewrite E; reflexivity|]. apply imax_ok; [exact G|]. split; cbn [lo up]; apply gb_mk; rewrite ?Q2R_opp; lra.
  - cbn [obl fst snd] in *. destruct (IHe ra r Hr H) as [E G]. destruct (ct_BR_pos (V r e)) as (b & Eb & Pb). eapply meets_mk; [cbn [reval]; rewrite E; exact Eb|apply gam_rP, Pb].
  - cbn [obl] in *. destruct (ipos _) eqn:P1; [|destruct (inn _) eqn:P2]; cbn [fst snd] in *.
    + app H. app H0. destruct (IHe1 ra r Hr H) as [E G], (IHe2 ra r Hr H0) as [E' G'], (IHe3 ra r Hr H1) as [E3 G3].
      pose proof (ipos_ok _ _ P1 (isub_ok _ _ _ _ G' G)). eapply meets_mk; [cbn [reval]; rewrite E, E'; cbn [obnd]; destruct (Rlt_dec _ _); [exact E3|exfalso; lra]|exact G3].
    + app H. app H0. destruct (IHe1 ra r Hr H) as [E G], (IHe2 ra r Hr H0) as [E' G'], (IHe4 ra r Hr H1) as [E3 G3].
      pose proof (inn_ok _ _ P2 (isub_ok _ _ _ _ G G')). eapply meets_mk; [cbn [reval]; rewrite E, E'; cbn [obnd]; destruct (Rlt_dec _ _); [exfalso; lra|exact E3]|exact G3].
    + app H. app H0. app H1. destruct (IHe1 ra r Hr H) as [E G], (IHe2 ra r Hr H0) as [E' G'].
      destruct (Rlt_dec (V r e1) (V r e2)) as [L|L].
      * destruct (IHe3 ra r Hr (good_then _ _ _ _ H1 L)) as [E3 G3]. eapply meets_mk; [cbn [reval]; rewrite E, E'; cbn [obnd]; destruct (Rlt_dec _ _); [exact E3|contradiction]|now apply ijoin_l].
      * destruct (IHe4 ra r Hr (good_else _ _ _ _ H2 L)) as [E3 G3]. eapply meets_mk; [cbn [reval]; rewrite E, E'; cbn [obnd]; destruct (Rlt_dec _ _); [contradiction|exact E3]|now apply ijoin_r].
Qed.
End O.

(** ** Working through obligations *)
(** [v] is the value of the binding named [y]. *)
Definition bound (st : nat -> T ROps) (x : nat -> R) (fl : fld -> R) (r : list (string * R)) (y : string) (e : expr) (v : R) : Prop := v = tv st x fl r e.
Lemma den_let st x fl r y e1 p k e : (forall v, bound st x fl r y e1 v -> den st x fl ((y, v) :: r) p k e) -> den st x fl r (BLet y e1 :: p) k e.
Proof. intro H. exact (H _ eq_refl). Qed.
Lemma den_then st x fl r a b p k e : (tv st x fl r a < tv st x fl r b -> den st x fl r p k e) -> den st x fl r (BThen a b :: p) k e.
Proof. intro H. exact H. Qed.
Lemma den_else st x fl r a b p k e : (~ tv st x fl r a < tv st x fl r b -> den st x fl r p k e) -> den st x fl r (BElse a b :: p) k e.
Proof. intro H. exact H. Qed.
Ltac rd l := eval cbv -[Rplus Rmult Ropp Rminus Rdiv Rinv Rpower ln exp sqrt PI IZR sqas erfR cbrtR arcsinh atan Rlt_dec Rabs Rmax pow Q2R not Rlt Rle gam] in l.
Ltac rdg := match goal with |- ?l => let l' := rd l in change l' end.
Ltac rdh H := match type of H with ?l => let l' := rd l in change l' in H end.
(** Down a path to the inequality. *)
Ltac pth := unfold oden; cbn [ob_path ob_kind ob_exp]; repeat match goal with
  | |- den _ _ _ _ (BLet _ _ :: _) _ _ => apply den_let; let v := fresh "v" in let E := fresh "E" in intros v E
  | |- den _ _ _ _ (BThen _ _ :: _) _ _ => apply den_then; let E := fresh "L" in intro E; rdh E
  | |- den _ _ _ _ (BElse _ _ :: _) _ _ => apply den_else; let E := fresh "L" in intro E; rdh E
  | |- den _ _ _ _ [] _ _ => rdg
  end.
(** The value bound to a name, as an equation. *)
Ltac rx y := match goal with E : bound _ _ _ _ y _ ?v |- _ => rdh E end.
(** All obligations of an expression. *)
Ltac obg := match goal with |- good _ _ _ _ ?l => let l' := eval vm_compute in l in change l with l' end;
  unfold good; repeat match goal with |- List.Forall _ (_ :: _) => apply List.Forall_cons | |- List.Forall _ [] => apply List.Forall_nil end; pth.
