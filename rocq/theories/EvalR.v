(** * Energy evaluation over the reals: homomorphisms and derivatives *)
From Coq Require Import Reals QArith Qreals ZArith Arith Lia Lra List Bool String.
From Coquelicot Require Import Coquelicot.
From Verif Require Import Scalar RInst Tables Api CTaylor CtAlg TMath Fps TFam TExp Ad Br Expr Densvars Functionals Eval Sem AdEval.
Import ListNotations.
Local Open Scope outcome_scope.
Local Open Scope R_scope.

Definition omap {A B} (f : A -> B) (o : outcome A) : outcome B :=
  match o with Ok a => Ok (f a) | Die => Die | UB => UB | Dom => Dom end.

Lemma czero_eq n : @czero ROps n = rconst n 0.
Proof. unfold czero. cbn [OofQ ROps]. now rewrite Q2R_0. Qed.

Section HOMEN.
Variables n m : nat.
Variable f : rct n -> rct m.
Hypothesis Hn : (n <= 6)%nat.
Hypothesis Hm : (m <= 6)%nat.
Hypothesis H : hom n m f.
Variable h : handle ROps.

Lemma energy_sum_hom fl d : forall out,
  energy_sum h m (fun g => f (fl g)) (fun i => f (d i)) (f out) = omap f (energy_sum h n fl d out).
Proof.
  unfold energy_sum. induction (h_active h) as [|i l IH]; intro out; cbn [ofold]; [reflexivity|].
  destruct (fp i) as [e| | |]; cbn [obind omap]; try reflexivity.
  pose proof (eval_hom n m f Hn Hm H (h_settings h) d fl e []) as E. cbn [emap map] in E. rewrite E.
  destruct (eval (h_settings h) n d fl [] e); cbn [option_map of_option obind omap]; [|reflexivity].
  rewrite <- (hom_scale n m f H), <- (hom_add n m f H). apply IH.
Qed.
Lemma dv_init_hom : @dv_init ROps m = fun g => f (@dv_init ROps n g).
Proof.
  apply FunctionalExtensionality.functional_extensionality. intro g. unfold dv_init. symmetry. apply (hom_const n m f H).
Qed.
Lemma energy_hom d out : energy h m (fun i => f (d i)) (f out) = omap f (energy h n d out).
Proof.
  unfold energy, densvars. destruct (dv_prog (h_vars h)) as [p|]; [|reflexivity].
  rewrite dv_init_hom, (run_hom n m f Hn Hm H).
  destruct (run (h_settings h) n d (dv_init n) p) as [fl|]; cbn [option_map of_option obind omap]; [|reflexivity].
  apply energy_sum_hom.
Qed.
Lemma energy_hom0 d : energy h m (fun i => f (d i)) (czero m) = omap f (energy h n d (czero n)).
Proof. rewrite !czero_eq, <- (hom_const n m f H). apply energy_hom. Qed.
End HOMEN.

(** ** Derivatives *)
(** No branch boundary is hit and no density is regularised at the given inputs. *)
Definition smooth (h : handle ROps) (x : nat -> R) : Prop :=
  match dv_prog (h_vars h) with
  | Some p =>
      regular_run (h_settings h) x (dv_init 0) p /\
      forall fl, run (K := ROps) (h_settings h) 0 x (dv_init 0) p = Some fl ->
        forall id nm e, In id (h_active h) -> nth_error functionals id = Some (nm, e) ->
          regular (h_settings h) x fl [] e
  | None => True
  end.

Section ADEN.
Variable n : nat.
Hypothesis Hn : (n <= 6)%nat.
Variable h : handle ROps.
Variable d : nat -> rct n.
Variable gd : nat -> pt n -> R.
Hypothesis Hd : forall i, rep n (d i) (gd i).

Lemma ad_energy out : smooth h (fun i => gd i (origin n)) -> energy h n d (czero n) = Ok out ->
  exists g : pt n -> R, rep n out g /\ near n (fun z => energy h 0 (fun i => gd i z) (czero 0) = Ok (g z)).
Proof.
  unfold smooth, energy, densvars. destruct (dv_prog (h_vars h)) as [p|]; [|discriminate]. intros [S1 S2].
  destruct (run (h_settings h) n d (dv_init n) p) as [fl|] eqn:Er; cbn [of_option obind]; [|discriminate].
  destruct (ad_run n Hn (h_settings h) d gd Hd p (dv_init n) (fun _ _ => 0) fl) as (gfl & Rf & Nf).
  - intro f0. unfold dv_init. cbn [OofQ ROps]. rewrite Q2R_0. apply rep_const.
  - replace (fun (f : fld) => 0) with (@dv_init ROps 0); [exact S1|].
    apply FunctionalExtensionality.functional_extensionality. intro. unfold dv_init. cbn. apply Q2R_0.
  - exact Er.
  - assert (E0 : @dv_init ROps 0 = fun _ => 0).
    { apply FunctionalExtensionality.functional_extensionality. intro. unfold dv_init. cbn. apply Q2R_0. }
    pose proof (near_origin _ _ Nf) as N0. cbn beta in N0. rewrite <- E0 in N0. specialize (S2 _ N0).
    intro Es.
    assert (X : forall l out0 g0, (forall id, In id l -> In id (h_active h)) -> rep n out0 g0 ->
      ofold (fun out id => e <- fp id ;; v <- of_option (eval (h_settings h) n d fl [] e) ;;
        Ok (ct_add n out (ct_scale n (h_settings h id) v))) out0 l = Ok out ->
      exists g : pt n -> R, rep n out g /\ near n (fun z =>
        ofold (fun out id => e <- fp id ;; v <- of_option (eval (h_settings h) 0 (fun i => gd i z) (fun f => gfl f z) [] e) ;;
        Ok (ct_add 0 out (ct_scale 0 (h_settings h id) v))) (g0 z : rct 0) l = Ok (g z))).
    { induction l as [|id l IH]; intros out0 g0 Hl R0 E; cbn [ofold] in E |- *.
      - injection E as <-. exists g0. split; [exact R0|]. now apply near_true.
      - unfold fp in E |- *. destruct (nth_error functionals id) as [[nm e]|] eqn:Ef; cbn [obind snd] in E |- *; [|discriminate].
        destruct (eval (h_settings h) n d fl [] e) as [v|] eqn:Ev; cbn [of_option obind] in E; [|discriminate].
        destruct (ad_eval n Hn (h_settings h) d gd Hd fl gfl Rf e [] [] v (Forall2_nil _)
                    (S2 id nm e (Hl id (or_introl eq_refl)) Ef) Ev) as (g & Rg & Ng).
        set (k := h_settings h id : R) in *.
        destruct (IH (ct_add n out0 (@ct_scale ROps n k v)) (fun z => g0 z + k * g z)) as (g1 & R1 & N1).
        + intros; apply Hl; now right.
        + apply rep_add; [exact R0|]. rewrite scale_spec. apply rep_mul; [apply rep_const|exact Rg].
        + exact E.
        + exists g1. split; [exact R1|]. eapply near_imp; [|apply near_and; [exact Ng|exact N1]].
          intros z [Z1 Z2]. cbn [at_ map] in Z1. rewrite Z1. cbn [of_option obind]. exact Z2. }
    destruct (X (h_active h) (czero n) (fun _ => 0)) as (g & Rg & Ng).
    + auto.
    + rewrite czero_eq. apply rep_const.
    + exact Es.
    + exists g. split; [exact Rg|]. eapply near_imp; [|apply near_and; [exact Nf|exact Ng]].
      intros z [Z1 Z2]. rewrite E0, Z1. cbn [of_option obind]. rewrite (czero_eq 0). exact Z2.
Qed.
End ADEN.
