(** * Property theorems: named combinations have their published composition (C36) *)
From Coq Require Import Reals QArith Qreals ZArith Arith Lia Lra List Bool String.
From Coquelicot Require Import Coquelicot.
From Verif Require Import Scalar RInst Tables Api SpecApi ApiProofs ApiProofs2 CTaylor CtAlg TMath Br Expr Densvars Functionals
  Eval SpecEval EvalProps Taint EvalExt Props_Eval Sem RSem EnergyR EvalR EvalReal EvalApi Phys Mk Props_Deriv Props_Dens Props_Dens2 Props_Scale Value.
From Verif Require Import Published Props_Published Composition.
Import ListNotations.
Local Open Scope outcome_scope.
Local Open Scope R_scope.

(** ** The table of aliases agrees with the specification (by computation on the two tables) *)
Definition term_ok (t p : string * Q) : bool :=
  strcasecmp_eq (fst t) (fst p) && Qeq_bool (snd t) (snd p) &&
  match nth_error item_names (id_of (fst p)) with Some s => String.eqb s (fst p) | None => false end.
Fixpoint terms_ok (ts : list (string * Q)) (m : mixture) : bool :=
  match ts, m with [], [] => true | t :: ts', p :: m' => term_ok t p && terms_ok ts' m' | _, _ => false end.
Fixpoint distinct (l : list nat) : bool := match l with [] => true | i :: l' => negb (existsb (Nat.eqb i) l') && distinct l' end.
Definition comp_ok (c : string * mixture) : bool :=
  match xcint_lookup_functional (fst c), xcint_lookup_parameter (fst c), xcint_lookup_alias (fst c) with
  | None, None, Some k => match nth_error xcint_aliases k with
      | Some (a, ts) => strcasecmp_eq (fst c) a && terms_ok ts (snd c) && distinct (map (fun p => id_of (fst p)) (snd c)) && negb (Nat.eqb (List.length (snd c)) 0)
      | None => false end
  | _, _, _ => false end.
Lemma comps_ok : forallb comp_ok compositions = true.
Proof. vm_compute. reflexivity. Qed.
Lemma distinct_NoDup l : distinct l = true -> NoDup l.
Proof.
  induction l as [|i l IH]; cbn; intro H; [constructor|]. apply andb_prop in H. destruct H as [H1 H2]. constructor; [|now apply IH].
  intro X. apply negb_true_iff in H1. assert (Y : existsb (Nat.eqb i) l = true) by (apply existsb_exists; exists i; split; [exact X|apply Nat.eqb_refl]). congruence.
Qed.
(** The elementary writes for a mixture. *)
Definition mwrites (m : mixture) (w : R) : list (nat * T ROps) := map (fun p => (id_of (fst p), w * Q2R (snd p) : T ROps)) m.
Lemma terms_writes ts m (w : R) : terms_ok ts m = true ->
  Forall2 (fun (t : string * Q) (u : nat * T ROps) => is_item (fst t) (fst u) /\ snd u = Omul (w : T ROps) (OofQ (snd t))) ts (mwrites m w).
Proof.
  revert m. induction ts as [|t ts IH]; intros [|p m] H; cbn in H; try discriminate; [constructor|]. apply andb_prop in H. destruct H as [H1 H2].
  constructor; [|now apply IH]. unfold term_ok in H1. apply andb_prop in H1. destruct H1 as [H1 H3]. apply andb_prop in H1. destruct H1 as [H0 H1].
  cbn [fst snd]. split.
  - unfold is_item. destruct (nth_error item_names (id_of (fst p))) as [s|]; [|discriminate]. exists s. split; [reflexivity|]. apply String.eqb_eq in H3. subst s. now apply strcasecmp_ci.
  - cbn [Omul OofQ ROps]. apply Qeq_bool_eq in H1. now rewrite (Qeq_eqR _ _ H1).
Qed.
Lemma comp_facts nm m : In (nm, m) compositions ->
  no_item nm /\ (exists a ts, In (a, ts) xcint_aliases /\ ci_eq nm a /\ terms_ok ts m = true) /\ NoDup (map (fun p => id_of (fst p)) m) /\ m <> [].
Proof.
  intro I'. pose proof comps_ok as C. rewrite forallb_forall in C. specialize (C _ I'). unfold comp_ok in C. cbn [fst snd] in C.
  destruct (xcint_lookup_functional nm) eqn:E1; [discriminate|]. destruct (xcint_lookup_parameter nm) eqn:E2; [discriminate|]. destruct (xcint_lookup_alias nm) as [k|]; [|discriminate].
  destruct (nth_error xcint_aliases k) as [[a ts]|] eqn:E3; [|discriminate]. apply andb_prop in C. destruct C as [C C4]. apply andb_prop in C. destruct C as [C C3]. apply andb_prop in C. destruct C as [C1 C2].
  split. { destruct (item_dec nm) as [[i Hi]|N]; [|exact N]. exfalso. destruct (Nat.lt_ge_cases i 78) as [L|L].
    - assert (X : xcint_lookup_functional nm = Some i) by (apply lookup_functional_spec; auto). congruence.
    - assert (X : xcint_lookup_parameter nm = Some i) by (apply lookup_parameter_spec; auto). congruence. }
  split; [exists a, ts; split; [exact (nth_error_In _ _ E3)|]; split; [now apply strcasecmp_ci|exact C2]|]. split; [now apply distinct_NoDup|]. intros ->. discriminate.
Qed.
Lemma ci_trans a b c : ci_eq a b -> ci_eq b c -> ci_eq a c.
Proof. intros H1 H2. apply strcasecmp_ci. apply strcasecmp_ci in H1, H2. revert b c H1 H2. induction a as [|x a IH]; intros [|y b] [|z c]; cbn; try discriminate; auto.
  intros H1 H2. apply andb_prop in H1, H2. destruct H1 as [A1 A2], H2 as [B1 B2]. apply andb_true_intro. split; [|now apply (IH b c)].
  apply Ascii.eqb_eq in A1, B1. apply Ascii.eqb_eq. congruence. Qed.
Lemma comp_writes nm nm' m (w : R) : In (nm, m) compositions -> ci_eq nm' nm -> SpecApi.writes nm' (w : T ROps) (mwrites m w).
Proof.
  intros I' Ci. destruct (comp_facts nm m I') as (N & (a & ts & Ia & Ca & Tk) & _).
  apply (w_alias nm' (w : T ROps) ts); [intros i (s & Es & Cs); apply (N i); exists s; split; [exact Es|]; apply (ci_trans _ nm'); [now apply ci_sym|exact Cs]| |now apply terms_writes].
  exists a. split; [exact Ia|now apply (ci_trans _ nm)].
Qed.
(** Settings after distinct writes. *)
Lemma settings_other (ws : list (nat * T ROps)) s j : ~ In j (map fst ws) -> fold_left wr_settings ws s j = s j.
Proof.
  revert s. induction ws as [|[i v] ws IH]; intros s N; cbn; [reflexivity|]. rewrite IH by (intro X; apply N; now right).
  unfold wr_settings, Api.upd. cbn [fst]. destruct (Nat.eqb_spec j i) as [->|]; [exfalso; apply N; now left|reflexivity].
Qed.
Lemma settings_in (ws : list (nat * T ROps)) s j v : NoDup (map fst ws) -> In (j, v) ws ->
  fold_left wr_settings ws s j = if Nat.ltb j 78 then Oadd (s j) v else v.
Proof.
  revert s. induction ws as [|[i u] ws IH]; intros s N I'; [contradiction|]. cbn in N |- *. inversion N as [|? ? N1 N2]; subst. destruct I' as [E|I'].
  - injection E as -> ->. rewrite settings_other by exact N1. unfold wr_settings, Api.upd. cbn [fst snd]. now rewrite Nat.eqb_refl.
  - rewrite (IH _ N2 I'). assert (j <> i) by (intros ->; apply N1; now apply (in_map fst) in I').
    unfold wr_settings, Api.upd. cbn [fst]. destruct (Nat.eqb_spec j i); [contradiction|]. reflexivity.
Qed.
Lemma mwrites_fst m w : map fst (mwrites m w) = map (fun p => id_of (fst p)) m.
Proof. unfold mwrites. rewrite map_map. reflexivity. Qed.

(** ** C36 *)
(** What xcfun_get should report for an item after a mixture was set with weight w on a new
    handle: its coefficient times w, or the default (0 for functionals and EXX). *)
Definition reported (m : mixture) (w : R) (item : string) : R :=
  match coefficient item m with
  | Some c => w * Q2R c
  | None => if String.eqb item "RANGESEP_MU" then 0.4 else if String.eqb item "CAM_ALPHA" then 0.19 else if String.eqb item "CAM_BETA" then 0.46 else 0
  end.
Lemma new_default i item : nth_error item_names i = Some item ->
  (h_settings (@xcfun_new ROps) i : R) = if String.eqb item "RANGESEP_MU" then 0.4 else if String.eqb item "CAM_ALPHA" then 0.19 else if String.eqb item "CAM_BETA" then 0.46 else 0.
Proof.
  intro E. assert (Li : (i < 82)%nat) by (change 82%nat with (List.length item_names); apply nth_error_Some; congruence).
  do 82 (destruct i as [|i]; [vm_compute in E; injection E as <-; cbn; unfold Q2R; cbn; lra|]). lia.
Qed.
Lemma id_of_item i nm : nth_error item_names i = Some nm -> id_of nm = i.
Proof.
  intro E. assert (Li : (i < 82)%nat) by (change 82%nat with (List.length item_names); apply nth_error_Some; congruence).
  assert (A : forallb (fun i => match nth_error item_names i with Some nm => Nat.eqb (id_of nm) i | None => true end) (seq 0 82) = true) by (vm_compute; reflexivity).
  rewrite forallb_forall in A. specialize (A i ltac:(apply in_seq; lia)). cbv beta in A. rewrite E in A. now apply Nat.eqb_eq.
Qed.
Lemma terms_names ts m : terms_ok ts m = true -> forall p, In p m -> nth_error item_names (id_of (fst p)) = Some (fst p).
Proof.
  revert m. induction ts as [|t ts IH]; intros [|q m] H p Hp; cbn in H; try discriminate; [contradiction|]. apply andb_prop in H. destruct H as [H1 H2].
  destruct Hp as [<-|Hp]; [|now apply (IH m H2)]. unfold term_ok in H1. apply andb_prop in H1. destruct H1 as [_ H3].
  destruct (nth_error item_names (id_of (fst q))) as [s|]; [|discriminate]. apply String.eqb_eq in H3. now subst s.
Qed.
Lemma mixture_set nm nm' m (w : R) : In (nm, m) compositions -> ci_eq nm' nm ->
  exists h : handle ROps, xcfun_set xcfun_new nm' (w : T ROps) = Ok (h, 0%Z) /\ after xcfun_new (mwrites m w) h.
Proof.
  intros I' Ci. destruct (comp_facts nm m I') as (_ & _ & _ & Ne).
  destruct (set_ok xcfun_new nm' (w : T ROps) (mwrites m w) 6 wf_new (comp_writes nm nm' m w I' Ci)) as (h & E & _ & A).
  exists h. split; [|exact A]. unfold xcfun_set. rewrite E. destruct m as [|p m]; [contradiction|]. reflexivity.
Qed.
Lemma mixture_settings nm m (w : R) (h : handle ROps) i item : In (nm, m) compositions -> after xcfun_new (mwrites m w) h ->
  nth_error item_names i = Some item -> (h_settings h i : R) = reported m w item.
Proof.
  intros I' (A & _) E. destruct (comp_facts nm m I') as (_ & (a & ts & _ & _ & Tk) & Nd & _). rewrite A. unfold reported, coefficient.
  pose proof (new_default i item E) as Df.
  destruct (find (fun p => String.eqb (fst p) item) m) as [[it c]|] eqn:Ff; cbn [option_map snd].
  - apply find_some in Ff. destruct Ff as [Ip Ei]. apply String.eqb_eq in Ei. cbn [fst] in Ei. subst it.
    rewrite (settings_in _ _ i (w * Q2R c)); [|now rewrite mwrites_fst|unfold mwrites; apply in_map_iff; exists (item, c); split; [cbn [fst snd]; now rewrite (id_of_item i item E)|exact Ip]].
    destruct (Nat.ltb_spec i 78) as [L|L]; [|reflexivity]. rewrite Df.
    assert (Z0 : forallb (fun nm => negb (String.eqb nm "RANGESEP_MU" || String.eqb nm "CAM_ALPHA" || String.eqb nm "CAM_BETA")) (firstn 78 item_names) = true) by (vm_compute; reflexivity).
    rewrite forallb_forall in Z0. assert (In item (firstn 78 item_names)) as Hin.
    { rewrite <- (firstn_skipn 78 item_names) in E. rewrite nth_error_app1 in E by (rewrite firstn_length; change (List.length item_names) with 82%nat; lia). exact (nth_error_In _ _ E). }
    specialize (Z0 _ Hin). cbv beta in Z0. apply negb_true_iff in Z0. apply orb_false_iff in Z0. destruct Z0 as [Z0 ->]. apply orb_false_iff in Z0. destruct Z0 as [-> ->]. cbn [Oadd ROps]. ring.
  - rewrite settings_other; [exact Df|]. rewrite mwrites_fst. intro X. apply in_map_iff in X. destruct X as (p & Ep & Ip).
    pose proof (terms_names ts m Tk p Ip) as En. rewrite Ep, E in En. injection En as En. apply (find_none _ _ Ff) in Ip. cbv beta in Ip. rewrite <- En, String.eqb_refl in Ip. discriminate.
Qed.
(** C36.  Setting a named combination (in any letter case, with any weight) on a new handle
    succeeds, and every one of the 82 settings then reads as published. *)
Theorem C36_composition :
  forall nm m nm' (w : R), In (nm, m) compositions -> ci_eq nm' nm ->
    exists h : handle ROps, xcfun_set xcfun_new nm' (w : T ROps) = Ok (h, 0%Z) /\
      forall i item, nth_error item_names i = Some item -> xcfun_get h item = Some (reported m w item : T ROps).
Proof.
  intros nm m nm' w I' Ci. destruct (mixture_set nm nm' m w I' Ci) as (h & E & A). exists h. split; [exact E|]. intros i item En.
  rewrite (get_item h item i); [|exists item; split; [exact En|apply strcasecmp_ci; apply strcasecmp_ci; clear; induction item; constructor; [now left|assumption]]].
  f_equal. exact (mixture_settings nm m w h i item I' A En).
Qed.
Print Assumptions C36_composition.

(** The energy density of a mixture (exact exchange is not an energy density; the caller adds it). *)
Definition parameter_names : list string := ["RANGESEP_MU"; "EXX"; "CAM_ALPHA"; "CAM_BETA"]%string.
Definition mixture_energy (m : mixture) (w : R) (D : dens) : R :=
  fold_right (fun p s => match reference_of (fst p) with
     | Some r => Q2R (snd p) * ref_energy r (reported m w "RANGESEP_MU") (reported m w "CAM_ALPHA") (reported m w "CAM_BETA") D
     | None => 0 end + s) 0 m.
Definition mixture_for (m : mixture) (w : R) (D : dens) : Prop :=
  forall p, In p m -> ~ In (fst p) parameter_names -> exists r, reference_of (fst p) = Some r /\ ref_for r (reported m w "RANGESEP_MU") D.
Lemma active_new (ws : list (nat * T ROps)) l : NoDup (l ++ map fst ws) -> fold_left wr_active ws l = l ++ filter (fun i => Nat.ltb i 78) (map fst ws).
Proof.
  revert l. induction ws as [|[i v] ws IH]; intros l N; cbn [fold_left map filter fst]; [now rewrite app_nil_r|]. unfold wr_active at 2. cbn [fst].
  destruct (Nat.ltb i 78).
  - assert (X : existsb (Nat.eqb i) l = false).
    { destruct (existsb (Nat.eqb i) l) eqn:E; [|reflexivity]. apply existsb_exists in E. destruct E as (j & Hj & Ej). apply Nat.eqb_eq in Ej. subst j. cbn in N. apply NoDup_remove_2 in N. exfalso. apply N. apply in_or_app. now left. }
    rewrite X. rewrite IH by (rewrite <- app_assoc; exact N). now rewrite <- app_assoc.
  - apply IH. cbn in N. now apply NoDup_remove_1 in N.
Qed.
Lemma param_ids i nm : nth_error item_names i = Some nm -> ((i < 78)%nat <-> ~ In nm parameter_names).
Proof.
  intro E. assert (Li : (i < 82)%nat) by (change 82%nat with (List.length item_names); apply nth_error_Some; congruence).
  assert (A : forallb (fun i => match nth_error item_names i with Some nm => Bool.eqb (Nat.ltb i 78) (negb (existsb (String.eqb nm) parameter_names)) | None => true end) (seq 0 82) = true) by (vm_compute; reflexivity).
  rewrite forallb_forall in A. specialize (A i ltac:(apply in_seq; lia)). cbv beta in A. rewrite E in A. apply eqb_prop in A. rewrite <- Nat.ltb_lt, A, negb_true_iff. split.
  - intros X Y. assert (Z1 : existsb (String.eqb nm) parameter_names = true) by (apply existsb_exists; exists nm; split; [exact Y|apply String.eqb_refl]). congruence.
  - intro X. destruct (existsb (String.eqb nm) parameter_names) eqn:Y; [|reflexivity]. apply existsb_exists in Y. destruct Y as (z & Hz & Ez). apply String.eqb_eq in Ez. subst z. contradiction.
Qed.
Lemma set_ok_inj (h1 h2 : handle ROps) (z : Z) : Ok (h1, z) = Ok (h2, z) -> h1 = h2.
Proof. now injection 1. Qed.
(** C36 (energy).  The energy of a named combination is its weight times the published
    combination of the published formulas. *)
Theorem C36_energy :
  forall nm m nm' (w : R) (h h0 : handle ROps) v D x e, In (nm, m) compositions -> ci_eq nm' nm ->
    xcfun_set xcfun_new nm' (w : T ROps) = Ok (h, 0%Z) ->
    xcfun_eval_setup h v XC_PARTIAL_DERIVATIVES 0 = Ok (h0, 0%Z) -> mixture_for m w D -> above D -> describes v x D ->
    library_energy h0 x e -> e = w * mixture_energy m w D.
Proof.
  intros nm m nm' w h h0 v D x e I' Ci Es S Mf Ab De Le.
  destruct (mixture_set nm nm' m w I' Ci) as (h' & E & A). rewrite Es in E. apply set_ok_inj in E. subst h'.
  assert (Hr : reachable h). { exists [CSet nm' (w : T ROps)]. cbn [Api.run step]. rewrite Es. reflexivity. }
  pose proof (fun i item => mixture_settings nm m w h i item I' A) as St.
  destruct (comp_facts nm m I') as (_ & (a & ts & _ & _ & Tk) & Nd & _). pose proof (terms_names ts m Tk) as Tn.
  assert (Mu : (h_settings h XC_RANGESEP_MU : R) = reported m w "RANGESEP_MU") by (apply St; reflexivity).
  assert (Al : (h_settings h XC_CAM_ALPHA : R) = reported m w "CAM_ALPHA") by (apply St; reflexivity).
  assert (Be : (h_settings h XC_CAM_BETA : R) = reported m w "CAM_BETA") by (apply St; reflexivity).
  assert (Ac : h_active h = filter (fun i => Nat.ltb i 78) (map (fun p => id_of (fst p)) m)).
  { destruct A as (_ & A & _). rewrite A. change (h_active xcfun_new) with (@nil nat). rewrite active_new by (cbn [app]; now rewrite mwrites_fst). now rewrite mwrites_fst. }
  assert (Ap : all_published h D).
  { intros i item Hi En. rewrite Ac in Hi. apply filter_In in Hi. destruct Hi as [Hi Li]. apply in_map_iff in Hi. destruct Hi as (p & Ep & Ip). apply Nat.ltb_lt in Li.
    pose proof (Tn p Ip) as Ep'. rewrite Ep, En in Ep'. injection Ep' as ->. rewrite Mu. apply (Mf p Ip). now apply (param_ids i). }
  rewrite (C35_published_energy h h0 v D x e Hr S Ap Ab De Le). unfold published_sum, mixture_energy. rewrite Ac.
  assert (Cf : forall p, In p m -> coefficient (fst p) m = Some (snd p)).
  { clear - Nd. intros p Hp. unfold coefficient. induction m as [|q m IH]; [contradiction|]. cbn in Nd |- *. inversion Nd as [|? ? N1 N2]; subst. destruct Hp as [->|Hp]; [now rewrite String.eqb_refl|].
    destruct (String.eqb (fst q) (fst p)) eqn:Q; [|now apply IH]. apply String.eqb_eq in Q. exfalso. apply N1. apply in_map_iff. exists p. split; [now rewrite Q|exact Hp]. }
  assert (Rc : forall p, In p m -> reported m w (fst p) = w * Q2R (snd p)) by (intros p Hp; unfold reported; now rewrite (Cf p Hp)).
  pose (mu := reported m w "RANGESEP_MU"). pose (al := reported m w "CAM_ALPHA"). pose (be := reported m w "CAM_BETA"). fold mu al be in Mu, Al, Be |- *.
  assert (G : forall l, (forall p, In p l -> In p m) ->
    fold_right (fun i s => (h_settings h i : R) * published_energy h D i + s) 0 (filter (fun i => Nat.ltb i 78) (map (fun p => id_of (fst p)) l)) =
    w * fold_right (fun p s => match reference_of (fst p) with Some r => Q2R (snd p) * ref_energy r mu al be D | None => 0 end + s) 0 l).
  { induction l as [|p l IH]; intro Hl; cbn [map filter fold_right]; [ring|]. specialize (IH (fun q Hq => Hl q (or_intror Hq))). pose proof (Hl p (or_introl eq_refl)) as Ip. pose proof (Tn p Ip) as Ep.
    destruct (Nat.ltb_spec (id_of (fst p)) 78) as [L|L]; cbn [fold_right].
    - rewrite IH. unfold published_energy at 1. rewrite Ep. destruct (Mf p Ip (proj1 (param_ids _ _ Ep) L)) as (r & -> & _). rewrite Mu, Al, Be, (St _ _ Ep), (Rc p Ip). ring.
    - rewrite IH. assert (X : reference_of (fst p) = None); [|rewrite X; ring].
      assert (Y : In (fst p) parameter_names).
      { destruct (in_dec string_dec (fst p) parameter_names) as [Y|Y]; [exact Y|]. apply (param_ids _ _ Ep) in Y. lia. }
      cbn [In parameter_names] in Y. destruct Y as [<-|[<-|[<-|[<-|[]]]]]; reflexivity. }
  exact (G m (fun p Hp => Hp)).
Qed.
Print Assumptions C36_energy.
