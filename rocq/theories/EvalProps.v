(** * Outcomes, written slots and read slots of xcfun_eval, for any scalar type *)
From Coq Require Import QArith ZArith Arith Lia List Bool String.
From Verif Require Import Scalar Tables Api SpecApi ApiProofs ApiProofs2 CTaylor TMath Br Expr Densvars Functionals Eval SpecEval Layout EvalSem.
Import ListNotations.
Local Open Scope outcome_scope.

(** ** Reachable handles *)
Section INV.
Context {K : Ops}.
Definition setup_inv (h : handle K) : Prop :=
  (h_mode h = XC_MODE_UNSET /\ h_vars h = XC_VARS_UNSET /\ h_order h = (-1)%Z) \/
  ((0 <= h_vars h < XC_NR_VARS)%Z /\ order_ok (h_mode h) (h_order h)).
Lemma set_keeps fuel : forall h name v h' r, xcfun_set_f (K := K) fuel h name v = Ok (h', r) ->
  h_mode h' = h_mode h /\ h_vars h' = h_vars h /\ h_order h' = h_order h.
Proof.
  assert (SI : forall (h : handle K) i v h', set_item h i v = Ok h' ->
    h_mode h' = h_mode h /\ h_vars h' = h_vars h /\ h_order h' = h_order h).
  { intros h i v h'. unfold set_item. destruct (Nat.ltb i _); [|discriminate]. intro E; injection E as <-. auto. }
  assert (AC : forall (h : handle K) i h', activate h i = Ok h' ->
    h_mode h' = h_mode h /\ h_vars h' = h_vars h /\ h_order h' = h_order h).
  { intros h i h'. unfold activate. destruct (existsb _ _); [intro E; injection E as <-; auto|].
    destruct (Nat.ltb _ _); [|discriminate]. destruct (nth_error _ _); [|discriminate]. intro E; injection E as <-. auto. }
  induction fuel as [|fuel IH]; intros h name v h' r E; [discriminate|]. cbn [xcfun_set_f] in E.
  destruct (xcint_lookup_functional name) as [i|].
  - destruct (set_item h i _) as [h1| | |] eqn:E1; try discriminate. cbn [obind] in E.
    destruct (activate h1 i) as [h2| | |] eqn:E2; try discriminate. cbn [obind] in E. injection E as <- <-.
    apply SI in E1. apply AC in E2. intuition congruence.
  - destruct (xcint_lookup_parameter name) as [i|].
    + destruct (set_item h i v) as [h1| | |] eqn:E1; try discriminate. cbn [obind] in E. injection E as <- <-. now apply SI in E1.
    + destruct (xcint_lookup_alias name) as [i|]; [|injection E as <- <-; auto].
      revert h E. induction (firstn _ _) as [|[t w] ts IHt]; intros h E; cbn [alias_loop] in E.
      * injection E as <- <-. auto.
      * destruct (xcfun_set_f fuel h t _) as [[h1 r1]| | |] eqn:E1; try discriminate. cbn [obind fst snd] in E.
        destruct (Z.eqb r1 0); [|discriminate]. apply IH in E1. apply IHt in E. intuition congruence.
Qed.
Lemma setup_inv_setup h v m o h' r : setup_inv h -> xcfun_eval_setup (K := K) h v m o = Ok (h', r) -> setup_inv h'.
Proof.
  intros H. unfold xcfun_eval_setup. destruct (vars_entry v) as [vd| | |] eqn:E; cbn [obind]; try discriminate.
  destruct (negb _); [intro X; injection X as <- _; auto|].
  destruct (orb (orb _ _) _) eqn:E2; [intro X; injection X as <- _; auto|].
  destruct (andb _ (andb _ _)); [intro X; injection X as <- _; auto|].
  destruct (andb _ _) in |- *; intro X; injection X as <- _; auto. right. cbn. split; [exact (vars_entry_range _ _ E)|].
  now apply order_check.
Qed.
Lemma setup_inv_step h c h' a : setup_inv h -> step (K := K) h c = Ok (h', a) -> setup_inv h'.
Proof.
  intros H E. destruct c; cbn [step] in E.
  - destruct (xcfun_set h name value) as [[h1 r]| | |] eqn:E1; try discriminate. cbn in E. injection E as <- _.
    apply set_keeps in E1. destruct E1 as (A & B & C). unfold setup_inv. now rewrite A, B, C.
  - injection E as <- _. exact H.
  - destruct (xcfun_eval_setup h vars mode order) as [[h1 r]| | |] eqn:E1; try discriminate. cbn in E. injection E as <- _.
    eapply setup_inv_setup; eauto.
  - unfold xcfun_user_eval_setup in E. destruct (xcfun_which_vars _ _ _ _ _ _); try discriminate.
    cbn [obind] in E. destruct (xcfun_which_mode _); try discriminate. cbn [obind] in E.
    destruct (xcfun_eval_setup h _ _ order) as [[h1 r]| | |] eqn:E1; try discriminate. cbn in E. injection E as <- _.
    eapply setup_inv_setup; eauto.
  - destruct (xcfun_input_length h); try discriminate. cbn in E. injection E as <- _. exact H.
  - destruct (xcfun_output_length h); try discriminate. cbn in E. injection E as <- _. exact H.
  - injection E as <- _. exact H.
  - injection E as <- _. exact H.
Qed.
Lemma reachable_inv h : reachable (K := K) h -> setup_inv h.
Proof.
  intros [cs E]. assert (H : setup_inv (@xcfun_new K)) by (left; repeat split).
  revert E H. generalize (@xcfun_new K) as h0. induction cs as [|c cs IH]; intros h0 E H; cbn [Api.run] in E.
  - injection E as <-. exact H.
  - destruct (step h0 c) as [[h1 a]| | |] eqn:E1; try discriminate. cbn [obind fst] in E.
    eapply IH; [exact E|]. eapply setup_inv_step; eauto.
Qed.

(** The setup made last is still acceptable: asking again for the same one succeeds. *)
Definition setup_valid (h : handle K) : Prop :=
  xcfun_eval_setup h (h_vars h) (h_mode h) (h_order h) = Ok (h, 0%Z).
Lemma setup_gives_valid h v m o h' : xcfun_eval_setup (K := K) h v m o = Ok (h', 0%Z) ->
  setup_valid h' /\ h_vars h' = v /\ h_mode h' = m /\ h_order h' = o /\
  h_active h' = h_active h /\ h_settings h' = h_settings h.
Proof.
  unfold setup_valid, xcfun_eval_setup. destruct (vars_entry v) as [vd| | |] eqn:E; cbn [obind]; try discriminate.
  destruct (negb _) eqn:E1; [discriminate|].
  destruct (orb (orb _ _) _) eqn:E2; [discriminate|].
  destruct (andb _ (andb _ _)) eqn:E3; [discriminate|].
  destruct (andb _ _) eqn:E4 in |- *; [discriminate|]. intro X; injection X as <-. cbn [h_vars h_mode h_order h_depends h_active h_settings].
  rewrite E. cbn [obind]. rewrite E1, E2, E3, E4. repeat split; reflexivity.
Qed.
Lemma setup_valid_vars h : setup_valid h -> exists vd, vars_entry (h_vars h) = Ok vd.
Proof.
  unfold setup_valid, xcfun_eval_setup. destruct (vars_entry (h_vars h)); cbn [obind]; try discriminate. eauto.
Qed.
Lemma setup_valid_code h : wf h -> setup_valid h -> exists vd, vars_entry (h_vars h) = Ok vd /\
  vars_suffice h vd /\ order_ok (h_mode h) (h_order h) /\
  (h_mode h = XC_POTENTIAL -> (needs_gradient h -> full_taylor_vars (h_vars h)) /\ ~ needs_meta h).
Proof.
  intros W S. destruct (setup_valid_vars h S) as [vd E]. pose proof (vars_entry_range _ _ E) as R.
  destruct (setup_exact h (h_vars h) (h_mode h) (h_order h) W R) as (vd' & r & h' & N & E' & C & _).
  unfold setup_valid in S. rewrite S in E'. injection E' as <- <-.
  assert (vd' = vd). { unfold vars_entry in E. destruct (Z.ltb (h_vars h) 0); [discriminate|]. rewrite N in E. congruence. }
  subst vd'. exists vd. inversion C; auto.
Qed.
End INV.

(** The variable sets for which densvars has a case. *)
Definition unsupported_vars : list Z :=
  [XC_A_GAA_LAPA; XC_A_GAA_TAUA; XC_N_GNN_LAPN; XC_A_B_GAA_GAB_GBB_LAPA_LAPB; XC_N_S_GNN_GNS_GSS_LAPN_LAPS;
   XC_N_S_GNN_GNS_GSS_LAPN_LAPS_TAUN_TAUS; XC_A_AX_AY_AZ; XC_A_AX_AY_AZ_TAUA; XC_A_2ND_TAYLOR; XC_N_S_2ND_TAYLOR].
Definition supp_ok (v : Z) : bool :=
  Bool.eqb (existsb (Z.eqb v) unsupported_vars) (match dv_switch v with None => true | _ => false end).
Lemma supp_ok_all : forallb supp_ok zvars = true. Proof. vm_compute. reflexivity. Qed.
Lemma supported_iff v vd : vars_entry v = Ok vd -> (supported v <-> ~ In v unsupported_vars).
Proof.
  intro E. pose proof (proj1 (forallb_forall _ _) supp_ok_all v (zvars_in v (vars_entry_range _ _ E))) as H.
  unfold supp_ok in H. apply Bool.eqb_prop in H. unfold supported. split.
  - intros S I. assert (X : existsb (Z.eqb v) unsupported_vars = true) by (apply existsb_exists; exists v; split; [exact I|apply Z.eqb_refl]).
    rewrite X in H. destruct (dv_switch v); [discriminate|]. now apply S.
  - intros N S. rewrite S in H. apply N. apply existsb_exists in H. destruct H as (x & I & Hx). apply Z.eqb_eq in Hx. now subst.
Qed.

Section OUT.
Context {K : Ops}.
Variable junk : forall n : nat, nat -> ct K n.

(** ** Partial derivatives: all slots of the graded list are written *)
Section P.
Variable h : handle K.
Hypothesis R : ready h.
Variable input : nat -> K.
Variable n : nat.
Hypothesis Hpos : (0 < n)%nat.
Let V : list nat -> K -> Prop := fun _ _ => True.
Lemma he m d : oP (fun _ => True) True (energy h m d (czero m)).
Proof. now apply energy_ok. Qed.
Ltac he := intros; eapply oP_imp; [|apply he]; unfold V; intros; repeat split.
Lemma shape0 : oP (filled n V 0) True (partial0 junk h n input).
Proof. apply layout0; try assumption; he. Qed.
Lemma shape1 : oP (filled n V 1) True (partial1 junk h n input).
Proof. apply layout1; try assumption; he. Qed.
Lemma shape2 : oP (filled n V 2) True (partial2 junk h n input []).
Proof. apply layout2; try assumption; he. Qed.
Lemma shape3 : oP (filled n V 3) True (partial3 junk h n input).
Proof. apply layout3; try assumption; he. Qed.
Lemma filled_slots ord (V' : list nat -> K -> Prop) ws : filled n V' ord ws ->
  forall p, In p (map fst ws) <-> (p < binom (n + ord) ord)%nat.
Proof.
  intros [O C] p. rewrite <- graded_len. split.
  - intro I. destruct (lastw ws p) as [v|] eqn:E.
    + destruct (O p v E) as (l & E' & _). apply nth_error_Some. congruence.
    + apply lastw_none in E. contradiction.
  - intro L. destruct (C p L) as [v E]. destruct (in_dec Nat.eq_dec p (map fst ws)); [assumption|].
    apply lastw_none in n0. congruence.
Qed.
End P.

(** ** Contracted mode *)
Lemma contracted_slots h n inlen input : ready h ->
  oP (fun ws => forall p, In p (map fst ws) <-> (p < 2 ^ n)%nat) True (contracted junk h n inlen input).
Proof.
  intro R. unfold contracted. eapply oP_bind; [apply energy_ok; exact R|]. intros out _. cbn [oP]. intro p.
  rewrite map_map. cbn [fst]. rewrite map_id, in_seq. lia.
Qed.

(** ** Potential mode *)
Definition npot (inlen : nat) : nat := if orb (Nat.eqb inlen 1) (Nat.eqb inlen 10) then 1 else 2.
Definition wr (ws : writes (K := K)) (l : list nat) : Prop := map fst ws = l.
Lemma wr_w1 ws p v l : wr ws l -> wr (w1 ws p v) (l ++ [p]).
Proof. unfold wr, w1. intro H. now rewrite map_app, H. Qed.
Lemma pot_restricted_ok h input : ready h -> oP (fun _ => True) True (pot_restricted junk h input).
Proof.
  intro R. unfold pot_restricted.
  eapply oP_bind; [apply energy_ok; exact R|intros ? _].
  eapply oP_bind; [apply energy_ok; exact R|intros ? _].
  eapply oP_bind; [apply energy_ok; exact R|intros ? _]. exact I.
Qed.
Lemma pot_unrestricted_ok (h : handle K) input d j : ready h -> oP (fun _ => True) True (pot_unrestricted h input d j).
Proof.
  intro R. unfold pot_unrestricted.
  eapply oP_bind; [apply energy_ok; exact R|intros ? _].
  eapply oP_bind; [apply energy_ok; exact R|intros ? _].
  eapply oP_bind; [apply energy_ok; exact R|intros ? _]. exact I.
Qed.
Lemma potential_slots h inlen buf input : ready h ->
  (xcfun_is_gga h = true -> (h_vars h = XC_N_2ND_TAYLOR /\ inlen = 10%nat) \/
                            (h_vars h = XC_A_B_2ND_TAYLOR /\ inlen = 20%nat)) ->
  oP (fun ws => forall p, In p (map fst ws) <-> (p < 1 + npot inlen)%nat) True (potential junk h inlen buf input).
Proof.
  intros R G. unfold potential. fold (npot inlen).
  eapply oP_bind.
  - apply (oP_ofold _ (fun i (s : (nat -> ct K 1) * ct K 1 * writes) => wr (snd s) (seq 1 i)) True (npot inlen) 0); [reflexivity|].
    intros i [[inn o] ws] Hi W. cbn [snd] in W. eapply oP_bind; [apply energy_ok; exact R|]. intros out _. cbn [oP snd].
    rewrite seq_S. replace (1 + i)%nat with (i + 1)%nat by lia. now apply wr_w1.
  - intros [[inn o] ws] W. cbn [snd] in W. rewrite Nat.add_0_l in W.
    set (w := w1 ws 0 (get 1 o 0)).
    assert (Ww : forall p, In p (map fst w) <-> (p < 1 + npot inlen)%nat).
    { intro p. unfold w. rewrite (wr_w1 ws 0 _ _ W), in_app_iff, in_seq. cbn [In]. lia. }
    unfold xcfun_is_gga in G. destruct (negb _); [|exact Ww].
    assert (Add : forall (w' : writes (K := K)) q v, (q < 1 + npot inlen)%nat -> (forall p, In p (map fst w') <-> (p < 1 + npot inlen)%nat) ->
       forall p, In p (map fst (w1 w' q v)) <-> (p < 1 + npot inlen)%nat).
    { intros w' q v Hq H p. unfold w1. rewrite map_app, in_app_iff, H. cbn [map fst In]. lia. }
    destruct (G eq_refl) as [[Ev El]|[Ev El]]; rewrite Ev; subst inlen.
    + change (orb (Z.eqb XC_N_2ND_TAYLOR XC_A_2ND_TAYLOR) (Z.eqb XC_N_2ND_TAYLOR XC_N_2ND_TAYLOR)) with true. cbn iota.
      eapply oP_bind; [apply pot_restricted_ok; exact R|]. intros v _. cbn [oP]. apply Add; [cbn; lia|exact Ww].
    + change (orb (Z.eqb XC_A_B_2ND_TAYLOR XC_A_2ND_TAYLOR) (Z.eqb XC_A_B_2ND_TAYLOR XC_N_2ND_TAYLOR)) with false. cbn iota.
      eapply oP_bind.
      * apply (oP_ofold _ (fun i (s : (nat -> ct K 2) * writes) => forall p, In p (map fst (snd s)) <-> (p < 1 + npot 20)%nat) True 2 0).
        { exact Ww. }
        intros i [d w'] Hi H. cbn [snd] in H. eapply oP_bind; [apply pot_unrestricted_ok; exact R|]. intros r _. cbn [oP snd].
        apply Add; [cbn; lia|exact H].
      * intros s H. exact H.
Qed.

(** ** xcfun_eval *)
Lemma valid_ready (h : handle K) : reachable h -> setup_valid h -> ~ In (h_vars h) unsupported_vars -> ready h.
Proof.
  intros Hr S U. pose proof (reachable_wf h Hr) as (_ & A & _). split; [exact A|].
  destruct (setup_valid_vars h S) as [vd E]. now apply (supported_iff _ vd E).
Qed.
(** Number of slots written by an evaluation. *)
Definition nslots (h : handle K) (len : nat) : nat :=
  if Z.eqb (h_mode h) XC_PARTIAL_DERIVATIVES then binom (len + Z.to_nat (h_order h)) (Z.to_nat (h_order h))
  else if Z.eqb (h_mode h) XC_CONTRACTED then 2 ^ Z.to_nat (h_order h)
  else 1 + npot len.
Lemma pot_gga (h : handle K) vd : wf h -> setup_valid h -> vars_entry (h_vars h) = Ok vd -> ~ In (h_vars h) unsupported_vars ->
  h_mode h = XC_POTENTIAL -> xcfun_is_gga h = true ->
  (h_vars h = XC_N_2ND_TAYLOR /\ Z.to_nat (v_len vd) = 10%nat) \/ (h_vars h = XC_A_B_2ND_TAYLOR /\ Z.to_nat (v_len vd) = 20%nat).
Proof.
  intros W S E U M G. destruct (setup_valid_code h W S) as (vd' & E' & _ & _ & P). rewrite E in E'. injection E' as <-.
  destruct (P M) as [P1 _]. apply (is_gga_iff h W) in G. specialize (P1 G).
  destruct P1 as [H|[H|[H|H]]]; rewrite H in *.
  - exfalso. apply U. cbn. tauto.
  - right. split; [reflexivity|]. vm_compute in E. injection E as <-. reflexivity.
  - left. split; [reflexivity|]. vm_compute in E. injection E as <-. reflexivity.
  - exfalso. apply U. cbn. tauto.
Qed.
Lemma eval_outcome h buf input : reachable h -> setup_valid h -> ~ In (h_vars h) unsupported_vars ->
  In (h_mode h) [XC_PARTIAL_DERIVATIVES; XC_POTENTIAL; XC_CONTRACTED] ->
  (h_mode h = XC_PARTIAL_DERIVATIVES -> (h_order h <= 3)%Z) ->
  exists vd, vars_entry (h_vars h) = Ok vd /\
  oP (fun ws => forall p, In p (map fst ws) <-> (p < nslots h (Z.to_nat (v_len vd)))%nat) True (xcfun_eval junk h buf input).
Proof.
  intros Hr S U M O. pose proof (valid_ready h Hr S U) as Rd. pose proof (reachable_wf h Hr) as W.
  destruct (setup_valid_code h W S) as (vd & E & Sf & [Oo _] & P). exists vd. split; [exact E|].
  pose proof (vlen_pos _ _ E) as Lp. pose proof (vars_entry_range _ _ E) as Rg.
  unfold xcfun_eval, nslots.
  replace (Z.eqb (h_vars h) XC_VARS_UNSET) with false by (symmetry; apply Z.eqb_neq; unfold XC_VARS_UNSET; lia).
  replace (Z.eqb (h_order h) (-1)) with false by (symmetry; apply Z.eqb_neq; lia). cbn [andb].
  pose proof (pot_gga h vd W S E U) as PG.
  destruct M as [M|[M|[M|[]]]]; rewrite <- M in *; cbn [Z.eqb XC_MODE_UNSET XC_PARTIAL_DERIVATIVES XC_POTENTIAL XC_CONTRACTED Pos.eqb].
  - specialize (O eq_refl).
    assert (C : h_order h = 0%Z \/ h_order h = 1%Z \/ h_order h = 2%Z \/ h_order h = 3%Z) by lia.
    destruct C as [C|[C|[C|C]]]; rewrite C; cbn [Z.eqb Pos.eqb]; rewrite E; cbn [obind];
      (eapply oP_imp; [|first [apply (shape0 h Rd); exact Lp|apply (shape1 h Rd); exact Lp|apply (shape2 h Rd); exact Lp|apply (shape3 h Rd); exact Lp]]);
      intros ws F; exact (filled_slots _ _ _ _ F).
  - rewrite E. cbn [obind]. apply potential_slots; [exact Rd|]. intro G. apply (PG eq_refl G).
  - replace (Z.leb 0 (h_order h)) with true by (symmetry; apply Z.leb_le; lia).
    replace (Z.leb (h_order h) XCFUN_MAX_ORDER) with true by (symmetry; apply Z.leb_le; unfold XCFUN_MAX_ORDER; lia).
    cbn [andb]. rewrite E. cbn [obind]. now apply contracted_slots.
Qed.

(** *** The setups that end the process *)
Lemma energy_die (h : handle K) n d out : ~ supported (h_vars h) -> energy h n d out = Die.
Proof. apply energy_unsupported. Qed.
Lemma seq_pos n : (0 < n)%nat -> exists l, seq 0 n = 0%nat :: l.
Proof. destruct n; [lia|]. intros _. eexists. reflexivity. Qed.
Lemma eval_dies h buf input : reachable h -> setup_valid h ->
  (In (h_vars h) unsupported_vars \/
   ~ In (h_mode h) [XC_PARTIAL_DERIVATIVES; XC_POTENTIAL; XC_CONTRACTED] \/
   (h_mode h = XC_PARTIAL_DERIVATIVES /\ h_order h = 4%Z)) ->
  xcfun_eval junk h buf input = Die.
Proof.
  intros Hr Sv B. pose proof (reachable_wf h Hr) as W.
  destruct (setup_valid_code h W Sv) as (vd & E & Sf & [Oo O4] & P).
  pose proof (vlen_pos _ _ E) as Lp. pose proof (vars_entry_range _ _ E) as Rg.
  unfold xcfun_eval.
  replace (Z.eqb (h_vars h) XC_VARS_UNSET) with false by (symmetry; apply Z.eqb_neq; unfold XC_VARS_UNSET; lia).
  replace (Z.eqb (h_order h) (-1)) with false by (symmetry; apply Z.eqb_neq; lia). cbn [andb].
  destruct (Z.eqb_spec (h_mode h) XC_MODE_UNSET); [reflexivity|].
  destruct (Z.eqb_spec (h_mode h) XC_PARTIAL_DERIVATIVES) as [M|M].
  - destruct B as [B|[B|[_ B]]].
    + assert (U : ~ supported (h_vars h)) by (rewrite (supported_iff _ _ E); tauto).
      destruct (seq_pos _ Lp) as [l El].
      destruct (Z.eqb (h_order h) 0).
      { rewrite E. cbn [obind]. unfold partial0. now rewrite energy_die. }
      destruct (Z.eqb (h_order h) 1).
      { rewrite E. cbn [obind]. unfold partial1. destruct (Z.to_nat (v_len vd)) as [|[|k]] eqn:Ek; [lia| |].
        - cbn [Nat.div seq ofold obind]. change (Nat.divmod 1 1 0 1) with (0%nat, 0%nat). cbn [fst seq ofold obind Nat.odd Nat.even negb].
          now rewrite energy_die.
        - assert (Hd : (0 < Nat.div (S (S k)) 2)%nat).
          { change (S (S k)) with (2 + k)%nat. rewrite (Nat.add_comm 2 k). replace (k + 2)%nat with (k + 1 * 2)%nat by lia.
            rewrite Nat.div_add by lia. lia. }
          destruct (seq_pos _ Hd) as [l' El']. rewrite El'. cbn [ofold obind]. now rewrite energy_die. }
      assert (D2 : forall ws, partial2 junk h (Z.to_nat (v_len vd)) input ws = Die).
      { intro ws. unfold partial2. rewrite El. cbn [ofold obind]. rewrite Nat.sub_0_r, El. cbn [ofold obind].
        now rewrite energy_die. }
      destruct (Z.eqb (h_order h) 2).
      { rewrite E. cbn [obind]. apply D2. }
      destruct (Z.eqb (h_order h) 3); [|reflexivity].
      rewrite E. cbn [obind]. unfold partial3. rewrite El. cbn [ofold obind]. rewrite Nat.sub_0_r, El.
      cbn [ofold obind]. rewrite Nat.sub_0_r, El. cbn [ofold obind]. now rewrite energy_die.
    + exfalso. apply B. rewrite M. cbn. tauto.
    + rewrite B. reflexivity.
  - destruct (Z.eqb_spec (h_mode h) XC_CONTRACTED) as [M3|M3].
    + assert (U : ~ supported (h_vars h)).
      { rewrite (supported_iff _ _ E). destruct B as [B|[B|[B _]]]; [tauto| |contradiction].
        exfalso. apply B. rewrite M3. cbn. tauto. }
      destruct (andb _ _); [|reflexivity]. rewrite E. cbn [obind]. unfold contracted. now rewrite energy_die.
    + destruct (Z.eqb_spec (h_mode h) XC_POTENTIAL) as [M2|M2]; [|reflexivity].
      assert (U : ~ supported (h_vars h)).
      { rewrite (supported_iff _ _ E). destruct B as [B|[B|[B _]]]; [tauto| |contradiction].
        exfalso. apply B. rewrite M2. cbn. tauto. }
      rewrite E. cbn [obind]. unfold potential. destruct (orb (Nat.eqb _ 1) _); cbn [seq ofold obind]; now rewrite energy_die.
Qed.
End OUT.
