(** * Property theorems: the Python interface (C39) *)
From Coq Require Import Reals QArith ZArith Arith Lia Lra List Bool String.
From Verif Require Import Scalar Tables Api SpecApi ApiProofs ApiProofs2 QInst CTaylor TMath Br Expr Densvars Functionals
  Eval Sem SpecEval EvalSem EvalProps EvalExt Props_Eval RInst CtAlg Taint Phys EnergyR Mk Props_Deriv Props_Dens Props_Dens2 Props_Vec Py.
Import ListNotations.
Local Open Scope outcome_scope.
Local Open Scope Z_scope.

(** ** Specification *)
(** Few enough points that all offsets fit in an int. *)
Definition few (n : nat) : Prop := Z.of_nat n * 20 <= 2147483647.
(** The numbers the caller supplies for point [i], in the order of the variable sets' documentation. *)
Definition point_n {K : Ops} (d : ndarray K) (g : option (ndarray K)) (q : option (ndarray K)) (i : Z) (k : nat) : K :=
  match k with
  | O => nd_at d i
  | S j => if Nat.ltb j 3 then match g with Some a => nd_at a (i * 3 + Z.of_nat j) | None => OofQ 0 end
           else match q with Some a => nd_at a (i * 6 + Z.of_nat (j - 3)) | None => OofQ 0 end
  end.
(** Spin [s] (0 alpha, 1 beta) of an (n, c, 2) array. *)
Definition spin_at {K : Ops} (a : option (ndarray K)) (c : Z) (i : Z) (j : nat) (s : Z) : K :=
  match a with Some a => nd_at a ((i * c + Z.of_nat j) * 2 + s) | None => OofQ 0 end.
Definition point_ab {K : Ops} (d : ndarray K) (g : option (ndarray K)) (i : Z) (k : nat) : K :=
  if Nat.ltb k 2 then nd_at d (i * 2 + Z.of_nat k)
  else if Nat.ltb k 5 then spin_at g 3 i (k - 2) 0 else spin_at g 3 i (k - 5) 1.
Definition point_ab2 {K : Ops} (gga : bool) (d : ndarray K) (g q : option (ndarray K)) (i : Z) (k : nat) : K :=
  if gga then
    let s := if Nat.ltb k 10 then 0 else 1 in let k := if Nat.ltb k 10 then k else (k - 10)%nat in
    match k with O => nd_at d (i * 2 + s) | S j => if Nat.ltb j 3 then spin_at g 3 i j s else spin_at q 6 i (j - 3) s end
  else nd_at d (i * 2 + Z.of_nat k).

(** ** Proof *)
Lemma name_dec name : ((exists i, is_item name i) \/ exists ts, is_alias name ts) \/ (no_item name /\ forall ts, ~ is_alias name ts).
Proof.
  destruct (xcint_lookup_functional name) as [i|] eqn:E1; [left; left; exists i; now apply lookup_functional_spec in E1|].
  destruct (xcint_lookup_parameter name) as [i|] eqn:E2; [left; left; exists i; now apply lookup_parameter_spec in E2|].
  destruct (xcint_lookup_alias name) as [k|] eqn:E3.
  - left. right. destruct (lookup_alias_some _ _ E3) as (a & ts & N & C). exists ts, a. split; [eapply nth_error_In; exact N|exact C].
  - right. split; [|now apply lookup_alias_none]. intros i Hi. destruct (Nat.lt_ge_cases i 78) as [L|L].
    + rewrite (proj2 (lookup_functional_spec name i) (conj Hi L)) in E1. discriminate.
    + rewrite (proj2 (lookup_parameter_spec name i) (conj Hi L)) in E2. discriminate.
Qed.
Section P.
Context {K : Ops}.
Variable junk : forall n, nat -> ct K n.
Variable mem : Z -> K.
Lemma py_sets_run (l : list (string * K)) : forall h, wf h ->
  ((exists p, In p l /\ no_item (fst p) /\ forall ts, ~ is_alias (fst p) ts) /\ py_sets h l = Ok None) \/
  ((forall p, In p l -> (exists i, is_item (fst p) i) \/ exists ts, is_alias (fst p) ts) /\
   exists h', py_sets h l = Ok (Some h') /\ Api.run h (map (fun p => CSet (fst p) (snd p)) l) = Ok h').
Proof.
  induction l as [|[nm w] l IH]; intros h W; cbn [py_sets map Api.run step fst snd].
  - right. split; [intros p []|]. exists h. split; reflexivity.
  - destruct (name_dec nm) as [Kn | [U1 U2]].
    + destruct (set_known h nm w W Kn) as [h1 E]. rewrite E. cbn [obind fst snd Z.eqb].
      assert (W1 : wf h1) by (destruct (writes_total nm w) as [ws Hw]; destruct (set_run h nm w ws W Hw) as (h2 & r & E2 & W2 & _); rewrite E in E2; injection E2 as <- <-; exact W2).
      destruct (IH h1 W1) as [[(p & Hp & U) E1] | [A (h' & E1 & R)]].
      * left. split; [exists p; split; [now right|exact U]|exact E1].
      * right. split; [intros p [<- | Hp]; [exact Kn|now apply A]|]. exists h'. split; assumption.
    + left. split; [exists (nm, w); split; [now left|split; assumption]|]. rewrite (set_unknown h nm w U1 U2). reflexivity.
Qed.
(** What a functional needs, by its type. *)
Lemma flags_small i : (i < 78)%nat -> 0 <= flags i < 32 /\ (Z.testbit (flags i) 4 = true -> Z.testbit (flags i) 3 = true).
Proof.
  intro H. assert (Q : forallb (fun i => (0 <=? flags i) && (flags i <? 32) && implb (Z.testbit (flags i) 4) (Z.testbit (flags i) 3))%bool (seq 0 78) = true) by (vm_compute; reflexivity).
  rewrite forallb_forall in Q. specialize (Q i ltac:(apply in_seq; lia)). rewrite !andb_true_iff, Z.leb_le, Z.ltb_lt in Q. destruct Q as [[A B] C]. split; [lia|].
  intro E. rewrite E in C. exact C.
Qed.
Lemma or_small (l : list nat) : (forall i, In i l -> (i < 78)%nat) -> forall d, 0 <= d < 32 -> 0 <= fold_left (fun d i => Z.lor d (flags i)) l d < 32.
Proof.
  induction l as [|i l IH]; intros H d Hd; cbn [fold_left]; [exact Hd|]. apply IH; [intros; apply H; now right|].
  destruct (flags_small i (H i (or_introl eq_refl))) as [F _]. split; [apply Z.lor_nonneg; lia|].
  destruct (Z.eq_dec (Z.lor d (flags i)) 0) as [-> | N]; [lia|]. assert (0 <= Z.lor d (flags i)) by (apply Z.lor_nonneg; lia).
  apply (Z.log2_lt_pow2 _ 5); [lia|]. rewrite Z.log2_lor by lia. apply Z.max_lub_lt.
  - destruct (Z.eq_dec d 0) as [-> | ]; [reflexivity|]. apply Z.log2_lt_pow2; lia.
  - destruct (Z.eq_dec (flags i) 0) as [-> | ]; [reflexivity|]. apply Z.log2_lt_pow2; lia.
Qed.
Lemma dep_cases (h : handle K) : reachable h -> xcfun_is_metagga h = false ->
  (xcfun_is_gga h = false /\ (h_depends h = 0 \/ h_depends h = 1)) \/ (xcfun_is_gga h = true /\ (h_depends h = 2 \/ h_depends h = 3)).
Proof.
  intros Hr M. pose proof (reachable_wf h Hr) as W. destruct W as (Nd & Lt & D).
  assert (R : 0 <= h_depends h < 32) by (rewrite D; apply or_small; [exact Lt|lia]).
  assert (J : Z.testbit (h_depends h) 4 = true -> Z.testbit (h_depends h) 3 = true).
  { intro B. apply depends_bit in B; [|exact (conj Nd (conj Lt D))]. destruct B as (i & Hi & F). apply depends_bit; [exact (conj Nd (conj Lt D))|]. exists i. split; [exact Hi|]. now apply flags_small; [apply Lt|]. }
  unfold xcfun_is_metagga, xcfun_is_gga in *. revert M J. generalize dependent (h_depends h). intros d _ R M J.
  assert (Q : In d (map Z.of_nat (seq 0 32))) by (apply in_map_iff; exists (Z.to_nat d); split; [lia|apply in_seq; lia]).
  cbn [map seq In] in Q. repeat (destruct Q as [<- | Q]; [first [discriminate M | (exfalso; specialize (J eq_refl); discriminate J) | vm_compute; tauto]|]). destruct Q.
Qed.
(** The setups the class asks for succeed. *)
Lemma class_setup (h : handle K) m o (vl vg : Z) : reachable h -> xcfun_is_metagga h = false ->
  (m = XC_PARTIAL_DERIVATIVES /\ o = 0 /\ (vl = XC_N /\ vg = XC_N_NX_NY_NZ \/ vl = XC_A_B /\ vg = XC_A_B_AX_AY_AZ_BX_BY_BZ)) \/
  (m = XC_POTENTIAL /\ o = 1 /\ (vl = XC_N /\ vg = XC_N_2ND_TAYLOR \/ vl = XC_A_B /\ vg = XC_A_B_2ND_TAYLOR)) ->
  let v := if xcfun_is_gga h then vg else vl in
  xcfun_eval_setup h v m o = Ok (mkH (h_active h) o (h_depends h) m v (h_settings h), 0).
Proof.
  intros Hr M C v. unfold v. clear v. destruct (dep_cases h Hr M) as [[G [D | D]] | [G [D | D]]]; rewrite G;
    destruct C as [(-> & -> & [[-> ->] | [-> ->]]) | (-> & -> & [[-> ->] | [-> ->]])]; unfold xcfun_eval_setup; rewrite D; reflexivity.
Qed.
(** A two-dimensional array, row by row. *)
Lemma py_rows (h h' : handle K) v m o L M (d : ndarray K) n buf : reachable h -> xcfun_eval_setup h v m o = Ok (h', 0) ->
  m = XC_PARTIAL_DERIVATIVES \/ m = XC_POTENTIAL -> few n ->
  xcfun_input_length h' = Ok L -> xcfun_output_length h' = Ok M -> 0 <= L <= 20 -> 0 <= M <= 20 -> nd_shape d = [n; Z.to_nat L] ->
  py_eval junk mem h' d <> Ok None /\
  forall junk' a, py_eval junk mem h' d = Ok (Some a) -> nd_shape a = [n; Z.to_nat M] /\
    forall i, 0 <= i < Z.of_nat n -> exists ws, xcfun_eval junk' h' buf (view (nd_at d) (i * L)) = Ok ws /\
      (forall p, In p (map fst ws) -> (p < Z.to_nat M)%nat) /\
      (forall p, In p (map fst ws) -> nd_at a (i * M + Z.of_nat p) = rd buf ws p) /\
      (forall p, (p < Z.to_nat M)%nat -> ~ In p (map fst ws) -> nd_at a (i * M + Z.of_nat p) = mem (i * M + Z.of_nat p)).
Proof.
  intros Hr S Hm Fw EL EM RL RM Sh. unfold py_eval. rewrite EL, EM. cbn [obind]. rewrite Sh. cbn [last]. rewrite Z2Nat.id by lia. rewrite Z.eqb_refl. cbn [negb].
  unfold few in Fw. assert (Io : int_ok (Z.of_nat n) = true) by (unfold int_ok; rewrite andb_true_iff, !Z.leb_le; lia). rewrite Io.
  destruct (xcfun_eval_vec junk h' (Z.of_nat n) (nd_at d) L mem M) as [res| | |] eqn:E; cbn [obind]; (split; [discriminate|]); intros junk' a Ea; try discriminate.
  injection Ea as <-. cbn [nd_shape nd_at]. split; [reflexivity|].
  assert (Of : offsets_fit (Z.of_nat n) L M) by (intros i Hi; nia).
  destruct (C14_pointwise K junk junk' h h' v m o _ _ L mem M buf res Hr S Of E) as (ws & W & A & B).
  assert (Lt : forall i p, 0 <= i < Z.of_nat n -> In p (map fst (ws i)) -> (p < Z.to_nat M)%nat).
  { intros i p Hi Hp. specialize (W i Hi). destruct Hm as [-> | ->].
    - now apply (C08_partial_writes_output_length K junk' h h' v o _ _ _ M Hr S EM W).
    - destruct (C08_potential_writes K junk' h h' v o _ _ _ M Hr S EM W) as (len & _ & _ & Q). now apply Q. }
  intros i Hi. exists (ws i). split; [exact (W i Hi)|]. split; [intros p Hp; exact (Lt i p Hi Hp)|]. split.
  - intros p Hp. apply A; [exact Hi|exact Hp|]. intros j q Hj Hq. pose proof (Lt i p Hi Hp). pose proof (Lt j q ltac:(lia) Hq). nia.
  - intros p Hp Np. apply B. intros j q Hj Hq Eq. pose proof (Lt j q Hj Hq). assert (i = j) by nia. subst j. assert (p = q) by lia. subst q. contradiction.
Qed.

Lemma py_points (h h' : handle K) v m o L M (d : ndarray K) n junk' buf (pt : Z -> nat -> K) : reachable h -> xcfun_eval_setup h v m o = Ok (h', 0) ->
  m = XC_PARTIAL_DERIVATIVES \/ m = XC_POTENTIAL -> few n ->
  xcfun_input_length h' = Ok L -> xcfun_output_length h' = Ok M -> 0 <= L <= 20 -> 0 <= M <= 20 -> nd_shape d = [n; Z.to_nat L] ->
  (forall i k, 0 <= i < Z.of_nat n -> (k < Z.to_nat L)%nat -> nd_at d (i * L + Z.of_nat k) = pt i k) ->
  ((forall i, 0 <= i < Z.of_nat n -> exists ws, xcfun_eval junk' h' buf (pt i) = Ok ws) <-> exists a, py_eval junk mem h' d = Ok (Some a)) /\
  py_eval junk mem h' d <> Ok None /\
  forall a, py_eval junk mem h' d = Ok (Some a) -> nd_shape a = [n; Z.to_nat M] /\
    forall i ws, 0 <= i < Z.of_nat n -> xcfun_eval junk' h' buf (pt i) = Ok ws ->
      (forall p, In p (map fst ws) -> nd_at a (i * M + Z.of_nat p) = rd buf ws p) /\
      (forall p, (p < Z.to_nat M)%nat -> ~ In p (map fst ws) -> nd_at a (i * M + Z.of_nat p) = mem (i * M + Z.of_nat p)).
Proof.
  intros Hr S Hm Fw EL EM RL RM Sh Pt.
  assert (Same : forall i, 0 <= i < Z.of_nat n -> xcfun_eval junk' h' buf (view (nd_at d) (i * L)) = xcfun_eval junk' h' buf (pt i)).
  { intros i Hi. apply (C08_reads_input_length K junk' h h' v m o buf _ _ L Hr S EL). intros k Hk. unfold view. apply Pt; [exact Hi|].
    replace (m =? XC_CONTRACTED) with false in Hk by (destruct Hm as [-> | ->]; reflexivity). rewrite Nat.mul_1_r in Hk. exact Hk. }
  destruct (py_rows h h' v m o L M d n buf Hr S Hm Fw EL EM RL RM Sh) as [NN Rows]. split; [|split; [exact NN|]].
  - unfold few in Fw. assert (Of : offsets_fit (Z.of_nat n) L M) by (intros i Hi; nia).
    destruct (C14_outcome K junk junk' h h' v m o (Z.of_nat n) (nd_at d) L mem M buf Hr S Of) as [Q _]. cbn beta zeta in Q.
    assert (X : (exists a, py_eval junk mem h' d = Ok (Some a)) <-> exists res, xcfun_eval_vec junk h' (Z.of_nat n) (nd_at d) L mem M = Ok res).
    { unfold py_eval. rewrite EL, EM. cbn [obind]. rewrite Sh. cbn [last]. rewrite Z2Nat.id by lia. rewrite Z.eqb_refl. cbn [negb].
      assert (Io : int_ok (Z.of_nat n) = true) by (unfold int_ok; rewrite andb_true_iff, !Z.leb_le; lia). rewrite Io.
      destruct (xcfun_eval_vec junk h' (Z.of_nat n) (nd_at d) L mem M) as [res| | |]; cbn [obind]; split; intros [y Ey]; try discriminate; eauto. }
    rewrite X, <- Q. split; intros H i Hi; destruct (H i Hi) as [ws E]; exists ws; [rewrite Same by exact Hi | rewrite <- Same by exact Hi]; exact E.
  - intros a Ea. destruct (Rows junk' a Ea) as [Sa R]. split; [exact Sa|]. intros i ws Hi E. destruct (R i Hi) as (ws' & E' & _ & A & B).
    rewrite Same in E' by exact Hi. rewrite E in E'. injection E' as <-. split; assumption.
Qed.
(** [finish] after [set_up]. *)
Lemma method (h h' : handle K) v m o L M (d : ndarray K) n post junk' buf (pt : Z -> nat -> K) (P : ndarray K -> Prop) : reachable h ->
  xcfun_eval_setup h v m o = Ok (h', 0) ->
  m = XC_PARTIAL_DERIVATIVES \/ m = XC_POTENTIAL -> few n ->
  xcfun_input_length h' = Ok L -> xcfun_output_length h' = Ok M -> 0 <= L <= 20 -> 0 <= M <= 20 -> nd_shape d = [n; Z.to_nat L] ->
  (forall i k, 0 <= i < Z.of_nat n -> (k < Z.to_nat L)%nat -> nd_at d (i * L + Z.of_nat k) = pt i k) ->
  (forall a, nd_shape a = [n; Z.to_nat M] ->
    (forall i ws, 0 <= i < Z.of_nat n -> xcfun_eval junk' h' buf (pt i) = Ok ws ->
      (forall p, In p (map fst ws) -> nd_at a (i * M + Z.of_nat p) = rd buf ws p) /\
      (forall p, (p < Z.to_nat M)%nat -> ~ In p (map fst ws) -> nd_at a (i * M + Z.of_nat p) = mem (i * M + Z.of_nat p))) -> P (post a)) ->
  let r := finish junk mem h' d post in
  ((forall i, 0 <= i < Z.of_nat n -> exists ws, xcfun_eval junk' h' buf (pt i) = Ok ws) <-> exists a, r = Ok (h', Some a)) /\
  forall h1 a, r = Ok (h1, a) -> h1 = h' /\ exists b, a = Some b /\ P b.
Proof.
  intros Hr S Hm Fw EL EM RL RM Sh Pt HP r. destruct (py_points h h' v m o L M d n junk' buf pt Hr S Hm Fw EL EM RL RM Sh Pt) as (A & NN & B).
  unfold r, finish. rewrite A. destruct (py_eval junk mem h' d) as [[a|]| | |] eqn:E; cbn [obind option_map].
  - split; [split; eauto|]. intros h1 b X. injection X as <- <-. split; [reflexivity|]. exists (post a). split; [reflexivity|]. destruct (B a eq_refl). now apply HP.
  - now elim NN.
  - split; [split; intros [? ?]; discriminate|]. intros; discriminate.
  - split; [split; intros [? ?]; discriminate|]. intros; discriminate.
  - split; [split; intros [? ?]; discriminate|]. intros; discriminate.
Qed.
End P.
Lemma table_at {K : Ops} n c f i k : (0 < c)%nat -> (k < c)%nat -> nd_at (table (K := K) n c f) (i * Z.of_nat c + Z.of_nat k) = f i (Z.of_nat k).
Proof.
  intros Hc Hk. unfold table. cbn [nd_at]. f_equal.
  - rewrite Z.div_add_l by lia. rewrite Z.div_small by lia. lia.
  - rewrite Z.add_comm, Z_mod_plus_full. apply Z.mod_small. lia.
Qed.
Lemma shape_is_spec {K : Ops} (a : ndarray K) s : shape_is a s = true <-> nd_shape a = s.
Proof. unfold shape_is. destruct (list_eq_dec Nat.eq_dec (nd_shape a) s); split; intros; congruence. Qed.

(** ** C39 *)
(** The constructor raises exactly when some name is neither a functional, nor a parameter,
    nor an alias; otherwise the object holds what the same xcfun_set calls give. *)
Theorem C39_construct :
  forall (K : Ops) (l : list (string * K)),
    (py_functional l = Ok None <-> exists p, In p l /\ no_item (fst p) /\ forall ts, ~ is_alias (fst p) ts) /\
    (py_functional l = Ok None \/
     exists h, py_functional l = Ok (Some h) /\ reachable h /\ Api.run xcfun_new (map (fun p => CSet (fst p) (snd p)) l) = Ok h).
Proof.
  intros K l. unfold py_functional. destruct (py_sets_run l xcfun_new wf_new) as [[U E] | [A (h & E & R)]].
  - split; [split; intros; [exact U|exact E]|]. now left.
  - split.
    + split; [intro X; rewrite E in X; discriminate|]. intros (p & Hp & N1 & N2). exfalso. destruct (A p Hp) as [[i Hi] | [ts Ht]]; [now apply (N1 i)|now apply (N2 ts)].
    + right. exists h. split; [exact E|]. split; [|exact R].
      eexists; exact R.
Qed.
Print Assumptions C39_construct.

(** What each method asks of its arguments. *)
Definition wants {K : Ops} (h : handle K) (a : option (ndarray K)) (s : list nat) : Prop :=
  xcfun_is_gga h = true -> exists b, a = Some b /\ nd_shape b = s.
Definition takes_energy_n {K : Ops} (h : handle K) (d : ndarray K) g n :=
  nd_shape d = [n] /\ xcfun_is_metagga h = false /\ wants h g [n; 3%nat].
Definition takes_potential_n {K : Ops} (h : handle K) (d : ndarray K) g q n :=
  nd_shape d = [n] /\ xcfun_is_metagga h = false /\ wants h g [n; 3%nat] /\ wants h q [n; 6%nat].
Definition takes_energy_ab {K : Ops} (h : handle K) (d : ndarray K) g n :=
  nd_shape d = [n; 2%nat] /\ xcfun_is_metagga h = false /\ wants h g [n; 3%nat; 2%nat].
Definition takes_potential_ab {K : Ops} (h : handle K) (d : ndarray K) g q n :=
  nd_shape d = [n; 2%nat] /\ xcfun_is_metagga h = false /\ wants h g [n; 3%nat; 2%nat] /\ wants h q [n; 6%nat; 2%nat].
(** The variables the energy or potential of point [i] is evaluated with. *)
Definition vars_of {K : Ops} (h : handle K) (lda gga : Z) : Z := if xcfun_is_gga h then gga else lda.

Section M.
Context {K : Ops}.
Variables junk junk' : forall n, nat -> ct K n.
Variable mem : Z -> K.
Variable buf : nat -> K.

Lemma energy_column (h h0 : handle K) v n (pt : Z -> nat -> K) a : reachable h -> xcfun_eval_setup h v XC_PARTIAL_DERIVATIVES 0 = Ok (h0, 0) ->
  xcfun_output_length h0 = Ok 1 -> nd_shape a = [n; 1%nat] ->
  (forall i ws, 0 <= i < Z.of_nat n -> xcfun_eval junk' h0 buf (pt i) = Ok ws ->
      (forall p, In p (map fst ws) -> nd_at a (i * 1 + Z.of_nat p) = rd buf ws p) /\
      (forall p, (p < Z.to_nat 1)%nat -> ~ In p (map fst ws) -> nd_at a (i * 1 + Z.of_nat p) = mem (i * 1 + Z.of_nat p))) ->
  nd_shape (column0 a) = [n] /\
  forall i ws, 0 <= i < Z.of_nat n -> xcfun_eval junk' h0 buf (pt i) = Ok ws -> nd_at (column0 a) i = rd buf ws 0.
Proof.
  intros Hr S EM Sa Ra. unfold column0. cbn [nd_shape nd_at]. rewrite Sa. cbn [nth hd]. split; [reflexivity|]. intros i ws Hi E.
  destruct (Ra i ws Hi E) as [A _]. rewrite <- (A 0%nat); [f_equal; lia|].
  apply (C08_partial_writes_output_length K junk' h _ _ 0 _ _ _ 1 Hr S EM E). cbn. lia.
Qed.
Lemma potential_columns (h h0 : handle K) v n len (pt : Z -> nat -> K) a : reachable h -> xcfun_eval_setup h v XC_POTENTIAL 1 = Ok (h0, 0) ->
  xcfun_output_length h0 = Ok 3 -> xcfun_input_length h0 = Ok len -> nd_shape a = [n; 3%nat] ->
  (forall i ws, 0 <= i < Z.of_nat n -> xcfun_eval junk' h0 buf (pt i) = Ok ws ->
      (forall p, In p (map fst ws) -> nd_at a (i * 3 + Z.of_nat p) = rd buf ws p) /\
      (forall p, (p < Z.to_nat 3)%nat -> ~ In p (map fst ws) -> nd_at a (i * 3 + Z.of_nat p) = mem (i * 3 + Z.of_nat p))) ->
  nd_shape a = [n; 3%nat] /\
  forall i ws, 0 <= i < Z.of_nat n -> xcfun_eval junk' h0 buf (pt i) = Ok ws ->
    nd_at a (i * 3) = rd buf ws 0 /\ nd_at a (i * 3 + 1) = rd buf ws 1 /\
    nd_at a (i * 3 + 2) = if (orb (Z.eqb len 1) (Z.eqb len 10)) then mem (i * 3 + 2) else rd buf ws 2.
Proof.
  intros Hr S EM EL Sa Ra. split; [exact Sa|]. intros i ws Hi E. destruct (Ra i ws Hi E) as [A B].
  destruct (C08_potential_writes K junk' h _ _ 1 _ _ _ 3 Hr S EM E) as (len' & EL' & Q & _). rewrite EL in EL'. injection EL' as <-.
  split; [rewrite <- (A 0%nat); [f_equal; lia|apply Q; destruct orb; lia]|].
  split; [rewrite <- (A 1%nat); [reflexivity|apply Q; destruct orb; lia]|].
  destruct orb.
  - apply (B 2%nat); [cbn; lia|]. intro X. apply Q in X. lia.
  - apply (A 2%nat). apply Q. lia.
Qed.
Ltac side Hr S Fw := first [exact Hr | exact S | exact Fw | reflexivity | lia | now left | now right].
Lemma energy_n (h : handle K) d g n : reachable h -> few n -> takes_energy_n h d g n ->
  exists h0, xcfun_eval_setup h (vars_of h XC_N XC_N_NX_NY_NZ) XC_PARTIAL_DERIVATIVES 0 = Ok (h0, 0) /\
   let r := py_energy_n junk mem h d g in
   ((forall i, 0 <= i < Z.of_nat n -> exists ws, xcfun_eval junk' h0 buf (point_n d g None i) = Ok ws) <-> exists a, r = Ok (h0, Some a)) /\
   forall h1 a, r = Ok (h1, a) -> h1 = h0 /\ exists b, a = Some b /\ nd_shape b = [n] /\
     forall i ws, 0 <= i < Z.of_nat n -> xcfun_eval junk' h0 buf (point_n d g None i) = Ok ws -> nd_at b i = rd buf ws 0.
Proof.
  intros Hr Fw (Sh & M & W).
  pose proof (class_setup h XC_PARTIAL_DERIVATIVES 0 XC_N XC_N_NX_NY_NZ Hr M ltac:(left; split; [reflexivity|]; split; [reflexivity|]; left; split; reflexivity)) as S.
  cbn zeta in S. fold (vars_of h XC_N XC_N_NX_NY_NZ) in S. eexists. split; [exact S|]. cbn zeta. unfold py_energy_n. rewrite Sh, M. unfold wants in W. unfold set_up, py_setup.
  unfold vars_of in *. destruct (xcfun_is_gga h).
  - destruct (W eq_refl) as (b & -> & Sb). rewrite S. cbn [obind fst snd Z.eqb]. rewrite (proj2 (shape_is_spec b _) Sb).
    eapply (method junk mem h _ _ _ _ 4 1 _ _ _ junk' buf); try side Hr S Fw.
    + intros i k Hi Hk. change 4 with (Z.of_nat 4). rewrite table_at by (cbn in *; lia). unfold point_n. destruct k as [|k]; [reflexivity|].
      rewrite (proj2 (Z.eqb_neq _ _)) by lia. rewrite (proj2 (Nat.ltb_lt k 3)) by (cbn in Hk; lia). f_equal. lia.
    + intros a Sa Ra. exact (energy_column h _ _ n _ a Hr S eq_refl Sa Ra).
  - rewrite S. cbn [obind fst snd Z.eqb].
    eapply (method junk mem h _ _ _ _ 1 1 _ _ _ junk' buf); try side Hr S Fw.
    + intros i k Hi Hk. cbn [nd_at]. destruct k as [|k]; [|cbn in Hk; lia]. cbn [point_n]. f_equal. lia.
    + intros a Sa Ra. exact (energy_column h _ _ n _ a Hr S eq_refl Sa Ra).
Qed.
Lemma potential_n (h : handle K) d g q n : reachable h -> few n -> takes_potential_n h d g q n ->
  exists h0, xcfun_eval_setup h (vars_of h XC_N XC_N_2ND_TAYLOR) XC_POTENTIAL 1 = Ok (h0, 0) /\
   let r := py_potential_n junk mem h d g q in
   ((forall i, 0 <= i < Z.of_nat n -> exists ws, xcfun_eval junk' h0 buf (point_n d g q i) = Ok ws) <-> exists a, r = Ok (h0, Some a)) /\
   forall h1 a, r = Ok (h1, a) -> h1 = h0 /\ exists b, a = Some b /\ nd_shape b = [n; 3%nat] /\
     forall i ws, 0 <= i < Z.of_nat n -> xcfun_eval junk' h0 buf (point_n d g q i) = Ok ws ->
       nd_at b (i * 3) = rd buf ws 0 /\ nd_at b (i * 3 + 1) = rd buf ws 1 /\ nd_at b (i * 3 + 2) = mem (i * 3 + 2).
Proof.
  intros Hr Fw (Sh & M & W & V).
  pose proof (class_setup h XC_POTENTIAL 1 XC_N XC_N_2ND_TAYLOR Hr M ltac:(right; split; [reflexivity|]; split; [reflexivity|]; left; split; reflexivity)) as S.
  cbn zeta in S. fold (vars_of h XC_N XC_N_2ND_TAYLOR) in S. eexists. split; [exact S|]. cbn zeta. unfold py_potential_n. rewrite Sh, M. unfold wants in W, V. unfold set_up, py_setup.
  unfold vars_of in *. destruct (xcfun_is_gga h).
  - destruct (W eq_refl) as (b & -> & Sb). destruct (V eq_refl) as (c & -> & Sc). rewrite S. cbn [obind fst snd Z.eqb].
    rewrite (proj2 (shape_is_spec b _) Sb), (proj2 (shape_is_spec c _) Sc).
    eapply (method junk mem h _ _ _ _ 10 3 _ _ _ junk' buf); try side Hr S Fw.
    + intros i k Hi Hk. change 10 with (Z.of_nat 10). rewrite table_at by (cbn in *; lia). unfold point_n. destruct k as [|k]; [reflexivity|].
      rewrite (proj2 (Z.eqb_neq _ _)) by lia. destruct (Nat.ltb_spec k 3) as [Q|Q].
      * rewrite (proj2 (Z.ltb_lt _ _)) by lia. f_equal. lia.
      * rewrite (proj2 (Z.ltb_ge _ _)) by lia. f_equal. lia.
    + intros a Sa Ra. exact (potential_columns h _ _ n 10 _ a Hr S eq_refl eq_refl Sa Ra).
  - rewrite S. cbn [obind fst snd Z.eqb].
    eapply (method junk mem h _ _ _ _ 1 3 _ _ _ junk' buf); try side Hr S Fw.
    + intros i k Hi Hk. cbn [nd_at]. destruct k as [|k]; [|cbn in Hk; lia]. cbn [point_n]. f_equal. lia.
    + intros a Sa Ra. exact (potential_columns h _ _ n 1 _ a Hr S eq_refl eq_refl Sa Ra).
Qed.
Lemma energy_ab (h : handle K) d g n : reachable h -> few n -> takes_energy_ab h d g n ->
  exists h0, xcfun_eval_setup h (vars_of h XC_A_B XC_A_B_AX_AY_AZ_BX_BY_BZ) XC_PARTIAL_DERIVATIVES 0 = Ok (h0, 0) /\
   let r := py_energy_ab junk mem h d g in
   ((forall i, 0 <= i < Z.of_nat n -> exists ws, xcfun_eval junk' h0 buf (point_ab d g i) = Ok ws) <-> exists a, r = Ok (h0, Some a)) /\
   forall h1 a, r = Ok (h1, a) -> h1 = h0 /\ exists b, a = Some b /\ nd_shape b = [n] /\
     forall i ws, 0 <= i < Z.of_nat n -> xcfun_eval junk' h0 buf (point_ab d g i) = Ok ws -> nd_at b i = rd buf ws 0.
Proof.
  intros Hr Fw (Sh & M & W).
  pose proof (class_setup h XC_PARTIAL_DERIVATIVES 0 XC_A_B XC_A_B_AX_AY_AZ_BX_BY_BZ Hr M ltac:(left; split; [reflexivity|]; split; [reflexivity|]; right; split; reflexivity)) as S.
  cbn zeta in S. fold (vars_of h XC_A_B XC_A_B_AX_AY_AZ_BX_BY_BZ) in S. eexists. split; [exact S|]. cbn zeta. unfold py_energy_ab. rewrite Sh, M. unfold wants in W. unfold set_up, py_setup.
  unfold vars_of in *. destruct (xcfun_is_gga h).
  - destruct (W eq_refl) as (b & -> & Sb). rewrite S. cbn [obind fst snd Z.eqb]. rewrite (proj2 (shape_is_spec b _) Sb).
    eapply (method junk mem h _ _ _ _ 8 1 _ _ _ junk' buf); try side Hr S Fw.
    + intros i k Hi Hk. change 8 with (Z.of_nat 8). rewrite table_at by (cbn in *; lia). unfold point_ab, spin_at.
      destruct (Nat.ltb_spec k 2) as [Q|Q]; [rewrite (proj2 (Z.ltb_lt _ _)) by lia; f_equal; lia|]. rewrite (proj2 (Z.ltb_ge (Z.of_nat k) 2)) by lia.
      destruct (Nat.ltb_spec k 5) as [Q2|Q2]; [rewrite (proj2 (Z.ltb_lt _ _)) by lia; f_equal; lia|]. rewrite (proj2 (Z.ltb_ge _ _)) by lia. f_equal; lia.
    + intros a Sa Ra. exact (energy_column h _ _ n _ a Hr S eq_refl Sa Ra).
  - rewrite S. cbn [obind fst snd Z.eqb].
    eapply (method junk mem h _ _ _ _ 2 1 _ _ _ junk' buf); try side Hr S Fw.
    + exact Sh.
    + intros i k Hi Hk. unfold point_ab. rewrite (proj2 (Nat.ltb_lt k 2)) by (cbn in Hk; lia). reflexivity.
    + intros a Sa Ra. exact (energy_column h _ _ n _ a Hr S eq_refl Sa Ra).
Qed.
Lemma potential_ab (h : handle K) d g q n : reachable h -> few n -> takes_potential_ab h d g q n ->
  exists h0, xcfun_eval_setup h (vars_of h XC_A_B XC_A_B_2ND_TAYLOR) XC_POTENTIAL 1 = Ok (h0, 0) /\
   let r := py_potential_ab junk mem h d g q in let pt := point_ab2 (xcfun_is_gga h) d g q in
   ((forall i, 0 <= i < Z.of_nat n -> exists ws, xcfun_eval junk' h0 buf (pt i) = Ok ws) <-> exists a, r = Ok (h0, Some a)) /\
   forall h1 a, r = Ok (h1, a) -> h1 = h0 /\ exists b, a = Some b /\ nd_shape b = [n; 3%nat] /\
     forall i ws, 0 <= i < Z.of_nat n -> xcfun_eval junk' h0 buf (pt i) = Ok ws ->
       nd_at b (i * 3) = rd buf ws 0 /\ nd_at b (i * 3 + 1) = rd buf ws 1 /\ nd_at b (i * 3 + 2) = rd buf ws 2.
Proof.
  intros Hr Fw (Sh & M & W & V).
  pose proof (class_setup h XC_POTENTIAL 1 XC_A_B XC_A_B_2ND_TAYLOR Hr M ltac:(right; split; [reflexivity|]; split; [reflexivity|]; right; split; reflexivity)) as S.
  cbn zeta in S. fold (vars_of h XC_A_B XC_A_B_2ND_TAYLOR) in S. eexists. split; [exact S|]. cbn zeta. unfold py_potential_ab. rewrite Sh, M. unfold wants in W, V. unfold set_up, py_setup.
  unfold vars_of in *. destruct (xcfun_is_gga h).
  - destruct (W eq_refl) as (b & -> & Sb). destruct (V eq_refl) as (c & -> & Sc). rewrite S. cbn [obind fst snd Z.eqb].
    rewrite (proj2 (shape_is_spec b _) Sb), (proj2 (shape_is_spec c _) Sc).
    eapply (method junk mem h _ _ _ _ 20 3 _ _ _ junk' buf); try side Hr S Fw.
    + intros i k Hi Hk. change 20 with (Z.of_nat 20). rewrite table_at by (cbn in *; lia). assert (Q : (k < 20)%nat) by (cbn in Hk; lia). clear Hk.
      unfold point_ab2, spin_at. do 20 (destruct k as [|k]; [cbn; f_equal; lia|]). lia.
    + intros a Sa Ra. exact (potential_columns h _ _ n 20 _ a Hr S eq_refl eq_refl Sa Ra).
  - rewrite S. cbn [obind fst snd Z.eqb].
    eapply (method junk mem h _ _ _ _ 2 3 _ _ _ junk' buf); try side Hr S Fw.
    + exact Sh.
    + intros a Sa Ra. exact (potential_columns h _ _ n 2 _ a Hr S eq_refl eq_refl Sa Ra).
Qed.
End M.

(** Which calls raise: exactly those whose arrays have the wrong shape, lack what a GGA needs,
    or whose functional is a meta-GGA. *)
Theorem C39_raises :
  forall (K : Ops) junk mem (h : handle K) d g q, reachable h ->
    (forall n m s, nd_shape d = n :: m :: s \/ nd_shape d = [n] -> few n) ->
    ((exists h', py_energy_n junk mem h d g = Ok (h', None)) <-> ~ exists n, takes_energy_n h d g n) /\
    ((exists h', py_potential_n junk mem h d g q = Ok (h', None)) <-> ~ exists n, takes_potential_n h d g q n) /\
    ((exists h', py_energy_ab junk mem h d g = Ok (h', None)) <-> ~ exists n, takes_energy_ab h d g n) /\
    ((exists h', py_potential_ab junk mem h d g q = Ok (h', None)) <-> ~ exists n, takes_potential_ab h d g q n).
Proof.
  intros K junk mem h d g q Hr Fw. split; [|split; [|split]]; (split; [intros [h' E] [n T]|intro N]).
  - destruct (energy_n junk junk mem (fun _ => OofQ 0) h d g n Hr ltac:(apply (Fw n 0%nat []); right; apply T) T) as (h0 & _ & _ & Q). destruct (Q _ _ E) as (_ & b & X & _). discriminate.
  - unfold py_energy_n. destruct (nd_shape d) as [|n [|m s]] eqn:Sh; [eexists; reflexivity| |eexists; reflexivity].
    destruct (xcfun_is_metagga h) eqn:M; [eexists; reflexivity|].
    pose proof (class_setup h XC_PARTIAL_DERIVATIVES 0 XC_N XC_N_NX_NY_NZ Hr M ltac:(left; split; [reflexivity|]; split; [reflexivity|]; left; split; reflexivity)) as S.
    cbn zeta in S. unfold set_up, py_setup. destruct (xcfun_is_gga h) eqn:G.
    + destruct g as [b|]; [|eexists; reflexivity]. rewrite S. cbn [obind fst snd Z.eqb]. destruct (shape_is b [n; 3%nat]) eqn:Sb; [|eexists; reflexivity].
      elim N. exists n. split; [exact Sh|]. split; [exact M|]. intros _. exists b. split; [reflexivity|now apply shape_is_spec].
    + elim N. exists n. split; [exact Sh|]. split; [exact M|]. unfold wants. rewrite G. discriminate.
  - destruct (potential_n junk junk mem (fun _ => OofQ 0) h d g q n Hr ltac:(apply (Fw n 0%nat []); right; apply T) T) as (h0 & _ & _ & Q). destruct (Q _ _ E) as (_ & b & X & _). discriminate.
  - unfold py_potential_n. destruct (nd_shape d) as [|n [|m s]] eqn:Sh; [eexists; reflexivity| |eexists; reflexivity].
    destruct (xcfun_is_metagga h) eqn:M; [eexists; reflexivity|].
    pose proof (class_setup h XC_POTENTIAL 1 XC_N XC_N_2ND_TAYLOR Hr M ltac:(right; split; [reflexivity|]; split; [reflexivity|]; left; split; reflexivity)) as S.
    cbn zeta in S. unfold set_up, py_setup. destruct (xcfun_is_gga h) eqn:G.
    + destruct g as [b|]; [|eexists; reflexivity]. destruct q as [c|]; [|eexists; reflexivity]. rewrite S. cbn [obind fst snd Z.eqb].
      destruct (shape_is b [n; 3%nat]) eqn:Sb; [|eexists; reflexivity]. destruct (shape_is c [n; 6%nat]) eqn:Sc; [|eexists; reflexivity].
      elim N. exists n. split; [exact Sh|]. split; [exact M|]. split; intros _; [exists b|exists c]; (split; [reflexivity|now apply shape_is_spec]).
    + elim N. exists n. split; [exact Sh|]. split; [exact M|]. unfold wants. rewrite G. split; discriminate.
  - destruct (energy_ab junk junk mem (fun _ => OofQ 0) h d g n Hr ltac:(apply (Fw n 2%nat []); left; apply T) T) as (h0 & _ & _ & Q). destruct (Q _ _ E) as (_ & b & X & _). discriminate.
  - unfold py_energy_ab. destruct (nd_shape d) as [|n [|[|[|[|m]]] [|k s]]] eqn:Sh; try (eexists; reflexivity).
    destruct (xcfun_is_metagga h) eqn:M; [eexists; reflexivity|].
    pose proof (class_setup h XC_PARTIAL_DERIVATIVES 0 XC_A_B XC_A_B_AX_AY_AZ_BX_BY_BZ Hr M ltac:(left; split; [reflexivity|]; split; [reflexivity|]; right; split; reflexivity)) as S.
    cbn zeta in S. unfold set_up, py_setup. destruct (xcfun_is_gga h) eqn:G.
    + destruct g as [b|]; [|eexists; reflexivity]. rewrite S. cbn [obind fst snd Z.eqb]. destruct (shape_is b [n; 3%nat; 2%nat]) eqn:Sb; [|eexists; reflexivity].
      elim N. exists n. split; [exact Sh|]. split; [exact M|]. intros _. exists b. split; [reflexivity|now apply shape_is_spec].
    + elim N. exists n. split; [exact Sh|]. split; [exact M|]. unfold wants. rewrite G. discriminate.
  - destruct (potential_ab junk junk mem (fun _ => OofQ 0) h d g q n Hr ltac:(apply (Fw n 2%nat []); left; apply T) T) as (h0 & _ & _ & Q). destruct (Q _ _ E) as (_ & b & X & _). discriminate.
  - unfold py_potential_ab. destruct (nd_shape d) as [|n [|[|[|[|m]]] [|k s]]] eqn:Sh; try (eexists; reflexivity).
    destruct (xcfun_is_metagga h) eqn:M; [eexists; reflexivity|].
    pose proof (class_setup h XC_POTENTIAL 1 XC_A_B XC_A_B_2ND_TAYLOR Hr M ltac:(right; split; [reflexivity|]; split; [reflexivity|]; right; split; reflexivity)) as S.
    cbn zeta in S. unfold set_up, py_setup. destruct (xcfun_is_gga h) eqn:G.
    + destruct g as [b|]; [|eexists; reflexivity]. destruct q as [c|]; [|eexists; reflexivity]. rewrite S. cbn [obind fst snd Z.eqb].
      destruct (shape_is b [n; 3%nat; 2%nat]) eqn:Sb; [|eexists; reflexivity]. destruct (shape_is c [n; 6%nat; 2%nat]) eqn:Sc; [|eexists; reflexivity].
      elim N. exists n. split; [exact Sh|]. split; [exact M|]. split; intros _; [exists b|exists c]; (split; [reflexivity|now apply shape_is_spec]).
    + elim N. exists n. split; [exact Sh|]. split; [exact M|]. unfold wants. rewrite G. split; discriminate.
Qed.
Print Assumptions C39_raises.

(** Otherwise the methods return exactly when every point can be evaluated, and entry [i] of
    the energies is what the C interface gives for point [i].  The object is left set up for
    that evaluation. *)
Theorem C39_energy_n :
  forall (K : Ops) junk junk' mem buf (h : handle K) d g n, reachable h -> few n -> takes_energy_n h d g n ->
  exists h0, xcfun_eval_setup h (vars_of h XC_N XC_N_NX_NY_NZ) XC_PARTIAL_DERIVATIVES 0 = Ok (h0, 0) /\
   let r := py_energy_n junk mem h d g in
   ((forall i, 0 <= i < Z.of_nat n -> exists ws, xcfun_eval junk' h0 buf (point_n d g None i) = Ok ws) <-> exists a, r = Ok (h0, Some a)) /\
   forall h1 a, r = Ok (h1, a) -> h1 = h0 /\ exists b, a = Some b /\ nd_shape b = [n] /\
     forall i ws, 0 <= i < Z.of_nat n -> xcfun_eval junk' h0 buf (point_n d g None i) = Ok ws -> nd_at b i = rd buf ws 0.
Proof. intros K junk junk' mem buf h d g n. exact (energy_n junk junk' mem buf h d g n). Qed.
Print Assumptions C39_energy_n.
Theorem C39_energy_ab :
  forall (K : Ops) junk junk' mem buf (h : handle K) d g n, reachable h -> few n -> takes_energy_ab h d g n ->
  exists h0, xcfun_eval_setup h (vars_of h XC_A_B XC_A_B_AX_AY_AZ_BX_BY_BZ) XC_PARTIAL_DERIVATIVES 0 = Ok (h0, 0) /\
   let r := py_energy_ab junk mem h d g in
   ((forall i, 0 <= i < Z.of_nat n -> exists ws, xcfun_eval junk' h0 buf (point_ab d g i) = Ok ws) <-> exists a, r = Ok (h0, Some a)) /\
   forall h1 a, r = Ok (h1, a) -> h1 = h0 /\ exists b, a = Some b /\ nd_shape b = [n] /\
     forall i ws, 0 <= i < Z.of_nat n -> xcfun_eval junk' h0 buf (point_ab d g i) = Ok ws -> nd_at b i = rd buf ws 0.
Proof. intros K junk junk' mem buf h d g n. exact (energy_ab junk junk' mem buf h d g n). Qed.
Print Assumptions C39_energy_ab.
(** Spin-resolved potentials: three columns, all of them results. *)
Theorem C39_potential_ab :
  forall (K : Ops) junk junk' mem buf (h : handle K) d g q n, reachable h -> few n -> takes_potential_ab h d g q n ->
  exists h0, xcfun_eval_setup h (vars_of h XC_A_B XC_A_B_2ND_TAYLOR) XC_POTENTIAL 1 = Ok (h0, 0) /\
   let r := py_potential_ab junk mem h d g q in let pt := point_ab2 (xcfun_is_gga h) d g q in
   ((forall i, 0 <= i < Z.of_nat n -> exists ws, xcfun_eval junk' h0 buf (pt i) = Ok ws) <-> exists a, r = Ok (h0, Some a)) /\
   forall h1 a, r = Ok (h1, a) -> h1 = h0 /\ exists b, a = Some b /\ nd_shape b = [n; 3%nat] /\
     forall i ws, 0 <= i < Z.of_nat n -> xcfun_eval junk' h0 buf (pt i) = Ok ws ->
       nd_at b (i * 3) = rd buf ws 0 /\ nd_at b (i * 3 + 1) = rd buf ws 1 /\ nd_at b (i * 3 + 2) = rd buf ws 2.
Proof. intros K junk junk' mem buf h d g q n. exact (potential_ab junk junk' mem buf h d g q n). Qed.
Print Assumptions C39_potential_ab.
(** Spin-compensated potentials: the energy and the potential are in the first two columns.
    The documentation promises an array of shape (n, 2); that is refuted below, hence
    [_partial]: the full claim adds [nd_shape b = [n; 2]]. *)
Theorem C39_potential_n_partial :
  forall (K : Ops) junk junk' mem buf (h : handle K) d g q n, reachable h -> few n -> takes_potential_n h d g q n ->
  exists h0, xcfun_eval_setup h (vars_of h XC_N XC_N_2ND_TAYLOR) XC_POTENTIAL 1 = Ok (h0, 0) /\
   let r := py_potential_n junk mem h d g q in
   ((forall i, 0 <= i < Z.of_nat n -> exists ws, xcfun_eval junk' h0 buf (point_n d g q i) = Ok ws) <-> exists a, r = Ok (h0, Some a)) /\
   forall h1 a, r = Ok (h1, a) -> h1 = h0 /\ exists b, a = Some b /\ hd 0%nat (nd_shape b) = n /\
     let c := Z.of_nat (nth 1 (nd_shape b) 0%nat) in
     forall i ws, 0 <= i < Z.of_nat n -> xcfun_eval junk' h0 buf (point_n d g q i) = Ok ws ->
       nd_at b (i * c) = rd buf ws 0 /\ nd_at b (i * c + 1) = rd buf ws 1.
Proof.
  intros K junk junk' mem buf h d g q n Hr Fw T. destruct (potential_n junk junk' mem buf h d g q n Hr Fw T) as (h0 & S & A & B).
  exists h0. split; [exact S|]. split; [exact A|]. intros h1 a E. destruct (B h1 a E) as (-> & b & -> & Sb & C). split; [reflexivity|].
  exists b. split; [reflexivity|]. rewrite Sb. split; [reflexivity|]. intros c i ws Hi Ei. destruct (C i ws Hi Ei) as (C0 & C1 & _). split; assumption.
Qed.
Print Assumptions C39_potential_n_partial.
(** eval_potential_n returns a third column, and what it holds is whatever the memory held
    before: for every functional and every accepted argument. *)
Theorem C39_third_column :
  forall (K : Ops) junk (h : handle K) d g q n, reachable h -> few n -> takes_potential_n h d g q n ->
  (forall mem h1 a, py_potential_n junk mem h d g q = Ok (h1, Some a) ->
     nd_shape a = [n; 3%nat] /\ nd_shape a <> [n; 2%nat] /\ forall i, 0 <= i < Z.of_nat n -> nd_at a (i * 3 + 2) = mem (i * 3 + 2)).
Proof.
  intros K junk h d g q n Hr Fw T mem h1 a E. destruct (potential_n junk junk mem (fun _ => OofQ 0) h d g q n Hr Fw T) as (h0 & S & A & B).
  destruct (B _ _ E) as (-> & b & X & Sb & C). injection X as <-. split; [exact Sb|]. split; [rewrite Sb; discriminate|]. intros i Hi.
  destruct (proj2 A (ex_intro _ a E) i Hi) as [ws Ew]. destruct (C i ws Hi Ew) as (_ & _ & C2). exact C2.
Qed.
Print Assumptions C39_third_column.
(** xcfun_eval on a one-dimensional array (one point): the array returned has as many rows
    as there are input variables, of which only the first is written. *)
Theorem C39_one_point_rows :
  forall (K : Ops) junk mem (h h' : handle K) v o (d a : ndarray K) L M, reachable h ->
    xcfun_eval_setup h v XC_PARTIAL_DERIVATIVES o = Ok (h', 0) -> xcfun_input_length h' = Ok L -> xcfun_output_length h' = Ok M ->
    nd_shape d = [Z.to_nat L] -> py_eval junk mem h' d = Ok (Some a) ->
    nd_shape a = [Z.to_nat L; Z.to_nat M] /\
    forall i p, (0 < i < Z.to_nat L)%nat -> (p < Z.to_nat M)%nat -> nd_at a (Z.of_nat i * M + Z.of_nat p) = mem (Z.of_nat i * M + Z.of_nat p).
Proof.
  intros K junk mem h h' v o d a L M Hr S EL EM Sh E. unfold py_eval in E. rewrite EL, EM in E. cbn [obind] in E. rewrite Sh in E. cbn [last] in E.
  destruct (negb _) eqn:Ng; [discriminate|].
  destruct (xcfun_eval junk h' (fun k => mem (Z.of_nat k)) (fun k => nd_at d (Z.of_nat k))) as [ws| | |] eqn:Ev; try discriminate. cbn [obind] in E. injection E as <-.
  cbn [nd_shape nd_at]. split; [reflexivity|]. intros i p Hi Hp.
  pose proof (C08_partial_writes_output_length K junk h h' v o _ _ _ M Hr S EM Ev) as W.
  apply store_other. intros q Hq. apply W in Hq. nia.
Qed.
Print Assumptions C39_one_point_rows.

(** *** Physical densities *)
(** The arrays hold a density at each of [n] points, in the layout of the docstrings. *)
Definition samples_n (d : ndarray ROps) (g q : option (ndarray ROps)) (n : nat) (D : Z -> dens) : Prop :=
  forall i, 0 <= i < Z.of_nat n ->
    nd_at d i = tot rho (D i) /\
    (forall a k, g = Some a -> (k < 3)%nat -> nd_at a (i * 3 + Z.of_nat k) = nth k (comps (gN (D i))) 0%R) /\
    (forall a k, q = Some a -> (k < 6)%nat -> nd_at a (i * 6 + Z.of_nat k) = nth k (hcomps (hadd (hes (al (D i))) (hes (be (D i))))) 0%R).
Definition samples_ab (d : ndarray ROps) (g q : option (ndarray ROps)) (n : nat) (D : Z -> dens) : Prop :=
  forall i, 0 <= i < Z.of_nat n ->
    (nd_at d (i * 2) = rho (al (D i)) /\ nd_at d (i * 2 + 1) = rho (be (D i))) /\
    (forall a k, g = Some a -> (k < 3)%nat -> nd_at a ((i * 3 + Z.of_nat k) * 2) = nth k (comps (grad (al (D i)))) 0%R /\
                                         nd_at a ((i * 3 + Z.of_nat k) * 2 + 1) = nth k (comps (grad (be (D i)))) 0%R) /\
    (forall a k, q = Some a -> (k < 6)%nat -> nd_at a ((i * 6 + Z.of_nat k) * 2) = nth k (hcomps (hes (al (D i)))) 0%R /\
                                         nd_at a ((i * 6 + Z.of_nat k) * 2 + 1) = nth k (hcomps (hes (be (D i)))) 0%R).
Lemma describes_n (h : handle ROps) d g n D i : wants h g [n; 3%nat] -> samples_n d g None n D -> 0 <= i < Z.of_nat n -> closed (D i) ->
  describes (vars_of h XC_N XC_N_NX_NY_NZ) (point_n d g None i) (D i).
Proof.
  intros W Sm Hi Cl. destruct (Sm i Hi) as (A & B & _). unfold vars_of, wants in *. destruct (xcfun_is_gga h).
  - destruct (W eq_refl) as (b & -> & _). split; [right; split; [cbn; tauto|exact Cl]|]. intros k Hk. cbn in Hk.
    destruct k as [|[|[|[|k]]]]; [exact A| | | |lia]; [exact (B b 0%nat eq_refl ltac:(lia))|exact (B b 1%nat eq_refl ltac:(lia))|exact (B b 2%nat eq_refl ltac:(lia))].
  - split; [right; split; [cbn; tauto|exact Cl]|]. intros k Hk. cbn in Hk. destruct k as [|k]; [exact A|lia].
Qed.
Lemma describes_ab (h : handle ROps) d g n D i : wants h g [n; 3%nat; 2%nat] -> samples_ab d g None n D -> 0 <= i < Z.of_nat n ->
  describes (vars_of h XC_A_B XC_A_B_AX_AY_AZ_BX_BY_BZ) (point_ab d g i) (D i).
Proof.
  intros W Sm Hi. destruct (Sm i Hi) as ((A0 & A1) & B & _). unfold vars_of, wants in *. destruct (xcfun_is_gga h).
  - destruct (W eq_refl) as (b & -> & _). split; [left; cbn; tauto|]. intros k Hk. cbn in Hk.
    destruct k as [|[|[|[|[|[|[|[|k]]]]]]]]; [|exact A1| | | | | | |lia].
    + etransitivity; [|exact A0]. unfold point_ab. cbn [Nat.ltb Nat.leb]. f_equal. lia.
    + etransitivity; [|exact (proj1 (B b 0%nat eq_refl ltac:(lia)))]. cbn. f_equal. lia.
    + etransitivity; [|exact (proj1 (B b 1%nat eq_refl ltac:(lia)))]. cbn. f_equal. lia.
    + etransitivity; [|exact (proj1 (B b 2%nat eq_refl ltac:(lia)))]. cbn. f_equal. lia.
    + exact (proj2 (B b 0%nat eq_refl ltac:(lia))).
    + exact (proj2 (B b 1%nat eq_refl ltac:(lia))).
    + exact (proj2 (B b 2%nat eq_refl ltac:(lia))).
  - split; [left; cbn; tauto|]. intros k Hk. cbn in Hk. destruct k as [|[|k]]; [|exact A1|lia].
    etransitivity; [|exact A0]. unfold point_ab. cbn [Nat.ltb Nat.leb]. f_equal. lia.
Qed.
Lemma describes_n2 (h : handle ROps) d g q n D i : wants h g [n; 3%nat] -> wants h q [n; 6%nat] -> samples_n d g q n D -> 0 <= i < Z.of_nat n -> closed (D i) ->
  describes (vars_of h XC_N XC_N_2ND_TAYLOR) (point_n d g q i) (D i).
Proof.
  intros W V Sm Hi Cl. destruct (Sm i Hi) as (A & B & C). unfold vars_of, wants in *. destruct (xcfun_is_gga h).
  - destruct (W eq_refl) as (b & -> & _). destruct (V eq_refl) as (c & -> & _). split; [right; split; [cbn; tauto|exact Cl]|]. intros k Hk. cbn in Hk.
    destruct k as [|[|[|[|k]]]]; [exact A| | | |]; [exact (B b 0%nat eq_refl ltac:(lia))|exact (B b 1%nat eq_refl ltac:(lia))|exact (B b 2%nat eq_refl ltac:(lia))|].
    destruct k as [|[|[|[|[|[|k]]]]]]; [| | | | | |lia].
    + exact (C c 0%nat eq_refl ltac:(lia)).
    + exact (C c 1%nat eq_refl ltac:(lia)).
    + exact (C c 2%nat eq_refl ltac:(lia)).
    + exact (C c 3%nat eq_refl ltac:(lia)).
    + exact (C c 4%nat eq_refl ltac:(lia)).
    + exact (C c 5%nat eq_refl ltac:(lia)).
  - split; [right; split; [cbn; tauto|exact Cl]|]. intros k Hk. cbn in Hk. destruct k as [|k]; [exact A|lia].
Qed.
Lemma describes_ab2 (h : handle ROps) d g q n D i : wants h g [n; 3%nat; 2%nat] -> wants h q [n; 6%nat; 2%nat] -> samples_ab d g q n D -> 0 <= i < Z.of_nat n ->
  describes (vars_of h XC_A_B XC_A_B_2ND_TAYLOR) (point_ab2 (xcfun_is_gga h) d g q i) (D i).
Proof.
  intros W V Sm Hi. destruct (Sm i Hi) as ((A0 & A1) & B & C). unfold vars_of, wants in *. destruct (xcfun_is_gga h).
  - destruct (W eq_refl) as (b & -> & _). destruct (V eq_refl) as (c & -> & _). split; [left; cbn; tauto|]. intros k Hk. cbn in Hk.
    assert (Bk : forall k, (k < 3)%nat -> nd_at b ((i * 3 + Z.of_nat k) * 2 + 0) = nth k (comps (grad (al (D i)))) 0%R) by (intros j Hj; rewrite Z.add_0_r; apply (B b j eq_refl Hj)).
    assert (Ck : forall k, (k < 6)%nat -> nd_at c ((i * 6 + Z.of_nat k) * 2 + 0) = nth k (hcomps (hes (al (D i)))) 0%R) by (intros j Hj; rewrite Z.add_0_r; apply (C c j eq_refl Hj)).
    assert (Bl : forall k, (k < 3)%nat -> nd_at b ((i * 3 + Z.of_nat k) * 2 + 1) = nth k (comps (grad (be (D i)))) 0%R) by (intros j Hj; apply (B b j eq_refl Hj)).
    assert (Cl : forall k, (k < 6)%nat -> nd_at c ((i * 6 + Z.of_nat k) * 2 + 1) = nth k (hcomps (hes (be (D i)))) 0%R) by (intros j Hj; apply (C c j eq_refl Hj)).
    destruct k as [|[|[|[|[|[|[|[|[|[|k]]]]]]]]]]; [rewrite <- (Z.add_0_r (i * 2)) in A0; exact A0|
      exact (Bk 0%nat ltac:(lia))|exact (Bk 1%nat ltac:(lia))|exact (Bk 2%nat ltac:(lia))|exact (Ck 0%nat ltac:(lia))|exact (Ck 1%nat ltac:(lia))|exact (Ck 2%nat ltac:(lia))|
      exact (Ck 3%nat ltac:(lia))|exact (Ck 4%nat ltac:(lia))|exact (Ck 5%nat ltac:(lia))|].
    destruct k as [|[|[|[|[|[|[|[|[|[|k]]]]]]]]]]; [exact A1|
      exact (Bl 0%nat ltac:(lia))|exact (Bl 1%nat ltac:(lia))|exact (Bl 2%nat ltac:(lia))|exact (Cl 0%nat ltac:(lia))|exact (Cl 1%nat ltac:(lia))|exact (Cl 2%nat ltac:(lia))|
      exact (Cl 3%nat ltac:(lia))|exact (Cl 4%nat ltac:(lia))|exact (Cl 5%nat ltac:(lia))|lia].
  - split; [left; cbn; tauto|]. intros k Hk. cbn in Hk. destruct k as [|[|k]]; [|exact A1|lia].
    unfold point_ab2. rewrite Z.add_0_r. exact A0.
Qed.
(** On physical densities at or above the threshold, with functionals covered by C33, every
    method returns. *)
Theorem C39_defined :
  forall junk mem (h : handle ROps) d g q n D, reachable h -> few n -> (0 < (h_settings h XC_RANGESEP_MU : R))%R ->
    (forall i, 0 <= i < Z.of_nat n -> above (D i) /\ all_covered h (D i)) ->
    (takes_energy_n h d g n -> samples_n d g None n D -> (forall i, 0 <= i < Z.of_nat n -> closed (D i)) -> exists h1 a, py_energy_n junk mem h d g = Ok (h1, Some a)) /\
    (takes_potential_n h d g q n -> samples_n d g q n D -> (forall i, 0 <= i < Z.of_nat n -> closed (D i)) -> exists h1 a, py_potential_n junk mem h d g q = Ok (h1, Some a)) /\
    (takes_energy_ab h d g n -> samples_ab d g None n D -> exists h1 a, py_energy_ab junk mem h d g = Ok (h1, Some a)) /\
    (takes_potential_ab h d g q n -> samples_ab d g q n D -> exists h1 a, py_potential_ab junk mem h d g q = Ok (h1, Some a)).
Proof.
  intros junk mem h d g q n D Hr Fw Mu Ph. split; [|split; [|split]].
  - intros T Sm Cl. destruct (energy_n junk junk mem (fun _ => 0%R) h d g n Hr Fw T) as (h0 & S & A & _). exists h0. apply A. intros i Hi. destruct (Ph i Hi) as [Ab Ac].
    eapply C33_partial_defined; [exact Hr|exact S|lia|exact Mu|exact Ac|exact Ab|]. eapply describes_n; [apply T|exact Sm|exact Hi|now apply Cl].
  - intros T Sm Cl. destruct (potential_n junk junk mem (fun _ => 0%R) h d g q n Hr Fw T) as (h0 & S & A & _). exists h0. apply A. intros i Hi. destruct (Ph i Hi) as [Ab Ac].
    eapply C33_potential_defined; [exact Hr|exact S|exact Mu|exact Ac|exact Ab|]. eapply describes_n2; [apply T|apply T|exact Sm|exact Hi|now apply Cl].
  - intros T Sm. destruct (energy_ab junk junk mem (fun _ => 0%R) h d g n Hr Fw T) as (h0 & S & A & _). exists h0. apply A. intros i Hi. destruct (Ph i Hi) as [Ab Ac].
    eapply C33_partial_defined; [exact Hr|exact S|lia|exact Mu|exact Ac|exact Ab|]. eapply describes_ab; [apply T|exact Sm|exact Hi].
  - intros T Sm. destruct (potential_ab junk junk mem (fun _ => 0%R) h d g q n Hr Fw T) as (h0 & S & A & _). exists h0. apply A. intros i Hi. destruct (Ph i Hi) as [Ab Ac].
    eapply C33_potential_defined; [exact Hr|exact S|exact Mu|exact Ac|exact Ab|]. eapply describes_ab2; [apply T|apply T|exact Sm|exact Hi].
Qed.
Print Assumptions C39_defined.
(** For a closed shell the spin-compensated and the spin-resolved method, called one after
    the other on the same object, give the same energies. *)
Theorem C39_closed_shell :
  forall junk mem mem' (h h1 : handle ROps) d g d' g' n D a, reachable h -> few n ->
    ~ In XC_REVTPSSX_id (h_active h) ->
    takes_energy_n h d g n -> takes_energy_ab h d' g' n -> samples_n d g None n D -> samples_ab d' g' None n D ->
    (forall i, 0 <= i < Z.of_nat n -> closed (D i) /\ above (D i)) ->
    py_energy_n junk mem h d g = Ok (h1, Some a) ->
    exists h2 b, py_energy_ab junk mem' h1 d' g' = Ok (h2, Some b) /\ nd_shape b = nd_shape a /\
      forall i, 0 <= i < Z.of_nat n -> nd_at b i = nd_at a i.
Proof.
  intros junk mem mem' h h1 d g d' g' n D a Hr Fw Nt T T' Sm Sm' Ph E. set (j0 := fun n (_ : nat) => rconst n 0%R). set (z := (fun _ : nat => 0%R) : nat -> ROps).
  destruct (energy_n junk j0 mem z h d g n Hr Fw T) as (h0 & S & A & B). destruct (B _ _ E) as (-> & b0 & X & Sa & Ra). injection X as <-.
  pose proof S as S'. pose proof (class_setup h XC_PARTIAL_DERIVATIVES 0 XC_N XC_N_NX_NY_NZ Hr (proj1 (proj2 T)) ltac:(left; split; [reflexivity|]; split; [reflexivity|]; left; split; reflexivity)) as S2.
  cbn zeta in S2. unfold vars_of in S'. rewrite S2 in S'. injection S' as S'.
  assert (Hr0 : reachable h0) by (eapply reach_setup; [exact Hr|exact S]).
  assert (G0 : xcfun_is_gga h0 = xcfun_is_gga h) by (rewrite <- S'; reflexivity).
  assert (T0 : takes_energy_ab h0 d' g' n).
  { destruct T' as (X1 & X2 & X3). split; [exact X1|]. split; [rewrite <- S'; exact X2|]. unfold wants in *. rewrite G0. exact X3. }
  destruct (energy_ab junk j0 mem' z h0 d' g' n Hr0 Fw T0) as (h2 & U & A' & B').
  assert (U0 : xcfun_eval_setup h (vars_of h XC_A_B XC_A_B_AX_AY_AZ_BX_BY_BZ) XC_PARTIAL_DERIVATIVES 0 = Ok (h2, 0)).
  { pose proof (class_setup h XC_PARTIAL_DERIVATIVES 0 XC_A_B XC_A_B_AX_AY_AZ_BX_BY_BZ Hr (proj1 (proj2 T)) ltac:(left; split; [reflexivity|]; split; [reflexivity|]; right; split; reflexivity)) as Y.
    pose proof (class_setup h0 XC_PARTIAL_DERIVATIVES 0 XC_A_B XC_A_B_AX_AY_AZ_BX_BY_BZ Hr0 (proj1 (proj2 T0)) ltac:(left; split; [reflexivity|]; split; [reflexivity|]; right; split; reflexivity)) as Y0.
    cbn zeta in Y, Y0. unfold vars_of in *. rewrite Y. rewrite Y0 in U. rewrite G0 in U. rewrite <- U, <- S'. reflexivity. }
  assert (Eq : forall i e, 0 <= i < Z.of_nat n -> library_energy h0 (point_n d g None i) e -> library_energy h2 (point_ab d' g' i) e).
  { intros i e Hi Le. destruct (Ph i Hi) as [Cl Ab]. eapply C18_equivalent_variables; [exact Hr|exact S|exact U0| | |exact Ab| | |exact Le].
    - intro X. contradiction.
    - intro X. contradiction.
    - eapply describes_n; [apply T|exact Sm|exact Hi|exact Cl].
    - eapply describes_ab; [apply T'|exact Sm'|exact Hi]. }
  assert (Ev : forall i, 0 <= i < Z.of_nat n -> library_energy h0 (point_n d g None i) (nd_at a i)).
  { intros i Hi. destruct (proj2 A (ex_intro _ a E) i Hi) as [ws Ew]. exists ws. split; [exact Ew|]. symmetry. exact (Ra i ws Hi Ew). }
  assert (Ok2 : exists b, py_energy_ab junk mem' h0 d' g' = Ok (h2, Some b)).
  { apply A'. intros i Hi. destruct (Eq i _ Hi (Ev i Hi)) as (ws & Ew & _). eauto. }
  destruct Ok2 as [b Eb]. exists h2, b. split; [exact Eb|]. destruct (B' _ _ Eb) as (_ & b' & X & Sb & Rb). injection X as <-.
  split; [congruence|]. intros i Hi. destruct (Eq i _ Hi (Ev i Hi)) as (ws & Ew & Er). rewrite <- Er. exact (Rb i ws Hi Ew).
Qed.
Print Assumptions C39_closed_shell.

(** *** Concrete cases and refutations *)
(** Every field of densities can be sampled. *)
Local Opaque table.
Lemma sampling n D : exists d g q d' g' q', nd_shape d = [n] /\ nd_shape g = [n; 3%nat] /\ nd_shape q = [n; 6%nat] /\
  nd_shape d' = [n; 2%nat] /\ nd_shape g' = [n; 3%nat; 2%nat] /\ nd_shape q' = [n; 6%nat; 2%nat] /\
  samples_n d (Some g) (Some q) n D /\ samples_ab d' (Some g') (Some q') n D.
Proof.
  set (sp := fun (i s : Z) => if Z.eqb s 0 then al (D i) else be (D i)).
  exists {| nd_shape := [n]; nd_at := fun i => tot rho (D i) : T ROps |}.
  exists (table (K := ROps) n 3 (fun i j => nth (Z.to_nat j) (comps (gN (D i))) 0%R)).
  exists (table (K := ROps) n 6 (fun i j => nth (Z.to_nat j) (hcomps (hadd (hes (al (D i))) (hes (be (D i))))) 0%R)).
  exists (table (K := ROps) n 2 (fun i j => rho (sp i j))).
  exists {| nd_shape := [n; 3%nat; 2%nat]; nd_at := nd_at (table (K := ROps) (n * 3) 2 (fun r s => nth (Z.to_nat (r mod 3)) (comps (grad (sp (r / 3) s))) 0%R)) |}.
  exists {| nd_shape := [n; 6%nat; 2%nat]; nd_at := nd_at (table (K := ROps) (n * 6) 2 (fun r s => nth (Z.to_nat (r mod 6)) (hcomps (hes (sp (r / 6) s))) 0%R)) |}.
  do 6 (split; [reflexivity|]). split; intros i Hi.
  - split; [reflexivity|]. split; intros a k E Hk; injection E as <-.
    + change 3 with (Z.of_nat 3). rewrite table_at by lia. now rewrite Nat2Z.id.
    + change 6 with (Z.of_nat 6). rewrite table_at by lia. now rewrite Nat2Z.id.
  - assert (T0 : forall m f z, nd_at (table (K := ROps) m 2 f) (z * 2) = f z 0) by (intros m f z; pose proof (table_at (K := ROps) m 2 f z 0 ltac:(lia) ltac:(lia)) as X; cbn [Z.of_nat] in X; rewrite Z.add_0_r in X; exact X).
    assert (T1 : forall m f z, nd_at (table (K := ROps) m 2 f) (z * 2 + 1) = f z 1) by (intros m f z; exact (table_at (K := ROps) m 2 f z 1 ltac:(lia) ltac:(lia))).
    assert (Dm : forall c k, (k < c)%nat -> (i * Z.of_nat c + Z.of_nat k) / Z.of_nat c = i /\ Z.to_nat ((i * Z.of_nat c + Z.of_nat k) mod Z.of_nat c) = k).
    { intros c k Hk. split; [rewrite Z.div_add_l by lia; rewrite Z.div_small by lia; lia|]. rewrite Z.add_comm, Z_mod_plus_full, Z.mod_small by lia. lia. }
    split; [split; [now rewrite T0|now rewrite T1]|]. split; intros a k E Hk; injection E as <-; cbn [nd_at]; rewrite T0, T1.
    + destruct (Dm 3%nat k Hk) as [D1 D2]. cbn [Z.of_nat Pos.of_succ_nat Pos.succ] in D1, D2. rewrite D1, D2. split; reflexivity.
    + destruct (Dm 6%nat k Hk) as [D1 D2]. cbn [Z.of_nat Pos.of_succ_nat Pos.succ] in D1, D2. rewrite D1, D2. split; reflexivity.
Qed.
Local Transparent table.
(** A closed-shell density on two points, the second denser and steeper. *)
Definition shell (i : Z) : dens :=
  let s := {| rho := IZR (i + 1); grad := V (IZR (2 * i + 1)) 0 (/ 2); hes := Hes 1 0 0 2 0 (-1); kin := 1; jp := 0 |} in {| al := s; be := s |}.
Lemma shell_ok i : 0 <= i < 2 -> closed (shell i) /\ above (shell i) /\ (0 < vx (grad (al (shell i))))%R.
Proof.
  intro Hi. split; [reflexivity|]. assert (i = 0 \/ i = 1) as [-> | ->] by lia.
  - cbn. unfold above, threshold, TINY, Q2R. cbn. split; [split|]; lra.
  - cbn. unfold above, threshold, TINY, Q2R. cbn. split; [split|]; lra.
Qed.
Lemma pbe_object : exists h : handle ROps, py_functional [("pbex"%string, 1%R : T ROps); ("pbec"%string, 1%R : T ROps)] = Ok (Some h) /\ reachable h /\ h_active h = [5; 4]%nat /\
  (0 < (h_settings h XC_RANGESEP_MU : R))%R /\ xcfun_is_metagga h = false /\ xcfun_is_gga h = true /\ forall D, all_covered h D.
Proof.
  destruct (make (K := ROps) [("pbex"%string, 5%nat, 1%R); ("pbec"%string, 4%nat, 1%R)] eq_refl) as (h & Eh & Hr & A & Es). change (mactive _) with [5; 4]%nat in A.
  exists h. split.
  { destruct (C39_construct ROps [("pbex"%string, 1%R : T ROps); ("pbec"%string, 1%R : T ROps)]) as [X Y]. destruct Y as [Y | (h1 & Y & _ & R1)].
    - apply X in Y. destruct Y as (p & Hp & N1 & _). exfalso. destruct Hp as [<- | [<- | []]].
      + refine (N1 5%nat _). exists "PBEX"%string. split; [reflexivity|]. apply strcasecmp_ci. reflexivity.
      + refine (N1 4%nat _). exists "PBEC"%string. split; [reflexivity|]. apply strcasecmp_ci. reflexivity.
    - rewrite Y. cbn [map fst snd] in R1, Eh. rewrite Eh in R1. injection R1 as ->. reflexivity. }
  split; [exact Hr|]. split; [exact A|].
  split; [rewrite Es; unfold msettings; cbn [map fold_left fst snd]; unfold wr_settings, upd; cbn; unfold Q2R; cbn; lra|].
  pose proof (reachable_wf h Hr) as (_ & _ & Dp). unfold xcfun_is_metagga, xcfun_is_gga. rewrite Dp, A.
  split; [vm_compute; reflexivity|]. split; [vm_compute; reflexivity|].
  intros D i nm Hi N. rewrite A in Hi. left. destruct Hi as [<- | [<- | []]]; cbn in N; injection N as <-; cbn; tauto.
Qed.
Example C39_case : exists (h : handle ROps) d g q d' g' q' D, reachable h /\ few 2 /\
  (0 < (h_settings h XC_RANGESEP_MU : R))%R /\ ~ In XC_REVTPSSX_id (h_active h) /\
  (forall i, 0 <= i < Z.of_nat 2 -> closed (D i) /\ above (D i) /\ all_covered h (D i)) /\
  takes_energy_n h d (Some g) 2 /\ takes_potential_n h d (Some g) (Some q) 2 /\ samples_n d (Some g) (Some q) 2 D /\ samples_n d (Some g) None 2 D /\
  takes_energy_ab h d' (Some g') 2 /\ takes_potential_ab h d' (Some g') (Some q') 2 /\ samples_ab d' (Some g') (Some q') 2 D /\ samples_ab d' (Some g') None 2 D /\
  forall junk mem, exists h1 a, py_energy_n junk mem h d (Some g) = Ok (h1, Some a).
Proof.
  destruct pbe_object as (h & _ & Hr & A & Mu & M & G & Ac). destruct (sampling 2 shell) as (d & g & q & d' & g' & q' & S1 & S2 & S3 & S4 & S5 & S6 & Sn & Sa).
  assert (Tn : takes_energy_n h d (Some g) 2) by (split; [exact S1|]; split; [exact M|]; intros _; eauto).
  assert (Sn0 : samples_n d (Some g) None 2 shell).
  { intros i Hi. destruct (Sn i Hi) as (X & Y & _). split; [exact X|]. split; [exact Y|]. discriminate. }
  assert (Fw : few 2) by (unfold few; lia).
  assert (Ph : forall i, 0 <= i < Z.of_nat 2 -> closed (shell i) /\ above (shell i) /\ all_covered h (shell i)).
  { intros i Hi. destruct (shell_ok i Hi) as (X & Y & _). split; [exact X|]. split; [exact Y|apply Ac]. }
  exists h, d, g, q, d', g', q', shell. split; [exact Hr|]. split; [exact Fw|]. split; [exact Mu|].
  split; [rewrite A; vm_compute; intuition discriminate|]. split; [exact Ph|].
  split; [exact Tn|]. split; [split; [exact S1|]; split; [exact M|]; split; intros _; eauto|]. split; [exact Sn|]. split; [exact Sn0|].
  split; [split; [exact S4|]; split; [exact M|]; intros _; eauto|]. split; [split; [exact S4|]; split; [exact M|]; split; intros _; eauto|]. split; [exact Sa|].
  split; [intros i Hi; destruct (Sa i Hi) as (X & Y & _); split; [exact X|]; split; [exact Y|]; discriminate|].
  intros junk mem. apply (C39_defined junk mem h d (Some g) (Some q) 2 shell Hr Fw Mu); [|exact Tn|exact Sn0|].
  - intros i Hi. apply Ph in Hi. tauto.
  - intros i Hi. now apply Ph.
Qed.
(** PBE on the two points: the potential comes back with a third column that is not a result. *)
Theorem C39_potential_n_refuted :
  exists (h : handle ROps) d g q, reachable h /\ takes_potential_n h d (Some g) (Some q) 2 /\
    forall junk mem, exists h1 a, py_potential_n junk mem h d (Some g) (Some q) = Ok (h1, Some a) /\
      nd_shape a <> [2; 2]%nat /\ nd_shape a = [2; 3]%nat /\ nd_at a 2 = mem 2 /\ nd_at a 5 = mem 5.
Proof.
  destruct C39_case as (h & d & g & q & _ & _ & _ & D & Hr & Fw & Mu & _ & Ph & _ & T & Sn & _). exists h, d, g, q. split; [exact Hr|]. split; [exact T|].
  intros junk mem. destruct (C39_defined junk mem h d (Some g) (Some q) 2 D Hr Fw Mu) as (_ & P & _); [intros i Hi; apply Ph in Hi; tauto|].
  destruct P as (h1 & a & E); [exact T|exact Sn|intros i Hi; now apply Ph|]. exists h1, a. split; [exact E|].
  destruct (C39_third_column ROps junk h d (Some g) (Some q) 2 Hr Fw T mem h1 a E) as (X & Y & Z). split; [exact Y|]. split; [exact X|].
  split; [exact (Z 0 ltac:(lia))|exact (Z 1 ltac:(lia))].
Qed.
Print Assumptions C39_potential_n_refuted.
Lemma py_one_row {K : Ops} junk mem (h : handle K) (d : ndarray K) L M ws : xcfun_input_length h = Ok L -> xcfun_output_length h = Ok M -> 0 <= L -> nd_shape d = [Z.to_nat L] ->
  xcfun_eval junk h (fun k => mem (Z.of_nat k)) (fun k => nd_at d (Z.of_nat k)) = Ok ws ->
  py_eval junk mem h d = Ok (Some {| nd_shape := [Z.to_nat L; Z.to_nat M]; nd_at := store mem 0 ws |}).
Proof. intros EL EM L0 Sh E. unfold py_eval. rewrite EL, EM. cbn [obind]. rewrite Sh. cbn [last]. rewrite Z2Nat.id by lia. rewrite Z.eqb_refl. cbn [negb]. rewrite E. reflexivity. Qed.
(** xcfun_eval, one point given as a one-dimensional array (a form the wrapper accepts: the results
    for that point): two rows for (alpha, beta), the second never written. *)
Theorem C39_one_point_refuted :
  exists (h h' : handle ROps) d, reachable h /\ xcfun_eval_setup h XC_A_B XC_PARTIAL_DERIVATIVES 1 = Ok (h', 0) /\ nd_shape d = [2%nat] /\
    forall junk mem, exists a, py_eval junk mem h' d = Ok (Some a) /\ nd_shape a = [2; 3]%nat /\
      forall p, (p < 3)%nat -> nd_at a (3 + Z.of_nat p) = mem (3 + Z.of_nat p).
Proof.
  destruct (make (K := ROps) [("slaterx"%string, 0%nat, 1%R)] eq_refl) as (h & Eh & Hr & A & Es). change (mactive _) with [0]%nat in A.
  assert (S : xcfun_eval_setup h XC_A_B XC_PARTIAL_DERIVATIVES 1 = Ok (mkH (h_active h) 1 (h_depends h) XC_PARTIAL_DERIVATIVES XC_A_B (h_settings h), 0)).
  { apply accepts_ok; [exact Hr|rewrite A; vm_compute; reflexivity]. }
  set (d := {| nd_shape := [2%nat]; nd_at := fun i => nth (Z.to_nat i) (encode XC_A_B D_ex) 0%R : T ROps |}).
  exists h. eexists. exists d. split; [exact Hr|]. split; [exact S|]. split; [reflexivity|]. intros junk mem.
  destruct (C33_partial_defined junk h _ XC_A_B 1 D_ex (fun k => mem (Z.of_nat k)) (fun k => nd_at d (Z.of_nat k)) Hr S) as [ws Ew].
  - lia.
  - rewrite Es; unfold msettings; cbn [map fold_left fst snd]; unfold wr_settings, upd; cbn; unfold Q2R; cbn; lra.
  - intros i nm Hi N. rewrite A in Hi. left. destruct Hi as [<- | []]; cbn in N; injection N as <-; cbn; tauto.
  - exact D_ex_above.
  - split; [left; cbn; tauto|]. intros i Hi. unfold d. cbn [nd_at]. rewrite Nat2Z.id. reflexivity.
  - assert (E : exists a, py_eval junk mem (mkH (h_active h) 1 (h_depends h) XC_PARTIAL_DERIVATIVES XC_A_B (h_settings h)) d = Ok (Some a)).
    { eexists. eapply (py_one_row junk mem _ d 2 3); [reflexivity|reflexivity|lia|reflexivity|exact Ew]. }
    destruct E as [a E]. exists a. split; [exact E|].
    destruct (C39_one_point_rows ROps junk mem h _ XC_A_B 1 d a 2 3 Hr S eq_refl eq_refl eq_refl E) as [X Y]. split; [exact X|].
    intros p Hp. exact (Y 1%nat p ltac:(cbn; lia) ltac:(cbn; lia)).
Qed.
Print Assumptions C39_one_point_refuted.
(** The two plain GGA variable sets in squared-gradient form, which the library accepts, have
    no name in Python; every other variable set has. *)
Theorem C39_vars_refuted :
  (forall v, 0 <= v < XC_NR_VARS -> In v py_vars \/ v = XC_N_GNN \/ v = XC_A_B_GAA_GAB_GBB) /\
  forall v, In v [XC_N_GNN; XC_A_B_GAA_GAB_GBB] -> ~ In v py_vars /\
    exists h h' : handle ROps, reachable h /\ xcfun_eval_setup h v XC_PARTIAL_DERIVATIVES 1 = Ok (h', 0).
Proof.
  split.
  - intros v Hv. assert (Q : In v (map Z.of_nat (seq 0 (Z.to_nat XC_NR_VARS)))) by (apply in_map_iff; exists (Z.to_nat v); split; [lia|apply in_seq; lia]).
    assert (F : forallb (fun v => orb (existsb (Z.eqb v) py_vars) (orb (Z.eqb v XC_N_GNN) (Z.eqb v XC_A_B_GAA_GAB_GBB))) (map Z.of_nat (seq 0 (Z.to_nat XC_NR_VARS))) = true) by (vm_compute; reflexivity).
    rewrite forallb_forall in F. specialize (F v Q). rewrite !orb_true_iff, !Z.eqb_eq, existsb_exists in F. destruct F as [(w & Hw & E) | F]; [|tauto]. apply Z.eqb_eq in E. subst w. now left.
  - intros v Hv. split.
    + intro X. assert (F : existsb (fun w => orb (Z.eqb w XC_N_GNN) (Z.eqb w XC_A_B_GAA_GAB_GBB)) py_vars = true).
      { apply existsb_exists. exists v. split; [exact X|]. destruct Hv as [<- | [<- | []]]; reflexivity. }
      vm_compute in F. discriminate F.
    + destruct pbe_object as (h & _ & Hr & A & _). exists h. eexists. split; [exact Hr|]. apply accepts_ok; [exact Hr|]. rewrite A. destruct Hv as [<- | [<- | []]]; vm_compute; reflexivity.
Qed.
Print Assumptions C39_vars_refuted.
