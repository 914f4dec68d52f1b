(** * Property theorems: several handles and several threads (C30, C31) *)
From Coq Require Import QArith ZArith Arith Lia List Bool String.
From Verif Require Import Scalar Tables Api SpecApi ApiProofs ApiProofs2 QInst CTaylor Eval Conc.
Import ListNotations.
Local Open Scope outcome_scope.

(** ** Specification: calls made one after the other *)
Section SPEC.
Context {K : Ops}.
Variable junk : forall n : nat, nat -> ct K n.
(** The calls on one handle, with nothing else in the world. *)
Fixpoint on_handle (x : option (handle K)) (l : list (op K)) : outcome (option (handle K) * list (reply K)) :=
  match l with
  | [] => Ok (x, [])
  | o :: l' => r <- body junk o x ;; q <- on_handle (fst r) l' ;; Ok (fst q, snd r :: snd q)
  end.
(** The calls of one program on any number of handles. *)
Fixpoint in_turn (H : heap K) (l : list (op K)) : outcome (heap K * list (reply K)) :=
  match l with
  | [] => Ok (H, [])
  | o :: l' => r <- body junk o (H (key o)) ;; q <- in_turn (hput H (key o) (fst r)) l' ;; Ok (fst q, snd r :: snd q)
  end.
Definition same_key (k k' : option nat) : bool :=
  match k, k' with Some a, Some b => Nat.eqb a b | None, None => true | _, _ => false end.
Definition calls_on (k : option nat) (l : list (op K)) : list (op K) := filter (fun o => same_key (key o) k) l.
Definition replies_on (k : option nat) (l : list (op K)) (log : list (reply K)) : list (reply K) :=
  map snd (filter (fun p => same_key (key (fst p)) k) (combine l log)).
Definition nothing : heap K := fun _ => None.
End SPEC.

Section PROOF.
Context {K : Ops}.
Variable junk : forall n : nat, nat -> ct K n.
Lemma same_key_eq k k' : same_key k k' = true <-> k = k'.
Proof. destruct k, k'; cbn; rewrite ?Nat.eqb_eq; split; congruence. Qed.
Lemma hput_same (H : heap K) o x r : body junk o (H (key o)) = Ok (x, r) -> hput H (key o) x (key o) = x.
Proof.
  destruct o; cbn [key hput]; rewrite ?Nat.eqb_refl; try reflexivity; cbn [body].
  - destruct (xcfun_enumerate_parameters p); cbn [obind]; try discriminate. congruence.
  - congruence.
Qed.
Lemma hput_other (H : heap K) k k' x : k <> k' -> hput H k x k' = H k'.
Proof. destruct k, k'; cbn; try reflexivity. intro N. destruct (Nat.eqb_spec n0 n); [congruence|reflexivity]. Qed.
Lemma project : forall l (H : heap K) H' log, in_turn junk H l = Ok (H', log) ->
  forall k, on_handle junk (H k) (calls_on k l) = Ok (H' k, replies_on k l log).
Proof.
  induction l as [|o l IH]; intros H H' log E k; cbn [in_turn] in E.
  - injection E as <- <-. reflexivity.
  - destruct (body junk o (H (key o))) as [[x r]| | |] eqn:B; cbn [obind fst snd] in E; try discriminate.
    destruct (in_turn junk (hput H (key o) x) l) as [[H2 log2]| | |] eqn:E2; cbn [obind fst snd] in E; try discriminate. injection E as <- <-.
    specialize (IH _ _ _ E2 k). unfold calls_on, replies_on in *. cbn [filter combine fst]. destruct (same_key (key o) k) eqn:Sk.
    + apply same_key_eq in Sk. subst k. rewrite (hput_same H o x r B) in IH. cbn [on_handle map snd]. rewrite B. cbn [obind fst snd]. rewrite IH. reflexivity.
    + assert (N : key o <> k) by (intro X; apply same_key_eq in X; congruence). rewrite (hput_other H _ _ x N) in IH. exact IH.
Qed.
Lemma project_back : forall l (H : heap K), (forall k, exists r, on_handle junk (H k) (calls_on k l) = Ok r) -> exists r, in_turn junk H l = Ok r.
Proof.
  induction l as [|o l IH]; intros H Hk; cbn [in_turn]; [eauto|].
  destruct (Hk (key o)) as [q Hq]. unfold calls_on in Hq. cbn [filter] in Hq. replace (same_key (key o) (key o)) with true in Hq by (symmetry; now apply same_key_eq).
  cbn [on_handle] in Hq. destruct (body junk o (H (key o))) as [[x r]| | |] eqn:B; cbn [obind] in Hq; try discriminate. cbn [obind fst snd].
  destruct (IH (hput H (key o) x)) as [q2 E2]; [|rewrite E2; cbn [obind]; eauto].
  intro k. destruct (same_key (key o) k) eqn:Sk.
  - apply same_key_eq in Sk. subst k. rewrite (hput_same H o x r B). cbn [fst snd] in Hq.
    fold (calls_on (key o) l) in Hq. destruct (on_handle junk x (calls_on (key o) l)); try discriminate. eauto.
  - assert (N : key o <> k) by (intro X; apply same_key_eq in X; congruence). rewrite (hput_other H _ _ x N).
    specialize (Hk k). unfold calls_on in *. cbn [filter] in Hk. rewrite Sk in Hk. exact Hk.
Qed.
Definition fails {A} (r : outcome A) (B : Type) (q : outcome B) : Prop :=
  match r, q with Die, Die | UB, UB | Dom, Dom => True | _, _ => False end.
Lemma project_fail : forall l (H : heap K), (forall r, in_turn junk H l <> Ok r) -> exists k, fails (in_turn junk H l) _ (on_handle junk (H k) (calls_on k l)).
Proof.
  induction l as [|o l IH]; intros H N; [exfalso; exact (N _ eq_refl)|]. cbn [in_turn] in *.
  destruct (body junk o (H (key o))) as [[x r]| | |] eqn:B; cbn [obind fst snd] in *.
  2-4: exists (key o); unfold calls_on; cbn [filter]; replace (same_key (key o) (key o)) with true by (symmetry; now apply same_key_eq);
       cbn [on_handle]; rewrite B; exact Logic.I.
  destruct (IH (hput H (key o) x)) as [k F].
  { intros q E. rewrite E in N. cbn [obind] in N. exact (N _ eq_refl). }
  exists k. unfold calls_on in *. cbn [filter]. destruct (same_key (key o) k) eqn:Sk.
  - apply same_key_eq in Sk. subst k. rewrite (hput_same H o x r B) in F. cbn [on_handle]. rewrite B. cbn [obind fst snd].
    destruct (in_turn junk (hput H (key o) x) l), (on_handle junk x _); cbn [fails obind] in *; auto.
  - assert (Ne : key o <> k) by (intro X; apply same_key_eq in X; congruence). rewrite (hput_other H _ _ x Ne) in F.
    destruct (in_turn junk (hput H (key o) x) l), (on_handle junk (H k) _); cbn [fails obind] in *; auto.
Qed.
Lemma in_turn_app : forall l1 l2 (H : heap K), in_turn junk H (l1 ++ l2) =
  (r <- in_turn junk H l1 ;; q <- in_turn junk (fst r) l2 ;; Ok (fst q, snd r ++ snd q)).
Proof.
  induction l1 as [|o l1 IH]; intros l2 H; cbn [app in_turn].
  - cbn [obind fst snd app]. destruct (in_turn junk H l2) as [[]| | |]; reflexivity.
  - destruct (body junk o (H (key o))) as [[x r]| | |]; cbn [obind fst snd]; try reflexivity. rewrite IH.
    destruct (in_turn junk (hput H (key o) x) l1) as [[H1 g1]| | |]; cbn [obind fst snd]; try reflexivity.
    destruct (in_turn junk H1 l2) as [[]| | |]; reflexivity.
Qed.
Lemma firstn_snoc {A} (l : list A) n x : nth_error l n = Some x -> firstn (S n) l = firstn n l ++ [x].
Proof. revert n. induction l as [|a l IH]; intros [|n] H; cbn in *; try congruence. now rewrite (IH n H). Qed.

(** ** Threads that own their handles *)
Variable own : nat -> nat.
Variable H0 : heap K.
Variable T0 : nat -> thread K.
Definition owns : Prop := forall t o a, In o (t_prog (T0 t)) -> key o = Some a -> own a = t.
(** The state is what each thread's own calls, made in turn, produce. *)
Definition as_alone (s : state K) : Prop :=
  s_heap s None = H0 None /\
  forall t, t_prog (s_thr s t) = t_prog (T0 t) /\
    exists H, in_turn junk H0 (firstn (t_done (s_thr s t)) (t_prog (T0 t))) = Ok (H, t_log (s_thr s t)) /\
      forall a, own a = t -> s_heap s (Some a) = H (Some a).
(** Failure r is that of some thread's own calls. *)
Definition own_failure {A} (r : outcome A) : Prop :=
  exists t m, fails r _ (in_turn junk H0 (firstn m (t_prog (T0 t)))).
Lemma in_turn_none : forall l (H H' : heap K) log, in_turn junk H l = Ok (H', log) -> H' None = H None.
Proof.
  induction l as [|o l IH]; intros H H' log E; cbn [in_turn] in E; [congruence|].
  destruct (body junk o (H (key o))) as [[x r]| | |] eqn:B; cbn [obind fst snd] in E; try discriminate.
  destruct (in_turn junk _ l) as [[H2 log2]| | |] eqn:E2; cbn [obind fst snd] in E; try discriminate. injection E as <- <-.
  rewrite (IH _ _ _ E2). destruct o; cbn [key hput]; reflexivity.
Qed.
Lemma move g (s : state K) t p : as_alone s -> as_alone (mkS g (s_heap s) (tput (s_thr s) t (mkT p (t_prog (s_thr s t)) (t_done (s_thr s t)) (t_log (s_thr s t))))).
Proof.
  intros [N A]. split; [exact N|]. intro u. cbn [s_thr s_heap]. unfold tput. destruct (Nat.eqb_spec u t) as [->|Ne]; cbn [t_prog t_done t_log]; apply A.
Qed.
Lemma body_step (s : state K) t o : owns -> as_alone s -> nth_error (t_prog (s_thr s t)) (t_done (s_thr s t)) = Some o ->
  match body junk o (s_heap s (key o)) with
  | Ok (x, r) => as_alone (mkS (s_glob s) (hput (s_heap s) (key o) x) (tput (s_thr s) t (mkT Ready (t_prog (s_thr s t)) (S (t_done (s_thr s t))) (t_log (s_thr s t) ++ [r]))))
  | Die => own_failure (A := state K) Die | UB => own_failure (A := state K) UB | Dom => own_failure (A := state K) Dom
  end.
Proof.
  intros Ow [N A] E. destruct (A t) as (P & H & T & O). rewrite P in E.
  assert (Ky : s_heap s (key o) = H (key o)).
  { destruct (key o) as [a|] eqn:Ky; [|rewrite N; symmetry; exact (in_turn_none _ _ _ _ T)]. apply O. exact (Ow t o a (nth_error_In _ _ E) Ky). }
  pose proof (in_turn_app (firstn (t_done (s_thr s t)) (t_prog (T0 t))) [o] H0) as Ap.
  rewrite <- (firstn_snoc _ _ _ E), T in Ap. cbn [obind fst snd in_turn] in Ap. rewrite Ky.
  destruct (body junk o (H (key o))) as [[x r]| | |] eqn:B; cbn [obind fst snd] in Ap.
  2-4: exists t, (S (t_done (s_thr s t))); rewrite Ap; exact Logic.I.
  split; cbn [s_heap s_thr].
  - rewrite <- N. destruct o; cbn [key hput]; reflexivity.
  - intro u. unfold tput. destruct (Nat.eqb_spec u t) as [->|Ne]; cbn [t_prog t_done t_log].
    + split; [exact P|]. eexists. split; [exact Ap|]. intros a Ha. destruct (key o) as [b|] eqn:Kb; [|exact (O a Ha)].
      cbn [hput]. destruct (Nat.eqb a b); [reflexivity|exact (O a Ha)].
    + destruct (A u) as (P' & H' & T' & O'). split; [exact P'|]. exists H'. split; [exact T'|]. intros a Ha.
      rewrite hput_other; [exact (O' a Ha)|]. intro Ka. apply Ne. rewrite <- Ha. exact (Ow t o a (nth_error_In _ _ E) Ka).
Qed.
Definition warm (s : state K) : Prop :=
  g_flag (s_glob s) = true /\ tables_full (s_glob s) = true /\ forall t j, t_pc (s_thr s t) <> Init j.
Lemma warm_tick (s : state K) t : owns -> warm s -> as_alone s ->
  match tick junk s t with
  | Ok s' => warm s' /\ as_alone s' /\ s_glob s' = s_glob s /\ (forall u, t_done (s_thr s u) <= t_done (s_thr s' u))%nat
  | r => own_failure r
  end.
Proof.
  intros Ow (F & Tb & Pc) A. unfold tick. destruct (nth_error (t_prog (s_thr s t)) (t_done (s_thr s t))) as [o|] eqn:E; [|split; [split; [exact F|split; [exact Tb|exact Pc]]|split; [exact A|split; [reflexivity|intro u; lia]]]].
  destruct (t_pc (s_thr s t)) as [|j|] eqn:Ep; [|exfalso; exact (Pc t j Ep)|].
  - rewrite F. cbn [negb]. rewrite andb_false_r. split; [split; [exact F|]; split; [exact Tb|]|split; [exact (move _ s t Body A)|]].
    + intros u j. cbn [s_thr]. unfold tput. destruct (Nat.eqb_spec u t); cbn [t_pc]; [discriminate|apply Pc].
    + split; [reflexivity|]. intro u. cbn [s_thr]. unfold tput. destruct (Nat.eqb_spec u t) as [->|]; cbn [t_done]; lia.
  - rewrite Tb. cbn [negb]. rewrite andb_false_r. pose proof (body_step s t o Ow A E) as B.
    destruct (body junk o (s_heap s (key o))) as [[x r]| | |]; cbn [obind fst snd]; try exact B.
    split; [split; [exact F|]; split; [exact Tb|]|split; [exact B|]].
    + intros u j. cbn [s_thr]. unfold tput. destruct (Nat.eqb_spec u t); cbn [t_pc]; [discriminate|apply Pc].
    + split; [reflexivity|]. intro u. cbn [s_thr]. unfold tput. destruct (Nat.eqb_spec u t) as [->|]; cbn [t_done]; lia.
Qed.
Lemma warm_exec : forall sched (s : state K), owns -> warm s -> as_alone s ->
  match exec junk s sched with
  | Ok s' => warm s' /\ as_alone s' /\ s_glob s' = s_glob s
  | r => own_failure r
  end.
Proof.
  induction sched as [|t l IH]; intros s Ow W A; cbn [exec]; [auto|].
  pose proof (warm_tick s t Ow W A) as Tk. destruct (tick junk s t) as [s'| | |]; cbn [obind]; try exact Tk.
  destruct Tk as (W' & A' & G & _). specialize (IH s' Ow W' A'). destruct (exec junk s' l); try exact IH.
  destruct IH as (W2 & A2 & G2). rewrite G in G2. auto.
Qed.
(** While a single thread has run and has not completed a call. *)
Definition early (t0 : nat) (s : state K) : Prop :=
  g_flag (s_glob s) = false /\ (forall k, s_heap s k = None) /\ t_done (s_thr s t0) = 0%nat /\
  (forall u j, u <> t0 -> t_pc (s_thr s u) <> Init j) /\
  match t_pc (s_thr s t0) with
  | Ready => True
  | Init j => (j <= 2 * nitems)%nat /\ (forall i, (i < Nat.div2 j)%nat -> g_tab (s_glob s) i = Full)
  | Body => forall o, nth_error (t_prog (s_thr s t0)) 0 = Some o -> calls_setup o = false
  end.
Lemma early_tick (s : state K) t0 : owns -> (forall k, H0 k = None) -> early t0 s -> as_alone s ->
  match tick junk s t0 with
  | Ok s' => (early t0 s' \/ warm s') /\ as_alone s'
  | r => own_failure r
  end.
Proof.
  intros Ow Hn (F & He & Dn & Oth & P) A. unfold tick. rewrite Dn. destruct (nth_error (t_prog (s_thr s t0)) 0) as [o|] eqn:E.
  2: { split; [left|exact A]. split; [exact F|]. split; [exact He|]. split; [exact Dn|]. split; [exact Oth|]. destruct (t_pc (s_thr s t0)); auto. intros o Ho. congruence. }
  assert (Mv : forall g p, as_alone (mkS g (s_heap s) (tput (s_thr s) t0 (mkT p (t_prog (s_thr s t0)) 0 (t_log (s_thr s t0)))))).
  { intros g p. rewrite <- Dn. exact (move g s t0 p A). }
  assert (Ot : forall p u j, u <> t0 -> t_pc (tput (s_thr s) t0 (mkT p (t_prog (s_thr s t0)) 0 (t_log (s_thr s t0))) u) <> Init j).
  { intros p u j Ne. unfold tput. destruct (Nat.eqb_spec u t0); [congruence|]. now apply Oth. }
  assert (Se : forall p, tput (s_thr s) t0 (mkT p (t_prog (s_thr s t0)) 0 (t_log (s_thr s t0))) t0 = mkT p (t_prog (s_thr s t0)) 0 (t_log (s_thr s t0))).
  { intro p. unfold tput. now rewrite Nat.eqb_refl. }
  destruct (t_pc (s_thr s t0)) as [|j|] eqn:Ep.
  - rewrite F. cbn [negb]. rewrite andb_true_r. destruct (calls_setup o) eqn:C; (split; [left|apply Mv]);
      (split; [exact F|]; split; [exact He|]; cbn [s_thr]; rewrite Se; split; [reflexivity|]; split; [apply Ot|]; cbn [t_pc]).
    + split; [lia|]. intros i Hi. cbn in Hi. lia.
    + intros o' Ho. cbn [t_prog] in Ho. congruence.
  - destruct P as [Lj Fl]. destruct (Nat.ltb_spec j (2 * nitems)) as [L|L].
    + split; [left|apply Mv]. split; [exact F|]. split; [exact He|]. cbn [s_thr]. rewrite Se. split; [reflexivity|]. split; [apply Ot|]. cbn [t_pc s_glob g_tab].
      split; [lia|]. intros i Hi. unfold put. destruct (Nat.even j) eqn:Ev.
      * apply Nat.even_spec in Ev. destruct Ev as [m ->]. rewrite Nat.div2_double. replace (S (2 * m)) with (2 * m + 1)%nat in Hi by lia.
        rewrite Nat.add_1_r, Nat.div2_succ_double in Hi. destruct (Nat.eqb_spec i m); [lia|]. apply Fl. rewrite Nat.div2_double. lia.
      * destruct (Nat.eqb_spec i (Nat.div2 j)); [reflexivity|]. apply Fl.
        assert (Od : Nat.odd j = true) by (unfold Nat.odd; now rewrite Ev). apply Nat.odd_spec in Od. destruct Od as [m ->].
        replace (S (2 * m + 1)) with (2 * (S m))%nat in Hi by lia. rewrite Nat.div2_double in Hi. rewrite Nat.add_1_r, Nat.div2_succ_double in *. lia.
    + split; [right|apply Mv]. split; [reflexivity|]. split.
      * cbn [s_glob]. unfold tables_full. apply forallb_forall. intros i Hi. apply in_seq in Hi. cbn [g_tab]. rewrite Fl; [reflexivity|].
        replace j with (2 * nitems)%nat by lia. rewrite Nat.div2_double. lia.
      * intros u j'. cbn [s_thr]. destruct (Nat.eq_dec u t0) as [->|Ne]; [rewrite Se; discriminate|now apply Ot].
  - specialize (P o eq_refl). rewrite <- Dn in E. pose proof (body_step s t0 o Ow A E) as B.
    assert (X : forall k, body junk o (s_heap s k) = UB) by (intro k; rewrite He; destruct o; cbn [calls_setup] in P; try discriminate P; reflexivity).
    rewrite X in B. destruct (andb _ _); [exact B|]. rewrite X. exact B.
Qed.
Lemma alone_exec : forall n (s : state K) t0, owns -> (forall k, H0 k = None) -> early t0 s \/ warm s -> as_alone s ->
  match exec junk s (repeat t0 n) with
  | Ok s' => (early t0 s' \/ warm s') /\ as_alone s'
  | r => own_failure r
  end.
Proof.
  induction n as [|n IH]; intros s t0 Ow Hn W A; cbn [repeat exec]; [auto|].
  assert (Tk : match tick junk s t0 with Ok s' => (early t0 s' \/ warm s') /\ as_alone s' | r => own_failure r end).
  { destruct W as [W|W]; [now apply early_tick|]. pose proof (warm_tick s t0 Ow W A) as B. destruct (tick junk s t0); try exact B. tauto. }
  destruct (tick junk s t0) as [s'| | |]; cbn [obind]; try exact Tk. destruct Tk. now apply IH.
Qed.
End PROOF.

(** ** C30 *)
(** What a program on many handles gets back from its calls on one handle, and the state it
    leaves that handle in, are those of the calls on this handle made alone. *)
Theorem C30_handles_independent :
  forall (K : Ops) junk (l : list (op K)) H H' log, in_turn junk H l = Ok (H', log) ->
    forall k, on_handle junk (H k) (calls_on k l) = Ok (H' k, replies_on k l log).
Proof. intros K junk l H H' log E k. exact (project junk l H H' log E k). Qed.
Print Assumptions C30_handles_independent.
(** The whole program goes through exactly when the calls on each handle do, and it fails the
    way the calls on one of the handles fail. *)
Theorem C30_failures_are_local :
  forall (K : Ops) junk (l : list (op K)) H,
    ((exists r, in_turn junk H l = Ok r) <-> forall k, exists r, on_handle junk (H k) (calls_on k l) = Ok r) /\
    ((forall r, in_turn junk H l <> Ok r) -> exists k, fails (in_turn junk H l) _ (on_handle junk (H k) (calls_on k l))).
Proof.
  intros K junk l H. split; [split|].
  - intros [[H' log] E] k. rewrite (project junk l H H' log E k). eauto.
  - apply project_back.
  - apply project_fail.
Qed.
Print Assumptions C30_failures_are_local.

(** A thread starting from uninitialised tables: however far it has got, the replies are those
    of the calls made in turn, so the initialisation hidden in the first call is not visible;
    it can only stop because one of its calls does. *)
Theorem C30_cold_start :
  forall (K : Ops) junk (prog : list (op K)) n,
    let s0 := mkS cold nothing (fun t => start (if Nat.eqb t 0 then prog else [])) in
    match exec junk s0 (repeat 0%nat n) with
    | Ok s => let t := s_thr s 0 in exists H, in_turn junk nothing (firstn (t_done t) prog) = Ok (H, t_log t) /\ forall a, s_heap s (Some a) = H (Some a)
    | r => exists m, fails r _ (in_turn junk nothing (firstn m prog))
    end.
Proof.
  intros K junk prog n s0. set (T0 := fun t => start (if Nat.eqb t 0 then prog else [])).
  assert (Ow : owns (fun _ => 0%nat) T0).
  { intros t o a Hi Hk. unfold T0 in Hi. cbn [start t_prog] in Hi. destruct (Nat.eqb_spec t 0); [now subst|destruct Hi]. }
  assert (A0 : as_alone junk (fun _ => 0%nat) nothing T0 s0).
  { split; [reflexivity|]. intro t. split; [reflexivity|]. exists nothing. split; [reflexivity|]. reflexivity. }
  assert (E0 : early 0%nat s0 \/ warm s0).
  { left. split; [reflexivity|]. split; [reflexivity|]. split; [reflexivity|]. split; [discriminate|]. exact Logic.I. }
  pose proof (alone_exec junk (fun _ => 0%nat) nothing T0 n s0 0%nat Ow (fun _ => eq_refl) E0 A0) as X.
  destruct (exec junk s0 (repeat 0%nat n)) as [s| | |].
  - destruct X as [_ [_ A]]. destruct (A 0%nat) as (_ & H & T & O). cbn zeta. exists H. split; [exact T|]. intro a. now apply O.
  - destruct X as (t & m & F). destruct (Nat.eqb_spec t 0) as [->|Ne]; [exists m; exact F|].
    unfold T0 in F. cbn [start t_prog] in F. destruct (Nat.eqb_spec t 0); [congruence|]. rewrite firstn_nil in F. destruct F.
  - destruct X as (t & m & F). destruct (Nat.eqb_spec t 0) as [->|Ne]; [exists m; exact F|].
    unfold T0 in F. cbn [start t_prog] in F. destruct (Nat.eqb_spec t 0); [congruence|]. rewrite firstn_nil in F. destruct F.
  - destruct X as (t & m & F). destruct (Nat.eqb_spec t 0) as [->|Ne]; [exists m; exact F|].
    unfold T0 in F. cbn [start t_prog] in F. destruct (Nat.eqb_spec t 0); [congruence|]. rewrite firstn_nil in F. destruct F.
Qed.
Print Assumptions C30_cold_start.

(** ** C31 *)
(** Any number of threads, each with its own handles.  Let one thread run alone until one of
    its calls has returned; from then on, under every schedule of all threads, the tables are
    complete and no step changes them, every reply is the one the thread would get running
    alone, and the only failures are those of a thread's own calls. *)
Theorem C31_after_completed_call :
  forall (K : Ops) junk own (progs : nat -> list (op K)) t0 n s1 sched,
    (forall t o a, In o (progs t) -> key o = Some a -> own a = t) ->
    exec junk (mkS cold nothing (fun t => start (progs t))) (repeat t0 n) = Ok s1 ->
    (0 < t_done (s_thr s1 t0))%nat ->
    match exec junk s1 sched with
    | Ok s => s_glob s = s_glob s1 /\ g_flag (s_glob s) = true /\ (forall i, (i < 82)%nat -> g_tab (s_glob s) i = Full) /\
        forall t, exists H, in_turn junk nothing (firstn (t_done (s_thr s t)) (progs t)) = Ok (H, t_log (s_thr s t)) /\
          forall a, own a = t -> s_heap s (Some a) = H (Some a)
    | r => exists t m, fails r _ (in_turn junk nothing (firstn m (progs t)))
    end.
Proof.
  intros K junk own progs t0 n s1 sched Ow E Dn. set (T0 := fun t => start (progs t)) in *.
  assert (Ow' : owns own T0) by exact Ow.
  set (s0 := mkS cold nothing T0) in *.
  assert (A0 : as_alone junk own nothing T0 s0).
  { split; [reflexivity|]. intro t. split; [reflexivity|]. exists nothing. split; [reflexivity|]. reflexivity. }
  assert (E0 : early t0 s0 \/ warm s0).
  { left. split; [reflexivity|]. split; [reflexivity|]. split; [reflexivity|]. split; [discriminate|]. exact Logic.I. }
  pose proof (alone_exec junk own nothing T0 n s0 t0 Ow' (fun _ => eq_refl) E0 A0) as X. rewrite E in X. destruct X as [[Ea|W] A].
  { destruct Ea as (_ & _ & D & _). lia. }
  pose proof (warm_exec junk own nothing T0 sched s1 Ow' W A) as Y. destruct (exec junk s1 sched) as [s| | |]; try exact Y.
  destruct Y as ((F & Tb & _) & [_ A2] & G). split; [exact G|]. split; [exact F|]. split.
  - intros i Hi. unfold tables_full in Tb. rewrite forallb_forall in Tb. specialize (Tb i). destruct (g_tab (s_glob s) i); try reflexivity;
      exfalso; assert (X : false = true) by (apply Tb, in_seq; unfold nitems, XC_NR_PARAMETERS_AND_FUNCTIONALS; cbn; lia); discriminate.
  - intro t. destruct (A2 t) as (_ & H & T & O). exists H. split; [exact T|exact O].
Qed.
Print Assumptions C31_after_completed_call.

(** Without that, two first calls race: each finds the flag unset and fills the tables, and
    the one that finishes first reads an entry that the other is overwriting, although either
    thread alone goes through. *)
Definition two_news {K : Ops} (t : nat) : list (op K) := match t with 0 => [ONew 0] | 1 => [ONew 1] | _ => [] end%nat.
Theorem C31_first_calls_race_refuted :
  forall (K : Ops) junk, exists sched,
    exec junk (mkS (@cold) (@nothing K) (fun t => start (two_news t))) sched = UB /\
    forall t, exists r, in_turn junk nothing (two_news t) = Ok r.
Proof.
  intros K junk. exists ([0; 1] ++ repeat 0 165 ++ [1; 0])%nat. split; [vm_compute; reflexivity|].
  intros [|[|t]]; cbn; eauto.
Qed.
Print Assumptions C31_first_calls_race_refuted.
(** Nor is it enough that some call has returned: a thread that entered the initialisation
    before can still tear an entry under a later call. *)
Definition three_threads {K : Ops} (t : nat) : list (op K) := match t with 0 => [ONew 0] | 1 => [ONew 1] | 2 => [ONew 2] | _ => [] end%nat.
Theorem C31_late_initialiser_refuted :
  forall (K : Ops) junk, exists sched1 s1 sched2,
    exec junk (mkS (@cold) (@nothing K) (fun t => start (three_threads t))) sched1 = Ok s1 /\
    t_done (s_thr s1 0) = 1%nat /\ t_pc (s_thr s1 2) = Ready /\ g_flag (s_glob s1) = true /\ exec junk s1 sched2 = UB.
Proof.
  intros K junk. exists ([0; 1] ++ repeat 0 166)%nat. eexists. exists [1; 2; 2]%nat.
  split; [vm_compute; reflexivity|]. repeat split; vm_compute; reflexivity.
Qed.
Print Assumptions C31_late_initialiser_refuted.

(** ... and a program whose calls go through is carried out to its end. *)
Definition left_to_do {K : Ops} (s : state K) : nat :=
  let t := s_thr s 0%nat in
  ((List.length (t_prog t) - t_done t) * (2 * nitems + 4) - match t_pc t with Ready => 0 | Init j => S j | Body => 2 * nitems + 3 end)%nat.
Lemma tick_decreases {K : Ops} junk (s s' : state K) : (t_done (s_thr s 0%nat) < List.length (t_prog (s_thr s 0%nat)))%nat ->
  (forall j, t_pc (s_thr s 0%nat) = Init j -> (j <= 2 * nitems)%nat) -> tick junk s 0 = Ok s' ->
  (left_to_do s' < left_to_do s)%nat /\ t_prog (s_thr s' 0%nat) = t_prog (s_thr s 0%nat) /\
  (forall j, t_pc (s_thr s' 0%nat) = Init j -> (j <= 2 * nitems)%nat).
Proof.
  intros L Ij. unfold tick, left_to_do. destruct (nth_error (t_prog (s_thr s 0%nat)) (t_done (s_thr s 0%nat))) as [o|] eqn:E.
  2: { apply nth_error_None in E. lia. }
  destruct (t_pc (s_thr s 0%nat)) as [|j|] eqn:Ep.
  - destruct (andb _ _); intro H; injection H as <-; cbn [s_thr]; unfold tput; cbn [Nat.eqb t_prog t_done t_pc];
      (split; [|split; [reflexivity|intros j Hj; inversion Hj; lia]]); remember (2 * nitems)%nat as N; nia.
  - specialize (Ij j eq_refl). destruct (Nat.ltb_spec j (2 * nitems)); intro H'; injection H' as <-; cbn [s_thr]; unfold tput; cbn [Nat.eqb t_prog t_done t_pc];
      (split; [|split; [reflexivity|intros j' Hj; inversion Hj; lia]]); remember (2 * nitems)%nat as N; nia.
  - destruct (andb _ _); [discriminate|]. destruct (body junk o (s_heap s (key o))) as [[x r]| | |]; cbn [obind fst snd]; try discriminate.
    intro H; injection H as <-; cbn [s_thr]; unfold tput; cbn [Nat.eqb t_prog t_done t_pc].
    split; [|split; [reflexivity|discriminate]]. remember (2 * nitems)%nat as N. nia.
Qed.
Lemma prefix_ok {K : Ops} junk (l : list (op K)) H r : in_turn junk H l = Ok r -> forall m, exists r', in_turn junk H (firstn m l) = Ok r'.
Proof.
  intros E m. rewrite <- (firstn_skipn m l), in_turn_app in E. destruct (in_turn junk H (firstn m l)); try discriminate. eauto.
Qed.
Theorem C30_cold_start_completes :
  forall (K : Ops) junk (prog : list (op K)) H log, in_turn junk nothing prog = Ok (H, log) ->
    let s0 := mkS cold nothing (fun t => start (if Nat.eqb t 0 then prog else [])) in
    exists n s, exec junk s0 (repeat 0%nat n) = Ok s /\ t_log (s_thr s 0%nat) = log /\ forall a, s_heap s (Some a) = H (Some a).
Proof.
  intros K junk prog H log Go s0.
  assert (St : forall n, exists s, exec junk s0 (repeat 0%nat n) = Ok s).
  { intro n. pose proof (C30_cold_start K junk prog n) as X. cbv zeta in X. fold s0 in X. destruct (exec junk s0 (repeat 0%nat n)) as [s| | |]; [eauto| | |];
      destruct X as [m F]; destruct (prefix_ok junk prog nothing _ Go m) as [r' R]; rewrite R in F; destruct F. }
  assert (Ap : forall l1 l2 (s : state K), exec junk s (l1 ++ l2) = obind (exec junk s l1) (fun s' => exec junk s' l2)).
  { induction l1 as [|t l1 IH]; intros l2 s; cbn [app exec obind]; [reflexivity|]. destruct (tick junk s t); cbn [obind]; auto. }
  assert (Me : forall k n s, exec junk s0 (repeat 0%nat n) = Ok s -> t_prog (s_thr s 0%nat) = prog -> (forall j, t_pc (s_thr s 0%nat) = Init j -> (j <= 2 * nitems)%nat) ->
     (left_to_do s <= k)%nat -> exists n' s', exec junk s0 (repeat 0%nat n') = Ok s' /\ t_prog (s_thr s' 0%nat) = prog /\ (List.length prog <= t_done (s_thr s' 0%nat))%nat).
  { induction k as [|k IH]; intros n s E P Ij L.
    - exists n, s. split; [exact E|]. split; [exact P|]. unfold left_to_do in L. rewrite P in L.
      destruct (t_pc (s_thr s 0%nat)) as [|j|] eqn:Ep; try specialize (Ij j eq_refl); remember (2 * nitems)%nat as N; nia.
    - destruct (Nat.lt_ge_cases (t_done (s_thr s 0%nat)) (List.length prog)) as [D|D]; [|exists n, s; auto].
      destruct (St (n + 1)%nat) as [s' E']. rewrite repeat_app, Ap, E in E'. cbn [obind repeat exec] in E'.
      destruct (tick junk s 0) as [s2| | |] eqn:Tk; cbn [obind] in E'; try discriminate. injection E' as <-.
      destruct (tick_decreases junk s s2) as (Dc & P2 & Ij2); [now rewrite P|exact Ij|exact Tk|].
      apply (IH (n + 1)%nat s2); [|congruence|exact Ij2|lia]. rewrite repeat_app, Ap, E. cbn [obind repeat exec]. now rewrite Tk. }
  destruct (Me (left_to_do s0) 0%nat s0) as (n & s & E & P & D); [reflexivity|reflexivity|discriminate|lia|].
  exists n, s. split; [exact E|]. pose proof (C30_cold_start K junk prog n) as X. cbv zeta in X. fold s0 in X. rewrite E in X.
  destruct X as (H' & T & O). rewrite firstn_all2 in T by exact D. rewrite Go in T. injection T as <- <-. split; [reflexivity|exact O].
Qed.
Print Assumptions C30_cold_start_completes.

(** ** Concrete cases *)
Local Open Scope string_scope.
Local Definition omap {A B} (f : A -> B) (o : outcome A) : outcome B := match o with Ok x => Ok (f x) | Die => Die | UB => UB | Dom => Dom end.
Definition prog_ex : list (op QOps) :=
  [ONew 0; ONew 1; OCall 0 (CSet "b3lyp" (1%Q : T QOps)); OCall 1 (CSet "exx" ((1 # 2) : T QOps)); OCall 0 (CGet "exx"); OCall 1 (CGet "exx");
   ODescribe "pbex"; OCall 1 (CSetup XC_A_B XC_PARTIAL_DERIVATIVES 2); OCall 1 COutputLength; ODelete 0; OCall 1 (CGet "slaterx")].
Example C30_example : exists H log, in_turn (fun n _ => @ct_const QOps n 0%Q) nothing prog_ex = Ok (H, log) /\
  replies_on (Some 1%nat) prog_ex log =
    [RDone; RAnswer (AInt 0%Z); RAnswer (AVal (Some ((1 # 2) : T QOps))); RAnswer (AInt 0%Z); RAnswer (AInt 6%Z); RAnswer (AVal (Some (0%Q : T QOps)))].
Proof.
  assert (X : omap (fun r => replies_on (Some 1%nat) prog_ex (snd r)) (in_turn (fun n _ => @ct_const QOps n 0%Q) nothing prog_ex) =
    Ok [RDone; RAnswer (AInt 0%Z); RAnswer (AVal (Some ((1 # 2) : T QOps))); RAnswer (AInt 0%Z); RAnswer (AInt 6%Z); RAnswer (AVal (Some (0%Q : T QOps)))])
    by (vm_compute; reflexivity).
  destruct (in_turn (fun n _ => @ct_const QOps n 0%Q) nothing prog_ex) as [[H log]| | |]; cbn [omap] in X; try discriminate.
  exists H, log. split; [reflexivity|]. injection X as X. exact X.
Qed.
Definition progs_ex (t : nat) : list (op QOps) :=
  match t with
  | 0 => [ONew 0; OCall 0 (CSet "b3lyp" (1%Q : T QOps)); ODelete 0]
  | 1 => [ONew 1; OCall 1 (CSet "pbex" (1%Q : T QOps)); OCall 1 (CGet "exx")]
  | 2 => [OEnumerate 3; ODescribe "pbex"]
  | _ => [] end%nat.
Example C31_example : (forall t o a, In o (progs_ex t) -> key o = Some a -> a = t) /\
  exists s1 s, exec (fun n _ => @ct_const QOps n 0%Q) (mkS cold nothing (fun t => start (progs_ex t))) (repeat 0%nat 167) = Ok s1 /\
  (0 < t_done (s_thr s1 0))%nat /\ exec (fun n _ => @ct_const QOps n 0%Q) s1 [1; 0; 2; 1; 1; 0; 0; 2; 0; 1; 1; 2; 1; 2]%nat = Ok s /\
  t_done (s_thr s 0) = 3%nat /\ t_done (s_thr s 1) = 3%nat /\ t_done (s_thr s 2) = 2%nat.
Proof.
  split.
  - intros [|[|[|t]]] o a Hi Hk; cbn [progs_ex In] in Hi; repeat (destruct Hi as [<- | Hi]; [cbn in Hk; congruence|]); destruct Hi.
  - set (s0 := mkS cold nothing (fun t => start (progs_ex t))). set (jk := fun (n : nat) (_ : nat) => @ct_const QOps n 0%Q).
    assert (X : omap (fun s1 => (t_done (s_thr s1 0), omap (fun s => (t_done (s_thr s 0), t_done (s_thr s 1), t_done (s_thr s 2)))
       (exec jk s1 [1; 0; 2; 1; 1; 0; 0; 2; 0; 1; 1; 2; 1; 2]%nat))) (exec jk s0 (repeat 0%nat 167)) = Ok (1, Ok (3, 3, 2))%nat) by (vm_compute; reflexivity).
    destruct (exec jk s0 (repeat 0%nat 167)) as [s1| | |]; cbn [omap] in X; try discriminate. injection X as X1 X2.
    change (omap (fun s => (t_done (s_thr s 0), t_done (s_thr s 1), t_done (s_thr s 2))) (exec jk s1 [1; 0; 2; 1; 1; 0; 0; 2; 0; 1; 1; 2; 1; 2]%nat) = Ok (3, 3, 2)%nat) in X2.
    destruct (exec jk s1 [1; 0; 2; 1; 1; 0; 0; 2; 0; 1; 1; 2; 1; 2]%nat) as [s| | |] eqn:E; cbn [omap] in X2; try discriminate. injection X2 as X2 X3 X4.
    exists s1, s. split; [reflexivity|]. split; [lia|]. auto.
Qed.
