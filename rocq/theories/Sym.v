(** * Equality of expressions up to commutativity, associativity and signs

    A value-numbering normaliser for the expression language, over Taylor numbers of any
    order: sums and products are flattened and sorted, signs are pulled out of sums,
    products, quotients and integer powers, and equal subexpressions get equal numbers.
    Two expressions with the same number and sign have the same value (or are both
    undefined).  Used to show that exchanging the spin labels does not change a functional. *)
From Coq Require Import Reals QArith Qreals ZArith Arith Lia Lra List Bool String Permutation.
From Verif Require Import Scalar RInst Tables Api CTaylor CtAlg TMath Br Expr Densvars Functionals Eval.
Import ListNotations.
Local Open Scope R_scope.

Definition id := positive.
(** A numbered value with a sign (true: minus). *)
Definition sid := (bool * id)%type.
Inductive node : Type :=
| NIn (i : nat) | NFld (f : fld) | NConst (s : sexp)
| NSum (l : list sid) | NProd (l : list id)
| NDiv (i j : id) | NDivK (i : id) (s : sexp) | NKDiv (s : sexp) (i : id)
| NPow (i : id) (s : sexp) | NPowI (i : id) (z : Z) | NFn (f : fn1) (i : id)
| NAbs (i : id) | NMax (i j : id) | NReg (i : id) | NBR (i : id)
| NIf (a b c d : id)
| NSeq (l : list id) (j : id).   (* j, provided all of l are defined *)
Definition sexp_dec (a b : sexp) : {a = b} + {a <> b}.
Proof. decide equality; first [apply Z.eq_dec | apply Nat.eq_dec | decide equality; first [apply Z.eq_dec | apply Pos.eq_dec]]. Defined.
Definition fld_dec (a b : fld) : {a = b} + {a <> b}.
Proof. decide equality. Defined.
Definition fn_dec (a b : fn1) : {a = b} + {a <> b}.
Proof. decide equality. Defined.
Definition sid_dec (a b : sid) : {a = b} + {a <> b}.
Proof. decide equality; [apply Pos.eq_dec|apply bool_dec]. Defined.
Definition node_dec (a b : node) : {a = b} + {a <> b}.
Proof.
  decide equality; first [apply Pos.eq_dec | apply Nat.eq_dec | apply Z.eq_dec | apply fld_dec | apply fn_dec | apply sexp_dec
    | apply (list_eq_dec sid_dec) | apply (list_eq_dec Pos.eq_dec)].
Defined.

Record tbl := Tb { nxt : positive; ent : list (id * node) }.
Fixpoint findn (nd : node) (l : list (id * node)) : option id :=
  match l with [] => None | (k, m) :: l' => if node_dec nd m then Some k else findn nd l' end.
Fixpoint nodeof (i : id) (l : list (id * node)) : option node :=
  match l with [] => None | (k, m) :: l' => if Pos.eqb i k then Some m else nodeof i l' end.
Definition intern (nd : node) (t : tbl) : tbl * id :=
  match findn nd (ent t) with
  | Some k => (t, k)
  | None => (Tb (Pos.succ (nxt t)) ((nxt t, nd) :: ent t), nxt t)
  end.
(** Sorting. *)
Definition sle (a b : sid) : bool := match Pos.compare (snd a) (snd b) with Lt => true | Gt => false | Eq => implb (fst a) (fst b) end.
Fixpoint ins {A} (le : A -> A -> bool) (a : A) (l : list A) : list A :=
  match l with [] => [a] | b :: l' => if le a b then a :: l else b :: ins le a l' end.
Definition sort {A} (le : A -> A -> bool) (l : list A) : list A := fold_right (ins le) [] l.
Definition sflip (s : bool) (w : sid) : sid := (xorb s (fst w), snd w).
Definition flat_s (t : tbl) (w : sid) : list sid :=
  match nodeof (snd w) (ent t) with Some (NSum l) => map (sflip (fst w)) l | _ => [w] end.
Definition mksum (l : list sid) (t : tbl) : tbl * sid :=
  match sort sle (List.concat (map (flat_s t) l)) with
  | [w] => (t, w)
  | (s, i) :: l' => let '(t', k) := intern (NSum (map (sflip s) ((s, i) :: l'))) t in (t', (s, k))
  | [] => let '(t', k) := intern (NSum []) t in (t', (false, k))
  end.
Definition flat_p (t : tbl) (i : id) : list id :=
  match nodeof i (ent t) with Some (NProd l) => l | _ => [i] end.
Definition mkprod (l : list sid) (t : tbl) : tbl * sid :=
  let '(t', k) := intern (NProd (sort Pos.leb (List.concat (map (fun w => flat_p t (snd w)) l)))) t in
  (t', (fold_right (fun w s => xorb (fst w) s) false l, k)).
Definition flat_q (t : tbl) (i : id) : list id :=
  match nodeof i (ent t) with Some (NSeq l j) => j :: l | _ => [i] end.
(** j after i. *)
Definition mkseq (i j : id) (t : tbl) : tbl * id :=
  match nodeof j (ent t) with
  | Some (NSeq l j') => intern (NSeq (sort Pos.leb (flat_q t i ++ l)) j') t
  | _ => intern (NSeq (sort Pos.leb (flat_q t i)) j) t
  end.
(** The signed value as an unsigned one. *)
Definition posi (w : sid) (t : tbl) : tbl * id :=
  if fst w then intern (NSum [w]) t else (t, snd w).
Definition cst (s : sexp) : sexp := match s with SQ q => SQ (Qred q) | _ => s end.
Fixpoint slook (x : string) (r : list (string * sid)) : option sid :=
  match r with [] => None | (y, v) :: r' => if String.eqb x y then Some v else slook x r' end.

Section NORM.
Variable im : nat -> option sid.
Variable fm : fld -> sid.
Definition un (f : id -> node) (x : option (tbl * sid)) : option (tbl * sid) :=
  match x with
  | Some (t, w) => let '(t1, i) := posi w t in let '(t2, k) := intern (f i) t1 in Some (t2, (false, k))
  | None => None
  end.
Definition sgn1 (f : id -> node) (x : option (tbl * sid)) : option (tbl * sid) :=
  match x with
  | Some (t, w) => let '(t2, k) := intern (f (snd w)) t in Some (t2, (fst w, k))
  | None => None
  end.
Fixpoint norm (r : list (string * sid)) (e : expr) (t : tbl) : option (tbl * sid) :=
  match e with
  | EIn i => match im i with Some w => Some (t, w) | None => None end
  | EFld f => Some (t, fm f)
  | EVar x => match slook x r with Some w => Some (t, w) | None => None end
  | EConst s => let '(t', k) := intern (NConst (cst s)) t in Some (t', (false, k))
  | ELet x a b =>
      match norm r a t with
      | Some (t1, w) =>
          match norm ((x, w) :: r) b t1 with
          | Some (t2, u) => let '(t3, k) := mkseq (snd w) (snd u) t2 in Some (t3, (fst u, k))
          | None => None end
      | None => None end
  | ENeg a => match norm r a t with Some (t1, w) => Some (t1, sflip true w) | None => None end
  | EAdd a b => match norm r a t with Some (t1, w) => match norm r b t1 with Some (t2, u) => Some (mksum [w; u] t2) | None => None end | None => None end
  | ESub a b => match norm r a t with Some (t1, w) => match norm r b t1 with Some (t2, u) => Some (mksum [w; sflip true u] t2) | None => None end | None => None end
  | EMul a b | EMulTo a b => match norm r a t with Some (t1, w) => match norm r b t1 with Some (t2, u) => Some (mkprod [w; u] t2) | None => None end | None => None end
  | EDiv a b => match norm r a t with Some (t1, w) => match norm r b t1 with Some (t2, u) =>
        let '(t3, j) := posi u t2 in let '(t4, k) := intern (NDiv (snd w) j) t3 in Some (t4, (fst w, k)) | None => None end | None => None end
  | EAddK a s => match norm r a t with Some (t1, w) => let '(t2, k) := intern (NConst (cst s)) t1 in Some (mksum [w; (false, k)] t2) | None => None end
  | ESubK a s => match norm r a t with Some (t1, w) => let '(t2, k) := intern (NConst (cst s)) t1 in Some (mksum [w; (true, k)] t2) | None => None end
  | EKSub s a => match norm r a t with Some (t1, w) => let '(t2, k) := intern (NConst (cst s)) t1 in Some (mksum [sflip true w; (false, k)] t2) | None => None end
  | EScale s a => match norm r a t with Some (t1, w) => let '(t2, k) := intern (NConst (cst s)) t1 in Some (mkprod [w; (false, k)] t2) | None => None end
  | EKDiv s a => un (NKDiv (cst s)) (norm r a t)
  | EDivK a s => sgn1 (fun i => NDivK i (cst s)) (norm r a t)
  | EPow a s => un (fun i => NPow i (cst s)) (norm r a t)
  | EPowI a z =>
      if Z.leb 0 z then
        match norm r a t with
        | Some (t1, w) => let '(t2, k) := intern (NPowI (snd w) z) t1 in Some (t2, (andb (Z.odd z) (fst w), k))
        | None => None end
      else un (fun i => NPowI i z) (norm r a t)
  | EFun f a => un (NFn f) (norm r a t)
  | EAbs a => un NAbs (norm r a t)
  | EMax a b => match norm r a t with Some (t1, w) => match norm r b t1 with Some (t2, u) =>
        let '(t3, i) := posi w t2 in let '(t4, j) := posi u t3 in let '(t5, k) := intern (NMax i j) t4 in Some (t5, (false, k)) | None => None end | None => None end
  | EReg a => un NReg (norm r a t)
  | EBR a => un NBR (norm r a t)
  | EIf a b c d =>
      match norm r a t with Some (t1, w) => match norm r b t1 with Some (t2, u) =>
      match norm r c t2 with Some (t3, p) => match norm r d t3 with Some (t4, q) =>
        let '(t5, i) := posi w t4 in let '(t6, j) := posi u t5 in let '(t7, x) := posi p t6 in let '(t8, y) := posi q t7 in
        let '(t9, k) := intern (NIf i j x y) t8 in Some (t9, (false, k))
      | None => None end | None => None end | None => None end | None => None end
  end.
End NORM.
Definition fmupd (fm : fld -> sid) (f : fld) (w : sid) : fld -> sid := fun g => if fld_eqb g f then w else fm g.
(** A constructor body; undefined assignments make everything undefined: [sq] collects them. *)
Fixpoint nrun (im : nat -> option sid) (fm : fld -> sid) (p : list (fld * expr)) (t : tbl) (sq : list id) : option (tbl * (fld -> sid) * list id) :=
  match p with
  | [] => Some (t, fm, sq)
  | (f, e) :: p' => match norm im fm [] e t with Some (t1, w) => nrun im (fmupd fm f w) p' t1 (snd w :: sq) | None => None end
  end.


(** ** Soundness *)
Section SOUND.
Variable st : nat -> T ROps.
Variable n : nat.
Variable d : nat -> rct n.
Variable flv : fld -> rct n.      (* the values of the NFld nodes *)
Notation ev f r e := (eval (K := ROps) st n d f r e).
Notation oval := (option (rct n)).
Definition sg (s : bool) (x : rct n) : rct n := if s then ct_neg n x else x.
Definition osg (s : bool) (x : oval) : oval := match x with Some y => Some (sg s y) | None => None end.
Definition o2 (f : rct n -> rct n -> rct n) (x y : oval) : oval := obnd x (fun a => obnd y (fun b => Some (f a b))).
Definition osum (v : id -> oval) (l : list sid) : oval := fold_right (fun w a => o2 (ct_add n) (osg (fst w) (v (snd w))) a) (Some (zero n)) l.
Definition oprod (v : id -> oval) (l : list id) : oval := fold_right (fun i a => o2 (pmul n) (v i) a) (Some (one n)) l.
Definition oall (v : id -> oval) (l : list id) (x : oval) : oval := fold_right (fun i a => obnd (v i) (fun _ => a)) x l.
Definition nsem (v : id -> oval) (nd : node) : oval :=
  match nd with
  | NIn i => Some (d i) | NFld f => Some (flv f) | NConst s => obnd (seval st s) (fun k => Some (rconst n k))
  | NSum l => osum v l | NProd l => oprod v l
  | NDiv i j => obnd (v i) (fun x => obnd (v j) (fun y => ct_div n x y))
  | NDivK i s => obnd (v i) (fun x => obnd (seval st s) (fun k => ct_divk n x k))
  | NKDiv s i => obnd (seval st s) (fun k => obnd (v i) (fun x => ct_kdiv n k x))
  | NPow i s => obnd (v i) (fun x => obnd (seval st s) (fun k => ct_pow n x k))
  | NPowI i z => obnd (v i) (fun x => ct_powi n x z)
  | NFn f i => obnd (v i) (fn_eval n f)
  | NAbs i => obnd (v i) (fun x => Some (ct_abs n x))
  | NMax i j => obnd (v i) (fun x => obnd (v j) (fun y => Some (ct_max n x y)))
  | NReg i => obnd (v i) (fun x => Some (ct_reg n x))
  | NBR i => obnd (v i) (fun x => ct_BR n x)
  | NIf a b x y => obnd (v a) (fun p => obnd (v b) (fun q => if Oltb (c0 n p) (c0 n q) then v x else v y))
  | NSeq l j => oall v l (v j)
  end.
(** The valuation satisfies the table. *)
Definition good (v : id -> oval) (t : tbl) : Prop := forall k nd, In (k, nd) (ent t) -> v k = nsem v nd.
Definition sval (v : id -> oval) (w : sid) : oval := osg (fst w) (v (snd w)).
Variable v : id -> oval.

Lemma findn_in nd l k : findn nd l = Some k -> In (k, nd) l.
Proof.
  induction l as [|[j m] l IH]; cbn [findn]; [discriminate|]. destruct (node_dec nd m) as [->|]; [|intro; right; auto].
  intro E. injection E as ->. now left.
Qed.
Lemma nodeof_in i l nd : nodeof i l = Some nd -> In (i, nd) l.
Proof.
  induction l as [|[j m] l IH]; cbn [nodeof]; [discriminate|]. destruct (Pos.eqb_spec i j) as [->|]; [|intro; right; auto].
  intro E. injection E as ->. now left.
Qed.
Lemma intern_ok nd t t' k : intern nd t = (t', k) -> good v t' -> good v t /\ v k = nsem v nd.
Proof.
  unfold intern. destruct (findn nd (ent t)) as [j|] eqn:F; intro E; injection E as <- <-; intro G.
  - split; [exact G|]. apply G. now apply findn_in.
  - split; [|apply G; now left]. intros j m Hj. apply G. now right.
Qed.
(** *** Signs *)
Add Ring ctr : (ct_ring n).
Lemma neg_zero : ct_neg n (zero n) = zero n.
Proof. ring. Qed.
Lemma sg_sg s s' x : sg s (sg s' x) = sg (xorb s s') x.
Proof. destruct s, s'; cbn; try reflexivity. ring. Qed.
Lemma osg_osg s s' x : osg s (osg s' x) = osg (xorb s s') x.
Proof. destruct x; cbn; [|reflexivity]. now rewrite sg_sg. Qed.
Lemma osg_false x : osg false x = x.
Proof. now destruct x. Qed.
Lemma sval_flip s w : sval v (sflip s w) = osg s (sval v w).
Proof. unfold sval, sflip. cbn [fst snd]. now rewrite osg_osg. Qed.
Lemma osum_cons w l : osum v (w :: l) = o2 (ct_add n) (sval v w) (osum v l).
Proof. reflexivity. Qed.
Lemma osum_perm l l' : Permutation l l' -> osum v l = osum v l'.
Proof.
  induction 1; [reflexivity| | |congruence].
  - rewrite !osum_cons. now rewrite IHPermutation.
  - rewrite !osum_cons. destruct (sval v x), (sval v y), (osum v l); cbn; try reflexivity. f_equal. ring.
Qed.
Lemma osum_app l l' : osum v (l ++ l') = o2 (ct_add n) (osum v l) (osum v l').
Proof.
  induction l as [|w l IH].
  - cbn [app]. change (osum v []) with (Some (zero n)). destruct (osum v l'); cbn; [|reflexivity]. f_equal. ring.
  - cbn [app]. rewrite !osum_cons, IH. destruct (sval v w), (osum v l), (osum v l'); cbn; try reflexivity. f_equal. ring.
Qed.
Lemma osum_flip s l : osum v (map (sflip s) l) = osg s (osum v l).
Proof.
  induction l as [|w l IH]; cbn [map].
  - destruct s; cbn; [|reflexivity]. f_equal. ring.
  - rewrite !osum_cons, IH, sval_flip. destruct (sval v w), (osum v l); cbn; try reflexivity. f_equal. destruct s; cbn; [ring|reflexivity].
Qed.
Lemma osum_one w : osum v [w] = sval v w.
Proof. rewrite osum_cons. change (osum v []) with (Some (zero n)). destruct (sval v w); cbn; [|reflexivity]. f_equal. ring. Qed.
Lemma ins_perm {A} le (a : A) l : Permutation (a :: l) (ins le a l).
Proof. induction l as [|b l IH]; cbn [ins]; [reflexivity|]. destruct (le a b); [reflexivity|]. rewrite perm_swap. now constructor. Qed.
Lemma sort_perm {A} le (l : list A) : Permutation l (sort le l).
Proof. induction l as [|a l IH]; cbn; [constructor|]. rewrite <- ins_perm. now constructor. Qed.
Lemma flat_s_ok t w : good v t -> osum v (flat_s t w) = sval v w.
Proof.
  intro G. unfold flat_s. destruct (nodeof (snd w) (ent t)) as [nd|] eqn:N; [|apply osum_one].
  destruct nd; try apply osum_one. rewrite osum_flip. apply nodeof_in, G in N. unfold sval. now rewrite N.
Qed.
Lemma flats_ok t l : good v t -> osum v (List.concat (map (flat_s t) l)) = osum v l.
Proof. intro G. induction l as [|w l IH]; [reflexivity|]. cbn [map List.concat]. rewrite osum_app, IH, flat_s_ok by exact G. reflexivity. Qed.
Lemma mksum_ok l t t' w : mksum l t = (t', w) -> good v t' -> good v t /\ sval v w = osum v l.
Proof.
  unfold mksum. assert (P : good v t -> osum v (sort sle (List.concat (map (flat_s t) l))) = osum v l).
  { intro G. rewrite <- (flats_ok t l G). apply osum_perm. symmetry. apply sort_perm. }
  destruct (sort sle _) as [|[s i] l'] eqn:S.
  - destruct (intern _ t) as [t1 k] eqn:I. intro E. injection E as <- <-. intro G. destruct (intern_ok _ _ _ _ I G) as [G1 Vk].
    split; [exact G1|]. unfold sval. cbn [fst snd]. rewrite osg_false, Vk. exact (P G1).
  - assert (Q : forall t1 k, intern (NSum (map (sflip s) ((s, i) :: l'))) t = (t1, k) -> good v t1 -> good v t /\ sval v (s, k) = osum v l).
    { intros t1 k I G. destruct (intern_ok _ _ _ _ I G) as [G1 Vk]. split; [exact G1|].
      unfold sval. cbn [fst snd]. rewrite Vk. cbn [nsem]. rewrite osum_flip, osg_osg, xorb_nilpotent, osg_false. exact (P G1). }
    destruct l' as [|w' l'].
    + intro E. injection E as <- <-. intro G. split; [exact G|]. rewrite <- (P G). symmetry. apply osum_one.
    + destruct (intern _ t) as [t1 k] eqn:I. intro E. injection E as <- <-. now apply Q.
Qed.
(** *** Products *)
Lemma oprod_perm l l' : Permutation l l' -> oprod v l = oprod v l'.
Proof.
  induction 1; [reflexivity| | |congruence]; cbn [oprod fold_right] in *.
  - unfold oprod in IHPermutation. now rewrite IHPermutation.
  - destruct (v x), (v y), (fold_right _ _ l); cbn; try reflexivity. f_equal. ring.
Qed.
Lemma oprod_app l l' : oprod v (l ++ l') = o2 (pmul n) (oprod v l) (oprod v l').
Proof.
  induction l as [|w l IH]; cbn [app].
  - change (oprod v []) with (Some (one n)). destruct (oprod v l'); cbn; [|reflexivity]. f_equal. ring.
  - change (oprod v (w :: l ++ l')) with (o2 (pmul n) (v w) (oprod v (l ++ l'))). rewrite IH.
    change (oprod v (w :: l)) with (o2 (pmul n) (v w) (oprod v l)). destruct (v w), (oprod v l), (oprod v l'); cbn; try reflexivity. f_equal. ring.
Qed.
Lemma oprod_one i : oprod v [i] = v i.
Proof. cbn. destruct (v i); cbn; [|reflexivity]. f_equal. ring. Qed.
Lemma flat_p_ok t i : good v t -> oprod v (flat_p t i) = v i.
Proof.
  intro G. unfold flat_p. destruct (nodeof i (ent t)) as [nd|] eqn:N; [|apply oprod_one].
  destruct nd; try apply oprod_one. apply nodeof_in, G in N. now rewrite N.
Qed.
Lemma osg_mul s s' x y : osg (xorb s s') (o2 (pmul n) x y) = o2 (pmul n) (osg s x) (osg s' y).
Proof. destruct x, y, s, s'; cbn; try reflexivity; f_equal; ring. Qed.
Lemma mkprod_ok l t t' w : mkprod l t = (t', w) -> good v t' -> good v t /\ sval v w = fold_right (fun w a => o2 (pmul n) (sval v w) a) (Some (one n)) l.
Proof.
  unfold mkprod. destruct (intern _ t) as [t1 k] eqn:I. intro E. injection E as <- <-. intro G. destruct (intern_ok _ _ _ _ I G) as [G1 Vk].
  split; [exact G1|]. unfold sval at 1. cbn [fst snd]. rewrite Vk. cbn [nsem]. rewrite <- (oprod_perm _ _ (sort_perm Pos.leb _)). clear Vk I.
  induction l as [|w l IH]; cbn [map List.concat fold_right].
  - now rewrite osg_false.
  - rewrite oprod_app, (flat_p_ok _ _ G1), osg_mul. now rewrite IH.
Qed.
(** *** Sequencing *)
Lemma oall_perm l l' x : Permutation l l' -> oall v l x = oall v l' x.
Proof.
  induction 1; [reflexivity| | |congruence]; cbn [oall fold_right] in *.
  - unfold oall in IHPermutation. now rewrite IHPermutation.
  - destruct (v x0), (v y); cbn; reflexivity.
Qed.
Lemma oall_app l l' x : oall v (l ++ l') x = oall v l (oall v l' x).
Proof. unfold oall. now rewrite fold_right_app. Qed.
Lemma oall_bnd l x (f : rct n -> oval) : obnd (oall v l x) f = oall v l (obnd x f).
Proof. induction l as [|i l IH]; cbn; [reflexivity|]. unfold oall in IH. destruct (v i); cbn; auto. Qed.
Lemma flat_q_ok t i x : good v t -> oall v (flat_q t i) x = obnd (v i) (fun _ => x).
Proof.
  intro G. unfold flat_q. destruct (nodeof i (ent t)) as [nd|] eqn:N; [|reflexivity].
  destruct nd; try reflexivity. apply nodeof_in, G in N. rewrite N. cbn [nsem].
  change (oall v (j :: l) x) with (obnd (v j) (fun _ => oall v l x)). rewrite oall_bnd. clear N.
  induction l as [|k l IH]; cbn; [reflexivity|]. unfold oall in IH. destruct (v j) as [y|], (v k) as [z|]; cbn in *; auto.
Qed.
Lemma mkseq_ok i j t t' k : mkseq i j t = (t', k) -> good v t' -> good v t /\ v k = obnd (v i) (fun _ => v j).
Proof.
  unfold mkseq. intro E.
  assert (H : forall l m, intern (NSeq (sort Pos.leb l) m) t = (t', k) -> good v t' -> good v t /\ v k = oall v l (v m)).
  { intros l m I G. destruct (intern_ok _ _ _ _ I G) as [G1 Vk]. split; [exact G1|]. rewrite Vk. cbn [nsem]. symmetry. apply oall_perm, sort_perm. }
  destruct (nodeof j (ent t)) as [nd|] eqn:N.
  - destruct nd; try (intro G; destruct (H _ _ E G) as [G1 Vk]; split; [exact G1|]; rewrite Vk; now apply flat_q_ok).
    intro G. destruct (H _ _ E G) as [G1 Vk]. split; [exact G1|]. rewrite Vk, oall_app, (flat_q_ok _ _ _ G1). apply nodeof_in, G1 in N. now rewrite N.
  - intro G; destruct (H _ _ E G) as [G1 Vk]; split; [exact G1|]; rewrite Vk; now apply flat_q_ok.
Qed.
Lemma posi_ok w t t' i : posi w t = (t', i) -> good v t' -> good v t /\ v i = sval v w.
Proof.
  unfold posi. destruct w as [[] j]; cbn [fst snd].
  - intros I G. destruct (intern_ok _ _ _ _ I G) as [G1 Vk]. split; [exact G1|]. rewrite Vk. apply osum_one.
  - intros E G. injection E as <- <-. split; [exact G|]. unfold sval. cbn [fst snd]. now rewrite osg_false.
Qed.
Lemma cst_ok s : seval (K := ROps) st (cst s) = seval st s.
Proof. destruct s; try reflexivity. cbn [cst seval]. f_equal. cbn. apply Qeq_eqR, Qred_correct. Qed.

(** *** Expressions *)
Variable im : nat -> option sid.
Variable di : nat -> rct n.       (* the inputs seen by the expression *)
Definition inok : Prop := forall i w, im i = Some w -> sval v w = Some (di i).
Definition fmok (fm : fld -> sid) (fl : fld -> rct n) : Prop := forall f, sval v (fm f) = Some (fl f).
Definition renv (r : list (string * sid)) (g : env (K := ROps) n) : Prop :=
  forall x w, slook x r = Some w -> exists y, lookup n x g = Some y /\ sval v w = Some y.
Lemma renv_cons r g x w y : renv r g -> sval v w = Some y -> renv ((x, w) :: r) ((x, y) :: g).
Proof.
  intros H S z u. cbn [slook lookup]. destruct (String.eqb z x); [|apply H]. intro E. injection E as <-. eauto.
Qed.
Notation evi f r e := (eval (K := ROps) st n di f r e).
Section FM.
Variable fm : fld -> sid.
Variable fl : fld -> rct n.
Definition ok r g : Prop := inok /\ fmok fm fl /\ renv r g.
Definition claim (e : expr) : Prop := forall r g t t' w, norm im fm r e t = Some (t', w) -> good v t' ->
  good v t /\ (ok r g -> evi fl g e = sval v w).
Lemma un_ok (F : id -> node) (op : rct n -> oval) e (ee : expr) :
  (forall i, nsem v (F i) = obnd (v i) op) ->
  claim e -> forall r g t t' w, un F (norm im fm r e t) = Some (t', w) -> good v t' ->
  good v t /\ (ok r g -> obnd (evi fl g e) op = sval v w).
Proof.
  intros HF IH r g t t' w E G. unfold un in E. destruct (norm im fm r e t) as [[t1 u]|] eqn:N; [|discriminate].
  destruct (posi u t1) as [t2 i] eqn:P. destruct (intern (F i) t2) as [t3 k] eqn:I. injection E as <- <-.
  destruct (intern_ok _ _ _ _ I G) as [G2 Vk]. destruct (posi_ok _ _ _ _ P G2) as [G1 Vi]. destruct (IH r g t t1 u N G1) as [G0 H].
  split; [exact G0|]. intro R. rewrite (H R). unfold sval at 2. cbn [fst snd]. rewrite osg_false, Vk, HF, Vi. reflexivity.
Qed.
Lemma neg_div s x y : obnd (osg s x) (fun a => obnd y (fun b => ct_div n a b)) = osg s (obnd x (fun a => obnd y (fun b => ct_div n a b))).
Proof.
  destruct x as [a|]; [|reflexivity]. cbn [osg obnd]. destruct y as [b|]; [|reflexivity]. cbn [obnd]. unfold ct_div.
  destruct (inv_expand _); cbn [obnd]; [|reflexivity]. cbn [osg]. f_equal. rewrite !multo_spec. destruct s; cbn [sg]; [ring|reflexivity].
Qed.
Lemma neg_divk s x k : obnd (osg s x) (fun a => ct_divk n a k) = osg s (obnd x (fun a => ct_divk n a k)).
Proof.
  destruct x as [a|]; [|reflexivity]. cbn [osg obnd]. unfold ct_divk. destruct (Oeqb k _); [reflexivity|]. cbn [osg]. f_equal. rewrite !scaleto_spec.
  destruct s; cbn [sg]; [ring|reflexivity].
Qed.
Lemma powi_iter (x : rct n) m : Nat.iter m (fun res => ct_multo n res x) x = Nat.iter m (fun res => pmul n res x) x.
Proof. induction m; unfold Nat.iter in *; cbn [nat_rect]; [reflexivity|]. rewrite IHm. apply multo_spec. Qed.
Lemma iter_neg (x : rct n) m : Nat.iter m (fun res => pmul n res (ct_neg n x)) (ct_neg n x) = sg (Nat.odd (S m)) (Nat.iter m (fun res => pmul n res x) x).
Proof.
  induction m; [reflexivity|]. cbn [Nat.iter nat_rect]. change (Nat.iter m _ _) with (Nat.iter m (fun res => pmul n res (ct_neg n x)) (ct_neg n x)). unfold Nat.iter in *. rewrite IHm.
  replace (Nat.odd (S (S m))) with (negb (Nat.odd (S m))) by (rewrite (Nat.odd_succ (S m)), <- Nat.negb_odd; reflexivity).
  destruct (Nat.odd (S m)); cbn [sg negb]; ring.
Qed.
Lemma zodd m : Z.odd (Z.of_nat m) = Nat.odd m.
Proof.
  induction m; [reflexivity|]. rewrite Nat2Z.inj_succ, Z.odd_succ, Nat.odd_succ, <- Z.negb_odd, <- Nat.negb_odd. now rewrite IHm.
Qed.
Lemma neg_powi s x z : (0 <= z)%Z -> obnd (osg s x) (fun a => ct_powi n a z) = osg (andb (Z.odd z) s) (obnd x (fun a => ct_powi n a z)).
Proof.
  intro Z0. destruct x as [a|]; [|reflexivity]. cbn [osg obnd]. unfold ct_powi. destruct (Z.ltb_spec 0 z) as [L|L].
  - cbn [osg]. f_equal. rewrite !powi_iter. destruct s; [|rewrite andb_false_r; reflexivity]. rewrite andb_true_r. cbn [sg]. rewrite iter_neg. f_equal.
    rewrite <- (Z2Nat.id z) at 2 by lia. replace (Z.to_nat z) with (S (Z.to_nat (z - 1))) by lia. generalize (Z.to_nat (z - 1)). intro m.
    symmetry. apply zodd.
  - replace z with 0%Z by lia. cbn [Z.ltb Z.compare]. cbn [andb osg sg Z.odd]. reflexivity.
Qed.
Ltac inv1 IH E t1 u N1 := match type of E with match norm im fm ?r ?e ?t with _ => _ end = _ => destruct (norm im fm r e t) as [[t1 u]|] eqn:N1; [|discriminate E] end.
Lemma norm_ok : forall e, claim e.
Proof.
  induction e; intros r g t t' w E G; cbn [norm] in E; cbn [eval].
  - destruct (im i) as [u|] eqn:I; [|discriminate]. injection E as <- <-. split; [exact G|]. intros (A & _). symmetry. now apply A.
  - injection E as <- <-. split; [exact G|]. intros (_ & A & _). symmetry. apply A.
  - destruct (slook x r) as [u|] eqn:L; [|discriminate]. injection E as <- <-. split; [exact G|]. intro R. destruct R as (_ & _ & R). destruct (R _ _ L) as (y & A & B). congruence.
  - destruct (intern _ t) as [t1 k] eqn:I. injection E as <- <-. destruct (intern_ok _ _ _ _ I G) as [G1 Vk]. split; [exact G1|]. intros _.
    unfold sval. cbn [fst snd]. rewrite osg_false, Vk. cbn [nsem]. now rewrite cst_ok.
  - inv1 IHe1 E t1 u N1. destruct (norm im fm ((x, u) :: r) e2 t1) as [[t2 p]|] eqn:N2; [|discriminate].
    destruct (mkseq (snd u) (snd p) t2) as [t3 k] eqn:I. injection E as <- <-. destruct (mkseq_ok _ _ _ _ _ I G) as [G2 Vk].
    destruct (IHe2 ((x, u) :: r) g t1 t2 p N2 G2) as [G1 _]. destruct (IHe1 r g t t1 u N1 G1) as [G0 H1]. split; [exact G0|]. intro R. rewrite (H1 R).
    unfold sval at 2. cbn [fst snd]. rewrite Vk. unfold sval at 1. destruct (v (snd u)) as [y|] eqn:Vu; cbn [osg obnd]; [|reflexivity].
    destruct (IHe2 ((x, u) :: r) ((x, sg (fst u) y) :: g) t1 t2 p N2 G2) as [_ H2]. rewrite H2; [reflexivity|].
    destruct R as (R1 & R2 & R). split; [exact R1|]. split; [exact R2|]. apply renv_cons; [exact R|]. unfold sval. now rewrite Vu.
  - inv1 IHe E t1 u N1. injection E as <- <-. destruct (IHe r g t t1 u N1 G) as [G0 H]. split; [exact G0|]. intro R. rewrite (H R), sval_flip. now destruct (sval v u).
  - inv1 IHe1 E t1 u N1. inv1 IHe2 E t2 p N2. injection E as E. destruct (mksum_ok _ _ _ _ E G) as [G2 V2].
    destruct (IHe2 r g t1 t2 p N2 G2) as [G1 H2]. destruct (IHe1 r g t t1 u N1 G1) as [G0 H1]. split; [exact G0|]. intro R.
    rewrite (H1 R), (H2 R), V2. rewrite osum_cons, osum_one. reflexivity.
  - inv1 IHe1 E t1 u N1. inv1 IHe2 E t2 p N2. injection E as E. destruct (mksum_ok _ _ _ _ E G) as [G2 V2].
    destruct (IHe2 r g t1 t2 p N2 G2) as [G1 H2]. destruct (IHe1 r g t t1 u N1 G1) as [G0 H1]. split; [exact G0|]. intro R.
    rewrite (H1 R), (H2 R), V2. rewrite osum_cons, osum_one, sval_flip. destruct (sval v u), (sval v p); cbn; try reflexivity. f_equal. rewrite sub_def. reflexivity.
  - inv1 IHe1 E t1 u N1. inv1 IHe2 E t2 p N2. injection E as E. destruct (mkprod_ok _ _ _ _ E G) as [G2 V2].
    destruct (IHe2 r g t1 t2 p N2 G2) as [G1 H2]. destruct (IHe1 r g t t1 u N1 G1) as [G0 H1]. split; [exact G0|]. intro R.
    rewrite (H1 R), (H2 R), V2. cbn [fold_right]. destruct (sval v u), (sval v p); cbn; try reflexivity. f_equal. unfold ct_mul. rewrite mulset_spec. ring.
  - inv1 IHe1 E t1 u N1. inv1 IHe2 E t2 p N2. injection E as E. destruct (mkprod_ok _ _ _ _ E G) as [G2 V2].
    destruct (IHe2 r g t1 t2 p N2 G2) as [G1 H2]. destruct (IHe1 r g t t1 u N1 G1) as [G0 H1]. split; [exact G0|]. intro R.
    rewrite (H1 R), (H2 R), V2. cbn [fold_right]. destruct (sval v u), (sval v p); cbn; try reflexivity. f_equal. rewrite multo_spec. ring.
  - inv1 IHe1 E t1 u N1. inv1 IHe2 E t2 p N2. destruct (posi p t2) as [t3 j] eqn:P. destruct (intern _ t3) as [t4 k] eqn:I. injection E as <- <-.
    destruct (intern_ok _ _ _ _ I G) as [G3 Vk]. destruct (posi_ok _ _ _ _ P G3) as [G2 Vj].
    destruct (IHe2 r g t1 t2 p N2 G2) as [G1 H2]. destruct (IHe1 r g t t1 u N1 G1) as [G0 H1]. split; [exact G0|]. intro R.
    rewrite (H1 R), (H2 R). unfold sval at 3. cbn [fst snd]. rewrite Vk. cbn [nsem]. rewrite Vj. unfold sval at 1. apply neg_div.
  - inv1 IHe E t1 u N1. destruct (intern _ t1) as [t2 k] eqn:I. injection E as E. destruct (mksum_ok _ _ _ _ E G) as [G2 V2].
    destruct (intern_ok _ _ _ _ I G2) as [G1 Vk]. destruct (IHe r g t t1 u N1 G1) as [G0 H]. split; [exact G0|]. intro R. rewrite (H R), V2, osum_cons, osum_one.
    unfold sval at 3. cbn [fst snd]. rewrite osg_false, Vk. cbn [nsem]. rewrite cst_ok. destruct (sval v u), (seval st s); cbn; try reflexivity. f_equal. rewrite addk_spec. ring.
  - inv1 IHe E t1 u N1. destruct (intern _ t1) as [t2 k] eqn:I. injection E as E. destruct (mksum_ok _ _ _ _ E G) as [G2 V2].
    destruct (intern_ok _ _ _ _ I G2) as [G1 Vk]. destruct (IHe r g t t1 u N1 G1) as [G0 H]. split; [exact G0|]. intro R. rewrite (H R), V2, osum_cons, osum_one.
    unfold sval at 3. cbn [fst snd]. rewrite Vk. cbn [nsem]. rewrite cst_ok. destruct (sval v u), (seval st s); cbn; try reflexivity. f_equal. rewrite subk_spec. apply sub_def.
  - inv1 IHe E t1 u N1. destruct (intern _ t1) as [t2 k] eqn:I. injection E as E. destruct (mksum_ok _ _ _ _ E G) as [G2 V2].
    destruct (intern_ok _ _ _ _ I G2) as [G1 Vk]. destruct (IHe r g t t1 u N1 G1) as [G0 H]. split; [exact G0|]. intro R. rewrite (H R), V2, osum_cons, osum_one, sval_flip.
    unfold sval at 3. cbn [fst snd]. rewrite osg_false, Vk. cbn [nsem]. rewrite cst_ok. destruct (sval v u), (seval st s); cbn; try reflexivity. f_equal. rewrite ksub_spec. ring.
  - inv1 IHe E t1 u N1. destruct (intern _ t1) as [t2 k] eqn:I. injection E as E. destruct (mkprod_ok _ _ _ _ E G) as [G2 V2].
    destruct (intern_ok _ _ _ _ I G2) as [G1 Vk]. destruct (IHe r g t t1 u N1 G1) as [G0 H]. split; [exact G0|]. intro R. rewrite (H R), V2. cbn [fold_right].
    unfold sval at 3. cbn [fst snd]. rewrite osg_false, Vk. cbn [nsem]. rewrite cst_ok. destruct (sval v u), (seval st s); cbn; try reflexivity. f_equal. rewrite scale_spec. ring.
  - destruct (un_ok (NKDiv (cst s)) (fun x => obnd (seval st s) (fun k => ct_kdiv n k x)) e e) with (2 := IHe) (3 := E) (g := g) as [G0 H]; [|exact G|].
    + intro i. cbn [nsem]. rewrite cst_ok. destruct (v i), (seval st s); reflexivity.
    + split; [exact G0|]. intro R. rewrite <- (H R). destruct (evi fl g e), (seval st s); reflexivity.
  - unfold sgn1 in E. inv1 IHe E t1 u N1. destruct (intern _ t1) as [t2 k] eqn:I. injection E as <- <-.
    destruct (intern_ok _ _ _ _ I G) as [G1 Vk]. destruct (IHe r g t t1 u N1 G1) as [G0 H]. split; [exact G0|]. intro R. rewrite (H R).
    unfold sval. cbn [fst snd]. rewrite Vk. cbn [nsem]. rewrite cst_ok. destruct (seval st s) as [q|]; cbn [obnd].
    + apply neg_divk.
    + now destruct (v (snd u)).
  - destruct (un_ok (fun i => NPow i (cst s)) (fun x => obnd (seval st s) (fun k => ct_pow n x k)) e e) with (2 := IHe) (3 := E) (g := g) as [G0 H]; [|exact G|].
    + intro i. cbn [nsem]. now rewrite cst_ok.
    + split; [exact G0|]. intro R. now rewrite <- (H R).
  - destruct (Z.leb_spec 0 z) as [L|L].
    + inv1 IHe E t1 u N1. destruct (intern _ t1) as [t2 k] eqn:I. injection E as <- <-.
      destruct (intern_ok _ _ _ _ I G) as [G1 Vk]. destruct (IHe r g t t1 u N1 G1) as [G0 H]. split; [exact G0|]. intro R. rewrite (H R).
      unfold sval. cbn [fst snd]. rewrite Vk. cbn [nsem]. now apply neg_powi.
    + destruct (un_ok (fun i => NPowI i z) (fun x => ct_powi n x z) e e) with (2 := IHe) (3 := E) (g := g) as [G0 H]; [reflexivity|exact G|]. auto.
  - destruct (un_ok (NFn f) (fn_eval n f) e e) with (2 := IHe) (3 := E) (g := g) as [G0 H]; [reflexivity|exact G|]. auto.
  - destruct (un_ok NAbs (fun x => Some (ct_abs n x)) e e) with (2 := IHe) (3 := E) (g := g) as [G0 H]; [reflexivity|exact G|]. auto.
  - inv1 IHe1 E t1 u N1. inv1 IHe2 E t2 p N2. destruct (posi u t2) as [t3 i] eqn:P1. destruct (posi p t3) as [t4 j] eqn:P2. destruct (intern _ t4) as [t5 k] eqn:I. injection E as <- <-.
    destruct (intern_ok _ _ _ _ I G) as [G4 Vk]. destruct (posi_ok _ _ _ _ P2 G4) as [G3 Vj]. destruct (posi_ok _ _ _ _ P1 G3) as [G2 Vi].
    destruct (IHe2 r g t1 t2 p N2 G2) as [G1 H2]. destruct (IHe1 r g t t1 u N1 G1) as [G0 H1]. split; [exact G0|]. intro R.
    rewrite (H1 R), (H2 R). unfold sval at 3. cbn [fst snd]. rewrite osg_false, Vk. cbn [nsem]. now rewrite Vi, Vj.
  - destruct (un_ok NReg (fun x => Some (ct_reg n x)) e e) with (2 := IHe) (3 := E) (g := g) as [G0 H]; [reflexivity|exact G|]. auto.
  - destruct (un_ok NBR (fun x => ct_BR n x) e e) with (2 := IHe) (3 := E) (g := g) as [G0 H]; [reflexivity|exact G|]. auto.
  - inv1 IHe1 E t1 u N1. inv1 IHe2 E t2 p N2. inv1 IHe3 E t3 q N3. inv1 IHe4 E t4 o N4.
    destruct (posi u t4) as [t5 i] eqn:P1. destruct (posi p t5) as [t6 j] eqn:P2. destruct (posi q t6) as [t7 x] eqn:P3. destruct (posi o t7) as [t8 y] eqn:P4.
    destruct (intern _ t8) as [t9 k] eqn:I. injection E as <- <-.
    destruct (intern_ok _ _ _ _ I G) as [G8 Vk]. destruct (posi_ok _ _ _ _ P4 G8) as [G7 Vy]. destruct (posi_ok _ _ _ _ P3 G7) as [G6 Vx].
    destruct (posi_ok _ _ _ _ P2 G6) as [G5 Vj]. destruct (posi_ok _ _ _ _ P1 G5) as [G4 Vi].
    destruct (IHe4 r g t3 t4 o N4 G4) as [G3 H4]. destruct (IHe3 r g t2 t3 q N3 G3) as [G2 H3].
    destruct (IHe2 r g t1 t2 p N2 G2) as [G1 H2]. destruct (IHe1 r g t t1 u N1 G1) as [G0 H1]. split; [exact G0|]. intro R.
    rewrite (H1 R), (H2 R), (H3 R), (H4 R). unfold sval at 5. cbn [fst snd]. rewrite osg_false, Vk. cbn [nsem]. now rewrite Vi, Vj, Vx, Vy.
Qed.
End FM.

(** *** Constructor bodies *)
Lemma fmupd_ok fm fl f w y : fmok fm fl -> sval v w = Some y -> fmok (fmupd fm f w) (fupd n fl f y).
Proof. intros H S g. unfold fmupd, fupd. destruct (fld_eqb g f); [exact S|apply H]. Qed.
Lemma nrun_ok : forall p fm fl t sq t' fm' sq', nrun im fm p t sq = Some (t', fm', sq') -> good v t' ->
  good v t /\ incl sq sq' /\
  (inok -> fmok fm fl -> (forall i, In i sq -> v i <> None) ->
   match run (K := ROps) st n di fl p with
   | Some fl' => fmok fm' fl' /\ (forall i, In i sq' -> v i <> None)
   | None => exists i, In i sq' /\ v i = None
   end).
Proof.
  induction p as [|[f e] p IH]; intros fm fl t sq t' fm' sq' E G; cbn [nrun] in E; cbn [run].
  - injection E as <- <- <-. split; [exact G|]. split; [apply incl_refl|]. auto.
  - destruct (norm im fm [] e t) as [[t1 w]|] eqn:N1; [|discriminate].
    destruct (IH _ fl _ _ _ _ _ E G) as (G1 & I1 & _). 
    split. { exact (proj1 (norm_ok fm fl e [] [] _ _ _ N1 G1)). }
    split. { intros i Hi. apply I1. now right. }
    intros A F Q. pose proof (proj2 (norm_ok fm fl e [] [] _ _ _ N1 G1)) as H. rewrite H by (split; [exact A|]; split; [exact F|]; intros x u; discriminate).
    unfold sval at 1. destruct (v (snd w)) as [y|] eqn:V; cbn [osg obnd].
    + destruct (IH (fmupd fm f w) (fupd n fl f (sg (fst w) y)) _ _ _ _ _ E G) as (_ & _ & H2). apply H2; [exact A| |].
      * apply fmupd_ok; [exact F|]. unfold sval. now rewrite V.
      * intros i [<-|Hi]; [congruence|auto].
    + exists (snd w). split; [apply I1; now left|exact V].
Qed.
End SOUND.

(** ** Satisfiable tables *)
Definition refs (nd : node) : list id :=
  match nd with
  | NIn _ | NFld _ | NConst _ => [] | NSum l => map snd l | NProd l => l
  | NDiv i j | NMax i j => [i; j] | NDivK i _ | NKDiv _ i | NPow i _ | NPowI i _ | NFn _ i | NAbs i | NReg i | NBR i => [i]
  | NIf a b x y => [a; b; x; y] | NSeq l j => j :: l
  end.
Fixpoint wfl (l : list (id * node)) : bool :=
  match l with
  | [] => true
  | (k, nd) :: l' => forallb (fun i => Pos.ltb i k) (refs nd) && match l' with (k', _) :: _ => Pos.ltb k' k | [] => true end && wfl l'
  end.
Section VALS.
Variable st : nat -> T ROps.
Variable n : nat.
Variable d : nat -> rct n.
Variable flv : fld -> rct n.
Fixpoint vals (l : list (id * node)) : id -> option (rct n) :=
  match l with
  | [] => fun _ => None
  | (k, nd) :: l' => fun i => if Pos.eqb i k then nsem st n d flv (vals l') nd else vals l' i
  end.
Lemma nsem_ext u v nd : (forall i, In i (refs nd) -> u i = v i) -> nsem st n d flv u nd = nsem st n d flv v nd.
Proof.
  destruct nd; cbn [refs nsem In]; intro H; try reflexivity; try (now rewrite !H by auto).
  - induction l as [|w l IH]; [reflexivity|]. unfold osum in *. cbn [fold_right]. rewrite IH by (intros i Hi; apply H; now right). rewrite (H (snd w)) by (now left). reflexivity.
  - induction l as [|w l IH]; [reflexivity|]. unfold oprod in *. cbn [fold_right]. rewrite IH by (intros i Hi; apply H; now right). rewrite (H w) by (now left). reflexivity.
  - rewrite (H j) by auto. induction l as [|w l IH]; [reflexivity|]. unfold oall in *. cbn [fold_right].
    rewrite IH by (intros i [Hi|Hi]; apply H; cbn; auto). rewrite (H w) by (cbn; auto). reflexivity.
Qed.
Lemma wfl_lt k nd l : wfl ((k, nd) :: l) = true -> forall j m, In (j, m) l -> (j < k)%positive.
Proof.
  revert k nd. induction l as [|[k' nd'] l IH]; intros k nd W j m [].
  - injection H as -> ->. cbn [wfl] in W. rewrite !andb_true_iff in W. destruct W as ((_ & W) & _). now apply Pos.ltb_lt.
  - pose proof W as W0. cbn [wfl] in W. rewrite !andb_true_iff in W. destruct W as ((_ & W) & W2). apply Pos.ltb_lt in W.
    apply Pos.lt_trans with k'; [|exact W]. apply (IH k' nd'  ltac:(cbn [wfl]; rewrite !andb_true_iff; tauto) j m H).
Qed.
Lemma wfl_good t : wfl (ent t) = true -> good st n d flv (vals (ent t)) t.
Proof.
  unfold good. generalize (ent t). clear t. induction l as [|[k nd] l IH]; intros W j m H; [destruct H|].
  assert (Ext : forall q, (forall i, In i (refs q) -> i <> k) -> nsem st n d flv (vals ((k, nd) :: l)) q = nsem st n d flv (vals l) q).
  { intros q Hq. apply nsem_ext. intros i Hi. cbn [vals]. apply Hq in Hi. apply Pos.eqb_neq in Hi. now rewrite Hi. }
  assert (Below : forall j m, In (j, m) ((k, nd) :: l) -> forall i, In i (refs m) -> (i < j)%positive).
  { clear - W. revert W. generalize ((k, nd) :: l). induction l0 as [|[k' nd'] l0 IH]; intros W j m H i Hi; [destruct H|].
    cbn [wfl] in W. rewrite !andb_true_iff in W. destruct W as ((W1 & _) & W2). destruct H as [H|H].
    - injection H as -> ->. rewrite forallb_forall in W1. apply Pos.ltb_lt. now apply W1.
    - now apply (IH W2 j m H). }
  pose proof (wfl_lt _ _ _ W) as Lt.
  destruct H as [H|H].
  - injection H as -> ->. rewrite Ext; [cbn [vals]; now rewrite Pos.eqb_refl|]. intros i Hi. pose proof (Below j m (or_introl eq_refl) i Hi). lia.
  - pose proof (Lt j m H) as L. rewrite Ext.
    + cbn [vals]. destruct (Pos.eqb_spec j k); [lia|]. apply IH; [|exact H]. cbn [wfl] in W. rewrite !andb_true_iff in W. tauto.
    + intros i Hi. pose proof (Below j m (or_intror H) i Hi). lia.
Qed.
End VALS.

(** ** Spin exchange of the density variables *)
Definition sw (f : fld) : bool * fld :=
  match f with
  | f_a => (false, f_b) | f_b => (false, f_a) | f_gaa => (false, f_gbb) | f_gbb => (false, f_gaa)
  | f_s => (true, f_s) | f_gns => (true, f_gns) | f_zeta => (true, f_zeta)
  | f_taua => (false, f_taub) | f_taub => (false, f_taua) | f_lapa => (false, f_lapb) | f_lapb => (false, f_lapa)
  | f_a_43 => (false, f_b_43) | f_b_43 => (false, f_a_43) | f_jpaa => (false, f_jpbb) | f_jpbb => (false, f_jpaa)
  | _ => (false, f)
  end.
Definition fid (f : fld) : id := Pos.of_succ_nat (fld_num f).
Definition t0 : tbl := Tb (Pos.of_succ_nat 22) (rev (map (fun f => (fid f, NFld f)) all_flds)).
Definition fm0 (f : fld) : sid := (false, fid f).
Definition fm1 (f : fld) : sid := (fst (sw f), fid (snd (sw f))).
(** The two values of [e], for the fields and for the exchanged fields, are the same entry of a well-formed table. *)
Definition symm (e : expr) : bool :=
  match norm (fun _ => None) fm0 [] e t0 with
  | Some (t1, w) => match norm (fun _ => None) fm1 [] e t1 with
      | Some (t2, u) => (if sid_dec w u then true else false) && wfl (ent t2)
      | None => false end
  | None => false end.
Definition swapped n (fl fl' : fld -> rct n) : Prop := forall f, fl' f = sg n (fst (sw f)) (fl (snd (sw f))).
Lemma t0_in f : In (fid f, NFld f) (ent t0).
Proof. destruct f; cbn; tauto. Qed.
Lemma symm_ok st n d d' fl fl' e : symm e = true -> swapped n fl fl' -> eval (K := ROps) st n d fl [] e = eval st n d' fl' [] e.
Proof.
  unfold symm. intros H S. destruct (norm _ fm0 [] e t0) as [[t1 w]|] eqn:N1; [|discriminate]. destruct (norm _ fm1 [] e t1) as [[t2 u]|] eqn:N2; [|discriminate].
  apply andb_true_iff in H. destruct H as [H W]. destruct (sid_dec w u) as [<-|]; [|discriminate]. clear H.
  set (v := vals st n d fl (ent t2)). pose proof (wfl_good st n d fl t2 W) as G2. fold v in G2.
  destruct (norm_ok st n d fl v (fun _ => None) d' fm1 fl' e [] [] _ _ _ N2 G2) as [G1 E2].
  destruct (norm_ok st n d fl v (fun _ => None) d fm0 fl e [] [] _ _ _ N1 G1) as [G0 E1].
  assert (V : forall f, v (fid f) = Some (fl f)) by (intro f; exact (G0 _ _ (t0_in f))).
  assert (F0 : fmok n v fm0 fl) by (intro f; unfold sval, fm0; cbn [fst snd]; rewrite V; reflexivity).
  assert (F1 : fmok n v fm1 fl') by (intro f; unfold sval, fm1; cbn [fst snd]; rewrite V; cbn [osg]; now rewrite <- S).
  rewrite E1, E2; [reflexivity| |]; (split; [intros ? ? X; discriminate X|split; [assumption|intros ? ? X; discriminate X]]).
Qed.
(** Every functional is symmetric. *)
Lemma all_symm : forallb (fun q : string * expr => symm (snd q)) functionals = true.
Proof. vm_compute. reflexivity. Qed.

(** ** Spin exchange of the inputs *)
(** For each input, with a sign, the input that takes its place. *)
Definition exch (v : Z) : option (list (bool * nat)) :=
  let p := map (fun i : nat => (false, i)) in let m := map (fun i : nat => (true, i)) in
  (if Z.eqb v XC_A_B then Some (p [1; 0])
  else if Z.eqb v XC_A_B_GAA_GAB_GBB then Some (p [1; 0; 4; 3; 2])
  else if Z.eqb v XC_A_B_GAA_GAB_GBB_TAUA_TAUB then Some (p [1; 0; 4; 3; 2; 6; 5])
  else if Z.eqb v XC_A_B_GAA_GAB_GBB_LAPA_LAPB_TAUA_TAUB then Some (p [1; 0; 4; 3; 2; 6; 5; 8; 7])
  else if Z.eqb v XC_A_B_GAA_GAB_GBB_LAPA_LAPB_TAUA_TAUB_JPAA_JPBB then Some (p [1; 0; 4; 3; 2; 6; 5; 8; 7; 10; 9])
  else if Z.eqb v XC_A_B_AX_AY_AZ_BX_BY_BZ then Some (p [1; 0; 5; 6; 7; 2; 3; 4])
  else if Z.eqb v XC_A_B_AX_AY_AZ_BX_BY_BZ_TAUA_TAUB then Some (p [1; 0; 5; 6; 7; 2; 3; 4; 9; 8])
  else if Z.eqb v XC_A_B_2ND_TAYLOR then Some (p [10; 11; 12; 13; 14; 15; 16; 17; 18; 19; 0; 1; 2; 3; 4; 5; 6; 7; 8; 9])
  else if Z.eqb v XC_N_S then Some (p [0] ++ m [1])
  else if Z.eqb v XC_N_S_GNN_GNS_GSS then Some (p [0] ++ m [1] ++ p [2] ++ m [3] ++ p [4])
  else if Z.eqb v XC_N_S_GNN_GNS_GSS_TAUN_TAUS then Some (p [0] ++ m [1] ++ p [2] ++ m [3] ++ p [4; 5] ++ m [6])
  else if Z.eqb v XC_N_S_NX_NY_NZ_SX_SY_SZ then Some (p [0] ++ m [1] ++ p [2; 3; 4] ++ m [5; 6; 7])
  else if Z.eqb v XC_N_S_NX_NY_NZ_SX_SY_SZ_TAUN_TAUS then Some (p [0] ++ m [1] ++ p [2; 3; 4] ++ m [5; 6; 7] ++ p [8] ++ m [9])
  else None)%nat.
Definition iid (i : nat) : id := Pos.of_succ_nat i.
Definition tin : tbl := Tb (iid 21) ((iid 20, NConst (SQ 0)) :: rev (map (fun i => (iid i, NIn i)) (seq 0 20))).
Definition imin (l : list (bool * nat)) (i : nat) : option sid :=
  match nth_error l i with Some (s, j) => if Nat.ltb j 20 then Some (s, iid j) else None | None => None end.
Definition fmz (f : fld) : sid := (false, iid 20).
Definition zid (w : sid) : bool := Pos.eqb (snd w) (iid 20).
Definition ids (l : list (bool * nat)) : list (bool * nat) := map (fun i => (false, i)) (seq 0 (List.length l)).
Definition subset (l m : list id) : bool := forallb (fun i => existsb (Pos.eqb i) m) l.
Definition dvsym (v : Z) : bool :=
  match exch v, dv_prog v with
  | Some l, Some p =>
      match nrun (imin (ids l)) fmz p tin [] with
      | Some (t1, fa, sa) =>
          match nrun (imin l) fmz p t1 [] with
          | Some (t2, fb, sb) => wfl (ent t2) && subset sa sb && subset sb sa &&
              forallb (fun f => orb (if sid_dec (fb f) (sflip (fst (sw f)) (fa (snd (sw f)))) then true else false)
                                    (zid (fb f) && zid (fa (snd (sw f))))) all_flds
          | None => false end
      | None => false end
  | _, _ => true end.
Lemma dvsym_all : forallb dvsym (map Z.of_nat (seq 0 31)) = true.
Proof. vm_compute. reflexivity. Qed.
Definition cexch n (l : list (bool * nat)) (d d' : nat -> rct n) : Prop :=
  forall i s j, nth_error l i = Some (s, j) -> d' i = sg n s (d j).
Lemma tin_in i : (i < 20)%nat -> In (iid i, NIn i) (ent tin).
Proof. intro H. cbn [tin ent]. right. apply -> in_rev. apply in_map_iff. exists i. split; [reflexivity|]. apply in_seq. lia. Qed.
Lemma subset_in l m i : subset l m = true -> In i l -> In i m.
Proof. intros H Hi. unfold subset in H. rewrite forallb_forall in H. specialize (H i Hi). apply existsb_exists in H. destruct H as (x & A & B). apply Pos.eqb_eq in B. now subst. Qed.
Lemma ids_nth l i s j : nth_error (ids l) i = Some (s, j) -> s = false /\ j = i.
Proof.
  unfold ids. intro H. rewrite nth_error_map in H. destruct (nth_error (seq 0 (List.length l)) i) as [k|] eqn:E; [|discriminate]. cbn in H. injection H as <- <-.
  split; [reflexivity|]. pose proof (nth_error_nth _ _ 0%nat E) as N. rewrite seq_nth in N; [lia|]. rewrite <- (seq_length (List.length l) 0). apply nth_error_Some. congruence.
Qed.
Lemma run_exch st n v l p d d' : exch v = Some l -> dv_prog v = Some p -> cexch n l d d' ->
  match run (K := ROps) st n d (dv_init n) p, run st n d' (dv_init n) p with
  | Some fl, Some fl' => swapped n fl fl'
  | None, None => True
  | _, _ => False end.
Proof.
  intros X P C. assert (H : dvsym v = true).
  { assert (R : In v (map Z.of_nat (seq 0 31))).
    { unfold exch in X. repeat (match type of X with (if Z.eqb v ?k then _ else _) = _ => destruct (Z.eqb_spec v k) as [->|]; [cbn; tauto|] end). discriminate. }
    exact (proj1 (forallb_forall _ _) dvsym_all v R). }
  unfold dvsym in H. rewrite X, P in H.
  destruct (nrun (imin (ids l)) fmz p tin []) as [[[t1 fa] sa]|] eqn:N1; [|discriminate].
  destruct (nrun (imin l) fmz p t1 []) as [[[t2 fb] sb]|] eqn:N2; [|discriminate].
  rewrite !andb_true_iff in H. destruct H as (((W & Sab) & Sba) & F). rewrite forallb_forall in F.
  set (u := vals st n d (fun _ => zero n) (ent t2)). pose proof (wfl_good st n d (fun _ => zero n) t2 W) as G2. fold u in G2.
  destruct (nrun_ok st n d (fun _ => zero n) u (imin l) d' p fmz (dv_init n) _ _ _ _ _ N2 G2) as (G1 & _ & E2).
  destruct (nrun_ok st n d (fun _ => zero n) u (imin (ids l)) d p fmz (dv_init n) _ _ _ _ _ N1 G1) as (G0 & _ & E1).
  assert (Vi : forall i, (i < 20)%nat -> u (iid i) = Some (d i)) by (intros i Hi; exact (G0 _ _ (tin_in i Hi))).
  assert (Vz : u (iid 20) = Some (zero n)).
  { rewrite (G0 (iid 20) (NConst (SQ 0))) by (left; reflexivity). cbn [nsem seval obnd OofQ ROps]. now rewrite RMicromega.Q2R_0. }
  assert (Fz : fmok n u fmz (dv_init n)).
  { intro f. unfold sval, fmz. cbn [fst snd]. rewrite Vz. cbn [osg sg]. unfold dv_init. cbn [OofQ ROps]. now rewrite RMicromega.Q2R_0. }
  assert (I1 : inok n u (imin (ids l)) d).
  { intros i w. unfold imin. destruct (nth_error (ids l) i) as [[s j]|] eqn:E; [|discriminate]. destruct (Nat.ltb_spec j 20) as [J|J]; [|discriminate]. intro Q. injection Q as <-.
    destruct (ids_nth _ _ _ _ E) as [-> ->]. unfold sval. cbn [fst snd]. now rewrite Vi. }
  assert (I2 : inok n u (imin l) d').
  { intros i w. unfold imin. destruct (nth_error l i) as [[s j]|] eqn:E; [|discriminate]. destruct (Nat.ltb_spec j 20) as [J|J]; [|discriminate]. intro Q. injection Q as <-.
    unfold sval. cbn [fst snd]. rewrite Vi by exact J. cbn [osg]. now rewrite <- (C _ _ _ E). }
  specialize (E1 I1 Fz ltac:(intros ? [])). specialize (E2 I2 Fz ltac:(intros ? [])).
  destruct (run st n d (dv_init n) p) as [fl|], (run st n d' (dv_init n) p) as [fl'|].
  - destruct E1 as [E1 _], E2 as [E2 _]. intro f.
    assert (A : In f all_flds) by (destruct f; cbn; tauto). specialize (F f A). specialize (E1 (snd (sw f))). specialize (E2 f).
    apply orb_true_iff in F. destruct F as [F|F].
    + destruct (sid_dec (fb f) _) as [E|]; [|discriminate]. rewrite E, sval_flip, E1 in E2. cbn [osg] in E2. injection E2 as E2. now symmetry.
    + apply andb_true_iff in F. destruct F as [Zb Za]. unfold zid in Zb, Za. apply Pos.eqb_eq in Zb, Za. unfold sval in E1, E2. rewrite Za, Vz in E1. rewrite Zb, Vz in E2.
      cbn [osg] in E1, E2. injection E1 as E1. injection E2 as E2. rewrite <- E1, <- E2. 
      assert (Z0 : forall s, sg n s (zero n) = zero n) by (intros []; cbn [sg]; [apply neg_zero|reflexivity]). now rewrite !Z0.
  - destruct E1 as [_ E1], E2 as (i & A & B). exact (E1 i (subset_in _ _ _ Sba A) B).
  - destruct E2 as [_ E2], E1 as (i & A & B). exact (E2 i (subset_in _ _ _ Sab A) B).
  - exact Logic.I.
Qed.
