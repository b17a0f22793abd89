(** Property theorems C63. *)
From Coq Require Import NArith List Bool Arith String Lia.
From Verif Require Import Util TypesModel TypesProofs InheritModel RegistryModel RegistryProofs AccModel NameModel NameSpec NameProofs.
Import ListNotations.
Local Open Scope list_scope.

(** ** A printing of types as compilers do it *)

Local Open Scope string_scope.
Definition base_name (b : base) : string :=
  match b_id b with
  | 0 => "int" | 1 => "X" | 2 => "Y" | 3 => "double"
  | 20 | 21 => "main()::<lambda(int)>"
  | _ => "other"
  end.
Fixpoint shown (t : ty) : string :=
  match t with
  | TBase c _ b => (if c then "const " else "") ++ base_name b
  | TPtr c _ u => shown u ++ (if c then "* const" else "*")
  | TArr u _ => shown u ++ " []"
  end.
Definition printed (q : qty) : string :=
  (shown (q_ty q) ++ match q_ref q with RNone => "" | RL => "&" | RR => "&&" end)%string.
Local Close Scope string_scope.

Definition cls (k : nat) (z : N) : base := {| b_kind := KClass; b_id := k; b_size := z; b_traits := 0 |}.
Definition int_b : base := {| b_kind := KIntegral; b_id := 0; b_size := 4; b_traits := 0 |}.
Definition t_X := TBase false false (cls 1 24).
Definition t_Y := TBase false false (cls 2 8).
Definition t_i := TBase false false int_b.
(** Two lambdas of one function, of the same signature; the second has captured more. *)
Definition t_l1 := TBase false false (cls 20 8).
Definition t_l2 := TBase false false (cls 21 32).
Definition holds t x := {| c_form := Val; c_src := t; c_at := x; c_ptr := None; c_vals := []; c_bytes := [] |}.
Definition plain_env : env :=
  {| e_graph := []; e_registered := fun _ => false; e_declares := fun _ => false; e_dyn := fun k x => (k, x);
     e_copies := fun _ => true; e_conv := fun _ _ => None; e_cmp := fun _ => None; e_hash := fun _ => 0 |}.

Definition earlier : list nop :=
  [NType (mkQ RL (TPtr true false t_X)); NIs plain_env (holds t_Y 40) ALrefConst (mkQ RNone t_i);
   NAccess plain_env (holds t_X 64) RefC t_X].

(** ** Types that print differently are told apart *)

(** The identifier of a type leads, then and ever after, to the entry made for that type, with its size, flags and
    functions, if no other type used before prints like it. *)
Theorem C63_described_partial : forall nm h q,
  ~ void_type q -> alone nm (h ++ [NType q]) q ->
  let '(w, t) := ident nm (nrun nm world0 h) q in
  owner w t = Some q /\ described w t = Some (info_of q) /\
  forall h', owner (nrun nm w h') t = Some q /\ by_name (nrun nm w h') (nm q) = t.
Proof.
  intros nm h q Vq A. apply not_void in Vq. set (U := in_program (h ++ [NType q])).
  pose proof (run_inv nm h (h ++ [NType q]) (fun x H => in_or_app _ _ _ (or_introl H))) as I. fold U in I.
  assert (Hin : In (NType q) (h ++ [NType q])) by (apply in_or_app; right; left; reflexivity).
  pose proof (in_program_closed (h ++ [NType q]) (NType q) Hin) as C. fold U in C.
  inversion C as [|x l [Uq Ud] _]; subst.
  pose proof (ident_ok nm U (nrun nm world0 h) q I Uq Ud) as H.
  destruct (ident nm (nrun nm world0 h) q) as [w t]. destruct H as (I1 & G1 & N1). specialize (N1 Vq).
  pose proof (at_own nm U w q t I1 A N1) as O. split; [exact O|]. split; [unfold described; rewrite O; reflexivity|].
  intro h'. pose proof (nrun_grows nm h' w) as G. split; [exact (owner_grows _ _ _ _ G O)|].
  unfold by_name. destruct A as [Ne _]. destruct (String.eqb_spec (nm q) ""%string) as [e|_]; [contradiction|].
  destruct t as [i|]; cbn in N1; [|contradiction]. destruct N1 as (x & E & En).
  destruct G as [l G]. rewrite G. clear -E En I1.
  assert (P : position (nm q) (w_items w) = Some i).
  { destruct (position_in (nm q) (w_items w) i x E En) as [j Ej]. rewrite Ej. f_equal.
    destruct (position_some _ _ _ Ej) as (y & Ey & Eyn). apply (i_once nm U w I1 _ _ _ _ Ey E). congruence. }
  clear -P. revert i P. induction (w_items w) as [|x l' IH]; intros i P; cbn in *; [discriminate|].
  destruct (en_name x =? nm q)%string; [exact P|]. destruct (position (nm q) l') as [j|]; [|discriminate].
  rewrite (IH j eq_refl). exact P.
Qed.
Print Assumptions C63_described_partial.

(** What is, the accessors and to answer is what they would answer if they compared the types themselves, if the types of
    the content and the one asked for print like no other type of the program. AccProps.v says what that is. *)
Theorem C63_is_partial : forall nm h e c a T,
  distinct nm (h ++ [NIs e c a T]) (type_id c a) -> distinct nm (h ++ [NIs e c a T]) T ->
  snd (n_is nm e (nrun nm world0 h) c a T) = metafunc_is e c (type_id c a) T.
Proof.
  intros nm h e c a T D1 D2. pose proof (two_types nm h (type_id c a) T (NIs e c a T) eq_refl D1 D2) as H. cbn zeta in H.
  unfold n_is, metafunc_is, when_compatible, compat.
  destruct (ident nm (nrun nm world0 h) (type_id c a)) as [w1 t]. destruct (ident nm w1 T) as [w2 u].
  destruct H as (O1 & O2 & S). cbn [snd]. unfold described. rewrite O1, O2, S. cbn [option_map].
  destruct (compatible _ _); reflexivity.
Qed.
Print Assumptions C63_is_partial.

Theorem C63_access_partial : forall nm h e c a T,
  distinct nm (h ++ [NAccess e c a T]) (type_id c (from_attr a)) -> distinct nm (h ++ [NAccess e c a T]) (seen a T) ->
  snd (n_access nm e (nrun nm world0 h) c a T) = metafunc_cast e c (type_id c (from_attr a)) (seen a T).
Proof.
  intros nm h e c a T D1 D2. pose proof (two_types nm h (type_id c (from_attr a)) (seen a T) (NAccess e c a T) eq_refl D1 D2) as H.
  cbn zeta in H. unfold n_access, metafunc_cast, when_compatible, compat.
  destruct (ident nm (nrun nm world0 h) (type_id c (from_attr a))) as [w1 t]. destruct (ident nm w1 (seen a T)) as [w2 u].
  destruct H as (O1 & O2 & S). cbn [snd]. unfold described. rewrite O1, O2, S. cbn [option_map].
  destruct (compatible _ _); reflexivity.
Qed.
Print Assumptions C63_access_partial.

Theorem C63_to_partial : forall nm h e c a T,
  distinct nm (h ++ [NTo e c a T]) (type_id c a) -> distinct nm (h ++ [NTo e c a T]) (mkQ RNone T) ->
  snd (n_to nm e (nrun nm world0 h) c a T) = metafunc_to e c (type_id c a) T.
Proof.
  intros nm h e c a T D1 D2. pose proof (two_types nm h (type_id c a) (mkQ RNone T) (NTo e c a T) eq_refl D1 D2) as H.
  cbn zeta in H. unfold n_to, metafunc_to, when_compatible, compat.
  destruct (ident nm (nrun nm world0 h) (type_id c a)) as [w1 t]. destruct (ident nm w1 (mkQ RNone T)) as [w2 u].
  destruct H as (O1 & O2 & S). cbn [snd]. unfold described, copied_as. rewrite O1, O2, S. cbn [option_map q_ty].
  destruct (compatible _ _); reflexivity.
Qed.
Print Assumptions C63_to_partial.

(** Direct access to the content as [T] is to a [T], but for qualifiers. *)
Theorem C63_no_confusion_partial : forall nm h e c a T,
  distinct nm (h ++ [NAccess e c a T]) (type_id c (from_attr a)) -> distinct nm (h ++ [NAccess e c a T]) (seen a T) ->
  snd (n_access nm e (nrun nm world0 h) c a T) = Got Whole ->
  full_decay (mkQ RNone (stored c)) = full_decay (mkQ RNone T).
Proof.
  intros nm h e c a T D1 D2. rewrite C63_access_partial by assumption. unfold metafunc_cast, when_compatible.
  assert (Fc : forall t, full_decay (mkQ RL (add_const t)) = full_decay (mkQ RNone t)).
  { intro t. unfold full_decay. cbn [q_ty]. f_equal. destruct t as [x v b|x v u|u n]; cbn; try reflexivity.
    - destruct (b_kind b); reflexivity.
    - f_equal. induction u as [x v b|x v u IH|u IH m]; cbn; try reflexivity. rewrite IH. reflexivity. }
  assert (Fl : forall r t, full_decay (mkQ r t) = full_decay (mkQ RNone t)) by reflexivity.
  destruct (compat _ _); try discriminate. unfold same_decay.
  destruct (qty_eq_dec (full_decay (type_id c (from_attr a))) (full_decay (seen a T))) as [E|N].
  - intros _. destruct a; cbn [type_id from_attr seen] in E; rewrite ?Fc in E; exact E.
  - assert (X : forall r, bind r (fun r => match r with Some x => Got (Base x) | None => Throw end) <> Got Whole)
      by (intros [[x|]| | | |]; discriminate).
    assert (Y : forall r, bind r (fun r : option nat =>
        match r with Some x => if match storage_ptr c with Some p => x =? p | None => false end then Got Slot else Throw
        | None => Throw end) <> Got Whole)
      by (intros [[x|]| | | |]; cbn; try discriminate; destruct (match storage_ptr c with Some p => x =? p | None => false end); discriminate).
    destruct (tag_of _); [discriminate| |].
    + destruct (isClass _); [|discriminate]. intro F. exfalso. exact (X _ F).
    + destruct (isClassPtr _); [|discriminate]. intro F. exfalso. exact (Y _ F).
Qed.
Print Assumptions C63_no_confusion_partial.

(** Whatever the names: two types have one identifier exactly if they print alike. *)
Theorem C63_identifier_is_name : forall nm h p q,
  ~ void_type p -> ~ void_type q -> nm p <> ""%string ->
  let '(w1, t) := ident nm (nrun nm world0 h) p in
  let '(w2, u) := ident nm w1 q in
  t = u <-> nm p = nm q.
Proof.
  intros nm h p q Vp Vq N. apply not_void in Vp, Vq.
  assert (I : inv nm (fun _ => True) (nrun nm world0 h)).
  { apply nrun_ok; [apply inv0|]. intros o _. apply Forall_forall. auto. }
  pose proof (ident_ok nm _ _ p I Logic.I Logic.I) as H1.
  destruct (ident nm (nrun nm world0 h) p) as [w1 t]. destruct H1 as (I1 & G1 & N1).
  pose proof (ident_ok nm _ w1 q I1 Logic.I Logic.I) as H2.
  destruct (ident nm w1 q) as [w2 u]. destruct H2 as (I2 & G2 & N2).
  specialize (N1 Vp). specialize (N2 Vq). apply (at_name_grows nm _ _ _ _ G2) in N1.
  destruct t as [i|]; cbn in N1; [|contradiction]. destruct N1 as (x & Ex & Nx). split.
  - intros <-. cbn in N2. destruct N2 as (y & Ey & Ny). congruence.
  - intro E. destruct u as [j|]; cbn in N2; [|congruence]. destruct N2 as (y & Ey & Ny).
    f_equal. apply (i_once nm _ _ I2 _ _ _ _ Ex Ey). congruence.
Qed.
Print Assumptions C63_identifier_is_name.

(** The identifiers are the same as those of RegistryModel.v, in which C04 and C05 are proved, whatever the names. *)
Theorem C63_same_identifiers : forall nm l q,
  exists s, mrun nm m0 l = Some s /\
  option_map snd (meta_id nm s q) = Some (snd (ident nm (nrun nm world0 (map NType l)) q)).
Proof.
  intros nm l q. exists (state_of (nrun nm world0 (map NType l))). split; [exact (mrun_nrun nm l world0)|].
  rewrite ident_meta. reflexivity.
Qed.
Print Assumptions C63_same_identifiers.

Lemma in_program_list h q : in_program h q -> In q (flat_map (fun o => flat_map (fun p => [p; full_decay p]) (about o)) h).
Proof.
  intros (o & p & Ho & Hp & Hq). apply in_flat_map. exists o. split; [exact Ho|]. apply in_flat_map. exists p.
  split; [exact Hp|]. cbn. destruct Hq as [->| ->]; auto.
Qed.

Ltac is_distinct :=
  do 2 (split; [intros (? & X & Y); vm_compute in X; first [discriminate X|injection X as <-; discriminate Y]|]);
  split; (split; [vm_compute; discriminate|]; let p := fresh in let Hp := fresh in
    intros p Hp; apply in_program_list in Hp; vm_compute in Hp;
    repeat (destruct Hp as [<-|Hp]; [vm_compute; let F := fresh in intro F; first [reflexivity|discriminate F]|]);
    contradiction).

Example C63_example :
  distinct printed (earlier ++ [NAccess plain_env (holds t_X 64) RefL t_X]) (type_id (holds t_X 64) ALref) /\
  distinct printed (earlier ++ [NAccess plain_env (holds t_X 64) RefL t_X]) (seen RefL t_X) /\
  snd (n_access printed plain_env (nrun printed world0 earlier) (holds t_X 64) RefL t_X) = Got Whole /\
  distinct printed (earlier ++ [NAccess plain_env (holds t_X 64) RefL t_Y]) (type_id (holds t_X 64) ALref) /\
  distinct printed (earlier ++ [NAccess plain_env (holds t_X 64) RefL t_Y]) (seen RefL t_Y) /\
  snd (n_access printed plain_env (nrun printed world0 earlier) (holds t_X 64) RefL t_Y) = Throw /\
  distinct printed (earlier ++ [NTo plain_env (holds t_X 64) ALrefConst t_X]) (type_id (holds t_X 64) ALrefConst) /\
  distinct printed (earlier ++ [NTo plain_env (holds t_X 64) ALrefConst t_X]) (mkQ RNone t_X) /\
  snd (n_to printed plain_env (nrun printed world0 earlier) (holds t_X 64) ALrefConst t_X) = Got Same.
Proof.
  split; [is_distinct|]. split; [is_distinct|]. split; [vm_compute; reflexivity|].
  split; [is_distinct|]. split; [is_distinct|]. split; [vm_compute; reflexivity|].
  split; [is_distinct|]. split; [is_distinct|]. vm_compute; reflexivity.
Qed.

Example C63_described_case :
  ~ void_type (mkQ RNone t_X) /\ alone printed (earlier ++ [NType (mkQ RNone t_X)]) (mkQ RNone t_X) /\
  snd (ident printed (nrun printed world0 earlier) (mkQ RNone t_X)) = Some 5 /\
  snd (ident printed (nrun printed world0 earlier) (mkQ RNone t_l1)) =
  snd (ident printed (fst (ident printed (nrun printed world0 earlier) (mkQ RNone t_l1))) (mkQ RNone t_l2)).
Proof.
  assert (D : distinct printed (earlier ++ [NType (mkQ RNone t_X)]) (mkQ RNone t_X)) by is_distinct.
  destruct D as (D1 & _ & D2 & _). split; [exact D1|]. split; [exact D2|]. split; vm_compute; reflexivity.
Qed.

(** ** Types that print alike are taken for each other *)

(** A variant that holds one lambda says it holds the other, gives access to it as the other, and copies it into a place
    for the other. *)
Theorem C63_no_confusion_refuted : exists nm c T e,
  full_decay (mkQ RNone (stored c)) <> full_decay (mkQ RNone T) /\
  snd (n_is nm e world0 c ALref (mkQ RNone T)) = Got true /\
  snd (n_access nm e world0 c RefL T) = Got Whole /\
  snd (n_to nm e world0 c ALrefConst T) = Got Same /\
  (size_of (stored c) < size_of T)%N.
Proof.
  exists printed, (holds t_l1 40), t_l2, plain_env. split; [vm_compute; discriminate|].
  split; [vm_compute; reflexivity|]. split; [vm_compute; reflexivity|]. split; vm_compute; reflexivity.
Qed.
Print Assumptions C63_no_confusion_refuted.

(** The identifier of a type may describe another, smaller one: MetaType::allocate() with it gives too little room. *)
Theorem C63_described_refuted : exists nm h q w t p,
  ident nm (nrun nm world0 h) q = (w, t) /\ owner w t = Some p /\ (size_of (q_ty p) < size_of (q_ty q))%N.
Proof.
  exists printed, [NType (mkQ RNone t_l1)], (mkQ RNone t_l2). eexists _, _, _.
  split; [vm_compute; reflexivity|]. split; [vm_compute; reflexivity|]. vm_compute; reflexivity.
Qed.
Print Assumptions C63_described_refuted.

(** Which of the two is described depends on which was used first. *)
Theorem C63_order_refuted : exists nm q p,
  let w1 := nrun nm world0 [NType q; NType p] in
  let w2 := nrun nm world0 [NType p; NType q] in
  described w1 (snd (ident nm w1 q)) <> described w2 (snd (ident nm w2 q)).
Proof.
  exists printed, (mkQ RNone t_l1), (mkQ RNone t_l2). vm_compute. discriminate.
Qed.
Print Assumptions C63_order_refuted.
