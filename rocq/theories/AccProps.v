(** C23 to C26: accessors, conversion, comparison and hash of variants. *)
From Coq Require Import NArith List Bool Arith Lia.
From Verif Require Import TypesModel TypesSpec TypesProofs InheritModel InheritSpec InheritProofs AccModel AccSpec AccProofs.
Import ListNotations.

(** ** A world for the examples: class 1 derives from 0 at offset 0, class 2 from 0 at offset 16; 2 has classInfo(), and
    its object at 500 is part of nothing else. Class 3 is apart. From int to float there is a converter, to enum 6 one
    that refuses. *)
Definition b_int := {| b_kind := KIntegral; b_id := 4; b_size := 4; b_traits := 0 |}.
Definition b_float := {| b_kind := KFloat; b_id := 5; b_size := 4; b_traits := 0 |}.
Definition b_enum := {| b_kind := KEnum; b_id := 6; b_size := 4; b_traits := 0 |}.
Definition b_class k := {| b_kind := KClass; b_id := k; b_size := 32; b_traits := 0 |}.
Definition t_int := TBase false false b_int.
Definition t_cint := TBase true false b_int.
Definition t_class k := TBase false false (b_class k).
Definition t_cclass k := TBase true false (b_class k).
Definition world : env :=
  {| e_graph := [[]; [(0, fun x => x)]; [(0, fun x => x + 16)]; []];
     e_registered := fun k => k <? 4; e_declares := fun k => k =? 2; e_dyn := fun k x => (k, x);
     e_copies := fun t => match t with TBase _ _ b => negb (b_id b =? 3) | _ => true end;
     e_conv := fun f t => if qty_eq_dec f (mkQ RNone t_int)
                          then if qty_eq_dec t (mkQ RNone (TBase false false b_float)) then Some (fun c => Good (hd 0 (c_vals c)))
                               else if qty_eq_dec t (mkQ RNone (TBase false false b_enum)) then Some (fun _ => Refused) else None
                          else None;
     e_cmp := fun t => match t with TBase _ _ b => if b_id b =? 5 then Some (fun x y => (x mod 100) =? (y mod 100)) else Some Nat.eqb
                                  | _ => Some Nat.eqb end;
     e_hash := fun l => fold_left (fun h b => h * 3 + b + 1) l 0 |}.

Lemma world_ok : wf_env world.
Proof.
  assert (D : forall a d, direct (e_graph world) a d -> (a = 1 \/ a = 2) /\ d = 0).
  { intros a d (l & f & H & I). destruct a as [|[|[|[|a]]]]; cbn in H; try (destruct a; discriminate); injection H as <-; cbn in I.
    - destruct I.
    - destruct I as [I|[]]. injection I as <- _. auto.
    - destruct I as [I|[]]. injection I as <- _. auto.
    - destruct I. }
  split; [|split].
  - intros a d H. destruct (D a d H) as [_ ->]. cbn. lia.
  - intros a d H R. destruct (D a d H) as [Ha ->]. inversion R as [E|y z E _ E2]; subst.
    + destruct Ha; discriminate.
    + destruct (D _ _ E) as [[|] _]; discriminate.
  - intros k H. change ((k <? 4) = true) in H. apply Nat.ltb_lt in H. exact H.
Qed.

Definition value t at_ vals := {| c_form := Val; c_src := t; c_at := at_; c_ptr := None; c_vals := vals; c_bytes := vals |}.
Definition wrapper t at_ vals := {| c_form := Refw; c_src := t; c_at := at_; c_ptr := None; c_vals := vals; c_bytes := vals |}.
Definition pointer t at_ p := {| c_form := Val; c_src := TPtr false false t; c_at := at_; c_ptr := p; c_vals := [match p with Some x => x | None => 0 end];
                                 c_bytes := [match p with Some x => x | None => 0 end] |}.

Ltac usable_tac := split; [split; [reflexivity|split; [reflexivity|cbn; lia]]|cbn; try exact I; try discriminate].

(** ** C23 *)

(** Nothing const becomes writable: for every world, content, accessor and requested type, whatever level of the content
    is const, or is the content of a const variant, is const in what the accessor returns. *)
Theorem C23_const_is_kept : forall e a c T p,
  wf_env e -> usable (c_src c) -> usable T -> access e a (Some c) T = Got (Some p) ->
  forall j, protected (on_const a) (held c) j = true -> const_at (q_ty (returned a T)) j = true.
Proof.
  intros e a c T p Hw Hu HT H j Hj. apply (access_cast e a c T p Hu) in H.
  apply (proj2 (cast_allowed e a c T p Hw Hu HT H)). rewrite <- protected_expression. exact Hj.
Qed.
Print Assumptions C23_const_is_kept.

(** An accessor only leads to what the requested type may be bound to, to the elements of an array, to the pointer an
    array decays to (a const one), or to the base the object really has. *)
Theorem C23_only_what_binds_partial : forall e a c T p,
  wf_env e -> usable (c_src c) -> usable T -> access e a (Some c) T = Got (Some p) -> allowed e a c T p.
Proof.
  intros e a c T p Hw Hu HT H. apply (access_cast e a c T p Hu) in H. apply (proj1 (cast_allowed e a c T p Hw Hu HT H)).
Qed.
Print Assumptions C23_only_what_binds_partial.

(** Without arrays and classes: exactly the rules of C++. *)
Theorem C23_succeeds_if_it_binds : forall e a c T,
  usable (c_src c) -> usable T -> is_array (held c) = false -> is_array T = false ->
  binds (expression a (held c)) (returned a T) -> access e a (Some c) T = Got (Some Whole).
Proof. exact access_binds. Qed.
Print Assumptions C23_succeeds_if_it_binds.

Theorem C23_upcast_succeeds : forall e a c T i k z,
  wf_env e -> usable (c_src c) -> usable T -> class_type (held c) i -> class_type T k -> i <> k -> base_at e c k z ->
  (a = RefL \/ a = DataL \/ a = RRef -> const_at (held c) 0 = true -> const_at T 0 = true) ->
  access e a (Some c) T = Got (Some (Base z)).
Proof. exact access_base. Qed.
Print Assumptions C23_upcast_succeeds.

(** An accessor answers or throws, and data() answers. *)
Theorem C23_total : forall e a c T,
  wf_env e -> usable (c_src c) -> usable T -> not_null c ->
  (exists p, access e a (Some c) T = Got p) \/ access e a (Some c) T = Throw /\ a <> DataL /\ a <> DataC.
Proof.
  intros e a c T Hw Hu HT Hn. destruct (access_total e a c T Hw Hu HT Hn) as [H|H]; [auto|]. right. split; [exact H|].
  unfold access in H. split; intros ->; destruct (metafunc_cast _ _ _ _); discriminate.
Qed.
Print Assumptions C23_total.

(** A reference to a const object: only as const. A const variant: only as const. A class: its base. An array. *)
Example C23_case :
  access world RefL (Some (wrapper t_cint 900 [7])) t_int = Throw /\
  access world RefL (Some (wrapper t_cint 900 [7])) t_cint = Got (Some Whole) /\
  access world DataL (Some (wrapper t_cint 900 [7])) t_int = Got None /\
  access world RefL (Some (value t_cint 900 [7])) t_int = Got (Some Whole) /\
  access world RefC (Some (value t_int 900 [7])) t_int = Got (Some Whole) /\ q_ty (returned RefC t_int) = t_cint /\
  access world RRef (Some (wrapper t_cint 900 [7])) t_int = Throw /\
  access world RRef (Some (value t_int 900 [7])) t_int = Got (Some Whole) /\
  access world RefL (Some (value (t_class 2) 500 [7])) (t_class 0) = Got (Some (Base 516)) /\
  access world RefL (Some (wrapper (t_cclass 2) 500 [7])) (t_class 0) = Throw /\
  access world RefL (Some (value (t_class 3) 500 [7])) (t_class 0) = Throw /\
  access world RefL (Some (value (TArr t_int 3) 500 [7; 8; 9])) (TArr t_int 2) = Got (Some Elements) /\
  access world RefL (Some (value (TArr t_int 3) 500 [7; 8; 9])) (TArr t_int 4) = Throw /\
  access world RefL (Some (value (TArr t_int 3) 500 [7; 8; 9])) (TPtr true false t_int) = Got (Some Hidden) /\
  access world RefL (Some (value (TArr t_int 3) 500 [7; 8; 9])) (TPtr false false t_int) = Throw /\
  access world RefL None t_int = Throw.
Proof. repeat split. Qed.

Example C23_hypotheses : usable t_cint /\ usable (t_class 2) /\ usable (TArr t_int 3) /\ usable (TPtr true false t_int) /\
  protected false (held (wrapper t_cint 900 [7])) 0 = true /\ protected true (held (value t_int 900 [7])) 0 = true /\
  binds (expression RefL (held (wrapper t_cint 900 [7]))) (returned RefL t_cint) /\
  base_at world (value (t_class 2) 500 [7]) 0 516.
Proof.
  repeat match goal with |- _ /\ _ => split end; try (usable_tac; fail); try reflexivity.
  - split; [constructor|]. split; [left; reflexivity|]. intros j _. split; [auto|]. split; [auto|]. intros [H|H]; destruct (H eq_refl).
  - apply (cast_imp_spec world (value (t_class 2) 500 [7]) 0 world_ok eq_refl). reflexivity.
Qed.

(** A pointer to a derived class is handed out as a writable pointer to the base if both have one address (variant.h:481),
    although `Derived*` does not bind to `Base*&`: storing any Base through it breaks the variant's own type. *)
Theorem C23_pointer_slot_refuted : exists e c T k d,
  wf_env e /\ usable (c_src c) /\ usable T /\ held c = TPtr false false (t_class d) /\ T = TPtr false false (t_class k) /\ d <> k /\
  access e RefL (Some c) T = Got (Some Slot) /\ ~ binds (expression RefL (held c)) (returned RefL T) /\
  q_ty (returned RefL T) = T.
Proof.
  exists world, (pointer (t_class 1) 900 (Some 500)), (TPtr false false (t_class 0)), 0, 1.
  split; [exact world_ok|]. split; [usable_tac|]. split; [usable_tac|]. repeat (split; [reflexivity || discriminate|]).
  split; [|reflexivity]. intros [S _]. cbn in S. inversion S as [|c v c' v' t u S' E1 E2|]; subst. inversion S'.
Qed.
Print Assumptions C23_pointer_slot_refuted.

(** An array of pointers to const held by value is held as an array of pointers to non-const (variant_impl.h:324), and
    handed out as such. *)
Theorem C23_pointers_in_arrays_refuted : exists e c T,
  wf_env e /\ c_form c = Val /\ access e RefL (Some c) T = Got (Some Elements) /\
  exists j, const_at (c_src c) j = true /\ const_at (held c) j = true /\ const_at (q_ty (returned RefL T)) j = false.
Proof.
  exists world, (value (TArr (TPtr false false t_cint) 2) 900 [1; 2]), (TArr (TPtr false false t_int) 2).
  split; [exact world_ok|]. split; [reflexivity|]. split; [reflexivity|]. exists 2. auto.
Qed.
Print Assumptions C23_pointers_in_arrays_refuted.

(** volatile is ignored. *)
Theorem C23_volatile_refuted : exists e c T,
  wf_env e /\ access e RefL (Some c) T = Got (Some Whole) /\ ~ binds (expression RefL (held c)) (returned RefL T).
Proof.
  exists world, (wrapper (TBase false true b_int) 900 [1]), t_int. split; [exact world_ok|]. split; [reflexivity|].
  intros (_ & _ & Q). destruct (Q 0 (le_n 0)) as (_ & V & _). specialize (V eq_refl). discriminate.
Qed.
Print Assumptions C23_volatile_refuted.

(** ** C24 *)

(** If is<T>() then to<T>() returns the value: for types that can be copied and pointers that are not null. *)
Theorem C24_is_then_to_partial : forall e cv c T,
  wf_env e -> usable (c_src c) -> usable T -> is_array T = false -> not_null c ->
  v_is e cv (Some c) (mkQ RNone T) = Got true -> e_copies e T = true ->
  exists g, v_to e cv (Some c) T = Got g /\ denotes e c T g.
Proof. exact is_to. Qed.
Print Assumptions C24_is_then_to_partial.

(** If canConvert<T>() then to<T>() does not throw, provided moreover that the converter, if there is one, succeeds. *)
Theorem C24_canConvert_then_to_partial : forall e cv c T,
  wf_env e -> usable (c_src c) -> usable T -> is_array T = false -> not_null c -> e_copies e T = true ->
  (forall f, e_conv e (full_decay (mkQ RNone (held c))) (full_decay (mkQ RNone T)) = Some f -> exists w, f c = Good w) ->
  v_canConvert e cv (Some c) T = Got true -> exists g, v_to e cv (Some c) T = Got g.
Proof. exact canConvert_to. Qed.
Print Assumptions C24_canConvert_then_to_partial.

(** Conversely, what to<T>() can do canConvert<T>() announces. *)
Theorem C24_to_then_canConvert : forall e cv c T g,
  wf_env e -> usable (c_src c) -> usable T -> not_null c ->
  v_to e cv (Some c) T = Got g -> v_canConvert e cv (Some c) T = Got true.
Proof. exact to_canConvert. Qed.
Print Assumptions C24_to_then_canConvert.

(** Whatever to<T>() returns is the value, its base, or what the registered converter made. *)
Theorem C24_to_is_right : forall e cv c T g,
  wf_env e -> usable (c_src c) -> usable T -> is_array T = false -> not_null c -> v_to e cv (Some c) T = Got g ->
  denotes e c T g \/
  exists f w, e_conv e (full_decay (mkQ RNone (held c))) (full_decay (mkQ RNone T)) = Some f /\ f c = Good w /\ g = Converted w.
Proof. exact to_denotes. Qed.
Print Assumptions C24_to_is_right.

Example C24_case :
  v_is world false (Some (value (t_class 2) 500 [7])) (mkQ RNone (t_class 0)) = Got true /\
  v_to world false (Some (value (t_class 2) 500 [7])) (t_class 0) = Got (Part 516) /\
  v_is world true (Some (pointer (t_class 2) 900 (Some 500))) (mkQ RNone (TPtr false false (t_class 0))) = Got true /\
  v_to world true (Some (pointer (t_class 2) 900 (Some 500))) (TPtr false false (t_class 0)) = Got (Pointer 516) /\
  v_is world false (Some (pointer (t_cclass 2) 900 (Some 500))) (mkQ RNone (TPtr false false (t_class 0))) = Got false /\
  v_is world false (Some (value t_int 500 [7])) (mkQ RNone t_int) = Got true /\
  v_to world false (Some (value t_int 500 [7])) t_int = Got Same /\
  v_is world false (Some (value t_int 500 [7])) (mkQ RNone (TBase false false b_float)) = Got false /\
  v_canConvert world false (Some (value t_int 500 [7])) (TBase false false b_float) = Got true /\
  v_to world false (Some (value t_int 500 [7])) (TBase false false b_float) = Got (Converted 7) /\
  v_to world false (Some (value (TArr t_int 2) 500 [7; 8])) (TPtr false false t_cint) = Got First /\
  v_to world false (Some (value (t_class 3) 500 [7])) (t_class 0) = Throw /\
  v_to world false None t_int = Throw /\ v_is world false None (mkQ RNone t_int) = Got false.
Proof. repeat split. Qed.

(** A move-only type: is<T>() holds, to<T>() throws (metatype.h:252-263). *)
Theorem C24_move_only_refuted : exists e c T,
  wf_env e /\ usable (c_src c) /\ usable T /\ v_is e false (Some c) (mkQ RNone T) = Got true /\ v_to e false (Some c) T = Throw.
Proof.
  exists world, (value (t_class 3) 500 [7]), (t_class 3). split; [exact world_ok|]. repeat split; try reflexivity; cbn; lia.
Qed.
Print Assumptions C24_move_only_refuted.

(** A null pointer to a derived class: is<Base*>() holds, to<Base*>() throws instead of returning null. *)
Theorem C24_null_refuted : exists e c T,
  wf_env e /\ usable (c_src c) /\ usable T /\ e_copies e T = true /\
  v_is e false (Some c) (mkQ RNone T) = Got true /\ v_to e false (Some c) T = Throw.
Proof.
  exists world, (pointer (t_class 1) 900 None), (TPtr false false (t_class 0)). split; [exact world_ok|].
  repeat split; try reflexivity; cbn; lia.
Qed.
Print Assumptions C24_null_refuted.

(** And if the class has classInfo(), asking is<Base*>() dereferences the null pointer. *)
Theorem C24_null_with_classInfo_refuted : exists e c T,
  wf_env e /\ usable (c_src c) /\ usable T /\ e_copies e T = true /\
  v_is e false (Some c) (mkQ RNone T) = Undef /\ v_to e false (Some c) T = Undef.
Proof.
  exists world, (pointer (t_class 2) 900 None), (TPtr false false (t_class 0)). split; [exact world_ok|].
  repeat split; try reflexivity; cbn; lia.
Qed.
Print Assumptions C24_null_with_classInfo_refuted.

(** canConvert<T>() only looks whether there is a converter. *)
Theorem C24_converter_refuses_refuted : exists e c T,
  wf_env e /\ usable (c_src c) /\ usable T /\ e_copies e T = true /\
  v_canConvert e false (Some c) T = Got true /\ v_to e false (Some c) T = Throw.
Proof.
  exists world, (value t_int 500 [7]), (TBase false false b_enum). split; [exact world_ok|].
  repeat split; try reflexivity; cbn; lia.
Qed.
Print Assumptions C24_converter_refuses_refuted.

(** ** C25 *)

(** Both hold one type: the content's operator==, element by element for arrays. *)
Theorem C25_agrees_with_content : forall e a b cmp,
  comparable e a -> comparable e b -> consistent a b -> constify (held a) = constify (held b) ->
  e_cmp e (scalar (held a)) = Some cmp ->
  v_eq e (Some a) (Some b) = Got (pointwise cmp (c_vals a) (c_vals b)).
Proof. exact eq_same. Qed.
Print Assumptions C25_agrees_with_content.

(** Both hold one type that has no operator==: an exception, not an answer. *)
Theorem C25_no_operator : forall e a b,
  arrays_of_plain (c_src a) = true -> arrays_of_plain (c_src b) = true ->
  constify (held a) = constify (held b) -> e_cmp e (scalar (held a)) = None -> v_eq e (Some a) (Some b) = Throw.
Proof.
  intros e a b Pa Pb Ht Hc. unfold v_eq. rewrite (type_id_const a Pa), (type_id_const b Pb). unfold exp_const. rewrite Ht.
  unfold when_compatible. rewrite compat_refl, (proj2 (same_decay_iff _ _) eq_refl).
  unfold compare_eq. rewrite (stored_held a Pa), element_scalar, Hc. reflexivity.
Qed.
Print Assumptions C25_no_operator.

Example C25_no_operator_case : exists e a b, held a = held b /\ v_eq e (Some a) (Some b) = Throw.
Proof.
  exists (Env (e_graph world) (e_registered world) (e_declares world) (e_dyn world) (e_copies world) (e_conv world) (fun _ => None) (e_hash world)), (value t_int 900 [1]), (value t_int 800 [1]).
  split; [reflexivity|]. apply C25_no_operator; reflexivity.
Qed.

(** Types that have nothing to do with each other: not equal. *)
Theorem C25_other_types_differ : forall e a b,
  comparable e a -> comparable e b -> full_decay (mkQ RNone (held a)) <> full_decay (mkQ RNone (held b)) ->
  v_eq e (Some a) (Some b) = Got false.
Proof. exact eq_other. Qed.
Print Assumptions C25_other_types_differ.

Theorem C25_reflexive : forall e v, sane e v -> v_eq e v v = Got true.
Proof. exact eq_refl_all. Qed.
Print Assumptions C25_reflexive.

Theorem C25_symmetric_partial : forall e a b,
  sane e a -> sane e b -> lift unmixed a b -> lift consistent a b ->
  exists r, v_eq e a b = Got r /\ v_eq e b a = Got r.
Proof. exact eq_sym_all. Qed.
Print Assumptions C25_symmetric_partial.

Theorem C25_transitive_partial : forall e a b c, sane e a -> sane e b -> sane e c ->
  lift unmixed a b -> lift unmixed b c -> lift unmixed a c ->
  lift consistent a b -> lift consistent b c -> lift consistent a c ->
  v_eq e a b = Got true -> v_eq e b c = Got true -> v_eq e a c = Got true.
Proof. exact eq_trans_all. Qed.
Print Assumptions C25_transitive_partial.

Lemma nat_equivalence : equivalence Nat.eqb.
Proof.
  split; [exact Nat.eqb_refl|]. split; [exact Nat.eqb_sym|]. intros x y z. rewrite !Nat.eqb_eq. congruence.
Qed.

Example C25_case :
  let a := value t_int 900 [7] in let b := wrapper t_cint 800 [7] in let c := value t_int 700 [8] in
  comparable world a /\ comparable world b /\ unmixed a b /\ consistent a b /\
  v_eq world (Some a) (Some b) = Got true /\ v_eq world (Some b) (Some a) = Got true /\ v_eq world (Some a) (Some c) = Got false /\
  v_eq world (Some a) (Some (value (t_class 1) 600 [7])) = Got false /\ v_eq world None (Some a) = Got false /\
  v_eq world (Some (value (TArr t_int 2) 600 [7; 8])) (Some (value (TArr t_int 2) 500 [7; 9])) = Got false /\
  v_eq world (Some (value (TArr t_int 2) 600 [7; 8])) (Some (value (TArr t_int 2) 500 [7; 8])) = Got true.
Proof.
  cbn zeta. repeat match goal with |- _ /\ _ => split end; try reflexivity.
  1, 2: split; [reflexivity|]; split; [cbn; lia|]; split; [reflexivity|]; exists Nat.eqb; split; [reflexivity|exact nat_equivalence].
  - intros _. reflexivity.
  - intros E _. discriminate.
Qed.

(** Arrays of different length: [1, 2] == [1, 2, 3], but not the other way round. *)
Theorem C25_arrays_not_symmetric_refuted : exists e a b,
  comparable e a /\ comparable e b /\ consistent a b /\ v_eq e (Some a) (Some b) = Got true /\ v_eq e (Some b) (Some a) = Got false.
Proof.
  exists world, (value (TArr t_int 2) 900 [1; 2]), (value (TArr t_int 3) 800 [1; 2; 3]).
  repeat match goal with |- _ /\ _ => split end; try reflexivity.
  1, 2: split; [reflexivity|]; split; [cbn; lia|]; split; [reflexivity|]; exists Nat.eqb; split; [reflexivity|exact nat_equivalence].
  intros E _. discriminate.
Qed.
Print Assumptions C25_arrays_not_symmetric_refuted.

(** `int const*` on the left equals the same `int*`, but not the other way round. *)
Theorem C25_pointers_not_symmetric_refuted : exists e a b,
  comparable e a /\ comparable e b /\ consistent a b /\ v_eq e (Some a) (Some b) = Got true /\ v_eq e (Some b) (Some a) = Got false.
Proof.
  exists world, (pointer t_cint 900 (Some 500)), (pointer t_int 800 (Some 500)).
  repeat match goal with |- _ /\ _ => split end; try reflexivity.
  1, 2: split; [reflexivity|]; split; [cbn; lia|]; split; [reflexivity|]; exists Nat.eqb; split; [reflexivity|exact nat_equivalence].
  intros E _. discriminate.
Qed.
Print Assumptions C25_pointers_not_symmetric_refuted.

(** A pointer on the left and an array on the right, as in `variant{p} == "text"` with a `char const *p`: the characters
    are read as if they were a pointer. *)
Theorem C25_pointer_and_array_refuted : exists e a b,
  comparable e a /\ comparable e b /\ consistent a b /\ v_eq e (Some a) (Some b) = Undef /\ v_eq e (Some b) (Some a) = Got false.
Proof.
  exists world, (pointer t_cint 900 (Some 800)), (wrapper (TArr t_cint 3) 800 [1; 2; 3]).
  repeat match goal with |- _ /\ _ => split end; try reflexivity.
  1, 2: split; [reflexivity|]; split; [cbn; lia|]; split; [reflexivity|]; exists Nat.eqb; split; [reflexivity|exact nat_equivalence].
  intros E _. discriminate.
Qed.
Print Assumptions C25_pointer_and_array_refuted.

(** ** C26 *)

(** Equal variants have equal hashes, if equal values have equal bytes and types are not mixed as above. *)
Theorem C26_equal_hash_partial : forall e a b,
  sane e a -> sane e b -> lift unmixed a b -> lift consistent a b -> lift (canonical e) a b ->
  v_eq e a b = Got true -> v_hash e a = v_hash e b.
Proof. exact eq_hash. Qed.
Print Assumptions C26_equal_hash_partial.

Example C26_case :
  let a := value t_int 900 [7] in let b := wrapper t_cint 800 [7] in
  sane world (Some a) /\ sane world (Some b) /\ canonical world a b /\
  v_eq world (Some a) (Some b) = Got true /\ v_hash world (Some a) = 8 /\ v_hash world (Some b) = 8.
Proof.
  cbn zeta. repeat match goal with |- _ /\ _ => split end; try reflexivity.
  1, 2: split; [reflexivity|]; split; [cbn; lia|]; split; [reflexivity|]; exists Nat.eqb; split; [reflexivity|exact nat_equivalence].
  intros _ cmp _ _. reflexivity.
Qed.

(** Values equal with different bytes (0.0 and -0.0, two std::string with the same text): equal, different hashes. *)
Theorem C26_bytes_refuted : exists e a b,
  sane e (Some a) /\ sane e (Some b) /\ held a = held b /\ consistent a b /\
  v_eq e (Some a) (Some b) = Got true /\ v_hash e (Some a) <> v_hash e (Some b).
Proof.
  exists world, (value (TBase false false b_float) 900 [0]), (value (TBase false false b_float) 800 [100]).
  assert (Q : equivalence (fun x y => (x mod 100) =? (y mod 100))).
  { split; [intro; apply Nat.eqb_refl|]. split; [intros; apply Nat.eqb_sym|]. intros x y z. rewrite !Nat.eqb_eq. congruence. }
  repeat match goal with |- _ /\ _ => split end; try reflexivity.
  1, 2: split; [reflexivity|]; split; [cbn; lia|]; split; [reflexivity|]; eexists; split; [reflexivity|exact Q].
  - intros E _. discriminate.
  - vm_compute. discriminate.
Qed.
Print Assumptions C26_bytes_refuted.

(** An array and a longer one that starts with it: equal, different hashes, though equal elements have equal bytes. *)
Theorem C26_arrays_refuted : exists e a b,
  sane e (Some a) /\ sane e (Some b) /\ consistent a b /\ c_bytes a = c_vals a /\ c_bytes b = c_vals b /\
  v_eq e (Some a) (Some b) = Got true /\ v_hash e (Some a) <> v_hash e (Some b).
Proof.
  exists world, (value (TArr t_int 2) 900 [1; 2]), (value (TArr t_int 3) 800 [1; 2; 3]).
  repeat match goal with |- _ /\ _ => split end; try reflexivity.
  1, 2: split; [reflexivity|]; split; [cbn; lia|]; split; [reflexivity|]; exists Nat.eqb; split; [reflexivity|exact nat_equivalence].
  - intros E _. discriminate.
  - vm_compute. discriminate.
Qed.
Print Assumptions C26_arrays_refuted.
