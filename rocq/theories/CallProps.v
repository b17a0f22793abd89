(** C27 to C30: arguments, calls, constness of instances, properties. *)
From Coq Require Import NArith List Bool Arith Lia.
From Verif Require Import TypesModel TypesSpec TypesProofs InheritModel InheritSpec InheritProofs AccModel AccSpec AccProofs AccProps.
From Verif Require Import CallModel CallSpec CallProofs.
Import ListNotations.

(** ** C27 *)

(** A parameter T& (not a pointer to a class, see C27_pointer_slot_refuted) is bound only to an lvalue that may be
    written, and to the object itself or its base T. *)
Theorem C27_lvalue_reference_only_partial : forall e rv p T b,
  wf_env e -> good_passed p -> usable T -> parameter_type T -> is_const T = false -> (forall k, ~ pointer_type T k) ->
  arg_value e (make_argument rv p) (mkQ RL T) = Got b ->
  rv = false /\ exists c pl, stands_for p false c /\ b = Direct pl /\ same_or_derived e c T pl /\
    const_at (held c) 0 = false /\ forall j, const_at (held c) j = true -> const_at T j = true.
Proof.
  intros e rv p T b Hw Hg HT Hp Hc Hk H. destruct (lvalue_only e rv p T b Hw Hg HT Hp Hc H) as (E & c & pl & S & Eb & Q & [D|(i & k & z & _ & P & _)]).
  - split; [exact E|]. exists c, pl. repeat split; auto. rewrite is_const_at0 in Hc. specialize (Q 0). destruct (const_at (held c) 0); [|reflexivity].
    rewrite Hc in Q. discriminate (Q eq_refl).
  - destruct (Hk k P).
Qed.
Print Assumptions C27_lvalue_reference_only_partial.

(** And it is bound whenever C++ would bind it. *)
Theorem C27_lvalue_reference_same : forall e p c T,
  stands_for p false c -> usable (c_src c) -> usable T -> parameter_type T -> is_const T = false ->
  binds (mkQ RL (held c)) (mkQ RL T) -> arg_value e (make_argument false p) (mkQ RL T) = Got (Direct Whole).
Proof. exact lvalue_same. Qed.
Print Assumptions C27_lvalue_reference_same.

Theorem C27_lvalue_reference_derived : forall e p c T i k z,
  wf_env e -> stands_for p false c -> usable (c_src c) -> usable T -> is_const T = false ->
  class_type (held c) i -> class_type T k -> i <> k -> base_at e c k z -> const_at (held c) 0 = false ->
  arg_value e (make_argument false p) (mkQ RL T) = Got (Direct (Base z)).
Proof. exact lvalue_derived. Qed.
Print Assumptions C27_lvalue_reference_derived.

(** A parameter T&& is bound only to an argument passed as an rvalue: what is passed as an lvalue is not moved from,
    whatever the parameter. *)
Theorem C27_rvalue_reference_only : forall e rv p q b,
  arg_value e (make_argument rv p) q = Got b -> q_ref q = RR -> rv = true.
Proof. intros e rv p [r T] b H E. cbn in E. subst r. exact (proj1 (rvalue_only e rv p T b H)). Qed.
Print Assumptions C27_rvalue_reference_only.

(** What a T&& is bound to: the object, not a const one, or its base, or a copy or conversion of it. *)
Theorem C27_rvalue_reference_what : forall e p T b,
  wf_env e -> good_passed p -> usable T -> parameter_type T -> (forall k, ~ pointer_type T k) ->
  arg_value e (make_argument true p) (mkQ RR T) = Got b ->
  exists c, stands_for p false c /\
    ((exists pl, b = Direct pl /\ const_at (held c) 0 = false /\ same_or_derived e c (copy_type T) pl) \/
     (exists g, b = Temp g /\ temporary e c (copy_type T) g)).
Proof.
  intros e p T b Hw Hg HT Hp Hk H. destruct (rvalue_what e p T b Hw Hg HT Hp H) as (c & S & [(pl & E & Hc & [D|(i & k & z & _ & P & _)])|R]); eauto 10.
  destruct (Hk k (proj1 (pointer_copy T k) P)).
Qed.
Print Assumptions C27_rvalue_reference_what.

(** A parameter by value or const& accepts every argument that can be converted, const or not, in a variant or not; a
    T&& every one passed as an rvalue and not in a const variant. *)
Theorem C27_convertible_accepted : forall e rv p k c q,
  wf_env e -> stands_for p k c -> usable (c_src c) -> not_null c -> usable (q_ty q) -> parameter_type (q_ty q) ->
  q_ref q = RNone \/ (q_ref q = RL /\ is_const (q_ty q) = true) \/ (q_ref q = RR /\ rv = true /\ k = false) ->
  e_copies e (copy_type (q_ty q)) = true ->
  (forall f, e_conv e (full_decay (mkQ RNone (held c))) (full_decay (mkQ RNone (copy_type (q_ty q)))) = Some f -> exists w, f c = Good w) ->
  v_canConvert e (match q_ref q with RR => false | _ => true end) (Some c) (copy_type (q_ty q)) = Got true ->
  exists b, arg_value e (make_argument rv p) q = Got b.
Proof. exact convertible_accepted. Qed.
Print Assumptions C27_convertible_accepted.

(** A parameter by value is a copy, a copy of the base, or a conversion. *)
Theorem C27_by_value_what : forall e rv p T b,
  wf_env e -> good_passed p -> usable T -> parameter_type T -> arg_value e (make_argument rv p) (mkQ RNone T) = Got b ->
  exists k c g, stands_for p k c /\ b = Temp g /\ temporary e c (copy_type T) g.
Proof. exact copy_what. Qed.
Print Assumptions C27_by_value_what.

Theorem C27_const_reference_what : forall e rv p T b,
  wf_env e -> good_passed p -> usable T -> parameter_type T -> is_const T = true ->
  arg_value e (make_argument rv p) (mkQ RL T) = Got b ->
  exists k c, stands_for p k c /\
    ((exists pl, b = Direct pl /\ allowed e DataC c (copy_type T) pl) \/ (exists g, b = Temp g /\ temporary e c (copy_type T) g)).
Proof. exact cref_what. Qed.
Print Assumptions C27_const_reference_what.

(** No argument, and an empty variant as argument, are rejected for every parameter. *)
Theorem C27_empty_rejected : forall e q,
  arg_value e no_argument q = Throw /\ forall rv k, arg_value e (make_argument rv (Variant k None)) q = Throw.
Proof. intros e q. split; [apply empty_rejected|intros rv k; apply empty_variant_rejected]. Qed.
Print Assumptions C27_empty_rejected.

Theorem C27_total : forall e rv p q,
  wf_env e -> good_passed p -> usable (q_ty q) -> parameter_type (q_ty q) ->
  (exists b, arg_value e (make_argument rv p) q = Got b) \/ arg_value e (make_argument rv p) q = Throw.
Proof. exact argument_total. Qed.
Print Assumptions C27_total.

Definition lref t := mkQ RL t.
Definition rref t := mkQ RR t.
Definition byval t := mkQ RNone t.

Example C27_case :
  (* an int, a const int, as lvalue and rvalue *)
  arg_value world (make_argument false (Object (value t_int 900 [7]))) (lref t_int) = Got (Direct Whole) /\
  arg_value world (make_argument true (Object (value t_int 900 [7]))) (lref t_int) = Throw /\
  arg_value world (make_argument false (Object (value t_cint 900 [7]))) (lref t_int) = Throw /\
  arg_value world (make_argument false (Object (value t_int 900 [7]))) (rref t_int) = Throw /\
  arg_value world (make_argument true (Object (value t_int 900 [7]))) (rref t_int) = Got (Direct Whole) /\
  arg_value world (make_argument true (Object (value t_cint 900 [7]))) (rref t_int) = Got (Temp Same) /\
  arg_value world (make_argument false (Object (value t_cint 900 [7]))) (lref t_cint) = Got (Direct Whole) /\
  arg_value world (make_argument true (Object (value t_cint 900 [7]))) (byval t_int) = Got (Temp Same) /\
  (* conversions *)
  arg_value world (make_argument false (Object (value t_int 900 [7]))) (byval (TBase false false b_float)) = Got (Temp (Converted 7)) /\
  arg_value world (make_argument false (Object (value t_int 900 [7]))) (lref (TBase true false b_float)) = Got (Temp (Converted 7)) /\
  arg_value world (make_argument false (Object (value t_int 900 [7]))) (lref (TBase false false b_float)) = Throw /\
  (* in variants *)
  arg_value world (make_argument false (Variant false (Some (value t_int 900 [7])))) (lref t_int) = Got (Direct Whole) /\
  arg_value world (make_argument false (Variant true (Some (value t_int 900 [7])))) (lref t_int) = Throw /\
  arg_value world (make_argument false (Variant true (Some (value t_int 900 [7])))) (lref t_cint) = Got (Direct Whole) /\
  arg_value world (make_argument true (Variant true (Some (value t_int 900 [7])))) (rref t_int) = Throw /\
  (* classes *)
  arg_value world (make_argument false (Object (value (t_class 2) 500 [7]))) (lref (t_class 0)) = Got (Direct (Base 516)) /\
  arg_value world (make_argument false (Object (value (t_class 0) 500 [7]))) (lref (t_class 2)) = Throw /\
  arg_value world (make_argument false (Object (value (t_class 2) 500 [7]))) (byval (t_class 0)) = Got (Temp (Part 516)).
Proof. repeat split. Qed.

Example C27_hypotheses :
  good_passed (Object (value t_int 900 [7])) /\ parameter_type t_int /\ (forall k, ~ pointer_type t_int k) /\
  binds (mkQ RL (held (by_reference (value t_int 900 [7])))) (mkQ RL t_int) /\
  base_at world (by_reference (value (t_class 2) 500 [7])) 0 516 /\
  v_canConvert world true (Some (by_reference (value t_cint 900 [7]))) (TBase false false b_float) = Got true.
Proof.
  split; [|split; [|split; [|split; [|split]]]].
  - intros k c S. inversion S; subst. split; [usable_tac|]. intros [i (c1 & v1 & u & E & _)]. discriminate.
  - cbn. discriminate.
  - intros k (c1 & v1 & u & E & _). discriminate.
  - split; [constructor|]. split; [left; reflexivity|]. intros j _. split; [auto|]. split; [auto|]. intros [H|H]; destruct (H eq_refl).
  - apply (cast_imp_spec world (by_reference (value (t_class 2) 500 [7])) 0 world_ok eq_refl). reflexivity.
  - reflexivity.
Qed.

(** A parameter Base*& is bound to a variable of type Derived* if both have one address: the function may store a pointer to any Base there. *)
Theorem C27_pointer_slot_refuted : exists e p T c,
  wf_env e /\ good_passed p /\ usable T /\ parameter_type T /\ is_const T = false /\ stands_for p false c /\
  held c = TPtr false false (t_class 1) /\ T = TPtr false false (t_class 0) /\
  exists pl, arg_value e (make_argument false p) (mkQ RL T) = Got (Direct pl) /\ ~ same_or_derived e c T pl.
Proof.
  pose (d := {| c_form := Val; c_src := TPtr false false (t_class 1); c_at := 500; c_ptr := Some 500; c_vals := [500]; c_bytes := [500] |}).
  exists world, (Object d), (TPtr false false (t_class 0)), (by_reference d).
  split; [exact world_ok|]. split; [intros k c S; inversion S; subst; split; [usable_tac|intros _; discriminate]|].
  split; [usable_tac|]. split; [exact I|]. split; [reflexivity|]. split; [constructor|]. split; [reflexivity|]. split; [reflexivity|].
  exists Slot. split; [reflexivity|]. intro H. inversion H.
Qed.
Print Assumptions C27_pointer_slot_refuted.

(** std::ref(y) written as an argument is an rvalue that stands for the lvalue y: a T&& parameter moves from y; so does a
    variant that refers to y, passed as an rvalue. *)
Theorem C27_wrapper_moved_refuted : exists e y T,
  wf_env e /\ c_form y = Refw /\ usable T /\
  arg_value e (make_argument true (Wrapped y)) (mkQ RR T) = Got (Direct Whole) /\
  arg_value e (make_argument true (Variant false (Some y))) (mkQ RR T) = Got (Direct Whole).
Proof. exists world, (wrapper (t_class 0) 500 [7]), (t_class 0). split; [exact world_ok|]. split; [reflexivity|]. split; [usable_tac|]. split; reflexivity. Qed.
Print Assumptions C27_wrapper_moved_refuted.

(** A parameter of type variant (here class 9) is bound to no variant: the argument looks into the variant for another one. *)
Theorem C27_variant_parameter_refuted : exists e (V : ty) v,
  wf_env e /\ usable V /\ parameter_type V /\
  arg_value e (make_argument false (Variant false v)) (mkQ RNone V) = Throw /\
  arg_value e (make_argument false (Variant false v)) (mkQ RL (add_const V)) = Throw /\
  arg_value e (make_argument false (Variant false v)) (mkQ RL V) = Throw /\
  arg_value e (make_argument true (Variant false v)) (mkQ RR V) = Throw.
Proof.
  exists world, (t_class 9), (Some (value t_int 900 [7])). split; [exact world_ok|]. split; [usable_tac|]. split; [cbn; discriminate|]. repeat split.
Qed.
Print Assumptions C27_variant_parameter_refuted.

(** ** C28 *)

(** A static function or constructor is called exactly if there are as many leading arguments as parameters and each
    binds, and then with the i-th argument bound to the i-th parameter. *)
Theorem C28_static_called : forall e params args c,
  length args <= 10 -> (N.of_nat (length params) < 2 ^ 64)%N ->
  (invoke_static e params args = Done c <->
   leading args = length params /\ on c = None /\ bound_in_order e params args (args_of c)).
Proof. exact static_called. Qed.
Print Assumptions C28_static_called.

(** invoke_error exactly if the number is wrong. *)
Theorem C28_static_error : forall e params args,
  length args <= 10 -> (N.of_nat (length params) < 2 ^ 64)%N ->
  (invoke_static e params args = Invoke_error <-> leading args <> length params).
Proof. exact static_error. Qed.
Print Assumptions C28_static_error.

(** A member function, on an instance that names an object [x] of its class (C29), the same. *)
Theorem C28_member_called : forall e k c m x w args r,
  wf_env e -> b_kind (m_class m) = KClass -> pointers_copy e -> usable (c_src c) -> one_class c (m_class m) ->
  names e k c (b_id (m_class m)) x w -> w = true \/ m_const m = true ->
  length args <= 10 -> (N.of_nat (length (m_params m)) < 2 ^ 64)%N ->
  (invoke_method e k (Some c) m args = Done r <->
   leading args = length (m_params m) /\ exists bs, r = Some {| on := Some x; args_of := bs |} /\ bound_in_order e (m_params m) args bs).
Proof.
  intros e k c m x w args r Hw Hb Hcp Hu Ho N Hq Ha Hp. unfold invoke_method.
  rewrite (member_object_ok e k c m x w Hw Hb Hcp Hu Ho N Hq), (pack_spec _ _ Ha Hp). pose proof (leading_length args) as Hl.
  destruct (Nat.eqb_spec (leading args) (length (m_params m))) as [E|E]; cbn [andThen].
  - assert (L : length (m_params m) <= length args) by lia. split.
    + intro H. destruct (bind_all e (m_params m) (ten args)) as [bs| | | | |] eqn:B; cbn in H; try discriminate. injection H as <-.
      split; [exact E|]. exists bs. split; [reflexivity|]. apply bind_all_spec in B as [_ B]. apply (bound_in_order_ten e _ args bs Ha L). exact B.
    + intros (_ & bs & -> & H2). assert (B : bind_all e (m_params m) (ten args) = Done bs).
      { apply bind_all_spec. split; [rewrite (ten_split _ Ha), app_length; lia|]. apply (bound_in_order_ten e _ args _ Ha L). exact H2. }
      rewrite B. reflexivity.
  - split; [discriminate|]. intros [H _]. contradiction.
Qed.
Print Assumptions C28_member_called.

(** The wrong number of arguments: invoke_error, whatever the instance. *)
Theorem C28_member_error : forall e k v m args,
  length args <= 10 -> (N.of_nat (length (m_params m)) < 2 ^ 64)%N -> leading args <> length (m_params m) ->
  invoke_method e k v m args = Invoke_error.
Proof.
  intros e k v m args Ha Hp H. unfold invoke_method. rewrite (pack_spec _ _ Ha Hp).
  destruct (Nat.eqb_spec (leading args) (length (m_params m))); [contradiction|reflexivity].
Qed.
Print Assumptions C28_member_error.

Definition an_int n := make_argument false (Object (value t_int (900 + n) [n])).

Example C28_case :
  invoke_static world [byval t_int; lref t_int] [an_int 1; an_int 2] = Done {| on := None; args_of := [Temp Same; Direct Whole] |} /\
  invoke_static world [byval t_int; lref t_int] [an_int 1] = Invoke_error /\
  invoke_static world [byval t_int; lref t_int] [an_int 1; an_int 2; an_int 3] = Invoke_error /\
  invoke_static world [byval t_int] [an_int 1; no_argument; an_int 2] = Done {| on := None; args_of := [Temp Same] |} /\
  invoke_static world [byval (t_class 0)] [an_int 1] = Exception /\
  invoke_static world [] [] = Done {| on := None; args_of := [] |} /\
  invoke_method world false (Some (value (t_class 2) 500 [7])) {| m_class := b_class 0; m_const := false; m_params := [byval t_int] |} [an_int 1]
    = Done (Some {| on := Some 516; args_of := [Temp Same] |}) /\
  invoke_method world false (Some (value (t_class 2) 500 [7])) {| m_class := b_class 0; m_const := false; m_params := [byval t_int] |} []
    = Invoke_error.
Proof. repeat split. Qed.

(** On an instance that is neither of a class nor a pointer to one nothing is called, and the call returns normally. *)
Theorem C28_silent_refuted : exists e m c args,
  wf_env e /\ usable (c_src c) /\ leading args = length (m_params m) /\ length args <= 10 /\
  meta_invoke e (OfClass m) (ByVariant false (Some c)) args = Some (Done None).
Proof.
  exists world, {| m_class := b_class 0; m_const := true; m_params := [byval t_int] |}, (value t_int 900 [7]), [an_int 1].
  split; [exact world_ok|]. split; [usable_tac|]. split; [reflexivity|]. split; [cbn; lia|]. reflexivity.
Qed.
Print Assumptions C28_silent_refuted.

(** variant::invoke finds the static methods of the class too, but passes the instance along as the first argument: with
    as many arguments as parameters the call is refused. *)
Theorem C28_static_through_variant_refuted : forall e k v params args,
  length args < 10 -> (N.of_nat (length params) < 2 ^ 64)%N -> holds_class v = true -> leading args = length params ->
  variant_invoke e k v (Static params) args = Some Invoke_error.
Proof.
  intros e k v params args Ha Hp Hv Hl. unfold variant_invoke. rewrite Hv. cbn [orb]. unfold meta_invoke.
  destruct (Nat.ltb_spec 10 (S (length args))); [lia|].
  rewrite (proj2 (static_error e params (instance_argument (ByVariant k v) :: args) Ha Hp)); [reflexivity|].
  cbn. lia.
Qed.
Print Assumptions C28_static_through_variant_refuted.

(** A member function with ten parameters can be registered, but MetaMethod::invoke counts the instance: the call does not compile. *)
Theorem C28_ten_parameters_refuted : forall e m i args,
  length (m_params m) = 10 -> leading args = length (m_params m) -> meta_invoke e (OfClass m) i args = None.
Proof.
  intros e m i args H Hl. unfold meta_invoke. pose proof (leading_length args).
  destruct (Nat.ltb_spec 10 (S (length args))); [reflexivity|lia].
Qed.
Print Assumptions C28_ten_parameters_refuted.

(** A static function without parameters can only be called with an explicitly empty first argument: MetaMethod::invoke()
    does not compile, and with any first argument the number is wrong. *)
Theorem C28_no_parameters_refuted : forall e i args o, meta_invoke e (Static []) i args = Some o -> o = Invoke_error.
Proof.
  intros e i args o H. unfold meta_invoke in H. destruct (Nat.ltb_spec 10 (S (length args))) as [|L]; [discriminate|].
  rewrite (proj2 (static_error e [] (instance_argument i :: args) L eq_refl)) in H; [cbn [andThen] in H; congruence|].
  destruct i; cbn; discriminate.
Qed.
Print Assumptions C28_no_parameters_refuted.

Example C28_refuted_cases :
  variant_invoke world false (Some (value (t_class 0) 500 [7])) (Static [byval t_int]) [an_int 1] = Some Invoke_error /\
  variant_invoke world false (Some (value (t_class 0) 500 [7])) (Static [lref (t_class 0); byval t_int]) [an_int 1]
    = Some (Done (Some {| on := None; args_of := [Direct Whole; Temp Same] |})) /\
  meta_invoke world (OfClass {| m_class := b_class 0; m_const := true; m_params := repeat (byval t_int) 10 |})
    (ByVariant false (Some (value (t_class 0) 500 [7]))) (repeat (an_int 1) 10) = None.
Proof. repeat split. Qed.

(** ** C29 *)

(** What a member function that is not const is called on may be written through the instance: the variant holds or
    refers to a non-const object and is not const itself, or points to a non-const one. It is the object or its base. *)
Theorem C29_not_on_const_partial : forall e m i args r,
  wf_env e -> b_kind (m_class m) = KClass -> no_pointer_converters e ->
  (forall c, snd (instance_variant i) = Some c -> usable (c_src c) /\ not_null c /\ one_class c (m_class m)) ->
  meta_invoke e (OfClass m) i args = Some (Done (Some r)) ->
  exists c x w, snd (instance_variant i) = Some c /\ on r = Some x /\
    names e (fst (instance_variant i)) c (b_id (m_class m)) x w /\ (m_const m = false -> w = true).
Proof.
  intros e m i args r Hw Hb Hnc Hi H. unfold meta_invoke in H. destruct (10 <? S (length args)); [discriminate|].
  destruct (instance_variant i) as [k v]. cbn [fst snd] in *. injection H as H. unfold invoke_method in H.
  destruct (pack_arguments _ _) as [l| | | | |]; cbn [andThen] in H; try discriminate.
  destruct (member_object e k v m) as [[x|]| | | | |] eqn:M; cbn [andThen] in H; try discriminate.
  destruct (bind_all _ _ _) as [bs| | | | |]; cbn in H; try discriminate. injection H as <-.
  destruct (member_object_names e k v m x Hw Hb Hnc Hi M) as (c & w & E & N & W). exists c, x, w. auto.
Qed.
Print Assumptions C29_not_on_const_partial.

(** Const functions are called on both, other functions whenever the object may be written. *)
Theorem C29_callable : forall e k c m x w,
  wf_env e -> b_kind (m_class m) = KClass -> pointers_copy e -> usable (c_src c) -> one_class c (m_class m) ->
  names e k c (b_id (m_class m)) x w -> w = true \/ m_const m = true ->
  forall bs args, leading args = length (m_params m) -> length args <= 10 -> bound_in_order e (m_params m) args bs ->
  invoke_method e k (Some c) m args = Done (Some {| on := Some x; args_of := bs |}).
Proof.
  intros e k c m x w Hw Hb Hcp Hu Ho N Hq bs args Hl Ha B.
  apply (C28_member_called e k c m x w args _ Hw Hb Hcp Hu Ho N Hq Ha); [|eauto].
  pose proof (leading_length args). rewrite <- Hl. change (2 ^ 64)%N with 18446744073709551616%N. lia.
Qed.
Print Assumptions C29_callable.

(** A field is written only in an object that may be written, and only there. *)
Theorem C29_field_partial : forall e read b off T i a m m' o,
  wf_env e -> b_kind b = KClass -> no_pointer_converters e ->
  (forall c, snd (instance_variant i) = Some c -> usable (c_src c) /\ not_null c /\ one_class c b) ->
  property_set e read (Data b off T) (Some i) a m = (m', o) ->
  (forall y, m' y = m y) \/
  exists c x, snd (instance_variant i) = Some c /\ names e (fst (instance_variant i)) c (b_id b) x true /\
    is_const T = false /\ forall y, y <> x + off -> m' y = m y.
Proof.
  intros e read b off T i a m m' o Hw Hb Hnc Hi H. unfold property_set in H. cbn [isStatic] in H.
  destruct (instance_variant i) as [k v]. cbn [fst snd] in *. unfold set_field in H.
  destruct (is_const T) eqn:HT; [injection H as <- <-; auto|]. destruct (k && holds_class v); [injection H as <- <-; auto|].
  destruct (negb _); [injection H as <- <-; auto|].
  destruct (run (arg_value e a (mkQ RNone T))) as [bd| | | | |]; try (injection H as <- <-; auto; fail).
  destruct (set_object e k v b) as [[x|]| | | | |] eqn:S; try (injection H as <- <-; auto; fail).
  right. rewrite set_object_member in S. apply member_object_names in S as (c & w & E & N & W); auto. specialize (W eq_refl). subst w.
  exists c, x. repeat split; auto. injection H as <- <-. intros y Hy. unfold write. destruct (Nat.eqb_spec y (x + off)); [contradiction|reflexivity].
Qed.
Print Assumptions C29_field_partial.

Definition setter := {| m_class := b_class 0; m_const := false; m_params := [] |}.
Definition getter := {| m_class := b_class 0; m_const := true; m_params := [] |}.
Definition at_object x : option (outcome (option call)) := Some (Done (Some {| on := Some x; args_of := [] |})).

Example C29_case :
  let obj := value (t_class 2) 500 [7] in let cref := wrapper (t_cclass 2) 500 [7] in let ref := wrapper (t_class 2) 500 [7] in
  let ptr := pointer (t_class 2) 900 (Some 500) in let cptr := pointer (t_cclass 2) 900 (Some 500) in
  (* variants *)
  meta_invoke world (OfClass setter) (ByVariant false (Some obj)) [] = at_object 516 /\
  meta_invoke world (OfClass setter) (ByVariant true (Some obj)) [] = Some Exception /\
  meta_invoke world (OfClass getter) (ByVariant true (Some obj)) [] = at_object 516 /\
  meta_invoke world (OfClass setter) (ByVariant false (Some cref)) [] = Some Exception /\
  meta_invoke world (OfClass setter) (ByVariant false (Some ref)) [] = at_object 516 /\
  meta_invoke world (OfClass setter) (ByVariant true (Some ref)) [] = Some Exception /\
  meta_invoke world (OfClass getter) (ByVariant true (Some cref)) [] = at_object 516 /\
  (* pointers *)
  meta_invoke world (OfClass setter) (ByOther ptr) [] = at_object 516 /\
  meta_invoke world (OfClass setter) (ByVariant true (Some ptr)) [] = at_object 516 /\
  meta_invoke world (OfClass setter) (ByOther cptr) [] = Some Exception /\
  meta_invoke world (OfClass getter) (ByOther cptr) [] = at_object 516 /\
  (* objects and references to objects: temporary variants *)
  meta_invoke world (OfClass setter) (ByOther obj) [] = Some Exception /\
  meta_invoke world (OfClass setter) (ByOther ref) [] = Some Exception /\
  meta_invoke world (OfClass getter) (ByOther cref) [] = at_object 516.
Proof. repeat split. Qed.

Lemma world_no_pointer_converters : no_pointer_converters world.
Proof.
  intros t u k (c & v & w & -> & _). cbn. destruct (qty_eq_dec t _); reflexivity.
Qed.
Lemma world_pointers_copy : pointers_copy world.
Proof. intros c v t. reflexivity. Qed.

Example C29_hypotheses :
  let obj := value (t_class 2) 500 [7] in
  usable (c_src obj) /\ not_null obj /\ one_class obj (b_class 0) /\ names world false obj 0 516 true /\ names world true obj 0 516 false.
Proof.
  cbn zeta. split; [usable_tac|]. split; [intros [i (c1 & v1 & u & E & _)]; discriminate|]. split.
  - intros t [<-|(c & v & E)] C; [|discriminate]. destruct C as (c1 & v1 & b1 & E & _ & I). injection E as <- <- <-. discriminate.
  - assert (B : base_at world (value (t_class 2) 500 [7]) 0 516) by (apply (cast_imp_spec world (value (t_class 2) 500 [7]) 0 world_ok eq_refl); reflexivity).
    assert (C : class_type (held (value (t_class 2) 500 [7])) 2) by (exists false, false, (b_class 2); auto).
    split; [exact (NamesBase world false _ 0 516 2 C ltac:(discriminate) B)|exact (NamesBase world true _ 0 516 2 C ltac:(discriminate) B)].
Qed.

(** With a converter from Derived* to Base* registered: converters are found by decayed types, so `Derived const*` is
    converted to `Base*` too, and a function that is not const is called on a const object. *)
Definition world_conv : env :=
  {| e_graph := e_graph world; e_registered := e_registered world; e_declares := e_declares world; e_dyn := e_dyn world;
     e_copies := e_copies world;
     e_conv := fun f t => if qty_eq_dec f (mkQ RNone (TPtr false false (t_class 2)))
                          then if qty_eq_dec t (mkQ RNone (TPtr false false (t_class 0)))
                               then Some (fun c => match c_ptr c with Some p => Good (p + 16) | None => Refused end) else None else None;
     e_cmp := e_cmp world; e_hash := e_hash world |}.
Theorem C29_converter_refuted : exists e m c r x,
  wf_env e /\ b_kind (m_class m) = KClass /\ usable (c_src c) /\ not_null c /\ one_class c (m_class m) /\ m_const m = false /\
  names e true c (b_id (m_class m)) x false /\
  meta_invoke e (OfClass m) (ByOther c) [] = Some (Done (Some r)) /\ on r = Some x.
Proof.
  exists world_conv, setter, (pointer (t_cclass 2) 900 (Some 500)), {| on := Some 516; args_of := [] |}, 516.
  split; [exact world_ok|]. split; [reflexivity|]. split; [usable_tac|]. split; [intros _; discriminate|]. split.
  { intros t [<-|(c & v & E)] C; [destruct C as (c1 & v1 & b1 & E & _); discriminate|]. injection E as <- <- <-.
    destruct C as (c1 & v1 & b1 & E & _ & I). injection E as <- <- <-. discriminate. }
  split; [reflexivity|]. split; [|split; reflexivity].
  assert (B : base_at world_conv (pointer (t_cclass 2) 900 (Some 500)) 0 516)
    by (apply (cast_imp_spec world_conv (pointer (t_cclass 2) 900 (Some 500)) 0 world_ok eq_refl); reflexivity).
  refine (NamesPointeeBase world_conv true _ 0 516 2 _ ltac:(discriminate) B).
  exists false, false, (t_cclass 2). split; [reflexivity|]. exists true, false, (b_class 2). auto.
Qed.
Print Assumptions C29_converter_refuted.

(** A null pointer to the class: the function is called on no object. *)
Theorem C29_null_refuted : exists e m c,
  wf_env e /\ usable (c_src c) /\ meta_invoke e (OfClass m) (ByOther c) [] = Some Undefined.
Proof. exists world, getter, (pointer (t_class 0) 900 None). split; [exact world_ok|]. split; [usable_tac|]. reflexivity. Qed.
Print Assumptions C29_null_refuted.

(** ** C30 *)

(** A read-only property: invoke_error, and nothing changes, for every instance and argument. *)
Theorem C30_read_only : forall e read p i a m, readOnly p = true -> property_set e read p i a m = (m, Invoke_error).
Proof.
  intros e read [x T|b off T|g s get set] [i|] a m H; cbn in H; try discriminate; cbn; rewrite ?H; try reflexivity.
  destruct (instance_variant i). reflexivity.
Qed.
Print Assumptions C30_read_only.

(** Exactly variables and data members of const type are reported as read-only, and no set changes them. *)
Theorem C30_const_is_read_only : forall e read p,
  match p with
  | Global _ T | Data _ _ T =>
      readOnly p = const_at T 0 /\ (const_at T 0 = true -> forall i a m, property_set e read p i a m = (m, Invoke_error))
  | Accessors _ _ _ _ => readOnly p = false
  end.
Proof.
  intros e read [x T|b off T|g s get set]; [| |reflexivity]; (split; [apply is_const_at0|]); intros H i a m;
    apply C30_read_only; cbn; rewrite is_const_at0; exact H.
Qed.
Print Assumptions C30_const_is_read_only.

Example C30_const_case : readOnly (Global 7 (TBase true false b_int)) = true /\ readOnly (Global 7 (TBase false false b_int)) = false /\
  readOnly (Data (b_class 0) 8 (TPtr true false (TBase false false b_int))) = true /\ readOnly (Data (b_class 0) 8 (TPtr false false (TBase true false b_int))) = false.
Proof. auto. Qed.

(** A property of the class without an instance, one of a namespace with an instance: refused. *)
Theorem C30_wrong_kind : forall e read p i a m,
  isStatic p = (match i with None => false | Some _ => true end) ->
  property_set e read p i a m = (m, Invoke_error) /\ property_get e p i m = Invoke_error.
Proof. intros e read p [i|] a m H; cbn; rewrite H; auto. Qed.
Print Assumptions C30_wrong_kind.

(** A set that does not return normally changes nothing. *)
Theorem C30_failed_set : forall e read p i a m m' o, property_set e read p i a m = (m', o) -> o <> Done tt -> m' = m.
Proof.
  intros e read p i a m m' o H N. destruct p as [x T|b off T|g s get set], i as [i|]; cbn in H; try (injection H; congruence).
  - destruct (is_const T); [injection H; congruence|]. destruct (run _); cbn in H; injection H; congruence.
  - destruct (instance_variant i) as [k v]. destruct (is_const T); [injection H; congruence|]. destruct (_ && _); [injection H; congruence|].
    destruct (negb _); [injection H; congruence|]. destruct (run _); cbn in H; try (injection H; congruence).
    destruct (set_object _ _ _ _) as [[x|]| | | | |]; cbn in H; injection H; congruence.
  - destruct (instance_variant i) as [k v]. destruct (invoke_method _ _ _ _ _) as [[[[x|] [|bd [|? ?]]]|]| | | | |]; cbn in H; injection H; congruence.
Qed.
Print Assumptions C30_failed_set.

(** After a successful set, get gives the value set: for variables, *)
Theorem C30_variable_set_get : forall e read x T a m m',
  property_set e read (Global x T) None a m = (m', Done tt) ->
  exists b v, arg_value e a (mkQ RNone T) = Got b /\ property_get e (Global x T) None m' = Done v /\ read_view m' v = Some (read a b) /\
    forall y, y <> x -> m' y = m y.
Proof.
  intros e read x T a m m' H. cbn in H. destruct (is_const T); [discriminate|].
  destruct (arg_value e a (mkQ RNone T)) as [b| | | |]; try discriminate. cbn in H. injection H as <-.
  exists b, (Reference x). cbn. unfold write. rewrite Nat.eqb_refl. repeat split. intros y Hy.
  destruct (Nat.eqb_spec y x); [contradiction|reflexivity].
Qed.
Print Assumptions C30_variable_set_get.

(** for data members, through the same instance and through every other that names the same object. *)
Theorem C30_field_set_get : forall e read b off T i a m m',
  wf_env e -> b_kind b = KClass -> no_pointer_converters e -> pointers_copy e ->
  (forall c, snd (instance_variant i) = Some c -> usable (c_src c) /\ not_null c /\ one_class c b) ->
  holds_class (snd (instance_variant i)) || holds_class_ptr (snd (instance_variant i)) = true ->
  property_set e read (Data b off T) (Some i) a m = (m', Done tt) ->
  exists bd v, arg_value e a (mkQ RNone T) = Got bd /\ property_get e (Data b off T) (Some i) m' = Done v /\
    read_view m' v = Some (read a bd) /\
    exists x, v = Reference (x + off) /\ (forall y, y <> x + off -> m' y = m y) /\
    forall i' c w, snd (instance_variant i') = Some c -> usable (c_src c) -> one_class c b ->
      names e (fst (instance_variant i')) c (b_id b) x w -> property_get e (Data b off T) (Some i') m' = Done v.
Proof.
  intros e read b off T i a m m' Hw Hb Hnc Hcp Hi Hh H. unfold property_set in H. cbn [isStatic] in H.
  unfold property_get. cbn [isStatic]. destruct (instance_variant i) as [k v]. cbn [fst snd] in *. unfold set_field in H.
  destruct (is_const T) eqn:HT; [discriminate|]. destruct (k && holds_class v); [discriminate|].
  rewrite Hh in H. cbn [negb] in H.
  destruct (arg_value e a (mkQ RNone T)) as [bd| | | |]; try discriminate. cbn [run] in H.
  assert (ND : forall x, set_object e k v b = Done (Some x) -> exists c w, v = Some c /\ names e k c (b_id b) x w).
  { intros x S. rewrite set_object_member in S. apply member_object_names in S as (c & w & E & N & _); eauto. }
  destruct (set_object e k v b) as [[x|]| | | | |] eqn:S; try discriminate.
  2:{ exfalso. destruct v as [c|]; [|discriminate]. unfold set_object in S. destruct (holds_class (Some c)).
      - destruct k; [discriminate|]. destruct (ref_object _ _ _ _); discriminate.
      - cbn [orb] in Hh. rewrite Hh in S. destruct (ptr_object _ _ _ _); discriminate. }
  injection H as <-. destruct (ND x eq_refl) as (c & w & -> & N). destruct (Hi c eq_refl) as (Hu & Hn & Ho).
  assert (G : forall k' c' w', usable (c_src c') -> one_class c' b -> names e k' c' (b_id b) x w' ->
              get_field e (Data b off T) (Some c') (write m (x + off) (read a bd)) = Done (Reference (x + off))).
  { intros k' c' w' Hu' Ho' N'. unfold get_field. destruct (names_const _ _ _ _ _ _ N') as [w2 N2]. rewrite get_object_member.
    rewrite (member_object_ok e true c' {| m_class := b; m_const := true; m_params := [] |} x w2 Hw Hb Hcp Hu' Ho' N2); [reflexivity|auto]. }
  exists bd, (Reference (x + off)). split; [reflexivity|]. split; [eapply G; eauto|]. split.
  { cbn. unfold write. rewrite Nat.eqb_refl. reflexivity. }
  exists x. split; [reflexivity|]. split.
  - intros y Hy. unfold write. destruct (Nat.eqb_spec y (x + off)); [contradiction|reflexivity].
  - intros i' c' w' E Hu' Ho' N'. rewrite E. eapply G; eauto.
Qed.
Print Assumptions C30_field_set_get.

(** for a const getter and a setter, if they themselves keep what is set. *)
Theorem C30_accessors_set_get_partial : forall e read g s get set i a q m m',
  wf_env e -> b_kind (m_class s) = KClass -> no_pointer_converters e -> pointers_copy e ->
  (forall c, snd (instance_variant i) = Some c -> usable (c_src c) /\ not_null c /\ one_class c (m_class s)) ->
  holds_class (snd (instance_variant i)) || holds_class_ptr (snd (instance_variant i)) = true ->
  m_class g = m_class s -> m_const g = true -> m_params g = [] -> m_params s = [q] ->
  (forall m x w, get (set m x w) x = w) ->
  property_set e read (Accessors g s get set) (Some i) a m = (m', Done tt) ->
  exists bd, arg_value e a q = Got bd /\ property_get e (Accessors g s get set) (Some i) m' = Done (Value (read a bd)).
Proof.
  intros e read g s get set i a q m m' Hw Hb Hnc Hcp Hi Hh Hg Hgc Hgp Hsp Law H. unfold property_set in H. cbn [isStatic] in H.
  unfold property_get. cbn [isStatic]. destruct (instance_variant i) as [k v]. cbn [fst snd] in *. cbn [set_field] in H.
  destruct (invoke_method e k v s [a]) as [[r|]| | | | |] eqn:I; try discriminate.
  2:{ exfalso. unfold invoke_method in I. destruct (pack_arguments _ _); cbn [andThen] in I; try discriminate.
      destruct (member_object e k v s) as [[x|]| | | | |] eqn:M; cbn [andThen] in I; try discriminate.
      - destruct (bind_all _ _ _); discriminate.
      - clear I. destruct v as [c|]; [|discriminate]. unfold member_object in M. destruct (holds_class (Some c)).
        + destruct (_ && _); [discriminate|]. destruct (ref_object _ _ _ _); discriminate.
        + cbn [orb] in Hh. rewrite Hh in M. destruct (ptr_object _ _ _ _); discriminate. }
  assert (X : exists x bd, r = {| on := Some x; args_of := [bd] |} /\ arg_value e a q = Got bd /\ member_object e k v s = Done (Some x)).
  { unfold invoke_method in I. rewrite Hsp in I. destruct (pack_arguments _ _) as [l| | | | |] eqn:P; cbn [andThen] in I; try discriminate.
    destruct (member_object e k v s) as [[x|]| | | | |]; cbn [andThen] in I; try discriminate.
    assert (l = ten [a]) by (unfold pack_arguments in P; destruct (_ =? 0)%N; congruence). subst l. cbn [ten] in I.
    change (ten [a]) with (a :: repeat no_argument 9) in I. cbn [bind_all] in I.
    destruct (arg_value e a q) as [bd| | | |]; cbn in I; try discriminate. injection I as <-. eauto 6. }
  destruct X as (x & bd & -> & A & M). exists bd. split; [exact A|]. cbn in H. injection H as <-.
  apply member_object_names in M as (c & w & -> & N & _); auto. destruct (Hi c eq_refl) as (Hu & _ & Ho).
  destruct (names_const _ _ _ _ _ _ N) as [w2 N2]. rewrite <- Hg in N2, Ho, Hb. cbn [get_field].
  rewrite (C29_callable e true c g x w2 Hw Hb Hcp Hu Ho N2 (or_intror Hgc) [] []).
  - cbn. rewrite Law. reflexivity.
  - rewrite Hgp. reflexivity.
  - cbn. lia.
  - rewrite Hgp. split; [reflexivity|]. intros [|j] q' a' b'; discriminate.
Qed.
Print Assumptions C30_accessors_set_get_partial.

Definition read_first (a : argument) (b : bound) : nat :=
  match g_value a with Some (Plain c) => hd 0 (c_vals c) | Some (Inner _ (Some c)) => hd 0 (c_vals c) | _ => 0 end.
Definition mem0 : memory := fun _ => 0.

Example C30_case :
  let obj := ByVariant false (Some (value (t_class 2) 500 [7])) in let cobj := ByVariant true (Some (value (t_class 2) 500 [7])) in
  let field := Data (b_class 0) 4 t_int in let cfield := Data (b_class 0) 4 t_cint in
  let m' := fst (property_set world read_first field (Some obj) (an_int 3) mem0) in
  snd (property_set world read_first field (Some obj) (an_int 3) mem0) = Done tt /\
  property_get world field (Some obj) m' = Done (Reference 520) /\ m' 520 = 3 /\ m' 519 = 0 /\
  property_get world field (Some cobj) m' = Done (Reference 520) /\
  snd (property_set world read_first field (Some cobj) (an_int 3) mem0) = Exception /\
  snd (property_set world read_first cfield (Some obj) (an_int 3) mem0) = Invoke_error /\
  snd (property_set world read_first field None (an_int 3) mem0) = Invoke_error /\
  snd (property_set world read_first (Global 40 t_int) (Some obj) (an_int 3) mem0) = Invoke_error /\
  fst (property_set world read_first (Global 40 t_int) None (an_int 3) mem0) 40 = 3 /\
  snd (property_set world read_first (Global 40 t_cint) None (an_int 3) mem0) = Invoke_error /\
  property_get world (Global 40 t_int) None mem0 = Done (Reference 40) /\ property_get world (Global 40 t_int) (Some obj) mem0 = Invoke_error.
Proof. repeat split. Qed.

(** A counter kept at offset 8, with a const getter. *)
Example C30_accessors_case :
  let p := Accessors {| m_class := b_class 0; m_const := true; m_params := [] |}
             {| m_class := b_class 0; m_const := false; m_params := [lref t_cint] |} (fun m x => m (x + 8)) (fun m x w => write m (x + 8) w) in
  let obj := ByVariant false (Some (value (t_class 2) 500 [7])) in
  let m' := fst (property_set world read_first p (Some obj) (an_int 3) mem0) in
  snd (property_set world read_first p (Some obj) (an_int 3) mem0) = Done tt /\
  property_get world p (Some obj) m' = Done (Value 3) /\ forall m x w, write m (x + 8) w (x + 8) = w.
Proof. repeat split. intros m x w. unfold write. rewrite Nat.eqb_refl. reflexivity. Qed.

(** On an instance that is neither of a class nor a pointer to one, set returns normally without doing anything and get
    gives an empty variant. *)
Theorem C30_silent_refuted : exists e read p i a m,
  wf_env e /\ property_set e read p (Some i) a m = (m, Done tt) /\ property_get e p (Some i) m = Done Nothing.
Proof. exists world, read_first, (Data (b_class 0) 4 t_int), (ByVariant false (Some (value t_int 900 [7]))), (an_int 3), mem0. split; [exact world_ok|]. split; reflexivity. Qed.
Print Assumptions C30_silent_refuted.

(** With a getter that is not const, set succeeds and get throws: get takes its instance as const (variant.h:798). *)
Theorem C30_getter_refuted : exists e read p i a m m',
  wf_env e /\ property_set e read p (Some i) a m = (m', Done tt) /\ property_get e p (Some i) m' = Exception.
Proof.
  exists world, read_first, (Accessors {| m_class := b_class 0; m_const := false; m_params := [] |}
    {| m_class := b_class 0; m_const := false; m_params := [byval t_int] |} (fun m x => m x) (fun m x w => write m x w)),
    (ByVariant false (Some (value (t_class 0) 500 [7]))), (an_int 3), mem0, (write mem0 500 3).
  split; [exact world_ok|]. split; reflexivity.
Qed.
Print Assumptions C30_getter_refuted.

(** variant::set_property and get_property refuse such instances: what is set there is read back. *)
Theorem C30_variant_set_get : forall e read b off T c a m m',
  wf_env e -> b_kind b = KClass -> no_pointer_converters e -> pointers_copy e -> usable (c_src c) -> not_null c -> one_class c b ->
  variant_set e read (Some c) (Data b off T) a m = (m', Done tt) ->
  exists bd v, arg_value e a (mkQ RNone T) = Got bd /\ variant_get e (Some c) (Data b off T) m' = Done v /\ read_view m' v = Some (read a bd).
Proof.
  intros e read b off T c a m m' Hw Hb Hnc Hcp Hu Hn Ho H. unfold variant_set, variant_get in *.
  destruct (holds_class (Some c) || holds_class_ptr (Some c)) eqn:E; [|discriminate].
  destruct (C30_field_set_get e read b off T (ByVariant false (Some c)) a m m' Hw Hb Hnc Hcp) as (bd & v & A & G & R & _); eauto.
  cbn. intros c' Ec. injection Ec as <-. auto.
Qed.
Print Assumptions C30_variant_set_get.

(** On a variant that holds neither an object of a class nor a pointer to one they throw, and so does variant::invoke; nothing is
    written or called. *)
Theorem C30_variant_without_object : forall e read v p a m f k args,
  (forall c, v = Some c -> usable (c_src c) /\ b_kind (base_type (held c)) <> KClass) ->
  variant_get e v p m = Exception /\ variant_set e read v p a m = (m, Exception) /\ variant_invoke e k v f args = Some Exception.
Proof.
  intros e read v p a m f k args H. unfold variant_get, variant_set, variant_invoke.
  assert (E : holds_class v || holds_class_ptr v = false); [|rewrite E; auto].
  destruct v as [c|]; [|reflexivity]. destruct (H c eq_refl) as [Hu Hk]. unfold holds_class, holds_class_ptr.
  unfold type_id. rewrite (stored_held c (usable_arrays _ Hu)). rewrite isClass_info. cbn [q_ty].
  assert (K : kind_is KClass (base_type (held c)) = false) by (unfold kind_is in *; destruct (b_kind (base_type (held c))); reflexivity || (exfalso; apply Hk; reflexivity)).
  rewrite K. cbn [andb orb]. unfold isClassPtr. cbn [typeFlags]. rewrite !has_flag_testbit. cbn [info_of ti_flags].
  rewrite tf_class. cbn [q_ty]. rewrite K, andb_false_r. reflexivity.
Qed.
Print Assumptions C30_variant_without_object.

(** ** Through the variant *)

(** variant::invoke calls a member function on what the variant holds, refers to or points to, like MetaMethod::invoke. *)
Theorem C28_variant_member_called : forall e k c m x w args r,
  wf_env e -> b_kind (m_class m) = KClass -> pointers_copy e -> usable (c_src c) -> one_class c (m_class m) ->
  names e k c (b_id (m_class m)) x w -> w = true \/ m_const m = true ->
  length args <= 9 -> (N.of_nat (length (m_params m)) < 2 ^ 64)%N ->
  (variant_invoke e k (Some c) (OfClass m) args = Some (Done r) <->
   leading args = length (m_params m) /\ exists bs, r = Some {| on := Some x; args_of := bs |} /\ bound_in_order e (m_params m) args bs).
Proof.
  intros e k c m x w args r Hw Hb Hcp Hu Ho N Hq Ha Hp. rewrite <- (C28_member_called e k c m x w args r Hw Hb Hcp Hu Ho N Hq) by (auto; lia).
  assert (E : holds_class (Some c) || holds_class_ptr (Some c) = true).
  { destruct (names_kind _ _ _ _ _ _ N) as [[i C]|[i P]].
    - destruct (holds_class_of c i Hu C) as [-> _]. reflexivity.
    - destruct (holds_ptr_of c i Hu P) as [_ ->]. apply orb_true_r. }
  unfold variant_invoke. rewrite E. unfold meta_invoke. destruct (Nat.ltb_spec 10 (S (length args))); [lia|]. cbn [instance_variant].
  split; intro H0; [injection H0 as H0; exact H0|rewrite H0; reflexivity].
Qed.
Print Assumptions C28_variant_member_called.

(** A const variant as the instance of a static function is its first argument; it binds to no mutable reference. *)
Theorem C29_static_instance : forall e q params v args r,
  meta_invoke e (Static (q :: params)) (ByVariant true v) args = Some (Done (Some r)) ->
  q_ref q = RNone \/ (q_ref q = RL /\ is_const (q_ty q) = true).
Proof.
  intros e q params v args r H. unfold meta_invoke in H. destruct (10 <? S (length args)); [discriminate|]. injection H as H.
  destruct (invoke_static e (q :: params) ({| g_rvalue := false; g_value := Some (Inner true v) |} :: args)) as [c| | | | |] eqn:E; cbn [andThen] in H; try discriminate.
  unfold invoke_static, pack_arguments in E.
  match type of E with context [if ?b then _ else _] => destruct b end; [|discriminate]. cbn [andThen] in E. unfold ten in E. cbn [app firstn bind_all instance_argument] in E.
  unfold arg_value in E. cbn [g_value g_rvalue] in E. destruct (q_ref q); [left; reflexivity| |].
  - destruct (is_const (q_ty q)) eqn:Ec; [right; auto|discriminate].
  - discriminate.
Qed.
Print Assumptions C29_static_instance.
(** With a pointer to an object of class 0: calling and reading works; nothing of the kind with an int; a const variant is refused
    where a reference to a mutable object is wanted, and passes to one to a const object. *)
Example C28_variant_case :
  let ptr := pointer (t_class 0) 700 (Some 500) in
  let m := {| m_class := b_class 0; m_const := false; m_params := [byval t_int] |} in
  usable (c_src ptr) /\ names world false ptr 0 500 true /\
  variant_invoke world false (Some ptr) (OfClass m) [an_int 1] = Some (Done (Some {| on := Some 500; args_of := [Temp Same] |})) /\
  variant_invoke world false (Some (value t_int 900 [7])) (OfClass m) [an_int 1] = Some Exception /\
  variant_get world (Some (value t_int 900 [7])) (Data (b_class 0) 4 t_int) (fun _ => 0) = Exception /\
  meta_invoke world (Static [lref (t_class 0)]) (ByVariant true (Some (value (t_class 0) 500 [7]))) [] = Some Exception /\
  meta_invoke world (Static [lref (TBase true false (b_class 0))]) (ByVariant true (Some (value (t_class 0) 500 [7]))) []
    = Some (Done (Some {| on := None; args_of := [Direct Whole] |})).
Proof.
  cbn zeta. split; [usable_tac|]. split.
  { refine (NamesPointee world false (pointer (t_class 0) 700 (Some 500)) 0 500 _ eq_refl).
    do 3 eexists. split; [reflexivity|]. do 3 eexists. repeat split. }
  repeat split.
Qed.
