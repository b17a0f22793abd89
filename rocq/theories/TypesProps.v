(** Property theorems about types: C01, C02, C03, C35 and the decay part of C05. *)
From Coq Require Import NArith List Bool Arith Lia.
From Verif Require Import TypesModel TypesSpec TypesProofs.
Import ListNotations.

Definition tint := TBase false false {| b_kind := KIntegral; b_id := 0; b_size := 4; b_traits := 0 |}.
Definition tcint := TBase true false {| b_kind := KIntegral; b_id := 0; b_size := 4; b_traits := 0 |}.
Definition tvint := TBase false true {| b_kind := KIntegral; b_id := 0; b_size := 4; b_traits := 0 |}.
Definition tcls := TBase false false {| b_kind := KClass; b_id := 1; b_size := 24; b_traits := 0 |}.
Definition tvoid := TBase false false {| b_kind := KVoid; b_id := 2; b_size := 0; b_traits := 0 |}.
Definition ptr := TPtr false false.
Definition cptr := TPtr true false.

Ltac regular_solve := (repeat split; cbn; try lia; try discriminate).

(** C01 *)
Theorem C01_compatible_iff_binds : forall from to,
  regular from -> regular to -> not_array from -> not_array to ->
  full_decay from = full_decay to ->
  (compat from to = CTrue <-> binds from to).
Proof. exact compat_iff_binds. Qed.
Print Assumptions C01_compatible_iff_binds.

(** [int**&] to [int const* const* const&] is accepted, to [int const**&] it is not. *)
Example C01_example :
  let from := mkQ RL (ptr (ptr tint)) in
  let good := mkQ RL (cptr (cptr tcint)) in
  let bad := mkQ RL (ptr (ptr tcint)) in
  regular from /\ regular good /\ regular bad /\ not_array from /\ not_array good /\ not_array bad /\
  full_decay from = full_decay good /\ full_decay from = full_decay bad /\
  compat from good = CTrue /\ compat from bad = CFalse.
Proof. regular_solve. Qed.

Theorem C01_compatible_never_terminates : forall from to,
  pointer_depth (q_ty from) < 16 -> pointer_depth (q_ty to) < 16 -> compat from to <> CTerm.
Proof. exact compat_no_term. Qed.
Print Assumptions C01_compatible_never_terminates.

Example C01_depth_example : pointer_depth (ptr (ptr (ptr tint))) < 16.
Proof. cbn; lia. Qed.

(** Without the guard on volatile the statement is false: [volatile int&] is accepted for [int&]. *)
Theorem C01_volatile_refuted : exists from to,
  not_array from /\ not_array to /\ full_decay from = full_decay to /\
  compat from to = CTrue /\ ~ binds from to.
Proof.
  exists (mkQ RL tvint), (mkQ RL tint).
  split; [discriminate|]. split; [discriminate|]. split; [reflexivity|]. split; [reflexivity|].
  intros [_ [_ H]]. destruct (H 0) as (_ & Hv & _); [lia|]. specialize (Hv eq_refl). discriminate.
Qed.
Print Assumptions C01_volatile_refuted.

Fixpoint deep (n : nat) (c : bool) (t : ty) : ty :=
  match n with 0 => t | S n' => TPtr c false (deep n' c t) end.

(** Without the guard on depth it is false too: the const bit at index 16 is lost in the 16-bit mask, so a
    const object is accepted for a non-const reference. *)
Theorem C01_deep_pointer_refuted : exists from to,
  instantiable from = true /\ instantiable to = true /\
  no_volatile (q_ty from) = true /\ no_volatile (q_ty to) = true /\
  not_array from /\ not_array to /\ full_decay from = full_decay to /\
  compat from to = CTrue /\ ~ binds from to.
Proof.
  exists (mkQ RL (cptr (deep 15 false tint))), (mkQ RL (ptr (deep 15 false tint))).
  repeat (split; [first [reflexivity|discriminate]|]).
  intros [_ [_ H]]. destruct (H 0) as (Hc & _); [lia|]. specialize (Hc eq_refl). discriminate.
Qed.
Print Assumptions C01_deep_pointer_refuted.

(** ... and the query may end the process. *)
Theorem C01_terminate_refuted : exists from to,
  instantiable from = true /\ instantiable to = true /\ full_decay from = full_decay to /\
  compat from to = CTerm.
Proof.
  exists (mkQ RNone (deep 17 false tint)), (mkQ RNone (deep 17 true tcint)).
  repeat split; vm_compute; reflexivity.
Qed.
Print Assumptions C01_terminate_refuted.

(** C02 *)
Theorem C02_chain_keeps_inner_const : forall from to j,
  plain from -> chain plain from to -> 1 <= j ->
  const_at (q_ty from) j = true -> const_at (q_ty to) j = true.
Proof. exact chain_const. Qed.
Print Assumptions C02_chain_keeps_inner_const.

Theorem C02_reference_chain_keeps_const : forall from to j,
  plain from -> chain plain_ref from to ->
  const_at (q_ty from) j = true -> const_at (q_ty to) j = true.
Proof. exact chain_ref_const. Qed.
Print Assumptions C02_reference_chain_keeps_const.

Theorem C02_reflexive : forall q, compat q q = CTrue.
Proof. exact compat_refl. Qed.
Print Assumptions C02_reflexive.

Theorem C02_values_transitive : forall a b c,
  plain a -> plain b -> plain c -> q_ref b = RNone -> q_ref c = RNone ->
  full_decay a = full_decay b -> full_decay b = full_decay c ->
  compat a b = CTrue -> compat b c = CTrue -> compat a c = CTrue.
Proof. exact compat_trans_value. Qed.
Print Assumptions C02_values_transitive.

(** [int const*&] -> [int const*] -> [int const*&&]: const at level 1 survives a chain that
    [compatible] would not accept in one step. *)
Example C02_example :
  let a := mkQ RL (ptr tcint) in let b := mkQ RNone (ptr tcint) in let c := mkQ RR (ptr tcint) in
  plain a /\ chain plain a c /\ const_at (q_ty a) 1 = true /\ compat a c = CFalse.
Proof.
  cbn zeta. split; [regular_solve|]. split; [|split; reflexivity].
  apply chain_cons with (mkQ RNone (ptr tcint)); [regular_solve|reflexivity|reflexivity|].
  apply chain_cons with (mkQ RR (ptr tcint)); [regular_solve|reflexivity|reflexivity|].
  apply chain_nil.
Qed.

Example C02_ref_example :
  let a := mkQ RL (cptr tint) in let b := mkQ RL (cptr tcint) in
  plain a /\ chain plain_ref a b /\ const_at (q_ty a) 0 = true /\
  full_decay a = full_decay b.
Proof.
  cbn zeta. split; [regular_solve|]. split; [|split; reflexivity].
  apply chain_cons with (mkQ RL (cptr tcint)); [regular_solve|reflexivity|reflexivity|].
  apply chain_nil.
Qed.

Example C02_values_example :
  let a := mkQ RNone (ptr (ptr tint)) in let b := mkQ RNone (ptr (cptr tint)) in
  let c := mkQ RNone (ptr (cptr tcint)) in
  plain a /\ plain b /\ plain c /\ compat a b = CTrue /\ compat b c = CTrue.
Proof. regular_solve. Qed.

(** Compatibility as such is not transitive. *)
Theorem C02_transitivity_refuted : exists a b c,
  plain a /\ plain b /\ plain c /\ full_decay a = full_decay b /\ full_decay b = full_decay c /\
  compat a b = CTrue /\ compat b c = CTrue /\ compat a c = CFalse.
Proof.
  exists (mkQ RL tint), (mkQ RNone tint), (mkQ RR tint). regular_solve.
Qed.
Print Assumptions C02_transitivity_refuted.

(** C03 *)
Theorem C03_array_safe : forall from to e n,
  q_ty from = TArr e n -> no_pointer e = true -> not_function e -> full_decay from = full_decay to ->
  compat from to = CTrue ->
  (exists e' m, q_ty to = TArr e' m /\ (m * size_of e' <= n * size_of e)%N /\
     (q_ref to <> RNone -> forall j, const_at e j = true -> const_at e' j = true)) \/
  (exists c v e', q_ty to = TPtr c v e' /\ (forall j, const_at e j = true -> const_at e' j = true) /\
     (q_ref to <> RNone -> c = true)).
Proof. exact array_compat_safe. Qed.
Print Assumptions C03_array_safe.

Theorem C03_array_decay_exact : forall from to e n c v e',
  q_ty from = TArr e n -> q_ty to = TPtr c v e' -> similar e e' -> no_pointer e = true ->
  (compat from to = CTrue <-> decays_to from to e e' c).
Proof. exact array_decay_iff. Qed.
Print Assumptions C03_array_decay_exact.

(** [int[5]&] may be viewed as [int const(&)[3]] and as [int const* const&]. *)
Example C03_example :
  let from := mkQ RL (TArr tint 5) in
  compat from (mkQ RL (TArr tcint 3)) = CTrue /\ full_decay from = full_decay (mkQ RL (TArr tcint 3)) /\
  compat from (mkQ RL (cptr tcint)) = CTrue /\ full_decay from = full_decay (mkQ RL (cptr tcint)) /\
  compat from (mkQ RL (TArr tint 6)) = CFalse /\ compat from (mkQ RL (ptr tint)) = CFalse.
Proof. repeat split. Qed.

(** For arrays of pointers const is dropped: [int const*[3]&] is accepted for [int*(&)[3]]. *)
Theorem C03_array_of_pointers_refuted : exists from to e e' n,
  q_ty from = TArr e n /\ q_ty to = TArr e' n /\ q_ref to <> RNone /\
  full_decay from = full_decay to /\ compat from to = CTrue /\
  exists j, const_at e j = true /\ const_at e' j = false.
Proof.
  exists (mkQ RL (TArr (ptr tcint) 3)), (mkQ RL (TArr (ptr tint) 3)), (ptr tcint), (ptr tint), 3%N.
  repeat (split; [first [reflexivity|discriminate]|]). exists 1. split; reflexivity.
Qed.
Print Assumptions C03_array_of_pointers_refuted.

(** ... and an array of pointers is not compatible with its own decayed type. *)
Theorem C03_array_of_pointers_decay_refuted : exists q,
  compat q (full_decay q) = CFalse.
Proof. exists (mkQ RL (TArr (ptr tint) 3)). reflexivity. Qed.
Print Assumptions C03_array_of_pointers_decay_refuted.

(** C05, the part about the grammar *)
Theorem C05_full_decay_idempotent : forall q, full_decay (full_decay q) = full_decay q.
Proof. exact full_decay_idem. Qed.
Print Assumptions C05_full_decay_idempotent.

(** The decayed type: no reference and no qualifier at any level; an array becomes a pointer to its element, a function a
    pointer to it, everything else stays what it is. *)
Theorem C05_decayed_type : forall q,
  q_ref (full_decay q) = RNone /\ (forall j, const_at (q_ty (full_decay q)) j = false) /\
  match q_ty q with
  | TArr u _ => exists u', q_ty (full_decay q) = TPtr false false u' /\ similar u u'
  | TPtr _ _ u => exists u', q_ty (full_decay q) = TPtr false false u' /\ similar u u'
  | TBase _ _ b => q_ty (full_decay q) = match b_kind b with KFunction => TPtr false false (TBase false false b)
                                                          | _ => TBase false false b end
  end.
Proof.
  assert (S : forall t, similar t (remove_all_cv t)) by (induction t; cbn; constructor; assumption).
  assert (C : forall t j, const_at (remove_all_cv t) j = false).
  { induction t as [c v b|c v t IH|t IH n]; intros [|j]; cbn; auto. }
  intros [r t]. split; [reflexivity|]. split; [intro j; apply C|].
  destruct t as [c v b|c v t|t n]; unfold full_decay; cbn [q_ty decay].
  - destruct (b_kind b); reflexivity.
  - exists (remove_all_cv t). auto.
  - exists (remove_all_cv t). auto.
Qed.
Print Assumptions C05_decayed_type.

Example C05_decayed_example :
  full_decay (mkQ RL (TBase false false {| b_kind := KFunction; b_id := 9; b_size := 1; b_traits := 0 |})) =
  mkQ RNone (ptr (TBase false false {| b_kind := KFunction; b_id := 9; b_size := 1; b_traits := 0 |})).
Proof. reflexivity. Qed.

Theorem C05_compatible_with_decay : forall q,
  plain q -> (forall c v b, q_ty q = TBase c v b -> b_kind b <> KFunction) ->
  (forall j, 1 <= j -> const_at (q_ty q) j = false) -> compat q (full_decay q) = CTrue.
Proof. exact compat_to_decay. Qed.
Print Assumptions C05_compatible_with_decay.

Example C05_decay_example :
  full_decay (mkQ RL (TArr (cptr tcint) 4)) = mkQ RNone (ptr (ptr tint)) /\
  (let q := mkQ RL (cptr tint) in plain q /\ (forall j, 1 <= j -> const_at (q_ty q) j = false)).
Proof.
  split; [reflexivity|]. split; [regular_solve|]. intros [|[|j]] Hj; [lia|reflexivity|reflexivity].
Qed.

(** C35 *)
Theorem C35_qualifier_predicates : forall q,
  isConst (mt q) = const_at (q_ty q) 0 /\
  (isPointer (mt q) = true <-> exists c v t, q_ty q = TPtr c v t) /\
  (isArray (mt q) = true <-> exists t n, q_ty q = TArr t n) /\
  (isLref (mt q) = true <-> q_ref q = RL) /\
  (isRref (mt q) = true <-> q_ref q = RR).
Proof.
  intro q. rewrite isConst_mt, isPointer_mt, isArray_mt, isLref_mt, isRref_mt, is_const_at0.
  split; [reflexivity|].
  split; [destruct (q_ty q); cbn; split; intro H; try discriminate; eauto; destruct H as (?&?&?&?); discriminate|].
  split; [destruct (q_ty q); cbn; split; intro H; try discriminate; eauto; destruct H as (?&?&?); discriminate|].
  destruct (q_ref q); repeat split; congruence.
Qed.
Print Assumptions C35_qualifier_predicates.

Theorem C35_pointer_arity : forall q, instantiable q = true ->
  pointerArity (mt q) = N.of_nat (pointer_depth (q_ty q)).
Proof. exact pointerArity_mt. Qed.
Print Assumptions C35_pointer_arity.

Theorem C35_class_partial : forall q, not_array q ->
  (isClass (mt q) = true <-> exists c v b, q_ty q = TBase c v b /\ b_kind b = KClass).
Proof. exact isClass_mt. Qed.
Print Assumptions C35_class_partial.

Theorem C35_class_pointer_partial : forall q, instantiable q = true ->
  (forall c v t n, q_ty q <> TPtr c v (TArr t n)) ->
  (isClassPtr (mt q) = true <->
   exists c v c' v' b, q_ty q = TPtr c v (TBase c' v' b) /\ b_kind b = KClass).
Proof. exact isClassPtr_mt. Qed.
Print Assumptions C35_class_pointer_partial.

Theorem C35_function_pointer : forall q, instantiable q = true ->
  (forall c v t n, q_ty q <> TPtr c v (TArr t n)) ->
  (isFunctionPtr (mt q) = true <->
   exists c v c' v' b, q_ty q = TPtr c v (TBase c' v' b) /\ b_kind b = KFunction).
Proof. exact isFunctionPtr_mt. Qed.
Print Assumptions C35_function_pointer.

Theorem C35_void_pointer_partial : forall q, pointer_depth (q_ty q) <= 1 ->
  (forall c v t n, q_ty q <> TPtr c v (TArr t n)) ->
  (isVoidPtr (mt q) = true <->
   exists c v c' v' b, q_ty q = TPtr c v (TBase c' v' b) /\ b_kind b = KVoid).
Proof. exact isVoidPtr_mt. Qed.
Print Assumptions C35_void_pointer_partial.

Example C35_example :
  isClassPtr (mt (mkQ RL (cptr tcls))) = true /\ isClass (mt (mkQ RR tcls)) = true /\
  isVoidPtr (mt (mkQ RNone (ptr tvoid))) = true /\ instantiable (mkQ RL (cptr tcls)) = true /\
  pointerArity (mt (mkQ RL (cptr (cptr tcls)))) = 2%N.
Proof. repeat split. Qed.

(** The size is that of an object of the type: of a reference, of what it refers to; of an array, of all elements. *)
Fixpoint elements (t : ty) : N := match t with TArr u n => elements u * n | _ => 1 end.
Fixpoint innermost (t : ty) : ty := match t with TArr u _ => innermost u | _ => t end.
Theorem C35_size : forall q,
  typeSize (mt q) = (elements (q_ty q) * match innermost (q_ty q) with TPtr _ _ _ => 8 | TBase _ _ b => b_size b | TArr _ _ => 0 end)%N.
Proof.
  intros [r t]. unfold mt, typeSize, info_of. cbn [ti_size q_ty].
  induction t as [c v b|c v t IH|t IH n]; cbn [size_of elements innermost]; try lia. all: cbn; lia.
Qed.
Print Assumptions C35_size.

(** A MetaType that is not valid says it is void, has no size and is nothing else. *)
Theorem C35_not_valid :
  typeFlags None = 64%N /\ typeSize None = 0%N /\ pointerArity None = 0%N /\
  isConst None = false /\ isPointer None = false /\ isArray None = false /\ isReference None = false /\
  isClass None = false /\ isClassPtr None = false /\ isVoidPtr None = false /\ isFunctionPtr None = false /\
  forall m, compatible None m = CFalse /\ compatible m None = CFalse.
Proof. do 11 (split; [reflexivity|]). intros [i|]; split; reflexivity. Qed.
Print Assumptions C35_not_valid.

Example C35_size_example :
  typeSize (mt (mkQ RL (TArr (TArr (cptr tcls) 3) 4))) = 96%N /\ typeSize (mt (mkQ RR tcls)) = 24%N.
Proof. split; reflexivity. Qed.

(** An array of a class type reports to be a class. *)
Theorem C35_class_array_refuted : exists q, isClass (mt q) = true /\ exists t n, q_ty q = TArr t n.
Proof. exists (mkQ RNone (TArr tcls 3)). split; [reflexivity|]. exists tcls, 3%N. reflexivity. Qed.
Print Assumptions C35_class_array_refuted.

(** A pointer to an array of a class type reports to be a pointer to a class. *)
Theorem C35_class_pointer_refuted : exists q,
  isClassPtr (mt q) = true /\ exists c v t n, q_ty q = TPtr c v (TArr t n).
Proof. exists (mkQ RNone (ptr (TArr tcls 3))). split; [reflexivity|]. exists false, false, tcls, 3%N. reflexivity. Qed.
Print Assumptions C35_class_pointer_refuted.

(** [void**] reports to be a void pointer. *)
Theorem C35_void_pointer_refuted : exists q,
  isVoidPtr (mt q) = true /\ pointer_depth (q_ty q) = 2.
Proof. exists (mkQ RNone (ptr (ptr tvoid))). split; reflexivity. Qed.
Print Assumptions C35_void_pointer_refuted.
