(** C53: what a call through the library gives back. *)
From Coq Require Import NArith List Bool Arith Lia.
From Verif Require Import TypesModel TypesSpec TypesProofs InheritModel InheritSpec InheritProofs AccModel AccSpec AccProofs AccProps.
From Verif Require Import CallModel CallSpec CallProofs CallProps ReturnModel ReturnSpec ReturnProofs.
Import ListNotations.

(** A call that was made and returned: the function returned what its type says. *)
Theorem C53_returned : forall tr e l f gs r c,
  few_parameters f -> invoke tr e l f gs = Some (Done r) -> r_called r = Some c ->
  exists a, f_body f c = Some a /\ fits_type (f_returns f) a.
Proof.
  intros tr e l f gs r c Hf H Hc. destruct (invoke_delivers tr e l f gs r c Hf H Hc) as (i & D & _).
  destruct (deliver_inv _ _ _ _ _ _ D) as (_ & a & Ha & F & _). eauto.
Qed.
Print Assumptions C53_returned.

(** A void function: an empty variant. *)
Theorem C53_void : forall tr e l f gs r,
  few_parameters f -> f_returns f = RVoid -> invoke tr e l f gs = Some (Done r) -> r_variant r = None.
Proof.
  intros tr e l f gs r Hf Hv H. destruct (r_called r) as [c|] eqn:Hc.
  - destruct (invoke_delivers tr e l f gs r c Hf H Hc) as (i & D & _).
    destruct (deliver_inv _ _ _ _ _ _ D) as (_ & a & _ & F & K). rewrite Hv in F. destruct a; try contradiction. apply K.
  - destruct (invoke_inv tr e l f gs r Hf H) as (g & rest & -> & _ & _ & K). destruct (f_kind f) as [params|m].
    + destruct K as (c & _ & _ & D). rewrite (proj1 (deliver_inv _ _ _ _ _ _ D)) in Hc. discriminate.
    + destruct (instance_variant (as_instance l g)) as [k v]. destruct K as ([x|] & _ & K).
      * destruct K as (c & _ & _ & D). rewrite (proj1 (deliver_inv _ _ _ _ _ _ D)) in Hc. discriminate.
      * subst r. reflexivity.
Qed.
Print Assumptions C53_void.

(** A value: the variant holds it as its own, tells its type without const, and gives it back as what the function said,
    by is, to and ref. *)
Theorem C53_value : forall tr e l f gs r c T,
  few_parameters f -> f_returns f = RType (mkQ RNone T) -> usable T -> is_array T = false ->
  invoke tr e l f gs = Some (Done r) -> r_called r = Some c ->
  exists d x, f_body f c = Some (Yields d) /\ r_variant r = Some x /\ r_alive r = true /\
    c_form x = Val /\ c_ptr x = d_ptr d /\ c_vals x = d_vals d /\ c_bytes x = d_bytes d /\
    v_typeId (r_variant r) = Some (mkQ RNone (copy_type T)) /\
    (forall k, v_is e k (r_variant r) (mkQ RNone T) = Got true /\ (e_copies e T = true -> v_to e k (r_variant r) T = Got Same)) /\
    access e RefL (r_variant r) (copy_type T) = Got (Some Whole).
Proof.
  intros tr e l f gs r c T Hf HT Hu Ha H Hc. destruct (invoke_delivers tr e l f gs r c Hf H Hc) as (i & D & _).
  destruct (deliver_inv _ _ _ _ _ _ D) as (_ & a & Hb & F & K). rewrite HT in F. destruct a as [|s d|d|v]; try contradiction.
  destruct K as (T' & HT' & Hv & Hal). rewrite HT in HT'. injection HT' as <-. exists d, (keep T (at_result l) d). rewrite Hv.
  repeat (split; [solve [auto]|]). split; [|split].
  - unfold v_typeId, type_id. rewrite (keep_stored T _ d Ha). reflexivity.
  - intro k. apply keep_is; auto.
  - apply keep_access, Ha.
Qed.
Print Assumptions C53_value.

(** A reference or a std::reference_wrapper: the variant refers to the very object, tells its type, const or not, and
    gives access to it as what the function said. *)
Theorem C53_reference : forall tr e l f gs r c T,
  few_parameters f -> refers_type (f_returns f) = Some T ->
  invoke tr e l f gs = Some (Done r) -> r_called r = Some c ->
  exists s d x, f_body f c = Some (Refers s d) /\ r_variant r = Some x /\ c_form x = Refw /\
    (forall y, s = Outside y -> c_at x = y /\ r_alive r = true) /\
    v_typeId (r_variant r) = Some (mkQ RNone T) /\ v_is e false (r_variant r) (mkQ RL T) = Got true /\
    access e RefL (r_variant r) T = Got (Some (if is_array T then Elements else Whole)).
Proof.
  intros tr e l f gs r c T Hf HT H Hc. destruct (invoke_delivers tr e l f gs r c Hf H Hc) as (i & D & _).
  destruct (deliver_inv _ _ _ _ _ _ D) as (_ & a & Hb & F & K).
  assert (exists s d, a = Refers s d) as (s & d & ->).
  { destruct (f_returns f) as [|[[] U]| |U]; try discriminate; destruct a; try contradiction; eauto. }
  destruct K as (T' & x & HT' & Hx & Hv & Hal). rewrite HT in HT'. injection HT' as <-. exists s, d, (refer_to T x d). rewrite Hv.
  repeat (split; [solve [auto]|]). split; [|split; [reflexivity|split]].
  - intros y ->. cbn in Hx. injection Hx as ->. split; [reflexivity|exact Hal].
  - exact (refer_is e false T x d).
  - apply refer_access.
Qed.
Print Assumptions C53_reference.

(** A reference to const gives no access but as const, through no accessor. *)
Theorem C53_const_kept : forall tr e l f gs r c T a U p,
  wf_env e -> few_parameters f -> refers_type (f_returns f) = Some T -> usable T -> usable U ->
  invoke tr e l f gs = Some (Done r) -> r_called r = Some c -> access e a (r_variant r) U = Got (Some p) ->
  forall j, const_at T j = true -> const_at (q_ty (AccSpec.returned a U)) j = true.
Proof.
  intros tr e l f gs r c T a U p Hw Hf HT Hu HU H Hc Ha j Hj.
  destruct (invoke_delivers tr e l f gs r c Hf H Hc) as (i & D & _). destruct (deliver_inv _ _ _ _ _ _ D) as (_ & b & Hb & F & K).
  assert (exists s d, b = Refers s d) as (s & d & ->).
  { destruct (f_returns f) as [|[[] V]| |V]; try discriminate; destruct b; try contradiction; eauto. }
  destruct K as (T' & x & HT' & Hx & Hv & Hal). rewrite HT in HT'. injection HT' as <-. rewrite Hv in Ha.
  apply (C23_const_is_kept e a (refer_to T x d) U p Hw Hu HU Ha j). unfold protected. change (held (refer_to T x d)) with T.
  rewrite Hj. reflexivity.
Qed.
Print Assumptions C53_const_kept.

(** The type announced by returnTypeId is, but for const and references, the type of the variant. *)
Theorem C53_announced : forall tr e l f gs r c lib q,
  few_parameters f -> f_returns f = RType q -> usable (q_ty q) -> (q_ref q = RNone -> is_array (q_ty q) = false) ->
  invoke tr e l f gs = Some (Done r) -> r_called r = Some c ->
  exists t, v_typeId (r_variant r) = Some (mkQ RNone t) /\ full_decay (mkQ RNone t) = full_decay (returnTypeId lib f) /\
    (q_ref q = RL -> t = q_ty q) /\ (is_const (q_ty q) = false -> t = q_ty q).
Proof.
  intros tr e l f gs r c lib q Hf Hq Hu Ha H Hc. unfold returnTypeId. rewrite Hq. destruct q as [[] T]; cbn [q_ty q_ref] in *.
  - destruct (C53_value tr e l f gs r c T Hf Hq Hu (Ha eq_refl) H Hc) as (d & x & _ & _ & _ & _ & _ & _ & _ & Ht & _).
    exists (copy_type T). specialize (Ha eq_refl). split; [exact Ht|]. split; [|split; [discriminate|]].
    + unfold full_decay. f_equal. cbn [q_ty]. destruct T as [c0 v b|c0 v t|]; try discriminate; cbn; try reflexivity.
      destruct (b_kind b); reflexivity.
    + intro Hk. destruct Hu as [[Hv _] _]. destruct T as [c0 v b|c0 v t|]; try discriminate; cbn in *; subst; destruct v; try discriminate; reflexivity.
  - assert (E : refers_type (f_returns f) = Some T) by (rewrite Hq; reflexivity).
    destruct (C53_reference tr e l f gs r c T Hf E H Hc) as (s & d & x & _ & _ & _ & _ & Ht & _). exists T. auto.
  - exfalso. destruct (C53_returned tr e l f gs r c Hf H Hc) as (a & _ & F). rewrite Hq in F. destruct a; contradiction.
Qed.
Print Assumptions C53_announced.

(** A variant returned by value is what the caller gets, not a variant in a variant. *)
Theorem C53_variant : forall tr e l f gs r c,
  few_parameters f -> f_returns f = RVariant -> invoke tr e l f gs = Some (Done r) -> r_called r = Some c ->
  f_body f c = Some (Gives (r_variant r)).
Proof.
  intros tr e l f gs r c Hf HT H Hc. destruct (invoke_delivers tr e l f gs r c Hf H Hc) as (i & D & _).
  destruct (deliver_inv _ _ _ _ _ _ D) as (_ & a & Hb & F & K). rewrite HT in F. destruct a; try contradiction. destruct K as [<- _]. exact Hb.
Qed.
Print Assumptions C53_variant.

(** A function that returns a reference to a parameter T& (not of a pointer to a class): the variant refers to the
    caller's own object or its base, which exists. *)
Theorem C53_reference_parameter : forall tr e l f gs r c j d T,
  wf_env e -> few_parameters f -> invoke tr e l f gs = Some (Done r) -> r_called r = Some c ->
  f_body f c = Some (Refers (InParam j) d) -> nth_error (parametersTypeId f) j = Some (mkQ RL T) ->
  (forall g, nth_error (actuals f gs) j = Some g -> good_passed (snd g)) -> usable T -> parameter_type T ->
  is_const T = false -> (forall k, ~ pointer_type T k) ->
  exists g x, nth_error (actuals f gs) j = Some g /\ r_variant r = Some x /\ callers_own e g T (c_at x) /\ r_alive r = true.
Proof. exact parameter_lvalue. Qed.
Print Assumptions C53_reference_parameter.

(** The same for a parameter T const&, unless the argument had to be converted or copied. Missing from "it exists": see
    C53_converted_refuted. *)
Theorem C53_const_parameter_partial : forall tr e l f gs r c j d T,
  wf_env e -> few_parameters f -> invoke tr e l f gs = Some (Done r) -> r_called r = Some c ->
  f_body f c = Some (Refers (InParam j) d) -> nth_error (parametersTypeId f) j = Some (mkQ RL T) ->
  (forall g, nth_error (actuals f gs) j = Some g -> good_passed (snd g)) -> usable T -> parameter_type T ->
  is_const T = true -> (forall k, ~ pointer_type T k) ->
  (forall g k ct, nth_error (actuals f gs) j = Some g -> stands_for (snd g) k ct -> is_array (held ct) = false) ->
  exists g x, nth_error (actuals f gs) j = Some g /\ r_variant r = Some x /\
    (callers_own e g (copy_type T) (c_at x) /\ r_alive r = true \/
     (exists t, nth_error (args_of c) j = Some (Temp t)) /\ r_alive r = false).
Proof. exact parameter_const. Qed.
Print Assumptions C53_const_parameter_partial.

(** A member function that returns a reference to its object or a part of it: the variant refers to that part of the
    object that the instance, a variant, a wrapper or a pointer, leads to, and it exists. *)
Theorem C53_self_partial : forall tr e l f m g rest r c off d,
  wf_env e -> few_parameters f -> f_kind f = OfClass m -> b_kind (m_class m) = KClass ->
  no_pointer_converters e -> invoke tr e l f (g :: rest) = Some (Done r) -> r_called r = Some c ->
  f_body f c = Some (Refers (InObject off) d) -> good_given e (m_class m) g ->
  (forall o k, snd g = Object o -> ~ class_type (c_src o) k) ->
  exists x y, leads_to e (b_id (m_class m)) g x /\ r_variant r = Some y /\ c_at y = x + off /\ r_alive r = true.
Proof. exact self_leads. Qed.
Print Assumptions C53_self_partial.

(** invoke returns without having called anything only for a member function on an instance that is neither of a class
    nor a pointer to one; then the variant is empty. *)
Theorem C53_nothing_called : forall tr e l f gs r,
  few_parameters f -> invoke tr e l f gs = Some (Done r) -> r_called r = None ->
  r_variant r = None /\ exists m g rest, f_kind f = OfClass m /\ gs = g :: rest /\ length rest = length (m_params m) /\
    let v := snd (instance_variant (as_instance l g)) in holds_class v = false /\ holds_class_ptr v = false.
Proof.
  intros tr e l f gs r Hf H Hc. destruct (invoke_inv tr e l f gs r Hf H) as (g & rest & -> & _ & Hlen & K).
  unfold actuals, parametersTypeId in Hlen. destruct (f_kind f) as [params|m].
  - destruct K as (c & _ & _ & D). rewrite (proj1 (deliver_inv _ _ _ _ _ _ D)) in Hc. discriminate.
  - destruct (instance_variant (as_instance l g)) as [k v] eqn:Ei. destruct K as ([x|] & M & K).
    + destruct K as (c & _ & _ & D). rewrite (proj1 (deliver_inv _ _ _ _ _ _ D)) in Hc. discriminate.
    + subst r. split; [reflexivity|]. exists m, g, rest. rewrite Ei. cbn [tl] in Hlen. repeat (split; [solve [auto]|]). cbn [snd].
      unfold member_object in M. destruct v as [ct|]; [|split; reflexivity]. destruct (holds_class (Some ct)).
      * destruct (k && negb (m_const m)); [discriminate|].
        destruct (ref_object e k ct (class_t (m_class m) (m_const m))); discriminate.
      * destruct (holds_class_ptr (Some ct)); [|auto].
        destruct (ptr_object e k ct (class_t (m_class m) (m_const m))); discriminate.
Qed.
Print Assumptions C53_nothing_called.

(** A static function whose arguments bind is called and, if it returns what its type says, so does invoke; if it throws,
    the exception comes through. *)
Theorem C53_static_result : forall tr e l f params gs bs,
  few_parameters f -> f_kind f = Static params -> compiles tr (f_returns f) = true ->
  gs <> [] -> (forall g, nth_error gs 0 = Some g -> may_be_instance tr g = true) ->
  length gs = length params -> bound_in_order e params (map as_argument gs) bs ->
  let c := Call None bs in
  match f_body f c with
  | None => invoke tr e l f gs = Some Exception
  | Some a => fits_type (f_returns f) a -> (forall s d, a = Refers s d -> exists x, spot_at l (map as_argument gs) c s = Done x) ->
      exists r, invoke tr e l f gs = Some (Done r) /\ r_called r = Some c
  end.
Proof.
  intros tr e l f params gs bs Hf Hk Hcp Hne Hfirst Hlen Hb c. unfold invoke. rewrite Hcp. cbn [negb].
  destruct gs as [|g rest]; [contradiction|]. rewrite (Hfirst g eq_refl). unfold few_parameters, parametersTypeId in Hf. rewrite Hk in *.
  destruct (Nat.ltb_spec 10 (length (g :: rest))) as [L|L]; [lia|]. cbn [orb negb].
  assert (S : invoke_static e params (map as_argument (g :: rest)) = Done c).
  { apply static_called; [rewrite map_length; lia|apply few_small, Hf|]. rewrite leading_given. auto. }
  rewrite S. cbn [andThen]. unfold deliver. destruct (f_body f c) as [a|]; [|reflexivity]. intros F Hs.
  destruct (f_returns f) as [|[[] T]| |T], a as [|s d|d|v]; try contradiction;
    try (destruct (Hs s d eq_refl) as [x ->]); cbn [andThen]; eexists; (split; [reflexivity|reflexivity]).
Qed.
Print Assumptions C53_static_result.

(** The same for a member function on an instance that names an object of its class that it may be called on (C29). *)
Theorem C53_member_result : forall tr e l f m g rest bs k ct x w,
  wf_env e -> few_parameters f -> f_kind f = OfClass m -> compiles tr (f_returns f) = true ->
  may_be_instance tr g = true -> length rest < 10 ->
  instance_variant (as_instance l g) = (k, Some ct) -> b_kind (m_class m) = KClass -> pointers_copy e ->
  usable (c_src ct) -> one_class ct (m_class m) -> names e k ct (b_id (m_class m)) x w -> w = true \/ m_const m = true ->
  length rest = length (m_params m) -> bound_in_order e (m_params m) (map as_argument rest) bs ->
  let c := Call (Some x) bs in
  match f_body f c with
  | None => invoke tr e l f (g :: rest) = Some Exception
  | Some a => fits_type (f_returns f) a -> (forall s d, a = Refers s d -> exists x, spot_at l (map as_argument rest) c s = Done x) ->
      exists r, invoke tr e l f (g :: rest) = Some (Done r) /\ r_called r = Some c
  end.
Proof.
  intros tr e l f m g rest bs k ct x w Hw Hf Hk Hcp Hfirst L Ei Hb Hpc Hu Ho N Hq Hlen Hbd c.
  unfold invoke. rewrite Hcp, Hfirst. cbn [negb]. unfold few_parameters, parametersTypeId in Hf. rewrite Hk in *.
  destruct (Nat.ltb_spec 10 (length (g :: rest))) as [L'|_]; [cbn in L'; lia|]. cbn [orb]. rewrite Ei.
  assert (S : invoke_method e k (Some ct) m (map as_argument rest) = Done (Some c)).
  { apply (C29_callable e k ct m x w Hw Hb Hpc Hu Ho N Hq); [rewrite leading_given; exact Hlen|rewrite map_length; lia|exact Hbd]. }
  rewrite S. cbn [andThen]. unfold deliver. destruct (f_body f c) as [a|]; [|reflexivity]. intros F Hs.
  destruct (f_returns f) as [|[[] T]| |T], a as [|s d|d|v]; try contradiction;
    try (destruct (Hs s d eq_refl) as [y ->]); cbn [andThen]; eexists; (split; [reflexivity|reflexivity]).
Qed.
Print Assumptions C53_member_result.

(** A constructor: a variant that holds a new object of the class, of the announced type. *)
Theorem C53_constructor : forall tr e l lib C params build gs r,
  length params <= 10 -> is_array C = false -> construct tr e l C params build gs = Some (Done r) ->
  exists c d x, r_called r = Some c /\ on c = None /\ bound_in_order e params (map as_argument gs) (args_of c) /\
    length gs = length params /\ build c = Some d /\
    r_variant r = Some x /\ c_form x = Val /\ c_vals x = d_vals d /\ r_alive r = true /\
    v_typeId (r_variant r) = Some (mkQ RNone (copy_type C)) /\ returnTypeId lib (constructor C params build) = mkQ RNone C.
Proof.
  intros tr e l lib C params build gs r Hp Ha H. unfold construct in H. destruct (negb _); [discriminate|]. cbn [orb] in H.
  destruct (Nat.ltb_spec 10 (length gs)) as [L|L]; [discriminate|]. injection H as H.
  destruct (invoke_static e params (map as_argument gs)) as [c| | | | |] eqn:S; try discriminate. cbn [andThen] in H.
  apply static_called in S as (Hl & Ho & Hb); [|rewrite map_length; exact L|apply few_small, Hp]. rewrite leading_given in Hl.
  unfold deliver in H. cbn [f_body f_returns constructor] in H. destruct (build c) as [d|] eqn:Hd; [|discriminate]. injection H as <-.
  exists c, d, (keep C (at_result l) d). cbn [r_called r_variant r_alive]. repeat (split; [solve [auto]|]). split; [|reflexivity].
  unfold v_typeId, type_id. rewrite (keep_stored C _ d Ha). reflexivity.
Qed.
Print Assumptions C53_constructor.

Lemma into_storable : forall tr rv T, into_variant tr rv T = true <-> storable tr rv T.
Proof.
  intros tr rv T. unfold into_variant. rewrite orb_true_iff, !andb_true_iff, negb_true_iff. split.
  - intros [H|[[H1 H2] H3]]; [apply ByCopy|apply ByMove]; assumption.
  - intros [H|H1 H2 H3]; auto.
Qed.

Lemma prvalue_call : forall T U, call_type T U <-> U = prvalue T.
Proof.
  intros T U. split.
  - intros [k (c & v & b & -> & Hb & _)|H].
    + unfold prvalue, kind_is. rewrite Hb. reflexivity.
    + destruct T as [c v b| |]; try reflexivity. cbn. destruct (kind_is KClass b) eqn:E; [|reflexivity].
      exfalso. apply (H (b_id b)). exists c, v, b. repeat split. unfold kind_is in E. destruct (b_kind b); try discriminate. reflexivity.
  - intros ->. destruct T as [c v b|c v t|t n]; cbn.
    + destruct (kind_is KClass b) eqn:E.
      * apply (OfClassType _ (b_id b)). exists c, v, b. repeat split. unfold kind_is in E. destruct (b_kind b); try discriminate. reflexivity.
      * apply OfOtherType. intros k (c' & v' & b' & Eb & Hb & _). injection Eb as <- <- <-. unfold kind_is in E. rewrite Hb in E. discriminate.
    + apply OfOtherType. intros k (c' & v' & b' & Eb & _). discriminate.
    + apply OfOtherType. intros k (c' & v' & b' & Eb & _). discriminate.
Qed.

(** What does not compile: exactly functions that return rvalue references or values that cannot go into a variant, no
    first argument, more than ten, or a first argument that a variant cannot be made of. *)
Theorem C53_compiles : forall tr e l f gs,
  invoke tr e l f gs <> None <->
  (match f_returns f with
   | RType (mkQ RR _) => False
   | RType (mkQ RNone T) => forall U, call_type T U -> storable tr true U
   | _ => True
   end /\ 1 <= length gs <= 10 /\
   forall rv c, nth_error gs 0 = Some (rv, Object c) -> storable tr rv (c_src c)).
Proof.
  intros tr e l f gs. unfold invoke.
  assert (X : compiles tr (f_returns f) = true <-> match f_returns f with
   | RType (mkQ RR _) => False | RType (mkQ RNone T) => forall U, call_type T U -> storable tr true U | _ => True end).
  { unfold compiles. destruct (f_returns f) as [|[[] T]| |T]; try intuition congruence. rewrite into_storable. split.
    - intros H U HU. apply prvalue_call in HU as ->. exact H.
    - intro H. apply H, prvalue_call. reflexivity. }
  destruct (compiles tr (f_returns f)); cbn [negb].
  - destruct gs as [|g rest]; [split; [congruence|]; cbn; lia|].
    destruct (Nat.ltb_spec 10 (length (g :: rest))) as [L|L]; cbn [orb]; [split; [congruence|]; lia|].
    destruct (may_be_instance tr g) eqn:E; cbn [negb].
    + split; [|intros _; discriminate]. intros _. split; [apply X; reflexivity|]. split; [cbn in *; lia|].
      intros rv c Eg. cbn in Eg. injection Eg as ->. apply into_storable. exact E.
    + split; [congruence|]. intros (_ & _ & K). destruct g as [rv [c|c|k v]]; try discriminate.
      specialize (K rv c eq_refl). apply into_storable in K. unfold may_be_instance in E. cbn [fst snd] in E. congruence.
  - split; [congruence|]. intros [K _]. apply X in K. discriminate.
Qed.
Print Assumptions C53_compiles.

(** A constructor may be called with any arguments, up to ten, and with none. *)
Theorem C53_constructor_compiles : forall tr e l C params build gs k,
  class_type C k -> (construct tr e l C params build gs <> None <-> storable tr true C /\ length gs <= 10).
Proof.
  intros tr e l C params build gs k HC. unfold construct, compiles. rewrite <- into_storable.
  rewrite <- (proj1 (prvalue_call C C) (OfClassType C k HC)).
  destruct (into_variant tr true C), (Nat.ltb_spec 10 (length gs)) as [L|L]; cbn [negb orb]; split; intuition (try congruence; try lia).
Qed.
Print Assumptions C53_constructor_compiles.

(** ** Cases *)

Definition place : layout := Layout 700 800 (fun i => 1000 + i).
Definition t_float := TBase false false b_float.
Definition some_traits : traits := Traits (fun t => match t with TBase _ _ b => negb (b_id b =? 3) | _ => true end) (fun _ => true).
Definition lib0 : library := Library {| b_kind := KVoid; b_id := 0; b_size := 0; b_traits := 0 |} (b_class 90) (fun _ => b_class 91).
Definition of n : datum := Datum None [n] [n].
Definition static_fn params r a : function := Function (Static params) r (fun _ => a).
Definition member_fn k c params r a : function := Function (OfClass {| m_class := b_class k; m_const := c; m_params := params |}) r (fun _ => a).
Definition int_at x n : given := (false, Object (value t_int x [n])).
Definition box k x : given := (false, Variant false (Some (value (t_class k) x [7]))).

(** void f(int); T const f() of a class; int f(int); int& f(int&); int const& f(int const&) *)
Example C53_case_results :
  invoke some_traits world place (static_fn [byval t_int] RVoid (Some Nil)) [int_at 900 1]
    = Some (Done (Result (Some (Call None [Temp Same])) None true)) /\
  invoke some_traits world place (static_fn [byval t_int] (RType (byval t_int)) (Some (Yields (of 5)))) [int_at 900 1]
    = Some (Done (Result (Some (Call None [Temp Same])) (Some (keep t_int 700 (of 5))) true)) /\
  invoke some_traits world place (static_fn [lref t_int] (RType (lref t_int)) (Some (Refers (InParam 0) (of 1)))) [int_at 900 1]
    = Some (Done (Result (Some (Call None [Direct Whole])) (Some (refer_to t_int 900 (of 1))) true)) /\
  invoke some_traits world place (static_fn [lref t_cint] (RType (lref t_cint)) (Some (Refers (InParam 0) (of 1)))) [int_at 900 1]
    = Some (Done (Result (Some (Call None [Direct Whole])) (Some (refer_to t_cint 900 (of 1))) true)) /\
  invoke some_traits world place (static_fn [byval t_int] (RWrapper t_int) (Some (Refers (Outside 333) (of 1)))) [int_at 900 1]
    = Some (Done (Result (Some (Call None [Temp Same])) (Some (refer_to t_int 333 (of 1))) true)) /\
  invoke some_traits world place (static_fn [byval t_int] RVariant (Some (Gives (Some (value (t_class 2) 500 [7]))))) [int_at 900 1]
    = Some (Done (Result (Some (Call None [Temp Same])) (Some (value (t_class 2) 500 [7])) true)) /\
  invoke some_traits world place (static_fn [byval t_int] RVoid None) [int_at 900 1] = Some Exception /\
  invoke some_traits world place (member_fn 0 false [] (RType (lref t_int)) (Some (Refers (InObject 8) (of 1)))) [box 2 500]
    = Some (Done (Result (Some (Call (Some 516) [])) (Some (refer_to t_int 524 (of 1))) true)) /\
  construct some_traits world place (t_class 2) [byval t_int] (fun _ => Some (of 7)) [int_at 900 1]
    = Some (Done (Result (Some (Call None [Temp Same])) (Some (keep (t_class 2) 700 (of 7))) true)) /\
  construct some_traits world place (t_class 2) [] (fun _ => Some (of 7)) []
    = Some (Done (Result (Some (Call None [])) (Some (keep (t_class 2) 700 (of 7))) true)).
Proof. repeat split. Qed.

(** C53_value, C53_reference, C53_const_kept, C53_announced apply to them. *)
Example C53_case_values :
  exists r c, invoke some_traits world place (static_fn [byval t_int] (RType (byval t_cint)) (Some (Yields (of 5)))) [int_at 900 1] = Some (Done r) /\
    r_called r = Some c /\ usable t_cint /\ is_array t_cint = false /\
    v_typeId (r_variant r) = Some (byval t_int) /\ v_to world false (r_variant r) t_int = Got Same.
Proof. do 2 eexists. split; [reflexivity|]. split; [reflexivity|]. split; [usable_tac|]. repeat split. Qed.

Example C53_case_references :
  exists r c, invoke some_traits world place (static_fn [lref t_cint] (RType (lref t_cint)) (Some (Refers (InParam 0) (of 1)))) [int_at 900 1] = Some (Done r) /\
    r_called r = Some c /\ usable t_cint /\ v_typeId (r_variant r) = Some (byval t_cint) /\
    access world RefL (r_variant r) t_cint = Got (Some Whole) /\ access world RefL (r_variant r) t_int = Throw /\
    access world CRefC (r_variant r) t_int = Got (Some Whole) /\ const_at t_cint 0 = true.
Proof. do 2 eexists. split; [reflexivity|]. split; [reflexivity|]. split; [usable_tac|]. repeat split. Qed.

Example C53_case_parameter :
  let f := static_fn [byval t_int; lref (t_class 0)] (RType (lref (t_class 0))) (Some (Refers (InParam 1) (of 1))) in
  let gs := [int_at 900 1; (false, Object (value (t_class 2) 500 [7]))] in
  exists r c, invoke some_traits world place f gs = Some (Done r) /\ r_called r = Some c /\
    few_parameters f /\ nth_error (parametersTypeId f) 1 = Some (mkQ RL (t_class 0)) /\
    (forall g, nth_error (actuals f gs) 1 = Some g -> good_passed (snd g)) /\ usable (t_class 0) /\ parameter_type (t_class 0) /\
    (forall k, ~ pointer_type (t_class 0) k) /\ r_variant r = Some (refer_to (t_class 0) 516 (of 1)) /\ r_alive r = true.
Proof.
  intros f gs. do 2 eexists. split; [reflexivity|]. split; [reflexivity|]. split; [unfold few_parameters; cbn; lia|]. split; [reflexivity|].
  split; [|split; [usable_tac|split; [cbn; discriminate|split; [|split; reflexivity]]]].
  - intros g E. cbn in E. injection E as <-. intros k c S. inversion S; subst. split; [usable_tac|]. intros [i (c1 & v1 & u & E & _)]. discriminate.
  - intros k (c1 & v1 & u & E & _). discriminate.
Qed.

Example C53_case_const_parameter :
  let f := static_fn [lref t_cint; lref t_cint] (RType (lref t_cint)) (Some (Refers (InParam 1) (of 2))) in
  let gs := [int_at 900 1; int_at 901 2] in
  exists r c, invoke some_traits world place f gs = Some (Done r) /\ r_called r = Some c /\
    nth_error (parametersTypeId f) 1 = Some (mkQ RL t_cint) /\ usable t_cint /\ parameter_type t_cint /\
    (forall g, nth_error (actuals f gs) 1 = Some g -> good_passed (snd g)) /\
    (forall g k ct, nth_error (actuals f gs) 1 = Some g -> stands_for (snd g) k ct -> is_array (held ct) = false) /\
    r_variant r = Some (refer_to t_cint 901 (of 2)) /\ r_alive r = true.
Proof.
  intros f gs. do 2 eexists. split; [reflexivity|]. split; [reflexivity|]. split; [reflexivity|]. split; [usable_tac|]. split; [cbn; discriminate|].
  split; [|split; [|split; reflexivity]].
  - intros g E. cbn in E. injection E as <-. intros k c S. inversion S; subst. split; [usable_tac|]. intros [i (c1 & v1 & u & E & _)]. discriminate.
  - intros g k ct E. cbn in E. injection E as <-. intro S. inversion S; subst. reflexivity.
Qed.

Example C53_case_self :
  let f := member_fn 0 false [] (RType (lref t_int)) (Some (Refers (InObject 8) (of 1))) in
  exists r c, invoke some_traits world place f [box 2 500] = Some (Done r) /\ r_called r = Some c /\
    no_pointer_converters world /\ good_given world (b_class 0) (box 2 500) /\
    (forall o k, snd (box 2 500) = Object o -> ~ class_type (c_src o) k) /\
    leads_to world 0 (box 2 500) 516 /\ r_variant r = Some (refer_to t_int 524 (of 1)) /\ r_alive r = true.
Proof.
  intros f. do 2 eexists. split; [reflexivity|]. split; [reflexivity|]. split; [exact world_no_pointer_converters|].
  split; [|split; [|split; [|split; reflexivity]]].
  - intros k c S. inversion S; subst. split; [usable_tac|]. split.
    + intros [i (c1 & v1 & u & E & _)]. discriminate.
    + intros t [E|(c1 & v1 & E)] (c2 & v2 & b & Et & _ & Hb); [|discriminate]. rewrite <- E in Et. injection Et as <- <- <-. discriminate.
  - discriminate.
  - eapply LeadsVariant. eapply (NamesBase _ _ _ _ _ 2); [repeat eexists|discriminate|].
    apply (cast_imp_spec world (value (t_class 2) 500 [7]) 0 world_ok eq_refl). reflexivity.
Qed.

(** A move-only class may be returned by value, a const one may not. *)
Example C53_case_compiles :
  storable some_traits true (t_class 3) /\ ~ storable some_traits false (t_class 3) /\ ~ storable some_traits true (t_cclass 3) /\
  call_type (t_cclass 3) (t_cclass 3) /\ call_type t_cint t_int.
Proof.
  split; [apply ByMove; reflexivity|]. split; [intros [H|H]; discriminate|]. split; [intros [H|H1 H2 H3]; discriminate|].
  split; apply prvalue_call; reflexivity.
Qed.

Example C53_case_nothing_called :
  invoke some_traits world place (member_fn 0 false [byval t_int] (RType (byval t_int)) (Some (Yields (of 5)))) [int_at 900 1; int_at 901 2]
    = Some (Done (Result None None true)).
Proof. reflexivity. Qed.

Example C53_case_called :
  let f := member_fn 0 false [byval t_int] (RType (byval t_int)) (Some (Yields (of 5))) in
  may_be_instance some_traits (box 2 500) = true /\ instance_variant (as_instance place (box 2 500)) = (false, Some (value (t_class 2) 500 [7])) /\
  names world false (value (t_class 2) 500 [7]) 0 516 true /\ pointers_copy world /\
  bound_in_order world [byval t_int] (map as_argument [int_at 901 2]) [Temp Same] /\ few_parameters f /\
  compiles some_traits (f_returns f) = true /\
  bound_in_order world [byval t_int] (map as_argument [int_at 900 1]) [Temp Same].
Proof.
  intro f. split; [reflexivity|]. split; [reflexivity|]. split.
  - change true with (negb (protected false (held (value (t_class 2) 500 [7])) 0)).
    eapply (NamesBase _ _ _ _ _ 2); [repeat eexists|discriminate|].
    apply (cast_imp_spec world (value (t_class 2) 500 [7]) 0 world_ok eq_refl). reflexivity.
  - split; [exact world_pointers_copy|]. repeat split; try reflexivity; unfold few_parameters; cbn; try lia.
    + intros [|[|i]] q a b; cbn; intros E1 E2 E3; try discriminate. injection E1 as <-. injection E2 as <-. injection E3 as <-. reflexivity.
    + intros [|[|i]] q a b; cbn; intros E1 E2 E3; try discriminate. injection E1 as <-. injection E2 as <-. injection E3 as <-. reflexivity.
Qed.

(** ** What does not hold *)

(** A function returns one of its own parameters, of type float const&, and is given an int: the variant that comes back
    refers to a float that is gone. In a direct call the temporary would last as long as the caller's expression, to the
    end of which the result can be used. *)
Theorem C53_converted_refuted : exists f g r c d,
  f_body f c = Some (Refers (InParam 0) d) /\ nth_error (parametersTypeId f) 0 = Some (mkQ RL (add_const t_float)) /\
  invoke some_traits world place f [g] = Some (Done r) /\ r_called r = Some c /\
  access world CRefC (r_variant r) t_float = Got (Some Whole) /\ option_map c_at (r_variant r) = Some (at_argument place 0) /\ r_alive r = false.
Proof.
  exists (static_fn [lref (add_const t_float)] (RType (lref (add_const t_float))) (Some (Refers (InParam 0) (of 1)))), (int_at 900 1).
  do 3 eexists. repeat split.
Qed.
Print Assumptions C53_converted_refuted.

(** A member function that returns a reference to its object, a const one, called on an object that is itself passed as the
    instance: it works on a copy that is gone when invoke returns. *)
Theorem C53_self_refuted : exists f o r c y,
  f_returns f = RType (mkQ RL (t_cclass 0)) /\ (forall c, f_body f c = Some (Refers (InObject 0) (of 7))) /\ c_src o = t_class 0 /\
  invoke some_traits world place f [(false, Object o)] = Some (Done r) /\ r_called r = Some c /\
  r_variant r = Some y /\ c_at y <> c_at o /\ on c = Some (c_at y) /\ r_alive r = false.
Proof.
  exists (member_fn 0 true [] (RType (lref (t_cclass 0))) (Some (Refers (InObject 0) (of 7)))), (value (t_class 0) 500 [7]).
  do 3 eexists. repeat split. discriminate.
Qed.
Print Assumptions C53_self_refuted.

(** An empty variant does not say that a void function was called: the same comes back if nothing was. *)
Theorem C53_empty_is_void_refuted : exists f g g' r r',
  invoke some_traits world place f [g] = Some (Done r) /\ invoke some_traits world place f [g'] = Some (Done r') /\
  r_called r <> None /\ r_called r' = None /\ r_variant r = r_variant r'.
Proof.
  exists (member_fn 0 false [] RVoid (Some Nil)), (box 2 500), (int_at 900 1). do 2 eexists. repeat split. discriminate.
Qed.
Print Assumptions C53_empty_is_void_refuted.

(** returnTypeId is not the type of the variant: for a variant by value, nor for a const class by value. *)
Theorem C53_announced_refuted : exists f f' g r r',
  invoke some_traits world place f [g] = Some (Done r) /\ invoke some_traits world place f' [g] = Some (Done r') /\
  v_typeId (r_variant r) = Some (mkQ RNone t_int) /\ full_decay (returnTypeId lib0 f) <> mkQ RNone t_int /\
  returnTypeId lib0 f' = mkQ RNone (t_cclass 0) /\ v_typeId (r_variant r') = Some (mkQ RNone (t_class 0)).
Proof.
  exists (static_fn [byval t_int] RVariant (Some (Gives (Some (value t_int 900 [1]))))),
         (static_fn [byval t_int] (RType (byval (t_cclass 0))) (Some (Yields (of 7)))), (int_at 900 1).
  do 2 eexists. repeat split. discriminate.
Qed.
Print Assumptions C53_announced_refuted.

(** A call that is well-formed in C++ and would bind, but does not compile through the library: a static function that
    takes a reference is given an object that cannot be copied; an rvalue reference comes back. *)
Theorem C53_compiles_refuted : exists f g f' g',
  invoke_static world (parametersTypeId f) [as_argument g] = Done (Call None [Direct Whole]) /\
  invoke some_traits world place f [g] = None /\
  f_returns f' = RType (mkQ RR t_int) /\ invoke_static world (parametersTypeId f') [as_argument g'] = Done (Call None [Temp Same]) /\
  invoke some_traits world place f' [g'] = None.
Proof.
  exists (static_fn [lref (t_class 3)] RVoid (Some Nil)), (false, Object (value (t_class 3) 500 [7])),
         (static_fn [byval t_int] (RType (rref t_int)) (Some (Refers (Outside 333) (of 1)))), (int_at 900 1).
  repeat split.
Qed.
Print Assumptions C53_compiles_refuted.
