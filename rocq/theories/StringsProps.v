(** Property theorems C08, C32, C34, C38. *)
From Coq Require Import List Bool Arith NArith String Ascii Lia Permutation.
From Verif Require Import Util ListsModel StringsModel StringsSpec StringsProofs TypesModel.
Import ListNotations.
Local Open Scope list_scope.

(** ** C08 *)

(** The first item that answers the query, in registration order; never an exception. *)
Theorem C08_first_match : forall (A : Type) (nm : A -> text) l q, q <> [] ->
  (exists l1 a l2, l = l1 ++ a :: l2 /\ getMethod nm l q = FSome a /\ answers (nm a) q /\
     Forall (fun b => ~ answers (nm b) q) l1)
  \/ (getMethod nm l q = FNone /\ Forall (fun b => ~ answers (nm b) q) l).
Proof. intros A nm l [|c q] H; [congruence|]. apply (findMethod_spec nm l (c :: q)). Qed.
Print Assumptions C08_first_match.

Theorem C08_empty_query : forall (A : Type) (nm : A -> text) l, getMethod nm l [] = FNone.
Proof. reflexivity. Qed.
Print Assumptions C08_empty_query.

(** A constructor look-up (src/metacontainer.cpp:279-283) has no guard for the empty query but the same law. *)
Theorem C08_constructor_first_match : forall (A : Type) (nm : A -> text) l q,
  (exists l1 a l2, l = l1 ++ a :: l2 /\ findMethod nm l q = FSome a /\ answers (nm a) q /\
     Forall (fun b => ~ answers (nm b) q) l1)
  \/ (findMethod nm l q = FNone /\ Forall (fun b => ~ answers (nm b) q) l).
Proof. exact @findMethod_spec. Qed.
Print Assumptions C08_constructor_first_match.

(** A method with a plain name is found by it, unless an earlier one also answers. *)
Theorem C08_bare_name_found : forall (A : Type) (nm : A -> text) l n args a,
  n <> [] -> ~ In "("%char n -> In a l -> nm a = signature n args ->
  exists b, getMethod nm l n = FSome b /\ answers (nm b) n.
Proof.
  intros A nm l n args a Hne Hn Hin E. destruct n as [|c n]; [congruence|].
  destruct (findMethod_spec nm l (c :: n)) as [(l1 & x & l2 & -> & Ex & Hx & _)|[_ HF]].
  - exists x. split; [exact Ex|exact Hx].
  - exfalso. rewrite Forall_forall in HF. apply (HF a Hin). right. split; [exact Hn|].
    rewrite E, signature_text. cbn [lit list_ascii_of_string app]. eauto.
Qed.
Print Assumptions C08_bare_name_found.

Definition ex_methods := map txt ["area()"; "scale(int)"; "scale(double)"; "odd"]%string.
Example C08_example :
  getMethod (fun t => t) ex_methods (txt "scale") = FSome (txt "scale(int)") /\
  getMethod (fun t => t) ex_methods (txt "scale(double)") = FSome (txt "scale(double)") /\
  getMethod (fun t => t) ex_methods (txt "odd") = FSome (txt "odd") /\
  getMethod (fun t => t) ex_methods (txt "scal") = FNone /\
  answers (txt "scale(int)") (txt "scale") /\ ~ In "("%char (txt "scale").
Proof.
  repeat split; try reflexivity.
  - right. split; [cbn; intuition discriminate|]. exists (txt "int)"). reflexivity.
  - cbn; intuition discriminate.
Qed.

(** A call operator cannot be found by the name it was registered with. *)
Theorem C08_call_operator_refuted : exists n args,
  getMethod (fun t => t) [signature n args] n = FNone /\ n <> [].
Proof. exists (txt "operator()"), [txt "int"]. split; [reflexivity|discriminate]. Qed.
Print Assumptions C08_call_operator_refuted.

(** ** C34 *)

Theorem C34_signature_identifies : forall n n' l l',
  ~ In "("%char n -> ~ In "("%char n' ->
  Forall (fun a => type_text a = true /\ a <> []) l -> Forall (fun a => type_text a = true /\ a <> []) l' ->
  signature n l = signature n' l' -> n = n' /\ l = l'.
Proof. exact signature_inj. Qed.
Print Assumptions C34_signature_identifies.

Theorem C34_signature_text : forall name args,
  signature name args = name ++ lit "(" ++ joined (lit ", ") args ++ lit ")".
Proof. exact signature_text. Qed.
Print Assumptions C34_signature_text.

(** Looking up by name and parameter types finds a method of exactly that signature if there is one, and
    nothing else. *)
Theorem C34_lookup_by_types : forall (A : Type) (nm : A -> text) (l : list A) n args,
  (forall a, In a l -> nm a = signature n args ->
     exists b, getMethodSig nm l n args = FSome b /\ nm b = signature n args) /\
  (forall b, getMethodSig nm l n args = FSome b -> In b l /\ nm b = signature n args).
Proof.
  intros A nm l n args. split.
  - intros a Hin E. destruct (signature_lookup nm l n args a Hin E) as (b & Hb & Eb). exists b. split; congruence.
  - apply signature_lookup_only.
Qed.
Print Assumptions C34_lookup_by_types.

Example C34_example :
  let args := map txt ["std::map<int, A>"; "void (*)(int, int)"; "const char*"]%string in
  Forall (fun a => type_text a = true /\ a <> []) args /\ ~ In "("%char (txt "f") /\
  signature (txt "f") args = txt "f(std::map<int, A>, void (*)(int, int), const char*)" /\
  getMethodSig (fun t => t) [txt "f(int)"; signature (txt "f") args] (txt "f") args =
    FSome (signature (txt "f") args).
Proof.
  cbn zeta. split; [repeat constructor; discriminate|]. split; [cbn; intuition discriminate|].
  split; reflexivity.
Qed.

(** Parameter names with a comma outside brackets do collide. *)
Theorem C34_bare_comma_refuted : exists n l l', signature n l = signature n l' /\ l <> l'.
Proof. exists (txt "f"), [txt "a, b"], [txt "a"; txt "b"]. split; [reflexivity|discriminate]. Qed.
Print Assumptions C34_bare_comma_refuted.

(** ** C38 *)

(** The compiler prints the enclosing function, then "T = ", the type and the closing bracket; nothing before
    contains the marker. *)
Theorem C38_exact_text : forall pre t,
  (forall a1 a2, pre = a1 ++ a2 -> a2 <> [] ->
     is_prefix (lit "T =") (a2 ++ lit "T =" ++ " "%char :: t ++ lit "]") = false) ->
  type_name (pre ++ lit "T = " ++ t ++ lit "]") = TName t.
Proof. exact type_name_spec. Qed.
Print Assumptions C38_exact_text.

(** What gcc and clang print before the marker for [TypeName<T>::TypeName()]. *)
Definition pre_gcc := lit "rtti::internal::TypeName<T>::TypeName() [with ".
Definition pre_clang := lit "rtti::internal::TypeName<int>::TypeName() [".

Definition clean_prefix (pre : ctext) : bool :=
  negb (existsb (fun k => is_prefix (lit "T =") (skipn k pre ++ lit "T =")) (seq 0 (List.length pre))).

Lemma clean_prefix_ok pre t : clean_prefix pre = true ->
  forall a1 a2, pre = a1 ++ a2 -> a2 <> [] ->
  is_prefix (lit "T =") (a2 ++ lit "T =" ++ " "%char :: t ++ lit "]") = false.
Proof.
  intros H a1 a2 E Hne. unfold clean_prefix in H. apply negb_true_iff in H.
  rewrite app_assoc. rewrite is_prefix_long by (rewrite app_length; cbn; lia).
  destruct (is_prefix (lit "T =") (a2 ++ lit "T =")) eqn:EP; [|reflexivity].
  exfalso. assert (HX : existsb (fun k => is_prefix (lit "T =") (skipn k pre ++ lit "T =")) (seq 0 (List.length pre)) = true).
  { apply existsb_exists. exists (List.length a1). split.
    - apply in_seq. rewrite E, app_length. destruct a2; [congruence|]. cbn. lia.
    - rewrite E, skipn_app_l. exact EP. }
  congruence.
Qed.

(** For every type text, whatever it contains. *)
Theorem C38_exact_text_gcc : forall t, type_name (pre_gcc ++ lit "T = " ++ t ++ lit "]") = TName t.
Proof. intro t. apply type_name_spec. apply clean_prefix_ok. reflexivity. Qed.
Print Assumptions C38_exact_text_gcc.

Example C38_example :
  type_name (pre_gcc ++ lit "T = X<T = 3> [5]" ++ lit "]") = TName (lit "X<T = 3> [5]") /\
  clean_prefix pre_gcc = true /\ clean_prefix pre_clang = true.
Proof. repeat split. Qed.

(** clang puts the argument also before the marker; a type whose own text contains it is cut wrongly. *)
Theorem C38_marker_in_prefix_refuted : exists pre t t',
  type_name (pre ++ lit "T = " ++ t ++ lit "]") = TName t' /\ t' <> t.
Proof.
  exists (lit "TypeName<X<T = 3>>::TypeName() ["), (lit "X<T = 3>"). eexists. split; [vm_compute; reflexivity|discriminate].
Qed.
Print Assumptions C38_marker_in_prefix_refuted.

(** ** C32 *)

(** The printed text names exactly the flags set for, and only for, the four combinations of Const and
    Pointer. *)
Theorem C32_exactly_const_and_pointer : forall v, (v < 2 ^ 24)%N ->
  ((exists out, print_flags v = Some out /\ renders v out) <-> (v <= 3)%N).
Proof. intros v H. split; [apply print_flags_only; exact H|apply print_flags_small]. Qed.
Print Assumptions C32_exactly_const_and_pointer.

(** Any flag from Array on (bar CopyAssignable) makes the printer read outside its table of names. *)
Theorem C32_out_of_bounds_refuted : forall v i, (5 <= i < 24)%N -> i <> 19%N -> N.testbit v i = true ->
  print_flags v = None.
Proof. exact print_flags_ub. Qed.
Print Assumptions C32_out_of_bounds_refuted.

(** What is printed where nothing is read outside the table: the flags among the first five, in this order and under
    these names, of which only those of Const and Pointer are right. *)
Theorem C32_what_is_printed : forall v, (0 < v < 2 ^ 24)%N ->
  (forall i, (5 <= i < 24)%N -> i <> 19%N -> N.testbit v i = false) ->
  print_flags v = Some (joined (lit "|") (map (fun p => lit (snd p)) (filter (fun p => N.testbit v (fst p))
    [(3, "Integral"); (4, "Abstract"); (1, "Pointer"); (2, "LvalueReference"); (0, "Const")]%N%string))).
Proof.
  intros v H L. destruct H as [H0 H]. pose proof (low_bits v H L) as E. rewrite E in H0 |- *. clear - H0.
  destruct (N.testbit v 0), (N.testbit v 1), (N.testbit v 2), (N.testbit v 3), (N.testbit v 4), (N.testbit v 19);
    first [exfalso; revert H0; vm_compute; discriminate | vm_compute; reflexivity].
Qed.
Print Assumptions C32_what_is_printed.

(** In particular the flags of int: Integral, so undefined behaviour. *)
Theorem C32_integral_types_refuted : forall b c v, b_kind b = KIntegral ->
  print_flags (type_flags (mkQ RNone (TBase c v b))) = None.
Proof.
  intros b c v Hk. apply (print_flags_ub _ 7%N); [lia|discriminate|].
  unfold type_flags. cbn [q_ty q_ref base_type fold_right]. rewrite !N.lor_spec.
  unfold kind_is at 3. rewrite Hk. destruct (base_kind_eq_dec KIntegral KIntegral) as [_|H]; [|congruence].
  cbn [flag_if]. replace (N.testbit (2 ^ bIntegral) 7) with true by reflexivity.
  rewrite ?orb_true_r, ?orb_true_l. reflexivity.
Qed.
Print Assumptions C32_integral_types_refuted.

Example C32_example :
  print_flags 3 = Some (lit "Pointer|Const") /\ print_flags 8 = Some (lit "Integral") /\
  print_flags 4 = Some (lit "LvalueReference") /\ print_flags (2 ^ 19) = Some [] /\
  set_flags 8 = [lit "LvalueReference"] /\ N.testbit 128 7 = true.
Proof. repeat split. Qed.
