(** What the repository's tests register and look up (tests/), carried out on the models of registration and of type names.
    See ReplayTests.v for the rest of the tests. *)
From Coq Require Import NArith List Bool Arith String.
From Verif Require Import TypesModel TypesSpec RegistryModel ListsModel StringsModel ReflModel.
From Verif Require ReplayTests.
Import ListNotations.
Local Open Scope list_scope.
Local Open Scope string_scope.

(** tests/register_global_rtti.cpp:58-74; the values of attributes, variables and functions are numbers. *)
Definition register_global_ns : prog :=
  [ KAttr "Description" 1; KAttr "string_attr" 2; KAttr "bool_attr" 3; KAttr "double_attr" 4; KAttr "int_attr" 5; KAttr "enum_attr" 12;
    KProperty "g_string" 21; KProperty "gro_string" 22;
    KMethod "intToStr" [txt "int"; txt "bool&"] 31; KMethod "strToInt" [txt "std::string const&"; txt "bool&"] 32;
    KEnum "operation" 40; KElement "add" 10; KElement "subtract" 11; KElement "multiply" 12; KElement "divide" 13 ].
(** tests/test_single_inheritance.cpp:97-127. Class types are numbered like the classes of ReplayTests.v. *)
Definition register_single : prog :=
  let class n k := KClass n (100 + k) true true true in
  let base k := KBase [(100 + k, 0)] in
  [ KNamespace "test";
      class "BaseA" 0; KEnd; class "SingleA1" 1; base 0; KEnd; class "SingleA2" 2; base 1; KEnd; class "SingleA22" 3; base 1; KEnd;
      class "SingleA3" 4; base 2; KEnd; class "SingleA33" 5; base 2; KEnd; class "SingleA4" 6; base 4; KEnd;
      KMethod "test_class_param [const ptr]" [txt "test::SingleA2 const*"] 51; KMethod "test_class_param [ptr]" [txt "test::SingleA2*"] 52;
      KMethod "test_class_param [const ref]" [txt "test::SingleA2 const&"] 53; KMethod "test_class_param [ref]" [txt "test::SingleA2&"] 54;
      KMethod "test_class_param [rref]" [txt "test::SingleA2&&"] 55;
    KEnd ].
(** tests/test_multiple_inheritance.cpp:71-97 *)
Definition register_multiple : prog :=
  let class n k := KClass n (100 + k) true true true in
  let base l := KBase (map (fun k => (100 + k, 0)) l) in
  [ KNamespace "test";
      class "BaseZ" 7; KEnd; class "BaseY" 8; KEnd; class "BaseX" 9; KEnd; class "DerivedZ1" 10; base [7]; KEnd; class "DerivedY1" 11; base [8]; KEnd;
      class "DerivedX1" 12; base [9]; KEnd; class "DerivedZY2" 13; base [10; 11]; KEnd; class "DerivedZY2BX3" 14; base [13; 9]; KEnd;
      class "DerivedZY2X3" 15; base [13; 12]; KEnd;
    KEnd ].
(** tests/test_variant.cpp:170-181 *)
Definition register_variant : prog :=
  [ KNamespace "test";
      KClass "TestQPointer" 122 true true true; KCtor "" (AOther [txt "std::string_view"]) 61; KMethod "empty" [] 62; KMethod "check" [] 63;
      KProperty "priority" 64; KMethod "value" [] 65; KMethod "const_value" [] 66; KEnd;
    KEnd ].
Definition compiles (t b : nat) := true.
(** RTTI_REGISTER pieces run one after the other. *)
Definition started : option world :=
  match sessions 20 compiles 20 [register_global_ns; register_single; register_multiple; register_variant] with Live w => Some w | Dead => None end.

(** What a query gives. *)
Definition ask {A} (f : world -> out A) : option A :=
  match started with Some w => match f w with Ret _ a => Some a | _ => None end | None => None end.
Definition R := run 20 compiles 20.
Definition get_namespace (n : string) := ask (fun w => get_item R w 0 Namespace n).
Definition then_ {A} (x : option (option nat)) (f : nat -> option A) : option A := match x with Some (Some a) => f a | _ => None end.
Definition in_test (c : cat) (n : string) : option (option nat) := then_ (get_namespace "test") (fun a => ask (fun w => get_item R w a c n)).
Definition invoker (x : option (option nat)) : option nat :=
  then_ x (fun a => match started with Some w => option_map i_inv (get w a) | None => None end).
Definition attrs := match started with Some w => match get w 0 with Some it => i_attrs it | None => nv0 end | None => nv0 end.

(** tests/test_global_ns.cpp:14-75: six attributes, in the order and under the names they were given. *)
Example global_attributes :
  nv_size attrs = 6 /\ map (nv_name attrs) [0; 1; 2; 3; 4; 5] = ["Description"; "string_attr"; "bool_attr"; "double_attr"; "int_attr"; "enum_attr"] /\
  map (nv_find 0 attrs) ["Description"; "string_attr"; "bool_attr"; "double_attr"; "int_attr"; "enum_attr"] = [1; 2; 3; 4; 5; 12].
Proof. vm_compute. repeat split. Qed.

(** 67-75: `v == m_enum->element("multiply")`. *)
Example global_enum :
  then_ (ask (fun w => get_item R w 0 Enum "operation"))
    (fun a => match started with Some w => option_map (fun it => nv_find 0 (i_elems it) "multiply") (get w a) | None => None end) = Some 12 /\
  nv_find 0 attrs "enum_attr" = 12.
Proof. vm_compute. repeat split. Qed.

(** 79-109, 162-165 *)
Example global_members :
  invoker (ask (fun w => get_property R 20 w 0 "g_string")) = Some 21 /\ invoker (ask (fun w => get_property R 20 w 0 "gro_string")) = Some 22 /\
  invoker (ask (fun w => get_method R 20 w 0 "intToStr")) = Some 31 /\ invoker (ask (fun w => get_method R 20 w 0 "strToInt")) = Some 32.
Proof. vm_compute. repeat split. Qed.

(** An object was found; defaultConstructor, copyConstructor and moveConstructor (include/rtti/metacontainer.h:13-16). *)
Definition has (x : option (option nat)) : bool := match x with Some (Some _) => true | _ => false end.
Definition constructor_of (c n : string) : option (option nat) := then_ (in_test Class c) (fun a => ask (fun w => find_method R w a Constructor n)).

(** tests/test_single_inheritance.cpp:185-192, 218, 259, 302, 340. Names with blanks and brackets are found too. *)
Example single_lookup :
  has (in_test Class "SingleA3") = true /\ has (constructor_of "SingleA3" "d_constructor") = true /\
  then_ (get_namespace "test") (fun a => invoker (ask (fun w => get_method R 20 w a "test_class_param [const ptr]"))) = Some 51 /\
  then_ (get_namespace "test") (fun a => invoker (ask (fun w => get_method R 20 w a "test_class_param [ptr]"))) = Some 52 /\
  then_ (get_namespace "test") (fun a => invoker (ask (fun w => get_method R 20 w a "test_class_param [const ref]"))) = Some 53 /\
  then_ (get_namespace "test") (fun a => invoker (ask (fun w => get_method R 20 w a "test_class_param [ref]"))) = Some 54.
Proof. vm_compute. repeat split. Qed.

(** tests/test_multiple_inheritance.cpp:108-122: the classes as registered (see ReplayTests.v for the variant). *)
Definition inherits (a b : string) : option bool :=
  then_ (in_test Class a) (fun x => then_ (in_test Class b) (fun y => ask (fun w => inherited R 20 w x y))).
Example multiple_lookup :
  map (inherits "DerivedZY2BX3") ["BaseX"; "BaseY"; "BaseZ"; "DerivedZ1"; "DerivedY1"; "DerivedZY2"] = repeat (Some true) 6 /\
  inherits "DerivedZY2BX3" "DerivedX1" = Some false.
Proof. vm_compute. repeat split. Qed.

(** tests/test_variant.cpp:206-221: the class by namespace and by type; its three constructors. *)
Example variant_lookup :
  match started with
  | Some w => option_map Some (class_of w 122) = in_test Class "TestQPointer"
  | None => False
  end /\
  map (fun n => has (constructor_of "TestQPointer" n)) ["d_constructor"; "c_constructor"; "m_constructor"] = [true; true; true].
Proof. vm_compute. repeat split. Qed.

(** ** tests/test_meta_type.cpp:6-24: a type is found by its name once metaTypeId was asked for it. *)
Definition t_ld := TBase false false {| b_kind := KFloat; b_id := 70; b_size := 16; b_traits := 0 |}.
Definition t_void := TBase false false {| b_kind := KVoid; b_id := 1; b_size := 0; b_traits := 0 |}.
Definition chars := TArr ReplayTests.c_char 256.
Definition void5 := ReplayTests.ptr (ReplayTests.ptr (ReplayTests.ptr (ReplayTests.ptr (ReplayTests.ptr t_void)))).
(** type_name of the types asked for, and of what they decay to. *)
Definition type_name_ (q : qty) : string :=
  if qty_eq_dec q (mkQ RNone t_ld) then "long double"
  else if qty_eq_dec q (mkQ RNone chars) then "char const[256]"
  else if qty_eq_dec q (mkQ RNone (ReplayTests.ptr ReplayTests.t_char)) then "char*"
  else if qty_eq_dec q (mkQ RNone ReplayTests.t_string) then "std::string"
  else if qty_eq_dec q (mkQ RL void5) then "void*****&"
  else if qty_eq_dec q (mkQ RNone void5) then "void*****" else "?".
Definition after (l : list qty) : option mstate := mrun type_name_ m0 l.
Definition found_as (l : list qty) (q : qty) : Prop :=
  match after l with
  | Some s => match meta_id type_name_ s q with
              | Some (s', id) => id <> None /\ find_name (m_reg s') (type_name_ q) = id
              | None => False
              end
  | None => False
  end.
Example type_names :
  found_as [] (mkQ RNone t_ld) /\ found_as [mkQ RNone t_ld] (mkQ RNone chars) /\ found_as [mkQ RNone t_ld; mkQ RNone chars] (mkQ RNone ReplayTests.t_string) /\
  match after [mkQ RNone t_ld; mkQ RNone chars; mkQ RNone ReplayTests.t_string] with Some s => find_name (m_reg s) "void*****&" = None | None => False end /\
  found_as [mkQ RNone t_ld; mkQ RNone chars; mkQ RNone ReplayTests.t_string] (mkQ RL void5).
Proof. vm_compute. repeat split; discriminate. Qed.
