(** The repository's own tests (tests/), as far as they are about what is modelled, carried out on the model: every REQUIRE,
    REQUIRE_THROWS_AS and REQUIRE_NOTHROW named below holds of it. Evidence that the model is faithful, nothing more: the
    tests were not run. Texts are numbers: below 3000 the decimal text of that number, other texts from 3000. *)
From Coq Require Import NArith List Bool Arith Lia Ascii String.
From Verif Require Import TypesModel TypesSpec InheritModel StringsModel AccModel AccSpec CallModel ReturnModel DispatchModel.
From Verif Require VarModel TempModel.
Import ListNotations.
Local Open Scope list_scope.

(** ** What the tests register *)

(** tests/test_single_inheritance.cpp:7-54: BaseA to SingleA4 are 0 to 6; tests/test_multiple_inheritance.cpp:7-65: BaseZ to
    DerivedZY2X3 are 7 to 15; tests/test_virtual_inheritance.cpp:7-33: 16 to 19; std::string 20, std::string_view 21,
    TestQPointer (tests/test_variant.cpp:54-164) 22. *)
Definition BaseA := 0. Definition SingleA1 := 1. Definition SingleA2 := 2. Definition SingleA22 := 3.
Definition SingleA3 := 4. Definition SingleA33 := 5. Definition SingleA4 := 6.
Definition BaseZ := 7. Definition BaseY := 8. Definition BaseX := 9. Definition DerivedZ1 := 10. Definition DerivedY1 := 11.
Definition DerivedX1 := 12. Definition DerivedZY2 := 13. Definition DerivedZY2BX3 := 14. Definition DerivedZY2X3 := 15.
Definition Top := 16. Definition Left := 17. Definition Right := 18. Definition Bottom := 19.
Definition string_class := 20. Definition view_class := 21. Definition TestQPointer := 22.

Definition class k : base := {| b_kind := KClass; b_id := k; b_size := 32; b_traits := 0 |}.
Definition cls k : ty := TBase false false (class k).
Definition ccls k : ty := TBase true false (class k).
Definition ptr (t : ty) : ty := TPtr false false t.
Definition integral i n : base := {| b_kind := KIntegral; b_id := i; b_size := n; b_traits := 0 |}.
Definition t_bool := TBase false false (integral 30 1).
Definition t_char := TBase false false (integral 31 1).
Definition c_char := TBase true false (integral 31 1).
Definition t_int := TBase false false (integral 32 4).
Definition t_long := TBase false false (integral 33 8).
Definition t_double := TBase false false {| b_kind := KFloat; b_id := 34; b_size := 8; b_traits := 0 |}.
Definition t_string := cls string_class.
Definition c_string := ccls string_class.
Definition t_view := cls view_class.
Definition q t := mkQ RNone t.
Definition const (t : ty) : ty := add_const t.

(** The _base calls of the three files. The diamond's Top lies at the end of the one object at 4000. *)
Definition bases : graph nat :=
  [ []; [(BaseA, fun x => x)]; [(SingleA1, fun x => x)]; [(SingleA1, fun x => x)]; [(SingleA2, fun x => x)]; [(SingleA2, fun x => x)];
    [(SingleA3, fun x => x)];
    []; []; []; [(BaseZ, fun x => x)]; [(BaseY, fun x => x)]; [(BaseX, fun x => x)];
    [(DerivedZ1, fun x => x); (DerivedY1, fun x => x + 24)]; [(DerivedZY2, fun x => x); (BaseX, fun x => x + 80)];
    [(DerivedZY2, fun x => x); (DerivedX1, fun x => x + 80)];
    []; [(Top, fun _ => 4064)]; [(Top, fun _ => 4064)]; [(Left, fun x => x); (Right, fun x => x + 16)];
    []; []; [] ].

(** The characters of a text; its end is 99. Digits are their values. *)
Definition of_chars (l : list nat) : nat :=
  let l' := filter (fun c => negb (c =? 99)) l in
  if forallb (fun c => c <? 10) l' then fold_left (fun n c => 10 * n + c) l' 0 else 3000 + hd 0 l'.
Definition chars_at (x : nat) : list nat := if x =? 700 then [1; 0; 2; 4; 99] else [99].
Definition chars (c : content) : list nat :=
  if is_array (stored c) then c_vals c else match c_ptr c with Some x => chars_at x | None => [99] end.
Definition first (c : content) : nat := hd 0 (c_vals c).

(** tests/register_global_rtti.cpp:23-50, 77-117 for the types used, and _constructor<std::string_view>
    (tests/test_variant.cpp:173, include/rtti/metadefine.h:1048). *)
Definition functors (f t : qty) : option TempModel.functor :=
  let is a b := if qty_eq_dec a (q b) then true else false in
  if is f (ptr t_char) && (is t t_string || is t t_view) then Some (TempModel.Plain (fun c _ => Some (of_chars (chars c))))
  else if is f t_int && (is t t_long || is t t_string) then Some (TempModel.Plain (fun c _ => Some (first c)))
  else if is f t_long && (is t t_int || is t t_string) then Some (TempModel.Plain (fun c _ => Some (first c)))
  else if is f t_double && is t t_string then Some (TempModel.Plain (fun c _ => Some (3000 + first c)))
  else if is f t_string && (is t t_int || is t t_long) then Some (TempModel.Reporting (fun c _ => Some (first c, first c <? 3000)))
  else if is f t_view && is t (cls TestQPointer) then Some (TempModel.Plain (fun c _ => Some (first c)))
  else None.

(** The objects: a SingleA3 at 1000, a SingleA22 at 2000, a DerivedZY2BX3 at 3000, a DiamondBottom at 4000 with its parts,
    what constructors return at 4500. DerivedZY2BX3 and DerivedZY2X3 inherit two classInfo(): neither has one by name. *)
Definition dynamic (k x : nat) : nat * nat :=
  if (x =? 1000) || ((x =? 4500) && (k <? 7)) then (SingleA3, x)
  else if x =? 2000 then (SingleA22, x)
  else if (x =? 4000) || (x =? 4016) || (x =? 4064) then (Bottom, 4000)
  else (k, x).

Definition tests : env :=
  {| e_graph := bases; e_registered := fun k => k <? 23; e_declares := fun k => (k <? 14) || ((16 <=? k) && (k <? 20)); e_dyn := dynamic;
     e_copies := fun _ => true;
     e_conv := fun f t => match functors f t with
                          | Some (TempModel.Plain g) => Some (fun c => match g c 0 with Some w => Good w | None => AccModel.Refused end)
                          | Some (TempModel.Reporting g) => Some (fun c => match g c 0 with Some (w, true) => Good w | Some (_, false) => AccModel.Refused | None => Raised end)
                          | None => None
                          end;
     e_cmp := fun _ => Some Nat.eqb; e_hash := fun _ => 0 |}.
Definition everything : traits := Traits (fun _ => true) (fun _ => true).
Definition room : layout := Layout 4500 4600 (fun i => 4700 + i).

(** ** Values *)
Definition val (t : ty) (x : nat) (l : list nat) : content := {| c_form := Val; c_src := t; c_at := x; c_ptr := None; c_vals := l; c_bytes := l |}.
Definition ref_ (t : ty) (x : nat) (l : list nat) : content := {| c_form := Refw; c_src := t; c_at := x; c_ptr := None; c_vals := l; c_bytes := l |}.
Definition pval (t : ty) (x p : nat) : content := {| c_form := Val; c_src := ptr t; c_at := x; c_ptr := Some p; c_vals := [p]; c_bytes := [p] |}.
Definition pref (t : ty) (x p : nat) : content := {| c_form := Refw; c_src := ptr t; c_at := x; c_ptr := Some p; c_vals := [p]; c_bytes := [p] |}.
Definition literal (l : list nat) : content := val (TArr c_char (N.of_nat (List.length l))) 800 l.

(** `v == x` of the variant a call gives. *)
Definition gives (r : option (outcome result)) (c : content) : Prop :=
  match r with Some (Done x) => v_eq tests (r_variant x) (Some c) = Got true | _ => False end.
Definition throws (r : option (outcome result)) : Prop := r = Some Exception.
Definition called_with (r : option (outcome result)) (l : list bound) : Prop :=
  match r with Some (Done x) => r_called x = Some (Call None l) | _ => False end.
Definition number n := val t_int 900 [n].

(** ** tests/test_single_inheritance.cpp *)

(** The same classes as C++ has them. *)
Definition single : cxx := [[]; [(BaseA, false)]; [(SingleA1, false)]; [(SingleA1, false)]; [(SingleA2, false)]; [(SingleA2, false)]; [(SingleA3, false)]].
Definition all (_ : nat) := true.
Definition single_cast from to p := meta_cast single all all all (registered single) 10 from to p.
Definition found (r : res (option sub)) : bool := match r with Ok (Some _) => true | _ => false end.
Definition missing (r : res (option sub)) : bool := match r with Ok None => true | _ => false end.
(** &derived and, seen as a BaseA, ptr2base. *)
Definition derived : option sub := Some (complete SingleA3).
Definition derived_base : option sub := Some {| s_dyn := SingleA3; s_path := [SingleA3; SingleA2; SingleA1; BaseA] |}.

(** 146-161 *)
Example single_up_casting :
  forallb (fun t => found (single_cast SingleA3 t derived)) [BaseA; SingleA1; SingleA2; SingleA3] = true /\
  forallb (fun t => missing (single_cast SingleA3 t derived)) [SingleA22; SingleA33] = true /\
  forallb (fun t => match meta_cast_ref (single_cast SingleA3 t derived) with Ok (inl _) => true | _ => false end) [BaseA; SingleA1; SingleA2; SingleA3] = true /\
  forallb (fun t => match meta_cast_ref (single_cast SingleA3 t derived) with Ok (inr _) => true | _ => false end) [SingleA22; SingleA33] = true.
Proof. vm_compute. repeat split. Qed.

(** 164-181 *)
Example single_down_casting :
  forallb (fun t => found (single_cast BaseA t derived_base)) [BaseA; SingleA1; SingleA2; SingleA3] = true /\
  forallb (fun t => missing (single_cast BaseA t derived_base)) [SingleA22; SingleA33; SingleA4] = true /\
  forallb (fun t => match meta_cast_ref (single_cast BaseA t derived_base) with Ok (inl _) => true | _ => false end) [BaseA; SingleA1; SingleA2; SingleA3] = true /\
  forallb (fun t => match meta_cast_ref (single_cast BaseA t derived_base) with Ok (inr _) => true | _ => false end) [SingleA22; SingleA33; SingleA4] = true.
Proof. vm_compute. repeat split. Qed.

(** `mcX->defaultConstructor()->invoke()`. *)
Definition instance_of k : option content :=
  match construct everything tests room (cls k) [] (fun _ => Some (Datum None [1] [1])) [] with Some (Done r) => r_variant r | _ => None end.
Definition is k t := v_is tests false (instance_of k) (q (cls t)).

(** 183-201 *)
Example single_variant :
  map (is SingleA3) [BaseA; SingleA1; SingleA2; SingleA3] = [Got true; Got true; Got true; Got true] /\
  map (is SingleA3) [SingleA22; SingleA33; SingleA4] = [Got false; Got false; Got false].
Proof. vm_compute. repeat split. Qed.

(** 56-84, 120-123: the functions return 1 if their parameter leads to the object at 1000. *)
Definition takes (q : qty) : function :=
  Function (Static [q]) (RType (mkQ RNone t_int))
    (fun c => Some (Yields (match args_of c with
                            | [Temp (Pointer 1000)] | [Direct (Base 1000)] => Datum None [1] [1]
                            | _ => Datum None [0] [0]
                            end))).
Definition call_ q (g : given) := invoke everything tests room (takes q) [g].
Definition lv (p : passed) : given := (false, p).
Definition rv (p : passed) : given := (true, p).
Definition derived_o := Object (val (cls SingleA3) 1000 [1]).
Definition const_derived := Object (val (ccls SingleA3) 1000 [1]).
Definition ref2base := Object (val (cls BaseA) 1000 [1]).
Definition const_ref2base := Object (val (ccls BaseA) 1000 [1]).
Definition p_derived := Object (pval (cls SingleA3) 910 1000).
Definition p_const_derived := Object (pval (ccls SingleA3) 911 1000).
Definition ptr2base := Object (pval (cls BaseA) 912 1000).
Definition const_ptr2base := Object (pval (ccls BaseA) 913 1000).
Definition vv (c : content) := Variant false (Some c).
Definition one (r : option (outcome result)) : Prop := gives r (number 1).

(** 211-250 *)
Example single_pointer_to_const :
  let m := call_ (mkQ RNone (ptr (ccls SingleA2))) in
  one (m (rv p_derived)) /\ one (m (rv (vv (pval (cls SingleA3) 920 1000)))) /\ one (m (rv p_const_derived)) /\
  one (m (lv ptr2base)) /\ one (m (lv const_ptr2base)) /\ one (m (rv ptr2base)) /\ one (m (rv const_ptr2base)) /\
  throws (m (lv derived_o)) /\
  one (m (lv (vv (pval (ccls BaseA) 920 1000)))) /\ one (m (lv (vv (pref (ccls BaseA) 913 1000)))) /\
  one (m (lv (vv (pval (cls BaseA) 920 1000)))) /\ one (m (lv (vv (pref (cls BaseA) 912 1000)))) /\
  throws (m (rv (Object (pval (cls SingleA22) 914 2000)))).
Proof. vm_compute. repeat split. Qed.

(** 252-293 *)
Example single_pointer :
  let m := call_ (mkQ RNone (ptr (cls SingleA2))) in
  one (m (rv p_derived)) /\ one (m (rv (vv (pval (cls SingleA3) 920 1000)))) /\ throws (m (rv p_const_derived)) /\
  one (m (lv ptr2base)) /\ throws (m (lv const_ptr2base)) /\ one (m (rv ptr2base)) /\ throws (m (rv const_ptr2base)) /\
  throws (m (lv (vv (pval (ccls BaseA) 920 1000)))) /\ throws (m (lv (vv (pref (ccls BaseA) 913 1000)))) /\
  one (m (lv (vv (pval (cls BaseA) 920 1000)))) /\ one (m (lv (vv (pref (cls BaseA) 912 1000)))).
Proof. vm_compute. repeat split. Qed.

(** 295-331; variant(derived) holds a copy at 4500, for which the function returns 0 here and 1 in the test, which looks at
    the values: that the call is made on the copy is what is required. *)
Example single_const_reference :
  let m := call_ (mkQ RL (ccls SingleA2)) in
  one (m (lv derived_o)) /\ called_with (m (rv (vv (val (cls SingleA3) 4500 [1])))) [Direct (Base 4500)] /\
  one (m (lv const_derived)) /\ one (m (lv ref2base)) /\ one (m (lv const_ref2base)) /\
  throws (m (lv ptr2base)) /\ throws (m (lv const_ptr2base)) /\
  one (m (lv (vv (ref_ (cls SingleA3) 1000 [1])))) /\ one (m (lv (vv (ref_ (ccls SingleA3) 1000 [1])))) /\
  one (m (lv (vv (ref_ (cls BaseA) 1000 [1])))) /\ one (m (lv (vv (ref_ (ccls BaseA) 1000 [1])))).
Proof. vm_compute. repeat split. Qed.

(** 333-369 *)
Example single_reference :
  let m := call_ (mkQ RL (cls SingleA2)) in
  one (m (lv derived_o)) /\ throws (m (rv (vv (val (cls SingleA3) 4500 [1])))) /\ throws (m (lv const_derived)) /\
  one (m (lv ref2base)) /\ throws (m (lv const_ref2base)) /\
  throws (m (lv (vv (ref_ (ccls SingleA3) 1000 [1])))) /\
  one (m (lv (vv (ref_ (cls BaseA) 1000 [1])))) /\ throws (m (lv (vv (ref_ (ccls BaseA) 1000 [1])))).
Proof. vm_compute. repeat split. Qed.

(** ** tests/test_multiple_inheritance.cpp:100-124 *)
Example multiple_variant :
  map (is DerivedZY2BX3) [BaseX; BaseY; BaseZ; DerivedZ1; DerivedY1; DerivedZY2] = repeat (Got true) 6 /\
  is DerivedZY2BX3 DerivedX1 = Got false.
Proof. vm_compute. repeat split. Qed.

(** ** tests/test_virtual_inheritance.cpp *)
Definition diamond : cxx := [[]; [(0, true)]; [(0, true)]; [(1, false); (2, false)]].
Definition diamond_cast from to p := meta_cast diamond all all all (registered diamond) 10 from to p.
Definition bottom : option sub := Some (complete 3).
Definition bottom_top : option sub := Some {| s_dyn := 3; s_path := [0] |}.

(** 63-83 *)
Example virtual_casting :
  forallb (fun t => found (diamond_cast 3 t bottom)) [1; 2; 0] = true /\
  forallb (fun t => found (diamond_cast 0 t bottom_top)) [1; 2; 3] = true.
Proof. vm_compute. repeat split. Qed.

(** 85-101 *)
Example virtual_variant :
  map (fun t => v_is tests false (Some (val (cls Bottom) 4000 [1])) (q (cls t))) [Bottom; Left; Right; Top] = repeat (Got true) 4.
Proof. vm_compute. repeat split. Qed.

(** ** tests/test_global_ns.cpp *)

(** 18-28: attribute() returns a `variant const&`. "Global namespace" is shortened. *)
Definition description := Some (literal [50; 51; 52; 99]).
Example global_c_string :
  v_to tests true description t_string = Got (Converted 3050) /\ v_to tests true description t_view = Got (Converted 3050) /\
  v_eq tests description (Some (val (TArr c_char 4) 801 [50; 51; 52; 99])) = Got true /\
  access tests RefC description t_string = Throw /\ access tests RefC description (ptr c_char) = Got (Some Hidden).
Proof. vm_compute. repeat split. Qed.

(** 30-52 *)
Example global_attributes :
  access tests RefC (Some (val t_string 810 [3060])) t_string = Got (Some Whole) /\ v_eq tests (Some (val t_string 810 [3060])) (Some (val t_string 811 [3060])) = Got true /\
  access tests RefC (Some (val t_bool 810 [1])) t_bool = Got (Some Whole) /\ v_eq tests (Some (val t_bool 810 [1])) (Some (val t_bool 811 [1])) = Got true /\
  access tests RefC (Some (val t_double 810 [314])) t_double = Got (Some Whole) /\ v_eq tests (Some (val t_double 810 [314])) (Some (val t_double 811 [314])) = Got true.
Proof. vm_compute. repeat split. Qed.

(** `v.eq(x)`. *)
Definition W : TempModel.world := TempModel.World tests functors (fun _ => false) (fun _ => true) (fun t g => val t 4500 [0]).
Definition start := TempModel.St [] [] 0 0 [].
Definition eq_ (v : option content) (b : content) := fst (TempModel.eq W v (by_reference (val (const (c_src b)) (c_at b) (c_vals b))) (c_src b) start).

(** 54-65 *)
Example global_int :
  let v := Some (val t_int 810 [256]) in
  access tests RefC v t_int = Got (Some Whole) /\ access tests RefC v t_long = Throw /\ v_to tests true v t_long = Got (Converted 256) /\
  v_eq tests v (Some (number 256)) = Got true /\ v_eq tests v (Some (val t_string 900 [256])) = Got false /\
  eq_ v (val t_string 900 [256]) = TempModel.Val true /\ eq_ v (val t_string 900 [3011]) = TempModel.Val false.
Proof. vm_compute. repeat split. Qed.

(** 79-91: get() gives an rvalue variant of std::cref. *)
Definition g_string := Some (ref_ c_string 820 [3000]).
Definition g_property := Global 820 t_string.
Definition reads (a : argument) (b : bound) : nat :=
  match b with Temp (Converted w) => w | _ => match referent a with Some c => first c | None => 0 end end.
Definition written (r : memory * outcome unit) (x : nat) : option nat := match r with (m, Done tt) => Some (m x) | _ => None end.
Example global_string_property :
  property_get tests g_property None (fun _ => 0) = Done (Reference 820) /\
  access tests RRef g_string t_string = Throw /\ access tests RefR g_string t_string = Got (Some Whole) /\
  access tests RefR g_string c_string = Got (Some Whole) /\ access tests CRefL g_string t_string = Got (Some Whole) /\
  written (property_set tests reads g_property None (make_argument false (Object (literal [61; 62; 99]))) (fun _ => 0)) 820 = Some 3061 /\
  written (property_set tests reads g_property None (make_argument true (Object (val t_string 900 [3062]))) (fun _ => 0)) 820 = Some 3062.
Proof. vm_compute. repeat split. Qed.

(** 93-105 *)
Example global_readonly_property :
  access tests RefR g_string t_string = Got (Some Whole) /\ v_eq tests g_string (Some (val t_string 811 [3000])) = Got true /\
  access tests RefL g_string t_string = Throw /\ access tests CRefL g_string t_string = Got (Some Whole) /\
  snd (property_set tests reads (Global 820 c_string) None (make_argument true (Object (val t_string 900 [3062]))) (fun _ => 0)) = Invoke_error.
Proof. vm_compute. repeat split. Qed.

(** tests/register_global_rtti.cpp:6-21. What they return is computed from what the first parameter is bound to in
    [inner]; a text that is no number is reported through the second. *)
Definition intToStr (inner : bound -> nat) : function :=
  Function (Static [mkQ RNone t_int; mkQ RL t_bool]) (RType (mkQ RNone t_string))
    (fun c => match args_of c with [b; Direct Whole] => Some (Yields (Datum None [inner b] [])) | _ => None end).
Definition strToInt (inner : bound -> nat) : function :=
  Function (Static [mkQ RL c_string; mkQ RL t_bool]) (RType (mkQ RNone t_int))
    (fun c => match args_of c with [b; Direct Whole] => Some (Yields (Datum None [inner b] [])) | _ => None end).
Definition inner (g : given) (b : bound) : nat := reads (as_argument g) b.
Definition int_to_str (a b : given) := invoke everything tests room (intToStr (inner a)) [a; b].
Definition str_to_int (a b : given) := invoke everything tests room (strToInt (inner a)) [a; b].
Definition ok := lv (Object (val t_bool 830 [0])).
Definition text n := val t_string 811 [n].

(** 107-141 *)
Example global_int_to_str :
  gives (int_to_str (rv (Object (number 123))) ok) (text 123) /\
  gives (int_to_str (lv (vv (val t_int 900 [123]))) (lv (vv (val t_bool 840 [0])))) (text 123) /\
  gives (int_to_str (lv (vv (ref_ t_int 900 [256]))) (lv (vv (val t_bool 840 [0])))) (text 256) /\
  gives (int_to_str (lv (vv (ref_ (const t_int) 900 [256]))) (lv (vv (val t_bool 840 [0])))) (text 256) /\
  match int_to_str (rv (Object (number 123))) ok with
  | Some (Done r) => access tests RefL (r_variant r) t_string = Got (Some Whole) | _ => False end.
Proof. vm_compute. repeat split. Qed.

(** 142-158. 155: "ABC" has no converter to int: char* converts to strings only. *)
Example global_int_to_str_refused :
  let n := rv (Object (number 123)) in
  throws (int_to_str n (rv (Object (val t_bool 830 [0])))) /\ throws (int_to_str n (lv (Object (val (const t_bool) 830 [0])))) /\
  throws (int_to_str n (lv (vv (ref_ (const t_bool) 830 [0])))) /\ throws (int_to_str n (lv (Variant true (Some (val t_bool 840 [0]))))) /\
  throws (int_to_str n (lv (vv (ref_ (const t_bool) 831 [0])))) /\
  throws (int_to_str (lv (Object (literal [11; 12; 13; 99]))) ok) /\ throws (int_to_str (rv (Object (val t_double 900 [314]))) ok) /\
  throws (int_to_str (lv (vv (val t_double 900 [1231]))) ok).
Proof. vm_compute. repeat split. Qed.

(** 162-270; in 256-261 the function is called, with a text that is no number. *)
Definition digits := [1; 0; 2; 4; 99].
Example global_str_to_int :
  let it n := number n in
  gives (str_to_int (lv (Object (literal [2; 5; 6; 99]))) ok) (it 256) /\
  gives (str_to_int (rv (Object (text 256))) ok) (it 256) /\
  gives (str_to_int (lv (vv (literal digits))) ok) (it 1024) /\
  gives (str_to_int (lv (vv (text 1024))) ok) (it 1024) /\
  gives (str_to_int (lv (Variant true (Some (literal digits)))) ok) (it 1024) /\
  gives (str_to_int (lv (Object (pval c_char 850 700))) ok) (it 1024) /\
  gives (str_to_int (lv (Object (val (TArr t_char 5) 860 digits))) ok) (it 1024) /\
  gives (str_to_int (lv (vv (ref_ (TArr t_char 5) 860 digits))) ok) (it 1024) /\
  gives (str_to_int (lv (vv (ref_ (TArr c_char 5) 860 digits))) ok) (it 1024) /\
  gives (str_to_int (rv (vv (literal digits))) ok) (it 1024) /\
  gives (str_to_int (rv (vv (text 1024))) ok) (it 1024) /\
  gives (str_to_int (lv (Object (literal [60; 1; 2; 3; 61; 99]))) ok) (it 3060) /\
  gives (str_to_int (rv (Object (number 2048))) ok) (it 2048).
Proof. vm_compute. repeat split. Qed.

(** ** tests/test_std_ns.cpp: a vector (class 20 here) from an rvalue of one type and an rvalue variant of it. *)
Definition vector_of (g : given) := construct everything tests room (cls 20) [mkQ RNone (cls 21)] (fun c => match args_of c with [Temp Same] => Some (Datum None [28] [28]) | _ => None end) [g].
Example std_vector :
  gives (vector_of (rv (Object (val (cls 21) 870 [7])))) (text 28) /\ gives (vector_of (rv (vv (val (cls 21) 871 [7])))) (text 28).
Proof. vm_compute. repeat split. Qed.

(** ** tests/test_meta_type.cpp:26-36 *)
Example type_sizes :
  size_of (TBase false false {| b_kind := KVoid; b_id := 1; b_size := 0; b_traits := 0 |}) = 0%N /\ size_of t_bool = 1%N /\ size_of t_int = 4%N /\ size_of t_long = 8%N /\
  size_of (ptr (TBase false false {| b_kind := KFunction; b_id := 2; b_size := 0; b_traits := 0 |})) = 8%N /\
  size_of (ptr (TBase false false {| b_kind := KVoid; b_id := 1; b_size := 0; b_traits := 0 |})) = 8%N.
Proof. repeat split. Qed.

(** ** tests/test_variant.cpp *)

(** 184-202: an explicit construction in the buffer, a move out of it, and the buffer's end. *)
Example variant_to :
  match TempModel.to W false (Some (val t_view 880 [3070])) (cls TestQPointer) start with
  | (TempModel.Val (1, Converted 3070), s) => TempModel.live s = [1] /\ TempModel.blocks s = [] /\ TempModel.next s = 2
  | _ => False
  end.
Proof. vm_compute. repeat split. Qed.

(** 204-211 *)
Example variant_meta_class : class_of_variant tests (Some (val (cls TestQPointer) 890 [0])) = Ran TestQPointer.
Proof. reflexivity. Qed.

(** 172-179. [state]: the value and the priority of the object, which is [None] when it is empty. *)
Definition member_of c params := OfClass {| m_class := class TestQPointer; m_const := c; m_params := params |}.
Definition registered_ (state : option (nat * nat)) : classes :=
  let is_some := match state with Some _ => true | None => false end in
  let bit (b : bool) := Datum None [if b then 1 else 0] [] in
  {| methods := fun k => if k =? TestQPointer then
       [ (list_ascii_of_string "empty", Function (member_of true []) (RType (mkQ RNone t_bool)) (fun _ => Some (Yields (bit (negb is_some)))));
         (list_ascii_of_string "check", Function (member_of true []) (RType (mkQ RNone t_bool)) (fun _ => Some (Yields (bit is_some))));
         (list_ascii_of_string "value", Function (member_of false []) (RType (mkQ RL t_string))
            (fun _ => Some (Refers (Outside 895) (Datum None [match state with Some (v, _) => v | None => 3000 end] []))));
         (list_ascii_of_string "const_value", Function (member_of true []) (RType (mkQ RL c_string))
            (fun _ => match state with Some (v, _) => Some (Refers (Outside 895) (Datum None [v] [])) | None => None end)) ] else [];
     properties := fun k => if k =? TestQPointer then
       [ (list_ascii_of_string "priority",
          Accessors {| m_class := class TestQPointer; m_const := true; m_params := [] |} {| m_class := class TestQPointer; m_const := false; m_params := [mkQ RNone t_long] |}
                    (fun m x => m (x + 8)) (fun m x w => write m (x + 8) w)) ] else [] |}.
Definition ask state (v : option content) (name : string) := invoke_by_name everything tests room (registered_ state) false v (list_ascii_of_string name) [].
Definition set_priority (v : option content) n m :=
  set_by_name tests reads (registered_ (Some (3070, 0))) v (list_ascii_of_string "priority") (make_argument true (Object (number n))) m.
Definition get_priority (v : option content) m := get_by_name tests (registered_ (Some (3070, 0))) v (list_ascii_of_string "priority") m.
Definition ran_gives (d : dispatched (option (outcome result))) (c : content) : Prop := match d with Ran r => gives r c | _ => False end.
Definition ran_throws (d : dispatched (option (outcome result))) : Prop := match d with Ran r => throws r | _ => False end.
Definition yes := val t_bool 899 [1].
Definition no := val t_bool 899 [0].
Definition held_qp := Some (val (cls TestQPointer) 890 [0]).
Definition referred_qp := Some (ref_ (cls TestQPointer) 890 [0]).
Definition const_qp := Some (ref_ (ccls TestQPointer) 890 [0]).
Definition hello := Some (3070, 0).

(** 225, 237-241, 254, 265-271: the moving constructor wants an rvalue. *)
Definition constructed params (g : given) := construct everything tests room (cls TestQPointer) params (fun _ => Some (Datum None [0] [])) [g].
Example variant_constructors :
  throws (constructed [mkQ RR (cls TestQPointer)] (lv (Variant false held_qp))) /\
  called_with (constructed [mkQ RR (cls TestQPointer)] (rv (Variant false held_qp))) [Direct Whole] /\
  called_with (constructed [mkQ RL (ccls TestQPointer)] (lv (Variant false held_qp))) [Direct Whole] /\
  ran_gives (ask None held_qp "check") no /\ ran_gives (ask (Some (256, 256)) held_qp "check") yes /\
  ran_gives (ask (Some (256, 256)) held_qp "const_value") (text 256) /\
  match ask (Some (256, 256)) held_qp "const_value" with
  | Ran (Some (Done r)) => eq_ (r_variant r) (literal [2; 5; 6; 99]) = TempModel.Val true /\ eq_ (r_variant r) (number 256) = TempModel.Val true
  | _ => False
  end.
Proof. vm_compute. repeat split. Qed.

(** 295-335: `int` arguments to an int64_t parameter. *)
Example variant_copy :
  ran_gives (ask hello held_qp "check") yes /\ ran_gives (ask hello held_qp "empty") no /\
  ran_gives (ask hello held_qp "const_value") (text 3070) /\
  match ask hello held_qp "value" with Ran (Some (Done r)) => access tests RefL (r_variant r) t_string = Got (Some Whole) | _ => False end /\
  match set_priority held_qp 100 (fun _ => 0) with
  | (m, Ran (Done tt)) => m 898 = 100 /\ get_priority held_qp m = Ran (Done (Value 100))
  | _ => False
  end /\
  v_eq tests (Some (val t_long 4500 [100])) (Some (val t_long 900 [100])) = Got true /\ eq_ (Some (val t_long 4500 [100])) (number 100) = TempModel.Val true.
Proof. vm_compute. repeat split. Qed.

(** 365-409; 406: the function called throws. *)
Example variant_reference :
  ran_gives (ask hello referred_qp "check") yes /\ ran_gives (ask hello referred_qp "const_value") (text 3070) /\
  match ask hello referred_qp "value" with Ran (Some (Done r)) => access tests RefL (r_variant r) t_string = Got (Some Whole) | _ => False end /\
  match set_priority referred_qp 1024 (fun _ => 0) with
  | (m, Ran (Done tt)) => m 898 = 1024 /\ get_priority referred_qp m = Ran (Done (Value 1024))
  | _ => False
  end /\
  called_with (constructed [mkQ RR (cls TestQPointer)] (rv (Variant false referred_qp))) [Direct Whole] /\
  ran_throws (ask None referred_qp "const_value").
Proof. vm_compute. repeat split. Qed.

(** 411-447: the moving constructor gets a copy. *)
Example variant_const_reference :
  ran_gives (ask hello const_qp "check") yes /\ ran_gives (ask hello const_qp "empty") no /\ ran_gives (ask hello const_qp "const_value") (text 3070) /\
  ran_throws (ask hello const_qp "value") /\ snd (set_priority const_qp 1024 (fun _ => 0)) = Ran Exception /\
  get_priority const_qp (fun _ => 0) = Ran (Done (Value 0)) /\
  called_with (constructed [mkQ RR (cls TestQPointer)] (rv (Variant false const_qp))) [Temp Same].
Proof. vm_compute. repeat split. Qed.

(** The counters. TestQPointer has two words and so lies in the variant itself. *)
Definition qp_type : VarModel.ty := VarModel.Ty VarModel.Inplace true true true true.
Definition counts (p : list VarModel.op) : option (nat * nat) :=
  let '(vs, s) := VarModel.begin 6 [7] [] in
  match VarModel.run p vs s with VarModel.Ok (_, l) s' => if existsb (fun b => b) l then None else Some (VarModel.built s', VarModel.ended s') | _ => None end.
Definition minus (a b : option (nat * nat)) : option (nat * nat) :=
  match a, b with Some (x, y), Some (z, w) => Some (x - z, y - w) | _, _ => None end.

(** 299-320: one copy. 341-362: one move. 369-388, 415-436: none. 265-280: besides the object the constructor makes, which is
    moved into the variant [4] and destroyed, two moves: four moves, one destruction. 283-292: a copy, three moves, one
    destruction. *)
Definition before := [VarModel.Make 1 qp_type 128 true; VarModel.New 3; VarModel.Make 4 qp_type 256 true; VarModel.MoveAssign 3 4].
Example variant_counters :
  counts [VarModel.Make 0 qp_type 9 false] = Some (1, 0) /\ counts [VarModel.Make 0 qp_type 9 true] = Some (1, 0) /\ counts [VarModel.MakeRef 0 0] = Some (0, 0) /\
  minus (counts (before ++ [VarModel.Drop 4])) (counts [VarModel.Make 1 qp_type 128 true; VarModel.New 3; VarModel.Make 4 qp_type 256 true]) = Some (2, 0) /\
  minus (counts (before ++ [VarModel.Drop 4; VarModel.CopyAssign 1 3])) (counts (before ++ [VarModel.Drop 4])) = Some (4, 1).
Proof. vm_compute. repeat split. Qed.
