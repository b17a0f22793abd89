(** Model of the text functions: method look-up, signatures, type names, printing of flags. Texts are lists
    of characters; [txt] embeds string literals. *)
From Coq Require Import List Bool Arith NArith String Ascii.
From Verif Require Import ListsModel.
Import ListNotations.

(** std::string and std::string_view, no line of /repo. *)
Definition text := list ascii.
(** A literal, no line of /repo. *)
Definition txt (s : string) : text := list_ascii_of_string s.

(** operator== of std::string_view, no line of /repo. *)
Fixpoint text_eqb (a b : text) : bool :=
  match a, b with
  | [], [] => true
  | x :: a', y :: b' => Ascii.eqb x y && text_eqb a' b'
  | _, _ => false
  end.

(** std::string::find(char), used at src/metacontainer.cpp:95. *)
Fixpoint find_char (c : ascii) (s : text) : option nat :=
  match s with
  | [] => None
  | x :: s' => if Ascii.eqb x c then Some 0 else option_map S (find_char c s')
  end.

(** std::string::substr(pos, n); [None] is std::out_of_range. As called in src/metacontainer.cpp:88-126. *)
Definition substr (s : text) (pos n : nat) : option text :=
  if List.length s <? pos then None else Some (firstn n (skipn pos s)).

(** std::string::compare(pos1, n1, t, pos2, n2) == 0, used at src/metacontainer.cpp:99 and 108. *)
Definition compare_eq (s : text) (pos1 n1 : nat) (t : text) (pos2 n2 : nat) : option bool :=
  match substr s pos1 n1, substr t pos2 n2 with
  | Some a, Some b => Some (text_eqb a b)
  | _, _ => None
  end.

(** src/metacontainer.cpp:91-123, the visitor of [findMethod]: does the registered name answer the query?
    [None] is an escaping std::out_of_range. [name.size() - pos] (line 109) is in size_t: it is only
    reached with [pos <= name.size()], where it is the natural difference. *)
Definition method_matches (methodName name : text) : option bool :=
  match find_char "("%char methodName with
  | Some pos =>
      let len := Nat.min pos (List.length name) in
      match compare_eq methodName 0 pos name 0 len with
      | None => None
      | Some false => Some false
      | Some true =>
          if pos =? List.length name then Some true
          else compare_eq methodName pos (List.length methodName - pos) name pos (List.length name - pos)
      end
  | None => Some (text_eqb methodName name)
  end.

(** src/metacontainer.cpp:88-126, [findMethod]: [for_each] with [result] captured by reference. The items
    are given with their names. *)
Inductive found (A : Type) := FNone | FSome (a : A) | FThrow.
Arguments FNone {A}. Arguments FSome {A}. Arguments FThrow {A}.

(** MetaItemList::findMethod, src/metacontainer.cpp:88-126. *)
Definition findMethod {A} (nm : A -> text) (l : list A) (name : text) : found A :=
  for_each (fun r a => match method_matches (nm a) name with
                       | Some true => (FSome a, false)
                       | Some false => (r, true)
                       | None => (FThrow, false)
                       end) l FNone.

(** src/metacontainer.cpp:321-326, [getMethod(name)] on a container that is not a class. *)
Definition getMethod {A} (nm : A -> text) (l : list A) (name : text) : found A :=
  match name with [] => FNone | _ => findMethod nm l name end.

(** ** Signatures *)

(** include/rtti/signature.h:12-50, [prefix_ostream_iterator]: the stream and the flag [first];
    assignment writes the prefix unless it is the first. *)
Definition pit := (text * bool)%type.
(** prefix_ostream_iterator, include/rtti/signature.h:38-49. *)
Definition pit_assign (prefix : text) (it : pit) (v : text) : pit :=
  let (os, first) := it in if first then (os ++ v, false) else (os ++ prefix ++ v, false).

(** include/rtti/signature.h:52-64, [signature<Args...>::get]; a left fold over the arguments. *)
Definition signature (name : text) (args : list text) : text :=
  let os := (name ++ txt "(")%list in
  let (os', _) := fold_left (pit_assign (txt ", ")) args (os, true) in
  (os' ++ txt ")")%list.

(** include/rtti/metacontainer.h:69-70, [getMethod<Args...>(name)]. *)
Definition getMethodSig {A} (nm : A -> text) (l : list A) (name : text) (args : list text) : found A :=
  getMethod nm l (signature name args).

(** ** Type names *)

(** std::strstr(s, "T ="): the suffix starting at the first occurrence. As called in include/rtti/typename.h:10-42. *)
Fixpoint is_prefix (p s : text) : bool :=
  match p, s with
  | [], _ => true
  | x :: p', y :: s' => Ascii.eqb x y && is_prefix p' s'
  | _, [] => false
  end.
(** As called in include/rtti/typename.h:10-42. *)
Fixpoint strstr (p s : text) : option text :=
  if is_prefix p s then Some s else match s with [] => None | _ :: s' => strstr p s' end.

(** std::strrchr(s, c), as the number of characters before the last occurrence. As called in include/rtti/typename.h:10-42. *)
Fixpoint strrchr (c : ascii) (s : text) : option nat :=
  match s with
  | [] => None
  | x :: s' => match strrchr c s' with
               | Some n => Some (S n)
               | None => if Ascii.eqb x c then Some 0 else None
               end
  end.

(** include/rtti/typename.h:15-24, the constructor of [TypeName<T>], given [__PRETTY_FUNCTION__]. Line 20
    adds [sizeof("T =")] = 4. [TUB]: the advanced pointer lies beyond the terminator. *)
Inductive tname := TName (t : text) | TUB.
(** include/rtti/typename.h:10-42. *)
Definition type_name (pretty : text) : tname :=
  match strstr (txt "T =") pretty with
  | None => TName []
  | Some b =>
      if List.length b <? 4 then TUB else
      match strrchr "]"%char (skipn 4 b) with
      | None => TName []
      | Some n => TName (firstn n (skipn 4 b))
      end
  end.

(** ** Printing of type flags *)

(** src/metatype.cpp:457-484. *)
Definition flag_names : list text := map txt
  ["None"; "Const"; "Pointer"; "MemberPointer"; "LvalueReference"; "RvalueReference"; "Array";
   "Void"; "Integral"; "FloatPoint"; "Enum"; "Function"; "Union"; "Class";
   "StandardLayout"; "Trivial"; "Abstract"; "Polymorphic"; "DefaultConstructible"; "CopyConstructible";
   "MoveConstructible"; "MoveAssignable"; "Destructible"; "EQ_Comparable"]%string.

(** src/metatype.cpp:486-489: the array is indexed by the value of the flag. [None] is a read outside
    the array (undefined behaviour). *)
Definition flag_name (value : N) : option text :=
  if (value <? 24)%N then nth_error flag_names (N.to_nat value) else None.

(** src/metatype.cpp:491-494. *)
Definition check_flag (value bit : N) : bool := N.eqb (N.land value bit) bit.

(** src/metatype.cpp:505-554: the flags (metatype.h:42-68) in the order they are tested. *)
Definition print_order : list N := map (fun i => 2 ^ i)%N
  [3; 4; 1; 2; 0; 5; 6; 7; 8; 9; 10; 11; 12; 13; 14; 15; 16; 17; 18; 20; 21; 22; 23]%N.

(** src/metatype.cpp:496-557, [operator<<(ostream, TypeFlags)]; [None] is undefined behaviour. *)
Definition print_flags (value : N) : option text :=
  if N.eqb value 0 then option_map (fun n => fst (pit_assign (txt "|") ([], true) n)) (flag_name 0)
  else
    option_map fst
      (fold_left (fun (it : option pit) bit =>
         match it with
         | None => None
         | Some p => if check_flag value bit
                     then option_map (pit_assign (txt "|") p) (flag_name bit)
                     else Some p
         end) print_order (Some ([], true))).
