(** Independent specification of the text functions. *)
From Coq Require Import List Bool Arith NArith String Ascii Permutation.
Import ListNotations.

Definition ctext := list ascii.
Definition lit (s : string) : ctext := list_ascii_of_string s.

(** A query is the full signature, or the part before the parenthesis. *)
Definition answers (registered query : ctext) : Prop :=
  query = registered \/
  (~ In "("%char query /\ exists rest, registered = (query ++ "("%char :: rest)%list).

Fixpoint joined (sep : ctext) (l : list ctext) : ctext :=
  match l with [] => [] | [a] => a | a :: l' => (a ++ sep ++ joined sep l')%list end.

(** A text whose brackets are balanced and which has no separator outside brackets. *)
Section Brackets.
  Variables opening closing separator : ascii -> bool.
  Fixpoint atom (depth : nat) (s : ctext) : bool :=
    match s with
    | [] => depth =? 0
    | c :: s' =>
        if opening c then atom (S depth) s'
        else if closing c then match depth with 0 => false | S d => atom d s' end
        else if separator c && (depth =? 0) then false
        else atom depth s'
    end.
End Brackets.

Definition is_one_of (l : string) (c : ascii) : bool := existsb (Ascii.eqb c) (list_ascii_of_string l).

(** Names of parameter types: any nesting of (), [], <>, {} with commas only inside. *)
Definition type_text (s : ctext) : bool :=
  atom (is_one_of "([<{") (is_one_of ")]>}") (is_one_of ",") 0 s.

(** Names of items: colons only inside parentheses, as in method signatures. *)
Definition item_text (s : ctext) : bool := atom (is_one_of "(") (is_one_of ")") (is_one_of ":") 0 s.

(** include/rtti/metatype.h:42-68: the names of the flags. *)
Definition flag_table : list (N * ctext) := map (fun p => (fst p, lit (snd p)))
  [ (0, "Const"); (1, "Pointer"); (2, "MemberPointer"); (3, "LvalueReference"); (4, "RvalueReference");
    (5, "Array"); (6, "Void"); (7, "Integral"); (8, "FloatPoint"); (9, "Enum"); (10, "Function");
    (11, "Union"); (12, "Class"); (13, "StandardLayout"); (14, "Trivial"); (15, "Abstract");
    (16, "Polymorphic"); (17, "DefaultConstructible"); (18, "CopyConstructible"); (19, "CopyAssignable");
    (20, "MoveConstructible"); (21, "MoveAssignable"); (22, "Destructible"); (23, "EQ_Comparable") ]%N%string.

Definition set_flags (v : N) : list ctext :=
  map snd (filter (fun p => N.testbit v (fst p)) flag_table).

(** A faithful rendering: the names of exactly the set flags in some order, "None" for the empty set. *)
Definition renders (v : N) (out : ctext) : Prop :=
  exists l, Permutation l (if (v =? 0)%N then [lit "None"] else set_flags v) /\ out = joined (lit "|") l.
