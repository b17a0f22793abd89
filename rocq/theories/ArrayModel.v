(** Model of arrays as contents of a variant: include/rtti/metatype.h:311-417, type_function_table_impl<T[N]>, as the
    variant tables for arrays use it (include/rtti/detail/variant_impl.h:258-335). *)
From Coq Require Import List Bool Arith.
Import ListNotations.

(** The storage of one element: no object, or an object; [None]: moved from. include/rtti/metatype.h:311-417. *)
Inductive cell := Dead | Live (x : option nat).

(** What matters of the element type Base (metatype.h:314, remove_all_extents). [trivial]: objects of it need no
    construction or destruction (std::is_trivial). [copyable], [movable]: std::is_copy_constructible,
    std::is_move_constructible. [steals]: its move assignment leaves the source hollow. [sure]: its copy constructor
    is noexcept; its copy assignment may throw all the same. [comparable]: it has an operator==. *)
Record elem := Elem { trivial : bool; copyable : bool; movable : bool; steals : bool; sure : bool; comparable : bool;
                      eqb : nat -> nat -> bool }.

(** What is done to element number [i], in order. include/rtti/metatype.h:328-417. *)
Inductive event := Built (i : nat) | Copied (i : nat) | Moved (i : nat) | Destroyed (i : nat) | Compared (i : nat).

(** [Exn]: an exception. [UB]: undefined behaviour. [Term]: std::terminate.
    Of the functions of include/rtti/metatype.h:311-417. *)
Inductive out (A : Type) := Ok (a : A) (l : list event) | Exn (a : A) (l : list event) | UB | Term.
Arguments Ok {A}. Arguments Exn {A}. Arguments UB {A}. Arguments Term {A}.

(** Put before the events of the rest, and before its result. No line of /repo. *)
Definition after {A B} (l : list event) (f : A -> B) (m : out A) : out B :=
  match m with Ok a l' => Ok (f a) (l ++ l') | Exn a l' => Exn (f a) (l ++ l') | UB => UB | Term => Term end.

(** metatype.h:315, array_length: the number of elements of all extents together. *)
Definition length_of (extents : list nat) : nat := fold_right Nat.mul 1 extents.

(** metatype.h:317-320: operator new gives storage without objects. *)
Definition allocate (extents : list nat) : list cell := repeat Dead (length_of extents).

(** metatype.h:328-345: nothing for trivial elements (their values are indeterminate, here 0), else new Base() for each. *)
Fixpoint default_loop (i n : nat) (init : nat) (w : list cell) : out (list cell) :=
  match n, w with
  | 0, _ => Ok w []
  | S n', c :: w' => match c with Dead => after [Built i] (cons (Live (Some init))) (default_loop (S i) n' init w') | _ => UB end
  | S _, [] => UB
  end.
(** include/rtti/metatype.h:328-345. *)
Definition default_construct (e : elem) (extents : list nat) (init : nat) (w : list cell) : out (list cell) :=
  if trivial e then Ok (map (fun _ => Live (Some 0)) w) [] else default_loop 0 (length_of extents) init w.

(** `*where = value`: assignment needs an object there, unless the type is trivial.
    As std::copy and std::move do in include/rtti/metatype.h:347-375. *)
Definition assign (e : elem) (x : option nat) (c : cell) : option cell :=
  match c with Live _ => Some (Live x) | Dead => if trivial e then Some (Live x) else None end.

(** std::copy(it, it + Length, where), metatype.h:355-356: copy assignments. [throws]: which of them throw. *)
Fixpoint copy_loop (e : elem) (i n : nat) (throws : list bool) (src w : list cell) : out (list cell) :=
  match n with
  | 0 => Ok w []
  | S n' =>
      match src, w with
      | Live x :: src', c :: w' =>
          match assign e x c with
          | None => UB
          | Some c' => if hd false throws then Exn w [] else after [Copied i] (cons c') (copy_loop e (S i) n' (tl throws) src' w')
          end
      | _, _ => UB
      end
  end.

(** metatype.h:347-360. Copy constructors that are noexcept make the whole function noexcept (348). *)
Definition copy_construct (e : elem) (extents : list nat) (throws : list bool) (src w : list cell) : out (list cell) :=
  if copyable e
  then match copy_loop e 0 (length_of extents) throws src w with Exn a l => if sure e then Term else Exn a l | r => r end
  else Exn w [].

(** std::move(it, it + Length, where), metatype.h:370-371: move assignments. Returns source and destination.
    Simplified: move assignments do not throw. *)
Fixpoint move_loop (e : elem) (i n : nat) (src w : list cell) : out (list cell * list cell) :=
  match n with
  | 0 => Ok (src, w) []
  | S n' =>
      match src, w with
      | Live x :: src', c :: w' =>
          match assign e x c with
          | None => UB
          | Some c' =>
              after [Moved i] (fun '(s, d) => (Live (if steals e then None else x) :: s, c' :: d)) (move_loop e (S i) n' src' w')
          end
      | _, _ => UB
      end
  end.

(** metatype.h:377-383, 362-375: move if the element type can be moved, else copy. *)
Definition move_or_copy (e : elem) (extents : list nat) (throws : list bool) (src w : list cell) : out (list cell * list cell) :=
  if movable e then move_loop e 0 (length_of extents) src w
  else after [] (fun d => (src, d)) (copy_construct e extents throws src w).

(** metatype.h:385-396: nothing for trivial elements, else the destructor of each. *)
Fixpoint destroy_loop (i n : nat) (w : list cell) : out (list cell) :=
  match n, w with
  | 0, _ => Ok w []
  | S n', Live _ :: w' => after [Destroyed i] (cons Dead) (destroy_loop (S i) n' w')
  | S _, _ => UB
  end.
(** include/rtti/metatype.h:385-396. *)
Definition destroy (e : elem) (extents : list nat) (w : list cell) : out (list cell) :=
  if trivial e then Ok w [] else destroy_loop 0 (length_of extents) w.

(** std::equal(first1, last1, first2), metatype.h:408-411; moved-from elements have an unspecified value, 0 here. *)
Fixpoint equal_loop (e : elem) (i n : nat) (a b : list cell) : out bool :=
  match n with
  | 0 => Ok true []
  | S n' =>
      match a, b with
      | Live x :: a', Live y :: b' =>
          let v o := match o with Some z => z | None => 0 end in
          if eqb e (v x) (v y) then after [Compared i] (fun r => r) (equal_loop e (S i) n' a' b') else Ok false [Compared i]
      | _, _ => UB
      end
  end.

(** metatype.h:398-415; [same]: the two pointers are equal. *)
Definition compare_eq (e : elem) (extents : list nat) (same : bool) (a b : list cell) : out bool :=
  if comparable e then if same then Ok true [] else equal_loop e 0 (length_of extents) a b else Exn false [].
