(** Model of the making and ending of objects through their type: MetaType::construct and MetaType::destruct
    (src/metatype.cpp:244-312) and the functions of a type they call (include/rtti/metatype.h:223-417). *)
From Coq Require Import NArith List Bool Arith.
From Verif Require Import TypesModel.
Import ListNotations.

(** What matters of a type that is neither pointer nor array: std::is_default_constructible,
    std::is_trivially_default_constructible, ... as asked in include/rtti/metatype.h:237-302. The flags [sure_*] are the
    nothrow variants. [trivial_copy]: assigning to storage makes an object there. [steals]: its move constructor changes
    the source. [over_aligned]: its alignment is larger than what operator new(size_t) gives. [initial]: what new T()
    makes. *)
Record traits := Traits {
  has_default : bool; trivial_default : bool; sure_default : bool;
  has_copy : bool; sure_copy : bool; has_move : bool; sure_move : bool; steals : bool; trivial_copy : bool;
  trivial_destroy : bool; over_aligned : bool; initial : nat
}.

(** Pointers have all of it, trivially (no line of /repo). *)
Definition pointer_traits : traits := Traits true true true true true true true false true true false 0.

(** The storage of one object: of no object; the same, but not aligned for the type; of an object whose value is
    indeterminate, that has a value, that was moved from (no line of /repo). *)
Inductive cell := Raw | Crooked | Loose | Val (v : nat) | Hollow.

(** What happens to storage and to the object number [i] in it. include/rtti/metatype.h:226-309. *)
Inductive event := Allocated (p : nat) | Freed (p : nat) | Built (p i : nat) | Ended (p i : nat).

(** The addresses are the positions in the heap; what is freed is None there. [coins]: which of the next constructors
    that may throw do so. No line of /repo. *)
Record state := State { heap : list (option (list cell)); coins : list bool; log : list event }.

(** [Exn]: an exception leaves the function. [UB]: undefined behaviour. Of the functions of src/metatype.cpp:244-312. *)
Inductive out (A : Type) := Ok (a : A) (s : state) | Exn (s : state) | UB.
Arguments Ok {A}. Arguments Exn {A}. Arguments UB {A}.

(** ; (no line of /repo) *)
Definition bind {A B} (m : out A) (k : A -> state -> out B) : out B :=
  match m with Ok a s => k a s | Exn s => Exn s | UB => UB end.

(** Reading and writing what is in storage (no line of /repo). *)
Definition block (s : state) (p : nat) : option (list cell) := match nth_error (heap s) p with Some b => b | None => None end.
(** A list with one element replaced, no line of /repo. *)
Fixpoint set {A} (l : list A) (i : nat) (x : A) : list A :=
  match l, i with [], _ => [] | _ :: r, 0 => x :: r | a :: r, S j => a :: set r j x end.
(** A block of the heap is replaced, no line of /repo. *)
Definition put (s : state) (p : nat) (b : option (list cell)) (l : list event) : state :=
  State (set (heap s) p b) (coins s) (log s ++ l).
(** An object in a block is replaced, no line of /repo. *)
Definition put_cell (s : state) (p i : nat) (c : cell) (l : list event) : state :=
  match block s p with Some b => put s p (Some (set b i c)) l | None => s end.

(** Does this constructor throw (no line of /repo). *)
Definition throws (sure : bool) (s : state) : bool * state :=
  if sure then (false, s)
  else match coins s with [] => (false, s) | c :: r => (c, State (heap s) r (log s)) end.

Section Types.
  (** The types that are not built in. *)
  Variable cls : base -> traits.

  (** std::remove_all_extents_t, include/rtti/metatype.h:314. *)
  Fixpoint element (u : ty) : ty := match u with TArr t _ => element t | _ => u end.
  (** array_length, include/rtti/metatype.h:315; 1 for other types. *)
  Fixpoint number_of (u : ty) : nat := match u with TArr t n => N.to_nat n * number_of t | _ => 1 end.
  (** What include/rtti/metatype.h:237-302 ask of a type; pointers have traits of their own. *)
  Definition traits_of (u : ty) : traits := match element u with TBase _ _ b => cls b | _ => pointer_traits end.

  (** The type whose functions are registered, metatype.h:493, 508; [None]: metaTypeId<void>() (524-526) has no TypeInfo.
      void with const, and functions, do not compile (506, misc_traits.h:34-46). *)
  Definition managed (q : qty) : option ty :=
    match q_ty q with
    | TBase _ _ b => if base_kind_eq_dec (b_kind b) KVoid then None else Some (remove_all_cv (q_ty q))
    | _ => Some (remove_all_cv (q_ty q))
    end.

  (** allocate, metatype.h:226-229, 317-320: operator new(size_t) does not know the alignment of the type. *)
  Definition allocate (u : ty) (s : state) : out nat :=
    let p := length (heap s) in
    Ok p (State (heap s ++ [Some (repeat (if over_aligned (traits_of u) then Crooked else Raw) (number_of u))]) (coins s)
            (log s ++ [Allocated p])).

  (** deallocate, metatype.h:231-235, 322-326. *)
  Definition deallocate (p : nat) (s : state) : out unit :=
    match block s p with Some _ => Ok tt (put s p None [Freed p]) | None => UB end.

  (** new (where) T(...) for object number [i], which yields [c]. Objects need storage of their alignment.
      include/rtti/metatype.h:237-302. *)
  Definition build (sure : bool) (p i : nat) (c : cell) (s : state) : out unit :=
    match block s p with
    | Some b =>
        match nth_error b i with
        | Some Raw => let '(t, s') := throws sure s in if t then Exn s' else Ok tt (put_cell s' p i c [Built p i])
        | _ => UB
        end
    | None => UB
    end.

  (** The loop of metatype.h:337-341: from object [i], [n] of them. What was built before an exception stays. *)
  Fixpoint build_all (sure : bool) (p i n : nat) (c : cell) (s : state) : out unit :=
    match n with 0 => Ok tt s | S n' => bind (build sure p i c s) (fun _ s' => build_all sure p (S i) n' c s') end.

  (** Objects of trivial types need no constructor: nothing is written (metatype.h:243, 334). *)
  Definition loosen (p : nat) (s : state) : out unit :=
    match block s p with
    | Some b => Ok tt (put s p (Some (map (fun c => match c with Raw => Loose | c => c end) b)) [])
    | None => UB
    end.

  (** default_construct, metatype.h:237-249, 328-345. *)
  Definition default_construct (u : ty) (p : nat) (s : state) : out unit :=
    let t := traits_of u in
    if has_default t
    then if trivial_default t then loosen p s else build_all (sure_default t) p 0 (number_of u) (Val (initial t)) s
    else Exn s.

  (** What a copy of an object is; an indeterminate value, or no object, must not be read (no line of /repo). *)
  Definition copied (c : cell) : option cell := match c with Val v => Some (Val v) | Hollow => Some Hollow | _ => None end.

  (** std::copy and std::move onto the storage of an array, metatype.h:355-356, 370-371: assignments. ArrayModel has their
      details; here: for trivial types they copy, for others they write to objects that are not there. *)
  Fixpoint assign_all (p i : nat) (cs : list cell) (s : state) : out unit :=
    match cs with
    | [] => Ok tt s
    | c :: r => match copied c, block s p with
                | Some c', Some b => match nth_error b i with
                                     | Some Raw | Some Loose => assign_all p (S i) r (put_cell s p i c' [Built p i])
                                     | _ => UB
                                     end
                | _, _ => UB
                end
    end.
  (** include/rtti/metatype.h:347-359. *)
  Definition array_copy (u : ty) (src p : nat) (s : state) : out unit :=
    match block s src with
    | Some cs => if trivial_copy (traits_of u) then assign_all p 0 (firstn (number_of u) cs) s else UB
    | None => UB
    end.

  (** copy_construct, metatype.h:251-262, 347-360. *)
  Definition copy_construct (u : ty) (src p : nat) (s : state) : out unit :=
    let t := traits_of u in
    if has_copy t
    then if is_array u then array_copy u src p s
         else match block s src with
              | Some (c :: _) => match copied c with Some c' => build (sure_copy t) p 0 c' s | None => UB end
              | _ => UB
              end
    else Exn s.

  (** move_construct, metatype.h:264-274, 362-375. A move constructor that throws leaves the source as it was. *)
  Definition move_construct (u : ty) (src p : nat) (s : state) : out unit :=
    let t := traits_of u in
    if has_move t
    then if is_array u then array_copy u src p s
         else match block s src with
              | Some (c :: _) =>
                  match copied c with
                  | Some c' => bind (build (sure_move t) p 0 c' s)
                                 (fun _ s' => Ok tt (if steals t then put_cell s' src 0 Hollow [] else s'))
                  | None => UB
                  end
              | _ => UB
              end
    else Exn s.

  (** move_or_copy, metatype.h:278-284, 377-383. *)
  Definition move_or_copy (u : ty) (src p : nat) (s : state) : out unit :=
    if has_move (traits_of u) then move_construct u src p s else copy_construct u src p s.

  (** The destructor of object number [i]; of an array in the loop of metatype.h:389-394. *)
  Fixpoint destroy_all (p i n : nat) (s : state) : out unit :=
    match n with
    | 0 => Ok tt s
    | S n' =>
        match block s p with
        | Some b => match nth_error b i with
                    | Some (Val _) | Some Hollow | Some Loose => destroy_all p (S i) n' (put_cell s p i Raw [Ended p i])
                    | _ => UB
                    end
        | None => UB
        end
    end.
  (** destroy, metatype.h:286-291, 385-395. *)
  Definition destroy (u : ty) (p : nat) (s : state) : out unit :=
    if trivial_destroy (traits_of u) then Ok tt s else destroy_all p 0 (number_of u) s.

  (** MetaType::construct, src/metatype.cpp:292-303, with 244-248, 256-260, 262-266, 274-278. [copy]: null or the address of an
      object. Null is returned for a type that is not valid. *)
  Definition construct (q : qty) (copy : option nat) (movable : bool) (s : state) : out (option nat) :=
    match managed q with
    | None => Ok None s
    | Some u =>
        bind (allocate u s) (fun p s1 =>
        bind (match copy with
              | None => default_construct u p s1                                                          (* 295-296 *)
              | Some src => if movable then move_or_copy u src p s1 else copy_construct u src p s1        (* 297-300 *)
              end) (fun _ s2 => Ok (Some p) s2))
    end.

  (** MetaType::destruct, src/metatype.cpp:305-312, with 250-254, 280-284. *)
  Definition destruct_ (q : qty) (instance : option nat) (s : state) : out unit :=
    match instance, managed q with
    | None, _ => Ok tt s
    | _, None => Ok tt s
    | Some p, Some u => bind (destroy u p s) (fun _ s1 => deallocate p s1)
    end.

  (** *** A client *)

  (** Calls of a client that keeps what construct returns; [x]: what the x-th call of construct returned.
      src/metatype.cpp:292-312. *)
  Inductive call := Make (q : qty) | Copy (q : qty) (x : nat) | Move (q : qty) (x : nat) | End_ (q : qty) (x : nat).
  (** What the client learns of src/metatype.cpp:292-312. *)
  Inductive answer := Made | Threw | Done.

  (** One call; the client catches exceptions and holds null then (no line of /repo). *)
  Definition keep (held : list (option nat)) (m : out (option nat)) : option (list (option nat) * answer * state) :=
    match m with
    | Ok p s => Some (held ++ [p], Made, s)
    | Exn s => Some (held ++ [None], Threw, s)
    | UB => None
    end.
  (** One call, src/metatype.cpp:292-312. *)
  Definition act (c : call) (held : list (option nat)) (s : state) : option (list (option nat) * answer * state) :=
    let at_ x := nth x held None in
    match c with
    | Make q => keep held (construct q None false s)
    | Copy q x => keep held (construct q (at_ x) false s)
    | Move q x => keep held (construct q (at_ x) true s)
    | End_ q x => match destruct_ q (at_ x) s with
                  | Ok _ s' => Some (set held x None, Done, s')
                  | Exn s' => Some (held, Threw, s')
                  | UB => None
                  end
    end.
  (** A client decides by the answers what to call next; None: undefined behaviour (no line of /repo). *)
  Inductive client := Stop | Then (c : call) (k : answer -> client).
  (** A client, no line of /repo. *)
  Fixpoint run (m : client) (held : list (option nat)) (s : state) : option (list (option nat) * list (call * answer) * state) :=
    match m with
    | Stop => Some (held, [], s)
    | Then c k => match act c held s with
                  | Some (held', a, s') =>
                      match run (k a) held' s' with Some (h, l, s'') => Some (h, (c, a) :: l, s'') | None => None end
                  | None => None
                  end
    end.
End Types.
