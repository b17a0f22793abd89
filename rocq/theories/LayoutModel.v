(** Model of where the contents of variants lie: include/rtti/variant.h:19-26, 604-608, include/rtti/detail/variant_impl.h:8-330,
    436-456, src/variant.cpp:7-89, include/rtti/metatype.h:226-235, 317-326.
    Addresses are numbers. Sizes are those of 64-bit targets: pointers have 8 bytes, `operator new` aligns to 16.
    Not modelled: constructors that throw (OomModel.v, VarModel.v), what the contents are. *)
From Coq Require Import List Bool Arith.
Import ListNotations.

(** variant.h:19-20; sizeof and alignof of variant (604-608: the storage, then the manager); the alignment that `operator new(n)`
    guarantees (__STDCPP_DEFAULT_NEW_ALIGNMENT__). *)
Definition STORAGE_ALIGN := 8.
(** include/rtti/variant.h:19-26. *)
Definition STORAGE_SIZE := 16.
(** include/rtti/variant.h:604-608. *)
Definition VARIANT_SIZE := 24.
(** operator new as called in include/rtti/metatype.h:226-229; the number is the compiler's. *)
Definition NEW_ALIGN := 16.

(** A type that variants hold: sizeof, alignof, and whether it is a reference_wrapper or an array (variant_impl.h:18-25, 253, 333). *)
Inductive form := Plain | Wrapper | Array.
(** The T of include/rtti/detail/variant_impl.h:45-50. *)
Record ctype := CType { size : nat; align : nat; formed : form }.

(** is_inplace, variant_impl.h:8-9, and the choice of the implementation, 45-50, 253-254, 331-336. *)
Inductive where_ := InPlace | Refer | Heap.
(** include/rtti/detail/variant_impl.h:8-9, 45-50, 253-254, 331-336. *)
Definition place_of (T : ctype) : where_ :=
  match formed T with
  | Wrapper => Refer
  | Array => Heap
  | Plain => if size T <=? STORAGE_SIZE then InPlace else Heap
  end.

(** What goes wrong: an object at an address that its type does not allow; one that is not in live storage; operator delete of
    something else than a live block; an uninitialised pointer read.
    The undefined behaviour of include/rtti/detail/variant_impl.h:73-105, 208-243, 280-315. *)
Inductive fault := Misaligned (T : ctype) (a : nat) | OutOfBounds (T : ctype) (a : nat) | WildFree | Indeterminate.

(** The variants that exist, by address, with their manager ([None]: that of void); the live blocks of the heap; the live
    `temporary` of swap; what `ptr` of the storage at each address is ([None]: indeterminate); the addresses that the environment
    chooses for blocks and automatic objects; what went wrong.
    The members of include/rtti/variant.h:19-26, 604-608 and the storage of the process. *)
Record state := State {
  vars : list (nat * option ctype); blocks : list (nat * nat); temps : list nat;
  ptrs : nat -> option nat; oracle : list nat; faults : list fault }.

(** Update of the state, no counterpart in /repo. *)
Definition with_vars s v := State v (blocks s) (temps s) (ptrs s) (oracle s) (faults s).
(** Update of the state, no counterpart in /repo. *)
Definition with_blocks s b := State (vars s) b (temps s) (ptrs s) (oracle s) (faults s).
(** Update of the state, no counterpart in /repo. *)
Definition with_temps s t := State (vars s) (blocks s) t (ptrs s) (oracle s) (faults s).
(** Assignment to `ptr` of include/rtti/variant.h:22-26. *)
Definition with_ptr s a p := State (vars s) (blocks s) (temps s) (fun x => if x =? a then p else ptrs s x) (oracle s) (faults s).
(** Update of the state, no counterpart in /repo. *)
Definition with_oracle s o := State (vars s) (blocks s) (temps s) (ptrs s) o (faults s).
(** Record of undefined behaviour, no counterpart in /repo. *)
Definition blame s f := State (vars s) (blocks s) (temps s) (ptrs s) (oracle s) (f :: faults s).

(** [None]: no execution goes on like this (the environment would have to give an address it may not give, or the program uses a
    variant that does not exist). A monad of the model, no counterpart in /repo. *)
Definition M (A : Type) := state -> option (A * state).
(** Of the monad, no counterpart in /repo. *)
Definition ret {A} (x : A) : M A := fun s => Some (x, s).
(** Of the monad, no counterpart in /repo. *)
Definition bind {A B} (m : M A) (f : A -> M B) : M B := fun s => match m s with Some (x, s') => f x s' | None => None end.
Notation "x <- m ;; f" := (bind m (fun x => f)) (at level 100, m at next level, right associativity).
Notation "m ;; f" := (bind m (fun _ => f)) (at level 100, right associativity).

(** *** Storage *)

(** Disjoint regions of storage, no counterpart in /repo. *)
Definition apart (r q : nat * nat) : bool := (fst r + snd r <=? fst q) || (fst q + snd q <=? fst r).
(** All live storage: variants and blocks, include/rtti/variant.h:604-608, and `temporary` of src/variant.cpp:42-77. *)
Definition regions (s : state) : list (nat * nat) :=
  map (fun v => (fst v, VARIANT_SIZE)) (vars s) ++ map (fun t => (t, STORAGE_SIZE)) (temps s) ++ blocks s.
(** New storage lies apart from all other live storage and is aligned.
    A promise of the implementation, no counterpart in /repo. *)
Definition fits (s : state) (a n al : nat) : bool := (a mod al =? 0) && forallb (apart (a, n)) (regions s).
(** The address that the environment gives next, no counterpart in /repo. *)
Definition pop : M nat := fun s => match oracle s with a :: o => Some (a, with_oracle s o) | [] => None end.

(** metatype.h:226-229, 317-320 (for arrays Length * sizeof(Base) is the size of the array). *)
Definition allocate (n : nat) : M nat :=
  a <- pop ;; fun s => if fits s a n NEW_ALIGN then Some (a, with_blocks s ((a, n) :: blocks s)) else None.
(** metatype.h:231-235, 322-326. *)
Definition deallocate (p : nat) : M unit := fun s =>
  if existsb (fun b => fst b =? p) (blocks s) then Some (tt, with_blocks s (filter (fun b => negb (fst b =? p)) (blocks s)))
  else Some (tt, blame s WildFree).

(** Live storage that may hold contents: the storage of a variant or of swap, or a block.
    include/rtti/variant.h:19-26, src/variant.cpp:42-77, include/rtti/metatype.h:226-229. *)
Definition inside (s : state) (a n : nat) : bool :=
  existsb (fun r => (fst r <=? a) && (a + n <=? fst r + snd r))
    (map (fun v => (fst v, STORAGE_SIZE)) (vars s) ++ map (fun t => (t, STORAGE_SIZE)) (temps s) ++ blocks s).
(** An object of type T is made, used or destroyed at an address.
    The placement new, use or destructor call of include/rtti/detail/variant_impl.h:90-105, 227-243, 299-315. *)
Definition touch (T : ctype) (a : nat) : M unit := fun s =>
  let s := if a mod align T =? 0 then s else blame s (Misaligned T a) in
  let s := if inside s a (size T) then s else blame s (OutOfBounds T a) in
  Some (tt, s).
(** The value of `ptr`; reading an indeterminate one is undefined. include/rtti/variant.h:22-26. *)
Definition read_ptr (a : nat) : M (option nat) := fun s =>
  Some (ptrs s a, match ptrs s a with Some _ => s | None => blame s Indeterminate end).
(** include/rtti/variant.h:22-26. *)
Definition write_ptr (a : nat) (p : option nat) : M unit := fun s => Some (tt, with_ptr s a p).
(** type_manager_t<T>::f(storage.ptr). As in include/rtti/detail/variant_impl.h:227-243, 299-315. *)
Definition touch_at (T : ctype) (p : option nat) : M unit :=
  match p with Some x => touch T x | None => fun s => Some (tt, blame s (OutOfBounds T 0)) end.

(** *** The functions of the manager; [a], [b]: addresses of storages *)

(** copy_construct and move_construct, variant_impl.h:78-88, 146-156, 213-225, 285-297; [x]: what a wrapper refers to. *)
Definition f_construct (T : ctype) (x a : nat) : M unit :=
  match place_of T with
  | InPlace => touch T a
  | Refer => write_ptr a (Some x)
  | Heap => p <- allocate (size T) ;; write_ptr a (Some p) ;; touch T p
  end.
(** copy, 90-94, 158-161, 227-232, 299-304. All of include/rtti/detail/variant_impl.h. *)
Definition f_copy (T : ctype) (a b : nat) : M unit :=
  match place_of T with
  | InPlace => touch T a ;; touch T b
  | Refer => p <- read_ptr a ;; write_ptr b p
  | Heap => p <- allocate (size T) ;; write_ptr b (Some p) ;; q <- read_ptr a ;; touch_at T q ;; touch T p
  end.
(** move, 96-100, 163-166, 234-237, 306-309: on the heap std::swap of the pointers. All of include/rtti/detail/variant_impl.h. *)
Definition f_move (T : ctype) (a b : nat) : M unit :=
  match place_of T with
  | InPlace => touch T a ;; touch T b
  | Refer => p <- read_ptr a ;; write_ptr b p
  | Heap => p <- read_ptr a ;; q <- read_ptr b ;; write_ptr a q ;; write_ptr b p
  end.
(** destroy, 102-105, 168-169, 239-243, 311-315. All of include/rtti/detail/variant_impl.h. *)
Definition f_destroy (T : ctype) (a : nat) : M unit :=
  match place_of T with
  | InPlace => touch T a
  | Refer => ret tt
  | Heap => p <- read_ptr a ;; touch_at T p ;; match p with Some x => deallocate x | None => ret tt end
  end.
(** access, 73-76, 138-144, 208-211, 280-283 (arrays: what the pointer it gives leads to).
    All of include/rtti/detail/variant_impl.h. *)
Definition f_access (T : ctype) (a : nat) : M (option nat) :=
  match place_of T with InPlace => ret (Some a) | Refer | Heap => read_ptr a end.

(** *** Variants *)

(** Reading the member of include/rtti/variant.h:604-608. *)
Definition manager (a : nat) : M (option ctype) := fun s =>
  match find (fun v => fst v =? a) (vars s) with Some v => Some (snd v, s) | None => None end.
(** Writing the member of include/rtti/variant.h:604-608. *)
Definition set_manager (a : nat) (m : option ctype) : M unit := fun s =>
  Some (tt, with_vars s (map (fun v => if fst v =? a then (a, m) else v) (vars s))).
(** A new variant at an address (the client's choice, or the compiler's for a temporary); variant(), src/variant.cpp:7-9, leaves the
    storage uninitialised. *)
Definition place_var (a : nat) : M unit := fun s =>
  if fits s a VARIANT_SIZE STORAGE_ALIGN then Some (tt, with_ptr (with_vars s ((a, None) :: vars s)) a None) else None.
(** The end of the lifetime of a variant, no counterpart in /repo. *)
Definition remove_var (a : nat) : M unit := fun s => Some (tt, with_vars s (filter (fun v => negb (fst v =? a)) (vars s))).
(** `temporary` of src/variant.cpp:42-77. *)
Definition push_temp : M nat :=
  t <- pop ;; fun s => if fits s t STORAGE_SIZE STORAGE_ALIGN then Some (t, with_ptr (with_temps s (t :: temps s)) t None) else None.
(** The end of the scope of `temporary`, src/variant.cpp:42-77. *)
Definition pop_temp : M unit := fun s => Some (tt, with_temps s (tl (temps s))).

(** src/variant.cpp:42-77. *)
Definition swap (a b : nat) : M unit :=
  m <- manager a ;; n <- manager b ;;
  match m, n with
  | None, None => ret tt
  | None, Some U => f_move U b a ;; set_manager a n ;; set_manager b None ;; write_ptr b (Some 0)
  | Some T, None => f_move T a b ;; set_manager b m ;; set_manager a None ;; write_ptr a (Some 0)
  | Some T, Some U =>
      t <- push_temp ;; f_move T a t ;; f_move U b a ;; f_move T t b ;; set_manager a n ;; set_manager b m ;; pop_temp
  end.
(** src/variant.cpp:79-84. *)
Definition clear (a : nat) : M unit :=
  m <- manager a ;; match m with Some T => f_destroy T a | None => ret tt end ;; set_manager a None ;; write_ptr a (Some 0).
(** variant::~variant, src/variant.cpp:37-40. *)
Definition destructor (a : nat) : M unit := clear a ;; remove_var a.

(** variant(T&&), variant_impl.h:436-449; variant(variant const&), src/variant.cpp:11-15; variant(variant&&), 24-28. *)
Definition from_value (a : nat) (T : ctype) (x : nat) : M unit := place_var a ;; set_manager a (Some T) ;; f_construct T x a.
(** src/variant.cpp:11-15. *)
Definition copy_of (a b : nat) : M unit :=
  m <- manager b ;; place_var a ;; set_manager a m ;; match m with Some T => f_copy T b a | None => ret tt end.
(** src/variant.cpp:24-28. *)
Definition moved_from (a b : nat) : M unit := m <- manager b ;; place_var a ;; swap a b.

(** operator=, variant_impl.h:451-456, src/variant.cpp:17-22, 30-35: through a temporary variant. *)
Definition assign_value (a : nat) (T : ctype) (x : nat) : M unit := t <- pop ;; from_value t T x ;; swap t a ;; destructor t.
(** src/variant.cpp:17-22. *)
Definition assign (a b : nat) : M unit := if a =? b then ret tt else t <- pop ;; copy_of t b ;; swap t a ;; destructor t.
(** src/variant.cpp:30-35. *)
Definition move_assign (a b : nat) : M unit := if a =? b then ret tt else t <- pop ;; moved_from t b ;; swap t a ;; destructor t.

(** A client: what it does with variants; it chooses the addresses of its own.
    The operations of src/variant.cpp:7-89 and include/rtti/detail/variant_impl.h:436-456. *)
Inductive op :=
| Default (a : nat) | Make (a : nat) (T : ctype) (x : nat) | CopyOf (a b : nat) | MoveOf (a b : nat)
| SetValue (a : nat) (T : ctype) (x : nat) | Assign (a b : nat) | MoveAssign (a b : nat) | Swap (a b : nat) | Clear (a : nat) | Drop (a : nat).
(** One such operation: src/variant.cpp:7-89, include/rtti/detail/variant_impl.h:436-456. *)
Definition exec (o : op) : M unit :=
  match o with
  | Default a => place_var a
  | Make a T x => from_value a T x
  | CopyOf a b => copy_of a b
  | MoveOf a b => moved_from a b
  | SetValue a T x => manager a ;; assign_value a T x
  | Assign a b => manager a ;; manager b ;; assign a b
  | MoveAssign a b => manager a ;; manager b ;; move_assign a b
  | Swap a b => swap a b
  | Clear a => clear a
  | Drop a => manager a ;; destructor a
  end.
(** A client of src/variant.cpp:7-89. *)
Fixpoint exec_all (l : list op) : M unit :=
  match l with [] => ret tt | o :: l' => exec o ;; exec_all l' end.
(** The state before the first operation, no counterpart in /repo. *)
Definition start (o : list nat) : state := State [] [] [] (fun _ => None) o [].
