(** Model of what a variant does to the objects it holds: construction, copy, move, assignment, swap, clear and
    destruction (src/variant.cpp:7-89, include/rtti/detail/variant_impl.h:52-335, 400-415, 436-456,
    include/rtti/metatype.h:223-309).

    Objects are a value and, for types that own something, a resource. The heap, the resources and the objects
    outside (which references refer to) are explicit, so that leaks, double releases and uses of dead storage are
    visible. Accessors and conversions are in other files. *)
From Coq Require Import List Bool Arith.
From Verif Require Import DeferModel.
Import ListNotations.

(** Which of the function tables serves the type (include/rtti/detail/variant_impl.h:46-50): in place
    (52-117), reference_wrapper (119-185), heap (187-256), array (258-335). *)
Inductive shape := Inplace | Heap | Array | Ref.

(** What matters of a C++ type.
    [owns]: its objects own a resource which the destructor releases (not trivially destructible).
    [copyable]: std::is_copy_constructible. [steals]: it has a move constructor, which takes the resource and leaves
    a hollow object; otherwise a move is a copy (either through a copy constructor that binds to rvalues or through
    move_or_copy, include/rtti/metatype.h:278-284). [fallible]: the copy constructor may throw.
    Simplified: move constructors do not throw. *)
Record ty := Ty { shape_of : shape; owns : bool; copyable : bool; steals : bool; fallible : bool }.

(** An object; [None] in [val]: moved from. The T of include/rtti/detail/variant_impl.h:52-335. *)
Record obj := Obj { val : option nat; res : option nat }.

(** A moved-from object, no line of /repo. *)
Definition hollow : obj := Obj None None.

(** include/rtti/variant.h:22-26, the union. [Raw]: nothing of interest (zeroed, uninitialised or left-over bytes). *)
Inductive storage := Raw | In_ (o : obj) | Ptr (b : nat) | Addr (e : nat).

(** include/rtti/variant.h:610-614; [None] is the table of void (variant_impl.h:400-415). *)
Record var := Var { mgr : option ty; st : storage }.

(** [heap]: the blocks ever allocated, with the object in them. [freed], [released]: blocks and resources given back,
    [acquired]: the resources ever made, [ext]: objects outside, [fails]: which of the coming fallible copies throw.
    Ghost: [lost], [lostb]: resources and blocks nobody can reach any more; [built], [ended]: constructor and
    destructor calls of owning types. No line of /repo: the storage of the process. *)
Record store := Store {
  heap : list (option obj); freed : list nat; lostb : list nat;
  acquired : nat; released : list nat; lost : list nat;
  ext : list nat; fails : list bool; built : nat; ended : nat }.

(** [Exn]: an exception leaves the function. [UB]: undefined behaviour. [Term]: std::terminate. No line of /repo. *)
Inductive out (A : Type) := Ok (a : A) (s : store) | Exn (s : store) | UB | Term.
Arguments Ok {A}. Arguments Exn {A}. Arguments UB {A}. Arguments Term {A}.

(** Of the monad, no line of /repo. *)
Definition bind {A B} (m : out A) (f : A -> store -> out B) : out B :=
  match m with Ok a s => f a s | Exn s => Exn s | UB => UB | Term => Term end.

(** ** Changes of the store (no lines of /repo) *)
(** Update of the store, no line of /repo. *)
Definition with_heap s h := Store h (freed s) (lostb s) (acquired s) (released s) (lost s) (ext s) (fails s) (built s) (ended s).
(** Update of the store, no line of /repo. *)
Definition with_freed s f := Store (heap s) f (lostb s) (acquired s) (released s) (lost s) (ext s) (fails s) (built s) (ended s).
(** Update of the store, no line of /repo. *)
Definition with_lostb s l := Store (heap s) (freed s) l (acquired s) (released s) (lost s) (ext s) (fails s) (built s) (ended s).
(** Update of the store, no line of /repo. *)
Definition with_lost s l := Store (heap s) (freed s) (lostb s) (acquired s) (released s) l (ext s) (fails s) (built s) (ended s).
(** Update of the store, no line of /repo. *)
Definition with_ext s e := Store (heap s) (freed s) (lostb s) (acquired s) (released s) (lost s) e (fails s) (built s) (ended s).
(** Update of the store, no line of /repo. *)
Definition with_fails s l := Store (heap s) (freed s) (lostb s) (acquired s) (released s) (lost s) (ext s) l (built s) (ended s).

(** A constructor ran: one more object of an owning type, with a fresh resource if [fresh]. Ghost, no line of /repo. *)
Definition note_built (t : ty) (fresh : bool) s :=
  Store (heap s) (freed s) (lostb s) (if fresh then S (acquired s) else acquired s) (released s) (lost s) (ext s) (fails s)
        (if owns t then S (built s) else built s) (ended s).

(** A destructor ran and released [r]. Ghost, no line of /repo. *)
Definition note_ended (t : ty) (r : option nat) s :=
  Store (heap s) (freed s) (lostb s) (acquired s) (match r with Some x => x :: released s | None => released s end)
        (lost s) (ext s) (fails s) (built s) (if owns t then S (ended s) else ended s).

(** ** Objects *)

(** Does the next fallible copy throw. The user's copy constructor as called in include/rtti/metatype.h:252-263. *)
Definition draw (t : ty) (s : store) : bool * store :=
  if fallible t then match fails s with [] => (false, s) | b :: r => (b, with_fails s r) end else (false, s).

(** include/rtti/metatype.h:252-263: `new (where) T( *source)`, or runtime_error if T cannot be copied. *)
Definition copy_obj (t : ty) (o : obj) (s : store) : out obj :=
  if copyable t then
    let '(f, s1) := draw t s in
    if f then Exn s1 else
    let fresh := owns t && (match res o with Some _ => true | None => false end) in
    Ok (Obj (val o) (if fresh then Some (acquired s1) else None)) (note_built t fresh s1)
  else Exn s.

(** include/rtti/metatype.h:278-284, 265-274. Returns the new object and what is left of the old one. *)
Definition move_obj (t : ty) (o : obj) (s : store) : out (obj * obj) :=
  if steals t then Ok (o, hollow) (note_built t false s)
  else bind (copy_obj t o s) (fun o' s' => Ok (o', o) s').

(** include/rtti/metatype.h:286-291. Releasing twice is undefined. *)
Definition destroy_obj (t : ty) (o : obj) (s : store) : out unit :=
  match res o with
  | Some r => if in_dec Nat.eq_dec r (released s) then UB else Ok tt (note_ended t (Some r) s)
  | None => Ok tt (note_ended t None s)
  end.

(** The object in a block; undefined if there is none or the block was freed.
    What `ptr` of include/rtti/variant.h:22-26 leads to. *)
Definition block (s : store) (b : nat) : option obj :=
  if in_dec Nat.eq_dec b (freed s) then None
  else match nth_error (heap s) b with Some x => x | None => None end.

(** ** The function tables *)

(** A constructor runs on a new block (variant_impl.h:210-229, 281-300): allocate, then construct; if that throws
    nobody frees the block. Constructing an array assigns to elements that do not exist
    (include/rtti/metatype.h:347-375): undefined for elements that own something. *)
Definition on_heap (t : ty) (build : store -> out obj) (s : store) : out nat :=
  let b := length (heap s) in
  let s1 := with_heap s (heap s ++ [None]) in
  match shape_of t, owns t with
  | Array, true => UB
  | _, _ =>
      match build s1 with
      | Ok o s2 => Ok b (with_heap s2 (put (heap s2) b (Some o)))
      | Exn s2 => Exn (with_lostb s2 (b :: lostb s2))
      | UB => UB
      | Term => Term
      end
  end.

(** f_copy: variant_impl.h:87-91 (in place), 153-156 (reference), 224-229 (heap), 295-300 (array), 407 (void). *)
Definition f_copy (m : option ty) (src : storage) (s : store) : out storage :=
  match m with
  | None => Ok Raw s
  | Some t =>
      match shape_of t, src with
      | Inplace, In_ o => bind (copy_obj t o s) (fun o' s' => Ok (In_ o') s')
      | (Heap | Array), Ptr b =>
          match block s b with
          | Some o => bind (on_heap t (copy_obj t o) s) (fun b' s' => Ok (Ptr b') s')
          | None => UB
          end
      | Ref, Addr e => Ok (Addr e) s
      | _, _ => UB
      end
  end.

(** Bytes of a storage are overwritten: what they alone led to is lost. Ghost.
    No line of /repo; it happens in src/variant.cpp:42-84. *)
Definition abandon (x : storage) (s : store) : store :=
  match x with
  | In_ o => match res o with Some r => with_lost s (r :: lost s) | None => s end
  | Ptr b => with_lostb s (b :: lostb s)
  | _ => s
  end.

(** f_move: variant_impl.h:93-97 (in place: construct, the source stays constructed), 158-161 (reference), 231-234 and
    302-305 (heap, array: the pointers are swapped), 408 (void). Returns the source and the destination. *)
Definition f_move (m : option ty) (src dst : storage) (s : store) : out (storage * storage) :=
  match m with
  | None => Ok (src, dst) s
  | Some t =>
      match shape_of t, src with
      | Inplace, In_ o => bind (move_obj t o s) (fun '(o', old) s' => Ok (In_ old, In_ o') (abandon dst s'))
      | (Heap | Array), Ptr b =>
          match dst with
          | Ptr _ => Ok (dst, Ptr b) s
          | _ => Ok (Raw, Ptr b) (abandon dst s)
          end
      | Ref, Addr e => Ok (Addr e, Addr e) (abandon dst s)
      | _, _ => UB
      end
  end.

(** f_destroy: variant_impl.h:99-102, 163-164, 236-240, 307-311, 409. *)
Definition f_destroy (m : option ty) (x : storage) (s : store) : out unit :=
  match m with
  | None => Ok tt s
  | Some t =>
      match shape_of t, x with
      | Inplace, In_ o => destroy_obj t o s
      | (Heap | Array), Ptr b =>
          match block s b with
          | Some o =>
              bind (destroy_obj t o s) (fun _ s' => Ok tt (with_freed (with_heap s' (put (heap s') b None)) (b :: freed s')))
          | None => UB
          end
      | Ref, Addr _ => Ok tt s
      | _, _ => UB
      end
  end.

(** An exception in a noexcept function: src/variant.cpp:24,30,37,42,79. *)
Definition noexcept {A} (m : out A) : out A := match m with Exn _ => Term | x => x end.

(** ** variant *)

(** src/variant.cpp:7-9; the storage is not initialised. *)
Definition v_empty : var := Var None Raw.

(** src/variant.cpp:86-89. *)
Definition is_empty (v : var) : bool := match mgr v with None => true | Some _ => false end.

(** src/variant.cpp:42-77, on two distinct variants: this [a] and other [b]. *)
Definition v_swap (a b : var) (s : store) : out (var * var) :=
  noexcept
  (match mgr a, mgr b with
   | None, None => Ok (a, b) s
   | None, Some t =>
       bind (f_move (Some t) (st b) (st a) s) (fun '(src, dst) s' => Ok (Var (Some t) dst, Var None Raw) (abandon src s'))
   | Some t, None =>
       bind (f_move (Some t) (st a) (st b) s) (fun '(src, dst) s' => Ok (Var None Raw, Var (Some t) dst) (abandon src s'))
   | Some t, Some u =>
       bind (f_move (Some t) (st a) Raw s) (fun '(a1, temp) s1 =>
       bind (f_move (Some u) (st b) a1 s1) (fun '(b1, a2) s2 =>
       bind (f_move (Some t) temp b1 s2) (fun '(temp', b2) s3 =>
       Ok (Var (Some u) a2, Var (Some t) b2) (abandon temp' s3))))
   end).

(** Objects of a type that can be copied as bytes, for which constructing one from itself does nothing.
    No line of /repo: a property of the user's type. *)
Definition trivial (t : ty) : bool := negb (owns t) && negb (fallible t) && negb (steals t).

(** src/variant.cpp:42-77 when other is *this: the content is moved to the temporary, then constructed from itself in
    its own place (72), which is undefined unless the type is trivial; heap contents come back through the pointers. *)
Definition v_swap_self (a : var) (s : store) : out var :=
  match mgr a with
  | Some t => match shape_of t with Inplace => if trivial t then Ok a s else UB | _ => Ok a s end
  | None => Ok a s
  end.

(** src/variant.cpp:79-84 and 37-40. *)
Definition v_clear (v : var) (s : store) : out var :=
  noexcept (bind (f_destroy (mgr v) (st v) s) (fun _ s' => Ok v_empty s')).

(** src/variant.cpp:11-15. *)
Definition v_copy (v : var) (s : store) : out var :=
  bind (f_copy (mgr v) (st v) s) (fun x s' => Ok (Var (mgr v) x) s').

(** src/variant.cpp:24-28: the new variant and what is left of the other. *)
Definition v_move (v : var) (s : store) : out (var * var) := v_swap v_empty v s.

(** include/rtti/detail/variant_impl.h:436-449 with 79-85, 215-222, 286-293 from a caller's object of value [x], passed
    as an rvalue or not. The caller's object is the caller's business: it is not in the model, a moved one hands its
    resource over. A type that can neither be copied nor (for an rvalue) moved does not compile (443-446). *)
Definition v_make (t : ty) (x : nat) (rvalue : bool) (s : store) : out var :=
  let theirs := Obj (Some x) (if owns t then Some 0 else None) in
  let build s :=
    if rvalue && steals t
    then Ok (Obj (Some x) (if owns t then Some (acquired s) else None)) (note_built t (owns t) s)
    else copy_obj t theirs s in
  match shape_of t with
  | Inplace => bind (build s) (fun o s' => Ok (Var (Some t) (In_ o)) s')
  | _ => bind (on_heap t build s) (fun b s' => Ok (Var (Some t) (Ptr b)) s')
  end.

(** The type of std::ref(x), variant_impl.h:119-185. *)
Definition ref_ty : ty := Ty Ref false true false false.

(** ** Programs *)

(** Statements over numbered variants. The functions of src/variant.cpp:7-89 and include/rtti/detail/variant_impl.h:436-456. *)
Inductive op :=
| New (i : nat)                                     (* variant i; *)
| Make (i : nat) (t : ty) (x : nat) (rv : bool)     (* variant i = value *)
| MakeRef (i e : nat)                               (* variant i = std::ref(object e) *)
| CopyNew (i j : nat)                               (* variant i{j} *)
| MoveNew (i j : nat)                               (* variant i{std::move(j)} *)
| CopyAssign (i j : nat)                            (* i = j *)
| MoveAssign (i j : nat)                            (* i = std::move(j) *)
| Assign (i : nat) (t : ty) (x : nat) (rv : bool)   (* i = value *)
| AssignRef (i e : nat)                             (* i = std::ref(object e) *)
| Swap (i j : nat)                                  (* swap(i, j) *)
| Clear (i : nat)                                   (* i.clear() *)
| Drop (i : nat)                                    (* end of the life of variant i *)
| Write (i : nat) (x : nat).                        (* i.ref<T>() = x, through the accessor of the content *)

(** The variants alive. No line of /repo. *)
Definition scope : Type := list (option var).

(** No line of /repo. *)
Definition alive (vs : scope) (i : nat) : option var := match nth_error vs i with Some (Some v) => Some v | _ => None end.

(** A name whose variant is not alive, no line of /repo. *)
Definition dead (vs : scope) (i : nat) : bool := match nth_error vs i with Some None => true | _ => false end.

(** `variant{...}.swap( *this)` and the end of the temporary: src/variant.cpp:20, 33 and variant_impl.h:454. *)
Definition replace (temp this : var) (s : store) : out var :=
  bind (v_swap temp this s) (fun '(temp', this') s' => bind (v_clear temp' s') (fun _ s'' => Ok this' s'')).

(** One statement; a statement that makes no sense (uses a variant outside its life) does nothing.
    src/variant.cpp:7-89, include/rtti/detail/variant_impl.h:436-456. *)
Definition exec (o : op) (vs : scope) (s : store) : out scope :=
  let skip := Ok vs s in
  match o with
  | New i => if dead vs i then Ok (put vs i (Some v_empty)) s else skip
  | Make i t x rv =>
      if dead vs i then bind (v_make t x rv s) (fun v s' => Ok (put vs i (Some v)) s') else skip
  | MakeRef i e =>
      if dead vs i && (e <? length (ext s)) then Ok (put vs i (Some (Var (Some ref_ty) (Addr e)))) s else skip
  | CopyNew i j =>
      match alive vs j with
      | Some v => if dead vs i then bind (v_copy v s) (fun v' s' => Ok (put vs i (Some v')) s') else skip
      | None => skip
      end
  | MoveNew i j =>
      match alive vs j with
      | Some v =>
          if dead vs i
          then bind (v_move v s) (fun '(new, old) s' => Ok (put (put vs j (Some old)) i (Some new)) s')
          else skip
      | None => skip
      end
  | CopyAssign i j =>
      match alive vs i, alive vs j with
      | Some a, Some b =>
          if i =? j then skip
          else bind (v_copy b s) (fun temp s' => bind (replace temp a s') (fun a' s'' => Ok (put vs i (Some a')) s''))
      | _, _ => skip
      end
  | MoveAssign i j =>
      match alive vs i, alive vs j with
      | Some a, Some b =>
          if i =? j then skip
          else bind (v_move b s) (fun '(temp, b') s' =>
               bind (replace temp a s') (fun a' s'' => Ok (put (put vs j (Some b')) i (Some a')) s''))
      | _, _ => skip
      end
  | Assign i t x rv =>
      match alive vs i with
      | Some a => bind (v_make t x rv s) (fun temp s' => bind (replace temp a s') (fun a' s'' => Ok (put vs i (Some a')) s''))
      | None => skip
      end
  | AssignRef i e =>
      match alive vs i with
      | Some a =>
          if e <? length (ext s)
          then bind (replace (Var (Some ref_ty) (Addr e)) a s) (fun a' s'' => Ok (put vs i (Some a')) s'')
          else skip
      | None => skip
      end
  | Swap i j =>
      match alive vs i, alive vs j with
      | Some a, Some b =>
          if i =? j then bind (v_swap_self a s) (fun a' s' => Ok (put vs i (Some a')) s')
          else bind (v_swap a b s) (fun '(a', b') s' => Ok (put (put vs i (Some a')) j (Some b')) s')
      | _, _ => skip
      end
  | Clear i => match alive vs i with Some a => bind (v_clear a s) (fun a' s' => Ok (put vs i (Some a')) s') | None => skip end
  | Drop i => match alive vs i with Some a => bind (v_clear a s) (fun _ s' => Ok (put vs i None) s') | None => skip end
  | Write i x =>
      match alive vs i with
      | Some (Var (Some t) (In_ o)) => Ok (put vs i (Some (Var (Some t) (In_ (Obj (Some x) (res o)))))) s
      | Some (Var (Some t) (Ptr b)) =>
          match block s b with
          | Some o => Ok vs (with_heap s (put (heap s) b (Some (Obj (Some x) (res o)))))
          | None => UB
          end
      | Some (Var (Some t) (Addr e)) => Ok vs (with_ext s (put (ext s) e x))
      | _ => skip
      end
  end.

(** A program whose statements' exceptions are caught where they occur: after each statement, did it throw.
    No line of /repo: a client of src/variant.cpp. *)
Fixpoint run (p : list op) (vs : scope) (s : store) : out (scope * list bool) :=
  match p with
  | [] => Ok (vs, []) s
  | o :: p' =>
      match exec o vs s with
      | Ok vs' s' => bind (run p' vs' s') (fun '(vs'', l) s'' => Ok (vs'', false :: l) s'')
      | Exn s' => bind (run p' vs s') (fun '(vs'', l) s'' => Ok (vs'', true :: l) s'')
      | UB => UB
      | Term => Term
      end
  end.

(** The beginning: [n] names, no variant alive, objects outside, the coming failures. No line of /repo. *)
Definition begin (n : nat) (outside : list nat) (failures : list bool) : scope * store :=
  (repeat None n, Store [] [] [] 0 [] [] outside failures 0 0).
