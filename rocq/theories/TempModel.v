(** Model of the temporary objects behind conversions and comparisons: variant::to, convert, tryConvert and eq
    (include/rtti/variant.h:116-121, 250-274, 308-324, include/rtti/detail/variant_impl.h:451-498), the functors they call
    (include/rtti/metatype.h:619-703), and MetaType::construct and destruct (src/metatype.cpp:292-312). The decisions are
    those of AccModel.v; here every constructor, converter and comparison is a call of the user's code that may throw, and
    every object the library makes is accounted for. *)
From Coq Require Import NArith List Bool Arith.
From Verif Require Import TypesModel AccModel.
Import ListNotations.

(** rtti::bad_variant_convert, rtti::runtime_error, or whatever the user's code throws.
    include/rtti/variant.h:250-274, include/rtti/metatype.h:252-263. *)
Inductive exn := Bad_convert | Not_possible | Users.

(** [Raise]: an exception leaves the function. The others as in AccModel.v.
    The calls are those of include/rtti/variant.h:250-324. *)
Inductive res (A : Type) := Val (a : A) | Raise (x : exn) | Undefined | Terminated | Endless.
Arguments Val {A}. Arguments Raise {A}. Arguments Undefined {A}. Arguments Terminated {A}. Arguments Endless {A}.

(** [live]: the objects the library constructed and nobody destroyed. [blocks]: the memory it allocated and did not free.
    [next]: the next object or block. [clock]: how many calls of the user's code there were. Ghost: [left]: objects that a
    converter made and reported to be no result. No line of /repo: the storage of the process. *)
Record st := St { live : list nat; blocks : list nat; next : nat; clock : nat; left : list nat }.

(** A monad of the model, no line of /repo. *)
Definition M (A : Type) : Type := st -> res A * st.
(** Of the monad, no line of /repo. *)
Definition ret {A} (a : A) : M A := fun s => (Val a, s).
(** throw, no line of /repo. *)
Definition raise {A} (x : exn) : M A := fun s => (Raise x, s).
(** Undefined behaviour, no line of /repo. *)
Definition undefined {A} : M A := fun s => (Undefined, s).
(** Of the monad, no line of /repo. *)
Definition bindM {A B} (m : M A) (f : A -> M B) : M B :=
  fun s => match m s with
           | (Val a, s') => f a s'
           | (Raise x, s') => (Raise x, s') | (Undefined, s') => (Undefined, s')
           | (Terminated, s') => (Terminated, s') | (Endless, s') => (Endless, s')
           end.
Notation "'let!' x := m 'in' k" := (bindM m (fun x => k)) (at level 200, x name, m at level 100, k at level 200).

(** A pure answer of AccModel.v; its exceptions are [x]. No line of /repo. *)
Definition of_out {A} (x : exn) (o : out A) : M A :=
  match o with Got a => ret a | Throw => raise x | Undef => undefined | Term => fun s => (Terminated, s) | Loop => fun s => (Endless, s) end.

(** FINALLY { fin }; (include/rtti/finally.h:52-57, C39): [fin] runs after [m], also when it throws. *)
Definition finally {A} (m : M A) (fin : M unit) : M A :=
  fun s => match m s with
           | (Val a, s') => (let! _ := fin in ret a) s'
           | (Raise x, s') => (let! _ := fin in raise x) s'
           | r => r
           end.

(** ** Objects *)

(** A constructor has run (no lines of /repo: C++). *)
Definition made : M nat := fun s => (Val (next s), St (next s :: live s) (blocks s) (S (next s)) (clock s) (left s)).
(** A destructor; on what is no object undefined. Called in include/rtti/metatype.h:288-293. *)
Definition destroy (i : nat) : M unit := fun s =>
  if in_dec Nat.eq_dec i (live s) then (Val tt, St (remove Nat.eq_dec i (live s)) (blocks s) (next s) (clock s) (left s)) else (Undefined, s).
(** operator new and delete, include/rtti/metatype.h:226-235; memory does not run out. *)
Definition allocate : M nat := fun s => (Val (next s), St (live s) (next s :: blocks s) (S (next s)) (clock s) (left s)).
(** include/rtti/metatype.h:226-235. *)
Definition deallocate (b : nat) : M unit := fun s =>
  if in_dec Nat.eq_dec b (blocks s) then (Val tt, St (live s) (remove Nat.eq_dec b (blocks s)) (next s) (clock s) (left s)) else (Undefined, s).
(** Ghost. No line of /repo: what the functors of include/rtti/metatype.h:668-703 left without destroying it. *)
Definition reported (i : nat) : M unit := fun s => (Val tt, St (live s) (blocks s) (next s) (clock s) (i :: left s)).

(** ** The user's code *)

(** A converter: a functor that gives the value or throws, or one that gives a value and reports whether it is one (or
    throws). What it does may depend on when it is called. include/rtti/metatype.h:619-703. *)
Inductive functor :=
| Plain (f : content -> nat -> option nat)
| Reporting (f : content -> nat -> option (nat * bool)).

(** [w_env]: what is registered, without the converters. [w_functor]: these, by decayed types. [w_throws]: whether a
    constructor or comparison called at that moment throws. [w_default], [w_object]: the type can be constructed from
    nothing; what a variant that holds the result of a conversion holds.
    What the program registered and its types, no line of /repo. *)
Record world := World {
  w_env : env; w_functor : qty -> qty -> option functor; w_throws : nat -> bool; w_default : ty -> bool; w_object : ty -> got -> content }.

(** A call of a constructor or comparison. The user's code, no line of /repo. *)
Definition user_call (w : world) : M unit := fun s =>
  (if w_throws w (clock s) then Raise Users else Val tt, St (live s) (blocks s) (next s) (S (clock s)) (left s)).
(** A moment of a call of the user's code, no line of /repo. *)
Definition tick : M nat := fun s => (Val (clock s), St (live s) (blocks s) (next s) (S (clock s)) (left s)).

(** include/rtti/metatype.h:252-263: `new (where) T( *source)`. *)
Definition copy_construct (w : world) (T : ty) : M nat :=
  if e_copies (w_env w) T then let! _ := user_call w in made else raise Not_possible.

(** ** Converters *)

(** ConvertFunctor::convert and ConvertFunctorOk::convert, include/rtti/metatype.h:641-655, 676-684: the object in the
    buffer and its value, or [None] for false. The second kind constructs before it knows the answer, and does not catch. *)
Definition invoke_functor (f : functor) (c : content) : M (option (nat * nat)) :=
  let! t := tick in
  match f with
  | Plain f => match f c t with Some v => let! i := made in ret (Some (i, v)) | None => ret None end
  | Reporting f =>
      match f c t with
      | Some (v, true) => let! i := made in ret (Some (i, v))
      | Some (v, false) => let! i := made in let! _ := reported i in ret None
      | None => raise Users
      end
  end.

(** MetaType::convert, src/metatype.cpp:427-437. *)
Definition convert (w : world) (c : content) (from to : qty) : M (option (nat * nat)) :=
  match w_functor w (full_decay from) (full_decay to) with Some f => invoke_functor f c | None => ret None end.
(** MetaType::hasConverter, src/metatype.cpp:398-404. *)
Definition has_converter (w : world) (from to : qty) : bool :=
  match w_functor w (full_decay from) (full_decay to) with Some _ => true | None => false end.

(** ** variant::to *)

(** metafunc_to<T>::invoke, include/rtti/variant.h:508-600: constructs in the buffer. *)
Definition into_buffer (w : world) (c : content) (from : qty) (T : ty) : M (nat * got) :=
  let e := w_env w in
  let to := mkQ RNone T in
  let copied g := let! i := copy_construct w T in ret (i, g) in
  let otherwise := let! r := convert w c from to in match r with Some (i, v) => ret (i, Converted v) | None => raise Bad_convert end in
  match compat from to with
  | CTerm => fun s => (Terminated, s)
  | CFalse => otherwise
  | CTrue =>
      if same_decay from to then copied (if is_array (stored c) then First else Same)
      else match tag_of to with
           | TagNone => otherwise
           | TagClass k =>
               if isClass (Some (info_of from))
               then let! r := of_out Users (cast_imp e c k) in match r with Some x => copied (Part x) | None => otherwise end
               else otherwise
           | TagClassPtr k =>
               if isClassPtr (Some (info_of from))
               then let! r := of_out Users (cast_imp e c k) in match r with Some x => copied (Pointer x) | None => otherwise end
               else otherwise
           end
  end.

(** variant.h:250-274: the buffer, its guard, and the move of the result out of it (metatype.h:419-433; a type that cannot be
    moved is copied). A T that can be neither does not compile (423-424). *)
Definition to (w : world) (const_variant : bool) (v : option content) (T : ty) : M (nat * got) :=
  match v with
  | None => raise Bad_convert
  | Some c =>
      let! r := into_buffer w c (type_id c (if const_variant then ALrefConst else ALref)) T in
      let (i, g) := r in
      finally (let! _ := user_call w in let! j := made in ret (j, g)) (destroy i)
  end.

(** ** variant::eq *)

(** Comparing two objects of a type with operator==, metatype.h:293-308: the same object needs no call. *)
Definition comparing (w : world) (same : bool) (o : out bool) : M bool :=
  let! b := of_out Not_possible o in
  if same then ret b else let! _ := user_call w in ret b.

(** variant::operator==, src/variant.cpp:91-114. *)
Definition equal (w : world) (a b : content) : M bool :=
  match compat (type_id b ALrefConst) (type_id a ALrefConst) with
  | CTerm => fun s => (Terminated, s)
  | CFalse => ret false
  | CTrue =>
      if same_decay (type_id b ALrefConst) (type_id a ALrefConst)
      then comparing w (c_at a =? c_at b) (compare_eq (w_env w) a b) else ret false
  end.

(** An object against a converted value, `type_manager_t<T>::compare_eq` and `mt_self.compare_eq`.
    include/rtti/detail/variant_impl.h:451-498. *)
Definition compare_value (w : world) (T : ty) (c : content) (v : nat) : M bool :=
  comparing w false
    (match e_cmp (w_env w) (remove_all_cv (element T)) with
     | None => Throw
     | Some cmp => match c_vals c with x :: _ => Got (cmp x v) | [] => Undef end
     end).

(** variant::eq, variant_impl.h:458-498, with a caller's object of type T (deduced, so not const itself) given as what
    std::cref makes of it. Where an array is involved the converter makes a pointer in a buffer for an array, which is then
    compared and destroyed as one: undefined (too small a buffer, or an object of another type). *)
Definition eq (w : world) (v : option content) (b : content) (T : ty) : M bool :=
  match v with
  | None => ret false
  | Some a =>
      let! same := equal w a b in
      if same then ret true else
      let self := type_id a ANone in
      let value := mkQ RNone T in
      let back :=
        if has_converter w value self then
          let! p := allocate in
          finally
            (let! r := convert w b value self in
             match r with
             | Some (i, x) =>
                 if is_array (stored a) then undefined
                 else finally (compare_value w (stored a) a x) (destroy i)
             | None => ret false
             end)
            (deallocate p)
        else ret false in
      if has_converter w self value then
        let! r := convert w a self value in
        match r with
        | Some (i, x) => if is_array T then undefined else finally (compare_value w T b x) (destroy i)
        | None => back
        end
      else back
  end.

(** variant.h:118-121. *)
Definition neq (w : world) (v : option content) (b : content) (T : ty) : M bool := let! r := eq w v b T in ret (negb r).

(** ** Assignment of the result *)

(** A variant: what it holds, and the object it owns, if any (a std::reference_wrapper owns none).
    include/rtti/variant.h:604-608. *)
Record slot := Slot { holds : option content; owned : option nat }.

(** The destructor of a variant, src/variant.cpp:37-40. *)
Definition end_of (o : option nat) : M unit := match o with Some i => destroy i | None => ret tt end.

(** variant::convert<T>, variant.h:308-310: `*this = to<T>()`; operator=(T&&) (variant_impl.h:451-456) moves the result into a
    new variant, swaps it with this one and destroys it with what this one held; last ends the result. Simplified: where
    variants keep their objects and how they swap is in VarModel.v. *)
Definition v_convert (w : world) (v : slot) (T : ty) : M slot :=
  let! r := to w false (holds v) T in
  let (i, g) := r in
  finally
    (let! _ := user_call w in
     let! j := made in
     let! _ := end_of (owned v) in
     ret (Slot (Some (w_object w T g)) (Some j)))
    (destroy i).

(** variant::tryConvert<T>, variant.h:312-324: true or false, and the variant. *)
Definition tryConvert (w : world) (v : slot) (T : ty) : M (bool * slot) := fun s =>
  match v_convert w v T s with
  | (Val v', s') => (Val (true, v'), s')
  | (Raise _, s') => (Val (false, v), s')
  | (Undefined, s') => (Undefined, s') | (Terminated, s') => (Terminated, s') | (Endless, s') => (Endless, s')
  end.

(** ** MetaType::construct and destruct *)

(** src/metatype.cpp:263-274: allocate, then default_construct, copy_construct or move_or_copy (metatype.h:240-284) with
    nothing to free the block if they throw. *)
Inductive source := Nothing | Copied | Moved.
(** src/metatype.cpp:292-312. *)
Definition construct (w : world) (T : ty) (from : source) : M (nat * nat) :=
  let! b := allocate in
  let! i := match from with
            | Nothing => if w_default w T then let! _ := user_call w in made else raise Not_possible
            | Copied => copy_construct w T
            | Moved => let! _ := user_call w in made
            end in
  ret (b, i).
(** src/metatype.cpp:305-312, of what [construct] returned. *)
Definition destruct (p : nat * nat) : M unit := let! _ := destroy (snd p) in deallocate (fst p).

(** ** Programs *)

(** Statements over numbered variants: put an object or a reference into one, convert it, try to, take its value as a T
    (dropped at the end of the statement), compare it with an object, clear it.
    include/rtti/variant.h:116-121, 250-274, 308-324. *)
Inductive stmt :=
| Put (i : nat) (c : content)
| Convert (i : nat) (T : ty)
| Try (i : nat) (T : ty)
| To (i : nat) (T : ty)
| Eq (i : nat) (b : content) (T : ty)
| Clear (i : nat).

(** A list with one element replaced, no line of /repo. *)
Fixpoint put {A} (l : list A) (i : nat) (a : A) : list A :=
  match l, i with [], _ => [] | _ :: l', 0 => a :: l' | x :: l', S i' => x :: put l' i' a end.

(** variant_impl.h:436-456 for Put: the object is copied into a new variant, which is swapped with the old one. *)
Definition exec (w : world) (x : stmt) (vs : list slot) : M (list slot) :=
  match x with
  | Put i c =>
      match nth_error vs i with
      | Some v =>
          match c_form c with
          | AccModel.Val => let! j := copy_construct w (c_src c) in let! _ := end_of (owned v) in ret (put vs i (Slot (Some c) (Some j)))
          | Refw => let! _ := end_of (owned v) in ret (put vs i (Slot (Some c) None))
          end
      | None => ret vs
      end
  | Convert i T => match nth_error vs i with Some v => let! v' := v_convert w v T in ret (put vs i v') | None => ret vs end
  | Try i T => match nth_error vs i with Some v => let! r := tryConvert w v T in ret (put vs i (snd r)) | None => ret vs end
  | To i T => match nth_error vs i with Some v => let! r := to w false (holds v) T in let! _ := destroy (fst r) in ret vs | None => ret vs end
  | Eq i b T => match nth_error vs i with Some v => let! _ := eq w (holds v) b T in ret vs | None => ret vs end
  | Clear i => match nth_error vs i with Some v => let! _ := end_of (owned v) in ret (put vs i (Slot None None)) | None => ret vs end
  end.

(** The statements one after the other; an exception is caught after the statement and the program goes on.
    No line of /repo: a client of include/rtti/variant.h. *)
Fixpoint run (w : world) (p : list stmt) (vs : list slot) : M (list slot) :=
  match p with
  | [] => ret vs
  | x :: p' => fun s =>
      match exec w x vs s with
      | (Val vs', s') => run w p' vs' s'
      | (Raise _, s') => run w p' vs s'
      | (Undefined, s') => (Undefined, s') | (Terminated, s') => (Terminated, s') | (Endless, s') => (Endless, s')
      end
  end.
