(** Model of programs that use the library on typed memory: what a program may do by itself under the rules of C++, and
    what accessors, conversions, arguments, calls of member functions and properties let it do in addition
    (include/rtti/variant.h, include/rtti/detail/argument_impl.h, include/rtti/metadefine.h). What the library answers is
    computed by AccModel.v and CallModel.v.

    Simplifications: places are never given back; objects of classes are told apart by their place, members have places
    of their own; a number stands for the state of an object of a class apart from its members; moving is copying (what
    the move does to its source it does through a reference the program has). *)
From Coq Require Import NArith List Bool Arith.
From Verif Require Import TypesModel TypesSpec InheritModel AccModel CallModel.
Import ListNotations.

(** ** Memory (no line of /repo) *)

(** Every place has a type it is declared with; classes have members at offsets; arrays have elements.
    No line of /repo: the objects of the program. *)
Record places := Places { decl : nat -> ty; field : base -> nat -> option ty; elem : nat -> nat -> nat }.

(** Values are numbers; [addr p] is the pointer to [p], 0 the null pointer. No line of /repo. *)
Definition addr (p : nat) : nat := S (2 * p).
(** Where a pointer points, no line of /repo. *)
Definition pointed (w : nat) : option nat :=
  match w with 0 => None | S q => if Nat.even q then Some (Nat.div2 q) else None end.

(** A reference or a name: the type it has in the program and the place. No line of /repo. *)
Record lvalue := LV { l_ty : ty; l_at : nat }.

(** A variable that holds a variant (include/rtti/variant.h:56-346), const or not: empty, or a value or wrapper of a type
    and the place of the value or of what it refers to. *)
Record holder := Holder { v_const : bool; v_content : option (form * ty * nat) }.

(** The memory; the places in use; the references the program (all registered functions and whoever calls them) has; the
    variants. No line of /repo but the variants, include/rtti/variant.h:56-346. *)
Record state := State { mem : memory; live : list nat; refs : list lvalue; vars : list holder }.

(** No line of /repo. *)
Definition start : state := State (fun _ => 0) [] [] [].

(** No line of /repo: updates. *)
Definition set_mem (st : state) (m : memory) : state := State m (live st) (refs st) (vars st).
(** No line of /repo. *)
Definition add_ref (st : state) (l : lvalue) : state := State (mem st) (live st) (l :: refs st) (vars st).
(** No line of /repo. *)
Definition add_var (st : state) (v : holder) : state := State (mem st) (live st) (refs st) (vars st ++ [v]).
(** A new object, no line of /repo. *)
Definition create (st : state) (y w : nat) : state := State (write (mem st) y w) (y :: live st) (refs st) (vars st).

(** ** What the program itself can do (C++, no line of /repo) *)

(** Values the program can compute: numbers, null pointers, addresses, what it reads, and qualification conversions.
    No line of /repo: C++. *)
Inductive expr (P : places) (st : state) : ty -> nat -> Prop :=
| ENumber b n : expr P st (TBase false false b) n
| ENull t : expr P st (TPtr false false t) 0
| EAddress t x : In (LV t x) (refs st) -> expr P st (TPtr false false t) (addr x)
| EFirst t n x : In (LV (TArr t n) x) (refs st) -> (0 < n)%N -> expr P st (TPtr false false t) (addr (elem P x 0))
| ERead t x : In (LV t x) (refs st) -> is_array t = false -> expr P st (strip t) (mem st x)
| EConvert t u w : expr P st t w -> similar t u -> qual_ok 1 t u -> expr P st u w.

(** ** What the library tells and does *)

(** The content of a variant as AccModel.v has it. include/rtti/variant.h:604-608. *)
Definition content_at (st : state) (f : form) (t : ty) (x : nat) : content :=
  {| c_form := f; c_src := t; c_at := x; c_ptr := pointed (mem st x); c_vals := [mem st x]; c_bytes := [mem st x] |}.
(** include/rtti/variant.h:604-608. *)
Definition contents (st : state) (v : holder) : option content :=
  match v_content v with Some (f, t, x) => Some (content_at st f t x) | None => None end.

(** Where an accessor leads (include/rtti/variant.h:418-506): [Hidden] is nowhere the program has declared anything. *)
Definition place_of (c : content) (p : place) : option nat :=
  match p with Whole | Elements | Slot => Some (c_at c) | Base z => Some z | Hidden => None end.

(** The value of what to<T>() makes (variant.h:508-600). *)
Definition value_of (P : places) (st : state) (c : content) (T : ty) (g : got) : nat :=
  match g with
  | Same => mem st (c_at c)
  | First => addr (elem P (c_at c) 0)
  | Part z => mem st z
  | Pointer z => addr z
  | Converted w => if is_pointer T then addr w else w
  end.

(** What an argument is made of (argument_impl.h:6-10): an object the program has a reference to, a wrapper of one, or a
    variant, as const or not. *)
Inductive passes (st : state) : passed -> Prop :=
| PassObject t x : In (LV t x) (refs st) -> passes st (Object (content_at st Val t x))
| PassWrapped t x : In (LV t x) (refs st) -> passes st (Wrapped (content_at st Refw t x))
| PassVariant i v k : nth_error (vars st) i = Some v -> (v_const v = true -> k = true) ->
    passes st (Variant k (contents st v)).

(** What the argument refers to. m_value of include/rtti/variant.h:632-680. *)
Definition referred_content (a : argument) : option content :=
  match g_value a with Some r => const_content r | None => None end.

(** The value of an argument for a property of type [T] (metadefine.h:652-658, 704-732). *)
Definition read_as (P : places) (st : state) (T : ty) (a : argument) (b : bound) : nat :=
  match b, referred_content a with Temp g, Some c => value_of P st c T g | _, _ => 0 end.

(** The type of a property, include/rtti/metadefine.h:634-737. *)
Definition type_of (p : property) : option ty :=
  match p with Global _ T | Data _ _ T => Some T | Accessors _ _ _ _ => None end.

(** A property is a variable the program has, or a member of a class (metadefine.h:955-975: pointers to them). *)
Inductive declared (P : places) (st : state) : property -> Prop :=
| DeclGlobal x T : In (LV T x) (refs st) -> declared P st (Global x T)
| DeclData b off T : field P b off = Some T -> b_kind b = KClass -> declared P st (Data b off T).

(** What the program names as instance, const or an rvalue or not; of anything else a variant is made first (variant.h:83-87). *)
Inductive instances (st : state) : option instance -> Prop :=
| NoInstance : instances st None
| OfVariable i v k : nth_error (vars st) i = Some v -> (v_const v = true -> k = true) ->
    instances st (Some (ByVariant k (contents st v))).

(** The type of what get gives: std::cref (650-651), std::ref of a member of a const object (697-705).
    Lines of include/rtti/metadefine.h. *)
Definition got_type (T : ty) : ty := add_const T.

(** What happens, with the types and answers that matter: [ByProgram] is the program alone. No line of /repo. *)
Inductive label :=
| ByProgram | Wrapping (t : ty) | Holding (t : ty) | Copying | Accessing (T : ty) (p : place) | Converting (T : ty)
| Binding (q : qty) (t : option ty) (b : bound) | Calling (m : member) | Getting (T : ty) | Setting (T : ty) (t : option ty).

(** The type of the content an argument refers to. m_value of include/rtti/variant.h:632-680. *)
Definition source (a : argument) : option ty :=
  match referred_content a with Some c => Some (c_src c) | None => None end.

(** One step. Exceptions leave everything as it was and need no step; undefined behaviour has none.
    The program: [SWrite] assigns, [SNew] initialises a new object, [SFollow] dereferences, [SBind] binds a reference,
    [SBase] and [SMember] go to a base or a member, [SElement] to an element.
    The library: [SWrap], [SHold] and [SCopy] make variants (variant_impl.h:434-451, src/variant.cpp:12-56), [SAccess] is
    an accessor (variant.h:144-248), [STo] a conversion into a new object (250-274), [SArgument] and [STemporary] bind
    the parameter of a registered function (argument_impl.h), [SCall] gives a member function its object
    (metadefine.h:222-436), [SGet] and [SSet] read and write properties (634-737). *)
Inductive step (P : places) (e : env) (st : state) : label -> state -> Prop :=
| SWrite t x u w : In (LV t x) (refs st) -> is_const t = false -> is_array t = false -> expr P st u w -> strip t = u ->
    step P e st ByProgram (set_mem st (write (mem st) x w))
| SNew y w : ~ In y (live st) -> is_array (decl P y) = false -> expr P st (strip (decl P y)) w ->
    step P e st ByProgram (add_ref (create st y w) (LV (decl P y) y))
| SNewArray y t n : ~ In y (live st) -> decl P y = TArr t n ->
    step P e st ByProgram (add_ref (create st y 0) (LV (decl P y) y))
| SFollow c v t x p : In (LV (TPtr c v t) x) (refs st) -> pointed (mem st x) = Some p ->
    step P e st ByProgram (add_ref st (LV t p))
| SBind t u x : In (LV t x) (refs st) -> similar t u -> qual_ok 0 t u -> step P e st ByProgram (add_ref st (LV u x))
| SBase c v b b' l f x : In (LV (TBase c v b) x) (refs st) -> b_kind b = KClass -> nth_error (e_graph e) (b_id b) = Some l ->
    In (b_id b', f) l -> b_kind b' = KClass -> step P e st ByProgram (add_ref st (LV (TBase c v b') (f x)))
| SMember c v b off t x : In (LV (TBase c v b) x) (refs st) -> b_kind b = KClass -> field P b off = Some t ->
    step P e st ByProgram (add_ref st (LV (if c then add_const t else t) (x + off)))
| SElement t n x i : In (LV (TArr t n) x) (refs st) -> (N.of_nat i < n)%N ->
    step P e st ByProgram (add_ref st (LV t (elem P x i)))
| SWrap (k : bool) t x : In (LV t x) (refs st) ->
    step P e st (Wrapping t) (add_var st (Holder k (Some (Refw, t, x))))
| SHold (k : bool) t x y w : In (LV t x) (refs st) -> ~ In y (live st) ->
    w = mem st x -> decl P y = (let u := stored (content_at st Val t y) in if k then add_const u else u) ->
    step P e st (Holding t) (add_var (create st y w) (Holder k (Some (Val, t, y))))
| SCopyWrapper i v (k : bool) t x : nth_error (vars st) i = Some v -> v_content v = Some (Refw, t, x) ->
    step P e st Copying (add_var st (Holder k (Some (Refw, t, x))))
| SCopyValue i v (k : bool) t x y w : nth_error (vars st) i = Some v -> v_content v = Some (Val, t, x) -> ~ In y (live st) ->
    w = mem st x -> decl P y = (let u := stored (content_at st Val t y) in if k then add_const u else u) ->
    step P e st Copying (add_var (create st y w) (Holder k (Some (Val, t, y))))
| SAccess i v a c T p y : nth_error (vars st) i = Some v -> (v_const v = true -> on_const a = true) ->
    contents st v = Some c -> access e a (Some c) T = Got (Some p) -> place_of c p = Some y ->
    step P e st (Accessing T p) (add_ref st (LV (q_ty (seen a T)) y))
| STo i v k c T g y : nth_error (vars st) i = Some v -> (v_const v = true -> k = true) -> contents st v = Some c ->
    v_to e k (Some c) T = Got g -> ~ In y (live st) -> decl P y = T ->
    step P e st (Converting T) (add_ref (create st y (value_of P st c T g)) (LV T y))
| SArgument rv p a q c pl y : passes st p -> a = make_argument rv p -> arg_value e a q = Got (Direct pl) ->
    referred_content a = Some c -> place_of c pl = Some y ->
    step P e st (Binding q (source a) (Direct pl)) (add_ref st (LV (q_ty q) y))
| STemporary rv p a q c g y : passes st p -> a = make_argument rv p -> arg_value e a q = Got (Temp g) ->
    referred_content a = Some c -> ~ In y (live st) -> decl P y = decay (q_ty q) ->
    step P e st (Binding q (source a) (Temp g)) (add_ref (create st y (value_of P st c (decay (q_ty q)) g)) (LV (q_ty q) y))
| SCall i v k m x : nth_error (vars st) i = Some v -> (v_const v = true -> k = true) ->
    member_object e k (contents st v) m = Done (Some x) ->
    step P e st (Calling m) (add_ref st (LV (class_t (m_class m) (m_const m)) x))
| SGet p i T x (k : bool) : declared P st p -> type_of p = Some T -> instances st i ->
    property_get e p i (mem st) = Done (Reference x) ->
    step P e st (Getting T) (add_var st (Holder k (Some (Refw, got_type T, x))))
| SSet p i T rv q a m (o : outcome unit) : declared P st p -> type_of p = Some T -> instances st i -> passes st q -> a = make_argument rv q ->
    property_set e (read_as P st T) p i a (mem st) = (m, o) ->
    step P e st (Setting T (source a)) (set_mem st m).

(** A run of the program. No line of /repo. *)
Inductive steps (P : places) (e : env) : state -> list label -> state -> Prop :=
| Stop st : steps P e st [] st
| Go st l st' ls st'' : step P e st l st' -> steps P e st' ls st'' -> steps P e st (l :: ls) st''.
