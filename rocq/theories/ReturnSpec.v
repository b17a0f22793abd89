(** What a user expects of the results of calls; see ReturnModel.v for functions and what the caller writes. *)
From Coq Require Import NArith List Bool Arith.
From Verif Require Import TypesModel TypesSpec InheritModel InheritSpec AccModel AccSpec CallModel CallSpec ReturnModel.
Import ListNotations.

(** The expressions that become arguments: for a member function all but the first. *)
Definition actuals (f : function) (gs : list given) : list given :=
  match f_kind f with Static _ => gs | OfClass _ => tl gs end.

(** At most ten parameters (static_assert, metadefine.h:109-110). *)
Definition few_parameters (f : function) : Prop := length (parametersTypeId f) <= 10.

(** [x] is the caller's own object that the expression stands for, seen as a [T]: the object or its base. *)
Inductive callers_own (e : env) (g : given) (T : ty) (x : nat) : Prop :=
| OwnSame k c : stands_for (snd g) k c -> similar (held c) T -> x = c_at c -> callers_own e g T x
| OwnBase k c i j : stands_for (snd g) k c -> class_type (held c) i -> class_type T j -> base_at e c j x -> callers_own e g T x.

(** [x] is the object of class [b] that a member function is called on if the caller writes [g] as instance: one that a
    variant, a wrapper or a pointer leads to. An object itself is copied and is not named. *)
Inductive leads_to (e : env) (b : nat) : given -> nat -> Prop :=
| LeadsVariant rv k c x w : names e (k || rv) c b x w -> leads_to e b (rv, Variant k (Some c)) x
| LeadsWrapper rv c x w : names e true (by_reference c) b x w -> leads_to e b (rv, Wrapped c) x
| LeadsPointer rv c x : pointer_type (c_src c) b -> c_ptr c = Some x -> leads_to e b (rv, Object c) x
| LeadsPointerBase rv c i x : pointer_type (c_src c) i -> i <> b -> base_at e (by_reference c) b x -> leads_to e b (rv, Object c) x.

(** Instances the statements are about. *)
Definition good_given (e : env) (b : base) (g : given) : Prop :=
  forall k c, stands_for (snd g) k c -> usable (c_src c) /\ not_null c /\ one_class c b.

(** A body returns what the function's type says. *)
Definition fits_type (r : result_type) (a : answer) : Prop :=
  match r, a with
  | RVoid, Nil => True
  | RType (mkQ RL _), Refers _ _ => True
  | RType (mkQ RNone _), Yields _ => True
  | RVariant, Gives _ => True
  | RWrapper _, Refers _ _ => True
  | _, _ => False
  end.

(** The type of the object a reference result refers to. *)
Definition refers_type (r : result_type) : option ty :=
  match r with RType (mkQ RL T) => Some T | RWrapper T => Some T | _ => None end.

(** A variant can be made of an expression of type [T], [rvalue] or not: by copying the object (of an array: its elements),
    or by moving an rvalue that is not const. *)
Inductive storable (tr : traits) (rvalue : bool) (T : ty) : Prop :=
| ByCopy : copyable tr (element T) = true -> storable tr rvalue T
| ByMove : rvalue = true -> is_const T = false -> movable tr (element T) = true -> storable tr rvalue T.

(** The type of the expression `f()` for a function that returns a [T] by value: const and volatile count for classes only. *)
Inductive call_type (T : ty) : ty -> Prop :=
| OfClassType k : class_type T k -> call_type T T
| OfOtherType : (forall k, ~ class_type T k) -> call_type T (strip T).
