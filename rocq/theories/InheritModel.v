(** Model of the class graph: inheritedFrom, cast, member look-up through bases, meta_cast.
    Deferred definitions are taken to have run (see ReflModel.v for them) and locks are left out. *)
From Coq Require Import List Bool Arith String.
Import ListNotations.

(** [Fuel]: the recursion went deeper than the fuel (for every fuel: it does not terminate). [UB]: a base type
    without a class, which the asserts at src/metaclass.cpp:136,162,197,225 only catch in debug builds. *)
Inductive res (A : Type) := Ok (a : A) | UB | Fuel.
Arguments Ok {A}. Arguments UB {A}. Arguments Fuel {A}.

Section Graph.
  (** Non-null addresses. *)
  Context {X : Type}.

  (** src/private/metaclass_p.h:49-106, the base list of a class: base type and caster
      (include/rtti/metadefine.h:25-32). Classes are identified with their types, as MetaClass::find does
      (src/metaclass.cpp:44-48; C13). A caster maps null to null (static_cast). *)
  Definition graph := list (list (nat * (X -> X))).

  (** src/metaclass.cpp:123-145. *)
  Fixpoint inheritedFrom (g : graph) (fuel : nat) (this base : nat) : res bool :=
    match fuel with
    | 0 => Fuel
    | S fuel' =>
        if this =? base then Ok true else
        match nth_error g this with
        | None => UB
        | Some bases =>
            (fix loop (l : list (nat * (X -> X))) : res bool :=
               match l with
               | [] => Ok false
               | (d, _) :: l' =>
                   match inheritedFrom g fuel' d base with
                   | Ok true => Ok true
                   | Ok false => loop l'
                   | e => e
                   end
               end) bases
        end
    end.

  (** src/metaclass.cpp:147-174; [None] is nullptr. *)
  Fixpoint cast (g : graph) (fuel : nat) (this base : nat) (instance : option X) : res (option X) :=
    match fuel with
    | 0 => Fuel
    | S fuel' =>
        if this =? base then Ok instance else
        match nth_error g this with
        | None => UB
        | Some bases =>
            (fix loop (l : list (nat * (X -> X))) : res (option X) :=
               match l with
               | [] => Ok None
               | (d, f) :: l' =>
                   match inheritedFrom g fuel' d base with
                   | Ok true => cast g fuel' d base (option_map f instance)
                   | Ok false => loop l'
                   | UB => UB
                   | Fuel => Fuel
                   end
               end) bases
        end
    end.

  (** src/metaclass.cpp:181-207 and 209-235, [getMethodInternal] / [getPropertyInternal]; [own c] is what the
      class itself answers to the query (findMethod, or the look-up by name). The empty query is rejected
      first. *)
  Fixpoint getMember {M : Type} (own : nat -> option M) (empty_query : bool)
      (g : graph) (fuel : nat) (this : nat) : res (option M) :=
    match fuel with
    | 0 => Fuel
    | S fuel' =>
        if empty_query then Ok None else
        match own this with
        | Some m => Ok (Some m)
        | None =>
            match nth_error g this with
            | None => UB
            | Some bases =>
                (fix loop (l : list (nat * (X -> X))) : res (option M) :=
                   match l with
                   | [] => Ok None
                   | (d, _) :: l' =>
                       match getMember own empty_query g fuel' d with
                       | Ok (Some m) => Ok (Some m)
                       | Ok None => loop l'
                       | e => e
                       end
                   end) bases
            end
        end
    end.
End Graph.
Arguments graph : clear implicits.

(** ** Objects *)

(** C++ classes: direct bases in order, each virtual or not. No line of /repo: the program. *)
Definition cxx := list (list (nat * bool)).

(** A sub-object of a complete object: the class of the complete object and the path of classes to the
    sub-object. A non-virtual path starts at the complete class; a path through a virtual base starts (after
    the complete class) at the last virtual base on it, which all such paths share. No line of /repo: C++. *)
Record sub := { s_dyn : nat; s_path : list nat }.

(** The conversion of a pointer to a direct base: what the compiler does for the static_cast in
    include/rtti/metadefine.h:25-32. *)
Definition to_base (d : nat) (virt : bool) (s : sub) : sub :=
  {| s_dyn := s_dyn s; s_path := if virt then [d] else s_path s ++ [d] |}.

(** The class graph registered for these classes when every direct base is declared in order with _base
    (include/rtti/metadefine.h:900-910). *)
Definition registered (c : cxx) : graph sub :=
  map (map (fun p => (fst p, to_base (fst p) (snd p)))) c.

(** The complete object of class [d]. No line of /repo: C++. *)
Definition complete (d : nat) : sub := {| s_dyn := d; s_path := [d] |}.

(** The class of a sub-object. No line of /repo: C++. *)
Definition class_of (s : sub) : nat := last (s_path s) (s_dyn s).

(** include/rtti/metaclass.h:80-89 with virtual dispatch: the classInfo of the complete object's class if it
    declares one; otherwise of the most derived class on the path to the sub-object that does; otherwise the
    one inherited from the first base that has one. Simplification: overriders beside the path, which need
    virtual bases, are not looked for when the complete object's class declares none. *)
Fixpoint first_declared (decl : nat -> bool) (pre path : list nat) : option (nat * list nat) :=
  match path with
  | [] => None
  | c :: p => if decl c then Some (c, pre ++ [c]) else first_declared decl (pre ++ [c]) p
  end.
(** include/rtti/metaclass.h:80-89, inherited from a base. *)
Fixpoint inherited_info (c : cxx) (decl : nat -> bool) (fuel : nat) (s : sub) : option (nat * sub) :=
  match fuel with
  | O => None
  | S fuel' =>
      if decl (class_of s) then Some (class_of s, s)
      else
        match nth_error c (class_of s) with
        | None => None
        | Some l =>
            (fix loop (l : list (nat * bool)) : option (nat * sub) :=
               match l with
               | [] => None
               | (d, v) :: l' =>
                   match inherited_info c decl fuel' (to_base d v s) with
                   | Some r => Some r
                   | None => loop l'
                   end
               end) l
        end
  end.
(** include/rtti/metaclass.h:80-89. *)
Definition classInfo (c : cxx) (decl : nat -> bool) (s : sub) : option (nat * sub) :=
  if decl (s_dyn s) then Some (s_dyn s, complete (s_dyn s))
  else
    match first_declared decl [] (s_path s) with
    | Some (k, path) => Some (k, {| s_dyn := s_dyn s; s_path := path |})
    | None => inherited_info c decl (S (List.length c)) s
    end.

(** include/rtti/metaclass.h:93-145 [meta_cast]: [has] is whether From has classInfo (declared or inherited,
    include/rtti/sfinae.h:15-44), [reg] which classes MetaClass::find knows; null stays null. *)
Definition meta_cast (c : cxx) (reg : nat -> bool) (decl : nat -> bool) (has : nat -> bool) (g : graph sub)
    (fuel : nat) (from : nat) (to : nat) (p : option sub) : res (option sub) :=
  if has from then
    match p with
    | None => Ok None
    | Some s =>
        match classInfo c decl s with
        | None => UB
        | Some (t, inst) =>
            if reg t && reg to then cast g fuel t to (Some inst) else Ok None
        end
    end
  else if to =? from then Ok p else Ok None.

(** include/rtti/metaclass.h:154-170: the reference forms throw on null. *)
Definition meta_cast_ref (r : res (option sub)) : res (sum sub unit) :=
  match r with Ok (Some s) => Ok (inl s) | Ok None => Ok (inr tt) | UB => UB | Fuel => Fuel end.
