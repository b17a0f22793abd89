(** C58: what the models of casts, accessors and calls (InheritModel.v, AccModel.v, DispatchModel.v) take as given - a class
    graph, which classes are registered, the members of each class - read off a registry of ReflModel.v. *)
From Coq Require Import List Bool Arith String.
From Verif Require Import ListsModel StringsModel ReflModel ReflSpec.
From Verif Require InheritModel AccModel CallModel ReturnModel DispatchModel.
Import ListNotations.
Local Open Scope list_scope.

(** The bases a class of type [t] has declared, in order, with the conversions metacast_to_base<t, base>
    (include/rtti/metadefine.h:25-32, 899-909; src/private/metaclass_p.h:49-106). *)
Definition row (w : world) (casts : nat -> nat -> nat -> nat) (t : nat) : list (nat * (nat -> nat)) :=
  match class_of w t with
  | Some a => match get w a with Some it => map (fun p => (fst p, casts t (fst p))) (i_bases it) | None => [] end
  | None => []
  end.
(** One row for each type up to the last one with a class (src/metaclass.cpp:44-48: classes are found by their types). *)
Definition types (w : world) : nat := S (list_max (map fst (w_class w))).
Definition graph_of (w : world) (casts : nat -> nat -> nat -> nat) : InheritModel.graph nat := map (row w casts) (seq 0 (types w)).

(** The environment [e] of variants is that of the registry: MetaClass::find (src/metaclass.cpp:44-48) and the bases. *)
Definition sees (e : AccModel.env) (w : world) (casts : nat -> nat -> nat -> nat) : Prop :=
  AccModel.e_graph e = graph_of w casts /\
  forall t, AccModel.e_registered e t = true <-> exists a, class_of w t = Some a.

(** The items of a category in the class of type [t], by name and by the invoker registered with them
    (include/rtti/metadefine.h:945-975; src/metamethod.cpp:22-40, src/metaproperty.cpp:15-32). *)
Definition invoker (w : world) (x : nat) : nat := match get w x with Some it => i_inv it | None => 0 end.
Definition members {M} (w : world) (what : nat -> M) (c : cat) (t : nat) : list (text * M) :=
  match class_of w t with
  | Some a => match get w a with
              | Some it => map (fun x => (txt (names w x), what (invoker w x))) (ml_items (i_list it c))
              | None => []
              end
  | None => []
  end.
Definition classes_of (w : world) (fs : nat -> ReturnModel.function) (ps : nat -> CallModel.property) : DispatchModel.classes :=
  DispatchModel.Classes (members w fs Method) (members w ps Property).

(** The bases that compile are really bases: there is no class among its own bases. *)
Definition ranked (ok : nat -> nat -> bool) (rank : nat -> nat) : Prop := forall t b, ok t b = true -> rank b < rank t.

(** No deferred definition of [a] or of a class above it is waiting (or it is being run). *)
Definition defined (w : world) (a : nat) : Prop :=
  forall b it, up w a b -> get w b = Some it -> i_def it = None \/ i_lock it = true.

(** An answer of the registry and one of the class graph agree: both end with the same, and the registry is not changed; or
    neither ends. *)
Definition agree {A B} (w : world) (f : A -> B) (o : out A) (r : InheritModel.res B) : Prop :=
  match o, r with
  | Ret w' x, InheritModel.Ok y => f x = y /\ same w w'
  | Fuel, InheritModel.Fuel => True
  | _, _ => False
  end.

(** [act f] is the function registered under the number [f]: the conversions of the graph are those that were registered. *)
Definition registered_casts (w : world) (casts : nat -> nat -> nat -> nat) (act : nat -> nat -> nat) : Prop :=
  forall t a it d f x, class_of w t = Some a -> get w a = Some it -> In (d, f) (i_bases it) -> casts t d x = act f x.
(** Applying functions one after another. *)
Definition apply_all (act : nat -> nat -> nat) (x : nat) (fs : list nat) : nat := fold_left (fun x f => act f x) fs x.
