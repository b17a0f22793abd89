(** Independent specification for C54. *)
From Coq Require Import NArith List Bool Arith Ascii.
From Verif Require Import TypesModel TypesSpec InheritModel InheritSpec StringsSpec AccModel AccSpec CallModel CallSpec ReturnModel ReturnSpec DispatchModel.
Import ListNotations.

(** The content is an object or a pointer to one. *)
Definition of_class (c : content) : Prop := exists k, class_type (held c) k \/ pointer_type (held c) k.

(** The class the content's object is known to be of; of a null pointer the class it is declared with. *)
Inductive object_class (e : env) (c : content) (d : nat) : Prop :=
| ClassOfObject y : object_of e c d y -> object_class e c d
| ClassOfNull : pointer_type (held c) d -> c_ptr c = None -> e_declares e d = false -> object_class e c d.

(** The first method a class has registered that answers the query, and its property of that name. *)
Definition has_method (db : classes) (name : ctext) (k : nat) (f : function) : Prop :=
  exists l1 n l2, methods db k = l1 ++ (n, f) :: l2 /\ answers n name /\ Forall (fun nf => ~ answers (fst nf) name) l1.
Definition has_property (db : classes) (name : ctext) (k : nat) (p : property) : Prop :=
  exists l1 l2, properties db k = l1 ++ (name, p) :: l2 /\ ~ In name (map fst l1).

(** A class [a] offers what it has, else what the first of its bases offers that offers anything; [c] is where it is. *)
Inductive offers {M : Type} (g : graph nat) (has : nat -> M -> Prop) : nat -> nat -> M -> Prop :=
| OffersOwn a m : has a m -> offers g has a a m
| OffersBase a l1 d f l2 c m : (forall m', ~ has a m') -> nth_error g a = Some (l1 ++ (d, f) :: l2) ->
    (forall d' f' b m', In (d', f') l1 -> reach g d' b -> ~ has b m') -> offers g has d c m -> offers g has a c m.

(** Every method and every property is registered in the class that it is a member of, and bases are registered
    (src/metaclass.cpp:99-101). *)
Definition own_members (db : classes) : Prop :=
  forall k n f m, In (n, f) (methods db k) -> f_kind f = OfClass m -> b_kind (m_class m) = KClass /\ b_id (m_class m) = k.
Definition own_fields (db : classes) : Prop :=
  forall k n b off T, In (n, Data b off T) (properties db k) -> b_kind b = KClass /\ b_id b = k.
Definition bases_registered (e : env) : Prop := forall a d, direct (e_graph e) a d -> e_registered e d = true.

(** Neither an array nor a pointer to one. *)
Definition no_array (c : content) : Prop :=
  is_array (held c) = false /\ forall cq v t n, held c <> TPtr cq v (TArr t n).
