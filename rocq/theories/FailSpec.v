(** Specification of C69: what chains of definitions that fail leave behind, read off the statements of OrderSpec. *)
From Coq Require Import List Bool Arith String Ascii.
From Verif Require Import ReflModel OrderSpec.
Import ListNotations.
Local Open Scope list_scope.

(** A class of type [t]; something at place [p]. *)
Definition class_with (t : nat) (d : decl) : bool := match d with Thing ((Class, _) :: _) u _ => Nat.eqb u t | _ => false end.
Definition placed (p : place) (d : decl) : bool := match d with Thing q _ _ => same_place q p | _ => false end.

(** After the statements [D], statement [d] cannot be made: its base class is not there, or its type has a class elsewhere. *)
Definition problem (D : list decl) (d : decl) : option exn :=
  match d with
  | Derives _ t _ => if existsb (class_with t) D then None else Some Unregistered
  | Thing ((Class, n) :: p) t _ =>
      if existsb (placed ((Class, n) :: p)) D then None else if existsb (class_with t) D then Some Duplicate else None
  | _ => None
  end.
(** The statements before the first that cannot be made, and the exception it ends with. *)
Fixpoint cut (D d : list decl) : list decl * option exn :=
  match d with
  | [] => ([], None)
  | x :: d' =>
      match problem D x with
      | Some e => ([], Some e)
      | None => let (r, e) := cut (x :: D) d' in (x :: r, e)
      end
  end.
(** Chains one after the other; each failed one is given up, the next ones still run. *)
Fixpoint keep (D : list decl) (ds : list (list decl)) : list (list decl * option exn) :=
  match ds with
  | [] => []
  | d :: ds' => let (r, e) := cut D d in (r, e) :: keep (r ++ D) ds'
  end.
Definition kept_of (ds : list (list decl)) : list decl := List.concat (map fst (keep [] ds)).
Definition ends_of (ds : list (list decl)) : list (option exn) := map snd (keep [] ds).

(** The chains [h] run one after the other from [w] and end as [es] says: [None], as they should, or with an exception. *)
Fixpoint attempted (k : nat) (ok : nat -> nat -> bool) (n : nat) (w : world) (h : list prog) (es : list (option exn)) (w' : world) : Prop :=
  match h, es with
  | [], [] => w' = w
  | l :: h', e :: es' =>
      exists w1, run k ok n w 0 l = match e with None => Ret w1 tt | Some x => Throw x w1 end /\ attempted k ok n w1 h' es' w'
  | _, _ => False
  end.

(** The compiler accepts the base classes named, whether they are registered or not: metacast_to_base (include/rtti/metadefine.h:25-32). *)
Definition compiles (ok : nat -> nat -> bool) (ds : list (list decl)) : Prop :=
  forall p t f u i, In (Derives p t f) (List.concat ds) -> In (Thing p u i) (kept_of ds) -> ok u t = true.

(** All classes of a chain come before the first base class it names. *)
Definition classes_first (d : list decl) : Prop :=
  exists a b, d = a ++ b /\ (forall p t f, ~ In (Derives p t f) a) /\ forall n p t i, ~ In (Thing ((Class, n) :: p) t i) b.
