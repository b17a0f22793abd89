(** What C++ says about functions: parameters, the implicit object parameter, which functions may be overloads of each other. *)
From Coq Require Import List Bool Arith NArith Ascii.
From Verif Require Import TypesModel StringsModel StringsSpec FnModel.
Import ListNotations.

(** [over.match.funcs]: the implicit object parameter of a member function. *)
Definition implicit_object (cls : base) (q : quals) : qty :=
  mkQ (match m_ref q with RR => RR | RL | RNone => RL end) (TBase (m_const q) (m_volatile q) cls).

(** What is called when it is called: a function or a member function. *)
Inductive calls : callable -> option (base * quals) -> qty -> list qty -> Prop :=
| calls_free r a nx : calls (Free r a nx false) None r a
| calls_member cls r a q : calls (Member cls r a q false) (Some (cls, q)) r a
| calls_functor cls r a q : calls (Functor cls (Some (r, a, q))) (Some (cls, q)) r a.

(** All the types the arguments of a call are bound to, the object first. *)
Definition object_and_parameters (m : option (base * quals)) (a : list qty) : list qty :=
  match m with None => a | Some (cls, q) => implicit_object cls q :: a end.

Definition is_noexcept (f : callable) : bool :=
  match f with
  | Free _ _ nx _ => nx
  | Member _ _ _ q _ => m_noexcept q
  | Functor _ (Some (_, _, q)) => m_noexcept q
  | _ => false
  end.

(** A function or a member function of a class, as opposed to objects one can call. *)
Definition is_function (f : callable) : Prop :=
  match f with Free _ _ _ _ | Member _ _ _ _ _ => True | _ => False end.

Definition parameters (f : callable) : list qty :=
  match f with Free _ a _ _ | Member _ _ a _ _ | Wrapped _ a => a | Functor _ (Some (_, a, _)) => a | _ => [] end.

(** The functions the library takes: no `...`, at most ten parameters, not for rvalues only, noexcept only with const or nothing. *)
Definition accepted (f : callable) : Prop :=
  match f with
  | Free _ a _ v => v = false /\ length a <= 10
  | Member _ _ a q v =>
      v = false /\ length a <= 10 /\ m_ref q <> RR /\ (m_noexcept q = true -> m_ref q = RNone /\ m_volatile q = false)
  | _ => False
  end.

(** [over.load], [over.dcl]: two different functions of one class may have the same name if the parameters differ, or if both
    are members (not static) whose qualifiers differ and both or none of them has & or &&. *)
Definition may_overload (f g : callable) : Prop :=
  match f, g with
  | Free _ a _ _, Free _ b _ _ => a <> b
  | Free _ a _ _, Member _ _ b _ _ | Member _ _ a _ _, Free _ b _ _ => a <> b
  | Member c _ a q _, Member d _ b p _ =>
      c = d /\
      (a <> b \/
       ((m_ref q = RNone <-> m_ref p = RNone) /\
        (m_const q <> m_const p \/ m_volatile q <> m_volatile p \/ m_ref q <> m_ref p)))
  | _, _ => False
  end.

(** A static function with the parameters a member function has once the object is counted. *)
Definition takes_the_object_of (f g : callable) : Prop :=
  match f, g with
  | Free _ a _ _, Member c _ b q _ => a = implicit_object c q :: b
  | _, _ => False
  end.

(** The compiler's names of types: every type has its own and commas are inside brackets (C34, C38). *)
Definition good_names (show : qty -> text) : Prop :=
  (forall a b, show a = show b -> a = b) /\ (forall a, type_text (show a) = true /\ show a <> []).

(** Names of functions do not contain a parenthesis. *)
Definition good_name (n : text) : Prop := ~ In "("%char n /\ n <> [].
