(** What C++ and the documentation of converters say, stated without the code: initialisation of a parameter and of an
    object by the rules of TypesSpec.v, and how function objects given to registerConverter are written. *)
From Coq Require Import NArith List Bool Arith.
From Verif Require Import TypesModel TypesSpec SelectModel.
Import ListNotations.

(** An object of type [t] may be copied or moved from the expression [a] of the same type. *)
Inductive transfers (e : env) (a : qty) : ty -> Prop :=
| tr_copy c v b : copies e b = true -> (q_ref a = RL \/ const_at (q_ty a) 0 = true) -> transfers e a (TBase c v b)
| tr_move c v b : moves e b = true -> q_ref a <> RL -> const_at (q_ty a) 0 = false -> transfers e a (TBase c v b)
| tr_pointer c v t : transfers e a (TPtr c v t).

(** An argument initialises a parameter: directly ([binds]), or through a temporary of another type. *)
Inductive initialises (e : env) (a p : qty) : Prop :=
| in_direct : binds a p -> (q_ref p = RNone -> transfers e a (q_ty p)) -> initialises e a p
| in_temporary :
    ~ similar (q_ty a) (q_ty p) -> conv e a (q_ty p) = true -> (q_ref p = RL -> const_at (q_ty p) 0 = true) ->
    initialises e a p.

(** A result becomes an object of type [t]; a prvalue of the type itself is not transferred. *)
Inductive becomes (e : env) (a : qty) (t : ty) : Prop :=
| be_same : similar (q_ty a) t -> qual_ok 1 (q_ty a) t -> (q_ref a <> RNone -> transfers e a t) -> becomes e a t
| be_other : ~ similar (q_ty a) t -> conv e a t = true -> becomes e a t.

(** ... or does so explicitly, as in [T(a)]. *)
Definition constructs (e : env) (a : qty) (t : ty) : Prop :=
  becomes e a t \/ (~ similar (q_ty a) t /\ expl e a t = true).

(** The content of a variant as a converter gets to see it. *)
Definition unmodifiable (a : qty) (t : ty) : Prop :=
  q_ref a = RL /\ similar (q_ty a) t /\ const_at (q_ty a) 0 = true /\ volatile_at (q_ty a) 0 = volatile_at t 0 /\
  forall j, 0 < j -> const_at (q_ty a) j = const_at t j /\ volatile_at (q_ty a) j = volatile_at t j.

(** Objects are of neither void nor function type. *)
Definition has_objects (t : ty) : Prop :=
  forall c v b, t = TBase c v b -> b_kind b <> KVoid /\ b_kind b <> KFunction.

(** No qualifiers below the type itself. *)
Definition plain_below (t : ty) : Prop := forall j, 0 < j -> const_at t j = false /\ volatile_at t j = false.

(** A converter written without a report: one parameter. *)
Definition written_plain (fn : functor) (p : qty) : Prop := o_params fn = [p] /\ o_required fn <= 1.

(** A converter written with a report: its second parameter is [bool&]. *)
Definition written_reporting (fn : functor) (p : qty) : Prop :=
  exists b, o_params fn = [p; mkQ RL (TBase false false b)] /\ o_required fn = 2 /\ b = bool_base.

(** The parameter is not a name of the flag: it is a copy, a temporary or const. *)
Definition detached (p : qty) : Prop :=
  q_ref p <> RL \/ const_at (q_ty p) 0 = true \/ ~ similar (q_ty p) (TBase false false bool_base).
