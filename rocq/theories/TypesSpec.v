(** What C++ itself says about binding and qualification, stated on the type grammar
    without the flags, masks and arities of the library. *)
From Coq Require Import NArith List Bool Arith.
From Verif Require Import TypesModel.

(** cv-qualifiers at level [j] of the cv-decomposition ([conv.qual]/1): level 0 is the type itself,
    level j+1 what it points to or is an array of; the qualifiers of an array are its elements'. *)
Fixpoint const_at (t : ty) (j : nat) : bool :=
  match t, j with
  | TBase c _ _, 0 => c
  | TBase _ _ _, S _ => false
  | TPtr c _ _, 0 => c
  | TPtr _ _ t', S j' => const_at t' j'
  | TArr t' _, 0 => const_at t' 0
  | TArr t' _, S j' => const_at t' j'
  end.

Fixpoint volatile_at (t : ty) (j : nat) : bool :=
  match t, j with
  | TBase _ v _, 0 => v
  | TBase _ _ _, S _ => false
  | TPtr _ v _, 0 => v
  | TPtr _ _ t', S j' => volatile_at t' j'
  | TArr t' _, 0 => volatile_at t' 0
  | TArr t' _, S j' => volatile_at t' j'
  end.

(** [conv.qual]/3 from level [k] down: no qualifier is dropped, and where one is added every level
    above, from [k], is const in the target. *)
Definition qual_ok (k : nat) (t u : ty) : Prop :=
  forall j, k <= j ->
    (const_at t j = true -> const_at u j = true) /\
    (volatile_at t j = true -> volatile_at u j = true) /\
    ((const_at t j <> const_at u j \/ volatile_at t j <> volatile_at u j) ->
     forall i, k <= i -> i < j -> const_at u i = true).

(** Similar types: equal once all cv-qualifiers are removed ([conv.qual]/2). *)
Inductive similar : ty -> ty -> Prop :=
| sim_base c v c' v' b : similar (TBase c v b) (TBase c' v' b)
| sim_ptr c v c' v' t u : similar t u -> similar (TPtr c v t) (TPtr c' v' u)
| sim_arr t u n : similar t u -> similar (TArr t n) (TArr u n).

(** A value declared with type [from] initialises something declared with type [to] directly, that is
    without a temporary ([dcl.init.ref], [conv.qual]): an lvalue reference means an lvalue, anything
    else an rvalue. *)
Definition binds (from to : qty) : Prop :=
  similar (q_ty from) (q_ty to) /\
  match q_ref to with
  | RNone => qual_ok 1 (q_ty from) (q_ty to)
  | RL => (q_ref from = RL \/ const_at (q_ty to) 0 = true) /\ qual_ok 0 (q_ty from) (q_ty to)
  | RR => q_ref from <> RL /\ qual_ok 0 (q_ty from) (q_ty to)
  end.

Fixpoint no_volatile (t : ty) : bool :=
  match t with
  | TBase _ v _ => negb v
  | TPtr _ v t' => negb v && no_volatile t'
  | TArr t' _ => no_volatile t'
  end.

(** No pointer below an array. *)
Fixpoint no_pointer (t : ty) : bool :=
  match t with TBase _ _ _ => true | TPtr _ _ _ => false | TArr t' _ => no_pointer t' end.

Fixpoint arrays_of_plain (t : ty) : bool :=
  match t with
  | TBase _ _ _ => true
  | TPtr _ _ t' => arrays_of_plain t'
  | TArr t' _ => no_pointer t'
  end.

Fixpoint pointer_depth (t : ty) : nat :=
  match t with TPtr _ _ t' => S (pointer_depth t') | _ => 0 end.

(** The types to which the exact statement applies. *)
Definition regular (q : qty) : Prop :=
  no_volatile (q_ty q) = true /\ arrays_of_plain (q_ty q) = true /\ pointer_depth (q_ty q) < 16.

Definition not_array (q : qty) : Prop := forall t n, q_ty q <> TArr t n.
