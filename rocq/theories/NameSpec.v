(** What is said about types that print alike, independently of how the registry works. *)
From Coq Require Import NArith List Bool Arith String.
From Verif Require Import TypesModel AccModel NameModel.
Import ListNotations.

(** The types an operation is about: those of the content, as an expression, and those asked for. *)
Definition about (o : nop) : list qty :=
  match o with
  | NType q => [q]
  | NIs _ c a T => [type_id c a; T]
  | NAccess _ c a T => [type_id c (from_attr a); seen a T]
  | NTo _ c a T => [type_id c a; mkQ RNone T]
  end.

(** The types of a program: those its operations are about, and these without qualifiers and references. *)
Definition in_program (h : list nop) (q : qty) : Prop :=
  exists o p, In o h /\ In p (about o) /\ (q = p \/ q = full_decay p).

(** No other type of the program prints like [q], and [q] does print as something. *)
Definition alone (nm : qty -> string) (h : list nop) (q : qty) : Prop :=
  nm q <> ""%string /\ forall p, in_program h p -> nm p = nm q -> p = q.

(** So do [q] and its decayed type, neither of them being void. *)
Definition void_type (q : qty) : Prop := exists b, q = mkQ RNone (TBase false false b) /\ b_kind b = KVoid.
Definition distinct (nm : qty -> string) (h : list nop) (q : qty) : Prop :=
  ~ void_type q /\ ~ void_type (full_decay q) /\ alone nm h q /\ alone nm h (full_decay q).
