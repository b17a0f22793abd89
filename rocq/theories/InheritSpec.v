(** Independent specification of inheritance. *)
From Coq Require Import List Arith Relations.
Import ListNotations.

Section Spec.
  Context {X : Type}.
  Variable g : list (list (nat * (X -> X))).

  (** [d] is declared a direct base of [a]. *)
  Definition direct (a d : nat) : Prop := exists l f, nth_error g a = Some l /\ In (d, f) l.
  (** [b] is [a] or a direct or indirect base of it. *)
  Definition reach : nat -> nat -> Prop := clos_refl_trans_1n nat direct.
  Definition acyclic : Prop := forall a d, direct a d -> ~ reach d a.
  (** All bases mentioned are classes (src/metaclass.cpp:99-101 refuses others). *)
  Definition closed : Prop := forall a d, direct a d -> d < length g.

  (** A chain of declared bases and its conversions. *)
  Inductive chain : nat -> nat -> list (X -> X) -> Prop :=
  | ChHere a : chain a a []
  | ChStep a l d f b fs : nth_error g a = Some l -> In (d, f) l -> chain d b fs -> chain a b (f :: fs).
  Definition along (fs : list (X -> X)) (x : X) : X := fold_left (fun x f => f x) fs x.

  (** The first chain in declaration order. *)
  Inductive first_chain : nat -> nat -> list (X -> X) -> Prop :=
  | FHere a : first_chain a a []
  | FStep a b l1 d f l2 fs : a <> b -> nth_error g a = Some (l1 ++ (d, f) :: l2) ->
      (forall d' f', In (d', f') l1 -> ~ reach d' b) -> first_chain d b fs -> first_chain a b (f :: fs).

  (** The member found by depth-first search in declaration order. *)
  Inductive finds {M : Type} (own : nat -> option M) : nat -> M -> Prop :=
  | FOwn a m : own a = Some m -> finds own a m
  | FBase a l1 d f l2 m : own a = None -> nth_error g a = Some (l1 ++ (d, f) :: l2) ->
      (forall d' f' c, In (d', f') l1 -> reach d' c -> own c = None) -> finds own d m -> finds own a m.
End Spec.

(** C++ objects, independently of InheritModel: [is_sub c d path] holds for the base-class sub-objects of a
    complete object of class [d]: itself, and for every sub-object of class [a] each direct base of [a]; a
    virtual base is one and the same whichever way it is reached. *)
Section Sub.
  Variable c : list (list (nat * bool)).
  Inductive is_sub (d : nat) : list nat -> Prop :=
  | SubAll : is_sub d [d]
  | SubDirect p a l b : is_sub d (p ++ [a]) -> nth_error c a = Some l -> In (b, false) l ->
      is_sub d ((p ++ [a]) ++ [b])
  | SubVirtual p a l b : is_sub d (p ++ [a]) -> nth_error c a = Some l -> In (b, true) l -> is_sub d [b].

  (** [d] has exactly one sub-object of class [b]. *)
  Definition unambiguous (d b : nat) : Prop :=
    forall p p', is_sub d (p ++ [b]) -> is_sub d (p' ++ [b]) -> p = p'.

  (** The C++ conversion of a pointer to a sub-object to a pointer to one of its bases. *)
  Inductive converts : list nat -> list nat -> Prop :=
  | ConvRefl p : converts p p
  | ConvDirect p a l b q : nth_error c a = Some l -> In (b, false) l ->
      converts ((p ++ [a]) ++ [b]) q -> converts (p ++ [a]) q
  | ConvVirtual p a l b q : nth_error c a = Some l -> In (b, true) l -> converts [b] q -> converts (p ++ [a]) q.
End Sub.
