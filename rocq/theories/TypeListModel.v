(** Model of include/rtti/typelist.h. A [type_list<T...>] is a list; types are any set with decidable equality
    (std::is_same). [None] is a failed static_assert (a program that does not compile). *)
From Coq Require Import List Bool Arith ZArith.
Import ListNotations.

Section TL.
  Context {T : Type} (same : forall a b : T, {a = b} + {a <> b}).

  (** typelist.h:45-54. *)
  Definition tl_size (l : list T) : nat := List.length l.
  (** typelist.h:57-65. *)
  Definition tl_isempty (l : list T) : bool := List.length l =? 0.
  (** typelist.h:68-82. *)
  Definition tl_first (l : list T) : option T := match l with [] => None | h :: _ => Some h end.
  (** typelist.h:85-101. *)
  Fixpoint tl_last (l : list T) : option T :=
    match l with [] => None | [h] => Some h | _ :: t => tl_last t end.
  (** typelist.h:104-123; [I - 1] is only formed for [I <> 0]. *)
  Fixpoint tl_get (l : list T) (i : nat) : option T :=
    match l, i with [], _ => None | h :: _, 0 => Some h | _ :: t, S i' => tl_get t i' end.

  (** typelist.h:128-150 (std::int64_t; lists are shorter than 2^63). *)
  Fixpoint tl_indexof_helper (l : list T) (v : T) (index : Z) : Z :=
    match l with
    | [] => (-1)%Z
    | h :: t => if same h v then index else tl_indexof_helper t v (index + 1)%Z
    end.
  (** include/rtti/typelist.h:125-150. *)
  Definition tl_indexof (l : list T) (v : T) : Z := tl_indexof_helper l v 0%Z.
  (** typelist.h:152-157. *)
  Definition tl_exists (l : list T) (v : T) : bool := (0 <=? tl_indexof l v)%Z.

  (** typelist.h:160-166. *)
  Definition tl_concat (l1 l2 : list T) : list T := l1 ++ l2.
  (** typelist.h:169-175. *)
  Definition tl_pushfront (l vs : list T) : list T := vs ++ l.
  (** typelist.h:178-190. *)
  Definition tl_popfront (l : list T) : option (list T) := match l with [] => None | _ :: t => Some t end.
  (** typelist.h:193-199. *)
  Definition tl_pushback (l vs : list T) : list T := l ++ vs.
  (** typelist.h:204-226. *)
  Fixpoint tl_popback_helper (p l : list T) : option (list T) :=
    match l with [] => None | [_] => Some p | h :: t => tl_popback_helper (p ++ [h]) t end.
  (** include/rtti/typelist.h:204-226. *)
  Definition tl_popback (l : list T) : option (list T) := tl_popback_helper [] l.

  (** typelist.h:231-253. *)
  Fixpoint tl_remove_helper (p l : list T) (v : T) : list T :=
    match l with
    | [] => p
    | h :: t => if same h v then p ++ t else tl_remove_helper (p ++ [h]) t v
    end.
  (** include/rtti/typelist.h:231-256. *)
  Definition tl_remove (l : list T) (v : T) : list T := tl_remove_helper [] l v.
  (** typelist.h:258-280. *)
  Fixpoint tl_removeall_helper (p l : list T) (v : T) : list T :=
    match l with
    | [] => p
    | h :: t => if same h v then tl_removeall_helper p t v else tl_removeall_helper (p ++ [h]) t v
    end.
  (** include/rtti/typelist.h:258-283. *)
  Definition tl_removeall (l : list T) (v : T) : list T := tl_removeall_helper [] l v.
  (** typelist.h:285-307. *)
  Fixpoint tl_dedup_helper (p l : list T) : list T :=
    match l with
    | [] => p
    | h :: t => if tl_exists t h then tl_dedup_helper p t else tl_dedup_helper (p ++ [h]) t
    end.
  (** include/rtti/typelist.h:285-308. *)
  Definition tl_remove_duplicates (l : list T) : list T := tl_dedup_helper [] l.

  (** typelist.h:310-335. *)
  Fixpoint tl_unorderedequal (l1 l2 : list T) : bool :=
    match l1, l2 with
    | [], [] => true
    | [], _ :: _ => false
    | _ :: _, [] => false
    | h :: t, _ => if tl_exists l2 h then tl_unorderedequal t (tl_remove l2 h) else false
    end.

  (** typelist.h:379-398. *)
  Fixpoint tl_filter_helper (f : T -> bool) (p l : list T) : list T :=
    match l with
    | [] => p
    | h :: t => if f h then tl_filter_helper f (p ++ [h]) t else tl_filter_helper f p t
    end.
  (** include/rtti/typelist.h:379-398. *)
  Definition tl_filter (l : list T) (f : T -> bool) : list T := tl_filter_helper f [] l.
End TL.

(** typelist.h:363-372. *)
Definition tl_map {T U} (l : list T) (f : T -> U) : list U := map f l.

(** typelist.h:412-423; [f i h] is [F<I, H>::type]. *)
Fixpoint tl_foldl {T I} (l : list T) (f : I -> T -> I) (i : I) : I :=
  match l with [] => i | h :: t => tl_foldl t f (f i h) end.

(** typelist.h:438-449. The recursive case inherits from [F<H, rest>::type] itself, so its own [::type] is a
    member [type] of the result type: [member r] is [r::type], [None] if there is none. *)
Fixpoint tl_foldr {T I} (member : I -> option I) (l : list T) (f : T -> I -> I) (i : I) : option I :=
  match l with
  | [] => Some i
  | h :: t => match tl_foldr member t f i with Some r => member (f h r) | None => None end
  end.

(** typelist.h:457-463; [fuel] is N. *)
Fixpoint tl_make_index (n : nat) (ints : list nat) : list nat :=
  match n with 0 => ints | S n' => tl_make_index n' (n' :: ints) end.

(** typelist.h:338-357: a nested list becomes a nested tuple. *)
Inductive mtype := MAtom (n : nat) | MList (l : list mtype) | MTuple (l : list mtype).
(** include/rtti/typelist.h:340-358. *)
Fixpoint tl_runtime (t : mtype) : mtype :=
  match t with MList l => MTuple (map tl_runtime l) | _ => t end.
