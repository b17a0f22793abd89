(** Model of the ordered lists of the registry: MetaItemList, NamedVariantList, their iteration and
    qualified names. Locks are left out here (see LockModel.v). *)
From Coq Require Import List Bool Arith String.
From Verif Require Import RegistryModel.
Import ListNotations.

(** ** Iteration *)

(** src/private/metacontainer_p.h:36-45 and src/private/metaitem_p.h:72-81, [for_each]: a range-for that
    breaks at the first refusal. The visitor may keep state [S]. *)
Fixpoint for_each {A S : Type} (f : S -> A -> S * bool) (l : list A) (s : S) : S :=
  match l with
  | [] => s
  | x :: l' => let (s', go) := f s x in if go then for_each f l' s' else s'
  end.

(** ** MetaItemList *)

(** An item is its address; [nm] gives its immutable name (metaitem_p.h:116). *)
Definition addr := nat.

(** src/private/metacontainer_p.h:29-32. *)
Record milist := { ml_items : list addr; ml_names : list (string * nat) }.

(** An empty list, src/private/metacontainer_p.h:20-35. *)
Definition ml0 : milist := {| ml_items := []; ml_names := [] |}.

(** src/metacontainer.cpp:21-44, [MetaItemList::add]. *)
Definition ml_add (nm : addr -> string) (l : milist) (v : option addr) : milist * bool :=
  match v with
  | None => (l, false)
  | Some a =>
      let itemFound := existsb (Nat.eqb a) (ml_items l) in
      let nameFound := match assoc String.eqb (nm a) (ml_names l) with Some _ => true | None => false end in
      if negb itemFound && negb nameFound then
        let index := List.length (ml_items l) in
        ({| ml_items := ml_items l ++ [a]; ml_names := ml_names l ++ [(nm a, index)] |}, true)
      else (l, false)
  end.

(** src/metacontainer.cpp:46-52, [get(index)]. *)
Definition ml_get (l : milist) (i : nat) : option addr :=
  if i <? List.length (ml_items l) then nth_error (ml_items l) i else None.

(** src/metacontainer.cpp:54-65, [get(name)]. *)
Definition ml_find (l : milist) (n : string) : option addr :=
  if (n =? "")%string then None else
  match assoc String.eqb n (ml_names l) with
  | Some i => if i <? List.length (ml_items l) then nth_error (ml_items l) i else None
  | None => None
  end.

(** src/metacontainer.cpp:67-71. *)
Definition ml_size (l : milist) : nat := List.length (ml_items l).

(** A history of additions. No line of /repo. *)
Definition ml_run (nm : addr -> string) (l : milist) (h : list (option addr)) : milist :=
  fold_left (fun l v => fst (ml_add nm l v)) h l.

(** ** NamedVariantList (attributes and enum elements) *)

Section Named.
  (** The values; [ev] is [variant::empty_variant]. *)
  Context {V : Type} (ev : V).

  (** src/private/metaitem_p.h:46-49. *)
  Record nvlist := { nv_items : list (string * V); nv_names : list (string * nat) }.

  (** An empty list, src/private/metaitem_p.h:47-50. *)
  Definition nv0 : nvlist := {| nv_items := []; nv_names := [] |}.

  (** [item->value = ...] at metaitem_p.h:68. *)
  Fixpoint set_value (i : nat) (v : V) (l : list (string * V)) : list (string * V) :=
    match l, i with
    | [], _ => []
    | (n, _) :: l', 0 => (n, v) :: l'
    | p :: l', S i' => p :: set_value i' v l'
    end.

  (** src/private/metaitem_p.h:52-70. [None] is the std::out_of_range of line 67. *)
  Definition nv_set (l : nvlist) (n : string) (v : V) : option nvlist :=
    if (n =? "")%string then Some l else
    match assoc String.eqb n (nv_names l) with
    | None =>
        let items := nv_items l ++ [(n, v)] in
        Some {| nv_items := items; nv_names := nv_names l ++ [(n, List.length items - 1)] |}
    | Some i =>
        if i <? List.length (nv_items l)
        then Some {| nv_items := set_value i v (nv_items l); nv_names := nv_names l |}
        else None
    end.

  (** src/metaitem.cpp:13-19. *)
  Definition nv_get (l : nvlist) (i : nat) : V :=
    match nth_error (nv_items l) i with Some p => snd p | None => ev end.

  (** src/metaitem.cpp:21-31. *)
  Definition nv_find (l : nvlist) (n : string) : V :=
    if (n =? "")%string then ev else
    match assoc String.eqb n (nv_names l) with
    | Some i => match nth_error (nv_items l) i with Some p => snd p | None => ev end
    | None => ev
    end.

  (** src/metaitem.cpp:33-39. *)
  Definition nv_name (l : nvlist) (i : nat) : string :=
    match nth_error (nv_items l) i with Some p => fst p | None => ""%string end.

  (** src/private/metaitem_p.h:37-41. *)
  Definition nv_size (l : nvlist) : nat := List.length (nv_items l).

  (** A history of [setAttribute] (src/metaitem.cpp:137-149) or [addElement] (src/metaenum.cpp:25-29). *)
  Fixpoint nv_run (l : nvlist) (h : list (string * V)) : option nvlist :=
    match h with
    | [] => Some l
    | (n, v) :: h' => match nv_set l n v with Some l' => nv_run l' h' | None => None end
    end.
End Named.
Arguments nvlist : clear implicits.

(** ** Qualified names *)

(** src/private/metaitem_p.h:116-119: name, owner, cached qualified name. *)
Record qitem := { qi_name : string; qi_owner : option nat; qi_cache : string }.

(** Replace the cache of item [i], metaitem.cpp:56. *)
Fixpoint set_cache (i : nat) (q : string) (l : list qitem) : list qitem :=
  match l, i with
  | [], _ => []
  | x :: l', 0 => {| qi_name := qi_name x; qi_owner := qi_owner x; qi_cache := q |} :: l'
  | x :: l', S i' => x :: set_cache i' q l'
  end.

(** src/metaitem.cpp:47-58, [makeQualifiedName] and [qualifiedName]. [None]: no such item, or [fuel]
    (the nesting depth) ran out. *)
Fixpoint qualifiedName (fuel : nat) (l : list qitem) (i : nat) : option (list qitem * string) :=
  match fuel with
  | 0 => None
  | S fuel' =>
      match nth_error l i with
      | None => None
      | Some x =>
          if negb (qi_cache x =? "")%string then Some (l, qi_cache x) else
          match qi_owner x with
          | None => Some (set_cache i "" l, ""%string)
          | Some o =>
              match qualifiedName fuel' l o with
              | None => None
              | Some (l1, r) =>
                  let q := (r ++ ("::" ++ qi_name x))%string in
                  Some (set_cache i q l1, q)
              end
          end
      end
  end.

(** The global namespace (src/metanamespace.cpp:9-17) is item 0; creating an item below an existing one
    (metaitem_p.h:99-102). *)
Definition q_global : list qitem := [{| qi_name := "global"; qi_owner := None; qi_cache := "" |}].
(** A new item, src/private/metaitem_p.h:91-98. *)
Definition q_create (l : list qitem) (n : string) (owner : nat) : list qitem :=
  l ++ [{| qi_name := n; qi_owner := Some owner; qi_cache := "" |}].

(** Histories of creations and queries; creations name an existing owner. No line of /repo. *)
Inductive qop := QCreate (n : string) (owner : nat) | QAsk (i : nat).
(** A creation, or src/metaitem.cpp:47-58. *)
Definition qstep (l : list qitem) (o : qop) : list qitem :=
  match o with
  | QCreate n ow => if ow <? List.length l then q_create l n ow else l
  | QAsk i => match qualifiedName (S (List.length l)) l i with Some (l', _) => l' | None => l end
  end.
(** No line of /repo. *)
Definition qrun (l : list qitem) (h : list qop) : list qitem := fold_left qstep h l.
