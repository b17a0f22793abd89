(** Model of how C++ types are told apart at run time: by the text the compiler prints for them
    (include/rtti/typename.h:10-42, include/rtti/metatype.h:489-543, src/metatype.cpp:17-93, 110-135, 222-232,
    src/private/metatype_p.h:12-37), and of the accessors of variants on top of it (include/rtti/variant.h:130-274,
    354-600). AccModel.v compares types where this model compares the identifiers the registry gave out. *)
From Coq Require Import NArith List Bool Arith String.
From Verif Require Import TypesModel InheritModel RegistryModel AccModel.
Import ListNotations.

(** ** The registry *)

(** TypeInfo, src/private/metatype_p.h:12-37. Size, arity, mask, flags and the table of functions all come from the
    type whose meta_type was constructed first under the name (include/rtti/metatype.h:504-512); [en_owner] is that type.
    The class pointer is left out. *)
Record entry := Entry { en_name : string; en_owner : qty; en_decay : nat }.

(** CustomTypes, src/metatype.cpp:17-45, with the entries in order of creation, an identifier being a position; and the
    function-local statics of include/rtti/metatype.h:521-526. The name map is the entries' names (C04). *)
Record world := World { w_items : list entry; w_static : list (qty * tid) }.
(** Nothing registered, src/metatype.cpp:45. *)
Definition world0 : world := World [] [].

(** src/metatype.cpp:65-75. *)
Fixpoint position (n : string) (l : list entry) : option nat :=
  match l with
  | [] => None
  | x :: l' => if (en_name x =? n)%string then Some 0 else option_map S (position n l')
  end.

(** MetaType{name}, src/metatype.cpp:116-121. *)
Definition by_name (w : world) (n : string) : tid := if (n =? "")%string then None else position n (w_items w).

Section Naming.

(** [type_name<T>()]: what the compiler prints, include/rtti/typename.h:10-42. *)
Variable nm : qty -> string.

(** addTypeInfo, src/metatype.cpp:77-93; a decay that is not valid becomes the entry itself (metatype_p.h:31). *)
Definition enter (w : world) (q : qty) (dec : tid) : world * tid :=
  if (nm q =? "")%string then (w, None) else
  match position (nm q) (w_items w) with
  | Some i => (w, Some i)
  | None =>
      let i := List.length (w_items w) in
      (World (w_items w ++ [Entry (nm q) q (match dec with Some d => d | None => i end)]) (w_static w), Some i)
  end.

(** The static of metaTypeId<T>() is made by [f] if it does not exist, include/rtti/metatype.h:521-526; void has none
    (528-530). *)
Definition once (w : world) (q : qty) (f : world -> world * tid) : world * tid :=
  if is_void q then (w, None) else
  match assoc qeqb q (w_static w) with
  | Some id => (w, id)
  | None => let '(w', id) := f w in (World (w_items w') (w_static w' ++ [(q, id)]), id)
  end.

(** metaTypeId<T>() with the constructor of meta_type<T>, include/rtti/metatype.h:489-530. The recursion goes to the
    decayed type and ends there; it is written out. *)
Definition ident (w : world) (q : qty) : world * tid :=
  once w q (fun w =>
    if qeqb q (full_decay q) then enter w q None
    else let '(w1, d) := once w (full_decay q) (fun w => enter w (full_decay q) None) in enter w1 q d).

(** MetaType{id}, src/metatype.cpp:110-114, and what it says of itself (137-163): all of it is computed from the owner. *)
Definition owner (w : world) (t : tid) : option qty :=
  match t with None => None | Some i => option_map en_owner (nth_error (w_items w) i) end.
(** MetaType{id}, src/metatype.cpp:110-114, 137-163. *)
Definition described (w : world) (t : tid) : metatype := option_map info_of (owner w t).

(** decayId, src/metatype.cpp:131-135. *)
Definition decay_id (w : world) (t : tid) : tid :=
  match t with None => None | Some i => option_map en_decay (nth_error (w_items w) i) end.

(** Equality of MetaType_ID, include/rtti/metatype.h:37. *)
Definition same_id (a b : tid) : bool :=
  match a, b with Some i, Some j => i =? j | None, None => true | _, _ => false end.

(** ** Variants *)

(** metafunc_is, variant.h:354-416. Classes are found as in AccModel.v. *)
Definition n_is (e : env) (w : world) (c : content) (a : attr) (T : qty) : world * out bool :=
  let '(w1, from) := ident w (type_id c a) in
  let '(w2, to) := ident w1 T in
  (w2, match compatible (described w2 from) (described w2 to) with
       | CFalse => Got false
       | CTerm => Term
       | CTrue =>
           if same_id (decay_id w2 from) (decay_id w2 to) then Got true
           else match tag_of T with
                | TagNone => Got false
                | TagClass k => if isClass (described w2 from) then inherits e c k else Got false
                | TagClassPtr k => if isClassPtr (described w2 from) then inherits e c k else Got false
                end
       end).

(** metafunc_cast, variant.h:418-506, as ref, cref, rref and data call it (144-248): [T] is asked for through [a]. *)
Definition n_access (e : env) (w : world) (c : content) (a : accessor) (T : ty) : world * out place :=
  let '(w1, from) := ident w (type_id c (from_attr a)) in
  let '(w2, to) := ident w1 (seen a T) in
  (w2, match compatible (described w2 from) (described w2 to) with
       | CFalse => Throw
       | CTerm => Term
       | CTrue =>
           if same_id (decay_id w2 from) (decay_id w2 to)
           then Got (if is_array (q_ty (seen a T)) then Elements else if is_array (stored c) then Hidden else Whole)
           else match tag_of (seen a T) with
                | TagNone => Throw
                | TagClass k =>
                    if isClass (described w2 from)
                    then bind (cast_imp e c k) (fun r => match r with Some x => Got (Base x) | None => Throw end)
                    else Throw
                | TagClassPtr k =>
                    if isClassPtr (described w2 from)
                    then bind (cast_imp e c k) (fun r =>
                         match r with
                         | Some x => if match storage_ptr c with Some p => x =? p | None => false end
                                     then Got Slot else Throw
                         | None => Throw
                         end)
                    else Throw
                end
       end).

(** `to.copy_construct(...)`: the table of functions is that of the type which [t] describes. include/rtti/variant.h:508-600. *)
Definition copied_as (e : env) (w : world) (t : tid) (g : got) : out got :=
  match owner w t with Some q => copied e (q_ty q) g | None => Undef end.

(** metafunc_to, variant.h:508-600. *)
Definition n_to (e : env) (w : world) (c : content) (a : attr) (T : ty) : world * out got :=
  let '(w1, from) := ident w (type_id c a) in
  let '(w2, to) := ident w1 (mkQ RNone T) in
  let otherwise := bind (convert e c (type_id c a) (mkQ RNone T))
                     (fun r => match r with Some x => Got (Converted x) | None => Throw end) in
  (w2, match compatible (described w2 from) (described w2 to) with
       | CFalse => otherwise
       | CTerm => Term
       | CTrue =>
           if same_id (decay_id w2 from) (decay_id w2 to)
           then copied_as e w2 to (if is_array (stored c) then First else Same)
           else match tag_of (mkQ RNone T) with
                | TagNone => otherwise
                | TagClass k =>
                    if isClass (described w2 from)
                    then bind (cast_imp e c k) (fun r => match r with Some x => copied_as e w2 to (Part x) | None => otherwise end)
                    else otherwise
                | TagClassPtr k =>
                    if isClassPtr (described w2 from)
                    then bind (cast_imp e c k) (fun r =>
                           match r with Some x => copied_as e w2 to (Pointer x) | None => otherwise end)
                    else otherwise
                end
       end).

(** ** Programs *)

(** What a program does that can enter types. Converters are registered and found by the decayed types (metatype.h:
    778-802); as everywhere in this model their table itself is the one of AccModel.v. *)
Inductive nop :=
| NType (q : qty)
| NIs (e : env) (c : content) (a : attr) (T : qty)
| NAccess (e : env) (c : content) (a : accessor) (T : ty)
| NTo (e : env) (c : content) (a : attr) (T : ty).

(** include/rtti/metatype.h:489-530, include/rtti/variant.h:130-274. *)
Definition nstep (w : world) (o : nop) : world :=
  match o with
  | NType q => fst (ident w q)
  | NIs e c a T => fst (n_is e w c a T)
  | NAccess e c a T => fst (n_access e w c a T)
  | NTo e c a T => fst (n_to e w c a T)
  end.

(** A history, no line of /repo. *)
Definition nrun (w : world) (h : list nop) : world := fold_left nstep h w.

End Naming.
