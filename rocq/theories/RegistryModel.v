(** Model of the type registry (src/metatype.cpp, class CustomTypes), of [metaTypeId<T>()] and of the
    converter table. *)
From Coq Require Import NArith List Bool Arith String.
From Verif Require Import TypesModel.
Import ListNotations.

(** ** Association lists, standing for std::unordered_map *)

Section Assoc.
  Context {K V : Type} (eqb : K -> K -> bool).
  (** std::unordered_map::find, src/metatype.cpp:71-72, 85, 354. *)
  Fixpoint assoc (k : K) (l : list (K * V)) : option V :=
    match l with [] => None | (k', v) :: l' => if eqb k k' then Some v else assoc k l' end.
  (** std::unordered_map::erase, src/metatype.cpp:360-364. *)
  Definition erase (k : K) (l : list (K * V)) : list (K * V) :=
    filter (fun p => negb (eqb k (fst p))) l.
End Assoc.

(** ** Registry *)

(** A [MetaType_ID]: 0 ([None]) or the address of a TypeInfo, here its position in order of creation.
    src/metatype.cpp:55-63. *)
Definition tid := option nat.

(** src/private/metatype_p.h:12-37, [TypeInfo]. The manager and the class pointer are modelled
    elsewhere (VarModel.v, ReflModel.v). *)
Record type_rec := { tr_name : string; tr_info : tinfo; tr_decay : nat }.

(** src/metatype.cpp:17-53. [r_items] in order of creation (the code prepends; only addresses are
    used), [r_names] the name map, [r_destroyed] the flag set when static destructors ran. *)
Record registry := { r_items : list type_rec; r_names : list (string * nat); r_destroyed : bool }.

(** CustomTypes::CustomTypes, src/metatype.cpp:45. *)
Definition reg0 : registry := {| r_items := []; r_names := []; r_destroyed := false |}.

(** src/metatype.cpp:65-75 behind src/metatype.cpp:116-121: look-up by name. *)
Definition find_name (r : registry) (n : string) : tid :=
  if r_destroyed r then None else
  if (n =? "")%string then None else assoc String.eqb n (r_names r).

(** src/metatype.cpp:77-93 and 222-232 [registerMetaType]; the decay of a new entry is the one given or
    its own address (metatype_p.h:31). *)
Definition register (r : registry) (n : string) (i : tinfo) (dec : tid) : registry * tid :=
  if r_destroyed r then (r, None) else
  if (n =? "")%string then (r, None) else
  match assoc String.eqb n (r_names r) with
  | Some id => (r, Some id)
  | None =>
      let id := List.length (r_items r) in
      let d := match dec with Some d => d | None => id end in
      ({| r_items := r_items r ++ [{| tr_name := n; tr_info := i; tr_decay := d |}];
          r_names := r_names r ++ [(n, id)];
          r_destroyed := false |}, Some id)
  end.

(** src/metatype.cpp:47-53, static destruction. *)
Definition destroy_registry (r : registry) : registry :=
  {| r_items := []; r_names := []; r_destroyed := true |}.

(** Reading through an identifier. [DUB]: the identifier is not the address of a live TypeInfo
    (src/metatype.cpp:60-63 casts it without any check). *)
Inductive deref (A : Type) := DNull | DOk (a : A) | DUB.
Arguments DNull {A}. Arguments DOk {A}. Arguments DUB {A}.

(** src/metatype.cpp:110-114 [MetaType(MetaType_ID)], then a member access. *)
Definition lookup_id (r : registry) (t : tid) : deref type_rec :=
  if r_destroyed r then DNull else
  match t with
  | None => DNull
  | Some i => match nth_error (r_items r) i with Some x => DOk x | None => DUB end
  end.

(** src/metatype.cpp:131-135 [decayId]. *)
Definition decayId (r : registry) (t : tid) : deref nat :=
  match lookup_id r t with DOk x => DOk (tr_decay x) | DNull => DNull | DUB => DUB end.

(** A history of raw registry operations. Calls of src/metatype.cpp:65-93. *)
Inductive rop :=
| OReg (n : string) (i : tinfo) (dec : tid)
| OFind (n : string).

(** src/metatype.cpp:65-93. *)
Definition rstep (r : registry) (o : rop) : registry :=
  match o with OReg n i dec => fst (register r n i dec) | OFind _ => r end.

(** A history, no line of /repo. *)
Definition rrun (r : registry) (h : list rop) : registry := fold_left rstep h r.

(** ** metaTypeId<T>() *)

(** The registry together with the function-local statics of include/rtti/metatype.h:521-526
    ([m_ids], one per type). *)
Record mstate := { m_reg : registry; m_ids : list (qty * tid) }.

(** Nothing registered, no static initialised: src/metatype.cpp:45. *)
Definition m0 : mstate := {| m_reg := reg0; m_ids := [] |}.

(** std::is_same, no line of /repo. *)
Definition qeqb (a b : qty) : bool := if qty_eq_dec a b then true else false.

(** void itself, include/rtti/metatype.h:528-530. *)
Definition is_void (q : qty) : bool :=
  match q with
  | mkQ RNone (TBase false false b) => kind_is KVoid b
  | _ => false
  end.

(** include/rtti/metatype.h:489-530, [metaTypeId<T>()] with the constructor of [meta_type<T>];
    [nm] is [type_name<T>()]. [fuel] bounds the recursion on the decayed type; [None] is running out. *)
Fixpoint metaTypeId (nm : qty -> string) (fuel : nat) (s : mstate) (q : qty) : option (mstate * tid) :=
  match fuel with
  | 0 => None
  | S fuel' =>
      if is_void q then Some (s, None) else
      match assoc qeqb q (m_ids s) with
      | Some id => Some (s, id)
      | None =>
          let reg (s1 : mstate) (dec : tid) :=
            let (r, id) := register (m_reg s1) (nm q) (info_of q) dec in
            Some ({| m_reg := r; m_ids := m_ids s1 ++ [(q, id)] |}, id) in
          if qeqb q (full_decay q) then reg s None
          else match metaTypeId nm fuel' s (full_decay q) with
               | None => None
               | Some (s1, dec) => reg s1 dec
               end
      end
  end.

(** The fuel that is always enough. include/rtti/metatype.h:489-530. *)
Definition meta_id (nm : qty -> string) (s : mstate) (q : qty) : option (mstate * tid) :=
  metaTypeId nm 2 s q.

(** A history of calls of include/rtti/metatype.h:489-530. *)
Fixpoint mrun (nm : qty -> string) (s : mstate) (h : list qty) : option mstate :=
  match h with
  | [] => Some s
  | q :: h' => match meta_id nm s q with None => None | Some (s', _) => mrun nm s' h' end
  end.

(** ** Converters *)

(** What is passed to registerConverter: the functor's C++ type and its value. include/rtti/metatype.h:778-793. *)
Record functor := { f_type : nat; f_val : nat }.

(** [cv_items]: src/metatype.cpp:378, keyed by decayed identifiers, holding the converter object;
    [cv_static]: the function-local statics of include/rtti/metatype.h:786,791, one per
    (From, To, functor type), initialised by the first call. *)
Record converters := { cv_items : list ((nat * nat) * functor);
                       cv_static : list ((nat * nat * nat) * functor) }.

(** No converter, src/metatype.cpp:378. *)
Definition conv0 : converters := {| cv_items := []; cv_static := [] |}.

(** Equality of the keys of src/metatype.cpp:378. *)
Definition keyb (a b : nat * nat) : bool := (fst a =? fst b) && (snd a =? snd b).
(** Equality of the statics of include/rtti/metatype.h:786, 791. *)
Definition key3b (a b : nat * nat * nat) : bool := keyb (fst a) (fst b) && (snd a =? snd b).

(** src/metatype.cpp:399-413. [dec] gives the decayed identifier of a valid identifier. *)
Definition hasConverter (dec : nat -> nat) (c : converters) (from to : tid) : bool :=
  match from, to with
  | Some f, Some t => match assoc keyb (dec f, dec t) (cv_items c) with Some _ => true | None => false end
  | _, _ => false
  end.

(** include/rtti/metatype.h:778-802 with src/metatype.cpp:339-350,415-425: the static is initialised with
    the functor given first for this functor type; that object is then added unless the pair is taken. *)
Definition registerConverter (dec : nat -> nat) (c : converters) (from to : tid) (fn : functor)
  : converters * bool :=
  match from, to with
  | Some f, Some t =>
      let k := (dec f, dec t) in
      let sk := (k, f_type fn) in
      let '(st, obj) := match assoc key3b sk (cv_static c) with
                        | Some o => (cv_static c, o)
                        | None => (cv_static c ++ [(sk, fn)], fn)
                        end in
      match assoc keyb k (cv_items c) with
      | Some _ => ({| cv_items := cv_items c; cv_static := st |}, false)
      | None => ({| cv_items := cv_items c ++ [(k, obj)]; cv_static := st |}, true)
      end
  | _, _ => (c, false)
  end.

(** src/metatype.cpp:447-455, 360-364. *)
Definition unregisterConverter (dec : nat -> nat) (c : converters) (from to : tid) : converters :=
  match from, to with
  | Some f, Some t => {| cv_items := erase keyb (dec f, dec t) (cv_items c); cv_static := cv_static c |}
  | _, _ => c
  end.

(** src/metatype.cpp:427-437: the converter used by [convert]. *)
Definition converter_for (dec : nat -> nat) (c : converters) (from to : tid) : option functor :=
  match from, to with
  | Some f, Some t => assoc keyb (dec f, dec t) (cv_items c)
  | _, _ => None
  end.

(** Calls of src/metatype.cpp:415-455. *)
Inductive cop := CReg (from to : tid) (fn : functor) | CUnreg (from to : tid).

(** src/metatype.cpp:415-455. *)
Definition cstep (dec : nat -> nat) (c : converters) (o : cop) : converters :=
  match o with
  | CReg f t fn => fst (registerConverter dec c f t fn)
  | CUnreg f t => unregisterConverter dec c f t
  end.

(** A history, no line of /repo. *)
Definition crun (dec : nat -> nat) (c : converters) (h : list cop) : converters := fold_left (cstep dec) h c.
