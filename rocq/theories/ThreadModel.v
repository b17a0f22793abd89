(** Model of types and converters being registered by any number of threads, as interleavings of their accesses to
    shared memory.

    A function-local static (include/rtti/metatype.h:523, 786, 791) is initialised by the first thread that passes;
    the others wait until it is done, as C++ prescribes. Each access of the registry or of the converter table is
    one step, because it runs under its lock (src/metatype.cpp:70, 84, 335, 344, 355, 362).
    Left out: the statics of customTypes(), customConverters(), type_name<T>() and type_function_table_for<T>(), whose
    initialisers touch nothing shared; static destruction. *)
From Coq Require Import List Bool Arith String.
From Verif Require Import TypesModel RegistryModel DeferModel.
Import ListNotations.

(** ** metaTypeId<T>() and MetaType{name} *)

(** A request: metaTypeId<q>() (include/rtti/metatype.h:520-530), or MetaType{n}.typeId() (src/metatype.cpp:116-127). *)
Inductive request := Id (q : qty) | Name (n : string).

(** The state of the static [holder] of metaTypeId<q>() once its initialisation began, include/rtti/metatype.h:523. *)
Inductive guard := Running | Ready (id : tid).

(** A call in progress, include/rtti/metatype.h:489-526:
    [Enter q]: metaTypeId<q>() was called; [Decayed q]: the constructor of meta_type<q> called metaTypeId of the
    decayed type (494-496); [Registering q dec]: it is about to call registerMetaType (504-506); [Publish q id]: the
    constructor is about to return and the static to be marked as initialised. *)
Inductive frame := Enter (q : qty) | Decayed (q : qty) | Registering (q : qty) (dec : tid) | Publish (q : qty) (id : tid).

(** [Working q stack]: inside the call metaTypeId<q>() of the program, innermost frame first. include/rtti/metatype.h:489-530. *)
Inductive place := Idle | Working (q : qty) (stack : list frame).

(** The registry of src/metatype.cpp:17-42 and the statics of include/rtti/metatype.h:523, latest state first. *)
Record memory := Memory { reg : registry; guards : list (qty * guard) }.

(** A thread: where it is, what it still has to do, what it was answered. No line of /repo. *)
Record thread := Thread { at_ : place; todo : list request; got : list (request * tid) }.

(** A call of metaTypeId returns [id] to the frame below it, include/rtti/metatype.h:495 or the program. *)
Definition give (t : thread) (q : qty) (below : list frame) (id : tid) : thread :=
  match below with
  | Decayed q' :: rest => Thread (Working q (Registering q' id :: rest)) (todo t) (got t)
  | _ => Thread Idle (todo t) (got t ++ [(Id q, id)])
  end.

Section Step.
  (** [type_name<T>()], include/rtti/typename.h:36-41 (StringsModel.v). *)
  Variable nm : qty -> string.

  (** One step of one thread, include/rtti/metatype.h:489-530 and src/metatype.cpp:65-93. *)
  Definition step (m : memory) (t : thread) : memory * thread :=
    let at_stack q l := Thread (Working q l) (todo t) (got t) in
    match at_ t with
    | Idle =>
        match todo t with
        | [] => (m, t)
        | Id q :: rest => (m, Thread (Working q [Enter q]) rest (got t))
        | Name n :: rest => (m, Thread Idle rest (got t ++ [(Name n, find_name (reg m) n)]))
        end
    | Working q0 stack =>
        match stack with
        | Enter q :: below =>
            if is_void q then (m, give t q0 below None) else
            match assoc qeqb q (guards m) with
            | Some (Ready id) => (m, give t q0 below id)
            | Some Running => (m, t)                        (* waits for the initialising thread *)
            | None =>
                (Memory (reg m) ((q, Running) :: guards m),
                 at_stack q0 (if qeqb q (full_decay q) then Registering q None :: below
                              else Enter (full_decay q) :: Decayed q :: below))
            end
        | Registering q dec :: below =>
            let (r, id) := register (reg m) (nm q) (info_of q) dec in
            (Memory r (guards m), at_stack q0 (Publish q id :: below))
        | Publish q id :: below => (Memory (reg m) ((q, Ready id) :: guards m), give t q0 below id)
        | Decayed _ :: _ | [] => (m, t)
        end
    end.

  (** The scheduler lets thread [i] make one step (no line of /repo). *)
  Definition turn (c : memory * list thread) (i : nat) : memory * list thread :=
    match nth_error (snd c) i with
    | None => c
    | Some t => let '(m', t') := step (fst c) t in (m', put (snd c) i t')
    end.

  (** An execution follows a schedule (no line of /repo). *)
  Definition exec (c : memory * list thread) (schedule : list nat) : memory * list thread := fold_left turn schedule c.
End Step.

(** Nothing registered, the threads about to begin. No line of /repo. *)
Definition start (programs : list (list request)) : memory * list thread :=
  (Memory reg0 [], map (fun l => Thread Idle l []) programs).

(** ** Converters *)

(** A request about a pair of decayed types: registerConverter with a functor, unregisterConverter, or the look-up
    made by hasConverter and convert (src/metatype.cpp:399-455). *)
Inductive crequest := CRegister (k : nat * nat) (fn : functor) | CUnregister (k : nat * nat) | CUse (k : nat * nat).

(** What a request returned: whether it was added, nothing, the converter that was used. src/metatype.cpp:415-455. *)
Inductive canswer := Added (b : bool) | Removed | Used (f : option functor).

(** [CAdd k fn f]: registerConverter has passed the initialisation of its static, which is [f], and is about to add
    it to the table (include/rtti/metatype.h:787, 792). *)
Inductive cplace := CIdle | CAdd (k : nat * nat) (fn f : functor).

(** No line of /repo: a thread, where it is, what it still has to do, what it was answered. *)
Record cthread := CThread { c_at : cplace; c_todo : list crequest; c_got : list (crequest * canswer) }.

(** One step of one thread, include/rtti/metatype.h:778-794 with src/metatype.cpp:333-364. *)
Definition conv_step (c : converters) (t : cthread) : converters * cthread :=
  match c_at t with
  | CIdle =>
      match c_todo t with
      | [] => (c, t)
      | CRegister k fn :: rest =>
          match assoc key3b (k, f_type fn) (cv_static c) with
          | Some f => (c, CThread (CAdd k fn f) rest (c_got t))
          | None => ({| cv_items := cv_items c; cv_static := cv_static c ++ [((k, f_type fn), fn)] |},
                     CThread (CAdd k fn fn) rest (c_got t))
          end
      | CUnregister k :: rest =>
          ({| cv_items := erase keyb k (cv_items c); cv_static := cv_static c |},
           CThread CIdle rest (c_got t ++ [(CUnregister k, Removed)]))
      | CUse k :: rest => (c, CThread CIdle rest (c_got t ++ [(CUse k, Used (assoc keyb k (cv_items c)))]))
      end
  | CAdd k fn f =>
      match assoc keyb k (cv_items c) with
      | Some _ => (c, CThread CIdle (c_todo t) (c_got t ++ [(CRegister k fn, Added false)]))
      | None => ({| cv_items := cv_items c ++ [(k, f)]; cv_static := cv_static c |},
                 CThread CIdle (c_todo t) (c_got t ++ [(CRegister k fn, Added true)]))
      end
  end.

(** The scheduler lets thread [i] make one step (no line of /repo). *)
Definition conv_turn (c : converters * list cthread) (i : nat) : converters * list cthread :=
  match nth_error (snd c) i with
  | None => c
  | Some t => let '(m', t') := conv_step (fst c) t in (m', put (snd c) i t')
  end.

(** An execution follows a schedule (no line of /repo). *)
Definition conv_exec (c : converters * list cthread) (schedule : list nat) := fold_left conv_turn schedule c.

(** No converter registered, the threads about to begin. No line of /repo. *)
Definition conv_start (programs : list (list crequest)) : converters * list cthread :=
  (conv0, map (fun l => CThread CIdle l []) programs).
