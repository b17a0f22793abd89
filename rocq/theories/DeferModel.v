(** Model of lazy definition of one container with any number of threads: MetaContainer::setDeferredDefine and
    checkDeferredDefine (src/metacontainer.cpp:144-167) and a query (197-222) that follows it.

    Interleaving of atomic steps, sequentially consistent: the code's acquire/release orderings admit these
    executions (and, through the race on m_deferredDefine, worse ones, which are not modelled).
    The single-threaded behaviour, including callbacks that call back into the registry, is in ReflModel.v. *)
From Coq Require Import List Bool Arith.
Import ListNotations.

(** What a callback does to the container (include/rtti/metadefine.h:34-56): add items one by one, maybe
    end by an exception. Simplified: a callback touches only this container, and items are numbers. *)
Inductive bstep := BAdd (n : nat) | BThrow.

(** What a thread asks for: a query (src/metacontainer.cpp:203-222) or a lazy definition whose callback object
    is [id] (include/rtti/metadefine.h:836-1053, [_lazy]). *)
Inductive op := OQuery | OSet (id : nat).

(** How a query got past checkDeferredDefine: no callback (src/metacontainer.cpp:156), lock taken by someone
    else (158), or it ran the callback itself (166). Ghost information. *)
Inductive path := Absent | Busy | Ran.

(** Where a thread is; one constructor per access to shared memory. *)
Inductive pc :=
| Next                                  (* before the next operation: reads m_deferredDefine, 147 or 156 *)
| Exchange                              (* 158, the atomic exchange *)
| Enter                                 (* 166, m_deferredDefine->invoke *)
| Body (id : nat) (rest : list bstep)   (* inside invoke *)
| Reset (threw : bool)                  (* 162, m_deferredDefine = nullptr *)
| Release (threw : bool)                (* 163, the atomic store *)
| Look (p : path)                       (* 205/212/219, the query itself, under the list's shared lock *)
| Store (id : nat)                      (* 150, m_deferredDefine = callback *)
| Crashed.                              (* undefined behaviour *)

(** src/private/metacontainer_p.h:75-76 and the lists; [invoked] is a ghost log of the callbacks entered. *)
Record shared := Shared { lock : bool; cb : option nat; items : list nat; invoked : list nat }.

(** A thread: what it still has to do, what its queries returned, how many operations ended by an exception. No line of /repo. *)
Record thread := Thread { at_ : pc; todo : list op; seen : list (path * list nat); errors : nat }.

Section Defs.
  (** The body of each callback object. *)
  Variable defs : nat -> list bstep.

  (** One step of one thread, src/metacontainer.cpp:144-167 and 203-222.
      A callback runs on storage owned by m_deferredDefine: if another thread replaces the pointer meanwhile,
      the callback object is destroyed under its feet. *)
  Definition step (s : shared) (t : thread) : shared * thread :=
    match at_ t with
    | Next =>
        match todo t with
        | [] => (s, t)
        | OQuery :: r =>
            (s, Thread (match cb s with None => Look Absent | Some _ => Exchange end) r (seen t) (errors t))
        | OSet id :: r =>
            match cb s with
            | None => (s, Thread (Store id) r (seen t) (errors t))
            | Some _ => (s, Thread Next r (seen t) (S (errors t)))
            end
        end
    | Exchange =>
        (Shared true (cb s) (items s) (invoked s),
         Thread (if lock s then Look Busy else Enter) (todo t) (seen t) (errors t))
    | Enter =>
        match cb s with
        | None => (s, Thread Crashed (todo t) (seen t) (errors t))
        | Some id => (Shared (lock s) (cb s) (items s) (invoked s ++ [id]),
                      Thread (Body id (defs id)) (todo t) (seen t) (errors t))
        end
    | Body id rest =>
        match cb s with
        | Some id' =>
            if id' =? id then
              match rest with
              | [] => (s, Thread (Reset false) (todo t) (seen t) (errors t))
              | BThrow :: _ => (s, Thread (Reset true) (todo t) (seen t) (errors t))
              | BAdd n :: r => (Shared (lock s) (cb s) (items s ++ [n]) (invoked s),
                                Thread (Body id r) (todo t) (seen t) (errors t))
              end
            else (s, Thread Crashed (todo t) (seen t) (errors t))
        | None => (s, Thread Crashed (todo t) (seen t) (errors t))
        end
    | Reset b =>
        (Shared (lock s) None (items s) (invoked s), Thread (Release b) (todo t) (seen t) (errors t))
    | Release b =>
        (Shared false (cb s) (items s) (invoked s),
         if b then Thread Next (todo t) (seen t) (S (errors t)) else Thread (Look Ran) (todo t) (seen t) (errors t))
    | Look p => (s, Thread Next (todo t) (seen t ++ [(p, items s)]) (errors t))
    | Store id => (Shared (lock s) (Some id) (items s) (invoked s), Thread Next (todo t) (seen t) (errors t))
    | Crashed => (s, t)
    end.

  (** Replaces an element of a list; the program's threads are a list. Not code of /repo. No line of /repo. *)
  Fixpoint put {A} (l : list A) (i : nat) (x : A) : list A :=
    match l, i with
    | [], _ => []
    | _ :: l', 0 => x :: l'
    | y :: l', S i' => y :: put l' i' x
    end.

  (** The scheduler lets thread [i] make one step (no line of /repo). *)
  Definition turn (c : shared * list thread) (i : nat) : shared * list thread :=
    match nth_error (snd c) i with
    | None => c
    | Some t => let '(s', t') := step (fst c) t in (s', put (snd c) i t')
    end.

  (** An execution: the threads take turns in the order of a schedule (no line of /repo). *)
  Definition exec (c : shared * list thread) (schedule : list nat) : shared * list thread :=
    fold_left turn schedule c.
End Defs.

(** A thread that has not begun, with these operations ahead of it. No line of /repo. *)
Definition fresh (l : list op) : thread := Thread Next l [] 0.

(** The container before any thread runs: nobody inside, callback [c] waiting or not. src/private/metacontainer_p.h:72-76. *)
Definition initial (c : option nat) (its : list nat) (programs : list (list op)) : shared * list thread :=
  (Shared false c its [], map fresh programs).
