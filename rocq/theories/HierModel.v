(** Model of the class hierarchy being declared and searched by any number of threads, as interleavings of their
    accesses to the two lists of every class.

    Every access to a list runs under that list's lock (src/private/metaclass_p.h:12-106). The exclusive ones and the
    single shared ones are one step; the walks of inheritedFrom and cast hold a shared lock on every class they are
    inside of, from [for_each] on (97-106), while they search the bases.
    Left out: lazy definitions (C20, C43), unregistered classes (the calls then throw before touching a list,
    src/metaclass.cpp:96-101), the pointers themselves: a cast is the chain of classes whose casts were applied. *)
From Coq Require Import List Bool Arith.
From Verif Require Import DeferModel.
Import ListNotations.

(** The two lists of every class, BaseClassList and DerivedClassList, src/private/metaclass_p.h:119-120. *)
Record memory := Memory { bases : nat -> list nat; derived : nat -> list nat }.

(** [l] with [x] at its end unless it is there, src/private/metaclass_p.h:15-21, 55-60. *)
Definition add (x : nat) (l : list nat) : list nat := if in_dec Nat.eq_dec x l then l else l ++ [x].

(** The list of class [c] changed; the others stay (no line of /repo). *)
Definition update (f : nat -> list nat) (c : nat) (l : list nat) : nat -> list nat :=
  fun x => if x =? c then l else f x.

(** What threads ask: [AddBase c b]: addBaseClass (src/metaclass.cpp:92-106); [Inherited a b]: a->inheritedFrom(b)
    (123-145); [Cast a b]: a->cast(b, p) (147-174); [BaseAt c i], [DerivedAt c i]: baseClass, derivedClass (69-90). *)
Inductive request :=
  AddBase (c b : nat) | Inherited (a b : nat) | Cast (a b : nat) | BaseAt (c i : nat) | DerivedAt (c i : nat).

(** What they are answered: nothing, a boolean, the chain of classes of a cast or null, a class or null.
    src/metaclass.cpp:62-180. *)
Inductive answer := Done | Is (r : bool) | Via (r : option (list nat)) | Item (r : option nat).

(** A walk in progress below another one. [FI x i]: inheritedFrom of [x], at its base number [i], src/metaclass.cpp:133;
    [FC x i p s]: cast of [x] with chain [p] so far, asking base number [i] whether it inherits (159-163);
    [FD x i p s s']: the same, casting base number [i] (166).
    [s] and [s'] are ghosts: the bases of all classes when the cast of [x], of that base, was called. *)
Inductive frame :=
  | FI (x i : nat)
  | FC (x i : nat) (p : list nat) (s : nat -> list nat)
  | FD (x i : nat) (p : list nat) (s s' : nat -> list nat).

(** The class whose list a frame holds locked, src/private/metaclass_p.h:100. *)
Definition locked (f : frame) : nat := match f with FI x _ | FC x _ _ _ | FD x _ _ _ _ => x end.

(** Where a walk is: calling inheritedFrom of a class; calling cast of a class with a chain; at the next item of the
    innermost list; returning from inheritedFrom; returning from cast, src/metaclass.cpp:123-174. *)
Inductive control :=
  EnterI (x : nat) | EnterC (x : nat) (p : list nat) (s : nat -> list nat) | Next | RetI (r : bool) | RetC (r : option (list nat)).

(** Between two requests; waiting for the exclusive lock of [c]'s bases (src/metaclass.cpp:104); about to add [c] to the
    list of [b] (105, 120); in a walk for target [b]. [from] is a ghost: the lists when the request began. *)
Inductive place :=
  | Idle
  | Waiting (c b : nat) (from : memory)
  | Linking (c b : nat) (from : memory)
  | Walking (q : request) (b : nat) (at_ : control) (stack : list frame) (from : memory).

(** A request answered, with the lists when it began and when it ended (ghosts, no line of /repo). *)
Record entry := Entry { e_request : request; e_answer : answer; e_from : memory; e_to : memory }.

(** A thread: where it is, what it will ask, what it was answered (no line of /repo). *)
Record thread := Thread { where_ : place; todo : list request; got : list entry }.

(** The classes whose bases a thread holds locked, and the one whose bases it waits to lock exclusively,
    src/private/metaclass_p.h:100, 57. *)
Definition holds (t : thread) : list nat :=
  match where_ t with Walking _ _ _ st _ => map locked st | _ => [] end.
(** A lock that a thread waits for, src/private/metaclass_p.h:57. *)
Definition wants (t : thread) : option nat := match where_ t with Waiting c _ _ => Some c | _ => None end.

(** May a thread lock the bases of [x] exclusively, src/private/metaclass_p.h:57: nobody walks them. *)
Definition can_write (ts : list thread) (x : nat) : bool :=
  forallb (fun t => negb (if in_dec Nat.eq_dec x (holds t) then true else false)) ts.

(** May a thread lock them shared, src/private/metaclass_p.h:70, 100. The standard leaves it open whether std::shared_mutex lets readers pass a waiting
    writer; [prefer] says that it does not. (An exclusive lock is never held between two steps.) *)
Definition can_read (prefer : bool) (ts : list thread) (x : nat) : bool :=
  negb prefer || forallb (fun t => negb (match wants t with Some c => c =? x | None => false end)) ts.

(** The request is answered (no line of /repo). *)
Definition finish (t : thread) (q : request) (a : answer) (from to : memory) : thread :=
  Thread Idle (todo t) (got t ++ [Entry q a from to]).

(** One step of a walk for [b], src/metaclass.cpp:123-174: new control and stack, or the answer, or nothing if it has to
    wait for the lock of [x]. *)
Definition walk (read : nat -> bool) (g : nat -> list nat) (b : nat) (c : control) (st : list frame)
  : option (control * list frame + answer) :=
  match c with
  | EnterI x =>
      if x =? b then Some (inl (RetI true, st))                                  (* 127 *)
      else if read x then Some (inl (Next, FI x 0 :: st)) else None              (* 133 *)
  | EnterC x p s =>
      if x =? b then Some (inl (RetC (Some p), st))                              (* 153 *)
      else if read x then Some (inl (Next, FC x 0 p s :: st)) else None          (* 159 *)
  | Next =>
      match st with
      | FI x i :: r =>
          match nth_error (g x) i with
          | Some d => Some (inl (EnterI d, st))                                  (* 135-137 *)
          | None => Some (inl (RetI false, r))                                   (* 144 *)
          end
      | FC x i p s :: r =>
          match nth_error (g x) i with
          | Some d => Some (inl (EnterI d, st))                                  (* 161-163 *)
          | None => Some (inl (RetC None, r))                                    (* 173 *)
          end
      | _ => None
      end
  | RetI true =>
      match st with
      | FI x i :: r => Some (inl (RetI true, r))                                 (* 139-140, 144 *)
      | FC x i p s :: r =>
          match nth_error (g x) i with
          | Some d => Some (inl (EnterC d (p ++ [d]) g, FD x i p s g :: r))      (* 166 *)
          | None => None
          end
      | FD _ _ _ _ _ :: _ => None
      | [] => Some (inr (Is true))
      end
  | RetI false =>
      match st with
      | FI x i :: r => Some (inl (Next, FI x (S i) :: r))                        (* 142 *)
      | FC x i p s :: r => Some (inl (Next, FC x (S i) p s :: r))                (* 170 *)
      | FD _ _ _ _ _ :: _ => None
      | [] => Some (inr (Is false))
      end
  | RetC q =>
      match st with
      | FD _ _ _ _ _ :: r => Some (inl (RetC q, r))                              (* 166-168, 173 *)
      | [] => Some (inr (Via q))
      | _ => None
      end
  end.

Section Step.
  Variable prefer : bool.

  (** One step of thread [t] among [ts]; a thread that has to wait stays as it is. *)
  Definition step (m : memory) (ts : list thread) (t : thread) : memory * thread :=
    match where_ t with
    | Idle =>
        match todo t with
        | [] => (m, t)
        | q :: r =>
            let t' := Thread Idle r (got t) in
            match q with
            | AddBase c b => (m, Thread (Waiting c b m) r (got t))                            (* 103-104 *)
            | Inherited a b => (m, Thread (Walking q b (EnterI a) [] m) r (got t))
            | Cast a b => (m, Thread (Walking q b (EnterC a [a] (bases m)) [] m) r (got t))
            | BaseAt c i =>                                                                    (* metaclass_p.h:68-74 *)
                if can_read prefer ts c then (m, finish t' q (Item (nth_error (bases m c) i)) m m) else (m, t)
            | DerivedAt c i => (m, finish t' q (Item (nth_error (derived m c) i)) m m)         (* metaclass_p.h:29-35 *)
            end
        end
    | Waiting c b from =>
        if can_write ts c
        then (Memory (update (bases m) c (add b (bases m c))) (derived m), Thread (Linking c b from) (todo t) (got t))
        else (m, t)
    | Linking c b from =>
        let m' := Memory (bases m) (update (derived m) b (add c (derived m b))) in
        (m', finish t (AddBase c b) Done from m')
    | Walking q b c st from =>
        match walk (can_read prefer ts) (bases m) b c st with
        | Some (inl (c', st')) => (m, Thread (Walking q b c' st' from) (todo t) (got t))
        | Some (inr a) => (m, finish t q a from m)
        | None => (m, t)
        end
    end.

  (** The scheduler lets thread [i] make one step (no line of /repo). *)
  Definition turn (c : memory * list thread) (i : nat) : memory * list thread :=
    match nth_error (snd c) i with
    | None => c
    | Some t => let '(m', t') := step (fst c) (snd c) t in (m', put (snd c) i t')
    end.

  (** An execution follows a schedule (no line of /repo). *)
  Definition exec (c : memory * list thread) (schedule : list nat) : memory * list thread := fold_left turn schedule c.
End Step.

(** No base declared yet, the threads about to begin (no line of /repo). *)
Definition start (programs : list (list request)) : memory * list thread :=
  (Memory (fun _ => []) (fun _ => []), map (fun l => Thread Idle l []) programs).
