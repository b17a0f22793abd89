(** When threads wait for each other for ever, and which clients are considered. None of it depends on how the functions
    of RaceModel work. *)
From Coq Require Import List Bool Arith.
From Verif Require Import RaceModel RaceSpec.
Import ListNotations.

(** ** Waiting *)

(** The lock a thread wants next, and how. *)
Definition wants (p : prog) : option (lock * mode) := match p with Lock g m _ => Some (g, m) | _ => None end.

(** Nothing more to do. *)
Definition finished (p : prog) : Prop := p = Done.

(** Nobody holds the lock in a way that excludes the mode. *)
Definition available (s : state) (g : lock) (m : mode) : Prop :=
  forall j m', In (j, (g, m')) (held s) -> m = Shared /\ m' = Shared.

(** Thread [i] can go on. [writers_first]: a lock that somebody waits to get exclusively is not given to a reader; the
    standard leaves the choice to the implementation of std::shared_mutex. *)
Definition can_go (writers_first : bool) (s : state) (i : nat) : Prop :=
  exists p, nth_error (threads s) i = Some p /\ p <> Done /\ p <> Crash /\
    forall g m, wants p = Some (g, m) -> available s g m /\
      (writers_first = true -> m = Shared -> forall j q, nth_error (threads s) j = Some q -> wants q <> Some (g, Exclusive)).

(** Some thread has not finished, none has crashed, and none can go on. *)
Definition blocked (writers_first : bool) (s : state) : Prop :=
  (exists i p, nth_error (threads s) i = Some p /\ ~ finished p) /\
  (forall i, nth_error (threads s) i <> Some Crash) /\
  (forall i, ~ can_go writers_first s i).

(** ** An order of what threads work on *)

(** [items], [bases]: how high the lists of items and of bases of a container are; [types]: how high a class that stands
    for the type may be; [room c]: the deferred definition of [c] works below this. *)
Record layers := Layers { items : nat -> nat; bases : nat -> nat; types : nat -> nat; room : nat -> nat }.

Section Order.
  Variable L : layers.

  (** What a call works on is below this: the table of types and that of converters are lowest, then the lists of
      values and of derived classes, then those of items and bases of the container and what is below it. *)
  Definition need_list (x : lst) : nat := match x with Attrs i => Nat.max (room L i) 2 | Elems _ => 2 end.
  Definition need_items (c : nat) : nat := Nat.max (room L c) (3 + items L c).
  Definition need_bases (c : nat) : nat := Nat.max (room L c) (3 + bases L c).
  Definition need (a : api) : nat :=
    match a with
    | FindClass _ | Qualified _ | Use _ | Defer _ _ => 0
    | TypeByName _ | Register _ _ | HasConv _ _ | Convert _ _ | RegConv _ _ _ | UnregConv _ _ => 1
    | SetValue _ _ _ => 2
    | Size x | Value x _ | ValueByName x _ | Name x _ | EachValue x _ => need_list x
    | DerivedCount c | DerivedAt c _ => Nat.max (room L c) 2
    | BaseCount c | BaseAt c _ | AddBase c _ | Inherited c _ | Cast c _ => need_bases c
    | CreateClass c _ _ | Count c _ | At c _ _ | Get c _ _ | GetConstructor c _ | EachClass c _ | EachMethod c _ | Force c =>
        need_items c
    | Create k c _ => match k with Method | Property => Nat.max (need_items c) (need_bases c) | _ => need_items c end
    | GetMember _ c _ => Nat.max (need_items c) (need_bases c)
    end.

  (** The item is below [n]. *)
  Definition lower (n i : nat) : Prop := items L i < n /\ room L i <= 2 + n.

  (** Items found in a container or its bases are below it, and so are the bases. *)
  Definition plausible (a : api) (v : val) : Prop :=
    match a with
    | CreateClass c _ _ | At c _ _ | Get c _ _ | GetConstructor c _ => forall i, v = VOpt (Some i) -> lower (items L c) i
    | Create _ c _ | GetMember _ c _ => forall i, v = VOpt (Some i) -> lower (Nat.max (items L c) (bases L c)) i
    | FindClass t => forall d, v = VOpt (Some d) -> bases L d <= types L t /\ lower (S (types L t)) d
    | BaseAt c _ => forall t, v = VOpt (Some t) -> types L t < bases L c
    | _ => True
    end.

  (** A limit, none at first. *)
  Definition fits (limit : option nat) (n : nat) : Prop := match limit with None => True | Some m => n <= m end.

  (** A client that works on what is below the limit only, whatever it is told; its visitors work below the
      list they are called from. *)
  Fixpoint gentle (limit : option nat) (c : client) {struct c} : Prop :=
    match c with
    | Stop _ => True
    | Call a k => gentle_api limit a /\ forall v, plausible a v -> gentle limit (k v)
    end
  with gentle_api (limit : option nat) (a : api) {struct a} : Prop :=
    fits limit (need a) /\
    match a with
    | EachClass c f | EachMethod c f => forall i, lower (items L c) i -> gentle (Some (2 + items L c)) (f i)
    | EachValue x f => forall n i, gentle (Some 1) (f n i)
    | _ => True
    end.

  (** The registry is in order: what a container has in its lists is below it; a class is above the types of its bases,
      a type not below the class that stands for it; the definitions that wait are gentle. *)
  Definition layered (defs : nat -> nat -> client) (s : state) : Prop :=
    (forall c k n i, under (mem s) (LItems c k) n i -> lower (items L c) i) /\
    (forall c t b, under (mem s) (LBases c) t b -> types L t < bases L c) /\
    (forall t d, opt (atom s (AMeta t)) = Some d -> bases L d <= types L t /\ lower (S (types L t)) d) /\
    (forall c d, opt (mem s (LDefer c)) = Some d -> gentle (Some (room L c)) (defs d c)).
End Order.

(** ** Without deferred definitions *)

(** No definition waits, and none is set; visitors look up types and converters at most. *)
Definition no_definition (s : state) : Prop := forall c, opt (mem s (LDefer c)) = None.
Fixpoint plain (inside : bool) (c : client) {struct c} : Prop :=
  match c with
  | Stop _ => True
  | Call a k => plain_api inside a /\ forall v, plain inside (k v)
  end
with plain_api (inside : bool) (a : api) {struct a} : Prop :=
  match a with
  | Defer _ _ => False
  | FindClass _ | Qualified _ | Use _ | TypeByName _ | Register _ _ | HasConv _ _ | Convert _ _ | RegConv _ _ _ | UnregConv _ _ => True
  | EachClass _ f | EachMethod _ f => inside = false /\ forall i, plain true (f i)
  | EachValue _ f => inside = false /\ forall n i, plain true (f n i)
  | _ => inside = false
  end.

(** Containers are nested without end nowhere, and no class is among its own bases: [nest] counts down inward, at most
    from [top]; [below] counts down from classes to bases, [types] is what a type stands for at most. *)
Definition nested (nest : nat -> nat) (top : nat) (s : state) : Prop :=
  (forall i, nest i <= top) /\ forall c k n i, under (mem s) (LItems c k) n i -> nest i < nest c.
Definition ranked (below types : nat -> nat) (s : state) : Prop :=
  (forall c t b, under (mem s) (LBases c) t b -> types t < below c) /\
  (forall t d, opt (atom s (AMeta t)) = Some d -> below d <= types t).
(** Owners end somewhere. *)
Definition housed (depth : nat -> nat) (s : state) : Prop :=
  forall i k n o, mem s (LSelf i) = VSelf k n (Some o) -> depth o < depth i.

(** The first [n] turns of an endless schedule, in which each of [count] threads has its turn again and again. *)
Fixpoint upto (f : nat -> nat) (n : nat) : list nat := match n with 0 => [] | S k => upto f k ++ [f k] end.
Definition fair (count : nat) (f : nat -> nat) : Prop := forall i n, i < count -> exists m, n <= m /\ f m = i.

(** ** Clients that register into what is there at the start *)

(** Items made later, those from number [n] on, are lowest. *)
Definition fresh (L : layers) (n : nat) : Prop :=
  forall i, n <= i -> items L i = 0 /\ (forall t, bases L i <= types L t) /\ room L i <= 2.

(** Calls that keep a registry in order: items are added to containers that have room below, bases and definitions where
    they belong. *)
Definition orderly (L : layers) (defs : nat -> nat -> client) (a : api) : Prop :=
  match a with
  | CreateClass c _ _ | Create _ c _ => 0 < items L c
  | AddBase c t => types L t < bases L c
  | Defer c d => gentle L (Some (room L c)) (defs d c)
  | _ => True
  end.

(** The bases of classes are registered. *)
Definition registered (s : state) : Prop := forall c t b, under (mem s) (LBases c) t b -> opt (atom s (AMeta t)) <> None.

(** Calls that keep nesting and inheritance in order: items are added to containers that were there at the start, bases
    where they belong, no definition is set. *)
Definition tame (nest below types : nat -> nat) (a : api) : Prop :=
  match a with
  | CreateClass c _ _ | Create _ c _ => 0 < nest c
  | AddBase c t => types t < below c
  | Defer _ _ => False
  | _ => True
  end.
