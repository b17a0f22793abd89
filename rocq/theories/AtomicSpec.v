(** What it means that the calls of several threads take effect one after another, each at one moment between call and
    answer. None of it depends on how the functions of RaceModel work. *)
From Coq Require Import List Bool Arith.
From Verif Require Import DeferModel RaceModel RaceSpec.
Import ListNotations.

(** ** What a call does, all at once *)

(** The tables of the registry: types, converters, lists of items, bases, derived classes, and of named values. *)
Definition listed (l : loc) : Prop :=
  match l with LTypes | LConv | LItems _ _ | LBases _ | LDerived _ | LNames _ => True | _ => False end.

(** The calls that ask or change one table, and which. Those that search bases, that enumerate, or that change
    two tables are not among them; nor is creating something without a name. *)
Definition home (a : api) : option loc :=
  match a with
  | TypeByName _ | Register _ _ => Some LTypes
  | HasConv _ _ | Convert _ _ | RegConv _ _ _ | UnregConv _ _ => Some LConv
  | Create k c n => match k, n with Method, _ | Property, _ | Class, _ | _, 0 => None | _, _ => Some (LItems c k) end
  | Count c k | At c k _ | Get c k _ => Some (LItems c k)
  | GetConstructor c _ => Some (LItems c Constructor)
  | BaseCount c | BaseAt c _ => Some (LBases c)
  | DerivedCount c | DerivedAt c _ => Some (LDerived c)
  | Size x | Value x _ | ValueByName x _ | Name x _ | SetValue x _ _ => Some (LNames x)
  | _ => None
  end.
Definition whole (a : api) : Prop := home a <> None.

(** Under the name there is [o]. *)
Definition finds (l : list (nat * nat)) (n : nat) (o : option nat) : Prop :=
  match o with Some i => In (n, i) l | None => ~ In n (map fst l) end.
Definition converts (l : list ((nat * nat) * nat)) (k : nat * nat) (o : option nat) : Prop :=
  match o with Some f => In (k, f) l | None => ~ In k (map fst l) end.

Section Effect.
  (** The decayed type of a type. *)
  Variable decay : nat -> nat.

  (** The table of the call before and after it, and the answer. *)
  Definition effect (a : api) (t t' : val) (v : val) : Prop :=
    match a with
    | TypeByName n => t' = t /\ exists o, v = VOpt o /\ (if n =? 0 then o = None else finds (rows t) n o)
    | Register n _ =>
        if n =? 0 then t' = t /\ v = VOpt None
        else exists i, v = VOpt (Some i) /\
               ((t' = t /\ finds (rows t) n (Some i)) \/ (finds (rows t) n None /\ rows t' = rows t ++ [(n, i)]))
    | HasConv a b => t' = t /\ exists o, v = VBool (match o with Some _ => true | None => false end) /\
        if (a =? 0) || (b =? 0) then o = None else converts (convs t) (decay a, decay b) o
    | Convert a b => t' = t /\ exists o, v = VOpt o /\
        if (a =? 0) || (b =? 0) then o = None else converts (convs t) (decay a, decay b) o
    | RegConv a b f =>
        if (a =? 0) || (b =? 0) then t' = t /\ v = VBool false
        else (t' = t /\ v = VBool false /\ exists g, converts (convs t) (decay a, decay b) (Some g)) \/
             (v = VBool true /\ converts (convs t) (decay a, decay b) None /\ convs t' = convs t ++ [((decay a, decay b), f)])
    | UnregConv a b =>
        v = VUnit /\ if (a =? 0) || (b =? 0) then t' = t
                     else forall r, In r (convs t') <-> In r (convs t) /\ fst r <> (decay a, decay b)
    | Create _ _ n =>
        exists i, v = VOpt (Some i) /\
          ((t' = t /\ finds (rows t) n (Some i)) \/ (finds (rows t) n None /\ rows t' = rows t ++ [(n, i)]))
    | Count _ _ | BaseCount _ | DerivedCount _ | Size _ => t' = t /\ v = VNat (length (rows t))
    | At _ _ i => t' = t /\ v = VOpt (option_map snd (nth_error (rows t) i))
    | Get _ _ n => t' = t /\ exists o, v = VOpt o /\ (if n =? 0 then o = None else finds (rows t) n o)
    | GetConstructor _ n => t' = t /\ exists o, v = VOpt o /\ finds (rows t) n o
    | BaseAt _ i | DerivedAt _ i | Name _ i => t' = t /\ v = VOpt (option_map fst (nth_error (rows t) i))
    | Value x i => t' = t /\ v = VRef (match nth_error (rows t) i with Some _ => Some (x, i) | None => None end)
    | ValueByName x n => t' = t /\ exists o, v = VRef (option_map (pair x) o) /\ (if n =? 0 then o = None else finds (rows t) n o)
    | SetValue _ n _ =>
        v = VUnit /\ if n =? 0 then t' = t
                     else (t' = t /\ exists i, finds (rows t) n (Some i)) \/
                          (finds (rows t) n None /\ rows t' = rows t ++ [(n, length (rows t))])
    | _ => False
    end.

  (** What the other calls add to tables. *)
  Definition adds (a : api) (l : loc) (n : nat) : Prop :=
    match a with
    | CreateClass c n' _ => l = LItems c Class /\ n = n'
    | Create k c n' => l = LItems c k /\ n = n'
    | AddBase c t => (l = LBases c /\ n = t) \/ exists b, l = LDerived b /\ n = c
    | _ => False
    end.

  (** What happens in a history: a call takes effect, with its answer; or another call adds a row to a table. [b]: how many
      answers had been given when it was called. *)
  Inductive event := Took (a : api) (b : nat) (v : val) | Added (a : api) (b : nat) (l : loc) (n i : nat).
  Definition caller (e : event) : api := match e with Took a _ _ | Added a _ _ _ _ => a end.
  Definition begun (e : event) : nat := match e with Took _ b _ | Added _ b _ _ _ => b end.

  (** An event changes one table; the others stay. *)
  Definition but (l : loc) (m m' : loc -> val) : Prop := forall x, listed x -> x <> l -> m' x = m x.
  Definition happens (e : event) (m m' : loc -> val) : Prop :=
    match e with
    | Took a _ v => exists l, home a = Some l /\ effect a (m l) (m' l) v /\ but l m m'
    | Added a _ l n i =>
        ~ whole a /\ adds a l n /\ finds (rows (m l)) n None /\ rows (m' l) = rows (m l) ++ [(n, i)] /\ but l m m'
    end.

  (** One after another. *)
  Fixpoint history (m : loc -> val) (h : list event) (m' : loc -> val) : Prop :=
    match h with
    | [] => forall l, listed l -> m' l = m l
    | e :: h' => exists m1, happens e m m1 /\ history m1 h' m'
    end.
End Effect.

(** ** The order of the calls of several threads *)

(** [h] is an order of what happened in the run that ended in [s]: every call that was answered took effect once, with the
    answer given; every event is of a call that was answered, or that some thread is still about; and a call that was
    answered before another one began took effect before it. [answer]: which answer the event led to, if it has been given. *)
Definition ordered (decay : nat -> nat) (m : loc -> val) (s : state) (h : list event) (answer : nat -> option nat) : Prop :=
  history decay m h (mem s) /\
  (forall p e, nth_error h p = Some e ->
     match answer p with
     | Some j => exists v, nth_error (log s) j = Some (caller e, begun e, v) /\
                   match e with Took _ _ w => v = w | Added _ _ _ _ _ => True end
     | None => exists q, In q (threads s) /\ q <> Done
     end) /\
  (forall j a b v, nth_error (log s) j = Some (a, b, v) -> whole a ->
     exists p, nth_error h p = Some (Took a b v) /\ forall p', p' < length h -> (answer p' = Some j <-> p' = p)) /\
  (forall p q j e, p < length h -> answer p = Some j -> nth_error h q = Some e -> j < begun e -> p < q).

(** Converters are asked for types that were there at the start. *)
Definition early (n : nat) (a : api) : Prop :=
  match a with HasConv a b | Convert a b | RegConv a b _ | UnregConv a b => a < n /\ b < n | _ => True end.
