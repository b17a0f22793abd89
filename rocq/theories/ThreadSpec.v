(** What is claimed about registering types and converters from several threads, independently of how a step works. *)
From Coq Require Import List Bool Arith String.
From Verif Require Import TypesModel RegistryModel ThreadModel.
Import ListNotations.

(** Some thread was given answer [x] to request [r]. *)
Definition answered (c : memory * list thread) (r : request) (x : tid) : Prop :=
  exists i t, nth_error (snd c) i = Some t /\ In (r, x) (got t).

(** Every thread has done all it had to do. *)
Definition quiet (c : memory * list thread) : Prop :=
  forall i t, nth_error (snd c) i = Some t -> at_ t = Idle /\ todo t = [].

(** A round gives every one of [n] threads at least one turn. *)
Definition round (n : nat) (l : list nat) : Prop := forall i, i < n -> In i l.

(** Converters: some thread was given answer [x] to request [r]. *)
Definition canswered (c : converters * list cthread) (r : crequest) (x : canswer) : Prop :=
  exists i t, nth_error (snd c) i = Some t /\ In (r, x) (c_got t).

Definition crequested (programs : list (list crequest)) (r : crequest) : Prop :=
  exists l, In l programs /\ In r l.

(** How many threads' registrations of [k] were answered by "added". *)
Definition successes (c : converters * list cthread) (k : nat * nat) : nat :=
  List.length (filter (fun e => match e with (CRegister k' _, Added true) => keyb k k' | _ => false end)
                      (flat_map c_got (snd c))).
