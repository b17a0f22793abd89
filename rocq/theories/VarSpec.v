(** Value semantics for variants, as one would write it for plain values. *)
From Coq Require Import List Bool Arith.
From Verif Require Import DeferModel VarModel.
Import ListNotations.

(** What a variant holds: its own value of some type, or a reference to an outside object. *)
Inductive content := Own (t : ty) (x : nat) | Alias (e : nat).

(** The names (not alive, or alive and holding something or nothing) and the outside objects. *)
Definition plain : Type := list (option (option content)) * list nat.

Definition lives (a : plain) (i : nat) : option (option content) :=
  match nth_error (fst a) i with Some (Some c) => Some c | _ => None end.
Definition free_name (a : plain) (i : nat) : bool := match nth_error (fst a) i with Some None => true | _ => false end.
Definition set (a : plain) (i : nat) (x : option (option content)) : plain := (put (fst a) i x, snd a).

(** What a statement means. A statement outside the life of its variants means nothing. *)
Definition meaning (o : op) (a : plain) : plain :=
  match o with
  | New i => if free_name a i then set a i (Some None) else a
  | Make i t x _ => if free_name a i then set a i (Some (Some (Own t x))) else a
  | MakeRef i e => if free_name a i && (e <? length (snd a)) then set a i (Some (Some (Alias e))) else a
  | CopyNew i j => match lives a j with Some c => if free_name a i then set a i (Some c) else a | None => a end
  | MoveNew i j =>
      match lives a j with Some c => if free_name a i then set (set a j (Some None)) i (Some c) else a | None => a end
  | CopyAssign i j => match lives a i, lives a j with Some _, Some c => set a i (Some c) | _, _ => a end
  | MoveAssign i j =>
      match lives a i, lives a j with
      | Some _, Some c => if i =? j then a else set (set a j (Some None)) i (Some c)
      | _, _ => a
      end
  | Assign i t x _ => match lives a i with Some _ => set a i (Some (Some (Own t x))) | None => a end
  | AssignRef i e =>
      match lives a i with Some _ => if e <? length (snd a) then set a i (Some (Some (Alias e))) else a | None => a end
  | Swap i j => match lives a i, lives a j with Some c, Some d => set (set a i (Some d)) j (Some c) | _, _ => a end
  | Clear i => match lives a i with Some _ => set a i (Some None) | None => a end
  | Drop i => match lives a i with Some _ => set a i None | None => a end
  | Write i x =>
      match lives a i with
      | Some (Some (Own t _)) => set a i (Some (Some (Own t x)))
      | Some (Some (Alias e)) => (fst a, put (snd a) e x)
      | _ => a
      end
  end.

(** A program's meaning when the statements flagged [true] threw: those change nothing. *)
Fixpoint meaning_all (p : list op) (thrown : list bool) (a : plain) : plain :=
  match p, thrown with
  | o :: p', f :: l => meaning_all p' l (if f then a else meaning o a)
  | _, _ => a
  end.

(** Only statements that copy a value may throw. *)
Definition copies (o : op) : Prop :=
  match o with Make _ _ _ _ | CopyNew _ _ | CopyAssign _ _ | Assign _ _ _ _ => True | _ => False end.

(** What a variant holds in a state of the model. *)
Definition cont (s : store) (v : var) : option content :=
  match mgr v, st v with
  | Some t, In_ o => match val o with Some x => Some (Own t x) | None => None end
  | Some t, Ptr b => match block s b with Some o => match val o with Some x => Some (Own t x) | None => None end | None => None end
  | Some _, Addr e => Some (Alias e)
  | _, _ => None
  end.

Definition abs (s : store) (vs : scope) : plain := (map (option_map (cont s)) vs, ext s).

(** The types a statement introduces. *)
Definition types_of (o : op) : list ty := match o with Make _ t _ _ | Assign _ t _ _ => [t] | _ => [] end.

(** Contents the library handles: values (not references) that can be copied or moved, no arrays of owning elements,
    and no small types whose only way to move is a copy that may throw. *)
Definition safe (t : ty) : Prop :=
  shape_of t <> Ref /\ (copyable t = true \/ steals t = true) /\
  (shape_of t = Array -> owns t = false) /\
  (shape_of t = Inplace -> steals t = false -> fallible t = false).

(** Small types that own something must have a move constructor. *)
Definition leak_free (t : ty) : Prop := shape_of t = Inplace -> owns t = true -> steals t = true.

(** Contents on the heap whose copy never throws. *)
Definition sure_copy (t : ty) : Prop := shape_of t <> Inplace -> copyable t = true /\ fallible t = false.

(** Small types for which it makes no difference to construct an object in its own place. *)
Definition swappable (t : ty) : Prop := shape_of t = Inplace -> owns t = false /\ steals t = false.

Definition no_self_swap (o : op) : Prop := match o with Swap i j => i <> j | _ => True end.

Definition uses (P : ty -> Prop) (p : list op) : Prop := forall o t, In o p -> In t (types_of o) -> P t.

(** Every variant has been destroyed. *)
Definition all_gone (vs : scope) : Prop := forall i v, nth_error vs i <> Some (Some v).
