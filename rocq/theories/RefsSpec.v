(** What one expects of references into variants: they belong to an object, and the object to a variant. *)
From Coq Require Import List Bool Arith.
From Verif Require Import DeferModel VarModel VarSpec.
Import ListNotations.

(** An object that variant [i] holds before a statement: the variant that holds it afterwards, if it is not destroyed.
    Moving hands it on, swapping exchanges; copying leaves it where it is; what is assigned to loses its object. *)
Definition follow (o : op) (a : plain) (i : nat) : option nat :=
  match o with
  | MoveNew k j => if (i =? j) && free_name a k then Some k else Some i
  | CopyAssign k j => match lives a k, lives a j with Some _, Some _ => if (i =? k) && negb (k =? j) then None else Some i | _, _ => Some i end
  | MoveAssign k j =>
      match lives a k, lives a j with
      | Some _, Some _ => if k =? j then Some i else if i =? k then None else if i =? j then Some k else Some i
      | _, _ => Some i
      end
  | Assign k _ _ _ => if i =? k then None else Some i
  | AssignRef k e => if (i =? k) && (e <? length (snd a)) then None else Some i
  | Swap k j =>
      match lives a k, lives a j with
      | Some _, Some _ => if i =? k then Some j else if i =? j then Some k else Some i
      | _, _ => Some i
      end
  | Clear k | Drop k => if i =? k then None else Some i
  | New _ | Make _ _ _ _ | MakeRef _ _ | CopyNew _ _ | Write _ _ => Some i
  end.

(** Over a program; statements flagged [true] threw and did nothing. *)
Fixpoint follow_all (p : list op) (thrown : list bool) (a : plain) (i : nat) : option nat :=
  match p, thrown with
  | o :: p', f :: l =>
      if f then follow_all p' l a i
      else match follow o a i with Some k => follow_all p' l (meaning o a) k | None => None end
  | _, _ => Some i
  end.

(** The statement gives variant [i] no other object: it may read it, copy from it and write to the content. *)
Definition leaves (o : op) (i : nat) : Prop :=
  match o with
  | New k | Make k _ _ _ | MakeRef k _ | CopyNew k _ => True
  | MoveNew _ j => j <> i
  | CopyAssign k _ | Assign k _ _ _ | AssignRef k _ | Clear k | Drop k => k <> i
  | MoveAssign k j | Swap k j => k <> i /\ j <> i
  | Write _ _ => True
  end.

(** The value that is reached in what a variant holds. *)
Definition seen (a : plain) (i : nat) : option nat :=
  match lives a i with
  | Some (Some (Own _ x)) => Some x
  | Some (Some (Alias e)) => nth_error (snd a) e
  | _ => None
  end.

(** The type of what a variant holds by itself. *)
Definition type_held (a : plain) (i : nat) : option ty :=
  match lives a i with Some (Some (Own t _)) => Some t | _ => None end.
