(** What a user relies on when memory runs out. *)
From Coq Require Import List Bool Arith.
From Verif Require Import OomModel.
Import ListNotations.

(** How often a name is in a list. *)
Definition named (s : state) (c : nat) (k : category) (n : nat) : nat :=
  length (filter (fun e => e_name e =? n) (of_list s c k)).

(** How often creating it ran out of memory. *)
Definition is_create (c : nat) (k : category) (n : nat) (x : call) : bool :=
  match x with Create c' k' n' _ => (c' =? c) && category_eqb k' k && (n' =? n) | _ => false end.
Definition out (e : ending) : bool := match e with Out_of_memory => true | _ => false end.
Definition failures (h : list (call * ending)) (c : nat) (k : category) (n : nat) : nat :=
  length (filter (fun p => is_create c k n (fst p) && out (snd p)) h).
Definition all_failures (h : list (call * ending)) : nat := length (filter (fun p => out (snd p)) h).

(** The value that was set last, of the calls that returned. *)
Fixpoint last_set (h : list (call * ending)) (x n : nat) (now : option nat) : option nat :=
  match h with
  | [] => now
  | (Set_attribute x' n' v, Returned _) :: r =>
      if (x' =? x) && (n' =? n) then last_set r x n (Some v) else last_set r x n now
  | _ :: r => last_set r x n now
  end.

(** The function of the first registration of a converter that returned. *)
Fixpoint first_added (h : list (call * ending)) (f t : nat) : option nat :=
  match h with
  | [] => None
  | (Add_converter f' t' g, Returned _) :: r => if (f' =? f) && (t' =? t) then Some g else first_added r f t
  | _ :: r => first_added r f t
  end.

(** Items that are found by walking through the list, not in the map of names. *)
Definition walked (k : category) : bool := match k with Method | Constructor => true | _ => false end.

(** No allocation fails. *)
Definition plenty (o : oracle) : Prop := Forall (fun b => b = false) o.

(** The state a call leaves. *)
Definition leaves {A} (r : result A) (s : state) : Prop :=
  match r with Done s' _ | Bad s' | Error s' => s' = s | Terminated => False end.
