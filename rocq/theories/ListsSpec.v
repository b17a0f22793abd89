(** Independent specification of ordered lists: what histories of additions amount to. *)
From Coq Require Import List Bool Arith String.
Import ListNotations.

(** First occurrences by name. *)
Fixpoint firsts {A} (nm : A -> string) (seen : list string) (h : list A) : list A :=
  match h with
  | [] => []
  | a :: h' => if in_dec string_dec (nm a) seen then firsts nm seen h' else a :: firsts nm (nm a :: seen) h'
  end.

(** The non-null requests. *)
Fixpoint somes {A} (h : list (option A)) : list A :=
  match h with [] => [] | Some a :: h' => a :: somes h' | None :: h' => somes h' end.

(** The value most recently given to [n], if any. *)
Fixpoint last_set {V} (n : string) (h : list (string * V)) : option V :=
  match h with
  | [] => None
  | (n', v) :: h' => match last_set n h' with
                     | Some w => Some w
                     | None => if string_dec n n' then Some v else None
                     end
  end.

(** The name at the end of each path, from below the global namespace. *)
Definition path_text (p : list string) : string := String.concat "" (map (fun n => "::" ++ n)%string p).
