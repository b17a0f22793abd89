(** Model of scope guards (include/rtti/finally.h). *)
From Coq Require Import List Bool Arith.
Import ListNotations.

(** What can be observed: an ordinary action, the creation of a guard, its dismissal, its destruction with
    ([ERun]) or without ([EDrop]) a call of its function. include/rtti/finally.h:10-58. *)
Inductive event := EAct (n : nat) | ECreate (g : nat) | EDismiss (g : nat) | ERun (g : nat) | EDrop (g : nat).

(** Statements of a function using guards. [Guard g throws]: FINALLY / FINALLY_EX (finally.h:54-58), [throws]
    if the guard's body would throw. [MoveOf g]: a guard initialised from std::move of guard [g]
    (finally.h:18, defaulted). *)
Inductive stmt :=
| Act (n : nat) | Guard (g : nat) (throws : bool) | Dismiss (g : nat) | MoveOf (g : nat)
| Ret | Throw | Block (l : list stmt) | Try (l : list stmt) | Call (l : list stmt).

(** How a function of the user ends, no line of /repo. *)
Inductive outcome := Normal | Returning | Throwing | Terminated.

(** finally.h:38-39: the function and [m_dismiss]. *)
Record guard := { g_id : nat; g_throws : bool; g_dismiss : bool }.

(** finally.h:28-32, destructors of the guards above depth [base], last created first. The destructor and
    the lambda are noexcept: an exception ends the program (std::terminate). *)
Fixpoint unwind (base : nat) (st : list guard) (o : outcome) : list event * list guard * outcome :=
  match st with
  | [] => ([], [], o)
  | g :: st' =>
      if List.length st <=? base then ([], st, o)
      else if g_dismiss g then let '(t, st2, o2) := unwind base st' o in (EDrop (g_id g) :: t, st2, o2)
      else if g_throws g then ([ERun (g_id g)], st', Terminated)
      else let '(t, st2, o2) := unwind base st' o in (ERun (g_id g) :: t, st2, o2)
  end.

(** finally.h:33-34. *)
Fixpoint dismiss (g : nat) (st : list guard) : list guard :=
  match st with
  | [] => []
  | x :: st' => if g_id x =? g
                then {| g_id := g_id x; g_throws := g_throws x; g_dismiss := true |} :: st'
                else x :: dismiss g st'
  end.

(** The variable of a guard, no line of /repo. *)
Fixpoint lookup_guard (g : nat) (st : list guard) : option guard :=
  match st with [] => None | x :: st' => if g_id x =? g then Some x else lookup_guard g st' end.

(** Running a statement with the live guards [st] (innermost first). C++ and include/rtti/finally.h:28-32. *)
Fixpoint exec (s : stmt) (st : list guard) {struct s} : list event * list guard * outcome :=
  let fix seq (base : nat) (l : list stmt) (st : list guard) {struct l} : list event * list guard * outcome :=
    match l with
    | [] => unwind base st Normal
    | s :: l' =>
        let '(t, st1, o) := exec s st in
        match o with
        | Normal => let '(t2, st2, o2) := seq base l' st1 in (t ++ t2, st2, o2)
        | Terminated => (t, st1, Terminated)
        | _ => let '(t2, st2, o2) := unwind base st1 o in (t ++ t2, st2, o2)
        end
    end in
  match s with
  | Act n => ([EAct n], st, Normal)
  | Guard g thr => ([ECreate g], {| g_id := g; g_throws := thr; g_dismiss := false |} :: st, Normal)
  | Dismiss g => match lookup_guard g st with
                 | Some _ => ([EDismiss g], dismiss g st, Normal)
                 | None => ([], st, Normal)
                 end
  | MoveOf g => match lookup_guard g st with
                | Some x => ([], x :: st, Normal)
                | None => ([], st, Normal)
                end
  | Ret => ([], st, Returning)
  | Throw => ([], st, Throwing)
  | Block l => seq (List.length st) l st
  | Try l => let '(t, st1, o) := seq (List.length st) l st in
             (t, st1, match o with Throwing => Normal | _ => o end)
  | Call l => let '(t, st1, o) := seq (List.length st) l st in
              (t, st1, match o with Returning => Normal | _ => o end)
  end.
