(** What C47 speaks about, in terms of what a program does and of lifetimes, not of how the library keeps track. *)
From Coq Require Import List Bool Arith.
From Verif Require Import ExitModel.
Import ListNotations.

(** Calls that concern only types and converters and register no converter. *)
Definition plain (x : call) : Prop :=
  match x with Use _ | Unregister _ | Convert _ | Load | Make _ => True | _ => False end.

(** Calls that register no converter. *)
Definition no_register (x : call) : Prop := match x with Register _ => False | _ => True end.

(** Calls that complete no static object of the program. *)
Definition no_make (x : call) : Prop := match x with Make _ => False | _ => True end.

(** The static objects a call may bring into being. *)
Definition mentions (x : call) : list obj :=
  match x with
  | Use _ | Find _ => [OTypes]
  | Held _ | Missing => []
  | Register c => [OConv c; OTypes; OList]
  | Unregister _ | Convert _ => [OTypes; OList]
  | Define _ => [OGlobal; OTypes]
  | Browse => [OGlobal]
  | Load => [OEmpty]
  | Make u => [OUser u]
  end.

(** A program never touches what is gone, however far its end has come. *)
Definition harmless key dtor main : Prop := forall n f, life key dtor main n <> Bad f.

(** The program itself makes the call [x] in the state [s]: in main, or in the destructor of one of its objects. *)
Inductive performs key dtor main (x : call) (s : st) : Prop :=
  | PMain p q al : main = p ++ x :: q -> run key p st0 = Ok (al, s) -> performs key dtor main x s
  | PBody n al s0 u r p q bl :
      life key dtor main n = Ok (al, s0) -> order s0 = OUser u :: r -> dtor u = p ++ x :: q ->
      run key p (perish (OUser u) r s0) = Ok (bl, s) -> performs key dtor main x s.
