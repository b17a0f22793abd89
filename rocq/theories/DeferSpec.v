(** What is claimed about lazy definition with several threads, independently of how a step works. *)
From Coq Require Import List Bool Arith.
From Verif Require Import DeferModel.
Import ListNotations.

(** What a callback contributes: its items up to its exception, if any. *)
Fixpoint contributes (b : list bstep) : list nat :=
  match b with
  | BAdd n :: r => n :: contributes r
  | _ => []
  end.

Definition is_set (o : op) : Prop := match o with OSet _ => True | OQuery => False end.

(** Programs that only query. *)
Definition only_queries (programs : list (list op)) : Prop :=
  forall l o, In l programs -> In o l -> ~ is_set o.

(** The callback objects a program sets up. *)
Definition set_ids (l : list op) : list nat :=
  flat_map (fun o => match o with OSet id => [id] | OQuery => [] end) l.

Definition crashed (c : shared * list thread) : Prop :=
  exists i t, nth_error (snd c) i = Some t /\ at_ t = Crashed.

(** Thread [t] is running the definition (it owns the lock). *)
Definition defining (t : thread) : Prop :=
  match at_ t with Enter | Body _ _ | Reset _ | Release _ => True | _ => False end.

(** The next step reads or writes the plain (non-atomic) pointer m_deferredDefine. *)
Definition reads_ptr (t : thread) : Prop :=
  match at_ t with Next => todo t <> [] | Enter => True | _ => False end.
Definition writes_ptr (t : thread) : Prop :=
  match at_ t with Reset _ | Store _ => True | _ => False end.

(** Two threads are about to access the pointer, one of them to write: a data race. *)
Definition racing (c : shared * list thread) : Prop :=
  exists i j t u, i <> j /\ nth_error (snd c) i = Some t /\ nth_error (snd c) j = Some u /\
    writes_ptr t /\ (reads_ptr u \/ writes_ptr u).

Definition finished (t : thread) : Prop := at_ t = Next /\ todo t = [].

Definition prefix_of (p l : list nat) : Prop := exists r, l = p ++ r.
