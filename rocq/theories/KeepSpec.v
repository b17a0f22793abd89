(** What a user of builders in variables relies on. *)
From Coq Require Import List Arith.
From Verif Require Import KeepModel.
Import ListNotations.

(** Openers and [End] are balanced, like brackets. *)
Fixpoint depth (ops : list op) (d : nat) : option nat :=
  match ops with
  | [] => Some d
  | Namespace _ :: r | Class _ _ :: r => depth r (S d)
  | End :: r => match d with 0 => None | S d' => depth r d' end
  | _ :: r => depth r d
  end.
Definition balanced (ops : list op) : Prop := depth ops 0 = Some 0.

(** Nothing is opened or closed. *)
Definition plain (o : op) : Prop := match o with Namespace _ | Class _ _ | End => False | _ => True end.

(** Statements that use builders as the library means it: chains that close what they open, on variables whose
    scope has not ended or on temporaries of which nothing is kept. *)
Definition closed (x : statement) : Prop :=
  match x with
  | Global _ => True
  | On _ ops _ => balanced ops
  | Chain ops None => balanced ops
  | Chain _ (Some _) | Leave _ => False
  end.

(** The names on the way from the global namespace to a container. *)
Inductive in_path (w : world) : nat -> list nat -> Prop :=
  | path_global : in_path w 0 []
  | path_inside c x o p : nth_error (containers w) c = Some x -> c_owner x = Some o -> in_path w o p ->
      in_path w c (p ++ [c_name x]).

(** Where a variable stands. *)
Definition stands (s : state) (v : nat) : option nat := option_map at_container (vars s v).

(** A relay: each statement continues with what the one before returned. [g] is the first variable, the others are
    numbered from [v] on. *)
Fixpoint relay (g v : nat) (pieces : list (list op)) : list statement :=
  match pieces with
  | [] => []
  | ops :: rest => On g ops (Some v) :: relay v (S v) rest
  end.

(** A definition written as a text: calls and what is inside of a container. *)
Inductive text :=
  | Stop
  | Call (o : op) (rest : text)
  | Inside (n : nat) (t : option nat) (body rest : text).
Fixpoint spell (x : text) : list op :=
  match x with
  | Stop => []
  | Call o r => o :: spell r
  | Inside n t b r => match t with None => Namespace n | Some u => Class n u end :: spell b ++ End :: spell r
  end.
Fixpoint calls_plain (x : text) : Prop :=
  match x with Stop => True | Call o r => plain o /\ calls_plain r | Inside _ _ b r => calls_plain b /\ calls_plain r end.

(** A container of that name and sort in [o]. *)
Definition is_in (w : world) (c o n : nat) (k : kind) : Prop :=
  exists x, nth_error (containers w) c = Some x /\ c_owner x = Some o /\ c_name x = n /\ c_kind x = k.
Definition sort (t : option nat) : kind := match t with Some _ => Cl | None => Ns end.

(** The container that is there already, or a new one behind all others; a type has one class. *)
Inductive opens (w : world) (o n : nat) (t : option nat) : world -> nat -> Prop :=
  | opens_old c : is_in w c o n (sort t) -> opens w o n t w c
  | opens_new w' : (forall c, ~ is_in w c o n (sort t)) ->
      (t <> None -> forall c x, nth_error (containers w) c = Some x -> c_type x <> t) ->
      w' = World (containers w ++ [Container (Some o) n (sort t) t]) (members w) (attributes w) (bases w) ->
      opens w o n t w' (length (containers w)).

(** What a text means in container [c], attributes going to [a]. *)
Inductive means : world -> nat -> target -> text -> world -> Prop :=
  | means_stop w c a : means w c a Stop w
  | means_member w c a n r w1 : means (World (containers w) (members w ++ [(c, n)]) (attributes w) (bases w)) c a r w1 ->
      means w c a (Call (Member n) r) w1
  | means_enum w c a n r w1 : means (World (containers w) (members w ++ [(c, n)]) (attributes w) (bases w)) c (OnEnum c n) r w1 ->
      means w c a (Call (Enum n) r) w1
  | means_attribute w c a n r w1 : means (World (containers w) (members w) (attributes w ++ [(a, n)]) (bases w)) c a r w1 ->
      means w c a (Call (Attribute n) r) w1
  | means_base w c a t r w1 : (exists x, nth_error (containers w) c = Some x /\ c_kind x = Cl) ->
      means (World (containers w) (members w) (attributes w) (bases w ++ [(c, t)])) c a r w1 ->
      means w c a (Call (Base t) r) w1
  | means_inside w c a n t b r w1 c1 w2 w3 : opens w c n t w1 c1 -> means w1 c1 (OnContainer c1) b w2 ->
      means w2 c (OnContainer c) r w3 -> means w c a (Inside n t b r) w3.

(** What the compiler should accept: no namespace in a class, bases in classes only. *)
Fixpoint proper (in_class : bool) (x : text) : Prop :=
  match x with
  | Stop => True
  | Call o r => match o with Base _ => in_class = true | _ => True end /\ proper in_class r
  | Inside _ None b r => in_class = false /\ proper false b /\ proper in_class r
  | Inside _ (Some _) b r => proper true b /\ proper in_class r
  end.
