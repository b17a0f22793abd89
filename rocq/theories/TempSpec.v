(** What a user expects of conversions and comparisons: what they leave behind, what they throw, what they answer; see
    TempModel.v for the states and the user's code. *)
From Coq Require Import NArith List Bool Arith.
From Verif Require Import TypesModel TypesSpec InheritSpec AccModel AccSpec TempModel.
Import ListNotations.

(** ** What is left *)

(** No object or block is counted twice, and new ones are new. *)
Definition fresh (s : st) : Prop :=
  NoDup (live s) /\ NoDup (blocks s) /\ forall i, In i (live s) \/ In i (blocks s) -> i < next s.

(** A call ended, by returning or by throwing. *)
Definition ended {A} (r : res A) : Prop := match r with Val _ | Raise _ => True | _ => False end.

(** From [s] to [s'] exactly the objects [new] and the blocks [newb] came to be and none went away, apart from objects [lost]
    that a converter made and reported to be no result. *)
Definition accounted (new newb lost : list nat) (s s' : st) : Prop :=
  left s' = lost ++ left s /\ live s' = new ++ lost ++ live s /\ blocks s' = newb ++ blocks s.

(** ** What converters do *)

(** What comes of the converter between two types for [c] at a moment: a value; no value, by giving up, with or without an
    object made; an exception that passes. *)
Inductive answer := Accepts (v : nat) | Gives_up (made_one : bool) | Throws.
Inductive converts (w : world) (from to : qty) (c : content) (t : nat) : answer -> Prop :=
| ConvValue f v : w_functor w from to = Some (Plain f) -> f c t = Some v -> converts w from to c t (Accepts v)
| ConvCaught f : w_functor w from to = Some (Plain f) -> f c t = None -> converts w from to c t (Gives_up false)
| ConvReported f v : w_functor w from to = Some (Reporting f) -> f c t = Some (v, true) -> converts w from to c t (Accepts v)
| ConvRefused f v : w_functor w from to = Some (Reporting f) -> f c t = Some (v, false) -> converts w from to c t (Gives_up true)
| ConvThrown f : w_functor w from to = Some (Reporting f) -> f c t = None -> converts w from to c t Throws.

Definition no_converter (w : world) (from to : qty) : Prop := w_functor w from to = None.

(** No converter reports failure: each gives a value or throws. *)
Definition plain_converters (w : world) : Prop := forall a b f, w_functor w a b <> Some (Reporting f).

(** The type by which converters know a content, or an object of a type. *)
Definition known_as (c : content) : qty := full_decay (mkQ RNone (held c)).
Definition known_as_type (T : ty) : qty := full_decay (mkQ RNone T).

(** The world as AccModel.v takes it, at a moment: converters do what they do then, and a copy made then may throw. *)
Definition converts_at (f : functor) (t : nat) (c : content) : conv :=
  match f with
  | Plain f => match f c t with Some v => Good v | None => Refused end
  | Reporting f => match f c t with Some (v, true) => Good v | Some (_, false) => Refused | None => Raised end
  end.
Definition at_moment (w : world) (t : nat) : env :=
  let e := w_env w in
  {| e_graph := e_graph e; e_registered := e_registered e; e_declares := e_declares e; e_dyn := e_dyn e;
     e_copies := fun T => e_copies e T && negb (w_throws w t);
     e_conv := fun a b => match w_functor w a b with Some f => Some (converts_at f t) | None => None end;
     e_cmp := e_cmp e; e_hash := e_hash e |}.

(** ** Comparison *)

(** The first value of a content compared with another one. *)
Definition says (w : world) (T : ty) (c : content) (v : nat) (b : bool) : Prop :=
  exists cmp x l, e_cmp (w_env w) (scalar T) = Some cmp /\ c_vals c = x :: l /\ b = cmp x v.

(** ** Programs *)

Definition owners (vs : list slot) : list nat := flat_map (fun v => match owned v with Some i => [i] | None => [] end) vs.

Definition start : st := St [] [] 0 0 [].

(** No constructor and no comparison throws. *)
Definition calm (w : world) : Prop := forall t, w_throws w t = false.

(** Asking the converter between two types at [t] comes to nothing, and then it is [t']. *)
Inductive in_vain (w : world) (from to : qty) (c : content) (t : nat) : nat -> Prop :=
| VainNone : no_converter w from to -> in_vain w from to c t t
| VainGaveUp k : converts w from to c t (Gives_up k) -> in_vain w from to c t (S t).

(** What eq says of contents of different types: [a] converted compares as the caller's object [b] does with it, or [b]
    converted as [a] does. *)
Inductive eq_says (w : world) (a b : content) (T : ty) (t : nat) : bool -> Prop :=
| SaysThere x r : converts w (known_as a) (known_as_type T) a t (Accepts x) -> says w T b x r -> eq_says w a b T t r
| SaysBack t' x r : in_vain w (known_as a) (known_as_type T) a t t' ->
    converts w (known_as_type T) (known_as a) b t' (Accepts x) -> says w (held a) a x r -> eq_says w a b T t r
| SaysNothing t' t'' : in_vain w (known_as a) (known_as_type T) a t t' -> in_vain w (known_as_type T) (known_as a) b t' t'' ->
    eq_says w a b T t false.

(** The caller's object of type T as eq passes it on. *)
Definition passed (b : content) (T : ty) : Prop := held b = constify T /\ usable (c_src b).

(** ** Assignment and programs *)

Definition one (o : option nat) : list nat := match o with Some i => [i] | None => [] end.

(** A content to be asked for, converted and compared: no array, no null pointer, and there is a value. *)
Definition good (c : content) : Prop := usable (c_src c) /\ not_null c /\ is_array (held c) = false /\ c_vals c <> [].

Definition good_stmt (x : stmt) : Prop :=
  match x with
  | Put _ c => good c
  | Convert _ T | Try _ T | To _ T => usable T /\ is_array T = false
  | Eq _ b T => passed b T /\ is_array T = false /\ c_vals b <> []
  | Clear _ => True
  end.

(** What conversions result in is as good. *)
Definition good_world (w : world) : Prop := wf_env (w_env w) /\ forall T g, usable T -> is_array T = false -> good (w_object w T g).

Definition empty_slot : slot := Slot None None.

(** [v], in a variant, and [b], at the caller, are one value of type T. *)
Definition stands_for (v b : content) (T : ty) : Prop := passed b T /\ usable (c_src v) /\ held v = T /\ c_vals v = c_vals b.

(** Why to throws. *)
Definition to_cause (w : world) (c : content) (T : ty) (t : nat) (x : exn) : Prop :=
  match x with
  | Bad_convert => no_converter w (known_as c) (known_as_type T) \/ exists k, converts w (known_as c) (known_as_type T) c t (Gives_up k)
  | Not_possible => e_copies (w_env w) T = false
  | Users => w_throws w t = true \/ w_throws w (S t) = true \/ converts w (known_as c) (known_as_type T) c t Throws
  end.

(** Why eq throws: there is no operator==, or the user's code throws. *)
Definition eq_cause (w : world) (a b : content) (T : ty) (x : exn) : Prop :=
  match x with
  | Bad_convert => False
  | Not_possible => e_cmp (w_env w) (scalar (held a)) = None \/ e_cmp (w_env w) (scalar T) = None
  | Users => exists t, w_throws w t = true \/ converts w (known_as a) (known_as_type T) a t Throws \/
                       converts w (known_as_type T) (known_as a) b t Throws
  end.
