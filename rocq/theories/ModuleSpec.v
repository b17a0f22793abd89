(** When a process made of modules is to behave like one program; see ModuleModel.v for processes. *)
From Coq Require Import NArith List Bool Arith String.
From Verif Require Import TypesModel AccModel ModuleModel.
Import ListNotations.

(** There is one copy of the library, module 0. *)
Definition shared (L : linkage) : Prop := forall m, image L m = 0.

(** Of every module that is loaded, the modules it is linked with are loaded (dlclose keeps them). *)
Definition closed (L : linkage) (ms : list nat) : Prop := In 0 ms /\ forall m s, In m ms -> In (copy L m s) ms.

(** Something the process still knows lies in module [m]: the name or the functions of a type, the functions of a variant,
    a method, or a converter object (which might be registered). *)
Definition remembered (st : state) (m : nat) : Prop :=
  (exists x, In x (types st 0) /\ (en_text x = m \/ en_table x = m)) \/
  (exists v, In v (vars st) /\ v_module v = m) \/
  (exists x, In x (items st 0) /\ it_module x = m) \/
  (exists x, In x (objects st) /\ fst (fst x) = m).

(** The variable an operation is about. *)
Definition subject (o : op) : option nat :=
  match o with Copy _ i | Move _ i | Clear _ i | Empty _ i | Is _ i _ _ | Access _ i _ _ => Some i | _ => None end.

(** Code of loaded modules runs on variables that exist; modules are unloaded only when nothing in them is remembered. *)
Definition sensible (L : linkage) (st : state) (o : op) : Prop :=
  match o with
  | LoadModule m => closed L (m :: loaded st)
  | UnloadModule m => m <> 0 /\ In m (loaded st) /\ closed L (filter (fun x => negb (x =? m)) (loaded st)) /\ ~ remembered st m
  | _ => (forall m, actor o = Some m -> In m (loaded st)) /\ (forall i, subject o = Some i -> i < List.length (vars st))
  end.

Inductive orderly (L : linkage) (nm : qty -> string) (hash : string -> nat) (e : env) : state -> list op -> Prop :=
| OEnd st : orderly L nm hash e st []
| OStep st o h : sensible L st o -> (forall st' a, exec L nm hash e st o = Some (st', a) -> orderly L nm hash e st' h) ->
    orderly L nm hash e st (o :: h).

(** The types and functor types converters are registered with. *)
Definition functor_types (h : list op) : list (qty * qty * nat) :=
  flat_map (fun o => match o with AddConverter _ f t k _ => [(full_decay f, full_decay t, k)] | _ => [] end) h.

(** The compiler prints the types of [U] differently, and not as nothing; [U] has the decayed types, and not void. *)
Definition told_apart (nm : qty -> string) (U : qty -> Prop) : Prop :=
  (forall p q, U p -> U q -> nm p = nm q -> p = q) /\
  (forall q, U q -> nm q <> ""%string /\ U (full_decay q) /\
     forall b, q = mkQ RNone (TBase false false b) -> b_kind b <> KVoid).

(** Whatever is unloaded, the modules the others are linked with stay, and so does the library. *)
Fixpoint linked (L : linkage) (ms : list nat) (h : list op) : Prop :=
  closed L ms /\
  match h with
  | [] => True
  | LoadModule m :: h' => linked L (m :: ms) h'
  | UnloadModule m :: h' => linked L (filter (fun x => negb (x =? m)) ms) h'
  | _ :: h' => linked L ms h'
  end.

(** ** Converters as a user sees them: a table from pairs of types to functions, and the static objects of the functors *)

Record books := Books { reg : list ((qty * qty) * nat); objs : list ((nat * (qty * qty * nat)) * nat) }.
Definition same_types (a b : qty * qty) : bool :=
  if qty_eq_dec (fst a) (fst b) then if qty_eq_dec (snd a) (snd b) then true else false else false.
Definition lookup (k : qty * qty) (l : list ((qty * qty) * nat)) : option nat := option_map snd (find (fun x => same_types (fst x) k) l).
Definition without (ks : list (qty * qty)) (l : list ((qty * qty) * nat)) : list ((qty * qty) * nat) :=
  filter (fun x => negb (existsb (same_types (fst x)) ks)) l.
Definition decayed (f t : qty) : qty * qty := (full_decay f, full_decay t).
(** The object of a functor type, made when it is first registered by code that uses this copy of it. *)
Definition is_object (m : nat) (k : qty * qty) (kind : nat) (x : (nat * (qty * qty * nat)) * nat) : bool :=
  let '((n, (f, t, i)), _) := x in (n =? m) && (same_types (f, t) k && (i =? kind)).

(** What each operation does to the table, and what it answers; [None]: it has nothing to do with converters. Unloading a module
    removes the converters between the types its objects are made for. *)
Definition expect (L : linkage) (b : books) (o : op) : books * option answer :=
  match o with
  | AddConverter m f t kind g =>
      let k := decayed f t in let n := copy L m (SConverter (fst k) (snd k) kind) in
      let '(os, g') := match find (is_object n k kind) (objs b) with
                       | Some x => (objs b, snd x)
                       | None => (objs b ++ [((n, (fst k, snd k, kind)), g)], g)
                       end in
      match lookup k (reg b) with
      | Some _ => (Books (reg b) os, Some (ABool false))
      | None => (Books (reg b ++ [(k, g')]) os, Some (ABool true))
      end
  | DropConverter _ f t => (Books (without [decayed f t] (reg b)) (objs b), Some ANothing)
  | Convert _ f t => (b, Some (ANumber (lookup (decayed f t) (reg b))))
  | UnloadModule m =>
      let own := filter (fun x => fst (fst x) =? m) (objs b) in
      (Books (without (map (fun x => fst (snd (fst x))) own) (reg b)) (filter (fun x => negb (fst (fst x) =? m)) (objs b)), Some ANothing)
  | _ => (b, None)
  end.
Fixpoint expected (L : linkage) (b : books) (h : list op) : list (option answer) :=
  match h with
  | [] => []
  | o :: h' => let '(b', a) := expect L b o in a :: expected L b' h'
  end.
(** The types converters are registered, removed and looked up with. *)
Definition converter_types (h : list op) : list qty :=
  flat_map (fun o => match o with AddConverter _ f t _ _ | DropConverter _ f t | Convert _ f t => [f; t] | _ => [] end) h.
