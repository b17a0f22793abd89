(** What programs with deferred definitions state, and what answers are true of statements (C68). *)
From Coq Require Import List Bool Arith String Ascii.
From Verif Require Import RegistryModel ListsModel StringsModel StringsSpec ReflModel OrderSpec.
Import ListNotations.
Local Open Scope list_scope.

(** A statement of a chain, or that the container at [p] has a deferred definition; what that states is listed too. *)
Inductive stmt := Now (d : decl) | Later (p : place).
Definition now (l : list stmt) : list decl := flat_map (fun s => match s with Now d => [d] | Later _ => [] end) l.
Definition later (l : list stmt) : list place := flat_map (fun s => match s with Now _ => [] | Later p => [p] end) l.
Definition adding (d : list stmt) (r : option (list stmt)) : option (list stmt) := option_map (app d) r.

Section Tells.
  (** What a deferred definition states of the container at this place. *)
  Variable deferred : cmd -> place -> option (list stmt).
  (** As [tell], see OrderSpec.v. *)
  Fixpoint tells_with (item cont : place) (stack : list place) (l : prog) : option (list stmt) :=
    match l with
    | [] => Some []
    | c :: l' =>
        match c with
        | KAttr n v => adding (if (n =? "")%string then [] else [Now (Attribute item n v)]) (tells_with item cont stack l')
        | KNamespace n =>
            let p := (Namespace, n) :: cont in
            if (n =? "")%string then None
            else if cat_eqb (kind_at cont) Namespace then adding [Now (Thing p 0 0)] (tells_with p p (cont :: stack) l') else None
        | KClass n t d c m =>
            let p := (Class, n) :: cont in
            if (n =? "")%string then None
            else adding (map Now (Thing p t 0 :: ctor_decl d p A0 ++ ctor_decl c p (ASelf false) ++ ctor_decl m p (ASelf true)))
                        (tells_with p p (cont :: stack) l')
        | KEnum n t =>
            let p := (Enum, n) :: cont in
            if (n =? "")%string then None else adding [Now (Thing p t 0)] (tells_with p cont stack l')
        | KElement n v =>
            adding (if (n =? "")%string then [] else if cat_eqb (kind_at item) Enum then [Now (Element item n v)] else [])
                   (tells_with item cont stack l')
        | KCtor n args inv =>
            if cat_eqb (kind_at cont) Class then adding [Now (Thing (ctor_place cont n args) 0 inv)] (tells_with item cont stack l') else None
        | KMethod n args inv =>
            adding [Now (Thing ((Method, signed n args) :: cont) 0 inv)] (tells_with item cont stack l')
        | KProperty n inv =>
            adding (if (n =? "")%string then [] else [Now (Thing ((Property, n) :: cont) 0 inv)]) (tells_with item cont stack l')
        | KBase [] => if cat_eqb (kind_at cont) Class then tells_with item cont stack l' else None
        | KEnd => match stack with [] => None | p :: s => tells_with p p s l' end
        | KLazy _ => match deferred c cont with Some d => adding (Later cont :: d) (tells_with item cont stack l') | None => None end
        | _ => None
        end
    end.
End Tells.
Fixpoint deferred (c : cmd) (p : place) : option (list stmt) :=
  match c with KLazy l => tells_with deferred p p [] l | _ => None end.
Definition tells : place -> place -> list place -> prog -> option (list stmt) := tells_with deferred.
(** A chain on the global namespace. *)
Definition tells_by (l : prog) : option (list stmt) := tells [] [] [] l.

(** ** Programs that register and ask *)

(** The calls of the API a question stands for, each after look-up of the item at [p] by category and name from the global
    namespace down (src/metacontainer.cpp:210-215): is the item there, and of which type and invoker; the overload of a method
    (src/metacontainer.cpp:321-326, src/metaclass.cpp:181-207); the number of members of a category (src/metacontainer.cpp:203-208);
    attributes (src/metaitem.cpp:98-124); elements (src/metaenum.cpp:36-58). *)

Inductive query :=
| Find (p : place)
| FindMethod (p : place) (n : string) (args : list text)
| Count (p : place) (c : cat)
| AttrOf (p : place) (n : string)
| AttrCount (p : place)
| ElemOf (p : place) (n : string)
| ElemCount (p : place).
Inductive reply := Missing | Found (t inv : nat) | Number (m : nat) | Value (v : nat).
Inductive event := Do (l : prog) | Ask (q : query).

Section Ask.
  Variable run : world -> nat -> prog -> out unit.
  Variable k : nat.
  (** Look-up by name from the global namespace down. Deferred definitions run on the way. *)
  Fixpoint seek (w : world) (p : place) : out (option nat) :=
    match p with
    | [] => Ret w (Some 0)
    | (c, n) :: q => bind (seek w q) (fun w r => match r with None => Ret w None | Some o => get_item run w o c n end)
    end.
  Definition seeking (w : world) (p : place) (f : world -> nat -> out reply) : out reply :=
    bind (seek w p) (fun w r => match r with None => Ret w Missing | Some x => f w x end).
  Definition show (w : world) (x : nat) : out reply :=
    match get w x with None => UB | Some it => Ret w (Found (i_type it) (i_inv it)) end.
  Definition said (o : out nva) : out reply :=
    bind o (fun w a => Ret w match a with ACount m => Number m | AValue v => Value v | AName _ => Missing end).
  Definition ask (w : world) (q : query) : out reply :=
    match q with
    | Find p => seeking w p show
    | FindMethod p n args => seeking w p (fun w x =>
        bind (get_method run k w x (signed n args)) (fun w r => match r with None => Ret w Missing | Some m => show w m end))
    | Count p c => seeking w p (fun w x => bind (get_count run w x c) (fun w m => Ret w (Number m)))
    | AttrOf p n => seeking w p (fun w x => said (attr_query run w x (QOf n)))
    | AttrCount p => seeking w p (fun w x => said (attr_query run w x QCount))
    | ElemOf p n => seeking w p (fun w x => said (elem_query w x (QOf n)))
    | ElemCount p => seeking w p (fun w x => said (elem_query w x QCount))
    end.
End Ask.
(** All of them, one after another; not [Ret] if any of them throws. *)
Fixpoint play (k : nat) (ok : nat -> nat -> bool) (n : nat) (w : world) (es : list event) : out (list reply) :=
  match es with
  | [] => Ret w []
  | Do l :: es' => bind (run k ok n w 0 l) (fun w _ => play k ok n w es')
  | Ask q :: es' => bind (ask (run k ok n) k w q) (fun w r => bind (play k ok n w es') (fun w rs => Ret w (r :: rs)))
  end.

(** ** What is true of statements [E] *)
Definition known (E : list decl) (p : place) : Prop := p = [] \/ exists t i, In (Thing p t i) E.
Definition counts (P : string -> Prop) (m : nat) : Prop := exists l, NoDup l /\ List.length l = m /\ forall n, In n l <-> P n.
Definition thing (E : list decl) (p : place) (r : reply) : Prop :=
  match r with
  | Found t i => In (Thing p t i) E
  | Missing => forall t i, ~ In (Thing p t i) E
  | _ => False
  end.
Definition value (P : nat -> Prop) (v : nat) : Prop := P v \/ v = 0 /\ forall u, ~ P u.
Definition truth (E : list decl) (q : query) (r : reply) : Prop :=
  match q, r with
  | Find [], _ => r = Found 0 0
  | Find p, _ => thing E p r
  | FindMethod p n args, _ => thing E ((Method, signed n args) :: p) r
  | (Count p _ | AttrOf p _ | AttrCount p | ElemOf p _ | ElemCount p), Missing => ~ known E p
  | Count p c, Number m => known E p /\ counts (fun n => exists t i, In (Thing ((c, n) :: p) t i) E) m
  | AttrOf p n, Value v => known E p /\ value (fun u => In (Attribute p n u) E) v
  | AttrCount p, Number m => known E p /\ counts (fun n => exists u, In (Attribute p n u) E) m
  | ElemOf p n, Value v => known E p /\ value (fun u => In (Element p n u) E) v
  | ElemCount p, Number m => known E p /\ counts (fun n => exists u, In (Element p n u) E) m
  | _, _ => False
  end.
(** Every answer is true of all that was stated before the question, by then run or not. *)
Fixpoint honest (E : list decl) (es : list event) (rs : list reply) : Prop :=
  match es with
  | [] => rs = []
  | Do l :: es' => exists ds, tells_by l = Some ds /\ honest (now ds ++ E) es' rs
  | Ask q :: es' => match rs with [] => False | r :: rs' => truth E q r /\ honest E es' rs' end
  end.
(** All statements of a program, in order. *)
Fixpoint all_told (es : list event) : option (list stmt) :=
  match es with
  | [] => Some []
  | Do l :: es' => match tells_by l with Some d => adding d (all_told es') | None => None end
  | Ask _ :: es' => all_told es'
  end.
