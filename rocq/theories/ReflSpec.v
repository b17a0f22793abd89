(** Vocabulary of the properties of the registry: what can be seen of it, and which registries occur. *)
From Coq Require Import List Bool Arith String.
From Verif Require Import ListsModel StringsModel StringsSpec ReflModel.
Import ListNotations.
Local Open Scope list_scope.

(** Item number [i] of category [c] in container [a]. *)
Definition entry (w : world) (a : nat) (c : cat) (i : nat) : option nat :=
  match get w a with Some it => nth_error (ml_items (i_list it c)) i | None => None end.
(** Container [a] itself has item [x] of category [c] under name [n]. *)
Definition owns (w : world) (a : nat) (c : cat) (n : string) (x : nat) : Prop :=
  exists i xt, entry w a c i = Some x /\ get w x = Some xt /\ i_name xt = n.
(** ... or an item whose registered name answers query [q] (C08). *)
Definition answering (w : world) (a : nat) (c : cat) (q : text) (x : nat) : Prop :=
  exists i, entry w a c i = Some x /\ answers (txt (names w x)) q.
(** [b] is [a] or one of its direct or indirect base classes. *)
Inductive up (w : world) : nat -> nat -> Prop :=
| up_refl a : up w a a
| up_step a it t f b c : get w a = Some it -> In (t, f) (i_bases it) -> class_of w t = Some b -> up w b c -> up w a c.

(** Nothing a program can see differs. *)
Definition same (w w' : world) : Prop := w_items w' = w_items w /\ w_class w' = w_class w.
(** No deferred definition is waiting. *)
Definition quiet (w : world) : Prop := forall a it, get w a = Some it -> i_def it = None \/ i_lock it = true.

(** Two states of one item differ only in their lists of members. *)
Definition only_lists (it it' : item) : Prop :=
  i_cat it' = i_cat it /\ i_name it' = i_name it /\ i_owner it' = i_owner it /\ i_inv it' = i_inv it /\
  i_attrs it' = i_attrs it /\ i_elems it' = i_elems it /\ i_def it' = i_def it /\ i_lock it' = i_lock it /\
  i_type it' = i_type it /\ i_bases it' = i_bases it /\ i_derived it' = i_derived it.
(** One new item was put at the end of the list of category [c] of [o], and nothing else happened to items. *)
Definition appended (w w' : world) (o : nat) (c : cat) (n : string) (t inv : nat) : Prop :=
  let id := List.length (w_items w) in
  List.length (w_items w') = S id /\
  (exists xt, get w' id = Some xt /\ i_cat xt = c /\ i_name xt = n /\ i_owner xt = Some o /\ i_type xt = t /\ i_inv xt = inv /\
     (forall c', ml_items (i_list xt c') = []) /\ i_bases xt = [] /\ i_derived xt = [] /\ i_def xt = None) /\
  (forall a, a <> o -> a <> id -> get w' a = get w a) /\
  (exists ow ow', get w o = Some ow /\ get w' o = Some ow' /\ only_lists ow ow' /\
     ml_items (i_list ow' c) = ml_items (i_list ow c) ++ [id] /\ forall c', c' <> c -> i_list ow' c' = i_list ow c').

(** The registries that occur, also while deferred definitions run ([RBegin], [REnd]) and while lists are
    walked ([RHold], [RRelease]). *)
Inductive reachable (okbase : nat -> nat -> bool) : world -> Prop :=
| RStart : reachable okbase world0
| RRun k n w a it p w' : reachable okbase w -> get w a = Some it -> is_container (i_cat it) = true ->
    live (run k okbase n w a p) = Live w' -> reachable okbase w'
| RBegin w a it p : reachable okbase w -> get w a = Some it -> i_def it = Some p -> i_lock it = false ->
    reachable okbase (upd w a begin_def)
| REnd w a it : reachable okbase w -> get w a = Some it -> i_lock it = true -> reachable okbase (upd w a end_def)
| RHold w a k : reachable okbase w -> In k [LBases; LList Namespace; LList Class; LList Method; LAttrs; LElems] -> reachable okbase (acquire w (a, k))
| RRelease w : reachable okbase w -> reachable okbase (release w).

(** ** Kinds of programs *)

(** [f] holds of a command and of all commands nested in it. *)
Fixpoint all_cmd (f : cmd -> bool) (c : cmd) : bool :=
  f c &&
  match c with
  | KLazy p | KUse _ p => forallb (all_cmd f) p
  | KEach _ _ vs | KEachAttr _ vs | KEachElem _ vs => forallb (forallb (all_cmd f)) vs
  | _ => true
  end.
Definition all_prog (f : cmd -> bool) (p : prog) : bool := forallb (all_cmd f) p.

(** Containers and enums are given names. *)
Definition named_cmd (c : cmd) : bool :=
  match c with
  | KNamespace n | KClass n _ _ _ _ | KEnum n _ => negb (n =? "")%string
  | _ => true
  end.
(** A visitor that calls nothing of the library. *)
Definition apart (vs : list prog) : bool := forallb (fun p => match p with [] => true | _ => false end) vs.
(** Adds nothing to the lists that traversals with user code walk: namespaces, classes, methods, bases; visitors of
    attributes and elements use nothing. *)
Definition soft_cmd (c : cmd) : bool :=
  match c with
  | KNamespace _ | KClass _ _ _ _ _ | KMethod _ _ _ | KBase _ => false
  | KEachAttr _ vs | KEachElem _ vs => apart vs
  | _ => true
  end.
(** Deferred definitions and visitors are soft. *)
Definition tame_cmd (c : cmd) : bool :=
  match c with
  | KLazy p => all_prog soft_cmd p
  | KEach _ _ vs => forallb (all_prog soft_cmd) vs
  | KEachAttr _ vs | KEachElem _ vs => apart vs
  | _ => true
  end.

(** Registries after a history of programs of one kind, each run to its end or to an exception. *)
Inductive history (okbase : nat -> nat -> bool) (kind : cmd -> bool) : world -> Prop :=
| HStart : history okbase kind world0
| HRun k n w p w' : history okbase kind w -> all_prog kind p = true -> live (run k okbase n w 0 p) = Live w' ->
    history okbase kind w'.

(** What an item is, is fixed for ever; lists are only extended at the end. *)
Definition same_item (it it' : item) : Prop :=
  i_cat it' = i_cat it /\ i_name it' = i_name it /\ i_owner it' = i_owner it /\ i_type it' = i_type it /\ i_inv it' = i_inv it.
Definition prefix {A} (l l' : list A) : Prop := exists r, l' = l ++ r.

(** Calls that ask container [a] something. *)
Inductive asks (a : nat) : cmd -> Prop :=
| AsItem c nm : asks a (KItem a c nm)
| AsIndex c i : asks a (KIndex a c i)
| AsCount c : asks a (KCount a c)
| AsMethod nm : nm <> ""%string -> asks a (KGetMethod a nm)
| AsProperty nm : nm <> ""%string -> asks a (KGetProperty a nm)
| AsCtor nm : asks a (KGetCtor a nm)
| AsBases : asks a (KBases a)
| AsInherited b : b <> a -> asks a (KInherited a b)
| AsForce r : asks a (KForce a r)
| AsEach c vs : asks a (KEach a c vs)
| AsDerived : asks a (KDerived a)
| AsCast b : b <> a -> asks a (KCast a b)
| AsAttrs q : asks a (KAttrs a q)
| AsEachAttr vs : asks a (KEachAttr a vs).

(** The names of a class's constructors, in order. *)
Definition ctor_names (w : world) (x : nat) : list string :=
  match get w x with Some it => map (names w) (ml_items (i_list it Constructor)) | None => [] end.
Definition expected_ctors (d c m : bool) : list string :=
  (if d then ["d_constructor"%string] else []) ++ (if c then ["c_constructor"%string] else []) ++ (if m then ["m_constructor"%string] else []).

(** ** Well-nested definition programs *)

Inductive tree :=
| Leaf (c : cmd)
| Ns (n : string) (body : list tree)
| Cl (n : string) (t : nat) (d c m : bool) (body : list tree).

(** The chain of calls. *)
Fixpoint flat (x : tree) : prog :=
  match x with
  | Leaf c => [c]
  | Ns n body => KNamespace n :: flat_map flat body ++ [KEnd]
  | Cl n t d c m body => KClass n t d c m :: flat_map flat body ++ [KEnd]
  end.
Definition is_leaf (c : cmd) : bool :=
  match c with KNamespace _ | KClass _ _ _ _ _ | KEnd => false | _ => true end.
Fixpoint leaves (x : tree) : bool :=
  match x with Leaf c => is_leaf c | Ns _ body | Cl _ _ _ _ _ body => forallb leaves body end.

(** Brackets: never closed more often than opened, and all closed at the end. *)
Fixpoint depth (p : prog) (d : nat) : option nat :=
  match p with
  | [] => Some d
  | c :: p' =>
      match c with
      | KNamespace _ | KClass _ _ _ _ _ => depth p' (S d)
      | KEnd => match d with O => None | S d' => depth p' d' end
      | _ => depth p' d
      end
  end.
Definition well_nested (p : prog) : Prop := depth p 0 = Some 0.

(** The meaning of a tree: the body of an opener is run on the container the opener yields, and afterwards
    the surrounding container is current again. No stack of containers is involved. *)
Section Trees.
  Variables (run : world -> nat -> prog -> out unit) (k : nat) (okbase : nat -> nat -> bool) (use : world -> prog -> out unit).
  Notation step := (step run k okbase use).
  Fixpoint means (x : tree) (w : world) (cur here : option nat) : out (option nat) :=
    match x with
    | Leaf c => bind (step w (Builder cur here []) c) (fun w b => Ret w (b_item b))
    | Ns n body =>
        bind (step w (Builder cur here []) (KNamespace n)) (fun w b =>
          bind ((fix all (l : list tree) (w : world) (cur : option nat) : out (option nat) :=
                   match l with [] => Ret w cur | x :: l' => bind (means x w cur (b_cont b)) (fun w cur' => all l' w cur') end)
                  body w (b_item b)) (fun w _ => Ret w here))
    | Cl n t d c m body =>
        bind (step w (Builder cur here []) (KClass n t d c m)) (fun w b =>
          bind ((fix all (l : list tree) (w : world) (cur : option nat) : out (option nat) :=
                   match l with [] => Ret w cur | x :: l' => bind (means x w cur (b_cont b)) (fun w cur' => all l' w cur') end)
                  body w (b_item b)) (fun w _ => Ret w here))
    end.
  Fixpoint means_all (here : option nat) (l : list tree) (w : world) (cur : option nat) : out (option nat) :=
    match l with [] => Ret w cur | x :: l' => bind (means x w cur here) (fun w cur' => means_all here l' w cur') end.
End Trees.

(** ** Attributes and elements *)

(** What a list of names and values, in the order of first insertion, answers (0: the empty variant). *)
Definition told (l : list (string * nat)) (q : nvq) : nva :=
  match q with
  | QCount => ACount (List.length l)
  | QAt i => AValue (nth i (map snd l) 0)
  | QNameAt i => AName (nth i (map fst l) ""%string)
  | QOf n => AValue (match find (fun p => String.eqb n (fst p)) l with Some p => snd p | None => 0 end)
  end.
(** [l'] is [l] after [n] was given value [v]: a new name comes last, others keep place and value. *)
Definition given (l l' : list (string * nat)) (n : string) (v : nat) : Prop :=
  (~ In n (map fst l) /\ l' = l ++ [(n, v)]) \/
  (exists l1 u l2, l = l1 ++ (n, u) :: l2 /\ l' = l1 ++ (n, v) :: l2).

(** ** Casts *)

(** The functions registered with the declared bases along one way from class [a] to [b]. *)
Inductive way (w : world) : nat -> nat -> list nat -> Prop :=
| way_here a : way w a a []
| way_up a it t f d b fs : get w a = Some it -> In (t, f) (i_bases it) -> class_of w t = Some d -> way w d b fs -> way w a b (f :: fs).

(** Every question after the attributes of item [a] is answered from [l], and changes nothing. *)
Definition has_attributes (ok : nat -> nat -> bool) (k n : nat) (w : world) (a : nat) (l : list (string * nat)) : Prop :=
  forall q, exists w', attr_query (run k ok n) w a q = Ret w' (told l q) /\ same w w'.
(** The same of the elements of an enum. *)
Definition has_elements (w : world) (a : nat) (l : list (string * nat)) : Prop :=
  forall q, exists w', elem_query w a q = Ret w' (told l q) /\ same w w'.
