(** What a program registers, read off its chains of definitions without running them, and what it means that two
    registries cannot be told apart by their contents (C67). *)
From Coq Require Import List Bool Arith String Ascii.
From Verif Require Import RegistryModel ListsModel StringsModel StringsSpec ReflModel.
Import ListNotations.
Local Open Scope list_scope.

(** Where an item is: category and name of the item, of its owner and so on; the global namespace is [[]]. *)
Definition place := list (cat * string).
Definition kind_at (p : place) : cat := match p with [] => Namespace | (c, _) :: _ => c end.

(** One statement of a chain: there is an item at [p] with this type and this invoker; it has this attribute; the enum
    there has this element; the class there derives from the class of type [t], with this function for casts. *)
Inductive decl :=
| Thing (p : place) (t inv : nat)
| Attribute (p : place) (n : string) (v : nat)
| Element (p : place) (n : string) (v : nat)
| Derives (p : place) (t f : nat).

(** The name of a function and the types of its parameters, as they are written. *)
Definition signed (n : string) (args : list text) : string :=
  (n ++ "(" ++ string_of_list_ascii (joined (lit ", ") args) ++ ")")%string.
(** Constructors from nothing, from the class itself and from other types. *)
Definition ctor_name (n : string) (args : cargs) : string :=
  match args with
  | A0 => "d_constructor"
  | ASelf false => "c_constructor"
  | ASelf true => "m_constructor"
  | AOther l => signed (if (n =? "")%string then "constructor" else n) l
  end.
Definition ctor_place (p : place) (n : string) (args : cargs) : place := (Constructor, ctor_name n args) :: p.
Definition ctor_decl (on : bool) (p : place) (args : cargs) : list decl :=
  if on then [Thing (ctor_place p "" args) 0 0] else [].

Definition and_then (d : list decl) (r : option (list decl)) : option (list decl) := option_map (app d) r.

(** The statements of a chain that is at item [item], in container [cont], inside [stack]. [None]: not a chain of plain
    definitions, or one that leaves a container unnamed, or one the compiler rejects. Left out are deferred definitions,
    see C68, and all that is not definition. *)
Fixpoint tell (item cont : place) (stack : list place) (l : prog) : option (list decl) :=
  match l with
  | [] => Some []
  | c :: l' =>
      match c with
      | KAttr n v => and_then (if (n =? "")%string then [] else [Attribute item n v]) (tell item cont stack l')
      | KNamespace n =>
          let p := (Namespace, n) :: cont in
          if (n =? "")%string then None
          else if cat_eqb (kind_at cont) Namespace then and_then [Thing p 0 0] (tell p p (cont :: stack) l') else None
      | KClass n t d c m =>
          let p := (Class, n) :: cont in
          if (n =? "")%string then None
          else and_then (Thing p t 0 :: ctor_decl d p A0 ++ ctor_decl c p (ASelf false) ++ ctor_decl m p (ASelf true))
                        (tell p p (cont :: stack) l')
      | KEnum n t =>
          let p := (Enum, n) :: cont in
          if (n =? "")%string then None else and_then [Thing p t 0] (tell p cont stack l')
      | KElement n v =>
          and_then (if (n =? "")%string then [] else if cat_eqb (kind_at item) Enum then [Element item n v] else [])
                   (tell item cont stack l')
      | KCtor n args inv =>
          if cat_eqb (kind_at cont) Class then and_then [Thing (ctor_place cont n args) 0 inv] (tell item cont stack l') else None
      | KMethod n args inv =>
          and_then [Thing ((Method, signed n args) :: cont) 0 inv] (tell item cont stack l')
      | KProperty n inv =>
          and_then (if (n =? "")%string then [] else [Thing ((Property, n) :: cont) 0 inv]) (tell item cont stack l')
      | KBase bs =>
          if cat_eqb (kind_at cont) Class then and_then (map (fun b => Derives cont (fst b) (snd b)) bs) (tell item cont stack l') else None
      | KEnd => match stack with [] => None | p :: s => tell p p s l' end
      | _ => None
      end
  end.
(** A chain on the global namespace. *)
Definition told_by (l : prog) : option (list decl) := tell [] [] [] l.
(** Where a chain ends: item, container, and the containers it returns to. *)
Fixpoint ends (item cont : place) (stack : list place) (l : prog) : place * place * list place :=
  match l with
  | [] => (item, cont, stack)
  | c :: l' =>
      match c with
      | KNamespace n => ends ((Namespace, n) :: cont) ((Namespace, n) :: cont) (cont :: stack) l'
      | KClass n _ _ _ _ => ends ((Class, n) :: cont) ((Class, n) :: cont) (cont :: stack) l'
      | KEnum n _ => ends ((Enum, n) :: cont) cont stack l'
      | KEnd => match stack with [] => (item, cont, stack) | p :: s => ends p p s l' end
      | _ => ends item cont stack l'
      end
  end.
(** [ds] is what the chains [h] state. *)
Definition states (h : list prog) (ds : list (list decl)) : Prop := Forall2 (fun l d => told_by l = Some d) h ds.

(** All of the chains [h] come to their end, without an exception. *)
Fixpoint complete (k : nat) (ok : nat -> nat -> bool) (n : nat) (w : world) (h : list prog) (w' : world) : Prop :=
  match h with
  | [] => w' = w
  | l :: h' => exists w1, run k ok n w 0 l = Ret w1 tt /\ complete k ok n w1 h' w'
  end.

(** The statements do not contradict one another. The last part: no constructor is looked up in place of another, as
    "d_constructor" would be for a constructor of that name with arguments (C34). *)
Record sound (E : list decl) : Prop := {
  s_thing : forall p t i t' i', In (Thing p t i) E -> In (Thing p t' i') E -> t' = t /\ i' = i;
  s_class : forall n p n' p' t i i', In (Thing ((Class, n) :: p) t i) E -> In (Thing ((Class, n') :: p') t i') E -> (n', p') = (n, p);
  s_attr : forall p n v v', In (Attribute p n v) E -> In (Attribute p n v') E -> v' = v;
  s_elem : forall p n v v', In (Element p n v) E -> In (Element p n v') E -> v' = v;
  s_ctor : forall p n n' t i t' i', In (Thing ((Constructor, n) :: p) t i) E -> In (Thing ((Constructor, n') :: p) t' i') E ->
    answers (txt n') (txt n) -> n' = n;
  s_base : forall p t f f', In (Derives p t f) E -> In (Derives p t f') E -> f' = f }.

(** The same as a test of each statement against each. *)
Definition place_dec : forall p q : place, {p = q} + {p <> q}.
Proof. apply list_eq_dec. decide equality; [apply string_dec|decide equality]. Defined.
Definition same_place (p q : place) : bool := if place_dec p q then true else false.
Definition agree (a b : decl) : bool :=
  match a, b with
  | Thing p t i, Thing p' t' i' =>
      (negb (same_place p p') || (Nat.eqb t' t && Nat.eqb i' i)) &&
      match p, p' with
      | (Class, _) :: _, (Class, _) :: _ => negb (Nat.eqb t' t) || same_place p p'
      | (Constructor, n) :: q, (Constructor, n') :: q' =>
          negb (same_place q q') || (n' =? n)%string || match method_matches (txt n') (txt n) with Some b => negb b | None => false end
      | _, _ => true
      end
  | Attribute p n v, Attribute p' n' v' | Element p n v, Element p' n' v' => negb (same_place p p') || negb (n' =? n)%string || Nat.eqb v' v
  | Derives p t f, Derives p' t' f' => negb (same_place p p') || negb (Nat.eqb t' t) || Nat.eqb f' f
  | _, _ => true
  end.
Definition consistent (E : list decl) : bool := forallb (fun a => forallb (agree a) E) E.

(** ** Class hierarchies *)

(** No base classes are named. *)
Definition free (E : list decl) : Prop := forall p t f, ~ In (Derives p t f) E.
(** The class at [q] is stated to be a base of that at [p]; a base of it or of one of its bases and so on. *)
Definition parent (E : list decl) (p q : place) : Prop :=
  exists t f n r i, q = (Class, n) :: r /\ In (Derives p t f) E /\ In (Thing q t i) E.
Inductive ancestor (E : list decl) : place -> place -> Prop :=
| ancestor_one p q : parent E p q -> ancestor E p q
| ancestor_more p q r : parent E p q -> ancestor E q r -> ancestor E p r.
(** What C++ and the casts of C15 ask of a hierarchy: no class derives from itself, and no more than [k] classes from one another ([k]: depth of
    recursion in the model); [ok]: pointers of the class convert to those of its base. Besides, no class defines a property or method that one of its bases has as well, see C18. *)
Record tree (ok : nat -> nat -> bool) (k : nat) (E : list decl) : Prop := {
  h_rank : exists rank : place -> nat, (forall p q, parent E p q -> rank q < rank p) /\ forall p, rank p <= k;
  h_ok : forall p t i b f, In (Thing p t i) E -> In (Derives p b f) E -> ok t b = true;
  h_own : forall c p q n t i t' i', c = Property \/ c = Method -> ancestor E p q -> In (Thing ((c, n) :: p) t i) E -> ~ In (Thing ((c, n) :: q) t' i') E }.
(** No class gets a property or method from two classes. *)
Definition once (E : list decl) : Prop := forall c p q q' n t i t' i', c = Property \/ c = Method -> q = p \/ ancestor E p q -> q' = p \/ ancestor E p q' ->
  In (Thing ((c, n) :: q) t i) E -> In (Thing ((c, n) :: q') t' i') E -> q' = q.
(** Each base class is stated, in [D] or in [l], before it is named as a base. *)
Fixpoint ready (D l : list decl) : Prop :=
  match l with
  | [] => True
  | d :: l' => match d with Derives _ t _ => exists n q i, In (Thing ((Class, n) :: q) t i) D | _ => True end /\ ready (d :: D) l'
  end.

(** ** What can be seen of a registry *)

Definition answer {A} (o : out A) : option A := match o with Ret _ x => Some x | _ => None end.

Section Seen.
  Variable run : world -> nat -> prog -> out unit.
  Variable k : nat.
  (** The item found by name from the global namespace down. *)
  Inductive reached (w : world) : place -> nat -> Prop :=
  | reached_global : reached w [] 0
  | reached_item p o c n x : reached w p o -> answer (get_item run w o c n) = Some (Some x) -> reached w ((c, n) :: p) x.

  (** Everything found in [w] is found in [w'] at the same place and with the same contents. *)
  Record covers (w w' : world) : Prop := {
    c_item : forall p x, reached w p x -> exists x' it it', reached w' p x' /\ get w x = Some it /\ get w' x' = Some it' /\
      i_cat it' = i_cat it /\ i_name it' = i_name it /\ i_type it' = i_type it /\ i_inv it' = i_inv it;
    c_attr : forall p x x' q, reached w p x -> reached w' p x' -> q = QCount \/ (exists n, q = QOf n) ->
      exists v, answer (attr_query run w x q) = Some v /\ answer (attr_query run w' x' q) = Some v;
    c_elem : forall p x x' q, reached w p x -> reached w' p x' -> q = QCount \/ (exists n, q = QOf n) ->
      exists v, answer (elem_query w x q) = Some v /\ answer (elem_query w' x' q) = Some v;
    c_count : forall p x x' c, reached w p x -> reached w' p x' ->
      exists n, answer (get_count run w x c) = Some n /\ answer (get_count run w' x' c) = Some n;
    c_class : forall t x, class_of w t = Some x -> exists p x', reached w p x /\ reached w' p x' /\ class_of w' t = Some x';
    c_bases : forall p x x', kind_at p = Class -> reached w p x -> reached w' p x' ->
      exists l l', answer (bases_query run w x) = Some l /\ answer (bases_query run w' x') = Some l' /\ forall b, In b l <-> In b l';
    c_derived : forall p x x', kind_at p = Class -> reached w p x -> reached w' p x' ->
      exists l l', answer (derived_query run w x) = Some l /\ answer (derived_query run w' x') = Some l' /\ forall t, In t l <-> In t l';
    c_inherited : forall p q x x' y y', kind_at p = Class -> kind_at q = Class -> reached w p x -> reached w' p x' -> reached w q y -> reached w' q y' ->
      exists b, answer (inherited run k w x y) = Some b /\ answer (inherited run k w' x' y') = Some b;
    c_method : forall p x x' n args m, reached w p x -> reached w' p x' ->
      answer (get_method run k w x (signed n args)) = Some (Some m) ->
      exists q y m', answer (get_method run k w' x' (signed n args)) = Some (Some m') /\
                     reached w q y /\ (y = x \/ answer (inherited run k w x y) = Some true) /\
                     reached w ((Method, signed n args) :: q) m /\ reached w' ((Method, signed n args) :: q) m';
    c_property : forall p x x' n m, n <> ""%string -> reached w p x -> reached w' p x' ->
      answer (get_property run k w x n) = Some (Some m) ->
      exists q y m', answer (get_property run k w' x' n) = Some (Some m') /\
                     reached w q y /\ (y = x \/ answer (inherited run k w x y) = Some true) /\
                     reached w ((Property, n) :: q) m /\ reached w' ((Property, n) :: q) m' }.
  Definition alike (w w' : world) : Prop := covers w w' /\ covers w' w.
End Seen.

(** ** What is stated is what is found *)

(** The items that can be found by name and type are those stated, with type and invoker, attributes and elements as stated. *)
Record shows (run : world -> nat -> prog -> out unit) (w : world) (D : list decl) : Prop := {
  w_things : forall p t i, In (Thing p t i) D <->
    p <> [] /\ exists x it, reached run w p x /\ get w x = Some it /\ i_cat it = kind_at p /\ i_type it = t /\ i_inv it = i;
  w_attributes : forall p m v, In (Attribute p m v) D ->
    exists x, reached run w p x /\ answer (attr_query run w x (QOf m)) = Some (AValue v);
  w_elements : forall p m v, In (Element p m v) D ->
    exists x, reached run w p x /\ answer (elem_query w x (QOf m)) = Some (AValue v);
  w_no_attribute : forall p x m, reached run w p x -> (forall v, ~ In (Attribute p m v) D) ->
    answer (attr_query run w x (QOf m)) = Some (AValue 0);
  w_no_element : forall p x m, reached run w p x -> (forall v, ~ In (Element p m v) D) ->
    answer (elem_query w x (QOf m)) = Some (AValue 0);
  w_classes : forall t x, class_of w t = Some x <-> exists m p i, In (Thing ((Class, m) :: p) t i) D /\ reached run w ((Class, m) :: p) x }.
(** Classes have the bases and derived classes stated, with the functions stated; [inherited] of the library is [ancestor] of the statements, and a
    class has its own properties and methods and those of all its bases, near and far, and no others. *)
Record kin (run : world -> nat -> prog -> out unit) (k : nat) (w : world) (D : list decl) : Prop := {
  w_bases : forall p x, kind_at p = Class -> reached run w p x ->
    exists l, answer (bases_query run w x) = Some l /\ NoDup (map fst l) /\ forall t f, In (t, f) l <-> In (Derives p t f) D;
  w_derived : forall p x, kind_at p = Class -> reached run w p x ->
    exists l, answer (derived_query run w x) = Some l /\ NoDup l /\
    forall t, In t l <-> exists q i, parent D q p /\ In (Thing q t i) D;
  w_inherited : forall p q x y, reached run w p x -> reached run w q y ->
    exists b, answer (inherited run k w x y) = Some b /\ (b = true <-> q = p \/ ancestor D p q);
  w_method : forall p x m args, reached run w p x ->
    exists r, answer (get_method run k w x (signed m args)) = Some r /\
    match r with
    | Some y => exists q, (q = p \/ ancestor D p q) /\ reached run w ((Method, signed m args) :: q) y
    | None => forall q t i, q = p \/ ancestor D p q -> ~ In (Thing ((Method, signed m args) :: q) t i) D
    end;
  w_property : forall p x m, m <> ""%string -> reached run w p x ->
    exists r, answer (get_property run k w x m) = Some r /\
    match r with
    | Some y => exists q, (q = p \/ ancestor D p q) /\ reached run w ((Property, m) :: q) y
    | None => forall q t i, q = p \/ ancestor D p q -> ~ In (Thing ((Property, m) :: q) t i) D
    end }.
