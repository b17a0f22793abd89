(** Specification of C70: deferred definitions that name base classes or fail, read off the statements of OrderSpec and FailSpec. *)
From Coq Require Import List Bool Arith String Ascii.
From Verif Require Import ReflModel OrderSpec FailSpec DelaySpec.
Import ListNotations.
Local Open Scope list_scope.

(** A chain; a chain [a] after which the container it stands in gets the deferred definition [l]; a question. *)
Inductive act := Chain (l : prog) | Defer (a l : prog) | Look (q : query).
(** Where the chain stands in the end. *)
Definition spot (a : prog) : place := snd (fst (ends [] [] [] a)).

(** What is stated by now, and what waits for whom. *)
Record mind := Mind { made : list decl; waiting : list (place * list decl) }.
Definition waits (p : place) (m : mind) : option (list decl) := option_map snd (find (fun x => same_place (fst x) p) (waiting m)).
Definition forgotten (p : place) (l : list (place * list decl)) : list (place * list decl) := filter (fun x => negb (same_place (fst x) p)) l.

(** The containers a question looks into, from the global namespace down: those on the way, and the one asked for its members or
    attributes. *)
Fixpoint path (p : place) : list place := match p with [] => [] | _ :: q => path q ++ [q] end.
Definition opens (q : query) : list place :=
  match q with
  | Find p | ElemOf p _ | ElemCount p => path p
  | Count p _ | AttrOf p _ | AttrCount p | FindMethod p _ _ => path p ++ [p]
  end.
(** Looking into a container that waits: its definition is made up to the first statement that cannot be made, and waits no more,
    whether it could be made or not. An exception ends the question there. *)
Definition due (p : place) (m : mind) : list decl := match waits p m with Some d => d | None => [] end.
Definition open1 (m : mind) (p : place) : mind * option exn :=
  let (r, e) := cut (made m) (due p m) in (Mind (r ++ made m) (forgotten p (waiting m)), e).
Fixpoint opened (m : mind) (ps : list place) : mind * option exn :=
  match ps with
  | [] => (m, None)
  | p :: ps' => match open1 m p with (m1, None) => opened m1 ps' | x => x end
  end.

(** How the act ends and what it leaves. Chains are made up to the first statement that cannot be made. A container that waits
    already refuses another deferred definition. *)
Definition after (m : mind) (s : act) : option (mind * option exn) :=
  match s with
  | Chain l =>
      match told_by l with
      | Some d => let (r, e) := cut (made m) d in Some (Mind (r ++ made m) (waiting m), e)
      | None => None
      end
  | Defer a l =>
      match told_by a, tell (spot a) (spot a) [] l with
      | Some d, Some d2 =>
          let (r, e) := cut (made m) d in
          let D := r ++ made m in
          Some match e, waits (spot a) m with
               | Some _, _ => (Mind D (waiting m), e)
               | None, Some _ => (Mind D (waiting m), Some Redefinition)
               | None, None => (Mind D ((spot a, d2) :: waiting m), None)
               end
      | _, _ => None
      end
  | Look q => Some (opened m (opens q))
  end.
Fixpoint outcome (m : mind) (h : list act) : option (mind * list (option exn)) :=
  match h with
  | [] => Some (m, [])
  | s :: h' => match after m s with
               | Some (m1, e) => option_map (fun x => (fst x, e :: snd x)) (outcome m1 h')
               | None => None
               end
  end.

(** Nobody looks into a container that waits without saying so: chains and deferred definitions state no members of one, nor
    properties or methods of a class that gets members from one; methods, which are searched in base classes, are not asked for
    while one of those waits. *)
Definition apart (W : list (place * list decl)) (D d : list decl) : Prop :=
  forall q x, In (q, x) W ->
    (forall c n t i, ~ In (Thing ((c, n) :: q) t i) d) /\
    (forall c n p t i, c = Property \/ c = Method -> In (Thing ((c, n) :: p) t i) d -> ~ ancestor (d ++ D) p q).
Fixpoint openly (m : mind) (ps : list place) : Prop :=
  match ps with
  | [] => True
  | p :: ps' => apart (forgotten p (waiting m)) (made m) (due p m) /\ match open1 m p with (m1, None) => openly m1 ps' | _ => True end
  end.
Definition discreet (m : mind) (s : act) : Prop :=
  match s with
  | Chain l | Defer l _ => forall d, told_by l = Some d -> apart (waiting m) (made m) d
  | Look (FindMethod p n args) => openly m (opens (FindMethod p n args)) /\
      match opened m (opens (FindMethod p n args)) with
      | (m1, None) => forall q x, ancestor (made m1) p q -> ~ In (q, x) (waiting m1)
      | _ => True
      end
  | Look q => openly m (opens q)
  end.
Fixpoint discreetly (m : mind) (h : list act) : Prop :=
  match h with
  | [] => True
  | s :: h' => discreet m s /\ match after m s with Some (m1, _) => discreetly m1 h' | None => False end
  end.
(** The compiler accepts the base classes named (include/rtti/metadefine.h:25-32); [K]: all that is ever stated. *)
Definition fits (ok : nat -> nat -> bool) (K d : list decl) : Prop :=
  forall p t f u i, In (Derives p t f) d -> In (Thing p u i) K -> ok u t = true.
Definition accepted (ok : nat -> nat -> bool) (K : list decl) (m : mind) (s : act) : Prop :=
  match s with
  | Chain l | Defer l _ => forall d, told_by l = Some d -> fits ok K d
  | Look q => forall p d, In (p, d) (waiting m) -> fits ok K d
  end.
Fixpoint all_accepted (ok : nat -> nat -> bool) (K : list decl) (m : mind) (h : list act) : Prop :=
  match h with
  | [] => True
  | s :: h' => accepted ok K m s /\ match after m s with Some (m1, _) => all_accepted ok K m1 h' | None => False end
  end.

(** What is true of [D]: as in DelaySpec; methods may be those of base classes. *)
Definition true_of (D : list decl) (q : query) (r : reply) : Prop :=
  match q, r with
  | FindMethod p n args, Found t i => exists s, (s = p \/ ancestor D p s) /\ In (Thing ((Method, signed n args) :: s) t i) D
  | FindMethod p n args, Missing => forall s t i, s = p \/ ancestor D p s -> ~ In (Thing ((Method, signed n args) :: s) t i) D
  | FindMethod _ _ _, _ => False
  | _, _ => truth D q r
  end.
(** The calls end as the list says, and questions get answers that are true of what is stated by then. *)
Definition ended {A} (e : option exn) (w : world) (o : out A) (good : A -> Prop) : Prop :=
  match e with None => exists x, o = Ret w x /\ good x | Some e => o = Throw e w end.
Definition does (k : nat) (ok : nat -> nat -> bool) (n : nat) (w : world) (D : list decl) (s : act) (e : option exn) (w' : world) : Prop :=
  match s with
  | Chain l => ended e w' (run k ok n w 0 l) (fun _ => True)
  | Defer a l => ended e w' (run k ok n w 0 (a ++ [KLazy l])) (fun _ => True)
  | Look q => ended e w' (ask (run k ok n) k w q) (true_of D q)
  end.
Fixpoint lived (k : nat) (ok : nat -> nat -> bool) (n : nat) (w : world) (m : mind) (h : list act) (es : list (option exn)) (w' : world) : Prop :=
  match h, es with
  | [], [] => w' = w
  | s :: h', e :: es' => exists w1 m1, after m s = Some (m1, e) /\ does k ok n w (made m1) s e w1 /\ lived k ok n w1 m1 h' es' w'
  | _, _ => False
  end.

(** ** Everything deferred first, looked into later *)
(** What a deferring chain states at once and later. *)
Definition parts (x : prog * prog) (d : list decl * list decl) : Prop := told_by (fst x) = Some (fst d) /\ tell (spot (fst x)) (spot (fst x)) [] (snd x) = Some (snd d).
Definition defers (xs : list (prog * prog)) : list act := map (fun x => Defer (fst x) (snd x)) xs.
Definition looks (qs : list query) : list act := map Look qs.
