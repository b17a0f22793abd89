(** What a data race is, which clients are considered, and what it means that an answer stays true. None of it depends
    on how the functions of RaceModel work. *)
From Coq Require Import List Bool Arith.
From Verif Require Import RaceModel.
Import ListNotations.

(** The plain access a thread makes next; [true]: it writes. *)
Definition access (p : prog) : option (loc * bool) :=
  match p with Load l _ => Some (l, false) | Store l _ _ => Some (l, true) | _ => None end.

(** Two threads are about to access one place, and one of them writes. *)
Definition race_at (s : state) (l : loc) : Prop :=
  exists i j p q w, i <> j /\ nth_error (threads s) i = Some p /\ nth_error (threads s) j = Some q /\
    access p = Some (l, true) /\ access q = Some (l, w).

(** All calls of a client satisfy [ok], where [within] are the lists whose enumeration (for_each_attribute,
    for_each_element) the call is inside of. *)
Section Only.
  Variable ok : list lst -> api -> Prop.

  Fixpoint only (within : list lst) (c : client) {struct c} : Prop :=
    match c with
    | Stop _ => True
    | Call a k => only_api within a /\ forall v, only within (k v)
    end
  with only_api (within : list lst) (a : api) {struct a} : Prop :=
    ok within a /\
    match a with
    | EachClass _ f | EachMethod _ f => forall i, only within (f i)
    | EachValue x f => forall n i, only (x :: within) (f n i)
    | _ => True
    end.
End Only.

(** Calls that may ask for a qualified name: qualifiedName itself and the messages of two exceptions. *)
Definition asks_name (a : api) : Prop :=
  match a with Qualified _ | CreateClass _ _ _ | Defer _ _ => True | _ => False end.

(** Calls that set a deferred definition, that set a value in the list, that read a value by reference. *)
Definition defers (a : api) : Prop := match a with Defer _ _ => True | _ => False end.
Definition sets (x : lst) (a : api) : Prop := match a with SetValue y _ _ => y = x | _ => False end.
Definition uses (x : lst) (a : api) : Prop := match a with Use (Some (y, _)) => y = x | _ => False end.

(** The tables that only grow. *)
Definition growing (l : loc) : Prop :=
  match l with LTypes | LItems _ _ | LBases _ | LDerived _ | LNames _ => True | _ => False end.

(** Row [i] of a table; the value under a name. *)
Definition row (m : loc -> val) (l : loc) (i : nat) : option (nat * nat) := nth_error (rows (m l)) i.
Definition under (m : loc -> val) (l : loc) (n x : nat) : Prop := In (n, x) (rows (m l)).

(** What an answer says about the tables from then on. Answers like null, false or an exception say nothing. A method or
    property may be found in another class, a base. *)
Definition says (a : api) (v : val) (m : loc -> val) : Prop :=
  match a, v with
  | TypeByName n, VOpt (Some t) | Register n _, VOpt (Some t) => under m LTypes n t
  | Get c k n, VOpt (Some i) => under m (LItems c k) n i
  | GetConstructor c n, VOpt (Some i) => under m (LItems c Constructor) n i
  | GetMember k c n, VOpt (Some i) => exists c', under m (LItems c' k) n i
  | Create k c n, VOpt (Some i) =>
      match k with Method | Property => exists c', under m (LItems c' k) n i | _ => under m (LItems c k) n i end
  | CreateClass c n _, VOpt (Some i) => under m (LItems c Class) n i
  | Count c k, VNat n => n <= length (rows (m (LItems c k)))
  | At c k i, VOpt (Some x) => option_map snd (row m (LItems c k) i) = Some x
  | BaseCount c, VNat n => n <= length (rows (m (LBases c)))
  | BaseAt c i, VOpt (Some t) => option_map fst (row m (LBases c) i) = Some t
  | DerivedCount c, VNat n => n <= length (rows (m (LDerived c)))
  | DerivedAt c i, VOpt (Some d) => option_map fst (row m (LDerived c) i) = Some d
  | AddBase c t, VUnit => (exists b, under m (LBases c) t b) /\ exists b d, under m (LDerived b) c d
  | Size x, VNat n => n <= length (rows (m (LNames x)))
  | Value x i, VRef (Some r) => r = (x, i) /\ row m (LNames x) i <> None
  | ValueByName x n, VRef (Some (y, i)) => y = x /\ under m (LNames x) n i
  | Name x i, VOpt (Some n) => option_map fst (row m (LNames x) i) = Some n
  | SetValue x n _, VUnit => n <> 0 -> exists i, under m (LNames x) n i
  | _, _ => True
  end.

(** Tables as the library leaves them: no key twice; the position of an entry of a list of named variants is its index. *)
Definition proper (m : loc -> val) : Prop :=
  (forall l, growing l -> NoDup (map fst (rows (m l)))) /\
  (forall x i r, row m (LNames x) i = Some r -> snd r = i) /\
  NoDup (map fst (convs (m LConv))).

(** What an answer denies, of the tables as they were when the function was called: nothing under the name, no more rows
    than counted, nothing at the position. Creating and registering are refused to the empty name only. *)
Definition denies (a : api) (v : val) (m : loc -> val) : Prop :=
  match a, v with
  | TypeByName n, VOpt None => n <> 0 -> forall t, ~ under m LTypes n t
  | Register n _, VOpt None => n = 0
  | Get c k n, VOpt None | GetMember k c n, VOpt None => n <> 0 -> forall i, ~ under m (LItems c k) n i
  | GetConstructor c n, VOpt None => forall i, ~ under m (LItems c Constructor) n i
  | Create _ _ n, VOpt None | CreateClass _ n _, VOpt None => n = 0
  | Count c k, VNat n => length (rows (m (LItems c k))) <= n
  | At c k i, VOpt None => row m (LItems c k) i = None
  | BaseCount c, VNat n => length (rows (m (LBases c))) <= n
  | BaseAt c i, VOpt None => row m (LBases c) i = None
  | DerivedCount c, VNat n => length (rows (m (LDerived c))) <= n
  | DerivedAt c i, VOpt None => row m (LDerived c) i = None
  | Size x, VNat n => length (rows (m (LNames x))) <= n
  | Value x i, VRef None | Name x i, VOpt None => row m (LNames x) i = None
  | ValueByName x n, VRef None => n <> 0 -> forall i, ~ under m (LNames x) n i
  | _, _ => True
  end.

(** The kind of answer each function gives; those that hand on what is stored elsewhere are left open. *)
Definition shaped (a : api) (v : val) : Prop :=
  match a, v with
  | TypeByName _, VOpt _ | Register _ _, VOpt _ | Convert _ _, VOpt _ | Create _ _ _, VOpt _ | At _ _ _, VOpt _ | Get _ _ _, VOpt _
  | GetMember _ _ _, VOpt _ | GetConstructor _ _, VOpt _ | BaseAt _ _, VOpt _ | DerivedAt _ _, VOpt _ | Name _ _, VOpt _ => True
  | HasConv _ _, VBool _ | RegConv _ _ _, VBool _ => True
  | UnregConv _ _, VUnit | EachClass _ _, VUnit | EachMethod _ _, VUnit | EachValue _ _, VUnit | SetValue _ _ _, VUnit => True
  | CreateClass _ _ _, VOpt _ | CreateClass _ _ _, VThrow | AddBase _ _, VUnit | AddBase _ _, VThrow
  | Defer _ _, VUnit | Defer _ _, VThrow => True
  | Count _ _, VNat _ | BaseCount _, VNat _ | DerivedCount _, VNat _ | Size _, VNat _ => True
  | Value _ _, VRef _ | ValueByName _ _, VRef _ => True
  | FindClass _, _ | Inherited _ _, _ | Cast _ _, _ | Qualified _, _ | Use _, _ | Force _, _ => True
  | _, _ => False
  end.
