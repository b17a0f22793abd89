(** C40, the rest: the overloads of meta_cast keep const, and what they give is what InheritProps.v proves of the cast. *)
From Coq Require Import List Bool Arith.
From Verif Require Import InheritModel InheritSpec InheritProofs InheritProps CastModel.
Import ListNotations.

(** The type of the result: const if the argument's class or the one asked for is. *)
Definition expected (to : cls) (a : arg) : cls := Cls (c_id to) (c_const to || c_const (a_cls a)).

Definition announced (to : cls) (a : arg) (r : outcome) : Prop :=
  match r with
  | Gives k _ => k = expected to a /\ exists b, a_form a = Pointer b
  | Refers k _ => k = (if a_lvalue a then expected to a else constant to) /\ a_form a = Object
  | Throws => a_form a = Object
  | NoCompile => False
  | Undefined | Endless => True
  end.

(** Every call compiles and chooses one overload. Whatever is const stays so, nothing else becomes const except what a temporary
    holds, and pointers give pointers, objects references or an exception. *)
Theorem C40_const_kept : forall c reg decl has g fuel to a p, announced to a (call c reg decl has g fuel to a p).
Proof.
  intros c reg decl has g fuel [t kt] [f [x k] l] p. unfold call, pointer_call, internal_call.
  destruct f as [[]|], k, l; cbn; destruct (has x); cbn;
    match goal with |- context [value ?a ?b ?c ?d ?e ?f ?g ?h ?i] => destruct (value a b c d e f g h i) as [[s|]| |] end; cbn;
    unfold converts, expected, constant; cbn; rewrite ?Nat.eqb_refl; destruct kt; cbn; rewrite ?Nat.eqb_refl; cbn; eauto.
Qed.
Print Assumptions C40_const_kept.

(** What is given: the answer of the cast between the two classes, which the theorems on C40 in InheritProps.v are about; the
    reference forms throw where it is null. *)
Theorem C40_overloads_agree : forall c reg decl has g fuel to a p,
  has (c_id (a_cls a)) = true \/ c_const to = false ->
  call c reg decl has g fuel to a p =
    match a_form a, meta_cast c reg decl has g fuel (c_id (a_cls a)) (c_id to) p with
    | _, UB => Undefined
    | _, Fuel => Endless
    | Pointer _, Ok v => Gives (expected to a) v
    | Object, Ok (Some s) => Refers (if a_lvalue a then expected to a else constant to) s
    | Object, Ok None => Throws
    end.
Proof.
  intros c reg decl has g fuel [t kt] [f [x k] l] p H. cbn in H.
  assert (V : value c reg decl has g fuel (Cls t kt) (Cls x false) p = meta_cast c reg decl has g fuel x t p).
  { unfold value, meta_cast. cbn. destruct (has x); [reflexivity|]. destruct H as [H| ->]; [discriminate|].
    unfold cls_eqb. cbn. rewrite andb_true_r. destruct (t =? x); reflexivity. }
  unfold call, pointer_call, internal_call.
  destruct f as [[]|], k, l; cbn; destruct (has x); cbn; rewrite V;
    destruct (meta_cast c reg decl has g fuel x t p) as [[s|]| |]; cbn; unfold converts, expected, constant; cbn;
    rewrite ?Nat.eqb_refl; destruct kt; cbn; rewrite ?Nat.eqb_refl; reflexivity.
Qed.
Print Assumptions C40_overloads_agree.

(** Not so for a const class asked for by name, if the argument's class has no class info: the object is not even given as the const
    object of its own class that it is. *)
Theorem C40_const_target_refuted : forall c reg decl has g fuel x k l b s, has x = false ->
  call c reg decl has g fuel (Cls x true) (Arg (Pointer b) (Cls x k) l) (Some s) = Gives (Cls x true) None /\
  call c reg decl has g fuel (Cls x false) (Arg (Pointer b) (Cls x k) l) (Some s) = Gives (Cls x k) (Some s).
Proof.
  intros c reg decl has g fuel x k l b s H. unfold call, pointer_call, internal_call, value.
  destruct b, k, l; cbn; rewrite H; cbn; unfold converts, constant, cls_eqb; cbn; rewrite ?Nat.eqb_refl; cbn; split; reflexivity.
Qed.
Print Assumptions C40_const_target_refuted.

(** 1 derives from 0 and declares its class info, 2 has none. Up from a pointer to const, down from a reference, a temporary, an
    unrelated class, and a const class asked for. *)
Example C40_overload_cases :
  let c := [[]; [(0, false)]; []] in let has := fun k => k <? 2 in
  let call := call c (fun _ => true) has has (registered c) 3 in
  let o := obj 1 [1] in let base := obj 1 [1; 0] in
  call (Cls 0 false) (Arg (Pointer false) (Cls 1 true) true) (Some o) = Gives (Cls 0 true) (Some base) /\
  call (Cls 1 false) (Arg Object (Cls 0 false) true) (Some base) = Refers (Cls 1 false) o /\
  call (Cls 1 false) (Arg Object (Cls 0 false) false) (Some base) = Refers (Cls 1 true) o /\
  call (Cls 2 false) (Arg Object (Cls 0 true) true) (Some base) = Throws /\
  call (Cls 1 true) (Arg (Pointer true) (Cls 0 false) true) (Some base) = Gives (Cls 1 true) (Some o) /\
  call (Cls 2 true) (Arg (Pointer false) (Cls 2 false) true) (Some (obj 2 [2])) = Gives (Cls 2 true) None.
Proof. repeat split. Qed.
