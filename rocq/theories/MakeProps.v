(** C61: objects made and ended through their type. *)
From Coq Require Import NArith List Bool Arith Lia.
From Verif Require Import TypesModel TypesSpec MakeModel MakeSpec MakeProofs MakeRun.
Import ListNotations.

(** A rule of C++: a type whose default constructor is trivial has a trivial destructor. *)
Definition lawful (cls : base -> traits) : Prop := forall b, trivial_default (cls b) = true -> trivial_destroy (cls b) = true.

(** A careful client never meets undefined behaviour; what its calls answer and what its objects hold is what is
    expected of objects, whichever constructors throw. *)
Theorem C61_objects : forall cls m throwing, lawful cls -> careful cls [] m ->
  exists held l s w, run cls m [] (State [] throwing []) = Some (held, l, s) /\ acts_all cls [] l w /\ mirrors w held (heap s).
Proof.
  intros cls m throwing T C. destruct (run_careful cls T m [] [] _ 0 [] (rep_start cls throwing) eq_refl C) as (held & l & s & w & E & A & R).
  exists held, l, s, w. split; [exact E|]. split; [exact A|exact (rep_mirrors _ _ _ _ _ _ R)].
Qed.

Lemma mirrors_holding w held h : mirrors w held h -> alive w = holding held.
Proof.
  intros [M1 M2 M3 _]. revert w M1 M2 M3. induction held as [|o held IH]; intros [|a w] M1 M2 M3; try discriminate M1; [reflexivity|].
  assert (E : alive w = holding held).
  { apply IH; [injection M1; auto|intros x H; exact (M2 (S x) H)|intros x u cs H; exact (M3 (S x) u cs H)]. }
  destruct a as [[u cs]|].
  - destruct (M3 0 u cs eq_refl) as (p & b & H & _). injection H as ->. cbn. lia.
  - specialize (M2 0 eq_refl). injection M2 as ->. cbn. exact E.
Qed.

(** The storage in use is that of the objects the client holds, and one piece for each call that threw. *)
Theorem C61_storage : forall cls m throwing held l s, lawful cls -> careful cls [] m ->
  run cls m [] (State [] throwing []) = Some (held, l, s) -> in_use (heap s) = holding held + thrown l.
Proof.
  intros cls m throwing held l s T C Er.
  destruct (run_careful cls T m [] [] _ 0 [] (rep_start cls throwing) eq_refl C) as (held' & l' & s' & w & E & A & R).
  rewrite E in Er. injection Er as <- <- <-. rewrite (rep_use _ _ _ _ _ _ R), (mirrors_holding _ _ _ (rep_mirrors _ _ _ _ _ _ R)). reflexivity.
Qed.

(** Storage is given out and freed once, objects are built and ended once, in storage that is there, and all of an object
    is ended before its storage is freed. *)
Theorem C61_orderly : forall cls m throwing held l s, lawful cls -> careful cls [] m ->
  run cls m [] (State [] throwing []) = Some (held, l, s) -> orderly cls (asked l) (log s).
Proof.
  intros cls m throwing held l s T C Er.
  destruct (run_careful cls T m [] [] _ 0 [] (rep_start cls throwing) eq_refl C) as (held' & l' & s' & w & E & A & R).
  rewrite E in Er. injection Er as <- <- <-. exact (rep_log _ _ _ _ _ _ R).
Qed.

(** When nothing threw and the client has ended all objects, all storage was freed and what needs it was ended. *)
Theorem C61_all_ended : forall cls m throwing held l s, lawful cls -> careful cls [] m ->
  run cls m [] (State [] throwing []) = Some (held, l, s) -> thrown l = 0 -> (forall x, In x held -> x = None) ->
  forall p, In (Allocated p) (log s) ->
    In (Freed p) (log s) /\ forall i, needs_end cls (asked l) p -> In (Built p i) (log s) -> In (Ended p i) (log s).
Proof.
  intros cls m throwing held l s T C Er Th Hn p Hp.
  pose proof (C61_storage _ _ _ _ _ _ T C Er) as Us.
  destruct (run_careful cls T m [] [] _ 0 [] (rep_start cls throwing) eq_refl C) as (held' & l' & s' & w & E & A & R).
  rewrite E in Er. injection Er as -> -> ->.
  assert (Z : holding held = 0).
  { clear - Hn. induction held as [|o held IH]; [reflexivity|]. rewrite (Hn o (or_introl eq_refl)). apply IH. intros x H. apply Hn. right. exact H. }
  rewrite Z, Th in Us. cbn in Us.
  assert (N : nth_error (heap s) p = Some None).
  { assert (L : p < length (heap s)) by (rewrite (rep_heap _ _ _ _ _ _ R); exact (rep_bound _ _ _ _ _ _ R _ Hp)).
    clear - L Us. revert p L. induction (heap s) as [|[b|] h IH]; intros [|p] L; cbn in *; try lia; [reflexivity|]. apply IH; [exact Us|lia]. }
  pose proof (rep_freed _ _ _ _ _ _ R p N) as F. split; [exact F|]. intros i Ne B.
  destruct (rep_log _ _ _ _ _ _ R) as [O1 O2]. destruct (in_split _ _ F) as (l1 & l2 & El).
  destruct (O2 _ _ _ El) as [_ G]. rewrite El in B. apply in_app_or in B. destruct B as [B|[B|B]]; [|discriminate B|].
  - rewrite El. apply in_or_app. left. exact (G i Ne B).
  - exfalso. apply in_split in B. destruct B as (l3 & l4 & ->).
    destruct (O2 (l1 ++ Freed p :: l3) (Built p i) l4) as (_ & _ & X); [rewrite El, <- app_assoc; reflexivity|].
    apply X. apply in_or_app. right. left. reflexivity.
Qed.

(** It does not matter how the type is qualified, and whether it is a reference. *)
Theorem C61_qualifiers : forall cls q q', similar (q_ty q) (q_ty q') ->
  (forall copy movable s, construct cls q copy movable s = construct cls q' copy movable s) /\
  (forall p s, destruct_ cls q p s = destruct_ cls q' p s).
Proof.
  intros cls q q' S. assert (E : managed q = managed q').
  { pose proof (similar_same _ _ S) as E. unfold managed. rewrite E. inversion S; reflexivity. }
  split; intros; unfold construct, destruct_; rewrite E; reflexivity.
Qed.

(** *** Types for the cases below *)

Definition a_class (id : nat) : base := Build_base KClass id 8 0.
Definition int_ : base := Build_base KIntegral 0 4 0.
Definition of (b : base) : qty := mkQ RNone (TBase false false b).
Definition of_const (b : base) : qty := mkQ RL (TBase true false b).
Definition three (b : base) : qty := mkQ RNone (TArr (TBase false false b) 3).

(** 1: like std::string; its default constructor may throw, for the sake of the example. 2: no default constructor.
    3: over-aligned. Others: like int. *)
Definition some_types (b : base) : traits :=
  match b_id b with
  | 1 => Traits true false false true false true true true false false false 7
  | 2 => Traits false false false true true true true false false false false 0
  | 3 => Traits true false true true true true true false false false true 0
  | _ => pointer_traits
  end.

Lemma some_lawful : lawful some_types.
Proof. intros b. unfold some_types. destruct (b_id b) as [|[|[|[|n]]]]; cbn; auto; discriminate. Qed.

Lemma consists_of (b : base) n r : consists some_types (TBase false false b) n r -> r = some_types b.
Proof. inversion 1; reflexivity. Qed.

(** *** What does not hold *)

(** The storage in use is not always that of the objects the client holds: construct of a type that cannot be default
    constructed, or whose constructor throws, keeps the storage it has allocated. *)
Theorem C61_leak_refuted : exists cls m throwing held l s, lawful cls /\ careful cls [] m /\
  run cls m [] (State [] throwing []) = Some (held, l, s) /\ holding held = 0 /\ in_use (heap s) = 2 /\
  l = [(Make (of (a_class 2)), Threw); (Make (of (a_class 1)), Threw)].
Proof.
  exists some_types, (Then (Make (of (a_class 2))) (fun _ => Then (Make (of (a_class 1))) (fun _ => Stop))), [true].
  eexists _, _, _. split; [exact some_lawful|]. split; [|split; [vm_compute; reflexivity|split; [reflexivity|split; reflexivity]]].
  assert (P : forall i, i <= 2 -> proper some_types (of (a_class i))).
  { intros i Hi. split; [intros c v b E; injection E as _ _ <-; discriminate|]. intros n r H. apply consists_of in H. subst r.
    destruct i as [|[|[|i]]]; [reflexivity..|lia]. }
  split; [apply P; lia|]. intros a w _. split; [apply P; lia|]. intros a' w' _. exact I.
Qed.

(** The elements of an array that were built before a constructor threw are never ended. *)
Theorem C61_array_throws_refuted : exists cls m throwing held l s p i, lawful cls /\ careful cls [] m /\
  run cls m [] (State [] throwing []) = Some (held, l, s) /\ holding held = 0 /\
  needs_end cls (asked l) p /\ In (Built p i) (log s) /\ ~ In (Ended p i) (log s).
Proof.
  exists some_types, (Then (Make (three (a_class 1))) (fun _ => Stop)), [false; true].
  eexists _, _, _, 0, 0. split; [exact some_lawful|]. split; [|split; [vm_compute; reflexivity|]].
  - split; [|intros a w _; exact I]. split; [intros c v b E; discriminate E|]. intros n r H. inversion H; subst. 
    match goal with X : consists _ (TBase _ _ _) _ _ |- _ => apply consists_of in X; subst end. reflexivity.
  - split; [reflexivity|]. split.
    + exists (three (a_class 1)), 3, (some_types (a_class 1)). split; [reflexivity|]. split; [|reflexivity].
      apply (consists_arr some_types (TBase false false (a_class 1)) 3 1 (some_types (a_class 1))). constructor.
    + cbn. intuition discriminate.
Qed.

(** construct of int does not give what new int() gives: the value is indeterminate, and copying it is undefined. *)
Theorem C61_value_refuted : exists cls q s p s', lawful cls /\ proper cls q /\ construct cls q None false s = Ok (Some p) s' /\
  block s' p = Some [Loose] /\ construct cls q (Some p) false s' = UB.
Proof.
  exists some_types, (of int_), (State [] [] []), 0. eexists. split; [exact some_lawful|]. split.
  - split; [intros c v b E; injection E as _ _ <-; discriminate|]. intros n r H. apply consists_of in H. subst r. reflexivity.
  - split; [vm_compute; reflexivity|]. split; reflexivity.
Qed.

(** An over-aligned class gets storage that is not aligned for it. *)
Theorem C61_aligned_refuted : exists cls q s, lawful cls /\ (forall n r, consists cls (q_ty q) n r -> has_default r = true) /\
  construct cls q None false s = UB.
Proof.
  exists some_types, (of (a_class 3)), (State [] [] []). split; [exact some_lawful|]. split; [|reflexivity].
  intros n r H. apply consists_of in H. subst r. reflexivity.
Qed.

(** Copying an array of a class assigns to objects that are not there. *)
Theorem C61_array_copy_refuted : exists cls q s p s', lawful cls /\ proper cls q /\
  construct cls q None false s = Ok (Some p) s' /\ (forall n r, consists cls (q_ty q) n r -> has_copy r = true) /\
  construct cls q (Some p) false s' = UB.
Proof.
  exists some_types, (three (a_class 1)), (State [] [] []), 0. eexists. split; [exact some_lawful|].
  assert (H : forall n r, consists some_types (q_ty (three (a_class 1))) n r -> r = some_types (a_class 1)).
  { intros n r H. inversion H; subst. match goal with X : consists _ (TBase _ _ _) _ _ |- _ => apply consists_of in X; exact X end. }
  split; [split; [intros c v b E; discriminate E|intros n r X; apply H in X; subst r; reflexivity]|].
  split; [vm_compute; reflexivity|]. split; [intros n r X; apply H in X; subst r; reflexivity|reflexivity].
Qed.

(** *** Cases *)

(** A string is made, copied as const string&, moved from, and all are ended; if the first cannot be made, nothing more. *)
Definition strings : client :=
  Then (Make (of (a_class 1))) (fun a => match a with
    | Made => Then (Copy (of_const (a_class 1)) 0) (fun a => match a with
        | Made => Then (Move (of (a_class 1)) 0) (fun _ =>
                  Then (End_ (of_const (a_class 1)) 0) (fun _ => Then (End_ (of (a_class 1)) 1) (fun _ => Then (End_ (of (a_class 1)) 2) (fun _ => Stop))))
        | _ => Then (End_ (of (a_class 1)) 0) (fun _ => Stop)
        end)
    | _ => Stop
    end).

Lemma proper_1 q : similar (TBase false false (a_class 1)) (q_ty q) -> proper some_types q.
Proof.
  intro H. inversion H; subst. split.
  - intros c2 v2 b2 E. rewrite E in *. match goal with X : TBase _ _ _ = TBase _ _ _ |- _ => injection X as _ _ <- end. discriminate.
  - intros n r X. match goal with Y : TBase _ _ _ = q_ty q |- _ => rewrite <- Y in X end. inversion X; subst. reflexivity.
Qed.

Lemma class_1 q n r : similar (TBase false false (a_class 1)) (q_ty q) -> consists some_types (q_ty q) n r ->
  n = 1 /\ r = some_types (a_class 1) /\ ~ array q.
Proof.
  intros H X. inversion H; subst. match goal with Y : TBase _ _ _ = q_ty q |- _ => rewrite <- Y in X; rename Y into E end.
  inversion X; subst. repeat split. intros (t & k & A). congruence.
Qed.

Local Ltac sim := first [apply sim_base | cbn; apply sim_base].
Local Ltac cls1 := match goal with
  | X : consists some_types (q_ty ?q) _ _ |- _ => apply (class_1 q) in X; [destruct X as (-> & -> & ?)|sim]
  end.

Example C61_strings_careful : careful some_types [] strings.
Proof.
  split; [apply proper_1; sim|]. intros a w H. inversion H as [q n r X D|q n r X D| | | | | | | |]; subst; cls1; [|exact I].
  assert (NU : ~ In Unset [Value 7]) by (intros [E|[]]; discriminate E). cbn.
  split; [split; [apply proper_1; sim|]; exists [Value 7]; split; [exists (TBase false false (a_class 1)); split; [reflexivity|sim]|]; split; [exact NU|];
    intros n r [t [k A]]; discriminate A|].
  clear D. intros a w H2. inversion H2 as [| |q x u cs n r E X D|q x n r X D| | | | | |]; subst; cls1; cbn.
  - injection E as <- <-.
    split; [split; [apply proper_1; sim|]; exists [Value 7]; split; [exists (TBase false false (a_class 1)); split; [reflexivity|sim]|]; split; [exact NU|];
      intros n r [t [k A]]; discriminate A|].
    clear D. intros a w H3.
    inversion H3 as [| | | |q x u cs n r E X D St|q x u cs n r E X D St NA|q x u cs n r E X D D'|q x n r X D| |]; subst; cls1.
    + destruct St as [St|St]; [discriminate St|contradiction].
    + injection E as <- <-. cbn. split; [right; split; [apply proper_1; sim|]; eexists _, _; split; [reflexivity|sim]|].
      intros a w K4. inversion K4 as [| | | | | | | |q x u cs E'|q x E']; subst; [|discriminate E']. injection E' as <- <-. cbn.
      split; [right; split; [apply proper_1; sim|]; eexists _, _; split; [reflexivity|sim]|].
      intros a w K5. inversion K5 as [| | | | | | | |q x u cs E'|q x E']; subst; [|discriminate E']. injection E' as <- <-. cbn.
      split; [right; split; [apply proper_1; sim|]; eexists _, _; split; [reflexivity|sim]|]. intros; exact I.
    + discriminate D.
    + destruct D as [[D _]|[(_ & _ & D)|(_ & D & _)]]; discriminate D.
  - split; [|intros; exact I]. right. split; [apply proper_1; sim|]. eexists _, _. split; [reflexivity|sim].
Qed.

(** The hypotheses of C61_objects, C61_storage, C61_orderly and C61_all_ended; and what happens, when nothing throws and
    when the copy does. *)
Example C61_strings_run : exists held s, run some_types strings [] (State [] [] []) =
    Some (held, [(Make (of (a_class 1)), Made); (Copy (of_const (a_class 1)) 0, Made); (Move (of (a_class 1)) 0, Made);
                 (End_ (of_const (a_class 1)) 0, Done); (End_ (of (a_class 1)) 1, Done); (End_ (of (a_class 1)) 2, Done)], s)
  /\ holding held = 0 /\ in_use (heap s) = 0
  /\ log s = [Allocated 0; Built 0 0; Allocated 1; Built 1 0; Allocated 2; Built 2 0; Ended 0 0; Freed 0; Ended 1 0; Freed 1; Ended 2 0; Freed 2].
Proof. eexists _, _. split; [vm_compute; reflexivity|]. repeat split. Qed.

Example C61_strings_throw : exists held s, run some_types strings [] (State [] [false; true] []) =
    Some (held, [(Make (of (a_class 1)), Made); (Copy (of_const (a_class 1)) 0, Threw); (End_ (of (a_class 1)) 0, Done)], s)
  /\ holding held = 0 /\ in_use (heap s) = 1.
Proof. eexists _, _. split; [vm_compute; reflexivity|]. repeat split. Qed.

(** The second string is moved from. *)
Example C61_strings_moved : exists held l s, run some_types
    (Then (Make (of (a_class 1))) (fun _ => Then (Move (of_const (a_class 1)) 0) (fun _ => Stop))) [] (State [] [] []) = Some (held, l, s)
  /\ heap s = [Some [Hollow]; Some [Val 7]].
Proof. eexists _, _, _. split; [vm_compute; reflexivity|reflexivity]. Qed.

(** The hypotheses of C61_qualifiers: int const* volatile& and int*. *)
Example C61_qualifiers_case : similar (q_ty (mkQ RL (TPtr false true (TBase true false int_)))) (q_ty (mkQ RNone (TPtr false false (TBase false false int_)))).
Proof. repeat constructor. Qed.

(** Not every world is mirrored. *)
Example C61_not_mirrored : ~ mirrors [Some (TBase false false int_, [Value 1])] [Some 0] [Some [Val 2]].
Proof. intros [_ _ M _]. destruct (M 0 _ _ eq_refl) as (p & b & [= <-] & [= <-] & F). inversion F as [|? ? ? ? S]. discriminate S. Qed.

Print Assumptions C61_objects.
Print Assumptions C61_storage.
Print Assumptions C61_orderly.
Print Assumptions C61_all_ended.
Print Assumptions C61_qualifiers.
Print Assumptions C61_leak_refuted.
Print Assumptions C61_array_throws_refuted.
Print Assumptions C61_value_refuted.
Print Assumptions C61_aligned_refuted.
Print Assumptions C61_array_copy_refuted.
