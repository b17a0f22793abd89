(** Property theorems C12 (continued): classes with waiting lazy definitions. *)
From Coq Require Import List Bool Arith String Ascii Lia.
From Verif Require Import Util RegistryModel ListsModel StringsModel StringsSpec StringsProofs.
From Verif Require Import ReflModel ReflSpec ReflProofs ReflExec ReflMono ReflTerm ReflMore ReflBuilder ReflDefer ReflCtors ReflWait ReflProps.
Import ListNotations.
Local Open Scope list_scope.

(** In any registry: defining a property of a class gives what looking it up gives, found in the class or above; if the
    look-up finds nothing, one new property is appended to the class, unless a lazy definition that the look-up ran has
    meanwhile defined it in the class: then that one is given. [w1] is the registry after the look-up. *)
Theorem C12_waiting_property : forall ok k n w o it nm inv w' r,
  reachable ok w -> get w o = Some it -> i_cat it = Class -> nm <> ""%string ->
  create_property (run k ok n) k w o nm inv = Ret w' r ->
  exists w1 r1, get_property (run k ok n) k w o nm = Ret w1 r1 /\
    match r1 with
    | Some x => r = Some x /\ w' = w1 /\ exists b, up w1 o b /\ owns w1 b Property nm x
    | None =>
        ((forall x, ~ owns w1 o Property nm x) /\ r = Some (List.length (w_items w1)) /\ appended w1 w' o Property nm 0 inv) \/
        (exists x w2, owns w1 o Property nm x /\ r = Some x /\ check (run k ok n) w1 o = Ret w2 tt /\ same w2 w')
    end.
Proof.
  intros ok k n w o it nm inv w' r HR Hg Hc Hn E. destruct (reachable_wf ok w HR) as [HW Hk].
  eapply create_property_waiting; eauto using run_ok. exists it. auto.
Qed.
Print Assumptions C12_waiting_property.

(** What the class itself has, once its own lazy definition has run, is given, and nothing else happens. *)
Theorem C12_waiting_own_property : forall ok k n w o it nm inv w' r w1 x,
  reachable ok w -> get w o = Some it -> i_cat it = Class -> nm <> ""%string ->
  check (run k ok n) w o = Ret w1 tt -> owns w1 o Property nm x ->
  create_property (run k ok n) k w o nm inv = Ret w' r -> r = Some x /\ same w1 w'.
Proof.
  intros ok k n w o it nm inv w' r w1 x HR Hg Hc Hn EC Hx E. destruct (reachable_wf ok w HR) as [HW Hk].
  eapply create_property_waiting; eauto using run_ok. exists it. auto.
Qed.
Print Assumptions C12_waiting_own_property.

Theorem C12_waiting_method : forall ok k n w o it nm args inv w' r,
  reachable ok w -> get w o = Some it -> i_cat it = Class ->
  create_method (run k ok n) k w o nm args inv = Ret w' r ->
  let sig := str (signature (txt nm) args) in
  exists w1 r1, get_method (run k ok n) k w o sig = Ret w1 r1 /\
    match r1 with
    | Some x => r = Some x /\ w' = w1 /\ exists b, up w1 o b /\ owns w1 b Method sig x
    | None =>
        ((forall x, ~ owns w1 o Method sig x) /\ r = Some (List.length (w_items w1)) /\ appended w1 w' o Method sig 0 inv) \/
        (exists x w2, owns w1 o Method sig x /\ r = Some x /\ check (run k ok n) w1 o = Ret w2 tt /\ same w2 w')
    end.
Proof.
  intros ok k n w o it nm args inv w' r HR Hg Hc E. destruct (reachable_wf ok w HR) as [HW Hk].
  eapply create_method_waiting; eauto using run_ok. exists it. auto.
Qed.
Print Assumptions C12_waiting_method.

Theorem C12_waiting_own_method : forall ok k n w o it nm args inv w' r w1 x,
  reachable ok w -> get w o = Some it -> i_cat it = Class ->
  check (run k ok n) w o = Ret w1 tt -> owns w1 o Method (str (signature (txt nm) args)) x ->
  create_method (run k ok n) k w o nm args inv = Ret w' r -> r = Some x /\ same w1 w'.
Proof.
  intros ok k n w o it nm args inv w' r w1 x HR Hg Hc EC Hx E. destruct (reachable_wf ok w HR) as [HW Hk].
  eapply create_method_waiting; eauto using run_ok. exists it. auto.
Qed.
Print Assumptions C12_waiting_own_method.

(** B's lazy definition defines "p" in B, and "q" in the derived class D (as item 4). Defining "p" in D then gives B's,
    defining "q" gives the one B's definition put into D, and "r" is new. *)
Example C12_waiting_example :
  let w := after [KClass "B" 1 false false false;
                  KLazy [KProperty "p" 7; KUse false [KClass "D" 2 false false false; KProperty "q" 8; KEnd]]; KEnd;
                  KClass "D" 2 false false false; KBase [(1, 0)]; KEnd] in
  let define (nm : string) := create_property (run 30 base_ok 30) 30 w 2 nm 9 in
  reachable base_ok w /\ ~ quiet w /\
  (exists w', define "p"%string = Ret w' (Some 3) /\ owns w' 1 Property "p" 3) /\
  (exists w', define "q"%string = Ret w' (Some 4) /\ owns w' 2 Property "q" 4 /\ option_map i_inv (get w' 4) = Some 8) /\
  (exists w', define "r"%string = Ret w' (Some 5) /\ owns w' 2 Property "r" 5).
Proof.
  cbn zeta. split; [apply after_reachable|]. split; [|split; [|split]].
  - intro H. specialize (H 1 _ eq_refl). vm_compute in H. destruct H; discriminate.
  - eexists. split; [vm_compute; reflexivity|]. exists 0. eexists. vm_compute. repeat split.
  - eexists. split; [vm_compute; reflexivity|]. split; [exists 0; eexists; vm_compute; repeat split|vm_compute; reflexivity].
  - eexists. split; [vm_compute; reflexivity|]. exists 1. eexists. vm_compute. repeat split.
Qed.
