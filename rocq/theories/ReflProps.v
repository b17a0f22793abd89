(** Property theorems C12, C13, C16, C18, C19, C31, C41, C43, C44. *)
From Coq Require Import List Bool Arith String Ascii Lia.
From Verif Require Import Util RegistryModel ListsModel StringsModel StringsSpec StringsProofs.
From Verif Require Import ReflModel ReflSpec ReflProofs ReflExec ReflMono ReflTerm ReflMore ReflBuilder ReflDefer ReflCtors.
Import ListNotations.
Local Open Scope list_scope.

(** Concrete registries for the examples: type [b] can be a base of [t] if its number is smaller. *)
Definition base_ok (t b : nat) : bool := b <? t.
Definition then_ (w : world) (p : prog) : world :=
  match run 30 base_ok 30 w 0 p with Ret w' _ | Throw _ w' => w' | _ => w end.
Definition after (p : prog) : world := then_ world0 p.
Lemma then_reachable w p : reachable base_ok w -> reachable base_ok (then_ w p).
Proof.
  intro H. unfold then_. destruct (reachable_wf base_ok w H) as [HW _]. destruct (wf_global _ _ _ _ HW) as (it & Hg & Hc & _).
  destruct (run 30 base_ok 30 w 0 p) as [w1 x|e w1| | | |] eqn:E; try exact H;
    (eapply RRun; [exact H|exact Hg|rewrite Hc; reflexivity|rewrite E; reflexivity]).
Qed.
Lemma after_reachable p : reachable base_ok (after p).
Proof. apply then_reachable. constructor. Qed.

(** ** C12 *)

(** [check] first runs the deferred definition of the owner, if one is waiting. Then: the container's item of
    that name, and nothing changes; or one item is appended and nothing else changes. *)
Theorem C12_namespace : forall ok k n w o it nm w' r,
  reachable ok w -> get w o = Some it -> is_container (i_cat it) = true -> nm <> ""%string ->
  create_namespace (run k ok n) w o nm = Ret w' r ->
  exists w1, check (run k ok n) w o = Ret w1 tt /\
    ((exists x, owns w1 o Namespace nm x /\ r = Some x /\ same w1 w') \/
     ((forall x, ~ owns w1 o Namespace nm x) /\ r = Some (List.length (w_items w1)) /\ appended w1 w' o Namespace nm 0 0)).
Proof.
  intros ok k n w o it nm w' r HR Hg Hc Hn E. destruct (reachable_wf ok w HR) as [HW Hk].
  eapply create_own; eauto using run_ok; [discriminate|exists it; auto].
Qed.
Print Assumptions C12_namespace.

Theorem C12_enum : forall ok k n w o it nm t w' r,
  reachable ok w -> get w o = Some it -> is_container (i_cat it) = true -> nm <> ""%string ->
  create_enum (run k ok n) w o nm t = Ret w' r ->
  exists w1, check (run k ok n) w o = Ret w1 tt /\
    ((exists x, owns w1 o Enum nm x /\ r = Some x /\ same w1 w') \/
     ((forall x, ~ owns w1 o Enum nm x) /\ r = Some (List.length (w_items w1)) /\ appended w1 w' o Enum nm t 0)).
Proof.
  intros ok k n w o it nm t w' r HR Hg Hc Hn E. destruct (reachable_wf ok w HR) as [HW Hk].
  eapply create_own; eauto using run_ok; [discriminate|exists it; auto].
Qed.
Print Assumptions C12_enum.

(** Constructors with own parameters are identified by their whole signature. *)
Theorem C12_constructor : forall ok k n w o it nm args inv w' r,
  reachable ok w -> get w o = Some it -> is_container (i_cat it) = true ->
  create_ctor (run k ok n) w o nm (AOther args) inv = Ret w' r ->
  let sig := str (signature (txt (if (nm =? "")%string then "constructor" else nm)) args) in
  exists w1, check (run k ok n) w o = Ret w1 tt /\
    ((exists x, owns w1 o Constructor sig x /\ r = Some x /\ same w1 w') \/
     ((forall x, ~ owns w1 o Constructor sig x) /\ r = Some (List.length (w_items w1)) /\ appended w1 w' o Constructor sig 0 inv)).
Proof.
  intros ok k n w o it nm args inv w' r HR Hg Hc E sig. destruct (reachable_wf ok w HR) as [HW Hk].
  assert (Ho : cont w o) by (exists it; auto). unfold create_ctor in E. cbn [ctor_signature] in E. fold sig in E.
  destruct (create_by_method ok (run k ok n) (run_ok ok k n) Constructor sig 0 inv w o w' r) as (w1 & Hch & H); try assumption; [discriminate|].
  exists w1. split; [exact Hch|]. destruct (check_inv ok (run k ok n) (run_ok ok k n) w o w1 HW Hk Ho Hch) as (HW1 & _ & (ow & Hg1 & _) & _).
  assert (HQ : forall x, answering w1 o Constructor (txt sig) x <-> owns w1 o Constructor sig x).
  { intro x. unfold sig. rewrite txt_str. apply (answering_sig ok w1 o ow Constructor _ _ x HW1 Hg1). }
  destruct H as [(x & Hx & Hr)|(Hx & Hr)]; [left; exists x; split; [apply HQ; exact Hx|exact Hr]|right].
  split; [intros x H; apply (Hx x); apply HQ; exact H|exact Hr].
Qed.
Print Assumptions C12_constructor.

(** The default, copy and move constructors have one name each, whatever name is passed. *)
Theorem C12_fixed_constructor : forall ok k n w o it nm args sig inv w' r,
  reachable ok w -> get w o = Some it -> is_container (i_cat it) = true ->
  In (args, sig) [(A0, "d_constructor"); (ASelf false, "c_constructor"); (ASelf true, "m_constructor")]%string ->
  create_ctor (run k ok n) w o nm args inv = Ret w' r ->
  exists w1, check (run k ok n) w o = Ret w1 tt /\
    ((exists x, answering w1 o Constructor (txt sig) x /\ r = Some x /\ same w1 w') \/
     ((forall x, ~ answering w1 o Constructor (txt sig) x) /\ r = Some (List.length (w_items w1)) /\ appended w1 w' o Constructor sig 0 inv)).
Proof.
  intros ok k n w o it nm args sig inv w' r HR Hg Hc HI E. destruct (reachable_wf ok w HR) as [HW Hk].
  assert (Ho : cont w o) by (exists it; auto). unfold create_ctor in E.
  assert (ES : forall s, ctor_signature s args = sig) by (intro s; destruct HI as [[= <- <-]|[[= <- <-]|[[= <- <-]|[]]]]; reflexivity).
  rewrite ES in E. eapply create_by_method; eauto using run_ok. discriminate.
Qed.
Print Assumptions C12_fixed_constructor.

(** Methods and properties of namespaces. *)
Theorem C12_namespace_method : forall ok k n w o it nm args inv w' r,
  reachable ok w -> get w o = Some it -> i_cat it = Namespace ->
  create_method (run k ok n) k w o nm args inv = Ret w' r ->
  let sig := str (signature (txt nm) args) in
  exists w1, check (run k ok n) w o = Ret w1 tt /\
    ((exists x, owns w1 o Method sig x /\ r = Some x /\ same w1 w') \/
     ((forall x, ~ owns w1 o Method sig x) /\ r = Some (List.length (w_items w1)) /\ appended w1 w' o Method sig 0 inv)).
Proof. exact create_method_ns. Qed.
Print Assumptions C12_namespace_method.

Theorem C12_namespace_property : forall ok k n w o it nm inv w' r,
  reachable ok w -> get w o = Some it -> i_cat it = Namespace -> nm <> ""%string ->
  create_property (run k ok n) k w o nm inv = Ret w' r ->
  exists w1, check (run k ok n) w o = Ret w1 tt /\
    ((exists x, owns w1 o Property nm x /\ r = Some x /\ same w1 w') \/
     ((forall x, ~ owns w1 o Property nm x) /\ r = Some (List.length (w_items w1)) /\ appended w1 w' o Property nm 0 inv)).
Proof. exact create_property_ns. Qed.
Print Assumptions C12_namespace_property.

(** On classes, also those of the base classes count (see C18); stated when no deferred definition is waiting
    anywhere. *)
Theorem C12_class_property : forall ok k n w o it nm inv w' r,
  reachable ok w -> quiet w -> get w o = Some it -> i_cat it = Class -> nm <> ""%string ->
  create_property (run k ok n) k w o nm inv = Ret w' r ->
  (exists b x, up w o b /\ owns w b Property nm x /\ (b = o \/ forall y, ~ owns w o Property nm y) /\ r = Some x /\ same w w') \/
  ((forall b x, up w o b -> ~ owns w b Property nm x) /\ r = Some (List.length (w_items w)) /\ appended w w' o Property nm 0 inv).
Proof.
  intros ok k n w o it nm inv w' r HR HQ Hg Hc Hn E. destruct (reachable_wf ok w HR) as [HW Hk].
  eapply create_property_quiet; eauto. exists it. auto.
Qed.
Print Assumptions C12_class_property.

Theorem C12_class_method : forall ok k n w o it nm args inv w' r,
  reachable ok w -> quiet w -> get w o = Some it -> i_cat it = Class ->
  create_method (run k ok n) k w o nm args inv = Ret w' r ->
  let sig := str (signature (txt nm) args) in
  (exists b x, up w o b /\ owns w b Method sig x /\ (b = o \/ forall y, ~ owns w o Method sig y) /\ r = Some x /\ same w w') \/
  ((forall b x, up w o b -> ~ owns w b Method sig x) /\ r = Some (List.length (w_items w)) /\ appended w w' o Method sig 0 inv).
Proof.
  intros ok k n w o it nm args inv w' r HR HQ Hg Hc E. destruct (reachable_wf ok w HR) as [HW Hk].
  eapply create_method_quiet; eauto. exists it. auto.
Qed.
Print Assumptions C12_class_method.

(** Hence the same definition a second time gives the same item and changes nothing. *)
Theorem C12_namespace_again : forall ok k n w o it nm w' x,
  reachable ok w -> get w o = Some it -> is_container (i_cat it) = true -> nm <> ""%string ->
  create_namespace (run k ok n) w o nm = Ret w' (Some x) ->
  exists w'', create_namespace (run k ok n) w' o nm = Ret w'' (Some x) /\ same w' w''.
Proof. intros. eapply create_item_again; eauto. discriminate. Qed.
Print Assumptions C12_namespace_again.
Theorem C12_enum_again : forall ok k n w o it nm t w' x,
  reachable ok w -> get w o = Some it -> is_container (i_cat it) = true -> nm <> ""%string ->
  create_enum (run k ok n) w o nm t = Ret w' (Some x) ->
  exists w'', create_enum (run k ok n) w' o nm t = Ret w'' (Some x) /\ same w' w''.
Proof. intros. eapply create_item_again; eauto. discriminate. Qed.
Print Assumptions C12_enum_again.
(** ... for every kind of constructor, also the ones with fixed names. *)
Theorem C12_constructor_again : forall ok k n w o it nm args inv w' x,
  reachable ok w -> get w o = Some it -> is_container (i_cat it) = true ->
  create_ctor (run k ok n) w o nm args inv = Ret w' (Some x) ->
  exists w'', create_ctor (run k ok n) w' o nm args inv = Ret w'' (Some x) /\ same w' w''.
Proof. intros. eapply create_method_again; eauto. discriminate. Qed.
Print Assumptions C12_constructor_again.
Theorem C12_class_property_again : forall ok k n w o it nm inv w' x,
  reachable ok w -> quiet w -> get w o = Some it -> i_cat it = Class -> nm <> ""%string ->
  create_property (run k ok n) k w o nm inv = Ret w' (Some x) -> owns w' o Property nm x ->
  exists w'', create_property (run k ok n) k w' o nm inv = Ret w'' (Some x) /\ same w' w''.
Proof. exact create_property_again. Qed.
Print Assumptions C12_class_property_again.

(** A second definition with another invoker is dropped without notice. *)
Example C12_example :
  let w := after [KNamespace "n"; KEnd; KProperty "p" 1; KProperty "p" 2; KNamespace "n"; KProperty "q" 3] in
  reachable base_ok w /\ owns w 0 Namespace "n" 1 /\ owns w 0 Property "p" 2 /\ owns w 1 Property "q" 3 /\
  List.length (w_items w) = 4 /\ option_map i_inv (get w 2) = Some 1.
Proof.
  cbn zeta. split; [apply after_reachable|]. split; [exists 0; eexists; vm_compute; repeat split|].
  split; [exists 0; eexists; vm_compute; repeat split|]. split; [exists 0; eexists; vm_compute; repeat split|]. vm_compute. auto.
Qed.
Example C12_example_again :
  let w := after [KNamespace "n"; KEnd; KProperty "p" 1] in
  (exists w' r, create_namespace (run 30 base_ok 30) w 0 "n" = Ret w' r /\ r = Some 1 /\ w_items w' = w_items w) /\
  (exists w' r, create_namespace (run 30 base_ok 30) w 0 "m" = Ret w' r /\ r = Some 3 /\ List.length (w_items w') = 4) /\
  (exists w' r, create_method (run 30 base_ok 30) 30 w 0 "f" [txt "int"] 5 = Ret w' r /\ r = Some 3 /\ owns w' 0 Method "f(int)" 3).
Proof.
  cbn zeta. split; [|split]; eexists; eexists; (split; [vm_compute; reflexivity|]); (split; [reflexivity|]); try reflexivity.
  exists 0. eexists. vm_compute. repeat split.
Qed.
(** A class whose base has the property; and one that has it itself. *)
Example C12_example_class :
  let w := after [KClass "B" 1 false false false; KProperty "p" 7; KEnd; KClass "D" 2 false false false; KBase [(1, 0)]; KEnd] in
  reachable base_ok w /\ quiet w /\ up w 3 1 /\
  (exists w', create_property (run 30 base_ok 30) 30 w 3 "p" 8 = Ret w' (Some 2) /\ w_items w' = w_items w) /\
  (exists w', create_property (run 30 base_ok 30) 30 w 3 "q" 8 = Ret w' (Some 4) /\ owns w' 3 Property "q" 4).
Proof.
  cbn zeta. split; [apply after_reachable|]. split; [|split; [|split]].
  - intros a it. do 4 (destruct a as [|a]; [vm_compute; intros [= <-]; left; reflexivity|]). intro H. apply nth_error_In in H as H'.
    exfalso. apply get_lt in H. vm_compute in H. lia.
  - eapply up_step with (t := 1) (f := 0) (b := 1); [vm_compute; reflexivity|left; reflexivity|vm_compute; reflexivity|constructor].
  - eexists. split; vm_compute; reflexivity.
  - eexists. split; [vm_compute; reflexivity|]. exists 0. eexists. vm_compute. repeat split.
Qed.

(** The claim needs the non-empty name: the second namespace without a name gives null. *)
Theorem C12_empty_name_refuted : exists w w' r, reachable base_ok w /\
  owns w 0 Namespace ""%string 1 /\ create_namespace (run 30 base_ok 30) w 0 ""%string = Ret w' r /\ r = None.
Proof.
  exists (after [KNamespace ""]). eexists. eexists. split; [apply after_reachable|].
  split; [exists 0; eexists; vm_compute; repeat split|]. split; [vm_compute; reflexivity|reflexivity].
Qed.
Print Assumptions C12_empty_name_refuted.

(** ** C13 *)

Theorem C13_find_describes : forall ok w t a, reachable ok w -> class_of w t = Some a ->
  exists it, get w a = Some it /\ i_cat it = Class /\ i_type it = t.
Proof. intros ok w t a HR H. destruct (reachable_wf ok w HR) as [HW _]. exact (wf_class1 _ _ _ w HW t a H). Qed.
Print Assumptions C13_find_describes.

(** Every class is the one found for its type, so no two classes have one type. *)
Theorem C13_class_is_found : forall ok w a it, reachable ok w -> get w a = Some it -> i_cat it = Class ->
  class_of w (i_type it) = Some a.
Proof. intros ok w a it HR. destruct (reachable_wf ok w HR) as [HW _]. exact (wf_class2 _ _ _ w HW a it). Qed.
Print Assumptions C13_class_is_found.
Theorem C13_one_class_per_type : forall ok w a b it bt, reachable ok w -> get w a = Some it -> get w b = Some bt ->
  i_cat it = Class -> i_cat bt = Class -> i_type it = i_type bt -> a = b.
Proof.
  intros ok w a b it bt HR Ha Hb Hca Hcb E. pose proof (C13_class_is_found ok w a it HR Ha Hca) as H1.
  pose proof (C13_class_is_found ok w b bt HR Hb Hcb) as H2. congruence.
Qed.
Print Assumptions C13_one_class_per_type.

(** A type that has a class already cannot be registered under a name that is free in [o]. *)
Theorem C13_second_registration_throws : forall ok k n w o it nm t z w1,
  reachable ok w -> get w o = Some it -> is_container (i_cat it) = true -> nm <> ""%string ->
  check (run k ok n) w o = Ret w1 tt -> class_of w1 t = Some z -> (forall x, ~ owns w1 o Class nm x) ->
  exists w2, create_class (run k ok n) w o nm t = Throw Duplicate w2 /\ same w1 w2.
Proof.
  intros ok k n w o it nm t z w1 HR Hg Hc Hn Hch Ht Hno. destruct (reachable_wf ok w HR) as [HW Hk].
  assert (Ho : cont w o) by (exists it; auto).
  destruct (check_inv ok (run k ok n) (run_ok ok k n) w o w1 HW Hk Ho Hch) as (HW1 & _ & (ow & Hg1 & _) & _).
  exists (touch w1 (o, LList Class)). split; [|apply same_touch]. unfold create_class, get_item. rewrite Hch. cbn [bind].
  unfold list_of. rewrite Hg1. destruct (ml_find (i_list ow Class) nm) as [x|] eqn:E.
  - exfalso. apply (Hno x). apply (find_owns ok w1 o ow Class nm x HW1 Hg1 Hn). exact E.
  - change (class_of (touch w1 (o, LList Class)) t) with (class_of w1 t). rewrite Ht. reflexivity.
Qed.
Print Assumptions C13_second_registration_throws.

(** What registering does otherwise. *)
Theorem C13_registration : forall ok k n w o it nm t w' r,
  reachable ok w -> get w o = Some it -> is_container (i_cat it) = true -> nm <> ""%string ->
  create_class (run k ok n) w o nm t = Ret w' r ->
  exists w1, check (run k ok n) w o = Ret w1 tt /\
    ((exists x, owns w1 o Class nm x /\ r = Some x /\ same w1 w') \/
     ((forall x, ~ owns w1 o Class nm x) /\ class_of w1 t = None /\ r = Some (List.length (w_items w1)) /\
      appended w1 w' o Class nm t 0 /\ class_of w' t = Some (List.length (w_items w1)))).
Proof.
  intros ok k n w o it nm t w' r HR Hg Hc Hn E. destruct (reachable_wf ok w HR) as [HW Hk].
  eapply create_class_own; eauto using run_ok. exists it. auto.
Qed.
Print Assumptions C13_registration.

(** Registering another type under a name that is taken is not reported: the other type's class is returned,
    and following definitions land there. *)
Theorem C13_taken_name_reported_refuted : exists w w' x it, reachable base_ok w /\
  create_class (run 30 base_ok 30) w 0 "A" 2 = Ret w' (Some x) /\ get w' x = Some it /\ i_type it = 1 /\ class_of w' 2 = None.
Proof.
  exists (after [KClass "A" 1 true true true]). eexists. exists 1. eexists. split; [apply after_reachable|].
  split; [vm_compute; reflexivity|]. split; [vm_compute; reflexivity|]. vm_compute. auto.
Qed.
Print Assumptions C13_taken_name_reported_refuted.

Example C13_example :
  let w := after [KClass "A" 1 true true true; KEnd; KNamespace "n"; KClass "B" 2 false false false] in
  class_of w 1 = Some 1 /\ class_of w 2 = Some 6 /\
  (exists w', create_class (run 30 base_ok 30) w 5 "A" 1 = Throw Duplicate w') /\
  (exists w', create_class (run 30 base_ok 30) w 5 "A" 3 = Ret w' (Some 7) /\ class_of w' 3 = Some 7).
Proof. cbn zeta. repeat split; try (vm_compute; reflexivity); eexists; [|split]; vm_compute; reflexivity. Qed.

(** ** C16 *)

Theorem C16_mirror : forall ok w a it b bt, reachable ok w -> get w a = Some it -> get w b = Some bt ->
  i_cat it = Class -> i_cat bt = Class ->
  (In (i_type bt) (map fst (i_bases it)) <-> In (i_type it) (i_derived bt)).
Proof. intros ok w a it b bt HR. destruct (reachable_wf ok w HR) as [HW _]. exact (wf_mirror _ _ _ w HW a it b bt). Qed.
Print Assumptions C16_mirror.

Theorem C16_no_duplicates : forall ok w a it, reachable ok w -> get w a = Some it ->
  NoDup (map fst (i_bases it)) /\ NoDup (i_derived it).
Proof.
  intros ok w a it HR Hg. destruct (reachable_wf ok w HR) as [HW _]. pose proof (wf_local _ _ _ w HW a it Hg) as HL.
  split; [exact (l_bases _ _ _ it HL)|exact (l_derived _ _ _ it HL)].
Qed.
Print Assumptions C16_no_duplicates.

(** Entries are types that have a class, so walking the lists never meets a null pointer. *)
Theorem C16_entries_registered : forall ok w a it t, reachable ok w -> get w a = Some it ->
  In t (map fst (i_bases it)) \/ In t (i_derived it) -> exists b bt, class_of w t = Some b /\ get w b = Some bt /\ i_cat bt = Class /\ i_type bt = t.
Proof.
  intros ok w a it t HR Hg H. destruct (reachable_wf ok w HR) as [HW _].
  assert (Hne : class_of w t <> None) by (destruct H as [H|H]; [eapply wf_base; eauto|eapply wf_derived; eauto]).
  destruct (class_of w t) as [b|] eqn:E; [|congruence]. destruct (wf_class1 _ _ _ w HW t b E) as (bt & H1 & H2 & H3). eauto 6.
Qed.
Print Assumptions C16_entries_registered.

(** Whatever program runs, also if it throws: entries keep their places. *)
Theorem C16_only_appended : forall ok k n w a ait p w' x it, reachable ok w ->
  get w a = Some ait -> is_container (i_cat ait) = true -> live (run k ok n w a p) = Live w' -> get w x = Some it ->
  exists it', get w' x = Some it' /\ prefix (i_bases it) (i_bases it') /\ prefix (i_derived it) (i_derived it').
Proof.
  intros ok k n w a ait p w' x it HR Ha Hc Hl Hg. destruct (run_grows ok k n w a ait p w' HR Ha Hc Hl) as [[HE _] _].
  destruct (HE x it Hg) as (it' & Hg' & G). exists it'. split; [exact Hg'|]. split; [exact (g_bases _ _ G)|exact (g_derived _ _ G)].
Qed.
Print Assumptions C16_only_appended.

(** Declaring a base adds it at the end of both lists, or changes nothing if it is there. *)
Theorem C16_declaration : forall ok w a it t f b bt w', reachable ok w -> get w a = Some it -> i_cat it = Class ->
  class_of w t = Some b -> get w b = Some bt -> add_base w a t f = Ret w' tt ->
  (In t (map fst (i_bases it)) /\ w' = w) \/
  (~ In t (map fst (i_bases it)) /\ (exists it', get w' a = Some it' /\ i_bases it' = i_bases it ++ [(t, f)]) /\
   (exists bt', get w' b = Some bt' /\ i_derived bt' = i_derived bt ++ [i_type it]) /\
   (forall x, x <> a -> x <> b -> get w' x = get w x) /\ w_class w' = w_class w).
Proof.
  intros ok w a it t f b bt w' HR Hg Hc Hb Hgb E. destruct (reachable_wf ok w HR) as [HW Hk].
  destruct (holds w (a, LBases)) eqn:Eh; [unfold add_base in E; rewrite Hb, Hg, Eh in E; discriminate|].
  rewrite (add_base_case false false ok w a it t f b HW Hg Hc Hb Eh) in E.
  match type of E with context [in_dec ?a ?b ?c] => destruct (in_dec a b c) as [Hi|Hi] end; injection E as <-; [left; auto|right].
  split; [exact Hi|]. split; [|split; [|split]].
  - rewrite (get_link w a it t f b a Hg), Hg, Nat.eqb_refl. cbn. destruct (a =? b); eexists; split; reflexivity.
  - rewrite (get_link w a it t f b b Hg), Hgb. cbn. rewrite Nat.eqb_refl. destruct (b =? a); eexists; split; reflexivity.
  - intros x H1 H2. rewrite (get_link w a it t f b x Hg). apply Nat.eqb_neq in H1, H2. rewrite H1, H2. destruct (get w x); reflexivity.
  - unfold link. rewrite !upd_class. reflexivity.
Qed.
Print Assumptions C16_declaration.

Example C16_example :
  let w := after [KClass "A" 1 false false false; KEnd; KClass "B" 2 false false false; KBase [(1, 10); (1, 11)]; KEnd;
                  KClass "C" 3 false false false; KBase [(2, 12); (1, 13)]; KBase [(2, 14)]] in
  map (fun x => option_map (fun it => (i_bases it, i_derived it)) (get w x)) [1; 2; 3] =
  [Some ([], [2; 3]); Some ([(1, 10)], [3]); Some ([(2, 12); (1, 13)], [])].
Proof. vm_compute. reflexivity. Qed.
(** A history that throws part-way: the base [9] is not registered. *)
Example C16_example_throw :
  let p := [KClass "A" 1 false false false; KEnd; KClass "B" 10 false false false; KBase [(1, 10); (9, 11)]] in
  (exists w, run 30 base_ok 30 world0 0 p = Throw Unregistered w) /\
  map (fun x => option_map (fun it => (i_bases it, i_derived it)) (get (after p) x)) [1; 2] = [Some ([], [10]); Some ([(1, 10)], [])].
Proof. split; [eexists|]; vm_compute; reflexivity. Qed.

(** ** C18 *)

(** The base has "p" and is declared first: the derived class's own "p" is dropped. *)
Theorem C18_base_first_refuted : exists w, reachable base_ok w /\
  w = after [KClass "B" 1 false false false; KProperty "p" 7; KMethod "f" [] 7; KEnd;
             KClass "D" 2 false false false; KBase [(1, 0)]; KProperty "p" 8; KMethod "f" [] 8] /\
  (forall x, ~ owns w 4 Property "p" x) /\ (forall x, ~ owns w 4 Method "f()" x) /\
  option_map i_type (get w 4) = Some 2.
Proof.
  eexists. split; [apply after_reachable|]. split; [reflexivity|]. split; [|split; [|vm_compute; reflexivity]];
    intros x ([|i] & xt & He & _); vm_compute in He; discriminate.
Qed.
Print Assumptions C18_base_first_refuted.

(** The opposite order keeps it. *)
Example C18_own_first_example :
  let w := after [KClass "B" 1 false false false; KProperty "p" 7; KMethod "f" [] 7; KEnd;
                  KClass "D" 2 false false false; KProperty "p" 8; KMethod "f" [] 8; KBase [(1, 0)]] in
  owns w 4 Property "p" 5 /\ owns w 4 Method "f()" 6 /\
  (exists w', get_property (run 30 base_ok 30) 30 w 4 "p" = Ret w' (Some 5)).
Proof. cbn zeta. split; [|split]; [exists 0; eexists; vm_compute; repeat split|exists 0; eexists; vm_compute; repeat split|eexists; vm_compute; reflexivity]. Qed.

(** Exactly when the definition takes effect: when neither the class nor any class above it has the name. *)
Theorem C18_override_exact_partial : forall ok k n w o it nm inv w' r,
  reachable ok w -> quiet w -> get w o = Some it -> i_cat it = Class -> nm <> ""%string ->
  create_property (run k ok n) k w o nm inv = Ret w' r ->
  ((exists x xt, owns w' o Property nm x /\ ~ (exists xt0, get w x = Some xt0) /\ get w' x = Some xt /\ i_inv xt = inv) <->
   (forall b x, up w o b -> ~ owns w b Property nm x)).
Proof.
  intros ok k n w o it nm inv w' r HR HQ Hg Hc Hn E.
  destruct (C12_class_property ok k n w o it nm inv w' r HR HQ Hg Hc Hn E) as [(b & x & Hu & Hx & _ & _ & HS)|(Hno & -> & HA)].
  - split.
    + intros (y & yt & Hy & Hnew & Hgy & _). exfalso. apply Hnew. exists yt. rewrite <- (same_get w w' y HS). exact Hgy.
    + intro H. destruct (H b x Hu Hx).
  - split; [intros _; exact Hno|]. intros _. pose proof (appended_owns _ _ _ _ _ _ _ HA) as Ho.
    destruct HA as (_ & (xt & Hx & _ & _ & _ & _ & Hi & _) & _). exists (List.length (w_items w)), xt. split; [exact Ho|]. split; [|auto].
    intros (x0 & Hx0). apply get_lt in Hx0. lia.
Qed.
Print Assumptions C18_override_exact_partial.

(** Once a class has its own, look-ups on it answer with it, whatever the bases have or get. *)
Theorem C18_own_wins : forall ok k n w o it nm x w' r,
  reachable ok w -> get w o = Some it -> i_cat it = Class -> nm <> ""%string -> owns w o Property nm x ->
  get_property (run k ok n) k w o nm = Ret w' r -> r = Some x.
Proof.
  intros ok k n w o it nm x w' r HR Hg Hc Hn Hx E. destruct (reachable_wf ok w HR) as [HW Hk].
  apply String.eqb_neq in Hn as Hn'. unfold get_property in E. rewrite Hg, Hc, Hn' in E. cbn [cat_eqb] in E.
  destruct k as [|k]; [discriminate|]. cbn [dfs] in E. unfold get_item at 1 in E.
  assert (Ho : cont w o) by (exists it; rewrite Hc; auto).
  pose proof (check_post false false ok (run (S k) ok n) (run_ok ok (S k) n) w o HW Hk Ho) as HP.
  destruct (check (run (S k) ok n) w o) as [w1 []| | | | |]; try discriminate. cbn [bind] in E. destruct HP as (Hs & _ & _).
  pose proof (steps_wf _ _ _ _ _ HW Hs) as HW1. pose proof (steps_extends _ _ _ _ _ HW Hs) as HE.
  destruct (proj1 HE o it Hg) as (it1 & Hg1 & G). destruct Hx as (i & xt & He & Hgx & Hnx).
  destruct (proj1 HE x xt Hgx) as (xt1 & Hgx1 & Gx).
  assert (Hx1 : owns w1 o Property nm x) by (exists i, xt1; split; [eapply entry_extends; eauto|]; split; [exact Hgx1|rewrite (g_name _ _ Gx); exact Hnx]).
  apply (find_owns ok w1 o it1 Property nm x HW1 Hg1 Hn) in Hx1. unfold list_of in E. rewrite Hg1, Hx1 in E. injection E as _ <-. reflexivity.
Qed.
Print Assumptions C18_own_wins.
