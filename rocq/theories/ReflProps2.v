(** Property theorems C19, C31, C41, C43, C44. *)
From Coq Require Import List Bool Arith String Ascii Lia.
From Verif Require Import Util RegistryModel ListsModel StringsModel StringsSpec ListsProofs StringsProofs.
From Verif Require Import ReflModel ReflSpec ReflProofs ReflExec ReflMono ReflTerm ReflMore ReflBuilder ReflDefer ReflCtors ReflFinal ReflProps.
Import ListNotations.
Local Open Scope list_scope.

(** ** C19 *)

(** Of the definitions accepted for a container, each has been started once, except one that may be waiting;
    all that were started have finished, except one that may be running. *)
Theorem C19_each_runs_once : forall ok w a it, reachable ok w -> get w a = Some it ->
  i_begun it = i_done it + (if i_lock it then 1 else 0) /\
  i_set it = i_begun it + (match i_def it with Some _ => if i_lock it then 0 else 1 | None => 0 end) /\
  (i_lock it = true -> i_def it <> None).
Proof.
  intros ok w a it HR Hg. destruct (reachable_wf ok w HR) as [HW _]. pose proof (wf_local _ _ _ w HW a it Hg) as HL.
  pose proof (l_begun _ _ _ it HL) as H1. pose proof (l_set _ _ _ it HL) as H2. pose proof (l_lock _ _ _ it HL) as H3.
  unfold b2n in *. destruct (i_lock it), (i_def it); cbn in *; auto.
Qed.
Print Assumptions C19_each_runs_once.

(** Whatever is asked of a container: when the answer comes, all definitions accepted before have finished. *)
Theorem C19_complete_before_answer : forall ok k n w a it c b w' b', reachable ok w -> bok false w b ->
  get w a = Some it -> i_lock it = false -> asks a c -> exec k ok n w b [c] = Ret w' b' ->
  exists it', get w' a = Some it' /\ i_set it <= i_done it'.
Proof.
  intros ok k n w a it c b w' b' HR Hb Hg Hl HA E. destruct (reachable_wf ok w HR) as [HW Hk].
  unfold exec in E. cbn [exec_with] in E. destruct (step _ _ _ _ w b c) as [w1 b1| | | | |] eqn:ES; try discriminate.
  cbn [bind] in E. injection E as <- <-. eapply asks_done; eauto.
Qed.
Print Assumptions C19_complete_before_answer.

(** While a definition runs, nothing that runs inside it starts, finishes or replaces it. *)
Theorem C19_no_reentry : forall ok k n w a it x xt p w', reachable ok w -> get w a = Some it -> i_lock it = true ->
  get w x = Some xt -> is_container (i_cat xt) = true -> live (run k ok n w x p) = Live w' ->
  exists it', get w' a = Some it' /\ i_lock it' = true /\ i_def it' = i_def it /\
    i_set it' = i_set it /\ i_begun it' = i_begun it /\ i_done it' = i_done it.
Proof.
  intros ok k n w a it x xt p w' HR Hg Hl Hx Hc HL. destruct (run_grows ok k n w x xt p w' HR Hx Hc HL) as [_ (_ & Hb1 & Hb2)].
  destruct (Hb2 a it Hg Hl) as (it' & Hg' & (H1 & H2 & H3 & H4)). exists it'. split; [exact Hg'|].
  specialize (Hb1 a). unfold locked in Hb1. rewrite Hg, Hg' in Hb1. split; [congruence|auto].
Qed.
Print Assumptions C19_no_reentry.
(** Its own queries see the container as it is at that time. *)
Theorem C19_nested_query_answers : forall ok k n w a it, reachable ok w -> get w a = Some it -> i_lock it = true ->
  check (run k ok n) w a = Ret w tt.
Proof. intros ok k n w a it _ Hg Hl. apply check_idle. exists it. auto. Qed.
Print Assumptions C19_nested_query_answers.

(** A definition that throws: the exception reaches the caller, the definition counts as done and is never
    run again. *)
Theorem C19_throwing_definition : forall ok k n w a it p e w1, reachable ok w -> get w a = Some it ->
  is_container (i_cat it) = true -> i_def it = Some p -> i_lock it = false ->
  run k ok n (upd w a begin_def) a p = Throw e w1 ->
  exists w2 it2, check (run k ok n) w a = Throw e w2 /\ get w2 a = Some it2 /\ i_def it2 = None /\ i_lock it2 = false /\
    i_set it2 = i_set it /\ i_done it2 = S (i_done it) /\ i_done it2 = i_set it2 /\ check (run k ok n) w2 a = Ret w2 tt.
Proof. intros ok k n w a it p e w1 HR. destruct (reachable_wf ok w HR) as [HW Hk]. intros. eapply check_throw; eauto. Qed.
Print Assumptions C19_throwing_definition.

(** Every program ends, provided the declared bases of types are ordered as C++ demands (a type's bases are
    complete before it); more fuel than [N] changes nothing. *)
Theorem C19_terminates : forall ok rank K w a it p, (forall t b, ok t b = true -> rank b < rank t) -> (forall t, rank t < K) ->
  reachable ok w -> get w a = Some it -> is_container (i_cat it) = true ->
  exists N, run N ok N w a p <> Fuel /\ forall k n, N <= k -> N <= n -> run k ok n w a p = run N ok N w a p.
Proof.
  intros ok rank K w a it p Hrank HK HR Hg Hc. destruct (reachable_wf ok w HR) as [HW Hk].
  set (N := S (K + V w + 4 * psize p)).
  assert (HF : fin (V w + 4 * psize p) (run N ok N w a p)).
  { eapply (run_fin ok rank Hrank N); auto; [intro t; specialize (HK t); unfold N; lia|exists it; auto|unfold N; lia]. }
  assert (HN : run N ok N w a p <> Fuel) by (intro E; rewrite E in HF; exact HF).
  exists N. split; [exact HN|]. intros k n H1 H2. apply run_mono; assumption.
Qed.
Print Assumptions C19_terminates.

(** Nested lazy definitions that ask each other, and one that throws. *)
Definition lazy_demo : prog :=
  [KClass "A" 1 true false false; KLazy [KProperty "p" 1; KItem 3 Property "q"]; KEnd;
   KClass "B" 2 false false false; KLazy [KProperty "q" 2; KItem 1 Property "p"; KThrow]].
Example C19_example :
  let w := after lazy_demo in
  (exists it, get w 1 = Some it /\ i_def it <> None /\ i_lock it = false /\ i_set it = 1 /\ i_begun it = 0) /\
  (exists w' b', exec 30 base_ok 30 w (on 0) [KUse true [KItem 1 Property "p"]] = Ret w' b' /\
     map (fun a => option_map (fun it => (i_set it, i_begun it, i_done it)) (get w' a)) [1; 3] = [Some (1, 1, 1); Some (1, 1, 1)]) /\
  (exists w', run 30 base_ok 30 w 0 [KItem 1 Property "p"] = Throw User w') /\
  (exists w', run 30 base_ok 30 (then_ w [KItem 1 Property "p"]) 0 [KItem 1 Property "p"] = Ret w' tt).
Proof.
  cbn zeta. split; [|split; [|split]].
  - eexists. split; [vm_compute; reflexivity|]. split; [discriminate|]. auto.
  - eexists. eexists. split; vm_compute; reflexivity.
  - eexists. vm_compute. reflexivity.
  - eexists. vm_compute. reflexivity.
Qed.
Example C19_example_hypotheses :
  reachable base_ok (after [KClass "A" 1 true false false; KLazy [KProperty "p" 1]]) /\
  asks 1 (KItem 1 Property "p") /\ (forall t b, base_ok t b = true -> b < t) /\
  (exists w' b', exec 30 base_ok 30 (after [KClass "A" 1 true false false; KLazy [KProperty "p" 1]]) (on 0) [KItem 1 Property "p"] = Ret w' b' /\
    owns w' 1 Property "p" 3).
Proof.
  split; [apply after_reachable|]. split; [constructor|]. split; [intros t b H; apply Nat.ltb_lt; exact H|].
  eexists. eexists. split; [vm_compute; reflexivity|]. exists 0. eexists. vm_compute. repeat split.
Qed.

(** ** C31 *)

(** Every well-nested chain of calls is a list of trees, and runs like it: the definitions inside an opener
    and its [_end] are executed on the container it opened, those after it on the surrounding one. *)
Theorem C31_nests_like_brackets : forall p, well_nested p ->
  exists l, forallb leaves l = true /\ p = flat_map flat l /\
  forall k ok n w b, exec k ok n w b p =
    bind (means_all (run k ok n) k ok (fun w p => run k ok n w 0 p) (b_cont b) l w (b_item b))
         (fun w cur => Ret w (Builder cur (b_cont b) (b_stack b))).
Proof.
  intros p Hp. destruct (parse_all p Hp) as (l & Hl & ->). exists l. split; [exact Hl|]. split; [reflexivity|].
  intros k ok n w [cur here s]. apply exec_all. exact Hl.
Qed.
Print Assumptions C31_nests_like_brackets.

(** After all is closed the builder is where it was. *)
Theorem C31_back_to_start : forall k ok n w b p w' b', well_nested p -> exec k ok n w b p = Ret w' b' ->
  b_cont b' = b_cont b /\ b_stack b' = b_stack b.
Proof. intros k ok n w b p w' b' Hp E. eapply exec_with_builder; eauto. Qed.
Print Assumptions C31_back_to_start.

(** A chain that closes more than it opened does not compile (or stops before); a chain that ends normally
    has as many open containers as the brackets say. *)
Theorem C31_unbalanced : forall k ok n w a p w' b', exec k ok n w (on a) p = Ret w' b' -> depth p 0 = Some (List.length (b_stack b')).
Proof. intros k ok n w a p w' b' E. exact (exec_depth _ _ _ _ p w (on a) w' b' E). Qed.
Print Assumptions C31_unbalanced.

(** If namespaces, classes and enums are given names, no program of any history runs into a null container. *)
Theorem C31_named_never_null : forall ok w p k n, history ok named_cmd w -> all_prog named_cmd p = true -> run k ok n w 0 p <> UB.
Proof. exact named_no_ub. Qed.
Print Assumptions C31_named_never_null.
(** Without names: the second namespace with the empty name is null, and the next definition dereferences it. *)
Theorem C31_empty_name_refuted : exists p, well_nested p /\ run 30 base_ok 30 world0 0 p = UB.
Proof.
  exists [KNamespace ""; KEnd; KNamespace ""; KProperty "x" 1; KEnd]. split; vm_compute; reflexivity.
Qed.
Print Assumptions C31_empty_name_refuted.

Definition tree_demo : prog :=
  [KNamespace "n"; KClass "C" 1 false false false; KProperty "p" 1; KEnd; KProperty "q" 2; KEnd; KProperty "r" 3].
Example C31_example :
  well_nested tree_demo /\ all_prog named_cmd tree_demo = true /\
  (let w := after tree_demo in owns w 2 Property "p" 3 /\ owns w 1 Property "q" 4 /\ owns w 0 Property "r" 5 /\ owns w 1 Class "C" 2 /\ owns w 0 Namespace "n" 1) /\
  (exists w' b', exec 30 base_ok 30 world0 (on 0) tree_demo = Ret w' b' /\ b' = on 0) /\
  exec 30 base_ok 30 world0 (on 0) [KNamespace "n"; KEnd; KEnd] = Rejected /\ depth [KNamespace "n"; KEnd; KEnd] 0 = None.
Proof.
  split; [reflexivity|]. split; [reflexivity|]. split.
  { cbn zeta. repeat split; exists 0; eexists; vm_compute; repeat split. }
  split; [eexists; eexists; split; [vm_compute; reflexivity|reflexivity]|]. split; vm_compute; reflexivity.
Qed.

(** An attribute given after a property, method or constructor goes to the container, not to that item. *)
Theorem C31_attribute_of_last_item_refuted : exists p w, well_nested p /\ reachable base_ok w /\ w = after p /\
  p = [KNamespace "n"; KProperty "p" 1; KAttr "a" 5; KEnd] /\
  option_map (fun it => (i_cat it, nv_items (i_attrs it))) (get w 2) = Some (Property, []) /\
  option_map (fun it => (i_cat it, nv_items (i_attrs it))) (get w 1) = Some (Namespace, [("a"%string, 5)]).
Proof.
  eexists. eexists. split; [|split; [apply after_reachable|split; [reflexivity|split; [reflexivity|]]]]; vm_compute; auto.
Qed.
Print Assumptions C31_attribute_of_last_item_refuted.

(** ** C41 *)

(** A newly registered class has exactly the constructors its type supports, in this order. *)
Theorem C41_exactly_supported : forall ok k n w o it cur s nm t d c m w' b',
  reachable ok w -> get w o = Some it -> is_container (i_cat it) = true -> (i_def it = None \/ i_lock it = true) -> nm <> ""%string ->
  (forall y, ~ owns w o Class nm y) ->
  exec k ok n w (Builder cur (Some o) s) [KClass nm t d c m] = Ret w' b' ->
  exists x, b_cont b' = Some x /\ class_of w' t = Some x /\ get w x = None /\ ctor_names w' x = expected_ctors d c m.
Proof.
  intros ok k n w o it cur s nm t d c m w' b' HR Hg Hc Hi Hn Hno E. destruct (reachable_wf ok w HR) as [HW Hk].
  unfold exec in E. cbn [exec_with] in E. destruct (step _ _ _ _ w _ _) as [w1 b1| | | | |] eqn:ES; try discriminate.
  cbn [bind] in E. injection E as <- <-.
  assert (Hid : idle w o) by (exists it; auto). assert (Ho : cont w o) by (exists it; auto).
  destruct (new_class_ctors ok k n w o cur s nm t d c m w1 b1 HW Hk Ho Hid Hn Hno ES) as (x & Ex & _ & Hb & (_ & _ & xt & Hx & _ & _ & Hl) & Ht).
  exists x. split; [exact Hb|]. split; [exact Ht|]. split.
  - apply nth_error_None. lia.
  - unfold ctor_names. rewrite Hx. exact Hl.
Qed.
Print Assumptions C41_exactly_supported.

(** From then on, whatever is defined later, each is found under its fixed name, always the same one. *)
Theorem C41_found_for_ever : forall ok k n k2 n2 w x xt i y s w2 a ait p w' r,
  reachable ok w -> get w x = Some xt -> i_cat xt = Class -> entry w x Constructor i = Some y -> names w y = s ->
  In s ["d_constructor"%string; "c_constructor"%string; "m_constructor"%string] ->
  (forall j z, j < i -> entry w x Constructor j = Some z -> In (names w z) ["d_constructor"%string; "c_constructor"%string; "m_constructor"%string]) ->
  get w a = Some ait -> is_container (i_cat ait) = true -> live (run k ok n w a p) = Live w2 ->
  find_method (run k2 ok n2) w2 x Constructor s = Ret w' r -> r = Some y.
Proof. exact ctor_found_forever. Qed.
Print Assumptions C41_found_for_ever.

(** But "d_constructor" is also what a user's constructor may be called; if the type has no default
    constructor, the look-up for one finds the user's. *)
Theorem C41_absent_not_found_refuted : exists w w' x y, reachable base_ok w /\
  w = after [KClass "A" 1 false true true; KCtor "d_constructor" (AOther [txt "int"]) 9] /\
  class_of w 1 = Some x /\ find_method (run 30 base_ok 30) w x Constructor "d_constructor" = Ret w' (Some y) /\
  names w y = "d_constructor(int)"%string.
Proof.
  eexists. eexists. exists 1. exists 4. split; [apply after_reachable|]. split; [reflexivity|].
  split; [vm_compute; reflexivity|]. split; vm_compute; reflexivity.
Qed.
Print Assumptions C41_absent_not_found_refuted.
(** ... and such a constructor keeps a default constructor defined later from being registered. *)
Theorem C41_displaced_refuted : exists w, reachable base_ok w /\
  w = after [KClass "A" 1 false false false; KCtor "d_constructor" (AOther [txt "int"]) 9; KCtor "" A0 10] /\
  ctor_names w 1 = ["d_constructor(int)"%string].
Proof. eexists. split; [apply after_reachable|]. split; [reflexivity|]. vm_compute. reflexivity. Qed.
Print Assumptions C41_displaced_refuted.
(** Right after registration, what the type does not support is not found. *)
Theorem C41_absent_at_first : forall ok k n w x it s, reachable ok w -> get w x = Some it -> i_cat it = Class -> i_def it = None ->
  In s ["d_constructor"%string; "c_constructor"%string; "m_constructor"%string] ->
  (forall y, In y (ctor_names w x) -> In y ["d_constructor"%string; "c_constructor"%string; "m_constructor"%string]) ->
  ~ In s (ctor_names w x) -> exists w', find_method (run k ok n) w x Constructor s = Ret w' None.
Proof. exact ctor_absent. Qed.
Print Assumptions C41_absent_at_first.

Example C41_example :
  let w := after [KClass "A" 1 true false true; KCtor "make" (AOther [txt "int"]) 9; KCtor "" A0 10] in
  ctor_names w 1 = ["d_constructor"; "m_constructor"; "make(int)"]%string /\
  (exists w', find_method (run 30 base_ok 30) w 1 Constructor "d_constructor" = Ret w' (Some 2)) /\
  (exists w', find_method (run 30 base_ok 30) w 1 Constructor "c_constructor" = Ret w' None).
Proof. cbn zeta. split; [vm_compute; reflexivity|]. split; eexists; vm_compute; reflexivity. Qed.

(** ** C43 *)

(** A visitor of for_each_class that defines a class in the same container. *)
Theorem C43_visitor_defines_refuted : exists w p, reachable base_ok w /\ w = after [KClass "A" 1 false false false] /\
  p = [KEach 0 Class [[KClass "B" 2 false false false]]] /\ run 30 base_ok 30 w 0 p = Deadlock.
Proof. eexists. eexists. split; [apply after_reachable|]. split; [reflexivity|]. split; [reflexivity|]. vm_compute. reflexivity. Qed.
Print Assumptions C43_visitor_defines_refuted.
(** forceDeferredDefine over a container, when a lazy definition below defines a class in it. *)
Theorem C43_forced_definition_refuted : exists w p, reachable base_ok w /\
  w = after [KClass "A" 1 false false false; KLazy [KUse false [KClass "B" 2 false false false]]] /\
  p = [KForce 0 true] /\ run 30 base_ok 30 w 0 p = Deadlock.
Proof. eexists. eexists. split; [apply after_reachable|]. split; [reflexivity|]. split; [reflexivity|]. vm_compute. reflexivity. Qed.
Print Assumptions C43_forced_definition_refuted.
(** A member look-up that reaches a base whose lazy definition declares a base for the class being searched. *)
Theorem C43_search_refuted : exists w p, reachable base_ok w /\
  w = after [KClass "A" 1 false false false; KLazy [KUse false [KClass "C" 3 false false false; KBase [(2, 0)]]]; KEnd;
             KClass "B" 2 false false false; KEnd; KClass "C" 3 false false false; KBase [(1, 0)]] /\
  p = [KGetProperty 3 "p"] /\ run 30 base_ok 30 w 0 p = Deadlock.
Proof. eexists. eexists. split; [apply after_reachable|]. split; [reflexivity|]. split; [reflexivity|]. vm_compute. reflexivity. Qed.
Print Assumptions C43_search_refuted.
(** Even a visitor that only asks locks the list it is walking a second time, which is undefined for
    std::shared_mutex (it may block behind a waiting writer). *)
Theorem C43_visitor_queries_refuted : exists w p w', reachable base_ok w /\ w = after [KClass "A" 1 false false false] /\
  w_relock w = false /\ p = [KEach 0 Class [[KItem 0 Class "A"]]] /\ run 30 base_ok 30 w 0 p = Ret w' tt /\ w_relock w' = true.
Proof.
  eexists. eexists. eexists. split; [apply after_reachable|]. split; [reflexivity|]. split; [vm_compute; reflexivity|].
  split; [reflexivity|]. split; vm_compute; reflexivity.
Qed.
Print Assumptions C43_visitor_queries_refuted.
(** So does a lazy definition that asks for the bases of the class that is being searched. *)
Theorem C43_search_queries_refuted : exists w p w', reachable base_ok w /\
  w = after [KClass "A" 1 false false false; KLazy [KUse false [KBases 2]]; KEnd; KClass "C" 3 false false false; KBase [(1, 0)]] /\
  w_relock w = false /\ p = [KGetProperty 2 "p"] /\ run 30 base_ok 30 w 0 p = Ret w' tt /\ w_relock w' = true.
Proof.
  eexists. eexists. eexists. split; [apply after_reachable|]. split; [reflexivity|]. split; [vm_compute; reflexivity|].
  split; [reflexivity|]. split; vm_compute; reflexivity.
Qed.
Print Assumptions C43_search_queries_refuted.
(** A visitor that asks about other things locks nothing twice. *)
Example C43_other_lists : exists w w', w = after [KClass "A" 1 false false false; KAttr "a" 1; KProperty "p" 1] /\ w_relock w = false /\
  run 30 base_ok 30 w 0 [KEachAttr 1 [[KBases 1; KDerived 1; KItem 1 Property "p"; KCount 1 Method; KItem 0 Class "A"]];
    KEach 0 Class [[KBases 1; KAttrs 1 (QNameAt 0); KItem 1 Method "f"; KItem 0 Namespace "n"]]] = Ret w' tt /\ w_relock w' = false.
Proof. eexists. eexists. split; [reflexivity|]. split; [vm_compute; reflexivity|]. split; vm_compute; reflexivity. Qed.

(** If lazy definitions and visitors, in the whole history, only define properties, enums, constructors,
    attributes and enum elements (besides asking anything), then nothing ever blocks on an own lock. *)
Theorem C43_soft_never_blocks_partial : forall ok w p k n, history ok tame_cmd w -> all_prog tame_cmd p = true ->
  run k ok n w 0 p <> Deadlock.
Proof. exact tame_no_deadlock. Qed.
Print Assumptions C43_soft_never_blocks_partial.
Example C43_example :
  let p := [KClass "A" 1 false false false; KLazy [KProperty "p" 1; KItem 0 Class "A"]; KEnd; KClass "B" 2 false false false; KBase [(1, 0)]] in
  all_prog tame_cmd p = true /\ history base_ok tame_cmd (after p) /\
  (exists w', run 30 base_ok 30 (after p) 0 [KGetProperty 2 "p"; KEach 0 Class [[KProperty "v" 1]; [KCount 1 Property]]; KForce 0 true] = Ret w' tt).
Proof.
  cbn zeta. split; [reflexivity|]. split.
  - match goal with |- history _ _ (after ?p) => apply (HRun base_ok tame_cmd 30 30 world0 p) end; [constructor|reflexivity|vm_compute; reflexivity].
  - eexists. vm_compute. reflexivity.
Qed.

(** ** C44 *)

(** Along every execution, also one that ends with an exception: what is at a place stays there, and stays
    what it is. *)
Theorem C44_only_grows : forall ok k n w a ait p w' o c i x, reachable ok w ->
  get w a = Some ait -> is_container (i_cat ait) = true -> live (run k ok n w a p) = Live w' ->
  entry w o c i = Some x ->
  entry w' o c i = Some x /\ (forall it, get w x = Some it -> exists it', get w' x = Some it' /\ same_item it it').
Proof.
  intros ok k n w a ait p w' o c i x HR Ha Hc HL He. destruct (run_grows ok k n w a ait p w' HR Ha Hc HL) as [HE _].
  split; [eapply entry_extends; eauto|]. intros it Hg. destruct (proj1 HE x it Hg) as (it' & Hg' & G). exists it'. split; [exact Hg'|].
  destruct G. repeat split; assumption.
Qed.
Print Assumptions C44_only_grows.
(** The same between a prefix of a chain and any continuation. *)
Theorem C44_prefix : forall ok k n w a ait p q w1 b1 w2 o c i x, reachable ok w ->
  get w a = Some ait -> is_container (i_cat ait) = true ->
  exec k ok n w (on a) p = Ret w1 b1 -> live (exec k ok n w (on a) (p ++ q)) = Live w2 ->
  entry w1 o c i = Some x ->
  entry w2 o c i = Some x /\ (forall it, get w1 x = Some it -> exists it', get w2 x = Some it' /\ same_item it it').
Proof. exact prefix_grows. Qed.
Print Assumptions C44_prefix.
(** What is found by name is found by it later, and a type's class stays its class. *)
Theorem C44_names_stable : forall ok k n w a ait p w' o c nm x k2 n2 w'' r, reachable ok w ->
  get w a = Some ait -> is_container (i_cat ait) = true -> live (run k ok n w a p) = Live w' ->
  (exists ot, get w o = Some ot /\ is_container (i_cat ot) = true) -> nm <> ""%string -> owns w o c nm x ->
  get_item (run k2 ok n2) w' o c nm = Ret w'' r -> r = Some x.
Proof. exact names_stable. Qed.
Print Assumptions C44_names_stable.
Theorem C44_classes_stable : forall ok k n w a ait p w' t x, reachable ok w ->
  get w a = Some ait -> is_container (i_cat ait) = true -> live (run k ok n w a p) = Live w' ->
  class_of w t = Some x -> class_of w' t = Some x.
Proof.
  intros ok k n w a ait p w' t x HR Ha Hc HL. destruct (run_grows ok k n w a ait p w' HR Ha Hc HL) as [HE _]. apply HE.
Qed.
Print Assumptions C44_classes_stable.
(** No item is lost from view: every item is listed in its owner. *)
Theorem C44_every_item_listed : forall ok w x it, reachable ok w -> get w x = Some it -> x <> 0 ->
  exists o i, i_owner it = Some o /\ entry w o (i_cat it) i = Some x.
Proof.
  intros ok w x it HR Hg Hx. destruct (reachable_wf ok w HR) as [HW _]. destruct (wf_owner _ _ _ w HW x it Hg Hx) as (o & ow & H1 & _ & H2 & _ & H3).
  apply In_nth_error in H3 as [i Hi]. exists o, i. split; [exact H1|]. unfold entry. rewrite H2. exact Hi.
Qed.
Print Assumptions C44_every_item_listed.

(** Places are counted from 0 without gaps: access by index gives the item at that place and none beyond the
    last, the count is the number of places, and asking changes nothing but running a waiting definition. *)
Theorem C44_by_index : forall ok k n w o it c i w' r, reachable ok w -> get w o = Some it -> is_container (i_cat it) = true ->
  get_index (run k ok n) w o c i = Ret w' r ->
  exists w1, check (run k ok n) w o = Ret w1 tt /\ same w1 w' /\ forall x, r = Some x <-> entry w1 o c i = Some x.
Proof.
  intros ok k n w o it c i w' r HR Hg Hc E. destruct (reachable_wf ok w HR) as [HW Hk]. unfold get_index in E.
  destruct (check (run k ok n) w o) as [w1 []| | | | |] eqn:EC; try discriminate. cbn [bind] in E. injection E as <- <-.
  exists w1. split; [reflexivity|]. split; [apply same_touch|].
  destruct (check_inv ok (run k ok n) (run_ok ok k n) w o w1 HW Hk (ex_intro _ it (conj Hg Hc)) EC) as (_ & _ & (ot & Hg1 & _) & _).
  intro x. unfold list_of, entry. rewrite Hg1, ml_get_nth. reflexivity.
Qed.
Print Assumptions C44_by_index.
Theorem C44_count : forall ok k n w o it c w' m, reachable ok w -> get w o = Some it -> is_container (i_cat it) = true ->
  get_count (run k ok n) w o c = Ret w' m ->
  exists w1, check (run k ok n) w o = Ret w1 tt /\ same w1 w' /\ forall i, i < m <-> exists x, entry w1 o c i = Some x.
Proof.
  intros ok k n w o it c w' m HR Hg Hc E. destruct (reachable_wf ok w HR) as [HW Hk]. unfold get_count in E.
  destruct (check (run k ok n) w o) as [w1 []| | | | |] eqn:EC; try discriminate. cbn [bind] in E. injection E as <- <-.
  exists w1. split; [reflexivity|]. split; [apply same_touch|].
  destruct (check_inv ok (run k ok n) (run_ok ok k n) w o w1 HW Hk (ex_intro _ it (conj Hg Hc)) EC) as (_ & _ & (ot & Hg1 & _) & _).
  intro i. unfold list_of, entry, ml_size. rewrite Hg1. rewrite <- nth_error_Some. destruct (nth_error _ i) as [x|].
  - split; [intros _; exists x; reflexivity|discriminate].
  - split; [congruence|intros (x & H); discriminate].
Qed.
Print Assumptions C44_count.
(** What is found by index is found there after any further program. *)
Theorem C44_index_stable : forall ok k n w a ait p w' o c i x k2 n2 w'' r, reachable ok w ->
  get w a = Some ait -> is_container (i_cat ait) = true -> live (run k ok n w a p) = Live w' ->
  (exists ot, get w o = Some ot /\ is_container (i_cat ot) = true) -> entry w o c i = Some x ->
  get_index (run k2 ok n2) w' o c i = Ret w'' r -> r = Some x.
Proof.
  intros ok k n w a ait p w' o c i x k2 n2 w'' r HR Ha Hca HL (ot & Ho & Hco) He E.
  destruct (run_grows ok k n w a ait p w' HR Ha Hca HL) as [HE _]. pose proof (reachable_run ok k n w a ait p w' HR Ha Hca HL) as HR'. pose proof (entry_extends w w' o c i x HE He) as He'.
  destruct (proj1 HE o ot Ho) as (ot' & Ho' & G). assert (Hco' : is_container (i_cat ot') = true) by (rewrite (g_cat _ _ G); exact Hco).
  destruct (C44_by_index ok k2 n2 w' o ot' c i w'' r HR' Ho' Hco' E) as (w1 & EC & _ & HQ). apply HQ.
  destruct (reachable_wf ok w' HR') as [HW Hk].
  pose proof (check_post false false ok (run k2 ok n2) (run_ok ok k2 n2) w' o HW Hk (ex_intro _ ot' (conj Ho' Hco'))) as HP. rewrite EC in HP.
  destruct HP as (Hs & _ & _). exact (entry_extends w' w1 o c i x (steps_extends _ _ _ _ _ HW Hs) He').
Qed.
Print Assumptions C44_index_stable.

Example C44_index_example :
  let w := after [KNamespace "n"; KProperty "p" 1; KProperty "q" 1; KMethod "f" [] 2] in
  (exists w', get_index (run 30 base_ok 30) w 1 Property 0 = Ret w' (Some 2)) /\
  (exists w', get_index (run 30 base_ok 30) w 1 Property 1 = Ret w' (Some 3)) /\
  (exists w', get_index (run 30 base_ok 30) w 1 Property 2 = Ret w' None) /\
  (exists w', get_count (run 30 base_ok 30) w 1 Property = Ret w' 2) /\ (exists w', get_count (run 30 base_ok 30) w 1 Method = Ret w' 1).
Proof. cbn zeta. repeat split; eexists; vm_compute; reflexivity. Qed.

Example C44_example :
  let p := [KNamespace "n"; KProperty "p" 1] in
  let w := after p in
  (exists w' , run 30 base_ok 30 w 0 [KProperty "q" 1; KNamespace "n"; KProperty "p2" 2; KThrow] = Throw User w' /\
     entry w' 1 Property 0 = Some 2 /\ entry w' 1 Property 1 = Some 4) /\ entry w 1 Property 0 = Some 2.
Proof. cbn zeta. split; [eexists; split; [vm_compute; reflexivity|]; split; vm_compute; reflexivity|vm_compute; reflexivity]. Qed.
