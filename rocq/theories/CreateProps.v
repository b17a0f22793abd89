(** Property theorems C36 and C37: namespaces, enums and classes created by several threads. *)
From Coq Require Import List Bool Arith Lia String Permutation.
From Verif Require Import Util CreateModel CreateSpec CreateProofs.
Import ListNotations.
Local Open Scope string_scope.

Lemma good_sole ps c k a : good ps c -> In (k, a) (cells (fst c)) -> sole c k a.
Proof.
  intros G H. split; [exact H|]. intros a' H'. pose proof (g_keys _ _ G) as K.
  apply (in_lookup _ _ _ K) in H. apply (in_lookup _ _ _ K) in H'. congruence.
Qed.

(** ** C36 *)

(** Under every schedule: whoever asked for a namespace or enum under a non-empty name was given a live object, it
    is the only item under that name, and so all threads asking for that name were given the same one. *)
Theorem C36_same_item : forall programs schedule r x k,
  let c := exec (start programs) schedule in
  answered c r x -> key_of r = Some k -> nonempty k -> ~ is_class r ->
  exists a, x = Got (Some a) /\ sole c k a /\ ~ In a (freed (fst c)) /\
    forall r' x', answered c r' x' -> key_of r' = Some k -> x' = Got (Some a).
Proof.
  intros ps sch r x k c (i & t & Hi & Hin) Hk Hn Hc. pose proof (good_always ps sch) as G. fold c in G.
  assert (HA : forall r' x', answered c r' x' -> key_of r' = Some k ->
            exists a, x' = Got (Some a) /\ In (k, a) (cells (fst c))).
  { intros r' x' (j & u & Hj & Hin') Hk'. pose proof (g_answer _ _ G _ _ Hj) as A. rewrite Forall_forall in A.
    specialize (A _ Hin' k Hk' Hn). cbn in A. destruct x' as [[a|]|]; [eauto|destruct A|].
    destruct A as (o & n & ty & a & -> & _). destruct r; cbn in Hk, Hk', Hc; try tauto; congruence. }
  destruct (HA r x (ex_intro _ i (ex_intro _ t (conj Hi Hin))) Hk) as (a & -> & Hcell).
  exists a. split; [reflexivity|]. pose proof (good_sole _ _ _ _ G Hcell) as Hs. split; [exact Hs|]. split.
  - intro Hf. pose proof (g_owned _ _ G) as O. apply Permutation_sym, Permutation_NoDup in O; [|apply seq_NoDup].
    unfold owned in O. apply (in_map snd) in Hcell. cbn in Hcell. apply in_split in Hcell. destruct Hcell as (l1 & l2 & E).
    rewrite E, <- app_assoc in O. apply NoDup_remove_2 in O. apply O. rewrite !in_app_iff. tauto.
  - intros r' x' H' Hk'. destruct (HA r' x' H' Hk') as (a' & -> & Hcell'). f_equal. f_equal. apply Hs. exact Hcell'.
Qed.
Print Assumptions C36_same_item.

(** Three threads, two of them racing into the creation of "n": the loser's object is deleted. *)
Example C36_same_item_ex :
  let c := exec (start [[Namespace 0 "n"]; [Namespace 0 "n"; Enum 0 "n"]; [Namespace 0 "n"]]) [0; 1; 1; 0; 0; 2; 1; 1] in
  map got (snd c) = [[(Namespace 0 "n", Got (Some 1))];
                     [(Namespace 0 "n", Got (Some 1)); (Enum 0 "n", Got (Some 2))];
                     [(Namespace 0 "n", Got (Some 1))]] /\ freed (fst c) = [0].
Proof. vm_compute. auto. Qed.

(** Every object made is at every moment in exactly one place: in one list, deleted, or in the hands of the one
    thread about to add it. When the threads are done, nothing is leaked and nothing deleted twice. *)
Theorem C36_objects : forall programs schedule,
  let c := exec (start programs) schedule in
  Permutation (owned c) (seq 0 (next (fst c))) /\
  (quiet c -> Permutation (map snd (cells (fst c)) ++ freed (fst c)) (seq 0 (next (fst c)))).
Proof.
  intros ps sch c. pose proof (g_owned _ _ (good_always ps sch)) as O. fold c in O. split; [exact O|].
  intro Q. unfold owned in O. replace (flat_map flight (snd c)) with (@nil nat) in O; [rewrite app_nil_r in O; exact O|].
  revert Q. unfold quiet. generalize (snd c). clear. intros l Q. induction l as [|t l IH]; [reflexivity|].
  cbn. destruct (Q 0 t eq_refl) as [E _]. unfold flight at 1. rewrite E. cbn. apply IH. intros i u Hi. apply (Q (S i) u Hi).
Qed.
Print Assumptions C36_objects.

Example C36_objects_ex :
  let c := exec (start [[Namespace 0 "n"]; [Namespace 0 "n"]]) [0; 1; 1; 0; 0] in
  quiet c /\ map snd (cells (fst c)) = [1] /\ freed (fst c) = [0] /\ next (fst c) = 2.
Proof.
  split; [|vm_compute; auto]. intros [|[|i]] t; vm_compute; intro E; try (injection E as <-; auto). destruct i; discriminate.
Qed.

(** Nobody waits and every request is answered, in order: after enough turns of a thread its program is done. *)
Theorem C36_all_answered : forall programs schedule i l,
  nth_error programs i = Some l -> 4 * List.length l < count_occ Nat.eq_dec schedule i ->
  exists t, nth_error (snd (exec (start programs) schedule)) i = Some t /\
    at_ t = Idle /\ todo t = [] /\ map fst (got t) = l.
Proof.
  intros ps sch i l Hl Hn. destruct (work sch (start ps) i (Agent Idle l [])) as (u & Hu & HS).
  - cbn. rewrite nth_error_map, Hl. reflexivity.
  - destruct HS as [[H1 H2]|HS]; [|unfold cost in HS; cbn in HS; lia].
    exists u. split; [exact Hu|]. split; [exact H1|]. split; [exact H2|].
    pose proof (g_history _ _ (good_always ps sch) _ _ Hu) as H. unfold history in H. rewrite H1, H2, Hl in H.
    cbn in H. rewrite app_nil_r in H. congruence.
Qed.
Print Assumptions C36_all_answered.

Example C36_all_answered_ex : nth_error [[Enum 0 "e"]; [Class 0 "c" 1; Find 1]] 1 = Some [Class 0 "c" 1; Find 1] /\
  4 * List.length [Class 0 "c" 1; Find 1] < count_occ Nat.eq_dec (repeat 1 9) 1.
Proof. split; [reflexivity|cbn; lia]. Qed.

(** Once created an item stays where it is: lists only grow at their end. *)
Theorem C36_lists_grow : forall c schedule, exists l, cells (fst (exec c schedule)) = (cells (fst c) ++ l)%list.
Proof. intros c sch. apply (proj1 (exec_grows sch c)). Qed.
Print Assumptions C36_lists_grow.

Example C36_lists_grow_ex :
  map snd (cells (fst (exec (start [[Enum 0 "a"; Enum 0 "b"]]) [0; 0]))) = [0] /\
  map snd (cells (fst (exec (start [[Enum 0 "a"; Enum 0 "b"]]) [0; 0; 0; 0]))) = [0; 1].
Proof. vm_compute. auto. Qed.

(** The guard on names is needed: for the empty name the second creator is given null. *)
Theorem C36_empty_name_refuted : exists programs schedule,
  let c := exec (start programs) schedule in
  programs = [[Namespace 0 ""]; [Namespace 0 ""]] /\ quiet c /\
  answered c (Namespace 0 "") (Got (Some 0)) /\ answered c (Namespace 0 "") (Got None).
Proof.
  exists [[Namespace 0 ""]; [Namespace 0 ""]], [0; 0; 1; 1; 1]. split; [reflexivity|]. split; [|split].
  - intros [|[|i]] t; vm_compute; intro E; try (injection E as <-; auto). destruct i; discriminate.
  - exists 0. eexists. split; [vm_compute; reflexivity|left; reflexivity].
  - exists 1. eexists. split; [vm_compute; reflexivity|left; reflexivity].
Qed.
Print Assumptions C36_empty_name_refuted.

(** ** C37 *)

(** Threads that register a class under one non-empty name in one container are given the one class there, or fail
    because the type already has a class; nothing else. This holds even if they disagree about the type. *)
Theorem C37_same_class_partial : forall programs schedule o n ty x,
  let c := exec (start programs) schedule in
  answered c (Class o n ty) x -> n <> "" ->
  (exists a, x = Got (Some a) /\ sole c (CClass, o, n) a /\
     forall ty' a', answered c (Class o n ty') (Got (Some a')) -> a' = a) \/
  (x = Duplicate /\ exists a, lookup_nat (table (fst c)) ty = Some a).
Proof.
  intros ps sch o n ty x c (i & t & Hi & Hin) Hn. pose proof (good_always ps sch) as G. fold c in G.
  pose proof (g_answer _ _ G _ _ Hi) as A. rewrite Forall_forall in A.
  specialize (A _ Hin (CClass, o, n) eq_refl Hn). cbn in A. destruct x as [[a|]|]; [left|destruct A|right].
  - exists a. split; [reflexivity|]. pose proof (good_sole _ _ _ _ G A) as S. split; [exact S|].
    intros ty' a' (j & u & Hj & Hin'). pose proof (g_answer _ _ G _ _ Hj) as A'. rewrite Forall_forall in A'.
    apply S. exact (A' _ Hin' (CClass, o, n) eq_refl Hn).
  - destruct A as (o' & n' & ty' & a & E & HT). injection E as <- <- <-. split; [reflexivity|].
    eapply in_lookup_nat; exact HT.
Qed.
Print Assumptions C37_same_class_partial.

(** Two threads lose the race at different points: one is given the winner's class, one fails. *)
Example C37_same_class_ex :
  let c := exec (start [[Class 0 "c" 5]; [Class 0 "c" 5]; [Class 0 "c" 5]]) ([0; 1; 2; 0; 1; 0; 0; 1; 1; 2]) in
  map got (snd c) = [[(Class 0 "c" 5, Got (Some 0))]; [(Class 0 "c" 5, Got (Some 0))]; [(Class 0 "c" 5, Duplicate)]].
Proof. vm_compute. reflexivity. Qed.

(** If a type is registered under one name in one container only: at every moment the type has no class yet or that
    one, and when the threads are done (and there was a request) the class is there and find returns it. *)
Theorem C37_one_class_partial : forall programs schedule o n ty,
  let c := exec (start programs) schedule in
  one_place programs o n ty -> n <> "" ->
  (forall a, In (ty, a) (table (fst c)) -> sole c (CClass, o, n) a) /\
  (quiet c -> requested programs (Class o n ty) ->
     exists a, sole c (CClass, o, n) a /\ lookup_nat (table (fst c)) ty = Some a).
Proof.
  intros ps sch o n ty c [P1 P2] Hn. pose proof (good_always ps sch) as G. fold c in G.
  assert (HT : forall a, In (ty, a) (table (fst c)) -> sole c (CClass, o, n) a).
  { intros a Ha. destruct (g_table _ _ G _ _ Ha) as (o' & n' & Hc & Hr). destruct (P1 _ _ Hr) as [-> ->].
    eapply good_sole; eassumption. }
  split; [exact HT|]. intros Q (l & Hl & Hin). apply In_nth_error in Hl. destruct Hl as [i Hi].
  destruct (nth_error (snd c) i) as [t|] eqn:Et.
  2:{ apply nth_error_None in Et. rewrite (g_length _ _ G) in Et. apply nth_error_None in Et. congruence. }
  destruct (Q i t Et) as [E1 E2]. pose proof (g_history _ _ G _ _ Et) as H. unfold history in H.
  rewrite E1, E2, Hi in H. cbn in H. rewrite app_nil_r in H. injection H as ->. apply in_map_iff in Hin.
  destruct Hin as ([r x] & Er & Hin). cbn in Er. subst r.
  assert (Ha : answered c (Class o n ty) x) by (exists i, t; auto).
  destruct (C37_same_class_partial ps sch o n ty x Ha Hn) as [(a & -> & S & _)|(-> & a & El)].
  2:{ exists a. split; [|exact El]. apply HT. apply lookup_nat_in. exact El. }
  exists a. split; [exact S|].
  destruct (g_linked _ _ G _ _ _ (proj1 S)) as (ty' & Hr & HL). assert (ty' = ty) by (apply P2; exact Hr). subst ty'.
  destruct HL as [HL|(j & u & r & Hj & Hu)].
  - destruct (in_lookup_nat _ _ _ HL) as [b Hb]. rewrite Hb. f_equal. apply (proj2 S).
    apply (proj1 (HT b (lookup_nat_in _ _ _ Hb))).
  - destruct (Q j u Hj) as [E _]. congruence.
Qed.
Print Assumptions C37_one_class_partial.

Example C37_one_class_ex :
  let ps := [[Class 0 "c" 5; Find 5]; [Class 0 "c" 5]; [Class 1 "c" 6]] in
  let c := exec (start ps) ([0; 1; 2; 0; 1; 0; 0; 1; 1; 0; 2; 2; 2]) in
  one_place ps 0 "c" 5 /\ quiet c /\ requested ps (Class 0 "c" 5) /\
  map got (snd c) = [[(Class 0 "c" 5, Got (Some 0)); (Find 5, Got (Some 0))]; [(Class 0 "c" 5, Got (Some 0))];
                     [(Class 1 "c" 6, Got (Some 2))]].
Proof.
  cbv zeta. split; [|split; [|split]].
  - split.
    + intros o' n' (l & Hl & Hin). cbn in Hl. repeat destruct Hl as [<-|Hl]; cbn in Hin;
        repeat (destruct Hin as [E|Hin]; [try discriminate; injection E; auto|]); tauto.
    + intros ty' (l & Hl & Hin). cbn in Hl. repeat destruct Hl as [<-|Hl]; cbn in Hin;
        repeat (destruct Hin as [E|Hin]; [try discriminate; injection E; auto|]); tauto.
  - intros [|[|[|i]]] t; vm_compute; intro E; try (injection E as <-; auto). destruct i; discriminate.
  - exists [Class 0 "c" 5]. cbn. auto.
  - vm_compute. reflexivity.
Qed.

(** Registering is safe once the class is there: a thread that begins its request when the container holds the class
    is given it, at once and whatever the others do. *)
Theorem C37_registered_before : forall programs schedule o n ty a i t rest,
  let c := exec (start programs) schedule in
  In ((CClass, o, n), a) (cells (fst c)) -> n <> "" ->
  nth_error (snd c) i = Some t -> at_ t = Idle -> todo t = Class o n ty :: rest ->
  exists t', nth_error (snd (turn c i)) i = Some t' /\ todo t' = rest /\
    got t' = (got t ++ [(Class o n ty, Got (Some a))])%list.
Proof.
  intros ps sch o n ty a i t rest c Hc Hn Hi Hat Htodo. pose proof (good_always ps sch) as G. fold c in G.
  unfold turn. rewrite Hi. unfold step. rewrite Hat, Htodo.
  rewrite (get_nonempty _ (CClass, o, n)) by exact Hn. rewrite (in_lookup _ _ _ (g_keys _ _ G) Hc).
  cbn zeta. eexists. split; [apply DeferProofs.put_same; apply nth_error_Some; congruence|]. split; reflexivity.
Qed.
Print Assumptions C37_registered_before.

Example C37_registered_before_ex :
  let c := exec (start [[Class 0 "c" 5]; [Class 0 "c" 5]]) [0; 0; 0; 0] in
  In ((CClass, 0, "c"), 0) (cells (fst c)) /\
  nth_error (snd c) 1 = Some (Agent Idle [Class 0 "c" 5] []).
Proof. vm_compute. auto. Qed.

(** Two threads which register the same class in the same place: one of them can fail with duplicate_metaclass. *)
Theorem C37_none_fails_refuted : exists programs schedule,
  let c := exec (start programs) schedule in
  programs = [[Class 0 "c" 5]; [Class 0 "c" 5]] /\ quiet c /\
  answered c (Class 0 "c" 5) (Got (Some 0)) /\ answered c (Class 0 "c" 5) Duplicate.
Proof.
  exists [[Class 0 "c" 5]; [Class 0 "c" 5]], [0; 1; 0; 0; 0; 1]. split; [reflexivity|]. split; [|split].
  - intros [|[|i]] t; vm_compute; intro E; try (injection E as <-; auto). destruct i; discriminate.
  - exists 0. eexists. split; [vm_compute; reflexivity|left; reflexivity].
  - exists 1. eexists. split; [vm_compute; reflexivity|left; reflexivity].
Qed.
Print Assumptions C37_none_fails_refuted.

(** Two threads which register one type in different places can both succeed: one type, two classes, and find knows
    only one of them. On one thread the second registration always fails (C13). *)
Theorem C37_one_class_per_type_refuted : exists programs schedule,
  let c := exec (start programs) schedule in
  programs = [[Class 0 "c" 5]; [Class 1 "c" 5]] /\ quiet c /\
  answered c (Class 0 "c" 5) (Got (Some 0)) /\ answered c (Class 1 "c" 5) (Got (Some 1)) /\
  sole c (CClass, 0, "c") 0 /\ sole c (CClass, 1, "c") 1 /\ lookup_nat (table (fst c)) 5 = Some 1.
Proof.
  exists [[Class 0 "c" 5]; [Class 1 "c" 5]], [0; 1; 0; 1; 0; 1; 0; 1]. split; [reflexivity|]. split; [|split; [|split; [|split; [|split]]]].
  - intros [|[|i]] t; vm_compute; intro E; try (injection E as <-; auto). destruct i; discriminate.
  - exists 0. eexists. split; [vm_compute; reflexivity|left; reflexivity].
  - exists 1. eexists. split; [vm_compute; reflexivity|left; reflexivity].
  - split; [left; reflexivity|]. intros a' [E|[E|[]]]; vm_compute in E; congruence.
  - split; [right; left; reflexivity|]. intros a' [E|[E|[]]]; vm_compute in E; congruence.
  - reflexivity.
Qed.
Print Assumptions C37_one_class_per_type_refuted.

(** A thread can be given the class by its container while find, which addBaseClass uses, still says it is not
    registered: the item is published before the type is linked to it. *)
Theorem C37_found_when_given_refuted : exists programs schedule,
  let c := exec (start programs) schedule in
  programs = [[Class 0 "c" 5]; [Class 0 "c" 5; Find 5]] /\
  exists t, nth_error (snd c) 1 = Some t /\ got t = [(Class 0 "c" 5, Got (Some 0)); (Find 5, Got None)].
Proof.
  exists [[Class 0 "c" 5]; [Class 0 "c" 5; Find 5]], [0; 0; 0; 1; 1]. split; [reflexivity|].
  eexists. split; vm_compute; reflexivity.
Qed.
Print Assumptions C37_found_when_given_refuted.
