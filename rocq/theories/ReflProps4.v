(** Property theorems C09, C15 and C43 (continued): attributes, elements and casts in the registry. *)
From Coq Require Import List Bool Arith String Ascii Lia.
From Verif Require Import Util RegistryModel ListsModel ListsSpec ListsProofs StringsModel StringsSpec StringsProofs.
From Verif Require Import ReflModel ReflSpec ReflProofs ReflExec ReflMono ReflTerm ReflMore ReflBuilder ReflDefer ReflQueries ReflProps.
Import ListNotations.
Local Open Scope list_scope.

(** ** C09 *)

(** The attributes of an item in any registry, when no definition of it is waiting: the names are distinct and not empty,
    and every question is answered from one list. *)
Theorem C09_attribute_answers : forall ok k n w a it, reachable ok w -> get w a = Some it ->
  i_def it = None \/ i_lock it = true ->
  exists l, has_attributes ok k n w a l /\ NoDup (map fst l) /\ ~ In ""%string (map fst l) /\
    forall l', has_attributes ok k n w a l' -> l' = l.
Proof.
  intros ok k n w a it HR Hg Hi. destruct (reachable_wf ok w HR) as [HW _].
  destruct (l_attrs _ _ _ _ (wf_local _ _ _ _ HW a it Hg)) as (_ & H1 & H2). exists (nv_items (i_attrs it)).
  split; [eapply attributes_items; eauto|]. split; [exact H1|]. split; [exact H2|].
  intros l' H. eapply attributes_items; eauto.
Qed.
Print Assumptions C09_attribute_answers.
Theorem C09_element_answers : forall ok w a it, reachable ok w -> get w a = Some it ->
  exists l, has_elements w a l /\ NoDup (map fst l) /\ ~ In ""%string (map fst l) /\
    forall l', has_elements w a l' -> l' = l.
Proof.
  intros ok w a it HR Hg. destruct (reachable_wf ok w HR) as [HW _].
  destruct (l_elems _ _ _ _ (wf_local _ _ _ _ HW a it Hg)) as (_ & H1 & H2). exists (nv_items (i_elems it)).
  split; [eapply elements_items; eauto|]. split; [exact H1|]. split; [exact H2|].
  intros l' H. eapply elements_items; eauto.
Qed.
Print Assumptions C09_element_answers.

(** _(name, value) on the item being defined gives that attribute that value: a new name comes last, the other
    attributes, the elements, members and classes and all other items stay as they are. *)
Theorem C09_set_attribute : forall ok k n w b a it nm v l, reachable ok w -> b_item b = Some a -> get w a = Some it ->
  i_def it = None \/ i_lock it = true -> nm <> ""%string -> holds w (a, LAttrs) = false -> has_attributes ok k n w a l ->
  exists w' l', exec k ok n w b [KAttr nm v] = Ret w' b /\ has_attributes ok k n w' a l' /\ given l l' nm v /\
    (forall x, x <> a -> get w' x = get w x) /\ (forall o c i, entry w' o c i = entry w o c i) /\
    (forall e, has_elements w a e -> has_elements w' a e) /\ (forall t, class_of w' t = class_of w t).
Proof.
  intros ok k n w b a it nm v l HR Hb Hg Hi Hn Hh Hl. apply (attributes_items ok k n w a it l HR Hg Hi) in Hl. subst l.
  pose proof (set_attr_exec ok k n w b a it nm v HR Hb Hg Hn) as H. rewrite Hh in H. destruct H as (l & E & Hok & Hgv).
  exists (upd w a (set_attrs l)), (nv_items l). split; [exact E|].
  assert (Hg' : get (upd w a (set_attrs l)) a = Some (set_attrs l it)) by (rewrite get_upd, Nat.eqb_refl, Hg; reflexivity).
  split; [intro q; apply (attr_query_ok ok k n _ a (set_attrs l it) q Hok Hg' Hi)|]. split; [exact Hgv|].
  assert (Ho : forall x, x <> a -> get (upd w a (set_attrs l)) x = get w x).
  { intros x Hx. rewrite get_upd. apply Nat.eqb_neq in Hx. rewrite Hx. reflexivity. }
  split; [exact Ho|]. split; [|split].
  - intros o c i. unfold entry. destruct (Nat.eq_dec o a) as [e|N]; [subst o; rewrite Hg', Hg; reflexivity|rewrite (Ho o N); reflexivity].
  - intros e He q. apply (elements_items ok w a it e HR Hg) in He. subst e.
    destruct (reachable_wf ok w HR) as [HW _].
    exact (elem_query_ok _ a (set_attrs l it) q (l_elems _ _ _ _ (wf_local _ _ _ _ HW a it Hg)) Hg').
  - intro t. unfold class_of. rewrite upd_class. reflexivity.
Qed.
Print Assumptions C09_set_attribute.
Theorem C09_set_element : forall ok k n w b a it nm v l, reachable ok w -> b_item b = Some a -> get w a = Some it ->
  i_cat it = Enum -> nm <> ""%string -> holds w (a, LElems) = false -> has_elements w a l ->
  exists w' l', exec k ok n w b [KElement nm v] = Ret w' b /\ has_elements w' a l' /\ given l l' nm v /\
    (forall x, x <> a -> get w' x = get w x) /\
    (forall e, has_attributes ok k n w a e -> has_attributes ok k n w' a e) /\ (forall t, class_of w' t = class_of w t).
Proof.
  intros ok k n w b a it nm v l HR Hb Hg Hc Hn Hh Hl. apply (elements_items ok w a it l HR Hg) in Hl. subst l.
  pose proof (set_elem_exec ok k n w b a it nm v HR Hb Hg Hc Hn) as H. rewrite Hh in H. destruct H as (l & E & Hok & Hgv).
  exists (upd w a (set_elems l)), (nv_items l). split; [exact E|].
  assert (Hg' : get (upd w a (set_elems l)) a = Some (set_elems l it)) by (rewrite get_upd, Nat.eqb_refl, Hg; reflexivity).
  split; [intro q; apply (elem_query_ok _ a (set_elems l it) q Hok Hg')|]. split; [exact Hgv|]. split; [|split].
  - intros x Hx. rewrite get_upd. apply Nat.eqb_neq in Hx. rewrite Hx. reflexivity.
  - intros e He q. destruct (reachable_wf ok w HR) as [HW _]. pose proof (l_attrs _ _ _ _ (wf_local _ _ _ _ HW a it Hg)) as Ha.
    destruct (He q) as (w1 & E1 & _). unfold attr_query, check_item in E1 |- *. rewrite Hg in E1. rewrite Hg'.
    change (i_cat (set_elems l it)) with (i_cat it). rewrite Hc in E1 |- *. cbn [is_container bind] in E1 |- *. rewrite Hg in E1. rewrite Hg'.
    change (i_attrs (set_elems l it)) with (i_attrs it). injection E1 as _ ->. eexists. split; [reflexivity|apply same_touch].
  - intro t. unfold class_of. rewrite upd_class. reflexivity.
Qed.
Print Assumptions C09_set_element.

(** Names keep their places through anything that runs later; values may be set again. *)
Theorem C09_places_stay : forall ok k n w c cit p w' a it it' l l', reachable ok w -> get w c = Some cit ->
  is_container (i_cat cit) = true -> live (run k ok n w c p) = Live w' ->
  get w a = Some it -> (i_def it = None \/ i_lock it = true) -> get w' a = Some it' -> (i_def it' = None \/ i_lock it' = true) ->
  has_attributes ok k n w a l -> has_attributes ok k n w' a l' -> exists r, map fst l' = map fst l ++ r.
Proof.
  intros ok k n w c cit p w' a it it' l l' HR Hc Hcc HL Hg Hi Hg' Hi' Hl Hl'.
  assert (HR' : reachable ok w') by exact (RRun ok k n w c cit p w' HR Hc Hcc HL).
  apply (attributes_items ok k n w a it l HR Hg Hi) in Hl. apply (attributes_items ok k n w' a it' l' HR' Hg' Hi') in Hl'. subst l l'.
  destruct (run_grows ok k n w c cit p w' HR Hc Hcc HL) as [[HE _] _]. destruct (HE a it Hg) as (it2 & Hg2 & G). rewrite Hg' in Hg2.
  injection Hg2 as <-. exact (g_attrs _ _ G).
Qed.
Print Assumptions C09_places_stay.
Theorem C09_element_places_stay : forall ok k n w c cit p w' a it l l', reachable ok w -> get w c = Some cit ->
  is_container (i_cat cit) = true -> live (run k ok n w c p) = Live w' -> get w a = Some it ->
  has_elements w a l -> has_elements w' a l' -> exists r, map fst l' = map fst l ++ r.
Proof.
  intros ok k n w c cit p w' a it l l' HR Hc Hcc HL Hg Hl Hl'.
  assert (HR' : reachable ok w') by exact (RRun ok k n w c cit p w' HR Hc Hcc HL).
  destruct (run_grows ok k n w c cit p w' HR Hc Hcc HL) as [[HE _] _]. destruct (HE a it Hg) as (it' & Hg' & G).
  apply (elements_items ok w a it l HR Hg) in Hl. apply (elements_items ok w' a it' l' HR' Hg') in Hl'. subst l l'. exact (g_elems _ _ G).
Qed.
Print Assumptions C09_element_places_stay.

Lemma elements_from w a it l : get w a = Some it -> nv_ok (i_elems it) -> nv_items (i_elems it) = l -> has_elements w a l.
Proof. intros Hg Hok <- q. apply elem_query_ok; assumption. Qed.
Lemma attributes_from ok k n w a it l : get w a = Some it -> nv_ok (i_attrs it) -> i_def it = None \/ i_lock it = true ->
  nv_items (i_attrs it) = l -> has_attributes ok k n w a l.
Proof. intros Hg Hok Hi <- q. apply attr_query_ok; assumption. Qed.

(** An enum (item 1) with an attribute and two elements; the first element is set again. *)
Example C09_registry_example :
  let w := after [KEnum "E" 1; KAttr "doc" 4; KElement "x" 1; KElement "y" 2] in
  let b := Builder (Some 1) (Some 0) [] in
  reachable base_ok w /\ has_attributes base_ok 30 30 w 1 [("doc", 4)]%string /\ has_elements w 1 [("x", 1); ("y", 2)]%string /\
  holds w (1, LElems) = false /\
  exists w', exec 30 base_ok 30 w b [KElement "x" 9] = Ret w' b /\ has_elements w' 1 [("x", 9); ("y", 2)]%string.
Proof.
  cbn zeta. assert (HR := after_reachable [KEnum "E" 1; KAttr "doc" 4; KElement "x" 1; KElement "y" 2]). split; [exact HR|].
  split; [|split; [|split]].
  - eapply attributes_items; [exact HR|vm_compute; reflexivity|left; reflexivity|reflexivity].
  - eapply elements_items; [exact HR|vm_compute; reflexivity|reflexivity].
  - vm_compute. reflexivity.
  - eexists. split; [vm_compute; reflexivity|]. eapply elements_from; [vm_compute; reflexivity| |reflexivity].
    split; [reflexivity|]. split; [repeat constructor; cbn; intuition discriminate|cbn; intuition discriminate].
Qed.

(** ** C15 *)

(** Whatever runs in between - lazy definitions of the class and of those above it -, the functions a cast applies are
    those registered with the bases on one declared way from the class to the other. *)
Theorem C15_cast_follows_declarations : forall ok k n w a it b w' fs, reachable ok w -> get w a = Some it -> i_cat it = Class ->
  cast_to (run k ok n) k k w a b = Ret w' (Some fs) -> way w' a b fs.
Proof.
  intros ok k n w a it b w' fs HR Hg Hc E. destruct (reachable_wf ok w HR) as [HW Hh].
  pose proof (cast_way ok k n k w a b HW Hh (ex_intro _ it (conj Hg Hc))) as HP. rewrite E in HP.
  destruct HP as (_ & _ & HP). apply HP. reflexivity.
Qed.
Print Assumptions C15_cast_follows_declarations.
(** While definitions are waiting the cast may miss a declared base: X, the first base of A, gets its base B from the lazy
    definition of Y, the second base of A, which runs after X was asked. Asked again the cast finds B. *)
Theorem C15_waiting_can_miss : exists w a b w' w'' fs, reachable base_ok w /\
  w = after [KClass "B" 1 false false false; KEnd; KClass "X" 2 false false false; KEnd;
             KClass "Y" 3 false false false; KLazy [KUse false [KClass "X" 2 false false false; KBase [(1, 5)]; KEnd]]; KEnd;
             KClass "A" 4 false false false; KBase [(2, 6); (3, 7)]; KEnd] /\
  a = 4 /\ b = 1 /\ cast_to (run 30 base_ok 30) 30 30 w a b = Ret w' None /\ up w' a b /\
  cast_to (run 30 base_ok 30) 30 30 w' a b = Ret w'' (Some fs) /\ fs = [6; 5].
Proof.
  eexists. exists 4, 1. eexists. eexists. eexists. split; [apply after_reachable|]. split; [reflexivity|]. split; [reflexivity|]. split; [reflexivity|].
  split; [vm_compute; reflexivity|]. split; [|split; [vm_compute; reflexivity|reflexivity]].
  eapply (up_step _ 4); [vm_compute; reflexivity|left; reflexivity|vm_compute; reflexivity|].
  eapply (up_step _ 2); [vm_compute; reflexivity|left; reflexivity|vm_compute; reflexivity|constructor].
Qed.
Print Assumptions C15_waiting_can_miss.
Example C15_registry_example :
  let w := after [KClass "B" 1 false false false; KEnd; KClass "X" 2 false false false; KLazy [KBase [(1, 5)]]; KEnd;
                  KClass "A" 4 false false false; KBase [(2, 6)]; KEnd] in
  reachable base_ok w /\ exists w', cast_to (run 30 base_ok 30) 30 30 w 3 1 = Ret w' (Some [6; 5]) /\ way w' 3 1 [6; 5] /\ ~ up w 3 1.
Proof.
  cbn zeta. split; [apply after_reachable|]. eexists. split; [vm_compute; reflexivity|]. split.
  - eapply (way_up _ 3); [vm_compute; reflexivity|left; reflexivity|vm_compute; reflexivity|].
    eapply (way_up _ 2); [vm_compute; reflexivity|left; reflexivity|vm_compute; reflexivity|constructor].
  - intro H. inversion H as [|a it t f d e Hg Hin Hc H2]; subst. vm_compute in Hg. injection Hg as <-. destruct Hin as [Hin|[]].
    injection Hin as <- <-. vm_compute in Hc. injection Hc as <-. inversion H2 as [|a it t f d e Hg Hin Hc H3]; subst.
    vm_compute in Hg. injection Hg as <-. destruct Hin.
Qed.

(** ** C43 *)

(** A visitor of for_each_attribute that sets an attribute of the same item, and one of for_each_element that adds an
    element to the same enum, block on the lock the traversal holds. *)
Theorem C43_attribute_visitor_refuted : exists w p, reachable base_ok w /\ w = after [KAttr "doc" 1] /\
  p = [KEachAttr 0 [[KAttr "seen" 2]]] /\ run 30 base_ok 30 w 0 p = Deadlock.
Proof. eexists. eexists. split; [apply after_reachable|]. split; [reflexivity|]. split; [reflexivity|]. vm_compute. reflexivity. Qed.
Print Assumptions C43_attribute_visitor_refuted.
Theorem C43_element_visitor_refuted : exists w p, reachable base_ok w /\ w = after [KEnum "E" 1; KElement "x" 1] /\
  p = [KEachElem 1 [[KEnum "E" 1; KElement "y" 2]]] /\ run 30 base_ok 30 w 0 p = Deadlock.
Proof. eexists. eexists. split; [apply after_reachable|]. split; [reflexivity|]. split; [reflexivity|]. vm_compute. reflexivity. Qed.
Print Assumptions C43_element_visitor_refuted.
(** So does a visitor that only asks, when its question starts a lazy definition that sets such an attribute. *)
Theorem C43_attribute_definition_refuted : exists w p, reachable base_ok w /\
  w = after [KAttr "doc" 1; KClass "A" 1 false false false; KLazy [KUse false [KAttr "classes" 1]]; KEnd] /\
  p = [KEachAttr 0 [[KCount 1 Method]]] /\ run 30 base_ok 30 w 0 p = Deadlock.
Proof. eexists. eexists. split; [apply after_reachable|]. split; [reflexivity|]. split; [reflexivity|]. vm_compute. reflexivity. Qed.
Print Assumptions C43_attribute_definition_refuted.
(** Setting the attributes of other items is fine. *)
Example C43_attribute_example :
  exists w', run 30 base_ok 30 (after [KAttr "doc" 1; KNamespace "n"; KEnd]) 0 [KEachAttr 0 [[KNamespace "n"; KAttr "seen" 2]]] = Ret w' tt /\
    has_attributes base_ok 30 30 w' 1 [("seen", 2)]%string.
Proof.
  eexists. split; [vm_compute; reflexivity|]. eapply attributes_from; [vm_compute; reflexivity| |left; reflexivity|reflexivity].
  split; [reflexivity|]. split; [repeat constructor; cbn; intuition discriminate|cbn; intuition discriminate].
Qed.

(** ** C16 *)

(** Asked one after the other, whatever definitions run in between: a class that names another as its base is named by it as
    derived, and conversely. *)
Local Lemma bases_told ok k n w a w' l : WF false false ok w -> hk false w -> has_cat Class w a ->
  bases_query (run k ok n) w a = Ret w' l -> steps false false ok w w' /\ hk false w' /\ exists it, get w' a = Some it /\ l = i_bases it.
Proof.
  intros HW Hk Ha E. assert (Hrun : forall w a p, WF false false ok w -> hk false w -> cont w a -> prog_pre false false w p ->
    post false false ok w (run k ok n w a p) (fun _ _ => True)) by (intros; apply run_post; assumption).
  pose proof (bases_query_post _ _ _ _ Hrun w a HW Hk Ha) as HP. rewrite E in HP. destruct HP as (HS & HB & _).
  split; [exact HS|]. split; [eapply bal_hk; eauto|]. unfold bases_query in E. destruct (check _ w a) as [w1 x| | | | |]; try discriminate. cbn [bind] in E.
  destruct (get w1 a) as [it|] eqn:Hg; [|discriminate]. injection E as <- <-. exists it. split; [exact Hg|reflexivity].
Qed.
Local Lemma derived_told ok k n w a w' l : WF false false ok w -> hk false w -> has_cat Class w a ->
  derived_query (run k ok n) w a = Ret w' l -> steps false false ok w w' /\ hk false w' /\ exists it, get w' a = Some it /\ l = i_derived it.
Proof.
  intros HW Hk Ha E. assert (Hrun : forall w a p, WF false false ok w -> hk false w -> cont w a -> prog_pre false false w p ->
    post false false ok w (run k ok n w a p) (fun _ _ => True)) by (intros; apply run_post; assumption).
  pose proof (derived_query_post _ _ _ _ Hrun w a HW Hk Ha) as HP. rewrite E in HP. destruct HP as (HS & HB & _).
  split; [exact HS|]. split; [eapply bal_hk; eauto|]. unfold derived_query in E. destruct (check _ w a) as [w1 x| | | | |]; try discriminate. cbn [bind] in E.
  destruct (get w1 a) as [it|] eqn:Hg; [|discriminate]. injection E as <- <-. exists it. split; [exact Hg|reflexivity].
Qed.
Theorem C16_base_then_derived : forall ok k n w a it b bt w1 w2 la lb, reachable ok w ->
  get w a = Some it -> i_cat it = Class -> get w b = Some bt -> i_cat bt = Class ->
  bases_query (run k ok n) w a = Ret w1 la -> derived_query (run k ok n) w1 b = Ret w2 lb ->
  In (i_type bt) (map fst la) -> In (i_type it) lb.
Proof.
  intros ok k n w a it b bt w1 w2 la lb HR Ha Ca Hb Cb E1 E2 Hin. destruct (reachable_wf ok w HR) as [HW Hk].
  destruct (bases_told ok k n w a w1 la HW Hk (ex_intro _ it (conj Ha Ca)) E1) as (S1 & Hk1 & it1 & Ha1 & ->).
  pose proof (steps_wf _ _ _ _ _ HW S1) as HW1. destruct (proj1 (steps_extends _ _ _ _ _ HW S1) b bt Hb) as (bt1 & Hb1 & G1).
  destruct (proj1 (steps_extends _ _ _ _ _ HW S1) a it Ha) as (it1' & Ha1' & G1'). rewrite Ha1 in Ha1'. injection Ha1' as <-.
  assert (Cb1 : i_cat bt1 = Class) by (rewrite (g_cat _ _ G1); exact Cb).
  destruct (derived_told ok k n w1 b w2 lb HW1 Hk1 (ex_intro _ bt1 (conj Hb1 Cb1)) E2) as (S2 & _ & bt2 & Hb2 & ->).
  destruct (proj1 (steps_extends _ _ _ _ _ HW1 S2) b bt1 Hb1) as (bt2' & Hb2' & G2). rewrite Hb2 in Hb2'. injection Hb2' as <-.
  assert (Ca1 : i_cat it1 = Class) by (rewrite (g_cat _ _ G1'); exact Ca).
  destruct (g_derived _ _ G2) as [r ->]. apply in_or_app. left. rewrite <- (g_type _ _ G1').
  apply (wf_mirror _ _ _ w1 HW1 a it1 b bt1 Ha1 Hb1 Ca1 Cb1). rewrite (g_type _ _ G1). exact Hin.
Qed.
Print Assumptions C16_base_then_derived.
Theorem C16_derived_then_base : forall ok k n w a it b bt w1 w2 la lb, reachable ok w ->
  get w a = Some it -> i_cat it = Class -> get w b = Some bt -> i_cat bt = Class ->
  derived_query (run k ok n) w b = Ret w1 lb -> bases_query (run k ok n) w1 a = Ret w2 la ->
  In (i_type it) lb -> In (i_type bt) (map fst la).
Proof.
  intros ok k n w a it b bt w1 w2 la lb HR Ha Ca Hb Cb E1 E2 Hin. destruct (reachable_wf ok w HR) as [HW Hk].
  destruct (derived_told ok k n w b w1 lb HW Hk (ex_intro _ bt (conj Hb Cb)) E1) as (S1 & Hk1 & bt1 & Hb1 & ->).
  pose proof (steps_wf _ _ _ _ _ HW S1) as HW1. destruct (proj1 (steps_extends _ _ _ _ _ HW S1) a it Ha) as (it1 & Ha1 & G1).
  destruct (proj1 (steps_extends _ _ _ _ _ HW S1) b bt Hb) as (bt1' & Hb1' & G1'). rewrite Hb1 in Hb1'. injection Hb1' as <-.
  assert (Ca1 : i_cat it1 = Class) by (rewrite (g_cat _ _ G1); exact Ca).
  destruct (bases_told ok k n w1 a w2 la HW1 Hk1 (ex_intro _ it1 (conj Ha1 Ca1)) E2) as (S2 & _ & it2 & Ha2 & ->).
  destruct (proj1 (steps_extends _ _ _ _ _ HW1 S2) a it1 Ha1) as (it2' & Ha2' & G2). rewrite Ha2 in Ha2'. injection Ha2' as <-.
  assert (Cb1 : i_cat bt1 = Class) by (rewrite (g_cat _ _ G1'); exact Cb).
  destruct (g_bases _ _ G2) as [r ->]. rewrite map_app. apply in_or_app. left. rewrite <- (g_type _ _ G1').
  apply (wf_mirror _ _ _ w1 HW1 a it1 b bt1 Ha1 Hb1 Ca1 Cb1). rewrite (g_type _ _ G1). exact Hin.
Qed.
Print Assumptions C16_derived_then_base.
(** X declares its base B by a lazy definition, which runs when X is asked; B names X only then. *)
Example C16_answers_example :
  let w := after [KClass "B" 1 false false false; KEnd; KClass "X" 2 false false false; KLazy [KBase [(1, 5)]]; KEnd] in
  reachable base_ok w /\ (exists w1 w2, bases_query (run 30 base_ok 30) w 2 = Ret w1 [(1, 5)] /\ derived_query (run 30 base_ok 30) w1 1 = Ret w2 [2]) /\
  exists w1, derived_query (run 30 base_ok 30) w 1 = Ret w1 [].
Proof.
  cbn zeta. split; [apply after_reachable|]. split.
  - eexists. eexists. split; [vm_compute; reflexivity|vm_compute; reflexivity].
  - eexists. vm_compute. reflexivity.
Qed.
