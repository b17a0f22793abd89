(** C58: from definition programs to casts and calls. *)
From Coq Require Import NArith List Bool Arith String Ascii Lia.
From Verif Require Import Util TypesModel InheritModel InheritSpec InheritProofs InheritProps StringsModel StringsSpec StringsProofs.
From Verif Require Import AccModel AccSpec AccProofs AccProps CallModel CallSpec CallProofs CallProps ReturnModel ReturnSpec ReturnProofs ReturnProps.
From Verif Require Import DispatchModel DispatchSpec DispatchProofs DispatchProps.
From Verif Require Import ListsModel ReflModel ReflSpec ReflProofs ReflExec ReflMore ReflQueries ReflProps LinkSpec LinkProofs.
Import ListNotations.
Local Open Scope list_scope.
Local Notation classOf := ReflModel.class_of.

(** Whatever definition programs ran, also while others run: every base in the graph is a registered class, no class is
    above itself, and so the theorems on casts (C14, C15), accessors (C23, C24), calls (C27, C53) and look-ups (C17, C54)
    apply to the environment of the registry. *)
Theorem C58_environment : forall ok rank w e casts, reachable ok w -> ranked ok rank -> sees e w casts ->
  wf_env e /\ bases_registered e.
Proof.
  intros ok rank w e casts HR Hr [Hg He]. assert (HB : forall t, e_registered e t = true -> t < List.length (e_graph e)).
  { intros t Ht. apply He in Ht. destruct Ht as (a & Ha). rewrite Hg, graph_length. eapply class_types; eauto. }
  split; [split; [|split]|].
  - rewrite Hg. eapply link_closed; eauto.
  - rewrite Hg. eapply link_acyclic; eauto.
  - exact HB.
  - intros t d Hd. rewrite Hg in Hd. destruct (direct_inv w casts t d Hd) as (a & it & Hc & Hgt & Hin). apply He.
    destruct (reachable_wf ok w HR) as [HW _]. pose proof (wf_base _ _ _ _ HW a it d Hgt Hin) as Hn.
    destruct (classOf w d) as [b|]; [exists b; reflexivity|congruence].
Qed.
Print Assumptions C58_environment.

(** The registry and the graph answer alike, step for step: with whatever recursion is allowed, both end with the same or
    neither ends; only definitions of the class and of those above it need have run. *)
Theorem C58_inheritedFrom : forall ok k n w casts t a u b, reachable ok w ->
  classOf w t = Some a -> classOf w u = Some b -> defined w a ->
  agree w (fun r => r) (inherited (run k ok n) k w a b) (inheritedFrom (graph_of w casts) k t u).
Proof. intros ok k n w casts t a u b. apply inherited_agrees. Qed.
Print Assumptions C58_inheritedFrom.
Theorem C58_method : forall ok k n w fs ps casts t a nm, reachable ok w -> classOf w t = Some a -> defined w a -> nm <> ""%string ->
  agree w (option_map (fun x => fs (invoker w x))) (get_method (run k ok n) k w a nm)
    (getMember (DispatchModel.own_method (classes_of w fs ps) (txt nm)) false (graph_of w casts) k t).
Proof. intros ok k n w fs ps casts t a nm. apply get_method_agrees. Qed.
Print Assumptions C58_method.
Theorem C58_property : forall ok k n w fs ps casts t a nm, reachable ok w -> classOf w t = Some a -> defined w a -> nm <> ""%string ->
  agree w (option_map (fun x => ps (invoker w x))) (get_property (run k ok n) k w a nm)
    (getMember (own_property (classes_of w fs ps) (txt nm)) false (graph_of w casts) k t).
Proof. intros ok k n w fs ps casts t a nm. apply get_property_agrees. Qed.
Print Assumptions C58_property.

Lemma two_fuels {M} (own : nat -> option M) (g : graph nat) a m m' : closed g -> acyclic g -> a < List.length g ->
  List.length g <= m -> List.length g <= m' -> getMember own false g m a = getMember own false g m' a /\
  exists r, getMember own false g m a = Ok r.
Proof.
  intros Hc Ha Hl Hm Hm'.
  destruct (C17_member_lookup nat M own g m a Hc Ha Hl Hm) as [(x & E & F & U)|[E N]];
  destruct (C17_member_lookup nat M own g m' a Hc Ha Hl Hm') as [(x' & E' & F' & U')|[E' N']]; rewrite E, E'; eauto.
  - rewrite (U x' F'). eauto.
  - exfalso. clear - F N'. induction F as [a x H|a l1 d f l2 x Ho Hn _ _ IH].
    + rewrite (N' a (Relation_Operators.rt1n_refl _ _ _)) in H. discriminate.
    + apply IH. intros c Hr. apply N'. econstructor; [|exact Hr]. exists (l1 ++ (d, f) :: l2), f. split; [exact Hn|].
      apply in_or_app. right. left. reflexivity.
  - exfalso. clear - F' N. induction F' as [a x H|a l1 d f l2 x Ho Hn _ _ IH].
    + rewrite (N a (Relation_Operators.rt1n_refl _ _ _)) in H. discriminate.
    + apply IH. intros c Hr. apply N. econstructor; [|exact Hr]. exists (l1 ++ (d, f) :: l2), f. split; [exact Hn|].
      apply in_or_app. right. left. reflexivity.
Qed.

(** With enough recursion for all classes the answers are those of the declarations. *)
Theorem C58_inheritedFrom_declared : forall ok rank k n w t a u b, reachable ok w -> ranked ok rank ->
  classOf w t = Some a -> classOf w u = Some b -> defined w a -> types w <= k ->
  exists w' r, inherited (run k ok n) k w a b = Ret w' r /\ same w w' /\ (r = true <-> up w a b).
Proof.
  intros ok rank k n w t a u b HR Hr Hc Hu Hd Hk. set (casts := fun _ _ x : nat => x).
  pose proof (C58_inheritedFrom ok k n w casts t a u b HR Hc Hu Hd) as H.
  destruct (C14_inheritedFrom_reachability nat (graph_of w casts) k t u) as (r & E & Hiff); auto.
  { eapply link_closed; eauto. } { eapply link_acyclic; eauto. } { rewrite graph_length. eapply class_types; eauto. } { rewrite graph_length. exact Hk. }
  rewrite E in H. destruct (inherited (run k ok n) k w a b) as [w' r'| | | | |]; try contradiction. destruct H as [-> HS].
  exists w', r. split; [reflexivity|]. split; [exact HS|]. rewrite Hiff. destruct (reachable_wf ok w HR) as [HW _]. split; intro H.
  - destruct (reach_up ok w casts t a u HR Hc H) as (b' & Hb & Hup). congruence.
  - destruct (up_reach ok w casts t a b HR Hc H) as (u' & Hb & Hre). replace u with u'; [exact Hre|].
    destruct (wf_class1 _ _ _ _ HW u b Hu) as (bt & Hgb & _ & <-). destruct (wf_class1 _ _ _ _ HW u' b Hb) as (bt' & Hgb' & _ & <-). congruence.
Qed.
Print Assumptions C58_inheritedFrom_declared.

(** MetaClass::cast over the registry gives what it gives over the graph: the functions registered with the bases on the
    way, one after another; and null exactly if there is no way up. *)
Theorem C58_cast : forall ok rank k n w casts act t a u b x, reachable ok w -> ranked ok rank -> registered_casts w casts act ->
  classOf w t = Some a -> classOf w u = Some b -> defined w a -> types w <= k ->
  exists w' p, cast_to (run k ok n) k k w a b = Ret w' p /\ same w w' /\
    cast (graph_of w casts) k t u (Some x) = Ok (option_map (apply_all act x) p) /\
    (p <> None <-> up w a b) /\ (forall fs, p = Some fs -> way w a b fs).
Proof.
  intros ok rank k n w casts act t a u b x HR Hr Hact Hc Hu Hd Hk. destruct (reachable_wf ok w HR) as [HW Hh].
  pose proof (link_closed ok w casts HR) as HC. pose proof (link_acyclic ok rank w casts Hr HR) as HA.
  assert (Hl : t < List.length (graph_of w casts)) by (rewrite graph_length; eapply class_types; eauto).
  assert (Hf : List.length (graph_of w casts) <= k) by (rewrite graph_length; exact Hk).
  assert (HE : exists r, cast (graph_of w casts) k t u (Some x) = Ok r /\ (r <> None <-> InheritSpec.reach (graph_of w casts) t u)).
  { destruct (C15_cast_first_chain nat (graph_of w casts) k t u x HC HA Hl Hf) as [(H & fs & _ & _ & _ & ->)|[H ->]];
      eexists; (split; [reflexivity|]); split; intros; try congruence; auto. }
  destruct HE as (r & E & Hiff).
  destruct (cast_agrees ok (run k ok n) k w casts act u b HW Hact Hu k t a w x r (Nat.le_refl k) (same_refl w) Hc Hd E) as (w' & p & Ep & HS & Hp).
  exists w', p. split; [exact Ep|]. split; [exact HS|]. split; [rewrite E, Hp; reflexivity|]. split.
  - assert (Hpr : p <> None <-> r <> None) by (subst r; destruct p; cbn; split; congruence). rewrite Hpr, Hiff. split; intro H.
    + destruct (reach_up ok w casts t a u HR Hc H) as (b' & Hb & Hup). congruence.
    + destruct (up_reach ok w casts t a b HR Hc H) as (u' & Hb & Hre). replace u with u'; [exact Hre|].
      destruct (wf_class1 _ _ _ _ HW u b Hu) as (bt & Hgb & _ & <-). destruct (wf_class1 _ _ _ _ HW u' b Hb) as (bt' & Hgb' & _ & <-). congruence.
  - intros fs ->. destruct (wf_class1 _ _ _ _ HW t a Hc) as (it & Hg & Hcat & _).
    pose proof (cast_way ok k n k w a b HW Hh (ex_intro _ it (conj Hg Hcat))) as HP. rewrite Ep in HP.
    eapply way_snd; [| |eapply HP; reflexivity]; destruct HS; congruence.
Qed.
Print Assumptions C58_cast.
(** C (class 3) has the base B, B the base A: C's address goes through the functions 7 and then 5; A's is not one of a C. *)
Example C58_cast_example :
  let w := after [KClass "A" 1 false false false; KEnd; KClass "B" 2 false false false; KBase [(1, 5)]; KEnd;
                  KClass "C" 3 false false false; KBase [(2, 7)]; KEnd] in
  let casts t d x := if t =? 2 then x + 50 else 3 * x in
  let act f x := if f =? 5 then x + 50 else 3 * x in
  reachable base_ok w /\ registered_casts w casts act /\ classOf w 3 = Some 3 /\ classOf w 1 = Some 1 /\ defined w 3 /\ types w <= 30 /\
  (exists w', cast_to (run 30 base_ok 30) 30 30 w 3 1 = Ret w' (Some [7; 5])) /\
  cast (graph_of w casts) 30 3 1 (Some 4) = Ok (Some 62) /\
  (exists w', cast_to (run 30 base_ok 30) 30 30 w 1 3 = Ret w' None) /\ cast (graph_of w casts) 30 1 3 (Some 4) = Ok None.
Proof.
  cbn zeta. split; [apply after_reachable|]. split.
  { intros t a it d f x Hc Hg Hin.
    destruct t as [|[|[|[|t]]]]; vm_compute in Hc; try discriminate; injection Hc as <-; vm_compute in Hg; injection Hg as <-;
      cbn in Hin; destruct Hin as [H|[]] || destruct Hin; injection H as <- <-; reflexivity. }
  split; [vm_compute; reflexivity|]. split; [vm_compute; reflexivity|]. split.
  { intros b it _ Hg. do 5 (destruct b as [|b]; [vm_compute in Hg; try discriminate; injection Hg as <-; left; reflexivity|]).
    vm_compute in Hg. destruct b; discriminate. }
  split; [vm_compute; lia|]. split; [eexists; vm_compute; reflexivity|]. split; [vm_compute; reflexivity|].
  split; [eexists; vm_compute; reflexivity|vm_compute; reflexivity].
Qed.

Lemma looked_up {M} e (own : nat -> option M) name c d : usable (c_src c) -> no_array c -> name <> [] ->
  object_class e c d -> e_registered e d = true ->
  find_member e own name (Some c) =
    match getMember own false (e_graph e) (fuel e) d with
    | Ok (Some m) => Ran m | Ok None => DispatchModel.Refused Not_found | InheritModel.UB => Wild | InheritModel.Fuel => Endless
    end.
Proof.
  intros Hu Hn Hne O R. unfold find_member.
  destruct (class_of_variant_cases e c Hu Hn) as [[H _]|[(_ & W & _)|(d' & _ & O' & E)]].
  - destruct H. destruct O as [y O|P _ _]; [inversion O; subst; eexists; eauto|exists d; auto].
  - destruct (object_class_not_wild e c d O W).
  - rewrite E, (object_class_unique e c d' d O' O), R. cbn [whenRan]. destruct name; [congruence|reflexivity].
Qed.
Lemma txt_nonempty nm : nm <> ""%string -> txt nm <> [].
Proof. intros H E. apply H. destruct nm; [reflexivity|discriminate]. Qed.

(** variant::invoke runs exactly the function registered with the method that getMethod of the object's class gives, or
    throws because that gives none. *)
Theorem C58_invoke : forall ok rank k n w e casts fs ps tr l kc c nm args d a, reachable ok w -> ranked ok rank -> sees e w casts ->
  usable (c_src c) -> no_array c -> nm <> ""%string -> object_class e c d -> classOf w d = Some a -> defined w a -> types w <= k ->
  exists w' r, get_method (run k ok n) k w a nm = Ret w' r /\ same w w' /\
    invoke_by_name tr e l (classes_of w fs ps) kc (Some c) (txt nm) args =
    match r with
    | Some x => Ran (invoke tr e l (fs (invoker w x)) ((false, Variant kc (Some c)) :: args))
    | None => DispatchModel.Refused Not_found
    end.
Proof.
  intros ok rank k n w e casts fs ps tr l kc c nm args d a HR Hr He Hu Hn Hne O Hc Hd Hk.
  destruct (C58_environment ok rank w e casts HR Hr He) as [(HC & HA & HB) _]. destruct He as [Hg Hreg].
  assert (R : e_registered e d = true) by (apply Hreg; exists a; exact Hc).
  pose proof (C58_method ok k n w fs ps casts d a nm HR Hc Hd Hne) as H. rewrite <- Hg in H.
  destruct (two_fuels (DispatchModel.own_method (classes_of w fs ps) (txt nm)) (e_graph e) d k (fuel e) HC HA (HB d R)) as [E (r & Er)];
    [rewrite Hg, graph_length; exact Hk|apply Nat.le_refl|].
  unfold invoke_by_name. rewrite (looked_up e _ (txt nm) c d Hu Hn (txt_nonempty nm Hne) O R), <- E, Er. rewrite Er in H.
  destruct (get_method (run k ok n) k w a nm) as [w' r'| | | | |]; try contradiction. destruct H as [<- HS]. exists w', r'.
  split; [reflexivity|]. split; [exact HS|]. destruct r' as [x|]; reflexivity.
Qed.
Print Assumptions C58_invoke.

(** The same of properties: get_property refers to what the property that getProperty gives refers to, set_property sets it. *)
Theorem C58_properties : forall ok rank k n w e casts fs ps read c nm v m d a, reachable ok w -> ranked ok rank -> sees e w casts ->
  usable (c_src c) -> no_array c -> nm <> ""%string -> object_class e c d -> classOf w d = Some a -> defined w a -> types w <= k ->
  exists w' r, get_property (run k ok n) k w a nm = Ret w' r /\ same w w' /\
    get_by_name e (classes_of w fs ps) (Some c) (txt nm) m =
      match r with
      | Some x => Ran (property_get e (ps (invoker w x)) (Some (ByVariant true (Some c))) m)
      | None => DispatchModel.Refused Not_found
      end /\
    set_by_name e read (classes_of w fs ps) (Some c) (txt nm) v m =
      match r with
      | Some x => let (m', o) := property_set e read (ps (invoker w x)) (Some (ByVariant false (Some c))) v m in (m', Ran o)
      | None => (m, DispatchModel.Refused Not_found)
      end.
Proof.
  intros ok rank k n w e casts fs ps read c nm v m d a HR Hr He Hu Hn Hne O Hc Hd Hk.
  destruct (C58_environment ok rank w e casts HR Hr He) as [(HC & HA & HB) _]. destruct He as [Hg Hreg].
  assert (R : e_registered e d = true) by (apply Hreg; exists a; exact Hc).
  pose proof (C58_property ok k n w fs ps casts d a nm HR Hc Hd Hne) as H. rewrite <- Hg in H.
  destruct (two_fuels (own_property (classes_of w fs ps) (txt nm)) (e_graph e) d k (fuel e) HC HA (HB d R)) as [E (r & Er)];
    [rewrite Hg, graph_length; exact Hk|apply Nat.le_refl|].
  unfold get_by_name, set_by_name. rewrite (looked_up e _ (txt nm) c d Hu Hn (txt_nonempty nm Hne) O R), <- E, Er. rewrite Er in H.
  destruct (get_property (run k ok n) k w a nm) as [w' r'| | | | |]; try contradiction. destruct H as [<- HS]. exists w', r'.
  split; [reflexivity|]. split; [exact HS|]. destruct r' as [x|]; split; reflexivity.
Qed.
Print Assumptions C58_properties.

Lemma appended_members ok w w' o it c n t inv {M} (what : nat -> M) : reachable ok w -> reachable ok w' -> get w o = Some it -> i_cat it = Class ->
  appended w w' o c n t inv ->
  classOf w' (i_type it) = Some o /\
  members w' what c (i_type it) = map (fun x => (txt (names w x), what (invoker w x))) (ml_items (i_list it c)) ++ [(txt n, what inv)].
Proof.
  intros HR HR' Hg Hc (Hlen & (xt & Hx & _ & Hxn & _ & _ & Hxi & _) & Hother & ow & ow' & Hg1 & Hg1' & HO & Hl & _).
  rewrite Hg in Hg1. injection Hg1 as <-. destruct (reachable_wf ok w HR) as [HW _]. destruct (reachable_wf ok w' HR') as [HW' _].
  destruct HO as (Hoc & Hon & _ & Hoi & _ & _ & _ & _ & Hot & _).
  assert (Hcl : classOf w' (i_type it) = Some o).
  { rewrite <- Hot. apply (wf_class2 _ _ _ _ HW' o ow' Hg1'). congruence. }
  split; [exact Hcl|]. rewrite (members_class w' what c (i_type it) o ow' Hcl Hg1'), Hl, map_app. f_equal.
  - apply map_ext_in. intros x Hin. destruct (wf_list _ _ _ _ HW o it c x Hg Hin) as (xt' & Hgx & _).
    assert (Hlt : x < List.length (w_items w)) by (apply nth_error_Some; unfold get in Hgx; congruence).
    unfold names, invoker. destruct (Nat.eq_dec x o) as [->|Hxo].
    + rewrite Hg, Hg1', Hon, Hoi. reflexivity.
    + rewrite (Hother x Hxo) by lia. reflexivity.
  - cbn [map]. unfold names, invoker. rewrite Hx, Hxn, Hxi. reflexivity.
Qed.

(** A declaration is enough: a method declared on a class, if neither it nor a class above has one of that signature, is
    what calls with the signature run on objects of the class; calls with the bare name too, if no earlier method of the
    class has that name. *)
Theorem C58_declared_is_called : forall ok rank k n w o it nm params inv w' e casts fs ps tr l kc c args,
  reachable ok w -> ranked ok rank -> quiet w -> get w o = Some it -> i_cat it = Class ->
  run k ok n w o [KMethod nm params inv] = Ret w' tt ->
  let sig := signature (txt nm) params in
  (forall b x, up w o b -> ~ owns w b Method (str sig) x) ->
  sees e w' casts -> usable (c_src c) -> no_array c -> object_class e c (i_type it) ->
  let calls name := invoke_by_name tr e l (classes_of w' fs ps) kc (Some c) name args =
                    Ran (invoke tr e l (fs inv) ((false, Variant kc (Some c)) :: args)) in
  calls sig /\ (nm <> ""%string -> ~ In "("%char (txt nm) -> (forall x, ~ answering w o Method (txt nm) x) -> calls (txt nm)).
Proof.
  intros ok rank k n w o it nm params inv w' e casts fs ps tr l kc c args HR Hr HQ Hg Hc E sig Hno He Hu Hn O calls.
  assert (HR' : reachable ok w') by (eapply RRun; [exact HR|exact Hg|rewrite Hc; reflexivity|rewrite E; reflexivity]).
  destruct n as [|n]; [discriminate|]. cbn [run exec_with step b_cont on] in E. unfold skip in E.
  destruct (create_method (run k ok n) k w o nm params inv) as [w1 r| | | | |] eqn:Ec; try discriminate. cbn in E. injection E as ->.
  destruct (C12_class_method ok k n w o it nm params inv w' r HR HQ Hg Hc Ec) as [(b & x & Hb & Hx & _)|(_ & _ & HA)]; [destruct (Hno b x Hb Hx)|].
  destruct (C58_environment ok rank w' e casts HR' Hr He) as [Hw _]. destruct (reachable_wf ok w HR) as [HW _].
  destruct (appended_members ok w w' o it Method _ _ inv fs HR HR' Hg Hc HA) as [Hcl Hm].
  assert (R : e_registered e (i_type it) = true) by (apply He; exists o; exact Hcl).
  assert (X : forall name, name <> [] -> answers sig name -> (forall x, ~ answering w o Method name x) -> calls name).
  { intros name Hne Ha Hno'. unfold calls. eapply C54_invoke_found; eauto. apply OffersOwn.
    exists (map (fun x => (txt (names w x), fs (invoker w x))) (ml_items (i_list it Method))), sig, []. split; [|split; [exact Ha|]].
    - cbn [classes_of methods]. rewrite Hm, txt_str. reflexivity.
    - apply Forall_forall. intros [u g] Hin. apply in_map_iff in Hin. destruct Hin as (x & Ex & Hin). injection Ex as <- <-. cbn [fst].
      intro Hx. apply (Hno' x). apply In_nth_error in Hin. destruct Hin as (i & Hi). exists i. unfold entry. rewrite Hg. auto. }
  split.
  - apply X; [intro Es; pose proof (signature_has_paren (txt nm) params) as H; fold sig in H; rewrite Es in H; destruct H|left; reflexivity|].
    intros x Hx. apply (Hno o x (up_refl _ _)). apply (answering_sig ok w o it Method (txt nm) params x HW Hg). exact Hx.
  - intros Hne Hp Hno'. apply X; [apply txt_nonempty; exact Hne| |exact Hno']. right. split; [exact Hp|].
    unfold sig. rewrite signature_text. eexists. reflexivity.
Qed.
Print Assumptions C58_declared_is_called.

Lemma has_grows {M} ok k n w o it p w' (what : nat -> M) c t a : reachable ok w -> get w o = Some it -> is_container (i_cat it) = true ->
  live (run k ok n w o p) = Live w' -> classOf w t = Some a ->
  classOf w' t = Some a /\ exists r, members w' what c t = members w what c t ++ r.
Proof.
  intros HR Hg Hc HL Ht. destruct (run_grows ok k n w o it p w' HR Hg Hc HL) as [[HE HC] _].
  assert (HR' : reachable ok w') by (eapply RRun; eauto).
  destruct (reachable_wf ok w HR) as [HW _]. destruct (reachable_wf ok w' HR') as [HW' _].
  destruct (wf_class1 _ _ _ _ HW t a Ht) as (at_ & Ha & Hac & Hat). destruct (HE a at_ Ha) as (at' & Ha' & G).
  assert (Ht' : classOf w' t = Some a) by (rewrite <- Hat, <- (g_type _ _ G); apply (wf_class2 _ _ _ _ HW' a at' Ha'); rewrite (g_cat _ _ G); exact Hac).
  split; [exact Ht'|]. rewrite (members_class w' what c t a at' Ht' Ha'), (members_class w what c t a at_ Ht Ha).
  destruct (g_list _ _ G c) as (r & ->). rewrite map_app. eexists. f_equal. apply map_ext_in. intros x Hin.
  destruct (wf_list _ _ _ _ HW a at_ c x Ha Hin) as (xt & Hx & _). destruct (HE x xt Hx) as (xt' & Hx' & Gx).
  unfold names, invoker. rewrite Hx, Hx', (g_name _ _ Gx), (g_inv _ _ Gx). reflexivity.
Qed.

(** Nothing declared later changes which of its own methods a class answers with, or what a property of its own is. *)
Theorem C58_own_method_stays : forall ok rank k n w o it p w' e casts fs ps tr l kc c name args t a f,
  reachable ok w -> ranked ok rank -> get w o = Some it -> is_container (i_cat it) = true -> live (run k ok n w o p) = Live w' ->
  classOf w t = Some a -> has_method (classes_of w fs ps) name t f -> name <> [] ->
  sees e w' casts -> usable (c_src c) -> no_array c -> object_class e c t ->
  invoke_by_name tr e l (classes_of w' fs ps) kc (Some c) name args = Ran (invoke tr e l f ((false, Variant kc (Some c)) :: args)).
Proof.
  intros ok rank k n w o it p w' e casts fs ps tr l kc c name args t a f HR Hr Hg Hc HL Ht (l1 & m & l2 & Hm & Ha & Hno) Hne He Hu Hn O.
  destruct (has_grows ok k n w o it p w' fs Method t a HR Hg Hc HL Ht) as [Ht' (r & Hr')].
  assert (HR' : reachable ok w') by (eapply RRun; eauto). destruct (C58_environment ok rank w' e casts HR' Hr He) as [Hw _].
  eapply C54_invoke_found; eauto; [apply He; exists a; exact Ht'|]. apply OffersOwn. exists l1, m, (l2 ++ r). split; [|auto].
  cbn [classes_of methods] in *. rewrite Hr', Hm, <- app_assoc. reflexivity.
Qed.
Print Assumptions C58_own_method_stays.
Theorem C58_own_property_stays : forall ok k n w o it p w' fs ps name t a q,
  reachable ok w -> get w o = Some it -> is_container (i_cat it) = true -> live (run k ok n w o p) = Live w' ->
  classOf w t = Some a -> has_property (classes_of w fs ps) name t q -> has_property (classes_of w' fs ps) name t q.
Proof.
  intros ok k n w o it p w' fs ps name t a q HR Hg Hc HL Ht (l1 & l2 & Hm & Hno).
  destruct (has_grows ok k n w o it p w' ps Property t a HR Hg Hc HL Ht) as [Ht' (r & Hr')].
  exists l1, (l2 ++ r). split; [|exact Hno]. cbn [classes_of properties] in *. rewrite Hr', Hm, <- app_assoc. reflexivity.
Qed.
Print Assumptions C58_own_property_stays.
(** Once a class is derived from another it stays so: what could be converted to a base can be for ever. *)
Theorem C58_base_stays : forall ok k n w o it p w' casts t u,
  reachable ok w -> get w o = Some it -> is_container (i_cat it) = true -> live (run k ok n w o p) = Live w' ->
  reach (graph_of w casts) t u -> reach (graph_of w' casts) t u.
Proof.
  intros ok k n w o it p w' casts t u HR Hg Hc HL H. induction H as [|x y z Hd _ IH]; [constructor|]. econstructor; [|exact IH].
  destruct (direct_inv w casts x y Hd) as (a & at_ & Ha & Hga & Hin).
  destruct (has_grows ok k n w o it p w' (fun x => x) Method x a HR Hg Hc HL Ha) as [Ha' _].
  destruct (run_grows ok k n w o it p w' HR Hg Hc HL) as [[HE _] _]. destruct (HE a at_ Hga) as (at' & Hga' & G).
  eapply direct_intro; eauto. destruct (g_bases _ _ G) as (r & ->). rewrite map_app. apply in_or_app. auto.
Qed.
Print Assumptions C58_base_stays.

(** ** Cases *)

Definition shop : prog :=
  [KClass "Item" 1 false false false; KMethod "get" [] 10; KMethod "set" [txt "int"] 11; KProperty "x" 20; KEnd;
   KClass "Book" 2 false false false; KBase [(1, 0)]; KMethod "own" [] 12; KEnd].
Definition more : prog := [KClass "Book" 2 false false false; KMethod "get" [txt "int"] 13; KMethod "own" [txt "int"] 14; KEnd].
Definition all_casts (t b x : nat) : nat := x + 16.
Definition env_of (w : ReflModel.world) : env :=
  {| e_graph := graph_of w all_casts; e_registered := fun t => match classOf w t with Some _ => true | None => false end;
     e_declares := fun _ => false; e_dyn := fun k x => (k, x); e_copies := fun _ => true; e_conv := fun _ _ => None;
     e_cmp := fun _ => None; e_hash := fun l => List.length l |}.
Definition functions (i : nat) : function :=
  match i with
  | 10 => member_fn 1 true [] (RType (lref t_cint)) (Some (Refers (InObject 4) (of 1)))
  | 11 => member_fn 1 false [byval t_int] RVoid (Some Nil)
  | 12 => member_fn 2 true [] RVoid (Some Nil)
  | 13 => member_fn 2 true [byval t_int] RVoid (Some Nil)
  | _ => member_fn 2 true [byval t_int] RVoid None
  end.
Definition fields (i : nat) : property := Data (b_class 1) 4 t_int.
Lemma env_of_sees w : sees (env_of w) w all_casts.
Proof.
  split; [reflexivity|]. intro t. cbn [env_of e_registered]. destruct (classOf w t) as [a|]; split; try discriminate; eauto.
  intros (a & H). discriminate.
Qed.
Lemma base_ok_ranked : ranked base_ok (fun t => t).
Proof. intros t b H. apply Nat.ltb_lt. exact H. Qed.

Example C58_case_hypotheses :
  let w := after shop in
  reachable base_ok w /\ ranked base_ok (fun t => t) /\ sees (env_of w) w all_casts /\ quiet w /\
  classOf w 1 = Some 1 /\ classOf w 2 = Some 5 /\ defined w 5 /\ types w = 3 /\ up w 5 1 /\
  object_class (env_of w) an_object 2 /\ usable (c_src an_object) /\ no_array an_object.
Proof.
  intro w. split; [apply after_reachable|]. split; [exact base_ok_ranked|]. split; [apply env_of_sees|].
  assert (Q : quiet w).
  { intros a it H. left. do 7 (destruct a as [|a]; [vm_compute in H; injection H as <-; reflexivity|]). vm_compute in H. destruct a; discriminate. }
  split; [exact Q|]. split; [vm_compute; reflexivity|]. split; [vm_compute; reflexivity|].
  split; [intros b it _ H; eapply Q; eauto|]. split; [vm_compute; reflexivity|]. split.
  { eapply (up_step w 5 _ 1 0 1 1); [vm_compute; reflexivity|left; reflexivity|vm_compute; reflexivity|constructor]. }
  split; [apply (ClassOfObject _ _ _ 500); eapply (ObjClass _ _ 2); [repeat eexists|apply KnownStatic; reflexivity]|].
  split; [usable_tac|split; [reflexivity|discriminate]].
Qed.

Example C58_case_calls :
  let w := after shop in let w' := then_ w more in
  let call w c name args := invoke_by_name some_traits (env_of w) place (classes_of w functions fields) false (Some c) (txt name) args in
  get_method (run 30 base_ok 30) 30 w 5 "get" = Ret (touch (touch w (5, LList Method)) (1, LList Method)) (Some 2) /\ invoker w 2 = 10 /\
  call w an_object "get"%string [] = Ran (Some (Done (Result (Some (Call (Some 516) [])) (Some (refer_to t_cint 520 (of 1))) true))) /\
  call w an_object "set"%string [int_at 901 1] = Ran (Some (Done (Result (Some (Call (Some 516) [Temp Same])) None true))) /\
  call w an_object "own"%string [] = Ran (Some (Done (Result (Some (Call (Some 500) [])) None true))) /\
  call w an_object "other"%string [] = DispatchModel.Refused Not_found /\
  get_by_name (env_of w) (classes_of w functions fields) (Some an_object) (txt "x") mem0 = Ran (Done (Reference 520)) /\
  call w' an_object "own"%string [] = call w an_object "own"%string [].
Proof. vm_compute. repeat split. Qed.

(** ** What does not hold *)

(** An inherited method does not stay what a name means: after an overload is declared in the derived class, the bare name
    runs that one, and the call that worked before throws. *)
Theorem C58_inherited_stays_refuted : exists w p w' c name args x y,
  reachable base_ok w /\ live (run 30 base_ok 30 w 0 p) = Live w' /\ quiet w /\
  has_method (classes_of w functions fields) (txt name) 1 x /\ reach (graph_of w all_casts) 2 1 /\
  (invoke_by_name some_traits (env_of w) place (classes_of w functions fields) false (Some c) (txt name) args =
    Ran (invoke some_traits (env_of w) place x ((false, Variant false (Some c)) :: args))) /\
  (invoke_by_name some_traits (env_of w') place (classes_of w' functions fields) false (Some c) (txt name) args =
    Ran (invoke some_traits (env_of w') place y ((false, Variant false (Some c)) :: args))) /\
  (exists r, invoke some_traits (env_of w) place x ((false, Variant false (Some c)) :: args) = Some (Done r)) /\
  invoke some_traits (env_of w') place y ((false, Variant false (Some c)) :: args) = Some Invoke_error.
Proof.
  exists (after shop), more, (then_ (after shop) more), an_object, "get"%string, [], (functions 10), (functions 13).
  split; [apply after_reachable|]. split; [vm_compute; reflexivity|]. split; [apply C58_case_hypotheses|].
  split; [apply own_method_has; vm_compute; reflexivity|]. split.
  { apply (Relation_Operators.rt1n_trans _ _ 2 1 1); [|constructor]. exists [(1, all_casts 2 1)], (all_casts 2 1). split; [reflexivity|left; reflexivity]. }
  split; [vm_compute; reflexivity|]. split; [vm_compute; reflexivity|]. split; [eexists; vm_compute; reflexivity|vm_compute; reflexivity].
Qed.
Print Assumptions C58_inherited_stays_refuted.

(** With definitions still waiting, getMethod may answer that there is no method though, when it returns, there is one: the
    definition of a base, run by the look-up after the class itself has been searched, declares it. *)
Theorem C58_waiting_refuted : exists w w' w'' a x, reachable base_ok w /\
  get_method (run 30 base_ok 30) 30 w a "f" = Ret w' None /\
  owns w' a Method "f()" x /\ get_method (run 30 base_ok 30) 30 w' a "f" = Ret w'' (Some x).
Proof.
  exists (after [KClass "B" 1 false false false; KLazy [KUse false [KClass "D" 2 false false false; KMethod "f" [] 7]]; KEnd;
                 KClass "D" 2 false false false; KBase [(1, 0)]; KEnd]).
  eexists. eexists. exists 2, 3. split; [apply after_reachable|]. split; [vm_compute; reflexivity|].
  split; [|vm_compute; reflexivity]. exists 0. eexists. split; [vm_compute; reflexivity|]. split; vm_compute; reflexivity.
Qed.
Print Assumptions C58_waiting_refuted.
