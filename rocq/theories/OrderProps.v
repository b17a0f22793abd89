(** C67: the order in which chains of definitions run does not matter.
    Programs register in initialisers of different translation units, whose order C++ leaves open. Chains that do not
    contradict one another always complete, and what can be found afterwards is what they state. *)
From Coq Require Import List Bool Arith String Ascii Permutation.
From Verif Require Import Util RegistryModel ListsModel ListsProofs StringsModel StringsSpec ReflModel ReflSpec ReflProofs OrderSpec OrderProofs.
Import ListNotations.
Local Open Scope list_scope.
Local Open Scope string_scope.
Local Open Scope list_scope.

(** Chains that do not contradict one another and state base classes before they name them complete, in any number, and the items
    that can be found by name are those stated, where stated, with type and invoker as stated. *)
Theorem C67_as_stated ok k n h ds : states h ds -> sound (List.concat ds) -> tree ok k (List.concat ds) -> ready [] (List.concat ds) ->
  exists w, complete (S k) ok (S n) world0 h w /\ shows (run (S k) ok n) w (List.concat ds).
Proof.
  intros HS SE TE RE. destruct (sessions_ok ok none Q0 QN k n h ds HS SE TE RE) as (w & C & I). exists w. split; [exact C|]. exact (shows_ok _ _ _ _ I).
Qed.
Print Assumptions C67_as_stated.

(** Classes have the bases and derived classes stated, with the functions stated; [inherits] of the library is [ancestor] of the statements, and a class has
    its own properties and methods and those of all its bases, near and far, and no others. *)
Theorem C67_inherited ok k n h ds w : states h ds -> sound (List.concat ds) -> tree ok k (List.concat ds) -> ready [] (List.concat ds) ->
  complete (S k) ok (S n) world0 h w -> kin (run (S k) ok n) (S k) w (List.concat ds).
Proof.
  intros HS SE TE RE C. destruct (sessions_ok ok none Q0 QN k n h ds HS SE TE RE) as (w0 & C0 & I). assert (w0 = w) by (eapply complete_fun; eauto). subst w0.
  exact (kin_ok _ _ _ _ _ TE I).
Qed.
Print Assumptions C67_inherited.

(** Two programs that state the same leave registries that no look-up by name, signature or type tells apart, however the
    statements are spread over chains, ordered or repeated, as long as base classes come first and no class gets a member from two. *)
Theorem C67_same_statements ok k n h ds h' ds' : states h ds -> states h' ds' -> sound (List.concat ds) -> tree ok k (List.concat ds) -> once (List.concat ds) ->
  ready [] (List.concat ds) -> ready [] (List.concat ds') ->
  (forall d, In d (List.concat ds) <-> In d (List.concat ds')) ->
  exists w w', complete (S k) ok (S n) world0 h w /\ complete (S k) ok (S n) world0 h' w' /\ alike (run (S k) ok n) (S k) w w'.
Proof.
  intros HS HS' SE TE ON RE RE' M. destruct (sessions_ok ok none Q0 QN k n h ds HS SE TE RE) as (w & C & I).
  destruct (sessions_ok ok none Q0 QN k n h' ds' HS' (sound_ext _ _ M SE) (tree_ext _ _ _ _ M TE) RE') as (w' & C' & I'). exists w, w'. split; [exact C|]. split; [exact C'|].
  destruct (h_rank _ _ _ TE) as (rank & RK & RB).
  split; [exact (covers_ok ok none QN _ k w w' _ _ I I' M rank RK RB ON)|].
  assert (M' : forall d, In d (List.concat ds') <-> In d (List.concat ds)) by (intro d; symmetry; apply M).
  apply (covers_ok ok none QN _ k w' w _ _ I' I M' rank); [|exact RB|].
  - intros p q H. apply RK. eapply parent_incl; [|exact H]. intros d. apply M.
  - intros c p q q' m t i t' i' Hc HA HA' H1 H2. apply M in H1, H2. assert (HI : incl (List.concat ds') (List.concat ds)) by (intros d; apply M).
    refine (ON c p q q' m t i t' i' Hc _ _ H1 H2); [destruct HA as [->|HA]|destruct HA' as [->|HA']]; auto; right; eapply ancestor_incl; eauto.
Qed.
Print Assumptions C67_same_statements.

(** In particular any order of the chains in which base classes come first. *)
Theorem C67_any_order ok k n h ds h' ds' : states h ds -> states h' ds' -> sound (List.concat ds) -> tree ok k (List.concat ds) -> once (List.concat ds) ->
  ready [] (List.concat ds) -> ready [] (List.concat ds') -> Permutation h h' ->
  exists w w', complete (S k) ok (S n) world0 h w /\ complete (S k) ok (S n) world0 h' w' /\ alike (run (S k) ok n) (S k) w w'.
Proof.
  intros HS HS' SE TE ON RE RE' P. destruct (states_perm h h' ds P HS) as (ds2 & HS2 & M). assert (E : ds2 = ds').
  { clear -HS' HS2. revert ds' HS'. induction HS2 as [|l d h ds H _ IH]; intros ds' HS'; inversion HS'; subst; [reflexivity|]. f_equal; [congruence|auto]. }
  subst ds2. eapply C67_same_statements; eauto.
Qed.
Print Assumptions C67_any_order.

(** And any order at all of chains that name no base classes. *)
Theorem C67_flat ok k n h ds h' : states h ds -> sound (List.concat ds) -> free (List.concat ds) -> Permutation h h' ->
  exists w w', complete (S k) ok (S n) world0 h w /\ complete (S k) ok (S n) world0 h' w' /\ alike (run (S k) ok n) (S k) w w'.
Proof.
  intros HS SE FE P. destruct (states_perm h h' ds P HS) as (ds' & HS' & M).
  assert (FE' : free (List.concat ds')) by (intros p t f Hin; apply M in Hin; exact (FE p t f Hin)).
  eapply C67_same_statements; eauto using free_tree, free_once; apply ready_all; intros p t f Hin; exfalso; [exact (FE p t f Hin)|exact (FE' p t f Hin)].
Qed.
Print Assumptions C67_flat.

(** And chains that run twice, as those in headers do. *)
Theorem C67_repeated ok k n h ds l : states h ds -> sound (List.concat ds) -> tree ok k (List.concat ds) -> once (List.concat ds) -> ready [] (List.concat ds) -> In l h ->
  exists w w', complete (S k) ok (S n) world0 h w /\ complete (S k) ok (S n) world0 (h ++ [l]) w' /\ alike (run (S k) ok n) (S k) w w'.
Proof.
  intros HS SE TE ON RE Hl.
  assert (HD : exists d, told_by l = Some d /\ In d ds).
  { clear SE TE ON RE. induction HS as [|l0 d0 h0 ds0 H0 HS IH]; [destruct Hl|]. destruct Hl as [->|Hl]; [exists d0; split; [exact H0|left; reflexivity]|].
    destruct (IH Hl) as (d & E & Hin). exists d. split; [exact E|right; exact Hin]. }
  destruct HD as (d & Hd & Hin). assert (Hincl : incl d (List.concat ds)) by (intros x Hx; apply in_concat; eauto).
  apply (C67_same_statements ok k n h ds (h ++ [l]) (ds ++ [d])); auto.
  - apply Forall2_app; [exact HS|]. constructor; [exact Hd|constructor].
  - rewrite concat_app. cbn. rewrite app_nil_r. apply ready_join; [exact RE|]. apply ready_all. intros p t f H. rewrite app_nil_r.
    destruct (ready_named _ _ p t f RE (Hincl _ H)) as (m & q & i & X). rewrite app_nil_r in X. eauto.
  - intro x. rewrite concat_app. cbn. rewrite app_nil_r, in_app_iff. split; [auto|]. intros [H|H]; [exact H|]. apply Hincl. exact H.
Qed.
Print Assumptions C67_repeated.


(** Whether statements contradict one another can be computed. *)
Theorem C67_decided E : consistent E = true <-> sound E.
Proof. split; [apply consistent_sound|apply sound_consistent]. Qed.
Print Assumptions C67_decided.

(** Three translation units: one defines a namespace with a class and an overloaded method, one adds an enum, a property and another
    method to the same class and an attribute to the namespace, one a second class inside the first. *)
Definition unit1 : prog :=
  [KNamespace "app"; KClass "Shape" 7 true true false; KMethod "area" [] 3; KMethod "area" [txt "double"] 4; KEnd; KEnd].
Definition unit2 : prog :=
  [KNamespace "app"; KAttr "version" 2; KEnum "Color" 9; KElement "red" 1; KElement "green" 2;
   KClass "Shape" 7 true true false; KProperty "name" 5; KMethod "scale" [txt "double"] 6; KEnd; KEnd].
Definition unit3 : prog :=
  [KNamespace "app"; KClass "Shape" 7 false false false; KClass "Part" 8 true false false; KCtor "" (AOther [txt "int"]) 11; KEnd; KEnd; KEnd].

Ltac no_clash := repeat match goal with
  | H : In _ (_ :: _) |- _ => destruct H as [H|H]
  | H : In _ [] |- _ => destruct H
  | H : @eq decl (Thing _ _ _) (Thing _ _ _) |- _ => injection H; clear H; intros; subst
  | H : @eq decl (Attribute _ _ _) (Attribute _ _ _) |- _ => injection H; clear H; intros; subst
  | H : @eq decl (Element _ _ _) (Element _ _ _) |- _ => injection H; clear H; intros; subst
  | H : @eq decl (Derives _ _ _) (Derives _ _ _) |- _ => injection H; clear H; intros; subst
  | H : @eq decl _ _ |- _ => discriminate H
  end.
Definition anyone : nat -> nat -> bool := fun _ _ => true.
Definition units : list prog := [unit1; unit2; unit3].
Definition stated_units : list (list decl) := Eval vm_compute in map (fun l => match told_by l with Some d => d | None => [] end) units.
Definition all_stated : list decl := Eval vm_compute in List.concat stated_units.
Lemma all_sound : sound all_stated.
Proof. apply consistent_sound. vm_compute. reflexivity. Qed.
Example C67_units : states units stated_units /\ sound (List.concat stated_units) /\ free (List.concat stated_units) /\
  In (Thing [(Method, "scale(double)"); (Class, "Shape"); (Namespace, "app")] 0 6) (List.concat stated_units) /\
  In (Element [(Enum, "Color"); (Namespace, "app")] "green" 2) (List.concat stated_units) /\ List.length (List.concat stated_units) = 21 /\
  Permutation units [unit3; unit1; unit2].
Proof.
  assert (E : List.concat stated_units = all_stated) by reflexivity.
  split; [repeat constructor; vm_compute; reflexivity|]. rewrite E. split; [exact all_sound|]. split; [intros p t f; cbn; intuition discriminate|]. split; [cbn; tauto|]. split; [cbn; tauto|].
  split; [reflexivity|]. unfold units. apply (Permutation_cons_append [unit1; unit2] unit3) || (symmetry; apply (Permutation_cons_append [unit1; unit2] unit3)).
Qed.

(** Four units with a hierarchy: a shape and a name, a circle that is both, a disc that is a circle, and another property of a name. *)
Definition base1 : prog := [KNamespace "app"; KClass "Shape" 7 true true false; KMethod "area" [] 3; KEnd; KClass "Named" 8 false false false; KProperty "name" 5; KEnd; KEnd].
Definition base2 : prog := [KNamespace "app"; KClass "Circle" 9 false false false; KBase [(7, 1); (8, 2)]; KProperty "radius" 6; KEnd; KEnd].
Definition base3 : prog := [KNamespace "app"; KClass "Disc" 10 false true false; KBase [(9, 3)]; KMethod "fill" [txt "int"] 4; KEnd; KEnd].
Definition base4 : prog := [KNamespace "app"; KClass "Named" 8 false false false; KProperty "alias" 7; KEnd; KEnd].
Definition stated_by (h : list prog) : list (list decl) := map (fun l => match told_by l with Some d => d | None => [] end) h.
Definition family : list decl := Eval vm_compute in List.concat (stated_by [base1; base2; base3; base4]).
Definition level (p : place) : nat := match p with (Class, n) :: _ => if (n =? "Disc")%string then 2 else if (n =? "Circle")%string then 1 else 0 | _ => 0 end.
Definition in_app (n : string) : place := [(Class, n); (Namespace, "app")].
Lemma family_parent p q : parent family p q -> In (p, q) [(in_app "Circle", in_app "Shape"); (in_app "Circle", in_app "Named"); (in_app "Disc", in_app "Circle")].
Proof. intros (t & f & m & r & i & E & H1 & H2). subst q. unfold family in H1, H2. no_clash; try discriminate; cbn; auto. Qed.
Lemma family_ancestor p q : ancestor family p q -> In (p, q) [(in_app "Circle", in_app "Shape"); (in_app "Circle", in_app "Named"); (in_app "Disc", in_app "Circle");
  (in_app "Disc", in_app "Shape"); (in_app "Disc", in_app "Named")].
Proof.
  induction 1 as [p q H|p q r H _ IH]; apply family_parent in H.
  - cbn in H |- *. tauto.
  - cbn in H. destruct H as [H|[H|[H|[]]]]; injection H as <- <-; cbn in IH; destruct IH as [H'|[H'|[H'|[H'|[H'|[]]]]]]; try discriminate H'; injection H' as <-; cbn; auto 6.
Qed.
Lemma family_owner c m q t i : c = Property \/ c = Method -> In (Thing ((c, m) :: q) t i) family ->
  In (m, q) [("area()", in_app "Shape"); ("name", in_app "Named"); ("radius", in_app "Circle"); ("fill(int)", in_app "Disc"); ("alias", in_app "Named")].
Proof. intros [->| ->] H; unfold family in H; no_clash; try discriminate; cbn; auto 6. Qed.
Lemma family_member c m q q' t i t' i' : c = Property \/ c = Method -> In (Thing ((c, m) :: q) t i) family -> In (Thing ((c, m) :: q') t' i') family -> q = q'.
Proof.
  intros Hc H1 H2. apply family_owner in H1, H2; [|exact Hc..]. cbn in H1, H2. destruct H1 as [H|[H|[H|[H|[H|[]]]]]]; injection H as <- <-;
    destruct H2 as [H|[H|[H|[H|[H|[]]]]]]; inversion H; reflexivity.
Qed.
Lemma family_tree : tree anyone 2 family.
Proof.
  constructor.
  - exists level. split.
    + intros p q H. apply family_parent in H. cbn in H. destruct H as [H|[H|[H|[]]]]; injection H as <- <-; cbn; auto.
    + intros [|[[] m] p]; cbn; auto. destruct (m =? "Disc")%string; [auto|]. destruct (m =? "Circle")%string; auto.
  - reflexivity.
  - intros c p q m t i t' i' Hc H H1 H2. rewrite (family_member c m p q t i t' i' Hc H1 H2) in H. apply family_ancestor in H. cbn in H.
    destruct H as [H|[H|[H|[H|[H|[]]]]]]; injection H as E1 E2; rewrite <- E1 in E2; discriminate E2.
Qed.
Lemma family_once : once family.
Proof. intros c p q q' m t i t' i' Hc _ _ H1 H2. symmetry. exact (family_member c m q q' t i t' i' Hc H1 H2). Qed.
Example C67_family : states [base1; base2; base3; base4] (stated_by [base1; base2; base3; base4]) /\ states [base1; base4; base2; base3] (stated_by [base1; base4; base2; base3]) /\
  Permutation [base1; base2; base3; base4] [base1; base4; base2; base3] /\ List.concat (stated_by [base1; base2; base3; base4]) = family /\
  sound family /\ tree anyone 2 family /\ once family /\ ready [] family /\ ready [] (List.concat (stated_by [base1; base4; base2; base3])) /\
  ancestor family (in_app "Disc") (in_app "Named") /\ In (Thing ((Property, "alias") :: in_app "Named") 0 7) family.
Proof.
  split; [repeat constructor|]. split; [repeat constructor|]. split.
  { apply perm_skip. apply (Permutation_sym (Permutation_cons_append [base2; base3] base4)). }
  split; [reflexivity|]. split; [apply consistent_sound; vm_compute; reflexivity|]. split; [exact family_tree|]. split; [exact family_once|].
  split; [unfold family; cbn; repeat split; do 3 eexists; intuition reflexivity|]. split; [cbn; repeat split; do 3 eexists; intuition reflexivity|].
  split; [|cbn; tauto]. apply (ancestor_more _ _ (in_app "Circle")); [|apply ancestor_one];
    [exists 9, 3, "Circle", [(Namespace, "app")], 0|exists 8, 2, "Named", [(Namespace, "app")], 0]; (split; [reflexivity|]; split; cbn; tauto).
Qed.

(** ** Where the order does matter *)

Definition anything : nat -> nat -> bool := fun _ _ => true.
Definition after (h : list prog) : world := match sessions 5 anything 5 h with Live w => w | Dead => world0 end.

(** Look-up of an overloaded method by its bare name gives the overload whose chain ran first. *)
Theorem C67_bare_name_refuted : exists h h' ds w w' x x' it it' m m' mt mt',
  states h ds /\ sound (List.concat ds) /\ free (List.concat ds) /\ Permutation h h' /\
  complete 5 anything 5 world0 h w /\ complete 5 anything 5 world0 h' w' /\
  reached (run 5 anything 4) w [(Class, "A")] x /\ reached (run 5 anything 4) w' [(Class, "A")] x' /\ get w x = Some it /\ get w' x' = Some it' /\
  answer (get_method (run 5 anything 4) 5 w x "f") = Some (Some m) /\ answer (get_method (run 5 anything 4) 5 w' x' "f") = Some (Some m') /\
  get w m = Some mt /\ get w' m' = Some mt' /\ i_name mt <> i_name mt'.
Proof.
  pose (a := [KClass "A" 7 false false false; KMethod "f" [txt "int"] 1; KEnd]).
  pose (b := [KClass "A" 7 false false false; KMethod "f" [txt "long"] 2; KEnd]).
  exists [a; b], [b; a], [[Thing [(Class, "A")] 7 0; Thing [(Method, "f(int)"); (Class, "A")] 0 1]; [Thing [(Class, "A")] 7 0; Thing [(Method, "f(long)"); (Class, "A")] 0 2]],
    (after [a; b]), (after [b; a]), 1, 1. do 2 eexists. exists 2, 2. do 2 eexists.
  split; [repeat constructor|]. split.
  { constructor; cbn [List.concat app]; intros; no_clash; try discriminate; try (split; reflexivity); try reflexivity. }
  split; [intros p t f; cbn; intuition discriminate|]. split; [apply perm_swap|]. split; [exists (after [a]); split; [vm_compute; reflexivity|]; exists (after [a; b]); split; vm_compute; reflexivity|].
  split; [exists (after [b]); split; [vm_compute; reflexivity|]; exists (after [b; a]); split; vm_compute; reflexivity|].
  split; [apply (reached_item _ _ _ 0); [constructor|vm_compute; reflexivity]|]. split; [apply (reached_item _ _ _ 0); [constructor|vm_compute; reflexivity]|].
  do 6 (split; [vm_compute; reflexivity|]). discriminate.
Qed.
Print Assumptions C67_bare_name_refuted.

(** The position of an item in its container is that of its chain. *)
Theorem C67_position_refuted : exists h h' ds w w' x x' xt xt',
  states h ds /\ sound (List.concat ds) /\ free (List.concat ds) /\ Permutation h h' /\
  complete 5 anything 5 world0 h w /\ complete 5 anything 5 world0 h' w' /\
  answer (get_index (run 5 anything 4) w 0 Class 0) = Some (Some x) /\ answer (get_index (run 5 anything 4) w' 0 Class 0) = Some (Some x') /\
  get w x = Some xt /\ get w' x' = Some xt' /\ i_name xt <> i_name xt'.
Proof.
  pose (a := [KClass "A" 7 false false false; KEnd]). pose (b := [KClass "B" 8 false false false; KEnd]).
  exists [a; b], [b; a], [[Thing [(Class, "A")] 7 0]; [Thing [(Class, "B")] 8 0]], (after [a; b]), (after [b; a]), 1, 1. do 2 eexists.
  split; [repeat constructor|]. split.
  { constructor; cbn [List.concat app]; intros; no_clash; try discriminate; try (split; reflexivity); try reflexivity. }
  split; [intros p t f; cbn; intuition discriminate|]. split; [apply perm_swap|]. split; [exists (after [a]); split; [vm_compute; reflexivity|]; exists (after [a; b]); split; vm_compute; reflexivity|].
  split; [exists (after [b]); split; [vm_compute; reflexivity|]; exists (after [b; a]); split; vm_compute; reflexivity|].
  do 4 (split; [vm_compute; reflexivity|]). discriminate.
Qed.
Print Assumptions C67_position_refuted.

(** Chains that contradict one another all complete; which definition is kept is up to the order. *)
Theorem C67_conflict_refuted : exists h h' ds w w', states h ds /\ Forall sound ds /\ Permutation h h' /\
  complete 5 anything 5 world0 h w /\ complete 5 anything 5 world0 h' w' /\ ~ covers (run 5 anything 4) 5 w w'.
Proof.
  pose (a := [KClass "A" 7 false false false; KMethod "f" [] 1; KEnd]). pose (b := [KClass "A" 7 false false false; KMethod "f" [] 2; KEnd]).
  exists [a; b], [b; a], [[Thing [(Class, "A")] 7 0; Thing [(Method, "f()"); (Class, "A")] 0 1]; [Thing [(Class, "A")] 7 0; Thing [(Method, "f()"); (Class, "A")] 0 2]],
    (after [a; b]), (after [b; a]).
  split; [repeat constructor|]. split.
  { repeat constructor; cbn [List.concat app]; intros; no_clash; try discriminate; try reflexivity. }
  split; [apply perm_swap|]. split; [exists (after [a]); split; [vm_compute; reflexivity|]; exists (after [a; b]); split; vm_compute; reflexivity|].
  split; [exists (after [b]); split; [vm_compute; reflexivity|]; exists (after [b; a]); split; vm_compute; reflexivity|].
  intros CV. pose proof (c_item _ _ _ _ CV) as HI. destruct (HI [(Method, "f()"); (Class, "A")] 2) as (x' & it & it' & R & G & G' & _ & _ & _ & E).
  { apply (reached_item _ _ _ 1); [apply (reached_item _ _ _ 0); [constructor|vm_compute; reflexivity]|vm_compute; reflexivity]. }
  inversion R as [|p o c n y Ro Hx]; subst. inversion Ro as [|p o' c n y Ro' Hx']; subst. inversion Ro'; subst.
  vm_compute in Hx'. injection Hx' as <-. vm_compute in Hx. injection Hx as <-. vm_compute in G. injection G as <-. vm_compute in G'. injection G' as <-. discriminate E.
Qed.
Print Assumptions C67_conflict_refuted.

(** A chain that names a base class throws when the chain that registers the base runs later; run in that order the derived class is left
    without its base and without what follows in its chain. *)
Theorem C67_base_first_refuted : exists a b w w' x, complete 5 anything 5 world0 [a; b] w /\
  ~ (exists w2, complete 5 anything 5 world0 [b; a] w2) /\ sessions 5 anything 5 [b; a] = Live w' /\
  reached (run 5 anything 4) w [(Property, "p"); (Class, "B")] x /\ ~ (exists y, reached (run 5 anything 4) w' [(Property, "p"); (Class, "B")] y) /\
  exists y yt z zt, reached (run 5 anything 4) w [(Class, "B")] y /\ get w y = Some yt /\ i_bases yt <> [] /\
    reached (run 5 anything 4) w' [(Class, "B")] z /\ get w' z = Some zt /\ i_bases zt = [].
Proof.
  exists [KClass "A" 7 false false false; KEnd], [KClass "B" 8 false false false; KBase [(7, 1)]; KProperty "p" 3; KEnd].
  set (a := [KClass "A" _ _ _ _; KEnd]). set (b := [KClass "B" _ _ _ _; _; _; _]).
  exists (after [a; b]), (after [b; a]), 3.
  split; [exists (after [a]); split; [vm_compute; reflexivity|]; exists (after [a; b]); split; vm_compute; reflexivity|].
  split; [intros (w2 & w1 & H & _); vm_compute in H; discriminate H|]. split; [vm_compute; reflexivity|].
  split; [apply (reached_item _ _ _ 2); [apply (reached_item _ _ _ 0); [constructor|vm_compute; reflexivity]|vm_compute; reflexivity]|].
  split.
  { intros (y & R). inversion R as [|p o c n z Ro Hx]; subst. inversion Ro as [|p o' c n z Ro' Hx']; subst. inversion Ro'; subst.
    vm_compute in Hx'. injection Hx' as <-. vm_compute in Hx. discriminate Hx. }
  exists 2. eexists. exists 1. eexists. split; [apply (reached_item _ _ _ 0); [constructor|vm_compute; reflexivity]|]. split; [vm_compute; reflexivity|]. split; [discriminate|].
  split; [apply (reached_item _ _ _ 0); [constructor|vm_compute; reflexivity]|]. split; vm_compute; reflexivity.
Qed.
Print Assumptions C67_base_first_refuted.

(** A derived class that defines a property or method its base has too: no exception in any order of chains, but the definition of the
    derived class is dropped, see C18, when the one of the base runs first. *)
Theorem C67_override_refuted : exists c a b w w' x x' it it', Permutation [c; a; b] [c; b; a] /\
  complete 5 anything 5 world0 [c; a; b] w /\ complete 5 anything 5 world0 [c; b; a] w' /\
  reached (run 5 anything 4) w [(Class, "B")] 2 /\ reached (run 5 anything 4) w' [(Class, "B")] 2 /\
  answer (get_property (run 5 anything 4) 5 w 2 "p") = Some (Some x) /\ answer (get_property (run 5 anything 4) 5 w' 2 "p") = Some (Some x') /\
  get w x = Some it /\ get w' x' = Some it' /\ i_inv it = 1 /\ i_inv it' = 2.
Proof.
  pose (c := [KClass "A" 7 false false false; KEnd; KClass "B" 8 false false false; KBase [(7, 1)]; KEnd]).
  pose (a := [KClass "A" 7 false false false; KProperty "p" 1; KEnd]). pose (b := [KClass "B" 8 false false false; KProperty "p" 2; KEnd]).
  exists c, a, b, (after [c; a; b]), (after [c; b; a]). do 4 eexists. split; [constructor; apply perm_swap|].
  split; [exists (after [c]); split; [vm_compute; reflexivity|]; exists (after [c; a]); split; [vm_compute; reflexivity|]; exists (after [c; a; b]); split; vm_compute; reflexivity|].
  split; [exists (after [c]); split; [vm_compute; reflexivity|]; exists (after [c; b]); split; [vm_compute; reflexivity|]; exists (after [c; b; a]); split; vm_compute; reflexivity|].
  split; [apply (reached_item _ _ _ 0); [constructor|vm_compute; reflexivity]|]. split; [apply (reached_item _ _ _ 0); [constructor|vm_compute; reflexivity]|].
  do 4 (split; [vm_compute; reflexivity|]). split; reflexivity.
Qed.
Print Assumptions C67_override_refuted.

(** Two chains that each give a class another base, both with a method of one signature: no exception in any order, every class has the
    bases stated, but which method calls through the class reach depends on which of the two ran first. *)
Theorem C67_ambiguous_refuted : exists h h' ds ds' w w' x x' it it',
  states h ds /\ states h' ds' /\ sound (List.concat ds) /\ tree anyone 4 (List.concat ds) /\ ready [] (List.concat ds) /\ ready [] (List.concat ds') /\ Permutation h h' /\
  complete 5 anyone 5 world0 h w /\ complete 5 anyone 5 world0 h' w' /\
  reached (run 5 anyone 4) w [(Class, "C")] 5 /\ reached (run 5 anyone 4) w' [(Class, "C")] 5 /\
  answer (get_method (run 5 anyone 4) 5 w 5 "f()") = Some (Some x) /\ answer (get_method (run 5 anyone 4) 5 w' 5 "f()") = Some (Some x') /\
  get w x = Some it /\ get w' x' = Some it' /\ i_inv it = 1 /\ i_inv it' = 2.
Proof.
  pose (c := [KClass "A" 7 false false false; KMethod "f" [] 1; KEnd; KClass "B" 8 false false false; KMethod "f" [] 2; KEnd; KClass "C" 9 false false false; KEnd]).
  pose (a := [KClass "C" 9 false false false; KBase [(7, 1)]; KEnd]). pose (b := [KClass "C" 9 false false false; KBase [(8, 2)]; KEnd]).
  exists [c; a; b], [c; b; a], (stated_by [c; a; b]), (stated_by [c; b; a]), (after [c; a; b]), (after [c; b; a]). do 4 eexists.
  split; [repeat constructor|]. split; [repeat constructor|]. split; [apply consistent_sound; vm_compute; reflexivity|]. split.
  { set (E := List.concat _). vm_compute in E.
    assert (HP : forall p q, parent E p q -> p = [(Class, "C")] /\ (q = [(Class, "A")] \/ q = [(Class, "B")])).
    { intros p q (t & f & m & r & i & -> & H1 & H2). unfold E in H1, H2. no_clash; try discriminate; auto. }
    assert (HA : forall p q, ancestor E p q -> p = [(Class, "C")] /\ (q = [(Class, "A")] \/ q = [(Class, "B")])).
    { induction 1 as [p q H|p q r H _ [IH _]]; [auto|]. apply HP in H as [_ [->| ->]]; discriminate IH. }
    constructor.
    - exists (fun p => if same_place p [(Class, "C")] then 1 else 0). split; [intros p q H; apply HP in H as [-> [->| ->]]; cbn; auto|].
      intro p. destruct (same_place p _); auto.
    - reflexivity.
    - intros c0 p q m t i t' i' Hc H H1 H2. apply HA in H as [-> [->| ->]]; unfold E in H1, H2; no_clash; try discriminate. }
  split; [cbn; repeat split; do 3 eexists; intuition reflexivity|]. split; [cbn; repeat split; do 3 eexists; intuition reflexivity|]. split; [constructor; apply perm_swap|].
  split; [exists (after [c]); split; [vm_compute; reflexivity|]; exists (after [c; a]); split; [vm_compute; reflexivity|]; exists (after [c; a; b]); split; vm_compute; reflexivity|].
  split; [exists (after [c]); split; [vm_compute; reflexivity|]; exists (after [c; b]); split; [vm_compute; reflexivity|]; exists (after [c; b; a]); split; vm_compute; reflexivity|].
  split; [apply (reached_item _ _ _ 0); [constructor|vm_compute; reflexivity]|]. split; [apply (reached_item _ _ _ 0); [constructor|vm_compute; reflexivity]|].
  split; [vm_compute; reflexivity|]. split; [vm_compute; reflexivity|]. split; [vm_compute; reflexivity|]. split; [vm_compute; reflexivity|]. split; reflexivity.
Qed.
Print Assumptions C67_ambiguous_refuted.
