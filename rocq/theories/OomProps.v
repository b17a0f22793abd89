(** When memory runs out (C51). *)
From Coq Require Import List Bool Arith Lia.
From Verif Require Import OomModel OomSpec OomProofs.
Import ListNotations.

Definition reachable (s : state) : Prop := exists l h, run empty l = Some (s, h).
Lemma reachable_valid s : reachable s -> valid s.
Proof. intros (l & h & E). exact (proj2 (run_ok _ _ _ _ valid_empty E)). Qed.

(** Whatever fails later: what is listed stays at its place, alive; what is found stays found. *)
Theorem C51_stays : forall s l s' h, reachable s -> run s l = Some (s', h) ->
  (forall c k i e, nth_error (of_list s c k) i = Some e -> nth_error (of_list s' c k) i = Some e /\ In (e_object e) (heap s')) /\
  (forall c k n x, lookup s c k n = Some x -> lookup s' c k n = Some x) /\
  (forall n t, assoc (types s) n = Some t -> assoc (types s') n = Some t) /\
  (forall t x, assoc (links s) t = Some x -> assoc (links s') t = Some x) /\
  (forall i p, nth_error (bases s) i = Some p -> nth_error (bases s') i = Some p) /\
  (forall i p, nth_error (derived s) i = Some p -> nth_error (derived s') i = Some p) /\
  (forall f t g, converter (converters s) f t = Some g -> converter (converters s') f t = Some g).
Proof.
  intros s l s' h R E. pose proof (reachable_valid _ R) as V. destruct (run_ok _ _ _ _ V E) as [K V'].
  assert (P : forall A (l m : list A) i x, nth_error l i = Some x -> nth_error (l ++ m) i = Some x).
  { intros A l0 m i x H. rewrite nth_error_app1; [exact H|]. apply nth_error_Some. congruence. }
  split.
  { intros c k i e H. destruct (k_entries _ _ K) as (more & Em). destruct (of_list_grow _ _ _ c k Em) as (m & Eo).
    split; [rewrite Eo; apply P; exact H|]. apply (v_alive _ V'). apply in_or_app. left. apply in_map. rewrite Em. apply in_or_app. left.
    apply nth_error_In in H. apply filter_In in H. apply H. }
  split; [intros c k n x; exact (lookup_keeps _ _ _ _ _ _ K V)|].
  split; [exact (k_types _ _ K)|]. split; [exact (k_links _ _ K)|].
  destruct (k_bases _ _ K) as (m1 & ->). destruct (k_derived _ _ K) as (m2 & ->).
  split; [intros i p; apply P|]. split; [intros i p; apply P|]. exact (k_converters _ _ K).
Qed.

(** A call that returns has done its work, whatever failed before. *)
Theorem C51_returned : forall s x o s' v, reachable s -> perform s x o = Done s' v ->
  match x with
  | Create c k n t => exists y, v = VObject (Some y) /\ lookup s' c k n = Some y
  | Set_attribute y n w => get_attribute s' y n = Some w
  | Register n => exists t, v = VType t /\ assoc (types s') n = Some t
  | Add_base d b => In (d, b) (bases s') /\ In (b, d) (derived s')
  | Add_converter f t g => exists g', converter (converters s') f t = Some g' /\ (v = VBool true -> g' = g) /\ (v = VBool false -> s' = s)
  | Has_converter f t => exists i j, assoc (types s') f = Some i /\ assoc (types s') t = Some j /\
      v = VBool (match converter (converters s) i j with Some _ => true | None => false end)
  end.
Proof.
  intros s x o s' v R E. pose proof (reachable_valid _ R) as V. destruct x; cbn [perform] in E.
  - pose proof (create_cases s o c k n t V) as C. destruct (create s o c k n t) as [s1 y|s1|s1|]; try discriminate. cbn in E. injection E as <- <-.
    destruct (created_found _ _ _ _ _ _ _ V C) as (z & -> & L). exists z. split; [reflexivity|exact L].
  - pose proof (set_cases s o x n v0) as C. destruct (set_attribute s o x n v0) as [s1 y|s1|s1|] eqn:E1; try discriminate. cbn in E. injection E as <- <-.
    rewrite (setting_value _ _ _ _ _ s1 V C eq_refl), !Nat.eqb_refl. reflexivity.
  - pose proof (register_cases s o n) as C. destruct (register s o n) as [s1 y|s1|s1|]; try discriminate. cbn in E. injection E as <- <-.
    exists y. split; [reflexivity|]. inversion C; subst; [assumption|]. cbn. rewrite Nat.eqb_refl. reflexivity.
  - pose proof (base_cases s o d b) as C. destruct (add_base s o d b) as [s1 y|s1|s1|]; try discriminate. cbn in E. injection E as <- <-.
    inversion C; subst. split; assumption.
  - pose proof (converter_cases s o f t g) as C. destruct (add_converter s o f t g) as [s1 y|s1|s1|]; try discriminate. cbn in E. injection E as <- <-.
    inversion C as [g' Hc|Hc|Hc]; subst.
    + exists g'. split; [exact Hc|]. split; [discriminate|reflexivity].
    + exists g. cbn. rewrite !Nat.eqb_refl. split; [reflexivity|]. split; [reflexivity|discriminate].
  - destruct (has_converter s o f t) as [s1 y|s1|s1|] eqn:E1; try discriminate. cbn in E. injection E as <- <-.
    apply has_converter_types in E1. destruct E1 as (s2 & i & j & C1 & C2 & ->). exists i, j.
    assert (T2 : assoc (types s2) f = Some i) by (inversion C1; subst; [assumption|cbn; rewrite Nat.eqb_refl; reflexivity]).
    split; [exact (k_types _ _ (registering_keeps _ _ _ _ C2 eq_refl) _ _ T2)|].
    split; [inversion C2; subst; [assumption|cbn; rewrite Nat.eqb_refl; reflexivity]|].
    assert (Q : converters s1 = converters s).
    { assert (Q1 : converters s2 = converters s) by (inversion C1; subst; reflexivity). rewrite <- Q1. inversion C2; subst; reflexivity. }
    rewrite Q. reflexivity.
Qed.

(** With memory again, every call can be repeated with success; other exceptions are those of the library. *)
Lemma plenty_fails o : plenty o -> fails o = false.
Proof. intros [|b l E _]; [reflexivity|exact E]. Qed.
Lemma plenty_tl o : plenty o -> plenty (tl o).
Proof. intros [|b l E H]; [constructor|exact H]. Qed.
Theorem C51_retry : forall s x o, reachable s -> plenty o ->
  match perform s x o with
  | Done _ _ => True
  | Error s' => s' = s /\ match x with
                          | Create c k n t => k = Class /\ lookup s c k n = None /\ exists y c' n', assoc (links s) t = Some y /\ lookup s c' Class n' = Some y
                          | Add_base d b => assoc (links s) d = None \/ assoc (links s) b = None
                          | _ => False
                          end
  | Bad _ | Terminated => False
  end.
Proof.
  intros s x o R P. pose proof (reachable_valid _ R) as V. pose proof (plenty_fails _ P) as F0. pose proof (plenty_tl _ P) as P1.
  pose proof (plenty_fails _ P1) as F1. pose proof (plenty_fails _ (plenty_tl _ P1)) as F2.
  destruct x; cbn [perform].
  - unfold create. destruct (lookup s c k n) eqn:L; [exact I|]. destruct (category_eqb k Class && _) eqn:B.
    + split; [reflexivity|]. apply andb_true_iff in B. destruct B as [B1 B2]. apply cat_eq in B1. subst k. split; [reflexivity|]. split; [reflexivity|].
      destruct (assoc (links s) t) as [y|] eqn:A; [|discriminate]. destruct (v_link _ V _ _ A) as (c' & n' & G). exists y, c', n'. split; [reflexivity|exact G].
    + rewrite F0. unfold add. destruct (position _ c k n); [exact I|]. rewrite F1, F2. exact I.
  - unfold set_attribute. rewrite F0, F1, F2. destruct (attr_position _ x n); exact I.
  - unfold register. rewrite F0, F1. destruct (assoc (types s) n); exact I.
  - unfold add_base. destruct (assoc (links s) d) eqn:Ed; [|split; auto]. destruct (assoc (links s) b) eqn:Eb; [|split; auto].
    rewrite F0, andb_false_r. destruct (linked (derived s) b d); [exact I|]. destruct (linked (bases s) d b); [rewrite F0|rewrite F1]; exact I.
  - unfold add_converter. rewrite F0. destruct (converter _ f t); exact I.
  - unfold has_converter. destruct (register s o f) as [s1 i|s1|s1|] eqn:E.
    + set (o2 := match assoc (types s) f with Some _ => o | None => tl (tl o) end).
      assert (P2 : plenty o2) by (unfold o2; destruct (assoc (types s) f); [exact P|exact (plenty_tl _ P1)]).
      unfold register. rewrite (plenty_fails _ P2), (plenty_fails _ (plenty_tl _ P2)). destruct (assoc (types s1) t); exact I.
    + unfold register in E. rewrite F0, F1 in E. destruct (assoc (types s) f); discriminate.
    + unfold register in E. rewrite F0, F1 in E. destruct (assoc (types s) f); discriminate.
    + unfold register in E. rewrite F0, F1 in E. destruct (assoc (types s) f); discriminate.
Qed.

(** A call that fails changes nothing that is read by name, except that a method may be there nonetheless. *)
Theorem C51_failed : forall s x o s', reachable s -> perform s x o = Bad s' ->
  (forall c k n, walked k = false \/ is_create c k n x = false -> lookup s' c k n = lookup s c k n) /\
  (forall y n, get_attribute s' y n = get_attribute s y n) /\
  (forall n, assoc (types s') n = assoc (types s) n) /\
  (forall t, assoc (links s') t = assoc (links s) t) /\
  (forall f t, converter (converters s') f t = converter (converters s) f t) /\
  derived s' = derived s /\ (bases s' = bases s \/ exists d b, x = Add_base d b /\ bases s' = bases s ++ [(d, b)]).
Proof.
  intros s x o s' R E. pose proof (reachable_valid _ R) as V. destruct x; cbn [perform] in E.
  - pose proof (create_cases s o c k n t V) as C. destruct (create s o c k n t) as [s1 y|s1|s1|]; try discriminate. cbn in E. injection E as <-.
    inversion C; subst.
    + repeat (split; [reflexivity|]). left. reflexivity.
    + split; [intros c0 k0 n0 _; destruct k0; reflexivity|]. repeat (split; [reflexivity|]). left. reflexivity.
    + split; [|split; [|repeat (split; [reflexivity|]); left; reflexivity]].
      * intros c0 k0 n0 HW. destruct (walked k0) eqn:W.
        -- destruct HW as [HW|HW]; [discriminate|].
           assert (F : find_method (listed (allocated s) (Entry c k n (next s))) c0 k0 n0 = find_method s c0 k0 n0).
           { unfold find_method. rewrite of_list_listed. cbn [e_in e_category]. cbn in HW. change (of_list (allocated s) c0 k0) with (of_list s c0 k0).
             destruct ((c =? c0) && category_eqb k k0) eqn:B; [|rewrite app_nil_r; reflexivity]. cbn in HW.
             f_equal. induction (of_list s c0 k0) as [|a l IH]; cbn; [rewrite HW; reflexivity|]. destruct (e_name a =? n0); [reflexivity|exact IH]. }
           destruct k0; try discriminate; exact F.
        -- rewrite !lookup_walked by exact W. apply (get_listed (allocated s)). apply valid_allocated, V.
      * reflexivity.
  - pose proof (set_cases s o x n v) as C. destruct (set_attribute s o x n v) as [s1 y|s1|s1|]; try discriminate. cbn in E. injection E as <-.
    split; [|split; [intros y m; exact (setting_value _ _ _ _ _ s1 V C eq_refl y m)|inversion C; subst; repeat (split; [reflexivity|]); left; reflexivity]].
    inversion C; subst; intros c0 k0 n0 _; destruct k0; reflexivity.
  - pose proof (register_cases s o n) as C. destruct (register s o n) as [s1 y|s1|s1|]; try discriminate. cbn in E. injection E as <-.
    split; [inversion C; subst; intros c0 k0 n0 _; destruct k0; reflexivity|]. inversion C; subst; repeat (split; [reflexivity|]); left; reflexivity.
  - pose proof (base_cases s o d b) as C. destruct (add_base s o d b) as [s1 y|s1|s1|]; try discriminate. cbn in E. injection E as <-.
    split; [inversion C; subst; intros c0 k0 n0 _; destruct k0; reflexivity|]. inversion C as [ |N| more N I [->|[-> N']]| ]; subst.
    + repeat (split; [reflexivity|]). left. reflexivity.
    + repeat (split; [reflexivity|]). left. cbn. apply app_nil_r.
    + repeat (split; [reflexivity|]). right. exists d, b. split; reflexivity.
  - pose proof (converter_cases s o f t g) as C. destruct (add_converter s o f t g) as [s1 y|s1|s1|]; try discriminate. cbn in E. injection E as <-.
    inversion C; subst. repeat (split; [reflexivity|]). left. reflexivity.
  - pose proof (has_converter_ends s o f t) as N. destruct (has_converter s o f t); try contradiction; discriminate.
Qed.

(** A call touches only the list it is for. *)
Theorem C51_elsewhere : forall s x o s' c k, reachable s -> leaves (perform s x o) s' -> (forall n, is_create c k n x = false) ->
  of_list s' c k = of_list s c k /\ forall n, lookup s' c k n = lookup s c k n.
Proof.
  intros s x o s' c k R L N. pose proof (reachable_valid _ R) as V.
  assert (Q : entries s' = entries s -> index s' = index s -> of_list s' c k = of_list s c k /\ forall n, lookup s' c k n = lookup s c k n).
  { intros E1 E2. assert (O : of_list s' c k = of_list s c k) by exact (of_list_same _ _ _ _ E1). split; [exact O|].
    intro n. destruct k; cbn [lookup]; unfold get, find_method; rewrite ?E2, O; reflexivity. }
  destruct x as [c0 k0 n0 t0|x n v|n|d b|f t g|f t]; cbn [perform] in L; apply give_leaves in L.
  - pose proof (create_cases s o c0 k0 n0 t0 V) as C. pose proof (N n0) as N0. cbn in N0. rewrite Nat.eqb_refl, andb_true_r in N0.
    assert (O : forall s1, entries s1 = entries s ++ [Entry c0 k0 n0 (next s)] -> of_list s1 c k = of_list s c k).
    { intros s1 E. rewrite (of_list_app _ _ _ _ _ E). cbn. rewrite N0. apply app_nil_r. }
    assert (P : forall m, (c0 =? c) && category_eqb k0 k && (n0 =? m) = false) by (intro m; rewrite N0; reflexivity).
    destruct C; cbn in L; subst; try (apply Q; reflexivity).
    + assert (O1 := O (listed (allocated s) (Entry c0 k0 n0 (next s))) eq_refl). split; [exact O1|].
      intro n. destruct k; cbn [lookup]; unfold get, find_method; rewrite O1; reflexivity.
    + set (s1 := if category_eqb k0 Class then _ else _). assert (E1 : entries s1 = entries s ++ [Entry c0 k0 n0 (next s)]) by (unfold s1; destruct (category_eqb k0 Class); reflexivity).
      assert (E2 : index s1 = (c0, k0, n0, length (of_list s c0 k0)) :: index s) by (unfold s1; destruct (category_eqb k0 Class); reflexivity).
      pose proof (O s1 E1) as O1. split; [exact O1|].
      intro n. destruct k; cbn [lookup]; unfold get, find_method; rewrite ?E2, O1; cbn [position]; rewrite ?P; reflexivity.
  - pose proof (set_cases s o x n v) as C. destruct C; cbn in L; subst; apply Q; reflexivity.
  - pose proof (register_cases s o n) as C. destruct C; cbn in L; subst; apply Q; reflexivity.
  - pose proof (base_cases s o d b) as C. destruct C; cbn in L; subst; apply Q; reflexivity.
  - pose proof (converter_cases s o f t g) as C. destruct C; cbn in L; subst; apply Q; reflexivity.
  - pose proof (has_converter_ends s o f t) as E. destruct (has_converter s o f t) as [s1 b|s1|s1|] eqn:E1; try contradiction. cbn in L. subst s1.
    apply has_converter_types in E1. destruct E1 as (s2 & i & j & C1 & C2 & _).
    apply Q; inversion C1; subst; inversion C2; subst; reflexivity.
Qed.

(** What has nothing to do needs no memory. *)
Theorem C51_idle : forall s x o, 
  match x with
  | Create c k n t => lookup s c k n <> None
  | Set_attribute _ _ _ => False
  | Register n => assoc (types s) n <> None
  | Add_base d b => assoc (links s) d <> None /\ assoc (links s) b <> None /\ In (d, b) (bases s) /\ In (b, d) (derived s)
  | Add_converter f t _ => converter (converters s) f t <> None
  | Has_converter f t => assoc (types s) f <> None /\ assoc (types s) t <> None
  end -> exists v, perform s x o = Done s v.
Proof.
  intros s x o H. destruct x; cbn [perform].
  - unfold create. destruct (lookup s c k n); [eexists; reflexivity|contradiction].
  - contradiction.
  - unfold register. destruct (assoc (types s) n); [eexists; reflexivity|contradiction].
  - destruct H as (H1 & H2 & H3 & H4). unfold add_base. destruct (assoc (links s) d); [|contradiction]. destruct (assoc (links s) b); [|contradiction].
    apply linked_in in H3. apply linked_in in H4. rewrite H3, H4. cbn. eexists. destruct s. reflexivity.
  - unfold add_converter. destruct (converter (converters s) f t); [eexists; reflexivity|contradiction].
  - destruct H as [H1 H2]. unfold has_converter, register. destruct (assoc (types s) f); [|contradiction]. destruct (assoc (types s) t); [|contradiction].
    eexists. reflexivity.
Qed.

(** ** How often a name is listed *)

Lemma step_named s x o s' c k n : valid s -> leaves (perform s x o) s' ->
  named s' c k n + (match lookup s c k n with Some _ => 1 | None => 0 end) <=
  named s c k n + (match lookup s' c k n with Some _ => 1 | None => 0 end) +
  (match perform s x o with Bad _ => if is_create c k n x && negb (walked k) then 1 else 0 | _ => 0 end).
Proof.
  intros V L. assert (Q : entries s' = entries s -> index s' = index s -> named s' c k n = named s c k n /\ lookup s' c k n = lookup s c k n).
  { intros E1 E2. assert (O : of_list s' c k = of_list s c k) by exact (of_list_same _ _ _ _ E1). unfold named. rewrite O. split; [reflexivity|].
    destruct k; cbn [lookup]; unfold get, find_method; rewrite ?E2, O; reflexivity. }
  assert (Q' : entries s' = entries s -> index s' = index s ->
    named s' c k n + (match lookup s c k n with Some _ => 1 | None => 0 end) <= named s c k n + (match lookup s' c k n with Some _ => 1 | None => 0 end)).
  { intros E1 E2. destruct (Q E1 E2) as [-> ->]. lia. }
  destruct x as [c0 k0 n0 t0|x m v|m|d b|f t g|f t]; cbn [perform is_create] in *; apply give_leaves in L.
  - pose proof (create_cases s o c0 k0 n0 t0 V) as C. pose proof (created_keeps _ _ _ _ _ _ _ C L) as K. pose proof (created_valid _ _ _ _ _ _ _ V C L) as V'.
    assert (Mono : (match lookup s c k n with Some _ => 1 | None => 0 end) <= (match lookup s' c k n with Some _ => 1 | None => 0 end)).
    { destruct (lookup s c k n) as [y|] eqn:E; [rewrite (lookup_keeps _ _ _ _ _ _ K V E)|]; lia. }
    destruct C as [y H|H H0 H1|H H0|H H0|H H0|H H0 H1]; cbn in L; subst.
    + cbn. specialize (Q' eq_refl eq_refl). lia.
    + cbn. specialize (Q' eq_refl eq_refl). lia.
    + cbn. specialize (Q' eq_refl eq_refl). lia.
    + cbn [give]. specialize (Q' eq_refl eq_refl). lia.
    + cbn [give]. rewrite named_listed. cbn [e_in e_category e_name]. change (named (allocated s) c k n) with (named s c k n).
      destruct ((c0 =? c) && category_eqb k0 k && (n0 =? n)) eqn:B; [|lia]. apply key_eq in B. destruct B as (-> & -> & ->). rewrite H.
      destruct (walked k) eqn:W; cbn [andb negb]; [|lia].
      destruct (lookup (listed (allocated s) (Entry c k n (next s))) c k n) eqn:E; [lia|].
      exfalso. pose proof (not_walked_there _ _ _ _ W E) as Z. rewrite named_listed in Z. cbn [e_in e_category e_name] in Z. rewrite !Nat.eqb_refl, cat_refl in Z. cbn [andb] in Z. lia.
    + set (s1 := if category_eqb k0 Class then _ else _) in *. cbn [give].
      assert (E1 : named s1 c k n = named (listed (allocated s) (Entry c0 k0 n0 (next s))) c k n) by (unfold s1; destruct (category_eqb k0 Class); reflexivity).
      rewrite E1, named_listed. cbn [e_in e_category e_name]. change (named (allocated s) c k n) with (named s c k n).
      destruct ((c0 =? c) && category_eqb k0 k && (n0 =? n)) eqn:B; [|lia]. apply key_eq in B. destruct B as (-> & -> & ->). rewrite H.
      assert (Cr : created s c k n t0 (Done s1 (Some (next s)))) by (apply c_made; assumption).
      destruct (created_found _ _ _ _ _ _ _ V Cr) as (z & _ & ->). lia.
  - pose proof (set_cases s o x m v) as C. destruct C; cbn in L; subst; cbn [give andb]; specialize (Q' eq_refl eq_refl); lia.
  - pose proof (register_cases s o m) as C. destruct C; cbn in L; subst; cbn [give andb]; specialize (Q' eq_refl eq_refl); lia.
  - pose proof (base_cases s o d b) as C. destruct C; cbn in L; subst; cbn [give andb]; specialize (Q' eq_refl eq_refl); lia.
  - pose proof (converter_cases s o f t g) as C. destruct C; cbn in L; subst; cbn [give andb]; specialize (Q' eq_refl eq_refl); lia.
  - pose proof (has_converter_ends s o f t) as E. destruct (has_converter s o f t) as [s1 b|s1|s1|] eqn:E1; try contradiction. cbn in L. subst s1.
    apply has_converter_types in E1. destruct E1 as (s2 & i & j & C1 & C2 & _). cbn [give].
    assert (A1 : entries s' = entries s) by (inversion C1; subst; inversion C2; subst; reflexivity).
    assert (A2 : index s' = index s) by (inversion C1; subst; inversion C2; subst; reflexivity). specialize (Q' A1 A2). lia.
Qed.

Lemma run_named l : forall s s' h c k n, valid s -> run s l = Some (s', h) ->
  named s' c k n + (match lookup s c k n with Some _ => 1 | None => 0 end) <=
  named s c k n + (match lookup s' c k n with Some _ => 1 | None => 0 end) + (if walked k then 0 else failures h c k n).
Proof.
  induction l as [|[x o] l IH]; intros s s' h c k n V E.
  - cbn in E. injection E as <- <-. cbn. destruct (walked k); lia.
  - apply run_cons in E. destruct E as (s1 & e & h' & L & Ee & E & ->). destruct (perform_ok _ _ _ _ V L) as [_ V1].
    pose proof (IH _ _ _ c k n V1 E) as A. pose proof (step_named _ _ _ _ c k n V L) as B.
    unfold failures in *. cbn [filter fst snd]. destruct (perform s x o) as [s2 v|s2|s2|]; try contradiction; subst e; cbn [out] in *; rewrite ?andb_false_r, ?andb_true_r in *.
    + destruct (walked k); lia.
    + destruct (is_create c k n x), (walked k); cbn [andb negb length] in *; lia.
    + destruct (walked k); lia.
Qed.

(** One entry for what is found, and at most one for each time creating it ran out of memory; methods and constructors
    are never listed twice. *)
Theorem C51_listed : forall l s h c k n, run empty l = Some (s, h) ->
  named s c k n <= (match lookup s c k n with Some _ => 1 | None => 0 end) + (if walked k then 0 else failures h c k n) /\
  (lookup s c k n <> None -> 1 <= named s c k n).
Proof.
  intros l s h c k n E. pose proof (run_named _ _ _ _ c k n valid_empty E) as A. destruct (run_ok _ _ _ _ valid_empty E) as [_ V].
  assert (Z : named empty c k n = 0) by reflexivity. split; [rewrite Z in A; lia|].
  intro F. assert (X : exists e, In e (of_list s c k) /\ e_name e = n).
  { destruct (walked k) eqn:W.
    - assert (F' : find_method s c k n <> None) by (destruct k; try discriminate; exact F). unfold find_method in F'.
      destruct (find _ (of_list s c k)) as [e|] eqn:Ef; [|contradiction]. apply find_some in Ef. exists e. split; [apply Ef|apply Nat.eqb_eq, Ef].
    - rewrite lookup_walked in F by exact W. unfold get in F. destruct (position (index s) c k n) as [i|] eqn:P; [|contradiction].
      destruct (v_index _ V _ _ _ _ P) as (e & He & Hn). exists e. split; [exact (nth_error_In _ _ He)|exact Hn]. }
  destruct X as (e & I & <-). unfold named. assert (J : In e (filter (fun a => e_name a =? e_name e) (of_list s c k))).
  { apply filter_In. split; [exact I|apply Nat.eqb_refl]. }
  destruct (filter _ _); [contradiction|cbn; lia].
Qed.

(** ** Leaks *)
Lemma step_heap s x o s' : valid s -> leaves (perform s x o) s' ->
  length (heap s') + length (entries s) + length (attrs s) <= length (heap s) + length (entries s') + length (attrs s') +
    (match perform s x o with Bad _ => 1 | _ => 0 end) /\
  length (heap s) + length (entries s') + length (attrs s') <= length (heap s') + length (entries s) + length (attrs s).
Proof.
  intros V L. assert (AL : forall l y i w, length (assign l y i w) = length l).
  { intros l y i w. rewrite <- (map_length a_object), assign_objects, map_length. reflexivity. }
  destruct x as [c0 k0 n0 t0|x m v|m|d b|f t g|f t]; cbn [perform] in *; apply give_leaves in L.
  - pose proof (create_cases s o c0 k0 n0 t0 V) as C. destruct C; cbn in L; subst; cbn [give]; try (cbn; rewrite ?app_length; cbn; lia).
    cbn zeta. destruct (category_eqb k0 Class); cbn; rewrite ?app_length; cbn; lia.
  - pose proof (set_cases s o x m v) as C. destruct C; cbn in L; subst; cbn [give]; cbn; rewrite ?app_length, ?AL; cbn; lia.
  - pose proof (register_cases s o m) as C. destruct C; cbn in L; subst; cbn; lia.
  - pose proof (base_cases s o d b) as C. destruct C; cbn in L; subst; cbn; lia.
  - pose proof (converter_cases s o f t g) as C. destruct C; cbn in L; subst; cbn; lia.
  - pose proof (has_converter_ends s o f t) as E. destruct (has_converter s o f t) as [s1 b|s1|s1|] eqn:E1; try contradiction. cbn in L. subst s1.
    apply has_converter_types in E1. destruct E1 as (s2 & i & j & C1 & C2 & _). inversion C1; subst; inversion C2; subst; cbn; lia.
Qed.

(** Every object in a list is alive and in one place only; what is alive and in no list leaked, at most one object for each call
    that ran out of memory: without such calls nothing leaks. *)
Theorem C51_leaks : forall l s h, run empty l = Some (s, h) ->
  NoDup (map e_object (entries s) ++ map a_object (attrs s)) /\
  (forall x, In x (map e_object (entries s) ++ map a_object (attrs s)) -> In x (heap s)) /\ NoDup (heap s) /\
  length (entries s) + length (attrs s) <= length (heap s) <= length (entries s) + length (attrs s) + all_failures h.
Proof.
  intros l s h E. destruct (run_ok _ _ _ _ valid_empty E) as [_ V]. split; [exact (v_objects _ V)|]. split; [exact (v_alive _ V)|].
  split; [exact (v_heap _ V)|].
  assert (G : forall l s s' h, valid s -> run s l = Some (s', h) ->
    length (heap s') + length (entries s) + length (attrs s) <= length (heap s) + length (entries s') + length (attrs s') + all_failures h /\
    length (heap s) + length (entries s') + length (attrs s') <= length (heap s') + length (entries s) + length (attrs s)).
  { clear. induction l as [|[x o] l IH]; intros s s' h V E.
    - cbn in E. injection E as <- <-. cbn. lia.
    - apply run_cons in E. destruct E as (s1 & e & h' & L & Ee & E & ->). destruct (perform_ok _ _ _ _ V L) as [_ V1].
      destruct (IH _ _ _ V1 E) as [A A']. destruct (step_heap _ _ _ _ V L) as [B B']. unfold all_failures in *. cbn [filter snd].
      destruct (perform s x o); try contradiction; subst e; cbn [out length]; lia. }
  destruct (G l empty s h valid_empty E) as [A B]. cbn in A, B. lia.
Qed.

(** ** Attributes, converters, types, classes, bases *)

(** An attribute has the value of the last call that returned. *)
Theorem C51_attribute_last : forall l s h x n, run empty l = Some (s, h) -> get_attribute s x n = last_set h x n None.
Proof.
  assert (G : forall l s s' h x n, valid s -> run s l = Some (s', h) -> get_attribute s' x n = last_set h x n (get_attribute s x n)).
  { induction l as [|[y o] l IH]; intros s s' h x n V E.
    - cbn in E. injection E as <- <-. reflexivity.
    - apply run_cons in E. destruct E as (s1 & e & h' & L & Ee & E & ->). destruct (perform_ok _ _ _ _ V L) as [_ V1].
      rewrite (IH _ _ _ x n V1 E). destruct y as [c0 k0 n0 t0|x0 m v|m|d b|f t g|f t]; cbn [perform] in *.
      + assert (Q : get_attribute s1 x n = get_attribute s x n).
        { apply give_leaves in L. pose proof (create_cases s o c0 k0 n0 t0 V) as C. destruct C; cbn in L; subst; try reflexivity.
          cbn zeta. destruct (category_eqb k0 Class); reflexivity. }
        rewrite Q. reflexivity.
      + apply give_leaves in L. pose proof (set_cases s o x0 m v) as C. pose proof (setting_value _ _ _ _ _ _ V C L x n) as Q. rewrite Q.
        destruct (set_attribute s o x0 m v); cbn in Ee; try contradiction; subst e; cbn [last_set]; try reflexivity.
        destruct ((x0 =? x) && (m =? n)); reflexivity.
      + assert (Q : get_attribute s1 x n = get_attribute s x n).
        { apply give_leaves in L. pose proof (register_cases s o m) as C. destruct C; cbn in L; subst; reflexivity. }
        rewrite Q. reflexivity.
      + assert (Q : get_attribute s1 x n = get_attribute s x n).
        { apply give_leaves in L. pose proof (base_cases s o d b) as C. destruct C; cbn in L; subst; reflexivity. }
        rewrite Q. reflexivity.
      + assert (Q : get_attribute s1 x n = get_attribute s x n).
        { apply give_leaves in L. pose proof (converter_cases s o f t g) as C. destruct C; cbn in L; subst; reflexivity. }
        rewrite Q. reflexivity.
      + assert (Q : get_attribute s1 x n = get_attribute s x n).
        { apply give_leaves in L. pose proof (has_converter_ends s o f t) as N. destruct (has_converter s o f t) as [s3 b|s3|s3|] eqn:E1; try contradiction. cbn in L. subst s3.
          apply has_converter_types in E1. destruct E1 as (s2 & i & j & C1 & C2 & _). inversion C1; subst; inversion C2; subst; reflexivity. }
        rewrite Q. reflexivity. }
  intros l s h x n E. exact (G l empty s h x n valid_empty E).
Qed.

(** A converter is the one of the first registration that returned. *)
Theorem C51_converter_first : forall l s h f t, run empty l = Some (s, h) -> converter (converters s) f t = first_added h f t.
Proof.
  assert (G : forall l s s' h f t, valid s -> run s l = Some (s', h) ->
    converter (converters s') f t = match converter (converters s) f t with Some g => Some g | None => first_added h f t end).
  { induction l as [|[y o] l IH]; intros s s' h f t V E.
    - cbn in E. injection E as <- <-. cbn. destruct (converter _ f t); reflexivity.
    - apply run_cons in E. destruct E as (s1 & e & h' & L & Ee & E & ->). destruct (perform_ok _ _ _ _ V L) as [_ V1].
      rewrite (IH _ _ _ f t V1 E). destruct y as [c0 k0 n0 t0|x0 m v|m|d b|f0 t0 g|f0 t0]; cbn [perform] in *.
      + assert (Q : converters s1 = converters s).
        { apply give_leaves in L. pose proof (create_cases s o c0 k0 n0 t0 V) as C. destruct C; cbn in L; subst; try reflexivity.
          cbn zeta. destruct (category_eqb k0 Class); reflexivity. }
        rewrite Q. reflexivity.
      + assert (Q : converters s1 = converters s).
        { apply give_leaves in L. pose proof (set_cases s o x0 m v) as C. destruct C; cbn in L; subst; reflexivity. }
        rewrite Q. reflexivity.
      + assert (Q : converters s1 = converters s).
        { apply give_leaves in L. pose proof (register_cases s o m) as C. destruct C; cbn in L; subst; reflexivity. }
        rewrite Q. reflexivity.
      + assert (Q : converters s1 = converters s).
        { apply give_leaves in L. pose proof (base_cases s o d b) as C. destruct C; cbn in L; subst; reflexivity. }
        rewrite Q. reflexivity.
      + apply give_leaves in L. pose proof (converter_cases s o f0 t0 g) as C. destruct C as [g' H|H|H]; cbn in L; subst; cbn in Ee; subst e; cbn [first_added].
        * destruct ((f0 =? f) && (t0 =? t)) eqn:B; [|reflexivity]. apply andb_true_iff in B. rewrite !Nat.eqb_eq in B. destruct B as [<- <-]. rewrite H. reflexivity.
        * reflexivity.
        * cbn. destruct ((f0 =? f) && (t0 =? t)) eqn:B; [|reflexivity]. apply andb_true_iff in B. rewrite !Nat.eqb_eq in B. destruct B as [<- <-]. rewrite H. reflexivity.
      + assert (Q : converters s1 = converters s).
        { apply give_leaves in L. pose proof (has_converter_ends s o f0 t0) as N. destruct (has_converter s o f0 t0) as [s3 b|s3|s3|] eqn:E1; try contradiction. cbn in L. subst s3.
          apply has_converter_types in E1. destruct E1 as (s2 & i & j & C1 & C2 & _). inversion C1; subst; inversion C2; subst; reflexivity. }
        rewrite Q. reflexivity. }
  intros l s h f t E. exact (G l empty s h f t valid_empty E).
Qed.

(** Types have different identifiers, none of them 0. *)
Theorem C51_types : forall s n n' t t', reachable s -> assoc (types s) n = Some t -> assoc (types s) n' = Some t' -> 0 < t /\ (t = t' <-> n = n').
Proof.
  intros s n n' t t' R H H'. pose proof (reachable_valid _ R) as V. apply assoc_in in H as I. apply assoc_in in H' as I'.
  split; [apply (v_types _ V n t I)|]. split; intro E; subst; [exact (v_type1 _ V _ _ _ I I')|congruence].
Qed.

(** A class found by name is the class of a type, and the class of a type is found by name. *)
Theorem C51_classes : forall s, reachable s ->
  (forall t x, assoc (links s) t = Some x -> exists c n, lookup s c Class n = Some x) /\
  (forall c n x, lookup s c Class n = Some x -> exists t, assoc (links s) t = Some x).
Proof. intros s R. pose proof (reachable_valid _ R) as V. split; [exact (v_link _ V)|exact (v_class _ V)]. Qed.

(** Who is listed as derived has the base; nothing is listed twice. *)
Theorem C51_bases : forall s, reachable s ->
  (forall b d, In (b, d) (derived s) -> In (d, b) (bases s)) /\ NoDup (bases s) /\ NoDup (derived s).
Proof. intros s R. pose proof (reachable_valid _ R) as V. split; [exact (v_derived _ V)|exact (v_once _ V)]. Qed.

(** A noexcept function that asks for types does not end the program once the types are registered. *)
Theorem C51_noexcept : forall s o f t i j, reachable s -> assoc (types s) f = Some i -> assoc (types s) t = Some j ->
  perform s (Has_converter f t) o = Done s (VBool (match converter (converters s) i j with Some _ => true | None => false end)).
Proof. intros s o f t i j _ Hf Ht. cbn. unfold has_converter, register. rewrite Hf, Ht. reflexivity. Qed.

(** ** Witnesses *)

(** A namespace whose creation failed in the end is listed, and again when it is created once more. *)
Theorem C51_once_refuted : exists l s h, run empty l = Some (s, h) /\ named s 0 Namespace 5 = 2.
Proof. exists [(Create 0 Namespace 5 0, [false; false; true]); (Create 0 Namespace 5 0, [])]. eexists. eexists. split; [vm_compute; reflexivity|reflexivity]. Qed.
(** A method whose creation failed is found. *)
Theorem C51_method_refuted : exists l s h, run empty l = Some (s, h) /\ snd (hd (Register 0, Other) h) = Out_of_memory /\ lookup s 0 Method 5 <> None.
Proof. exists [(Create 0 Method 5 0, [false; false; true])]. eexists. eexists. split; [vm_compute; reflexivity|]. split; [reflexivity|discriminate]. Qed.
(** The object leaks when the list cannot grow. *)
Theorem C51_leak_refuted : exists l s h, run empty l = Some (s, h) /\ exists x, In x (heap s) /\ ~ In x (map e_object (entries s) ++ map a_object (attrs s)).
Proof.
  exists [(Create 0 Class 5 1, [false; true])]. eexists. eexists. split; [vm_compute; reflexivity|]. exists 1. split; [left; reflexivity|intros []].
Qed.
(** A class is listed that is the class of no type and not found by name. *)
Theorem C51_orphan_refuted : exists l s h e, run empty l = Some (s, h) /\ In e (of_list s 0 Class) /\
  (forall t, assoc (links s) t <> Some (e_object e)) /\ (forall n, lookup s 0 Class n <> Some (e_object e)).
Proof.
  exists [(Create 0 Class 5 1, [false; false; true]); (Create 0 Class 5 1, [])]. eexists. eexists. exists (Entry 0 Class 5 1).
  split; [vm_compute; reflexivity|]. split; [left; reflexivity|]. split.
  - intros [|[|t]]; discriminate.
  - intros n. unfold lookup, get. cbn [position index]. destruct n as [|[|[|[|[|[|n]]]]]]; discriminate.
Qed.
(** A base that does not list the derived class, until the call is repeated. *)
Theorem C51_mirror_refuted : exists l s h s' v, run empty l = Some (s, h) /\ In (1, 2) (bases s) /\ ~ In (2, 1) (derived s) /\
  perform s (Add_base 1 2) [] = Done s' v /\ In (2, 1) (derived s') /\ bases s' = bases s.
Proof.
  exists [(Create 0 Class 5 1, []); (Create 0 Class 6 2, []); (Add_base 1 2, [false; true])]. eexists. eexists. eexists. eexists.
  split; [vm_compute; reflexivity|]. split; [left; reflexivity|]. split; [intros []|]. split; [vm_compute; reflexivity|]. split; [left; reflexivity|reflexivity].
Qed.
(** An attribute that could not be set is among the attributes by number. *)
Theorem C51_attribute_refuted : exists l s h, run empty l = Some (s, h) /\ get_attribute s 3 5 = None /\ map a_value (attrs_of s 3) = [7].
Proof. exists [(Set_attribute 3 5 7, [false; false; true])]. eexists. eexists. split; [vm_compute; reflexivity|]. split; reflexivity. Qed.
(** Asking for a converter ends the program when one of the types cannot be registered. *)
Theorem C51_terminate_refuted : exists l, run empty l = None.
Proof. exists [(Register 1, []); (Has_converter 1 2, [true])]. reflexivity. Qed.

(** ** Cases *)
Example C51_case_history : exists s h, run empty
    [(Create 0 Namespace 5 0, [false; true]); (Create 0 Namespace 5 0, [false; false; true]); (Create 0 Namespace 5 0, [true]); (Create 0 Namespace 5 0, []);
     (Create 3 Method 6 0, [false; false; true]); (Create 3 Method 6 0, [true]);
     (Register 1, [false; true]); (Register 1, []); (Register 2, []); (Has_converter 1 2, [true; true]);
     (Set_attribute 3 4 8, []); (Set_attribute 3 4 9, [true]);
     (Create 3 Class 1 1, []); (Create 3 Class 2 2, []); (Create 3 Class 9 2, []); (Add_base 1 2, [true]); (Add_base 1 2, [false; true]); (Add_base 1 2, [])] = Some (s, h) /\
  lookup s 0 Namespace 5 = Some 3 /\ named s 0 Namespace 5 = 2 /\ failures h 0 Namespace 5 = 3 /\
  lookup s 3 Method 6 = Some 4 /\ named s 3 Method 6 = 1 /\ types s = [(2, 3); (1, 2)] /\ get_attribute s 3 4 = Some 8 /\
  bases s = [(1, 2)] /\ derived s = [(2, 1)] /\ length (heap s) = 7 /\ length (entries s) + length (attrs s) = 6 /\
  map snd h = [Out_of_memory; Out_of_memory; Out_of_memory; Returned (VObject (Some 3)); Out_of_memory; Returned (VObject (Some 4));
     Out_of_memory; Returned (VType 2); Returned (VType 3); Returned (VBool false); Returned VUnit; Out_of_memory;
     Returned (VObject (Some 6)); Returned (VObject (Some 7)); Other; Out_of_memory; Out_of_memory; Returned VUnit].
Proof. eexists. eexists. split; [vm_compute; reflexivity|]. repeat (split; [vm_compute; reflexivity|]). vm_compute. reflexivity. Qed.

Example C51_case_idle : exists s h, run empty [(Create 0 Class 5 1, []); (Create 0 Class 6 2, []); (Add_base 1 2, [])] = Some (s, h) /\
  perform s (Add_base 1 2) [true; true] = Done s VUnit /\ perform s (Create 0 Class 6 2) [true] = Done s (VObject (Some 2)).
Proof. eexists. eexists. split; [vm_compute; reflexivity|]. split; reflexivity. Qed.

Print Assumptions C51_stays.
Print Assumptions C51_returned.
Print Assumptions C51_retry.
Print Assumptions C51_failed.
Print Assumptions C51_elsewhere.
Print Assumptions C51_idle.
Print Assumptions C51_listed.
Print Assumptions C51_leaks.
Print Assumptions C51_attribute_last.
Print Assumptions C51_converter_first.
Print Assumptions C51_types.
Print Assumptions C51_classes.
Print Assumptions C51_bases.
Print Assumptions C51_noexcept.
Print Assumptions C51_once_refuted.
Print Assumptions C51_method_refuted.
Print Assumptions C51_leak_refuted.
Print Assumptions C51_orphan_refuted.
Print Assumptions C51_mirror_refuted.
Print Assumptions C51_attribute_refuted.
Print Assumptions C51_terminate_refuted.
