(** C68: whether definitions are deferred is not noticed.
    A deferred definition runs when somebody first looks into its container. However a program mixes chains, deferred definitions
    nested in any way and questions, each question gets the answer that is true of all that was stated before. *)
From Coq Require Import List Bool Arith Lia String Ascii Permutation.
From Verif Require Import Util RegistryModel ListsModel ListsProofs StringsModel StringsSpec ReflModel ReflSpec ReflProofs OrderSpec OrderProofs OrderProps DelaySpec DelayProofs.
Import ListNotations.
Local Open Scope list_scope.
Local Open Scope string_scope.
Local Open Scope list_scope.

(** Nothing throws and every answer is true, if the statements do not contradict one another and no container gets two deferred
    definitions. [n] only bounds how deep deferred definitions nest in the model: any number above theirs will do. *)
Theorem C68_as_stated ok k n es ds : all_told es = Some ds -> sound (now ds) -> NoDup (later ds) -> List.length (later ds) < n ->
  exists w rs, play (S k) ok n world0 es = Ret w rs /\ honest [] es rs.
Proof.
  intros HA SE ND HN. destruct (play_st ok (now ds) SE (all_told_free es ds HA) k n _ HN es world0 [] ds HA (st0 ok (now ds) _ ND)) as (w & rs & HP & HH & _).
  - intros x [].
  - apply incl_refl.
  - exists w, rs. auto.
Qed.
Print Assumptions C68_as_stated.

(** True answers are unique. *)
Theorem C68_one_answer E q r r' : sound E -> truth E q r -> truth E q r' -> r' = r.
Proof. apply truth_fun. Qed.
Print Assumptions C68_one_answer.

Lemma all_told_app es fs : all_told (es ++ fs) = match all_told es with Some d => option_map (app d) (all_told fs) | None => None end.
Proof.
  induction es as [|[l|q] es IH]; cbn; [destruct (all_told fs); reflexivity| |exact IH]. destruct (tells_by l) as [d|]; [|reflexivity]. rewrite IH.
  unfold adding. destruct (all_told es) as [e|]; cbn; [|reflexivity]. destruct (all_told fs); cbn; [|reflexivity]. rewrite app_assoc. reflexivity.
Qed.
Lemma all_told_ask qs : all_told (map Ask qs) = Some [].
Proof. induction qs; cbn; auto. Qed.
Lemma honest_app es : forall E fs rs, honest E (es ++ fs) rs -> exists ds r1 r2 E', all_told es = Some ds /\ rs = r1 ++ r2 /\ honest E' fs r2 /\
  forall d, In d E' <-> In d (now ds) \/ In d E.
Proof.
  induction es as [|[l|q] es IH]; intros E fs rs H; cbn in *.
  - exists [], [], rs, E. cbn. repeat split; auto; tauto.
  - destruct H as (ds & -> & H). destruct (IH _ _ _ H) as (e & r1 & r2 & E' & -> & -> & H' & M). cbn. exists (ds ++ e), r1, r2, E'.
    repeat (split; [reflexivity|]). split; [exact H'|]. intro d. rewrite M, now_app, !in_app_iff. tauto.
  - destruct rs as [|r rs]; [destruct H|]. destruct H as [_ H]. destruct (IH _ _ _ H) as (e & r1 & r2 & E' & -> & -> & H' & M). exists e, (r :: r1), r2, E'. auto.
Qed.
Lemma honest_ask E qs : forall rs, honest E (map Ask qs) rs -> Forall2 (truth E) qs rs.
Proof.
  induction qs as [|q qs IH]; intros rs H; cbn in H; [subst; constructor|]. destruct rs as [|r rs]; [destruct H|]. destruct H. constructor; auto.
Qed.
Lemma answers_true ok k n es ds qs : all_told es = Some ds -> sound (now ds) -> NoDup (later ds) -> List.length (later ds) < n ->
  exists w rs ans, play (S k) ok n world0 (es ++ map Ask qs) = Ret w (rs ++ ans) /\ Forall2 (truth (now ds)) qs ans.
Proof.
  intros HA SE ND HN. destruct (C68_as_stated ok k n (es ++ map Ask qs) ds) as (w & rs & HP & HH); auto.
  - rewrite all_told_app, HA, all_told_ask. cbn. rewrite app_nil_r. reflexivity.
  - destruct (honest_app es [] (map Ask qs) rs HH) as (d & r1 & r2 & E' & HA' & -> & H & M). rewrite HA in HA'. injection HA' as <-.
    exists w, r1, r2. split; [exact HP|]. apply honest_ask in H. clear -H M. induction H as [|q r qs rs H _ IH]; constructor; auto.
    eapply truth_ext; [|exact H]. intro d. rewrite M. cbn. tauto.
Qed.

(** Programs that state the same, deferred in whatever way, in whatever order and with whatever questions on the way, give the
    same answers to all questions afterwards. *)
Theorem C68_unseen ok k n es ds es' ds' qs : all_told es = Some ds -> all_told es' = Some ds' -> (forall d, In d (now ds) <-> In d (now ds')) ->
  sound (now ds) -> NoDup (later ds) -> NoDup (later ds') -> List.length (later ds) < n -> List.length (later ds') < n ->
  exists w rs w' rs' ans, List.length ans = List.length qs /\
    play (S k) ok n world0 (es ++ map Ask qs) = Ret w (rs ++ ans) /\ play (S k) ok n world0 (es' ++ map Ask qs) = Ret w' (rs' ++ ans).
Proof.
  intros H1 H2 M SE N1 N2 L1 L2. destruct (answers_true ok k n es ds qs H1 SE N1 L1) as (w & rs & ans & HP & HT).
  destruct (answers_true ok k n es' ds' qs H2 (sound_ext _ _ M SE) N2 L2) as (w' & rs' & ans' & HP' & HT'). exists w, rs, w', rs', ans.
  assert (X : ans' = ans /\ List.length ans = List.length qs).
  { clear -HT HT' SE M. revert ans' HT'. induction HT as [|q r qs rs H _ IH]; intros ans' HT'; inversion HT'; subst; [auto|].
    destruct (IH _ H4) as [-> L]. split; [|cbn; congruence]. f_equal. eapply truth_fun; eauto. eapply truth_ext; [|eassumption]. intro d. symmetry. apply M. }
  destruct X as [-> L]. auto.
Qed.
Print Assumptions C68_unseen.

(** In particular one that defers and one that defers nothing, see C67. *)
Theorem C68_deferred_or_not ok k n es ds h hs qs : all_told es = Some ds -> states h hs -> (forall d, In d (now ds) <-> In d (List.concat hs)) ->
  sound (List.concat hs) -> NoDup (later ds) -> List.length (later ds) < n ->
  exists w rs w' ans, List.length ans = List.length qs /\
    play (S k) ok n world0 (es ++ map Ask qs) = Ret w (rs ++ ans) /\ play (S k) ok n world0 (map Do h ++ map Ask qs) = Ret w' ans.
Proof.
  intros HA HS M SE ND HN. assert (T : all_told (map Do h) = Some (map Now (List.concat hs))).
  { assert (F : free (List.concat hs)) by (intros p t f Hin; apply M in Hin; exact (all_told_free es ds HA p t f Hin)).
    clear -HS F. induction HS as [|l d h hs H _ IH]; cbn; [reflexivity|]. cbn in F. unfold tells_by. rewrite (tell_tells _ _ _ _ _ H) by (intros p t f Hin; apply (F p t f); apply in_app_iff; auto).
    rewrite IH by (intros p t f Hin; apply (F p t f); apply in_app_iff; auto). cbn. rewrite map_app. reflexivity. }
  destruct (C68_unseen ok k n es ds (map Do h) (map Now (List.concat hs)) qs HA T) as (w & rs & w' & rs' & ans & L & P & P'); rewrite ?now_map, ?later_map; auto.
  - eapply sound_ext; [|exact SE]. intro d. symmetry. apply M.
  - constructor.
  - cbn. lia.
  - exists w, rs, w', ans. split; [exact L|]. split; [exact P|].
    assert (R0 : rs' = []); [|subst; exact P'].
    assert (Z : forall h w0 w1 r, play (S k) ok n w0 (map Do h ++ map Ask qs) = Ret w1 r -> List.length r = List.length qs).
    { clear. induction h as [|l h IH]; cbn; intros w0 w1 r H.
      - revert w0 w1 r H. induction qs as [|q qs IH]; cbn; intros w0 w1 r H; [injection H as _ <-; reflexivity|].
        destruct (ask _ _ w0 q) as [w2 r2| | | | |]; cbn in H; try discriminate. destruct (play _ _ _ w2 _) as [w3 r3| | | | |] eqn:E; cbn in H; try discriminate.
        injection H as _ <-. cbn. f_equal. eapply IH; eauto.
      - destruct (run _ _ _ w0 0 l) as [w2 r2| | | | |]; cbn in H; try discriminate. eapply IH; eauto. }
    apply Z in P'. rewrite app_length, L in P'. destruct rs'; [reflexivity|cbn in P'; lia].
Qed.
Print Assumptions C68_deferred_or_not.

Definition decl_dec : forall a b : decl, {a = b} + {a <> b}.
Proof. decide equality; try apply Nat.eq_dec; try apply string_dec; apply place_dec. Defined.
(** The units of C67 with parts deferred: a namespace whose contents are, in it a class whose members are deferred again, and
    questions in between. *)
Definition lazy1 : prog :=
  [KNamespace "app"; KLazy [KClass "Shape" 7 true true false; KLazy [KMethod "area" [] 3; KMethod "area" [txt "double"] 4]; KEnd]; KEnd].
Definition lazy3 : prog :=
  [KNamespace "app"; KClass "Shape" 7 false false false; KClass "Part" 8 true false false; KLazy [KCtor "" (AOther [txt "int"]) 11]; KEnd; KEnd; KEnd].
Definition lazy_units : list event :=
  [Do lazy1; Ask (Find [(Class, "Part"); (Class, "Shape"); (Namespace, "app")]); Do unit2; Do lazy3; Ask (Count [(Class, "Shape"); (Namespace, "app")] Method)].
Definition lazy_stated : list stmt := Eval vm_compute in match all_told lazy_units with Some d => d | None => [] end.
Example C68_units : all_told lazy_units = Some lazy_stated /\ sound (now lazy_stated) /\ NoDup (later lazy_stated) /\ List.length (later lazy_stated) = 3 /\
  (forall d, In d (now lazy_stated) <-> In d (List.concat stated_units)) /\
  answer (play 5 anything 5 world0 lazy_units) = Some [Missing; Number 3] /\
  answer (play 5 anything 5 world0 (map Do units ++ [Ask (FindMethod [(Class, "Shape"); (Namespace, "app")] "area" [txt "double"])])) = Some [Found 0 4] /\
  answer (play 5 anything 5 world0 (lazy_units ++ [Ask (FindMethod [(Class, "Shape"); (Namespace, "app")] "area" [txt "double"])])) = Some [Missing; Number 3; Found 0 4].
Proof.
  split; [vm_compute; reflexivity|]. split; [apply consistent_sound; vm_compute; reflexivity|].
  split; [repeat constructor; cbn; intro H; repeat destruct H as [H|H]; try discriminate; exact H|]. split; [reflexivity|].
  split; [|split; [|split]; vm_compute; reflexivity].
  assert (X : forallb (fun d => if in_dec decl_dec d (List.concat stated_units) then true else false) (now lazy_stated) = true) by (vm_compute; reflexivity).
  assert (Y : forallb (fun d => if in_dec decl_dec d (now lazy_stated) then true else false) (List.concat stated_units) = true) by (vm_compute; reflexivity).
  rewrite forallb_forall in X, Y. intro d. split; intro H; [specialize (X d H)|specialize (Y d H)]; destruct (in_dec _ d _); auto; discriminate.
Qed.

(** ** Where it is noticed *)

(** A second deferred definition of one container is refused while the first has not run, so whether it is depends on whether
    somebody has looked in between. *)
Theorem C68_twice_refuted : exists a b q ds, all_told [Do a; Do b] = Some ds /\ sound (now ds) /\
  (exists w, play 5 anything 5 world0 [Do a; Do b] = Throw Redefinition w) /\
  exists w r, play 5 anything 5 world0 [Do a; Ask q; Do b] = Ret w [r].
Proof.
  exists [KClass "A" 7 false false false; KLazy [KProperty "p" 1]; KEnd], [KClass "A" 7 false false false; KLazy [KProperty "q" 2]; KEnd], (Count [(Class, "A")] Property).
  eexists. split; [vm_compute; reflexivity|]. split; [apply consistent_sound; vm_compute; reflexivity|].
  split; [eexists; vm_compute; reflexivity|]. eexists _, _. vm_compute. reflexivity.
Qed.
Print Assumptions C68_twice_refuted.

(** Look-up by type does not run deferred definitions: a class defined in one is not found until somebody looks into its
    namespace by name. *)
Theorem C68_by_type_refuted : exists l ds p w w' x, all_told [Do l] = Some ds /\ sound (now ds) /\ NoDup (later ds) /\ In (Thing p 7 0) (now ds) /\
  play 5 anything 5 world0 [Do l] = Ret w [] /\ class_of w 7 = None /\
  play 5 anything 5 world0 [Do l; Ask (Find p)] = Ret w' [Found 7 0] /\ class_of w' 7 = Some x.
Proof.
  exists [KNamespace "n"; KLazy [KClass "A" 7 false false false; KEnd]; KEnd]. eexists. exists [(Class, "A"); (Namespace, "n")]. do 3 eexists.
  split; [vm_compute; reflexivity|]. split; [apply consistent_sound; vm_compute; reflexivity|].
  split; [repeat constructor; intros []|]. split; [cbn; tauto|]. do 3 (split; [vm_compute; reflexivity|]). vm_compute. reflexivity.
Qed.
Print Assumptions C68_by_type_refuted.

(** Definitions that contradict others: the exception comes out of a question, and the next one gets an answer as if the
    definition, and all after it, had never been there. Asked earlier, it is the other definition that throws. *)
Theorem C68_late_refuted : exists a b q, (exists w, play 5 anything 5 world0 [Do a; Do b] = Ret w []) /\
  (exists w w', play 5 anything 5 world0 [Do a; Ask q] = Ret w [Found 0 3] /\ play 5 anything 5 w [Do b] = Throw Duplicate w') /\
  exists w w', play 5 anything 5 world0 [Do a; Do b; Ask q] = Throw Duplicate w /\ play 5 anything 5 w [Ask q] = Ret w' [Missing].
Proof.
  exists [KNamespace "n"; KLazy [KClass "B" 7 false false false; KEnd; KProperty "p" 3]; KEnd], [KClass "A" 7 false false false; KEnd],
    (Find [(Property, "p"); (Namespace, "n")]).
  split; [eexists; vm_compute; reflexivity|]. split; [eexists _, _; split; [vm_compute; reflexivity|vm_compute; reflexivity]|]. eexists _, _. split; [vm_compute; reflexivity|vm_compute; reflexivity].
Qed.
Print Assumptions C68_late_refuted.

(** What deferring is for: the derived class whose chain runs before that of its base, see [C67_base_first_refuted], finds its base
    if that part of the definition is deferred. *)
Example C68_base_first : exists w x xt,
  play 5 anything 5 world0 [Do [KClass "B" 8 false false false; KLazy [KBase [(7, 1)]; KProperty "p" 3]; KEnd]; Do [KClass "A" 7 false false false; KEnd];
    Ask (Count [(Class, "B")] Property)] = Ret w [Number 1] /\
  class_of w 8 = Some x /\ get w x = Some xt /\ map fst (i_bases xt) = [7].
Proof. do 3 eexists. do 3 (split; [vm_compute; reflexivity|]). vm_compute. reflexivity. Qed.
