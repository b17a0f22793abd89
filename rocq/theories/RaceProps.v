(** C49: where data races are possible and where they are not. C50: what threads are told stays true. *)
From Coq Require Import List Bool Arith Lia.
From Verif Require Import Util DeferModel RaceModel RaceSpec RaceProofs.
Import ListNotations.

(** ** All clients *)

Lemma only_all (ok : list lst -> api -> Prop) : (forall w a, ok w a) ->
  (forall c w, only ok w c) /\ (forall a w, only_api ok w a).
Proof.
  intro H. apply client_api_ind; try (intros; split; [apply H|exact I]).
  - intros r w. exact I.
  - intros a IHa k IHk w. split; [apply IHa|intro v; apply IHk].
  - intros c f IH w; split; [apply H|intro i; apply IH].
  - intros c f IH w; split; [apply H|intro i; apply IH].
  - intros x f IH w; split; [apply H|intros n i; apply IH].
Qed.

Lemma only_weaken (ok ok' : list lst -> api -> Prop) : (forall w a, ok w a -> ok' w a) ->
  (forall c w, only ok w c -> only ok' w c) /\ (forall a w, only_api ok w a -> only_api ok' w a).
Proof.
  intro H. apply client_api_ind;
    try (intros; match goal with X : only_api ok _ _ |- _ => destruct X as [X0 _] end; split; [apply H; assumption|exact I]).
  - intros r w _. exact I.
  - intros a IHa k IHk w [A B]. split; [apply IHa; exact A|intro v; apply IHk; apply B].
  - intros c f IH w [A B]; split; [apply H; exact A|intro i; apply IH; apply B].
  - intros c f IH w [A B]; split; [apply H; exact A|intro i; apply IH; apply B].
  - intros x f IH w [A B]; split; [apply H; exact A|intros n i; apply IH; apply B].
Qed.

Section Any.
  Variables (defs : nat -> nat -> client) (m : loc -> val) (a : aloc -> val) (n : nat) (clients : list client).
  Let run := exec defs (start m a n clients).

  (** Whatever the threads do, whatever the memory at the start: the only places where two threads can meet with one of
      them writing are qualified names, deferred definitions and the values of attributes and enumerators. *)
  Theorem C49_nowhere_else : forall sched l, race_at (run sched) l ->
    (exists i, l = LQual i) \/ (exists c, l = LDefer c) \/ (exists x i, l = LVal x i).
  Proof.
    intros sched l R.
    assert (Al : forall w c, allowed False False (fun _ => False) (fun _ => False) w c).
    { intros w c. split; [tauto|]. split; [tauto|]. split; tauto. }
    assert (I : inv False False (fun _ => False) (fun _ => False) (fun _ => False) m (run sched)).
    { apply exec_inv; [intros d c; apply (proj1 (only_all _ Al))|]. apply start_inv.
      - intros l0; destruct l0; cbn; tauto.
      - intros c _. apply (proj1 (only_all _ Al)). }
    apply (inv_race _ _ _ _ _ _ _ _ I) in R.
    destruct l; cbn in R; try (exfalso; apply R; exact Logic.I).
    - right; right. eexists _, _. reflexivity.
    - left. eexists. reflexivity.
    - right; left. eexists. reflexivity.
  Qed.

  (** An item whose qualified name was asked for before the threads began: no race on it, whatever they do. *)
  Theorem C49_known_names : forall i, path (m (LQual i)) <> [] -> forall sched, ~ race_at (run sched) (LQual i).
  Proof.
    intros i Hi sched R.
    assert (Al : forall w c, allowed False False (fun _ => False) (fun _ => False) w c).
    { intros w c. split; [tauto|]. split; [tauto|]. split; tauto. }
    assert (I : inv False False (fun j => j = i) (fun _ => False) (fun _ => False) m (run sched)).
    { apply exec_inv; [intros d c; apply (proj1 (only_all _ Al))|]. apply start_inv.
      - intros l0; destruct l0; cbn; try tauto. intros ->. exact Hi.
      - intros c _. apply (proj1 (only_all _ Al)). }
    apply (inv_race _ _ _ _ _ _ _ _ I) in R. apply R. left. reflexivity.
  Qed.

  (** No deferred definition pending and none set: no race on them. *)
  Theorem C49_no_pending_definition :
    (forall c, opt (m (LDefer c)) = None) ->
    (forall c, In c clients -> only (fun _ q => ~ defers q) [] c) -> (forall d c, only (fun _ q => ~ defers q) [] (defs d c)) ->
    forall sched c, ~ race_at (run sched) (LDefer c).
  Proof.
    intros Hm Hc Hd sched c R.
    assert (Al : forall w q, ~ defers q -> allowed True False (fun _ => False) (fun _ => False) w q).
    { intros w q Hq. split; [tauto|]. split; [tauto|]. split; tauto. }
    assert (I : inv True False (fun _ => False) (fun _ => False) (fun _ => False) m (run sched)).
    { apply exec_inv; [intros d e; apply (proj1 (only_weaken _ _ Al)); apply Hd|]. apply start_inv.
      - intros l0; destruct l0; cbn; try tauto. intros _. apply Hm.
      - intros e He. apply (proj1 (only_weaken _ _ Al)). apply Hc. exact He. }
    apply (inv_race _ _ _ _ _ _ _ _ I) in R. apply R. exact Logic.I.
  Qed.

  (** A list nobody sets values in: references to its values can be used freely. *)
  Theorem C49_values_only_read : forall x,
    (forall c, In c clients -> only (fun _ q => ~ sets x q) [] c) -> (forall d c, only (fun _ q => ~ sets x q) [] (defs d c)) ->
    forall sched i, ~ race_at (run sched) (LVal x i).
  Proof.
    intros x Hc Hd sched i R.
    assert (Al : forall w q, ~ sets x q -> allowed False False (fun y => y = x) (fun y => y = x) w q).
    { intros w q Hq. split; [tauto|]. split; [tauto|]. split.
      - intros y Hs -> _. exact (Hq Hs).
      - intros y _ Hy. left. exact Hy. }
    assert (I : inv False False (fun _ => False) (fun y => y = x) (fun y => y = x) m (run sched)).
    { apply exec_inv; [intros d e; apply (proj1 (only_weaken _ _ Al)); apply Hd|]. apply start_inv.
      - intros l0; destruct l0; cbn; tauto.
      - intros e He. apply (proj1 (only_weaken _ _ Al)). apply Hc. exact He. }
    apply (inv_race _ _ _ _ _ _ _ _ I) in R. apply R. reflexivity.
  Qed.

  (** A list whose values are looked at only inside for_each_attribute, for_each_element of that list: they can be set at
      any time. *)
  Theorem C49_values_enumerated : forall x,
    (forall c, In c clients -> only (fun w q => uses x q -> In x w) [] c) ->
    (forall d c, only (fun w q => uses x q -> In x w) [] (defs d c)) ->
    forall sched i, ~ race_at (run sched) (LVal x i).
  Proof.
    intros x Hc Hd sched i R.
    assert (Al : forall w q, (uses x q -> In x w) -> allowed False False (fun y => y = x) (fun _ => False) w q).
    { intros w q Hq. split; [tauto|]. split; [tauto|]. split; [tauto|]. intros y Hu ->. right. exact (Hq Hu). }
    assert (I : inv False False (fun _ => False) (fun y => y = x) (fun _ => False) m (run sched)).
    { apply exec_inv; [intros d e; apply (proj1 (only_weaken _ _ Al)); apply Hd|]. apply start_inv.
      - intros l0; destruct l0; cbn; tauto.
      - intros e He. apply (proj1 (only_weaken _ _ Al)). apply Hc. exact He. }
    apply (inv_race _ _ _ _ _ _ _ _ I) in R. apply R. reflexivity.
  Qed.

  (** All together: threads that ask for no qualified name, define nothing lazily and look at values as above never race;
      [frozen] are the lists nobody sets values in. *)
  Theorem C49_race_free_partial : forall frozen : lst -> Prop,
    let ok := fun w q => ~ asks_name q /\ (forall x, sets x q -> ~ frozen x) /\ (forall x, uses x q -> frozen x \/ In x w) in
    (forall c, opt (m (LDefer c)) = None) ->
    (forall c, In c clients -> only ok [] c) -> (forall d c, only ok [] (defs d c)) ->
    forall sched l, ~ race_at (run sched) l.
  Proof.
    intros frozen ok Hm Hc Hd sched l R.
    assert (Al : forall w q, ok w q -> allowed True True (fun _ => True) frozen w q).
    { intros w q (A & B & C). split; [intro D; exfalso; apply A; destruct q; try contradiction; exact D|].
      split; [tauto|]. split; intros x Hx _; [exact (B x Hx)|exact (C x Hx)]. }
    assert (I : inv True True (fun _ => False) (fun _ => True) frozen m (run sched)).
    { apply exec_inv; [intros d e; apply (proj1 (only_weaken _ _ Al)); apply Hd|]. apply start_inv.
      - intros l0; destruct l0; cbn; try tauto. intros _. apply Hm.
      - intros e He. apply (proj1 (only_weaken _ _ Al)). apply Hc. exact He. }
    apply (inv_race _ _ _ _ _ _ _ _ I) in R. apply R. destruct l; cbn; tauto.
  Qed.

  (** *** C50 *)

  Lemma run_inv sched : inv False False (fun _ => False) (fun _ => False) (fun _ => False) m (run sched) /\
    forall more, extends (mem (run sched)) (mem (run (sched ++ more))) /\
                 (proper m -> proper (mem (run (sched ++ more)))).
  Proof.
    assert (Al : forall w c, allowed False False (fun _ => False) (fun _ => False) w c).
    { intros w c. split; [tauto|]. split; [tauto|]. split; tauto. }
    assert (Hd : forall d c, only (allowed False False (fun _ => False) (fun _ => False)) [] (defs d c))
      by (intros d c; apply (proj1 (only_all _ Al))).
    assert (I0 : inv False False (fun _ => False) (fun _ => False) (fun _ => False) m (start m a n clients)).
    { apply start_inv.
      - intros l0; destruct l0; cbn; tauto.
      - intros c _. apply (proj1 (only_all _ Al)). }
    assert (I : inv False False (fun _ => False) (fun _ => False) (fun _ => False) m (run sched))
      by (apply exec_inv; assumption).
    split; [exact I|]. intro more. split.
    - unfold run, exec. rewrite fold_left_app. apply (exec_inv _ _ _ _ _ _ Hd m more _ I).
    - intro P. exact (proj2 (proj2 (exec_inv _ _ _ _ _ _ Hd m (sched ++ more) _ I0)) P).
  Qed.

  (** Whatever a thread was told is true when it is told and stays true in every continuation. *)
  Theorem C50_answers_stay_true : forall sched more q b v,
    In (q, b, v) (log (run sched)) -> says q v (mem (run (sched ++ more))).
  Proof.
    intros sched more q b v Hi. destruct (run_inv sched) as [I E]. apply (says_extends (mem (run sched))); [apply E|].
    exact (proj1 (inv_log _ _ _ _ _ _ _ I q b v Hi)).
  Qed.

  (** A thread that has nothing left to do holds no lock. *)
  Theorem C49_locks_returned : forall sched i g md,
    nth_error (threads (run sched)) i = Some Done -> ~ In (i, (g, md)) (held (run sched)).
  Proof.
    intros sched i g md Hi Hh. destruct (run_inv sched) as [I _].
    destruct (inv_threads _ _ _ _ _ _ _ I i _ Hi) as (B & K & _ & _ & W). cbn [wf] in W.
    apply holds_in in Hh. rewrite W in Hh. exact Hh.
  Qed.

  (** Every function gives the kind of answer it should. *)
  Theorem C50_kind_of_answer : forall sched q b v, In (q, b, v) (log (run sched)) -> shaped q v.
  Proof.
    intros sched q b v Hi. destruct (run_inv sched) as [I _]. exact (proj1 (proj2 (inv_log _ _ _ _ _ _ _ I q b v Hi))).
  Qed.

  (** What a thread is denied was not there when it called: there were tables [m'] with all that was there at the start, of
      which everything answered before the call (to whatever thread) is true, and the denial too. *)
  Theorem C50_denials_true : forall sched q b v, In (q, b, v) (log (run sched)) ->
    exists m', (forall l i r, growing l -> row m l i = Some r -> row m' l i = Some r) /\
      (forall j q' b' v', j < b -> nth_error (log (run sched)) j = Some (q', b', v') -> says q' v' m') /\
      denies q v m'.
  Proof.
    intros sched q b v Hi. destruct (run_inv sched) as [I _].
    destruct (inv_log _ _ _ _ _ _ _ I q b v Hi) as (_ & _ & m' & (A & _ & _ & C) & D). exists m'.
    split; [|split; [exact C|exact D]]. intros l i r Hl. apply growing_append in Hl. exact (extends_row _ _ l i r Hl A).
  Qed.

  (** Entries of the tables keep their place and contents. *)
  Theorem C50_entries_stay : forall l, growing l -> forall sched more i r,
    row (mem (run sched)) l i = Some r -> row (mem (run (sched ++ more))) l i = Some r.
  Proof.
    intros l Hl sched more i r Hr. apply growing_append in Hl.
    exact (extends_row _ _ l i r Hl (proj1 (proj2 (run_inv sched) more)) Hr).
  Qed.

  (** No key is ever there twice, and positions of values are their indices. *)
  Theorem C50_proper : proper m -> forall sched, proper (mem (run sched)).
  Proof.
    intros P sched. pose proof (proj2 (proj2 (run_inv sched) []) P) as H. rewrite app_nil_r in H. exact H.
  Qed.

  Lemma under_fun l k x y mm : proper mm -> growing l -> under mm l k x -> under mm l k y -> x = y.
  Proof.
    intros (N & _) Hl. specialize (N l Hl). unfold under. induction (rows (mm l)) as [|[k0 z] r IH]; [intros []|].
    cbn in N. inversion N as [|? ? Hn Hd]; subst.
    intros [E1|H1] [E2|H2].
    - congruence.
    - exfalso. apply Hn. apply in_map_iff. exists (k, y). split; [injection E1 as -> ->; reflexivity|exact H2].
    - exfalso. apply Hn. apply in_map_iff. exists (k, x). split; [injection E2 as -> ->; reflexivity|exact H1].
    - exact (IH Hd H1 H2).
  Qed.

  (** Two threads that look the same name up, or create it, or one each, are given the same item. *)
  Definition names_item (c : nat) (k : category) (x : nat) (q : api) : Prop :=
    match q with
    | Get c' k' x' => c' = c /\ k' = k /\ x' = x
    | Create k' c' x' => c' = c /\ k' = k /\ x' = x /\ k <> Method /\ k <> Property
    | CreateClass c' x' _ => c' = c /\ k = Class /\ x' = x
    | GetConstructor c' x' => c' = c /\ k = Constructor /\ x' = x
    | _ => False
    end.

  Theorem C50_one_item_per_name : proper m -> forall sched c k x q q' b b' i j,
    names_item c k x q -> names_item c k x q' ->
    In (q, b, VOpt (Some i)) (log (run sched)) -> In (q', b', VOpt (Some j)) (log (run sched)) -> i = j.
  Proof.
    intros P sched c k x q q' b b' i j Hq Hq' Hi Hj. pose proof (C50_proper P sched) as Q.
    assert (U : forall q b i, names_item c k x q -> In (q, b, VOpt (Some i)) (log (run sched)) -> under (mem (run sched)) (LItems c k) x i).
    { clear - run. intros q b i Hq Hi. pose proof (C50_answers_stay_true sched [] q b _ Hi) as H. rewrite app_nil_r in H.
      destruct q; cbn [names_item] in Hq; try contradiction; cbn [says] in H.
      - destruct Hq as (-> & -> & ->). exact H.
      - destruct Hq as (-> & -> & -> & N1 & N2). destruct k; try exact H; contradiction.
      - destruct Hq as (-> & -> & ->). exact H.
      - destruct Hq as (-> & -> & ->). exact H. }
    exact (under_fun (LItems c k) x i j _ Q Logic.I (U _ _ _ Hq Hi) (U _ _ _ Hq' Hj)).
  Qed.

  (** Two threads that register or look up the same type name are given the same type. *)
  Definition names_type (x : nat) (q : api) : Prop :=
    match q with TypeByName x' | Register x' _ => x' = x | _ => False end.

  Theorem C50_one_type_per_name : proper m -> forall sched x q q' b b' i j,
    names_type x q -> names_type x q' ->
    In (q, b, VOpt (Some i)) (log (run sched)) -> In (q', b', VOpt (Some j)) (log (run sched)) -> i = j.
  Proof.
    intros P sched x q q' b b' i j Hq Hq' Hi Hj. pose proof (C50_proper P sched) as Q.
    assert (U : forall q b i, names_type x q -> In (q, b, VOpt (Some i)) (log (run sched)) -> under (mem (run sched)) LTypes x i).
    { clear - run. intros q b i Hq Hi. pose proof (C50_answers_stay_true sched [] q b _ Hi) as H. rewrite app_nil_r in H.
      destruct q; cbn [names_type] in Hq; try contradiction; cbn [says] in H; subst; exact H. }
    exact (under_fun LTypes x i j _ Q Logic.I (U _ _ _ Hq Hi) (U _ _ _ Hq' Hj)).
  Qed.

  (** A reference to the attribute (or enumerator) of a name designates the entry of that name for ever. *)
  Theorem C50_reference_stays : proper m -> forall sched more x y k b i,
    In (ValueByName x k, b, VRef (Some (y, i))) (log (run sched)) ->
    y = x /\ option_map fst (row (mem (run (sched ++ more))) (LNames x) i) = Some k.
  Proof.
    intros P sched more x y k b i Hi. pose proof (C50_answers_stay_true sched more _ _ _ Hi) as H. cbn [says] in H.
    destruct H as [-> H]. split; [reflexivity|]. pose proof (C50_proper P (sched ++ more)) as (_ & Ix & _).
    unfold under in H. apply In_nth_error in H. destruct H as (j & Hj). pose proof (Ix x j _ Hj) as Ej. cbn in Ej. subst j.
    unfold row. rewrite Hj. reflexivity.
  Qed.
  (** What was found or created is found by everyone who looks or creates afterwards, and it is the same. The numbers [b]
      are those of answers given before a call; [j < b]: the call came after the [j]-th answer. *)
  Theorem C50_found_afterwards : proper m -> forall sched c k x q q' b b' i v j,
    x <> 0 -> names_item c k x q -> names_item c k x q' ->
    nth_error (log (run sched)) j = Some (q, b, VOpt (Some i)) -> In (q', b', v) (log (run sched)) -> j < b' ->
    v = VOpt (Some i) \/ exists t, q' = CreateClass c x t /\ v = VThrow.
  Proof.
    intros P sched c k x q q' b b' i v j Hx Hq Hq' Hj Hi L.
    pose proof (C50_kind_of_answer sched q' b' v Hi) as Sh.
    destruct (C50_denials_true sched q' b' v Hi) as (m' & _ & Before & D). specialize (Before _ _ _ _ L Hj).
    assert (U : under m' (LItems c k) x i).
    { clear - Before Hq. destruct q; cbn [names_item] in Hq; try contradiction; cbn [says] in Before.
      - destruct Hq as (-> & -> & ->). exact Before.
      - destruct Hq as (-> & -> & -> & N1 & N2). destruct k; try exact Before; contradiction.
      - destruct Hq as (-> & -> & ->). exact Before.
      - destruct Hq as (-> & -> & ->). exact Before. }
    assert (Cases : (exists o, v = VOpt o) \/ exists t, q' = CreateClass c x t /\ v = VThrow).
    { clear - Hq' Sh. destruct q'; cbn [names_item] in Hq'; try contradiction; destruct v; cbn [shaped] in Sh; try contradiction;
        try (left; eexists; reflexivity). right. exists t. destruct Hq' as (-> & _ & ->). split; reflexivity. }
    destruct Cases as [([j'|] & ->)|T]; [left|exfalso|right; exact T].
    - f_equal. f_equal. symmetry. eapply (C50_one_item_per_name P sched c k x q q'); [exact Hq|exact Hq'|exact (nth_error_In _ _ Hj)|exact Hi].
    - clear - D U Hq' Hx. destruct q'; cbn [names_item] in Hq'; try contradiction; cbn [denies] in D.
      + destruct Hq' as (_ & _ & ->). contradiction.
      + destruct Hq' as (_ & _ & -> & _). contradiction.
      + destruct Hq' as (-> & -> & ->). exact (D Hx i U).
      + destruct Hq' as (-> & -> & ->). exact (D i U).
  Qed.

  (** A method or property of a class that was found in it is found by searches of the class and its bases afterwards. *)
  Theorem C50_member_found_afterwards : forall sched c k x b b' i v j, x <> 0 ->
    nth_error (log (run sched)) j = Some (Get c k x, b, VOpt (Some i)) -> In (GetMember k c x, b', v) (log (run sched)) -> j < b' ->
    exists i', v = VOpt (Some i').
  Proof.
    intros sched c k x b b' i v j Hx Hj Hi L. pose proof (C50_kind_of_answer _ _ _ _ Hi) as Sh.
    destruct (C50_denials_true _ _ _ _ Hi) as (m' & _ & Before & D). specialize (Before _ _ _ _ L Hj). cbn [says] in Before.
    destruct v; cbn [shaped] in Sh; try contradiction. destruct o as [i'|]; [exists i'; reflexivity|].
    exfalso. exact (D Hx i Before).
  Qed.

  (** A type once registered is known under its name to everyone afterwards. *)
  Theorem C50_type_found_afterwards : proper m -> forall sched x q q' b b' i v j,
    x <> 0 -> names_type x q -> names_type x q' ->
    nth_error (log (run sched)) j = Some (q, b, VOpt (Some i)) -> In (q', b', v) (log (run sched)) -> j < b' ->
    v = VOpt (Some i).
  Proof.
    intros P sched x q q' b b' i v j Hx Hq Hq' Hj Hi L.
    pose proof (C50_kind_of_answer sched q' b' v Hi) as Sh.
    destruct (C50_denials_true sched q' b' v Hi) as (m' & _ & Before & D). specialize (Before _ _ _ _ L Hj).
    assert (U : under m' LTypes x i) by (clear - Before Hq; destruct q; cbn [names_type] in Hq; try contradiction; subst; exact Before).
    assert (Cases : exists o, v = VOpt o).
    { clear - Hq' Sh. destruct q'; cbn [names_type] in Hq'; try contradiction; destruct v; cbn [shaped] in Sh; try contradiction;
        eexists; reflexivity. }
    destruct Cases as ([j'|] & ->); [|exfalso].
    - f_equal. f_equal. symmetry. eapply (C50_one_type_per_name P sched x q q'); [exact Hq|exact Hq'|exact (nth_error_In _ _ Hj)|exact Hi].
    - clear - D U Hq' Hx. destruct q'; cbn [names_type] in Hq'; try contradiction; cbn [denies] in D; subst.
      + exact (D Hx i U).
      + contradiction.
  Qed.

  (** A value once set is found by its name, and numbers and positions never go back. *)
  Theorem C50_value_found_afterwards : forall sched x k w b b' v j, k <> 0 ->
    nth_error (log (run sched)) j = Some (SetValue x k w, b, VUnit) -> In (ValueByName x k, b', v) (log (run sched)) -> j < b' ->
    exists i, v = VRef (Some (x, i)).
  Proof.
    intros sched x k w b b' v j Hk Hj Hi L. pose proof (C50_kind_of_answer _ _ _ _ Hi) as Sh.
    pose proof (C50_answers_stay_true sched [] _ _ _ Hi) as Sa. rewrite app_nil_r in Sa.
    destruct (C50_denials_true _ _ _ _ Hi) as (m' & _ & Before & D). specialize (Before _ _ _ _ L Hj). cbn [says] in Before.
    destruct v; cbn [shaped] in Sh; try contradiction. destruct r as [[y i]|].
    - cbn [says] in Sa. destruct Sa as [-> _]. exists i. reflexivity.
    - exfalso. destruct (Before Hk) as (i & Hu). exact (D Hk i Hu).
  Qed.

  Theorem C50_counts_afterwards : forall sched c k b b' n' n'' j,
    nth_error (log (run sched)) j = Some (Count c k, b, VNat n') -> In (Count c k, b', VNat n'') (log (run sched)) -> j < b' -> n' <= n''.
  Proof.
    intros sched c k b b' n' n'' j Hj Hi L. destruct (C50_denials_true _ _ _ _ Hi) as (m' & _ & Before & D).
    specialize (Before _ _ _ _ L Hj). cbn [says] in Before. cbn [denies] in D. lia.
  Qed.

  Theorem C50_position_afterwards : forall sched c k i b b' x v j,
    nth_error (log (run sched)) j = Some (At c k i, b, VOpt (Some x)) -> In (At c k i, b', v) (log (run sched)) -> j < b' ->
    v = VOpt (Some x).
  Proof.
    intros sched c k i b b' x v j Hj Hi L. pose proof (C50_kind_of_answer _ _ _ _ Hi) as Sh.
    destruct (C50_denials_true _ _ _ _ Hi) as (m' & _ & Before & D). specialize (Before _ _ _ _ L Hj). cbn [says] in Before.
    pose proof (C50_answers_stay_true sched [] _ _ _ Hi) as S1. pose proof (C50_answers_stay_true sched [] _ _ _ (nth_error_In _ _ Hj)) as S2.
    destruct v; cbn [shaped] in Sh; try contradiction. destruct o as [y|].
    - cbn [says] in S1, S2. congruence.
    - cbn [denies] in D. rewrite D in Before. discriminate.
  Qed.
End Any.

Print Assumptions C49_nowhere_else.
Print Assumptions C49_known_names.
Print Assumptions C49_locks_returned.
Print Assumptions C49_no_pending_definition.
Print Assumptions C49_values_only_read.
Print Assumptions C49_values_enumerated.
Print Assumptions C49_race_free_partial.
Print Assumptions C50_answers_stay_true.
Print Assumptions C50_kind_of_answer.
Print Assumptions C50_denials_true.
Print Assumptions C50_entries_stay.
Print Assumptions C50_proper.
Print Assumptions C50_one_item_per_name.
Print Assumptions C50_one_type_per_name.
Print Assumptions C50_reference_stays.
Print Assumptions C50_found_afterwards.
Print Assumptions C50_member_found_afterwards.
Print Assumptions C50_type_found_afterwards.
Print Assumptions C50_value_found_afterwards.
Print Assumptions C50_counts_afterwards.
Print Assumptions C50_position_afterwards.

(** ** Races that are there *)

(** A global namespace 0 with classes 1 and 2 of names 5 and 6 and types 11 and 12; class 1 has an attribute of name 7. *)
Definition world : loc -> val := fun l =>
  match l with
  | LSelf 0 => VSelf Namespace 9 None
  | LSelf 1 => VSelf Class 5 (Some 0)
  | LSelf 2 => VSelf Class 6 (Some 0)
  | LItems 0 Class => VMap [(5, 1); (6, 2)]
  | LNames (Attrs 1) => VMap [(7, 0)]
  | LVal (Attrs 1) 0 => VNat 3
  | LTypes => VMap [(101, 11); (102, 12)]
  | LInfo 11 => VNat 11
  | LInfo 12 => VNat 12
  | _ => VUnit
  end.
Definition classes : aloc -> val := fun a =>
  match a with AMeta 11 => VOpt (Some 1) | AMeta 12 => VOpt (Some 2) | _ => VUnit end.
Definition no_defs : nat -> nat -> client := fun _ _ => Stop true.
Definition once (q : api) : client := Call q (fun _ => Stop true).

(** Two threads ask for the names of two different classes for the first time. Both write the (empty) name of the global
    namespace. *)
Theorem C49_qualified_name_refuted : exists m a n sched,
  proper m /\ race_at (exec no_defs (start m a n [once (Qualified 1); once (Qualified 2)]) sched) (LQual 0).
Proof.
  exists world, classes, 20, (repeat 0 7 ++ repeat 1 7). split.
  - split; [|split].
    + intros l Hl. destruct l as [|t| |i|c k|c|c|x|x i|i|c]; cbn in Hl |- *; try contradiction; try (constructor; fail).
      * repeat constructor; cbn; intuition discriminate.
      * destruct c; [|constructor]. destruct k; repeat constructor; cbn; intuition discriminate.
      * destruct x as [[|[|i]]|i]; repeat constructor; cbn; tauto.
    + intros x i r. unfold row. destruct x as [[|[|j]]|j]; cbn; destruct i as [|[|i]]; cbn; try discriminate.
      intros [= <-]. reflexivity.
    + constructor.
  - vm_compute. exists 0, 1. eexists _, _, _. split; [discriminate|]. repeat split.
Qed.
Print Assumptions C49_qualified_name_refuted.

(** It is no help to have asked before: the name of an item without owner is empty for ever, so that every call writes it. *)
Theorem C49_global_name_refuted : forall m a n k name,
  m (LSelf 0) = VSelf k name None -> path (m (LQual 0)) = [] ->
  exists sched, race_at (exec no_defs (start m a n [once (Qualified 0); once (Qualified 0)]) sched) (LQual 0).
Proof.
  intros m a n k name Hs Hq. exists [0; 0; 0; 0; 1; 1; 1; 1].
  cbn [exec fold_left start map once den den_api turn threads nth_error step unfold put mem atom held next log].
  rewrite Hq. cbn [exec fold_left start map once den den_api turn threads nth_error step unfold put mem atom held next log].
  rewrite Hs. cbn [exec fold_left start map once den den_api turn threads nth_error step unfold put mem atom held next log].
  rewrite Hq. cbn [exec fold_left start map once den den_api turn threads nth_error step unfold put mem atom held next log].
  rewrite Hs. exists 0, 1. eexists _, _, _. split; [discriminate|]. cbn. repeat split.
Qed.
Print Assumptions C49_global_name_refuted.

(** One thread looks at an attribute it was given a reference to while another sets that attribute again. *)
Theorem C49_value_refuted : exists m a n sched,
  race_at (exec no_defs (start m a n
    [Call (ValueByName (Attrs 1) 7) (fun v => match v with VRef r => once (Use r) | _ => Stop true end);
     once (SetValue (Attrs 1) 7 4)]) sched) (LVal (Attrs 1) 0).
Proof.
  exists world, classes, 20, (repeat 0 8 ++ repeat 1 3).
  vm_compute. exists 1, 0. eexists _, _, _. split; [discriminate|]. repeat split.
Qed.
Print Assumptions C49_value_refuted.

(** Two queries of a container with a pending definition: one thread removes the definition while the other looks whether
    there is one. *)
Theorem C49_definition_refuted : exists m a n sched,
  race_at (exec no_defs (start m a n [once (Count 1 Method); once (Count 1 Method)]) sched) (LDefer 1).
Proof.
  exists (fun l => match l with LDefer 1 => VOpt (Some 0) | _ => world l end), classes, 20, (repeat 0 5 ++ [1]).
  vm_compute. exists 0, 1. eexists _, _, _. split; [discriminate|]. repeat split.
Qed.
Print Assumptions C49_definition_refuted.

(** Two threads that try to register a type under a second name: the text of the exception asks for the name. *)
Theorem C49_message_refuted : exists m a n sched,
  race_at (exec no_defs (start m a n [once (CreateClass 0 8 11); once (CreateClass 0 8 11)]) sched) (LQual 1).
Proof.
  exists world, classes, 20, (repeat 0 15 ++ repeat 1 8).
  vm_compute. exists 0, 1. eexists _, _, _. split; [discriminate|]. repeat split.
Qed.
Print Assumptions C49_message_refuted.

(** ** Cases *)

(** The clients of the case: one sets attributes of class 1, registers a type and creates an enumeration; one looks at the
    attributes inside an enumeration of them and at those of class 2, which nobody sets, by reference; one searches. *)
Definition ref (v : val) : option (lst * nat) := match v with VRef r => r | _ => None end.
Definition first_client : client :=
  Call (SetValue (Attrs 1) 7 4) (fun _ => Call (SetValue (Attrs 1) 8 5) (fun _ =>
  Call (Register 103 0) (fun _ => once (Create Enum 0 30)))).
Definition second_client : client :=
  Call (EachValue (Attrs 1) (fun _ i => once (Use (Some (Attrs 1, i))))) (fun _ =>
  Call (ValueByName (Attrs 1) 8) (fun _ => once (Create Enum 0 30))).
Definition third_client : client :=
  Call (Register 103 0) (fun _ => Call (Inherited 1 2) (fun _ => Call (Get 0 Enum 30) (fun _ => Stop true))).

Example C49_case : forall sched l, ~ race_at (exec no_defs (start world classes 20 [first_client; second_client; third_client]) sched) l.
Proof.
  apply (C49_race_free_partial no_defs world classes 20 _ (fun x => x = Attrs 2)).
  - intros c. cbn. destruct c; reflexivity.
  - intros c [<-|[<-|[<-|[]]]]; cbn; intuition (try congruence); subst; try discriminate; intuition congruence.
  - intros d c. exact I.
Qed.

Example C49_case_known : forall sched,
  ~ race_at (exec no_defs (start (fun l => match l with LQual 1 => VPath [5] | _ => world l end) classes 20
              [once (Qualified 1); once (Qualified 1); once (CreateClass 0 8 11)]) sched) (LQual 1).
Proof. intro sched. apply C49_known_names. discriminate. Qed.

Example C49_case_locks :
  let s := exec no_defs (start world classes 20 [first_client; second_client; third_client])
             (List.concat (repeat [0; 2; 1; 0; 0; 2] 40)) in
  map (fun p => match p with Done => true | _ => false end) (threads s) = [true; true; true] /\ held s = [].
Proof. vm_compute. split; reflexivity. Qed.

(** What the three are told when they take turns in some order, with the number of answers before each call: the second
    thread creates the enumeration after the first was answered, and asks for the attribute after it was set. *)
Example C50_case :
  let s := exec no_defs (start world classes 20 [first_client; second_client; third_client])
             (List.concat (repeat [0; 2; 1; 0; 0; 2] 40)) in
  filter (fun e => match fst (fst e) with EachValue _ _ => false | _ => true end) (log s)
  = [(SetValue (Attrs 1) 7 4, 0, VUnit); (Register 103 0, 0, VOpt (Some 20)); (SetValue (Attrs 1) 8 5, 1, VUnit);
     (Register 103 0, 3, VOpt (Some 20)); (Inherited 1 2, 3, VBool false); (Use (Some (Attrs 1, 0)), 5, VNat 4);
     (Create Enum 0 30, 4, VOpt (Some 21)); (Get 0 Enum 30, 5, VOpt (Some 21)); (Use (Some (Attrs 1, 1)), 8, VNat 5);
     (ValueByName (Attrs 1) 8, 10, VRef (Some (Attrs 1, 1))); (Create Enum 0 30, 11, VOpt (Some 21))].
Proof. vm_compute. reflexivity. Qed.

(** Members and denials: a method is asked for before and after it is created in the class. *)
Example C50_case_member :
  let s := exec no_defs (start world classes 20
             [Call (GetMember Method 1 40) (fun _ => Call (Create Method 1 40) (fun _ => Call (Get 1 Method 40) (fun _ => Stop true)));
              Call (Count 1 Method) (fun _ => Call (GetMember Method 1 40) (fun _ => Call (Count 1 Method) (fun _ => Stop true)))])
             (repeat 0 30 ++ repeat 1 4 ++ repeat 0 50 ++ repeat 1 60) in
  log s = [(GetMember Method 1 40, 0, VOpt None); (Create Method 1 40, 1, VOpt (Some 20)); (Get 1 Method 40, 2, VOpt (Some 20));
           (Count 1 Method, 2, VNat 1); (GetMember Method 1 40, 4, VOpt (Some 20)); (Count 1 Method, 5, VNat 1)].
Proof. vm_compute. reflexivity. Qed.
