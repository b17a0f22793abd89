(** Proofs for C58. *)
From Coq Require Import List Bool Arith String Ascii Lia.
From Verif Require Import Util RegistryModel ListsModel StringsModel StringsSpec StringsProofs ListsProofs ReflModel ReflSpec ReflProofs ReflExec ReflMore LinkSpec.
From Verif Require InheritModel InheritSpec InheritProofs AccModel AccSpec DispatchModel DispatchSpec.
Import ListNotations.
Local Open Scope list_scope.

Lemma in_list_max n l : In n l -> n <= list_max l.
Proof. induction l as [|x l IH]; [intros []|]. cbn [list_max fold_right]. fold (list_max l). intros [->|H]; [lia|]. specialize (IH H). lia. Qed.
Lemma assoc_in t (l : list (nat * nat)) a : assoc Nat.eqb t l = Some a -> In (t, a) l.
Proof.
  induction l as [|[u b] l IH]; cbn; [discriminate|]. destruct (Nat.eqb t u) eqn:E.
  - apply Nat.eqb_eq in E. subst. intros [= <-]. auto.
  - auto.
Qed.
Lemma class_types w t a : class_of w t = Some a -> t < types w.
Proof.
  intro H. apply assoc_in in H. unfold types. apply (in_map fst) in H. apply in_list_max in H. cbn [fst] in H. lia.
Qed.
Lemma graph_length w casts : List.length (graph_of w casts) = types w.
Proof. unfold graph_of. rewrite map_length, seq_length. reflexivity. Qed.
Lemma nth_seq n k t : t < k -> nth_error (seq n k) t = Some (n + t).
Proof.
  revert n t. induction k as [|k IH]; intros n t H; [lia|]. destruct t as [|t]; cbn; [f_equal; lia|].
  rewrite IH by lia. f_equal. lia.
Qed.
Lemma graph_nth w casts t : nth_error (graph_of w casts) t = if t <? types w then Some (row w casts t) else None.
Proof.
  destruct (t <? types w) eqn:E.
  - apply Nat.ltb_lt in E. unfold graph_of. apply map_nth_error. apply (nth_seq 0). exact E.
  - apply Nat.ltb_ge in E. apply nth_error_None. rewrite graph_length. exact E.
Qed.
Lemma graph_class w casts t a it : class_of w t = Some a -> get w a = Some it ->
  nth_error (graph_of w casts) t = Some (map (fun p => (fst p, casts t (fst p))) (i_bases it)).
Proof.
  intros Hc Hg. rewrite graph_nth. pose proof (class_types w t a Hc) as H. apply Nat.ltb_lt in H. rewrite H.
  unfold row. rewrite Hc, Hg. reflexivity.
Qed.
Lemma direct_inv w casts t d : InheritSpec.direct (graph_of w casts) t d ->
  exists a it, class_of w t = Some a /\ get w a = Some it /\ In d (map fst (i_bases it)).
Proof.
  intros (l & f & Hn & Hin). rewrite graph_nth in Hn. destruct (t <? types w); [|discriminate]. injection Hn as <-. unfold row in Hin.
  destruct (class_of w t) as [a|] eqn:Hc; [|destruct Hin]. destruct (get w a) as [it|] eqn:Hg; [|destruct Hin].
  exists a, it. split; [reflexivity|]. split; [exact Hg|]. apply in_map_iff in Hin. destruct Hin as ([b g] & E & Hb).
  injection E as <- _. apply in_map_iff. exists (b, g). auto.
Qed.
Lemma direct_intro w casts t a it d : class_of w t = Some a -> get w a = Some it -> In d (map fst (i_bases it)) ->
  InheritSpec.direct (graph_of w casts) t d.
Proof.
  intros Hc Hg Hin. exists (map (fun p => (fst p, casts t (fst p))) (i_bases it)), (casts t d).
  split; [eapply graph_class; eauto|]. apply in_map_iff in Hin. destruct Hin as ([b g] & <- & Hb).
  apply in_map_iff. exists (b, g). auto.
Qed.

Section Ok.
  Variable ok : nat -> nat -> bool.

  Lemma link_closed w casts : reachable ok w -> InheritSpec.closed (graph_of w casts).
  Proof.
    intros HR t d Hd. destruct (reachable_wf ok w HR) as [HW _]. destruct (direct_inv w casts t d Hd) as (a & it & Hc & Hg & Hin).
    rewrite graph_length. pose proof (wf_base _ _ _ _ HW a it d Hg Hin) as Hn. destruct (class_of w d) as [b|] eqn:Eb; [|congruence].
    eapply class_types; eauto.
  Qed.
  Lemma link_ok w casts t d : reachable ok w -> InheritSpec.direct (graph_of w casts) t d -> ok t d = true.
  Proof.
    intros HR Hd. destruct (reachable_wf ok w HR) as [HW _]. destruct (direct_inv w casts t d Hd) as (a & it & Hc & Hg & Hin).
    destruct (wf_class1 _ _ _ _ HW t a Hc) as (it' & Hg' & _ & Ht). rewrite Hg in Hg'. injection Hg' as <-.
    rewrite <- Ht. exact (l_ok _ _ _ _ (wf_local _ _ _ _ HW a it Hg) d Hin).
  Qed.
  Lemma reach_rank rank w casts : ranked ok rank -> reachable ok w -> forall t d, InheritSpec.reach (graph_of w casts) t d -> rank d <= rank t.
  Proof.
    intros Hr HR t d H. induction H as [|x y z Hd _ IH]; [lia|]. pose proof (Hr x y (link_ok w casts x y HR Hd)). lia.
  Qed.
  Lemma link_acyclic rank w casts : ranked ok rank -> reachable ok w -> InheritSpec.acyclic (graph_of w casts).
  Proof.
    intros Hr HR t d Hd H. pose proof (Hr t d (link_ok w casts t d HR Hd)). pose proof (reach_rank rank w casts Hr HR d t H). lia.
  Qed.
  Lemma reach_up w casts t a u : reachable ok w -> class_of w t = Some a -> InheritSpec.reach (graph_of w casts) t u ->
    exists b, class_of w u = Some b /\ up w a b.
  Proof.
    intros HR Hc H. revert a Hc. induction H as [x|x y z Hd _ IH]; intros a Hc; [exists a; split; [exact Hc|constructor]|].
    destruct (direct_inv w casts x y Hd) as (a' & it & Hc' & Hg & Hin). rewrite Hc in Hc'. injection Hc' as <-.
    destruct (reachable_wf ok w HR) as [HW _]. pose proof (wf_base _ _ _ _ HW a it y Hg Hin) as Hn.
    destruct (class_of w y) as [b|] eqn:Eb; [|congruence]. destruct (IH b eq_refl) as (c & Hcz & Hu). exists c. split; [exact Hcz|].
    apply in_map_iff in Hin. destruct Hin as ([b' f] & E & Hin). cbn in E. subst b'. eapply up_step; eauto.
  Qed.
  Lemma up_reach w casts t a b : reachable ok w -> class_of w t = Some a -> up w a b ->
    exists u, class_of w u = Some b /\ InheritSpec.reach (graph_of w casts) t u.
  Proof.
    intros HR Hc H. revert t Hc. induction H as [a|a it y f b c Hg Hin Hy _ IH]; intros t Hc; [exists t; split; [exact Hc|constructor]|].
    destruct (IH y Hy) as (u & Hu & Hr). exists u. split; [exact Hu|]. econstructor; [|exact Hr].
    eapply direct_intro; eauto. apply in_map_iff. exists (y, f). auto.
  Qed.

  (** ** Searching the registry and the graph *)

  Section Search.
    Context {R S : Type}.
    Variables (own : world -> nat -> out (option R)) (h : nat -> option R) (hown : nat -> option S) (f : R -> S).
    Variables (w0 : world) (casts : nat -> nat -> nat -> nat) (a0 : nat).
    Hypothesis HW : WF false false ok w0.
    Hypothesis Hown : forall w a, same w0 w -> has_cat Class w0 a -> up w0 a0 a -> exists w2, own w a = Ret w2 (h a) /\ same w0 w2.
    Hypothesis Hh : forall t a, class_of w0 t = Some a -> up w0 a0 a -> hown t = option_map f (h a).

    Lemma up_snoc a b it t g c : up w0 a b -> get w0 b = Some it -> In (t, g) (i_bases it) -> class_of w0 t = Some c -> up w0 a c.
    Proof.
      intros H Hg Hin Hc. induction H as [|x xt u f' y z Hgx Hx Hu _ IH]; [eapply up_step; eauto; constructor|].
      eapply up_step; eauto.
    Qed.
    Lemma dfs_agrees : forall m w t a, same w0 w -> class_of w0 t = Some a -> up w0 a0 a ->
      agree w0 (option_map f) (dfs own m w a) (InheritModel.getMember hown false (graph_of w0 casts) m t).
    Proof.
      induction m as [|m IH]; intros w t a HS Hc Hu; [exact I|]. cbn [dfs InheritModel.getMember].
      destruct (wf_class1 _ _ _ _ HW t a Hc) as (it & Hg & Hcat & Ht).
      destruct (Hown w a HS (ex_intro _ it (conj Hg Hcat)) Hu) as (w1 & E1 & HS1). rewrite E1. cbn [bind].
      rewrite (Hh t a Hc Hu). destruct (h a) as [x|]; cbn [option_map]; [split; [reflexivity|exact HS1]|].
      rewrite (same_get w0 w1 a HS1), Hg. rewrite (graph_class w0 casts t a it Hc Hg). unfold holding.
      set (w2 := acquire w1 (a, LBases)).
      set (loop := fix loop (w : world) (l : list (nat * nat)) : out (option R) :=
        match l with
        | [] => Ret w None
        | (t, _) :: l' => match class_of w t with
            | None => UB
            | Some b => bind (dfs own m w b) (fun w' r => match r with Some x => Ret w' (Some x) | None => loop w' l' end)
            end
        end).
      set (walk := fix loop (l : list (nat * (nat -> nat))) : InheritModel.res (option S) :=
        match l with
        | [] => InheritModel.Ok None
        | (d, _) :: l' => match InheritModel.getMember hown false (graph_of w0 casts) m d with
            | InheritModel.Ok (Some m) => InheritModel.Ok (Some m)
            | InheritModel.Ok None => loop l'
            | e => e
            end
        end).
      assert (HL : forall l v, same w0 v -> (forall t f, In (t, f) l -> In (t, f) (i_bases it)) ->
        agree w0 (option_map f) (loop v l) (walk (map (fun p => (fst p, casts t (fst p))) l))).
      { induction l as [|[u g] l IHl]; intros v HSv Hl; [split; [reflexivity|exact HSv]|]. cbn [map loop walk fst].
        rewrite (same_class w0 v u HSv).
        assert (Hin : In (u, g) (i_bases it)) by (apply Hl; left; reflexivity).
        assert (Hm : In u (map fst (i_bases it))) by (apply in_map_iff; exists (u, g); auto).
        destruct (class_of w0 u) as [d|] eqn:Ed; [|exfalso; exact (wf_base _ _ _ _ HW a it u Hg Hm Ed)].
        pose proof (IH v u d HSv Ed (up_snoc _ _ _ _ _ _ Hu Hg Hin Ed)) as H.
        destruct (dfs own m v d) as [w3 r| | | | |]; cbn [agree] in H; try contradiction;
          destruct (InheritModel.getMember hown false (graph_of w0 casts) m u) as [r'| |]; try contradiction; [|exact I].
        destruct H as [<- HS3]. cbn [bind]. destruct r as [x|]; cbn [option_map]; [split; [reflexivity|exact HS3]|].
        apply IHl; [exact HS3|]. intros; apply Hl; right; assumption. }
      assert (HS2 : same w0 w2) by (destruct HS1; split; assumption).
      specialize (HL (i_bases it) w2 HS2 (fun _ _ H => H)).
      change (agree w0 (option_map f) (match loop w2 (i_bases it) with Ret w' x => Ret (release w') x | Throw e w' => Throw e (release w') | o => o end)
                    (walk (map (fun p => (fst p, casts t (fst p))) (i_bases it)))).
      destruct (loop w2 (i_bases it)) as [w3 r|e w3| | | |]; try exact HL.
    Qed.
  End Search.

  Variable run : world -> nat -> prog -> out unit.

  Lemma item_own w1 w c n a : idle w a -> same w w1 ->
    exists w2, get_item run w1 a c n = Ret w2 (own_item w c n a) /\ same w w2.
  Proof.
    intros Ha HS. assert (Ha1 : idle w1 a) by (destruct Ha as (it & Hg & H); exists it; rewrite (same_get w w1 a HS); auto).
    unfold get_item. rewrite (check_idle run w1 a Ha1). cbn [bind]. exists (touch w1 (a, LList c)).
    unfold own_item, list_of. rewrite (same_get w w1 a HS). destruct Ha as (it & Hg & _). rewrite Hg. split; [reflexivity|exact HS].
  Qed.
  Lemma method_own w1 w c q a : idle w a -> same w w1 ->
    exists w2, find_method run w1 a c q = Ret w2 (own_method w c (txt q) a) /\ same w w2.
  Proof.
    intros Ha HS. assert (Ha1 : idle w1 a) by (destruct Ha as (it & Hg & H); exists it; rewrite (same_get w w1 a HS); auto).
    unfold find_method. rewrite (check_idle run w1 a Ha1). cbn [bind]. exists (touch w1 (a, LList c)).
    unfold own_method, list_of. rewrite (same_get w w1 a HS). destruct Ha as (it & Hg & _). rewrite Hg.
    rewrite (findMethod_ext _ (fun x => txt (names w x))) by (intro; rewrite (same_names w w1) by exact HS; reflexivity).
    destruct (find_answering w a it c (txt q) Hg) as [(x & E & _)|[E _]]; rewrite E; (split; [reflexivity|exact HS]).
  Qed.

  Lemma findMethod_map {A B} (f : A -> B) (nm : B -> text) (l : list A) q :
    findMethod nm (map f l) q = match findMethod (fun x => nm (f x)) l q with FSome x => FSome (f x) | FNone => FNone | FThrow => FThrow end.
  Proof.
    unfold findMethod. assert (H : forall l (s : found A) (s' : found B),
        s' = match s with FSome x => FSome (f x) | FNone => FNone | FThrow => FThrow end ->
        for_each (fun r a => match method_matches (nm a) q with Some true => (FSome a, false) | Some false => (r, true) | None => (FThrow, false) end) (map f l) s' =
        match for_each (fun r a => match method_matches (nm (f a)) q with Some true => (FSome a, false) | Some false => (r, true) | None => (FThrow, false) end) l s with
        FSome x => FSome (f x) | FNone => FNone | FThrow => FThrow end).
    { clear l. induction l as [|x l IH]; intros s s' E; cbn [map for_each]; [exact E|].
      destruct (method_matches (nm (f x)) q) as [[]|]; cbn; auto. }
    apply H. reflexivity.
  Qed.
  Lemma members_class {M} w (what : nat -> M) c t a it : class_of w t = Some a -> get w a = Some it ->
    members w what c t = map (fun x => (txt (names w x), what (invoker w x))) (ml_items (i_list it c)).
  Proof. intros Hc Hg. unfold members. rewrite Hc, Hg. reflexivity. Qed.
  Lemma method_table w fs ps q t a it : class_of w t = Some a -> get w a = Some it ->
    DispatchModel.own_method (classes_of w fs ps) q t = option_map (fun x => fs (invoker w x)) (own_method w Method q a).
  Proof.
    intros Hc Hg. unfold DispatchModel.own_method, own_method. cbn [classes_of DispatchModel.methods].
    rewrite (members_class w fs Method t a it Hc Hg), Hg, findMethod_map. cbn [fst].
    destruct (findMethod (fun x => txt (names w x)) (ml_items (i_list it Method)) q); reflexivity.
  Qed.
  Lemma property_table w fs ps n t a it : WF false false ok w -> n <> ""%string -> class_of w t = Some a -> get w a = Some it ->
    DispatchModel.own_property (classes_of w fs ps) (txt n) t = option_map (fun x => ps (invoker w x)) (own_item w Property n a).
  Proof.
    intros HW Hn Hc Hg. unfold DispatchModel.own_property, own_item. cbn [classes_of DispatchModel.properties].
    rewrite (members_class w ps Property t a it Hc Hg), Hg.
    pose proof (wf_names _ _ _ _ HW a it Property Hg) as Hok.
    assert (HF : forall l, find (fun np => text_eqb (fst np) (txt n)) (map (fun x => (txt (names w x), ps (invoker w x))) l) =
      option_map (fun x => (txt (names w x), ps (invoker w x))) (find (fun x => text_eqb (txt (names w x)) (txt n)) l)).
    { induction l as [|x l IH]; [reflexivity|]. cbn [map find fst]. destruct (text_eqb (txt (names w x)) (txt n)); [reflexivity|exact IH]. }
    rewrite HF. destruct (find (fun x => text_eqb (txt (names w x)) (txt n)) (ml_items (i_list it Property))) as [x|] eqn:E; cbn [option_map].
    - apply find_some in E. destruct E as [Hin Hx]. apply text_eqb_eq in Hx. apply txt_inj in Hx.
      rewrite (proj2 (ml_find_iff (names w) _ n x Hok Hn)); auto.
    - destruct (ml_find (i_list it Property) n) as [x|] eqn:Ex; [|reflexivity]. exfalso.
      apply (proj1 (ml_find_iff (names w) _ n x Hok Hn)) in Ex. destruct Ex as [Hin Hx].
      pose proof (find_none _ _ E x Hin) as H. cbn beta in H. rewrite Hx in H.
      assert (text_eqb (txt n) (txt n) = true) by (apply text_eqb_eq; reflexivity). congruence.
  Qed.
  Lemma defined_idle w a0 a it : defined w a0 -> up w a0 a -> get w a = Some it -> idle w a.
  Proof. intros H Hu Hg. exists it. split; [exact Hg|]. eapply H; eauto. Qed.

  Lemma get_method_agrees k w fs ps casts t a n : reachable ok w -> class_of w t = Some a -> defined w a -> n <> ""%string ->
    agree w (option_map (fun x => fs (invoker w x))) (get_method run k w a n)
      (InheritModel.getMember (DispatchModel.own_method (classes_of w fs ps) (txt n)) false (graph_of w casts) k t).
  Proof.
    intros HR Hc Hd Hn. destruct (reachable_wf ok w HR) as [HW _]. destruct (wf_class1 _ _ _ _ HW t a Hc) as (it & Hg & Hcat & _).
    unfold get_method. apply String.eqb_neq in Hn. rewrite Hn, Hg, Hcat. cbn [cat_eqb].
    apply (dfs_agrees (fun w a => find_method run w a Method n) (own_method w Method (txt n)) _ _ w casts a HW); [| |apply same_refl|exact Hc|constructor].
    - intros w1 b HS (bt & Hb & _) Hu. apply method_own; [eapply defined_idle; eauto|exact HS].
    - intros u b Hcu Hu. destruct (wf_class1 _ _ _ _ HW u b Hcu) as (bt & Hb & _). eapply method_table; eauto.
  Qed.
  Lemma get_property_agrees k w fs ps casts t a n : reachable ok w -> class_of w t = Some a -> defined w a -> n <> ""%string ->
    agree w (option_map (fun x => ps (invoker w x))) (get_property run k w a n)
      (InheritModel.getMember (DispatchModel.own_property (classes_of w fs ps) (txt n)) false (graph_of w casts) k t).
  Proof.
    intros HR Hc Hd Hn. destruct (reachable_wf ok w HR) as [HW _]. destruct (wf_class1 _ _ _ _ HW t a Hc) as (it & Hg & Hcat & _).
    unfold get_property. rewrite Hg, Hcat. cbn [cat_eqb]. pose proof Hn as Hn'. apply String.eqb_neq in Hn'. rewrite Hn'.
    apply (dfs_agrees (fun w a => get_item run w a Property n) (own_item w Property n) _ _ w casts a HW); [| |apply same_refl|exact Hc|constructor].
    - intros w1 b HS (bt & Hb & _) Hu. apply item_own; [eapply defined_idle; eauto|exact HS].
    - intros u b Hcu Hu. destruct (wf_class1 _ _ _ _ HW u b Hcu) as (bt & Hb & _). eapply property_table; eauto.
  Qed.

  Lemma inherited_member {X} (g : InheritModel.graph X) u : forall m t,
    InheritModel.inheritedFrom g m t u =
    match InheritModel.getMember (fun x => if x =? u then Some tt else None) false g m t with
    | InheritModel.Ok (Some _) => InheritModel.Ok true | InheritModel.Ok None => InheritModel.Ok false
    | InheritModel.UB => InheritModel.UB | InheritModel.Fuel => InheritModel.Fuel end.
  Proof.
    induction m as [|m IH]; intro t; [reflexivity|]. cbn [InheritModel.inheritedFrom InheritModel.getMember].
    destruct (t =? u); [reflexivity|]. destruct (nth_error g t) as [l|]; [|reflexivity].
    induction l as [|[d f] l IHl]; [reflexivity|]. rewrite IH.
    destruct (InheritModel.getMember _ false g m d) as [[[]|]| |]; auto.
  Qed.
  Lemma inherited_agrees_in k w w1 casts t a u b : WF false false ok w -> same w w1 ->
    class_of w t = Some a -> class_of w u = Some b -> defined w a ->
    agree w (fun r => r) (inherited run k w1 a b) (InheritModel.inheritedFrom (graph_of w casts) k t u).
  Proof.
    intros HW HS0 Hc Hcu Hd. rewrite inherited_member. unfold inherited.
    assert (H : agree w (option_map (fun x : unit => x)) (dfs (fun w x => if x =? b then Ret w (Some tt) else bind (check run w x) (fun w _ => Ret w None)) k w1 a)
      (InheritModel.getMember (fun x => if x =? u then Some tt else None) false (graph_of w casts) k t)).
    { apply (dfs_agrees _ (fun x => if x =? b then Some tt else None) _ _ w casts a HW); [| |exact HS0|exact Hc|constructor].
      - intros w2 x HS (xt & Hx & _) Hu. cbn beta. destruct (x =? b); [exists w2; auto|].
        rewrite check_idle; [exists w2; auto|]. destruct (defined_idle w a x xt Hd Hu Hx) as (it & Hg & Hi).
        exists it. rewrite (same_get w w2 x HS). auto.
      - intros v x Hv Hu. destruct (v =? u) eqn:E1; destruct (x =? b) eqn:E2; try reflexivity; exfalso.
        + apply Nat.eqb_eq in E1. subst v. apply Nat.eqb_neq in E2. congruence.
        + apply Nat.eqb_eq in E2. subst x. apply Nat.eqb_neq in E1. apply E1.
          destruct (wf_class1 _ _ _ _ HW u b Hcu) as (bt & Hb & _ & Hbt). destruct (wf_class1 _ _ _ _ HW v b Hv) as (bt' & Hb' & _ & Hbt').
          congruence. }
    destruct (dfs _ k w1 a) as [w' [[]|]| | | | |]; destruct (InheritModel.getMember _ _ _ _ _) as [[[]|]| |]; cbn in H |- *;
      try contradiction; auto; destruct H as [E HS]; try discriminate; auto.
  Qed.
  Lemma inherited_agrees k w casts t a u b : reachable ok w -> class_of w t = Some a -> class_of w u = Some b -> defined w a ->
    agree w (fun r => r) (inherited run k w a b) (InheritModel.inheritedFrom (graph_of w casts) k t u).
  Proof. intros HR. destruct (reachable_wf ok w HR) as [HW _]. apply inherited_agrees_in; [exact HW|apply same_refl]. Qed.

  (** ** Casts *)

  Lemma defined_up w a b it t f : defined w a -> get w a = Some it -> In (t, f) (i_bases it) -> class_of w t = Some b -> defined w b.
  Proof. intros H Hg Hin Hc c ct Hu Hgc. apply (H c ct); [eapply up_step; eauto|exact Hgc]. Qed.

  Lemma inherited_more {X} (g : InheritModel.graph X) u : forall m m' t r, m <= m' ->
    InheritModel.inheritedFrom g m t u = InheritModel.Ok r -> InheritModel.inheritedFrom g m' t u = InheritModel.Ok r.
  Proof.
    induction m as [|m IH]; intros [|m'] t r Hm E; try discriminate; [lia|]. apply le_S_n in Hm. revert E.
    cbn [InheritModel.inheritedFrom]. destruct (t =? u); [auto|]. destruct (nth_error g t) as [l|]; [|discriminate].
    induction l as [|[d f] l IHl]; [auto|]. destruct (InheritModel.inheritedFrom g m d u) as [v| |] eqn:E; try discriminate.
    rewrite (IH m' d v Hm E). destruct v; auto.
  Qed.

  Lemma cast_agrees k w casts act u b : WF false false ok w ->
    registered_casts w casts act -> class_of w u = Some b ->
    forall j t a w1 x r, j <= k -> same w w1 -> class_of w t = Some a -> defined w a ->
    InheritModel.cast (graph_of w casts) j t u (Some x) = InheritModel.Ok r ->
    exists w' p, cast_to run k j w1 a b = Ret w' p /\ same w w' /\ r = option_map (apply_all act x) p.
  Proof.
    intros HW Hact Hu. induction j as [|j IH]; intros t a w1 x r Hj HS Hc Hd E; [discriminate|]. revert E.
    cbn [InheritModel.cast cast_to].
    assert (Eq : (t =? u) = (a =? b)).
    { destruct (Nat.eqb_spec t u) as [e|N]; destruct (Nat.eqb_spec a b) as [e'|N']; try reflexivity; exfalso.
      - subst t. congruence.
      - subst a. apply N. destruct (wf_class1 _ _ _ _ HW u b Hu) as (bt & Hb & _ & Hbt).
        destruct (wf_class1 _ _ _ _ HW t b Hc) as (bt' & Hb' & _ & Hbt'). congruence. }
    rewrite Eq. destruct (a =? b); [intros [= <-]; exists w1, (Some []); auto|]. clear Eq.
    destruct (wf_class1 _ _ _ _ HW t a Hc) as (it & Hg & _ & _). rewrite (graph_class w casts t a it Hc Hg).
    assert (Hi1 : idle w1 a).
    { exists it. rewrite (same_get w w1 a HS). split; [exact Hg|]. apply (Hd a it); [constructor|exact Hg]. }
    rewrite (check_idle run w1 a Hi1). cbn [bind]. rewrite (same_get w w1 a HS), Hg. unfold holding.
    assert (HS2 : same w (acquire w1 (a, LBases))) by (destruct HS; split; assumption).
    revert HS2. generalize (acquire w1 (a, LBases)) as w2. clear Hi1.
    assert (Hl : forall p, In p (i_bases it) -> In p (i_bases it)) by auto. revert Hl. generalize (i_bases it) at 1 3 4.
    induction l as [|[d f] l IHl]; intros Hl w2 HS2.
    - cbn [map]. intros [= <-]. eexists. exists None. split; [reflexivity|]. split; [destruct HS2; split; assumption|reflexivity].
    - cbn [map fst]. rewrite (same_class w w2 d HS2). pose proof (Hl (d, f) (or_introl eq_refl)) as Hin.
      assert (Hm : In d (map fst (i_bases it))) by (apply in_map_iff; exists (d, f); auto).
      destruct (class_of w d) as [c|] eqn:Ed; [|exfalso; exact (wf_base _ _ _ _ HW a it d Hg Hm Ed)].
      assert (Hdc : defined w c) by (eapply defined_up; eauto).
      destruct (InheritModel.inheritedFrom (graph_of w casts) j d u) as [v| |] eqn:Ei; try discriminate.
      pose proof (inherited_agrees_in k w w2 casts d c u b HW HS2 Ed Hu Hdc) as H.
      rewrite (inherited_more _ u j k d v ltac:(lia) Ei) in H.
      destruct (inherited run k w2 c b) as [w3 v'| | | | |]; try contradiction. destruct H as [-> HS3]. cbn [bind]. destruct v.
      + intro E. cbn [option_map] in E. destruct (IH d c w3 _ r ltac:(lia) HS3 Ed Hdc E) as (w4 & p & E4 & HS4 & ->). rewrite E4. cbn [bind].
        eexists. eexists. split; [reflexivity|]. split; [destruct HS4; split; assumption|].
        rewrite (Hact t a it d f x Hc Hg Hin). destruct p; reflexivity.
      + intro E. apply (IHl (fun p Hp => Hl p (or_intror Hp)) w3 HS3 E).
  Qed.
End Ok.
