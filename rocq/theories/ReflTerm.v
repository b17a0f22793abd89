(** Every execution ends when base classes are declared along a well-founded order: a bound on nesting and
    recursion can be computed from the registry and the program. *)
From Coq Require Import List Bool Arith String Ascii Lia.
From Verif Require Import Util RegistryModel RegistryProofs ListsModel ListsSpec ListsProofs StringsModel StringsSpec StringsProofs ReflModel ReflSpec ReflProofs ReflExec.
Import ListNotations.
Local Open Scope list_scope.
Local Arguments list_sum : simpl never.
Local Arguments Nat.mul : simpl never.

(** Number of commands, nested ones included. *)
Fixpoint csize (c : cmd) : nat :=
  S match c with
    | KLazy p | KUse _ p => list_sum (map csize p)
    | KEach _ _ vs | KEachAttr _ vs | KEachElem _ vs => list_sum (map (fun p => list_sum (map csize p)) vs)
    | _ => 0
    end.
Definition psize (p : prog) : nat := list_sum (map csize p).

(** Commands waiting in a deferred definition. *)
Definition pend (it : item) : nat :=
  match i_def it with Some p => if i_lock it then 0 else psize p | None => 0 end.
Definition V (w : world) : nat := List.length (w_items w) + 4 * list_sum (map pend (w_items w)).

Lemma sum_cons x l : list_sum (x :: l) = x + list_sum l.
Proof. reflexivity. Qed.
Lemma list_sum_replace (l : list item) a it x : nth_error l a = Some it ->
  list_sum (map pend (replace a x l)) + pend it = list_sum (map pend l) + pend x.
Proof.
  revert a. induction l as [|y l IH]; intros [|a] H; cbn in H; try discriminate.
  - injection H as ->. cbn [replace map]. rewrite !sum_cons. lia.
  - cbn [replace map]. rewrite !sum_cons. specialize (IH a H). lia.
Qed.
Lemma V_upd w a f it : get w a = Some it -> V (upd w a f) + 4 * pend it = V w + 4 * pend (f it).
Proof.
  intro H. unfold V. rewrite upd_length. unfold upd. rewrite H. pose proof (list_sum_replace (w_items w) a it (f it) H).
  unfold put; cbn [w_items]; lia.
Qed.
Lemma V_keep w a f : (forall it, get w a = Some it -> pend (f it) = pend it) -> V (upd w a f) = V w.
Proof.
  intro H. destruct (get w a) as [it|] eqn:E.
  - pose proof (V_upd w a f it E). rewrite (H it eq_refl) in H0. lia.
  - unfold upd. rewrite E. reflexivity.
Qed.
Lemma V_app w it c h r : pend it = 0 -> V (World (w_items w ++ [it]) c h r) = S (V w).
Proof.
  intro H. unfold V. cbn. rewrite map_app, list_sum_app, app_length. cbn [map List.length]. rewrite sum_cons, H. change (list_sum []) with 0. lia.
Qed.
Lemma V_new w o it l : pend it = 0 -> V (with_new w o it l) = S (V w).
Proof. intro H. unfold with_new. rewrite V_keep; [apply V_app; exact H|]. reflexivity. Qed.

Definition fin {A} (m : nat) (o : out A) : Prop :=
  match o with Ret w' _ | Throw _ w' => V w' <= m | Fuel => False | _ => True end.
Lemma fin_weaken {A} m m' (o : out A) : fin m o -> m <= m' -> fin m' o.
Proof. destruct o; cbn; auto; lia. Qed.

Section Term.
  Variable okbase : nat -> nat -> bool.
  Variable rank : nat -> nat.
  Hypothesis Hrank : forall t b, okbase t b = true -> rank b < rank t.
  Variable k : nat.
  Hypothesis HR : forall t, rank t < k.
  Notation WF := (WF false false okbase). Notation steps := (steps false false okbase).
  Notation post := (post false false okbase). Notation bok := (bok false).

  Lemma fin_bind {A B} w m m' (o : out A) (f : world -> A -> out B) Q : WF w -> hk false w -> post w o Q -> fin m o ->
    (forall w' x, WF w' -> hk false w' -> steps w w' -> bal w w' -> Q w' x -> V w' <= m -> fin m' (f w' x)) -> m <= m' ->
    fin m' (bind o f).
  Proof.
    intros HW Hk Ho Hm Hf Hle. destruct o as [w' x|e w'| | | |]; cbn in *; auto; [|lia].
    destruct Ho as (Hs & Hb & HQ). apply Hf; auto; [eapply steps_wf; eauto|eapply bal_hk; eauto].
  Qed.
  Lemma pre_ff w p : prog_pre false false w p.
  Proof. split; discriminate. Qed.

  Section Run.
    Variable n : nat.
    Hypothesis Hnk : n <= k.
    Variable run : world -> nat -> prog -> out unit.
    Variable use : world -> prog -> out unit.
    Hypothesis Hnone : forall w, use w [] = Ret w tt \/ use w [] = Fuel.
    Hypothesis Prun : forall w a p, WF w -> hk false w -> cont w a -> prog_pre false false w p -> post w (run w a p) (fun _ _ => True).
    Hypothesis Puse : forall w p, WF w -> hk false w -> prog_pre false false w p -> post w (use w p) (fun _ _ => True).
    Hypothesis Frun : forall w a p, WF w -> hk false w -> cont w a -> V w + 4 * psize p < n -> fin (V w + 4 * psize p) (run w a p).
    Hypothesis Fuse : forall w p, WF w -> hk false w -> V w + 4 * psize p < n -> fin (V w + 4 * psize p) (use w p).

    Lemma check_fin w a : WF w -> hk false w -> cont w a -> V w < n -> fin (V w) (check run w a).
    Proof.
      intros HW Hk (it & Hg & Hc) Hn. unfold check. rewrite Hg. destruct (i_def it) as [p|] eqn:Ed; [|cbn; lia].
      destruct (i_lock it) eqn:El; [cbn; lia|].
      assert (Hp : prim false false okbase w (upd w a begin_def)) by (eapply PBegin; eauto).
      pose proof (prim_wf _ _ _ _ _ HW Hp) as HW1.
      assert (Hk1 : hk false (upd w a begin_def)) by (intros l; rewrite upd_held; apply Hk).
      assert (Hc1 : cont (upd w a begin_def) a).
      { exists (begin_def it). rewrite get_upd, Nat.eqb_refl, Hg. split; [reflexivity|exact Hc]. }
      assert (HV : V (upd w a begin_def) + 4 * psize p = V w).
      { pose proof (V_upd w a begin_def it Hg) as H. unfold pend in H. cbn in H. rewrite Ed, El in H. lia. }
      pose proof (Prun _ a p HW1 Hk1 Hc1 (pre_ff _ _)) as HP.
      pose proof (Frun _ a p HW1 Hk1 Hc1) as HF. rewrite HV in HF. specialize (HF Hn).
      assert (HE : forall w', bal (upd w a begin_def) w' -> V w' <= V w -> V (upd w' a end_def) <= V w).
      { intros w' Hb Hv. enough (V (upd w' a end_def) <= V w') by lia. destruct (get w' a) as [it'|] eqn:E'.
        - pose proof (V_upd w' a end_def it' E') as H. unfold pend in H. cbn in H. destruct (i_def it'); [|lia]. lia.
        - unfold upd. rewrite E'. lia. }
      destruct (run (upd w a begin_def) a p) as [w' x|e w'| | | |]; cbn in *; auto.
      - destruct HP as (_ & Hb & _). apply HE; assumption.
      - destruct HP as (_ & Hb). apply HE; assumption.
    Qed.

    Ltac bnd := eapply fin_bind; [eassumption|eassumption| | |  | ].

    Lemma get_item_fin w a c nm : WF w -> hk false w -> cont w a -> V w < n -> fin (V w) (get_item run w a c nm).
    Proof.
      intros HW Hk Hc Hn. eapply fin_bind; [exact HW|exact Hk|apply check_post; eassumption|apply check_fin; assumption| |reflexivity].
      intros w1 x _ _ _ _ _ H. exact H.
    Qed.
    Lemma find_method_fin w a c nm : WF w -> hk false w -> cont w a -> V w < n -> fin (V w) (find_method run w a c nm).
    Proof.
      intros HW Hk Hc Hn. eapply fin_bind; [exact HW|exact Hk|apply check_post; eassumption|apply check_fin; assumption| |reflexivity].
      intros w1 x _ _ _ _ _ H. destruct (findMethod _ _ _); exact H.
    Qed.
    Lemma holding_fin {A} m w l (body : world -> out A) : WF w -> hk false w -> soft_kind false (snd l) = true ->
      (forall w', WF w' -> hk false w' -> steps w w' -> w_items w' = w_items w -> w_class w' = w_class w -> fin m (body w')) ->
      fin m (holding w l body).
    Proof.
      intros HW Hk Hl Hb. unfold holding.
      assert (Ha : steps w (acquire w l)) by (apply steps_one; apply PLocks).
      assert (HWa : WF (acquire w l)) by (apply wf_locks; exact HW).
      assert (Hka : hk false (acquire w l)) by (intros y [<-|Hy]; [exact Hl|apply Hk; exact Hy]).
      specialize (Hb (acquire w l) HWa Hka Ha eq_refl eq_refl).
      destruct (body (acquire w l)); exact Hb.
    Qed.

    Lemma dfs_fin {R} (own : world -> nat -> out (option R)) (P : world -> R -> Prop) :
      (forall w w' x, WF w -> steps w w' -> P w x -> P w' x) ->
      (forall w a, WF w -> hk false w -> has_cat Class w a -> post w (own w a) (fun w' r => forall x, r = Some x -> P w' x)) ->
      (forall w a, WF w -> hk false w -> has_cat Class w a -> V w < n -> fin (V w) (own w a)) ->
      forall m w a it, WF w -> hk false w -> get w a = Some it -> i_cat it = Class -> rank (i_type it) < m -> V w < n ->
      fin (V w) (dfs own m w a).
    Proof.
      intros HP Pown Fown. induction m as [|m IH]; intros w a it HW Hk Hg Hc Hm Hn; [lia|]. cbn [dfs].
      assert (Ha : has_cat Class w a) by (exists it; auto).
      eapply fin_bind; [exact HW|exact Hk|apply Pown; assumption|apply Fown; assumption| |reflexivity].
      intros w1 r HW1 Hk1 Hs Hb Hr HV. destruct r as [x|]; [exact HV|].
      destruct (proj1 (steps_extends _ _ _ _ _ HW Hs) _ _ Hg) as (it1 & Hg1 & G). rewrite Hg1.
      apply holding_fin; [exact HW1|exact Hk1|reflexivity|].
      intros w2 HW2 Hk2 Hs2 Ei Ec.
      assert (HB : forall t, In t (map fst (i_bases it1)) -> class_of w2 t <> None /\ rank t < m).
      { intros t Ht. split; [apply (wf_base _ _ _ _ HW2 a it1 t); [|exact Ht]; unfold get; rewrite Ei; exact Hg1|].
        pose proof (l_ok _ _ _ _ (wf_local _ _ _ _ HW1 _ _ Hg1) t Ht) as Hok. apply Hrank in Hok. rewrite (g_type _ _ G) in Hok. lia. }
      assert (HV2 : V w2 <= V w) by (unfold V; rewrite Ei; exact HV).
      clear Hs Hb Hg1 Hr Ei Ec Hs2 HW1 Hk1 HV G. revert w2 HW2 Hk2 HB HV2. generalize (i_bases it1).
      induction l as [|[t f] l IHl]; intros w2 HW2 Hk2 HB HV2; [exact HV2|].
      destruct (class_of w2 t) as [b|] eqn:Eb; [|exact I].
      destruct (wf_class1 _ _ _ _ HW2 t b Eb) as (bt & Hgb & Hcb & Htb).
      eapply fin_bind with (m := V w2); [exact HW2|exact Hk2| | | |exact HV2].
      - apply (dfs_post _ _ _ own P HP Pown); auto. exists bt. auto.
      - eapply IH; eauto; [|lia]. rewrite Htb. apply HB. left. reflexivity.
      - intros w3 r HW3 Hk3 Hs3 Hb3 _ HV3. destruct r as [x|]; [cbn; lia|]. apply IHl; [exact HW3|exact Hk3| |lia].
        intros t' Ht'. split; [|apply HB; right; exact Ht'].
        destruct (class_of w2 t') as [b'|] eqn:E'; [rewrite (proj2 (steps_extends _ _ _ _ _ HW2 Hs3) _ _ E'); discriminate|].
        exfalso. apply (proj1 (HB t' (or_intror Ht'))). exact E'.
    Qed.

    Lemma get_method_fin w a nm : WF w -> hk false w -> cont w a -> V w < n -> fin (V w) (get_method run k w a nm).
    Proof.
      intros HW Hk Hc Hn. unfold get_method. destruct (nm =? "")%string; [cbn; lia|].
      pose proof Hc as (it & Hg & Hci). rewrite Hg. destruct (cat_eqb (i_cat it) Class) eqn:E; [|apply find_method_fin; assumption].
      apply cat_eqb_eq in E. apply (dfs_fin _ (has_cat Method)) with (it := it); auto.
      - intros w1 w2 x HW1 Hs. apply has_cat_steps with (1 := HW1) (2 := Hs).
      - intros w1 a1 HW1 Hk1 Ha1. eapply find_method_post; eauto using class_cont.
      - intros w1 a1 HW1 Hk1 Ha1 Hn1. apply find_method_fin; auto using class_cont.
    Qed.
    Lemma get_property_fin w a nm : WF w -> hk false w -> cont w a -> V w < n -> fin (V w) (get_property run k w a nm).
    Proof.
      intros HW Hk Hc Hn. unfold get_property.
      pose proof Hc as (it & Hg & Hci). rewrite Hg. destruct (cat_eqb (i_cat it) Class) eqn:E; [|apply get_item_fin; assumption].
      destruct (nm =? "")%string; [cbn; lia|].
      apply cat_eqb_eq in E. apply (dfs_fin _ (has_cat Property)) with (it := it); auto.
      - intros w1 w2 x HW1 Hs. apply has_cat_steps with (1 := HW1) (2 := Hs).
      - intros w1 a1 HW1 Hk1 Ha1. eapply post_weaken; [eapply get_item_post; eauto using class_cont|]. intros w' x _ _ [H _]. exact H.
      - intros w1 a1 HW1 Hk1 Ha1 Hn1. apply get_item_fin; auto using class_cont.
    Qed.
    Lemma inherited_fin w a b : WF w -> hk false w -> has_cat Class w a -> V w < n -> fin (V w) (inherited run k w a b).
    Proof.
      intros HW Hk Ha Hn. unfold inherited.
      assert (Hown : forall w1 a1, WF w1 -> hk false w1 -> has_cat Class w1 a1 -> post w1
        (if a1 =? b then Ret w1 (Some tt) else bind (check run w1 a1) (fun w _ => Ret w None)) (fun w' r => forall x, r = Some x -> True)).
      { intros w1 a1 HW1 Hk1 Ha1. destruct (a1 =? b); [apply post_ret; auto|].
        eapply post_bind; [exact HW1|exact Hk1|eapply check_post; eauto using class_cont|]. intros; apply post_ret; auto. }
      pose proof Ha as (it & Hg & Hc).
      eapply fin_bind with (m := V w); [exact HW|exact Hk| | | |reflexivity].
      - apply (dfs_post _ _ _ _ (fun _ _ => True)); auto.
      - apply (dfs_fin _ (fun _ _ => True)) with (it := it); auto. intros w1 a1 HW1 Hk1 Ha1 Hn1. destruct (a1 =? b); [cbn; lia|].
        eapply fin_bind; [exact HW1|exact Hk1|eapply check_post; eauto using class_cont|apply check_fin; auto using class_cont| |reflexivity].
        intros; assumption.
      - intros; assumption.
    Qed.
    Lemma cast_to_fin : forall j w a b it, WF w -> hk false w -> get w a = Some it -> i_cat it = Class -> rank (i_type it) < j -> V w < n ->
      fin (V w) (cast_to run k j w a b).
    Proof.
      induction j as [|j IH]; intros w a b it HW Hk Hg Hc Hm Hn; [lia|]. cbn [cast_to]. destruct (a =? b); [cbn; lia|].
      assert (Ha : has_cat Class w a) by (exists it; auto).
      eapply fin_bind; [exact HW|exact Hk|eapply check_post; eauto using class_cont|apply check_fin; auto using class_cont| |reflexivity].
      intros w1 r HW1 Hk1 Hs Hb _ HV.
      destruct (proj1 (steps_extends _ _ _ _ _ HW Hs) _ _ Hg) as (it1 & Hg1 & G). rewrite Hg1.
      apply holding_fin; [exact HW1|exact Hk1|reflexivity|].
      intros w2 HW2 Hk2 Hs2 Ei Ec.
      assert (HB : forall t, In t (map fst (i_bases it1)) -> class_of w2 t <> None /\ rank t < j).
      { intros t Ht. split; [apply (wf_base _ _ _ _ HW2 a it1 t); [|exact Ht]; unfold get; rewrite Ei; exact Hg1|].
        pose proof (l_ok _ _ _ _ (wf_local _ _ _ _ HW1 _ _ Hg1) t Ht) as Hok. apply Hrank in Hok. rewrite (g_type _ _ G) in Hok. lia. }
      assert (HV2 : V w2 <= V w) by (unfold V; rewrite Ei; exact HV).
      clear Hs Hb Hg1 Ei Ec Hs2 HW1 Hk1 HV G. revert w2 HW2 Hk2 HB HV2. generalize (i_bases it1).
      induction l as [|[t f] l IHl]; intros w2 HW2 Hk2 HB HV2; [exact HV2|].
      destruct (class_of w2 t) as [d|] eqn:Eb; [|exact I].
      destruct (wf_class1 _ _ _ _ HW2 t d Eb) as (bt & Hgb & Hcb & Htb).
      assert (Hd : has_cat Class w2 d) by (exists bt; auto).
      eapply fin_bind with (m := V w2); [exact HW2|exact Hk2|eapply inherited_post; eauto|apply inherited_fin; auto; lia| |exact HV2].
      intros w3 r3 HW3 Hk3 Hs3 Hb3 _ HV3. destruct r3.
      - destruct (proj1 (steps_extends _ _ _ _ _ HW2 Hs3) _ _ Hgb) as (bt3 & Hgb3 & G3).
        eapply fin_bind with (m := V w3); [exact HW3|exact Hk3| | | |lia].
        + eapply cast_to_post; eauto. exists bt3. rewrite (g_cat _ _ G3). auto.
        + eapply IH; eauto; [rewrite (g_cat _ _ G3); exact Hcb| |lia]. rewrite (g_type _ _ G3), Htb. apply HB. left. reflexivity.
        + intros w4 p4 _ _ _ _ _ HV4. cbn. lia.
      - apply IHl; [exact HW3|exact Hk3| |lia].
        intros t' Ht'. split; [|apply HB; right; exact Ht'].
        destruct (class_of w2 t') as [b'|] eqn:E'; [rewrite (proj2 (steps_extends _ _ _ _ _ HW2 Hs3) _ _ E'); discriminate|].
        exfalso. apply (proj1 (HB t' (or_intror Ht'))). exact E'.
    Qed.
    Lemma check_item_fin w a : WF w -> hk false w -> there w a -> V w < n -> fin (V w) (check_item run w a).
    Proof.
      intros HW Hk (it & Hg) Hn. unfold check_item. rewrite Hg. destruct (is_container (i_cat it)) eqn:Ec; [|cbn; lia].
      apply check_fin; auto. exists it. auto.
    Qed.
    Lemma visit_fin vs : forall j w B, WF w -> hk false w -> V w + 4 * list_sum (map psize vs) <= B -> B < n -> fin B (visit use w j vs).
    Proof.
      induction vs as [|v vs IH]; intros [|j] w B HW Hk HB Hn; try (cbn in *; lia). cbn [visit].
      cbn [map] in HB. rewrite sum_cons in HB.
      eapply fin_bind with (m := V w + 4 * psize v); [exact HW|exact Hk|apply Puse; auto; apply pre_ff|apply Fuse; auto; lia| |lia].
      intros w3 _ HW3 Hk3 Hs3 Hb3 _ HV3. apply IH; [exact HW3|exact Hk3|lia|exact Hn].
    Qed.
    Lemma visiting_fin w l j vs B : WF w -> hk false w -> snd l = LAttrs \/ snd l = LElems ->
      V w + 4 * list_sum (map psize vs) <= B -> B < n -> fin B (holding w l (fun w2 => visit use w2 j vs)).
    Proof.
      intros HW Hk Hl HB Hn. apply holding_fin; [exact HW|exact Hk|destruct Hl as [-> | ->]; reflexivity|].
      intros w2 HW2 Hk2 _ Ei _. apply visit_fin; auto. replace (V w2) with (V w) by (unfold V; rewrite Ei; reflexivity). exact HB.
    Qed.
    Lemma create_fin lookup o it w Q : WF w -> hk false w -> cont w o -> V w < n -> pend it = 0 ->
      (forall w1, WF w1 -> hk false w1 -> cont w1 o -> post w1 (lookup w1) Q) ->
      (forall w1, WF w1 -> hk false w1 -> cont w1 o -> V w1 < n -> fin (V w1) (lookup w1)) ->
      fin (S (V w)) (create lookup o it w).
    Proof.
      intros HW Hk Ho Hn Hit HP HF. unfold create.
      eapply fin_bind with (m := V w); [exact HW|exact Hk|apply HP; assumption|apply HF; assumption| |lia].
      intros w1 r HW1 Hk1 Hs Hb _ HV. destruct r as [x|]; [cbn; lia|].
      destruct (cont_steps _ _ _ _ _ _ HW Hs Ho) as (ow & Hg & Hco).
      pose proof (add_new_case w1 o ow it Hg) as HA. destruct (add_new w1 o it) as [w2 id| |]; [| |exact I].
      - destruct HA as (_ & _ & l & -> & _). cbn [fin]. rewrite V_new by exact Hit. lia.
      - eapply fin_weaken; [apply HF; auto; [exists ow; auto|lia]|lia].
    Qed.

    Lemma get_item_post' w a c nm : WF w -> hk false w -> cont w a -> post w (get_item run w a c nm) (fun _ _ => True).
    Proof. intros. eapply post_weaken; [eapply get_item_post; eauto|auto]. Qed.

    Lemma create_own_fin c nm o it w : WF w -> hk false w -> cont w o -> V w < n -> pend it = 0 ->
      fin (S (V w)) (create (fun w => get_item run w o c nm) o it w).
    Proof.
      intros. eapply create_fin with (Q := fun _ _ => True); auto; intros; [apply get_item_post'|apply get_item_fin]; assumption.
    Qed.
    Lemma create_ctor_fin w o nm args inv : WF w -> hk false w -> cont w o -> V w < n -> fin (S (V w)) (create_ctor run w o nm args inv).
    Proof.
      intros. unfold create_ctor. eapply create_fin; auto; intros; [eapply find_method_post; eassumption|apply find_method_fin; assumption].
    Qed.
    Lemma create_class_fin w o nm t : WF w -> hk false w -> cont w o -> V w < n -> fin (S (V w)) (create_class run w o nm t).
    Proof.
      intros HW Hk Ho Hn. unfold create_class.
      eapply fin_bind with (m := V w); [exact HW|exact Hk|apply get_item_post'; assumption|apply get_item_fin; assumption| |lia].
      intros w1 r HW1 Hk1 Hs Hb _ HV. destruct r as [x|]; [cbn; lia|]. destruct (class_of w1 t); [cbn; lia|].
      destruct (cont_steps _ _ _ _ _ _ HW Hs Ho) as (ow & Hg & Hco).
      pose proof (add_new_case w1 o ow (fresh Class nm (Some o) t 0) Hg) as HA.
      destruct (add_new w1 o (fresh Class nm (Some o) t 0)) as [w2 id| |]; [| |exact I].
      - destruct HA as (_ & _ & l & -> & _). cbn [fin].
        change (V (with_new w1 o (fresh Class nm (Some o) t 0) l) <= S (V w)). rewrite V_new by reflexivity. lia.
      - eapply fin_weaken; [apply get_item_fin; auto; [exists ow; auto|lia]|lia].
    Qed.

    Lemma force_fin B : B < n -> forall m r w a, WF w -> hk false w -> cont w a -> V w <= B -> B - a < m -> fin B (force run m r w a).
    Proof.
      intro HB. induction m as [|m IH]; intros r w a HW Hk Ha HV Hm; [lia|]. cbn [force].
      eapply fin_bind with (m := B); [exact HW|exact Hk|eapply check_post; eassumption| | |reflexivity].
      { eapply fin_weaken; [apply check_fin; auto; lia|exact HV]. }
      intros w1 x HW1 Hk1 Hs Hb _ HV1. destruct r; [|exact HV1].
      pose proof (cont_steps _ _ _ _ _ _ HW Hs Ha) as Ha1.
      set (loop := fix loop (w : world) (l : list nat) : out unit :=
              match l with [] => Ret w tt | x :: l' => bind (force run m true w x) (fun w' _ => loop w' l') end).
      assert (HC : forall w2 c y, WF w2 -> cont w2 a -> V w2 <= B -> In y (ml_items (list_of w2 a c)) -> is_container c = true -> cont w2 y /\ B - y < m).
      { intros w2 c y HW2 (at2 & Hg2 & Hc2) HV2 Hy Hc. unfold list_of in Hy. rewrite Hg2 in Hy.
        destruct (wf_list _ _ _ _ HW2 a at2 c y Hg2 Hy) as (yt & Hgy & Hcy & Hoy). split; [exists yt; rewrite Hcy; auto|].
        assert (Hne : y <> 0).
        { intros ->. destruct (wf_global _ _ _ _ HW2) as (g & Hg0 & _ & Hog). congruence. }
        destruct (wf_owner _ _ _ _ HW2 y yt Hgy Hne) as (o & ow & Ho & Hlt & _). apply get_lt in Hgy. unfold V in HV2.
        assert (o = a) by congruence. subst o. lia. }
      assert (HL : forall l w2, WF w2 -> hk false w2 -> V w2 <= B -> (forall y, In y l -> cont w2 y /\ B - y < m) -> fin B (loop w2 l)).
      { induction l as [|y l IHl]; intros w2 HW2 Hk2 HV2 Hl; [exact HV2|]. cbn [loop].
        eapply fin_bind with (m := B); [exact HW2|exact Hk2| | | |reflexivity].
        - eapply force_post; eauto. apply Hl. left. reflexivity.
        - apply IH; auto; apply Hl; left; reflexivity.
        - intros w3 _ HW3 Hk3 Hs3 Hb3 _ HV3. apply IHl; auto. intros z Hz. destruct (Hl z (or_intror Hz)) as [H1 H2].
          split; [eapply cont_steps; [exact HW2|exact Hs3|exact H1]|exact H2]. }
      assert (HPL : forall l w2, WF w2 -> hk false w2 -> (forall y, In y l -> cont w2 y) -> post w2 (loop w2 l) (fun _ _ => True)).
      { induction l as [|y l IHl]; intros w2 HW2 Hk2 Hl; [apply post_ret; exact I|]. cbn [loop].
        eapply post_bind; [exact HW2|exact Hk2|eapply force_post; eauto; apply Hl; left; reflexivity|].
        intros w3 _ HW3 Hk3 Hs3 Hb3 _. apply IHl; [exact HW3|exact Hk3|]. intros z Hz.
        eapply cont_steps; [exact HW2|exact Hs3|]. apply Hl. right. exact Hz. }
      assert (HE : forall w2 w3 c, w_items w3 = w_items w2 -> list_of w3 a c = list_of w2 a c).
      { intros w2 w3 c E. unfold list_of, get. rewrite E. reflexivity. }
      eapply fin_bind with (m := B); [exact HW1|exact Hk1| | | |reflexivity].
      - apply holding_post with (Q := fun _ _ => True); [exact HW1|exact Hk1|reflexivity| |auto].
        intros w2 HW2 Hk2 Hs2 Ei Ec. apply HPL; [exact HW2|exact Hk2|]. intros y Hy. rewrite <- (HE w1 w2 Class Ei) in Hy.
        apply (HC w2 Class); [exact HW2|eapply cont_steps; [exact HW1|exact Hs2|exact Ha1]|unfold V in *; rewrite Ei; exact HV1|exact Hy|reflexivity].
      - apply holding_fin; [exact HW1|exact Hk1|reflexivity|]. intros w2 HW2 Hk2 Hs2 Ei Ec.
        assert (HV2 : V w2 <= B) by (unfold V in *; rewrite Ei; exact HV1).
        apply HL; [exact HW2|exact Hk2|exact HV2|]. intros y Hy. rewrite <- (HE w1 w2 Class Ei) in Hy.
        apply (HC w2 Class); [exact HW2|eapply cont_steps; [exact HW1|exact Hs2|exact Ha1]|exact HV2|exact Hy|reflexivity].
      - intros w2 _ HW2 Hk2 Hs2 Hb2 _ HV2. pose proof (cont_steps _ _ _ _ _ _ HW1 Hs2 Ha1) as Ha2.
        apply holding_fin; [exact HW2|exact Hk2|reflexivity|]. intros w3 HW3 Hk3 Hs3 Ei Ec.
        assert (HV3 : V w3 <= B) by (unfold V in *; rewrite Ei; exact HV2).
        apply HL; [exact HW3|exact Hk3|exact HV3|]. intros y Hy. rewrite <- (HE w2 w3 Namespace Ei) in Hy.
        apply (HC w3 Namespace); [exact HW3|eapply cont_steps; [exact HW2|exact Hs3|exact Ha2]|exact HV3|exact Hy|reflexivity].
    Qed.

    Lemma each_fin w a c vs : WF w -> hk false w -> cont w a -> soft_kind false (LList c) = true ->
      V w + 4 * list_sum (map psize vs) < n -> fin (V w + 4 * list_sum (map psize vs)) (each run use w a c vs).
    Proof.
      intros HW Hk Ha Hc Hn. unfold each.
      eapply fin_bind with (m := V w); [exact HW|exact Hk|eapply check_post; eassumption|apply check_fin; auto; lia| |lia].
      intros w1 x HW1 Hk1 Hs Hb _ HV. apply holding_fin; [exact HW1|exact Hk1|exact Hc|].
      intros w2 HW2 Hk2 _ Ei _. assert (HV2 : V w2 <= V w) by (unfold V in *; rewrite Ei; exact HV).
      assert (HG : V w2 + 4 * list_sum (map psize vs) <= V w + 4 * list_sum (map psize vs)) by lia.
      set (B := V w + 4 * list_sum (map psize vs)) in *. clearbody B. clear HV2 HV Hb Hs Ei HW1 Hk1.
      revert w2 HW2 Hk2 vs HG. generalize (ml_items (list_of w1 a c)).
      induction l as [|y l IHl]; intros w2 HW2 Hk2 vs HG; [cbn; lia|]. destruct vs as [|v vs]; [cbn in *; lia|].
      cbn [map] in HG. rewrite sum_cons in HG.
      eapply fin_bind with (m := V w2 + 4 * psize v); [exact HW2|exact Hk2|apply Puse; auto; apply pre_ff|apply Fuse; auto; lia| |lia].
      intros w3 _ HW3 Hk3 Hs3 Hb3 _ HV3. apply IHl; [exact HW3|exact Hk3|lia].
    Qed.

    Lemma skip_fin {A} m b (o : out A) : fin m o -> fin m (skip b o).
    Proof. intro H. destruct o; exact H. Qed.
    Lemma on_container_fin m w a o : (cont w a -> fin m o) -> fin m (on_container w a o).
    Proof.
      intro H. unfold on_container, category. destruct (get w a) as [it|] eqn:E; [|exact I]. cbn.
      destruct (is_container (i_cat it)) eqn:Ec; [|exact I]. apply H. exists it. auto.
    Qed.
    Lemma on_class_fin m w a o : (has_cat Class w a -> fin m o) -> fin m (on_class w a o).
    Proof.
      intro H. unfold on_class, category. destruct (get w a) as [it|] eqn:E; [|exact I]. cbn.
      destruct (i_cat it) eqn:Ec; try exact I. apply H. exists it. auto.
    Qed.
    Lemma on_item_fin m w a o : (there w a -> fin m o) -> fin m (on_item w a o).
    Proof.
      intro H. unfold on_item, category. destruct (get w a) as [it|] eqn:E; [|exact I]. apply H. exists it. exact E.
    Qed.
    Lemma on_enum_fin m w a o : (there w a -> fin m o) -> fin m (on_enum w a o).
    Proof.
      intro H. unfold on_enum, category. destruct (get w a) as [it|] eqn:E; [|exact I]. cbn.
      destruct (i_cat it); try exact I. apply H. exists it. exact E.
    Qed.
    Lemma add_bases_fin l : forall w a, WF w -> hk false w -> has_cat Class w a -> fin (V w) (add_bases okbase w a l).
    Proof.
      induction l as [|[t f] l IH]; intros w a HW Hk Ha; [cbn; lia|]. cbn [add_bases].
      pose proof Ha as (it & Hg & Hc). rewrite Hg. destruct (okbase (i_type it) t) eqn:Eok; [|exact I].
      eapply fin_bind with (m := V w); [exact HW|exact Hk|eapply add_base_post; eauto; discriminate| | |reflexivity].
      - destruct (class_of w t) as [b|] eqn:Eb; [|unfold add_base; rewrite Eb; cbn; lia].
        destruct (holds w (a, LBases)) eqn:Eh; [unfold add_base; rewrite Eb, Hg, Eh; exact I|].
        rewrite (add_base_case _ _ _ w a it t f b HW Hg Hc Eb Eh). cbn [fin].
        destruct (in_dec Nat.eq_dec t (map fst (i_bases it))); [lia|]. unfold link. rewrite !V_keep; [lia| |]; reflexivity.
      - intros w1 _ HW1 Hk1 Hs1 Hb1 _ HV. eapply fin_weaken; [apply IH; [exact HW1|exact Hk1|eapply has_cat_steps; [exact HW|exact Hs1|exact Ha]]|exact HV].
    Qed.
    Lemma ctor_if_fin on args a w : WF w -> hk false w -> cont w a -> V w < n -> fin (S (V w)) (ctor_if run on args a w).
    Proof.
      intros HW Hk Ha Hn. unfold ctor_if. destruct on; [|cbn; lia].
      eapply fin_bind with (m := S (V w)); [exact HW|exact Hk|eapply create_ctor_post; eassumption|apply create_ctor_fin; assumption| |reflexivity].
      intros; assumption.
    Qed.

    Lemma step_fin w b c : WF w -> hk false w -> bok w b -> V w + 4 * csize c <= n ->
      fin (V w + 4 * csize c) (step run k okbase use w b c).
    Proof.
      intros HW Hk Hb Hn. pose proof Hb as (Hbc & Hbi & Hbs).
      assert (Hc1 : 1 <= csize c) by (destruct c; cbn; lia). assert (Hn1 : V w < n) by lia.
      assert (W : forall o : out builder, fin (V w) o -> fin (V w + 4 * csize c) o) by (intros o H; eapply fin_weaken; [exact H|lia]).
      assert (W1 : forall o : out builder, fin (S (V w)) o -> fin (V w + 4 * csize c) o) by (intros o H; eapply fin_weaken; [exact H|lia]).
      destruct c as [nm v|nm|nm t d c m|p|l|nm t|nm v|nm args inv|nm args inv|nm inv| | |catch p|a c nm|a c i|a c|a nm|a nm|a nm|a|a b'|a r|a c vs|a|a b'|a q|a q|a vs|a vs]; cbn [step].
      - apply W. destruct (b_item b) as [a|]; [|cbn; lia]. destruct (get w a) as [it|] eqn:Hg; [|exact I].
        destruct (_ && holds w _); [exact I|]. destruct (nv_set (i_attrs it) nm v); [|cbn; lia]. cbn [fin]. rewrite V_keep; [lia|reflexivity].
      - apply W1. destruct (b_cont b) as [o|]; [|exact I]. destruct (category w o) as [[]|]; try exact I.
        eapply fin_bind with (m := S (V w)); [exact HW|exact Hk| |apply create_own_fin; auto| |reflexivity].
        + apply create_namespace_post; auto. discriminate.
        + intros; assumption.
      - destruct (b_cont b) as [o|]; [|exact I].
        eapply fin_bind with (m := S (V w)); [exact HW|exact Hk| |apply create_class_fin; auto| |lia].
        + apply create_class_post; auto. discriminate.
        + intros w1 r HW1 Hk1 Hs1 _ [Hr _] HV1. cbn in Hn |- *. destruct r as [x|].
          2:{ destruct (d || c || m); cbn; [exact I|lia]. }
          assert (Hx : cont w1 x) by (apply class_cont; apply Hr; reflexivity).
          eapply fin_bind with (m := S (S (S (V w1)))); [exact HW1|exact Hk1|eapply auto_ctors_post; eauto| |intros; cbn; lia|lia].
          unfold auto_ctors.
          eapply fin_bind with (m := S (V w1)); [exact HW1|exact Hk1|eapply ctor_if_post; eauto|apply ctor_if_fin; auto; lia| |lia].
          intros w2 _ HW2 Hk2 Hs2 _ _ HV2. assert (Hx2 : cont w2 x) by (eapply cont_steps; [exact HW1|exact Hs2|exact Hx]).
          eapply fin_bind with (m := S (V w2)); [exact HW2|exact Hk2|eapply ctor_if_post; eauto|apply ctor_if_fin; auto; lia| |lia].
          intros w3 _ HW3 Hk3 Hs3 _ _ HV3. assert (Hx3 : cont w3 x) by (eapply cont_steps; [exact HW2|exact Hs3|exact Hx2]).
          eapply fin_weaken; [apply ctor_if_fin; auto; lia|lia].
      - destruct (b_cont b) as [o|]; [|exact I]. apply skip_fin. unfold set_deferred.
        destruct (get w o) as [it|] eqn:Hg; [|exact I]. destruct (i_def it) as [q|] eqn:Ed; [cbn; lia|]. cbn [fin].
        pose proof (V_upd w o (accept_def p) it Hg) as H. unfold pend in H. cbn in H. rewrite Ed in H.
        fold (psize p) in H. cbn [csize]. fold (psize p). destruct (i_lock it); lia.
      - apply W. destruct (b_cont b) as [o|].
        + unfold category. destruct Hbc as (it & Hg & Hc). rewrite Hg. cbn. destruct (i_cat it) eqn:Ec; try exact I.
          apply skip_fin. apply add_bases_fin; auto. exists it. auto.
        + destruct l; [cbn; lia|exact I].
      - apply W1. destruct (b_cont b) as [o|]; [|exact I].
        eapply fin_bind with (m := S (V w)); [exact HW|exact Hk| |apply create_own_fin; auto| |reflexivity].
        + apply create_enum_post; auto.
        + intros; assumption.
      - apply W. destruct (b_item b) as [a|]; [|exact I]. destruct (get w a) as [it|] eqn:Hg; [|exact I].
        destruct (cat_eqb (i_cat it) Enum); [|cbn; lia].
        destruct (_ && holds w _); [exact I|]. destruct (nv_set (i_elems it) nm v); [|cbn; lia]. cbn [fin]. rewrite V_keep; [lia|reflexivity].
      - apply W1. destruct (b_cont b) as [o|]; [|exact I]. destruct (category w o) as [[]|]; try exact I.
        apply skip_fin. apply create_ctor_fin; auto.
      - apply W1. destruct (b_cont b) as [o|]; [|exact I]. apply skip_fin.
        eapply create_fin; auto; intros; [eapply get_method_post; eassumption|apply get_method_fin; assumption].
      - apply W1. destruct (b_cont b) as [o|]; [|destruct (nm =? "")%string; [cbn; lia|exact I]]. apply skip_fin.
        unfold create_property. destruct (nm =? "")%string; [cbn; lia|].
        eapply create_fin; auto; intros; [eapply get_property_post; eassumption|apply get_property_fin; assumption].
      - apply W. destruct (b_stack b); [exact I|cbn; lia].
      - apply W. cbn. lia.
      - cbn [csize] in *. fold (psize p) in *.
        assert (HF : fin (V w + 4 * psize p) (use w p)) by (apply Fuse; auto; lia).
        destruct (use w p) as [w' x|e w'| | | |]; cbn in *; auto; [lia|]. destruct catch; cbn; lia.
      - apply W, on_container_fin. intro. apply skip_fin, get_item_fin; auto.
      - apply W, on_container_fin. intro. apply skip_fin.
        eapply fin_bind; [exact HW|exact Hk|eapply check_post; eassumption|apply check_fin; assumption| |reflexivity]. intros; assumption.
      - apply W, on_container_fin. intro. apply skip_fin.
        eapply fin_bind; [exact HW|exact Hk|eapply check_post; eassumption|apply check_fin; assumption| |reflexivity]. intros; assumption.
      - apply W, on_container_fin. intro. apply skip_fin, get_method_fin; auto.
      - apply W, on_container_fin. intro. apply skip_fin, get_property_fin; auto.
      - apply W, on_container_fin. intro. apply skip_fin, find_method_fin; auto.
      - apply W, on_class_fin. intro. apply skip_fin.
        eapply fin_bind; [exact HW|exact Hk|eapply check_post; eauto using class_cont|apply check_fin; auto using class_cont| |reflexivity].
        intros w1 x _ _ _ _ _ HV. destruct (get w1 a); [exact HV|exact I].
      - apply W, on_class_fin. intro. apply on_class_fin. intro. apply skip_fin, inherited_fin; auto.
      - apply W, on_container_fin. intro. apply skip_fin. apply force_fin; auto. lia.
      - assert (E : csize (KEach a c vs) = S (list_sum (map psize vs))) by reflexivity. rewrite E in *.
        destruct c; try exact I; apply on_container_fin; intro; apply skip_fin;
          (eapply fin_weaken; [apply each_fin; auto; lia|lia]).
      - apply W, on_class_fin. intro. apply skip_fin.
        eapply fin_bind; [exact HW|exact Hk|eapply check_post; eauto using class_cont|apply check_fin; auto using class_cont| |reflexivity].
        intros w1 x _ _ _ _ _ HV. destruct (get w1 a); [exact HV|exact I].
      - apply W, on_class_fin. intro Ha. apply on_class_fin. intro. apply skip_fin. destruct Ha as (it & Hg & Hc).
        eapply cast_to_fin; eauto.
      - apply W, on_item_fin. intro. apply skip_fin.
        eapply fin_bind; [exact HW|exact Hk|eapply check_item_post; eauto|apply check_item_fin; auto| |reflexivity].
        intros w1 x _ _ _ _ _ HV. destruct (get w1 a); [exact HV|exact I].
      - apply W, on_enum_fin. intro. apply skip_fin. unfold elem_query. destruct (get w a); [cbn; unfold V; cbn; lia|exact I].
      - assert (E : csize (KEachAttr a vs) = S (list_sum (map psize vs))) by reflexivity. rewrite E in *.
        apply on_item_fin; intro; apply skip_fin. unfold each_attr.
        eapply fin_bind with (m := V w); [exact HW|exact Hk|eapply check_item_post; eauto|apply check_item_fin; auto| |lia].
        intros w1 x HW1 Hk1 _ _ _ HV. destruct (get w1 a) as [it|]; [|exact I].
        eapply fin_weaken; [apply visiting_fin with (B := V w + 4 * list_sum (map psize vs)); auto; lia|lia].
      - assert (E : csize (KEachElem a vs) = S (list_sum (map psize vs))) by reflexivity. rewrite E in *.
        apply on_enum_fin; intro; apply skip_fin. unfold each_elem. destruct (get w a) as [it|]; [|exact I].
        eapply fin_weaken; [apply visiting_fin with (B := V w + 4 * list_sum (map psize vs)); auto; lia|lia].
    Qed.

    Lemma exec_with_fin p : forall w b, WF w -> hk false w -> bok w b -> V w + 4 * psize p <= n ->
      fin (V w + 4 * psize p) (exec_with run k okbase use w b p).
    Proof.
      induction p as [|c p IH]; intros w b HW Hk Hb Hn; [cbn; lia|]. cbn [exec_with].
      assert (E : psize (c :: p) = csize c + psize p) by reflexivity. rewrite E in *.
      eapply fin_bind with (m := V w + 4 * csize c); [exact HW|exact Hk| |apply step_fin; auto; lia| |lia].
      - eapply step_post; eauto. split; discriminate.
      - intros w1 b1 HW1 Hk1 Hs1 Hbal1 Hb1 HV. eapply fin_weaken; [apply IH; auto; lia|lia].
    Qed.
  End Run.

  Lemma run_fin n : n <= S k -> forall w a p, WF w -> hk false w -> cont w a -> V w + 4 * psize p < n ->
    fin (V w + 4 * psize p) (run k okbase n w a p).
  Proof.
    induction n as [|n IH]; intros Hnk w a p HW Hk Ha Hn; [lia|]. cbn [run].
    assert (P1 : forall w a p, WF w -> hk false w -> cont w a -> prog_pre false false w p -> post w (run k okbase n w a p) (fun _ _ => True)).
    { intros. apply run_post; assumption. }
    assert (P2 : forall w p, WF w -> hk false w -> prog_pre false false w p -> post w (run k okbase n w 0 p) (fun _ _ => True)).
    { intros. apply use_post; assumption. }
    assert (Hb : bok w (on a)).
    { unfold ReflExec.bok, on. cbn. split; [exact Ha|]. split; [|constructor]. destruct Ha as (it & Hg & _). eauto. }
    eapply fin_bind with (m := V w + 4 * psize p); [exact HW|exact Hk| | | |reflexivity].
    - eapply exec_with_post; [intro; apply run_none|exact P1|exact P2|exact HW|exact Hk|exact Hb|apply pre_ff].
    - apply exec_with_fin with (n := n); auto; try lia.
      + intro. apply run_none.
      + intros w1 a1 p1 HW1 Hk1 Ha1 Hn1. apply IH; auto. lia.
      + intros w1 p1 HW1 Hk1 Hn1. apply IH; auto; [lia|]. destruct (wf_global _ _ _ w1 HW1) as (it & Hg & Hc & _). exists it. rewrite Hc. auto.
    - intros; assumption.
  Qed.
End Term.
