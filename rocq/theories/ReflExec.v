(** Every execution in ReflModel.v is a sequence of primitive changes (ReflProofs.v), leaves locks as they
    were, and goes wrong only where it may. *)
From Coq Require Import List Bool Arith String Ascii Lia.
From Verif Require Import Util RegistryModel RegistryProofs ListsModel ListsSpec ListsProofs StringsModel StringsSpec StringsProofs ReflModel ReflSpec ReflProofs.
Import ListNotations.
Local Open Scope list_scope.

(** ** Growth *)

Record grows (it it' : item) : Prop := {
  g_cat : i_cat it' = i_cat it; g_name : i_name it' = i_name it; g_owner : i_owner it' = i_owner it;
  g_inv : i_inv it' = i_inv it; g_type : i_type it' = i_type it;
  g_list : forall c, exists r, ml_items (i_list it' c) = ml_items (i_list it c) ++ r;
  g_bases : exists r, i_bases it' = i_bases it ++ r;
  g_derived : exists r, i_derived it' = i_derived it ++ r;
  g_attrs : exists r, map fst (nv_items (i_attrs it')) = map fst (nv_items (i_attrs it)) ++ r;
  g_elems : exists r, map fst (nv_items (i_elems it')) = map fst (nv_items (i_elems it)) ++ r;
  g_set : i_set it <= i_set it'; g_begun : i_begun it <= i_begun it'; g_done : i_done it <= i_done it' }.

Lemma app_nil_ex {A} (l : list A) : exists r, l = l ++ r.
Proof. exists []. symmetry. apply app_nil_r. Qed.
Lemma app_ex_trans {A} (a b c : list A) : (exists r, b = a ++ r) -> (exists r, c = b ++ r) -> exists r, c = a ++ r.
Proof. intros [r ->] [s ->]. exists (r ++ s). symmetry. apply app_assoc. Qed.

Lemma grows_refl it : grows it it.
Proof. constructor; intros; try apply app_nil_ex; auto. Qed.
Lemma grows_trans a b c : grows a b -> grows b c -> grows a c.
Proof.
  intros [A1 A2 A3 A4 A5 A6 A7 A8 A9 A10 A11 A12 A13] [B1 B2 B3 B4 B5 B6 B7 B8 B9 B10 B11 B12 B13].
  constructor; try congruence; try lia; intros; eapply app_ex_trans; eauto.
Qed.

Definition extends (w w' : world) : Prop :=
  (forall a it, get w a = Some it -> exists it', get w' a = Some it' /\ grows it it') /\
  (forall t a, class_of w t = Some a -> class_of w' t = Some a).

Lemma extends_refl w : extends w w.
Proof. split; [intros a it H; exists it; split; [exact H|apply grows_refl]|auto]. Qed.
Lemma extends_trans a b c : extends a b -> extends b c -> extends a c.
Proof.
  intros [A1 A2] [B1 B2]. split; [|auto]. intros x it H. destruct (A1 _ _ H) as (it1 & H1 & G1).
  destruct (B1 _ _ H1) as (it2 & H2 & G2). exists it2. split; [exact H2|eapply grows_trans; eauto].
Qed.

Lemma nv_set_names (l l' : @nvlist nat) n v : nv_set l n v = Some l' ->
  exists r, map fst (nv_items l') = map fst (nv_items l) ++ r.
Proof.
  unfold nv_set. destruct (n =? "")%string; [intros [= <-]; apply app_nil_ex|].
  destruct (assoc String.eqb n (nv_names l)) as [i|].
  - destruct (i <? List.length (nv_items l)); [|discriminate]. intros [= <-]. cbn. rewrite set_value_names. apply app_nil_ex.
  - intros [= <-]. cbn. rewrite map_app. eauto.
Qed.

Section Flags.
  Variables sf df : bool.
  Variable okbase : nat -> nat -> bool.
  Notation WF := (WF sf df okbase). Notation prim := (prim sf df okbase). Notation steps := (steps sf df okbase).
  Notation def_ok := (def_ok sf df).

  Lemma upd_extends w a f : (forall it, get w a = Some it -> grows it (f it)) -> extends w (upd w a f).
  Proof.
    intro H. split; [|intros t x Hx; rewrite class_of_upd; exact Hx]. intros x it Hx.
    destruct (upd_back w a f x it Hx) as (it' & Hg & [->|[-> ->]]); eexists; split; eauto using grows_refl.
  Qed.

  Ltac gr := constructor; cbn; intros; try apply app_nil_ex; try lia; auto.

  Lemma prim_extends w w' : WF w -> prim w w' -> extends w w'.
  Proof.
    intros HW Hp. destruct Hp as [o ow c n t inv l Ho Hoc Hc Hadd|o ow n t inv l Ho Hoc Hc Hadd|a it n v l Ha Hn|a it n v l Ha Hc Hn
      |a it t f b Ha Hc Hb Hni Hok|a it p Ha Hc Hd Hp|a it p Ha Hd Hl|a it Ha Hl|h r].
    - destruct (add_result _ _ _ w o ow c n t inv l HW Ho Hadd) as (Hit & _ & _).
      split; [|intros t' x Hx; rewrite with_new_class; exact Hx]. intros x it Hx.
      rewrite (get_with_new w o _ l ow x Ho). pose proof (get_lt _ _ _ Hx).
      assert (E : (x =? List.length (w_items w)) = false) by (apply Nat.eqb_neq; lia). rewrite E.
      destruct (x =? o) eqn:Eo; [|exists it; split; [exact Hx|apply grows_refl]].
      apply Nat.eqb_eq in Eo. subst x. rewrite Hx in Ho. injection Ho as ->. eexists. split; [reflexivity|]. gr.
      destruct (cat_eqb c c0) eqn:Ec; [|apply app_nil_ex]. apply cat_eqb_eq in Ec. subst. rewrite Hit. eauto.
    - destruct (add_result _ _ _ w o ow Class n t inv l HW Ho Hadd) as (Hit & _ & _). cbv zeta.
      split.
      + intros x it Hx. change (get _ x) with (get (with_new w o (fresh Class n (Some o) t inv) l) x).
        rewrite (get_with_new w o _ l ow x Ho). pose proof (get_lt _ _ _ Hx).
        assert (E : (x =? List.length (w_items w)) = false) by (apply Nat.eqb_neq; lia). rewrite E.
        destruct (x =? o) eqn:Eo; [|exists it; split; [exact Hx|apply grows_refl]].
        apply Nat.eqb_eq in Eo. subst x. rewrite Hx in Ho. injection Ho as ->. eexists. split; [reflexivity|]. gr.
        destruct c; cbn; try apply app_nil_ex. rewrite Hit. eauto.
      + intros t' x Hx. change (class_of (add_class (with_new w o (fresh Class n (Some o) t inv) l) t (List.length (w_items w))) t' = Some x).
        rewrite class_of_add, with_new_class, Hx. reflexivity.
    - apply upd_extends. intros it' H. rewrite Ha in H. injection H as <-. gr. eapply nv_set_names; eauto.
    - apply upd_extends. intros it' H. rewrite Ha in H. injection H as <-. gr. eapply nv_set_names; eauto.
    - apply extends_trans with (upd w a (set_bases (i_bases it ++ [(t, f)]))).
      + apply upd_extends. intros it' H. rewrite Ha in H. injection H as <-. gr. eauto.
      + apply upd_extends. intros it' H. gr. eauto.
    - apply upd_extends. intros it' H. gr.
    - apply upd_extends. intros it' H. gr.
    - apply upd_extends. intros it' H. gr.
    - split; [|auto]. intros x it Hx. exists it. split; [exact Hx|apply grows_refl].
  Qed.

  Lemma steps_extends w w' : WF w -> steps w w' -> extends w w'.
  Proof.
    intros HW H. induction H as [|w w1 w2 Hs IH Hp]; [apply extends_refl|].
    eapply extends_trans; [apply IH; exact HW|]. apply prim_extends; [|exact Hp]. eapply steps_wf; eauto.
  Qed.

  (** ** Executions *)

  Definition locked (w : world) (a : nat) : bool := match get w a with Some it => i_lock it | None => false end.
  (** A definition in progress is not touched. *)
  Definition same_def (it it' : item) : Prop :=
    i_def it' = i_def it /\ i_set it' = i_set it /\ i_begun it' = i_begun it /\ i_done it' = i_done it.
  Definition bal (w w' : world) : Prop :=
    w_held w' = w_held w /\ (forall a, locked w' a = locked w a) /\
    forall a it, get w a = Some it -> i_lock it = true -> exists it', get w' a = Some it' /\ same_def it it'.
  Lemma same_def_refl it : same_def it it.
  Proof. repeat split. Qed.
  Lemma bal_refl w : bal w w.
  Proof. split; [auto|]. split; [auto|]. eauto using same_def_refl. Qed.
  Lemma bal_trans a b c : bal a b -> bal b c -> bal a c.
  Proof.
    intros (A1 & A2 & A3) (B1 & B2 & B3). split; [congruence|]. split; [intro x; rewrite B2; apply A2|].
    intros x it Hg Hl. destruct (A3 x it Hg Hl) as (it1 & Hg1 & S1).
    assert (Hl1 : i_lock it1 = true) by (specialize (A2 x); unfold locked in A2; rewrite Hg, Hg1 in A2; congruence).
    destruct (B3 x it1 Hg1 Hl1) as (it2 & Hg2 & S2). exists it2. split; [exact Hg2|].
    destruct S1 as (? & ? & ? & ?), S2 as (? & ? & ? & ?). repeat split; congruence.
  Qed.

  (** Traversals with user code hold only these lists. *)
  Definition soft_kind (k : lock) : bool :=
    match k with
    | LBases | LList Namespace | LList Class | LList Method => true
    | LAttrs | LElems => negb df
    | _ => false
    end.
  Definition hk (w : world) : Prop := forall l, In l (w_held w) -> soft_kind (snd l) = true.

  Definition post {A} (w : world) (o : out A) (Q : world -> A -> Prop) : Prop :=
    match o with
    | Ret w' x => steps w w' /\ bal w w' /\ Q w' x
    | Throw _ w' => steps w w' /\ bal w w'
    | UB => sf = false
    | Deadlock => df = false
    | Rejected | Fuel => True
    end.

  Lemma bal_hk w w' : bal w w' -> hk w -> hk w'.
  Proof. intros [H _] Hk l. rewrite H. apply Hk. Qed.

  Lemma post_bind {A B} w (o : out A) (f : world -> A -> out B) Q R :
    WF w -> hk w -> post w o Q ->
    (forall w' x, WF w' -> hk w' -> steps w w' -> bal w w' -> Q w' x -> post w' (f w' x) R) ->
    post w (bind o f) R.
  Proof.
    intros HW Hk Ho Hf. destruct o as [w' x|e w'| | | |]; cbn in *; auto. destruct Ho as (Hs & Hb & HQ).
    specialize (Hf w' x (steps_wf _ _ _ _ _ HW Hs) (bal_hk _ _ Hb Hk) Hs Hb HQ).
    destruct (f w' x) as [w2 y|e w2| | | |]; cbn in *; auto.
    - destruct Hf as (Hs2 & Hb2 & HR). split; [eapply steps_trans; eauto|]. split; [eapply bal_trans; eauto|exact HR].
    - destruct Hf as (Hs2 & Hb2). split; [eapply steps_trans; eauto|eapply bal_trans; eauto].
  Qed.
  Lemma post_weaken {A} w (o : out A) (Q R : world -> A -> Prop) : post w o Q ->
    (forall w' x, steps w w' -> bal w w' -> Q w' x -> R w' x) -> post w o R.
  Proof. intros H HQ. destruct o; cbn in *; auto. destruct H as (H1 & H2 & H3). auto. Qed.
  Lemma post_ret {A} w (x : A) (Q : world -> A -> Prop) : Q w x -> post w (Ret w x) Q.
  Proof. intro H. split; [constructor|]. split; [apply bal_refl|exact H]. Qed.

  Lemma upd_locked w a f x : locked (upd w a f) x = if x =? a then match get w a with Some it => i_lock (f it) | None => false end else locked w x.
  Proof. unfold locked. rewrite get_upd. destruct (x =? a); [|reflexivity]. destruct (get w a); reflexivity. Qed.
  Lemma bal_upd w a f :
    (forall it, get w a = Some it -> i_lock (f it) = i_lock it /\ (i_lock it = true -> same_def it (f it))) -> bal w (upd w a f).
  Proof.
    intro H. split; [apply upd_held|]. split.
    - intro x. rewrite upd_locked. destruct (x =? a) eqn:E; [|reflexivity].
      apply Nat.eqb_eq in E. subst. unfold locked. destruct (get w a) as [it|]; [apply H; reflexivity|reflexivity].
    - intros x it Hg Hl. destruct (upd_back w a f x it Hg) as (it' & Hg' & [->|[-> ->]]).
      + exists it. split; [exact Hg'|apply same_def_refl].
      + exists (f it). split; [exact Hg'|]. apply (H it Hg). exact Hl.
  Qed.
  Lemma touch_steps w l : steps w (touch w l).
  Proof. apply steps_one. apply PLocks. Qed.
  Lemma touch_bal w l : bal w (touch w l).
  Proof. split; [reflexivity|]. split; [reflexivity|]. eauto using same_def_refl. Qed.

  Definition cont (w : world) (a : nat) : Prop := exists it, get w a = Some it /\ is_container (i_cat it) = true.
  Definition has_cat (c : cat) (w : world) (a : nat) : Prop := exists it, get w a = Some it /\ i_cat it = c.
  Lemma has_cat_steps c w w' a : WF w -> steps w w' -> has_cat c w a -> has_cat c w' a.
  Proof.
    intros HW Hs (it & Hg & Hc). destruct (proj1 (steps_extends w w' HW Hs) _ _ Hg) as (it' & Hg' & G).
    exists it'. split; [exact Hg'|]. rewrite (g_cat _ _ G). exact Hc.
  Qed.
  Lemma cont_steps w w' a : WF w -> steps w w' -> cont w a -> cont w' a.
  Proof.
    intros HW Hs (it & Hg & Hc). destruct (proj1 (steps_extends w w' HW Hs) _ _ Hg) as (it' & Hg' & G).
    exists it'. split; [exact Hg'|]. rewrite (g_cat _ _ G). exact Hc.
  Qed.
  Lemma class_cont w a : has_cat Class w a -> cont w a.
  Proof. intros (it & Hg & Hc). exists it. rewrite Hc. auto. Qed.
  Lemma ns_cont w a : has_cat Namespace w a -> cont w a.
  Proof. intros (it & Hg & Hc). exists it. rewrite Hc. auto. Qed.

  (** What running a program in a registry requires. *)
  Definition prog_pre (w : world) (p : prog) : Prop :=
    (sf = true -> all_prog named_cmd p = true) /\
    (df = true -> all_prog tame_cmd p = true /\ (w_held w = [] \/ all_prog soft_cmd p = true)).
  Lemma def_ok_pre w p : def_ok p -> prog_pre w p.
  Proof. intros [H1 H2]. split; [exact H1|]. intro Hd. split; [apply soft_tame_prog|right]; apply H2; exact Hd. Qed.

  Section Run.
    Variable run : world -> nat -> prog -> out unit.
    Variable k : nat.
    Variable use : world -> prog -> out unit.
    Hypothesis Hnone : forall w, use w [] = Ret w tt \/ use w [] = Fuel.
    Hypothesis Hrun : forall w a p, WF w -> hk w -> cont w a -> prog_pre w p -> post w (run w a p) (fun _ _ => True).
    Hypothesis Huse : forall w p, WF w -> hk w -> prog_pre w p -> post w (use w p) (fun _ _ => True).

    Definition settled (a : nat) (w : world) : Prop :=
      forall it, get w a = Some it -> i_lock it = false -> i_def it = None.

    Lemma check_post w a : WF w -> hk w -> cont w a -> post w (check run w a) (fun w' _ => settled a w').
    Proof.
      intros HW Hk (it & Hg & Hc). unfold check. rewrite Hg. destruct (i_def it) as [p|] eqn:Ed.
      2:{ apply post_ret. intros it' H _. congruence. }
      destruct (i_lock it) eqn:El.
      { apply post_ret. intros it' H Hl. congruence. }
      assert (Hp : prim w (upd w a begin_def)) by (eapply PBegin; eauto).
      pose proof (prim_wf _ _ _ _ _ HW Hp) as HW1.
      assert (Hk1 : hk (upd w a begin_def)) by (intros l; rewrite upd_held; apply Hk).
      assert (Hc1 : cont (upd w a begin_def) a).
      { exists (begin_def it). rewrite get_upd, Nat.eqb_refl, Hg. split; [reflexivity|exact Hc]. }
      assert (Hpre : prog_pre (upd w a begin_def) p).
      { apply def_ok_pre. apply (l_def _ _ _ _ (wf_local _ _ _ _ HW _ _ Hg) p Ed). }
      pose proof (Hrun _ a p HW1 Hk1 Hc1 Hpre) as HR.
      assert (HEND : forall w', steps (upd w a begin_def) w' -> bal (upd w a begin_def) w' ->
        steps w (upd w' a end_def) /\ bal w (upd w' a end_def) /\ settled a (upd w' a end_def)).
      { intros w' Hs Hb.
        assert (Hl : locked w' a = true).
        { rewrite (proj1 (proj2 Hb)). unfold locked. rewrite get_upd, Nat.eqb_refl, Hg. reflexivity. }
        unfold locked in Hl. destruct (get w' a) as [it'|] eqn:Hg'; [|discriminate]. split; [|split].
        - eapply SStep; [eapply steps_trans; [apply steps_one; exact Hp|exact Hs]|]. eapply PEnd; eauto.
        - split; [|split].
          + rewrite upd_held, (proj1 Hb), upd_held. reflexivity.
          + intro x. rewrite upd_locked, Hg'. destruct (x =? a) eqn:Ex.
            * apply Nat.eqb_eq in Ex. subst. unfold locked. rewrite Hg, El. reflexivity.
            * rewrite (proj1 (proj2 Hb)), upd_locked, Ex. reflexivity.
          + intros x xt Hx Hlx. assert (Ex : (x =? a) = false) by (apply Nat.eqb_neq; congruence).
            rewrite get_upd, Ex. apply (proj2 (proj2 Hb)); [|exact Hlx]. rewrite get_upd, Ex. exact Hx.
        - intros it2 H _. rewrite get_upd, Nat.eqb_refl, Hg' in H. injection H as <-. reflexivity. }
      destruct (run (upd w a begin_def) a p) as [w' x|e w'| | | |]; cbn in *; auto.
      - destruct HR as (Hs & Hb & _). apply HEND; assumption.
      - destruct HR as (Hs & Hb). destruct (HEND w' Hs Hb) as (H1 & H2 & _). auto.
    Qed.

    Lemma ml_find_in l n x : ml_find l n = Some x -> In x (ml_items l).
    Proof.
      unfold ml_find. destruct (n =? "")%string; [discriminate|]. destruct (assoc _ _ _) as [i|]; [|discriminate].
      destruct (i <? _); [|discriminate]. apply nth_error_In.
    Qed.
    Lemma list_of_in w a c x : WF w -> In x (ml_items (list_of w a c)) -> has_cat c w x.
    Proof.
      intros HW H. unfold list_of in H. destruct (get w a) as [it|] eqn:E; [|destruct H].
      destruct (wf_list _ _ _ _ HW a it c x E H) as (xt & Hg & Hc & _). exists xt. auto.
    Qed.

    Definition res (c : cat) (w : world) (r : option nat) : Prop := forall x, r = Some x -> has_cat c w x.

    Lemma get_item_post w a c n : WF w -> hk w -> cont w a ->
      post w (get_item run w a c n) (fun w' r => res c w' r /\ (r = None -> ml_find (list_of w' a c) n = None)).
    Proof.
      intros HW Hk Hc. unfold get_item. eapply post_bind; [exact HW|exact Hk|apply check_post; assumption|].
      intros w1 x HW1 Hk1 Hs Hb _. split; [apply touch_steps|]. split; [apply touch_bal|]. split; [|auto].
      intros y Hy. apply ml_find_in in Hy. exact (list_of_in _ _ _ _ HW1 Hy).
    Qed.
    Lemma get_index_post w a c i : WF w -> hk w -> cont w a ->
      post w (get_index run w a c i) (fun w' r => res c w' r).
    Proof.
      intros HW Hk Hc. unfold get_index. eapply post_bind; [exact HW|exact Hk|apply check_post; assumption|].
      intros w1 x HW1 Hk1 Hs Hb _. split; [apply touch_steps|]. split; [apply touch_bal|].
      intros y Hy. rewrite ml_get_nth in Hy. apply nth_error_In in Hy. exact (list_of_in _ _ _ _ HW1 Hy).
    Qed.
    Lemma get_count_post w a c : WF w -> hk w -> cont w a -> post w (get_count run w a c) (fun _ _ => True).
    Proof.
      intros HW Hk Hc. unfold get_count. eapply post_bind; [exact HW|exact Hk|apply check_post; assumption|].
      intros w1 x HW1 Hk1 Hs Hb _. split; [apply touch_steps|]. split; [apply touch_bal|exact I].
    Qed.
    Lemma find_method_post w a c n : WF w -> hk w -> cont w a ->
      post w (find_method run w a c n) (fun w' r => res c w' r).
    Proof.
      intros HW Hk Hc. unfold find_method. eapply post_bind; [exact HW|exact Hk|apply check_post; assumption|].
      intros w1 x HW1 Hk1 Hs Hb _.
      destruct (findMethod_spec (fun x => txt (names w1 x)) (ml_items (list_of w1 a c)) (txt n))
        as [(l1 & y & l2 & El & -> & _)|[-> _]].
      - split; [apply touch_steps|]. split; [apply touch_bal|]. intros z [= <-].
        apply (list_of_in w1 a c y HW1). rewrite El. apply in_or_app. right. left. reflexivity.
      - split; [apply touch_steps|]. split; [apply touch_bal|]. intros z Hz. discriminate.
    Qed.

    Lemma holding_post {A} w l (body : world -> out A) Q : WF w -> hk w -> soft_kind (snd l) = true ->
      (forall w', WF w' -> hk w' -> steps w w' -> w_items w' = w_items w -> w_class w' = w_class w -> post w' (body w') Q) ->
      (forall w' x, WF w' -> Q w' x -> Q (release w') x) -> post w (holding w l body) Q.
    Proof.
      intros HW Hk Hl Hbody HQ. unfold holding.
      assert (Ha : steps w (acquire w l)) by (apply steps_one; apply PLocks).
      assert (HWa : WF (acquire w l)) by (apply wf_locks; exact HW).
      assert (Hka : hk (acquire w l)) by (intros y [<-|Hy]; [exact Hl|apply Hk; exact Hy]).
      specialize (Hbody (acquire w l) HWa Hka Ha eq_refl eq_refl).
      assert (HREL : forall w', steps (acquire w l) w' -> bal (acquire w l) w' -> steps w (release w') /\ bal w (release w')).
      { intros w' Hs Hb. split.
        - eapply SStep; [eapply steps_trans; [exact Ha|exact Hs]|]. apply PLocks.
        - split; [cbn; rewrite (proj1 Hb); reflexivity|]. split; [|exact (proj2 (proj2 Hb))]. intro x.
          change (locked (release w') x) with (locked w' x). rewrite (proj1 (proj2 Hb)). reflexivity. }
      destruct (body (acquire w l)) as [w' x|e w'| | | |]; cbn in *; auto.
      - destruct Hbody as (Hs & Hb & HX). destruct (HREL w' Hs Hb). split; [assumption|]. split; [assumption|].
        apply HQ; [|exact HX]. eapply steps_wf; eauto.
      - destruct Hbody as (Hs & Hb). auto.
    Qed.

    (** The search through bases. *)
    Lemma dfs_post {R} (own : world -> nat -> out (option R)) (P : world -> R -> Prop) :
      (forall w w' x, WF w -> steps w w' -> P w x -> P w' x) ->
      (forall w a, WF w -> hk w -> has_cat Class w a -> post w (own w a) (fun w' r => forall x, r = Some x -> P w' x)) ->
      forall m w a, WF w -> hk w -> has_cat Class w a ->
      post w (dfs own m w a) (fun w' r => forall x, r = Some x -> P w' x).
    Proof.
      intros HP Hown. induction m as [|m IH]; intros w a HW Hk Ha; [exact I|]. cbn [dfs].
      eapply post_bind; [exact HW|exact Hk|apply Hown; assumption|].
      intros w1 r HW1 Hk1 Hs Hb Hr. destruct r as [x|]; [apply post_ret; exact Hr|].
      pose proof (has_cat_steps _ _ _ _ HW Hs Ha) as Ha1. destruct Ha1 as (it & Hg & Hc). rewrite Hg.
      apply holding_post; [exact HW1|exact Hk1|reflexivity| |].
      - intros w2 HW2 Hk2 Hs2 Ei Ec.
        assert (HB : forall t, In t (map fst (i_bases it)) -> class_of w2 t <> None).
        { intros t Ht. apply (wf_base _ _ _ _ HW2 a it t); [|exact Ht]. unfold get. rewrite Ei. exact Hg. }
        clear Hs Hb Hg Hr Ei Ec Hs2 HW1 Hk1. revert w2 HW2 Hk2 HB. generalize (i_bases it).
        induction l as [|[t f] l IHl]; intros w2 HW2 Hk2 HB.
        + apply post_ret. intros x Hx. discriminate.
        + destruct (class_of w2 t) as [b|] eqn:Eb; [|exfalso; apply (HB t); [left; reflexivity|exact Eb]].
          destruct (wf_class1 _ _ _ _ HW2 t b Eb) as (bt & Hgb & Hcb & _).
          eapply post_bind; [exact HW2|exact Hk2|apply IH; [assumption|assumption|exists bt; auto]|].
          intros w3 r HW3 Hk3 Hs3 Hb3 Hr3. destruct r as [x|]; [apply post_ret; exact Hr3|].
          apply IHl; [exact HW3|exact Hk3|]. intros t' Ht'. destruct (class_of w2 t') as [b'|] eqn:E'.
          * rewrite (proj2 (steps_extends _ _ HW2 Hs3) _ _ E'). discriminate.
          * exfalso. apply (HB t'); [right; exact Ht'|exact E'].
      - intros w' r HW' H x Hx. specialize (H x Hx). eapply HP; [exact HW'| |exact H]. apply steps_one. apply PLocks.
    Qed.

    Lemma category_class w a : has_cat Class w a -> exists it, get w a = Some it /\ cat_eqb (i_cat it) Class = true.
    Proof. intros (it & Hg & Hc). exists it. rewrite Hc. auto. Qed.

    Lemma get_method_post w a n : WF w -> hk w -> cont w a -> post w (get_method run k w a n) (fun w' r => res Method w' r).
    Proof.
      intros HW Hk Hc. unfold get_method. destruct (n =? "")%string; [apply post_ret; intros x Hx; discriminate|].
      pose proof Hc as (it & Hg & Hci). rewrite Hg. destruct (cat_eqb (i_cat it) Class) eqn:E.
      - apply cat_eqb_eq in E. apply dfs_post; auto.
        + intros w1 w2 x HW1 Hs. apply has_cat_steps; assumption.
        + intros w1 a1 HW1 Hk1 Ha1. apply find_method_post; auto using class_cont.
        + exists it. auto.
      - apply find_method_post; assumption.
    Qed.
    Lemma get_property_post w a n : WF w -> hk w -> cont w a -> post w (get_property run k w a n) (fun w' r => res Property w' r).
    Proof.
      intros HW Hk Hc. unfold get_property. pose proof Hc as (it & Hg & Hci). rewrite Hg.
      assert (H1 : forall w1 a1, WF w1 -> hk w1 -> cont w1 a1 -> post w1 (get_item run w1 a1 Property n) (fun w' r => res Property w' r)).
      { intros w1 a1 HW1 Hk1 Hc1. eapply post_weaken; [apply get_item_post; assumption|]. intros w' x _ _ [H _]. exact H. }
      destruct (cat_eqb (i_cat it) Class) eqn:E; [|apply H1; assumption].
      destruct (n =? "")%string; [apply post_ret; intros x Hx; discriminate|].
      apply cat_eqb_eq in E. apply dfs_post; auto.
      - intros w1 w2 x HW1 Hs. apply has_cat_steps; assumption.
      - intros w1 a1 HW1 Hk1 Ha1. apply H1; auto using class_cont.
      - exists it. auto.
    Qed.
    Lemma inherited_post w a b : WF w -> hk w -> has_cat Class w a -> post w (inherited run k w a b) (fun _ _ => True).
    Proof.
      intros HW Hk Ha. unfold inherited. eapply post_bind; [exact HW|exact Hk| |intros; apply post_ret; exact I].
      apply (dfs_post _ (fun _ _ => True)); auto. intros w1 a1 HW1 Hk1 Ha1. destruct (a1 =? b); [apply post_ret; auto|].
      eapply post_bind; [exact HW1|exact Hk1|apply check_post; auto using class_cont|]. intros; apply post_ret; auto.
    Qed.
    Lemma bases_query_post w a : WF w -> hk w -> has_cat Class w a -> post w (bases_query run w a) (fun _ _ => True).
    Proof.
      intros HW Hk Ha. unfold bases_query. eapply post_bind; [exact HW|exact Hk|apply check_post; auto using class_cont|].
      intros w1 x HW1 Hk1 Hs Hb _. destruct (has_cat_steps _ _ _ _ HW Hs Ha) as (it & Hg & _). rewrite Hg.
      split; [apply touch_steps|]. split; [apply touch_bal|exact I].
    Qed.

    Lemma derived_query_post w a : WF w -> hk w -> has_cat Class w a -> post w (derived_query run w a) (fun _ _ => True).
    Proof.
      intros HW Hk Ha. unfold derived_query. eapply post_bind; [exact HW|exact Hk|apply check_post; auto using class_cont|].
      intros w1 x HW1 Hk1 Hs Hb _. destruct (has_cat_steps _ _ _ _ HW Hs Ha) as (it & Hg & _). rewrite Hg.
      apply post_ret. exact I.
    Qed.
    Lemma cast_to_post : forall j w a b, WF w -> hk w -> has_cat Class w a -> post w (cast_to run k j w a b) (fun _ _ => True).
    Proof.
      induction j as [|j IH]; intros w a b HW Hk Ha; [exact I|]. cbn [cast_to]. destruct (a =? b); [apply post_ret; exact I|].
      eapply post_bind; [exact HW|exact Hk|apply check_post; auto using class_cont|].
      intros w1 x HW1 Hk1 Hs Hb _. destruct (has_cat_steps _ _ _ _ HW Hs Ha) as (it & Hg & _). rewrite Hg.
      apply holding_post; [exact HW1|exact Hk1|reflexivity| |auto]. intros w2 HW2 Hk2 Hs2 Ei Ec.
      assert (HB : forall t, In t (map fst (i_bases it)) -> class_of w2 t <> None).
      { intros t Ht. apply (wf_base _ _ _ _ HW2 a it t); [|exact Ht]. unfold get. rewrite Ei. exact Hg. }
      clear Hs Hb Hg Ei Ec Hs2 HW1 Hk1. revert w2 HW2 Hk2 HB. generalize (i_bases it).
      induction l as [|[t f] l IHl]; intros w2 HW2 Hk2 HB; [apply post_ret; exact I|].
      destruct (class_of w2 t) as [d|] eqn:Eb; [|exfalso; apply (HB t); [left; reflexivity|exact Eb]].
      destruct (wf_class1 _ _ _ _ HW2 t d Eb) as (bt & Hgb & Hcb & _).
      assert (Hd : has_cat Class w2 d) by (exists bt; auto).
      eapply post_bind; [exact HW2|exact Hk2|apply inherited_post; assumption|].
      intros w3 r HW3 Hk3 Hs3 Hb3 _. destruct r.
      - eapply post_bind; [exact HW3|exact Hk3|apply IH; auto; eapply has_cat_steps; [exact HW2|exact Hs3|exact Hd]|].
        intros; apply post_ret; exact I.
      - apply IHl; [exact HW3|exact Hk3|]. intros t' Ht'. destruct (class_of w2 t') as [b'|] eqn:E'.
        + rewrite (proj2 (steps_extends _ _ HW2 Hs3) _ _ E'). discriminate.
        + exfalso. apply (HB t'); [right; exact Ht'|exact E'].
    Qed.

    (** Attributes and elements. *)
    Definition there (w : world) (a : nat) : Prop := exists it, get w a = Some it.
    Lemma there_steps w w' a : WF w -> steps w w' -> there w a -> there w' a.
    Proof.
      intros HW Hs (it & Hg). destruct (proj1 (steps_extends w w' HW Hs) _ _ Hg) as (it' & Hg' & _). exists it'. exact Hg'.
    Qed.
    Lemma check_item_post w a : WF w -> hk w -> there w a -> post w (check_item run w a) (fun _ _ => True).
    Proof.
      intros HW Hk (it & Hg). unfold check_item. rewrite Hg. destruct (is_container (i_cat it)) eqn:Ec; [|apply post_ret; exact I].
      eapply post_weaken; [apply check_post; try assumption; exists it; auto|auto].
    Qed.
    Lemma attr_query_post w a q : WF w -> hk w -> there w a -> post w (attr_query run w a q) (fun _ _ => True).
    Proof.
      intros HW Hk Ha. unfold attr_query. eapply post_bind; [exact HW|exact Hk|apply check_item_post; assumption|].
      intros w1 x HW1 Hk1 Hs Hb _. destruct (there_steps _ _ _ HW Hs Ha) as (it & Hg). rewrite Hg.
      split; [apply touch_steps|]. split; [apply touch_bal|exact I].
    Qed.
    Lemma elem_query_post w a q : WF w -> hk w -> there w a -> post w (elem_query w a q) (fun _ _ => True).
    Proof.
      intros HW Hk (it & Hg). unfold elem_query. rewrite Hg. split; [apply touch_steps|]. split; [apply touch_bal|exact I].
    Qed.
    Lemma visit_apart vs : apart vs = true -> forall n w, visit use w n vs = Ret w tt \/ visit use w n vs = Fuel.
    Proof.
      induction vs as [|v vs IH]; intros H [|n] w; cbn; auto. cbn in H. apply andb_true_iff in H as [H1 H2].
      destruct v; [|discriminate]. destruct (Hnone w) as [->| ->]; cbn; [apply IH; exact H2|auto].
    Qed.
    Lemma visit_post vs : forall n w, WF w -> hk w -> Forall (fun v => forall w, prog_pre w v) vs -> post w (visit use w n vs) (fun _ _ => True).
    Proof.
      induction vs as [|v vs IH]; intros [|n] w HW Hk Hv; try (apply post_ret; exact I). cbn [visit].
      inversion Hv as [|? ? Hv1 Hv2]; subst.
      eapply post_bind; [exact HW|exact Hk|apply Huse; auto|]. intros w1 _ HW1 Hk1 _ _ _. apply IH; assumption.
    Qed.
    (** A visitor of attributes or elements: uses nothing, or deadlocks are not at issue. *)
    Definition visitor_ok (vs : list prog) : Prop :=
      (df = true -> apart vs = true) /\ (sf = true -> Forall (fun v => all_prog named_cmd v = true) vs).
    Lemma visiting_post w l n vs : WF w -> hk w -> snd l = LAttrs \/ snd l = LElems -> visitor_ok vs ->
      post w (holding w l (fun w2 => visit use w2 n vs)) (fun _ _ => True).
    Proof.
      intros HW Hk Hl [H1 H2]. destruct (bool_dec df true) as [Hd|Hd].
      - unfold holding. destruct (visit_apart vs (H1 Hd) n (acquire w l)) as [->| ->]; [|exact I].
        split; [eapply SStep; [apply steps_one|]; apply PLocks|]. split; [|exact I].
        split; [reflexivity|]. split; [reflexivity|]. eauto using same_def_refl.
      - apply holding_post; auto.
        + apply not_true_is_false in Hd. destruct Hl as [-> | ->]; cbn; rewrite Hd; reflexivity.
        + intros w2 HW2 Hk2 _ _ _. apply visit_post; auto. apply Forall_forall. intros v Hv w3. split; [|congruence].
          intro E. exact (proj1 (Forall_forall _ _) (H2 E) v Hv).
    Qed.
    Lemma each_attr_post w a vs : WF w -> hk w -> there w a -> visitor_ok vs -> post w (each_attr run use w a vs) (fun _ _ => True).
    Proof.
      intros HW Hk Ha Hv. unfold each_attr. eapply post_bind; [exact HW|exact Hk|apply check_item_post; assumption|].
      intros w1 x HW1 Hk1 Hs Hb _. destruct (there_steps _ _ _ HW Hs Ha) as (it & Hg). rewrite Hg.
      apply visiting_post; auto.
    Qed.
    Lemma each_elem_post w a vs : WF w -> hk w -> there w a -> visitor_ok vs -> post w (each_elem use w a vs) (fun _ _ => True).
    Proof. intros HW Hk (it & Hg) Hv. unfold each_elem. rewrite Hg. apply visiting_post; auto. Qed.

    (** Adding. *)
    Lemma locked_new w o ow it l : get w o = Some ow -> i_lock it = false -> forall x, locked (with_new w o it l) x = locked w x.
    Proof.
      intros Ho Hl x. unfold locked. rewrite (get_with_new w o it l ow x Ho). pose proof (get_lt _ _ _ Ho).
      destruct (x =? List.length (w_items w)) eqn:E.
      - apply Nat.eqb_eq in E. subst x. assert (E : get w (List.length (w_items w)) = None) by (apply nth_error_None; lia).
        rewrite E. exact Hl.
      - destruct (x =? o) eqn:Eo; [|reflexivity]. apply Nat.eqb_eq in Eo. subst. rewrite Ho. reflexivity.
    Qed.
    Lemma with_new_held w o it l : w_held (with_new w o it l) = w_held w.
    Proof. unfold with_new. rewrite upd_held. reflexivity. Qed.
    Lemma with_new_bal w o ow it l : get w o = Some ow -> i_lock it = false -> bal w (with_new w o it l).
    Proof.
      intros Ho Hl. split; [apply with_new_held|]. split; [apply (locked_new w o ow it l Ho Hl)|].
      intros x xt Hx Hlx. rewrite (get_with_new w o it l ow x Ho). pose proof (get_lt _ _ _ Hx).
      assert (E : (x =? List.length (w_items w)) = false) by (apply Nat.eqb_neq; lia). rewrite E.
      destruct (x =? o) eqn:Eo; [|eauto using same_def_refl]. apply Nat.eqb_eq in Eo. subst x. rewrite Hx in Ho. injection Ho as ->.
      eexists. split; [reflexivity|]. repeat split.
    Qed.

    Lemma add_new_case w o ow it : get w o = Some ow ->
      match add_new w o it with
      | Added w2 id => holds w (o, LList (i_cat it)) = false /\ id = List.length (w_items w) /\
          exists l, w2 = with_new w o it l /\
          ml_add (names (World (w_items w ++ [it]) (w_class w) (w_held w) (w_relock w))) (i_list ow (i_cat it))
                 (Some (List.length (w_items w))) = (l, true)
      | Refused => holds w (o, LList (i_cat it)) = false /\
          snd (ml_add (names (World (w_items w ++ [it]) (w_class w) (w_held w) (w_relock w))) (i_list ow (i_cat it))
                 (Some (List.length (w_items w)))) = false
      | Blocked => holds w (o, LList (i_cat it)) = true
      end.
    Proof.
      intro Ho. unfold add_new. destruct (holds w (o, LList (i_cat it))) eqn:Eh; [reflexivity|].
      unfold list_of. rewrite Ho.
      destruct (ml_add _ _ _) as [l [|]] eqn:E.
      - split; [reflexivity|]. split; [reflexivity|]. exists l. split; reflexivity.
      - split; reflexivity.
    Qed.

    (** A name not found can be added. *)
    Lemma not_refused w o c n t inv ow : WF w -> get w o = Some ow -> n <> ""%string ->
      ml_find (i_list ow c) n = None -> add_new w o (fresh c n (Some o) t inv) <> Refused.
    Proof.
      intros HW Ho Hn Hf. pose proof (add_new_case w o ow (fresh c n (Some o) t inv) Ho) as H.
      destruct (add_new w o (fresh c n (Some o) t inv)); try discriminate. exfalso. destruct H as [_ H].
      cbn [i_cat fresh] in H. set (id := List.length (w_items w)) in *.
      set (nm := names (World (w_items w ++ [fresh c n (Some o) t inv]) (w_class w) (w_held w) (w_relock w))) in *.
      assert (Hlt : forall x, In x (ml_items (i_list ow c)) -> x <> id).
      { intros x Hx. destruct (wf_list _ _ _ w HW o ow c x Ho Hx) as (xt & Hg & _). apply get_lt in Hg. unfold id. lia. }
      assert (HO : ml_ok nm (i_list ow c)).
      { eapply ml_ok_ext; [|eapply (wf_names _ _ _ w HW); eauto]. intros x Hx. symmetry. apply names_app. apply Hlt. exact Hx. }
      assert (Hid : nm id = n) by (unfold nm, names; rewrite get_app; unfold id; rewrite Nat.eqb_refl; reflexivity).
      rewrite (ml_add_char nm _ _ (proj1 HO)) in H.
      match type of H with context [in_dec ?a ?b ?c] => destruct (in_dec a b c) as [Hi|Hi] end; [|discriminate].
      clear H. rewrite Hid in Hi. apply in_map_iff in Hi as (x & E & Hx).
      pose proof (proj2 (ml_find_iff nm _ n x HO Hn) (conj Hx E)). congruence.
    Qed.

    Lemma holds_held w w' l : w_held w' = w_held w -> holds w' l = holds w l.
    Proof. unfold holds. intros ->. reflexivity. Qed.
    Lemma holds_hard w o c : hk w -> soft_kind c = false -> holds w (o, c) = false.
    Proof.
      intros Hk Hs. destruct (holds w (o, c)) eqn:E; [|reflexivity]. unfold holds in E.
      apply existsb_exists in E as ([x y] & Hin & E). apply Hk in Hin. unfold lock_eqb in E. cbn [fst snd] in E, Hin.
      apply andb_true_iff in E as [_ E]. assert (c = y) as <- by (destruct c, y; try discriminate; try reflexivity; f_equal; apply cat_eqb_eq; exact E).
      congruence.
    Qed.
    Lemma holds_nil w l : w_held w = [] -> holds w l = false.
    Proof. unfold holds. intros ->. reflexivity. Qed.

    Lemma create_post (NN : Prop) lookup o c n t inv w :
      WF w -> hk w -> cont w o -> c <> Class ->
      (forall w1, WF w1 -> hk w1 -> cont w1 o -> post w1 (lookup w1) (fun w2 r => res c w2 r /\
        (r = None -> NN -> add_new w2 o (fresh c n (Some o) t inv) <> Refused))) ->
      (df = true -> holds w (o, LList c) = false) ->
      post w (create lookup o (fresh c n (Some o) t inv) w) (fun w' r => res c w' r /\ (NN -> r <> None)).
    Proof.
      intros HW Hk Ho Hc Hlook Hblock. unfold create. eapply post_bind; [exact HW|exact Hk|apply Hlook; assumption|].
      intros w1 r HW1 Hk1 Hs Hb [Hr HN]. destruct r as [x|]; [apply post_ret; split; [exact Hr|discriminate]|].
      specialize (HN eq_refl). pose proof (cont_steps _ _ _ HW Hs Ho) as Ho1. pose proof Ho1 as (ow & Hg & Hco).
      pose proof (add_new_case w1 o ow (fresh c n (Some o) t inv) Hg) as HA.
      destruct (add_new w1 o (fresh c n (Some o) t inv)) as [w2 id| |].
      - destruct HA as (_ & -> & l & -> & Hadd). cbn [i_cat fresh] in Hadd.
        split; [apply steps_one; eapply PNew; eassumption|]. split; [eapply with_new_bal; [exact Hg|reflexivity]|].
        split; [|discriminate]. intros x [= <-]. exists (fresh c n (Some o) t inv). split; [|reflexivity].
        rewrite (get_with_new w1 o _ l ow _ Hg), Nat.eqb_refl. reflexivity.
      - eapply post_weaken; [apply Hlook; assumption|]. intros w2 r _ _ [H1 H2]. split; [exact H1|].
        intros HNN. exfalso. apply (HN HNN). reflexivity.
      - cbn [i_cat fresh] in HA. apply not_true_is_false. intro Ed. specialize (Hblock Ed).
        rewrite (holds_held w w1) in HA by apply (proj1 Hb). congruence.
    Qed.

    Lemma get_item_lookup o c n t inv w : WF w -> hk w -> cont w o ->
      post w (get_item run w o c n) (fun w2 r => res c w2 r /\
        (r = None -> n <> ""%string -> add_new w2 o (fresh c n (Some o) t inv) <> Refused)).
    Proof.
      intros HW Hk Ho. eapply post_weaken; [apply get_item_post; assumption|]. intros w' r Hs Hb [H1 H2].
      split; [exact H1|]. intros Hr Hn. destruct (cont_steps _ _ _ HW Hs Ho) as (ow & Hg & _). specialize (H2 Hr).
      unfold list_of in H2. rewrite Hg in H2. eapply not_refused; eauto. eapply steps_wf; eauto.
    Qed.

    Lemma create_namespace_post w o n : WF w -> hk w -> cont w o -> (df = true -> holds w (o, LList Namespace) = false) ->
      post w (create_namespace run w o n) (fun w' r => res Namespace w' r /\ (n <> ""%string -> r <> None)).
    Proof.
      intros HW Hk Ho HD. apply create_post; auto; [discriminate|]. intros. apply get_item_lookup; assumption.
    Qed.
    Lemma create_enum_post w o n t : WF w -> hk w -> cont w o ->
      post w (create_enum run w o n t) (fun w' r => res Enum w' r /\ (n <> ""%string -> r <> None)).
    Proof.
      intros HW Hk Ho. apply create_post; auto; [discriminate| |].
      - intros. apply get_item_lookup; assumption.
      - intros _. apply holds_hard; [exact Hk|reflexivity].
    Qed.
    Lemma create_property_post w o n inv : WF w -> hk w -> cont w o ->
      post w (create_property run k w o n inv) (fun w' r => res Property w' r).
    Proof.
      intros HW Hk Ho. unfold create_property. destruct (n =? "")%string; [apply post_ret; intros x Hx; discriminate|].
      eapply post_weaken; [apply (create_post False)|]; auto; [discriminate| |intros _; apply holds_hard; [exact Hk|reflexivity]|].
      - intros w1 HW1 Hk1 Hc1. eapply post_weaken; [apply get_property_post; assumption|]. intros w2 r _ _ H. split; [exact H|tauto].
      - intros w2 r _ _ [H _]. exact H.
    Qed.
    Lemma create_method_post w o n args inv : WF w -> hk w -> cont w o -> (df = true -> holds w (o, LList Method) = false) ->
      post w (create_method run k w o n args inv) (fun w' r => res Method w' r).
    Proof.
      intros HW Hk Ho HD. unfold create_method.
      eapply post_weaken; [apply (create_post False)|]; auto; [discriminate| |].
      - intros w1 HW1 Hk1 Hc1. eapply post_weaken; [apply get_method_post; assumption|]. intros w2 r _ _ H. split; [exact H|tauto].
      - intros w2 r _ _ [H _]. exact H.
    Qed.
    Lemma create_ctor_post w o n args inv : WF w -> hk w -> cont w o ->
      post w (create_ctor run w o n args inv) (fun w' r => res Constructor w' r).
    Proof.
      intros HW Hk Ho. unfold create_ctor.
      eapply post_weaken; [apply (create_post False)|]; auto; [discriminate| |intros _; apply holds_hard; [exact Hk|reflexivity]|].
      - intros w1 HW1 Hk1 Hc1. eapply post_weaken; [apply find_method_post; assumption|]. intros w2 r _ _ H. split; [exact H|tauto].
      - intros w2 r _ _ [H _]. exact H.
    Qed.
    Lemma create_class_post w o n t : WF w -> hk w -> cont w o -> (df = true -> holds w (o, LList Class) = false) ->
      post w (create_class run w o n t) (fun w' r => res Class w' r /\ (n <> ""%string -> r <> None)).
    Proof.
      intros HW Hk Ho HD. unfold create_class.
      eapply post_bind; [exact HW|exact Hk|apply (get_item_lookup o Class n t 0); assumption|].
      intros w1 r HW1 Hk1 Hs Hb [Hr HN]. destruct r as [x|]; [apply post_ret; split; [exact Hr|discriminate]|].
      specialize (HN eq_refl). pose proof (cont_steps _ _ _ HW Hs Ho) as Ho1. pose proof Ho1 as (ow & Hg & Hco).
      destruct (class_of w1 t) as [x|] eqn:Et; [split; [constructor|apply bal_refl]|].
      pose proof (add_new_case w1 o ow (fresh Class n (Some o) t 0) Hg) as HA.
      destruct (add_new w1 o (fresh Class n (Some o) t 0)) as [w2 id| |].
      - destruct HA as (_ & -> & l & -> & Hadd). cbn [i_cat fresh] in Hadd.
        split; [apply steps_one; exact (PClass _ _ _ w1 o ow n t 0 l Hg Hco Et Hadd)|].
        split; [exact (with_new_bal w1 o ow (fresh Class n (Some o) t 0) l Hg eq_refl)|].
        split; [|discriminate]. intros x [= <-]. exists (fresh Class n (Some o) t 0). split; [|reflexivity].
        change (get (with_new w1 o (fresh Class n (Some o) t 0) l) (List.length (w_items w1)) = Some (fresh Class n (Some o) t 0)).
        rewrite (get_with_new w1 o _ l ow _ Hg), Nat.eqb_refl. reflexivity.
      - eapply post_weaken; [apply (get_item_lookup o Class n t 0); assumption|]. intros w2 r _ _ [H1 H2].
        split; [exact H1|]. intros HNN. exfalso. apply (HN HNN). reflexivity.
      - cbn [i_cat fresh] in HA. apply not_true_is_false. intro Ed. specialize (HD Ed).
        rewrite (holds_held w w1) in HA by apply (proj1 Hb). congruence.
    Qed.

    Lemma existsb_fst t (l : list (nat * nat)) : existsb (fun x => Nat.eqb t (fst x)) l = true <-> In t (map fst l).
    Proof.
      rewrite existsb_exists, in_map_iff. split; intros ([a b] & H).
      - destruct H as [Hin E]. apply Nat.eqb_eq in E. cbn in E. subst. exists (a, b). auto.
      - destruct H as [E Hin]. exists (a, b). split; [exact Hin|]. apply Nat.eqb_eq. auto.
    Qed.
    Lemma existsb_nat t (l : list nat) : existsb (Nat.eqb t) l = true <-> In t l.
    Proof.
      rewrite existsb_exists. split; [intros (x & H & E); apply Nat.eqb_eq in E; subst; exact H|].
      intro H. exists t. split; [exact H|apply Nat.eqb_refl].
    Qed.

    (** addBaseClass does nothing or links both classes. *)
    Lemma add_base_case w a it t f b : WF w -> get w a = Some it -> i_cat it = Class -> class_of w t = Some b ->
      holds w (a, LBases) = false ->
      add_base w a t f = Ret (if in_dec Nat.eq_dec t (map fst (i_bases it)) then w else link w a it t f b) tt.
    Proof.
      intros HW Hg Hc Hb Hh. unfold add_base. rewrite Hb, Hg, Hh.
      destruct (wf_class1 _ _ _ w HW t b Hb) as (bt & Hgb & Hcb & Htb).
      pose proof (wf_mirror _ _ _ w HW a it b bt Hg Hgb Hc Hcb) as HM. rewrite Htb in HM.
      destruct (in_dec Nat.eq_dec t (map fst (i_bases it))) as [Hin|Hni].
      - rewrite (proj2 (existsb_fst t _) Hin). rewrite (wf_class2 _ _ _ w HW a it Hg Hc), Hgb.
        rewrite (proj2 (existsb_nat _ _) (proj1 HM Hin)). reflexivity.
      - destruct (existsb (fun x => Nat.eqb t (fst x)) (i_bases it)) eqn:E; [exfalso; apply Hni; apply existsb_fst; exact E|].
        rewrite class_of_upd, (wf_class2 _ _ _ w HW a it Hg Hc).
        unfold link. set (w1 := upd w a (set_bases (i_bases it ++ [(t, f)]))).
        assert (Hgb1 : exists bt1, get w1 b = Some bt1 /\ i_derived bt1 = i_derived bt).
        { unfold w1. destruct (upd_back w a (set_bases (i_bases it ++ [(t, f)])) b bt Hgb) as (bt1 & H1 & [->|[_ ->]]); eauto. }
        destruct Hgb1 as (bt1 & Hg1 & Ed). rewrite Hg1, Ed.
        destruct (existsb (Nat.eqb (i_type it)) (i_derived bt)) eqn:E2; [exfalso; apply Hni; apply HM; apply existsb_nat; exact E2|].
        unfold upd at 1. unfold upd at 1. rewrite Hg1, Ed. reflexivity.
    Qed.

    Lemma add_base_post w a it t f : WF w -> hk w -> get w a = Some it -> i_cat it = Class -> okbase (i_type it) t = true -> (df = true -> holds w (a, LBases) = false) ->
      post w (add_base w a t f) (fun _ _ => True).
    Proof.
      intros HW Hk Hg Hc Hok HD. destruct (class_of w t) as [b|] eqn:Eb.
      2:{ unfold add_base. rewrite Eb. split; [constructor|apply bal_refl]. }
      destruct (holds w (a, LBases)) eqn:Eh.
      { unfold add_base. rewrite Eb, Hg, Eh. apply not_true_is_false. intro Ed. specialize (HD Ed). discriminate. }
      rewrite (add_base_case w a it t f b) by assumption.
      destruct (in_dec _ _ _) as [Hin|Hni]; [apply post_ret; exact I|].
      split; [apply steps_one; eapply PLink; eassumption|]. split; [|exact I].
      unfold link. eapply bal_trans; apply bal_upd; intros; split; repeat split.
    Qed.

    Lemma set_deferred_post w a p : WF w -> hk w -> cont w a -> def_ok p -> post w (set_deferred w a p) (fun _ _ => True).
    Proof.
      intros HW Hk (it & Hg & Hc) Hp. unfold set_deferred. rewrite Hg. destruct (i_def it) as [q|] eqn:Ed.
      - split; [constructor|apply bal_refl].
      - split; [apply steps_one; eapply PDef; eassumption|]. split; [|exact I]. apply bal_upd. intros it' Hg'. split; [reflexivity|]. intro Hl.
        rewrite Hg in Hg'. injection Hg' as <-. exfalso. apply (l_lock _ _ _ _ (wf_local _ _ _ _ HW _ _ Hg) Hl). exact Ed.
    Qed.

    Lemma force_post : forall m r w a, WF w -> hk w -> cont w a -> post w (force run m r w a) (fun _ _ => True).
    Proof.
      induction m as [|m IH]; intros r w a HW Hk Ha; [exact I|]. cbn [force].
      eapply post_bind; [exact HW|exact Hk|apply check_post; assumption|].
      intros w1 x HW1 Hk1 Hs Hb _. destruct r; [|apply post_ret; exact I].
      pose proof (cont_steps _ _ _ HW Hs Ha) as Ha1.
      assert (HL : forall l w2, WF w2 -> hk w2 -> (forall y, In y l -> cont w2 y) ->
        post w2 ((fix loop (w : world) (l : list nat) : out unit :=
              match l with [] => Ret w tt | x :: l' => bind (force run m true w x) (fun w' _ => loop w' l') end) w2 l) (fun _ _ => True)).
      { induction l as [|y l IHl]; intros w2 HW2 Hk2 Hl; [apply post_ret; exact I|].
        eapply post_bind; [exact HW2|exact Hk2|apply IH; [assumption|assumption|apply Hl; left; reflexivity]|].
        intros w3 _ HW3 Hk3 Hs3 Hb3 _. apply IHl; [exact HW3|exact Hk3|]. intros z Hz.
        eapply cont_steps; [exact HW2|exact Hs3|]. apply Hl. right. exact Hz. }
      eapply post_bind; [exact HW1|exact Hk1| |].
      - apply holding_post with (Q := fun _ _ => True); [exact HW1|exact Hk1|reflexivity| |auto].
        intros w2 HW2 Hk2 Hs2 Ei Ec. apply HL; [exact HW2|exact Hk2|].
        intros y Hy. apply (list_of_in w1 a Class y HW1) in Hy. apply class_cont. eapply has_cat_steps; [exact HW1|exact Hs2|exact Hy].
      - intros w2 _ HW2 Hk2 Hs2 Hb2 _.
        apply holding_post; [exact HW2|exact Hk2|reflexivity| |auto].
        intros w3 HW3 Hk3 Hs3 Ei Ec. apply HL; [exact HW3|exact Hk3|].
        intros y Hy. apply (list_of_in w2 a Namespace y HW2) in Hy. apply ns_cont. eapply has_cat_steps; [exact HW2|exact Hs3|exact Hy].
    Qed.

    Lemma each_post w a c vs : WF w -> hk w -> cont w a -> soft_kind (LList c) = true -> Forall def_ok vs ->
      post w (each run use w a c vs) (fun _ _ => True).
    Proof.
      intros HW Hk Ha Hc Hv. unfold each. eapply post_bind; [exact HW|exact Hk|apply check_post; assumption|].
      intros w1 x HW1 Hk1 Hs Hb _. apply holding_post; [exact HW1|exact Hk1|exact Hc| |auto].
      intros w2 HW2 Hk2 _ _ _. revert w2 HW2 Hk2 vs Hv. generalize (ml_items (list_of w1 a c)).
      induction l as [|y l IHl]; intros w2 HW2 Hk2 vs Hv; [apply post_ret; exact I|].
      destruct vs as [|v vs]; [apply post_ret; exact I|]. inversion Hv as [|? ? Hv1 Hv2]; subst.
      eapply post_bind; [exact HW2|exact Hk2|apply Huse; [assumption|assumption|apply def_ok_pre; exact Hv1]|].
      intros w3 _ HW3 Hk3 Hs3 Hb3 _. apply IHl; assumption.
    Qed.

    (** The builder. *)
    Definition bok (w : world) (b : builder) : Prop :=
      (match b_cont b with Some a => cont w a | None => sf = false end) /\
      (match b_item b with Some a => exists it, get w a = Some it | None => sf = false end) /\
      Forall (fun o => exists a, o = Some a /\ cont w a) (b_stack b).

    Lemma get_steps w w' a it : WF w -> steps w w' -> get w a = Some it -> exists it', get w' a = Some it' /\ grows it it'.
    Proof. intros HW Hs Hg. exact (proj1 (steps_extends w w' HW Hs) _ _ Hg). Qed.

    Lemma bok_steps w w' b : WF w -> steps w w' -> bok w b -> bok w' b.
    Proof.
      intros HW Hs (H1 & H2 & H3). split; [|split].
      - destruct (b_cont b); [eapply cont_steps; eauto|exact H1].
      - destruct (b_item b) as [a|]; [|exact H2]. destruct H2 as (it & Hg).
        destruct (get_steps _ _ _ _ HW Hs Hg) as (it' & Hg' & _). eauto.
      - eapply Forall_impl; [|exact H3]. cbn. intros o (a & -> & Ha). exists a. split; [reflexivity|]. eapply cont_steps; eauto.
    Qed.

    Definition cmd_pre (w : world) (c : cmd) : Prop :=
      (sf = true -> all_cmd named_cmd c = true) /\
      (df = true -> all_cmd tame_cmd c = true /\ (w_held w = [] \/ all_cmd soft_cmd c = true)).

    Lemma skip_post {A} w b (o : out A) Q : WF w -> hk w -> bok w b -> post w o Q -> post w (skip b o) bok.
    Proof.
      intros HW Hk Hb Ho. unfold skip. eapply post_bind; [exact HW|exact Hk|exact Ho|].
      intros w' x HW' Hk' Hs Hbal _. apply post_ret. eapply bok_steps; [exact HW|exact Hs|exact Hb].
    Qed.
    Lemma on_container_post w a o : (cont w a -> post w o bok) -> post w (on_container w a o) bok.
    Proof.
      intro H. unfold on_container, category. destruct (get w a) as [it|] eqn:E; [|exact I]. cbn.
      destruct (is_container (i_cat it)) eqn:Ec; [|exact I]. apply H. exists it. auto.
    Qed.
    Lemma on_class_post w a o : (has_cat Class w a -> post w o bok) -> post w (on_class w a o) bok.
    Proof.
      intro H. unfold on_class, category. destruct (get w a) as [it|] eqn:E; [|exact I]. cbn.
      destruct (i_cat it) eqn:Ec; try exact I. apply H. exists it. auto.
    Qed.

    Lemma on_item_post w a o : (there w a -> post w o bok) -> post w (on_item w a o) bok.
    Proof.
      intro H. unfold on_item, category. destruct (get w a) as [it|] eqn:E; [|exact I]. apply H. exists it. exact E.
    Qed.
    Lemma on_enum_post w a o : (there w a -> post w o bok) -> post w (on_enum w a o) bok.
    Proof.
      intro H. unfold on_enum, category. destruct (get w a) as [it|] eqn:E; [|exact I]. cbn.
      destruct (i_cat it); try exact I. apply H. exists it. exact E.
    Qed.

    Lemma ctor_if_post on args a w : WF w -> hk w -> cont w a -> post w (ctor_if run on args a w) (fun _ _ => True).
    Proof.
      intros HW Hk Ha. unfold ctor_if. destruct on; [|apply post_ret; exact I].
      eapply post_bind; [exact HW|exact Hk|apply create_ctor_post; assumption|]. intros; apply post_ret; exact I.
    Qed.
    Lemma auto_ctors_post w a d c m : WF w -> hk w -> cont w a -> post w (auto_ctors run w a d c m) (fun _ _ => True).
    Proof.
      intros HW Hk Ha. unfold auto_ctors. eapply post_bind; [exact HW|exact Hk|apply ctor_if_post; assumption|].
      intros w1 _ HW1 Hk1 Hs1 _ _. pose proof (cont_steps _ _ _ HW Hs1 Ha) as Ha1.
      eapply post_bind; [exact HW1|exact Hk1|apply ctor_if_post; assumption|].
      intros w2 _ HW2 Hk2 Hs2 _ _. apply ctor_if_post; auto. eapply cont_steps; [exact HW1|exact Hs2|exact Ha1].
    Qed.
    Lemma add_bases_post l : forall w a, WF w -> hk w -> has_cat Class w a -> (df = true -> holds w (a, LBases) = false) ->
      post w (add_bases okbase w a l) (fun _ _ => True).
    Proof.
      induction l as [|[t f] l IH]; intros w a HW Hk Ha HD; [apply post_ret; exact I|]. cbn [add_bases].
      pose proof Ha as (it & Hg & Hc). rewrite Hg. destruct (okbase (i_type it) t) eqn:Eok; [|exact I].
      eapply post_bind; [exact HW|exact Hk|eapply add_base_post; eassumption|].
      intros w1 _ HW1 Hk1 Hs1 Hb1 _. apply IH; auto; [eapply has_cat_steps; [exact HW|exact Hs1|exact Ha]|].
      intro E. rewrite (holds_held w w1) by apply (proj1 Hb1). auto.
    Qed.

    (** Commands that add to a walked list run with no lock held. *)
    Lemma hard_free w c l : cmd_pre w c -> soft_cmd c = false -> df = true -> holds w l = false.
    Proof.
      intros [_ H] Hs Hd. destruct (H Hd) as [_ [Hn|Hs']]; [apply holds_nil; exact Hn|].
      destruct c; cbn in Hs' , Hs; rewrite ?Hs in Hs'; discriminate.
    Qed.
    Lemma name_ok n : negb (n =? "")%string = true -> n <> ""%string.
    Proof. intros H ->. discriminate. Qed.

    Lemma named_of w c : cmd_pre w c -> sf = true -> named_cmd c = true.
    Proof. intros [H _] Hs. specialize (H Hs). destruct c; cbn in *; try reflexivity; rewrite andb_true_r in H; exact H. Qed.

    Lemma lazy_ok w p : cmd_pre w (KLazy p) -> def_ok p.
    Proof.
      intros [H1 H2]. split; intro E.
      - exact (H1 E).
      - destruct (H2 E) as [H _]. cbn in H. apply andb_true_iff in H as [H _]. exact H.
    Qed.
    Lemma each_ok w a c vs : cmd_pre w (KEach a c vs) -> Forall def_ok vs.
    Proof.
      intros [H1 H2]. apply Forall_forall. intros v Hv. split; intro E.
      - specialize (H1 E). cbn in H1. rewrite forallb_forall in H1. apply H1. exact Hv.
      - destruct (H2 E) as [H _]. cbn in H. apply andb_true_iff in H as [H _]. rewrite forallb_forall in H. apply H. exact Hv.
    Qed.
    Lemma visitor_okA w a vs : cmd_pre w (KEachAttr a vs) -> visitor_ok vs.
    Proof.
      intros [H1 H2]. split; intro E.
      - destruct (H2 E) as [H _]. cbn in H. apply andb_true_iff in H as [H _]. exact H.
      - specialize (H1 E). cbn in H1. rewrite forallb_forall in H1. apply Forall_forall. exact H1.
    Qed.
    Lemma visitor_okE w a vs : cmd_pre w (KEachElem a vs) -> visitor_ok vs.
    Proof.
      intros [H1 H2]. split; intro E.
      - destruct (H2 E) as [H _]. cbn in H. apply andb_true_iff in H as [H _]. exact H.
      - specialize (H1 E). cbn in H1. rewrite forallb_forall in H1. apply Forall_forall. exact H1.
    Qed.
    Lemma use_ok w b p : cmd_pre w (KUse b p) -> prog_pre w p.
    Proof. intros [H1 H2]. split; intro E; [exact (H1 E)|exact (H2 E)]. Qed.

    Lemma push_ok w (c : cat) o b r (n : string) : is_container c = true -> bok w b -> cont w o -> res c w r ->
      (n <> ""%string -> r <> None) -> (sf = true -> n <> ""%string) -> bok w (Builder r r (Some o :: b_stack b)).
    Proof.
      intros Hc (_ & _ & H3) Ho Hr Hn Hs. unfold bok. cbn. destruct r as [x|].
      - destruct (Hr x eq_refl) as (it & Hg & Hci). split; [exists it; rewrite Hci; auto|]. split; [eauto|].
        constructor; [eauto|exact H3].
      - assert (E : sf = false) by (apply not_true_is_false; intro E; apply (Hn (Hs E)); reflexivity).
        split; [exact E|]. split; [exact E|]. constructor; [eauto|exact H3].
    Qed.

    Lemma step_post w b c : WF w -> hk w -> bok w b -> cmd_pre w c -> post w (step run k okbase use w b c) bok.
    Proof.
      intros HW Hk Hb Hp. pose proof Hb as (Hbc & Hbi & Hbs).
      destruct c as [n v|n|n t d c m|p|l|n t|n v|n args inv|n args inv|n inv| | |catch p|a c n|a c i|a c|a n|a n|a n|a|a b'|a r|a c vs|a|a b'|a q|a q|a vs|a vs]; cbn [step].
      - destruct (b_item b) as [a|] eqn:Eb; [|apply post_ret; exact Hb]. destruct Hbi as (it & Hg). rewrite Hg.
        destruct (nv_set_spec (i_attrs it) n v (l_attrs _ _ _ _ (wf_local _ _ _ w HW _ _ Hg))) as (l & E & _). rewrite E.
        destruct (negb (n =? "")%string && holds w (a, LAttrs)) eqn:Eh.
        { apply andb_true_iff in Eh as [_ Eh]. apply not_true_is_false. intro Ed.
          rewrite holds_hard in Eh; [discriminate|exact Hk|cbn; rewrite Ed; reflexivity]. }
        assert (Hs : steps w (upd w a (set_attrs l))) by (apply steps_one; eapply PAttr; eassumption).
        split; [exact Hs|]. split; [apply bal_upd; intros; split; repeat split|]. first [eapply bok_steps; [exact HW|eassumption|exact Hb] | eapply bok_steps; [exact HW1|eassumption|exact Hb1]].
      - destruct (b_cont b) as [o|] eqn:Eb; [|exact Hbc]. destruct (category w o) as [[]|]; try exact I.
        eapply post_bind; [exact HW|exact Hk|apply create_namespace_post; auto; intro; eapply hard_free; eauto; reflexivity|].
        intros w1 r HW1 Hk1 Hs1 _ [Hr Hn]. apply post_ret. eapply push_ok with (c := Namespace); [reflexivity| | |exact Hr|exact Hn|].
        + first [eapply bok_steps; [exact HW|eassumption|exact Hb] | eapply bok_steps; [exact HW1|eassumption|exact Hb1]].
        + first [eapply cont_steps; [exact HW|eassumption|eassumption] | eapply cont_steps; [exact HW1|eassumption|eassumption]].
        + intro E. apply name_ok. exact (named_of _ _ Hp E).
      - destruct (b_cont b) as [o|] eqn:Eb; [|exact Hbc].
        eapply post_bind; [exact HW|exact Hk|apply create_class_post; auto; intro; eapply hard_free; eauto; reflexivity|].
        intros w1 r HW1 Hk1 Hs1 _ [Hr Hn].
        assert (HN : sf = true -> n <> ""%string) by (intro E; apply name_ok; exact (named_of _ _ Hp E)).
        pose proof (bok_steps _ _ _ HW Hs1 Hb) as Hb1. pose proof (cont_steps _ _ _ HW Hs1 Hbc) as Ho1.
        destruct r as [a|].
        + eapply post_bind; [exact HW1|exact Hk1|apply auto_ctors_post; auto; apply class_cont; apply Hr; reflexivity|].
          intros w2 _ HW2 Hk2 Hs2 _ _. apply post_ret. eapply push_ok with (c := Class) (n := n); [reflexivity| | | |exact Hn|exact HN].
          * first [eapply bok_steps; [exact HW|eassumption|exact Hb] | eapply bok_steps; [exact HW1|eassumption|exact Hb1]].
          * first [eapply cont_steps; [exact HW|eassumption|eassumption] | eapply cont_steps; [exact HW1|eassumption|eassumption]].
          * intros x Hx. eapply has_cat_steps; [exact HW1|eassumption|apply Hr; exact Hx].
        + destruct (d || c || m).
          * apply not_true_is_false; intro E; apply (Hn (HN E)); reflexivity.
          * apply post_ret. eapply push_ok with (c := Class) (n := n); eauto.
      - destruct (b_cont b) as [o|] eqn:Eb; [|exact Hbc]. eapply skip_post; [exact HW|exact Hk|exact Hb|].
        apply set_deferred_post; auto. eapply lazy_ok; eauto.
      - destruct (b_cont b) as [o|] eqn:Eb.
        + unfold category. destruct Hbc as (it & Hg & Hc). rewrite Hg. cbn. destruct (i_cat it) eqn:Ec; try exact I.
          eapply skip_post; [exact HW|exact Hk|exact Hb|]. apply add_bases_post; auto; [exists it; auto|].
          intro; eapply hard_free; eauto; reflexivity.
        + destruct l; [apply post_ret; exact Hb|exact Hbc].
      - destruct (b_cont b) as [o|] eqn:Eb; [|exact Hbc].
        eapply post_bind; [exact HW|exact Hk|apply create_enum_post; auto|].
        intros w1 r HW1 Hk1 Hs1 _ [Hr Hn]. apply post_ret. unfold bok. cbn.
        destruct (bok_steps _ _ _ HW Hs1 Hb) as (B1 & B2 & B3). rewrite Eb in B1. split; [exact B1|]. split; [|exact B3].
        destruct r as [x|].
        + destruct (Hr x eq_refl) as (it & Hg & _). eauto.
        + assert (HN : sf = true -> n <> ""%string) by (intro E; apply name_ok; exact (named_of _ _ Hp E)).
          apply not_true_is_false; intro E; apply (Hn (HN E)); reflexivity.
      - destruct (b_item b) as [a|] eqn:Eb; [|exact Hbi]. destruct Hbi as (it & Hg). rewrite Hg.
        destruct (cat_eqb (i_cat it) Enum) eqn:Ec; [|apply post_ret; exact Hb]. apply cat_eqb_eq in Ec.
        destruct (nv_set_spec (i_elems it) n v (l_elems _ _ _ _ (wf_local _ _ _ w HW _ _ Hg))) as (l & E & _). rewrite E.
        destruct (negb (n =? "")%string && holds w (a, LElems)) eqn:Eh.
        { apply andb_true_iff in Eh as [_ Eh]. apply not_true_is_false. intro Ed.
          rewrite holds_hard in Eh; [discriminate|exact Hk|cbn; rewrite Ed; reflexivity]. }
        assert (Hs : steps w (upd w a (set_elems l))) by (apply steps_one; eapply PElem; eassumption).
        split; [exact Hs|]. split; [apply bal_upd; intros; split; repeat split|]. first [eapply bok_steps; [exact HW|eassumption|exact Hb] | eapply bok_steps; [exact HW1|eassumption|exact Hb1]].
      - destruct (b_cont b) as [o|] eqn:Eb; [|exact Hbc]. destruct (category w o) as [[]|]; try exact I.
        eapply skip_post; [exact HW|exact Hk|exact Hb|]. apply create_ctor_post; auto.
      - destruct (b_cont b) as [o|] eqn:Eb; [|exact Hbc].
        eapply skip_post; [exact HW|exact Hk|exact Hb|]. apply create_method_post; auto. intro; eapply hard_free; eauto; reflexivity.
      - destruct (b_cont b) as [o|] eqn:Eb.
        + eapply skip_post; [exact HW|exact Hk|exact Hb|]. apply create_property_post; auto.
        + destruct (n =? "")%string; [apply post_ret; exact Hb|exact Hbc].
      - destruct (b_stack b) as [|o s] eqn:Eb; [exact I|]. apply post_ret. inversion Hbs as [|? ? (x & -> & Hx) Hs]; subst.
        unfold bok. cbn. split; [exact Hx|]. split; [|exact Hs]. destruct Hx as (it & Hg & _). eauto.
      - split; [constructor|apply bal_refl].
      - pose proof (Huse w p HW Hk (use_ok _ _ _ Hp)) as HU. destruct (use w p) as [w' x|e w'| | | |]; cbn in *; auto.
        + destruct HU as (Hs & Hbal & _). split; [exact Hs|]. split; [exact Hbal|]. first [eapply bok_steps; [exact HW|eassumption|exact Hb] | eapply bok_steps; [exact HW1|eassumption|exact Hb1]].
        + destruct HU as (Hs & Hbal). destruct catch; cbn; auto. split; [exact Hs|]. split; [exact Hbal|]. first [eapply bok_steps; [exact HW|eassumption|exact Hb] | eapply bok_steps; [exact HW1|eassumption|exact Hb1]].
      - apply on_container_post. intro Ha. eapply skip_post; [exact HW|exact Hk|exact Hb|apply get_item_post; auto].
      - apply on_container_post. intro Ha. eapply skip_post; [exact HW|exact Hk|exact Hb|apply get_index_post; auto].
      - apply on_container_post. intro Ha. eapply skip_post; [exact HW|exact Hk|exact Hb|apply get_count_post; auto].
      - apply on_container_post. intro Ha. eapply skip_post; [exact HW|exact Hk|exact Hb|apply get_method_post; auto].
      - apply on_container_post. intro Ha. eapply skip_post; [exact HW|exact Hk|exact Hb|apply get_property_post; auto].
      - apply on_container_post. intro Ha. eapply skip_post; [exact HW|exact Hk|exact Hb|apply find_method_post; auto].
      - apply on_class_post. intro Ha. eapply skip_post; [exact HW|exact Hk|exact Hb|apply bases_query_post; auto].
      - apply on_class_post. intro Ha. apply on_class_post. intro Ha'.
        eapply skip_post; [exact HW|exact Hk|exact Hb|apply inherited_post; auto].
      - apply on_container_post. intro Ha. eapply skip_post; [exact HW|exact Hk|exact Hb|apply force_post; auto].
      - destruct c; try exact I; apply on_container_post; intro Ha;
          (eapply skip_post; [exact HW|exact Hk|exact Hb|apply each_post; auto; eapply each_ok; eauto]).
      - apply on_class_post. intro Ha. eapply skip_post; [exact HW|exact Hk|exact Hb|apply derived_query_post; auto].
      - apply on_class_post. intro Ha. apply on_class_post. intro Ha'.
        eapply skip_post; [exact HW|exact Hk|exact Hb|apply cast_to_post; auto].
      - apply on_item_post. intro Ha. eapply skip_post; [exact HW|exact Hk|exact Hb|apply attr_query_post; auto].
      - apply on_enum_post. intro Ha. eapply skip_post; [exact HW|exact Hk|exact Hb|apply elem_query_post; auto].
      - apply on_item_post. intro Ha. eapply skip_post; [exact HW|exact Hk|exact Hb|apply each_attr_post; auto; eapply visitor_okA; eauto].
      - apply on_enum_post. intro Ha. eapply skip_post; [exact HW|exact Hk|exact Hb|apply each_elem_post; auto; eapply visitor_okE; eauto].
    Qed.

    Lemma exec_with_post p : forall w b, WF w -> hk w -> bok w b -> prog_pre w p ->
      post w (exec_with run k okbase use w b p) bok.
    Proof.
      induction p as [|c p IH]; intros w b HW Hk Hb Hp; [apply post_ret; exact Hb|]. cbn [exec_with].
      assert (HC : cmd_pre w c).
      { destruct Hp as [H1 H2]. split; intro E.
        - specialize (H1 E). rewrite all_prog_cons in H1. apply andb_true_iff in H1 as [H1 _]. exact H1.
        - destruct (H2 E) as [H3 H4]. rewrite all_prog_cons in H3, H4. apply andb_true_iff in H3 as [H3 _].
          split; [exact H3|]. destruct H4 as [H4|H4]; [left; exact H4|right]. apply andb_true_iff in H4 as [H4 _]. exact H4. }
      eapply post_bind; [exact HW|exact Hk|apply step_post; eassumption|].
      intros w1 b1 HW1 Hk1 Hs1 Hbal1 Hb1. apply IH; auto. destruct Hp as [H1 H2]. split; intro E.
      - specialize (H1 E). rewrite all_prog_cons in H1. apply andb_true_iff in H1 as [_ H1]. exact H1.
      - destruct (H2 E) as [H3 H4]. rewrite all_prog_cons in H3, H4. apply andb_true_iff in H3 as [_ H3].
        split; [exact H3|]. rewrite (proj1 Hbal1). destruct H4 as [H4|H4]; [left; exact H4|right]. apply andb_true_iff in H4 as [_ H4]. exact H4.
    Qed.
  End Run.

  Lemma run_none k n w : run k okbase n w 0 [] = Ret w tt \/ run k okbase n w 0 [] = Fuel.
  Proof. destruct n; cbn; auto. Qed.

  Lemma run_post k n : forall w a p, WF w -> hk w -> cont w a -> prog_pre w p ->
    post w (run k okbase n w a p) (fun _ _ => True).
  Proof.
    induction n as [|n IH]; intros w a p HW Hk Ha Hp; [exact I|]. cbn [run].
    eapply post_bind; [exact HW|exact Hk| |intros; apply post_ret; exact I].
    apply exec_with_post; auto.
    - intro w1. apply run_none.
    - intros w1 p1 HW1 Hk1 Hp1. apply IH; auto. destruct (wf_global _ _ _ w1 HW1) as (it & Hg & Hc & _). exists it. rewrite Hc. auto.
    - unfold bok, on. cbn. split; [exact Ha|]. split; [|constructor]. destruct Ha as (it & Hg & _). eauto.
  Qed.

  Lemma use_post k n w p : WF w -> hk w -> prog_pre w p -> post w (run k okbase n w 0 p) (fun _ _ => True).
  Proof.
    intros HW Hk Hp. apply run_post; auto. destruct (wf_global _ _ _ w HW) as (it & Hg & Hc & _). exists it. rewrite Hc. auto.
  Qed.

  Lemma exec_post k n w b p : WF w -> hk w -> bok w b -> prog_pre w p ->
    post w (exec k okbase n w b p) bok.
  Proof.
    intros HW Hk Hb Hp. unfold exec. apply exec_with_post; auto.
    - intro w1. apply run_none.
    - intros. apply run_post; assumption.
    - intros. apply use_post; assumption.
  Qed.
End Flags.
