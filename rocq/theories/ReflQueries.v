(** Proofs about the queries for attributes, elements and casts (C09, C15). *)
From Coq Require Import List Bool Arith String Ascii Lia.
From Verif Require Import Util RegistryModel RegistryProofs ListsModel ListsSpec ListsProofs StringsModel StringsSpec StringsProofs.
From Verif Require Import ReflModel ReflSpec ReflProofs ReflExec ReflMono ReflTerm ReflMore.
From Verif Require Import ReflBuilder.
Import ListNotations.
Local Open Scope list_scope.

(** ** Attributes and elements *)

Lemma nth_map_def {A B} (f : A -> B) l i d : nth i (map f l) d = match nth_error l i with Some x => f x | None => d end.
Proof. revert i. induction l as [|x l IH]; intros [|i]; cbn; auto. Qed.
Lemma assoc_find n (l : list (string * nat)) :
  assoc String.eqb n l = match find (fun p => String.eqb n (fst p)) l with Some p => Some (snd p) | None => None end.
Proof. induction l as [|[m v] l IH]; cbn; [reflexivity|]. destruct (String.eqb n m); [reflexivity|exact IH]. Qed.

Lemma nv_ask_told (l : nvlist nat) q : nv_ok l -> nv_ask l q = told (nv_items l) q.
Proof.
  intro Hok. destruct q as [|i|i|n]; cbn.
  - reflexivity.
  - unfold nv_get. rewrite nth_map_def. reflexivity.
  - unfold nv_name. rewrite nth_map_def. reflexivity.
  - rewrite (nv_find_val 0 l n Hok). unfold val. rewrite assoc_find. destruct (find _ _); reflexivity.
Qed.

Lemma set_value_split (l : list (string * nat)) i n u v : nth_error l i = Some (n, u) ->
  exists l1 l2, l = l1 ++ (n, u) :: l2 /\ set_value i v l = l1 ++ (n, v) :: l2.
Proof.
  revert i. induction l as [|[m x] l IH]; intros [|i] H; cbn in H; try discriminate.
  - injection H as -> ->. exists [], l. split; reflexivity.
  - destruct (IH i H) as (l1 & l2 & -> & E). exists ((m, x) :: l1), l2. split; [reflexivity|]. cbn. rewrite E. reflexivity.
Qed.
Lemma nv_set_given (l l' : nvlist nat) n v : nv_ok l -> n <> ""%string -> nv_set l n v = Some l' -> given (nv_items l) (nv_items l') n v.
Proof.
  intros Hok Hn E. destruct (nv_set_spec l n v Hok) as (l2 & E2 & _ & Hc). rewrite E in E2. injection E2 as <-.
  destruct Hc as [[-> _]|[(_ & Hni & H)|(i & u & _ & Hi & H)]]; [congruence|left; auto|].
  right. rewrite H. destruct (set_value_split (nv_items l) i n u v Hi) as (l1 & l2 & -> & E1). exists l1, u, l2. auto.
Qed.

Section Asking.
  Variable ok : nat -> nat -> bool.
  Variables k n : nat.
  Notation run := (run k ok n).

  Lemma check_item_idle w a it : get w a = Some it -> i_def it = None \/ i_lock it = true -> check_item run w a = Ret w tt.
  Proof.
    intros Hg Hi. unfold check_item. rewrite Hg. destruct (is_container (i_cat it)); [|reflexivity].
    apply check_idle. exists it. auto.
  Qed.
  Lemma attr_query_ok w a it q : nv_ok (i_attrs it) -> get w a = Some it -> i_def it = None \/ i_lock it = true ->
    exists w', attr_query run w a q = Ret w' (told (nv_items (i_attrs it)) q) /\ same w w'.
  Proof.
    intros Hok Hg Hi. exists (touch w (a, LAttrs)). split; [|apply same_touch].
    unfold attr_query. rewrite (check_item_idle w a it Hg Hi). cbn [bind]. rewrite Hg, (nv_ask_told _ q Hok). reflexivity.
  Qed.
  Lemma elem_query_ok w a it q : nv_ok (i_elems it) -> get w a = Some it ->
    exists w', elem_query w a q = Ret w' (told (nv_items (i_elems it)) q) /\ same w w'.
  Proof.
    intros Hok Hg. exists (touch w (a, LElems)). split; [|apply same_touch].
    unfold elem_query. rewrite Hg, (nv_ask_told _ q Hok). reflexivity.
  Qed.
  Lemma attr_query_told w a it q : reachable ok w -> get w a = Some it -> i_def it = None \/ i_lock it = true ->
    exists w', attr_query run w a q = Ret w' (told (nv_items (i_attrs it)) q) /\ same w w'.
  Proof.
    intros HR Hg. destruct (reachable_wf ok w HR) as [HW _]. apply attr_query_ok; [|exact Hg].
    exact (l_attrs _ _ _ _ (wf_local _ _ _ _ HW a it Hg)).
  Qed.
  Lemma elem_query_told w a it q : reachable ok w -> get w a = Some it ->
    exists w', elem_query w a q = Ret w' (told (nv_items (i_elems it)) q) /\ same w w'.
  Proof.
    intros HR Hg. destruct (reachable_wf ok w HR) as [HW _]. apply elem_query_ok; [|exact Hg].
    exact (l_elems _ _ _ _ (wf_local _ _ _ _ HW a it Hg)).
  Qed.

  Lemma told_same l l' : (forall q, told l q = told l' q) -> l = l'.
  Proof.
    intro H. assert (Hl : List.length l = List.length l') by (pose proof (H QCount) as E; injection E; auto).
    assert (H1 : map fst l = map fst l').
    { apply (nth_ext _ _ ""%string ""%string); [rewrite !map_length; exact Hl|]. intros i _. pose proof (H (QNameAt i)) as E. injection E. auto. }
    assert (H2 : map snd l = map snd l').
    { apply (nth_ext _ _ 0 0); [rewrite !map_length; exact Hl|]. intros i _. pose proof (H (QAt i)) as E. injection E. auto. }
    clear H Hl. revert l' H1 H2. induction l as [|[a v] l IH]; intros [|[a' v'] l'] H1 H2; try discriminate; [reflexivity|].
    cbn in H1, H2. injection H1 as -> H1. injection H2 as -> H2. rewrite (IH l' H1 H2). reflexivity.
  Qed.
  Lemma attributes_items w a it l : reachable ok w -> get w a = Some it -> i_def it = None \/ i_lock it = true ->
    (has_attributes ok k n w a l <-> l = nv_items (i_attrs it)).
  Proof.
    intros HR Hg Hi. split.
    - intro H. apply told_same. intro q. destruct (H q) as (w1 & E & _). destruct (attr_query_told w a it q HR Hg Hi) as (w2 & E2 & _). congruence.
    - intros ->. intro q. apply attr_query_told; assumption.
  Qed.
  Lemma elements_items w a it l : reachable ok w -> get w a = Some it ->
    (has_elements w a l <-> l = nv_items (i_elems it)).
  Proof.
    intros HR Hg. split.
    - intro H. apply told_same. intro q. destruct (H q) as (w1 & E & _). destruct (elem_query_told w a it q HR Hg) as (w2 & E2 & _). congruence.
    - intros ->. intro q. apply elem_query_told; assumption.
  Qed.

  Lemma set_attr_exec w b a it nm v : reachable ok w -> b_item b = Some a -> get w a = Some it -> nm <> ""%string ->
    if holds w (a, LAttrs) then exec k ok n w b [KAttr nm v] = Deadlock
    else exists l, exec k ok n w b [KAttr nm v] = Ret (upd w a (set_attrs l)) b /\ nv_ok l /\ given (nv_items (i_attrs it)) (nv_items l) nm v.
  Proof.
    intros HR Hb Hg Hn. destruct (reachable_wf ok w HR) as [HW _]. pose proof (l_attrs _ _ _ _ (wf_local _ _ _ _ HW a it Hg)) as Hok.
    unfold exec, exec_with. cbn [step]. rewrite Hb, Hg. pose proof Hn as Hn'. apply String.eqb_neq in Hn'. rewrite Hn'. cbn [negb andb].
    destruct (holds w (a, LAttrs)); [reflexivity|]. destruct (nv_set_spec (i_attrs it) nm v Hok) as (l & E & Hl & _). rewrite E.
    exists l. split; [reflexivity|]. split; [exact Hl|]. eapply nv_set_given; eauto.
  Qed.
  Lemma set_elem_exec w b a it nm v : reachable ok w -> b_item b = Some a -> get w a = Some it -> i_cat it = Enum -> nm <> ""%string ->
    if holds w (a, LElems) then exec k ok n w b [KElement nm v] = Deadlock
    else exists l, exec k ok n w b [KElement nm v] = Ret (upd w a (set_elems l)) b /\ nv_ok l /\ given (nv_items (i_elems it)) (nv_items l) nm v.
  Proof.
    intros HR Hb Hg Hc Hn. destruct (reachable_wf ok w HR) as [HW _]. pose proof (l_elems _ _ _ _ (wf_local _ _ _ _ HW a it Hg)) as Hok.
    unfold exec, exec_with. cbn [step]. rewrite Hb, Hg, Hc. cbn [cat_eqb]. pose proof Hn as Hn'. apply String.eqb_neq in Hn'. rewrite Hn'. cbn [negb andb].
    destruct (holds w (a, LElems)); [reflexivity|]. destruct (nv_set_spec (i_elems it) nm v Hok) as (l & E & Hl & _). rewrite E.
    exists l. split; [reflexivity|]. split; [exact Hl|]. eapply nv_set_given; eauto.
  Qed.

  (** ** Casts *)

  Lemma way_extends w w' a b fs : extends w w' -> way w a b fs -> way w' a b fs.
  Proof.
    intros [H1 H2] H. induction H as [a|a it t f d b fs Hg Hin Hc _ IH]; [constructor|].
    destruct (H1 a it Hg) as (it' & Hg' & G). eapply way_up; [exact Hg'| |apply H2; exact Hc|exact IH].
    destruct (g_bases _ _ G) as (r & ->). apply in_or_app. left. exact Hin.
  Qed.
  Lemma way_snd w w' a b fs : w_items w' = w_items w -> w_class w' = w_class w -> way w a b fs -> way w' a b fs.
  Proof.
    intros E1 E2 H. induction H as [a|a it t f d b fs Hg Hin Hc _ IH]; [constructor|].
    eapply way_up; [unfold get; rewrite E1; exact Hg|exact Hin|unfold class_of; rewrite E2; exact Hc|exact IH].
  Qed.
  Lemma way_one w a b fs : way w a b fs -> up w a b.
  Proof. induction 1; [constructor|eapply up_step; eauto]. Qed.
  Lemma up_way w a b : up w a b -> exists fs, way w a b fs.
  Proof. induction 1 as [a|a it t f b c Hg Hin Hc _ [fs IH]]; [exists []; constructor|]. exists (f :: fs). eapply way_up; eauto. Qed.

  Lemma cast_way : forall j w a b, WF false false ok w -> hk false w -> has_cat Class w a ->
    post false false ok w (cast_to run k j w a b) (fun w' r => forall fs, r = Some fs -> way w' a b fs).
  Proof.
    assert (Hrun : forall w a p, WF false false ok w -> hk false w -> cont w a -> prog_pre false false w p ->
      post false false ok w (run w a p) (fun _ _ => True)) by (intros; apply run_post; assumption).
    induction j as [|j IH]; intros w a b HW Hk Ha; [exact I|]. cbn [cast_to]. destruct (a =? b) eqn:Eab.
    { apply Nat.eqb_eq in Eab. subst b. apply post_ret. intros fs [= <-]. constructor. }
    eapply post_bind; [exact HW|exact Hk|eapply check_post; eauto using class_cont|].
    intros w1 x HW1 Hk1 Hs Hb _. destruct (has_cat_steps _ _ _ _ _ _ _ HW Hs Ha) as (it & Hg & _). rewrite Hg.
    apply holding_post; [exact HW1|exact Hk1|reflexivity| |].
    2:{ intros w2 r _ H fs Hf. eapply way_snd; [| |apply H; exact Hf]; reflexivity. }
    intros w2 HW2 Hk2 Hs2 Ei Ec.
    assert (HB : forall t, In t (map fst (i_bases it)) -> class_of w2 t <> None).
    { intros t Ht. apply (wf_base _ _ _ _ HW2 a it t); [|exact Ht]. unfold get. rewrite Ei. exact Hg. }
    assert (HI : forall p, In p (i_bases it) -> exists it2, get w2 a = Some it2 /\ In p (i_bases it2)).
    { intros p Hp. exists it. split; [unfold get; rewrite Ei; exact Hg|exact Hp]. }
    clear Hs Hb Hg Ei Ec Hs2 HW1 Hk1. revert w2 HW2 Hk2 HB HI. generalize (i_bases it).
    induction l as [|[t f] l IHl]; intros w2 HW2 Hk2 HB HI; [apply post_ret; discriminate|].
    destruct (class_of w2 t) as [d|] eqn:Eb; [|exfalso; apply (HB t); [left; reflexivity|exact Eb]].
    destruct (wf_class1 _ _ _ _ HW2 t d Eb) as (bt & Hgb & Hcb & _).
    assert (Hd : has_cat Class w2 d) by (exists bt; auto).
    eapply post_bind; [exact HW2|exact Hk2|eapply inherited_post; eauto|].
    intros w3 r HW3 Hk3 Hs3 Hb3 _. destruct r.
    - eapply post_bind; [exact HW3|exact Hk3|apply IH; auto; eapply has_cat_steps; [exact HW2|exact Hs3|exact Hd]|].
      intros w4 r HW4 Hk4 Hs4 Hb4 Hr. apply post_ret. intros fs Hf. destruct r as [gs|]; [|discriminate]. injection Hf as <-.
      destruct (HI (t, f) (or_introl eq_refl)) as (it2 & Hg2 & Hin).
      assert (Hs24 : steps false false ok w2 w4) by (eapply steps_trans; eauto).
      destruct (steps_extends _ _ _ _ _ HW2 Hs24) as [X1 X2]. destruct (X1 a it2 Hg2) as (it4 & Hg4 & G).
      eapply way_up; [exact Hg4| |apply X2; exact Eb|apply Hr; reflexivity].
      destruct (g_bases _ _ G) as (r & ->). apply in_or_app. left. exact Hin.
    - destruct (steps_extends _ _ _ _ _ HW2 Hs3) as [X1 X2].
      apply IHl; [exact HW3|exact Hk3| |].
      + intros t' Ht'. destruct (class_of w2 t') as [b'|] eqn:E'.
        * rewrite (X2 _ _ E'). discriminate.
        * exfalso. apply (HB t'); [right; exact Ht'|exact E'].
      + intros p Hp. destruct (HI p (or_intror Hp)) as (it2 & Hg2 & Hin). destruct (X1 a it2 Hg2) as (it3 & Hg3 & G).
        exists it3. split; [exact Hg3|]. destruct (g_bases _ _ G) as (r & ->). apply in_or_app. left. exact Hin.
  Qed.
End Asking.
