(** Defining properties and methods of classes while lazy definitions are waiting, in any reachable registry (C12). *)
From Coq Require Import List Bool Arith Lia String.
From Verif Require Import ListsModel ListsSpec ListsProofs StringsModel StringsSpec StringsProofs ReflModel ReflSpec ReflProofs ReflExec ReflMore.
Import ListNotations.
Local Open Scope list_scope.

Lemma up_extends w w' a b : extends w w' -> up w a b -> up w' a b.
Proof.
  intros HE H. induction H as [a|a it t f b c Hg Hin Hc _ IH]; [constructor|].
  destruct (proj1 HE a it Hg) as (it' & Hg' & G). eapply up_step; [exact Hg'| |apply (proj2 HE); exact Hc|exact IH].
  destruct (g_bases _ _ G) as [r ->]. apply in_or_app. left. exact Hin.
Qed.
Lemma owns_extends w w' a c n x : extends w w' -> owns w a c n x -> owns w' a c n x.
Proof.
  intros HE (i & xt & He & Hx & Hn). destruct (proj1 HE x xt Hx) as (xt' & Hx' & G). exists i, xt'.
  split; [eapply entry_extends; eauto|]. split; [exact Hx'|]. rewrite (g_name _ _ G). exact Hn.
Qed.

Section Wait.
  Variable ok : nat -> nat -> bool.
  Variable run : world -> nat -> prog -> out unit.
  Variable k : nat.
  Hypothesis Hrun : forall w a p, WF false false ok w -> hk false w -> cont w a -> prog_pre false false w p ->
    post false false ok w (run w a p) (fun _ _ => True).
  Notation WF := (WF false false ok).
  Notation post := (post false false ok).
  Notation steps := (steps false false ok).

  (** What a search finds belongs to the class or to a class above it. *)
  Lemma dfs_above (own : world -> nat -> out (option nat)) (P : world -> nat -> nat -> Prop) :
    (forall w w' b x, WF w -> steps w w' -> P w b x -> P w' b x) ->
    (forall w a, WF w -> hk false w -> has_cat Class w a -> post w (own w a) (fun w' r => forall x, r = Some x -> P w' a x)) ->
    forall m w a, WF w -> hk false w -> has_cat Class w a ->
    post w (dfs own m w a) (fun w' r => forall x, r = Some x -> exists b, up w' a b /\ P w' b x).
  Proof.
    intros HP Hown. induction m as [|m IH]; intros w a HW Hk Ha; [exact I|]. cbn [dfs].
    eapply post_bind; [exact HW|exact Hk|apply Hown; assumption|].
    intros w1 r HW1 Hk1 Hs Hb Hr. destruct r as [x|].
    { apply post_ret. intros y Hy. exists a. split; [constructor|apply Hr; exact Hy]. }
    pose proof (has_cat_steps _ _ _ _ _ _ _ HW Hs Ha) as Ha1. destruct Ha1 as (it & Hg & Hc). rewrite Hg.
    apply holding_post; [exact HW1|exact Hk1|reflexivity| |].
    - intros w2 HW2 Hk2 Hs2 Ei Ec.
      assert (HB : forall t, In t (map fst (i_bases it)) -> class_of w2 t <> None).
      { intros t Ht. apply (wf_base _ _ _ _ HW2 a it t); [|exact Ht]. unfold get. rewrite Ei. exact Hg. }
      assert (HI : exists it2, get w2 a = Some it2 /\ incl (i_bases it) (i_bases it2)).
      { exists it. split; [unfold get; rewrite Ei; exact Hg|apply incl_refl]. }
      clear Hs Hb Hg Hr Ei Ec Hs2 HW1 Hk1. revert w2 HW2 Hk2 HB HI. generalize (i_bases it).
      induction l as [|[t f] l IHl]; intros w2 HW2 Hk2 HB HI.
      + apply post_ret. intros x Hx. discriminate.
      + destruct (class_of w2 t) as [b|] eqn:Eb; [|exfalso; apply (HB t); [left; reflexivity|exact Eb]].
        destruct (wf_class1 _ _ _ _ HW2 t b Eb) as (bt & Hgb & Hcb & _).
        eapply post_bind; [exact HW2|exact Hk2|apply IH; [assumption|assumption|exists bt; auto]|].
        intros w3 r HW3 Hk3 Hs3 Hb3 Hr3. pose proof (steps_extends _ _ _ _ _ HW2 Hs3) as HE. destruct HI as (it2 & Hg2 & HI).
        destruct (proj1 HE a it2 Hg2) as (it3 & Hg3 & G).
        assert (HI3 : incl ((t, f) :: l) (i_bases it3)).
        { intros z Hz. destruct (g_bases _ _ G) as [q ->]. apply in_or_app. left. apply HI. exact Hz. }
        destruct r as [x|].
        * apply post_ret. intros y Hy. destruct (Hr3 y Hy) as (b' & Hu & HPb). exists b'. split; [|exact HPb].
          eapply up_step; [exact Hg3|apply HI3; left; reflexivity|apply (proj2 HE); exact Eb|exact Hu].
        * apply IHl; [exact HW3|exact Hk3| |].
          -- intros t' Ht'. destruct (class_of w2 t') as [b'|] eqn:E'.
             ++ rewrite (proj2 HE _ _ E'). discriminate.
             ++ exfalso. apply (HB t'); [right; exact Ht'|exact E'].
          -- exists it3. split; [exact Hg3|]. intros z Hz. apply HI3. right. exact Hz.
    - intros w' r HW' H x Hx. destruct (H x Hx) as (b & Hu & HPb). exists b. split.
      + eapply up_extends; [|exact Hu]. eapply steps_extends; [exact HW'|]. apply steps_one. apply PLocks.
      + eapply HP; [exact HW'| |exact HPb]. apply steps_one. apply PLocks.
  Qed.

  (** What a look-up of own members finds, and when it finds it. *)
  Record looks (own : world -> nat -> out (option nat)) (c : cat) (n : string) : Prop := Looks {
    lk_check : forall w a w' r, own w a = Ret w' r -> exists w1, check run w a = Ret w1 tt /\ same w1 w';
    lk_some : forall w a w1 x, WF w -> hk false w -> cont w a -> check run w a = Ret w1 tt -> owns w1 a c n x ->
      exists w', own w a = Ret w' (Some x) /\ same w1 w';
    lk_post : forall w a, WF w -> hk false w -> cont w a -> post w (own w a) (fun w' r => forall x, r = Some x -> owns w' a c n x) }.

  Lemma owns_steps w w' b c n x : WF w -> steps w w' -> owns w b c n x -> owns w' b c n x.
  Proof. intros HW Hs. apply owns_extends. eapply steps_extends; eauto. Qed.

  Lemma create_waiting own c n t inv w o w' r : looks own c n -> c <> Class -> WF w -> hk false w -> has_cat Class w o ->
    create (fun w => dfs own k w o) o (fresh c n (Some o) t inv) w = Ret w' r ->
    exists w1 r1, dfs own k w o = Ret w1 r1 /\
      match r1 with
      | Some x => r = Some x /\ w' = w1 /\ exists b, up w1 o b /\ owns w1 b c n x
      | None =>
          ((forall x, ~ owns w1 o c n x) /\ r = Some (List.length (w_items w1)) /\ appended w1 w' o c n t inv) \/
          (exists x w2, owns w1 o c n x /\ r = Some x /\ check run w1 o = Ret w2 tt /\ same w2 w')
      end.
  Proof.
    intros HL Hc HW Hk Ho E. unfold create in E.
    assert (HD : post w (dfs own k w o) (fun w' r => forall x, r = Some x -> exists b, up w' o b /\ owns w' b c n x)).
    { apply dfs_above; auto.
      - intros w1 w2 b x. apply owns_steps.
      - intros w1 a HW1 Hk1 Ha1. apply (lk_post _ _ _ HL); auto using class_cont. }
    destruct (dfs own k w o) as [w1 r1|e w1| | | |] eqn:ED; try discriminate. exists w1, r1. split; [reflexivity|].
    cbn [bind] in E. destruct HD as (Hs & Hb & HD). destruct r1 as [x|].
    { injection E as <- <-. split; [reflexivity|]. split; [reflexivity|]. apply HD. reflexivity. }
    assert (HW1 : WF w1) by (eapply steps_wf; eauto). assert (Hk1 : hk false w1) by (eapply bal_hk; eauto).
    pose proof (has_cat_steps _ _ _ _ _ _ _ HW Hs Ho) as Ho1. pose proof Ho1 as (ow & Hg & Hco).
    pose proof (add_new_case w1 o ow (fresh c n (Some o) t inv) Hg) as HA.
    destruct (add_new w1 o (fresh c n (Some o) t inv)) as [w3 id| |] eqn:EA; [| |discriminate].
    - injection E as <- <-. left. split; [|].
      { intros x Hx. eapply refused'; eauto. }
      destruct HA as (_ & -> & l & -> & Hadd). split; [reflexivity|]. eapply appended_new; eauto.
    - right. assert (HX : exists x, owns w1 o c n x).
      { destruct (in_dec string_dec n (map (names w1) (ml_items (i_list ow c)))) as [Hin|Hni].
        - apply in_map_iff in Hin as (x & Hn & Hx). exists x. apply (owns_in ok w1 o ow c n x HW1 Hg). auto.
        - exfalso. eapply not_refused'; [exact HW1|exact Hg| |exact EA]. intros x Hx. apply Hni.
          apply (owns_in ok w1 o ow c n x HW1 Hg) in Hx as [Hx Hn]. apply in_map_iff. exists x. auto. }
      destruct HX as (x & Hx). destruct k as [|m]; [discriminate|]. cbn [dfs] in E.
      destruct (own w1 o) as [w2 r2|e w2| | | |] eqn:EO; try discriminate.
      destruct (lk_check _ _ _ HL w1 o w2 r2 EO) as (w2' & EC & HS2).
      assert (Hoc : cont w1 o) by (apply class_cont; exact Ho1).
      pose proof (check_post false false ok run Hrun w1 o HW1 Hk1 Hoc) as HCP. rewrite EC in HCP. destruct HCP as (Hs2 & _ & _).
      destruct (lk_some _ _ _ HL w1 o w2' x HW1 Hk1 Hoc EC (owns_steps _ _ _ _ _ _ HW1 Hs2 Hx)) as (w2'' & EO' & HS').
      rewrite EO in EO'. injection EO' as <- ->. cbn [bind] in E. injection E as <- <-. exists x, w2'. auto.
  Qed.

  (** An own member is given without looking further. *)
  Lemma create_waiting_own own c n t inv w o w1 x w' r : looks own c n -> WF w -> hk false w -> has_cat Class w o ->
    check run w o = Ret w1 tt -> owns w1 o c n x ->
    create (fun w => dfs own k w o) o (fresh c n (Some o) t inv) w = Ret w' r -> r = Some x /\ same w1 w'.
  Proof.
    intros HL HW Hk Ho EC Hx E. unfold create in E. destruct k as [|m]; [discriminate|]. cbn [dfs] in E.
    destruct (lk_some _ _ _ HL w o w1 x HW Hk (class_cont _ _ Ho) EC Hx) as (w2 & EO & HS).
    rewrite EO in E. cbn [bind] in E. injection E as <- <-. auto.
  Qed.

  Lemma looks_item c n : n <> ""%string -> looks (fun w a => get_item run w a c n) c n.
  Proof.
    intro Hn. constructor.
    - intros w a w' r E. unfold get_item in E. destruct (check run w a) as [w1 []|e w1| | | |] eqn:EC; try discriminate.
      exists w1. split; [reflexivity|]. injection E as <- _. apply same_touch.
    - intros w a w1 x HW Hk Hc EC Hx. destruct (check_inv ok run Hrun w a w1 HW Hk Hc EC) as (HW1 & _ & (ow & Hg & _) & _).
      unfold get_item. rewrite EC. cbn [bind]. unfold list_of. rewrite Hg.
      apply (find_owns ok w1 a ow c n x HW1 Hg Hn) in Hx. rewrite Hx. eexists. split; [reflexivity|apply same_touch].
    - intros w a HW Hk Hc. unfold get_item. eapply post_bind; [exact HW|exact Hk|apply check_post; assumption|].
      intros w1 _ HW1 Hk1 Hs Hb _. split; [apply touch_steps|]. split; [apply touch_bal|]. intros x Hx.
      destruct (cont_steps _ _ _ _ _ _ HW Hs Hc) as (ow & Hg & _). unfold list_of in Hx. rewrite Hg in Hx.
      apply (find_owns ok w1 a ow c n x HW1 Hg Hn) in Hx. exact Hx.
  Qed.
  Lemma looks_method nm args : let sig := str (signature (txt nm) args) in looks (fun w a => find_method run w a Method sig) Method sig.
  Proof.
    intro sig. assert (Hq : txt sig = signature (txt nm) args) by apply txt_str.
    assert (Hn : sig <> ""%string).
    { intro H. pose proof (signature_has_paren (txt nm) args) as HP. rewrite <- Hq, H in HP. destruct HP. }
    constructor.
    - intros w a w' r E. unfold find_method in E. destruct (check run w a) as [w1 []|e w1| | | |] eqn:EC; try discriminate.
      exists w1. split; [reflexivity|]. cbn [bind] in E. destruct (findMethod _ _ _); try discriminate; injection E as <- _; apply same_touch.
    - intros w a w1 x HW Hk Hc EC Hx. destruct (check_inv ok run Hrun w a w1 HW Hk Hc EC) as (HW1 & _ & (ow & Hg & _) & _).
      destruct (find_method_eq run w a Method sig w1 ow EC Hg) as [(y & E1 & Hy)|[E1 Hy]]; rewrite Hq in Hy.
      + rewrite E1. exists (touch w1 (a, LList Method)). split; [|apply same_touch].
        apply (answering_sig ok w1 a ow Method (txt nm) args y HW1 Hg) in Hy. fold sig in Hy.
        apply (find_owns ok w1 a ow Method sig x HW1 Hg Hn) in Hx. apply (find_owns ok w1 a ow Method sig y HW1 Hg Hn) in Hy. congruence.
      + exfalso. apply (Hy x). apply (answering_sig ok w1 a ow Method (txt nm) args x HW1 Hg). exact Hx.
    - intros w a HW Hk Hc. pose proof (check_post false false ok run Hrun w a HW Hk Hc) as HP.
      destruct (check run w a) as [w1 []|e w1| | | |] eqn:EC; try (unfold find_method; rewrite EC; exact HP).
      destruct HP as (Hs & Hb & _). pose proof (steps_wf _ _ _ _ _ HW Hs) as HW1.
      destruct (cont_steps _ _ _ _ _ _ HW Hs Hc) as (ow & Hg & _).
      destruct (find_method_eq run w a Method sig w1 ow EC Hg) as [(y & E1 & Hy)|[E1 Hy]]; rewrite E1, Hq in *.
      + split; [eapply steps_trans; [exact Hs|apply touch_steps]|]. split; [eapply bal_trans; [exact Hb|apply touch_bal]|].
        intros x [= <-]. apply (answering_sig ok w1 a ow Method (txt nm) args y HW1 Hg) in Hy. exact Hy.
      + split; [eapply steps_trans; [exact Hs|apply touch_steps]|]. split; [eapply bal_trans; [exact Hb|apply touch_bal]|]. discriminate.
  Qed.

  (** The look-up of a class is this search. *)
  Lemma get_property_dfs n w o : n <> ""%string -> has_cat Class w o ->
    get_property run k w o n = dfs (fun w a => get_item run w a Property n) k w o.
  Proof. intros Hn (ow & Hg & Hc). unfold get_property. rewrite Hg, Hc. cbn. apply String.eqb_neq in Hn. rewrite Hn. reflexivity. Qed.
  Lemma get_method_dfs n w o : n <> ""%string -> has_cat Class w o ->
    get_method run k w o n = dfs (fun w a => find_method run w a Method n) k w o.
  Proof. intros Hn (ow & Hg & Hc). unfold get_method. apply String.eqb_neq in Hn. rewrite Hn, Hg, Hc. reflexivity. Qed.
  Lemma create_ext own look o it w : WF w -> hk false w -> has_cat Class w o ->
    (forall w a, WF w -> hk false w -> has_cat Class w a -> post w (own w a) (fun _ _ => True)) ->
    (forall w, has_cat Class w o -> look w = dfs own k w o) ->
    create look o it w = create (fun w => dfs own k w o) o it w.
  Proof.
    intros HW Hk Ho Hown HE. unfold create. rewrite (HE w Ho).
    assert (HD : post w (dfs own k w o) (fun _ _ => True)).
    { eapply post_weaken; [apply (dfs_above own (fun _ _ _ => True)); auto|auto].
      intros w1 a HW1 Hk1 Ha1. eapply post_weaken; [apply Hown; assumption|auto]. }
    destruct (dfs own k w o) as [w1 r1|e w1| | | |]; try reflexivity. cbn [bind]. destruct r1; [reflexivity|].
    destruct (add_new w1 o it); try reflexivity. apply HE. destruct HD as (Hs & _). eapply has_cat_steps; eauto.
  Qed.

  Lemma create_property_waiting n inv w o w' r : n <> ""%string -> WF w -> hk false w -> has_cat Class w o ->
    create_property run k w o n inv = Ret w' r ->
    (exists w1 r1, get_property run k w o n = Ret w1 r1 /\
      match r1 with
      | Some x => r = Some x /\ w' = w1 /\ exists b, up w1 o b /\ owns w1 b Property n x
      | None =>
          ((forall x, ~ owns w1 o Property n x) /\ r = Some (List.length (w_items w1)) /\ appended w1 w' o Property n 0 inv) \/
          (exists x w2, owns w1 o Property n x /\ r = Some x /\ check run w1 o = Ret w2 tt /\ same w2 w')
      end) /\
    (forall w1 x, check run w o = Ret w1 tt -> owns w1 o Property n x -> r = Some x /\ same w1 w').
  Proof.
    intros Hn HW Hk Ho E. unfold create_property in E. apply String.eqb_neq in Hn as Hn'. rewrite Hn' in E.
    pose proof (looks_item Property n Hn) as HL.
    rewrite (create_ext (fun w a => get_item run w a Property n)) in E; auto.
    - split.
      + rewrite (get_property_dfs n w o Hn Ho). eapply create_waiting; eauto. discriminate.
      + intros w1 x EC Hx. eapply create_waiting_own; eauto.
    - intros w1 a HW1 Hk1 Ha1. eapply post_weaken; [apply (lk_post _ _ _ HL); auto using class_cont|auto].
    - intros w1 Ho1. apply get_property_dfs; assumption.
  Qed.
  Lemma create_method_waiting nm args inv w o w' r : WF w -> hk false w -> has_cat Class w o ->
    create_method run k w o nm args inv = Ret w' r ->
    let sig := str (signature (txt nm) args) in
    (exists w1 r1, get_method run k w o sig = Ret w1 r1 /\
      match r1 with
      | Some x => r = Some x /\ w' = w1 /\ exists b, up w1 o b /\ owns w1 b Method sig x
      | None =>
          ((forall x, ~ owns w1 o Method sig x) /\ r = Some (List.length (w_items w1)) /\ appended w1 w' o Method sig 0 inv) \/
          (exists x w2, owns w1 o Method sig x /\ r = Some x /\ check run w1 o = Ret w2 tt /\ same w2 w')
      end) /\
    (forall w1 x, check run w o = Ret w1 tt -> owns w1 o Method sig x -> r = Some x /\ same w1 w').
  Proof.
    intros HW Hk Ho E sig. unfold create_method in E. fold sig in E.
    assert (Hn : sig <> ""%string).
    { intro H. pose proof (signature_has_paren (txt nm) args) as HP. rewrite <- (txt_str (signature (txt nm) args)) in HP. fold sig in HP.
      rewrite H in HP. destruct HP. }
    pose proof (looks_method nm args) as HL. cbn zeta in HL. fold sig in HL.
    rewrite (create_ext (fun w a => find_method run w a Method sig)) in E; auto.
    - split.
      + rewrite (get_method_dfs sig w o Hn Ho). eapply create_waiting; eauto. discriminate.
      + intros w1 x EC Hx. eapply create_waiting_own; eauto.
    - intros w1 a HW1 Hk1 Ha1. eapply post_weaken; [apply (lk_post _ _ _ HL); auto using class_cont|auto].
    - intros w1 Ho1. apply get_method_dfs; assumption.
  Qed.
End Wait.
