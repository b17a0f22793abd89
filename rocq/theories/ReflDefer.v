(** Lemmas about deferred definitions (C19), automatic constructors (C41) and repeated definitions (C12). *)
From Coq Require Import List Bool Arith String Ascii Lia.
From Verif Require Import Util RegistryModel RegistryProofs ListsModel ListsSpec ListsProofs StringsModel StringsSpec StringsProofs.
From Verif Require Import ReflModel ReflSpec ReflProofs ReflExec ReflMono ReflTerm ReflMore ReflBuilder.
Import ListNotations.
Local Open Scope list_scope.

Section Defer.
  Variable ok : nat -> nat -> bool.
  Variables k n : nat.
  Notation run := (run k ok n).
  Notation WF := (WF false false ok).
  Notation step := (step run k ok (fun w p => run w 0 p)).

  Lemma run_ok : forall w a p, WF w -> hk false w -> cont w a -> prog_pre false false w p ->
    post false false ok w (run w a p) (fun _ _ => True).
  Proof. intros. apply run_post; assumption. Qed.
  Lemma use_ok' : forall w p, WF w -> hk false w -> prog_pre false false w p ->
    post false false ok w (run w 0 p) (fun _ _ => True).
  Proof. intros. apply use_post; assumption. Qed.

  (** Every definition accepted before has finished. *)
  Lemma check_done w a it w1 : WF w -> hk false w -> get w a = Some it -> is_container (i_cat it) = true -> i_lock it = false ->
    check run w a = Ret w1 tt -> exists it1, get w1 a = Some it1 /\ i_lock it1 = false /\ i_def it1 = None /\ i_set it <= i_done it1.
  Proof.
    intros HW Hk Hg Hc Hl E. assert (Ha : cont w a) by (exists it; auto).
    pose proof (check_post false false ok run run_ok w a HW Hk Ha) as HP. rewrite E in HP. destruct HP as (Hs & Hb & HS).
    destruct (get_steps false false ok w w1 a it HW Hs Hg) as (it1 & Hg1 & G). exists it1. split; [exact Hg1|].
    assert (Hl1 : i_lock it1 = false).
    { destruct Hb as (_ & Hb & _). specialize (Hb a). unfold locked in Hb. rewrite Hg, Hg1 in Hb. congruence. }
    split; [exact Hl1|]. assert (Hd1 : i_def it1 = None) by (apply HS; assumption). split; [exact Hd1|].
    pose proof (steps_wf _ _ _ _ _ HW Hs) as HW1. pose proof (wf_local _ _ _ _ HW1 a it1 Hg1) as HL.
    pose proof (l_set _ _ _ _ HL) as H1. pose proof (l_begun _ _ _ _ HL) as H2. rewrite Hd1 in H1. rewrite Hl1 in H2. cbn in H2.
    pose proof (g_set _ _ G). lia.
  Qed.
  Lemma check_twice w a w1 : WF w -> hk false w -> cont w a -> check run w a = Ret w1 tt -> check run w1 a = Ret w1 tt.
  Proof.
    intros HW Hk Ha E. destruct (check_inv ok run run_ok w a w1 HW Hk Ha E) as (HW1 & Hk1 & Hc1 & HS).
    apply check_idle. apply settled_idle; assumption.
  Qed.

  Lemma on_container_inv w a o w' b' : on_container w a o = Ret w' b' -> cont w a /\ o = Ret w' b'.
  Proof.
    unfold on_container, category. destruct (get w a) as [it|] eqn:E; [|discriminate]. cbn.
    destruct (is_container (i_cat it)) eqn:Ec; [|discriminate]. intro H. split; [exists it; auto|exact H].
  Qed.
  Lemma on_container_eq w a o : cont w a -> on_container w a o = o.
  Proof. intros (it & Hg & Hc). unfold on_container, category. rewrite Hg. cbn. rewrite Hc. reflexivity. Qed.
  Lemma on_class_inv w a o w' b' : on_class w a o = Ret w' b' -> has_cat Class w a /\ o = Ret w' b'.
  Proof.
    unfold on_class, category. destruct (get w a) as [it|] eqn:E; [|discriminate]. cbn.
    destruct (i_cat it) eqn:Ec; try discriminate. intro H. split; [exists it; auto|exact H].
  Qed.
  Lemma on_class_eq w a o : has_cat Class w a -> on_class w a o = o.
  Proof. intros (it & Hg & Hc). unfold on_class, category. rewrite Hg. cbn. rewrite Hc. reflexivity. Qed.
  Lemma skip_inv {A} b (o : out A) w' b' : skip b o = Ret w' b' -> exists x, o = Ret w' x /\ b' = b.
  Proof. unfold skip. destruct o; cbn; try discriminate. intros [= -> ->]. eauto. Qed.

  (** Asking is checking, then asking. *)
  Lemma dfs_check {R} (own : world -> nat -> out (option R)) w a w1 m w' r :
    own w a = bind (check run w a) (fun w _ => own w a) -> check run w a = Ret w1 tt ->
    dfs own m w a = Ret w' r -> dfs own m w1 a = Ret w' r.
  Proof.
    intros Ho Hc. destruct m as [|m]; [discriminate|]. cbn [dfs]. rewrite Ho, Hc. cbn [bind]. auto.
  Qed.
  Lemma bind_check {A} w a (f : world -> out A) w' r : bind (check run w a) (fun w _ => f w) = Ret w' r ->
    exists w1, check run w a = Ret w1 tt /\ f w1 = Ret w' r.
  Proof. destruct (check run w a) as [w1 []| | | | |]; cbn; try discriminate. eauto. Qed.

  Lemma asks_check w a c b w' b' : WF w -> hk false w -> cont w a -> asks a c -> step w b c = Ret w' b' ->
    cont w a /\ exists w1, check run w a = Ret w1 tt /\ step w1 b c = Ret w' b'.
  Proof.
    intros HW Hk Hcon HA E.
    assert (HB : forall (A : Type) (x : A) o, cont w a -> (exists f, forall v, o v = bind (check run v a) (fun w _ => f w)) ->
      o w = Ret w' x -> exists w1, check run w a = Ret w1 tt /\ cont w1 a /\ (forall cl, has_cat cl w a -> has_cat cl w1 a) /\ o w1 = Ret w' x).
    { intros A x o Ha [f Ho] H. rewrite Ho in H. destruct (bind_check w a f w' x H) as (w1 & Hc & Hf). exists w1. split; [exact Hc|].
      pose proof (check_post false false ok run run_ok w a HW Hk Ha) as HP. rewrite Hc in HP. destruct HP as (Hs & _ & _).
      split; [eapply cont_steps; [exact HW|exact Hs|exact Ha]|]. split; [intros cl Hcl; eapply has_cat_steps; [exact HW|exact Hs|exact Hcl]|].
      rewrite Ho, (check_twice w a w1 HW Hk Ha Hc). exact Hf. }
    assert (HD : forall (R : Type) (own : world -> nat -> out (option R)) m x, cont w a ->
      (exists f : world -> out (option R), forall v, own v a = bind (check run v a) (fun w _ => f w)) -> dfs own m w a = Ret w' x ->
      exists w1, check run w a = Ret w1 tt /\ cont w1 a /\ (forall cl x, has_cat cl w x -> has_cat cl w1 x) /\ dfs own m w1 a = Ret w' x).
    { intros R own m x Ha [f Ho] H. destruct m as [|m]; [discriminate|]. cbn [dfs] in *.
      assert (Hc : exists w1, check run w a = Ret w1 tt).
      { rewrite Ho in H. destruct (check run w a) as [w1 []| | | | |]; try discriminate. eauto. }
      destruct Hc as (w1 & Hc). exists w1. split; [exact Hc|].
      pose proof (check_post false false ok run run_ok w a HW Hk Ha) as HP. rewrite Hc in HP. destruct HP as (Hs & _ & _).
      split; [eapply cont_steps; [exact HW|exact Hs|exact Ha]|]. split; [intros cl y Hcl; eapply has_cat_steps; [exact HW|exact Hs|exact Hcl]|].
      rewrite Ho, Hc in H. cbn [bind] in H. rewrite Ho, (check_twice w a w1 HW Hk Ha Hc). exact H. }
    destruct HA as [c nm|c i|c|nm Hn|nm Hn|nm| |b0 Hb0|r|c vs| |b0 Hb0|q|vs]; cbn [ReflModel.step] in E |- *.
    - apply on_container_inv in E as [Ha E]. split; [exact Ha|]. apply skip_inv in E as (x & E & ->).
      edestruct (HB _ x (fun w => get_item run w a c nm) Ha) as (w1 & H1 & H2 & _ & H3); [eexists; intro; reflexivity|exact E|].
      exists w1. split; [exact H1|]. rewrite on_container_eq by exact H2. cbn beta in H3. rewrite H3. reflexivity.
    - apply on_container_inv in E as [Ha E]. split; [exact Ha|]. apply skip_inv in E as (x & E & ->).
      edestruct (HB _ x (fun w => get_index run w a c i) Ha) as (w1 & H1 & H2 & _ & H3); [eexists; intro; reflexivity|exact E|].
      exists w1. split; [exact H1|]. rewrite on_container_eq by exact H2. cbn beta in H3. rewrite H3. reflexivity.
    - apply on_container_inv in E as [Ha E]. split; [exact Ha|]. apply skip_inv in E as (x & E & ->).
      edestruct (HB _ x (fun w => get_count run w a c) Ha) as (w1 & H1 & H2 & _ & H3); [eexists; intro; reflexivity|exact E|].
      exists w1. split; [exact H1|]. rewrite on_container_eq by exact H2. cbn beta in H3. rewrite H3. reflexivity.
    - apply on_container_inv in E as [Ha E]. split; [exact Ha|]. apply skip_inv in E as (x & E & ->).
      apply String.eqb_neq in Hn as Hn'. unfold get_method in E |- *. rewrite Hn' in E |- *.
      destruct Ha as (it & Hg & Hc). assert (Ha : cont w a) by (exists it; auto). rewrite Hg in E. destruct (cat_eqb (i_cat it) Class) eqn:Ec.
      + apply cat_eqb_eq in Ec.
        edestruct (HD _ (fun w a => find_method run w a Method nm) k x Ha) as (w1 & H1 & H2 & H3 & H4); [eexists; intro; unfold find_method; reflexivity|exact E|].
        exists w1. split; [exact H1|]. rewrite on_container_eq by exact H2.
        destruct (H3 Class a) as (it1 & Hg1 & Hc1); [exists it; auto|]. rewrite Hg1, Hc1. cbn [cat_eqb]. rewrite H4. reflexivity.
      + edestruct (HB _ x (fun w => find_method run w a Method nm) Ha) as (w1 & H1 & H2 & H3 & H4); [eexists; intro; unfold find_method; reflexivity|exact E|].
        exists w1. split; [exact H1|]. rewrite on_container_eq by exact H2.
        destruct (H3 (i_cat it)) as (it1 & Hg1 & Hc1); [exists it; auto|]. rewrite Hg1, Hc1, Ec. cbn beta in H4. rewrite H4. reflexivity.
    - apply on_container_inv in E as [Ha E]. split; [exact Ha|]. apply skip_inv in E as (x & E & ->).
      apply String.eqb_neq in Hn as Hn'. unfold get_property in E |- *. rewrite Hn' in E |- *.
      destruct Ha as (it & Hg & Hc). assert (Ha : cont w a) by (exists it; auto). rewrite Hg in E. destruct (cat_eqb (i_cat it) Class) eqn:Ec.
      + apply cat_eqb_eq in Ec.
        edestruct (HD _ (fun w a => get_item run w a Property nm) k x Ha) as (w1 & H1 & H2 & H3 & H4); [eexists; intro; unfold get_item; reflexivity|exact E|].
        exists w1. split; [exact H1|]. rewrite on_container_eq by exact H2.
        destruct (H3 Class a) as (it1 & Hg1 & Hc1); [exists it; auto|]. rewrite Hg1, Hc1. cbn [cat_eqb]. rewrite H4. reflexivity.
      + edestruct (HB _ x (fun w => get_item run w a Property nm) Ha) as (w1 & H1 & H2 & H3 & H4); [eexists; intro; unfold get_item; reflexivity|exact E|].
        exists w1. split; [exact H1|]. rewrite on_container_eq by exact H2.
        destruct (H3 (i_cat it)) as (it1 & Hg1 & Hc1); [exists it; auto|]. rewrite Hg1, Hc1, Ec. cbn beta in H4. rewrite H4. reflexivity.
    - apply on_container_inv in E as [Ha E]. split; [exact Ha|]. apply skip_inv in E as (x & E & ->).
      edestruct (HB _ x (fun w => find_method run w a Constructor nm) Ha) as (w1 & H1 & H2 & H3 & H4); [eexists; intro; unfold find_method; reflexivity|exact E|].
      exists w1. split; [exact H1|]. rewrite on_container_eq by exact H2. cbn beta in H4. rewrite H4. reflexivity.
    - apply on_class_inv in E as [Hcl E]. pose proof (class_cont _ _ Hcl) as Ha. split; [exact Ha|]. apply skip_inv in E as (x & E & ->).
      edestruct (HB _ x (fun w => bases_query run w a) Ha) as (w1 & H1 & H2 & H3 & H4); [eexists; intro; unfold bases_query; reflexivity|exact E|].
      exists w1. split; [exact H1|]. rewrite on_class_eq by (apply H3; exact Hcl). cbn beta in H4. rewrite H4. reflexivity.
    - apply on_class_inv in E as [Hcl E]. pose proof (class_cont _ _ Hcl) as Ha. split; [exact Ha|].
      apply on_class_inv in E as [Hclb E]. apply skip_inv in E as (x & E & ->).
      unfold inherited in E |- *.
      set (own := fun w x => if x =? b0 then Ret w (Some tt) else bind (check run w x) (fun w _ => Ret w None)) in *.
      destruct (dfs own k w a) as [w2 r| | | | |] eqn:ED; try discriminate. cbn [bind] in E. injection E as -> <-.
      assert (Hne : (a =? b0) = false) by (apply Nat.eqb_neq; congruence).
      edestruct (HD _ own k r Ha) as (w1 & H1 & H2 & H3 & H4); [eexists; intro; unfold own; rewrite Hne; reflexivity|exact ED|].
      exists w1. split; [exact H1|]. rewrite (on_class_eq w1 a), (on_class_eq w1 b0) by (apply H3; assumption). rewrite H4. reflexivity.
    - apply on_container_inv in E as [Ha E]. split; [exact Ha|]. apply skip_inv in E as (x & E & ->).
      assert (HF : forall m, m <> 0 -> exists f, forall v, force run m r v a = bind (check run v a) (fun w _ => f w)).
      { intros [|m] Hm; [congruence|]. eexists. intro v. cbn [force]. reflexivity. }
      assert (Hk0 : k <> 0) by (intro H0; rewrite H0 in E at 2; discriminate).
      destruct (HB _ x (fun w => force run k r w a) Ha (HF k Hk0) E) as (w1 & H1 & H2 & H3 & H4).
      exists w1. split; [exact H1|]. rewrite on_container_eq by exact H2. cbn beta in H4. rewrite H4. reflexivity.
    - destruct c; try discriminate;
      (apply on_container_inv in E as [Ha E]; split; [exact Ha|]; apply skip_inv in E as (x & E & ->);
       match type of E with each _ _ _ _ ?ct _ = _ =>
         edestruct (HB _ x (fun w => each run (fun w p => run w 0 p) w a ct vs) Ha) as (w1 & H1 & H2 & H3 & H4) end;
       [eexists; intro; unfold each; reflexivity|exact E|];
       exists w1; split; [exact H1|]; rewrite on_container_eq by exact H2; cbn beta in H4; rewrite H4; reflexivity).
    - apply on_class_inv in E as [Hcl E]. pose proof (class_cont _ _ Hcl) as Ha. split; [exact Ha|]. apply skip_inv in E as (x & E & ->).
      edestruct (HB _ x (fun w => derived_query run w a) Ha) as (w1 & H1 & H2 & H3 & H4); [eexists; intro; unfold derived_query; reflexivity|exact E|].
      exists w1. split; [exact H1|]. rewrite on_class_eq by (apply H3; exact Hcl). cbn beta in H4. rewrite H4. reflexivity.
    - apply on_class_inv in E as [Hcl E]. pose proof (class_cont _ _ Hcl) as Ha. split; [exact Ha|].
      apply on_class_inv in E as [Hclb E]. apply skip_inv in E as (x & E & ->).
      assert (Hne : (a =? b0) = false) by (apply Nat.eqb_neq; congruence).
      assert (HF : forall m, m <> 0 -> exists f, forall v, cast_to run k m v a b0 = bind (check run v a) (fun w _ => f w)).
      { intros [|m] Hm; [congruence|]. eexists. intro v. cbn [cast_to]. rewrite Hne. reflexivity. }
      assert (Hk0 : k <> 0).
      { intro H0. assert (EF : cast_to run k k w a b0 = Fuel) by (rewrite H0 at 3; reflexivity). congruence. }
      destruct (HB _ x (fun w => cast_to run k k w a b0) Ha (HF k Hk0) E) as (w1 & H1 & H2 & H3 & H4).
      exists w1. split; [exact H1|].
      assert (Hclb1 : has_cat Class w1 b0).
      { pose proof (check_post false false ok run run_ok w a HW Hk Ha) as HP. rewrite H1 in HP. destruct HP as (Hs & _ & _).
        eapply has_cat_steps; [exact HW|exact Hs|exact Hclb]. }
      rewrite (on_class_eq w1 a), (on_class_eq w1 b0) by (try (apply H3); assumption). cbn beta in H4. rewrite H4. reflexivity.
    - split; [exact Hcon|]. assert (HI : forall v, cont v a -> check_item run v a = check run v a).
      { intros v (it & Hg & Hc). unfold check_item. rewrite Hg, Hc. reflexivity. }
      assert (HO : forall v o, cont v a -> on_item v a o = o).
      { intros v o (it & Hg & _). unfold on_item, category. rewrite Hg. reflexivity. }
      rewrite (HO w _ Hcon) in E. apply skip_inv in E as (x & E & ->). unfold attr_query in E. rewrite (HI w Hcon) in E.
      edestruct (HB _ x (fun w => bind (check run w a) (fun w _ =>
        match get w a with None => UB | Some it => Ret (touch w (a, LAttrs)) (nv_ask (i_attrs it) q) end)) Hcon) as (w1 & H1 & H2 & H3 & H4);
        [eexists; intro; reflexivity|exact E|].
      exists w1. split; [exact H1|]. rewrite (HO w1 _ H2). unfold attr_query. rewrite (HI w1 H2). cbn beta in H4. rewrite H4. reflexivity.
    - split; [exact Hcon|]. assert (HI : forall v, cont v a -> check_item run v a = check run v a).
      { intros v (it & Hg & Hc). unfold check_item. rewrite Hg, Hc. reflexivity. }
      assert (HO : forall v o, cont v a -> on_item v a o = o).
      { intros v o (it & Hg & _). unfold on_item, category. rewrite Hg. reflexivity. }
      rewrite (HO w _ Hcon) in E. apply skip_inv in E as (x & E & ->). unfold each_attr in E. rewrite (HI w Hcon) in E.
      edestruct (HB _ x (fun w => bind (check run w a) (fun w1 _ =>
        match get w1 a with
        | None => UB
        | Some it => holding w1 (a, LAttrs) (fun w2 => visit (fun w p => run w 0 p) w2 (nv_size (i_attrs it)) vs)
        end)) Hcon) as (w1 & H1 & H2 & H3 & H4);
        [eexists; intro; reflexivity|exact E|].
      exists w1. split; [exact H1|]. rewrite (HO w1 _ H2). unfold each_attr. rewrite (HI w1 H2). cbn beta in H4. rewrite H4. reflexivity.
  Qed.

  (** Hence all that was accepted before is finished when the answer comes. *)
  Lemma asks_done w a it c b w' b' : WF w -> hk false w -> bok false w b -> get w a = Some it -> i_lock it = false -> asks a c ->
    step w b c = Ret w' b' -> exists it', get w' a = Some it' /\ i_set it <= i_done it'.
  Proof.
    intros HW Hk Hb Hg Hl HA E. destruct (is_container (i_cat it)) eqn:Hct.
    2:{ assert (HC : cmd_pre false false w c) by (split; discriminate).
        pose proof (step_post false false ok run k (fun w p => run w 0 p) (run_none ok k n) run_ok use_ok' w b c HW Hk Hb HC) as HP.
        rewrite E in HP. destruct HP as (Hs & _ & _).
        destruct (get_steps false false ok w w' a it HW Hs Hg) as (it' & Hg' & G). exists it'. split; [exact Hg'|].
        pose proof (wf_local _ _ _ _ HW a it Hg) as HL. pose proof (l_set _ _ _ _ HL) as H1. pose proof (l_begun _ _ _ _ HL) as H2.
        pose proof (g_done _ _ G) as H3. destruct (i_def it) as [p|] eqn:Ed; [destruct (l_def _ _ _ _ HL p Ed); congruence|].
        rewrite Hl in H2. cbn in H2. lia. }
    assert (Hcon : cont w a) by (exists it; auto).
    destruct (asks_check w a c b w' b' HW Hk Hcon HA E) as (Ha & w1 & Hc & E1).
    destruct (check_done w a it w1 HW Hk Hg Hct Hl Hc) as (it1 & Hg1 & _ & _ & Hd).
    destruct (check_inv ok run run_ok w a w1 HW Hk Ha Hc) as (HW1 & Hk1 & _ & _).
    pose proof (check_post false false ok run run_ok w a HW Hk Ha) as HPc. rewrite Hc in HPc. destruct HPc as (Hsc & _ & _).
    assert (HC : cmd_pre false false w1 c) by (split; discriminate).
    pose proof (step_post false false ok run k (fun w p => run w 0 p) (run_none ok k n) run_ok use_ok' w1 b c HW1 Hk1 (bok_steps false false ok _ _ _ HW Hsc Hb) HC) as HP.
    rewrite E1 in HP. destruct HP as (Hs & _ & _).
    destruct (get_steps false false ok w1 w' a it1 HW1 Hs Hg1) as (it' & Hg' & G). exists it'. split; [exact Hg'|].
    pose proof (g_done _ _ G). lia.
  Qed.

  (** A definition that throws counts as finished and is not kept. *)
  Lemma check_throw w a it p e w1 : WF w -> hk false w -> get w a = Some it -> is_container (i_cat it) = true -> i_def it = Some p -> i_lock it = false ->
    run (upd w a begin_def) a p = Throw e w1 ->
    exists w2 it2, check run w a = Throw e w2 /\ get w2 a = Some it2 /\ i_def it2 = None /\ i_lock it2 = false /\
      i_set it2 = i_set it /\ i_done it2 = S (i_done it) /\ i_done it2 = i_set it2 /\ check run w2 a = Ret w2 tt.
  Proof.
    intros HW Hk Hg Hct Hd Hl E. unfold check at 1. rewrite Hg, Hd, Hl, E.
    assert (HW0 : WF (upd w a begin_def)) by (eapply prim_wf; [exact HW|eapply PBegin; eauto]).
    assert (Hg0 : get (upd w a begin_def) a = Some (begin_def it)) by (rewrite get_upd, Nat.eqb_refl, Hg; reflexivity).
    assert (Hk0 : hk false (upd w a begin_def)) by (intros l; rewrite upd_held; apply Hk).
    assert (Ha0 : cont (upd w a begin_def) a) by (exists (begin_def it); auto).
    pose proof (run_ok _ a p HW0 Hk0 Ha0 (pre_ff _ _)) as HP. rewrite E in HP. destruct HP as (Hs & Hb).
    destruct Hb as (_ & _ & Hb). destruct (Hb a _ Hg0 eq_refl) as (it1 & Hg1 & (S1 & S2 & S3 & S4)).
    assert (Hg2 : get (upd w1 a end_def) a = Some (end_def it1)) by (rewrite get_upd, Nat.eqb_refl, Hg1; reflexivity).
    exists (upd w1 a end_def), (end_def it1). split; [reflexivity|]. split; [exact Hg2|]. cbn in *.
    split; [reflexivity|]. split; [reflexivity|]. split; [exact S2|]. split; [congruence|]. split.
    - pose proof (wf_local _ _ _ _ HW a it Hg) as HL. pose proof (l_set _ _ _ _ HL) as H1. pose proof (l_begun _ _ _ _ HL) as H2.
      rewrite Hd, Hl in H1. rewrite Hl in H2. cbn in H1, H2. lia.
    - unfold check. rewrite Hg2. reflexivity.
  Qed.
End Defer.
