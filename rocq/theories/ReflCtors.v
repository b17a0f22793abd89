(** Lemmas about automatic constructors (C41) and repeated definitions (C12). *)
From Coq Require Import List Bool Arith String Ascii Lia.
From Verif Require Import Util RegistryModel RegistryProofs ListsModel ListsSpec ListsProofs StringsModel StringsSpec StringsProofs.
From Verif Require Import ReflModel ReflSpec ReflProofs ReflExec ReflMono ReflTerm ReflMore ReflBuilder ReflDefer.
Import ListNotations.
Local Open Scope list_scope.

Lemma appended_names w w' o c nm t inv a it it' : appended w w' o c nm t inv -> extends w w' ->
  get w a = Some it -> (forall x, In x (ml_items (i_list it c)) -> x < List.length (w_items w)) -> a = o -> get w' a = Some it' ->
  map (names w') (ml_items (i_list it' c)) = map (names w) (ml_items (i_list it c)) ++ [nm].
Proof.
  intros (_ & (xt & Hx & _ & Hn & _) & _ & (ow & ow' & Ho & Ho' & _ & Hl & _)) [HE _] Hg Hlt -> Hg'.
  rewrite Hg in Ho. injection Ho as <-. rewrite Hg' in Ho'. injection Ho' as <-. rewrite Hl, map_app. f_equal.
  - apply map_ext_in. intros x Hin. specialize (Hlt x Hin). unfold names. destruct (get w x) as [it0|] eqn:E.
    + destruct (HE x it0 E) as (it1 & -> & G). apply (g_name _ _ G).
    + apply nth_error_None in E. lia.
  - cbn. unfold names. rewrite Hx, Hn. reflexivity.
Qed.

Section Ctors.
  Variable ok : nat -> nat -> bool.
  Variables k n : nat.
  Notation run := (run k ok n).
  Notation WF := (WF false false ok).
  Notation step := (step run k ok (fun w p => run w 0 p)).

  Definition ready (w : world) (x : nat) (l : list string) : Prop :=
    WF w /\ hk false w /\ exists it, get w x = Some it /\ i_cat it = Class /\ i_def it = None /\
      map (names w) (ml_items (i_list it Constructor)) = l.

  Lemma ctor_if_ready on args x w w' l : ready w x l ->
    (on = true -> Forall (fun s => ~ answers (txt s) (txt (ctor_signature "constructor" args))) l) ->
    ctor_if run on args x w = Ret w' tt ->
    ready w' x (l ++ if on then [ctor_signature "constructor" args] else []).
  Proof.
    intros (HW & Hk & it & Hg & Hc & Hd & Hl) HF E. destruct on; cbn [ctor_if] in E.
    2:{ injection E as <-. rewrite app_nil_r. split; [exact HW|]. split; [exact Hk|]. exists it. auto. }
    specialize (HF eq_refl). set (sig := ctor_signature "constructor" args) in *.
    assert (Ha : cont w x) by (exists it; rewrite Hc; auto).
    destruct (create_ctor run w x "" args 0) as [w1 r| | | | |] eqn:EC; try discriminate. cbn [bind] in E. injection E as <-.
    pose proof (create_ctor_post false false ok run (run_ok ok k n) w x "" args 0 HW Hk Ha) as HP.
    rewrite EC in HP. destruct HP as (Hs & Hb & _). pose proof (steps_extends _ _ _ _ _ HW Hs) as HE.
    unfold create_ctor in EC. change (if (""%string =? "")%string then "constructor"%string else ""%string) with "constructor"%string in EC. fold sig in EC.
    destruct (create_by_method ok run (run_ok ok k n) Constructor sig 0 0 w x w1 r) as (w2 & Hch & HR); try assumption; [discriminate|].
    assert (Hi : check run w x = Ret w tt) by (apply check_idle; exists it; auto). rewrite Hi in Hch. injection Hch as <-.
    destruct HR as [(y & Hy & _)|(_ & _ & HA)].
    - exfalso. destruct Hy as (i & Hi' & Hans). unfold entry in Hi'. rewrite Hg in Hi'. apply nth_error_In in Hi'.
      rewrite Forall_forall in HF. apply (HF (names w y)); [rewrite <- Hl; apply in_map; exact Hi'|exact Hans].
    - split; [eapply steps_wf; eauto|]. split; [eapply bal_hk; eauto|].
      destruct (proj1 HE x it Hg) as (it' & Hg' & G). exists it'. split; [exact Hg'|]. split; [rewrite (g_cat _ _ G); exact Hc|].
      assert (HA' := HA). destruct HA' as (_ & _ & _ & (ow & ow' & Ho & Ho' & HO & _)). rewrite Hg in Ho. injection Ho as <-. rewrite Hg' in Ho'. injection Ho' as <-.
      split; [destruct HO as (_ & _ & _ & _ & _ & _ & Hd' & _); congruence|].
      rewrite <- Hl. eapply appended_names; [exact HA|exact HE|exact Hg| |reflexivity|exact Hg'].
      intros y Hy. destruct (wf_list _ _ _ _ HW x it Constructor y Hg Hy) as (yt & Hgy & _). eapply get_lt; eauto.
  Qed.

  Lemma not_answers_decide m q : method_matches m q = Some false -> ~ answers m q.
  Proof. intros H HA. destruct (method_matches_spec m q) as (b & Hb & Hiff). apply Hiff in HA. congruence. Qed.

  Lemma auto_ctors_ready w x d c m w' : ready w x [] -> auto_ctors run w x d c m = Ret w' tt -> ready w' x (expected_ctors d c m).
  Proof.
    intros HR E. unfold auto_ctors in E.
    destruct (ctor_if run d A0 x w) as [w1 []| | | | |] eqn:E1; try discriminate. cbn [bind] in E.
    apply (ctor_if_ready d A0 x w w1 [] HR) in E1; [|intros; constructor].
    destruct (ctor_if run c (ASelf false) x w1) as [w2 []| | | | |] eqn:E2; try discriminate. cbn [bind] in E.
    apply (ctor_if_ready c (ASelf false) x w1 w2 _ E1) in E2.
    2:{ intros _. destruct d; repeat constructor. apply not_answers_decide. reflexivity. }
    apply (ctor_if_ready m (ASelf true) x w2 w' _ E2) in E.
    2:{ intros _. destruct d, c; repeat constructor; apply not_answers_decide; reflexivity. }
    cbn [app] in E. rewrite <- app_assoc in E. exact E.
  Qed.

  (** Registering a class that is not there yet. *)
  Lemma new_class_ctors w o cur s nm t d c m w' b' : WF w -> hk false w -> cont w o -> idle w o -> nm <> ""%string ->
    (forall y, ~ owns w o Class nm y) ->
    step w (Builder cur (Some o) s) (KClass nm t d c m) = Ret w' b' ->
    exists x, x = List.length (w_items w) /\ b_item b' = Some x /\ b_cont b' = Some x /\ ready w' x (expected_ctors d c m) /\
      class_of w' t = Some x.
  Proof.
    intros HW Hk Ho Hi Hn Hno E. cbn [ReflModel.step b_cont b_stack] in E.
    destruct (create_class run w o nm t) as [w1 r| | | | |] eqn:EC; try discriminate. cbn [bind] in E.
    pose proof (create_class_post false false ok run (run_ok ok k n) w o nm t HW Hk Ho ltac:(discriminate)) as HP.
    rewrite EC in HP. destruct HP as (Hs & Hb & _).
    destruct (create_class_own ok run (run_ok ok k n) nm t w o w1 r Hn HW Hk Ho EC) as (w2 & Hch & HR).
    rewrite (check_idle run w o Hi) in Hch. injection Hch as <-.
    destruct HR as [(y & Hy & _)|(_ & _ & -> & HA & Hct)]; [destruct (Hno y Hy)|].
    set (x := List.length (w_items w)) in *. exists x. split; [reflexivity|].
    assert (HR1 : ready w1 x []).
    { split; [eapply steps_wf; eauto|]. split; [eapply bal_hk; eauto|]. destruct HA as (_ & (xt & Hx & Hc & _ & _ & _ & _ & Hl & _ & _ & Hd) & _).
      exists xt. split; [exact Hx|]. split; [exact Hc|]. split; [exact Hd|]. rewrite Hl. reflexivity. }
    destruct (auto_ctors run w1 x d c m) as [w3 []| | | | |] eqn:EA; try discriminate. cbn [bind] in E. injection E as <- <-.
    split; [reflexivity|]. split; [reflexivity|]. split; [eapply auto_ctors_ready; eauto|].
    destruct HR1 as (HW1 & Hk1 & it & Hg & Hc & _). assert (Ha : cont w1 x) by (exists it; rewrite Hc; auto).
    pose proof (auto_ctors_post false false ok run (run_ok ok k n) w1 x d c m HW1 Hk1 Ha) as HP. rewrite EA in HP. destruct HP as (Hs1 & _ & _).
    apply (proj2 (steps_extends _ _ _ _ _ HW1 Hs1)). exact Hct.
  Qed.
End Ctors.

(** The first item of a prefix that answers stays the answer. *)
Lemma find_first (nm : nat -> text) l1 y l2 r q : Forall (fun x => ~ answers (nm x) q) l1 -> answers (nm y) q ->
  findMethod nm ((l1 ++ y :: l2) ++ r) q = FSome y.
Proof.
  intros H1 H2. destruct (findMethod_spec nm ((l1 ++ y :: l2) ++ r) q) as [(a & x & b & E & -> & Hx & Ha)|[_ H]].
  - f_equal. rewrite <- app_assoc in E. cbn in E. revert a E Ha. induction H1 as [|z l1 Hz _ IH]; intros a E Ha.
    + destruct a as [|u a]; cbn in E; injection E; [congruence|]. intros _ ->. inversion Ha; subst. contradiction.
    + destruct a as [|u a]; cbn in E; injection E.
      * intros _ <-. contradiction.
      * intros E' ->. inversion Ha; subst. apply (IH a E'). assumption.
  - exfalso. rewrite Forall_forall in H. apply (H y); [|exact H2]. apply in_or_app. left. apply in_or_app. right. left. reflexivity.
Qed.

(** ** Defining again *)

Lemma create_method_ns ok k n w o it nm args inv w' r :
  reachable ok w -> get w o = Some it -> i_cat it = Namespace ->
  create_method (run k ok n) k w o nm args inv = Ret w' r ->
  let sig := str (signature (txt nm) args) in
  exists w1, check (run k ok n) w o = Ret w1 tt /\
    ((exists x, owns w1 o Method sig x /\ r = Some x /\ same w1 w') \/
     ((forall x, ~ owns w1 o Method sig x) /\ r = Some (List.length (w_items w1)) /\ appended w1 w' o Method sig 0 inv)).
Proof.
  intros HR Hg Hc E sig. destruct (reachable_wf ok w HR) as [HW Hk]. assert (Ho : cont w o) by (exists it; rewrite Hc; auto).
  unfold create_method in E. fold sig in E.
  assert (Hn' : (sig =? "")%string = false).
  { apply String.eqb_neq. intro H. pose proof (signature_has_paren (txt nm) args) as HP. unfold sig in H.
    rewrite <- (txt_str (signature (txt nm) args)), H in HP. destruct HP. }
  assert (EG : forall v it, get v o = Some it -> i_cat it = Namespace -> get_method (run k ok n) k v o sig = find_method (run k ok n) v o Method sig).
  { intros v vt Hv Hcv. unfold get_method. rewrite Hn', Hv, Hcv. reflexivity. }
  assert (E' : create (fun w => find_method (run k ok n) w o Method sig) o (fresh Method sig (Some o) 0 inv) w = Ret w' r).
  { rewrite <- E. unfold create. rewrite (EG w it Hg Hc).
    pose proof (find_method_post false false ok (run k ok n) (run_ok ok k n) w o Method sig HW Hk Ho) as HP.
    destruct (find_method (run k ok n) w o Method sig) as [w1 [x|]| | | | |]; try reflexivity. cbn [bind].
    destruct (add_new w1 o _); try reflexivity. destruct HP as (Hs & _). 
    destruct (get_steps false false ok w w1 o it HW Hs Hg) as (it1 & Hg1 & G). symmetry. apply (EG w1 it1 Hg1). rewrite (g_cat _ _ G). exact Hc. }
  destruct (create_by_method ok (run k ok n) (run_ok ok k n) Method sig 0 inv w o w' r) as (w1 & Hch & H); try assumption; [discriminate|].
  exists w1. split; [exact Hch|]. destruct (check_inv ok (run k ok n) (run_ok ok k n) w o w1 HW Hk Ho Hch) as (HW1 & _ & (ow & Hg1 & _) & _).
  assert (HQ : forall x, answering w1 o Method (txt sig) x <-> owns w1 o Method sig x).
  { intro x. unfold sig. rewrite txt_str. apply (answering_sig ok w1 o ow Method _ _ x HW1 Hg1). }
  destruct H as [(x & Hx & Hr)|(Hx & Hr)]; [left; exists x; split; [apply HQ; exact Hx|exact Hr]|right].
  split; [intros x H; apply (Hx x); apply HQ; exact H|exact Hr].
Qed.

Lemma create_property_ns ok k n w o it nm inv w' r :
  reachable ok w -> get w o = Some it -> i_cat it = Namespace -> nm <> ""%string ->
  create_property (run k ok n) k w o nm inv = Ret w' r ->
  exists w1, check (run k ok n) w o = Ret w1 tt /\
    ((exists x, owns w1 o Property nm x /\ r = Some x /\ same w1 w') \/
     ((forall x, ~ owns w1 o Property nm x) /\ r = Some (List.length (w_items w1)) /\ appended w1 w' o Property nm 0 inv)).
Proof.
  intros HR Hg Hc Hn E. destruct (reachable_wf ok w HR) as [HW Hk]. assert (Ho : cont w o) by (exists it; rewrite Hc; auto).
  unfold create_property in E. apply String.eqb_neq in Hn as Hn'. rewrite Hn' in E.
  assert (EG : forall v it, get v o = Some it -> i_cat it = Namespace -> get_property (run k ok n) k v o nm = get_item (run k ok n) v o Property nm).
  { intros v vt Hv Hcv. unfold get_property. rewrite Hv, Hcv. reflexivity. }
  assert (E' : create (fun w => get_item (run k ok n) w o Property nm) o (fresh Property nm (Some o) 0 inv) w = Ret w' r).
  { rewrite <- E. unfold create. rewrite (EG w it Hg Hc).
    pose proof (get_item_post false false ok (run k ok n) (run_ok ok k n) w o Property nm HW Hk Ho) as HP.
    destruct (get_item (run k ok n) w o Property nm) as [w1 [x|]| | | | |]; try reflexivity. cbn [bind].
    destruct (add_new w1 o _); try reflexivity. destruct HP as (Hs & _).
    destruct (get_steps false false ok w w1 o it HW Hs Hg) as (it1 & Hg1 & G). symmetry. apply (EG w1 it1 Hg1). rewrite (g_cat _ _ G). exact Hc. }
  eapply create_own; eauto using run_ok. discriminate.
Qed.

Lemma idle_same w w' o : same w w' -> idle w o -> idle w' o.
Proof. intros HS (it & Hg & H). exists it. rewrite (same_get w w') by exact HS. auto. Qed.
Lemma appended_idle w w' o c nm t inv : appended w w' o c nm t inv -> idle w o -> idle w' o.
Proof.
  intros (_ & _ & _ & (ow & ow' & Ho & Ho' & HO & _)) (it & Hg & H). rewrite Hg in Ho. injection Ho as <-.
  exists ow'. split; [exact Ho'|]. destruct HO as (_ & _ & _ & _ & _ & _ & E1 & E2 & _). rewrite E1, E2. exact H.
Qed.
Lemma appended_owns w w' o c nm t inv : appended w w' o c nm t inv -> owns w' o c nm (List.length (w_items w)).
Proof.
  intros (_ & (xt & Hx & _ & Hn & _) & _ & (ow & ow' & _ & Ho' & _ & Hl & _)). exists (List.length (ml_items (i_list ow c))), xt.
  split; [|auto]. unfold entry. rewrite Ho', Hl, nth_error_app2 by lia. rewrite Nat.sub_diag. reflexivity.
Qed.

Lemma create_item_again ok k n w o it c nm t inv w' x :
  reachable ok w -> get w o = Some it -> is_container (i_cat it) = true -> c <> Class -> nm <> ""%string ->
  create (fun w => get_item (run k ok n) w o c nm) o (fresh c nm (Some o) t inv) w = Ret w' (Some x) ->
  exists w'', create (fun w => get_item (run k ok n) w o c nm) o (fresh c nm (Some o) t inv) w' = Ret w'' (Some x) /\ same w' w''.
Proof.
  intros HR Hg Hct Hc Hn E. destruct (reachable_wf ok w HR) as [HW Hk]. assert (Ho : cont w o) by (exists it; auto).
  assert (HP : post false false ok w (create (fun w => get_item (run k ok n) w o c nm) o (fresh c nm (Some o) t inv) w) (fun _ _ => True)).
  { eapply post_weaken; [apply (create_post false false ok (nm <> ""%string))|auto]; auto; [|discriminate].
    intros w1 HW1 Hk1 Ho1. eapply get_item_lookup; eauto using run_ok. }
  rewrite E in HP. destruct HP as (Hs & _ & _). pose proof (steps_wf _ _ _ _ _ HW Hs) as HW'.
  destruct (create_own ok (run k ok n) (run_ok ok k n) c nm t inv w o w' (Some x) Hc Hn HW Hk Ho E) as (w1 & Hch & HC).
  destruct (check_inv ok (run k ok n) (run_ok ok k n) w o w1 HW Hk Ho Hch) as (HW1 & Hk1 & Hc1 & HS).
  pose proof (settled_idle w1 o Hc1 HS) as Hi.
  assert (HX : idle w' o /\ owns w' o c nm x).
  { destruct HC as [(y & Hy & [= <-] & HSm)|(_ & [= ->] & HA)].
    - split; [eapply idle_same; eauto|]. apply (same_owns w1 w' o c nm x HSm). exact Hy.
    - split; [eapply appended_idle; eauto|eapply appended_owns; eauto]. }
  destruct HX as [Hi' Hx]. exists (touch w' (o, LList c)). split; [|apply same_touch].
  unfold create, get_item at 1. rewrite (check_idle _ w' o Hi'). cbn [bind]. unfold list_of. destruct Hi' as (it' & Hg' & _). rewrite Hg'.
  apply (find_owns ok w' o it' c nm x HW' Hg' Hn) in Hx. rewrite Hx. reflexivity.
Qed.

Lemma create_method_again ok k n w o it c nm t inv w' x :
  reachable ok w -> get w o = Some it -> is_container (i_cat it) = true -> c <> Class ->
  create (fun w => find_method (run k ok n) w o c nm) o (fresh c nm (Some o) t inv) w = Ret w' (Some x) ->
  exists w'', create (fun w => find_method (run k ok n) w o c nm) o (fresh c nm (Some o) t inv) w' = Ret w'' (Some x) /\ same w' w''.
Proof.
  intros HR Hg Hct Hc E. destruct (reachable_wf ok w HR) as [HW Hk]. assert (Ho : cont w o) by (exists it; auto).
  exists (touch w' (o, LList c)). split; [|apply same_touch].
  assert (HF : forall ow', idle w' o -> get w' o = Some ow' -> findMethod (fun y => txt (names w' y)) (ml_items (i_list ow' c)) (txt nm) = FSome x ->
    create (fun w => find_method (run k ok n) w o c nm) o (fresh c nm (Some o) t inv) w' = Ret (touch w' (o, LList c)) (Some x)).
  { intros ow' Hi Hg' Hf. unfold create, find_method at 1. rewrite (check_idle _ w' o Hi). cbn [bind]. unfold list_of. rewrite Hg', Hf. reflexivity. }
  unfold create in E. destruct (check (run k ok n) w o) as [w1 []|e w1| | | |] eqn:EC; try (unfold find_method in E; rewrite EC in E; discriminate).
  destruct (check_inv ok (run k ok n) (run_ok ok k n) w o w1 HW Hk Ho EC) as (HW1 & Hk1 & Hc1 & HS).
  pose proof (settled_idle w1 o Hc1 HS) as Hi. destruct Hc1 as (ow & Hg1 & _).
  unfold find_method in E at 1. rewrite EC in E. cbn [bind] in E. unfold list_of in E. rewrite Hg1 in E.
  destruct (find_answering w1 o ow c (txt nm) Hg1) as [(y & Ey & Hy)|[Ey Hy]]; rewrite Ey in E; cbn [bind] in E.
  - injection E as <- <-. apply (HF ow); [eapply idle_same; [apply same_touch|exact Hi]|exact Hg1|exact Ey].
  - set (w2 := touch w1 (o, LList c)) in *. assert (HW2 : WF false false ok w2) by (apply wf_locks; exact HW1).
    assert (Hno : forall z, ~ owns w2 o c nm z).
    { intros z Hz. apply (Hy z). apply (owns_answering ok w1 o ow c nm z HW1 Hg1). exact Hz. }
    pose proof (not_refused' ok w2 o c nm t inv ow HW2 Hg1 Hno) as HN. pose proof (add_new_case w2 o ow (fresh c nm (Some o) t inv) Hg1) as HA.
    destruct (add_new w2 o (fresh c nm (Some o) t inv)) as [w3 id| |]; [|contradiction|discriminate].
    injection E as <- <-. destruct HA as (_ & -> & l & -> & Hadd). cbn [i_cat fresh] in Hadd.
    pose proof (appended_new ok w2 o ow c nm t inv l HW2 Hg1 Hadd) as HA.
    set (w' := with_new w2 o (fresh c nm (Some o) t inv) l) in *.
    assert (Hi' : idle w' o) by (eapply appended_idle; [exact HA|eapply idle_same; [apply same_touch|exact Hi]]).
    destruct HA as (_ & (xt & Hx & _ & Hn & _) & Hoth & (ow0 & ow' & Ho0 & Ho' & HO & Hl & _)).
    change (get w2 o) with (get w1 o) in Ho0. rewrite Hg1 in Ho0. injection Ho0 as <-. apply (HF ow' Hi' Ho'). rewrite Hl.
    set (id := List.length (w_items w2)) in *.
    assert (HO' : Forall (fun z => ~ answers (txt (names w' z)) (txt nm)) (ml_items (i_list ow c))).
    { apply Forall_forall. intros z Hz Hans. destruct (wf_list _ _ _ w2 HW2 o ow c z Hg1 Hz) as (zt & Hgz & _).
      assert (Hzid : z <> id) by (apply get_lt in Hgz; unfold id; lia).
      assert (En : names w' z = names w1 z).
      { unfold names. destruct (Nat.eq_dec z o) as [->|Hzo].
        - rewrite Ho'. rewrite Hg1. apply HO.
        - rewrite (Hoth z Hzo Hzid). reflexivity. }
      rewrite En in Hans. apply In_nth_error in Hz as [i Hz]. apply (Hy z). exists i. unfold entry. rewrite Hg1. auto. }
    assert (Hid : answers (txt (names w' id)) (txt nm)) by (left; unfold names; rewrite Hx, Hn; reflexivity).
    rewrite <- (app_nil_r (_ ++ [id])). apply find_first; assumption.
Qed.

Lemma create_property_again ok k n w o it nm inv w' x :
  reachable ok w -> quiet w -> get w o = Some it -> i_cat it = Class -> nm <> ""%string ->
  create_property (run k ok n) k w o nm inv = Ret w' (Some x) -> owns w' o Property nm x ->
  exists w'', create_property (run k ok n) k w' o nm inv = Ret w'' (Some x) /\ same w' w''.
Proof.
  intros HR HQ Hg Hc Hn E Hx. destruct (reachable_wf ok w HR) as [HW Hk]. assert (Ho : has_cat Class w o) by (exists it; auto).
  pose proof (create_property_post false false ok (run k ok n) k (run_ok ok k n) w o nm inv HW Hk (class_cont _ _ Ho)) as HP.
  rewrite E in HP. destruct HP as (Hs & _ & _). pose proof (steps_wf _ _ _ _ _ HW Hs) as HW'.
  pose proof (has_cat_steps _ _ _ _ _ _ _ HW Hs Ho) as (it' & Hg' & Hc').
  assert (Hi : idle w o) by (exists it; split; [exact Hg|eapply HQ; eauto]).
  assert (Hi' : idle w' o).
  { destruct (create_property_quiet ok (run k ok n) k nm inv w o w' (Some x) Hn HQ HW Hk Ho E) as [(b & y & _ & _ & _ & _ & HS)|(_ & _ & HA)];
      [eapply idle_same; eauto|eapply appended_idle; eauto]. }
  apply String.eqb_neq in Hn as Hn'.
  exists (touch w' (o, LList Property)). split; [|apply same_touch]. unfold create_property, create, get_property. rewrite Hn', Hg', Hc'. cbn [cat_eqb].
  assert (Hk0 : k <> 0).
  { intro H0. unfold create_property, create, get_property in E. rewrite Hn', Hg, Hc in E. cbn [cat_eqb] in E. subst k. discriminate. }
  destruct k as [|k']; [congruence|]. cbn [dfs]. unfold get_item at 1. rewrite (check_idle _ w' o Hi'). cbn [bind]. unfold list_of. rewrite Hg'.
  apply (find_owns ok w' o it' Property nm x HW' Hg' Hn) in Hx. rewrite Hx. reflexivity.
Qed.
