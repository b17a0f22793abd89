(** Lemmas for the properties of the registry. *)
From Coq Require Import List Bool Arith String Ascii Lia.
From Verif Require Import Util RegistryModel RegistryProofs ListsModel ListsSpec ListsProofs StringsModel StringsSpec StringsProofs.
From Verif Require Import ReflModel ReflSpec ReflProofs ReflExec ReflMono ReflTerm.
Import ListNotations.
Local Open Scope list_scope.

(** ** Reachable registries *)

Lemma reachable_wf ok w : reachable ok w -> WF false false ok w /\ hk false w.
Proof.
  induction 1 as [|k n w a it p w' _ [HW Hk] Hg Hc Hl|w a it p _ [HW Hk] Hg Hd Hl|w a it _ [HW Hk] Hg Hl|w a k _ [HW Hk] Hin|w _ [HW Hk]].
  - split; [apply wf0|intros l []].
  - assert (Ha : cont w a) by (exists it; auto).
    pose proof (run_post false false ok k n w a p HW Hk Ha (pre_ff w p)) as HP.
    destruct (run k ok n w a p) as [w1 x|e w1| | | |]; cbn in *; try discriminate; injection Hl as ->.
    + destruct HP as (Hs & Hb & _). split; [eapply steps_wf; eauto|eapply bal_hk; eauto].
    + destruct HP as (Hs & Hb). split; [eapply steps_wf; eauto|eapply bal_hk; eauto].
  - split; [eapply prim_wf; [exact HW|eapply PBegin; eauto]|]. intros l. rewrite upd_held. apply Hk.
  - split; [eapply prim_wf; [exact HW|eapply PEnd; eauto]|]. intros l. rewrite upd_held. apply Hk.
  - split; [apply wf_locks; exact HW|]. intros l [<-|Hl]; [|apply Hk; exact Hl]. cbn. destruct Hin as [<-|[<-|[<-|[<-|[<-|[<-|[]]]]]]]; reflexivity.
  - split; [apply wf_locks; exact HW|]. intros l Hl. apply Hk. cbn in Hl. destruct (w_held w); [exact Hl|right; exact Hl].
Qed.

(** What a later registry keeps. *)
Lemma run_grows ok k n w a it p w' : reachable ok w -> get w a = Some it -> is_container (i_cat it) = true ->
  live (run k ok n w a p) = Live w' -> extends w w' /\ bal w w'.
Proof.
  intros HR Hg Hc Hl. destruct (reachable_wf ok w HR) as [HW Hk]. assert (Ha : cont w a) by (exists it; auto).
  pose proof (run_post false false ok k n w a p HW Hk Ha (pre_ff w p)) as HP.
  destruct (run k ok n w a p) as [w1 x|e w1| | | |]; cbn in *; try discriminate; injection Hl as ->.
  - destruct HP as (Hs & Hb & _). split; [eapply steps_extends; eauto|exact Hb].
  - destruct HP as (Hs & Hb). split; [eapply steps_extends; eauto|exact Hb].
Qed.

Lemma entry_extends w w' a c i x : extends w w' -> entry w a c i = Some x -> entry w' a c i = Some x.
Proof.
  intros [H _] He. unfold entry in *. destruct (get w a) as [it|] eqn:E; [|discriminate].
  destruct (H a it E) as (it' & E' & G). rewrite E'. destruct (g_list _ _ G c) as [r ->].
  rewrite nth_error_app1; [exact He|]. apply nth_error_Some. congruence.
Qed.

(** ** Names *)

Lemma owns_in ok w a it c n x : WF false false ok w -> get w a = Some it -> (owns w a c n x <-> In x (ml_items (i_list it c)) /\ names w x = n).
Proof.
  intros HW Hg. unfold owns, entry. rewrite Hg. split.
  - intros (i & xt & He & Hx & Hn). split; [eapply nth_error_In; eauto|]. unfold names. rewrite Hx. exact Hn.
  - intros [Hin Hn]. destruct (wf_list _ _ _ w HW a it c x Hg Hin) as (xt & Hx & _). apply In_nth_error in Hin as [i Hi].
    exists i, xt. split; [exact Hi|]. split; [exact Hx|]. unfold names in Hn. rewrite Hx in Hn. exact Hn.
Qed.
Lemma find_owns ok w a it c n x : WF false false ok w -> get w a = Some it -> n <> ""%string ->
  (ml_find (i_list it c) n = Some x <-> owns w a c n x).
Proof.
  intros HW Hg Hn. rewrite (owns_in ok w a it c n x HW Hg). apply ml_find_iff; [|exact Hn]. eapply wf_names; eauto.
Qed.

Lemma find_answering w a it c q : get w a = Some it ->
  (exists x, findMethod (fun x => txt (names w x)) (ml_items (i_list it c)) q = FSome x /\ answering w a c q x) \/
  (findMethod (fun x => txt (names w x)) (ml_items (i_list it c)) q = FNone /\ forall x, ~ answering w a c q x).
Proof.
  intro Hg. destruct (findMethod_spec (fun x => txt (names w x)) (ml_items (i_list it c)) q) as [(l1 & x & l2 & El & E & Hx & HF)|[E HF]].
  - left. exists x. split; [exact E|]. exists (List.length l1). unfold entry. rewrite Hg, El. split; [|exact Hx].
    rewrite nth_error_app2 by lia. rewrite Nat.sub_diag. reflexivity.
  - right. split; [exact E|]. intros x (i & Hi & Hx). unfold entry in Hi. rewrite Hg in Hi. apply nth_error_In in Hi.
    rewrite Forall_forall in HF. exact (HF x Hi Hx).
Qed.

Lemma txt_inj a b : txt a = txt b -> a = b.
Proof. unfold txt. intro H. rewrite <- (string_of_list_ascii_of_string a), <- (string_of_list_ascii_of_string b), H. reflexivity. Qed.
Lemma txt_str t : txt (str t) = t.
Proof. apply list_ascii_of_string_of_list_ascii. Qed.

(** By a full signature, only the item of that name answers. *)
Lemma answering_sig ok w a it c n args x : WF false false ok w -> get w a = Some it ->
  (answering w a c (signature n args) x <-> owns w a c (str (signature n args)) x).
Proof.
  intros HW Hg. rewrite (owns_in ok w a it c _ x HW Hg). split.
  - intros (i & Hi & Hx). unfold entry in Hi. rewrite Hg in Hi. apply nth_error_In in Hi. split; [exact Hi|].
    apply answers_nonempty_sig in Hx; [|apply signature_has_paren]. apply txt_inj. rewrite txt_str. auto.
  - intros [Hin Hn]. apply In_nth_error in Hin as [i Hi]. exists i. unfold entry. rewrite Hg. split; [exact Hi|].
    left. rewrite Hn, txt_str. reflexivity.
Qed.

(** ** Adding *)

Lemma only_lists_refl it : only_lists it it.
Proof. repeat split. Qed.

Lemma appended_new ok w o ow c n t inv l : WF false false ok w -> get w o = Some ow ->
  ml_add (names (World (w_items w ++ [fresh c n (Some o) t inv]) (w_class w) (w_held w) (w_relock w)))
         (i_list ow c) (Some (List.length (w_items w))) = (l, true) ->
  appended w (with_new w o (fresh c n (Some o) t inv) l) o c n t inv.
Proof.
  intros HW Ho Hadd. destruct (add_result _ _ _ w o ow c n t inv l HW Ho Hadd) as (Hit & _ & _).
  pose proof (get_lt _ _ _ Ho) as Hlt. set (id := List.length (w_items w)) in *.
  assert (HG : forall x, get (with_new w o (fresh c n (Some o) t inv) l) x =
    if x =? id then Some (fresh c n (Some o) t inv) else if x =? o then Some (set_list c l ow) else get w x).
  { intro x. rewrite (get_with_new w o _ l ow x Ho). reflexivity. }
  split; [|split; [|split]].
  - unfold with_new. rewrite upd_length. cbn. rewrite app_length. cbn. fold id. lia.
  - exists (fresh c n (Some o) t inv). fold id. rewrite HG, Nat.eqb_refl. repeat split.
  - fold id. intros a H1 H2. rewrite HG. apply Nat.eqb_neq in H1, H2. rewrite H1, H2. reflexivity.
  - fold id. exists ow, (set_list c l ow). split; [exact Ho|]. split.
    + rewrite HG, Nat.eqb_refl. assert (E : (o =? id) = false) by (apply Nat.eqb_neq; lia). rewrite E. reflexivity.
    + split; [repeat split|]. split; [cbn; rewrite cat_eqb_refl; exact Hit|]. intros c' Hc. cbn.
      destruct (cat_eqb c c') eqn:E; [apply cat_eqb_eq in E; congruence|reflexivity].
Qed.

(** A name no member has can be added. *)
Lemma not_refused' ok w o c n t inv ow : WF false false ok w -> get w o = Some ow ->
  (forall x, ~ owns w o c n x) -> add_new w o (fresh c n (Some o) t inv) <> Refused.
Proof.
  intros HW Ho Hno H. pose proof (add_new_case w o ow (fresh c n (Some o) t inv) Ho) as HA. rewrite H in HA. destruct HA as [_ HA].
  cbn [i_cat fresh] in HA. set (id := List.length (w_items w)) in *.
  set (nm := names (World (w_items w ++ [fresh c n (Some o) t inv]) (w_class w) (w_held w) (w_relock w))) in *.
  assert (Hlt : forall x, In x (ml_items (i_list ow c)) -> x <> id).
  { intros x Hx. destruct (wf_list _ _ _ w HW o ow c x Ho Hx) as (xt & Hg & _). apply get_lt in Hg. unfold id. lia. }
  assert (HO : ml_ok nm (i_list ow c)).
  { eapply ml_ok_ext; [|eapply (wf_names _ _ _ w HW); eauto]. intros x Hx. symmetry. apply names_app. apply Hlt. exact Hx. }
  assert (Hid : nm id = n) by (unfold nm, names; rewrite get_app; unfold id; rewrite Nat.eqb_refl; reflexivity).
  rewrite (ml_add_char nm _ _ (proj1 HO)) in HA.
  match type of HA with context [in_dec ?a ?b ?c] => destruct (in_dec a b c) as [Hi|Hi] end; [|discriminate].
  rewrite Hid in Hi. apply in_map_iff in Hi as (x & E & Hx). apply (Hno x). apply (owns_in ok w o ow c n x HW Ho).
  split; [exact Hx|]. rewrite <- E. symmetry. apply names_app. apply Hlt. exact Hx.
Qed.
(** ... and one that a member has cannot. *)
Lemma refused' ok w o c n t inv ow x : WF false false ok w -> get w o = Some ow -> owns w o c n x ->
  forall w2 id, add_new w o (fresh c n (Some o) t inv) <> Added w2 id.
Proof.
  intros HW Ho Hx w2 id H. pose proof (add_new_case w o ow (fresh c n (Some o) t inv) Ho) as HA. rewrite H in HA.
  destruct HA as (_ & -> & l & _ & Hadd). cbn [i_cat fresh] in Hadd.
  destruct (add_result _ _ _ w o ow c n t inv l HW Ho Hadd) as (_ & _ & Hnew).
  apply (owns_in ok w o ow c n x HW Ho) in Hx as [Hin Hn]. exact (Hnew x Hin Hn).
Qed.

Lemma same_refl w : same w w.
Proof. split; reflexivity. Qed.
Lemma same_touch w l : same w (touch w l).
Proof. split; reflexivity. Qed.
Lemma same_trans a b c : same a b -> same b c -> same a c.
Proof. intros [] []. split; congruence. Qed.
Lemma same_get w w' a : same w w' -> get w' a = get w a.
Proof. intros [E _]. unfold get. rewrite E. reflexivity. Qed.
Lemma same_list w w' a c : same w w' -> list_of w' a c = list_of w a c.
Proof. intro H. unfold list_of. rewrite (same_get w w' a H). reflexivity. Qed.
Lemma same_names w w' a : same w w' -> names w' a = names w a.
Proof. intro H. unfold names. rewrite (same_get w w' a H). reflexivity. Qed.
Lemma same_entry w w' a c i : same w w' -> entry w' a c i = entry w a c i.
Proof. intro H. unfold entry. rewrite (same_get w w' a H). reflexivity. Qed.
Lemma same_owns w w' a c n x : same w w' -> (owns w' a c n x <-> owns w a c n x).
Proof.
  intro H. unfold owns. split; intros (i & xt & H1 & H2 & H3); exists i, xt.
  - rewrite (same_entry w w') in H1 by exact H. rewrite (same_get w w') in H2 by exact H. auto.
  - rewrite (same_entry w w') by exact H. rewrite (same_get w w') by exact H. auto.
Qed.
Lemma same_class w w' t : same w w' -> class_of w' t = class_of w t.
Proof. intros [_ E]. unfold class_of. rewrite E. reflexivity. Qed.
Lemma same_wf ok w w' : same w w' -> WF false false ok w -> WF false false ok w'.
Proof. intros [E1 E2] H. destruct w' as [i' c' h r]. cbn in *. subst. apply wf_locks. exact H. Qed.
Lemma appended_touch w w1 w' o c n t inv : same w w1 -> appended w1 w' o c n t inv -> appended w w' o c n t inv.
Proof.
  intros [E _] H. unfold appended, get in *. rewrite E in H. exact H.
Qed.

(** ** Creating *)

Section Create.
  Variable ok : nat -> nat -> bool.
  Variable run : world -> nat -> prog -> out unit.
  Variable k : nat.
  Hypothesis Hrun : forall w a p, WF false false ok w -> hk false w -> cont w a -> prog_pre false false w p ->
    post false false ok w (run w a p) (fun _ _ => True).

  Lemma check_inv w a w1 : WF false false ok w -> hk false w -> cont w a -> check run w a = Ret w1 tt ->
    WF false false ok w1 /\ hk false w1 /\ cont w1 a /\ settled a w1.
  Proof.
    intros HW Hk Hc E. pose proof (check_post false false ok run Hrun w a HW Hk Hc) as HP. rewrite E in HP.
    destruct HP as (Hs & Hb & HS). split; [eapply steps_wf; eauto|]. split; [eapply bal_hk; eauto|].
    split; [eapply cont_steps; [exact HW|exact Hs|exact Hc]|exact HS].
  Qed.

  (** A container that is settled or being defined is left alone. *)
  Definition idle (w : world) (a : nat) : Prop := exists it, get w a = Some it /\ (i_def it = None \/ i_lock it = true).
  Lemma check_idle w a : idle w a -> check run w a = Ret w tt.
  Proof. intros (it & Hg & H). unfold check. rewrite Hg. destruct (i_def it) as [p|]; [|reflexivity]. destruct H as [H|H]; [discriminate|]. rewrite H. reflexivity. Qed.
  Lemma settled_idle w a : cont w a -> settled a w -> idle w a.
  Proof. intros (it & Hg & _) HS. exists it. split; [exact Hg|]. destruct (i_lock it) eqn:El; [right; reflexivity|left; apply HS; assumption]. Qed.

  Lemma create_own c n t inv w o w' r : c <> Class -> n <> ""%string ->
    WF false false ok w -> hk false w -> cont w o ->
    create (fun w => get_item run w o c n) o (fresh c n (Some o) t inv) w = Ret w' r ->
    exists w1, check run w o = Ret w1 tt /\
      ((exists x, owns w1 o c n x /\ r = Some x /\ same w1 w') \/
       ((forall x, ~ owns w1 o c n x) /\ r = Some (List.length (w_items w1)) /\ appended w1 w' o c n t inv)).
  Proof.
    intros Hc Hn HW Hk Ho E. unfold create, get_item in E. destruct (check run w o) as [w1 []|e w1| | | |] eqn:EC; try discriminate.
    exists w1. split; [reflexivity|]. destruct (check_inv w o w1 HW Hk Ho EC) as (HW1 & Hk1 & (ow & Hg & Hco) & HS).
    cbn [bind] in E. unfold list_of in E. rewrite Hg in E. destruct (ml_find (i_list ow c) n) as [x|] eqn:EF.
    - injection E as <- <-. left. exists x. split; [apply (find_owns ok w1 o ow c n x HW1 Hg Hn); exact EF|]. split; [reflexivity|apply same_touch].
    - assert (Hno : forall x, ~ owns w1 o c n x).
      { intros x Hx. apply (find_owns ok w1 o ow c n x HW1 Hg Hn) in Hx. congruence. }
      right. split; [exact Hno|]. set (w2 := touch w1 (o, LList c)) in *.
      assert (HW2 : WF false false ok w2) by (apply wf_locks; exact HW1).
      assert (Hno2 : forall x, ~ owns w2 o c n x) by (intros x Hx; exact (Hno x Hx)).
      pose proof (not_refused' ok w2 o c n t inv ow HW2 Hg Hno2) as HR. pose proof (add_new_case w2 o ow (fresh c n (Some o) t inv) Hg) as HA.
      destruct (add_new w2 o (fresh c n (Some o) t inv)) as [w3 id| |]; [|contradiction|discriminate].
      injection E as <- <-. destruct HA as (_ & -> & l & -> & Hadd). split; [reflexivity|].
      eapply appended_touch with (w1 := w2); [apply same_touch|]. eapply appended_new; eauto.
  Qed.

  Lemma create_class_own n t w o w' r : n <> ""%string -> WF false false ok w -> hk false w -> cont w o ->
    create_class run w o n t = Ret w' r ->
    exists w1, check run w o = Ret w1 tt /\
      ((exists x, owns w1 o Class n x /\ r = Some x /\ same w1 w') \/
       ((forall x, ~ owns w1 o Class n x) /\ class_of w1 t = None /\ r = Some (List.length (w_items w1)) /\
        appended w1 w' o Class n t 0 /\ class_of w' t = Some (List.length (w_items w1)))).
  Proof.
    intros Hn HW Hk Ho E. unfold create_class, get_item in E. destruct (check run w o) as [w1 []|e w1| | | |] eqn:EC; try discriminate.
    exists w1. split; [reflexivity|]. destruct (check_inv w o w1 HW Hk Ho EC) as (HW1 & Hk1 & (ow & Hg & Hco) & HS).
    cbn [bind] in E. unfold list_of in E. rewrite Hg in E. destruct (ml_find (i_list ow Class) n) as [x|] eqn:EF.
    - injection E as <- <-. left. exists x. split; [apply (find_owns ok w1 o ow Class n x HW1 Hg Hn); exact EF|]. split; [reflexivity|apply same_touch].
    - assert (Hno : forall x, ~ owns w1 o Class n x).
      { intros x Hx. apply (find_owns ok w1 o ow Class n x HW1 Hg Hn) in Hx. congruence. }
      right. split; [exact Hno|]. set (w2 := touch w1 (o, LList Class)) in *.
      assert (HW2 : WF false false ok w2) by (apply wf_locks; exact HW1).
      assert (Hno2 : forall x, ~ owns w2 o Class n x) by (intros x Hx; exact (Hno x Hx)).
      change (class_of w2 t) with (class_of w1 t) in E. destruct (class_of w1 t) as [z|] eqn:Et; [discriminate|].
      pose proof (not_refused' ok w2 o Class n t 0 ow HW2 Hg Hno2) as HR. pose proof (add_new_case w2 o ow (fresh Class n (Some o) t 0) Hg) as HA.
      destruct (add_new w2 o (fresh Class n (Some o) t 0)) as [w3 id| |]; [|contradiction|discriminate].
      injection E as <- <-. destruct HA as (_ & -> & l & -> & Hadd). split; [reflexivity|]. split; [reflexivity|]. split.
      + change (appended w1 (with_new w2 o (fresh Class n (Some o) t 0) l) o Class n t 0).
        eapply appended_touch with (w1 := w2); [apply same_touch|]. eapply appended_new; eauto.
      + change (class_of (add_class (with_new w2 o (fresh Class n (Some o) t 0) l) t (List.length (w_items w1))) t = Some (List.length (w_items w1))).
        rewrite class_of_add, with_new_class. change (class_of w2 t) with (class_of w1 t). rewrite Et, Nat.eqb_refl. reflexivity.
  Qed.

  (** Look-up by [findMethod] on the container itself. *)
  Lemma find_method_eq w a c q w1 ow : check run w a = Ret w1 tt -> get w1 a = Some ow ->
    (exists x, find_method run w a c q = Ret (touch w1 (a, LList c)) (Some x) /\ answering w1 a c (txt q) x) \/
    (find_method run w a c q = Ret (touch w1 (a, LList c)) None /\ forall x, ~ answering w1 a c (txt q) x).
  Proof.
    intros EC Hg. unfold find_method. rewrite EC. cbn [bind]. unfold list_of. rewrite Hg.
    destruct (find_answering w1 a ow c (txt q) Hg) as [(x & E & Hx)|[E Hx]]; rewrite E; [left|right]; eauto.
  Qed.

  Lemma owns_answering w a it c n x : WF false false ok w -> get w a = Some it -> owns w a c n x -> answering w a c (txt n) x.
  Proof.
    intros HW Hg (i & xt & He & Hx & Hn). exists i. split; [exact He|]. left. unfold names. rewrite Hx, Hn. reflexivity.
  Qed.

  Lemma create_by_method c n t inv w o w' r : c <> Class ->
    WF false false ok w -> hk false w -> cont w o ->
    create (fun w => find_method run w o c n) o (fresh c n (Some o) t inv) w = Ret w' r ->
    exists w1, check run w o = Ret w1 tt /\
      ((exists x, answering w1 o c (txt n) x /\ r = Some x /\ same w1 w') \/
       ((forall x, ~ answering w1 o c (txt n) x) /\ r = Some (List.length (w_items w1)) /\ appended w1 w' o c n t inv)).
  Proof.
    intros Hc HW Hk Ho E. unfold create in E.
    destruct (check run w o) as [w1 []|e w1| | | |] eqn:EC; try (unfold find_method in E; rewrite EC in E; discriminate).
    exists w1. split; [reflexivity|]. destruct (check_inv w o w1 HW Hk Ho EC) as (HW1 & Hk1 & (ow & Hg & Hco) & HS).
    destruct (find_method_eq w o c n w1 ow EC Hg) as [(x & E1 & Hx)|[E1 Hx]]; rewrite E1 in E; cbn [bind] in E.
    - injection E as <- <-. left. exists x. split; [exact Hx|]. split; [reflexivity|apply same_touch].
    - right. split; [exact Hx|]. set (w2 := touch w1 (o, LList c)) in *.
      assert (HW2 : WF false false ok w2) by (apply wf_locks; exact HW1).
      assert (Hno : forall x, ~ owns w2 o c n x).
      { intros x H. apply (Hx x). apply (owns_answering w1 o ow c n x HW1 Hg). exact H. }
      pose proof (not_refused' ok w2 o c n t inv ow HW2 Hg Hno) as HR. pose proof (add_new_case w2 o ow (fresh c n (Some o) t inv) Hg) as HA.
      destruct (add_new w2 o (fresh c n (Some o) t inv)) as [w3 id| |]; [|contradiction|discriminate].
      injection E as <- <-. destruct HA as (_ & -> & l & -> & Hadd). split; [reflexivity|].
      eapply appended_touch with (w1 := w2); [apply same_touch|]. eapply appended_new; eauto.
  Qed.

  (** ** Searching a registry with no waiting definitions *)

  Lemma quiet_idle w a : quiet w -> cont w a -> idle w a.
  Proof. intros HQ (it & Hg & _). exists it. split; [exact Hg|]. eapply HQ; eauto. Qed.
  Lemma quiet_same w w' : same w w' -> quiet w -> quiet w'.
  Proof. intros HS HQ a it Hg. rewrite (same_get w w') in Hg by exact HS. eapply HQ; eauto. Qed.
  Lemma has_cat_same c w w' a : same w w' -> has_cat c w a -> has_cat c w' a.
  Proof. intros HS (it & Hg & Hc). exists it. rewrite (same_get w w') by exact HS. auto. Qed.
  Lemma cont_same w w' a : same w w' -> cont w a -> cont w' a.
  Proof. intros HS (it & Hg & Hc). exists it. rewrite (same_get w w') by exact HS. auto. Qed.

  Lemma dfs_quiet {R} (own : world -> nat -> out (option R)) (h : nat -> option R) w0 : WF false false ok w0 ->
    (forall w a, same w0 w -> has_cat Class w0 a -> exists w2, own w a = Ret w2 (h a) /\ same w0 w2 /\ w_held w2 = w_held w) ->
    forall m w a, same w0 w -> has_cat Class w0 a ->
    dfs own m w a = Fuel \/ exists w2 r, dfs own m w a = Ret w2 r /\ same w0 w2 /\ w_held w2 = w_held w /\
      match r with
      | Some x => exists b, up w0 a b /\ h b = Some x /\ (b = a \/ h a = None)
      | None => forall b, up w0 a b -> h b = None
      end.
  Proof.
    intros HW Hown. induction m as [|m IH]; intros w a HS Ha; [left; reflexivity|]. cbn [dfs].
    destruct (Hown w a HS Ha) as (w1 & E1 & HS1 & Eh1). rewrite E1. cbn [bind]. destruct (h a) as [x|] eqn:Eh.
    { right. exists w1, (Some x). split; [reflexivity|]. split; [exact HS1|]. split; [exact Eh1|].
      exists a. split; [constructor|auto]. }
    destruct Ha as (it & Hg & Hc). rewrite (same_get w0 w1 a HS1), Hg. unfold holding.
    set (w2 := acquire w1 (a, LBases)).
    set (loop := fix loop (w : world) (l : list (nat * nat)) : out (option R) :=
      match l with
      | [] => Ret w None
      | (t, _) :: l' => match class_of w t with
          | None => UB
          | Some b => bind (dfs own m w b) (fun w' r => match r with Some x => Ret w' (Some x) | None => loop w' l' end)
          end
      end).
    assert (HL : forall l w2, same w0 w2 -> (forall t f, In (t, f) l -> In (t, f) (i_bases it)) ->
      loop w2 l = Fuel \/ exists w3 r, loop w2 l = Ret w3 r /\ same w0 w3 /\ w_held w3 = w_held w2 /\
        match r with
        | Some x => exists b t f d, In (t, f) l /\ class_of w0 t = Some d /\ up w0 d b /\ h b = Some x
        | None => forall t f d b, In (t, f) l -> class_of w0 t = Some d -> up w0 d b -> h b = None
        end).
    { induction l as [|[t f] l IHl]; intros v HSv Hl.
      - right. exists v, None. split; [reflexivity|]. split; [exact HSv|]. split; [reflexivity|]. intros ? ? ? ? [].
      - cbn [loop]. rewrite (same_class w0 v t HSv).
        assert (Hin : In t (map fst (i_bases it))) by (apply in_map_iff; exists (t, f); split; [reflexivity|apply Hl; left; reflexivity]).
        destruct (class_of w0 t) as [d|] eqn:Ed; [|exfalso; exact (wf_base _ _ _ _ HW a it t Hg Hin Ed)].
        destruct (wf_class1 _ _ _ _ HW t d Ed) as (dt & Hgd & Hcd & _).
        destruct (IH v d HSv) as [EF|(w3 & r & E3 & HS3 & Eh3 & HR)]; [exists dt; auto|rewrite EF; left; reflexivity|].
        rewrite E3. cbn [bind]. destruct r as [x|].
        + right. exists w3, (Some x). split; [reflexivity|]. split; [exact HS3|]. split; [exact Eh3|].
          destruct HR as (b & Hb & Hx & _). exists b, t, f, d. split; [left; reflexivity|]. auto.
        + destruct (IHl w3 HS3) as [EF|(w4 & r & E4 & HS4 & Eh4 & HR4)]; [intros; apply Hl; right; assumption|left; exact EF|].
          right. exists w4, r. split; [exact E4|]. split; [exact HS4|]. split; [congruence|]. destruct r as [x|].
          * destruct HR4 as (b & t' & f' & d' & Hin' & H). exists b, t', f', d'. split; [right; exact Hin'|exact H].
          * intros t' f' d' b [E|Hin'] Hd Hu; [|eapply HR4; eauto]. injection E as <- <-. rewrite Ed in Hd. injection Hd as <-. apply HR. exact Hu. }
    assert (HS2 : same w0 w2) by (destruct HS1; split; assumption).
    destruct (HL (i_bases it) w2 HS2 (fun _ _ H => H)) as [EF|(w3 & r & E3 & HS3 & Eh3 & HR)].
    { left. fold loop. rewrite EF. reflexivity. }
    right. fold loop. rewrite E3. exists (release w3), r. split; [reflexivity|]. split; [destruct HS3; split; assumption|].
    split; [cbn; rewrite Eh3; exact Eh1|]. destruct r as [x|].
    - destruct HR as (b & t & f & d & Hin & Hd & Hu & Hx). exists b. split; [eapply up_step; eauto|]. auto.
    - intros b Hu. inversion Hu as [? E|? it' t f d ? Hg' Hin Hd Hu']; subst; [exact Eh|].
      rewrite Hg in Hg'. injection Hg' as <-. eapply HR; eauto.
  Qed.

  (** Defining on a class, when an ancestor may already have it. *)
  Lemma create_dfs c n t inv w o (own : world -> nat -> out (option nat)) (h : nat -> option nat) w' r : c <> Class ->
    WF false false ok w -> hk false w -> has_cat Class w o ->
    (forall w1 a, same w w1 -> has_cat Class w a -> exists w2, own w1 a = Ret w2 (h a) /\ same w w2 /\ w_held w2 = w_held w1) ->
    (h o = None -> forall x, ~ owns w o c n x) ->
    create (fun w => dfs own k w o) o (fresh c n (Some o) t inv) w = Ret w' r ->
    (exists b x, up w o b /\ h b = Some x /\ (b = o \/ h o = None) /\ r = Some x /\ same w w') \/
    ((forall b, up w o b -> h b = None) /\ r = Some (List.length (w_items w)) /\ appended w w' o c n t inv).
  Proof.
    intros Hc HW Hk Ho Hown Hno E. unfold create in E.
    destruct (dfs_quiet own h w HW Hown k w o (same_refl w) Ho) as [EF|(w1 & r1 & E1 & HS1 & Eh1 & HR)]; [rewrite EF in E; discriminate|].
    rewrite E1 in E. cbn [bind] in E. destruct r1 as [x|].
    - injection E as <- <-. destruct HR as (b & Hb & Hx & Hba). left. exists b, x. auto.
    - right. split; [exact HR|].
      assert (HW1 : WF false false ok w1) by (eapply same_wf; eauto).
      destruct Ho as (ow & Hg & Hco). assert (Hg1 : get w1 o = Some ow) by (rewrite (same_get w w1) by exact HS1; exact Hg).
      assert (Hno1 : forall x, ~ owns w1 o c n x).
      { intros x Hx. apply (same_owns w w1 o c n x HS1) in Hx. revert Hx. apply Hno. apply HR. constructor. }
      pose proof (not_refused' ok w1 o c n t inv ow HW1 Hg1 Hno1) as HRf. pose proof (add_new_case w1 o ow (fresh c n (Some o) t inv) Hg1) as HA.
      destruct (add_new w1 o (fresh c n (Some o) t inv)) as [w3 id| |]; [|contradiction|discriminate].
      injection E as <- <-. destruct HA as (_ & -> & l & -> & Hadd).
      assert (El : List.length (w_items w1) = List.length (w_items w)) by (f_equal; apply HS1).
      split; [congruence|]. eapply appended_touch; [exact HS1|]. eapply appended_new; eauto.
  Qed.

  (** The own members a search looks at. *)
  Definition own_item (w : world) (c : cat) (n : string) (a : nat) : option nat :=
    match get w a with Some it => ml_find (i_list it c) n | None => None end.
  Definition own_method (w : world) (c : cat) (q : text) (a : nat) : option nat :=
    match get w a with
    | Some it => match findMethod (fun x => txt (names w x)) (ml_items (i_list it c)) q with FSome x => Some x | _ => None end
    | None => None
    end.
  Lemma own_item_ok w c n : quiet w -> forall w1 a, same w w1 -> has_cat Class w a ->
    exists w2, get_item run w1 a c n = Ret w2 (own_item w c n a) /\ same w w2 /\ w_held w2 = w_held w1.
  Proof.
    intros HQ w1 a HS Ha. unfold get_item. rewrite check_idle.
    2:{ apply quiet_idle; [eapply quiet_same; eauto|]. apply class_cont. eapply has_cat_same; eauto. }
    cbn [bind]. exists (touch w1 (a, LList c)). unfold own_item, list_of. rewrite (same_get w w1 a HS).
    destruct Ha as (it & Hg & _). rewrite Hg. split; [reflexivity|]. split; [exact HS|reflexivity].
  Qed.
  Lemma findMethod_ext {A} (f g : A -> text) l q : (forall x, f x = g x) -> findMethod f l q = findMethod g l q.
  Proof.
    intro H. unfold findMethod. generalize (@FNone A). induction l as [|x l IH]; intro s; cbn [for_each]; [reflexivity|].
    rewrite H. destruct (method_matches (g x) q) as [[]|]; cbn; auto.
  Qed.
  Lemma own_method_ok w c q : quiet w -> forall w1 a, same w w1 -> has_cat Class w a ->
    exists w2, find_method run w1 a c q = Ret w2 (own_method w c (txt q) a) /\ same w w2 /\ w_held w2 = w_held w1.
  Proof.
    intros HQ w1 a HS Ha. unfold find_method. rewrite check_idle.
    2:{ apply quiet_idle; [eapply quiet_same; eauto|]. apply class_cont. eapply has_cat_same; eauto. }
    cbn [bind]. exists (touch w1 (a, LList c)). unfold own_method, list_of. rewrite (same_get w w1 a HS).
    destruct Ha as (it & Hg & _). rewrite Hg. rewrite (findMethod_ext _ (fun x => txt (names w x))) by (intro; rewrite (same_names w w1) by exact HS; reflexivity).
    destruct (find_answering w a it c (txt q) Hg) as [(x & E & _)|[E _]]; rewrite E; (split; [reflexivity|]; split; [exact HS|reflexivity]).
  Qed.
  Lemma own_method_some w c q a it x : get w a = Some it -> own_method w c q a = Some x -> answering w a c q x.
  Proof.
    intros Hg. unfold own_method. rewrite Hg. destruct (find_answering w a it c q Hg) as [(y & E & Hy)|[E _]]; rewrite E; [|discriminate].
    intros [= <-]. exact Hy.
  Qed.
  Lemma own_method_none w c q a it : get w a = Some it -> own_method w c q a = None -> forall x, ~ answering w a c q x.
  Proof.
    intros Hg. unfold own_method. rewrite Hg. destruct (find_answering w a it c q Hg) as [(y & E & Hy)|[E H]]; rewrite E; [discriminate|]. auto.
  Qed.
  Lemma up_class w a b : WF false false ok w -> up w a b -> has_cat Class w a -> has_cat Class w b.
  Proof.
    intros HW H. induction H as [|a it t f b c Hg Hin Hd _ IH]; [auto|]. intros _. apply IH.
    destruct (wf_class1 _ _ _ _ HW t b Hd) as (bt & Hgb & Hcb & _). exists bt. auto.
  Qed.

  Lemma create_property_quiet n inv w o w' r : n <> ""%string -> quiet w ->
    WF false false ok w -> hk false w -> has_cat Class w o -> create_property run k w o n inv = Ret w' r ->
    (exists b x, up w o b /\ owns w b Property n x /\ (b = o \/ forall y, ~ owns w o Property n y) /\ r = Some x /\ same w w') \/
    ((forall b x, up w o b -> ~ owns w b Property n x) /\ r = Some (List.length (w_items w)) /\ appended w w' o Property n 0 inv).
  Proof.
    intros Hn HQ HW Hk Ho E. unfold create_property in E. apply String.eqb_neq in Hn as Hn'. rewrite Hn' in E.
    assert (E' : create (fun w => dfs (fun w a => get_item run w a Property n) k w o) o (fresh Property n (Some o) 0 inv) w = Ret w' r).
    { rewrite <- E. unfold create. destruct Ho as (ow & Hg & Hco). 
      assert (EG : forall v, get v o = Some ow \/ (exists ov, get v o = Some ov /\ i_cat ov = Class) -> get_property run k v o n = dfs (fun w a => get_item run w a Property n) k v o).
      { intros v Hv. unfold get_property. assert (Hv' : exists ov, get v o = Some ov /\ i_cat ov = Class) by (destruct Hv as [Hv|Hv]; [exists ow; auto|exact Hv]).
        destruct Hv' as (ov & Hgv & Hcv). rewrite Hgv, Hcv. cbn. rewrite Hn'. reflexivity. }
      rewrite (EG w) by (left; exact Hg).
      destruct (dfs_quiet _ (own_item w Property n) w HW (own_item_ok w Property n HQ) k w o (same_refl w)) as [EF|(w1 & r1 & E1 & HS1 & _)];
        [exists ow; auto|rewrite EF; reflexivity|]. rewrite E1. cbn [bind]. destruct r1; [reflexivity|].
      destruct (add_new w1 o _); try reflexivity. symmetry. apply EG. left. rewrite (same_get w w1) by exact HS1. exact Hg. }
    clear E. apply create_dfs with (h := own_item w Property n) in E'; auto; [|discriminate|apply own_item_ok; exact HQ|].
    - destruct E' as [(b & x & Hu & Hx & Hb & Hr & HS)|(Hno & Hr & HA)].
      + left. exists b, x. split; [exact Hu|]. destruct (up_class w o b HW Hu Ho) as (bt & Hgb & _).
        unfold own_item in Hx. rewrite Hgb in Hx. apply (find_owns ok w b bt Property n x HW Hgb Hn) in Hx. split; [exact Hx|]. split; [|auto].
        destruct Hb as [Hb|Hb]; [left; exact Hb|right]. intros y Hy. destruct Ho as (ow & Hg & _). unfold own_item in Hb. rewrite Hg in Hb.
        apply (find_owns ok w o ow Property n y HW Hg Hn) in Hy. congruence.
      + right. split; [|auto]. intros b x Hu Hx. specialize (Hno b Hu). destruct (up_class w o b HW Hu Ho) as (bt & Hgb & _).
        unfold own_item in Hno. rewrite Hgb in Hno. apply (find_owns ok w b bt Property n x HW Hgb Hn) in Hx. congruence.
    - intros Hh x Hx. destruct Ho as (ow & Hg & _). unfold own_item in Hh. rewrite Hg in Hh.
      apply (find_owns ok w o ow Property n x HW Hg Hn) in Hx. congruence.
  Qed.

  Lemma create_method_quiet nm args inv w o w' r : quiet w ->
    WF false false ok w -> hk false w -> has_cat Class w o -> create_method run k w o nm args inv = Ret w' r ->
    let sig := str (signature (txt nm) args) in
    (exists b x, up w o b /\ owns w b Method sig x /\ (b = o \/ forall y, ~ owns w o Method sig y) /\ r = Some x /\ same w w') \/
    ((forall b x, up w o b -> ~ owns w b Method sig x) /\ r = Some (List.length (w_items w)) /\ appended w w' o Method sig 0 inv).
  Proof.
    intros HQ HW Hk Ho E sig. unfold create_method in E. fold sig in E.
    assert (Hn' : (sig =? "")%string = false).
    { apply String.eqb_neq. intro H. pose proof (signature_has_paren (txt nm) args) as HP. unfold sig in H.
      rewrite <- (txt_str (signature (txt nm) args)), H in HP. destruct HP. }
    assert (Hq : txt sig = signature (txt nm) args) by apply txt_str.
    set (own := fun w a => find_method run w a Method sig) in *.
    assert (E' : create (fun w => dfs own k w o) o (fresh Method sig (Some o) 0 inv) w = Ret w' r).
    { rewrite <- E. unfold create. destruct Ho as (ow & Hg & Hco).
      assert (EG : forall v, get v o = Some ow -> get_method run k v o sig = dfs own k v o).
      { intros v Hv. unfold get_method. rewrite Hn', Hv, Hco. reflexivity. }
      rewrite (EG w Hg).
      destruct (dfs_quiet own (own_method w Method (txt sig)) w HW (own_method_ok w Method sig HQ) k w o (same_refl w)) as [EF|(w1 & r1 & E1 & HS1 & _)];
        [exists ow; auto|rewrite EF; reflexivity|]. rewrite E1. cbn [bind]. destruct r1; [reflexivity|].
      destruct (add_new w1 o _); try reflexivity. symmetry. apply EG. rewrite (same_get w w1) by exact HS1. exact Hg. }
    clear E. apply create_dfs with (h := own_method w Method (txt sig)) in E'; auto; [|discriminate|apply own_method_ok; exact HQ|].
    - destruct E' as [(b & x & Hu & Hx & Hb & Hr & HS)|(Hno & Hr & HA)].
      + left. exists b, x. split; [exact Hu|]. destruct (up_class w o b HW Hu Ho) as (bt & Hgb & _).
        apply (own_method_some _ _ _ _ bt) in Hx; [|exact Hgb]. rewrite Hq in Hx.
        apply (answering_sig ok w b bt Method (txt nm) args x HW Hgb) in Hx. split; [exact Hx|]. split; [|auto].
        destruct Hb as [Hb|Hb]; [left; exact Hb|right]. intros y Hy. destruct Ho as (ow & Hg & _).
        apply (own_method_none _ _ _ _ ow Hg Hb y). rewrite Hq. apply (answering_sig ok w o ow Method (txt nm) args y HW Hg). exact Hy.
      + right. split; [|auto]. intros b x Hu Hx. specialize (Hno b Hu). destruct (up_class w o b HW Hu Ho) as (bt & Hgb & _).
        apply (own_method_none _ _ _ _ bt Hgb Hno x). rewrite Hq. apply (answering_sig ok w b bt Method (txt nm) args x HW Hgb). exact Hx.
    - intros Hh x Hx. destruct Ho as (ow & Hg & _). apply (own_method_none _ _ _ _ ow Hg Hh x). rewrite Hq.
      apply (answering_sig ok w o ow Method (txt nm) args x HW Hg). exact Hx.
  Qed.
End Create.
