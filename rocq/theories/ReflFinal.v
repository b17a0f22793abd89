(** Remaining lemmas for the property theorems of the registry. *)
From Coq Require Import List Bool Arith String Ascii Lia.
From Verif Require Import Util RegistryModel RegistryProofs ListsModel ListsSpec ListsProofs StringsModel StringsSpec StringsProofs.
From Verif Require Import ReflModel ReflSpec ReflProofs ReflExec ReflMono ReflTerm ReflMore ReflBuilder ReflDefer ReflCtors.
Import ListNotations.
Local Open Scope list_scope.

Lemma global_cont sf df ok w : WF sf df ok w -> cont w 0.
Proof. intro HW. destruct (wf_global _ _ _ w HW) as (it & Hg & Hc & _). exists it. rewrite Hc. auto. Qed.

Lemma named_history ok w : history ok named_cmd w -> WF true false ok w /\ hk false w.
Proof.
  induction 1 as [|k n w p w' _ [HW Hk] Hp HL]; [split; [apply wf0|intros l []]|].
  assert (HPr : prog_pre true false w p) by (split; [auto|discriminate]).
  pose proof (run_post true false ok k n w 0 p HW Hk (global_cont _ _ _ _ HW) HPr) as HP.
  destruct (run k ok n w 0 p) as [w1 x|e w1| | | |]; cbn in HL; try discriminate; injection HL as ->.
  - destruct HP as (Hs & Hb & _). split; [eapply steps_wf; eauto|eapply bal_hk; eauto].
  - destruct HP as (Hs & Hb). split; [eapply steps_wf; eauto|eapply bal_hk; eauto].
Qed.
Lemma named_no_ub ok w p k n : history ok named_cmd w -> all_prog named_cmd p = true -> run k ok n w 0 p <> UB.
Proof.
  intros HH Hp E. destruct (named_history ok w HH) as [HW Hk]. assert (HPr : prog_pre true false w p) by (split; [auto|discriminate]).
  pose proof (run_post true false ok k n w 0 p HW Hk (global_cont _ _ _ _ HW) HPr) as HP. rewrite E in HP. discriminate.
Qed.

Lemma tame_history ok w : history ok tame_cmd w -> WF false true ok w /\ w_held w = [].
Proof.
  induction 1 as [|k n w p w' _ [HW Hh] Hp HL]; [split; [apply wf0|reflexivity]|].
  assert (HPr : prog_pre false true w p) by (split; [discriminate|auto]).
  assert (Hk : hk true w) by (intros l; rewrite Hh; intros []).
  pose proof (run_post false true ok k n w 0 p HW Hk (global_cont _ _ _ _ HW) HPr) as HP.
  destruct (run k ok n w 0 p) as [w1 x|e w1| | | |]; cbn in HL; try discriminate; injection HL as ->.
  - destruct HP as (Hs & Hb & _). split; [eapply steps_wf; eauto|rewrite (proj1 Hb); exact Hh].
  - destruct HP as (Hs & Hb). split; [eapply steps_wf; eauto|rewrite (proj1 Hb); exact Hh].
Qed.
Lemma tame_no_deadlock ok w p k n : history ok tame_cmd w -> all_prog tame_cmd p = true -> run k ok n w 0 p <> Deadlock.
Proof.
  intros HH Hp E. destruct (tame_history ok w HH) as [HW Hh]. assert (HPr : prog_pre false true w p) by (split; [discriminate|auto]).
  assert (Hk : hk true w) by (intros l; rewrite Hh; intros []).
  pose proof (run_post false true ok k n w 0 p HW Hk (global_cont _ _ _ _ HW) HPr) as HP. rewrite E in HP. discriminate.
Qed.

Lemma prefix_grows ok k n w a ait p q w1 b1 w2 o c i x : reachable ok w ->
  get w a = Some ait -> is_container (i_cat ait) = true ->
  exec k ok n w (on a) p = Ret w1 b1 -> live (exec k ok n w (on a) (p ++ q)) = Live w2 ->
  entry w1 o c i = Some x ->
  entry w2 o c i = Some x /\ (forall it, get w1 x = Some it -> exists it', get w2 x = Some it' /\ same_item it it').
Proof.
  intros HR Ha Hc E HL He. destruct (reachable_wf ok w HR) as [HW Hk].
  assert (Hb : bok false w (on a)).
  { unfold bok, on. cbn. split; [exists ait; auto|]. split; [eauto|constructor]. }
  pose proof (exec_post false false ok k n w (on a) p HW Hk Hb (pre_ff w p)) as HP. rewrite E in HP. destruct HP as (Hs & Hbal & Hb1).
  pose proof (steps_wf _ _ _ _ _ HW Hs) as HW1. pose proof (bal_hk _ _ _ Hbal Hk) as Hk1.
  unfold exec in HL. rewrite exec_app in HL. unfold exec in E. rewrite E in HL. cbn [bind] in HL.
  pose proof (exec_post false false ok k n w1 b1 q HW1 Hk1 Hb1 (pre_ff w1 q)) as HP2. unfold exec in HP2.
  assert (HE : extends w1 w2).
  { destruct (exec_with _ _ _ _ w1 b1 q) as [w3 b3|e w3| | | |]; cbn in HL; try discriminate; injection HL as ->.
    - destruct HP2 as (Hs2 & _ & _). eapply steps_extends; eauto.
    - destruct HP2 as (Hs2 & _). eapply steps_extends; eauto. }
  split; [eapply entry_extends; eauto|]. intros it Hg. destruct (proj1 HE x it Hg) as (it' & Hg' & G). exists it'. split; [exact Hg'|].
  destruct G. repeat split; assumption.
Qed.

Lemma owns_extends w w' o c nm x : extends w w' -> owns w o c nm x -> owns w' o c nm x.
Proof.
  intros HE (i & xt & He & Hg & Hn). destruct (proj1 HE x xt Hg) as (xt' & Hg' & G). exists i, xt'.
  split; [eapply entry_extends; eauto|]. split; [exact Hg'|]. rewrite (g_name _ _ G). exact Hn.
Qed.
Lemma reachable_run ok k n w a ait p w' : reachable ok w -> get w a = Some ait -> is_container (i_cat ait) = true ->
  live (run k ok n w a p) = Live w' -> reachable ok w'.
Proof. intros. eapply RRun; eauto. Qed.

Lemma names_stable ok k n w a ait p w' o c nm x k2 n2 w'' r : reachable ok w ->
  get w a = Some ait -> is_container (i_cat ait) = true -> live (run k ok n w a p) = Live w' ->
  (exists ot, get w o = Some ot /\ is_container (i_cat ot) = true) -> nm <> ""%string -> owns w o c nm x ->
  get_item (run k2 ok n2) w' o c nm = Ret w'' r -> r = Some x.
Proof.
  intros HR Ha Hc HL (ot & Ho & Hoc) Hn Hx E. destruct (run_grows ok k n w a ait p w' HR Ha Hc HL) as [HE _].
  pose proof (reachable_run ok k n w a ait p w' HR Ha Hc HL) as HR'. destruct (reachable_wf ok w' HR') as [HW' Hk'].
  destruct (proj1 HE o ot Ho) as (ot' & Ho' & G). assert (Hco : cont w' o) by (exists ot'; rewrite (g_cat _ _ G); auto).
  unfold get_item in E. destruct (check (run k2 ok n2) w' o) as [w1 []| | | | |] eqn:EC; try discriminate. cbn [bind] in E. injection E as _ <-.
  pose proof (check_post false false ok (run k2 ok n2) (run_ok ok k2 n2) w' o HW' Hk' Hco) as HP. rewrite EC in HP. destruct HP as (Hs & _ & _).
  pose proof (steps_wf _ _ _ _ _ HW' Hs) as HW1. pose proof (owns_extends _ _ _ _ _ _ (steps_extends _ _ _ _ _ HW' Hs) (owns_extends _ _ _ _ _ _ HE Hx)) as Hx1.
  destruct (get_steps false false ok w' w1 o ot' HW' Hs Ho') as (ot1 & Ho1 & _). unfold list_of. rewrite Ho1.
  apply (find_owns ok w1 o ot1 c nm x HW1 Ho1 Hn). exact Hx1.
Qed.

(** *** Constructors under fixed names *)

Definition fixed : list string := ["d_constructor"; "c_constructor"; "m_constructor"]%string.
Lemma fixed_answers s z : In s fixed -> In z fixed -> answers (txt z) (txt s) -> z = s.
Proof.
  intros Hs Hz. intros [E|(_ & rest & E)]; [symmetry; apply txt_inj; exact E|].
  assert (HI : In "("%char (txt z)) by (rewrite E; apply in_or_app; right; left; reflexivity).
  exfalso. destruct Hz as [<-|[<-|[<-|[]]]]; vm_compute in HI; repeat (destruct HI as [HI|HI]; [discriminate|]); exact HI.
Qed.

Lemma list_names_NoDup ok w x it c : WF false false ok w -> get w x = Some it -> NoDup (map (names w) (ml_items (i_list it c))).
Proof. intros HW Hg. exact (proj2 (wf_names _ _ _ w HW x it c Hg)). Qed.

Lemma ctor_found_forever ok k n k2 n2 w x xt i y s w2 a ait p w' r :
  reachable ok w -> get w x = Some xt -> i_cat xt = Class -> entry w x Constructor i = Some y -> names w y = s ->
  In s fixed -> (forall j z, j < i -> entry w x Constructor j = Some z -> In (names w z) fixed) ->
  get w a = Some ait -> is_container (i_cat ait) = true -> live (run k ok n w a p) = Live w2 ->
  find_method (run k2 ok n2) w2 x Constructor s = Ret w' r -> r = Some y.
Proof.
  intros HR Hx Hcx He Hny Hs Hpre Ha Hc HL E. destruct (reachable_wf ok w HR) as [HW _].
  destruct (run_grows ok k n w a ait p w2 HR Ha Hc HL) as [HE _].
  pose proof (reachable_run ok k n w a ait p w2 HR Ha Hc HL) as HR2. destruct (reachable_wf ok w2 HR2) as [HW2 Hk2].
  destruct (proj1 HE x xt Hx) as (x2 & Hx2 & G2). assert (Hco : cont w2 x) by (exists x2; rewrite (g_cat _ _ G2), Hcx; auto).
  unfold find_method in E. destruct (check (run k2 ok n2) w2 x) as [w3 []| | | | |] eqn:EC; try discriminate. cbn [bind] in E.
  pose proof (check_post false false ok (run k2 ok n2) (run_ok ok k2 n2) w2 x HW2 Hk2 Hco) as HP. rewrite EC in HP. destruct HP as (Hsteps & _ & _).
  pose proof (extends_trans _ _ _ HE (steps_extends _ _ _ _ _ HW2 Hsteps)) as HE3. pose proof (steps_wf _ _ _ _ _ HW2 Hsteps) as HW3.
  destruct (proj1 HE3 x xt Hx) as (x3 & Hx3 & G3). unfold list_of in E. rewrite Hx3 in E.
  destruct (g_list _ _ G3 Constructor) as [rest Hrest]. unfold entry in He. rewrite Hx in He.
  apply nth_error_split in He as (l1 & l2 & El & Hlen).
  assert (Hnm : forall z, In z (l1 ++ y :: l2) -> names w3 z = names w z).
  { intros z Hz. rewrite <- El in Hz. destruct (wf_list _ _ _ w HW x xt Constructor z Hx Hz) as (zt & Hgz & _).
    destruct (proj1 HE3 z zt Hgz) as (zt3 & Hgz3 & Gz). unfold names. rewrite Hgz, Hgz3. apply (g_name _ _ Gz). }
  rewrite Hrest, El in E. rewrite find_first in E.
  - injection E as _ <-. reflexivity.
  - apply Forall_forall. intros z Hz Hans. rewrite (Hnm z) in Hans by (apply in_or_app; left; exact Hz).
    apply In_nth_error in Hz as [j Hj]. assert (Hji : j < i) by (rewrite <- Hlen; apply nth_error_Some; congruence).
    assert (Hez : entry w x Constructor j = Some z).
    { unfold entry. rewrite Hx, El, nth_error_app1; [exact Hj|lia]. }
    apply fixed_answers in Hans; [|exact Hs|eapply Hpre; eauto].
    pose proof (list_names_NoDup ok w x xt Constructor HW Hx) as HN. rewrite El, map_app in HN. cbn in HN.
    apply NoDup_remove_2 in HN. apply HN. apply in_or_app. left. rewrite Hny, <- Hans. apply in_map. eapply nth_error_In; eauto.
  - left. rewrite (Hnm y) by (apply in_or_app; right; left; reflexivity). rewrite Hny. reflexivity.
Qed.

Lemma ctor_absent ok k n w x it s : reachable ok w -> get w x = Some it -> i_cat it = Class -> i_def it = None ->
  In s fixed -> (forall y, In y (ctor_names w x) -> In y fixed) ->
  ~ In s (ctor_names w x) -> exists w', find_method (run k ok n) w x Constructor s = Ret w' None.
Proof.
  intros HR Hg Hc Hd Hs Hall Hni. unfold ctor_names in *. rewrite Hg in *.
  assert (Hch : check (run k ok n) w x = Ret w tt) by (apply check_idle; exists it; auto).
  destruct (find_method_eq (run k ok n) w x Constructor s w it Hch Hg) as [(y & _ & (i & Hi & Hy))|[E _]]; [|eauto].
  exfalso. apply Hni. unfold entry in Hi. rewrite Hg in Hi. apply nth_error_In in Hi. apply fixed_answers in Hy; [|exact Hs|].
  - rewrite <- Hy. apply in_map. exact Hi.
  - apply Hall. apply in_map. exact Hi.
Qed.
