(** C48: class hierarchies declared and searched by several threads. Every theorem holds for both kinds of shared lock,
    those that let readers pass waiting writers and those that do not, for all programs and all schedules. *)
From Coq Require Import List Bool Arith Lia.
From Verif Require Import Util DeferModel DeferProofs HierModel HierSpec HierProofs.
Import ListNotations.

(** Every answer fits the hierarchy as it was while the request ran. *)
Theorem C48_answers prefer ps sch e : answered (exec prefer (start ps) sch) e -> fits e.
Proof.
  intros (t & I & H). apply In_nth_error in I. destruct I as [i I].
  destruct (v_good _ _ (inv_always prefer ps sch) i t I) as (p & _ & G). apply (g_fits _ _ _ G e H).
Qed.
Print Assumptions C48_answers.

(** What fitting means when the bases stay the same while the request runs: inheritedFrom is reachability ... *)
Theorem C48_alone_inherited prefer ps sch e a b r : answered (exec prefer (start ps) sch) e ->
  e_request e = Inherited a b -> e_answer e = Is r -> bases (e_from e) = bases (e_to e) ->
  r = true <-> reach (bases (e_to e)) a b.
Proof.
  intros H Q A E. apply C48_answers in H. unfold fits in H. rewrite Q, A, E in H. destruct H as [H1 H2]. split; [exact H1|].
  intro R. destruct r; [reflexivity|]. destruct (H2 eq_refl R).
Qed.
Print Assumptions C48_alone_inherited.

(** ... and the cast follows the first chain, of which there is only one. *)
Theorem C48_alone_cast prefer ps sch e a b r : answered (exec prefer (start ps) sch) e ->
  e_request e = Cast a b -> e_answer e = Via r -> bases (e_from e) = bases (e_to e) ->
  forall l, r = Some l <-> guided (bases (e_to e)) (bases (e_to e)) a l b.
Proof.
  intros H Q A E l. pose proof (C48_answers _ _ _ _ H) as F. unfold fits in F. rewrite Q, A, E in F. split.
  - intros ->. exact F.
  - intro GD. destruct r as [l'|].
    + f_equal. clear H Q A E. set (g := bases (e_to e)) in *. clearbody g. revert l' a b F GD.
      induction l as [|x l IH]; intros l' a b F GD; [destruct GD|]. destruct l' as [|x' l']; [destruct F|].
      destruct l as [|y l], l' as [|y' l'].
      * destruct GD as [-> _], F as [-> _]. reflexivity.
      * destruct GD as [G1 G2], F as (E & N & _). congruence.
      * destruct F as [G1 G2], GD as (E & N & _). congruence.
      * destruct F as (-> & _ & (i & I & B) & F), GD as (-> & _ & (i' & I' & B') & GD).
        assert (X : y' = y).
        { destruct (Nat.lt_trichotomy i i') as [L|[->|L]]; [|congruence|]; exfalso.
          - apply (B' i y' L I). eapply guided_reach; exact F.
          - apply (B i' y L I'). eapply guided_reach; exact GD. }
        subst y'. f_equal. eapply IH; eauto.
    + contradiction F. eapply guided_reach; exact GD.
Qed.
Print Assumptions C48_alone_cast.

(** A thread's requests take effect in their order: whatever one of them saw, the next ones start from. *)
Theorem C48_in_order prefer ps sch i t j k e e' : nth_error (snd (exec prefer (start ps) sch)) i = Some t ->
  nth_error (got t) j = Some e -> nth_error (got t) k = Some e' -> j < k ->
  grows (bases (e_to e)) (bases (e_from e')) /\ grows (derived (e_to e)) (derived (e_from e')).
Proof.
  intros I Hj Hk L. destruct (v_good _ _ (inv_always prefer ps sch) i t I) as (p & _ & G). exact (g_order _ _ _ G j k e e' L Hj Hk).
Qed.
Print Assumptions C48_in_order.

(** What was answered is still so, for whoever asks later. *)
Theorem C48_stays prefer ps sch more e : answered (exec prefer (start ps) sch) e ->
  grows (bases (e_to e)) (bases (fst (exec prefer (start ps) (sch ++ more)))) /\
  grows (derived (e_to e)) (derived (fst (exec prefer (start ps) (sch ++ more)))).
Proof.
  intros (t & I & H). apply In_nth_error in I. destruct I as [i I].
  destruct (v_good _ _ (inv_always prefer ps sch) i t I) as (p & _ & G). destruct (g_fits _ _ _ G e H) as (_ & _ & M).
  eapply mgrows_trans; [exact M|]. rewrite exec_app. apply exec_grows.
Qed.
Print Assumptions C48_stays.

(** Lists hold every class once and nothing that nobody declared. *)
Theorem C48_lists prefer ps sch c : let m := fst (exec prefer (start ps) sch) in
  NoDup (bases m c) /\ NoDup (derived m c) /\ (forall b, In b (bases m c) -> declared ps c b) /\
  (forall d, In d (derived m c) -> declared ps d c).
Proof.
  cbn zeta. pose proof (inv_always prefer ps sch) as V. parts; [apply (v_bases _ _ V)|apply (v_derived _ _ V)|apply (v_declared _ _ V)|].
  intros d I. apply (v_declared _ _ V). apply (v_mirror _ _ V). exact I.
Qed.
Print Assumptions C48_lists.

(** A class is listed as derived only when its base is listed with it ... *)
Theorem C48_derived_after_base_partial prefer ps sch c b :
  let m := fst (exec prefer (start ps) sch) in In c (derived m b) -> In b (bases m c).
Proof. cbn zeta. apply (v_mirror _ _ (inv_always prefer ps sch)). Qed.
Print Assumptions C48_derived_after_base_partial.

(** ... the other way round there is a window: a class that has a base is not yet listed by it. *)
Theorem C48_mirror_refuted prefer : exists ps sch c b,
  let m := fst (exec prefer (start ps) sch) in In b (bases m c) /\ ~ In c (derived m b).
Proof. exists [[AddBase 0 1]], [0; 0], 0, 1. cbn. split; [auto|tauto]. Qed.
Print Assumptions C48_mirror_refuted.

(** When all is done both lists say exactly what was declared, and every request was answered, in order. *)
Theorem C48_final prefer ps sch : quiet (exec prefer (start ps) sch) ->
  let m := fst (exec prefer (start ps) sch) in
  (forall c b, In b (bases m c) <-> declared ps c b) /\ (forall c b, In c (derived m b) <-> declared ps c b) /\
  (forall i p, nth_error ps i = Some p -> exists t, nth_error (snd (exec prefer (start ps) sch)) i = Some t /\ map e_request (got t) = p).
Proof.
  intro Q. cbn zeta. pose proof (inv_always prefer ps sch) as V. set (c := exec prefer (start ps) sch) in *. clearbody c.
  assert (A : forall i p, nth_error ps i = Some p -> exists t, nth_error (snd c) i = Some t /\ good (fst c) p t /\ map e_request (got t) = p).
  { intros i p Hp. assert (L : i < length (snd c)). { rewrite (v_length _ _ V). apply nth_error_Some. congruence. }
    destruct (nth_error (snd c) i) as [t|] eqn:E; [|apply nth_error_None in E; lia]. exists t. split; [reflexivity|].
    destruct (v_good _ _ V i t E) as (p' & Hp' & G). rewrite Hp in Hp'. injection Hp' as <-. split; [exact G|].
    pose proof (g_history _ _ _ G) as H. unfold history in H. destruct (Q t (nth_error_In _ _ E)) as [W T]. rewrite W, T in H.
    cbn in H. rewrite app_nil_r in H. exact H. }
  assert (D : forall x y, declared ps x y -> In y (bases (fst c) x) /\ In x (derived (fst c) y)).
  { intros x y (p & Hp & I). apply In_nth_error in Hp. destruct Hp as [i Hp]. destruct (A i p Hp) as (t & _ & G & M).
    rewrite <- M in I. apply in_map_iff in I. destruct I as (e & Ee & I). destruct (g_fits _ _ _ G e I) as (F & _ & M1 & M2).
    unfold fits in F. rewrite Ee in F. destruct (e_answer e); try (destruct F; fail). destruct F as [F1 F2].
    split; eapply grows_in; eauto. }
  parts.
  - intros x y. split; [apply (v_declared _ _ V)|apply D].
  - intros x y. split; [|apply D]. intro I. apply (v_declared _ _ V). apply (v_mirror _ _ V). exact I.
  - intros i p Hp. destruct (A i p Hp) as (t & Ht & _ & M). eauto.
Qed.
Print Assumptions C48_final.

(** No list changes while somebody walks it. *)
Theorem C48_not_changed_while_walked prefer ps sch i x t :
  let c := exec prefer (start ps) sch in
  In t (snd c) -> In x (holds t) -> bases (fst (turn prefer c i)) x = bases (fst c) x.
Proof.
  cbn zeta. destruct (exec prefer (start ps) sch) as [m ts]. cbn [fst snd]. intros I H. rewrite turn_eq.
  destruct (nth_error ts i) as [u|] eqn:E; [|reflexivity]. cbn [fst].
  destruct (step_lists prefer m ts u) as [[-> _]|[(y & z & f & W & C & -> & _)|(y & z & f & W & -> & _)]]; try reflexivity.
  cbn. unfold update. destruct (Nat.eqb_spec x y) as [->|N]; [|reflexivity]. exfalso. unfold can_write in C.
  rewrite forallb_forall in C. specialize (C t I). destruct (in_dec Nat.eq_dec y (holds t)); [discriminate|contradiction].
Qed.
Print Assumptions C48_not_changed_while_walked.

(** No thread locks a list it holds already (undefined for std::shared_mutex), if no class is declared below itself. *)
Theorem C48_locked_once prefer ps rank sch t : ranked ps rank -> In t (snd (exec prefer (start ps) sch)) -> NoDup (holds t).
Proof.
  intros R I. pose proof (inv_always prefer ps sch) as V. apply In_nth_error in I. destruct I as [i I].
  destruct (v_good _ _ V i t I) as (p & _ & G). pose proof (g_place _ _ _ G) as P. unfold holds.
  destruct (where_ t) as [|c b f|c b f|q b c st f]; try constructor. cbn in P.
  eapply walk_nodup; [apply (inv_down ps rank R _ V)|exact P].
Qed.
Print Assumptions C48_locked_once.

(** Somebody can always go on until all is done. *)
Theorem C48_no_deadlock prefer ps rank sch : ranked ps rank ->
  quiet (exec prefer (start ps) sch) \/
  exists i, turn prefer (exec prefer (start ps) sch) i <> exec prefer (start ps) sch.
Proof.
  intro R. pose proof (inv_always prefer ps sch) as V. destruct (exec prefer (start ps) sch) as [m ts].
  destruct (quiet_dec (m, ts)) as [Q|Q]; [auto|]. right. destruct (somebody_moves prefer ps rank R m ts V Q) as (i & t & Hi & C).
  exists i. rewrite turn_eq, Hi. intro E. injection E as E1 E2. assert (X : nth_error ts i = Some (snd (step prefer m ts t))).
  { rewrite <- E2 at 1. apply put_same. apply nth_error_Some. congruence. } rewrite Hi in X. injection X as X.
  rewrite <- X in C. lia.
Qed.
Print Assumptions C48_no_deadlock.

(** All is done after a number of rounds that depends on the programs only, whatever the schedule. *)
Theorem C48_ends prefer ps rank : ranked ps rank -> exists n, forall rs,
  Forall (round (length ps)) rs -> n <= length rs -> quiet (exec prefer (start ps) (concat rs)).
Proof.
  intro R. exists (total ps rank (start ps)). intros rs F L. apply (rounds prefer ps rank R); [apply inv_start| |exact L].
  cbn. rewrite map_length. exact F.
Qed.
Print Assumptions C48_ends.

(** A cast that runs while bases are declared may follow a chain that is the first one at no moment: what it does is not
    what any sequential cast would have done. *)
Theorem C48_cast_atomic_refuted prefer : exists ps sch e a b l,
  answered (exec prefer (start ps) sch) e /\ e_request e = Cast a b /\ e_answer e = Via (Some l) /\
  forall k, let g := bases (fst (exec prefer (start ps) (firstn k sch))) in ~ guided g g a l b.
Proof.
  set (ps := [[AddBase 0 1; AddBase 0 2; Cast 0 3]; [AddBase 1 3; AddBase 2 3]]).
  set (sch := repeat 0 13 ++ repeat 1 6 ++ repeat 0 20).
  set (view := fun c : memory * list thread => map (fun t => map (fun e => (e_request e, e_answer e)) (got t)) (snd c)).
  assert (M : exists r, view (exec prefer (start ps) sch) = [[(AddBase 0 1, Done); (AddBase 0 2, Done); (Cast 0 3, Via (Some [0; 2; 3]))]; r])
    by (eexists; destruct prefer; vm_compute; reflexivity).
  assert (X : exists e, answered (exec prefer (start ps) sch) e /\ e_request e = Cast 0 3 /\ e_answer e = Via (Some [0; 2; 3])).
  { destruct M as [r M]. unfold view in M. unfold answered. revert M. generalize (snd (exec prefer (start ps) sch)). intros ts M.
    destruct ts as [|t ts]; [discriminate|]. cbn [map] in M. apply (f_equal (hd [])) in M. cbn [hd] in M.
    destruct (got t) as [|e1 [|e2 [|e3 l]]] eqn:G; try discriminate. cbn [map] in M.
    injection M as _ _ _ _ M1 M2 _. exists e3. split; [exists t; rewrite G; cbn; auto|auto]. }
  destruct X as (e & A & Q & R). exists ps, sch, e, 0, 3, [0; 2; 3]. parts; auto. intros k g GD.
  set (test := fun k => let g := bases (fst (exec prefer (start ps) (firstn k sch))) in
     match g 2 with [] => true | _ => match g 0 with 1 :: _ => match g 1 with 3 :: _ => true | _ => false end | _ => false end end).
  assert (T : test k = true).
  { assert (F : forallb test (seq 0 (S (length sch))) = true) by (destruct prefer; vm_compute; reflexivity).
    rewrite forallb_forall in F. destruct (Nat.le_gt_cases k (length sch)) as [L|L].
    - apply F. apply in_seq. lia.
    - unfold test. rewrite firstn_all2 by lia. specialize (F (length sch)). unfold test in F. rewrite firstn_all in F. apply F.
      apply in_seq. lia. }
  unfold test in T. fold g in T. destruct GD as (_ & _ & (i & I & B) & _ & _ & (i' & I' & _) & _).
  destruct (g 2) as [|z l2]; [destruct i'; discriminate|]. destruct (g 0) as [|[|[|y]] l0] eqn:G0; try discriminate.
  destruct (g 1) as [|[|[|[|[|w]]]] l1] eqn:G1; try discriminate.
  destruct i as [|i]; [discriminate|]. apply (B 0 1); [lia|reflexivity|].
  apply (RStep _ _ 3); [rewrite G1; left; reflexivity|constructor].
Qed.
Print Assumptions C48_cast_atomic_refuted.

(** A diamond, declared by two threads while a third searches it. *)
Definition diamond : list (list request) :=
  [[AddBase 0 1; AddBase 0 2; Inherited 0 3]; [AddBase 1 3; AddBase 2 3; Cast 0 3]; [Inherited 0 3; DerivedAt 3 0; BaseAt 0 1]].
Definition in_turns (n : nat) : list nat := concat (repeat [0; 1; 2] n).

Example C48_case :
  ranked diamond (fun x => 3 - x) /\ quiet (exec true (start diamond) (in_turns 30)) /\
  map (fun t => map e_answer (got t)) (snd (exec true (start diamond) (in_turns 30))) =
    [[Done; Done; Is true]; [Done; Done; Via (Some [0; 1; 3])]; [Is true; Item (Some 1); Item (Some 2)]].
Proof.
  parts.
  - intros c b (l & Hl & I). cbn in Hl. destruct Hl as [<-|[<-|[<-|[]]]]; cbn in I;
      repeat match goal with H : _ \/ _ |- _ => destruct H as [H|H] end; try discriminate; try contradiction; injection I as <- <-; cbn; lia.
  - intros t H. vm_compute in H. destruct H as [<-|[<-|[<-|[]]]]; split; reflexivity.
  - vm_compute. reflexivity.
Qed.

(** A writer waits for a walker, and a walker for the writer. *)
Example C48_case_waits :
  let c := exec true (start [[AddBase 0 1; AddBase 1 2; Inherited 0 3]; [AddBase 0 3]; [BaseAt 0 0]]) [0; 0; 0; 0; 0; 0; 0; 0; 1; 1; 2] in
  turn true c 1 = c /\ turn true c 2 = c /\ turn true c 0 <> c /\ map holds (snd c) = [[0]; []; []].
Proof. cbn. parts; try reflexivity. discriminate. Qed.
