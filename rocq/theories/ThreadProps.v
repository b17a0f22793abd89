(** Property theorems C45 and C46: types and converters registered by several threads. *)
From Coq Require Import NArith List Bool Arith Lia String.
From Verif Require Import Util TypesModel TypesProofs RegistryModel RegistryProofs RegistryProps ThreadModel ThreadSpec ThreadProofs.
Import ListNotations.
Local Open Scope string_scope.

(** ** C45 *)

(** Under every schedule the registry is the one left by some sequential history of first uses, every identifier a
    thread was given is the one that history gives, and every look-up by name was right at some moment of it. *)
Theorem C45_sequential : forall nm programs schedule,
  let c := exec nm (start programs) schedule in
  exists h s, mrun nm m0 h = Some s /\ reg (fst c) = m_reg s /\
    (forall q x, answered c (Id q) x -> meta_id nm s q = Some (s, x)) /\
    (forall n x, answered c (Name n) x ->
       exists h1 h2 s1, h = (h1 ++ h2)%list /\ mrun nm m0 h1 = Some s1 /\ find_name (m_reg s1) n = x).
Proof.
  intros nm ps sch c. destruct (good_always nm ps sch) as (h & s & G). fold c in G. exists h, s.
  split; [exact (g_seq _ _ _ _ _ G)|]. split; [exact (g_reg _ _ _ _ _ G)|]. split.
  - intros q x H. exact (answer_seq nm _ _ _ _ _ _ G H).
  - intros n x (i & t & Hi & Hin). pose proof (g_answer _ _ _ _ _ G i t Hi) as A. rewrite Forall_forall in A. exact (A _ Hin).
Qed.
Print Assumptions C45_sequential.

(** All threads asking for one type are given the same identifier, whatever the schedule and whoever came first. *)
Theorem C45_same_identifier : forall nm programs schedule q x y,
  let c := exec nm (start programs) schedule in
  answered c (Id q) x -> answered c (Id q) y -> x = y.
Proof.
  intros nm ps sch q x y c Hx Hy. destruct (good_always nm ps sch) as (h & s & G). fold c in G.
  pose proof (answer_seq nm _ _ _ _ _ _ G Hx). pose proof (answer_seq nm _ _ _ _ _ _ G Hy). congruence.
Qed.
Print Assumptions C45_same_identifier.

(** The identifier leads to a description with the type's own name and traits, and from there to the description of
    the decayed type, in that state and in every later one; and looking the name up then finds it. *)
Theorem C45_identifier_describes : forall nm,
  (forall a b, nm a = nm b -> a = b) -> (forall a, nm a <> "") ->
  forall programs schedule later q x,
  answered (exec nm (start programs) schedule) (Id q) x -> is_void q = false ->
  let r := reg (fst (exec nm (start programs) (schedule ++ later))) in
  exists i e, x = Some i /\ lookup_id r x = DOk e /\ tr_name e = nm q /\ tr_info e = info_of q /\
    find_name r (nm q) = x /\
    (is_void (full_decay q) = false ->
       exists d, lookup_id r (Some (tr_decay e)) = DOk d /\ tr_name d = nm (full_decay q) /\
         tr_info d = info_of (full_decay q)).
Proof.
  intros nm Hinj Hne ps sch later q x Ha Hv r.
  destruct (good_always nm ps sch) as (h & s & G). pose proof (answer_seq nm _ _ _ _ _ _ G Ha) as Hm.
  destruct (good_exec nm ps later h s _ G) as (h' & s' & G').
  assert (Er : r = m_reg s'). { unfold r. rewrite exec_app. exact (g_reg _ _ _ _ _ G'). }
  pose proof (g_seq _ _ _ _ _ G') as Hs'. rewrite mrun_app, (g_seq _ _ _ _ _ G) in Hs'.
  pose proof (ids_stable nm Hinj Hne h s h' s' q x s (g_seq _ _ _ _ _ G) Hm Hs') as Hm'.
  destruct (mrun_ok nm Hinj Hne (h ++ h')%list m0 (m0_inv nm)) as (s1 & E1 & Hi & _).
  rewrite (g_seq _ _ _ _ _ G') in E1. injection E1 as <-.
  destruct (meta_id_ok nm Hinj Hne s' q Hi) as (s2 & id & E2 & Hi2 & _ & Hd & _). rewrite Hm' in E2. injection E2 as <- <-.
  destruct (Hd Hv) as (i & -> & _ & e & He & Hn & Hf & d & Hdd & Hdn & _). exists i, e. rewrite Er.
  assert (Hl := ri_live _ (mi_reg _ _ Hi)). unfold lookup_id. rewrite Hl, He. repeat (split; [auto; fail|]).
  split; [|intro Hvd; rewrite Hdd; exists d; destruct (Hdn Hvd); auto].
  apply find_name_spec; [exact (mi_reg _ _ Hi)|]. exists e. auto.
Qed.
Print Assumptions C45_identifier_describes.

(** Different types are never given one identifier. *)
Theorem C45_distinct : forall nm,
  (forall a b, nm a = nm b -> a = b) -> (forall a, nm a <> "") ->
  forall programs schedule q1 q2 i,
  let c := exec nm (start programs) schedule in
  answered c (Id q1) (Some i) -> answered c (Id q2) (Some i) -> q1 = q2.
Proof.
  intros nm Hinj Hne ps sch q1 q2 i c H1 H2. destruct (good_always nm ps sch) as (h & s & G). fold c in G.
  eapply (ids_distinct nm Hinj Hne h s q1 q2 s s i (g_seq _ _ _ _ _ G)); eapply answer_seq; eassumption.
Qed.
Print Assumptions C45_distinct.

(** No deadlock: while some thread has something to do, some thread can make an effective step. *)
Theorem C45_no_deadlock : forall nm programs schedule,
  let c := exec nm (start programs) schedule in
  ~ quiet c -> exists i, turn nm c i <> c.
Proof.
  intros nm ps sch c NQ. destruct (good_always nm ps sch) as (h & s & G). fold c in G. destruct c as [m ts].
  destruct (somebody_moves nm _ _ _ _ _ G NQ) as (i & t & Hi & C). exists i. rewrite turn_eq, Hi. intro E.
  injection E as E1 E2. pose proof (total_put m ts i t (snd (step nm m t)) m Hi) as T. rewrite E2 in T. lia.
Qed.
Print Assumptions C45_no_deadlock.

(** Under every fair schedule all is done after as many rounds as seven times the number of requests, and every
    request of every thread was answered, in order. *)
Theorem C45_all_answered : forall nm programs rounds,
  Forall (round (List.length programs)) rounds ->
  7 * list_sum (map (@List.length request) programs) <= List.length rounds ->
  let c := exec nm (start programs) (List.concat rounds) in
  quiet c /\ forall i l, nth_error programs i = Some l ->
    exists t, nth_error (snd c) i = Some t /\ map fst (got t) = l.
Proof.
  intros nm ps rs R L c. assert (Q : quiet c).
  { unfold c. eapply rounds; [apply good_start|cbn; rewrite map_length; exact R|rewrite total_start; exact L]. }
  split; [exact Q|]. intros i l Hi. destruct (good_always nm ps (List.concat rs)) as (h & s & G). fold c in G.
  pose proof (g_length _ _ _ _ _ G) as Len. assert (Hlt : i < List.length (snd c)).
  { rewrite Len. apply nth_error_Some. congruence. }
  apply nth_error_Some in Hlt. destruct (nth_error (snd c) i) as [t|] eqn:Ht; [|congruence]. exists t. split; [reflexivity|].
  pose proof (g_history _ _ _ _ _ G i t Ht) as H. unfold history in H. destruct (Q i t Ht) as [Q1 Q2].
  rewrite Q1, Q2 in H. cbn [current app] in H. rewrite app_nil_r in H. congruence.
Qed.
Print Assumptions C45_all_answered.

(** Two threads race for [int const&] and [int]; the second one has to wait for the static of the decayed type.
    A third looks the name up between the two registrations. *)
Definition base_int := {| b_kind := KIntegral; b_id := 1; b_size := 4%N; b_traits := 0%N |}.
Definition int_ := mkQ RNone (TBase false false base_int).
Definition int_cref := mkQ RL (TBase true false base_int).
Example C45_example :
  let c := exec code_name (start [[Id int_cref]; [Id int_; Id int_cref]; [Name (code_name int_); Name (code_name int_cref)]])
                [0; 0; 0; 1; 1; 0; 2; 2; 1; 0; 1; 0; 0; 1; 1; 0; 1; 1] in
  map got (snd c) = [[(Id int_cref, Some 1)]; [(Id int_, Some 0); (Id int_cref, Some 1)];
                     [(Name (code_name int_), Some 0); (Name (code_name int_cref), None)]] /\
  full_decay int_cref = int_ /\ int_cref <> int_ /\ is_void int_cref = false.
Proof. vm_compute. repeat split; try reflexivity; discriminate. Qed.

Example C45_rounds_example :
  let ps := [[Id int_cref]; [Id int_]] in
  Forall (round (List.length ps)) (repeat [0; 1] 14) /\
  7 * list_sum (map (@List.length request) ps) <= List.length (repeat [0; 1] 14) /\
  ~ quiet (exec code_name (start ps) [0; 0; 0]).
Proof.
  split; [|split; [vm_compute; lia|]].
  - apply Forall_forall. intros l H. apply repeat_spec in H. subst l. intros [|[|i]] H; cbn in *; auto; lia.
  - intro Q. destruct (Q 0 _ eq_refl) as [E _]. vm_compute in E. discriminate.
Qed.

(** ** C46 *)

(** Of all registrations of a pair at most one more succeeds than the pair was unregistered, and a converter is in
    the table only if one succeeded. *)
Theorem C46_successes : forall programs schedule k,
  let c := conv_exec (conv_start programs) schedule in
  successes c k <= 1 + counted (removed k) (snd c) /\
  ((exists f, assoc keyb k (cv_items (fst c)) = Some f) -> 1 <= successes c k).
Proof.
  intros ps sch k c. destruct (cg_count _ _ (cgood_always ps sch) k) as [H1 H2]. fold c in H1, H2.
  change (successes c k) with (counted (succeeded k) (snd c)). unfold present in *. split.
  - destruct (assoc keyb k (cv_items (fst c))); lia.
  - intros [f E]. rewrite E in H1. exact H1.
Qed.
Print Assumptions C46_successes.

(** If nobody unregisters the pair: once a registration of it was answered, exactly one was told "added", and every
    conversion, in whichever thread, that finds a converter finds the same one for ever. *)
Theorem C46_exactly_one : forall programs schedule k fn b,
  (forall l, In l programs -> ~ In (CUnregister k) l) ->
  let c := conv_exec (conv_start programs) schedule in
  canswered c (CRegister k fn) (Added b) ->
  successes c k = 1 /\
  exists f, crequested programs (CRegister k f) /\ assoc keyb k (cv_items (fst c)) = Some f /\
    forall later g, canswered (conv_exec c later) (CUse k) (Used (Some g)) -> g = f.
Proof.
  intros ps sch k fn b NU c (i & t & Hi & Hin). pose proof (kept_always ps k sch NU) as K. fold c in K.
  pose proof (cgood_always ps sch) as G. fold c in G.
  destruct (k_added _ _ K _ _ _ _ Hi Hin) as (f & Hf & _). split.
  - destruct (cg_count _ _ G k) as [H1 H2]. change (successes c k) with (counted (succeeded k) (snd c)).
    replace (counted (removed k) (snd c)) with 0 in H2.
    + unfold present in *. rewrite Hf in *. lia.
    + symmetry. unfold counted. destruct (filter (removed k) (flat_map c_got (snd c))) as [|e l] eqn:E; [reflexivity|].
      exfalso. assert (He : In e (filter (removed k) (flat_map c_got (snd c)))) by (rewrite E; left; reflexivity).
      apply filter_In in He. destruct He as [He Hr]. apply in_flat_map in He. destruct He as (u & Hu & He).
      apply In_nth_error in Hu. destruct Hu as [j Hj]. destruct e as [[| k'|] []]; try discriminate. cbn in Hr.
      apply keyb_spec in Hr. subst k'. pose proof (cg_history _ _ G j u Hj) as HH. apply nth_error_In in HH.
      apply (NU _ HH). unfold chistory. rewrite !in_app_iff. left. apply (in_map fst) in He. exact He.
  - exists f. split; [apply (cg_items _ _ G); apply assoc_In2; exact Hf|]. split; [exact Hf|].
    intros later g (j & u & Hj & Hu).
    assert (E : conv_exec c later = conv_exec (conv_start ps) (sch ++ later)) by (unfold c, conv_exec; rewrite fold_left_app; reflexivity).
    rewrite E in Hj. pose proof (kept_always ps k (sch ++ later) NU) as K'. pose proof (k_used _ _ K' _ _ _ Hj Hu) as Hg.
    assert (Hstay : kept k (conv_exec c later) /\ assoc keyb k (cv_items (fst (conv_exec c later))) = Some f).
    { assert (X : cgood ps (conv_exec c later) /\ (kept k (conv_exec c later) /\ assoc keyb k (cv_items (fst (conv_exec c later))) = Some f)).
      { apply (conv_inv (fun c => kept k c /\ assoc keyb k (cv_items (fst c)) = Some f) ps); auto.
        intros c0 ts i0 t0 G0 [K0 F0] Hi0. split; [eapply kept_step; eassumption|].
        cbn [fst]. unfold conv_step. destruct (c_at t0) as [|k1 fn1 f1] eqn:Ea.
        - destruct (c_todo t0) as [|[k1 fn1|k1|k1] rest] eqn:Et; auto.
          + destruct (assoc key3b _ _); auto.
          + cbn. rewrite (assoc_erase keyb keyb_spec). destruct (keyb k1 k) eqn:X; [|exact F0]. apply keyb_spec in X. subst k1.
            exfalso. pose proof (cg_history _ _ G0 i0 t0 Hi0) as HH. apply nth_error_In in HH. apply (NU _ HH).
            unfold chistory. rewrite Et, !in_app_iff. cbn. auto.
        - destruct (assoc keyb k1 (cv_items c0)); auto. cbn [fst cv_items]. rewrite assoc_snoc. cbn in F0. rewrite F0. reflexivity. }
      exact (proj2 X). }
    rewrite E in Hstay. destruct Hstay as [_ Hstay]. congruence.
Qed.
Print Assumptions C46_exactly_one.

(** The converter in use has the C++ type of the functor whose registration was told "added"; if the program passes
    only one functor of each C++ type for the pair, it is that functor. *)
Theorem C46_winner_partial : forall programs schedule k fn,
  (forall l, In l programs -> ~ In (CUnregister k) l) ->
  let c := conv_exec (conv_start programs) schedule in
  canswered c (CRegister k fn) (Added true) ->
  exists f, assoc keyb k (cv_items (fst c)) = Some f /\ f_type f = f_type fn /\
    ((forall a b, crequested programs (CRegister k a) -> crequested programs (CRegister k b) ->
        f_type a = f_type b -> a = b) -> f = fn).
Proof.
  intros ps sch k fn NU c (i & t & Hi & Hin). pose proof (kept_always ps k sch NU) as K. fold c in K.
  pose proof (cgood_always ps sch) as G. fold c in G. destruct (k_added _ _ K _ _ _ _ Hi Hin) as (f & Hf & HT).
  exists f. split; [exact Hf|]. split; [auto|]. intro U. apply U; auto.
  - apply (cg_items _ _ G). apply assoc_In2. exact Hf.
  - pose proof (cg_history _ _ G i t Hi) as HH. exists (chistory t). split; [eapply nth_error_In; exact HH|].
    unfold chistory. rewrite in_app_iff. left. apply (in_map fst) in Hin. exact Hin.
Qed.
Print Assumptions C46_winner_partial.

(** Two threads register different functions of one C++ type, e.g. two [int(double)]; the one told "added" is not
    the one whose function is used: the static was initialised by the other. *)
Theorem C46_winner_refuted : exists programs schedule k fn,
  let c := conv_exec (conv_start programs) schedule in
  (forall l, In l programs -> ~ In (CUnregister k) l) /\
  canswered c (CRegister k fn) (Added true) /\ assoc keyb k (cv_items (fst c)) <> Some fn.
Proof.
  exists [[CRegister (0, 1) {| f_type := 0; f_val := 10 |}]; [CRegister (0, 1) {| f_type := 0; f_val := 20 |}]],
    [0; 1; 1; 0], (0, 1), {| f_type := 0; f_val := 20 |}. cbn zeta. split; [|split].
  - intros l [<-|[<-|[]]] [H|[]]; discriminate.
  - exists 1. eexists. split; [reflexivity|]. left. reflexivity.
  - vm_compute. discriminate.
Qed.
Print Assumptions C46_winner_refuted.

(** A thread is done after two turns per request. *)
Theorem C46_all_answered : forall programs schedule i l,
  nth_error programs i = Some l -> 2 * List.length l <= count_occ Nat.eq_dec schedule i ->
  exists t, nth_error (snd (conv_exec (conv_start programs) schedule)) i = Some t /\ map fst (c_got t) = l.
Proof.
  intros ps sch i l Hl Hn.
  assert (W : forall sch c t, nth_error (snd c) i = Some t -> ccost t <= count_occ Nat.eq_dec sch i ->
            exists u, nth_error (snd (conv_exec c sch)) i = Some u /\ c_at u = CIdle /\ c_todo u = []).
  { clear. induction sch as [|j sch IH]; intros c t Ht Hc.
    - exists t. split; [exact Ht|]. unfold ccost in Hc. cbn in Hc. destruct (c_at t); [|lia]. destruct (c_todo t); [auto|cbn in Hc; lia].
    - change (conv_exec c (j :: sch)) with (conv_exec (conv_turn c j) sch). destruct c as [c ts]. cbn [snd] in Ht.
      rewrite conv_turn_eq. cbn [count_occ] in Hc. destruct (Nat.eq_dec j i) as [->|N].
      + rewrite Ht. eapply IH; cbn [snd].
        * apply DeferProofs.put_same. apply nth_error_Some. congruence.
        * destruct (cstep_cost c t) as [[E1 E2]|C]; [|lia]. unfold conv_step. rewrite E1, E2. cbn [snd]. unfold ccost. rewrite E1, E2. cbn. lia.
      + destruct (nth_error ts j) as [u|] eqn:Ej; [|eapply IH; [exact Ht|lia]].
        eapply IH; cbn [snd]; [rewrite DeferProofs.put_other by exact N; exact Ht|lia]. }
  destruct (W sch (conv_start ps) (CThread CIdle l [])) as (u & Hu & E1 & E2).
  - cbn. rewrite nth_error_map, Hl. reflexivity.
  - unfold ccost. cbn. lia.
  - exists u. split; [exact Hu|]. pose proof (cg_history _ _ (cgood_always ps sch) i u Hu) as HH.
    unfold chistory in HH. rewrite E1, E2, Hl in HH. cbn [ccurrent app] in HH. rewrite app_nil_r in HH. congruence.
Qed.
Print Assumptions C46_all_answered.

Example C46_example :
  let a := {| f_type := 0; f_val := 10 |} in let b := {| f_type := 1; f_val := 20 |} in
  let ps := [[CRegister (0, 1) a; CUse (0, 1)]; [CUse (0, 1); CRegister (0, 1) b; CUse (0, 1)]] in
  let c := conv_exec (conv_start ps) [1; 1; 0; 1; 0; 0; 1] in
  map c_got (snd c) = [[(CRegister (0, 1) a, Added false); (CUse (0, 1), Used (Some b))];
                       [(CUse (0, 1), Used None); (CRegister (0, 1) b, Added true); (CUse (0, 1), Used (Some b))]] /\
  successes c (0, 1) = 1 /\ forall l, In l ps -> ~ In (CUnregister (0, 1)) l.
Proof.
  split; [reflexivity|]. split; [reflexivity|]. intros l [<-|[<-|[]]]; cbn; intuition discriminate.
Qed.
